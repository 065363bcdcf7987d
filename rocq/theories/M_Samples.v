(** Model of saving and loading the samples of components, damage and losses
    (pelicun/model/asset_model.py, damage_model.py, loss_model.py).

    A saved sample is a [saved] table of M_FileIO: a file when the labels are joined with
    dashes, the table handed to the caller otherwise.  Simplified: when several errors apply
    at once, which of them is raised first; the text of the file; logging. *)
From Verif Require Import Prelude Pandas M_Base M_FileIO.
Set Implicit Arguments.
Local Open Scope string_scope.
Local Open Scope list_scope.

(** A pandas Series of units under construction: [None] is the NaN of a new Series. *)
Definition partial_units := list (list string * option string).

(** [pd.Series(index=sample.columns, dtype=object)] (asset_model.py:132, damage_model.py:380-382,
    loss_model.py:1798-1800). *)
Definition no_units (t : frame) : partial_units := map (fun e => (fst e, None)) t.

(** [prefix] is made of the first levels of [lab]. *)
Fixpoint starts_with (prefix lab : list string) : bool :=
  match prefix, lab with
  | [], _ => true
  | p :: prefix', x :: lab' => String.eqb p x && starts_with prefix' lab'
  | _ :: _, [] => false
  end.

(** The assignment [units.loc[prefix] = u] to existing labels. *)
Definition assign_units (prefix : list string) (u : option string) (us : partial_units)
  : partial_units :=
  map (fun e => if starts_with prefix (fst e) then (fst e, u) else e) us.

Definition has_prefix (prefix : list string) (us : partial_units) : bool :=
  existsb (fun e => starts_with prefix (fst e)) us.

(** The loop of file_io.py:195-198 looks up the factor of every value of the Series, NaN
    included: a label without a unit raises a KeyError. *)
Fixpoint all_units (us : partial_units) : result units_map :=
  match us with
  | [] => Ok []
  | (lab, Some u) :: tl => let* r := all_units tl in Ok ((lab, u) :: r)
  | (_, None) :: _ => Err KeyError
  end.

(** [file_io.save_to_csv(sample, filepath, units=..., use_simpleindex=(filepath is not None))]. *)
Definition save_with_units (factors : dict Qc) (to_file : bool) (levels : nat)
                           (t : frame) (us : partial_units) : result saved :=
  let* u := all_units us in
  save_columns (Some factors) (Some u) to_file levels t.

(** Number of levels of the columns after file_io.py:519. *)
Definition column_levels (s : saved) : nat :=
  match to_multi_index (header s) with
  | Ok (Multi n _) => n
  | _ => 1
  end.

(** [units.groupby(level=0).first()] (asset_model.py:236) and the same grouping on the decision
    variable (loss_model.py:1873-1878). *)
Definition first_units (us : units_map) : dict string :=
  flat_map (fun g => match snd g with [] => [] | u :: _ => [(fst g, u)] end)
           (groupby String.eqb str_le (map (fun e => (hd "" (fst e), snd e)) us)).

(** ** Components *)

(** The part of [AssetModel] that these functions read and write. *)
Record asset := {
  cmp_sample : frame;
  cmp_units : dict string;
  cmp_blocks : list (list string * Qc)    (* column Blocks of cmp_marginal_params *)
}.

(** asset_model.py:135-136: [units.loc[cmp_id, :] = unit_name]; a component without columns
    raises a KeyError. *)
Definition component_units (units : dict string) (t : frame) : result partial_units :=
  foldM (fun us cu => if has_prefix [fst cu] us
                      then Ok (assign_units [fst cu] (Some (snd cu)) us)
                      else Err KeyError)
        (no_units t) units.

(** asset_model.py:83-167 *)
Definition save_cmp_sample (factors : dict Qc) (to_file : bool) (a : asset) : result saved :=
  let* us := component_units (cmp_units a) (cmp_sample a) in
  save_with_units factors to_file 4 (cmp_sample a) us.

(** asset_model.py:207-256; [base.dedupe_index(sample.T).T] adds the fourth level. *)
Definition load_cmp_sample (factors : dict Qc) (s : saved) : result asset :=
  let* r := load_columns (Some factors) s in
  match snd r with
  | None => Err AssertionError
  | Some us =>
      let* t := if Nat.eqb (column_levels s) 3 then Ok (dedupe_index (fst r))
                else if Nat.eqb (column_levels s) 4 then Ok (fst r)
                else Err ValueError in
      Ok {| cmp_sample := t;
            cmp_units := first_units us;
            cmp_blocks := map (fun e => (fst e, 1%Qc)) t |}
  end.

(** ** Damage *)

(** damage_model.py:384-385: [qnt_units.loc[cmp] = unit]; a component without columns is added
    to the Series under a label padded with empty strings. *)
Definition damage_units (units : dict string) (t : frame) : partial_units :=
  fold_left (fun us cu => if has_prefix [fst cu] us
                          then assign_units [fst cu] (Some (snd cu)) us
                          else us ++ [([fst cu; ""; ""; ""; ""], Some (snd cu))])
            units (no_units t).

(** damage_model.py:336-413; [None]: there is no sample and nothing is written. *)
Definition save_damage (factors : dict Qc) (to_file : bool) (units : dict string)
                       (sample : option frame) : result (option saved) :=
  match sample with
  | None => Ok None
  | Some t => let* s := save_with_units factors to_file 5 t (damage_units units t) in Ok (Some s)
  end.

(** damage_model.py:415-429; naming the columns fails unless there are five levels. *)
Definition load_damage (factors : dict Qc) (s : saved) : result frame :=
  let* r := load_columns (Some factors) s in
  if Nat.eqb (column_levels s) 5 then Ok (fst r) else Err ValueError.

(** [res.drop('Units')] (damage_model.py:405): the table handed to the caller when the units
    are not asked for. *)
Definition without_units (s : saved) : saved :=
  {| header := header s; unit_row := None; cells := cells s |}.

(** regional_sim.py:262 and 346 (and 282 for a part of the columns): the sample is taken out of
    the damage model as a table without units and put back. *)
Definition take_and_put_back (factors : dict Qc) (units : dict string) (t : frame) : result frame :=
  let* r := save_damage factors false units (Some t) in
  match r with
  | None => Err AssertionError
  | Some s => load_damage factors (without_units s)
  end.

(** ** Losses *)

(** The column [('DV', 'Unit')] of the loss parameters: component, decision variable, unit
    ([None]: NaN). *)
Definition loss_unit_table := list (string * string * option string).

Definition pair_le (a b : string * string * option string) : bool :=
  label_le [fst (fst a); snd (fst a)] [fst (fst b); snd (fst b)].

(** loss_model.py:1797-1807; the labels of a loss sample are dv, loss, dmg, ds, loc, dir, uid.
    A pair of decision variable and component of which both occur, but not together, raises a
    KeyError. *)
Definition loss_units (params : loss_unit_table) (t : frame) : result partial_units :=
  let start := sort_labels (no_units t) in
  let dvs := map (fun e => nth 0 (fst e) "") start in
  let cmps := map (fun e => nth 1 (fst e) "") start in
  foldM (fun us p =>
           let '(cmp, dv, u) := p in
           if mem dv dvs && mem cmp cmps
           then if has_prefix [dv; cmp] us then Ok (assign_units [dv; cmp] u us) else Err KeyError
           else Ok us)
        start (isort pair_le params).

(** loss_model.py:1755-1832 and 696-774; without a sample or without parameters the assertions
    at the top fail. *)
Definition save_loss (factors : dict Qc) (to_file : bool) (params : option loss_unit_table)
                     (sample : option frame) : result saved :=
  match sample, params with
  | Some t, Some p =>
      let* us := loss_units p t in save_with_units factors to_file 7 t us
  | _, _ => Err AssertionError
  end.

(** loss_model.py:1834-1900: the sample and the unit of each decision variable.  Naming the
    levels of the units (line 1868) fails unless there are seven, before the number of levels
    of the sample is looked at. *)
Definition load_loss (factors : dict Qc) (s : saved) : result (frame * dict string) :=
  let* r := load_columns (Some factors) s in
  match snd r with
  | None => Err AssertionError
  | Some us =>
      if negb (Nat.eqb (column_levels s) 7) then Err ValueError
      else
        let* t := if Nat.eqb (column_levels s) 6 then Ok (dedupe_index (fst r))
                  else if Nat.eqb (column_levels s) 7 then Ok (fst r)
                  else Err ValueError in
        Ok (t, first_units us)
  end.
