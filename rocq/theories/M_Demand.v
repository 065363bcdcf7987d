(** Model of the demand model (pelicun/model/demand_model.py): the demand sample and its
    extension, residual drift estimation, calibration settings and filtering, cloning, and the
    demands required by performance groups.

    Not modelled: the distribution fitting called by [calibrate_model] (uq.py), logging, saving
    and loading of calibrated models to files.  External functions are arguments. *)
From Coq Require Import Reals.
From Verif Require Import Prelude Pandas M_Base M_FileIO M_Damage.
Set Implicit Arguments.
Local Open Scope string_scope.
Local Open Scope list_scope.

(** ** The demand sample *)

(** [str(name).replace(' ', '')] (demand_model.py:257) *)
Fixpoint remove_spaces (s : string) : string :=
  match s with
  | EmptyString => ""
  | String a tl => if Ascii.eqb a " " then remove_spaces tl else String a (remove_spaces tl)
  end.

(** demand_model.py:199-264: event_ID, the first of four levels, is dropped; otherwise the
    first three levels are used and fewer levels raise IndexError.  [n] is the number of levels.
    [np.vectorize] without [otypes] raises ValueError on an empty array. *)
Definition parse_header (n : nat) (labels : list (list string)) : result (list (list string)) :=
  let start := if Nat.eqb n 4 then 1%nat else 0%nat in
  if Nat.ltb n 3 then Err IndexError
  else match labels with
       | [] => Err ValueError
       | _ => Ok (map (fun lab => map (fun i => remove_spaces (nth i lab ""))
                                      [start; S start; S (S start)]) labels)
       end.

Definition n_levels {A} (t : list (list string * A)) : nat :=
  match t with [] => 0%nat | e :: _ => List.length (fst e) end.

Definition d_type (lab : list string) : string := nth 0 lab "".

(** [.astype(bool)]: NaN is truthy. *)
Definition truthy (x : num) : bool :=
  match x with None => true | Some q => negb (Qceqb q 0) end.

(** [.loc[~error_list, :]] (demand_model.py:302): numpy's [nonzero] of the two-dimensional mask
    lists a row once per ERROR column in which it has no error. *)
Definition kept_rows (n : nat) (errs : list (list num)) : list nat :=
  flat_map (fun i => repeat i (List.length (filter (fun col => negb (truthy (nth i col None))) errs)))
           (seq 0 n).

Definition take_rows (is_ : list nat) (col : list num) : list num :=
  map (fun i => nth i col None) is_.

Definition n_rows (t : frame) : nat :=
  match t with [] => 0%nat | e :: _ => List.length (snd e) end.

(** demand_model.py:286-304 on a table with parsed header. *)
Definition remove_errors (t : frame) : frame :=
  let errs := filter (fun e => String.eqb (d_type (fst e)) "ERROR") t in
  match errs with
  | [] => t
  | _ => map (fun e => (fst e, take_rows (kept_rows (n_rows t) (map snd errs)) (snd e)))
             (filter (fun e => negb (String.eqb (d_type (fst e)) "ERROR")) t)
  end.

(** The part of the model state concerned: sample in base units, units named by the user, and
    the name of the units row as it was in the file. *)
Record demand := { d_sample : frame; d_units : units_map; d_units_name : string }.

(** demand_model.py:184-322.  [name] is the label of the units row (matched case-insensitively
    by load_data, file_io.py:472-476); a table without one fails the assertion at 279. *)
Definition load_sample (factors : dict Qc) (name : string) (s : saved) : result demand :=
  let* r := load_columns (Some factors) s in
  match snd r with
  | None => Err AssertionError
  | Some us =>
      let* labels := parse_header (n_levels (fst r)) (map fst (fst r)) in
      let* ulabels := parse_header (n_levels (fst r)) (map fst us) in
      Ok {| d_sample := remove_errors (combine labels (map snd (fst r)));
            d_units := combine ulabels (map snd us);
            d_units_name := name |}
  end.

(** demand_model.py:154-182 without a file path: the sample in the user's units, and the units
    row ([None] where a column has no unit); [res.loc['Units']] needs that exact label. *)
Definition save_sample (factors : dict Qc) (d : demand)
  : result (list (list string * option string * list num)) :=
  let* s := save_columns (Some factors) (Some (d_units d)) false 3 (d_sample d) in
  if negb (String.eqb (d_units_name d) "Units") then Err KeyError
  else match unit_row s with
       | Some us => Ok (combine (combine (axis_labels (header s)) us) (cells s))
       | None => Err KeyError
       end.

(** A value for a new column: a scalar or an array. *)
Inductive col_value := VScalar (x : num) | VArray (l : list num).

(** The table handed back to [load_sample]: labels, units row, cells. *)
Definition as_saved (t : list (list string * option string * list num)) : saved :=
  {| header := Multi 3 (map (fun e => fst (fst e)) t);
     unit_row := Some (map (fun e => snd (fst e)) t);
     cells := map snd t |}.

(** [df[label] = col] and [units[label] = unit] *)
Fixpoint set_column (lab : list string) (u : option string) (col : list num)
                    (t : list (list string * option string * list num))
  : list (list string * option string * list num) :=
  match t with
  | [] => [(lab, u, col)]
  | e :: tl => if label_eqb lab (fst (fst e)) then (fst (fst e), u, col) :: tl
               else e :: set_column lab u col tl
  end.

(** demand_model.py:475-525; [m] is the number of realizations. *)
Definition expand_sample (factors : dict Qc) (d : demand) (lab : list string)
                         (v : col_value) (unit : string) : result demand :=
  let* t := save_sample factors d in
  let m := n_rows (d_sample d) in
  let* col := match v with
              | VScalar x => Ok (repeat x m)
              | VArray l => if Nat.eqb (List.length l) m then Ok l else Err ValueError
              end in
  load_sample factors "Units" (as_saved (set_column lab (Some unit) col t)).

(** demand_model.py:456-473; [est] is [estimate_RID] applied to the peak drift columns (same
    number of columns and realizations, taken in the user's units), random scatter included. *)
Definition estimate_RID_and_adjust_sample (est : list (list num) -> list (list num))
    (factors : dict Qc) (d : demand) : result demand :=
  let* t := save_sample factors d in
  let pid := filter (fun e => String.eqb (d_type (fst (fst e))) "PID") t in
  match pid with
  | [] => Err KeyError
  | _ => let rid := map (fun pv : (list string * option string * list num) * list num =>
                           let (p, vs) := pv in ("RID" :: tl (fst (fst p)), Some "unitless", vs))
                        (combine pid (est (map snd pid))) in
         load_sample factors "Units" (as_saved (t ++ rid))
  end.

(** ** Residual drift (demand_model.py:382-428) *)

Section RID.
Local Open Scope R_scope.

(** One cell before the scatter; the assignments are made in the order large, medium, small. *)
Definition rid_median (yield_drift pid : R) : R :=
  if Rlt_dec pid yield_drift then 0
  else if Rlt_dec pid (4 * yield_drift) then 0.3 * (pid - yield_drift)
  else if Rle_dec (4 * yield_drift) pid then pid - 3 * yield_drift
  else pid.

(** Scatter on the nonzero values (410), then the peak drift as an upper bound (423). *)
Definition rid_scatter (eps r : R) : R := if Rlt_dec 0 r then exp (ln r + eps) else r.
Definition rid_cell (yield_drift pid eps : R) : R :=
  Rmin pid (rid_scatter eps (rid_median yield_drift pid)).

(** The table: one random number per cell; only the two method names are accepted. *)
Definition estimate_RID (method : string) (yield_drift : R) (pid eps : list (list R))
  : result (list (list R)) :=
  if String.eqb method "FEMA P58" || String.eqb method "FEMA P-58"
  then Ok (map2 (map2 (rid_cell yield_drift)) pid eps)
  else Err ValueError.
End RID.

(** ** Calibration settings (demand_model.py:547-618) *)

(** One row of the calibration table. *)
Record cal_row := {
  family : string;
  censor_lower : num; censor_upper : num;
  truncate_lower : num; truncate_upper : num;
  sig_increase : num
}.

(** The settings of one entry of the configuration.  A limit is [None] when not given and
    [Some None] when it is given but parses to NaN (550-565). *)
Record settings := {
  s_family : option string;
  s_censor_lower : option num; s_censor_upper : option num;
  s_truncate_lower : option num; s_truncate_upper : option num;
  s_unit : option string;
  s_add_uncertainty : option num
}.

(** assessment.py:309-343 *)
Definition scale_factor (factors : dict Qc) (unit : option string) : result Qc :=
  match unit with
  | None => Ok 1%Qc
  | Some u => match dget u factors with Some f => Ok f | None => Err ValueError end
  end.

(** demand_model.py:592-594: a limit that is given and not NaN replaces the current one. *)
Definition set_limit (given : option num) (cur : num) : num :=
  match given with Some (Some q) => Some q | _ => cur end.

(** demand_model.py:584-618 for one row that is selected. *)
Definition apply_settings (fam : string) (f : Qc) (s : settings) (r : cal_row) : cal_row :=
  {| family := fam;
     censor_lower := nmul (set_limit (s_censor_lower s) (censor_lower r)) (Some f);
     censor_upper := nmul (set_limit (s_censor_upper s) (censor_upper r)) (Some f);
     truncate_lower := nmul (set_limit (s_truncate_lower s) (truncate_lower r)) (Some f);
     truncate_upper := nmul (set_limit (s_truncate_upper s) (truncate_upper r)) (Some f);
     sig_increase := match s_add_uncertainty s with
                     | None => sig_increase r
                     | Some v => if String.eqb fam "normal" then nmul v (Some f) else v
                     end |}.

(** demand_model.py:570-582: the demand types an entry of the configuration applies to. *)
Definition selected (demand_type ty : string) : bool :=
  if String.eqb demand_type "ALL" then true
  else String.eqb (hd "" (split_on "_" ty)) demand_type.

Definition parse_settings (factors : dict Qc) (demand_type : string) (s : settings)
                          (cal : list (list string * cal_row)) : result (list (list string * cal_row)) :=
  match s_family s with
  | None => Err KeyError
  | Some fam =>
      let* f := scale_factor factors (s_unit s) in
      Ok (map (fun e => if selected demand_type (d_type (fst e))
                        then (fst e, apply_settings fam f s (snd e)) else e) cal)
  end.

(** demand_model.py:643-669: ALL first, then every other entry. *)
Definition calibration_settings (factors : dict Qc) (config : dict settings)
                                (labels : list (list string)) : result (list (list string * cal_row)) :=
  let empty := {| family := "nan"; censor_lower := None; censor_upper := None;
                  truncate_lower := None; truncate_upper := None; sig_increase := None |} in
  match dget "ALL" config with
  | None => Err KeyError
  | Some s =>
      let* cal := parse_settings factors "ALL" s (map (fun lab => (lab, empty)) labels) in
      foldM (fun acc e => if String.eqb (fst e) "ALL" then Ok acc
                          else parse_settings factors (fst e) (snd e) acc) cal config
  end.

(** ** Filtering (demand_model.py:620-633, 690-737) *)

(** One realization is kept if all columns with a limit are strictly inside. *)
Definition row_inside (lower upper : list num) (row : list num) : bool :=
  forallb (fun xu => match snd xu with None => true | Some _ => nlt (fst xu) (snd xu) end)
          (combine row upper)
  && forallb (fun xl => match snd xl with None => true | Some _ => nlt (snd xl) (fst xl) end)
             (combine row lower).

Definition all_nan (lims : list num) : bool :=
  forallb (fun x => match x with None => true | Some _ => false end) lims.

(** demand_model.py:690-706: the censored realizations are removed and counted. *)
Definition censor (cal : list cal_row) (rows : list (list num)) : list (list num) * nat :=
  let up := map censor_upper cal in
  let lo := map censor_lower cal in
  if all_nan up && all_nan lo then (rows, 0%nat)
  else let kept := filter (row_inside lo up) rows in
       (kept, List.length (filter (fun r => negb (row_inside lo up r)) rows)).

(** demand_model.py:712-729 *)
Definition truncate (cal : list cal_row) (rows : list (list num)) : list (list num) :=
  let up := map truncate_upper cal in
  let lo := map truncate_lower cal in
  if all_nan up && all_nan lo then rows
  else let removed := List.length (filter (fun r => negb (row_inside lo up r)) rows) in
       if Nat.ltb 0 removed then filter (row_inside lo up) rows else rows.

(** demand_model.py:735-750: (empirical columns, columns to be fitted, number censored); a row
    keeps the cells of the columns selected by their family. *)
Definition select_cells (keep : cal_row -> bool) (cal : list cal_row) (row : list num) : list num :=
  map snd (filter (fun cx => keep (fst cx)) (combine cal row)).
Definition is_empirical (c : cal_row) : bool := String.eqb (family c) "empirical".
Definition calibration_data (cal : list cal_row) (rows : list (list num))
  : list (list num) * list (list num) * nat :=
  let (kept, censored) := censor cal rows in
  let kept := truncate cal kept in
  (map (select_cells is_empirical cal) kept,
   map (select_cells (fun c => negb (is_empirical c)) cal) kept,
   censored).

(** ** Cloning (demand_model.py:1032-1127) *)

(** Positional selection; a position past the end raises IndexError. *)
Definition iloc {A} (l : list A) (is_ : list nat) : result (list A) :=
  mapM (fun i => match nth_error l i with Some x => Ok x | None => Err IndexError end) is_.

(** demand_model.py:1107-1116: positions and new labels. *)
Fixpoint clone_columns (i : nat) (labels : list (list string))
                       (cloning : list (list string * list (list string)))
  : list (nat * list string) :=
  match labels with
  | [] => []
  | lab :: tl =>
      (match aget label_eqb lab cloning with
       | None => [(i, lab)]
       | Some new => map (fun l => (i, l)) new
       end) ++ clone_columns (S i) tl cloning
  end.

Fixpoint has_dup (l : list string) : bool :=
  match l with [] => false | x :: tl => mem x tl || has_dup tl end.

Definition clone_demands (cloning : dict (list string)) (d : demand) : result demand :=
  if has_dup (List.concat (map snd cloning)) then Err ValueError
  else
    let table := map (fun e => (split_on "-" (fst e), map (split_on "-") (snd e))) cloning in
    let pos := clone_columns 0 (map fst (d_sample d)) table in
    let* cols := iloc (map snd (d_sample d)) (map fst pos) in
    let* units := iloc (map snd (d_units d)) (map fst pos) in
    Ok {| d_sample := combine (map snd pos) cols;
          d_units := combine (map snd pos) units;
          d_units_name := d_units_name d |}.

(** ** Demands required by performance groups (demand_model.py:1226-1386) *)

(** base.py:1310-1350 *)
Definition EDP_to_demand_type : dict string :=
  [("Story Drift Ratio", "PID"); ("Peak Interstory Drift Ratio", "PID");
   ("Roof Drift Ratio", "PRD"); ("Peak Roof Drift Ratio", "PRD");
   ("Damageable Wall Drift", "DWD"); ("Racking Drift Ratio", "RDR");
   ("Mega Drift Ratio", "PMD"); ("Residual Drift Ratio", "RID");
   ("Residual Interstory Drift Ratio", "RID"); ("Peak Effective Drift Ratio", "EDR");
   ("Peak Floor Acceleration", "PFA"); ("Peak Floor Velocity", "PFV");
   ("Peak Floor Displacement", "PFD"); ("Peak Link Rotation Angle", "LR");
   ("Peak Link Beam Chord Rotation", "LBR"); ("Peak Gust Wind Speed", "PWS");
   ("Peak Wind Force", "PWF"); ("Peak Internal Force", "PIF"); ("Peak Line Force", "PLF");
   ("Peak Wind Pressure", "PWP"); ("Peak Inundation Height", "PIH");
   ("Peak Ground Acceleration", "PGA"); ("Peak Ground Velocity", "PGV");
   ("Spectral Acceleration", "SA"); ("Spectral Velocity", "SV");
   ("Spectral Displacement", "SD"); ("Peak Spectral Acceleration", "SA");
   ("Peak Spectral Velocity", "SV"); ("Peak Spectral Displacement", "SD");
   ("Permanent Ground Deformation", "PGD"); ("One", "ONE")].

(** One demand of a component: the cells Type, Offset, Directional. *)
Record term := { t_type : option string; t_offset : num; t_directional : num }.

(** The cell ('Demand', 'Expression'): the column may not exist, or be blank for this component. *)
Inductive expr_cell := NoColumn | Blank | Text (s : string).

(** The demand columns of one component; [terms] are Demand, Demand2, ... as far as they exist. *)
Record demand_params := { expression : expr_cell; terms : list term }.

(** [allowed_chars] (demand_model.py:1529): letters, digits, ^ + - * / ( ) and white space. *)
Definition allowed_char (a : ascii) : bool :=
  let n := nat_of_ascii a in
  (Nat.leb 48 n && Nat.leb n 57) || (Nat.leb 65 n && Nat.leb n 90) || (Nat.leb 97 n && Nat.leb n 122)
  || existsb (Ascii.eqb a) ["^"; "+"; "-"; "*"; "/"; "("; ")"; " "]%char
  || (Nat.leb 9 n && Nat.leb n 13) || (Nat.leb 28 n && Nat.leb n 31).
Fixpoint all_chars (p : ascii -> bool) (s : string) : bool :=
  match s with EmptyString => true | String a tl => p a && all_chars p tl end.
Fixpoint caret_to_stars (s : string) : string :=
  match s with
  | EmptyString => ""
  | String a tl => if Ascii.eqb a "^" then String "*" (String "*" (caret_to_stars tl))
                   else String a (caret_to_stars tl)
  end.

(** demand_model.py:1491-1536 *)
Definition clean_up_expression (e : string) : result string :=
  if all_chars allowed_char e then Ok (caret_to_stars e) else Err ValueError.

(** [int(x)] of a float: towards zero. *)
Definition int_of (q : Qc) : Z := Z.quot (Qnum (this q)) (Zpos (Qden (this q))).

(** demand_model.py:1331-1376: the demand a term asks for at one performance group. *)
Definition edp_of (offsets : dict Qc) (p : pg) (t : term) : result string :=
  match t_type t with
  | None => Err AssertionError
  | Some ty =>
      let* de := (if has_char "|" ty
                  then match split_on "|" ty with
                       | [a; b] => match dget a EDP_to_demand_type with
                                   | Some d => Ok (d, (d ++ "_" ++ b)%string)
                                   | None => Err KeyError
                                   end
                       | _ => Err ValueError
                       end
                  else match dget ty EDP_to_demand_type with
                       | Some d => Ok (d, d)
                       | None => Err KeyError
                       end) in
      let* off := match t_offset t with
                  | None => Err ValueError
                  | Some o => Ok (match dget (fst de) offsets with
                                  | Some e => int_of (o + e)%Qc
                                  | None => int_of o
                                  end)
                  end in
      let direction := if truthy (t_directional t) then dir p else "0" in
      match pyint (loc p) with
      | None => Err ValueError
      | Some l => if (l + off <? 0)%Z then Err ValueError
                  else Ok (snd de ++ "-" ++ str_of_Z (l + off) ++ "-" ++ direction)%string
      end
  end.

(** demand_model.py:1291-1322: the terms to be used.  [nterms] is the number of variables numexpr
    finds in an expression (an error if it does not parse); a blank cell is NaN, on which the
    regular expression match raises TypeError. *)
Definition terms_of (nterms : string -> result nat) (d : demand_params)
  : result (option string * list term) :=
  match expression d with
  | NoColumn => match terms d with t :: _ => Ok (None, [t]) | [] => Err KeyError end
  | Blank => Err TypeError
  | Text e =>
      let* c := clean_up_expression e in
      let* n := nterms c in
      if Nat.leb n (List.length (terms d)) then Ok (Some e, firstn n (terms d)) else Err KeyError
  end.

Definition required_key := (list string * option string)%type.
Definition opt_eqb (a b : option string) : bool :=
  match a, b with None, None => true | Some x, Some y => String.eqb x y | _, _ => false end.
Definition key_eqb (a b : required_key) : bool :=
  label_eqb (fst a) (fst b) && opt_eqb (snd a) (snd b).

Definition key_of (nterms : string -> result nat) (params : dict demand_params)
                  (offsets : dict Qc) (p : pg) : result required_key :=
  match dget (cmp p) params with
  | None => Err KeyError
  | Some d =>
      let* et := terms_of nterms d in
      let* edps := mapM (edp_of offsets p) (snd et) in
      Ok (edps, fst et)
  end.

(** [required_edps[key].append(pg)] on a defaultdict. *)
Fixpoint append_to (k : required_key) (p : pg) (l : list (required_key * list pg))
  : list (required_key * list pg) :=
  match l with
  | [] => [(k, [p])]
  | (k', ps) :: tl => if key_eqb k k' then (k', ps ++ [p]) :: tl else (k', ps) :: append_to k p tl
  end.

Definition get_required_demand_type (nterms : string -> result nat) (params : dict demand_params)
    (offsets : dict Qc) (pgs : list pg) : result (list (required_key * list pg)) :=
  foldM (fun acc p => let* k := key_of nterms params offsets p in Ok (append_to k p acc)) [] pgs.

(** demand_model.py:1539-1584.  [available] maps (type, loc) to the directions of the sample
    (damage_model.py:826-832).  Only presence of (type, loc) matters: both later tests look at
    the third character of the label and at the number of entries, which is never zero here. *)
Definition verify_edps_available (sample : frame) (required : list required_key) : result unit :=
  foldM (fun _ k =>
    foldM (fun _ edp =>
      match split_on "-" edp with
      | [ty; l; _] =>
          if existsb (fun e => match fst e with
                               | a :: b :: _ => String.eqb a ty && String.eqb b l
                               | _ => false end) sample
          then Ok tt else Err ValueError
      | _ => Err ValueError
      end) tt (fst k)) tt required.

(** [max(axis=1)]: NaN is skipped, NaN if all are. *)
Definition nmax (l : list num) : num :=
  match somes l with [] => None | x :: tl => Some (fold_left Qcmax tl x) end.
Definition max_columns (cols : list (list num)) : list num :=
  match cols with
  | [] => []
  | c :: _ => map (fun i => nmax (map (fun col => nth i col None) cols)) (seq 0 (List.length c))
  end.

(** demand_model.py:1442-1476: the values of one demand. *)
Definition edp_values (multipliers : dict Qc) (sample : frame) (edp : string) : result (list num) :=
  match split_on "-" edp with
  | [ty; l; d] =>
      if String.eqb d "0" then
        match filter (fun e => match fst e with
                               | a :: b :: _ => String.eqb a ty && String.eqb b l
                               | _ => false end) sample with
        | [] => Err KeyError
        | cols =>
            let* m := match dget ty multipliers with
                      | Some m => Ok m
                      | None => match dget "ALL" multipliers with
                                | Some m => Ok m | None => Err ValueError end
                      end in
            Ok (scale_values m (max_columns (map snd cols)))
        end
      else match aget label_eqb [ty; l; d] sample with
           | Some v => Ok v
           | None => Err KeyError
           end
  | _ => Err ValueError
  end.

(** [edp_values[edp] = demand]: a repeated demand is kept once (1478). *)
Fixpoint collect (multipliers : dict Qc) (sample : frame) (edps : list string)
                 (acc : dict (list num)) : result (dict (list num)) :=
  match edps with
  | [] => Ok acc
  | e :: tl => let* v := edp_values multipliers sample e in
               collect multipliers sample tl (dset e v acc)
  end.

(** demand_model.py:1437-1488 for one key; [eval] is [numexpr.evaluate] with the variables X1,
    X2, ... bound to the distinct demands in order. *)
Definition assemble_one (eval : string -> dict (list num) -> result (list num))
    (multipliers : dict Qc) (sample : frame) (k : required_key) : result (list num) :=
  let* vals := collect multipliers sample (fst k) [] in
  match snd k with
  | None => match rev vals with v :: _ => Ok (snd v) | [] => Err NameError end
  | Some e =>
      let* c := clean_up_expression e in
      eval c (map (fun iv => (("X" ++ str_of_nat (S (fst iv)))%string, snd (snd iv)))
                  (combine (seq 0 (List.length vals)) vals))
  end.

Definition assemble_required_demand_data
    (eval : string -> dict (list num) -> result (list num))
    (multipliers : dict Qc) (sample : frame) (required : list required_key)
  : result (list (required_key * list num)) :=
  mapM (fun k => let* v := assemble_one eval multipliers sample k in Ok (k, v)) required.

(** damage_model.py:822-846: what the damage calculation does for a batch. *)
Definition batch_demands (nterms : string -> result nat)
    (eval : string -> dict (list num) -> result (list num))
    (params : dict demand_params) (offsets multipliers : dict Qc) (sample : frame) (pgs : list pg)
  : result (list (required_key * list pg) * list (required_key * list num)) :=
  let* req := get_required_demand_type nterms params offsets pgs in
  let* _ := verify_edps_available sample (map fst req) in
  let* dem := assemble_required_demand_data eval multipliers sample (map fst req) in
  Ok (req, dem).

(** damage_model.py:1083-1090: the demand compared with the capacities of a performance group is
    the one stored under the key the group was filed under. *)
Definition demand_of (r : list (required_key * list pg) * list (required_key * list num)) (p : pg)
  : option (list num) :=
  match find (fun kp => existsb (pg_eqb p) (snd kp)) (fst r) with
  | Some kp => aget key_eqb (fst kp) (snd r)
  | None => None
  end.
