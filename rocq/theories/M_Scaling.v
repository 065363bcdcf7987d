(** Model of the scaling of losses of pelicun/model/loss_model.py
    ([LossModel.consequence_scaling], lines 508-617, and
    [_apply_consequence_scaling], lines 619-694). *)
From Verif Require Import Prelude M_Base M_Damage.
Set Implicit Arguments.
Local Open Scope string_scope.
Local Open Scope list_scope.

(** The csv file after [pd.read_csv] (loss_model.py:543-552): the names of its columns
    and, for each row, its text cells that are not empty and the number in the
    'Scale Factor' column.  Simplification: text that is not a number in that column
    (an error of [read_csv]) is left out. *)
Record scaling_csv := { csv_columns : list string; csv_rows : list (dict string * num) }.

(** A cell after the missing optional columns are added (loss_model.py:573-577). *)
Definition cell (t : scaling_csv) (r : dict string * num) (column : string) : option string :=
  if mem column (csv_columns t) then dget column (fst r) else None.

(** Python [s.split('--')] *)
Fixpoint split_dashes (s : string) : list string :=
  match s with
  | EmptyString => [""]
  | String a tl =>
      match tl with
      | String b tl' =>
          if Ascii.eqb a "-" && Ascii.eqb b "-" then "" :: split_dashes tl'
          else match split_dashes tl with [] => [] | w :: ws => String a w :: ws end
      | EmptyString => [String a ""]
      end
  end.

(** [range(start, end + 1)] *)
Definition int_range (a b : Z) : list Z :=
  map (fun i => (a + Z.of_nat i)%Z) (seq 0 (Z.to_nat (b + 1 - a))).

(** [_expand_range] (loss_model.py:590-596) *)
Definition expand_range (c : option string) : result (list (option string)) :=
  match c with
  | None => Ok [None]
  | Some t =>
      if contains "--" t then
        let* ints := mapM (fun x => match pyint x with Some z => Ok z | None => Err ValueError end)
                          (split_dashes t) in
        match ints with
        | [a; b] => Ok (map (fun z => Some (str_of_Z z)) (int_range a b))
        | _ => Err ValueError
        end
      else Ok [Some t]
  end.

(** One row of the expanded table (loss_model.py:598-605): all combinations of
    locations and directions. *)
Definition expand_row (t : scaling_csv) (r : dict string * num)
  : result (list (list (string * string) * Qc)) :=
  let* locs := expand_range (cell t r "Location") in
  let* dirs := expand_range (cell t r "Direction") in
  let condition (name : string) (v : option string) :=
    match v with Some x => [(name, x)] | None => [] end in
  Ok (map (fun ld => (condition "dv" (cell t r "Decision Variable")
                      ++ condition "dmg" (cell t r "Component")
                      ++ condition "loc" (fst ld) ++ condition "dir" (snd ld),
                      match snd r with Some f => f | None => 0%Qc end))
          (list_prod locs dirs)).

(** The samples of the two loss models; [None] before they are calculated. *)
Definition samples := list (option table).

(** Effect on the samples, and the exception that ended the call, if any: the samples
    are changed in place, one model after the other. *)
Definition effect := (samples * option exn)%type.

(** loss_model.py:673-694 for one model. *)
Definition scale_model (conds : list (string * string)) (factor : Qc) (raise_missing : bool)
    (s : option table) : result (option table) :=
  match s with
  | None => Ok None
  | Some t =>
      if existsb (fun c => negb (mem (fst c) (levels t))) conds then Err ValueError
      else let* t' := multiply_factor 1 raise_missing t conds factor in Ok (Some t')
  end.

Fixpoint scale_models (conds : list (string * string)) (factor : Qc) (raise_missing : bool)
    (ms : samples) : effect :=
  match ms with
  | [] => ([], None)
  | s :: tl =>
      match scale_model conds factor raise_missing s with
      | Err e => (s :: tl, Some e)
      | Ok s' => let (tl', e) := scale_models conds factor raise_missing tl in (s' :: tl', e)
      end
  end.

(** [_apply_consequence_scaling] (loss_model.py:619-694) *)
Definition apply_consequence_scaling (conds : list (string * string)) (factor : Qc)
    (raise_missing : bool) (ms : samples) : effect :=
  if negb (existsb (fun c => String.eqb (fst c) "dv") conds) then (ms, Some ValueError)
  else scale_models conds factor raise_missing ms.

(** The loop over the expanded table (loss_model.py:609-617). *)
Fixpoint apply_rows (rows : list (list (string * string) * Qc)) (ms : samples) : effect :=
  match rows with
  | [] => (ms, None)
  | r :: tl =>
      match apply_consequence_scaling (fst r) (snd r) false ms with
      | (ms', None) => apply_rows tl ms'
      | (ms', Some e) => (ms', Some e)
      end
  end.

(** [consequence_scaling] (loss_model.py:508-617).  A table without rows makes
    [pd.concat] raise ValueError. *)
Definition consequence_scaling (t : scaling_csv) (ms : samples) : effect :=
  if negb (mem "Decision Variable" (csv_columns t))
     || existsb (fun r => match cell t r "Decision Variable" with None => true | _ => false end) (csv_rows t)
  then (ms, Some ValueError)
  else if negb (mem "Scale Factor" (csv_columns t))
          || existsb (fun r => match snd r with None => true | _ => false end) (csv_rows t)
  then (ms, Some ValueError)
  else match csv_rows t with
       | [] => (ms, Some ValueError)
       | _ => match mapM (expand_row t) (csv_rows t) with
              | Err e => (ms, Some e)
              | Ok l => apply_rows (List.concat l) ms
              end
       end.
