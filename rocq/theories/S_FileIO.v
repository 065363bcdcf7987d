(** Specification vocabulary for saving and loading tables. *)
From Coq Require Import Sorting.Permutation.
From Verif Require Import Prelude M_Base M_FileIO S_Base.
Set Implicit Arguments.
Local Open Scope string_scope.
Local Open Scope list_scope.

(** Every unit in use has a conversion factor, and it is not zero. *)
Definition known_units (factors : dict Qc) (units : list string) : Prop :=
  Forall (fun u => exists f, dget u factors = Some f /\ f <> 0%Qc) units.

(** Distinct labels of [n] levels, none of which contains a dash. *)
Definition good_labels (n : nat) (labels : list (list string)) : Prop :=
  labels <> [] /\ NoDup labels /\
  Forall (fun lab => List.length lab = n /\ Forall no_dash lab) labels.

(** How a column of base-unit values appears in a file: [o] is the unit written above it. *)
Definition appears_as (factors : dict Qc) (units : units_map) (lab : list string)
                      (vs : list num) (o : option string) (vs' : list num) : Prop :=
  match o with
  | None => ~ In lab (map fst units) /\ vs' = vs
  | Some u => In (lab, u) units /\
              exists f, dget u factors = Some f /\
                Forall2 (fun v v' => match v, v' with
                                     | Some x, Some y => (y * f)%Qc = x
                                     | None, None => True
                                     | _, _ => False
                                     end) vs vs'
  end.

(** The columns of a file: label as written, unit, cells. *)
Definition file_columns (s : saved) : list (list string * option string * list num) :=
  match unit_row s with
  | Some us => combine (combine (axis_labels (header s)) us) (cells s)
  | None => combine (map (fun l => (l, None)) (axis_labels (header s))) (cells s)
  end.
