(** Specification vocabulary for saved samples. *)
From Coq Require Import Sorting.Permutation Sorting.Sorted.
From Verif Require Import Prelude M_Base M_FileIO S_Base S_FileIO.
Set Implicit Arguments.
Local Open Scope string_scope.
Local Open Scope list_scope.

(** A column of base-unit values [vs], written in the unit [u], reads [vs']. *)
Definition expressed (factors : dict Qc) (u : string) (vs vs' : list num) : Prop :=
  exists f, dget u factors = Some f /\
    Forall2 (fun v v' => match v, v' with
                         | Some x, Some y => (y * f)%Qc = x
                         | None, None => True
                         | _, _ => False
                         end) vs vs'.

(** What is written holds every column of the sample exactly once, in its unit, which stands
    above it.  [unit_is lab u]: the column [lab] is to be written in [u]. *)
Definition written (factors : dict Qc) (unit_is : list string -> string -> Prop)
                   (name : list string -> list string) (t : frame) (s : saved) : Prop :=
  List.length (file_columns s) = List.length t /\
  forall lab vs, In (lab, vs) t ->
    exists u vs', unit_is lab u /\ In (name lab, Some u, vs') (file_columns s) /\
                  expressed factors u vs vs'.

(** The column headers of a file and of a table in memory. *)
Definition in_file (lab : list string) : list string := [join "-" lab].
Definition in_table (lab : list string) : list string := lab.

(** The same columns, in the order of their labels. *)
Definition same_columns (t t' : frame) : Prop :=
  Permutation t' t /\ StronglySorted (fun a b => label_le (fst a) (fst b) = true) t'.

(** The component is the first level of the label of a column of quantities or damage. *)
Definition component_of (lab : list string) (c : string) : Prop := hd "" lab = c.

Definition unit_by_component (units : dict string) (lab : list string) (u : string) : Prop :=
  exists c, component_of lab c /\ In (c, u) units.

(** The columns of a loss sample start with the decision variable and the component. *)
Definition loss_column (lab : list string) (dv c : string) : Prop :=
  nth 0 lab "" = dv /\ nth 1 lab "" = c.

Definition unit_by_pair (params : list (string * string * option string))
                        (lab : list string) (u : string) : Prop :=
  exists dv c, loss_column lab dv c /\ In (c, dv, Some u) params.
