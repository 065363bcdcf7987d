(** Specification vocabulary for comparing two assets that have a component in common (C120). *)
From Verif Require Import Prelude.
Local Open Scope list_scope.

(** The columns whose labels are in [P] are the same in two tables. *)
Definition same_columns {K V} (P : K -> Prop) (f f' : list (K * V)) : Prop :=
  forall k col, P k -> (In (k, col) f <-> In (k, col) f').
