(** Specification vocabulary for repeated calculations with one assessment. *)
From Verif Require Import Prelude Pandas M_Params S_Params.
Set Implicit Arguments.
Local Open Scope list_scope.

(** Component [k] is in the asset in calculation [i] and in all later ones. *)
Definition kept_since (calls : list (list string * list (ptable string))) (i : nat) (k : string) : Prop :=
  forall j call, (i <= j)%nat -> nth_error calls j = Some call -> In k (fst call).
(** The sources of calculation [i] define [k], and the first definition can be used. *)
Definition defined_in (calls : list (list string * list (ptable string))) (i : nat) (k : string) (r : row) : Prop :=
  exists call, nth_error calls i = Some call /\ first_definition (snd call) k r /\ usable r.
(** The definition of [k] in force after the calculations: the earliest one since [k] is in the asset
    without interruption. *)
Definition in_force (calls : list (list string * list (ptable string))) (i : nat) (k : string) (r : row) : Prop :=
  kept_since calls i k /\ defined_in calls i k r /\ forall i' r', (i' < i)%nat -> kept_since calls i' k -> ~ defined_in calls i' k r'.
