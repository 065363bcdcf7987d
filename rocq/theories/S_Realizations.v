(** Specification vocabulary for single realizations of the damage calculation. *)
From Verif Require Import Prelude Pandas.
Set Implicit Arguments.
Local Open Scope list_scope.

(** Two tables have the same columns, and row [i] of the one is row [j] of the other. *)
Definition same_row {K V} (f : list (K * list V)) (i : nat) (f' : list (K * list V)) (j : nat) : Prop :=
  Forall2 (fun c c' => fst c = fst c' /\ nth_error (snd c) i = nth_error (snd c') j) f f'.
(** All columns of a table have [n] rows. *)
Definition rows {K V} (n : nat) (f : list (K * list V)) : Prop := Forall (fun c => List.length (snd c) = n) f.
(** The amount in a column: nothing if there is no such column or no value. *)
Definition amount_in {K} (f : list (K * list num)) (k : K) (i : nat) (q : Qc) : Prop :=
  (exists col, In (k, col) f /\ nth i col None = Some q) \/
  (q = 0%Qc /\ forall col, In (k, col) f -> nth i col None = None).
