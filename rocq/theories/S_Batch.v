(** Vocabulary for the batching property, independent of how batches are formed. *)
From Verif Require Import Prelude Pandas.
Local Open Scope list_scope.

(** The rows assigned to batch [k]. *)
Definition in_batch (k : nat) (out : list (nat * (pg * Z))) : list (pg * Z) :=
  map snd (filter (fun r => Nat.eqb (fst r) k) out).

(** Total number of blocks of some rows. *)
Definition total_blocks (rows : list (pg * Z)) : Z := zsum (map snd rows).

(** A batch respects the limit, or is one performance group that is larger by itself. *)
Definition within_limit (size : Z) (rows : list (pg * Z)) : Prop :=
  (total_blocks rows <= size)%Z \/ List.length rows = 1%nat.
