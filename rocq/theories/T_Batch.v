(** Property theorems about the batching of performance groups (C29). *)
From Coq Require Import Sorting.Permutation.
From Verif Require Import Prelude PreludeFacts Pandas PandasFacts M_Batch S_Batch P_Batch.
Local Open Scope string_scope.
Local Open Scope list_scope.

(** Batching never fails when every component reported missing is in the asset. *)
Theorem C29_terminates : forall missing available size cb,
  NoDup (map fst cb) -> Forall (fun r => (0 < snd r)%Z) cb ->
  (forall m, In m missing -> exists r, In r cb /\ cmp (fst r) = m) ->
  exists out, get_pg_batches missing available size cb = Ok out.
Proof.
  intros missing available size cb Hn Hp Hm.
  pose proof (get_pg_batches_total missing available size Hn Hp Hm) as H.
  destruct (get_pg_batches missing available size cb); [eauto|easy].
Qed.
Print Assumptions C29_terminates.

(** Every performance group with damage parameters is in exactly one batch with all its
    blocks; nothing else is in a batch. *)
Theorem C29_cover : forall missing available size cb out,
  NoDup (map fst cb) -> Forall (fun r => (0 < snd r)%Z) cb ->
  get_pg_batches missing available size cb = Ok out ->
  NoDup (map (fun r => fst (snd r)) out) /\
  forall p b, (exists k, In (k, (p, b)) out) <->
              In (p, b) cb /\ In (cmp p) available /\ ~ In (cmp p) missing.
Proof.
  intros missing available size cb out Hn Hp H. split.
  - exact (batches_once missing available size Hn Hp H).
  - exact (batches_cover missing available size Hn Hp H).
Qed.
Print Assumptions C29_cover.

(** Each batch has at most [size] blocks, unless it is one larger performance group. *)
Theorem C29_limit : forall missing available size cb out k,
  NoDup (map fst cb) -> Forall (fun r => (0 < snd r)%Z) cb ->
  get_pg_batches missing available size cb = Ok out ->
  in_batch k out <> [] ->
  (total_blocks (in_batch k out) <= size)%Z \/ List.length (in_batch k out) = 1%nat.
Proof.
  intros missing available size cb out k Hn Hp H.
  exact (batches_limit missing available size Hn Hp H k).
Qed.
Print Assumptions C29_limit.

(** Batches are numbered 1, 2, ..., K without gaps. *)
Theorem C29_numbered : forall missing available size cb out k r,
  NoDup (map fst cb) -> Forall (fun r => (0 < snd r)%Z) cb ->
  get_pg_batches missing available size cb = Ok out ->
  In (k, r) out ->
  (1 <= k)%nat /\ forall j, (1 <= j <= k)%nat -> exists s, In (j, s) out.
Proof.
  intros missing available size cb out k r Hn Hp H.
  exact (batches_numbered missing available size Hn Hp H k r).
Qed.
Print Assumptions C29_numbered.

(** Performance groups stay in the order (location, direction, component, uid). *)
Theorem C29_ordered : forall missing available size cb out k1 p1 b1 k2 p2 b2,
  NoDup (map fst cb) -> Forall (fun r => (0 < snd r)%Z) cb ->
  get_pg_batches missing available size cb = Ok out ->
  In (k1, (p1, b1)) out -> In (k2, (p2, b2)) out ->
  label_le [loc p1; dir p1; cmp p1; uid p1] [loc p2; dir p2; cmp p2; uid p2] = true ->
  (k1 <= k2)%nat.
Proof.
  intros missing available size cb out k1 p1 b1 k2 p2 b2 Hn Hp H.
  exact (batches_in_order missing available size Hn Hp H k1 p1 b1 k2 p2 b2).
Qed.
Print Assumptions C29_ordered.

(** A batch is only closed when its successor's first group would not have fitted. *)
Theorem C29_greedy : forall missing available size cb out k p b,
  NoDup (map fst cb) -> Forall (fun r => (0 < snd r)%Z) cb ->
  get_pg_batches missing available size cb = Ok out ->
  In (S k, (p, b)) out -> (1 <= k)%nat ->
  (forall q c, In (S k, (q, c)) out ->
     label_le [loc p; dir p; cmp p; uid p] [loc q; dir q; cmp q; uid q] = true) ->
  (size < total_blocks (in_batch k out) + b)%Z.
Proof.
  intros missing available size cb out k p b Hn Hp H.
  intros H1 H2 H3. eapply (batches_greedy missing available size Hn Hp H); eauto.
Qed.
Print Assumptions C29_greedy.

Definition demo_blocks : block_table :=
  [(PG "A" "2" "1" "0", 3%Z); (PG "A" "1" "1" "0", 2%Z); (PG "B" "1" "1" "0", 2%Z);
   (PG "C" "1" "2" "0", 9%Z); (PG "X" "1" "2" "0", 1%Z); (PG "Y" "1" "2" "0", 1%Z)].
Example C29_hypotheses_met :
  NoDup (map fst demo_blocks) /\ Forall (fun r => (0 < snd r)%Z) demo_blocks /\
  get_pg_batches ["X"] ["A"; "B"; "C"] 4 demo_blocks =
  Ok [(1%nat, (PG "A" "1" "1" "0", 2%Z)); (1%nat, (PG "B" "1" "1" "0", 2%Z));
      (2%nat, (PG "C" "1" "2" "0", 9%Z)); (3%nat, (PG "A" "2" "1" "0", 3%Z))].
Proof.
  split; [|split].
  - repeat constructor; simpl; intuition congruence.
  - repeat constructor.
  - reflexivity.
Qed.

(** A component reported missing that is not in the asset is a KeyError. *)
Example C29_unknown_missing : get_pg_batches ["Z"] ["A"] 4 demo_blocks = Err KeyError.
Proof. reflexivity. Qed.
