(** Proofs about the batching of performance groups. *)
From Coq Require Import Sorting.Permutation Sorting.Sorted.
From Verif Require Import Prelude PreludeFacts Pandas PandasFacts M_Batch S_Batch.
Set Implicit Arguments.
Local Open Scope list_scope.

Definition positive (cb : block_table) : Prop := Forall (fun r => (0 < snd r)%Z) cb.

(** ** The loop forms greedy chunks *)

Definition chunk (size : Z) (a rest : block_table) : Prop :=
  a <> [] /\ ((total_blocks a <= size)%Z \/ List.length a = 1%nat) /\
  match rest with [] => True | (_, b) :: _ => (size < total_blocks a + b)%Z end.

Inductive chunked (size : Z) : nat -> block_table -> list batched -> Prop :=
| chunked_nil i : chunked size i [] []
| chunked_cons i a rest out :
    chunk size a rest -> chunked size (S i) rest out ->
    chunked size i (a ++ rest) (map (pair i) a ++ out).

Fixpoint span_fit (size acc : Z) (cb : block_table) : block_table * block_table :=
  match cb with
  | [] => ([], [])
  | (p, b) :: tl =>
      if (acc + b <=? size)%Z
      then let '(x, y) := span_fit size (acc + b) tl in ((p, b) :: x, y)
      else ([], cb)
  end.

Lemma span_fit_app size acc cb : fst (span_fit size acc cb) ++ snd (span_fit size acc cb) = cb.
Proof.
  revert acc. induction cb as [|[p b] cb IH]; intros acc; simpl; [easy|].
  destruct (acc + b <=? size)%Z; [|easy]. specialize (IH (acc + b)%Z).
  destruct (span_fit size (acc + b) cb); simpl in *. now rewrite IH.
Qed.

Lemma span_fit_total size acc cb :
  (acc <= size)%Z -> (acc + total_blocks (fst (span_fit size acc cb)) <= size)%Z.
Proof.
  revert acc. induction cb as [|[p b] cb IH]; intros acc Ha; simpl; [unfold total_blocks; simpl; lia|].
  destruct (Z.leb_spec (acc + b) size); [|unfold total_blocks; simpl; lia].
  specialize (IH _ H). destruct (span_fit size (acc + b) cb); simpl in *.
  unfold total_blocks in *. simpl. lia.
Qed.

Lemma span_fit_rest size acc cb :
  match snd (span_fit size acc cb) with
  | [] => True
  | (_, b) :: _ => (size < acc + total_blocks (fst (span_fit size acc cb)) + b)%Z
  end.
Proof.
  revert acc. induction cb as [|[p b] cb IH]; intros acc; simpl; [easy|].
  destruct (Z.leb_spec (acc + b) size).
  - specialize (IH (acc + b)%Z). destruct (span_fit size (acc + b) cb) as [x y]; simpl in *.
    destruct y as [|[p' b'] y]; [easy|]. unfold total_blocks in *; simpl. lia.
  - simpl. unfold total_blocks; simpl. lia.
Qed.

Lemma cumulate_app acc a b :
  cumulate acc (a ++ b) = cumulate acc a ++ cumulate (acc + total_blocks a) b.
Proof.
  revert acc. induction a as [|[p x] a IH]; intros acc; simpl.
  - f_equal. unfold total_blocks; simpl; lia.
  - f_equal. rewrite IH. f_equal. f_equal. unfold total_blocks; simpl. lia.
Qed.

Lemma cumulate_cum_gt acc cb : positive cb -> Forall (fun r => (acc < b_cum r)%Z) (cumulate acc cb).
Proof.
  revert acc. induction cb as [|[p b] cb IH]; intros acc Hp; simpl; [constructor|].
  inversion Hp; subst; simpl in *. constructor; simpl; [lia|].
  eapply Forall_impl; [|exact (IH (acc + b)%Z H2)]. simpl; lia.
Qed.

Lemma cumulate_cum_le acc cb : positive cb ->
  Forall (fun r => (b_cum r <= acc + total_blocks cb)%Z) (cumulate acc cb).
Proof.
  revert acc. induction cb as [|[p b] cb IH]; intros acc Hp; simpl; [constructor|].
  inversion Hp; subst; simpl in *.
  assert (0 <= total_blocks cb)%Z.
  { apply zsum_nonneg. apply Forall_map. eapply Forall_impl; [|exact H2]. simpl; lia. }
  constructor; unfold total_blocks in *; simpl; [lia|].
  eapply Forall_impl; [|exact (IH (acc + b)%Z H2)]. simpl; lia.
Qed.

Lemma cumulate_batch acc cb : Forall (fun r => b_batch r = 0%nat) (cumulate acc cb).
Proof. revert acc. induction cb as [|[p b] cb IH]; intros acc; simpl; constructor; auto. Qed.

Lemma cumulate_last acc cb : cb <> [] -> In (acc + total_blocks cb)%Z (map b_cum (cumulate acc cb)).
Proof.
  revert acc. induction cb as [|[p b] cb IH]; intros acc Hne; [easy|].
  destruct cb as [|r cb].
  - simpl. left. unfold total_blocks; simpl; lia.
  - right. replace (acc + total_blocks ((p, b) :: r :: cb))%Z with ((acc + b) + total_blocks (r :: cb))%Z.
    + apply IH. easy.
    + unfold total_blocks; simpl; lia.
Qed.

Lemma cumulate_shift acc m cb :
  map (fun r => BRow (b_pg r) (b_blocks r) (b_cum r - m) (b_batch r)) (cumulate acc cb)
  = cumulate (acc - m) cb.
Proof.
  revert acc. induction cb as [|[p b] cb IH]; intros acc; simpl; [easy|].
  rewrite IH. f_equal; [f_equal; lia|f_equal; lia].
Qed.

Definition proj (r : brow) : batched := (b_batch r, (b_pg r, b_blocks r)).

Lemma proj_set_cumulate i acc a : map proj (map (set_batch i) (cumulate acc a)) = map (pair i) a.
Proof. revert acc. induction a as [|[p b] a IH]; intros acc; simpl; [easy|]. now rewrite IH. Qed.

Lemma proj_shift m rows :
  map proj (map (fun r => BRow (b_pg r) (b_blocks r) (b_cum r - m) (b_batch r)) rows) = map proj rows.
Proof. rewrite map_map. reflexivity. Qed.

(** Rows selected in one pass. *)
Lemma fits_span size acc cb :
  positive cb -> (0 <= acc)%Z ->
  map (fun r => if fits size r then set_batch 0 r else r) (cumulate acc cb) = cumulate acc cb.
Proof.
  intros _ _. rewrite <- (map_id (cumulate acc cb)) at 2. apply map_ext_in.
  intros r Hr. pose proof (cumulate_batch acc cb) as H. rewrite Forall_forall in H.
  specialize (H r Hr). destruct (fits size r); [|easy]. destruct r; simpl in *; now subst.
Qed.

Lemma mark_span size i acc cb :
  positive cb -> (0 <= acc)%Z ->
  map (fun r => if fits size r then set_batch i r else r) (cumulate acc cb) =
  map (set_batch i) (cumulate acc (fst (span_fit size acc cb)))
  ++ cumulate (acc + total_blocks (fst (span_fit size acc cb))) (snd (span_fit size acc cb)).
Proof.
  revert acc. induction cb as [|[p b] cb IH]; intros acc Hp Ha; simpl; [easy|].
  inversion Hp; subst; simpl in *.
  unfold fits at 1; simpl. destruct (Z.leb_spec (acc + b) size).
  - assert (0 <? acc + b = true)%Z as -> by (apply Z.ltb_lt; lia). simpl.
    rewrite IH by (auto; lia). destruct (span_fit size (acc + b) cb) as [x y]; simpl.
    f_equal. f_equal. f_equal. unfold total_blocks; simpl; lia.
  - simpl.
    replace (acc + total_blocks [])%Z with acc by (unfold total_blocks; simpl; lia).
    f_equal. transitivity (map (fun r => r) (cumulate (acc + b) cb)); [|apply map_id].
    apply map_ext_in. intros r Hr. pose proof (cumulate_cum_gt (acc + b)%Z H2) as Hg.
    rewrite Forall_forall in Hg. specialize (Hg r Hr). unfold fits.
    assert (b_cum r <=? size = false)%Z as -> by (apply Z.leb_gt; lia). easy.
Qed.

Lemma existsb_span size acc cb :
  positive cb -> (0 <= acc)%Z ->
  existsb (fits size) (cumulate acc cb) =
  match fst (span_fit size acc cb) with [] => false | _ => true end.
Proof.
  intros Hp Ha. destruct cb as [|[p b] cb]; simpl; [easy|]. inversion Hp; subst; simpl in *.
  unfold fits at 1; simpl. destruct (Z.leb_spec (acc + b) size).
  - assert (0 <? acc + b = true)%Z as -> by (apply Z.ltb_lt; lia). simpl.
    now destruct (span_fit size (acc + b) cb).
  - simpl. apply not_true_is_false. rewrite existsb_exists. intros (r & Hr & Hf).
    pose proof (cumulate_cum_gt (acc + b)%Z H2) as Hg. rewrite Forall_forall in Hg.
    specialize (Hg r Hr). unfold fits in Hf. apply andb_true_iff in Hf as [Hf _].
    apply Z.leb_le in Hf. lia.
Qed.

(** Rows already placed. *)
Definition placed (i : nat) (rows : list brow) : Prop :=
  Forall (fun r => (b_cum r <= 0)%Z /\ (1 <= b_batch r < i)%nat) rows.

Lemma mark_first_placed i j rows tl :
  placed j rows -> mark_first i (rows ++ tl) = (let* t := mark_first i tl in Ok (rows ++ t)).
Proof.
  induction 1 as [|r rows [Hc _] Hr IH]; simpl.
  - now destruct (mark_first i tl).
  - assert (0 <? b_cum r = false)%Z as -> by (apply Z.ltb_ge; lia).
    rewrite IH. now destruct (mark_first i tl).
Qed.

Lemma mark_batch_chunk size i rows cb :
  placed i rows -> positive cb -> cb <> [] -> (1 <= i)%nat ->
  exists a rest, cb = a ++ rest /\ chunk size a rest /\
    mark_batch size i (rows ++ cumulate 0 cb)
    = Ok (rows ++ map (set_batch i) (cumulate 0 a) ++ cumulate (total_blocks a) rest).
Proof.
  intros Hrows Hp Hne Hi. unfold mark_batch.
  assert (Hnf : forall r, In r rows -> fits size r = false).
  { intros r Hr. unfold placed in Hrows. rewrite Forall_forall in Hrows. destruct (Hrows r Hr) as [Hc _].
    unfold fits. assert (0 <? b_cum r = false)%Z as -> by (apply Z.ltb_ge; lia). now rewrite andb_false_r. }
  assert (Hex : existsb (fits size) (rows ++ cumulate 0 cb) = existsb (fits size) (cumulate 0 cb)).
  { rewrite existsb_app. replace (existsb (fits size) rows) with false; [easy|].
    symmetry. apply not_true_is_false. rewrite existsb_exists. intros (r & Hr & Hf).
    rewrite (Hnf r Hr) in Hf. easy. }
  rewrite Hex, existsb_span by (auto; lia).
  destruct (fst (span_fit size 0 cb)) as [|r0 a0] eqn:Ef.
  - destruct cb as [|[p b] cb]; [easy|].
    rewrite mark_first_placed with (j := i) by easy. inversion Hp; subst; simpl in *.
    assert (Hb : (size < b)%Z).
    { destruct (Z.leb_spec b size); [|easy]. destruct (span_fit size b cb); easy. }
    clear Ef Hex.
    replace (0 <? b)%Z with true by (symmetry; apply Z.ltb_lt; lia). simpl.
    exists [(p, b)], cb. split; [easy|]. split.
    + split; [easy|]. split; [now right|].
      destruct cb as [|[p' b'] cb]; [easy|]. inversion H2; subst; simpl in *.
      unfold total_blocks; simpl. lia.
    + replace (total_blocks [(p, b)]) with b by (unfold total_blocks; simpl; lia). reflexivity.
  - exists (fst (span_fit size 0 cb)), (snd (span_fit size 0 cb)).
    split; [symmetry; apply span_fit_app|]. split.
    + split; [now rewrite Ef|]. split.
      * left. destruct (Z.le_gt_cases 0 size).
        -- pose proof (span_fit_total cb H). lia.
        -- exfalso. destruct cb as [|[p b] cb]; [easy|]. inversion Hp; subst; simpl in *.
           destruct (Z.leb_spec b size); [lia|easy].
      * pose proof (span_fit_rest size 0 cb) as Hr. destruct (snd (span_fit size 0 cb)) as [|[p b] rest]; [easy|].
        lia.
    + f_equal. rewrite map_app. f_equal.
      * rewrite <- (map_id rows) at 2. apply map_ext_in. intros r Hr. now rewrite (Hnf r Hr).
      * apply mark_span; [easy|lia].
Qed.

Lemma zmax_filter_batch i rows a rest :
  placed i rows -> positive a -> a <> [] -> (1 <= i)%nat ->
  zmax 0 (map b_cum (filter (fun r => Nat.eqb (b_batch r) i)
            (rows ++ map (set_batch i) (cumulate 0 a) ++ cumulate (total_blocks a) rest)))
  = total_blocks a.
Proof.
  intros Hr Ha Hne Hi. rewrite !filter_app.
  rewrite (filter_none _ rows), (filter_none _ (cumulate _ rest)), app_nil_r, filter_all; simpl.
  - rewrite map_map. rewrite (map_ext (fun x => b_cum (set_batch i x)) b_cum) by easy.
    apply zmax_unique.
    + apply (@cumulate_last 0%Z a Hne).
    + intros y Hy. apply in_map_iff in Hy as (r & <- & Hin).
      pose proof (cumulate_cum_le 0%Z Ha) as H. rewrite Forall_forall in H. specialize (H r Hin). lia.
  - intros r Hin. apply in_map_iff in Hin as (r' & <- & _). simpl. apply Nat.eqb_refl.
  - intros r Hin. pose proof (cumulate_batch (total_blocks a) rest) as H. rewrite Forall_forall in H.
    rewrite (H r Hin). apply Nat.eqb_neq. lia.
  - intros r Hin. unfold placed in Hr. rewrite Forall_forall in Hr. destruct (Hr r Hin) as [_ H].
    apply Nat.eqb_neq. lia.
Qed.

Lemma shift_chunk i rows a rest :
  placed i rows -> positive a -> a <> [] -> (1 <= i)%nat ->
  exists rows',
    shift_cum i (rows ++ map (set_batch i) (cumulate 0 a) ++ cumulate (total_blocks a) rest)
    = rows' ++ cumulate 0 rest /\
    placed (S i) rows' /\ map proj rows' = map proj rows ++ map (pair i) a /\
    In 0%Z (map b_cum rows').
Proof.
  intros Hr Ha Hne Hi. unfold shift_cum. rewrite zmax_filter_batch by easy.
  set (sh := fun r => BRow (b_pg r) (b_blocks r) (b_cum r - total_blocks a) (b_batch r)).
  assert (Hpos : (0 <= total_blocks a)%Z).
  { apply zsum_nonneg. apply Forall_map. eapply Forall_impl; [|exact Ha]. simpl; lia. }
  exists (map sh (rows ++ map (set_batch i) (cumulate 0 a))). split; [|split; [|split]].
  - rewrite app_assoc, map_app. f_equal. unfold sh. rewrite cumulate_shift. f_equal. lia.
  - unfold placed. apply Forall_map. apply Forall_app. split.
    + eapply Forall_impl; [|exact Hr]. simpl. intros r [H1 H2]. lia.
    + apply Forall_map. eapply Forall_impl; [|exact (cumulate_cum_le 0%Z Ha)]. simpl. lia.
  - unfold sh. rewrite proj_shift, map_app. f_equal. apply proj_set_cumulate.
  - rewrite map_map, map_app, in_app_iff. right. rewrite map_map. simpl.
    pose proof (@cumulate_last 0%Z a Hne) as H. apply in_map_iff in H as (r & E & Hin).
    apply in_map_iff. exists r. split; [lia|easy].
Qed.

Lemma batch_loop_chunked size k : forall i rows cb,
  placed i rows -> positive cb -> cb <> [] -> (1 <= i)%nat -> (List.length cb <= k)%nat ->
  exists rows' out, batch_loop size (seq i k) (rows ++ cumulate 0 cb) = Ok rows' /\
    map proj rows' = map proj rows ++ out /\ chunked size i cb out.
Proof.
  induction k as [|k IH]; intros i rows cb Hr Hp Hne Hi Hk.
  { destruct cb; simpl in Hk; [easy|lia]. }
  simpl. destruct (@mark_batch_chunk size i rows cb Hr Hp Hne Hi) as (a & rest & -> & Hc & ->). simpl.
  assert (Hane : a <> []) by apply Hc.
  apply Forall_app in Hp as [Hpa Hpr].
  destruct (@shift_chunk i rows a rest Hr Hpa Hane Hi) as (rows' & -> & Hr' & Hproj & H0).
  destruct rest as [|[p b] rest].
  - simpl. rewrite app_nil_r. assert (zmax 0 (map b_cum rows') = 0%Z) as ->.
    { apply zmax_unique; [easy|]. intros y Hy. apply in_map_iff in Hy as (r & <- & Hin).
      unfold placed in Hr'. rewrite Forall_forall in Hr'. now apply Hr'. }
    simpl. exists rows', (map (pair i) a ++ []). split; [easy|]. split.
    + now rewrite app_nil_r.
    + constructor; [easy|]. constructor.
  - assert (Hz : (0 < zmax 0 (map b_cum (rows' ++ cumulate 0 ((p, b) :: rest))))%Z).
    { eapply Z.lt_le_trans; [|apply zmax_ge].
      2:{ rewrite map_app, in_app_iff. right. left. reflexivity. }
      simpl. inversion Hpr; subst. easy. }
    destruct (Z.eqb_spec (zmax 0 (map b_cum (rows' ++ cumulate 0 ((p, b) :: rest)))) 0) as [E|_]; [lia|].
    destruct (IH (S i) rows' ((p, b) :: rest)) as (rows'' & out & Hl & Hproj' & Hch); auto; try easy.
    { rewrite app_length in Hk. destruct a; [easy|]. simpl in *. lia. }
    exists rows'', (map (pair i) a ++ out). split; [exact Hl|]. split.
    + rewrite Hproj', Hproj. now rewrite app_assoc.
    + now constructor.
Qed.

(** ** Consequences of being cut in greedy chunks *)

Lemma chunked_rows size i cb out : chunked size i cb out -> map snd out = cb.
Proof.
  induction 1; simpl; [easy|]. rewrite map_app, map_map. simpl. rewrite map_id. now rewrite IHchunked.
Qed.
Lemma chunked_ge size i cb out : chunked size i cb out -> Forall (fun r => (i <= fst r)%nat) out.
Proof.
  induction 1; [constructor|]. apply Forall_app. split.
  - apply Forall_map. simpl. apply Forall_forall. lia.
  - eapply Forall_impl; [|exact IHchunked]. simpl. lia.
Qed.
Lemma in_batch_app k o1 o2 : in_batch k (o1 ++ o2) = in_batch k o1 ++ in_batch k o2.
Proof. unfold in_batch. now rewrite filter_app, map_app. Qed.
Lemma in_batch_pair_eq k a : in_batch k (map (pair k) a) = a.
Proof.
  unfold in_batch. rewrite filter_all; [rewrite map_map; simpl; apply map_id|].
  intros r Hr. apply in_map_iff in Hr as (x & <- & _). simpl. apply Nat.eqb_refl.
Qed.
Lemma in_batch_none k out : (forall r, In r out -> fst r <> k) -> in_batch k out = [].
Proof.
  intros H. unfold in_batch. rewrite filter_none; [easy|]. intros r Hr. apply Nat.eqb_neq. auto.
Qed.
Lemma in_batch_perm k o1 o2 : Permutation o1 o2 -> Permutation (in_batch k o1) (in_batch k o2).
Proof. intros H. unfold in_batch. apply Permutation_map. now apply filter_perm. Qed.

Lemma chunked_cases size i a rest out k :
  chunked size (S i) rest out ->
  in_batch k (map (pair i) a ++ out) = if Nat.eqb k i then a else in_batch k out.
Proof.
  intros Hch. rewrite in_batch_app. pose proof (chunked_ge Hch) as Hge. rewrite Forall_forall in Hge.
  destruct (Nat.eqb_spec k i).
  - subst. rewrite in_batch_pair_eq. rewrite (@in_batch_none i out).
    + now rewrite app_nil_r.
    + intros r Hr. specialize (Hge r Hr). lia.
  - rewrite (@in_batch_none k (map (pair i) a)); [easy|].
    intros r Hr. apply in_map_iff in Hr as (x & <- & _). simpl. congruence.
Qed.

Lemma chunked_limit size i cb out k :
  chunked size i cb out -> in_batch k out <> [] -> within_limit size (in_batch k out).
Proof.
  induction 1 as [|i a rest out (Hne & Hsz & _) Hch IH]; [easy|].
  rewrite (chunked_cases a k Hch). destruct (Nat.eqb_spec k i); [|auto].
  intros _. exact Hsz.
Qed.

Lemma chunked_consecutive size i cb out k :
  chunked size i cb out -> (i <= k)%nat -> in_batch (S k) out <> [] -> in_batch k out <> [].
Proof.
  intros H. revert k. induction H as [|i a rest out (Hne & _) Hch IH]; intros k Hk; [easy|].
  rewrite !(chunked_cases a _ Hch).
  destruct (Nat.eqb_spec (S k) i); [lia|]. destruct (Nat.eqb_spec k i); [easy|].
  apply IH. lia.
Qed.

Lemma chunked_greedy size i cb out k :
  chunked size i cb out ->
  match in_batch (S k) out with
  | [] => True
  | (_, b) :: _ => (i <= k)%nat -> (size < total_blocks (in_batch k out) + b)%Z
  end.
Proof.
  induction 1 as [|i a rest out (Hne & Hsz & Hr) Hch IH]; [easy|].
  rewrite !(chunked_cases a _ Hch).
  destruct (Nat.eqb_spec (S k) i).
  - destruct a as [|[p b] a]; [easy|]. intros; lia.
  - destruct (Nat.eqb_spec k i); cycle 1.
    { destruct (in_batch (S k) out) as [|[p b] l]; [easy|]. intros Hk. apply IH. lia. }
    subst k. clear IH. inversion Hch as [|j a' rest' out' Hc' Hch']; subst; [easy|].
    rewrite (chunked_cases a' _ Hch'). rewrite Nat.eqb_refl.
    destruct Hc' as (Hne' & _). destruct a' as [|[p b] a']; [easy|]. simpl in Hr. intros _. exact Hr.
Qed.

Lemma chunked_first size i cb out : chunked size i cb out -> cb <> [] -> in_batch i out <> [].
Proof.
  destruct 1 as [|i a rest out (Hne & _) Hch]; [easy|]. intros _.
  rewrite (chunked_cases a _ Hch), Nat.eqb_refl. easy.
Qed.

(** Order: batch numbers do not decrease along the list. *)
Lemma chunked_order size i cb out :
  chunked size i cb out -> StronglySorted (fun a b => (fst a <= fst b)%nat) out.
Proof.
  induction 1 as [|i a rest out Hc Hch IH]; [constructor|].
  pose proof (chunked_ge Hch) as Hge. clear Hc.
  induction a as [|x a IHa]; simpl; [easy|]. constructor; [easy|].
  apply Forall_app. split.
  - apply Forall_map. apply Forall_forall. simpl. lia.
  - eapply Forall_impl; [|exact Hge]. simpl. lia.
Qed.

(** ** The whole function *)

Lemma batched_le_trans a b c : batched_le a b = true -> batched_le b c = true -> batched_le a c = true.
Proof.
  unfold batched_le. rewrite !orb_true_iff, !andb_true_iff, !Nat.ltb_lt, !Nat.eqb_eq.
  intros [H|[H H']] [G|[G G']].
  - left; lia.
  - left; lia.
  - left; lia.
  - right. split; [lia|]. eapply pg_le_trans; eauto.
Qed.

(** The table that is cut: wanted rows in (loc, dir, cmp, uid) order. *)
Definition wanted (missing available : list string) (cb : block_table) : block_table :=
  sum_blocks (keep_available available (filter (fun r => negb (mem (cmp (fst r)) missing)) cb)).

Lemma wanted_In missing available cb p b :
  NoDup (map fst cb) ->
  In (p, b) (wanted missing available cb) <->
  In (p, b) cb /\ In (cmp p) available /\ ~ In (cmp p) missing.
Proof.
  intros Hn. unfold wanted, sum_blocks. set (cb' := keep_available _ _).
  assert (Hn' : NoDup (map fst cb')).
  { unfold cb', keep_available. clear cb'. induction cb as [|r cb IH]; simpl; [constructor|].
    inversion Hn; subst. destruct (negb (mem (cmp (fst r)) missing)); simpl; [|auto].
    destruct (mem (cmp (fst r)) available); simpl; [|auto]. constructor; [|auto].
    intros Hin. apply H1. apply in_map_iff in Hin as (r' & E & Hin). apply filter_In in Hin as [Hin _].
    apply filter_In in Hin as [Hin _]. apply in_map_iff. eauto. }
  assert (Hin' : In (p, b) cb' <-> In (p, b) cb /\ In (cmp p) available /\ ~ In (cmp p) missing).
  { unfold cb', keep_available. rewrite !filter_In. simpl. rewrite mem_true, negb_true_iff, mem_false. tauto. }
  rewrite <- Hin'. rewrite in_map_iff. split.
  - intros ((k & vs) & E & Hg). simpl in E. apply (groupby_In pg_eqb _ pg_eqb_eq) in Hg as [Hk ->].
    injection E as -> <-. apply in_map_iff in Hk as ([k' v] & E & Hin). simpl in E. subst.
    rewrite (group_rows_single pg_eqb pg_eqb_eq cb' _ _ Hn' Hin). simpl. now rewrite Z.add_0_r.
  - intros Hin. exists (p, [b]). simpl. rewrite Z.add_0_r. split; [easy|].
    apply (groupby_In pg_eqb _ pg_eqb_eq). split; [apply in_map_iff; now exists (p, b)|].
    symmetry. now apply (group_rows_single pg_eqb pg_eqb_eq).
Qed.

Lemma wanted_fst missing available cb :
  map fst (wanted missing available cb) =
  map fst (groupby pg_eqb pg_le_ldcu (keep_available available (filter (fun r => negb (mem (cmp (fst r)) missing)) cb))).
Proof. unfold wanted, sum_blocks. rewrite map_map. reflexivity. Qed.

Lemma wanted_NoDup missing available cb : NoDup (map fst (wanted missing available cb)).
Proof. rewrite wanted_fst. apply groupby_NoDup. apply pg_eqb_eq. Qed.

Lemma wanted_sorted missing available cb : sorted_by pg_le_ldcu (map fst (wanted missing available cb)).
Proof. rewrite wanted_fst. apply groupby_sorted. apply pg_ldcu_trans. apply pg_ldcu_total. Qed.

Lemma wanted_positive missing available cb :
  NoDup (map fst cb) -> positive cb -> positive (wanted missing available cb).
Proof.
  intros Hn Hp. unfold positive in *. rewrite Forall_forall in *. intros [p b] Hin.
  apply wanted_In in Hin; [|easy]. now apply (Hp (p, b)).
Qed.

Lemma get_pg_batches_chunked missing available size cb out :
  NoDup (map fst cb) -> positive cb ->
  get_pg_batches missing available size cb = Ok out ->
  exists out0, chunked size 1 (wanted missing available cb) out0 /\ out = isort batched_le out0.
Proof.
  intros Hn Hp. unfold get_pg_batches, drop_missing.
  destruct (forallb _ missing); simpl; [|easy].
  fold (wanted missing available cb).
  pose proof (wanted_positive missing available Hn Hp) as Hw.
  destruct (wanted missing available cb) as [|r w] eqn:Ew.
  - simpl. intros [= <-]. exists []. split; [constructor|easy].
  - rewrite <- Ew in *. assert (Hne : wanted missing available cb <> []) by (now rewrite Ew).
    destruct (@batch_loop_chunked size (List.length (cumulate 0 (wanted missing available cb)))
                1 [] (wanted missing available cb)) as (rows & o & Hl & Hproj & Hch); auto.
    + constructor.
    + clear. generalize 0%Z. induction (wanted missing available cb) as [|[p b] l IH]; intros z; simpl; [easy|].
      specialize (IH (z + b)%Z). lia.
    + change ([] ++ cumulate 0 (wanted missing available cb)) with (cumulate 0 (wanted missing available cb)) in Hl.
      rewrite Hl. simpl. intros [= <-]. exists o. split; [easy|]. simpl in Hproj.
      f_equal. exact Hproj.
Qed.

Lemma get_pg_batches_total missing available size cb :
  NoDup (map fst cb) -> positive cb ->
  (forall m, In m missing -> exists r, In r cb /\ cmp (fst r) = m) ->
  is_ok (get_pg_batches missing available size cb) = true.
Proof.
  intros Hn Hp Hm. unfold get_pg_batches, drop_missing.
  assert (forallb (fun m => existsb (fun r => String.eqb m (cmp (fst r))) cb) missing = true) as ->.
  { apply forallb_forall. intros m Hin. destruct (Hm m Hin) as (r & Hr & E).
    apply existsb_exists. exists r. split; [easy|]. now apply String.eqb_eq. }
  simpl. fold (wanted missing available cb).
  pose proof (wanted_positive missing available Hn Hp) as Hw.
  destruct (wanted missing available cb) as [|r w] eqn:Ew; [easy|]. rewrite <- Ew in *.
  assert (Hne : wanted missing available cb <> []) by (now rewrite Ew).
  destruct (@batch_loop_chunked size (List.length (cumulate 0 (wanted missing available cb)))
                1 [] (wanted missing available cb)) as (rows & o & Hl & Hproj & Hch); auto.
  + constructor.
  + clear. generalize 0%Z. induction (wanted missing available cb) as [|[p b] l IH]; intros z; simpl; [easy|].
    specialize (IH (z + b)%Z). lia.
  + change ([] ++ cumulate 0 (wanted missing available cb)) with (cumulate 0 (wanted missing available cb)) in Hl.
    now rewrite Hl.
Qed.

Section Whole.
  Context (missing available : list string) (size : Z) (cb : block_table) (out : list batched)
          (Hn : NoDup (map fst cb)) (Hp : positive cb)
          (Hout : get_pg_batches missing available size cb = Ok out).

  Lemma batches_cover p b :
    (exists k, In (k, (p, b)) out) <-> In (p, b) cb /\ In (cmp p) available /\ ~ In (cmp p) missing.
  Proof.
    destruct (get_pg_batches_chunked missing available size Hn Hp Hout) as (o & Hch & ->).
    rewrite <- wanted_In by easy. rewrite <- (chunked_rows Hch). rewrite in_map_iff. split.
    - intros (k & Hk). exists (k, (p, b)). split; [easy|]. eapply Permutation_in; [|exact Hk].
      symmetry. apply isort_perm.
    - intros ([k r] & E & Hk). simpl in E. subst. exists k. eapply Permutation_in; [|exact Hk]. apply isort_perm.
  Qed.

  Lemma batches_once : NoDup (map (fun r => fst (snd r)) out).
  Proof.
    destruct (get_pg_batches_chunked missing available size Hn Hp Hout) as (o & Hch & ->).
    eapply Permutation_NoDup; [apply Permutation_map; apply isort_perm|].
    rewrite <- (map_map snd fst). rewrite (chunked_rows Hch). apply wanted_NoDup.
  Qed.

  Lemma batches_limit k : in_batch k out <> [] -> within_limit size (in_batch k out).
  Proof.
    destruct (get_pg_batches_chunked missing available size Hn Hp Hout) as (o & Hch & ->).
    pose proof (in_batch_perm k (isort_perm batched_le o)) as Hperm. intros Hne.
    assert (Hne' : in_batch k o <> []).
    { intros E. rewrite E in Hperm. apply Permutation_nil in Hperm. easy. }
    destruct (chunked_limit k Hch Hne') as [H|H].
    - left. unfold total_blocks in *. rewrite <- (zsum_perm (Permutation_map snd Hperm)). easy.
    - right. now rewrite <- (Permutation_length Hperm).
  Qed.

  Lemma batches_numbered k r : In (k, r) out -> (1 <= k)%nat /\
    forall j, (1 <= j <= k)%nat -> exists s, In (j, s) out.
  Proof.
    destruct (get_pg_batches_chunked missing available size Hn Hp Hout) as (o & Hch & ->).
    intros Hin. assert (Hin' : In (k, r) o). { eapply Permutation_in; [|exact Hin]. symmetry. apply isort_perm. }
    pose proof (chunked_ge Hch) as Hge. rewrite Forall_forall in Hge. specialize (Hge _ Hin'). simpl in Hge.
    split; [easy|]. clear Hin.
    assert (Hk : in_batch k o <> []).
    { intros E. assert (In r (in_batch k o)); [|now rewrite E in H].
      unfold in_batch. apply in_map_iff. exists (k, r). split; [easy|]. apply filter_In. split; [easy|].
      simpl. apply Nat.eqb_refl. }
    assert (Hdown : forall d j, (j + d = k)%nat -> (1 <= j)%nat -> in_batch j o <> []).
    { intros d. induction d as [|d IH]; intros j Hj H1.
      - rewrite Nat.add_0_r in Hj. now subst.
      - apply (chunked_consecutive Hch H1). apply IH; lia. }
    intros j [H1 H2]. specialize (Hdown (k - j)%nat j ltac:(lia) H1).
    destruct (in_batch j o) as [|s l] eqn:E; [easy|].
    assert (In s (in_batch j o)) by (rewrite E; now left).
    unfold in_batch in H. apply in_map_iff in H as ([j' s'] & Es & Hs). simpl in Es. subst.
    apply filter_In in Hs as [Hs Ej]. simpl in Ej. apply Nat.eqb_eq in Ej. subst.
    exists s. eapply Permutation_in; [apply isort_perm|]. easy.
  Qed.

  Lemma batches_in_order k1 p1 b1 k2 p2 b2 :
    In (k1, (p1, b1)) out -> In (k2, (p2, b2)) out ->
    pg_le_ldcu p1 p2 = true -> (k1 <= k2)%nat.
  Proof.
    destruct (get_pg_batches_chunked missing available size Hn Hp Hout) as (o & Hch & ->).
    intros H1 H2 Hle.
    assert (H1' : In (k1, (p1, b1)) o). { eapply Permutation_in; [|exact H1]. symmetry. apply isort_perm. }
    assert (H2' : In (k2, (p2, b2)) o). { eapply Permutation_in; [|exact H2]. symmetry. apply isort_perm. }
    clear H1 H2. pose proof (chunked_order Hch) as Hs.
    pose proof (wanted_sorted missing available cb) as Hw. rewrite <- (chunked_rows Hch) in Hw.
    pose proof (wanted_NoDup missing available cb) as Hnd. rewrite <- (chunked_rows Hch) in Hnd.
    clear Hch Hout. induction Hs as [|x o Hs IH Hx]; [easy|].
    simpl in Hw, Hnd. inversion Hw as [|? ? Hw1 Hw2]; subst. inversion Hnd as [|? ? Hnd1 Hnd2]; subst.
    destruct H1' as [->|H1'], H2' as [H2'|H2'].
    - injection H2' as <- <- <-. lia.
    - rewrite Forall_forall in Hx. apply (Hx _ H2').
    - subst x. simpl in *. exfalso.
      assert (Hin : In p1 (map fst (map snd o))).
      { apply in_map_iff. exists (p1, b1). split; [easy|]. apply in_map_iff. now exists (k1, (p1, b1)). }
      rewrite Forall_forall in Hw2. specialize (Hw2 _ Hin). simpl in Hw2.
      assert (p1 = p2) by now apply pg_ldcu_antisym. subst. easy.
    - auto.
  Qed.

  Lemma batches_greedy k p b :
    In (S k, (p, b)) out -> (1 <= k)%nat ->
    (forall q c, In (S k, (q, c)) out -> pg_le_ldcu p q = true) ->
    (size < total_blocks (in_batch k out) + b)%Z.
  Proof.
    destruct (get_pg_batches_chunked missing available size Hn Hp Hout) as (o & Hch & ->).
    intros Hin Hk Hmin.
    assert (Htot : total_blocks (in_batch k (isort batched_le o)) = total_blocks (in_batch k o)).
    { unfold total_blocks. apply zsum_perm, Permutation_map, in_batch_perm. symmetry. apply isort_perm. }
    rewrite Htot.
    assert (Hin' : In (S k, (p, b)) o). { eapply Permutation_in; [|exact Hin]. symmetry. apply isort_perm. }
    assert (Hb : In (p, b) (in_batch (S k) o)).
    { unfold in_batch. apply in_map_iff. exists (S k, (p, b)). split; [easy|]. apply filter_In. split; [easy|].
      simpl. apply Nat.eqb_refl. }
    pose proof (chunked_greedy k Hch) as Hg.
    assert (Hs : sorted_by pg_le_ldcu (map fst (in_batch (S k) o))).
    { unfold in_batch. pose proof (wanted_sorted missing available cb) as Hw.
      rewrite <- (chunked_rows Hch) in Hw. clear - Hw. induction o as [|r o IH]; simpl; [constructor|].
      simpl in Hw. inversion Hw; subst. destruct (Nat.eqb (fst r) (S k)); [|now apply IH].
      simpl. constructor; [now apply IH|]. rewrite Forall_forall in *. intros q Hq. apply H2.
      apply in_map_iff in Hq as (r' & <- & Hr'). apply in_map_iff in Hr' as (r'' & <- & Hr'').
      apply filter_In in Hr'' as [Hr'' _]. apply in_map_iff. exists (snd r''). split; [easy|].
      apply in_map_iff. eauto. }
    assert (Hnd : NoDup (map fst (in_batch (S k) o))).
    { pose proof (wanted_NoDup missing available cb) as Hw. rewrite <- (chunked_rows Hch) in Hw.
      clear - Hw. unfold in_batch. induction o as [|r o IH]; simpl; [constructor|]. simpl in Hw. inversion Hw; subst.
      destruct (Nat.eqb (fst r) (S k)); [|now apply IH]. simpl. constructor; [|now apply IH].
      intros Hq. apply H1. apply in_map_iff in Hq as (r' & E & Hr'). apply in_map_iff in Hr' as (r'' & <- & Hr'').
      apply filter_In in Hr'' as [Hr'' _]. apply in_map_iff. exists (snd r''). split; [easy|].
      apply in_map_iff. eauto. }
    assert (Hall : forall q c, In (q, c) (in_batch (S k) o) -> pg_le_ldcu p q = true).
    { intros q c Hq. apply (Hmin q c). eapply Permutation_in; [apply isort_perm|].
      unfold in_batch in Hq. apply in_map_iff in Hq as ([k' r] & E & Hr). simpl in E. subst.
      apply filter_In in Hr as [Hr E]. simpl in E. apply Nat.eqb_eq in E. now subst. }
    destruct (in_batch (S k) o) as [|[p' b'] l] eqn:E; [easy|].
    destruct Hb as [Hb|Hb].
    - injection Hb as -> ->. now apply Hg.
    - exfalso. inversion Hs; subst. inversion Hnd; subst. simpl in *.
      assert (Hpl : In p (map fst l)) by (apply in_map_iff; now exists (p, b)).
      rewrite Forall_forall in H2. specialize (H2 _ Hpl).
      specialize (Hall p' b' (or_introl eq_refl)).
      assert (p = p') by now apply pg_ldcu_antisym. subst. easy.
  Qed.
End Whole.
