(** Proofs about interpolation. *)
From Verif Require Import Prelude PreludeFacts Pandas PandasFacts M_NNR S_NNR.
From Coq Require Import Sorting.Permutation.
Set Implicit Arguments.
Local Open Scope string_scope.
Local Open Scope list_scope.

Lemma epsilon_pos : (0 < epsilon)%Qc.
Proof. reflexivity. Qed.
Lemma Qcinv_pos : forall x, (0 < x)%Qc -> (0 < / x)%Qc.
Proof.
  intros x H. destruct (Qclt_le_dec 0 (/ x)%Qc) as [L|L]; [exact L|]. exfalso.
  assert (N : x <> 0%Qc) by (intros ->; discriminate).
  pose proof (Qcmult_inv_r x N) as I. assert (X : (x * / x <= 0)%Qc).
  { rewrite Qcmult_comm. replace 0%Qc with (0 * x)%Qc by ring. apply Qcmult_le_compat_r; [exact L|apply Qclt_le_weak, H]. }
  rewrite I in X. apply Qcle_not_lt in X. apply X. reflexivity.
Qed.
Lemma Qcinv_anti : forall x y, (0 < x)%Qc -> (x <= y)%Qc -> (/ y <= / x)%Qc.
Proof.
  intros x y Hx H. assert (Hy : (0 < y)%Qc) by (eapply Qclt_le_trans; eassumption).
  assert (Nx : x <> 0%Qc) by (intros ->; discriminate). assert (Ny : y <> 0%Qc) by (intros ->; discriminate).
  replace (/ y)%Qc with (x * (/ x * / y))%Qc by (field; auto). replace (/ x)%Qc with (y * (/ x * / y))%Qc at 2 by (field; auto).
  apply Qcmult_le_compat_r; [exact H|]. replace 0%Qc with (0 * / y)%Qc by ring.
  apply Qcmult_le_compat_r; apply Qclt_le_weak, Qcinv_pos; assumption.
Qed.
Lemma Qcmult_pos : forall x y, (0 < x)%Qc -> (0 < y)%Qc -> (0 < x * y)%Qc.
Proof. intros x y Hx Hy. replace 0%Qc with (0 * y)%Qc by ring. apply Qcmult_lt_compat_r; assumption. Qed.
Lemma qsum_pos : forall l, l <> [] -> Forall (fun x => (0 < x)%Qc) l -> (0 < qsum l)%Qc.
Proof.
  intros l Hn H. destruct l as [|x l]; [contradiction|]. apply Forall_cons_iff in H as [Hx H]. rewrite qsum_cons.
  assert (P : (0 <= qsum l)%Qc).
  { clear - H. induction l as [|y l IH]; [apply Qcle_refl|]. apply Forall_cons_iff in H as [Hy H]. specialize (IH H).
    rewrite qsum_cons. clear H. set (q := qsum l) in *. clearbody q. qlra. }
  set (q := qsum l) in *. clearbody q. qlra.
Qed.
Lemma qsum_scale_r : forall c l, qsum (map (fun x => (x * c)%Qc) l) = (qsum l * c)%Qc.
Proof.
  intros c l. induction l as [|x l IH]; [cbn; ring|]. cbn [map]. rewrite !qsum_cons, IH. ring.
Qed.
Lemma normalised_sum : forall l, l <> [] -> Forall (fun x => (0 < x)%Qc) l -> qsum (normalised l) = 1%Qc.
Proof.
  intros l Hn H. unfold normalised. pose proof (qsum_pos Hn H) as P.
  transitivity (qsum l * / qsum l)%Qc; [apply (qsum_scale_r (/ qsum l) l)|]. apply Qcmult_inv_r. intros E. rewrite E in P. discriminate.
Qed.
Lemma normalised_pos : forall l, l <> [] -> Forall (fun x => (0 < x)%Qc) l -> Forall (fun x => (0 < x)%Qc) (normalised l).
Proof.
  intros l Hn H. unfold normalised. pose proof (qsum_pos Hn H) as P. apply Forall_forall. intros x Hx.
  apply in_map_iff in Hx as [w [<- Hw]]. unfold Qcdiv. apply Qcmult_pos; [|apply Qcinv_pos, P]. rewrite Forall_forall in H. apply H, Hw.
Qed.

(** The weight before normalisation. *)
Definition raw (weight : string) (d : Qc) : Qc :=
  if String.eqb weight "distance2" then inverse_square (d + epsilon) else if String.eqb weight "uniform" then 1%Qc else inverse (d + epsilon).
Lemma raw_pos : forall w d, (0 <= d)%Qc -> (0 < raw w d)%Qc.
Proof.
  intros w d Hd. assert (E : (0 < d + epsilon)%Qc) by (pose proof epsilon_pos as P; set (e := epsilon) in *; clearbody e; qlra).
  unfold raw, inverse_square, inverse. destruct (String.eqb w "distance2"); [apply Qcinv_pos, Qcmult_pos; exact E|].
  destruct (String.eqb w "uniform"); [reflexivity|apply Qcinv_pos, E].
Qed.
Lemma raw_anti : forall w d d', (0 <= d)%Qc -> (d <= d')%Qc -> (raw w d' <= raw w d)%Qc.
Proof.
  intros w d d' Hd H. assert (E : (0 < d + epsilon)%Qc) by (pose proof epsilon_pos as P; set (e := epsilon) in *; clearbody e; qlra).
  assert (L : (d + epsilon <= d' + epsilon)%Qc) by (set (e := epsilon) in *; clearbody e; qlra).
  unfold raw, inverse_square, inverse. destruct (String.eqb w "distance2").
  - apply Qcinv_anti; [apply Qcmult_pos; exact E|]. set (a := (d + epsilon)%Qc) in *. set (b := (d' + epsilon)%Qc) in *. clearbody a b.
    apply Qcle_trans with (a * b)%Qc; [rewrite (Qcmult_comm a b)|]; apply Qcmult_le_compat_r; try exact L; apply Qclt_le_weak; [exact E|].
    eapply Qclt_le_trans; eassumption.
  - destruct (String.eqb w "uniform"); [apply Qcle_refl|apply Qcinv_anti; assumption].
Qed.
Lemma qsum_ones : forall {A} (l : list A), qsum (map (fun _ => 1%Qc) l) = qn (List.length l).
Proof.
  intros A l. induction l as [|x l IH]; [reflexivity|]. cbn [map List.length]. rewrite qsum_cons, IH. unfold qn.
  apply Qc_is_canon. cbn [this Qcplus Q2Qc]. rewrite !Qred_correct. rewrite Nat2Z.inj_succ. unfold Z.succ. rewrite inject_Z_plus. cbn [inject_Z]. ring.
Qed.
Lemma weights_form : forall w ds ws, weights w (List.length ds) ds = Ok ws -> ws = normalised (map (raw w) ds).
Proof.
  intros w ds ws H. unfold weights in H. unfold raw.
  destruct (String.eqb w "distance2") eqn:E2; [injection H as <-; rewrite map_map; reflexivity|].
  destruct (String.eqb w "uniform") eqn:E3.
  - injection H as <-. unfold normalised. rewrite !map_map. apply map_ext. intros _. rewrite qsum_ones. unfold Qcdiv. ring.
  - destruct (String.eqb w "distance1"); [|discriminate]. injection H as <-. rewrite map_map. reflexivity.
Qed.
Lemma weights_ok : forall w n ds, known_weight w <-> exists ws, weights w n ds = Ok ws.
Proof.
  intros w n ds. unfold weights, known_weight. split.
  - intros [-> | [-> | ->]]; cbn; eauto.
  - intros [ws H]. destruct (String.eqb w "distance2") eqn:E2; [apply String.eqb_eq in E2; auto|].
    destruct (String.eqb w "uniform") eqn:E3; [apply String.eqb_eq in E3; auto|].
    destruct (String.eqb w "distance1") eqn:E1; [apply String.eqb_eq in E1; auto|discriminate].
Qed.
Lemma raw_all_pos : forall w ds, Forall (fun d => (0 <= d)%Qc) ds -> Forall (fun x => (0 < x)%Qc) (map (raw w) ds).
Proof. intros w ds H. apply Forall_map. eapply Forall_impl; [|exact H]. intros d Hd. apply raw_pos, Hd. Qed.
Lemma normalised_nth : forall l i, (i < List.length l)%nat -> nth i (normalised l) 0%Qc = (nth i l 0%Qc / qsum l)%Qc.
Proof.
  intros l i Hi. unfold normalised. transitivity (nth i (map (fun w => w / qsum l)%Qc l) ((fun w => w / qsum l)%Qc 0%Qc)).
  - apply nth_indep. rewrite map_length. exact Hi.
  - apply (map_nth (fun w => w / qsum l)%Qc).
Qed.

(** Mixtures. *)
Lemma mix_bounds : forall ws vs lo hi, List.length ws = List.length vs -> Forall (fun w => (0 <= w)%Qc) ws -> Forall (fun v => (lo <= v)%Qc /\ (v <= hi)%Qc) vs ->
  (lo * qsum ws <= mix ws vs)%Qc /\ (mix ws vs <= hi * qsum ws)%Qc.
Proof.
  induction ws as [|w ws IH]; intros [|v vs] lo hi L Hw Hv; try discriminate.
  - cbn. split; replace (_ * 0)%Qc with 0%Qc by ring; apply Qcle_refl.
  - apply Forall_cons_iff in Hw as [Hw Hws]. apply Forall_cons_iff in Hv as [[V1 V2] Hvs]. injection L as L.
    destruct (IH vs lo hi L Hws Hvs) as [I1 I2]. unfold mix in *. cbn [map2]. rewrite !qsum_cons.
    assert (A : (lo * w <= w * v)%Qc) by (rewrite (Qcmult_comm w v); apply Qcmult_le_compat_r; assumption).
    assert (B : (w * v <= hi * w)%Qc) by (rewrite (Qcmult_comm w v); apply Qcmult_le_compat_r; assumption).
    set (s := qsum ws) in *. set (m := qsum (map2 Qcmult ws vs)) in *. clearbody s m.
    set (a := (w * v)%Qc) in *. clearbody a.
    split; [replace (lo * (w + s))%Qc with (lo * w + lo * s)%Qc by ring|replace (hi * (w + s))%Qc with (hi * w + hi * s)%Qc by ring].
    + set (p := (lo * w)%Qc) in *. set (q := (lo * s)%Qc) in *. clearbody p q. clear - A I1. qlra.
    + set (p := (hi * w)%Qc) in *. set (q := (hi * s)%Qc) in *. clearbody p q. clear - B I2. qlra.
Qed.
Lemma map2_mix : forall ws (ids : list nat) (v : nat -> Qc), map2 (fun w k => (w * v k)%Qc) ws ids = map2 Qcmult ws (map v ids).
Proof. induction ws as [|w ws IH]; intros [|k ids] v; cbn [map2 map]; [reflexivity..|]. rewrite IH. reflexivity. Qed.
Lemma expected3_at : forall ws ids a nf nr f r, (f < nf)%nat -> (r < nr)%nat ->
  nth r (nth f (expected3 ws ids a nf nr) []) 0%Qc = mix ws (map (fun k => at3 a k f r) ids).
Proof.
  intros ws ids a nf nr f r Hf Hr. unfold expected3. rewrite nth_map_seq by exact Hf. rewrite nth_map_seq by exact Hr. cbn [Nat.add].
  unfold mix. rewrite (map2_mix ws ids (fun k => at3 a k f r)). reflexivity.
Qed.
Lemma expected2_at : forall ws ids a nf f, (f < nf)%nat ->
  nth f (expected2 ws ids a nf) 0%Qc = mix ws (map (fun k => nth f (nth k a []) 0%Qc) ids).
Proof.
  intros ws ids a nf f Hf. unfold expected2. rewrite nth_map_seq by exact Hf.
  unfold mix. rewrite (map2_mix ws ids (fun k => nth f (nth k a []) 0%Qc)). reflexivity.
Qed.

(** Resampling. *)
Lemma nth_combine_seq : forall {A} (l : list A) i d, (i < List.length l)%nat ->
  nth i (combine (seq 0 (List.length l)) l) (O, d) = (i, nth i l d).
Proof.
  intros A l i d Hi. rewrite combine_nth by (rewrite seq_length; reflexivity). rewrite seq_nth by exact Hi. reflexivity.
Qed.
Lemma take_rank_shape : forall ranks rank value vals, List.length (take_rank ranks rank value vals) = List.length vals.
Proof. intros. unfold take_rank. rewrite map_length, combine_length, seq_length. apply Nat.min_id. Qed.
Lemma take_rank_at : forall ranks rank value (vals : list (list num)) f j, (f < List.length vals)%nat -> (j < List.length (nth f vals []))%nat ->
  nth j (nth f (take_rank ranks rank value vals) []) None = (if Nat.eqb (nth j ranks O) rank then Some (value f j) else nth j (nth f vals []) None) /\
  List.length (nth f (take_rank ranks rank value vals) []) = List.length (nth f vals []).
Proof.
  intros ranks rank value vals f j Hf Hj.
  set (g := fun fc : nat * list num => @map (nat * num) num (fun jc : nat * num => if Nat.eqb (nth (fst jc) ranks O) rank then Some (value (fst fc) (fst jc)) else snd jc)
                     (combine (seq 0 (List.length (snd fc))) (snd fc))).
  assert (E : nth f (map g (combine (seq 0 (List.length vals)) vals)) [] = g (f, nth f vals [])).
  { rewrite (nth_indep _ [] (g (O, []))) by (rewrite map_length, combine_length, seq_length; lia). rewrite map_nth.
    rewrite nth_combine_seq by exact Hf. reflexivity. }
  replace (take_rank ranks rank value vals) with (map g (combine (seq 0 (List.length vals)) vals)) by reflexivity.
  rewrite E. unfold g. cbn [fst snd]. set (row := nth f vals []) in *. split.
  - set (h := fun jc : nat * num => if Nat.eqb (nth (fst jc) ranks O) rank then Some (value f (fst jc)) else snd jc).
    rewrite (nth_indep _ None (h (O, None))) by (rewrite map_length, combine_length, seq_length; lia). rewrite map_nth.
    rewrite nth_combine_seq by exact Hj. reflexivity.
  - rewrite map_length, combine_length, seq_length. apply Nat.min_id.
Qed.
Lemma resample_fold : forall ranks value rs (vals : list (list num)) nf, List.length vals = nf ->
  (forall f, (f < nf)%nat -> List.length (nth f vals []) = List.length ranks) ->
  forall f j, (f < nf)%nat -> (j < List.length ranks)%nat ->
  let out := fold_left (fun vals rank => take_rank ranks rank (value rank) vals) rs vals in
  List.length out = nf /\ List.length (nth f out []) = List.length ranks /\
  nth j (nth f out []) None = if existsb (Nat.eqb (nth j ranks O)) rs then Some (value (nth j ranks O) f j) else nth j (nth f vals []) None.
Proof.
  intros ranks value rs. induction rs as [|r rs IH]; intros vals nf L1 L2 f j Hf Hj out.
  - split; [exact L1|]. split; [apply L2, Hf|reflexivity].
  - unfold out. cbn [fold_left]. clear out.
    assert (X : forall f', (f' < nf)%nat -> List.length (nth f' (take_rank ranks r (value r) vals) []) = List.length ranks).
    { intros f' Hf'. rewrite <- (L2 f' Hf'). apply (@take_rank_at ranks r (value r) vals f' j); [rewrite L1; exact Hf'|rewrite (L2 f' Hf'); exact Hj]. }
    destruct (IH (take_rank ranks r (value r) vals) nf) with (f := f) (j := j) as [O1 [O2 O3]];
      [rewrite take_rank_shape; exact L1|exact X|exact Hf|exact Hj|].
    split; [exact O1|]. split; [exact O2|]. rewrite O3. cbn [existsb].
    destruct (existsb (Nat.eqb (nth j ranks O)) rs); [rewrite orb_true_r; reflexivity|]. rewrite orb_false_r.
    rewrite (proj1 (@take_rank_at ranks r (value r) vals f j ltac:(rewrite L1; exact Hf) ltac:(rewrite (L2 f Hf); exact Hj))).
    destruct (Nat.eqb (nth j ranks O) r) eqn:E; [|reflexivity]. apply Nat.eqb_eq in E. rewrite E. reflexivity.
Qed.
Lemma resample_at : forall ranks ids nf value f j, (f < nf)%nat -> (j < List.length ranks)%nat ->
  nth j (nth f (resample ranks ids nf value) []) None = Some (value (nth (nth j ranks O) ids O) f j).
Proof.
  intros ranks ids nf value f j Hf Hj. unfold resample.
  destruct (@resample_fold ranks (fun rank => value (nth rank ids O)) (isort Nat.leb (unique Nat.eqb ranks)) (repeat (repeat None (List.length ranks)) nf) nf) with (f := f) (j := j) as [_ [_ E]];
    [apply repeat_length| |exact Hf|exact Hj|].
  - intros f' Hf'. rewrite (@nth_indep (list num) _ f' [] (repeat None (List.length ranks))) by (rewrite repeat_length; exact Hf'). rewrite nth_repeat. apply repeat_length.
  - rewrite E. assert (M : existsb (Nat.eqb (nth j ranks O)) (isort Nat.leb (unique Nat.eqb ranks)) = true); [|rewrite M; reflexivity].
    apply existsb_exists. exists (nth j ranks O). split; [|apply Nat.eqb_refl].
    apply (Permutation_in _ (isort_perm _ _)). apply (unique_In Nat.eqb Nat.eqb_eq). apply nth_In, Hj.
Qed.
