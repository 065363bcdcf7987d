(** Proofs about single random variables. *)
From Coq Require Import Sorting.Permutation.
From Verif Require Import Prelude PreludeFacts Pandas PandasFacts M_LossDS P_Interp M_UQ S_UQ.
Local Open Scope string_scope.
Local Open Scope list_scope.

(** ** Strata *)

Lemma stratified_length n p us : List.length p = n -> List.length us = n -> List.length (stratified n p us) = n.
Proof. intros Hp Hu. unfold stratified. rewrite map_length, combine_length, Hp, Hu. apply Nat.min_id. Qed.

Lemma stratified_nth n p us j : List.length p = n -> List.length us = n -> (j < n)%nat ->
  nth j (stratified n p us) 0%Qc = ((qn (nth j p O) + nth j us 0) / qn n)%Qc.
Proof.
  intros Hp Hu Hj. unfold stratified.
  rewrite nth_indep with (d' := ((qn (fst (O, 0%Qc)) + snd (O, 0%Qc)) / qn n)%Qc) by (rewrite map_length, combine_length, Hp, Hu, Nat.min_id; exact Hj).
  rewrite (map_nth (fun pu => (qn (fst pu) + snd pu) / qn n)%Qc). rewrite combine_nth by congruence. reflexivity.
Qed.

Lemma in_stratum_iff n k i d : (0 < n)%nat -> (0 <= d)%Qc -> (d < 1)%Qc ->
  in_stratum n k ((qn i + d) / qn n) <-> k = i.
Proof.
  intros Hn H0 H1. pose proof (@qn_pos n Hn) as Hp. unfold in_stratum. split.
  - intros (Ha & Hb). apply (@Qcle_div _ _ _ Hp) in Ha. apply (@Qcdiv_lt _ _ _ Hp) in Hb.
    rewrite Qcmult_div_cancel in Ha, Hb by now apply Qclt_neq. rewrite qn_S in Hb.
    assert (k < S i)%nat by (apply qn_lt; rewrite qn_S; qlra).
    assert (i < S k)%nat by (apply qn_lt; rewrite qn_S; qlra). lia.
  - intros ->. split.
    + apply (@Qcle_div _ _ _ Hp). rewrite Qcmult_div_cancel by now apply Qclt_neq. qlra.
    + apply (@Qcdiv_lt _ _ _ Hp). rewrite Qcmult_div_cancel by now apply Qclt_neq. rewrite qn_S. qlra.
Qed.

Lemma stratified_latin n p us : Permutation p (seq 0 n) -> List.length us = n ->
  Forall (fun x => (0 <= x)%Qc /\ (x < 1)%Qc) us -> latin n (stratified n p us).
Proof.
  intros Hp Hu Hr. assert (Hl : List.length p = n) by (rewrite (Permutation_length Hp); apply seq_length).
  assert (Hd : forall j, (j < n)%nat -> (0 <= nth j us 0)%Qc /\ (nth j us 0 < 1)%Qc).
  { intros j Hj. rewrite Forall_forall in Hr. apply Hr. apply nth_In. lia. }
  assert (Hb : forall j, (j < n)%nat -> (nth j p O < n)%nat).
  { intros j Hj. assert (In (nth j p O) (seq 0 n)) by (rewrite <- Hp; apply nth_In; lia). apply in_seq in H. lia. }
  split; [now apply stratified_length|]. split.
  - intros u Hin. apply In_nth with (d := 0%Qc) in Hin. destruct Hin as (j & Hj & <-).
    rewrite stratified_length in Hj by assumption. rewrite stratified_nth by assumption.
    destruct (Hd j Hj) as (H0 & H1). specialize (Hb j Hj).
    assert (Hn : (0 < n)%nat) by lia. pose proof (@qn_pos n Hn) as Hq. pose proof (qn_nonneg (nth j p O)) as Hnn.
    split.
    + apply (@Qcle_div _ _ _ Hq). replace (0 * qn n)%Qc with 0%Qc by ring. qlra.
    + apply (@Qcdiv_lt _ _ _ Hq). replace (1 * qn n)%Qc with (qn n) by ring.
      assert (qn (S (nth j p O)) <= qn n)%Qc by (apply qn_le; lia). rewrite qn_S in H. qlra.
  - intros k Hk. assert (Hn : (0 < n)%nat) by lia.
    assert (Hin : In k p) by (rewrite Hp; apply in_seq; lia).
    apply In_nth with (d := O) in Hin. destruct Hin as (j & Hj & Ej). rewrite Hl in Hj.
    exists j. split; [exact Hj|]. split.
    + rewrite stratified_nth by assumption. destruct (Hd j Hj). apply in_stratum_iff; try assumption. congruence.
    + intros j' Hj' Hs. rewrite stratified_nth in Hs by assumption. destruct (Hd j' Hj').
      apply in_stratum_iff in Hs; try assumption.
      assert (Hnd : NoDup p) by (rewrite Hp; apply seq_NoDup).
      rewrite NoDup_nth with (d := O) in Hnd. apply Hnd; try lia; congruence.
Qed.

(** ** Uniform variables *)

Lemma uniform_ppf_spec a b u : (a < b)%Qc -> (0 <= u)%Qc -> (u <= 1)%Qc ->
  uniform_ppf (Some a) (Some b) u = Some (a + (b - a) * u)%Qc /\ (a <= a + (b - a) * u)%Qc /\ (a + (b - a) * u <= b)%Qc /\
  uniform_cdf (Some a) (Some b) (a + (b - a) * u) = Some u.
Proof.
  intros H H0 H1. unfold uniform_ppf, uniform_cdf. rewrite (proj2 (Qcltb_true a b) H), (proj2 (Qcleb_true 0 u) H0), (proj2 (Qcleb_true u 1) H1).
  cbn [andb]. split; [reflexivity|]. split; [qnra|]. split; [qnra|].
  replace ((a + (b - a) * u - a) / (b - a))%Qc with u by (field; intros E; assert (a = b) by qlra; subst; now apply Qclt_not_eq in H).
  destruct (Qcmin_spec 1 u) as [(Hm & ->)|(Hm & ->)]; destruct (Qcmax_spec 0 1) as [(Hn & E)|(Hn & E)]; try destruct (Qcmax_spec 0 u) as [(Hn' & E')|(Hn' & E')];
    f_equal; try (rewrite E); try (rewrite E'); qlra.
Qed.

(** ** Multinomial variables *)

Lemma cumsum_from_length l : forall acc, List.length (cumsum_from acc l) = List.length l.
Proof. induction l as [|x l IH]; intros acc; [reflexivity|]. cbn. now rewrite IH. Qed.

Lemma mark_big p_cum : forall i v, Forall (fun p => (p <= 1)%Qc) p_cum -> (1 < v)%Qc -> mark i p_cum v = v.
Proof.
  induction p_cum as [|p l IH]; intros i v Hp Hv; [reflexivity|]. inversion Hp; subst. cbn [mark].
  destruct (Qcltb_spec v p) as [Hl|Hl]; [exfalso; qlra|]. now apply IH.
Qed.

Lemma qn_ten i : (1 < qn (10 + i))%Qc.
Proof. change 1%Qc with (qn 1). apply qn_lt. lia. Qed.

(** The marks of a value follow the first partial sum above it. *)
Lemma mark_spec theta : forall acc i v, Forall (fun p => (0 <= p)%Qc) theta -> (acc + qsum theta <= 1)%Qc -> (acc <= v)%Qc -> (v <= 1)%Qc ->
  (exists k, (S k < List.length theta)%nat /\ mark i (removelast (cumsum_from acc theta)) v = qn (10 + (i + k)) /\
     (acc + qsum (firstn k theta) <= v)%Qc /\ (v < acc + qsum (firstn (S k) theta))%Qc) \/
  (mark i (removelast (cumsum_from acc theta)) v = v /\ (theta = [] \/ (acc + qsum (firstn (List.length theta - 1) theta) <= v)%Qc)).
Proof.
  induction theta as [|t theta IH]; intros acc i v Hp Hs Ha Hv; [right; split; [reflexivity|now left]|].
  inversion Hp as [|? ? Ht Hp']; subst. rewrite qsum_cons in Hs. pose proof (@qsum_nonneg _ Hp') as Hnn.
  destruct theta as [|t' theta].
  - right. split; [reflexivity|]. right. cbn [List.length Nat.sub firstn qsum fold_right]. qlra.
  - change (cumsum_from acc (t :: t' :: theta)) with ((acc + t)%Qc :: cumsum_from (acc + t) (t' :: theta)).
    assert (Hne : cumsum_from (acc + t) (t' :: theta) <> []) by (cbn; discriminate).
    replace (removelast ((acc + t)%Qc :: cumsum_from (acc + t) (t' :: theta))) with ((acc + t)%Qc :: removelast (cumsum_from (acc + t) (t' :: theta)))
      by (cbn; destruct (cumsum_from (acc + t) (t' :: theta)); easy).
    cbn [mark]. destruct (Qcltb_spec v (acc + t)) as [Hl|Hl].
    + left. exists O. split; [cbn; lia|]. split; [|cbn [firstn]; rewrite !qsum_cons; change (qsum []) with 0%Qc; split; qlra].
      rewrite Nat.add_0_r. apply mark_big; [|apply qn_ten].
      assert (Hgen : forall l a, Forall (fun p => (0 <= p)%Qc) l -> (a + qsum l <= 1)%Qc -> Forall (fun p => (p <= 1)%Qc) (cumsum_from a l)).
      { clear. induction l as [|x l IHl]; intros a Hf Hs; [constructor|]. inversion Hf; subst. rewrite qsum_cons in Hs. pose proof (@qsum_nonneg _ H2) as Hn.
        cbn. constructor; [qlra|]. apply IHl; [assumption|qlra]. }
      assert (Hrl : forall l : list Qc, incl (removelast l) l).
      { clear. induction l as [|x [|y l] IHl]; [easy|easy|]. cbn [removelast]. intros z [->|Hz]; [now left|]. right. now apply IHl. }
      rewrite Forall_forall. intros p Hin. apply Hrl in Hin.
      specialize (Hgen (t' :: theta) (acc + t)%Qc Hp'). rewrite Forall_forall in Hgen. apply Hgen; [qlra|exact Hin].
    + destruct (IH (acc + t)%Qc (S i) v) as [(k & Hk & Em & Hlo & Hhi)|(Em & Hlast)]; [assumption|qlra|assumption|assumption| |].
      * left. exists (S k). split; [cbn [List.length] in *; lia|]. split; [rewrite Em; f_equal; lia|].
        change (firstn (S (S k)) (t :: t' :: theta)) with (t :: firstn (S k) (t' :: theta)).
        change (firstn (S k) (t :: t' :: theta)) with (t :: firstn k (t' :: theta)). rewrite !qsum_cons. split; qlra.
      * right. split; [exact Em|]. right. destruct Hlast as [|Hlast]; [easy|].
        replace (List.length (t :: t' :: theta) - 1)%nat with (S (List.length (t' :: theta) - 1)) by (cbn; lia).
        cbn [firstn]. rewrite qsum_cons. qlra.
Qed.

Lemma removelast_length {A} (l : list A) : List.length (removelast l) = (List.length l - 1)%nat.
Proof. induction l as [|x [|y l] IH]; [reflexivity|reflexivity|].
  change (S (List.length (removelast (y :: l))) = (S (List.length (y :: l)) - 1)%nat). rewrite IH. cbn [List.length]. lia. Qed.

Lemma mark_all_outcome theta v : theta <> [] -> Forall (fun p => (0 <= p)%Qc) theta -> (qsum theta <= 1)%Qc -> (0 <= v)%Qc -> (v <= 1)%Qc ->
  exists k, mark_all theta v = qn (10 + k) /\ outcome_interval theta k v.
Proof.
  intros Hne Hp Hs H0 H1. unfold mark_all, cumsum.
  destruct (@mark_spec theta 0%Qc O v) as [(k & Hk & Em & Hlo & Hhi)|(Em & Hlast)]; [assumption|qlra|assumption|assumption| |]; rewrite Em.
  - pose proof (qn_ten (0 + k)) as Ht. destruct (Qcleb_spec (qn (10 + (0 + k))) 1) as [Hc|_]; [exfalso; qlra|].
    exists k. split; [reflexivity|]. split; [lia|]. split; [qlra|].
    destruct (Nat.eqb_spec (S k) (List.length theta)); [lia|qlra].
  - destruct (Qcleb_spec v 1) as [_|Hc]; [|exfalso; qlra]. rewrite removelast_length, cumsum_from_length.
    exists (List.length theta - 1)%nat. split; [reflexivity|]. destruct Hlast as [|Hlast]; [easy|].
    assert (0 < List.length theta)%nat by (destruct theta; [easy|cbn; lia]).
    split; [lia|]. split; [qlra|]. replace (S (List.length theta - 1)) with (List.length theta) by lia. rewrite Nat.eqb_refl. exact H1.
Qed.

Lemma qsum_firstn_mono theta : Forall (fun p => (0 <= p)%Qc) theta -> forall i j, (i <= j)%nat -> (qsum (firstn i theta) <= qsum (firstn j theta))%Qc.
Proof.
  intros Hp. induction Hp as [|t theta Ht Hp IH]; intros i j Hij.
  - rewrite !firstn_nil. qlra.
  - destruct j as [|j]; [assert (i = O) by lia; subst; qlra|]. destruct i as [|i].
    + cbn [firstn]. rewrite qsum_cons. change (qsum []) with 0%Qc. specialize (IH O j). cbn [firstn] in IH. change (qsum []) with 0%Qc in IH.
      assert (0 <= j)%nat by lia. specialize (IH H). qlra.
    + cbn [firstn]. rewrite !qsum_cons. specialize (IH i j). assert (i <= j)%nat by lia. specialize (IH H). qlra.
Qed.

Lemma outcome_unique theta u i j : Forall (fun p => (0 <= p)%Qc) theta ->
  outcome_interval theta i u -> outcome_interval theta j u -> i = j.
Proof.
  intros Hp. assert (Hgen : forall i j, (i < j)%nat -> outcome_interval theta i u -> outcome_interval theta j u -> False).
  { clear i j. intros i j Hij (_ & _ & Hi) (Hj & Hlo & _). destruct (Nat.eqb_spec (S i) (List.length theta)); [lia|].
    pose proof (@qsum_firstn_mono theta Hp (S i) j) as Hm. assert (S i <= j)%nat by lia. specialize (Hm H). qlra. }
  intros Hi Hj. destruct (Nat.lt_trichotomy i j) as [H|[H|H]]; [exfalso; eauto|exact H|exfalso; eauto].
Qed.

Lemma multinomial_outcome theta values j u : theta <> [] -> Forall (fun p => (0 <= p)%Qc) theta -> (qsum theta <= 1)%Qc ->
  nth_error values j = Some u -> (0 <= u)%Qc -> (u <= 1)%Qc ->
  exists i, nth_error (snd (multinomial_inverse theta values)) j = Some (qn i) /\ outcome_interval theta i u.
Proof.
  intros Hne Hp Hs Hj H0 H1. destruct (@mark_all_outcome theta u) as (k & Ek & Ho); try assumption.
  exists k. split; [|exact Ho]. cbn [multinomial_inverse snd]. rewrite map_map.
  erewrite map_nth_error; [|exact Hj]. rewrite Ek, qn_add. f_equal. ring.
Qed.

(** ** Empirical variables *)

Lemma this_mult_qn u m : (0 <= u)%Qc -> forall i, to_int (u * qn m) = Z.of_nat i <-> (qn i <= u * qn m)%Qc /\ (u * qn m < qn (S i))%Qc.
Proof.
  intros Hu i. set (q := (u * qn m)%Qc). assert (Hq : (0 <= q)%Qc) by (unfold q; apply Qcmult_nonneg; [assumption|apply qn_nonneg]).
  clearbody q. unfold to_int. destruct q as [q Hc]. cbn [this]. unfold Qcle, Qclt in *. cbn [this qn Q2Qc] in *.
  destruct q as [a b]. cbn [Qnum Qden].
  assert (Ha : (0 <= a)%Z) by (unfold Qle in Hq; cbn in Hq; lia).
  rewrite Z.quot_div_nonneg by lia.
  rewrite !Qred_correct. unfold Qle, Qlt, inject_Z. cbn [Qnum Qden].
  pose proof (Z.div_mod a (Zpos b)) as Hd. pose proof (Z.mod_pos_bound a (Zpos b)) as Hm.
  assert (Hb : (0 < Zpos b)%Z) by lia. specialize (Hm Hb).
  split.
  - intros E. rewrite E in Hd. nia.
  - intros (H1 & H2). assert (Z.of_nat i <= a / Zpos b)%Z by (apply Z.div_le_lower_bound; nia).
    assert (a / Zpos b < Z.of_nat i + 1)%Z by (apply Z.div_lt_upper_bound; nia). lia.
Qed.

Lemma to_int_exists u m : (0 < m)%nat -> (0 <= u)%Qc -> (u < 1)%Qc -> exists i, (i < m)%nat /\ to_int (u * qn m) = Z.of_nat i.
Proof.
  intros Hm H0 H1. pose proof (@qn_pos m Hm) as Hp.
  assert (Hq : (0 <= u * qn m)%Qc) by (apply Qcmult_nonneg; [assumption|apply qn_nonneg]).
  assert (Hz : (0 <= to_int (u * qn m))%Z).
  { unfold to_int. set (q := (u * qn m)%Qc) in *. clearbody q. destruct q as [[a b] Hc]. unfold Qcle in Hq. cbn [this Qnum Qden] in *.
    unfold Qle in Hq. cbn in Hq. apply Z.quot_pos; lia. }
  exists (Z.to_nat (to_int (u * qn m))). split; [|now rewrite Z2Nat.id].
  pose proof (proj1 (@this_mult_qn u m H0 (Z.to_nat (to_int (u * qn m))))) as Hi. rewrite Z2Nat.id in Hi by assumption.
  destruct (Hi eq_refl) as (Hlo & _). apply qn_lt. assert (u * qn m < qn m)%Qc by qnra. qlra.
Qed.

Lemma empirical_spec theta u : theta <> [] -> (0 <= u)%Qc -> (u < 1)%Qc ->
  exists i, (i < List.length theta)%nat /\ in_stratum (List.length theta) i u /\ empirical_inverse theta u = Ok (nth i theta 0%Qc).
Proof.
  intros Hne H0 H1. assert (Hm : (0 < List.length theta)%nat) by (destruct theta; [easy|cbn; lia]).
  destruct (@to_int_exists u (List.length theta) Hm H0 H1) as (i & Hi & Ei). exists i. split; [exact Hi|].
  pose proof (@qn_pos _ Hm) as Hp. apply this_mult_qn in Ei as Hb; [|assumption]. split.
  - split; [apply (@Qcdiv_le _ _ _ Hp); apply Hb|]. destruct Hb as (_ & Hb).
    rewrite <- (@Qcmult_div_cancel (qn (S i)) (qn (List.length theta))) in Hb by now apply Qclt_neq.
    set (w := (qn (S i) / qn (List.length theta))%Qc) in *. destruct (Qclt_le_dec u w) as [|Hc]; [assumption|].
    exfalso. assert (w * qn (List.length theta) <= u * qn (List.length theta))%Qc by qnra. qlra.
  - unfold empirical_inverse. rewrite Ei. unfold index_at. destruct (Z.ltb_spec (Z.of_nat i) 0); [lia|].
    destruct (Z.ltb_spec (Z.of_nat i) 0); [lia|]. rewrite Nat2Z.id. now rewrite (nth_error_nth' theta 0%Qc Hi).
Qed.

Lemma tile_nth {A} (l : list A) d k : forall j, (j < k * List.length l)%nat -> nth j (tile l k) d = nth (j mod List.length l) l d.
Proof.
  induction k as [|k IH]; intros j Hj; [lia|]. cbn [tile]. destruct (Nat.lt_ge_cases j (List.length l)) as [H|H].
  - rewrite app_nth1 by exact H. now rewrite Nat.mod_small.
  - rewrite app_nth2 by exact H. rewrite IH by lia.
    f_equal. replace j with ((j - List.length l) + 1 * List.length l)%nat at 2 by lia. rewrite Nat.mod_add; [reflexivity|lia].
Qed.
Lemma tile_length {A} (l : list A) k : List.length (tile l k) = (k * List.length l)%nat.
Proof. induction k as [|k IH]; [reflexivity|]. cbn [tile]. rewrite app_length, IH. lia. Qed.

Lemma coupled_spec theta n : theta <> [] -> exists s, coupled_inverse theta n = Ok s /\ List.length s = n /\
  forall j, (j < n)%nat -> nth j s 0%Qc = nth (j mod List.length theta) theta 0%Qc.
Proof.
  intros Hne. unfold coupled_inverse. destruct theta as [|t theta]; [easy|]. set (l := t :: theta) in *.
  assert (Hm : (0 < List.length l)%nat) by (cbn; lia). exists (firstn n (tile l (n / List.length l + 1))). split; [reflexivity|].
  assert (Hlen : (n <= (n / List.length l + 1) * List.length l)%nat).
  { pose proof (Nat.div_mod n (List.length l)) as Hd. pose proof (Nat.mod_upper_bound n (List.length l)). nia. }
  split; [rewrite firstn_length, tile_length; lia|].
  intros j Hj. rewrite <- (@tile_nth _ l 0%Qc (n / List.length l + 1)) by lia.
  rewrite <- (firstn_skipn n (tile l (n / List.length l + 1))) at 2. rewrite app_nth1; [reflexivity|].
  rewrite firstn_length, tile_length. lia.
Qed.

(** ** Multilinear CDF *)

Lemma spaced_cons gap p q l : spaced gap (p :: q :: l) <-> (gap < fst q - fst p)%Qc /\ (gap < snd q - snd p)%Qc /\ spaced gap (q :: l).
Proof. reflexivity. Qed.

Lemma spaced_pairs gap x0 y0 x1 y1 l : spaced gap ((x0, y0) :: (x1, y1) :: l) <-> (gap < x1 - x0)%Qc /\ (gap < y1 - y0)%Qc /\ spaced gap ((x1, y1) :: l).
Proof. reflexivity. Qed.

Lemma near_zero_false d : (0 <= d)%Qc -> near_zero d = false <-> (qc (1 # 100000000) < d)%Qc.
Proof.
  intros Hd. unfold near_zero. assert (H0 : (- qc (1 # 100000000) <= d)%Qc).
  { assert ((- qc (1 # 100000000) <= 0)%Qc) by (unfold Qcle; cbn; unfold Qle; cbn; lia). qlra. }
  rewrite (proj2 (Qcleb_true _ _) H0). cbn [andb]. apply Qcleb_false.
Qed.

Lemma checks_spaced theta :
  (ascending (map fst theta) = true /\ existsb near_zero (diffs (map fst theta)) = false /\
   ascending (map snd theta) = true /\ existsb near_zero (diffs (map snd theta)) = false) <-> spaced (qc (1 # 100000000)) theta.
Proof.
  induction theta as [|p theta IH]; [cbn; easy|]. destruct theta as [|q theta]; [cbn; easy|].
  rewrite spaced_cons, <- IH. clear IH.
  change (ascending (map fst (p :: q :: theta))) with (Qcleb (fst p) (fst q) && ascending (map fst (q :: theta))).
  change (ascending (map snd (p :: q :: theta))) with (Qcleb (snd p) (snd q) && ascending (map snd (q :: theta))).
  change (existsb near_zero (diffs (map fst (p :: q :: theta)))) with (near_zero (fst q - fst p) || existsb near_zero (diffs (map fst (q :: theta)))).
  change (existsb near_zero (diffs (map snd (p :: q :: theta)))) with (near_zero (snd q - snd p) || existsb near_zero (diffs (map snd (q :: theta)))).
  rewrite !andb_true_iff, !orb_false_iff, !Qcleb_true.
  assert (Hpos : (0 < qc (1 # 100000000))%Qc) by reflexivity.
  split.
  - intros ((A1 & A2) & (B1 & B2) & (C1 & C2) & (D1 & D2)).
    apply near_zero_false in B1; [|qlra]. apply near_zero_false in D1; [|qlra]. tauto.
  - intros (H1 & H2 & A2 & B2 & C2 & D2). rewrite !near_zero_false by qlra.
    repeat split; try assumption; qlra.
Qed.

Lemma multilinear_init_spec theta : multilinear_init false theta = Ok theta <-> valid_cdf (qc (1 # 100000000)) theta.
Proof.
  unfold multilinear_init, valid_cdf. destruct theta as [|p theta]; [split; [discriminate|intros (p & H & _); discriminate]|].
  cbn [nth_error]. split.
  - intros H. exists p. split; [reflexivity|].
    destruct (Qceqb_spec (snd p) 0) as [E0|]; [|discriminate H]. cbn [negb] in H.
    destruct (Qceqb_spec (snd (last (p :: theta) p)) 1) as [E1|]; [|discriminate H]. cbn [negb] in H.
    split; [exact E0|]. split; [exact E1|]. apply checks_spaced.
    destruct (ascending (map fst (p :: theta))); [|discriminate H].
    destruct (existsb near_zero (diffs (map fst (p :: theta)))); [discriminate H|].
    destruct (ascending (map snd (p :: theta))); [|discriminate H].
    destruct (existsb near_zero (diffs (map snd (p :: theta)))); [discriminate H|]. easy.
  - intros (p' & E & E0 & E1 & H). injection E as <-. apply checks_spaced in H. destruct H as (A & B & C & D).
    rewrite (proj2 (Qceqb_true _ _) E0), (proj2 (Qceqb_true _ _) E1), A, B, C, D. reflexivity.
Qed.

Lemma multilinear_init_other theta t : multilinear_init false theta = Ok t -> t = theta.
Proof.
  unfold multilinear_init. destruct theta as [|p theta]; [discriminate|].
  repeat match goal with |- (if ?b then _ else _) = _ -> _ => destruct b; [discriminate|] end. congruence.
Qed.

Lemma spaced_weaken g g' theta : (g' <= g)%Qc -> spaced g theta -> spaced g' theta.
Proof.
  intros Hg. induction theta as [|p theta IH]; [easy|]. destruct theta as [|q theta]; [easy|]. rewrite !spaced_cons.
  intros (H1 & H2 & H3). split; [qlra|]. split; [qlra|]. now apply IH.
Qed.

Definition swap_xy (p : Qc * Qc) : Qc * Qc := (snd p, fst p).

Lemma last_cons_eq {A} (x : A) l d d' : last (x :: l) d = last (x :: l) d'.
Proof. revert x. induction l as [|y l IH]; intros x; [reflexivity|]. change (last (y :: l) d = last (y :: l) d'). apply IH. Qed.

Lemma last_spaced : forall theta p, spaced 0 (p :: theta) -> (fst p <= fst (last theta p))%Qc /\ (snd p <= snd (last theta p))%Qc.
Proof.
  induction theta as [|q theta IH]; intros p Hs; [cbn; split; qlra|]. apply (proj1 (@spaced_cons _ _ _ _)) in Hs. destruct Hs as (H1 & H2 & H3).
  specialize (IH q H3). rewrite (@last_cons_eq _ q theta p q). destruct theta as [|r theta]; [cbn in *; split; qlra|].
  change (last (q :: r :: theta) q) with (last (r :: theta) q). destruct IH. split; qlra.
Qed.

(** Interpolating back and forth. *)
Lemma interp_inverse : forall theta x0 y0 u, spaced 0 ((x0, y0) :: theta) -> (y0 <= u)%Qc -> (u <= snd (last theta (x0, y0)))%Qc ->
  let x := interp_from y0 x0 (map swap_xy theta) u in
  (x0 <= x)%Qc /\ (x <= fst (last theta (x0, y0)))%Qc /\ interp_from x0 y0 theta x = u.
Proof.
  induction theta as [|[x1 y1] theta IH]; intros x0 y0 u Hs H0 H1.
  - cbn in *. split; [qlra|]. split; [qlra|qlra].
  - apply (proj1 (@spaced_pairs _ _ _ _ _ _)) in Hs. destruct Hs as (Hx & Hy & Hs).
    cbn [map swap_xy fst snd interp_from]. rewrite (@last_cons_eq _ (x1, y1) theta (x0, y0) (x1, y1)) in *.
    destruct (Qcltb_spec u y1) as [Hu|Hu].
    + set (x := (x0 + (x1 - x0) / (y1 - y0) * (u - y0))%Qc).
      assert (Hy' : (y1 - y0 <> 0)%Qc) by (intros E; rewrite E in Hy; now apply Qclt_not_eq in Hy).
      assert (Hx' : (x1 - x0 <> 0)%Qc) by (intros E; rewrite E in Hx; now apply Qclt_not_eq in Hx).
      assert (Hk : (0 < (x1 - x0) / (y1 - y0))%Qc) by (apply Qcdiv_pos; assumption).
      assert (Hb : ((x1 - x0) / (y1 - y0) * (y1 - y0) = x1 - x0)%Qc) by (field; assumption).
      assert (Hlo : (x0 <= x)%Qc) by (unfold x; set (k := ((x1 - x0) / (y1 - y0))%Qc) in *; assert (0 <= k * (u - y0))%Qc by qnra; qlra).
      assert (Hhi : (x < x1)%Qc).
      { unfold x. set (k := ((x1 - x0) / (y1 - y0))%Qc) in *. assert (k * (u - y0) < k * (y1 - y0))%Qc by qnra. qlra. }
      split; [exact Hlo|]. split.
      * pose proof (@last_spaced theta (x1, y1) Hs) as (Hl & _). cbn [fst] in Hl. change (last ((x1, y1) :: theta) (x1, y1)) with (last ((x1, y1) :: theta) (x1, y1)).
        destruct theta as [|r theta]; [cbn; qlra|]. change (last ((x1, y1) :: r :: theta) (x1, y1)) with (last (r :: theta) (x1, y1)). qlra.
      * rewrite (proj2 (Qcltb_true _ _) Hhi). unfold x. field. split; assumption.
    + assert (El : last ((x1, y1) :: theta) (x1, y1) = last theta (x1, y1)) by (destruct theta; reflexivity). rewrite El in *.
      destruct (IH x1 y1 u Hs Hu H1) as (A & B & C). cbv zeta in *. fold (map swap_xy theta).
      split; [qlra|]. split; [exact B|].
      assert (Ef : Qcltb (interp_from y1 x1 (map swap_xy theta) u) x1 = false) by (apply Qcltb_false; exact A).
      rewrite Ef. exact C.
Qed.

Lemma multilinear_inverse_spec gap theta u : (0 <= gap)%Qc -> valid_cdf gap theta -> (0 <= u)%Qc -> (u <= 1)%Qc ->
  let x := multilinear_inverse theta u in
  (fst (nth 0 theta (0, 0)) <= x)%Qc /\ (x <= fst (last theta (0, 0)))%Qc /\ multilinear_cdf theta x = u.
Proof.
  intros Hg (p & Hp & E0 & E1 & Hs) H0 H1. apply (@spaced_weaken gap 0 theta Hg) in Hs.
  destruct theta as [|[x0 y0] theta]; [discriminate|]. injection Hp as <-. cbn [snd fst] in *. subst y0.
  rewrite (@last_cons_eq _ _ theta (0, 0) (x0, 0))%Qc.
  assert (El : last ((x0, 0%Qc) :: theta) (x0, 0%Qc) = last theta (x0, 0%Qc)) by (destruct theta; reflexivity). rewrite El in *.
  destruct (@interp_inverse theta x0 0%Qc u Hs H0) as (A & B & C); [now rewrite E1|]. cbv zeta in *.
  unfold multilinear_inverse, np_interp, multilinear_cdf. cbn [map fst snd nth].
  assert (E : Qcltb u 0 = false) by now apply Qcltb_false. rewrite E.
  change (map (fun p => (snd p, fst p)) theta) with (map swap_xy theta).
  split; [exact A|]. split; [exact B|].
  rewrite (proj2 (Qcltb_false _ _) A), El, (proj2 (Qcltb_false _ _) B). exact C.
Qed.

(** The cdf itself increases, hence so do the samples. *)
Lemma interp_from_monotone_xy : forall theta x0 y0 x x', spaced 0 ((x0, y0) :: theta) -> (x0 <= x)%Qc -> (x <= x')%Qc ->
  (y0 <= interp_from x0 y0 theta x)%Qc /\ (interp_from x0 y0 theta x <= interp_from x0 y0 theta x')%Qc.
Proof.
  induction theta as [|[x1 y1] theta IH]; intros x0 y0 x x' Hs H0 H1; [cbn; split; qlra|].
  apply (proj1 (@spaced_pairs _ _ _ _ _ _)) in Hs. destruct Hs as (Hx & Hy & Hs). cbn [interp_from].
  assert (Hx' : (x1 - x0 <> 0)%Qc) by (intros E; rewrite E in Hx; now apply Qclt_not_eq in Hx).
  assert (Hk : (0 < (y1 - y0) / (x1 - x0))%Qc) by (apply Qcdiv_pos; assumption).
  assert (Hb : ((y1 - y0) / (x1 - x0) * (x1 - x0) = y1 - y0)%Qc) by (field; assumption).
  set (k := ((y1 - y0) / (x1 - x0))%Qc) in *.
  destruct (Qcltb_spec x x1) as [Hl|Hl].
  - assert (A : (0 <= k * (x - x0))%Qc) by qnra. split; [qlra|]. destruct (Qcltb_spec x' x1) as [Hl'|Hl'].
    + assert (k * (x - x0) <= k * (x' - x0))%Qc by qnra. qlra.
    + assert (k * (x - x0) < k * (x1 - x0))%Qc by qnra. destruct (IH x1 y1 x' x' Hs Hl') as (B & _); [qlra|]. qlra.
  - destruct (Qcltb_spec x' x1) as [Hl'|Hl']; [exfalso; qlra|]. destruct (IH x1 y1 x x' Hs Hl H1) as (A & B). split; [qlra|exact B].
Qed.

Lemma multilinear_cdf_monotone gap theta x x' : (0 <= gap)%Qc -> valid_cdf gap theta -> (x <= x')%Qc ->
  (multilinear_cdf theta x <= multilinear_cdf theta x')%Qc.
Proof.
  intros Hg (p & Hp & E0 & E1 & Hs) H. apply (@spaced_weaken gap 0 theta Hg) in Hs.
  destruct theta as [|[x0 y0] theta]; [discriminate|]. injection Hp as <-. cbn [snd fst] in *. subst y0.
  assert (El : last ((x0, 0%Qc) :: theta) (x0, 0%Qc) = last theta (x0, 0%Qc)) by (destruct theta; reflexivity).
  unfold multilinear_cdf. rewrite El in *.
  assert (Hend : forall z, (x0 <= z)%Qc -> (z <= fst (last theta (x0, 0%Qc)))%Qc -> (interp_from x0 0 theta z <= 1)%Qc).
  { intros z Hz Hz'. rewrite <- E1.
    destruct (@interp_from_monotone_xy theta x0 0%Qc z (fst (last theta (x0, 0%Qc))) Hs Hz Hz') as (_ & Hm).
    assert (El' : interp_from x0 0 theta (fst (last theta (x0, 0%Qc))) = snd (last theta (x0, 0%Qc))).
    { clear -Hs. revert x0 Hs. generalize 0%Qc at 2 3 4 5. induction theta as [|[x1 y1] theta IH]; intros y0 x0 Hs; [reflexivity|].
      pose proof Hs as Hs'. apply (proj1 (@spaced_pairs _ _ _ _ _ _)) in Hs. destruct Hs as (Hx & Hy & Hs).
      rewrite (@last_cons_eq _ (x1, y1) theta (x0, y0) (x1, y1)).
      assert (El : last ((x1, y1) :: theta) (x1, y1) = last theta (x1, y1)) by (destruct theta; reflexivity). rewrite El.
      cbn [interp_from]. destruct (@last_spaced theta (x1, y1) Hs) as (Hl & _). cbn [fst] in Hl.
      rewrite (proj2 (Qcltb_false _ _) Hl). now apply IH. }
    qlra. }
  destruct (Qcltb_spec x x0) as [A|A].
  - destruct (Qcltb_spec x' x0) as [B|B]; [qlra|]. destruct (Qcltb_spec (fst (last theta (x0, 0%Qc))) x') as [C|C]; [now unfold Qcle|].
    apply (@interp_from_monotone_xy theta x0 0%Qc x' x' Hs B). qlra.
  - destruct (Qcltb_spec x' x0) as [B|B]; [exfalso; qlra|].
    destruct (Qcltb_spec (fst (last theta (x0, 0%Qc))) x) as [C|C].
    + assert (D : (fst (last theta (x0, 0%Qc)) < x')%Qc) by qlra. rewrite (proj2 (Qcltb_true _ _) D). qlra.
    + destruct (Qcltb_spec (fst (last theta (x0, 0%Qc))) x') as [D|D]; [now apply Hend|].
      now apply interp_from_monotone_xy.
Qed.

Lemma multilinear_inverse_monotone gap theta u u' : (0 <= gap)%Qc -> valid_cdf gap theta -> (0 <= u)%Qc -> (u <= u')%Qc -> (u' <= 1)%Qc ->
  (multilinear_inverse theta u <= multilinear_inverse theta u')%Qc.
Proof.
  intros Hg Hv H0 H H1.
  destruct (@multilinear_inverse_spec gap theta u Hg Hv H0) as (_ & _ & E); [qlra|].
  destruct (@multilinear_inverse_spec gap theta u' Hg Hv) as (_ & _ & E'); [qlra|assumption|]. cbv zeta in *.
  destruct (Qclt_le_dec (multilinear_inverse theta u') (multilinear_inverse theta u)) as [Hc|]; [|assumption].
  assert (Hle : (multilinear_inverse theta u' <= multilinear_inverse theta u)%Qc) by qlra.
  pose proof (@multilinear_cdf_monotone gap theta _ _ Hg Hv Hle) as Hm. rewrite E, E' in Hm.
  assert (u = u') by qlra. subst u'. qlra.
Qed.

(** Between the end points the inverse undoes the cdf. *)
Lemma multilinear_inverse_cdf gap theta x : (0 <= gap)%Qc -> valid_cdf gap theta ->
  (fst (nth 0 theta (0, 0)) <= x)%Qc -> (x <= fst (last theta (0, 0)))%Qc ->
  multilinear_inverse theta (multilinear_cdf theta x) = x.
Proof.
  intros Hg (p & Hp & E0 & E1 & Hs) Hlo Hhi. apply (@spaced_weaken gap 0 theta Hg) in Hs.
  destruct theta as [|[x0 y0] theta]; [discriminate|]. injection Hp as <-. cbn [snd fst nth] in *. subst y0.
  rewrite (@last_cons_eq _ _ theta (0, 0) (x0, 0))%Qc in Hhi.
  assert (El : last ((x0, 0%Qc) :: theta) (x0, 0%Qc) = last theta (x0, 0%Qc)) by (destruct theta; reflexivity). rewrite El in *.
  unfold multilinear_cdf. rewrite (proj2 (Qcltb_false _ _) Hlo), El, (proj2 (Qcltb_false _ _) Hhi).
  unfold multilinear_inverse, np_interp. cbn [map fst snd].
  change (map (fun p => (snd p, fst p)) theta) with (map swap_xy theta).
  destruct (@interp_from_monotone_xy theta x0 0%Qc x x Hs Hlo) as (Hn & _); [qlra|].
  rewrite (proj2 (Qcltb_false _ _) Hn). clear Hn El E1.
  revert x0 Hs Hlo Hhi. generalize 0%Qc at 2 3 4 5. induction theta as [|[x1 y1] theta IH]; intros y0 x0 Hs Hlo Hhi.
  - cbn in *. qlra.
  - apply (proj1 (@spaced_pairs _ _ _ _ _ _)) in Hs. destruct Hs as (Hx & Hy & Hs).
    rewrite (@last_cons_eq _ (x1, y1) theta (x0, y0) (x1, y1)) in Hhi.
    assert (El : last ((x1, y1) :: theta) (x1, y1) = last theta (x1, y1)) by (destruct theta; reflexivity). rewrite El in Hhi.
    cbn [interp_from map swap_xy fst snd].
    assert (Hx' : (x1 - x0 <> 0)%Qc) by (intros E; rewrite E in Hx; now apply Qclt_not_eq in Hx).
    assert (Hy' : (y1 - y0 <> 0)%Qc) by (intros E; rewrite E in Hy; now apply Qclt_not_eq in Hy).
    destruct (Qcltb_spec x x1) as [Hl|Hl].
    + assert (Hk : (0 < (y1 - y0) / (x1 - x0))%Qc) by (apply Qcdiv_pos; assumption).
      assert (Hb : ((y1 - y0) / (x1 - x0) * (x1 - x0) = y1 - y0)%Qc) by (field; assumption).
      assert (Hlt : (y0 + (y1 - y0) / (x1 - x0) * (x - x0) < y1)%Qc).
      { set (k := ((y1 - y0) / (x1 - x0))%Qc) in *. assert (k * (x - x0) < k * (x1 - x0))%Qc by qnra. qlra. }
      rewrite (proj2 (Qcltb_true _ _) Hlt). field. split; assumption.
    + destruct (@interp_from_monotone_xy theta x1 y1 x x Hs Hl) as (Hn & _); [qlra|].
      rewrite (proj2 (Qcltb_false _ _) Hn). fold (map swap_xy theta). now apply IH.
Qed.
