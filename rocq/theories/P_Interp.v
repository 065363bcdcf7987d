(** Proofs about tabulated unit consequences. *)
From Verif Require Import Prelude PreludeFacts Pandas PandasFacts M_Base M_Damage M_Agg S_Agg P_Comb M_LossDS S_LossDS.
Local Open Scope list_scope.

Lemma wf_increasing ys xs : well_formed_table ys xs -> increasing xs = true.
Proof.
  intros (_ & _ & H). clear ys. induction xs as [|a [|b l] IH]; [easy|easy|]. change (Qcltb a b && increasing (b :: l) = true).
  apply andb_true_iff. split.
  - apply Qcltb_true. apply (H 0%nat). cbn. lia.
  - apply IH. intros i Hi. apply (H (S i)). cbn in *. lia.
Qed.

Lemma wf_tail y x ys xs : xs <> [] -> well_formed_table (y :: ys) (x :: xs) -> well_formed_table ys xs.
Proof.
  intros Hne (_ & Hl & H). split; [easy|]. split; [now inversion Hl|]. intros i Hi. apply (H (S i)). cbn. lia.
Qed.

Lemma slope_eq x0 y0 x1 y1 q : (x0 < x1)%Qc -> exists w, (q - x0 = w * (x1 - x0))%Qc /\
  (y0 + (y1 - y0) / (x1 - x0) * (q - x0))%Qc = ((1 - w) * y0 + w * y1)%Qc /\
  ((x0 <= q)%Qc -> (0 <= w)%Qc) /\ ((q <= x1)%Qc -> (w <= 1)%Qc).
Proof.
  intros H. assert (Hne : (x1 - x0 <> 0)%Qc) by (intros E; assert (x1 = x0) by qlra; subst; now apply Qclt_not_eq in H).
  exists ((q - x0) / (x1 - x0))%Qc. assert (Ew : ((q - x0) / (x1 - x0) * (x1 - x0) = q - x0)%Qc) by (field; assumption).
  split; [symmetry; exact Ew|]. split; [|split].
  - field. assumption.
  - intros Hq. destruct (Qclt_le_dec ((q - x0) / (x1 - x0)) 0) as [Hn|]; [|assumption].
    set (w := ((q - x0) / (x1 - x0))%Qc) in *. exfalso. assert (w * (x1 - x0) < 0)%Qc by qnra. qlra.
  - intros Hq. destruct (Qclt_le_dec 1 ((q - x0) / (x1 - x0))) as [Hn|]; [|assumption].
    set (w := ((q - x0) / (x1 - x0))%Qc) in *. exfalso. assert (0 < (w - 1) * (x1 - x0))%Qc by qnra.
    assert (E : ((w - 1) * (x1 - x0) = w * (x1 - x0) - (x1 - x0))%Qc) by ring. rewrite E in H0. qlra.
Qed.

Lemma located_intro g size x i w : (S i < size)%nat -> (0 <= w)%Qc -> (w <= 1)%Qc ->
  x = ((1 - w) * g i + w * g (S i))%Qc -> located g size x i w.
Proof. intros. repeat split; assumption. Qed.

Lemma interp_from_curve : forall xs ys x0 y0 q, well_formed_table (y0 :: ys) (x0 :: xs) -> (x0 <= q)%Qc ->
  on_curve (y0 :: ys) (x0 :: xs) q (interp_from x0 y0 (combine xs ys) q).
Proof.
  induction xs as [|x1 xs IH]; intros ys x0 y0 q Hw Hq.
  - apply curve_above; [exact Hq|reflexivity].
  - destruct ys as [|y1 ys]; [destruct Hw as (_ & E & _); discriminate E|].
    assert (Hlt : (x0 < x1)%Qc) by (apply Hw with (i := 0%nat); cbn; lia).
    cbn [combine interp_from]. destruct (Qcltb q x1) eqn:E.
    + apply Qcltb_true in E. destruct (slope_eq x0 y0 x1 y1 q Hlt) as (w & E1 & -> & W0 & W1).
      apply curve_between with (i := 0%nat) (w := w); [|reflexivity].
      apply located_intro; [cbn; lia|auto|apply W1; now apply Qclt_le_weak|].
      cbn [nth]. assert (E2 : ((1 - w) * x0 + w * x1 = x0 + w * (x1 - x0))%Qc) by ring. rewrite E2, <- E1. ring.
    + apply Qcltb_false in E. assert (Hw' : well_formed_table (y1 :: ys) (x1 :: xs)) by (apply wf_tail with (2 := Hw); easy).
      destruct (IH ys x1 y1 q Hw' E) as [Hb Hv|Ha Hv|i w Hl Hv].
      * apply curve_between with (i := 0%nat) (w := 1%Qc); [|rewrite Hv; cbn [nth]; ring].
        apply located_intro; [cbn; lia|easy|apply Qcle_refl|]. cbn [nth] in *.
        assert (q = x1) as -> by (now apply Qcle_antisym). ring.
      * apply curve_above.
        -- cbn [List.length Nat.sub] in *. rewrite Nat.sub_0_r in *. exact Ha.
        -- rewrite Hv. cbn [List.length Nat.sub]. rewrite !Nat.sub_0_r. reflexivity.
      * apply curve_between with (i := S i) (w := w); [|rewrite Hv; reflexivity].
        destruct Hl as (L1 & L2 & L3 & L4). apply located_intro; [cbn [List.length] in *; lia|assumption|assumption|exact L4].
Qed.

Lemma bounded_multilinear_curve ys xs q : well_formed_table ys xs -> on_curve ys xs q (bounded_multilinear ys xs q).
Proof.
  intros Hw. destruct xs as [|x0 xs]; [now destruct Hw|]. destruct ys as [|y0 ys]; [destruct Hw as (_ & E & _); discriminate E|].
  unfold bounded_multilinear. cbn [combine]. destruct (Qcltb q x0) eqn:E.
  - apply Qcltb_true in E. apply curve_below; [|reflexivity]. cbn [nth]. now apply Qclt_le_weak.
  - apply Qcltb_false in E. now apply interp_from_curve.
Qed.

Lemma nth_le xs i j : increasing xs = true -> (i <= j < List.length xs)%nat -> (nth i xs 0 <= nth j xs 0)%Qc.
Proof.
  intros Hi Hij. destruct (Nat.eq_dec i j) as [->|Hne]; [apply Qcle_refl|].
  apply Qclt_le_weak. apply increasing_nth; [assumption|lia].
Qed.

Lemma located_at xs i : increasing xs = true -> (i < List.length xs)%nat -> forall j w,
  located (fun k => nth k xs 0%Qc) (List.length xs) (nth i xs 0%Qc) j w ->
  (j = i /\ w = 0%Qc) \/ (S j = i /\ w = 1%Qc).
Proof.
  intros Hi Hl j w (L1 & L2 & L3 & L4). cbn beta in L4.
  assert (Hj : (nth j xs 0 < nth (S j) xs 0)%Qc) by (apply increasing_nth; [assumption|lia]).
  assert (E : (nth i xs 0 - nth j xs 0 = w * (nth (S j) xs 0 - nth j xs 0))%Qc) by (rewrite L4 at 1; ring).
  assert (Hne : (nth (S j) xs 0 - nth j xs 0 <> 0)%Qc) by (intros E0; qlra).
  assert (F : forall a b d : Qc, (d <> 0)%Qc -> (a * d = b * d)%Qc -> a = b).
  { intros a b d Hd Hab. apply (f_equal (fun z => (z / d)%Qc)) in Hab. rewrite !Qcdiv_mult_l in Hab by assumption. exact Hab. }
  destruct (lt_eq_lt_dec i j) as [[Hlt|Heq]|Hgt].
  - exfalso. assert (nth i xs 0 < nth j xs 0)%Qc by (apply increasing_nth; [assumption|lia]).
    assert (0 <= w * (nth (S j) xs 0 - nth j xs 0))%Qc by (apply Qcmult_nonneg; qlra). rewrite <- E in H0. qlra.
  - subst j. left. split; [reflexivity|]. apply F with (d := (nth (S i) xs 0 - nth i xs 0)%Qc); [assumption|]. rewrite <- E. ring.
  - destruct (Nat.eq_dec (S j) i) as [Hs|Hs].
    + right. split; [assumption|]. subst i. apply F with (d := (nth (S j) xs 0 - nth j xs 0)%Qc); [assumption|]. rewrite <- E. ring.
    + exfalso. assert (nth (S j) xs 0 < nth i xs 0)%Qc by (apply increasing_nth; [assumption|lia]).
      assert (0 <= (1 - w) * (nth (S j) xs 0 - nth j xs 0))%Qc by (apply Qcmult_nonneg; qlra).
      assert (E2 : ((1 - w) * (nth (S j) xs 0 - nth j xs 0) = (nth (S j) xs 0 - nth j xs 0) - w * (nth (S j) xs 0 - nth j xs 0))%Qc) by ring.
      rewrite E2, <- E in H0. qlra.
Qed.

Lemma located_range xs q i w : increasing xs = true -> located (fun k => nth k xs 0%Qc) (List.length xs) q i w ->
  (nth i xs 0 <= q)%Qc /\ (q <= nth (S i) xs 0)%Qc.
Proof.
  intros Hi (L1 & L2 & L3 & ->).
  assert (Hj : (nth i xs 0 < nth (S i) xs 0)%Qc) by (apply increasing_nth; [assumption|lia]).
  assert (0 <= w * (nth (S i) xs 0 - nth i xs 0))%Qc by (apply Qcmult_nonneg; qlra).
  assert (0 <= (1 - w) * (nth (S i) xs 0 - nth i xs 0))%Qc by (apply Qcmult_nonneg; qlra).
  split; [assert (E : ((1 - w) * nth i xs 0 + w * nth (S i) xs 0 = nth i xs 0 + w * (nth (S i) xs 0 - nth i xs 0))%Qc) by ring
         |assert (E : ((1 - w) * nth i xs 0 + w * nth (S i) xs 0 = nth (S i) xs 0 - (1 - w) * (nth (S i) xs 0 - nth i xs 0))%Qc) by ring];
    rewrite E; qlra.
Qed.

(** The curve is a function of the quantity. *)
Lemma on_curve_fun ys xs q v v' : well_formed_table ys xs -> on_curve ys xs q v -> on_curve ys xs q v' -> v = v'.
Proof.
  intros Hw. pose proof (wf_increasing _ _ Hw) as Hi. assert (Hn : (0 < List.length xs)%nat) by (destruct Hw as (H & _); destruct xs; [easy|cbn; lia]).
  assert (B : forall q, (q <= nth 0 xs 0)%Qc -> forall v, on_curve ys xs q v -> v = nth 0 ys 0%Qc).
  { intros q0 H0 v0 [Hb Hv|Ha Hv|i w Hl Hv].
    - assumption.
    - assert (H1 := nth_le xs 0 (List.length xs - 1) Hi ltac:(lia)).
      destruct (Nat.eq_dec (List.length xs - 1) 0) as [E|E]; [now rewrite E in Hv|].
      assert (H2 := @increasing_nth xs Hi 0 (List.length xs - 1)%nat ltac:(lia)). exfalso. qlra.
    - destruct (located_range _ _ _ _ Hi Hl) as [R1 R2]. pose proof Hl as Hl'. destruct Hl as (L1 & _).
      assert (H1 := nth_le xs 0 i Hi ltac:(lia)). assert (Eq : q0 = nth 0 xs 0%Qc) by (apply Qcle_antisym; [assumption|qlra]).
      rewrite Eq in Hl'. destruct (located_at xs 0 Hi Hn _ _ Hl') as [[-> ->]|[Ec _]]; [|lia]. rewrite Hv. ring. }
  assert (A : forall q, (nth (List.length xs - 1) xs 0 <= q)%Qc -> forall v, on_curve ys xs q v -> v = nth (List.length xs - 1) ys 0%Qc).
  { intros q0 H0 v0 [Hb Hv|Ha Hv|i w Hl Hv].
    - assert (H1 := nth_le xs 0 (List.length xs - 1) Hi ltac:(lia)).
      destruct (Nat.eq_dec (List.length xs - 1) 0) as [E|E]; [now rewrite E|].
      assert (H2 := @increasing_nth xs Hi 0 (List.length xs - 1)%nat ltac:(lia)). exfalso. qlra.
    - assumption.
    - destruct (located_range _ _ _ _ Hi Hl) as [R1 R2]. pose proof Hl as Hl'. destruct Hl as (L1 & _).
      assert (H1 := nth_le xs (S i) (List.length xs - 1) Hi ltac:(lia)).
      assert (Eq : q0 = nth (List.length xs - 1) xs 0%Qc) by (apply Qcle_antisym; [qlra|assumption]).
      rewrite Eq in Hl'. destruct (located_at xs (List.length xs - 1) Hi ltac:(lia) _ _ Hl') as [[Ec _]|[Ec ->]]; [lia|]. rewrite Hv, Ec. ring. }
  intros H1 H2. destruct H1 as [Hb Hv|Ha Hv|i w Hl Hv].
  - rewrite Hv. symmetry. now apply B with q.
  - rewrite Hv. symmetry. now apply A with q.
  - destruct H2 as [Hb Hv'|Ha Hv'|i' w' Hl' Hv'].
    + rewrite Hv'. apply B with q; [assumption|]. now apply curve_between with i w.
    + rewrite Hv'. apply A with q; [assumption|]. now apply curve_between with i w.
    + rewrite Hv, Hv'. apply (@located_unique xs q i w i' w' (fun k => nth k ys 0%Qc)); assumption.
Qed.

Lemma bounded_multilinear_tabulated ys xs i : well_formed_table ys xs -> (i < List.length xs)%nat ->
  bounded_multilinear ys xs (nth i xs 0%Qc) = nth i ys 0%Qc.
Proof.
  intros Hw Hi. apply on_curve_fun with (1 := Hw) (2 := bounded_multilinear_curve _ _ _ Hw).
  destruct (Nat.eq_dec (S i) (List.length xs)) as [E|E].
  - apply curve_above; replace (List.length xs - 1)%nat with i by lia; [apply Qcle_refl|reflexivity].
  - apply curve_between with (i := i) (w := 0%Qc); [|ring]. apply located_intro; [lia|apply Qcle_refl|easy|ring].
Qed.

Lemma bounded_multilinear_outside ys xs q : well_formed_table ys xs ->
  ((q <= nth 0 xs 0)%Qc -> bounded_multilinear ys xs q = nth 0 ys 0%Qc) /\
  ((nth (List.length xs - 1) xs 0 <= q)%Qc -> bounded_multilinear ys xs q = nth (List.length xs - 1) ys 0%Qc).
Proof.
  intros Hw. split; intros H; apply on_curve_fun with (1 := Hw) (2 := bounded_multilinear_curve _ _ _ Hw).
  - now apply curve_below.
  - now apply curve_above.
Qed.

Lemma bounded_multilinear_bounded ys xs q : well_formed_table ys xs ->
  exists lo hi, In lo ys /\ In hi ys /\ (lo <= bounded_multilinear ys xs q)%Qc /\ (bounded_multilinear ys xs q <= hi)%Qc.
Proof.
  intros Hw. assert (Hn : (0 < List.length xs)%nat) by (destruct Hw as (H & _); destruct xs; [easy|cbn; lia]).
  assert (Hl : List.length ys = List.length xs) by apply Hw.
  assert (Hin : forall i, (i < List.length xs)%nat -> In (nth i ys 0%Qc) ys) by (intros i Hi; apply nth_In; lia).
  destruct (bounded_multilinear_curve ys xs q Hw) as [Hb ->|Ha ->|i w (L1 & L2 & L3 & L4) ->].
  - exists (nth 0 ys 0%Qc), (nth 0 ys 0%Qc). repeat split; auto using Qcle_refl.
  - exists (nth (List.length xs - 1) ys 0%Qc), (nth (List.length xs - 1) ys 0%Qc).
    repeat split; try apply Qcle_refl; apply Hin; lia.
  - set (a := nth i ys 0%Qc). set (b := nth (S i) ys 0%Qc).
    assert (Ia : In a ys) by (apply Hin; lia). assert (Ib : In b ys) by (apply Hin; lia).
    assert (E : ((1 - w) * a + w * b = a + w * (b - a))%Qc) by ring.
    assert (E' : ((1 - w) * a + w * b = b + (1 - w) * (a - b))%Qc) by ring.
    destruct (Qclt_le_dec a b) as [H|H].
    + exists a, b. repeat split; try assumption.
      * rewrite E. assert (0 <= w * (b - a))%Qc by (apply Qcmult_nonneg; qlra). qlra.
      * rewrite E'. assert (0 <= (1 - w) * (b - a))%Qc by (apply Qcmult_nonneg; qlra).
        assert (E2 : ((1 - w) * (a - b) = - ((1 - w) * (b - a)))%Qc) by ring. rewrite E2. qlra.
    + exists b, a. repeat split; try assumption.
      * rewrite E'. assert (0 <= (1 - w) * (a - b))%Qc by (apply Qcmult_nonneg; qlra). qlra.
      * rewrite E. assert (0 <= w * (a - b))%Qc by (apply Qcmult_nonneg; qlra).
        assert (E2 : (w * (b - a) = - (w * (a - b)))%Qc) by ring. rewrite E2. qlra.
Qed.

Lemma interp_from_monotone : forall xs ys x0 y0, well_formed_table (y0 :: ys) (x0 :: xs) -> not_increasing (y0 :: ys) ->
  (forall q, (x0 <= q)%Qc -> (interp_from x0 y0 (combine xs ys) q <= y0)%Qc) /\
  (forall q q', (x0 <= q)%Qc -> (q <= q')%Qc ->
     (interp_from x0 y0 (combine xs ys) q' <= interp_from x0 y0 (combine xs ys) q)%Qc).
Proof.
  induction xs as [|x1 xs IH]; intros ys x0 y0 Hw Hm.
  - cbn [combine interp_from]. split; intros; apply Qcle_refl.
  - destruct ys as [|y1 ys]; [destruct Hw as (_ & E & _); discriminate E|].
    assert (Hlt : (x0 < x1)%Qc) by (apply Hw with (i := 0%nat); cbn; lia).
    assert (Hy : (y1 <= y0)%Qc) by (apply (Hm 0%nat); cbn; lia).
    assert (Hw' : well_formed_table (y1 :: ys) (x1 :: xs)) by (apply wf_tail with (2 := Hw); easy).
    assert (Hm' : not_increasing (y1 :: ys)) by (intros i Hi; apply (Hm (S i)); cbn in *; lia).
    destruct (IH ys x1 y1 Hw' Hm') as [I1 I2]. cbn [combine interp_from].
    assert (S1 : forall q, (x0 <= q)%Qc -> (q <= x1)%Qc ->
              (y1 <= y0 + (y1 - y0) / (x1 - x0) * (q - x0))%Qc /\ (y0 + (y1 - y0) / (x1 - x0) * (q - x0) <= y0)%Qc).
    { intros q H1 H2. destruct (slope_eq x0 y0 x1 y1 q Hlt) as (w & E1 & -> & W0 & W1). specialize (W0 H1). specialize (W1 H2).
      assert (E : ((1 - w) * y0 + w * y1 = y0 - w * (y0 - y1))%Qc) by ring.
      assert (E' : ((1 - w) * y0 + w * y1 = y1 + (1 - w) * (y0 - y1))%Qc) by ring.
      assert (0 <= w * (y0 - y1))%Qc by (apply Qcmult_nonneg; qlra).
      assert (0 <= (1 - w) * (y0 - y1))%Qc by (apply Qcmult_nonneg; qlra).
      split; [rewrite E'|rewrite E]; qlra. }
    split.
    + intros q Hq. destruct (Qcltb q x1) eqn:E.
      * apply Qcltb_true in E. apply S1; [assumption|now apply Qclt_le_weak].
      * apply Qcltb_false in E. apply Qcle_trans with y1; [now apply I1|assumption].
    + intros q q' Hq Hqq. destruct (Qcltb q x1) eqn:E, (Qcltb q' x1) eqn:E'.
      * apply Qcltb_true in E, E'.
        destruct (slope_eq x0 y0 x1 y1 q Hlt) as (w & E1 & -> & W0 & W1).
        destruct (slope_eq x0 y0 x1 y1 q' Hlt) as (w' & E1' & -> & W0' & W1').
        assert (Hww : (w <= w')%Qc).
        { destruct (Qclt_le_dec w' w) as [Hn|]; [|assumption]. exfalso.
          assert (0 < (w - w') * (x1 - x0))%Qc by qnra.
          assert (E2 : ((w - w') * (x1 - x0) = w * (x1 - x0) - w' * (x1 - x0))%Qc) by ring. rewrite E2, <- E1, <- E1' in H. qlra. }
        assert (0 <= (w' - w) * (y0 - y1))%Qc by (apply Qcmult_nonneg; qlra).
        assert (E2 : ((1 - w) * y0 + w * y1 = ((1 - w') * y0 + w' * y1) + (w' - w) * (y0 - y1))%Qc) by ring. rewrite E2. qlra.
      * apply Qcltb_true in E. apply Qcltb_false in E'. apply Qcle_trans with y1; [now apply I1|].
        apply S1; [assumption|now apply Qclt_le_weak].
      * apply Qcltb_false in E. apply Qcltb_true in E'. exfalso. qlra.
      * apply Qcltb_false in E, E'. now apply I2.
Qed.

Lemma bounded_multilinear_monotone ys xs q q' : well_formed_table ys xs -> not_increasing ys -> (q <= q')%Qc ->
  (bounded_multilinear ys xs q' <= bounded_multilinear ys xs q)%Qc.
Proof.
  intros Hw Hm Hq. destruct xs as [|x0 xs]; [now destruct Hw|]. destruct ys as [|y0 ys]; [destruct Hw as (_ & E & _); discriminate E|].
  destruct (interp_from_monotone xs ys x0 y0 Hw Hm) as [I1 I2]. unfold bounded_multilinear. cbn [combine].
  destruct (Qcltb q x0) eqn:E, (Qcltb q' x0) eqn:E'.
  - apply Qcle_refl.
  - apply Qcltb_false in E'. now apply I1.
  - apply Qcltb_false in E. apply Qcltb_true in E'. exfalso. qlra.
  - apply Qcltb_false in E. now apply I2.
Qed.
