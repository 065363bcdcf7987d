(** Nearest neighbour interpolation. *)
From Verif Require Import Prelude PreludeFacts Pandas PandasFacts M_NNR S_NNR P_NNR.
Set Implicit Arguments.
Local Open Scope string_scope.
Local Open Scope list_scope.

(** ** C59 *)

(** The weights are positive, add up to one, and closer neighbours never weigh less. *)
Theorem C59_weights : forall w ds ws, ds <> [] -> Forall (fun d => (0 <= d)%Qc) ds -> weights w (List.length ds) ds = Ok ws ->
  List.length ws = List.length ds /\ Forall (fun x => (0 < x)%Qc) ws /\ qsum ws = 1%Qc /\
  forall i j, (i < List.length ds)%nat -> (j < List.length ds)%nat -> (nth i ds 0%Qc <= nth j ds 0%Qc)%Qc -> (nth j ws 0%Qc <= nth i ws 0%Qc)%Qc.
Proof.
  intros w ds ws Hn Hd H. apply weights_form in H. subst ws. assert (P := raw_all_pos w Hd).
  assert (N : map (raw w) ds <> []) by (destruct ds; [contradiction|discriminate]).
  split; [unfold normalised; rewrite !map_length; reflexivity|]. split; [apply normalised_pos; assumption|].
  split; [apply normalised_sum; assumption|]. intros i j Hi Hj L.
  rewrite !normalised_nth by (rewrite map_length; assumption). unfold Qcdiv. apply Qcmult_le_compat_r.
  - rewrite (nth_indep (map (raw w) ds) 0%Qc (raw w 0%Qc)) by (rewrite map_length; exact Hj).
    rewrite (nth_indep (map (raw w) ds) 0%Qc (raw w 0%Qc)) by (rewrite map_length; exact Hi). rewrite !map_nth.
    apply raw_anti; [|exact L]. rewrite Forall_forall in Hd. apply Hd, nth_In, Hi.
  - apply Qclt_le_weak, Qcinv_pos, qsum_pos; assumption.
Qed.
Print Assumptions C59_weights.
(** The three weighting schemes: equal weights, weights inversely proportional to the distance or to
    its square (up to the small constant that is added to distances). *)
Theorem C59_laws : forall w ds ws i j, Forall (fun d => (0 <= d)%Qc) ds -> weights w (List.length ds) ds = Ok ws ->
  (i < List.length ds)%nat -> (j < List.length ds)%nat ->
  let di := (nth i ds 0 + epsilon)%Qc in let dj := (nth j ds 0 + epsilon)%Qc in
  let wi := nth i ws 0%Qc in let wj := nth j ws 0%Qc in
  (w = "uniform" -> wi = wj) /\ (w = "distance1" -> (wi * di = wj * dj)%Qc) /\ (w = "distance2" -> (wi * (di * di) = wj * (dj * dj))%Qc).
Proof.
  intros w ds ws i j Hd H Hi Hj di dj wi wj. unfold wi, wj. apply weights_form in H. subst ws. clear wi wj.
  rewrite !normalised_nth by (rewrite map_length; assumption). set (S := qsum (map (raw w) ds)). clearbody S.
  rewrite (nth_indep (map (raw w) ds) 0%Qc (raw w 0%Qc)) by (rewrite map_length; exact Hi).
  rewrite (nth_indep (map (raw w) ds) 0%Qc (raw w 0%Qc)) by (rewrite map_length; exact Hj). rewrite !map_nth.
  rewrite Forall_forall in Hd. assert (Pi := Hd _ (nth_In ds 0%Qc Hi)). assert (Pj := Hd _ (nth_In ds 0%Qc Hj)).
  unfold raw. fold di. fold dj.
  assert (Di : di <> 0%Qc) by (unfold di; pose proof epsilon_pos as E; set (e := epsilon) in *; clearbody e; intros X; qlra).
  assert (Dj : dj <> 0%Qc) by (unfold dj; pose proof epsilon_pos as E; set (e := epsilon) in *; clearbody e; intros X; qlra).
  clearbody di dj. unfold inverse_square, inverse. split; [|split]; intros ->; cbn [String.eqb Ascii.eqb Bool.eqb]; unfold Qcdiv.
  - reflexivity.
  - set (q := (/ S)%Qc). clearbody q. field. split; assumption.
  - set (q := (/ S)%Qc). clearbody q. field. split; assumption.
Qed.
Print Assumptions C59_laws.
(** Every other name of a scheme is rejected. *)
Theorem C59_schemes : forall w n ds, known_weight w <-> exists ws, weights w n ds = Ok ws.
Proof. intros w n ds. apply weights_ok. Qed.
Print Assumptions C59_schemes.

(** Every interpolated value lies between the smallest and the largest value of the neighbours. *)
Theorem C59_between : forall w k neighbours a nf nr out t f r lo hi, (0 < k)%nat ->
  (forall n, In n neighbours -> List.length (fst n) = k /\ List.length (snd n) = k /\ Forall (fun d => (0 <= d)%Qc) (fst n)) ->
  nnr3 w k neighbours a nf nr = Ok out -> (t < List.length neighbours)%nat -> (f < nf)%nat -> (r < nr)%nat ->
  (forall id, In id (snd (nth t neighbours ([], []))) -> (lo <= at3 a id f r)%Qc /\ (at3 a id f r <= hi)%Qc) ->
  (lo <= at3 out t f r)%Qc /\ (at3 out t f r <= hi)%Qc.
Proof.
  intros w k neighbours a nf nr out t f r lo hi Hk Hn H Ht Hf Hr Hv. unfold nnr3 in H. apply (proj1 (@mapM_Forall2 _ _ _ _ _)) in H.
  set (n := nth t neighbours ([], [])) in *. assert (Hin : In n neighbours) by (apply nth_In, Ht).
  destruct (Hn n Hin) as [L1 [L2 D]].
  assert (O : (let* ws := weights w k (fst n) in Ok (expected3 ws (snd n) a nf nr)) = Ok (nth t out [])).
  { clear - H Ht. subst n. revert t Ht. induction H as [|x y l l' E _ IH]; intros [|t] Ht; cbn [List.length] in Ht; [lia|lia|exact E|]. cbn [nth]. apply IH. lia. }
  destruct (weights w k (fst n)) as [ws|e] eqn:W; cbn [bind] in O; [|discriminate]. injection O as O. unfold at3 at 1 2. rewrite <- O.
  rewrite <- L1 in W. assert (N : fst n <> []) by (destruct (fst n); [cbn in L1; lia|discriminate]).
  destruct (C59_weights w N D W) as [W1 [W2 [W3 _]]].
  rewrite expected3_at by assumption.
  destruct (@mix_bounds ws (map (fun k0 => at3 a k0 f r) (snd n)) lo hi) as [B1 B2].
  - rewrite map_length. congruence.
  - eapply Forall_impl; [|exact W2]. intros x Hx. apply Qclt_le_weak, Hx.
  - apply Forall_map, Forall_forall. intros id Hid. apply Hv, Hid.
  - rewrite W3 in B1, B2. rewrite !Qcmult_1_r in B1, B2. auto.
Qed.
Print Assumptions C59_between.
(** A building at a grid point, its other neighbours at least [delta] away, gets the value of the
    grid point up to a factor of 1e-40 / delta² of the differences between neighbours. *)
Theorem C59_at_source : forall ds delta ws v0 vs M, (0 < delta)%Qc -> Forall (fun d => (delta <= d)%Qc) ds ->
  weights "distance2" (S (List.length ds)) (0%Qc :: ds) = Ok ws -> List.length vs = List.length ds ->
  Forall (fun v => (v0 - M <= v)%Qc /\ (v <= v0 + M)%Qc) vs ->
  let bound := (M * (qn (List.length ds) * (epsilon * epsilon) / (delta * delta)))%Qc in
  (v0 - bound <= mix ws (v0 :: vs))%Qc /\ (mix ws (v0 :: vs) <= v0 + bound)%Qc.
Proof.
  intros ds delta ws v0 vs M Hdel Hd H Hl Hv bound. change (S (List.length ds)) with (List.length (0%Qc :: ds)) in H.
  assert (D0 : Forall (fun d => (0 <= d)%Qc) (0%Qc :: ds)).
  { constructor; [apply Qcle_refl|]. eapply Forall_impl; [|exact Hd]. intros d L. apply Qcle_trans with delta; [apply Qclt_le_weak, Hdel|exact L]. }
  assert (N0 : 0%Qc :: ds <> []) by discriminate. destruct (C59_weights _ N0 D0 H) as [W1 [W2 [W3 _]]].
  apply weights_form in H. destruct ws as [|w0 ws]; [discriminate|]. cbn [List.length] in W1. injection W1 as W1.
  apply Forall_cons_iff in W2 as [W20 W2]. rewrite qsum_cons in W3.
  assert (Lt : (qsum ws <= qn (List.length ds) * (epsilon * epsilon) / (delta * delta))%Qc).
  { unfold normalised in H. cbn [map] in H. injection H as E0 E. set (S := qsum (raw "distance2" 0%Qc :: map (raw "distance2") ds)) in *.
    assert (R0 : raw "distance2" 0%Qc = (/ (epsilon * epsilon))%Qc).
    { unfold raw, inverse_square. cbn [String.eqb Ascii.eqb Bool.eqb]. rewrite Qcplus_0_l. reflexivity. }
    assert (Ep := epsilon_pos). set (e := epsilon) in *. 
    assert (RP : (0 < raw "distance2" 0%Qc)%Qc) by (rewrite R0; apply Qcinv_pos, Qcmult_pos; exact Ep).
    assert (SP : (raw "distance2" 0%Qc <= S)%Qc).
    { unfold S. rewrite qsum_cons. assert (Q : (0 <= qsum (map (raw "distance2") ds))%Qc).
      { clear - Hd Hdel. induction Hd as [|d ds L _ IH]; [apply Qcle_refl|]. cbn [map]. rewrite qsum_cons.
        assert (X : (0 < raw "distance2" d)%Qc) by (apply raw_pos; apply Qcle_trans with delta; [apply Qclt_le_weak, Hdel|exact L]).
        set (q := qsum _) in *. clearbody q. set (x := raw _ d) in *. clearbody x. clear - X IH. qlra. }
      set (q := qsum _) in *. clearbody q. set (x := raw _ 0%Qc) in *. clearbody x. clear - Q. qlra. }
    assert (IS : (/ S <= e * e)%Qc).
    { apply Qcle_trans with (/ raw "distance2" 0%Qc)%Qc; [apply Qcinv_anti; assumption|]. rewrite R0. replace (/ / (e * e))%Qc with (e * e)%Qc; [apply Qcle_refl|]. assert (En : e <> 0%Qc) by (intros X; rewrite X in Ep; discriminate). clearbody e. field; repeat split; auto; discriminate. }
    assert (SI : (0 < / S)%Qc) by (apply Qcinv_pos; exact (Qclt_le_trans _ _ _ RP SP)).
    subst ws. apply Qcle_trans with (qsum (map (raw "distance2") ds) * / S)%Qc.
    { rewrite <- (qsum_scale_r (/ S) (map (raw "distance2") ds)). apply Qcle_refl. }
    assert (Q1 : (qsum (map (raw "distance2") ds) <= qn (List.length ds) * / (delta * delta))%Qc).
    { clear - Hd Hdel. rewrite <- qsum_ones. rewrite <- (qsum_scale_r (/ (delta * delta))). rewrite map_map.
      induction Hd as [|d ds L _ IH]; [apply Qcle_refl|]. cbn [map]. rewrite !qsum_cons. apply Qcplus_le_compat; [|exact IH].
      rewrite Qcmult_1_l. unfold raw, inverse_square. cbn [String.eqb Ascii.eqb Bool.eqb].
      apply Qcinv_anti; [apply Qcmult_pos; exact Hdel|].
      assert (Ep := epsilon_pos). set (e := epsilon) in *. clearbody e.
      assert (L' : (delta <= d + e)%Qc) by (clear IH; qlra). set (x := (d + e)%Qc) in *. clearbody x.
      apply Qcle_trans with (delta * x)%Qc; [rewrite (Qcmult_comm delta x)|]; apply Qcmult_le_compat_r; try exact L'; apply Qclt_le_weak; [exact Hdel|].
      exact (Qclt_le_trans _ _ _ Hdel L'). }
    apply Qcle_trans with (qn (List.length ds) * / (delta * delta) * / S)%Qc; [apply Qcmult_le_compat_r; [exact Q1|apply Qclt_le_weak, SI]|].
    replace (qn (List.length ds) * (e * e) / (delta * delta))%Qc with (e * e * (qn (List.length ds) * / (delta * delta)))%Qc by (unfold Qcdiv; ring).
    rewrite (Qcmult_comm _ (/ S)). apply Qcmult_le_compat_r; [exact IS|].
    replace 0%Qc with (0 * / (delta * delta))%Qc by ring. apply Qcmult_le_compat_r; [|apply Qclt_le_weak, Qcinv_pos, Qcmult_pos; exact Hdel].
    rewrite <- qsum_ones. clear. induction ds as [|d ds IH]; [apply Qcle_refl|]. cbn [map]. rewrite qsum_cons.
    set (q := qsum _) in *. clearbody q. qlra. }
  assert (Q0 : (0 <= qsum ws)%Qc).
  { clear - W2. induction W2 as [|w ws Hw _ IH]; [apply Qcle_refl|]. rewrite qsum_cons. set (q := qsum _) in *. clearbody q. qlra. }
  destruct (@mix_bounds ws vs (v0 - M)%Qc (v0 + M)%Qc) as [B1 B2]; [congruence|eapply Forall_impl; [|exact W2]; intros x Hx; apply Qclt_le_weak, Hx|exact Hv|].
  unfold mix in *. cbn [map2]. rewrite qsum_cons. set (m := qsum (map2 Qcmult ws vs)) in *. clearbody m.
  set (s := qsum ws) in *. clearbody s.
  destruct (Qclt_le_dec M 0) as [Mn|Mp].
  - (* no neighbour values can be that close *)
    destruct vs as [|v vs].
    + destruct ws; [|cbn in Hl, W1; congruence]. destruct ds; [|discriminate]. cbn [List.length] in *.
      assert (Ls : (s <= 0)%Qc).
      { apply (Qcle_trans _ _ _ Lt). unfold Qcdiv. change (qn 0) with 0%Qc. replace (0 * (epsilon * epsilon) * / (delta * delta))%Qc with 0%Qc by ring. apply Qcle_refl. }
      assert (s = 0%Qc) by (apply Qcle_antisym; assumption). subst s.
      assert (w0 = 1%Qc) by (clear - W3; qlra). subst w0. unfold bound. unfold Qcdiv. change (qn 0) with 0%Qc.
      replace (M * (0 * (epsilon * epsilon) * / (delta * delta)))%Qc with 0%Qc by ring.
      rewrite !Qcmult_0_r in B1, B2. clear - B1 B2. split; qlra.
    + exfalso. apply Forall_cons_iff in Hv as [[V1 V2] _]. clear - Mn V1 V2. qlra.
  - assert (MB : (M * s <= bound)%Qc).
    { unfold bound. rewrite !(Qcmult_comm M). apply Qcmult_le_compat_r; assumption. }
    clearbody bound. clear - B1 B2 W3 MB.
    assert (E : (w0 * v0 = v0 - v0 * s)%Qc) by (assert (X : w0 = (1 - s)%Qc) by (clear - W3; qlra); rewrite X; ring).
    rewrite E. replace ((v0 - M) * s)%Qc with (v0 * s - M * s)%Qc in B1 by ring. replace ((v0 + M) * s)%Qc with (v0 * s + M * s)%Qc in B2 by ring.
    set (p := (v0 * s)%Qc) in *. set (q := (M * s)%Qc) in *. clearbody p q. clear E. split; qlra.
Qed.
Print Assumptions C59_at_source.
(** Resampling: in every realization all features come from one and the same neighbour, and from one
    and the same of its realizations; realizations are used in turn. *)
Theorem C59_resampled : forall ranks ids a nf nr j, (j < List.length ranks)%nat ->
  exists k, k = nth (nth j ranks O) ids O /\
  forall f, (f < nf)%nat -> nth j (nth f (resample3 ranks ids a nf nr) []) None = Some (at3 a k f (j mod nr)).
Proof.
  intros ranks ids a nf nr j Hj. exists (nth (nth j ranks O) ids O). split; [reflexivity|]. intros f Hf.
  exact (@resample_at ranks ids nf (fun k f j => at3 a k f (j mod nr)) f j Hf Hj).
Qed.
Print Assumptions C59_resampled.
Theorem C59_resampled_single : forall ranks ids a nf j, (j < List.length ranks)%nat ->
  exists k, k = nth (nth j ranks O) ids O /\
  forall f, (f < nf)%nat -> nth j (nth f (resample2 ranks ids a nf) []) None = Some (nth f (nth k a []) 0%Qc).
Proof.
  intros ranks ids a nf j Hj. exists (nth (nth j ranks O) ids O). split; [reflexivity|]. intros f Hf.
  exact (@resample_at ranks ids nf (fun k f _ => nth f (nth k a []) 0%Qc) f j Hf Hj).
Qed.
Print Assumptions C59_resampled_single.
(** Known values without realizations are interpolated the same way. *)
Theorem C59_between_single : forall w k neighbours a nf out t f lo hi, (0 < k)%nat ->
  (forall n, In n neighbours -> List.length (fst n) = k /\ List.length (snd n) = k /\ Forall (fun d => (0 <= d)%Qc) (fst n)) ->
  nnr2 w k neighbours a nf = Ok out -> (t < List.length neighbours)%nat -> (f < nf)%nat ->
  (forall id, In id (snd (nth t neighbours ([], []))) -> (lo <= nth f (nth id a []) 0%Qc)%Qc /\ (nth f (nth id a []) 0%Qc <= hi)%Qc) ->
  (lo <= nth f (nth t out []) 0%Qc)%Qc /\ (nth f (nth t out []) 0%Qc <= hi)%Qc.
Proof.
  intros w k neighbours a nf out t f lo hi Hk Hn H Ht Hf Hv. unfold nnr2 in H. apply (proj1 (@mapM_Forall2 _ _ _ _ _)) in H.
  set (n := nth t neighbours ([], [])) in *. assert (Hin : In n neighbours) by (apply nth_In, Ht).
  destruct (Hn n Hin) as [L1 [L2 D]].
  assert (O : (let* ws := weights w k (fst n) in Ok (expected2 ws (snd n) a nf)) = Ok (nth t out [])).
  { clear - H Ht. subst n. revert t Ht. induction H as [|x y l l' E _ IH]; intros [|t] Ht; cbn [List.length] in Ht; [lia|lia|exact E|]. cbn [nth]. apply IH. lia. }
  destruct (weights w k (fst n)) as [ws|e] eqn:W; cbn [bind] in O; [|discriminate]. injection O as O. rewrite <- O.
  rewrite <- L1 in W. assert (N : fst n <> []) by (destruct (fst n); [cbn in L1; lia|discriminate]).
  destruct (C59_weights w N D W) as [W1 [W2 [W3 _]]].
  rewrite expected2_at by assumption.
  destruct (@mix_bounds ws (map (fun k0 => nth f (nth k0 a []) 0%Qc) (snd n)) lo hi) as [B1 B2].
  - rewrite map_length. congruence.
  - eapply Forall_impl; [|exact W2]. intros x Hx. apply Qclt_le_weak, Hx.
  - apply Forall_map, Forall_forall. intros id Hid. apply Hv, Hid.
  - rewrite W3 in B1, B2. rewrite !Qcmult_1_r in B1, B2. auto.
Qed.
Print Assumptions C59_between_single.

Definition ex_neighbours : list (list Qc * list nat) := [([0%Qc; qc (1 # 1); qc (2 # 1)], [2; 0; 1]%nat); ([qc (1 # 1); qc (1 # 1); qc (3 # 1)], [0; 1; 2]%nat)].
Definition ex_values : array3 := [[[qc (1 # 1); qc (2 # 1)]]; [[qc (3 # 1); qc (5 # 1)]]; [[qc (7 # 1); qc (9 # 1)]]].
Example C59_hypotheses_met :
  (forall n, In n ex_neighbours -> List.length (fst n) = 3%nat /\ List.length (snd n) = 3%nat /\ Forall (fun d => (0 <= d)%Qc) (fst n)) /\
  exists out, nnr3 "distance2" 3 ex_neighbours ex_values 1 2 = Ok out /\ (at3 out 1 0 0 < qc (3 # 1))%Qc /\ (qc (2 # 1) < at3 out 1 0 0)%Qc.
Proof.
  split.
  - intros n Hn. unfold ex_neighbours in Hn. cbn [In] in Hn. repeat (destruct Hn as [<-|Hn]; [split; [reflexivity|split; [reflexivity|repeat constructor; discriminate]]|]). destruct Hn.
  - eexists. split; [reflexivity|]. split; vm_compute; reflexivity.
Qed.
Example C59_resampled_concrete : resample3 [1; 0; 1]%nat [2; 0]%nat ex_values 1 2 = [[Some (qc (1 # 1)); Some (qc (9 # 1)); Some (qc (1 # 1))]].
Proof. vm_compute. reflexivity. Qed.
