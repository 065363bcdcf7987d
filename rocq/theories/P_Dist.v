(** Proofs about truncated and scaled distributions. *)
From Coq Require Import Reals Lra Lia.
From Verif Require Import Prelude PreludeFacts M_Dist S_Dist.
Set Implicit Arguments.
Local Open Scope R_scope.

Lemma first_positive_pos : 0 < first_positive.
Proof. unfold first_positive. apply Rinv_0_lt_compat. apply pow_lt. lra. Qed.
Lemma first_positive_le_1 : first_positive <= 1.
Proof. unfold first_positive. rewrite <- Rinv_1. apply Rinv_le_contravar; [lra|]. apply pow_R1_Rle. lra. Qed.
Global Opaque first_positive.

Lemma xle_not_xlt x y : x <> XNaN -> y <> XNaN -> ~ xlt y x -> xle x y.
Proof. destruct x, y; cbn; intros; try congruence; try tauto; lra. Qed.
Lemma xlt_not_xle x y : x <> XNaN -> y <> XNaN -> ~ xle y x -> xlt x y.
Proof. destruct x, y; cbn; intros; try congruence; try tauto; lra. Qed.
Lemma xle_cases x y : xle x y -> xlt x y \/ x = y.
Proof. destruct x, y; cbn; intros; try tauto. destruct (Rle_lt_or_eq_dec _ _ H); [tauto|subst; tauto]. Qed.
Lemma xle_trans x y z : xle x y -> xle y z -> xle x z.
Proof. destruct x, y, z; cbn; intros; try tauto; lra. Qed.
Lemma xle_num x y : xle x y -> x <> XNaN /\ y <> XNaN.
Proof. destruct x, y; cbn; intros; split; congruence || tauto. Qed.

Section Law.
  Variables (D : xr -> Prop) (law : xr -> R) (Q : R -> xr).
  Hypothesis D_num : forall x, D x -> x <> XNaN.
  Hypothesis mono : forall x y, D x -> D y -> xlt x y -> law x < law y.
  Hypothesis range : forall x, D x -> 0 <= law x <= 1.
  Hypothesis QD : forall p, 0 <= p <= 1 -> D (Q p).
  Hypothesis lawQ : forall p, 0 <= p <= 1 -> law (Q p) = p.

  Lemma law_le_inv x y : D x -> D y -> law x <= law y -> xle x y.
  Proof. intros Hx Hy H. apply xle_not_xlt; auto. intros C. pose proof (mono Hy Hx C). lra. Qed.
  Lemma law_lt_inv x y : D x -> D y -> law x < law y -> xlt x y.
  Proof.
    intros Hx Hy H. apply xlt_not_xle; auto. intros C. destruct (xle_cases _ _ C) as [C'| ->]; [|lra].
    pose proof (mono Hy Hx C'). lra.
  Qed.

  Variables (lo hi : xr).
  Hypothesis (Dlo : D lo) (Dhi : D hi).

  Lemma mix_range u : law lo <= law hi -> 0 <= u <= 1 -> 0 <= u * (law hi - law lo) + law lo <= 1.
  Proof. intros H Hu. pose proof (range Dlo). pose proof (range Dhi). nra. Qed.

  Lemma law_between u : law lo <= law hi -> 0 <= u <= 1 ->
    let x := Q (u * (law hi - law lo) + law lo) in
    D x /\ xle lo x /\ xle x hi /\ law x = law lo + u * (law hi - law lo).
  Proof.
    intros H Hu x. pose proof (@mix_range u H Hu) as Hp. pose proof (QD Hp) as HD. pose proof (lawQ Hp) as E.
    fold x in HD, E. split; [exact HD|]. repeat split.
    - apply law_le_inv; auto. nra.
    - apply law_le_inv; auto. nra.
    - lra.
  Qed.

  Lemma law_samples (inverse : R -> result xr) :
    (forall u, inverse u = if Rlt_dec (law hi - law lo) first_positive then Err ValueError else Ok (Q (u * (law hi - law lo) + law lo))) ->
    samples_between law lo hi inverse.
  Proof.
    intros E. pose proof first_positive_pos as Hp. repeat split.
    - intros H u. rewrite E. destruct (Rlt_dec _ _); [reflexivity|lra].
    - intros H u Hu. rewrite E. destruct (Rlt_dec _ _); [lra|]. eexists. split; [reflexivity|].
      apply law_between; [lra|exact Hu].
    - intros u v x y Hu Huv Hv Hx Hy. rewrite E in Hx, Hy. destruct (Rlt_dec _ _) as [|N]; [discriminate|].
      injection Hx as <-. injection Hy as <-. apply law_lt_inv.
      + apply QD, mix_range; lra.
      + apply QD, mix_range; lra.
      + rewrite !lawQ by (apply mix_range; lra). nra.
  Qed.
End Law.

(** ** Clamping *)

Lemma clamp_id lo hi x : xle lo x -> xle x hi -> xmin (xmax x lo) hi = x.
Proof.
  destruct lo, x, hi; cbn; intros; try tauto; try reflexivity.
  - f_equal. apply Rmin_left. exact H0.
  - f_equal. rewrite Rmax_left by exact H. apply Rmin_left. exact H0.
  - f_equal. apply Rmax_left. exact H.
Qed.

Lemma within_intro l lo hi x : xle lo x -> xle x hi ->
  (forall a, fst l = Some a -> xle (Fin a) lo) -> (forall b, snd l = Some b -> xle hi (Fin b)) -> within l x.
Proof.
  intros H1 H2 Ha Hb. split; [exact (proj2 (xle_num _ _ H1))|]. split.
  - intros a E. exact (xle_trans _ _ _ (Ha a E) H1).
  - intros b E. exact (xle_trans _ _ _ H2 (Hb b E)).
Qed.

(** ** The normal law *)

Section Normal.
  Variables (Phi ppf : R -> R).
  Hypothesis pair : inverse_pair Phi ppf.
  Variables (mu sig : R).
  Hypothesis Hsig : 0 < sig.

  Lemma norm_cdf_law x : x <> XNaN -> norm_cdf Phi (standardize x mu sig) = Some (normal_law Phi mu sig x).
  Proof.
    destruct x; cbn; intros H; try congruence.
    - destruct (Rlt_dec sig 0); [lra|]. reflexivity.
    - destruct (Req_EM_T sig 0); [lra|]. reflexivity.
    - destruct (Rlt_dec sig 0); [lra|]. reflexivity.
  Qed.
  Lemma norm_cdf_at_law x : x <> XNaN -> norm_cdf_at Phi x mu sig = Some (normal_law Phi mu sig x).
  Proof. intros H. unfold norm_cdf_at. destruct (Rlt_dec 0 sig); [|lra]. apply norm_cdf_law, H. Qed.

  Definition nD (x : xr) : Prop := x <> XNaN.
  Lemma n_mono x y : nD x -> nD y -> xlt x y -> normal_law Phi mu sig x < normal_law Phi mu sig y.
  Proof.
    destruct pair as (P1 & P2 & P3). unfold nD. destruct x as [|a| |], y as [|b| |]; cbn; intros; try tauto.
    - destruct (P2 ((b - mu) / sig)); lra.
    - lra.
    - apply P1. unfold Rdiv. apply Rmult_lt_compat_r; [apply Rinv_0_lt_compat; lra|lra].
    - destruct (P2 ((a - mu) / sig)); lra.
  Qed.
  Lemma n_range x : nD x -> 0 <= normal_law Phi mu sig x <= 1.
  Proof. destruct pair as (P1 & P2 & P3). intros H. destruct x as [|a| |]; cbn; try lra. destruct (P2 ((a - mu) / sig)); lra. Qed.
  Definition nQ (p : R) : xr := norm_ppf ppf (Some p) mu sig.
  Lemma n_Q p : 0 <= p <= 1 -> nD (nQ p) /\ normal_law Phi mu sig (nQ p) = p.
  Proof.
    destruct pair as (P1 & P2 & P3). intros H. unfold nQ, norm_ppf, nD. destruct (Rlt_dec 0 sig); [|lra].
    destruct (Req_EM_T p 0) as [->|N0]; [cbn; split; [discriminate|reflexivity]|].
    destruct (Req_EM_T p 1) as [->|N1]; [cbn; split; [discriminate|reflexivity]|].
    destruct (Rlt_dec 0 p); [|lra]. destruct (Rlt_dec p 1); [|lra]. split; [discriminate|]. cbn.
    replace ((mu + sig * ppf p - mu) / sig) with (ppf p) by (field; lra). apply P3. lra.
  Qed.

  Lemma normal_inverse_form l u :
    normal_inverse Phi ppf (mu, sig) l u =
    if Rlt_dec (normal_law Phi mu sig (limit_or (snd l) PInf) - normal_law Phi mu sig (limit_or (fst l) MInf)) first_positive
    then Err ValueError
    else Ok (nQ (u * (normal_law Phi mu sig (limit_or (snd l) PInf) - normal_law Phi mu sig (limit_or (fst l) MInf)) + normal_law Phi mu sig (limit_or (fst l) MInf))).
  Proof.
    assert (HD : forall o d, d <> XNaN -> limit_or o d <> XNaN) by (intros [r|] d Hd; cbn; congruence).
    unfold normal_inverse. destruct (truncated l) eqn:T.
    - rewrite !norm_cdf_law by (apply HD; discriminate). cbn [too_small rescale].
      destruct (Rlt_dec _ _); reflexivity.
    - destruct l as [[a|] [b|]]; try discriminate T. cbn [fst snd limit_or normal_law].
      pose proof first_positive_le_1. destruct (Rlt_dec (1 - 0) first_positive); [lra|].
      unfold nQ. replace (u * (1 - 0) + 0) with u by ring. reflexivity.
  Qed.

  Lemma normal_samples l :
    samples_between (normal_law Phi mu sig) (limit_or (fst l) MInf) (limit_or (snd l) PInf) (normal_inverse Phi ppf (mu, sig) l).
  Proof.
    assert (HD : forall o d, d <> XNaN -> limit_or o d <> XNaN) by (intros [r|] d Hd; cbn; congruence).
    apply (@law_samples nD (normal_law Phi mu sig) nQ).
    - unfold nD; tauto.
    - exact n_mono.
    - exact n_range.
    - intros p Hp. apply n_Q, Hp.
    - intros p Hp. apply n_Q, Hp.
    - unfold nD; apply HD; discriminate.
    - unfold nD; apply HD; discriminate.
    - intros u. apply normal_inverse_form.
  Qed.

  Lemma normal_cdf_back l u x : first_positive <= normal_law Phi mu sig (limit_or (snd l) PInf) - normal_law Phi mu sig (limit_or (fst l) MInf) ->
    xle (limit_or (fst l) MInf) x -> xle x (limit_or (snd l) PInf) ->
    normal_law Phi mu sig x = normal_law Phi mu sig (limit_or (fst l) MInf) + u * (normal_law Phi mu sig (limit_or (snd l) PInf) - normal_law Phi mu sig (limit_or (fst l) MInf)) ->
    normal_cdf Phi (mu, sig) l x = Ok (Some u).
  Proof.
    assert (HD : forall o d, d <> XNaN -> limit_or o d <> XNaN) by (intros [r|] d Hd; cbn; congruence).
    pose proof first_positive_pos as Hp. intros Hm H1 H2 E. pose proof (proj2 (xle_num _ _ H1)) as Hx.
    unfold normal_cdf. destruct (truncated l) eqn:T.
    - rewrite !norm_cdf_law by (apply HD; discriminate). cbn [too_small].
      destruct (Rlt_dec _ _); [lra|]. rewrite clamp_id by assumption. rewrite norm_cdf_at_law by assumption.
      cbn [unscale]. rewrite E. do 2 f_equal. field. lra.
    - destruct l as [[a|] [b|]]; try discriminate T. cbn [fst snd limit_or normal_law] in *.
      rewrite norm_cdf_at_law by assumption. rewrite E. do 2 f_equal. ring.
  Qed.
End Normal.

(** ** The lognormal law *)

Section LogNormal.
  Variables (Phi ppf : R -> R).
  Hypothesis pair : inverse_pair Phi ppf.
  Variables (median beta : R).
  Hypotheses (Hm : 0 < median) (Hb : 0 < beta).
  Notation law := (lognormal_law Phi median beta).

  Definition lD (x : xr) : Prop := match x with Fin r => 0 <= r | PInf => True | _ => False end.
  Lemma lD_num x : lD x -> x <> XNaN.
  Proof. destruct x; cbn; congruence || tauto. Qed.
  Lemma lD_log x : lD x -> xlog x <> XNaN /\ normal_law Phi (ln median) beta (xlog x) = law x.
  Proof.
    destruct x as [|r| |]; cbn; intros H; try tauto; [|split; [discriminate|reflexivity]].
    destruct (Rlt_dec 0 r).
    - split; [discriminate|]. cbn. destruct (Rle_dec r 0); [lra|reflexivity].
    - destruct (Req_EM_T r 0); [|lra]. split; [discriminate|]. cbn. destruct (Rle_dec r 0); [reflexivity|lra].
  Qed.
  Lemma lD_log_cdf x : lD x -> norm_cdf Phi (standardize (xlog x) (ln median) beta) = Some (law x).
  Proof. intros H. destruct (lD_log _ H) as [N E]. rewrite norm_cdf_law by assumption. f_equal. exact E. Qed.
  Lemma lD_log_cdf_at x : lD x -> norm_cdf_at Phi (xlog x) (ln median) beta = Some (law x).
  Proof. intros H. destruct (lD_log _ H) as [N E]. rewrite norm_cdf_at_law by assumption. f_equal. exact E. Qed.
  Lemma xlog_mono x y : lD x -> lD y -> xlt x y -> xlt (xlog x) (xlog y).
  Proof.
    destruct x as [|a| |], y as [|b| |]; cbn; intros Hx Hy H; try tauto.
    - destruct (Rlt_dec 0 b); [|lra]. destruct (Rlt_dec 0 a); cbn; [apply ln_increasing; lra|].
      destruct (Req_EM_T a 0); [exact I|lra].
    - destruct (Rlt_dec 0 a); cbn; [exact I|]. destruct (Req_EM_T a 0); [exact I|lra].
  Qed.
  Lemma l_mono x y : lD x -> lD y -> xlt x y -> law x < law y.
  Proof.
    intros Hx Hy H. destruct (lD_log _ Hx) as [Nx <-]. destruct (lD_log _ Hy) as [Ny <-].
    apply (n_mono pair _ Hb); try assumption. apply xlog_mono; assumption.
  Qed.
  Lemma l_range x : lD x -> 0 <= law x <= 1.
  Proof. intros Hx. destruct (lD_log _ Hx) as [Nx <-]. apply (@n_range Phi ppf pair), Nx. Qed.
  Definition lQ (p : R) : xr := xexp (norm_ppf ppf (Some p) (ln median) beta).
  Lemma l_Q p : 0 <= p <= 1 -> lD (lQ p) /\ law (lQ p) = p.
  Proof.
    intros H. destruct (@n_Q Phi ppf pair (ln median) beta Hb p H) as [N E]. unfold lQ. fold (nQ ppf (ln median) beta p).
    assert (HD : lD (xexp (nQ ppf (ln median) beta p))).
    { unfold nD in N. destruct (nQ ppf (ln median) beta p); cbn; try tauto; try lra. left. apply exp_pos. }
    split; [exact HD|]. destruct (lD_log _ HD) as [_ <-]. rewrite <- E at 2. f_equal.
    unfold nD in N. destruct (nQ ppf (ln median) beta p) as [|r| |]; cbn; try congruence.
    - destruct (Rlt_dec 0 0); [lra|]. destruct (Req_EM_T 0 0); [reflexivity|congruence].
    - destruct (Rlt_dec 0 (exp r)) as [_|C]; [|exfalso; apply C, exp_pos]. rewrite ln_exp. reflexivity.
  Qed.

  Lemma lognormal_lower_eq l : truncated l = true ->
    match fst l with None => Fin first_positive | Some r => if Rle_dec r 0 then Fin first_positive else Fin r end = lognormal_lower l.
  Proof. destruct l as [[a|] [b|]]; cbn; congruence || reflexivity. Qed.
  Lemma lognormal_lower_D l : lD (lognormal_lower l).
  Proof.
    unfold lognormal_lower. pose proof first_positive_pos. destruct l as [[a|] [b|]]; cbn; try lra; destruct (Rle_dec a 0); cbn; lra.
  Qed.
  Lemma upper_D (l : limits) : (forall b, snd l = Some b -> 0 <= b) -> lD (limit_or (snd l) PInf).
  Proof. intros H. destruct (snd l) as [b|]; cbn; [apply H; reflexivity|exact I]. Qed.

  Lemma lognormal_inverse_form l u : (forall b, snd l = Some b -> 0 <= b) ->
    lognormal_inverse Phi ppf (median, beta) l u =
    if Rlt_dec (law (limit_or (snd l) PInf) - law (lognormal_lower l)) first_positive
    then Err ValueError
    else Ok (lQ (u * (law (limit_or (snd l) PInf) - law (lognormal_lower l)) + law (lognormal_lower l))).
  Proof.
    intros Hup. pose proof (lognormal_lower_D l) as D1. pose proof (upper_D _ Hup) as D2.
    unfold lognormal_inverse. destruct (truncated l) eqn:T.
    - rewrite (lognormal_lower_eq _ T). rewrite (lD_log_cdf _ D2), (lD_log_cdf _ D1). cbn [too_small rescale]. destruct (Rlt_dec _ _); reflexivity.
    - destruct l as [[a|] [b|]]; try discriminate T. cbn [fst snd limit_or lognormal_law lognormal_lower].
      destruct (Rle_dec 0 0); [|lra]. pose proof first_positive_le_1. destruct (Rlt_dec (1 - 0) first_positive); [lra|].
      unfold lQ. replace (u * (1 - 0) + 0) with u by ring. reflexivity.
  Qed.

  Lemma lognormal_samples l : (forall b, snd l = Some b -> 0 <= b) ->
    samples_between law (lognormal_lower l) (limit_or (snd l) PInf) (lognormal_inverse Phi ppf (median, beta) l).
  Proof.
    intros Hup. apply (@law_samples lD law lQ).
    - exact lD_num.
    - exact l_mono.
    - exact l_range.
    - intros p Hp. apply l_Q, Hp.
    - intros p Hp. apply l_Q, Hp.
    - apply lognormal_lower_D.
    - apply upper_D, Hup.
    - intros u. apply lognormal_inverse_form, Hup.
  Qed.

  Lemma lognormal_cdf_back l u x : (forall a, fst l = Some a -> 0 < a) -> (forall b, snd l = Some b -> 0 <= b) ->
    first_positive <= law (limit_or (snd l) PInf) - law (lognormal_lower l) ->
    xle (lognormal_lower l) x -> xle x (limit_or (snd l) PInf) -> (l = (None, None) -> xle (Fin first_positive) x) ->
    law x = law (lognormal_lower l) + u * (law (limit_or (snd l) PInf) - law (lognormal_lower l)) ->
    lognormal_cdf Phi (median, beta) l x = Ok (Some u).
  Proof.
    intros Hlo Hup Hmass H1 H2 Hx E. pose proof first_positive_pos as Hp.
    pose proof (lognormal_lower_D l) as D1. pose proof (upper_D _ Hup) as D2.
    assert (Dx : lD x).
    { destruct x as [|r| |], (lognormal_lower l); cbn in *; try tauto; lra. }
    unfold lognormal_cdf. destruct (truncated l) eqn:T.
    - assert (EL : lognormal_lower l = limit_or (fst l) (Fin first_positive)).
      { rewrite <- (lognormal_lower_eq _ T). destruct (fst l) as [a|]; [|reflexivity].
        specialize (Hlo a eq_refl). destruct (Rle_dec a 0); [lra|reflexivity]. }
      rewrite EL in *. rewrite (lD_log_cdf _ D1), (lD_log_cdf _ D2). cbn [too_small].
      destruct (Rlt_dec _ _); [lra|]. rewrite clamp_id by assumption. rewrite (lD_log_cdf_at _ Dx). cbn [unscale].
      rewrite E. do 2 f_equal. field. lra.
    - assert (EL : l = (None, None)) by (destruct l as [[a|] [b|]]; [discriminate T..|reflexivity]).
      specialize (Hx EL). subst l. unfold lognormal_lower in E. cbn in E. destruct (Rle_dec 0 0); [|lra].
      assert (EM : xmax x (Fin first_positive) = x).
      { destruct x; cbn in *; try tauto. f_equal. apply Rmax_left. lra. }
      rewrite EM, (lD_log_cdf_at _ Dx). rewrite E. do 2 f_equal. ring.
  Qed.
End LogNormal.

(** ** The Weibull law *)

Section Weibull.
  Variables (lambda kappa : R).
  Hypotheses (Hl : 0 < lambda) (Hk : 0 < kappa).
  Notation law := (weibull_law lambda kappa).

  Lemma weibull_cdf_law x : x <> XNaN -> weibull_cdf kappa lambda x = Some (law x).
  Proof.
    intros H. unfold weibull_cdf. destruct (Rlt_dec 0 kappa); [|lra]. destruct (Rlt_dec 0 lambda); [|lra].
    destruct x as [|a| |]; cbn; try reflexivity; [|congruence]. f_equal.
    destruct (Rlt_dec 0 a), (Rle_dec a 0); try lra; reflexivity.
  Qed.
  Lemma weibull_value a : 0 < a -> 0 < 1 - exp (- Rpower (a / lambda) kappa) < 1.
  Proof.
    intros Ha. assert (0 < Rpower (a / lambda) kappa) by (unfold Rpower; apply exp_pos).
    pose proof (exp_pos (- Rpower (a / lambda) kappa)). split; [|lra].
    assert (exp (- Rpower (a / lambda) kappa) < exp 0) by (apply exp_increasing; lra). rewrite exp_0 in *. lra.
  Qed.
  Lemma w_mono x y : lD x -> lD y -> xlt x y -> law x < law y.
  Proof.
    destruct x as [|a| |], y as [|b| |]; cbn; intros Hx Hy H; try tauto.
    - destruct (Rle_dec b 0); [lra|]. destruct (Rle_dec a 0); [apply weibull_value; lra|].
      assert (Rpower (a / lambda) kappa < Rpower (b / lambda) kappa).
      { unfold Rpower. apply exp_increasing. apply Rmult_lt_compat_l; [exact Hk|]. apply ln_increasing.
        - unfold Rdiv. apply Rmult_lt_0_compat; [lra|apply Rinv_0_lt_compat, Hl].
        - unfold Rdiv. apply Rmult_lt_compat_r; [apply Rinv_0_lt_compat, Hl|exact H]. }
      assert (exp (- Rpower (b / lambda) kappa) < exp (- Rpower (a / lambda) kappa)) by (apply exp_increasing; lra). lra.
    - destruct (Rle_dec a 0); [lra|]. apply weibull_value. lra.
  Qed.
  Lemma w_range x : lD x -> 0 <= law x <= 1.
  Proof.
    destruct x as [|a| |]; cbn; intros H; try lra. destruct (Rle_dec a 0); [lra|].
    assert (0 < a) as Ha by lra. pose proof (weibull_value Ha). lra.
  Qed.
  Definition wQ (p : R) : xr := weibull_ppf kappa lambda (Some p).
  Lemma w_Q p : 0 <= p <= 1 -> lD (wQ p) /\ law (wQ p) = p.
  Proof.
    intros H. unfold wQ, weibull_ppf. destruct (Rlt_dec 0 kappa); [|lra]. destruct (Rlt_dec 0 lambda); [|lra].
    destruct (Req_EM_T p 0) as [->|N0].
    { split; cbn; [lra|]. destruct (Rle_dec 0 0); [reflexivity|lra]. }
    destruct (Req_EM_T p 1) as [->|N1]; [split; [exact I|reflexivity]|].
    destruct (Rlt_dec 0 p); [|lra]. destruct (Rlt_dec p 1); [|lra].
    assert (Hln : ln (1 - p) < 0) by (rewrite <- ln_1; apply ln_increasing; lra).
    assert (Hq : 0 < Rpower (- ln (1 - p)) (/ kappa)) by (unfold Rpower; apply exp_pos).
    assert (Hv : 0 < lambda * Rpower (- ln (1 - p)) (/ kappa)) by (apply Rmult_lt_0_compat; assumption).
    split; [cbn; lra|]. cbn. destruct (Rle_dec _ 0); [lra|].
    replace (lambda * Rpower (- ln (1 - p)) (/ kappa) / lambda) with (Rpower (- ln (1 - p)) (/ kappa)) by (field; lra).
    rewrite Rpower_mult, Rinv_l, Rpower_1 by lra. rewrite Ropp_involutive, exp_ln by lra. ring.
  Qed.

  Lemma weibull_lower_D l : lD (weibull_lower l).
  Proof. unfold weibull_lower. destruct (fst l) as [r|]; cbn; [apply Rmax_l|lra]. Qed.

  Lemma weibull_inverse_form l u :
    weibull_inverse (lambda, kappa) l u =
    if Rlt_dec (law (limit_or (snd l) PInf) - law (weibull_lower l)) first_positive
    then Err ValueError
    else Ok (wQ (u * (law (limit_or (snd l) PInf) - law (weibull_lower l)) + law (weibull_lower l))).
  Proof.
    assert (HD : forall o d, d <> XNaN -> limit_or o d <> XNaN) by (intros [r|] d Hd; cbn; congruence).
    pose proof (@lD_num _ (weibull_lower_D l)) as D1.
    unfold weibull_inverse. destruct (truncated l) eqn:T.
    - assert (E : match fst l with None => Fin 0 | Some r => Fin (Rmax 0 r) end = weibull_lower l) by reflexivity.
      rewrite E. rewrite (@weibull_cdf_law _ D1). rewrite weibull_cdf_law by (apply HD; discriminate).
      cbn [too_small rescale]. destruct (Rlt_dec _ _); reflexivity.
    - destruct l as [[a|] [b|]]; try discriminate T. unfold weibull_lower. cbn [fst snd limit_or weibull_law].
      destruct (Rle_dec 0 0); [|lra]. pose proof first_positive_le_1. destruct (Rlt_dec (1 - 0) first_positive); [lra|].
      unfold wQ. replace (u * (1 - 0) + 0) with u by ring. reflexivity.
  Qed.

  Lemma weibull_samples l :
    samples_between law (weibull_lower l) (limit_or (snd l) PInf) (weibull_inverse (lambda, kappa) l).
  Proof.
    destruct (snd l) as [b|] eqn:Eb.
    - destruct (Rle_dec 0 b) as [Hb|Hb].
      + apply (@law_samples lD law wQ).
        * exact lD_num.
        * exact w_mono.
        * exact w_range.
        * intros p Hp. apply w_Q, Hp.
        * intros p Hp. apply w_Q, Hp.
        * apply weibull_lower_D.
        * cbn. exact Hb.
        * intros u. rewrite weibull_inverse_form, Eb. reflexivity.
      + assert (E0 : law (Fin b) = 0) by (cbn; destruct (Rle_dec b 0); [reflexivity|lra]).
        pose proof (w_range _ (weibull_lower_D l)) as Hr. pose proof first_positive_pos as Hp.
        assert (EE : forall u, weibull_inverse (lambda, kappa) l u = Err ValueError).
        { intros u. rewrite weibull_inverse_form, Eb. cbn [limit_or]. rewrite E0. destruct (Rlt_dec _ _); [reflexivity|lra]. }
        cbn [limit_or]. split; [intros _; exact EE|]. split.
        * rewrite E0. intros C. lra.
        * intros u v x y _ _ _ Hx. rewrite EE in Hx. discriminate.
    - apply (@law_samples lD law wQ).
      + exact lD_num.
      + exact w_mono.
      + exact w_range.
      + intros p Hp. apply w_Q, Hp.
      + intros p Hp. apply w_Q, Hp.
      + apply weibull_lower_D.
      + exact I.
      + intros u. rewrite weibull_inverse_form, Eb. reflexivity.
  Qed.

  Lemma weibull_cdf_back l u x :
    first_positive <= law (limit_or (snd l) PInf) - law (weibull_lower l) ->
    xle (weibull_lower l) x -> xle x (limit_or (snd l) PInf) ->
    law x = law (weibull_lower l) + u * (law (limit_or (snd l) PInf) - law (weibull_lower l)) ->
    weibull_var_cdf (lambda, kappa) l x = Ok (Some u).
  Proof.
    intros Hmass H1 H2 E. pose proof first_positive_pos as Hp.
    assert (HD : forall o d, d <> XNaN -> limit_or o d <> XNaN) by (intros [r|] d Hd; cbn; congruence).
    unfold weibull_var_cdf. destruct (truncated l) eqn:T.
    - assert (EL : law (limit_or (fst l) (Fin 0)) = law (weibull_lower l)).
      { unfold weibull_lower. destruct (fst l) as [a|]; cbn [limit_or]; [|reflexivity].
        destruct (Rle_dec a 0); [|rewrite Rmax_right by lra; reflexivity]. rewrite Rmax_left by lra. cbn.
        destruct (Rle_dec a 0), (Rle_dec 0 0); lra. }
      rewrite !weibull_cdf_law by (apply HD; discriminate). rewrite EL. cbn [too_small].
      destruct (Rlt_dec _ _); [lra|]. rewrite clamp_id; [|..].
      + rewrite weibull_cdf_law by exact (proj2 (xle_num _ _ H1)). cbn [unscale]. rewrite E. do 2 f_equal. field. lra.
      + apply xle_trans with (2 := H1). unfold weibull_lower. destruct (fst l) as [a|]; cbn; [apply Rmax_r|lra].
      + exact H2.
    - destruct l as [[a|] [b|]]; try discriminate T. unfold weibull_lower in *. cbn [fst snd limit_or] in *.
      assert (EM : xmax x (Fin 0) = x).
      { destruct x; cbn in *; try tauto. f_equal. apply Rmax_left. lra. }
      rewrite EM. rewrite weibull_cdf_law by exact (proj2 (xle_num _ _ H1)). rewrite E. cbn. destruct (Rle_dec 0 0); [|lra].
      do 2 f_equal. ring.
  Qed.
End Weibull.

(** ** Scaling *)

Section Scaling.
  Variables (Phi ppf : R -> R) (f : R).
  Hypothesis Hf : 0 < f.

  Definition times_limits (l : limits) : limits := (option_map (fun a => a * f) (fst l), option_map (fun a => a * f) (snd l)).
  Lemma times_truncated l : truncated (times_limits l) = truncated l.
  Proof. destruct l as [[a|] [b|]]; reflexivity. Qed.
  Lemma pos_scaled s : 0 < s * f <-> 0 < s.
  Proof. split; intros H; nra. Qed.
  Lemma neg_scaled s : s * f < 0 <-> s < 0.
  Proof. split; intros H; nra. Qed.
  Lemma eq_scaled s t : s * f = t * f <-> s = t.
  Proof. split; [|intros ->; reflexivity]. intros H. apply Rmult_eq_reg_r with f; [exact H|lra]. Qed.
  Lemma zero_scaled s : s * f = 0 <-> s = 0.
  Proof. rewrite <- (eq_scaled s 0). rewrite Rmult_0_l. tauto. Qed.

  Lemma standardize_scaled x mu sig : standardize (xtimes f x) (mu * f) (sig * f) = standardize x mu sig.
  Proof.
    destruct x as [|r| |]; cbn; try reflexivity.
    - destruct (Rlt_dec (sig * f) 0) as [A|A], (Rlt_dec sig 0) as [B|B]; rewrite neg_scaled in A; try tauto.
    - destruct (Req_EM_T (sig * f) 0) as [A|A], (Req_EM_T sig 0) as [B|B]; rewrite zero_scaled in A; try tauto.
      + destruct (Req_EM_T (r * f) (mu * f)) as [C|C], (Req_EM_T r mu) as [D|D]; rewrite eq_scaled in C; try tauto.
        destruct (Rlt_dec (r * f) (mu * f)), (Rlt_dec r mu); try reflexivity; exfalso; nra.
      + f_equal. field. split; lra.
    - destruct (Rlt_dec (sig * f) 0) as [A|A], (Rlt_dec sig 0) as [B|B]; rewrite neg_scaled in A; try tauto.
  Qed.
  Lemma ppf_scaled q mu sig : norm_ppf ppf q (mu * f) (sig * f) = xtimes f (norm_ppf ppf q mu sig).
  Proof.
    destruct q as [q|]; [|reflexivity]. unfold norm_ppf.
    destruct (Rlt_dec 0 (sig * f)) as [A|A], (Rlt_dec 0 sig) as [B|B]; rewrite pos_scaled in A; try tauto.
    destruct (Req_EM_T q 0); [reflexivity|]. destruct (Req_EM_T q 1); [reflexivity|].
    destruct (Rlt_dec 0 q); [|reflexivity]. destruct (Rlt_dec q 1); [|reflexivity]. cbn. f_equal. ring.
  Qed.
  Lemma limit_scaled o d : xtimes f d = d -> limit_or (option_map (fun a => a * f) o) d = xtimes f (limit_or o d).
  Proof. destruct o; cbn; intros H; [reflexivity|symmetry; exact H]. Qed.

  Lemma normal_scaled mu sig l u :
    normal_inverse Phi ppf (mu * f, sig * f) (times_limits l) u = times_result f (normal_inverse Phi ppf (mu, sig) l u).
  Proof.
    unfold normal_inverse. rewrite times_truncated. destruct (truncated l).
    - unfold times_limits. cbn [fst snd]. rewrite !limit_scaled by reflexivity. rewrite !standardize_scaled.
      destruct (too_small _ _); [reflexivity|]. cbn. rewrite ppf_scaled. reflexivity.
    - cbn [times_result]. rewrite ppf_scaled. reflexivity.
  Qed.

  Lemma xlog_scaled x median beta : 0 < median -> 
    standardize (xlog (xtimes f x)) (ln (median * f)) beta = standardize (xlog x) (ln median) beta.
  Proof.
    intros Hm. destruct x as [|r| |]; try reflexivity. cbn [xtimes xlog].
    destruct (Rlt_dec 0 (r * f)) as [A|A], (Rlt_dec 0 r) as [B|B]; rewrite pos_scaled in A; try tauto.
    - rewrite !ln_mult by lra. cbn.
      destruct (Req_EM_T beta 0) as [E|E].
      + destruct (Req_EM_T (ln r + ln f) (ln median + ln f)), (Req_EM_T (ln r) (ln median)); try lra; try reflexivity.
        destruct (Rlt_dec (ln r + ln f) (ln median + ln f)), (Rlt_dec (ln r) (ln median)); try lra; reflexivity.
      + f_equal. field. exact E.
    - destruct (Req_EM_T (r * f) 0) as [C|C], (Req_EM_T r 0) as [D|D]; rewrite zero_scaled in C; try tauto.
  Qed.
  Lemma exp_ppf_scaled q median beta : 0 < median ->
    xexp (norm_ppf ppf q (ln (median * f)) beta) = xtimes f (xexp (norm_ppf ppf q (ln median) beta)).
  Proof.
    intros Hm. destruct q as [q|]; [|reflexivity]. unfold norm_ppf.
    destruct (Rlt_dec 0 beta); [|reflexivity].
    destruct (Req_EM_T q 0); [cbn; f_equal; ring|]. destruct (Req_EM_T q 1); [reflexivity|].
    destruct (Rlt_dec 0 q); [|reflexivity]. destruct (Rlt_dec q 1); [|reflexivity]. cbn. f_equal.
    rewrite ln_mult by lra. replace (ln median + ln f + beta * ppf q) with ((ln median + beta * ppf q) + ln f) by ring.
    rewrite exp_plus, exp_ln by lra. reflexivity.
  Qed.

  (** With the lower limits [a] and [a * f] as used by the program. *)
  Lemma lognormal_scaled median beta l u : 0 < median -> (l = (None, None) \/ exists a, fst l = Some a /\ 0 < a) ->
    lognormal_inverse Phi ppf (median * f, beta) (times_limits l) u = times_result f (lognormal_inverse Phi ppf (median, beta) l u).
  Proof.
    intros Hm Hl. unfold lognormal_inverse. rewrite times_truncated. destruct (truncated l) eqn:T.
    - destruct Hl as [-> | (a & Ea & Ha)]; [discriminate T|]. unfold times_limits. cbn [fst snd]. rewrite Ea. cbn [option_map].
      destruct (Rle_dec (a * f) 0); [nra|]. destruct (Rle_dec a 0); [lra|].
      change (Fin (a * f)) with (xtimes f (Fin a)). rewrite limit_scaled by reflexivity. rewrite !xlog_scaled by exact Hm.
      destruct (too_small _ _); [reflexivity|]. cbn [times_result]. rewrite exp_ppf_scaled by exact Hm. reflexivity.
    - cbn [times_result]. rewrite exp_ppf_scaled by exact Hm. reflexivity.
  Qed.
End Scaling.

Lemma lognormal_implicit_lower Phi ppf theta lo b u : (lo = None \/ exists a, lo = Some a /\ a <= 0) ->
  lognormal_inverse Phi ppf theta (lo, Some b) u = lognormal_inverse Phi ppf theta (Some first_positive, Some b) u.
Proof.
  pose proof first_positive_pos. intros Hl. unfold lognormal_inverse. destruct theta as [m s].
  destruct Hl as [-> | (a & -> & Ha)]; cbn [truncated fst snd]; destruct (Rle_dec first_positive 0); try lra; [reflexivity|].
  destruct (Rle_dec a 0); [reflexivity|lra].
Qed.
