(** Property theorems about truncated and scaled distributions (C14, C21). *)
From Coq Require Import Reals Lra.
From Verif Require Import Prelude PreludeFacts M_UQ M_Dist S_Dist P_Dist.
Local Open Scope R_scope.

(** The logistic distribution: an explicit pair for the examples. *)
Definition logistic (x : R) : R := / (1 + exp (- x)).
Definition logit (p : R) : R := ln (p / (1 - p)).
Lemma logistic_pair : inverse_pair logistic logit.
Proof.
  unfold logistic, logit. repeat split.
  - intros x y H. apply Rinv_lt_contravar.
    + pose proof (exp_pos (- x)). pose proof (exp_pos (- y)). apply Rmult_lt_0_compat; lra.
    + assert (exp (- y) < exp (- x)) by (apply exp_increasing; lra). lra.
  - apply Rinv_0_lt_compat. pose proof (exp_pos (- x)). lra.
  - pose proof (exp_pos (- x)). apply Rlt_le_trans with (/ 1); [apply Rinv_lt_contravar; lra|rewrite Rinv_1; lra].
  - intros p Hp. assert (0 < p / (1 - p)) by (apply Rdiv_lt_0_compat; lra). rewrite exp_Ropp, exp_ln by assumption. field. split; [lra|]. split; lra.
Qed.

(** * C14 *)

(** Normal variables given by mean and standard deviation. *)
Theorem C14_normal_std : forall Phi ppf mean std theta l,
  inverse_pair Phi ppf -> 0 < std -> normal_std_init (mean, std) = Ok theta ->
  samples_between (normal_law Phi mean std) (lower_limit l) (upper_limit l) (normal_inverse Phi ppf theta l) /\
  forall u x, 0 <= u <= 1 -> normal_inverse Phi ppf theta l u = Ok x -> within l x /\ normal_cdf Phi theta l x = Ok (Some u).
Proof.
  intros Phi ppf mean std theta l Hp Hs E. injection E as <-.
  pose proof (normal_samples Hp mean Hs l) as S. split; [exact S|]. intros u x Hu Hx. destruct S as (S1 & S2 & _).
  destruct (Rlt_dec (normal_law Phi mean std (upper_limit l) - normal_law Phi mean std (lower_limit l)) first_positive) as [H|H].
  { specialize (S1 H u). rewrite Hx in S1. discriminate. }
  assert (H' : first_positive <= normal_law Phi mean std (upper_limit l) - normal_law Phi mean std (lower_limit l)) by lra.
  destruct (S2 H' u Hu) as (x' & Ex & A & B & C). rewrite Hx in Ex. injection Ex as <-. split.
  - apply (within_intro _ _ _ _ A B); unfold lower_limit, upper_limit; intros a ->; cbn; lra.
  - exact (normal_cdf_back Phi _ Hs _ _ H' A B C).
Qed.
Print Assumptions C14_normal_std.

(** Normal variables given by mean and coefficient of variation, with a positive mean. *)
Theorem C14_normal_cov_partial : forall Phi ppf mean cov theta l,
  inverse_pair Phi ppf -> 0 < mean -> 0 < cov -> normal_cov_init (mean, cov) = Ok theta ->
  samples_between (normal_law Phi mean (mean * cov)) (lower_limit l) (upper_limit l) (normal_inverse Phi ppf theta l) /\
  forall u x, 0 <= u <= 1 -> normal_inverse Phi ppf theta l u = Ok x -> within l x /\ normal_cdf Phi theta l x = Ok (Some u).
Proof.
  intros Phi ppf mean cov theta l Hp Hm Hc E. unfold normal_cov_init in E.
  destruct (Rlt_dec (Rabs mean) (/ 10 ^ 40)); [discriminate|].
  apply (@C14_normal_std Phi ppf mean (mean * cov) theta l Hp); [apply Rmult_lt_0_compat; assumption|exact E].
Qed.
Print Assumptions C14_normal_cov_partial.

(** With a negative mean, which is accepted, the standard deviation becomes negative and every
    value is NaN. *)
Theorem C14_normal_cov_refuted : forall Phi ppf mean cov, mean <= -1 -> 0 < cov ->
  exists theta, normal_cov_init (mean, cov) = Ok theta /\
    forall u, normal_inverse Phi ppf theta (None, None) u = Ok XNaN.
Proof.
  intros Phi ppf mean cov Hm Hc. unfold normal_cov_init. destruct (Rlt_dec (Rabs mean) (/ 10 ^ 40)) as [H|H].
  - exfalso. rewrite Rabs_left in H by lra. assert (/ 10 ^ 40 <= 1) by (rewrite <- Rinv_1; apply Rinv_le_contravar; [lra|apply pow_R1_Rle; lra]). lra.
  - eexists. split; [reflexivity|]. intros u. cbn. destruct (Rlt_dec 0 (mean * cov)); [nra|reflexivity].
Qed.
Print Assumptions C14_normal_cov_refuted.

(** Lognormal variables; an upper limit must not be negative. The values follow the law between
    the limits in use and respect the limits given. The cdf inverts the sampling if no lower limit
    or a positive one is given and the value is not smaller than the smallest positive number. *)
Theorem C14_lognormal_partial : forall Phi ppf median beta l,
  inverse_pair Phi ppf -> 0 < median -> 0 < beta -> (forall b, snd l = Some b -> 0 <= b) ->
  samples_between (lognormal_law Phi median beta) (lognormal_lower l) (upper_limit l) (lognormal_inverse Phi ppf (median, beta) l) /\
  (forall u x, 0 <= u <= 1 -> lognormal_inverse Phi ppf (median, beta) l u = Ok x -> within l x /\ xle (Fin 0) x) /\
  (forall u x, 0 <= u <= 1 -> lognormal_inverse Phi ppf (median, beta) l u = Ok x ->
     (forall a, fst l = Some a -> 0 < a) -> xle (Fin first_positive) x \/ l <> (None, None) ->
     lognormal_cdf Phi (median, beta) l x = Ok (Some u)).
Proof.
  intros Phi ppf median beta l Hp Hm Hb Hup.
  pose proof (lognormal_samples Hp median Hb l Hup) as S. split; [exact S|]. destruct S as (S1 & S2 & _).
  assert (K : forall u x, 0 <= u <= 1 -> lognormal_inverse Phi ppf (median, beta) l u = Ok x ->
    first_positive <= lognormal_law Phi median beta (upper_limit l) - lognormal_law Phi median beta (lognormal_lower l) /\
    xle (lognormal_lower l) x /\ xle x (upper_limit l) /\
    lognormal_law Phi median beta x = lognormal_law Phi median beta (lognormal_lower l) + u * (lognormal_law Phi median beta (upper_limit l) - lognormal_law Phi median beta (lognormal_lower l))).
  { intros u x Hu Hx.
    destruct (Rlt_dec (lognormal_law Phi median beta (upper_limit l) - lognormal_law Phi median beta (lognormal_lower l)) first_positive) as [H|H].
    { specialize (S1 H u). rewrite Hx in S1. discriminate. }
    assert (H' : first_positive <= lognormal_law Phi median beta (upper_limit l) - lognormal_law Phi median beta (lognormal_lower l)) by lra.
    split; [exact H'|]. destruct (S2 H' u Hu) as (x' & Ex & A & B & C). rewrite Hx in Ex. injection Ex as <-. auto. }
  pose proof first_positive_pos as Hfp. split.
  - intros u x Hu Hx. destruct (K u x Hu Hx) as (_ & A & B & _). split.
    + apply (within_intro _ _ _ _ A B); unfold upper_limit.
      * intros a Ea. destruct l as [lo hi]. cbn in Ea. subst lo. cbn. destruct hi; destruct (Rle_dec a 0); cbn; lra.
      * intros b ->. cbn. lra.
    + apply xle_trans with (2 := A). destruct l as [[a|] [b|]]; cbn; try lra; destruct (Rle_dec a 0); cbn; lra.
  - intros u x Hu Hx Ha Hs. destruct (K u x Hu Hx) as (M & A & B & C).
    apply (@lognormal_cdf_back Phi median beta Hb l u x Ha Hup M A B); [|exact C].
    intros ->. destruct Hs as [Hs|Hs]; [exact Hs|congruence].
Qed.
Print Assumptions C14_lognormal_partial.

(** A negative lower limit, which sampling handles, makes the cdf NaN everywhere; a negative upper
    limit leaves no probability and is not rejected: every value is NaN. *)
Theorem C14_lognormal_refuted : forall Phi ppf median beta l,
  (forall a x, fst l = Some a -> a < 0 -> lognormal_cdf Phi (median, beta) l x = Ok None) /\
  (forall b u, snd l = Some b -> b < 0 -> lognormal_inverse Phi ppf (median, beta) l u = Ok XNaN).
Proof.
  intros Phi ppf median beta [lo hi]. cbn [fst snd]. split.
  - intros a x -> Ha. unfold lognormal_cdf. cbn [truncated fst snd limit_or].
    assert (E : xlog (Fin a) = XNaN) by (cbn; destruct (Rlt_dec 0 a); [lra|]; destruct (Req_EM_T a 0); [lra|reflexivity]).
    assert (T : truncated (Some a, hi) = true) by (destruct hi; reflexivity). cbn [truncated] in T.
    rewrite E. cbn [standardize norm_cdf].
    destruct hi; cbn [too_small unscale]; destruct (norm_cdf Phi (standardize _ _ _)); cbn;
      match goal with |- context [unscale ?p _ _] => destruct p | _ => idtac end; try reflexivity;
      destruct (norm_cdf_at _ _ _ _); reflexivity.
  - intros b u -> Hb. unfold lognormal_inverse. 
    assert (T : truncated (lo, Some b) = true) by (destruct lo; reflexivity). rewrite T. cbn [fst snd limit_or].
    assert (E : xlog (Fin b) = XNaN) by (cbn; destruct (Rlt_dec 0 b); [lra|]; destruct (Req_EM_T b 0); [lra|reflexivity]).
    rewrite E. cbn [standardize norm_cdf too_small rescale norm_ppf xexp]. reflexivity.
Qed.
Print Assumptions C14_lognormal_refuted.

(** Weibull variables, with any limits. *)
Theorem C14_weibull : forall lambda kappa l,
  0 < lambda -> 0 < kappa ->
  samples_between (weibull_law lambda kappa) (weibull_lower l) (upper_limit l) (weibull_inverse (lambda, kappa) l) /\
  forall u x, 0 <= u <= 1 -> weibull_inverse (lambda, kappa) l u = Ok x ->
    within l x /\ xle (Fin 0) x /\ weibull_var_cdf (lambda, kappa) l x = Ok (Some u).
Proof.
  intros lambda kappa l Hl Hk. pose proof (weibull_samples Hl Hk l) as S. split; [exact S|].
  intros u x Hu Hx. destruct S as (S1 & S2 & _).
  destruct (Rlt_dec (weibull_law lambda kappa (upper_limit l) - weibull_law lambda kappa (weibull_lower l)) first_positive) as [H|H].
  { specialize (S1 H u). rewrite Hx in S1. discriminate. }
  assert (H' : first_positive <= weibull_law lambda kappa (upper_limit l) - weibull_law lambda kappa (weibull_lower l)) by lra.
  destruct (S2 H' u Hu) as (x' & Ex & A & B & C). rewrite Hx in Ex. injection Ex as <-. split; [|split].
  - apply (within_intro _ _ _ _ A B); unfold weibull_lower, upper_limit; intros a ->; cbn; [apply Rmax_r|lra].
  - apply xle_trans with (2 := A). unfold weibull_lower. destruct (fst l); cbn; [apply Rmax_l|lra].
  - exact (@weibull_cdf_back lambda kappa Hl Hk l u x H' A B C).
Qed.
Print Assumptions C14_weibull.

(** Whole samples: every value is transformed by itself, with the parameters of its realization;
    a wrong number of parameter rows is rejected. *)
Theorem C14_sample : forall f l us,
  (forall theta xs, transform_values f (Constant theta) l us = Ok xs <-> Forall2 (fun u x => f theta l u = Ok x) us xs) /\
  (forall rows, List.length rows <> List.length us -> transform_values f (Variable_ rows) l us = Err ValueError) /\
  (forall rows xs, List.length rows = List.length us ->
     (transform_values f (Variable_ rows) l us = Ok xs <-> Forall2 (fun tu x => f (fst tu) l (snd tu) = Ok x) (combine rows us) xs)).
Proof.
  intros f l us. cbn. split; [|split].
  - intros theta xs. apply mapM_Forall2.
  - intros rows H. destruct (Nat.eqb_spec (List.length us) (List.length rows)); congruence.
  - intros rows xs H. rewrite H, Nat.eqb_refl. apply mapM_Forall2.
Qed.
Print Assumptions C14_sample.

(** The hypotheses are met: the upper half is cut off, at the location and at the median, and half
    of the probability is left; a lower limit at the scale parameter leaves 1/e. *)
Example C14_hypotheses_met :
  inverse_pair logistic logit /\
  first_positive <= normal_law logistic 3 2 (upper_limit (None, Some 3)) - normal_law logistic 3 2 (lower_limit (None, Some 3)) /\
  first_positive <= weibull_law 3 2 (upper_limit (Some 3, None)) - weibull_law 3 2 (weibull_lower (Some 3, None)).
Proof.
  split; [exact logistic_pair|].
  assert (Hs : first_positive <= / 4).
  { Transparent first_positive. unfold first_positive. apply Rinv_le_contravar; [lra|]. replace 4 with (2 ^ 2) by ring. apply Rle_pow; [lra|]. repeat constructor. }
  split.
  - cbn. unfold logistic. replace (- ((3 - 3) / 2)) with 0 by field. rewrite exp_0. lra.
  - cbn. rewrite Rmax_right by lra. destruct (Rle_dec 3 0); [lra|]. replace (3 / 3) with 1 by field.
    unfold Rpower. rewrite ln_1, Rmult_0_r, exp_0.
    assert (E : / 4 < exp (- (1))).
    { rewrite exp_Ropp. apply Rinv_lt_contravar; [apply Rmult_lt_0_compat; [apply exp_pos|lra]|]. pose proof exp_le_3. lra. }
    lra.
Qed.

(** * C21 *)

Theorem C21_normal_std : forall Phi ppf f mean std l, 0 < f ->
  exists mean' std' l', scale_distribution Rmult f (Some "normal_std"%string) (Some mean, Some std) (Some l) = Ok ((Some mean', Some std'), Some l') /\
    forall u, normal_inverse Phi ppf (mean', std') l' u = times_result f (normal_inverse Phi ppf (mean, std) l u).
Proof.
  intros Phi ppf f mean std [a b] Hf. do 3 eexists. split; [reflexivity|]. intros u.
  exact (normal_scaled Phi ppf Hf mean std (a, b) u).
Qed.
Print Assumptions C21_normal_std.

(** "normal" is another name of "normal_cov"; both the variable and the scaled one must be accepted
    (the mean is not almost zero). *)
Theorem C21_normal_cov : forall Phi ppf f family mean cov theta l, 0 < f ->
  family = "normal"%string \/ family = "normal_cov"%string -> normal_cov_init (mean, cov) = Ok theta ->
  exists mean' cov' l', scale_distribution Rmult f (Some family) (Some mean, Some cov) (Some l) = Ok ((Some mean', Some cov'), Some l') /\
    forall theta' u, normal_cov_init (mean', cov') = Ok theta' ->
      normal_inverse Phi ppf theta' l' u = times_result f (normal_inverse Phi ppf theta l u).
Proof.
  intros Phi ppf f family mean cov theta [a b] Hf Hfam E. exists (mean * f), cov, (times_limits f (a, b)).
  split; [destruct Hfam as [-> | ->]; reflexivity|]. intros theta' u E'. unfold normal_cov_init in E, E'.
  destruct (Rlt_dec _ _) in E; [discriminate|]. destruct (Rlt_dec _ _) in E'; [discriminate|].
  injection E as <-. injection E' as <-. rewrite <- (normal_scaled Phi ppf Hf mean (mean * cov) (a, b) u).
  f_equal. f_equal. ring.
Qed.
Print Assumptions C21_normal_cov.

(** Lognormal variables without limits or with a positive lower limit. *)
Theorem C21_lognormal_partial : forall Phi ppf f median beta l, 0 < f -> 0 < median ->
  l = (None, None) \/ (exists a, fst l = Some a /\ 0 < a) ->
  exists median' l', scale_distribution Rmult f (Some "lognormal"%string) (Some median, Some beta) (Some l) = Ok ((Some median', Some beta), Some l') /\
    forall u, lognormal_inverse Phi ppf (median', beta) l' u = times_result f (lognormal_inverse Phi ppf (median, beta) l u).
Proof.
  intros Phi ppf f median beta [a b] Hf Hm Hl. do 2 eexists. split; [reflexivity|]. intros u.
  exact (@lognormal_scaled Phi ppf f Hf median beta (a, b) u Hm Hl).
Qed.
Print Assumptions C21_lognormal_partial.

(** With an upper limit only, the smallest positive number is the lower limit before and after the
    scaling: the scaled variable is [f] times the variable with the lower limit [first_positive / f]. *)
Theorem C21_lognormal_upper_partial : forall Phi ppf f median beta b, 0 < f -> 0 < median ->
  exists median' l', scale_distribution Rmult f (Some "lognormal"%string) (Some median, Some beta) (Some (None, Some b)) = Ok ((Some median', Some beta), Some l') /\
    forall u, lognormal_inverse Phi ppf (median', beta) l' u =
      times_result f (lognormal_inverse Phi ppf (median, beta) (Some (first_positive / f), Some b) u).
Proof.
  intros Phi ppf f median beta b Hf Hm. do 2 eexists. split; [reflexivity|]. intros u.
  pose proof first_positive_pos as Hp. assert (Hpos : 0 < first_positive / f) by (apply Rdiv_lt_0_compat; lra).
  transitivity (lognormal_inverse Phi ppf (median * f, beta) (None, Some (b * f)) u); [reflexivity|].
  rewrite (@lognormal_implicit_lower Phi ppf (median * f, beta) None (b * f) u) by (left; reflexivity).
  rewrite <- (@lognormal_scaled Phi ppf f Hf median beta (Some (first_positive / f), Some b) u Hm) by (right; eexists; split; [reflexivity|exact Hpos]).
  unfold times_limits. cbn [fst snd option_map]. replace (first_positive / f * f) with first_positive by (field; lra). reflexivity.
Qed.
Print Assumptions C21_lognormal_upper_partial.

Lemma uniform_ppf_scaled f a b u : (0 < f)%Qc ->
  uniform_ppf (option_map (fun x => x * f)%Qc a) (option_map (fun x => x * f)%Qc b) u = option_map (fun x => x * f)%Qc (uniform_ppf a b u).
Proof.
  intros Hf. destruct a as [a|], b as [b|]; cbn; try reflexivity.
  assert (E : Qcltb (a * f) (b * f) = Qcltb a b).
  { destruct (Qcltb a b) eqn:A.
    - apply Qcltb_true in A. apply Qcltb_true. qnra.
    - apply Qcltb_false in A. apply Qcltb_false. qnra. }
  rewrite E. destruct (_ && _ && _)%bool; [|reflexivity]. cbn. f_equal. ring.
Qed.

(** Uniform variables. *)
Theorem C21_uniform : forall f a b l, (0 < f)%Qc ->
  exists a' b' l', scale_distribution Qcmult f (Some "uniform"%string) (Some a, Some b) (Some l) = Ok ((Some a', Some b'), Some l') /\
    forall u, uniform_inverse (a', b') l' u = option_map (fun x => x * f)%Qc (uniform_inverse (a, b) l u).
Proof.
  intros f a b [lo hi] Hf. do 3 eexists. split; [reflexivity|]. intros u.
  unfold uniform_inverse. destruct lo as [lo|], hi as [hi|]; cbn [uniform_bounds fst snd];
    match goal with |- _ = option_map _ (uniform_ppf ?x ?y _) => rewrite <- (@uniform_ppf_scaled f x y u Hf) end; reflexivity.
Qed.
Print Assumptions C21_uniform.

(** Deterministic variables; a missing family means deterministic. *)
Theorem C21_deterministic : forall f family value other l n, family = Some "deterministic"%string \/ family = None ->
  exists value' l', scale_distribution Qcmult f family (Some value, other) l = Ok ((Some value', None), l') /\
    deterministic_inverse [value'] n = Ok (repeat (value * f)%Qc n) /\ deterministic_inverse [value] n = Ok (repeat value n).
Proof. intros f family value other l n [-> | ->]; do 2 eexists; (split; [reflexivity|]); split; reflexivity. Qed.
Print Assumptions C21_deterministic.

(** Scaling twice is scaling by the product, for every family and with NaN parameters too. *)
Theorem C21_twice : forall (N : Type) (mul : N -> N -> N), (forall x y z, mul (mul x y) z = mul x (mul y z)) ->
  forall f g family theta l theta' l',
  scale_distribution mul f family theta l = Ok (theta', l') ->
  scale_distribution mul g family theta' l' = scale_distribution mul (mul f g) family theta l.
Proof.
  intros N mul Hmul f g family [t0 t1] l theta' l' H. unfold scale_distribution in *.
  set (fam := match family with Some s => s | None => "deterministic"%string end) in *.
  assert (K : forall x, match (match x with Some v => Some (mul v f) | None => None end) with Some v => Some (mul v g) | None => None end =
     match x with Some v => Some (mul v (mul f g)) | None => None end) by (intros [x|]; [rewrite Hmul|]; reflexivity).
  assert (KL : match (match l with Some (a, b) => Some (match a with Some v => Some (mul v f) | None => None end, match b with Some v => Some (mul v f) | None => None end) | None => None end) with
     | Some (a, b) => Some (match a with Some v => Some (mul v g) | None => None end, match b with Some v => Some (mul v g) | None => None end) | None => None end =
     match l with Some (a, b) => Some (match a with Some v => Some (mul v (mul f g)) | None => None end, match b with Some v => Some (mul v (mul f g)) | None => None end) | None => None end).
  { destruct l as [[a b]|]; [|reflexivity]. rewrite !K. reflexivity. }
  repeat match type of H with context [if ?b then _ else _] => destruct b end;
    try discriminate; injection H as <- <-; rewrite KL, ?K; reflexivity.
Qed.
Print Assumptions C21_twice.

(** Coefficients of variation and dispersions are left alone; families other than these are
    rejected. *)
Theorem C21_shape : forall (N : Type) (mul : N -> N -> N) f family theta l theta' l',
  scale_distribution mul f (Some family) theta l = Ok (theta', l') ->
  family = "normal"%string \/ family = "normal_cov"%string \/ family = "lognormal"%string -> snd theta' = snd theta.
Proof.
  intros N mul f family [t0 t1] l theta' l' H [-> | [-> | ->]]; cbn in H; injection H as <- <-; reflexivity.
Qed.
Print Assumptions C21_shape.

Theorem C21_supported : forall (N : Type) (mul : N -> N -> N) f family theta l,
  is_ok (scale_distribution mul f (Some family) theta l) = true <->
  In family ["normal"; "normal_cov"; "normal_std"; "lognormal"; "uniform"; "deterministic"; "multilinear_CDF"]%string.
Proof.
  intros N mul f family [t0 t1] l. unfold scale_distribution.
  repeat match goal with |- context [String.eqb family ?s] => destruct (String.eqb_spec family s) as [-> |] end; cbn;
    (split; [intros; try discriminate; tauto|intros]); try reflexivity.
  repeat match goal with H : _ \/ _ |- _ => destruct H end; subst; congruence || contradiction.
Qed.
Print Assumptions C21_supported.

(** The points of a multilinear CDF are not scaled: the ordinate of the first point is scaled with
    its abscissa and all other points are lost. *)
Theorem C21_multilinear_refuted : forall f theta points, multilinear_init false theta = Ok points ->
  forall i p, nth_error (scale_points f theta) (S i) = Some p -> p = (None, None).
Proof.
  intros f theta points _ i p H. destruct theta as [|q tl]; [discriminate|]. cbn in H.
  apply nth_error_In, in_map_iff in H. destruct H as (_ & <- & _). reflexivity.
Qed.
Print Assumptions C21_multilinear_refuted.

Example C21_multilinear_concrete :
  multilinear_init false [(qc 0, qc 0); (qc 1, qc (1 # 2)); (qc 2, qc 1)] = Ok [(qc 0, qc 0); (qc 1, qc (1 # 2)); (qc 2, qc 1)] /\
  scale_points (qc 2) [(qc 1, qc 0); (qc 2, qc 1)] = [(Some (qc 2), Some (qc 0)); (None, None)].
Proof. split; reflexivity. Qed.

(** Metres to centimetres; the hypotheses of the lognormal theorem are met with a lower limit. *)
Example C21_hypotheses_met :
  (exists f median l, 0 < f /\ 0 < median /\ (l = (None, None) \/ (exists a, fst l = Some a /\ 0 < a)) /\ l = (Some 1, Some 5) /\
     scale_distribution Rmult f (Some "lognormal"%string) (Some median, Some (/ 2)) (Some l) = Ok ((Some (3 * 100), Some (/ 2)), Some (Some (1 * 100), Some (5 * 100)))) /\
  scale_distribution Qcmult (qc 100) (Some "uniform"%string) (Some (qc 1), Some (qc 2)) None = Ok ((Some (qc 100), Some (qc 200)), None) /\
  scale_distribution Qcmult (qc 100) (Some "weibull"%string) (Some (qc 1), Some (qc 2)) None = Err ValueError.
Proof.
  split; [|split; reflexivity]. exists 100, 3, (Some 1, Some 5). repeat split; try lra. right. exists 1. split; [reflexivity|lra].
Qed.
