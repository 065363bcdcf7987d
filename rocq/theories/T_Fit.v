(** Property theorems about the fitting of distributions (C94-C99). *)
From Coq Require Import Reals Lra Lia.
From Verif Require Import Prelude PreludeFacts M_Dist M_Fit S_Fit P_Fit P_Root.
Local Open Scope string_scope.
Local Open Scope list_scope.
Local Open Scope R_scope.

(** ** An example *)

(** The logistic distribution in the place of the normal one. *)
Definition logistic (x : R) : R := / (1 + exp (- x)).
Definition logit (u : R) : R := ln (u / (1 - u)).
(** A minimization that never ends above its initial values, and a likelihood. *)
Definition fit_minimize (f : list R -> R) (x0 : list R) : list R := if Rlt_dec (f [7; 0]) (f x0) then [7; 0] else x0.
Definition fit_likelihood (_ : list (R * R)) (_ : matrix) (_ : list string) (_ _ : list bounds) (_ : nat) (p : list R) : R := if Req_EM_T (nth 0 p 0) 7 then 0 else 1.
Definition fit_recomposed (a : matrix) : option matrix := Some (tabulate (List.length a) (fun i j => (at_ a i j + at_ a j i) / 2)).
Definition fit_tools : tools := Tools logistic logit fit_minimize fit_likelihood (fun _ => false) fit_recomposed.
Lemma logistic_bounds x : 0 < logistic x < 1.
Proof.
  unfold logistic. pose proof (exp_pos (- x)). split; [apply Rinv_0_lt_compat; lra|]. apply Rlt_le_trans with (/ 1); [apply Rinv_lt_contravar; lra|lra].
Qed.
Lemma fit_tools_pair : inverse_pair fit_tools.
Proof.
  split; [exact logistic_bounds|]. intros x. cbn. unfold logit, logistic. pose proof (exp_pos (- x)).
  replace (/ (1 + exp (- x)) / (1 - / (1 + exp (- x)))) with (exp x); [apply ln_exp|]. rewrite exp_Ropp in *. pose proof (exp_pos x). field. lra.
Qed.
Lemma logistic_increasing x y : x < y -> logistic x < logistic y.
Proof.
  intros H. unfold logistic. pose proof (exp_pos (- x)). pose proof (exp_pos (- y)). assert (exp (- y) < exp (- x)) by (apply exp_increasing; lra).
  apply Rinv_lt_contravar; [apply Rmult_lt_0_compat; lra|lra].
Qed.
Lemma fit_tools_algebra : linear_algebra fit_tools.
Proof.
  split; [discriminate|]. split.
  - intros n a Hs Hy _ _. cbn. unfold fit_recomposed. f_equal. rewrite (proj1 Hs). etransitivity; [|symmetry; exact (@square_tabulate n a Hs)]. apply tabulate_ext. intros i j Hi Hj. rewrite (Hy i j Hi Hj). field.
  - intros n a b Hs H. cbn in H. injection H as <-. rewrite (proj1 Hs). split; [apply tabulate_square|]. intros i j Hi Hj. rewrite !tabulate_at by assumption. f_equal. ring.
Qed.
Lemma varies xs a b : In a xs -> In b xs -> a <> b -> variance xs <> 0.
Proof. intros Ha Hb N Z. apply N. now rewrite (@variance_zero xs Z a Ha), (@variance_zero xs Z b Hb). Qed.

Definition fit_raw : array (list R) := Array false false [[1; 2; 4]; [1; 2; 3]].
Definition fit_fams := ["lognormal"; "normal"].
Definition nothing : array bounds := Array false false [(XNaN, XNaN)].
Lemma fit_fits : fits 3 fit_fams (content fit_raw).
Proof.
  split; [reflexivity|]. split; [lia|]. split; [intros x [<-|[<-|[]]]; reflexivity|]. split; [intros f [<-|[<-|[]]]; cbn; auto|].
  intros [|[|[|i]]] x Hf Hx; try discriminate. injection Hx as <-. repeat constructor; lra.
Qed.
Lemma nothing_limits : no_limits nothing.
Proof. intros l [<-|[]]. reflexivity. Qed.
Lemma nothing_rows n : rows_for n nothing.
Proof. now right. Qed.
Lemma fit_has_moments i f x : nth_error fit_fams i = Some f -> nth_error (content fit_raw) i = Some x -> has_moments f x.
Proof.
  destruct i as [|[|[|i]]]; intros Hf Hx; try discriminate; injection Hf as <-; injection Hx as <-.
  - split; [|intros [H|[H|[]]]; discriminate H]. apply (@varies _ (ln 1) (ln 2)); [now left|right; now left|]. intros E. apply ln_inv in E; lra.
  - split; [apply (@varies _ 1 2); [now left|right; now left|lra]|]. intros _. unfold average. cbn [total fold_right List.length INR].
    replace ((1 + (2 + (3 + 0))) / (1 + 1 + 1)) with 2 by field. rewrite Rabs_right by lra. apply Rle_trans with (/ 1); [|lra].
    apply Rinv_le_contravar; [lra|]. apply pow_R1_Rle. lra.
Qed.

(** * C94 Without limits the parameters are the moments of the data *)

(** For samples of floating point numbers with a mean and a variance that can be represented,
    whatever the number of demands and realizations and the number of censored ones. *)
Theorem C94_moments_partial T raw fams tr count det multi m : inverse_pair T -> fits m fams (content raw) -> whole raw = false ->
  rows_for (List.length fams) tr -> rows_for (List.length fams) det -> no_limits tr -> no_limits det ->
  exists thetas rho after, fit T raw fams tr count det multi = Ok (thetas, rho, after) /\ List.length thetas = List.length fams /\
    forall i f x, nth_error fams i = Some f -> nth_error (content raw) i = Some x -> has_moments f x ->
      exists theta, nth_error thetas i = Some theta /\ moments f x theta.
Proof.
  intros HT Hfit Hw Htr Hdet Ltr Ldet. destruct (@fit_moments T raw fams tr count det multi m HT Hfit Hw Htr Hdet Ltr Ldet) as [after E].
  pose proof Hfit as (Hlen & _ & _ & Hfam & _). eexists _, _, after. split; [exact E|]. split.
  - rewrite map_length, combine_length, map_length, values_length by exact Hlen. lia.
  - intros i f x Hf Hx Hm. eexists. split; [exact (@thetas_nth fams _ i f x Hf Hx)|]. apply reported_moments; [|exact Hm]. apply Hfam. exact (nth_error_In _ _ Hf).
Qed.
Print Assumptions C94_moments_partial.
Example C94_moments_hypotheses_met : exists theta0 theta1 rho after, fit fit_tools fit_raw fit_fams nothing 0 nothing false = Ok ([theta0; theta1], rho, after) /\
  theta0 = (exp (average [ln 1; ln 2; ln 4]), Fin (deviation [ln 1; ln 2; ln 4])) /\ theta1 = (average [1; 2; 3], Fin (deviation [1; 2; 3] / Rabs (average [1; 2; 3]))).
Proof.
  destruct (@C94_moments_partial fit_tools fit_raw fit_fams nothing 0 nothing false 3 fit_tools_pair fit_fits eq_refl (nothing_rows _) (nothing_rows _) nothing_limits nothing_limits)
    as (thetas & rho & after & E & L & H). destruct thetas as [|t0 [|t1 [|t2 ts]]]; try discriminate L. exists t0, t1, rho, after. split; [exact E|].
  destruct (H 0%nat "lognormal" [1; 2; 4] eq_refl eq_refl (fit_has_moments 0 _ _ eq_refl eq_refl)) as (u & [= <-] & Hu).
  destruct (H 1%nat "normal" [1; 2; 3] eq_refl eq_refl (fit_has_moments 1 _ _ eq_refl eq_refl)) as (v & [= <-] & Hv). split; assumption.
Qed.
(** The logarithms of an array of integers lose their fractions. *)
Lemma stored_floor z x : (0 <= z)%Z -> IZR z <= x < IZR z + 1 -> store true x = IZR z.
Proof.
  intros Hz [H1 H2]. cbn. unfold M_Fit.truncated. assert (0 <= x) by (apply IZR_le in Hz; lra). destruct (Rle_dec 0 x) as [_|N]; [|lra]. f_equal.
  destruct (base_Int_part x) as [A B]. assert (Int_part x < z + 1)%Z by (apply lt_IZR; rewrite plus_IZR; lra). assert (z < Int_part x + 1)%Z by (apply lt_IZR; rewrite plus_IZR; lra). lia.
Qed.
Lemma ln_2_stored : store true (ln 2) = 0.
Proof.
  assert (H1 : 0 < ln 2) by (rewrite <- ln_1; apply ln_increasing; lra).
  assert (H2 : ln 2 < 1) by (apply exp_lt_inv; rewrite exp_ln by lra; pose proof (exp_ineq1 1); lra).
  apply (@stored_floor 0); [lia|lra].
Qed.
Theorem C94_integers_refuted T : inverse_pair T -> exists raw fams m, fits m fams (content raw) /\ whole raw = true /\
  exists theta rho after x, fit T raw fams nothing 0 nothing false = Ok ([theta], rho, after) /\ content raw = [x] /\ fams = ["lognormal"] /\
    has_moments "lognormal" x /\ fst theta = 1 /\ fst theta < exp (average (map ln x)).
Proof.
  intros HT. exists (Array true true [[1; 2]]), ["lognormal"], 2%nat. split; [|split; [reflexivity|]].
  { split; [reflexivity|]. split; [lia|]. split; [intros x [<-|[]]; reflexivity|]. split; [intros f [<-|[]]; cbn; auto|].
    intros [|[|i]] x Hf Hx; try discriminate. injection Hx as <-. repeat constructor; lra. }
  assert (El : log_row true "lognormal" [1; 2] = Ok [0; 0]).
  { unfold log_row. cbn [String.eqb Ascii.eqb Bool.eqb mapM]. destruct (Rlt_dec 0 1) as [_|N]; [|lra]. destruct (Rlt_dec 0 2) as [_|N]; [|lra]. cbn [bind].
    rewrite ln_2_stored, ln_1, (@stored_floor 0 0) by (lia || lra). reflexivity. }
  destruct (@fit_unlimited T (Array true true [[1; 2]]) ["lognormal"] nothing 0 nothing false [[0; 0]] HT eq_refl) as (rho & tr' & det' & E);
    [intros x [<-|[]]; discriminate|intros f [<-|[]]; cbn; auto|apply nothing_rows|apply nothing_rows|intros l [<-|[]]; reflexivity|intros l [<-|[]]; reflexivity
    |cbn [content whole combine mapM fst snd]; rewrite El; reflexivity|].
  do 4 eexists. split; [exact E|]. split; [reflexivity|]. split; [reflexivity|]. split; [|].
  - split; [|intros [H|[H|[]]]; discriminate H]. apply (@varies _ (ln 1) (ln 2)); [now left|right; now left|]. intros En. apply ln_inv in En; lra.
  - assert (E0 : fst (initial [0; 0]) = 0) by (rewrite (proj1 (initial_spec [0; 0])); unfold average; cbn; field).
    assert (H1 : 0 < ln 2) by (rewrite <- ln_1; apply ln_increasing; lra).
    cbn [combine map fst snd reported String.eqb Ascii.eqb Bool.eqb]. unfold reported. cbn [String.eqb Ascii.eqb Bool.eqb fst snd]. rewrite E0, exp_0. split; [reflexivity|].
    rewrite <- exp_0 at 1. apply exp_increasing. unfold average. cbn [map total fold_right List.length INR]. rewrite ln_1. lra.
Qed.
Print Assumptions C94_integers_refuted.

(** * C95 The fitted correlations *)

(** Without limits: Pearson's coefficients of the values that are supposed to be normal, in a
    correlation matrix that can be sampled from. *)
Theorem C95_sample_correlations T raw fams tr count det multi m : inverse_pair T -> linear_algebra T -> fits m fams (content raw) -> whole raw = false ->
  rows_for (List.length fams) tr -> rows_for (List.length fams) det -> no_limits tr -> no_limits det ->
  exists thetas rho after, fit T raw fams tr count det multi = Ok (thetas, rho, after) /\
    square_matrix (List.length fams) rho /\ symmetric (List.length fams) rho /\ semidefinite (List.length fams) rho /\
    (forall i, (i < List.length fams)%nat -> at_ rho i i = 1) /\
    (forall i j f x g y, i <> j -> nth_error fams i = Some f -> nth_error (content raw) i = Some x -> nth_error fams j = Some g -> nth_error (content raw) j = Some y ->
       at_ rho i j = pearson (normal_values f x) (normal_values g y)).
Proof.
  intros HT HA Hfit Hw Htr Hdet Ltr Ldet. destruct (@fit_moments T raw fams tr count det multi m HT Hfit Hw Htr Hdet Ltr Ldet) as [after E].
  pose proof Hfit as (Hlen & Hm & Hrows & Hfam & _). set (vs := values_of fams (content raw)) in *.
  assert (Lv : List.length vs = List.length fams) by (unfold vs; rewrite values_length; congruence).
  assert (Lr : forall v, In v vs -> List.length v = m) by (apply values_row_length; exact Hrows).
  destruct (Nat.eq_dec (List.length fams) 0) as [Z|Z].
  { assert (vs = []) as Ev by (destruct vs; [reflexivity|cbn in Lv; lia]). rewrite Ev in E.
    eexists _, _, after. split; [exact E|]. cbn [map]. rewrite Z.
    assert (S0 : forall k, std_correlation T k [] = Some []).
    { intros k. exact (@std_correlation_pearson T 1 [] HA ltac:(lia) ltac:(intros x [])). }
    rewrite S0. split; [split; [reflexivity|constructor]|]. split; [intros i j Hi; lia|]. split; [intros v; cbn; lra|]. split; [intros i Hi; lia|].
    intros i j f x g y _ Hf. assert (i < List.length fams)%nat by (apply nth_error_Some; congruence). lia. }
  rewrite (@first_length vs m) in E by (try exact Lr; intros Ev; rewrite Ev in Lv; cbn in Lv; congruence).
  rewrite (@std_correlation_pearson T m vs HA Hm Lr) in E. rewrite Lv in E.
  assert (Ln : forall i, (i < List.length fams)%nat -> List.length (nth i vs []) = m) by (intros i Hi; apply Lr, nth_In; lia).
  eexists _, _, after. split; [exact E|]. split; [apply correlations_square|]. split; [now apply correlations_symmetric with m|]. split; [now apply correlations_semidefinite with m|]. split.
  - intros i Hi. rewrite correlations_at by assumption. now rewrite Nat.eqb_refl.
  - intros i j f x g y N Hf Hx Hg Hy. assert (Hi : (i < List.length fams)%nat) by (apply nth_error_Some; congruence). assert (Hj : (j < List.length fams)%nat) by (apply nth_error_Some; congruence).
    rewrite correlations_at by assumption. destruct (Nat.eqb_spec i j); [contradiction|].
    rewrite (nth_error_nth vs i [] (@values_nth fams _ i f x Hf Hx)), (nth_error_nth vs j [] (@values_nth fams _ j g y Hg Hy)). reflexivity.
Qed.
Print Assumptions C95_sample_correlations.
Example C95_sample_correlations_hypotheses_met : exists thetas rho after, fit fit_tools fit_raw fit_fams nothing 0 nothing false = Ok (thetas, rho, after) /\
  at_ rho 0 1 = pearson [ln 1; ln 2; ln 4] [1; 2; 3].
Proof.
  destruct (@C95_sample_correlations fit_tools fit_raw fit_fams nothing 0 nothing false 3 fit_tools_pair fit_tools_algebra fit_fits eq_refl (nothing_rows _) (nothing_rows _) nothing_limits nothing_limits)
    as (thetas & rho & after & E & _ & _ & _ & _ & H). exists thetas, rho, after. split; [exact E|]. exact (H 0%nat 1%nat _ _ _ _ ltac:(discriminate) eq_refl eq_refl eq_refl eq_refl).
Qed.
(** With any limits: a symmetric matrix of coefficients between -1 and 1. Missing: that the matrix
    is semidefinite with a unit diagonal if it had to be replaced and rescaled, which is false (below). *)
Theorem C95_coefficients_partial T raw fams tr count det multi thetas rho after : linear_algebra T -> fit T raw fams tr count det multi = Ok (thetas, rho, after) ->
  let n := List.length (content raw) in square_matrix n rho /\ symmetric n rho /\ forall i j, (i < n)%nat -> (j < n)%nat -> -1 <= at_ rho i j <= 1.
Proof. intros HA H. exact (@fit_valid T raw fams tr count det multi thetas rho after HA H). Qed.
Print Assumptions C95_coefficients_partial.

(** With detection limits the matrix need not be one of correlations. Three equal demands with a
    reported deviation slightly smaller than the one of the values around the reported mean: unless
    they are taken as uncorrelated, the diagonal is less than one and the matrix is not semidefinite,
    for every correct decomposition. *)
Theorem C95_limits_refuted T raw tr count det multi xs thetas rho after mu sig w : inverse_pair T ->
  (forall n a v, square_matrix n a -> decomposes T a = true -> (exists i, (i < n)%nat /\ v i <> 0) -> 0 < quadratic n a v) ->
  (forall n a b, square_matrix n a -> recomposed T a = Some b -> root n a b) ->
  content raw = [xs; xs; xs] -> no_limits tr ->
  fit T raw ["normal_std"; "normal_std"; "normal_std"] tr count det multi = Ok (thetas, rho, after) -> thetas = repeat (mu, Fin sig) 3 ->
  average (map (fun x => (x - mu) / sig * ((x - mu) / sig)) xs) = w -> 1 < w <= 103 / 100 ->
  (forall i j, (i < 3)%nat -> (j < 3)%nat -> at_ rho i j = if Nat.eq_dec i j then 1 else 0) \/
  at_ rho 0 1 = 1 /\ at_ rho 0 2 = 1 /\ at_ rho 1 2 = 1 /\ (forall i, (i < 3)%nat -> at_ rho i i < 1) /\ ~ semidefinite 3 rho.
Proof.
  intros HT HD HR Hraw Htr H Eth Hw Bw. unfold fit in H. rewrite Hraw in H. cbn [List.length] in H.
  destruct (negb _) eqn:El; [discriminate|]. apply negb_false_iff in El. apply andb_true_iff in El as [El Edet]. apply andb_true_iff in El as [_ Etr]. apply Nat.eqb_eq in Etr.
  destruct (existsb _ [xs; xs; xs]); [discriminate|]. rewrite tile_whole in H. cbn [combine mapM] in H. unfold log_row at 1 2 3 in H. cbn [fst snd String.eqb Ascii.eqb Bool.eqb bind] in H.
  match type of H with bind ?x _ = _ => destruct x as [ths|] eqn:Ep end; [|discriminate]. cbn [bind] in H.
  assert (Ht : forall l, In l (content (tile 3 tr)) -> l = (XNaN, XNaN)) by (intros l Hl; apply tile_In in Hl; now apply Htr).
  destruct (content (tile 3 tr)) as [|l1 [|l2 [|l3 [|l4 ls]]]]; try discriminate Etr.
  rewrite (Ht l1 (or_introl eq_refl)), (Ht l2 (or_intror (or_introl eq_refl))), (Ht l3 (or_intror (or_intror (or_introl eq_refl)))) in H.
  match type of H with bind ?x _ = _ => destruct x as [z|] eqn:Ez end; [|discriminate]. cbn [bind] in H. injection H as E1 E2 _.
  rewrite Eth in E1. destruct ths as [|[m1 s1] [|[m2 s2] [|[m3 s3] ths]]]; try discriminate E1.
  cbn [combine map repeat fst snd] in E1.
  change (reported "normal_std" (m1, s1)) with (m1, Fin s1) in E1. change (reported "normal_std" (m2, s2)) with (m2, Fin s2) in E1. change (reported "normal_std" (m3, s3)) with (m3, Fin s3) in E1.
  injection E1 as -> -> -> -> -> ->. cbn [combine map fst snd mapM] in Ez.
  change (log_limits (whole tr) "normal_std" (XNaN, XNaN)) with (XNaN, XNaN) in Ez.
  destruct (std_row T "normal_std" (XNaN, XNaN) (mu, sig) xs) as [y|] eqn:Ey; [|discriminate Ez]. cbn [bind] in Ez. injection Ez as <-.
  apply std_row_free in Ey; [|exact HT]. pose proof (@product_map (fun x => (x - mu) / sig) xs) as Hz. rewrite <- Ey, Hw in Hz.
  assert (He : 0 < w - 1 <= 3 / 100) by lra. replace w with (1 + (w - 1)) in Hz by ring. set (e := w - 1) in *. rewrite <- E2.
  assert (Q : square_matrix 3 (equals3 1 (1 + e))) by (split; [reflexivity|repeat constructor]).
  destruct (decomposes T (equals3 1 (1 + e))) eqn:Dec.
  { pose proof (HD 3%nat _ (vec3 1 (-1) 0) Q Dec (ex_intro _ 0%nat (conj (Nat.lt_0_succ 2) R1_neq_R0))) as P. pose proof (@not_definite e ltac:(lra)). lra. }
  destruct (recomposed T (equals3 1 (1 + e))) as [b|] eqn:Rec.
  - right. rewrite (@std_correlation_equal T _ _ e b He Hz Dec Rec (HR 3%nat _ b Q Rec)).
    assert (L : 1 / (1 + e / 3) < 1) by (apply Rmult_lt_reg_r with (1 + e / 3); [lra|]; replace (1 / (1 + e / 3) * (1 + e / 3)) with 1 by (field; lra); lra).
    split; [reflexivity|]. split; [reflexivity|]. split; [reflexivity|]. split; [intros [|[|[|i]]] Hi; try lia; exact L|].
    intros S. pose proof (S (vec3 1 (-1) 0)) as P. rewrite quadratic_3 in P. cbn in P. cbn in L. lra.
  - left. unfold std_correlation. rewrite (@raw_equal _ _ _ Hz), Dec, Rec. intros i j Hi Hj. unfold uncorrelated. rewrite tabulate_at by assumption.
    destruct (Nat.eq_dec i j) as [->|N]; [now rewrite Nat.eqb_refl|]. apply Nat.eqb_neq in N. now rewrite N.
Qed.
Print Assumptions C95_limits_refuted.
(** Deviation 1 of the values, 100/101 reported. *)
Definition root_tools : tools :=
  Tools logistic logit (fun _ _ => [0; - (1 / 101)]) fit_likelihood (fun _ => false)
        (fun a => if list_eq_dec (list_eq_dec Req_EM_T) a (equals3 1 (1 + 201 / 10000)) then Some (equals3 (1 + 4 * (201 / 10000) / 3) (1 + 201 / 10000 / 3)) else None).
Example C95_limits_refuted_hypotheses_met : let raw := Array false false [[-1; 1; -1; 1]; [-1; 1; -1; 1]; [-1; 1; -1; 1]] in
  exists thetas rho after, fit root_tools raw ["normal_std"; "normal_std"; "normal_std"] nothing 0 (Array false false [(XNaN, Fin 10)]) false = Ok (thetas, rho, after) /\
    thetas = repeat (0, Fin (100 / 101)) 3 /\ average (map (fun x => (x - 0) / (100 / 101) * ((x - 0) / (100 / 101))) [-1; 1; -1; 1]) = 10201 / 10000 /\
    at_ rho 0 1 = 1 /\ at_ rho 0 0 < 1 /\ ~ semidefinite 3 rho.
Proof.
  intros raw.
  assert (HR : forall n a b, square_matrix n a -> recomposed root_tools a = Some b -> root n a b).
  { intros n a b Q H. cbn [root_tools recomposed] in H. destruct (list_eq_dec _ a _) as [->|]; [|discriminate]. injection H as <-. destruct Q as [L _]. cbn in L. subst n. apply equals_root. lra. }
  assert (Hi : initial [-1; 1; -1; 1] = (0, 1)).
  { unfold initial. assert (M : np_mean [-1; 1; -1; 1] = 0) by (unfold np_mean; cbn; field). unfold np_std. rewrite M. cbn [List.length Nat.eqb map].
    replace (np_mean _) with 1 by (unfold np_mean; cbn; field). rewrite sqrt_1. destruct (Req_EM_T 1 0); [lra|reflexivity]. }
  assert (Hw : average (map (fun x => (x - 0) / (100 / 101) * ((x - 0) / (100 / 101))) [-1; 1; -1; 1]) = 10201 / 10000) by (unfold average; cbn; field).
  assert (Hz : std_row root_tools "normal_std" (XNaN, XNaN) (0, 100 / 101) [-1; 1; -1; 1] = Ok (map (fun x => (x - 0) / (100 / 101)) [-1; 1; -1; 1])).
  { destruct (@std_row_limited root_tools "normal_std" (XNaN, XNaN) (0, 100 / 101) [-1; 1; -1; 1] fit_tools_pair logistic_increasing) as [z Ez];
      [cbn; lra|cbn; auto|intros; split; exact I|]. rewrite Ez. f_equal. exact (@std_row_free root_tools _ _ _ _ _ fit_tools_pair Ez). }
  pose proof (eq_trans (@product_map (fun x => (x - 0) / (100 / 101)) [-1; 1; -1; 1]) Hw) as Hp. replace (10201 / 10000) with (1 + 201 / 10000) in Hp by field.
  assert (Hm : forall d, fit_marginal root_tools 3 d ("normal_std", [-1; 1; -1; 1], ((XNaN, XNaN), (XNaN, Fin 10)), (0, 1)) = Ok (0, 100 / 101)).
  { intros d. unfold fit_marginal. change (supported "normal_std") with true. cbn [root_tools minimize pair_at nth Nat.mul Nat.add get_theta]. unfold get_theta.
    change (String.eqb "normal_std" "lognormal") with false. change (mem "normal_std" ["normal"; "normal_std"]) with true. unfold pair_at. cbn [fst snd nth Nat.mul Nat.add]. f_equal. apply f_equal2; field. }
  assert (E : exists after, fit root_tools raw ["normal_std"; "normal_std"; "normal_std"] nothing 0 (Array false false [(XNaN, Fin 10)]) false
              = Ok (repeat (0, Fin (100 / 101)) 3, equals3 (1 / (1 + 201 / 10000 / 3)) 1, after)).
  { assert (Pa : parameters root_tools ["normal_std"; "normal_std"; "normal_std"] [[-1; 1; -1; 1]; [-1; 1; -1; 1]; [-1; 1; -1; 1]] [(XNaN, XNaN); (XNaN, XNaN); (XNaN, XNaN)]
                   [(XNaN, Fin 10); (XNaN, Fin 10); (XNaN, Fin 10)] 0 false = Ok [(0, 100 / 101); (0, 100 / 101); (0, 100 / 101)]).
    { unfold parameters. cbn [List.length map Nat.ltb Nat.leb]. rewrite Hi. cbn [some_given existsb given orb negb combine seq mapM fst snd]. now rewrite !Hm. }
    eexists. unfold fit, raw, nothing. cbn [content tile List.length Nat.eqb repeat existsb andb negb whole shared]. cbn [combine mapM fst snd map]. unfold log_row, log_limits.
    change (String.eqb "normal_std" "lognormal") with false. cbv iota. cbn [bind]. rewrite Pa. cbn [bind combine mapM fst snd]. rewrite Hz. cbn [bind].
    rewrite (@std_correlation_equal root_tools _ _ (201 / 10000) (equals3 (1 + 4 * (201 / 10000) / 3) (1 + 201 / 10000 / 3)) ltac:(lra) Hp eq_refl).
    - reflexivity.
    - cbn [root_tools recomposed]. destruct (list_eq_dec _ _ _); [reflexivity|contradiction].
    - apply equals_root. lra. }
  destruct E as [after E]. eexists _, _, after. split; [exact E|]. split; [reflexivity|]. split; [exact Hw|].
  destruct (@C95_limits_refuted root_tools raw nothing 0 _ false [-1; 1; -1; 1] _ _ _ 0 (100 / 101) (10201 / 10000) fit_tools_pair ltac:(discriminate) HR eq_refl nothing_limits E eq_refl Hw ltac:(lra))
    as [L|(H1 & _ & _ & H2 & H3)].
  - specialize (L 0%nat 1%nat ltac:(lia) ltac:(lia)). cbn in L. lra.
  - split; [exact H1|]. split; [apply H2; lia|exact H3].
Qed.

(** When no matrix can be decomposed or replaced, the demands are taken as uncorrelated. *)
Theorem C95_fallback_partial T raw fams tr count det multi thetas rho after :
  (forall m, decomposes T m = false) -> (forall m, recomposed T m = None) ->
  fit T raw fams tr count det multi = Ok (thetas, rho, after) ->
  let n := List.length (content raw) in
  square_matrix n rho /\ forall i j, (i < n)%nat -> (j < n)%nat -> at_ rho i j = if Nat.eq_dec i j then 1 else 0.
Proof.
  intros HD HR H n. unfold fit in H. destruct (negb _); [discriminate|]. destruct (existsb _ (content raw)); [discriminate|].
  match type of H with bind ?x _ = _ => destruct x as [xs|] eqn:Ex end; [|discriminate]. cbn [bind] in H.
  match type of H with bind ?x _ = _ => destruct x as [ths|] eqn:Eth end; [|discriminate]. cbn [bind] in H.
  match type of H with bind ?x _ = _ => destruct x as [z|] eqn:Ez end; [|discriminate]. cbn [bind] in H. injection H as _ <- _.
  unfold std_correlation. rewrite HD, HR. unfold uncorrelated. split; [apply tabulate_square|].
  intros i j Hi Hj. rewrite tabulate_at by assumption. destruct (Nat.eq_dec i j) as [->|N]; [now rewrite Nat.eqb_refl|].
  apply Nat.eqb_neq in N. now rewrite N.
Qed.
Print Assumptions C95_fallback_partial.
Example C95_fallback_hypotheses_met : exists thetas rho after,
  fit (Tools logistic logit fit_minimize fit_likelihood (fun _ => false) (fun _ => None)) fit_raw fit_fams nothing 0 nothing false
  = Ok (thetas, rho, after).
Proof.
  destruct (@C94_moments_partial (Tools logistic logit fit_minimize fit_likelihood (fun _ => false) (fun _ => None)) fit_raw fit_fams nothing 0 nothing false 3
     fit_tools_pair fit_fits eq_refl (nothing_rows _) (nothing_rows _) nothing_limits nothing_limits) as (thetas & rho & after & E & _).
  now exists thetas, rho, after.
Qed.

(** * C96 The fit does not depend on the units *)

Theorem C96_units_partial T raw raw' fams tr count det multi m cs : inverse_pair T -> fits m fams (content raw) -> whole raw = false -> whole raw' = false ->
  rows_for (List.length fams) tr -> rows_for (List.length fams) det -> no_limits tr -> no_limits det ->
  List.length cs = List.length fams -> Forall (fun c => 0 < c) cs -> content raw' = map (fun cx => scaled (fst cx) (snd cx)) (combine cs (content raw)) ->
  exists thetas rho after thetas' after',
    fit T raw fams tr count det multi = Ok (thetas, rho, after) /\ fit T raw' fams tr count det multi = Ok (thetas', rho, after') /\
    forall i f x c, nth_error fams i = Some f -> nth_error (content raw) i = Some x -> nth_error cs i = Some c -> has_moments f x -> has_moments f (scaled c x) ->
      exists theta, nth_error thetas i = Some theta /\ nth_error thetas' i = Some (in_units c f theta).
Proof.
  intros HT Hfit Hw Hw' Htr Hdet Ltr Ldet Hcs Hc Hraw. pose proof Hfit as (Hlen & Hm & Hrows & Hfam & Hpos).
  assert (Hnth : forall i x c, nth_error (content raw) i = Some x -> nth_error cs i = Some c -> nth_error (content raw') i = Some (scaled c x)).
  { intros i x c Hx Hci. rewrite Hraw. exact (map_nth_error (fun cx => scaled (fst cx) (snd cx)) _ _ (@nth_error_pair _ _ cs (content raw) i c x Hci Hx)). }
  assert (Hlen' : List.length fams = List.length (content raw')) by (rewrite Hraw, map_length, combine_length; lia).
  assert (Hback : forall i x', nth_error (content raw') i = Some x' -> exists c x, nth_error cs i = Some c /\ 0 < c /\ nth_error (content raw) i = Some x /\ x' = scaled c x).
  { intros i x' Hx'. assert (Hi : (i < List.length fams)%nat) by (rewrite Hlen'; apply nth_error_Some; congruence).
    destruct (@nth_error_of_length _ cs i) as [c Hci]; [lia|]. destruct (@nth_error_of_length _ (content raw) i) as [x Hx]; [lia|]. exists c, x. split; [exact Hci|].
    split; [rewrite Forall_forall in Hc; apply Hc; exact (nth_error_In _ _ Hci)|]. split; [exact Hx|]. rewrite (Hnth i x c Hx Hci) in Hx'. congruence. }
  assert (Hfit' : fits m fams (content raw')).
  { split; [exact Hlen'|]. split; [exact Hm|]. split; [|split; [exact Hfam|]].
    - intros x' Hx'. apply In_nth_error in Hx' as [i Hi]. destruct (Hback i x' Hi) as (c & x & _ & _ & Hx & ->). unfold scaled. rewrite map_length. apply Hrows. exact (nth_error_In _ _ Hx).
    - intros i x' Hf Hx'. destruct (Hback i x' Hx') as (c & x & _ & Pc & Hx & ->). specialize (Hpos i x Hf Hx). unfold scaled. rewrite Forall_map. apply (Forall_impl _ (P := fun v => 0 < v)); [|exact Hpos].
      intros v Hv. now apply Rmult_lt_0_compat. }
  destruct (@fit_moments T raw fams tr count det multi m HT Hfit Hw Htr Hdet Ltr Ldet) as [after E].
  destruct (@fit_moments T raw' fams tr count det multi m HT Hfit' Hw' Htr Hdet Ltr Ldet) as [after' E'].
  assert (Ez : map standard (values_of fams (content raw')) = map standard (values_of fams (content raw))).
  { unfold values_of. rewrite !map_map, Hraw. clear - Hc Hpos Hlen Hcs. revert fams cs Hlen Hcs Hc Hpos. induction (content raw) as [|x xs IH]; intros [|f fams] [|c cs] Hl Hl' Hc Hpos; try discriminate; [reflexivity|].
    cbn [combine map fst snd]. inversion Hc as [|c' cs' Pc Pcs]; subst. f_equal.
    - apply standard_normal_values; [exact Pc|]. intros ->. exact (Hpos 0%nat x eq_refl eq_refl).
    - apply IH; [now injection Hl|now injection Hl'|exact Pcs|]. intros i y Hf Hy. exact (Hpos (S i) y Hf Hy). }
  assert (El : match values_of fams (content raw') with x :: _ => List.length x | [] => 0%nat end = match values_of fams (content raw) with x :: _ => List.length x | [] => 0%nat end).
  { apply (f_equal (map (@List.length R))) in Ez. rewrite !map_map in Ez.
    destruct (values_of fams (content raw')) as [|a as_], (values_of fams (content raw)) as [|b bs]; try discriminate; [reflexivity|]. cbn in Ez. rewrite !standard_length in Ez. now injection Ez. }
  rewrite Ez, El in E'. eexists _, _, after, _, after'. split; [exact E|]. split; [exact E'|].
  intros i f x c Hf Hx Hci M M'. eexists. split; [exact (@thetas_nth fams _ i f x Hf Hx)|].
  rewrite (@thetas_nth fams _ i f (scaled c x) Hf (Hnth i x c Hx Hci)). f_equal.
  assert (Pc : 0 < c) by (rewrite Forall_forall in Hc; apply Hc; exact (nth_error_In _ _ Hci)).
  assert (Ff : In f families) by (apply Hfam; exact (nth_error_In _ _ Hf)).
  apply (@moments_scaled f c x); [exact Pc|exact Ff| | |now apply reported_moments|now apply reported_moments].
  - intros ->. specialize (Hrows [] (nth_error_In _ _ Hx)). cbn in Hrows. lia.
  - intros ->. exact (Hpos i x Hf Hx).
Qed.
Print Assumptions C96_units_partial.
Example C96_units_hypotheses_met : exists m0 s0 m1 s1 rho after after',
  fit fit_tools fit_raw fit_fams nothing 0 nothing false = Ok ([(m0, s0); (m1, s1)], rho, after) /\
  fit fit_tools (Array false false [[2 * 1; 2 * 2; 2 * 4]; [3 * 1; 3 * 2; 3 * 3]]) fit_fams nothing 0 nothing false = Ok ([(2 * m0, s0); (3 * m1, s1)], rho, after').
Proof.
  destruct (@C96_units_partial fit_tools fit_raw (Array false false [[2 * 1; 2 * 2; 2 * 4]; [3 * 1; 3 * 2; 3 * 3]]) fit_fams nothing 0 nothing false 3 [2; 3]
    fit_tools_pair fit_fits eq_refl eq_refl (nothing_rows _) (nothing_rows _) nothing_limits nothing_limits eq_refl ltac:(repeat constructor; lra) eq_refl)
    as (ts & rho & after & ts' & after' & E & E' & H).
  assert (M : forall i f x, nth_error fit_fams i = Some f -> nth_error (content fit_raw) i = Some x -> has_moments f x) by exact fit_has_moments.
  assert (M0 : has_moments "lognormal" (scaled 2 [1; 2; 4])).
  { split; [|intros [X|[X|[]]]; discriminate X]. apply (@varies _ (ln (2 * 1)) (ln (2 * 2))); [now left|right; now left|]. intros En. apply ln_inv in En; lra. }
  assert (M1 : has_moments "normal" (scaled 3 [1; 2; 3])).
  { split; [apply (@varies _ (3 * 1) (3 * 2)); [now left|right; now left|lra]|]. intros _. rewrite average_scaled. unfold average. cbn [total fold_right List.length INR].
    replace (3 * ((1 + (2 + (3 + 0))) / (1 + 1 + 1))) with 6 by field. rewrite Rabs_right by lra. apply Rle_trans with (/ 1); [|lra]. apply Rinv_le_contravar; [lra|]. apply pow_R1_Rle. lra. }
  destruct (H 0%nat "lognormal" [1; 2; 4] 2 eq_refl eq_refl eq_refl (M 0%nat _ _ eq_refl eq_refl) M0) as ([a0 b0] & A & A').
  destruct (H 1%nat "normal" [1; 2; 3] 3 eq_refl eq_refl eq_refl (M 1%nat _ _ eq_refl eq_refl) M1) as ([a1 b1] & B & B').
  assert (L : List.length ts = 2%nat /\ List.length ts' = 2%nat).
  { split; [destruct (@fit_inv _ _ _ _ _ _ _ _ _ _ E eq_refl) as (? & ths & ? & Hi)|destruct (@fit_inv _ _ _ _ _ _ _ _ _ _ E' eq_refl) as (? & ths & ? & Hi)];
      cbv zeta in Hi; destruct Hi as (_ & _ & _ & -> & _ & _ & _ & _ & L & _); rewrite map_length, combine_length; cbn in L |- *; rewrite L; reflexivity. }
  destruct L as [L L']. destruct ts as [|t0 [|t1 [|]]]; try discriminate L. destruct ts' as [|t0' [|t1' [|]]]; try discriminate L'.
  cbn in A, A', B, B'. injection A as ->. injection B as ->. injection A' as ->. injection B' as ->. exists a0, b0, a1, b1, rho, after, after'. split; [exact E|exact E'].
Qed.

(** * C97 The arguments of a fit are left as they are *)

Lemma afterwards_same {A} n (a : array A) now : shared a = false \/ (now = content (tile n a)) -> afterwards a (tile n a) now = a.
Proof.
  intros H. unfold afterwards. destruct (shared a) eqn:Es; [|reflexivity]. destruct H as [H|H]; [discriminate H|]. subst now. unfold tile. destruct a as [sh w c]. cbn in Es. subst sh. cbn.
  destruct c as [|x [|y c]]; cbn; try reflexivity. destruct (n =? 1)%nat; reflexivity.
Qed.
Lemma afterwards_tiled {A} n (a : array A) now : List.length (content a) = 1%nat -> n <> 1%nat -> afterwards a (tile n a) now = a.
Proof.
  intros H N. unfold afterwards, tile. destruct (content a) as [|x [|y c]]; try discriminate H. destruct (Nat.eqb_spec n 1); [contradiction|]. cbn. now rewrite andb_false_r.
Qed.
Lemma logged_same w fams ls : ~ In "lognormal" fams -> List.length fams = List.length ls -> map (fun fl => log_limits w (fst fl) (snd fl)) (combine fams ls) = ls.
Proof.
  revert fams. induction ls as [|l ls IH]; intros [|f fams] N E; try discriminate E; [reflexivity|]. cbn [combine map fst snd]. f_equal.
  - unfold log_limits. destruct (String.eqb_spec f "lognormal") as [->|]; [destruct N; now left|reflexivity].
  - apply IH; [intros H; apply N; now right|now injection E].
Qed.
(** Data in lists, or without lognormal demands; a single row of limits for several demands. *)
Theorem C97_arguments_partial T raw fams tr count det multi thetas rho raw' tr' det' :
  List.length fams = List.length (content raw) -> fit T raw fams tr count det multi = Ok (thetas, rho, (raw', tr', det')) ->
  (shared raw = false \/ ~ In "lognormal" fams -> raw' = raw) /\
  (shared tr = false \/ ~ In "lognormal" fams \/ (List.length (content tr) = 1 /\ List.length fams <> 1)%nat -> tr' = tr) /\
  (shared det = false \/ ~ In "lognormal" fams \/ (List.length (content det) = 1 /\ List.length fams <> 1)%nat -> det' = det).
Proof.
  intros Hlen H. destruct (@fit_inv _ _ _ _ _ _ _ _ _ _ H Hlen) as (xs & ths & z & Hi). cbv zeta in Hi. destruct Hi as (Ex & _ & _ & _ & Ea & _ & _ & _ & _ & Ltr & Ldet).
  injection Ea as -> -> ->. rewrite <- Hlen in *. split; [|split].
  - intros [Hs|N]; [unfold afterwards; now rewrite Hs|]. unfold afterwards. destruct (shared raw && shared raw); [|reflexivity].
    assert (xs = content raw) as -> by (clear - Ex N Hlen; revert fams xs Ex N Hlen; induction (content raw) as [|y ys IH]; intros [|f fams] xs Ex N Hlen; try discriminate; [now injection Ex as <-|];
      cbn [combine mapM fst snd] in Ex; unfold log_row in Ex at 1; destruct (String.eqb_spec f "lognormal") as [->|]; [destruct N; now left|]; cbn [bind] in Ex;
      match type of Ex with bind ?x _ = _ => destruct x as [t|] eqn:E end; [|discriminate]; cbn [bind] in Ex; injection Ex as <-; f_equal; apply (IH fams); [exact E|intros X; apply N; now right|now injection Hlen]).
    now destruct raw.
  - intros [Hs|[N|[H1 Hn]]]; [apply afterwards_same; now left|apply afterwards_same; right; apply logged_same; [exact N|congruence]|exact (@afterwards_tiled _ _ _ _ H1 Hn)].
  - intros [Hs|[N|[H1 Hn]]]; [apply afterwards_same; now left|apply afterwards_same; right; apply logged_same; [exact N|congruence]|exact (@afterwards_tiled _ _ _ _ H1 Hn)].
Qed.
Print Assumptions C97_arguments_partial.
Example C97_arguments_concrete : exists thetas rho, fit fit_tools fit_raw fit_fams nothing 0 nothing false = Ok (thetas, rho, (fit_raw, nothing, nothing)).
Proof.
  destruct (@C94_moments_partial fit_tools fit_raw fit_fams nothing 0 nothing false 3 fit_tools_pair fit_fits eq_refl (nothing_rows _) (nothing_rows _) nothing_limits nothing_limits)
    as (thetas & rho & [[raw' tr'] det'] & E & _ & _).
  destruct (@C97_arguments_partial fit_tools fit_raw fit_fams _ _ _ _ _ _ _ _ _ eq_refl E) as (A & B & C). pose proof (A (or_introl eq_refl)) as ->. pose proof (B (or_introl eq_refl)) as ->. pose proof (C (or_introl eq_refl)) as ->. now exists thetas, rho.
Qed.
(** An array with a lognormal demand is overwritten by its logarithms, and the same call made again
    gives another distribution. *)
Theorem C97_overwritten_refuted T : inverse_pair T -> exists raw fams m, fits m fams (content raw) /\ shared raw = true /\ whole raw = false /\
  exists thetas rho raw' tr' det', fit T raw fams nothing 0 nothing false = Ok (thetas, rho, (raw', tr', det')) /\
    raw' <> raw /\ fits m fams (content raw') /\
    exists thetas' rho' after', fit T raw' fams nothing 0 nothing false = Ok (thetas', rho', after') /\ thetas' <> thetas.
Proof.
  intros HT. exists (Array true false [[exp 1; exp 3]]), ["lognormal"], 2%nat.
  assert (F : forall a b, 0 < a -> 0 < b -> fits 2 ["lognormal"] [[a; b]]).
  { intros a b Pa Pb. split; [reflexivity|]. split; [lia|]. split; [intros x [<-|[]]; reflexivity|]. split; [intros f [<-|[]]; cbn; auto|].
    intros [|[|i]] x Hf Hx; try discriminate. injection Hx as <-. repeat constructor; assumption. }
  assert (G : forall a b, 0 < a -> 0 < b -> exists rho tr' det', fit T (Array true false [[a; b]]) ["lognormal"] nothing 0 nothing false =
    Ok ([reported "lognormal" (initial [ln a; ln b])], rho, (Array true false [[ln a; ln b]], tr', det'))).
  { intros a b Pa Pb. destruct (@fit_unlimited T (Array true false [[a; b]]) ["lognormal"] nothing 0 nothing false [[ln a; ln b]] HT eq_refl) as (rho & tr' & det' & E);
      [intros x [<-|[]]; discriminate|intros f [<-|[]]; cbn; auto|apply nothing_rows|apply nothing_rows|intros l [<-|[]]; reflexivity|intros l [<-|[]]; reflexivity
      |exact (@logged_samples 2 ["lognormal"] [[a; b]] (F a b Pa Pb))|]. exists rho, tr', det'. exact E. }
  assert (I0 : forall a b, fst (initial [a; b]) = (a + b) / 2) by (intros a b; rewrite (proj1 (initial_spec [a; b])); unfold average; cbn; field).
  destruct (G (exp 1) (exp 3) (exp_pos 1) (exp_pos 3)) as (rho & tr' & det' & E). destruct (G 1 3 ltac:(lra) ltac:(lra)) as (rho2 & tr2 & det2 & E2).
  rewrite !ln_exp in E. split; [apply F; apply exp_pos|]. split; [reflexivity|]. split; [reflexivity|]. exists [reported "lognormal" (initial [1; 3])], rho, (Array true false [[1; 3]]), tr', det'.
  split; [exact E|]. split; [|split; [apply F; lra|]].
  - intros H. injection H as H _. pose proof (exp_ineq1 1). lra.
  - do 3 eexists. split; [exact E2|]. unfold reported. cbn [String.eqb Ascii.eqb Bool.eqb fst snd]. rewrite !I0. intros H. injection H as H _. apply exp_inv in H. rewrite ln_1 in H.
    assert (ln 3 < 2) by (apply exp_lt_inv; rewrite exp_ln by lra; pose proof (exp_ineq1 2); lra). lra.
Qed.
Print Assumptions C97_overwritten_refuted.

(** * C98 The distribution of a demand depends on that demand only *)

(** Without limits, whatever the other demands, the order, and their number. *)
Theorem C98_alone_partial T raw fams tr count det multi m raw' fams' tr' count' det' multi' m' i j f x thetas rho after thetas' rho' after' : inverse_pair T ->
  fits m fams (content raw) -> whole raw = false -> rows_for (List.length fams) tr -> rows_for (List.length fams) det -> no_limits tr -> no_limits det ->
  fits m' fams' (content raw') -> whole raw' = false -> rows_for (List.length fams') tr' -> rows_for (List.length fams') det' -> no_limits tr' -> no_limits det' ->
  nth_error fams i = Some f -> nth_error (content raw) i = Some x -> nth_error fams' j = Some f -> nth_error (content raw') j = Some x ->
  fit T raw fams tr count det multi = Ok (thetas, rho, after) -> fit T raw' fams' tr' count' det' multi' = Ok (thetas', rho', after') ->
  nth_error thetas i = nth_error thetas' j /\ nth_error thetas i <> None.
Proof.
  intros HT H1 H2 H3 H4 H5 H6 G1 G2 G3 G4 G5 G6 Hf Hx Hf' Hx' E E'.
  destruct (@fit_moments T raw fams tr count det multi m HT H1 H2 H3 H4 H5 H6) as [a Ea]. destruct (@fit_moments T raw' fams' tr' count' det' multi' m' HT G1 G2 G3 G4 G5 G6) as [b Eb].
  rewrite Ea in E. rewrite Eb in E'. injection E as <- <- <-. injection E' as <- <- <-. rewrite (@thetas_nth fams _ i f x Hf Hx), (@thetas_nth fams' _ j f x Hf' Hx'). split; [reflexivity|discriminate].
Qed.
Print Assumptions C98_alone_partial.
Example C98_alone_hypotheses_met : exists theta rho after thetas' rho' after',
  fit fit_tools (Array false false [[1; 2; 3]]) ["normal"] nothing 0 nothing false = Ok ([theta], rho, after) /\
  fit fit_tools fit_raw fit_fams nothing 0 nothing false = Ok (thetas', rho', after') /\ nth_error thetas' 1 = Some theta.
Proof.
  assert (F : fits 3 ["normal"] [[1; 2; 3]]).
  { split; [reflexivity|]. split; [lia|]. split; [intros x [<-|[]]; reflexivity|]. split; [intros f [<-|[]]; cbn; auto|]. intros [|[|i]] x Hf Hx; discriminate. }
  destruct (@C94_moments_partial fit_tools (Array false false [[1; 2; 3]]) ["normal"] nothing 0 nothing false 3 fit_tools_pair F eq_refl (nothing_rows _) (nothing_rows _) nothing_limits nothing_limits)
    as (ts & rho & after & E & L & _).
  destruct (@C94_moments_partial fit_tools fit_raw fit_fams nothing 0 nothing false 3 fit_tools_pair fit_fits eq_refl (nothing_rows _) (nothing_rows _) nothing_limits nothing_limits)
    as (ts' & rho' & after' & E' & _ & _).
  destruct ts as [|t [|]]; try discriminate L. exists t, rho, after, ts', rho', after'. split; [exact E|]. split; [exact E'|].
  destruct (@C98_alone_partial fit_tools (Array false false [[1; 2; 3]]) ["normal"] nothing 0 nothing false 3 fit_raw fit_fams nothing 0 nothing false 3 0 1 "normal" [1; 2; 3] _ _ _ _ _ _ fit_tools_pair F eq_refl (nothing_rows _) (nothing_rows _) nothing_limits nothing_limits
    fit_fits eq_refl (nothing_rows _) (nothing_rows _) nothing_limits nothing_limits eq_refl eq_refl eq_refl eq_refl E E') as [A _]. symmetry. exact A.
Qed.
Lemma one_marginal T raw fams tr det thetas rho after i f x t d :
  limited t \/ limited d -> (f = "lognormal" -> nonnegative_limit (fst t) /\ nonnegative_limit (snd t) /\ nonnegative_limit (fst d) /\ nonnegative_limit (snd d)) ->
  fit T raw fams tr 0 det false = Ok (thetas, rho, after) -> List.length fams = List.length (content raw) ->
  (forall v, In v (content raw) -> 3 <= List.length v)%nat -> nth_error fams i = Some f -> nth_error (content raw) i = Some x ->
  limit_of (List.length fams) tr i = Some t -> limit_of (List.length fams) det i = Some d ->
  exists y th, log_row (whole raw) f x = Ok y /\
    fit_marginal T (S i) i (f, y, (log_limits (whole tr) f t, log_limits (whole det) f d), initial y) = Ok th /\ nth_error thetas i = Some (reported f th).
Proof.
  intros Hlim Hlog H Hlen H3 Hf Hx Ht Hd.
    destruct (@fit_inv _ _ _ _ _ _ _ _ _ _ H Hlen) as (xs & ths & z & Hi). cbv zeta in Hi. rewrite <- Hlen in Hi. destruct Hi as (Ex & Ep & _ & -> & _ & Lx & L1 & L2 & L3 & L4 & L5).
    assert (Hi : (i < List.length fams)%nat) by (apply nth_error_Some; congruence).
    rewrite <- (@tile_nth _ tr i Hi) in Ht. rewrite <- (@tile_nth _ det i Hi) in Hd.
    destruct (@mapM_nth _ _ _ _ _ i (f, x) Ex (@nth_error_pair _ _ _ _ i f x Hf Hx)) as (y & Hy & Ny). cbn [fst snd] in Hy.
    assert (Hg : forall w l, (f = "lognormal" -> nonnegative_limit (fst l) /\ nonnegative_limit (snd l)) -> limited l -> limited (log_limits w f l)).
    { intros w l Hn Hl. unfold log_limits. destruct (String.eqb_spec f "lognormal") as [E|]; [|exact Hl]. destruct (Hn E) as [N1 N2]. unfold limited. cbn [fst snd].
      assert (Hlim1 : forall b, nonnegative_limit b -> given b = true -> given (log_limit w b) = true).
      { intros [|h| |] Nb Gb; cbn in *; try contradiction; try discriminate; try reflexivity. destruct (Rlt_dec 0 h); [reflexivity|]. destruct (Req_EM_T h 0); [reflexivity|lra]. }
      destruct Hl as [Hl|Hl]; [left|right]; now apply Hlim1. }
    destruct (@parameters_nth T fams xs _ _ ths i f y (log_limits (whole tr) f t) (log_limits (whole det) f d) Ep) as (th & Hth & Nth); [congruence| |exact Hf|exact Ny| | | |].
    - intros v Hv. apply In_nth_error in Hv as [k Hk]. assert (Hkl : (k < List.length fams)%nat) by (rewrite <- Lx; apply nth_error_Some; congruence).
      destruct (@nth_error_of_length _ fams k Hkl) as [g Hg']. destruct (@nth_error_of_length _ (content raw) k) as [u Hu]; [lia|].
      destruct (@mapM_nth _ _ _ _ _ k (g, u) Ex (@nth_error_pair _ _ _ _ k g u Hg' Hu)) as (v' & Hv' & Nv). rewrite Hk in Nv. injection Nv as ->. cbn [fst snd] in Hv'.
      replace (List.length v') with (List.length u); [apply H3; exact (nth_error_In _ _ Hu)|]. unfold log_row in Hv'. destruct (String.eqb g "lognormal"); [symmetry; exact (@mapM_ok_length _ _ _ _ _ Hv')|now injection Hv' as ->].
    - exact (@logged_limit_nth (whole tr) fams _ i f t Hf Ht).
    - exact (@logged_limit_nth (whole det) fams _ i f d Hf Hd).
    - apply orb_true_iff. destruct Hlim as [Hl|Hl].
      + left. apply (@limited_given _ i (log_limits (whole tr) f t)); [exact (@logged_limit_nth (whole tr) fams _ i f t Hf Ht)|]. apply Hg; [|exact Hl]. intros E. destruct (Hlog E) as (? & ? & _). now split.
      + right. apply (@limited_given _ i (log_limits (whole det) f d)); [exact (@logged_limit_nth (whole det) fams _ i f d Hf Hd)|]. apply Hg; [|exact Hl]. intros E. destruct (Hlog E) as (_ & _ & ? & ?). now split.
    - exists y, th. split; [exact Hy|]. split; [|exact (map_nth_error _ _ _ (@nth_error_pair _ _ fams ths i f th Hf Nth))].
      unfold fit_marginal in Hth |- *. rewrite flat_bounds_nth in Hth by lia. rewrite flat_bounds_nth by lia. exact Hth.
Qed.
(** With limits and no censored realizations: demands at positions of the same parity. *)
Theorem C98_parity_partial T raw fams tr det raw' fams' tr' det' i j f x t d thetas rho after thetas' rho' after' :
  fit T raw fams tr 0 det false = Ok (thetas, rho, after) -> fit T raw' fams' tr' 0 det' false = Ok (thetas', rho', after') ->
  List.length fams = List.length (content raw) -> List.length fams' = List.length (content raw') ->
  (forall v, In v (content raw) \/ In v (content raw') -> 3 <= List.length v)%nat -> whole raw = whole raw' -> whole tr = whole tr' -> whole det = whole det' ->
  nth_error fams i = Some f -> nth_error (content raw) i = Some x -> limit_of (List.length fams) tr i = Some t -> limit_of (List.length fams) det i = Some d ->
  nth_error fams' j = Some f -> nth_error (content raw') j = Some x -> limit_of (List.length fams') tr' j = Some t -> limit_of (List.length fams') det' j = Some d ->
  limited t \/ limited d -> (f = "lognormal" -> nonnegative_limit (fst t) /\ nonnegative_limit (snd t) /\ nonnegative_limit (fst d) /\ nonnegative_limit (snd d)) ->
  Nat.even i = Nat.even j ->
  nth_error thetas i = nth_error thetas' j /\ nth_error thetas i <> None.
Proof.
  intros H H' Hlen Hlen' H3 Wr Wt Wd Hf Hx Ht Hd Hf' Hx' Ht' Hd' Hlim Hlog Hpar.
  destruct (@one_marginal T raw fams tr det thetas rho after i f x t d Hlim Hlog H Hlen ltac:(intros v Hv; apply H3; now left) Hf Hx Ht Hd) as (y & th & Ey & Eth & Nth).
  destruct (@one_marginal T raw' fams' tr' det' thetas' rho' after' j f x t d Hlim Hlog H' Hlen' ltac:(intros v Hv; apply H3; now right) Hf' Hx' Ht' Hd') as (y' & th' & Ey' & Eth' & Nth').
  rewrite <- Wr, Ey in Ey'. injection Ey' as <-. rewrite <- Wt, <- Wd in Eth'. unfold fit_marginal in Eth, Eth'. rewrite flat_bounds_nth in Eth by lia. rewrite flat_bounds_nth in Eth' by lia.
  rewrite <- Hpar, Eth in Eth'. injection Eth' as <-. rewrite Nth, Nth'. split; [reflexivity|discriminate].
Qed.
Print Assumptions C98_parity_partial.
Lemma widest_limits t d l : widest t d l -> marginal_limits t d = l.
Proof.
  intros [A B]. destruct l as [a b]. unfold marginal_limits. cbn [fst snd] in *. unfold outer in *. f_equal.
  - destruct (given (fst t)) eqn:E1, (given (fst d)) eqn:E2; try exact (eq_sym A); [|destruct (fst t); try discriminate; congruence].
    destruct A as ([-> | ->] & A1 & A2); destruct (fst t), (fst d); cbn in *; try discriminate; try contradiction; try reflexivity; f_equal; try (apply Rmin_left; lra); apply Rmin_right; lra.
  - destruct (given (snd t)) eqn:E1, (given (snd d)) eqn:E2; try exact (eq_sym B); [|destruct (snd t); try discriminate; congruence].
    destruct B as ([-> | ->] & A1 & A2); destruct (snd t), (snd d); cbn in *; try discriminate; try contradiction; try reflexivity; f_equal; try (apply Rmax_left; lra); apply Rmax_right; lra.
Qed.
(** The limits count only through the widest of truncation and detection limits: two fits of the
    same data with the same widest limits agree. *)
Theorem C98_widest_partial T raw fams tr det raw' fams' tr' det' i j f x t d t' d' l thetas rho after thetas' rho' after' :
  fit T raw fams tr 0 det false = Ok (thetas, rho, after) -> fit T raw' fams' tr' 0 det' false = Ok (thetas', rho', after') ->
  List.length fams = List.length (content raw) -> List.length fams' = List.length (content raw') ->
  (forall v, In v (content raw) \/ In v (content raw') -> 3 <= List.length v)%nat -> f <> "lognormal" ->
  nth_error fams i = Some f -> nth_error (content raw) i = Some x -> limit_of (List.length fams) tr i = Some t -> limit_of (List.length fams) det i = Some d ->
  nth_error fams' j = Some f -> nth_error (content raw') j = Some x -> limit_of (List.length fams') tr' j = Some t' -> limit_of (List.length fams') det' j = Some d' ->
  widest t d l -> widest t' d' l -> limited l -> Nat.even i = Nat.even j ->
  nth_error thetas i = nth_error thetas' j /\ nth_error thetas i <> None.
Proof.
  intros H H' Hlen Hlen' H3 Nl Hf Hx Ht Hd Hf' Hx' Ht' Hd' Hw Hw' Hlim Hpar.
  assert (Hli : forall t d, widest t d l -> limited t \/ limited d).
  { clear - Hlim. intros t d [A B]. unfold limited in *. unfold outer in *. destruct Hlim as [L|L].
    - destruct (given (fst t)) eqn:E1; [now left; left|]. destruct (given (fst d)) eqn:E2; [now right; left|]. rewrite A in L. discriminate.
    - destruct (given (snd t)) eqn:E1; [now left; right|]. destruct (given (snd d)) eqn:E2; [now right; right|]. rewrite B in L. discriminate. }
  destruct (@one_marginal T raw fams tr det thetas rho after i f x t d (Hli _ _ Hw) ltac:(intros E; contradiction) H Hlen ltac:(intros v Hv; apply H3; now left) Hf Hx Ht Hd) as (y & th & Ey & Eth & Nth).
  destruct (@one_marginal T raw' fams' tr' det' thetas' rho' after' j f x t' d' (Hli _ _ Hw') ltac:(intros E; contradiction) H' Hlen' ltac:(intros v Hv; apply H3; now right) Hf' Hx' Ht' Hd') as (y' & th' & Ey' & Eth' & Nth').
  unfold log_row in Ey, Ey'. unfold log_limits in Eth, Eth'. destruct (String.eqb_spec f "lognormal") as [|_]; [contradiction|]. injection Ey as <-. injection Ey' as <-.
  unfold fit_marginal in Eth, Eth'. rewrite flat_bounds_nth in Eth by lia. rewrite flat_bounds_nth in Eth' by lia.
  rewrite (@widest_limits _ _ _ Hw) in Eth. rewrite (@widest_limits _ _ _ Hw') in Eth'.
  rewrite <- Hpar, Eth in Eth'. injection Eth' as <-. rewrite Nth, Nth'. split; [reflexivity|discriminate].
Qed.
Print Assumptions C98_widest_partial.
(** Two demands with the same data, family and limits, in one call. The first may move by up to ten
    deviations, the second by up to five. *)
Definition twins : array (list R) := Array false false [[1; 2; 3]; [1; 2; 3]].
Definition twin_limits : array bounds := Array false false [(Fin 0, XNaN)].
Lemma twins_fit : exists s rho after, fit fit_tools twins ["normal_std"; "normal_std"] twin_limits 0 nothing false = Ok ([(9, s); (2, s)], rho, after).
Proof.
  set (i0 := initial [1; 2; 3]). assert (E0 : fst i0 = 2) by (unfold i0; rewrite (proj1 (initial_spec [1; 2; 3])); unfold average; cbn; field).
  assert (P0 : 0 < snd i0) by (exact (proj1 (proj2 (initial_spec [1; 2; 3])))).
  assert (E10 : 10 ^ 10 = 10000000000) by ring.
  assert (M : forall d b, nth d (flat_bounds 2) 0 = b -> (b = 10 \/ b = 5) ->
    fit_marginal fit_tools 2 d ("normal_std", [1; 2; 3], ((Fin 0, XNaN), (XNaN, XNaN)), i0) = Ok (if Req_EM_T b 10 then (9, snd i0) else (2, snd i0))).
  { intros d b Hb Hor. unfold fit_marginal. cbn [supported mem existsb String.eqb Ascii.eqb Bool.eqb orb]. rewrite Hb. cbn [minimize fit_tools].
    unfold fit_minimize. set (f := objective _ _ _).
    assert (V0 : f [0; 0] = 1).
    { unfold f, objective. cbn [combine forallb fst snd]. destruct (Rlt_dec (- b) 0); [|lra]. destruct (Rlt_dec 0 b); [|lra]. cbn [andb].
      cbn. unfold fit_likelihood. cbn [nth]. destruct (Req_EM_T 0 7); [lra|reflexivity]. }
    rewrite V0. destruct Hor as [-> | ->].
    - assert (V7 : f [7; 0] = 0).
      { unfold f, objective. cbn [combine forallb fst snd]. repeat match goal with |- context [Rlt_dec ?a ?b] => destruct (Rlt_dec a b); [|lra] end.
        cbn [andb]. cbn. unfold fit_likelihood. cbn [nth]. destruct (Req_EM_T 7 7); [reflexivity|lra]. }
      rewrite V7. destruct (Rlt_dec 0 1); [|lra]. destruct (Req_EM_T 10 10); [|lra]. unfold get_theta, pair_at. cbn [String.eqb Ascii.eqb Bool.eqb mem existsb orb nth Nat.mul Nat.add fst snd].
      rewrite E0. do 2 f_equal; ring.
    - assert (V7 : f [7; 0] = 10 ^ 10).
      { unfold f, objective. cbn [combine forallb fst snd]. match goal with |- context [Rlt_dec ?a 7] => destruct (Rlt_dec a 7); [|lra] end. destruct (Rlt_dec 7 5); [lra|]. reflexivity. }
      rewrite V7. destruct (Rlt_dec (10 ^ 10) 1); [lra|]. destruct (Req_EM_T 5 10); [lra|]. unfold get_theta, pair_at. cbn [String.eqb Ascii.eqb Bool.eqb mem existsb orb nth Nat.mul Nat.add fst snd].
      rewrite E0. do 2 f_equal; ring. }
  assert (S : forall mu, exists z, std_row fit_tools "normal_std" (Fin 0, XNaN) (mu, snd i0) [1; 2; 3] = Ok z).
  { intros mu. apply std_row_limited; [exact fit_tools_pair|exact logistic_increasing|exact P0|cbn; auto|]. intros x [<-|[<-|[<-|[]]]]; cbn; split; auto; lra. }
  destruct (S 9) as [z1 Z1]. destruct (S 2) as [z2 Z2].
  unfold fit. cbn [content whole List.length tile twins twin_limits nothing repeat Nat.eqb andb negb existsb orb combine mapM map fst snd log_row log_limits String.eqb Ascii.eqb Bool.eqb bind].
  unfold parameters. cbn [List.length Nat.ltb Nat.leb orb negb some_given existsb given fst snd map seq combine mapM]. fold i0.
  rewrite (M 0%nat 10 eq_refl (or_introl eq_refl)), (M 1%nat 5 eq_refl (or_intror eq_refl)). destruct (Req_EM_T 10 10); [|lra]. destruct (Req_EM_T 5 10); [lra|]. cbn [bind orb combine mapM fst snd].
  rewrite Z1, Z2. cbn [bind]. do 3 eexists. unfold reported. cbn [map String.eqb Ascii.eqb Bool.eqb mem existsb orb fst snd]. reflexivity.
Qed.
(** The same demand alone and in front of another. *)
Example C98_parity_hypotheses_met :
  (exists thetas rho after, fit fit_tools twins ["normal_std"; "normal_std"] twin_limits 0 nothing false = Ok (thetas, rho, after)) /\
  limit_of 2 twin_limits 0 = Some (Fin 0, XNaN) /\ limit_of 2 nothing 0 = Some (XNaN, XNaN) /\ limited (Fin 0, XNaN) /\ (forall v, In v (content twins) -> 3 <= List.length v)%nat.
Proof.
  destruct twins_fit as (s & rho & after & E). split; [now exists [(9, s); (2, s)], rho, after|]. split; [reflexivity|]. split; [reflexivity|]. split; [now left|].
  intros v [<-|[<-|[]]]; cbn; lia.
Qed.
(** Detected from 0 on; truncated at 1 and detected from 0 on. *)
Example C98_widest_concrete : widest (XNaN, XNaN) (Fin 0, XNaN) (Fin 0, XNaN) /\ widest (Fin 1, XNaN) (Fin 0, XNaN) (Fin 0, XNaN) /\ widest (Fin 0, XNaN) (XNaN, XNaN) (Fin 0, XNaN) /\
  ~ widest (Fin 1, XNaN) (Fin 0, XNaN) (Fin 1, XNaN) /\ limited (Fin 0, XNaN).
Proof.
  repeat split; cbn; try reflexivity; try (left; reflexivity); try (right; reflexivity); try lra. intros [(_ & _ & A) _]; cbn in A; lra.
Qed.
Theorem C98_position_refuted : exists T raw fams tr det, inverse_pair T /\ linear_algebra T /\ (forall f x0, f (minimize T f x0) <= f x0) /\
  nth_error (content raw) 0 = nth_error (content raw) 1 /\ nth_error fams 0 = nth_error fams 1 /\
  limit_of 2 tr 0 = limit_of 2 tr 1 /\ limit_of 2 det 0 = limit_of 2 det 1 /\
  exists theta theta' rho after, fit T raw fams tr 0 det false = Ok ([theta; theta'], rho, after) /\ theta <> theta'.
Proof.
  exists fit_tools, twins, ["normal_std"; "normal_std"], twin_limits, nothing. split; [exact fit_tools_pair|]. split; [exact fit_tools_algebra|]. split.
  { intros f x0. cbn. unfold fit_minimize. destruct (Rlt_dec (f [7; 0]) (f x0)); lra. }
  split; [reflexivity|]. split; [reflexivity|]. split; [reflexivity|]. split; [reflexivity|]. destruct twins_fit as (s & rho & after & E). exists (9, s), (2, s), rho, after.
  split; [exact E|]. intros H. injection H. lra.
Qed.
Print Assumptions C98_position_refuted.

(** * C99 A sample with values outside its truncation limits is not fitted *)

Theorem C99_inside_partial T raw fams tr count det multi thetas rho after i f x l v : fit T raw fams tr count det multi = Ok (thetas, rho, after) ->
  List.length fams = List.length (content raw) -> whole raw = false -> whole tr = false ->
  nth_error fams i = Some f -> nth_error (content raw) i = Some x -> limit_of (List.length fams) tr i = Some l -> (f = "lognormal" -> nonnegative_limit (snd l)) ->
  In v x -> inside l v.
Proof.
  intros H Hlen Wr Wt Hf Hx Hl Hn Hv. destruct (@fit_inv _ _ _ _ _ _ _ _ _ _ H Hlen) as (xs & ths & z & Hi). cbv zeta in Hi. rewrite <- Hlen, Wr, Wt in Hi.
  destruct Hi as (Ex & _ & Ez & _ & _ & Lx & L1 & _ & L3 & _). assert (Hi : (i < List.length fams)%nat) by (apply nth_error_Some; congruence).
  rewrite <- (@tile_nth _ tr i Hi) in Hl. destruct (@mapM_nth _ _ _ _ _ i (f, x) Ex (@nth_error_pair _ _ _ _ i f x Hf Hx)) as (y & Hy & Ny). cbn [fst snd] in Hy.
  destruct (@nth_error_of_length _ ths i) as [th Nth]; [lia|].
  destruct (@mapM_nth _ _ _ _ _ i (f, log_limits false f l, th, y) Ez) as (zi & Hz & _).
  { apply nth_error_pair; [|exact Ny]. apply nth_error_pair; [|exact Nth]. apply nth_error_pair; [exact Hf|]. exact (@logged_limit_nth false fams _ i f l Hf Hl). }
  cbn [fst snd] in Hz. unfold std_row in Hz. destruct (supported f); [|discriminate].
  match type of Hz with (if ?b then _ else _) = _ => destruct b eqn:Eb end; [discriminate|]. exact (@log_inside f l v x Hn Hv y Hy Eb).
Qed.
Print Assumptions C99_inside_partial.
Example C99_inside_concrete : exists e, fit fit_tools (Array false false [[1; 2]]) ["lognormal"] (Array false false [(XNaN, Fin (3 / 2))]) 0 nothing false = Err e.
Proof.
  match goal with |- exists e, ?f = _ => destruct f as [[[thetas rho] after]|e] eqn:E end; [|now exists e]. exfalso.
  destruct (@C99_inside_partial _ _ _ _ _ _ _ _ _ _ 0 "lognormal" [1; 2] (XNaN, Fin (3 / 2)) 2 E eq_refl eq_refl eq_refl eq_refl eq_refl eq_refl) as [A _]; [intros _; cbn; lra|right; now left|]. apply A. cbn. lra.
Qed.
(** A limit below zero of a lognormal demand is no limit. *)
Theorem C99_negative_refuted T : inverse_pair T -> exists raw tr x l v, content raw = [x] /\ content tr = [l] /\ whole raw = false /\ whole tr = false /\ In v x /\ ~ inside l v /\
  exists r, fit T raw ["lognormal"] tr 0 nothing false = Ok r.
Proof.
  intros HT. exists (Array false false [[1; 2]]), (Array false false [(XNaN, Fin (-1))]), [1; 2], (XNaN, Fin (-1)), 2.
  split; [reflexivity|]. split; [reflexivity|]. split; [reflexivity|]. split; [reflexivity|]. split; [right; now left|]. split; [intros [A _]; apply A; cbn; lra|].
  assert (F : fits 2 ["lognormal"] [[1; 2]]).
  { split; [reflexivity|]. split; [lia|]. split; [intros x [<-|[]]; reflexivity|]. split; [intros f [<-|[]]; cbn; auto|]. intros [|[|i]] x Hf Hx; try discriminate. injection Hx as <-. repeat constructor; lra. }
  destruct (@fit_unlimited T (Array false false [[1; 2]]) ["lognormal"] (Array false false [(XNaN, Fin (-1))]) 0 nothing false [[ln 1; ln 2]] HT eq_refl) as (rho & tr' & det' & E);
    [intros x [<-|[]]; discriminate|intros f [<-|[]]; cbn; auto|now right|apply nothing_rows| |intros l [<-|[]]; reflexivity|exact (@logged_samples 2 ["lognormal"] [[1; 2]] F)|eexists; exact E].
  intros l [<-|[]]. cbn. destruct (Rlt_dec 0 (-1)); [lra|]. destruct (Req_EM_T (-1) 0); [lra|reflexivity].
Qed.
Print Assumptions C99_negative_refuted.
(** The logarithm of an integer loses its fraction and with it the excess over the limit. *)
Theorem C99_integers_refuted T : inverse_pair T -> (forall y z, y < z -> cdf T y < cdf T z) ->
  exists raw tr x l v, content raw = [x] /\ content tr = [l] /\ whole raw = true /\ whole tr = false /\ (forall b, snd l = Fin b -> 0 < b) /\ In v x /\ ~ inside l v /\
  exists r, fit T raw ["lognormal"] tr 0 nothing false = Ok r.
Proof.
  intros HT Hinc. exists (Array true true [[1; 5]]), (Array false false [(XNaN, Fin 4)]), [1; 5], (XNaN, Fin 4), 5.
  split; [reflexivity|]. split; [reflexivity|]. split; [reflexivity|]. split; [reflexivity|]. split; [intros b [= <-]; lra|]. split; [right; now left|]. split; [intros [A _]; apply A; cbn; lra|].
  assert (H4 : 1 < ln 4) by (apply exp_lt_inv; rewrite exp_ln by lra; pose proof exp_le_3; lra).
  assert (H45 : ln 4 < ln 5) by (apply ln_increasing; lra).
  assert (H5 : ln 5 < 2).
  { apply exp_lt_inv. rewrite exp_ln by lra. replace 2 with (1 / 2 + 1 / 2 + (1 / 2 + 1 / 2)) by field. rewrite !exp_plus. pose proof (exp_ineq1 (1 / 2) ltac:(lra)).
    assert (9 / 4 < exp (1 / 2) * exp (1 / 2)) by nra. nra. }
  assert (El : log_row true "lognormal" [1; 5] = Ok [0; 1]).
  { unfold log_row. cbn [String.eqb Ascii.eqb Bool.eqb mapM]. destruct (Rlt_dec 0 1) as [_|N]; [|lra]. destruct (Rlt_dec 0 5) as [_|N]; [|lra]. cbn [bind].
    rewrite ln_1, (@stored_floor 0 0), (@stored_floor 1 (ln 5)) by (lia || lra). reflexivity. }
  unfold fit. cbn [content whole List.length tile nothing repeat Nat.eqb andb negb existsb orb combine mapM map fst snd]. rewrite El. cbn [bind].
  unfold parameters. cbn [List.length Nat.ltb Nat.leb orb map bind combine mapM fst snd].
  assert (Ell : log_limits false "lognormal" (XNaN, Fin 4) = (XNaN, Fin (ln 4))) by (cbn; destruct (Rlt_dec 0 4); [reflexivity|lra]).
  rewrite Ell.
  destruct (@std_row_limited T "lognormal" (XNaN, Fin (ln 4)) (initial [0; 1]) [0; 1] HT Hinc (proj1 (proj2 (initial_spec [0; 1]))) ltac:(cbn; auto)) as [z Hz].
  { intros x [<-|[<-|[]]]; cbn; split; auto; lra. }
  rewrite Hz. cbn [bind]. eexists. reflexivity.
Qed.
Print Assumptions C99_integers_refuted.

(** C95 for a fit with limits. *)
Example C95_coefficients_hypotheses_met : exists thetas rho after, fit fit_tools twins ["normal_std"; "normal_std"] twin_limits 0 nothing false = Ok (thetas, rho, after) /\ -1 <= at_ rho 0 1 <= 1.
Proof.
  destruct twins_fit as (s & rho & after & E). exists [(9, s); (2, s)], rho, after. split; [exact E|].
  destruct (@C95_coefficients_partial _ _ _ _ _ _ _ _ _ _ fit_tools_algebra E) as (_ & _ & H). apply H; cbn; lia.
Qed.
