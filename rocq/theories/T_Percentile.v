(** Property theorems about the fit to percentiles (C113). *)
From Coq Require Import Reals Lra Lia.
From Verif Require Import Prelude PreludeFacts M_Percentile S_Percentile P_Percentile.
Local Open Scope string_scope.
Local Open Scope list_scope.
Local Open Scope R_scope.

Definition known (families : list string) : Prop := families <> [] /\ forall f, In f families -> f = "normal" \/ f = "lognormal".
Lemma known_mem families f : known families -> In f families -> mem f ["normal"; "lognormal"] = true.
Proof. intros [_ H] Hf. destruct (H f Hf) as [-> | ->]; reflexivity. Qed.

Lemma fit_unfold z minimize values perc families : List.length values = List.length perc -> perc <> [] -> known families ->
  exists i j p h v w, nth_error perc i = Some p /\ nth_error values i = Some v /\ (forall q, In q perc -> Rabs (p - 1 / 2) <= Rabs (q - 1 / 2)) /\
    nth_error perc j = Some h /\ nth_error values j = Some w /\ (forall q, In q perc -> q <= h) /\
    let out := map (fun f => minimize (ols z values perc f) (starting z f v w h)) families in
    fit_percentiles z minimize values perc families =
    match argmin (map snd out) with Some best => Ok (nth best families EmptyString, fst (nth best out ((None, None), None))) | None => Err ValueError end.
Proof.
  intros L N K. destruct (@argmin_id R (fun p => Rabs (p - 1 / 2)) perc N) as (i & p & Ei & Hi & Mi). destruct (@argmax_id R (fun p => p - 1 / 2) perc N) as (j & h & Ej & Hj & Mj).
  assert (V : forall k q, nth_error perc k = Some q -> exists v, nth_error values k = Some v).
  { intros k q Hk. destruct (nth_error values k) as [v|] eqn:E; [now exists v|]. apply nth_error_None in E. assert (k < List.length perc)%nat by (apply nth_error_Some; congruence). lia. }
  destruct (V i p Hi) as [v Hv]. destruct (V j h Hj) as [w Hw]. exists i, j, p, h, v, w. split; [exact Hi|]. split; [exact Hv|]. split; [exact Mi|].
  split; [exact Hj|]. split; [exact Hw|]. split; [intros q Hq; specialize (Mj q Hq); lra|]. cbv zeta. unfold fit_percentiles. rewrite L, Nat.eqb_refl. cbn [negb]. rewrite Ei, Ej.
  rewrite (nth_error_nth values i 0 Hv), (nth_error_nth values j 0 Hw), (nth_error_nth perc j 0 Hj).
  replace (mapM _ families) with (Ok (map (fun f => minimize (ols z values perc f) (starting z f v w h)) families)); [reflexivity|].
  destruct K as [_ K]. clear -K. induction families as [|f families IH]; [reflexivity|]. cbn [mapM map]. rewrite <- IH by (intros g Hg; apply K; now right).
  destruct (K f (or_introl eq_refl)) as [-> | ->]; reflexivity.
Qed.

(** ** C113 The best candidate *)

(** The distribution through the median and the highest percentile is the one the search starts from. *)
Lemma starting_through z g m s h v w : normal_quantiles z -> 1 / 2 < h < 1 -> g = "normal" \/ g = "lognormal" -> proper g m s ->
  quantile z g m s (1 / 2) = v -> quantile z g m s h = w -> starting z g v w h = (Some m, Some s).
Proof.
  intros [Z0 Zi] Hh Hg [Hs Hm] <- <-. assert (Zh : 0 < z h) by (rewrite <- Z0; apply Zi; lra). unfold starting, quantile. rewrite Z0, Rmult_0_r.
  destruct Hg as [-> | ->]; cbn [String.eqb Ascii.eqb Bool.eqb].
  - replace (m + s * z h - (m + 0)) with (s * z h) by ring. rewrite Rplus_0_r. unfold quotient. rewrite (Rabs_right (z h)) by lra.
    rewrite (Rabs_right (s * z h)) by (apply Rle_ge, Rmult_le_pos; lra). destruct (Req_EM_T (z h) 0); [lra|]. do 2 f_equal. field. lra.
  - specialize (Hm eq_refl). rewrite exp_0, Rmult_1_r. unfold quotient at 1. destruct (Req_EM_T m 0); [lra|]. replace (m * exp (s * z h) / m) with (exp (s * z h)) by (field; lra).
    unfold np_log. destruct (Rlt_dec 0 (exp (s * z h))) as [_|X]; [|destruct X; apply exp_pos]. rewrite ln_exp. cbn [option_map]. unfold quotient. rewrite (Rabs_right (z h)) by lra.
    rewrite (Rabs_right (s * z h)) by (apply Rle_ge, Rmult_le_pos; lra). destruct (Req_EM_T (z h) 0); [lra|]. do 2 f_equal. field. lra.
Qed.
Lemma starting_number z g h v w values perc : z h <> 0 -> g = "normal" \/ g = "lognormal" -> (g = "lognormal" -> 0 < v /\ 0 < w) -> exists y, ols z values perc g (starting z g v w h) = Some y.
Proof.
  intros Zh Hg Hp. assert (exists s, starting z g v w h = (Some v, Some s)) as [s ->].
  { unfold starting. assert (Q : forall d, quotient d (Rabs (z h)) = Some (d / Rabs (z h))) by (intros d; unfold quotient; destruct (Req_EM_T (Rabs (z h)) 0) as [E|]; [now apply Rabs_no_R0 in E|reflexivity]).
    destruct Hg as [-> | ->]; cbn [String.eqb Ascii.eqb Bool.eqb]; [rewrite Q; eauto|]. destruct (Hp eq_refl) as [Hv Hw]. unfold quotient at 1. destruct (Req_EM_T v 0); [lra|]. unfold np_log.
    destruct (Rlt_dec 0 (w / v)) as [_|X]; [|destruct X; apply Rmult_lt_0_compat; [lra|apply Rinv_0_lt_compat; lra]]. cbn [option_map]. rewrite Q. eauto. }
  destruct Hg as [-> | ->]; unfold ols; cbn [String.eqb Ascii.eqb Bool.eqb]; repeat destruct (Rle_dec _ _); eauto.
Qed.

Theorem C113_best : forall z minimize values perc families, normal_quantiles z -> descends minimize -> known families -> List.length values = List.length perc ->
  NoDup perc -> (forall p, In p perc -> 0 < p < 1) -> In (1 / 2) perc -> (exists p, In p perc /\ 1 / 2 < p) -> (In "lognormal" families -> forall v, In v values -> 0 < v) ->
  exists family theta, fit_percentiles z minimize values perc families = Ok (family, theta) /\ In family families /\
    (* no worse than any candidate through the median and the highest percentile *)
    forall g m0 s0 v h w, In g families -> proper g m0 s0 -> In (v, 1 / 2) (combine values perc) -> In (w, h) (combine values perc) -> (forall q, In q perc -> q <= h) ->
      quantile z g m0 s0 (1 / 2) = v -> quantile z g m0 s0 h = w -> misfit z g m0 s0 values perc < 10 ^ 10 ->
      exists m s, theta = (Some m, Some s) /\ proper family m s /\ misfit z family m s values perc <= misfit z g m0 s0 values perc.
Proof.
  intros z minimize values perc families HZ [HM _] K L ND Hr Hhalf [pe [Hpe Lpe]] Hpos.
  assert (N : perc <> []) by (intros ->; destruct Hpe). destruct (@fit_unfold z minimize values perc families L N K) as (i & j & p & h & v & w & Hi & Hv & Mi & Hj & Hw & Mj & E).
  assert (Ep : p = 1 / 2).
  { specialize (Mi _ Hhalf). replace (1 / 2 - 1 / 2) with 0 in Mi by ring. rewrite Rabs_R0 in Mi. pose proof (Rabs_pos (p - 1 / 2)). assert (Rabs (p - 1 / 2) = 0) as A by lra.
    destruct (Req_dec (p - 1 / 2) 0) as [B|B]; [lra|]. now apply Rabs_no_R0 in B. }
  subst p. assert (Hh : 1 / 2 < h < 1) by (split; [specialize (Mj pe Hpe); lra|apply Hr; exact (nth_error_In _ _ Hj)]).
  assert (Zh : 0 < z h) by (destruct HZ as [Z0 Zi]; rewrite <- Z0; apply Zi; lra).
  cbv zeta in E. set (out := map (fun f => minimize (ols z values perc f) (starting z f v w h)) families) in *.
  assert (Hout : forall f, In f families -> exists x y, minimize (ols z values perc f) (starting z f v w h) = (x, Some y) /\ ols z values perc f x = Some y /\
                   forall y0, ols z values perc f (starting z f v w h) = Some y0 -> y <= y0).
  { intros f Hf. destruct (@starting_number z f h v w values perc ltac:(lra) (proj2 K f Hf)) as [y0 E0].
    { intros ->. split; apply (Hpos Hf); [exact (nth_error_In _ _ Hv)|exact (nth_error_In _ _ Hw)]. }
    destruct (HM _ _ _ E0) as (x & y & A & B & C). exists x, y. split; [exact A|]. split; [exact B|]. intros y1 E1. rewrite E0 in E1. injection E1 as <-. exact C. }
  set (val := fun f => match snd (minimize (ols z values perc f) (starting z f v w h)) with Some y => y | None => 0 end).
  assert (Es : map snd out = map (fun f => Some (val f)) families).
  { unfold out. rewrite map_map. apply map_ext_in. intros f Hf. destruct (Hout f Hf) as (x & y & A & _). unfold val. now rewrite A. }
  destruct (@argmin_id string val families (proj1 K)) as (b & f & Eb & Hb & Mb). rewrite Es, Eb in E.
  assert (Hf : In f families) by exact (nth_error_In _ _ Hb).
  rewrite (nth_error_nth families b EmptyString Hb) in E.
  assert (Ho : nth_error out b = Some (minimize (ols z values perc f) (starting z f v w h))) by (unfold out; exact (map_nth_error _ _ _ Hb)).
  rewrite (nth_error_nth out b _ Ho) in E. destruct (Hout f Hf) as (x & y & A & B & C). exists f, x. rewrite A in E. split; [exact E|]. split; [exact Hf|].
  intros g m0 s0 v' h' w' Hg Hprop Hv' Hw' Mh' Q1 Q2 Hsmall.
  apply In_nth_error in Hv' as [i' Hi']. apply In_nth_error in Hw' as [j' Hj'].
  assert (Hsplit : forall k a c, nth_error (combine values perc) k = Some (a, c) -> nth_error values k = Some a /\ nth_error perc k = Some c).
  { clear. revert perc. induction values as [|u us IH]; intros [|q qs] [|k] a c H; try discriminate; [injection H as -> ->; split; reflexivity|exact (IH qs k a c H)]. }
  apply Hsplit in Hi' as [Hi1 Hi2]. apply Hsplit in Hj' as [Hj1 Hj2].
  assert (i' = i) as -> by (apply (proj1 (NoDup_nth_error perc) ND); [apply nth_error_Some; congruence|congruence]).
  assert (h' = h) as -> by (pose proof (Mh' h (nth_error_In _ _ Hj)); pose proof (Mj h' (nth_error_In _ _ Hj2)); lra).
  assert (j' = j) as -> by (apply (proj1 (NoDup_nth_error perc) ND); [apply nth_error_Some; congruence|congruence]).
  assert (v' = v) as -> by congruence. assert (w' = w) as -> by congruence.
  pose proof (@starting_through z g m0 s0 h v w HZ Hh (proj2 K g Hg) Hprop Q1 Q2) as St. pose proof (@ols_proper z values perc g m0 s0 (proj2 K g Hg) Hprop) as Eo.
  destruct (Hout g Hg) as (xg & yg & Ag & Bg & Cg). rewrite St in Cg. specialize (Cg _ Eo). specialize (Mb g Hg). unfold val in Mb. rewrite A, Ag in Mb. cbn [snd] in Mb.
  destruct (@ols_small z values perc f x y (proj2 K f Hf) B ltac:(lra)) as (m & s & -> & P & ->). exists m, s. split; [reflexivity|]. split; [exact P|]. lra.
Qed.
Print Assumptions C113_best.

(** Values that are exactly those of a distribution of one of the candidate families are met exactly. *)
Theorem C113_exact : forall z minimize values perc families family m s, normal_quantiles z -> descends minimize -> known families ->
  NoDup perc -> (forall p, In p perc -> 0 < p < 1) -> In (1 / 2) perc -> (exists p, In p perc /\ 1 / 2 < p) -> (In "lognormal" families -> forall v, In v values -> 0 < v) ->
  In family families -> proper family m s -> passes z family m s values perc ->
  exists family' m' s', fit_percentiles z minimize values perc families = Ok (family', (Some m', Some s')) /\ In family' families /\ proper family' m' s' /\
    passes z family' m' s' values perc.
Proof.
  intros z minimize values perc families family m s HZ HM K ND Hr Hhalf Hup Hpos Hf Hprop Hpass.
  assert (L : List.length values = List.length perc) by (clear -Hpass; unfold passes in Hpass; induction Hpass; cbn; congruence).
  destruct (@C113_best z minimize values perc families HZ HM K L ND Hr Hhalf Hup Hpos) as (f & theta & E & Hin & Hbest).
  assert (G : forall q, In q perc -> exists v, In (v, q) (combine values perc) /\ quantile z family m s q = v).
  { clear -Hpass. unfold passes in Hpass. induction Hpass as [|v p vs ps Hv Hp IH]; intros q Hq; [destruct Hq|]. cbn [combine]. destruct Hq as [<-|Hq]; [exists v; split; [now left|congruence]|].
    destruct (IH q Hq) as (u & Hu & Eu). exists u. split; [now right|exact Eu]. }
  destruct Hup as [pe [Hpe Lpe]]. destruct (@argmax_id R (fun p => p) perc) as (j & h & _ & Hj & Mj); [intros ->; destruct Hpe|].
  destruct (G _ Hhalf) as (v & Hv & Ev). destruct (G h (nth_error_In _ _ Hj)) as (w & Hw & Ew).
  assert (Z : misfit z family m s values perc = 0) by (now apply misfit_passes).
  destruct (Hbest family m s v h w Hf Hprop Hv Hw Mj Ev Ew) as (m' & s' & -> & P & Le); [rewrite Z; apply pow_lt; lra|].
  exists f, m', s'. split; [exact E|]. split; [exact Hin|]. split; [exact P|]. apply misfit_passes; [exact L|]. pose proof (@misfit_nonneg z f m' s' values perc). lra.
Qed.
Print Assumptions C113_exact.

(** If the median is the highest percentile, the deviation is not a number, also for values that are
    exactly those of a distribution of the family: the first family is returned with it. *)
Theorem C113_lower_refuted : forall z minimize values perc families, normal_quantiles z -> descends minimize -> known families -> List.length values = List.length perc ->
  In (1 / 2) perc -> (forall p, In p perc -> p <= 1 / 2) -> (forall v, In v values -> 0 < v) ->
  exists v family, hd_error families = Some family /\ fit_percentiles z minimize values perc families = Ok (family, (Some v, None)).
Proof.
  intros z minimize values perc families HZ [_ HM] K L Hhalf Hlow Hpos. assert (N : perc <> []) by (intros ->; destruct Hhalf).
  destruct (@fit_unfold z minimize values perc families L N K) as (i & j & p & h & v & w & Hi & Hv & Mi & Hj & Hw & Mj & E).
  assert (h = 1 / 2) as -> by (pose proof (Mj _ Hhalf); pose proof (Hlow _ (nth_error_In _ _ Hj)); lra).
  pose proof (Hpos v (nth_error_In _ _ Hv)) as Pv. destruct K as [Kn K]. destruct families as [|f families]; [congruence|]. exists v, f. split; [reflexivity|].
  assert (St : starting z f v w (1 / 2) = (Some v, None)).
  { unfold starting. destruct HZ as [-> _]. rewrite Rabs_R0. unfold quotient at 2. destruct (Req_EM_T 0 0); [|congruence]. f_equal. now destruct (if String.eqb f "normal" then _ else _). }
  assert (Eo : ols z values perc f (starting z f v w (1 / 2)) = None).
  { rewrite St. unfold ols. destruct (String.eqb f "normal"); [reflexivity|]. destruct (Rle_dec v 0); [lra|reflexivity]. }
  rewrite E. cbn [map]. rewrite (HM _ _ Eo), St. reflexivity.
Qed.
Print Assumptions C113_lower_refuted.

(** An unknown family is an error. *)
Theorem C113_unknown : forall z minimize values perc families f, In f families -> f <> "normal" -> f <> "lognormal" -> exists e, fit_percentiles z minimize values perc families = Err e.
Proof.
  intros z minimize values perc families f Hf N1 N2. unfold fit_percentiles. destruct (negb _); [eauto|]. destruct (argmin _) as [i|]; [|eauto]. destruct (argmax _) as [j|]; [|eauto].
  match goal with |- exists e, bind (mapM ?k _) _ = _ => set (F := k) end.
  assert (exists e, mapM F families = Err e) as [e ->]; [|now exists e].
  induction families as [|g families IH]; [destruct Hf|]. cbn [mapM]. destruct Hf as [->|Hf].
  - unfold F at 1. assert (mem f ["normal"; "lognormal"] = false) as -> by (apply mem_false; intros [H|[H|[]]]; congruence). now exists ValueError.
  - destruct (F g); [|eexists; reflexivity]. cbn [bind]. destruct (IH Hf) as [e ->]. now exists e.
Qed.
Print Assumptions C113_unknown.

(** ** An example *)

(** In the place of the normal quantiles, those of the uniform distribution on [-1, 1]; a search that
    stays where it is. *)
Definition flat_quantiles (p : R) : R := 2 * p - 1.
Definition stay : search := fun f x => (x, f x).
Lemma flat_ok : normal_quantiles flat_quantiles.
Proof. unfold normal_quantiles, flat_quantiles. split; [lra|intros; lra]. Qed.
Lemma stay_ok : descends stay.
Proof. split; [intros f x0 y0 H; exists x0, y0; unfold stay; rewrite H; repeat split; lra|intros f x0 H; unfold stay; now rewrite H]. Qed.
Example C113_exact_hypotheses_met : exists family m s,
  fit_percentiles flat_quantiles stay [1; 3; 4] [1 / 10; 1 / 2; 7 / 10] ["lognormal"; "normal"] = Ok (family, (Some m, Some s)) /\
  passes flat_quantiles family m s [1; 3; 4] [1 / 10; 1 / 2; 7 / 10].
Proof.
  destruct (@C113_exact flat_quantiles stay [1; 3; 4] [1 / 10; 1 / 2; 7 / 10] ["lognormal"; "normal"] "normal" 3 (5 / 2) flat_ok stay_ok) as (f & m & s & E & _ & _ & P).
  - split; [discriminate|]. intros f [<-|[<-|[]]]; auto.
  - repeat constructor; cbn; intuition lra.
  - intros p [<-|[<-|[<-|[]]]]; lra.
  - right; now left.
  - exists (7 / 10). split; [right; right; now left|lra].
  - intros _ v [<-|[<-|[<-|[]]]]; lra.
  - right; now left.
  - split; [lra|discriminate].
  - unfold passes, quantile, flat_quantiles. cbn. repeat constructor; lra.
  - now exists f, m, s.
Qed.
(** The values 1 and 3 at 10% and 50% are those of the same distribution. *)
Example C113_lower_hypotheses_met : passes flat_quantiles "normal" 3 (5 / 2) [1; 3] [1 / 10; 1 / 2] /\
  exists v family, hd_error ["normal"; "lognormal"] = Some family /\ fit_percentiles flat_quantiles stay [1; 3] [1 / 10; 1 / 2] ["normal"; "lognormal"] = Ok (family, (Some v, None)).
Proof.
  split; [unfold passes, quantile, flat_quantiles; cbn; repeat constructor; lra|]. apply (@C113_lower_refuted flat_quantiles stay [1; 3] [1 / 10; 1 / 2] ["normal"; "lognormal"] flat_ok stay_ok).
  - split; [discriminate|]. intros f [<-|[<-|[]]]; auto.
  - reflexivity.
  - right; now left.
  - intros p [<-|[<-|[]]]; lra.
  - intros v [<-|[<-|[]]]; lra.
Qed.
