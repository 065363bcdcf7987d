(** Proofs about the fit to percentiles. *)
From Coq Require Import Reals Lra Lia.
From Verif Require Import Prelude PreludeFacts M_Percentile S_Percentile.
Local Open Scope string_scope.
Local Open Scope list_scope.
Local Open Scope R_scope.

Lemma least_at_spec l i x : least_at l = Some (i, x) -> nth_error l i = Some x /\ forall y, In y l -> x <= y.
Proof.
  revert i x. induction l as [|v l IH]; intros i x H; cbn in H; [discriminate|]. destruct (least_at l) as [[j y]|] eqn:E.
  - specialize (IH j y eq_refl). destruct IH as [IH1 IH2]. destruct (Rle_dec v y) as [L|L]; injection H as <- <-.
    + split; [reflexivity|]. intros w [<-|Hw]; [lra|]. specialize (IH2 w Hw). lra.
    + split; [exact IH1|]. intros w [<-|Hw]; [lra|now apply IH2].
  - injection H as <- <-. split; [reflexivity|]. intros w [<-|Hw]; [lra|]. destruct l as [|u l]; [destruct Hw|]. cbn in E. destruct (least_at l) as [[? ?]|]; [destruct (Rle_dec _ _)|]; discriminate.
Qed.
Lemma least_at_some l : l <> [] -> exists i x, least_at l = Some (i, x).
Proof. destruct l as [|v l]; [congruence|]. intros _. cbn. destruct (least_at l) as [[j y]|]; [destruct (Rle_dec v y)|]; eauto. Qed.

Lemma first_nan_none l : first_nan l = None -> l = map Some (somes l).
Proof. induction l as [|[x|] l IH]; cbn; intros H; [reflexivity| |discriminate]. f_equal. apply IH. now destruct (first_nan l). Qed.
Lemma first_nan_map l : first_nan (map Some l) = None.
Proof. induction l as [|x l IH]; [reflexivity|]. cbn. now (rewrite IH || (f_equal; exact IH)). Qed.
Lemma somes_map (l : list R) : somes (map Some l) = l.
Proof. induction l as [|x l IH]; [reflexivity|]. cbn. now (rewrite IH || (f_equal; exact IH)). Qed.

(** All numbers: the first of the least. *)
Lemma argmin_numbers (l : list R) : l <> [] -> exists i x, argmin (map Some l) = Some i /\ nth_error l i = Some x /\ forall y, In y l -> x <= y.
Proof.
  intros N. destruct (@least_at_some l N) as (i & x & E). exists i, x. unfold argmin. rewrite first_nan_map, somes_map, E. split; [reflexivity|]. now apply least_at_spec.
Qed.
Lemma argmin_id {A} (f : A -> R) l : l <> [] -> exists i a, argmin (map (fun a => Some (f a)) l) = Some i /\ nth_error l i = Some a /\ forall b, In b l -> f a <= f b.
Proof.
  intros N. destruct (@argmin_numbers (map f l)) as (i & x & E & Hn & Hm); [now destruct l|]. rewrite map_map in E.
  rewrite nth_error_map in Hn. destruct (nth_error l i) as [a|] eqn:Ea; [|discriminate]. injection Hn as <-. exists i, a. split; [exact E|]. split; [exact Ea|].
  intros b Hb. apply Hm. now apply in_map.
Qed.
Lemma argmax_id {A} (f : A -> R) l : l <> [] -> exists i a, argmax (map f l) = Some i /\ nth_error l i = Some a /\ forall b, In b l -> f b <= f a.
Proof.
  intros N. unfold argmax. rewrite map_map. destruct (@argmin_id A (fun a => - f a) l N) as (i & a & E & Hn & Hm). exists i, a. split; [exact E|]. split; [exact Hn|].
  intros b Hb. specialize (Hm b Hb). lra.
Qed.

Lemma nth_error_pairs {A B} (a : list A) (b : list B) i x y : nth_error a i = Some x -> nth_error b i = Some y -> nth_error (combine a b) i = Some (x, y).
Proof. revert b i. induction a as [|u a IH]; intros [|v b] [|i] Ha Hb; try discriminate; [now injection Ha as ->; injection Hb as ->|now apply IH]. Qed.

Lemma quantile_exp (z : R -> R) m s p : 0 < m -> exp (ln m + s * z p) = m * exp (s * z p).
Proof. intros H. rewrite exp_plus, exp_ln by exact H. reflexivity. Qed.

Lemma recognised family : mem family ["normal"; "lognormal"] = true -> family = "normal" \/ family = "lognormal".
Proof. intros H. apply mem_true in H. destruct H as [<-|[<-|[]]]; auto. Qed.

(** The error that is minimized is the misfit of a proper distribution. *)
Lemma ols_proper z values perc family m s : family = "normal" \/ family = "lognormal" -> proper family m s ->
  ols z values perc family (Some m, Some s) = Some (misfit z family m s values perc).
Proof.
  intros [-> | ->] [Hs Hm]; unfold ols, misfit, quantile.
  - change (String.eqb "normal" "normal") with true. cbv iota. destruct (Rle_dec s 0); [lra|]. f_equal. f_equal. apply map_ext. intros vp. ring.
  - change (String.eqb "lognormal" "normal") with false. cbv iota. specialize (Hm eq_refl). destruct (Rle_dec m 0); [lra|]. destruct (Rle_dec s 0); [lra|].
    f_equal. f_equal. apply map_ext. intros vp. rewrite quantile_exp by exact Hm. ring.
Qed.
Lemma ols_small z values perc family p y : family = "normal" \/ family = "lognormal" -> ols z values perc family p = Some y -> y < 10 ^ 10 ->
  exists m s, p = (Some m, Some s) /\ proper family m s /\ y = misfit z family m s values perc.
Proof.
  intros Hf H Hy. assert (G : forall y, Some (10 ^ 10) = Some y -> ~ y < 10 ^ 10) by (intros ? E; injection E as <-; lra).
  destruct p as [[m|] [s|]]; destruct Hf as [-> | ->]; unfold ols in H; cbn [String.eqb Ascii.eqb Bool.eqb] in H; try discriminate;
    repeat (match type of H with context [Rle_dec ?a ?b] => destruct (Rle_dec a b); [exfalso; exact (G y H Hy)|] end); try discriminate.
  - assert (P : proper "normal" m s) by (split; [lra|discriminate]). exists m, s. split; [reflexivity|]. split; [exact P|].
    pose proof (@ols_proper z values perc "normal" m s (or_introl eq_refl) P) as E. unfold ols in E. cbn [String.eqb Ascii.eqb Bool.eqb] in E. destruct (Rle_dec s 0); [lra|]. congruence.
  - assert (P : proper "lognormal" m s) by (split; [lra|intros; lra]). exists m, s. split; [reflexivity|]. split; [exact P|].
    pose proof (@ols_proper z values perc "lognormal" m s (or_intror eq_refl) P) as E. unfold ols in E. cbn [String.eqb Ascii.eqb Bool.eqb] in E. destruct (Rle_dec m 0); [lra|]. destruct (Rle_dec s 0); [lra|]. congruence.
Qed.

Lemma misfit_nonneg z family m s values perc : 0 <= misfit z family m s values perc.
Proof. unfold misfit. induction (combine values perc) as [|vp l IH]; cbn; [lra|]. pose proof (Rle_0_sqr (quantile z family m s (snd vp) - fst vp)). unfold Rsqr in *. lra. Qed.
Lemma misfit_passes z family m s values perc : List.length values = List.length perc ->
  (misfit z family m s values perc = 0 <-> passes z family m s values perc).
Proof.
  revert perc. induction values as [|v values IH]; intros [|p perc] L; cbn in L; try discriminate; [split; [constructor|reflexivity]|].
  specialize (IH perc ltac:(congruence)). unfold misfit, passes in *. cbn [combine map fold_right fst snd].
  pose proof (@misfit_nonneg z family m s values perc) as N. unfold misfit in N. set (q := quantile z family m s p) in *. split.
  - intros H. pose proof (Rle_0_sqr (q - v)) as Q. unfold Rsqr in Q. assert (Z : (q - v) * (q - v) = 0) by lra.
    constructor; [|apply IH; lra]. fold q. apply Rmult_integral in Z as [Z|Z]; lra.
  - intros H. inversion H as [|? ? ? ? Hv Ht]; subst. apply IH in Ht. fold q. rewrite Ht. ring.
Qed.
