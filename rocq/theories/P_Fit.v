(** Proofs about the fitting of distributions. *)
From Coq Require Import Reals Lra.
From Verif Require Import Prelude PreludeFacts M_Dist M_Fit S_Fit.
Set Implicit Arguments.
Local Open Scope string_scope.
Local Open Scope list_scope.
Local Open Scope R_scope.

(** ** Sums *)

Lemma rsum_total l : rsum l = total l.
Proof. induction l as [|x l IH]; [reflexivity|]. cbn. now rewrite IH. Qed.
Lemma np_mean_average l : np_mean l = average l.
Proof. unfold np_mean, average. now rewrite rsum_total. Qed.
Lemma map_diagonal {A B} (f : A * A -> B) l : map f (combine l l) = map (fun x => f (x, x)) l.
Proof. induction l as [|x l IH]; [reflexivity|]. cbn. now rewrite IH. Qed.
Lemma np_std_deviation l : np_std l = deviation l.
Proof.
  unfold np_std, deviation, variance, covariance. rewrite map_diagonal. cbn [fst snd]. f_equal.
Qed.
Lemma total_nonneg l : Forall (fun x => 0 <= x) l -> 0 <= total l.
Proof. induction 1 as [|x l Hx _ IH]; cbn; [lra|]. unfold total in IH. lra. Qed.
Lemma total_zero l : Forall (fun x => 0 <= x) l -> total l = 0 -> Forall (fun x => x = 0) l.
Proof.
  induction 1 as [|x l Hx Hl IH]; intros E; [constructor|]. cbn in E. pose proof (total_nonneg Hl) as Hn. unfold total in Hn, IH.
  constructor; [lra|apply IH; lra].
Qed.
Lemma total_map_mult {A} c (f : A -> R) l : total (map (fun x => c * f x) l) = c * total (map f l).
Proof. induction l as [|x l IH]; cbn; [ring|]. unfold total in IH. rewrite IH. ring. Qed.
Lemma total_map_plus {A} (f g : A -> R) l : total (map (fun x => f x + g x) l) = total (map f l) + total (map g l).
Proof. induction l as [|x l IH]; cbn; [ring|]. unfold total in IH. rewrite IH. ring. Qed.
Lemma total_const {A} c (l : list A) : total (map (fun _ => c) l) = INR (List.length l) * c.
Proof. induction l as [|x l IH]; [cbn; ring|]. cbn [map List.length]. rewrite S_INR. cbn. unfold total in IH. rewrite IH. ring. Qed.
Lemma total_map_ext {A} (f g : A -> R) l : (forall x, In x l -> f x = g x) -> total (map f l) = total (map g l).
Proof. intros H. f_equal. now apply map_ext_in. Qed.

Lemma squares_nonneg c (l : list R) : Forall (fun x => 0 <= x) (map (fun x => (x - c) * (x - c)) l).
Proof. apply Forall_forall. intros y Hy. apply in_map_iff in Hy as (x & <- & _). apply Rle_0_sqr. Qed.
Lemma variance_squares l : variance l = average (map (fun x => (x - average l) * (x - average l)) l).
Proof. unfold variance, covariance. now rewrite map_diagonal. Qed.
Lemma variance_nonneg l : 0 <= variance l.
Proof.
  rewrite variance_squares. unfold average at 1. rewrite map_length. destruct l as [|x l]; [cbn; unfold Rdiv; rewrite Rmult_0_l; lra|].
  apply Rmult_le_pos; [apply total_nonneg, squares_nonneg|]. apply Rlt_le, Rinv_0_lt_compat, lt_0_INR. cbn. lia.
Qed.
Lemma variance_zero l : variance l = 0 -> forall x, In x l -> x = average l.
Proof.
  rewrite variance_squares. unfold average at 1. rewrite map_length. intros H x Hx.
  assert (Hn : INR (List.length l) <> 0) by (apply not_0_INR; destruct l; [destruct Hx|discriminate]).
  assert (total (map (fun x => (x - average l) * (x - average l)) l) = 0).
  { apply (f_equal (fun y => y * INR (List.length l))) in H. unfold Rdiv in H. rewrite Rmult_assoc, Rinv_l, Rmult_1_r, Rmult_0_l in H by exact Hn. exact H. }
  apply total_zero in H0; [|apply squares_nonneg]. rewrite Forall_forall in H0. specialize (H0 ((x - average l) * (x - average l))).
  assert ((x - average l) * (x - average l) = 0) by (apply H0, in_map_iff; now exists x). apply Rsqr_0_uniq in H1. lra.
Qed.
Lemma variance_single x : variance [x] = 0.
Proof. rewrite variance_squares. unfold average. cbn. field. Qed.
Lemma deviation_pos l : variance l <> 0 -> 0 < deviation l.
Proof. intros H. apply sqrt_lt_R0. pose proof (variance_nonneg l). lra. Qed.
Lemma deviation_sqr l : deviation l * deviation l = variance l.
Proof. apply sqrt_sqrt, variance_nonneg. Qed.

Lemma first_positive_pos : 0 < first_positive.
Proof. apply Rinv_0_lt_compat, pow_lt. lra. Qed.
Lemma initial_spec xs : fst (initial xs) = average xs /\ 0 < snd (initial xs) /\ (variance xs <> 0 -> snd (initial xs) = deviation xs).
Proof.
  unfold initial. cbn [fst snd]. rewrite np_mean_average. split; [reflexivity|].
  assert (Hs : (List.length xs =? 1)%nat = true -> variance xs = 0).
  { intros H. apply Nat.eqb_eq in H. destruct xs as [|x [|y l]]; try discriminate H. apply variance_single. }
  destruct (Nat.eqb (List.length xs) 1) eqn:E.
  - destruct (Req_EM_T 0 0) as [_|N]; [|lra]. split; [|intros H; now rewrite Hs in H].
    pose proof first_positive_pos. assert (0 <= / 10 ^ 6 * Rabs (average xs)) by (apply Rmult_le_pos; [apply Rlt_le, Rinv_0_lt_compat, pow_lt; lra|apply Rabs_pos]). lra.
  - rewrite np_std_deviation. destruct (Req_EM_T (deviation xs) 0) as [Ez|N].
    + split.
      * pose proof first_positive_pos. assert (0 <= / 10 ^ 6 * Rabs (average xs)) by (apply Rmult_le_pos; [apply Rlt_le, Rinv_0_lt_compat, pow_lt; lra|apply Rabs_pos]). lra.
      * intros H. apply deviation_pos in H. lra.
    + split; [|reflexivity]. pose proof (sqrt_pos (variance xs)) as H. unfold deviation in *. lra.
Qed.

(** ** Without limits *)

Lemma log_row_ok fam xs : (fam = "lognormal" -> Forall (fun x => 0 < x) xs) -> log_row false fam xs = Ok (normal_values fam xs).
Proof.
  unfold log_row, normal_values. destruct (String.eqb_spec fam "lognormal") as [E|N]; [|reflexivity]. intros H. specialize (H E). clear E.
  induction H as [|x xs Hx _ IH]; [reflexivity|]. cbn [mapM map]. destruct (Rlt_dec 0 x); [|contradiction]. cbn [bind]. rewrite IH. reflexivity.
Qed.
Lemma normal_values_length fam xs : List.length (normal_values fam xs) = List.length xs.
Proof. unfold normal_values. destruct (String.eqb fam "lognormal"); [apply map_length|reflexivity]. Qed.

Lemma tile_length {A} n (a : array A) : rows_for n a -> List.length (content (tile n a)) = n.
Proof.
  unfold rows_for, tile. intros H. destruct (content a) as [|x [|y l]] eqn:E.
  - rewrite E. destruct H as [H|H]; [exact H|discriminate H].
  - destruct (Nat.eqb_spec n 1) as [->|N]; [now rewrite E|]. cbn. apply repeat_length.
  - rewrite E. destruct H as [H|H]; [exact H|discriminate H].
Qed.
Lemma tile_In {A} n (a : array A) l : In l (content (tile n a)) -> In l (content a).
Proof.
  unfold tile. destruct (content a) as [|x [|y t]] eqn:E; try (rewrite E; exact (fun H => H)).
  destruct (n =? 1)%nat; [rewrite E; exact (fun H => H)|]. cbn [content]. intros H. apply repeat_spec in H as ->. now left.
Qed.
Lemma families_tiled n (fams : list string) : List.length fams = n -> match fams with [f] => repeat f n | _ => fams end = fams.
Proof. intros <-. destruct fams as [|f [|g l]]; reflexivity. Qed.

Lemma logged_no_limits w fams ls : (forall l, In l ls -> l = (XNaN, XNaN)) -> List.length fams = List.length ls ->
  map (fun fl => log_limits w (fst fl) (snd fl)) (combine fams ls) = ls.
Proof.
  revert fams. induction ls as [|l ls IH]; intros [|f fams] H E; try discriminate E; [reflexivity|]. cbn [combine map fst snd]. f_equal.
  - rewrite (H l) by now left. unfold log_limits. destruct (String.eqb f "lognormal"); reflexivity.
  - apply IH; [intros l' Hl'; apply H; now right|now injection E].
Qed.
Lemma nothing_given ls : (forall l, In l ls -> l = (XNaN, XNaN)) -> some_given ls = false.
Proof.
  intros H. unfold some_given. induction ls as [|l ls IH]; [reflexivity|]. cbn [existsb]. rewrite (H l) by now left. cbn. apply IH. intros l' Hl. apply H. now right.
Qed.
Lemma logged_samples m fams xs : fits m fams xs ->
  mapM (fun fx => log_row false (fst fx) (snd fx)) (combine fams xs) = Ok (map (fun fx => normal_values (fst fx) (snd fx)) (combine fams xs)).
Proof.
  intros (Hlen & _ & _ & _ & Hpos). revert fams Hlen Hpos. induction xs as [|x xs IH]; intros [|f fams] Hlen Hpos; try discriminate Hlen; [reflexivity|].
  cbn [combine mapM map fst snd]. rewrite log_row_ok by (intros ->; exact (Hpos 0%nat x eq_refl eq_refl)). cbn [bind].
  rewrite IH; [reflexivity|now injection Hlen|]. intros i xi Hf Hx. exact (Hpos (S i) xi Hf Hx).
Qed.

Definition standard (x : list R) : list R := map (fun v => (v - fst (initial x)) / snd (initial x)) x.
Lemma std_row_ok T fam x : inverse_pair T -> In fam families -> std_row T fam (XNaN, XNaN) (initial x) x = Ok (standard x).
Proof.
  intros [Hc Hp] Hf. unfold std_row. assert (supported fam = true) as -> by (apply mem_true; exact Hf).
  replace (existsb _ x) with false.
  2:{ symmetry. induction x as [|v x IH]; [reflexivity|]. cbn [existsb fst snd]. destruct (above_dec v XNaN) as [[]|_]. destruct (below_dec v XNaN) as [[]|_]. exact IH. }
  unfold standard. generalize (proj1 (proj2 (initial_spec x))). generalize (initial x). intros th Hth. induction x as [|v x IH]; [reflexivity|]. cbn [mapM map].
  unfold std_value at 1. cbn [fst snd limit_prob standardize norm_cdf]. destruct (Rlt_dec 0 (snd th)); [|contradiction].
  destruct (Req_EM_T (1 - 0) 0) as [E|_]; [lra|]. replace ((cdf T ((v - fst th) / snd th) - 0) / (1 - 0)) with (cdf T ((v - fst th) / snd th)) by field.
  destruct (Rlt_dec 0 (cdf T ((v - fst th) / snd th))) as [_|N]; [|destruct (Hc ((v - fst th) / snd th)); contradiction].
  destruct (Rlt_dec (cdf T ((v - fst th) / snd th)) 1) as [_|N]; [|destruct (Hc ((v - fst th) / snd th)); contradiction].
  cbn [bind]. rewrite Hp, IH. reflexivity.
Qed.
Lemma std_rows T fams ls xs : inverse_pair T -> List.length fams = List.length xs -> List.length ls = List.length xs -> (forall f, In f fams -> In f families) ->
  (forall l, In l ls -> l = (XNaN, XNaN)) ->
  mapM (fun v => std_row T (fst (fst (fst v))) (snd (fst (fst v))) (snd (fst v)) (snd v)) (combine (combine (combine fams ls) (map initial xs)) xs) = Ok (map standard xs).
Proof.
  intros HT. revert fams ls. induction xs as [|x xs IH]; intros [|f fams] [|l ls] E1 E2 Hf Hl; try discriminate; [reflexivity|].
  cbn [combine map mapM fst snd]. rewrite (Hl l) by now left. rewrite std_row_ok; [|exact HT|apply Hf; now left]. cbn [bind].
  rewrite IH; [reflexivity|now injection E1|now injection E2|intros g Hg; apply Hf; now right|intros l' Hl'; apply Hl; now right].
Qed.

Definition values_of (fams : list string) (xs : matrix) : matrix := map (fun fx => normal_values (fst fx) (snd fx)) (combine fams xs).
Lemma values_length fams xs : List.length fams = List.length xs -> List.length (values_of fams xs) = List.length xs.
Proof. intros E. unfold values_of. rewrite map_length, combine_length. lia. Qed.
Lemma values_nth fams xs i f x : nth_error fams i = Some f -> nth_error xs i = Some x -> nth_error (values_of fams xs) i = Some (normal_values f x).
Proof.
  unfold values_of. revert fams xs. induction i as [|i IH]; intros [|g fams] [|y xs] Hf Hx; try discriminate.
  - injection Hf as ->. injection Hx as ->. reflexivity.
  - cbn. now apply IH.
Qed.
Lemma values_row_length fams xs m : (forall x, In x xs -> List.length x = m) -> forall v, In v (values_of fams xs) -> List.length v = m.
Proof.
  intros H v Hv. unfold values_of in Hv. apply in_map_iff in Hv as ([f x] & <- & Hin). cbn. rewrite normal_values_length. apply H. exact (in_combine_r _ _ _ _ Hin).
Qed.
Lemma first_length xs m : xs <> [] -> (forall v : list R, In v xs -> List.length v = m) -> match xs with x :: _ => List.length x | [] => 0%nat end = m.
Proof. intros N H. destruct xs as [|x xs]; [contradiction|]. apply H. now left. Qed.

(** The result of a fit without limits. *)
Lemma fit_moments T raw fams tr count det multi m : inverse_pair T -> fits m fams (content raw) -> whole raw = false ->
  rows_for (List.length fams) tr -> rows_for (List.length fams) det -> no_limits tr -> no_limits det ->
  exists after, fit T raw fams tr count det multi =
    Ok (map (fun ft => reported (fst ft) (snd ft)) (combine fams (map initial (values_of fams (content raw)))),
        match std_correlation T (match values_of fams (content raw) with x :: _ => List.length x | [] => 0%nat end) (map standard (values_of fams (content raw))) with
        | Some r => r | None => uncorrelated (List.length fams) end, after).
Proof.
  intros HT Hfit Hw Htr Hdet Ltr Ldet. pose proof Hfit as (Hlen & Hm & Hrows & Hfam & Hpos). unfold fit. rewrite <- Hlen in *.
  rewrite (families_tiled fams eq_refl), (tile_length Htr), (tile_length Hdet), Nat.eqb_refl. cbn [andb negb].
  replace (existsb _ (content raw)) with false.
  2:{ symmetry. destruct (existsb _ (content raw)) eqn:E; [|reflexivity]. apply existsb_exists in E as (x & Hx & Ex). specialize (Hrows x Hx). destruct x; [cbn in Hrows; lia|discriminate]. }
  rewrite Hw, (logged_samples Hfit). cbn [bind]. fold (values_of fams (content raw)).
  assert (Ltr' : forall l, In l (content (tile (List.length fams) tr)) -> l = (XNaN, XNaN)) by (intros l Hl; apply Ltr; exact (tile_In _ _ _ Hl)).
  assert (Ldet' : forall l, In l (content (tile (List.length fams) det)) -> l = (XNaN, XNaN)) by (intros l Hl; apply Ldet; exact (tile_In _ _ _ Hl)).
  rewrite (@logged_no_limits _ fams _ Ltr') by (now rewrite (tile_length Htr)). rewrite (@logged_no_limits _ fams _ Ldet') by (now rewrite (tile_length Hdet)).
  unfold parameters at 1. rewrite (@nothing_given _ Ltr'), (@nothing_given _ Ldet'). cbn [orb negb]. rewrite orb_true_r. cbn [bind].
  rewrite (@std_rows T fams _ (values_of fams (content raw)) HT); [|now rewrite values_length|rewrite values_length by exact Hlen; now rewrite (tile_length Htr)|exact Hfam|exact Ltr'].
  cbn [bind]. eexists. reflexivity.
Qed.

Lemma reported_moments fam xs : In fam families -> has_moments fam xs -> moments fam xs (reported fam (initial (normal_values fam xs))).
Proof.
  intros Hf [Hv Hm]. destruct (initial_spec (normal_values fam xs)) as (E0 & _ & E1). specialize (E1 Hv).
  unfold families in Hf. cbn [In] in Hf. unfold reported, moments. rewrite E0, E1.
  destruct Hf as [<-|[<-|[<-|[<-|[]]]]]; cbn - [pow Rinv]; try reflexivity.
  - destruct (Rlt_dec (Rabs (average xs)) (/ 10 ^ 40)) as [L|_]; [|reflexivity]. assert (/ 10 ^ 40 <= Rabs (average xs)) by (apply Hm; now left). lra.
  - destruct (Rlt_dec (Rabs (average xs)) (/ 10 ^ 40)) as [L|_]; [|reflexivity]. assert (/ 10 ^ 40 <= Rabs (average xs)) by (apply Hm; right; now left). lra.
Qed.

(** ** Correlations *)

Lemma sum_n_ext n f g : (forall i, (i < n)%nat -> f i = g i) -> sum_n n f = sum_n n g.
Proof. intros H. apply total_map_ext. intros i Hi. apply in_seq in Hi. apply H. lia. Qed.
Lemma sum_n_plus n f g : sum_n n (fun i => f i + g i) = sum_n n f + sum_n n g.
Proof. apply total_map_plus. Qed.
Lemma sum_n_scal n c f : sum_n n (fun i => c * f i) = c * sum_n n f.
Proof. apply total_map_mult. Qed.
Lemma sum_n_nonneg n f : (forall i, (i < n)%nat -> 0 <= f i) -> 0 <= sum_n n f.
Proof. intros H. apply total_nonneg. apply Forall_forall. intros x Hx. apply in_map_iff in Hx as (i & <- & Hi). apply in_seq in Hi. apply H. lia. Qed.
Lemma sum_n_zero n : sum_n n (fun _ => 0) = 0.
Proof. unfold sum_n. rewrite total_const. ring. Qed.
Lemma total_swap {A B} (f : A -> B -> R) l k :
  total (map (fun x => total (map (f x) k)) l) = total (map (fun y => total (map (fun x => f x y) l)) k).
Proof.
  induction l as [|x l IH].
  - cbn [map]. unfold total at 2. cbn [fold_right]. rewrite total_const. cbn. ring.
  - cbn [map]. change (total (map (f x) k) + total (map (fun x => total (map (f x) k)) l) = total (map (fun y => f x y + total (map (fun x => f x y) l)) k)).
    rewrite total_map_plus, IH. reflexivity.
Qed.
Lemma sum_n_swap n m f : sum_n n (fun i => sum_n m (f i)) = sum_n m (fun j => sum_n n (fun i => f i j)).
Proof. apply total_swap. Qed.
Lemma sum_n_S n f : sum_n (S n) f = sum_n n f + f n.
Proof.
  unfold sum_n. rewrite seq_S, map_app. cbn [map plus]. generalize (map f (seq 0 n)). intros l. induction l as [|x l IH]; cbn; [ring|]. unfold total in IH. rewrite IH. ring.
Qed.
Lemma sum_n_delta n i f : (i < n)%nat -> sum_n n (fun j => if (i =? j)%nat then f j else 0) = f i.
Proof.
  induction n as [|n IH]; intros H; [lia|]. rewrite sum_n_S. destruct (Nat.eqb_spec i n) as [->|N].
  - rewrite (sum_n_ext (n := n) _ (fun _ => 0)); [rewrite sum_n_zero; ring|]. intros j Hj. destruct (Nat.eqb_spec n j); [lia|reflexivity].
  - rewrite IH by lia. ring.
Qed.

Lemma product_sym a b : product a b = product b a.
Proof. unfold product. revert b. induction a as [|x a IH]; intros [|y b]; cbn; try reflexivity. rewrite IH. ring. Qed.
Lemma product_sum m a b : List.length a = m -> List.length b = m -> product a b = sum_n m (fun k => nth k a 0 * nth k b 0).
Proof.
  unfold product, sum_n. rewrite rsum_total. revert a b. induction m as [|m IH]; intros [|x a] [|y b] Ha Hb; try discriminate; [reflexivity|].
  cbn [combine map seq fst snd]. change (x * y + total (map (fun p => fst p * snd p) (combine a b)) = x * y + total (map (fun k => nth k (x :: a) 0 * nth k (y :: b) 0) (seq 1 m))).
  f_equal. rewrite IH by (cbn in Ha, Hb; lia). rewrite <- seq_shift, map_map. reflexivity.
Qed.
Lemma product_half a b m : List.length a = m -> List.length b = m -> Rabs (product a b) <= (product a a + product b b) / 2.
Proof.
  intros Ha Hb. rewrite !(@product_sum m) by assumption.
  assert (H1 : 0 <= sum_n m (fun k => (nth k a 0 + nth k b 0) * (nth k a 0 + nth k b 0))) by (apply sum_n_nonneg; intros; apply Rle_0_sqr).
  assert (H2 : 0 <= sum_n m (fun k => (nth k a 0 - nth k b 0) * (nth k a 0 - nth k b 0))) by (apply sum_n_nonneg; intros; apply Rle_0_sqr).
  rewrite (sum_n_ext _ (fun k => (nth k a 0 * nth k a 0 + nth k b 0 * nth k b 0) + 2 * (nth k a 0 * nth k b 0))) in H1 by (intros; ring).
  rewrite (sum_n_ext _ (fun k => (nth k a 0 * nth k a 0 + nth k b 0 * nth k b 0) + -2 * (nth k a 0 * nth k b 0))) in H2 by (intros; ring).
  rewrite !sum_n_plus, sum_n_scal in H1, H2. apply Rabs_le. lra.
Qed.

Lemma standard_length x : List.length (standard x) = List.length x.
Proof. apply map_length. Qed.
Lemma map_combine_maps {A B C D} (f : A -> C) (g : B -> D) a b : combine (map f a) (map g b) = map (fun p => (f (fst p), g (snd p))) (combine a b).
Proof. revert b. induction a as [|x a IH]; intros [|y b]; cbn; [reflexivity..|]. now rewrite IH. Qed.
Lemma product_standard m x y : List.length x = m -> List.length y = m -> product (standard x) (standard y) / INR m = pearson x y.
Proof.
  intros Hx Hy. unfold product, standard. rewrite rsum_total, map_combine_maps, map_map. cbn [fst snd].
  destruct (initial_spec x) as (Ex0 & Ex1 & Ex2). destruct (initial_spec y) as (Ey0 & Ey1 & Ey2). rewrite Ex0, Ey0. unfold pearson.
  assert (Hz : forall (f : R * R -> R), (forall p, In p (combine x y) -> f p = 0) -> total (map f (combine x y)) / INR m = 0).
  { intros f Hf. rewrite (total_map_ext f (fun _ => 0)) by exact Hf. rewrite total_const, Rmult_0_r. unfold Rdiv. ring. }
  destruct (Req_EM_T (variance x) 0) as [Vx|Vx].
  { apply Hz. intros [a b] Hp. cbn [fst snd]. rewrite (variance_zero Vx a (in_combine_l _ _ _ _ Hp)). unfold Rdiv, Rminus. rewrite Rplus_opp_r. ring. }
  destruct (Req_EM_T (variance y) 0) as [Vy|Vy].
  { apply Hz. intros [a b] Hp. cbn [fst snd]. rewrite (variance_zero Vy b (in_combine_r _ _ _ _ Hp)). unfold Rdiv, Rminus. rewrite Rplus_opp_r. ring. }
  rewrite (Ex2 Vx), (Ey2 Vy). pose proof (deviation_pos Vx). pose proof (deviation_pos Vy). unfold covariance, average at 3. rewrite map_length, combine_length, Hx, Hy, Nat.min_id.
  rewrite (total_map_ext _ (fun p => / (deviation x * deviation y) * ((fst p - average x) * (snd p - average y)))).
  2:{ intros p _. field. split; lra. }
  rewrite total_map_mult. unfold Rdiv. ring.
Qed.
Lemma pearson_self x : pearson x x <= 1.
Proof.
  unfold pearson. destruct (Req_EM_T (variance x) 0) as [|N]; [lra|]. rewrite deviation_sqr. fold (variance x). unfold Rdiv. rewrite Rinv_r by exact N. lra.
Qed.
Lemma pearson_sym x y : List.length x = List.length y -> pearson x y = pearson y x.
Proof. intros E. rewrite <- (@product_standard (List.length y)) by (exact E || reflexivity). rewrite product_sym. now apply product_standard. Qed.
Lemma pearson_bound x y : (0 < List.length x)%nat -> List.length x = List.length y -> -1 <= pearson x y <= 1.
Proof.
  intros Hm E. set (m := List.length x) in *.
  assert (HN : 0 < INR m) by (apply lt_0_INR; exact Hm).
  pose proof (@product_half (standard x) (standard y) m ltac:(apply standard_length) ltac:(rewrite standard_length; congruence)) as H.
  apply (Rmult_le_compat_r (/ INR m)) in H; [|apply Rlt_le, Rinv_0_lt_compat, HN].
  replace ((product (standard x) (standard x) + product (standard y) (standard y)) / 2 * / INR m) with
    ((product (standard x) (standard x) / INR m + product (standard y) (standard y) / INR m) / 2) in H by (field; lra).
  rewrite !(@product_standard m) in H by (reflexivity || congruence). pose proof (pearson_self x). pose proof (pearson_self y).
  assert (Hb : Rabs (pearson x y) <= 1).
  { rewrite <- (@product_standard m x y) by (reflexivity || congruence). unfold Rdiv. rewrite Rabs_mult, (Rabs_pos_eq (/ INR m)) by (apply Rlt_le, Rinv_0_lt_compat, HN). lra. }
  revert Hb. unfold Rabs. destruct (Rcase_abs (pearson x y)); lra.
Qed.

Lemma nth_map_seq {A} (f : nat -> A) n i d : (i < n)%nat -> nth i (map f (seq 0 n)) d = f i.
Proof. intros H. rewrite (nth_indep _ d (f 0%nat)) by (now rewrite map_length, seq_length). rewrite map_nth, seq_nth by exact H. reflexivity. Qed.
Lemma tabulate_at n f i j : (i < n)%nat -> (j < n)%nat -> at_ (tabulate n f) i j = f i j.
Proof. intros Hi Hj. unfold at_, tabulate. rewrite nth_map_seq by exact Hi. now apply nth_map_seq. Qed.
Lemma tabulate_square n f : square_matrix n (tabulate n f).
Proof.
  split; [unfold tabulate; now rewrite map_length, seq_length|]. apply Forall_forall. intros r Hr. apply in_map_iff in Hr as (i & <- & _). now rewrite map_length, seq_length.
Qed.
Lemma tabulate_ext n f g : (forall i j, (i < n)%nat -> (j < n)%nat -> f i j = g i j) -> tabulate n f = tabulate n g.
Proof.
  intros H. unfold tabulate. apply map_ext_in. intros i Hi. apply in_seq in Hi. apply map_ext_in. intros j Hj. apply in_seq in Hj. apply H; lia.
Qed.
Lemma square_tabulate n a : square_matrix n a -> a = tabulate n (at_ a).
Proof.
  intros [E H]. apply (nth_ext _ _ [] []); [unfold tabulate; now rewrite map_length, seq_length|]. intros i Hi. rewrite E in Hi. unfold tabulate. rewrite nth_map_seq by exact Hi.
  rewrite Forall_forall in H. assert (Hl : List.length (nth i a []) = n) by (apply H, nth_In; lia).
  apply (nth_ext _ _ 0 0); [now rewrite map_length, seq_length|]. intros j Hj. rewrite Hl in Hj. now rewrite nth_map_seq.
Qed.

Definition correlations (n : nat) (x : nat -> list R) : matrix := tabulate n (fun i j => if (i =? j)%nat then 1 else pearson (x i) (x j)).
Lemma raw_correlation_pearson m xs : (forall x, In x xs -> List.length x = m) ->
  raw_correlation m (map standard xs) = correlations (List.length xs) (fun i => nth i xs []).
Proof.
  intros H. unfold raw_correlation, correlations. rewrite map_length. apply tabulate_ext. intros i j Hi Hj. destruct (Nat.eqb_spec i j) as [|N]; [reflexivity|].
  assert (Hn : forall k, (k < List.length xs)%nat -> nth k (map standard xs) [] = standard (nth k xs []) /\ List.length (nth k xs []) = m).
  { intros k Hk. split; [exact (map_nth standard xs [] k)|]. apply H, nth_In, Hk. }
  destruct (Nat.le_ge_cases i j) as [L|L].
  - rewrite Nat.min_l, Nat.max_r by exact L. destruct (Hn i Hi) as [-> Li], (Hn j Hj) as [-> Lj]. now apply product_standard.
  - rewrite Nat.min_r, Nat.max_l by exact L. destruct (Hn i Hi) as [-> Li], (Hn j Hj) as [-> Lj]. rewrite product_sym. now apply product_standard.
Qed.

Lemma correlations_semidefinite n m x : (0 < m)%nat -> (forall i, (i < n)%nat -> List.length (x i) = m) -> semidefinite n (correlations n x).
Proof.
  intros Hm Hx v. assert (HN : 0 < INR m) by (now apply lt_0_INR).
  set (z := fun i k => nth k (standard (x i)) 0). set (G := fun i j => / INR m * sum_n m (fun k => z i k * z j k)).
  assert (HG : forall i j, (i < n)%nat -> (j < n)%nat -> pearson (x i) (x j) = G i j).
  { intros i j Hi Hj. rewrite <- (@product_standard m) by auto. rewrite (@product_sum m) by (rewrite standard_length; auto). apply Rmult_comm. }
  assert (E : quadratic n (correlations n x) v = / INR m * sum_n m (fun k => sum_n n (fun i => v i * z i k) * sum_n n (fun i => v i * z i k)) + sum_n n (fun i => (1 - G i i) * (v i * v i))).
  { unfold quadratic. rewrite (sum_n_ext _ (fun i => sum_n n (fun j => v i * G i j * v j) + (1 - G i i) * (v i * v i))).
    - rewrite sum_n_plus. f_equal. unfold G.
      rewrite (sum_n_ext _ (fun i => / INR m * sum_n n (fun j => sum_n m (fun k => (v i * z i k) * (v j * z j k))))).
      + rewrite sum_n_scal. f_equal.
        rewrite (sum_n_ext (n := n) _ (fun i => sum_n m (fun k => sum_n n (fun j => (v i * z i k) * (v j * z j k))))) by (intros i _; apply sum_n_swap).
        rewrite sum_n_swap. apply sum_n_ext. intros k _.
        rewrite (sum_n_ext (n := n) _ (fun i => sum_n n (fun j => v j * z j k) * (v i * z i k))) by (intros i _; rewrite sum_n_scal; ring).
        now rewrite sum_n_scal.
      + intros i _. rewrite <- sum_n_scal. apply sum_n_ext. intros j _. rewrite (sum_n_ext (n := m) (fun k => v i * z i k * (v j * z j k)) (fun k => (v i * v j) * (z i k * z j k))) by (intros; ring).
        rewrite sum_n_scal. ring.
    - intros i Hi. rewrite (sum_n_ext _ (fun j => v i * G i j * v j + (if (i =? j)%nat then (1 - G j j) * (v j * v j) else 0))).
      + rewrite sum_n_plus. f_equal. rewrite (sum_n_delta (fun j => (1 - G j j) * (v j * v j)) Hi). reflexivity.
      + intros j Hj. unfold correlations. rewrite tabulate_at by assumption. destruct (Nat.eqb_spec i j) as [->|N]; [ring|]. rewrite HG by assumption. ring. }
  rewrite E. apply Rplus_le_le_0_compat.
  - apply Rmult_le_pos; [apply Rlt_le, Rinv_0_lt_compat, HN|]. apply sum_n_nonneg. intros. apply Rle_0_sqr.
  - apply sum_n_nonneg. intros i Hi. rewrite <- HG by assumption. pose proof (pearson_self (x i)). apply Rmult_le_pos; [lra|apply Rle_0_sqr].
Qed.

Lemma fold_max l : forall x, x <= fold_left Rmax l x /\ forall y, In y l -> y <= fold_left Rmax l x.
Proof.
  induction l as [|a l IH]; intros x; [split; [cbn; lra|intros y []]|]. cbn [fold_left]. destruct (IH (Rmax x a)) as [H1 H2].
  pose proof (Rmax_l x a). pose proof (Rmax_r x a). split; [lra|]. intros y [<-|Hy]; [lra|now apply H2].
Qed.
Lemma fold_min l : forall x, fold_left Rmin l x <= x /\ forall y, In y l -> fold_left Rmin l x <= y.
Proof.
  induction l as [|a l IH]; intros x; [split; [cbn; lra|intros y []]|]. cbn [fold_left]. destruct (IH (Rmin x a)) as [H1 H2].
  pose proof (Rmin_l x a). pose proof (Rmin_r x a). split; [lra|]. intros y [<-|Hy]; [lra|now apply H2].
Qed.
Lemma fold_max_le l c : forall x, x <= c -> (forall y, In y l -> y <= c) -> fold_left Rmax l x <= c.
Proof.
  induction l as [|a l IH]; intros x Hx H; [exact Hx|]. cbn [fold_left]. apply IH; [apply Rmax_lub; [exact Hx|apply H; now left]|intros y Hy; apply H; now right].
Qed.
Lemma fold_min_ge l c : forall x, c <= x -> (forall y, In y l -> c <= y) -> c <= fold_left Rmin l x.
Proof.
  induction l as [|a l IH]; intros x Hx H; [exact Hx|]. cbn [fold_left]. apply IH; [apply Rmin_glb; [exact Hx|apply H; now left]|intros y Hy; apply H; now right].
Qed.
Lemma entry_In n a i j : square_matrix n a -> (i < n)%nat -> (j < n)%nat -> In (at_ a i j) (List.concat a).
Proof.
  intros [E H] Hi Hj. apply in_concat. exists (nth i a []). rewrite Forall_forall in H. split; [apply nth_In; lia|]. apply nth_In. rewrite (H (nth i a [])) by (apply nth_In; lia). exact Hj.
Qed.
Lemma In_entry n a x : square_matrix n a -> In x (List.concat a) -> exists i j, (i < n)%nat /\ (j < n)%nat /\ x = at_ a i j.
Proof.
  intros [E H] Hx. apply in_concat in Hx as (r & Hr & Hx). apply (In_nth _ _ []) in Hr as (i & Hi & <-). apply (In_nth _ _ 0) in Hx as (j & Hj & <-).
  rewrite Forall_forall in H. rewrite (H (nth i a [])) in Hj by (apply nth_In; exact Hi). exists i, j. split; [lia|]. split; [exact Hj|reflexivity].
Qed.
Lemma greatest_ge n a i j : square_matrix n a -> (i < n)%nat -> (j < n)%nat -> at_ a i j <= greatest a.
Proof.
  intros Hs Hi Hj. pose proof (entry_In Hs Hi Hj) as H. unfold greatest. destruct (List.concat a) as [|x l]; [destruct H|].
  destruct (fold_max l x) as [H1 H2]. destruct H as [<-|H]; [exact H1|now apply H2].
Qed.
Lemma least_le n a i j : square_matrix n a -> (i < n)%nat -> (j < n)%nat -> least a <= at_ a i j.
Proof.
  intros Hs Hi Hj. pose proof (entry_In Hs Hi Hj) as H. unfold least. destruct (List.concat a) as [|x l]; [destruct H|].
  destruct (fold_min l x) as [H1 H2]. destruct H as [<-|H]; [exact H1|now apply H2].
Qed.
Definition bounded (n : nat) (a : matrix) : Prop := forall i j, (i < n)%nat -> (j < n)%nat -> -1 <= at_ a i j <= 1.
Lemma greatest_bounded n a : square_matrix n a -> bounded n a -> greatest a <= 1 /\ -1 <= least a.
Proof.
  intros Hs Hb. assert (H : forall x, In x (List.concat a) -> -1 <= x <= 1) by (intros x Hx; destruct (@In_entry n a x Hs Hx) as (i & j & Hi & Hj & ->); now apply Hb).
  unfold greatest, least. destruct (List.concat a) as [|x l]; [lra|]. split.
  - apply fold_max_le; [apply (H x); now left|intros y Hy; apply H; now right].
  - apply fold_min_ge; [apply (H x); now left|intros y Hy; apply H; now right].
Qed.

Lemma correlations_square n x : square_matrix n (correlations n x).
Proof. apply tabulate_square. Qed.
Lemma correlations_at n x i j : (i < n)%nat -> (j < n)%nat -> at_ (correlations n x) i j = if (i =? j)%nat then 1 else pearson (x i) (x j).
Proof. intros. unfold correlations. now rewrite tabulate_at. Qed.
Lemma correlations_symmetric n m x : (forall i, (i < n)%nat -> List.length (x i) = m) -> symmetric n (correlations n x).
Proof.
  intros Hx i j Hi Hj. rewrite !correlations_at by assumption. rewrite (Nat.eqb_sym j i). destruct (i =? j)%nat; [reflexivity|]. apply pearson_sym. rewrite !Hx by assumption. reflexivity.
Qed.
Lemma correlations_bounded n m x : (0 < m)%nat -> (forall i, (i < n)%nat -> List.length (x i) = m) -> bounded n (correlations n x).
Proof.
  intros Hm Hx i j Hi Hj. rewrite correlations_at by assumption. destruct (i =? j)%nat; [lra|]. apply pearson_bound; rewrite !Hx by assumption; [exact Hm|reflexivity].
Qed.
Lemma unit_diagonal_same n a : square_matrix n a -> (forall i, (i < n)%nat -> at_ a i i = 1) -> unit_diagonal a = a.
Proof.
  intros Hs Hd. rewrite (square_tabulate Hs) at 2. unfold unit_diagonal. rewrite (proj1 Hs). apply tabulate_ext. intros i j Hi Hj. destruct (Nat.eqb_spec i j) as [->|]; [symmetry; now apply Hd|reflexivity].
Qed.
Lemma std_correlation_pearson T m xs : linear_algebra T -> (0 < m)%nat -> (forall x, In x xs -> List.length x = m) ->
  std_correlation T m (map standard xs) = Some (correlations (List.length xs) (fun i => nth i xs [])).
Proof.
  intros (_ & HT & _) Hm Hx. unfold std_correlation. rewrite (@raw_correlation_pearson m xs Hx). set (n := List.length xs). set (a := correlations n (fun i => nth i xs [])).
  assert (Hl : forall i, (i < n)%nat -> List.length (nth i xs []) = m) by (intros i Hi; apply Hx, nth_In, Hi).
  assert (Hs : square_matrix n a) by apply correlations_square.
  destruct (decomposes T a) eqn:Ed; [reflexivity|].
  rewrite (HT n a Hs (@correlations_symmetric n m _ Hl) (@correlations_semidefinite n m _ Hm Hl) Ed).
  rewrite (@unit_diagonal_same n a Hs) by (intros i Hi; unfold a; rewrite correlations_at by assumption; now rewrite Nat.eqb_refl).
  destruct (@greatest_bounded n a Hs (@correlations_bounded n m _ Hm Hl)) as [Hg Hm1].
  destruct (Rlt_dec (101 / 100) (greatest a)); [lra|]. destruct (Rlt_dec (least a) (- (101 / 100))); [lra|]. destruct (Rlt_dec 1 (greatest a)); [lra|].
  destruct (Rlt_dec (least a) (-1)); [lra|reflexivity].
Qed.

(** ** Any fit *)

Definition plus_minus (i j : nat) (s : R) (k : nat) : R := (if (i =? k)%nat then 1 else 0) + (if (j =? k)%nat then s else 0).
Lemma sum_plus_minus n i j s f : (i < n)%nat -> (j < n)%nat -> sum_n n (fun k => f k * plus_minus i j s k) = f i + s * f j.
Proof.
  intros Hi Hj. unfold plus_minus.
  rewrite (sum_n_ext _ (fun k => (if (i =? k)%nat then f k else 0) + (if (j =? k)%nat then s * f k else 0))).
  - rewrite sum_n_plus, (sum_n_delta f Hi), (sum_n_delta (fun k => s * f k) Hj). reflexivity.
  - intros k _. destruct (i =? k)%nat, (j =? k)%nat; ring.
Qed.
Lemma quadratic_plus_minus n a i j s : (i < n)%nat -> (j < n)%nat ->
  quadratic n a (plus_minus i j s) = at_ a i i + s * at_ a i j + s * (at_ a j i + s * at_ a j j).
Proof.
  intros Hi Hj. unfold quadratic.
  rewrite (sum_n_ext _ (fun k => (at_ a k i + s * at_ a k j) * plus_minus i j s k)).
  - rewrite (sum_plus_minus s (fun k => at_ a k i + s * at_ a k j) Hi Hj). ring.
  - intros k _. rewrite (sum_plus_minus s (fun l => plus_minus i j s k * at_ a k l) Hi Hj). ring.
Qed.
Lemma raw_square m z : square_matrix (List.length z) (raw_correlation m z).
Proof. apply tabulate_square. Qed.
Lemma raw_symmetric m z : symmetric (List.length z) (raw_correlation m z).
Proof.
  intros i j Hi Hj. unfold raw_correlation. rewrite !tabulate_at by assumption. now rewrite (Nat.eqb_sym j i), (Nat.min_comm j i), (Nat.max_comm j i).
Qed.
Lemma raw_bounded T m z : linear_algebra T -> decomposes T (raw_correlation m z) = true -> bounded (List.length z) (raw_correlation m z).
Proof.
  intros (HT & _) Hd i j Hi Hj. set (a := raw_correlation m z) in *.
  assert (Hdiag : forall k, (k < List.length z)%nat -> at_ a k k = 1) by (intros k Hk; unfold a, raw_correlation; rewrite tabulate_at by assumption; now rewrite Nat.eqb_refl).
  destruct (Nat.eq_dec i j) as [->|N]; [rewrite Hdiag by assumption; lra|].
  assert (Hv : forall s, exists k, (k < List.length z)%nat /\ plus_minus i j s k <> 0).
  { intros s. exists i. split; [exact Hi|]. unfold plus_minus. rewrite Nat.eqb_refl. destruct (Nat.eqb_spec j i); [congruence|lra]. }
  pose proof (HT _ a _ (raw_square m z) Hd (Hv 1)) as H1. pose proof (HT _ a _ (raw_square m z) Hd (Hv (-1))) as H2.
  rewrite quadratic_plus_minus in H1, H2 by assumption. rewrite !Hdiag in H1, H2 by assumption. pose proof (raw_symmetric m z Hi Hj) as Hsym. fold a in Hsym. lra.
Qed.
Lemma divided_square n a c : square_matrix n a -> square_matrix n (divided a c).
Proof.
  intros [E H]. split; [unfold divided; now rewrite map_length|]. rewrite Forall_forall in *. intros r Hr. apply in_map_iff in Hr as (r0 & <- & Hr). rewrite map_length. now apply H.
Qed.
Lemma divided_at n a c i j : square_matrix n a -> (i < n)%nat -> (j < n)%nat -> at_ (divided a c) i j = at_ a i j / c.
Proof.
  intros [E H] Hi Hj. unfold at_, divided. change (@nil R) with (map (fun x => x / c) []). rewrite (map_nth (map (fun x => x / c))).
  rewrite Forall_forall in H. rewrite (nth_indep _ 0 (0 / c)) by (rewrite map_length, H by (apply nth_In; lia); exact Hj). exact (map_nth (fun x => x / c) (nth i a []) 0 j).
Qed.
Lemma divided_symmetric n a c : square_matrix n a -> symmetric n a -> symmetric n (divided a c).
Proof. intros Hs Hy i j Hi Hj. rewrite !(@divided_at n) by assumption. now rewrite (Hy i j Hi Hj). Qed.

Lemma std_correlation_valid T m z r : linear_algebra T -> std_correlation T m z = Some r ->
  square_matrix (List.length z) r /\ symmetric (List.length z) r /\ bounded (List.length z) r.
Proof.
  intros HT H. unfold std_correlation in H. set (n := List.length z). destruct (decomposes T (raw_correlation m z)) eqn:Ed.
  { injection H as <-. split; [apply raw_square|]. split; [apply raw_symmetric|now apply raw_bounded with T]. }
  destruct (recomposed T (raw_correlation m z)) as [b|] eqn:Eb; [|discriminate].
  destruct HT as (_ & _ & HT). destruct (HT n _ b (raw_square m z) Eb) as [Hb Hsb].
  set (r0 := unit_diagonal b) in *. assert (S0 : square_matrix n r0) by (unfold r0, unit_diagonal; rewrite (proj1 Hb); apply tabulate_square).
  assert (Y0 : symmetric n r0).
  { intros i j Hi Hj. unfold r0, unit_diagonal. rewrite (proj1 Hb), !tabulate_at by assumption. rewrite (Nat.eqb_sym j i), (Hsb i j Hi Hj). reflexivity. }
  destruct (Rlt_dec (101 / 100) (greatest r0)); [discriminate|]. destruct (Rlt_dec (least r0) (- (101 / 100))); [discriminate|]. injection H as <-.
  set (r1 := if Rlt_dec 1 (greatest r0) then divided r0 (greatest r0) else r0).
  assert (H1 : square_matrix n r1 /\ symmetric n r1 /\ forall i j, (i < n)%nat -> (j < n)%nat -> at_ r1 i j <= 1).
  { unfold r1. destruct (Rlt_dec 1 (greatest r0)) as [L|L].
    - split; [now apply divided_square|]. split; [now apply divided_symmetric|]. intros i j Hi Hj. rewrite (divided_at _ S0 Hi Hj). pose proof (greatest_ge S0 Hi Hj).
      apply (Rmult_le_reg_r (greatest r0)); [lra|]. unfold Rdiv. rewrite Rmult_assoc, Rinv_l by lra. lra.
    - split; [exact S0|]. split; [exact Y0|]. intros i j Hi Hj. pose proof (greatest_ge S0 Hi Hj). lra. }
  destruct H1 as (S1 & Y1 & U1). destruct (Rlt_dec (least r1) (-1)) as [L|L].
  - assert (Ea : Rabs (least r1) = - least r1) by (apply Rabs_left; lra). rewrite Ea.
    split; [now apply divided_square|]. split; [now apply divided_symmetric|]. intros i j Hi Hj. rewrite (divided_at _ S1 Hi Hj). pose proof (least_le S1 Hi Hj). pose proof (U1 i j Hi Hj).
    split; apply (Rmult_le_reg_r (- least r1)); try lra; unfold Rdiv; rewrite Rmult_assoc, Rinv_l by lra; lra.
  - split; [exact S1|]. split; [exact Y1|]. intros i j Hi Hj. pose proof (least_le S1 Hi Hj). split; [lra|now apply U1].
Qed.
Lemma fit_valid T raw fams tr count det multi thetas rho after : linear_algebra T -> fit T raw fams tr count det multi = Ok (thetas, rho, after) ->
  let n := List.length (content raw) in square_matrix n rho /\ symmetric n rho /\ bounded n rho.
Proof.
  intros HT H n. unfold fit in H. set (fs := match fams with [f] => repeat f _ | _ => fams end) in *.
  destruct (negb _) eqn:El; [discriminate|]. apply negb_false_iff in El. apply andb_true_iff in El as [El Edet]. apply andb_true_iff in El as [Ef Etr].
  apply Nat.eqb_eq in Ef, Etr, Edet.
  destruct (existsb _ (content raw)); [discriminate|].
  match type of H with bind ?x _ = _ => destruct x as [xs|] eqn:Ex end; [|discriminate]. cbn [bind] in H.
  match type of H with bind ?x _ = _ => destruct x as [ths|] eqn:Eth end; [|discriminate]. cbn [bind] in H.
  match type of H with bind ?x _ = _ => destruct x as [z|] eqn:Ez end; [|discriminate]. cbn [bind] in H. injection H as _ <- _.
  assert (Lx : List.length xs = n) by (apply mapM_ok_length in Ex; rewrite Ex, combine_length, Ef; apply Nat.min_id).
  match goal with |- context [std_correlation T ?m z] => destruct (std_correlation T m z) as [r|] eqn:Er end.
  - destruct (std_correlation_valid _ _ HT Er) as (A & B & C). assert (Lz : List.length z = n); [|rewrite Lz in *; auto].
    pose proof (@mapM_ok_length _ _ _ _ _ Ez) as E. etransitivity; [exact E|]. rewrite !combine_length, !map_length, !combine_length, Ef, Etr, Lx.
    assert (Lt : List.length ths = n); [|rewrite Lt; lia].
    assert (Li : List.length (map initial xs) = n) by (rewrite map_length; exact Lx).
    unfold parameters in Eth. destruct (_ || negb _); [injection Eth as <-; exact Li|].
    match type of Eth with bind ?x _ = _ => destruct x as [i1|] eqn:E1 end; [|discriminate]. cbn [bind] in Eth.
    pose proof (@mapM_ok_length _ _ _ _ _ E1) as L1. rewrite !combine_length, !map_length, !combine_length, seq_length, Ef, Etr, Edet, Lx in L1.
    destruct (multi || _); [|injection Eth as <-; lia].
    pose proof (@mapM_ok_length _ _ _ _ _ Eth) as L2. rewrite !combine_length, seq_length, Ef, Lx in L2. lia.
  - unfold uncorrelated. split; [apply tabulate_square|]. split.
    + intros i j Hi Hj. rewrite !tabulate_at by assumption. now rewrite (Nat.eqb_sym j i).
    + intros i j Hi Hj. rewrite tabulate_at by assumption. destruct (i =? j)%nat; lra.
Qed.

(** ** Parameters without limits *)

Lemma thetas_nth fams xs i f x : nth_error fams i = Some f -> nth_error xs i = Some x ->
  nth_error (map (fun ft => reported (fst ft) (snd ft)) (combine fams (map initial (values_of fams xs)))) i = Some (reported f (initial (normal_values f x))).
Proof.
  intros Hf Hx. pose proof (@values_nth fams xs i f x Hf Hx) as Hv. revert Hv. generalize (values_of fams xs). clear Hx xs. revert fams Hf.
  induction i as [|i IH]; intros [|g fams] Hf [|v vs] Hv; try discriminate.
  - injection Hf as ->. injection Hv as ->. reflexivity.
  - cbn. exact (IH fams Hf vs Hv).
Qed.

(** ** Other units *)

Lemma average_scaled c xs : average (scaled c xs) = c * average xs.
Proof.
  unfold average, scaled. rewrite map_length. change (map (Rmult c) xs) with (map (fun x => c * x) xs). rewrite (@total_map_mult R c (fun x => x) xs), map_id. unfold Rdiv. ring.
Qed.
Lemma variance_scaled c xs : variance (scaled c xs) = c * c * variance xs.
Proof.
  rewrite !variance_squares, average_scaled. unfold average at 1 4. unfold scaled. rewrite !map_length, map_map.
  rewrite (@total_map_ext R _ (fun x => c * c * ((x - average xs) * (x - average xs)))) by (intros; ring). rewrite total_map_mult. unfold Rdiv. ring.
Qed.
Lemma deviation_scaled c xs : 0 < c -> deviation (scaled c xs) = c * deviation xs.
Proof.
  intros Hc. unfold deviation. rewrite variance_scaled, sqrt_mult by (try apply variance_nonneg; apply Rle_0_sqr). now rewrite sqrt_square by lra.
Qed.
Lemma average_shifted c xs : xs <> [] -> average (map (Rplus c) xs) = c + average xs.
Proof.
  intros N. unfold average. rewrite map_length. change (map (Rplus c) xs) with (map (fun x => c + x) xs). rewrite (@total_map_plus R (fun _ => c) (fun x => x) xs), map_id, total_const.
  assert (INR (List.length xs) <> 0) by (apply not_0_INR; now destruct xs). now field.
Qed.
Lemma variance_shifted c xs : variance (map (Rplus c) xs) = variance xs.
Proof.
  destruct xs as [|x xs]; [reflexivity|]. rewrite !variance_squares, average_shifted by discriminate. f_equal. rewrite map_map. apply map_ext. intros. ring.
Qed.
Lemma deviation_shifted c xs : deviation (map (Rplus c) xs) = deviation xs.
Proof. unfold deviation. now rewrite variance_shifted. Qed.
Lemma ln_scaled c xs : 0 < c -> Forall (fun x => 0 < x) xs -> map ln (scaled c xs) = map (Rplus (ln c)) (map ln xs).
Proof. intros Hc H. unfold scaled. rewrite !map_map. apply map_ext_in. intros x Hx. rewrite Forall_forall in H. now rewrite ln_mult by auto. Qed.

Lemma standard_scaled c xs : 0 < c -> standard (scaled c xs) = standard xs.
Proof.
  intros Hc. unfold standard. destruct (initial_spec (scaled c xs)) as (E0 & P0 & E1). destruct (initial_spec xs) as (F0 & Q0 & F1). rewrite E0, F0, average_scaled.
  unfold scaled at 2. rewrite map_map. apply map_ext_in. intros x Hx. destruct (Req_EM_T (variance xs) 0) as [Z|N].
  - rewrite <- (@variance_zero xs Z x Hx). unfold Rdiv. rewrite !Rminus_diag_eq by reflexivity. now rewrite !Rmult_0_l.
  - rewrite E1 by (rewrite variance_scaled; intros H; apply Rmult_integral in H as [H|H]; [apply Rmult_integral in H; lra|contradiction]).
    rewrite F1 by exact N. rewrite deviation_scaled by exact Hc. pose proof (@deviation_pos xs N). field. lra.
Qed.
Lemma standard_shifted c xs : standard (map (Rplus c) xs) = standard xs.
Proof.
  destruct xs as [|y ys]; [reflexivity|]. set (xs := y :: ys).
  unfold standard. destruct (initial_spec (map (Rplus c) xs)) as (E0 & P0 & E1). destruct (initial_spec xs) as (F0 & Q0 & F1). rewrite E0, F0, average_shifted by discriminate.
  rewrite map_map. apply map_ext_in. intros x Hx. destruct (Req_EM_T (variance xs) 0) as [Z|N].
  - rewrite <- (@variance_zero xs Z x Hx). unfold Rdiv. rewrite !Rminus_diag_eq by reflexivity. now rewrite !Rmult_0_l.
  - rewrite E1 by (now rewrite variance_shifted). rewrite F1 by exact N. rewrite deviation_shifted. pose proof (@deviation_pos xs N). field. lra.
Qed.
Lemma standard_normal_values f c x : 0 < c -> (f = "lognormal" -> Forall (fun v => 0 < v) x) -> standard (normal_values f (scaled c x)) = standard (normal_values f x).
Proof.
  intros Hc Hp. unfold normal_values. destruct (String.eqb_spec f "lognormal") as [E|N]; [rewrite (@ln_scaled c x Hc (Hp E)); apply standard_shifted|now apply standard_scaled].
Qed.
Lemma moments_scaled f c x theta theta' : 0 < c -> In f families -> x <> [] -> (f = "lognormal" -> Forall (fun v => 0 < v) x) ->
  moments f x theta -> moments f (scaled c x) theta' -> theta' = in_units c f theta.
Proof.
  intros Hc Hf N Hp H H'. unfold families in Hf. cbn [In] in Hf. destruct Hf as [<-|[<-|[<-|[<-|[]]]]]; cbn in H, H'; subst theta theta'; unfold in_units; cbn [fst snd String.eqb Ascii.eqb Bool.eqb].
  - rewrite average_scaled, deviation_scaled by exact Hc. f_equal. f_equal. rewrite Rabs_mult, (Rabs_right c) by lra.
    destruct (Req_EM_T (Rabs (average x)) 0) as [Z|Z]; [rewrite Z, Rmult_0_r; unfold Rdiv; now rewrite Rinv_0, !Rmult_0_r|field; lra].
  - rewrite average_scaled, deviation_scaled by exact Hc. f_equal. f_equal. rewrite Rabs_mult, (Rabs_right c) by lra.
    destruct (Req_EM_T (Rabs (average x)) 0) as [Z|Z]; [rewrite Z, Rmult_0_r; unfold Rdiv; now rewrite Rinv_0, !Rmult_0_r|field; lra].
  - now rewrite average_scaled, deviation_scaled by exact Hc.
  - rewrite (@ln_scaled c x Hc (Hp eq_refl)), average_shifted, deviation_shifted by (intros E; apply map_eq_nil in E; contradiction).
    rewrite exp_plus, exp_ln by exact Hc. reflexivity.
Qed.

(** ** Any fit, one variable *)

Lemma nth_error_pair {A B} (a : list A) (b : list B) i x y : nth_error a i = Some x -> nth_error b i = Some y -> nth_error (combine a b) i = Some (x, y).
Proof.
  revert a b. induction i as [|i IH]; intros [|u a] [|w b] Hx Hy; try discriminate; [injection Hx as ->; injection Hy as ->; reflexivity|]. cbn. now apply IH.
Qed.
Lemma nth_error_of_length {A} (l : list A) i : (i < List.length l)%nat -> exists x, nth_error l i = Some x.
Proof. intros H. destruct (nth_error l i) as [x|] eqn:E; [now exists x|]. apply nth_error_None in E. lia. Qed.
Lemma mapM_nth {A B} (f : A -> result B) l ys i x : mapM f l = Ok ys -> nth_error l i = Some x -> exists y, f x = Ok y /\ nth_error ys i = Some y.
Proof.
  intros H. apply mapM_Forall2 in H. intros Hx. revert i Hx. induction H as [|a b l ys Hab _ IH]; intros [|i] Hx; try discriminate.
  - injection Hx as ->. now exists b.
  - exact (IH i Hx).
Qed.
Lemma tile_nth n (a : array bounds) i : (i < n)%nat -> nth_error (content (tile n a)) i = limit_of n a i.
Proof.
  intros Hi. unfold tile, limit_of. destruct (content a) as [|l [|l' ls]] eqn:E; try (rewrite E; reflexivity).
  rewrite (proj2 (Nat.ltb_lt i n) Hi). destruct (Nat.eqb_spec n 1) as [->|N]; [rewrite E; assert (i = 0%nat) as -> by lia; reflexivity|].
  cbn [content]. rewrite (nth_error_nth' _ l) by (now rewrite repeat_length). f_equal. apply (@repeat_spec _ n). apply nth_In. now rewrite repeat_length.
Qed.
Lemma tile_whole {A} n (a : array A) : whole (tile n a) = whole a.
Proof. unfold tile. destruct (content a) as [|l [|l' ls]]; try reflexivity. now destruct (n =? 1)%nat. Qed.

Lemma parameters_length T fams xs tr det count multi ths n : parameters T fams xs tr det count multi = Ok ths ->
  List.length fams = n -> List.length xs = n -> List.length tr = n -> List.length det = n -> List.length ths = n.
Proof.
  intros Eth Ef Lx Etr Edet. unfold parameters in Eth. destruct (_ || negb _); [injection Eth as <-; now rewrite map_length|].
  match type of Eth with bind ?x _ = _ => destruct x as [i1|] eqn:E1 end; [|discriminate]. cbn [bind] in Eth.
  pose proof (@mapM_ok_length _ _ _ _ _ E1) as L1. rewrite !combine_length, !map_length, seq_length, Ef, Etr, Edet, Lx in L1.
  destruct (multi || _); [|injection Eth as <-; lia].
  pose proof (@mapM_ok_length _ _ _ _ _ Eth) as L2. rewrite !combine_length, seq_length, Ef, Lx in L2. lia.
Qed.
Lemma fit_inv T raw fams tr count det multi thetas rho after : fit T raw fams tr count det multi = Ok (thetas, rho, after) -> List.length fams = List.length (content raw) ->
  let n := List.length (content raw) in
  exists xs ths z,
    let trs := map (fun fl => log_limits (whole tr) (fst fl) (snd fl)) (combine fams (content (tile n tr))) in
    let dets := map (fun fl => log_limits (whole det) (fst fl) (snd fl)) (combine fams (content (tile n det))) in
    mapM (fun fx => log_row (whole raw) (fst fx) (snd fx)) (combine fams (content raw)) = Ok xs /\
    parameters T fams xs trs dets count multi = Ok ths /\
    mapM (fun v => std_row T (fst (fst (fst v))) (snd (fst (fst v))) (snd (fst v)) (snd v)) (combine (combine (combine fams trs) ths) xs) = Ok z /\
    thetas = map (fun ft => reported (fst ft) (snd ft)) (combine fams ths) /\
    after = (afterwards raw raw xs, afterwards tr (tile n tr) trs, afterwards det (tile n det) dets) /\
    List.length xs = n /\ List.length trs = n /\ List.length dets = n /\ List.length ths = n /\
    List.length (content (tile n tr)) = n /\ List.length (content (tile n det)) = n.
Proof.
  intros H Hlen n. unfold fit in H. fold n in Hlen, H. rewrite (@families_tiled n fams Hlen) in H.
  destruct (negb _) eqn:El; [discriminate|]. apply negb_false_iff in El. apply andb_true_iff in El as [El Edet]. apply andb_true_iff in El as [Ef Etr].
  apply Nat.eqb_eq in Ef, Etr, Edet.
  destruct (existsb _ (content raw)); [discriminate|]. rewrite !tile_whole in H.
  match type of H with bind ?x _ = _ => destruct x as [xs|] eqn:Ex end; [|discriminate]. cbn [bind] in H.
  match type of H with bind ?x _ = _ => destruct x as [ths|] eqn:Eth end; [|discriminate]. cbn [bind] in H.
  match type of H with bind ?x _ = _ => destruct x as [z|] eqn:Ez end; [|discriminate]. cbn [bind] in H. injection H as <- <- <-.
  exists xs, ths, z. cbv zeta.
  assert (Lx : List.length xs = n) by (apply mapM_ok_length in Ex; rewrite Ex, combine_length, Ef; apply Nat.min_id).
  assert (L1 : List.length (map (fun fl => log_limits (whole tr) (fst fl) (snd fl)) (combine fams (content (tile n tr)))) = n) by (rewrite map_length, combine_length; lia).
  assert (L2 : List.length (map (fun fl => log_limits (whole det) (fst fl) (snd fl)) (combine fams (content (tile n det)))) = n) by (rewrite map_length, combine_length; lia).
  pose proof (@parameters_length _ _ _ _ _ _ _ _ n Eth Hlen Lx L1 L2) as Lt. repeat split; assumption.
Qed.
Lemma logged_limit_nth w fams ls i f l : nth_error fams i = Some f -> nth_error ls i = Some l ->
  nth_error (map (fun fl => log_limits w (fst fl) (snd fl)) (combine fams ls)) i = Some (log_limits w f l).
Proof. intros Hf Hl. exact (map_nth_error _ _ _ (@nth_error_pair _ _ fams ls i f l Hf Hl)). Qed.

Lemma log_inside f l x v : (f = "lognormal" -> nonnegative_limit (snd l)) -> In x v -> forall w, log_row false f v = Ok w ->
  existsb (fun x => if above_dec x (snd (log_limits false f l)) then true else if below_dec x (fst (log_limits false f l)) then true else false) w = false -> inside l x.
Proof.
  intros Hl Hx w Hw He.
  assert (Hall : forall y, In y w -> ~ above y (snd (log_limits false f l)) /\ ~ below y (fst (log_limits false f l))).
  { intros y Hy. assert (He' : (if above_dec y (snd (log_limits false f l)) then true else if below_dec y (fst (log_limits false f l)) then true else false) <> true).
    { intros E. rewrite <- not_true_iff_false in He. apply He. apply existsb_exists. exists y. now split. }
    destruct (above_dec y _); [now destruct He'|]. destruct (below_dec y _); [now destruct He'|]. now split. }
  unfold log_row in Hw. unfold log_limits in Hall. destruct (String.eqb_spec f "lognormal") as [E|N].
  - specialize (Hl E). apply In_nth_error in Hx as [i Hi]. destruct (@mapM_nth _ _ _ v w i x Hw Hi) as (y & Hy & Hn).
    destruct (Rlt_dec 0 x) as [Px|]; [|discriminate]. injection Hy as <-. cbn [store] in Hn. apply nth_error_In in Hn. destruct (Hall _ Hn) as [A B]. cbn [fst snd] in A, B.
    split.
    + destruct (snd l) as [|h| |]; cbn in *; try exact (fun H => H); try contradiction. intros Hlt. destruct (Rlt_dec 0 h) as [Ph|Nh].
      * apply A. cbn. now apply ln_increasing.
      * destruct (Req_EM_T h 0) as [->|]; [apply A; exact I|lra].
    + destruct (fst l) as [|h| |]; cbn in *; try exact (fun H => H).
      * intros Hlt. destruct (Rlt_dec 0 h) as [Ph|Nh]; [|lra]. apply B. cbn. now apply ln_increasing.
      * exact (fun _ => B I).
  - injection Hw as <-. exact (Hall x Hx).
Qed.

(** ** Positions *)

Lemma flat_bounds_nth n d : (d < n)%nat -> nth d (flat_bounds n) 0 = if Nat.even d then 10 else 5.
Proof.
  intros H. assert (G : forall k d, (d < 2 * k)%nat -> nth d (List.concat (repeat [10; 5] k)) 0 = if Nat.even d then 10 else 5).
  { induction k as [|k IH]; intros [|[|e]] He; cbn [repeat List.concat app nth]; try lia; try reflexivity. rewrite IH by lia. reflexivity. }
  apply G. lia.
Qed.
Lemma limited_given ls i l : nth_error ls i = Some l -> limited l -> some_given ls = true.
Proof.
  intros Hl H. apply existsb_exists. exists l. split; [exact (nth_error_In _ _ Hl)|]. destruct H as [->| ->]; [reflexivity|apply orb_true_r].
Qed.
Lemma parameters_nth T fams xs tr det ths i f x t d : parameters T fams xs tr det 0 false = Ok ths -> List.length fams = List.length xs ->
  (forall v, In v xs -> (3 <= List.length v)%nat) -> nth_error fams i = Some f -> nth_error xs i = Some x -> nth_error tr i = Some t -> nth_error det i = Some d ->
  some_given tr || some_given det = true ->
  exists th, fit_marginal T (List.length xs) i (f, x, (t, d), initial x) = Ok th /\ nth_error ths i = Some th.
Proof.
  intros H Hlen Hx Ef Ex Et Ed Hg. unfold parameters in H. rewrite Hg in H. cbn [negb orb] in H. rewrite orb_false_r in H.
  replace (match xs with [] => true | x :: _ => (List.length x <? 3)%nat end) with false in H.
  2:{ destruct xs as [|y ys]; [destruct i; discriminate|]. symmetry. apply Nat.ltb_ge. apply Hx. now left. }
  match type of H with bind ?x _ = _ => destruct x as [i1|] eqn:E1 end; [|discriminate]. cbn in H. injection H as <-.
  assert (Hi : (i < List.length xs)%nat) by (apply nth_error_Some; congruence).
  assert (Es : nth_error (seq 0 (List.length xs)) i = Some i) by (rewrite (nth_error_nth' _ 0%nat) by (now rewrite seq_length); now rewrite seq_nth).
  destruct (@mapM_nth _ _ _ _ _ i (i, (f, x, (t, d), initial x)) E1) as (th & Hth & Hn).
  - apply nth_error_pair; [exact Es|]. apply nth_error_pair; [|exact (map_nth_error _ _ _ Ex)]. apply nth_error_pair; now apply nth_error_pair.
  - exists th. split; [exact Hth|exact Hn].
Qed.

(** The result of a fit if no limit remains after the logarithms. *)
Definition unlimited (fams : list string) (a : array bounds) : Prop :=
  forall l, In l (map (fun fl => log_limits (whole a) (fst fl) (snd fl)) (combine fams (content (tile (List.length fams) a)))) -> l = (XNaN, XNaN).
Lemma fit_unlimited T raw fams tr count det multi xs : inverse_pair T -> List.length fams = List.length (content raw) -> (forall x, In x (content raw) -> x <> []) ->
  (forall f, In f fams -> In f families) -> rows_for (List.length fams) tr -> rows_for (List.length fams) det -> unlimited fams tr -> unlimited fams det ->
  mapM (fun fx => log_row (whole raw) (fst fx) (snd fx)) (combine fams (content raw)) = Ok xs ->
  exists rho tr' det', fit T raw fams tr count det multi =
    Ok (map (fun ft => reported (fst ft) (snd ft)) (combine fams (map initial xs)), rho, (afterwards raw raw xs, tr', det')).
Proof.
  intros HT Hlen Hne Hfam Htr Hdet Ltr Ldet Ex. unfold fit. rewrite <- Hlen in *.
  rewrite (families_tiled fams eq_refl), (tile_length Htr), (tile_length Hdet), Nat.eqb_refl. cbn [andb negb].
  replace (existsb _ (content raw)) with false.
  2:{ symmetry. destruct (existsb _ (content raw)) eqn:E; [|reflexivity]. apply existsb_exists in E as (x & Hx & E). specialize (Hne x Hx). destruct x; [contradiction|discriminate]. }
  rewrite Ex. cbn [bind]. rewrite !tile_whole. unfold parameters at 1. rewrite (@nothing_given _ Ltr), (@nothing_given _ Ldet). cbn [orb negb]. rewrite orb_true_r. cbn [bind].
  assert (Lx : List.length fams = List.length xs) by (apply mapM_ok_length in Ex; rewrite Ex, combine_length; lia).
  rewrite (@std_rows T fams _ xs HT Lx); [|rewrite map_length, combine_length, (tile_length Htr); lia|exact Hfam|exact Ltr].
  cbn [bind]. do 3 eexists. reflexivity.
Qed.

(** ** The sample in standard normal space *)

Lemma limit_prob_nan T none theta : limit_prob T none XNaN theta = none.
Proof. reflexivity. Qed.
Lemma limit_prob_fin T none h theta : 0 < snd theta -> limit_prob T none (Fin h) theta = cdf T ((h - fst theta) / snd theta).
Proof. intros H. unfold limit_prob, standardize. destruct (Req_EM_T (snd theta) 0); [lra|reflexivity]. Qed.
Lemma std_value_ok T l theta x : inverse_pair T -> (forall y z, y < z -> cdf T y < cdf T z) -> 0 < snd theta ->
  match fst l with XNaN => True | Fin h => h < x | _ => False end -> match snd l with XNaN => True | Fin h => x < h | _ => False end ->
  exists v, std_value T l theta x = Ok v.
Proof.
  intros [Hc _] Hinc Hs Hl Hu. unfold std_value. destruct (Rlt_dec 0 (snd theta)) as [_|N]; [|contradiction].
  set (p_a := limit_prob T 0 (fst l) theta). set (p_b := limit_prob T 1 (snd l) theta). set (p := cdf T ((x - fst theta) / snd theta)).
  assert (Hm : forall y z, y < z -> (y - fst theta) / snd theta < (z - fst theta) / snd theta) by (intros y z H; apply Rmult_lt_compat_r; [now apply Rinv_0_lt_compat|lra]).
  assert (Ha : p_a < p).
  { unfold p_a. destruct (fst l) as [|h| |]; try contradiction; [rewrite limit_prob_fin by exact Hs; now apply Hinc, Hm|rewrite limit_prob_nan; apply Hc]. }
  assert (Hb : p < p_b).
  { unfold p_b. destruct (snd l) as [|h| |]; try contradiction; [rewrite limit_prob_fin by exact Hs; now apply Hinc, Hm|rewrite limit_prob_nan; apply Hc]. }
  destruct (Req_EM_T (p_b - p_a) 0); [lra|].
  assert (H0 : 0 < (p - p_a) / (p_b - p_a)) by (apply Rmult_lt_0_compat; [lra|apply Rinv_0_lt_compat; lra]).
  assert (H1 : (p - p_a) / (p_b - p_a) < 1) by (apply (Rmult_lt_reg_r (p_b - p_a)); [lra|]; unfold Rdiv; rewrite Rmult_assoc, Rinv_l by lra; lra).
  destruct (Rlt_dec 0 ((p - p_a) / (p_b - p_a))); [|contradiction]. destruct (Rlt_dec ((p - p_a) / (p_b - p_a)) 1); [|contradiction]. eexists. reflexivity.
Qed.
Lemma std_row_limited T fam l theta xs : inverse_pair T -> (forall y z, y < z -> cdf T y < cdf T z) -> 0 < snd theta -> In fam families ->
  (forall x, In x xs -> match fst l with XNaN => True | Fin h => h < x | _ => False end /\ match snd l with XNaN => True | Fin h => x < h | _ => False end) ->
  exists z, std_row T fam l theta xs = Ok z.
Proof.
  intros HT Hinc Hs Hf H. unfold std_row. assert (supported fam = true) as -> by (apply mem_true; exact Hf).
  replace (existsb _ xs) with false.
  2:{ symmetry. destruct (existsb _ xs) eqn:E; [|reflexivity]. apply existsb_exists in E as (x & Hx & E). destruct (H x Hx) as [A B].
      destruct (above_dec x (snd l)) as [U|_]; [destruct (snd l); cbn in U; try contradiction; lra|]. destruct (below_dec x (fst l)) as [U|_]; [|discriminate]. destruct (fst l); cbn in U; try contradiction; lra. }
  induction xs as [|x xs IH]; [now exists []|]. destruct (@std_value_ok T l theta x HT Hinc Hs) as [v Hv]; [apply H; now left..|].
  destruct IH as [z Hz]; [intros y Hy; apply H; now right|]. exists (v :: z). cbn [mapM]. rewrite Hv. cbn [bind]. rewrite Hz. reflexivity.
Qed.
