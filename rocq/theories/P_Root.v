(** The recomposition of the correlations of three equal demands. *)
From Coq Require Import Reals Lra Lia.
From Verif Require Import Prelude PreludeFacts M_Dist M_Fit S_Fit P_Fit.
Local Open Scope string_scope.
Local Open Scope list_scope.
Local Open Scope R_scope.

Lemma sum_n_3 f : sum_n 3 f = f 0%nat + (f 1%nat + f 2%nat).
Proof. unfold sum_n. cbn. ring. Qed.
(** Off the diagonal [w], ones on it. *)
Definition equals3 (d w : R) : matrix := [[d; w; w]; [w; d; w]; [w; w; d]].
Definition vec3 (x y z : R) (i : nat) : R := match i with 0%nat => x | 1%nat => y | _ => z end.

Lemma zero_squares x y z : x * x + y * y + z * z <= 0 -> x = 0 /\ y = 0 /\ z = 0.
Proof. intros H. repeat split; nra. Qed.

(** [p q r; q s t; r t u] with the square of [equals3 1 (1 + e)]. *)
Lemma root_entries p q r s t u e : 0 < e ->
  (forall x y z, 0 <= x * (p * x + q * y + r * z) + y * (q * x + s * y + t * z) + z * (r * x + t * y + u * z)) ->
  p * p + q * q + r * r = 1 + 2 * ((1 + e) * (1 + e)) -> q * q + s * s + t * t = 1 + 2 * ((1 + e) * (1 + e)) -> r * r + t * t + u * u = 1 + 2 * ((1 + e) * (1 + e)) ->
  p * q + q * s + r * t = 2 * (1 + e) + (1 + e) * (1 + e) -> p * r + q * t + r * u = 2 * (1 + e) + (1 + e) * (1 + e) -> q * r + s * t + t * u = 2 * (1 + e) + (1 + e) * (1 + e) ->
  p = 1 + 4 * e / 3 /\ s = p /\ u = p /\ q = 1 + e / 3 /\ r = q /\ t = q.
Proof.
  intros He Hpsd E11 E22 E33 E12 E13 E23.
  assert (A : p - e - q = 0 /\ q - s + e = 0 /\ r - t = 0).
  { apply zero_squares. set (a := p - e - q). set (b := q - s + e). set (c := r - t).
    assert (K1 : p * a + q * b + r * c = - e * a) by (unfold a, b, c; nra).
    assert (K2 : q * a + s * b + t * c = - e * b) by (unfold a, b, c; nra).
    assert (K3 : r * a + t * b + u * c = - e * c) by (unfold a, b, c; nra).
    pose proof (Hpsd a b c) as P. rewrite K1, K2, K3 in P. nra. }
  assert (B : p - e - r = 0 /\ q - t = 0 /\ r - u + e = 0).
  { apply zero_squares. set (a := p - e - r). set (b := q - t). set (c := r - u + e).
    assert (K1 : p * a + q * b + r * c = - e * a) by (unfold a, b, c; nra).
    assert (K2 : q * a + s * b + t * c = - e * b) by (unfold a, b, c; nra).
    assert (K3 : r * a + t * b + u * c = - e * c) by (unfold a, b, c; nra).
    pose proof (Hpsd a b c) as P. rewrite K1, K2, K3 in P. nra. }
  destruct A as (A1 & A2 & A3). destruct B as (B1 & B2 & B3).
  assert (q = p - e) by lra. assert (s = p) by lra. assert (r = p - e) by lra. assert (t = p - e) by lra. assert (u = p) by lra. subst q s r t u.
  assert (F : (p + 1) * (3 * p - (3 + 4 * e)) = 0) by nra.
  pose proof (Hpsd 1 0 0) as P. apply Rmult_integral in F as [F|F]; [nra|]. repeat split; lra.
Qed.

Lemma quadratic_3 a x y z : quadratic 3 a (vec3 x y z) =
  x * (at_ a 0 0 * x + at_ a 0 1 * y + at_ a 0 2 * z) + y * (at_ a 1 0 * x + at_ a 1 1 * y + at_ a 1 2 * z) + z * (at_ a 2 0 * x + at_ a 2 1 * y + at_ a 2 2 * z).
Proof. unfold quadratic. rewrite !sum_n_3. cbn [vec3]. ring. Qed.

Lemma root_equals e b : 0 < e -> root 3 (equals3 1 (1 + e)) b -> b = equals3 (1 + 4 * e / 3) (1 + e / 3).
Proof.
  intros He (Sq & Sy & Sd & Hr).
  assert (S01 : at_ b 1 0 = at_ b 0 1) by (apply Sy; lia). assert (S02 : at_ b 2 0 = at_ b 0 2) by (apply Sy; lia). assert (S12 : at_ b 2 1 = at_ b 1 2) by (apply Sy; lia).
  pose proof (Hr 0%nat 0%nat ltac:(lia) ltac:(lia)) as E11. pose proof (Hr 1%nat 1%nat ltac:(lia) ltac:(lia)) as E22. pose proof (Hr 2%nat 2%nat ltac:(lia) ltac:(lia)) as E33.
  pose proof (Hr 0%nat 1%nat ltac:(lia) ltac:(lia)) as E12. pose proof (Hr 0%nat 2%nat ltac:(lia) ltac:(lia)) as E13. pose proof (Hr 1%nat 2%nat ltac:(lia) ltac:(lia)) as E23.
  rewrite !sum_n_3 in E11, E22, E33, E12, E13, E23. rewrite ?S01, ?S02, ?S12 in *.
  change (at_ (equals3 1 (1 + e)) 0 0) with 1 in *. change (at_ (equals3 1 (1 + e)) 1 1) with 1 in *. change (at_ (equals3 1 (1 + e)) 2 2) with 1 in *.
  change (at_ (equals3 1 (1 + e)) 0 1) with (1 + e) in *. change (at_ (equals3 1 (1 + e)) 0 2) with (1 + e) in *. change (at_ (equals3 1 (1 + e)) 1 2) with (1 + e) in *.
  change (at_ (equals3 1 (1 + e)) 1 0) with (1 + e) in *. change (at_ (equals3 1 (1 + e)) 2 0) with (1 + e) in *. change (at_ (equals3 1 (1 + e)) 2 1) with (1 + e) in *.
  destruct (@root_entries (at_ b 0 0) (at_ b 0 1) (at_ b 0 2) (at_ b 1 1) (at_ b 1 2) (at_ b 2 2) e He) as (Ep & Es & Eu & Eq & Er & Et); try lra.
  { intros x y z. pose proof (Sd (vec3 x y z)) as P. rewrite quadratic_3, S01, S02, S12 in P. exact P. }
  rewrite (@square_tabulate 3 b Sq). unfold tabulate, equals3. cbn [map seq]. rewrite S01, S02, S12, Er, Et, Es, Eu, Ep, Eq. reflexivity.
Qed.

Lemma equals_root e : 0 < e -> root 3 (equals3 1 (1 + e)) (equals3 (1 + 4 * e / 3) (1 + e / 3)).
Proof.
  intros He. split; [split; [reflexivity|repeat constructor]|]. split; [|split].
  - intros [|[|[|i]]] [|[|[|j]]] Hi Hj; try lia; reflexivity.
  - intros v. unfold quadratic. rewrite !sum_n_3. cbn.
    set (x := v 0%nat). set (y := v 1%nat). set (z := v 2%nat).
    assert (A : 0 <= ((x + y + z) * (x + y + z)) * (1 + e / 3)) by (apply Rmult_le_pos; [apply Rle_0_sqr|lra]).
    assert (B : 0 <= e * (x * x + y * y + z * z)) by (apply Rmult_le_pos; nra).
    match goal with |- 0 <= ?g => replace g with ((x + y + z) * (x + y + z) * (1 + e / 3) + e * (x * x + y * y + z * z)) by field end. lra.
  - intros [|[|[|i]]] [|[|[|j]]] Hi Hj; try lia; rewrite !sum_n_3; cbn; field.
Qed.

Lemma raw_equal m z w : product z z / INR m = w -> raw_correlation m [z; z; z] = equals3 1 w.
Proof. intros H. unfold raw_correlation, tabulate. cbn [List.length seq map Nat.eqb Nat.min Nat.max nth]. now rewrite H. Qed.

Lemma not_definite e : 0 < e -> quadratic 3 (equals3 1 (1 + e)) (vec3 1 (-1) 0) < 0.
Proof. intros He. rewrite quadratic_3. cbn. lra. Qed.

Lemma std_correlation_equal T m z e b : 0 < e <= 3 / 100 -> product z z / INR m = 1 + e ->
  decomposes T (equals3 1 (1 + e)) = false -> recomposed T (equals3 1 (1 + e)) = Some b -> root 3 (equals3 1 (1 + e)) b ->
  std_correlation T m [z; z; z] = Some (equals3 (1 / (1 + e / 3)) 1).
Proof.
  intros He Hz Hd Hb Hr. apply root_equals in Hr; [|lra]. unfold std_correlation. rewrite (@raw_equal m z _ Hz), Hd, Hb, Hr.
  change (unit_diagonal (equals3 (1 + 4 * e / 3) (1 + e / 3))) with (equals3 1 (1 + e / 3)).
  assert (G : greatest (equals3 1 (1 + e / 3)) = 1 + e / 3).
  { unfold greatest, equals3. cbn [List.concat app fold_left]. rewrite (Rmax_right 1 (1 + e / 3)) by lra. rewrite !(Rmax_right (1 + e / 3) (1 + e / 3)) by lra. rewrite !(Rmax_left (1 + e / 3) 1) by lra. rewrite !(Rmax_right (1 + e / 3) (1 + e / 3)) by lra. apply Rmax_left. lra. }
  assert (L : least (equals3 1 (1 + e / 3)) = 1).
  { unfold least, equals3. cbn [List.concat app fold_left]. rewrite !(Rmin_left 1 (1 + e / 3)) by lra. rewrite !(Rmin_left 1 1) by lra. rewrite !(Rmin_left 1 (1 + e / 3)) by lra. apply Rmin_left. lra. }
  rewrite G, L. destruct (Rlt_dec (101 / 100) (1 + e / 3)); [lra|]. destruct (Rlt_dec 1 (- (101 / 100))); [lra|]. destruct (Rlt_dec 1 (1 + e / 3)); [|lra].
  assert (D : divided (equals3 1 (1 + e / 3)) (1 + e / 3) = equals3 (1 / (1 + e / 3)) 1).
  { unfold divided, equals3. cbn [map]. replace ((1 + e / 3) / (1 + e / 3)) with 1 by (field; lra). reflexivity. }
  assert (P : 0 < 1 / (1 + e / 3)) by (apply Rdiv_lt_0_compat; lra).
  rewrite D. destruct (Rlt_dec (least (equals3 (1 / (1 + e / 3)) 1)) (-1)) as [X|]; [|reflexivity]. exfalso.
  assert (-1 <= least (equals3 (1 / (1 + e / 3)) 1)); [|lra]. unfold least, equals3. cbn [List.concat app]. apply fold_min_ge; [lra|].
  intros y Hy. cbn in Hy. decompose [or] Hy; try contradiction; subst y; lra.
Qed.

Lemma std_row_free T fam mu sig xs z : inverse_pair T -> std_row T fam (XNaN, XNaN) (mu, sig) xs = Ok z -> z = map (fun x => (x - mu) / sig) xs.
Proof.
  intros [Hb Hi] H. unfold std_row in H. destruct (supported fam); [|discriminate]. destruct (existsb _ xs); [discriminate|].
  revert z H. induction xs as [|x xs IH]; intros z H; cbn [mapM] in H; [now injection H as <-|].
  destruct (std_value T (XNaN, XNaN) (mu, sig) x) as [y|] eqn:Ey; [|discriminate]. cbn [bind] in H.
  destruct (mapM _ xs) as [zs|]; [|discriminate]. cbn [bind] in H. injection H as <-. cbn [map]. f_equal; [|now apply IH].
  unfold std_value in Ey. cbn [fst snd] in Ey. rewrite !limit_prob_nan in Ey. replace ((cdf T ((x - mu) / sig) - 0) / (1 - 0)) with (cdf T ((x - mu) / sig)) in Ey by field.
  destruct (Rlt_dec 0 sig); [|discriminate]. destruct (Req_EM_T (1 - 0) 0); [discriminate|]. destruct (Rlt_dec 0 _); [|discriminate]. destruct (Rlt_dec _ 1); [|discriminate].
  injection Ey as <-. apply Hi.
Qed.
Lemma product_map f (xs : list R) : product (map f xs) (map f xs) / INR (List.length xs) = average (map (fun x => f x * f x) xs).
Proof. unfold product, average. rewrite map_combine_maps, map_diagonal, rsum_total, map_map, !map_length. reflexivity. Qed.
