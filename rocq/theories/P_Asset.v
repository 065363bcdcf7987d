(** Proofs about the component assignment. *)
From Coq Require Import Sorting.Sorted Sorting.Permutation.
From Verif Require Import Prelude PreludeFacts M_Base M_Damage M_Scaling M_Params M_Asset S_Base S_Params S_Asset P_Base S_Damage P_Text P_Eval P_Req P_Params P_Scaling P_Loc.
Set Implicit Arguments.
Local Open Scope string_scope.
Local Open Scope list_scope.

(** ** Decimals *)

Lemma parse_digits_bound s : forall acc prev z, (0 <= acc)%Z -> parse_digits acc prev s = Some z ->
  (acc * 10 ^ Z.of_nat (count_digits s) <= z < (acc + 1) * 10 ^ Z.of_nat (count_digits s))%Z.
Proof.
  induction s as [|a s IH]; intros acc prev z Ha; cbn [parse_digits count_digits].
  - destruct prev; [|discriminate]. intros [= <-]. cbn. lia.
  - destruct (is_digit a) eqn:Ed.
    + intros H. assert (Hv : (0 <= digit_value a <= 9)%Z).
      { apply digit_cases in Ed. cbn in Ed. repeat destruct Ed as [<- | Ed]; try (vm_compute; split; discriminate). destruct Ed. }
      apply IH in H; [|lia]. rewrite Nat2Z.inj_add. change (Z.of_nat 1) with 1%Z. rewrite Z.pow_add_r by lia.
      set (p := (10 ^ Z.of_nat (count_digits s))%Z) in *. assert (0 < p)%Z by (apply Z.pow_pos_nonneg; lia). nia.
    + destruct (Ascii.eqb a "_" && prev)%bool; [|discriminate]. destruct s as [|b s]; [discriminate|]. intros H.
      apply IH in H; [|exact Ha]. exact H.
Qed.
Lemma digits_parse s : all_digits s = true -> s <> "" -> exists z, parse_digits 0 false s = Some z.
Proof.
  intros Hd Hn. destruct s as [|a s]; [congruence|]. cbn [parse_digits]. cbn in Hd. apply andb_true_iff in Hd as [Ha Hs]. rewrite Ha.
  generalize (10 * 0 + digit_value a)%Z. clear a Ha Hn. induction s as [|a s IH]; intros acc; cbn [parse_digits]; [eexists; reflexivity|].
  cbn in Hs. apply andb_true_iff in Hs as [Ha Hs]. rewrite Ha. apply IH, Hs.
Qed.
Lemma digits_plain s c : all_digits s = true -> has_char c s = true -> is_digit c = true.
Proof. intros Hd Hc. destruct (is_digit c) eqn:E; [reflexivity|]. rewrite (all_digits_nochar _ _ E Hd) in Hc. discriminate. Qed.

Lemma split_first_app p u a v : (forall b, has_char b u = true -> p b = false) -> p a = true -> split_first p (u ++ String a v) = (u, Some v).
Proof.
  intros Hu Ha. induction u as [|b u IH]; cbn [append split_first]; [rewrite Ha; reflexivity|].
  rewrite Hu by (cbn; rewrite Ascii.eqb_refl; reflexivity). rewrite IH; [reflexivity|]. intros c Hc. apply Hu. cbn. rewrite Hc. apply orb_true_r.
Qed.

Lemma trunc_decimal w f z : parse_digits 0 false w = Some z -> all_digits w = true -> all_digits f = true -> trunc_unsigned (w ++ "." ++ f) = Some (TInt z).
Proof.
  intros Hz Hw Hf. unfold trunc_unsigned.
  assert (Hdig : forall c, is_digit c = true -> is_exp c = false /\ is_char "." c = false).
  { intros c Hc. apply digit_cases in Hc. cbn in Hc. repeat destruct Hc as [<- | Hc]; try (split; reflexivity). destruct Hc. }
  assert (Hdot : forall s, has_char "." s = has_char "." (lower s)).
  { clear. induction s as [|a s IH]; [reflexivity|]. cbn [lower has_char]. rewrite IH. f_equal. destruct a as [[] [] [] [] [] [] [] []]; reflexivity. }
  assert (Hd : has_char "." (lower (w ++ "." ++ f)) = true).
  { rewrite <- Hdot, !has_char_app. cbn. rewrite orb_true_r. reflexivity. }
  destruct (mem (lower (w ++ "." ++ f)) ["inf"; "infinity"]) eqn:Ei.
  { apply mem_true in Ei. destruct Ei as [E | [E | []]]; rewrite <- E in Hd; discriminate Hd. }
  destruct (String.eqb_spec (lower (w ++ "." ++ f)) "nan") as [E|_]; [rewrite E in Hd; discriminate Hd|].
  rewrite split_first_none.
  2:{ intros a Ha. rewrite !has_char_app in Ha. apply orb_true_iff in Ha as [Ha|Ha]; [exact (proj1 (Hdig _ (@digits_plain _ _ Hw Ha)))|].
      apply orb_true_iff in Ha as [Ha|Ha]; [|exact (proj1 (Hdig _ (@digits_plain _ _ Hf Ha)))]. cbn [has_char] in Ha. rewrite orb_false_r in Ha.
      apply Ascii.eqb_eq in Ha. subst a. reflexivity. }
  cbn [append]. rewrite split_first_app; [|intros b Hb; exact (proj2 (Hdig _ (@digits_plain _ _ Hw Hb)))|reflexivity].
  assert (Hne : w <> "") by (intros ->; discriminate Hz).
  destruct (String.eqb_spec w "") as [E|_]; [congruence|]. cbn [andb].
  assert (Dw : digits_or_empty w = Some z) by (unfold digits_or_empty; destruct (String.eqb_spec w ""); [congruence|exact Hz]).
  assert (Df : exists d, digits_or_empty f = Some d /\ (0 <= d < 10 ^ Z.of_nat (count_digits f))%Z).
  { unfold digits_or_empty. destruct (String.eqb_spec f "") as [->|Nf]; [exists 0%Z; split; [reflexivity|cbn; lia]|].
    destruct (@digits_parse _ Hf Nf) as [d Hd']. exists d. split; [exact Hd'|]. apply parse_digits_bound in Hd'; lia. }
  destruct Df as (d & Df & Bd). rewrite Dw, Df. cbv zeta. do 2 f_equal. unfold scale10. set (k := Z.of_nat (count_digits f)) in *.
  replace (0 - k)%Z with (- k)%Z by lia. rewrite Z.opp_involutive. destruct (Z.leb_spec 0 (- k)) as [L|L].
  - assert (k = 0)%Z as Ek by lia. rewrite Ek in *. cbn in Bd |- *. lia.
  - rewrite Z.div_add_l by lia. rewrite Z.div_small by exact Bd. lia.
Qed.

Lemma no_space_rev s : has_char " " (str_rev s) = has_char " " s.
Proof. induction s as [|a s IH]; [reflexivity|]. rewrite str_rev_cons, has_char_app, IH. cbn. rewrite orb_false_r. apply orb_comm. Qed.
Definition spaceless (s : string) : Prop := forall c, has_char c s = true -> is_space c = false.
Lemma spaceless_cons a s : spaceless (String a s) -> is_space a = false /\ spaceless s.
Proof. intros H. split; [apply H; cbn; rewrite Ascii.eqb_refl; reflexivity|]. intros c Hc. apply H. cbn. rewrite Hc. apply orb_true_r. Qed.
Lemma lstrip_spaceless s : spaceless s -> lstrip_space s = s.
Proof. destruct s as [|a s]; [reflexivity|]. intros H. apply spaceless_cons in H as [Ha _]. cbn. rewrite Ha. reflexivity. Qed.
Lemma has_char_rev c s : has_char c (str_rev s) = has_char c s.
Proof. induction s as [|a s IH]; [reflexivity|]. rewrite str_rev_cons, has_char_app, IH. cbn. rewrite orb_false_r. apply orb_comm. Qed.
Lemma strip_spaceless s : spaceless s -> strip_space s = s.
Proof.
  intros H. unfold strip_space. rewrite (lstrip_spaceless H). rewrite lstrip_spaceless; [apply str_rev_involutive|].
  intros c Hc. rewrite has_char_rev in Hc. exact (H c Hc).
Qed.
Lemma str_of_nat_parse k : parse_digits 0 false (str_of_nat k) = Some (Z.of_nat k).
Proof.
  rewrite parse_digits_start; [|apply str_of_nat_nonempty|apply str_of_nat_digits].
  rewrite <- pyint_digits; [apply pyint_str_of_nat|apply str_of_nat_nonempty|apply str_of_nat_digits].
Qed.
Lemma digits_spaceless s : all_digits s = true -> spaceless s.
Proof. intros H c Hc. apply digit_not_space. exact (@digits_plain _ _ H Hc). Qed.
Lemma trunc_str_of_Z z f : all_digits f = true -> trunc_float (str_of_Z z ++ "." ++ f) = Some (TInt z).
Proof.
  intros Hf. unfold trunc_float. rewrite strip_spaceless.
  2:{ intros c Hc. rewrite !has_char_app in Hc. apply orb_true_iff in Hc as [Hc|Hc].
      - unfold str_of_Z in Hc. destruct (z <? 0)%Z.
        + cbn [has_char] in Hc. apply orb_true_iff in Hc as [Hc|Hc]; [apply Ascii.eqb_eq in Hc; subst c; reflexivity|].
          exact (@digits_spaceless _ (str_of_nat_digits _) _ Hc).
        + exact (@digits_spaceless _ (str_of_nat_digits _) _ Hc).
      - apply orb_true_iff in Hc as [Hc|Hc]; [|exact (@digits_spaceless _ Hf _ Hc)]. cbn [has_char] in Hc. rewrite orb_false_r in Hc. apply Ascii.eqb_eq in Hc. subst c. reflexivity. }
  unfold str_of_Z. destruct (Z.ltb_spec z 0) as [L|L].
  - cbn [append]. rewrite Ascii.eqb_refl. change (String "." f) with ("." ++ f)%string.
    rewrite (@trunc_decimal _ f _ (str_of_nat_parse _) (str_of_nat_digits _) Hf). cbn. do 2 f_equal. lia.
  - pose proof (@trunc_decimal _ f _ (str_of_nat_parse (Z.to_nat z)) (str_of_nat_digits _) Hf) as T.
    pose proof (str_of_nat_digits (Z.to_nat z)) as D. destruct (str_of_nat (Z.to_nat z)) as [|a s] eqn:E; [exfalso; exact (str_of_nat_nonempty _ E)|].
    cbn [append] in *. cbn in D. apply andb_true_iff in D as [Da _].
    assert (Ascii.eqb a "-" = false) as -> by (apply digit_not; [exact Da|reflexivity]).
    assert (Ascii.eqb a "+" = false) as -> by (apply digit_not; [exact Da|reflexivity]).
    rewrite T. do 2 f_equal. lia.
Qed.
Lemma decimal_location stories z f : all_digits f = true -> get_locations stories (str_of_Z z ++ "." ++ f) = Ok [str_of_Z z].
Proof. intros H. unfold get_locations, as_single. rewrite (@trunc_str_of_Z z _ H). reflexivity. Qed.
Lemma decimal_direction z f : all_digits f = true -> get_directions (Some (str_of_Z z ++ "." ++ f)%string) = Ok [str_of_Z z].
Proof. intros H. unfold get_directions, as_single. rewrite (@trunc_str_of_Z z _ H). reflexivity. Qed.

(** Numbers with an exponent. *)
Lemma signed_str_of_Z e : signed_digits (str_of_Z e) = Some e.
Proof.
  unfold str_of_Z. destruct (Z.ltb_spec e 0) as [L|L].
  - cbn [signed_digits]. rewrite Ascii.eqb_refl, str_of_nat_parse. cbn. f_equal. lia.
  - pose proof (str_of_nat_parse (Z.to_nat e)) as T. pose proof (str_of_nat_digits (Z.to_nat e)) as D.
    destruct (str_of_nat (Z.to_nat e)) as [|a s] eqn:E; [exfalso; exact (str_of_nat_nonempty _ E)|].
    cbn in D. apply andb_true_iff in D as [Da _]. cbn [signed_digits].
    assert (Ascii.eqb a "-" = false) as -> by (apply digit_not; [exact Da|reflexivity]).
    assert (Ascii.eqb a "+" = false) as -> by (apply digit_not; [exact Da|reflexivity]).
    rewrite T. f_equal. lia.
Qed.
Lemma trunc_scientific m e : trunc_unsigned (str_of_nat m ++ "e" ++ str_of_Z e) = Some (TInt (scale10 (Z.of_nat m) e)).
Proof.
  pose proof (str_of_nat_digits m) as Hw. unfold trunc_unsigned.
  assert (Hdig : forall c, is_digit c = true -> is_exp c = false /\ is_char "." c = false).
  { intros c Hc. apply digit_cases in Hc. cbn in Hc. repeat destruct Hc as [<- | Hc]; try (split; reflexivity). destruct Hc. }
  assert (He : forall s, has_char "e" s = true -> has_char "e" (lower s) = true).
  { clear. induction s as [|a s IH]; [discriminate|]. cbn [lower has_char]. intro H. apply orb_true_iff in H as [H|H].
    - apply Ascii.eqb_eq in H. subst a. reflexivity.
    - rewrite (IH H). apply orb_true_r. }
  assert (Hd : has_char "e" (lower (str_of_nat m ++ "e" ++ str_of_Z e)) = true).
  { apply He. rewrite !has_char_app. cbn. apply orb_true_r. }
  destruct (mem (lower (str_of_nat m ++ "e" ++ str_of_Z e)) ["inf"; "infinity"]) eqn:Ei.
  { apply mem_true in Ei. destruct Ei as [E | [E | []]]; rewrite <- E in Hd; discriminate Hd. }
  destruct (String.eqb_spec (lower (str_of_nat m ++ "e" ++ str_of_Z e)) "nan") as [E|_]; [rewrite E in Hd; discriminate Hd|].
  cbn [append]. rewrite split_first_app; [|intros b Hb; exact (proj1 (Hdig _ (@digits_plain _ _ Hw Hb)))|reflexivity].
  rewrite split_first_none; [|intros b Hb; exact (proj2 (Hdig _ (@digits_plain _ _ Hw Hb)))].
  rewrite signed_str_of_Z, str_of_nat_parse. reflexivity.
Qed.
Lemma scientific_single m e : as_single (str_of_nat m ++ "e" ++ str_of_Z e) = Ok (scale10 (Z.of_nat m) e).
Proof.
  unfold as_single, trunc_float. rewrite strip_spaceless.
  2:{ intros c Hc. rewrite !has_char_app in Hc. apply orb_true_iff in Hc as [Hc|Hc]; [exact (@digits_spaceless _ (str_of_nat_digits _) _ Hc)|].
      apply orb_true_iff in Hc as [Hc|Hc].
      - cbn [has_char] in Hc. rewrite orb_false_r in Hc. apply Ascii.eqb_eq in Hc. subst c. reflexivity.
      - unfold str_of_Z in Hc. destruct (e <? 0)%Z.
        + cbn [has_char] in Hc. apply orb_true_iff in Hc as [Hc|Hc]; [apply Ascii.eqb_eq in Hc; subst c; reflexivity|].
          exact (@digits_spaceless _ (str_of_nat_digits _) _ Hc).
        + exact (@digits_spaceless _ (str_of_nat_digits _) _ Hc). }
  pose proof (trunc_scientific m e) as T. pose proof (str_of_nat_digits m) as D.
  destruct (str_of_nat m) as [|a s] eqn:E; [exfalso; exact (str_of_nat_nonempty _ E)|].
  cbn [append] in *. cbn in D. apply andb_true_iff in D as [Da _].
  assert (Ascii.eqb a "-" = false) as -> by (apply digit_not; [exact Da|reflexivity]).
  assert (Ascii.eqb a "+" = false) as -> by (apply digit_not; [exact Da|reflexivity]).
  rewrite T. reflexivity.
Qed.
Lemma scale10_floor m e z : (0 <= m)%Z ->
  (0 <= e -> z = m * 10 ^ e)%Z -> (e < 0 -> z * 10 ^ (- e) <= m < (z + 1) * 10 ^ (- e))%Z -> scale10 m e = z.
Proof.
  intros Hm H1 H2. unfold scale10. destruct (Z.leb_spec 0 e) as [L|L]; [symmetry; exact (H1 L)|]. specialize (H2 L).
  assert (P : (0 < 10 ^ (- e))%Z) by (apply Z.pow_pos_nonneg; lia).
  symmetry. apply (Z.div_unique_pos m (10 ^ (- e)) z (m - z * 10 ^ (- e))); [|ring].
  rewrite Z.mul_add_distr_r in H2. lia.
Qed.

(** ** Units of components *)

Lemma cmp_units_fold rows : forall d c, dget c (fold_left (fun d r => match a_unit r with
                        | Some u => if dmem (a_cmp r) d then d else dset (a_cmp r) u d
                        | None => d
                        end) rows d) =
  match dget c d with Some u => Some u
  | None => match filter (fun r => String.eqb (a_cmp r) c && match a_unit r with Some _ => true | None => false end) rows with [] => None | r :: _ => a_unit r end
  end.
Proof.
  induction rows as [|r rows IH]; intros d c; cbn [fold_left filter]; [destruct (dget c d); reflexivity|].
  rewrite IH. clear IH. destruct (a_unit r) as [u|] eqn:Eu; [|rewrite andb_false_r; reflexivity]. rewrite andb_true_r.
  unfold dmem. destruct (dget (a_cmp r) d) as [u0|] eqn:Ed.
  - destruct (String.eqb_spec (a_cmp r) c) as [<-|N]; [rewrite Ed; reflexivity|reflexivity].
  - destruct (String.eqb_spec (a_cmp r) c) as [<-|N].
    + rewrite dget_dset_eq, Ed, Eu. reflexivity.
    + rewrite dget_dset_ne by congruence. reflexivity.
Qed.
Lemma cmp_units_first rows c u : dget c (cmp_units rows) = Some u <-> first_unit rows c u.
Proof.
  unfold cmp_units. rewrite cmp_units_fold. cbn [dget]. induction rows as [|r rows IH]; cbn [filter].
  - split; [discriminate|]. intros ([|] & r & after & E & _); discriminate E.
  - destruct (String.eqb_spec (a_cmp r) c) as [Ec|Nc]; cbn [andb].
    + destruct (a_unit r) as [u0|] eqn:Eu.
      * rewrite Eu. split.
        -- intros [= <-]. exists [], r, rows. repeat split; auto. intros r' [].
        -- intros ([|r1 before] & r2 & after & E & E2 & E3 & F); cbn in E; injection E as <- E; [congruence|].
           specialize (F r (or_introl eq_refl) Ec). congruence.
      * rewrite IH. split.
        -- intros (before & r2 & after & -> & E2 & E3 & F). exists (r :: before), r2, after. repeat split; auto. intros r' [<-|Hr]; auto.
        -- intros ([|r1 before] & r2 & after & E & E2 & E3 & F); cbn in E; injection E as <- E; [congruence|].
           exists before, r2, after. repeat split; auto. intros r' Hr. apply F. right. exact Hr.
    + rewrite IH. split.
      * intros (before & r2 & after & -> & E2 & E3 & F). exists (r :: before), r2, after. repeat split; auto. intros r' [<-|Hr] Hc; [congruence|auto].
      * intros ([|r1 before] & r2 & after & E & E2 & E3 & F); cbn in E; injection E as <- E; [congruence|].
        exists before, r2, after. repeat split; auto. intros r' Hr. apply F. right. exact Hr.
Qed.

(** ** Conversion of one group *)

Definition row_marginal (r : assign_row) : marginal := MG (a_family r) (a_theta0 r) (a_theta1 r) (a_theta2 r) (a_lower r) (a_upper r) (row_blocks r).
Lemma int_of_toward_zero q : int_of q = if Qle_bool 0 (this q) then Qround.Qfloor (this q) else Qround.Qceiling (this q).
Proof.
  unfold int_of. destruct (this q) as [n d]. cbn [Qnum Qden]. unfold Qle_bool, Qround.Qceiling, Qround.Qfloor, Qopp. cbn [Qnum Qden].
  rewrite Z.mul_1_r. cbn [Z.mul]. destruct (Z.leb_spec 0 n) as [L|L].
  - apply Z.quot_div_nonneg; lia.
  - rewrite <- (Z.opp_involutive n) at 1. rewrite Z.quot_opp_l by lia. f_equal. apply Z.quot_div_nonneg; lia.
Qed.
Lemma blocks_block_count r : row_blocks r = block_count r.
Proof. unfold row_blocks, block_count. destruct (a_blocks r); [apply int_of_toward_zero|reflexivity]. Qed.

Definition par_of (x : num) : par := match x with Some q => PNum q | None => PNone end.
Lemma parse_num e x : parse_par e (value_of x) = Ok (par_of x).
Proof. destruct x; reflexivity. Qed.
Lemma limit_num f x : scale_limit f (value_of x) = Ok (value_of (scaled f x)).
Proof. destruct x; reflexivity. Qed.
Lemma args_num f x : scale_args f (par_of x) = par_of x.
Proof. destruct x; reflexivity. Qed.
Lemma show_num e x y : show_par e (par_of x) (par_of y) = Ok (value_of y).
Proof. destruct x, y; reflexivity. Qed.
Lemma num_value x : num_of (value_of x) = x.
Proof. destruct x; reflexivity. Qed.
Lemma par_scale_num f x : par_scale f (par_of x) = par_of (scaled f x).
Proof. destruct x; reflexivity. Qed.

Lemma convert_scaled_num e f m family : 
  (supported family /\ exists c, convert_scaled e false f None (marginal_cell m) family = Ok c /\
     c "Theta_0" = value_of (scaled f (m_theta0 m)) /\
     c "Theta_1" = value_of (match second_of family with WithUnit => scaled f (m_theta1 m) | Relative => m_theta1 m | Unused => None end) /\
     c "Theta_2" = VBlank /\ c "TruncateLower" = value_of (scaled f (m_lower m)) /\ c "TruncateUpper" = value_of (scaled f (m_upper m))) \/
  (~ supported family /\ convert_scaled e false f None (marginal_cell m) family = Err ValueError).
Proof.
  unfold convert_scaled. change (marginal_cell m "Theta_0") with (value_of (m_theta0 m)). change (marginal_cell m "Theta_1") with (value_of (m_theta1 m)).
  change (marginal_cell m "Theta_2") with (value_of (m_theta2 m)). change (marginal_cell m "TruncateLower") with (value_of (m_lower m)).
  change (marginal_cell m "TruncateUpper") with (value_of (m_upper m)). rewrite !parse_num, !limit_num. cbn [bind arg_factor andb]. rewrite !args_num.
  assert (Hs : (supported family /\ scale_distribution f family (par_of (m_theta0 m), par_of (m_theta1 m), par_of (m_theta2 m)) =
     Ok (par_of (scaled f (m_theta0 m)), par_of (match second_of family with WithUnit => scaled f (m_theta1 m) | Relative => m_theta1 m | Unused => None end), par_of None)) \/
     (~ supported family /\ scale_distribution f family (par_of (m_theta0 m), par_of (m_theta1 m), par_of (m_theta2 m)) = Err ValueError)).
  { unfold scale_distribution. rewrite !par_scale_num. destruct family as [fam|]; [|left; split; [exact I|reflexivity]].
    destruct (String.eqb_spec fam "normal_std") as [->|N1]; [left; split; [cbn; auto|reflexivity]|].
    destruct (String.eqb_spec fam "uniform") as [->|N2]; [left; split; [cbn; auto|reflexivity]|].
    destruct (String.eqb_spec fam "normal") as [->|N3]; [left; split; [cbn; auto|reflexivity]|].
    destruct (String.eqb_spec fam "normal_cov") as [->|N4]; [left; split; [cbn; auto|reflexivity]|].
    destruct (String.eqb_spec fam "lognormal") as [->|N5]; [left; split; [cbn; auto 6|reflexivity]|].
    destruct (String.eqb_spec fam "deterministic") as [->|N6]; [left; split; [cbn; auto 7|reflexivity]|].
    destruct (String.eqb_spec fam "multilinear_CDF") as [->|N7]; [left; split; [cbn; auto 8|reflexivity]|].
    right. split; [|reflexivity]. cbn. intros H. repeat destruct H as [H|H]; congruence. }
  destruct Hs as [[Hs ->]|[Hs ->]]; [left|right; split; [exact Hs|reflexivity]]. split; [exact Hs|]. cbn [bind]. rewrite !show_num. cbn [bind].
  eexists. split; [reflexivity|]. repeat split.
Qed.

Lemma convert_group_iff e u r m' : convert_group e u (row_marginal r) = Ok m' <->
  exists f, unit_factor e u f /\ (is_empirical (a_family r) = true \/ supported (a_family r)) /\ m' = quantity f r.
Proof.
  unfold convert_group, convert_marginal. setoid_rewrite <- (@calc_unit_factor e u). destruct (calc_unit_scale_factor e u) as [f|x]; cbn [bind].
  2:{ split; [discriminate|]. intros (f & E & _). discriminate E. }
  change (marginal_cell (row_marginal r) "Family") with (family_value (a_family r)). change (m_family (row_marginal r)) with (a_family r).
  unfold quantity. rewrite <- blocks_block_count. change (m_blocks (row_marginal r)) with (row_blocks r).
  assert (Hn : is_empirical (a_family r) = false ->
    ((let* c := convert_scaled e false f None (marginal_cell (row_marginal r)) (a_family r) in
     Ok (MG (a_family r) (num_of (c "Theta_0")) (num_of (c "Theta_1")) (num_of (c "Theta_2")) (num_of (c "TruncateLower")) (num_of (c "TruncateUpper")) (row_blocks r))) = Ok m' <->
     exists f0, Ok f = Ok f0 /\ (false = true \/ supported (a_family r)) /\ m' = MG (a_family r) (scaled f0 (a_theta0 r))
          (match second_of (a_family r) with WithUnit => scaled f0 (a_theta1 r) | Relative => a_theta1 r | Unused => None end)
          None (scaled f0 (a_lower r)) (scaled f0 (a_upper r)) (row_blocks r))).
  { intros _. destruct (@convert_scaled_num e f (row_marginal r) (a_family r)) as [(Hs & c & -> & E0 & E1 & E2 & E3 & E4)|[Hs ->]]; cbn [bind].
    - rewrite E0, E1, E2, E3, E4, !num_value. cbn [num_of row_marginal m_theta0 m_theta1 m_lower m_upper]. split.
      + intros [= <-]. exists f. auto.
      + intros (f0 & [= <-] & _ & ->). reflexivity.
    - split; [discriminate|]. intros (f0 & _ & [C|C] & _); [discriminate C|contradiction]. }
  destruct (a_family r) as [fam|]; cbn [family_value is_empirical] in *.
  - destruct (String.eqb fam "empirical").
    + cbn [bind]. clear Hn. cbn. rewrite !num_value. split; [intros [= <-]; exists f; auto|]. intros (f0 & _ & _ & ->). reflexivity.
    + apply Hn. reflexivity.
  - apply Hn. reflexivity.
Qed.

(** ** The whole table *)

Definition total_convert (e : penv) (um : string * marginal) : marginal :=
  match convert_group e (fst um) (snd um) with Ok m => m | Err _ => snd um end.
Definition row_factor (e : penv) (units : dict string) (r : assign_row) : Qc :=
  match dget (a_cmp r) units with
  | Some u => match calc_unit_scale_factor e u with Ok f => f | Err _ => 0%Qc end
  | None => 0%Qc
  end.

Lemma expand_inv stories units r gs : expand_assignment stories units r = Ok gs ->
  exists ps u, places stories r ps /\ dget (a_cmp r) units = Some u /\
    gs = map (fun p => ([a_cmp r; fst p; snd p], (u, row_marginal r))) ps.
Proof.
  intros H. unfold expand_assignment in H. binv H locs. binv H dirs. destruct (dget (a_cmp r) units) as [u|] eqn:Eu; [|discriminate].
  injection H as <-. exists (list_prod locs dirs), u. split; [|split; [reflexivity|reflexivity]]. exists locs, dirs. auto.
Qed.

Lemma groups_expand e stories units rows gss : Forall2 (fun r gs => expand_assignment stories units r = Ok gs) rows gss ->
  (forall g, In g (List.concat gss) -> exists m, convert_group e (fst (snd g)) (snd (snd g)) = Ok m) ->
  exists pss, Forall2 (places stories) rows pss /\
    map (fun g => (fst g, total_convert e (snd g))) (List.concat gss) =
      flat_map (fun rp => map (fun p => ([a_cmp (fst rp); fst p; snd p], quantity (row_factor e units (fst rp)) (fst rp))) (snd rp)) (combine rows pss) /\
    forall r, In r rows -> exists u, dget (a_cmp r) units = Some u /\ (unit_factor e u (row_factor e units r) \/ places stories r []).
Proof.
  induction 1 as [|r gs rows gss Hr F IH]; intros Hok.
  - exists []. split; [constructor|]. split; [reflexivity|]. intros r [].
  - cbn [List.concat] in Hok. destruct IH as (pss & F1 & E1 & U1).
    { intros g Hg. apply Hok. apply in_or_app. right. exact Hg. }
    destruct (@expand_inv _ _ _ _ Hr) as (ps & u & Hp & Hu & ->). exists (ps :: pss). split; [constructor; assumption|].
    assert (Hps : ps = [] \/ (unit_factor e u (row_factor e units r) /\ total_convert e (u, row_marginal r) = quantity (row_factor e units r) r)).
    { destruct ps as [|p ps]; [left; reflexivity|right]. destruct (Hok ([a_cmp r; fst p; snd p], (u, row_marginal r))) as [m Hm]; [left; reflexivity|].
      cbn [fst snd] in Hm. pose proof (proj1 (@convert_group_iff _ _ _ _) Hm) as (f & Hf & _ & ->).
      assert (Ef : row_factor e units r = f) by (unfold row_factor; rewrite Hu; apply calc_unit_factor in Hf; rewrite Hf; reflexivity).
      rewrite Ef. split; [exact Hf|]. unfold total_convert. cbn [fst snd]. rewrite Hm. reflexivity. }
    split.
    + cbn [List.concat combine flat_map fst snd]. rewrite map_app, E1. f_equal. rewrite map_map. cbn [fst snd].
      destruct Hps as [->|[_ ->]]; reflexivity.
    + intros r' [<-|Hr']; [|exact (U1 r' Hr')]. exists u. split; [exact Hu|]. destruct Hps as [->|[Hf _]]; [right; exact Hp|left; exact Hf].
Qed.

Lemma load_groups e stories rows units groups : load_cmp_model e stories rows = Ok (units, groups) ->
  exists factor, groups_of stories rows factor groups /\
    (forall c u, dget c units = Some u <-> first_unit rows c u) /\
    forall r, In r rows -> exists u, first_unit rows (a_cmp r) u /\ (unit_factor e u (factor r) \/ places stories r []).
Proof.
  unfold load_cmp_model. destruct (existsb _ rows); [|discriminate]. destruct (aligned rows); [|discriminate]. intros H. binv H gss.
  destruct (existsb _ (List.concat gss)); [discriminate|].
  assert (H' : (let* converted := mapM (fun g => let* m := convert_group e (fst (snd g)) (snd (snd g)) in Ok (fst g, m)) (dedupe_index (List.concat gss)) in Ok (cmp_units rows, converted)) = Ok (units, groups))
    by (destruct (List.concat gss); [discriminate|exact H]). clear H. binv H' cvs. injection H' as <- <-.
  apply mapM_Forall2 in E, E0.
  assert (Hconv : cvs = map (fun g => (fst g, total_convert e (snd g))) (dedupe_index (List.concat gss)) /\
     forall g, In g (dedupe_index (List.concat gss)) -> exists m, convert_group e (fst (snd g)) (snd (snd g)) = Ok m).
  { clear - E0. induction E0 as [|g c l cvs Hg F IH]; [split; [reflexivity|intros g []]|]. destruct IH as [-> IH]. binv Hg m. injection Hg as <-. split.
    - cbn [map]. f_equal. unfold total_convert. rewrite E. reflexivity.
    - intros g' [<-|Hg']; [exists m; exact E|exact (IH g' Hg')]. }
  destruct Hconv as [-> Hok]. pose proof (dedupe_perm (List.concat gss)) as P.
  destruct (@groups_expand e stories (cmp_units rows) rows gss E) as (pss & F & Em & U).
  { intros g Hg. apply (Permutation_in _ (Permutation_sym P)) in Hg. apply in_map_iff in Hg as (g' & <- & Hg'). cbn [snd]. exact (Hok g' Hg'). }
  exists (row_factor e (cmp_units rows)). split; [|split].
  - exists pss. split; [exact F|]. split.
    + rewrite map_map. cbn [fst]. apply dedupe_NoDup.
    + rewrite map_map. cbn [fst snd]. rewrite <- Em.
      apply (Permutation_map (fun g => (fst g, total_convert e (snd g)))) in P. rewrite map_map in P. exact P.
  - intros c u. apply cmp_units_first.
  - intros r Hr. destruct (U r Hr) as (u & Hu & D). exists u. split; [apply cmp_units_first, Hu|exact D].
Qed.

Lemma first_unit_consistent rows c u r : consistent_units rows -> first_unit rows c u -> In r rows -> a_cmp r = c -> a_unit r = Some u.
Proof.
  intros [_ H] (b & r0 & a & -> & Hc & Hu & _) Hr Er. rewrite <- Hu. apply H; [exact Hr| |congruence]. apply in_or_app. right. left. reflexivity.
Qed.
Lemma first_unit_exists rows r : In r rows -> (forall r, In r rows -> exists u, a_unit r = Some u) -> exists u, first_unit rows (a_cmp r) u.
Proof.
  intros Hr Hu. pose proof (cmp_units_fold rows [] (a_cmp r)) as E. cbn [dget] in E.
  destruct (filter _ rows) as [|r0 l] eqn:Ef.
  - exfalso. assert (In r []) as []. rewrite <- Ef. apply filter_In. split; [exact Hr|]. destruct (Hu r Hr) as [u ->]. rewrite String.eqb_refl. reflexivity.
  - assert (Hin : In r0 rows) by (assert (H0 : In r0 (r0 :: l)) by (left; reflexivity); rewrite <- Ef in H0; apply filter_In in H0 as [H0 _]; exact H0).
    destruct (Hu r0 Hin) as [u Eu]. exists u. apply cmp_units_first. unfold cmp_units. rewrite E. exact Eu.
Qed.

Lemma mapM_all_ok {A B} (f : A -> result B) l : (forall x, In x l -> exists y, f x = Ok y) -> exists ys, mapM f l = Ok ys.
Proof. intros H. destruct (Forall2_exists (fun x y => f x = Ok y) l H) as [ys F]. exists ys. apply mapM_Forall2, F. Qed.
Lemma existsb_false {A} (p : A -> bool) l : (forall x, In x l -> p x = false) -> existsb p l = false.
Proof. induction l as [|x l IH]; [reflexivity|]. intros H. cbn. rewrite (H x (or_introl eq_refl)). apply IH. intros y Hy. apply H. right. exact Hy. Qed.
Lemma load_accepted e stories rows :
  (forall r, In r rows -> exists u f ps, a_unit r = Some u /\ unit_factor e u f /\ places stories r ps /\
     (is_empirical (a_family r) = true \/ supported (a_family r)) /\ a_theta0 r <> None) ->
  (exists r p ps, In r rows /\ places stories r (p :: ps)) ->
  exists units groups, load_cmp_model e stories rows = Ok (units, groups).
Proof.
  intros H (r0 & p0 & ps0 & Hr0 & Hp0). unfold load_cmp_model.
  assert (Hun : forall r, In r rows -> exists u, a_unit r = Some u) by (intros r Hr; destruct (H r Hr) as (u & _ & _ & Hu & _); exists u; exact Hu).
  assert (Hsame : forall r, In r rows -> forall u, first_unit rows (a_cmp r) u -> exists f, unit_factor e u f).
  { intros r _ u (b & r1 & a & -> & _ & Eu & _). destruct (H r1) as (u1 & f & ps & E1 & Hf & _); [apply in_or_app; right; left; reflexivity|]. exists f. congruence. }
  assert (existsb (fun r => match a_unit r with Some _ => true | None => false end) rows = true) as ->.
  { apply existsb_exists. exists r0. split; [exact Hr0|]. destruct (Hun _ Hr0) as [u ->]. reflexivity. }
  assert (aligned rows = true) as ->.
  { unfold aligned. replace (filter _ rows) with rows; [rewrite map_length, Nat.eqb_refl; reflexivity|]. clear - Hun.
    induction rows as [|r rows IH]; [reflexivity|]. cbn [filter]. destruct (Hun r (or_introl eq_refl)) as [u ->]. f_equal. apply IH. intros r' Hr'. apply Hun. right. exact Hr'. }
  assert (Hex : exists gss, mapM (expand_assignment stories (cmp_units rows)) rows = Ok gss).
  { apply mapM_all_ok. intros r Hr. destruct (H r Hr) as (u & f & ps & _ & _ & (locs & dirs & E1 & E2 & _) & _). unfold expand_assignment. rewrite E1, E2. cbn [bind].
    destruct (@first_unit_exists rows r Hr Hun) as [u' Hu']. apply cmp_units_first in Hu'. rewrite Hu'. eexists. reflexivity. }
  destruct Hex as [gss Eg]. rewrite Eg. cbn [bind]. apply mapM_Forall2 in Eg.
  assert (Hg : forall g, In g (List.concat gss) -> exists r, In r rows /\ snd (snd g) = row_marginal r /\ dget (a_cmp r) (cmp_units rows) = Some (fst (snd g))).
  { clear - Eg. revert Eg. generalize (cmp_units rows) as units. intros units Eg. induction Eg as [|r gs l gss Hr F IH]; [intros g []|]. cbn [List.concat]. intros g Hg. apply in_app_iff in Hg as [Hg|Hg].
    - destruct (@expand_inv _ _ _ _ Hr) as (ps & u & _ & Hu & ->). apply in_map_iff in Hg as (p & <- & _). exists r. split; [left; reflexivity|]. auto.
    - destruct (IH g Hg) as (r' & Hr' & Q). exists r'. split; [right; exact Hr'|exact Q]. }
  assert (existsb (fun g => match m_theta0 (snd (snd g)) with None => true | Some _ => false end) (List.concat gss) = false) as ->.
  { apply existsb_false. intros g Hin. destruct (Hg g Hin) as (r & Hr & -> & _). cbn. destruct (H r Hr) as (_ & _ & _ & _ & _ & _ & _ & Ht). destruct (a_theta0 r); congruence. }
  assert (Hne : List.concat gss <> []).
  { clear - Eg Hr0 Hp0. revert Eg. generalize (cmp_units rows) as units. intros units Eg. induction Eg as [|r gs l gss Hr F IH]; [destruct Hr0|]. cbn [List.concat]. destruct Hr0 as [->|Hr0].
    - destruct (@expand_inv _ _ _ _ Hr) as (ps & u & (locs & dirs & E1 & E2 & ->) & _ & ->). destruct Hp0 as (locs' & dirs' & E1' & E2' & E3).
      rewrite E1 in E1'. injection E1' as <-. rewrite E2 in E2'. injection E2' as <-. rewrite <- E3. discriminate.
    - intros E. apply app_eq_nil in E as [_ E]. exact (IH Hr0 E). }
  assert (Hok : exists cvs, mapM (fun g => let* m := convert_group e (fst (snd g)) (snd (snd g)) in Ok (fst g, m)) (dedupe_index (List.concat gss)) = Ok cvs).
  { apply mapM_all_ok. intros g Hin. pose proof (dedupe_perm (List.concat gss)) as P.
    apply (in_map (fun e => (removelast (fst e), snd e))) in Hin. apply (Permutation_in _ P) in Hin. destruct (Hg _ Hin) as (r & Hr & Er & Eu). cbn [snd] in Er, Eu.
    destruct (Hsame r Hr _ (proj1 (cmp_units_first _ _ _) Eu)) as [f Hf].
    destruct (H r Hr) as (_ & _ & _ & _ & _ & _ & Hfam & _). rewrite Er.
    rewrite (proj2 (@convert_group_iff e (fst (snd g)) r (quantity f r)) (ex_intro _ f (conj Hf (conj Hfam eq_refl)))). eexists; reflexivity. }
  destruct Hok as [cvs Ec]. destruct (List.concat gss); [congruence|]. rewrite Ec. eexists _, _. reflexivity.
Qed.

(** ** The columns of the component sample *)

Lemma variable_label_split label : Forall no_dash label -> split_on "-" (variable_label label) = "CMP" :: label.
Proof. intros H. unfold variable_label. apply PreludeFacts.split_join; [discriminate|]. constructor; [reflexivity|exact H]. Qed.
Lemma split_join_length l : l <> [] -> (List.length l <= List.length (split_on "-" (join "-" l)))%nat /\
  (List.length (split_on "-" (join "-" l)) = List.length l -> Forall no_dash l).
Proof.
  induction l as [|w l IH]; [congruence|]. intros _. destruct l as [|w2 l].
  - cbn [join String.concat]. split; [pose proof (split_on_nonempty "-" w); destruct (split_on "-" w); [congruence|cbn; lia]|].
    cbn. intros H. constructor; [|constructor]. unfold no_dash. pose proof (split_on_pieces "-" w) as F. pose proof (join_split "-" w) as J.
    destruct (split_on "-" w) as [|a [|b m]]; try discriminate H. cbn in J. subst a. apply Forall_inv in F. exact F.
  - specialize (IH ltac:(discriminate)). change (join "-" (w :: w2 :: l)) with (w ++ String "-" (join "-" (w2 :: l)))%string.
    assert (K : split_on "-" (w ++ String "-" (join "-" (w2 :: l))) = (split_on "-" w ++ split_on "-" (join "-" (w2 :: l)))%list).
    { clear. generalize (join "-" (w2 :: l)). intros t. induction w as [|a w IH]; [reflexivity|]. cbn [append split_on].
      destruct (Ascii.eqb a "-"); [rewrite IH; reflexivity|]. rewrite IH. destruct (split_on "-" w) eqn:E; [exfalso; exact (split_on_nonempty _ _ E)|reflexivity]. }
    rewrite K, app_length. assert (L : (1 <= List.length (split_on "-" w))%nat) by (pose proof (split_on_nonempty "-" w); destruct (split_on "-" w); [congruence|cbn; lia]).
    destruct IH as [IH1 IH2]. split; [cbn [List.length] in *; lia|]. intros E. cbn [List.length] in *. constructor.
    + unfold no_dash. pose proof (split_on_pieces "-" w) as F. pose proof (join_split "-" w) as J.
      destruct (split_on "-" w) as [|a [|b m]]; cbn [List.length] in *; try lia. cbn in J. subst a. apply Forall_inv in F. exact F.
    + apply IH2. lia.
Qed.

Lemma sample_columns_ok {V} (columns : list (list string * V)) : columns <> [] ->
  Forall (fun c => List.length (fst c) = 4%nat /\ Forall no_dash (fst c)) columns ->
  exists out, cmp_sample_columns columns = Ok out /\ Permutation out columns.
Proof.
  intros Hne H. unfold cmp_sample_columns.
  set (sorted := isort _ (map _ columns)). assert (P : Permutation (map (fun c => (variable_label (fst c), snd c)) columns) sorted) by apply isort_perm.
  apply Permutation_sym, Permutation_map_inv in P as (cols & Es & Pc).
  assert (Hc : Forall (fun c => List.length (fst c) = 4%nat /\ Forall no_dash (fst c)) cols) by (eapply Permutation_Forall; [exact Pc|exact H]).
  assert (Hcn : cols <> []) by (intros ->; apply Permutation_sym, Permutation_nil in Pc; congruence).
  rewrite Es, !map_map. cbn [fst snd].
  assert (Em : to_multi_index (Flat (map (fun c : list string * V => variable_label (fst c)) cols)) = Ok (Multi 5 (map (fun c => "CMP" :: fst c) cols))).
  { pose proof (@simple_multi_round_trip 5 (map (fun c => "CMP" :: fst c) cols)) as R. cbn [to_simple_index] in R.
    rewrite !map_map in R. apply R; [lia|destruct cols; [congruence|discriminate]|]. apply Forall_forall. intros l Hl. apply in_map_iff in Hl as (c & <- & Hin).
    rewrite Forall_forall in Hc. destruct (Hc c Hin) as [L D]. split; [cbn; rewrite L; reflexivity|]. constructor; [reflexivity|exact D]. }
  rewrite Em. cbn [bind]. cbn [Nat.eqb]. eexists. split; [reflexivity|]. eapply Permutation_trans; [|apply Permutation_sym; exact Pc].
  match goal with |- Permutation ?a ?b => replace a with b; [apply Permutation_refl|] end. clear. symmetry. induction cols as [|[l v] cols IH]; [reflexivity|]. cbn [map combine filter fst snd]. cbn [String.eqb Ascii.eqb]. cbn. f_equal. exact IH.
Qed.
Lemma sample_columns_err {V} (columns : list (list string * V)) :
  Forall (fun c => List.length (fst c) = 4%nat) columns -> (exists c, In c columns /\ ~ Forall no_dash (fst c)) -> cmp_sample_columns columns = Err ValueError.
Proof.
  intros H (c0 & Hc0 & Hd). unfold cmp_sample_columns.
  set (sorted := isort _ (map _ columns)). assert (P : Permutation (map (fun c => (variable_label (fst c), snd c)) columns) sorted) by apply isort_perm.
  apply Permutation_sym, Permutation_map_inv in P as (cols & Es & Pc). apply (Permutation_in _ Pc) in Hc0. rewrite Es, !map_map. cbn [fst snd].
  assert (Hc : Forall (fun c => List.length (fst c) = 4%nat) cols) by (eapply Permutation_Forall; [exact Pc|exact H]). clear Es Pc sorted H columns.
  unfold to_multi_index. destruct (map (fun c : list string * V => variable_label (fst c)) cols) as [|x xs] eqn:Ex; [destruct cols; [destruct Hc0|discriminate]|].
  rewrite <- Ex. clear x xs Ex. rewrite !map_map. set (w := list_max _).
  assert (Hw : (6 <= w)%nat).
  { eapply Nat.le_trans; [|apply list_max_ge; apply in_map_iff; exists c0; split; [reflexivity|exact Hc0]]. rewrite Forall_forall in Hc. specialize (Hc c0 Hc0).
    unfold variable_label. destruct (@split_join_length ("CMP" :: fst c0) ltac:(discriminate)) as [L1 L2]. cbn [List.length] in L1, L2. rewrite Hc in *.
    destruct (Nat.eq_dec (List.length (split_on "-" (join "-" ("CMP" :: fst c0)))) 5) as [E|E]; [|lia]. specialize (L2 E). inversion L2; contradiction. }
  destruct (Nat.ltb_spec 1 w); [|lia]. cbn [bind]. destruct (Nat.eqb_spec w 5); [lia|]. reflexivity.
Qed.
