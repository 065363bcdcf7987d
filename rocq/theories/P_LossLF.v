(** Proofs about losses from loss functions. *)
From Coq Require Import Sorting.Permutation Sorting.Sorted.
From Verif Require Import Prelude PreludeFacts Pandas PandasFacts M_Base S_Base P_Base M_FileIO M_Damage M_Demand S_Demand P_Req
  M_Agg S_Agg P_Agg P_Comb P_Scaling P_Eval M_LossDS S_LossDS P_Interp P_LossDS M_LossLF S_LossLF.
Local Open Scope string_scope.
Local Open Scope list_scope.

(** ** Loss functions *)

Lemma has_char_join c sep l : has_char c sep = false -> Forall (fun t => has_char c t = false) l -> has_char c (join sep l) = false.
Proof.
  intros Hs H. induction H as [|x l Hx Hl IH]; [reflexivity|]. destruct l as [|y l]; [exact Hx|].
  change (join sep (x :: y :: l)) with (x ++ sep ++ join sep (y :: l))%string. now rewrite !has_char_app, Hx, Hs, IH.
Qed.
Lemma split_join c l : l <> [] -> Forall (fun t => has_char c t = false) l -> split_on c (join (String c "") l) = l.
Proof.
  intros Hn H. induction H as [|x l Hx Hl IH]; [easy|]. destruct l as [|y l]; [now apply split_on_nochar|].
  change (join (String c "") (x :: y :: l)) with (x ++ String c (join (String c "") (y :: l)))%string.
  rewrite split_on_app by assumption. now rewrite IH.
Qed.

Lemma floats_Forall2 pf l qs : Forall2 (fun t q => pf t = Some q) l qs -> floats pf l = Ok qs.
Proof.
  intros H. unfold floats. apply mapM_Forall2. induction H as [|t q l qs Ht HF IH]; constructor; [|assumption]. now rewrite Ht.
Qed.

Lemma sorted_perm_unique_in {A} (le : A -> A -> bool) l1 : sorted_by le l1 -> forall l2, sorted_by le l2 -> Permutation l1 l2 ->
  (forall a b, In a l1 -> In b l1 -> le a b = true -> le b a = true -> a = b) -> l1 = l2.
Proof.
  induction 1 as [|x l1 Hs IH Hx]; intros l2 H2 Hp Ha.
  - now apply Permutation_nil in Hp.
  - destruct H2 as [|y l2 Hs2 Hy]; [now apply Permutation_sym, Permutation_nil in Hp|].
    assert (x = y) as ->.
    { assert (In x (y :: l2)) as Hin by (eapply Permutation_in; [exact Hp|now left]).
      assert (In y (x :: l1)) as Hin' by (eapply Permutation_in; [symmetry; exact Hp|now left]).
      assert (Hiy : In y (x :: l1)) by assumption.
      destruct Hin as [->|Hin]; [easy|]. destruct Hin' as [->|Hin']; [easy|].
      rewrite Forall_forall in Hx, Hy. apply Ha; [now left|assumption|auto|auto]. }
    f_equal. apply IH; [easy|now apply Permutation_cons_inv in Hp|]. intros a b Ia Ib. apply Ha; now right.
Qed.

Lemma wf_sorted ys xs : well_formed_table ys xs -> sorted_by (fun a b : Qc * Qc => Qcleb (fst a) (fst b)) (combine xs ys).
Proof.
  intros Hw. pose proof (wf_increasing ys xs Hw) as Hi. destruct Hw as (_ & Hl & _). revert ys Hl Hi.
  induction xs as [|x xs IH]; intros [|y ys] Hl Hi; try easy; [constructor|]. cbn [combine]. constructor.
  - apply IH; [cbn in Hl; lia|]. destruct xs; [reflexivity|]. cbn in Hi. now apply andb_true_iff in Hi.
  - apply Forall_forall. intros [x' y'] Hin. apply in_combine_l in Hin. cbn [fst]. apply Qcleb_true.
    destruct (In_nth _ _ 0%Qc Hin) as (j & Hj & E). pose proof (nth_le (x :: xs) 0 (S j) Hi) as Hle. cbn [nth List.length] in Hle.
    rewrite E in Hle. apply Hle. lia.
Qed.

Lemma wf_distinct ys xs a b : well_formed_table ys xs -> In a (combine xs ys) -> In b (combine xs ys) -> fst a = fst b -> a = b.
Proof.
  intros Hw Ha Hb E. pose proof Hw as (_ & Hl & _).
  destruct (In_nth _ _ (0%Qc, 0%Qc) Ha) as (i & Hi & Ei). destruct (In_nth _ _ (0%Qc, 0%Qc) Hb) as (j & Hj & Ej).
  rewrite combine_length, Hl, Nat.min_id in Hi, Hj. rewrite combine_nth in Ei, Ej by congruence. subst a b. cbn [fst] in E.
  pose proof (wf_increasing ys xs Hw) as Hinc.
  assert (i = j) as ->; [|reflexivity].
  destruct (Nat.lt_trichotomy i j) as [H|[H|H]]; [|exact H|].
  - exfalso. pose proof (increasing_nth xs Hinc i j (conj H Hj)) as Hlt. rewrite E in Hlt. now apply Qclt_not_eq in Hlt.
  - exfalso. pose proof (increasing_nth xs Hinc j i (conj H Hi)) as Hlt. rewrite E in Hlt. now apply Qclt_not_eq in Hlt.
Qed.

Lemma qcle_order : (forall a b c : Qc * Qc, Qcleb (fst a) (fst b) = true -> Qcleb (fst b) (fst c) = true -> Qcleb (fst a) (fst c) = true) /\
  (forall a b : Qc * Qc, Qcleb (fst a) (fst b) = true \/ Qcleb (fst b) (fst a) = true).
Proof.
  split.
  - intros a b c H1 H2. apply Qcleb_true in H1, H2. apply Qcleb_true. eapply Qcle_trans; eassumption.
  - intros a b. destruct (Qclt_le_dec (fst a) (fst b)) as [H|H]; [left|right]; apply Qcleb_true; [now apply Qclt_le_weak|assumption].
Qed.

Lemma stringterpolation_points pf text ys xs ys' xs' : table_text pf text ys xs -> same_points ys xs ys' xs' -> well_formed_table ys' xs' ->
  stringterpolation pf text = Ok (combine xs' ys').
Proof.
  intros (yt & xt & -> & Hc & Hy & Hx) [Hl Hp] Hw. unfold stringterpolation.
  apply Forall_app in Hc as [Hcy Hcx].
  assert (Hyb : has_char "|" (join "," yt) = false).
  { apply has_char_join; [reflexivity|]. eapply Forall_impl; [|exact Hcy]. now intros t [_ Ht]. }
  assert (Hxb : has_char "|" (join "," xt) = false).
  { apply has_char_join; [reflexivity|]. eapply Forall_impl; [|exact Hcx]. now intros t [_ Ht]. }
  change (join "," yt ++ "|" ++ join "," xt)%string with (join "," yt ++ String "|" (join "," xt))%string.
  rewrite split_on_app by assumption. rewrite split_on_nochar by assumption.
  assert (Hxs : xs <> []).
  { intros ->. cbn in Hp. apply Permutation_nil in Hp. destruct Hw as (Hn & Hlw & _). destruct xs', ys'; easy. }
  assert (Hxt : xt <> []) by (intros ->; inversion Hx; subst; easy).
  assert (Hyt : yt <> []) by (intros ->; inversion Hy; subst; destruct xs; easy).
  rewrite !split_join; try assumption; try (eapply Forall_impl; [|eassumption]; now intros t [Ht _]).
  rewrite (floats_Forall2 _ _ _ Hx), (floats_Forall2 _ _ _ Hy). cbn [bind]. rewrite Hl, Nat.eqb_refl. f_equal.
  pose proof qcle_order as [Htr Hto].
  apply sorted_perm_unique_in with (le := fun a b : Qc * Qc => Qcleb (fst a) (fst b)).
  - now apply isort_sorted.
  - now apply wf_sorted.
  - rewrite <- Hp. symmetry. apply isort_perm.
  - assert (Hperm : Permutation (isort (fun a b : Qc * Qc => Qcleb (fst a) (fst b)) (combine xs ys)) (combine xs' ys'))
      by (rewrite <- Hp; symmetry; apply isort_perm).
    intros a b Ha Hb H1 H2. apply Qcleb_true in H1, H2. apply (wf_distinct ys' xs'); [assumption| | |now apply Qcle_antisym].
    + now apply (Permutation_in _ Hperm).
    + now apply (Permutation_in _ Hperm).
Qed.

Lemma last_combine (xs ys : list Qc) x0 y0 d : List.length ys = List.length xs ->
  fst (last (combine (x0 :: xs) (y0 :: ys)) d) = nth (List.length xs) (x0 :: xs) 0%Qc.
Proof.
  revert ys x0 y0. induction xs as [|x xs IH]; intros [|y ys] x0 y0 Hl; try easy.
  change (combine (x0 :: x :: xs) (y0 :: y :: ys)) with ((x0, y0) :: combine (x :: xs) (y :: ys)).
  change (last ((x0, y0) :: combine (x :: xs) (y :: ys)) d) with (last (combine (x :: xs) (y :: ys)) d).
  rewrite IH by (cbn in Hl; lia). reflexivity.
Qed.

Lemma interp1d_at ys xs q m : well_formed_table ys xs -> interp1d (combine xs ys) q = Ok m -> loss_at ys xs q m.
Proof.
  intros Hw H. pose proof Hw as (Hn & Hl & Hinc). destruct xs as [|x0 xs]; [easy|]. destruct ys as [|y0 ys]; [easy|].
  cbn [List.length] in Hl. pose proof (bounded_multilinear_curve (y0 :: ys) (x0 :: xs)) as Hb.
  pose proof (last_combine xs ys x0 y0 (x0, y0) ltac:(lia)) as Hlast.
  unfold interp1d in H. cbn [combine] in H. change ((x0, y0) :: combine xs ys) with (combine (x0 :: xs) (y0 :: ys)) in H.
  destruct q as [q|]; [|cbn; congruence]. rewrite Hlast in H.
  destruct (Qcltb q x0) eqn:E1; [discriminate H|]. destruct (Qcltb _ q) eqn:E2; [discriminate H|]. cbn [orb] in H.
  apply Qcltb_false in E1, E2. cbn. exists (interp_from x0 y0 (combine xs ys) q). split; [congruence|].
  split; [|split; [assumption|]].
  - specialize (Hb q Hw). unfold bounded_multilinear in Hb. cbn [combine] in Hb.
    destruct (Qcltb q x0) eqn:E3; [apply Qcltb_true in E3; apply Qcle_not_lt in E1; contradiction|]. exact Hb.
  - now rewrite Nat.sub_0_r.
Qed.

Lemma interp1d_outside ys xs q : well_formed_table ys xs -> (q < nth 0 xs 0)%Qc \/ (nth (List.length xs - 1) xs 0 < q)%Qc ->
  interp1d (combine xs ys) (Some q) = Err ValueError.
Proof.
  intros Hw H. pose proof Hw as (Hn & Hl & _). destruct xs as [|x0 xs]; [easy|]. destruct ys as [|y0 ys]; [easy|].
  cbn [List.length] in Hl. pose proof (last_combine xs ys x0 y0 (x0, y0) ltac:(lia)) as Hlast.
  unfold interp1d. cbn [combine]. change ((x0, y0) :: combine xs ys) with (combine (x0 :: xs) (y0 :: ys)). rewrite Hlast.
  cbn [List.length] in H. rewrite Nat.sub_succ, Nat.sub_0_r in H. change (nth 0 (x0 :: xs) 0%Qc) with x0 in H.
  destruct H as [H|H]; apply Qcltb_true in H; rewrite H; [reflexivity|now rewrite orb_true_r].
Qed.

(** ** Demands *)

Lemma key_value e sample p d et edps v : terms_of (nterms e) d = Ok et -> mapM (edp_of (offsets e) p) (snd et) = Ok edps ->
  assemble_one (eval e) (multipliers e) sample (edps, fst et) = Ok v ->
  demand_table sample -> plain_demand e p d -> group_demand e sample p d v.
Proof.
  intros Ht Hm Hone Hdt ([Hw1 Hw2] & Hdir & Hdiff). destruct et as [x ts]. cbn [fst snd] in *.
  apply terms_of_uses in Ht as [Hu He]. apply mapM_Forall2 in Hm.
  assert (Hwts : Forall (whole (offsets e)) ts).
  { rewrite Forall_forall in Hw1 |- *. intros t Hin. split; [|exact Hw2]. apply Hw1. eapply uses_In; eauto. }
  assert (Hdirts : forall t, In t ts -> directional t -> dir p <> "0").
  { intros t Hin. apply Hdir. eapply uses_In; eauto. }
  unfold assemble_one in Hone. cbn [fst snd] in Hone. binv Hone vals. destruct (expression d) as [| |x'] eqn:Hex.
  - subst x. pose proof Hu as Hu'. unfold uses in Hu'. rewrite Hex in Hu'. destruct Hu' as (t & rest & Hterms & ->).
    inversion Hm as [|? edp ? ? Hedp Hrest]; subst. inversion Hrest; subst.
    apply collect_single in E as (w & Hw & ->). cbn [rev app] in Hone. assert (w = v) as -> by (cbn in Hone; congruence).
    apply (@demand_single e sample p d v t rest Hex Hterms). inversion Hwts; subst. eapply term_values; eauto. apply Hdirts. now left.
  - unfold uses in Hu. now rewrite Hex in Hu.
  - subst x. binv Hone c.
    assert (Hsplit : Forall (fun e => exists x y z, split_on "-" e = [x; y; z]) edps).
    { clear - E. revert E. generalize (@nil (string * list num)) as acc. induction edps as [|x edps IH]; intros acc H; [constructor|].
      cbn [collect] in H. binv H l. constructor; [eapply edp_values_split; eauto|]. eapply IH; eauto. }
    assert (Hdts : different_terms (offsets e) p ts).
    { pose proof Hu as Hu'. unfold uses in Hu'. rewrite Hex in Hu'. destruct Hu' as (c' & n & _ & _ & _ & ->).
      unfold different_terms in *. clear - Hdiff. revert n. induction Hdiff as [|t l Ht Hl IH]; intros n; [rewrite firstn_nil; constructor|].
      destruct n as [|n]; simpl; constructor; auto. rewrite Forall_forall in *. intros x Hx. apply Ht.
      rewrite <- (firstn_skipn n l). apply in_or_app. auto. }
    assert (Hnd : NoDup edps) by (eapply ForallOrdPairs_NoDup_edps; eauto).
    apply collect_spec in E as (vs & HFv & ->); [|easy|easy]. cbn [app] in Hone.
    rewrite named_spec in Hone by (clear - HFv; induction HFv; simpl; congruence).
    apply (@demand_combined e sample p d v x' ts c vs Hex Hu E0); [|exact Hone].
    clear - Hm HFv Hwts Hdt Hdirts. revert vs HFv. induction Hm as [|t x ts edps He HF IH]; intros vs HFv; inversion HFv; subst; [constructor|].
    inversion Hwts; subst. constructor.
    + eapply term_values; eauto. apply Hdirts. now left.
    + apply IH; auto. intros t' Hin. apply Hdirts. now right.
Qed.

Lemma group_eqb_eq a b : group_eqb a b = true <-> a = b.
Proof.
  unfold group_eqb. rewrite andb_true_iff, pg_eqb_eq, String.eqb_eq. destruct a, b; cbn. split; [intros [-> ->]; easy|now intros [= -> ->]].
Qed.

Lemma lf_demands_In e sample rows groups demands g v : lf_demands e sample rows groups = Ok demands -> In (g, v) demands ->
  In g groups /\ exists k, lf_key e rows g = Ok k /\ assemble_one (eval e) (multipliers e) sample k = Ok v.
Proof.
  unfold lf_demands. intros H Hin. binv H ks. binv H uu. binv H vs. assert (demands = combine groups vs) as -> by congruence. clear H.
  apply mapM_Forall2 in E, E1. clear E0. split; [now apply in_combine_l in Hin|].
  revert vs E1 Hin. induction E as [|x k groups ks Hk HF IH]; intros vs HFv Hin; [easy|]. inversion HFv; subst. cbn [combine] in Hin.
  destruct Hin as [[= <- <-]|Hin]; [now exists k|]. eapply IH; eassumption.
Qed.
Lemma lf_demands_keys e sample rows groups demands g : lf_demands e sample rows groups = Ok demands -> In g groups -> exists k, lf_key e rows g = Ok k.
Proof.
  unfold lf_demands. intros H Hin. binv H ks. destruct (@mapM_inv _ _ _ _ _ _ E Hin) as (k & Hk & _). eauto.
Qed.

(** ** Medians *)

Definition core e s rows (demands : list (group * list num)) (quantities : list (pg * list num)) (g : group)
  : result (lkey * pg * list num * list num) :=
  let '(p, dv) := g in
  match dget (cmp p) (f_map s) with
  | None => Err KeyError
  | Some c =>
      match aget group_eqb (PG c (loc p) (dir p) (uid p), dv) demands, lf_row_of rows (cmp p) dv with
      | Some values, Some r =>
          match lf_function r with
          | None => Err AssertionError
          | Some text =>
              let* points := stringterpolation (pyfloat e) text in
              let* med := mapM (interp1d points) values in
              match aget pg_eqb p quantities with
              | None => Err KeyError
              | Some q => if Nat.eqb (List.length med) (List.length q)
                          then Ok (LK dv c (cmp p) (loc p) (dir p) (uid p), p, med, q) else Err ValueError
              end
          end
      | _, _ => Err KeyError
      end
  end.
Definition expand (x : lkey * pg * list num * list num) (b : Z) : list lf_column :=
  let '(k, p, med, q) := x in map (fun j => (k, p, j, map2 (block_median b) med q)) (seq 0 (Z.to_nat b)).

Lemma mapM_Err {A B} (f : A -> result B) err (l : list A) : l <> [] -> (forall x, f x = Err err) -> mapM f l = Err err.
Proof. intros Hn H. destruct l as [|x l]; [easy|]. cbn [mapM]. now rewrite H. Qed.

Lemma group_medians_core e s rows demands quantities g b : (0 < b)%Z ->
  group_medians e s rows demands quantities (g, b) = let* x := core e s rows demands quantities g in Ok (expand x b).
Proof.
  intros Hb. unfold group_medians, core. destruct g as [p dv]. destruct (dget (cmp p) (f_map s)) as [c|]; [|reflexivity].
  destruct (aget group_eqb _ demands) as [values|]; [|reflexivity]. destruct (lf_row_of rows (cmp p) dv) as [r|]; [|reflexivity].
  destruct (lf_function r) as [text|]; [|reflexivity]. destruct (stringterpolation (pyfloat e) text) as [points|]; [|reflexivity]. cbn [bind].
  destruct (mapM (interp1d points) values) as [med|]; [|reflexivity]. cbn [bind].
  assert (Hs : seq 0 (Z.to_nat b) <> []) by (destruct (Z.to_nat b) eqn:E; [lia|easy]).
  destruct (aget pg_eqb p quantities) as [q|].
  - destruct (Nat.eqb (List.length med) (List.length q)); cbn [bind expand].
    + rewrite mapM_pure. reflexivity.
    + rewrite (mapM_Err _ ValueError _ Hs) by reflexivity. reflexivity.
  - rewrite (mapM_Err _ KeyError _ Hs) by reflexivity. reflexivity.
Qed.

Lemma group_medians_none e s rows demands quantities g b cols : (b <= 0)%Z -> group_medians e s rows demands quantities (g, b) = Ok cols -> cols = [].
Proof.
  intros Hb. unfold group_medians. destruct g as [p dv]. destruct (dget (cmp p) (f_map s)); [|discriminate].
  destruct (aget group_eqb _ demands); [|discriminate]. destruct (lf_row_of rows (cmp p) dv) as [r|]; [|discriminate].
  destruct (lf_function r); [|discriminate]. destruct (stringterpolation _ _); [|discriminate]. cbn [bind].
  destruct (mapM _ l); [|discriminate]. cbn [bind]. replace (Z.to_nat b) with 0%nat by lia. cbn. intros H. now injection H as <-.
Qed.

(** ** Groups *)

Lemma In_lf_groups s rows blocks p dv b : In ((p, dv), b) (lf_groups s rows blocks) <->
  In (p, b) blocks /\ lf_driven s rows (cmp p) = true /\ In dv (f_dvs s) /\ ~ In (cmp p, dv) (f_missing s).
Proof.
  unfold lf_groups. rewrite in_flat_map. split.
  - intros ([p' b'] & Hf & Hm). apply filter_In in Hf as [Hf Hd]. apply in_map_iff in Hm as (dv' & E & Hdv). cbn [fst snd] in *.
    injection E as -> -> ->. apply filter_In in Hdv as [Hdv Hms]. repeat split; try assumption.
    intros Hin. apply negb_true_iff in Hms. apply (existsb_eqb_In pair_eqb pair_eqb_eq) in Hin. congruence.
  - intros (Hb & Hd & Hdv & Hms). exists (p, b). split; [now apply filter_In|]. apply in_map_iff. exists dv. split; [reflexivity|].
    apply filter_In. split; [assumption|]. apply negb_true_iff. cbn [fst].
    destruct (existsb (pair_eqb (cmp p, dv)) (f_missing s)) eqn:E; [|reflexivity]. now apply (existsb_eqb_In pair_eqb pair_eqb_eq) in E.
Qed.

Lemma lf_driven_iff s rows c : lf_driven s rows c = true <-> exists c' dv r, dget c (f_map s) = Some c' /\ In ((c', dv), r) rows.
Proof.
  unfold lf_driven. destruct (dget c (f_map s)) as [c'|]; [|split; [easy|now intros (? & ? & ? & E & _)]].
  rewrite existsb_exists. split.
  - intros ([[c'' dv] r] & Hin & E). apply String.eqb_eq in E. cbn in E. subst c''. exists c', dv, r. auto.
  - intros (c'' & dv & r & E & Hin). assert (c'' = c') as -> by congruence. exists ((c', dv), r). split; [assumption|]. apply String.eqb_refl.
Qed.

Lemma lf_groups_NoDup s rows blocks : NoDup (map fst blocks) -> NoDup (f_dvs s) -> NoDup (map fst (lf_groups s rows blocks)).
Proof.
  intros Hb Hd. unfold lf_groups. induction blocks as [|[p b] blocks IH]; [constructor|].
  cbn [map] in Hb. inversion Hb as [|? ? Hx Hn]; subst. cbn [filter fst].
  destruct (lf_driven s rows (cmp p)); [|now apply IH]. cbn [flat_map]. rewrite map_app. apply NoDup_app_intro.
  - rewrite map_map. cbn [fst]. apply FinFun.Injective_map_NoDup; [intros x y; congruence|]. now apply NoDup_filter.
  - now apply IH.
  - intros g Hg Hg'. rewrite map_map in Hg. apply in_map_iff in Hg as (dv & <- & _). cbn [fst] in Hg'.
    apply in_map_iff in Hg' as ([[p' dv'] b'] & E & Hin). cbn in E. injection E as -> ->. apply in_flat_map in Hin as ([p'' b''] & Hf & Hm).
    apply filter_In in Hf as [Hf _]. apply in_map_iff in Hm as (dv'' & E & _). cbn in E. injection E as -> _ _.
    apply Hx. apply in_map_iff. now exists (p, b'').
Qed.

(** ** The table of losses *)

Definition col_label (c : lf_column) : lkey := fst (fst (fst c)).
Definition rv_flag (rows : list ((string * string) * lf_row)) (k : lkey) : bool := match has_rv rows k with Ok r => r | Err _ => false end.

Definition deviated (s : lf_setup) rows (c : lf_column) : lkey * list num := (col_label c, deviate s c (rv_flag rows (col_label c))).

Lemma deviations_inv s rows cols vals :
  mapM (fun c => let* r := has_rv rows (fst (fst (fst c))) in Ok (fst (fst (fst c)), deviate s c r)) cols = Ok vals ->
  vals = map (deviated s rows) cols /\ forall c, In c cols -> exists r, has_rv rows (col_label c) = Ok r.
Proof.
  intros H. apply mapM_Forall2 in H. induction H as [|c v cols vals Hc HF [-> IH]]; [split; easy|].
  binv Hc r. split.
  - cbn [map]. f_equal. unfold deviated, rv_flag, col_label. rewrite E. now injection Hc as <-.
  - intros c' [<-|Hin]; [now exists r|now apply IH].
Qed.

Lemma calculate_inv e s sample quantities blocks t rows : f_rows s = Some rows -> calculate_lf e s sample quantities blocks = Ok (Some t) ->
  exists demands segs, lf_demands e sample rows (map fst (lf_groups s rows blocks)) = Ok demands /\
    Forall2 (fun gb seg => group_medians e s rows demands quantities gb = Ok seg) (lf_groups s rows blocks) segs /\
    (forall c, In c (List.concat segs) -> List.length (snd c) = n_rows sample /\ exists r, has_rv rows (col_label c) = Ok r) /\
    t = map (fun g => ((fst g, None), map Some (total_columns (n_rows sample) (snd g))))
            (groupby lkey_eqb lkey_le (map (deviated s rows) (List.concat segs))).
Proof.
  intros Er H. unfold calculate_lf in H. rewrite Er in H. destruct (lf_groups s rows blocks) as [|g0 gs] eqn:Eg; [discriminate H|].
  rewrite <- Eg in *. clear Eg g0 gs. binv H demands. binv H cols. binv H vals. injection H as <-.
  unfold lf_medians in E0. binv E0 segs. apply mapM_Forall2 in E2. exists demands, segs. split; [reflexivity|]. split; [assumption|].
  assert (Hcols : cols = List.concat segs /\ forallb (fun c : lf_column => Nat.eqb (List.length (snd c)) (n_rows sample)) (List.concat segs) = true).
  { destruct (List.concat segs) as [|c0 cs]; [discriminate E0|]. 
    match type of E0 with (if ?x then _ else _) = _ => destruct x eqn:Ef end; [|discriminate E0]. split; [congruence|exact Ef]. }
  destruct Hcols as [-> Hlen]. apply deviations_inv in E1 as [-> Hrv]. split; [|reflexivity].
  rewrite forallb_forall in Hlen. intros c Hc. split; [now apply Nat.eqb_eq, Hlen|now apply Hrv].
Qed.

Lemma lkey_order : (forall a b, lkey_eqb a b = true <-> a = b).
Proof. exact lkey_eqb_eq. Qed.

(** The columns of one label. *)
Lemma seg_of {G} (segs : list (list lf_column)) (groups : list G) (tag : G -> lkey) g seg :
  Forall2 (fun g seg => forall c, In c seg -> col_label c = tag g) groups segs ->
  NoDup groups -> (forall g g', In g groups -> In g' groups -> tag g = tag g' -> g = g') ->
  In (g, seg) (combine groups segs) ->
  filter (fun c => lkey_eqb (tag g) (col_label c)) (List.concat segs) = seg.
Proof.
  intros HF Hn Hinj Hin. induction HF as [|g0 seg0 groups segs H0 HF IH]; [easy|]. inversion Hn as [|? ? Hx Hn']; subst.
  cbn [List.concat]. rewrite filter_app. cbn [combine] in Hin. destruct Hin as [E|Hin].
  - injection E as -> ->. rewrite (filter_all _ seg), (filter_none _ (List.concat segs)), app_nil_r; [reflexivity| |].
    + intros c Hc. apply in_concat in Hc as (sg & Hsg & Hc). destruct (Forall2_In_r _ HF Hsg) as (g' & Hg' & Hl). rewrite (Hl c Hc).
      destruct (lkey_eqb (tag g) (tag g')) eqn:Ek; [|reflexivity]. apply lkey_eqb_eq in Ek.
      apply Hinj in Ek; [|now left|now right]. subst g'. now apply Hx in Hg'.
    + intros c Hc. rewrite (H0 c Hc). now apply lkey_eqb_eq.
  - pose proof (in_combine_l _ _ _ _ Hin) as Hg. rewrite (filter_none _ seg0).
    + apply IH; try assumption. intros a b Ha Hb. apply Hinj; now right.
    + intros c Hc. rewrite (H0 c Hc). destruct (lkey_eqb (tag g) (tag g0)) eqn:Ek; [|reflexivity]. apply lkey_eqb_eq in Ek.
      apply Hinj in Ek; [|now right|now left]. now subst g0.
Qed.

Lemma group_rows_map {A K V} eqb (f : A -> K * V) k (l : list A) :
  group_rows eqb k (map f l) = map (fun x => snd (f x)) (filter (fun x => eqb k (fst (f x))) l).
Proof. unfold group_rows. induction l as [|x l IH]; [reflexivity|]. cbn. destruct (eqb k (fst (f x))); cbn; now rewrite IH. Qed.

Lemma qz_pos b : (0 < b)%Z -> qz b = qn (Z.to_nat b) /\ qz b <> 0%Qc.
Proof.
  intros H. assert (E : qz b = qn (Z.to_nat b)) by (unfold qz, qn; now rewrite Z2Nat.id by lia). split; [exact E|]. rewrite E.
  intros E0. assert (Hp : (0 < qn (Z.to_nat b))%Qc) by (apply qn_pos; lia). rewrite E0 in Hp. now apply Qclt_not_eq in Hp.
Qed.

(** The sum over the blocks. *)
Lemma blocks_sum s k p med q b i (random : bool) : (0 < b)%Z -> List.length med = List.length q -> (i < List.length med)%nat ->
  Some (nsum (map (fun c => nth i (deviate s c random) None) (expand (k, p, med, q) b))) =
  group_loss b (if random then Some (fun j => f_draws s (k_dv k) p j i) else None) (nth i med None) (nth i q None).
Proof.
  intros Hb Hl Hi. f_equal. rewrite nsum_nfill0, !map_map. unfold expand. rewrite map_map. destruct (qz_pos b Hb) as [Hz Hz0].
  set (n := Z.to_nat b) in *. unfold group_loss.
  assert (Hmap : forall j, nth i (deviate s (k, p, j, map2 (block_median b) med q) random) None =
     let m := block_median b (nth i med None) (nth i q None) in
     if random then match nmul m (f_draws s (k_dv k) p j i) with Some v => Some v | None => m end else m).
  { intros j. unfold deviate. assert (Hn2 : nth i (map2 (block_median b) med q) None = block_median b (nth i med None) (nth i q None)) by now apply map2_nth.
    destruct random; [|exact Hn2].
    rewrite nth_map_seq by (now rewrite map2_length by assumption). now rewrite Hn2. }
  destruct (nth i med None) as [m|], (nth i q None) as [y|].
  - destruct random; f_equal.
    + unfold average. rewrite map_length, seq_length.
      transitivity (qsum (map (fun j => ((m * y / qz b) * match f_draws s (k_dv k) p j i with Some v => v | None => 1%Qc end)%Qc) (seq 0 n))).
      * f_equal. apply map_ext. intros j. rewrite Hmap. unfold block_median. destruct (f_draws s (k_dv k) p j i) as [z|]; cbn; [reflexivity|ring].
      * rewrite qsum_map_scale. fold n. rewrite Hz. rewrite Hz in Hz0.
        generalize dependent (qn n). intros u _ Hu. match goal with |- context [qsum ?x] => generalize (qsum x) end. intros z. now field.
    + transitivity (qsum (map (fun _ => (m * y / qz b)%Qc) (seq 0 n))).
      * f_equal. apply map_ext. intros j. now rewrite Hmap.
      * rewrite qsum_const, seq_length, Hz. rewrite Hz in Hz0. now field.
  - f_equal. transitivity (qsum (map (fun _ => 0%Qc) (seq 0 n))); [f_equal; apply map_ext; intros j; rewrite Hmap; unfold block_median; cbn; now destruct random|].
    rewrite qsum_const. ring.
  - f_equal. transitivity (qsum (map (fun _ => 0%Qc) (seq 0 n))); [f_equal; apply map_ext; intros j; rewrite Hmap; unfold block_median; cbn; now destruct random|].
    rewrite qsum_const. ring.
  - f_equal. transitivity (qsum (map (fun _ => 0%Qc) (seq 0 n))); [f_equal; apply map_ext; intros j; rewrite Hmap; unfold block_median; cbn; now destruct random|].
    rewrite qsum_const. ring.
Qed.

Definition gtag (gb : group * Z) : lkey :=
  let '((p, dv), b) := gb in LK dv (cmp p) (cmp p) (loc p) (dir p) (uid p).

Lemma gtag_inj s rows blocks g g' : NoDup (map fst (lf_groups s rows blocks)) -> In g (lf_groups s rows blocks) -> In g' (lf_groups s rows blocks) ->
  gtag g = gtag g' -> g = g'.
Proof.
  intros Hn Hg Hg' E. destruct g as [[p dv] b], g' as [[p' dv'] b']. unfold gtag in E.
  assert (p = p' /\ dv = dv') as [-> ->] by (destruct p, p'; cbn in E; split; congruence). f_equal.
  assert (G : forall l : list (group * Z), NoDup (map fst l) -> In (p', dv', b) l -> In (p', dv', b') l -> b = b').
  { clear. induction l as [|[g x] l IH]; [easy|]. cbn [map]. intros Hn [H|H] [H'|H']; inversion Hn; subst.
    - congruence.
    - injection H as -> ->. exfalso. apply H2. apply in_map_iff. now exists (p', dv', b').
    - injection H' as -> ->. exfalso. apply H2. apply in_map_iff. now exists (p', dv', b).
    - now apply IH. }
  now apply (G _ Hn).
Qed.

(** A group of the calculation: its component is mapped to itself and has a row. *)
Lemma own_group e s sample rows blocks demands p dv b : own_functions s rows blocks ->
  lf_demands e sample rows (map fst (lf_groups s rows blocks)) = Ok demands -> In ((p, dv), b) (lf_groups s rows blocks) ->
  dget (cmp p) (f_map s) = Some (cmp p) /\ exists r, lf_row_of rows (cmp p) dv = Some r.
Proof.
  intros Ho Hd Hin. assert (Hg : In (p, dv) (map fst (lf_groups s rows blocks))) by (apply in_map_iff; now exists ((p, dv), b)).
  destruct (lf_demands_keys e sample rows _ demands (p, dv) Hd Hg) as (k & Hk). unfold lf_key in Hk. cbn [fst snd] in Hk.
  apply In_lf_groups in Hin as (Hb & Hdr & Hdv & Hm). apply lf_driven_iff in Hdr as (c & dv' & r & Hc & Hr).
  assert (c = cmp p) as -> by (eapply Ho; eauto using dget_In). split; [assumption|].
  destruct (lf_row_of rows (cmp p) dv) as [r'|]; [now exists r'|discriminate Hk].
Qed.

Lemma core_inv e s rows demands quantities p dv x : core e s rows demands quantities (p, dv) = Ok x ->
  exists c values r text points med q, dget (cmp p) (f_map s) = Some c /\
    aget group_eqb (PG c (loc p) (dir p) (uid p), dv) demands = Some values /\ lf_row_of rows (cmp p) dv = Some r /\
    lf_function r = Some text /\ stringterpolation (pyfloat e) text = Ok points /\ mapM (interp1d points) values = Ok med /\
    aget pg_eqb p quantities = Some q /\ List.length med = List.length q /\
    x = (LK dv c (cmp p) (loc p) (dir p) (uid p), p, med, q).
Proof.
  unfold core. destruct (dget (cmp p) (f_map s)) as [c|]; [|discriminate]. destruct (aget group_eqb _ demands) as [values|] eqn:Ev; [|discriminate].
  destruct (lf_row_of rows (cmp p) dv) as [r|] eqn:Er; [|discriminate]. destruct (lf_function r) as [text|] eqn:Et; [|discriminate].
  intros H. binv H points. binv H med. destruct (aget pg_eqb p quantities) as [q|] eqn:Eq; [|discriminate].
  destruct (Nat.eqb _ _) eqn:El; [|discriminate]. apply Nat.eqb_eq in El. injection H as <-.
  exists c, values, r, text, points, med, q. repeat split; try assumption; reflexivity.
Qed.

Lemma expand_label k p med q b c : In c (expand (k, p, med, q) b) -> col_label c = k.
Proof. unfold expand. rewrite in_map_iff. now intros (j & <- & _). Qed.

Lemma segs_tagged e s sample rows blocks demands quantities segs : own_functions s rows blocks ->
  lf_demands e sample rows (map fst (lf_groups s rows blocks)) = Ok demands ->
  Forall2 (fun gb seg => group_medians e s rows demands quantities gb = Ok seg) (lf_groups s rows blocks) segs ->
  Forall2 (fun gb seg => forall c, In c seg -> col_label c = gtag gb) (lf_groups s rows blocks) segs.
Proof.
  intros Ho Hd HF. assert (Hsub : forall gb, In gb (lf_groups s rows blocks) -> In gb (lf_groups s rows blocks)) by easy.
  revert Hsub HF. generalize (lf_groups s rows blocks) at 1 3 4 as gs. intros gs Hsub HF. induction HF as [|[[p dv] b] seg gs segs Hg HF IH]; constructor.
  - destruct (own_group e s sample rows blocks demands p dv b Ho Hd (Hsub _ (or_introl eq_refl))) as [Hm _]. intros col Hc.
    destruct (Z_lt_le_dec 0 b) as [Hb|Hb].
    + rewrite group_medians_core in Hg by assumption. binv Hg x. injection Hg as <-.
      destruct (core_inv e s rows demands quantities p dv x E) as (c & values & r & text & points & med & q & Hc' & _ & _ & _ & _ & _ & _ & _ & ->).
      rewrite (expand_label _ _ _ _ _ _ Hc). cbn. congruence.
    + now apply group_medians_none in Hg as ->.
  - apply IH. intros gb Hin. apply Hsub. now right.
Qed.

Lemma lf_row_of_In rows c dv r : NoDup (map fst rows) -> (lf_row_of rows c dv = Some r <-> In ((c, dv), r) rows).
Proof.
  intros Hn. unfold lf_row_of. split; [apply (aget_In pair_eqb pair_eqb_eq)|]. now apply (In_aget pair_eqb pair_eqb_eq).
Qed.

Lemma Forall2_combine {A B} (P : A -> B -> Prop) a l m : Forall2 P l m -> In a l -> exists b, In (a, b) (combine l m) /\ P a b.
Proof.
  induction 1 as [|x y l m H HF IH]; [easy|]. intros [->|Hin]; [exists y; split; [now left|assumption]|].
  destruct (IH Hin) as (b & Hb & Hp). exists b. split; [now right|assumption].
Qed.

Lemma lf_losses e s sample quantities blocks t rows : f_rows s = Some rows -> unique_inputs s rows quantities blocks -> own_functions s rows blocks ->
  calculate_lf e s sample quantities blocks = Ok (Some t) ->
  (forall label, In label (map fst t) <-> exists p b dv r, label = lf_label dv (cmp p) p /\ has_loss s rows blocks p b dv r) /\
  NoDup (map fst t) /\
  forall p b dv r q vs text ys xs ys' xs', has_loss s rows blocks p b dv r -> In (p, q) quantities -> In (lf_label dv (cmp p) p, vs) t ->
    lf_function r = Some text -> table_text (pyfloat e) text ys xs -> same_points ys xs ys' xs' -> well_formed_table ys' xs' ->
    demand_table sample -> plain_demand e p (lf_demand r) ->
    exists d m, group_demand e sample p (lf_demand r) d /\ Forall2 (loss_at ys' xs') d m /\
      List.length d = n_rows sample /\ List.length q = n_rows sample /\ List.length vs = n_rows sample /\
      forall i, (i < n_rows sample)%nat -> nth i vs None = group_loss b (random_draws s r dv p i) (nth i m None) (nth i q None).
Proof.
  intros Er (Hndv & Hnmap & Hnrows & Hnq & Hnb) Ho H. destruct (calculate_inv e s sample quantities blocks t rows Er H) as (demands & segs & Hd & HF & Hcol & ->).
  pose proof (segs_tagged e s sample rows blocks demands quantities segs Ho Hd HF) as Htag.
  pose proof (lf_groups_NoDup s rows blocks Hnb Hndv) as Hng.
  assert (Hgroup : forall p b dv r, has_loss s rows blocks p b dv r -> In ((p, dv), b) (lf_groups s rows blocks)).
  { intros p b dv r (H1 & H2 & H3 & H4 & H5 & H6). apply In_lf_groups. repeat split; try assumption. apply lf_driven_iff.
    exists (cmp p), dv, r. split; [now apply In_dget|assumption]. }
  assert (Hseg : forall p b dv, In ((p, dv), b) (lf_groups s rows blocks) -> (0 < b)%Z ->
    exists x, core e s rows demands quantities (p, dv) = Ok x /\ In ((p, dv, b), expand x b) (combine (lf_groups s rows blocks) segs)).
  { intros p b dv Hin Hb. destruct (Forall2_combine _ _ _ _ HF Hin) as (seg & Hs & Hg). rewrite group_medians_core in Hg by assumption.
    binv Hg x. injection Hg as <-. now exists x. }
  split; [|split].
  - intros label. rewrite map_map. cbn [fst]. rewrite in_map_iff. split.
    + intros ([k g] & <- & Hin). cbn [fst]. apply (in_map fst) in Hin. cbn [fst] in Hin. rewrite (groupby_keys_In lkey_eqb lkey_le lkey_eqb_eq) in Hin.
      rewrite map_map in Hin. cbn [deviated fst] in Hin. apply in_map_iff in Hin as (c & <- & Hc). apply in_concat in Hc as (seg & Hs & Hc).
      destruct (Forall2_In_r _ HF Hs) as ([[p dv] b] & Hg & Hm).
      destruct (Z_lt_le_dec 0 b) as [Hb|Hb]; [|now apply group_medians_none in Hm as ->].
      rewrite group_medians_core in Hm by assumption. binv Hm x. injection Hm as <-.
      destruct (core_inv e s rows demands quantities p dv x E) as (c' & values & r & text & points & med & q & Hc' & _ & Hr & _ & _ & _ & _ & _ & ->).
      rewrite (expand_label _ _ _ _ _ _ Hc). destruct (own_group e s sample rows blocks demands p dv b Ho Hd Hg) as [Hm _].
      assert (c' = cmp p) as -> by congruence. exists p, b, dv, r. split; [reflexivity|].
      apply In_lf_groups in Hg as (H1 & H2 & H3 & H4). repeat split; try assumption; [now apply dget_In|now apply lf_row_of_In].
    + intros (p & b & dv & r & -> & Hl). pose proof (Hgroup _ _ _ _ Hl) as Hg. destruct Hl as (H1 & Hb & _).
      destruct (Hseg p b dv Hg Hb) as (x & Hx & Hin).
      destruct (core_inv e s rows demands quantities p dv x Hx) as (c' & values & r' & text & points & med & q & Hc' & _ & Hr & _ & _ & _ & _ & _ & ->).
      destruct (own_group e s sample rows blocks demands p dv b Ho Hd Hg) as [Hm _]. assert (c' = cmp p) as -> by congruence.
      assert (Hk : In (LK dv (cmp p) (cmp p) (loc p) (dir p) (uid p)) (map fst (map (deviated s rows) (List.concat segs)))).
      { rewrite map_map. apply in_map_iff. unfold expand in Hin. replace (Z.to_nat b) with (S (Z.to_nat b - 1)) in Hin by lia. cbn [seq map] in Hin.
        eexists. split; [|apply in_concat; eexists; split; [eapply in_combine_r; eassumption|now left]]. reflexivity. }
      rewrite <- (groupby_keys_In lkey_eqb lkey_le lkey_eqb_eq) in Hk. apply in_map_iff in Hk as ([k g] & Ek & Hin'). cbn [fst] in Ek. subst k.
      exists (LK dv (cmp p) (cmp p) (loc p) (dir p) (uid p), g). split; [reflexivity|exact Hin'].
  - rewrite map_map. cbn [fst]. rewrite <- (map_map fst (fun k => (k, None))). apply FinFun.Injective_map_NoDup; [intros a b; congruence|].
    apply (groupby_NoDup lkey_eqb lkey_le lkey_eqb_eq).
  - intros p b dv r q vs text ys xs ys' xs' Hl Hq Hin Htext Htab Hpts Hwf Hdt Hplain. pose proof (Hgroup _ _ _ _ Hl) as Hg.
    pose proof Hl as (H1 & Hb & _ & _ & Hr & _). destruct (Hseg p b dv Hg Hb) as (x & Hx & Hcomb).
    destruct (core_inv e s rows demands quantities p dv x Hx) as (c' & values & r' & text' & points & med & q' & Hc' & Hval & Hr' & Htx & Hpo & Hmed & Hq' & Hlen & ->).
    destruct (own_group e s sample rows blocks demands p dv b Ho Hd Hg) as [Hm _]. assert (c' = cmp p) as -> by congruence.
    apply lf_row_of_In in Hr; [|assumption]. assert (r' = r) as -> by congruence. assert (text' = text) as -> by congruence.
    apply (In_aget pg_eqb pg_eqb_eq) in Hq; [|assumption]. assert (q' = q) as -> by congruence. clear Hr' Htx Hq' Hc'.
    assert (Hpp : PG (cmp p) (loc p) (dir p) (uid p) = p) by now destruct p. rewrite Hpp in Hval.
    apply (aget_In group_eqb group_eqb_eq) in Hval. destruct (lf_demands_In e sample rows _ demands _ _ Hd Hval) as (_ & key & Hkey & Hone).
    unfold lf_key in Hkey. cbn [fst snd] in Hkey. rewrite Hr in Hkey. binv Hkey et. binv Hkey edps. injection Hkey as <-.
    exists values, med. split; [eapply key_value; eassumption|].
    assert (points = combine xs' ys') as -> by (pose proof (@stringterpolation_points _ _ _ _ _ _ Htab Hpts Hwf) as Hsp; congruence).
    apply mapM_Forall2 in Hmed. split; [eapply Forall2_weaken; [|exact Hmed]; intros a m; now apply interp1d_at|].
    set (k := LK dv (cmp p) (cmp p) (loc p) (dir p) (uid p)) in *.
    assert (Hcol0 : In (k, p, 0%nat, map2 (block_median b) med q) (List.concat segs)).
    { apply in_concat. eexists. split; [eapply in_combine_r; exact Hcomb|]. unfold expand. apply in_map_iff. exists 0%nat. split; [reflexivity|].
      apply in_seq. lia. }
    destruct (Hcol _ Hcol0) as [Hn (rv & Hrv)]. cbn [snd] in Hn. rewrite map2_length in Hn by assumption.
    assert (Hmed' : List.length values = List.length med) by (clear - Hmed; induction Hmed; cbn; congruence). split; [unfold num in *; lia|]. split; [lia|].
    apply in_map_iff in Hin as ([k' g] & E' & Hin). cbn [fst snd] in E'. unfold lf_label in E'. injection E' as -> <-.
    apply (groupby_In lkey_eqb lkey_le lkey_eqb_eq) in Hin as [_ ->]. fold k. rewrite group_rows_map.
    pose proof (seg_of segs (lf_groups s rows blocks) gtag (p, dv, b) (expand (k, p, med, q) b)
      Htag (NoDup_map_inv _ _ Hng) (fun a b => gtag_inj s rows blocks a b Hng) Hcomb) as Hfil.
    match goal with |- context [filter ?f (List.concat segs)] =>
      replace (filter f (List.concat segs)) with (expand (k, p, med, q) b) by (symmetry; exact Hfil) end.
    unfold total_columns. rewrite !map_length, seq_length. split; [reflexivity|]. intros i Hi.
    assert (Hnth : forall f, nth i (map Some (map f (seq 0 (n_rows sample)))) None = Some (f i : Qc)).
    { intros f. rewrite map_map, nth_map_seq by assumption. reflexivity. }
    rewrite Hnth, map_map.
    assert (Hfl : rv_flag rows k = match lf_family r with None => false | Some _ => true end /\ True).
    { split; [|easy]. unfold rv_flag. unfold col_label in Hrv. cbn [fst] in Hrv. unfold has_rv in *. cbn [k_loss k_dv k] in *. rewrite Hr in *.
      destruct (lf_family r); [|reflexivity]. binv Hrv u. cbn [bind]. now destruct (existsb _ _). }
    destruct Hfl as [Hfl _].
    transitivity (Some (nsum (map (fun c => nth i (deviate s c (rv_flag rows k)) None) (expand (k, p, med, q) b)))).
    + do 2 f_equal. apply map_ext_in. intros c Hc. cbn [deviated snd]. unfold deviated. cbn [snd]. now rewrite (expand_label _ _ _ _ _ _ Hc).
    + rewrite (blocks_sum s k p med q b i _ Hb Hlen) by lia. rewrite Hfl. unfold random_draws. now destruct (lf_family r).
Qed.

(** ** Independence of the number of blocks *)

Definition xlab (x : lkey * pg * list num * list num) : lkey := fst (fst (fst x)).
Definition xval (x : lkey * pg * list num * list num) (i : nat) : Qc :=
  nfill0 (nmul (nth i (snd (fst x)) None) (nth i (snd x) None)).
Definition xok (n : nat) (x : lkey * pg * list num * list num) : Prop :=
  List.length (snd (fst x)) = n /\ List.length (snd x) = n.
Definition cols_of (l : list ((lkey * pg * list num * list num) * Z)) : list lf_column :=
  flat_map (fun xb => expand (fst xb) (snd xb)) l.

Lemma unique_acc_repeat (seen : list lkey) k n l : unique_acc lkey_eqb seen (repeat k (S n) ++ l) = unique_acc lkey_eqb seen (k :: l).
Proof.
  cbn [repeat app unique_acc]. destruct (existsb (lkey_eqb k) seen) eqn:E.
  - induction n as [|n IH]; [reflexivity|]. cbn [repeat app unique_acc]. now rewrite E.
  - f_equal. assert (E' : existsb (lkey_eqb k) (k :: seen) = true) by (cbn [existsb]; now rewrite (proj2 (lkey_eqb_eq k k) eq_refl)).
    revert E'. generalize (k :: seen) as sn. intros sn E'. induction n as [|n IH]; [reflexivity|]. cbn [repeat app unique_acc]. now rewrite E'.
Qed.

Lemma expand_labels x b : map col_label (expand x b) = repeat (xlab x) (Z.to_nat b).
Proof.
  destruct x as [[[k p] med] q]. unfold expand. rewrite map_map. cbn [col_label fst]. unfold xlab. cbn [fst].
  generalize 0%nat. induction (Z.to_nat b) as [|n IH]; intros a; [reflexivity|]. cbn [seq map repeat]. f_equal. apply IH.
Qed.

Lemma cols_unique l : Forall (fun xb => (0 < snd xb)%Z) l ->
  unique lkey_eqb (map col_label (cols_of l)) = unique lkey_eqb (map (fun xb => xlab (fst xb)) l).
Proof.
  intros HF. unfold unique. generalize (@nil lkey) as seen. induction HF as [|[x b] l Hb HF IH]; intros seen; [reflexivity|].
  cbn [fst snd] in Hb. unfold cols_of in *. cbn [flat_map]. rewrite map_app. cbn [fst snd]. rewrite expand_labels.
  replace (Z.to_nat b) with (S (Z.to_nat b - 1)) by lia. rewrite unique_acc_repeat. cbn [map fst unique_acc].
  now destruct (existsb (lkey_eqb (xlab x)) seen); [|f_equal]; apply IH.
Qed.

Lemma deviate_false s c : deviate s c false = snd c.
Proof. now destruct c as [[[k p] j] med]. Qed.

Lemma expand_sum n x b i : xok n x -> (0 < b)%Z -> (i < n)%nat ->
  qsum (map (fun c : lf_column => nfill0 (nth i (snd c) None)) (expand x b)) = xval x i.
Proof.
  destruct x as [[[k p] med] q]. intros [H1 H2] Hb Hi. cbn [fst snd] in H1, H2. unfold expand. rewrite map_map. cbn [snd].
  unfold xval. cbn [fst snd]. rewrite qsum_const, seq_length. 
  rewrite (@map2_nth num num num (block_median b) med q i None None None) by lia. destruct (qz_pos b Hb) as [Hz Hz0].
  rewrite <- Hz. unfold block_median. destruct (nmul _ _) as [v|]; cbn; [now field|ring].
Qed.

Lemma cols_sum n l k i : Forall (fun xb => xok n (fst xb) /\ (0 < snd xb)%Z) l -> (i < n)%nat ->
  qsum (map (fun c : lf_column => nfill0 (nth i (snd c) None)) (filter (fun c => lkey_eqb k (col_label c)) (cols_of l))) =
  qsum (map (fun xb => if lkey_eqb k (xlab (fst xb)) then xval (fst xb) i else 0%Qc) l).
Proof.
  intros HF Hi. induction HF as [|[x b] l [Hx Hb] HF IH]; [reflexivity|]. cbn [fst snd] in *. unfold cols_of in *. cbn [flat_map map fst snd].
  rewrite filter_app, map_app, qsum_app, qsum_cons, IH. f_equal.
  assert (Hlab : forall c, In c (expand x b) -> col_label c = xlab x) by (intros c; destruct x as [[[kk pp] med] q]; apply expand_label).
  destruct (lkey_eqb k (xlab x)) eqn:E.
  - rewrite filter_all by (intros c Hc; now rewrite Hlab). now apply (expand_sum n).
  - rewrite filter_none by (intros c Hc; now rewrite Hlab). reflexivity.
Qed.

Definition totals_of (n : nat) (xs : list (lkey * pg * list num * list num)) : lf_table :=
  map (fun k => ((k, None), map Some (map (fun i => qsum (map (fun x => if lkey_eqb k (xlab x) then xval x i else 0%Qc) xs)) (seq 0 n))))
      (isort lkey_le (unique lkey_eqb (map xlab xs))).

Lemma totals_cols n l : Forall (fun xb => xok n (fst xb) /\ (0 < snd xb)%Z) l ->
  map (fun g => ((fst g, None), map Some (total_columns n (snd g)))) (groupby lkey_eqb lkey_le (map (fun c => (col_label c, snd c)) (cols_of l)))
  = totals_of n (map fst l).
Proof.
  intros HF. unfold groupby, totals_of. rewrite map_map. cbn [fst snd]. rewrite map_map. cbn [fst].
  rewrite cols_unique by (eapply Forall_impl; [|exact HF]; now intros a [_ Ha]). rewrite (map_map fst xlab).
  apply map_ext. intros k. f_equal. f_equal. unfold total_columns. apply map_ext_in. intros i Hi. apply in_seq in Hi.
  rewrite group_rows_map. cbn [fst snd]. rewrite nsum_nfill0, !map_map.
  refine (eq_trans (cols_sum n l k i HF _) _); [lia|reflexivity].
Qed.

Definition finish (s : lf_setup) rows (n : nat) (cols : list lf_column) : result (option lf_table) :=
  match cols with
  | [] => Err ValueError
  | _ => if forallb (fun c : lf_column => Nat.eqb (List.length (snd c)) n) cols
         then let* vals := mapM (fun c => let* r := has_rv rows (fst (fst (fst c))) in Ok (fst (fst (fst c)), deviate s c r)) cols in
              Ok (Some (map (fun g => ((fst g, None), map Some (total_columns n (snd g)))) (groupby lkey_eqb lkey_le vals)))
         else Err ValueError
  end.

Definition known (rows : list ((string * string) * lf_row)) (k : lkey) : bool :=
  match lf_row_of rows (k_loss k) (k_dv k) with None => false | Some _ => true end.

Lemma has_rv_none rows k : no_families rows -> has_rv rows k = if known rows k then Ok false else Err KeyError.
Proof.
  intros Hf. unfold has_rv, known. destruct (lf_row_of rows (k_loss k) (k_dv k)) as [r|] eqn:E; [|reflexivity].
  unfold lf_row_of in E. apply (aget_In pair_eqb pair_eqb_eq) in E. now rewrite (Hf _ _ E).
Qed.

Lemma mapM_check {A B} (p : A -> bool) (f : A -> B) err (l : list A) :
  mapM (fun x => if p x then Ok (f x) else Err err) l = if forallb p l then Ok (map f l) else Err err.
Proof.
  induction l as [|x l IH]; [reflexivity|]. cbn [mapM forallb map]. destruct (p x); [|reflexivity]. cbn [bind andb]. rewrite IH. now destruct (forallb p l).
Qed.

Definition finish_of rows (n : nat) (xs : list (lkey * pg * list num * list num)) : result (option lf_table) :=
  match xs with
  | [] => Err ValueError
  | _ => if forallb (fun x => Nat.eqb (List.length (snd (fst x))) n) xs
         then if forallb (fun x => known rows (xlab x)) xs then Ok (Some (totals_of n xs)) else Err KeyError
         else Err ValueError
  end.

Lemma forallb_cols (f : lf_column -> bool) (g : lkey * pg * list num * list num -> bool) l :
  Forall (fun xb => (0 < snd xb)%Z) l -> (forall x b c, In (x, b) l -> In c (expand x b) -> f c = g x) ->
  forallb f (cols_of l) = forallb g (map fst l).
Proof.
  intros HF Hfg. induction HF as [|[x b] l Hb HF IH]; [reflexivity|]. unfold cols_of in *. cbn [flat_map map fst snd]. cbn [snd] in Hb.
  rewrite forallb_app. cbn [forallb]. rewrite IH by (intros; eapply Hfg; [right|]; eassumption). f_equal.
  assert (Hx : forall c, In c (expand x b) -> f c = g x) by (intros c; apply Hfg; now left).
  assert (Hne : expand x b <> []).
  { destruct x as [[[k p] med] q]. unfold expand. destruct (Z.to_nat b) eqn:E; [lia|]. easy. }
  destruct (expand x b) as [|c0 cs]; [easy|]. cbn [forallb]. rewrite (Hx c0 (or_introl eq_refl)). destruct (g x) eqn:Eg; [|reflexivity].
  cbn [andb]. apply forallb_forall. intros c Hc. now rewrite (Hx c (or_intror Hc)).
Qed.

Lemma finish_cols s rows n l : no_families rows ->
  Forall (fun xb => List.length (snd (fst (fst xb))) = List.length (snd (fst xb)) /\ (0 < snd xb)%Z) l ->
  finish s rows n (cols_of l) = finish_of rows n (map fst l).
Proof.
  intros Hf HF. assert (HFb : Forall (fun xb : (lkey * pg * list num * list num) * Z => (0 < snd xb)%Z) l) by (eapply Forall_impl; [|exact HF]; now intros a [_ Ha]).
  assert (E1 : forallb (fun c : lf_column => Nat.eqb (List.length (snd c)) n) (cols_of l) = forallb (fun x => Nat.eqb (List.length (snd (fst x))) n) (map fst l)).
  { apply forallb_cols; [assumption|]. intros [[[k p] med] q] b c Hin Hc. unfold expand in Hc. apply in_map_iff in Hc as (j & <- & _). cbn [snd fst].
    rewrite Forall_forall in HF. destruct (HF _ Hin) as [Hl _]. cbn [fst snd] in Hl. now rewrite map2_length. }
  assert (E2 : forallb (fun c : lf_column => known rows (col_label c)) (cols_of l) = forallb (fun x => known rows (xlab x)) (map fst l)).
  { apply forallb_cols; [assumption|]. intros [[[k p] med] q] b c Hin Hc. now rewrite (expand_label _ _ _ _ _ _ Hc). }
  assert (E3 : mapM (fun c => let* r := has_rv rows (fst (fst (fst c))) in Ok (fst (fst (fst c)), deviate s c r)) (cols_of l) =
               if forallb (fun c : lf_column => known rows (col_label c)) (cols_of l) then Ok (map (fun c => (col_label c, snd c)) (cols_of l)) else Err KeyError).
  { rewrite <- mapM_check. apply mapM_ext. intros c _. rewrite has_rv_none by assumption. fold (col_label c). destruct (known rows (col_label c)); [|reflexivity].
    cbn [bind]. now rewrite deviate_false. }
  unfold finish, finish_of. destruct l as [|[x b] l]; [reflexivity|]. 
  assert (Hne : cols_of ((x, b) :: l) <> []).
  { unfold cols_of. cbn [flat_map fst snd]. inversion HFb; subst. cbn [snd] in H1. destruct x as [[[k p] med] q]. unfold expand. destruct (Z.to_nat b) eqn:E; [lia|]. easy. }
  set (cols := cols_of ((x, b) :: l)) in *. destruct cols as [|c0 cs] eqn:Ec; [easy|]. rewrite <- Ec in *. rewrite E1. cbn [map].
  change (fst (x, b) :: map fst l) with (map fst ((x, b) :: l)).
  destruct (forallb _ (map fst ((x, b) :: l))) eqn:Elen; [|reflexivity]. rewrite E3, E2.
  destruct (forallb (fun x0 => known rows (xlab x0)) _); [|reflexivity]. cbn [bind]. do 2 f_equal. subst cols. apply totals_cols.
  rewrite Forall_forall in HF |- *. intros xb Hin. destruct (HF xb Hin) as [Hl Hb]. split; [|assumption].
  rewrite forallb_forall in Elen. assert (Hx := Elen (fst xb) (in_map fst _ _ Hin)). apply Nat.eqb_eq in Hx. split; [assumption|lia].
Qed.

Lemma calculate_finish e s sample quantities blocks rows : f_rows s = Some rows ->
  calculate_lf e s sample quantities blocks =
  match lf_groups s rows blocks with
  | [] => Ok None
  | _ => let* demands := lf_demands e sample rows (map fst (lf_groups s rows blocks)) in
         let* l := mapM (group_medians e s rows demands quantities) (lf_groups s rows blocks) in
         finish s rows (n_rows sample) (List.concat l)
  end.
Proof.
  intros Er. unfold calculate_lf. rewrite Er. destruct (lf_groups s rows blocks) as [|g gs]; [reflexivity|].
  destruct (lf_demands e sample rows _) as [demands|]; [|reflexivity]. cbn [bind]. unfold lf_medians.
  destruct (mapM (group_medians e s rows demands quantities) (g :: gs)) as [l|]; [|reflexivity]. cbn [bind]. unfold finish.
  destruct (List.concat l) as [|c cs]; [reflexivity|].
  match goal with |- bind (if ?x then _ else _) _ = (if ?y then _ else _) => change y with x; destruct x end; reflexivity.
Qed.

Lemma mapM_medians e s rows demands quantities gs : Forall (fun gb : group * Z => (0 < snd gb)%Z) gs ->
  mapM (group_medians e s rows demands quantities) gs =
  let* xs := mapM (core e s rows demands quantities) (map fst gs) in Ok (map (fun xb => expand (fst xb) (snd xb)) (combine xs (map snd gs))).
Proof.
  induction 1 as [|[g b] gs Hb HF IH]; [reflexivity|]. cbn [mapM map fst snd]. cbn [snd] in Hb. rewrite group_medians_core by assumption. rewrite IH.
  destruct (core e s rows demands quantities g) as [x|]; [|reflexivity]. cbn [bind]. destruct (mapM (core e s rows demands quantities) (map fst gs)); reflexivity.
Qed.

Lemma combine_fst {A B} (l : list A) (m : list B) : List.length l = List.length m -> map fst (combine l m) = l.
Proof. revert m. induction l as [|x l IH]; intros [|y m] H; try discriminate; [reflexivity|]. cbn. f_equal. apply IH. now injection H. Qed.

Lemma calculate_blocks e s sample quantities blocks rows : f_rows s = Some rows -> no_families rows ->
  Forall (fun pb : pg * Z => (0 < snd pb)%Z) blocks ->
  calculate_lf e s sample quantities blocks =
  match map fst (lf_groups s rows blocks) with
  | [] => Ok None
  | gs => let* demands := lf_demands e sample rows gs in let* xs := mapM (core e s rows demands quantities) gs in finish_of rows (n_rows sample) xs
  end.
Proof.
  intros Er Hf HF. rewrite (calculate_finish e s sample quantities blocks rows Er).
  assert (Hpos : Forall (fun gb : group * Z => (0 < snd gb)%Z) (lf_groups s rows blocks)).
  { rewrite Forall_forall in HF |- *. intros [[p dv] b] Hin. apply In_lf_groups in Hin as [Hin _]. now apply HF in Hin. }
  destruct (lf_groups s rows blocks) as [|g gs] eqn:Eg; [reflexivity|]. rewrite <- Eg in *. 
  assert (Hm : map fst (lf_groups s rows blocks) <> []) by (rewrite Eg; easy).
  destruct (map fst (lf_groups s rows blocks)) as [|g' gs'] eqn:Em; [easy|]. rewrite <- Em in *. clear Eg Hm g gs. cbv zeta.
  destruct (lf_demands e sample rows (map fst (lf_groups s rows blocks))) as [demands|]; [|reflexivity]. cbn [bind].
  rewrite mapM_medians by assumption. destruct (mapM (core e s rows demands quantities) _) as [xs|] eqn:Ex; [|reflexivity]. cbn [bind].
  pose proof Ex as El. apply mapM_ok_length in El. rewrite map_length in El.
  assert (Hfst : map fst (combine xs (map snd (lf_groups s rows blocks))) = xs) 
    by (apply combine_fst; now rewrite map_length).
  rewrite <- flat_map_concat_map. match goal with |- finish _ _ _ (flat_map _ ?l) = _ => change (finish s rows (n_rows sample) (cols_of l) = finish_of rows (n_rows sample) xs) end.
  rewrite finish_cols; [now rewrite Hfst|assumption|].
  apply Forall_forall. intros [x b] Hin. cbn [fst snd]. split.
  - apply in_combine_l in Hin. destruct (@mapM_inv_r _ _ _ _ _ _ Ex Hin) as ([p dv] & Hc & _). apply core_inv in Hc.
    destruct Hc as (c & values & r & text & points & med & q & _ & _ & _ & _ & _ & _ & _ & Hl & ->). exact Hl.
  - apply in_combine_r, in_map_iff in Hin as ([g b'] & <- & Hin). rewrite Forall_forall in Hpos. now apply Hpos in Hin.
Qed.

Lemma groups_fst s rows blocks blocks' : map fst blocks = map fst blocks' -> map fst (lf_groups s rows blocks) = map fst (lf_groups s rows blocks').
Proof.
  revert blocks'. induction blocks as [|[p b] blocks IH]; intros [|[p' b'] blocks'] H; try discriminate; [reflexivity|].
  cbn [map fst] in H. injection H as <- H. unfold lf_groups in *. cbn [filter fst]. destruct (lf_driven s rows (cmp p)); [|now apply IH].
  cbn [flat_map]. rewrite !map_app, !map_map. cbn [fst]. f_equal. now apply IH.
Qed.

Lemma lf_blocks_irrelevant e s sample quantities blocks blocks' rows : f_rows s = Some rows -> no_families rows ->
  map fst blocks = map fst blocks' -> Forall (fun pb : pg * Z => (0 < snd pb)%Z) blocks -> Forall (fun pb : pg * Z => (0 < snd pb)%Z) blocks' ->
  calculate_lf e s sample quantities blocks = calculate_lf e s sample quantities blocks'.
Proof.
  intros Er Hf Hfst HF HF'. rewrite !(calculate_blocks e s sample quantities _ rows Er Hf) by assumption. now rewrite (groups_fst s rows _ _ Hfst).
Qed.

(** ** What fails *)

(** A demand outside of the tabulated range. *)
Lemma mapM_fails {A B} (f : A -> result B) l x : In x l -> (forall y, f x <> Ok y) -> forall r, mapM f l <> Ok r.
Proof. intros Hin Hf r H. destruct (@mapM_inv _ _ _ _ _ _ H Hin) as (y & Hy & _). now apply (Hf y). Qed.

Lemma lf_outside e s sample quantities blocks rows t p b dv r text ys xs ys' xs' q : f_rows s = Some rows -> unique_inputs s rows quantities blocks ->
  own_functions s rows blocks -> has_loss s rows blocks p b dv r -> lf_function r = Some text -> table_text (pyfloat e) text ys xs ->
  same_points ys xs ys' xs' -> well_formed_table ys' xs' ->
  demand_table sample -> plain_demand e p (lf_demand r) -> (forall d, group_demand e sample p (lf_demand r) d -> In (Some q) d) ->
  (q < nth 0 xs' 0)%Qc \/ (nth (List.length xs' - 1) xs' 0 < q)%Qc ->
  calculate_lf e s sample quantities blocks <> Ok t.
Proof.
  intros Er (Hndv & Hnmap & Hnrows & Hnq & Hnb) Ho Hl Htext Htab Hpts Hwf Hdt Hplain Hd Hout H.
  destruct Hl as (H1 & Hb & H3 & H4 & H5 & H6).
  assert (Hg : In ((p, dv), b) (lf_groups s rows blocks)).
  { apply In_lf_groups. repeat split; try assumption. apply lf_driven_iff. exists (cmp p), dv, r. split; [now apply In_dget|assumption]. }
  rewrite (calculate_finish e s sample quantities blocks rows Er) in H.
  destruct (lf_groups s rows blocks) as [|g gs] eqn:Eg; [easy|]. rewrite <- Eg in *. clear Eg g gs. binv H demands. binv H l. clear H.
  destruct (@mapM_inv _ _ _ _ _ _ E0 Hg) as (seg & Hs & _). rewrite group_medians_core in Hs by assumption. binv Hs x.
  apply core_inv in E1 as (c' & values & r' & text' & points & med & q' & Hc' & Hval & Hr' & Htx & Hpo & Hmed & _).
  destruct (own_group e s sample rows blocks demands p dv b Ho E Hg) as [Hm _]. assert (c' = cmp p) as -> by congruence.
  apply lf_row_of_In in H5; [|assumption]. assert (r' = r) as -> by congruence. assert (text' = text) as -> by congruence.
  assert (Hpp : PG (cmp p) (loc p) (dir p) (uid p) = p) by now destruct p. rewrite Hpp in Hval.
  apply (aget_In group_eqb group_eqb_eq) in Hval. destruct (lf_demands_In e sample rows _ demands _ _ E Hval) as (_ & key & Hkey & Hone).
  unfold lf_key in Hkey. cbn [fst snd] in Hkey. rewrite H5 in Hkey. binv Hkey et. binv Hkey edps. injection Hkey as <-.
  assert (Hq : In (Some q) values) by (apply Hd; eapply key_value; eassumption).
  assert (points = combine xs' ys') as -> by (pose proof (@stringterpolation_points _ _ _ _ _ _ Htab Hpts Hwf) as Hsp; congruence).
  eapply mapM_fails; [exact Hq| |exact Hmed]. intros y. rewrite interp1d_outside by assumption. discriminate.
Qed.

(** A group without a row under the name of its component. *)
Lemma lf_no_row e s sample quantities blocks rows t p b dv c dv' r : f_rows s = Some rows -> In (p, b) blocks -> In dv (f_dvs s) ->
  dget (cmp p) (f_map s) = Some c -> In ((c, dv'), r) rows -> ~ In (cmp p, dv) (f_missing s) -> ~ In (cmp p, dv) (map fst rows) ->
  calculate_lf e s sample quantities blocks <> Ok t.
Proof.
  intros Er Hb Hdv Hc Hr Hms Hno H.
  assert (Hg : In ((p, dv), b) (lf_groups s rows blocks)).
  { apply In_lf_groups. repeat split; try assumption. apply lf_driven_iff. now exists c, dv', r. }
  rewrite (calculate_finish e s sample quantities blocks rows Er) in H.
  destruct (lf_groups s rows blocks) as [|g gs] eqn:Eg; [easy|]. rewrite <- Eg in *. clear Eg g gs. binv H demands. clear H.
  assert (Hg' : In (p, dv) (map fst (lf_groups s rows blocks))) by (apply in_map_iff; now exists ((p, dv), b)).
  destruct (lf_demands_keys e sample rows _ demands (p, dv) E Hg') as (k & Hk). unfold lf_key in Hk. cbn [fst snd] in Hk.
  destruct (lf_row_of rows (cmp p) dv) as [r'|] eqn:E'; [|discriminate Hk]. unfold lf_row_of in E'. apply (aget_In pair_eqb pair_eqb_eq) in E'.
  apply Hno. apply in_map_iff. now exists ((cmp p, dv), r').
Qed.

(** A component that is mapped to another one with a loss function. *)
Lemma lf_mapped e s sample quantities blocks rows t p b dv c r : f_rows s = Some rows -> In (p, b) blocks -> In dv (f_dvs s) ->
  dget (cmp p) (f_map s) = Some c -> In ((c, dv), r) rows -> ~ In (cmp p, dv) (f_missing s) ->
  (forall p' b', In (p', b') blocks -> cmp p' <> c) ->
  calculate_lf e s sample quantities blocks <> Ok t.
Proof.
  intros Er Hb Hdv Hc Hr Hms Hno H.
  assert (Hg : In ((p, dv), b) (lf_groups s rows blocks)).
  { apply In_lf_groups. repeat split; try assumption. apply lf_driven_iff. now exists c, dv, r. }
  rewrite (calculate_finish e s sample quantities blocks rows Er) in H.
  destruct (lf_groups s rows blocks) as [|g gs] eqn:Eg; [easy|]. rewrite <- Eg in *. clear Eg g gs. binv H demands. binv H l. clear H.
  destruct (@mapM_inv _ _ _ _ _ _ E0 Hg) as (seg & Hs & _). unfold group_medians in Hs. rewrite Hc in Hs.
  destruct (aget group_eqb _ demands) as [v|] eqn:Ev; [|discriminate Hs]. apply (aget_In group_eqb group_eqb_eq) in Ev.
  destruct (lf_demands_In e sample rows _ demands _ _ E Ev) as (Hin & _). apply in_map_iff in Hin as ([[p' dv''] b'] & Ep & Hin). cbn [fst] in Ep.
  apply In_lf_groups in Hin as (Hin & _). apply (Hno p' b' Hin). injection Ep as -> _. reflexivity.
Qed.

(** A lognormal distribution with a further parameter column. *)
Lemma lf_extra_column e s sample quantities blocks rows t p b dv r f : f_rows s = Some rows -> unique_inputs s rows quantities blocks ->
  own_functions s rows blocks -> has_loss s rows blocks p b dv r -> lf_family r = Some f -> (forall u, make_rv f (Some 1%Qc :: lf_thetas r) <> Ok u) ->
  calculate_lf e s sample quantities blocks <> Ok t.
Proof.
  intros Er Hu Ho Hl Hf Hno H. pose proof Hu as (Hndv & Hnmap & Hnrows & Hnq & Hnb). pose proof Hl as (H1 & Hb & H3 & H4 & H5 & H6).
  destruct t as [t|].
  - destruct (lf_losses e s sample quantities blocks t rows Er Hu Ho H) as (Hlab & _ & _).
    assert (Hg : In ((p, dv), b) (lf_groups s rows blocks)).
    { apply In_lf_groups. repeat split; try assumption. apply lf_driven_iff. exists (cmp p), dv, r. split; [now apply In_dget|assumption]. }
    destruct (calculate_inv e s sample quantities blocks t rows Er H) as (demands & segs & Hd & HF & Hcol & _).
    destruct (Forall2_combine _ _ _ _ HF Hg) as (seg & Hs & Hm). rewrite group_medians_core in Hm by assumption. binv Hm x. injection Hm as <-.
    destruct (core_inv e s rows demands quantities p dv x E) as (c' & values & r' & text & points & med & q & Hc' & _ & Hr & _ & _ & _ & _ & _ & ->).
    destruct (own_group e s sample rows blocks demands p dv b Ho Hd Hg) as [Hm _]. assert (c' = cmp p) as -> by congruence.
    destruct (Hcol (LK dv (cmp p) (cmp p) (loc p) (dir p) (uid p), p, 0%nat, map2 (block_median b) med q)) as [_ (rv & Hrv)].
    { apply in_concat. eexists. split; [eapply in_combine_r; exact Hs|]. unfold expand. apply in_map_iff. exists 0%nat. split; [reflexivity|]. apply in_seq. lia. }
    unfold has_rv in Hrv. cbn in Hrv. rewrite Hr in Hrv. apply lf_row_of_In in H5; [|assumption]. assert (r' = r) as -> by congruence.
    rewrite Hf in Hrv. destruct (make_rv f (Some 1%Qc :: lf_thetas r)) as [u|] eqn:Em; [now apply (Hno u)|discriminate Hrv].
  - assert (Hg : In ((p, dv), b) (lf_groups s rows blocks)).
    { apply In_lf_groups. repeat split; try assumption. apply lf_driven_iff. exists (cmp p), dv, r. split; [now apply In_dget|assumption]. }
    rewrite (calculate_finish e s sample quantities blocks rows Er) in H.
    destruct (lf_groups s rows blocks) as [|g gs] eqn:Eg; [easy|]. rewrite <- Eg in *. clear Eg g gs. binv H demands. binv H l. unfold finish in H.
    destruct (List.concat l); [discriminate H|]. destruct (forallb _ _) in H; [|discriminate H]. binv H vals. discriminate H.
Qed.

Lemma lf_lognormal_extra e s sample quantities blocks rows t p b dv r theta extra : f_rows s = Some rows ->
  unique_inputs s rows quantities blocks -> own_functions s rows blocks -> has_loss s rows blocks p b dv r ->
  lf_family r = Some "lognormal" -> lf_thetas r = [theta; extra] -> calculate_lf e s sample quantities blocks <> Ok t.
Proof.
  intros Er Hu Ho Hl Hf Ht. eapply lf_extra_column; try eassumption. intros u. rewrite Ht. cbn. discriminate.
Qed.
