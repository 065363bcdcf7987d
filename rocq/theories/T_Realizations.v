(** Theorems about single realizations of the damage calculation (C116, C117). *)
From Coq Require Import Sorting.Permutation.
From Verif Require Import Prelude PreludeFacts Pandas PandasFacts M_Base M_FileIO M_Damage M_Batch M_Demand M_Obtain S_Damage S_Realizations P_Eval P_Proc P_Qty T_Damage T_Demand T_Obtain P_Realizations.
Set Implicit Arguments.
Local Open Scope string_scope.
Local Open Scope list_scope.

(** * C116 More demand or less capacity never means less damage *)

Lemma ls_number_inj a b : In a digit_ids -> In b digit_ids -> ls_number a = ls_number b -> a = b.
Proof. intros Ha Hb. cbn in Ha, Hb. repeat (destruct Ha as [<- | Ha]; [repeat (destruct Hb as [<- | Hb]; [try reflexivity; discriminate|]); destruct Hb|]). destruct Ha. Qed.
Lemma ls_number_le a : In a digit_ids -> (ls_number a <= 9)%nat.
Proof. intros Ha. cbn in Ha. repeat (destruct Ha as [<- | Ha]; [vm_compute; lia|]). destruct Ha. Qed.

(** A highest one exists, as far as a contradiction is concerned. *)
Lemma highest_exists (P : string -> Prop) : (forall x, P x -> In x digit_ids) -> forall x, P x ->
  (forall m, P m -> (forall y, P y -> (ls_number y <= ls_number m)%nat) -> False) -> False.
Proof.
  intros HP. assert (K : forall k x, P x -> (9 - ls_number x <= k)%nat ->
    (forall m, P m -> (forall y, P y -> (ls_number y <= ls_number m)%nat) -> False) -> False).
  { induction k as [|k IH]; intros x Hx Hk Hm; apply (Hm x Hx); intros y Hy.
    - pose proof (ls_number_le (HP y Hy)). lia.
    - destruct (Nat.le_gt_cases (ls_number y) (ls_number x)) as [L|L]; [exact L|]. exfalso.
      pose proof (ls_number_le (HP y Hy)). apply (IH y Hy); [lia|exact Hm]. }
  intros x Hx. exact (K (9 - ls_number x)%nat x Hx (le_n _)).
Qed.
Lemma cell_unique {K V} n (f : list (K * list V)) k i a b : well_formed n f -> cell_at f k i a -> cell_at f k i b -> a = b.
Proof.
  intros [N _] (c & Hc & Ha) (c' & Hc' & Hb).
  assert (E : forall g : list (K * list V), NoDup (map fst g) -> In (k, c) g -> In (k, c') g -> c = c').
  { induction g as [|[k0 c0] g IH]; [easy|]. cbn. intros Nd H H'. inversion_clear Nd as [|? ? N1 N2].
    destruct H as [E|H], H' as [E'|H']; [congruence|injection E as <- <-|injection E' as <- <-|now apply IH].
    - destruct N1. apply in_map_iff. now exists (k0, c').
    - destruct N1. apply in_map_iff. now exists (k0, c). }
  rewrite (E f N Hc Hc') in Ha. congruence.
Qed.
Lemma exceeded_ls cap d b ls i : exceeded cap d b ls i -> has_ls cap b ls.
Proof. intros (c & q & (col & Hc & _) & _). apply in_map_iff. now exists ((b, ls), col). Qed.

(** If the demand on a block is not lower, its capacities not higher, and its limit states lead to
    the same damage states, higher ones to higher ones, then its damage state is not lower. *)
Theorem C116_monotone : forall n demands demands' required cap cap' lsds ds ds' b i d d' s s',
  well_formed n cap -> well_formed n cap' -> well_formed n lsds -> well_formed n demands -> well_formed n demands' ->
  one_demand required -> gapless cap -> gapless cap' ->
  (forall k, In k (map fst cap) -> In k (map fst lsds)) -> (forall k, In k (map fst cap') -> In k (map fst lsds)) ->
  evaluate_damage_state n demands required cap lsds = Ok ds ->
  evaluate_damage_state n demands' required cap' lsds = Ok ds' ->
  demand_for demands required (b_of b) i (Some d) -> demand_for demands' required (b_of b) i (Some d') -> (d <= d')%Qc ->
  (forall ls c, cell_at cap (b, ls) i (Some c) -> exists c', cell_at cap' (b, ls) i (Some c') /\ (c' <= c)%Qc) ->
  (forall ls z, cell_at lsds (b, ls) i z -> (1 <= z)%Z) ->
  (forall ls ls' z z', cell_at lsds (b, ls) i z -> cell_at lsds (b, ls') i z' -> (ls_number ls < ls_number ls')%nat -> (z <= z')%Z) ->
  cell_at ds b i s -> cell_at ds' b i s' -> (s <= s')%Z.
Proof.
  intros n demands demands' required cap cap' lsds ds ds' b i d d' s s' Wc Wc' Wl Wd Wd' O G G' Kc Kc' E E' D D' Le Lc Pos Inc Hs Hs'.
  destruct (C30_shape _ _ _ _ _ _ Wc Wl Wd E) as [S K]. destruct (C30_shape _ _ _ _ _ _ Wc' Wl Wd' E') as [S' K'].
  assert (Hi : (i < n)%nat).
  { destruct Hs as (col & Hc & N). destruct S as [_ L]. rewrite Forall_forall in L. specialize (L _ Hc). cbn in L. rewrite <- L.
    apply nth_error_Some. congruence. }
  assert (Hb : exists ls, has_ls cap b ls).
  { apply K. destruct Hs as (col & Hc & _). apply in_map_iff. now exists (b, col). }
  assert (Hb' : exists ls, has_ls cap' b ls).
  { apply K'. destruct Hs' as (col & Hc & _). apply in_map_iff. now exists (b, col). }
  destruct (C30_state _ _ _ _ _ _ _ _ _ Wc Wl Wd O Kc Pos E Hi Hb D) as (z & Hz & Z0 & Z1).
  destruct (C30_state _ _ _ _ _ _ _ _ _ Wc' Wl Wd' O Kc' Pos E' Hi Hb' D') as (z' & Hz' & Z0' & Z1').
  assert (z = s) by exact (cell_unique S Hz Hs). assert (z' = s') by exact (cell_unique S' Hz' Hs'). subst z z'.
  destruct (Z.le_gt_cases s s') as [L|L]; [exact L|]. exfalso.
  assert (X : forall ls, exceeded cap (Some d) b ls i -> exceeded cap' (Some d') b ls i).
  { intros ls (c & q & Hc & Eq & Lt). injection Eq as <-. destruct (Lc _ _ Hc) as (c' & Hc' & Le'). exists c', d'. split; [exact Hc'|]. split; [reflexivity|].
    eapply Qcle_lt_trans; [exact Le'|]. eapply Qclt_le_trans; eassumption. }
  (* no limit state exceeded: impossible, as the lower demand leads to damage *)
  assert (Cl : forall ls, has_ls cap' b ls -> exists w, cell_at lsds (b, ls) i w).
  { intros ls H. apply Kc' in H. apply in_map_iff in H as ([k col] & Ek & Hk). cbn in Ek. subst k.
    destruct Wl as [_ Ll]. rewrite Forall_forall in Ll. specialize (Ll _ Hk). cbn in Ll.
    destruct (nth_error col i) as [w|] eqn:Ew; [exists w, col; now split|]. apply nth_error_None in Ew. lia. }
  assert (Sp : (0 <= s')%Z).
  { destruct (Z.le_gt_cases 0 s') as [Lz|Lz]; [exact Lz|]. exfalso. enough (s' = 0%Z) by lia. apply Z0'. intros ls Hx.
    destruct (Z1' (ex_intro _ ls Hx)) as (l2 & _ & Hc). specialize (Pos _ _ Hc). lia. }
  assert (Nz : ~ forall ls, ~ exceeded cap (Some d) b ls i) by (intros N; apply Z0 in N; lia).
  apply Nz. intros ls0 H0.
  apply (@highest_exists (fun ls => exceeded cap (Some d) b ls i)) with (x := ls0); [|exact H0|].
  { intros ls Hx. apply exceeded_ls in Hx. now apply (G _ _ Hx). }
  intros m Hm Hmax.
  apply (@highest_exists (fun ls => exceeded cap' (Some d') b ls i)) with (x := m); [|now apply X|].
  { intros ls Hx. apply exceeded_ls in Hx. now apply (G' _ _ Hx). }
  intros m' Hm' Hmax'.
  pose proof (exceeded_ls (X _ Hm)) as Im. pose proof (exceeded_ls Hm') as Im'.
  destruct (Cl _ Im) as (w & Hw). destruct (Cl _ Im') as (w' & Hw').
  pose proof (C30_highest_partial _ _ _ _ _ _ _ _ _ _ _ Wc Wl Wd O E G Hi D (conj Hm Hmax) Hw) as R.
  pose proof (C30_highest_partial _ _ _ _ _ _ _ _ _ _ _ Wc' Wl Wd' O E' G' Hi D' (conj Hm' Hmax') Hw') as R'.
  assert (w = s) by exact (cell_unique S R Hs). assert (w' = s') by exact (cell_unique S' R' Hs'). subst w w'.
  pose proof (Hmax' m (X _ Hm)) as Lm.
  destruct (Nat.eq_dec (ls_number m) (ls_number m')) as [Em|Nm].
  - assert (m = m') by (apply ls_number_inj; [now apply (G' _ _ Im)|now apply (G' _ _ Im')|exact Em]). subst m'.
    pose proof (cell_unique Wl Hw Hw'). lia.
  - assert (Q := Inc _ _ _ _ Hw Hw' ltac:(lia)). lia.
Qed.
Print Assumptions C116_monotone.

(** Without any condition on skipped limit states: damage does not disappear. *)
Theorem C116_damaged : forall n demands demands' required cap cap' lsds ds ds' b i d d' s s',
  well_formed n cap -> well_formed n cap' -> well_formed n lsds -> well_formed n demands -> well_formed n demands' ->
  one_demand required ->
  (forall k, In k (map fst cap) -> In k (map fst lsds)) -> (forall k, In k (map fst cap') -> In k (map fst lsds)) ->
  evaluate_damage_state n demands required cap lsds = Ok ds ->
  evaluate_damage_state n demands' required cap' lsds = Ok ds' ->
  demand_for demands required (b_of b) i (Some d) -> demand_for demands' required (b_of b) i (Some d') -> (d <= d')%Qc ->
  (forall ls c, cell_at cap (b, ls) i (Some c) -> exists c', cell_at cap' (b, ls) i (Some c') /\ (c' <= c)%Qc) ->
  (forall ls z, cell_at lsds (b, ls) i z -> (1 <= z)%Z) ->
  cell_at ds b i s -> cell_at ds' b i s' -> s <> 0%Z -> (1 <= s')%Z.
Proof.
  intros n demands demands' required cap cap' lsds ds ds' b i d d' s s' Wc Wc' Wl Wd Wd' O Kc Kc' E E' D D' Le Lc Pos Hs Hs' Nz.
  destruct (C30_shape _ _ _ _ _ _ Wc Wl Wd E) as [S K]. destruct (C30_shape _ _ _ _ _ _ Wc' Wl Wd' E') as [S' K'].
  assert (Hi : (i < n)%nat).
  { destruct Hs as (col & Hc & N). destruct S as [_ L]. rewrite Forall_forall in L. specialize (L _ Hc). cbn in L. rewrite <- L.
    apply nth_error_Some. congruence. }
  assert (Hb : exists ls, has_ls cap b ls).
  { apply K. destruct Hs as (col & Hc & _). apply in_map_iff. now exists (b, col). }
  assert (Hb' : exists ls, has_ls cap' b ls).
  { apply K'. destruct Hs' as (col & Hc & _). apply in_map_iff. now exists (b, col). }
  destruct (C30_state _ _ _ _ _ _ _ _ _ Wc Wl Wd O Kc Pos E Hi Hb D) as (z & Hz & Z0 & Z1).
  destruct (C30_state _ _ _ _ _ _ _ _ _ Wc' Wl Wd' O Kc' Pos E' Hi Hb' D') as (z' & Hz' & Z0' & Z1').
  assert (z = s) by exact (cell_unique S Hz Hs). assert (z' = s') by exact (cell_unique S' Hz' Hs'). subst z z'.
  destruct (Z.le_gt_cases 1 s') as [L|L]; [exact L|]. exfalso. apply Nz. apply Z0. intros ls (c & q & Hc & Eq & Lt).
  injection Eq as <-. destruct (Lc _ _ Hc) as (c' & Hc' & Le').
  destruct Z1' as (l2 & _ & H2); [exists ls, c', d'; split; [exact Hc'|]; split; [reflexivity|]; eapply Qcle_lt_trans; [exact Le'|]; eapply Qclt_le_trans; eassumption|].
  specialize (Pos _ _ H2). lia.
Qed.
Print Assumptions C116_damaged.

(** Without any condition on skipped limit states: with the same limit states in both cases, the
    state is not lower if those of this block lead to states in the order in which they appear
    among the labels of all blocks. *)
Theorem C116_seen_order : forall n demands demands' required cap cap' lsds ds ds' b i d d' s s',
  well_formed n cap -> well_formed n cap' -> well_formed n lsds -> well_formed n demands -> well_formed n demands' ->
  one_demand required -> map fst cap = map fst cap' ->
  (forall k, In k (map fst cap) -> In k (map fst lsds)) ->
  evaluate_damage_state n demands required cap lsds = Ok ds ->
  evaluate_damage_state n demands' required cap' lsds = Ok ds' ->
  demand_for demands required (b_of b) i (Some d) -> demand_for demands' required (b_of b) i (Some d') -> (d <= d')%Qc ->
  (forall ls c, cell_at cap (b, ls) i (Some c) -> exists c', cell_at cap' (b, ls) i (Some c') /\ (c' <= c)%Qc) ->
  (forall ls z, cell_at lsds (b, ls) i z -> (1 <= z)%Z) ->
  (forall ls ls' z z', cell_at lsds (b, ls) i z -> cell_at lsds (b, ls') i z' -> seen_before cap ls ls' -> (z <= z')%Z) ->
  cell_at ds b i s -> cell_at ds' b i s' -> (s <= s')%Z.
Proof.
  intros n demands demands' required cap cap' lsds ds ds' b i d d' s s' Wc Wc' Wl Wd Wd' O Same Kc E E' D D' Le Lc Pos Inc Hs Hs'.
  assert (Kc' : forall k, In k (map fst cap') -> In k (map fst lsds)) by (rewrite <- Same; exact Kc).
  destruct (C30_shape _ _ _ _ _ _ Wc Wl Wd E) as [S K]. destruct (C30_shape _ _ _ _ _ _ Wc' Wl Wd' E') as [S' K'].
  assert (Hi : (i < n)%nat).
  { destruct Hs as (col & Hc & N). destruct S as [_ L]. rewrite Forall_forall in L. specialize (L _ Hc). cbn in L. rewrite <- L.
    apply nth_error_Some. congruence. }
  destruct (Z.eq_dec s 0) as [Z|Z].
  { assert (Hb' : exists ls, has_ls cap' b ls).
    { apply K'. destruct Hs' as (col & Hc & _). apply in_map_iff. now exists (b, col). }
    destruct (C30_state _ _ _ _ _ _ _ _ _ Wc' Wl Wd' O Kc' Pos E' Hi Hb' D') as (z' & Hz' & Z0' & Z1').
    assert (z' = s') by exact (cell_unique S' Hz' Hs'). subst z'. subst s.
    destruct (Z.le_gt_cases 0 s') as [L|L]; [exact L|]. exfalso. enough (s' = 0%Z) by lia. apply Z0'. intros ls Hx.
    destruct (Z1' (ex_intro _ ls Hx)) as (l2 & _ & Hc). specialize (Pos _ _ Hc). lia. }
  destruct (Z.le_gt_cases s s') as [L|L]; [exact L|]. exfalso.
  assert (X : forall ls, exceeded cap (Some d) b ls i -> exceeded cap' (Some d') b ls i).
  { intros ls (c & q & Hc & Eq & Lt). injection Eq as <-. destruct (Lc _ _ Hc) as (c' & Hc' & Le'). exists c', d'. split; [exact Hc'|]. split; [reflexivity|].
    eapply Qcle_lt_trans; [exact Le'|]. eapply Qclt_le_trans; eassumption. }
  assert (Cl : forall ls, has_ls cap b ls -> exists w, cell_at lsds (b, ls) i w).
  { intros ls H. apply Kc in H. apply in_map_iff in H as ([k col] & Ek & Hk). cbn in Ek. subst k.
    destruct Wl as [_ Ll]. rewrite Forall_forall in Ll. specialize (Ll _ Hk). cbn in Ll.
    destruct (nth_error col i) as [w|] eqn:Ew; [exists w, col; now split|]. apply nth_error_None in Ew. lia. }
  assert (Hb : exists ls, has_ls cap b ls).
  { apply K. destruct Hs as (col & Hc & _). apply in_map_iff. now exists (b, col). }
  destruct (C30_state _ _ _ _ _ _ _ _ _ Wc Wl Wd O Kc Pos E Hi Hb D) as (z & Hz & Z0 & Z1).
  assert (z = s) by exact (cell_unique S Hz Hs). subst z. apply Z. apply Z0. intros ls0 H0.
  destruct (C30_last_seen_exists _ _ _ _ _ _ _ _ _ _ Wc Wl Wd O E Hi D H0) as (m & Hm).
  destruct (C30_last_seen_exists _ _ _ _ _ _ _ _ _ _ Wc' Wl Wd' O E' Hi D' (X _ H0)) as (m' & Hm').
  pose proof (exceeded_ls (proj1 Hm)) as Im. pose proof (exceeded_ls (proj1 Hm')) as Im'.
  assert (Im2 : has_ls cap b m') by (unfold has_ls in *; rewrite Same; exact Im').
  destruct (Cl _ Im) as (w & Hw). destruct (Cl _ Im2) as (w' & Hw').
  pose proof (C30_last_seen _ _ _ _ _ _ _ _ _ _ _ Wc Wl Wd O E Hi D Hm Hw) as R.
  pose proof (C30_last_seen _ _ _ _ _ _ _ _ _ _ _ Wc' Wl Wd' O E' Hi D' Hm' Hw') as R'.
  assert (w = s) by exact (cell_unique S R Hs). assert (w' = s') by exact (cell_unique S' R' Hs'). subst w w'.
  destruct (@seen_total cap m m' (ex_intro _ b Im) (ex_intro _ b Im2)) as [Em|[B|B]].
  - subst m'. pose proof (cell_unique Wl Hw Hw'). lia.
  - pose proof (Inc _ _ _ _ Hw Hw' B). lia.
  - apply (proj2 Hm' m (X _ (proj1 Hm))). destruct B as [N (k & Hk & Hmin)]. split; [exact N|]. exists k. unfold has_ls in *. rewrite <- Same. auto.
Qed.
Print Assumptions C116_seen_order.

(** Component B under 5/2 and then under 5, its highest capacity lowered from 3 to 2. *)
Definition mono_required : list (edp_key * list pg) := [((["PFA-1-1"], None), [b_of demoB])].
Definition mono_low : list (edp_key * list num) := [((["PFA-1-1"], None), [Some (qc (5 # 2))])].
Definition mono_capB : cap_frame :=
  [((demoB, "1"), [Some (qc 1)]); ((demoB, "2"), [Some (qc 2)]); ((demoB, "3"), [Some (qc 2)])].
Example C116_hypotheses_met :
  evaluate_damage_state 1 mono_low mono_required demo_capB demo_lsds = Ok [(demoB, [2%Z])] /\
  evaluate_damage_state 1 demo_demands mono_required mono_capB demo_lsds = Ok [(demoB, [3%Z])] /\
  well_formed 1 demo_capB /\ well_formed 1 mono_capB /\ one_demand mono_required /\ gapless demo_capB /\ gapless mono_capB /\
  demand_for mono_low mono_required (b_of demoB) 0 (Some (qc (5 # 2))) /\
  demand_for demo_demands mono_required (b_of demoB) 0 (Some (qc 5)) /\
  (forall ls c, cell_at demo_capB (demoB, ls) 0 (Some c) -> exists c', cell_at mono_capB (demoB, ls) 0 (Some c') /\ (c' <= c)%Qc) /\
  (forall ls z, cell_at demo_lsds (demoB, ls) 0 z -> (1 <= z)%Z) /\
  (forall ls ls' z z', cell_at demo_lsds (demoB, ls) 0 z -> cell_at demo_lsds (demoB, ls') 0 z' ->
     (ls_number ls < ls_number ls')%nat -> (z <= z')%Z).
Proof.
  assert (Wf : forall cap : cap_frame, map fst cap = map fst demo_capB -> Forall (fun c => List.length (snd c) = 1%nat) cap -> well_formed 1 cap).
  { intros cap E F. split; [|exact F]. rewrite E. cbn.
    repeat match goal with |- NoDup _ => constructor
         | |- ~ In _ _ => cbn; intros Hn; repeat (destruct Hn as [Hn|Hn]; try discriminate Hn); exact Hn end. }
  assert (Gl : forall cap : cap_frame, map fst cap = map fst demo_capB -> gapless cap).
  { intros cap E b ls Hb. destruct (proj1 C30_highest_hypotheses_met b ls) as [A B]; [unfold has_ls in *; now rewrite <- E|].
    split; [exact A|]. intros b' ls'. unfold has_ls in *. rewrite E. apply B. }
  assert (Ls : forall ls z, cell_at demo_lsds (demoB, ls) 0 z -> (ls = "1" /\ z = 1%Z) \/ (ls = "2" /\ z = 2%Z) \/ (ls = "3" /\ z = 3%Z)).
  { intros ls z (col & Hin & Hn). cbn in Hin.
    repeat (destruct Hin as [Hin|Hin]; [first [discriminate Hin|injection Hin as <- <-; cbn in Hn; injection Hn as <-; auto]|]). easy. }
  split; [vm_compute; reflexivity|]. split; [vm_compute; reflexivity|].
  split; [apply Wf; [reflexivity|repeat constructor]|]. split; [apply Wf; [reflexivity|repeat constructor]|].
  split; [split; cbn; repeat constructor; easy|].
  split; [now apply Gl|]. split; [now apply Gl|].
  split; [exists (["PFA-1-1"], None), [Some (qc (5 # 2))], [b_of demoB]; cbn; auto 10|].
  split; [exists (["PFA-1-1"], None), [Some (qc 5)], [b_of demoB]; cbn; auto 10|].
  split; [|split].
  - intros ls c (col & Hin & Hn). cbn in Hin.
    destruct Hin as [E|[E|[E|[]]]]; injection E as <- <-; cbn in Hn; injection Hn as <-.
    + exists (qc 1). split; [exists [Some (qc 1)]; cbn; auto 10|vm_compute; discriminate].
    + exists (qc 2). split; [exists [Some (qc 2)]; cbn; auto 10|vm_compute; discriminate].
    + exists (qc 2). split; [exists [Some (qc 2)]; cbn; auto 10|vm_compute; discriminate].
  - intros ls z H. destruct (Ls _ _ H) as [[_ ->]|[[_ ->]|[_ ->]]]; lia.
  - intros ls ls' z z' H H' L. destruct (Ls _ _ H) as [[-> ->]|[[-> ->]|[-> ->]]], (Ls _ _ H') as [[-> ->]|[[-> ->]|[-> ->]]]; try lia; vm_compute in L; lia.
Qed.

(** Without the condition on skipped limit states more demand can mean less damage: next to
    component A, which has no second limit state, B with capacities 1, 4 and 3 is in state 3
    under a demand of 7/2 and in state 2 under a demand of 5. *)
Definition less_cap : cap_frame := [((demoA, "1"), [Some (qc 1)]); ((demoA, "3"), [Some (qc 9)])] ++
  [((demoB, "1"), [Some (qc 1)]); ((demoB, "2"), [Some (qc 4)]); ((demoB, "3"), [Some (qc 3)])].
Definition less_low : list (edp_key * list num) := [((["PFA-1-1"], None), [Some (qc (7 # 2))])].
Theorem C116_refuted : exists n demands demands' required cap lsds ds ds' b i d d' s s',
  well_formed n cap /\ well_formed n lsds /\ one_demand required /\
  evaluate_damage_state n demands required cap lsds = Ok ds /\
  evaluate_damage_state n demands' required cap lsds = Ok ds' /\
  demand_for demands required (b_of b) i (Some d) /\ demand_for demands' required (b_of b) i (Some d') /\ (d < d')%Qc /\
  (forall ls ls' z z', cell_at lsds (b, ls) i z -> cell_at lsds (b, ls') i z' -> (ls_number ls < ls_number ls')%nat -> (z < z')%Z) /\
  cell_at ds b i s /\ cell_at ds' b i s' /\ (s' < s)%Z.
Proof.
  exists 1%nat, less_low, demo_demands, demo_required, less_cap, demo_lsds, [(demoA, [1%Z]); (demoB, [3%Z])], [(demoA, [1%Z]); (demoB, [2%Z])],
    demoB, 0%nat, (qc (7 # 2)), (qc 5), 3%Z, 2%Z.
  destruct C30_state_hypotheses_met as (W1 & W2 & _ & W4 & _).
  split; [split; [exact (proj1 W1)|repeat constructor]|]. split; [exact W2|]. split; [exact W4|].
  split; [vm_compute; reflexivity|]. split; [vm_compute; reflexivity|].
  split; [exists (["PFA-1-1"], None), [Some (qc (7 # 2))], [b_of demoA; b_of demoB]; cbn; auto 10|].
  split; [exists (["PFA-1-1"], None), [Some (qc 5)], [b_of demoA; b_of demoB]; cbn; auto 10|].
  split; [vm_compute; reflexivity|]. split; [|split; [exists [3%Z]; cbn; auto|split; [exists [2%Z]; cbn; auto|lia]]].
  assert (Ls : forall ls z, cell_at demo_lsds (demoB, ls) 0 z -> (ls = "1" /\ z = 1%Z) \/ (ls = "2" /\ z = 2%Z) \/ (ls = "3" /\ z = 3%Z)).
  { intros ls z (col & Hin & Hn). cbn in Hin.
    repeat (destruct Hin as [Hin|Hin]; [first [discriminate Hin|injection Hin as <- <-; cbn in Hn; injection Hn as <-; auto]|]). easy. }
  intros ls ls' z z' H H' L. destruct (Ls _ _ H) as [[-> ->]|[[-> ->]|[-> ->]]], (Ls _ _ H') as [[-> ->]|[[-> ->]|[-> ->]]]; try lia; vm_compute in L; lia.
Qed.
Print Assumptions C116_refuted.

(** Next to A, which skips the second limit state, the limit states of B appear in the order 1, 3,
    2; a component whose second limit state is the worst one meets the condition. *)
Definition seen_lsds : lsds_frame :=
  [((demoA, "1"), [1%Z]); ((demoA, "3"), [2%Z]); ((demoB, "1"), [1%Z]); ((demoB, "2"), [3%Z]); ((demoB, "3"), [2%Z])].
Example C116_seen_order_hypotheses_met :
  evaluate_damage_state 1 less_low demo_required less_cap seen_lsds = Ok [(demoA, [1%Z]); (demoB, [2%Z])] /\
  evaluate_damage_state 1 demo_demands demo_required less_cap seen_lsds = Ok [(demoA, [1%Z]); (demoB, [3%Z])] /\
  forall ls ls' z z', cell_at seen_lsds (demoB, ls) 0 z -> cell_at seen_lsds (demoB, ls') 0 z' -> seen_before less_cap ls ls' -> (z <= z')%Z.
Proof.
  split; [vm_compute; reflexivity|]. split; [vm_compute; reflexivity|].
  assert (Ls : forall ls z, cell_at seen_lsds (demoB, ls) 0 z -> (ls = "1" /\ z = 1%Z) \/ (ls = "2" /\ z = 3%Z) \/ (ls = "3" /\ z = 2%Z)).
  { intros ls z (col & Hin & Hn). cbn in Hin.
    repeat (destruct Hin as [Hin|Hin]; [first [discriminate Hin|injection Hin as <- <-; cbn in Hn; injection Hn as <-; auto]|]). easy. }
  assert (A1 : has_ls less_cap demoA "1") by (cbn; auto). assert (A3 : has_ls less_cap demoA "3") by (cbn; auto).
  intros ls ls' z z' H H' [N (k & Hk & Hmin)].
  destruct (Ls _ _ H) as [[-> ->]|[[-> ->]|[-> ->]]], (Ls _ _ H') as [[-> ->]|[[-> ->]|[-> ->]]]; try lia; exfalso.
  - specialize (Hmin _ A1). cbn in Hk. repeat (destruct Hk as [Hk|Hk]; [try discriminate Hk; injection Hk as <-; vm_compute in Hmin; discriminate|]); destruct Hk.
  - specialize (Hmin _ A3). cbn in Hk. repeat (destruct Hk as [Hk|Hk]; [try discriminate Hk; injection Hk as <-; vm_compute in Hmin; discriminate|]); destruct Hk.
  - specialize (Hmin _ A1). cbn in Hk. repeat (destruct Hk as [Hk|Hk]; [try discriminate Hk; injection Hk as <-; vm_compute in Hmin; discriminate|]); destruct Hk.
Qed.

(** * C117 Each realization is evaluated on its own *)

(** Whatever the other realizations are, and however many: if realization [i] of the demands, of
    the capacities and of the states assigned to limit states is realization [j] of those of
    another run, all blocks get the same damage states there.  The demand expressions are
    evaluated by an outside library, which is assumed to work on each realization alone. *)
Theorem C117_states : forall i j eval nterms params offsets multipliers sample sample' cap cap' lsds lsds' missing available size cb ds,
  (forall c vars vars' v, same_row vars i vars' j -> eval c vars = Ok v -> exists v', eval c vars' = Ok v' /\ nth_error v i = nth_error v' j) ->
  (i < n_rows sample)%nat -> (j < n_rows sample')%nat -> rows (n_rows sample) sample -> rows (n_rows sample') sample' ->
  same_row sample i sample' j -> same_row cap i cap' j -> same_row lsds i lsds' j ->
  obtain_ds_sample nterms eval params offsets multipliers sample cap lsds missing available size cb = Ok ds ->
  exists ds', obtain_ds_sample nterms eval params offsets multipliers sample' cap' lsds' missing available size cb = Ok ds' /\
    same_row ds i ds' j.
Proof. intros i j eval nterms params offsets multipliers sample sample' cap cap' lsds lsds' missing available size cb ds He Hi Hj R R' S C L H. eapply obtain_step; try eassumption; reflexivity. Qed.
Print Assumptions C117_states.

(** The same for damage processes, which also report the same problems. *)
Theorem C117_process : forall i j order tasks ds ds' out warnings,
  same_row ds i ds' j -> perform_dmg_process order tasks ds = Ok (out, warnings) ->
  exists out', perform_dmg_process order tasks ds' = Ok (out', warnings) /\ same_row out i out' j.
Proof. intros i j order tasks ds ds' out w. apply process_step. Qed.
Print Assumptions C117_process.

Lemma blocks_with_same i j (ds ds' : list (blk * list Z)) p sel : same_row ds i ds' j -> blocks_with ds p i sel = blocks_with ds' p j sel.
Proof.
  intros H. unfold blocks_with. induction H as [|c c' ds ds' [E N] _ IH]; [reflexivity|]. cbn [filter].
  rewrite (@nth_same i j Z _ _ 0%Z N), E. destruct (pg_eqb (b_of (fst c')) p && sel (nth j (snd c') 0%Z))%bool; cbn [List.length]; now rewrite IH.
Qed.
Lemma blocks_with_none ds p i d : (forall b col, In (b, col) ds -> b_of b = p -> nth i col 0%Z = d -> False) -> blocks_with ds p i (Z.eqb d) = 0%nat.
Proof.
  intros H. unfold blocks_with. induction ds as [|[b col] ds IH]; [reflexivity|]. cbn [filter fst snd].
  destruct (pg_eqb (b_of b) p && Z.eqb d (nth i col 0%Z))%bool eqn:E.
  - apply andb_true_iff in E as [E1 E2]. apply pg_eqb_eq in E1. apply Z.eqb_eq in E2. destruct (H b col); cbn; auto.
  - apply IH. intros b' col' Hin. now apply H; right.
Qed.

(** Amounts follow from the quantity and the blocks of the group. *)
Lemma amount_transfer n n' i j dropzero (sample sample' : list (pg * list Qc)) blocks blocks' (ds ds' : ds_frame) q q' p qty qty' nb s x :
  well_formed n ds -> well_formed n sample -> well_formed n' ds' -> well_formed n' sample' ->
  match blocks with Some l => NoDup (map fst l) | None => True end ->
  match blocks' with Some l => NoDup (map fst l) | None => True end ->
  prepare_dmg_quantities n dropzero sample blocks ds = Ok q ->
  prepare_dmg_quantities n' dropzero sample' blocks' ds' = Ok q' ->
  (i < n)%nat -> (j < n')%nat -> (forall d, blocks_with ds p i (Z.eqb d) = blocks_with ds' p j (Z.eqb d)) ->
  In (p, qty) sample -> In (p, qty') sample' -> nth i qty 0%Qc = nth j qty' 0%Qc -> blocks_of blocks p nb -> blocks_of blocks' p nb ->
  amount_in q (p, s) i x -> amount_in q' (p, s) j x.
Proof.
  intros W1 W2 W1' W2' Nb Nb' H H' Hi Hj Sd Hq Hq' Eq Bl Bl' A.
  destruct (C32_columns _ _ _ _ _ _ W1 W2 H) as (Nd & Ob & _). destruct (C32_columns _ _ _ _ _ _ W1' W2' H') as (Nd' & Ob' & _).
  (* a state without a value has no blocks *)
  assert (Z0 : forall n ds q i d, well_formed n ds -> (i < n)%nat ->
     (forall b dcol i d, In (b, dcol) ds -> (i < n)%nat -> nth_error dcol i = Some d -> d <> (-1)%Z -> (dropzero = true -> d <> 0%Z) ->
        exists col v, In ((b_of b, str_of_Z d), col) q /\ nth i col None = Some v) ->
     d <> (-1)%Z -> (dropzero = true -> d <> 0%Z) -> (forall col : list num, In ((p, str_of_Z d), col) q -> nth i col None = None) ->
     blocks_with ds p i (Z.eqb d) = 0%nat).
  { clear. intros n ds q i d [_ W] Hi Ob N1 N0 No. apply blocks_with_none. intros b col Hin <- Hd.
    rewrite Forall_forall in W. specialize (W _ Hin). cbn in W.
    assert (E : nth_error col i = Some d) by (rewrite <- Hd; apply nth_error_nth'; lia).
    destruct (Ob _ _ _ _ Hin Hi E N1 N0) as (c & v & Hc & Hv). pose proof (eq_trans (eq_sym Hv) (No _ Hc)) as X. discriminate X. }
  assert (T : (exists col v, In ((p, s), col) q' /\ nth j col None = Some v) \/ (forall col, In ((p, s), col) q' -> nth j col None = None)).
  { clear -Nd'. induction q' as [|[k c] q' IH]; [now right|]. cbn in Nd'. inversion_clear Nd' as [|? ? N1 N2].
    destruct (IH N2) as [(col & v & Hin & Hv)|No]; [left; exists col, v; split; [now right|exact Hv]|].
    destruct (nth j c None) as [v|] eqn:E.
    - destruct (pg_eqb (fst k) p && String.eqb (snd k) s)%bool eqn:Ek.
      + apply andb_true_iff in Ek as [E1 E2]. apply pg_eqb_eq in E1. apply String.eqb_eq in E2. left. exists c, v. split; [left; destruct k as [k1 k2]; cbn in E1, E2; now subst k1 k2|exact E].
      + right. intros col [F|F]; [|now apply No]. injection F as -> <-. cbn in Ek. rewrite (proj2 (pg_eqb_eq _ _) eq_refl), String.eqb_refl in Ek. discriminate Ek.
    - right. intros col [F|F]; [|now apply No]. injection F as _ <-. exact E. }
  destruct A as [(col & Hin & Hv)|[-> No]].
  - destruct (C32_cell _ _ _ _ _ _ _ _ _ _ _ _ _ W1 W2 Nb H Hq Bl Hi Hin Hv) as (d & -> & N1 & N0 & ->).
    destruct T as [(col' & v' & Hin' & Hv')|No'].
    + left. exists col'. split; [exact Hin'|]. rewrite Hv'.
      destruct (C32_cell _ _ _ _ _ _ _ _ _ _ _ _ _ W1' W2' Nb' H' Hq' Bl' Hj Hin' Hv') as (d' & Ed & _ & _ & ->).
      apply str_of_Z_inj in Ed. subst d'. now rewrite (Sd d), Eq.
    + right. split; [|exact No']. rewrite (Sd d), (Z0 _ _ _ _ d W1' Hj Ob' N1 N0 No').
      change (qn 0) with 0%Qc. ring.
  - destruct T as [(col' & v' & Hin' & Hv')|No']; [|now right].
    left. exists col'. split; [exact Hin'|]. rewrite Hv'.
    destruct (C32_cell _ _ _ _ _ _ _ _ _ _ _ _ _ W1' W2' Nb' H' Hq' Bl' Hj Hin' Hv') as (d & -> & N1 & N0 & ->).
    rewrite <- (Sd d), (Z0 _ _ _ _ d W1 Hi Ob N1 N0 No).
    f_equal. change (qn 0) with 0%Qc. ring.
Qed.

(** And for quantities: the amount of a component in each damage state in a realization. *)
Theorem C117_quantities : forall n n' i j dropzero sample sample' blocks ds ds' q q' p qty nb s x,
  well_formed n ds -> well_formed n sample -> well_formed n' ds' -> well_formed n' sample' ->
  match blocks with Some l => NoDup (map fst l) | None => True end ->
  prepare_dmg_quantities n dropzero sample blocks ds = Ok q ->
  prepare_dmg_quantities n' dropzero sample' blocks ds' = Ok q' ->
  (i < n)%nat -> (j < n')%nat -> same_row ds i ds' j -> same_row sample i sample' j ->
  In (p, qty) sample -> blocks_of blocks p nb ->
  amount_in q (p, s) i x <-> amount_in q' (p, s) j x.
Proof.
  intros n n' i j dropzero sample sample' blocks ds ds' q q' p qty nb s x W1 W2 W1' W2' Nb H H' Hi Hj Sd Ss Hq Bl.
  assert (Q : exists qty', In (p, qty') sample' /\ nth i qty 0%Qc = nth j qty' 0%Qc).
  { clear -Ss Hq. induction Ss as [|[k c] [k' c'] f f' [E N] _ IH]; [easy|]. cbn in E, N. subst k'.
    destruct Hq as [F|F].
    - injection F as -> ->. exists c'. split; [now left|now apply nth_same].
    - destruct (IH F) as (y & Hy & Ey). exists y. split; [now right|exact Ey]. }
  destruct Q as (qty' & Hq' & Eq).
  split; intros A.
  - exact (@amount_transfer n n' i j dropzero sample sample' blocks blocks ds ds' q q' p qty qty' nb s x W1 W2 W1' W2' Nb Nb H H' Hi Hj (fun d => blocks_with_same p (Z.eqb d) Sd) Hq Hq' Eq Bl Bl A).
  - exact (@amount_transfer n' n j i dropzero sample' sample blocks blocks ds' ds q' q p qty' qty nb s x W1' W2' W1 W2 Nb Nb H' H Hj Hi (fun d => eq_sym (blocks_with_same p (Z.eqb d) Sd)) Hq' Hq (eq_sym Eq) Bl Bl A).
Qed.
Print Assumptions C117_quantities.

(** Two components over two realizations, and the second of these on its own. *)
Definition rl_sample : frame := [(["PFA"; "1"; "1"], [Some (qc 1); Some (qc 5)])].
Definition rl_sample' : frame := [(["PFA"; "1"; "1"], [Some (qc 5)])].
Definition rl_cap : cap_frame := [((demoA, "1"), [Some (qc 2); Some (qc 1)]); ((demoA, "2"), [Some (qc 8); Some (qc 9)]);
  ((demoB, "1"), [None; Some (qc 1)]); ((demoB, "2"), [Some (qc 3); Some (qc 2)])].
Definition rl_lsds : lsds_frame :=
  [((demoA, "1"), [1%Z; 1%Z]); ((demoA, "2"), [2%Z; 2%Z]); ((demoB, "1"), [1%Z; 1%Z]); ((demoB, "2"), [3%Z; 2%Z])].
Definition rl_run sample cap lsds :=
  obtain_ds_sample no_terms no_eval ob_params [("PFA", qc 0)] [("ALL", qc 1)] sample cap lsds [] ["A"; "B"] 10 ob_cb.
Example C117_states_hypotheses_met :
  (forall c vars vars' v, same_row vars 1 vars' 0 -> no_eval c vars = Ok v -> exists v', no_eval c vars' = Ok v' /\ nth_error v 1 = nth_error v' 0) /\
  (1 < n_rows rl_sample)%nat /\ (0 < n_rows rl_sample')%nat /\ rows (n_rows rl_sample) rl_sample /\ rows (n_rows rl_sample') rl_sample' /\
  same_row rl_sample 1 rl_sample' 0 /\ same_row rl_cap 1 ob_cap 0 /\ same_row rl_lsds 1 ob_lsds 0 /\
  rl_run rl_sample rl_cap rl_lsds = Ok [(demoA, [0%Z; 1%Z]); (demoB, [0%Z; 2%Z])] /\
  rl_run rl_sample' ob_cap ob_lsds = Ok [(demoA, [1%Z]); (demoB, [2%Z])].
Proof.
  split; [intros c vars vars' v _ H; discriminate H|]. split; [vm_compute; lia|]. split; [vm_compute; lia|].
  split; [repeat constructor|]. split; [repeat constructor|]. split; [repeat constructor|]. split; [repeat constructor|]. split; [repeat constructor|].
  split; vm_compute; reflexivity.
Qed.
Example C117_process_hypotheses_met :
  same_row [(demoA, [0%Z; 1%Z]); (demoB, [0%Z; 2%Z])] 1 [(demoA, [1%Z]); (demoB, [2%Z])] 0 /\
  perform_dmg_process (fun l => l) [("1_A", [("DS1", One "B_NA")])] [(demoA, [0%Z; 1%Z]); (demoB, [0%Z; 2%Z])] =
    Ok ([(demoA, [0%Z; 1%Z]); (demoB, [0%Z; (-1)%Z])], []).
Proof. split; [repeat constructor|vm_compute; reflexivity]. Qed.

(** A quantity of 6 in two blocks.  In the first realization one is in state 1; in the second none
    is.  The second one on its own has no column for state 1, with the other it has one: a
    column's presence depends on the other realizations, the amount in it does not. *)
Definition rl_b1 := Blk (PG "A" "1" "1" "0") "1".
Definition rl_b2 := Blk (PG "A" "1" "1" "0") "2".
Definition rl_ds : ds_frame := [(rl_b1, [1%Z; 2%Z]); (rl_b2, [2%Z; 2%Z])].
Definition rl_ds' : ds_frame := [(rl_b1, [2%Z]); (rl_b2, [2%Z])].
Theorem C117_columns_refuted : exists n n' i j dropzero sample sample' blocks ds ds' q q' k col,
  well_formed n ds /\ well_formed n sample /\ well_formed n' ds' /\ well_formed n' sample' /\
  prepare_dmg_quantities n dropzero sample blocks ds = Ok q /\
  prepare_dmg_quantities n' dropzero sample' blocks ds' = Ok q' /\
  (i < n)%nat /\ (j < n')%nat /\ same_row ds i ds' j /\ same_row sample i sample' j /\
  In (k, col) q /\ nth_error col i = Some (Some 0%Qc) /\ ~ In k (map fst q').
Proof.
  exists 2%nat, 1%nat, 1%nat, 0%nat, true, [(b_of rl_b1, [qc 6; qc 6])], [(b_of rl_b1, [qc 6])], (Some [(b_of rl_b1, 2%Z)]), rl_ds, rl_ds'.
  do 2 eexists. exists (b_of rl_b1, "1"). eexists.
  assert (Nb : NoDup [rl_b1; rl_b2]) by (repeat constructor; cbn; intuition discriminate).
  split; [split; [exact Nb|repeat constructor]|]. split; [split; [repeat constructor; cbn; easy|repeat constructor]|].
  split; [split; [exact Nb|repeat constructor]|]. split; [split; [repeat constructor; cbn; easy|repeat constructor]|].
  split; [vm_compute; reflexivity|]. split; [vm_compute; reflexivity|].
  split; [lia|]. split; [lia|]. split; [repeat constructor|]. split; [repeat constructor|].
  split; [left; reflexivity|]. split; [vm_compute; f_equal; f_equal; now apply Qc_is_canon|]. cbn. intuition discriminate.
Qed.
Print Assumptions C117_columns_refuted.
