(** Theorems about repeated loss calculations (C119). *)
From Verif Require Import Prelude PreludeFacts Pandas PandasFacts M_Base M_FileIO M_Damage M_Demand M_Agg M_LossDS M_LossLF M_LossCalc S_LossDS S_LossCalc T_Damage T_Demand T_LossDS T_LossLF T_Agg.
Set Implicit Arguments.
Local Open Scope string_scope.
Local Open Scope list_scope.

(** * C119 The stored losses are those of the last calculation *)

Lemma add_blocks_facts m : m_groups (add_blocks m) = m_groups m /\ block_counts (add_blocks m) = block_counts m /\
  blocks_of_groups (add_blocks m) = combine (m_groups m) (block_counts m).
Proof. unfold add_blocks, block_counts, blocks_of_groups. destruct m as [g [b|]]; cbn; auto. Qed.

(** No sequence of calculations changes the groups of the asset or their numbers of blocks. *)
Theorem C119_blocks : forall xs st m, exists m',
  snd (calculate_all xs (st, Some m)) = Some m' /\ m_groups m' = m_groups m /\ block_counts m' = block_counts m.
Proof.
  induction xs as [|x xs IH]; intros st m; cbn; [eauto|].
  assert (K : exists m', snd (snd (calculate_losses x (st, Some m))) = Some m' /\ m_groups m' = m_groups m /\ block_counts m' = block_counts m).
  { unfold calculate_losses. cbn [snd fst]. destruct (in_demand x) as [d|]; [|now exists m]. destruct (in_quantities x) as [q|]; [|now exists m].
    destruct (ds_part x d st) as [st1|]; [|now exists m]. unfold lf_part. destruct (f_rows (in_lf x)); [|now exists m].
    destruct (add_blocks_facts m) as (A & B & _). destruct (calculate_lf _ _ _ _ _) as [[t|]|]; cbn [snd]; exists (add_blocks m); auto. }
  destruct K as (m1 & E & A & B). destruct (snd (calculate_losses x (st, Some m))) as [st1 o]. cbn in E. subst o.
  destruct (IH st1 m1) as (m2 & E2 & A2 & B2). exists m2. split; [exact E2|]. split; congruence.
Qed.
Print Assumptions C119_blocks.

Lemma lf_groups_driven s rows groups counts : f_rows s = Some rows -> driven s groups -> List.length counts = List.length groups ->
  lf_groups s rows (combine groups counts) <> [].
Proof.
  intros E (rows' & p & c & r & dv & E' & Hp & Hc & Hr & Hrc & Hdv & Hm) L. assert (rows' = rows) as -> by congruence.
  destruct (In_nth _ _ p Hp) as (k & Hk & Hn).
  assert (Hin : In (p, nth k counts 0%Z) (combine groups counts)).
  { rewrite <- Hn. rewrite <- combine_nth by congruence. apply nth_In. rewrite combine_length. lia. }
  intros F. assert (G : In ((p, dv), nth k counts 0%Z) (lf_groups s rows (combine groups counts))); [|rewrite F in G; exact G].
  apply in_flat_map. exists (p, nth k counts 0%Z). split.
  - apply filter_In. split; [exact Hin|]. unfold lf_driven. cbn [fst]. rewrite Hc. apply existsb_exists. exists r. split; [exact Hr|]. rewrite Hrc. apply String.eqb_refl.
  - cbn [fst snd]. apply (in_map (fun dv => ((p, dv), nth k counts 0%Z))). apply filter_In. split; [exact Hdv|]. apply negb_true_iff.
    destruct (existsb (pair_eqb (cmp p, dv)) (f_missing s)) eqn:X; [|reflexivity]. exfalso. apply Hm.
    apply existsb_exists in X as ([a b] & Hx & Hab). unfold pair_eqb in Hab. cbn in Hab. apply andb_true_iff in Hab as [H1 H2].
    apply String.eqb_eq in H1, H2. now subst a b.
Qed.

(** With a damage sample and at least one loss function in use, the losses after a successful
    calculation do not depend on any calculation before it. *)
Theorem C119_history_partial : forall xs ys x st st' m,
  in_damage x <> None -> driven (in_lf x) (m_groups m) -> List.length (block_counts m) = List.length (m_groups m) ->
  fst (calculate_losses x (calculate_all xs (st, Some m))) = Ok tt ->
  fst (calculate_losses x (calculate_all ys (st', Some m))) = Ok tt /\
  fst (snd (calculate_losses x (calculate_all ys (st', Some m)))) = fst (snd (calculate_losses x (calculate_all xs (st, Some m)))).
Proof.
  intros xs ys x st st' m Hd Hv Hl.
  destruct (C119_blocks xs st m) as (m1 & E1 & G1 & B1). destruct (C119_blocks ys st' m) as (m2 & E2 & G2 & B2).
  destruct (calculate_all xs (st, Some m)) as [s1 o1], (calculate_all ys (st', Some m)) as [s2 o2]. cbn in E1, E2. subst o1 o2.
  unfold calculate_losses. cbn [fst snd]. destruct (in_demand x) as [d|]; [|discriminate]. destruct (in_quantities x) as [q|]; [|discriminate].
  unfold ds_part. destruct (in_damage x) as [[n dmg]|]; [|now destruct Hd]. destruct (negb _); [discriminate|].
  destruct (calculate_ds n (in_eco x) (in_ds x) dmg) as [t|]; [|discriminate]. cbn [bind]. unfold lf_part.
  pose proof Hv as (rows & p & c & r & dv & Er & _). rewrite Er. destruct (add_blocks_facts m1) as (_ & _ & C1). destruct (add_blocks_facts m2) as (_ & _ & C2).
  rewrite C1, C2, G1, G2, B1, B2. destruct (calculate_lf (in_env x) (in_lf x) d q (combine (m_groups m) (block_counts m))) as [[tt'|]|] eqn:El; cbn; [auto| |discriminate].
  exfalso. unfold calculate_lf in El. rewrite Er in El. pose proof (@lf_groups_driven _ _ _ _ Er Hv Hl) as Ng.
  destruct (lf_groups (in_lf x) rows (combine (m_groups m) (block_counts m))) as [|g gs]; [easy|].
  destruct (lf_demands _ _ _ _); [|discriminate]. cbn [bind] in El. destruct (lf_medians _ _ _ _ _ _ _); [|discriminate]. cbn [bind] in El.
  destruct (mapM _ _); discriminate.
Qed.
Print Assumptions C119_history_partial.

(** The losses from damage states are always those of the last calculation with a damage sample. *)
Theorem C119_states : forall xs ys x st st' m n dmg, in_damage x = Some (n, dmg) ->
  fst (calculate_losses x (calculate_all xs (st, Some m))) = Ok tt ->
  fst (calculate_losses x (calculate_all ys (st', Some m))) = Ok tt /\
  ds_sample (fst (snd (calculate_losses x (calculate_all xs (st, Some m))))) = ds_sample (fst (snd (calculate_losses x (calculate_all ys (st', Some m))))) /\
  calculate_ds n (in_eco x) (in_ds x) dmg = Ok (ds_sample (fst (snd (calculate_losses x (calculate_all xs (st, Some m)))))).
Proof.
  intros xs ys x st st' m n dmg Hd.
  destruct (C119_blocks xs st m) as (m1 & E1 & G1 & B1). destruct (C119_blocks ys st' m) as (m2 & E2 & G2 & B2).
  destruct (calculate_all xs (st, Some m)) as [s1 o1], (calculate_all ys (st', Some m)) as [s2 o2]. cbn in E1, E2. subst o1 o2.
  unfold calculate_losses. cbn [fst snd]. destruct (in_demand x) as [d|]; [|discriminate]. destruct (in_quantities x) as [q|]; [|discriminate].
  unfold ds_part. rewrite Hd. destruct (negb _); [discriminate|].
  destruct (calculate_ds n (in_eco x) (in_ds x) dmg) as [t|]; [|discriminate]. cbn [bind]. unfold lf_part.
  destruct (f_rows (in_lf x)) as [rows|]; [|cbn; auto]. destruct (add_blocks_facts m1) as (_ & _ & C1). destruct (add_blocks_facts m2) as (_ & _ & C2).
  rewrite C1, C2, G1, G2, B1, B2. destruct (calculate_lf _ _ _ _ _) as [[tt'|]|]; cbn; [auto|auto|discriminate].
Qed.
Print Assumptions C119_states.

(** The losses from loss functions come from one calculation of the history or were there before. *)
Theorem C119_functions : forall xs st m t, lf_sample (fst (calculate_all xs (st, Some m))) = Some t ->
  lf_sample st = Some t \/
  exists a x b d q, xs = a ++ x :: b /\ in_demand x = Some d /\ in_quantities x = Some q /\
    calculate_lf (in_env x) (in_lf x) d q (combine (m_groups m) (block_counts m)) = Ok (Some t).
Proof.
  induction xs as [|x xs IH] using rev_ind; intros st m t H; [now left|].
  unfold calculate_all in *. rewrite fold_left_app in H. cbn [fold_left] in H. fold (calculate_all xs (st, Some m)) in *.
  destruct (C119_blocks xs st m) as (m1 & E1 & G1 & B1).
  assert (K : lf_sample (fst (calculate_all xs (st, Some m))) = Some t \/
    exists d q, in_demand x = Some d /\ in_quantities x = Some q /\ calculate_lf (in_env x) (in_lf x) d q (combine (m_groups m) (block_counts m)) = Ok (Some t)).
  { destruct (calculate_all xs (st, Some m)) as [s1 o1]. cbn in E1. subst o1. unfold calculate_losses in H. cbn [fst snd] in *.
    destruct (in_demand x) as [d|]; [|now left]. destruct (in_quantities x) as [q|]; [|now left].
    assert (P : forall s, ds_part x d s1 = Ok s -> lf_sample s = lf_sample s1).
    { unfold ds_part. intros s. destruct (in_damage x) as [[n dmg]|]; [|congruence]. destruct (negb _); [discriminate|].
      destruct (calculate_ds _ _ _ _); [|discriminate]. cbn. now intros [= <-]. }
    destruct (ds_part x d s1) as [s2|]; [|now left]. specialize (P _ eq_refl). unfold lf_part in H.
    destruct (f_rows (in_lf x)); [|left; cbn in H; congruence]. destruct (add_blocks_facts m1) as (_ & _ & C1). rewrite C1, G1, B1 in H.
    destruct (calculate_lf (in_env x) (in_lf x) d q (combine (m_groups m) (block_counts m))) as [[t'|]|] eqn:El; cbn in H; try (left; congruence).
    right. exists d, q. split; [reflexivity|]. split; [reflexivity|]. rewrite El. now rewrite H. }
  destruct K as [K|(d & q & K)].
  - destruct (IH _ _ _ K) as [L|(a & y & b & d & q & -> & R)]; [now left|]. right. exists a, y, (b ++ [x]), d, q. split; [|exact R]. now rewrite <- app_assoc.
  - right. exists xs, x, [], d, q. now split.
Qed.
Print Assumptions C119_functions.

(** A damage sample of another size than the demand sample is rejected; nothing changes. *)
Theorem C119_sizes : forall x cs d q n dmg, in_demand x = Some d -> in_quantities x = Some q -> snd cs <> None ->
  in_damage x = Some (n, dmg) -> n_rows d <> n -> calculate_losses x cs = (Err ValueError, cs).
Proof.
  intros x [st [m|]] d q n dmg Hd Hq Hc Hn Hs; [|easy]. unfold calculate_losses. cbn [fst snd]. rewrite Hd, Hq. unfold ds_part. rewrite Hn.
  apply Nat.eqb_neq in Hs. now rewrite Hs.
Qed.
Print Assumptions C119_sizes.

(** ** Concrete cases *)

(** Component B with a loss function, component A with damage states. *)
Definition lc_draws (dv : string) (p : pg) (b i : nat) : num := Some 1%Qc.
Definition lc_lf : lf_setup := ex_setup ex_row.
Definition lc_sample : frame := [(["PID"; "1"; "1"], [Some (qc (1#100)); Some (qc (2#100))])].
Definition lc_quantities : list (pg * list num) := [(PG "B" "1" "1" "0", [Some (qc 3); Some (qc 6)])].
Definition lc_undamaged : qty_frame := [(A0, [Some (qc 6); Some (qc 4)])].
Definition lc_inputs (lf : lf_setup) (sample : frame) (dmg : qty_frame) : loss_inputs :=
  {| in_eco := Eco true false; in_ds := demo_setup; in_env := ex_env; in_lf := lf; in_demand := Some sample;
     in_quantities := Some lc_quantities; in_damage := Some (2%nat, dmg) |}.
Definition lc_marginals : marginals := {| m_groups := [PG "B" "1" "1" "0"]; m_blocks := None |}.
Definition lc_empty : loss_state := {| ds_sample := None; lf_sample := None |}.
Definition lc_losses : ds_table :=
  [(loss_label "Cost" "cA" (A1 "1"), [Some (qc 90); Some (qc 270)]); (loss_label "Cost" "cA" A2, [Some (qc 180); Some (qc 0)]);
   (loss_label "Cost" "cB" B2, [Some (qc 0); Some (qc 45)])].
Definition lc_functions : lf_table := [((LK "Cost" "B" "B" "1" "1" "0", None), [Some (qc 60); Some (qc 240)])].

Example C119_history_hypotheses_met :
  in_damage (lc_inputs lc_lf lc_sample demo_dmg) <> None /\ driven lc_lf (m_groups lc_marginals) /\
  List.length (block_counts lc_marginals) = List.length (m_groups lc_marginals) /\
  calculate_losses (lc_inputs lc_lf lc_sample demo_dmg) (calculate_all [lc_inputs lc_lf lc_sample lc_undamaged] (lc_empty, Some lc_marginals)) =
    (Ok tt, ({| ds_sample := Some lc_losses; lf_sample := Some lc_functions |}, Some {| m_groups := [PG "B" "1" "1" "0"]; m_blocks := Some [1%Z] |})).
Proof.
  split; [discriminate|]. split; [|split; [reflexivity|qcompute]].
  exists [(("B", "Cost"), ex_row)], (PG "B" "1" "1" "0"), "B", (("B", "Cost"), ex_row), "Cost".
  split; [reflexivity|]. split; [now left|]. split; [reflexivity|]. split; [now left|]. split; [reflexivity|]. split; [now left|]. cbn. intuition discriminate.
Qed.

(** A loss map without component B: nothing is lost any more, but the losses of B stay and are
    aggregated (the message in the log says that they are removed). *)
Definition lc_lf' : lf_setup :=
  {| f_dvs := ["Cost"; "Time"]; f_map := [("C", "C")]; f_missing := []; f_rows := Some [(("B", "Cost"), ex_row)]; f_draws := ex_draws |}.
Theorem C119_stale_refuted : exists x x' m cs t v,
  f_rows (in_lf x') = f_rows (in_lf x) /\
  fst (calculate_losses x (lc_empty, Some m)) = Ok tt /\
  calculate_losses x' (snd (calculate_losses x (lc_empty, Some m))) = (Ok tt, cs) /\
  dget "B" (f_map (in_lf x')) = None /\ ds_sample (fst cs) = None /\
  lf_sample (fst cs) = Some t /\ Exists (fun c => k_dmg (fst (fst c)) = "B" /\ exists i q, nth_error (snd c) i = Some (Some q) /\ (0 < q)%Qc) t /\
  fst (aggregate_losses same_order true ["Cost"; "Time"] agg_units agg_factors None None (fst cs)) = Ok ([(["repair_cost"], v)], Some []) /\
  calculate_losses x' (lc_empty, Some m) = (Ok tt, (lc_empty, snd cs)).
Proof.
  exists (lc_inputs lc_lf lc_sample lc_undamaged), (lc_inputs lc_lf' lc_sample lc_undamaged), lc_marginals.
  eexists ({| ds_sample := None; lf_sample := Some lc_functions |}, Some {| m_groups := [PG "B" "1" "1" "0"]; m_blocks := Some [1%Z] |}), lc_functions, [Some (qc 60); Some (qc 240)].
  split; [reflexivity|]. split; [vm_compute; reflexivity|]. split; [qcompute|]. split; [reflexivity|]. split; [reflexivity|]. split; [reflexivity|].
  split; [|split; [qcompute|vm_compute; reflexivity]].
  constructor. split; [reflexivity|]. exists 0%nat, (qc 60). split; [reflexivity|]. vm_compute. reflexivity.
Qed.
Print Assumptions C119_stale_refuted.

(** A calculation that fails at a loss function has already replaced the losses from damage
    states: the stored losses are of two calculations. *)
Theorem C119_failed_refuted : exists x x' m st st' e t t',
  calculate_losses x (lc_empty, Some m) = (Ok tt, (st, Some (add_blocks m))) /\
  calculate_losses x' (st, Some (add_blocks m)) = (Err e, (st', Some (add_blocks m))) /\
  ds_sample st = None /\ ds_sample st' = Some t /\ lf_sample st = Some t' /\ lf_sample st' = Some t'.
Proof.
  exists (lc_inputs lc_lf lc_sample lc_undamaged), (lc_inputs lc_lf [(["PID"; "1"; "1"], [Some (qc (1#100)); Some (qc (6#100))])] demo_dmg), lc_marginals.
  exists {| ds_sample := None; lf_sample := Some lc_functions |}, {| ds_sample := Some lc_losses; lf_sample := Some lc_functions |}, ValueError, lc_losses, lc_functions.
  split; [qcompute|]. split; [qcompute|]. now repeat split.
Qed.
Print Assumptions C119_failed_refuted.

Example C119_sizes_hypotheses_met :
  n_rows ex_drifts <> 2%nat /\ calculate_losses (lc_inputs lc_lf ex_drifts demo_dmg) (lc_empty, Some lc_marginals) = (Err ValueError, (lc_empty, Some lc_marginals)).
Proof. split; [vm_compute; lia|vm_compute; reflexivity]. Qed.
