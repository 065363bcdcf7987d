(** Theorems about single realizations of the loss calculation (C118). *)
From Verif Require Import Prelude PreludeFacts Pandas PandasFacts M_Base M_FileIO M_Damage M_Demand M_Agg M_LossDS M_LossLF S_LossDS S_Realizations P_Realizations P_LossRealizations T_Damage T_Demand T_LossDS T_LossLF T_Agg.
Set Implicit Arguments.
Local Open Scope string_scope.
Local Open Scope list_scope.

(** * C118 The losses of a realization follow from that realization alone *)

(** Damage states: row [i] of one run and row [j] of another have the same damage and the same
    deviations.  If the one run succeeds so does the other, and these rows have the same losses. *)
Theorem C118_states : forall n n' i j e s (draws' : string -> qkey -> nat -> Qc) dmg dmg' t,
  (i < n)%nat -> (j < n')%nat -> same_row dmg i dmg' j -> (forall dv k, draws s dv k i = draws' dv k j) ->
  calculate_ds n e s dmg = Ok (Some t) ->
  exists t', calculate_ds n' e {| dvs := dvs s; loss_map := loss_map s; missing := missing s; params := params s; draws := draws' |} dmg' = Ok (Some t') /\
    same_row t i t' j.
Proof.
  intros n n' i j e s d' dmg dmg' t Hi Hj Hd Hw H.
  set (s' := {| dvs := dvs s; loss_map := loss_map s; missing := missing s; params := params s; draws := d' |}).
  assert (Hij : (i < n)%nat <-> (j < n')%nat) by tauto.
  pose proof (@calculate_ds_step n n' i j Hij e s s' dmg dmg' eq_refl eq_refl eq_refl eq_refl Hw Hd) as B. rewrite H in B.
  destruct (calculate_ds n' e s' dmg') as [[t'|]|]; cbn in B; try easy. eauto.
Qed.
Print Assumptions C118_states.

(** Loss functions: if both runs succeed, the rows have the same losses.  Functions used in
    demand expressions work row by row. *)
Theorem C118_functions : forall i j e s (draws' : string -> pg -> nat -> nat -> num) sample sample' quantities quantities' blocks t t',
  (forall c vars vars' v, same_row vars i vars' j -> eval e c vars = Ok v -> exists v', eval e c vars' = Ok v' /\ nth_error v i = nth_error v' j) ->
  (i < n_rows sample)%nat -> (j < n_rows sample')%nat -> rows (n_rows sample) sample -> rows (n_rows sample') sample' ->
  same_row sample i sample' j -> same_row quantities i quantities' j -> (forall dv p b, f_draws s dv p b i = draws' dv p b j) ->
  calculate_lf e s sample quantities blocks = Ok (Some t) ->
  calculate_lf e {| f_dvs := f_dvs s; f_map := f_map s; f_missing := f_missing s; f_rows := f_rows s; f_draws := draws' |} sample' quantities' blocks = Ok (Some t') ->
  same_row t i t' j.
Proof.
  intros i j e s d' sample sample' q q' blocks t t' He Hi Hj Hr Hr' Hs Hq Hw H H'.
  set (s' := {| f_dvs := f_dvs s; f_map := f_map s; f_missing := f_missing s; f_rows := f_rows s; f_draws := d' |}) in *.
  assert (Hij : (i < n_rows sample)%nat <-> (j < n_rows sample')%nat) by tauto.
  pose proof (@calculate_lf_step _ _ i j Hij e s s' sample sample' q q' eq_refl eq_refl eq_refl eq_refl Hw He Hi Hj Hs Hr Hr' eq_refl eq_refl Hq blocks) as B.
  rewrite H, H' in B. exact B.
Qed.
Print Assumptions C118_functions.

(** Aggregation: if both runs succeed, the rows have the same totals and the same flags.  There
    are losses of at least one kind, and the replacement consequences of the rows are the same. *)
Theorem C118_aggregate : forall i j order raise dvs dv_units factors values values' ratios combos st st' agg exc agg' exc' st1 st1',
  same_row values i values' j ->
  match ds_sample st, ds_sample st' with Some t, Some t' => same_row t i t' j | None, None => True | _, _ => False end ->
  match lf_sample st, lf_sample st' with Some t, Some t' => same_row t i t' j | None, None => True | _, _ => False end ->
  (ds_sample st <> None \/ lf_sample st <> None) ->
  aggregate_losses order raise dvs dv_units factors (Some (values, ratios)) combos st = (Ok (agg, Some exc), st1) ->
  aggregate_losses order raise dvs dv_units factors (Some (values', ratios)) combos st' = (Ok (agg', Some exc'), st1') ->
  same_row agg i agg' j /\ same_row exc i exc' j.
Proof.
  intros i j order ru dvl du fs v v' ra combos st st' agg exc agg' exc' st1 st1' Hv Hd Hl Ne H H'.
  assert (C : same_config i j (Some (v, ra)) (Some (v', ra))) by (split; [exact Hv|reflexivity]).
  pose proof (@aggregate_losses_agree order ru dvl du fs _ _ combos st st' i j C Hd Hl Ne) as B. rewrite H, H' in B. exact B.
Qed.
Print Assumptions C118_aggregate.

(** The same without replacement thresholds. *)
Theorem C118_aggregate_plain : forall i j order raise dvs dv_units factors combos st st' agg exc agg' exc' st1 st1',
  match ds_sample st, ds_sample st' with Some t, Some t' => same_row t i t' j | None, None => True | _, _ => False end ->
  match lf_sample st, lf_sample st' with Some t, Some t' => same_row t i t' j | None, None => True | _, _ => False end ->
  (ds_sample st <> None \/ lf_sample st <> None) ->
  aggregate_losses order raise dvs dv_units factors None combos st = (Ok (agg, exc), st1) ->
  aggregate_losses order raise dvs dv_units factors None combos st' = (Ok (agg', exc'), st1') ->
  same_row agg i agg' j.
Proof.
  intros i j order ru dvl du fs combos st st' agg exc agg' exc' st1 st1' Hd Hl Ne H H'.
  pose proof (@aggregate_losses_agree order ru dvl du fs None None combos st st' i j I Hd Hl Ne) as B. rewrite H, H' in B. exact (proj1 B).
Qed.
Print Assumptions C118_aggregate_plain.

(** ** Concrete cases *)

(** The second of two realizations, and the same one on its own. *)
Definition lr_dmg : qty_frame := map (fun c => (fst c, skipn 1 (snd c))) demo_dmg.
Example C118_states_hypotheses_met :
  same_row demo_dmg 1 lr_dmg 0 /\ (forall dv k, draws demo_setup dv k 1 = (fun _ _ _ => qn 9) dv k 0%nat) /\
  calculate_ds 2 (Eco true false) demo_setup demo_dmg =
  Ok (Some [(loss_label "Cost" "cA" (A1 "1"), [Some (qc 90); Some (qc 270)]);
            (loss_label "Cost" "cA" A2, [Some (qc 180); Some (qc 0)]);
            (loss_label "Cost" "cB" B2, [Some (qc 0); Some (qc 45)])]) /\
  calculate_ds 1 (Eco true false) {| dvs := dvs demo_setup; loss_map := loss_map demo_setup; missing := missing demo_setup;
    params := params demo_setup; draws := fun _ _ _ => qn 9 |} lr_dmg =
  Ok (Some [(loss_label "Cost" "cA" (A1 "1"), [Some (qc 270)]); (loss_label "Cost" "cA" A2, [Some (qc 0)]);
            (loss_label "Cost" "cB" B2, [Some (qc 45)])]).
Proof. split; [repeat constructor|]. split; [reflexivity|]. split; qcompute. Qed.

Definition lr_drifts : frame := [(["PID"; "1"; "1"], [Some (qc (2#100))])].
Definition lr_quantities : list (pg * list num) := [(PG "B" "1" "1" "0", [Some (qc 6)])].
Example C118_functions_hypotheses_met :
  (forall c vars vars' v, same_row vars 1 vars' 0 -> eval ex_env c vars = Ok v -> exists v', eval ex_env c vars' = Ok v' /\ nth_error v 1 = nth_error v' 0) /\
  rows (n_rows ex_drifts) ex_drifts /\ rows (n_rows lr_drifts) lr_drifts /\
  same_row ex_drifts 1 lr_drifts 0 /\ same_row ex_quantities 1 lr_quantities 0 /\
  calculate_lf ex_env (ex_setup ex_random) ex_drifts ex_quantities [(PG "B" "1" "1" "0", 3%Z)] =
    Ok (Some [((LK "Cost" "B" "B" "1" "1" "0", None), [Some (qc 80); Some (qc 240); Some (qc 0)])]) /\
  calculate_lf ex_env {| f_dvs := ["Cost"; "Time"]; f_map := [("B", "B"); ("C", "C")]; f_missing := [("B", "Time")]; f_rows := Some [(("B", "Cost"), ex_random)];
    f_draws := fun dv p b i => ex_draws dv p b (S i) |} lr_drifts lr_quantities [(PG "B" "1" "1" "0", 3%Z)] =
    Ok (Some [((LK "Cost" "B" "B" "1" "1" "0", None), [Some (qc 240)])]).
Proof.
  split; [intros c vars vars' v _ H; discriminate H|]. split; [repeat constructor|]. split; [repeat constructor|]. split; [repeat constructor|]. split; [repeat constructor|].
  split; qcompute.
Qed.

(** Replacement is triggered in the first realization only. *)
Definition lr_st : loss_state :=
  {| ds_sample := match ds_sample agg_st with Some t => Some (map (fun c => (fst c, firstn 1 (snd c))) t) | None => None end;
     lf_sample := match lf_sample agg_st with Some t => Some (map (fun c => (fst c, firstn 1 (snd c))) t) | None => None end |}.
Definition lr_values : dict (list Qc) := [("Cost", [qc 200]); ("Time", [qc 50])].
Example C118_aggregate_hypotheses_met : exists st1 st1',
  same_row thr_values 0 lr_values 0 /\
  match ds_sample agg_st, ds_sample lr_st with Some t, Some t' => same_row t 0 t' 0 | None, None => True | _, _ => False end /\
  match lf_sample agg_st, lf_sample lr_st with Some t, Some t' => same_row t 0 t' 0 | None, None => True | _, _ => False end /\
  aggregate_losses same_order false ["Cost"; "Time"] agg_units agg_factors (Some (thr_values, thr_ratios)) None agg_st =
    (Ok ([(["repair_cost"; ""], [Some (qc 200); Some (qc 7)]); (["repair_time"; "parallel"], [Some (qc 25); Some (qc 2)]);
          (["repair_time"; "sequential"], [Some (qc 25); Some (qc (5#2))])], Some [("Cost", [true; false]); ("Time", [false; false])]), st1) /\
  aggregate_losses same_order false ["Cost"; "Time"] agg_units agg_factors (Some (lr_values, thr_ratios)) None lr_st =
    (Ok ([(["repair_cost"; ""], [Some (qc 200)]); (["repair_time"; "parallel"], [Some (qc 25)]);
          (["repair_time"; "sequential"], [Some (qc 25)])], Some [("Cost", [true]); ("Time", [false])]), st1').
Proof.
  eexists. eexists. split; [repeat constructor|]. split; [repeat constructor|]. split; [repeat constructor|]. split; qcompute.
Qed.

(** ** What another realization can change *)

(** A demand outside the range of a loss function in one realization leaves all of them without
    losses. *)
Theorem C118_functions_refuted : exists i j e s sample sample' quantities quantities' blocks t x,
  (i < n_rows sample)%nat /\ (j < n_rows sample')%nat /\ rows (n_rows sample) sample /\ rows (n_rows sample') sample' /\
  same_row sample i sample' j /\ rows (n_rows sample) quantities /\ rows (n_rows sample') quantities' /\ same_row quantities i quantities' j /\
  calculate_lf e s sample quantities blocks = Ok (Some t) /\ calculate_lf e s sample' quantities' blocks = Err x.
Proof.
  exists 0%nat, 0%nat, ex_env, (ex_setup ex_row), lr_drifts, [(["PID"; "1"; "1"], [Some (qc (2#100)); Some (qc (6#100))])],
    lr_quantities, [(PG "B" "1" "1" "0", [Some (qc 6); Some (qc 6)])], [(PG "B" "1" "1" "0", 3%Z)].
  eexists. exists ValueError. split; [vm_compute; lia|]. split; [vm_compute; lia|].
  split; [repeat constructor|]. split; [repeat constructor|]. split; [repeat constructor|]. split; [repeat constructor|]. split; [repeat constructor|]. split; [repeat constructor|].
  split; qcompute.
Qed.
Print Assumptions C118_functions_refuted.

(** An undamaged realization has losses of zero beside a damaged one and no losses on its own: the
    table of losses is removed. *)
Theorem C118_states_refuted : exists n n' i j e s dmg dmg' t,
  (i < n)%nat /\ (j < n')%nat /\ rows n dmg /\ rows n' dmg' /\ (forall k x, amount_in dmg k i x <-> amount_in dmg' k j x) /\
  calculate_ds n e s dmg = Ok (Some t) /\ calculate_ds n' e s dmg' = Ok None.
Proof.
  exists 2%nat, 1%nat, 1%nat, 0%nat, (Eco true false), demo_setup, [(A0, [Some (qc 6); Some (qc 4)]); (A1 "1", [Some (qc 1); None])], [(A0, [Some (qc 4)])].
  eexists. split; [lia|]. split; [lia|]. split; [repeat constructor|]. split; [repeat constructor|]. split.
  - intros k x. unfold amount_in. split.
    + intros [(col & [E|[E|[]]] & H)|[-> No]].
      * injection E as <- <-. left. eexists. split; [now left|exact H].
      * injection E as <- <-. discriminate H.
      * right. split; [reflexivity|]. intros col [E|[]]. injection E as <- <-. exact (No _ (or_introl eq_refl)).
    + intros [(col & [E|[]] & H)|[-> No]].
      * injection E as <- <-. left. eexists. split; [now left|exact H].
      * right. split; [reflexivity|]. intros col [E|[E|[]]]; injection E as <- <-; [exact (No _ (or_introl eq_refl))|reflexivity].
  - split; qcompute.
Qed.
Print Assumptions C118_states_refuted.
