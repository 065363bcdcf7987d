(** Properties C45 and C47: tabulated unit consequences and damage-state-based losses. *)
From Verif Require Import Prelude PreludeFacts Pandas M_Base M_Damage M_Agg S_Agg M_LossDS S_LossDS P_Interp P_LossDS T_Demand T_Obtain.
Local Open Scope string_scope.
Local Open Scope list_scope.

(** ** C45 *)

(** The value lies on the curve through the tabulated points, and nothing else does. *)
Theorem C45_on_curve : forall ys xs q v, well_formed_table ys xs ->
  (on_curve ys xs q v <-> v = bounded_multilinear ys xs q).
Proof.
  exact (fun ys xs q v Hw => conj (fun H => on_curve_fun ys xs q v _ Hw H (bounded_multilinear_curve ys xs q Hw))
    (fun E => eq_ind_r (fun v => on_curve ys xs q v) (bounded_multilinear_curve ys xs q Hw) E)).
Qed.
Print Assumptions C45_on_curve.
Theorem C45_tabulated : forall ys xs i, well_formed_table ys xs -> (i < List.length xs)%nat ->
  bounded_multilinear ys xs (nth i xs 0%Qc) = nth i ys 0%Qc.
Proof. exact bounded_multilinear_tabulated. Qed.
Print Assumptions C45_tabulated.
Theorem C45_outside : forall ys xs q, well_formed_table ys xs ->
  ((q <= nth 0 xs 0)%Qc -> bounded_multilinear ys xs q = nth 0 ys 0%Qc) /\
  ((nth (List.length xs - 1) xs 0 <= q)%Qc -> bounded_multilinear ys xs q = nth (List.length xs - 1) ys 0%Qc).
Proof. exact bounded_multilinear_outside. Qed.
Print Assumptions C45_outside.
Theorem C45_bounded : forall ys xs q, well_formed_table ys xs ->
  exists lo hi, In lo ys /\ In hi ys /\ (lo <= bounded_multilinear ys xs q)%Qc /\ (bounded_multilinear ys xs q <= hi)%Qc.
Proof. exact bounded_multilinear_bounded. Qed.
Print Assumptions C45_bounded.
Theorem C45_monotone : forall ys xs q q', well_formed_table ys xs -> not_increasing ys -> (q <= q')%Qc ->
  (bounded_multilinear ys xs q' <= bounded_multilinear ys xs q)%Qc.
Proof. exact bounded_multilinear_monotone. Qed.
Print Assumptions C45_monotone.

Definition demo_ys : list Qc := [qc 100; qc 80; qc 50].
Definition demo_xs : list Qc := [qc 2; qc 4; qc 10].
Ltac nat_cases i Hi := destruct i as [|[|[|i]]]; cbn in Hi; try lia.
Lemma demo_table : well_formed_table demo_ys demo_xs.
Proof. split; [discriminate|]. split; [reflexivity|]. intros i Hi. nat_cases i Hi; now vm_compute. Qed.
Example C45_hypotheses_met :
  well_formed_table demo_ys demo_xs /\ not_increasing demo_ys /\
  map (bounded_multilinear demo_ys demo_xs) [qc 1; qc 2; qc 3; qc 4; qc 7; qc 10; qc 20]
  = [qc 100; qc 100; qc 90; qc 80; qc 65; qc 50; qc 50].
Proof.
  split; [exact demo_table|]. split; [|qcompute]. intros i Hi. nat_cases i Hi; now vm_compute.
Qed.

(** ** C47 *)

(** Losses are calculated for exactly the damaged groups with parameters, once for each. Each is the
    quantity times the unit consequence at the pooled quantity times the draw. *)
Theorem C47_losses : forall n e s dmg t, across_floors e = true -> unique_labels s dmg -> tables_ok s ->
  calculate_ds n e s dmg = Ok (Some t) ->
  (forall label, In label (map fst t) <->
     exists dv consequence k p, label = loss_label dv consequence k /\ calculated s dmg dv consequence k p) /\
  NoDup (map fst t) /\
  forall dv consequence k p q vs, calculated s dmg dv consequence k p -> In (k, q) dmg -> In (loss_label dv consequence k, vs) t ->
    List.length vs = n /\ forall i, (i < n)%nat -> loss_of s (pool_of e k) dmg dv k p i (nth i q None) (nth i vs None).
Proof.
  exact (fun n e s dmg t He Hu Ht H => conj (proj1 (losses_labels n e s dmg t He Hu H)) (conj (proj2 (losses_labels n e s dmg t He Hu H))
    (fun dv c k p q vs Hc Hk Hin => losses_values n e s dmg t dv c k p q vs He Hu Ht H Hc Hk Hin))).
Qed.
Print Assumptions C47_losses.

(** No loss where the quantity is zero or not available. *)
Theorem C47_zero : forall n e s dmg t dv consequence k p q vs i, across_floors e = true -> unique_labels s dmg -> tables_ok s ->
  calculate_ds n e s dmg = Ok (Some t) -> calculated s dmg dv consequence k p -> In (k, q) dmg -> In (loss_label dv consequence k, vs) t ->
  (i < n)%nat -> nth i q None = None \/ nth i q None = Some 0%Qc -> nth i vs None = Some 0%Qc.
Proof.
  intros n e s dmg t dv c k p q vs i He Hu Ht H Hc Hk Hin Hi Hq.
  destruct (losses_values n e s dmg t dv c k p q vs He Hu Ht H Hc Hk Hin) as [_ Hv]. specialize (Hv i Hi). unfold loss_of in Hv.
  destruct Hq as [E|E]; rewrite E in Hv; [exact Hv|]. destruct Hv as (u & _ & ->). f_equal. ring.
Qed.
Print Assumptions C47_zero.

Theorem C47_nonnegative : forall n e s dmg t label vs v, across_floors e = true -> unique_labels s dmg -> tables_ok s ->
  (forall k q, In (k, q) dmg -> List.length q = n) -> nonnegative_inputs s dmg ->
  calculate_ds n e s dmg = Ok (Some t) -> In (label, vs) t -> In v vs -> exists x, v = Some x /\ (0 <= x)%Qc.
Proof. exact losses_nonnegative. Qed.
Print Assumptions C47_nonnegative.

(** The draw of a loss is that of one random variable with the given family and parameters. *)
Theorem C47_scatter : forall s dmg rvs dv consequence k p, unique_labels s dmg -> create_rvs s dmg = Ok rvs ->
  calculated s dmg dv consequence k p -> p_family p <> None ->
  exists r, In r rvs /\ rv_dv r = dv /\ rv_key r = k /\ describes p r /\ In (rv_family r) ["normal"; "lognormal"] /\
            forall r', In r' rvs -> rv_dv r' = dv -> rv_key r' = k -> r' = r.
Proof. exact losses_rv. Qed.
Print Assumptions C47_scatter.

(** There are no losses if and only if nothing is damaged. *)
Theorem C47_undamaged : forall n e s dmg,
  calculate_ds n e s dmg = Ok None <-> dmg <> [] /\ forall k, In k (map fst dmg) -> snd k = "0".
Proof. exact losses_none. Qed.
Print Assumptions C47_undamaged.

(** With the default settings the calculation succeeds for complete parameters. *)
Theorem C47_accepted_partial : forall n s dmg, unique_labels s dmg -> complete_params s dmg -> dash_free s dmg ->
  (exists dv consequence k p, calculated s dmg dv consequence k p) ->
  exists t, calculate_ds n (Eco true false) s dmg = Ok (Some t).
Proof. exact losses_accepted. Qed.
Print Assumptions C47_accepted_partial.

(** Without pooling floors no losses are ever obtained. *)
Theorem C47_floors_refuted : forall n states s dmg t, calculate_ds n (Eco false states) s dmg <> Ok (Some t).
Proof. exact losses_floors. Qed.
Print Assumptions C47_floors_refuted.
(** Nor with a distribution for one damage state of a component and none for another. *)
Theorem C47_mixed_refuted : forall n e s dmg t dv consequence k p k' p', unique_labels s dmg ->
  calculated s dmg dv consequence k p -> calculated s dmg dv consequence k' p' -> cmp (fst k) = cmp (fst k') ->
  p_family p = None -> p_family p' <> None -> calculate_ds n e s dmg <> Ok (Some t).
Proof. exact losses_mixed. Qed.
Print Assumptions C47_mixed_refuted.
(** Nor with a deterministic unit consequence, which is listed among the supported families. *)
Theorem C47_deterministic_refuted : forall n e s dmg t dv consequence k p, unique_labels s dmg -> calculated s dmg dv consequence k p ->
  p_family p = Some "deterministic" -> calculate_ds n e s dmg <> Ok (Some t).
Proof. exact losses_deterministic. Qed.
Print Assumptions C47_deterministic_refuted.

(** Nor with damage states pooled when the parameters define a damage state that is not realized. *)
Theorem C47_unrealized_refuted : forall n s dmg t dv consequence k0 ds p, unique_labels s dmg ->
  In k0 (map fst dmg) -> In dv (dvs s) -> In (cmp (fst k0), consequence) (loss_map s) -> ~ In (consequence, dv) (missing s) ->
  has_params s consequence dv ds p -> p_theta0 p <> None -> ds <> "0" ->
  (forall k, In k (map fst dmg) -> cmp (fst k) = cmp (fst k0) -> snd k <> ds) ->
  calculate_ds n (Eco true true) s dmg <> Ok (Some t).
Proof. exact losses_unrealized. Qed.
Print Assumptions C47_unrealized_refuted.

(** *** A concrete case *)

Definition A1 (d : string) : qkey := (PG "A" "1" d "0", "1").
Definition A2 : qkey := (PG "A" "2" "1" "0", "1").
Definition A0 : qkey := (PG "A" "1" "1" "0", "0").
Definition B2 : qkey := (PG "B" "1" "1" "0", "2").
Definition demo_dmg : qty_frame :=
  [(A0, [Some (qc 6); Some (qc 4)]); (A1 "1", [Some (qc 1); Some (qc 3)]); (A2, [Some (qc 2); None]);
   (B2, [Some (qc 0); Some (qc 5)]); ((PG "collapse" "0" "1" "0", "1"), [Some (qc 0); Some (qc 1)])].
Definition table_params : ds_params := DSP None (Some (Curve demo_ys demo_xs)) None None.
Definition random_params : ds_params := DSP (Some "lognormal") (Some (Scalar (qc 7))) (Some (qc (1 # 2))) None.
Definition demo_params : loss_params :=
  {| lp_states := ["1"; "2"];
     lp_rows := [(("cA", "Cost"), [("1", table_params)]); (("cB", "Cost"), [("1", random_params); ("2", random_params)])] |}.
Definition demo_setup : loss_setup :=
  {| dvs := ["Cost"; "Time"]; loss_map := [("A", "cA"); ("B", "cB")]; missing := [("cA", "Time"); ("cB", "Time")];
     params := Some demo_params; draws := fun _ _ i => qn (8 + i) |}.

Lemma demo_unique : unique_labels demo_setup demo_dmg.
Proof.
  split; [distinct|]. split; [distinct|]. split; [distinct|]. intros lp E. assert (lp = demo_params) as -> by (cbn in E; congruence).
  split; [distinct|]. split; [distinct|]. intros r [<-|[<-|[]]]; distinct.
Qed.
Lemma demo_has consequence dv ds p : has_params demo_setup consequence dv ds p -> p = table_params \/ p = random_params.
Proof.
  intros (lp & row & E & _ & Hr & Hd). assert (lp = demo_params) as -> by (cbn in E; congruence).
  cbn in Hr. destruct Hr as [Hr|[Hr|[]]]; assert (X : forall a b : (string * string) * dict ds_params, a = b -> snd a = snd b) by congruence;
    apply X in Hr; cbn in Hr; subst row; cbn in Hd; intuition congruence.
Qed.
Lemma demo_tables : tables_ok demo_setup.
Proof.
  intros c dv ds p ys xs Hp Hc. destruct (demo_has _ _ _ _ Hp) as [->| ->]; cbn in Hc; [|discriminate Hc].
  assert (ys = demo_ys /\ xs = demo_xs) as [-> ->] by (split; congruence). exact demo_table.
Qed.
Lemma demo_calculated : calculated demo_setup demo_dmg "Cost" "cA" A2 table_params.
Proof.
  split; [cbn; tauto|]. split; [discriminate|]. split; [cbn; tauto|]. split; [cbn; tauto|]. split; [cbn; intuition discriminate|].
  split; [|discriminate]. eexists _, _. split; [reflexivity|]. split; [cbn; tauto|]. split; [left; reflexivity|now left].
Qed.
Lemma demo_calculated_random : calculated demo_setup demo_dmg "Cost" "cB" B2 random_params.
Proof.
  split; [cbn; tauto|]. split; [discriminate|]. split; [cbn; tauto|]. split; [cbn; tauto|]. split; [cbn; intuition discriminate|].
  split; [|discriminate]. eexists _, _. split; [reflexivity|]. split; [cbn; tauto|]. split; [right; left; reflexivity|right; now left].
Qed.

(** The quantities 1 and 2 of component A in damage state 1 are pooled to 3 (unit consequence 90);
    the undamaged units are not. *)
Example C47_hypotheses_met :
  unique_labels demo_setup demo_dmg /\ tables_ok demo_setup /\ nonnegative_inputs demo_setup demo_dmg /\
  complete_params demo_setup demo_dmg /\ dash_free demo_setup demo_dmg /\
  calculate_ds 2 (Eco true false) demo_setup demo_dmg =
  Ok (Some [(loss_label "Cost" "cA" (A1 "1"), [Some (qc 90); Some (qc 270)]);
            (loss_label "Cost" "cA" A2, [Some (qc 180); Some (qc 0)]);
            (loss_label "Cost" "cB" B2, [Some (qc 0); Some (qc 45)])]).
Proof.
  split; [exact demo_unique|]. split; [exact demo_tables|]. split; [|split; [|split]].
  - split; [|split; [|split]].
    + intros k q x Hk Hx. cbn in Hk. repeat (destruct Hk as [Hk|Hk]; [apply (f_equal snd) in Hk; cbn in Hk; subst q; cbn in Hx;
        repeat (destruct Hx as [Hx|Hx]; [first [discriminate Hx|assert (X : forall a b : Qc, Some a = Some b -> b = a) by congruence; apply X in Hx; subst x; now vm_compute]|]); destruct Hx|]).
      destruct Hk.
    + intros dv k i. apply qn_nonneg.
    + intros c dv ds p t0 Hp Hc. destruct (demo_has _ _ _ _ Hp) as [->| ->]; cbn in Hc; [discriminate Hc|].
      assert (t0 = qc 7) as -> by congruence. now vm_compute.
    + intros c dv ds p ys xs Hp Hc. destruct (demo_has _ _ _ _ Hp) as [->| ->]; cbn in Hc; [|discriminate Hc].
      assert (ys = demo_ys) as -> by congruence. repeat constructor; now vm_compute.
  - exists demo_params. split; [reflexivity|]. intros c dv k Hc Hdv Hmi Hk. cbn in Hdv. destruct Hdv as [<-|[<-|[]]].
    + cbn in Hc. destruct Hc as [Hc|[Hc|[]]].
      * assert (c = "cA") as -> by congruence. eexists. split; [now left|]. split.
        -- intros ds p [Hd|[]]. apply (f_equal snd) in Hd. cbn in Hd. subst p. split; [now left|discriminate].
        -- intros ds p ds' p' [Hd|[]] [Hd'|[]]. apply (f_equal snd) in Hd, Hd'. cbn in Hd, Hd'. now subst.
      * assert (c = "cB") as -> by congruence. eexists. split; [right; now left|]. split.
        -- intros ds p [Hd|[Hd|[]]]; apply (f_equal snd) in Hd; cbn in Hd; subst p; (split; [right; now right|discriminate]).
        -- intros ds p ds' p' [Hd|[Hd|[]]] [Hd'|[Hd'|[]]]; apply (f_equal snd) in Hd, Hd'; cbn in Hd, Hd'; now subst.
    + exfalso. apply Hmi. cbn in Hc. destruct Hc as [Hc|[Hc|[]]]; apply (f_equal snd) in Hc; cbn in Hc; subst c; cbn; tauto.
  - split; repeat constructor.
  - qcompute.
Qed.
Example C47_scatter_met :
  calculated demo_setup demo_dmg "Cost" "cA" A2 table_params /\ calculated demo_setup demo_dmg "Cost" "cB" B2 random_params /\
  create_rvs demo_setup demo_dmg = Ok [RV "Cost" B2 "lognormal" [qc 7; qc (1 # 2)]].
Proof. split; [exact demo_calculated|]. split; [exact demo_calculated_random|]. qcompute. Qed.
Example C47_undamaged_met : calculate_ds 2 (Eco true false) demo_setup [(A0, [Some (qc 6); Some (qc 4)])] = Ok None.
Proof. qcompute. Qed.

Definition pooled_dmg : qty_frame := firstn 3 demo_dmg.
Lemma pooled_calculated : calculated demo_setup pooled_dmg "Cost" "cA" A2 table_params /\ unique_labels demo_setup pooled_dmg.
Proof.
  split.
  - destruct demo_calculated as (_ & H). split; [cbn; tauto|exact H].
  - destruct demo_unique as (_ & H). split; [distinct|exact H].
Qed.

(** With damage states pooled the undamaged units count as damaged: the unit consequence is taken at
    the quantity 9 instead of 3. *)
Theorem C47_pooled_states_refuted : exists n s dmg t k q vs i,
  calculate_ds n (Eco true true) s dmg = Ok (Some t) /\ calculated s dmg "Cost" "cA" k table_params /\ In (k, q) dmg /\
  In (loss_label "Cost" "cA" k, vs) t /\ (i < n)%nat /\
  ~ loss_of s (fun k' => same_component k k' && negb (String.eqb (snd k') "0")) dmg "Cost" k table_params i (nth i q None) (nth i vs None).
Proof.
  exists 2%nat, demo_setup, pooled_dmg. eexists. exists A2, [Some (qc 2); None]. eexists. exists 0%nat.
  split; [vm_compute; reflexivity|]. split; [exact (proj1 pooled_calculated)|]. split; [cbn; tauto|].
  split; [right; left; reflexivity|]. split; [lia|]. cbn [nth loss_of]. intros (u & Hu & E).
  assert (Ep : pooled (fun k' => same_component A2 k' && negb (String.eqb (snd k') "0")) pooled_dmg 0 = qc 3) by qcompute.
  rewrite Ep in Hu. inversion Hu as [t0 E1 E2|t0 f E1 E2|ys xs m E1 E2 E3|ys xs m f E1 E2 E3]; subst; try discriminate.
  assert (ys = demo_ys /\ xs = demo_xs) as [-> ->] by (cbn in E1; split; congruence).
  apply (C45_on_curve _ _ _ _ demo_table) in E3. subst.
  vm_compute in E. discriminate E.
Qed.
Print Assumptions C47_pooled_states_refuted.

(** Cases that meet the hypotheses of the refuted claims. *)
Definition mixed_setup (family : option string) : loss_setup :=
  {| dvs := ["Cost"]; loss_map := [("A", "cA")]; missing := [];
     params := Some {| lp_states := ["1"; "2"];
                       lp_rows := [(("cA", "Cost"), [("1", DSP None (Some (Scalar (qc 3))) None None);
                                                     ("2", DSP family (Some (Scalar (qc 7))) (Some (qc 1)) None)])] |};
     draws := fun _ _ _ => qc 1 |}.
Definition mixed_dmg : qty_frame := [(A2, [Some (qc 2)]); ((PG "A" "2" "1" "0", "2"), [Some (qc 3)])].
Example C47_mixed_met :
  calculate_ds 1 (Eco true false) (mixed_setup None) mixed_dmg =
    Ok (Some [(loss_label "Cost" "cA" A2, [Some (qc 6)]); (loss_label "Cost" "cA" (PG "A" "2" "1" "0", "2"), [Some (qc 21)])]) /\
  calculate_ds 1 (Eco true false) (mixed_setup (Some "normal")) mixed_dmg = Err KeyError /\
  calculate_ds 1 (Eco true false) (mixed_setup (Some "deterministic")) mixed_dmg = Err RuntimeError /\
  calculate_ds 1 (Eco true true) (mixed_setup None) (firstn 1 mixed_dmg) = Err KeyError /\
  calculate_ds 1 (Eco false false) (mixed_setup None) mixed_dmg = Err ValueError /\
  calculate_ds 1 (Eco false true) (mixed_setup None) mixed_dmg = Err ValueError.
Proof. repeat split; qcompute. Qed.
