(** Property theorems about the decision variables of a run (C126). *)
From Verif Require Import Prelude PreludeFacts Pandas PandasFacts M_Base M_FileIO M_Agg M_Assess M_Dv S_Agg S_Dv P_Agg P_Comb T_Demand T_Obtain T_Agg.
Local Open Scope string_scope.
Local Open Scope list_scope.

Lemma object_found cfg vars : variables_object cfg vars ->
  get (Some cfg) "DL/Losses/Repair/DecisionVariables" (JBool false) = JDict vars.
Proof.
  intros (d & (dl & losses & H1 & H2 & H3) & H4). unfold entry in *. unfold get.
  change (path_keys "DL/Losses/Repair/DecisionVariables") with ["DL"; "Losses"; "Repair"; "DecisionVariables"].
  cbn [get_keys]. now rewrite H1, H2, H3, H4.
Qed.
Lemma object_unique cfg v1 v2 : variables_object cfg v1 -> variables_object cfg v2 -> v1 = v2.
Proof. intros H1 H2. apply object_found in H1, H2. congruence. Qed.
Lemma parsed_object cfg vars : variables_object cfg vars ->
  parse_decision_variables cfg = Ok (map fst (filter (fun e => is_true (snd e)) vars)).
Proof. intros H. unfold parse_decision_variables. now rewrite (object_found _ _ H). Qed.
Lemma chosen_asked cfg vars dv : variables_object cfg vars ->
  (In dv (map fst (filter (fun e => is_true (snd e)) vars)) <-> asks cfg dv).
Proof.
  intros H. rewrite in_map_iff. split.
  - intros ((k & v) & <- & Hi). apply filter_In in Hi as [Hi Ht]. cbn in *. exists vars. split; [easy|].
    destruct v as [| |[]| | | |]; try discriminate Ht. easy.
  - intros (vars' & H' & Hi). rewrite (object_unique _ _ _ H' H) in Hi. exists (dv, JBool true). split; [easy|].
    apply filter_In. easy.
Qed.
Lemma activated cfg vars current dv : variables_object cfg vars -> asks cfg dv ->
  activate current (map fst (filter (fun e => is_true (snd e)) vars)) = map fst (filter (fun e => is_true (snd e)) vars).
Proof.
  intros H Ha. apply (chosen_asked _ _ _ H) in Ha. unfold activate.
  now destruct (map fst (filter (fun e => is_true (snd e)) vars)).
Qed.
Lemma filtered_nodup {V} (p : string * V -> bool) l : NoDup (map fst l) -> NoDup (map fst (filter p l)).
Proof.
  induction l as [|[k v] l IH]; cbn; [easy|]. intros H. inversion H as [|? ? Hn Hd]; subst.
  destruct (p (k, v)); cbn; [|now apply IH]. constructor; [|now apply IH].
  intros Hi. apply Hn. apply in_map_iff in Hi as (e & <- & Hi). apply filter_In in Hi as [Hi _]. now apply in_map.
Qed.
Lemma no_combination_found cfg m table : no_combination cfg -> combinations cfg m table = Ok None.
Proof.
  intros (d & (dl & losses & H1 & H2 & H3) & H4). unfold entry in *. unfold combinations, get.
  change (path_keys "DL/Losses/Repair/CombinationMethod") with ["DL"; "Losses"; "Repair"; "CombinationMethod"].
  cbn [get_keys]. rewrite H1, H2, H3. now destruct H4 as [-> | ->].
Qed.

Lemma run_found order raise units factors table losses current cfg m vars dv : variables_object cfg vars -> asks cfg dv ->
  let dvs := map fst (filter (fun e => is_true (snd e)) vars) in
  run_losses order raise units factors table losses current cfg m =
  (let* st := losses dvs in
   let* combos := combinations cfg m table in
   fst (aggregate_losses order raise dvs units factors None combos st), dvs).
Proof.
  intros Hv Ha dvs. unfold run_losses. rewrite (parsed_object _ _ Hv). cbv zeta.
  now rewrite (activated _ _ _ _ Hv Ha).
Qed.
Lemma aggregated_partial order raise units factors cfg dvs st n agg exc :
  (forall dv, In dv dvs <-> asks cfg dv) -> NoDup dvs -> (forall dv, asks cfg dv -> capitalised dv) -> sized n st ->
  fst (aggregate_losses order raise dvs units factors None None st) = Ok (agg, exc) ->
  forall name sub i v,
  reports agg name sub i v <->
   exists dv f, asks cfg dv /\ occurs dv st /\ dv_factor units factors dv f /\ (i < n)%nat /\
     ((dv <> "Time" /\ name = ("repair_" ++ lower dv)%string /\ sub = "" /\ (v * f)%Qc = total (dv_is dv) st i) \/
      (dv = "Time" /\ name = "repair_time" /\
        ((sub = "sequential" /\ (v * f)%Qc = total (dv_is dv) st i) \/
         (sub = "parallel" /\ largest_location st dv i (v * f)%Qc)))).
Proof.
  intros Hin Hn Hcap Hs H name sub i v.
  assert (Hf : Forall capitalised dvs) by (apply Forall_forall; intros dv Hd; now apply Hcap, Hin).
  assert (E : exists st', aggregate_losses order raise dvs units factors None None st = (Ok (agg, exc), st')).
  { exists (snd (aggregate_losses order raise dvs units factors None None st)). rewrite <- H. apply surjective_pairing. }
  destruct E as (st' & E).
  pose proof (C42_partial _ _ _ _ _ _ _ _ _ _ Hs Hn Hf E name sub i v) as K.
  split.
  - intros Hr. apply K in Hr as (dv & f & Hd & Hr). exists dv, f. split; [now apply Hin|exact Hr].
  - intros (dv & f & Hd & Hr). apply K. exists dv, f. split; [now apply Hin|exact Hr].
Qed.

(** ** C126 *)

(** If the configuration asks for at least one variable, exactly those it asks for are active,
    in the calculation and afterwards, whatever was active before. *)
Theorem C126_active : forall order raise units factors table losses current cfg m,
  (exists dv, asks cfg dv) ->
  exists dvs, (forall dv, In dv dvs <-> asks cfg dv) /\
    snd (run_losses order raise units factors table losses current cfg m) = dvs /\
    (no_combination cfg -> fst (run_losses order raise units factors table losses current cfg m) =
       (let* st := losses dvs in fst (aggregate_losses order raise dvs units factors None None st))).
Proof.
  intros order raise units factors table losses current cfg m (dv & Ha).
  destruct Ha as (vars & Hv & Hi). pose proof (ex_intro _ vars (conj Hv Hi) : asks cfg dv) as Ha.
  exists (map fst (filter (fun e => is_true (snd e)) vars)). split; [intros dv'; now apply chosen_asked|].
  unfold run_losses. rewrite (parsed_object _ _ Hv). cbn [snd fst]. rewrite (activated _ _ _ _ Hv Ha). split; [easy|].
  intros Hc. rewrite (no_combination_found _ _ _ Hc). now destruct (losses _).
Qed.
Print Assumptions C126_active.

(** The totals reported are those of the variables asked for, of which losses were calculated,
    and no others. *)
Theorem C126_reported_partial : forall order raise units factors table losses current cfg vars m st n agg exc,
  variables_object cfg vars -> NoDup (map fst vars) -> (exists dv, asks cfg dv) ->
  (forall dv, asks cfg dv -> capitalised dv) -> no_combination cfg ->
  (forall dvs, (forall dv, In dv dvs <-> asks cfg dv) -> losses dvs = Ok st) -> sized n st ->
  fst (run_losses order raise units factors table losses current cfg m) = Ok (agg, exc) ->
  forall name sub i v,
  reports agg name sub i v <->
   exists dv f, asks cfg dv /\ occurs dv st /\ dv_factor units factors dv f /\ (i < n)%nat /\
     ((dv <> "Time" /\ name = ("repair_" ++ lower dv)%string /\ sub = "" /\ (v * f)%Qc = total (dv_is dv) st i) \/
      (dv = "Time" /\ name = "repair_time" /\
        ((sub = "sequential" /\ (v * f)%Qc = total (dv_is dv) st i) \/
         (sub = "parallel" /\ largest_location st dv i (v * f)%Qc)))).
Proof.
  intros order raise units factors table losses current cfg vars m st n agg exc Hv Hn (dv0 & Ha) Hcap Hc Hl Hs H.
  rewrite (run_found order raise units factors table losses current cfg m vars dv0 Hv Ha) in H.
  pose proof (fun dv => chosen_asked _ _ dv Hv) as Hin.
  rewrite (no_combination_found _ _ _ Hc), (Hl _ Hin) in H.
  exact (aggregated_partial order raise units factors cfg _ st n agg exc Hin (filtered_nodup _ _ Hn) Hcap Hs H).
Qed.
Print Assumptions C126_reported_partial.

(** Such a run succeeds if losses of a variable asked for were calculated and the units of these
    variables are known. *)
Theorem C126_accepted : forall order raise units factors table losses current cfg vars m st n,
  variables_object cfg vars -> NoDup (map fst vars) ->
  (forall dv, asks cfg dv -> capitalised dv) -> no_combination cfg ->
  (forall dvs, (forall dv, In dv dvs <-> asks cfg dv) -> losses dvs = Ok st) -> sized n st ->
  (exists dv, asks cfg dv /\ occurs dv st) ->
  (forall dv, asks cfg dv -> occurs dv st -> exists f, dv_factor units factors dv f) ->
  is_ok (fst (run_losses order raise units factors table losses current cfg m)) = true.
Proof.
  intros order raise units factors table losses current cfg vars m st n Hv Hn Hcap Hc Hl Hs (dv & Ha & Ho) Hf.
  rewrite (run_found order raise units factors table losses current cfg m vars dv Hv Ha).
  pose proof (fun dv => chosen_asked _ _ dv Hv) as Hin.
  rewrite (no_combination_found _ _ _ Hc), (Hl _ Hin).
  apply (C42_accepted order raise _ units factors st n Hs (filtered_nodup _ _ Hn)).
  - apply Forall_forall. intros dv' Hd. now apply Hcap, Hin.
  - exists dv. split; [now apply Hin|exact Ho].
  - intros dv' Hd Ho'. apply Hf; [now apply Hin|exact Ho'].
Qed.
Print Assumptions C126_accepted.

(** Losses of wind and flood are combined for the variable Cost only: a run that asks for
    variables, but not for Cost, and for that combination reports nothing. *)
Theorem C126_combination : forall order raise units factors table losses current cfg d m,
  (exists dv, asks cfg dv) -> ~ asks cfg "Cost" ->
  repair_settings cfg d -> entry d "CombinationMethod" (JStr "Hazus Hurricane") ->
  is_ok (fst (run_losses order raise units factors table losses current cfg m)) = false.
Proof.
  intros order raise units factors table losses current cfg d m (dv & Ha) Hno (dl & ls & H1 & H2 & H3) H4.
  destruct Ha as (vars & Hv & Hi). pose proof (ex_intro _ vars (conj Hv Hi) : asks cfg dv) as Ha.
  unfold run_losses. rewrite (parsed_object _ _ Hv). cbn [fst]. rewrite (activated _ _ _ _ Hv Ha).
  destruct (losses _) as [st|]; [|easy]. cbn [bind].
  unfold entry in *. unfold combinations, get.
  change (path_keys "DL/Losses/Repair/CombinationMethod") with ["DL"; "Losses"; "Repair"; "CombinationMethod"].
  cbn [get_keys]. rewrite H1, H2, H3, H4. cbn [bind combined_components String.eqb]. cbn.
  destruct m as [|[w x] [|[f y] m]]; [easy|easy|]. cbn.
  rewrite <- (chosen_asked _ _ _ Hv) in Hno. unfold aggregate_losses, validate_combinations. cbn [keys map fst existsb].
  match goal with |- context [mem "Cost" ?l] => destruct (mem "Cost" l) eqn:E end; [|easy].
  now apply mem_true in E.
Qed.
Print Assumptions C126_combination.

Definition dv_config (vars : dict json) (rest : dict json) : dict json :=
  [("DL", JDict [("Losses", JDict [("Repair", JDict (("DecisionVariables", JDict vars) :: rest))])])].
Lemma dv_config_object vars rest : variables_object (dv_config vars rest) vars.
Proof. eexists. split; [exists [("Losses", JDict [("Repair", JDict (("DecisionVariables", JDict vars) :: rest))])]; eexists; repeat split|reflexivity]. Qed.
Lemma dv_config_asks vars rest dv : asks (dv_config vars rest) dv <-> In (dv, JBool true) vars.
Proof.
  split.
  - intros (v & Hv & Hi). now rewrite (object_unique _ _ _ (dv_config_object vars rest) Hv).
  - intros Hi. exists vars. split; [apply dv_config_object|easy].
Qed.
Lemma dv_config_plain vars : no_combination (dv_config vars []).
Proof.
  exists [("DecisionVariables", JDict vars)]. split; [|now left].
  exists [("Losses", JDict [("Repair", JDict [("DecisionVariables", JDict vars)])])],
         [("Repair", JDict [("DecisionVariables", JDict vars)])]. easy.
Qed.
Definition only_cost : dict json := [("Cost", JBool true); ("Time", JBool false); ("Carbon", JBool false)].
Definition none_asked : dict json := [("Cost", JBool false); ("Time", JBool false)].
Definition no_matrix : matrix := [].

Example C126_hypotheses_met :
  let cfg := dv_config only_cost [] in
  variables_object cfg only_cost /\ NoDup (map fst only_cost) /\ asks cfg "Cost" /\
  (forall dv, asks cfg dv -> capitalised dv) /\ no_combination cfg /\ sized 2 agg_st /\
  run_losses same_order true agg_units agg_factors no_matrix (fun _ => Ok agg_st) initial_variables cfg [] =
    (Ok ([(["repair_cost"], [Some (qc 115); Some (qc 7)])], Some []), ["Cost"]).
Proof.
  cbv zeta. split; [apply dv_config_object|]. split; [distinct|].
  split; [apply dv_config_asks; now left|]. split.
  { intros dv H. apply dv_config_asks in H. destruct H as [H|[H|[H|[]]]]; inversion H. exact cap_cost. }
  split; [apply dv_config_plain|]. split; [exact agg_sized|]. qcompute.
Qed.
Example C126_combination_hypotheses_met :
  let cfg := dv_config [("Time", JBool true)] [("CombinationMethod", JStr "Hazus Hurricane")] in
  asks cfg "Time" /\ ~ asks cfg "Cost" /\
  fst (run_losses same_order true agg_units agg_factors no_matrix (fun _ => Ok agg_st) initial_variables cfg
         [("W", ["W"]); ("F", ["F"])]) = Err ValueError.
Proof.
  cbv zeta. split; [apply dv_config_asks; now left|]. split; [|reflexivity].
  rewrite dv_config_asks. intros [H|[]]. discriminate H.
Qed.

(** Losses that are not asked for are reported: with every variable set to false, a run
    calculates and reports cost and time. *)
Theorem C126_refuted : ~ (forall order raise units factors table losses cfg vars m agg exc name sub i v,
  variables_object cfg vars -> NoDup (map fst vars) -> no_combination cfg ->
  fst (run_losses order raise units factors table losses initial_variables cfg m) = Ok (agg, exc) ->
  reports agg name sub i v -> exists dv, asks cfg dv).
Proof.
  intros H.
  assert (E : exists agg, fst (run_losses same_order true agg_units agg_factors no_matrix (fun _ => Ok agg_st)
            initial_variables (dv_config none_asked []) []) = Ok (agg, Some []) /\
            reports agg "repair_cost" "" 0 (qc 115)).
  { exists [(["repair_cost"; ""], [Some (qc 115); Some (qc 7)]);
       (["repair_time"; "parallel"], [Some (qc 3); Some (qc 2)]);
       (["repair_time"; "sequential"], [Some (Q2Qc (9 # 2)); Some (Q2Qc (5 # 2))])].
    split; [qcompute|]. do 2 eexists. split; [now left|]. split; [now right|reflexivity]. }
  destruct E as (agg & E & R).
  destruct (H _ _ _ _ _ _ _ none_asked _ _ _ _ _ _ _ (dv_config_object _ _)
              ltac:(distinct) (dv_config_plain _) E R) as (dv & Ha).
  apply dv_config_asks in Ha. destruct Ha as [Ha|[Ha|[]]]; discriminate Ha.
Qed.
Print Assumptions C126_refuted.

(** ** Several calculations of one assessment *)

Lemma found_object cfg vars :
  get (Some cfg) "DL/Losses/Repair/DecisionVariables" (JBool false) = JDict vars -> variables_object cfg vars.
Proof.
  unfold get. change (path_keys "DL/Losses/Repair/DecisionVariables") with ["DL"; "Losses"; "Repair"; "DecisionVariables"].
  cbn [get_keys]. intros H. destruct (dget "DL" cfg) as [[| | | | | |dl]|] eqn:E1; try discriminate H.
  destruct (dget "Losses" dl) as [[| | | | | |ls]|] eqn:E2; try discriminate H.
  destruct (dget "Repair" ls) as [[| | | | | |d]|] eqn:E3; try discriminate H.
  destruct (dget "DecisionVariables" d) as [v|] eqn:E4; try discriminate H. subst v.
  exists d. split; [now exists dl, ls|exact E4].
Qed.
Lemma unasked_parsed cfg : (forall dv, ~ asks cfg dv) ->
  parse_decision_variables cfg = Ok [] \/ exists e, parse_decision_variables cfg = Err e.
Proof.
  intros Hno. unfold parse_decision_variables.
  pose proof (found_object cfg) as K. revert K.
  generalize (get (Some cfg) "DL/Losses/Repair/DecisionVariables" (JBool false)). intros j K.
  destruct j as [| |[]| | | |vars]; try (right; eexists; reflexivity); [now left|].
  specialize (K vars eq_refl). left. f_equal.
  destruct (map fst (filter (fun e => is_true (snd e)) vars)) as [|dv l] eqn:E; [reflexivity|].
  exfalso. apply (Hno dv). apply (chosen_asked _ _ _ K). rewrite E. now left.
Qed.
Lemma run_unasked order raise units factors table losses current cfg m : (forall dv, ~ asks cfg dv) ->
  snd (run_losses order raise units factors table losses current cfg m) = current.
Proof. intros Hno. unfold run_losses. now destruct (unasked_parsed cfg Hno) as [-> | (e & ->)]. Qed.

Lemma history_fold {A B} (step : A -> B -> A) init earlier x later : (forall c y, In y later -> step c y = c) ->
  fold_left step (earlier ++ x :: later) init = step (fold_left step earlier init) x /\ fold_left step later init = init.
Proof.
  intros H. assert (K : forall c, fold_left step later c = c).
  { induction later as [|y l IH]; intros c; [reflexivity|]. cbn [fold_left]. rewrite (H c y) by now left.
    apply IH. intros c' z Hz. apply H. now right. }
  split; [|apply K]. rewrite fold_left_app. cbn [fold_left]. apply K.
Qed.

(** The variables of a calculation that asks for some are those, whatever was calculated
    before.  A calculation that asks for none repeats those of the last one that asked for some,
    and uses Cost and Time if there was none. *)
Theorem C126_history : forall order raise units factors table losses m earlier cfg later,
  Forall (fun c => forall dv, ~ asks c dv) later ->
  ((exists dv, asks cfg dv) ->
     forall dv, In dv (active_after order raise units factors table losses m (earlier ++ cfg :: later)) <-> asks cfg dv) /\
  (active_after order raise units factors table losses m later = ["Cost"; "Time"]).
Proof.
  intros order raise units factors table losses m earlier cfg later Hl.
  destruct (history_fold (fun current c => snd (run_losses order raise units factors table losses current c m))
              initial_variables earlier cfg later) as [E1 E2].
  { intros c y Hy. apply run_unasked. exact (proj1 (Forall_forall _ _) Hl y Hy). }
  split; [|exact E2]. intros Ha dv. unfold active_after. rewrite E1. clear E1 E2. cbv beta.
  generalize (fold_left (fun current c => snd (run_losses order raise units factors table losses current c m)) earlier initial_variables).
  intros current. destruct (C126_active order raise units factors table losses current cfg m Ha) as (dvs & Hin & Hs & _).
  rewrite Hs. apply Hin.
Qed.
Print Assumptions C126_history.

Example C126_history_hypotheses_met :
  let active := active_after same_order true agg_units agg_factors no_matrix (fun _ => Ok agg_st) [] in
  Forall (fun c => forall dv, ~ asks c dv) [dv_config none_asked []] /\
  active [dv_config only_cost []; dv_config none_asked []] = ["Cost"] /\
  active [dv_config none_asked []] = ["Cost"; "Time"].
Proof.
  split; [|split; reflexivity]. constructor; [|constructor]. intros dv Ha. apply dv_config_asks in Ha.
  destruct Ha as [Ha|[Ha|[]]]; discriminate Ha.
Qed.
