(** Property theorems about the aggregation of losses (C40-C43, C51). *)
From Coq Require Import Sorting.Permutation.
From Verif Require Import Prelude PreludeFacts Pandas PandasFacts M_Base M_FileIO M_Agg S_Agg P_Agg P_Comb T_Demand T_Obtain.
Local Open Scope string_scope.
Local Open Scope list_scope.

(** ** C42 *)

(** Without thresholds and combinations, for decision variables named like Cost, Time, Carbon or
    Energy, the aggregated table reports exactly the totals (in the unit of the decision
    variable); the parallel repair time is the largest total of a location. *)
Theorem C42_partial : forall order raise dvs dv_units factors st n agg exc st',
  sized n st -> NoDup dvs -> Forall capitalised dvs ->
  aggregate_losses order raise dvs dv_units factors None None st = (Ok (agg, exc), st') ->
  forall name sub i v,
  reports agg name sub i v <->
   exists dv f, In dv dvs /\ occurs dv st /\ dv_factor dv_units factors dv f /\ (i < n)%nat /\
     ((dv <> "Time" /\ name = ("repair_" ++ lower dv)%string /\ sub = "" /\ (v * f)%Qc = total (dv_is dv) st i) \/
      (dv = "Time" /\ name = "repair_time" /\
        ((sub = "sequential" /\ (v * f)%Qc = total (dv_is dv) st i) \/
         (sub = "parallel" /\ largest_location st dv i (v * f)%Qc)))).
Proof. exact totals_reported. Qed.
Print Assumptions C42_partial.

(** Parallel repair does not take longer than sequential repair. *)
Theorem C42_parallel_le_sequential : forall order raise dvs dv_units factors st n agg exc st' f i p q,
  sized n st -> NoDup dvs -> Forall capitalised dvs -> nonnegative st ->
  dv_factor dv_units factors "Time" f -> (0 < f)%Qc ->
  aggregate_losses order raise dvs dv_units factors None None st = (Ok (agg, exc), st') ->
  reports agg "repair_time" "parallel" i p -> reports agg "repair_time" "sequential" i q -> (p <= q)%Qc.
Proof.
  intros order raise dvs dv_units factors st n agg exc st' f i p q Hs Hn Hc Hnn (u & Hu & Hf & _) Hpos H Hp Hq.
  apply (totals_reported _ _ _ _ _ _ _ _ _ _ Hs Hn Hc H) in Hp as (dv & f1 & _ & _ & (u1 & Hu1 & Hf1 & _) & _ & Hp).
  apply (totals_reported _ _ _ _ _ _ _ _ _ _ Hs Hn Hc H) in Hq as (dv2 & f2 & _ & _ & (u2 & Hu2 & Hf2 & _) & _ & Hq).
  destruct Hp as [(_ & _ & E & _)|(-> & _ & [[E _]|[_ Hp]])]; try discriminate E.
  destruct Hq as [(_ & _ & E & _)|(-> & _ & [[_ Hq]|[E _]])]; try discriminate E.
  assert (f1 = f) as -> by congruence. assert (f2 = f) as -> by congruence.
  pose proof (largest_le_total st "Time" i _ Hnn Hp) as Hle. rewrite <- Hq in Hle.
  apply (Qcmult_lt_0_le_reg_r _ _ f Hpos Hle).
Qed.
Print Assumptions C42_parallel_le_sequential.

(** The aggregation succeeds when one of the decision variables occurs and the units are known. *)
Theorem C42_accepted : forall order raise dvs dv_units factors st n,
  sized n st -> NoDup dvs -> Forall capitalised dvs ->
  (exists dv, In dv dvs /\ occurs dv st) ->
  (forall dv, In dv dvs -> occurs dv st -> exists f, dv_factor dv_units factors dv f) ->
  is_ok (fst (aggregate_losses order raise dvs dv_units factors None None st)) = true.
Proof. exact totals_accepted. Qed.
Print Assumptions C42_accepted.

(** Two components at two locations, two realizations; one value is not available. *)
Definition k1 (dv : string) : lkey := LK dv "A" "A" "1" "1" "0".
Definition k2 (dv : string) : lkey := LK dv "B" "B" "2" "1" "0".
Definition agg_st : loss_state :=
  {| ds_sample := Some [((k1 "Cost", "1"), [Some (qc 10); None]); ((k1 "Cost", "2"), [Some (qc 5); Some (qc 7)]);
                        ((k1 "Time", "1"), [Some (qc 3); Some (qc 4)]); ((k2 "Time", "1"), [Some (qc 6); Some (qc 1)])];
     lf_sample := Some [((k2 "Cost", None), [Some (qc 100); Some (qc 0)])] |}.
Definition agg_units : dict string := [("Cost", "USD"); ("Time", "worker_day")].
Definition agg_factors : dict Qc := [("USD", 1%Qc); ("worker_day", qc 2)].
Definition same_order (l : list string) : list string := l.

Lemma agg_sized : sized 2 agg_st.
Proof. split; [discriminate|]. repeat constructor. Qed.
Lemma cap_cost : capitalised "Cost".
Proof. exists "C"%char, "ost". split; [easy|]. split; [cbv; lia|]. repeat constructor; cbv; lia. Qed.
Lemma cap_time : capitalised "Time".
Proof. exists "T"%char, "ime". split; [easy|]. split; [cbv; lia|]. repeat constructor; cbv; lia. Qed.
Lemma agg_cap : Forall capitalised ["Cost"; "Time"].
Proof. repeat constructor; [apply cap_cost|apply cap_time]. Qed.

Lemma nonnegative_b st :
  forallb (fun c => forallb (fun o => match o with Some x => Qcleb 0 x | None => true end) (snd c)) (stored_losses st) = true ->
  nonnegative st.
Proof.
  intros H c x Hc Hx. rewrite forallb_forall in H. specialize (H c Hc). rewrite forallb_forall in H. now apply Qcleb_true, (H (Some x)).
Qed.

Example C42_hypotheses_met :
  sized 2 agg_st /\ NoDup ["Cost"; "Time"] /\ Forall capitalised ["Cost"; "Time"] /\ nonnegative agg_st /\
  dv_factor agg_units agg_factors "Time" (qc 2) /\
  fst (aggregate_losses same_order true ["Cost"; "Time"] agg_units agg_factors None None agg_st) =
  Ok ([(["repair_cost"; ""], [Some (qc 115); Some (qc 7)]);
       (["repair_time"; "parallel"], [Some (qc 3); Some (qc 2)]);
       (["repair_time"; "sequential"], [Some (Q2Qc (9 # 2)); Some (Q2Qc (5 # 2))])], Some []).
Proof.
  split; [exact agg_sized|]. split; [distinct|]. split; [exact agg_cap|]. split.
  { apply nonnegative_b. reflexivity. }
  split; [exists "worker_day"; repeat split; discriminate|].
  qcompute.
Qed.

(** The documentation allows any text as a decision variable: for other names than Cost-like ones
    the aggregation fails. *)
Theorem C42_refuted : ~ (forall order raise dvs dv_units factors st n,
  sized n st -> NoDup dvs -> (exists dv, In dv dvs /\ occurs dv st) ->
  (forall dv, In dv dvs -> occurs dv st -> exists f, dv_factor dv_units factors dv f) ->
  is_ok (fst (aggregate_losses order raise dvs dv_units factors None None st)) = true).
Proof.
  intros H. specialize (H same_order true ["myDV"] [("myDV", "USD")] agg_factors
    {| ds_sample := Some [((k1 "myDV", "1"), [Some (qc 10)])]; lf_sample := None |} 1%nat).
  assert (E : is_ok (fst (aggregate_losses same_order true ["myDV"] [("myDV", "USD")] agg_factors None None
     {| ds_sample := Some [((k1 "myDV", "1"), [Some (qc 10)])]; lf_sample := None |})) = false) by reflexivity.
  rewrite H in E; [discriminate E| | | |].
  - split; [discriminate|repeat constructor].
  - distinct.
  - exists "myDV". split; [now left|]. eexists. split; [now left|]. reflexivity.
  - intros dv [<-|[]] _. exists 1%Qc, "USD". repeat split. discriminate.
Qed.
Print Assumptions C42_refuted.

(** ** C41 *)

(** With thresholds: a triggered realization is reported with the replacement value of every
    decision variable, any other one with its total (parallel time: see the next theorem). *)
Theorem C41_partial : forall order raise dvs dv_units factors values ratios st n,
  sized n st -> NoDup dvs -> Forall capitalised dvs -> NoDup (keys values) ->
  (forall c, In c (stored_losses st) -> k_dmg (fst c) <> "threshold_exceedance") ->
  forall agg exc st',
  aggregate_losses order raise dvs dv_units factors (Some (values, ratios)) None st = (Ok (agg, Some exc), st') ->
  forall name sub i v, sub <> "parallel" ->
  (reports agg name sub i v <->
   exists dv f value, In dv dvs /\ dget dv values = Some value /\ dv_factor dv_units factors dv f /\ (i < n)%nat /\
     (if String.eqb dv "Time" then name = "repair_time" /\ sub = "sequential" else name = ("repair_" ++ lower dv)%string /\ sub = "") /\
     ((triggered st values ratios i /\ (v * f)%Qc = nth i value 0%Qc) \/
      (~ triggered st values ratios i /\ (v * f)%Qc = total (dv_is dv) st i))).
Proof. exact thresholds_reported. Qed.
Print Assumptions C41_partial.

Theorem C41_parallel : forall order raise dvs dv_units factors values ratios st n,
  sized n st -> NoDup dvs -> Forall capitalised dvs -> NoDup (keys values) ->
  (forall c, In c (stored_losses st) -> k_dmg (fst c) <> "threshold_exceedance") ->
  forall agg exc st',
  nonnegative st -> (forall dv value, In (dv, value) values -> Forall (fun x => (0 <= x)%Qc) value) ->
  aggregate_losses order raise dvs dv_units factors (Some (values, ratios)) None st = (Ok (agg, Some exc), st') ->
  forall name i v,
  (reports agg name "parallel" i v <->
   exists f value, name = "repair_time" /\ In "Time" dvs /\ dget "Time" values = Some value /\
     dv_factor dv_units factors "Time" f /\ (i < n)%nat /\
     ((triggered st values ratios i /\ (v * f)%Qc = nth i value 0%Qc) \/
      (~ triggered st values ratios i /\ largest_location st "Time" i (v * f)%Qc))).
Proof. exact thresholds_parallel. Qed.
Print Assumptions C41_parallel.

(** The second table returned marks, per decision variable, the realizations that exceed. *)
Theorem C41_flags : forall order raise dvs dv_units factors values ratios st n,
  sized n st -> NoDup (keys values) ->
  (forall c, In c (stored_losses st) -> k_dmg (fst c) <> "threshold_exceedance") ->
  forall agg exc st',
  aggregate_losses order raise dvs dv_units factors (Some (values, ratios)) None st = (Ok (agg, Some exc), st') ->
  keys exc = keys values /\
  forall dv value, In (dv, value) values -> exists b, In (dv, b) exc /\ List.length b = n /\
    forall i, (i < n)%nat -> (nth i b false = true <-> exceeds st ratios dv value i).
Proof. exact thresholds_flags. Qed.
Print Assumptions C41_flags.

(** Accepted when every decision variable of the registry has a ratio and occurs in the sample. *)
Theorem C41_accepted : forall order raise dvs dv_units factors values ratios st n,
  sized n st -> NoDup dvs -> Forall capitalised dvs -> NoDup (keys values) ->
  (forall c, In c (stored_losses st) -> k_dmg (fst c) <> "threshold_exceedance") ->
  dvs <> [] -> (forall dv, In dv dvs -> In dv (keys values)) ->
  (raise = true -> forall dv, In dv (keys values ++ keys ratios) -> In dv dvs) ->
  (forall dv, In dv (keys values) -> In dv (keys ratios) /\ occurs dv st) ->
  (forall dv, In dv dvs -> exists f, dv_factor dv_units factors dv f) ->
  is_ok (fst (aggregate_losses order raise dvs dv_units factors (Some (values, ratios)) None st)) = true.
Proof. exact thresholds_accepted. Qed.
Print Assumptions C41_accepted.

(** Realization 0 exceeds half of the cost of replacement, realization 1 does not. *)
Definition thr_values : dict (list Qc) := [("Cost", [qc 200; qc 200]); ("Time", [qc 50; qc 50])].
Definition thr_ratios : dict Qc := [("Cost", Q2Qc (1 # 2)); ("Time", qc 1)].
Example C41_hypotheses_met :
  sized 2 agg_st /\ NoDup (keys thr_values) /\
  (forall c, In c (stored_losses agg_st) -> k_dmg (fst c) <> "threshold_exceedance") /\
  fst (aggregate_losses same_order true ["Cost"; "Time"] agg_units agg_factors (Some (thr_values, thr_ratios)) None agg_st) =
  Ok ([(["repair_cost"; ""], [Some (qc 200); Some (qc 7)]);
       (["repair_time"; "parallel"], [Some (qc 25); Some (qc 2)]);
       (["repair_time"; "sequential"], [Some (qc 25); Some (Q2Qc (5 # 2))])],
      Some [("Cost", [true; false]); ("Time", [false; false])]) /\
  triggered agg_st thr_values thr_ratios 0.
Proof.
  split; [exact agg_sized|]. split; [distinct|]. split.
  { intros c Hc. cbn in Hc. repeat (destruct Hc as [<-|Hc]; [discriminate|]). destruct Hc. }
  split; [qcompute|].
  exists "Cost", [qc 200; qc 200]. split; [now left|]. split.
  - intros (k & Hk & Hr & Hpos). unfold total in Hpos. rewrite filter_none in Hpos; [discriminate Hpos|].
    intros c Hc. destruct (lkey_eqb k (fst c)) eqn:E; [|easy]. apply lkey_eqb_eq in E. subst k. exfalso.
    cbn in Hc. repeat (destruct Hc as [<-|Hc]; [discriminate Hr|]). destruct Hc.
  - exists (Q2Qc (1 # 2)). split; [reflexivity|]. vm_compute. reflexivity.
Qed.

(** A decision variable without a ratio makes the aggregation fail when a realization has no
    replacement, even though only the replacement values are required to be complete. *)
Theorem C41_ratio_required_refuted : ~ (forall order raise dvs dv_units factors values ratios st n,
  sized n st -> NoDup dvs -> Forall capitalised dvs -> NoDup (keys values) -> dvs <> [] ->
  (forall dv, In dv dvs <-> In dv (keys values)) -> (forall dv, In dv (keys ratios) -> In dv dvs) ->
  (forall dv, In dv dvs -> occurs dv st /\ exists f, dv_factor dv_units factors dv f) ->
  is_ok (fst (aggregate_losses order raise dvs dv_units factors (Some (values, ratios)) None st)) = true).
Proof.
  intros H. specialize (H same_order true ["Cost"; "Time"] agg_units agg_factors thr_values [("Cost", Q2Qc (1 # 2))] agg_st 2%nat).
  assert (E : is_ok (fst (aggregate_losses same_order true ["Cost"; "Time"] agg_units agg_factors
     (Some (thr_values, [("Cost", Q2Qc (1 # 2))])) None agg_st)) = false) by reflexivity.
  assert (true = false); [|discriminate]. rewrite <- E at 1. symmetry.
  apply H; [exact agg_sized|distinct|exact agg_cap|distinct|discriminate|easy| |].
  - intros dv [<-|[]]. now left.
  - intros dv [<-|[<-|[]]].
    + split; [eexists; split; [now left|reflexivity]|]. exists 1%Qc, "USD". repeat split. discriminate.
    + split; [eexists; split; [right; right; now left|reflexivity]|]. exists (qc 2), "worker_day". repeat split. discriminate.
Qed.
Print Assumptions C41_ratio_required_refuted.

(** ** C40 *)

(** What [make_replacement_exclusive] does to the tables it is given: labels, replacement columns
    and realizations without replacement stay, everything else becomes zero.  Missing: its result
    is not what is aggregated ([C40_refuted]). *)
Theorem C40_partial : forall ds lf,
  let (ds', lf') := make_replacement_exclusive ds lf in
  map fst ds' = map fst ds /\
  Forall2 (fun c c' => List.length (snd c') = List.length (snd c) /\
     forall i, (i < List.length (snd c))%nat ->
       (k_loss (fst (fst c)) = "replacement" \/ ~ replaced_in ds i -> nth i (snd c') None = nth i (snd c) None) /\
       (k_loss (fst (fst c)) <> "replacement" -> replaced_in ds i -> nth i (snd c') None = Some 0%Qc)) ds ds' /\
  match lf, lf' with
  | None, None => True
  | Some t, Some t' =>
      map fst t' = map fst t /\
      Forall2 (fun c c' => List.length (snd c') = List.length (snd c) /\
        forall i, (i < List.length (snd c))%nat ->
          (~ replaced_in ds i -> nth i (snd c') None = nth i (snd c) None) /\
          (replaced_in ds i -> nth i (snd c') None = Some 0%Qc)) t t'
  | _, _ => False
  end.
Proof. exact exclusive_spec. Qed.
Print Assumptions C40_partial.

(** A replaced realization in which a repair cost is counted as well. *)
Definition repl_st : loss_state :=
  {| ds_sample := Some [((LK "Cost" "replacement" "collapse" "0" "1" "0", "1"), [Some (qc 1000); Some (qc 0)]);
                        ((k1 "Cost", "1"), [Some (qc 10); Some (qc 10)])]; lf_sample := None |}.
Theorem C40_refuted : ~ (forall order raise dvs dv_units factors st n agg exc st' ds dv f i v,
  sized n st -> NoDup dvs -> Forall capitalised dvs -> ds_sample st = Some ds ->
  dv_factor dv_units factors dv f -> dv <> "Time" -> replaced_in ds i ->
  aggregate_losses order raise dvs dv_units factors None None st = (Ok (agg, exc), st') ->
  reports agg ("repair_" ++ lower dv)%string "" i v ->
  (v * f)%Qc = total (fun k => String.eqb (k_dv k) dv && String.eqb (k_loss k) "replacement") st i).
Proof.
  intros H. specialize (H same_order true ["Cost"] agg_units agg_factors repl_st 2%nat [(["repair_cost"], [Some (qc 1010); Some (qc 10)])] (Some [])
    repl_st [((LK "Cost" "replacement" "collapse" "0" "1" "0", "1"), [Some (qc 1000); Some (qc 0)]);
                        ((k1 "Cost", "1"), [Some (qc 10); Some (qc 10)])] "Cost" 1%Qc 0%nat (qc 1010)).
  assert (E : (qc 1010 * 1)%Qc = total (fun k => String.eqb (k_dv k) "Cost" && String.eqb (k_loss k) "replacement") repl_st 0).
  { apply H.
    - split; [discriminate|repeat constructor].
    - distinct.
    - repeat constructor. apply cap_cost.
    - reflexivity.
    - exists "USD". repeat split. discriminate.
    - discriminate.
    - eexists _, (qc 1000). split; [now left|]. repeat split.
    - qcompute.
    - eexists _, _. split; [now left|]. split; [left; split; reflexivity|]. reflexivity. }
  apply (f_equal (fun q => Qnum (this q))) in E. vm_compute in E. discriminate E.
Qed.
Print Assumptions C40_refuted.
Example C40_hypotheses_met :
  replaced_in [((LK "Cost" "replacement" "collapse" "0" "1" "0", "1"), [Some (qc 1000); Some (qc 0)]); ((k1 "Cost", "1"), [Some (qc 10); Some (qc 10)])] 0 /\
  make_replacement_exclusive [((LK "Cost" "replacement" "collapse" "0" "1" "0", "1"), [Some (qc 1000); Some (qc 0)]);
                              ((k1 "Cost", "1"), [Some (qc 10); Some (qc 10)])] (Some [((k2 "Cost", None), [Some (qc 3); Some (qc 4)])])
  = ([((LK "Cost" "replacement" "collapse" "0" "1" "0", "1"), [Some (qc 1000); Some (qc 0)]); ((k1 "Cost", "1"), [Some (qc 0); Some (qc 10)])],
     Some [((k2 "Cost", None), [Some (qc 0); Some (qc 4)])]).
Proof.
  split; [|qcompute]. eexists _, (qc 1000). split; [now left|]. repeat split.
Qed.

(** ** C43 *)

(** After any sequence of aggregations, with any settings, every aggregation gives the answer it
    would have given at first; the losses are the same, and so is the whole state unless both
    samples exist.  Missing: then the labels of the loss function sample change ([C43_refuted]). *)
Theorem C43_partial : forall cs c st,
  fst (run_call c (after cs st)) = fst (run_call c st) /\
  stored_losses (after cs st) = stored_losses st /\ ds_sample (after cs st) = ds_sample st /\
  (ds_sample st = None \/ lf_sample st = None -> after cs st = st).
Proof.
  intros cs c st. split; [apply run_independent|]. destruct (run_values cs st) as [H1 H2]. split; [exact H1|]. split; [exact H2|].
  apply run_unchanged.
Qed.
Print Assumptions C43_partial.

Theorem C43_refuted : ~ (forall cs st, after cs st = st).
Proof.
  intros H. specialize (H [Call same_order true ["Cost"; "Time"] agg_units agg_factors None None] agg_st).
  apply (f_equal (fun s => option_map (map (fun c => snd (fst c))) (lf_sample s))) in H. cbn in H. discriminate H.
Qed.
Print Assumptions C43_refuted.
Example C43_hypotheses_met : lf_sample repl_st = None /\
  is_ok (fst (run_call (Call same_order true ["Cost"] agg_units agg_factors None None)
     (after [Call same_order true ["Cost"] agg_units agg_factors None None] repl_st))) = true.
Proof. split; reflexivity. Qed.

(** ** C51 *)

(** Proved when Python happens to iterate over the set of names in the order of the table, or the
    table is symmetric, and the two components are the only ones where both occur. *)
Theorem C51_partial : forall order n dv a b m s,
  NoDup (map fst s) ->
  (forall c c', In c s -> In c' s -> k_dmg (fst c) = k_dmg (fst c') -> k_loss (fst c) = k_loss (fst c')) ->
  (forall c, In c s -> k_loss (fst c) <> "combination") ->
  (forall p x, paired s dv a b p -> present s dv x p -> x = a \/ x = b) ->
  order (frozenset [a; b]) = [a; b] \/ (order (frozenset [a; b]) = [b; a] /\ symmetric m) ->
  forall s', apply_loss_combinations order n [(dv, [([a; b], m)])] s = Ok s' ->
  forall k v, In (k, v) s' <->
    (In (k, v) s /\ ~ (k_dv k = dv /\ (k_dmg k = a \/ k_dmg k = b) /\ paired s dv a b (place_of k))) \/
    (exists p, paired s dv a b p /\ k = combination_key dv a b p /\ combined_at n dv a b m s p v).
Proof. exact pair_combined. Qed.
Print Assumptions C51_partial.

(** A combination for a decision variable that is not calculated is rejected; nothing changes. *)
Theorem C51_unknown : forall order raise dvs dv_units factors config combos st dv c,
  In (dv, c) combos -> ~ In dv dvs ->
  exists e, aggregate_losses order raise dvs dv_units factors config (Some combos) st = (Err e, st) /\
    (config = None -> e = ValueError).
Proof.
  intros order raise dvs du fs config combos st dv c Hc Hd. unfold aggregate_losses.
  assert (V : validate_combinations dvs combos = Err ValueError).
  { unfold validate_combinations. replace (existsb (fun x => negb (mem x dvs)) (keys combos)) with true; [reflexivity|].
    symmetry. apply existsb_exists. exists dv. split; [exact (in_map fst _ _ Hc)|]. destruct (mem dv dvs) eqn:E; [|reflexivity].
    exfalso. apply Hd. unfold mem in E. apply existsb_exists in E as (x & Hx & Ex). apply String.eqb_eq in Ex. now subst x. }
  destruct config as [cf|].
  - destruct (validate_thresholds raise dvs cf) as [u|e]; [|exists e; now split]. rewrite V. now exists ValueError.
  - rewrite V. now exists ValueError.
Qed.
Print Assumptions C51_unknown.

(** Wind 1/2 and flood 1; the table of ("wind", "flood") is not symmetric. *)
Definition comb_m : matrix :=
  [[0%Qc; Q2Qc (1 # 2); 1%Qc]; [Q2Qc (1 # 2); Q2Qc (3 # 5); 1%Qc]; [1%Qc; Q2Qc (9 # 10); 1%Qc]].
Definition comb_s : qframe :=
  [(LK "Cost" "W" "wind" "1" "1" "0", [Q2Qc (1 # 2)]); (LK "Cost" "F" "flood" "1" "1" "0", [1%Qc]);
   (LK "Cost" "A" "A" "2" "1" "0", [qc 4])].
Definition by_table (l : list string) : list string := if mem "wind" l && mem "flood" l then ["wind"; "flood"] else l.
Definition comb_at : place := ("1", "1", "0").

Lemma comb_loss : forall c c', In c comb_s -> In c' comb_s -> k_dmg (fst c) = k_dmg (fst c') -> k_loss (fst c) = k_loss (fst c').
Proof. intros c c' [<-|[<-|[<-|[]]]] [<-|[<-|[<-|[]]]] E; cbn in *; congruence. Qed.
Lemma comb_only : forall p x, paired comb_s "Cost" "wind" "flood" p -> present comb_s "Cost" x p -> x = "wind" \/ x = "flood".
Proof.
  intros p x [(c & [<-|[<-|[<-|[]]]] & _ & H1 & H2) _]; try discriminate H1.
  intros (c & [<-|[<-|[<-|[]]]] & _ & H3 & H4); cbn in H3; auto. exfalso. rewrite <- H4 in H2. discriminate H2.
Qed.

Example C51_hypotheses_met :
  NoDup (map fst comb_s) /\
  (forall c c', In c comb_s -> In c' comb_s -> k_dmg (fst c) = k_dmg (fst c') -> k_loss (fst c) = k_loss (fst c')) /\
  (forall c, In c comb_s -> k_loss (fst c) <> "combination") /\
  (forall p x, paired comb_s "Cost" "wind" "flood" p -> present comb_s "Cost" x p -> x = "wind" \/ x = "flood") /\
  by_table (frozenset ["wind"; "flood"]) = ["wind"; "flood"] /\
  apply_loss_combinations by_table 1 [("Cost", [(["wind"; "flood"], comb_m)])] comb_s =
  Ok [(combination_key "Cost" "wind" "flood" comb_at, [1%Qc]); (LK "Cost" "A" "A" "2" "1" "0", [qc 4])].
Proof.
  split; [distinct|]. split; [exact comb_loss|]. split.
  { intros c [<-|[<-|[<-|[]]]]; discriminate. }
  split; [exact comb_only|]. split; [reflexivity|]. qcompute.
Qed.

Example C51_symmetric_met : symmetric [[0%Qc; 1%Qc]; [1%Qc; qc 2]].
Proof.
  split; [reflexivity|]. unfold entry. intros [|[|[|i]]] [|[|[|j]]]; try reflexivity; cbn [nth]; now destruct i || now destruct j.
Qed.

(** In the sorted order the arguments are swapped: 9/10 is reported instead of 1. *)
Theorem C51_refuted : ~ (forall order n dv a b m s,
  (forall l, Permutation (order l) l) ->
  a <> b -> NoDup (map fst s) ->
  (forall c c', In c s -> In c' s -> k_dmg (fst c) = k_dmg (fst c') -> k_loss (fst c) = k_loss (fst c')) ->
  (forall c, In c s -> k_loss (fst c) <> "combination") ->
  (forall p x, paired s dv a b p -> present s dv x p -> x = a \/ x = b) ->
  forall s', apply_loss_combinations order n [(dv, [([a; b], m)])] s = Ok s' ->
  forall p v, In (combination_key dv a b p, v) s' -> combined_at n dv a b m s p v).
Proof.
  intros H. specialize (H same_order 1%nat "Cost" "wind" "flood" comb_m comb_s).
  destruct (H (fun l => Permutation_refl l)) with
    (s' := [(combination_key "Cost" "wind" "flood" comb_at, [Q2Qc (9 # 10)]); (LK "Cost" "A" "A" "2" "1" "0", [qc 4])])
    (p := comb_at) (v := [Q2Qc (9 # 10)]) as (la & lb & va & vb & Ha & Hb & _ & Hi).
  - discriminate.
  - distinct.
  - exact comb_loss.
  - intros c [<-|[<-|[<-|[]]]]; discriminate.
  - exact comb_only.
  - qcompute.
  - now left.
  - specialize (Hi 0%nat (Nat.lt_0_succ 0)).
    assert (va = [Q2Qc (1 # 2)]) as -> by (destruct Ha as [E|[E|[E|[]]]]; [exact (eq_sym (f_equal snd E))|discriminate E|discriminate E]).
    assert (vb = [1%Qc]) as -> by (destruct Hb as [E|[E|[E|[]]]]; [discriminate E|exact (eq_sym (f_equal snd E))|discriminate E]).
    assert (Ht : interpolate comb_m (Q2Qc (1 # 2)) 1%Qc = Ok 1%Qc) by qcompute.
    apply (@interpolate_unique _ _ _ _ _ Ht) in Hi.
    apply (f_equal (fun q => Qnum (this q))) in Hi. vm_compute in Hi. discriminate Hi.
Qed.
Print Assumptions C51_refuted.
Example C51_unknown_hypotheses_met :
  In ("Carbon", [(["wind"; "flood"], comb_m)]) [("Carbon", [(["wind"; "flood"], comb_m)])] /\ ~ In "Carbon" ["Cost"; "Time"] /\
  fst (aggregate_losses by_table true ["Cost"; "Time"] agg_units agg_factors None (Some []) agg_st) <> Err ValueError.
Proof. split; [now left|]. split; [cbn; intuition discriminate|]. vm_compute. discriminate. Qed.
