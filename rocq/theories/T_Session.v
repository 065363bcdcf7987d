(** C111 and C112: repeated calculations with one assessment and the calls of the short interface. *)
From Verif Require Import Prelude PreludeFacts Pandas PandasFacts M_Base M_Params M_Demand M_Session S_Params S_Demand S_Session P_Base P_Params P_Sample P_Session T_Params T_Demand.
Set Implicit Arguments.
Local Open Scope string_scope.
Local Open Scope list_scope.

(** * C111 *)

(** After any sequence of calculations, a component has the parameters of its earliest definition
    since it is in the asset without interruption, in base units; it is missing if there is none. *)
Theorem C111_history : forall e calls last t missing, (forall c s, In c (calls ++ [last]) -> In s (snd c) -> proper s) ->
  damage_history e (calls ++ [last]) = Ok (t, missing) ->
  NoDup (map fst (rows_of t)) /\
  (forall k r, In (k, r) (rows_of t) -> exists i r0, in_force (calls ++ [last]) i k r0 /\ damage_row e r0 r) /\
  (forall i k r0, in_force (calls ++ [last]) i k r0 -> exists r, In (k, r) (rows_of t)) /\
  (forall k, In k missing <-> In k (fst last) /\ forall i r0, ~ in_force (calls ++ [last]) i k r0).
Proof.
  intros e calls last t missing Hp H. destruct (@history_spec _ _ _ _ Hp H) as (Ht & R & C & M). split; [|split; [|split]].
  - destruct t as [t|]; [apply Ht|constructor].
  - intros k r Hr. destruct (R k r Hr) as (i & r0 & F & D). exists i, r0. split; [exact F|now apply damage_row_c_spec].
  - intros i k r0 (K & D & _). exact (C i k r0 K D).
  - intros k. rewrite (M calls last eq_refl k). apply and_iff_compat_l. split.
    + intros Hn i r0 (K & D & _). exact (Hn (C i k r0 K D)).
    + intros Hn (r & Hr). destruct (R k r Hr) as (i & r0 & F & _). exact (Hn i r0 F).
Qed.
Print Assumptions C111_history.

(** A calculation uses its own parameters when no definition of an earlier one is in force for the
    components of its asset: when the previous calculation had none of them, for instance. *)
Theorem C111_new_partial : forall e calls set sources t missing t' missing', (forall c s, In c (calls ++ [(set, sources)]) -> In s (snd c) -> proper s) ->
  (forall k i r0, In k set -> ~ in_force calls i k r0) ->
  damage_history e (calls ++ [(set, sources)]) = Ok (t, missing) -> damage_history e [(set, sources)] = Ok (t', missing') ->
  (forall k, In k (map fst (rows_of t)) <-> In k (map fst (rows_of t'))) /\
  (forall k r r', In (k, r) (rows_of t) -> In (k, r') (rows_of t') -> forall c, at_col r c = at_col r' c) /\
  (forall k, In k missing <-> In k missing').
Proof.
  intros e calls set sources t missing t' missing' Hp Hno H H'.
  assert (Hps : forall s, In s sources -> proper s) by (intros s Hs; apply (Hp (set, sources)); [apply in_or_app; right; now left|exact Hs]).
  unfold damage_history in H. rewrite foldM_snoc in H. destruct (foldM _ _ calls) as [[old m0]|] eqn:E; [|discriminate]. cbn [bind fst snd] in H.
  destruct (@history_spec e calls old m0) as (Ho & R0 & _ & _); [intros c s Hc Hs; apply (Hp c); [apply in_or_app; now left|exact Hs]|exact E|].
  assert (Old : forall k r, In k set -> ~ In (k, r) (rows_of old)). { intros k r Hk Hr. destruct (R0 k r Hr) as (i & r0 & F & _). exact (Hno k i r0 Hk F). }
  cbn in H'. destruct (load_damage e set None sources) as [[x y]|] eqn:E'; [|discriminate]. cbn [bind] in H'. injection H' as <- <-.
  destruct (@load_step _ _ _ _ _ _ Ho Hps H) as (_ & R & C & M). destruct (@load_step _ _ _ _ _ _ (I : one_each None) Hps E') as (_ & R' & C' & M'). cbn [loaded_before app] in R', C'.
  assert (F : forall k r, In k set -> first_definition (loaded_before old ++ sources) k r <-> first_definition sources k r).
  { intros k r Hk. rewrite (@old_definition _ _ _ _ Ho). split; [intros [X|[_ X]]; [now destruct (Old k r Hk)|exact X]|]. intros X. right. split; [intros r'; now apply Old|exact X]. }
  assert (Hkey : forall k, (exists r, In (k, r) (rows_of t)) <-> exists r, In (k, r) (rows_of x)).
  { intros k. split.
    - intros (r & Hr). destruct (R k r Hr) as (r0 & Hf & Hk & Hu & _). apply (C' k r0); [now apply F|exact Hk|exact Hu].
    - intros (r & Hr). destruct (R' k r Hr) as (r0 & Hf & Hk & Hu & _). apply (C k r0); [now apply F|exact Hk|exact Hu]. }
  split; [|split].
  - intros k. rewrite !keys_rows. apply Hkey.
  - intros k r r' Hr Hr'. destruct (R k r Hr) as (r0 & Hf & Hk & _ & Hd). destruct (R' k r' Hr') as (r0' & Hf' & _ & _ & Hd').
    apply (proj1 (F k r0 Hk)) in Hf. rewrite (first_definition_fun String.eqb String.eqb_eq _ _ _ _ Hf' Hf) in Hd'. exact (damage_row_c_fun _ _ _ _ Hd Hd').
  - intros k. rewrite M, M', Hkey. reflexivity.
Qed.
Print Assumptions C111_new_partial.
(** Repeating a calculation uses the same parameters. *)
Theorem C111_again : forall e calls set sources t missing t' missing', (forall c s, In c (calls ++ [(set, sources)]) -> In s (snd c) -> proper s) ->
  damage_history e (calls ++ [(set, sources)]) = Ok (t, missing) -> damage_history e (calls ++ [(set, sources); (set, sources)]) = Ok (t', missing') ->
  (forall k, In k (map fst (rows_of t)) <-> In k (map fst (rows_of t'))) /\
  (forall k r r', In (k, r) (rows_of t) -> In (k, r') (rows_of t') -> forall c, at_col r c = at_col r' c) /\
  (forall k, In k missing <-> In k missing').
Proof.
  intros e calls set sources t missing t' missing' Hp H H'.
  assert (Hps : forall s, In s sources -> proper s) by (intros s Hs; apply (Hp (set, sources)); [apply in_or_app; right; now left|exact Hs]).
  destruct (@history_spec _ _ _ _ Hp H) as (Ht & R0 & C0 & M0). specialize (M0 calls (set, sources) eq_refl).
  change [(set, sources); (set, sources)] with ([(set, sources)] ++ [(set, sources)]) in H'. rewrite app_assoc in H'. unfold damage_history in H, H'. rewrite foldM_snoc, H in H'. cbn [bind fst snd] in H'.
  destruct (@load_step _ _ _ _ _ _ Ht Hps H') as (_ & R & C & M).
  assert (Old : forall k r, In (k, r) (rows_of t) -> In k set /\ usable r /\ at_col r ("Demand", "Unit") = VBlank).
  { intros k r Hr. destruct (R0 k r Hr) as (i & r0 & (K & Df & _) & D). pose proof (defined_bound Df) as B. rewrite app_length in B. cbn in B. destruct Df as (call & _ & _ & U).
    split; [|split; [exact (damage_row_usable D U)|exact (proj1 (proj2 (proj2 D)))]]. apply (K (List.length calls) (set, sources)); [lia|]. rewrite nth_error_app2, Nat.sub_diag by lia. reflexivity. }
  assert (Own : forall k r, In (k, r) (rows_of t') -> exists r0, In (k, r0) (rows_of t) /\ damage_row_c e r0 r).
  { intros k r Hr. destruct (R k r Hr) as (r0 & Hf & Hk & Hu & Hd). apply (@old_definition _ _ _ _ Ht) in Hf as [Hf|[Hno Hf]]; [now exists r0|]. exfalso.
    destruct (C0 (List.length calls) k r0) as (x & Hx); [now apply kept_last|now apply defined_last|]. exact (Hno x Hx). }
  assert (Hkey : forall k, (exists r, In (k, r) (rows_of t)) <-> exists r, In (k, r) (rows_of t')).
  { intros k. split.
    - intros (r & Hr). destruct (Old k r Hr) as (Hk & Hu & _). apply (C k r); [|exact Hk|exact Hu]. apply (@old_definition _ _ _ _ Ht). now left.
    - intros (r & Hr). destruct (Own k r Hr) as (r0 & Hr0 & _). now exists r0. }
  split; [|split].
  - intros k. rewrite !keys_rows. apply Hkey.
  - intros k r r' Hr Hr'. destruct (Own k r' Hr') as (r0 & Hr0 & Hd). assert (r0 = r) as ->.
    { destruct t as [t|]; [|destruct Hr]. destruct Ht as [_ N]. cbn [rows_of] in *. apply (first_definition_fun String.eqb String.eqb_eq [t] k); now apply first_definition_one. }
    intros c. symmetry. exact (@damage_row_c_again e r r' (proj2 (proj2 (Old k r Hr))) Hd c).
  - intros k. rewrite M0, M, Hkey. reflexivity.
Qed.
Print Assumptions C111_again.

Example C111_hypotheses_met : (forall c s, In c ([(["A"], [dmg_a])] ++ [(["C"], [dmg_b])]) -> In s (snd c) -> proper s) /\
  (forall k i r0, In k ["C"] -> ~ in_force [(["A"], [dmg_a])] i k r0) /\
  (exists t, damage_history ex_penv ([(["A"], [dmg_a])] ++ [(["C"], [dmg_b])]) = Ok (Some t, []) /\ map fst (p_rows t) = ["C"]) /\
  (exists t, damage_history ex_penv [(["C"], [dmg_b])] = Ok (Some t, [])) /\
  (exists t, damage_history ex_penv ([(["A"], [dmg_a])] ++ [(["C"], [dmg_b]); (["C"], [dmg_b])]) = Ok (Some t, [])).
Proof.
  split; [|split; [|split; [|split]]].
  - intros c s Hc Hs. cbn in Hc. destruct Hc as [<-|[<-|[]]]; revert s Hs; cbn [snd]; proper_tables.
  - intros k i r0 [<-|[]] (K & D & _). pose proof (defined_bound D) as B. cbn in B. assert (i = 0%nat) as -> by lia. specialize (K 0%nat (["A"], [dmg_a]) (le_n 0) eq_refl). cbn in K. destruct K as [K|[]]. discriminate K.
  - eexists. split; [vm_compute; reflexivity|reflexivity].
  - eexists. vm_compute. reflexivity.
  - eexists. vm_compute. reflexivity.
Qed.

(** A second calculation for the same component with other parameters uses those of the first. *)
Theorem C111_damage_refuted : exists e set first second t t' r r', (forall s, In s [first; second] -> proper s) /\
  damage_history e [(set, [first]); (set, [second])] = Ok (Some t, []) /\ damage_history e [(set, [second])] = Ok (Some t', []) /\
  In ("A", r) (p_rows t) /\ In ("A", r') (p_rows t') /\
  at_col r ("LS1", "Family") = VText "lognormal" /\ at_col r' ("LS1", "Family") = VText "normal" /\
  at_col r ("LS1", "Theta_0") = VNum (qc (981#100)) /\ at_col r' ("LS1", "Theta_0") = VNum (qc 7).
Proof.
  exists ex_penv, ["A"], dmg_a, dmg_b. do 4 eexists. split; [proper_tables|]. split; [vm_compute; reflexivity|]. split; [vm_compute; reflexivity|]. split; [left; reflexivity|]. split; [left; reflexivity|].
  split; [reflexivity|]. split; [reflexivity|]. split; qcompute.
Qed.
Print Assumptions C111_damage_refuted.
(** Repeating a calculation of losses multiplies the parameters by the unit again. *)
Theorem C111_loss_refuted : exists e call out out' r r', (forall s, In s (snd call) -> proper s) /\
  loss_history e [call] = Ok out /\ loss_history e [call; call] = Ok out' /\
  In (("A", "Cost"), r) (rows_of (l_ds (o_pars out))) /\ In (("A", "Cost"), r') (rows_of (l_ds (o_pars out'))) /\
  at_col r ("DS1", "Theta_0") = VNum (qc 5000) /\ at_col r' ("DS1", "Theta_0") = VNum (qc 5000000).
Proof.
  exists ex_penv, (["Cost"], ["A"], [tab ds_cols1 [(("A", "Cost"), [VText "kUSD"; VText "1 EA"; VBlank; VNum (qc 5); VBlank])]]). do 4 eexists. split; [cbn [snd]; proper_tables|].
  split; [vm_compute; reflexivity|]. split; [vm_compute; reflexivity|]. split; [left; reflexivity|]. split; [left; reflexivity|]. split; qcompute.
Qed.
Print Assumptions C111_loss_refuted.

(** * C112 *)

(** Without residual drifts, the collapse demand is added to the sample with its unit, and every other
    demand stays; without a place in the configuration, it is at location 0 and direction 1. *)
Theorem C112_collapse : forall V (est : V -> V -> list (list num) -> list (list num)) factors m d c f col,
  good_demand factors m d -> has_char " " (c_label c) = false -> c_label c <> "ERROR" -> dget (c_unit c) factors = Some f -> f <> 0%Qc ->
  (c_value c = VArray col /\ List.length col = m \/ exists x, c_value c = VScalar x /\ col = repeat x m) ->
  exists d' new, add_demands est factors None (Some c) d = Ok d' /\ good_demand factors m d' /\
    In ([c_label c; "0"; "1"], new) (d_sample d') /\ Forall2 (in_base f) col new /\
    (forall l vs, l <> [c_label c; "0"; "1"] -> (In (l, vs) (d_sample d') <-> In (l, vs) (d_sample d))) /\
    (forall l u, In (l, u) (d_units d') <-> (l = [c_label c; "0"; "1"] /\ u = c_unit c) \/ (l <> [c_label c; "0"; "1"] /\ In (l, u) (d_units d) /\ In l (map fst (d_sample d)))).
Proof.
  intros V est factors m d c f col Hg Hl He Hu Hf Hv. cbn [add_demands bind]. apply C68_expand with (f := f); auto. split; [reflexivity|]. repeat constructor. exact Hl.
Qed.
Print Assumptions C112_collapse.
(** Residual drifts are added as by the separate call when the configuration has 'parameters' and
    'method'. *)
Theorem C112_residual : forall V (est : V -> V -> list (list num) -> list (list num)) factors c p m d,
  dget "parameters" c = Some p -> dget "method" c = Some m ->
  add_demands est factors (Some c) None d = estimate_RID_and_adjust_sample (est p m) factors d.
Proof.
  intros V est factors c p m d Hp Hm. unfold add_demands. destruct c as [|x c]; [discriminate|]. rewrite Hp, Hm. now destruct (estimate_RID_and_adjust_sample (est p m) factors d).
Qed.
Print Assumptions C112_residual.
(** Residual drifts and a collapse demand are added one after the other; without a configuration, or
    with an empty one for the residual drifts, nothing is added. *)
Theorem C112_nothing : forall V (est : V -> V -> list (list num) -> list (list num)) factors residual collapse d,
  add_demands est factors None None d = Ok d /\ add_demands est factors (Some []) None d = Ok d /\
  (forall d', add_demands est factors residual None d = Ok d' -> add_demands est factors residual collapse d = add_demands est factors None collapse d').
Proof.
  intros V est factors residual collapse d. split; [reflexivity|]. split; [reflexivity|]. intros d' H. unfold add_demands in *.
  match type of H with bind ?x _ = _ => destruct x as [d1|] end; cbn [bind] in *; [|discriminate]. now injection H as ->.
Qed.
Print Assumptions C112_nothing.
(** The place in the configuration is ignored: another place has no collapse demand. *)
Theorem C112_place_refuted : forall V (est : V -> V -> list (list num) -> list (list num)) factors residual c location direction d,
  add_demands est factors residual (Some (CC (c_label c) (c_value c) (c_unit c) location direction)) d = add_demands est factors residual (Some c) d /\
  (forall m f col d', good_demand factors m d -> has_char " " (c_label c) = false -> c_label c <> "ERROR" -> dget (c_unit c) factors = Some f -> f <> 0%Qc ->
     (c_value c = VArray col /\ List.length col = m \/ exists x, c_value c = VScalar x /\ col = repeat x m) ->
     forall l dir, c_location c = Some l -> c_direction c = Some dir -> (l, dir) <> ("0", "1") -> ~ In [c_label c; l; dir] (map fst (d_sample d)) ->
     add_demands est factors None (Some c) d = Ok d' -> ~ In [c_label c; l; dir] (map fst (d_sample d'))).
Proof.
  intros V est factors residual c location direction d. split; [reflexivity|]. intros m f col d' Hg Hl He Hu Hf Hv l dir _ _ Hn Hno H Hin.
  destruct (@C112_collapse V est factors m d c f col Hg Hl He Hu Hf Hv) as (d'' & new & E & _ & _ & _ & S & _). rewrite E in H. injection H as ->.
  apply in_map_iff in Hin as ([x vs] & Ex & Hx). cbn in Ex. subst x. apply S in Hx; [|intros X; injection X as -> ->; now apply Hn]. apply (in_map fst) in Hx. exact (Hno Hx).
Qed.
Print Assumptions C112_place_refuted.
(** A configuration of residual drifts with the keys of the documentation, 'params' and 'method', or
    without the optional 'method', is rejected. *)
Theorem C112_documented_refuted : forall V (est : V -> V -> list (list num) -> list (list num)) factors collapse d (params method : V),
  add_demands est factors (Some [("params", params); ("method", method)]) collapse d = Err KeyError /\
  add_demands est factors (Some [("params", params)]) collapse d = Err KeyError /\
  add_demands est factors (Some [("parameters", params)]) collapse d = Err KeyError.
Proof. intros V est factors collapse d params method. repeat split. Qed.
Print Assumptions C112_documented_refuted.

Example C112_hypotheses_met : exists c, good_demand ex_factors2 2 ex_demand /\ has_char " " (c_label c) = false /\ c_label c <> "ERROR" /\
  (exists f, dget (c_unit c) ex_factors2 = Some f /\ f <> 0%Qc) /\ c_value c = VScalar (Some (qc 2)) /\ c_location c = Some "1" /\ c_direction c = Some "2" /\
  ~ In [c_label c; "1"; "2"] (map fst (d_sample ex_demand)).
Proof.
  exists (CC "SA" (VScalar (Some (qc 2))) "g" (Some "1") (Some "2")). split; [exact (proj1 C68_concrete)|]. split; [reflexivity|]. split; [discriminate|]. split; [eexists; split; [reflexivity|discriminate]|].
  repeat split. cbn. intuition discriminate.
Qed.
