(** Properties C37, C46, C49, C50, C72 and C73: the loading of damage and loss parameters and the
    loss map. *)
From Verif Require Import Prelude PreludeFacts Pandas M_Base M_Damage M_LossDS M_LossLF S_LossLF M_Params S_Params P_Params T_Demand T_Obtain.
Local Open Scope string_scope.
Local Open Scope list_scope.

(** ** C37 *)

(** The damage parameters of a component are its first definition, converted to base units; parameters
    loaded by an earlier call come first. Incomplete definitions and other components are left out. *)
Theorem C37_damage : forall e cmp_set old sources t missing, one_each old -> (forall s, In s sources -> proper s) ->
  load_damage e cmp_set old sources = Ok (Some t, missing) ->
  NoDup (map fst (p_rows t)) /\
  (forall k r, In (k, r) (p_rows t) ->
     exists r0, first_definition (loaded_before old ++ sources) k r0 /\ In k cmp_set /\ usable r0 /\ damage_row e r0 r) /\
  (forall k r0, first_definition (loaded_before old ++ sources) k r0 -> In k cmp_set -> usable r0 -> exists r, In (k, r) (p_rows t)).
Proof.
  intros e cmp_set old sources t missing Ho Hp H. destruct (load_damage_spec _ _ _ _ _ _ Ho Hp H) as (_ & Hn & H1 & H2 & _).
  split; [assumption|]. split; [|assumption]. intros k r Hin. destruct (H1 k r Hin) as (r0 & Hf & Hk & Hu & Hd). exists r0. auto using damage_row_c_spec.
Qed.
Print Assumptions C37_damage.

(** For losses every single cell is the first one that is filled, over all definitions. *)
Theorem C37_loss_cells : forall e dvs consequences old sources out,
  one_each (l_ds old) -> one_each (l_lf old) -> (forall s, In s sources -> proper s) ->
  load_loss e dvs consequences old sources = Ok out ->
  loss_parameters e true state_heading ("Quantity", "Unit") consequences (loaded_before (l_ds old) ++ state_sources sources) (l_ds (o_pars out)) /\
  loss_parameters e false function_heading ("Demand", "Unit") consequences (loaded_before (l_lf old) ++ function_sources sources) (l_lf (o_pars out)).
Proof. exact load_loss_spec. Qed.
Print Assumptions C37_loss_cells.

(** A first definition that fills all cells that later ones fill is used as it is. *)
Theorem C37_loss_partial : forall e dvs consequences old sources out k r r0,
  one_each (l_ds old) -> one_each (l_lf old) -> (forall s, In s sources -> proper s) ->
  load_loss e dvs consequences old sources = Ok out ->
  (In (k, r) (rows_of (l_ds (o_pars out))) -> first_definition (loaded_before (l_ds old) ++ state_sources sources) k r0 ->
   (forall r', In r' (definitions pair_eqb (loaded_before (l_ds old) ++ state_sources sources) k) -> forall c, at_col r' c <> VBlank -> at_col r0 c <> VBlank) ->
   loss_row e true state_heading ("Quantity", "Unit") r0 r) /\
  (In (k, r) (rows_of (l_lf (o_pars out))) -> first_definition (loaded_before (l_lf old) ++ function_sources sources) k r0 ->
   (forall r', In r' (definitions pair_eqb (loaded_before (l_lf old) ++ function_sources sources) k) -> forall c, at_col r' c <> VBlank -> at_col r0 c <> VBlank) ->
   loss_row e false function_heading ("Demand", "Unit") r0 r).
Proof.
  intros e dvs consequences old sources out k r r0 Hd Hl Hp H. destruct (load_loss_spec _ _ _ _ _ _ Hd Hl Hp H) as (H1 & H2).
  split; intros Hin Hf Hfull; [now apply (loss_first_wins _ _ _ _ _ _ _ k r r0 H1)|now apply (loss_first_wins _ _ _ _ _ _ _ k r r0 H2)].
Qed.
Print Assumptions C37_loss_partial.

(** ** Tables for the examples *)

Definition tab {K} (cols : list col) (rows : list (K * list value)) : ptable K := PT cols (map (fun kr => (fst kr, combine cols (snd kr))) rows).
Ltac proper_tables := intros s Hs; cbn [In] in Hs; repeat (destruct Hs as [<-|Hs]; [split; [distinct|intros k r Hin; cbn [tab p_rows map In] in Hin; repeat (destruct Hin as [Hin|Hin]; [injection Hin as <- <-; reflexivity|]); destruct Hin]|]); destruct Hs.
Definition ex_numbers (s : string) : option Qc := if String.eqb s "0" then Some (qc 0) else if String.eqb s "10" then Some (qc 10) else if String.eqb s "2" then Some (qc 2) else None.
Definition ex_penv : penv := {| numbers := ex_numbers; shown := fun q => if Qceqb q 0 then "0" else if Qceqb q (qc 10) then "10" else "20"; factors := [("ea", 1%Qc); ("g", qc (981#100)); ("USD", 1%Qc); ("kUSD", qc 1000)] |}.

Definition ls_cols : list col := [("Incomplete", ""); ("Demand", "Unit"); ("LS1", "Family"); ("LS1", "Theta_0"); ("LS1", "Theta_1")].
Definition dmg_a : ptable string := tab ls_cols [("A", [VNum 0; VText "g"; VText "lognormal"; VNum 1; VNum (qc (1#2))]); ("B", [VNum 1; VText "g"; VBlank; VBlank; VBlank])].
Definition dmg_b : ptable string := tab ls_cols [("A", [VNum 0; VText "ea"; VText "normal"; VNum (qc 7); VNum (qc (1#4))]); ("C", [VNum 0; VText "2 ea"; VBlank; VNum (qc 3); VBlank])].

(** B is incomplete, D has no parameters; A is taken from the first source. *)
Example C37_damage_hypotheses_met : one_each (@None (ptable string)) /\ (forall s, In s [dmg_a; dmg_b] -> proper s) /\
  exists t, load_damage ex_penv ["A"; "B"; "C"; "D"] None [dmg_a; dmg_b] = Ok (Some t, ["B"; "D"]) /\
    map (fun kr => (fst kr, at_col (snd kr) ("LS1", "Theta_0"))) (p_rows t) = [("A", VNum (qc (981#100))); ("C", VNum (qc 6))].
Proof. split; [exact I|]. split; [proper_tables|]. eexists. split; [vm_compute; reflexivity|qcompute]. Qed.
(** Later calls add to what was loaded. *)
Example C37_damage_later_hypotheses_met : exists t m t' m', load_damage ex_penv ["A"; "B"; "C"; "D"] None [dmg_a] = Ok (Some t, m) /\ one_each (Some t) /\
  load_damage ex_penv ["A"; "B"; "C"; "D"] (Some t) [dmg_b] = Ok (Some t', m').
Proof.
  eexists. eexists. eexists. eexists. split; [vm_compute; reflexivity|]. split; [|vm_compute; reflexivity].
  split; [split|]; cbn [p_cols p_rows map fst]; [distinct| |distinct]. intros k r [E|[]]. injection E as <- <-. reflexivity.
Qed.

Definition ds_cols1 : list col := [("DV", "Unit"); ("Quantity", "Unit"); ("DS1", "Family"); ("DS1", "Theta_0"); ("DS1", "Theta_1")].
Definition ds_cols2 : list col := ds_cols1 ++ [("DS2", "Theta_0")].
Definition loss_a : ptable pkey := tab ds_cols1 [(("A", "Cost"), [VText "kUSD"; VText "2 ea"; VText "normal"; VText "10,0|2,10"; VNum (qc (1#2))])].
Definition loss_b : ptable pkey := tab ds_cols2 [(("A", "Cost"), [VText "USD"; VText "1 EA"; VBlank; VNum (qc 7); VBlank; VNum (qc 9)]);
                                                   (("C", "Cost"), [VText "USD"; VText "1 EA"; VBlank; VNum (qc 7); VBlank; VNum (qc 9)])].
Definition lf_cols : list col := [("DV", "Unit"); ("Demand", "Unit"); ("LossFunction", "Theta_0"); ("LossFunction", "Theta_1")].
Definition loss_f : ptable pkey := tab lf_cols [(("A", "Time"), [VText "USD"; VText "2 ea"; VText "10,0|2,10"; VBlank])].
Definition no_pars : loss_pars := {| l_ds := None; l_lf := None |}.

Example C37_loss_hypotheses_met : one_each (l_ds no_pars) /\ one_each (l_lf no_pars) /\ (forall s, In s [loss_a; loss_b; loss_f] -> proper s) /\
  exists out, load_loss ex_penv ["Cost"; "Time"] ["A"; "C"] no_pars [loss_a; loss_b; loss_f] = Ok out /\
    map (fun kr => (fst kr, at_col (snd kr) ("DS1", "Theta_1"))) (rows_of (l_ds (o_pars out))) = [(("A", "Cost"), VNum (qc (1#2))); (("C", "Cost"), VBlank)] /\
    map fst (rows_of (l_lf (o_pars out))) = [("A", "Time")].
Proof. split; [exact I|]. split; [exact I|]. split; [proper_tables|]. eexists. split; [vm_compute; reflexivity|]. split; [qcompute|reflexivity]. Qed.
(** Only A is defined, in a single file. *)
Example C37_loss_partial_hypotheses_met : exists out r r0, load_loss ex_penv ["Cost"] ["A"] no_pars [loss_a] = Ok out /\
  In (("A", "Cost"), r) (rows_of (l_ds (o_pars out))) /\ first_definition (state_sources [loss_a]) ("A", "Cost") r0 /\
  (forall r', In r' (definitions pair_eqb (state_sources [loss_a]) ("A", "Cost")) -> forall c, at_col r' c <> VBlank -> at_col r0 c <> VBlank).
Proof.
  eexists. eexists. eexists. split; [vm_compute; reflexivity|]. split; [cbn [o_pars l_ds rows_of p_rows]; left; reflexivity|]. split.
  - exists [], loss_a, [], [], []. split; [reflexivity|]. split; [reflexivity|]. split; [intros []|]. intros t [].
  - intros r' Hin c. cbn in Hin. destruct Hin as [<-|[]]. exact (fun H => H).
Qed.

(** Blank cells of the first definition are taken from later ones: a component with one damage state
    gets a second one from another file. *)
Theorem C37_loss_refuted : ~ forall e dvs consequences sources out k r r0, (forall s, In s sources -> proper s) ->
  load_loss e dvs consequences no_pars sources = Ok out -> In (k, r) (rows_of (l_ds (o_pars out))) -> first_definition (state_sources sources) k r0 ->
  loss_row e true state_heading ("Quantity", "Unit") r0 r.
Proof.
  intros H. assert (Hp : forall s, In s [loss_a; loss_b] -> proper s) by proper_tables.
  destruct (load_loss ex_penv ["Cost"] ["A"] no_pars [loss_a; loss_b]) as [out|] eqn:E; [|vm_compute in E; discriminate].
  specialize (H ex_penv ["Cost"] ["A"] [loss_a; loss_b] out ("A", "Cost")).
  destruct (rows_of (l_ds (o_pars out))) as [|[k r] rows] eqn:Er; [vm_compute in E; injection E as <-; discriminate|].
  assert (Ek : k = ("A", "Cost") /\ at_col r ("DS2", "Theta_0") <> VBlank) by (vm_compute in E; injection E as <-; injection Er as <- <- <-; split; [reflexivity|vm_compute; discriminate]).
  destruct Ek as [-> Ek]. apply Ek.
  apply (H r (combine ds_cols1 [VText "kUSD"; VText "2 ea"; VText "normal"; VText "10,0|2,10"; VNum (qc (1#2))]) Hp E); [now left| |reflexivity].
  exists [], loss_a, [loss_b], [], []. split; [reflexivity|]. split; [reflexivity|]. split; [intros []|]. intros t [].
Qed.
Print Assumptions C37_loss_refuted.

(** ** C46 *)

(** With labels that are component names, or component names after DMG: the entries of the user come
    first and stay; the policy adds the other components of the asset, each mapped to itself, once. *)
Theorem C46_loss_map : forall components labels values names ncols policy m, map_names labels names ->
  add_loss_map components (Some (labels, values)) ncols policy = Ok m ->
  exists added, m = combine names values ++ added /\
    NoDup (map fst added) /\
    (forall c vs, In (c, vs) added -> vs = repeat c ncols) /\
    forall c, In c (map fst added) <-> In c components /\ ~ In c (map fst (combine names values)) /\ policy_adds policy c.
Proof. exact add_loss_map_spec. Qed.
Print Assumptions C46_loss_map.

Theorem C46_no_user_map : forall components ncols policy m, add_loss_map components None ncols policy = Ok m ->
  NoDup (map fst m) /\ (forall c vs, In (c, vs) m -> vs = repeat c ncols) /\ forall c, In c (map fst m) <-> In c components /\ policy_adds policy c.
Proof. exact add_loss_map_alone. Qed.
Print Assumptions C46_no_user_map.

(** A call succeeds if it has a map or a policy, and the policy is known. *)
Theorem C46_accepted_partial : forall components user ncols policy, (forall labels values, user = Some (labels, values) -> exists names, map_names labels names) ->
  (is_ok (add_loss_map components user ncols policy) = true <-> (user <> None \/ policy <> None) /\ (policy = None \/ policy = Some "fill" \/ policy = Some "fill_all")).
Proof. exact add_loss_map_ok. Qed.
Print Assumptions C46_accepted_partial.

Example C46_hypotheses_met : map_names (Multi 2 [["DMG"; "A"]]) ["A"] /\ map_names (Flat ["A"]) ["A"] /\
  add_loss_map ["A"; "excessiveRID"; "B"] (Some (Multi 2 [["DMG"; "A"]], [["X"]])) 1 (Some "fill") = Ok [("A", ["X"]); ("B", ["B"])] /\
  add_loss_map ["A"; "excessiveRID"; "B"] (Some (Flat ["A"], [["X"]])) 1 (Some "fill_all") = Ok [("A", ["X"]); ("excessiveRID", ["excessiveRID"]); ("B", ["B"])] /\
  add_loss_map ["A"; "B"] None 2 (Some "fill") = Ok [("A", ["A"; "A"]); ("B", ["B"; "B"])] /\
  add_loss_map ["A"; "B"] None 2 (Some "fil") = Err ValueError /\ add_loss_map ["A"; "B"] None 2 None = Err ValueError.
Proof.
  split; [apply prefixed_names; [discriminate|]; constructor; [now exists []|constructor]|]. split; [apply plain_names; repeat constructor|]. repeat split; reflexivity.
Qed.

(** A component with DMG in its name: all names of the map are replaced by their second character. *)
Theorem C46_name_refuted : ~ forall components l values m, List.length values = List.length l ->
  add_loss_map components (Some (Flat l, values)) 1 None = Ok m -> forall c, In c l -> In c (map fst m).
Proof.
  intros H. specialize (H ["B1"; "myDMG"] ["B1"; "myDMG"] [["B1"]; ["B1"]] _ eq_refl eq_refl "B1" (or_introl eq_refl)). cbn in H. intuition discriminate.
Qed.
Print Assumptions C46_name_refuted.

(** A map in which only some labels have DMG: the entries of the others are lost. *)
Theorem C46_mixed_refuted : ~ forall components l labels values m, List.length values = List.length l ->
  to_multi_index (Flat l) = Ok labels -> add_loss_map components (Some (labels, values)) 1 None = Ok m ->
  forall c, In c l -> starts_with "DMG-" c = false -> In c (map fst m).
Proof.
  intros H. specialize (H ["A"; "B"] ["DMG-A"; "B"] _ [["X"]; ["Y"]] _ eq_refl eq_refl eq_refl "B" (or_intror (or_introl eq_refl)) eq_refl). cbn in H. intuition discriminate.
Qed.
Print Assumptions C46_mixed_refuted.

(** ** C49 *)

(** Exactly the required pairs without a usable definition are missing. *)
Theorem C49_missing : forall e dvs consequences old sources out,
  one_each (l_ds old) -> one_each (l_lf old) -> (forall s, In s sources -> proper s) ->
  load_loss e dvs consequences old sources = Ok out ->
  NoDup (o_missing out) /\
  forall c dv, In (c, dv) (o_missing out) <->
    In c consequences /\ In dv dvs /\
    ~ usable_definitions (definitions pair_eqb (loaded_before (l_ds old) ++ state_sources sources) (c, dv)) /\
    ~ usable_definitions (definitions pair_eqb (loaded_before (l_lf old) ++ function_sources sources) (c, dv)).
Proof. exact load_loss_missing. Qed.
Print Assumptions C49_missing.
Example C49_hypotheses_met : exists out, load_loss ex_penv ["Cost"; "Time"] ["A"; "C"; "E"] no_pars [loss_a; loss_b; loss_f] = Ok out /\
  o_missing out = [("E", "Cost"); ("C", "Time"); ("E", "Time")].
Proof. eexists. split; vm_compute; reflexivity. Qed.

(** ** C50 *)

(** A file in which a decision variable has two units is rejected; units of a decision variable are
    the only reason for this error. *)
Theorem C50_rejected : forall e dvs consequences old sources t, In t sources -> inconsistent t -> is_ok (load_loss e dvs consequences old sources) = false.
Proof. exact inconsistent_rejected. Qed.
Print Assumptions C50_rejected.
Theorem C50_error : forall e dvs consequences old sources, load_loss e dvs consequences old sources = Err UnitsError -> exists t, In t sources /\ inconsistent t.
Proof. exact units_error_only. Qed.
Print Assumptions C50_error.
(** The parameters are converted with the units of their own rows. Missing for the full property:
    files that disagree with each other (refuted below), parameters loaded before. *)
Theorem C50_converted_partial : forall e dvs consequences sources out k r, (forall s, In s sources -> proper s) ->
  load_loss e dvs consequences no_pars sources = Ok out ->
  (In (k, r) (rows_of (l_ds (o_pars out))) ->
   exists r1, (forall c, first_cell (definitions pair_eqb (state_sources sources) k) c (at_col r1 c)) /\ loss_row e true state_heading ("Quantity", "Unit") r1 r) /\
  (In (k, r) (rows_of (l_lf (o_pars out))) ->
   exists r1, (forall c, first_cell (definitions pair_eqb (function_sources sources) k) c (at_col r1 c)) /\ loss_row e false function_heading ("Demand", "Unit") r1 r).
Proof.
  intros e dvs consequences sources out k r Hp H. destruct (load_loss_spec _ _ _ no_pars _ _ I I Hp H) as ((_ & H1 & _) & (_ & H2 & _)).
  split; intros Hin; [destruct (H1 k r Hin) as (_ & _ & R)|destruct (H2 k r Hin) as (_ & _ & R)]; exact R.
Qed.
Print Assumptions C50_converted_partial.
(** The unit that is kept for a decision variable (and written with its results) is the unit of one of its rows. *)
Theorem C50_reported : forall e dvs consequences old sources out dv v,
  load_loss e dvs consequences old sources = Ok out -> dget dv (o_units out) = Some v -> v <> VBlank ->
  exists k r, (In (k, r) (rows_of (l_ds (o_pars out))) \/ In (k, r) (rows_of (l_lf (o_pars out)))) /\ snd k = dv /\ at_col r ("DV", "Unit") = v.
Proof. exact reported_units. Qed.
Print Assumptions C50_reported.

Definition loss_mixed : ptable pkey := tab ds_cols1 [(("A", "Cost"), [VText "kUSD"; VText "1 EA"; VBlank; VNum (qc 5); VBlank]); (("C", "Cost"), [VText "USD"; VText "1 EA"; VBlank; VNum (qc 5); VBlank])].
Example C50_rejected_hypotheses_met : inconsistent loss_mixed /\ load_loss ex_penv ["Cost"] ["A"; "C"] no_pars [loss_mixed] = Err UnitsError.
Proof.
  split; [|vm_compute; reflexivity]. eexists. eexists. eexists. eexists. split; [left; reflexivity|]. split; [right; left; reflexivity|].
  split; [reflexivity|]. split; [discriminate|]. split; [discriminate|]. cbn. discriminate.
Qed.
Example C50_converted_hypotheses_met : (forall s, In s [loss_a; loss_f] -> proper s) /\ exists out, load_loss ex_penv ["Cost"; "Time"] ["A"] no_pars [loss_a; loss_f] = Ok out /\
  map (fun kr => at_col (snd kr) ("DS1", "Theta_0")) (rows_of (l_ds (o_pars out))) = [VText "20,0|20,20"] /\
  map (fun kr => at_col (snd kr) ("LossFunction", "Theta_0")) (rows_of (l_lf (o_pars out))) = [VText "10,0|20,20"] /\
  dget "Cost" (o_units out) = Some (VText "kUSD").
Proof. split; [proper_tables|]. eexists. split; [vm_compute; reflexivity|]. repeat split; reflexivity. Qed.

(** Two files with different units for costs are accepted. *)
Theorem C50_files_refuted : ~ forall e dvs consequences sources out t k r t' k' r', (forall s, In s sources -> proper s) ->
  load_loss e dvs consequences no_pars sources = Ok out -> In t sources -> In (k, r) (p_rows t) -> In t' sources -> In (k', r') (p_rows t') -> snd k = snd k' ->
  at_col r ("DV", "Unit") = at_col r' ("DV", "Unit").
Proof.
  intros H. assert (Hp : forall s, In s [loss_a; loss_b] -> proper s) by proper_tables.
  destruct (load_loss ex_penv ["Cost"] ["A"] no_pars [loss_a; loss_b]) as [out|] eqn:E; [|vm_compute in E; discriminate].
  specialize (H ex_penv ["Cost"] ["A"] [loss_a; loss_b] out loss_a _ _ loss_b _ _ Hp E (or_introl eq_refl) (or_introl eq_refl) (or_intror (or_introl eq_refl)) (or_introl eq_refl) eq_refl).
  discriminate H.
Qed.
Print Assumptions C50_files_refuted.

(** ** C72 *)

(** Damage parameters loaded in two calls are the same as in one call, unless an incomplete definition
    of the first call is followed by another one in the second. *)
Theorem C72_damage_partial : forall e cmp_set a b t1 m1 t2 m2 t m, (forall s, In s (a ++ b) -> proper s) ->
  (forall k r, first_definition a k r -> In k cmp_set -> usable r) ->
  load_damage e cmp_set None a = Ok (Some t1, m1) -> load_damage e cmp_set (Some t1) b = Ok (Some t2, m2) ->
  load_damage e cmp_set None (a ++ b) = Ok (Some t, m) ->
  (forall k, In k (map fst (p_rows t2)) <-> In k (map fst (p_rows t))) /\
  (forall k r r2, In (k, r) (p_rows t) -> In (k, r2) (p_rows t2) -> forall c, at_col r c = at_col r2 c) /\
  (forall k, In k m2 <-> In k m).
Proof. exact load_damage_twice. Qed.
Print Assumptions C72_damage_partial.
Example C72_damage_hypotheses_met : (forall s, In s ([dmg_a] ++ [dmg_b]) -> proper s) /\
  (forall k r, first_definition [dmg_a] k r -> In k ["A"; "C"] -> usable r) /\
  exists t1 m1 t2 m2 t m, load_damage ex_penv ["A"; "C"] None [dmg_a] = Ok (Some t1, m1) /\ load_damage ex_penv ["A"; "C"] (Some t1) [dmg_b] = Ok (Some t2, m2) /\
  load_damage ex_penv ["A"; "C"] None ([dmg_a] ++ [dmg_b]) = Ok (Some t, m).
Proof.
  split; [cbn [app]; proper_tables|]. split.
  - intros k r Hf Hk. apply first_definition_source in Hf as (src & [<-|[]] & Hin). destruct Hin as [E|[E|[]]]; injection E as <- <-.
    + intros E. injection E as E. discriminate E.
    + destruct Hk as [E|[E|[]]]; discriminate E.
  - eexists. eexists. eexists. eexists. eexists. eexists. split; [vm_compute; reflexivity|]. split; vm_compute; reflexivity.
Qed.
(** B is incomplete in the first file and complete in the second. *)
Definition dmg_c : ptable string := tab ls_cols [("B", [VNum 0; VText "ea"; VText "normal"; VNum (qc 7); VNum (qc (1#4))])].
Theorem C72_incomplete_refuted : ~ forall e cmp_set a b t1 m1 t2 m2 t m, (forall s, In s (a ++ b) -> proper s) ->
  load_damage e cmp_set None a = Ok (Some t1, m1) -> load_damage e cmp_set (Some t1) b = Ok (Some t2, m2) ->
  load_damage e cmp_set None (a ++ b) = Ok (Some t, m) -> forall k, In k m2 <-> In k m.
Proof.
  intros H. assert (Hp : forall s, In s ([dmg_a] ++ [dmg_c]) -> proper s) by (cbn [app]; proper_tables).
  assert (X : exists t1 m1 t2 t, load_damage ex_penv ["B"] None [dmg_a] = Ok (Some t1, m1) /\ load_damage ex_penv ["B"] (Some t1) [dmg_c] = Ok (Some t2, []) /\
    load_damage ex_penv ["B"] None ([dmg_a] ++ [dmg_c]) = Ok (Some t, ["B"])).
  { eexists. eexists. eexists. eexists. split; [vm_compute; reflexivity|]. split; vm_compute; reflexivity. }
  destruct X as (t1 & m1 & t2 & t & E1 & E2 & E). specialize (H _ _ _ _ _ _ _ _ _ _ Hp E1 E2 E "B"). cbn in H. tauto.
Qed.
Print Assumptions C72_incomplete_refuted.

(** Loss parameters loaded by one call are converted once more by the next call. *)
Theorem C72_loss_refuted : ~ forall e dvs consequences a b out1 out2 out k r r2, (forall s, In s (a ++ b) -> proper s) ->
  load_loss e dvs consequences no_pars a = Ok out1 -> load_loss e dvs consequences (o_pars out1) b = Ok out2 -> load_loss e dvs consequences no_pars (a ++ b) = Ok out ->
  In (k, r) (rows_of (l_ds (o_pars out))) -> In (k, r2) (rows_of (l_ds (o_pars out2))) -> forall c, at_col r c = at_col r2 c.
Proof.
  intros H. set (a := [tab ds_cols1 [(("A", "Cost"), [VText "kUSD"; VText "1 EA"; VBlank; VNum (qc 5); VBlank])]]).
  set (b := [tab ds_cols1 [(("C", "Cost"), [VText "USD"; VText "1 EA"; VBlank; VNum (qc 5); VBlank])]]).
  assert (Hp : forall s, In s (a ++ b) -> proper s) by (unfold a, b; cbn [app]; proper_tables).
  assert (X : exists out1 out2 out r r2 rs rs2, load_loss ex_penv ["Cost"] ["A"; "C"] no_pars a = Ok out1 /\
    load_loss ex_penv ["Cost"] ["A"; "C"] (o_pars out1) b = Ok out2 /\ load_loss ex_penv ["Cost"] ["A"; "C"] no_pars (a ++ b) = Ok out /\
    rows_of (l_ds (o_pars out)) = (("A", "Cost"), r) :: rs /\ rows_of (l_ds (o_pars out2)) = (("A", "Cost"), r2) :: rs2 /\
    at_col r ("DS1", "Theta_0") = VNum (qc 5000) /\ at_col r2 ("DS1", "Theta_0") = VNum (qc 5000000)).
  { do 7 eexists. split; [vm_compute; reflexivity|]. split; [vm_compute; reflexivity|]. split; [vm_compute; reflexivity|]. split; [reflexivity|]. split; [reflexivity|].
    split; qcompute. }
  destruct X as (out1 & out2 & out & r & r2 & rs & rs2 & E1 & E2 & E & Er & Er2 & Ea & Ea2).
  specialize (H _ _ _ _ _ _ _ _ ("A", "Cost") r r2 Hp E1 E2 E). rewrite Er, Er2 in H.
  specialize (H (or_introl eq_refl) (or_introl eq_refl) ("DS1", "Theta_0")). rewrite Ea, Ea2 in H. injection H as H. discriminate H.
Qed.
Print Assumptions C72_loss_refuted.

(** ** C73 *)

(** Exactly the components without a usable definition are reported as missing. *)
Theorem C73_missing_damage : forall e cmp_set old sources t missing, one_each old -> (forall s, In s sources -> proper s) ->
  load_damage e cmp_set old sources = Ok (t, missing) ->
  forall k, In k missing <-> In k cmp_set /\ forall r, first_definition (loaded_before old ++ sources) k r -> ~ usable r.
Proof.
  intros e cmp_set old sources [t|] missing Ho Hp H k.
  - destruct (load_damage_spec _ _ _ _ _ _ Ho Hp H) as (_ & _ & H1 & H2 & H3). rewrite H3. split.
    + intros [Hk Hn]. split; [assumption|]. intros r Hf Hu. apply Hn. now apply (H2 k r).
    + intros [Hk Hn]. split; [assumption|]. intros (r & Hr). destruct (H1 k r Hr) as (r0 & Hf & _ & Hu & _). now apply (Hn r0).
  - apply load_damage_none in H as (-> & -> & ->). cbn [loaded_before app]. split; [|tauto]. intros Hk. split; [assumption|].
    intros r Hf. now apply first_definition_source in Hf as (src & [] & _).
Qed.
Print Assumptions C73_missing_damage.
Example C73_hypotheses_met : one_each (@None (ptable string)) /\ (forall s, In s [dmg_a; dmg_b] -> proper s) /\
  exists t, load_damage ex_penv ["A"; "B"; "C"; "D"] None [dmg_a; dmg_b] = Ok (t, ["B"; "D"]).
Proof. split; [exact I|]. split; [proper_tables|]. eexists. vm_compute. reflexivity. Qed.
