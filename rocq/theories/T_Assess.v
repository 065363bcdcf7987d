(** C52, C79 to C87: the steps of a damage and loss calculation. *)
From Coq Require Import Lia Permutation.
From Verif Require Import Prelude PreludeFacts Pandas PandasFacts M_Base M_FileIO M_Damage M_LossDS M_Demand M_Params M_Asset M_Assess
  S_Params S_Asset S_Base S_Demand S_Assess P_Params T_Demand T_Params P_Assess.
From Verif Require Import M_Params M_Asset M_Assess S_Assess.
Set Implicit Arguments.
Local Open Scope string_scope.
Local Open Scope list_scope.

(** * C81: collapse limits *)

(** Exactly the realizations in which no demand of a limited type is over its limit are kept, in
    their order, and their values are not changed. *)
Theorem C81_kept : forall limits t t', proper_columns t -> apply_collapse_limits limits t = Ok t' ->
  rd_columns t' = rd_columns t /\ rd_units t' = rd_units t /\
  exists keep, (forall row, keep row = true <-> ~ exceeds limits (rd_columns t) row) /\ rd_rows t' = filter keep (rd_rows t).
Proof. exact limits_spec. Qed.
Print Assumptions C81_kept.
(** The limits can be applied exactly when every limited type is among the demands. *)
Theorem C81_applicable : forall limits t, proper_columns t ->
  (is_ok (apply_collapse_limits limits t) = true <-> forall ty lim, In (ty, lim) limits -> exists c, In c (rd_columns t) /\ demand_label c ty).
Proof. exact limits_ok. Qed.
Print Assumptions C81_applicable.
Definition ex_raw : raw_demands :=
  RD [["PID"; "1"; "1"]; ["PID"; "2"; "1"]; ["PFA"; "1"; "1"]] None
     [[Some (qc (1#100)); Some (qc (2#100)); Some 1%Qc]; [Some (qc (1#100)); Some (qc (12#100)); Some 1%Qc]; [None; Some (qc (10#100)); Some (qc 9)]; [None; None; None]].
Example C81_hypotheses_met : proper_columns ex_raw /\
  exists t, apply_collapse_limits [("PID", qc (1#10)); ("PFA", qc 9)] ex_raw = Ok t /\ rd_rows t = [nth 0 (rd_rows ex_raw) []; nth 2 (rd_rows ex_raw) []; nth 3 (rd_rows ex_raw) []] /\
    apply_collapse_limits [("RID", 1%Qc)] ex_raw = Err KeyError.
Proof.
  split; [intros c [<-|[<-|[<-|[]]]]; left; reflexivity|]. eexists. split; [vm_compute; reflexivity|]. split; reflexivity.
Qed.

(** * C82: units of demands *)

Theorem C82_unit : forall u ty unit, demand_unit_is u ty unit <-> inferred_unit u ty = unit.
Proof. exact inferred_unit_spec. Qed.
Print Assumptions C82_unit.
(** A table of demands without units, given a unit of length: what is loaded are the same demands,
    each scaled by the factor of its inferred unit. *)
Theorem C82_loaded : forall u (simple : bool) (raw : list (list string * list num)) factors s d,
  raw <> [] -> Forall (fun e => clean_label (fst e) /\ Forall no_dash (fst e) /\ d_type (fst e) <> "" /\ d_type (fst e) <> "ERROR") raw ->
  add_units u (if simple then to_simple_index (make_axis 3 (map fst raw)) else make_axis 3 (map fst raw)) (map snd raw) = Ok s ->
  load_sample factors "Units" s = Ok d ->
  exists units, Forall2 (fun e unit => demand_unit_is u (d_type (fst e)) unit) raw units /\
  Permutation (d_sample d) (map (fun eu => (fst (fst eu), scale_values (load_factor factors (snd eu)) (snd (fst eu)))) (combine raw units)).
Proof.
  intros u simple raw factors s d Hn Hr H H'. eexists. split; [apply unit_list|]. rewrite (@units_loaded _ simple _ _ _ _ Hn Hr H H').
  match goal with |- Permutation ?a ?b => replace b with a; [reflexivity|] end. clear. induction raw as [|e raw IH]; [reflexivity|]. cbn [map combine fst snd]. now rewrite IH.
Qed.
Print Assumptions C82_loaded.
Definition ex_demands : list (list string * list num) := [(["PFA"; "1"; "1"], [Some (qc 386)]); (["SA_1.0"; "0"; "1"], [Some (qc 5)]); (["PID"; "1"; "1"], [Some (qc (1#100))])].
Example C82_hypotheses_met : ex_demands <> [] /\ Forall (fun e => clean_label (fst e) /\ Forall no_dash (fst e) /\ d_type (fst e) <> "" /\ d_type (fst e) <> "ERROR") ex_demands /\
  exists s d, add_units "in" (to_simple_index (make_axis 3 (map fst ex_demands))) (map snd ex_demands) = Ok s /\
    unit_row s = Some [Some "inchps2"; Some "unitless"; Some "inchps2"] /\ load_sample [("inchps2", qc (254#10000)); ("unitless", 1%Qc)] "Units" s = Ok d.
Proof.
  split; [discriminate|]. split.
  - repeat (constructor; [split; [split; [reflexivity|repeat constructor]|split; [repeat constructor|split; discriminate]]|]). constructor.
  - eexists _, _. split; [vm_compute; reflexivity|]. split; [reflexivity|vm_compute; reflexivity].
Qed.
(** Not every demand type that fragilities may refer to gets a unit. *)
Theorem C82_every_type_refuted : ~ (forall u name ty, stands_for name ty -> exists q, demand_unit_is u ty (Some (unit_for u q))).
Proof.
  intros H. destruct (H "m" "Peak Effective Drift Ratio" "EDR") as (q & Hq); [exists ["Peak Effective Drift Ratio"]; cbn; tauto|]. apply inferred_unit_spec in Hq. discriminate.
Qed.
Print Assumptions C82_every_type_refuted.

(** * C83: components that support the calculation *)

(** What the user assigned is kept, except for rows with a reserved name. *)
Theorem C83_users_rows : forall collapse_type irreparable demands rows,
  filter (fun r => negb (mem (a_cmp r) reserved)) (add_support collapse_type irreparable demands rows) = filter (fun r => negb (mem (a_cmp r) reserved)) rows.
Proof. exact users_rows. Qed.
Print Assumptions C83_users_rows.
(** If no row has a reserved name, the supporting components that are needed are added after the
    user's rows: one unit each, for the building or at the places of the demands. *)
Theorem C83_support : forall stories collapse_type irreparable demands rows, Forall numbered demands -> (forall r, In r rows -> ~ In (a_cmp r) reserved) ->
  exists extra, add_support collapse_type irreparable demands rows = rows ++ extra /\ NoDup (map a_cmp extra) /\
    (forall name, In name (map a_cmp extra) <-> needed collapse_type irreparable demands name) /\
    forall r, In r extra -> exists ps, one_each_at stories (a_cmp r) ps r /\ placed collapse_type demands (a_cmp r) ps.
Proof. exact support_spec. Qed.
Print Assumptions C83_support.
(** Where every location goes with every direction the places are exactly those of the demands. *)
Theorem C83_places_partial : forall ty demands ps, full_grid ty demands -> placed (Some ty) demands "excessive.coll.DEM" ps -> places_of_type ty demands ps.
Proof.
  intros ty demands ps Hg H. inversion H as [? Hin| |ty' ? E H1 H2]; subst.
  - cbn in Hin. intuition discriminate.
  - injection E as <-. now apply grid_places.
Qed.
Print Assumptions C83_places_partial.
Theorem C83_drift_places_partial : forall ct demands ps, full_grid "RID" demands -> placed ct demands "excessiveRID" ps -> places_of_type "RID" demands ps.
Proof.
  intros ct demands ps Hg H. inversion H as [? Hin|? H1 H2|]; subst.
  - cbn in Hin. intuition discriminate.
  - now apply grid_places.
Qed.
Print Assumptions C83_drift_places_partial.
Definition ex_grid : list (list string) := [["PID"; "1"; "1"]; ["PID"; "1"; "2"]; ["PID"; "2"; "1"]; ["PID"; "2"; "2"]; ["RID"; "1"; "1"]; ["RID"; "1"; "2"]; ["RID"; "2"; "1"]; ["RID"; "2"; "2"]].
Definition ex_user_row : assign_row := AR "B.1" "all" (Some "1,2") (Some "ea") None (Some (qc 3)) None None None None None.
Example C83_hypotheses_met : Forall numbered ex_grid /\ ~ In (a_cmp ex_user_row) reserved /\ full_grid "PID" ex_grid /\ full_grid "RID" ex_grid /\
  map a_cmp (add_support (Some "PID") true ex_grid [ex_user_row]) = ["B.1"; "excessive.coll.DEM"; "collapse"; "excessiveRID"; "irreparable"] /\
  map a_location (add_support (Some "PID") true ex_grid [ex_user_row]) = ["all"; "1,2"; "0"; "1,2"; "0"].
Proof.
  split.
  { unfold ex_grid. repeat (constructor; [first [now eexists _, 1%nat, 1%nat | now eexists _, 1%nat, 2%nat | now eexists _, 2%nat, 1%nat | now eexists _, 2%nat, 2%nat]|]). constructor. }
  split; [cbn; intuition discriminate|].
  split; [intros l d l' d' H H'; cbn in H, H'; repeat destruct H as [H|H]; try discriminate H; try contradiction; repeat destruct H' as [H'|H']; try discriminate H'; try contradiction; injection H as <- <-; injection H' as <- <-; cbn; auto 15|].
  split; [intros l d l' d' H H'; cbn in H, H'; repeat destruct H as [H|H]; try discriminate H; try contradiction; repeat destruct H' as [H'|H']; try discriminate H'; try contradiction; injection H as <- <-; injection H' as <- <-; cbn; auto 15|].
  split; reflexivity.
Qed.
(** Otherwise components are put at places for which there are no demands. *)
Theorem C83_places_refuted : ~ (forall stories demands rows r ps, Forall numbered demands -> (forall r, In r rows -> ~ In (a_cmp r) reserved) ->
  In r (add_support None true demands rows) -> a_cmp r = "excessiveRID" -> places stories r ps -> forall l d, In (l, d) ps -> In ["RID"; l; d] demands).
Proof.
  intros H. specialize (H None [["RID"; "1"; "1"]; ["RID"; "2"; "2"]] []
    (AR "excessiveRID" "1,2" (Some "1,2") (Some "ea") None (Some 1%Qc) None None None None None) [("1", "1"); ("1", "2"); ("2", "1"); ("2", "2")]).
  assert (X : In ["RID"; "1"; "2"] [["RID"; "1"; "1"]; ["RID"; "2"; "2"]]).
  { apply H.
    - constructor; [now exists "RID", 1%nat, 1%nat|]. constructor; [now exists "RID", 2%nat, 2%nat|constructor].
    - intros r [].
    - right. now left.
    - reflexivity.
    - exists ["1"; "2"], ["1"; "2"]. repeat split; vm_compute; reflexivity.
    - right. now left. }
  cbn in X. intuition discriminate.
Qed.
Print Assumptions C83_places_refuted.
(** A user's own component with a reserved name is overwritten. *)
Theorem C83_reserved_refuted : ~ (forall ct irr demands rows r, In r rows -> In r (add_support ct irr demands rows)).
Proof.
  intros H. specialize (H None false [] [AR "collapse" "1" (Some "2") (Some "ea") None (Some (qc 2)) None None None None None] _ (or_introl eq_refl)).
  cbn in H. destruct H as [E|[]]. injection E as E. discriminate.
Qed.
Print Assumptions C83_reserved_refuted.
(** An assignment and a sample exclude each other; a sample gets no supporting components. *)
Theorem C83_one_input : forall rows s ct irr demands, calculate_asset (Some rows) (Some s) ct irr demands = Err ValueError /\
  calculate_asset None (Some s) ct irr demands = Ok (Sampled s) /\ calculate_asset (Some rows) None ct irr demands = Ok (Assigned (add_support ct irr demands rows)).
Proof. intros. repeat split. Qed.
Print Assumptions C83_one_input.

(** * C84: databases *)

(** The parameters of a component come from the user's own file if it is there, otherwise from the
    last of the named databases that has it, and otherwise from the built-in definitions. *)
Theorem C84_precedence_partial : forall fs default_paths database path folder files paths tables columns extra e components t missing,
  user_file folder path files -> database_paths fs default_paths database path folder = Ok paths -> database_tables fs paths = Ok tables ->
  (forall s, In s tables -> proper s) -> NoDup columns ->
  load_damage e components None (tables ++ [extra_table columns extra]) = Ok (Some t, missing) ->
  exists names named own, match database with Some s => named_in s names | None => names = [] end /\ found fs default_paths names named /\
    Forall2 (fun p t => dget p fs = Some t) files own /\
    forall k r, In (k, r) (p_rows t) -> exists r0, first_definition (own ++ rev named ++ [extra_table columns extra]) k r0 /\ damage_row e r0 r.
Proof.
  intros fs dp database path folder files paths tables columns extra e components t missing Hu HP HT Hp Hc HL.
  destruct (tables_spec _ _ _ Hu HP HT) as (names & ts & own & H1 & H2 & H3 & ->). exists names, ts, own. repeat (split; [assumption|]).
  intros k r Hin. apply C37_damage in HL; [|exact I|].
  - destruct HL as (_ & HL & _). destruct (HL _ _ Hin) as (r0 & Hf & _ & _ & Hd). exists r0. split; [|exact Hd]. cbn [loaded_before app] in Hf. now rewrite <- app_assoc in Hf.
  - intros s Hs. apply in_app_or in Hs as [Hs|[<-|[]]]; [now apply Hp|now apply extra_proper].
Qed.
Print Assumptions C84_precedence_partial.
Definition ex_dbs : files string := [("own.csv", dmg_b); ("db/A.csv", dmg_a)].
Definition ex_paths (n : string) : list string := [("db/" ++ n ++ ".csv")%string; ("db/" ++ n ++ "2.csv")%string].
Example C84_hypotheses_met : user_file (Some "own") (Some "own.csv") ["own.csv"] /\ database_paths ex_dbs ex_paths (Some "A, None") (Some "own.csv") None = Ok ["own.csv"; "db/A.csv"] /\
  user_file (Some "own") (Some "CustomDLDataFolder.csv") ["own.csv"] /\ database_paths ex_dbs ex_paths None (Some "CustomDLDataFolder.csv") (Some "own") = Ok ["own.csv"] /\
  database_tables ex_dbs ["own.csv"; "db/A.csv"] = Ok [dmg_b; dmg_a] /\ (forall s, In s [dmg_b; dmg_a] -> proper s) /\ NoDup ls_cols /\
  exists t m, load_damage ex_penv ["A"; "B"; "collapse"] None ([dmg_b; dmg_a] ++ [extra_table ls_cols [("collapse", [(("Demand", "Unit"), VText "ea"); (("LS1", "Theta_0"), VNum 1)])]]) = Ok (Some t, m) /\
    map fst (p_rows t) = ["A"; "collapse"].
Proof.
  split; [now apply as_given|]. split; [reflexivity|]. split; [now apply (@in_folder (Some "own") "own" ".csv")|]. split; [reflexivity|]. split; [reflexivity|].
  split; [proper_tables|]. split; [distinct|]. eexists _, _. split; [vm_compute; reflexivity|reflexivity].
Qed.
(** A file of the user that does not exist stops the calculation. *)
Theorem C84_own_file : forall K (fs : files K) default_paths database path folder p paths, user_file folder path [p] -> dget p fs = None ->
  database_paths fs default_paths database path folder = Ok paths -> database_tables fs paths = Err FileNotFoundError.
Proof.
  intros K fs dp database path folder p paths Hu Hp H. unfold database_paths in H. destruct (user_path path folder) as [u|] eqn:U; [|discriminate]. cbn [bind] in H. injection H as <-.
  pose proof (user_path_spec Hu U) as ->. rewrite rev_app_distr. unfold database_tables. cbn [rev app mapM]. now rewrite Hp.
Qed.
Print Assumptions C84_own_file.
(** A path that refers to the folder of the user is not used when there is no such folder. *)
Theorem C84_placeholder : forall K (fs : files K) default_paths database pre post,
  database_paths fs default_paths database (Some (pre ++ "CustomDLDataFolder" ++ post)%string) None = Err ValueError.
Proof.
  intros K fs dp database pre post. unfold database_paths, user_path.
  rewrite contains_inside. reflexivity.
Qed.
Print Assumptions C84_placeholder.
(** A named database that does not exist is skipped without a word. *)
Theorem C84_named_refuted : ~ (forall (fs : files string) default_paths s names paths, named_in s names ->
  database_paths fs default_paths (Some s) None None = Ok paths -> forall n, In n names -> exists p, In p (default_paths n) /\ dget p fs <> None).
Proof.
  intros H. destruct (H ex_dbs ex_paths "FEMA P58" ["FEMA P58"] []) with (n := "FEMA P58") as (p & Hp & Hd).
  - exists ["FEMA P58"]. repeat split; [discriminate|repeat constructor].
  - reflexivity.
  - now left.
  - destruct Hp as [<-|[<-|[]]]; now apply Hd.
Qed.
Print Assumptions C84_named_refuted.

(** * C85: additional fragilities *)

(** The table of additional fragilities has exactly the rows that are needed, with the cells they
    should have. *)
Theorem C85_rows : forall u components collapse irreparable water rows columns,
  (forall cf, collapse = Some cf -> has_char "|" (cf_type cf) = false) ->
  extra_fragilities (Some u) (Some components) collapse irreparable water = Ok rows ->
  NoDup (map fst (p_rows (extra_table columns rows))) /\
  (forall k r, In (k, r) (p_rows (extra_table columns rows)) -> exists cells, extra_row u components collapse irreparable water k cells /\ has_cells r cells) /\
  (forall k cells, extra_row u components collapse irreparable water k cells -> In k (map fst (p_rows (extra_table columns rows)))).
Proof. intros u ms cf irr water rows columns Hb H. rewrite extra_table_keys. exact (@extra_spec _ _ _ _ _ _ _ Hb H). Qed.
Print Assumptions C85_rows.
(** It can be made exactly when the demand type of the collapse fragility is known, with at most one
    specification after it. *)
Theorem C85_known_types : forall u components collapse irreparable water,
  is_ok (extra_fragilities (Some u) (Some components) collapse irreparable water) = true <->
  forall cf, collapse = Some cf -> exists short, In short (map fst demand_abbreviations) /\
    (cf_type cf = short \/ exists more, has_char "_" more = false /\ cf_type cf = (short ++ "_" ++ more)%string).
Proof. exact known_types. Qed.
Print Assumptions C85_known_types.
Definition ex_cf : collapse_fragility := CF "SA_1.13" (VText "lognormal") (VNum (qc 15)) (VNum (qc (1#2))).
Example C85_hypotheses_met : has_char "|" (cf_type ex_cf) = false /\
  exists rows, extra_fragilities (Some "m") (Some ["B.1"]) (Some ex_cf) (Some (VNum (qc (1#100)), VNum (qc (3#10)))) true = Ok rows /\
    map fst rows = ["collapse"; "excessiveRID"; "irreparable"; "aggregate"] /\
    names_type "Spectral Acceleration|1.13" "SA" "SA_1.13" /\ at_col (snd (nth 0 rows ("", []))) ("Demand", "Type") = VText "Spectral Acceleration|1.13" /\
    at_col (snd (nth 0 rows ("", []))) ("Demand", "Unit") = VText "mps2".
Proof.
  split; [reflexivity|]. eexists. split; [vm_compute; reflexivity|]. split; [reflexivity|]. split; [|split; reflexivity].
  apply (@S_Demand.sub_type "Spectral Acceleration" "1.13" "SA"); [reflexivity|reflexivity|exists ["Spectral Acceleration"; "Peak Spectral Acceleration"]; cbn; tauto].
Qed.
(** With a component sample instead of an assignment a collapse fragility cannot be used. *)
Theorem C85_sample_refuted : ~ (forall u marginals cf irreparable water, is_ok (collapse_row (Some u) cf) = true ->
  is_ok (extra_fragilities (Some u) marginals (Some cf) irreparable water) = true).
Proof. intros H. specialize (H "m" None ex_cf None false eq_refl). discriminate. Qed.
Print Assumptions C85_sample_refuted.

(** * C86: residual drifts *)

(** The inferred residual drifts are added after the demands: for each configured direction one for
    each peak drift. The calculation stops if the method is not known or a direction has no drifts. *)
Theorem C86_inferred : forall est cfg t, (forall d l, List.length (est d l) = List.length l) -> three t -> cfg <> [] ->
  match infer_drifts est (Some cfg) t with
  | Ok (t', _) => dget "method" cfg = Some (JStr "FEMA P-58") /\ directions cfg <> [] /\
      exists added, t' = t ++ List.concat added /\ Forall2 (fun d a => peaks d t <> [] /\ residuals_of est d t a) (directions cfg) added
  | Err e => dget "method" cfg <> Some (JStr "FEMA P-58") \/ directions cfg = [] \/ exists d, In d (directions cfg) /\ peaks d t = []
  end.
Proof.
  intros est cfg t He H3 Hn. pose proof (infer_spec est He H3 Hn) as H. destruct (infer_drifts est (Some cfg) t) as [(t', cfg')|e]; [|exact H].
  destruct H as (H1 & _ & H2 & H4). auto.
Qed.
Print Assumptions C86_inferred.
Definition ex_pids : list (list string * option string * list num) :=
  [(["PFA"; "1"; "1"], Some "g", [Some 1%Qc]); (["PID"; "1"; "1"], Some "unitless", [Some (qc (1#100))]); (["PID"; "1"; "2"], Some "unitless", [Some (qc (2#100))])].
Definition ex_drift : drift_config := [("method", JStr "FEMA P-58"); ("2", JNum (qc (1#200)))].
Example C86_hypotheses_met : three ex_pids /\ exists t c, infer_drifts (fun _ l => l) (Some ex_drift) ex_pids = Ok (t, c) /\
  t = ex_pids ++ [(["RID"; "1"; "2"], Some "unitless", [Some (qc (2#100))])] /\ infer_drifts (fun _ l => l) (Some [("method", JStr "FEMA P-58"); ("3", JNum (qc 1))]) ex_pids = Err KeyError.
Proof. split; [repeat constructor|]. eexists _, _. split; [vm_compute; reflexivity|]. split; [vm_compute; reflexivity|reflexivity]. Qed.
(** A constant demand of 1 is there afterwards; other demands are not changed. *)
Theorem C86_constant : forall m t, In (["ONE"; "0"; "1"], Some "unitless", repeat (Some 1%Qc) m) (with_one m t) /\
  forall lab u col, lab <> ["ONE"; "0"; "1"] -> (In (lab, u, col) (with_one m t) <-> In (lab, u, col) t).
Proof.
  intros m t. destruct (set_column_spec ["ONE"; "0"; "1"] (Some "unitless") (repeat (Some 1%Qc) m) t) as ((u' & H1 & ->) & H2). split; assumption.
Qed.
Print Assumptions C86_constant.
(** The inference uses up its configuration: with what is left of it the next one always fails. *)
Theorem C86_again_refuted : ~ (forall est cfg t t' cfg', infer_drifts est cfg t = Ok (t', cfg') -> is_ok (infer_drifts est cfg' t) = true).
Proof. intros H. specialize (H (fun _ l => l) (Some ex_drift) ex_pids _ _ eq_refl). discriminate. Qed.
Print Assumptions C86_again_refuted.
Theorem C86_used_up : forall est cfg t t' cfg' est' t2, cfg <> [] -> infer_drifts est (Some cfg) t = Ok (t', cfg') -> infer_drifts est' cfg' t2 = Err KeyError.
Proof. exact config_used_up. Qed.
Print Assumptions C86_used_up.

(** * C80: damage processes *)

(** FEMA P-58: the rules whose component is part of the asset. *)
Theorem C80_fema : forall components user, exists p, damage_process (Some "FEMA P-58") components user = Ok (Some p) /\
  forall e, In e p <-> exists o src eff, In (o, src, eff) fema_rules /\ e = entry o src eff /\ In src components.
Proof. exact fema_process. Qed.
Print Assumptions C80_fema.
(** Hazus Earthquake: the same, and the rule of the structural class (or of lifeline facilities) for
    the last component of that class. Names of components are without underscores. *)
Theorem C80_hazus_partial : forall approach class rules components user, hazus_default approach class rules ->
  (forall c, In c components -> has_char "_" c = false /\ c <> class) ->
  exists p, damage_process (Some approach) components user = Ok (Some p) /\
  forall e, In e p <-> (exists o src eff, In (o, src, eff) rules /\ e = entry o src eff /\ In src components) \/
                       (exists c, last_of_class class components c /\ e = entry "1" c ("DS5", "collapse_DS1")).
Proof. exact hazus_process. Qed.
Print Assumptions C80_hazus_partial.
Example C80_hypotheses_met : hazus_default "Hazus Earthquake - Buildings" "STR" building_rules /\
  (forall c, In c ["NSA.RES1"; "STR.W1.LC"; "collapse"] -> has_char "_" c = false /\ c <> "STR") /\ last_of_class "STR" ["NSA.RES1"; "STR.W1.LC"; "collapse"] "STR.W1.LC" /\
  damage_process (Some "Hazus Earthquake - Buildings") ["NSA.RES1"; "STR.W1.LC"; "collapse"] None =
  Ok (Some [("3_collapse", [("DS1", "ALL_NA")]); ("1_STR.W1.LC", [("DS5", "collapse_DS1")])]).
Proof.
  split; [now left|]. split; [intros c [<-|[<-|[<-|[]]]]; split; (reflexivity || discriminate)|]. split; [|reflexivity].
  exists ["NSA.RES1"], ["collapse"]. split; [reflexivity|]. split; [reflexivity|]. intros x [<-|[]]. reflexivity.
Qed.
(** A user's process is used as it is. *)
Theorem C80_user : forall components p, damage_process (Some "User Defined") components (Some p) = Ok (Some p) /\ damage_process (Some "User Defined") components None = Err ValueError.
Proof. intros. split; reflexivity. Qed.
Print Assumptions C80_user.
(** Of several structural components only the last one can cause collapse. *)
Theorem C80_every_component_refuted : ~ (forall components c p, In c components -> starts_with "STR." c = true -> has_char "_" c = false ->
  damage_process (Some "Hazus Earthquake - Buildings") components None = Ok (Some p) -> In (entry "1" c ("DS5", "collapse_DS1")) p).
Proof.
  intros H. specialize (H ["STR.W1.LC"; "STR.C1L.LC"; "collapse"] "STR.W1.LC" _ (or_introl eq_refl) eq_refl eq_refl eq_refl).
  cbn in H. unfold entry in H. cbn in H. intuition discriminate.
Qed.
Print Assumptions C80_every_component_refuted.
(** The rule is lost if the name has an underscore. *)
Theorem C80_underscore_refuted : ~ (forall components c p, last_of_class "STR" components c ->
  damage_process (Some "Hazus Earthquake - Buildings") components None = Ok (Some p) -> In (entry "1" c ("DS5", "collapse_DS1")) p).
Proof.
  intros H. assert (L : last_of_class "STR" ["STR.W1_LC"] "STR.W1_LC") by (exists [], []; split; [reflexivity|]; split; [reflexivity|intros x []]).
  specialize (H _ _ _ L eq_refl). cbn in H. exact H.
Qed.
Print Assumptions C80_underscore_refuted.

(** * C52: replacement consequences *)

(** There is one entry for each kind of consequence. *)
Theorem C52_entries : forall approach consequences occupancy rs t, replacement_table approach consequences occupancy rs = Ok t ->
  map fst (p_rows t) = [("replacement", "Cost"); ("replacement", "Time"); ("replacement", "Carbon"); ("replacement", "Energy")].
Proof. intros approach consequences occupancy rs t H. destruct (replacement_rows _ _ _ _ H) as (time & _ & H' & _). exact H'. Qed.
Print Assumptions C52_entries.
(** What the user configures is what is used. *)
Theorem C52_given : forall approach consequences occupancy rs t dv r rp m, replacement_table approach consequences occupancy rs = Ok t ->
  In (("replacement", dv), r) (p_rows t) -> setting rs dv = Some rp -> rp_median rp = Some m -> has_cells r (as_configured rp m).
Proof. exact replacement_given. Qed.
Print Assumptions C52_given.
(** Defaults of FEMA P-58. *)
Theorem C52_fema : forall consequences occupancy rs t dv r rp, replacement_table "FEMA P-58" consequences occupancy rs = Ok t ->
  In (("replacement", dv), r) (p_rows t) -> setting rs dv = Some rp -> rp_median rp = None -> has_cells r (consequence (VText (fema_unit dv)) (VNum 0)).
Proof. exact replacement_fema. Qed.
Print Assumptions C52_fema.
(** Defaults of the other approaches. *)
Theorem C52_cost : forall approach consequences occupancy rs t r, approach <> "FEMA P-58" -> replacement_table approach consequences occupancy rs = Ok t ->
  In (("replacement", "Cost"), r) (p_rows t) -> rp_median (rs_cost rs) = None -> has_cells r (consequence (VText "loss_ratio") (VNum 1)).
Proof. exact replacement_ratio. Qed.
Print Assumptions C52_cost.
Theorem C52_time_of_occupancy : forall approach class consequences o rs t r,
  (approach = "Hazus Earthquake - Buildings" /\ class = "STR." \/ approach = "Hazus Earthquake - Lifeline Facilities" /\ class = "LF.") ->
  replacement_table approach consequences (Some o) rs = Ok t -> In (("replacement", "Time"), r) (p_rows t) -> rp_median (rs_time rs) = None ->
  exists r', In (((class ++ o)%string, "Time"), r') (p_rows consequences) /\ has_cells r (consequence (VText "day") (at_col r' ("DS5", "Theta_0"))).
Proof. exact replacement_days. Qed.
Print Assumptions C52_time_of_occupancy.
Theorem C52_time_otherwise : forall approach consequences occupancy rs t r,
  ~ In approach ["FEMA P-58"; "Hazus Earthquake - Buildings"; "Hazus Earthquake - Lifeline Facilities"] ->
  replacement_table approach consequences occupancy rs = Ok t -> In (("replacement", "Time"), r) (p_rows t) -> rp_median (rs_time rs) = None ->
  has_cells r (consequence (VText "loss_ratio") (VNum 1)).
Proof. exact replacement_time_ratio. Qed.
Print Assumptions C52_time_otherwise.
Definition no_setting : replacement := RP None None None None.
Definition ex_conseq : ptable pkey := tab [("DV", "Unit"); ("Quantity", "Unit"); ("DS5", "Theta_0")] [(("STR.RES1", "Time"), [VText "day"; VText "1 EA"; VNum (qc 360)])].
Example C52_hypotheses_met :
  (exists t, replacement_table "Hazus Earthquake - Buildings" ex_conseq (Some "RES1") (RPS (RP (Some "USD") (Some (VNum (qc 100))) (Some "normal") (Some (VNum (qc (1#10))))) no_setting no_setting no_setting) = Ok t /\
    map (fun r => at_col (snd r) ("DS1", "Theta_0")) (p_rows t) = [VNum (qc 100); VNum (qc 360); VBlank; VBlank]) /\
  (exists t, replacement_table "FEMA P-58" ex_conseq None (RPS no_setting no_setting no_setting no_setting) = Ok t /\
    map (fun r => at_col (snd r) ("DV", "Unit")) (p_rows t) = [VText "USD_2011"; VText "worker_day"; VText "kg"; VText "MJ"]) /\
  (exists t, replacement_table "Hazus Hurricane" ex_conseq None (RPS no_setting no_setting no_setting no_setting) = Ok t /\
    map (fun r => at_col (snd r) ("DV", "Unit")) (p_rows t) = [VText "loss_ratio"; VText "loss_ratio"; VBlank; VBlank]).
Proof. repeat split; eexists; (split; [vm_compute; reflexivity|vm_compute; reflexivity]). Qed.
(** Without a value and without a default an entry stays in the parameters... *)
Theorem C52_removed_refuted : ~ (forall approach consequences occupancy rs t dv rp, approach <> "FEMA P-58" -> In dv ["Carbon"; "Energy"] ->
  replacement_table approach consequences occupancy rs = Ok t -> setting rs dv = Some rp -> rp_median rp = None -> ~ In ("replacement", dv) (map fst (p_rows t))).
Proof.
  intros H. refine (H "Hazus Hurricane" ex_conseq None (RPS no_setting no_setting no_setting no_setting) _ "Energy" no_setting _ _ eq_refl eq_refl eq_refl _).
  - discriminate.
  - cbn; auto.
  - cbn; auto 10.
Qed.
Print Assumptions C52_removed_refuted.
(** ... so the loss model does not report that the consequence is missing. *)
Theorem C52_reported_refuted : ~ (forall e approach consequences occupancy rs t dv rp out, approach <> "FEMA P-58" -> In dv ["Carbon"; "Energy"] ->
  replacement_table approach consequences occupancy rs = Ok t -> setting rs dv = Some rp -> rp_median rp = None ->
  load_loss e ["Cost"; "Time"; "Carbon"; "Energy"] ["replacement"] no_pars [t] = Ok out -> In ("replacement", dv) (o_missing out)).
Proof.
  intros H.
  specialize (H {| numbers := fun _ => None; shown := fun _ => ""; factors := [("EA", 1%Qc); ("loss_ratio", 1%Qc)] |} "Hazus Hurricane" ex_conseq None (RPS no_setting no_setting no_setting no_setting)).
  assert (X : exists t out, replacement_table "Hazus Hurricane" ex_conseq None (RPS no_setting no_setting no_setting no_setting) = Ok t /\
     load_loss {| numbers := fun _ => None; shown := fun _ => ""; factors := [("EA", 1%Qc); ("loss_ratio", 1%Qc)] |} ["Cost"; "Time"; "Carbon"; "Energy"] ["replacement"] no_pars [t] = Ok out /\ o_missing out = []).
  { eexists _, _. split; [vm_compute; reflexivity|]. split; [vm_compute; reflexivity|reflexivity]. }
  destruct X as (t & out & X1 & X2 & X3). assert (Y : In ("replacement", "Energy") (o_missing out)).
  { apply (H t "Energy" no_setting out); [discriminate|cbn; auto|exact X1|reflexivity|reflexivity|exact X2]. }
  rewrite X3 in Y. destruct Y.
Qed.
Print Assumptions C52_reported_refuted.
(** The entry that stays has no parameters: no unit and no median. *)
Theorem C52_blank_partial : forall approach consequences occupancy rs t dv r rp, approach <> "FEMA P-58" -> In dv ["Carbon"; "Energy"] ->
  replacement_table approach consequences occupancy rs = Ok t -> setting rs dv = Some rp -> rp_median rp = None ->
  In (("replacement", dv), r) (p_rows t) -> forall c, at_col r c = VBlank.
Proof.
  intros approach consequences occupancy rs t dv r rp Ha Hd H Hs Hm Hin c. destruct (@replacement_blank _ _ _ _ _ _ _ _ Ha Hd H Hs Hm Hin) as [_ X]. apply X. intros [].
Qed.
Print Assumptions C52_blank_partial.

(** * C79: the loss map of a calculation *)

(** Automatic mapping: each component has the consequence model that belongs to it, if there is one;
    collapse and irreparable damage have the replacement consequences; nothing else is mapped. *)
Theorem C79_automatic : forall approach occupancy models components folder path read, Forall plain_label components -> NoDup components ->
  exists m, prepare_map "Automatic" approach occupancy models components folder path read = Ok m /\ used_map components m = Ok m /\ NoDup (map fst m) /\
    forall c v, In (c, v) m <-> (In c whole_building /\ v = ["replacement"]) \/
      (~ In c whole_building /\ In c components /\ exists model, belongs approach occupancy c model /\ In model models /\ v = [model]).
Proof. exact automatic_map. Qed.
Print Assumptions C79_automatic.
(** A user's map is kept, except for collapse and irreparable damage. *)
Theorem C79_user_partial : forall components approach occupancy models d p read m0, read (str_replace "CustomDLDataFolder" d p) = Ok m0 -> Forall plain_label (map fst m0) ->
  exists m, prepare_map "User Defined" approach occupancy models components (Some d) (Some p) read = Ok m /\ used_map components m = Ok m /\
    forall c v, In (c, v) m <-> (In c whole_building /\ v = ["replacement"]) \/ (~ In c whole_building /\ In (c, v) m0).
Proof. exact users_map. Qed.
Print Assumptions C79_user_partial.
(** A map in the old format is kept as it is, provided that it has an entry for collapse. *)
Theorem C79_old_format_partial : forall components approach occupancy models d p read m0, read (str_replace "CustomDLDataFolder" d p) = Ok (old_format m0) ->
  Forall plain_label (map fst m0) -> In "collapse" (map fst m0) ->
  exists m, prepare_map "User Defined" approach occupancy models components (Some d) (Some p) read = Ok m /\ used_map components m = Ok m0.
Proof.
  intros components approach occupancy models d p read m0 Hr Hp Hc. destruct (old_map components m0 Hc Hp) as [H1 H2].
  eexists. split; [unfold prepare_map; cbn [String.eqb Ascii.eqb Bool.eqb]; rewrite Hr; reflexivity|]. rewrite H1. exact H2.
Qed.
Print Assumptions C79_old_format_partial.
Definition ex_map : lmap := [("STR.W1", ["STR.RES1"]); ("collapse", ["demolition"])].
Example C79_hypotheses_met : Forall plain_label ["STR.W1.LC"; "NSA.X"; "collapse"] /\ NoDup ["STR.W1.LC"; "NSA.X"; "collapse"] /\
  prepare_map "Automatic" "Hazus Earthquake - Buildings" (Some "RES1") ["STR.RES1"] ["STR.W1.LC"; "NSA.X"; "collapse"] None None (fun _ => Err ValueError) =
    Ok [("STR.W1.LC", ["STR.RES1"]); ("collapse", ["replacement"]); ("irreparable", ["replacement"])] /\
  Forall plain_label (map fst ex_map) /\ In "collapse" (map fst ex_map) /\
  prepare_map "User Defined" "" None [] [] (Some "x") (Some "CustomDLDataFolder/map.csv") (fun s => if String.eqb s "x/map.csv" then Ok ex_map else Err FileNotFoundError) =
    Ok [("STR.W1", ["STR.RES1"]); ("collapse", ["replacement"]); ("irreparable", ["replacement"])] /\
  used_map [] (old_format ex_map) = Ok ex_map.
Proof.
  split; [repeat constructor|]. split; [distinct|]. split; [reflexivity|]. split; [repeat constructor|]. split; [cbn; auto|]. split; reflexivity.
Qed.
(** The user's own entry for collapse is overwritten. *)
Theorem C79_override_refuted : ~ (forall components approach occupancy models d p read m0 m,
  read (str_replace "CustomDLDataFolder" d p) = Ok m0 -> Forall plain_label (map fst m0) ->
  prepare_map "User Defined" approach occupancy models components (Some d) (Some p) read = Ok m -> forall e, In e m0 -> In e m).
Proof.
  intros H. specialize (H [] "" None [] "" "" (fun _ => Ok ex_map) ex_map [("STR.W1", ["STR.RES1"]); ("collapse", ["replacement"]); ("irreparable", ["replacement"])] eq_refl).
  assert (P : Forall plain_label (map fst ex_map)) by repeat constructor. specialize (H P eq_refl ("collapse", ["demolition"])).
  assert (X : In ("collapse", ["demolition"]) ex_map) by (cbn; auto). apply H in X. cbn in X. intuition discriminate.
Qed.
Print Assumptions C79_override_refuted.
(** In the old format without an entry for collapse the replacement consequences are lost. *)
Theorem C79_old_format_refuted : ~ (forall components m0 m, Forall plain_label (map fst m0) -> used_map components (with_replacement (old_format m0)) = Ok m -> In ("collapse", ["replacement"]) m).
Proof.
  intros H. specialize (H [] [("STR.W1", ["STR.RES1"])] [("STR.W1", ["STR.RES1"]); ("", ["replacement"]); ("", ["replacement"])]).
  cbn [In] in H. destruct H as [E|[E|[E|[]]]]; [repeat constructor|reflexivity| | |]; discriminate E.
Qed.
Print Assumptions C79_old_format_refuted.

(** * C87: combination of wind and flood losses *)

(** If the wind component comes first in the asset and the flood component second, and both have
    consequence models, their losses are combined. *)
Theorem C87_wind_first_partial : forall approach occupancy models wind flood rest folder path read m mw mf, Forall plain_label (wind :: flood :: rest) ->
  ~ In wind whole_building -> ~ In flood whole_building -> belongs approach occupancy wind mw -> belongs approach occupancy flood mf -> In mw models -> In mf models ->
  prepare_map "Automatic" approach occupancy models (wind :: flood :: rest) folder path read = Ok m ->
  combined_components (Some "Hazus Hurricane") m = Ok (Some (wind, flood)).
Proof. exact wind_first. Qed.
Print Assumptions C87_wind_first_partial.
Example C87_hypotheses_met : Forall plain_label ["W.SF.1"; "zF.1"] /\ belongs "Hazus Hurricane" None "W.SF.1" "W.SF.1" /\ belongs "Hazus Hurricane" None "zF.1" "zF.1" /\
  prepare_map "Automatic" "Hazus Hurricane" None ["W.SF.1"; "zF.1"] ["W.SF.1"; "zF.1"] None None (fun _ => Err ValueError) =
    Ok [("W.SF.1", ["W.SF.1"]); ("zF.1", ["zF.1"]); ("collapse", ["replacement"]); ("irreparable", ["replacement"])].
Proof. split; [repeat constructor|]. split; [apply same_name; intros s E; discriminate|]. split; [apply same_name; intros s E; discriminate|reflexivity]. Qed.
(** Otherwise the components change their roles, or a single component is combined with collapse. *)
Theorem C87_roles_refuted : ~ (forall components models wind flood folder path read m a b, In wind components -> In flood components -> wind <> flood ->
  starts_with "W." wind = true -> starts_with "F." flood = true ->
  prepare_map "Automatic" "Hazus Hurricane" None models components folder path read = Ok m ->
  combined_components (Some "Hazus Hurricane") m = Ok (Some (a, b)) -> a = wind /\ b = flood).
Proof.
  intros H. specialize (H ["F.1"; "W.1"] ["F.1"; "W.1"] "W.1" "F.1" None None (fun _ => Err ValueError)
    [("F.1", ["F.1"]); ("W.1", ["W.1"]); ("collapse", ["replacement"]); ("irreparable", ["replacement"])] "F.1" "W.1").
  cbn [In] in H. destruct H as [E _]; auto; try reflexivity; discriminate.
Qed.
Print Assumptions C87_roles_refuted.
Theorem C87_single_refuted : ~ (forall components models folder path read m a b,
  prepare_map "Automatic" "Hazus Hurricane" None models components folder path read = Ok m ->
  combined_components (Some "Hazus Hurricane") m = Ok (Some (a, b)) -> In a components /\ In b components).
Proof.
  intros H. specialize (H ["W.1"] ["W.1"] None None (fun _ => Err ValueError)
    [("W.1", ["W.1"]); ("collapse", ["replacement"]); ("irreparable", ["replacement"])] "W.1" "collapse" eq_refl eq_refl). destruct H as [_ [E|[]]]. discriminate E.
Qed.
Print Assumptions C87_single_refuted.
