(** Theorems about the configuration of a run (C115). *)
From Verif Require Import Prelude PreludeFacts M_Base S_Base P_Base M_Outputs M_Library S_Library T_Library P_Outputs P_LossLF M_Config S_Config P_Config.
Set Implicit Arguments.
Local Open Scope string_scope.
Local Open Scope list_scope.

(** * C115 The configuration of a run *)

(** A configuration file with a [DL] entry is used as it is: apart from the settings listed in
    [own_changes], every setting is the file's; of those, what is given stays, what is missing
    gets the documented default, numbers written as text become numbers, and settings of
    earlier versions take the place of today's. *)
Theorem C115_own : forall C (h : host C) c sh cfg r,
  given cfg ["DL"] -> parse_config h c sh cfg = Ok r ->
  exists d, r = Some d /\
    (forall q, apart own_changes q -> value d q = value cfg q) /\
    (exists v n, first_true cfg ["DL"; "Options"; "Sampling"; "SampleSize"] ["DL"; "Demands"; "SampleSize"] v /\
       h_int h v = Ok n /\ value d ["DL"; "Options"; "Sampling"; "SampleSize"] = Some (JNum (qz n))) /\
    kept_or cfg d ["DL"; "Options"; "LogFile"] (fun v => v = Some (JStr "pelicun_log.txt")) /\
    kept_or cfg d ["DL"; "Options"; "Verbose"] (fun v => v = Some (JBool true)) /\
    kept_or cfg d ["DL"; "Options"; "ListAllDamageStates"] (fun v => v = Some (JBool true)) /\
    kept_or cfg d ["DL"; "Demands"; "DemandFilePath"] (fun v => exists f, c_demand_file c = Some f /\ v = Some (JStr f)) /\
    (set_true cfg ["DL"; "Losses"; "BldgRepair"] ->
       value d ["DL"; "Losses"; "Repair"] = value cfg ["DL"; "Losses"; "BldgRepair"]) /\
    (~ set_true cfg ["DL"; "Losses"; "BldgRepair"] ->
       value d ["DL"; "Losses"; "Repair"] = value cfg ["DL"; "Losses"; "Repair"]) /\
    (given cfg ["DL"; "Asset"; "NumberOfStories"] -> exists v n, value cfg ["DL"; "Asset"; "NumberOfStories"] = Some v /\
       h_int h v = Ok n /\ value d ["DL"; "Asset"; "NumberOfStories"] = Some (JNum (qz n))) /\
    (~ given cfg ["DL"; "Asset"; "NumberOfStories"] ->
       value d ["DL"; "Asset"; "NumberOfStories"] = value cfg ["DL"; "Asset"; "NumberOfStories"]) /\
    (given cfg ["DL"; "Damage"; "CollapseFragility"] -> ~ given cfg ["DL"; "Damage"; "CollapseFragility"; "CapacityDistribution"] ->
       value d ["DL"; "Damage"; "CollapseFragility"; "CapacityDistribution"] = Some (JStr "deterministic") /\
       value d ["DL"; "Damage"; "CollapseFragility"; "Theta_1"] = Some (JStr "N/A")) /\
    (~ given cfg ["DL"; "Damage"; "CollapseFragility"] \/ given cfg ["DL"; "Damage"; "CollapseFragility"; "CapacityDistribution"] ->
       value d ["DL"; "Damage"; "CollapseFragility"; "CapacityDistribution"] = value cfg ["DL"; "Damage"; "CollapseFragility"; "CapacityDistribution"] /\
       value d ["DL"; "Damage"; "CollapseFragility"; "Theta_1"] = value cfg ["DL"; "Damage"; "CollapseFragility"; "Theta_1"]).
Proof.
  intros C h c sh cfg r G H. destruct (@parse_own _ _ _ _ _ _ G H) as (cfg1 & d & -> & A & V & Fi).
  exists d. split; [reflexivity|].
  destruct (add_demand_file_spec _ _ _ A) as (F & _ & K1 & K2 & _). specialize (K1 G). specialize (K2 G).
  destruct (finish_spec _ _ _ _ _ Fi) as [(B1 & B2 & B3 & B4 & B5 & B6 & B7 & B8 & B9 & B10 & B11 & B12) _].
  assert (KF : forall ks f, divergeb ["DL"; "Demands"; "DemandFilePath"] ks = true -> kept_or cfg1 d ks f -> kept_or cfg d ks f).
  { intros ks f D. apply kept_or_frame with (ps := ["DL"; "Demands"; "DemandFilePath"]); assumption. }
  assert (Vf : forall ks, divergeb ["DL"; "Demands"; "DemandFilePath"] ks = true -> value cfg1 ks = value cfg ks) by exact F.
  split; [|split; [|split; [|split; [|split; [|split; [|split; [|split; [|split; [|split; [|split]]]]]]]]]].
  - intros q Hq. rewrite (B1 q Hq). apply F. apply Forall_inv in Hq. now apply divergeb_true.
  - destruct B2 as (v & n & [T P] & I & W). exists v, n. split; [|now split]. split; [exact T|].
    unfold set_true in *. rewrite !Vf in P by (vm_compute; reflexivity). exact P.
  - apply KF; [vm_compute; reflexivity|exact B3].
  - apply KF; [vm_compute; reflexivity|exact B4].
  - apply KF; [vm_compute; reflexivity|exact B5].
  - destruct B6 as [B6 B6']. split.
    + intros Y. rewrite (K1 Y) in *. exact (B6 Y).
    + intros N. specialize (K2 N). destruct (schema_demand_file _ V K2) as [s Es].
      destruct (c_demand_file c) as [f|]; [|discriminate Es]. exists f. split; [reflexivity|].
      rewrite B6; [exact K2|]. exists (JStr f). split; [exact K2|apply given_str].
  - unfold set_true in *. rewrite !Vf in B7 by (vm_compute; reflexivity). exact B7.
  - unfold set_true in *. rewrite !Vf in B8 by (vm_compute; reflexivity). exact B8.
  - unfold given in *. rewrite !Vf in B9 by (vm_compute; reflexivity). exact B9.
  - unfold given in *. rewrite !Vf in B10 by (vm_compute; reflexivity). exact B10.
  - unfold given in *. rewrite !Vf in B11 by (vm_compute; reflexivity). exact B11.
  - unfold given in *. rewrite !Vf in B12 by (vm_compute; reflexivity). exact B12.
Qed.
Print Assumptions C115_own.

(** A configuration file without a [DL] entry: everything outside [DL] stays the file's.  [DL]
    is what the first script returns, given the file's settings with the demand file and the
    number of realizations; changed are the demand file, the sample size, the calibration or
    coupling of demands, the component file, the settings of [own_changes], and, if there are
    further scripts, the databases.  The options are the script's, and then the user's. *)
Theorem C115_auto : forall C (h : host C) c sh cfg d,
  wf_json (JDict cfg) -> ~ given cfg ["DL"] -> parse_config h c sh cfg = Ok (Some d) ->
  (forall k q, k <> "DL" -> value d (k :: q) = value cfg (k :: q)) /\
  exists p ps asked copy aim dl comp, model_scripts h c cfg = Ok (p :: ps) /\
    h_script h (script_location h p) asked = Ok (copy, aim, dl, comp) /\
    (value asked ["DL"; "Demands"; "DemandFilePath"] = Some (jopt (c_demand_file c)) /\
     value asked ["DL"; "Demands"; "SampleSize"] = Some (JStr (c_realizations c)) /\
     forall k q, k <> "DL" -> value asked (k :: q) = value cfg (k :: q)) /\
    (forall q, apart script_changes ("DL" :: q) -> (ps <> [] -> apart further_changes ("DL" :: q)) -> value d ("DL" :: q) = lookup dl q) /\
    value d ["DL"; "Demands"; "DemandFilePath"] =
      Some (JStr (match c_demand_file c with Some f => f | None => c_dir c ++ "/response.csv" end)) /\
    value d ["DL"; "Demands"; "SampleSize"] = Some (JStr (c_realizations c)) /\
    (c_coupled c = true -> value d ["DL"; "Demands"; "CoupledDemands"] = Some (JBool true) /\
       value d ["DL"; "Demands"; "Calibration"] = lookup dl ["Demands"; "Calibration"]) /\
    (c_coupled c = false -> value d ["DL"; "Demands"; "CoupledDemands"] = lookup dl ["Demands"; "CoupledDemands"] /\
       value d ["DL"; "Demands"; "Calibration"; "ALL"; "DistributionFamily"] = Some (JStr "lognormal")) /\
    value d ["DL"; "Asset"; "ComponentAssignmentFile"] = Some (JStr (c_out c ++ "/CMP_QNT.csv")) /\
    (ps <> [] -> ~ set_true d ["DL"; "Losses"; "BldgRepair"] -> value d ["DL"; "Losses"; "Repair"; "CombinationMethod"] = Some (JStr "Hazus Hurricane")) /\
    (forall q, q <> [] -> apart own_changes ("DL" :: "Options" :: q) ->
       prefers (lookup dl ["Options"]) (value cfg user_options) (value d ["DL"; "Options"]) q) /\
    exists v n, h_int h v = Ok n /\ value d ["DL"; "Options"; "Sampling"; "SampleSize"] = Some (JNum (qz n)) /\
      (forall x, lookup dl ["Options"; "Sampling"; "SampleSize"] = Some x -> is_dict x = false -> is_true x -> v = x) /\
      (lookup dl ["Options"; "Sampling"; "SampleSize"] = None ->
         (forall x, value cfg (user_options ++ ["Sampling"; "SampleSize"]) = Some x -> is_dict x = false -> is_true x -> v = x) /\
         (value cfg (user_options ++ ["Sampling"; "SampleSize"]) = None -> v = JStr (c_realizations c))).
Proof.
  intros C h c sh cfg d Wf G H. destruct (@parse_auto_unfold _ _ _ _ _ _ G H) as (_ & [[Q _] | K]); [discriminate Q|].
  destruct K as (cfg1 & ri & d' & Q & Pa & Fi). injection Q as <-.
  destruct (parse_auto_spec _ _ _ Pa) as (p & ps & a & copy & aim & dl & comp & M & A & Hs & O & P & V1 & V2 & V3 & V4 & V5 & Me & V6).
  destruct (finish_spec _ _ _ _ _ Fi) as [(B1 & B2 & B3 & B4 & B5 & B6 & B7 & B8 & B9 & B10 & B11 & B12) _].
  assert (Bf : forall q, apartb own_changes q = true -> value d q = value cfg1 q).
  { intros q Hq. apply B1. now apply apartb_true. }
  assert (Pr : forall k ks, prefers (lookup dl ["Options"]) (value cfg user_options) (value cfg1 ["DL"; "Options"]) (k :: ks)).
  { intros k ks. apply merged_prefers; [|exact Me]. intros u Hu. exact (wf_lookup _ Wf Hu). }
  split.
  - intros k q N. rewrite Bf; [now apply O|]. unfold apartb, own_changes. cbn [forallb].
    rewrite !(@diverge_head "DL") by exact N. reflexivity.
  - exists p, ps, a, copy, aim, dl, comp. split; [exact M|]. split; [exact Hs|]. split; [exact A|].
    split; [|split; [|split; [|split; [|split; [|split; [|split; [|split]]]]]]].
    + intros q D1 D2. apply apartb_true in D1. unfold script_changes, own_changes, apartb in D1. cbn [app forallb] in D1.
      rewrite !andb_true_iff in D1. destruct D1 as (E1 & E2 & E3 & E4 & E5 & E6 & E7 & E8 & E9 & E10 & E11 & E12 & E13 & E14 & E15 & _).
      rewrite Bf.
      * apply P; [|intros N; apply apartb_true; auto]. unfold apartb. cbn [forallb]. now rewrite E1, E11, E12, E13, E14, E15.
      * unfold apartb, own_changes. cbn [forallb]. now rewrite E1, E2, E3, E4, E5, E6, E7, E8, E9, E10.
    + destruct B6 as [B6 B6']. destruct (c_demand_file c) as [f|]; cbn [jopt] in V1.
      * rewrite B6; [exact V1|]. exists (JStr f). split; [exact V1|apply given_str].
      * apply B6'. intros (v & Hv & N). rewrite V1 in Hv. injection Hv as <-. apply N. now left.
    + rewrite Bf by (vm_compute; reflexivity). exact V2.
    + intros Cp. rewrite Cp in V3, V4. rewrite !Bf by (vm_compute; reflexivity). now split.
    + intros Cp. rewrite Cp in V3, V4. rewrite !Bf by (vm_compute; reflexivity). split; [exact V3|].
      unfold value in *. change ["DL"; "Demands"; "Calibration"; "ALL"; "DistributionFamily"]
        with (["DL"; "Demands"; "Calibration"] ++ ["ALL"; "DistributionFamily"]). rewrite lookup_app, V4. reflexivity.
    + rewrite Bf by (vm_compute; reflexivity). exact V5.
    + intros N1 N2. assert (N3 : ~ set_true cfg1 ["DL"; "Losses"; "BldgRepair"]).
      { unfold set_true in *. now rewrite Bf in N2 by (vm_compute; reflexivity). }
      specialize (B8 N3). specialize (V6 N1). unfold value in *.
      change ["DL"; "Losses"; "Repair"; "CombinationMethod"] with (["DL"; "Losses"; "Repair"] ++ ["CombinationMethod"]) in *.
      rewrite lookup_app in *. now rewrite B8.
    + intros q Nq Aq. destruct q as [|k q]; [easy|]. specialize (Pr k q). unfold prefers in *.
      assert (X : below (value d ["DL"; "Options"]) (k :: q) = below (value cfg1 ["DL"; "Options"]) (k :: q)).
      { apply apartb_true in Aq. apply Bf in Aq. unfold below, value in *.
        change ("DL" :: "Options" :: k :: q) with (["DL"; "Options"] ++ (k :: q)) in Aq. rewrite !lookup_app in Aq. exact Aq. }
      rewrite X. exact Pr.
    + destruct B2 as (v & n & [T Fv] & I & W). exists v, n. split; [exact I|]. split; [exact W|].
      specialize (Pr "Sampling" ["SampleSize"]). unfold prefers in Pr.
      assert (X1 : below (lookup dl ["Options"]) ["Sampling"; "SampleSize"] = lookup dl ["Options"; "Sampling"; "SampleSize"]).
      { unfold below. change ["Options"; "Sampling"; "SampleSize"] with (["Options"] ++ ["Sampling"; "SampleSize"]).
        now rewrite lookup_app. }
      assert (X2 : below (value cfg1 ["DL"; "Options"]) ["Sampling"; "SampleSize"] = value cfg1 ["DL"; "Options"; "Sampling"; "SampleSize"]).
      { unfold below, value. change ["DL"; "Options"; "Sampling"; "SampleSize"] with (["DL"; "Options"] ++ ["Sampling"; "SampleSize"]).
        now rewrite lookup_app. }
      assert (X3 : below (value cfg user_options) ["Sampling"; "SampleSize"] = value cfg (user_options ++ ["Sampling"; "SampleSize"])).
      { unfold below, value. now rewrite lookup_app. }
      rewrite X1, X2, X3 in Pr. clear X1 X2 X3. unfold set_true in Fv.
      split.
      * intros x Hx Dx Tx. rewrite Hx, Dx in Pr. destruct Fv as [Fv|[Fv _]]; [congruence|].
        exfalso. apply Fv. eauto.
      * intros Hn. rewrite Hn in Pr. split.
        -- intros x Hx Dx Tx. rewrite Hx, Dx in Pr. destruct Fv as [Fv|[Fv _]]; [congruence|].
           exfalso. apply Fv. eauto.
        -- intros Hx. rewrite Hx in Pr. destruct Fv as [Fv|[_ Fv]]; congruence.
Qed.
Print Assumptions C115_auto.

(** The databases of several scripts are listed together, in the order of the methods. *)
Theorem C115_databases : forall C (h : host C) c sh cfg d ps ts us,
  ~ given cfg ["DL"] -> parse_config h c sh cfg = Ok (Some d) -> model_scripts h c cfg = Ok ps ->
  (forall p t u, In (p, (t, u)) (combine ps (combine ts us)) -> forall a copy aim dl comp,
     (forall k q, k <> "DL" -> value a (k :: q) = value cfg (k :: q)) -> h_script h (script_location h p) a = Ok (copy, aim, dl, comp) ->
     lookup dl ["Asset"; "ComponentDatabase"] = Some (JStr t) /\ lookup dl ["Losses"; "Repair"; "ConsequenceDatabase"] = Some (JStr u)) ->
  List.length ts = List.length ps -> List.length us = List.length ps ->
  value d ["DL"; "Asset"; "ComponentDatabase"] = Some (JStr (join "," ts)) /\
  (~ set_true d ["DL"; "Losses"; "BldgRepair"] -> value d ["DL"; "Losses"; "Repair"; "ConsequenceDatabase"] = Some (JStr (join "," us))).
Proof.
  intros C h c sh cfg d ps ts us G H M S Lt Lu. destruct (@parse_auto_unfold _ _ _ _ _ _ G H) as (_ & [[Q _] | K]); [discriminate Q|].
  destruct K as (cfg1 & ri & d' & Q & Pa & Fi). injection Q as <-.
  assert (St : forall a, asked c cfg a -> Forall2 (supplies h a ["Asset"; "ComponentDatabase"]) ps ts /\
    Forall2 (supplies h a ["Losses"; "Repair"; "ConsequenceDatabase"]) ps us).
  { intros a (_ & _ & A3). clear -S Lt Lu A3. revert ts us S Lt Lu. induction ps as [|p ps IH]; intros [|t ts] [|u us] S Lt Lu; try discriminate; [split; constructor|].
    destruct (IH ts us) as [A B]; [intros p0 t0 u0 Hin; apply S; now right|now injection Lt|now injection Lu|].
    split; constructor; try assumption; intros copy aim dl comp E; destruct (S p t u (or_introl eq_refl) _ _ _ _ _ A3 E) as [X Y]; assumption. }
  destruct (@parse_auto_databases _ h c cfg cfg1 ri ps ts us Pa M St) as [V1 V2].
  destruct (finish_spec _ _ _ _ _ Fi) as [(B1 & B2 & B3 & B4 & B5 & B6 & B7 & B8 & _) _].
  assert (Bf : forall q, apartb own_changes q = true -> value d q = value cfg1 q).
  { intros q Hq. apply B1. now apply apartb_true. }
  split; [rewrite Bf by (vm_compute; reflexivity); exact V1|].
  intros N2. assert (N3 : ~ set_true cfg1 ["DL"; "Losses"; "BldgRepair"]).
  { unfold set_true in *. now rewrite Bf in N2 by (vm_compute; reflexivity). }
  specialize (B8 N3). unfold value in *.
  change ["DL"; "Losses"; "Repair"; "ConsequenceDatabase"] with (["DL"; "Losses"; "Repair"] ++ ["ConsequenceDatabase"]) in *.
  rewrite lookup_app in *. now rewrite B8.
Qed.
Print Assumptions C115_databases.

(** With models of the user, the script is the one in their folder, which must be a folder. *)
Theorem C115_user_models : forall C (h : host C) c sh cfg d folder,
  ~ given cfg ["DL"] -> parse_config h c sh cfg = Ok (Some d) ->
  value cfg ["Applications"; "DL"; "ApplicationData"; "DL_Method"] = Some (JStr "User-provided Models") ->
  match c_models c with Some f => Some (JStr f) | None => value cfg ["Applications"; "DL"; "ApplicationData"; "custom_model_dir"] end = Some (JStr folder) ->
  h_exists h folder = true /\ h_is_dir h folder = true /\ model_scripts h c cfg = Ok [(folder ++ "/pelicun_config.py")%string].
Proof.
  intros C h c sh cfg d folder G H Hm Hf. destruct (@parse_auto_unfold _ _ _ _ _ _ G H) as (_ & [[Q _] | K]); [discriminate Q|].
  destruct K as (cfg1 & ri & d' & Q & Pa & Fi). destruct (parse_auto_spec _ _ _ Pa) as (p & ps & a & copy & aim & dl & comp & M & _).
  revert M. unfold model_scripts.
  rewrite (@get_spec cfg "Applications/DL/ApplicationData/DL_Method" ["Applications"; "DL"; "ApplicationData"; "DL_Method"]) by (vm_compute; reflexivity).
  rewrite (@get_spec cfg "Applications/DL/ApplicationData/custom_model_dir" ["Applications"; "DL"; "ApplicationData"; "custom_model_dir"]) by (vm_compute; reflexivity).
  rewrite Hm. rewrite String.eqb_refl. destruct (c_models c) as [f|]; [injection Hf as ->|rewrite Hf]; cbn [bind];
    destruct (h_exists h folder), (h_is_dir h folder); cbn [andb]; intros M; (discriminate M || easy).
Qed.
Print Assumptions C115_user_models.

(** The output settings of a file with a [DL] entry are the file's, apart from the format, the
    settings, and the legacy name of the repair consequences. *)
Theorem C115_outputs : forall C (h : host C) c sh cfg d k q o,
  given cfg ["DL"] -> parse_config h c sh cfg = Ok (Some d) ->
  value cfg ["DL"; "Outputs"] = Some (JDict o) -> o <> [] ->
  ~ In k ["Format"; "Settings"] -> diverge ["Loss"; "Repair"] (k :: q) ->
  value d ("DL" :: "Outputs" :: k :: q) = value cfg ("DL" :: "Outputs" :: k :: q).
Proof.
  intros C h c sh cfg d k q o G H Ho No Nk D. destruct (@parse_own _ _ _ _ _ _ G H) as (cfg1 & d' & Q & A & V & Fi).
  injection Q as <-. destruct (add_demand_file_spec _ _ _ A) as (F & _).
  destruct (finish_outputs _ _ _ _ _ Fi) as (cfg0 & F0 & X).
  apply divergeb_true in D.
  rewrite (X ("DL" :: "Outputs" :: k :: q)); [|exact D|now eexists]. cbn [skipn].
  assert (O1 : value cfg1 ["DL"; "Outputs"] = Some (JDict o)) by (rewrite (F ["DL"; "Outputs"]) by (vm_compute; reflexivity); exact Ho).
  assert (O0 : value cfg0 ["DL"; "Outputs"] = Some (JDict o)) by (rewrite (F0 ["DL"; "Outputs"]) by (vm_compute; reflexivity); exact O1).
  unfold value. change ("DL" :: "Outputs" :: k :: q) with (["DL"; "Outputs"] ++ (k :: q)). rewrite lookup_app.
  unfold value in Ho. rewrite Ho.
  assert (Own : own_outputs cfg0 = Some o).
  { unfold own_outputs. rewrite (@get_spec cfg0 "DL/Outputs" ["DL"; "Outputs"]) by (vm_compute; reflexivity). now rewrite O0. }
  unfold own_ri, parse_outputs. rewrite Own. cbn [ri_auto ri_own ri_format]. destruct o as [|e o]; [easy|].
  set (ov := map _ _). cbn [below lookup].
  assert (K : forall n (b : bool) v (x : dict oval), n <> k -> dget k (if b then dset n v x else x) = dget k x).
  { intros n b v x N. destruct b; [|reflexivity]. apply dget_dset_ne; congruence. }
  assert (N1 : "Format" <> k) by (intros <-; apply Nk; now left).
  assert (N2 : "Settings" <> k) by (intros <-; apply Nk; right; now left).
  cbn [fst]. rewrite outputs_get, K by exact N2.
  assert (M : forall x, dget k match c_format c with None => x
      | Some fs => dset "Format" (OV (JDict [("CSV", JBool (mem "csv" fs)); ("JSON", JBool (mem "json" fs))])) x end = dget k x).
  { intros x. destruct (c_format c); [|reflexivity]. apply dget_dset_ne; congruence. }
  rewrite M, K by exact N1. unfold ov.
  assert (P : forall l : dict json, option_map (deref (sh_pbe sh)) (dget k (map (fun kv => (fst kv, OV (snd kv))) l)) = dget k l).
  { intros l. induction l as [|[a v] l IH]; [reflexivity|]. cbn [map dget fst snd]. destruct (String.eqb k a); [reflexivity|exact IH]. }
  rewrite P. reflexivity.
Qed.
Print Assumptions C115_outputs.

(** An accepted configuration is complete, and names the components in exactly one way. *)
Theorem C115_complete : forall C (h : host C) c sh cfg d,
  parse_config h c sh cfg = Ok (Some d) ->
  complete d /\ (present d ["DL"; "Asset"; "ComponentAssignmentFile"] <-> ~ present d ["DL"; "Asset"; "ComponentSampleFile"]) /\
  exists n, value d ["DL"; "Options"; "Sampling"; "SampleSize"] = Some (JNum (qz n)).
Proof.
  intros C h c sh cfg d H.
  assert (G : given cfg ["DL"] \/ ~ given cfg ["DL"]).
  { unfold given. destruct (value cfg ["DL"]) as [v|].
    - destruct (not_given_dec v) as [N|N]; [right; intros (w & [= <-] & M); tauto|left; eauto].
    - right. now intros (w & ? & _). }
  assert (F : exists ri cfg1, finish h c sh ri cfg1 = Ok d).
  { destruct G as [G|G].
    - destruct (@parse_own _ _ _ _ _ _ G H) as (cfg1 & d' & [= <-] & _ & _ & Fi). eauto.
    - destruct (@parse_auto_unfold _ _ _ _ _ _ G H) as (_ & [[Q _] | (cfg1 & ri & d' & [= <-] & _ & Fi)]); [discriminate Q|]. eauto. }
  destruct F as (ri & cfg1 & Fi). destruct (finish_spec _ _ _ _ _ Fi) as [(_ & (v & n & _ & _ & W) & _) [A B]].
  split; [exact A|]. split; [exact B|]. now exists n.
Qed.
Print Assumptions C115_complete.

(** The analysis is skipped only without a [DL] entry, and if the one script says so. *)
Theorem C115_skip : forall C (h : host C) c sh cfg, parse_config h c sh cfg = Ok None ->
  ~ given cfg ["DL"] /\
  exists p asked copy aim comp, model_scripts h c cfg = Ok [p] /\
    h_script h (script_location h p) asked = Ok (copy, aim, JStr "N/A", comp) /\
    forall k q, k <> "DL" -> value asked (k :: q) = value cfg (k :: q).
Proof.
  intros C h c sh cfg H. assert (G : ~ given cfg ["DL"]).
  { intros G. destruct (@parse_own _ _ _ _ _ _ G H) as (cfg1 & d' & Q & _). discriminate Q. }
  split; [exact G|]. destruct (@parse_auto_unfold _ _ _ _ _ _ G H) as (_ & [[_ P] | (cfg1 & ri & d' & Q & _)]); [|discriminate Q].
  destruct (parse_skip _ _ _ P) as (p & a & copy & aim & comp & M & (_ & _ & A) & S). exists p, a, copy, aim, comp. repeat split; assumption.
Qed.
Print Assumptions C115_skip.

(** The methods named in the configuration, separated by commas, stand for the scripts of the
    library, in this order. *)
Theorem C115_methods : forall C (h : host C) c cfg names methods folders,
  value cfg ["Applications"; "DL"; "ApplicationData"; "DL_Method"] = Some (JStr (join "," names)) ->
  names <> [] -> Forall2 (fun name method => has_char "," name = false /\ strip " " name = method) names methods ->
  Forall2 method_folder methods folders ->
  join "," names <> "User-provided Models" ->
  model_scripts h c cfg = Ok (map (fun folder => in_library (h_root h) folder "pelicun_config.py") folders).
Proof.
  intros C h c cfg names methods folders Hv Ne Hn Hf Nu. unfold model_scripts.
  rewrite (@get_spec cfg "Applications/DL/ApplicationData/DL_Method" ["Applications"; "DL"; "ApplicationData"; "DL_Method"]) by (vm_compute; reflexivity).
  rewrite Hv. apply String.eqb_neq in Nu. rewrite Nu.
  rewrite P_LossLF.split_join; [|exact Ne|].
  2:{ clear -Hn. induction Hn as [|x y xs ys [A _] _ IH]; constructor; assumption. }
  clear Hv Nu Ne. revert folders Hf. induction Hn as [|name method names methods [_ <-] Hn IH]; intros folders Hf; inversion Hf as [|? folder ? folders' Hm Hf']; subst; [reflexivity|].
  cbn [mapM map]. assert (E := C110_methods (h_root h) Hm (file := "pelicun_config.py")).
  unfold reference in E. change ("/" ++ "pelicun_config.py")%string with "/pelicun_config.py" in E.
  rewrite E by (repeat split; discriminate). cbn [bind]. rewrite (IH _ Hf'). reflexivity.
Qed.
Print Assumptions C115_methods.

(** ** Cases *)

(** A host with two scripts of the library. *)
Definition ex_int (v : json) : result Z :=
  match v with JStr "100" => Ok 100%Z | JStr "500" => Ok 500%Z | JStr "3" => Ok 3%Z | _ => Err ValueError end.
Definition ex_dl (db : string) : json :=
  JDict [("Asset", JDict [("ComponentDatabase", JStr db)]); ("Damage", JDict [("DamageProcess", JStr "None")]);
         ("Demands", JDict [("SampleSize", JStr "7")]);
         ("Losses", JDict [("Repair", JDict [("ConsequenceDatabase", JStr db)])]);
         ("Options", JDict [("NonDirectionalMultipliers", JDict [("ALL", JStr "1")]); ("Verbose", JBool false)])].
Definition ex_script (p : string) (cfg : dict json) : result (dict json * dict json * json * unit) :=
  Ok (cfg, [("PlanArea", JStr "900")],
      (if contains "Storm" (hd "" (match dget "asset" cfg with Some (JStr s) => [s] | _ => [""] end)) then JStr "N/A"
       else if contains "original" p then ex_dl "wind" else ex_dl "surge"), tt).
Definition ex_host : host unit := HOST true "/opt/pelicun" (fun _ => true) (fun _ => true) (fun _ => "?") ex_int ex_script.
Definition ex_call (demands : option string) (n : string) : call := CALL "/work" "/out" None demands n None None false true.
Definition ex_general : string * json := ("GeneralInformation", JDict [("units", JDict [("length", JStr "ft")])]).
Definition ex_own_dl : dict json :=
  [("Demands", JDict [("DemandFilePath", JStr "demands.csv"); ("SampleSize", JStr "100")]);
   ("Asset", JDict [("ComponentAssignmentFile", JStr "CMP.csv"); ("NumberOfStories", JStr "3")]);
   ("Damage", JDict [("DamageProcess", JStr "FEMA P-58")]);
   ("Losses", JDict [("BldgRepair", JDict [("ConsequenceDatabase", JStr "FEMA P-58")])]);
   ("Outputs", JDict [("Damage", JDict [("Sample", JBool true)])])].
Definition ex_own : dict json := [ex_general; ("DL", JDict ex_own_dl)].
Definition ex_methods (methods : string) (options : dict json) : dict json :=
  [ex_general; ("Applications", JDict [("DL", JDict [("ApplicationData", JDict [("DL_Method", JStr methods); ("Options", JDict options)])])])].

Example C115_own_hypotheses_met : given ex_own ["DL"] /\
  exists d, parse_config ex_host (ex_call None "100") pristine ex_own = Ok (Some d) /\
    value d ["DL"; "Asset"; "NumberOfStories"] = Some (JNum (qz 3)) /\
    value d ["DL"; "Losses"; "Repair"; "ConsequenceDatabase"] = Some (JStr "FEMA P-58") /\
    value d ["DL"; "Outputs"; "Damage"; "Sample"] = Some (JBool true) /\
    value d ["DL"; "Demands"; "DemandFilePath"] = Some (JStr "demands.csv").
Proof.
  split.
  - eexists. split; [reflexivity|]. unfold not_given. intuition discriminate.
  - eexists. split; [vm_compute; reflexivity|]. repeat split; vm_compute; reflexivity.
Qed.

(** Two methods, and options of the user: a multiplier, and the number of realizations. *)
Definition two_methods : string := "Hazus Hurricane Wind - Buildings - Original, Hazus Hurricane Storm Surge - Buildings".
Definition ex_options : dict json :=
  [("NonDirectionalMultipliers", JDict [("ALL", JStr "2"); ("PFA", JStr "2")]); ("Sampling", JDict [("SampleSize", JStr "500")])].
Definition ex_auto : dict json := ex_methods two_methods ex_options.
Example C115_auto_hypotheses_met : wf_json (JDict ex_auto) /\ ~ given ex_auto ["DL"] /\
  exists d, parse_config ex_host (ex_call (Some "response_x.csv") "100") pristine ex_auto = Ok (Some d) /\
    value d ["DL"; "Asset"; "ComponentDatabase"] = Some (JStr "wind,surge") /\
    value d ["DL"; "Options"; "Sampling"; "SampleSize"] = Some (JNum (qz 500)) /\
    value d ["DL"; "Options"; "NonDirectionalMultipliers"; "PFA"] = Some (JStr "2") /\
    value d ["DL"; "Demands"; "DemandFilePath"] = Some (JStr "response_x.csv").
Proof.
  split; [|split].
  - repeat (constructor; cbn; try (intuition discriminate)).
  - intros (v & H & _). discriminate H.
  - eexists. split; [vm_compute; reflexivity|]. repeat split; vm_compute; reflexivity.
Qed.
Example C115_methods_hypotheses_met : exists folders,
  Forall2 (fun name method => has_char "," name = false /\ strip " " name = method)
    (split_on "," two_methods) ["Hazus Hurricane Wind - Buildings - Original"; "Hazus Hurricane Storm Surge - Buildings"] /\
  Forall2 method_folder ["Hazus Hurricane Wind - Buildings - Original"; "Hazus Hurricane Storm Surge - Buildings"] folders /\
  join "," (split_on "," two_methods) = two_methods.
Proof.
  exists ["hurricane/building/portfolio/Hazus v5.1 original"; "flood/building/portfolio/Hazus v6.1"].
  split; [|split; [|vm_compute; reflexivity]].
  - vm_compute. repeat constructor.
  - constructor; [|constructor; [|constructor]]; unfold method_folder; cbn; auto 20.
Qed.
Example C115_databases_hypotheses_met : exists p1 p2,
  model_scripts ex_host (ex_call (Some "response_x.csv") "100") ex_auto = Ok [p1; p2] /\
  forall p t u, In (p, (t, u)) (combine [p1; p2] (combine ["wind"; "surge"] ["wind"; "surge"])) -> forall a copy aim dl comp,
     (forall k q, k <> "DL" -> value a (k :: q) = value ex_auto (k :: q)) -> h_script ex_host (script_location ex_host p) a = Ok (copy, aim, dl, comp) ->
     lookup dl ["Asset"; "ComponentDatabase"] = Some (JStr t) /\ lookup dl ["Losses"; "Repair"; "ConsequenceDatabase"] = Some (JStr u).
Proof.
  do 2 eexists. split; [vm_compute; reflexivity|]. intros p t u Hin a copy aim dl comp Ha.
  assert (Hn : dget "asset" a = None).
  { assert (X := Ha "asset" [] ltac:(discriminate)). unfold value in X. cbn [lookup] in X. destruct (dget "asset" a); [discriminate X|reflexivity]. }
  cbn [h_script ex_host]. unfold ex_script. rewrite Hn. destruct Hin as [E|[E|[]]]; injection E as <- <- <-; intros [= _ _ <- _]; split; vm_compute; reflexivity.
Qed.
Definition ex_user : dict json :=
  [ex_general; ("Applications", JDict [("DL", JDict [("ApplicationData", JDict [("DL_Method", JStr "User-provided Models"); ("custom_model_dir", JStr "/models")])])])].
Example C115_user_models_hypotheses_met : exists d,
  parse_config ex_host (ex_call (Some "response_x.csv") "100") pristine ex_user = Ok (Some d) /\
  value ex_user ["Applications"; "DL"; "ApplicationData"; "custom_model_dir"] = Some (JStr "/models") /\
  value d ["DL"; "Asset"; "ComponentDatabase"] = Some (JStr "surge").
Proof. eexists. split; [vm_compute; reflexivity|]. split; vm_compute; reflexivity. Qed.
Definition ex_skip (methods : string) : dict json := ("asset", JStr "Storm shelter") :: ex_methods methods [].
Example C115_skip_hypotheses_met :
  parse_config ex_host (ex_call None "100") pristine (ex_skip "Hazus Hurricane Wind - Buildings - Original") = Ok None.
Proof. vm_compute. reflexivity. Qed.

(** *** What does not hold *)

(** A user cannot change an option that the script sets. *)
Theorem C115_options_refuted : exists d,
  parse_config ex_host (ex_call (Some "response_x.csv") "100") pristine ex_auto = Ok (Some d) /\
  value ex_auto (user_options ++ ["NonDirectionalMultipliers"; "ALL"]) = Some (JStr "2") /\
  value d ["DL"; "Options"; "NonDirectionalMultipliers"; "ALL"] = Some (JStr "1").
Proof. eexists. split; [vm_compute; reflexivity|]. split; vm_compute; reflexivity. Qed.
Print Assumptions C115_options_refuted.

(** With a [DL] entry, the number of realizations, the script, the output folder, the folder of
    models, and the choices of coupled demands and of detailed results have no effect. *)
Theorem C115_arguments_refuted : forall C (h : host C) sh cfg dir demands format out out' script script' n n' models models' coupled coupled' detailed detailed',
  given cfg ["DL"] ->
  parse_config h (CALL dir out script demands n format models coupled detailed) sh cfg =
  parse_config h (CALL dir out' script' demands n' format models' coupled' detailed') sh cfg.
Proof.
  intros C h sh cfg dir demands format out out' script script' n n' models models' coupled coupled' detailed detailed' G.
  rewrite !parse_by_cases. apply by_cases_ext; [reflexivity|]. intros cfg1 b A U.
  assert (b = false) as ->.
  { apply (@unspec_spec _ _ _ ["DL"] _ U); [vm_compute; reflexivity|]. now apply (add_demand_file_spec _ _ _ A). }
  apply (f_equal (fun r => bind r (fun d => Ok (Some d)))). apply finish_ext; reflexivity.
Qed.
Print Assumptions C115_arguments_refuted.

(** The script named by the caller is never run. *)
Theorem C115_script_refuted : forall C (h : host C) sh cfg dir out script script' demands n format models coupled detailed,
  parse_config h (CALL dir out script demands n format models coupled detailed) sh cfg =
  parse_config h (CALL dir out script' demands n format models coupled detailed) sh cfg.
Proof.
  intros C h sh cfg dir out script script' demands n format models coupled detailed.
  rewrite !parse_by_cases. apply by_cases_ext; [reflexivity|]. intros cfg1 b _ _. destruct b.
  - assert (P : parse_auto h (CALL dir out script demands n format models coupled detailed) cfg1 =
                parse_auto h (CALL dir out script' demands n format models coupled detailed) cfg1).
    { unfold parse_auto, from_scripts, complete_auto, model_scripts. cbn [c_out c_demand_file c_realizations c_format c_models c_coupled c_detailed]. reflexivity. }
    rewrite P. apply bind_ext. intros [[cfg2 ri]|]; [|reflexivity].
    apply (f_equal (fun r => bind r (fun d => Ok (Some d)))). apply finish_ext; reflexivity.
  - apply (f_equal (fun r => bind r (fun d => Ok (Some d)))). apply finish_ext; reflexivity.
Qed.
Print Assumptions C115_script_refuted.

(** With two scripts, an asset that both ask to skip is an error. *)
Theorem C115_skip_refuted : exists e,
  (forall p asked, h_script ex_host p (ex_skip two_methods) = asked -> exists copy aim comp, asked = Ok (copy, aim, JStr "N/A", comp)) /\
  parse_config ex_host (ex_call None "100") pristine (ex_skip two_methods) = Err e.
Proof.
  eexists. split.
  - intros p asked <-. repeat eexists.
  - vm_compute. reflexivity.
Qed.
Print Assumptions C115_skip_refuted.

(** A sample of components can never be given in a configuration. *)
Theorem C115_sample_file_refuted : forall C (h : host C) c sh cfg d,
  parse_config h c sh cfg = Ok (Some d) ->
  present d ["DL"; "Asset"; "ComponentAssignmentFile"] /\ ~ present d ["DL"; "Asset"; "ComponentSampleFile"].
Proof.
  intros C h c sh cfg d H. destruct (C115_complete _ _ _ _ H) as (K & Iff & _).
  assert (P : present d ["DL"; "Asset"; "ComponentAssignmentFile"]).
  { assert (G : given cfg ["DL"] \/ ~ given cfg ["DL"]).
    { unfold given. destruct (value cfg ["DL"]) as [v|].
      - destruct (not_given_dec v) as [N|N]; [right; intros (w & [= <-] & M); tauto|left; eauto].
      - right. now intros (w & ? & _). }
    destruct G as [G|G].
    - destruct (@parse_own _ _ _ _ _ _ G H) as (cfg1 & d' & [= <-] & _ & V & Fi).
      destruct (finish_spec _ _ _ _ _ Fi) as [(B1 & _) _].
      destruct (finish_asset _ _ _ _ _ Fi) as (a & Ha & _). destruct (schema_asset _ V Ha) as (s & Hs).
      exists (JStr s). split; [|discriminate]. rewrite B1; [exact Hs|]. apply apartb_true. vm_compute. reflexivity.
    - destruct (@parse_auto_unfold _ _ _ _ _ _ G H) as (_ & [[Q _] | (cfg1 & ri & d' & [= <-] & Pa & Fi)]); [discriminate Q|].
      destruct (finish_spec _ _ _ _ _ Fi) as [(B1 & _) _].
      destruct (parse_auto_spec _ _ _ Pa) as (p & ps & a & copy & aim & dl & comp & _ & _ & _ & _ & _ & _ & _ & _ & _ & V5 & _).
      exists (JStr (c_out c ++ "/CMP_QNT.csv")). split; [|discriminate]. rewrite B1; [exact V5|]. apply apartb_true. vm_compute. reflexivity. }
  split; [exact P|]. now apply Iff.
Qed.
Print Assumptions C115_sample_file_refuted.

(** With a [DL] entry, a demand file must be named; the documented default is never used. *)
Theorem C115_demand_file_refuted : forall C (h : host C) c sh cfg,
  given cfg ["DL"] -> ~ given cfg ["DL"; "Demands"; "DemandFilePath"] -> c_demand_file c = None ->
  exists e, parse_config h c sh cfg = Err e.
Proof.
  intros C h c sh cfg G N F. destruct (parse_config h c sh cfg) as [r|e] eqn:E; [|now exists e]. exfalso.
  destruct (@C115_own _ _ _ _ _ _ G E) as (d & _ & _ & _ & _ & _ & _ & K & _). destruct (proj2 K N) as (f & Q & _).
  rewrite F in Q. discriminate Q.
Qed.
Print Assumptions C115_demand_file_refuted.

(** The dispersion of a collapse fragility without a distribution is dropped. *)
Definition ex_collapse : dict json :=
  [ex_general; ("DL", JDict (dset "Damage" (JDict [("DamageProcess", JStr "FEMA P-58");
     ("CollapseFragility", JDict [("DemandType", JStr "SA"); ("CapacityMedian", JStr "3"); ("Theta_1", JStr "0.4")])]) ex_own_dl))].
Theorem C115_collapse_refuted : exists d,
  value ex_collapse ["DL"; "Damage"; "CollapseFragility"; "Theta_1"] = Some (JStr "0.4") /\
  parse_config ex_host (ex_call None "100") pristine ex_collapse = Ok (Some d) /\
  value d ["DL"; "Damage"; "CollapseFragility"; "Theta_1"] = Some (JStr "N/A").
Proof. eexists. split; [vm_compute; reflexivity|]. split; [vm_compute; reflexivity|]. vm_compute. reflexivity. Qed.
Print Assumptions C115_collapse_refuted.

(** A run without losses is rejected unless the outputs are listed: those asked for by default
    include losses. *)
Definition ex_no_losses (outputs : dict json) : dict json :=
  [ex_general; ("DL", JDict (ddel "Losses" (dset "Outputs" (JDict outputs) ex_own_dl)))].
Theorem C115_losses_refuted :
  (exists e, parse_config ex_host (ex_call None "100") pristine (ex_no_losses []) = Err e) /\
  (exists d, parse_config ex_host (ex_call None "100") pristine (ex_no_losses [("Damage", JDict [("Sample", JBool true)])]) = Ok (Some d)).
Proof. split; eexists; vm_compute; reflexivity. Qed.
Print Assumptions C115_losses_refuted.

(** What the script says about the asset, here its area, is not in the configuration of the run. *)
Theorem C115_information_refuted : exists d asked copy aim dl,
  parse_config ex_host (ex_call (Some "response_x.csv") "100") pristine ex_auto = Ok (Some d) /\
  (forall p, h_script ex_host p asked = Ok (copy, aim, dl p, tt)) /\ dget "PlanArea" aim = Some (JStr "900") /\
  value d ["GeneralInformation"; "PlanArea"] = None.
Proof.
  eexists. exists ex_auto, ex_auto, [("PlanArea", JStr "900")].
  exists (fun p => if contains "original" p then ex_dl "wind" else ex_dl "surge"). split; [vm_compute; reflexivity|].
  split; [|split; vm_compute; reflexivity]. intros p. unfold ex_host, ex_script. cbn [h_script]. reflexivity.
Qed.
Print Assumptions C115_information_refuted.
