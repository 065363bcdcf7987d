(** Model of the configuration of a run (pelicun/tools/DL_calculation.py:576-1010
    [_parse_config_file], pelicun/auto.py:56-145 [auto_populate],
    pelicun/settings/input_schema.json).

    Simplifications: paths are texts and are not resolved (symbolic links, '..'); whitespace
    around the names of methods consists of blanks; the component tables of the scripts are
    opaque; the extended configuration written to '<name>_ap.json' and the component table
    written to the output folder are left out; the entry [DL/Outputs] is written once, by the
    model of M_Outputs.v; log messages are left out.  PelicunInvalidConfigError
    (pelicun_warnings.py:45-61) appears as [InvalidConfig]. *)
From Verif Require Import Prelude M_Base M_Outputs M_Library.
Set Implicit Arguments.
Local Open Scope string_scope.
Local Open Scope list_scope.

(** pelicun_warnings.py:45-61; nothing else in this file raises RuntimeError *)
Definition InvalidConfig : exn := RuntimeError.

(** ** The schema *)

(** The keywords used in the schema: the allowed types (none given: all), the required
    entries, the schema of every entry ('.*' of patternProperties), the schemas of entries. *)
Inductive schema := Schema (types required : list string) (every : option schema) (props : list (string * schema)).

(** [type] of jsonschema (draft 7): numbers include NaN, whole numbers are integers, booleans
    are not numbers. *)
Definition has_type (v : json) (t : string) : bool :=
  match v with
  | JNull => String.eqb t "null"
  | JNaN => String.eqb t "number"
  | JBool _ => String.eqb t "boolean"
  | JNum q => (String.eqb t "number" || (String.eqb t "integer" && Pos.eqb (Qden (this q)) 1))%bool
  | JStr _ => String.eqb t "string"
  | JList _ => String.eqb t "array"
  | JDict _ => String.eqb t "object"
  end.
(** jsonschema.validate, called in DL_calculation.py:641-645 *)
Fixpoint valid (s : schema) (v : json) {struct s} : bool :=
  match s with
  | Schema types required every props =>
      ((match types with [] => true | _ => existsb (has_type v) types end) &&
       match v with
       | JDict d =>
           forallb (fun k => dmem k d) required &&
           match every with None => true | Some e => forallb (fun kv => valid e (snd kv)) d end &&
           (fix all (ps : list (string * schema)) : bool :=
              match ps with
              | [] => true
              | (k, e) :: tl => (match dget k d with Some x => valid e x | None => true end && all tl)%bool
              end) props
       | _ => true
       end)%bool
  end.
(** pelicun/settings/input_schema.json:1-635 *)
Definition input_schema : schema :=
  Schema ["object"] ["GeneralInformation"] None [
    ("GeneralInformation", (Schema ["object"] ["units"] None [
      ("AssetName", (Schema ["string"] [] None []));
      ("AssetType", (Schema ["string"] [] None []));
      ("Location", (Schema ["object"] [] None [
        ("Latitude", (Schema ["number"; "string"] [] None []));
        ("Longitude", (Schema ["number"; "string"] [] None []))]));
      ("units", (Schema ["object"] ["length"] None [
        ("length", (Schema ["string"] [] None []))]))]));
    ("assetType", (Schema ["string"] [] None []));
    ("DL", (Schema ["object"] [] None [
      ("Demands", (Schema ["object"] ["DemandFilePath"] None [
        ("DemandFilePath", (Schema ["string"] [] None []));
        ("SampleSize", (Schema ["integer"; "string"] [] None []));
        ("CoupledDemands", (Schema ["boolean"] [] None []));
        ("Calibration", (Schema ["object"] [] None []));
        ("CollapseLimits", (Schema ["object"] [] (Some (Schema ["number"; "string"] [] None [])) []));
        ("InferResidualDrift", (Schema ["object"] ["method"] None [
          ("method", (Schema ["string"] [] None []));
          ("x-direction", (Schema ["number"; "string"] [] None []));
          ("y-direction", (Schema ["number"; "string"] [] None []))]))]));
      ("Asset", (Schema ["object"] ["ComponentAssignmentFile"] None [
        ("ComponentAssignmentFile", (Schema ["string"] [] None []));
        ("NumberOfStories", (Schema ["integer"; "string"] [] None []));
        ("ComponentSampleFile", (Schema ["string"] [] None []));
        ("ComponentDatabase", (Schema ["string"] [] None []));
        ("ComponentDatabasePath", (Schema ["string"] [] None []))]));
      ("Damage", (Schema ["object"] ["DamageProcess"] None [
        ("CollapseFragility", (Schema ["object"] ["DemandType"; "CapacityMedian"] None [
          ("DemandType", (Schema ["string"] [] None []));
          ("CapacityDistribution", (Schema ["string"] [] None []));
          ("CapacityMedian", (Schema ["number"; "string"] [] None []));
          ("Theta_1", (Schema ["number"; "string"] [] None []))]));
        ("DamageProcess", (Schema ["string"] [] None []));
        ("IrreparableDamage", (Schema ["object"] ["DriftCapacityMedian"; "DriftCapacityLogStd"] None [
          ("DriftCapacityMedian", (Schema ["number"; "string"] [] None []));
          ("DriftCapacityLogStd", (Schema ["number"; "string"] [] None []))]))]));
      ("Losses", (Schema ["object"] [] None [
        ("Repair", (Schema ["object"] [] None [
          ("ConsequenceDatabase", (Schema ["string"] [] None []));
          ("MapApproach", (Schema ["string"] [] None []));
          ("MapFilePath", (Schema ["string"] [] None []));
          ("DecisionVariables", (Schema ["object"] [] None [
            ("Cost", (Schema ["boolean"] [] None []));
            ("Time", (Schema ["boolean"] [] None []));
            ("Carbon", (Schema ["boolean"] [] None []));
            ("Energy", (Schema ["boolean"] [] None []))]));
          ("ConsequenceDatabasePath", (Schema ["string"] [] None []));
          ("ReplacementEnergy", (Schema ["object"] ["Unit"; "Median"] None [
            ("Unit", (Schema ["string"] [] None []));
            ("Median", (Schema ["number"; "string"] [] None []));
            ("Distribution", (Schema ["string"] [] None []));
            ("Theta_1", (Schema ["number"; "string"] [] None []))]));
          ("ReplacementCarbon", (Schema ["object"] ["Unit"; "Median"] None [
            ("Unit", (Schema ["string"] [] None []));
            ("Median", (Schema ["number"; "string"] [] None []));
            ("Distribution", (Schema ["string"] [] None []));
            ("Theta_1", (Schema ["number"; "string"] [] None []))]));
          ("ReplacementTime", (Schema ["object"] ["Unit"; "Median"] None [
            ("Unit", (Schema ["string"] [] None []));
            ("Median", (Schema ["number"; "string"] [] None []));
            ("Distribution", (Schema ["string"] [] None []));
            ("Theta_1", (Schema ["number"; "string"] [] None []))]));
          ("ReplacementCost", (Schema ["object"] ["Unit"; "Median"] None [
            ("Unit", (Schema ["string"] [] None []));
            ("Median", (Schema ["number"; "string"] [] None []));
            ("Distribution", (Schema ["string"] [] None []));
            ("Theta_1", (Schema ["number"; "string"] [] None []))]))]))]));
      ("Outputs", (Schema ["object"] [] None [
        ("Demand", (Schema ["object"] [] None [
          ("Sample", (Schema ["boolean"] [] None []));
          ("Statistics", (Schema ["boolean"] [] None []))]));
        ("Asset", (Schema ["object"] [] None [
          ("Sample", (Schema ["boolean"] [] None []));
          ("Statistics", (Schema ["boolean"] [] None []))]));
        ("Damage", (Schema ["object"] [] None [
          ("Sample", (Schema ["boolean"] [] None []));
          ("Statistics", (Schema ["boolean"] [] None []));
          ("GroupedSample", (Schema ["boolean"] [] None []));
          ("GroupedStatistics", (Schema ["boolean"] [] None []))]));
        ("Loss", (Schema ["object"] [] None [
          ("Repair", (Schema ["object"] [] None [
            ("Sample", (Schema ["boolean"] [] None []));
            ("Statistics", (Schema ["boolean"] [] None []));
            ("GroupedSample", (Schema ["boolean"] [] None []));
            ("GroupedStatistics", (Schema ["boolean"] [] None []));
            ("AggregateSample", (Schema ["boolean"] [] None []));
            ("AggregateStatistics", (Schema ["boolean"] [] None []))]))]));
        ("Format", (Schema ["object"] [] None [
          ("CSV", (Schema ["boolean"] [] None []));
          ("JSON", (Schema ["boolean"] [] None []))]));
        ("Settings", (Schema ["object"] [] None [
          ("CondenseDS", (Schema ["boolean"] [] None []));
          ("SimpleIndexInJSON", (Schema ["boolean"] [] None []));
          ("AggregateColocatedComponentResults", (Schema ["boolean"] [] None []))]))]));
      ("Options", (Schema ["object"] [] None [
        ("Options", (Schema ["boolean"] [] None []));
        ("Seed", (Schema ["integer"] [] None []));
        ("LogShowMS", (Schema ["boolean"] [] None []));
        ("LogFile", (Schema ["string"] [] None []));
        ("UnitsFile", (Schema ["string"] [] None []));
        ("PrintLog", (Schema ["boolean"] [] None []));
        ("ShowWarnings", (Schema ["boolean"] [] None []));
        ("DemandOffset", (Schema ["object"] [] None []));
        ("ListAllDamageStates", (Schema ["boolean"] [] None []));
        ("NonDirectionalMultipliers", (Schema ["object"] [] None []));
        ("EconomiesOfScale", (Schema ["object"] [] None [
          ("AcrossFlorrs", (Schema ["boolean"] [] None []));
          ("AcrossDamageStates", (Schema ["boolean"] [] None []))]));
        ("Sampling", (Schema ["object"] [] None [
          ("SamplingMethod", (Schema ["string"] [] None []));
          ("SampleSize", (Schema ["integer"] [] None []));
          ("PreserveRawOrder", (Schema ["boolean"] [] None []))]));
        ("RepairCostAndTimeCorrelation", (Schema ["number"; "string"] [] None []))]));
      ("DemandAssessment", (Schema ["object"] [] None [
        ("Calibration", (Schema ["object"] [] None [
          ("Marginals", (Schema ["object"] [] None []))]))]));
      ("ApplicationData", (Schema ["object"] [] None [
        ("ground_failure", (Schema ["boolean"] [] None []))]))]));
    ("Applications", (Schema ["object"] [] None []));
    ("auto_script_path", (Schema ["string"] [] None []))].

(** ** The surroundings *)

(** What the function meets: the version of numpy (see [value_unspecified]), the folder of the
    package, the file system, Python's [str] of values other than texts and None, Python's
    [int], and what the scripts do: given the configuration (a copy), a script leaves a changed
    copy, and returns attributes of the asset, the [DL] entry, and a component table. *)
Record host (C : Type) := HOST {
  h_np22 : bool;
  h_root : string;
  h_exists : string -> bool;
  h_is_dir : string -> bool;
  h_str : json -> string;
  h_int : json -> result Z;
  h_script : string -> dict json -> result (dict json * dict json * json * C) }.
(** The arguments of the function: the folder of the configuration file, the output folder,
    the script, the demand file, [str] of the number of realizations, the output format, the
    folder of user models, and the two switches (DL_calculation.py:576-587). *)
Record call := CALL {
  c_dir : string; c_out : string; c_auto_script : option string; c_demand_file : option string;
  c_realizations : string; c_format : option (list string); c_models : option string;
  c_coupled : bool; c_detailed : bool }.

(** [None] or a text *)
Definition jopt (o : option string) : json := match o with Some s => JStr s | None => JNull end.
(** Truth value of a value *)
Definition truthy (v : json) : bool :=
  match v with
  | JNull | JBool false | JStr "" | JList [] | JDict [] => false
  | JNum q => negb (Qceqb q 0)
  | _ => true
  end.

Section Config.
Variable C : Type.
Variable h : host C.
Notation get' d p := (get (Some d) p JNull).
Notation put d p v := (update (h_np22 h) false d p v).
Notation put_if d p v := (update (h_np22 h) true d p v).
Notation missing' d p := (is_unspecified (h_np22 h) d p).

(** DL_calculation.py:648-676: the scripts to run *)
Definition model_scripts (c : call) (cfg : dict json) : result (list string) :=
  match get' cfg "Applications/DL/ApplicationData/DL_Method" with
  | JStr m =>
      if String.eqb m "User-provided Models" then
        let* folder := match c_models c with
          | Some f => Ok f
          | None => match get' cfg "Applications/DL/ApplicationData/custom_model_dir" with
                    | JStr f => Ok f
                    | _ => Err AssertionError
                    end
          end in
        if (h_exists h folder && h_is_dir h folder)%bool then Ok [(folder ++ "/pelicun_config.py")%string]
        else Err AssertionError
      else mapM (fun m => substitute_path (h_root h) ("PelicunDefault/" ++ strip " " m ++ "/pelicun_config.py")%string)
                (split_on "," m)
  | _ => Err AttributeError
  end.

(** The parts of a path after the last one called [k]. *)
Fixpoint after_last (k : string) (l : list string) : list string :=
  match l with
  | [] => []
  | x :: tl => if mem k tl then after_last k tl else if String.eqb x k then tl else l
  end.
(** auto.py:113-122: joining an absolute path to a path discards the latter *)
Definition script_location (p : string) : string :=
  if mem "PelicunDefault" (path_parts p)
  then join "/" ((h_root h ++ "/resources/auto")%string :: after_last "PelicunDefault" (path_parts p))
  else p.
(** auto.py:56-145 *)
Definition auto_populate (cfg : dict json) (p : string) : result (dict json * C) :=
  match dget "GeneralInformation" cfg with
  | None | Some JNull => Err ValueError
  | Some _ =>
      let* r := h_script h (script_location p) cfg in
      let '(copy, aim, dl, comp) := r in
      match dget "GeneralInformation" copy with
      | None => Err KeyError
      | Some (JDict g) => Ok (dset "DL" dl (dset "GeneralInformation" (JDict (update_dict g aim)) copy), comp)
      | Some _ => Err AttributeError
      end
  end.

(** A value in a formatted string *)
Definition text (v : json) : string :=
  match v with JStr s => s | JNull => "None" | _ => h_str h v end.
Definition join_text (a b : json) : json := JStr (text a ++ "," ++ text b).
(** DL_calculation.py:697-732: what a further script adds *)
Definition add_script (cfg : dict json) (acc : dict json * list C) (p : string) : result (dict json * list C) :=
  let ap := fst acc in
  let* r := auto_populate cfg p in
  let ap_i := fst r in
  let* ap := put ap "DL/Asset/ComponentDatabase"
    (join_text (get' ap "DL/Asset/ComponentDatabase") (get' ap_i "DL/Asset/ComponentDatabase")) in
  let* ap := put ap "DL/Losses/Repair/ConsequenceDatabase"
    (join_text (get' ap "DL/Losses/Repair/ConsequenceDatabase") (get' ap_i "DL/Losses/Repair/ConsequenceDatabase")) in
  let* ap := put ap "DL/Losses/Repair/CombinationMethod" (JStr "Hazus Hurricane") in
  Ok (ap, snd acc ++ [snd r]).
(** DL_calculation.py:691-732 *)
Definition run_scripts (cfg : dict json) (ps : list string) : result (dict json * list C) :=
  match ps with
  | [] => Err NameError
  | p :: ps => let* r := auto_populate cfg p in foldM (add_script cfg) (fst r, [snd r]) ps
  end.

(** DL_calculation.py:751-766: [update_vals] changes the dictionary of the script's options.
    Options that are not a dictionary raise TypeError here.  A script can remove the user's
    options from its copy, which fails; one that sets them to None is taken to remove them. *)
Definition merge_options (cfg ap : dict json) : result (dict json) :=
  match get' cfg "Applications/DL/ApplicationData/Options" with
  | JDict (e :: l) =>
      match get' ap "Applications/DL/ApplicationData/Options" with
      | JNull => Err KeyError
      | _ =>
          match dget "DL" ap with
          | Some (JDict dl) =>
              match dget "Options" dl with
              | Some (JDict o) =>
                  let* o := update_vals o (e :: l) in
                  Ok (dset "DL" (JDict (dset "Options" (JDict o) dl)) ap)
              | Some _ => Err TypeError
              | None => Err KeyError
              end
          | _ => Err TypeError
          end
      end
  | v => if truthy v then Err TypeError else Ok ap
  end.

(** DL_calculation.py:768-797, without [DL/Outputs] *)
Definition complete_auto (c : call) (ap : dict json) : result (dict json) :=
  let* ap := put ap "/DL/Demands/DemandFilePath" (jopt (c_demand_file c)) in
  let* ap := put ap "/DL/Demands/SampleSize" (JStr (c_realizations c)) in
  let* ap := if c_coupled c then put ap "DL/Demands/CoupledDemands" (JBool true)
             else put ap "DL/Demands/Calibration" (JDict [("ALL", JDict [("DistributionFamily", JStr "lognormal")])]) in
  put ap "DL/Asset/ComponentAssignmentFile" (JStr (c_out c ++ "/CMP_QNT.csv")).
(** DL_calculation.py:795-803: the parts of the output configuration that the entry [outputs] of
    the configuration switches off *)
Definition outputs_flag (o : dict json) (k : string) : result bool :=
  match dget k o with Some v => Ok (truthy v) | None => Err KeyError end.
Definition outputs_entry (cfg : dict json) : result (option (bool * bool * bool * bool)) :=
  let* b := missing' cfg "outputs" in
  if b then Ok None
  else match dget "outputs" cfg with
       | Some (JDict o) =>
           let* im := outputs_flag o "IM" in
           let* edp := if im then Ok true else outputs_flag o "EDP" in
           let* dm := outputs_flag o "DM" in
           let* dv := outputs_flag o "DV" in
           Ok (Some (im, edp, dm, dv))
       | _ => Err TypeError
       end.
(** DL_calculation.py:742-749: the scripts ask to skip the asset *)
Definition is_skip (v : json) : bool := match v with JStr s => String.eqb s "N/A" | _ => false end.
(** DL_calculation.py:742-812: from the extended configuration [ap] *)
Definition from_scripts (c : call) (cfg ap : dict json) : result (option (dict json * run_input)) :=
  if is_skip (get' ap "DL") then Ok None
  else
    let* ap := merge_options cfg ap in
    let* ap := complete_auto c ap in
    let* losses := missing' ap "DL/Losses" in
    let* os := outputs_entry cfg in
    let* cfg := put cfg "DL" (get' ap "DL") in
    Ok (Some (cfg, RI true (c_detailed c) (negb losses) os None (c_format c))).
(** DL_calculation.py:647-812: the configuration extended by scripts; [None]: the scripts ask to
    skip the asset. *)
Definition parse_auto (c : call) (cfg : dict json) : result (option (dict json * run_input)) :=
  let* ps := model_scripts c cfg in
  if forallb (h_exists h) ps then
    let* cfg := put cfg "/DL/Demands/DemandFilePath" (jopt (c_demand_file c)) in
    let* cfg := put cfg "/DL/Demands/SampleSize" (JStr (c_realizations c)) in
    let* r := run_scripts cfg ps in
    let ap := fst r in
    let* b := missing' ap "DL" in
    if b then Err InvalidConfig
    else from_scripts c cfg ap
  else Err InvalidConfig.

(** DL_calculation.py:814-821 *)
Definition set_sample_size (cfg : dict json) : result (dict json) :=
  let* v :=
    let o := get' cfg "DL/Options/Sampling/SampleSize" in
    if truthy o then Ok o
    else let d := get' cfg "DL/Demands/SampleSize" in
         if truthy d then Ok d else Err InvalidConfig in
  let* n := h_int h v in
  put cfg "DL/Options/Sampling/SampleSize" (JNum (qz n)).
(** Raise an error if a condition holds. *)
Definition reject (b : bool) : result unit := if b then Err InvalidConfig else Ok tt.
(** DL_calculation.py:823-845 for a configuration with its own [DL]: [DL/Outputs] as given *)
Definition own_outputs (cfg : dict json) : option (dict json) :=
  match get' cfg "DL/Outputs" with JDict d => Some d | _ => None end.
(** DL_calculation.py:855-896 *)
Definition set_defaults (c : call) (cfg : dict json) : result (dict json) :=
  let* cfg := put_if cfg "DL/Options/LogFile" (JStr "pelicun_log.txt") in
  let* cfg := put_if cfg "DL/Options/Verbose" (JBool true) in
  let* cfg := put_if cfg "DL/Options/ListAllDamageStates" (JBool true) in
  put_if cfg "DL/Demands/DemandFilePath" (JStr (c_dir c ++ "/response.csv")).
(** DL_calculation.py:898-916 *)
Definition replace_legacy (cfg : dict json) : result (dict json) :=
  let* cfg := if truthy (get' cfg "DL/Losses/BldgRepair")
              then put cfg "DL/Losses/Repair" (get' cfg "DL/Losses/BldgRepair") else Ok cfg in
  let* cfg := if truthy (get' cfg "DL/Outputs/Loss/BldgRepair")
              then put cfg "DL/Outputs/Loss/Repair" (get' cfg "DL/Outputs/Loss/BldgRepair") else Ok cfg in
  let* b := missing' cfg "DL/Asset/NumberOfStories" in
  if b then Ok cfg
  else let* n := h_int h (get' cfg "DL/Asset/NumberOfStories") in
       put cfg "DL/Asset/NumberOfStories" (JNum (qz n)).
(** DL_calculation.py:918-942 *)
Definition check_collapse (cfg : dict json) : result (dict json) :=
  let* b := missing' cfg "DL/Demands/InferResidualDrift" in
  let* m := if b then Ok false else missing' cfg "DL/Demands/InferResidualDrift/method" in
  let* _ := reject m in
  let* b := missing' cfg "DL/Damage/CollapseFragility" in
  if b then Ok cfg
  else
    let* d := missing' cfg "DL/Damage/CollapseFragility/CapacityDistribution" in
    let* cfg := if d then
        match get' cfg "DL/Damage/CollapseFragility" with
        | JDict _ =>
            let* cfg := put cfg "DL/Damage/CollapseFragility/CapacityDistribution" (JStr "deterministic") in
            put cfg "DL/Damage/CollapseFragility/Theta_1" (JStr "N/A")
        | _ => Err TypeError
        end
      else Ok cfg in
    let* _ := mapM (fun k => let* b := missing' cfg ("DL/Damage/CollapseFragility/" ++ k)%string in reject b)
                   ["CapacityDistribution"; "CapacityMedian"; "Theta_1"] in
    Ok cfg.
(** DL_calculation.py:944-1008 *)
Definition check_rest (cfg : dict json) : result unit :=
  let* b := missing' cfg "DL/Damage/IrreparableDamage" in
  let* _ := if b then Ok [] else
    mapM (fun k => let* b := missing' cfg ("DL/Damage/IrreparableDamage/" ++ k)%string in reject b)
         ["DriftCapacityMedian"; "DriftCapacityLogStd"] in
  let* _ := match get' cfg "DL/Damage/DamageProcess" with
    | JStr "User Defined" => let* b := missing' cfg "DL/Damage/DamageProcessFilePath" in reject b
    | _ => Ok tt
    end in
  let* _ := mapM (fun ks => let* o := missing' cfg (fst ks) in
                            if o then Ok tt else let* b := missing' cfg (snd ks) in reject b)
                 [("DL/Outputs/Asset", "DL/Asset"); ("DL/Outputs/Damage", "DL/Damage"); ("DL/Outputs/Loss", "DL/Losses")] in
  let* b := missing' cfg "DL/Asset" in
  if b then Ok tt
  else reject (Bool.eqb (match get' cfg "DL/Asset/ComponentAssignmentFile" with JNull => true | _ => false end)
                        (match get' cfg "DL/Asset/ComponentSampleFile" with JNull => true | _ => false end)).

(** DL_calculation.py:814-1010: from the sample size on *)
Definition finish (c : call) (sh : shared) (ri : dict json -> run_input) (cfg : dict json) : result (dict json) :=
  let* cfg := set_sample_size cfg in
  let* cfg := put cfg "DL/Outputs" (JDict (fst (parse_outputs (ri cfg) sh))) in
  let* b := missing' cfg "DL/Demands" in
  let* _ := reject b in
  let* b := missing' cfg "DL/Asset" in
  let* _ := reject b in
  let* cfg := set_defaults c cfg in
  let* cfg := replace_legacy cfg in
  let* cfg := check_collapse cfg in
  let* _ := check_rest cfg in
  Ok cfg.

(** DL_calculation.py:633-638 *)
Definition add_demand_file (c : call) (cfg : dict json) : result (dict json) :=
  let* b := missing' cfg "DL" in
  if b then Ok cfg
  else let* b := missing' cfg "DL/Demands/DemandFilePath" in
       if b then put cfg "/DL/Demands/DemandFilePath" (jopt (c_demand_file c)) else Ok cfg.
(** DL_calculation.py:576-1010; [sh]: the output configurations kept by the module *)
Definition parse_config (c : call) (sh : shared) (cfg : dict json) : result (option (dict json)) :=
  let* cfg := add_demand_file c cfg in
  if valid input_schema (JDict cfg) then
    let* b := missing' cfg "DL" in
    if b then
      let* r := parse_auto c cfg in
      match r with
      | None => Ok None
      | Some (cfg, ri) => let* cfg := finish c sh (fun _ => ri) cfg in Ok (Some cfg)
      end
    else
      let* cfg := finish c sh (fun cfg => RI false (c_detailed c) false None (own_outputs cfg) (c_format c)) cfg in
      Ok (Some cfg)
  else Err InvalidConfig.
End Config.
