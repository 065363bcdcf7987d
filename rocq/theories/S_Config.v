(** Specification vocabulary for the theorems about the configuration of a run. *)
From Verif Require Import Prelude M_Base S_Base.
Set Implicit Arguments.
Local Open Scope string_scope.
Local Open Scope list_scope.

(** The value of a setting of a configuration. *)
Definition value (cfg : dict json) (ks : list string) : option json := lookup (JDict cfg) ks.
(** A setting is given: it is there, and not empty. *)
Definition given (cfg : dict json) (ks : list string) : Prop := exists v, value cfg ks = Some v /\ ~ not_given v.
(** A value counts as true in Python. *)
Definition is_true (v : json) : Prop :=
  ~ In v [JNull; JBool false; JNum 0; JStr ""; JList []; JDict []].
(** A setting has a value that counts as true. *)
Definition set_true (cfg : dict json) (ks : list string) : Prop := exists v, value cfg ks = Some v /\ is_true v.
(** A setting lies neither above nor below any of these. *)
Definition apart (paths : list (list string)) (q : list string) : Prop := Forall (fun p => diverge p q) paths.
(** What is given stays, and what is not is filled. *)
Definition kept_or (cfg d : dict json) (ks : list string) (filled : option json -> Prop) : Prop :=
  (given cfg ks -> value d ks = value cfg ks) /\ (~ given cfg ks -> filled (value d ks)).

(** The settings that can differ from the configuration file's. *)
Definition own_changes : list (list string) :=
  [["DL"; "Demands"; "DemandFilePath"]; ["DL"; "Options"; "Sampling"; "SampleSize"]; ["DL"; "Outputs"];
   ["DL"; "Options"; "LogFile"]; ["DL"; "Options"; "Verbose"]; ["DL"; "Options"; "ListAllDamageStates"];
   ["DL"; "Losses"; "Repair"]; ["DL"; "Asset"; "NumberOfStories"];
   ["DL"; "Damage"; "CollapseFragility"; "CapacityDistribution"]; ["DL"; "Damage"; "CollapseFragility"; "Theta_1"]].
(** The settings in [DL] that can differ from those of the first script. *)
Definition script_changes : list (list string) :=
  own_changes ++ [["DL"; "Demands"; "SampleSize"]; ["DL"; "Demands"; "CoupledDemands"]; ["DL"; "Demands"; "Calibration"];
                  ["DL"; "Asset"; "ComponentAssignmentFile"]; ["DL"; "Options"]].
(** Those that a further script changes. *)
Definition further_changes : list (list string) :=
  [["DL"; "Asset"; "ComponentDatabase"]; ["DL"; "Losses"; "Repair"; "ConsequenceDatabase"]; ["DL"; "Losses"; "Repair"; "CombinationMethod"]].

(** The number of realizations is the first of these settings that counts as true. *)
Definition first_true (cfg : dict json) (a b : list string) (v : json) : Prop :=
  is_true v /\ (value cfg a = Some v \/ (~ set_true cfg a /\ value cfg b = Some v)).

(** A complete configuration. *)
Definition complete (d : dict json) : Prop :=
  given d ["DL"; "Demands"; "DemandFilePath"] /\ given d ["DL"; "Asset"] /\
  (given d ["DL"; "Demands"; "InferResidualDrift"] -> given d ["DL"; "Demands"; "InferResidualDrift"; "method"]) /\
  (given d ["DL"; "Damage"; "CollapseFragility"] ->
     forall k, In k ["CapacityDistribution"; "CapacityMedian"; "Theta_1"] -> given d ["DL"; "Damage"; "CollapseFragility"; k]) /\
  (given d ["DL"; "Damage"; "IrreparableDamage"] ->
     forall k, In k ["DriftCapacityMedian"; "DriftCapacityLogStd"] -> given d ["DL"; "Damage"; "IrreparableDamage"; k]) /\
  (value d ["DL"; "Damage"; "DamageProcess"] = Some (JStr "User Defined") -> given d ["DL"; "Damage"; "DamageProcessFilePath"]) /\
  (given d ["DL"; "Outputs"; "Damage"] -> given d ["DL"; "Damage"]) /\
  (given d ["DL"; "Outputs"; "Loss"] -> given d ["DL"; "Losses"]).

(** The value below a value, if there is one. *)
Definition below (v : option json) (ks : list string) : option json :=
  match v with Some v => lookup v ks | None => None end.
(** Settings of two sources, together: those of the first are kept, those that only the second
    has are added. *)
Definition prefers (first second result : option json) (ks : list string) : Prop :=
  match below first ks, below second ks with
  | Some a, _ => if is_dict a then exists b, below result ks = Some (JDict b) else below result ks = Some a
  | None, Some b => if is_dict b then exists c, below result ks = Some (JDict c) else below result ks = Some b
  | None, None => below result ks = None
  end.
(** The options a user gives together with the method. *)
Definition user_options : list string := ["Applications"; "DL"; "ApplicationData"; "Options"].
(** A file is named: there is a value, and it is not null. *)
Definition present (d : dict json) (ks : list string) : Prop := exists v, value d ks = Some v /\ v <> JNull.
