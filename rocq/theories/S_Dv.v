(** Specification vocabulary for the decision variables of a run. *)
From Verif Require Import Prelude M_Base.
Local Open Scope string_scope.

(** The entry of nested objects. *)
Definition entry (d : dict json) (k : string) (v : json) : Prop := dget k d = Some v.
Definition repair_settings (cfg d : dict json) : Prop :=
  exists dl losses, entry cfg "DL" (JDict dl) /\ entry dl "Losses" (JDict losses) /\ entry losses "Repair" (JDict d).

(** The configuration has the object DL/Losses/Repair/DecisionVariables. *)
Definition variables_object (cfg vars : dict json) : Prop :=
  exists d, repair_settings cfg d /\ entry d "DecisionVariables" (JDict vars).
(** It sets the variable to true. *)
Definition asks (cfg : dict json) (dv : string) : Prop :=
  exists vars, variables_object cfg vars /\ In (dv, JBool true) vars.
(** A run without a combination of losses. *)
Definition no_combination (cfg : dict json) : Prop :=
  exists d, repair_settings cfg d /\ (dget "CombinationMethod" d = None \/ entry d "CombinationMethod" JNull).
