(** Specification vocabulary for the steps of a damage and loss calculation. *)
From Verif Require Import Prelude Pandas M_Base M_FileIO M_LossDS M_Demand M_Params M_Asset M_Assess S_Params S_Asset S_Demand.
Set Implicit Arguments.
Local Open Scope string_scope.
Local Open Scope list_scope.

(** ** Demands *)

(** The label of a demand: type, location, direction; an event may precede them. *)
Inductive demand_label : list string -> string -> Prop :=
| three_levels : forall ty loc dir, demand_label [ty; loc; dir] ty
| four_levels : forall event ty loc dir, demand_label [event; ty; loc; dir] ty.
(** In this realization a demand of a limited type is over its limit. *)
Definition exceeds (limits : list (string * Qc)) (columns : list (list string)) (row : list num) : Prop :=
  exists ty limit i label q, In (ty, limit) limits /\ nth_error columns i = Some label /\ demand_label label ty /\
    nth_error row i = Some (Some q) /\ (limit < q)%Qc.

(** Labels with three or four levels. *)
Definition proper_columns (t : raw_demands) : Prop := forall c, In c (rd_columns t) -> List.length c = 3%nat \/ List.length c = 4%nat.

(** The physical quantity of a demand type. *)
Inductive quantity_of := Acceleration | Speed | Displacement | Ratio.
Definition quantities : list (string * quantity_of) :=
  [("PFA", Acceleration); ("PGA", Acceleration); ("SA", Acceleration);
   ("PFV", Speed); ("PWS", Speed); ("PGV", Speed); ("SV", Speed);
   ("PFD", Displacement); ("PIH", Displacement); ("SD", Displacement); ("PGD", Displacement);
   ("PID", Ratio); ("PRD", Ratio); ("DWD", Ratio); ("RDR", Ratio); ("PMD", Ratio); ("RID", Ratio)].
(** The type may carry more information, as in SA_1.0. *)
Definition short_type (ty short : string) : Prop :=
  has_char "_" short = false /\ (ty = short \/ exists more, ty = (short ++ "_" ++ more)%string).
(** The unit of the quantity, given the unit of length; 'in' is a word of the language and is
    spelled out. *)
Definition length_name (u : string) : string := if String.eqb u "in" then "inch" else u.
Definition unit_for (u : string) (q : quantity_of) : string :=
  match q with
  | Acceleration => (length_name u ++ "ps2")%string
  | Speed => (length_name u ++ "ps")%string
  | Displacement => length_name u
  | Ratio => "unitless"
  end.
Definition demand_unit_is (u ty : string) (unit : option string) : Prop :=
  exists short, short_type ty short /\
    ((exists q, In (short, q) quantities /\ unit = Some (unit_for u q)) \/ (~ In short (map fst quantities) /\ unit = None)).

(** ** Components that support the calculation *)

Definition reserved : list string := ["excessive.coll.DEM"; "collapse"; "excessiveRID"; "irreparable"].
(** A row that stands for one unit at each of the places. *)
Definition one_each_at (stories : option Z) (name : string) (ps : list (string * string)) (r : assign_row) : Prop :=
  a_cmp r = name /\ a_unit r = Some "ea" /\ a_theta0 r = Some 1%Qc /\ a_family r = None /\ a_theta1 r = None /\ a_theta2 r = None /\
  a_lower r = None /\ a_upper r = None /\ a_blocks r = None /\
  exists ps', places stories r ps' /\ (forall p, In p ps <-> In p ps') /\ NoDup ps'.
Definition numbered (d : list string) : Prop := exists ty l k, d = [ty; str_of_nat l; str_of_nat k].
(** Every location and direction of a type occurs together with every other. *)
Definition full_grid (ty : string) (demands : list (list string)) : Prop :=
  forall l d l' d', In [ty; l; d] demands -> In [ty; l'; d'] demands -> In [ty; l; d'] demands.
Definition places_of_type (ty : string) (demands : list (list string)) (ps : list (string * string)) : Prop :=
  forall l d, In (l, d) ps <-> In [ty; l; d] demands.

(** The components that a calculation needs besides those of the user. *)
Definition some_of_type (ty : string) (demands : list (list string)) : Prop := exists l d, In [ty; l; d] demands.
Inductive needed (collapse_type : option string) (irreparable : bool) (demands : list (list string)) : string -> Prop :=
| by_demand : forall ty, collapse_type = Some ty -> (forall s, ty <> "SA" ++ s)%string -> some_of_type ty demands ->
    needed collapse_type irreparable demands "excessive.coll.DEM"
| always : needed collapse_type irreparable demands "collapse"
| by_drift : irreparable = true -> some_of_type "RID" demands -> needed collapse_type irreparable demands "excessiveRID"
| drift_outcome : irreparable = true -> some_of_type "RID" demands -> needed collapse_type irreparable demands "irreparable".
(** Where they are: one for the building, or at the places of a demand type. *)
Inductive placed (collapse_type : option string) (demands : list (list string)) : string -> list (string * string) -> Prop :=
| building : forall name, In name ["collapse"; "irreparable"] -> placed collapse_type demands name [("0", "1")]
| at_drift : forall ps, (forall l d, In ["RID"; l; d] demands -> In (l, d) ps) ->
    (forall l d, In (l, d) ps -> exists l' d', In ["RID"; l; d'] demands /\ In ["RID"; l'; d] demands) ->
    placed collapse_type demands "excessiveRID" ps
| at_demand : forall ty ps, collapse_type = Some ty -> (forall l d, In [ty; l; d] demands -> In (l, d) ps) ->
    (forall l d, In (l, d) ps -> exists l' d', In [ty; l; d'] demands /\ In [ty; l'; d] demands) ->
    placed collapse_type demands "excessive.coll.DEM" ps.

(** ** Databases *)

(** Names separated by commas, with or without space around; 'None' is not a name. *)
Definition named_in (s : string) (names : list string) : Prop :=
  exists parts, s = join "," parts /\ parts <> [] /\ Forall (fun p => has_char "," p = false) parts /\
    names = filter (fun n => negb (String.eqb n "None")) (map M_Damage.strip_space parts).

(** Databases that are looked up: of each name the first of its files that exists. *)
Inductive found {K} (fs : dict (ptable K)) (default_paths : string -> list string) : list string -> list (ptable K) -> Prop :=
| found_none : found fs default_paths [] []
| found_file : forall n before p after t ns ts, default_paths n = before ++ p :: after -> (forall q, In q before -> dget q fs = None) ->
    dget p fs = Some t -> found fs default_paths ns ts -> found fs default_paths (n :: ns) (t :: ts)
| not_found : forall n ns ts, (forall q, In q (default_paths n) -> dget q fs = None) ->
    found fs default_paths ns ts -> found fs default_paths (n :: ns) ts.
(** The user's own file, with its folder put for the placeholder. *)
Inductive user_file (folder : option string) : option string -> list string -> Prop :=
| no_file : user_file folder None []
| as_given : forall p, contains "CustomDLDataFolder" p = false -> user_file folder (Some p) [p]
| in_folder : forall d rest, folder = Some d -> contains "CustomDLDataFolder" rest = false ->
    user_file folder (Some ("CustomDLDataFolder" ++ rest)%string) [(d ++ rest)%string].

(** ** Additional fragilities *)

(** The cells of a row: those listed have these values, others are blank. *)
Definition has_cells (r : row) (cells : list (col * value)) : Prop :=
  (forall c v, In (c, v) cells -> at_col r c = v) /\ (forall c, ~ In c (map fst cells) -> at_col r c = VBlank).
(** A complete fragility for the demand at the location and in the direction of the component. *)
Definition fragility_of (type unit : value) (limit_states : list (col * value)) : list (col * value) :=
  [(("Demand", "Type"), type); (("Demand", "Unit"), unit); (("Demand", "Offset"), VNum 0); (("Demand", "Directional"), VNum 1)] ++
  limit_states ++ [(("Incomplete", ""), VNum 0)].
(** A capacity of 10^10 for the demand that is 1 in every realization. *)
Definition not_triggered : list (col * value) :=
  fragility_of (VText "One") (VText "unitless") [(("LS1", "Theta_0"), VNum (qz 10000000000))].
Definition unit_cell (unit : option string) : value := match unit with Some s => VText s | None => VBlank end.
Section extra.
  Context (length_unit : string) (components : list string) (collapse : option collapse_fragility) (irreparable : option (value * value)) (water : bool).
  (** The demand type of the collapse fragility, by its long name, with its unit. *)
  Definition collapse_cells (cells : list (col * value)) : Prop :=
    exists cf t d unit, collapse = Some cf /\ names_type t d (cf_type cf) /\ demand_unit_is length_unit (cf_type cf) unit /\
      cells = fragility_of (VText t) (unit_cell unit)
                [(("LS1", "Family"), cf_family cf); (("LS1", "Theta_0"), cf_median cf); (("LS1", "Theta_1"), cf_theta1 cf)].
  Inductive extra_row : string -> list (col * value) -> Prop :=
  | collapse_by_demand : forall cells, In "excessive.coll.DEM" components -> collapse_cells cells -> extra_row "excessive.coll.DEM" cells
  | collapse_itself : forall cells, ~ In "excessive.coll.DEM" components -> collapse_cells cells -> extra_row "collapse" cells
  | collapse_by_process : collapse <> None -> In "excessive.coll.DEM" components -> extra_row "collapse" not_triggered
  | collapse_not_set : collapse = None -> water = false -> extra_row "collapse" not_triggered
  | excessive_drift : forall median beta, irreparable = Some (median, beta) ->
      extra_row "excessiveRID" (fragility_of (VText "Residual Interstory Drift Ratio") (VText "unitless")
        [(("LS1", "Family"), VText "lognormal"); (("LS1", "Theta_0"), median); (("LS1", "Theta_1"), beta)])
  | irreparable_by_process : irreparable <> None -> extra_row "irreparable" not_triggered
  | pipe_segments : water = true ->
      extra_row "aggregate" (fragility_of (VText "Peak Ground Velocity") (VText "mps")
        [(("LS1", "Theta_0"), VNum (qz 10000000000)); (("LS2", "Theta_0"), VNum (qz 10000000000))]).
End extra.

(** ** Replacement consequences *)

Definition consequence (unit median : value) : list (col * value) :=
  [(("Quantity", "Unit"), VText "1 EA"); (("DV", "Unit"), unit); (("DS1", "Theta_0"), median)].
Definition as_configured (r : replacement) (median : value) : list (col * value) :=
  consequence (match rp_unit r with Some u => VText u | None => VBlank end) median ++
  match rp_family r with
  | Some f => [(("DS1", "Family"), VText f); (("DS1", "Theta_1"), match rp_theta1 r with Some v => v | None => VBlank end)]
  | None => []
  end.
Definition setting (rs : replacements) (dv : string) : option replacement :=
  if String.eqb dv "Cost" then Some (rs_cost rs) else if String.eqb dv "Time" then Some (rs_time rs)
  else if String.eqb dv "Carbon" then Some (rs_carbon rs) else if String.eqb dv "Energy" then Some (rs_energy rs) else None.
(** Units of the default FEMA P-58 replacement consequences. *)
Definition fema_unit (dv : string) : string :=
  if String.eqb dv "Cost" then "USD_2011" else if String.eqb dv "Time" then "worker_day" else if String.eqb dv "Carbon" then "kg" else "MJ".

(** ** Loss maps *)

(** The consequence model that belongs to a component: the same name, or class and occupancy. *)
Inductive belongs (approach : string) (occupancy : option string) (c : string) : string -> Prop :=
| same_name : (forall s, approach <> "Hazus Earthquake" ++ s)%string -> belongs approach occupancy c c
| class_and_occupancy : forall s class, approach = ("Hazus Earthquake" ++ s)%string -> has_char "." class = false ->
    (c = class \/ exists more, c = (class ++ "." ++ more)%string) ->
    belongs approach occupancy c (match occupancy with Some o => (class ++ "." ++ o)%string | None => class end).
Definition whole_building : list string := ["collapse"; "irreparable"].
Definition plain_label (s : string) : Prop := has_char "-" s = false /\ contains "DMG" s = false.

(** Labels in the old format. *)
Definition old_format (m : lmap) : lmap := map (fun e => (("DMG-" ++ fst e)%string, snd e)) m.

(** ** Damage processes *)

(** The last component of a class, if there is one. *)
Definition last_of_class (class : string) (components : list string) (c : string) : Prop :=
  exists before after, components = before ++ c :: after /\ contains (class ++ ".") c = true /\
    forall x, In x after -> contains (class ++ ".") x = false.

(** A rule of a default process: its place in the order, the component that causes it, the damage
    state and what happens then. *)
Definition rule := (string * string * (string * string))%type.
Definition fema_rules : list rule :=
  [("1", "excessive.coll.DEM", ("DS1", "collapse_DS1")); ("2", "collapse", ("DS1", "ALL_NA"));
   ("3", "excessiveRID", ("DS1", "irreparable_DS1")); ("4", "irreparable", ("DS1", "ALL_NA")); ("5", "irreparable", ("DS1", "collapse_DS0"))].
Definition building_rules : list rule :=
  [("2", "excessive.coll.DEM", ("DS1", "collapse_DS1")); ("3", "collapse", ("DS1", "ALL_NA"));
   ("4", "excessiveRID", ("DS1", "irreparable_DS1")); ("5", "irreparable", ("DS1", "ALL_NA")); ("6", "irreparable", ("DS1", "collapse_DS0"))].
Definition facility_rules : list rule := [("2", "collapse", ("DS1", "ALL_NA"))].
(** The entry of a rule in a process. *)
Definition entry (order source : string) (effect : string * string) : string * dict string := ((order ++ "_" ++ source)%string, [effect]).

(** The Hazus approaches have another rule, for the components of a class. *)
Definition hazus_default (approach class : string) (rules : list rule) : Prop :=
  approach = "Hazus Earthquake - Buildings" /\ class = "STR" /\ rules = building_rules \/
  approach = "Hazus Earthquake - Lifeline Facilities" /\ class = "LF" /\ rules = facility_rules.

(** ** Residual drifts *)

(** Labels (type, location, direction). *)
Definition three (t : list (list string * option string * list num)) : Prop := Forall (fun e => List.length (fst (fst e)) = 3%nat) t.
(** The directions for which a yield drift is configured. *)
Definition directions (cfg : drift_config) : list string := filter (fun k => negb (String.eqb k "method")) (keys cfg).
(** The peak drifts in a direction, in the order of the table. *)
Definition peaks (direction : string) (t : list (list string * option string * list num)) : list (list string * option string * list num) :=
  filter (fun e => match fst (fst e) with [ty; _; d] => String.eqb ty "PID" && String.eqb d direction | _ => false end) t.
(** The residual drifts of a direction: one for each peak drift, at the same place. *)
Definition residuals_of (est : string -> list (list num) -> list (list num)) (direction : string)
    (t added : list (list string * option string * list num)) : Prop :=
  Forall2 (fun p r => exists loc, fst (fst p) = ["PID"; loc; direction] /\ fst r = (["RID"; loc; direction], Some "unitless")) (peaks direction t) added /\
  map snd added = est direction (map snd (peaks direction t)).
