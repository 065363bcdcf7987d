(** Model of the steps of a damage and loss calculation (class DLCalculationAssessment and its
    helper functions, pelicun/assessment.py:59-81, 600-2077), on top of the models of the demand,
    asset, damage and loss models.

    Not modelled: reading of files (their contents are arguments), calibration and generation of
    samples, logging, targets of damage processes that are lists (no default process has one). *)
From Verif Require Import Prelude Pandas M_Base M_FileIO M_Damage M_LossDS M_Demand M_Params M_Asset.
Set Implicit Arguments.
Local Open Scope string_scope.
Local Open Scope list_scope.

(** ** Text *)

(** [s.replace(p, r)] for a non-empty [p]: every occurrence, left to right. *)
Fixpoint str_replace_fuel (fuel : nat) (p r s : string) : string :=
  match fuel with
  | O => s
  | S f =>
      match s with
      | EmptyString => ""
      | String a tl =>
          if String.prefix p s then (r ++ str_replace_fuel f p r (str_drop (String.length p) s))%string
          else String a (str_replace_fuel f p r tl)
      end
  end.
Definition str_replace (p r s : string) : string := str_replace_fuel (String.length s) p r s.

(** ** Demands *)

(** Rows of demands before they are loaded: labels of the columns, the units row if there is one,
    one list of values for each realization. *)
Record raw_demands := RD { rd_columns : list (list string); rd_units : option (list (option string)); rd_rows : list (list num) }.

(** [df.max(axis=1)] of the selected cells of a row: NaN is skipped. *)
Definition max_where (p : list string -> bool) (columns : list (list string)) (row : list num) : num :=
  match somes (map snd (filter (fun cv => p (fst cv)) (combine columns row))) with
  | [] => None
  | q :: qs => Some (fold_left Qcmax qs q)
  end.
(** The level of the demand type (assessment.py:668-680, 1613): the second one of four. *)
Definition type_level (label : list string) : nat := if Nat.eqb (List.length label) 4 then 1%nat else 0%nat.
Definition type_of (label : list string) : string := nth (type_level label) label "".
(** assessment.py:645-702: realizations over a collapse limit are removed. A demand type that is
    not among the columns raises KeyError. Labels have three or four levels, the same number. *)
Definition apply_collapse_limits (limits : list (string * Qc)) (t : raw_demands) : result raw_demands :=
  match limits with
  | [] => Ok t
  | _ =>
      let* _ := mapM (fun tl => if existsb (fun c => String.eqb (type_of c) (fst tl)) (rd_columns t) then Ok tt else Err KeyError) limits in
      let over (row : list num) : bool :=
        existsb (fun tl => nlt (Some (snd tl)) (max_where (fun c => String.eqb (type_of c) (fst tl)) (rd_columns t) row)) limits in
      Ok (RD (rd_columns t) (rd_units t) (filter (fun row => negb (over row)) (rd_rows t)))
  end.

(** assessment.py:1628-1657: the unit of a demand type. *)
Definition base_type (ty : string) : string := hd "" (split_on "_" ty).
Definition inferred_unit (length_unit ty : string) : option string :=
  let length_unit := if String.eqb length_unit "in" then "inch" else length_unit in
  let ty := base_type ty in
  if mem ty ["PID"; "PRD"; "DWD"; "RDR"; "PMD"; "RID"] then Some "unitless"
  else if mem ty ["PFD"; "PIH"; "SD"; "PGD"] then Some length_unit
  else if mem ty ["PFV"; "PWS"; "PGV"; "SV"] then Some (length_unit ++ "ps")%string
  else if mem ty ["PFA"; "PGA"; "SA"] then Some (length_unit ++ "ps2")%string
  else None.
(** assessment.py:1583-1660 [_add_units] on columns with values: the header is expanded, the
    columns are sorted, columns without a type are dropped, and labels become simple again. *)
Definition add_units (length_unit : string) (header : axis_index) (columns : list (list num)) : result saved :=
  let* ax := to_multi_index header in
  let t := filter (fun c => negb (String.eqb (type_of (fst c)) "")) (sort_labels (combine (axis_labels ax) columns)) in
  Ok {| header := Flat (map (fun c => join "-" (fst c)) t);
        unit_row := Some (map (fun c => inferred_unit length_unit (type_of (fst c))) t);
        cells := map snd t |}.

(** ** Residual drifts and the constant demand *)

(** The configuration of the inference: a method and the yield drift of every direction. The keys
    are kept in the order of the dictionary. *)
Definition drift_config := dict json.
(** assessment.py:741-776. [t] is the generated sample with its units; [est direction pids] is
    [estimate_RID] with the yield drift of the direction. Returns the table that is loaded and what
    is left of the configuration ([pop]). *)
Definition infer_drifts (est : string -> list (list num) -> list (list num)) (cfg : option drift_config)
                        (t : list (list string * option string * list num))
  : result (list (list string * option string * list num) * option drift_config) :=
  match cfg with
  | None | Some [] => Ok (t, cfg)
  | Some c =>
      match dget "method" c with
      | None => Err KeyError
      | Some m =>
          let rest := ddel "method" c in
          if match m with JStr s => String.eqb s "FEMA P-58" | _ => false end then
            let pid := filter (fun e => String.eqb (d_type (fst (fst e))) "PID") t in
            match pid with
            | [] => Err KeyError
            | _ =>
                let* rid := mapM (fun kv =>
                  let sel := filter (fun e => String.eqb (nth 2 (fst (fst e)) "") (fst kv)) pid in
                  match sel with
                  | [] => Err KeyError
                  | _ => Ok (map (fun pv : (list string * option string * list num) * list num =>
                                    ("RID" :: tl (fst (fst (fst pv))), Some "unitless", snd pv))
                                 (combine sel (est (fst kv) (map snd sel))))
                  end) rest in
                match rest with
                | [] => Err ValueError
                | _ => Ok (t ++ List.concat rid, Some rest)
                end
            end
          else Err ValueError
      end
  end.
(** assessment.py:766-776: the constant demand. [m]: number of realizations. *)
Definition with_one (m : nat) (t : list (list string * option string * list num)) : list (list string * option string * list num) :=
  set_column ["ONE"; "0"; "1"] (Some "unitless") (repeat (Some 1%Qc) m) t.

(** ** Components that support the calculation (assessment.py:778-917) *)

(** [cmp_marginals.loc[name, ...] = ...] for the four columns Units, Location, Direction, Theta_0:
    in every row with that name, or in a new row. *)
Definition set_component (name location direction : string) (rows : list assign_row) : list assign_row :=
  if existsb (fun r => String.eqb (a_cmp r) name) rows
  then map (fun r => if String.eqb (a_cmp r) name
                     then AR name location (Some direction) (Some "ea") (a_family r) (Some 1%Qc) (a_theta1 r) (a_theta2 r) (a_lower r) (a_upper r) (a_blocks r)
                     else r) rows
  else rows ++ [AR name location (Some direction) (Some "ea") None (Some 1%Qc) None None None None None].
(** [','.join(demand_sample[ty].columns.unique(level=k))] for labels (type, location, direction). *)
Definition labels_of_type (ty : string) (k : nat) (demands : list (list string)) : list string :=
  unique String.eqb (map (fun d => nth k d "") (filter (fun d => String.eqb (d_type d) ty) demands)).
Definition joined (ty : string) (k : nat) (demands : list (list string)) : string := join "," (labels_of_type ty k demands).
Definition add_support (collapse_type : option string) (irreparable : bool) (demands : list (list string)) (rows : list assign_row) : list assign_row :=
  let available (ty : string) : bool := existsb (fun d => String.eqb (d_type d) ty) demands in
  let rows := match collapse_type with
              | Some ty => if negb (starts_with "SA" ty) && available ty
                           then set_component "excessive.coll.DEM" (joined ty 1 demands) (joined ty 2 demands) rows else rows
              | None => rows
              end in
  let rows := set_component "collapse" "0" "1" rows in
  if irreparable && available "RID"
  then set_component "irreparable" "0" "1" (set_component "excessiveRID" (joined "RID" 1 demands) (joined "RID" 2 demands) rows)
  else rows.
(** assessment.py:830-842: an assignment or a sample, not both. What is loaded: nothing, the rows of
    an assignment, or a sample. *)
Inductive asset_input := NoAsset | Assigned (rows : list assign_row) | Sampled (s : frame).
Definition calculate_asset (assignment : option (list assign_row)) (sample : option frame) (collapse_type : option string) (irreparable : bool)
                           (demands : list (list string)) : result asset_input :=
  match assignment, sample with
  | Some _, Some _ => Err ValueError
  | Some rows, None => Ok (Assigned (add_support collapse_type irreparable demands rows))
  | None, Some s => Ok (Sampled s)
  | None, None => Ok NoAsset
  end.

(** ** Databases (assessment.py:976-1020, 1461-1540) *)

(** Files that exist and what they contain. *)
Definition files K := dict (ptable K).
(** [default_path name]: the file of a named database after substitution of the default path
    (fragility.csv; consequence_repair.csv or, if that is not a file, loss_repair.csv). *)
Definition database_names (s : string) : list string :=
  filter (fun n => negb (String.eqb n "None")) (map strip_space (split_on "," s)).
Definition named_files {K} (fs : files K) (default_paths : string -> list string) (s : string) : list string :=
  flat_map (fun n => match filter (fun p => dmem p fs) (default_paths n) with [] => [] | p :: _ => [p] end) (database_names s).
(** The path of the user's database; the folder is needed only for the placeholder. *)
Definition user_path (path : option string) (folder : option string) : result (list string) :=
  match path with
  | None => Ok []
  | Some p => if contains "CustomDLDataFolder" p
              then match folder with None => Err ValueError | Some d => Ok [str_replace "CustomDLDataFolder" d p] end
              else Ok [p]
  end.
(** [database]: [None] is a missing value. The paths, in the order of precedence. *)
Definition database_paths {K} (fs : files K) (default_paths : string -> list string) (database path folder : option string) : result (list string) :=
  let named := match database with None => [] | Some s => named_files fs default_paths s end in
  let* user := user_path path folder in
  Ok (rev (named ++ user)).
(** [*component_db, adf]; reading a path that is not a file raises FileNotFoundError. *)
Definition database_tables {K} (fs : files K) (paths : list string) : result (list (ptable K)) :=
  mapM (fun p => match dget p fs with Some t => Ok t | None => Err FileNotFoundError end) paths.

(** ** Additional fragilities (assessment.py:1022-1158) *)

(** 1033-1034, 1061-1082: the cells of the demand. *)
Definition demand_cells (type unit : value) : row :=
  [(("Demand", "Directional"), VNum 1); (("Demand", "Offset"), VNum 0); (("Demand", "Type"), type); (("Demand", "Unit"), unit)].
(** 1101, 1112, 1141: a capacity that is not reached. *)
Definition never : value := VNum (qz (10 ^ 10)).
(** A placeholder that never triggers. *)
Definition placeholder : row :=
  demand_cells (VText "One") (VText "unitless") ++ [(("LS1", "Theta_0"), never); (("Incomplete", ""), VNum 0)].
(** A missing text is a blank cell (1082, 1917). *)
Definition opt_text (o : option string) : value := match o with Some s => VText s | None => VBlank end.
(** The settings of the collapse fragility: demand type, distribution, median, second parameter. *)
Record collapse_fragility := CF { cf_type : string; cf_family : value; cf_median : value; cf_theta1 : value }.
(** The first name with that acronym (1058-1062). *)
Definition demand_name (short : string) : option string :=
  match filter (fun nv => String.eqb (snd nv) short) EDP_to_demand_type with [] => None | (n, _) :: _ => Some n end.
Definition collapse_row (length_unit : option string) (cf : collapse_fragility) : result row :=
  let* parts := match split_on "_" (cf_type cf) with
                | [t] => Ok (t, None)
                | [t; spec] => Ok (t, Some spec)
                | _ => Err ValueError
                end in
  match demand_name (fst parts) with
  | None => Err ValueError
  | Some name =>
      let type := match snd parts with None => name | Some spec => (name ++ "|" ++ spec)%string end in
      match length_unit with
      | None => Err ValueError
      | Some u =>
          Ok (demand_cells (VText type) (opt_text (inferred_unit u (fst parts))) ++
              [(("LS1", "Family"), cf_family cf); (("LS1", "Theta_0"), cf_median cf); (("LS1", "Theta_1"), cf_theta1 cf); (("Incomplete", ""), VNum 0)])
      end
  end.
(** [marginals]: the components of the loaded assignment; [None] if a sample was loaded instead.
    [irreparable]: median and logarithmic standard deviation. *)
Definition extra_fragilities (length_unit : option string) (marginals : option (list string)) (cf : option collapse_fragility)
                             (irreparable : option (value * value)) (water : bool) : result (list (string * row)) :=
  let* collapse :=
    match cf with
    | Some cf =>
        match marginals with
        | None => Err AssertionError
        | Some ms =>
            let* r := collapse_row length_unit cf in
            Ok (if mem "excessive.coll.DEM" ms then [("excessive.coll.DEM", r); ("collapse", placeholder)] else [("collapse", r)])
        end
    | None => Ok (if water then [] else [("collapse", placeholder)])
    end in
  let drift := match irreparable with
               | None => []
               | Some (median, beta) =>
                   [("excessiveRID", demand_cells (VText "Residual Interstory Drift Ratio") (VText "unitless") ++
                      [(("LS1", "Theta_0"), median); (("LS1", "Family"), VText "lognormal"); (("LS1", "Theta_1"), beta); (("Incomplete", ""), VNum 0)]);
                    ("irreparable", placeholder)]
               end in
  let pipes := if water then
                 [("aggregate", demand_cells (VText "Peak Ground Velocity") (VText "mps") ++
                    [(("LS1", "Theta_0"), never); (("LS2", "Theta_0"), never); (("Incomplete", ""), VNum 0)])]
               else [] in
  Ok (collapse ++ drift ++ pipes).
(** [adf]: the columns are those of the FEMA P-58 database (and Incomplete, LS2 as needed). *)
Definition extra_table (columns : list col) (rows : list (string * row)) : ptable string :=
  let cols := fold_left (fun cs c => if existsb (pair_eqb c) cs then cs else cs ++ [c]) (flat_map (fun r => map fst (snd r)) rows) columns in
  PT cols (map (fun r => (fst r, restrict cols (snd r))) rows).

(** ** Damage processes (assessment.py:59-81, 1160-1262) *)

Definition process := dict (dict string).
(** assessment.py:59-81 *)
Definition default_damage_processes : dict process :=
  [("FEMA P-58", [("1_excessive.coll.DEM", [("DS1", "collapse_DS1")]); ("2_collapse", [("DS1", "ALL_NA")]);
                  ("3_excessiveRID", [("DS1", "irreparable_DS1")]); ("4_irreparable", [("DS1", "ALL_NA")]);
                  ("5_irreparable", [("DS1", "collapse_DS0")])]);
   ("Hazus Earthquake - Lifeline Facilities", [("1_LF", [("DS5", "collapse_DS1")]); ("2_collapse", [("DS1", "ALL_NA")])]);
   ("Hazus Earthquake - Buildings", [("1_STR", [("DS5", "collapse_DS1")]); ("2_excessive.coll.DEM", [("DS1", "collapse_DS1")]);
                  ("3_collapse", [("DS1", "ALL_NA")]); ("4_excessiveRID", [("DS1", "irreparable_DS1")]);
                  ("5_irreparable", [("DS1", "ALL_NA")]); ("6_irreparable", [("DS1", "collapse_DS0")])]);
   ("Hazus Hurricane", [])].
(** 1181-1186: for each type the last component with that type. *)
Definition cmp_map (components : list string) : dict string :=
  fold_left (fun m c => fold_left (fun m ty => if contains (ty ++ ".")%string c then dset ty c m else m) ["STR"; "LF"; "NSA"] m)
            components [("STR", ""); ("LF", ""); ("NSA", "")].
(** 1190-1197: the first type that occurs in the source and has a component. *)
Definition new_source (m : dict string) (source : string) : option string :=
  match filter (fun kv => contains (fst kv) source && negb (String.eqb (snd kv) "")) m with
  | [] => None
  | (ty, c) :: _ => Some (str_replace ty c source)
  end.
(** 1206-1213: every type, one after the other. *)
Definition new_target (m : dict string) (target : string) : string :=
  fold_left (fun t kv => if contains (fst kv) t && negb (String.eqb (snd kv) "") then str_replace (fst kv) (snd kv) t else t) m target.
(** 1188-1236. The actions are shared with the default processes and are written in place; the
    targets that are written are the ones that are there ([P_Assess.targets_same]). *)
Definition specialize (m : dict string) (p : process) : process :=
  fold_left (fun acc rule =>
    let action := map (fun t => (fst t, new_target m (snd t))) (snd rule) in
    match new_source m (fst rule) with
    | Some src => ddel (fst rule) (dset src action acc)
    | None => dset (fst rule) action acc
    end) p p.
(** 1238-1247: [key.split('_')[1]] is a component of the asset. *)
Definition keep_present (components : list string) (p : process) : result process :=
  let* kept := mapM (fun rule => match split_on "_" (fst rule) with
                                 | _ :: c :: _ => Ok (if mem c components then [rule] else [])
                                 | _ => Err IndexError
                                 end) p in
  Ok (List.concat kept).
(** [components]: in the order of the columns of the component sample. [user]: the contents of the
    user's file. An approach that is not known leaves no process (1258-1262). *)
Definition damage_process (approach : option string) (components : list string) (user : option process) : result (option process) :=
  match approach with
  | None => Ok None
  | Some a =>
      match dget a default_damage_processes with
      | Some p =>
          let p := if mem a ["Hazus Earthquake"; "Hazus Earthquake - Buildings"; "Hazus Earthquake - Lifeline Facilities"]
                   then specialize (cmp_map components) p else p in
          let* kept := keep_present components p in Ok (Some kept)
      | None =>
          if String.eqb a "User Defined" then match user with None => Err ValueError | Some p => Ok (Some p) end
          else Ok None
      end
  end.

(** The tasks of a process, with one target each. *)
Definition as_tasks (p : process) : list task := map (fun r => (fst r, map (fun e => (fst e, One (snd e))) (snd r))) p.
(** [calculate_damage]: the process that is found is applied to the damage states
    (assessment.py:1264-1268, damage_model.py:303-313). *)
Definition apply_process (order : list string -> list string) (approach : option string) (components : list string) (user : option process)
  (ds : ds_frame) : result proc_state :=
  let* p := damage_process approach components user in
  match p with None => Ok (ds, []) | Some p => perform_dmg_process order (as_tasks p) ds end.

(** ** Replacement consequences (assessment.py:1344-1396, 1663-1943) *)

(** The user's settings for one decision variable ([get] gives None for what is missing). *)
Record replacement := RP { rp_unit : option string; rp_median : option value; rp_family : option string; rp_theta1 : option value }.
(** A missing value is a blank cell (1924). *)
Definition opt_value (o : option value) : value := match o with Some v => v | None => VBlank end.
(** 1916-1918: unit and median of the only damage state. *)
Definition cells_of (unit : value) (median : value) : row :=
  [(("Quantity", "Unit"), VText "1 EA"); (("DV", "Unit"), unit); (("DS1", "Theta_0"), median)].
(** 1912-1924: what the user configures. *)
Definition given (r : replacement) (median : value) : row :=
  cells_of (opt_text (rp_unit r)) median ++
  match rp_family r with
  | Some f => [(("DS1", "Family"), VText f); (("DS1", "Theta_1"), opt_value (rp_theta1 r))]
  | None => []
  end.
(** 1880-1943 *)
Definition replacement_cost (approach : string) (r : replacement) : row :=
  match rp_median r with
  | Some m => given r m
  | None => if String.eqb approach "FEMA P-58" then cells_of (VText "USD_2011") (VNum 0)
            else if mem approach ["Hazus Earthquake"; "Hazus Hurricane"] then cells_of (VText "loss_ratio") (VNum 1)
            else cells_of (VText "loss_ratio") (VNum 1)
  end.
(** 1784-1877. The rows of the consequences have unique labels. *)
Definition time_from (conseq : ptable pkey) (model : string) : result row :=
  match aget pair_eqb (model, "Time") (p_rows conseq) with
  | Some r => if has_col conseq ("DS5", "Theta_0") then Ok (cells_of (VText "day") (at_col r ("DS5", "Theta_0"))) else Err KeyError
  | None => Err KeyError
  end.
(** 1861, 1870: the occupancy in an f-string. *)
Definition occupancy_text (o : option string) : string := match o with Some s => s | None => "None" end.
Definition replacement_time (approach : string) (conseq : ptable pkey) (occupancy : option string) (r : replacement) : result row :=
  match rp_median r with
  | Some m => Ok (given r m)
  | None => if String.eqb approach "FEMA P-58" then Ok (cells_of (VText "worker_day") (VNum 0))
            else if String.eqb approach "Hazus Earthquake - Buildings" then time_from conseq ("STR." ++ occupancy_text occupancy)%string
            else if String.eqb approach "Hazus Earthquake - Lifeline Facilities" then time_from conseq ("LF." ++ occupancy_text occupancy)%string
            else Ok (cells_of (VText "loss_ratio") (VNum 1))
  end.
(** 1663-1781 (carbon, energy). [adf = adf.drop(...)] binds the local name only: the blank row of the
    caller's table stays. *)
Definition replacement_other (unit approach : string) (r : replacement) : row :=
  match rp_median r with
  | Some m => given r m
  | None => if String.eqb approach "FEMA P-58" then cells_of (VText unit) (VNum 0) else []
  end.
(** 1344-1396: the table with four rows; the columns of the consequences come first. *)
Record replacements := RPS { rs_cost : replacement; rs_time : replacement; rs_carbon : replacement; rs_energy : replacement }.
Definition replacement_table (approach : string) (conseq : ptable pkey) (occupancy : option string) (rs : replacements) : result (ptable pkey) :=
  let cost := replacement_cost approach (rs_cost rs) in
  let* time := replacement_time approach conseq occupancy (rs_time rs) in
  let carbon := replacement_other "kg" approach (rs_carbon rs) in
  let energy := replacement_other "MJ" approach (rs_energy rs) in
  let cols := fold_left (fun cs c => if existsb (pair_eqb c) cs then cs else cs ++ [c])
                        (map fst cost ++ map fst time ++ map fst carbon ++ map fst energy) (p_cols conseq) in
  Ok (PT cols [(("replacement", "Cost"), restrict cols cost); (("replacement", "Time"), restrict cols time);
               (("replacement", "Carbon"), restrict cols carbon); (("replacement", "Energy"), restrict cols energy)]).

(** ** The loss map (assessment.py:1398-1413, 1946-2077) *)

(** [pd.DataFrame(loss_models, columns=['Repair'], index=drivers)]. [components]: unique. *)
Definition map_auto (approach : string) (occupancy : option string) (models components : list string) : lmap :=
  let model_of (c : string) : string :=
    if starts_with "Hazus Earthquake" approach
    then let class := hd "" (split_on "." c) in
         match occupancy with Some o => (class ++ "." ++ o)%string | None => class end
    else c in
  flat_map (fun c => if String.eqb c "collapse" then []
                     else if mem (model_of c) models then [(c, [model_of c])] else []) components.
(** [loss_map.loc[label, 'Repair'] = model]: in every row with that label, or in a new row. *)
Definition set_repair (label model : string) (m : lmap) : lmap :=
  if existsb (fun e => String.eqb (fst e) label) m
  then map (fun e => if String.eqb (fst e) label then (fst e, [model]) else e) m
  else m ++ [(label, [model])].
(** 1410-1413 *)
Definition with_replacement (m : lmap) : lmap :=
  if existsb (fun e => String.eqb (fst e) "DMG-collapse") m then m
  else set_repair "irreparable" "replacement" (set_repair "collapse" "replacement" m).
(** [user]: the contents of the user's file, with the single column Repair; its label is not checked
    here. *)
Definition prepare_map (map_approach approach : string) (occupancy : option string) (models components : list string)
                       (folder path : option string) (read : string -> result lmap) : result lmap :=
  let* m := if String.eqb map_approach "Automatic" then Ok (map_auto approach occupancy models components)
            else if String.eqb map_approach "User Defined" then
              match folder with
              | None => Err AssertionError
              | Some d => match path with None => Err ValueError | Some p => read (str_replace "CustomDLDataFolder" d p) end
              end
            else Err ValueError in
  Ok (with_replacement m).
(** What [add_loss_map] makes of it (the labels are expanded by [load_data]). *)
Definition used_map (components : list string) (m : lmap) : result lmap :=
  let* labels := to_multi_index (Flat (map fst m)) in
  add_loss_map components (Some (labels, map snd m)) 1 None.

(** ** Loss combination (assessment.py:1423-1452) *)

(** The components of which the losses are combined. *)
Definition combined_components (method : option string) (m : lmap) : result (option (string * string)) :=
  match method with
  | None => Ok None
  | Some s => if String.eqb s "Hazus Hurricane" then
                match m with
                | (w, _) :: (f, _) :: _ => Ok (Some (w, f))
                | _ => Err IndexError
                end
              else Err ValueError
  end.
