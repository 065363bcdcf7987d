(** Model of references to the built-in library of models (pelicun/file_io.py:84-97, 265-397,
    pelicun/assessment.py:171-262, 976-993, 1498-1545). *)
From Verif Require Import Prelude M_Damage.
Set Implicit Arguments.
Local Open Scope string_scope.
Local Open Scope list_scope.

(** file_io.py:84-97 *)
Definition legacy_names : dict string :=
  [("damage_DB_FEMA_P58_2nd", "FEMA P-58"); ("damage_DB_Hazus_EQ_bldg", "Hazus Earthquake - Buildings");
   ("damage_DB_Hazus_EQ_story", "Hazus Earthquake - Stories"); ("damage_DB_Hazus_EQ_trnsp", "Hazus Earthquake - Transportation");
   ("damage_DB_Hazus_EQ_water", "Hazus Earthquake - Water"); ("damage_DB_Hazus_EQ_power", "Hazus Earthquake - Power");
   ("damage_DB_SimCenter_Hazus_HU_bldg", "Hazus Hurricane Wind"); ("loss_repair_DB_FEMA_P58_2nd", "FEMA P-58");
   ("loss_repair_DB_Hazus_EQ_bldg", "Hazus Earthquake - Buildings"); ("loss_repair_DB_Hazus_EQ_story", "Hazus Earthquake - Stories");
   ("loss_repair_DB_Hazus_EQ_trnsp", "Hazus Earthquake - Transportation"); ("loss_repair_DB_SimCenter_Hazus_HU_bldg", "Hazus Hurricane Wind")].
(** pelicun/resources/dlml_resource_paths.json *)
Definition resource_paths : dict string :=
  [("FEMA P-58", "seismic/building/component/FEMA P-58 2nd Edition/");
   ("Hazus Earthquake - Buildings", "seismic/building/portfolio/Hazus v6.1/");
   ("Hazus Earthquake - Stories", "seismic/building/subassembly/Hazus v5.1/");
   ("Hazus Earthquake - Transportation", "seismic/transportation_network/portfolio/Hazus v5.1/");
   ("Hazus Earthquake - Potable Water", "seismic/water_network/portfolio/Hazus v6.1/");
   ("Hazus Earthquake - Electric Power", "seismic/power_network/portfolio/Hazus v5.1/");
   ("Hazus Hurricane", "hurricane/building/portfolio/Hazus v5.1 coupled/");
   ("Hazus Hurricane Wind", "hurricane/building/portfolio/Hazus v5.1 coupled/");
   ("Hazus Hurricane Wind - Buildings", "hurricane/building/portfolio/Hazus v5.1 coupled/");
   ("Hazus Hurricane Wind - Buildings - Coupled", "hurricane/building/portfolio/Hazus v5.1 coupled/");
   ("Hazus Hurricane Wind - Buildings - Original", "hurricane/building/portfolio/Hazus v5.1 original/");
   ("Hazus Hurricane Storm Surge - Buildings", "flood/building/portfolio/Hazus v6.1/");
   ("SimCenter Wind Component Library", "hurricane/building/component/SimCenter Wind Component Library/")].

(** [Path(s).parts] on POSIX systems (a path that starts with exactly two slashes has the root '//'
    instead of '/', which does not matter below). *)
Definition path_parts (s : string) : list string :=
  (if starts_with "/" s then ["/"] else []) ++ filter (fun p => negb (mem p [""; "."])) (split_on "/" s).

(** file_io.py:344-377: method and file of a file name of earlier versions *)
Definition legacy_file (file : string) : result (string * string) :=
  if existsb (fun p => starts_with p file) ["fragility_DB"; "damage_DB"; "bldg_repair_DB"; "loss_repair_DB"]
  then
    match dget (hd "" (split_on "." file)) legacy_names with
    | None => Err KeyError
    | Some method =>
        let data_type := if starts_with "fragility" file || starts_with "damage" file then "fragility" else "consequence_repair" in
        Ok (method, (data_type ++ "." ++ last (split_on "." file) "")%string)
    end
  else Err KeyError.
(** file_io.py:379-393; [root] is [base.pelicun_path], an absolute path *)
Definition library_file (root method file : string) : result string :=
  match dget method resource_paths with
  | None => Err KeyError
  | Some folder => Ok (join "/" (root :: ["resources"; "DamageAndLossModelLibrary"] ++ path_parts folder ++ [file]))
  end.
(** file_io.py:335-395, one path *)
Definition substitute_path (root s : string) : result string :=
  if contains "PelicunDefault/" s then
    match rev (path_parts s) with
    | file :: method :: _ =>
        let* mf := if String.eqb method "PelicunDefault" then legacy_file file else Ok (method, file) in
        library_file root (fst mf) (snd mf)
    | _ => Err IndexError
    end
  else Ok s.
(** What models are loaded from: a path or a table. *)
Inductive source (D : Type) := Path (s : string) | Table (d : D).
Arguments Path {D}.
Arguments Table {D}.
(** file_io.py:265-397 [substitute_default_path] *)
Definition substitute {D} (root : string) (l : list (source D)) : result (list (source D)) :=
  mapM (fun x => match x with Path s => let* p := substitute_path root s in Ok (Path p) | Table d => Ok (Table d) end) l.

(** assessment.py:171-262 [get_default_data] and [get_default_metadata]: the file that is read *)
Definition default_data (root name : string) (model_type : option string) (extension : string) : result string :=
  match model_type with
  | None => substitute_path root ("PelicunDefault/" ++ name ++ "." ++ extension)
  | Some t => substitute_path root ("PelicunDefault/" ++ name ++ "/" ++ t ++ "." ++ extension)
  end.
Definition is_legacy (name : string) : bool := ends_with "csv" name || ends_with "CSV" name.
(** assessment.py:976-993, one name: the database to load, if it is there *)
Definition component_source (root : string) (is_file : string -> bool) (name : string) : result (list string) :=
  let* p := if is_legacy name then substitute_path root ("PelicunDefault/" ++ name)
            else substitute_path root ("PelicunDefault/" ++ name ++ "/fragility.csv") in
  Ok (if is_file p then [p] else []).
(** assessment.py:1498-1545, one name: the database to load and the file whose contents are returned *)
Definition consequence_source (root : string) (is_file : string -> bool) (name : string) : result (list (string * string)) :=
  let* p := if is_legacy name then substitute_path root ("PelicunDefault/" ++ name)
            else substitute_path root ("PelicunDefault/" ++ name ++ "/consequence_repair.csv") in
  if is_file p then let* q := default_data root name (Some "consequence_repair") "csv" in Ok [(p, q)]
  else
    let* p := substitute_path root ("PelicunDefault/" ++ name ++ "/loss_repair.csv") in
    if is_file p then let* q := default_data root name (Some "loss_repair") "csv" in Ok [(p, q)] else Ok [].
