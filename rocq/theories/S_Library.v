(** Specification vocabulary for references to the built-in library. *)
From Verif Require Import Prelude M_Library.
Set Implicit Arguments.
Local Open Scope string_scope.
Local Open Scope list_scope.

(** The name of a file or folder. *)
Definition file_name (s : string) : Prop := has_char "/" s = false /\ s <> "" /\ s <> ".".
(** The folder of a method in the library; folders are listed with a slash at the end. *)
Definition method_folder (method folder : string) : Prop := In (method, (folder ++ "/")%string) resource_paths.
(** Where a file of the library is. *)
Definition in_library (root folder file : string) : string := (root ++ "/resources/DamageAndLossModelLibrary/" ++ folder ++ "/" ++ file)%string.
(** A reference to the library. *)
Definition reference (method file : string) : string := ("PelicunDefault/" ++ method ++ "/" ++ file)%string.
(** The file names of earlier versions with the method and the kind of model they stand for: damage or
    fragility databases and repair databases, with endings that vary. *)
Definition legacy_kind (name : string) : string := if starts_with "damage_DB" name || starts_with "fragility_DB" name then "fragility" else "consequence_repair".
Definition is_legacy_name (name : string) : Prop := exists method, In (name, method) legacy_names.
(** Lists with corresponding elements. *)
Definition resolved {D} (root : string) (x y : source D) : Prop :=
  match x with
  | Table d => y = Table d
  | Path s => exists p, y = Path p /\ substitute_path root s = Ok p
  end.
