(** What it means that the data of a commit are installed, and what may happen to an installation. *)
From Verif Require Import Prelude M_Damage M_Dlml.
Set Implicit Arguments.
Local Open Scope string_scope.
Local Open Scope list_scope.

(** A line of the manifest names a file unless it is blank or a comment. *)
Definition names (text p : string) : Prop :=
  exists line, In line (split_on newline_char text) /\ starts_with "#" line = false /\ p = strip_space line /\ p <> "".
(** The file is there, with the content it has in the commit. *)
Definition right (lib : library) (sha : string) (s : local) (p : string) : Prop :=
  exists b, lib sha p = Some b /\ dget p (disk s) = Some b.
(** The manifest of the commit and every file it names are there, with their content. *)
Definition delivered (lib : library) (sha : string) (s : local) : Prop :=
  exists text, lib sha "model_files.txt" = Some text /\ dget "model_files.txt" (disk s) = Some text /\
    forall p, names text p -> right lib sha s p.

(** The comparison of two commits lists every file in which they differ. *)
Definition honest (lib : library) (cmp : comparison) : Prop :=
  forall old new files p, changed_files cmp old new = Some files -> lib old p <> lib new p -> In p files.

(** The commit on record. *)
Definition recorded (s : local) : option string := match cachef s with Saved c => c_commit c | _ => None end.

(** ** Histories *)

Definition removed (p : string) (s : local) : local := LO (ddel p (disk s)) (cachef s).
(** Whatever can happen: an update that ends well, one that is interrupted or fails, a version
    check (interrupted or not), a file changed or removed by somebody, the record removed. *)
Inductive event :=
| Updated (cmp : comparison) (use_cache : bool) (sha : string)
| Interrupted (cmp : comparison) (use_cache : bool) (sha : string)
| Checked
| Edited (p : string) (b : blob)
| Deleted (p : string)
| Forgotten.
Definition step (hash : blob -> string) (lib : library) (e : event) (s s' : local) : Prop :=
  match e with
  | Updated cmp uc sha => snd (update hash lib cmp uc sha s) = Ok (tt, s')
  | Interrupted cmp uc sha => In s' (visited (update hash lib cmp uc sha) s)
  | Checked => In s' (visited check_version s)
  | Edited p b => s' = with_file p b s
  | Deleted p => s' = removed p s
  | Forgotten => s' = LO (disk s) Absent
  end.
Inductive history (hash : blob -> string) (lib : library) : list event -> local -> local -> Prop :=
| h_nil s : history hash lib [] s s
| h_cons e es s s1 s2 : step hash lib e s s1 -> history hash lib es s1 s2 -> history hash lib (e :: es) s s2.
Definition event_honest (lib : library) (e : event) : Prop :=
  match e with Updated cmp _ _ | Interrupted cmp _ _ => honest lib cmp | _ => True end.
Definition nothing : local := LO [] Absent.

(** Attempts at one update, each interrupted at any point. *)
Inductive attempts (hash : blob -> string) (lib : library) (use_cache : bool) (sha : string) : local -> local -> Prop :=
| a_none s : attempts hash lib use_cache sha s s
| a_more cmp s s1 s2 : honest lib cmp -> In s1 (visited (update hash lib cmp use_cache sha) s) ->
    attempts hash lib use_cache sha s1 s2 -> attempts hash lib use_cache sha s s2.

(** The commit a tag points to: directly or through a tag object. *)
Inductive points_to (tag_object : string -> option string) : string * string -> string -> Prop :=
| lightweight : forall c, points_to tag_object ("commit", c) c
| annotated : forall t c, tag_object t = Some c -> points_to tag_object ("tag", t) c.
