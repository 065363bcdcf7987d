(** Model of the download of the Damage and Loss Model Library (pelicun/tools/dlml.py).

    A run is the list of all local states it goes through and its outcome: an interruption, or a
    failing connection, leaves one of these states. Files are written character by character
    (finer than the chunks of 8192 bytes of the code). The paths listed by the library are
    relative, distinct texts are distinct files, and none is the cache file. *)
From Verif Require Import Prelude M_Base M_Damage.
Set Implicit Arguments.
Local Open Scope string_scope.
Local Open Scope list_scope.

Definition blob := string.
(** The cache: commit and hash of each file. The other entries play no role in updates. *)
Record cache := CA { c_commit : option string; c_hashes : dict string }.
(** The cache file: [Broken] is text that is not JSON. *)
Inductive cache_file := Absent | Broken | Saved (c : cache).
Record local := LO { disk : dict blob; cachef : cache_file }.
(** What the library provides: the content of a file in a commit. *)
Definition library := string -> string -> option blob.
(** The comparison of two commits by the GitHub API: status and files; [None] if it fails. *)
Definition comparison := string -> string -> option (string * list string).

(** ** Runs *)

Definition run (A : Type) := local -> list local * result (A * local).
Definition ret {A} (a : A) : run A := fun s => ([], Ok (a, s)).
Definition fail {A} (x : exn) : run A := fun s => ([], Err x).
Definition andThen {A B} (r : run A) (k : A -> run B) : run B := fun s =>
  match r s with
  | (t, Err x) => (t, Err x)
  | (t, Ok (a, s1)) => let (t', o) := k a s1 in (t ++ t', o)
  end.
Definition with_file (p : string) (b : blob) (s : local) : local := LO (dset p b (disk s)) (cachef s).
(** All beginnings of a text, from the empty one. *)
Fixpoint beginnings (b : blob) : list blob :=
  "" :: match b with EmptyString => [] | String a tl => map (String a) (beginnings tl) end.
Definition write_file (p : string) (b : blob) : run unit := fun s =>
  (map (fun x => with_file p x s) (beginnings b), Ok (tt, with_file p b s)).
(** dlml.py:242-256 [save_cache] *)
Definition save_cache (c : cache) : run unit := fun s =>
  let done := LO (disk s) (Saved c) in ([LO (disk s) Broken; done], Ok (tt, done)).
(** dlml.py:217-239 [load_cache] *)
Definition load_cache (s : local) : cache := match cachef s with Saved c => c | _ => CA None [] end.

(** dlml.py:516-545 [_download_file] *)
Definition download_file (lib : library) (sha p : string) : run blob :=
  match lib sha p with
  | None => fail RuntimeError
  | Some b => andThen (write_file p b) (fun _ => ret b)
  end.

(** ** Updates *)

(** dlml.py:440-513 [_resolve_version_to_commit_sha] for a published release: the commit its tag
    points to, through a tag object if it is annotated; if the tag cannot be looked up, the target
    of the release, which may be the name of a branch. [tag] is type and object of the tag. *)
Definition resolve_release (tag : option (string * string)) (tag_object : string -> option string) (target : option string) : result string :=
  let found := match tag with
    | None => target
    | Some (ty, sha) =>
        if String.eqb ty "commit" then Some sha
        else if String.eqb ty "tag" then match tag_object sha with Some c => Some c | None => target end
        else target
    end in
  match found with Some c => if String.eqb c "" then Err RuntimeError else Ok c | None => Err RuntimeError end.

(** dlml.py:165-214 [_get_changed_files] *)
Definition changed_files (cmp : comparison) (old new : string) : option (list string) :=
  match cmp old new with
  | None => None
  | Some (status, files) =>
      if String.eqb status "behind" then match cmp new old with None => None | Some (_, files) => Some files end
      else Some files
  end.
Definition newline_char : ascii := "010"%char.
(** dlml.py:613-620: the files listed in model_files.txt. *)
Definition listed_files (text : string) : list string :=
  map strip_space (filter (fun l => negb (String.eqb (strip_space l) "") && negb (starts_with "#" l)) (split_on newline_char text)).

Definition manifest : string := "model_files.txt".
(** dlml.py:657-697: one file after the other; [hashes] are collected for the new cache. *)
Definition can_skip (hash : blob -> string) (use_cache : bool) (old : cache) (changed : option (list string)) (p : string) (s : local) : option string :=
  match changed with
  | Some cs =>
      if (use_cache && negb (mem p cs))%bool then
        match dget p (c_hashes old), dget p (disk s) with
        | Some h, Some b => if (negb (String.eqb h "") && String.eqb (hash b) h)%bool then Some h else None
        | _, _ => None
        end
      else None
  | None => None
  end.
Fixpoint download_all (hash : blob -> string) (lib : library) (sha : string) (use_cache : bool) (old : cache) (changed : option (list string))
    (files : list string) (hashes : dict string) : run (dict string) :=
  match files with
  | [] => ret hashes
  | p :: tl => fun s =>
      match can_skip hash use_cache old changed p s with
      | Some h => download_all hash lib sha use_cache old changed tl (dset p h hashes) s
      | None =>
          andThen (download_file lib sha p)
            (fun b => download_all hash lib sha use_cache old changed tl (dset p (hash b) hashes)) s
      end
  end.

(** dlml.py:548-706 [download_data_files] for the commit [sha] (of which a version is an alias). *)
Definition update (hash : blob -> string) (lib : library) (cmp : comparison) (use_cache : bool) (sha : string) : run unit := fun s =>
  let old := if use_cache then load_cache s else CA None [] in
  if match c_commit old with Some o => String.eqb o sha | None => false end then ([], Ok (tt, s))
  else
    let changed := match c_commit old with Some o => if String.eqb o "" then None else changed_files cmp o sha | None => None end in
    andThen (download_file lib sha manifest) (fun text =>
    andThen (download_all hash lib sha use_cache old changed (listed_files text) []) (fun hashes =>
    if use_cache then save_cache (CA (Some sha) hashes) else ret tt)) s.
(** All states an update goes through; the first is the state it starts from. *)
Definition visited {A} (r : run A) (s : local) : list local := s :: fst (r s).

(** dlml.py:259-380 [check_dlml_version]: the cache is written again with further entries. Only if
    the last check is at least a day ago. *)
Definition check_version : run unit := fun s => save_cache (load_cache s) s.
(** dlml.py:741-814 [check_dlml_data]: whether the data are taken for installed. *)
Definition data_exists (s : local) : bool := dmem manifest (disk s).
(** The same function as a whole: what importing the package does to the data; [latest] is the
    commit of the latest release. *)
Definition import_package (hash : blob -> string) (lib : library) (cmp : comparison) (latest : string) : run unit := fun s =>
  if data_exists s then check_version s else update hash lib cmp true latest s.
