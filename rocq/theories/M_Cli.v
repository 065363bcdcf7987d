(** Model of the command lines: [DL_calculation] (pelicun/tools/DL_calculation.py:1574-1693), and the
    library updates of [pelicun] (pelicun/cli.py:87-202, pelicun/tools/dlml.py:118-137, 383-430,
    740-760, 817-849).

    Python's argparse is modelled for options with separate ([--name value]) and attached
    ([--name=value]) values, and for beginnings of long names that only one option has. Not modelled
    are values attached to short names ([-cfile]), the separator [--], and values that begin with a
    minus sign (argparse accepts some of these, such as negative numbers; here they are rejected). *)
From Verif Require Import Prelude M_Base M_Config.
Set Implicit Arguments.
Local Open Scope string_scope.
Local Open Scope list_scope.

(** argparse reports errors and ends the program. *)
Definition SystemExit : exn := RuntimeError.

(** ** DL_calculation *)

Inductive value := VNone | VBool (b : bool) | VText (s : string).
(** What an option takes: a text; a switch with [str2bool] as type, [nargs='?'], and the value it
    has when none follows; or it prints the help and ends the program. *)
Inductive kind := Text | Switch (const : bool) | Help.
Record opt := OPT { o_names : list string; o_dest : string; o_kind : kind; o_default : value }.

(** DL_calculation.py:1578-1670; the help option is added by argparse. *)
Definition options : list opt :=
  [OPT ["-h"; "--help"] "help" Help VNone;
   OPT ["-c"; "--filenameDL"] "filenameDL" Text VNone;
   OPT ["-d"; "--demandFile"] "demandFile" Text VNone;
   OPT ["-s"; "--Realizations"] "Realizations" Text VNone;
   OPT ["--dirnameOutput"] "dirnameOutput" Text VNone;
   OPT ["--detailed_results"] "detailed_results" (Switch true) (VBool true);
   OPT ["--coupled_EDP"] "coupled_EDP" (Switch false) (VBool false);
   OPT ["--log_file"] "log_file" (Switch true) (VBool true);
   OPT ["--auto_script"] "auto_script" Text VNone;
   OPT ["--custom_model_dir"] "custom_model_dir" Text VNone;
   OPT ["--output_format"] "output_format" Text VNone;
   OPT ["--ground_failure"] "ground_failure" (Switch false) (VBool false);
   OPT ["--regional"] "regional" (Switch false) (VBool false);
   OPT ["--resource_dir"] "resource_dir" Text VNone].

(** argparse: a token that is an option rather than a value. *)
Definition is_option (t : string) : bool := starts_with "-" t && negb (String.eqb t "-").
(** argparse: name and attached value. *)
Fixpoint cut (t : string) : string * option string :=
  match t with
  | EmptyString => ("", None)
  | String a tl => if Ascii.eqb a "=" then ("", Some tl) else let (n, v) := cut tl in (String a n, v)
  end.
(** argparse: the option with this name, or the only one with a long name that begins like this. *)
Definition find_option (n : string) : option opt :=
  match find (fun o => mem n (o_names o)) options with
  | Some o => Some o
  | None => if starts_with "--" n
            then match filter (fun o => existsb (starts_with n) (o_names o)) options with [o] => Some o | _ => None end
            else None
  end.
(** argparse: conversion of a value. *)
Definition convert (o : opt) (v : string) : result value :=
  match o_kind o with
  | Switch _ => let* b := str2bool v in Ok (VBool b)
  | _ => Ok (VText v)
  end.
(** argparse: [parse_args], starting from the namespace [ns]. *)
Fixpoint parse_args (args : list string) (ns : dict value) : result (dict value) :=
  match args with
  | [] => Ok ns
  | t :: rest =>
      if is_option t then
        let (n, attached) := cut t in
        match find_option n with
        | None => Err SystemExit
        | Some o =>
            match o_kind o, attached, rest with
            | Help, _, _ => Err SystemExit
            | _, Some v, _ => let* x := convert o v in parse_args rest (dset (o_dest o) x ns)
            | Text, None, v :: rest' => if is_option v then Err SystemExit else parse_args rest' (dset (o_dest o) (VText v) ns)
            | Text, None, [] => Err SystemExit
            | Switch const, None, v :: rest' =>
                if is_option v then parse_args rest (dset (o_dest o) (VBool const) ns)
                else let* x := convert o v in parse_args rest' (dset (o_dest o) x ns)
            | Switch const, None, [] => Ok (dset (o_dest o) (VBool const) ns)
            end
        end
      else Err SystemExit
  end.
Definition defaults : dict value := map (fun o => (o_dest o, o_default o)) options.
(** DL_calculation.py:1680-1690: keyword and namespace entry *)
Definition passed : list (string * string) :=
  [("config_path", "filenameDL"); ("demand_file", "demandFile"); ("output_path", "dirnameOutput"); ("realizations", "Realizations");
   ("auto_script_path", "auto_script"); ("custom_model_dir", "custom_model_dir"); ("output_format", "output_format");
   ("detailed_results", "detailed_results"); ("coupled_edp", "coupled_EDP")].
Definition keywords (ns : dict value) : dict value :=
  map (fun p => (fst p, match dget (snd p) ns with Some v => v | None => VNone end)) passed.
(** DL_calculation.py:1574-1693 [main]: the keyword arguments of [run_pelicun]; [None]: the help is
    printed and nothing is run. *)
Definition main (args : list string) : result (option (dict value)) :=
  match args with
  | [] => Ok None
  | _ => let* ns := parse_args args defaults in Ok (Some (keywords ns))
  end.

(** DL_calculation.py:844-852: ['csv' in output_format] and ['json' in output_format] where the
    format is the text from the command line. *)
Definition formats (v : value) : option (list string) :=
  match v with VText t => Some (filter (fun f => contains f t) ["csv"; "json"]) | _ => None end.
Definition text_of (v : value) : option string := match v with VText t => Some t | _ => None end.
Definition flag_of (v : value) : bool := match v with VBool b => b | _ => false end.
(** DL_calculation.py:300-324: the call of [_parse_config_file]; [resolve] is the absolute path,
    [parent] the folder of a path. The absence of a configuration file is a TypeError. *)
Definition to_call (resolve parent : string -> string) (kw : dict value) : result call :=
  let get k := match dget k kw with Some v => v | None => VNone end in
  match text_of (get "config_path") with
  | None => Err TypeError
  | Some c =>
      let dir := parent (resolve c) in
      Ok (CALL dir (match text_of (get "output_path") with Some o => resolve o | None => dir end)
               (option_map resolve (text_of (get "auto_script_path"))) (text_of (get "demand_file"))
               (match text_of (get "realizations") with Some n => n | None => "None" end)
               (formats (get "output_format")) (text_of (get "custom_model_dir"))
               (flag_of (get "coupled_edp")) (flag_of (get "detailed_results")))
  end.

(** ** Updates of the library *)

Inductive request := Commit (sha : string) | Version (v : string).
(** cli.py:194-202: [target.split(' ', 1)[1]] *)
Definition target_request (target : string) : request :=
  if starts_with "commit " target then Commit (substring 7 (String.length target - 7) target) else Version target.
Definition is_hex (a : ascii) : bool :=
  let n := nat_of_ascii a in
  (Nat.leb 48 n && Nat.leb n 57) || (Nat.leb 65 n && Nat.leb n 70) || (Nat.leb 97 n && Nat.leb n 102).
Fixpoint all_hex (s : string) : bool := match s with EmptyString => true | String a tl => is_hex a && all_hex tl end.
(** dlml.py:118-137 [validate_commit_sha]. The final [$] of the pattern also matches before a line
    break at the end. *)
Definition newline : string := String "010" "".
Definition validate_commit_sha (commit : string) : bool :=
  String.eqb commit "latest" ||
  (Nat.eqb (String.length commit) 7 && all_hex commit) ||
  (Nat.eqb (String.length commit) 8 && all_hex (substring 0 7 commit) && String.eqb (substring 7 1 commit) newline).
(** dlml.py:817-849 [dlml_update] with dlml.py:420-427: what is downloaded; [resolved_commit] and [resolved_version]
    are the answers of the library. Errors of these two kinds end as RuntimeError. *)
Definition dlml_update (resolved_commit resolved_version : string -> result string) (r : request) : result string :=
  match (match r with
         | Commit sha => if negb (String.eqb sha "latest") && negb (validate_commit_sha sha) then Err ValueError else resolved_commit sha
         | Version v => resolved_version v
         end) with
  | Err ValueError => Err RuntimeError
  | x => x
  end.
(** dlml.py:757-759: importing the package leaves the data alone. *)
Definition skips_check (argv : list string) : bool :=
  let s := firstn 11 argv in existsb (fun p => String.eqb (fst p) "dlml" && String.eqb (snd p) "update") (combine s (tl s)).
