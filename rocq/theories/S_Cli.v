(** Specification vocabulary for command lines (C121, C122). *)
From Verif Require Import Prelude M_Base M_Cli.
Local Open Scope string_scope.
Local Open Scope list_scope.

(** The options as the help describes them: names, argument of the run, whether it is a switch, and
    the value without the option. *)
Definition documented : list (list string * string * bool * value) :=
  [(["-c"; "--filenameDL"], "config_path", false, VNone);
   (["-d"; "--demandFile"], "demand_file", false, VNone);
   (["-s"; "--Realizations"], "realizations", false, VNone);
   (["--dirnameOutput"], "output_path", false, VNone);
   (["--auto_script"], "auto_script_path", false, VNone);
   (["--custom_model_dir"], "custom_model_dir", false, VNone);
   (["--output_format"], "output_format", false, VNone);
   (["--detailed_results"], "detailed_results", true, VBool true);
   (["--coupled_EDP"], "coupled_edp", true, VBool false)].
(** Options without an effect on the run: four that say so or are not described, and [--log_file]. *)
Definition other_switches : list string := ["--log_file"; "--ground_failure"; "--regional"].
Definition other_texts : list string := ["--resource_dir"].

(** Ways to write yes and no, in any case. *)
Definition means_yes (t : string) : Prop := In (lower t) ["yes"; "true"; "t"; "y"; "1"].
Definition means_no (t : string) : Prop := In (lower t) ["no"; "false"; "f"; "n"; "0"].

(** A setting: the name of an option and the text of its value. *)
Definition setting := (string * string)%type.
Definition as_tokens (settings : list setting) : list string := flat_map (fun s => [fst s; snd s]) settings.
Definition as_attached (settings : list setting) : list string := map (fun s => (fst s ++ "=" ++ snd s)%string) settings.
Definition is_switch (n : string) : Prop := In n other_switches \/ exists ns k d, In (ns, k, true, d) documented /\ In n ns.
Definition is_text (n : string) : Prop := In n other_texts \/ exists ns k d, In (ns, k, false, d) documented /\ In n ns.
(** Proper settings: names as documented, switches with yes or no. *)
Definition proper (s : setting) : Prop :=
  is_text (fst s) \/ (is_switch (fst s) /\ (means_yes (snd s) \/ means_no (snd s))).
(** A value that does not look like an option. *)
Definition plain (s : setting) : Prop := starts_with "-" (snd s) = false.

(** The value of the option with names [ns]: that of the last setting. *)
Inductive last_given (ns : list string) : list setting -> option string -> Prop :=
| given_none : forall l, (forall s, In s l -> ~ In (fst s) ns) -> last_given ns l None
| given_last : forall l s l', In (fst s) ns -> (forall s', In s' l' -> ~ In (fst s') ns) -> last_given ns (l ++ s :: l') (Some (snd s)).
(** The run gets what the settings say. *)
Definition as_set (settings : list setting) (kw : dict value) : Prop :=
  forall ns k switch d, In (ns, k, switch, d) documented ->
    exists g, last_given ns settings g /\
      match g, switch with
      | None, _ => dget k kw = Some d
      | Some t, false => dget k kw = Some (VText t)
      | Some t, true => (means_yes t -> dget k kw = Some (VBool true)) /\ (means_no t -> dget k kw = Some (VBool false))
      end.
(** All names of options. *)
Definition known_names : list string :=
  ["-h"; "--help"] ++ flat_map (fun e => fst (fst (fst e))) documented ++ other_switches ++ other_texts.
(** The only name that begins with [b] is [n]. *)
Definition only_beginning (b n : string) : Prop :=
  starts_with "--" b = true /\ In n known_names /\ forall m, In m known_names -> starts_with b m = true -> m = n.
(** Two settings are of the same option. *)
Definition same_option (n n' : string) : Prop :=
  n = n' \/ exists ns k sw d, In (ns, k, sw, d) documented /\ In n ns /\ In n' ns.

(** Commits of the library: seven hexadecimal digits. *)
Definition hex_digits : list ascii := list_ascii_of_string "0123456789abcdefABCDEF".
Definition short_sha (s : string) : Prop := String.length s = 7%nat /\ forall a, In a (list_ascii_of_string s) -> In a hex_digits.
