(** C125: log files. *)
From Verif Require Import Prelude PreludeFacts M_Base S_Base P_Base M_Damage M_Log S_Log P_Log.
Local Open Scope string_scope.
Local Open Scope list_scope.

(** * C125 The log file holds every message, the file next to it every warning *)

(** After any history of a process, the log file of a logger holds what it was told since it was
    created - the messages sent to it and the exceptions nobody caught - in this order, line by
    line, and nothing else; provided that no other logger uses the file.  The history may end
    anywhere, so nothing is missing when the process is killed after it. *)
Theorem C125_log_partial : forall resolve d es k l p,
  nth_error (logs (history resolve d es)) k = Some l -> log_path l = Some p -> warning_path l <> Some p ->
  no_other_uses (logs (history resolve d es)) k p ->
  files (history resolve d es) p = Some (log_text (show_ms l) (told k 0 es)).
Proof. exact log_content. Qed.
Print Assumptions C125_log_partial.

(** Whatever happens later, what is in the file stays there. *)
Theorem C125_kept_partial : forall resolve d es es' k l p,
  nth_error (logs (history resolve d es)) k = Some l -> log_path l = Some p -> warning_path l <> Some p ->
  no_other_uses (logs (history resolve d (es ++ es'))) k p ->
  exists before after, files (history resolve d es) p = Some before /\ files (history resolve d (es ++ es')) p = Some (before ++ after)%string.
Proof.
  intros resolve d es es' k l p Hk Hp Hw Hpriv.
  assert (G : exists l', nth_error (logs (history resolve d (es ++ es'))) k = Some l' /\ same_but_warned l l').
  { clear Hpriv. induction es' as [|e es' IH] using rev_ind; [exists l; rewrite app_nil_r; repeat split; exact Hk|].
    destruct IH as (l1 & H1 & (A1 & A2 & A3 & A4)). destruct (happen_keeps resolve _ e _ H1) as (l2 & H2 & (B1 & B2 & B3 & B4)).
    exists l2. rewrite app_assoc, hist_app. split; [exact H2|]. repeat split; congruence. }
  assert (Hpriv0 : no_other_uses (logs (history resolve d es)) k p).
  { clear G. induction es' as [|e es' IH] using rev_ind; [now rewrite app_nil_r in Hpriv|]. apply IH.
    rewrite app_assoc in Hpriv. exact (private_before _ _ _ _ Hpriv). }
  destruct G as (l' & Hk' & (A1 & A2 & A3 & A4)).
  assert (L1 : log_path l' = Some p) by congruence. assert (W1 : warning_path l' <> Some p) by congruence.
  exists (log_text (show_ms l) (told k 0 es)), (log_text (show_ms l) (told k (0 + creates es) es')).
  split; [now apply (log_content resolve d es Hk Hp Hw Hpriv0)|].
  rewrite (log_content resolve d (es ++ es') Hk' L1 W1 Hpriv), told_app, log_text_app. now rewrite A3.
Qed.
Print Assumptions C125_kept_partial.

(** The file is the one the user names.  The other one is next to it, with "_warnings" before the
    extension, and is always another file (if no link leads from one to the other). *)
Theorem C125_files : forall resolve d es p ms pr l,
  nth_error (logs (history resolve d (es ++ [Create (Some p) ms pr]))) (List.length (logs (history resolve d es))) = Some l ->
  log_path l = Some (resolve p) /\
  (resolve p = p -> forall a b, a <> "" -> b <> "" -> has_char "." b = false -> snd p = (a ++ "." ++ b)%string ->
     warning_path l = Some (resolve (fst p, (a ++ "_warnings." ++ b)%string))) /\
  (resolve p = p -> has_char "." (snd p) = false -> warning_path l = Some (resolve (fst p, (snd p ++ "_warnings")%string))) /\
  ((forall n, resolve (fst p, n) = (fst p, n)) -> warning_path l <> log_path l).
Proof.
  intros resolve d es p ms pr l H. rewrite hist_app in H. cbn [happen create logs] in H.
  rewrite nth_error_app2 in H by lia. rewrite Nat.sub_diag in H. injection H as <-. cbn [log_path warning_path].
  split; [reflexivity|]. unfold warnings_for. split; [|split].
  - intros R a b Ha Hb Hd E. rewrite R, E. change (a ++ "." ++ b)%string with (a ++ String "." b)%string.
    rewrite split_with_extension by assumption. reflexivity.
  - intros R Hd. rewrite R, split_without_dot by exact Hd. now rewrite string_app_nil.
  - intros R E. destruct p as [dir name]. cbn [fst snd] in *. rewrite R in E. cbn [snd] in E. assert (S := split_name name).
    destruct (split_file_name name) as [a b]. cbn [fst snd] in S. rewrite R in E. injection E as E.
    apply (f_equal String.length) in E. rewrite <- S in E. rewrite !length_app in E. cbn in E. lia.
Qed.
Print Assumptions C125_files.

(** The file with the warnings holds them as they were given, each once, in the order in which they
    were first added; after [emit_warnings] or [warning] none is missing. *)
Theorem C125_warnings_partial : forall resolve d es k l p,
  nth_error (logs (history resolve d es)) k = Some l -> warning_path l = Some p -> log_path l <> Some p ->
  no_other_uses (logs (history resolve d es)) k p ->
  (forall m, In m (all_added (warn_requests k 0 es)) -> ordinary (show_ms l) m) ->
  exists written pending, files (history resolve d es) p = Some (warnings_text written) /\
    written ++ pending = first_added (all_added (warn_requests k 0 es)) /\
    (forall ops o, warn_requests k 0 es = ops ++ [o] -> (o = EmitWarnings \/ exists m, o = Warning m) -> pending = []).
Proof.
  intros resolve d es k l p Hk Hp Hw Hpriv Hord.
  assert (C := warning_content resolve d es Hk Hp Hw Hpriv). assert (S := warned_state resolve d es k Hk).
  assert (Hn : no_newline (spaces_of (show_ms l))) by (apply has_char_spaces; discriminate).
  destruct (printed_texts Hn (warn_requests k 0 es)) as (ws & pending & E & Ep & Eu).
  exists ws, pending. rewrite S, E in C. rewrite cat_warnings in C.
  - split; [exact C|]. split; [exact Eu|]. intros ops o Eo Ho. rewrite Eo, emitted_all in Ep by exact Ho. symmetry in Ep. now apply map_eq_nil in Ep.
  - intros m Hm. apply Hord, first_added_in. rewrite <- Eu. apply in_app_iff. now left.
Qed.
Print Assumptions C125_warnings_partial.

(** With [print_log] the same entries appear on the screen, if no other logger prints. *)
Theorem C125_screen : forall resolve d es k l,
  nth_error (logs (history resolve d es)) k = Some l -> print_log l = true ->
  (forall j l', nth_error (logs (history resolve d es)) j = Some l' -> j <> k -> print_log l' = false) ->
  screen (history resolve d es) = screen_text (show_ms l) (told k 0 es).
Proof. exact screen_content. Qed.
Print Assumptions C125_screen.

(** A run with a log file and a second one without. *)
Definition nothing : disk := fun _ => None.
Definition two_lines : string := "Loading" ++ String newline "demands".
Definition demo_run : list event :=
  [Create (Some ("/data", "run.1.txt")) false true; Message 0 true true "10:00:00" two_lines; Warn 0 (AddWarning two_lines);
   Create None true false; Message 1 true true "10:00:01" "other"; Message 0 false false "10:00:02" "done";
   Warn 0 (AddWarning two_lines); Warn 0 (Warning "late")].
Example C125_hypotheses_met :
  exists l, nth_error (logs (history (fun p => p) nothing demo_run)) 0 = Some l /\
    log_path l = Some ("/data", "run.1.txt") /\ warning_path l = Some ("/data", "run.1_warnings.txt") /\ print_log l = true /\
    no_other_uses (logs (history (fun p => p) nothing demo_run)) 0 ("/data", "run.1.txt") /\
    no_other_uses (logs (history (fun p => p) nothing demo_run)) 0 ("/data", "run.1_warnings.txt") /\
    ordinary false two_lines /\ ordinary false "late" /\
    files (history (fun p => p) nothing demo_run) ("/data", "run.1.txt") =
      Some (String newline ("10:00:00 Loading" ++ String newline ("         demands" ++ String newline "done")))%string /\
    files (history (fun p => p) nothing demo_run) ("/data", "run.1_warnings.txt") =
      Some (String newline (two_lines ++ String newline (String newline ("late" ++ String newline ""))))%string /\
    screen (history (fun p => p) nothing demo_run) = ("10:00:00 Loading" ++ String newline ("         demands" ++ String newline ("done" ++ String newline "")))%string.
Proof.
  eexists. split; [reflexivity|]. split; [reflexivity|]. split; [reflexivity|]. split; [reflexivity|].
  assert (N : forall p, no_other_uses (logs (history (fun p => p) nothing demo_run)) 0 p).
  { intros p [|[|j]] l Hj Hn; [easy| |destruct j; discriminate]. cbn in Hj. injection Hj as <-. cbn. split; discriminate. }
  split; [apply N|]. split; [apply N|].
  assert (O : forall m, has_char "027" m = false -> contains (indent false) m = false -> ordinary false m).
  { intros m H1 H2. split; [exact H1|]. intros (a & b & ->). clear H1. induction a as [|c a IH].
    - cbn in H2. destruct b; discriminate.
    - cbn [append contains] in H2. apply orb_false_iff in H2 as [_ H2]. exact (IH H2). }
  split; [apply O; reflexivity|]. split; [apply O; reflexivity|]. repeat split; vm_compute; reflexivity.
Qed.

(** ** What does not hold *)

(** A gap in the text of a warning that is as wide as the indentation is closed in the file; such
    gaps occur in tables. *)
Theorem C125_warnings_refuted :
  files (history (fun p => p) nothing [Create (Some ("/data", "log.txt")) false false; Warn 0 (Warning "cost         1200")]) ("/data", "log_warnings.txt")
    = Some (warnings_text ["cost1200"]).
Proof. vm_compute. reflexivity. Qed.
Print Assumptions C125_warnings_refuted.

(** The log of a run that has ended receives the exceptions of later runs in the same process. *)
Theorem C125_own_refuted : exists es later trace p,
  (forall k st bl t m, ~ In (Message k st bl t m) later) /\
  files (history (fun p => p) nothing es) p = Some "" /\
  files (history (fun p => p) nothing (es ++ Create None false false :: later)) p =
    Some (String newline ("10:00:00 Unhandled exception occurred:" ++ String newline ("         " ++ trace)))%string.
Proof.
  exists [Create (Some ("/data", "first.txt")) false false], [Uncaught (fun _ => "10:00:00") "ValueError"], "ValueError", ("/data", "first.txt").
  split; [intros k st bl t m [H|[]]; discriminate|]. split; vm_compute; reflexivity.
Qed.
Print Assumptions C125_own_refuted.

(** Two runs with the same log file: the second one erases the log of the first, which then goes
    on writing into it. *)
Theorem C125_shared_refuted :
  files (history (fun p => p) nothing
    [Create (Some ("/data", "log.txt")) false false; Message 0 true true "10:00:00" "first"; Create (Some ("/data", "log.txt")) false false;
     Message 0 true true "10:00:01" "again"]) ("/data", "log.txt") = Some (String newline "10:00:01 again").
Proof. vm_compute. reflexivity. Qed.
Print Assumptions C125_shared_refuted.
