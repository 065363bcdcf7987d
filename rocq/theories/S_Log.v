(** Vocabulary for the properties of the log files. *)
From Verif Require Import Prelude M_Base S_Base M_Log.
Local Open Scope string_scope.
Local Open Scope list_scope.

(** A text whose lines after the first one are indented by [pad]. *)
Fixpoint hanging (pad text : string) : string :=
  match text with
  | EmptyString => ""
  | String c tl => if Ascii.eqb c "010"%char then String c (pad ++ hanging pad tl)%string else String c (hanging pad tl)
  end.

(** Sixteen blanks next to times with microseconds, nine next to others. *)
Definition indent (ms : bool) : string := if ms then "                " else "         ".

(** The entry of a message in a log: on a new line the time, blanks or nothing, then the message. *)
Record entry := { e_stamp : bool; e_blank : bool; e_time : string; e_text : string }.
Definition first_part (ms : bool) (e : entry) : string :=
  if e_stamp e then e_time e ++ " " else if e_blank e then indent ms else "".
Definition rest_part (ms : bool) (e : entry) : string :=
  if e_stamp e then indent ms else if e_blank e then indent ms else "".
Definition entry_text (ms : bool) (e : entry) : string :=
  (first_part ms e ++ hanging (rest_part ms e) (e_text e))%string.

(** The entries of a log, each on a line of its own. *)
Fixpoint log_text (ms : bool) (es : list entry) : string :=
  match es with
  | [] => ""
  | e :: tl => String "010"%char (entry_text ms e ++ log_text ms tl)%string
  end.

(** What the [k]-th logger of a process is told, in order, when [n] loggers exist already: the
    messages sent to it, and every exception nobody caught. *)
Fixpoint told (k n : nat) (es : list event) : list entry :=
  match es with
  | [] => []
  | Create _ _ _ :: tl => told k (S n) tl
  | Message i stamp blank time m :: tl =>
      if Nat.eqb i k && Nat.ltb k n then {| e_stamp := stamp; e_blank := blank; e_time := time; e_text := m |} :: told k n tl
      else told k n tl
  | Warn _ _ :: tl => told k n tl
  | Uncaught times trace :: tl =>
      if Nat.ltb k n
      then {| e_stamp := true; e_blank := true; e_time := times k;
              e_text := ("Unhandled exception occurred:" ++ String "010"%char trace)%string |} :: told k n tl
      else told k n tl
  end.

(** What the [k]-th logger of a process is asked to do with warnings. *)
Fixpoint warn_requests (k n : nat) (es : list event) : list log_op :=
  match es with
  | [] => []
  | Create _ _ _ :: tl => warn_requests k (S n) tl
  | Warn i o :: tl => if Nat.eqb i k && Nat.ltb k n then o :: warn_requests k n tl else warn_requests k n tl
  | _ :: tl => warn_requests k n tl
  end.

(** The file [p] of the [k]-th logger is not used by another logger. *)
Definition no_other_uses (ls : list log) (k : nat) (p : path) : Prop :=
  forall j l, nth_error ls j = Some l -> j <> k -> log_path l <> Some p /\ warning_path l <> Some p.

(** The texts of warnings one below the other, each with an empty line above or the end of the
    previous one. *)
Fixpoint warnings_text (ms : list string) : string :=
  match ms with
  | [] => ""
  | m :: tl => (String "010"%char m ++ String "010"%char (warnings_text tl))%string
  end.

(** A text that has no control sequences and no gap as wide as the indentation. *)
Definition ordinary (ms : bool) (m : string) : Prop :=
  has_char "027"%char m = false /\ ~ exists a b, m = (a ++ indent ms ++ b)%string.

(** The same entries on the screen. *)
Fixpoint screen_text (ms : bool) (es : list entry) : string :=
  match es with
  | [] => ""
  | e :: tl => (entry_text ms e ++ String "010"%char (screen_text ms tl))%string
  end.

(** Texts in the order in which they were first added, each once. *)
Definition first_added (ms : list string) : list string :=
  fold_left (fun acc m => if in_dec string_dec m acc then acc else acc ++ [m]) ms [].
