(** Model of the log files (pelicun/base.py: [LoggerRegistry], [Logger] and [split_file_name]):
    which files a logger writes, and what ends up in them and on the screen.

    Simplifications: every file can be opened and written, so that creating a logger does not
    fail; the time of a message is an argument; the width of the indentation is fixed when a
    logger is created ([reset_log_strings] is called once). *)
From Verif Require Import Prelude M_Base M_Damage.
Local Open Scope string_scope.
Local Open Scope list_scope.

(** A path: the directory and the name in it. *)
Definition path := (string * string)%type.
Definition path_eqb (p q : path) : bool := String.eqb (fst p) (fst q) && String.eqb (snd p) (snd q).

(** [split_file_name] (base.py:507-531): [Path.stem] and [Path.suffix] of the name, which is cut at
    its last dot unless that is its first or last character. *)
Definition split_file_name (name : string) : string * string :=
  let pieces := split_on "." name in
  let front := join "." (removelast pieces) in
  let ext := List.last pieces "" in
  if String.eqb front "" || String.eqb ext "" then (name, "") else (front, ("." ++ ext)%string).

(** The contents of the files on the disk. *)
Definition disk := path -> option string.

(** [open(p, 'w')] and writing [s] (base.py:361-364). *)
Definition overwrite (p : path) (s : string) (d : disk) : disk :=
  fun q => if path_eqb q p then Some s else d q.

(** [open(p, 'a')] and writing [s] (base.py:421-423, 455-460). *)
Definition append_to (p : path) (s : string) (d : disk) : disk :=
  fun q => if path_eqb q p then Some (match d q with Some c => c ++ s | None => s end)%string else d q.

(** A [Logger] (base.py:291-305); the stack of warnings and the warnings shown are those of
    [M_Base]. *)
Record log := { log_path : option path; warning_path : option path; show_ms : bool; print_log : bool; warned : logger }.

(** All loggers in the order of [LoggerRegistry._loggers] (base.py:256), the disk, and what was
    printed on standard output. *)
Record world := { logs : list log; files : disk; screen : string }.

(** [self.spaces] (base.py:378-389). *)
Definition spaces_of (ms : bool) : string := if ms then "                " else "         ".

(** [Fore.RED] and [Style.RESET_ALL] of colorama. *)
Definition escape : ascii := "027"%char.
Definition red : string := String escape "[31m".
Definition reset : string := String escape "[0m".

(** The file for the warnings (base.py:355-360): in the directory given by the user, named after
    the log file.  [resolve] is [Path.resolve], which follows links. *)
Definition warnings_for (resolve : path -> path) (p : path) : path :=
  let (name, extension) := split_file_name (snd (resolve p)) in
  resolve (fst p, (name ++ "_warnings" ++ extension)%string).

(** [Logger.__init__] (base.py:307-375) and [LoggerRegistry.register] (base.py:265-267). *)
Definition create (resolve : path -> path) (log_file : option path) (ms pr : bool) (w : world) : world :=
  match log_file with
  | None =>
      {| logs := logs w ++ [{| log_path := None; warning_path := None; show_ms := ms; print_log := pr; warned := logger_init |}];
         files := files w; screen := screen w |}
  | Some p =>
      {| logs := logs w ++ [{| log_path := Some (resolve p); warning_path := Some (warnings_for resolve p); show_ms := ms;
                               print_log := pr; warned := logger_init |}];
         files := overwrite (warnings_for resolve p) "" (overwrite (resolve p) "" (files w));
         screen := screen w |}
  end.

(** base.py:409-416: a line of a message; [first] tells whether it is its first line. *)
Definition formatted (ms stamp blank : bool) (time : string) (first : bool) (line : string) : string :=
  if stamp && first then (time ++ " " ++ line)%string
  else if stamp || blank then (spaces_of ms ++ line)%string
  else line.

(** base.py:418-423: a line is printed and added to the log file. *)
Definition put_line (l : log) (text : string) (w : world) : world :=
  {| logs := logs w;
     files := match log_path l with Some p => append_to p (String newline text) (files w) | None => files w end;
     screen := if print_log l then (screen w ++ text ++ String newline "")%string else screen w |}.

(** The loop of [Logger.msg] (base.py:391-423) over the lines of the message. *)
Fixpoint put_lines (l : log) (stamp blank : bool) (time : string) (first : bool) (lines : list string) (w : world) : world :=
  match lines with
  | [] => w
  | line :: tl => put_lines l stamp blank time false tl (put_line l (formatted (show_ms l) stamp blank time first line) w)
  end.
Definition msg (l : log) (stamp blank : bool) (time m : string) (w : world) : world :=
  put_lines l stamp blank time true (split_on newline m) w.

(** base.py:456-460: the text of a warning as it is written to the file. *)
Definition plain (ms : bool) (message : string) : string :=
  str_remove (spaces_of ms) (str_remove reset (str_remove red message)).

(** The writing of [Logger.emit_warnings] (base.py:448-460): every warning of the stack that has
    not been emitted. *)
Definition write_warnings (l : log) (d : disk) : disk :=
  match warning_path l with
  | None => d
  | Some p => fold_left (fun d m => if mem m (emitted (warned l)) then d else append_to p (plain (show_ms l) m) d)
                        (stack (warned l)) d
  end.

Definition set_warned (s : logger) (l : log) : log :=
  {| log_path := log_path l; warning_path := warning_path l; show_ms := show_ms l; print_log := print_log l; warned := s |}.

(** The [k]-th element of a list, changed. *)
Fixpoint change_at {A} (k : nat) (f : A -> A) (l : list A) : list A :=
  match l, k with
  | [], _ => []
  | x :: tl, O => f x :: tl
  | x :: tl, S j => x :: change_at j f tl
  end.

(** [Logger.add_warning] (base.py:425-446), [Logger.emit_warnings] (base.py:448-463) and
    [Logger.warning] (base.py:465-476) of the [k]-th logger. *)
Definition warn_op (k : nat) (o : log_op) (w : world) : world :=
  match nth_error (logs w) k with
  | None => w
  | Some l =>
      let step := log_step (spaces_of (show_ms l)) red reset in
      let before := match o with Warning m => set_warned (step (warned l) (AddWarning m)) l | _ => l end in
      {| logs := change_at k (fun l => set_warned (step (warned l) o) l) (logs w);
         files := match o with AddWarning _ => files w | _ => write_warnings before (files w) end;
         screen := screen w |}
  end.

(** [LoggerRegistry.log_exception] (base.py:269-287): the message goes to every logger of the
    process; [times] are the times at which they receive it. *)
Fixpoint tell_all (times : nat -> string) (k : nat) (ls : list log) (m : string) (w : world) : world :=
  match ls with
  | [] => w
  | l :: tl => tell_all times (S k) tl m (msg l true true (times k) m w)
  end.

(** What can happen in a process: a logger is created, the [k]-th logger receives a message or is
    told to deal with warnings, or an exception is not caught by anyone. *)
Inductive event :=
| Create (log_file : option path) (ms pr : bool)
| Message (k : nat) (stamp blank : bool) (time m : string)
| Warn (k : nat) (o : log_op)
| Uncaught (times : nat -> string) (trace : string).

Definition happen (resolve : path -> path) (w : world) (e : event) : world :=
  match e with
  | Create p ms pr => create resolve p ms pr w
  | Message k stamp blank time m => match nth_error (logs w) k with Some l => msg l stamp blank time m w | None => w end
  | Warn k o => warn_op k o w
  | Uncaught times trace =>
      tell_all times 0 (logs w) ("Unhandled exception occurred:" ++ String newline trace)%string w
  end.

Definition history (resolve : path -> path) (d : disk) (es : list event) : world :=
  fold_left (happen resolve) es {| logs := []; files := d; screen := "" |}.
