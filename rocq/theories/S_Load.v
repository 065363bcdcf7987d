(** What the cells of a table mean, and what reading the table should make of them. *)
From Verif Require Import Prelude Pandas M_Base M_Load.
Set Implicit Arguments.
Local Open Scope string_scope.
Local Open Scope list_scope.

(** The texts that stand for a missing value (documentation of [pandas.read_csv], [na_values]). *)
Definition missing_words : list string :=
  [""; "#N/A"; "#N/A N/A"; "#NA"; "-1.#IND"; "-1.#QNAN"; "-NaN"; "-nan"; "1.#IND"; "1.#QNAN"; "<NA>"; "N/A"; "NA"; "NULL"; "NaN";
   "None"; "n/a"; "nan"; "null"].

(** The number in a cell; [parse] reads the texts of numbers. *)
Inductive denotes (parse : string -> option Qc) : raw -> num -> Prop :=
| D_number : forall x, denotes parse (RNum x) x
| D_missing : forall s, In s missing_words -> denotes parse (RText s) None
| D_text : forall s q, ~ In s missing_words -> parse s = Some q -> denotes parse (RText s) (Some q).
(** The cell holds a text that is no number. *)
Definition is_word (parse : string -> option Qc) (c : raw) : Prop :=
  exists s, c = RText s /\ ~ In s missing_words /\ parse s = None.
(** A cell as it is, except that texts for missing values are missing values. *)
Inductive as_is : raw -> raw -> Prop :=
| A_number : forall x, as_is (RNum x) (RNum x)
| A_missing : forall s, In s missing_words -> as_is (RText s) (RNum None)
| A_text : forall s, ~ In s missing_words -> as_is (RText s) (RText s).

(** The factor of a unit: 1 if there is no unit or none with this name. *)
Inductive unit_factor (factors : dict Qc) : raw -> Qc -> Prop :=
| U_blank : forall x, unit_factor factors (RNum x) 1%Qc
| U_missing : forall s, In s missing_words -> unit_factor factors (RText s) 1%Qc
| U_known : forall s f, ~ In s missing_words -> dget s factors = Some f -> unit_factor factors (RText s) f
| U_unknown : forall s, ~ In s missing_words -> dget s factors = None -> unit_factor factors (RText s) 1%Qc.

(** Column [c] of the table has the cells [l]; cell [y] in row [r] and column [c]. *)
Definition cell_of (t : table) (r c : string) (y : raw) : Prop :=
  exists i l, nth_error (t_index t) i = Some r /\ In (c, l) (t_columns t) /\ nth_error l i = Some y.
Definition rectangular (t : table) : Prop :=
  NoDup (t_index t) /\ NoDup (map fst (t_columns t)) /\ forall c l, In (c, l) (t_columns t) -> List.length l = List.length (t_index t).
Definition table_of (s : source) : table := match s with Frame t => t | File t => t end.

(** The word "units" in any mixture of capital and small letters. *)
Definition same_letter (a b : ascii) : Prop := a = b \/ (nat_of_ascii a + 32 = nat_of_ascii b)%nat.
Definition says_units (k : string) : Prop := Forall2 same_letter (list_ascii_of_string k) (list_ascii_of_string "units").
(** [k] is the label of the units among [labels]. *)
Definition units_label (labels : list string) (k : string) : Prop :=
  In k labels /\ says_units k /\ forall k', In k' labels -> says_units k' -> k' = k.
(** No unit is called like a number. *)
Definition names_only (parse : string -> option Qc) (factors : dict Qc) : Prop :=
  forall s, parse s <> None -> dget s factors = None.
