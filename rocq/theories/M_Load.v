(** Model of reading tables (pelicun/file_io.py:401-549): the cells of a table given in memory or
    in a file, and their conversion with the units.

    Not modelled here: the order and the levels of the labels of the result (see [M_FileIO]), the
    index that replaces the labels of the rows, cells that are neither text nor numbers.  Labels
    are text, without repetition. *)
From Verif Require Import Prelude Pandas M_Base.
Set Implicit Arguments.
Local Open Scope string_scope.
Local Open Scope list_scope.

(** A cell before its column is converted; NaN and None are [RNum None]. *)
Inductive raw := RText (s : string) | RNum (x : num).
(** Labels of the rows, and the columns with their labels. *)
Record table := TAB { t_index : list string; t_columns : list (string * list raw) }.

(** base.py:1225-1246 [check_if_str_is_na] *)
Definition na_values : list string :=
  [""; "N/A"; "-1.#QNAN"; "null"; "None"; "<NA>"; "nan"; "-NaN"; "1.#IND"; "NaN"; "#NA"; "1.#QNAN"; "NULL"; "-nan";
   "#N/A"; "#N/A N/A"; "n/a"; "-1.#IND"; "NA"].
(** base.py:1251-1272 [with_parsed_str_na_values], one cell *)
Definition parse_na (c : raw) : raw :=
  match c with RText s => if mem s na_values then RNum None else c | RNum _ => c end.

(** The conversion of a cell by [pd.to_numeric]; [parse] reads the texts of numbers. *)
Definition to_number (parse : string -> option Qc) (c : raw) : result num :=
  match c with
  | RNum x => Ok x
  | RText s => match parse s with Some q => Ok (Some q) | None => Err ValueError end
  end.
(** base.py:899-909 [_to_numeric_if_possible]: the column as numbers, or as it is. *)
Definition convert_column (parse : string -> option Qc) (cells : list raw) : list raw :=
  match mapM (to_number parse) cells with Ok l => map RNum l | Err _ => cells end.
Definition on_columns (f : list raw -> list raw) (t : table) : table :=
  TAB (t_index t) (map (fun c => (fst c, f (snd c))) (t_columns t)).
(** base.py:870-909 [convert_dtypes] *)
Definition convert_dtypes (parse : string -> option Qc) (t : table) : table := on_columns (convert_column parse) t.

Inductive source := Frame (t : table) | File (t : table).
(** file_io.py:457-466; file_io.py:595-608 for a file: [pd.read_csv] recognizes the same texts as
    missing and turns a column into numbers if it can. *)
Definition fetch (parse : string -> option Qc) (s : source) : table :=
  match s with
  | Frame t => on_columns (map parse_na) t
  | File t => convert_dtypes parse (on_columns (map parse_na) t)
  end.

(** file_io.py:475-479 *)
Definition units_key (labels : list string) : option string := find (fun k => String.eqb (lower k) "units") labels.
(** file_io.py:496-502; a unit that is a number is not among the names. *)
Definition factor_of (factors : dict Qc) (u : raw) : Qc :=
  match u with
  | RNum _ => 1%Qc
  | RText s => match dget s factors with Some f => f | None => 1%Qc end
  end.
Definition scale (f : Qc) (c : raw) : raw := match c with RNum x => RNum (nmul x (Some f)) | RText _ => c end.
Definition numeric (cells : list raw) : bool := forallb (fun c => match c with RNum _ => true | RText _ => false end) cells.

(** Where the variables of the table are: [orientation] 0 or 1. *)
Inductive variables := InColumns | InRows.

(** file_io.py:482, orientation 1: [data['Units']]; and the drop of this column. *)
Definition column_of (k : string) (t : table) : list raw :=
  match aget String.eqb k (t_columns t) with Some cs => cs | None => [] end.
Definition drop_column (k : string) (t : table) : table :=
  TAB (t_index t) (filter (fun c => negb (String.eqb (fst c) k)) (t_columns t)).
(** file_io.py:482-483, orientation 0: [data.loc['Units']]; and the drop of this row. *)
Fixpoint position (k : string) (l : list string) : nat :=
  match l with [] => 0 | a :: tl => if String.eqb a k then 0 else S (position k tl) end.
Definition remove_at {A} (i : nat) (l : list A) : list A := firstn i l ++ skipn (S i) l.
Definition row_of (k : string) (t : table) : list raw :=
  map (fun c => nth (position k (t_index t)) (snd c) (RNum None)) (t_columns t).
Definition drop_row (k : string) (t : table) : table :=
  let i := position k (t_index t) in
  TAB (remove_at i (t_index t)) (map (fun c => (fst c, remove_at i (snd c))) (t_columns t)).

(** file_io.py:504-512: the columns of numbers are multiplied, row by row. *)
Definition multiply_rows (fs : list Qc) (t : table) : table :=
  on_columns (fun cells => if numeric cells then map2 scale fs cells else cells) t.
(** file_io.py:513-519: [numeric_elements] (487-489) are the labels of all rows, hence every column
    is multiplied; the product of a text and a number is a TypeError. *)
Definition multiply_columns (fs : list Qc) (t : table) : result table :=
  let* cols := mapM (fun fc => if numeric (snd (snd fc)) then Ok (fst (snd fc), map (scale (fst fc)) (snd (snd fc)))
                               else Err TypeError) (combine fs (t_columns t)) in
  Ok (TAB (t_index t) cols).

(** file_io.py:401-549 [load_data], without the labels of the result; with the units, if any. *)
Definition load_data (parse : string -> option Qc) (factors : option (dict Qc)) (o : variables) (s : source)
  : result (table * option (list raw)) :=
  let t := fetch parse s in
  match o, units_key (match o with InRows => map fst (t_columns t) | InColumns => t_index t end) with
  | _, None => Ok (convert_dtypes parse t, None)
  | InRows, Some k =>
      let d := convert_dtypes parse (drop_column k t) in
      let us := column_of k t in
      Ok (match factors with Some fs => multiply_rows (map (factor_of fs) us) d | None => d end, Some us)
  | InColumns, Some k =>
      let d := convert_dtypes parse (drop_row k t) in
      let us := row_of k t in
      let* d' := match factors with Some fs => multiply_columns (map (factor_of fs) us) d | None => Ok d end in
      Ok (d', Some us)
  end.
