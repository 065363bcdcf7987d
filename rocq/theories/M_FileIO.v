(** Model of saving and loading tables (pelicun/file_io.py).

    A table is seen along its variables: for orientation 0 the variables are the columns,
    for orientation 1 the rows.  Not modelled: the CSV text itself (numbers are written and
    parsed exactly; quoting, encodings), logging, [substitute_default_path], the conversion of
    strings such as "N/A" to NaN. *)
From Verif Require Import Prelude Pandas M_Base.
Set Implicit Arguments.
Local Open Scope string_scope.
Local Open Scope list_scope.

(** A table whose variables are columns of numbers: label of the column (its levels; a flat
    label is a list of one string) and its cells. *)
Definition frame := list (list string * list num).

(** The units assignment: a pandas Series indexed by labels (no missing entries). *)
Definition units_map := list (list string * string).

(** file_io.py:228-229: [units_df] columns in first position, then the sort on the labels. *)
Definition sort_labels {A} (l : list (list string * A)) : list (list string * A) :=
  isort (fun a b => label_le (fst a) (fst b)) l.

Definition label_mem (lab : list string) (l : list (list string)) : bool :=
  existsb (label_eqb lab) l.

(** [factors[unit]] and [1.0 / factor] (file_io.py:198). *)
Definition inverse_factor (factors : dict Qc) (u : string) : result Qc :=
  match dget u factors with
  | None => Err KeyError
  | Some f => if Qceqb f 0 then Err ZeroDivisionError else Ok (1 / f)%Qc
  end.

(** The labels that carry the unit [u] (file_io.py:196). *)
Definition labels_with (units : units_map) (u : string) : list (list string) :=
  map fst (filter (fun e => String.eqb (snd e) u) units).

(** file_io.py:195-209, orientation 0: for each distinct unit, the columns with that unit are
    divided by its factor. *)
Definition convert_columns (factors : dict Qc) (units : units_map) (t : frame) : result frame :=
  foldM (fun acc u =>
           let* f := inverse_factor factors u in
           Ok (map (fun e => if label_mem (fst e) (labels_with units u)
                             then (fst e, scale_values f (snd e)) else e) acc))
        t (unique String.eqb (map snd units)).

(** [units.loc[labels_to_keep]] (file_io.py:224) restricted to one column; a column that has
    no unit gets an empty cell in the units row. *)
Definition unit_of (units : units_map) (lab : list string) : option string :=
  aget label_eqb lab units.

(** A saved table: header, optional units row, data. *)
Record saved := {
  header : axis_index;
  unit_row : option (list (option string));
  cells : list (list num)
}.

(** The axis as pandas stores it: flat when every label has a single level. *)
Definition make_axis (nlevels : nat) (labels : list (list string)) : axis_index :=
  if Nat.ltb 1 nlevels then Multi nlevels labels else Flat (map (hd "") labels).

(** file_io.py:175-262, orientation 0, table not empty; [nlevels] is the number of levels of the
    column labels.  [simple] is [use_simpleindex].  With units but without factors: ValueError. *)
Definition save_columns (factors : option (dict Qc)) (units : option units_map)
                        (simple : bool) (nlevels : nat) (t : frame) : result saved :=
  let* r := match units with
            | None => Ok (t, None)
            | Some us =>
                match factors with
                | None => Err ValueError
                | Some fs =>
                    let* t' := convert_columns fs us t in
                    let t'' := sort_labels t' in
                    Ok (t'', Some (map (fun e => unit_of us (fst e)) t''))
                end
            end in
  let ax := make_axis nlevels (map fst (fst r)) in
  Ok {| header := if simple then to_simple_index ax else ax;
        unit_row := snd r;
        cells := map snd (fst r) |}.

(** file_io.py:488-494: factor of a column; no unit or an unknown unit gives 1. *)
Definition load_factor (factors : dict Qc) (u : option string) : Qc :=
  match u with
  | None => 1%Qc
  | Some s => match dget s factors with Some f => f | None => 1%Qc end
  end.

Definition axis_labels (a : axis_index) : list (list string) :=
  match a with Flat l => map (fun s => [s]) l | Multi _ l => l end.

(** file_io.py:457-549, orientation 0, [reindex]: the units row is separated, the columns are
    multiplied, the header is expanded and the columns are sorted.  Returns the table and the
    units (file_io.py:538-543: only the columns that have one). *)
Definition load_columns (factors : option (dict Qc)) (s : saved)
  : result (frame * option units_map) :=
  let scaled :=
    match unit_row s, factors with
    | Some us, Some fs => map (fun cu => scale_values (load_factor fs (snd cu)) (fst cu))
                              (combine (cells s) us)
    | _, _ => cells s
    end in
  let* ax := to_multi_index (header s) in
  let labels := axis_labels ax in
  let t := sort_labels (combine labels scaled) in
  match unit_row s with
  | None => Ok (t, None)
  | Some us =>
      let ul := flat_map (fun lu => match snd lu with Some u => [(fst lu, u)] | None => [] end)
                         (combine labels us) in
      Ok (t, Some (sort_labels ul))
  end.

(** ** Orientation 1: the variables are rows *)

(** A cell of a table with mixed columns. *)
Inductive cell := CNum (x : num) | CStr (s : string).

Definition scale_cell (f : Qc) (numeric : bool) (c : cell) : cell :=
  match c with
  | CNum x => if numeric then CNum (nmul x (Some f)) else c
  | CStr s => c
  end.

(** Rows with flat labels, and for each column whether its dtype is float or int. *)
Record rows_table := {
  numeric_cols : list bool;
  rows : list (string * list cell)
}.

Definition scale_row (f : Qc) (numeric : list bool) (cs : list cell) : list cell :=
  map (fun nc => scale_cell f (fst nc) (snd nc)) (combine numeric cs).

(** file_io.py:189-191: [dt in {float, int}] tests membership of a numpy dtype in a Python set
    of types, which needs equal hashes as well as equality.  [hash_matches] says whether the
    hash of a numpy dtype is that of the Python type (in CPython with numpy it is not). *)
Definition cols_to_scale (hash_matches : bool) (numeric : list bool) : list bool :=
  map (fun b => b && hash_matches) numeric.

(** file_io.py:189-222, orientation 1. *)
Definition convert_rows (hash_matches : bool) (factors : dict Qc) (units : dict string)
                        (t : rows_table) : result rows_table :=
  foldM (fun acc u =>
           let* f := inverse_factor factors u in
           let labels := map fst (filter (fun e => String.eqb (snd e) u) units) in
           Ok {| numeric_cols := numeric_cols acc;
                 rows := map (fun e => if mem (fst e) labels
                                       then (fst e, scale_row f (cols_to_scale hash_matches (numeric_cols acc)) (snd e))
                                       else e) (rows acc) |})
        t (unique String.eqb (map snd units)).

(** file_io.py:175-262, orientation 1, with units: the units become a column. *)
Definition save_rows (hash_matches : bool) (factors : dict Qc) (units : dict string)
                     (t : rows_table) : result (rows_table * list (option string)) :=
  let* t' := convert_rows hash_matches factors units t in
  let rs := isort (fun a b => str_le (fst a) (fst b)) (rows t') in
  Ok ({| numeric_cols := numeric_cols t'; rows := rs |}, map (fun e => dget (fst e) units) rs).

(** file_io.py:457-549, orientation 1, [reindex=False], labels without dashes: the rows are
    multiplied by the factor of their unit in the numeric columns, then sorted. *)
Definition load_rows (factors : dict Qc) (s : rows_table * list (option string)) : rows_table :=
  {| numeric_cols := numeric_cols (fst s);
     rows := isort (fun a b => str_le (fst a) (fst b))
               (map (fun ru : (string * list cell) * option string =>
                       let (r, u) := ru in
                       (fst r, scale_row (load_factor factors u) (numeric_cols (fst s)) (snd r)))
                    (combine (rows (fst s)) (snd s))) |}.
