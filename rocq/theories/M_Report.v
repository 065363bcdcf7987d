(** Model of the reports of a calculation (pelicun/tools/DL_calculation.py): the JSON version of
    result files, the summary, the statistics (pelicun/base.py) and saved component samples. *)
From Coq Require Import Qround.
From Verif Require Import Prelude Pandas M_Base M_FileIO M_Damage M_Outputs.
Set Implicit Arguments.
Local Open Scope string_scope.
Local Open Scope list_scope.

(** ** Files *)

(** Numbers in text form: [show] is [to_csv], [parse] is what [read_csv] and [float] make of a text
    ([None] if it is not a number; an empty text is NaN). *)
Record tools := Tools { show : num -> string; parse : string -> option num }.
(** A CSV file: the names of the rows, the columns with their labels. Names of rows are distinct. *)
Record file := Csv { f_rows : list string; f_cols : list (string * list string) }.
Definition numbers (T : tools) (c : string * list num) : string * list string := (fst c, map (show T) (snd c)).
Definition with_unit (c : string * list string) (u : string) : string * list string := (fst c, snd c ++ [u]).
(** DL_calculation.py:1185-1191, 1196-1202, 1244-1266: a table with simple labels and, if there are
    units, a last row with the unit of each column. *)
Definition table_file (T : tools) (rows : list string) (cols : list (string * list num)) (units : option (list string)) : file :=
  match units with
  | Some us => Csv (rows ++ ["Units"]) (map (fun cu => with_unit (numbers T (fst cu)) (snd cu)) (combine cols us))
  | None => Csv rows (map (numbers T) cols)
  end.
Definition row_numbers (n : nat) : list string := map str_of_nat (seq 0 n).

(** [pd.read_csv]: a column of numbers if every cell is a number, otherwise texts, where empty cells
    are NaN. *)
Definition read_column (T : tools) (cells : list string) : list cell :=
  if forallb (fun t => match parse T t with Some _ => true | None => false end) cells
  then map (fun t => CNum (match parse T t with Some x => x | None => None end)) cells
  else map (fun t => match parse T t with Some None => CNum None | _ => CStr t end) cells.
(** [astype(float)] *)
Definition as_float (T : tools) (c : cell) : result num :=
  match c with CNum x => Ok x | CStr s => match parse T s with Some x => Ok x | None => Err ValueError end end.

(** ** From tables to dictionaries *)

Inductive jtree := JList (l : list num) | JRows (d : list (string * cell)) | JTree (d : list (string * jtree)).
(** [str.isnumeric], for the digits 0 to 9 *)
Fixpoint all_digits (s : string) : bool := match s with "" => true | String a s' => is_digit a && all_digits s' end.
Definition isnumeric (s : string) : bool := negb (String.eqb s "") && all_digits s.
(** DL_calculation.py:245-250 *)
Definition leaf (T : tools) (rows : list string) (col : list cell) : result jtree :=
  if forallb isnumeric rows then let* v := mapM (as_float T) col in Ok (JList v) else Ok (JRows (combine rows col)).
(** [df_in[label]]: pandas removes leading empty names if a single column is left. *)
Fixpoint drop_empty (l : list string) : list string :=
  match l with x :: tl => if String.eqb x "" then drop_empty tl else l | [] => [] end.
Definition below_label {A} (label : string) (cols : list (list string * A)) : list (list string * A) :=
  let sub := map (fun c => (tl (fst c), snd c)) (filter (fun c => String.eqb label (hd "" (fst c))) cols) in
  match sub with [c] => [(drop_empty (fst c), snd c)] | _ => sub end.
(** DL_calculation.py:180-252 [convert_df_to_dict], [axis = 1]; [fuel] is the number of levels. Several
    columns with one label make a table instead of a column: an error here (247: a table has no
    [tolist]; 250: a row of it cannot be written as JSON). *)
Fixpoint to_dict (T : tools) (fuel : nat) (rows : list string) (cols : list (list string * list cell)) : result (list (string * jtree)) :=
  match fuel with
  | O => Ok []
  | S fuel' =>
      mapM (fun label =>
        match below_label label cols with
        | [([], col)] => let* l := leaf T rows col in Ok (label, l)
        | ([], _) :: _ => Err AttributeError
        | sub => let* d := to_dict T fuel' rows sub in Ok (label, JTree d)
        end) (unique String.eqb (map (fun c => hd "" (fst c)) cols))
  end.

(** The labels of the columns: one level, or the levels of [convert_to_MultiIndex]. *)
Definition column_labels (simple : bool) (labels : list string) : result (nat * list (list string)) :=
  if simple then Ok (1%nat, map (fun l => [l]) labels)
  else
    let* i := to_multi_index (Flat labels) in
    match i with Flat ls => Ok (1%nat, map (fun l => [l]) ls) | Multi w ls => Ok (w, ls) end.
Definition is_units (key : string) : bool := String.eqb (lower key) "units".
Fixpoint units_at (rows : list string) : option nat :=
  match rows with [] => None | k :: tl => if is_units k then Some O else option_map S (units_at tl) end.
Definition without {A} (i : nat) (l : list A) : list A := firstn i l ++ skipn (S i) l.
(** DL_calculation.py:1013-1075 [_create_json_files_if_requested], one file *)
Definition json_file (T : tools) (simple : bool) (f : file) : result (list (string * jtree)) :=
  let* wl := column_labels simple (map fst (f_cols f)) in
  let cols := combine (snd wl) (map (fun c => read_column T (snd c)) (f_cols f)) in
  match units_at (f_rows f) with
  | Some i =>
      let units := map (fun c => (join "-" (fst c), nth i (snd c) (CNum None))) cols in
      let* d := to_dict T (fst wl) (without i (f_rows f)) (map (fun c => (fst c, without i (snd c))) cols) in
      Ok (dset "Units" (JRows units) d)
  | None => to_dict T (fst wl) (f_rows f) cols
  end.

(** ** Statistics *)

(** Functions of the library that do not stay within the rational numbers: the square root and the
    deviation of the logarithms. *)
Record roots := Roots { root : Qc -> Qc; log_deviation : list Qc -> num }.
Definition mean (v : list Qc) : num := match v with [] => None | _ => Some (qsum v / qn (List.length v))%Qc end.
(** [ddof=1] *)
Definition deviation (R : roots) (v : list Qc) : num :=
  match v with
  | [] | [_] => None
  | _ => let m := (qsum v / qn (List.length v))%Qc in
         Some (root R (qsum (map (fun x => (x - m) * (x - m))%Qc v) / qn (List.length v - 1))%Qc)
  end.
(** numpy's linear interpolation between the values in order *)
Definition percentile (p : Qc) (v : list Qc) : num :=
  match v with
  | [] => None
  | _ =>
      let ys := isort Qcleb v in
      let h := (qn (List.length v - 1) * p)%Qc in
      let k := Z.to_nat (Qfloor (this h)) in
      let a := nth k ys 0%Qc in
      let b := nth (S k) ys a in
      Some (a + (b - a) * (h - qn k))%Qc
  end.
Definition minimum (v : list Qc) : num := match v with [] => None | x :: tl => Some (fold_left Qcmin tl x) end.
Definition maximum (v : list Qc) : num := match v with [] => None | x :: tl => Some (fold_left Qcmax tl x) end.
(** base.py:1060-1070 *)
Definition percentiles : list (string * Qc) :=
  [("0.1%", qc (1 # 1000)); ("2.3%", qc (23 # 1000)); ("10%", qc (1 # 10)); ("15.9%", qc (159 # 1000)); ("50%", qc (1 # 2));
   ("84.1%", qc (841 # 1000)); ("90%", qc (9 # 10)); ("97.7%", qc (977 # 1000)); ("99.9%", qc (999 # 1000))].
(** base.py:1058-1123 [describe], one column of a table of numbers; missing values do not count. *)
Definition describe (R : roots) (col : list num) : list (string * num) :=
  let v := somes col in
  [("count", Some (qn (List.length v))); ("mean", mean v); ("std", deviation R v);
   ("log_std", match minimum v with Some m => if Qcltb 0 m then log_deviation R v else None | None => None end);
   ("min", minimum v)] ++
  map (fun np => (fst np, percentile (snd np) v)) percentiles ++ [("max", maximum v)].
(** DL_calculation.py:1194-1202: the statistics of each column *)
Definition statistics (R : roots) (cols : list (string * list num)) : list string * list (string * list num) :=
  (map fst (describe R []), map (fun c => (fst c, map snd (describe R (snd c)))) cols).

(** ** Summary *)

(** [df.T.groupby(level=levels).sum().T] *)
Definition group_total (n : nat) (levels : list nat) (s : sample) : sample :=
  map (fun g => (fst g, map (fun i => Some (nsum (map (fun c => nth i c None) (snd g)))) (seq 0 n)))
      (groupby label_eqb label_le (map (fun c => (pick levels (fst c), snd c)) s)).
Definition simple_labels (s : sample) : list (string * list num) := map (fun c => (join "-" (fst c), snd c)) s.
(** DL_calculation.py:1106-1114 *)
Definition flag_column (n : nat) (key : string) (cols : list (string * list num)) : list num :=
  match dget key cols with Some col => col | None => repeat (Some 0%Qc) n end.
(** DL_calculation.py:1078-1132 [_result_summary], [n] realizations; levels of the damage sample: cmp,
    loc, dir, uid, ds. *)
Definition summary (n : nat) (damage : option sample) (repair : option sample) : list (string * list num) :=
  match repair with Some s => simple_labels s | None => [] end ++
  match damage with
  | Some s =>
      let cols := simple_labels (group_total n [0; 4]%nat s) in
      [("collapse", flag_column n "collapse-1" cols); ("irreparable", flag_column n "irreparable-1" cols)]
  | None => []
  end.

(** ** Components *)

(** DL_calculation.py:1233-1242 [_asset_save]: levels cmp, loc, dir, uid; quantities added up, the first
    unit. *)
Definition asset_saved (n : nat) (colocated : bool) (s : sample) : sample := if colocated then group_sum n [0; 1; 2]%nat s else s.
Definition asset_units (colocated : bool) (units : list (list string * string)) : list (list string * string) :=
  if colocated then map (fun g => (fst g, hd "" (snd g))) (groupby label_eqb label_le (map (fun u => (pick [0; 1; 2]%nat (fst u), snd u)) units))
  else units.
