(** Model of the aggregation of losses (pelicun/model/loss_model.py:111-146, 791-1514).

    Not modelled: the drawing of the replacement consequences (their sample is an argument, one
    value per realization), logging and the deprecation warning, the types of the arguments that
    are only checked with isinstance. *)
From Verif Require Import Prelude Pandas M_Base M_FileIO M_Damage.
Set Implicit Arguments.
Local Open Scope string_scope.
Local Open Scope list_scope.

(** ** Samples *)

(** The levels of a loss column except ds: (dv, loss, dmg, loc, dir, uid). *)
Record lkey := LK { k_dv : string; k_loss : string; k_dmg : string;
                    k_loc : string; k_dir : string; k_uid : string }.
Definition lkey_label (k : lkey) : list string := [k_dv k; k_loss k; k_dmg k; k_loc k; k_dir k; k_uid k].
Definition lkey_eqb (a b : lkey) : bool := label_eqb (lkey_label a) (lkey_label b).
Definition lkey_le (a b : lkey) : bool := label_le (lkey_label a) (lkey_label b).

(** The stored samples: the columns of the damage state model carry the level ds; those of the
    loss function model carry it only once the combined sample has been read. *)
Definition ds_table := list ((lkey * string) * list num).
Definition lf_table := list ((lkey * option string) * list num).
Record loss_state := { ds_sample : option ds_table; lf_sample : option lf_table }.

Definition combined := list ((lkey * option string) * list num).
Definition with_ds (t : ds_table) : combined := map (fun c => ((fst (fst c), Some (snd (fst c))), snd c)) t.
(** loss_model.py:136-144: [new_index['ds'] = 'N/A'] and [lf_model.sample.columns = ...]. *)
Definition add_ds_level (t : lf_table) : lf_table := map (fun c => ((fst (fst c), Some "N/A"), snd c)) t.

(** The property [sample] (loss_model.py:111-146) and the state it leaves behind. *)
Definition read_sample (st : loss_state) : option combined * loss_state :=
  match ds_sample st, lf_sample st with
  | None, None => (None, st)
  | None, Some lf => (Some lf, st)
  | Some ds, None => (Some (with_ds ds), st)
  | Some ds, Some lf =>
      let lf' := add_ds_level lf in
      (Some (with_ds ds ++ lf'), {| ds_sample := Some ds; lf_sample := Some lf' |})
  end.

(** ** Exclusive replacement (loss_model.py:1486-1514) *)

Definition is_replacement (k : lkey) : bool := String.eqb (k_loss k) "replacement".
Definition positive (x : num) : bool := nlt (Some 0%Qc) x.

(** Rows in which a replacement column is positive. *)
Definition replaced_row (t : ds_table) (i : nat) : bool :=
  existsb (fun c => is_replacement (fst (fst c)) && positive (nth i (snd c) None)) t.

Definition zero_where {A} (zero : A) (rows : nat -> bool) (col : list A) : list A :=
  map (fun ix => if rows (fst ix) then zero else snd ix) (combine (seq 0 (List.length col)) col).

Definition make_replacement_exclusive (ds : ds_table) (lf : option lf_table)
  : ds_table * option lf_table :=
  let rows := replaced_row ds in
  (map (fun c => if is_replacement (fst (fst c)) then c
                 else (fst c, zero_where (Some 0%Qc) rows (snd c))) ds,
   match lf with
   | None => None
   | Some t => Some (map (fun c => (fst c, zero_where (Some 0%Qc) rows (snd c))) t)
   end).

(** ** Summing over damage states (loss_model.py:911-915) *)

(** A sample without NaN: the groupby sum has replaced them. *)
Definition qframe := list (lkey * list Qc).

(** Row-wise total; NaN is skipped. *)
Definition total_columns (n : nat) (cols : list (list num)) : list Qc :=
  map (fun i => nsum (map (fun c => nth i c None) cols)) (seq 0 n).

Definition sum_over_ds (n : nat) (s : combined) : qframe :=
  map (fun g => (fst g, total_columns n (snd g)))
      (groupby lkey_eqb lkey_le (map (fun c => (fst (fst c), snd c)) s)).

(** ** Loss combinations (loss_model.py:1044-1311) *)

(** A combination table: rows of numbers. *)
Definition matrix := list (list Qc).

(** The cell [i] of an increasing grid that contains [x], and the position in it: scipy's
    [RegularGridInterpolator] rejects points outside the grid. *)
Fixpoint find_cell (grid : list Qc) (x : Qc) : option (nat * Qc) :=
  match grid with
  | a :: ((b :: _) as tl) =>
      if Qcleb a x && Qcleb x b then Some (0%nat, ((x - a) / (b - a))%Qc)
      else match find_cell tl x with Some (i, w) => Some (S i, w) | None => None end
  | _ => None
  end.
Fixpoint increasing (l : list Qc) : bool :=
  match l with a :: ((b :: _) as tl) => Qcltb a b && increasing tl | _ => true end.

Definition cell_of (m : matrix) (i j : nat) : Qc := nth j (nth i m []) 0%Qc.

(** Bilinear interpolation; the grid is the first column and the first row of the array
    (loss_model.py:1298-1301).  ValueError outside the grid or for a grid that is not increasing. *)
Definition interpolate (m : matrix) (x y : Qc) : result Qc :=
  let xs := map (fun r => hd 0%Qc r) m in
  let ys := hd [] m in
  if negb (increasing xs && increasing ys) then Err ValueError
  else match find_cell xs x, find_cell ys y with
       | Some (i, s), Some (j, t) =>
           Ok ((1 - s) * ((1 - t) * cell_of m i j + t * cell_of m i (S j))
               + s * ((1 - t) * cell_of m (S i) j + t * cell_of m (S i) (S j)))%Qc
       | _, _ => Err ValueError
       end.

(** A point has one value per column of [values]; the interpolator is two-dimensional. *)
Definition interp_point (m : matrix) (p : list Qc) : result Qc :=
  match p with [x; y] => interpolate m x y | _ => Err ValueError end.

(** A frozenset of component names: its elements in sorted order, without repetition. *)
Definition frozenset (l : list string) : list string := isort str_le (unique String.eqb l).
Definition subset (a b : list string) : bool := forallb (fun x => mem x b) a.

Definition place := (string * string * string)%type.
Definition place_of (k : lkey) : place := (k_loc k, k_dir k, k_uid k).
Definition place_eqb (a b : place) : bool :=
  String.eqb (fst (fst a)) (fst (fst b)) && String.eqb (snd (fst a)) (snd (fst b)) && String.eqb (snd a) (snd b).

(** [d[k].append(v)] on a dictionary of lists. *)
Definition append_at {K V} (eqb : K -> K -> bool) (k : K) (v : V) (d : list (K * list V)) : list (K * list V) :=
  match aget eqb k d with
  | Some vs => aset eqb k (vs ++ [v]) d
  | None => d ++ [(k, [v])]
  end.

(** [_identify_potential_groups] (loss_model.py:1201-1235), one decision variable. *)
Definition potential_groups (dv : string) (cols : list lkey) : list (list string * list place) :=
  let grouped := fold_left (fun d k => append_at place_eqb (place_of k) (k_dmg k) d)
                           (filter (fun k => String.eqb (k_dv k) dv) cols) [] in
  fold_left (fun d (g : place * list string) => append_at label_eqb (frozenset (snd g)) (fst g) d) grouped [].

(** [_map_component_ids_to_loss_ids] (loss_model.py:1237-1265) *)
Definition dmg_to_loss (cols : list lkey) : dict string :=
  fold_left (fun d k => dset (k_dmg k) (k_loss k) d) cols [].

Definition combination := (list string * matrix)%type.
Definition apop (k : lkey) (s : qframe) : qframe := filter (fun c => negb (lkey_eqb k (fst c))) s.

(** One combination at one place (loss_model.py:1166-1199).  [order] is the order in which
    Python iterates over the frozenset of the target group. *)
Definition combine_at (order : list string -> list string) (n : nat) (d2l : dict string) (dv : string)
                      (comb : combination) (target : list string) (st : qframe * qframe) (p : place)
  : result (qframe * qframe) :=
  let (dsample, dcsample) := st in
  let* cols := mapM (fun x => match dget x d2l with
                              | Some l => Ok (LK dv l x (fst (fst p)) (snd (fst p)) (snd p))
                              | None => Err KeyError end) (order target) in
  let* values := mapM (fun k => match aget lkey_eqb k dsample with Some v => Ok v | None => Err KeyError end) cols in
  let* combined := mapM (fun i => interp_point (snd comb) (map (fun v => nth i v 0%Qc) values)) (seq 0 n) in
  let key := LK dv "combination" ("(" ++ join ", " (fst comb) ++ ")") (fst (fst p)) (snd (fst p)) (snd p) in
  Ok (fold_left (fun d k => apop k d) cols dsample, aset lkey_eqb key combined dcsample).

(** loss_model.py:1143-1164: the first available group that contains the components. *)
Definition combine_one (order : list string -> list string) (n : nat) (cols : list lkey) (dv : string)
                       (st : qframe * qframe) (comb : combination) : result (qframe * qframe) :=
  match find (fun g => subset (fst comb) (fst g)) (potential_groups dv cols) with
  | None => Err AssertionError
  | Some g => foldM (combine_at order n (dmg_to_loss cols) dv comb (fst g)) st (snd g)
  end.

(** [_apply_loss_combinations] (loss_model.py:1044-1103) *)
Definition apply_loss_combinations (order : list string -> list string) (n : nat)
                                   (combos : dict (list combination)) (s : qframe) : result qframe :=
  let cols := map fst s in
  let* st := foldM (fun st (e : string * list combination) =>
                      foldM (combine_one order n cols (fst e)) st (snd e)) (s, []) combos in
  Ok (fold_left (fun d c => aset lkey_eqb (fst c) (snd c) d) (fst st) (snd st)).

(** ** Replacement thresholds (loss_model.py:1382-1484) *)

Definition row (i : nat) (c : lkey * list Qc) : Qc := nth i (snd c) 0%Qc.
Definition of_dv (dv : string) (s : qframe) : qframe := filter (fun c => String.eqb (k_dv (fst c)) dv) s.

(** Replacement has already occurred in this row for the decision variable (1415-1423). *)
Definition has_replacement (sub : qframe) (i : nat) : bool :=
  existsb (fun c => is_replacement (fst c) && Qcltb 0 (row i c)) sub.
(** The sum of the other consequences (1432-1434). *)
Definition repair_sum (sub : qframe) (i : nat) : Qc :=
  qsum (map (row i) (filter (fun c => negb (is_replacement (fst c))) sub)).

(** loss_model.py:1412-1457, one decision variable. *)
Definition exceedance_of (n : nat) (ratios : dict Qc) (s : qframe) (rv : string * list Qc)
  : result (list bool) :=
  let sub := of_dv (fst rv) s in
  match sub with
  | [] => Err KeyError
  | _ =>
      if forallb (has_replacement sub) (seq 0 n) then Ok (map (fun _ => false) (seq 0 n))
      else match dget (fst rv) ratios with
           | None => Err KeyError
           | Some ratio =>
               Ok (map (fun i => negb (has_replacement sub i)
                                 && Qcltb (nth i (snd rv) 0%Qc * ratio) (repair_sum sub i)) (seq 0 n))
           end
  end.

Definition threshold_key (dv : string) : lkey := LK dv "replacement" "threshold_exceedance" "0" "1" "0".
Definition sort_lkeys {A} (l : list (lkey * A)) : list (lkey * A) := isort (fun a b => lkey_le (fst a) (fst b)) l.

Definition set_where (rows : nat -> bool) (new old : list Qc) : list Qc :=
  map (fun ix => if rows (fst ix) then nth (fst ix) new 0%Qc else snd ix) (combine (seq 0 (List.length old)) old).

(** loss_model.py:1462-1475 *)
Definition assign_replacement (n : nat) (rows : nat -> bool) (s : qframe) (rv : string * list Qc) : qframe :=
  let key := threshold_key (fst rv) in
  let s1 := if amem lkey_eqb key s then s else sort_lkeys (s ++ [(key, repeat 0%Qc n)]) in
  map (fun c => if lkey_eqb key (fst c) then (fst c, set_where rows (snd rv) (snd c)) else c) s1.

(** The registry: for every random variable (decision variable) its sample; and the ratios. *)
Definition replacement_config := (dict (list Qc) * dict Qc)%type.

(** The second component is [exceedance_bool_df]: one column per random variable. *)
Definition apply_replacement_thresholds (n : nat) (config : option replacement_config) (s : qframe)
  : result (qframe * list (string * list bool)) :=
  match config with
  | None => Ok (s, [])
  | Some (rvs, ratios) =>
      let* exc := mapM (fun rv => let* b := exceedance_of n ratios s rv in Ok (fst rv, b)) rvs in
      let rows := fun i => existsb (fun e => nth i (snd e) false) exc in
      let s1 := fold_left (assign_replacement n rows) rvs s in
      Ok (map (fun c => if String.eqb (k_dmg (fst c)) "threshold_exceedance" then c
                        else (fst c, zero_where 0%Qc rows (snd c))) s1, exc)
  end.

(** loss_model.py:1020-1042: unknown keys are an error or a warning, missing ones an error. *)
Definition validate_thresholds (raise_unknown : bool) (dvs : list string) (config : replacement_config)
  : result unit :=
  if raise_unknown && existsb (fun k => negb (mem k dvs)) (keys (fst config) ++ keys (snd config))
  then Err ValueError
  else if existsb (fun dv => negb (dmem dv (fst config))) dvs then Err ValueError else Ok tt.

(** loss_model.py:962-991; the types are not modelled. *)
Definition validate_combinations (dvs : list string) (combos : dict (list combination)) : result unit :=
  if existsb (fun dv => negb (mem dv dvs)) (keys combos) then Err ValueError else Ok tt.

(** ** Totals (loss_model.py:1313-1380) *)

Definition upper_ascii (a : ascii) : ascii :=
  let n := nat_of_ascii a in
  if (Nat.leb 97 n && Nat.leb n 122)%bool then ascii_of_nat (n - 32) else a.
Definition is_letter (a : ascii) : bool :=
  let n := nat_of_ascii a in
  (Nat.leb 65 n && Nat.leb n 90) || (Nat.leb 97 n && Nat.leb n 122).
(** [str.title()] for ASCII text. *)
Fixpoint title_from (inside : bool) (s : string) : string :=
  match s with
  | EmptyString => ""
  | String a tl => String (if inside then lower_ascii a else upper_ascii a) (title_from (is_letter a) tl)
  end.
Definition title (s : string) : string := title_from false s.

Definition repair_column (dv : string) : string := "repair_" ++ lower dv.

(** loss_model.py:890-899 *)
Definition construct_columns (dvs : list string) : list string :=
  map repair_column (filter (fun x => negb (String.eqb x "Time")) dvs)
  ++ (if mem "Time" dvs then ["repair_time-sequential"; "repair_time-parallel"] else []).

(** loss_model.py:1325: totals per (dv, loc), the locations of one decision variable. *)
Definition location_sums (n : nat) (dv : string) (s : qframe) : list (list Qc) :=
  map (fun g => map (fun i => qsum (map (fun c => nth i c 0%Qc) (snd g))) (seq 0 n))
      (groupby String.eqb str_le (map (fun c => (k_loc (fst c), snd c)) (of_dv dv s))).
Definition qmax_list (l : list Qc) : Qc := match l with [] => 0%Qc | x :: tl => fold_left Qcmax tl x end.
Definition sum_rows (n : nat) (cols : list (list Qc)) : list num :=
  map (fun i => Some (qsum (map (fun c => nth i c 0%Qc) cols))) (seq 0 n).
Definition max_rows (n : nat) (cols : list (list Qc)) : list num :=
  map (fun i => Some (qmax_list (map (fun c => nth i c 0%Qc) cols))) (seq 0 n).

Definition drop_column (c : string) (d : dict (list num)) : result (dict (list num)) :=
  if dmem c d then Ok (ddel c d) else Err KeyError.

(** loss_model.py:1327-1352; the column names are assumed distinct. *)
Definition dv_totals (n : nat) (dvs : list string) (s : qframe) : result (dict (list num)) :=
  foldM (fun d dv =>
           match of_dv dv s with
           | [] => if String.eqb dv "Time"
                   then let* d1 := drop_column "repair_time-parallel" d in drop_column "repair_time-sequential" d1
                   else drop_column (repair_column dv) d
           | _ => if String.eqb dv "Time"
                  then Ok (dset "repair_time-parallel" (max_rows n (location_sums n dv s))
                            (dset "repair_time-sequential" (sum_rows n (location_sums n dv s)) d))
                  else Ok (dset (repair_column dv) (sum_rows n (location_sums n dv s)) d)
           end)
        (map (fun c => (c, map (fun _ => None) (seq 0 n))) (construct_columns dvs)) dvs.

(** loss_model.py:1355-1360 *)
Definition measure (column : string) : string :=
  str_remove "-parallel" (str_remove "-sequential" (str_remove "repair_" column)).
(** loss_model.py:1362-1363 *)
Definition column_units (dv_units : dict string) (cols : list string) : result units_map :=
  mapM (fun c => match dget (title (measure c)) dv_units with
                 | Some u => Ok ([c], u) | None => Err KeyError end) cols.

(** [_aggregate_sample]; units are converted by [save_to_csv] without a file
    (loss_model.py:1365-1380). *)
Definition aggregate_sample (n : nat) (dvs : list string) (dv_units : dict string) (factors : dict Qc)
                            (s : qframe) : result frame :=
  let* d := dv_totals n dvs s in
  let* units := column_units dv_units (keys d) in
  let* saved := save_columns (Some factors) (Some units) false 1 (map (fun c => ([fst c], snd c)) d) in
  let* ax := to_multi_index (header saved) in
  Ok (sort_labels (combine (axis_labels ax) (cells saved))).

(** ** [aggregate_losses] (loss_model.py:791-960) *)

Definition sample_rows (s : combined) : nat := match s with [] => 0%nat | c :: _ => List.length (snd c) end.

(** With [future=True] the result is the pair; without losses a single table of zeros is
    returned (901-903), rendered as a pair without second component. *)
Definition aggregate_losses (order : list string -> list string) (raise_unknown : bool)
    (dvs : list string) (dv_units : dict string) (factors : dict Qc)
    (config : option replacement_config) (combos : option (dict (list combination))) (st : loss_state)
  : result (frame * option (list (string * list bool))) * loss_state :=
  match (match config with None => Ok tt | Some c => validate_thresholds raise_unknown dvs c end) with
  | Err e => (Err e, st)
  | Ok _ =>
  match (match combos with None => Ok tt | Some c => validate_combinations dvs c end) with
  | Err e => (Err e, st)
  | Ok _ =>
  match ds_sample st, lf_sample st with
  | None, None => (Ok (map (fun c => ([c], [Some 0%Qc])) (construct_columns dvs), None), st)
  | _, _ =>
      (* 904-906: [make_replacement_exclusive] works on copies that are not used afterwards *)
      let copies := match ds_sample st with
                    | Some ds => Some (make_replacement_exclusive ds (lf_sample st)) | None => None end in
      let (s, st') := read_sample st in
      match s with
      | None => (Err AttributeError, st')
      | Some s =>
          let n := sample_rows s in
          (let* s1 := match combos with
                      | None => Ok (sum_over_ds n s)
                      | Some c => apply_loss_combinations order n c (sum_over_ds n s) end in
           let* r := apply_replacement_thresholds n config s1 in
           let* agg := aggregate_sample n dvs dv_units factors (fst r) in
           Ok (agg, Some (snd r)), st')
      end
  end end end.
