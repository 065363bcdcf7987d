(** Model of the damage state evaluation of pelicun/model/damage_model.py
    (class [DamageModel_DS], lines 707-2021) apart from batching ([M_Batch]) and
    sampling. *)
From Verif Require Import Prelude Pandas M_Base.
Set Implicit Arguments.
Local Open Scope string_scope.
Local Open Scope list_scope.

(** ** Numbers written as text *)

Definition is_digit (a : ascii) : bool :=
  let n := nat_of_ascii a in Nat.leb 48 n && Nat.leb n 57.
Definition digit_value (a : ascii) : Z := Z.of_nat (nat_of_ascii a - 48).
Definition is_space (a : ascii) : bool :=
  let n := nat_of_ascii a in Nat.eqb n 32 || (Nat.leb 9 n && Nat.leb n 13) || (Nat.leb 28 n && Nat.leb n 31).

Fixpoint lstrip_space (s : string) : string :=
  match s with
  | EmptyString => ""
  | String a tl => if is_space a then lstrip_space tl else s
  end.
Definition strip_space (s : string) : string :=
  str_rev (lstrip_space (str_rev (lstrip_space s))).

(** Digits with single underscores between digits; [prev] tells whether the previous
    character was a digit. *)
Fixpoint parse_digits (acc : Z) (prev : bool) (s : string) : option Z :=
  match s with
  | EmptyString => if prev then Some acc else None
  | String a tl =>
      if is_digit a then parse_digits (10 * acc + digit_value a) true tl
      else if Ascii.eqb a "_" && prev then
        match tl with EmptyString => None | _ => parse_digits acc false tl end
      else None
  end.

(** Python [int(s)] for ASCII text: surrounding white space, an optional sign, digits. *)
Definition pyint (s : string) : option Z :=
  match strip_space s with
  | EmptyString => None
  | String a tl =>
      if Ascii.eqb a "-" then option_map Z.opp (parse_digits 0 false tl)
      else if Ascii.eqb a "+" then parse_digits 0 false tl
      else parse_digits 0 false (String a tl)
  end.

(** [str(z)] of an integer. *)
Definition str_of_Z (z : Z) : string :=
  if (z <? 0)%Z then String "-" (str_of_nat (Z.to_nat (- z))) else str_of_nat (Z.to_nat z).

(** [s[n:]] *)
Fixpoint str_drop (n : nat) (s : string) : string :=
  match n, s with
  | O, _ => s
  | S k, EmptyString => ""
  | S k, String _ tl => str_drop k tl
  end.

(** [s.endswith(p)] *)
Definition ends_with (p s : string) : bool := String.prefix (str_rev p) (str_rev s).

(** [s.replace(p, '')] for a non-empty [p]: every occurrence, left to right. *)
Fixpoint str_remove_fuel (fuel : nat) (p s : string) : string :=
  match fuel with
  | O => s
  | S f =>
      match s with
      | EmptyString => ""
      | String a tl =>
          if String.prefix p s then str_remove_fuel f p (str_drop (String.length p) s)
          else String a (str_remove_fuel f p tl)
      end
  end.
Definition str_remove (p s : string) : string := str_remove_fuel (String.length s) p s.

(** ** Labels *)

(** A component block: (cmp, loc, dir, uid, block). *)
Record blk := Blk { b_of : pg; b_no : string }.
Definition blk_eqb (a b : blk) : bool := pg_eqb (b_of a) (b_of b) && String.eqb (b_no a) (b_no b).
Definition blk_label (b : blk) : list string := pg_label (b_of b) ++ [b_no b].

(** A column of the capacity sample: (cmp, loc, dir, uid, block, ls). *)
Definition lsc := (blk * string)%type.
Definition lsc_eqb (a b : lsc) : bool := blk_eqb (fst a) (fst b) && String.eqb (snd a) (snd b).
Definition lsc_label (c : lsc) : list string := blk_label (fst c) ++ [snd c].
Definition lsc_le (a b : lsc) : bool := label_le (lsc_label a) (lsc_label b).

(** ** Capacity and damage state random variables *)

(** The cells of one limit state of one component in the damage parameters. *)
Inductive theta_cell := TNum (q : Qc) | TStr (s : string) | TNaN.
Record ls_params := LSP {
  theta_0 : theta_cell; theta_1 : num; theta_2 : num;
  family : option string;
  ds_weights : option string;
  tr_lower : num; tr_upper : num }.

(** One row of the damage parameters: the columns of level 0 (in column order) that hold
    limit states, with their cells.  Other columns (Demand, ...) are in [M_Demand]. *)
Definition frg_row := list (string * ls_params).

(** [theta] of a capacity variable: one vector, or one per realization. *)
Inductive theta := ThVec (v : list num) | ThMat (m : list (list num)) | ThTable (s : string).

Record capacity_rv := CapRV {
  c_col : lsc; c_family : string; c_theta : theta; c_trunc : num * num; c_anchor : option lsc }.

(** Damage state assigned when a limit state is exceeded: a fixed one, or one drawn from
    weights and shifted by an offset. *)
Inductive lsds_rv := DSFixed (ds : Z) | DSDraw (weights : list num) (offset : Z).

(** [''.join(...)] without spaces (damage_model.py:1275). *)
Fixpoint remove_char (c : ascii) (s : string) : string :=
  match s with
  | EmptyString => ""
  | String a tl => if Ascii.eqb a c then remove_char c tl else String a (remove_char c tl)
  end.

(** [assign_lsds] (damage_model.py:1210-1318).  The registry is the list of variables
    added; returns the next damage state id and the variable. *)
Definition assign_lsds (pyfloat : string -> option num) (weights : option string) (ds_id : Z)
  : result (Z * lsds_rv) :=
  match weights with
  | None => Ok (ds_id + 1, DSFixed (ds_id + 1))%Z
  | Some w =>
      let* ws := mapM (fun s => match pyfloat s with Some x => Ok x | None => Err ValueError end)
                      (split_on "|" (remove_char " " w)) in
      Ok (ds_id + Z.of_nat (List.length ws), DSDraw ws (ds_id + 1))%Z
  end.

(** [_handle_operation] (damage_model.py:858-897).  numpy division by zero gives an
    infinity or NaN; the model returns NaN. *)
Definition handle_operation (x : num) (op : string) (y : num) : result num :=
  if String.eqb op "+" then Ok (nadd x y)
  else if String.eqb op "-" then
    Ok (match x, y with Some a, Some b => Some (a - b)%Qc | _, _ => None end)
  else if String.eqb op "*" then Ok (nmul x y)
  else if String.eqb op "/" then
    Ok (match x, y with
        | Some a, Some b => if Qceqb b 0 then None else Some (a / b)%Qc
        | _, _ => None end)
  else Err ValueError.

(** [_handle_operation_list] (damage_model.py:899-932); both branches apply every
    operation to the initial value. *)
Definition handle_operation_list (x : num) (ops : list (string * num)) : result (list num) :=
  mapM (fun o => handle_operation x (fst o) (snd o)) ops.

(** One scaling string (damage_model.py:1379-1397): [spec[0]] is the operation, the rest
    the number; an empty string raises IndexError; a non-string TypeError. *)
Definition parse_spec (pyfloat : string -> option num) (v : json) : result (string * num) :=
  match v with
  | JStr s =>
      match s with
      | EmptyString => Err IndexError
      | String a tl =>
          let op := String a "" in
          if mem op ["+"; "-"; "*"; "/"] then
            match pyfloat tl with Some x => Ok (op, x) | None => Err ValueError end
          else Err ValueError
      end
  | _ => Err TypeError
  end.

Definition scaling := dict (dict (list (string * num))).

(** [parsed[key][ls].append(op)] on the nested default dictionary
    (damage_model.py:1398-1402). *)
Definition append_op (key ls : string) (op : string * num) (acc : scaling) : scaling :=
  let inner := match dget key acc with Some d => d | None => [] end in
  let ops := match dget ls inner with Some l => l | None => [] end in
  dset key (dset ls (ops ++ [op]) inner) acc.

(** damage_model.py:1360-1402: the entries of one limit state. *)
Definition parse_limit_state (pyfloat : string -> option num) (key : string) (acc : scaling)
                             (e : string * json) : result scaling :=
  let (ls, specifics) := e in
  if starts_with "LS" ls || String.eqb ls "ALL" then
    foldM (fun a s => let* op := parse_spec pyfloat s in Ok (append_op key ls op a))
          acc (match specifics with JList l => l | v => [v] end)
  else Err ValueError.

(** [parse_scaling_specification] (damage_model.py:1320-1402).  The value of a component
    must be a dictionary: a string has no [items] (AttributeError), and ['ALL' in value]
    of a number or None raises TypeError; a list has no [items] either. *)
Definition parse_component (pyfloat : string -> option num) (acc : scaling) (e : string * json)
  : result scaling :=
  match snd e with
  | JDict d =>
      if dmem "ALL" d && Nat.ltb 1 (List.length d) then Err ValueError
      else foldM (parse_limit_state pyfloat (fst e)) acc d
  | JStr s => if contains "ALL" s && Nat.ltb 1 (String.length s) then Err ValueError
              else Err AttributeError
  | JList l => if existsb (fun v => match v with JStr x => String.eqb x "ALL" | _ => false end) l
                  && Nat.ltb 1 (List.length l) then Err ValueError else Err AttributeError
  | _ => Err TypeError
  end.

Definition parse_scaling_specification (pyfloat : string -> option num) (spec : dict json)
  : result scaling := foldM (parse_component pyfloat) [] spec.

(** damage_model.py:1433-1445: limit state ids of a row: column names containing 'LS',
    without their first two characters. *)
Definition limit_states (row : frg_row) : list string :=
  map (fun c => str_drop 2 (fst c)) (filter (fun c => contains "LS" (fst c)) row).

(** damage_model.py:1455-1462: missing or empty family is deterministic. *)
Definition family_of (p : ls_params) : string :=
  match family p with None => "deterministic" | Some "" => "deterministic" | Some f => f end.

(** damage_model.py:1480-1505: the operations that apply to a limit state. *)
Definition ops_for (ops : dict (list (string * num))) (ls : string)
  : option (list (string * num)) :=
  match dget "ALL" ops with
  | Some l => Some l
  | None => dget ("LS" ++ ls) ops
  end.

Definition scalable (fam : string) : bool := mem fam ["normal"; "lognormal"; "deterministic"].

(** damage_model.py:1470-1513: distribution parameters after capacity adjustment.  A
    numeric first parameter only; the textual parameter of multilinear_CDF is never
    scaled.  Missing Theta columns are kept as NaN entries. *)
Definition adjusted_theta (adj : option (dict (list (string * num)))) (ls : string)
                          (p : ls_params) : result theta :=
  match theta_0 p with
  | TNaN => Err ValueError (* not reached: the limit state is skipped *)
  | TStr s => Ok (ThTable s)
  | TNum q =>
      let base := [Some q; theta_1 p; theta_2 p] in
      match adj with
      | None | Some [] => Ok (ThVec base)
      | Some ops =>
          if scalable (family_of p) then
            match ops_for ops ls with
            | None => Ok (ThVec base)
            | Some l =>
                let* vs := handle_operation_list (Some q) l in
                match vs with
                | [v] => Ok (ThVec [v; theta_1 p; theta_2 p])
                | _ => Ok (ThMat (map (fun v => [v; theta_1 p; theta_2 p]) vs))
                end
            end
          else Ok (ThVec base)
      end
  end.

(** damage_model.py:1544-1556: from the second block on, the table of a multilinear_CDF
    has already been replaced by an array, which has no [split]. *)
Definition block_theta (fam : string) (block_i : nat) (th : theta) : result theta :=
  if String.eqb fam "multilinear_CDF" then
    match block_i, th with
    | O, ThTable s => Ok th
    | O, _ => Err AttributeError
    | S _, _ => Err AttributeError
    end
  else Ok th.

(** damage_model.py:1533-1588: variables of one limit state, all blocks. *)
Fixpoint ls_rvs (pyfloat : string -> option num) (p : pg) (ls : string) (first : bool)
                (anchors : list lsc) (prm : ls_params) (th : theta) (ds_id : Z)
                (blocks : list nat) : result (list (capacity_rv * (lsc * lsds_rv)) * Z) :=
  match blocks with
  | [] => Ok ([], ds_id)
  | b :: tl =>
      let col := (Blk p (str_of_nat (S b)), ls) in
      let* anchor := (if first then Ok None
                      else match nth_error anchors b with
                           | Some a => Ok (Some a) | None => Err IndexError end) in
      let* th' := block_theta (family_of prm) b th in
      let* (nxt, rv) := assign_lsds pyfloat (ds_weights prm) ds_id in
      let* (rest, _) := ls_rvs pyfloat p ls first anchors prm th ds_id tl in
      Ok ((CapRV col (family_of prm) th' (tr_lower prm, tr_upper prm) anchor, (col, rv)) :: rest, nxt)
  end.

(** damage_model.py:1450-1590: the loop over limit states of one performance group.
    [first] is the first limit state id of the row. *)
Fixpoint pg_rvs (pyfloat : string -> option num) (p : pg) (nblocks : nat)
                (adj : option (dict (list (string * num)))) (first : string)
                (anchors : list lsc) (ds_id : Z) (row : frg_row)
  : result (list (capacity_rv * (lsc * lsds_rv))) :=
  match row with
  | [] => Ok []
  | (name, prm) :: tl =>
      if contains "LS" name then
        let ls := str_drop 2 name in
        match theta_0 prm with
        | TNaN => pg_rvs pyfloat p nblocks adj first anchors ds_id tl
        | _ =>
            let* th := adjusted_theta adj ls prm in
            let is_first := String.eqb ls first in
            let* (rvs, nxt) := ls_rvs pyfloat p ls is_first anchors prm th ds_id (seq 0 nblocks) in
            let anchors' := if is_first then anchors ++ map (fun r => c_col (fst r)) rvs else anchors in
            let* rest := pg_rvs pyfloat p nblocks adj first anchors' nxt tl in
            Ok (rvs ++ rest)
        end
      else pg_rvs pyfloat p nblocks adj first anchors ds_id tl
  end.

(** [_create_dmg_RVs] (damage_model.py:1163-1596) for a batch: performance groups with
    their number of blocks (at least one).  [damage_params] maps components to rows.  The
    scaling key is [cmp-loc-dir].  Duplicate variable names, which the registry rejects,
    cannot arise from distinct labels without dashes. *)
Definition create_dmg_RVs (pyfloat : string -> option num) (damage_params : dict frg_row)
                          (spec : dict json) (batch : list (pg * nat))
  : result (list (capacity_rv * (lsc * lsds_rv))) :=
  let* sc := parse_scaling_specification pyfloat spec in
  let* l := mapM (fun e : pg * nat =>
                    let (p, n) := e in
                    match dget (cmp p) damage_params with
                    | None => Ok []
                    | Some row =>
                        pg_rvs pyfloat p n (dget (join "-" [cmp p; loc p; dir p]) sc)
                               (hd "" (limit_states row)) [] 0 row
                    end) batch in
  Ok (List.concat l).

(** ** Damage state evaluation *)

Definition cap_frame := list (lsc * list num).
Definition lsds_frame := list (lsc * list Z).
Definition ds_frame := list (blk * list Z).

(** damage_model.py:1087-1104: demand values repeated for the columns of the groups that
    need them; a group without any column raises KeyError, an empty dictionary ValueError
    ([pd.concat] of nothing). *)
Definition pg_columns (p : pg) (cap : cap_frame) : list lsc :=
  filter (fun c => pg_eqb (b_of (fst c)) p) (map fst cap).

(** A required demand: its EDP labels and the expression combining them
    (demand_model.py:1381-1383). *)
Definition edp_key := (list string * option string)%type.
Definition edp_key_eqb (a b : edp_key) : bool :=
  label_eqb (fst a) (fst b) &&
  match snd a, snd b with
  | None, None => true
  | Some x, Some y => String.eqb x y
  | _, _ => false
  end.

Definition demand_columns (demands : list (edp_key * list num)) (required : list (edp_key * list pg))
                          (cap : cap_frame)
  : result (list (lsc * list num)) :=
  match demands with
  | [] => Err ValueError
  | _ =>
      let* l := mapM (fun d : edp_key * list num =>
                  match aget edp_key_eqb (fst d) required with
                  | None => Err KeyError
                  | Some pgs =>
                      let* cs := mapM (fun p => match pg_columns p cap with
                                                | [] => Err KeyError
                                                | cs => Ok cs end) pgs in
                      Ok (map (fun c => (c, snd d)) (List.concat cs))
                  end) demands in
      Ok (List.concat l)
  end.

(** damage_model.py:1111-1117: exceedance [capacity - demand < 0]; a column without demand
    compares with NaN.  Column labels are aligned, so they come out in label order. *)
Definition exceedance (cap : cap_frame) (dem : list (lsc * list num)) : list (lsc * list bool) :=
  map (fun c => (fst c, match aget lsc_eqb (fst c) dem with
                        | Some d => map2 nlt (snd c) d
                        | None => map (fun _ => false) (snd c)
                        end))
      (isort (fun a b => lsc_le (fst a) (fst b)) cap).

(** damage_model.py:1121-1126 *)
Definition initial_ds (n : nat) (cap : cap_frame) : ds_frame :=
  map (fun b => (b, repeat 0%Z n)) (unique blk_eqb (map (fun c => fst (fst c)) cap)).

(** damage_model.py:1128-1129: limit states in order of first appearance. *)
Definition ls_list (exc : list (lsc * list bool)) : list string :=
  unique String.eqb (map (fun c => snd (fst c)) exc).

(** damage_model.py:1131-1159: one pass, [mask] replaces the state where exceeded. *)
Definition apply_ls (exc : list (lsc * list bool)) (lsds : lsds_frame) (ds : ds_frame) (ls : string)
  : ds_frame :=
  map (fun bc => (fst bc,
         match aget lsc_eqb (fst bc, ls) exc, aget lsc_eqb (fst bc, ls) lsds with
         | Some e, Some s => map3 (fun d (e : bool) s => if e then s else d) (snd bc) e s
         | _, _ => snd bc
         end)) ds.

(** [_evaluate_damage_state] (damage_model.py:1040-1161); [n] is the sample size. *)
Definition evaluate_damage_state (n : nat) (demands : list (edp_key * list num))
                                 (required : list (edp_key * list pg))
                                 (cap : cap_frame) (lsds : lsds_frame) : result ds_frame :=
  let* dem := demand_columns demands required cap in
  let exc := exceedance cap dem in
  Ok (fold_left (apply_ls exc lsds) (ls_list exc) (initial_ds n cap)).

(** ** Damaged quantities *)

(** [prepare_dmg_quantities] (damage_model.py:1598-1704), one block column: the pairs
    (damage state, quantities) it contributes. *)
Definition block_quantities (dropzero : bool) (qty : list Qc) (nblocks : Qc) (ds : list Z)
  : list (Z * list num) :=
  map (fun d => (d, map2 (fun x q => if (x =? -1)%Z && existsb (Z.eqb (-1)) ds then None
                                     else if (x =? d)%Z then Some (q / nblocks)%Qc else Some 0%Qc)
                         ds qty))
      (filter (fun d => negb (d =? -1)%Z && negb (dropzero && (d =? 0)%Z)) (unique Z.eqb ds)).

Definition qkey := (pg * string)%type.
Definition qkey_eqb (a b : qkey) : bool := pg_eqb (fst a) (fst b) && String.eqb (snd a) (snd b).
Definition qkey_le (a b : qkey) : bool :=
  label_le (pg_label (fst a) ++ [snd a]) (pg_label (fst b) ++ [snd b]).
Definition qty_frame := list (qkey * list num).

(** damage_model.py:1640-1655: number of blocks; one when no Blocks column is given. *)
Definition num_blocks (blocks : option (list (pg * Z))) (p : pg) : result Qc :=
  match blocks with
  | None => Ok 1%Qc
  | Some l => match aget pg_eqb p l with Some b => Ok (qz b) | None => Err KeyError end
  end.

(** damage_model.py:1697-1704: row-wise sum of the block columns of a group, NaN only if
    all are NaN. *)
Definition sum_columns (n : nat) (cols : list (list num)) : list num :=
  map (fun i => nsum1 (map (fun c => nth i c None) cols)) (seq 0 n).

Definition prepare_dmg_quantities (n : nat) (dropzero : bool) (sample : list (pg * list Qc))
                                  (blocks : option (list (pg * Z))) (ds : ds_frame)
  : result qty_frame :=
  let* l := mapM (fun c : blk * list Z =>
              let p := b_of (fst c) in
              (* the quantities are only looked up when there is a state to report *)
              match filter (fun d => negb (d =? -1)%Z && negb (dropzero && (d =? 0)%Z))
                           (unique Z.eqb (snd c)) with
              | [] => Ok []
              | _ =>
                match aget pg_eqb p sample with
                | None => Err KeyError
                | Some q =>
                    let* nb := num_blocks blocks p in
                    Ok (map (fun dv => ((p, str_of_Z (fst dv)), snd dv))
                            (block_quantities dropzero q nb (snd c)))
                end
              end) ds in
  match List.concat l with
  | [] => Err ValueError
  | cols => Ok (map (fun g => (fst g, sum_columns n (snd g))) (groupby qkey_eqb qkey_le cols))
  end.

(** ** Damage processes *)

Definition cmp_in (c : string) (ds : ds_frame) : bool :=
  existsb (fun col => String.eqb (cmp (b_of (fst col))) c) ds.

(** Highest damage state over the columns selected by [sel], in realization [i]. *)
Definition highest (sel : blk -> bool) (ds : ds_frame) (i : nat) : Z :=
  zmax 0 (map (fun c => nth i (snd c) 0%Z) (filter (fun c => sel (fst c)) ds)).

(** [self.ds_sample.iloc[rows, cols] = value] *)
Definition set_cells (rows : nat -> bool) (cols : blk -> bool) (v : Z) (ds : ds_frame) : ds_frame :=
  map (fun c => if cols (fst c)
                then (fst c, map2 (fun i x => if rows i then v else x)
                                  (seq 0 (List.length (snd c))) (snd c))
                else c) ds.

Definition is_source (source : string) (b : blk) : bool := String.eqb (cmp (b_of b)) source.
Definition is_target (source target : string) (b : blk) : bool :=
  if String.eqb target "ALL" then negb (String.eqb (cmp (b_of b)) source)
  else String.eqb (cmp (b_of b)) target.

(** [_perform_dmg_event] (damage_model.py:1839-1864) *)
Definition perform_dmg_event (source : string) (ds_source : Z) (target : string) (ds_target : Z)
                             (ds : ds_frame) : ds_frame :=
  set_cells (fun i => (highest (is_source source) ds i =? ds_source)%Z)
            (is_target source target) ds_target ds.

(** damage_model.py:1888-1914: the event at one location. *)
Definition perform_dmg_event_at (source : string) (ds_source : Z) (target : string) (ds_target : Z)
                                (ds : ds_frame) (l : string) : ds_frame :=
  set_cells (fun i => (highest (fun b => is_source source b && String.eqb (loc (b_of b)) l) ds i
                       =? ds_source)%Z)
            (fun b => is_target source target b && String.eqb (loc (b_of b)) l) ds_target ds.

(** Locations of the source component (a Python set). *)
Definition source_locs (source : string) (ds : ds_frame) : list string :=
  unique String.eqb (map (fun c => loc (b_of (fst c)))
                         (filter (fun c => is_source source (fst c)) ds)).

(** [_perform_dmg_event_loc] (damage_model.py:1866-1914).  The set of locations is
    iterated in an unspecified order; [order] is the one that occurs. *)
Definition perform_dmg_event_loc (order : list string -> list string) (source : string)
    (ds_source : Z) (target : string) (ds_target : Z) (ds : ds_frame) : ds_frame :=
  fold_left (perform_dmg_event_at source ds_source target ds_target)
            (order (source_locs source ds)) ds.

(** The state of a damage process: the sample and the components warned about. *)
Definition proc_state := (ds_frame * list string)%type.

(** A target entry: one string or a list of strings (damage_model.py:1782-1785). *)
Inductive targets := One (t : string) | Many (l : list string).
Definition target_list (t : targets) : list string :=
  match t with One s => [s] | Many l => l end.
Definition task := (string * list (string * targets))%type.

(** damage_model.py:1800-1820 *)
Definition parse_target_event (ev : string) : result Z :=
  if starts_with "DS" ev then
    match pyint (str_drop 2 ev) with Some z => Ok z | None => Err ValueError end
  else if String.eqb ev "NA" then Ok (-1)%Z
  else Err ValueError.

(** damage_model.py:1787-1830: one target of one event. *)
Definition perform_target (order : list string -> list string) (source : string)
    (match_locations : bool) (ds_source : Z) (st : proc_state) (info : string) : result proc_state :=
  match split_on "_" info with
  | [target; event] =>
      if negb (String.eqb target "ALL") && negb (cmp_in target (fst st))
      then Ok (fst st, snd st ++ [target])
      else
        let* ds_target := parse_target_event event in
        Ok ((if match_locations
             then perform_dmg_event_loc order source ds_source target ds_target (fst st)
             else perform_dmg_event source ds_source target ds_target (fst st)), snd st)
  | _ => Err ValueError
  end.

(** damage_model.py:1767-1830: one source event. *)
Definition perform_event (order : list string -> list string) (source : string)
    (match_locations : bool) (st : proc_state) (e : string * targets) : result proc_state :=
  if starts_with "DS" (fst e) then
    match pyint (str_drop 2 (fst e)) with
    | None => Err ValueError
    | Some ds_source =>
        foldM (perform_target order source match_locations ds_source) st (target_list (snd e))
    end
  else Err ValueError.

(** damage_model.py:1741-1751: source component and location matching. *)
Definition parse_source (name : string) : result (string * bool) :=
  match split_on "_" name with
  | _ :: s :: _ =>
      if ends_with "-LOC" s then Ok (str_remove "-LOC" s, true) else Ok (s, false)
  | _ => Err IndexError
  end.

(** [perform_dmg_task] (damage_model.py:1706-1837) *)
Definition perform_dmg_task (order : list string -> list string) (st : proc_state) (t : task)
  : result proc_state :=
  let* (source, match_locations) := parse_source (fst t) in
  if cmp_in source (fst st)
  then foldM (perform_event order source match_locations) st (snd t)
  else Ok (fst st, snd st ++ [source]).

(** Tasks in the order of [sorted(dmg_process)] (damage_model.py:306-313). *)
Definition sort_tasks (tasks : list task) : list task :=
  isort (fun a b => str_le (fst a) (fst b)) tasks.
Definition perform_dmg_process (order : list string -> list string) (tasks : list task)
                               (ds : ds_frame) : result proc_state :=
  foldM (perform_dmg_task order) (ds, []) (sort_tasks tasks).

(** The built-in process for FEMA P-58 (assessment.py:59-66); the others are in M_Assess. *)
Definition fema_p58 : list task :=
  [("1_excessive.coll.DEM", [("DS1", One "collapse_DS1")]);
   ("2_collapse", [("DS1", One "ALL_NA")]);
   ("3_excessiveRID", [("DS1", One "irreparable_DS1")]);
   ("4_irreparable", [("DS1", One "ALL_NA")]);
   ("5_irreparable", [("DS1", One "collapse_DS0")])].

(** ** Probabilities (damage_model.py:725-759) *)

Definition count_z (d : Z) (l : list Z) : nat := List.length (filter (Z.eqb d) l).

(** One column: [None] is the scalar NaN, otherwise the value counts. *)
Definition block_probabilities (ds : list Z) : option (list (Z * Qc)) :=
  match filter (fun d => negb (d =? -1)%Z) ds with
  | [] => None
  | vs => Some (map (fun d => (d, (qn (count_z d vs) / qn (List.length vs))%Qc))
                    (isort Z.leb (unique Z.eqb vs)))
  end.

(** The table: pandas refuses a dictionary with scalar values only (ValueError); states
    not observed in a block are NaN. *)
Definition probabilities (ds : ds_frame) : result (list (blk * option (list (Z * Qc)))) :=
  let cols := map (fun c => (fst c, block_probabilities (snd c))) ds in
  if existsb (fun c => match snd c with Some _ => true | None => false end) cols
     || match cols with [] => true | _ => false end
  then Ok (isort (fun a b => label_le (blk_label (fst a)) (blk_label (fst b))) cols)
  else Err ValueError.

(** Cell of the table for block column [c] and state [d]. *)
Definition prob_cell (c : option (list (Z * Qc))) (d : Z) : num :=
  match c with None => None | Some l => aget Z.eqb d l end.

(** ** Complete damage state columns (damage_model.py:1916-2021) *)

(** damage_model.py:1967-1982: number of damage states of a component. *)
Definition ds_count (row : frg_row) : nat :=
  list_sum (map (fun c : string * ls_params =>
     if contains "LS" (fst c) then
       match theta_0 (snd c) with
       | TNaN => 0
       | _ => match ds_weights (snd c) with
              | None => 1
              | Some w => List.length (split_on "|" w)
              end
       end
     else 0) row)%nat.

(** damage_model.py:1950-2021.  A component of the sample without parameters, or a state
    beyond the last possible one, is not among the new columns: KeyError. *)
Definition completed_keys (damage_params : dict frg_row) (sample : qty_frame) : list qkey :=
  flat_map (fun cr : string * frg_row =>
    flat_map (fun d => map (fun p => (p, str_of_nat d))
       (filter (fun p => String.eqb (cmp p) (fst cr))
               (isort pg_le (unique pg_eqb (map (fun c => fst (fst c)) sample)))))
      (seq 0 (S (ds_count (snd cr))))) damage_params.

Definition complete_ds_cols (n : nat) (damage_params : dict frg_row) (sample : qty_frame)
  : result qty_frame :=
  let ks := completed_keys damage_params sample in
  if forallb (fun c => existsb (qkey_eqb (fst c)) ks) sample then
    Ok (map (fun k => (k, match aget qkey_eqb k sample with
                          | Some v => v
                          | None => repeat (Some 0%Qc) n end)) ks)
  else Err KeyError.
