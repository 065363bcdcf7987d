(** Model of the loading of damage and loss parameters (pelicun/model/damage_model.py:138-239,
    432-580; pelicun/model/loss_model.py:203-452, 1580-1727, 2136-2183, 2670-2685;
    pelicun/model/pelicun_model.py:81-260; pelicun/uq.py:63-142; pelicun/assessment.py:264-307).

    Sources are tables as [file_io.load_data] returns them (columns with two levels, unique rows or
    not). Not modelled: default data paths, logging, the deprecated names of columns and files,
    NaN and infinity as texts of numbers, what remains of the parameters when a call fails. *)
From Verif Require Import Prelude Pandas M_Base M_Damage M_LossDS M_LossLF.
Set Implicit Arguments.
Local Open Scope string_scope.
Local Open Scope list_scope.

(** ** Tables *)

Definition col := (string * string)%type.
(** A cell: blank (NaN), a number or a text. *)
Inductive value := VBlank | VNum (q : Qc) | VText (s : string).
Definition row := list (col * value).
(** A label that is not among the columns is blank after [pd.concat]. *)
Definition at_col (r : row) (c : col) : value := match aget pair_eqb c r with Some v => v | None => VBlank end.
Record ptable (K : Type) := PT { p_cols : list col; p_rows : list (K * row) }.
Arguments PT {K}.

Definition has_col {K} (t : ptable K) (c : col) : bool := existsb (pair_eqb c) (p_cols t).
Definition has_group {K} (t : ptable K) (g : string) : bool := existsb (fun c => String.eqb (fst c) g) (p_cols t).
Definition restrict (cols : list col) (r : row) : row := map (fun c => (c, at_col r c)) cols.

(** [pd.concat((a, b), axis=0)] *)
Definition concat_rows {K} (a b : ptable K) : ptable K :=
  let cols := p_cols a ++ filter (fun c => negb (existsb (pair_eqb c) (p_cols a))) (p_cols b) in
  PT cols (map (fun kr => (fst kr, restrict cols (snd kr))) (p_rows a ++ p_rows b)).

(** [groupby(...).first(skipna=False)] and [groupby(...).first()]. *)
Definition is_blank (v : value) : bool := match v with VBlank => true | _ => false end.
Definition first_value (vs : list value) : value := match vs with [] => VBlank | v :: _ => v end.
Definition first_filled (vs : list value) : value := first_value (filter (fun v => negb (is_blank v)) vs).
Definition group_first {K} (eqb le : K -> K -> bool) (pick : list value -> value) (t : ptable K) : ptable K :=
  PT (p_cols t)
     (map (fun g => (fst g, map (fun c => (c, pick (map (fun r => at_col r c) (snd g)))) (p_cols t)))
          (groupby eqb le (p_rows t))).

(** damage_model.py:504-525, loss_model.py:1638-1663 [load_model_parameters] *)
Definition load_more {K} (eqb le : K -> K -> bool) (pick : list value -> value) (old : option (ptable K)) (data : ptable K) : ptable K :=
  group_first eqb le pick (match old with None => data | Some t => concat_rows t data end).

(** damage_model.py:562-580, loss_model.py:1665-1698 *)
Definition keep_rows {K} (p : K -> bool) (t : ptable K) : ptable K :=
  PT (p_cols t) (filter (fun kr => p (fst kr)) (p_rows t)).
(** damage_model.py:542-560, loss_model.py:1700-1727 [remove_incomplete_components] *)
Definition is_one (v : value) : bool := match v with VNum q => Qceqb q 1 | _ => false end.
Definition remove_incomplete {K} (t : ptable K) : ptable K :=
  if has_col t ("Incomplete", "")
  then PT (p_cols t) (filter (fun kr => negb (is_one (at_col (snd kr) ("Incomplete", "")))) (p_rows t))
  else t.

(** ** Units *)

(** [numbers]: Python's [float] of a text; [shown]: the format '{:g}'. *)
Record penv := { numbers : string -> option Qc; shown : Qc -> string; factors : dict Qc }.

(** assessment.py:264-307 [calc_unit_scale_factor] *)
Definition calc_unit_scale_factor (e : penv) (unit : string) : result Qc :=
  match split_on " " (strip_space unit) with
  | [name] => match dget name (factors e) with Some f => Ok f | None => Err KeyError end
  | [count; name] =>
      match numbers e count with
      | None => Err ValueError
      | Some n => match dget name (factors e) with Some f => Ok (n * f)%Qc | None => Err KeyError end
      end
  | _ => Err ValueError
  end.

(** ** Distribution parameters *)

(** A parameter: undefined, a number, or ordinates and abscissae of a multilinear function. *)
Inductive par := PNone | PNum (q : Qc) | PCurve (ys xs : list Qc).
Definition par_scale (f : Qc) (p : par) : par :=
  match p with PNone => PNone | PNum q => PNum (q * f)%Qc | PCurve ys xs => PCurve (map (fun y => y * f)%Qc ys) xs end.

(** uq.py:63-142 [scale_distribution] with three parameters; no family is deterministic. *)
Definition scale_distribution (f : Qc) (family : option string) (t : par * par * par) : result (par * par * par) :=
  let '(t0, t1, _) := t in
  match family with
  | None => Ok (par_scale f t0, PNone, PNone)
  | Some fam =>
      if String.eqb fam "normal_std" || String.eqb fam "uniform" then Ok (par_scale f t0, par_scale f t1, PNone)
      else if String.eqb fam "normal" || String.eqb fam "normal_cov" || String.eqb fam "lognormal" then Ok (par_scale f t0, t1, PNone)
      else if String.eqb fam "deterministic" || String.eqb fam "multilinear_CDF" then Ok (par_scale f t0, PNone, PNone)
      else Err ValueError
  end.

(** pelicun_model.py:165-193: a cell as a parameter. *)
Definition parse_par (e : penv) (v : value) : result par :=
  match v with
  | VBlank => Ok PNone
  | VNum q => Ok (PNum q)
  | VText s =>
      match numbers e s with
      | Some q => Ok (PNum q)
      | None =>
          match split_on "|" s with
          | ytext :: rest =>
              let* ys := floats (numbers e) (split_on "," ytext) in
              match rest with
              | [] => Err IndexError
              | xtext :: _ => let* xs := floats (numbers e) (split_on "," xtext) in Ok (PCurve ys xs)
              end
          | [] => Err IndexError
          end
      end
  end.
(** pelicun_model.py:240-248: [was]: the parameter before the scaling. A curve in a parameter that
    the family does not use is replaced by NaN, which cannot be iterated. *)
Definition show_par (e : penv) (was new : par) : result value :=
  match was, new with
  | PCurve _ _, PCurve ys xs => Ok (VText (join "," (map (shown e) ys) ++ "|" ++ join "," (map (shown e) xs))%string)
  | PCurve _ _, _ => Err TypeError
  | _, PNone => Ok VBlank
  | _, PNum q => Ok (VNum q)
  | _, PCurve _ _ => Err TypeError
  end.
Definition scale_args (f : Qc) (p : par) : par :=
  match p with PCurve ys xs => PCurve ys (map (fun x => x * f)%Qc xs) | _ => p end.
Definition scale_limit (f : Qc) (v : value) : result value :=
  match v with VBlank => Ok VBlank | VNum q => Ok (VNum (q * f)%Qc) | VText _ => Err TypeError end.

(** The factor of the argument unit (pelicun_model.py:203-222). [None]: no argument units. *)
Definition arg_factor (e : penv) (arg : option value) : result Qc :=
  match arg with
  | None => Ok 1%Qc
  | Some (VText a) => if String.eqb a "1 EA" then Ok 1%Qc else calc_unit_scale_factor e a
  | Some _ => Err AssertionError
  end.

(** pelicun_model.py:165-254: the scaling of one marginal, whose variable has a unit with factor
    [fu]; [cell] are its cells (blank if there is no such column). The result is the new content
    of the cells. *)
Definition convert_scaled (e : penv) (divide : bool) (fu : Qc) (arg : option value) (cell : string -> value) (family : option string)
  : result (string -> value) :=
  let* p0 := parse_par e (cell "Theta_0") in
  let* p1 := parse_par e (cell "Theta_1") in
  let* p2 := parse_par e (cell "Theta_2") in
  let* fa := arg_factor e arg in
  if divide && Qceqb fa 0 then Err ZeroDivisionError else
  let f := if divide then (fu / fa)%Qc else fu in
  let* lo := scale_limit f (cell "TruncateLower") in
  let* hi := scale_limit f (cell "TruncateUpper") in
  let* n := scale_distribution f family (scale_args fa p0, scale_args fa p1, scale_args fa p2) in
  let '(n0, n1, n2) := n in
  let* v0 := show_par e p0 n0 in
  let* v1 := show_par e p1 n1 in
  let* v2 := show_par e p2 n2 in
  Ok (fun field => if String.eqb field "Theta_0" then v0 else if String.eqb field "Theta_1" then v1
                   else if String.eqb field "Theta_2" then v2 else if String.eqb field "TruncateLower" then lo
                   else if String.eqb field "TruncateUpper" then hi else cell field).

(** pelicun_model.py:81-260 [_convert_marginal_params] for one row. Rows without a unit and
    empirical distributions stay as they are. *)
Definition convert_marginal (e : penv) (divide : bool) (unit : value) (arg : option value) (cell : string -> value)
  : result (string -> value) :=
  match unit with
  | VBlank => Ok cell
  | VNum _ => Err AttributeError
  | VText u =>
      let* fu := calc_unit_scale_factor e u in
      match cell "Family" with
      | VBlank => convert_scaled e divide fu arg cell None
      | VNum _ => Err ValueError
      | VText fam => if String.eqb fam "empirical" then Ok cell else convert_scaled e divide fu arg cell (Some fam)
      end
  end.

(** The conversion of the cells of a row under the headings [groups]. The code goes through the
    headings, then the units, then the rows; here each row goes through its headings. This only
    matters for which one of several errors is raised. *)
Definition convert_row (e : penv) (divide : bool) (unit : col) (arg : option col) (groups : list string) (r : row) : result row :=
  let* news := mapM (fun g => let* new := convert_marginal e divide (at_col r unit) (option_map (at_col r) arg) (fun field => at_col r (g, field)) in
                              Ok (g, new)) groups in
  Ok (map (fun cv => match dget (fst (fst cv)) news with Some new => (fst cv, new (snd (fst cv))) | None => cv end) r).

Definition headings {K} (t : ptable K) (p : string -> bool) : list string :=
  filter p (unique String.eqb (map fst (p_cols t))).

(** ** Damage parameters *)

(** damage_model.py:527-540 [convert_damage_parameter_units] *)
Definition demand_unit : col := ("Demand", "Unit").
Definition convert_damage (e : penv) (t : ptable string) : result (ptable string) :=
  if has_col t demand_unit then
    let drop (r : row) : row := filter (fun cv => negb (pair_eqb (fst cv) demand_unit)) r in
    let* rows := mapM (fun kr => let* r := convert_row e true demand_unit None (headings t (starts_with "LS")) (snd kr) in
                                 Ok (fst kr, drop r)) (p_rows t) in
    Ok (PT (filter (fun c => negb (pair_eqb c demand_unit)) (p_cols t)) rows)
  else Err KeyError.

(** damage_model.py:138-239 [load_model_parameters]; [old] are the parameters loaded before. The
    result has the parameters and the components without parameters. *)
Definition load_damage (e : penv) (cmp_set : list string) (old : option (ptable string)) (sources : list (ptable string))
  : result (option (ptable string) * list string) :=
  let* t := foldM (fun t data => if has_group data "LS1" then Ok (Some (load_more String.eqb str_le first_value t data)) else Err ValueError)
                  old sources in
  match t with
  | None => Ok (None, cmp_set)
  | Some t =>
      let* t := convert_damage e (remove_incomplete (keep_rows (fun k => mem k cmp_set) t)) in
      Ok (Some t, filter (fun c => negb (mem c (map fst (p_rows t)))) cmp_set)
  end.

(** ** The loss map *)

(** loss_model.py:203-293 [add_loss_map]. The loss map: labels and the values of the columns (in the
    same order for every row). [components] are the components of the asset, in the order in which
    the set yields them. Labels with several levels and without 'DMG' are not modelled. *)
Definition lmap := list (string * list string).
Definition dmg_flag (labels : axis_index) : bool :=
  match labels with
  | Flat l => existsb (contains "DMG") l
  | Multi _ l => existsb (mem "DMG") l
  end.
(** [x[1]]: the second level, or the second character. *)
Definition second (labels : axis_index) : result (list string) :=
  match labels with
  | Flat l => mapM (fun s => match s with String _ (String a _) => Ok (String a "") | _ => Err IndexError end) l
  | Multi _ l => mapM (fun x => match x with _ :: b :: _ => Ok b | _ => Err IndexError end) l
  end.
Definition fill (all : bool) (ncols : nat) (components : list string) (m : lmap) : lmap :=
  fold_left (fun m c => if mem c (map fst m) then m
                        else if negb all && String.eqb c "excessiveRID" then m
                        else m ++ [(c, repeat c ncols)]) components m.
Definition add_loss_map (components : list string) (user : option (axis_index * list (list string))) (ncols : nat)
                        (policy : option string) : result lmap :=
  match user, policy with
  | None, None => Err ValueError
  | _, _ =>
      let* m := match user with
                | None => Ok []
                | Some (labels, values) =>
                    let* names := if dmg_flag labels then second labels
                                  else Ok (match labels with Flat l => l | Multi _ l => map (join "-") l end) in
                    Ok (combine names values)
                end in
      match policy with
      | None => Ok m
      | Some p => if String.eqb p "fill" then Ok (fill false ncols components m)
                  else if String.eqb p "fill_all" then Ok (fill true ncols components m)
                  else Err ValueError
      end
  end.

(** ** Loss parameters *)

Definition pkey := (string * string)%type.
Definition pair_le (a b : pkey) : bool := label_le [fst a; snd a] [fst b; snd b].

Record loss_pars := { l_ds : option (ptable pkey); l_lf : option (ptable pkey) }.

(** loss_model.py:421-452 [_load_from_data_path] *)
Definition dv_unit : col := ("DV", "Unit").
Definition value_eqb (a b : value) : bool :=
  match a, b with
  | VBlank, VBlank => true
  | VNum x, VNum y => Qceqb x y
  | VText x, VText y => String.eqb x y
  | _, _ => false
  end.
Definition units_of (t : ptable pkey) (dv : string) : list value :=
  unique value_eqb (filter (fun v => negb (is_blank v))
    (map (fun kr => at_col (snd kr) dv_unit) (filter (fun kr => String.eqb (snd (fst kr)) dv) (p_rows t)))).
Definition consistent (t : ptable pkey) : bool :=
  forallb (fun dv => Nat.leb (List.length (units_of t dv)) 1) (unique String.eqb (map (fun kr => snd (fst kr)) (p_rows t))).
Definition load_source (s : loss_pars) (data : ptable pkey) : result loss_pars :=
  if negb (has_col data dv_unit) then Err KeyError
  else if negb (consistent data) then Err UnitsError
  else if has_group data "DS1" then Ok {| l_ds := Some (load_more pair_eqb pair_le first_filled (l_ds s) data); l_lf := l_lf s |}
  else if has_group data "LossFunction" then Ok {| l_ds := l_ds s; l_lf := Some (load_more pair_eqb pair_le first_filled (l_lf s) data) |}
  else Err ValueError.

(** loss_model.py:2152-2183 [drop_unused_damage_states] *)
Definition drop_unused_states (t : ptable pkey) : ptable pkey :=
  let unused (g : string) : bool :=
    starts_with "DS" g && forallb (fun kr => forallb (fun c => negb (String.eqb (fst c) g) || is_blank (at_col (snd kr) c)) (p_cols t)) (p_rows t) in
  let cols := filter (fun c => negb (unused (fst c))) (p_cols t) in
  PT cols (map (fun kr => (fst kr, restrict cols (snd kr))) (p_rows t)).

(** The unit of every decision variable (loss_model.py:380-398); [None] if no row has one. The loss
    functions come later and replace what the damage states gave. *)
Definition first_units (t : ptable pkey) : dict value :=
  map (fun g => (fst g, first_filled (snd g)))
      (groupby String.eqb str_le (map (fun kr => (snd (fst kr), at_col (snd kr) dv_unit)) (p_rows t))).
Definition all_units (s : loss_pars) : dict value :=
  let d := match l_ds s with None => [] | Some t => first_units t end in
  match l_lf s with None => d | Some t => fold_left (fun d kv => dset (fst kv) (snd kv) d) (first_units t) d end.

(** loss_model.py:2136-2150 and 2670-2685 [convert_loss_parameter_units] *)
Definition convert_ds (e : penv) (t : ptable pkey) : result (ptable pkey) :=
  if has_col t dv_unit && has_col t ("Quantity", "Unit") then
    let* rows := mapM (fun kr => let* r := convert_row e true dv_unit (Some ("Quantity", "Unit")) (headings t (starts_with "DS")) (snd kr) in
                                 Ok (fst kr, r)) (p_rows t) in
    Ok (PT (p_cols t) rows)
  else Err KeyError.
Definition convert_lf (e : penv) (t : ptable pkey) : result (ptable pkey) :=
  if has_col t dv_unit && has_col t demand_unit then
    let* rows := mapM (fun kr => let* r := convert_row e false dv_unit (Some demand_unit) ["LossFunction"] (snd kr) in
                                 Ok (fst kr, r)) (p_rows t) in
    Ok (PT (p_cols t) rows)
  else Err KeyError.
Definition opt_map {A B} (f : A -> result B) (o : option A) : result (option B) :=
  match o with None => Ok None | Some x => let* y := f x in Ok (Some y) end.

(** loss_model.py:1580-1604 [_ensure_loss_parameter_availability]; a set, as a list without
    repetitions. *)
Definition available (t : option (ptable pkey)) : list pkey := match t with None => [] | Some t => map fst (p_rows t) end.
Definition missing_of (dvs consequences : list string) (s : loss_pars) : list pkey :=
  filter (fun k => negb (existsb (pair_eqb k) (available (l_ds s)) || existsb (pair_eqb k) (available (l_lf s))))
         (unique pair_eqb (flat_map (fun dv => map (fun c => (c, dv)) consequences) dvs)).

Record loaded := { o_pars : loss_pars; o_units : dict value; o_missing : list pkey }.

(** loss_model.py:310-419 [load_model_parameters]; [consequences]: the column Repair of the loss map. *)
Definition load_loss (e : penv) (dvs consequences : list string) (old : loss_pars) (sources : list (ptable pkey)) : result loaded :=
  let* s := foldM load_source old sources in
  let clean (t : ptable pkey) : ptable pkey := remove_incomplete (keep_rows (fun k => mem (fst k) consequences) t) in
  let s := {| l_ds := option_map (fun t => drop_unused_states (clean t)) (l_ds s); l_lf := option_map clean (l_lf s) |} in
  let* ds := opt_map (convert_ds e) (l_ds s) in
  let* lf := opt_map (convert_lf e) (l_lf s) in
  let out := {| l_ds := ds; l_lf := lf |} in
  Ok {| o_pars := out; o_units := all_units s; o_missing := missing_of dvs consequences out |}.
