(** Model of the component assignment (pelicun/model/pelicun_model.py:262-428,
    pelicun/model/asset_model.py:261-429, 446-550).

    Text is ASCII. *)
From Verif Require Import Prelude Pandas M_Base M_Damage M_Scaling M_Params.
Set Implicit Arguments.
Local Open Scope string_scope.
Local Open Scope list_scope.

(** ** Numbers written as text *)

(** The text before and behind the first character with the property [p]. *)
Fixpoint split_first (p : ascii -> bool) (s : string) : string * option string :=
  match s with
  | EmptyString => ("", None)
  | String a tl => if p a then ("", Some tl) else let (u, v) := split_first p tl in (String a u, v)
  end.
Definition is_char (c a : ascii) : bool := Ascii.eqb a c.
Definition is_exp (a : ascii) : bool := Ascii.eqb a "e" || Ascii.eqb a "E".
Fixpoint count_digits (s : string) : nat :=
  match s with EmptyString => 0%nat | String a tl => ((if is_digit a then 1 else 0) + count_digits tl)%nat end.
(** Digits, or nothing. *)
Definition digits_or_empty (s : string) : option Z :=
  if String.eqb s "" then Some 0%Z else parse_digits 0 false s.
Definition signed_digits (s : string) : option Z :=
  match s with
  | EmptyString => None
  | String a tl =>
      if Ascii.eqb a "-" then option_map Z.opp (parse_digits 0 false tl)
      else if Ascii.eqb a "+" then parse_digits 0 false tl
      else parse_digits 0 false s
  end.
(** [m * 10 ^ e] rounded towards zero, for natural [m]. *)
Definition scale10 (m e : Z) : Z := if (0 <=? e)%Z then (m * 10 ^ e)%Z else (m / 10 ^ (- e))%Z.

Inductive truncation := TInt (z : Z) | TNan | TInf.
Definition t_opp (t : truncation) : truncation := match t with TInt z => TInt (- z) | _ => t end.
(** [int(float(s))] of an unsigned number. The rounding of [float] to 53 bits is ignored. *)
Definition trunc_unsigned (s : string) : option truncation :=
  if mem (lower s) ["inf"; "infinity"] then Some TInf
  else if String.eqb (lower s) "nan" then Some TNan
  else
    let (mantissa, exponent) := split_first is_exp s in
    let (whole, fraction) := split_first (is_char ".") mantissa in
    match (match exponent with None => Some 0%Z | Some t => signed_digits t end) with
    | None => None
    | Some e =>
        match fraction with
        | None => option_map (fun n => TInt (scale10 n e)) (parse_digits 0 false whole)
        | Some f =>
            if String.eqb whole "" && String.eqb f "" then None
            else match digits_or_empty whole, digits_or_empty f with
                 | Some n, Some d =>
                     let k := Z.of_nat (count_digits f) in
                     Some (TInt (scale10 (n * 10 ^ k + d) (e - k)))
                 | _, _ => None
                 end
        end
    end.
(** [int(float(s))]; [None]: [float] raises ValueError. *)
Definition trunc_float (s : string) : option truncation :=
  match strip_space s with
  | EmptyString => None
  | String a tl =>
      if Ascii.eqb a "-" then option_map t_opp (trunc_unsigned tl)
      else if Ascii.eqb a "+" then trunc_unsigned tl
      else trunc_unsigned (String a tl)
  end.

(** ** Locations and directions *)

(** [str(int(float(s)))]; [Err ValueError] is caught by the caller, infinity raises OverflowError. *)
Definition as_single (s : string) : result Z :=
  match trunc_float s with
  | None | Some TNan => Err ValueError
  | Some TInf => Err OverflowError
  | Some (TInt z) => Ok z
  end.
(** [np.array(s.split(','), dtype=int)] *)
Definition int_list (s : string) : result (list Z) :=
  mapM (fun w => match pyint w with Some z => Ok z | None => Err ValueError end) (split_on "," s).
Definition head_of {A} (l : list A) : result A := match l with [] => Err IndexError | x :: _ => Ok x end.

(** pelicun_model.py:326-350 without the case of '--'. *)
Definition simple_locations (stories : option Z) (s : string) : result (list Z) :=
  match as_single s with
  | Ok z => Ok [z]
  | Err ValueError =>
      let counted (k : Z -> list Z) := match stories with Some n => Ok (k n) | None => Err AssertionError end in
      if has_char "," s then int_list s
      else if String.eqb s "all" then counted (fun n => int_range 1 n)
      else if String.eqb s "top" then counted (fun n => [n])
      else if String.eqb s "roof" then counted (fun n => [(n + 1)%Z])
      else Err ValueError
  | Err e => Err e
  end.
(** pelicun_model.py:262-350 [_get_locations]. The recursive calls are for text without '--', as
    the pieces of [split('--')] have none ([split_dashes_pieces]). *)
Definition get_locations (stories : option Z) (s : string) : result (list string) :=
  let* zs :=
    match as_single s with
    | Ok z => Ok [z]
    | Err ValueError =>
        if contains "--" s then
          match split_dashes s with
          | [low; high] =>
              let* l := simple_locations stories low in let* a := head_of l in
              let* h := simple_locations stories high in let* b := head_of h in
              Ok (int_range a b)
          | _ => Err ValueError
          end
        else simple_locations stories s
    | Err e => Err e
    end in
  Ok (map str_of_Z zs).

(** pelicun_model.py:397-428 without the case of '--'. *)
Definition simple_directions (s : string) : result (list Z) :=
  match as_single s with
  | Ok z => Ok [z]
  | Err ValueError => if has_char "," s then int_list s else Err ValueError
  | Err e => Err e
  end.
(** pelicun_model.py:352-428 [_get_directions]; [None] is a missing value. *)
Definition get_directions (s : option string) : result (list string) :=
  match s with
  | None => Ok ["1.0"]
  | Some s =>
      let* zs :=
        match as_single s with
        | Ok z => Ok [z]
        | Err ValueError =>
            if has_char "," s then int_list s
            else if contains "--" s then
              match split_dashes s with
              | [low; high] =>
                  let* l := simple_directions low in let* a := head_of l in
                  let* h := simple_directions high in let* b := head_of h in
                  Ok (int_range a b)
              | _ => Err ValueError
              end
            else Err ValueError
        | Err e => Err e
        end in
      Ok (map str_of_Z zs)
  end.

(** ** The component model *)

(** A row of the table of marginals as [file_io.load_data] returns it (sorted by identifier).
    Parameters are numbers or NaN; a missing column is NaN. Identifiers have no hyphens. *)
Record assign_row := AR {
  a_cmp : string; a_location : string; a_direction : option string; a_unit : option string;
  a_family : option string; a_theta0 : num; a_theta1 : num; a_theta2 : num;
  a_lower : num; a_upper : num; a_blocks : num }.
(** [str(x)] of a cell: NaN becomes 'nan' (asset_model.py:343). *)
Definition cell_text (o : option string) : string := match o with Some s => s | None => "nan" end.
Definition int_of (q : Qc) : Z := Z.quot (Qnum (this q)) (Zpos (Qden (this q))).
Definition row_blocks (r : assign_row) : Z := match a_blocks r with Some q => int_of q | None => 1%Z end.

(** What is kept for a performance group. *)
Record marginal := MG {
  m_family : option string; m_theta0 : num; m_theta1 : num; m_theta2 : num;
  m_lower : num; m_upper : num; m_blocks : Z }.
Definition value_of (x : num) : value := match x with Some q => VNum q | None => VBlank end.
Definition num_of (v : value) : num := match v with VNum q => Some q | _ => None end.
Definition family_value (o : option string) : value := match o with Some s => VText s | None => VBlank end.

(** asset_model.py:326: the first unit given for each component. *)
Definition cmp_units (rows : list assign_row) : dict string :=
  fold_left (fun d r => match a_unit r with
                        | Some u => if dmem (a_cmp r) d then d else dset (a_cmp r) u d
                        | None => d
                        end) rows [].
(** asset_model.py:328 [pd.concat([marginal_params, units], axis=1)]: rows without a unit are not
    in [units]; then duplicates there cannot be aligned. *)
Definition aligned (rows : list assign_row) : bool :=
  let ids := map a_cmp (filter (fun r => match a_unit r with Some _ => true | None => false end) rows) in
  (List.length ids =? List.length rows)%nat || (List.length (unique String.eqb ids) =? List.length ids)%nat.

(** asset_model.py:341-365: the performance groups of one row, with the unit. *)
Definition expand_assignment (stories : option Z) (units : dict string) (r : assign_row) : result (list (list string * (string * marginal))) :=
  let* locs := get_locations stories (a_location r) in
  let* dirs := get_directions (Some (cell_text (a_direction r))) in
  match dget (a_cmp r) units with
  | None => Err KeyError
  | Some u =>
      let m := MG (a_family r) (a_theta0 r) (a_theta1 r) (a_theta2 r) (a_lower r) (a_upper r) (row_blocks r) in
      Ok (map (fun ld => ([a_cmp r; fst ld; snd ld], (u, m))) (list_prod locs dirs))
  end.
(** pelicun_model.py:81-260 for a performance group. *)
Definition marginal_cell (m : marginal) (field : string) : value :=
  if String.eqb field "Family" then family_value (m_family m)
  else if String.eqb field "Theta_0" then value_of (m_theta0 m)
  else if String.eqb field "Theta_1" then value_of (m_theta1 m)
  else if String.eqb field "Theta_2" then value_of (m_theta2 m)
  else if String.eqb field "TruncateLower" then value_of (m_lower m)
  else if String.eqb field "TruncateUpper" then value_of (m_upper m)
  else VBlank.
Definition convert_group (e : penv) (unit : string) (m : marginal) : result marginal :=
  let* c := convert_marginal e false (VText unit) None (marginal_cell m) in
  Ok (MG (m_family m) (num_of (c "Theta_0")) (num_of (c "Theta_1")) (num_of (c "Theta_2"))
         (num_of (c "TruncateLower")) (num_of (c "TruncateUpper")) (m_blocks m)).
(** asset_model.py:261-429 [load_cmp_model]: the units of the components and the marginals with
    the labels (component, location, direction, uid). The index of an empty table loses its
    columns, also the units (389, 410). No unit in any row: there is no column of units (322). *)
Definition load_cmp_model (e : penv) (stories : option Z) (rows : list assign_row) : result (dict string * list (list string * marginal)) :=
  if existsb (fun r => match a_unit r with Some _ => true | None => false end) rows then
    if aligned rows then
      let units := cmp_units rows in
      let* groups := mapM (expand_assignment stories units) rows in
      let groups := List.concat groups in
      if existsb (fun g => match m_theta0 (snd (snd g)) with None => true | Some _ => false end) groups then Err AssertionError
      else match groups with
      | [] => Err KeyError
      | _ =>
          let* converted := mapM (fun g => let* m := convert_group e (fst (snd g)) (snd (snd g)) in Ok (fst g, m)) (dedupe_index groups) in
          Ok (units, converted)
      end
    else Err InvalidIndexError
  else Err AssertionError.

(** ** The component sample *)

(** asset_model.py:523-530, 503-508: the labels of the variables and the labels of the columns of
    the sample, with the values that the variables have got. *)
Definition variable_label (label : list string) : string := join "-" ("CMP" :: label).
Definition cmp_sample_columns {V} (columns : list (list string * V)) : result (list (list string * V)) :=
  let sorted := isort (fun a b => str_le (fst a) (fst b)) (map (fun c => (variable_label (fst c), snd c)) columns) in
  let* index := to_multi_index (Flat (map fst sorted)) in
  match index with
  | Multi n labels =>
      let cmp := filter (fun lv => match fst lv with c :: _ => String.eqb c "CMP" | [] => false end) (combine labels (map snd sorted)) in
      if (n =? 5)%nat then Ok (map (fun lv => (tl (fst lv), snd lv)) cmp) else Err ValueError
  | Flat _ => Err KeyError
  end.
