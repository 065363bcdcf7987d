(** Model of the life cycle of a demand model: calibration, saving and loading of the model, and
    the generation of samples (pelicun/model/demand_model.py:96-135, 527-1032, 1129-1222).

    The fitting of distributions, the square root and the construction of the random variables of
    a family are arguments. Not modelled: logging, samples with NaN in demands kept as data, tables
    whose row labels have no hyphen at all, units that are numbers, CSV texts (see M_FileIO), the
    spelling of the label of the units column, what remains of a model when calibration or
    generation fails. *)
From Verif Require Import Prelude Pandas M_Base M_FileIO M_Damage M_LossDS M_Params M_UQ M_Demand.
Set Implicit Arguments.
Local Open Scope string_scope.
Local Open Scope list_scope.

(** ** The state *)

(** A row of [marginal_params]: its cells by column. *)
Notation marginal := (dict value).
(** demand_model.py:100-119: the attributes of a [DemandModel]. [m_units_name] is the name of the
    Series with the units. Of the correlation matrix, the labels of the rows and the values. *)
Record dmodel := DM {
  m_sample : option frame;
  m_units : option units_map;
  m_units_name : string;
  m_marginals : option (list (list string * marginal));
  m_empirical : option frame;
  m_correlation : option (list (list string) * matrix);
  m_calibrated : bool }.
Definition fresh : dmodel := DM None None "" None None None false.

(** demand_model.py:184-322 [load_sample], on the state. *)
Definition load_raw (factors : dict Qc) (name : string) (s : saved) (m : dmodel) : result dmodel :=
  let* d := load_sample factors name s in
  Ok (DM (Some (d_sample d)) (Some (d_units d)) (d_units_name d) (m_marginals m) (m_empirical m) (m_correlation m) (m_calibrated m)).
(** The sample with its units, as the other methods use it. *)
Definition the_demand (m : dmodel) : result demand :=
  match m_sample m, m_units m with
  | Some t, Some us => Ok {| d_sample := t; d_units := us; d_units_name := m_units_name m |}
  | _, _ => Err AssertionError
  end.

(** ** Calibration (demand_model.py:527-833) *)

(** The realizations of a table, and back: the columns of [k] variables. *)
Definition realizations (t : frame) : list (list num) :=
  map (fun i => map (fun e => nth i (snd e) None) t) (seq 0 (n_rows t)).
Definition columns_of (k : nat) (rows : list (list num)) : list (list num) :=
  map (fun j => map (fun r => nth j r None) rows) (seq 0 k).

Definition of_num (x : num) : value := match x with None => VBlank | Some q => VNum q end.
(** demand_model.py:786: the parameters go to the rows that were fitted, in their order. *)
Fixpoint with_thetas (cal : list (list string * cal_row)) (thetas : list (num * num)) : list (list string * cal_row * (num * num)) :=
  match cal with
  | [] => []
  | c :: tl =>
      if is_empirical (snd c) then (c, (None, None)) :: with_thetas tl thetas
      else match thetas with
           | t :: rest => (c, t) :: with_thetas tl rest
           | [] => (c, (None, None)) :: with_thetas tl []
           end
  end.
(** demand_model.py:788-806: [root] is [np.sqrt]; NaN increases count as zero. *)
Definition increase_sigma (root : Qc -> Qc) (inc sigma : num) : num :=
  match sigma with
  | None => None
  | Some s => let i := match inc with Some i => i | None => 0%Qc end in Some (root (s * s + i * i)%Qc)
  end.
(** demand_model.py:788-815: the row of one demand; [some]: there is an increase somewhere. *)
Definition marginal_of (root : Qc -> Qc) (some : bool) (e : list string * cal_row * (num * num)) : list string * marginal :=
  let '(c, (t0, t1)) := e in
  (fst c, [("Family", VText (family (snd c))); ("Theta_0", of_num t0);
           ("Theta_1", of_num (if some then increase_sigma root (sig_increase (snd c)) t1 else t1));
           ("TruncateLower", of_num (truncate_lower (snd c))); ("TruncateUpper", of_num (truncate_upper (snd c)))]).

(** [fit_distribution_to_sample]: families, one row of values per demand, number of censored
    realizations, detection limits, truncation limits; the parameters and the correlations. *)
Definition fitter := list string -> list (list num) -> nat -> list (num * num) -> list (num * num) -> result (list (num * num) * matrix).

Definition calibrate (fit : fitter) (root : Qc -> Qc) (factors : dict Qc) (config : dict settings) (m : dmodel) : result dmodel :=
  let* d := the_demand m in
  let t := d_sample d in
  (* 567: the settings are parsed with the sample in the units of the user *)
  let* _ := save_sample factors d in
  let* cal := calibration_settings factors config (map fst t) in
  let '(data, rest, censored) := calibration_data (map snd cal) (realizations t) in
  (* 735-750 *)
  let empirical := filter (fun c => is_empirical (snd c)) cal in
  let fitted := filter (fun c => negb (is_empirical (snd c))) cal in
  let empirical_data := match empirical with
                        | [] => m_empirical m
                        | _ => Some (combine (map fst empirical) (columns_of (List.length empirical) data))
                        end in
  (* 762-777 *)
  let* r := fit (map (fun c => family (snd c)) fitted) (columns_of (List.length fitted) rest) censored
                (map (fun c => (censor_lower (snd c), censor_upper (snd c))) fitted)
                (map (fun c => (truncate_lower (snd c), truncate_upper (snd c))) fitted) in
  let some := negb (all_nan (map (fun c => sig_increase (snd c)) cal)) in
  Ok (DM (m_sample m) (m_units m) (m_units_name m)
         (Some (map (marginal_of root some) (with_thetas cal (fst r)))) empirical_data (Some (map fst fitted, snd r)) true).

(** ** Saving and loading the model (demand_model.py:835-972) *)

(** The files under a prefix. The rows of the marginals with the units as a column; the labels of
    the rows, of the columns and the values of the correlations. *)
Record model_files := MF {
  f_marginals : option (list (string * marginal));
  f_empirical : option saved;
  f_correlation : option (list string * list string * matrix) }.

(** pelicun_model.py:132: the labels must be those of the units, in the same order. *)
Definition same_index (marginals : list (list string * marginal)) (units : units_map) : result unit :=
  if negb (List.length marginals =? List.length units)%nat then Err ValueError
  else if forallb (fun p => label_eqb (fst p) (snd p)) (combine (map fst marginals) (map fst units)) then Ok tt else Err AssertionError.
(** pelicun_model.py:151-260 for one demand, without argument units. *)
Definition convert_demand (e : penv) (inverse : bool) (unit : string) (row : marginal) : result marginal :=
  let* fu := calc_unit_scale_factor e unit in
  let cell (c : string) := match dget c row with Some v => v | None => VBlank end in
  if match cell "Family" with VText fam => String.eqb fam "empirical" | _ => false end then Ok row
  else if inverse && Qceqb fu 0 then Err ZeroDivisionError
  else
    let* new := convert_scaled e true (if inverse then (1 / fu)%Qc else fu) None cell
                               (match cell "Family" with VText fam => Some fam | _ => None end) in
    Ok (map (fun cv => (fst cv, new (fst cv))) row).
(** pelicun_model.py:81-260 [_convert_marginal_params] *)
Definition convert_demands (e : penv) (inverse : bool) (marginals : list (list string * marginal)) (units : units_map)
  : result (list (list string * marginal)) :=
  let* _ := same_index marginals units in
  mapM (fun mu => let* row := convert_demand e inverse (snd (snd mu)) (snd (fst mu)) in Ok (fst (fst mu), row)) (combine marginals units).

(** demand_model.py:835-869: the files afterwards and the error raised, if any. A correlation that
    is [None] writes no file (file_io.py:165-168). *)
Definition save_model (e : penv) (m : dmodel) (fs : model_files) : model_files * option exn :=
  let fs := match m_correlation m with
            | None => fs
            | Some (labels, rho) => MF (f_marginals fs) (f_empirical fs) (Some (map (join "-") labels, map (join "-") labels, rho))
            end in
  match match m_empirical m with
        | None => Ok fs
        | Some t => let* s := save_columns (Some (factors e)) (m_units m) true 3 t in Ok (MF (f_marginals fs) (Some s) (f_correlation fs))
        end with
  | Err x => (fs, Some x)
  | Ok fs =>
      match m_marginals m, m_units m with
      | Some marginals, Some units =>
          match convert_demands e true marginals units with
          | Err x => (fs, Some x)
          | Ok rows =>
              let unit lab := match unit_of units lab with Some u => VText u | None => VBlank end in
              (MF (Some (map (fun lm => (join "-" (fst lm), dset "Units" (unit (fst lm)) (snd lm))) rows)) (f_empirical fs) (f_correlation fs), None)
          end
      | _, _ => (fs, Some AssertionError)
      end
  end.

(** Labels with three levels (demand_model.py:922, 933-939, 957-959). *)
Definition three_levels (labels : list string) : result (list (list string)) :=
  let* ax := to_multi_index (Flat labels) in
  match ax with Multi 3 ls => Ok ls | _ => Err ValueError end.
(** file_io.py:527-536: the table is sorted along both axes. *)
Definition load_correlation (c : list string * list string * matrix) : result (list (list string) * matrix) :=
  let '(rows, cols, rho) := c in
  let* cl := three_levels cols in
  let* rl := three_levels rows in
  let sorted := sort_labels (combine rl (map (fun r => map snd (sort_labels (combine cl r))) rho)) in
  Ok (map fst sorted, map snd sorted).
(** file_io.py:457-549 with [orientation=1], and demand_model.py:943-966. *)
Definition load_marginals (e : penv) (rows : list (string * marginal)) : result (list (list string * marginal) * units_map) :=
  let* labels := three_levels (map fst rows) in
  let table := combine labels (map snd rows) in
  let data := sort_labels (map (fun lm => (fst lm, ddel "Units" (snd lm))) table) in
  if forallb (fun lm => dmem "Units" (snd lm)) table then
    let units := sort_labels (flat_map (fun lm => match dget "Units" (snd lm) with Some (VText u) => [(fst lm, u)] | _ => [] end) table) in
    let* converted := convert_demands e false data units in
    Ok (converted, units)
  else Err AssertionError.
(** demand_model.py:911-922 for a file that exists. *)
Definition load_empirical (e : penv) (s : saved) : result frame :=
  let* r := load_columns (Some (factors e)) s in
  if (n_levels (fst r) =? 3)%nat then Ok (fst r) else Err ValueError.

(** What remains to be done once the empirical data is settled: correlation (924-941), then
    marginals (943-970). [read]: the correlation that is asked for. *)
Definition load_rest (e : penv) (read : option (result (list string * list string * matrix))) (marginals : result (list (string * marginal))) (m : dmodel)
  : dmodel * option exn :=
  let corr := match read with None => Ok None | Some r => let* c := r in let* l := load_correlation c in Ok (Some l) end in
  match corr with
  | Err x => (m, Some x)
  | Ok c =>
      let m := DM (m_sample m) (m_units m) (m_units_name m) (m_marginals m) (m_empirical m) c (m_calibrated m) in
      match (let* rows := marginals in load_marginals e rows) with
      | Err x => (m, Some x)
      | Ok (rows, units) => (DM (m_sample m) (Some units) "Units" (Some rows) (m_empirical m) (m_correlation m) (m_calibrated m), None)
      end
  end.
Definition or_missing {A} (f : option A) : result A := match f with Some x => Ok x | None => Err FileNotFoundError end.
(** demand_model.py:902-972 with a prefix. The empirical data stays if there is no such file. *)
Definition load_model (e : penv) (fs : model_files) (m : dmodel) : dmodel * option exn :=
  match match f_empirical fs with None => Ok (m_empirical m) | Some s => let* t := load_empirical e s in Ok (Some t) end with
  | Err x => (m, Some x)
  | Ok emp => load_rest e (Some (or_missing (f_correlation fs))) (or_missing (f_marginals fs))
                (DM (m_sample m) (m_units m) (m_units_name m) (m_marginals m) emp (m_correlation m) (m_calibrated m))
  end.
(** demand_model.py:891-897, 911-972 with a dictionary of tables. A table of empirical data is not
    a string (912-915): it is not looked at, and the data stays as it is. *)
Definition load_tables (e : penv) (fs : model_files) (m : dmodel) : dmodel * option exn :=
  match f_marginals fs with
  | None => (m, Some AssertionError)
  | Some rows =>
      let emp := match f_empirical fs with Some _ => m_empirical m | None => None end in
      load_rest e (option_map (fun c => Ok c) (f_correlation fs)) (Ok rows)
        (DM (m_sample m) (m_units m) (m_units_name m) (m_marginals m) emp (m_correlation m) (m_calibrated m))
  end.

(** ** Generating a sample (demand_model.py:974-1032, 1129-1222) *)

(** 985, 1013-1016 *)
Definition edp_tag (lab : list string) : string := join "-" ("EDP" :: lab).
(** Samples with NaN are not modelled. *)
Definition complete (vs : list num) : result (list Qc) := mapM (fun v => match v with Some q => Ok q | None => Err TypeError end) vs.
(** 983-1009: [variable] constructs the variable of a family with parameters and limits. *)
Definition family_maker := value -> list value -> value * value -> result kind.
Definition demand_kind (variable : family_maker) (preserve : bool) (empirical : option frame) (lm : list string * marginal) : result kind :=
  let (lab, row) := lm in
  let fam := match dget "Family" row with Some v => v | None => VText "deterministic" end in
  if match fam with VText f => String.eqb f "empirical" | _ => false end then
    match empirical with
    | None => Err AttributeError
    | Some t =>
        match aget label_eqb lab t with
        | None => Err KeyError
        | Some vs => let* theta := complete vs in
                     Ok (if preserve then Utility (coupled_inverse theta) else Transform (mapM (empirical_inverse theta)))
        end
    end
  else variable fam
         (flat_map (fun t => match dget t row with Some v => [v] | None => [] end) ["Theta_0"; "Theta_1"; "Theta_2"])
         (match dget "TruncateLower" row with Some v => v | None => VBlank end, match dget "TruncateUpper" row with Some v => v | None => VBlank end).
Definition add_variable (r : registry) (v : rv) : result registry :=
  match add_rv r v with (r, None) => Ok r | (_, Some x) => Err x end.
(** 974-1032 [_create_RVs] *)
Definition create_rvs (variable : family_maker) (preserve : bool) (marginals : list (list string * marginal)) (empirical : option frame)
    (correlation : option (list (list string) * matrix)) : result registry :=
  let* r := foldM (fun r lm => let* k := demand_kind variable preserve empirical lm in
                               add_variable r (RV (edp_tag (fst lm)) (edp_tag (fst lm)) k)) (Reg [] []) marginals in
  match correlation with
  | None => Ok r
  | Some (labels, rho) =>
      let tags := map edp_tag labels in
      if forallb (fun t => mem t (map v_name (r_vars r))) tags
      then let* s := make_set (unique String.eqb tags) rho in Ok (add_rv_set r "EDP_set" s)
      else Err KeyError
  end.
(** 1202-1212: the columns sorted by the labels of the variables, then split. *)
Definition edp_columns {V} (columns : list (string * V)) : result (list (list string * V)) :=
  let sorted := isort (fun a b => str_le (fst a) (fst b)) columns in
  let* index := to_multi_index (Flat (map fst sorted)) in
  match index with
  | Multi n labels =>
      let edp := filter (fun lv => match fst lv with c :: _ => String.eqb c "EDP" | [] => false end) (combine labels (map snd sorted)) in
      if (n =? 4)%nat then Ok (map (fun lv => (tl (fst lv), snd lv)) edp) else Err ValueError
  | Flat _ => Err KeyError
  end.

(** The randomness: the copula, the permutations and the numbers drawn. *)
Record chance := Chance { copula : matrix -> list (list Qc) -> list (list Qc); perms : list (list nat); draws : list (list Qc) }.
(** The configuration (1139-1149) and the sampling method of the assessment. *)
Record request := Request { size : nat; preserve_order : bool; cloning : dict (list string); method : string }.

(** 1129-1222 [generate_sample]; the cloning takes place if it is not empty. *)
Definition generate (variable : family_maker) (c : chance) (q : request) (m : dmodel) : result dmodel :=
  match m_marginals m with
  | None => Err ValueError
  | Some marginals =>
      let* r := create_rvs variable (preserve_order q) marginals (m_empirical m) (m_correlation m) in
      let* w := M_UQ.generate_sample (copula c) (perms c) (draws c) r (World [] []) (size q) (method q) in
      let* cols := mapM (fun v => match dget (v_name v) (w_samples w) with Some s => Ok (v_name v, map Some s) | None => Err TypeError end) (r_vars r) in
      let* sample := edp_columns cols in
      let m := DM (Some sample) (m_units m) (m_units_name m) (m_marginals m) (m_empirical m) (m_correlation m) (m_calibrated m) in
      match cloning q with
      | [] => Ok m
      | _ => match m_units m with
             | None => Err AttributeError
             | Some us =>
                 let* d := clone_demands (cloning q) {| d_sample := sample; d_units := us; d_units_name := m_units_name m |} in
                 Ok (DM (Some (d_sample d)) (Some (d_units d)) (m_units_name m) (m_marginals m) (m_empirical m) (m_correlation m) (m_calibrated m))
             end
      end
  end.
