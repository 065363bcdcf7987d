(** Model of the calculation of losses from loss functions (pelicun/model/loss_model.py:2505-2668,
    2687-2899; pelicun/base.py:1634-1663).

    Not modelled: the distribution of the draws (they are an argument, one number or NaN for each
    random variable and realization), the correlation of cost and time draws, logging, infinite
    and NaN values in loss functions, columns of length one that are broadcast. *)
From Verif Require Import Prelude Pandas M_Base M_FileIO M_Damage M_Demand M_Agg M_LossDS.
Set Implicit Arguments.
Local Open Scope string_scope.
Local Open Scope list_scope.

(** ** Loss functions *)

(** [np.array(texts, dtype=float)]; [pyfloat] is Python's [float] of a text, [None] if it raises. *)
Definition floats (pyfloat : string -> option Qc) (l : list string) : result (list Qc) :=
  mapM (fun s => match pyfloat s with Some q => Ok q | None => Err ValueError end) l.

(** base.py:1634-1663 [stringterpolation]: the points in the order of their arguments;
    [interp1d] sorts them (stably) and rejects unequal numbers of values. *)
Definition stringterpolation (pyfloat : string -> option Qc) (arguments : string) : result (list (Qc * Qc)) :=
  match split_on "|" arguments with
  | ytext :: xtext :: _ =>
      let* xs := floats pyfloat (split_on "," xtext) in
      let* ys := floats pyfloat (split_on "," ytext) in
      if Nat.eqb (List.length xs) (List.length ys)
      then Ok (isort (fun a b => Qcleb (fst a) (fst b)) (combine xs ys))
      else Err ValueError
  | _ => Err IndexError
  end.

(** The call of the interpolator at one value: NaN gives NaN, ValueError outside of the range. *)
Definition interp1d (points : list (Qc * Qc)) (q : num) : result num :=
  match points, q with
  | [], _ => Err ValueError
  | _, None => Ok None
  | (x0, y0) :: tl, Some v =>
      if Qcltb v x0 || Qcltb (fst (last points (x0, y0))) v then Err ValueError
      else Ok (Some (interp_from x0 y0 tl v))
  end.

(** ** Inputs *)

(** A row of [loss_params] of the loss function model: the cell (LossFunction, Theta_0) if it is a
    text, (LossFunction, Family) if it exists and is not NaN, the cells Theta_1 and Theta_2 as far
    as these columns exist (NaN included), and the demand columns. *)
Record lf_row := LFR { lf_function : option string; lf_family : option string; lf_thetas : list num;
                       lf_demand : demand_params }.

Record lf_setup := { f_dvs : list string; f_map : dict string; f_missing : list (string * string);
                     f_rows : option (list ((string * string) * lf_row));
                     f_draws : string -> pg -> nat -> nat -> num }.

Record lf_env := { nterms : string -> result nat; eval : string -> dict (list num) -> result (list num);
                   pyfloat : string -> option Qc; offsets : dict Qc; multipliers : dict Qc }.

Definition lf_row_of (rows : list ((string * string) * lf_row)) (c dv : string) : option lf_row :=
  aget pair_eqb (c, dv) rows.

(** A performance group and a decision variable. *)
Definition group := (pg * string)%type.
Definition group_eqb (a b : group) : bool := pg_eqb (fst a) (fst b) && String.eqb (snd a) (snd b).

(** loss_model.py:2545-2564: the groups whose consequence has a row, for every decision variable;
    what is missing is looked up under the name of the component. [blocks] are the numbers of
    blocks of the performance groups. *)
Definition lf_driven (s : lf_setup) (rows : list ((string * string) * lf_row)) (component : string) : bool :=
  match dget component (f_map s) with
  | None => false
  | Some c => existsb (fun r => String.eqb (fst (fst r)) c) rows
  end.
Definition lf_groups (s : lf_setup) (rows : list ((string * string) * lf_row)) (blocks : list (pg * Z)) : list (group * Z) :=
  flat_map (fun pb => map (fun dv => ((fst pb, dv), snd pb))
                          (filter (fun dv => negb (existsb (pair_eqb (cmp (fst pb), dv)) (f_missing s))) (f_dvs s)))
           (filter (fun pb => lf_driven s rows (cmp (fst pb))) blocks).

(** ** Demands (loss_model.py:2580-2602; demand_model.py:1226-1386) *)

(** The parameters are looked up under the name of the component. *)
Definition lf_key (e : lf_env) (rows : list ((string * string) * lf_row)) (g : group) : result required_key :=
  match lf_row_of rows (cmp (fst g)) (snd g) with
  | None => Err KeyError
  | Some r =>
      let* et := terms_of (nterms e) (lf_demand r) in
      let* edps := mapM (edp_of (offsets e) (fst g)) (snd et) in
      Ok (edps, fst et)
  end.

(** [required_edps] (group to key) and [demand_dict] (key to values). A key that several groups
    share is assembled once in the code; the values depend on the key only. *)
Definition lf_demands (e : lf_env) (sample : frame) (rows : list ((string * string) * lf_row)) (groups : list group)
  : result (list (group * list num)) :=
  let* keys := mapM (lf_key e rows) groups in
  let* _ := verify_edps_available sample keys in
  let* values := mapM (assemble_one (eval e) (multipliers e) sample) keys in
  Ok (combine groups values).

(** ** Medians (loss_model.py:2732-2790) *)

(** A column of [medians]: group, block and values. *)
Definition lf_column := (lkey * pg * nat * list num)%type.

(** Division by [float(blocks)]. *)
Definition block_median (b : Z) (m q : num) : num :=
  match nmul m q with Some v => Some (v / qz b)%Qc | None => None end.

(** One group: the demand is looked up under the name of the consequence, the loss function under
    that of the component. *)
Definition group_medians (e : lf_env) (s : lf_setup) (rows : list ((string * string) * lf_row))
    (demands : list (group * list num)) (quantities : list (pg * list num)) (gb : group * Z) : result (list lf_column) :=
  let '((p, dv), b) := gb in
  match dget (cmp p) (f_map s) with
  | None => Err KeyError
  | Some c =>
      match aget group_eqb (PG c (loc p) (dir p) (uid p), dv) demands, lf_row_of rows (cmp p) dv with
      | Some values, Some r =>
          match lf_function r with
          | None => Err AssertionError
          | Some text =>
              let* points := stringterpolation (pyfloat e) text in
              let* med := mapM (interp1d points) values in
              let* cols := mapM (fun block =>
                match aget pg_eqb p quantities with
                | None => Err KeyError
                | Some q => if Nat.eqb (List.length med) (List.length q)
                            then Ok (LK dv c (cmp p) (loc p) (dir p) (uid p), p, block, map2 (block_median b) med q)
                            else Err ValueError
                end) (seq 0 (Z.to_nat b)) in
              Ok cols
          end
      | _, _ => Err KeyError
      end
  end.

(** The column index gets seven names, which fails if there are no columns. The columns have to
    have the same length: that of the demand sample, except if all demands are constant
    expressions, which is not modelled. *)
Definition lf_medians e s rows demands quantities (n : nat) (groups : list (group * Z)) : result (list lf_column) :=
  let* l := mapM (group_medians e s rows demands quantities) groups in
  match List.concat l with
  | [] => Err ValueError
  | cols => if forallb (fun c => Nat.eqb (List.length (snd c)) n) cols then Ok cols else Err ValueError
  end.

(** ** Deviations (loss_model.py:2792-2899) *)

(** Whether a column has a random variable; its name 'dv-loss-dmg-loc-dir-uid-block' is split again
    and has to have seven parts. *)
Definition has_rv (rows : list ((string * string) * lf_row)) (k : lkey) : result bool :=
  match lf_row_of rows (k_loss k) (k_dv k) with
  | None => Err KeyError
  | Some r =>
      match lf_family r with
      | None => Ok false
      | Some f =>
          let* _ := make_rv f (Some 1%Qc :: lf_thetas r) in
          if existsb (has_char "-"%char) (lkey_label k) then Err ValueError else Ok true
      end
  end.

(** [(medians * std_sample).combine_first(medians)] for one column. *)
Definition deviate (s : lf_setup) (c : lf_column) (random : bool) : list num :=
  let '(k, p, block, med) := c in
  if random
  then map (fun i => let m := nth i med None in
                     match nmul m (f_draws s (k_dv k) p block i) with Some v => Some v | None => m end)
           (seq 0 (List.length med))
  else med.

(** ** The losses (loss_model.py:2505-2668) *)

(** [None]: the stored sample is left as it is. *)
Definition calculate_lf (e : lf_env) (s : lf_setup) (sample : frame) (quantities : list (pg * list num))
                        (blocks : list (pg * Z)) : result (option lf_table) :=
  match f_rows s with
  | None => Ok None
  | Some rows =>
      match lf_groups s rows blocks with
      | [] => Ok None
      | groups =>
          let* demands := lf_demands e sample rows (map fst groups) in
          let* cols := lf_medians e s rows demands quantities (n_rows sample) groups in
          let* vals := mapM (fun c => let* r := has_rv rows (fst (fst (fst c))) in
                                      Ok (fst (fst (fst c)), deviate s c r)) cols in
          Ok (Some (map (fun g => ((fst g, None), map Some (total_columns (n_rows sample) (snd g))))
                        (groupby lkey_eqb lkey_le vals)))
      end
  end.
