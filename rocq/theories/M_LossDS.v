(** Model of the calculation of damage-state-based losses (pelicun/model/loss_model.py:1902-2135,
    2185-2497, 2902-2967).

    Not modelled: the distribution of the draws (they are an argument, one number for each random
    variable and realization), the correlation of cost and time draws, the order of the resulting
    columns, logging. *)
From Verif Require Import Prelude Pandas M_Base M_Damage M_Agg.
Set Implicit Arguments.
Local Open Scope string_scope.
Local Open Scope list_scope.

(** ** The median consequence of one unit *)

(** numpy's [interp(q, xs, ys)] on increasing [xs]: constant outside, linear between neighbours. *)
Fixpoint interp_from (x0 y0 : Qc) (rest : list (Qc * Qc)) (q : Qc) : Qc :=
  match rest with
  | [] => y0
  | (x1, y1) :: tl => if Qcltb q x1 then (y0 + (y1 - y0) / (x1 - x0) * (q - x0))%Qc else interp_from x1 y1 tl q
  end.
(** loss_model.py:2925-2967 [_prep_bounded_multilinear_median_DV]. The tables have at least one
    point: they are obtained by splitting a text. *)
Definition bounded_multilinear (medians quantities : list Qc) (q : Qc) : Qc :=
  match combine quantities medians with
  | [] => 0%Qc
  | (x0, y0) :: tl => if Qcltb q x0 then y0 else interp_from x0 y0 tl q
  end.

(** Theta_0 of a damage state: a number, or the text of a table 'm1,m2,...|q1,q2,...'
    (loss_model.py:2410-2433; the splitting of the text into numbers is not modelled). *)
Inductive theta := Scalar (v : Qc) | Curve (medians quantities : list Qc).
Record ds_params := DSP { p_family : option string; p_theta0 : option theta;
                          p_theta1 : option Qc; p_theta2 : option Qc }.
(** [loss_params] (loss_model.py:1594-1663): rows for (consequence, decision variable); a damage
    state without an entry has NaN in all its cells. [lp_states] are the ids of the DSi columns. *)
Record loss_params := { lp_states : list string; lp_rows : list ((string * string) * dict ds_params) }.
Definition pair_eqb (a b : string * string) : bool := String.eqb (fst a) (fst b) && String.eqb (snd a) (snd b).
Definition row_params (row : dict ds_params) (ds : string) : ds_params :=
  match dget ds row with Some p => p | None => DSP None None None None end.

(** loss_model.py:2403-2433: the function of the aggregate quantity; NaN in, NaN out for a table. *)
Definition f_median (th : theta) (family : option string) (q : num) : num :=
  match th with
  | Scalar t => match family with None => Some t | Some _ => Some 1%Qc end
  | Curve ys xs => match q with Some x => Some (bounded_multilinear ys xs x) | None => None end
  end.
(** loss_model.py:2393-2401. *)
Definition supported_family (f : option string) : bool :=
  match f with None => true | Some x => mem x ["normal"; "lognormal"; "deterministic"] end.

(** ** Economies of scale (loss_model.py:1930-1952) *)

Record eco := Eco { across_floors : bool; across_states : bool }.
(** The levels by which the quantities are grouped: (cmp, [loc], [ds]). *)
Definition eco_label (e : eco) (k : qkey) : list string :=
  [cmp (fst k)] ++ (if across_floors e then [] else [loc (fst k)]) ++ (if across_states e then [] else [snd k]).
Definition eco_quantities (n : nat) (e : eco) (dmg : qty_frame) : list (list string * list num) :=
  map (fun g => (fst g, sum_columns n (snd g)))
      (groupby label_eqb label_le (map (fun c => (eco_label e (fst c), snd c)) dmg)).

Record loss_setup := { dvs : list string; loss_map : dict string; missing : list (string * string);
                       params : option loss_params; draws : string -> qkey -> nat -> Qc }.
Definition is_missing (s : loss_setup) (consequence dv : string) : bool :=
  existsb (pair_eqb (consequence, dv)) (missing s).

(** One damage state of one component (loss_model.py:2376-2465): the median for each realization,
    or nothing if there is none. The quantities are those of the column (component, ds), or
    (component) when damage states are pooled. With [across_floors = false] the selected block has
    one column per location (or per damage state at location [ds]), see [medians_of]; its
    values are never used and not modelled. *)
Definition ds_median (e : eco) (ecoq : list (list string * list num)) (component ds : string) (row : dict ds_params)
  : result (option (list num)) :=
  let p := row_params row ds in
  match p_theta0 p with
  | None => Ok None
  | Some th =>
      if negb (supported_family (p_family p)) then Err ValueError else
      if across_floors e then
        match aget label_eqb (if across_states e then [component] else [component; ds]) ecoq with
        | Some q => Ok (Some (map (f_median th (p_family p)) q))
        | None => Ok None
        end
      else if across_states e then Ok (Some [])
      else if existsb (fun c => label_eqb (firstn 2 (fst c)) [component; ds]) ecoq then Ok (Some []) else Ok None
  end.

(** loss_model.py:2363-2465: the damage states of one component. *)
Definition cmp_medians (e : eco) (s : loss_setup) (ecoq : list (list string * list num)) (dv component consequence : string)
  : result (list (string * list num)) :=
  if is_missing s consequence dv then Ok [] else
  if negb (existsb (fun c => String.eqb (hd "" (fst c)) component) ecoq) then Ok [] else
  match params s with
  | None => Err AssertionError
  | Some lp =>
      let* l := mapM (fun ds => if String.eqb ds "0" then Ok [] else
                        match aget pair_eqb (consequence, dv) (lp_rows lp) with
                        | None => Err KeyError
                        | Some row =>
                            let* m := ds_median e ecoq component ds row in
                            Ok match m with Some v => [(ds, v)] | None => [] end
                        end) (lp_states lp) in
      Ok (List.concat l)
  end.

(** loss_model.py:2355-2497, one decision variable: (component, ds) with the medians. The columns
    have three levels and get two names when floors are not pooled (loss_model.py:2484-2488). *)
Definition medians_of (e : eco) (s : loss_setup) (ecoq : list (list string * list num)) (dv : string)
  : result (list ((string * string) * list num)) :=
  let* l := mapM (fun c => let* m := cmp_medians e s ecoq dv (fst c) (snd c) in
                           Ok (map (fun d => ((fst c, fst d), snd d)) m)) (loss_map s) in
  match List.concat l with
  | [] => Ok []
  | m => if across_floors e then Ok m else Err ValueError
  end.

(** ** Deviations from the median (loss_model.py:2185-2328) *)

Record dv_rv := RV { rv_dv : string; rv_key : qkey; rv_family : string; rv_theta : list Qc }.

(** loss_model.py:2255-2263, 2274-2278: the parameters that are not NaN; the median of a table is
    replaced by one. *)
Definition rv_thetas (p : ds_params) : list Qc :=
  somes [match p_theta0 p with Some (Scalar t) => Some t | Some (Curve _ _) => Some 1%Qc | None => None end;
         p_theta1 p; p_theta2 p].

(** [dmg_quantities.loc[:, (component, ds)]]. *)
Definition columns_of (dmg : qty_frame) (component ds : string) : qty_frame :=
  filter (fun c => String.eqb (cmp (fst (fst c))) component && String.eqb (snd (fst c)) ds) dmg.

(** Creation and sampling of a random variable with truncation limits (0, NaN): a deterministic
    variable rejects the limits with NotImplementedError, which is a RuntimeError
    (uq.py:2378-2381); a normal one needs a mean that is not zero and a second parameter
    (uq.py:1690-1697); for a lognormal one the number of parameters has to be that of the limits
    (uq.py:1411-1415). Other families are not modelled (ValueError). *)
Definition almost_zero (m : num) : bool :=
  match m with None => false | Some v => Qcltb v (qc (1 # (10 ^ 40))) && Qcltb (qc (-1 # (10 ^ 40))) v end.
Definition make_rv (family : string) (theta : list num) : result unit :=
  if String.eqb family "deterministic" then Err RuntimeError else
  if String.eqb family "normal" then
    match theta with m :: _ :: _ => if almost_zero m then Err ValueError else Ok tt | _ => Err ValueError end
  else if String.eqb family "lognormal" then (if Nat.eqb (List.length theta) 2 then Ok tt else Err ValueError)
  else Err ValueError.

(** The random variables of one component and decision variable, in one damage state
    (loss_model.py:2250-2297). A family outside of [supported_family] only gets here if Theta_0
    is missing. *)
Definition ds_rvs (dmg : qty_frame) (dv component ds : string) (p : ds_params) : result (list dv_rv) :=
  if String.eqb ds "0" then Ok [] else
  match p_family p with
  | None => Ok []
  | Some f =>
      match rv_thetas p with
      | [] => Err IndexError
      | th =>
          let* _ := make_rv f (map Some th) in
          Ok (map (fun c => RV dv (fst c) f th)
                  (columns_of dmg component ds))
      end
  end.

(** The damage states of a component in the quantities (loss_model.py:2214). *)
Definition states_of (dmg : qty_frame) (component : string) : list string :=
  unique String.eqb (map (fun c => snd (fst c)) (filter (fun c => String.eqb (cmp (fst (fst c))) component) dmg)).

Definition cmp_rvs (s : loss_setup) (dmg : qty_frame) (component consequence dv : string) : result (list dv_rv) :=
  if is_missing s consequence dv then Ok [] else
  match params s with
  | None => Err AssertionError
  | Some lp =>
      match aget pair_eqb (consequence, dv) (lp_rows lp) with
      | None => Ok []
      | Some row =>
          let* l := mapM (fun ds => ds_rvs dmg dv component ds (row_params row ds)) (states_of dmg component) in
          Ok (List.concat l)
      end
  end.

(** The name of a variable is 'dv-cmp-ds-loc-dir-uid'; the names are split again at every '-'
    and must have six parts (loss_model.py:1986-1991, 2285-2288). Names are unique
    (uq.py:2756-2764). Splitting gives back the six parts if none of them contains '-', and more
    than six otherwise, which is then rejected. *)
Definition rv_parts (r : dv_rv) : list string :=
  [rv_dv r; cmp (fst (rv_key r)); snd (rv_key r); loc (fst (rv_key r)); dir (fst (rv_key r)); uid (fst (rv_key r))].
Definition splits_cleanly (r : dv_rv) : bool := negb (existsb (has_char "-"%char) (rv_parts r)).
Fixpoint distinct_labels (l : list (list string)) : bool :=
  match l with [] => true | a :: tl => negb (existsb (label_eqb a) tl) && distinct_labels tl end.

Definition create_rvs (s : loss_setup) (dmg : qty_frame) : result (list dv_rv) :=
  let* l := mapM (fun c =>
      if existsb (fun q => String.eqb (cmp (fst (fst q))) (fst c)) dmg
      then let* k := mapM (cmp_rvs s dmg (fst c) (snd c)) (dvs s) in Ok (List.concat k)
      else Ok []) (loss_map s) in
  let rvs := List.concat l in
  if negb (forallb splits_cleanly rvs) then Err ValueError else
  if negb (distinct_labels (map rv_parts rvs)) then Err ValueError else Ok rvs.

(** ** The losses (loss_model.py:1996-2133) *)

(** Products with a NaN are NaN, which is replaced by zero in the end (loss_model.py:2131). *)
Definition loss_value (q m : num) (z : num) : num := Some (nfill0 (nmul (nmul q m) z)).

(** [dmg_i.mul(median_i, axis=0) * std_i] for one column; the deviations are aligned by location,
    direction and uid. *)
Definition loss_column (s : loss_setup) (rvs : list dv_rv) (prob : bool) (dv : string) (n : nat) (c : qkey * list num)
                       (med : list num) : list num :=
  map (fun i => let z := if prob then (if existsb (fun r => String.eqb (rv_dv r) dv && qkey_eqb (rv_key r) (fst c)) rvs
                                       then Some (draws s dv (fst c) i) else None)
                         else Some 1%Qc in
                loss_value (nth i (snd c) None) (nth i med None) z) (seq 0 n).

(** loss_model.py:2007-2013, 2044: [component in prob_cmp_list]. *)
Definition probabilistic (rvs : list dv_rv) (dv component : string) : bool :=
  existsb (fun r => String.eqb (rv_dv r) dv && String.eqb (cmp (fst (rv_key r))) component) rvs.

(** The losses of a component in a damage state (loss_model.py:2033-2100). *)
Definition ds_losses (n : nat) (s : loss_setup) (dmg : qty_frame) (rvs : list dv_rv) (dv : string)
                     (m : (string * string) * list num) : result ds_table :=
  let '((component, ds), med) := m in
  match dget component (loss_map s) with
  | None => Err KeyError
  | Some consequence =>
      match columns_of dmg component ds with
      | [] => Err KeyError
      | cols =>
          let prob := probabilistic rvs dv component in
          if prob && negb (existsb (fun r => String.eqb (rv_dv r) dv && String.eqb (cmp (fst (rv_key r))) component
                                             && String.eqb (snd (rv_key r)) ds) rvs)
          then Err KeyError
          else Ok (map (fun c => ((LK dv consequence component (loc (fst (fst c))) (dir (fst (fst c))) (uid (fst (fst c))), ds),
                                  loss_column s rvs prob dv n c med)) cols)
      end
  end.

(** loss_model.py:1921-1928: the set of damage states is {'0'}. *)
Definition all_undamaged (dmg : qty_frame) : bool :=
  match unique String.eqb (map (fun c => snd (fst c)) dmg) with [d] => String.eqb d "0" | _ => false end.

(** loss_model.py:1902-2135 [RepairModel_DS.calculate]. *)
Definition calculate_ds (n : nat) (e : eco) (s : loss_setup) (dmg : qty_frame) : result (option ds_table) :=
  if all_undamaged dmg then Ok None else
  let ecoq := eco_quantities n e dmg in
  let* meds := mapM (fun dv => let* m := medians_of e s ecoq dv in Ok (dv, m)) (dvs s) in
  let* rvs := create_rvs s dmg in
  let* l := mapM (fun dm => let* k := mapM (ds_losses n s dmg rvs (fst dm)) (snd dm) in Ok (List.concat k)) meds in
  match List.concat l with
  | [] => Err ValueError
  | t => Ok (Some t)
  end.
