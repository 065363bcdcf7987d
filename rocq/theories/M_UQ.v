(** Model of the random variables with exact arithmetic, of the random variable sets and of the
    registry (pelicun/uq.py:1117-1238, 1461-1474, 1522-1524, 1822-1917, 2051-2878).

    Simplifications: numbers are exact; a variable is identified by its name and its anchor is
    given by name; [f_map], data frames of samples and the densities of orthotopes are not
    modelled; the random numbers, the permutations and the Gaussian copula of a set are
    arguments. NotImplementedError is represented by its parent class RuntimeError,
    UnboundLocalError by its parent class NameError. *)
From Coq Require Import Qround.
From Verif Require Import Prelude M_LossDS.
Set Implicit Arguments.
Local Open Scope string_scope.
Local Open Scope list_scope.

(** ** Uniform variables *)

(** scipy's [uniform.ppf(q, loc=a, scale=b-a)]: NaN unless the scale is positive and 0 <= q <= 1. *)
Definition uniform_ppf (a b : num) (q : Qc) : num :=
  match a, b with
  | Some a, Some b => if Qcltb a b && Qcleb 0 q && Qcleb q 1 then Some (a + (b - a) * q)%Qc else None
  | _, _ => None
  end.
(** scipy's [uniform.cdf(x, loc=a, scale=b-a)]. *)
Definition uniform_cdf (a b : num) (x : Qc) : num :=
  match a, b with
  | Some a, Some b => if Qcltb a b then Some (Qcmax 0 (Qcmin 1 ((x - a) / (b - a))))%Qc else None
  | _, _ => None
  end.
(** uq.py:1876-1885, 1906-1915: the bounds in use. [theta] holds two numbers. *)
Definition uniform_bounds (theta : Qc * Qc) (limits : num * num) : num * num :=
  match limits with
  | (None, None) => (Some (fst theta), Some (snd theta))
  | _ => limits
  end.
(** uq.py:1889-1917 [UniformRandomVariable.inverse_transform], one value. *)
Definition uniform_inverse (theta : Qc * Qc) (limits : num * num) (u : Qc) : num :=
  let (a, b) := uniform_bounds theta limits in uniform_ppf a b u.
(** uq.py:1862-1887 [UniformRandomVariable.cdf], one value. *)
Definition uniform_var_cdf (theta : Qc * Qc) (limits : num * num) (x : Qc) : num :=
  let (a, b) := uniform_bounds theta limits in uniform_cdf a b x.

(** ** Multilinear CDF variables *)

(** [np.array_equal(np.sort(l), l)]. *)
Fixpoint ascending (l : list Qc) : bool :=
  match l with
  | x :: (y :: _) as tl => Qcleb x y && ascending tl
  | _ => true
  end.
(** [np.diff]. *)
Fixpoint diffs (l : list Qc) : list Qc :=
  match l with
  | x :: (y :: _) as tl => (y - x)%Qc :: diffs tl
  | _ => []
  end.
(** [np.isclose(d, 0.00)] with numpy's default absolute tolerance 1e-8. *)
Definition near_zero (d : Qc) : bool := Qcleb (- qc (1 # 100000000))%Qc d && Qcleb d (qc (1 # 100000000)).
(** uq.py:2063-2136 [MultilinearCDFRandomVariable.__init__]; [theta] is the list of the points
    (x, y); [truncated]: some truncation limit is not NaN. *)
Definition multilinear_init (truncated : bool) (theta : list (Qc * Qc)) : result (list (Qc * Qc)) :=
  if truncated then Err RuntimeError
  else match theta with
  | [] => Err IndexError
  | p :: _ =>
      if negb (Qceqb (snd p) 0) then Err ValueError
      else if negb (Qceqb (snd (last theta p)) 1) then Err ValueError
      else if negb (ascending (map fst theta)) then Err ValueError
      else if existsb near_zero (diffs (map fst theta)) then Err ValueError
      else if negb (ascending (map snd theta)) then Err ValueError
      else if existsb near_zero (diffs (map snd theta)) then Err ValueError
      else Ok theta
  end.
(** [np.interp(x, xs, ys)] on increasing abscissae. *)
Definition np_interp (points : list (Qc * Qc)) (x : Qc) : Qc :=
  match points with
  | [] => 0%Qc
  | (x0, y0) :: tl => if Qcltb x x0 then y0 else interp_from x0 y0 tl x
  end.
(** uq.py:2138-2157 [cdf]. The additional points (-inf, 0) and (inf, 1) make numpy return 0 before
    the first and 1 behind the last point: the slope of these segments is 0 as the ordinates of
    the first and of the last point are 0 and 1. *)
Definition multilinear_cdf (theta : list (Qc * Qc)) (x : Qc) : Qc :=
  match theta with
  | [] => 0%Qc
  | (x0, y0) :: tl =>
      if Qcltb x x0 then 0%Qc
      else if Qcltb (fst (last theta (x0, y0))) x then 1%Qc
      else interp_from x0 y0 tl x
  end.
(** uq.py:2159-2187 [inverse_transform], one value: interpolation with the axes swapped. *)
Definition multilinear_inverse (theta : list (Qc * Qc)) (u : Qc) : Qc :=
  np_interp (map (fun p => (snd p, fst p)) theta) u.

(** ** Empirical variables *)

(** [astype(int)]: rounding towards zero. *)
Definition to_int (q : Qc) : Z := Z.quot (Qnum (this q)) (Zpos (Qden (this q))).
(** Python's indexing: negative positions count from the end. *)
Definition index_at {A} (l : list A) (i : Z) : result A :=
  let j := if (i <? 0)%Z then (Z.of_nat (List.length l) + i)%Z else i in
  if (j <? 0)%Z then Err IndexError
  else match nth_error l (Z.to_nat j) with Some x => Ok x | None => Err IndexError end.
(** uq.py:2221-2245 [EmpiricalRandomVariable.inverse_transform], one value. *)
Definition empirical_inverse (theta : list Qc) (u : Qc) : result Qc :=
  index_at theta (to_int (u * qn (List.length theta))).
(** [np.tile(l, n)]. *)
Fixpoint tile {A} (l : list A) (n : nat) : list A :=
  match n with O => [] | S n => l ++ tile l n end.
(** uq.py:2300-2325 [CoupledEmpiricalRandomVariable.inverse_transform]. The quotient of the two
    counts is exact here. *)
Definition coupled_inverse (theta : list Qc) (n : nat) : result (list Qc) :=
  match theta with
  | [] => Err ZeroDivisionError
  | _ => Ok (firstn n (tile theta (n / List.length theta + 1)))
  end.
(** uq.py:2385-2400 [DeterministicRandomVariable.inverse_transform]. *)
Definition deterministic_inverse (theta : list Qc) (n : nat) : result (list Qc) :=
  match theta with
  | [] => Err IndexError
  | t :: _ => Ok (repeat t n)
  end.

(** ** Multinomial variables *)

(** uq.py:2408-2447 [MultinomialRandomVariable.__init__]. *)
Definition multinomial_init (truncated : bool) (theta : list Qc) : result (list Qc) :=
  if truncated then Err RuntimeError
  else if Qcltb 1 (qsum theta) then Err ValueError else Ok theta.
(** [np.cumsum]. *)
Fixpoint cumsum_from (acc : Qc) (l : list Qc) : list Qc :=
  match l with [] => [] | x :: tl => (acc + x)%Qc :: cumsum_from (acc + x) tl end.
Definition cumsum (l : list Qc) : list Qc := cumsum_from 0 l.
(** uq.py:2470-2474: the assignments to [values] (in place), one element. *)
Fixpoint mark (i : nat) (p_cum : list Qc) (v : Qc) : Qc :=
  match p_cum with
  | [] => v
  | p :: tl => mark (S i) tl (if Qcltb v p then qn (10 + i) else v)
  end.
Definition mark_all (theta : list Qc) (v : Qc) : Qc :=
  let p_cum := removelast (cumsum theta) in
  let v := mark 0 p_cum v in
  if Qcleb v 1 then qn (10 + List.length p_cum) else v.
(** uq.py:2449-2476 [MultinomialRandomVariable.inverse_transform]: what is left in the array that
    was passed, and the result. *)
Definition multinomial_inverse (theta values : list Qc) : list Qc * list Qc :=
  let values := map (mark_all theta) values in
  (values, map (fun v => v - qn 10)%Qc values).

(** ** Random variable sets *)

(** Positions in ascending order of the labels: [np.argsort]. *)
Definition argsort (names : list string) : list nat :=
  map snd (isort (fun a b => str_le (fst a) (fst b)) (combine names (seq 0 (List.length names)))).
Definition matrix := list (list Qc).
(** [m[positions]] for non-negative positions. *)
Definition take_rows {A} (m : list A) (ids : list nat) : result (list A) :=
  mapM (fun i => match nth_error m i with Some r => Ok r | None => Err IndexError end) ids.
(** [m.T]; all rows have the same length. *)
Definition transpose (m : matrix) : matrix :=
  match m with
  | [] => []
  | r :: _ => map (fun j => map (fun row => nth j row 0%Qc) m) (seq 0 (List.length r))
  end.
(** A set: the names in the order of its dictionary and the correlation matrix. *)
Record rvset := Set_ { s_names : list string; s_rho : matrix }.
(** uq.py:2505-2526 [RandomVariableSet.__init__]; the names are distinct. *)
Definition make_set (names : list string) (rho : matrix) : result rvset :=
  if (1 <? List.length names)%nat then
    let reorder := argsort names in
    let* sorted := take_rows names reorder in
    let* rows := take_rows rho reorder in
    let* cols := take_rows (transpose rows) reorder in
    Ok (Set_ sorted (transpose cols))
  else Ok (Set_ names rho).
(** [list.index]. *)
Fixpoint index_of (x : string) (l : list string) : result nat :=
  match l with
  | [] => Err ValueError
  | y :: tl => if String.eqb x y then Ok O else let* i := index_of x tl in Ok (S i)
  end.
(** uq.py:2567-2580 [RandomVariableSet.Rho]. *)
Definition set_rho (s : rvset) (subset : option (list string)) : result matrix :=
  match subset with
  | None => Ok (s_rho s)
  | Some names =>
      let* ids := mapM (fun n => index_of n (s_names s)) names in
      let* rows := take_rows (s_rho s) ids in
      take_rows (transpose rows) ids
  end.

(** ** The registry *)

(** How a variable turns its uniform values into its sample. [Transform]: the families whose
    transformation leaves its argument alone (normal, lognormal, uniform, Weibull, multilinear
    CDF, empirical; see [uniform_inverse] etc.). [Utility]: the deterministic and the coupled
    empirical variables, which only use the sample size. *)
Inductive kind :=
| Transform (f : list Qc -> result (list Qc))
| Multinomial (theta : list Qc)
| Utility (f : nat -> result (list Qc)).
(** uq.py:1131-1164: a variable; the anchor is the variable itself by default. *)
Record rv := RV { v_name : string; v_anchor : string; v_kind : kind }.
(** uq.py:2719-2733: variables and sets in the order of insertion. *)
Record registry := Reg { r_vars : list rv; r_sets : dict rvset }.
Definition find_rv (vars : list rv) (name : string) : option rv :=
  find (fun v => String.eqb (v_name v) name) vars.
(** uq.py:2764-2777 [add_RV]: the registry afterwards and the error raised, if any. *)
Definition add_rv (r : registry) (v : rv) : registry * option exn :=
  match find_rv (r_vars r) (v_name v) with
  | Some _ => (r, Some ValueError)
  | None => (Reg (r_vars r ++ [v]) (r_sets r), None)
  end.
(** uq.py:2792-2794 [add_RV_set]. *)
Definition add_rv_set (r : registry) (name : string) (s : rvset) : registry :=
  Reg (r_vars r) (dset name s (r_sets r)).

(** uq.py:1212-1225: the array read through [uni_sample], following the anchors. An anchor that is
    not in the registry has no sample. The fuel is the number of variables. *)
Fixpoint root_of (fuel : nat) (vars : list rv) (name : string) : option string :=
  match find_rv vars name with
  | None => None
  | Some v =>
      if String.eqb (v_anchor v) name then Some name
      else match fuel with O => None | S fuel => root_of fuel vars (v_anchor v) end
  end.
Definition uni_sample (vars : list rv) (unis : dict (list Qc)) (name : string) : option (list Qc) :=
  match root_of (List.length vars) vars name with Some r => dget r unis | None => None end.

(** uq.py:2828-2835: the variables that receive controlling samples. *)
Definition is_free (v : rv) : bool :=
  String.eqb (v_anchor v) (v_name v) || match v_kind v with Utility _ => true | _ => false end.
(** uq.py:2840-2853: one row of controlling samples per free variable. *)
Definition stratified (n : nat) (perm : list nat) (us : list Qc) : list Qc :=
  map (fun pu => (qn (fst pu) + snd pu) / qn n)%Qc (combine perm us).
Definition controlling (method : string) (n count : nat) (perms : list (list nat)) (draws : list (list Qc)) : result (list (list Qc)) :=
  if contains "LHS" method then
    if String.eqb method "LHS_midpoint" then
      Ok (map (fun p => stratified n p (repeat (qc (1 # 2)) n)) (firstn count perms))
    else if String.eqb method "LHS" then
      Ok (map (fun pd => stratified n (fst pd) (snd pd)) (firstn count (combine perms draws)))
    else Err NameError
  else if String.eqb method "MonteCarlo" then Ok (firstn count draws)
  else Err NameError.
(** uq.py:2856-2857 *)
Definition assign_rows (names : list string) (rows : list (list Qc)) (unis : dict (list Qc)) : dict (list Qc) :=
  fold_left (fun u nr => dset (fst nr) (snd nr) u) (combine names rows) unis.
(** uq.py:2582-2619 [apply_correlation]; [copula] computes the correlated rows from the matrix and
    the rows of the variables. Rows that are missing make the computation fail. *)
Definition correlate (copula : matrix -> list (list Qc) -> list (list Qc)) (vars : list rv) (unis : dict (list Qc)) (s : string * rvset) : result (dict (list Qc)) :=
  let* rows := mapM (fun n => match uni_sample vars unis n with Some u => Ok u | None => Err TypeError end) (s_names (snd s)) in
  Ok (assign_rows (s_names (snd s)) (copula (s_rho (snd s)) rows) unis).
(** The samples before and after a transformation: the uniform values and the results. *)
Record world := World { w_unis : dict (list Qc); w_samples : dict (list Qc) }.
(** uq.py:1461-1474, 1522-1524, 2871-2878 [inverse_transform_sampling] of one variable. The array
    handed to a multinomial variable is the one its anchor holds, and is modified in place. *)
Definition transform_one (vars : list rv) (n : nat) (w : world) (v : rv) : result world :=
  match v_kind v with
  | Utility f => let* s := f n in Ok (World (w_unis w) (dset (v_name v) s (w_samples w)))
  | Transform f =>
      match uni_sample vars (w_unis w) (v_name v) with
      | None => Err ValueError
      | Some u => let* s := f u in Ok (World (w_unis w) (dset (v_name v) s (w_samples w)))
      end
  | Multinomial theta =>
      match root_of (List.length vars) vars (v_name v) with
      | None => Err ValueError
      | Some r =>
          match dget r (w_unis w) with
          | None => Err ValueError
          | Some u =>
              let (left, s) := multinomial_inverse theta u in
              Ok (World (dset r left (w_unis w)) (dset (v_name v) s (w_samples w)))
          end
      end
  end.
(** uq.py:2828-2861: everything before the transformation. No free variable: the missing
    controlling samples are not looked at. *)
Definition uniforms (copula : matrix -> list (list Qc) -> list (list Qc)) (perms : list (list nat)) (draws : list (list Qc))
    (r : registry) (before : dict (list Qc)) (n : nat) (method : string) : result (dict (list Qc)) :=
  let free := map v_name (filter is_free (r_vars r)) in
  let* unis := match free with
    | [] => Ok before
    | _ => let* rows := controlling method n (List.length free) perms draws in Ok (assign_rows free rows before)
    end in
  foldM (correlate copula (r_vars r)) unis (r_sets r).
(** uq.py:2809-2878 [generate_sample] on the state left by earlier calls. *)
Definition generate_sample (copula : matrix -> list (list Qc) -> list (list Qc)) (perms : list (list nat)) (draws : list (list Qc))
    (r : registry) (w : world) (n : nat) (method : string) : result world :=
  let* unis := uniforms copula perms draws r (w_unis w) n method in
  foldM (transform_one (r_vars r) n) (World unis (w_samples w)) (r_vars r).
