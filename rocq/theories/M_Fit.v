(** Model of the fitting of distributions to samples (pelicun/uq.py:234-490, 684-992).

    Numbers are reals; limits are extended reals, where [XNaN] is no limit. The standard normal cdf
    and its inverse, the minimization, the likelihood inside the bounds, the Cholesky test and the
    product made from a singular value decomposition are arguments. The replacement of
    probabilities that are rounded to 0 or 1 (378-379) has no counterpart in exact arithmetic. Not
    modelled: samples without realizations, families and limits that are fewer than the variables,
    infinities stored in arrays of integers, warnings. *)
From Coq Require Import Reals.
From Verif Require Import Prelude M_Dist.
Set Implicit Arguments.
Local Open Scope string_scope.
Local Open Scope list_scope.
Local Open Scope R_scope.

Notation bounds := (xr * xr)%type.
Notation matrix := (list (list R)).

(** ** What is computed elsewhere *)

Record tools := Tools {
  cdf : R -> R;
  ppf : R -> R;
  (* scipy's [minimize] with BFGS: the objective and the initial values *)
  minimize : (list R -> R) -> list R -> list R;
  (* uq.py:598-681: initial values, samples, families, truncation and detection limits, number of
     censored realizations *)
  likelihood : list (R * R) -> matrix -> list string -> list bounds -> list bounds -> nat -> list R -> R;
  (* uq.py:462: the Cholesky decomposition exists *)
  decomposes : matrix -> bool;
  (* uq.py:467-477: [u @ diag(s) @ u.T], if the decomposition converges *)
  recomposed : matrix -> option matrix }.

(** ** Arrays of the caller *)

(** Two-dimensional data as it is passed: an array of numpy shares its memory with the function
    ([np.atleast_2d] returns it as it is), a list is copied. Arrays of whole numbers drop the
    fraction of what is stored in them. *)
Record array (A : Type) := Array { shared : bool; whole : bool; content : list A }.
Definition truncated (x : R) : R := if Rle_dec 0 x then IZR (Int_part x) else - IZR (Int_part (- x)).
Definition store (w : bool) (x : R) : R := if w then truncated x else x.
Definition xstore (w : bool) (x : xr) : xr := match x with Fin r => Fin (store w r) | _ => x end.

(** uq.py:770-779: a single row is repeated for all variables, in a new array. *)
Definition tile {A} (n : nat) (a : array A) : array A :=
  match content a with
  | [x] => if (n =? 1)%nat then a else Array false (whole a) (repeat x n)
  | _ => a
  end.

(** ** Logarithms (uq.py:782-793) *)

Definition log_row (w : bool) (fam : string) (xs : list R) : result (list R) :=
  if String.eqb fam "lognormal" then
    (* values that are not positive end in the error of 938-946 *)
    mapM (fun x => if Rlt_dec 0 x then Ok (store w (ln x)) else Err ValueError) xs
  else Ok xs.
Definition log_limit (w : bool) (x : xr) : xr := match x with XNaN => XNaN | _ => xstore w (xlog x) end.
Definition log_limits (w : bool) (fam : string) (l : bounds) : bounds :=
  if String.eqb fam "lognormal" then (log_limit w (fst l), log_limit w (snd l)) else l.

(** ** Initial values (uq.py:795-820) *)

Fixpoint rsum (l : list R) : R := match l with [] => 0 | x :: tl => x + rsum tl end.
Definition np_mean (l : list R) : R := rsum l / INR (List.length l).
Definition np_std (l : list R) : R := sqrt (np_mean (map (fun x => (x - np_mean l) * (x - np_mean l)) l)).
Definition supported (fam : string) : bool := mem fam ["normal"; "normal_cov"; "normal_std"; "lognormal"].
Definition initial (xs : list R) : R * R :=
  let mu := np_mean xs in
  let sig := if (List.length xs =? 1)%nat then 0 else np_std xs in
  (mu, if Req_EM_T sig 0 then / 10 ^ 6 * Rabs mu + first_positive else sig).

(** ** Parameters (uq.py:234-284 [_get_theta]) *)

Definition get_theta (fam : string) (init p : R * R) : result (R * R) :=
  if String.eqb fam "lognormal" then Ok (fst init + fst p, exp (ln (snd init) + snd p))
  else if mem fam ["normal"; "normal_std"] then Ok (fst init + fst p, snd init + snd p)
  else if String.eqb fam "normal_cov" then
    let sig := exp (ln (snd init) + snd p) in Ok (fst init + fst p * sig, sig)
  else Err ValueError.

(** ** Standard normal space (uq.py:287-418) *)

Definition limit_prob (T : tools) (none : R) (l : xr) (theta : R * R) : R :=
  match norm_cdf (cdf T) (standardize l (fst theta) (snd theta)) with Some p => p | None => none end.
Definition above (x : R) (l : xr) : Prop := match l with Fin h => h < x | MInf => True | _ => False end.
Definition below (x : R) (l : xr) : Prop := match l with Fin h => x < h | PInf => True | _ => False end.
Definition above_dec x l : {above x l} + {~ above x l}.
Proof. destruct l; cbn; [now left|apply Rlt_dec|now right|now right]. Defined.
Definition below_dec x l : {below x l} + {~ below x l}.
Proof. destruct l; cbn; [now right|apply Rlt_dec|now left|now right]. Defined.
(** NaN and infinite results end in the error of 938-946. *)
Definition std_value (T : tools) (l : bounds) (theta : R * R) (x : R) : result R :=
  let p_a := limit_prob T 0 (fst l) theta in
  let p_b := limit_prob T 1 (snd l) theta in
  let u := (cdf T ((x - fst theta) / snd theta) - p_a) / (p_b - p_a) in
  if Rlt_dec 0 (snd theta) then
    if Req_EM_T (p_b - p_a) 0 then Err ValueError
    else if Rlt_dec 0 u then (if Rlt_dec u 1 then Ok (ppf T u) else Err ValueError) else Err ValueError
  else Err ValueError.
Definition std_row (T : tools) (fam : string) (l : bounds) (theta : R * R) (xs : list R) : result (list R) :=
  if supported fam then
    if existsb (fun x => if above_dec x (snd l) then true else if below_dec x (fst l) then true else false) xs then Err ValueError
    else mapM (std_value T l theta) xs
  else Err ValueError.

(** ** Correlations (uq.py:421-492) *)

Definition product (a b : list R) : R := rsum (map (fun p => fst p * snd p) (combine a b)).
Definition tabulate (n : nat) (f : nat -> nat -> R) : matrix := map (fun i => map (f i) (seq 0 n)) (seq 0 n).
Definition at_ (m : matrix) (i j : nat) : R := nth j (nth i m []) 0.
(** 448-458 *)
Definition raw_correlation (n : nat) (z : matrix) : matrix :=
  tabulate (List.length z) (fun i j => if (i =? j)%nat then 1 else product (nth (Nat.min i j) z []) (nth (Nat.max i j) z []) / INR n).
Definition greatest (m : matrix) : R := match List.concat m with [] => 0 | x :: tl => fold_left Rmax tl x end.
Definition least (m : matrix) : R := match List.concat m with [] => 0 | x :: tl => fold_left Rmin tl x end.
Definition unit_diagonal (m : matrix) : matrix := tabulate (List.length m) (fun i j => if (i =? j)%nat then 1 else at_ m i j).
Definition divided (m : matrix) (c : R) : matrix := map (map (fun x => x / c)) m.
Definition std_correlation (T : tools) (n : nat) (z : matrix) : option matrix :=
  let rho := raw_correlation n z in
  if decomposes T rho then Some rho
  else match recomposed T rho with
       | None => None
       | Some b =>
           let rho := unit_diagonal b in
           if Rlt_dec (101 / 100) (greatest rho) then None
           else if Rlt_dec (least rho) (- (101 / 100)) then None
           else
             let rho := if Rlt_dec 1 (greatest rho) then divided rho (greatest rho) else rho in
             Some (if Rlt_dec (least rho) (-1) then divided rho (Rabs (least rho)) else rho)
       end.
Definition uncorrelated (n : nat) : matrix := tabulate n (fun i j => if (i =? j)%nat then 1 else 0).

(** ** The fit *)

Definition given (l : xr) : bool := match l with XNaN => false | _ => true end.
Definition some_given (ls : list bounds) : bool := existsb (fun l => given (fst l) || given (snd l)) ls.
Definition xmin (a b : xr) : xr :=
  match a, b with
  | MInf, _ | _, MInf => MInf
  | PInf, x | x, PInf => x
  | Fin a, Fin b => Fin (Rmin a b)
  | _, _ => XNaN
  end.
Definition xmax (a b : xr) : xr :=
  match a, b with
  | PInf, _ | _, PInf => PInf
  | MInf, x | x, MInf => x
  | Fin a, Fin b => Fin (Rmax a b)
  | _, _ => XNaN
  end.
(** uq.py:851-868: limits used to fit one variable. *)
Definition marginal_limits (tr det : bounds) : bounds :=
  let choose (m : xr -> xr -> xr) (t d : xr) := if given d then (if given t then m t d else d) else t in
  (choose xmin (fst tr) (fst det), choose xmax (snd tr) (snd det)).
(** uq.py:585-596: outside the bounds, a large value. [lo] and [hi] for each parameter. *)
Definition objective (lo hi : list R) (f : list R -> R) (params : list R) : R :=
  if forallb (fun p => if Rlt_dec (fst (fst p)) (snd p) then (if Rlt_dec (snd p) (snd (fst p)) then true else false) else false)
             (combine (combine lo hi) params)
  then f params else 10 ^ 10.
(** uq.py:827-831: the flattened bounds of all variables. *)
Definition flat_bounds (n : nat) : list R := List.concat (repeat [10; 5] n).
Definition pair_at (l : list R) (i : nat) : R * R := (nth (2 * i) l 0, nth (2 * i + 1) l 0).
(** uq.py:846-896: one variable; [bnd_lower[dim]] is one number, the bound of both parameters. *)
Definition fit_marginal (T : tools) (n dim : nat) (v : string * list R * (bounds * bounds) * (R * R)) : result (R * R) :=
  let '(fam, xs, (tr, det), init) := v in
  if supported fam then
    let b := nth dim (flat_bounds n) 0 in
    let f := likelihood T [init] [xs] [fam] [marginal_limits tr det] [(XNaN, XNaN)] 0 in
    get_theta fam init (pair_at (minimize T (objective [- b; - b] [b; b] f) [0; 0]) 0)
  else Err ValueError.
(** uq.py:834-929 *)
Definition parameters (T : tools) (fams : list string) (xs : matrix) (tr det : list bounds) (count : nat) (multi : bool) : result (list (R * R)) :=
  let n := List.length xs in
  let inits := map initial xs in
  let few := match xs with x :: _ => (List.length x <? 3)%nat | [] => true end in
  if few || negb (some_given tr || some_given det) then Ok inits
  else
    let* inits := mapM (fun iv => fit_marginal T n (fst iv) (snd iv))
                       (combine (seq 0 n) (combine (combine (combine fams xs) (combine tr det)) inits)) in
    if multi || (0 <? count)%nat then
      let lo := map Ropp (flat_bounds n) in
      let out := minimize T (objective lo (flat_bounds n) (likelihood T inits xs fams tr det count)) (repeat 0 (2 * n)) in
      mapM (fun ip => get_theta (fst (snd ip)) (snd (snd ip)) (pair_at out (fst ip))) (combine (seq 0 n) (combine fams inits))
    else Ok inits.
(** uq.py:974-990 *)
Definition reported (fam : string) (theta : R * R) : R * xr :=
  if String.eqb fam "lognormal" then (exp (fst theta), Fin (snd theta))
  else if mem fam ["normal"; "normal_cov"] then
    (fst theta, if Rlt_dec (Rabs (fst theta)) (/ 10 ^ 40) then PInf else Fin (snd theta / Rabs (fst theta)))
  else (fst theta, Fin (snd theta)).

(** What the caller has afterwards in the place of its argument. *)
Definition afterwards {A} (a used : array A) (now : list A) : array A :=
  if shared a && shared used then Array (shared a) (whole a) now else a.
(** uq.py:684-992 [fit_distribution_to_sample]: parameters, correlations, and the three arrays of
    the caller after the call. *)
Definition fit (T : tools) (raw : array (list R)) (fams : list string) (tr : array bounds) (count : nat) (det : array bounds) (multi : bool)
  : result (list (R * xr) * matrix * (array (list R) * array bounds * array bounds)) :=
  let n := List.length (content raw) in
  let tr' := tile n tr in
  let det' := tile n det in
  let fams := match fams with [f] => repeat f n | _ => fams end in
  if negb ((List.length fams =? n) && (List.length (content tr') =? n) && (List.length (content det') =? n))%nat then Err IndexError
  else if existsb (fun x => match x with [] => true | _ => false end) (content raw) then Err ValueError
  else
    let* xs := mapM (fun fx => log_row (whole raw) (fst fx) (snd fx)) (combine fams (content raw)) in
    let trs := map (fun fl => log_limits (whole tr') (fst fl) (snd fl)) (combine fams (content tr')) in
    let dets := map (fun fl => log_limits (whole det') (fst fl) (snd fl)) (combine fams (content det')) in
    let* thetas := parameters T fams xs trs dets count multi in
    let* z := mapM (fun v => std_row T (fst (fst (fst v))) (snd (fst (fst v))) (snd (fst v)) (snd v)) (combine (combine (combine fams trs) thetas) xs) in
    let rho := match std_correlation T (match xs with x :: _ => List.length x | [] => 0 end) z with Some r => r | None => uncorrelated n end in
    Ok (map (fun ft => reported (fst ft) (snd ft)) (combine fams thetas), rho,
        (afterwards raw raw xs, afterwards tr tr' trs, afterwards det det' dets)).
