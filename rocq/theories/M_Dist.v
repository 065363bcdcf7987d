(** Model of normal, lognormal and Weibull variables and of the scaling of distributions
    (pelicun/uq.py:60-142, 1343-1448, 1527-1819, 1920-2048).

    Numbers are reals; [xr] adds the infinities and NaN of floating point arithmetic. The
    standard normal cdf and its inverse are arguments. Truncation limits are one pair, the same
    for all realizations; [None] is NaN. *)
From Coq Require Import Reals.
From Verif Require Import Prelude.
Set Implicit Arguments.
Local Open Scope R_scope.

(** ** Extended reals *)

Inductive xr := MInf | Fin (r : R) | PInf | XNaN.
(** Probabilities: [None] is NaN. *)
Definition prob := option R.
(** uq.py:60: the smallest positive binary64 number. *)
Definition first_positive : R := / 2 ^ 1074.

(** [(lim - mu) / sig]. *)
Definition standardize (x : xr) (mu sig : R) : xr :=
  match x with
  | XNaN => XNaN
  | Fin r =>
      if Req_EM_T sig 0 then (if Req_EM_T r mu then XNaN else if Rlt_dec r mu then MInf else PInf)
      else Fin ((r - mu) / sig)
  | MInf => if Rlt_dec sig 0 then PInf else MInf
  | PInf => if Rlt_dec sig 0 then MInf else PInf
  end.
(** scipy's [norm.cdf(z)]. *)
Definition norm_cdf (Phi : R -> R) (z : xr) : prob :=
  match z with MInf => Some 0 | PInf => Some 1 | Fin r => Some (Phi r) | XNaN => None end.
(** scipy's [norm.cdf(x, loc, scale)]: NaN unless the scale is positive. *)
Definition norm_cdf_at (Phi : R -> R) (x : xr) (loc scale : R) : prob :=
  if Rlt_dec 0 scale then norm_cdf Phi (standardize x loc scale) else None.
(** scipy's [norm.ppf(q, loc, scale)]. *)
Definition norm_ppf (ppf : R -> R) (q : prob) (loc scale : R) : xr :=
  match q with
  | None => XNaN
  | Some q =>
      if Rlt_dec 0 scale then
        if Req_EM_T q 0 then MInf else if Req_EM_T q 1 then PInf
        else if Rlt_dec 0 q then (if Rlt_dec q 1 then Fin (loc + scale * ppf q) else XNaN) else XNaN
      else XNaN
  end.
(** [np.log] and [np.exp]. *)
Definition xlog (x : xr) : xr :=
  match x with
  | Fin r => if Rlt_dec 0 r then Fin (ln r) else if Req_EM_T r 0 then MInf else XNaN
  | PInf => PInf
  | _ => XNaN
  end.
Definition xexp (x : xr) : xr :=
  match x with Fin r => Fin (exp r) | MInf => Fin 0 | PInf => PInf | XNaN => XNaN end.
(** scipy's [weibull_min.cdf(x, kappa, scale=lambda)]. *)
Definition weibull_cdf (kappa lambda : R) (x : xr) : prob :=
  if Rlt_dec 0 kappa then
    if Rlt_dec 0 lambda then
      match x with
      | MInf => Some 0
      | PInf => Some 1
      | XNaN => None
      | Fin r => Some (if Rlt_dec 0 r then 1 - exp (- Rpower (r / lambda) kappa) else 0)
      end
    else None
  else None.
(** scipy's [weibull_min.ppf(q, kappa, scale=lambda)]. *)
Definition weibull_ppf (kappa lambda : R) (q : prob) : xr :=
  if Rlt_dec 0 kappa then
    if Rlt_dec 0 lambda then
      match q with
      | None => XNaN
      | Some q =>
          if Req_EM_T q 0 then Fin 0 else if Req_EM_T q 1 then PInf
          else if Rlt_dec 0 q then (if Rlt_dec q 1 then Fin (lambda * Rpower (- ln (1 - q)) (/ kappa)) else XNaN) else XNaN
      end
    else XNaN
  else XNaN.
(** [np.maximum] and [np.minimum]: NaN if one of the arguments is NaN. *)
Definition xmax (x y : xr) : xr :=
  match x, y with
  | XNaN, _ | _, XNaN => XNaN
  | MInf, z | z, MInf => z
  | PInf, _ | _, PInf => PInf
  | Fin a, Fin b => Fin (Rmax a b)
  end.
Definition xmin (x y : xr) : xr :=
  match x, y with
  | XNaN, _ | _, XNaN => XNaN
  | PInf, z | z, PInf => z
  | MInf, _ | _, MInf => MInf
  | Fin a, Fin b => Fin (Rmin a b)
  end.

(** ** Truncation *)

Definition limits := (option R * option R)%type.
(** [np.nan_to_num(lim, nan=d)]. *)
Definition limit_or (l : option R) (d : xr) : xr := match l with Some r => Fin r | None => d end.
(** [np.any(~np.isnan(truncation_limits))]. *)
Definition truncated (l : limits) : bool := match l with (None, None) => false | _ => true end.
(** uq.py:1419-1448 [_ensure_positive_probability_difference]; a comparison with NaN is false. *)
Definition too_small (p_b p_a : prob) : bool :=
  match p_b, p_a with
  | Some p_b, Some p_a => if Rlt_dec (p_b - p_a) first_positive then true else false
  | _, _ => false
  end.
(** [values * (p_b - p_a) + p_a] *)
Definition rescale (u : R) (p_b p_a : prob) : prob :=
  match p_b, p_a with Some p_b, Some p_a => Some (u * (p_b - p_a) + p_a) | _, _ => None end.
(** [(p_vals - p_a) / (p_b - p_a)] *)
Definition unscale (p p_b p_a : prob) : prob :=
  match p, p_b, p_a with Some p, Some p_b, Some p_a => Some ((p - p_a) / (p_b - p_a)) | _, _, _ => None end.

(** ** Normal variables *)

(** uq.py:1597-1635 [NormalRandomVariable.inverse_transform], one value. *)
Definition normal_inverse (Phi ppf : R -> R) (theta : R * R) (l : limits) (u : R) : result xr :=
  let (mu, sig) := theta in
  if truncated l then
    let a := limit_or (fst l) MInf in
    let b := limit_or (snd l) PInf in
    let p_a := norm_cdf Phi (standardize a mu sig) in
    let p_b := norm_cdf Phi (standardize b mu sig) in
    if too_small p_b p_a then Err ValueError else Ok (norm_ppf ppf (rescale u p_b p_a) mu sig)
  else Ok (norm_ppf ppf (Some u) mu sig).
(** uq.py:1552-1594 [NormalRandomVariable.cdf], one value. *)
Definition normal_cdf (Phi : R -> R) (theta : R * R) (l : limits) (x : xr) : result prob :=
  let (mu, sig) := theta in
  if truncated l then
    let a := limit_or (fst l) MInf in
    let b := limit_or (snd l) PInf in
    let p_a := norm_cdf Phi (standardize a mu sig) in
    let p_b := norm_cdf Phi (standardize b mu sig) in
    if too_small p_b p_a then Err ValueError
    else Ok (unscale (norm_cdf_at Phi (xmin (xmax x a) b) mu sig) p_b p_a)
  else Ok (norm_cdf_at Phi x mu sig).
(** uq.py:1649-1660 [Normal_STD.__init__]: the parameters of the normal variable. *)
Definition normal_std_init (theta : R * R) : result (R * R) := Ok theta.
(** uq.py:1674-1700 [Normal_COV.__init__]; 1e-40. *)
Definition normal_cov_init (theta : R * R) : result (R * R) :=
  let (mean, cov) := theta in
  if Rlt_dec (Rabs mean) (/ 10 ^ 40) then Err ValueError else Ok (mean, mean * cov).

(** ** Lognormal variables *)

(** uq.py:1776-1819 [LogNormalRandomVariable.inverse_transform], one value. *)
Definition lognormal_inverse (Phi ppf : R -> R) (theta : R * R) (l : limits) (u : R) : result xr :=
  let (median, beta) := theta in
  if truncated l then
    let a := match fst l with
      | None => Fin first_positive
      | Some r => if Rle_dec r 0 then Fin first_positive else Fin r
      end in
    let b := limit_or (snd l) PInf in
    let p_a := norm_cdf Phi (standardize (xlog a) (ln median) beta) in
    let p_b := norm_cdf Phi (standardize (xlog b) (ln median) beta) in
    if too_small p_b p_a then Err ValueError
    else Ok (xexp (norm_ppf ppf (rescale u p_b p_a) (ln median) beta))
  else Ok (xexp (norm_ppf ppf (Some u) (ln median) beta)).
(** uq.py:1728-1774 [LogNormalRandomVariable.cdf], one value. *)
Definition lognormal_cdf (Phi : R -> R) (theta : R * R) (l : limits) (x : xr) : result prob :=
  let (median, beta) := theta in
  if truncated l then
    let a := limit_or (fst l) (Fin first_positive) in
    let b := limit_or (snd l) PInf in
    let p_a := norm_cdf Phi (standardize (xlog a) (ln median) beta) in
    let p_b := norm_cdf Phi (standardize (xlog b) (ln median) beta) in
    if too_small p_b p_a then Err ValueError
    else Ok (unscale (norm_cdf_at Phi (xlog (xmin (xmax x a) b)) (ln median) beta) p_b p_a)
  else Ok (norm_cdf_at Phi (xlog (xmax x (Fin first_positive))) (ln median) beta).

(** ** Weibull variables *)

(** uq.py:2007-2048 [WeibullRandomVariable.inverse_transform], one value; [theta] holds the scale
    and the shape. *)
Definition weibull_inverse (theta : R * R) (l : limits) (u : R) : result xr :=
  let (lambda, kappa) := theta in
  if truncated l then
    let a := match fst l with None => Fin 0 | Some r => Fin (Rmax 0 r) end in
    let b := limit_or (snd l) PInf in
    let p_a := weibull_cdf kappa lambda a in
    let p_b := weibull_cdf kappa lambda b in
    if too_small p_b p_a then Err ValueError else Ok (weibull_ppf kappa lambda (rescale u p_b p_a))
  else Ok (weibull_ppf kappa lambda (Some u)).
(** uq.py:1960-2005 [WeibullRandomVariable.cdf], one value. *)
Definition weibull_var_cdf (theta : R * R) (l : limits) (x : xr) : result prob :=
  let (lambda, kappa) := theta in
  if truncated l then
    let a := limit_or (fst l) (Fin 0) in
    let b := limit_or (snd l) PInf in
    let p_a := weibull_cdf kappa lambda a in
    let p_b := weibull_cdf kappa lambda b in
    if too_small p_b p_a then Err ValueError
    else Ok (unscale (weibull_cdf kappa lambda (xmin (xmax x a) b)) p_b p_a)
  else Ok (weibull_cdf kappa lambda (xmax x (Fin 0))).

(** ** All values of a sample *)

(** The parameters: the same for all realizations, or one pair for each. *)
Inductive theta_array := Constant (theta : R * R) | Variable_ (rows : list (R * R)).
(** uq.py:1343-1417 [_prepare_theta_and_truncation_limit_arrays] and the evaluation of all values;
    [f] is one of the transformations above. *)
Definition transform_values (f : R * R -> limits -> R -> result xr) (theta : theta_array) (l : limits) (us : list R) : result (list xr) :=
  match theta with
  | Constant t => mapM (f t l) us
  | Variable_ rows =>
      if (List.length us =? List.length rows)%nat then mapM (fun tu => f (fst tu) l (snd tu)) (combine rows us) else Err ValueError
  end.

(** ** Scaling *)

(** uq.py:63-142 [scale_distribution] for two parameters, over any type of numbers with a
    multiplication; [None] is NaN, also as a family. *)
Definition scale_distribution {N : Type} (mul : N -> N -> N) (f : N) (family : option string) (theta : option N * option N)
    (l : option (option N * option N)) : result ((option N * option N) * option (option N * option N)) :=
  let times x := match x with Some v => Some (mul v f) | None => None end in
  let l' := match l with Some (a, b) => Some (times a, times b) | None => None end in
  let fam := match family with Some s => s | None => "deterministic"%string end in
  let (t0, t1) := theta in
  if String.eqb fam "normal_std" then Ok ((times t0, times t1), l')
  else if (String.eqb fam "normal" || String.eqb fam "normal_cov")%bool then Ok ((times t0, t1), l')
  else if String.eqb fam "lognormal" then Ok ((times t0, t1), l')
  else if String.eqb fam "uniform" then Ok ((times t0, times t1), l')
  else if (String.eqb fam "deterministic" || String.eqb fam "multilinear_CDF")%bool then Ok ((times t0, None), l')
  else Err ValueError.
(** uq.py:119-141: the same for a table of points (x, y), as multilinear CDF variables have it:
    [theta[0]] is the first row. *)
Definition scale_points (f : Qc) (theta : list (Qc * Qc)) : list (num * num) :=
  match theta with
  | [] => []
  | p :: tl => (Some (fst p * f)%Qc, Some (snd p * f)%Qc) :: map (fun _ => (None, None)) tl
  end.
