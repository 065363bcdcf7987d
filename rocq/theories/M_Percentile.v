(** Model of pelicun/uq.py:995-1114: a distribution fitted to values at percentiles. The quantiles of
    the standard normal distribution and the search of [scipy.optimize.minimize] are arguments. A
    number that is not finite is [None] (NaN); the code has an infinite one where the value at the
    highest percentile is zero and the family is lognormal. *)
From Coq Require Import Reals Lra.
From Verif Require Import Prelude.
Local Open Scope string_scope.
Local Open Scope list_scope.
Local Open Scope R_scope.

Definition params := (option R * option R)%type.
(** Where the search ends, and the value there. *)
Definition search := (params -> option R) -> params -> params * option R.

(** [numpy.argmin]: the first NaN, otherwise the first of the least; [None] for no numbers, which is
    an error in the code. *)
Fixpoint first_nan (l : list (option R)) : option nat :=
  match l with [] => None | None :: _ => Some 0%nat | Some _ :: tl => option_map S (first_nan tl) end.
Fixpoint least_at (l : list R) : option (nat * R) :=
  match l with
  | [] => None
  | x :: tl => match least_at tl with
               | None => Some (0%nat, x)
               | Some (i, y) => if Rle_dec x y then Some (0%nat, x) else Some (S i, y)
               end
  end.
Definition argmin (l : list (option R)) : option nat :=
  match first_nan l with Some i => Some i | None => option_map fst (least_at (somes l)) end.
(** [numpy.argmax] of numbers without NaN *)
Definition argmax (l : list R) : option nat := argmin (map (fun x => Some (- x)) l).

(** uq.py:1021-1049 [_OLS_percentiles]; the family is one of the two *)
Definition ols (ppf : R -> R) (values perc : list R) (family : string) (p : params) : option R :=
  let sum (q : R -> R) := Some (fold_right Rplus 0 (map (fun vp => (q (snd vp) - fst vp) ^ 2) (combine values perc))) in
  if String.eqb family "normal" then
    match p with
    | (Some m, Some s) => if Rle_dec s 0 then Some (10 ^ 10) else sum (fun x => m + s * ppf x)
    | (None, Some s) => if Rle_dec s 0 then Some (10 ^ 10) else None
    | (_, None) => None
    end
  else
    match p with
    | (Some m, os) =>
        if Rle_dec m 0 then Some (10 ^ 10)
        else match os with
             | Some s => if Rle_dec s 0 then Some (10 ^ 10) else sum (fun x => exp (ln m + s * ppf x))
             | None => None
             end
    | (None, Some s) => if Rle_dec s 0 then Some (10 ^ 10) else None
    | (None, None) => None
    end.

(** A quotient; NaN for the logarithm of a number that is not positive, and for a zero divisor. *)
Definition quotient (a b : R) : option R := if Req_EM_T b 0 then None else Some (a / b).
Definition np_log (x : option R) : option R := match x with Some v => if Rlt_dec 0 v then Some (ln v) else None | None => None end.
(** uq.py:1086-1101: the initial parameters from the values at the percentile nearest to one half and
    at the highest percentile *)
Definition starting (ppf : R -> R) (family : string) (at_median at_extreme extreme : R) : params :=
  let spread := if String.eqb family "normal" then Some (Rabs (at_extreme - at_median))
                else option_map Rabs (np_log (quotient at_extreme at_median)) in
  (Some at_median, match spread with Some d => quotient d (Rabs (ppf extreme)) | None => None end).

(** uq.py:1052-1114 [fit_distribution_to_percentiles]. An unknown family is an error of the first
    evaluation of the error. A different number of values and percentiles is always an error here. *)
Definition fit_percentiles (ppf : R -> R) (minimize : search) (values perc : list R) (families : list string) : result (string * params) :=
  if negb (List.length values =? List.length perc)%nat then Err ValueError
  else
    match argmin (map (fun p => Some (Rabs (p - 1 / 2))) perc), argmax (map (fun p => p - 1 / 2) perc) with
    | Some median_id, Some extreme_id =>
        let* out := mapM (fun family =>
                            if mem family ["normal"; "lognormal"] then
                              Ok (minimize (ols ppf values perc family)
                                           (starting ppf family (nth median_id values 0) (nth extreme_id values 0) (nth extreme_id perc 0)))
                            else Err ValueError) families in
        match argmin (map snd out) with
        | Some best => Ok (nth best families EmptyString, fst (nth best out ((None, None), None)))
        | None => Err ValueError
        end
    | _, _ => Err ValueError
    end.
