(** Specification vocabulary for the fitting of distributions. *)
From Coq Require Import Reals.
From Verif Require Import Prelude M_Dist S_Dist M_Fit.
Set Implicit Arguments.
Local Open Scope string_scope.
Local Open Scope list_scope.
Local Open Scope R_scope.

(** ** Statistics *)

Definition total (xs : list R) : R := fold_right Rplus 0 xs.
Definition average (xs : list R) : R := total xs / INR (List.length xs).
Definition covariance (xs ys : list R) : R :=
  average (map (fun p => (fst p - average xs) * (snd p - average ys)) (combine xs ys)).
Definition variance (xs : list R) : R := covariance xs xs.
Definition deviation (xs : list R) : R := sqrt (variance xs).
(** Pearson's coefficient; demands that do not vary are not correlated. *)
Definition pearson (xs ys : list R) : R :=
  if Req_EM_T (variance xs) 0 then 0 else if Req_EM_T (variance ys) 0 then 0
  else covariance xs ys / (deviation xs * deviation ys).

(** ** Inputs *)

Definition families : list string := ["normal"; "normal_cov"; "normal_std"; "lognormal"].
(** The values that are supposed to be normal. *)
Definition normal_values (fam : string) (xs : list R) : list R := if String.eqb fam "lognormal" then map ln xs else xs.
(** Limits for [n] demands: a row for each or one row for all. *)
Definition rows_for {A} (n : nat) (a : array A) : Prop := List.length (content a) = n \/ List.length (content a) = 1%nat.
Definition no_limits (a : array bounds) : Prop := forall l, In l (content a) -> l = (XNaN, XNaN).
(** Samples of [m] realizations for each of [fams], positive where the logarithm is taken. *)
Definition fits (m : nat) (fams : list string) (xs : matrix) : Prop :=
  List.length fams = List.length xs /\ (0 < m)%nat /\ (forall x, In x xs -> List.length x = m) /\ (forall f, In f fams -> In f families) /\
  (forall i xs_i, nth_error fams i = Some "lognormal" -> nth_error xs i = Some xs_i -> Forall (fun x => 0 < x) xs_i).

(** The cdf of a continuous distribution on the whole line and its inverse. *)
Definition inverse_pair (T : tools) : Prop := (forall x, 0 < cdf T x < 1) /\ (forall x, ppf T (cdf T x) = x).

(** ** Matrices *)

Definition sum_n (n : nat) (f : nat -> R) : R := total (map f (seq 0 n)).
Definition square_matrix (n : nat) (a : matrix) : Prop := List.length a = n /\ Forall (fun r => List.length r = n) a.
Definition symmetric (n : nat) (a : matrix) : Prop := forall i j, (i < n)%nat -> (j < n)%nat -> at_ a i j = at_ a j i.
Definition quadratic (n : nat) (a : matrix) (v : nat -> R) : R := sum_n n (fun i => sum_n n (fun j => v i * at_ a i j * v j)).
Definition semidefinite (n : nat) (a : matrix) : Prop := forall v, 0 <= quadratic n a v.
(** A matrix that decomposes is positive definite; the singular value decomposition of a symmetric
    semidefinite matrix gives the matrix back. *)
Definition linear_algebra (T : tools) : Prop :=
  (forall n a v, square_matrix n a -> decomposes T a = true -> (exists i, (i < n)%nat /\ v i <> 0) -> 0 < quadratic n a v) /\
  (forall n a, square_matrix n a -> symmetric n a -> semidefinite n a -> decomposes T a = false -> recomposed T a = Some a) /\
  (forall n a b, square_matrix n a -> recomposed T a = Some b -> square_matrix n b /\ symmetric n b).

(** [u s u^T], if [a = u s v^T] is a singular value decomposition: the semidefinite root of [a a^T]. *)
Definition root (n : nat) (a b : matrix) : Prop :=
  square_matrix n b /\ symmetric n b /\ semidefinite n b /\
  forall i j, (i < n)%nat -> (j < n)%nat -> sum_n n (fun k => at_ b i k * at_ b k j) = sum_n n (fun k => at_ a i k * at_ a j k).

(** ** Results *)

(** The parameters that describe a distribution with the moments of the values. *)
Definition moments (fam : string) (xs : list R) (theta : R * xr) : Prop :=
  match fam with
  | "lognormal" => theta = (exp (average (map ln xs)), Fin (deviation (map ln xs)))
  | "normal_std" => theta = (average xs, Fin (deviation xs))
  | _ => theta = (average xs, Fin (deviation xs / Rabs (average xs)))
  end.
(** They can be represented: the values vary, and the mean is not (almost) zero if it is a divisor. *)
Definition has_moments (fam : string) (xs : list R) : Prop :=
  variance (normal_values fam xs) <> 0 /\ (In fam ["normal"; "normal_cov"] -> / 10 ^ 40 <= Rabs (average xs)).

(** ** Other units *)

Definition scaled (c : R) (xs : list R) : list R := map (Rmult c) xs.
(** The parameters of [c X], if those of [X] are given: a coefficient of variation and a dispersion
    have no unit. *)
Definition in_units (c : R) (fam : string) (theta : R * xr) : R * xr :=
  (c * fst theta, if String.eqb fam "normal_std" then match snd theta with Fin s => Fin (c * s) | x => x end else snd theta).

(** ** Limits *)

(** The limits of the variable [i]. *)
Definition limit_of (n : nat) (a : array bounds) (i : nat) : option bounds :=
  match content a with [l] => if (i <? n)%nat then Some l else None | ls => nth_error ls i end.
Definition inside (l : bounds) (x : R) : Prop := ~ above x (snd l) /\ ~ below x (fst l).
(** A limit that is not negative. *)
Definition nonnegative_limit (l : xr) : Prop := match l with Fin h => 0 <= h | MInf => False | _ => True end.
(** The variable has a limit of its own. *)
Definition limited (l : bounds) : Prop := given (fst l) = true \/ given (snd l) = true.
(** The end [e] of the interval that covers those that end at [t] and [d]: the farther one, as
    [before] orders them; a missing limit does not count. *)
Definition outer (before : xr -> xr -> Prop) (t d e : xr) : Prop :=
  match given t, given d with
  | true, true => (e = t \/ e = d) /\ before e t /\ before e d
  | true, false => e = t
  | false, true => e = d
  | false, false => e = XNaN
  end.
(** [l] covers the truncation limits [t] and the detection limits [d] and nothing more. *)
Definition widest (t d l : bounds) : Prop := outer xle (fst t) (fst d) (fst l) /\ outer (fun x y => xle y x) (snd t) (snd d) (snd l).
