(** Specification vocabulary for truncated and scaled distributions. *)
From Coq Require Import Reals.
From Verif Require Import Prelude M_Dist.
Set Implicit Arguments.
Local Open Scope R_scope.

(** ** Order; NaN is not comparable with anything *)

Definition xle (x y : xr) : Prop :=
  match x, y with
  | XNaN, _ | _, XNaN => False
  | MInf, _ | _, PInf => True
  | Fin a, Fin b => a <= b
  | _, _ => False
  end.
Definition xlt (x y : xr) : Prop :=
  match x, y with
  | XNaN, _ | _, XNaN => False
  | MInf, MInf | PInf, PInf => False
  | MInf, _ | _, PInf => True
  | Fin a, Fin b => a < b
  | _, _ => False
  end.
(** [x] respects the limits given by the user. *)
Definition within (l : limits) (x : xr) : Prop :=
  x <> XNaN /\ (forall a, fst l = Some a -> xle (Fin a) x) /\ (forall b, snd l = Some b -> xle x (Fin b)).

(** The limits in use: lognormal values are never below the smallest positive number if some limit
    is given, Weibull values never below zero. *)
Definition lower_limit (l : limits) : xr := match fst l with Some a => Fin a | None => MInf end.
Definition upper_limit (l : limits) : xr := match snd l with Some b => Fin b | None => PInf end.
Definition lognormal_lower (l : limits) : xr :=
  match l with
  | (None, None) => Fin 0
  | (None, _) => Fin first_positive
  | (Some a, _) => if Rle_dec a 0 then Fin first_positive else Fin a
  end.
Definition weibull_lower (l : limits) : xr := match fst l with Some a => Fin (Rmax 0 a) | None => Fin 0 end.

(** ** Laws *)

(** [Phi] is a continuous distribution function that never reaches 0 or 1, [ppf] its inverse; the
    standard normal distribution is one. *)
Definition inverse_pair (Phi ppf : R -> R) : Prop :=
  (forall x y, x < y -> Phi x < Phi y) /\ (forall x, 0 < Phi x < 1) /\ (forall p, 0 < p < 1 -> Phi (ppf p) = p).
(** The probability of not exceeding [x] without truncation. *)
Definition normal_law (Phi : R -> R) (mu sig : R) (x : xr) : R :=
  match x with MInf => 0 | Fin r => Phi ((r - mu) / sig) | _ => 1 end.
Definition lognormal_law (Phi : R -> R) (median beta : R) (x : xr) : R :=
  match x with MInf => 0 | Fin r => if Rle_dec r 0 then 0 else Phi ((ln r - ln median) / beta) | _ => 1 end.
Definition weibull_law (lambda kappa : R) (x : xr) : R :=
  match x with MInf => 0 | Fin r => if Rle_dec r 0 then 0 else 1 - exp (- Rpower (r / lambda) kappa) | _ => 1 end.

(** Sampling from [law] between [lo] and [hi]: nothing is sampled if there is no probability in
    between; otherwise the uniform value [u] leads to the value below which the fraction [u] of
    that probability lies. *)
Definition samples_between (law : xr -> R) (lo hi : xr) (inverse : R -> result xr) : Prop :=
  (law hi - law lo < first_positive -> forall u, inverse u = Err ValueError) /\
  (first_positive <= law hi - law lo -> forall u, 0 <= u <= 1 -> exists x,
     inverse u = Ok x /\ xle lo x /\ xle x hi /\ law x = law lo + u * (law hi - law lo)) /\
  (forall u v x y, 0 <= u -> u < v -> v <= 1 -> inverse u = Ok x -> inverse v = Ok y -> xlt x y).

(** ** Scaling *)

(** [f] times a value, for positive [f]. *)
Definition xtimes (f : R) (x : xr) : xr := match x with Fin r => Fin (r * f) | _ => x end.
Definition times_result (f : R) (x : result xr) : result xr :=
  match x with Ok x => Ok (xtimes f x) | Err e => Err e end.
