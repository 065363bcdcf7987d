(** Vocabulary for the fit to percentiles. *)
From Coq Require Import Reals Lra.
From Verif Require Import Prelude M_Percentile.
Local Open Scope string_scope.
Local Open Scope list_scope.
Local Open Scope R_scope.

(** The quantile at [p] of the distribution with parameters [m] and [s]; [z] are the quantiles of the
    standard normal distribution. *)
Definition quantile (z : R -> R) (family : string) (m s p : R) : R :=
  if String.eqb family "normal" then m + s * z p else m * exp (s * z p).
Definition proper (family : string) (m s : R) : Prop := 0 < s /\ (family = "lognormal" -> 0 < m).
(** The distribution has the given values at the given percentiles. *)
Definition passes (z : R -> R) (family : string) (m s : R) (values perc : list R) : Prop :=
  Forall2 (fun v p => v = quantile z family m s p) values perc.
(** Sum of squared differences. *)
Definition misfit (z : R -> R) (family : string) (m s : R) (values perc : list R) : R :=
  fold_right Rplus 0 (map (fun vp => (quantile z family m s (snd vp) - fst vp) * (quantile z family m s (snd vp) - fst vp)) (combine values perc)).
(** Standard normal quantiles. *)
Definition normal_quantiles (z : R -> R) : Prop := z (1 / 2) = 0 /\ forall p q, 0 < p -> p < q -> q < 1 -> z p < z q.
(** A search that never ends above the value it started from, and that does not leave a point where
    the function is not a number. *)
Definition descends (minimize : search) : Prop :=
  (forall f x0 y0, f x0 = Some y0 -> exists x y, minimize f x0 = (x, Some y) /\ f x = Some y /\ y <= y0) /\
  (forall f x0, f x0 = None -> minimize f x0 = (x0, None)).
