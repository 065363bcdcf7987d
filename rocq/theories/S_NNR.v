(** What interpolation weights are meant to be. *)
From Verif Require Import Prelude Pandas M_NNR.
Set Implicit Arguments.
Local Open Scope string_scope.
Local Open Scope list_scope.

Definition known_weight (w : string) : Prop := w = "distance1" \/ w = "distance2" \/ w = "uniform".
(** A weighted sum. *)
Definition mix (ws vs : list Qc) : Qc := qsum (map2 Qcmult ws vs).
