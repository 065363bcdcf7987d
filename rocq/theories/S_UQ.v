(** Specification vocabulary for random variables and registries. *)
From Coq Require Import Sorting.Permutation.
From Verif Require Import Prelude M_UQ.
Set Implicit Arguments.
Local Open Scope string_scope.
Local Open Scope list_scope.

(** ** Latin Hypercube samples *)

(** The [k]-th of [n] intervals of equal length. *)
Definition in_stratum (n k : nat) (u : Qc) : Prop := (qn k / qn n <= u)%Qc /\ (u < qn (S k) / qn n)%Qc.
(** Exactly one value in each of the [n] intervals, and none elsewhere. *)
Definition latin (n : nat) (us : list Qc) : Prop :=
  List.length us = n /\
  (forall u, In u us -> (0 <= u)%Qc /\ (u < 1)%Qc) /\
  (forall k, (k < n)%nat ->
     exists j, (j < n)%nat /\ in_stratum n k (nth j us 0%Qc) /\
       forall j', (j' < n)%nat -> in_stratum n k (nth j' us 0%Qc) -> j' = j).
(** What the generator hands out: permutations of 0..n-1 and rows of [n] numbers in [0,1). *)
Definition generator (n count : nat) (perms : list (list nat)) (draws : list (list Qc)) : Prop :=
  (count <= List.length perms)%nat /\ (count <= List.length draws)%nat /\
  Forall (fun p => Permutation p (seq 0 n)) perms /\
  Forall (fun d => List.length d = n /\ Forall (fun x => (0 <= x)%Qc /\ (x < 1)%Qc) d) draws.

(** ** Anchors *)

(** [r] is the variable at the end of the chain of anchors of [x]. *)
Inductive anchored (vars : list rv) : string -> string -> Prop :=
| anchored_self v : In v vars -> v_anchor v = v_name v -> anchored vars (v_name v) (v_name v)
| anchored_step v r : In v vars -> v_anchor v <> v_name v -> anchored vars (v_anchor v) r -> anchored vars (v_name v) r.
Definition is_multinomial (v : rv) : Prop := exists theta, v_kind v = Multinomial theta.
(** The sample that uniform values [u] give the variable [v]. *)
Definition sample_from (v : rv) (n : nat) (u s : list Qc) : Prop :=
  match v_kind v with
  | Transform f => f u = Ok s
  | Multinomial theta => s = snd (multinomial_inverse theta u)
  | Utility f => f n = Ok s
  end.
(** Families produce as many values as they receive. *)
Definition keeps_size (v : rv) : Prop :=
  match v_kind v with
  | Transform f => forall u s, f u = Ok s -> List.length s = List.length u
  | Multinomial _ => True
  | Utility f => forall n s, f n = Ok s -> List.length s = n
  end.
(** The copula maps rows of [n] values to as many rows of [n] values. *)
Definition keeps_shape (n : nat) (copula : matrix -> list (list Qc) -> list (list Qc)) : Prop :=
  forall rho rows, Forall (fun r => List.length r = n) rows ->
    List.length (copula rho rows) = List.length rows /\ Forall (fun r => List.length r = n) (copula rho rows).

(** ** Outcomes *)

(** The interval of outcome [i]: from the sum of the probabilities before it to that sum plus its
    own; the last outcome extends to 1. *)
Definition outcome_interval (theta : list Qc) (i : nat) (u : Qc) : Prop :=
  (i < List.length theta)%nat /\ (qsum (firstn i theta) <= u)%Qc /\
  (if (S i =? List.length theta)%nat then (u <= 1)%Qc else (u < qsum (firstn (S i) theta))%Qc).

(** ** Correlations *)

Definition square (n : nat) (m : matrix) : Prop := List.length m = n /\ Forall (fun r => List.length r = n) m.
Definition entry (m : matrix) (i j : nat) : option Qc :=
  match nth_error m i with Some row => nth_error row j | None => None end.
(** The number a matrix whose rows and columns are labelled [names] gives for two labels. *)
Definition correlation (names : list string) (m : matrix) (a b : string) (c : Qc) : Prop :=
  exists i j, nth_error names i = Some a /\ nth_error names j = Some b /\ entry m i j = Some c.
Definition symmetric (m : matrix) : Prop := forall i j, entry m i j = entry m j i.

(** ** Multilinear CDF *)

(** Both coordinates grow by more than [gap] from point to point. *)
Fixpoint spaced (gap : Qc) (theta : list (Qc * Qc)) : Prop :=
  match theta with
  | p :: (q :: _) as tl => (gap < fst q - fst p)%Qc /\ (gap < snd q - snd p)%Qc /\ spaced gap tl
  | _ => True
  end.
(** The points of a cdf that increases from 0 to 1. *)
Definition valid_cdf (gap : Qc) (theta : list (Qc * Qc)) : Prop :=
  exists p, nth_error theta 0 = Some p /\ snd p = 0%Qc /\ snd (last theta p) = 1%Qc /\ spaced gap theta.

(** ** Histories of a registry *)

(** A program that adds variables one after the other and carries on after errors. *)
Definition add_each (r : registry) (vs : list rv) : registry := fold_left (fun r v => fst (add_rv r v)) vs r.
