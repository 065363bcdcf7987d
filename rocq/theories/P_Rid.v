(** Proofs about the residual drift estimate. *)
From Coq Require Import Reals Lra.
From Verif Require Import Prelude Pandas PandasFacts M_Demand.
Local Open Scope R_scope.

Ltac rid_cases :=
  repeat match goal with
         | |- context [Rlt_dec ?a ?b] => destruct (Rlt_dec a b)
         | |- context [Rle_dec ?a ?b] => destruct (Rle_dec a b)
         end.

Lemma scatter_eq eps r : 0 < r -> rid_scatter eps r = r * exp eps.
Proof.
  intros H. unfold rid_scatter. destruct (Rlt_dec 0 r); [|lra].
  now rewrite exp_plus, exp_ln.
Qed.

Lemma scatter_zero eps : rid_scatter eps 0 = 0.
Proof. unfold rid_scatter. destruct (Rlt_dec 0 0); lra. Qed.

Lemma median_nonneg y p : 0 <= p -> 0 <= rid_median y p.
Proof. intros H. unfold rid_median. rid_cases; lra. Qed.

Lemma scatter_nonneg eps r : 0 <= r -> 0 <= rid_scatter eps r.
Proof.
  intros H. unfold rid_scatter. destruct (Rlt_dec 0 r); [|lra]. left. apply exp_pos.
Qed.

Lemma rid_bounds y p eps : 0 <= p -> 0 <= rid_cell y p eps <= p.
Proof.
  intros H. unfold rid_cell. split.
  - apply Rmin_glb; [easy|]. apply scatter_nonneg. now apply median_nonneg.
  - apply Rmin_l.
Qed.

Lemma rid_zero y p eps : 0 <= p <= y -> rid_cell y p eps = 0.
Proof.
  intros H. unfold rid_cell.
  assert (rid_median y p = 0) as ->.
  { unfold rid_median. rid_cases; lra. }
  rewrite scatter_zero. unfold Rmin. destruct (Rle_dec p 0); lra.
Qed.

Lemma median_mono y p q : 0 <= y -> p <= q -> rid_median y p <= rid_median y q.
Proof. intros Hy H. unfold rid_median. rid_cases; lra. Qed.

Lemma rid_exact y p eps :
  (y < p < 4 * y -> rid_cell y p eps = Rmin p (0.3 * (p - y) * exp eps)) /\
  (0 < y -> 4 * y <= p -> rid_cell y p eps = Rmin p ((p - 3 * y) * exp eps)).
Proof.
  unfold rid_cell. split.
  - intros H. assert (rid_median y p = 0.3 * (p - y)) as -> by (unfold rid_median; rid_cases; lra).
    rewrite scatter_eq; [easy|lra].
  - intros Hy H. assert (rid_median y p = p - 3 * y) as -> by (unfold rid_median; rid_cases; lra).
    rewrite scatter_eq; [easy|lra].
Qed.

Lemma estimate_cells method y pid eps r i j :
  List.length pid = List.length eps ->
  Forall2 (fun a b => List.length a = List.length b) pid eps ->
  estimate_RID method y pid eps = Ok r ->
  List.length r = List.length pid /\
  ((i < List.length pid)%nat -> (j < List.length (nth i pid []))%nat ->
   List.length (nth i r []) = List.length (nth i pid []) /\
   nth j (nth i r []) 0 = rid_cell y (nth j (nth i pid []) 0) (nth j (nth i eps []) 0)).
Proof.
  intros Hl HF. unfold estimate_RID.
  destruct (String.eqb method "FEMA P58" || String.eqb method "FEMA P-58"); [|easy].
  intros [= <-]. split.
  - now apply map2_length.
  - intros Hi Hj. rewrite (@map2_nth _ _ _ _ _ _ _ [] [] []) by lia.
    assert (Hli : List.length (nth i pid []) = List.length (nth i eps [])).
    { clear Hj Hl. revert i Hi. induction HF; intros [|i] Hi; simpl in *; try lia. apply IHHF. lia. }
    split.
    + now apply map2_length.
    + apply map2_nth; lia.
Qed.

Lemma estimate_methods method y pid eps :
  is_ok (estimate_RID method y pid eps) = true <->
  method = "FEMA P58"%string \/ method = "FEMA P-58"%string.
Proof.
  unfold estimate_RID.
  destruct (String.eqb_spec method "FEMA P58"); destruct (String.eqb_spec method "FEMA P-58");
    simpl; intuition congruence.
Qed.
