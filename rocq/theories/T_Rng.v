(** Property theorems about the random numbers of assessments (C114). *)
From Coq Require Import Lia.
From Verif Require Import Prelude PreludeFacts M_UQ M_Rng S_Rng P_Rng.
Set Implicit Arguments.
Local Open Scope string_scope.
Local Open Scope list_scope.

(** * C114 The same seed gives the same samples *)

(** What an assessment with a seed hands out is what it would hand out alone, whatever other
    assessments do in between. *)
Theorem C114_isolated : forall G (D : generators G) steps a, seeded a steps -> outcomes a (process D steps) = outcomes a (process D (own a steps)).
Proof. intros G D steps a H. exact (proj1 (@run_isolated G D a steps nothing_yet nothing_yet nothing_separate nothing_separate eq_refl H)). Qed.
Print Assumptions C114_isolated.
(** Two schedules of the same steps of an assessment. *)
Theorem C114_schedules : forall G (D : generators G) steps steps' a, seeded a steps -> own a steps = own a steps' -> outcomes a (process D steps) = outcomes a (process D steps').
Proof.
  intros G D steps steps' a H E. assert (H' : seeded a steps').
  { intros s Hs Hw. apply H; [|exact Hw]. assert (Hi : In s (own a steps')) by (apply filter_In; split; [exact Hs|now apply String.eqb_eq]). rewrite <- E in Hi. now apply filter_In in Hi. }
  now rewrite (@C114_isolated G D steps a H), (@C114_isolated G D steps' a H'), E.
Qed.
Print Assumptions C114_schedules.

Lemma created_has {G} (D : generators G) a steps : forall w, separate w -> (generator w a <> None \/ exists seed, In (Create a seed) steps) -> generator (snd (run D steps w)) a <> None.
Proof.
  induction steps as [|s steps IH]; intros w Sep H; [destruct H as [H|[? []]]; exact H|]. cbn [run]. destruct (run_step_spec D s Sep) as (A1 & _ & A3). specialize (A3 a).
  destruct (run_step D s w) as [o w1]. cbn [snd] in A1, A3. specialize (IH w1 A1). destruct (run D steps w1) as [os w2]. cbn [snd] in *. apply IH.
  destruct H as [H|[seed [->|H]]]; [|left; rewrite A3; cbn; rewrite String.eqb_refl; discriminate|right; now exists seed]. left. rewrite A3. destruct (String.eqb (who s) a); [|exact H].
  destruct (generator w a) as [g|]; [|congruence]. destruct s; cbn; discriminate.
Qed.

(** Setting the seed again is as good as a new assessment with that seed, whatever was done before. *)
Theorem C114_reseed : forall G (D : generators G) before after a s, (exists seed, In (Create a seed) before) -> seeded a after ->
  outcomes a (process D (before ++ Reseed a (Some s) :: after)) = outcomes a (process D before) ++ outcomes a (process D (Create a (Some s) :: after)).
Proof.
  intros G D before after a s Hc Hs. unfold process. rewrite run_app. cbn [fst]. unfold outcomes at 1. rewrite filter_app, map_app. fold (outcomes a (fst (run D before nothing_yet))).
  fold (@outcomes (result (list (list Qc))) a). f_equal. set (w := snd (run D before nothing_yet)).
  assert (Sw : separate w) by (apply run_separate, nothing_separate). assert (Hw : generator w a <> None) by (apply created_has; [apply nothing_separate|now right]).
  destruct (run_step_spec D (Reseed a (Some s)) Sw) as (A1 & A2 & A3). destruct (run_step_spec D (Create a (Some s)) (@nothing_separate G)) as (B1 & B2 & B3).
  specialize (A3 a). specialize (B3 a). cbn [run]. cbn [who] in *. rewrite String.eqb_refl in A3, B3.
  destruct (run_step D (Reseed a (Some s)) w) as [o w1]. destruct (run_step D (Create a (Some s)) nothing_yet) as [o' w1']. cbn [fst snd effect] in *. subst o o'.
  destruct (generator w a) as [g|]; [|congruence]. assert (Hg : generator w1 a = generator w1' a) by congruence.
  pose proof (proj1 (@run_isolated G D a after w1 w1' A1 B1 Hg Hs)) as I1. pose proof (proj1 (@run_isolated G D a after w1' w1' B1 B1 eq_refl Hs)) as I2.
  destruct (run D after w1). destruct (run D after w1'). cbn [fst] in *. unfold outcomes in *. congruence.
Qed.
Print Assumptions C114_reseed.

(** ** More variables *)

Lemma firstn_prefix {A} n (xs ys : list A) : List.length xs = n -> firstn n (xs ++ ys) = xs.
Proof. intros <-. rewrite firstn_app, Nat.sub_diag, firstn_all. apply app_nil_r. Qed.
(** With midpoints of the bins and with Monte Carlo sampling, the numbers of the first variables do
    not depend on how many follow. *)
Theorem C114_more_variables : forall G (D : generators G) method seed count more size a, In method ["LHS_midpoint"; "MonteCarlo"] ->
  exists rows rows', process D [Create a (Some seed); Sample a method count size] = [(a, Ok rows)] /\
    process D [Create a (Some seed); Sample a method (count + more) size] = [(a, Ok rows')] /\ List.length rows = count /\ firstn count rows' = rows.
Proof.
  intros G D method seed count more size a Hm.
  assert (P : forall k, process D [Create a (Some seed); Sample a method k size] = [(a, fst (controls D method k size (start D seed)))]).
  { intros k. unfold process. cbn [run run_step allocate nothing_yet asmts heap unseeded List.length dset app who dget nth_error]. rewrite String.eqb_refl. cbn [nth_error].
    now destruct (controls D method k size (start D seed)). }
  rewrite !P. destruct Hm as [<-|[<-|[]]]; unfold controls.
  - change (contains "LHS" "LHS_midpoint") with true. change (String.eqb "LHS_midpoint" "LHS" || String.eqb "LHS_midpoint" "MonteCarlo") with false. cbv iota.
    rewrite draws_plus. pose proof (draws_length (permutation D size) count (start D seed)) as L. destruct (draws (permutation D size) count (start D seed)) as [bins g]. cbn [fst snd] in *.
    pose proof (draws_length (permutation D size) more g) as L'. destruct (draws (permutation D size) more g) as [bins' g']. cbn [fst snd] in *.
    unfold controlling. change (contains "LHS" "LHS_midpoint") with true. change (String.eqb "LHS_midpoint" "LHS_midpoint") with true. cbv iota. do 2 eexists. split; [reflexivity|]. split; [reflexivity|].
    rewrite map_length, firstn_length, L. split; [lia|]. rewrite (@firstn_all2 _ (count + more) (bins ++ bins')) by (rewrite app_length; lia). rewrite firstn_map, firstn_prefix by exact L.
    now rewrite (@firstn_all2 _ count bins) by lia.
  - change (contains "LHS" "MonteCarlo") with false. change (String.eqb "MonteCarlo" "LHS" || String.eqb "MonteCarlo" "MonteCarlo") with true. cbv iota.
    rewrite draws_plus. pose proof (draws_length (draws (uniform D) size) count (start D seed)) as L. destruct (draws (draws (uniform D) size) count (start D seed)) as [us g]. cbn [fst snd] in *.
    pose proof (draws_length (draws (uniform D) size) more g) as L'. destruct (draws (draws (uniform D) size) more g) as [us' g']. cbn [fst snd] in *.
    unfold controlling. change (contains "LHS" "MonteCarlo") with false. change (String.eqb "MonteCarlo" "MonteCarlo") with true. cbv iota. do 2 eexists. split; [reflexivity|]. split; [reflexivity|].
    rewrite firstn_length, L. split; [lia|]. rewrite (@firstn_all2 _ (count + more) (us ++ us')) by (rewrite app_length; lia). rewrite firstn_prefix by exact L. now rewrite firstn_all2 by lia.
Qed.
Print Assumptions C114_more_variables.

(** ** An example *)

(** A generator that counts its draws. *)
Definition counting : generators Z :=
  {| start := fun z => z; entropy := fun k => (1000 + Z.of_nat k)%Z;
     uniform := fun g => ((1 / qz (2 + g * g))%Qc, (g + 1)%Z); normal := fun g => (qz g, (g + 1)%Z);
     permutation := fun n g => (if Z.even g then seq 0 n else rev (seq 0 n), (g + 1)%Z) |}.

(** With Latin hypercube sampling the positions in the bins are drawn after all permutations: one
    variable more changes the numbers of all others. *)
Theorem C114_lhs_refuted : ~ (forall G (D : generators G) seed count more size a rows rows',
  process D [Create a (Some seed); Sample a "LHS" count size] = [(a, Ok rows)] ->
  process D [Create a (Some seed); Sample a "LHS" (count + more) size] = [(a, Ok rows')] -> firstn count rows' = rows).
Proof.
  intros H. specialize (H Z counting 3%Z 1%nat 1%nat 2%nat "a" _ _ eq_refl eq_refl). vm_compute in H. discriminate H.
Qed.
Print Assumptions C114_lhs_refuted.
(** With every method, samples generated later are different if more variables were sampled before:
    one component more changes the damage of all others. *)
Theorem C114_later_refuted : ~ (forall G (D : generators G) method seed count more count' size a out out' last last', In method ["LHS"; "LHS_midpoint"; "MonteCarlo"] ->
  process D [Create a (Some seed); Sample a method count size; Sample a method count' size] = [(a, out); (a, last)] ->
  process D [Create a (Some seed); Sample a method (count + more) size; Sample a method count' size] = [(a, out'); (a, last')] -> last' = last).
Proof.
  intros H. specialize (H Z counting "MonteCarlo" 3%Z 1%nat 1%nat 1%nat 1%nat "a" _ _ _ _ (or_intror (or_intror (or_introl eq_refl))) eq_refl eq_refl). vm_compute in H. discriminate H.
Qed.
Print Assumptions C114_later_refuted.

Definition two_runs : list step :=
  [Create "a" (Some 5%Z); Create "b" None; Sample "b" "MonteCarlo" 2 2; Sample "a" "LHS" 1 2; Scatter "b" 3; Reseed "b" (Some 5%Z); Scatter "a" 1; Sample "b" "LHS" 1 2].
Example C114_isolated_hypotheses_met : seeded "a" two_runs /\ outcomes "a" (process counting two_runs) = outcomes "a" (process counting (own "a" two_runs)) /\
  own "a" two_runs = [Create "a" (Some 5%Z); Sample "a" "LHS" 1 2; Scatter "a" 1] /\ List.length (outcomes "a" (process counting two_runs)) = 2%nat.
Proof.
  assert (S : seeded "a" two_runs) by (intros s Hs; cbn in Hs; decompose [or] Hs; subst; cbn; try tauto; discriminate).
  split; [exact S|]. split; [now apply C114_isolated|]. split; reflexivity.
Qed.
(** "b" after the new seed and "a" hand out the same sample. *)
Example C114_reseed_hypotheses_met : exists rest, process counting two_runs = rest ++ [("b", fst (controls counting "LHS" 1 2 5%Z))] /\
  outcomes "a" (process counting [Create "a" (Some 5%Z); Sample "a" "LHS" 1 2]) = [fst (controls counting "LHS" 1 2 5%Z)].
Proof. eexists [_; _; _; _]. split; reflexivity. Qed.
Example C114_more_variables_hypotheses_met : exists rows rows', process counting [Create "a" (Some 5%Z); Sample "a" "LHS_midpoint" 1 2] = [("a", Ok rows)] /\
  process counting [Create "a" (Some 5%Z); Sample "a" "LHS_midpoint" 2 2] = [("a", Ok rows')] /\ firstn 1 rows' = rows.
Proof.
  destruct (@C114_more_variables Z counting "LHS_midpoint" 5%Z 1 1 2 "a" (or_introl eq_refl)) as (rows & rows' & A & B & _ & C). now exists rows, rows'.
Qed.
