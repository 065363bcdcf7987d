(** Property C120: what an asset contains besides a component does not matter to the component.

    The random draws of the component are the same on both sides. How draws depend on the set of
    variables is the subject of C17 and C114. *)
From Coq Require Import Sorting.Permutation.
From Verif Require Import Prelude PreludeFacts Pandas PandasFacts M_Base M_FileIO M_Damage M_Batch M_Demand P_Req M_Obtain S_Damage S_Demand S_Realizations
  S_Components M_Agg S_Agg M_LossDS S_LossDS M_LossLF S_LossLF P_Components T_Damage T_Demand T_Obtain T_Realizations T_LossDS T_LossLF.
Local Open Scope string_scope.
Local Open Scope list_scope.

(** Two assets with the same blocks, capacities and limit state outcomes of component [c], whatever
    else is in them and whatever the batch sizes: the blocks of [c] are in the same damage states.
    Missing: limit states with gaps that other components fill (refuted below). *)
Theorem C120_damage_partial : forall nterms eval params offsets multipliers sample cap cap' lsds lsds' missing missing' available available' cb cb' size size' ds ds' c,
  let n := n_rows sample in
  well_formed n cap -> well_formed n lsds -> (forall k, In k (map fst cap) -> In k (map fst lsds)) -> gapless cap ->
  well_formed n cap' -> well_formed n lsds' -> (forall k, In k (map fst cap') -> In k (map fst lsds')) -> gapless cap' ->
  demand_table sample ->
  (forall c vars v, Forall (fun x => List.length (snd x) = n) vars -> eval c vars = Ok v -> List.length v = n) ->
  NoDup (map fst cb) -> Forall (fun r => (0 < snd r)%Z) cb -> NoDup (map fst cb') -> Forall (fun r => (0 < snd r)%Z) cb' ->
  same_columns (fun k : lsc => cmp (b_of (fst k)) = c) cap cap' -> same_columns (fun k : lsc => cmp (b_of (fst k)) = c) lsds lsds' ->
  same_columns (fun p => cmp p = c) cb cb' -> (In c missing <-> In c missing') -> (In c available <-> In c available') ->
  obtain_ds_sample nterms eval params offsets multipliers sample cap lsds missing available size cb = Ok ds ->
  obtain_ds_sample nterms eval params offsets multipliers sample cap' lsds' missing' available' size' cb' = Ok ds' ->
  forall b i s, cmp (b_of b) = c -> cell_at ds b i s <-> cell_at ds' b i s.
Proof.
  intros nterms eval params offsets multipliers sample cap cap' lsds lsds' missing missing' available available' cb cb' size size' ds ds' c n
    W1 W2 W3 G W1' W2' W3' G' T Ev N1 N2 N1' N2' Sc Sl Sb Sm Sa H H' b i s Hb. split.
  - exact (damage_same nterms eval params offsets multipliers sample cap cap' lsds lsds' missing missing' available available' cb cb' size size' ds ds' c
      W1 W2 W3 G W1' W2' W3' G' T Ev N1 N2 N1' N2' Sc Sl Sb Sm Sa H H' b i s Hb).
  - exact (damage_same nterms eval params offsets multipliers sample cap' cap lsds' lsds missing' missing available' available cb' cb size' size ds' ds c
      W1' W2' W3' G' W1 W2 W3 G T Ev N1' N2' N1 N2 (same_columns_sym _ _ _ Sc) (same_columns_sym _ _ _ Sl) (same_columns_sym _ _ _ Sb)
      (iff_sym Sm) (iff_sym Sa) H' H b i s Hb).
Qed.
Print Assumptions C120_damage_partial.

(** The amounts of a performance group in its damage states. *)
Theorem C120_quantities : forall n dropzero sample sample' blocks blocks' ds ds' q q' p qty nb i s x,
  well_formed n ds -> well_formed n sample -> well_formed n ds' -> well_formed n sample' ->
  match blocks with Some l => NoDup (map fst l) | None => True end ->
  match blocks' with Some l => NoDup (map fst l) | None => True end ->
  same_columns (fun b => b_of b = p) ds ds' -> In (p, qty) sample -> In (p, qty) sample' -> blocks_of blocks p nb -> blocks_of blocks' p nb ->
  prepare_dmg_quantities n dropzero sample blocks ds = Ok q ->
  prepare_dmg_quantities n dropzero sample' blocks' ds' = Ok q' ->
  (i < n)%nat -> amount_in q (p, s) i x <-> amount_in q' (p, s) i x.
Proof.
  intros n dropzero sample sample' blocks blocks' ds ds' q q' p qty nb i s x W1 W2 W1' W2' Nb Nb' S Hq Hq' Bl Bl' H H' Hi. split; intros A.
  - exact (@amount_transfer n n i i dropzero sample sample' blocks blocks' ds ds' q q' p qty qty nb s x W1 W2 W1' W2' Nb Nb' H H' Hi Hi
      (fun d => blocks_with_columns p ds ds' i _ S (proj1 W1) (proj1 W1')) Hq Hq' eq_refl Bl Bl' A).
  - exact (@amount_transfer n n i i dropzero sample' sample blocks' blocks ds' ds q' q p qty qty nb s x W1' W2' W1 W2 Nb' Nb H' H Hi Hi
      (fun d => eq_sym (blocks_with_columns p ds ds' i _ S (proj1 W1) (proj1 W1'))) Hq' Hq eq_refl Bl' Bl A).
Qed.
Print Assumptions C120_quantities.

(** Losses from damage states: the same columns with the same values. *)
Theorem C120_states : forall n e s dmg dmg' t t' c, across_floors e = true -> unique_labels s dmg -> unique_labels s dmg' -> tables_ok s ->
  same_columns (fun k : qkey => cmp (fst k) = c) dmg dmg' ->
  calculate_ds n e s dmg = Ok (Some t) -> calculate_ds n e s dmg' = Ok (Some t') ->
  same_columns (fun label : lkey * string => k_dmg (fst label) = c) t t'.
Proof.
  intros n e s dmg dmg' t t' c He U U' Ht S H H' label vs Hc. split; intros Hin.
  - exact (states_same n e s dmg dmg' t t' c He U U' Ht S H H' label vs Hc Hin).
  - exact (states_same n e s dmg' dmg t' t c He U' U Ht (same_columns_sym _ _ _ S) H' H label vs Hc Hin).
Qed.
Print Assumptions C120_states.

(** Losses from loss functions. *)
Theorem C120_functions : forall e s sample quantities quantities' blocks blocks' t t' rows c, f_rows s = Some rows ->
  unique_inputs s rows quantities blocks -> unique_inputs s rows quantities' blocks' -> own_functions s rows blocks -> own_functions s rows blocks' ->
  same_columns (fun p => cmp p = c) quantities quantities' -> same_columns (fun p => cmp p = c) blocks blocks' ->
  calculate_lf e s sample quantities blocks = Ok (Some t) -> calculate_lf e s sample quantities' blocks' = Ok (Some t') ->
  same_columns (fun label : lkey * option string => k_dmg (fst label) = c) t t'.
Proof.
  intros e s sample quantities quantities' blocks blocks' t t' rows c Er U U' O O' Sq Sb H H' label vs Hc. split; intros Hin.
  - exact (functions_same e s sample quantities quantities' blocks blocks' t t' rows c Er U U' O O' Sq Sb H H' label vs Hc Hin).
  - exact (functions_same e s sample quantities' quantities blocks' blocks t' t rows c Er U' U O' O (same_columns_sym _ _ _ Sq) (same_columns_sym _ _ _ Sb) H' H label vs Hc Hin).
Qed.
Print Assumptions C120_functions.

(** ** Cases *)

(** B with A, and B alone. *)
Definition co_capB : cap_frame := [((demoB, "1"), [Some (qc 1)]); ((demoB, "2"), [Some (qc 2)])].
Definition co_lsdsB : lsds_frame := [((demoB, "1"), [1%Z]); ((demoB, "2"), [2%Z])].
Definition co_alone cap lsds := obtain_ds_sample no_terms no_eval ob_params [("PFA", qc 0)] [("ALL", qc 1)] ob_sample cap lsds [] ["B"] 10 [(b_of demoB, 1%Z)].
Ltac columns := intros ?k ?col ?Hk; cbn; split; intros ?Hin;
  repeat match goal with H : _ \/ _ |- _ => destruct H as [H|H] | H : False |- _ => destruct H end;
  try (apply (f_equal fst) in Hin; cbn in Hin; subst k; cbn in Hk; discriminate Hk); tauto.
Example C120_damage_hypotheses_met :
  gapless co_capB /\ same_columns (fun k : lsc => cmp (b_of (fst k)) = "B") ob_cap co_capB /\
  same_columns (fun k : lsc => cmp (b_of (fst k)) = "B") ob_lsds co_lsdsB /\
  same_columns (fun p => cmp p = "B") ob_cb [(b_of demoB, 1%Z)] /\
  ob_run ob_cap ob_lsds 10 = Ok [(demoA, [1%Z]); (demoB, [2%Z])] /\ co_alone co_capB co_lsdsB = Ok [(demoB, [2%Z])].
Proof.
  split; [|split; [columns|split; [columns|split; [columns|split; vm_compute; reflexivity]]]].
  intros b ls Hb. unfold has_ls in *. cbn [co_capB map fst] in *.
  assert (Hcase : b = demoB /\ (ls = "1" \/ ls = "2")) by (destruct Hb as [E|[E|[]]]; inversion E; auto). destruct Hcase as [-> Hls]. split.
  - destruct Hls as [-> | ->]; cbn; tauto.
  - intros b' ls' Hb' Hlt. assert (Hls' : ls' = "1" \/ ls' = "2") by (destruct Hb' as [E|[E|[]]]; inversion E; auto).
    destruct Hls as [-> | ->], Hls' as [-> | ->]; cbn in *; try tauto; exfalso; vm_compute in Hlt; lia.
Qed.

(** The quantity 6 of A in two blocks, with and without B. *)
Definition co_dsB := (Blk (PG "B" "1" "1" "0") "1", [2%Z; 0%Z]).
Example C120_quantities_hypotheses_met : exists q q',
  same_columns (fun b => b_of b = PG "A" "1" "1" "0") (rl_ds ++ [co_dsB]) rl_ds /\
  well_formed 2 (rl_ds ++ [co_dsB]) /\ well_formed 2 rl_ds /\
  prepare_dmg_quantities 2 true [(PG "A" "1" "1" "0", [qc 6; qc 6]); (PG "B" "1" "1" "0", [qc 3; qc 5])]
    (Some [(PG "A" "1" "1" "0", 2%Z); (PG "B" "1" "1" "0", 1%Z)]) (rl_ds ++ [co_dsB]) = Ok q /\
  prepare_dmg_quantities 2 true [(PG "A" "1" "1" "0", [qc 6; qc 6])] (Some [(PG "A" "1" "1" "0", 2%Z)]) rl_ds = Ok q' /\
  amount_in q (PG "A" "1" "1" "0", "2") 0 (qc 3) /\ amount_in q' (PG "A" "1" "1" "0", "2") 0 (qc 3) /\
  amount_in q (PG "B" "1" "1" "0", "2") 0 (qc 3).
Proof.
  eexists. eexists. split; [columns|]. split; [split; [distinct|repeat constructor]|]. split; [split; [distinct|repeat constructor]|].
  split; [vm_compute; reflexivity|]. split; [vm_compute; reflexivity|].
  split; [|split]; left; eexists; (split; [repeat (first [left; reflexivity|right])|]); vm_compute; f_equal; now apply Qc_is_canon.
Qed.

(** A, B and the collapse of the building; A and the collapse only. *)
Definition co_dmgA : qty_frame := filter (fun c => negb (String.eqb (cmp (fst (fst c))) "B")) demo_dmg.
Example C120_states_hypotheses_met : exists t,
  unique_labels demo_setup demo_dmg /\ unique_labels demo_setup co_dmgA /\ same_columns (fun k : qkey => cmp (fst k) = "A") demo_dmg co_dmgA /\
  calculate_ds 2 (Eco true false) demo_setup demo_dmg = Ok (Some (t ++ [(loss_label "Cost" "cB" B2, [Some (qc 0); Some (qc 45)])])) /\
  calculate_ds 2 (Eco true false) demo_setup co_dmgA = Ok (Some t) /\ List.length t = 2%nat.
Proof.
  exists [(loss_label "Cost" "cA" (A1 "1"), [Some (qc 90); Some (qc 270)]); (loss_label "Cost" "cA" A2, [Some (qc 180); Some (qc 0)])].
  split; [exact demo_unique|]. split; [destruct demo_unique as (_ & U); split; [distinct|exact U]|]. split; [columns|].
  split; [qcompute|]. split; [qcompute|reflexivity].
Qed.

(** B on two floors, with and without a further component C. *)
Definition co_rows := [(("B", "Cost"), ex_random); (("C", "Cost"), ex_row)].
Definition co_setup : lf_setup :=
  {| f_dvs := ["Cost"]; f_map := [("B", "B"); ("C", "C")]; f_missing := []; f_rows := Some co_rows; f_draws := ex_draws |}.
Definition co_C : pg := PG "C" "1" "1" "0".
Example C120_functions_hypotheses_met : exists v w,
  unique_inputs co_setup co_rows ((co_C, [Some (qc 1); None; Some (qc 1)]) :: ex_quantities) [(co_C, 2%Z); (PG "B" "1" "1" "0", 3%Z)] /\
  own_functions co_setup co_rows [(co_C, 2%Z); (PG "B" "1" "1" "0", 3%Z)] /\
  same_columns (fun p => cmp p = "B") ((co_C, [Some (qc 1); None; Some (qc 1)]) :: ex_quantities) ex_quantities /\
  calculate_lf ex_env co_setup ex_drifts ((co_C, [Some (qc 1); None; Some (qc 1)]) :: ex_quantities) [(co_C, 2%Z); (PG "B" "1" "1" "0", 3%Z)] =
    Ok (Some [((LK "Cost" "B" "B" "1" "1" "0", None), v); ((LK "Cost" "C" "C" "1" "1" "0", None), w)]) /\
  calculate_lf ex_env co_setup ex_drifts ex_quantities [(PG "B" "1" "1" "0", 3%Z)] = Ok (Some [((LK "Cost" "B" "B" "1" "1" "0", None), v)]) /\
  v = [Some (qc 80); Some (qc 240); Some (qc 0)] /\ w = [Some (qc 20); Some (qc 0); Some (qc 0)].
Proof.
  eexists. eexists. split; [split; [distinct|split; [distinct|split; [distinct|split; distinct]]]|].
  split. { intros p b c dv r Hp Hm _. cbn in Hp, Hm. destruct Hp as [E|[E|[]]]; injection E as <- _; cbn in Hm; destruct Hm as [E|[E|[]]]; inversion E; reflexivity. }
  split; [columns|]. split; [qcompute|]. split; [qcompute|]. split; reflexivity.
Qed.

(** ** What does not hold *)

(** A with limit states 1 and 3 is added to B with 1, 2 and 3: the state of B changes from 3 to 2. *)
Definition co_lsdsB3 : lsds_frame := [((demoB, "1"), [1%Z]); ((demoB, "2"), [2%Z]); ((demoB, "3"), [3%Z])].
Theorem C120_damage_refuted : exists nterms eval params offsets multipliers sample cap cap' lsds lsds' available available' cb cb' size ds ds' b,
  well_formed (n_rows sample) cap /\ well_formed (n_rows sample) cap' /\
  same_columns (fun k : lsc => cmp (b_of (fst k)) = cmp (b_of b)) cap cap' /\ same_columns (fun k : lsc => cmp (b_of (fst k)) = cmp (b_of b)) lsds lsds' /\
  same_columns (fun p => cmp p = cmp (b_of b)) cb cb' /\
  obtain_ds_sample nterms eval params offsets multipliers sample cap lsds [] available size cb = Ok ds /\
  obtain_ds_sample nterms eval params offsets multipliers sample cap' lsds' [] available' size cb' = Ok ds' /\
  cell_at ds b 0 2%Z /\ cell_at ds' b 0 3%Z.
Proof.
  exists no_terms, no_eval, ob_params, [("PFA", qc 0)], [("ALL", qc 1)], ob_sample, demo_cap, demo_capB, demo_lsds, co_lsdsB3,
    ["A"; "B"], ["B"], ob_cb, [(b_of demoB, 1%Z)], 10%Z. eexists. eexists. exists demoB.
  split; [split; [distinct|repeat constructor]|]. split; [split; [distinct|repeat constructor]|].
  split; [columns|]. split; [columns|]. split; [columns|]. split; [vm_compute; reflexivity|]. split; [vm_compute; reflexivity|].
  split; eexists; cbn; eauto.
Qed.
Print Assumptions C120_damage_refuted.

(** Parameters of another component that cannot be used: there are no losses of this one either.
    The same parameters do no harm as long as that component is not damaged. *)
Definition co_fixed : ds_params := DSP (Some "deterministic") (Some (Scalar (qc 7))) None None.
Definition co_bad : loss_setup :=
  {| dvs := ["Cost"]; loss_map := [("A", "cA"); ("B", "cB")]; missing := [];
     params := Some {| lp_states := ["1"; "2"]; lp_rows := [(("cA", "Cost"), [("1", co_fixed)]); (("cB", "Cost"), [("1", random_params); ("2", random_params)])] |};
     draws := fun _ _ i => qn (8 + i) |}.
Theorem C120_failure_refuted : exists n e s dmg dmg' t, unique_labels s dmg' /\
  same_columns (fun k : qkey => cmp (fst k) = "B") dmg dmg' /\
  calculate_ds n e s dmg = Ok (Some t) /\ t <> [] /\ forall t', calculate_ds n e s dmg' <> Ok t'.
Proof.
  exists 2%nat, (Eco true false), co_bad, [(B2, [Some (qc 0); Some (qc 5)])], [(B2, [Some (qc 0); Some (qc 5)]); (A1 "1", [Some (qc 1); Some (qc 3)])]. eexists.
  split; [split; [distinct|split; [distinct|split; [distinct|]]]|].
  { intros lp E. injection E as <-. split; [distinct|]. split; [distinct|]. intros r [<-|[<-|[]]]; distinct. }
  split; [columns|]. split; [vm_compute; reflexivity|]. split; [discriminate|]. intros t' H. vm_compute in H. discriminate H.
Qed.
Print Assumptions C120_failure_refuted.
