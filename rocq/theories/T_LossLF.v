(** Property C48: losses from loss functions. *)
From Coq Require Import Sorting.Permutation.
From Verif Require Import Prelude PreludeFacts Pandas M_Base M_FileIO M_Damage M_Demand S_Demand M_Agg S_Agg M_LossDS S_LossDS M_LossLF S_LossLF
  P_LossLF T_Demand T_Obtain T_LossDS.
Local Open Scope string_scope.
Local Open Scope list_scope.

(** Exactly the groups with blocks and a loss function have a loss, once. It is the value of the
    loss function at the demand of the group, times its quantity, times the average deviation of
    the blocks if the loss function has a distribution. Missing for the full property: components
    that are mapped to the loss function of another one (refuted below). *)
Theorem C48_losses_partial : forall e s sample quantities blocks t rows,
  f_rows s = Some rows -> unique_inputs s rows quantities blocks -> own_functions s rows blocks ->
  calculate_lf e s sample quantities blocks = Ok (Some t) ->
  (forall label, In label (map fst t) <-> exists p b dv r, label = lf_label dv (cmp p) p /\ has_loss s rows blocks p b dv r) /\
  NoDup (map fst t) /\
  forall p b dv r q vs text ys xs ys' xs', has_loss s rows blocks p b dv r -> In (p, q) quantities -> In (lf_label dv (cmp p) p, vs) t ->
    lf_function r = Some text -> table_text (pyfloat e) text ys xs -> same_points ys xs ys' xs' -> well_formed_table ys' xs' ->
    demand_table sample -> plain_demand e p (lf_demand r) ->
    exists d m, group_demand e sample p (lf_demand r) d /\ Forall2 (loss_at ys' xs') d m /\
      List.length d = n_rows sample /\ List.length q = n_rows sample /\ List.length vs = n_rows sample /\
      forall i, (i < n_rows sample)%nat -> nth i vs None = group_loss b (random_draws s r dv p i) (nth i m None) (nth i q None).
Proof. exact lf_losses. Qed.
Print Assumptions C48_losses_partial.

(** Without distributions the number of blocks has no effect on the outcome. *)
Theorem C48_blocks : forall e s sample quantities blocks blocks' rows, f_rows s = Some rows -> no_families rows ->
  map fst blocks = map fst blocks' -> Forall (fun pb : pg * Z => (0 < snd pb)%Z) blocks -> Forall (fun pb : pg * Z => (0 < snd pb)%Z) blocks' ->
  calculate_lf e s sample quantities blocks = calculate_lf e s sample quantities blocks'.
Proof. exact lf_blocks_irrelevant. Qed.
Print Assumptions C48_blocks.

(** A demand outside of the range of the loss function is not extrapolated: the call fails. *)
Theorem C48_outside : forall e s sample quantities blocks rows t p b dv r text ys xs ys' xs' q,
  f_rows s = Some rows -> unique_inputs s rows quantities blocks ->
  own_functions s rows blocks -> has_loss s rows blocks p b dv r -> lf_function r = Some text -> table_text (pyfloat e) text ys xs ->
  same_points ys xs ys' xs' -> well_formed_table ys' xs' ->
  demand_table sample -> plain_demand e p (lf_demand r) -> (forall d, group_demand e sample p (lf_demand r) d -> In (Some q) d) ->
  (q < nth 0 xs' 0)%Qc \/ (nth (List.length xs' - 1) xs' 0 < q)%Qc ->
  calculate_lf e s sample quantities blocks <> Ok t.
Proof. exact lf_outside. Qed.
Print Assumptions C48_outside.

(** ** What the code does not do *)

(** A component that is mapped to the loss function of another component, which itself is not in
    the asset: the call fails for every sample, although everything is given. *)
Theorem C48_mapped_refuted : forall e s sample quantities blocks rows t p b dv c r, f_rows s = Some rows -> In (p, b) blocks -> In dv (f_dvs s) ->
  dget (cmp p) (f_map s) = Some c -> In ((c, dv), r) rows -> ~ In (cmp p, dv) (f_missing s) ->
  (forall p' b', In (p', b') blocks -> cmp p' <> c) ->
  calculate_lf e s sample quantities blocks <> Ok t.
Proof. exact lf_mapped. Qed.
Print Assumptions C48_mapped_refuted.

(** A component with a loss function for one decision variable; another decision variable is
    covered elsewhere (by damage states), hence not listed as missing: the call fails. *)
Theorem C48_mixed_refuted : forall e s sample quantities blocks rows t p b dv c dv' r, f_rows s = Some rows -> In (p, b) blocks -> In dv (f_dvs s) ->
  dget (cmp p) (f_map s) = Some c -> In ((c, dv'), r) rows -> ~ In (cmp p, dv) (f_missing s) -> ~ In (cmp p, dv) (map fst rows) ->
  calculate_lf e s sample quantities blocks <> Ok t.
Proof. exact lf_no_row. Qed.
Print Assumptions C48_mixed_refuted.

(** A distribution whose parameters are not as many as its family takes: the call fails. As blank
    cells count, a further parameter column used by another row is enough. *)
Theorem C48_extra_column_refuted : forall e s sample quantities blocks rows t p b dv r theta extra, f_rows s = Some rows ->
  unique_inputs s rows quantities blocks -> own_functions s rows blocks -> has_loss s rows blocks p b dv r ->
  lf_family r = Some "lognormal" -> lf_thetas r = [theta; extra] ->
  calculate_lf e s sample quantities blocks <> Ok t.
Proof. exact lf_lognormal_extra. Qed.
Print Assumptions C48_extra_column_refuted.

(** ** Examples *)

Definition lf_drift : demand_params := {| expression := NoColumn; terms := [drift] |}.
Definition lf_float (s : string) : option Qc :=
  if String.eqb s "0" then Some (qc 0) else if String.eqb s "100" then Some (qc 100) else if String.eqb s "0.05" then Some (qc (5#100)) else None.
Definition ex_env : lf_env := {| nterms := no_terms; eval := no_eval; pyfloat := lf_float; offsets := []; multipliers := [("ALL", 1%Qc)] |}.
Definition ex_row : lf_row := LFR (Some "100,0|0.05,0") None [] lf_drift.
Definition ex_random : lf_row := LFR (Some "100,0|0.05,0") (Some "lognormal") [Some (qc (1#2))] lf_drift.
Definition ex_draws (dv : string) (p : pg) (j i : nat) : num := if Nat.eqb j 0 then Some (qc 2) else if Nat.eqb i 0 then None else Some (qc (1#2)).
Definition ex_setup (r : lf_row) : lf_setup :=
  {| f_dvs := ["Cost"; "Time"]; f_map := [("B", "B"); ("C", "C")]; f_missing := [("B", "Time")]; f_rows := Some [(("B", "Cost"), r)]; f_draws := ex_draws |}.
Definition ex_drifts : frame := [(["PID"; "1"; "1"], [Some (qc (1#100)); Some (qc (2#100)); None])].
Definition ex_quantities : list (pg * list num) := [(PG "B" "1" "1" "0", [Some (qc 3); Some (qc 6); Some (qc 1)])].

Lemma ex_inputs r b : unique_inputs (ex_setup r) [(("B", "Cost"), r)] ex_quantities [(PG "B" "1" "1" "0", b)] /\
  own_functions (ex_setup r) [(("B", "Cost"), r)] [(PG "B" "1" "1" "0", b)].
Proof.
  split.
  - repeat split; try (repeat constructor; cbn; intuition congruence).
  - intros p b' c dv r' [E|[]] _ [E'|[]]. injection E as <- _. injection E' as <- _ _. reflexivity.
Qed.
Lemma ex_has_loss r b : (0 < b)%Z -> has_loss (ex_setup r) [(("B", "Cost"), r)] [(PG "B" "1" "1" "0", b)] (PG "B" "1" "1" "0") b "Cost" r.
Proof. intros Hb. repeat split; try (cbn; tauto). cbn. intros [E|[]]. discriminate. Qed.
Lemma ex_table_text : table_text lf_float "100,0|0.05,0" [qc 100; qc 0] [qc (5#100); qc 0] /\
  same_points [qc 100; qc 0] [qc (5#100); qc 0] [qc 0; qc 100] [qc 0; qc (5#100)] /\ well_formed_table [qc 0; qc 100] [qc 0; qc (5#100)].
Proof.
  split; [|split].
  - exists ["100"; "0"], ["0.05"; "0"]. split; [reflexivity|]. split; [repeat constructor|]. split; repeat constructor.
  - split; [reflexivity|]. apply perm_swap.
  - split; [discriminate|]. split; [reflexivity|]. intros i Hi. destruct i as [|i]; cbn in Hi; [now vm_compute|lia].
Qed.
Lemma ex_plain : plain_demand ex_env (PG "B" "1" "1" "0") lf_drift /\ demand_table ex_drifts.
Proof.
  split; [|repeat constructor]. split; [|split].
  - split; [|easy]. constructor; [|constructor]. intros o E. injection E as <-. exists 0%Z. reflexivity.
  - intros t _ _. discriminate.
  - repeat constructor.
Qed.

(** Three blocks, without and with a distribution. *)
Example C48_hypotheses_met : exists t t',
  calculate_lf ex_env (ex_setup ex_row) ex_drifts ex_quantities [(PG "B" "1" "1" "0", 3%Z)] = Ok (Some t) /\
  t = [((LK "Cost" "B" "B" "1" "1" "0", None), [Some (qc 60); Some (qc 240); Some (qc 0)])] /\
  calculate_lf ex_env (ex_setup ex_random) ex_drifts ex_quantities [(PG "B" "1" "1" "0", 3%Z)] = Ok (Some t') /\
  t' = [((LK "Cost" "B" "B" "1" "1" "0", None), [Some (qc 80); Some (qc 240); Some (qc 0)])].
Proof. eexists. eexists. split; [qcompute|]. split; [reflexivity|]. split; [qcompute|reflexivity]. Qed.
Example C48_blocks_hypotheses_met :
  no_families [(("B", "Cost"), ex_row)] /\
  calculate_lf ex_env (ex_setup ex_row) ex_drifts ex_quantities [(PG "B" "1" "1" "0", 3%Z)] =
  calculate_lf ex_env (ex_setup ex_row) ex_drifts ex_quantities [(PG "B" "1" "1" "0", 7%Z)].
Proof. split; [|qcompute]. intros k r [E|[]]. injection E as <- <-. reflexivity. Qed.
(** Twice the drift is above the tabulated range. *)
Example C48_outside_concrete :
  calculate_lf ex_env (ex_setup ex_row) [(["PID"; "1"; "1"], [Some (qc (1#100)); Some (qc (6#100)); None])] ex_quantities
    [(PG "B" "1" "1" "0", 3%Z)] = Err ValueError /\
  forall d, group_demand ex_env [(["PID"; "1"; "1"], [Some (qc (1#100)); Some (qc (6#100)); None])] (PG "B" "1" "1" "0") lf_drift d -> In (Some (qc (6#100))) d.
Proof.
  split; [qcompute|]. intros d [t rest E Et Hv|x ts c vals E Hu Hc Hv He]; [|discriminate]. injection Et as <- <-.
  destruct Hv as (full & l & Ha & [[_ Hd]|[Hd _]]).
  - destruct Hd as [E'|[]]. injection E' as _ _ <-. cbn. tauto.
  - exfalso. apply Hd. intros E'. vm_compute in E'. discriminate.
Qed.
(** A is mapped to B, which has a loss function; B itself is not in the asset. *)
Example C48_mapped_concrete :
  calculate_lf ex_env {| f_dvs := ["Cost"]; f_map := [("A", "B")]; f_missing := []; f_rows := Some [(("B", "Cost"), ex_row)]; f_draws := ex_draws |}
    ex_drifts [(PG "A" "1" "1" "0", [Some (qc 3); Some (qc 6); Some (qc 1)])] [(PG "A" "1" "1" "0", 1%Z)] = Err KeyError.
Proof. qcompute. Qed.
(** The costs of B come from a loss function, the times of B from damage states. *)
Example C48_mixed_concrete :
  calculate_lf ex_env {| f_dvs := ["Cost"; "Time"]; f_map := [("B", "B")]; f_missing := []; f_rows := Some [(("B", "Cost"), ex_row)]; f_draws := ex_draws |}
    ex_drifts ex_quantities [(PG "B" "1" "1" "0", 1%Z)] = Err KeyError.
Proof. qcompute. Qed.
Example C48_extra_column_concrete :
  calculate_lf ex_env (ex_setup (LFR (Some "100,0|0.05,0") (Some "lognormal") [Some (qc (1#2)); None] lf_drift)) ex_drifts ex_quantities
    [(PG "B" "1" "1" "0", 3%Z)] = Err ValueError.
Proof. qcompute. Qed.
