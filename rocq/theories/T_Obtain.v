(** Property theorems about the damage calculation over batches (C31). *)
From Verif Require Import Prelude PreludeFacts Pandas PandasFacts M_Base M_FileIO M_Damage M_Demand M_Batch M_Obtain
  S_FileIO S_Demand S_Damage S_Batch P_Obtain T_Damage T_Demand.
Local Open Scope string_scope.
Local Open Scope list_scope.

(** Proved when the limit states of every block are numbered without the gaps other blocks
    fill ([gapless]): any two batch sizes give the same damage state for every block and
    realization, and one succeeds exactly when the other does.  Missing: tables with gaps,
    for which the claim is false ([C31_refuted]). *)
Theorem C31_partial : forall nterms eval params offsets multipliers sample cap lsds missing available cb size1 size2 ds1,
  let n := n_rows sample in
  well_formed n cap -> well_formed n lsds -> (forall k, In k (map fst cap) -> In k (map fst lsds)) ->
  gapless cap -> demand_table sample ->
  (forall c vars v, Forall (fun x => List.length (snd x) = n) vars -> eval c vars = Ok v -> List.length v = n) ->
  NoDup (map fst cb) -> Forall (fun r => (0 < snd r)%Z) cb ->
  obtain_ds_sample nterms eval params offsets multipliers sample cap lsds missing available size1 cb = Ok ds1 ->
  exists ds2, obtain_ds_sample nterms eval params offsets multipliers sample cap lsds missing available size2 cb = Ok ds2 /\
    forall b i s, cell_at ds1 b i s <-> cell_at ds2 b i s.
Proof.
  intros nterms eval params offsets multipliers sample cap lsds missing available cb size1 size2 ds1 n H1 H2 H3 H4 H5 H6 H7 H8 H.
  exact (obtain_independent nterms eval params offsets multipliers sample cap lsds H1 H2 H3 H4 H5 H6
           missing available cb H7 H8 size1 size2 ds1 H).
Qed.
Print Assumptions C31_partial.

Ltac distinct := cbn; repeat match goal with |- NoDup _ => constructor
  | |- ~ In _ _ => cbn; intros Hn; repeat (destruct Hn as [Hn|Hn]; try discriminate Hn); exact Hn end.

(** Two groups at the same place that see a peak acceleration of 5. *)
Definition ob_sample : frame := [(["PFA"; "1"; "1"], [Some (qc 5)])].
Definition ob_term := {| t_type := Some "Peak Floor Acceleration"; t_offset := Some (qc 0); t_directional := Some (qc 1) |}.
Definition ob_params : dict demand_params :=
  [("A", {| expression := NoColumn; terms := [ob_term] |}); ("B", {| expression := NoColumn; terms := [ob_term] |})].
Definition ob_cb : block_table := [(b_of demoA, 1%Z); (b_of demoB, 1%Z)].
Definition ob_run cap lsds size :=
  obtain_ds_sample no_terms no_eval ob_params [("PFA", qc 0)] [("ALL", qc 1)] ob_sample cap lsds [] ["A"; "B"] size ob_cb.
Definition ob_cap : cap_frame := [((demoA, "1"), [Some (qc 1)]); ((demoA, "2"), [Some (qc 9)])] ++
  [((demoB, "1"), [Some (qc 1)]); ((demoB, "2"), [Some (qc 2)])].
Definition ob_lsds : lsds_frame :=
  [((demoA, "1"), [1%Z]); ((demoA, "2"), [2%Z]); ((demoB, "1"), [1%Z]); ((demoB, "2"), [2%Z])].

Example C31_hypotheses_met :
  let n := n_rows ob_sample in
  well_formed n ob_cap /\ well_formed n ob_lsds /\ (forall k, In k (map fst ob_cap) -> In k (map fst ob_lsds)) /\
  gapless ob_cap /\ demand_table ob_sample /\
  (forall c vars v, Forall (fun x => List.length (snd x) = n) vars -> no_eval c vars = Ok v -> List.length v = n) /\
  NoDup (map fst ob_cb) /\ Forall (fun r => (0 < snd r)%Z) ob_cb /\
  ob_run ob_cap ob_lsds 1 = Ok [(demoA, [1%Z]); (demoB, [2%Z])].
Proof.
  cbv zeta. split; [|split; [|split; [|split; [|split; [|split; [|split; [|split]]]]]]].
  - split; [|repeat constructor]. distinct.
  - split; [|repeat constructor]. distinct.
  - cbn. tauto.
  - intros b ls Hb. unfold has_ls in *. cbn [ob_cap map fst app] in *.
    assert (Hcase : (b = demoA \/ b = demoB) /\ (ls = "1" \/ ls = "2")).
    { destruct Hb as [E|[E|[E|[E|[]]]]]; inversion E; auto. }
    destruct Hcase as [Hb' Hls]. split.
    + destruct Hls as [-> | ->]; cbn; tauto.
    + intros b' ls' Hb'' Hlt.
      assert (Hls' : ls' = "1" \/ ls' = "2") by (destruct Hb'' as [E|[E|[E|[E|[]]]]]; inversion E; auto).
      destruct Hls as [-> | ->], Hls' as [-> | ->], Hb' as [-> | ->]; cbn in *; try tauto; exfalso; vm_compute in Hlt; lia.
  - repeat constructor.
  - intros c vars v _ H. discriminate H.
  - distinct.
  - repeat constructor.
  - vm_compute. reflexivity.
Qed.

(** With limit states 1 and 3 for A and 1, 2 and 3 for B, all of B exceeded: in a batch of its own B
    is in state 3; in a batch with A it is in state 2. *)
Theorem C31_refuted : ~ (forall nterms eval params offsets multipliers sample cap lsds missing available cb size1 size2 ds1 ds2,
  let n := n_rows sample in
  well_formed n cap -> well_formed n lsds -> (forall k, In k (map fst cap) -> In k (map fst lsds)) ->
  demand_table sample ->
  (forall c vars v, Forall (fun x => List.length (snd x) = n) vars -> eval c vars = Ok v -> List.length v = n) ->
  NoDup (map fst cb) -> Forall (fun r => (0 < snd r)%Z) cb ->
  obtain_ds_sample nterms eval params offsets multipliers sample cap lsds missing available size1 cb = Ok ds1 ->
  obtain_ds_sample nterms eval params offsets multipliers sample cap lsds missing available size2 cb = Ok ds2 ->
  forall b i s, cell_at ds1 b i s <-> cell_at ds2 b i s).
Proof.
  intros H.
  specialize (H no_terms no_eval ob_params [("PFA", qc 0)] [("ALL", qc 1)] ob_sample demo_cap demo_lsds [] ["A"; "B"] ob_cb 1%Z 2%Z
                [(demoA, [1%Z]); (demoB, [3%Z])] [(demoA, [1%Z]); (demoB, [2%Z])]).
  cbv zeta in H.
  assert (Hc : cell_at [(demoA, [1%Z]); (demoB, [2%Z])] demoB 0 3%Z).
  { apply H.
    - split; [|repeat constructor]. distinct.
    - split; [|repeat constructor]. distinct.
    - cbn. tauto.
    - repeat constructor.
    - intros c vars v _ He. discriminate He.
    - distinct.
    - repeat constructor.
    - vm_compute. reflexivity.
    - vm_compute. reflexivity.
    - exists [3%Z]. cbn. auto. }
  destruct Hc as (col & [E|[E|[]]] & Hi); inversion E; subst. cbn in Hi. discriminate Hi.
Qed.
Print Assumptions C31_refuted.
