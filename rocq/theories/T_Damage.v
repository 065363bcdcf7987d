(** Property theorems about damage state evaluation, damaged quantities and damage
    processes (C30, C32-C35). *)
From Coq Require Import Sorting.Permutation Sorting.Sorted.
From Verif Require Import Prelude PreludeFacts Pandas PandasFacts M_Base P_Base M_Damage S_Damage P_Eval P_Qty P_Text P_Proc P_Fema.
Local Open Scope string_scope.
Local Open Scope list_scope.

(** * C30 *)

Ltac evaluated H :=
  unfold evaluate_damage_state in H;
  match type of H with bind (demand_columns ?d ?r ?c) _ = _ =>
    let E := fresh "Edem" in destruct (demand_columns d r c) as [dem|] eqn:E; cbn [bind] in H; [|discriminate H] end;
  cbv zeta in H; injection H as <-.

(** The result has one column per block of the capacity sample, one row per realization. *)
Theorem C30_shape : forall n demands required cap lsds ds,
  well_formed n cap -> well_formed n lsds -> well_formed n demands ->
  evaluate_damage_state n demands required cap lsds = Ok ds ->
  well_formed n ds /\ forall b, In b (map fst ds) <-> exists ls, has_ls cap b ls.
Proof.
  intros n demands required cap lsds ds H1 H2 H3 H. evaluated H. split.
  - now apply (@result_shape n demands required cap lsds dem).
  - intros b. now apply (@result_blocks n demands required cap lsds dem).
Qed.
Print Assumptions C30_shape.

(** Undamaged exactly when no limit state of the block is exceeded; otherwise in the state
    drawn for one of the exceeded limit states of that block. *)
Theorem C30_state : forall n demands required cap lsds ds b i d,
  well_formed n cap -> well_formed n lsds -> well_formed n demands -> one_demand required ->
  (forall k, In k (map fst cap) -> In k (map fst lsds)) ->
  (forall ls s, cell_at lsds (b, ls) i s -> (1 <= s)%Z) ->
  evaluate_damage_state n demands required cap lsds = Ok ds ->
  (i < n)%nat -> (exists ls, has_ls cap b ls) -> demand_for demands required (b_of b) i d ->
  exists s, cell_at ds b i s /\
    (s = 0%Z <-> forall ls, ~ exceeded cap d b ls i) /\
    ((exists ls, exceeded cap d b ls i) -> exists ls, exceeded cap d b ls i /\ cell_at lsds (b, ls) i s).
Proof.
  intros n demands required cap lsds ds b i d H1 H2 H3 H4 H5 Hpos H Hi Hb Hd. evaluated H.
  destruct (@result_spec n demands required cap lsds dem H1 H2 H3 H4 H5 Edem b i d Hi Hb Hd) as (s & Hs & Hz & Hp).
  exists s. split; [easy|]. split; [split; [|easy]|].
  - intros -> ls Hx. destruct (Hp (ex_intro _ ls Hx) Hpos) as (ls' & _ & Hc). specialize (Hpos _ _ Hc). lia.
  - intros Hx. now apply Hp.
Qed.
Print Assumptions C30_state.

(** When no component skips a limit state, the state is that of the highest exceeded one. *)
Theorem C30_highest_partial : forall n demands required cap lsds ds b i d m s,
  well_formed n cap -> well_formed n lsds -> well_formed n demands -> one_demand required ->
  evaluate_damage_state n demands required cap lsds = Ok ds ->
  gapless cap -> (i < n)%nat -> demand_for demands required (b_of b) i d ->
  highest_exceeded cap d b i ls_number m -> cell_at lsds (b, m) i s ->
  cell_at ds b i s.
Proof.
  intros n demands required cap lsds ds b i d m s H1 H2 H3 H4 H Hg Hi Hd [Hx Hmax] Hs. evaluated H.
  now apply (@result_highest n demands required cap lsds dem H1 H2 H3 H4 Edem b i d m s).
Qed.
Print Assumptions C30_highest_partial.

(** For any limit states, with or without gaps: the state is that of the exceeded limit state of
    the block that appears last when the labels of all blocks are in alphabetical order. *)
Theorem C30_last_seen : forall n demands required cap lsds ds b i d m s,
  well_formed n cap -> well_formed n lsds -> well_formed n demands -> one_demand required ->
  evaluate_damage_state n demands required cap lsds = Ok ds ->
  (i < n)%nat -> demand_for demands required (b_of b) i d ->
  last_seen_exceeded cap d b i m -> cell_at lsds (b, m) i s -> cell_at ds b i s.
Proof.
  intros n demands required cap lsds ds b i d m s H1 H2 H3 H4 H Hi Hd Hm Hs. evaluated H.
  now apply (@result_last_seen n demands required cap lsds dem H1 H2 H3 H4 Edem b i d m s).
Qed.
Print Assumptions C30_last_seen.
(** Such a limit state exists whenever one is exceeded. *)
Theorem C30_last_seen_exists : forall n demands required cap lsds ds b i d ls,
  well_formed n cap -> well_formed n lsds -> well_formed n demands -> one_demand required ->
  evaluate_damage_state n demands required cap lsds = Ok ds ->
  (i < n)%nat -> demand_for demands required (b_of b) i d -> exceeded cap d b ls i ->
  exists m, last_seen_exceeded cap d b i m.
Proof.
  intros n demands required cap lsds ds b i d ls H1 H2 H3 H4 H Hi Hd He. evaluated H.
  now apply (@last_seen_exists n demands required cap lsds dem H1 H3 H4 Edem b i d ls).
Qed.
Print Assumptions C30_last_seen_exists.

(** A one-realization instance: component A with limit states 1 and 3, component B with 1, 2
    and 3; both see the demand 5. *)
Definition demoA := Blk (PG "A" "1" "1" "0") "1".
Definition demoB := Blk (PG "B" "1" "1" "0") "1".
Definition demo_demands : list (edp_key * list num) := [((["PFA-1-1"], None), [Some (qc 5)])].
Definition demo_required : list (edp_key * list pg) := [((["PFA-1-1"], None), [b_of demoA; b_of demoB])].
Definition demo_capB : cap_frame :=
  [((demoB, "1"), [Some (qc 1)]); ((demoB, "2"), [Some (qc 2)]); ((demoB, "3"), [Some (qc 3)])].
Definition demo_cap : cap_frame := [((demoA, "1"), [Some (qc 1)]); ((demoA, "3"), [Some (qc 9)])] ++ demo_capB.
Definition demo_lsds : lsds_frame :=
  [((demoA, "1"), [1%Z]); ((demoA, "3"), [2%Z]); ((demoB, "1"), [1%Z]); ((demoB, "2"), [2%Z]); ((demoB, "3"), [3%Z])].

Example C30_state_hypotheses_met :
  well_formed 1 demo_cap /\ well_formed 1 demo_lsds /\ well_formed 1 demo_demands /\ one_demand demo_required /\
  (forall k, In k (map fst demo_cap) -> In k (map fst demo_lsds)) /\
  (forall ls s, cell_at demo_lsds (demoA, ls) 0 s -> (1 <= s)%Z) /\
  demand_for demo_demands demo_required (b_of demoA) 0 (Some (qc 5)) /\ has_ls demo_cap demoA "1".
Proof.
  unfold well_formed, one_demand. cbn.
  repeat match goal with |- _ /\ _ => split | |- NoDup _ => constructor | |- Forall _ _ => constructor
         | |- ~ In _ _ => cbn; intros Hn; repeat (destruct Hn as [Hn|Hn]; try discriminate Hn); exact Hn end; auto.
  - intros ls s (col & [E|[E|[E|[E|[E|[]]]]]] & Hs); inversion E; subst; cbn in Hs; injection Hs as <-; lia.
  - exists (["PFA-1-1"], None), [Some (qc 5)], [b_of demoA; b_of demoB]. cbn. repeat split; auto 10.
Qed.

(** B's second limit state appears last, behind the third one of A. *)
Example C30_last_seen_concrete : last_seen_exceeded demo_cap (Some (qc 5)) demoB 0 "2".
Proof.
  split.
  - exists (qc 2), (qc 5). split; [exists [Some (qc 2)]; cbn; auto 10|]. split; [reflexivity|]. vm_compute. reflexivity.
  - intros ls (c & q & (col & Hin & _) & _) [N (k & Hk & Hmin)]. cbn in Hin, Hk.
    assert (k = demoB) as -> by (repeat (destruct Hk as [Hk|Hk]; [congruence|]); destruct Hk).
    destruct Hin as [E|[E|[E|[E|[E|[]]]]]]; injection E as E1 E2; try congruence; subst ls; first [discriminate E1|idtac].
    + specialize (Hmin demoA (or_introl eq_refl)). vm_compute in Hmin. discriminate.
    + specialize (Hmin demoA (or_intror (or_introl eq_refl))). vm_compute in Hmin. discriminate.
Qed.


(** The highest exceeded limit state does not decide in general. *)
Theorem C30_highest_refuted : ~ (forall n demands required cap lsds ds b i d m s,
  well_formed n cap -> well_formed n lsds -> well_formed n demands -> one_demand required ->
  evaluate_damage_state n demands required cap lsds = Ok ds ->
  (i < n)%nat -> demand_for demands required (b_of b) i d ->
  (forall b ls, has_ls cap b ls -> In ls digit_ids) ->
  highest_exceeded cap d b i ls_number m -> cell_at lsds (b, m) i s ->
  cell_at ds b i s).
Proof.
  intros H.
  destruct C30_state_hypotheses_met as (W1 & W2 & W3 & W4 & _ & _ & _ & _).
  specialize (H 1%nat demo_demands demo_required demo_cap demo_lsds
                [(demoA, [1%Z]); (demoB, [2%Z])] demoB 0%nat (Some (qc 5)) "3" 3%Z W1 W2 W3 W4 eq_refl).
  assert (Hc : cell_at [(demoA, [1%Z]); (demoB, [2%Z])] demoB 0 3%Z).
  { apply H.
    - lia.
    - exists (["PFA-1-1"], None), [Some (qc 5)], [b_of demoA; b_of demoB]. cbn. repeat split; auto 10.
    - intros b ls Hb. unfold has_ls in Hb. cbn in Hb. cbn.
      repeat (destruct Hb as [Hb|Hb]; [injection Hb as <- <-; auto 10|]). easy.
    - split.
      + exists (qc 3), (qc 5). split; [|split; [easy|vm_compute; easy]].
        exists [Some (qc 3)]. cbn. auto 10.
      + intros ls (c & q & (col & Hin & _) & _). cbn in Hin.
        repeat (destruct Hin as [Hin|Hin]; [first [discriminate Hin|injection Hin as <- <-; cbn; lia]|]). easy.
    - exists [3%Z]. cbn. auto 10. }
  destruct Hc as (col & [E|[E|[]]] & Hc); inversion E; subst; discriminate Hc.
Qed.
Print Assumptions C30_highest_refuted.

(** Nor is the result of a block independent of the other components of its batch: alone,
    block B is in state 3; evaluated together with A it is in state 2. *)
Theorem C30_independent_refuted :
  exists n demands required required' capA capB lsds dsB ds b,
    evaluate_damage_state n demands required' capB lsds = Ok dsB /\
    evaluate_damage_state n demands required (capA ++ capB) lsds = Ok ds /\
    well_formed n (capA ++ capB) /\
    cell_at dsB b 0 3%Z /\ cell_at ds b 0 2%Z.
Proof.
  exists 1%nat, demo_demands, demo_required, [((["PFA-1-1"], None), [b_of demoB])],
    [((demoA, "1"), [Some (qc 1)]); ((demoA, "3"), [Some (qc 9)])], demo_capB, demo_lsds.
  eexists. eexists. exists demoB. split; [reflexivity|]. split; [reflexivity|].
  split; [exact (proj1 C30_state_hypotheses_met)|].
  split; [exists [3%Z]|exists [2%Z]]; vm_compute; auto.
Qed.
Print Assumptions C30_independent_refuted.

Example C30_highest_hypotheses_met : gapless demo_capB /\
  highest_exceeded demo_capB (Some (qc 5)) demoB 0 ls_number "3".
Proof.
  split.
  - intros b ls Hb. unfold has_ls in *. cbn in Hb.
    assert (Hc : b = demoB /\ In ls ["1"; "2"; "3"]).
    { repeat (destruct Hb as [Hb|Hb]; [injection Hb as <- <-; cbn; auto|]). easy. }
    destruct Hc as [-> Hl]. split; [cbn in *; intuition|].
    intros b' ls' Hb' Hlt. cbn in Hb'.
    repeat (destruct Hb' as [Hb'|Hb']; [injection Hb' as <- <-; cbn; auto|]). easy.
  - split.
    + exists (qc 3), (qc 5). split; [|split; [easy|vm_compute; easy]]. exists [Some (qc 3)]. cbn. auto 10.
    + intros ls (c & q & (col & Hin & _) & _). cbn in Hin.
      repeat (destruct Hin as [Hin|Hin]; [first [discriminate Hin|injection Hin as <- <-; cbn; lia]|]). easy.
Qed.

(** * C32 *)

(** The quantities of a group in a realization add up to the share of its blocks that is
    counted: all that are available, or all available and damaged with [dropzero]. *)
Theorem C32_total : forall n dropzero sample blocks ds q p qty nb i,
  well_formed n ds -> well_formed n sample ->
  match blocks with Some l => NoDup (map fst l) | None => True end ->
  prepare_dmg_quantities n dropzero sample blocks ds = Ok q ->
  In (p, qty) sample -> blocks_of blocks p nb -> (i < n)%nat ->
  row_total q p i =
    (qn (blocks_with ds p i (fun d => negb (d =? -1)%Z && negb (dropzero && (d =? 0)%Z))) *
     (nth i qty 0 / qz nb))%Qc.
Proof.
  intros n dropzero sample blocks ds q p qty nb i [_ Hd] Hs Hb H Hq Hnb Hi.
  rewrite (total_lemma n dropzero sample blocks ds Hd Hs q H p i Hi).
  rewrite (qtyf_spec n sample Hs p qty Hq), (nbf_spec n dropzero sample blocks ds Hb q H p nb Hnb). easy.
Qed.
Print Assumptions C32_total.

(** With every block available and all states listed, they add up to the component quantity. *)
Theorem C32_conservation : forall n sample blocks ds q p qty nb i,
  well_formed n ds -> well_formed n sample ->
  match blocks with Some l => NoDup (map fst l) | None => True end ->
  prepare_dmg_quantities n false sample blocks ds = Ok q ->
  In (p, qty) sample -> blocks_of blocks p nb -> (i < n)%nat ->
  (0 < nb)%Z -> Z.of_nat (blocks_with ds p i (fun _ => true)) = nb ->
  blocks_with ds p i (Z.eqb (-1)) = 0%nat ->
  row_total q p i = nth i qty 0%Qc.
Proof.
  intros n sample blocks ds q p qty nb i Hd Hs Hb H Hq Hnb Hi Hpos Hall Hna.
  rewrite (C32_total n false sample blocks ds q p qty nb i Hd Hs Hb H Hq Hnb Hi).
  assert (E : blocks_with ds p i (fun d => negb (d =? -1)%Z && negb (false && (d =? 0)%Z)) =
              blocks_with ds p i (fun _ => true)).
  { now apply blocks_with_available. }
  rewrite E. rewrite <- Hall.
  assert (Hn : qz (Z.of_nat (blocks_with ds p i (fun _ => true))) = qn (blocks_with ds p i (fun _ => true))) by easy.
  rewrite Hn.
  assert (Hne : qn (blocks_with ds p i (fun _ => true)) <> 0%Qc).
  { intros Ez. change 0%Qc with (qn 0) in Ez. apply qn_inj in Ez. lia. }
  field. exact Hne.
Qed.
Print Assumptions C32_conservation.

(** Each reported quantity is the share of the blocks in that state, between zero and the
    component quantity. *)
Theorem C32_cell : forall n dropzero sample blocks ds q p qty nb i s col v,
  well_formed n ds -> well_formed n sample ->
  match blocks with Some l => NoDup (map fst l) | None => True end ->
  prepare_dmg_quantities n dropzero sample blocks ds = Ok q ->
  In (p, qty) sample -> blocks_of blocks p nb -> (i < n)%nat ->
  In ((p, s), col) q -> nth i col None = Some v ->
  exists d, s = str_of_Z d /\ d <> (-1)%Z /\ (dropzero = true -> d <> 0%Z) /\
    v = (qn (blocks_with ds p i (Z.eqb d)) * (nth i qty 0 / qz nb))%Qc.
Proof.
  intros n dropzero sample blocks ds q p qty nb i s col v [_ Hd] Hs Hb H Hq Hnb Hi Hin Hv.
  destruct (column_states n dropzero sample blocks ds q H p s col Hin) as (_ & c & d & _ & _ & _ & Hk & ->).
  exists d. split; [easy|]. unfold keep in Hk. apply andb_true_iff in Hk as [Hk1 Hk2]. split.
  - intros ->. easy.
  - split.
    + intros -> ->. easy.
    + rewrite (cell_value n dropzero sample blocks ds Hd Hs q H p d col i v Hi) by (try easy; unfold keep; now rewrite Hk1, Hk2).
      now rewrite (qtyf_spec n sample Hs p qty Hq), (nbf_spec n dropzero sample blocks ds Hb q H p nb Hnb).
Qed.
Print Assumptions C32_cell.

(** Non-negative and at most the component quantity. *)
Theorem C32_bounds : forall n dropzero sample blocks ds q p qty nb i s col v,
  well_formed n ds -> well_formed n sample ->
  match blocks with Some l => NoDup (map fst l) | None => True end ->
  prepare_dmg_quantities n dropzero sample blocks ds = Ok q ->
  In (p, qty) sample -> blocks_of blocks p nb -> (i < n)%nat ->
  (0 < nb)%Z -> Z.of_nat (blocks_with ds p i (fun _ => true)) = nb -> (0 <= nth i qty 0)%Qc ->
  In ((p, s), col) q -> nth i col None = Some v ->
  (0 <= v /\ v <= nth i qty 0)%Qc.
Proof.
  intros n dropzero sample blocks ds q p qty nb i s col v Hd Hs Hb H Hq Hnb Hi Hpos Hall Hnn Hin Hv.
  destruct (C32_cell n dropzero sample blocks ds q p qty nb i s col v Hd Hs Hb H Hq Hnb Hi Hin Hv) as (d & _ & _ & _ & ->).
  rewrite <- Hall in *. apply share_bounds; [apply blocks_with_le|lia|easy].
Qed.
Print Assumptions C32_bounds.

(** Distinct columns; one for every counted state of every block; a cell is missing exactly
    when every block that ever takes that state is not available in that realization. *)
Theorem C32_columns : forall n dropzero sample blocks ds q,
  well_formed n ds -> well_formed n sample ->
  prepare_dmg_quantities n dropzero sample blocks ds = Ok q ->
  NoDup (map fst q) /\
  (forall b dcol i d, In (b, dcol) ds -> (i < n)%nat -> nth_error dcol i = Some d -> d <> (-1)%Z ->
     (dropzero = true -> d <> 0%Z) ->
     exists col v, In ((b_of b, str_of_Z d), col) q /\ nth i col None = Some v) /\
  (forall p d col i, In ((p, str_of_Z d), col) q -> (i < n)%nat ->
     (nth i col None = None <->
      forall b dcol, In (b, dcol) ds -> b_of b = p -> In d dcol -> nth i dcol 0%Z = (-1)%Z)).
Proof.
  intros n dropzero sample blocks ds q [_ Hd] Hs H. split; [|split].
  - exact (columns_NoDup n dropzero sample blocks ds q H).
  - intros b dcol i d Hin Hi Hn H1 H2.
    apply (observed_column n dropzero sample blocks ds Hd Hs q H (b_of b) d (b, dcol) i Hin eq_refl Hi).
    + cbn. now apply nth_error_nth.
    + unfold keep. apply andb_true_iff. split; apply negb_true_iff.
      * now apply Z.eqb_neq.
      * destruct dropzero; [|easy]. cbn. apply Z.eqb_neq. now apply H2.
  - intros p d col i Hin Hi.
    destruct (column_states n dropzero sample blocks ds q H p _ col Hin) as (_ & c & d' & _ & _ & _ & Hk & E).
    apply str_of_Z_inj in E as <-.
    rewrite (cell_nan n dropzero sample blocks ds Hd Hs q H p d col i Hi Hk Hin). split.
    + intros HH b dcol Hc Eb Hin'. exact (HH (b, dcol) Hc Eb Hin').
    + intros HH [b dcol] Hc Eb Hin'. exact (HH b dcol Hc Eb Hin').
Qed.
Print Assumptions C32_columns.

Definition demo_pg := PG "A" "1" "1" "0".
Definition demo_ds : ds_frame := [(Blk demo_pg "1", [0%Z; 1%Z; (-1)%Z]); (Blk demo_pg "2", [2%Z; 1%Z; (-1)%Z])].
Definition demo_sample : list (pg * list Qc) := [(demo_pg, [qc 10; qc 6; qc 4])].
Example C32_hypotheses_met : well_formed 3 demo_ds /\ well_formed 3 demo_sample /\
  exists q, prepare_dmg_quantities 3 false demo_sample (Some [(demo_pg, 2%Z)]) demo_ds = Ok q /\
    List.length q = 3%nat /\ row_total q demo_pg 0 = qc 10 /\ row_total q demo_pg 1 = qc 6 /\
    blocks_with demo_ds demo_pg 0 (fun _ => true) = 2%nat /\ blocks_with demo_ds demo_pg 0 (Z.eqb (-1)) = 0%nat.
Proof.
  unfold well_formed. cbn.
  repeat match goal with |- _ /\ _ => split | |- NoDup _ => constructor | |- Forall _ _ => constructor
         | |- ~ In _ _ => cbn; intros Hn; repeat (destruct Hn as [Hn|Hn]; try discriminate Hn); exact Hn end; auto.
  eexists. split; [vm_compute; reflexivity|]. split; [reflexivity|].
  repeat split; vm_compute; reflexivity.
Qed.

(** * C33 *)

(** A single-entry task "num_source[-LOC]: {DSk: target_event}" sets exactly the targeted
    cells where the source is in state [k], to the prescribed state. *)
Theorem C33_single : forall n order ds w num source (ml : bool) k target ev v,
  (forall l, Permutation (order l) l) -> well_formed n ds ->
  has_char "_" num = false -> has_char "_" source = false -> has_char "-" source = false ->
  has_char "_" target = false ->
  (exists j, ev = ("DS" ++ str_of_nat j)%string /\ v = Z.of_nat j) \/ (ev = "NA" /\ v = (-1)%Z) ->
  present ds source -> target = "ALL" \/ present ds target ->
  exists ds', perform_dmg_task order (ds, w)
      ((num ++ "_" ++ source ++ (if ml then "-LOC" else ""))%string,
       [(("DS" ++ str_of_nat k)%string, One (target ++ "_" ++ ev)%string)]) = Ok (ds', w) /\
    well_formed n ds' /\ map fst ds' = map fst ds /\
    forall b i, In b (map fst ds) -> (i < n)%nat ->
      (triggered ml ds source target (Z.of_nat k) b i -> cell_at ds' b i v) /\
      (~ triggered ml ds source target (Z.of_nat k) b i -> forall z, cell_at ds' b i z <-> cell_at ds b i z).
Proof.
  intros n order ds w num source ml k target ev v Ho Hds H1 H2 H3 H4 Hev Hp Htp.
  assert (Hv : parse_target_event ev = Ok v /\ has_char "_" ev = false).
  { destruct Hev as [(j & -> & ->)|[-> ->]]; [|easy]. split.
    - apply parse_target_DS.
    - change ("DS" ++ str_of_nat j)%string with (String "D" (String "S" (str_of_nat j))). cbn.
      apply (all_digits_nochar "_"); [easy|apply str_of_nat_digits]. }
  destruct Hv as [Hv Hu].
  eexists. split; [eapply single_task; eauto|]. split; [now apply upd_wf|]. split; [apply upd_keys|].
  intros b i Hb Hi.
  destruct (event_upd_cell n ds ml source (Z.of_nat k) target v b i Hds Hi) as [A B].
  { intros _. now apply cmp_in_true. }
  split; [intros Ht; now apply A|exact B].
Qed.
Print Assumptions C33_single.

(** Tasks with several entries or targets run them one after the other. *)
Theorem C33_sequence : forall n order (st : proc_state) name source ml,
  (forall l, Permutation (order l) l) -> well_formed n (fst st) ->
  parse_source name = Ok (source, ml) -> present (fst st) source ->
  (forall e es, perform_dmg_task order st (name, e :: es) =
     bind (perform_dmg_task order st (name, [e])) (fun st' => perform_dmg_task order st' (name, es))) /\
  (forall ev t ts, perform_dmg_task order st (name, [(ev, Many (t :: ts))]) =
     bind (perform_dmg_task order st (name, [(ev, One t)]))
          (fun st' => perform_dmg_task order st' (name, [(ev, Many ts)]))).
Proof.
  intros n order st name source ml Ho Hw Hn Hp. split; intros.
  - eapply task_entries; eauto.
  - eapply task_targets; eauto.
Qed.
Print Assumptions C33_sequence.

(** Blocks no task names keep their states through a whole damage process. *)
Theorem C33_frame : forall n order tasks ds ds' w b,
  (forall l, Permutation (order l) l) -> well_formed n ds ->
  perform_dmg_process order tasks ds = Ok (ds', w) ->
  (forall t, In t tasks -> untargeted t b) ->
  well_formed n ds' /\ map fst ds' = map fst ds /\ forall i z, cell_at ds' b i z <-> cell_at ds b i z.
Proof. exact process_frame. Qed.
Print Assumptions C33_frame.

(** Malformed tasks are rejected, well-formed ones accepted. *)
Theorem C33_accepted : forall n order (st : proc_state) t,
  (forall l, Permutation (order l) l) -> well_formed n (fst st) ->
  (is_ok (perform_dmg_task order st t) = true <-> task_accepted (map fst (fst st)) t).
Proof. exact task_accept. Qed.
Print Assumptions C33_accepted.

(** The order in which a location-specific task visits the locations is irrelevant. *)
Theorem C33_order_irrelevant : forall n o1 o2 source k target v ds,
  (forall l, Permutation (o1 l) l) -> (forall l, Permutation (o2 l) l) -> well_formed n ds ->
  perform_dmg_event_loc o1 source k target v ds = perform_dmg_event_loc o2 source k target v ds.
Proof.
  intros n o1 o2 source k target v ds H1 H2 Hds.
  rewrite (event_loc_upd n) by easy. now rewrite (event_loc_upd n).
Qed.
Print Assumptions C33_order_irrelevant.

(** A source whose name contains an underscore is cut at it: the task "1_CMP_A" of the
    documentation acts on a component called "CMP". *)
Theorem C33_underscore_refuted : ~ (forall num source,
  has_char "_" num = false -> parse_source (num ++ "_" ++ source)%string = Ok (source, false)).
Proof. intros H. specialize (H "1" "CMP_A" eq_refl). discriminate H. Qed.
Print Assumptions C33_underscore_refuted.

Definition demo_proc : ds_frame :=
  [(Blk (PG "S" "1" "1" "0") "1", [1%Z; 0%Z; 0%Z]); (Blk (PG "S" "2" "1" "0") "1", [0%Z; 1%Z; 0%Z]);
   (Blk (PG "T" "1" "1" "0") "1", [2%Z; 2%Z; 2%Z]); (Blk (PG "T" "2" "1" "0") "1", [3%Z; 3%Z; 3%Z])].
Example C33_single_hypotheses_met : well_formed 3 demo_proc /\ present demo_proc "S" /\ present demo_proc "T" /\
  perform_dmg_task (fun l => l) (demo_proc, []) ("1_S-LOC", [("DS1", One "T_NA")]) =
  Ok ([(Blk (PG "S" "1" "1" "0") "1", [1%Z; 0%Z; 0%Z]); (Blk (PG "S" "2" "1" "0") "1", [0%Z; 1%Z; 0%Z]);
       (Blk (PG "T" "1" "1" "0") "1", [(-1)%Z; 2%Z; 2%Z]); (Blk (PG "T" "2" "1" "0") "1", [3%Z; (-1)%Z; 3%Z])], []).
Proof.
  unfold well_formed. cbn.
  repeat match goal with |- _ /\ _ => split | |- NoDup _ => constructor | |- Forall _ _ => constructor
         | |- ~ In _ _ => cbn; intros Hn; repeat (destruct Hn as [Hn|Hn]; try discriminate Hn); exact Hn end; auto.
  - eexists. split; [now left|easy].
  - eexists. split; [right; right; now left|easy].
Qed.
Example C33_frame_hypotheses_met :
  untargeted ("1_S-LOC", [("DS1", One "T_NA")]) (Blk (PG "S" "1" "1" "0") "1") /\
  task_accepted (map fst demo_proc) ("1_S-LOC", [("DS1", One "T_NA")]) /\
  ~ task_accepted (map fst demo_proc) ("1_S", [("DS1", One "T_X")]).
Proof.
  split; [|split].
  - intros source ml ev tg info target event Hs [E|[]] Hi Ht. injection E as <- <-.
    destruct Hi as [<-|[]]. injection Ht as <- <-. intros [[E _]|[_ E]]; discriminate.
  - exists "S", true. split; [now apply parse_source_names|]. intros _ e [<-|[]]. split.
    + exists "1". split; [reflexivity|]. vm_compute. discriminate.
    + intros info [<-|[]]. exists "T", "NA". split; [reflexivity|]. right. now left.
  - intros (source & ml & Hs & H). apply parse_source_names in Hs. injection Hs as <- <-.
    destruct (H (ex_intro _ (Blk (PG "S" "1" "1" "0") "1") (conj (or_introl eq_refl) eq_refl)) _ (or_introl eq_refl)) as [_ H2].
    destruct (H2 "T_X" (or_introl eq_refl)) as (t & e & E & [[_ Hn]|[Hv|(r & Hv & _)]]); injection E as <- <-.
    + apply Hn. exists (Blk (PG "T" "1" "1" "0") "1"). split; [cbn; auto|easy].
    + discriminate Hv.
    + discriminate Hv.
Qed.

(** * C34 *)

(** Tasks whose numbers have the same number of digits run in increasing numerical order. *)
Theorem C34_order_partial : forall len tasks,
  Permutation tasks (sort_tasks tasks) /\
  StronglySorted (fun a b => forall ka kb, numbered (fst a) len ka -> numbered (fst b) len kb -> (ka <= kb)%Z)
                 (sort_tasks tasks).
Proof. exact sort_tasks_sorted. Qed.
Print Assumptions C34_order_partial.

(** With ten tasks the tenth runs before the second. *)
Theorem C34_order_refuted : ~ (forall tasks,
  (forall t, In t tasks -> exists len k, numbered (fst t) len k) ->
  StronglySorted (fun a b => forall la lb ka kb, numbered (fst a) la ka -> numbered (fst b) lb kb -> (ka <= kb)%Z)
                 (sort_tasks tasks)).
Proof.
  intros H.
  assert (N2 : numbered "2_B" 1 2). { exists "2", "B". vm_compute. repeat split; easy. }
  assert (N10 : numbered "10_A" 2 10). { exists "10", "A". vm_compute. repeat split; easy. }
  specialize (H [("2_B", []); ("10_A", [])]).
  assert (S : sort_tasks [("2_B", []); ("10_A", [])] = [("10_A", []); ("2_B", [])]) by reflexivity.
  rewrite S in H. assert (HH := H ltac:(intros t [<-|[<-|[]]]; eauto)).
  inversion HH as [|? ? _ Hf]; subst. inversion Hf as [|? ? Hle _]; subst. cbn in Hle.
  specialize (Hle _ _ _ _ N10 N2). lia.
Qed.
Print Assumptions C34_order_refuted.

Example C34_hypotheses_met : numbered "03_X" 2 3 /\ numbered "12_X" 2 12.
Proof. split; [exists "03", "X"|exists "12", "X"]; vm_compute; repeat split; easy. Qed.

(** * C35 *)

(** The FEMA P-58 process: collapse first, then irreparable damage, everything else not
    available in those realizations, all other realizations untouched. *)
Theorem C35_fema_p58 : forall n order ds, well_formed n ds ->
  exists ds' w, perform_dmg_process order fema_p58 ds = Ok (ds', w) /\
    well_formed n ds' /\ map fst ds' = map fst ds /\
    forall i, (i < n)%nat ->
      (fema_collapsed ds i ->
         in_state ds' "collapse" i 1 /\
         forall b z, cell_at ds' b i z -> cmp (b_of b) <> "collapse" -> z = (-1)%Z) /\
      (fema_irreparable ds i ->
         in_state ds' "irreparable" i 1 /\
         (forall b z, cell_at ds' b i z -> cmp (b_of b) = "collapse" -> z = 0%Z) /\
         (forall b z, cell_at ds' b i z -> cmp (b_of b) <> "collapse" -> cmp (b_of b) <> "irreparable" -> z = (-1)%Z)) /\
      (~ fema_collapsed ds i -> ~ fema_irreparable ds i ->
         forall b z, cell_at ds' b i z <-> cell_at ds b i z).
Proof. exact fema_spec. Qed.
Print Assumptions C35_fema_p58.

(** No realization is both collapsed and irreparable afterwards. *)
Theorem C35_exclusive : forall n order ds ds' w i, well_formed n ds -> (i < n)%nat ->
  perform_dmg_process order fema_p58 ds = Ok (ds', w) ->
  fema_collapsed ds i \/ fema_irreparable ds i ->
  ~ (in_state ds' "collapse" i 1 /\ in_state ds' "irreparable" i 1).
Proof.
  intros n order ds ds' w i Hw Hi H Hor [[(bc & Ec & Hc) _] [(br & Er & Hr) _]].
  destruct (fema_spec n order ds Hw) as (d & w' & H' & _ & _ & Hall). rewrite H in H'. injection H' as <- <-.
  destruct (Hall i Hi) as (A & B & _). destruct Hor as [Hx|Hx].
  - destruct (A Hx) as [_ A2]. specialize (A2 br 1%Z Hr). rewrite Er in A2. specialize (A2 ltac:(discriminate)). lia.
  - destruct (B Hx) as (_ & B2 & _). specialize (B2 bc 1%Z Hc Ec). lia.
Qed.
Print Assumptions C35_exclusive.

Definition demo_fema : ds_frame :=
  [(Blk (PG "excessiveRID" "1" "1" "0") "1", [0%Z; 1%Z; 1%Z; 0%Z]);
   (Blk (PG "collapse" "0" "1" "0") "1", [1%Z; 0%Z; 1%Z; 0%Z]);
   (Blk (PG "irreparable" "0" "1" "0") "1", [0%Z; 0%Z; 0%Z; 0%Z]);
   (Blk (PG "B" "2" "1" "0") "1", [3%Z; 2%Z; 1%Z; 2%Z])].
Example C35_hypotheses_met : well_formed 4 demo_fema /\ fema_collapsed demo_fema 0 /\ fema_irreparable demo_fema 1 /\
  fema_collapsed demo_fema 2 /\
  exists w, perform_dmg_process (fun l => l) fema_p58 demo_fema =
  Ok ([(Blk (PG "excessiveRID" "1" "1" "0") "1", [(-1)%Z; (-1)%Z; (-1)%Z; 0%Z]);
   (Blk (PG "collapse" "0" "1" "0") "1", [1%Z; 0%Z; 1%Z; 0%Z]);
   (Blk (PG "irreparable" "0" "1" "0") "1", [(-1)%Z; 1%Z; (-1)%Z; 0%Z]);
   (Blk (PG "B" "2" "1" "0") "1", [(-1)%Z; (-1)%Z; (-1)%Z; 2%Z])], w).
Proof.
  assert (Hin : forall c i k, in_state demo_fema c i k <->
      (exists b, cmp (b_of b) = c /\ cell_at demo_fema b i k) /\
      (forall b z, cmp (b_of b) = c -> cell_at demo_fema b i z -> (z <= k)%Z)) by easy.
  assert (Hcol : forall i col b, nth_error demo_fema 1 = Some (b, col) -> nth_error col i = Some 1%Z -> fema_collapsed demo_fema i).
  { intros i col b E Hi. injection E as <- <-. split.
    - eexists. split; [right; now left|easy].
    - right. split.
      + eexists. split; [|eexists; split; [right; left; reflexivity|exact Hi]]. easy.
      + intros b z Eb (col & Hc & Hz). cbn in Hc.
        repeat (destruct Hc as [Hc|Hc]; [injection Hc as <- <-; try discriminate Eb|]); [|easy].
        rewrite Hi in Hz. injection Hz as <-. lia. }
  split; [|split; [|split; [|split]]].
  - split; [|repeat constructor]. cbn.
    repeat match goal with |- NoDup _ => constructor
         | |- ~ In _ _ => cbn; intros Hn; repeat (destruct Hn as [Hn|Hn]; try discriminate Hn); exact Hn end; auto.
  - eapply Hcol; reflexivity.
  - split; [|split].
    + intros [_ [[(b & Eb & (col & Hc & Hz)) _]|[(b & Eb & (col & Hc & Hz)) _]]]; cbn in Hc;
        repeat (destruct Hc as [Hc|Hc]; [injection Hc as <- <-; try discriminate Eb; try discriminate Hz|]); easy.
    + eexists. split; [right; right; now left|easy].
    + left. split.
      * eexists. split; [|eexists; split; [left; reflexivity|reflexivity]]. easy.
      * intros b z Eb (col & Hc & Hz). cbn in Hc.
        repeat (destruct Hc as [Hc|Hc]; [injection Hc as <- <-; try discriminate Eb|]); [|easy].
        injection Hz as <-. lia.
  - eapply Hcol; reflexivity.
  - eexists. vm_compute. reflexivity.
Qed.
