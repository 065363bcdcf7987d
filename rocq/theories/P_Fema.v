(** Proofs about task order and the built-in damage processes
    (assessment.py:59-81, damage_model.py:303-313). *)
From Coq Require Import Sorting.Permutation Sorting.Sorted.
From Verif Require Import Prelude PreludeFacts Pandas PandasFacts M_Base P_Base M_Damage S_Damage P_Eval P_Qty P_Text P_Proc.
Local Open Scope string_scope.
Local Open Scope list_scope.

(** ** One plain task *)

Definition hs (c : string) (ds : ds_frame) (i : nat) (k : Z) : bool :=
  cmp_in c ds && (highest (is_source c) ds i =? k)%Z.

Definition taskf (src : string) (k : Z) (tgt : string) (v : Z) (ds : ds_frame) : blk -> nat -> Z -> Z :=
  fun b i x => if hs src ds i k && is_target src tgt b then v else x.

Lemma plain_task n order (st : proc_state) name ev info src k tgt tev v :
  well_formed n (fst st) ->
  parse_source name = Ok (src, false) -> starts_with "DS" ev = true -> pyint (str_drop 2 ev) = Some k ->
  split_on "_" info = [tgt; tev] -> parse_target_event tev = Ok v ->
  exists w, perform_dmg_task order st (name, [(ev, One info)]) = Ok (upd (taskf src k tgt v (fst st)) (fst st), w).
Proof.
  intros Hds Hs Hev Hk Hi Hv. unfold perform_dmg_task. cbn [fst snd]. rewrite Hs. cbn [bind].
  destruct (cmp_in src (fst st)) eqn:Ec.
  - cbn [foldM]. unfold perform_event. cbn [fst snd]. rewrite Hev, Hk. cbn [target_list foldM].
    unfold perform_target. rewrite Hi. destruct (negb (String.eqb tgt "ALL") && negb (cmp_in tgt (fst st))) eqn:Et.
    + cbn. eexists. f_equal. f_equal. rewrite <- (upd_id (fst st)) at 1. apply (upd_ext n); [easy|].
      intros b i x Hb _. unfold taskf. destruct (is_target src tgt b) eqn:E; [|now rewrite andb_false_r].
      exfalso. apply andb_true_iff in Et as [E1 E2]. unfold is_target in E.
      destruct (String.eqb tgt "ALL"); [easy|]. apply negb_true_iff in E2.
      apply in_map_iff in Hb as (c & <- & Hc).
      assert (H : cmp_in tgt (fst st) = true) by (unfold cmp_in; apply existsb_exists; exists c; auto). congruence.
    + rewrite Hv. cbn. eexists. f_equal. f_equal. rewrite event_plain_upd. apply (upd_ext n); [easy|].
      intros b i x _ _. unfold event_upd, taskf, hs. rewrite Ec. cbn [andb]. now rewrite andb_comm.
  - eexists. f_equal. f_equal. rewrite <- (upd_id (fst st)) at 1. apply (upd_ext n); [easy|].
    intros b i x _ _. unfold taskf, hs. now rewrite Ec.
Qed.

Section HS.
  Context (n : nat) (ds : ds_frame) (Hds : well_formed n ds).
  Lemma cmp_in_upd c f : cmp_in c (upd f ds) = cmp_in c ds.
  Proof. apply cmp_in_keys, upd_keys. Qed.
  Lemma hs_frame c f i k : (i < n)%nat -> (forall b x, cmp (b_of b) = c -> f b i x = x) ->
    hs c (upd f ds) i k = hs c ds i k.
  Proof.
    intros Hi Hf. unfold hs. rewrite cmp_in_upd. f_equal. f_equal. apply (highest_frame n); auto.
    intros b x Hb. apply Hf. now apply is_source_true.
  Qed.
  Lemma hs_const c f i k v : (i < n)%nat -> (forall b x, cmp (b_of b) = c -> f b i x = v) ->
    hs c (upd f ds) i k = cmp_in c ds && (v =? k)%Z.
  Proof.
    intros Hi Hf. unfold hs. rewrite cmp_in_upd. destruct (cmp_in c ds) eqn:E; [|easy]. cbn [andb]. f_equal.
    apply (highest_const n); auto. intros b x Hb. apply Hf. now apply is_source_true.
  Qed.
  Lemma hs_spec c i k : (i < n)%nat -> (hs c ds i k = true <-> in_state ds c i k).
  Proof.
    intros Hi. unfold hs, in_state.
    rewrite (highest_state_ext _ _ (fun b => is_source c b = true)) by (intros; now rewrite is_source_true).
    rewrite andb_true_iff, Z.eqb_eq. split.
    - intros [H1 H2]. now apply (highest_spec n).
    - intros H. assert (E : cmp_in c ds = true).
      { destruct H as [(b & Hb & Hz) _]. apply (cell_nth n) in Hz as (_ & x & Hx & <- & _); [|easy].
        apply existsb_exists. exists x. auto. }
      split; [easy|]. now apply (highest_spec n).
  Qed.
End HS.

(** ** FEMA P-58 *)

Section Fema.
  Context (n : nat) (order : list string -> list string) (ds : ds_frame) (Hds : well_formed n ds).
  Let T1 := upd (taskf "excessive.coll.DEM" 1 "collapse" 1 ds) ds.
  Let T2 := upd (taskf "collapse" 1 "ALL" (-1) T1) T1.
  Let T3 := upd (taskf "excessiveRID" 1 "irreparable" 1 T2) T2.
  Let T4 := upd (taskf "irreparable" 1 "ALL" (-1) T3) T3.
  Let T5 := upd (taskf "irreparable" 1 "collapse" 0 T4) T4.

  Lemma fema_run : exists w, perform_dmg_process order fema_p58 ds = Ok (T5, w).
  Proof.
    unfold perform_dmg_process.
    replace (sort_tasks fema_p58) with fema_p58 by (vm_compute; reflexivity).
    unfold fema_p58. cbn [foldM].
    assert (W1 : well_formed n T1) by now apply upd_wf.
    assert (W2 : well_formed n T2) by now apply upd_wf.
    assert (W3 : well_formed n T3) by now apply upd_wf.
    assert (W4 : well_formed n T4) by now apply upd_wf.
    destruct (plain_task n order (ds, []) "1_excessive.coll.DEM" "DS1" "collapse_DS1"
               "excessive.coll.DEM" 1 "collapse" "DS1" 1 Hds eq_refl eq_refl eq_refl eq_refl eq_refl) as (w1 & ->).
    cbn [bind fst]. fold T1.
    destruct (plain_task n order (T1, w1) "2_collapse" "DS1" "ALL_NA"
               "collapse" 1 "ALL" "NA" (-1) W1 eq_refl eq_refl eq_refl eq_refl eq_refl) as (w2 & ->).
    cbn [bind fst]. fold T2.
    destruct (plain_task n order (T2, w2) "3_excessiveRID" "DS1" "irreparable_DS1"
               "excessiveRID" 1 "irreparable" "DS1" 1 W2 eq_refl eq_refl eq_refl eq_refl eq_refl) as (w3 & ->).
    cbn [bind fst]. fold T3.
    destruct (plain_task n order (T3, w3) "4_irreparable" "DS1" "ALL_NA"
               "irreparable" 1 "ALL" "NA" (-1) W3 eq_refl eq_refl eq_refl eq_refl eq_refl) as (w4 & ->).
    cbn [bind fst]. fold T4.
    destruct (plain_task n order (T4, w4) "5_irreparable" "DS1" "collapse_DS0"
               "irreparable" 1 "collapse" "DS0" 0 W4 eq_refl eq_refl eq_refl eq_refl eq_refl) as (w5 & ->).
    cbn [bind fst]. fold T5. eauto.
  Qed.

  (** Flags of realization [i] in the initial sample. *)
  Let A i := hs "excessive.coll.DEM" ds i 1.
  Let B i := cmp_in "collapse" ds && (A i || hs "collapse" ds i 1).
  Let C i := hs "excessiveRID" ds i 1.
  Let D i := cmp_in "irreparable" ds && (C i || hs "irreparable" ds i 1).

  Definition fema_cell (b : blk) (i : nat) (x : Z) : Z :=
    if B i then (if String.eqb (cmp (b_of b)) "collapse" then (if A i then 1 else x) else -1)%Z
    else if D i then (if String.eqb (cmp (b_of b)) "irreparable" then (if C i then 1 else x)
                      else if String.eqb (cmp (b_of b)) "collapse" then 0 else -1)%Z
    else x.

  Lemma is_target_all s b : is_target s "ALL" b = negb (String.eqb (cmp (b_of b)) s).
  Proof. reflexivity. Qed.
  Lemma is_target_one s t b : String.eqb t "ALL" = false -> is_target s t b = String.eqb (cmp (b_of b)) t.
  Proof. unfold is_target. now intros ->. Qed.

  Lemma hs_present c i k : hs c ds i k = true -> cmp_in c ds = true.
  Proof. unfold hs. intros H. now apply andb_true_iff in H as [H _]. Qed.

  Lemma fema_b1 i : (i < n)%nat -> hs "collapse" T1 i 1 = B i.
  Proof.
    intros Hi. unfold T1. unfold B. destruct (A i) eqn:Ea.
    - rewrite (hs_const n ds Hds _ _ _ _ 1%Z); [easy|easy|]. intros b x Hb. unfold taskf. fold (A i). rewrite Ea.
      rewrite is_target_one, Hb by reflexivity. reflexivity.
    - rewrite (hs_frame n ds Hds); [|easy|].
      + cbn [orb]. unfold hs. now destruct (cmp_in "collapse" ds).
      + intros b x Hb. unfold taskf. fold (A i). now rewrite Ea.
  Qed.
  Lemma hs_other c i : (i < n)%nat -> c <> "collapse" -> hs c T2 i 1 = negb (B i) && hs c ds i 1.
  Proof.
    intros Hi Hc. assert (W1 : well_formed n T1) by now apply upd_wf. unfold T2. destruct (B i) eqn:Eb.
    - rewrite (hs_const n T1 W1 _ _ _ _ (-1)%Z); [now rewrite andb_false_r|easy|].
      intros b x Hb. unfold taskf. rewrite fema_b1, Eb, is_target_all, Hb by easy.
      apply String.eqb_neq in Hc. now rewrite Hc.
    - rewrite (hs_frame n T1 W1); [|easy|].
      + cbn [negb andb]. unfold T1. apply (hs_frame n ds Hds); [easy|]. intros b x Hb. unfold taskf.
        rewrite is_target_one, Hb by reflexivity. apply String.eqb_neq in Hc. rewrite Hc. now rewrite andb_false_r.
      + intros b x Hb. unfold taskf. now rewrite fema_b1, Eb by easy.
  Qed.
  Lemma fema_d3 i : (i < n)%nat -> hs "irreparable" T3 i 1 = negb (B i) && D i.
  Proof.
    intros Hi. assert (W2 : well_formed n T2) by (apply upd_wf; now apply upd_wf). unfold T3.
    assert (Ec : hs "excessiveRID" T2 i 1 = negb (B i) && C i) by now apply hs_other.
    assert (Ki : cmp_in "irreparable" T2 = cmp_in "irreparable" ds).
    { unfold T2, T1. now rewrite !cmp_in_upd. }
    destruct (negb (B i) && C i) eqn:E.
    - rewrite (hs_const n T2 W2 _ _ _ _ 1%Z); [|easy|].
      + rewrite Ki. apply andb_true_iff in E as [-> E]. unfold D. rewrite E. cbn. now rewrite !andb_true_r.
      + intros b x Hb. unfold taskf. rewrite Ec. rewrite is_target_one, Hb by reflexivity. reflexivity.
    - rewrite (hs_frame n T2 W2); [|easy|].
      + rewrite hs_other by easy. unfold D. destruct (B i); [easy|]. cbn [negb andb] in *. rewrite E. cbn [orb].
        unfold hs. now destruct (cmp_in "irreparable" ds).
      + intros b x Hb. unfold taskf. now rewrite Ec.
  Qed.
  Lemma fema_d4 i : (i < n)%nat -> hs "irreparable" T4 i 1 = negb (B i) && D i.
  Proof.
    intros Hi. rewrite <- fema_d3 by easy. unfold T4. apply (hs_frame n).
    - unfold T3, T2, T1. now repeat apply upd_wf.
    - easy.
    - intros b x Hb. unfold taskf. rewrite is_target_all, Hb. now rewrite andb_false_r.
  Qed.

  Lemma fema_final : T5 = upd fema_cell ds.
  Proof.
    unfold T5. set (f5 := taskf _ _ _ _ T4). unfold T4. set (f4 := taskf _ _ _ _ T3).
    unfold T3. set (f3 := taskf _ _ _ _ T2). unfold T2. set (f2 := taskf _ _ _ _ T1).
    unfold T1. set (f1 := taskf _ _ _ _ ds). rewrite !upd_upd. apply (upd_ext n ds Hds).
    intros b i x Hb Hi. unfold fema_cell, f5, taskf. rewrite fema_d4 by easy.
    unfold f4, taskf. rewrite fema_d3 by easy. unfold f3, taskf. rewrite hs_other by easy.
    unfold f2, taskf. rewrite fema_b1 by easy. unfold f1, taskf. fold (A i) (C i).
    rewrite !is_target_all, !is_target_one by reflexivity.
    destruct (String.eqb_spec (cmp (b_of b)) "collapse") as [E|E].
    - rewrite E. cbn. destruct (B i) eqn:EB; cbn; [now destruct (A i)|].
      destruct (C i); cbn; destruct (D i); cbn; try easy; rewrite ?andb_false_r, ?andb_true_r.
      + destruct (A i) eqn:EA; [|easy]. exfalso. unfold B in EB. rewrite EA in EB. cbn in EB.
        rewrite andb_true_r in EB. apply in_map_iff in Hb as (c & <- & Hc).
        assert (cmp_in "collapse" ds = true) by (apply existsb_exists; exists c; split; [easy|]; now rewrite E).
        congruence.
      + destruct (A i) eqn:EA; [|easy]. exfalso. unfold B in EB. rewrite EA in EB. cbn in EB.
        rewrite andb_true_r in EB. apply in_map_iff in Hb as (c & <- & Hc).
        assert (cmp_in "collapse" ds = true) by (apply existsb_exists; exists c; split; [easy|]; now rewrite E).
        congruence.
    - rewrite !andb_false_r. cbn. rewrite !andb_true_r.
      destruct (B i) eqn:EB; cbn; [easy|].
      destruct (String.eqb_spec (cmp (b_of b)) "irreparable") as [E2|E2]; cbn; rewrite ?andb_false_r, ?andb_true_r.
      + destruct (C i) eqn:EC, (D i) eqn:ED; try easy.
        exfalso. unfold D in ED. rewrite EC in ED. cbn in ED. rewrite andb_true_r in ED.
        apply in_map_iff in Hb as (c & <- & Hc).
        assert (cmp_in "irreparable" ds = true) by (apply existsb_exists; exists c; split; [easy|]; now rewrite E2).
        congruence.
      + easy.
  Qed.

  Lemma fema_B i : (i < n)%nat -> (B i = true <-> fema_collapsed ds i).
  Proof.
    intros Hi. unfold B, fema_collapsed, A. rewrite andb_true_iff, orb_true_iff, !(hs_spec n), cmp_in_true by easy.
    tauto.
  Qed.
  Lemma fema_D i : (i < n)%nat -> (B i = false /\ D i = true <-> fema_irreparable ds i).
  Proof.
    intros Hi. unfold fema_irreparable. rewrite <- fema_B by easy. rewrite not_true_iff_false.
    unfold D, C. rewrite andb_true_iff, orb_true_iff, !(hs_spec n), cmp_in_true by easy. tauto.
  Qed.

  Lemma cell_functional b i x y : cell_at ds b i x -> cell_at ds b i y -> x = y.
  Proof.
    intros (c1 & H1 & E1) (c2 & H2 & E2).
    pose proof (In_aget blk_eqb blk_eqb_eq _ _ _ (proj1 Hds) H1).
    pose proof (In_aget blk_eqb blk_eqb_eq _ _ _ (proj1 Hds) H2). congruence.
  Qed.

  Definition fema_effect (ds' : ds_frame) : Prop :=
    well_formed n ds' /\ map fst ds' = map fst ds /\
    forall i, (i < n)%nat ->
      (fema_collapsed ds i ->
         in_state ds' "collapse" i 1 /\
         forall b z, cell_at ds' b i z -> cmp (b_of b) <> "collapse" -> z = (-1)%Z) /\
      (fema_irreparable ds i ->
         in_state ds' "irreparable" i 1 /\
         (forall b z, cell_at ds' b i z -> cmp (b_of b) = "collapse" -> z = 0%Z) /\
         forall b z, cell_at ds' b i z -> cmp (b_of b) <> "collapse" -> cmp (b_of b) <> "irreparable" -> z = (-1)%Z) /\
      (~ fema_collapsed ds i -> ~ fema_irreparable ds i ->
         forall b z, cell_at ds' b i z <-> cell_at ds b i z).
  Lemma fema_T5 : fema_effect T5.
  Proof.
    rewrite fema_final. split; [now apply upd_wf|]. split; [apply upd_keys|]. intros i Hi. split; [|split].
    - intros Hc. apply fema_B in Hc; [|easy]. split.
      + apply (hs_spec n); [now apply upd_wf|easy|]. destruct (A i) eqn:EA.
        * rewrite (hs_const n ds Hds _ _ _ _ 1%Z); [|easy|].
          -- unfold B in Hc. apply andb_true_iff in Hc as [-> _]. easy.
          -- intros b x Hb. unfold fema_cell. now rewrite Hc, EA, Hb.
        * rewrite (hs_frame n ds Hds); [|easy|].
          -- unfold B in Hc. rewrite EA in Hc. now apply andb_true_iff in Hc as [_ Hc].
          -- intros b x Hb. unfold fema_cell. now rewrite Hc, EA, Hb.
      + intros b z Hz Hb. apply upd_cell in Hz as (x & _ & ->). unfold fema_cell. rewrite Hc.
        apply String.eqb_neq in Hb. now rewrite Hb.
    - intros Hc. apply fema_D in Hc as [HB HD]; [|easy]. split; [|split].
      + apply (hs_spec n); [now apply upd_wf|easy|]. destruct (C i) eqn:EC.
        * rewrite (hs_const n ds Hds _ _ _ _ 1%Z); [|easy|].
          -- unfold D in HD. apply andb_true_iff in HD as [-> _]. easy.
          -- intros b x Hb. unfold fema_cell. now rewrite HB, HD, EC, Hb.
        * rewrite (hs_frame n ds Hds); [|easy|].
          -- unfold D in HD. rewrite EC in HD. now apply andb_true_iff in HD as [_ HD].
          -- intros b x Hb. unfold fema_cell. now rewrite HB, HD, EC, Hb.
      + intros b z Hz Hb. apply upd_cell in Hz as (x & _ & ->). unfold fema_cell. now rewrite HB, HD, Hb.
      + intros b z Hz Hb Hb2. apply upd_cell in Hz as (x & _ & ->). unfold fema_cell. rewrite HB, HD.
        apply String.eqb_neq in Hb, Hb2. now rewrite Hb, Hb2.
    - intros H1 H2 b z.
      assert (HB : B i = false) by (apply not_true_iff_false; now rewrite fema_B).
      assert (HD : D i = false).
      { apply not_true_iff_false. intros HD. apply H2. apply fema_D; auto. }
      rewrite upd_cell. unfold fema_cell. rewrite HB, HD. split; [now intros (x & Hx & ->)|eauto].
  Qed.
  (** The same rules with other numbers, as part of another process. *)
  Lemma fema_tasks w0 o1 o2 o3 o4 o5 : has_char "_" o1 = false -> has_char "_" o2 = false -> has_char "_" o3 = false -> has_char "_" o4 = false -> has_char "_" o5 = false ->
    exists w, foldM (perform_dmg_task order) (ds, w0)
      [((o1 ++ "_excessive.coll.DEM")%string, [("DS1", One "collapse_DS1")]); ((o2 ++ "_collapse")%string, [("DS1", One "ALL_NA")]);
       ((o3 ++ "_excessiveRID")%string, [("DS1", One "irreparable_DS1")]); ((o4 ++ "_irreparable")%string, [("DS1", One "ALL_NA")]);
       ((o5 ++ "_irreparable")%string, [("DS1", One "collapse_DS0")])] = Ok (T5, w).
  Proof.
    intros N1 N2 N3 N4 N5. cbn [foldM].
    assert (S : forall o c, has_char "_" o = false -> has_char "_" c = false -> ends_with "-LOC" c = false -> parse_source (o ++ String "_" c) = Ok (c, false)).
    { intros o c Ho Hc He. unfold parse_source. rewrite split_on_app by exact Ho. rewrite split_on_nochar by exact Hc. now rewrite He. }
    assert (W1 : well_formed n T1) by now apply upd_wf.
    assert (W2 : well_formed n T2) by now apply upd_wf.
    assert (W3 : well_formed n T3) by now apply upd_wf.
    assert (W4 : well_formed n T4) by now apply upd_wf.
    destruct (plain_task n order (ds, w0) (o1 ++ "_excessive.coll.DEM") "DS1" "collapse_DS1"
               "excessive.coll.DEM" 1 "collapse" "DS1" 1 Hds (S _ "excessive.coll.DEM" N1 eq_refl eq_refl) eq_refl eq_refl eq_refl eq_refl) as (w1 & ->).
    cbn [bind fst]. fold T1.
    destruct (plain_task n order (T1, w1) (o2 ++ "_collapse") "DS1" "ALL_NA"
               "collapse" 1 "ALL" "NA" (-1) W1 (S _ "collapse" N2 eq_refl eq_refl) eq_refl eq_refl eq_refl eq_refl) as (w2 & ->).
    cbn [bind fst]. fold T2.
    destruct (plain_task n order (T2, w2) (o3 ++ "_excessiveRID") "DS1" "irreparable_DS1"
               "excessiveRID" 1 "irreparable" "DS1" 1 W2 (S _ "excessiveRID" N3 eq_refl eq_refl) eq_refl eq_refl eq_refl eq_refl) as (w3 & ->).
    cbn [bind fst]. fold T3.
    destruct (plain_task n order (T3, w3) (o4 ++ "_irreparable") "DS1" "ALL_NA"
               "irreparable" 1 "ALL" "NA" (-1) W3 (S _ "irreparable" N4 eq_refl eq_refl) eq_refl eq_refl eq_refl eq_refl) as (w4 & ->).
    cbn [bind fst]. fold T4.
    destruct (plain_task n order (T4, w4) (o5 ++ "_irreparable") "DS1" "collapse_DS0"
               "irreparable" 1 "collapse" "DS0" 0 W4 (S _ "irreparable" N5 eq_refl eq_refl) eq_refl eq_refl eq_refl eq_refl) as (w5 & ->).
    cbn [bind fst]. fold T5. eauto.
  Qed.
  Lemma fema_tasks_spec w0 o1 o2 o3 o4 o5 : has_char "_" o1 = false -> has_char "_" o2 = false -> has_char "_" o3 = false -> has_char "_" o4 = false -> has_char "_" o5 = false ->
    exists ds' w, foldM (perform_dmg_task order) (ds, w0)
      [((o1 ++ "_excessive.coll.DEM")%string, [("DS1", One "collapse_DS1")]); ((o2 ++ "_collapse")%string, [("DS1", One "ALL_NA")]);
       ((o3 ++ "_excessiveRID")%string, [("DS1", One "irreparable_DS1")]); ((o4 ++ "_irreparable")%string, [("DS1", One "ALL_NA")]);
       ((o5 ++ "_irreparable")%string, [("DS1", One "collapse_DS0")])] = Ok (ds', w) /\ fema_effect ds'.
  Proof. intros N1 N2 N3 N4 N5. destruct (fema_tasks w0 o1 o2 o3 o4 o5 N1 N2 N3 N4 N5) as (w & H). exists T5, w. split; [exact H|exact fema_T5]. Qed.
  Lemma fema_spec : exists ds' w, perform_dmg_process order fema_p58 ds = Ok (ds', w) /\ fema_effect ds'.
  Proof. destruct fema_run as (w & Hrun). exists T5, w. split; [exact Hrun|exact fema_T5]. Qed.
End Fema.

(** ** Task order *)

Lemma digit_compare a b : is_digit a = true -> is_digit b = true ->
  Ascii.compare a b = (digit_value a ?= digit_value b)%Z.
Proof.
  intros Ha Hb. apply digit_cases in Ha, Hb. simpl in Ha, Hb.
  repeat (destruct Ha as [<-|Ha]; [repeat (destruct Hb as [<-|Hb]; [reflexivity|]); easy|]). easy.
Qed.
Lemma digit_range a : is_digit a = true -> (0 <= digit_value a <= 9)%Z.
Proof.
  intros Ha. apply digit_cases in Ha. simpl in Ha.
  repeat (destruct Ha as [<-|Ha]; [vm_compute; split; discriminate|]). easy.
Qed.

(** Equal-length digit strings compare like the numbers they denote. *)
Lemma digits_compare s1 : forall s2 a1 a2 v1 v2, String.length s1 = String.length s2 ->
  all_digits s1 = true -> all_digits s2 = true ->
  parse_digits a1 true s1 = Some v1 -> parse_digits a2 true s2 = Some v2 ->
  ((a1 < a2 -> v1 < v2) /\ (a2 < a1 -> v2 < v1))%Z /\ (a1 = a2 -> String.compare s1 s2 = (v1 ?= v2)%Z).
Proof.
  induction s1 as [|c1 s1 IH]; intros [|c2 s2] a1 a2 v1 v2 Hl H1 H2; simpl in Hl; try discriminate Hl.
  - simpl. intros [= ->] [= ->]. split; [easy|]. intros ->. symmetry. apply Z.compare_refl.
  - cbn [all_digits] in H1, H2. apply andb_true_iff in H1 as [D1 H1]. apply andb_true_iff in H2 as [D2 H2].
    cbn [parse_digits String.compare]. rewrite D1, D2.
    intros P1 P2. pose proof (digit_range c1 D1). pose proof (digit_range c2 D2).
    destruct (IH s2 _ _ v1 v2 ltac:(congruence) H1 H2 P1 P2) as [[I1 I1'] I2]. split; [split; intros Hlt|].
    + apply I1. lia.
    + apply I1'. lia.
    + intros ->. rewrite (digit_compare _ _ D1 D2).
      destruct (Z.compare_spec (digit_value c1) (digit_value c2)) as [E|E|E].
      * apply I2. lia.
      * symmetry. apply Z.compare_lt_iff. apply I1. lia.
      * symmetry. apply Z.compare_gt_iff. apply I1'. lia.
Qed.

Lemma compare_app s1 : forall s2 r1 r2, String.length s1 = String.length s2 ->
  String.compare (s1 ++ r1) (s2 ++ r2) =
  match String.compare s1 s2 with Eq => String.compare r1 r2 | c => c end.
Proof.
  induction s1 as [|c1 s1 IH]; intros [|c2 s2] r1 r2 Hl; simpl in Hl; try discriminate Hl; [easy|].
  cbn [append String.compare]. destruct (Ascii.compare c1 c2); try easy. apply IH. congruence.
Qed.

Lemma numbered_le n1 n2 len k1 k2 :
  numbered n1 len k1 -> numbered n2 len k2 -> str_le n1 n2 = true -> (k1 <= k2)%Z.
Proof.
  intros (d1 & r1 & -> & L1 & N1 & D1 & P1) (d2 & r2 & -> & L2 & N2 & D2 & P2) Hle.
  assert (Hl : String.length d1 = String.length d2) by congruence.
  rewrite pyint_digits in P1, P2 by easy.
  destruct (digits_compare d1 d2 0 0 k1 k2 Hl D1 D2 P1 P2) as [_ Hc]. specialize (Hc eq_refl).
  unfold str_le, String.leb in Hle. rewrite compare_app in Hle by easy. rewrite Hc in Hle.
  destruct (Z.compare_spec k1 k2); lia || discriminate.
Qed.

Lemma sort_tasks_sorted len tasks :
  Permutation tasks (sort_tasks tasks) /\
  StronglySorted (fun a b => forall ka kb, numbered (fst a) len ka -> numbered (fst b) len kb -> (ka <= kb)%Z)
                 (sort_tasks tasks).
Proof.
  split; [apply isort_perm|].
  assert (H : sorted_by (fun a b : task => str_le (fst a) (fst b)) (sort_tasks tasks)).
  { apply isort_sorted; intros.
    - eapply str_le_trans; eauto.
    - apply str_le_total. }
  induction H as [|t l Hs IH Ht]; constructor; [easy|].
  eapply Forall_impl; [|exact Ht]. intros t' Hle ka kb. intros H1 H2. eapply numbered_le; eauto.
Qed.
