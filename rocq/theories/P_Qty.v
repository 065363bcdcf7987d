(** Proofs about damaged quantities (damage_model.py:1598-1704). *)
From Coq Require Import Sorting.Permutation Sorting.Sorted.
From Coq Require Import DecimalString.
From Verif Require Import Prelude PreludeFacts Pandas PandasFacts M_Base P_Base M_Damage S_Damage P_Eval.
Local Open Scope string_scope.
Local Open Scope list_scope.

Lemma string_of_uint_nominus d : has_char "-" (NilEmpty.string_of_uint d) = false.
Proof. induction d; simpl; auto. Qed.

Lemma str_of_Z_inj a b : str_of_Z a = str_of_Z b -> a = b.
Proof.
  unfold str_of_Z. destruct (Z.ltb_spec a 0), (Z.ltb_spec b 0); intros E.
  - injection E as E. apply str_of_nat_inj in E. lia.
  - pose proof (string_of_uint_nominus (Nat.to_uint (Z.to_nat b))) as H1. unfold str_of_nat in E.
    rewrite <- E in H1. simpl in H1. discriminate.
  - pose proof (string_of_uint_nominus (Nat.to_uint (Z.to_nat a))) as H1. unfold str_of_nat in E.
    rewrite E in H1. simpl in H1. discriminate.
  - apply str_of_nat_inj in E. lia.
Qed.

Lemma qkey_eqb_eq a b : qkey_eqb a b = true <-> a = b.
Proof.
  unfold qkey_eqb. rewrite andb_true_iff, pg_eqb_eq, String.eqb_eq. destruct a, b; simpl. split.
  - intros [-> ->]; easy.
  - now intros [= -> ->].
Qed.

Definition keep (dz : bool) (d : Z) : bool := negb (d =? -1)%Z && negb (dz && (d =? 0)%Z).
Definition states (dz : bool) (ds : list Z) : list Z := filter (keep dz) (unique Z.eqb ds).

Lemma states_In dz ds d : In d (states dz ds) <-> In d ds /\ keep dz d = true.
Proof. unfold states. rewrite filter_In, (unique_In _ Z.eqb_eq). easy. Qed.
Lemma states_NoDup dz ds : NoDup (states dz ds).
Proof. apply NoDup_filter, unique_NoDup, Z.eqb_eq. Qed.

Section Qty.
  Context (n : nat) (dz : bool) (sample : list (pg * list Qc)) (blocks : option (list (pg * Z)))
          (ds : ds_frame)
          (Hds : Forall (fun c => List.length (snd c) = n) ds)
          (Hsample : well_formed n sample)
          (Hblocks : match blocks with Some l => NoDup (map fst l) | None => True end).

  Definition qtyf (p : pg) : list Qc := match aget pg_eqb p sample with Some q => q | None => [] end.
  Definition nbf (p : pg) : Qc := match num_blocks blocks p with Ok x => x | Err _ => 1%Qc end.
  Definition contrib (c : blk * list Z) : list (qkey * list num) :=
    let p := b_of (fst c) in
    map (fun dv => ((p, str_of_Z (fst dv)), snd dv)) (block_quantities dz (qtyf p) (nbf p) (snd c)).

  Lemma prep_inv q : prepare_dmg_quantities n dz sample blocks ds = Ok q ->
    q = map (fun g => (fst g, sum_columns n (snd g)))
            (groupby qkey_eqb qkey_le (List.concat (map contrib ds))) /\
    (forall c, In c ds -> states dz (snd c) <> [] ->
       (exists v, aget pg_eqb (b_of (fst c)) sample = Some v) /\
       (exists b, num_blocks blocks (b_of (fst c)) = Ok b)).
  Proof.
    unfold prepare_dmg_quantities. destruct (mapM _ ds) as [l|] eqn:El; [|easy]. simpl.
    assert (E : l = map contrib ds /\ (forall c, In c ds -> states dz (snd c) <> [] ->
       (exists v, aget pg_eqb (b_of (fst c)) sample = Some v) /\
       (exists b, num_blocks blocks (b_of (fst c)) = Ok b))).
    { apply mapM_Forall2 in El. clear Hds. induction El as [|c x ds' l Hc _ IH]; [easy|].
      destruct IH as [-> IH]. fold (keep dz) in Hc. fold (states dz (snd c)) in Hc.
      change (filter (fun d : Z => negb (d =? -1)%Z && negb (dz && (d =? 0)%Z)) (unique Z.eqb (snd c)))
        with (states dz (snd c)) in Hc.
      split.
      - simpl. f_equal. unfold contrib, block_quantities.
        change (filter (fun d : Z => negb (d =? -1)%Z && negb (dz && (d =? 0)%Z)) (unique Z.eqb (snd c)))
          with (states dz (snd c)).
        destruct (states dz (snd c)) as [|s0 ss] eqn:Es; [now injection Hc as <-|].
        unfold qtyf, nbf. destruct (aget pg_eqb (b_of (fst c)) sample); [|easy].
        destruct (num_blocks blocks (b_of (fst c))); [|easy]. simpl in Hc. injection Hc as <-.
        unfold block_quantities.
        change (filter (fun d : Z => negb (d =? -1)%Z && negb (dz && (d =? 0)%Z)) (unique Z.eqb (snd c)))
          with (states dz (snd c)). now rewrite Es.
      - intros c' [<-|Hin] Hne; [|now apply IH].
        destruct (states dz (snd c)); [easy|].
        destruct (aget pg_eqb (b_of (fst c)) sample); [|easy].
        destruct (num_blocks blocks (b_of (fst c))); [|easy]. eauto. }
    destruct E as [-> E]. intros H; split; [|exact E].
    match type of H with match ?x with _ => _ end = _ => change x with (List.concat (map contrib ds)) in H end.
    destruct (List.concat (map contrib ds)); [discriminate|]. now injection H as <-.
  Qed.

  (** One cell of one block column. *)
  Definition cell (c : blk * list Z) (d : Z) (i : nat) : num :=
    let x := nth i (snd c) 0%Z in
    if (x =? -1)%Z then None
    else if (x =? d)%Z then Some (nth i (qtyf (b_of (fst c))) 0 / nbf (b_of (fst c)))%Qc else Some 0%Qc.

  Definition colf (c : blk * list Z) (d : Z) : list num :=
    map2 (fun x q => if (x =? -1)%Z && existsb (Z.eqb (-1)) (snd c) then None
                     else if (x =? d)%Z then Some (q / nbf (b_of (fst c)))%Qc else Some 0%Qc)
         (snd c) (qtyf (b_of (fst c))).

  Lemma contrib_eq c : contrib c =
    map (fun d => ((b_of (fst c), str_of_Z d), colf c d)) (states dz (snd c)).
  Proof. unfold contrib, block_quantities. rewrite map_map. reflexivity. Qed.

  Lemma colf_cell c d i :
    In c ds -> (i < n)%nat -> (exists v, aget pg_eqb (b_of (fst c)) sample = Some v) ->
    nth i (colf c d) None = cell c d i.
  Proof.
    intros Hc Hi (v & Ev). rewrite Forall_forall in Hds. specialize (Hds _ Hc).
    assert (Hv : List.length (qtyf (b_of (fst c))) = n).
    { unfold qtyf. rewrite Ev. apply (aget_In pg_eqb pg_eqb_eq) in Ev. destruct Hsample as [_ H].
      rewrite Forall_forall in H. apply (H _ Ev). }
    unfold colf. rewrite map2_nth with (da := 0%Z) (db := 0%Qc) by lia. unfold cell.
    destruct (nth i (snd c) 0 =? -1)%Z eqn:E; [|easy].
    assert (existsb (Z.eqb (-1)) (snd c) = true) as ->; [|easy].
    apply existsb_exists. exists (nth i (snd c) 0%Z). apply Z.eqb_eq in E. split.
    - apply nth_In. lia.
    - rewrite E. reflexivity.
  Qed.

  Lemma nth_sum_columns cols i : (i < n)%nat ->
    nth i (sum_columns n cols) None = nsum1 (map (fun c => nth i c None) cols).
  Proof.
    intros Hi. unfold sum_columns.
    rewrite (nth_map_seq (fun i => nsum1 (map (fun c => nth i c None) cols))) by easy. reflexivity.
  Qed.

  Section Ok.
    Context (q : qty_frame) (Hq : prepare_dmg_quantities n dz sample blocks ds = Ok q).

    Lemma keep_state c i : In c ds -> (i < n)%nat -> keep dz (nth i (snd c) 0%Z) = true ->
      In (nth i (snd c) 0%Z) (states dz (snd c)).
    Proof.
      intros Hc Hi Hk. apply states_In. split; [|easy]. apply nth_In.
      rewrite Forall_forall in Hds. now rewrite (Hds _ Hc).
    Qed.

    Lemma available c d : In c ds -> In d (states dz (snd c)) ->
      exists v, aget pg_eqb (b_of (fst c)) sample = Some v.
    Proof.
      intros Hc Hd. apply (proj2 (prep_inv q Hq) c Hc). now destruct (states dz (snd c)).
    Qed.

    Lemma total_lemma p i : (i < n)%nat ->
      row_total q p i = (qn (blocks_with ds p i (keep dz)) * (nth i (qtyf p) 0 / nbf p))%Qc.
    Proof.
      intros Hi. unfold row_total. rewrite nsum_nfill0, map_map.
      rewrite (qsum_filter (fun c : qkey * list num => nfill0 (nth i (snd c) None))).
      rewrite (proj1 (prep_inv q Hq)), map_map. cbn [fst snd].
      rewrite (qsum_map_ext _ (fun g : qkey * list (list num) =>
        qsum (map (fun v => if pg_eqb (fst (fst g)) p then nfill0 (nth i v None) else 0%Qc) (snd g)))).
      2:{ intros g _. destruct (pg_eqb (fst (fst g)) p).
          - rewrite nth_sum_columns, nsum1_nfill0, map_map by easy. reflexivity.
          - rewrite qsum_const. qlra. }
      rewrite (qsum_groupby qkey_eqb qkey_eqb_eq qkey_le
                (fun k v => if pg_eqb (fst k) p then nfill0 (nth i v None) else 0%Qc)).
      rewrite qsum_concat, map_map. unfold blocks_with.
      rewrite <- qsum_indicator. apply qsum_map_ext. intros c Hc.
      rewrite contrib_eq, map_map. cbn [fst snd].
      destruct (pg_eqb (b_of (fst c)) p) eqn:Ep; cbn [andb]; [|rewrite qsum_const; qlra].
      apply pg_eqb_eq in Ep. subst p.
      rewrite (qsum_map_ext _ (fun d => if (d =? nth i (snd c) 0)%Z
               then (nth i (qtyf (b_of (fst c))) 0 / nbf (b_of (fst c)))%Qc else 0%Qc)).
      2:{ intros d Hd. rewrite colf_cell by eauto using available. unfold cell.
          destruct (Z.eqb_spec (nth i (snd c) 0%Z) (-1)) as [E|E].
          - rewrite E. apply states_In in Hd as [_ Hd]. destruct (Z.eqb_spec d (-1)); [|easy].
            subst d. now destruct dz.
          - rewrite Z.eqb_sym. now destruct (d =? nth i (snd c) 0)%Z. }
      destruct (keep dz (nth i (snd c) 0%Z)) eqn:Ek.
      - apply (qsum_single Z.eqb Z.eqb_eq (fun _ => (nth i (qtyf (b_of (fst c))) 0 / nbf (b_of (fst c)))%Qc)).
        + apply states_NoDup.
        + now apply keep_state.
      - rewrite (qsum_map_ext _ (fun _ => 0%Qc)); [rewrite qsum_const; qlra|].
        intros d Hd. apply states_In in Hd as [_ Hd]. destruct (Z.eqb_spec d (nth i (snd c) 0%Z)); [|easy].
        congruence.
    Qed.

    Lemma column_iff k col : In (k, col) q <->
      In k (map fst (List.concat (map contrib ds))) /\
      col = sum_columns n (group_rows qkey_eqb k (List.concat (map contrib ds))).
    Proof.
      rewrite (proj1 (prep_inv q Hq)), in_map_iff. split.
      - intros ([k' vs] & [= -> <-] & H). apply (groupby_In qkey_eqb qkey_le qkey_eqb_eq) in H as [H ->]. auto.
      - intros [H ->]. exists (k, group_rows qkey_eqb k (List.concat (map contrib ds))).
        split; [easy|]. now apply (groupby_In qkey_eqb qkey_le qkey_eqb_eq).
    Qed.

    Lemma key_iff p s : In (p, s) (map fst (List.concat (map contrib ds))) <->
      exists c d, In c ds /\ b_of (fst c) = p /\ In d (states dz (snd c)) /\ s = str_of_Z d.
    Proof.
      rewrite in_map_iff. split.
      - intros ([k v] & Ek & H). simpl in Ek. subst k. apply in_concat in H as (x & Hx & H).
        apply in_map_iff in Hx as (c & <- & Hc). rewrite contrib_eq in H.
        apply in_map_iff in H as (d & [= <- <- <-] & Hd). eauto 6.
      - intros (c & d & Hc & <- & Hd & ->). exists ((b_of (fst c), str_of_Z d), colf c d). split; [easy|].
        apply in_concat. exists (contrib c). split; [now apply in_map|]. rewrite contrib_eq.
        now apply (in_map (fun d => ((b_of (fst c), str_of_Z d), colf c d))).
    Qed.

    Lemma group_value p d i : (i < n)%nat -> keep dz d = true ->
      qsum (map (fun v => nfill0 (nth i v None))
                (group_rows qkey_eqb (p, str_of_Z d) (List.concat (map contrib ds)))) =
      (qn (blocks_with ds p i (Z.eqb d)) * (nth i (qtyf p) 0 / nbf p))%Qc.
    Proof.
      intros Hi Hk. unfold group_rows. rewrite map_map.
      rewrite (qsum_filter (fun kv : qkey * list num => nfill0 (nth i (snd kv) None))).
      rewrite qsum_concat, map_map. unfold blocks_with. rewrite <- qsum_indicator.
      apply qsum_map_ext. intros c Hc. rewrite contrib_eq, map_map. cbn [fst snd].
      unfold qkey_eqb at 1. cbn [fst snd].
      destruct (pg_eqb_spec p (b_of (fst c))) as [->|Hne].
      - rewrite pg_eqb_refl. cbn [andb].
        rewrite (qsum_map_ext _ (fun d' => if (d' =? d)%Z then nfill0 (cell c d i) else 0%Qc)).
        2:{ intros d' Hd'. destruct (String.eqb_spec (str_of_Z d) (str_of_Z d')) as [E|E].
            - apply str_of_Z_inj in E. subst d'. rewrite Z.eqb_refl.
              rewrite colf_cell by eauto using available. reflexivity.
            - destruct (Z.eqb_spec d' d); [congruence|easy]. }
        destruct (Z.eqb_spec d (nth i (snd c) 0%Z)) as [Ed|Ed].
        + rewrite (qsum_single Z.eqb Z.eqb_eq (fun _ => nfill0 (cell c d i))).
          * unfold cell. rewrite <- Ed, Z.eqb_refl. unfold keep in Hk. destruct (d =? -1)%Z; easy.
          * apply states_NoDup.
          * rewrite Ed. apply keep_state; congruence.
        + rewrite (qsum_map_ext _ (fun _ => 0%Qc)); [rewrite qsum_const; qlra|].
          intros d' _. destruct (d' =? d)%Z; [|easy]. unfold cell.
          destruct (Z.eqb_spec (nth i (snd c) 0%Z) (-1)); [easy|].
          destruct (Z.eqb_spec (nth i (snd c) 0%Z) d); [congruence|easy].
      - assert (pg_eqb (b_of (fst c)) p = false) as ->.
        { destruct (pg_eqb_spec (b_of (fst c)) p); congruence. }
        simpl. rewrite qsum_const. qlra.
    Qed.

    Lemma cell_value p d col i v : (i < n)%nat -> keep dz d = true ->
      In ((p, str_of_Z d), col) q -> nth i col None = Some v ->
      v = (qn (blocks_with ds p i (Z.eqb d)) * (nth i (qtyf p) 0 / nbf p))%Qc.
    Proof.
      intros Hi Hk Hin Hv. apply column_iff in Hin as [_ ->]. rewrite nth_sum_columns in Hv by easy.
      rewrite <- (group_value p d i Hi Hk). apply (f_equal nfill0) in Hv.
      rewrite nsum1_nfill0, map_map in Hv. now rewrite Hv.
    Qed.

    Lemma cell_nan p d col i : (i < n)%nat -> keep dz d = true ->
      In ((p, str_of_Z d), col) q ->
      (nth i col None = None <->
       forall c, In c ds -> b_of (fst c) = p -> In d (snd c) -> nth i (snd c) 0%Z = (-1)%Z).
    Proof.
      intros Hi Hk Hin. apply column_iff in Hin as [_ ->]. rewrite nth_sum_columns by easy.
      rewrite nsum1_None. split.
      - intros H c Hc <- Hd.
        assert (Hst : In d (states dz (snd c))) by now apply states_In.
        assert (E : nth i (colf c d) None = None).
        { apply H. apply (in_map (fun c0 : list num => nth i c0 None)). apply (In_group_rows qkey_eqb qkey_eqb_eq).
          apply in_concat. exists (contrib c). split; [now apply in_map|]. rewrite contrib_eq.
          now apply (in_map (fun d => ((b_of (fst c), str_of_Z d), colf c d))). }
        rewrite colf_cell in E by eauto using available. unfold cell in E.
        destruct (Z.eqb_spec (nth i (snd c) 0%Z) (-1)); [easy|].
        now destruct (nth i (snd c) 0 =? d)%Z.
      - intros H x Hx. apply in_map_iff in Hx as (v & <- & Hv).
        apply (In_group_rows qkey_eqb qkey_eqb_eq) in Hv. apply in_concat in Hv as (y & Hy & Hv).
        apply in_map_iff in Hy as (c & <- & Hc). rewrite contrib_eq in Hv.
        apply in_map_iff in Hv as (d' & [= Ep Es <-] & Hd'). apply str_of_Z_inj in Es. subst d'.
        rewrite colf_cell by eauto using available. unfold cell.
        rewrite (H c Hc Ep) by now apply states_In in Hd'. easy.
    Qed.

    Lemma observed_column p d c i : In c ds -> b_of (fst c) = p -> (i < n)%nat ->
      nth i (snd c) 0%Z = d -> keep dz d = true ->
      exists col v, In ((p, str_of_Z d), col) q /\ nth i col None = Some v.
    Proof.
      intros Hc Hp Hi Hd Hk.
      set (col := sum_columns n (group_rows qkey_eqb (p, str_of_Z d) (List.concat (map contrib ds)))).
      assert (Hin : In ((p, str_of_Z d), col) q).
      { apply column_iff. split; [|easy]. apply key_iff. exists c, d. rewrite <- Hd at 1.
        repeat split; auto. apply keep_state; auto. congruence. }
      exists col. destruct (nth i col None) as [v|] eqn:E; [eauto|].
      apply (cell_nan p d col i Hi Hk Hin) with (c := c) in E; auto.
      - subst d. rewrite E in Hk. now destruct dz.
      - rewrite <- Hd. apply nth_In. rewrite Forall_forall in Hds. now rewrite (Hds _ Hc).
    Qed.

    Lemma column_states p s col : In ((p, s), col) q ->
      List.length col = n /\
      exists c d, In c ds /\ b_of (fst c) = p /\ In d (snd c) /\ keep dz d = true /\ s = str_of_Z d.
    Proof.
      intros H. apply column_iff in H as [H ->]. split.
      - unfold sum_columns. now rewrite map_length, seq_length.
      - apply key_iff in H as (c & d & Hc & Hp & Hd & ->). apply states_In in Hd as [H1 H2]. eauto 8.
    Qed.
    Lemma columns_NoDup : NoDup (map fst q).
    Proof.
      rewrite (proj1 (prep_inv q Hq)), map_map. simpl. apply (groupby_NoDup qkey_eqb qkey_le qkey_eqb_eq).
    Qed.

    Lemma qtyf_spec p qty : In (p, qty) sample -> qtyf p = qty.
    Proof.
      intros H. unfold qtyf. now rewrite (In_aget pg_eqb pg_eqb_eq _ _ _ (proj1 Hsample) H).
    Qed.
    Lemma nbf_spec p nb : blocks_of blocks p nb -> nbf p = qz nb.
    Proof.
      unfold blocks_of, nbf, num_blocks. destruct blocks as [l|].
      - intros H. now rewrite (In_aget pg_eqb pg_eqb_eq _ _ _ Hblocks H).
      - intros ->. reflexivity.
    Qed.
  End Ok.
End Qty.

Lemma blocks_with_available ds p i : blocks_with ds p i (Z.eqb (-1)) = 0%nat ->
  blocks_with ds p i (fun d => negb (d =? -1)%Z && negb (false && (d =? 0)%Z)) =
  blocks_with ds p i (fun _ => true).
Proof.
  unfold blocks_with. intros H.
  assert (Hno : forall c, In c ds -> pg_eqb (b_of (fst c)) p && (-1 =? nth i (snd c) 0)%Z = false).
  { intros c Hc. destruct (_ && _) eqn:E; [|easy]. exfalso.
    assert (Hin : In c (filter (fun c : blk * list Z => pg_eqb (b_of (fst c)) p && (-1 =? nth i (snd c) 0)%Z) ds))
      by now apply filter_In.
    destruct (filter _ ds); [easy|discriminate H]. }
  f_equal. apply filter_ext_in. intros c Hc. specialize (Hno c Hc).
  destruct (pg_eqb (b_of (fst c)) p); [|easy]. cbn [andb] in *. rewrite Z.eqb_sym in Hno. rewrite Hno. easy.
Qed.

Lemma blocks_with_le ds p i f : (blocks_with ds p i f <= blocks_with ds p i (fun _ => true))%nat.
Proof.
  unfold blocks_with. induction ds as [|c ds IH]; [easy|]. cbn [filter].
  destruct (pg_eqb (b_of (fst c)) p); cbn [andb]; [|easy].
  destruct (f (nth i (snd c) 0%Z)); cbn [List.length]; lia.
Qed.

Lemma share_bounds k m (x : Qc) : (k <= m)%nat -> (0 < m)%nat -> (0 <= x)%Qc ->
  (0 <= qn k * (x / qn m) /\ qn k * (x / qn m) <= x)%Qc.
Proof.
  intros Hk Hm Hx. apply qn_le in Hk. apply qn_pos in Hm. pose proof (qn_nonneg k) as H0.
  set (a := qn k) in *. set (b := qn m) in *.
  assert (Hb : b <> 0%Qc) by (intros E; rewrite E in Hm; now apply Qclt_not_eq in Hm).
  assert (E : (a * (x / b) = (a / b) * x)%Qc) by (field; exact Hb). rewrite E.
  assert (Er : a = (a / b * b)%Qc) by (field; exact Hb).
  set (r := (a / b)%Qc) in *. clearbody r b. subst a. clear E Hb.
  assert (Hr0 : (0 <= r)%Qc) by qnra. assert (Hr1 : (r <= 1)%Qc) by qnra. split; qnra.
Qed.
