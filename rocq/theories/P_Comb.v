(** Proofs about loss combinations, exclusive replacement and repeated aggregation. *)
From Coq Require Import Sorting.Permutation.
From Verif Require Import Prelude PreludeFacts Pandas PandasFacts M_Base P_Base M_FileIO M_Agg S_Agg P_Req P_Agg.
Local Open Scope string_scope.
Local Open Scope list_scope.

(** ** Repeated aggregation *)
Lemma read_sample_again st : forall s st', read_sample st = (s, st') -> read_sample st' = (s, st').
Proof.
  intros s st'. unfold read_sample. destruct (ds_sample st) as [ds|] eqn:E1, (lf_sample st) as [lf|] eqn:E2; intros [= <- <-];
    rewrite ?E1, ?E2; try reflexivity. cbn [ds_sample lf_sample].
  assert (E : add_ds_level (add_ds_level lf) = add_ds_level lf) by (unfold add_ds_level; rewrite map_map; reflexivity).
  now rewrite E.
Qed.
Lemma read_sample_none st : ds_sample (snd (read_sample st)) = ds_sample st /\
  (lf_sample (snd (read_sample st)) = None <-> lf_sample st = None).
Proof.
  unfold read_sample. destruct (ds_sample st) as [ds|] eqn:E1, (lf_sample st) as [lf|] eqn:E2; cbn; rewrite ?E1, ?E2; split; easy.
Qed.

Lemma run_state c st : snd (run_call c st) = st \/ snd (run_call c st) = snd (read_sample st).
Proof.
  unfold run_call, aggregate_losses.
  destruct (match c_config c with None => Ok tt | Some x => validate_thresholds (c_raise c) (c_dvs c) x end); [|now left].
  destruct (match c_combos c with None => Ok tt | Some x => validate_combinations (c_dvs c) x end); [|now left].
  destruct (ds_sample st) eqn:E1, (lf_sample st) eqn:E2; try (now left);
    destruct (read_sample st) as [[s|] st']; now right.
Qed.
Lemma run_read c st : fst (run_call c (snd (read_sample st))) = fst (run_call c st).
Proof.
  destruct (read_sample st) as [s st'] eqn:E. cbn [snd]. pose proof (read_sample_again _ _ _ E) as E'.
  pose proof (read_sample_none st) as [H1 H2]. rewrite E in H1, H2. cbn [snd] in H1, H2.
  unfold run_call, aggregate_losses. rewrite E, E', H1.
  destruct (match c_config c with None => Ok tt | Some x => validate_thresholds (c_raise c) (c_dvs c) x end); [|easy].
  destruct (match c_combos c with None => Ok tt | Some x => validate_combinations (c_dvs c) x end); [|easy].
  destruct (ds_sample st), (lf_sample st) as [lf|], (lf_sample st') as [lf'|]; try (destruct s; reflexivity).
  all: exfalso; destruct H2 as [H2a H2b]; first [specialize (H2a eq_refl); discriminate H2a | specialize (H2b eq_refl); discriminate H2b].
Qed.
Lemma run_stored c st : stored_losses (snd (run_call c st)) = stored_losses st /\ ds_sample (snd (run_call c st)) = ds_sample st.
Proof.
  destruct (run_state c st) as [->| ->]; [easy|]. split; [|apply read_sample_none].
  destruct (ds_sample st) eqn:E1, (lf_sample st) eqn:E2.
  4:{ unfold read_sample. now rewrite E1, E2. }
  all: destruct (read_sample_spec st) as (s & st' & -> & _ & H); [rewrite ?E1, ?E2; (left + right); discriminate|exact H].
Qed.
(** After any aggregations, with any settings, the next one answers as if they had not happened. *)
Theorem run_independent cs : forall c st, fst (run_call c (fold_left (fun s x => snd (run_call x s)) cs st)) = fst (run_call c st).
Proof.
  induction cs as [|x cs IH]; intros c st; [easy|]. cbn [fold_left]. rewrite IH.
  destruct (run_state x st) as [->| ->]; [easy|]. apply run_read.
Qed.
Theorem run_values cs : forall st, stored_losses (fold_left (fun s x => snd (run_call x s)) cs st) = stored_losses st /\
  ds_sample (fold_left (fun s x => snd (run_call x s)) cs st) = ds_sample st.
Proof.
  induction cs as [|x cs IH]; intros st; [easy|]. cbn [fold_left]. destruct (IH (snd (run_call x st))) as [-> ->]. apply run_stored.
Qed.
Theorem run_unchanged cs st : ds_sample st = None \/ lf_sample st = None -> fold_left (fun s x => snd (run_call x s)) cs st = st.
Proof.
  intros H. induction cs as [|x cs IH]; [easy|]. cbn [fold_left].
  assert (E : snd (run_call x st) = st); [|now rewrite E].
  destruct (run_state x st) as [->| ->]; [easy|]. unfold read_sample. destruct (ds_sample st), (lf_sample st); try easy. now destruct H.
Qed.

(** ** Exclusive replacement *)
Lemma zero_where_nth {A} (zero d : A) rows col i : (i < List.length col)%nat ->
  nth i (zero_where zero rows col) d = if rows i then zero else nth i col d.
Proof.
  intros Hi. unfold zero_where. rewrite (combine_seq_map (fun j x => if rows j then zero else x) d).
  rewrite nth_map_seq by easy. easy.
Qed.
Lemma zero_where_length {A} (zero : A) rows col : List.length (zero_where zero rows col) = List.length col.
Proof. unfold zero_where. rewrite map_length, combine_length, seq_length. apply Nat.min_id. Qed.
Lemma replaced_row_spec t i : replaced_row t i = true <-> replaced_in t i.
Proof.
  unfold replaced_row, replaced_in. rewrite existsb_exists. split.
  - intros (c & Hc & H). apply andb_true_iff in H as [H1 H2]. apply String.eqb_eq in H1. unfold positive, nlt in H2.
    destruct (nth i (snd c) None) as [x|] eqn:E; [|easy]. exists c, x. repeat split; auto. now apply Qcltb_true.
  - intros (c & x & Hc & H1 & H2 & H3). exists c. split; [easy|]. apply andb_true_iff. split; [now apply String.eqb_eq|].
    unfold positive. unfold num in *. rewrite H2. cbn. now apply Qcltb_true.
Qed.

(** ** Combinations *)
Section FoldAppend.
  Context {K V A : Type} (eqb : K -> K -> bool) (eqb_eq : forall a b, eqb a b = true <-> a = b).
  Context (kf : A -> K) (vf : A -> V).

  Lemma aset_NoDup k (v : V) d : NoDup (map fst d) -> NoDup (map fst (aset eqb k v d)).
  Proof.
    intros Hn. induction d as [|[k' v'] d IH]; [repeat constructor; easy|]. cbn [aset]. inversion Hn; subst.
    destruct (eqb k k') eqn:E; [easy|]. cbn [map fst]. constructor; [|now apply IH]. intros Hin.
    apply in_map_iff in Hin as ([k2 v2] & Ek & Hin). cbn in Ek. subst k2.
    assert (Hor : forall d, In (k', v2) (aset eqb k v d) -> k' = k \/ In k' (map fst d)).
    { clear - eqb_eq. induction d as [|[k3 v3] d IH]; cbn [aset].
      - intros [E|[]]. injection E as <- <-. now left.
      - destruct (eqb k k3) eqn:E; intros [E'|H].
        + injection E' as <- _. apply eqb_eq in E. now left.
        + right. right. now apply (in_map fst) in H.
        + injection E' as <- _. right. now left.
        + destruct (IH H); [now left|right; now right]. }
    destruct (Hor _ Hin) as [->|H']; [|easy]. assert (eqb k k = true) by now apply eqb_eq. congruence.
  Qed.
  Lemma aget_aset {W} k k' (v : W) d : aget eqb k' (aset eqb k v d) = if eqb k' k then Some v else aget eqb k' d.
  Proof.
    induction d as [|[k2 v2] d IH]; cbn [aset aget]; [now destruct (eqb k' k)|].
    destruct (eqb k k2) eqn:E; cbn [aget].
    - apply eqb_eq in E. subst k2. now destruct (eqb k' k).
    - rewrite IH. destruct (eqb k' k2) eqn:E2, (eqb k' k) eqn:E3; try easy. apply eqb_eq in E2, E3. subst.
      assert (eqb k2 k2 = true) by now apply eqb_eq. congruence.
  Qed.
  Lemma append_get k (v : V) d k' : aget eqb k' (append_at eqb k v d) =
    if eqb k' k then Some (match aget eqb k d with Some vs => vs | None => [] end ++ [v]) else aget eqb k' d.
  Proof.
    unfold append_at. destruct (aget eqb k d) as [vs|] eqn:E.
    - rewrite aget_aset. easy.
    - rewrite aget_app. cbn [aget]. destruct (eqb k' k) eqn:E2.
      + apply eqb_eq in E2. subst k'. now rewrite E.
      + now destruct (aget eqb k' d).
  Qed.
  Lemma aset_list_NoDup k (v : list V) d : NoDup (map fst d) -> NoDup (map fst (aset eqb k v d)).
  Proof.
    intros Hn. induction d as [|[k' v'] d IH]; [repeat constructor; easy|]. cbn [aset]. inversion Hn; subst.
    destruct (eqb k k') eqn:E; [easy|]. cbn [map fst]. constructor; [|now apply IH]. intros Hin.
    assert (Hor : forall d, In k' (map fst (aset eqb k v d)) -> k' = k \/ In k' (map fst d)).
    { clear - eqb_eq. induction d as [|[k3 v3] d IH]; cbn [aset].
      - intros [E|[]]. now left.
      - destruct (eqb k k3) eqn:E; cbn [map fst]; intros [E'|H]; auto.
        + right. now left.
        + right. now right.
        + right. now left.
        + destruct (IH H); [now left|right; now right]. }
    destruct (Hor _ Hin) as [->|H']; [|easy]. assert (eqb k k = true) by now apply eqb_eq. congruence.
  Qed.
  Lemma append_NoDup k (v : V) d : NoDup (map fst d) -> NoDup (map fst (append_at eqb k v d)).
  Proof.
    intros Hn. unfold append_at. destruct (aget eqb k d) eqn:E; [now apply aset_list_NoDup|].
    rewrite map_app. apply NoDup_app_intro; auto.
    - repeat constructor. easy.
    - intros x Hx [<-|[]]. now apply (aget_None eqb eqb_eq) in E.
  Qed.
  Lemma fold_append l : forall d, NoDup (map fst d) ->
    NoDup (map fst (fold_left (fun d a => append_at eqb (kf a) (vf a) d) l d)) /\
    forall k, aget eqb k (fold_left (fun d a => append_at eqb (kf a) (vf a) d) l d) =
      match map vf (filter (fun a => eqb k (kf a)) l) with
      | [] => aget eqb k d
      | vs => Some (match aget eqb k d with Some ws => ws | None => [] end ++ vs)
      end.
  Proof.
    induction l as [|a l IH]; intros d Hn; cbn [fold_left filter map]; [auto|].
    destruct (IH (append_at eqb (kf a) (vf a) d) (append_NoDup _ _ _ Hn)) as [H1 H2]. split; [easy|].
    intros k. rewrite H2, append_get. destruct (eqb k (kf a)) eqn:E; [|easy].
    apply eqb_eq in E. subst k. cbn [map]. destruct (map vf (filter _ l)); [easy|]. now rewrite <- app_assoc.
  Qed.
  Lemma fold_append_In l k vs : In (k, vs) (fold_left (fun d a => append_at eqb (kf a) (vf a) d) l []) <->
    vs = map vf (filter (fun a => eqb k (kf a)) l) /\ vs <> [].
  Proof.
    destruct (fold_append l [] (NoDup_nil _)) as [Hn Hg]. specialize (Hg k). cbn [aget] in Hg. split.
    - intros Hin. rewrite (In_aget eqb eqb_eq k vs _ Hn Hin) in Hg. destruct (map vf _); [discriminate|].
      injection Hg as ->. easy.
    - intros [-> Hne]. destruct (map vf _) eqn:E; [easy|]. now apply (aget_In eqb eqb_eq).
  Qed.
End FoldAppend.

Lemma place_eqb_eq a b : place_eqb a b = true <-> a = b.
Proof.
  destruct a as [[x y] z], b as [[x' y'] z']. unfold place_eqb. cbn. rewrite !andb_true_iff, !String.eqb_eq. split.
  - now intros [[-> ->] ->].
  - now intros [= -> -> ->].
Qed.
Lemma frozenset_eq a b : (forall x, In x a <-> In x b) -> frozenset a = frozenset b.
Proof.
  intros H. unfold frozenset. apply (sorted_perm_unique (le:=str_le) str_le_antisym).
  - apply isort_sorted; first [exact str_le_trans|exact str_le_total].
  - apply isort_sorted; first [exact str_le_trans|exact str_le_total].
  - rewrite <- !isort_perm. apply NoDup_Permutation; try apply (unique_NoDup String.eqb seqb_eq).
    intros x. now rewrite !(unique_In String.eqb seqb_eq).
Qed.
Lemma frozenset_In l x : In x (frozenset l) <-> In x l.
Proof.
  unfold frozenset. rewrite <- (unique_In String.eqb seqb_eq l x).
  split; intros H; (eapply Permutation_in; [|exact H]); [symmetry|]; apply isort_perm.
Qed.

(** ** Bilinear interpolation *)

Lemma increasing_nth l : increasing l = true -> forall i j, (i < j < List.length l)%nat -> (nth i l 0 < nth j l 0)%Qc.
Proof.
  induction l as [|a l IH]; intros H i j Hij; [cbn in Hij; lia|].
  destruct l as [|b l]; [cbn in Hij; lia|]. cbn [increasing] in H. apply andb_true_iff in H as [Hab H].
  apply Qcltb_true in Hab. specialize (IH H). destruct j as [|j]; [lia|].
  destruct i as [|i].
  - change (nth 0 (a :: b :: l) 0%Qc) with a. change (nth (S j) (a :: b :: l) 0%Qc) with (nth j (b :: l) 0%Qc).
    destruct j as [|j]; [exact Hab|]. apply (Qclt_trans _ b); [exact Hab|]. apply (IH 0%nat (S j)). cbn [List.length] in *. lia.
  - apply (IH i j). cbn [List.length] in *. lia.
Qed.

Lemma find_cell_cons2 a b l x : find_cell (a :: b :: l) x =
  if Qcleb a x && Qcleb x b then Some (0%nat, ((x - a) / (b - a))%Qc)
  else match find_cell (b :: l) x with Some (i, w) => Some (S i, w) | None => None end.
Proof. reflexivity. Qed.
Lemma find_cell_located l x i w : increasing l = true -> find_cell l x = Some (i, w) ->
  located (fun k => nth k l 0%Qc) (List.length l) x i w.
Proof.
  revert i w. induction l as [|a l IH]; intros i w Hi H; [easy|]. destruct l as [|b l]; [easy|].
  pose proof Hi as Hi0. cbn [increasing] in Hi. apply andb_true_iff in Hi as [Hab Hi]. apply Qcltb_true in Hab.
  rewrite find_cell_cons2 in H. destruct (Qcleb a x && Qcleb x b) eqn:E.
  - apply andb_true_iff in E as [E1 E2]. apply Qcleb_true in E1, E2.
    assert (i = 0%nat /\ w = ((x - a) / (b - a))%Qc) as [-> ->] by (split; congruence).
    assert (Hd : (b - a)%Qc <> 0%Qc). { intros E. assert (b = a) by (rewrite <- (Qcplus_0_l a), <- E; ring). subst b. now apply Qclt_not_eq in Hab. }
    assert (Hp : (0 < b - a)%Qc) by qlra.
    assert (Hw : (((x - a) / (b - a)) * (b - a) = x - a)%Qc) by (field; exact Hd).
    set (w := ((x - a) / (b - a))%Qc) in *. unfold located. cbn [nth List.length]. split; [lia|].
    split; [|split].
    + destruct (Qclt_le_dec w 0) as [Hn|]; [|easy]. exfalso. assert (w * (b - a) < 0)%Qc by qnra. qlra.
    + destruct (Qclt_le_dec 1 w) as [Hn|]; [|easy]. exfalso. assert (0 < (w - 1) * (b - a))%Qc by qnra.
      assert (E : ((w - 1) * (b - a) = w * (b - a) - (b - a))%Qc) by ring. rewrite E in H0. qlra.
    + assert (E : ((1 - w) * a + w * b = a + w * (b - a))%Qc) by ring. rewrite E, Hw. ring.
  - destruct (find_cell (b :: l) x) as [[i' w']|] eqn:Ef; [|easy]. assert (i = S i' /\ w = w') as [-> ->] by (split; congruence).
    destruct (IH _ _ Hi eq_refl) as (H1 & H2 & H3 & H4). split; [cbn [List.length] in *; lia|]. repeat (split; [assumption|]). exact H4.
Qed.

(** Where two cells share a point, linear interpolation gives the same value in both. *)
Lemma located_unique l x i w j u g : increasing l = true ->
  located (fun k => nth k l 0%Qc) (List.length l) x i w -> located (fun k => nth k l 0%Qc) (List.length l) x j u ->
  ((1 - w) * g i + w * g (S i) = (1 - u) * g j + u * g (S j))%Qc.
Proof.
  intros Hi. assert (Hlt : forall i w j u, (i < j)%nat ->
    located (fun k => nth k l 0%Qc) (List.length l) x i w -> located (fun k => nth k l 0%Qc) (List.length l) x j u ->
    ((1 - w) * g i + w * g (S i) = (1 - u) * g j + u * g (S j))%Qc).
  { clear i w j u. intros i w j u Hij (A1 & A2 & A3 & A4) (B1 & B2 & B3 & B4).
    pose proof (@increasing_nth l Hi (i) (S i) ltac:(lia)) as L1.
    pose proof (@increasing_nth l Hi (j) (S j) ltac:(lia)) as L2.
    assert (L3 : (nth (S i) l 0 <= nth j l 0)%Qc).
    { destruct (Nat.eq_dec (S i) j) as [<-|Hne]; [apply Qcle_refl|]. apply Qclt_le_weak. apply (@increasing_nth l Hi). lia. }
    assert (Ex : x = (nth (S i) l 0 - (1 - w) * (nth (S i) l 0 - nth i l 0))%Qc) by (rewrite A4; ring).
    assert (Ey : x = (nth j l 0 + u * (nth (S j) l 0 - nth j l 0))%Qc) by (rewrite B4; ring).
    assert (P1 : (0 <= (1 - w) * (nth (S i) l 0 - nth i l 0))%Qc) by qnra.
    assert (P2 : (0 <= u * (nth (S j) l 0 - nth j l 0))%Qc) by qnra.
    assert (Z1 : ((1 - w) * (nth (S i) l 0 - nth i l 0) = 0)%Qc).
    { apply Qcle_antisym; [|exact P1]. rewrite Ex in Ey. clear - Ey P2 L3. qlra. }
    assert (Z2 : (u * (nth (S j) l 0 - nth j l 0) = 0)%Qc).
    { apply Qcle_antisym; [|exact P2]. rewrite Ex in Ey. clear - Ey P1 L3. qlra. }
    assert (Ej : nth (S i) l 0%Qc = nth j l 0%Qc).
    { rewrite Z1 in Ex. rewrite Z2 in Ey. rewrite Ex in Ey. clear - Ey. qlra. }
    assert (j = S i) as ->.
    { destruct (Nat.eq_dec (S i) j) as [<-|Hne]; [easy|]. pose proof (@increasing_nth l Hi (S i) (j) ltac:(lia)) as L.
      rewrite Ej in L. now apply Qclt_not_eq in L. }
    assert (w = 1%Qc) as ->.
    { apply Qcmult_integral in Z1 as [Z1|Z1]; [clear - Z1; qlra|]. exfalso. clear - Z1 L1. qlra. }
    assert (u = 0%Qc) as ->.
    { apply Qcmult_integral in Z2 as [Z2|Z2]; [exact Z2|]. exfalso. clear - Z2 L2. qlra. }
    ring. }
  intros HA HB. destruct (Nat.lt_trichotomy i j) as [H|[<-|H]].
  - now apply Hlt.
  - destruct HA as (A1 & A2 & A3 & A4), HB as (B1 & B2 & B3 & B4).
    pose proof (@increasing_nth l Hi (i) (S i) ltac:(lia)) as L1.
    assert (E : ((w - u) * (nth (S i) l 0 - nth i l 0) = 0)%Qc).
    { transitivity (((1 - w) * nth i l 0 + w * nth (S i) l 0) - ((1 - u) * nth i l 0 + u * nth (S i) l 0))%Qc; [ring|].
      rewrite <- A4, <- B4. ring. }
    apply Qcmult_integral in E as [E|E].
    + assert (w = u) as -> by (clear - E; qlra). reflexivity.
    + exfalso. clear - E L1. qlra.
  - symmetry. now apply Hlt.
Qed.

Lemma hd_nth (r : list Qc) : hd 0%Qc r = nth 0 r 0%Qc.
Proof. now destruct r. Qed.
Lemma nth_hd_map (m : matrix) k : nth k (map (fun r => hd 0%Qc r) m) 0%Qc = entry m k 0.
Proof.
  unfold entry. revert k. induction m as [|r m IH]; intros [|k]; [reflexivity|reflexivity|apply hd_nth|apply IH].
Qed.
Lemma located_ext g g' size x i w : (forall k, g k = g' k) -> located g size x i w -> located g' size x i w.
Proof. intros H (A1 & A2 & A3 & A4). repeat split; try assumption. now rewrite <- !H. Qed.

Lemma interpolate_bilinear m x y v : interpolate m x y = Ok v -> bilinear m x y v.
Proof.
  unfold interpolate. destruct (increasing (map (fun r => hd 0%Qc r) m)) eqn:E1; [|easy].
  destruct (increasing (hd [] m)) eqn:E2; [|easy]. cbn [andb negb].
  destruct (find_cell (map (fun r => hd 0%Qc r) m) x) as [[i s]|] eqn:F1; [|easy].
  destruct (find_cell (hd [] m) y) as [[j t]|] eqn:F2; [|easy]. intros H.
  apply (@find_cell_located _ _ _ _ E1) in F1. apply (@find_cell_located _ _ _ _ E2) in F2.
  exists i, j, s, t. split; [|split].
  - rewrite map_length in F1. revert F1. apply located_ext. intros k. apply nth_hd_map.
  - assert (hd [] m = nth 0 m []) as Eh by now destruct m. rewrite Eh in F2. exact F2.
  - assert (E : forall a b : Qc, Ok a = Ok b -> b = a) by congruence. apply E in H. exact H.
Qed.

Lemma interpolate_unique m x y v v' : interpolate m x y = Ok v -> bilinear m x y v' -> v' = v.
Proof.
  intros H H'. pose proof (@interpolate_bilinear _ _ _ _ H) as (i & j & s & t & L1 & L2 & ->).
  destruct H' as (i' & j' & s' & t' & L1' & L2' & ->).
  assert (E1 : increasing (map (fun r => hd 0%Qc r) m) = true /\ increasing (nth 0 m []) = true).
  { unfold interpolate in H. assert (hd [] m = nth 0 m []) as Eh by now destruct m. rewrite Eh in H.
    destruct (increasing (map (fun r => hd 0%Qc r) m)); [|easy]. destruct (increasing (nth 0 m [])); easy. }
  destruct E1 as [E1 E2].
  assert (M1 : forall i s, located (fun k => entry m k 0) (List.length m) x i s ->
               located (fun k => nth k (map (fun r => hd 0%Qc r) m) 0%Qc) (List.length (map (fun r => hd 0%Qc r) m)) x i s).
  { intros i0 s0 L. rewrite map_length. revert L. apply located_ext. intros k. symmetry. apply nth_hd_map. }
  apply M1 in L1, L1'.
  rewrite (@located_unique _ _ _ _ _ _ (fun k => ((1 - t') * entry m k j' + t' * entry m k (S j'))%Qc) E1 L1' L1).
  f_equal; f_equal; symmetry; exact (@located_unique _ _ _ _ _ _ (fun k => entry m _ k) E2 L2 L2').
Qed.

Lemma bilinear_sym m x y v : symmetric m -> bilinear m y x v -> bilinear m x y v.
Proof.
  intros [Hl Hs] (i & j & s & t & L1 & L2 & ->). exists j, i, t, s. split; [|split].
  - rewrite Hl in L2. revert L2. apply located_ext. intros k. apply Hs.
  - rewrite Hl. revert L1. apply located_ext. intros k. apply Hs.
  - rewrite (Hs i j), (Hs i (S j)), (Hs (S i) j), (Hs (S i) (S j)). ring.
Qed.

Section Pair.
  Context (order : list string -> list string) (n : nat) (dv a b : string) (m : matrix) (s : qframe).
  Context (Hn : NoDup (map fst s)).
  (** A component has one loss name; no column is already a combination. *)
  Context (Hloss : forall c c', In c s -> In c' s -> k_dmg (fst c) = k_dmg (fst c') -> k_loss (fst c) = k_loss (fst c')).
  Context (Hfresh : forall c, In c s -> k_loss (fst c) <> "combination").
  (** Where both components occur no third one does. *)
  Context (Honly : forall p x, paired s dv a b p -> present s dv x p -> x = a \/ x = b).

  Let cols := map fst s.
  Let d2l := dmg_to_loss cols.

  Lemma cols_In k : In k cols <-> exists v, In (k, v) s.
  Proof.
    unfold cols. rewrite in_map_iff. split; [intros ([k' v] & <- & H); eauto|intros (v & H); now exists (k, v)].
  Qed.

  Lemma d2l_get l : forall d x y,
    (forall k, In k l -> k_dmg k = x -> k_loss k = y) -> (exists k, In k l /\ k_dmg k = x) \/ dget x d = Some y ->
    dget x (fold_left (fun d k => dset (k_dmg k) (k_loss k) d) l d) = Some y.
  Proof.
    induction l as [|k l IH]; intros d x y Hy Hex; cbn [fold_left].
    - destruct Hex as [(k & [] & _)|H]; easy.
    - apply IH; [intros k' Hk'; apply Hy; now right|].
      destruct (string_dec (k_dmg k) x) as [E|Hne].
      + right. rewrite E. rewrite dget_dset_eq. f_equal. apply Hy; [now left|easy].
      + rewrite dget_dset_ne by congruence. destruct Hex as [(k' & [<-|Hk'] & E)|H]; [easy|eauto|now right].
  Qed.
  Lemma d2l_present x p : present s dv x p -> exists l v, dget x d2l = Some l /\ In (at_place dv l x p, v) s.
  Proof.
    intros ([k v] & Hin & H1 & H2 & H3). cbn [fst] in *. exists (k_loss k), v. split.
    - apply d2l_get; [|left; exists k; split; [apply cols_In; eauto|easy]].
      intros k' Hk' E. apply cols_In in Hk' as (v' & Hk'). apply (Hloss (k', v') (k, v)); cbn; congruence.
    - destruct k as [kd kl kg ko ki ku]. cbn in *. subst. cbn. exact Hin.
  Qed.

  Lemma place_names p names : In (p, names) (fold_left (fun d k => append_at place_eqb (place_of k) (k_dmg k) d)
                           (filter (fun k => String.eqb (k_dv k) dv) cols) []) ->
    names <> [] /\ forall x, In x names <-> present s dv x p.
  Proof.
    intros H. apply (fold_append_In place_eqb place_eqb_eq place_of k_dmg) in H as [-> Hne]. split; [easy|].
    intros x. rewrite in_map_iff. unfold present. split.
    - intros (k & Hk & H). apply filter_In in H as [H Hp]. apply filter_In in H as [H Hd].
      apply cols_In in H as (v & H). exists (k, v). apply place_eqb_eq in Hp. apply String.eqb_eq in Hd. auto.
    - intros ([k v] & Hin & H1 & H2 & H3). cbn [fst] in *. exists k. split; [easy|]. apply filter_In. split.
      + apply filter_In. split; [apply cols_In; eauto|now apply String.eqb_eq].
      + now apply place_eqb_eq.
  Qed.
  Lemma place_listed p x : present s dv x p -> exists names, In (p, names) (fold_left (fun d k => append_at place_eqb (place_of k) (k_dmg k) d)
                           (filter (fun k => String.eqb (k_dv k) dv) cols) []).
  Proof.
    intros ([k v] & Hin & H1 & H2 & H3). cbn [fst] in *. eexists. apply (fold_append_In place_eqb place_eqb_eq place_of k_dmg). split; [reflexivity|].
    intros E. apply map_eq_nil in E.
    assert (H : In k (filter (fun a => place_eqb p (place_of a)) (filter (fun k => String.eqb (k_dv k) dv) cols))); [|now rewrite E in H].
    apply filter_In. split; [apply filter_In; split; [apply cols_In; eauto|now apply String.eqb_eq]|now apply place_eqb_eq].
  Qed.

  Lemma group_found g : find (fun g => subset [a; b] (fst g)) (potential_groups dv cols) = Some g ->
    fst g = frozenset [a; b] /\ NoDup (snd g) /\ forall p, In p (snd g) <-> paired s dv a b p.
  Proof.
    intros H. apply find_some in H as [Hin Hsub]. unfold potential_groups in Hin. destruct g as [fs ps]. cbn [fst snd] in *.
    set (grouped := fold_left _ (filter _ cols) []) in Hin.
    assert (Hng : NoDup (map fst grouped)) by (apply (fold_append place_eqb place_eqb_eq place_of k_dmg); constructor).
    apply (fold_append_In label_eqb label_eqb_eq (fun g : place * list string => frozenset (snd g)) fst) in Hin as [-> Hne].
    unfold subset in Hsub. rewrite forallb_forall in Hsub.
    assert (Ha : In a fs) by (apply mem_true, Hsub; now left). assert (Hb : In b fs) by (apply mem_true, Hsub; right; now left).
    destruct (filter (fun g => label_eqb fs (frozenset (snd g))) grouped) as [|[p0 names0] rest] eqn:Ef; [easy|].
    assert (H0 : In (p0, names0) (filter (fun g => label_eqb fs (frozenset (snd g))) grouped)) by (rewrite Ef; now left).
    apply filter_In in H0 as [H0 E0]. cbn [snd] in E0. apply label_eqb_eq in E0.
    assert (Hpair : forall names, frozenset names = fs -> In a names /\ In b names).
    { intros names E. split; apply frozenset_In; now rewrite E. }
    assert (Hfs : forall p names, In (p, names) grouped -> In a names -> In b names -> frozenset names = frozenset [a; b]).
    { intros p names Hg Hia Hib. apply place_names in Hg as [_ Hx]. apply frozenset_eq. intros x. split.
      - intros H. apply Hx in H. destruct (Honly p x) as [->| ->]; [split; now apply Hx|easy|now left|right; now left].
      - intros [<-|[<-|[]]]; easy. }
    assert (Efs : fs = frozenset [a; b]).
    { rewrite E0. apply (Hfs p0 names0 H0); apply Hpair; auto. }
    split; [exact Efs|]. rewrite <- Ef. split.
    - clear - Hng. induction grouped as [|x l IH]; [constructor|]. inversion Hng; subst. cbn [filter].
      destruct (label_eqb fs (frozenset (snd x))); [|now apply IH]. cbn [map]. constructor; [|now apply IH].
      intros Hin. apply H1. apply in_map_iff in Hin as (y & E & Hy). apply filter_In in Hy as [Hy _]. rewrite <- E. now apply in_map.
    - intros p. rewrite in_map_iff. split.
      + intros ([p' names] & E & H). cbn in E. subst p'. apply filter_In in H as [H E]. cbn [snd] in E. apply label_eqb_eq in E.
        apply place_names in H as [_ Hx]. destruct (Hpair names (eq_sym E)). split; now apply Hx.
      + intros [Hpa Hpb]. destruct (place_listed p a Hpa) as (names & Hg). fold grouped in Hg.
        exists (p, names). split; [easy|]. apply filter_In. split; [easy|]. cbn [snd]. apply label_eqb_eq. rewrite Efs. symmetry.
        apply (Hfs p names Hg); apply (place_names p names Hg); easy.
  Qed.

  (** The two columns at a place. *)
  Let gone (p : place) (k : lkey) : bool := String.eqb (k_dv k) dv && (String.eqb (k_dmg k) a || String.eqb (k_dmg k) b) && place_eqb (place_of k) p.
  Let remaining (ps : list place) : qframe := filter (fun c => negb (existsb (fun p => gone p (fst c)) ps)) s.

  Let pair_order := order (frozenset [a; b]).
  Context (Horder : pair_order = [a; b] \/ (pair_order = [b; a] /\ symmetric m)).

  Let combined_by (p : place) (v : list Qc) : Prop :=
    exists la lb va vb, In (at_place dv la a p, va) s /\ In (at_place dv lb b p, vb) s /\ List.length v = n /\
      forall i, (i < n)%nat -> interpolate m (nth i va 0%Qc) (nth i vb 0%Qc) = Ok (nth i v 0%Qc) \/
                              (symmetric m /\ interpolate m (nth i vb 0%Qc) (nth i va 0%Qc) = Ok (nth i v 0%Qc)).

  Lemma remaining_In ps k v : In (k, v) (remaining ps) <-> In (k, v) s /\ forall p, In p ps -> gone p k = false.
  Proof.
    unfold remaining. rewrite filter_In. apply and_iff_compat_l. cbn [fst]. rewrite negb_true_iff. split.
    - intros H p Hp. destruct (gone p k) eqn:E; [|easy].
      assert (existsb (fun p => gone p k) ps = true) by (apply existsb_exists; eauto). congruence.
    - intros H. destruct (existsb _ ps) eqn:E; [|easy]. apply existsb_exists in E as (p & Hp & E). now rewrite (H p Hp) in E.
  Qed.
  Lemma gone_at p l x q : (x = a \/ x = b) -> gone p (at_place dv l x q) = place_eqb q p.
  Proof.
    intros Hx. unfold gone, at_place. cbn [k_dv k_dmg]. rewrite String.eqb_refl.
    assert (E : (String.eqb x a || String.eqb x b) = true) by (destruct Hx as [->| ->]; rewrite String.eqb_refl; [easy|apply orb_true_r]).
    rewrite E. unfold place_of. cbn. destruct q as [[? ?] ?]. easy.
  Qed.
  Lemma NoDup_remaining ps : NoDup (map fst (remaining ps)).
  Proof.
    unfold remaining. clear - Hn. induction s as [|c l IH]; [constructor|]. inversion Hn; subst. cbn [filter].
    destruct (negb _); [|now apply IH]. cbn [map]. constructor; [|now apply IH]. intros H. apply H1.
    apply in_map_iff in H as (y & E & Hy). apply filter_In in Hy as [Hy _]. rewrite <- E. now apply in_map.
  Qed.
  Lemma aget_remaining p ps l x v : (x = a \/ x = b) -> ~ In p ps -> In (at_place dv l x p, v) s ->
    aget lkey_eqb (at_place dv l x p) (remaining ps) = Some v.
  Proof.
    intros Hx Hp Hin. apply (In_aget lkey_eqb lkey_eqb_eq _ _ _ (NoDup_remaining ps)). apply remaining_In. split; [easy|].
    intros q Hq. rewrite gone_at by easy. destruct (place_eqb p q) eqn:E; [|easy]. apply place_eqb_eq in E. now subst.
  Qed.

  Lemma combine_at_step p ps dc st : paired s dv a b p -> ~ In p ps ->
    combine_at order n d2l dv ([a; b], m) (frozenset [a; b]) (remaining ps, dc) p = Ok st ->
    fst st = remaining (p :: ps) /\ exists v, combined_by p v /\ snd st = aset lkey_eqb (combination_key dv a b p) v dc.
  Proof.
    intros [Hpa Hpb] Hp H. unfold combine_at in H. fold pair_order in H.
    destruct (d2l_present a p Hpa) as (la & va & Ea & Hia). destruct (d2l_present b p Hpb) as (lb & vb & Eb & Hib).
    fold (at_place dv la a p) in *.
    assert (Ga : aget lkey_eqb (at_place dv la a p) (remaining ps) = Some va) by (apply aget_remaining; auto).
    assert (Gb : aget lkey_eqb (at_place dv lb b p) (remaining ps) = Some vb) by (apply aget_remaining; auto).
    assert (Hkey : LK dv "combination" ("(" ++ join ", " (fst ([a; b], m)) ++ ")") (fst (fst p)) (snd (fst p)) (snd p) = combination_key dv a b p).
    { unfold combination_key, at_place. cbn [fst join String.concat]. now rewrite !string_app_assoc. }
    assert (Hrem : forall k v, In (k, v) (remaining ps) -> lkey_eqb (at_place dv la a p) k = false -> lkey_eqb (at_place dv lb b p) k = false -> gone p k = false).
    { intros k v Hk H1 H2. destruct (gone p k) eqn:E; [|easy]. exfalso. unfold gone in E. apply andb_true_iff in E as [E E3].
      apply andb_true_iff in E as [E1 E2]. apply place_eqb_eq in E3. apply String.eqb_eq in E1. apply remaining_In in Hk as [Hk _].
      apply orb_true_iff in E2 as [E2|E2]; apply String.eqb_eq in E2.
      - assert (k = at_place dv la a p); [|subst k; now rewrite lkey_eqb_refl in H1].
        pose proof (Hloss (k, v) _ Hk Hia) as Hl. cbn in Hl. destruct k as [kd kl kg ko ki ku]. cbn in *. subst. unfold at_place. cbn. now rewrite Hl.
      - assert (k = at_place dv lb b p); [|subst k; now rewrite lkey_eqb_refl in H2].
        pose proof (Hloss (k, v) _ Hk Hib) as Hl. cbn in Hl. destruct k as [kd kl kg ko ki ku]. cbn in *. subst. unfold at_place. cbn. now rewrite Hl. }
    assert (Hpop : forall k1 k2, (k1 = at_place dv la a p /\ k2 = at_place dv lb b p) \/ (k1 = at_place dv lb b p /\ k2 = at_place dv la a p) ->
      fold_left (fun d k => apop k d) [k1; k2] (remaining ps) = remaining (p :: ps)).
    { intros k1 k2 Hk. cbn [fold_left]. unfold apop. rewrite filter_filter.
      transitivity (filter (fun c => negb (gone p (fst c))) (remaining ps)).
      - apply filter_ext_in. intros [k v] Hin. cbn [fst].
        destruct (lkey_eqb k1 k) eqn:E1; [|destruct (lkey_eqb k2 k) eqn:E2].
        + apply lkey_eqb_eq in E1. assert (Hg : gone p k = true); [|now rewrite Hg].
          destruct Hk as [[-> _]|[-> _]]; subst k; rewrite gone_at by auto; now apply place_eqb_eq.
        + apply lkey_eqb_eq in E2. assert (Hg : gone p k = true); [|now rewrite Hg].
          destruct Hk as [[_ ->]|[_ ->]]; subst k; rewrite gone_at by auto; now apply place_eqb_eq.
        + rewrite (Hrem k v Hin); [reflexivity| |]; destruct Hk as [[-> ->]|[-> ->]]; easy.
      - unfold remaining. rewrite filter_filter. apply filter_ext. intros c. cbn [existsb].
        destruct (gone p (fst c)), (existsb _ ps); easy. }
    assert (Hint : forall (f : Qc -> Qc -> result Qc) v, mapM (fun i => f (nth i va 0%Qc) (nth i vb 0%Qc)) (seq 0 n) = Ok v ->
      List.length v = n /\ forall i, (i < n)%nat -> f (nth i va 0%Qc) (nth i vb 0%Qc) = Ok (nth i v 0%Qc)).
    { intros f v Hv. split; [apply mapM_ok_length in Hv; now rewrite seq_length in Hv|]. apply mapM_Forall2 in Hv.
      intros i Hi. assert (Hk : forall k l v, Forall2 (fun i y => f (nth i va 0%Qc) (nth i vb 0%Qc) = Ok y) (seq k l) v ->
        forall i, (i < l)%nat -> f (nth (k + i) va 0%Qc) (nth (k + i) vb 0%Qc) = Ok (nth i v 0%Qc)).
      { clear. intros k l. revert k. induction l as [|l IH]; intros k v HF i Hi; [lia|]. inversion HF; subst. destruct i as [|i]; cbn [nth].
        - now rewrite Nat.add_0_r.
        - replace (k + S i)%nat with (S k + i)%nat by lia. apply IH; [easy|lia]. }
      apply (Hk 0%nat n v Hv i Hi). }
    destruct Horder as [E|[E Hsym]]; rewrite E in H; cbn [mapM] in H; rewrite Ea, Eb in H; cbn [bind] in H;
      fold (at_place dv la a p) (at_place dv lb b p) in H; cbn [mapM] in H; rewrite Ga, Gb in H; cbn [bind map interp_point snd] in H;
      binv H v; injection H as <-; cbn [fst snd]; rewrite <- Hkey; (split; [apply Hpop; auto|]); exists v; (split; [|reflexivity]).
    - destruct (Hint (fun x y => interpolate m x y) v E0) as [Hl Hi]. exists la, lb, va, vb. repeat (split; [assumption|]). auto.
    - destruct (Hint (fun x y => interpolate m y x) v E0) as [Hl Hi]. exists la, lb, va, vb. split; [easy|]. split; [easy|]. split; [easy|].
      intros i Hi'. right. split; [easy|]. now apply Hi.
  Qed.

  Lemma combine_places ps : forall done dc st, NoDup ps -> (forall p, In p ps -> paired s dv a b p /\ ~ In p done) ->
    (forall p v, In (combination_key dv a b p, v) dc -> In p done) ->
    foldM (combine_at order n d2l dv ([a; b], m) (frozenset [a; b])) (remaining done, dc) ps = Ok st ->
    fst st = remaining (rev ps ++ done) /\
    exists new, snd st = dc ++ new /\ map fst new = map (combination_key dv a b) ps /\
                forall p v, In (combination_key dv a b p, v) new -> combined_by p v.
  Proof.
    induction ps as [|p ps IH]; intros done dc st Hnd Hps Hdc H; cbn [foldM] in H.
    - injection H as <-. split; [easy|]. exists []. rewrite app_nil_r. split; [easy|]. split; [easy|]. easy.
    - inversion Hnd; subst. binv H st1. destruct st1 as [d1 dc1]. destruct (Hps p (or_introl eq_refl)) as [Hp1 Hp2].
      destruct (combine_at_step p done dc _ Hp1 Hp2 E) as [Hd (v & Hv & Hdc1)]. cbn [fst snd] in Hd, Hdc1.
      assert (Hset : forall d : qframe, (forall w, ~ In (combination_key dv a b p, w) d) -> aset lkey_eqb (combination_key dv a b p) v d = d ++ [(combination_key dv a b p, v)]).
      { clear. induction d as [|[k w] d IH]; intros H; [easy|]. cbn [aset app].
        destruct (lkey_eqb (combination_key dv a b p) k) eqn:E.
        - apply lkey_eqb_eq in E. exfalso. apply (H w). left. now rewrite E.
        - rewrite IH; [easy|]. intros w' Hin. apply (H w'). now right. }
      rewrite Hset in Hdc1 by (intros w Hw; apply Hp2; now apply (Hdc _ w)). subst d1 dc1.
      assert (Hinj : forall q, combination_key dv a b q = combination_key dv a b p -> q = p).
      { intros [[q1 q2] q3] Hq. destruct p as [[p1 p2] p3]. now injection Hq as -> -> ->. }
      destruct (IH (p :: done) (dc ++ [(combination_key dv a b p, v)]) st H3) as [Hf (new & Hs & Hm & Hc)].
      + intros q Hq. destruct (Hps q (or_intror Hq)) as [Hq1 Hq2]. split; [easy|]. intros [<-|Hq']; easy.
      + intros q w Hin. apply in_app_iff in Hin as [Hin|[E'|[]]]; [right; now apply (Hdc q w)|]. left. symmetry. apply Hinj. congruence.
      + exact H.
      + split; [cbn [rev]; now rewrite <- app_assoc|]. exists ((combination_key dv a b p, v) :: new).
        split; [rewrite Hs, <- app_assoc; reflexivity|]. split; [cbn; now rewrite Hm|].
        intros q w [E'|Hin]; [|now apply Hc]. assert (w = v) as -> by congruence. rewrite (Hinj q) by congruence. exact Hv.
  Qed.

  Lemma fold_aset_fresh (new : qframe) : forall d : qframe, NoDup (map fst new) -> (forall k, In k (map fst new) -> ~ In k (map fst d)) ->
    fold_left (fun (d : qframe) c => aset lkey_eqb (fst c) (snd c) d) new d = d ++ new.
  Proof.
    induction new as [|[k v] new IH]; intros d Hnd Hk; [now rewrite app_nil_r|]. cbn [fold_left fst snd]. inversion Hnd; subst.
    assert (E : aset lkey_eqb k v d = d ++ [(k, v)]).
    { assert (Hkd : ~ In k (map fst d)) by (apply Hk; now left). clear - Hkd. induction d as [|[k' w] d IH]; [easy|]. cbn [aset app].
      destruct (lkey_eqb k k') eqn:E; [apply lkey_eqb_eq in E; subst; exfalso; apply Hkd; now left|].
      rewrite IH; [easy|]. intros H. apply Hkd. now right. }
    rewrite E, IH; [now rewrite <- app_assoc|easy|].
    intros k' Hk' Hin. rewrite map_app in Hin. apply in_app_iff in Hin as [Hin|[E'|[]]].
    - apply (Hk k'); [now right|easy].
    - cbn in E'. now subst.
  Qed.

  Lemma combined_by_at p v : combined_by p v -> combined_at n dv a b m s p v.
  Proof.
    intros (la & lb & va & vb & H1 & H2 & H3 & H4). exists la, lb, va, vb. repeat (split; [assumption|]).
    intros i Hi. destruct (H4 i Hi) as [H|[Hs H]]; apply interpolate_bilinear in H; [easy|]. now apply bilinear_sym.
  Qed.
  Lemma combined_unique p v v' : combined_at n dv a b m s p v -> combined_by p v' -> v = v'.
  Proof.
    intros (la & lb & va & vb & H1 & H2 & H3 & H4) (la' & lb' & va' & vb' & H1' & H2' & H3' & H4').
    assert (Hsame : forall l l' x w w', In (at_place dv l x p, w) s -> In (at_place dv l' x p, w') s -> w = w').
    { intros l l' x w w' Ha Hb. pose proof (Hloss _ _ Ha Hb eq_refl) as E. cbn in E. subst l'.
      pose proof (In_aget lkey_eqb lkey_eqb_eq _ _ _ Hn Ha) as Ga. pose proof (In_aget lkey_eqb lkey_eqb_eq _ _ _ Hn Hb) as Gb. congruence. }
    rewrite (Hsame _ _ _ _ _ H1 H1') in H4. rewrite (Hsame _ _ _ _ _ H2 H2') in H4.
    apply (nth_ext _ _ 0%Qc 0%Qc); [congruence|]. intros i Hi. specialize (H4 i ltac:(lia)).
    destruct (H4' i ltac:(lia)) as [H|[Hs H]].
    - exact (@interpolate_unique _ _ _ _ _ H H4).
    - apply (@interpolate_unique _ _ _ _ _ H). now apply bilinear_sym.
  Qed.

  Theorem pair_combined s' : apply_loss_combinations order n [(dv, [([a; b], m)])] s = Ok s' ->
    forall k v, In (k, v) s' <->
      (In (k, v) s /\ ~ (k_dv k = dv /\ (k_dmg k = a \/ k_dmg k = b) /\ paired s dv a b (place_of k))) \/
      (exists p, paired s dv a b p /\ k = combination_key dv a b p /\ combined_at n dv a b m s p v).
  Proof.
    unfold apply_loss_combinations. fold cols. cbn [foldM bind fst snd]. intros H.
    unfold combine_one in H at 1. cbn [fst] in H. fold d2l in H.
    destruct (find (fun g => subset [a; b] (fst g)) (potential_groups dv cols)) as [g|] eqn:Eg; [|easy].
    destruct (group_found g Eg) as (Eg1 & Eg2 & Eg3). rewrite Eg1 in H.
    assert (Es : s = remaining []) by (unfold remaining; cbn; symmetry; apply filter_all; easy).
    destruct (foldM (combine_at order n d2l dv ([a; b], m) (frozenset [a; b])) (s, []) (snd g)) as [st3|] eqn:E2; [|easy].
    cbn [bind] in H.
    rewrite Es in E2 at 1. destruct (combine_places (snd g) [] [] st3 Eg2) as [Hf (new & Hs & Hm & Hc)]; [| |exact E2|].
    { intros p Hp. split; [now apply Eg3|easy]. }
    { easy. }
    cbn [app] in Hs. rewrite app_nil_r in Hf. injection H as <-. rewrite Hf, Hs.
    assert (Hnew : forall k w, In (k, w) new -> exists p, paired s dv a b p /\ k = combination_key dv a b p).
    { intros k w Hin. apply (in_map fst) in Hin. rewrite Hm in Hin. cbn [fst] in Hin. apply in_map_iff in Hin as (p & <- & Hp). exists p. split; [now apply Eg3|easy]. }
    assert (Hnn : NoDup (map fst new)).
    { rewrite Hm. apply FinFun.Injective_map_NoDup; [|exact Eg2]. intros [[q1 q2] q3] [[p1 p2] p3] Hq. now injection Hq as -> -> ->. }
    assert (Hdis : forall k, In k (map fst new) -> ~ In k (map fst (remaining (rev (snd g))))).
    { intros k Hk Hin. apply in_map_iff in Hk as ([k1 w1] & E & Hk). cbn in E. subst k1. destruct (Hnew _ _ Hk) as (p & _ & ->).
      apply in_map_iff in Hin as ([k2 w2] & E & Hin). cbn in E. subst k2. apply remaining_In in Hin as [Hin _]. now apply (Hfresh _ Hin). }
    assert (Hfold := fold_aset_fresh (remaining (rev (snd g))) new (NoDup_remaining _) (fun k H1 H2 => Hdis k H2 H1)). intros k v.
    transitivity (In (k, v) (remaining (rev (snd g))) \/ In (k, v) new).
    { rewrite or_comm, <- in_app_iff, <- Hfold. reflexivity. }
    split.
    - intros [Hin|Hin].
      + left. apply remaining_In in Hin as [Hin Hg]. split; [easy|]. intros (H1 & H2 & H3).
        assert (Hp : In (place_of k) (rev (snd g))) by (apply -> in_rev; now apply Eg3). specialize (Hg _ Hp).
        unfold gone in Hg. rewrite (proj2 (String.eqb_eq _ _) H1) in Hg. rewrite (proj2 (place_eqb_eq _ _) eq_refl) in Hg.
        destruct H2 as [H2|H2]; rewrite (proj2 (String.eqb_eq _ _) H2) in Hg; [|rewrite orb_true_r in Hg]; discriminate Hg.
      + right. destruct (Hnew _ _ Hin) as (p & Hp & ->). exists p. split; [easy|]. split; [easy|]. now apply combined_by_at, Hc.
    - intros [[Hin Hno]|(p & Hp & -> & Hv)].
      + left. apply remaining_In. split; [easy|]. intros p Hp. apply in_rev, Eg3 in Hp. destruct (gone p k) eqn:E; [|easy]. exfalso. apply Hno.
        unfold gone in E. apply andb_true_iff in E as [E E3]. apply andb_true_iff in E as [E1 E4].
        apply place_eqb_eq in E3. apply String.eqb_eq in E1. apply orb_true_iff in E4. rewrite !String.eqb_eq in E4. rewrite E3. auto.
      + right. assert (Hin : In (combination_key dv a b p) (map fst new)) by (rewrite Hm; apply in_map; now apply Eg3).
        apply in_map_iff in Hin as ([k w] & E & Hin). cbn in E. subst k. now rewrite (combined_unique p v w Hv (Hc _ _ Hin)).
  Qed.
End Pair.

Theorem exclusive_spec ds lf :
  let (ds', lf') := make_replacement_exclusive ds lf in
  map fst ds' = map fst ds /\
  Forall2 (fun c c' => List.length (snd c') = List.length (snd c) /\
     forall i, (i < List.length (snd c))%nat ->
       (k_loss (fst (fst c)) = "replacement" \/ ~ replaced_in ds i -> nth i (snd c') None = nth i (snd c) None) /\
       (k_loss (fst (fst c)) <> "replacement" -> replaced_in ds i -> nth i (snd c') None = Some 0%Qc)) ds ds' /\
  match lf, lf' with
  | None, None => True
  | Some t, Some t' =>
      map fst t' = map fst t /\
      Forall2 (fun c c' => List.length (snd c') = List.length (snd c) /\
        forall i, (i < List.length (snd c))%nat ->
          (~ replaced_in ds i -> nth i (snd c') None = nth i (snd c) None) /\
          (replaced_in ds i -> nth i (snd c') None = Some 0%Qc)) t t'
  | _, _ => False
  end.
Proof.
  assert (Hmap : forall {A B} (P : A -> B -> Prop) (f : A -> B) l, (forall x, In x l -> P x (f x)) -> Forall2 P l (map f l)).
  { intros A B P f l. induction l as [|x l IH]; intros H; constructor; [apply H; now left|]. apply IH. intros; apply H; now right. }
  unfold make_replacement_exclusive. split; [|split].
  - rewrite map_map. apply map_ext. intros [[k d] v]. cbn [fst snd]. now destruct (is_replacement k).
  - apply Hmap. intros c Hc. unfold is_replacement. destruct (String.eqb_spec (k_loss (fst (fst c))) "replacement") as [E|E].
    + split; [easy|]. intros i Hi. split; [easy|]. easy.
    + cbn [snd]. split; [apply zero_where_length|]. intros i Hi. rewrite zero_where_nth by easy.
      pose proof (replaced_row_spec ds i) as Hr. destruct (replaced_row ds i).
      * split; [|easy]. intros [H|H]; [easy|]. exfalso. apply H. now apply Hr.
      * split; [easy|]. intros _ H. apply Hr in H. discriminate.
  - destruct lf as [t|]; [|easy]. split; [now rewrite map_map|]. apply Hmap. intros c Hc. cbn [snd].
    split; [apply zero_where_length|]. intros i Hi. rewrite zero_where_nth by easy.
    pose proof (replaced_row_spec ds i) as Hr. destruct (replaced_row ds i).
    + split; [|easy]. intros H. exfalso. apply H. now apply Hr.
    + split; [easy|]. intros H. apply Hr in H. discriminate.
Qed.
