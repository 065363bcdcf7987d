(** Proofs about damage processes (damage_model.py:300-313, 1706-1914). *)
From Coq Require Import Sorting.Permutation Sorting.Sorted.
From Coq Require Import DecimalString.
From Verif Require Import Prelude PreludeFacts Pandas PandasFacts M_Base P_Base M_Damage S_Damage P_Eval P_Qty P_Text.
Local Open Scope string_scope.
Local Open Scope list_scope.

(** ** Cell-wise updates of a table *)

Definition upd (f : blk -> nat -> Z -> Z) (ds : ds_frame) : ds_frame :=
  map (fun c => (fst c, map2 (f (fst c)) (seq 0 (List.length (snd c))) (snd c))) ds.

Lemma map2_ext {A B C} (f g : A -> B -> C) a b :
  (forall i x y, nth_error a i = Some x -> nth_error b i = Some y -> f x y = g x y) -> map2 f a b = map2 g a b.
Proof.
  revert b. induction a as [|x a IH]; intros [|y b] H; simpl; try easy. f_equal.
  - apply (H 0%nat); easy.
  - apply IH. intros i x' y' Ha Hb. apply (H (S i)); easy.
Qed.
Lemma map2_seq_length {B C} (f : nat -> B -> C) b : List.length (map2 f (seq 0 (List.length b)) b) = List.length b.
Proof. rewrite map2_length; rewrite seq_length; easy. Qed.
Lemma nth_error_seq s n i : (i < n)%nat -> nth_error (seq s n) i = Some (s + i)%nat.
Proof.
  revert s i. induction n as [|n IH]; intros s i Hi; [lia|]. destruct i; simpl.
  - f_equal. lia.
  - rewrite IH by lia. f_equal. lia.
Qed.
Lemma nth_error_map2_seq {B C} (f : nat -> B -> C) b i :
  nth_error (map2 f (seq 0 (List.length b)) b) i = option_map (f i) (nth_error b i).
Proof.
  rewrite map2_nth_error. destruct (nth_error b i) as [y|] eqn:E.
  - rewrite nth_error_seq; [easy|]. apply nth_error_Some. congruence.
  - now destruct (nth_error (seq 0 (List.length b)) i).
Qed.
Lemma map2_id {B} (b : list B) : map2 (fun (_ : nat) x => x) (seq 0 (List.length b)) b = b.
Proof. generalize 0%nat. induction b as [|x b IH]; intros s; simpl; [easy|]. now rewrite IH. Qed.

Section Upd.
  Context (n : nat) (ds : ds_frame) (Hds : well_formed n ds).

  Lemma upd_ext f g :
    (forall b i x, In b (map fst ds) -> (i < n)%nat -> f b i x = g b i x) -> upd f ds = upd g ds.
  Proof.
    intros H. unfold upd. apply map_ext_in. intros [b col] Hin. simpl. f_equal. apply map2_ext.
    intros i x y Hx Hy. destruct Hds as [_ Hl]. rewrite Forall_forall in Hl. specialize (Hl _ Hin). simpl in Hl.
    assert (Hi : (i < List.length col)%nat) by (apply nth_error_Some; congruence).
    rewrite nth_error_seq in Hx by easy. injection Hx as <-. apply H; [|simpl; lia].
    apply in_map_iff. now exists (b, col).
  Qed.
  Lemma upd_upd f g : upd f (upd g ds) = upd (fun b i x => f b i (g b i x)) ds.
  Proof.
    unfold upd. rewrite map_map. apply map_ext. intros [b col]. simpl. f_equal.
    rewrite map2_seq_length. clear. generalize 0%nat. induction col as [|x col IH]; intros s; simpl; [easy|].
    now rewrite IH.
  Qed.
  Lemma upd_id : upd (fun _ _ x => x) ds = ds.
  Proof.
    unfold upd. clear. induction ds as [|[b col] l IH]; [easy|]. cbn [map fst snd].
    rewrite IH, map2_id. reflexivity.
  Qed.
  Lemma upd_keys f : map fst (upd f ds) = map fst ds.
  Proof. unfold upd. rewrite map_map. reflexivity. Qed.
  Lemma upd_wf f : well_formed n (upd f ds).
  Proof.
    destruct Hds as [H1 H2]. split; [now rewrite upd_keys|]. unfold upd. apply Forall_map.
    eapply Forall_impl; [|exact H2]. simpl. intros c Hc. now rewrite map2_seq_length.
  Qed.
  Lemma upd_cell f b i z : cell_at (upd f ds) b i z <-> exists x, cell_at ds b i x /\ z = f b i x.
  Proof.
    unfold cell_at, upd. split.
    - intros (col & Hin & Hn). apply in_map_iff in Hin as ([b' col'] & [= -> <-] & Hin). simpl in *.
      rewrite nth_error_map2_seq in Hn. destruct (nth_error col' i) as [x|] eqn:E; [|easy].
      injection Hn as <-. exists x. split; [|easy]. exists col'. auto.
    - intros (x & (col & Hin & Hn) & ->). exists (map2 (f b) (seq 0 (List.length col)) col). split.
      + apply in_map_iff. exists (b, col). auto.
      + rewrite nth_error_map2_seq, Hn. reflexivity.
  Qed.
  Lemma set_cells_upd rows cols v :
    set_cells rows cols v ds = upd (fun b i x => if cols b && rows i then v else x) ds.
  Proof.
    unfold set_cells, upd. apply map_ext. intros [b col]. simpl. destruct (cols b); simpl; [easy|].
    now rewrite map2_id.
  Qed.
  Lemma nth_upd f c i : In c ds -> (i < n)%nat ->
    nth i (map2 (f (fst c)) (seq 0 (List.length (snd c))) (snd c)) 0%Z = f (fst c) i (nth i (snd c) 0%Z).
  Proof.
    intros Hc Hi. destruct Hds as [_ Hl]. rewrite Forall_forall in Hl. specialize (Hl _ Hc).
    rewrite map2_nth with (da := 0%nat) (db := 0%Z); rewrite ?seq_length; try easy; [|lia].
    rewrite seq_nth by lia. reflexivity.
  Qed.
  Lemma highest_upd sel f i : (i < n)%nat ->
    highest sel (upd f ds) i =
    zmax 0 (map (fun c => f (fst c) i (nth i (snd c) 0%Z)) (filter (fun c => sel (fst c)) ds)).
  Proof.
    intros Hi. unfold highest, upd. f_equal. clear - Hds Hi.
    assert (H : forall l, (forall c, In c l -> In c ds) ->
      map (fun c : blk * list Z => nth i (snd c) 0%Z)
        (filter (fun c => sel (fst c)) (map (fun c => (fst c, map2 (f (fst c)) (seq 0 (List.length (snd c))) (snd c))) l)) =
      map (fun c => f (fst c) i (nth i (snd c) 0%Z)) (filter (fun c => sel (fst c)) l)).
    { induction l as [|c l IH]; intros Hs; simpl; [easy|]. destruct (sel (fst c)); simpl.
      - rewrite IH by (intros; apply Hs; now right). f_equal. apply nth_upd; [|easy]. apply Hs. now left.
      - apply IH. intros; apply Hs; now right. }
    apply H. easy.
  Qed.
  (** Unaffected columns leave the highest state unchanged. *)
  Lemma highest_frame sel f i : (i < n)%nat ->
    (forall b x, sel b = true -> f b i x = x) -> highest sel (upd f ds) i = highest sel ds i.
  Proof.
    intros Hi Hf. rewrite highest_upd by easy. unfold highest. f_equal. apply map_ext_in.
    intros c Hc. apply filter_In in Hc as [_ Hc]. now apply Hf.
  Qed.
  Lemma highest_const sel f i v : (i < n)%nat -> existsb (fun c => sel (fst c)) ds = true ->
    (forall b x, sel b = true -> f b i x = v) -> highest sel (upd f ds) i = v.
  Proof.
    intros Hi He Hf. rewrite highest_upd by easy. apply zmax_unique.
    - apply existsb_exists in He as (c & Hc & Hs). apply in_map_iff. exists c. split; [now apply Hf|].
      apply filter_In. auto.
    - intros y Hy. apply in_map_iff in Hy as (c & <- & Hc). apply filter_In in Hc as [_ Hc].
      rewrite Hf by easy. lia.
  Qed.

  (** ** Relation with the specification vocabulary *)
  Lemma cell_nth b i z : cell_at ds b i z -> (i < n)%nat /\ exists c, In c ds /\ fst c = b /\ nth i (snd c) 0%Z = z.
  Proof.
    intros (col & Hin & Hn). destruct Hds as [_ Hl]. rewrite Forall_forall in Hl. specialize (Hl _ Hin). simpl in Hl.
    assert (i < List.length col)%nat by (apply nth_error_Some; congruence). split; [lia|].
    exists (b, col). split; [easy|]. split; [easy|]. now apply nth_error_nth.
  Qed.
  Lemma nth_cell c i : In c ds -> (i < n)%nat -> cell_at ds (fst c) i (nth i (snd c) 0%Z).
  Proof.
    intros Hc Hi. exists (snd c). split; [now destruct c|]. apply nth_error_nth'.
    destruct Hds as [_ Hl]. rewrite Forall_forall in Hl. now rewrite (Hl _ Hc).
  Qed.
  Lemma highest_spec sel i m : (i < n)%nat -> existsb (fun c => sel (fst c)) ds = true ->
    (highest sel ds i = m <-> highest_state ds (fun b => sel b = true) i m).
  Proof.
    intros Hi He. unfold highest_state.
    assert (Hne : map (fun c : blk * list Z => nth i (snd c) 0%Z) (filter (fun c => sel (fst c)) ds) <> []).
    { apply existsb_exists in He as (c & Hc & Hs). intros E. apply map_eq_nil in E.
      assert (H : In c (filter (fun c => sel (fst c)) ds)) by now apply filter_In. now rewrite E in H. }
    split.
    - intros <-. split.
      + pose proof (zmax_in 0%Z Hne) as H. fold (highest sel ds i) in H. apply in_map_iff in H as (c & E & Hc).
        apply filter_In in Hc as [Hc Hs]. exists (fst c). split; [easy|]. rewrite <- E. now apply nth_cell.
      + intros b z Hb Hz. apply cell_nth in Hz as (_ & c & Hc & <- & <-). apply zmax_ge.
        apply (in_map (fun c : blk * list Z => nth i (snd c) 0%Z)). now apply filter_In.
    - intros [(b & Hb & Hz) Hmax]. apply cell_nth in Hz as (_ & c & Hc & <- & <-). apply zmax_unique.
      + apply (in_map (fun c : blk * list Z => nth i (snd c) 0%Z)). now apply filter_In.
      + intros y Hy. apply in_map_iff in Hy as (c' & <- & Hc'). apply filter_In in Hc' as [Hc' Hs'].
        apply (Hmax (fst c')); [easy|]. now apply nth_cell.
  Qed.
End Upd.

(** ** Events *)

Definition at_loc (source l : string) (b : blk) : bool := is_source source b && String.eqb (loc (b_of b)) l.

(** The effect of one target entry as a cell-wise update. *)
Definition event_upd (ml : bool) (source : string) (k : Z) (target : string) (v : Z) (ds : ds_frame)
  : blk -> nat -> Z -> Z :=
  fun b i x =>
    if is_target source target b &&
       (if ml then existsb (fun c => at_loc source (loc (b_of b)) (fst c)) ds &&
                   (highest (at_loc source (loc (b_of b))) ds i =? k)%Z
        else (highest (is_source source) ds i =? k)%Z)
    then v else x.

Lemma event_at_upd source k target v ds l :
  perform_dmg_event_at source k target v ds l =
  upd (fun b i x => if (is_target source target b && String.eqb (loc (b_of b)) l) &&
                       (highest (at_loc source l) ds i =? k)%Z then v else x) ds.
Proof. unfold perform_dmg_event_at. apply set_cells_upd. Qed.

Lemma loc_fold n source k target v ls : forall ds, well_formed n ds -> NoDup ls ->
  fold_left (perform_dmg_event_at source k target v) ls ds =
  upd (fun b i x => if is_target source target b &&
                       (mem (loc (b_of b)) ls &&
                        (highest (at_loc source (loc (b_of b))) ds i =? k)%Z) then v else x) ds.
Proof.
  induction ls as [|l ls IH]; intros ds Hds Hnd; cbn [fold_left].
  - rewrite <- (upd_id ds) at 1. apply (upd_ext n ds Hds). intros b i x _ _. simpl. now rewrite andb_false_r.
  - inversion Hnd as [|? ? Hl Hnd']; subst. rewrite event_at_upd.
    set (g := fun (b : blk) (i : nat) (x : Z) => _).
    rewrite IH; [|now apply upd_wf|easy]. rewrite upd_upd.
    apply (upd_ext n ds Hds). intros b i x Hb Hi.
    assert (Hfr : loc (b_of b) <> l -> highest (at_loc source (loc (b_of b))) (upd g ds) i =
                                     highest (at_loc source (loc (b_of b))) ds i).
    { intros Hne. apply (highest_frame n); [easy|easy|]. intros b' x' Hb'. unfold g.
      unfold at_loc in Hb'. apply andb_true_iff in Hb' as [_ Hb']. apply String.eqb_eq in Hb'. rewrite Hb'.
      destruct (String.eqb_spec (loc (b_of b)) l); [easy|]. now rewrite andb_false_r. }
    unfold g at 2. cbn [mem existsb]. unfold mem.
    destruct (String.eqb_spec (loc (b_of b)) l) as [E|E].
    + assert (existsb (String.eqb (loc (b_of b))) ls = false) as ->.
      { destruct (existsb (String.eqb (loc (b_of b))) ls) eqn:Ee; [|easy].
        apply (existsb_eqb_In _ String.eqb_eq) in Ee. rewrite E in Ee. easy. }
      rewrite andb_false_r, <- E, andb_true_r. cbn [andb orb]. easy.
    + rewrite (Hfr E). cbn [orb]. rewrite andb_false_r. cbn [andb]. easy.
Qed.

Lemma event_loc_upd n order source k target v ds :
  (forall l, Permutation (order l) l) -> well_formed n ds ->
  perform_dmg_event_loc order source k target v ds = upd (event_upd true source k target v ds) ds.
Proof.
  intros Ho Hds. unfold perform_dmg_event_loc. rewrite (loc_fold n); [|easy|].
  - apply (upd_ext n ds Hds). intros b i x Hb Hi. unfold event_upd.
    assert (E : mem (loc (b_of b)) (order (source_locs source ds)) =
                existsb (fun c => at_loc source (loc (b_of b)) (fst c)) ds).
    { apply eq_iff_eq_true. rewrite mem_true. unfold source_locs.
      split.
      - intros H. apply (Permutation_in _ (Ho _)) in H. rewrite (unique_In _ String.eqb_eq) in H.
        apply in_map_iff in H as (c & E & H). apply filter_In in H as [H Hs]. apply existsb_exists.
        exists c. split; [easy|]. unfold at_loc. rewrite Hs, E, String.eqb_refl. easy.
      - intros H. apply existsb_exists in H as (c & Hc & H). unfold at_loc in H.
        apply andb_true_iff in H as [H1 H2]. apply String.eqb_eq in H2.
        apply (Permutation_in _ (Permutation_sym (Ho _))). apply (unique_In _ String.eqb_eq). apply in_map_iff.
        exists c. split; [easy|]. now apply filter_In. }
    now rewrite E.
  - eapply Permutation_NoDup; [symmetry; apply Ho|]. unfold source_locs. apply unique_NoDup, String.eqb_eq.
Qed.

Lemma event_plain_upd source k target v ds :
  perform_dmg_event source k target v ds = upd (event_upd false source k target v ds) ds.
Proof. unfold perform_dmg_event. apply set_cells_upd. Qed.

Lemma perform_target_spec n order source ml k (st : proc_state) info st' :
  (forall l, Permutation (order l) l) -> well_formed n (fst st) ->
  perform_target order source ml k st info = Ok st' ->
  exists target event, split_on "_" info = [target; event] /\
    ((target <> "ALL" /\ cmp_in target (fst st) = false /\ st' = (fst st, snd st ++ [target])) \/
     ((target = "ALL" \/ cmp_in target (fst st) = true) /\
      exists v, parse_target_event event = Ok v /\
                st' = (upd (event_upd ml source k target v (fst st)) (fst st), snd st))).
Proof.
  intros Ho Hds. unfold perform_target.
  destruct (split_on "_" info) as [|target [|event [|? ?]]]; try easy. intros H. exists target, event. split; [easy|].
  destruct (String.eqb_spec target "ALL") as [->|Hne]; cbn [negb andb] in H.
  - right. split; [auto|]. destruct (parse_target_event event) as [v|]; [|easy]. cbn in H. injection H as <-.
    exists v. split; [easy|]. destruct ml; [now rewrite (event_loc_upd n)|now rewrite event_plain_upd].
  - destruct (cmp_in target (fst st)) eqn:Ec; cbn [negb] in H.
    + right. split; [auto|]. destruct (parse_target_event event) as [v|]; [|easy]. cbn in H. injection H as <-.
      exists v. split; [easy|]. destruct ml; [now rewrite (event_loc_upd n)|now rewrite event_plain_upd].
    + left. injection H as <-. auto.
Qed.

Lemma cmp_in_keys c ds ds' : map fst ds = map fst ds' -> cmp_in c ds = cmp_in c ds'.
Proof.
  intros E. unfold cmp_in.
  assert (H : forall l : ds_frame, existsb (fun col => String.eqb (cmp (b_of (fst col))) c) l =
                      existsb (fun b => String.eqb (cmp (b_of b)) c) (map fst l)).
  { induction l as [|x l IH]; simpl; [easy|]. now rewrite IH. }
  now rewrite !H, E.
Qed.

(** ** Specification of one entry *)


Lemma highest_state_ext ds (s1 s2 : blk -> Prop) i m : (forall b, s1 b <-> s2 b) ->
  (highest_state ds s1 i m <-> highest_state ds s2 i m).
Proof.
  intros H. unfold highest_state. split; intros [(b & Hb & Hz) Hm]; split.
  - exists b. now rewrite <- H.
  - intros b' z Hb'. apply Hm. now apply H.
  - exists b. now rewrite H.
  - intros b' z Hb'. apply Hm. now apply H.
Qed.

Lemma is_source_true c b : is_source c b = true <-> cmp (b_of b) = c.
Proof. unfold is_source. apply String.eqb_eq. Qed.
Lemma is_target_true s t b : is_target s t b = true <-> targeted s t b.
Proof.
  unfold is_target, targeted. destruct (String.eqb_spec t "ALL") as [->|Hne].
  - rewrite negb_true_iff, String.eqb_neq. tauto.
  - rewrite String.eqb_eq. tauto.
Qed.
Lemma cmp_in_true c ds : cmp_in c ds = true <-> present ds c.
Proof.
  unfold cmp_in, present. rewrite existsb_exists. split.
  - intros (x & Hx & E). apply String.eqb_eq in E. exists (fst x). split; [now apply in_map|easy].
  - intros (b & Hb & E). apply in_map_iff in Hb as (x & <- & Hx). exists x. split; [easy|].
    now apply String.eqb_eq.
Qed.

Lemma event_upd_spec n ds ml source k target v b i x :
  well_formed n ds -> (i < n)%nat -> (ml = false -> cmp_in source ds = true) ->
  (triggered ml ds source target k b i -> event_upd ml source k target v ds b i x = v) /\
  (~ triggered ml ds source target k b i -> event_upd ml source k target v ds b i x = x).
Proof.
  intros Hds Hi Hp.
  assert (H : (is_target source target b &&
       (if ml then existsb (fun c => at_loc source (loc (b_of b)) (fst c)) ds &&
                   (highest (at_loc source (loc (b_of b))) ds i =? k)%Z
        else (highest (is_source source) ds i =? k)%Z)) = true <-> triggered ml ds source target k b i).
  { rewrite andb_true_iff, is_target_true. unfold triggered. destruct ml.
    - unfold in_state_at.
      rewrite (highest_state_ext _ _ (fun b0 => at_loc source (loc (b_of b)) b0 = true)).
      2:{ intros b0. unfold at_loc. rewrite andb_true_iff, is_source_true, String.eqb_eq. easy. }
      rewrite andb_true_iff, Z.eqb_eq. split.
      + intros (H1 & H2 & H3). split; [easy|]. now apply (highest_spec n).
      + intros (H1 & H2). split; [easy|].
        assert (H3 : existsb (fun c => at_loc source (loc (b_of b)) (fst c)) ds = true).
        { destruct H2 as [(b' & Hb' & Hz) _]. apply (cell_nth n) in Hz as (_ & c & Hc & <- & _); [|easy].
          apply existsb_exists. exists c. auto. }
        split; [easy|]. now apply (highest_spec n).
    - unfold in_state. rewrite (highest_state_ext _ _ (fun b0 => is_source source b0 = true)).
      2:{ intros b0. now rewrite is_source_true. }
      rewrite Z.eqb_eq. rewrite (highest_spec n); [easy|easy|easy|]. now apply Hp. }
  unfold event_upd. destruct (is_target source target b && _).
  - split; [easy|]. intros Hn. exfalso. apply Hn. now apply H.
  - split; [|easy]. intros Ht. apply H in Ht. discriminate.
Qed.

Lemma event_upd_cell n ds ml source k target v b i :
  well_formed n ds -> (i < n)%nat -> (ml = false -> cmp_in source ds = true) ->
  (triggered ml ds source target k b i -> In b (map fst ds) ->
     cell_at (upd (event_upd ml source k target v ds) ds) b i v) /\
  (~ triggered ml ds source target k b i ->
     forall z, cell_at (upd (event_upd ml source k target v ds) ds) b i z <-> cell_at ds b i z).
Proof.
  intros Hds Hi Hp. split.
  - intros Ht Hb. apply in_map_iff in Hb as (c & <- & Hc). apply upd_cell.
    exists (nth i (snd c) 0%Z). split; [now apply (nth_cell n)|]. symmetry.
    now apply (event_upd_spec n ds ml source k target v (fst c) i _ Hds Hi Hp).
  - intros Ht z. rewrite upd_cell. split.
    + intros (x & Hx & ->). rewrite (proj2 (event_upd_spec n ds ml source k target v b i x Hds Hi Hp) Ht). easy.
    + intros Hz. exists z. split; [easy|]. symmetry.
      apply (proj2 (event_upd_spec n ds ml source k target v b i z Hds Hi Hp) Ht).
Qed.

(** A whole task with one entry. *)
Lemma single_task n order ds w (num source : string) (ml : bool) (k : nat) (target ev : string) v :
  (forall l, Permutation (order l) l) -> well_formed n ds ->
  has_char "_" num = false -> has_char "_" source = false -> has_char "-" source = false ->
  has_char "_" target = false -> has_char "_" ev = false ->
  parse_target_event ev = Ok v ->
  present ds source -> target = "ALL" \/ present ds target ->
  perform_dmg_task order (ds, w)
    ((num ++ "_" ++ source ++ (if ml then "-LOC" else ""))%string,
     [(("DS" ++ str_of_nat k)%string, One (target ++ "_" ++ ev)%string)]) =
  Ok (upd (event_upd ml source (Z.of_nat k) target v ds) ds, w).
Proof.
  intros Ho Hds Hn Hs1 Hs2 Ht Hev Hv Hp Htp. unfold perform_dmg_task. cbn [fst].
  assert (Hps : parse_source (num ++ "_" ++ source ++ (if ml then "-LOC" else ""))%string = Ok (source, ml)).
  { destruct ml; [now apply parse_source_loc|]. rewrite string_app_nil. now apply parse_source_plain. }
  rewrite Hps. cbn [snd bind]. rewrite (proj2 (cmp_in_true _ _) Hp). cbn [foldM].
  unfold perform_event. cbn [fst snd]. unfold starts_with. rewrite prefix_app. cbn [append str_drop].
  rewrite pyint_str_of_nat. cbn [target_list foldM]. unfold perform_target.
  change ("_" ++ ev)%string with (String "_" ev). rewrite split_two by easy. cbn [fst snd].
  assert (E : negb (String.eqb target "ALL") && negb (cmp_in target ds) = false).
  { destruct Htp as [->|Htp]; [easy|]. apply cmp_in_true in Htp. rewrite Htp. apply andb_false_r. }
  rewrite E, Hv. cbn. destruct ml.
  - now rewrite (event_loc_upd n).
  - now rewrite event_plain_upd.
Qed.

(** ** Tasks preserve the table's shape and touch only their targets *)


Definition frame_ok (n : nat) (b : blk) (a c : ds_frame) : Prop :=
  well_formed n c /\ map fst c = map fst a /\ (forall i z, cell_at c b i z <-> cell_at a b i z).
Lemma frame_ok_trans n b a c d : frame_ok n b a c -> frame_ok n b c d -> frame_ok n b a d.
Proof.
  intros (H1 & H2 & H3) (H4 & H5 & H6). split; [easy|]. split; [congruence|]. intros. now rewrite H6.
Qed.

Lemma event_upd_untargeted ml source k target v ds b i x :
  ~ targeted source target b -> event_upd ml source k target v ds b i x = x.
Proof.
  intros H. unfold event_upd. destruct (is_target source target b) eqn:E; [|easy].
  apply is_target_true in E. easy.
Qed.

Lemma perform_target_frame n order source ml k (st : proc_state) info st' b :
  (forall l, Permutation (order l) l) -> well_formed n (fst st) ->
  perform_target order source ml k st info = Ok st' ->
  (forall target event, split_on "_" info = [target; event] -> ~ targeted source target b) ->
  frame_ok n b (fst st) (fst st').
Proof.
  intros Ho Hds H Hb. destruct (perform_target_spec n _ _ _ _ _ _ _ Ho Hds H) as (t & e & Es & [(_ & _ & ->)|(_ & v & _ & ->)]).
  - simpl. repeat split; try easy; apply Hds.
  - simpl. split; [now apply upd_wf|]. split; [apply upd_keys|]. intros i z. rewrite upd_cell. split.
    + intros (x & Hx & ->). rewrite event_upd_untargeted by eauto. easy.
    + intros Hz. exists z. split; [easy|]. rewrite event_upd_untargeted by eauto. easy.
Qed.

Lemma foldM_frame {A} n b (f : proc_state -> A -> result proc_state) l : forall st st',
  (forall x, In x l -> forall s s', well_formed n (fst s) -> f s x = Ok s' -> frame_ok n b (fst s) (fst s')) ->
  well_formed n (fst st) -> foldM f st l = Ok st' -> frame_ok n b (fst st) (fst st').
Proof.
  induction l as [|x l IH]; intros st st' Hf Hw H; cbn [foldM] in H.
  - injection H as <-. split; [exact Hw|]. easy.
  - destruct (f st x) as [s|] eqn:E; [|easy]. cbn in H.
    pose proof (Hf x (or_introl eq_refl) _ _ Hw E) as H1. eapply frame_ok_trans; [exact H1|].
    apply IH; [intros; apply (Hf x0); auto; now right|apply H1|exact H].
Qed.

Lemma task_frame n order (st : proc_state) t st' b :
  (forall l, Permutation (order l) l) -> well_formed n (fst st) ->
  perform_dmg_task order st t = Ok st' -> untargeted t b -> frame_ok n b (fst st) (fst st').
Proof.
  intros Ho Hds H Hb. unfold perform_dmg_task in H.
  destruct (parse_source (fst t)) as [[source ml]|] eqn:Es; [|easy]. cbn in H.
  destruct (cmp_in source (fst st)).
  - eapply foldM_frame; [|exact Hds|exact H]. intros [ev tg] Hin s s' Hw He. unfold perform_event in He.
    cbn [fst snd] in He. destruct (starts_with "DS" ev); [|easy].
    destruct (pyint (str_drop 2 ev)) as [k|]; [|easy].
    eapply foldM_frame; [|exact Hw|exact He]. intros info Hi s1 s2 Hw1 He1.
    apply parse_source_names in Es. eapply perform_target_frame; eauto.
  - injection H as <-. simpl. repeat split; try easy; apply Hds.
Qed.

Lemma process_frame n order tasks ds ds' w b :
  (forall l, Permutation (order l) l) -> well_formed n ds ->
  perform_dmg_process order tasks ds = Ok (ds', w) ->
  (forall t, In t tasks -> untargeted t b) -> frame_ok n b ds ds'.
Proof.
  intros Ho Hds H Hb. unfold perform_dmg_process in H.
  apply (foldM_frame n b (perform_dmg_task order) (sort_tasks tasks) (ds, []) (ds', w)); [|easy|exact H].
  intros t Ht s s' Hw Hs. eapply task_frame; eauto. apply Hb.
  eapply Permutation_in; [symmetry; apply isort_perm|exact Ht].
Qed.

(** Every step keeps the columns and the sample size. *)
Lemma perform_target_shape n order source ml k (st : proc_state) info st' :
  (forall l, Permutation (order l) l) -> well_formed n (fst st) ->
  perform_target order source ml k st info = Ok st' ->
  well_formed n (fst st') /\ map fst (fst st') = map fst (fst st).
Proof.
  intros Ho Hds H. destruct (perform_target_spec n _ _ _ _ _ _ _ Ho Hds H) as (t & e & Es & [(_ & _ & ->)|(_ & v & _ & ->)]).
  - easy.
  - simpl. split; [now apply upd_wf|]. apply upd_keys.
Qed.

(** ** Acceptance *)

Lemma is_ok_foldM {A} (Q : proc_state -> Prop) (f : proc_state -> A -> result proc_state) (ok : A -> Prop) l : forall st,
  Q st ->
  (forall x s, In x l -> Q s -> (is_ok (f s x) = true <-> ok x) /\ (forall s', f s x = Ok s' -> Q s')) ->
  (is_ok (foldM f st l) = true <-> forall x, In x l -> ok x) /\ (forall s', foldM f st l = Ok s' -> Q s').
Proof.
  induction l as [|x l IH]; intros st HQ H; cbn [foldM].
  - split; [easy|]. now intros s' [= <-].
  - destruct (H x st (or_introl eq_refl) HQ) as [H1 H2].
    destruct (f st x) as [s|e] eqn:E; cbn.
    + destruct (IH s (H2 s eq_refl)) as [H3 H4]; [intros; apply H; auto; now right|].
      split; [|exact H4]. rewrite H3. split.
      * intros Hl y [<-|Hy]; [now apply H1|now apply Hl].
      * intros Hl y Hy. apply Hl. now right.
    + split; [|easy]. split; [easy|]. intros Hl. apply H1. apply Hl. now left.
Qed.

Lemma task_accept n order (st : proc_state) t :
  (forall l, Permutation (order l) l) -> well_formed n (fst st) ->
  (is_ok (perform_dmg_task order st t) = true <-> task_accepted (map fst (fst st)) t).
Proof.
  intros Ho Hds. unfold perform_dmg_task, task_accepted.
  destruct (parse_source (fst t)) as [[source ml]|] eqn:Es; cbn.
  2:{ split; [easy|]. intros (? & ? & H & ?). apply parse_source_names in H. congruence. }
  assert (En : names_source (fst t) source ml) by now apply parse_source_names.
  set (cols := map fst (fst st)).
  set (Q := fun s : proc_state => well_formed n (fst s) /\ map fst (fst s) = cols).
  assert (Hpc : forall c s, Q s -> cmp_in c (fst s) = true <-> exists b, In b cols /\ cmp (b_of b) = c).
  { intros c s [_ E]. rewrite cmp_in_true. unfold present. now rewrite E. }
  assert (Hpc' : forall c s, Q s -> cmp_in c (fst s) = false <-> ~ exists b, In b cols /\ cmp (b_of b) = c).
  { intros c s HQ. rewrite <- (Hpc c s HQ). destruct (cmp_in c (fst s)); split; try easy; congruence. }
  destruct (cmp_in source (fst st)) eqn:Ec.
  - apply (Hpc source st (conj Hds eq_refl)) in Ec.
    pose proof (is_ok_foldM Q (perform_event order source ml)
      (fun e => entry_accepted cols e) (snd t) st (conj Hds eq_refl)) as H.
    destruct H as [H _].
    { intros [ev tg] s _ HQ. unfold perform_event, entry_accepted. cbn [fst snd].
      destruct (starts_with "DS" ev) eqn:Eds.
      2:{ split; [|easy]. split; [easy|]. intros [(r & -> & _) _]. unfold starts_with in Eds. now rewrite prefix_app in Eds. }
      apply prefix_true in Eds as (r & ->). cbn [append str_drop].
      destruct (pyint r) as [k|] eqn:Ek.
      2:{ split; [|easy]. split; [easy|]. intros [(r' & [= ->] & Hr) _]. congruence. }
      destruct (is_ok_foldM Q (perform_target order source ml k)
                  (fun info => target_accepted cols info) (target_list tg) s HQ) as [H1 H2].
      { intros info s1 _ HQ1. split.
        - unfold perform_target, target_accepted.
          destruct (split_on "_" info) as [|a [|e [|? ?]]] eqn:Esp;
            try (split; [easy|]; intros (? & ? & ? & _); discriminate).
          destruct (String.eqb_spec a "ALL") as [->|Hne]; cbn [negb andb].
          + destruct (parse_target_event e) as [v|] eqn:Ev; cbn.
            * split; [|easy]. intros _. exists "ALL", e. split; [easy|]. right. apply parse_target_ok. eauto.
            * split; [easy|]. intros (a' & e' & [= <- <-] & [[Hx _]|Hv]); [congruence|].
              apply parse_target_ok in Hv as (v & Hv). congruence.
          + destruct (cmp_in a (fst s1)) eqn:Ea; cbn [negb].
            * destruct (parse_target_event e) as [v|] eqn:Ev; cbn.
              -- split; [|easy]. intros _. exists a, e. split; [easy|]. right. apply parse_target_ok. eauto.
              -- split; [easy|]. intros (a' & e' & [= <- <-] & [[_ Hx]|Hv]);
                   [|apply parse_target_ok in Hv as (v & Hv); congruence].
                 apply (Hpc a s1 HQ1) in Ea. easy.
            * split; [|easy]. intros _. exists a, e. split; [easy|]. left. split; [easy|]. now apply (Hpc' a s1 HQ1).
        - intros s' Hs'. destruct HQ1 as [Hw1 Hk1]. apply (perform_target_shape n) in Hs' as [H3 H4]; auto.
          split; [easy|]. congruence. }
      split; [|exact H2]. rewrite H1. split.
      - intros Hall. split; [|easy]. exists r. split; [easy|]. congruence.
      - intros [_ Hall]. exact Hall. }
    etransitivity; [exact H|]. split.
    + intros Hall. exists source, ml. split; [easy|]. intros _. apply Hall.
    + intros (s' & ml' & Hn & Hall). apply parse_source_names in Hn.
      assert (s' = source) as -> by congruence. now apply Hall.
  - apply (Hpc' source st (conj Hds eq_refl)) in Ec. split; [|easy]. intros _. exists source, ml. split; [easy|].
    intros Hp. easy.
Qed.

(** ** A task is the sequence of its single entries *)
Lemma foldM_keeps {A S} (P : S -> Prop) (f : S -> A -> result S) l : forall s s',
  (forall x s s', In x l -> P s -> f s x = Ok s' -> P s') -> P s -> foldM f s l = Ok s' -> P s'.
Proof.
  induction l as [|x l IH]; intros s s' Hf Hs H; cbn in H.
  - now injection H as <-.
  - destruct (f s x) as [s1|] eqn:E; cbn in H; [|easy].
    eapply IH; [|eapply Hf; [now left|exact Hs|exact E]|exact H]. intros. eapply Hf; eauto. now right.
Qed.

Lemma perform_event_shape n order source ml (st : proc_state) e st' :
  (forall l, Permutation (order l) l) -> well_formed n (fst st) ->
  perform_event order source ml st e = Ok st' ->
  well_formed n (fst st') /\ map fst (fst st') = map fst (fst st).
Proof.
  intros Ho Hds H. unfold perform_event in H. destruct (starts_with "DS" (fst e)); [|easy].
  destruct (pyint (str_drop 2 (fst e))) as [k|]; [|easy].
  eapply (foldM_keeps (fun s : proc_state => well_formed n (fst s) /\ map fst (fst s) = map fst (fst st))
            _ (target_list (snd e)) st st'); [|easy|exact H].
  intros x s s' _ [Hw Hk] Hs. apply (perform_target_shape n) in Hs as [H1 H2]; auto. split; [easy|congruence].
Qed.

Lemma bind_Ok_r {A} (r : result A) : bind r Ok = r.
Proof. now destruct r. Qed.

Lemma task_entries n order (st : proc_state) name source ml e es :
  (forall l, Permutation (order l) l) -> well_formed n (fst st) ->
  parse_source name = Ok (source, ml) -> present (fst st) source ->
  perform_dmg_task order st (name, e :: es) =
  bind (perform_dmg_task order st (name, [e])) (fun st' => perform_dmg_task order st' (name, es)).
Proof.
  intros Ho Hds Hn Hp. unfold perform_dmg_task. cbn [fst snd]. rewrite Hn. cbn [bind].
  apply cmp_in_true in Hp. rewrite Hp. cbn [foldM].
  destruct (perform_event order source ml st e) as [st1|] eqn:E; cbn [bind]; [|easy].
  apply (perform_event_shape n) in E as [_ E]; auto. now rewrite (cmp_in_keys _ _ _ E), Hp.
Qed.

Lemma task_targets n order (st : proc_state) name source ml ev t ts :
  (forall l, Permutation (order l) l) -> well_formed n (fst st) ->
  parse_source name = Ok (source, ml) -> present (fst st) source ->
  perform_dmg_task order st (name, [(ev, Many (t :: ts))]) =
  bind (perform_dmg_task order st (name, [(ev, One t)]))
       (fun st' => perform_dmg_task order st' (name, [(ev, Many ts)])).
Proof.
  intros Ho Hds Hn Hp. unfold perform_dmg_task. cbn [fst snd]. rewrite Hn. cbn [bind].
  apply cmp_in_true in Hp. rewrite Hp. cbn [foldM]. unfold perform_event at 1 2. cbn [fst snd target_list foldM].
  destruct (starts_with "DS" ev) eqn:Ed; [|easy]. destruct (pyint (str_drop 2 ev)) as [k|] eqn:Ek; [|easy].
  destruct (perform_target order source ml k st t) as [st1|] eqn:E; cbn [bind]; [|easy].
  apply (perform_target_shape n) in E as [_ E]; auto. rewrite (cmp_in_keys _ _ _ E), Hp.
  unfold perform_event. cbn [fst snd target_list]. rewrite Ed, Ek. easy.
Qed.
