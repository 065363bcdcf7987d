(** Proofs about the evaluation of damage states (damage_model.py:1040-1161). *)
From Coq Require Import Sorting.Permutation Sorting.Sorted.
From Verif Require Import Prelude PreludeFacts Pandas PandasFacts M_Base P_Base M_Damage S_Damage.
Set Implicit Arguments.
Local Open Scope string_scope.
Local Open Scope list_scope.

Lemma blk_eqb_eq a b : blk_eqb a b = true <-> a = b.
Proof.
  unfold blk_eqb. rewrite andb_true_iff, pg_eqb_eq, String.eqb_eq. destruct a, b; simpl. split.
  - intros [-> ->]; easy.
  - now intros [= -> ->].
Qed.
Lemma lsc_eqb_eq a b : lsc_eqb a b = true <-> a = b.
Proof.
  unfold lsc_eqb. rewrite andb_true_iff, blk_eqb_eq, String.eqb_eq. destruct a, b; simpl. split.
  - intros [-> ->]; easy.
  - now intros [= -> ->].
Qed.
Lemma lsc_le_trans a b c : lsc_le a b = true -> lsc_le b c = true -> lsc_le a c = true.
Proof. apply label_le_trans. Qed.
Lemma lsc_le_total a b : lsc_le a b = true \/ lsc_le b a = true.
Proof. apply label_le_total. Qed.
Lemma lsc_le_antisym a b : lsc_le a b = true -> lsc_le b a = true -> a = b.
Proof.
  intros H1 H2. pose proof (label_le_antisym _ _ H1 H2) as E.
  destruct a as [[[? ? ? ?] ?] ?], b as [[[? ? ? ?] ?] ?]. cbv in E. congruence.
Qed.

Lemma label_le_app l a b : label_le (l ++ [a]) (l ++ [b]) = str_le a b.
Proof.
  induction l as [|x l IH]; simpl.
  - unfold str_le, String.leb. destruct (String.compare a b); easy.
  - rewrite string_compare_refl. exact IH.
Qed.

(** ** Sorted frames *)

Section Columns.
  Context {V : Type} (n : nat) (cap : list (lsc * list V)).
  Definition sorted_cols : list (lsc * list V) := isort (fun a b => lsc_le (fst a) (fst b)) cap.
  Lemma sorted_cols_perm : Permutation cap sorted_cols.
  Proof. apply isort_perm. Qed.
  Lemma sorted_cols_sorted : sorted_by lsc_le (map fst sorted_cols).
  Proof.
    assert (H : sorted_by (fun a b : lsc * list V => lsc_le (fst a) (fst b)) sorted_cols).
    { apply isort_sorted; intros. eapply lsc_le_trans; eauto. apply lsc_le_total. }
    induction H; simpl; [constructor|]. constructor; [easy|]. now apply Forall_map.
  Qed.
  Lemma sorted_cols_In k : In k (map fst sorted_cols) <-> In k (map fst cap).
  Proof.
    split; intros H; (eapply Permutation_in; [|exact H]); apply Permutation_map;
      [symmetry|]; apply sorted_cols_perm.
  Qed.
End Columns.

Lemma sorted_before {A} (le : A -> A -> bool) l1 b l2 a :
  (forall x y, le x y = true -> le y x = true -> x = y) ->
  sorted_by le (l1 ++ b :: l2) -> le a b = true -> a <> b -> In a (l1 ++ b :: l2) -> In a l1.
Proof.
  intros Hanti Hs Hle Hne Hin. apply in_app_iff in Hin as [|[->|Hin]]; [easy|easy|]. exfalso.
  induction l1 as [|x l1 IH]; simpl in Hs; inversion Hs; subst; [|now apply IH].
  rewrite Forall_forall in H2. apply Hne, Hanti; [easy|]. now apply H2.
Qed.

Lemma unique_acc_sorted {A} (eqb : A -> A -> bool) (eqb_eq : forall a b, eqb a b = true <-> a = b)
      (lt : A -> A -> Prop) l : forall seen,
  (forall l1 m l2, l = l1 ++ m :: l2 -> forall j, In j l -> lt j m -> In j l1 \/ In j seen) ->
  (forall x y, In x l -> In y l -> x = y \/ lt x y \/ lt y x) ->
  StronglySorted lt (unique_acc eqb seen l).
Proof.
  induction l as [|x l IH]; intros seen Hpre Htot; simpl; [constructor|].
  assert (Hrec : forall seen', (forall z, In z seen -> In z seen') -> In x seen' ->
                 StronglySorted lt (unique_acc eqb seen' l)).
  { intros seen' Hsub Hx. apply IH.
    - intros l1 m l2 -> j Hj Hlt. destruct (Hpre (x :: l1) m l2 eq_refl j (or_intror Hj) Hlt) as [[->|H]|H]; auto.
    - intros; apply Htot; now right. }
  destruct (existsb (eqb x) seen) eqn:E.
  - apply (existsb_eqb_In eqb eqb_eq) in E. apply Hrec; auto.
  - constructor; [apply Hrec; simpl; auto|]. apply Forall_forall. intros y Hy.
    apply (unique_acc_In eqb eqb_eq) in Hy as [Hy Hns]. simpl in Hns.
    destruct (Htot x y (or_introl eq_refl) (or_intror Hy)) as [->|[H|H]]; [tauto|easy|].
    exfalso. destruct (Hpre [] x l eq_refl y (or_intror Hy) H) as [[]|H']. tauto.
Qed.

(** ** One block, one realization *)

(** The state after the passes [ls], starting from [d]: the last exceeded one. *)
Fixpoint last_exceeded (exc : string -> option bool) (st : string -> option Z) (ls : list string) (d : Z) : Z :=
  match ls with
  | [] => d
  | l :: tl => last_exceeded exc st tl
                 (match exc l, st l with Some true, Some s => s | _, _ => d end)
  end.

Definition cellf {K V} (eqb : K -> K -> bool) (f : list (K * list V)) (k : K) (i : nat) : option V :=
  match aget eqb k f with Some col => nth_error col i | None => None end.

Lemma map3_nth_error {A B C D} (f : A -> B -> C -> D) a b c i :
  nth_error (map3 f a b c) i =
  match nth_error a i, nth_error b i, nth_error c i with
  | Some x, Some y, Some z => Some (f x y z)
  | _, _, _ => None
  end.
Proof.
  revert b c i. induction a as [|x a IH]; intros b c i; simpl.
  - now destruct i.
  - destruct b as [|y b]; simpl.
    + destruct i; simpl; [easy|]. now destruct (nth_error a i).
    + destruct c as [|z c]; simpl.
      * destruct i; simpl; [easy|]. destruct (nth_error a i); [|easy]. now destruct (nth_error b i).
      * destruct i; simpl; [easy|]. apply IH.
Qed.
Lemma map2_nth_error {A B C} (f : A -> B -> C) a b i :
  nth_error (map2 f a b) i =
  match nth_error a i, nth_error b i with
  | Some x, Some y => Some (f x y)
  | _, _ => None
  end.
Proof.
  revert b i. induction a as [|x a IH]; intros b i; simpl.
  - now destruct i.
  - destruct b as [|y b]; simpl.
    + destruct i; simpl; [easy|]. now destruct (nth_error a i).
    + destruct i; simpl; [easy|]. apply IH.
Qed.

Section Passes.
  Context (n : nat) (exc : list (lsc * list bool)) (lsds : lsds_frame)
          (Hexc : Forall (fun c => List.length (snd c) = n) exc)
          (Hlsds : Forall (fun c => List.length (snd c) = n) lsds).

  Definition excf (b : blk) (i : nat) (ls : string) : option bool := cellf lsc_eqb exc (b, ls) i.
  Definition stf (b : blk) (i : nat) (ls : string) : option Z := cellf lsc_eqb lsds (b, ls) i.

  Lemma cellf_in_range {V} (f : list (lsc * list V)) k i :
    Forall (fun c => List.length (snd c) = n) f -> (i < n)%nat ->
    (exists v, cellf lsc_eqb f k i = Some v) <-> aget lsc_eqb k f <> None.
  Proof.
    intros Hf Hi. unfold cellf. destruct (aget lsc_eqb k f) as [col|] eqn:E.
    - split; [easy|]. intros _. apply (aget_In lsc_eqb lsc_eqb_eq) in E. rewrite Forall_forall in Hf.
      specialize (Hf _ E). simpl in Hf. destruct (nth_error col i) eqn:En; [eauto|].
      apply nth_error_None in En. lia.
    - split; [now intros (v & H)|easy].
  Qed.

  Lemma apply_ls_cell ds ls b i :
    Forall (fun c => List.length (snd c) = n) ds -> (i < n)%nat ->
    cellf blk_eqb (apply_ls exc lsds ds ls) b i =
    match cellf blk_eqb ds b i with
    | None => None
    | Some d => Some (match excf b i ls, stf b i ls with Some true, Some s => s | _, _ => d end)
    end.
  Proof.
    intros Hds Hi. unfold apply_ls, cellf at 1.
    rewrite (aget_map blk_eqb blk_eqb_eq (fun b0 vs =>
         match aget lsc_eqb (b0, ls) exc, aget lsc_eqb (b0, ls) lsds with
         | Some e, Some s => map3 (fun d (e : bool) s => if e then s else d) vs e s
         | _, _ => vs end)). unfold cellf at 1.
    destruct (aget blk_eqb b ds) as [vs|] eqn:Eb; [|easy].
    unfold excf, stf.
    destruct (aget lsc_eqb (b, ls) exc) as [e|] eqn:Ee.
    - destruct (proj2 (cellf_in_range (b, ls) Hexc Hi)) as (ve & Ve); [congruence|]. rewrite Ve.
      unfold cellf in Ve. rewrite Ee in Ve.
      destruct (aget lsc_eqb (b, ls) lsds) as [s|] eqn:Es.
      + destruct (proj2 (cellf_in_range (b, ls) Hlsds Hi)) as (vs' & Vs); [congruence|]. rewrite Vs.
        unfold cellf in Vs. rewrite Es in Vs. rewrite map3_nth_error, Ve, Vs.
        destruct (nth_error vs i); [|easy]. now destruct ve.
      + unfold cellf. rewrite Es. destruct (nth_error vs i); [|easy]. now destruct ve.
    - unfold cellf. rewrite Ee. now destruct (nth_error vs i).
  Qed.

  Lemma apply_ls_shape ds ls :
    Forall (fun c => List.length (snd c) = n) ds ->
    Forall (fun c => List.length (snd c) = n) (apply_ls exc lsds ds ls) /\
    map fst (apply_ls exc lsds ds ls) = map fst ds.
  Proof.
    intros Hds. split.
    - apply Forall_map. eapply Forall_impl; [|exact Hds]. simpl. intros [b vs] Hl. simpl in *.
      destruct (aget lsc_eqb (b, ls) exc) eqn:Ee; [|easy].
      destruct (aget lsc_eqb (b, ls) lsds) eqn:Es; [|easy].
      apply (aget_In lsc_eqb lsc_eqb_eq) in Ee, Es. rewrite Forall_forall in Hexc, Hlsds.
      specialize (Hexc _ Ee). specialize (Hlsds _ Es). simpl in *.
      rewrite map3_length; congruence.
    - unfold apply_ls. rewrite map_map. reflexivity.
  Qed.

  Lemma passes_cell lss : forall ds b i,
    Forall (fun c => List.length (snd c) = n) ds -> (i < n)%nat ->
    cellf blk_eqb (fold_left (apply_ls exc lsds) lss ds) b i =
    match cellf blk_eqb ds b i with
    | None => None
    | Some d => Some (last_exceeded (excf b i) (stf b i) lss d)
    end.
  Proof.
    induction lss as [|l lss IH]; intros ds b i Hds Hi; simpl.
    - now destruct (cellf blk_eqb ds b i).
    - rewrite IH by (auto; apply apply_ls_shape; auto). rewrite apply_ls_cell by auto.
      now destruct (cellf blk_eqb ds b i).
  Qed.

  Lemma passes_shape lss : forall ds,
    Forall (fun c => List.length (snd c) = n) ds ->
    Forall (fun c => List.length (snd c) = n) (fold_left (apply_ls exc lsds) lss ds) /\
    map fst (fold_left (apply_ls exc lsds) lss ds) = map fst ds.
  Proof.
    induction lss as [|l lss IH]; intros ds Hds; simpl; [easy|].
    destruct (apply_ls_shape l Hds) as [H1 H2]. destruct (IH _ H1) as [H3 H4].
    split; [easy|]. congruence.
  Qed.
End Passes.

Lemma last_exceeded_none exc st lss d :
  (forall l, In l lss -> exc l <> Some true) -> last_exceeded exc st lss d = d.
Proof.
  revert d. induction lss as [|l lss IH]; intros d H; simpl; [easy|].
  rewrite IH by (intros; apply H; now right).
  specialize (H l (or_introl eq_refl)). destruct (exc l) as [[|]|]; easy.
Qed.

(** With passes in increasing order the highest exceeded limit state decides. *)
Lemma last_exceeded_max (lt : string -> string -> Prop) exc st lss d m s :
  (forall x, ~ lt x x) ->
  StronglySorted lt lss -> In m lss -> exc m = Some true -> st m = Some s ->
  (forall l, In l lss -> exc l = Some true -> ~ lt m l) ->
  last_exceeded exc st lss d = s.
Proof.
  intros Hirr Hs. revert d. induction Hs as [|l lss Hs IH Hl]; intros d Hin He Hst Hmax; [easy|]. simpl.
  destruct Hin as [->|Hin].
  - rewrite He, Hst. apply last_exceeded_none. intros l Hl' E.
    apply (Hmax l (or_intror Hl') E). rewrite Forall_forall in Hl. now apply Hl.
  - apply IH; auto. intros; apply Hmax; auto. now right.
Qed.

(** In any order the result is the state of some exceeded limit state. *)
Lemma last_exceeded_some exc st lss d :
  last_exceeded exc st lss d = d \/
  exists l, In l lss /\ exc l = Some true /\ st l = Some (last_exceeded exc st lss d).
Proof.
  revert d. induction lss as [|l lss IH]; intros d; simpl; [auto|].
  destruct (IH (match exc l with Some true => match st l with Some s => s | None => d end | _ => d end))
    as [E|(k & H1 & H2 & H3)].
  - rewrite E. destruct (exc l) as [[|]|] eqn:Ee; auto. destruct (st l) eqn:Es; auto.
    right. exists l. auto.
  - right. exists k. auto.
Qed.

Lemma last_exceeded_pos exc st lss d l :
  In l lss -> exc l = Some true -> (exists s, st l = Some s) ->
  (forall k s, In k lss -> st k = Some s -> (1 <= s)%Z) ->
  (1 <= last_exceeded exc st lss d)%Z.
Proof.
  intros Hin He (s & Hs) Hpos.
  assert (H : forall lss d, (forall k s, In k lss -> st k = Some s -> (1 <= s)%Z) ->
              (1 <= d)%Z -> (1 <= last_exceeded exc st lss d)%Z).
  { clear. induction lss as [|l lss IH]; intros d Hpos Hd; simpl; [easy|]. apply IH; [firstorder|].
    destruct (exc l) as [[|]|]; auto. destruct (st l) eqn:E; auto. apply (Hpos l); simpl; auto. }
  revert d. induction lss as [|k lss IH]; intros d; simpl; [easy|].
  destruct Hin as [->|Hin].
  - rewrite He, Hs. apply H; [firstorder|]. apply (Hpos l); simpl; auto.
  - apply IH; auto. firstorder.
Qed.

(** ** Demands *)

Lemma mapM_inv {A B} (f : A -> result B) l r x :
  mapM f l = Ok r -> In x l -> exists y, f x = Ok y /\ In y r.
Proof.
  intros H Hx. apply mapM_Forall2 in H. induction H as [|a b l r Hab _ IH]; [easy|].
  destruct Hx as [->|Hx]; [exists b; simpl; auto|]. destruct (IH Hx) as (y & ? & ?). exists y. simpl; auto.
Qed.
Lemma mapM_inv_r {A B} (f : A -> result B) l r y :
  mapM f l = Ok r -> In y r -> exists x, f x = Ok y /\ In x l.
Proof.
  intros H Hx. apply mapM_Forall2 in H. induction H as [|a b l r Hab _ IH]; [easy|].
  destruct Hx as [->|Hx]; [exists a; simpl; auto|]. destruct (IH Hx) as (x & ? & ?). exists x. simpl; auto.
Qed.

Lemma edp_key_eqb_eq a b : edp_key_eqb a b = true <-> a = b.
Proof.
  unfold edp_key_eqb. destruct a as [l1 e1], b as [l2 e2]; simpl. rewrite andb_true_iff, label_eqb_eq.
  destruct e1, e2; rewrite ?String.eqb_eq; split; intros H; try (destruct H; congruence);
    try (injection H; intros; subst; auto); easy.
Qed.

Lemma pg_columns_In p cap c : In c (pg_columns p cap) <-> In c (map fst cap) /\ b_of (fst c) = p.
Proof. unfold pg_columns. rewrite filter_In, pg_eqb_eq. easy. Qed.

(** What the demand table holds. *)
Lemma demand_columns_In demands required cap dem c v :
  demand_columns demands required cap = Ok dem ->
  (In (c, v) dem <->
   exists key pgs, In (key, v) demands /\ aget edp_key_eqb key required = Some pgs /\
                   In (b_of (fst c)) pgs /\ In c (map fst cap)).
Proof.
  unfold demand_columns. destruct demands as [|d0 dm]; [easy|]. set (D := d0 :: dm).
  destruct (mapM _ D) as [l|] eqn:El; [|easy]. simpl. intros [= <-]. rewrite in_concat. split.
  - intros (x & Hx & Hc). destruct (mapM_inv_r _ _ _ El Hx) as ([key col] & Hk & Hin). simpl in Hk.
    destruct (aget edp_key_eqb key required) as [pgs|] eqn:Er; [|easy].
    destruct (mapM _ pgs) as [cs|] eqn:Ep; [|easy]. simpl in Hk. injection Hk as <-.
    apply in_map_iff in Hc as (c' & [= -> ->] & Hc). apply in_concat in Hc as (y & Hy & Hc).
    destruct (mapM_inv_r _ _ _ Ep Hy) as (p & Hp & Hpin).
    assert (E : pg_columns p cap = y) by (destruct (pg_columns p cap); congruence).
    subst y. apply pg_columns_In in Hc as [Hc <-]. exists key, pgs. auto.
  - intros (key & pgs & Hin & Er & Hp & Hc).
    destruct (mapM_inv _ _ _ El Hin) as (x & Hk & Hx). exists x. split; [easy|]. simpl in Hk. rewrite Er in Hk.
    destruct (mapM _ pgs) as [cs|] eqn:Ep; [|easy]. simpl in Hk. injection Hk as <-.
    apply in_map_iff. exists c. split; [easy|]. apply in_concat.
    destruct (mapM_inv _ _ _ Ep Hp) as (y & Hy & Hyin). exists y. split; [easy|].
    assert (E : pg_columns (b_of (fst c)) cap = y) by (destruct (pg_columns (b_of (fst c)) cap); congruence).
    subst y. apply pg_columns_In. auto.
Qed.

Lemma NoDup_flat_map_same {A B} (f : A -> list B) l a b x :
  NoDup (flat_map f l) -> In a l -> In b l -> In x (f a) -> In x (f b) -> a = b.
Proof.
  induction l as [|y l IH]; simpl; [easy|]. intros Hn Ha Hb Hxa Hxb.
  apply NoDup_app_iff in Hn as (H1 & H2 & H3).
  destruct Ha as [->|Ha], Hb as [->|Hb]; auto.
  - exfalso. apply (H3 x Hxa). apply in_flat_map. eauto.
  - exfalso. apply (H3 x Hxb). apply in_flat_map. eauto.
Qed.

Section Evaluate.
  Context (n : nat) (demands : list (edp_key * list num)) (required : list (edp_key * list pg))
          (cap : cap_frame) (lsds : lsds_frame) (dem : list (lsc * list num))
          (Hcap : well_formed n cap) (Hlsds : well_formed n lsds) (Hdem : well_formed n demands)
          (Hone : one_demand required)
          (Hcols : forall k, In k (map fst cap) -> In k (map fst lsds))
          (Edem : demand_columns demands required cap = Ok dem).

  Lemma dem_lookup b ls d i :
    has_ls cap b ls -> demand_for demands required (b_of b) i d ->
    exists col, aget lsc_eqb (b, ls) dem = Some col /\ nth_error col i = Some d.
  Proof.
    intros Hb (key & col & pgs & Hin & Hr & Hp & Hd). exists col. split; [|easy].
    destruct Hone as [Hn1 Hn2].
    pose proof (In_aget edp_key_eqb edp_key_eqb_eq _ _ _ Hn1 Hr) as Er.
    assert (Hc : In ((b, ls), col) dem).
    { apply (@demand_columns_In _ _ _ _ _ _ Edem). exists key, pgs. auto. }
    destruct (aget lsc_eqb (b, ls) dem) as [col'|] eqn:E.
    - apply (aget_In lsc_eqb lsc_eqb_eq) in E. apply (@demand_columns_In _ _ _ _ _ _ Edem) in E.
      destruct E as (key' & pgs' & Hin' & Er' & Hp' & _). simpl in Hp'.
      apply (aget_In edp_key_eqb edp_key_eqb_eq) in Er'.
      pose proof (@NoDup_flat_map_same _ _ snd _ _ _ _ Hn2 Hr Er' Hp Hp') as H; injection H as <- <-.
      f_equal. pose proof (In_aget edp_key_eqb edp_key_eqb_eq _ _ _ (proj1 Hdem) Hin) as E1.
      pose proof (In_aget edp_key_eqb edp_key_eqb_eq _ _ _ (proj1 Hdem) Hin') as E2. congruence.
    - apply (aget_None lsc_eqb lsc_eqb_eq) in E. exfalso. apply E. apply in_map_iff. now exists ((b, ls), col).
  Qed.

  Lemma dem_length k col : aget lsc_eqb k dem = Some col -> List.length col = n.
  Proof.
    intros E. apply (aget_In lsc_eqb lsc_eqb_eq) in E. destruct k as [b ls].
    apply (@demand_columns_In _ _ _ _ _ _ Edem) in E as (key & pgs & Hin & _).
    destruct Hdem as [_ Hl]. rewrite Forall_forall in Hl. now apply (Hl _ Hin).
  Qed.

  Let exc := exceedance cap dem.

  Lemma exc_keys : map fst exc = map fst (sorted_cols cap).
  Proof. unfold exc, exceedance. rewrite map_map. reflexivity. Qed.

  Lemma exc_shape : Forall (fun c => List.length (snd c) = n) exc.
  Proof.
    unfold exc, exceedance. apply Forall_map. apply Forall_forall. intros [k col] Hin. cbn [fst snd].
    assert (Hl : List.length col = n).
    { destruct Hcap as [_ Hl]. rewrite Forall_forall in Hl. apply (Hl (k, col)).
      eapply Permutation_in; [symmetry; apply isort_perm|exact Hin]. }
    destruct (aget lsc_eqb k dem) eqn:E.
    - apply dem_length in E. rewrite map2_length; congruence.
    - now rewrite map_length.
  Qed.

  Lemma cap_cell k i v : cell_at cap k i v <-> cellf lsc_eqb cap k i = Some v.
  Proof.
    unfold cell_at, cellf. split.
    - intros (col & Hin & Hn). now rewrite (In_aget lsc_eqb lsc_eqb_eq _ _ _ (proj1 Hcap) Hin).
    - destruct (aget lsc_eqb k cap) as [col|] eqn:E; [|easy]. apply (aget_In lsc_eqb lsc_eqb_eq) in E. eauto.
  Qed.
  Lemma lsds_cell k i v : cell_at lsds k i v <-> cellf lsc_eqb lsds k i = Some v.
  Proof.
    unfold cell_at, cellf. split.
    - intros (col & Hin & Hn). now rewrite (In_aget lsc_eqb lsc_eqb_eq _ _ _ (proj1 Hlsds) Hin).
    - destruct (aget lsc_eqb k lsds) as [col|] eqn:E; [|easy]. apply (aget_In lsc_eqb lsc_eqb_eq) in E. eauto.
  Qed.

  Lemma exc_get k : aget lsc_eqb k exc =
    match aget lsc_eqb k cap with
    | None => None
    | Some col => Some (match aget lsc_eqb k dem with
                        | Some d => map2 nlt col d | None => map (fun _ => false) col end)
    end.
  Proof.
    unfold exc, exceedance.
    rewrite (aget_map lsc_eqb lsc_eqb_eq (fun k col => match aget lsc_eqb k dem with
                        | Some d => map2 nlt col d | None => map (fun _ => false) col end)).
    rewrite (aget_perm lsc_eqb lsc_eqb_eq (l2 := isort (fun a b => lsc_le (fst a) (fst b)) cap) _ (proj1 Hcap)) by apply isort_perm.
    reflexivity.
  Qed.

  Lemma exc_iff b ls i d : (i < n)%nat -> demand_for demands required (b_of b) i d ->
    (excf exc b i ls = Some true <-> exceeded cap d b ls i).
  Proof.
    intros Hi Hd. unfold excf, cellf. rewrite exc_get.
    destruct (aget lsc_eqb (b, ls) cap) as [col|] eqn:Ec.
    - pose proof Ec as Hin. apply (aget_Some_key lsc_eqb lsc_eqb_eq) in Hin.
      destruct (@dem_lookup b ls d i Hin Hd) as (dc & Ed & Hdi). rewrite Ed, map2_nth_error, Hdi.
      unfold exceeded. split.
      + destruct (nth_error col i) as [[c|]|] eqn:En; try easy. destruct d as [q|]; [|easy].
        simpl. intros [= H]. exists c, q. rewrite cap_cell. unfold cellf. rewrite Ec.
        split; [easy|]. split; [easy|]. now apply Qcltb_true.
      + intros (c & q & Hc & -> & Hlt). apply cap_cell in Hc. unfold cellf in Hc. rewrite Ec in Hc.
        rewrite Hc. simpl. f_equal. now apply Qcltb_true.
    - split; [easy|]. intros (c & q & Hc & _). apply cap_cell in Hc. unfold cellf in Hc. now rewrite Ec in Hc.
  Qed.

  Lemma st_some b ls i : (i < n)%nat -> has_ls cap b ls -> exists s, stf lsds b i ls = Some s.
  Proof.
    intros Hi Hb. apply Hcols in Hb. apply (cellf_in_range _ (proj2 Hlsds) Hi).
    destruct (In_key_aget lsc_eqb lsc_eqb_eq _ _ Hb) as (v & ->). easy.
  Qed.

  Lemma ls_list_In ls : In ls (ls_list exc) <-> exists b, has_ls cap b ls.
  Proof.
    unfold ls_list. rewrite (unique_In _ String.eqb_eq).
    rewrite <- (map_map (A:=lsc * list bool) fst snd), exc_keys. split.
    - intros H. apply in_map_iff in H as ([b l] & <- & H). exists b. now apply sorted_cols_In.
    - intros (b & H). apply in_map_iff. exists (b, ls). split; [easy|]. now apply sorted_cols_In.
  Qed.

  Let result_ds := fold_left (apply_ls exc lsds) (ls_list exc) (initial_ds n cap).

  Lemma initial_shape : Forall (fun c => List.length (snd c) = n) (initial_ds n cap).
  Proof. unfold initial_ds. apply Forall_map, Forall_forall. intros. simpl. apply repeat_length. Qed.
  Lemma initial_keys : map fst (initial_ds n cap) = unique blk_eqb (map (fun c => fst (fst c)) cap).
  Proof. unfold initial_ds. apply (map_combine_fst (fun _ => repeat 0%Z n)). Qed.
  Lemma result_keys : map fst result_ds = unique blk_eqb (map (fun c => fst (fst c)) cap).
  Proof.
    unfold result_ds. rewrite (proj2 (@passes_shape n _ _ exc_shape (proj2 Hlsds) _ _ initial_shape)).
    apply initial_keys.
  Qed.
  Lemma result_shape : well_formed n result_ds.
  Proof.
    split.
    - rewrite result_keys. apply unique_NoDup, blk_eqb_eq.
    - apply (@passes_shape n _ _ exc_shape (proj2 Hlsds) _ _ initial_shape).
  Qed.
  Lemma result_blocks b : In b (map fst result_ds) <-> exists ls, has_ls cap b ls.
  Proof.
    rewrite result_keys, (unique_In _ blk_eqb_eq), in_map_iff. unfold has_ls. split.
    - intros ([[b' ls] col] & <- & H). exists ls. apply in_map_iff. now exists ((b', ls), col).
    - intros (ls & H). apply in_map_iff in H as ([k col] & E & H). simpl in E. subst k.
      exists ((b, ls), col). auto.
  Qed.
  Lemma result_cell b i : (i < n)%nat -> (exists ls, has_ls cap b ls) ->
    cell_at result_ds b i (last_exceeded (excf exc b i) (stf lsds b i) (ls_list exc) 0).
  Proof.
    intros Hi Hb. apply result_blocks in Hb as Hk.
    assert (E : cellf blk_eqb result_ds b i =
                Some (last_exceeded (excf exc b i) (stf lsds b i) (ls_list exc) 0)).
    { unfold result_ds. rewrite (@passes_cell n _ _ exc_shape (proj2 Hlsds) _ _ _ _ initial_shape Hi).
      unfold cellf at 1. unfold initial_ds.
      rewrite result_keys, <- initial_keys in Hk.
      destruct (In_key_aget blk_eqb blk_eqb_eq _ _ Hk) as (col & Ec). unfold initial_ds in Ec. rewrite Ec.
      apply (aget_In blk_eqb blk_eqb_eq) in Ec. apply in_map_iff in Ec as (b' & [= -> <-] & _).
      rewrite nth_error_repeat by easy. reflexivity. }
    unfold cellf in E. destruct (aget blk_eqb b result_ds) as [col|] eqn:Ec; [|easy].
    exists col. split; [|easy]. now apply (aget_In blk_eqb blk_eqb_eq).
  Qed.

  (** A block with no demand column is never exceeded. *)
  Lemma result_spec b i d : (i < n)%nat -> (exists ls, has_ls cap b ls) ->
    demand_for demands required (b_of b) i d ->
    exists s, cell_at result_ds b i s /\
      ((forall ls, ~ exceeded cap d b ls i) -> s = 0%Z) /\
      ((exists ls, exceeded cap d b ls i) ->
       (forall ls s', cell_at lsds (b, ls) i s' -> (1 <= s')%Z) ->
       exists ls, exceeded cap d b ls i /\ cell_at lsds (b, ls) i s).
  Proof.
    intros Hi Hb Hd. eexists. split; [now apply result_cell|]. split.
    - intros Hno. apply last_exceeded_none. intros l _ E. apply (@exc_iff b l i d Hi Hd) in E. now apply (Hno l).
    - intros (ls & He) Hpos.
      pose proof (@exc_iff b ls i d Hi Hd) as Hx. pose proof (proj2 Hx He) as He'.
      assert (Hin : has_ls cap b ls).
      { destruct He as (c & q & (col & Hc & _) & _). apply in_map_iff. now exists ((b, ls), col). }
      destruct (last_exceeded_some (excf exc b i) (stf lsds b i) (ls_list exc) 0%Z)
        as [E|(k & _ & Hk & Hs)].
      + exfalso. enough (1 <= last_exceeded (excf exc b i) (stf lsds b i) (ls_list exc) 0)%Z by lia.
        apply last_exceeded_pos with (l := ls); auto.
        * apply ls_list_In. eauto.
        * now apply st_some.
        * intros k s _ Hs. apply (Hpos k). apply lsds_cell. exact Hs.
      + exists k. split; [now apply (@exc_iff b k i d Hi Hd)|]. apply lsds_cell. exact Hs.
  Qed.

  (** With gapless limit states the passes are in increasing order. *)
  Lemma digit_le a b : In a digit_ids -> In b digit_ids -> (ls_number a < ls_number b)%nat ->
    str_le a b = true.
  Proof.
    intros Ha Hb. simpl in Ha, Hb.
    repeat (destruct Ha as [<-|Ha]; [repeat (destruct Hb as [<-|Hb]; [intros H; solve [reflexivity | vm_compute in H; lia]|]); easy|]).
    easy.
  Qed.
  Lemma digit_number_inj a b : In a digit_ids -> In b digit_ids -> ls_number a = ls_number b -> a = b.
  Proof.
    intros Ha Hb. simpl in Ha, Hb.
    repeat (destruct Ha as [<-|Ha]; [repeat (destruct Hb as [<-|Hb]; [intros H; solve [reflexivity | vm_compute in H; lia]|]); easy|]).
    easy.
  Qed.

  Lemma map_eq_app_cons {A B} (f : A -> B) l l1 m l2 :
    map f l = l1 ++ m :: l2 -> exists k1 x k2, l = k1 ++ x :: k2 /\ map f k1 = l1 /\ f x = m /\ map f k2 = l2.
  Proof.
    revert l. induction l1 as [|y l1 IH]; intros [|x l]; simpl; try easy.
    - intros [= <- <-]. exists [], x, l. auto.
    - intros [= <- E]. apply IH in E as (k1 & z & k2 & -> & <- & <- & <-). exists (x :: k1), z, k2. auto.
  Qed.

  Lemma ls_list_sorted : gapless cap ->
    StronglySorted (fun a b => (ls_number a < ls_number b)%nat) (ls_list exc).
  Proof.
    intros Hg.
    assert (Hdig : forall x, In x (map snd (map fst exc)) -> In x digit_ids /\ exists b, has_ls cap b x).
    { intros x Hx. rewrite exc_keys in Hx. apply in_map_iff in Hx as ([b l] & <- & Hx).
      apply (@sorted_cols_In num cap) in Hx. split; [now destruct (Hg b l Hx)|]. exists b. exact Hx. }
    unfold ls_list. rewrite <- (map_map (A:=lsc * list bool) fst snd).
    apply (unique_acc_sorted _ String.eqb_eq).
    - intros l1 m l2 El j Hj Hlt. left. destruct (Hdig _ Hj) as [Hjd (b' & Hb')].
      rewrite exc_keys in El. apply map_eq_app_cons in El as (k1 & [b m'] & k2 & Ek & <- & Em & <-).
      simpl in Em. subst m'.
      assert (Hbm : has_ls cap b m).
      { apply (@sorted_cols_In (num) cap). rewrite Ek. apply in_elt. }
      destruct (Hg _ _ Hbm) as [Hmd Hgap]. pose proof (Hgap _ _ Hb' Hlt) as Hbj.
      apply in_map_iff. exists (b, j). split; [easy|].
      pose proof (@sorted_cols_sorted num cap) as Hs. rewrite Ek in Hs.
      apply (@sorted_before _ lsc_le _ (b, m) k2 (b, j) lsc_le_antisym Hs).
      + unfold lsc_le, lsc_label. rewrite label_le_app. now apply digit_le.
      + intros [= ->]. lia.
      + rewrite <- Ek. apply (@sorted_cols_In num cap). exact Hbj.
    - intros x y Hx Hy. apply Hdig in Hx as [Hx _], Hy as [Hy _].
      destruct (lt_eq_lt_dec (ls_number x) (ls_number y)) as [[H|H]|H]; auto.
      left. now apply digit_number_inj.
  Qed.

  (** *** Any limit states *)
  Lemma seen_asym a b : seen_before cap a b -> ~ seen_before cap b a.
  Proof.
    intros [N (k & Hk & Hmin)] [_ (k' & Hk' & Hmin')].
    pose proof (lsc_le_antisym (k, a) (k', b) (Hmin _ Hk') (Hmin' _ Hk)) as E. congruence.
  Qed.
  Lemma first_of_two (x y : string) : forall l : list lsc, In x (map snd l) ->
    exists l1 k l2, l = l1 ++ k :: l2 /\ (snd k = x \/ snd k = y) /\ forall k', In k' l1 -> snd k' <> x /\ snd k' <> y.
  Proof.
    induction l as [|k l IH]; [easy|]. intros H.
    destruct (string_dec (snd k) x) as [E|N]; [exists [], k, l; repeat split; auto; easy|].
    destruct (string_dec (snd k) y) as [E'|N']; [exists [], k, l; repeat split; auto; easy|].
    destruct H as [H|H]; [easy|]. destruct (IH H) as (l1 & k0 & l2 & -> & Hk & Hl). exists (k :: l1), k0, l2. split; [easy|]. split; [easy|].
    intros k' [<-|Hk']; [easy|now apply Hl].
  Qed.
  Lemma seen_total x y : (exists b, has_ls cap b x) -> (exists b, has_ls cap b y) -> x = y \/ seen_before cap x y \/ seen_before cap y x.
  Proof.
    intros (bx & Hx) (by_ & Hy). destruct (string_dec x y) as [E|N]; [auto|]. right.
    pose proof (@sorted_cols_sorted num cap) as Hs.
    assert (Hin : In x (map snd (map fst (sorted_cols cap)))).
    { apply in_map_iff. exists (bx, x). split; [easy|]. now apply sorted_cols_In. }
    destruct (first_of_two x y _ Hin) as (l1 & [k s0] & l2 & E & Hk & Hl). simpl in Hk. rewrite E in Hs.
    assert (K : has_ls cap k s0) by (apply (@sorted_cols_In num cap); rewrite E; apply in_elt).
    assert (Later : forall k' z, has_ls cap k' z -> z = x \/ z = y -> z <> s0 -> lsc_le (k, s0) (k', z) = true).
    { intros k' z Hz Hxy Hne. apply (@sorted_cols_In num cap) in Hz. rewrite E in Hz.
      apply in_app_iff in Hz as [Hz|[Hz|Hz]]; [apply Hl in Hz; simpl in Hz; intuition congruence|congruence|].
      clear - Hs Hz. induction l1 as [|a l1 IH]; simpl in Hs; inversion Hs; subst; [|now apply IH].
      rewrite Forall_forall in H2. now apply H2. }
    destruct Hk as [->| ->]; [left|right]; (split; [congruence|]); exists k; (split; [easy|]); intros k' Hk'; apply (Later k'); auto.
  Qed.
  Lemma ls_list_seen : StronglySorted (seen_before cap) (ls_list exc).
  Proof.
    assert (Hhas : forall x, In x (map snd (map fst exc)) -> exists b, has_ls cap b x).
    { intros x Hx. rewrite exc_keys in Hx. apply in_map_iff in Hx as ([b l] & <- & Hx).
      apply (@sorted_cols_In num cap) in Hx. exists b. exact Hx. }
    unfold ls_list. rewrite <- (map_map (A:=lsc * list bool) fst snd).
    apply (unique_acc_sorted _ String.eqb_eq).
    - intros l1 m l2 El j Hj [Hne (k & Hk & Hmin)]. left.
      rewrite exc_keys in El. apply map_eq_app_cons in El as (k1 & [b m'] & k2 & Ek & <- & Em & <-).
      simpl in Em. subst m'.
      assert (Hbm : has_ls cap b m) by (apply (@sorted_cols_In (num) cap); rewrite Ek; apply in_elt).
      apply in_map_iff. exists (k, j). split; [easy|].
      pose proof (@sorted_cols_sorted num cap) as Hs. rewrite Ek in Hs.
      apply (@sorted_before _ lsc_le _ (b, m) k2 (k, j) lsc_le_antisym Hs).
      + now apply Hmin.
      + congruence.
      + rewrite <- Ek. apply (@sorted_cols_In num cap). exact Hk.
    - intros x y Hx Hy. apply seen_total; now apply Hhas.
  Qed.
  Lemma result_last_seen b i d m s : (i < n)%nat ->
    demand_for demands required (b_of b) i d -> last_seen_exceeded cap d b i m -> cell_at lsds (b, m) i s -> cell_at result_ds b i s.
  Proof.
    intros Hi Hd [He Hmax] Hs.
    assert (Hin : has_ls cap b m).
    { destruct He as (c & q & (col & Hc & _) & _). apply in_map_iff. now exists ((b, m), col). }
    pose proof (@result_cell b i Hi (ex_intro _ m Hin)) as Hr.
    erewrite last_exceeded_max with (s := s) (m := m) in Hr; [exact Hr| | apply ls_list_seen | | | | ].
    - intros x [N _]. now apply N.
    - apply ls_list_In. eauto.
    - now apply (@exc_iff b m i d Hi Hd).
    - now apply lsds_cell.
    - intros l _ El. apply (@exc_iff b l i d Hi Hd) in El. now apply Hmax.
  Qed.
  Lemma last_seen_exists b i d ls : (i < n)%nat -> demand_for demands required (b_of b) i d -> exceeded cap d b ls i ->
    exists m, last_seen_exceeded cap d b i m.
  Proof.
    intros Hi Hd He.
    assert (Hin : In ls (ls_list exc)).
    { apply ls_list_In. exists b. destruct He as (c & q & (col & Hc & _) & _). apply in_map_iff. now exists ((b, ls), col). }
    assert (K : exists m, In m (ls_list exc) /\ exceeded cap d b m i /\ forall l, In l (ls_list exc) -> exceeded cap d b l i -> ~ seen_before cap m l).
    { pose proof ls_list_seen as Hs. revert ls He Hin. induction Hs as [|x l Hs IH Hx]; intros ls He Hin; [destruct Hin|].
      destruct (existsb (fun y => match excf exc b i y with Some true => true | _ => false end) l) eqn:Ex.
      - apply existsb_exists in Ex as (y & Hy & Ey).
        assert (Hey : exceeded cap d b y i) by (apply (@exc_iff b y i d Hi Hd); destruct (excf exc b i y) as [[]|]; easy).
        destruct (IH y Hey Hy) as (m & Hm & Hem & Hmax). exists m. split; [now right|]. split; [easy|].
        intros l0 [<-|H0] E0; [|now apply Hmax]. apply seen_asym. rewrite Forall_forall in Hx. now apply Hx.
      - assert (None_ : forall w, In w l -> ~ exceeded cap d b w i).
        { intros w Hw Hew. apply (@exc_iff b w i d Hi Hd) in Hew.
          assert (existsb (fun y => match excf exc b i y with Some true => true | _ => false end) l = true); [|congruence].
          apply existsb_exists. exists w. now rewrite Hew. }
        destruct Hin as [<-|Hin]; [|exfalso; exact (None_ _ Hin He)].
        exists x. split; [now left|]. split; [easy|]. intros l0 [<-|H0] E0; [intros [N _]; now apply N|exfalso; exact (None_ _ H0 E0)]. }
    destruct K as (m & _ & Hem & Hmax). exists m. split; [easy|]. intros l El. apply Hmax; [|easy].
    apply ls_list_In. exists b. destruct El as (c & q & (col & Hc & _) & _). apply in_map_iff. now exists ((b, l), col).
  Qed.

  Lemma result_highest b i d m s : gapless cap -> (i < n)%nat ->
    demand_for demands required (b_of b) i d ->
    exceeded cap d b m i -> (forall ls, exceeded cap d b ls i -> (ls_number ls <= ls_number m)%nat) ->
    cell_at lsds (b, m) i s ->
    cell_at result_ds b i s.
  Proof.
    intros Hg Hi Hd He Hmax Hs.
    assert (Hin : has_ls cap b m).
    { destruct He as (c & q & (col & Hc & _) & _). apply in_map_iff. now exists ((b, m), col). }
    pose proof (@result_cell b i Hi (ex_intro _ m Hin)) as Hr.
    erewrite last_exceeded_max with (s := s) (m := m) in Hr; [exact Hr| | apply ls_list_sorted, Hg | | | | ].
    - simpl. intros. lia.
    - apply ls_list_In. eauto.
    - now apply (@exc_iff b m i d Hi Hd).
    - now apply lsds_cell.
    - simpl. intros l _ El. apply (@exc_iff b l i d Hi Hd) in El. apply Hmax in El. lia.
  Qed.
End Evaluate.
