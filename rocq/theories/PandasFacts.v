(** Facts about the table vocabulary of [Pandas]. *)
From Coq Require Import Sorting.Permutation Sorting.Sorted.
From Verif Require Import Prelude PreludeFacts Pandas.
Set Implicit Arguments.
Local Open Scope list_scope.

Lemma pg_eqb_eq a b : pg_eqb a b = true <-> a = b.
Proof.
  unfold pg_eqb. rewrite !andb_true_iff, !String.eqb_eq. destruct a, b; simpl. split.
  - intros [[[-> ->] ->] ->]. reflexivity.
  - now intros [= -> -> -> ->].
Qed.
Lemma pg_eqb_refl a : pg_eqb a a = true.
Proof. now apply pg_eqb_eq. Qed.
Lemma pg_eqb_spec a b : BoolSpec (a = b) (a <> b) (pg_eqb a b).
Proof.
  destruct (pg_eqb a b) eqn:E; constructor. now apply pg_eqb_eq.
  intros ->. rewrite pg_eqb_refl in E. easy.
Qed.
Lemma pg_le_trans a b c : pg_le a b = true -> pg_le b c = true -> pg_le a c = true.
Proof. apply label_le_trans. Qed.
Lemma pg_le_total a b : pg_le a b = true \/ pg_le b a = true.
Proof. apply label_le_total. Qed.
Lemma pg_le_antisym a b : pg_le a b = true -> pg_le b a = true -> a = b.
Proof.
  intros H1 H2. pose proof (label_le_antisym _ _ H1 H2) as E.
  destruct a, b. cbv in E. congruence.
Qed.
Lemma pg_ldcu_trans a b c : pg_le_ldcu a b = true -> pg_le_ldcu b c = true -> pg_le_ldcu a c = true.
Proof. apply label_le_trans. Qed.
Lemma pg_ldcu_total a b : pg_le_ldcu a b = true \/ pg_le_ldcu b a = true.
Proof. apply label_le_total. Qed.
Lemma pg_ldcu_antisym a b : pg_le_ldcu a b = true -> pg_le_ldcu b a = true -> a = b.
Proof.
  intros H1 H2. pose proof (label_le_antisym _ _ H1 H2) as E.
  destruct a, b. cbv in E. congruence.
Qed.

Lemma zsum_app a b : zsum (a ++ b) = (zsum a + zsum b)%Z.
Proof. induction a; simpl; lia. Qed.
Lemma zsum_perm a b : Permutation a b -> zsum a = zsum b.
Proof. induction 1; simpl; lia. Qed.
Lemma zsum_nonneg l : Forall (fun x => 0 <= x)%Z l -> (0 <= zsum l)%Z.
Proof. induction 1; simpl; lia. Qed.

Lemma fold_max_ge l x : (x <= fold_left Z.max l x)%Z.
Proof.
  revert x. induction l as [|y l IH]; intros x; simpl; [lia|].
  specialize (IH (Z.max x y)). lia.
Qed.
Lemma fold_max_ge_in l x y : In y l -> (y <= fold_left Z.max l x)%Z.
Proof.
  revert x. induction l as [|z l IH]; intros x; simpl; [easy|]. intros [->|H].
  - pose proof (fold_max_ge l (Z.max x y)). lia.
  - now apply IH.
Qed.
Lemma fold_max_in l x : fold_left Z.max l x = x \/ In (fold_left Z.max l x) l.
Proof.
  revert x. induction l as [|z l IH]; intros x; simpl; [auto|].
  destruct (IH (Z.max x z)) as [E|E]; rewrite ?E; auto.
  destruct (Z.max_spec x z) as [[_ ->]|[_ ->]]; auto.
Qed.
Lemma zmax_ge d l y : In y l -> (y <= zmax d l)%Z.
Proof.
  destruct l as [|x l]; simpl; [easy|]. intros [->|H]. apply fold_max_ge. now apply fold_max_ge_in.
Qed.
Lemma zmax_in d l : l <> [] -> In (zmax d l) l.
Proof. destruct l as [|x l]; [easy|]. intros _. simpl. destruct (fold_max_in l x); auto. Qed.
Lemma zmax_unique d l m : In m l -> (forall y, In y l -> (y <= m)%Z) -> zmax d l = m.
Proof.
  intros Hin Hle. assert (l <> []) by (intros ->; easy).
  pose proof (zmax_ge d l _ Hin). specialize (Hle _ (zmax_in d H)). lia.
Qed.
Lemma zmax_perm d l1 l2 : Permutation l1 l2 -> zmax d l1 = zmax d l2.
Proof.
  intros Hp. destruct l1 as [|x l1].
  - apply Permutation_nil in Hp. now subst.
  - apply zmax_unique.
    + eapply Permutation_in; [symmetry; exact Hp|]. apply zmax_in. intros E. subst.
      apply Permutation_sym, Permutation_nil in Hp. discriminate.
    + intros y Hy. apply zmax_ge. eapply Permutation_in; eauto.
Qed.

Section AssocFacts.
  Context {K V : Type} (eqb : K -> K -> bool) (eqb_eq : forall a b, eqb a b = true <-> a = b).
  Lemma aget_In k v (l : list (K * V)) : aget eqb k l = Some v -> In (k, v) l.
  Proof.
    induction l as [|[k' v'] l IH]; simpl; [easy|]. destruct (eqb k k') eqn:E.
    - apply eqb_eq in E. intros [= ->]. subst. auto.
    - auto.
  Qed.
  Lemma aget_None k (l : list (K * V)) : aget eqb k l = None <-> ~ In k (map fst l).
  Proof.
    induction l as [|[k' v'] l IH]; simpl; [tauto|]. destruct (eqb k k') eqn:E.
    - apply eqb_eq in E. subst. split; [easy|]. intros H. exfalso; auto.
    - rewrite IH. assert (k' <> k). { intros ->. assert (eqb k k = true) by now apply eqb_eq. congruence. }
      tauto.
  Qed.
  Lemma In_aget k v (l : list (K * V)) : NoDup (map fst l) -> In (k, v) l -> aget eqb k l = Some v.
  Proof.
    induction l as [|[k' v'] l IH]; simpl; [easy|]. intros Hn [H|H]; inversion Hn; subst.
    - injection H as -> ->. assert (eqb k k = true) as -> by now apply eqb_eq. easy.
    - destruct (eqb k k') eqn:E; [|auto]. apply eqb_eq in E. subst. exfalso. apply H2.
      apply in_map_iff. now exists (k', v).
  Qed.
  Lemma aget_Some_key k v (l : list (K * V)) : aget eqb k l = Some v -> In k (map fst l).
  Proof. intros H. apply aget_In in H. apply in_map_iff. now exists (k, v). Qed.
  Lemma In_key_aget k (l : list (K * V)) : In k (map fst l) -> exists v, aget eqb k l = Some v.
  Proof. intros H. destruct (aget eqb k l) eqn:E; [eauto|]. now apply aget_None in E. Qed.
  Lemma aget_map {W} (f : K -> V -> W) k (l : list (K * V)) :
    aget eqb k (map (fun kv => (fst kv, f (fst kv) (snd kv))) l) =
    match aget eqb k l with Some v => Some (f k v) | None => None end.
  Proof.
    induction l as [|[k' v'] l IH]; simpl; [easy|]. destruct (eqb k k') eqn:E; [|exact IH].
    apply eqb_eq in E. now subst.
  Qed.
  Lemma aget_app k (l1 l2 : list (K * V)) :
    aget eqb k (l1 ++ l2) = match aget eqb k l1 with Some v => Some v | None => aget eqb k l2 end.
  Proof. induction l1 as [|[k' v'] l IH]; simpl; [easy|]. now destruct (eqb k k'). Qed.
  Lemma aget_perm k (l1 l2 : list (K * V)) :
    NoDup (map fst l1) -> Permutation l1 l2 -> aget eqb k l1 = aget eqb k l2.
  Proof.
    intros Hn Hp. assert (Hn2 : NoDup (map fst l2)).
    { eapply Permutation_NoDup; [|exact Hn]. now apply Permutation_map. }
    destruct (aget eqb k l1) eqn:E1.
    - apply aget_In in E1. symmetry. apply In_aget; [easy|]. eapply Permutation_in; eauto.
    - apply aget_None in E1. symmetry. apply aget_None. intros H. apply E1.
      eapply Permutation_in; [|exact H]. symmetry. now apply Permutation_map.
  Qed.
End AssocFacts.

Lemma map_combine_fst {A B} (f : A -> B) l : map fst (map (fun x => (x, f x)) l) = l.
Proof. rewrite map_map. simpl. apply map_id. Qed.

Lemma filter_perm {A} (f : A -> bool) l1 l2 :
  Permutation l1 l2 -> Permutation (filter f l1) (filter f l2).
Proof.
  induction 1; simpl; [easy| | |now etransitivity; eauto].
  - destruct (f x); auto.
  - destruct (f x), (f y); try reflexivity. apply perm_swap.
Qed.

Lemma filter_all {A} (f : A -> bool) l : (forall x, In x l -> f x = true) -> filter f l = l.
Proof.
  induction l as [|x l IH]; simpl; [easy|]. intros H. rewrite (H x (or_introl eq_refl)).
  f_equal. auto.
Qed.
Lemma filter_none {A} (f : A -> bool) l : (forall x, In x l -> f x = false) -> filter f l = [].
Proof.
  induction l as [|x l IH]; simpl; [easy|]. intros H. rewrite (H x (or_introl eq_refl)). auto.
Qed.

Section GroupFacts.
  Context {K V : Type} (eqb le : K -> K -> bool) (eqb_eq : forall a b, eqb a b = true <-> a = b).
  Lemma groupby_keys (l : list (K * V)) : map fst (groupby eqb le l) = isort le (unique eqb (map fst l)).
  Proof. unfold groupby. now rewrite map_combine_fst. Qed.
  Lemma groupby_keys_In (l : list (K * V)) k : In k (map fst (groupby eqb le l)) <-> In k (map fst l).
  Proof.
    rewrite groupby_keys. rewrite <- (unique_In eqb eqb_eq (map fst l) k).
    split; intros H; (eapply Permutation_in; [|exact H]); [symmetry|]; apply isort_perm.
  Qed.
  Lemma groupby_NoDup (l : list (K * V)) : NoDup (map fst (groupby eqb le l)).
  Proof.
    rewrite groupby_keys. eapply Permutation_NoDup; [apply isort_perm|]. now apply unique_NoDup.
  Qed.
  Lemma groupby_sorted (l : list (K * V)) :
    (forall a b c, le a b = true -> le b c = true -> le a c = true) ->
    (forall a b, le a b = true \/ le b a = true) ->
    sorted_by le (map fst (groupby eqb le l)).
  Proof. intros. rewrite groupby_keys. now apply isort_sorted. Qed.
  Lemma groupby_In (l : list (K * V)) k vs :
    In (k, vs) (groupby eqb le l) <-> In k (map fst l) /\ vs = group_rows eqb k l.
  Proof.
    unfold groupby. rewrite in_map_iff. split.
    - intros (k' & E & Hin). injection E as -> <-. split; [|easy].
      apply (unique_In eqb eqb_eq). eapply Permutation_in; [|exact Hin]. symmetry; apply isort_perm.
    - intros [Hin ->]. exists k. split; [easy|].
      eapply Permutation_in; [apply isort_perm|]. now apply (unique_In eqb eqb_eq).
  Qed.
  Lemma groupby_aget (l : list (K * V)) k :
    aget eqb k (groupby eqb le l) =
    if existsb (eqb k) (map fst l) then Some (group_rows eqb k l) else None.
  Proof.
    destruct (existsb (eqb k) (map fst l)) eqn:E.
    - apply (existsb_eqb_In eqb eqb_eq) in E. apply In_aget; [easy|apply groupby_NoDup|].
      now apply groupby_In.
    - apply aget_None; [easy|]. rewrite groupby_keys_In. rewrite <- (existsb_eqb_In eqb eqb_eq), E. easy.
  Qed.
  Lemma In_group_rows (l : list (K * V)) k v : In v (group_rows eqb k l) <-> In (k, v) l.
  Proof.
    unfold group_rows. rewrite in_map_iff. split.
    - intros ([k' v'] & <- & H). apply filter_In in H as [H E]. simpl in *. apply eqb_eq in E. now subst.
    - intros H. exists (k, v). split; [easy|]. apply filter_In. split; [easy|]. now apply eqb_eq.
  Qed.
  (** When keys are distinct every group has one row. *)
  Lemma group_rows_single (l : list (K * V)) k v :
    NoDup (map fst l) -> In (k, v) l -> group_rows eqb k l = [v].
  Proof.
    unfold group_rows. induction l as [|[k' v'] l IH]; simpl; [easy|]. intros Hn [H|H]; inversion Hn; subst.
    - injection H as -> ->. assert (eqb k k = true) as -> by now apply eqb_eq. simpl. f_equal.
      rewrite filter_none; [easy|]. intros [k' v'] Hin. simpl. destruct (eqb k k') eqn:E; [|easy].
      apply eqb_eq in E. subst. exfalso. apply H2. apply in_map_iff. now exists (k', v').
    - destruct (eqb k k') eqn:E.
      + apply eqb_eq in E. subst. exfalso. apply H2. apply in_map_iff. now exists (k', v).
      + now apply IH.
  Qed.
End GroupFacts.

Lemma map2_length {A B C} (f : A -> B -> C) a b :
  List.length a = List.length b -> List.length (map2 f a b) = List.length a.
Proof. revert b. induction a; destruct b; simpl; intros; try easy. f_equal. auto. Qed.
Lemma map2_nth {A B C} (f : A -> B -> C) a b i da db dc :
  List.length a = List.length b -> (i < List.length a)%nat ->
  nth i (map2 f a b) dc = f (nth i a da) (nth i b db).
Proof.
  revert b i. induction a as [|x a IH]; destruct b as [|y b]; simpl; intros i Hl Hi; try lia.
  destruct i; [easy|]. apply IH; lia.
Qed.
Lemma map3_length {A B C D} (f : A -> B -> C -> D) a b c :
  List.length a = List.length b -> List.length a = List.length c ->
  List.length (map3 f a b c) = List.length a.
Proof.
  revert b c. induction a as [|x a IH]; destruct b as [|y b], c as [|z c]; simpl; intros; try lia.
  f_equal. auto.
Qed.
Lemma map3_nth {A B C D} (f : A -> B -> C -> D) a b c i da db dc dd :
  List.length a = List.length b -> List.length a = List.length c -> (i < List.length a)%nat ->
  nth i (map3 f a b c) dd = f (nth i a da) (nth i b db) (nth i c dc).
Proof.
  revert b c i. induction a as [|x a IH]; destruct b as [|y b], c as [|z c]; simpl; intros i H1 H2 Hi; try lia.
  destruct i; [easy|]. apply IH; lia.
Qed.

(** ** Sums over groups *)
Section GroupSums.
  Context {K V : Type} (eqb : K -> K -> bool) (eqb_eq : forall a b, eqb a b = true <-> a = b).

  Lemma group_rows_cons k kv (l : list (K * V)) :
    group_rows eqb k (kv :: l) = if eqb k (fst kv) then snd kv :: group_rows eqb k l else group_rows eqb k l.
  Proof. unfold group_rows. simpl. now destruct (eqb k (fst kv)). Qed.

  Lemma qsum_single (f : K -> Qc) ks k :
    NoDup ks -> In k ks -> qsum (map (fun x => if eqb x k then f x else 0%Qc) ks) = f k.
  Proof.
    intros Hn Hin. induction ks as [|x ks IH]; [easy|]. inversion Hn as [|? ? Hx Hn']; subst. simpl.
    destruct (eqb x k) eqn:E.
    - apply eqb_eq in E. subst x.
      rewrite (qsum_map_ext (fun x => if eqb x k then f x else 0%Qc) (fun _ => 0%Qc)).
      + rewrite qsum_const. qlra.
      + intros y Hy. destruct (eqb y k) eqn:E'; [|easy]. apply eqb_eq in E'. now subst.
    - destruct Hin as [->|Hin]; [|rewrite (IH Hn' Hin); qlra].
      assert (eqb k k = true) by now apply eqb_eq. congruence.
  Qed.

  Lemma qsum_group (f : K -> V -> Qc) ks (l : list (K * V)) :
    NoDup ks -> (forall kv, In kv l -> In (fst kv) ks) ->
    qsum (map (fun k => qsum (map (f k) (group_rows eqb k l))) ks) =
    qsum (map (fun kv => f (fst kv) (snd kv)) l).
  Proof.
    intros Hn. induction l as [|kv l IH]; intros Hin.
    - simpl. rewrite qsum_const. qlra.
    - cbn [map]. rewrite qsum_cons, <- IH by (intros; apply Hin; now right).
      rewrite <- (qsum_single (fun k => f k (snd kv)) (fst kv) Hn (Hin kv (or_introl eq_refl))).
      rewrite <- qsum_map_add. apply qsum_map_ext. intros k _. rewrite group_rows_cons.
      destruct (eqb k (fst kv)); cbn [map]; rewrite ?qsum_cons; qlra.
  Qed.

  Lemma qsum_groupby le (f : K -> V -> Qc) (l : list (K * V)) :
    qsum (map (fun g => qsum (map (f (fst g)) (snd g))) (groupby eqb le l)) =
    qsum (map (fun kv => f (fst kv) (snd kv)) l).
  Proof.
    unfold groupby. rewrite map_map. cbn [fst snd]. apply qsum_group.
    - eapply Permutation_NoDup; [apply isort_perm|]. now apply unique_NoDup.
    - intros kv Hkv. eapply Permutation_in; [apply isort_perm|]. apply unique_In; [easy|]. now apply in_map.
  Qed.
End GroupSums.

Lemma nsum1_nfill0 l : nfill0 (nsum1 l) = qsum (map nfill0 l).
Proof.
  unfold nsum1. assert (E : qsum (somes l) = qsum (map nfill0 l)).
  { induction l as [|[x|] l IH]; simpl; [easy| |]; rewrite IH; qlra. }
  destruct (somes l) eqn:Es; rewrite <- E; reflexivity.
Qed.
Lemma nsum_nfill0 l : nsum l = qsum (map nfill0 l).
Proof. unfold nsum. induction l as [|[x|] l IH]; simpl; [easy| |]; rewrite IH; qlra. Qed.
Lemma nsum1_None l : nsum1 l = None <-> (forall x, In x l -> x = None).
Proof.
  unfold nsum1. split.
  - destruct (somes l) eqn:E; [|easy]. intros _ [x|] Hx; [|easy].
    assert (H : In x (somes l)) by now apply In_somes. now rewrite E in H.
  - intros H. destruct (somes l) as [|x r] eqn:E; [easy|].
    assert (Hx : In x (somes l)) by (rewrite E; now left). apply In_somes in Hx. apply H in Hx. easy.
Qed.

Lemma qsum_filter {A} (f : A -> Qc) (p : A -> bool) l :
  qsum (map f (filter p l)) = qsum (map (fun x => if p x then f x else 0%Qc) l).
Proof. induction l as [|x l IH]; simpl; [easy|]. destruct (p x); simpl; rewrite IH; qlra. Qed.
Lemma qsum_indicator {A} (p : A -> bool) c l :
  qsum (map (fun x => if p x then c else 0%Qc) l) = (qn (List.length (filter p l)) * c)%Qc.
Proof.
  rewrite <- (qsum_filter (fun _ => c)). apply qsum_const.
Qed.
Lemma qsum_concat {A} (f : A -> Qc) (l : list (list A)) :
  qsum (map f (List.concat l)) = qsum (map (fun x => qsum (map f x)) l).
Proof. induction l as [|x l IH]; simpl; [easy|]. now rewrite map_app, qsum_app, IH. Qed.

Lemma nth_map_seq {A} (f : nat -> A) n i d : (i < n)%nat -> nth i (map f (seq 0 n)) d = f i.
Proof.
  intros Hi. rewrite nth_indep with (d' := f 0%nat) by (now rewrite map_length, seq_length).
  rewrite map_nth, seq_nth by easy. reflexivity.
Qed.
Lemma seq_shift_add k s n : seq (k + s) n = map (fun x => (k + x)%nat) (seq s n).
Proof.
  revert s. induction n as [|n IH]; intros s; simpl; [easy|]. f_equal.
  replace (S (k + s))%nat with (k + S s)%nat by lia. apply IH.
Qed.
Lemma Forall2_weaken {A B} (P Q : A -> B -> Prop) l l' :
  (forall a b, P a b -> Q a b) -> Forall2 P l l' -> Forall2 Q l l'.
Proof. intros H HF. induction HF; constructor; auto. Qed.
