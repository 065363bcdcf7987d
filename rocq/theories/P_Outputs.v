(** Proofs about saved outputs. *)
From Coq Require Import Sorting.Permutation Sorting.Sorted.
From Verif Require Import Prelude PreludeFacts Pandas PandasFacts M_Base M_Damage P_Base M_Outputs S_Outputs.
Set Implicit Arguments.
Local Open Scope string_scope.
Local Open Scope list_scope.

(** ** Grouping *)

Definition members (levels : list nat) (key : list string) (s : sample) : list (list num) :=
  map snd (filter (fun c => label_eqb key (pick levels (fst c))) s).

Lemma group_rows_members : forall levels key (s : sample),
  group_rows label_eqb key (map (fun c => (pick levels (fst c), snd c)) s) = members levels key s.
Proof.
  intros levels key s. unfold group_rows, members. induction s as [|c s IH]; [reflexivity|].
  cbn [map filter]. cbn [fst]. destruct (label_eqb key (pick levels (fst c))); cbn [map]; rewrite IH; reflexivity.
Qed.
Definition keys_of (levels : list nat) (s : sample) : list (list string) :=
  isort label_le (unique label_eqb (map (fun c => pick levels (fst c)) s)).
Lemma group_sum_form : forall n levels s,
  group_sum n levels s = map (fun k => (k, sum_columns n (members levels k s))) (keys_of levels s).
Proof.
  intros n levels s. unfold group_sum, groupby, keys_of. rewrite !map_map. cbn [fst snd].
  apply map_ext_in. intros k _. rewrite group_rows_members. reflexivity.
Qed.
Lemma keys_of_In : forall levels s k, In k (keys_of levels s) <-> exists c, In c s /\ k = pick levels (fst c).
Proof.
  intros levels s k. unfold keys_of. split.
  - intros H. apply (Permutation_in _ (Permutation_sym (isort_perm _ _))) in H.
    apply (proj1 (unique_In label_eqb label_eqb_eq _ _)) in H. apply in_map_iff in H as [c [<- H]]. eauto.
  - intros [c [H ->]]. apply (Permutation_in _ (isort_perm _ _)). apply (unique_In label_eqb label_eqb_eq).
    apply in_map_iff. eauto.
Qed.
Lemma keys_of_NoDup : forall levels s, NoDup (keys_of levels s).
Proof.
  intros levels s. unfold keys_of. eapply Permutation_NoDup; [apply isort_perm|]. apply (unique_NoDup label_eqb label_eqb_eq).
Qed.
Lemma keys_of_sorted : forall levels s, sorted_by label_le (keys_of levels s).
Proof. intros levels s. apply isort_sorted; [intros a b c; apply label_le_trans|intros a b; apply label_le_total]. Qed.
Lemma group_sum_In : forall n levels s key col, In (key, col) (group_sum n levels s) <->
  (exists c, In c s /\ key = pick levels (fst c)) /\ col = sum_columns n (members levels key s).
Proof.
  intros n levels s key col. rewrite group_sum_form, in_map_iff. split.
  - intros [k [E H]]. injection E as -> <-. split; [|reflexivity]. apply keys_of_In, H.
  - intros [H ->]. exists key. split; [reflexivity|]. apply keys_of_In, H.
Qed.
Lemma nth_sum : forall n cols i, (i < n)%nat -> nth i (sum_columns n cols) None = nsum1 (map (fun c => nth i c None) cols).
Proof. intros n cols i H. unfold sum_columns. rewrite nth_map_seq by exact H. reflexivity. Qed.
Lemma nsum1_same : forall l l', qsum (map nfill0 l) = qsum (map nfill0 l') ->
  ((forall x, In x l -> x = None) <-> (forall x, In x l' -> x = None)) -> nsum1 l = nsum1 l'.
Proof.
  intros l l' Hs Hn. destruct (nsum1 l) as [a|] eqn:E; destruct (nsum1 l') as [b|] eqn:E'.
  - f_equal. pose proof (nsum1_nfill0 l) as A. pose proof (nsum1_nfill0 l') as B. rewrite E in A. rewrite E' in B.
    cbn [nfill0] in A, B. congruence.
  - pose proof (proj2 (nsum1_None l) (proj2 Hn (proj1 (nsum1_None l') E'))) as X. congruence.
  - pose proof (proj2 (nsum1_None l') (proj1 Hn (proj1 (nsum1_None l) E))) as X. congruence.
  - reflexivity.
Qed.
(** A group adds up its members. *)
Lemma members_amount : forall levels key i s,
  qsum (map nfill0 (map (fun c => nth i c None) (members levels key s))) = amount (fun l => label_eqb key (pick levels l)) i s.
Proof. intros levels key i s. unfold members, amount. rewrite !map_map. reflexivity. Qed.
Lemma members_missing : forall levels key i s,
  (forall x, In x (map (fun c => nth i c None) (members levels key s)) -> x = None) <-> all_missing (fun l => label_eqb key (pick levels l)) i s.
Proof.
  intros levels key i s. unfold members, all_missing. rewrite map_map. split.
  - intros H c Hc E. apply H. apply in_map_iff. exists c. split; [reflexivity|]. apply filter_In. auto.
  - intros H x Hx. apply in_map_iff in Hx as [c [<- Hc]]. apply filter_In in Hc as [Hc E]. apply (H c Hc E).
Qed.

(** The sum over the groups with some property of the key is the sum over their members. *)
Lemma amount_group : forall n levels s (p : list string -> bool) i, (i < n)%nat ->
  amount p i (group_sum n levels s) = amount (fun l => p (pick levels l)) i s.
Proof.
  intros n levels s p i Hi. unfold amount. rewrite !qsum_filter.
  unfold group_sum. rewrite map_map. cbn [fst snd].
  transitivity (qsum (map (fun g : list string * list (list num) => qsum (map (fun c : list num => if p (fst g) then nfill0 (nth i c None) else 0%Qc) (snd g)))
     (groupby label_eqb label_le (map (fun c => (pick levels (fst c), snd c)) s)))).
  - apply qsum_map_ext. intros g _. rewrite nth_sum by exact Hi. rewrite nsum1_nfill0, map_map.
    set (b := p (fst g)). clearbody b. destruct b; [reflexivity|]. induction (snd g) as [|c l IH]; [reflexivity|]. cbn [map]. rewrite qsum_cons, <- IH. qlra.
  - rewrite (@qsum_groupby _ _ label_eqb label_eqb_eq label_le (fun k (c : list num) => if p k then nfill0 (nth i c None) else 0%Qc)).
    rewrite map_map. reflexivity.
Qed.
Lemma missing_group : forall n levels s (p : list string -> bool) i, (i < n)%nat ->
  all_missing p i (group_sum n levels s) <-> all_missing (fun l => p (pick levels l)) i s.
Proof.
  intros n levels s p i Hi. split.
  - intros H c Hc E. assert (G : In (pick levels (fst c), sum_columns n (members levels (pick levels (fst c)) s)) (group_sum n levels s))
      by (apply group_sum_In; split; [exists c; auto|reflexivity]).
    specialize (H _ G E). cbn [snd] in H. rewrite nth_sum in H by exact Hi. apply nsum1_None with (x := nth i (snd c) None) in H; [exact H|].
    apply in_map_iff. exists (snd c). split; [reflexivity|]. unfold members. apply in_map_iff. exists c. split; [reflexivity|].
    apply filter_In. split; [exact Hc|]. apply label_eqb_eq. reflexivity.
  - intros H [key col] G E. cbn [fst snd] in *. apply group_sum_In in G as [_ ->]. rewrite nth_sum by exact Hi.
    apply nsum1_None. intros x Hx. apply in_map_iff in Hx as [y [<- Hy]]. unfold members in Hy. apply in_map_iff in Hy as [c [<- Hc]].
    apply filter_In in Hc as [Hc Ek]. apply label_eqb_eq in Ek. subst key. apply (H c Hc E).
Qed.

(** Grouping twice. *)
Lemma group_twice : forall n a b ab s, (forall l, pick b (pick a l) = pick ab l) ->
  group_sum n b (group_sum n a s) = group_sum n ab s.
Proof.
  intros n a b ab s H. rewrite (group_sum_form n b), (group_sum_form n ab).
  assert (K : keys_of b (group_sum n a s) = keys_of ab s).
  { apply (@sorted_perm_unique _ label_le).
    - intros x y. apply label_le_antisym.
    - apply keys_of_sorted.
    - apply keys_of_sorted.
    - apply NoDup_Permutation; [apply keys_of_NoDup|apply keys_of_NoDup|]. intros k. rewrite !keys_of_In. split.
      + intros [[key col] [Hc ->]]. apply group_sum_In in Hc as [[c [Hc ->]] _]. exists c. cbn [fst]. rewrite H. auto.
      + intros [c [Hc ->]]. exists (pick a (fst c), sum_columns n (members a (pick a (fst c)) s)).
        cbn [fst]. rewrite H. split; [|reflexivity]. apply group_sum_In. split; [exists c; auto|reflexivity]. }
  rewrite K. apply map_ext. intros k. f_equal. unfold sum_columns. apply map_ext_in. intros i Hi. apply in_seq in Hi.
  apply nsum1_same.
  - rewrite !members_amount. rewrite amount_group by lia. unfold amount. f_equal. f_equal. apply filter_ext. intros c. rewrite H. reflexivity.
  - rewrite !members_missing. rewrite missing_group by lia. unfold all_missing. setoid_rewrite H. reflexivity.
Qed.

(** ** Condensed damage *)

Lemma by_location : forall n colocated s, damage_by_location n colocated s = group_sum n [0; 1; 4]%nat s.
Proof.
  intros n [|] s; unfold damage_by_location; [|reflexivity]. apply group_twice. intros l. reflexivity.
Qed.
Lemma location_key : forall c l d lab,
  label_eqb [c; l; d] (pick [0; 1; 4]%nat lab) = (level_is 0 c lab && level_is 1 l lab && level_is 4 d lab)%bool.
Proof.
  intros c l d lab. unfold pick, level_is. cbn [map]. apply eq_iff_eq_true. rewrite label_eqb_eq, !andb_true_iff, !String.eqb_eq.
  split; [intros E; injection E as -> -> ->; auto|intros [[<- <-] <-]; reflexivity].
Qed.

Lemma fold_Qcmax : forall l x m, fold_left Qcmax l x = m -> (m = x \/ In m l) /\ (x <= m)%Qc /\ (forall y, In y l -> (y <= m)%Qc).
Proof.
  induction l as [|a l IH]; intros x m H; cbn [fold_left] in H.
  - subst m. split; [left; reflexivity|]. split; [apply Qcle_refl|intros y []].
  - destruct (IH _ _ H) as [H1 [H2 H3]]. unfold Qcmax in H1, H2. destruct (Qclt_le_dec x a) as [L|L].
    + split; [destruct H1 as [->|H1]; right; [left; reflexivity|right; exact H1]|].
      split; [apply Qclt_le_weak in L; apply (Qcle_trans _ _ _ L H2)|].
      intros y [<-|Hy]; [exact H2|apply H3, Hy].
    + split; [destruct H1 as [->|H1]; [left; reflexivity|right; right; exact H1]|].
      split; [exact H2|]. intros y [<-|Hy]; [apply (Qcle_trans _ _ _ L H2)|apply H3, Hy].
Qed.
Lemma nmax1_None : forall l, nmax1 l = None <-> (forall x, In x l -> x = None).
Proof.
  intros l. unfold nmax1. split.
  - destruct (somes l) as [|a r] eqn:E; [|discriminate]. intros _ [x|] Hx; [|reflexivity].
    apply In_somes in Hx. rewrite E in Hx. destruct Hx.
  - intros H. destruct (somes l) as [|a r] eqn:E; [reflexivity|].
    assert (X : In a (somes l)) by (rewrite E; left; reflexivity). apply In_somes in X. apply H in X. discriminate.
Qed.
Lemma nmax1_Some : forall l m, nmax1 l = Some m -> In (Some m) l /\ (forall x, In (Some x) l -> (x <= m)%Qc).
Proof.
  intros l m H. unfold nmax1 in H. destruct (somes l) as [|a r] eqn:E; [discriminate|]. injection H as H.
  destruct (fold_Qcmax _ _ H) as [H1 [H2 H3]]. split.
  - apply In_somes. rewrite E. destruct H1 as [->|H1]; [left; reflexivity|right; exact H1].
  - intros x Hx. apply In_somes in Hx. rewrite E in Hx. destruct Hx as [<-|Hx]; [exact H2|apply H3, Hx].
Qed.

Lemma amount_cons : forall p i (c : list string * list num) s,
  amount p i (c :: s) = if p (fst c) then (nfill0 (nth i (snd c) None) + amount p i s)%Qc else amount p i s.
Proof. intros p i c s. unfold amount. cbn [filter]. destruct (p (fst c)); [|reflexivity]. cbn [map]. apply qsum_cons. Qed.
Lemma amount_nonneg : forall p i (s : sample), (forall (c : list string * list num) q, In c s -> nth i (snd c) None = Some q -> (0 <= q)%Qc) -> (0 <= amount p i s)%Qc.
Proof.
  intros p i s H. induction s as [|c s IH]; [apply Qcle_refl|].
  assert (IH' := IH (fun c' q Hc => H c' q (or_intror Hc))). rewrite amount_cons. destruct (p (fst c)); [|exact IH'].
  set (x := amount p i s) in *. clearbody x. destruct (nth i (snd c) None) as [q|] eqn:E.
  - specialize (H c q (or_introl eq_refl) E). cbn [nfill0]. clear - H IH'. qlra.
  - cbn [nfill0]. clear - IH'. qlra.
Qed.
Lemma amount_pos_member : forall p i s, (0 < amount p i s)%Qc -> exists c : list string * list num, In c s /\ p (fst c) = true /\ nth i (snd c) None <> None.
Proof.
  intros p i s. induction s as [|c s IH]; intros H; [cbn in H; apply Qclt_not_eq in H; contradiction|].
  rewrite amount_cons in H. destruct (p (fst c)) eqn:E.
  - destruct (nth i (snd c) None) as [q|] eqn:En.
    + exists c. rewrite En. split; [left; reflexivity|]. split; [exact E|discriminate].
    + cbn [nfill0] in H. destruct IH as [c' [H1 H2]]; [set (x := amount p i s) in *; clearbody x; clear - H; qlra|].
      exists c'. split; [right; exact H1|exact H2].
  - destruct (IH H) as [c' [H1 H2]]. exists c'. split; [right; exact H1|exact H2].
Qed.

(** The condensed columns: the cells behind each. *)
Lemma condensed_form : forall n colocated s out, damage_condensed n colocated s = Ok out ->
  (forall key col, In (key, col) out -> exists c, In c s /\ key = pick [0; 1]%nat (fst c)) /\
  (forall c, In c s -> exists col, In (pick [0; 1]%nat (fst c), col) out) /\ NoDup (map fst out) /\
  forall key col i, In (key, col) out -> (i < n)%nat ->
    exists cells, nth i col None = nmax1 cells /\
      forall v, In v cells <-> exists c d, In c s /\ pick [0; 1]%nat (fst c) = key /\ pyint (nth 4 (fst c) "") = Some d /\
        v = condense_value d (nsum1 (map (fun x => nth i x None) (members [0; 1; 4]%nat (pick [0; 1; 4]%nat (fst c)) s))).
Proof.
  intros n colocated s out H. unfold damage_condensed in H. rewrite by_location in H.
  destruct (mapM _ (group_sum n [0; 1; 4]%nat s)) as [cols|e] eqn:E; cbn [bind] in H; [|discriminate]. injection H as <-.
  apply (proj1 (@mapM_Forall2 _ _ _ _ _)) in E.
  assert (C1 : forall x, In x cols -> exists c d, In c s /\ fst x = pick [0; 1]%nat (fst c) /\ pyint (nth 4 (fst c) "") = Some d /\
      snd x = map (condense_value d) (sum_columns n (members [0; 1; 4]%nat (pick [0; 1; 4]%nat (fst c)) s))).
  { intros x Hx. destruct (@Forall2_In_r _ _ _ _ _ _ E Hx) as [[key col] [Hy Ey]].
    apply group_sum_In in Hy as [[c [Hc ->]] ->]. cbn [fst snd] in Ey.
    change (nth 2 (pick [0; 1; 4]%nat (fst c)) "") with (nth 4 (fst c) "") in Ey.
    destruct (pyint (nth 4 (fst c) "")) as [d|] eqn:Ed; [|discriminate]. injection Ey as <-. exists c, d. auto. }
  assert (C2 : forall c, In c s -> exists d, pyint (nth 4 (fst c) "") = Some d /\
      In (pick [0; 1]%nat (fst c), map (condense_value d) (sum_columns n (members [0; 1; 4]%nat (pick [0; 1; 4]%nat (fst c)) s))) cols).
  { intros c Hc. assert (G : In (pick [0; 1; 4]%nat (fst c), sum_columns n (members [0; 1; 4]%nat (pick [0; 1; 4]%nat (fst c)) s)) (group_sum n [0; 1; 4]%nat s))
      by (apply group_sum_In; split; [exists c; auto|reflexivity]).
    destruct (@Forall2_In_l _ _ _ _ _ _ E G) as [y [Hy Ey]]. cbn [fst snd] in Ey.
    change (nth 2 (pick [0; 1; 4]%nat (fst c)) "") with (nth 4 (fst c) "") in Ey.
    destruct (pyint (nth 4 (fst c) "")) as [d|] eqn:Ed; [|discriminate]. injection Ey as <-. exists d. auto. }
  split; [|split; [|split]].
  - intros key col Hk. apply in_map_iff in Hk as [[k rows] [Ek Hk]]. injection Ek as <- _.
    apply (groupby_In label_eqb label_le label_eqb_eq) in Hk as [Hk _]. apply in_map_iff in Hk as [x [Ex Hx]]. cbn [fst] in Ex |- *. subst k.
    destruct (C1 x Hx) as [c [d [Hc [E1 _]]]]. exists c. auto.
  - intros c Hc. destruct (C2 c Hc) as [d [_ Hin]]. eexists. apply in_map_iff.
    exists (pick [0; 1]%nat (fst c), group_rows label_eqb (pick [0; 1]%nat (fst c)) cols). split; [reflexivity|].
    apply (groupby_In label_eqb label_le label_eqb_eq). split; [|reflexivity]. apply in_map_iff. eexists. split; [|exact Hin]. reflexivity.
  - rewrite map_map. cbn [fst]. apply groupby_NoDup. apply label_eqb_eq.
  - intros key col i Hk Hi. apply in_map_iff in Hk as [[k rows] [Ek Hk]]. injection Ek as <- <-. cbn [fst snd] in *.
    rewrite nth_map_seq by exact Hi. eexists. split; [reflexivity|].
    apply (groupby_In label_eqb label_le label_eqb_eq) in Hk as [_ ->]. intros v. rewrite in_map_iff. split.
    + intros [x [<- Hx]]. apply (In_group_rows label_eqb label_eqb_eq) in Hx. destruct (C1 _ Hx) as [c [d [Hc [E1 [E2 E3]]]]].
      cbn [fst snd] in E1, E3. exists c, d. subst k x. split; [exact Hc|]. split; [reflexivity|]. split; [exact E2|].
      change (@None Qc) with (condense_value d None) at 1. rewrite map_nth. rewrite nth_sum by exact Hi. reflexivity.
    + intros [c [d [Hc [<- [Ed ->]]]]]. destruct (C2 c Hc) as [d' [Ed' Hin]]. rewrite Ed in Ed'. injection Ed' as <-.
      eexists. split; [|apply (In_group_rows label_eqb label_eqb_eq); exact Hin].
      change (@None Qc) with (condense_value d None) at 1. rewrite map_nth. rewrite nth_sum by exact Hi. reflexivity.
Qed.

Lemma qz_nonneg : forall d, (0 <= d)%Z -> (0 <= qz d)%Qc.
Proof.
  intros d H. unfold qz, Qcle. cbn [this Q2Qc]. rewrite !Qred_correct. change 0%Q with (inject_Z 0). rewrite <- Zle_Qle. exact H.
Qed.
Lemma location_pair : forall c l lab, pick [0; 1]%nat lab = [c; l] <-> level_is 0 c lab = true /\ level_is 1 l lab = true.
Proof.
  intros c l lab. unfold pick, level_is. cbn [map]. rewrite !String.eqb_eq. split; [intros E; injection E as -> ->; auto|intros [<- <-]; reflexivity].
Qed.
Lemma amount_ext : forall p q i (s : sample), (forall c, In c s -> p (fst c) = q (fst c)) -> amount p i s = amount q i s.
Proof.
  intros p q i s H. induction s as [|c s IH]; [reflexivity|]. rewrite !amount_cons. rewrite IH by (intros; apply H; right; assumption).
  rewrite (H c) by (left; reflexivity). reflexivity.
Qed.
(** One cell: damage state [ds] at a location, in one realization. *)
Lemma cell : forall s cmp loc (c : list string * list num) i, pick [0; 1]%nat (fst c) = [cmp; loc] ->
  nfill0 (nsum1 (map (fun x => nth i x None) (members [0; 1; 4]%nat (pick [0; 1; 4]%nat (fst c)) s))) = quantity s cmp loc (nth 4 (fst c) "") i.
Proof.
  intros s cmp loc c i E. rewrite nsum1_nfill0, members_amount. unfold quantity. apply amount_ext. intros c' _.
  change (pick [0; 1; 4]%nat (fst c)) with (pick [0; 1]%nat (fst c) ++ [nth 4 (fst c) ""]). rewrite E. apply location_key.
Qed.
Lemma condensed_value : forall n colocated s out cmp loc col i,
  damage_condensed n colocated s = Ok out -> In ([cmp; loc], col) out -> (i < n)%nat ->
  (forall (c : list string * list num) q, In c s -> nth i (snd c) None = Some q -> (0 <= q)%Qc) ->
  (forall (c : list string * list num) d, In c s -> pyint (nth 4 (fst c) "") = Some d -> (0 <= d)%Z) ->
  match nth i col None with
  | Some v => governing s cmp loc i v
  | None => all_missing (fun l => level_is 0 cmp l && level_is 1 loc l)%bool i s
  end.
Proof.
  intros n colocated s out cmp loc col i H Hc Hi Hq Hd.
  destruct (condensed_form _ _ _ H) as [_ [_ [_ F]]]. destruct (F _ _ _ Hc Hi) as [cells [-> C]]. clear F.
  set (q := fun c : list string * list num => nsum1 (map (fun x => nth i x None) (members [0; 1; 4]%nat (pick [0; 1; 4]%nat (fst c)) s))) in C.
  destruct (nmax1 cells) as [v|] eqn:E.
  - apply nmax1_Some in E as [E1 E2].
    assert (U : forall ds d, (0 < quantity s cmp loc ds i)%Qc -> pyint ds = Some d -> (qz d <= v)%Qc /\ (0 <= d)%Z).
    { intros ds d Hp Ed. destruct (amount_pos_member _ _ _ Hp) as [c [Hin [Ec _]]]. rewrite !andb_true_iff in Ec. destruct Ec as [[Ec1 Ec2] Ec3].
      unfold level_is in Ec3. apply String.eqb_eq in Ec3. assert (K : pick [0; 1]%nat (fst c) = [cmp; loc]) by (apply location_pair; auto).
      pose proof (cell s c i K) as Q. fold (q c) in Q. rewrite Ec3 in Q. split; [|apply (Hd c d Hin); rewrite Ec3; exact Ed].
      apply E2, C. exists c, d. split; [exact Hin|]. split; [exact K|]. split; [rewrite Ec3; exact Ed|]. fold (q c).
      destruct (q c) as [x|]; cbn [nfill0] in Q; [|rewrite <- Q in Hp; apply Qclt_not_eq in Hp; contradiction].
      cbn [condense_value]. subst x. destruct (Qcltb 0 (quantity s cmp loc ds i)) eqn:B; [reflexivity|].
      apply Qcltb_false in B. exfalso. apply (Qclt_not_le _ _ Hp B). }
    split; [intros ds d Hp Ed; apply (U ds d Hp Ed)|].
    apply C in E1 as [c [d [Hin [K [Ed Ev]]]]]. fold (q c) in Ev. pose proof (cell s c i K) as Q. fold (q c) in Q.
    destruct (q c) as [x|]; cbn [nfill0 condense_value] in Q, Ev; [|discriminate]. injection Ev as Ev.
    destruct (Qcltb 0 x) eqn:B.
    + left. exists (nth 4 (fst c) ""), d. apply Qcltb_true in B. rewrite <- Q. auto.
    + assert (X : x = 0%Qc).
      { apply Qcltb_false in B. apply Qcle_antisym; [exact B|]. rewrite Q. apply amount_nonneg. exact Hq. }
      rewrite X in Ev. assert (V : v = 0%Qc) by (rewrite Ev; qlra). clear Ev.
      destruct (existsb (fun c' : list string * list num => Qcltb 0 (quantity s cmp loc (nth 4 (fst c') "") i)) s) eqn:B2.
      * left. apply existsb_exists in B2 as [c' [Hin' B2]]. apply Qcltb_true in B2.
        destruct (amount_pos_member _ _ _ B2) as [c2 [Hin2 [Ec2 _]]]. rewrite !andb_true_iff in Ec2. destruct Ec2 as [[Ec3 Ec4] Ec5].
        unfold level_is in Ec5. apply String.eqb_eq in Ec5. assert (K2 : pick [0; 1]%nat (fst c2) = [cmp; loc]) by (apply location_pair; auto).
        assert (P : exists d', pyint (nth 4 (fst c2) "") = Some d').
        { clear - H Hin2. unfold damage_condensed in H. rewrite by_location in H.
          destruct (mapM _ (group_sum n [0; 1; 4]%nat s)) as [cols|e] eqn:E; cbn [bind] in H; [|discriminate].
          apply (proj1 (@mapM_Forall2 _ _ _ _ _)) in E.
          assert (G : In (pick [0; 1; 4]%nat (fst c2), sum_columns n (members [0; 1; 4]%nat (pick [0; 1; 4]%nat (fst c2)) s)) (group_sum n [0; 1; 4]%nat s))
            by (apply group_sum_In; split; [exists c2; auto|reflexivity]).
          destruct (@Forall2_In_l _ _ _ _ _ _ E G) as [y [Hy Ey]]. cbn [fst snd] in Ey.
          change (nth 2 (pick [0; 1; 4]%nat (fst c2)) "") with (nth 4 (fst c2) "") in Ey.
          destruct (pyint (nth 4 (fst c2) "")) as [d'|]; [eauto|discriminate]. }
        destruct P as [d' P]. exists (nth 4 (fst c') ""), d'. rewrite <- Ec5. split; [rewrite Ec5; exact B2|]. split; [exact P|].
        destruct (U (nth 4 (fst c') "") d' B2) as [U1 U2]; [rewrite <- Ec5; exact P|].
        apply Qcle_antisym; [|exact U1]. rewrite V. clear - U2. apply qz_nonneg, U2.
      * right. split; [exact V|]. intros ds Hp. destruct (amount_pos_member _ _ _ Hp) as [c' [Hin' [Ec _]]].
        rewrite !andb_true_iff in Ec. destruct Ec as [_ Ec]. unfold level_is in Ec. apply String.eqb_eq in Ec.
        assert (Y : existsb (fun c' : list string * list num => Qcltb 0 (quantity s cmp loc (nth 4 (fst c') "") i)) s = true).
        { apply existsb_exists. exists c'. split; [exact Hin'|]. apply Qcltb_true. rewrite Ec. exact Hp. }
        congruence.
  - intros c Hin Ec. apply andb_true_iff in Ec as [Ec1 Ec2]. assert (K : pick [0; 1]%nat (fst c) = [cmp; loc]) by (apply location_pair; auto).
    assert (P : exists d', pyint (nth 4 (fst c) "") = Some d').
    { clear - H Hin. unfold damage_condensed in H. rewrite by_location in H.
      destruct (mapM _ (group_sum n [0; 1; 4]%nat s)) as [cols|e] eqn:E; cbn [bind] in H; [|discriminate].
      apply (proj1 (@mapM_Forall2 _ _ _ _ _)) in E.
      assert (G : In (pick [0; 1; 4]%nat (fst c), sum_columns n (members [0; 1; 4]%nat (pick [0; 1; 4]%nat (fst c)) s)) (group_sum n [0; 1; 4]%nat s))
        by (apply group_sum_In; split; [exists c; auto|reflexivity]).
      destruct (@Forall2_In_l _ _ _ _ _ _ E G) as [y [Hy Ey]]. cbn [fst snd] in Ey.
      change (nth 2 (pick [0; 1; 4]%nat (fst c)) "") with (nth 4 (fst c) "") in Ey.
      destruct (pyint (nth 4 (fst c) "")) as [d'|]; [eauto|discriminate]. }
    destruct P as [d P]. pose proof (proj1 (nmax1_None _) E (condense_value d (q c))) as X.
    assert (Y : condense_value d (q c) = None) by (apply X, C; exists c, d; auto).
    destruct (q c) as [x|] eqn:Q; [discriminate|]. unfold q in Q.
    apply nsum1_None with (x := nth i (snd c) None) in Q; [exact Q|].
    apply in_map_iff. exists (snd c). split; [reflexivity|]. unfold members. apply in_map_iff. exists c. split; [reflexivity|].
    apply filter_In. split; [exact Hin|]. apply label_eqb_eq. reflexivity.
Qed.
Lemma condensed_ok : forall n colocated s,
  (exists out, damage_condensed n colocated s = Ok out) <-> (forall c : list string * list num, In c s -> pyint (nth 4 (fst c) "") <> None).
Proof.
  intros n colocated s. split.
  - intros [out H] c Hin. unfold damage_condensed in H. rewrite by_location in H.
    destruct (mapM _ (group_sum n [0; 1; 4]%nat s)) as [cols|e] eqn:E; cbn [bind] in H; [|discriminate].
    apply (proj1 (@mapM_Forall2 _ _ _ _ _)) in E.
    assert (G : In (pick [0; 1; 4]%nat (fst c), sum_columns n (members [0; 1; 4]%nat (pick [0; 1; 4]%nat (fst c)) s)) (group_sum n [0; 1; 4]%nat s))
      by (apply group_sum_In; split; [exists c; auto|reflexivity]).
    destruct (@Forall2_In_l _ _ _ _ _ _ E G) as [y [Hy Ey]]. cbn [fst snd] in Ey.
    change (nth 2 (pick [0; 1; 4]%nat (fst c)) "") with (nth 4 (fst c) "") in Ey. intros X. rewrite X in Ey. discriminate.
  - intros H. unfold damage_condensed. rewrite by_location.
    assert (M : exists cols, mapM (fun c : list string * list num => match pyint (nth 2 (fst c) "") with
        | Some d => Ok (pick [0; 1]%nat (fst c), map (condense_value d) (snd c)) | None => Err ValueError end) (group_sum n [0; 1; 4]%nat s) = Ok cols).
    { assert (A : forall x, In x (group_sum n [0; 1; 4]%nat s) -> exists d, pyint (nth 2 (fst x) "") = Some d).
      { intros [key col] Hx. apply group_sum_In in Hx as [[c [Hc ->]] _]. cbn [fst].
        change (nth 2 (pick [0; 1; 4]%nat (fst c)) "") with (nth 4 (fst c) ""). specialize (H c Hc).
        destruct (pyint (nth 4 (fst c) "")) as [d|]; [eauto|congruence]. }
      clear - A. induction (group_sum n [0; 1; 4]%nat s) as [|x l IH]; [exists []; reflexivity|].
      destruct IH as [cols IH]; [intros y Hy; apply A; right; exact Hy|]. destruct (A x (or_introl eq_refl)) as [d Ed].
      cbn [mapM]. rewrite Ed. cbn [bind]. rewrite IH. cbn [bind]. eauto. }
    destruct M as [cols M]. rewrite M. cbn [bind]. eauto.
Qed.

(** ** Files *)

(** Each possible file and whether it is requested. *)
Definition offers (o : dict json) : list (bool * string) :=
  let d := requested (section o "Demand") in
  let a := requested (section o "Asset") in
  let g := requested (section o "Damage") in
  let l := requested (section (section o "Loss") "Repair") in
  [(mem "Sample" d, "DEM_sample.zip"); (mem "Statistics" d, "DEM_stats.csv");
   (mem "Sample" a, "CMP_sample.zip"); (mem "Statistics" a, "CMP_stats.csv");
   (mem "Sample" g, "DMG_sample.zip"); (mem "Statistics" g, "DMG_stats.csv");
   (mem "GroupedSample" g, "DMG_grp.zip"); (mem "GroupedStatistics" g, "DMG_grp_stats.csv");
   (mem "Sample" l, "DV_repair_sample.zip"); (mem "Statistics" l, "DV_repair_stats.csv");
   (mem "GroupedSample" l, "DV_repair_grp.zip"); (mem "GroupedStatistics" l, "DV_repair_grp_stats.csv");
   (mem "AggregateSample" l, "DV_repair_agg.zip"); (mem "AggregateStatistics" l, "DV_repair_agg_stats.csv");
   (true, "DL_summary.csv"); (true, "DL_summary_stats.csv")].
Lemma out_files_form : forall o, out_files o = flat_map (fun t : bool * string => if fst t then [snd t] else []) (offers o).
Proof.
  intros o. unfold out_files, demand_files, asset_files, damage_files, loss_files, if_requested, offers.
  cbn [flat_map fst snd]. rewrite <- !app_assoc. reflexivity.
Qed.
Lemma offers_names : forall o, map snd (offers o) = known_output_files.
Proof. intros o. reflexivity. Qed.
Lemma flat_offers_NoDup : forall (l : list (bool * string)), NoDup (map snd l) -> NoDup (flat_map (fun t : bool * string => if fst t then [snd t] else []) l).
Proof.
  induction l as [|[[|] f] l IH]; intros H; cbn [flat_map fst snd app map] in *; [constructor| |].
  - apply NoDup_cons_iff in H as [H1 H2]. constructor; [|apply IH, H2]. intros X. apply H1.
    apply in_flat_map in X as [[b g] [Hx Hg]]. cbn [fst snd] in Hg. destruct b; [|destruct Hg]. destruct Hg as [<-|[]].
    apply in_map_iff. exists (true, g). auto.
  - apply NoDup_cons_iff in H as [_ H]. apply IH, H.
Qed.
Lemma known_NoDup : NoDup known_output_files.
Proof. repeat (constructor; [cbn [In]; intros H; repeat (destruct H as [H|H]; [discriminate|]); destruct H|]). constructor. Qed.
Lemma out_files_NoDup : forall o, NoDup (out_files o).
Proof. intros o. rewrite out_files_form. apply flat_offers_NoDup. rewrite offers_names. apply known_NoDup. Qed.
Lemma out_files_known : forall o f, In f (out_files o) -> In f known_output_files.
Proof.
  intros o f H. rewrite out_files_form in H. apply in_flat_map in H as [[b g] [Hx Hg]]. cbn [fst snd] in Hg.
  destruct b; [|destruct Hg]. destruct Hg as [<-|[]]. rewrite <- (offers_names o). apply in_map_iff. exists (true, g). auto.
Qed.
Lemma wants_requested : forall sect o what, wants o sect what <-> In what (requested (fold_left section sect o)).
Proof.
  induction sect as [|k sect IH]; intros o what; cbn [wants fold_left].
  - unfold requested. rewrite in_map_iff. split.
    + intros H. exists (what, JBool true). split; [reflexivity|]. apply filter_In. auto.
    + intros [[w v] [<- H]]. apply filter_In in H as [H B]. cbn [fst snd] in *. destruct v as [| |[|]| | | |]; try discriminate. exact H.
  - rewrite <- IH. unfold section. split.
    + intros (d & -> & W). exact W.
    + intros W. assert (N : ~ wants [] sect what).
      { clear. destruct sect as [|k2 sect]; cbn [wants dget In]; [easy|]. intros (d & E & _). discriminate. }
      destruct (dget k o) as [v|]; [destruct v; try tauto|tauto]. eexists. split; [reflexivity|exact W].
Qed.
Lemma out_files_In : forall o f, In f (out_files o) <-> produces o f \/ summary_file f.
Proof.
  intros o f. rewrite out_files_form, in_flat_map. split.
  - intros [[b g] [Hx Hg]]. cbn [fst snd] in Hg. destruct b; [|destruct Hg]. destruct Hg as [<-|[]].
    unfold offers in Hx. cbn [In] in Hx. unfold summary_file.
    repeat (destruct Hx as [Hx|Hx]; [apply pair_equal_spec in Hx as [Hb <-]; try (apply mem_true in Hb; left; constructor; apply wants_requested; exact Hb); right; auto|]).
    destruct Hx.
  - intros [H|H].
    + exists (true, f). split; [|left; reflexivity]. unfold offers. inversion H as [W|W|W|W|W|W|W|W|W|W|W|W|W|W]; subst f; apply wants_requested in W; cbn [fold_left] in W;
        apply mem_true in W; rewrite W; cbn [In]; tauto.
    + exists (true, f). split; [|left; reflexivity]. unfold offers. destruct H as [-> | ->]; cbn [In]; tauto.
Qed.
Lemma json_name_unknown : forall f, In f known_output_files -> ~ In (json_name f) known_output_files.
Proof.
  intros f H. unfold known_output_files in H. cbn [In] in H.
  repeat (destruct H as [<-|H]; [apply mem_false; vm_compute; reflexivity|]). destruct H.
Qed.
Lemma summary_name : forall f, In f known_output_files -> contains "DL_summary" f = true <-> summary_file f.
Proof.
  intros f H. unfold known_output_files in H. cbn [In] in H. unfold summary_file.
  repeat (destruct H as [<-|H]; [vm_compute; split; [intros X; try discriminate; auto|intros [X|X]; try discriminate; reflexivity]|]). destruct H.
Qed.

Lemma write_all_get : forall made fs dir f, dget f (write_all made fs dir) = if mem f fs then Some (made f) else dget f dir.
Proof.
  intros made fs. unfold write_all. induction fs as [|g fs IH]; intros dir f; cbn [fold_left]; [reflexivity|].
  rewrite IH. destruct (mem f fs) eqn:E.
  - assert (X : mem f (g :: fs) = true) by (apply mem_true; right; apply mem_true; exact E). rewrite X. reflexivity.
  - destruct (String.eqb f g) eqn:Eg.
    + apply String.eqb_eq in Eg. subst g. rewrite dget_dset_eq.
      assert (X : mem f (f :: fs) = true) by (apply mem_true; left; reflexivity). rewrite X. reflexivity.
    + apply String.eqb_neq in Eg. rewrite dget_dset_ne by congruence.
      assert (X : mem f (g :: fs) = false) by (apply mem_false; apply mem_false in E; intros [X|X]; [congruence|contradiction]).
      rewrite X. reflexivity.
Qed.
Lemma remove_existing_get : forall known dir f, dget f (remove_existing known dir) = if mem f known then None else dget f dir.
Proof.
  intros known dir f. unfold remove_existing. induction dir as [|[g v] dir IH]; cbn [filter fst]; [cbn; destruct (mem f known); reflexivity|].
  destruct (mem g known) eqn:Eg; cbn [negb].
  - rewrite IH. cbn [dget]. destruct (String.eqb f g) eqn:E; [|reflexivity]. apply String.eqb_eq in E. subst g. rewrite Eg. reflexivity.
  - cbn [dget]. destruct (String.eqb f g) eqn:E; [|exact IH]. apply String.eqb_eq in E. subst g. rewrite Eg. reflexivity.
Qed.
Lemma remove_fold : forall fs (dir : directory), NoDup fs -> (forall f, In f fs -> exists v, dget f dir = Some v) ->
  exists dir', foldM (fun d f => if contains "DL_summary" f then Ok d
                                 else if dmem f d then Ok (ddel f d) else Err FileNotFoundError) dir fs = Ok dir' /\
    forall f, dget f dir' = if (mem f fs && negb (contains "DL_summary" f))%bool then None else dget f dir.
Proof.
  induction fs as [|g fs IH]; intros dir Hn Hp; cbn [foldM].
  - exists dir. split; [reflexivity|]. intros f. reflexivity.
  - apply NoDup_cons_iff in Hn as [Hg Hn]. destruct (contains "DL_summary" g) eqn:Ec; cbn [bind].
    + destruct (IH dir Hn) as [dir' [E F]]; [intros f Hf; apply Hp; right; exact Hf|]. exists dir'. split; [exact E|].
      intros f. rewrite F. destruct (String.eqb f g) eqn:Eg.
      * apply String.eqb_eq in Eg. subst g. rewrite Ec. cbn [negb]. rewrite !andb_false_r. reflexivity.
      * unfold mem. cbn [existsb]. rewrite Eg. reflexivity.
    + destruct (Hp g (or_introl eq_refl)) as [v Ev]. assert (M : dmem g dir = true) by (unfold dmem; rewrite Ev; reflexivity).
      rewrite M. cbn [bind]. destruct (IH (ddel g dir) Hn) as [dir' [E F]].
      * intros f Hf. rewrite dget_ddel_ne by (intros ->; contradiction). apply Hp. right. exact Hf.
      * exists dir'. split; [exact E|]. intros f. rewrite F. destruct (String.eqb f g) eqn:Eg.
        -- apply String.eqb_eq in Eg. subst g. rewrite Ec, dget_ddel_eq. unfold mem at 2. cbn [existsb]. rewrite String.eqb_refl.
           cbn [orb negb andb]. destruct (mem f fs); reflexivity.
        -- apply String.eqb_neq in Eg. rewrite dget_ddel_ne by exact Eg. unfold mem at 2. cbn [existsb].
           apply String.eqb_neq in Eg. rewrite Eg. reflexivity.
Qed.

Lemma directory_form : forall made o dir, exists dir', run_directory made o dir = Ok dir' /\
  forall f, dget f dir' =
    if (mem f (out_files o) && (match get_keys (JDict o) ["Format"; "CSV"] (JBool false) with JBool true => true | _ => contains "DL_summary" f end))%bool then Some (made f)
    else if (match get_keys (JDict o) ["Format"; "JSON"] (JBool false) with JBool false => false | _ => true end && mem f (map json_name (out_files o)))%bool then Some (made f)
    else if mem f known_output_files then None else dget f dir.
Proof.
  intros made o dir. unfold run_directory. cbn zeta.
  set (fs := out_files o). set (d2 := create_json made o fs _).
  set (jb := match get_keys (JDict o) ["Format"; "JSON"] (JBool false) with JBool false => false | _ => true end).
  set (cv := get_keys (JDict o) ["Format"; "CSV"] (JBool false)).
  assert (D2 : forall f, dget f d2 = if (jb && mem f (map json_name fs))%bool then Some (made f) else if mem f fs then Some (made f)
      else if mem f known_output_files then None else dget f dir).
  { intros f. unfold d2, create_json, jb. set (jv := get_keys (JDict o) ["Format"; "JSON"] (JBool false)). clearbody jv.
    assert (W : dget f (write_all made fs (remove_existing known_output_files dir)) = if mem f fs then Some (made f) else if mem f known_output_files then None else dget f dir).
    { rewrite write_all_get, remove_existing_get. reflexivity. }
    destruct jv as [| |[|]| | | |]; rewrite ?write_all_get, ?remove_existing_get; cbn [andb]; reflexivity. }
  assert (J : forall f, mem f fs = true -> mem f (map json_name fs) = false).
  { intros f Hf. apply mem_false. intros X. apply in_map_iff in X as [g [<- Hg]]. apply mem_true in Hf.
    apply (@json_name_unknown g (@out_files_known o g Hg)). apply (@out_files_known o). exact Hf. }
  assert (P : forall f, In f fs -> exists v, dget f d2 = Some v).
  { intros f Hf. apply mem_true in Hf. rewrite D2, Hf, (J f Hf), andb_false_r. eauto. }
  destruct (@remove_fold fs d2 (out_files_NoDup o) P) as [d3 [E3 F3]].
  assert (N : forall b, (b = true -> remove_csv o fs d2 = Ok d2) -> (b = false -> remove_csv o fs d2 = Ok d3) ->
     exists dir', remove_csv o fs d2 = Ok dir' /\ forall f, dget f dir' =
      if (mem f fs && (if b then true else contains "DL_summary" f))%bool then Some (made f)
      else if (jb && mem f (map json_name fs))%bool then Some (made f) else if mem f known_output_files then None else dget f dir).
  { intros [|] Ht Hf.
    - exists d2. split; [apply Ht; reflexivity|]. intros f. rewrite D2. destruct (mem f fs) eqn:M; cbn [andb]; [|reflexivity].
      rewrite (J f M), andb_false_r. reflexivity.
    - exists d3. split; [apply Hf; reflexivity|]. intros f. rewrite F3, D2. destruct (mem f fs) eqn:M; cbn [andb]; [|reflexivity].
      rewrite (J f M), andb_false_r. destruct (contains "DL_summary" f) eqn:C; cbn [negb]; [reflexivity|].
      apply mem_true in M. apply (@out_files_known o) in M. apply mem_true in M. rewrite M. reflexivity. }
  unfold remove_csv in N |- *. fold cv in N |- *. clearbody cv. destruct cv as [| |[|]| | | |]; first
    [apply (N true); [reflexivity|discriminate]|apply (N false); [discriminate|intros _; exact E3]].
Qed.

(** ** Which outputs are requested *)

Lemma outputs_get : forall pbe o k, dget k (outputs_of pbe o) = option_map (deref pbe) (dget k o).
Proof.
  intros pbe o k. unfold outputs_of. induction o as [|[k' v] o IH]; [reflexivity|]. cbn [map dget fst snd].
  destruct (String.eqb k k'); [reflexivity|exact IH].
Qed.
(** A run with its own outputs and settings does not look at the module's dictionaries. *)
Lemma own_independent : forall i own sh sh', ri_auto i = false -> ri_own i = Some own -> own <> [] -> missing [] (map (fun kv => (fst kv, OV (snd kv))) own) "Settings" = false ->
  fst (parse_outputs i sh) = fst (parse_outputs i sh') /\ snd (parse_outputs i sh) = sh.
Proof.
  intros [au de lo ou ow fo] own sh sh' Ha Ho Hn Hm. cbn [ri_auto ri_own] in *. subst au ow. destruct own as [|kv own]; [contradiction|].
  unfold parse_outputs. cbn [ri_auto ri_own ri_format].
  set (o := map (fun kv0 : string * json => (fst kv0, OV (snd kv0))) (kv :: own)) in *.
  assert (V : forall (o' : dict oval) pbe, (forall k v, In (k, v) o' -> v <> OPbe) -> outputs_of pbe o' = outputs_of [] o').
  { intros o' pbe H. unfold outputs_of. apply map_ext_in. intros [k v] Hin. cbn [fst snd]. f_equal. destruct v as [j|]; [reflexivity|].
    exfalso. apply (H _ _ Hin). reflexivity. }
  assert (Vm : forall (o' : dict oval) pbe k, (forall k v, In (k, v) o' -> v <> OPbe) -> missing pbe o' k = missing [] o' k).
  { intros o' pbe k H. unfold missing. destruct (dget k o') as [v|] eqn:E; [|reflexivity]. destruct v as [j|]; [reflexivity|].
    apply dget_In in E. exfalso. apply (H _ _ E). reflexivity. }
  assert (Vs : forall (o' : dict oval) k j, (forall k v, In (k, v) o' -> v <> OPbe) -> forall k' v, In (k', v) (dset k (OV j) o') -> v <> OPbe).
  { induction o' as [|[k0 v0] o' IH]; intros k j H k' v Hin; cbn [dset] in Hin.
    - destruct Hin as [E|[]]. injection E as <- <-. discriminate.
    - destruct (String.eqb k k0) eqn:Ek.
      + destruct Hin as [E|Hin]; [injection E as <- <-; discriminate|]. apply (H k' v). right. exact Hin.
      + destruct Hin as [E|Hin]; [injection E as <- <-; apply (H k0 v0); left; reflexivity|].
        apply (IH k j (fun k1 v1 H1 => H k1 v1 (or_intror H1)) k' v Hin). }
  assert (Vo : forall k v, In (k, v) o -> v <> OPbe).
  { intros k v Hin. unfold o in Hin. apply in_map_iff in Hin as [x [E _]]. injection E as <- <-. discriminate. }
  assert (Ms : forall pbe (o' : dict oval) j, missing pbe o' "Settings" = false -> missing pbe (dset "Format" j o') "Settings" = false).
  { intros pbe o' j H. unfold missing in *. rewrite dget_dset_ne by discriminate. exact H. }
  clearbody o. split.
  - rewrite (Vm o (sh_pbe sh)), (Vm o (sh_pbe sh')) by exact Vo.
    set (o1 := if missing [] o "Format" then dset "Format" (OV (JDict [("CSV", JBool true); ("JSON", JBool false)])) o else o).
    assert (V1 : forall k v, In (k, v) o1 -> v <> OPbe) by (unfold o1; destruct (missing [] o "Format"); [apply Vs|]; exact Vo).
    assert (M1 : missing [] o1 "Settings" = false) by (unfold o1; destruct (missing [] o "Format"); [apply Ms|]; exact Hm).
    clearbody o1. destruct fo as [fs|].
    + cbn [fst]. rewrite (Vm _ (sh_pbe sh)), (Vm _ (sh_pbe sh')) by (apply Vs; exact V1). rewrite Ms by exact M1.
      rewrite (V _ (sh_pbe sh)), (V _ (sh_pbe sh')) by (apply Vs; exact V1). reflexivity.
    + cbn [fst]. rewrite (Vm _ (sh_pbe sh)), (Vm _ (sh_pbe sh')) by exact V1. rewrite M1.
      rewrite (V _ (sh_pbe sh)), (V _ (sh_pbe sh')) by exact V1. reflexivity.
  - destruct sh as [f r p]. reflexivity.
Qed.

(** The second time around, nothing changes. *)
Lemma parse_again : forall i, (ri_auto i = true \/ ri_own i = None \/ ri_own i = Some []) ->
  parse_outputs i (snd (parse_outputs i pristine)) = parse_outputs i pristine.
Proof.
  intros [au de lo ou ow fo] H. destruct au.
  - destruct de, lo, ou as [[[[[|] [|]] [|]] [|]]|], fo as [fs|]; reflexivity.
  - cbn [ri_auto ri_own] in H. destruct H as [H|[-> | ->]]; [discriminate| |]; destruct fo as [fs|]; reflexivity.
Qed.
Lemma own_state : forall i own sh, ri_auto i = false -> ri_own i = Some own -> own <> [] -> snd (parse_outputs i sh) = sh.
Proof.
  intros [au de lo ou ow fo] own sh Ha Ho Hn. cbn [ri_auto ri_own] in *. subst au ow. destruct own as [|kv own]; [contradiction|].
  unfold parse_outputs. cbn [ri_auto ri_own snd]. destruct sh. reflexivity.
Qed.
Lemma repeat_fix : forall i n, parse_outputs i (after_runs (repeat i n) pristine) = parse_outputs i pristine.
Proof.
  intros i n.
  assert (E : after_runs (repeat i n) pristine = pristine \/ after_runs (repeat i n) pristine = snd (parse_outputs i pristine) /\ (ri_auto i = true \/ ri_own i = None \/ ri_own i = Some [])).
  { induction n as [|n IH]; [left; reflexivity|]. cbn [repeat]. rewrite repeat_cons. unfold after_runs in *. rewrite fold_left_app. cbn [fold_left].
    destruct (ri_auto i) eqn:Ea; [right|].
    - split; [|auto]. destruct IH as [-> | [-> H]]; [reflexivity|]. rewrite parse_again by (left; exact Ea). reflexivity.
    - destruct (ri_own i) as [[|kv own]|] eqn:Eo.
      + right. split; [|auto]. destruct IH as [-> | [-> H]]; [reflexivity|]. rewrite parse_again by auto. reflexivity.
      + left. destruct IH as [-> | [_ H]]; [|destruct H as [H|[H|H]]; discriminate]. apply (own_state i pristine Ea Eo). discriminate.
      + right. split; [|auto]. destruct IH as [-> | [-> H]]; [reflexivity|]. rewrite parse_again by auto. reflexivity. }
  destruct E as [-> | [-> H]]; [reflexivity|]. apply parse_again, H.
Qed.

(** A switched-off section of the regional outputs stays off. *)
Definition off (k : string) (o : dict oval) : Prop := dget k o = Some (OV (JDict [])).
Lemma off_dset : forall k k' v o, off k o -> k <> k' -> off k (dset k' v o).
Proof. intros k k' v o H Hk. unfold off in *. rewrite dget_dset_ne by exact Hk. exact H. Qed.
Lemma off_again : forall k o, off k (dset k (OV (JDict [])) o).
Proof. intros k o. unfold off. apply dget_dset_eq. Qed.
Lemma off_empty : forall k k' o, off k o -> off k (dset k' (OV (JDict [])) o).
Proof.
  intros k k' o H. destruct (String.eqb k k') eqn:E.
  - apply String.eqb_eq in E. subst k'. apply off_again.
  - apply String.eqb_neq in E. apply off_dset; assumption.
Qed.
Lemma parse_regional : forall i sh k, k <> "Format" -> k <> "Settings" -> off k (sh_regional sh) -> off k (sh_regional (snd (parse_outputs i sh))).
Proof.
  intros [au de lo ou ow fo] sh k Hf Hs H. unfold parse_outputs. cbn [ri_auto ri_detailed ri_losses ri_outputs ri_own ri_format].
  destruct au; [destruct de|].
  - destruct (update_settings _ _ _) as [o' p']. exact H.
  - cbn [snd sh_regional].
    set (o1 := if lo then sh_regional sh else dset "Loss" (OV (JDict [])) (sh_regional sh)).
    assert (H1 : off k o1) by (unfold o1; destruct lo; [exact H|apply off_empty, H]). clearbody o1.
    set (o2 := match ou with None => o1 | Some (im, edp, dm, dv) => _ end).
    assert (H2 : off k o2).
    { unfold o2. destruct ou as [[[[im edp] dm] dv]|]; [|exact H1]. destruct (negb im && negb edp)%bool, dm, dv; repeat apply off_empty; exact H1. }
    clearbody o2. destruct (missing (sh_pbe sh) o2 "Format").
    + destruct fo as [fs|]; [|]; match goal with |- context [missing ?a ?b "Settings"] => destruct (missing a b "Settings") end;
        repeat (apply off_dset; [|assumption]); exact H2.
    + destruct fo as [fs|]; [|]; match goal with |- context [missing ?a ?b "Settings"] => destruct (missing a b "Settings") end;
        repeat (apply off_dset; [|assumption]); exact H2.
  - destruct ow as [[|kv own]|]; exact H.
Qed.
Lemma regional_outputs : forall i sh k, ri_auto i = true -> ri_detailed i = false -> k <> "Format" -> k <> "Settings" ->
  dget k (fst (parse_outputs i sh)) = option_map (deref (sh_pbe sh)) (dget k (sh_regional (snd (parse_outputs i sh)))).
Proof.
  intros [au de lo ou ow fo] sh k Ha Hd _ _. cbn [ri_auto ri_detailed] in *. subst au de. unfold parse_outputs.
  cbn [ri_auto ri_detailed ri_losses ri_outputs ri_own ri_format fst snd sh_regional]. rewrite outputs_get. reflexivity.
Qed.
Lemma runs_regional : forall is sh k, k <> "Format" -> k <> "Settings" -> off k (sh_regional sh) -> off k (sh_regional (after_runs is sh)).
Proof.
  induction is as [|i is IH]; intros sh k Hf Hs H; [exact H|]. unfold after_runs. cbn [fold_left]. apply IH; try assumption.
  apply parse_regional; assumption.
Qed.
Lemma no_losses_regional : forall i sh, ri_auto i = true -> ri_detailed i = false -> ri_losses i = false -> off "Loss" (sh_regional (snd (parse_outputs i sh))).
Proof.
  intros [au de lo ou ow fo] sh Ha Hd Hl. cbn [ri_auto ri_detailed ri_losses] in *. subst au de lo. unfold parse_outputs.
  cbn [ri_auto ri_detailed ri_losses ri_outputs ri_own ri_format snd sh_regional].
  set (o1 := dset "Loss" (OV (JDict [])) (sh_regional sh)). assert (H1 : off "Loss" o1) by apply off_again. clearbody o1.
  set (o2 := match ou with None => o1 | Some (im, edp, dm, dv) => _ end).
  assert (H2 : off "Loss" o2).
  { unfold o2. destruct ou as [[[[im edp] dm] dv]|]; [|exact H1]. destruct (negb im && negb edp)%bool, dm, dv; repeat apply off_empty; exact H1. }
  clearbody o2. destruct (missing (sh_pbe sh) o2 "Format"); destruct fo as [fs|];
    match goal with |- context [missing ?a ?b "Settings"] => destruct (missing a b "Settings") end;
    repeat (apply off_dset; [|discriminate]); exact H2.
Qed.
Lemma json_name_inj : forall f g, In f known_output_files -> In g known_output_files -> json_name f = json_name g -> f = g.
Proof.
  assert (B : forallb (fun f => forallb (fun g => implb (String.eqb (json_name f) (json_name g)) (String.eqb f g)) known_output_files) known_output_files = true)
    by (vm_compute; reflexivity).
  intros f g Hf Hg E. rewrite forallb_forall in B. specialize (B f Hf). cbv beta in B. rewrite forallb_forall in B. specialize (B g Hg). cbv beta in B.
  rewrite E, String.eqb_refl in B. cbn [implb] in B. apply String.eqb_eq, B.
Qed.
