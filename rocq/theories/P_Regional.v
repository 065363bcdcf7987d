(** Proofs about regional simulations. *)
From Coq Require Import Sorting.Sorted Sorting.Permutation.
From Verif Require Import Prelude PreludeFacts Pandas PandasFacts M_Base M_Damage M_Asset P_Base P_Scaling P_Asset P_Loc P_LossLF P_NNR P_Outputs M_NNR M_Regional S_Regional.
Set Implicit Arguments.
Local Open Scope string_scope.
Local Open Scope list_scope.

(** ** Text *)

Definition head_ok (s : string) : Prop := match s with EmptyString => True | String a _ => is_space a = false end.
Lemma lstrip_head : forall s, head_ok (lstrip_space s).
Proof. induction s as [|a s IH]; [exact I|]. cbn [lstrip_space]. destruct (is_space a) eqn:E; [exact IH|exact E]. Qed.
Lemma lstrip_id : forall s, head_ok s -> lstrip_space s = s.
Proof. intros [|a s] H; [reflexivity|]. cbn [lstrip_space]. cbn in H. rewrite H. reflexivity. Qed.
Lemma head_ok_prefix : forall t w, head_ok (t ++ w)%string -> head_ok t.
Proof. intros [|a t] w H; [exact I|exact H]. Qed.
Lemma strip_idem : forall s, strip_space (strip_space s) = strip_space s.
Proof.
  intros s. assert (H1 : head_ok (strip_space s)).
  { destruct (lstrip_shape (str_rev (lstrip_space s))) as [w [E _]]. apply (f_equal str_rev) in E.
    rewrite str_rev_involutive, str_rev_app_dist in E. apply (@head_ok_prefix _ (str_rev w)). unfold strip_space. rewrite <- E. apply lstrip_head. }
  assert (H2 : head_ok (str_rev (strip_space s))) by (unfold strip_space; rewrite str_rev_involutive; apply lstrip_head).
  unfold strip_space at 1. rewrite (lstrip_id _ H1), (lstrip_id _ H2). apply str_rev_involutive.
Qed.
Lemma pyint_strip : forall s, pyint (strip_space s) = pyint s.
Proof. intros s. unfold pyint. rewrite strip_idem. reflexivity. Qed.

Lemma split_first_spec : forall c s, match split_first (fun a => Ascii.eqb a c) s with
  | (_, None) => has_char c s = false
  | (a, Some b) => s = (a ++ String c b)%string /\ has_char c a = false
  end.
Proof.
  intros c s. induction s as [|x s IH]; [reflexivity|]. cbn [split_first]. destruct (Ascii.eqb x c) eqn:E.
  - apply Ascii.eqb_eq in E. subst x. split; reflexivity.
  - destruct (split_first _ s) as [u [v|]].
    + destruct IH as [-> H]. split; [reflexivity|]. cbn [has_char]. rewrite E. exact H.
    + cbn [has_char]. rewrite E. exact IH.
Qed.
Lemma split_first_at : forall c a b, has_char c a = false -> split_first (fun x => Ascii.eqb x c) (a ++ String c b) = (a, Some b).
Proof.
  intros c a b. induction a as [|x a IH]; intros H.
  - cbn. rewrite Ascii.eqb_refl. reflexivity.
  - cbn [has_char] in H. apply orb_false_iff in H as [Hx Ha]. change (String x a ++ String c b)%string with (String x (a ++ String c b)).
    cbn [split_first]. rewrite Hx, (IH Ha). reflexivity.
Qed.
Lemma split_first_absent : forall c s, has_char c s = false -> split_first (fun x => Ascii.eqb x c) s = (s, None).
Proof.
  intros c s. induction s as [|x s IH]; intros H; [reflexivity|]. cbn [has_char] in H. apply orb_false_iff in H as [Hx Hs].
  cbn [split_first]. rewrite Hx, (IH Hs). reflexivity.
Qed.
Lemma zrange_In : forall a b z, In z (zrange a b) <-> (a <= z <= b)%Z.
Proof.
  intros a b z. unfold zrange. rewrite in_map_iff. split.
  - intros [k [<- Hk]]. apply in_seq in Hk. lia.
  - intros H. exists (Z.to_nat (z - a)). split; [lia|]. apply in_seq. lia.
Qed.

Lemma filter_part_ok : forall p ids, filter_part p = Ok ids -> (exists z, denotes p z) /\ forall z, In z ids <-> denotes p z.
Proof.
  intros p ids H. unfold filter_part in H. pose proof (split_first_spec "-" p) as S. destruct (split_first (fun a => Ascii.eqb a "-") p) as [a [b|]].
  - destruct S as [-> Ha]. rewrite !pyint_strip in H.
    destruct (pyint a) as [x|] eqn:Ex; [|discriminate]. destruct (pyint b) as [y|] eqn:Ey; [|discriminate].
    destruct (y <? x)%Z eqn:L; [discriminate|]. injection H as <-. apply Z.ltb_ge in L.
    split; [exists x; apply (a_range a b) with x y; auto; lia|].
    intros z. rewrite zrange_In. split.
    + intros Hz. apply (a_range a b) with x y; auto.
    + intros D. inversion D as [p z' Hn Hp E|a' b' x' y' z' Ha' Ex' Ey' Hz E]; subst.
      * exfalso. rewrite has_char_app in Hn. cbn [has_char] in Hn. rewrite Ascii.eqb_refl in Hn. cbn [orb] in Hn. rewrite orb_true_r in Hn. discriminate.
      * apply (f_equal (split_first (fun c => Ascii.eqb c "-"))) in E. rewrite !split_first_at in E by assumption. injection E as -> ->. congruence || (rewrite Ex in Ex'; rewrite Ey in Ey'; injection Ex' as <-; injection Ey' as <-; exact Hz).
  - destruct (pyint p) as [z|] eqn:Ez; [|discriminate]. injection H as <-. split; [exists z; apply one_number; assumption|].
    intros z'. split.
    + intros [<-|[]]. apply one_number; assumption.
    + intros D. inversion D as [p0 z0 Hn Hp E|a' b' x' y' z0 Ha' Ex' Ey' Hz E]; subst.
      * left. congruence.
      * exfalso. rewrite has_char_app in S. cbn [has_char] in S. rewrite Ascii.eqb_refl in S. cbn [orb] in S. rewrite orb_true_r in S. discriminate.
Qed.
Lemma filter_part_defined : forall p z, denotes p z -> exists ids, filter_part p = Ok ids.
Proof.
  intros p z D. unfold filter_part. destruct D as [p z Hn Hp|a b x y z Ha Ex Ey Hz].
  - rewrite split_first_absent by exact Hn. rewrite Hp. eauto.
  - rewrite split_first_at by exact Ha. rewrite !pyint_strip, Ex, Ey. destruct (y <? x)%Z eqn:L; [apply Z.ltb_lt in L; lia|]. eauto.
Qed.
Lemma filter_part_error : forall p e, filter_part p = Err e -> e = ValueError.
Proof.
  intros p e H. unfold filter_part in H. destruct (split_first _ p) as [a [b|]].
  - destruct (pyint _) as [x|]; [|congruence]. destruct (pyint _) as [y|]; [|congruence]. destruct (y <? x)%Z; congruence.
  - destruct (pyint p); congruence.
Qed.

Lemma Zleb_sorted : forall l, NoDup l -> sorted_by Z.leb l -> StronglySorted Z.lt l.
Proof.
  intros l Hn H. induction H as [|x l Hs IH Hx]; [constructor|]. apply NoDup_cons_iff in Hn as [Hn1 Hn2]. constructor; [apply IH, Hn2|].
  rewrite Forall_forall in Hx |- *. intros y Hy. specialize (Hx y Hy). apply Z.leb_le in Hx. assert (x <> y) by (intros ->; contradiction). lia.
Qed.
Lemma denotes_nonempty : forall z, ~ denotes "" z.
Proof. intros z D. remember "" as e eqn:Ee. destruct D as [p z Hn H|a b x y z Ha Hx Hy Hz]; [subst; discriminate|destruct a; discriminate]. Qed.
Lemma parse_filter_ok : forall s ids, parse_id_filter s = Ok ids ->
  strictly_increasing ids /\ (forall z, In z ids <-> exists p, In p (filter_parts s) /\ denotes p z) /\
  (forall p, In p (filter_parts s) -> p = "" \/ exists z, denotes p z).
Proof.
  intros s ids H. unfold parse_id_filter in H. destruct (String.eqb s "") eqn:Es.
  - apply String.eqb_eq in Es. subst s. injection H as <-. split; [constructor|]. split.
    + intros z. split; [intros []|]. intros [p [[<-|[]] D]]. apply denotes_nonempty in D. destruct D.
    + intros p [<-|[]]. left. reflexivity.
  - set (ps := filter _ _) in H. destruct (mapM filter_part ps) as [ls|e] eqn:E; cbn [bind] in H; [|discriminate]. injection H as <-.
    apply (proj1 (@mapM_Forall2 _ _ _ _ _)) in E.
    assert (Hps : forall p, In p ps <-> In p (filter_parts s) /\ p <> "").
    { intros p. unfold ps, filter_parts. rewrite filter_In. split; intros [A B]; (split; [exact A|]).
      - intros ->. discriminate.
      - apply String.eqb_neq in B. rewrite B. reflexivity. }
    clearbody ps. split; [|split].
    + apply Zleb_sorted.
      * eapply Permutation_NoDup; [apply isort_perm|]. apply (unique_NoDup Z.eqb Z.eqb_eq).
      * apply isort_sorted; [intros a b c; rewrite !Z.leb_le; lia|intros a b; rewrite !Z.leb_le; lia].
    + intros z. transitivity (In z (List.concat ls)).
      { split; intros X.
        - apply (Permutation_in _ (Permutation_sym (isort_perm _ _))) in X. apply (proj1 (unique_In Z.eqb Z.eqb_eq _ _)) in X. exact X.
        - apply (Permutation_in _ (isort_perm _ _)). apply (unique_In Z.eqb Z.eqb_eq). exact X. }
      rewrite in_concat. split.
      * intros [l [Hl Hz]]. destruct (@Forall2_In_r _ _ _ _ _ _ E Hl) as [p [Hp Ep]]. exists p. split; [apply Hps, Hp|].
        apply (proj2 (filter_part_ok _ Ep)), Hz.
      * intros [p [Hp D]]. assert (Hp' : In p ps) by (apply Hps; split; [exact Hp|intros ->; apply denotes_nonempty in D; exact D]).
        destruct (@Forall2_In_l _ _ _ _ _ _ E Hp') as [l [Hl Ep]]. exists l. split; [exact Hl|]. apply (proj2 (filter_part_ok _ Ep)), D.
    + intros p Hp. destruct (String.eqb p "") eqn:Ee; [left; apply String.eqb_eq, Ee|right]. apply String.eqb_neq in Ee.
      assert (Hp' : In p ps) by (apply Hps; auto). destruct (@Forall2_In_l _ _ _ _ _ _ E Hp') as [l [_ Ep]]. apply (proj1 (filter_part_ok _ Ep)).
Qed.
Lemma mapM_error : forall {A B} (f : A -> result B) l e, mapM f l = Err e -> exists a, In a l /\ f a = Err e.
Proof.
  intros A B f l e. induction l as [|a l IH]; intros H; [discriminate|]. cbn [mapM] in H. destruct (f a) as [b|e'] eqn:E; cbn [bind] in H.
  - destruct (mapM f l) as [bs|e'] eqn:El; cbn [bind] in H; [discriminate|]. destruct (IH H) as [x [Hx Ex]]. exists x. split; [right; exact Hx|exact Ex].
  - exists a. split; [left; reflexivity|]. congruence.
Qed.
Lemma parse_filter_defined : forall s, (forall p, In p (filter_parts s) -> p = "" \/ exists z, denotes p z) -> exists ids, parse_id_filter s = Ok ids.
Proof.
  intros s H. unfold parse_id_filter. destruct (String.eqb s ""); [eauto|]. set (ps := filter _ _).
  destruct (mapM filter_part ps) as [ls|e] eqn:E; cbn [bind]; [eauto|]. exfalso.
  apply mapM_error in E as [p [Hp Ep]]. unfold ps in Hp. apply filter_In in Hp as [Hp Ne]. destruct (H p Hp) as [->|[z D]]; [discriminate|].
  destruct (filter_part_defined D) as [ids X]. congruence.
Qed.
Lemma parse_filter_error : forall s e, parse_id_filter s = Err e -> e = ValueError.
Proof.
  intros s e H. unfold parse_id_filter in H. destruct (String.eqb s ""); [discriminate|].
  destruct (mapM filter_part _) as [ls|e'] eqn:E; cbn [bind] in H; [discriminate|]. injection H as <-. apply mapM_error in E as [p [_ Ep]].
  apply (filter_part_error _ Ep).
Qed.

Lemma apply_filter_ok : forall {A} s (inv kept : list (Z * A)) ids, s <> "" -> parse_id_filter s = Ok ids -> ids <> [] ->
  apply_filter (Some s) inv = Ok kept ->
  (forall z, In z ids -> In z (map fst inv)) /\ (forall b, In b kept <-> In b inv /\ In (fst b) ids) /\ (NoDup (map fst inv) -> map fst kept = ids).
Proof.
  intros A s inv kept ids Hs Hp Hi H. unfold apply_filter in H. apply String.eqb_neq in Hs. rewrite Hs, Hp in H. cbn [bind] in H.
  destruct ids as [|i0 ids0]; [contradiction|]. set (ids := i0 :: ids0) in *. clearbody ids. destruct (forallb _ ids) eqn:F; [|discriminate]. injection H as <-.
  rewrite forallb_forall in F.
  assert (F' : forall z, In z ids -> In z (map fst inv)).
  { intros z Hz. specialize (F z Hz). apply existsb_exists in F as [x [Hx E]]. apply Z.eqb_eq in E. subst x. exact Hx. }
  split; [exact F'|]. split.
  - intros b. rewrite in_flat_map. split.
    + intros [i [Hi' Hb]]. apply filter_In in Hb as [Hb E]. apply Z.eqb_eq in E. subst i. auto.
    + intros [Hb Hin]. exists (fst b). split; [exact Hin|]. apply filter_In. split; [exact Hb|]. apply Z.eqb_refl.
  - intros Hn. clear F Hp Hi. induction ids as [|i ids IH]; [reflexivity|]. cbn [flat_map]. rewrite map_app, IH by (intros; apply F'; right; assumption).
    assert (E : map fst (filter (fun r : Z * A => Z.eqb (fst r) i) inv) = [i]).
    { specialize (F' i (or_introl eq_refl)). clear IH ids. induction inv as [|[z a] inv IH]; [destruct F'|]. cbn [map fst] in Hn, F'. apply NoDup_cons_iff in Hn as [H1 H2].
      cbn [filter fst]. destruct (Z.eqb z i) eqn:E.
      - apply Z.eqb_eq in E. subst i. cbn [map fst]. f_equal. assert (N : filter (fun r : Z * A => Z.eqb (fst r) z) inv = []); [|rewrite N; reflexivity].
        clear - H1. induction inv as [|[y b] inv IH]; [reflexivity|]. cbn [map fst] in H1. cbn [filter fst]. destruct (Z.eqb y z) eqn:E; [apply Z.eqb_eq in E; subst; destruct H1; left; reflexivity|].
        apply IH. intros X. apply H1. right. exact X.
      - apply Z.eqb_neq in E. destruct F' as [X|X]; [congruence|]. apply IH; assumption. }
    rewrite E. reflexivity.
Qed.
Lemma apply_filter_missing : forall {A} s (inv : list (Z * A)) ids z, parse_id_filter s = Ok ids -> In z ids -> ~ In z (map fst inv) ->
  apply_filter (Some s) inv = Err ValueError.
Proof.
  intros A s inv ids z Hp Hz Hn. unfold apply_filter. destruct (String.eqb s "") eqn:Es.
  - apply String.eqb_eq in Es. subst s. injection Hp as <-. destruct Hz.
  - rewrite Hp. cbn [bind]. destruct ids as [|i0 ids0]; [destruct Hz|]. set (ids := i0 :: ids0) in *. clearbody ids.
    destruct (forallb _ ids) eqn:F; [|reflexivity]. rewrite forallb_forall in F. specialize (F z Hz). apply existsb_exists in F as [x [Hx E]].
    apply Z.eqb_eq in E. subst x. contradiction.
Qed.

(** ** The grid *)

Lemma flat_map_block : forall {A B} (F : A -> list B) m l, (forall a, In a l -> List.length (F a) = m) ->
  forall b f dA dB, (b < List.length l)%nat -> (f < m)%nat -> nth (b * m + f) (flat_map F l) dB = nth f (F (nth b l dA)) dB.
Proof.
  intros A B F m l. induction l as [|a l IH]; intros Hl b f dA dB Hb Hf; [cbn in Hb; lia|]. cbn [flat_map].
  assert (La : List.length (F a) = m) by (apply Hl; left; reflexivity). destruct b as [|b].
  - cbn [Nat.mul Nat.add nth]. apply app_nth1. rewrite La. exact Hf.
  - cbn [nth]. rewrite app_nth2 by (rewrite La; cbn [Nat.mul]; lia). rewrite La. replace (S b * m + f - m)%nat with (b * m + f)%nat by (cbn [Nat.mul]; lia).
    apply IH; [intros x Hx; apply Hl; right; exact Hx|cbn [List.length] in Hb; lia|exact Hf].
Qed.
Lemma flat_map_length : forall {A B} (F : A -> list B) m l, (forall a, In a l -> List.length (F a) = m) -> List.length (flat_map F l) = (List.length l * m)%nat.
Proof.
  intros A B F m l. induction l as [|a l IH]; intros Hl; [reflexivity|]. cbn [flat_map List.length Nat.mul]. rewrite app_length, IH by (intros x Hx; apply Hl; right; exact Hx).
  rewrite Hl by (left; reflexivity). reflexivity.
Qed.
Lemma flat_map_perm_in : forall {A B} (F G : A -> list B) l, (forall a, In a l -> Permutation (F a) (G a)) -> Permutation (flat_map F l) (flat_map G l).
Proof.
  intros A B F G l. induction l as [|a l IH]; intros H; [constructor|]. cbn [flat_map]. apply Permutation_app; [apply H; left; reflexivity|apply IH; intros x Hx; apply H; right; exact Hx].
Qed.
Lemma sorted_app : forall {A} (le : A -> A -> bool) l1 l2, sorted_by le l1 -> sorted_by le l2 ->
  (forall a b, In a l1 -> In b l2 -> le a b = true) -> sorted_by le (l1 ++ l2).
Proof.
  intros A le l1 l2 H1 H2 H. induction H1 as [|x l1 Hs IH Hx]; [exact H2|]. cbn [app]. constructor.
  - apply IH. intros a b Ha Hb. apply H; [right; exact Ha|exact Hb].
  - apply Forall_app. split; [exact Hx|]. apply Forall_forall. intros y Hy. apply H; [left; reflexivity|exact Hy].
Qed.
Lemma column_le_spec : forall g im v g' im' v', column_le ((g, im), v) ((g', im'), v') = true <-> (g < g')%nat \/ g = g' /\ str_le im im' = true.
Proof.
  intros. unfold column_le. rewrite orb_true_iff, andb_true_iff, Nat.ltb_lt, Nat.eqb_eq. reflexivity.
Qed.
Lemma sorted_grid : forall ims n data, NoDup ims ->
  isort column_le (grid_table ims n data) = flat_map (fun g => map (fun im => ((g, im), data g im)) (isort str_le ims)) (seq 0 n).
Proof.
  intros ims n data Hn. apply sorted_perm_unique_in with (le := column_le).
  - apply isort_sorted.
    + intros [[g im] v] [[g' im'] v'] [[g'' im''] v'']. rewrite !column_le_spec. intros [A|[-> A]] [B|[-> B]]; [left; lia|left; lia|left; lia|].
      right. split; [reflexivity|]. eapply str_le_trans; eassumption.
    + intros [[g im] v] [[g' im'] v']. rewrite !column_le_spec. destruct (Nat.lt_trichotomy g g') as [L|[->|L]]; [auto|destruct (str_le_total im im'); auto|auto].
  - generalize O as a. intros a. revert a. induction n as [|n IH]; intros a; [constructor|]. cbn [seq flat_map]. apply sorted_app; [|apply IH|].
    + assert (S : sorted_by str_le (isort str_le ims)) by (apply isort_sorted; [apply str_le_trans|apply str_le_total]). clear IH.
      induction S as [|x l S IHs Hx]; [constructor|]. cbn [map]. constructor; [exact IHs|]. rewrite Forall_forall in Hx |- *.
      intros c Hc. apply in_map_iff in Hc as [im [<- Hi]]. apply column_le_spec. right. split; [reflexivity|apply Hx, Hi].
    + intros x y Hx Hy. apply in_map_iff in Hx as [im [<- _]]. apply in_flat_map in Hy as [g [Hg Hy]]. apply in_map_iff in Hy as [im' [<- _]].
      apply in_seq in Hg. apply column_le_spec. left. lia.
  - rewrite <- isort_perm. unfold grid_table. apply flat_map_perm_in. intros g _. apply Permutation_map, isort_perm.
  - intros [[g im] v] [[g' im'] v'] Ha Hb. rewrite !column_le_spec. intros A B.
    apply (Permutation_in _ (Permutation_sym (isort_perm _ _))) in Ha. apply (Permutation_in _ (Permutation_sym (isort_perm _ _))) in Hb.
    assert (Q : forall g im v, In ((g, im), v) (grid_table ims n data) -> v = data g im).
    { intros h jm w X. unfold grid_table in X. apply in_flat_map in X as [h' [_ X]]. apply in_map_iff in X as [jm' [E _]]. congruence. }
    apply Q in Ha. apply Q in Hb. destruct A as [A|[-> A]], B as [B|[Eg B]]; try lia. pose proof (@str_le_antisym _ _ A B). congruence.
Qed.
Lemma unique_length : forall ims, NoDup ims -> List.length (unique String.eqb ims) = List.length ims.
Proof.
  intros ims Hn. apply Permutation_length, NoDup_Permutation; [apply (unique_NoDup String.eqb String.eqb_eq)|exact Hn|].
  intros x. apply (unique_In String.eqb String.eqb_eq).
Qed.
Lemma grid_at : forall ims n data s f r, NoDup ims -> (s < n)%nat -> (f < List.length ims)%nat ->
  at3 (grid_array ims n data) s f r = nth r (data s (nth f (isort str_le ims) "")) 0%Qc.
Proof.
  intros ims n data s f r Hn Hs Hf. unfold at3, grid_array. rewrite unique_length by exact Hn. rewrite sorted_grid by exact Hn.
  rewrite nth_map_seq by exact Hs. rewrite nth_map_seq by exact Hf. cbn [Nat.add].
  assert (L : List.length (isort str_le ims) = List.length ims) by (symmetry; apply Permutation_length, isort_perm).
  rewrite (@flat_map_block _ _ _ (List.length ims) (seq 0 n)) with (dA := O); [|intros g _; rewrite map_length; exact L|rewrite seq_length; exact Hs|exact Hf].
  rewrite seq_nth by exact Hs. cbn [Nat.add].
  rewrite (nth_indep (map (fun im => ((s, im), data s im)) (isort str_le ims)) (O, "", []) (s, "", data s "")) by (rewrite map_length, L; exact Hf).
  rewrite (map_nth (fun im => ((s, im), data s im)) (isort str_le ims) "" f). reflexivity.
Qed.
Lemma map_nth_ok : forall {A B} (f : A -> B) l i d d', (i < List.length l)%nat -> nth i (map f l) d = f (nth i l d').
Proof. intros A B f l i d d' H. rewrite (nth_indep (map f l) d (f d')) by (rewrite map_length; exact H). apply map_nth. Qed.
Lemma mapM_nth : forall {A B} (f : A -> result B) l out i d d', mapM f l = Ok out -> (i < List.length l)%nat -> f (nth i l d) = Ok (nth i out d').
Proof.
  intros A B f l out i d d' H. apply (proj1 (@mapM_Forall2 _ _ _ _ _)) in H. revert i. induction H as [|x y l l' E _ IH]; intros [|i] Hi; cbn [List.length] in Hi; try lia.
  - exact E.
  - cbn [nth]. apply IH. lia.
Qed.
Lemma demands_at : forall ims n data n_av k neighbours locs size cols b f ws, NoDup ims -> (0 < n_av)%nat ->
  map_demands ims n data n_av k neighbours locs size = Ok cols -> List.length neighbours = List.length locs ->
  (b < List.length locs)%nat -> (f < List.length ims)%nat -> (forall id, In id (snd (nth b neighbours ([], []))) -> (id < n)%nat) ->
  weights "distance2" k (fst (nth b neighbours ([], []))) = Ok ws ->
  nth_error cols (b * List.length ims + f) = Some (demand_label (nth f ims "") (nth b locs ""),
    map (fun j => mean_at ws (snd (nth b neighbours ([], []))) (fun g => nth (j mod n_av) (data g (nth f (isort str_le ims) "")) 0%Qc)) (seq 0 size)).
Proof.
  intros ims n data n_av k neighbours locs size cols b f ws Hn Ha H Hl Hb Hf Hid Hw. unfold map_demands in H.
  destruct (nnr3 _ _ _ _ _ _) as [values|e] eqn:E; cbn [bind] in H; [|discriminate]. injection H as <-. unfold nnr3 in E.
  apply mapM_nth with (i := b) (d := ([], [])) (d' := []) in E; [|rewrite Hl; exact Hb]. rewrite Hw in E. cbn [bind] in E. injection E as E.
  set (col := fun (bl : nat * string) => map (fun fi : nat * string => ((snd fi ++ "-" ++ snd bl ++ "-1")%string,
                                      map (fun j => at3 values (fst bl) (fst fi) (j mod n_av)) (seq 0 size))) (combine (seq 0 (List.length ims)) ims)).
  assert (Lc : List.length (combine (seq 0 (List.length ims)) ims) = List.length ims) by (rewrite combine_length, seq_length; lia).
  assert (LF : forall a, List.length (col a) = List.length ims) by (intros a; unfold col; rewrite map_length; exact Lc).
  assert (Lb : List.length (combine (seq 0 (List.length locs)) locs) = List.length locs) by (rewrite combine_length, seq_length; lia).
  unfold demand_columns. fold col.
  rewrite (nth_error_nth' _ ("", [])); [|rewrite (@flat_map_length _ _ col (List.length ims)) by (intros; apply LF); rewrite Lb; nia].
  f_equal. rewrite (@flat_map_block _ _ col (List.length ims)) with (dA := (O, "")); [|intros; apply LF|rewrite Lb; exact Hb|exact Hf].
  rewrite combine_nth by (rewrite seq_length; reflexivity). rewrite seq_nth by exact Hb. cbn [Nat.add]. unfold col. cbn [fst snd].
  rewrite map_nth_ok with (d' := (O, "")) by (rewrite Lc; exact Hf). rewrite combine_nth by (rewrite seq_length; reflexivity). rewrite seq_nth by exact Hf. cbn [Nat.add fst snd].
  unfold demand_label. f_equal. apply map_ext. intros j. unfold at3 at 1. rewrite <- E.
  rewrite expected3_at; [|rewrite unique_length by exact Hn; exact Hf|apply Nat.mod_upper_bound; lia].
  unfold mean_at, S_NNR.mix. rewrite <- map2_mix. f_equal.
  set (ids := snd (nth b neighbours ([], []))) in *. clearbody ids. clear - Hid Hn Hf. revert ids Hid. induction ws as [|w ws IH]; intros [|i ids] Hid; [reflexivity..|].
  cbn [map2 map]. f_equal; [|apply IH; intros id Hx; apply Hid; right; exact Hx]. f_equal. apply grid_at; [exact Hn|apply Hid; left; reflexivity|exact Hf].
Qed.

(** ** Chunks *)

Lemma firstn_plus : forall {A} (l : list A) a b, firstn (a + b) l = firstn a l ++ firstn b (skipn a l).
Proof. intros A l. induction l as [|x l IH]; intros [|a] b; cbn [Nat.add firstn skipn app]; [reflexivity|rewrite firstn_nil; reflexivity|reflexivity|]. rewrite IH. reflexivity. Qed.
Lemma chunks_prefix : forall {A} size (l : list A) k, List.concat (map (fun i => firstn size (skipn (i * size) l)) (seq 0 k)) = firstn (k * size) l.
Proof.
  intros A size l k. induction k as [|k IH]; [reflexivity|]. rewrite seq_S, map_app, concat_app, IH. cbn [map List.concat Nat.add]. rewrite app_nil_r, <- firstn_plus.
  f_equal. cbn [Nat.mul]. lia.
Qed.
Lemma chunk_count : forall n size, (0 < size)%nat -> (n <= (n + size - 1) / size * size)%nat.
Proof.
  intros n size H. pose proof (Nat.div_mod (n + size - 1) size ltac:(lia)) as E. pose proof (Nat.mod_upper_bound (n + size - 1) size ltac:(lia)) as U.
  set (q := ((n + size - 1) / size)%nat) in *. rewrite Nat.mul_comm. lia.
Qed.
Lemma chunks_concat : forall {A} size (l : list A), (0 < size)%nat -> List.concat (chunks size l) = l.
Proof.
  intros A size l H. unfold chunks. rewrite chunks_prefix. apply firstn_all2. apply chunk_count, H.
Qed.
Lemma chunks_size : forall {A} size (l : list A) c, (0 < size)%nat -> In c (chunks size l) -> c <> [] /\ (List.length c <= size)%nat.
Proof.
  intros A size l c H Hc. unfold chunks in Hc. apply in_map_iff in Hc as [i [<- Hi]]. apply in_seq in Hi. destruct Hi as [_ Hi]. cbn [Nat.add] in Hi.
  assert (L : (i * size < List.length l)%nat).
  { pose proof (Nat.div_mod (List.length l + size - 1) size ltac:(lia)) as E. pose proof (Nat.mod_upper_bound (List.length l + size - 1) size ltac:(lia)) as U.
    set (q := ((List.length l + size - 1) / size)%nat) in *. assert ((i + 1) * size <= q * size)%nat by (apply Nat.mul_le_mono_r; lia). lia. }
  rewrite firstn_length, skipn_length. split; [|lia]. intros X. apply (f_equal (@List.length A)) in X. rewrite firstn_length, skipn_length in X. cbn [List.length] in X. lia.
Qed.

(** The results of one kind. *)
Definition of_kind {R} (kind : string) (p : parts R) : option (rows R) :=
  if String.eqb kind "demand" then Some (pa_demand p) else if String.eqb kind "damage" then Some (pa_damage p)
  else if String.eqb kind "repair_costs" then Some (pa_costs p) else if String.eqb kind "repair_times" then pa_times p else None.
Definition kinds := ["demand"; "damage"; "repair_costs"; "repair_times"].

Lemma string_app_inj_r : forall a b c, (a ++ c = b ++ c)%string -> a = b.
Proof.
  intros a b c H. apply (f_equal str_rev) in H. rewrite !str_rev_app_dist in H. apply string_app_inj_l in H. apply (f_equal str_rev) in H. rewrite !str_rev_involutive in H. exact H.
Qed.
Lemma part_name_inj : forall k k' i i', In k kinds -> In k' kinds -> part_name k i = part_name k' i' -> k = k' /\ i = i'.
Proof.
  intros k k' i i' Hk Hk' H.
  assert (E : k = k').
  { unfold part_name in H. cbn [kinds In] in Hk, Hk'. destruct Hk as [<-|[<-|[<-|[<-|[]]]]], Hk' as [<-|[<-|[<-|[<-|[]]]]]; try reflexivity; cbn [append] in H; discriminate H. }
  subst k'. split; [reflexivity|]. unfold part_name in H. apply string_app_inj_l in H. apply string_app_inj_l in H. apply string_app_inj_r in H. apply str_of_nat_inj, H.
Qed.
Lemma file_kind_part : forall k i, In k kinds -> file_kind (part_name k i) = Some k.
Proof.
  intros k i Hk. unfold part_name. set (x := (str_of_nat i ++ ".csv")%string). clearbody x.
  cbn [kinds In] in Hk. destruct Hk as [<-|[<-|[<-|[<-|[]]]]]; destruct x; reflexivity.
Qed.
Lemma chunk_files_names : forall {R} i (p : parts R) w, In w (chunk_files i p) -> exists k, In k kinds /\ fst w = part_name k i.
Proof.
  intros R i p w H. unfold chunk_files in H. apply in_app_iff in H as [H|H].
  - destruct H as [<-|[<-|[<-|[]]]]; [exists "demand"|exists "damage"|exists "repair_costs"]; (split; [cbn; tauto|reflexivity]).
  - destruct (pa_times p); [|destruct H]. destruct H as [<-|[]]. exists "repair_times". split; [cbn; tauto|reflexivity].
Qed.
Lemma map_NoDup_in : forall {A B} (f : A -> B) l, (forall a b, In a l -> In b l -> f a = f b -> a = b) -> NoDup l -> NoDup (map f l).
Proof.
  intros A B f l Hf H. induction H as [|x l Hx H IH]; [constructor|]. cbn [map]. constructor.
  - intros X. apply in_map_iff in X as [y [E Hy]]. apply Hf in E; [subst; contradiction|right; exact Hy|left; reflexivity].
  - apply IH. intros a b Ha Hb. apply Hf; right; assumption.
Qed.
Lemma chunk_files_NoDup : forall {R} i (p : parts R), NoDup (map fst (chunk_files i p)).
Proof.
  intros R i p. assert (H : NoDup (map (fun k => part_name k i) kinds)).
  { apply map_NoDup_in.
    - intros k k' Hk Hk' E. apply (part_name_inj _ _ Hk Hk') in E. apply E.
    - repeat constructor; cbn; intuition discriminate. }
  unfold chunk_files. destruct (pa_times p); cbn [app map fst]; [exact H|]. cbn [map kinds] in H.
  change ([part_name "demand" i; part_name "damage" i; part_name "repair_costs" i; part_name "repair_times" i]) with ([part_name "demand" i; part_name "damage" i; part_name "repair_costs" i] ++ [part_name "repair_times" i]) in H.
  apply NoDup_remove_1 in H. rewrite app_nil_r in H. exact H.
Qed.
Lemma all_files_In : forall {A R} (process : list A -> parts R) cs a w, In w (List.concat (map2 (fun i c => chunk_files i (process c)) (seq a (List.length cs)) cs)) ->
  exists k i, In k kinds /\ (a <= i)%nat /\ fst w = part_name k i.
Proof.
  intros A R process cs. induction cs as [|c cs IH]; intros a w H; [destruct H|]. cbn [List.length seq map2 List.concat] in H. apply in_app_iff in H as [H|H].
  - apply chunk_files_names in H as [k [Hk E]]. exists k, a. auto.
  - destruct (IH _ _ H) as [k [i [Hk [L E]]]]. exists k, i. split; [exact Hk|]. split; [lia|exact E].
Qed.
Lemma NoDup_app_intro : forall {A} (l1 l2 : list A), NoDup l1 -> NoDup l2 -> (forall x, In x l1 -> In x l2 -> False) -> NoDup (l1 ++ l2).
Proof.
  intros A l1 l2 H1 H2 H. induction H1 as [|x l1 Hx H1 IH]; [exact H2|]. cbn [app]. constructor.
  - rewrite in_app_iff. intros [X|X]; [contradiction|]. apply (H x); [left; reflexivity|exact X].
  - apply IH. intros y A1 A2. apply (H y); [right; exact A1|exact A2].
Qed.
Lemma all_files_NoDup : forall {A R} (process : list A -> parts R) cs, NoDup (map fst (all_files process cs)).
Proof.
  intros A R process cs. unfold all_files. generalize O as a. induction cs as [|c cs IH]; intros a; [constructor|]. cbn [List.length seq map2 List.concat]. rewrite map_app.
  apply NoDup_app_intro; [apply chunk_files_NoDup|apply IH|]. intros x H1 H2. apply in_map_iff in H1 as [w1 [<- H1]]. apply in_map_iff in H2 as [w2 [E H2]].
  apply chunk_files_names in H1 as [k [Hk E1]]. apply all_files_In in H2 as [k' [i [Hk' [L E2]]]]. rewrite E1, E2 in E. apply (part_name_inj _ _ Hk' Hk) in E. lia.
Qed.

Lemma dget_written : forall {R} (ws : list (string * rows R)) w, NoDup (map fst ws) -> In w ws -> dget (fst w) (written ws) = Some (snd w).
Proof.
  intros R ws w Hn Hw. unfold written. generalize (@nil (string * rows R)) as d. revert Hn. induction ws as [|[f r] ws IH]; intros Hn d; [destruct Hw|].
  cbn [map fst] in Hn. apply NoDup_cons_iff in Hn as [H1 H2]. cbn [fold_left fst snd]. destruct Hw as [<-|Hw]; [|apply IH; assumption].
  cbn [fst snd]. clear IH H2. assert (G : forall ws d, ~ In f (map fst ws) -> dget f d = Some r -> dget f (fold_left (fun d (w : string * rows R) => dset (fst w) (snd w) d) ws d) = Some r).
  { clear. intros ws. induction ws as [|[g q] ws IH]; intros d Hn H; [exact H|]. cbn [fold_left fst snd]. cbn [map fst] in Hn. apply IH; [intros X; apply Hn; right; exact X|].
    rewrite dget_dset_ne; [exact H|]. intros ->. apply Hn. left. reflexivity. }
  apply G; [exact H1|]. apply dget_dset_eq.
Qed.
Lemma somes_perm : forall {A} (l l' : list (option A)), Permutation l l' -> Permutation (somes l) (somes l').
Proof. intros A l l' H. unfold somes. apply Permutation_flat_map, H. Qed.
Definition select {R} (kind : string) (w : string * rows R) : option (rows R) :=
  match file_kind (fst w) with Some k => if String.eqb k kind then Some (snd w) else None | None => None end.
Lemma gather_perm : forall {R} kind listing (ws : list (string * rows R)), NoDup (map fst ws) -> Permutation listing (map fst ws) ->
  Permutation (gather kind listing (written ws)) (somes (map (select kind) ws)).
Proof.
  intros R kind listing ws Hn Hp. unfold gather. eapply Permutation_trans; [apply somes_perm, Permutation_map, Hp|]. rewrite map_map.
  assert (E : map (fun w : string * rows R => match file_kind (fst w) with Some k => if String.eqb k kind then dget (fst w) (written ws) else None | None => None end) ws = map (select kind) ws).
  { apply map_ext_in. intros w Hw. unfold select. rewrite (@dget_written _ _ _ Hn Hw). reflexivity. }
  rewrite E. reflexivity.
Qed.
Lemma somes_app : forall {A} (l l' : list (option A)), somes (l ++ l') = somes l ++ somes l'.
Proof. intros. unfold somes. apply flat_map_app. Qed.
Lemma select_chunk : forall {R} kind i (p : parts R), In kind kinds -> somes (map (select kind) (chunk_files i p)) = somes [of_kind kind p].
Proof.
  intros R kind i p Hk. unfold chunk_files. rewrite map_app, somes_app. cbn [map]. unfold select. cbn [fst snd].
  rewrite !file_kind_part by (cbn; tauto).
  assert (T : somes (map (fun w : string * rows R => match file_kind (fst w) with Some k => if String.eqb k kind then Some (snd w) else None | None => None end)
                match pa_times p with Some t => [(part_name "repair_times" i, t)] | None => [] end) = if String.eqb "repair_times" kind then somes [pa_times p] else []).
  { destruct (pa_times p) as [t|]; cbn [map fst snd]; [rewrite file_kind_part by (cbn; tauto)|]; destruct (String.eqb "repair_times" kind); reflexivity. }
  rewrite T. cbn [kinds In] in Hk. destruct Hk as [<-|[<-|[<-|[<-|[]]]]]; reflexivity.
Qed.
Lemma select_all : forall {A R} kind (process : list A -> parts R) cs, In kind kinds ->
  somes (map (select kind) (all_files process cs)) = somes (map (fun c => of_kind kind (process c)) cs).
Proof.
  intros A R kind process cs Hk. unfold all_files. generalize O as a. induction cs as [|c cs IH]; intros a; [reflexivity|].
  cbn [List.length seq map2 List.concat map]. rewrite map_app, somes_app, IH, select_chunk by exact Hk.
  change (of_kind kind (process c) :: map (fun c0 => of_kind kind (process c0)) cs) with ([of_kind kind (process c)] ++ map (fun c0 => of_kind kind (process c0)) cs).
  rewrite somes_app. reflexivity.
Qed.

Lemma has_dup_false : forall l, has_dup l = false <-> NoDup l.
Proof.
  induction l as [|x l IH]; cbn [has_dup]; [split; [constructor|reflexivity]|]. rewrite orb_false_iff, IH, NoDup_cons_iff. split; intros [A B]; (split; [|exact B]).
  - apply mem_false. exact A.
  - apply mem_false. exact A.
Qed.
Lemma dget_NoDup : forall {R} (l : list (string * R)) k v, NoDup (map fst l) -> (dget k l = Some v <-> In (k, v) l).
Proof.
  intros R l k v Hn. split; [apply dget_In|]. induction l as [|[f r] l IH]; intros H; [destruct H|]. cbn [map fst] in Hn. apply NoDup_cons_iff in Hn as [H1 H2].
  cbn [dget]. destruct H as [H|H].
  - injection H as -> ->. rewrite String.eqb_refl. reflexivity.
  - destruct (String.eqb k f) eqn:E; [apply String.eqb_eq in E; subst f; destruct H1; apply (in_map fst) in H; exact H|]. apply IH; assumption.
Qed.
Lemma dget_perm : forall {R} (l l' : list (string * R)) k, NoDup (map fst l) -> Permutation l l' -> dget k l = dget k l'.
Proof.
  intros R l l' k Hn Hp. assert (Hn' : NoDup (map fst l')) by (eapply Permutation_NoDup; [apply Permutation_map, Hp|exact Hn]).
  destruct (dget k l) as [v|] eqn:E.
  - apply (dget_NoDup _ _ _ Hn) in E. symmetry. apply (dget_NoDup _ _ _ Hn'). eapply Permutation_in; eassumption.
  - destruct (dget k l') as [v|] eqn:E'; [|reflexivity]. apply (dget_NoDup _ _ _ Hn') in E'. apply (Permutation_in _ (Permutation_sym Hp)) in E'. apply (dget_NoDup _ _ _ Hn) in E'. congruence.
Qed.
Lemma concat_perm : forall {A} (l l' : list (list A)), Permutation l l' -> Permutation (List.concat l) (List.concat l').
Proof.
  intros A l l' H. assert (E : forall l : list (list A), List.concat l = flat_map (fun x => x) l) by (intros x; rewrite flat_map_concat_map, map_id; reflexivity).
  rewrite !E. apply Permutation_flat_map, H.
Qed.
Lemma collect_perm : forall {R} labels (ps ps' : list (rows R)), Permutation ps ps' -> collect labels ps = collect labels ps'.
Proof.
  intros R labels ps ps' Hp. unfold collect. destruct ps as [|p ps], ps' as [|p' ps']; [reflexivity|apply Permutation_nil in Hp; discriminate|apply Permutation_sym, Permutation_nil in Hp; discriminate|].
  set (l := p :: ps) in *. set (l' := p' :: ps') in *. clearbody l l'. apply concat_perm in Hp.
  assert (D : has_dup (map fst (List.concat l)) = has_dup (map fst (List.concat l'))).
  { apply Bool.eq_iff_eq_true. rewrite <- !Bool.not_false_iff_true, !has_dup_false. split; intros X Y; apply X; (eapply Permutation_NoDup; [apply Permutation_map; (exact Hp || exact (Permutation_sym Hp))|exact Y]). }
  rewrite D. destruct (has_dup (map fst (List.concat l'))) eqn:E; [reflexivity|]. apply has_dup_false in D. do 2 f_equal. apply map_ext. intros k. f_equal. apply dget_perm; assumption.
Qed.

Lemma finish_spec : forall {A R} (process : list A -> parts R) cs ims index ws listing, Permutation ws (all_files process cs) -> Permutation listing (map fst ws) ->
  finish ims index listing (written ws) =
  (let from kind := somes (map (fun c => of_kind kind (process c)) cs) in
   let* d := collect (flat_map (fun loc => map (fun im => demand_label im loc) ims) index) (from "demand") in
   let* g := collect index (from "damage") in
   let* c := collect index (from "repair_costs") in
   let* t := collect index (from "repair_times") in
   Ok (OU d g c t)).
Proof.
  intros A R process cs ims index ws listing Hw Hl.
  assert (Hn : NoDup (map fst ws)) by (eapply Permutation_NoDup; [apply Permutation_map, Permutation_sym, Hw|apply all_files_NoDup]).
  assert (G : forall kind, In kind kinds -> Permutation (gather kind listing (written ws)) (somes (map (fun c => of_kind kind (process c)) cs))).
  { intros kind Hk. rewrite <- (@select_all _ _ kind process cs Hk). eapply Permutation_trans; [apply gather_perm; assumption|]. apply somes_perm, Permutation_map, Hw. }
  unfold finish. cbv zeta.
  rewrite (collect_perm _ (G "demand" ltac:(cbn; tauto))), (collect_perm _ (G "damage" ltac:(cbn; tauto))), (collect_perm _ (G "repair_costs" ltac:(cbn; tauto))), (collect_perm _ (G "repair_times" ltac:(cbn; tauto))).
  reflexivity.
Qed.
(** Rows labelled as the buildings of their chunk. *)
Lemma concat_labels : forall {A R} (f : list A -> rows R) (lab : A -> list string) cs, (forall c, In c cs -> Permutation (map fst (f c)) (flat_map lab c)) ->
  Permutation (map fst (List.concat (map f cs))) (flat_map lab (List.concat cs)).
Proof.
  intros A R f lab cs. induction cs as [|c cs IH]; intros H; [constructor|]. cbn [map List.concat]. rewrite map_app, flat_map_app. apply Permutation_app; [apply H; left; reflexivity|].
  apply IH. intros x Hx. apply H. right. exact Hx.
Qed.
Lemma collect_some : forall {R} labels (ps : list (rows R)), ps <> [] -> NoDup (map fst (List.concat ps)) -> collect labels ps = Ok (Some (map (fun l => (l, dget l (List.concat ps))) labels)).
Proof. intros R labels ps Hp Hn. unfold collect. destruct ps as [|p ps]; [contradiction|]. apply has_dup_false in Hn. rewrite Hn. reflexivity. Qed.
Lemma somes_some : forall {A B} (f : A -> B) l, somes (map (fun a => Some (f a)) l) = map f l.
Proof. intros A B f l. induction l as [|a l IH]; [reflexivity|]. cbn [map]. change (somes (Some (f a) :: map (fun a => Some (f a)) l)) with (f a :: somes (map (fun a => Some (f a)) l)). rewrite IH. reflexivity. Qed.
Lemma demand_label_inj : forall im im' l l', has_char "-" l = false -> has_char "-" l' = false -> demand_label im l = demand_label im' l' -> im = im' /\ l = l'.
Proof.
  intros im im' l l' H H' E. unfold demand_label in E. rewrite !string_app_assoc in E. apply string_app_inj_r in E. apply (f_equal str_rev) in E. rewrite !str_rev_app_dist in E.
  change (str_rev "-") with "-" in E.
  assert (R : forall s, has_char "-" s = false -> has_char "-" (str_rev s) = false).
  { clear. intros s. induction s as [|a s IH]; [reflexivity|]. rewrite str_rev_cons, has_char_app. cbn [has_char]. intros X. apply orb_false_iff in X as [X1 X2]. rewrite (IH X2), X1. reflexivity. }
  apply (f_equal (split_first (fun x => Ascii.eqb x "-"))) in E.
  change ("-" ++ str_rev im)%string with (String "-" (str_rev im)) in E. change ("-" ++ str_rev im')%string with (String "-" (str_rev im')) in E.
  rewrite !split_first_at in E by (apply R; assumption). injection E as E1 E2. apply (f_equal str_rev) in E1. apply (f_equal str_rev) in E2. rewrite !str_rev_involutive in E1, E2. auto.
Qed.

Lemma NoDup_app_disj : forall {A} (l1 l2 : list A) x, NoDup (l1 ++ l2) -> In x l1 -> In x l2 -> False.
Proof. intros A l1 l2 x H H1 H2. induction l1 as [|y l1 IH]; [destruct H1|]. cbn [app] in H. apply NoDup_cons_iff in H as [N H]. destruct H1 as [->|H1]; [apply N, in_app_iff; right; exact H2|apply IH; assumption]. Qed.
Lemma NoDup_app_l : forall {A} (l1 l2 : list A), NoDup (l1 ++ l2) -> NoDup l1.
Proof. intros A l1 l2 H. induction l1 as [|y l1 IH]; [constructor|]. cbn [app] in H. apply NoDup_cons_iff in H as [N H]. constructor; [intros X; apply N, in_app_iff; left; exact X|apply IH, H]. Qed.
Lemma NoDup_app_r : forall {A} (l1 l2 : list A), NoDup (l1 ++ l2) -> NoDup l2.
Proof. intros A l1 l2 H. induction l1 as [|y l1 IH]; [exact H|]. cbn [app] in H. apply NoDup_cons_iff in H as [N H]. apply IH, H. Qed.
Lemma owner_unique : forall {B} (lab : B -> list string) cs c c' l, NoDup (flat_map lab (List.concat cs)) -> In c cs -> In c' cs ->
  In l (flat_map lab c) -> In l (flat_map lab c') -> c = c'.
Proof.
  intros B lab cs c c' l. assert (M : forall cs c, In c cs -> In l (flat_map lab c) -> In l (flat_map lab (List.concat cs))).
  { intros ds d Hd Hl. apply in_flat_map in Hl as [b [Hb Hl]]. apply in_flat_map. exists b. split; [|exact Hl]. apply in_concat. exists d. auto. }
  induction cs as [|d cs IH]; intros Hn Hc Hc' Hl Hl'; [destruct Hc|]. cbn [List.concat] in Hn. rewrite flat_map_app in Hn.
  destruct Hc as [->|Hc], Hc' as [->|Hc'].
  - reflexivity.
  - exfalso. eapply NoDup_app_disj; [exact Hn|exact Hl|eapply M; eassumption].
  - exfalso. eapply NoDup_app_disj; [exact Hn|exact Hl'|eapply M; eassumption].
  - apply IH; try assumption. apply NoDup_app_r in Hn. exact Hn.
Qed.
Section Collected.
  Variables (B R : Type) (lab : B -> list string) (cs : list (list B)) (f : list B -> option (rows R)).
  Hypothesis labels_distinct : NoDup (flat_map lab (List.concat cs)).
  Hypothesis labelled : forall c r, In c cs -> f c = Some r -> Permutation (map fst r) (flat_map lab c).
  Let all := List.concat (somes (map f cs)).
  Lemma In_all : forall l v, In (l, v) all -> exists c r, In c cs /\ f c = Some r /\ In (l, v) r.
  Proof.
    intros l v H. unfold all in H. apply in_concat in H as [r [Hr H]]. unfold somes in Hr. apply in_flat_map in Hr as [o [Ho Hr]].
    apply in_map_iff in Ho as [c [<- Hc]]. destruct (f c) as [r'|] eqn:E; [|destruct Hr]. destruct Hr as [->|[]]. exists c, r. auto.
  Qed.
  Lemma In_all_of : forall c r l v, In c cs -> f c = Some r -> In (l, v) r -> In (l, v) all.
  Proof.
    intros c r l v Hc E H. unfold all. apply in_concat. exists r. split; [|exact H]. unfold somes. apply in_flat_map. exists (Some r). split; [|left; reflexivity].
    rewrite <- E. apply in_map, Hc.
  Qed.
  Lemma all_distinct : NoDup (map fst all).
  Proof.
    assert (P : exists rest, Permutation (map fst all ++ rest) (flat_map lab (List.concat cs))).
    { unfold all. clear all labels_distinct. induction cs as [|c ds IH]; [exists []; constructor|]. destruct IH as [rest IH]; [intros d r Hd; apply labelled; right; exact Hd|].
      cbn [map List.concat]. rewrite flat_map_app. destruct (f c) as [r|] eqn:E.
      - exists rest. change (somes (Some r :: map f ds)) with (r :: somes (map f ds)). cbn [List.concat]. rewrite map_app, <- app_assoc. apply Permutation_app; [apply labelled; [left; reflexivity|exact E]|exact IH].
      - exists (flat_map lab c ++ rest). change (somes (None :: map f ds)) with (somes (map f ds)). rewrite app_assoc. eapply Permutation_trans; [apply Permutation_app_tail, Permutation_app_comm|].
        rewrite <- app_assoc. apply Permutation_app_head, IH. }
    destruct P as [rest P]. apply (@NoDup_app_l _ _ rest). eapply Permutation_NoDup; [apply Permutation_sym, P|exact labels_distinct].
  Qed.
  Lemma found : forall c r l v, In c cs -> f c = Some r -> In (l, v) r -> dget l all = Some v.
  Proof. intros c r l v Hc E H. apply dget_NoDup; [apply all_distinct|]. eapply In_all_of; eassumption. Qed.
  Lemma not_found : forall c b l, In c cs -> In b c -> In l (lab b) -> f c = None -> dget l all = None.
  Proof.
    intros c b l Hc Hb Hl E. destruct (dget l all) as [v|] eqn:G; [|reflexivity]. exfalso. apply dget_In, In_all in G as [c' [r [Hc' [E' H]]]].
    assert (c = c'); [|congruence]. apply (@owner_unique _ lab cs c c' l); auto.
    - apply in_flat_map. exists b. auto.
    - eapply Permutation_in; [apply labelled; eassumption|]. apply (in_map fst) in H. exact H.
  Qed.
  Lemma has_row : forall c b l r, In c cs -> In b c -> In l (lab b) -> f c = Some r -> exists v, In (l, v) r.
  Proof.
    intros c b l r Hc Hb Hl E. assert (H : In l (map fst r)).
    { eapply Permutation_in; [apply Permutation_sym, labelled; eassumption|]. apply in_flat_map. exists b. auto. }
    apply in_map_iff in H as [[l' v] [E' H]]. cbn in E'. subst l'. exists v. exact H.
  Qed.
  Lemma collected : forall labels, somes (map f cs) <> [] -> collect labels (somes (map f cs)) = Ok (Some (map (fun l => (l, dget l all)) labels)).
  Proof. intros labels H. apply collect_some; [exact H|apply all_distinct]. Qed.
  Lemma somes_nonempty : forall c r, In c cs -> f c = Some r -> somes (map f cs) <> [].
  Proof.
    intros c r Hc E X. assert (H : In r (somes (map f cs))); [|rewrite X in H; destruct H]. unfold somes. apply in_flat_map. exists (Some r). split; [|left; reflexivity]. rewrite <- E. apply in_map, Hc.
  Qed.
End Collected.
Lemma labels_NoDup : forall {A} (inv : list (Z * A)), NoDup (map fst inv) -> NoDup (map label_of inv).
Proof. intros A inv H. replace (map label_of inv) with (map str_of_Z (map fst inv)) by (rewrite map_map; reflexivity). apply map_NoDup_in; [|exact H]. intros a b _ _. apply str_of_Z_inj. Qed.
Lemma demand_labels_NoDup : forall {A} ims (inv : list (Z * A)), NoDup ims -> NoDup (map fst inv) -> (forall b, In b inv -> (0 <= fst b)%Z) ->
  NoDup (flat_map (fun b => map (fun im => demand_label im (label_of b)) ims) inv).
Proof.
  intros A ims inv Hi. induction inv as [|b inv IH]; intros Hn Hz; [constructor|]. cbn [map] in Hn. apply NoDup_cons_iff in Hn as [N Hn]. cbn [flat_map].
  assert (D : forall c, In c (b :: inv) -> has_char "-" (label_of c) = false) by (intros c Hc; apply P_Req.no_dash_Z, Hz, Hc).
  apply NoDup_app_intro.
  - apply map_NoDup_in; [|exact Hi]. intros x y _ _ E. apply demand_label_inj in E; [apply E|apply D; left; reflexivity|apply D; left; reflexivity].
  - apply IH; [exact Hn|]. intros c Hc. apply Hz. right. exact Hc.
  - intros x H1 H2. apply in_map_iff in H1 as [im [<- _]]. apply in_flat_map in H2 as [c [Hc H2]]. apply in_map_iff in H2 as [im' [E _]].
    apply demand_label_inj in E; [|apply D; right; exact Hc|apply D; left; reflexivity]. destruct E as [_ E]. unfold label_of in E. apply str_of_Z_inj in E. apply N. rewrite <- E. apply in_map, Hc.
Qed.
Lemma rows_determined : forall {B V} (lab : B -> string) (h : B -> V) inv (g : list (string * V)), map fst g = map lab inv -> NoDup (map lab inv) ->
  (forall b, In b inv -> In (lab b, h b) g) -> g = map (fun b => (lab b, h b)) inv.
Proof.
  intros B V lab h inv. induction inv as [|b inv IH]; intros g E N H.
  - apply map_eq_nil in E. exact E.
  - destruct g as [|[l v] g]; [discriminate|]. cbn [map fst] in E, N |- *. injection E as -> E. apply NoDup_cons_iff in N as [N1 N2].
    assert (v = h b).
    { destruct (H b (or_introl eq_refl)) as [X|X]; [congruence|]. exfalso. apply N1. rewrite <- E. apply (in_map fst) in X. exact X. }
    subst v. f_equal. apply IH; [exact E|exact N2|]. intros b' Hb'. destruct (H b' (or_intror Hb')) as [X|X]; [|exact X]. exfalso. apply N1. injection X as X _. rewrite X. apply in_map, Hb'.
Qed.

(** ** Damage states *)

Lemma pair_eqb_eq : forall a b, pair_eqb a b = true <-> a = b.
Proof.
  intros [a b] [c d]. unfold pair_eqb. cbn [fst snd]. rewrite andb_true_iff, !String.eqb_eq. split; [intros [-> ->]; reflexivity|]. intros E. injection E as -> ->. auto.
Qed.
Lemma at_pair_true : forall c l x, at_pair c l x = true <-> ce_cmp x = c /\ ce_loc x = l.
Proof. intros c l x. unfold at_pair. rewrite andb_true_iff, !String.eqb_eq. reflexivity. Qed.
Lemma fold_max : forall l q, In (fold_left Qcmax l q) (q :: l) /\ forall x, In x (q :: l) -> (x <= fold_left Qcmax l q)%Qc.
Proof.
  induction l as [|y l IH]; intros q; cbn [fold_left].
  - split; [left; reflexivity|]. intros x [<-|[]]. apply Qcle_refl.
  - destruct (IH (Qcmax q y)) as [A B]. assert (M : Qcmax q y = q /\ (y <= q)%Qc \/ Qcmax q y = y /\ (q <= y)%Qc).
    { unfold Qcmax. destruct (Qclt_le_dec q y) as [L|L]; [right; split; [reflexivity|apply Qclt_le_weak, L]|left; auto]. }
    split.
    + destruct A as [A|A]; [|right; right; exact A]. rewrite <- A. destruct M as [[-> _]|[-> _]]; [left; reflexivity|right; left; reflexivity].
    + intros x [<-|[<-|Hx]].
      * eapply Qcle_trans; [|apply B; left; reflexivity]. destruct M as [[-> _]|[-> L]]; [apply Qcle_refl|exact L].
      * eapply Qcle_trans; [|apply B; left; reflexivity]. destruct M as [[-> L]|[-> _]]; [exact L|apply Qcle_refl].
      * apply B. right. exact Hx.
Qed.
Lemma nmax_skip_is : forall l m, In (Some m) l -> (forall q, In (Some q) l -> (q <= m)%Qc) -> nmax_skip l = Some m.
Proof.
  intros l m Hm Hl. unfold nmax_skip. assert (I : forall q, In q (somes l) <-> In (Some q) l) by (intros q; apply In_somes).
  destruct (somes l) as [|q tl]; [apply I in Hm; destruct Hm|]. destruct (fold_max tl q) as [A B]. f_equal. apply Qcle_antisym.
  - apply Hl, I, A.
  - apply B, I, Hm.
Qed.
Lemma qsum_nonneg_pos : forall l x, In x l -> (0 < x)%Qc -> (forall y, In y l -> (0 <= y)%Qc) -> (0 < qsum l)%Qc.
Proof.
  intros l x. assert (N : forall l, (forall y, In y l -> (0 <= y)%Qc) -> (0 <= qsum l)%Qc).
  { clear. induction l as [|y l IH]; intros H; [apply Qcle_refl|]. rewrite qsum_cons. assert (A := H y (or_introl eq_refl)). assert (B := IH (fun z Hz => H z (or_intror Hz))). set (s := qsum l) in *. clearbody s. clear - A B. qlra. }
  induction l as [|y l IH]; intros Hx Px Hl; [destruct Hx|]. rewrite qsum_cons. assert (A := Hl y (or_introl eq_refl)). destruct Hx as [->|Hx].
  - assert (B := N l (fun z Hz => Hl z (or_intror Hz))). set (s := qsum l) in *. clearbody s. clear - Px B. qlra.
  - assert (B := IH Hx Px (fun z Hz => Hl z (or_intror Hz))). set (s := qsum l) in *. clearbody s. clear - A B. qlra.
Qed.
Lemma qsum_zeros : forall l, (forall y, In y l -> y = 0%Qc) -> qsum l = 0%Qc.
Proof. induction l as [|y l IH]; intros H; [reflexivity|]. rewrite qsum_cons, IH by (intros z Hz; apply H; right; exact Hz). rewrite (H y (or_introl eq_refl)). ring. Qed.
Lemma governing_is : forall cells c l s, realized cells c l s -> governing_state cells c l = Some (qz s).
Proof.
  intros cells c l s [Hs [[x [q [Hx [Ec [El [Ed [Ev Hq]]]]]]] Hall]]. unfold governing_state. apply nmax_skip_is.
  - apply in_map_iff. exists s. split.
    + assert (T : exists t, state_total cells c l s = Some t /\ (0 < t)%Qc).
      { unfold state_total, nsum1. set (vs := map ce_value _). assert (I : forall v, In v (somes vs) -> (0 <= v)%Qc).
        { intros v Hv. apply (proj1 (@In_somes _ _ _)) in Hv. unfold vs in Hv. apply in_map_iff in Hv as [y [Ey Hy]]. apply filter_In in Hy as [Hy F]. apply andb_true_iff in F as [F _]. apply at_pair_true in F as [F1 F2]. apply (Hall y v Hy F1 F2 Ey). }
        assert (J : In q (somes vs)).
        { apply (proj2 (@In_somes _ _ _)). unfold vs. apply in_map_iff. exists x. split; [exact Ev|]. apply filter_In. split; [exact Hx|]. apply andb_true_iff. split; [apply at_pair_true; auto|apply Z.eqb_eq, Ed]. }
        destruct (somes vs) as [|v0 tl] eqn:E; [destruct J|]. rewrite <- E in *. eexists. split; [reflexivity|]. apply (@qsum_nonneg_pos _ q J Hq I). }
      destruct T as [t [-> Ht]]. cbn [marked]. apply Qcltb_true in Ht. rewrite Ht. cbn [nmul]. f_equal. ring.
    + apply (unique_In Z.eqb Z.eqb_eq). apply in_map_iff. exists x. split; [exact Ed|]. apply filter_In. split; [exact Hx|]. apply at_pair_true. auto.
  - intros m Hm. apply in_map_iff in Hm as [k [E Hk]]. destruct (Z.eq_dec k s) as [->|Ne].
    + destruct (state_total cells c l s) as [t|]; [|discriminate]. cbn [marked] in E.
      destruct (Qcltb 0 t) eqn:Lt; cbn [nmul] in E; injection E as <-.
      * replace (1 * qz s)%Qc with (qz s) by ring. apply Qcle_refl.
      * assert (Lt' : (t <= 0)%Qc) by (apply Qcnot_lt_le; intros X; apply Qcltb_true in X; congruence).
        assert (Z0 : (0 <= qz s)%Qc) by (apply P_Outputs.qz_nonneg; exact Hs). apply Qcle_trans with 0%Qc; [|exact Z0]. set (z := qz s) in *. clearbody z. clear - Lt' Z0. qnra.
    + assert (T : state_total cells c l k = None \/ state_total cells c l k = Some 0%Qc).
      { unfold state_total, nsum1. set (vs := map ce_value _). assert (I : forall v, In v (somes vs) -> v = 0%Qc).
        { intros v Hv. apply (proj1 (@In_somes _ _ _)) in Hv. unfold vs in Hv. apply in_map_iff in Hv as [y [Ey Hy]]. apply filter_In in Hy as [Hy F]. apply andb_true_iff in F as [F F3]. apply at_pair_true in F as [F1 F2]. apply Z.eqb_eq in F3.
          apply (Hall y v Hy F1 F2 Ey). congruence. }
        destruct (somes vs) as [|v0 tl] eqn:E2; [left; reflexivity|right]. f_equal. apply qsum_zeros, I. }
      assert (Z0 : (0 <= qz s)%Qc) by (apply P_Outputs.qz_nonneg; exact Hs).
      destruct T as [T|T]; rewrite T in E; [discriminate|]. cbn [marked] in E. change (Qcltb 0 0) with false in E. cbn [nmul] in E. injection E as <-. replace (0 * qz k)%Qc with 0%Qc by ring. exact Z0.
Qed.
Lemma filter_single : forall {A} (p : A -> bool) l x, NoDup l -> In x l -> (forall y, In y l -> p y = true <-> y = x) -> filter p l = [x].
Proof.
  intros A p l x. induction l as [|y l IH]; intros Hn Hx Hp; [destruct Hx|]. apply NoDup_cons_iff in Hn as [N Hn]. cbn [filter]. destruct (p y) eqn:E.
  - apply (Hp y (or_introl eq_refl)) in E. subst y. f_equal. assert (F : forall z, In z l -> p z = false).
    { intros z Hz. destruct (p z) eqn:Ez; [|reflexivity]. apply (Hp z (or_intror Hz)) in Ez. subst. contradiction. }
    clear - F. induction l as [|z l IH]; [reflexivity|]. cbn [filter]. rewrite (F z (or_introl eq_refl)). apply IH. intros w Hw. apply F. right. exact Hw.
  - apply IH; [exact Hn| |intros z Hz; apply Hp; right; exact Hz]. destruct Hx as [->|Hx]; [|exact Hx]. assert (p x = true) by (apply (Hp x (or_introl eq_refl)); reflexivity). congruence.
Qed.
Lemma table_row : forall cells table l z, damage_table cells = Ok table -> (exists x, In x cells /\ ce_loc x = l) -> pyint l = Some z ->
  exists gs, (Forall2 (fun cl g => governing_state cells (fst cl) (snd cl) = Some (snd g) /\ fst g = cl) (unique pair_eqb (map (fun x => (ce_cmp x, ce_loc x)) cells)) gs) /\
  In (z, qsum (map snd (filter (fun g => String.eqb (snd (fst g)) l) gs))) table.
Proof.
  intros cells table l z H [x [Hx El]] Hz. unfold damage_table in H. destruct (mapM _ (unique pair_eqb _)) as [gs|e] eqn:G; cbn [bind] in H; [|discriminate].
  destruct (mapM _ (unique String.eqb _)) as [tb|e] eqn:T; cbn [bind] in H; [|discriminate]. injection H as <-. apply (proj1 (@mapM_Forall2 _ _ _ _ _)) in G. apply (proj1 (@mapM_Forall2 _ _ _ _ _)) in T.
  exists gs. split.
  - clear T. induction G as [|cl g ls lg E _ IH]; constructor; [|exact IH]. destruct (governing_state cells (fst cl) (snd cl)); [|discriminate]. injection E as <-. auto.
  - assert (Hl : In l (unique String.eqb (map (fun g : (string * string) * Qc => snd (fst g)) gs))).
    { apply (unique_In String.eqb String.eqb_eq). assert (Hc : In (ce_cmp x, l) (unique pair_eqb (map (fun x => (ce_cmp x, ce_loc x)) cells))).
      { apply (unique_In pair_eqb pair_eqb_eq). apply in_map_iff. exists x. split; [rewrite El; reflexivity|exact Hx]. }
      destruct (@Forall2_In_l _ _ _ _ _ _ G Hc) as [g [Hg Eg]]. cbn [fst snd] in Eg. destruct (governing_state cells (ce_cmp x) l); [|discriminate]. injection Eg as <-.
      apply in_map_iff. exists ((ce_cmp x, l), q). auto. }
    destruct (@Forall2_In_l _ _ _ _ _ _ T Hl) as [r [Hr Er]]. rewrite Hz in Er. injection Er as <-. apply (Permutation_in _ (isort_perm _ _)). exact Hr.
Qed.
Lemma table_single : forall cells table c l s z, damage_table cells = Ok table -> pyint l = Some z -> realized cells c l s ->
  (forall x, In x cells -> ce_loc x = l -> ce_cmp x = c) -> In (z, qz s) table.
Proof.
  intros cells table c l s z H Hz Hr Hc. pose proof Hr as [_ [[x [q [Hx [Ec [El _]]]]] _]].
  destruct (@table_row cells table l z H (ex_intro _ x (conj Hx El)) Hz) as [gs [G I]].
  assert (E : filter (fun g : (string * string) * Qc => String.eqb (snd (fst g)) l) gs = [((c, l), qz s)]); [|rewrite E in I; cbn [map snd] in I; replace (qsum [qz s]) with (qz s) in I by (unfold qsum; cbn [fold_right]; ring); exact I].
  assert (M : map fst gs = unique pair_eqb (map (fun x => (ce_cmp x, ce_loc x)) cells)) by (clear - G; induction G as [|cl g ls lg [_ E] _ IH]; [reflexivity|]; cbn [map]; rewrite IH, E; reflexivity).
  assert (N : NoDup (map fst gs)) by (rewrite M; apply (unique_NoDup pair_eqb pair_eqb_eq)).
  assert (V : forall g, In g gs -> governing_state cells (fst (fst g)) (snd (fst g)) = Some (snd g)).
  { intros g Hg. destruct (@Forall2_In_r _ _ _ _ _ _ G Hg) as [cl [_ [A B]]]. rewrite B. exact A. }
  assert (K : forall g, In g gs -> snd (fst g) = l -> g = ((c, l), qz s)).
  { intros g Hg El'. assert (X : In (fst g) (map fst gs)) by (apply in_map, Hg). rewrite M in X. apply (proj1 (unique_In pair_eqb pair_eqb_eq _ _)) in X. apply in_map_iff in X as [y [Ey Hy]].
    pose proof (V g Hg) as Vg. destruct g as [[c' l'] v]. cbn [fst snd] in *. subst l'. apply pair_equal_spec in Ey as [Ey1 Ey2]. assert (X : c' = c) by (rewrite <- Ey1; apply Hc; assumption). rewrite X in *.
    rewrite (governing_is Hr) in Vg. congruence. }
  apply filter_single.
  - apply NoDup_map_inv with (f := fst). exact N.
  - assert (X : In (c, l) (map fst gs)) by (rewrite M; apply (unique_In pair_eqb pair_eqb_eq); apply in_map_iff; exists x; split; [congruence|exact Hx]).
    apply in_map_iff in X as [g [Eg Hg]]. rewrite <- (K g Hg) by (rewrite Eg; reflexivity). exact Hg.
  - intros g Hg. rewrite String.eqb_eq. split; [apply K, Hg|]. intros ->. reflexivity.
Qed.
