(** Proofs about random variable sets and registries. *)
From Coq Require Import Sorting.Permutation.
From Verif Require Import Prelude PreludeFacts Pandas PandasFacts P_Eval M_UQ S_UQ P_Var.
Local Open Scope string_scope.
Local Open Scope list_scope.

(** ** Matrices *)

Definition rect (r c : nat) (m : matrix) : Prop := List.length m = r /\ Forall (fun row => List.length row = c) m.

Lemma square_rect n m : square n m <-> rect n n m.
Proof. reflexivity. Qed.

Lemma entry_transpose r c m : (0 < r)%nat -> rect r c m -> forall i j, entry (transpose m) i j = entry m j i.
Proof.
  intros Hr (Hl & Hf) i j. unfold transpose. destruct m as [|row0 m]; [cbn in Hl; lia|].
  assert (H0 : List.length row0 = c) by (inversion Hf; assumption). rewrite H0.
  unfold entry. set (m' := row0 :: m) in *.
  destruct (Nat.lt_ge_cases i c) as [Hi|Hi].
  - erewrite map_nth_error with (d := i) by (rewrite nth_error_nth' with (d := O) by (rewrite seq_length; exact Hi); now rewrite seq_nth by exact Hi).
    destruct (nth_error m' j) as [row|] eqn:E.
    + erewrite map_nth_error; [|exact E]. symmetry. apply nth_error_nth'. rewrite Forall_forall in Hf.
      rewrite (Hf row); [exact Hi|]. now apply nth_error_In in E.
    + apply nth_error_None. apply nth_error_None in E. now rewrite map_length.
  - replace (nth_error (map (fun j0 => map (fun row => nth j0 row 0%Qc) m') (seq 0 c)) i) with (@None (list Qc))
      by (symmetry; apply nth_error_None; now rewrite map_length, seq_length).
    destruct (nth_error m' j) as [row|] eqn:E; [|reflexivity]. symmetry. apply nth_error_None. rewrite Forall_forall in Hf.
    rewrite (Hf row); [exact Hi|]. now apply nth_error_In in E.
Qed.

Lemma rect_transpose r c m : (0 < r)%nat -> rect r c m -> rect c r (transpose m).
Proof.
  intros Hr (Hl & Hf). unfold transpose. destruct m as [|row0 m]; [cbn in Hl; lia|].
  assert (H0 : List.length row0 = c) by (inversion Hf; assumption). split; [now rewrite map_length, seq_length|].
  rewrite Forall_forall. intros row Hin. apply in_map_iff in Hin. destruct Hin as (k & <- & _). now rewrite map_length.
Qed.

Lemma take_rows_spec {A} (m : list A) ids r : take_rows m ids = Ok r -> List.length r = List.length ids /\
  forall k, nth_error r k = match nth_error ids k with Some i => nth_error m i | None => None end.
Proof.
  unfold take_rows. intros H. apply mapM_Forall2 in H. induction H as [|i x ids r Hi _ IH]; [split; [reflexivity|now intros []]|].
  destruct IH as (Hl & IH). split; [cbn; lia|]. intros [|k]; [|apply IH]. cbn.
  destruct (nth_error m i) as [y|]; [congruence|discriminate].
Qed.

Lemma take_rows_ok {A} (m : list A) ids : Forall (fun i => (i < List.length m)%nat) ids -> exists r, take_rows m ids = Ok r.
Proof.
  unfold take_rows. induction ids as [|i ids IH]; intros H; [now exists []|]. inversion H; subst. destruct (IH H3) as (r & Er).
  cbn [mapM]. destruct (nth_error m i) as [x|] eqn:E; [|apply nth_error_None in E; lia]. exists (x :: r). cbn [bind]. now rewrite Er.
Qed.

Lemma entry_take m ids r : take_rows m ids = Ok r -> forall k j,
  entry r k j = match nth_error ids k with Some i => entry m i j | None => None end.
Proof. intros H k j. unfold entry. destruct (take_rows_spec _ _ _ H) as (_ & E). rewrite E. now destruct (nth_error ids k). Qed.

Lemma rect_take n c m ids r : rect n c m -> take_rows m ids = Ok r -> rect (List.length ids) c r.
Proof.
  intros (_ & Hf) H. destruct (take_rows_spec _ _ _ H) as (Hl & E). split; [exact Hl|]. rewrite Forall_forall in *.
  intros row Hin. apply In_nth_error in Hin. destruct Hin as (k & Hk). rewrite E in Hk. destruct (nth_error ids k) as [i|]; [|discriminate].
  apply Hf. now apply nth_error_In in Hk.
Qed.

(** ** Sets *)

Lemma argsort_perm names : Permutation (argsort names) (seq 0 (List.length names)).
Proof.
  unfold argsort. transitivity (map snd (combine names (seq 0 (List.length names)))).
  - apply Permutation_map. apply Permutation_sym. apply isort_perm.
  - replace (map snd (combine names (seq 0 (List.length names)))) with (seq 0 (List.length names)); [reflexivity|].
    symmetry. generalize (seq_length (List.length names) 0). generalize (seq 0 (List.length names)). clear.
    induction names as [|a names IH]; intros [|s l] H; cbn in *; try easy. f_equal. apply IH. lia.
Qed.

Lemma argsort_bound names i k : nth_error (argsort names) k = Some i -> (i < List.length names)%nat.
Proof. intros H. apply nth_error_In in H. rewrite argsort_perm in H. apply in_seq in H. lia. Qed.

Lemma make_set_spec names rho : square (List.length names) rho -> exists s, make_set names rho = Ok s /\
  square (List.length names) (s_rho s) /\ exists ids, Permutation ids (seq 0 (List.length names)) /\
  (forall k, nth_error (s_names s) k = match nth_error ids k with Some i => nth_error names i | None => None end) /\
  (forall k l, entry (s_rho s) k l = match nth_error ids k, nth_error ids l with Some i, Some j => entry rho i j | _, _ => None end).
Proof.
  intros Hsq. unfold make_set. destruct (Nat.ltb_spec 1 (List.length names)) as [Hn|Hn].
  - pose proof (argsort_perm names) as Hp. set (ids := argsort names) in *. set (n := List.length names) in *.
    assert (Hlen : List.length ids = n) by (rewrite (Permutation_length Hp); apply seq_length).
    assert (Hb : Forall (fun i => (i < n)%nat) ids) by (rewrite Forall_forall; intros i Hi; rewrite Hp in Hi; apply in_seq in Hi; lia).
    destruct (@take_rows_ok _ names ids Hb) as (sorted & Es). rewrite Es. cbn [bind].
    destruct Hsq as (Hl & Hf). assert (Hb' : Forall (fun i => (i < List.length rho)%nat) ids) by now rewrite Hl.
    destruct (@take_rows_ok _ rho ids Hb') as (rows & Er). rewrite Er. cbn [bind].
    assert (Hrect : rect n n rows) by (rewrite <- Hlen at 1; eapply rect_take; [split; [exact Hl|exact Hf]|exact Er]).
    assert (Hrt : rect n n (transpose rows)) by (apply rect_transpose; [lia|exact Hrect]).
    assert (Hb'' : Forall (fun i => (i < List.length (transpose rows))%nat) ids) by now rewrite (proj1 Hrt).
    destruct (@take_rows_ok _ (transpose rows) ids Hb'') as (cols & Ec). rewrite Ec. cbn [bind].
    assert (Hrc : rect n n cols) by (rewrite <- Hlen at 1; eapply rect_take; [exact Hrt|exact Ec]).
    eexists. split; [reflexivity|]. cbn [s_rho s_names]. split; [apply rect_transpose; [lia|exact Hrc]|].
    exists ids. split; [exact Hp|]. split; [apply (take_rows_spec _ _ _ Es)|].
    intros k l. rewrite entry_transpose with (r := n) (c := n) by (lia || exact Hrc).
    rewrite (entry_take _ _ _ Ec). destruct (nth_error ids l) as [j|] eqn:El; [|now destruct (nth_error ids k)].
    rewrite entry_transpose with (r := n) (c := n) by (lia || exact Hrect).
    rewrite (entry_take _ _ _ Er). now destruct (nth_error ids k).
  - eexists. split; [reflexivity|]. cbn [s_rho s_names]. split; [exact Hsq|]. exists (seq 0 (List.length names)). split; [reflexivity|].
    assert (Hs : forall k, nth_error (seq 0 (List.length names)) k = if (k <? List.length names)%nat then Some k else None).
    { intros k. destruct (Nat.ltb_spec k (List.length names)) as [Hk|Hk]; [|apply nth_error_None; now rewrite seq_length].
      rewrite nth_error_nth' with (d := O) by (now rewrite seq_length). now rewrite seq_nth. }
    split.
    + intros k. rewrite Hs. destruct (Nat.ltb_spec k (List.length names)) as [Hk|Hk]; [reflexivity|]. now apply nth_error_None.
    + intros k l. rewrite !Hs. destruct Hsq as (Hl & Hf). destruct (Nat.ltb_spec k (List.length names)) as [Hk|Hk].
      * destruct (Nat.ltb_spec l (List.length names)) as [Hk'|Hk']; [reflexivity|]. unfold entry. destruct (nth_error rho k) as [row|] eqn:E; [|reflexivity].
        apply nth_error_None. rewrite Forall_forall in Hf. rewrite (Hf row); [exact Hk'|]. now apply nth_error_In in E.
      * unfold entry. replace (nth_error rho k) with (@None (list Qc)); [reflexivity|]. symmetry. apply nth_error_None. now rewrite Hl.
Qed.

Lemma nth_error_ext {A} (l l' : list A) : (forall k, nth_error l k = nth_error l' k) -> l = l'.
Proof.
  revert l'. induction l as [|x l IH]; intros [|y l'] H; [reflexivity|specialize (H O); discriminate|specialize (H O); discriminate|].
  pose proof (H O) as E. injection E as ->. f_equal. apply IH. intros k. exact (H (S k)).
Qed.

Lemma perm_index ids n i : Permutation ids (seq 0 n) -> (i < n)%nat -> exists k, nth_error ids k = Some i.
Proof. intros Hp Hi. apply In_nth_error. rewrite Hp. apply in_seq. lia. Qed.

Lemma set_correlations names rho : square (List.length names) rho -> exists s, make_set names rho = Ok s /\
  Permutation (s_names s) names /\ square (List.length names) (s_rho s) /\
  forall a b c, correlation (s_names s) (s_rho s) a b c <-> correlation names rho a b c.
Proof.
  intros Hsq. destruct (@make_set_spec names rho Hsq) as (s & Es & Hss & ids & Hp & Hn & He).
  exists s. split; [exact Es|]. split; [|split; [exact Hss|]].
  - assert (E : s_names s = map (fun i => nth i names "") ids).
    { apply nth_error_ext. intros k. rewrite Hn. destruct (nth_error ids k) as [i|] eqn:E.
      - erewrite map_nth_error; [|exact E]. apply nth_error_nth'. apply nth_error_In in E. rewrite Hp in E. apply in_seq in E. lia.
      - symmetry. apply nth_error_None. rewrite map_length. now apply nth_error_None. }
    rewrite E. transitivity (map (fun i => nth i names "") (seq 0 (List.length names))); [now apply Permutation_map|].
    assert (En : map (fun i => nth i names "") (seq 0 (List.length names)) = names); [|now rewrite En].
    apply nth_error_ext. intros k. destruct (Nat.lt_ge_cases k (List.length names)) as [Hk|Hk].
    + erewrite map_nth_error with (d := k) by (rewrite nth_error_nth' with (d := O) by (now rewrite seq_length); now rewrite seq_nth).
      symmetry. now apply nth_error_nth'.
    + rewrite (proj2 (nth_error_None names k) Hk). apply nth_error_None. now rewrite map_length, seq_length.
  - intros a b c. unfold correlation. split.
    + intros (i & j & Ha & Hb & Hc). rewrite Hn in Ha, Hb. rewrite He in Hc.
      destruct (nth_error ids i) as [i'|]; [|discriminate]. destruct (nth_error ids j) as [j'|]; [|discriminate]. now exists i', j'.
    + intros (i & j & Ha & Hb & Hc).
      destruct (@perm_index ids _ i Hp) as (i' & Ei); [apply nth_error_Some; congruence|].
      destruct (@perm_index ids _ j Hp) as (j' & Ej); [apply nth_error_Some; congruence|].
      exists i', j'. rewrite !Hn, He, Ei, Ej. easy.
Qed.

Lemma index_of_ok x l i : index_of x l = Ok i -> nth_error l i = Some x.
Proof.
  revert i. induction l as [|y l IH]; intros i H; [discriminate|]. cbn [index_of] in H. destruct (String.eqb_spec x y) as [->|Hne].
  - injection H as <-. reflexivity.
  - destruct (index_of x l) as [k|]; [|discriminate]. cbn [bind] in H. injection H as <-. cbn. now apply IH.
Qed.
Lemma index_of_in x l : In x l -> exists i, index_of x l = Ok i.
Proof.
  induction l as [|y l IH]; [easy|]. intros H. cbn [index_of]. destruct (String.eqb_spec x y) as [->|Hne]; [now exists O|].
  destruct H as [->|H]; [easy|]. destruct (IH H) as (i & ->). now exists (S i).
Qed.
Lemma index_of_notin x l : ~ In x l -> index_of x l = Err ValueError.
Proof.
  induction l as [|y l IH]; [reflexivity|]. intros H. cbn [index_of]. destruct (String.eqb_spec x y) as [->|Hne]; [exfalso; apply H; now left|].
  rewrite IH; [reflexivity|]. intros Hin. apply H. now right.
Qed.

Lemma set_rho_unknown s sub : ~ incl sub (s_names s) -> set_rho s (Some sub) = Err ValueError.
Proof.
  intros H. unfold set_rho. assert (E : mapM (fun n => index_of n (s_names s)) sub = Err ValueError); [|now rewrite E].
  induction sub as [|x sub IH]; [exfalso; apply H; easy|]. cbn [mapM].
  destruct (in_dec String.string_dec x (s_names s)) as [Hin|Hin].
  - destruct (@index_of_in x _ Hin) as (i & ->). cbn [bind]. rewrite IH; [reflexivity|]. intros Hi. apply H. intros y [->|Hy]; auto.
  - now rewrite index_of_notin.
Qed.

Lemma set_rho_spec s n sub : square n (s_rho s) -> List.length (s_names s) = n -> NoDup (s_names s) -> incl sub (s_names s) ->
  exists m, set_rho s (Some sub) = Ok m /\ square (List.length sub) m /\
  forall i j a b, nth_error sub i = Some a -> nth_error sub j = Some b ->
    exists c, entry m i j = Some c /\ correlation (s_names s) (s_rho s) b a c.
Proof.
  intros Hsq Hlen Hnd Hincl. unfold set_rho.
  assert (Hids : exists ids, mapM (fun n => index_of n (s_names s)) sub = Ok ids).
  { induction sub as [|x sub IH]; [now exists []|]. destruct IH as (ids & E); [intros y Hy; apply Hincl; now right|].
    destruct (@index_of_in x (s_names s)) as (i & Ei); [apply Hincl; now left|]. exists (i :: ids). cbn [mapM]. rewrite Ei. cbn [bind]. now rewrite E. }
  destruct Hids as (ids & Eids). rewrite Eids. cbn [bind].
  assert (H2 : forall k a, nth_error sub k = Some a -> exists i, nth_error ids k = Some i /\ nth_error (s_names s) i = Some a).
  { apply mapM_Forall2 in Eids. clear -Eids. induction Eids as [|x i sub ids Hx _ IH]; intros k a Hk; [now destruct k|].
    destruct k as [|k]; [|now apply IH]. injection Hk as <-. exists i. split; [reflexivity|]. now apply index_of_ok. }
  assert (Hli : List.length ids = List.length sub) by (eapply mapM_ok_length; exact Eids).
  assert (Hb : Forall (fun i => (i < n)%nat) ids).
  { rewrite Forall_forall. intros i Hi. apply In_nth_error in Hi. destruct Hi as (k & Hk).
    destruct (nth_error sub k) as [a|] eqn:Ea; [|apply nth_error_None in Ea; assert (k < List.length ids)%nat by (apply nth_error_Some; congruence); lia].
    destruct (H2 k a Ea) as (i' & E1 & E2). assert (i' = i) by congruence. subst i'. rewrite <- Hlen. apply nth_error_Some. congruence. }
  destruct Hsq as (Hl & Hf). destruct (@take_rows_ok _ (s_rho s) ids) as (rows & Er); [now rewrite Hl|]. rewrite Er. cbn [bind].
  assert (Hrect : rect (List.length sub) n rows) by (rewrite <- Hli; eapply rect_take; [split; [exact Hl|exact Hf]|exact Er]).
  destruct sub as [|x0 sub0].
  - destruct ids; [|discriminate]. cbn in Er. injection Er as <-. exists []. split; [reflexivity|]. split; [split; [reflexivity|constructor]|].
    intros i j a b Ha. now destruct i.
  - set (sub := x0 :: sub0) in *. assert (Hpos : (0 < List.length sub)%nat) by (cbn; lia).
    assert (Hrt : rect n (List.length sub) (transpose rows)) by (apply rect_transpose; assumption).
    destruct (@take_rows_ok _ (transpose rows) ids) as (m & Em); [now rewrite (proj1 Hrt)|]. exists m. split; [exact Em|].
    split; [pose proof (rect_take _ _ _ _ _ Hrt Em) as Hm; now rewrite Hli in Hm|].
    intros i j a b Ha Hb'. destruct (H2 i a Ha) as (i' & Ei & Ni). destruct (H2 j b Hb') as (j' & Ej & Nj).
    assert (Hi' : (i' < n)%nat) by (rewrite <- Hlen; apply nth_error_Some; congruence).
    assert (Hj' : (j' < n)%nat) by (rewrite <- Hlen; apply nth_error_Some; congruence).
    rewrite (entry_take _ _ _ Em), Ei, entry_transpose with (r := List.length sub) (c := n) by assumption.
    rewrite (entry_take _ _ _ Er), Ej.
    destruct (entry (s_rho s) j' i') as [c|] eqn:Ec.
    + exists c. split; [reflexivity|]. exists j', i'. easy.
    + exfalso. unfold entry in Ec. destruct (nth_error (s_rho s) j') as [row|] eqn:Erow; [|apply nth_error_None in Erow; lia].
      apply nth_error_None in Ec. rewrite Forall_forall in Hf. rewrite (Hf row) in Ec by (now apply nth_error_In in Erow). lia.
Qed.

Lemma correlation_sym names m a b c : symmetric m -> correlation names m a b c -> correlation names m b a c.
Proof. intros Hs (i & j & Ha & Hb & Hc). exists j, i. rewrite Hs in Hc. easy. Qed.

(** ** Adding variables *)

Lemma find_rv_In vars x v : find_rv vars x = Some v -> In v vars /\ v_name v = x.
Proof. unfold find_rv. intros H. apply find_some in H. destruct H as (Hin & E). apply String.eqb_eq in E. easy. Qed.
Lemma find_rv_None vars x : find_rv vars x = None <-> ~ In x (map v_name vars).
Proof.
  unfold find_rv. split.
  - intros H Hin. apply in_map_iff in Hin. destruct Hin as (v & E & Hin). pose proof (find_none _ _ H v Hin) as Hf. cbn in Hf.
    rewrite E, String.eqb_refl in Hf. discriminate.
  - intros H. destruct (find (fun v => String.eqb (v_name v) x) vars) as [v|] eqn:E; [|reflexivity]. exfalso. apply H.
    apply find_some in E. destruct E as (Hin & E). apply String.eqb_eq in E. subst. now apply in_map.
Qed.
Lemma find_rv_found vars v : NoDup (map v_name vars) -> In v vars -> find_rv vars (v_name v) = Some v.
Proof.
  intros Hnd Hin. unfold find_rv. induction vars as [|w vars IH]; [easy|]. cbn [find]. cbn in Hnd. inversion Hnd; subst.
  destruct Hin as [->|Hin]; [now rewrite String.eqb_refl|]. destruct (String.eqb_spec (v_name w) (v_name v)) as [E|_]; [|now apply IH].
  exfalso. apply H1. rewrite E. now apply in_map.
Qed.
Lemma find_rv_app vars vs x : find_rv (vars ++ vs) x = match find_rv vars x with Some v => Some v | None => find_rv vs x end.
Proof. unfold find_rv. induction vars as [|w vars IH]; [reflexivity|]. cbn [find app]. now destruct (String.eqb (v_name w) x). Qed.

Lemma add_each_spec vs : forall r, NoDup (map v_name (r_vars r)) ->
  NoDup (map v_name (r_vars (add_each r vs))) /\ r_sets (add_each r vs) = r_sets r /\
  forall x, find_rv (r_vars (add_each r vs)) x = find_rv (r_vars r ++ vs) x.
Proof.
  induction vs as [|v vs IH]; intros r Hnd; [cbn; rewrite app_nil_r; easy|].
  change (add_each r (v :: vs)) with (add_each (fst (add_rv r v)) vs). unfold add_rv.
  destruct (find_rv (r_vars r) (v_name v)) as [w|] eqn:E; cbn [fst].
  - destruct (IH r Hnd) as (A & B & C). split; [exact A|]. split; [exact B|]. intros x. rewrite C, !find_rv_app.
    destruct (find_rv (r_vars r) x) as [u|] eqn:Ex; [reflexivity|]. cbn [find_rv find].
    destruct (String.eqb_spec (v_name v) x) as [<-|_]; [congruence|reflexivity].
  - apply find_rv_None in E. destruct (IH (Reg (r_vars r ++ [v]) (r_sets r))) as (A & B & C).
    { cbn [r_vars]. rewrite map_app. apply Permutation_NoDup with (l := v_name v :: map v_name (r_vars r)); [|now constructor].
      rewrite Permutation_app_comm. reflexivity. }
    split; [exact A|]. split; [exact B|]. intros x. rewrite C. cbn [r_vars]. now rewrite <- app_assoc.
Qed.

(** ** Anchors *)

Lemma root_anchored : forall fuel vars x r, root_of fuel vars x = Some r -> anchored vars x r.
Proof.
  induction fuel as [|fuel IH]; intros vars x r H; cbn [root_of] in H; destruct (find_rv vars x) as [v|] eqn:E; try discriminate;
    apply find_rv_In in E; destruct E as (Hin & <-); destruct (String.eqb_spec (v_anchor v) (v_name v)) as [Ea|Ea]; try discriminate.
  - injection H as <-. now apply anchored_self.
  - injection H as <-. now apply anchored_self.
  - apply anchored_step; [exact Hin|exact Ea|]. now apply IH.
Qed.

Lemma names_inj vars v w : NoDup (map v_name vars) -> In v vars -> In w vars -> v_name v = v_name w -> v = w.
Proof.
  intros Hnd Hv Hw E. pose proof (find_rv_found _ _ Hnd Hv) as H1. pose proof (find_rv_found _ _ Hnd Hw) as H2. rewrite E in H1. congruence.
Qed.

Lemma anchored_fun vars x r r' : NoDup (map v_name vars) -> anchored vars x r -> anchored vars x r' -> r = r'.
Proof.
  intros Hnd H. revert r'. induction H as [v Hv Ea|v r Hv Ea H IH]; intros r' H'.
  - inversion H' as [w Hw Ew Ex|w s Hw Ew Hs Ex]; subst; [exact (eq_sym Ex) || reflexivity|].
    assert (w = v) by (eapply names_inj; eauto). subst. congruence.
  - inversion H' as [w Hw Ew Ex|w s Hw Ew Hs Ex]; subst; assert (w = v) by (eapply names_inj; eauto); subst; [congruence|]. now apply IH.
Qed.

Lemma anchored_root_free vars x r : anchored vars x r -> exists v, In v vars /\ v_name v = r /\ v_anchor v = r.
Proof. intros H. induction H as [v Hv Ea|v r Hv Ea H IH]; [now exists v|exact IH]. Qed.

(** ** Assignments *)

Lemma assign_rows_notin names : forall rows unis x, ~ In x names -> dget x (assign_rows names rows unis) = dget x unis.
Proof.
  unfold assign_rows. induction names as [|n names IH]; intros [|row rows] unis x Hx; try reflexivity. cbn [combine fold_left fst snd].
  rewrite IH by (intros H; apply Hx; now right). apply dget_dset_ne. intros ->. apply Hx. now left.
Qed.
Lemma assign_rows_nth names : forall rows unis k x row, NoDup names -> nth_error names k = Some x -> nth_error rows k = Some row ->
  dget x (assign_rows names rows unis) = Some row.
Proof.
  induction names as [|n names IH]; intros rows unis k x row Hnd Hk Hr; [now destruct k|]. inversion Hnd; subst.
  destruct rows as [|row0 rows]; [now destruct k|]. change (assign_rows (n :: names) (row0 :: rows) unis) with (assign_rows names rows (dset n row0 unis)).
  destruct k as [|k].
  - injection Hk as <-. injection Hr as <-. rewrite assign_rows_notin by assumption. apply dget_dset_eq.
  - now apply IH with (k := k).
Qed.
Lemma assign_rows_some names : forall rows unis x row, dget x (assign_rows names rows unis) = Some row -> In row rows \/ dget x unis = Some row.
Proof.
  induction names as [|n names IH]; intros rows unis x row H; [now right|]. destruct rows as [|row0 rows]; [now right|].
  change (assign_rows (n :: names) (row0 :: rows) unis) with (assign_rows names rows (dset n row0 unis)) in H.
  apply IH in H. destruct H as [H|H]; [left; now right|]. destruct (String.eqb_spec x n) as [->|Hne].
  - rewrite dget_dset_eq in H. injection H as <-. left. now left.
  - rewrite dget_dset_ne in H by assumption. now right.
Qed.
Lemma assign_rows_keeps names : forall rows unis x, (exists u, dget x unis = Some u) -> exists u, dget x (assign_rows names rows unis) = Some u.
Proof.
  induction names as [|n names IH]; intros rows unis x H; [exact H|]. destruct rows as [|row0 rows]; [exact H|].
  change (assign_rows (n :: names) (row0 :: rows) unis) with (assign_rows names rows (dset n row0 unis)). apply IH.
  destruct (String.eqb_spec x n) as [->|Hne]; [rewrite dget_dset_eq; eauto|]. now rewrite dget_dset_ne.
Qed.

Lemma correlate_notin copula vars unis s unis' x : correlate copula vars unis s = Ok unis' -> ~ In x (s_names (snd s)) -> dget x unis' = dget x unis.
Proof.
  unfold correlate. intros H Hx. destruct (mapM _ (s_names (snd s))) as [rows|]; [|discriminate]. cbn [bind] in H. injection H as <-. now apply assign_rows_notin.
Qed.
Lemma correlates_notin copula vars sets : forall unis unis' x, foldM (correlate copula vars) unis sets = Ok unis' ->
  (forall s, In s sets -> ~ In x (s_names (snd s))) -> dget x unis' = dget x unis.
Proof.
  induction sets as [|s sets IH]; intros unis unis' x H Hx; cbn [foldM] in H; [congruence|].
  destruct (correlate copula vars unis s) as [u1|] eqn:E; [|discriminate]. cbn [bind] in H.
  rewrite (IH u1 unis' x H) by (intros s' Hs'; apply Hx; now right). eapply correlate_notin; [exact E|]. apply Hx. now left.
Qed.

(** ** Rows of the generator *)

Definition row_of (n : nat) (latin_row : bool) (u : list Qc) : Prop := List.length u = n /\ (latin_row = true -> latin n u).

Lemma is_lhs method : method = "LHS" \/ method = "LHS_midpoint" -> contains "LHS" method = true.
Proof. now intros [->| ->]. Qed.

Lemma half_range : (0 <= qc (1 # 2))%Qc /\ (qc (1 # 2) < 1)%Qc.
Proof. now split. Qed.

Lemma controlling_rows method n count perms draws rows : generator n count perms draws -> controlling method n count perms draws = Ok rows ->
  List.length rows = count /\ Forall (row_of n (contains "LHS" method)) rows.
Proof.
  intros (Hp & Hd & Hfp & Hfd) H. unfold controlling in H. rewrite Forall_forall in Hfp, Hfd.
  destruct (contains "LHS" method).
  - destruct (String.eqb method "LHS_midpoint").
    + injection H as <-. split; [rewrite map_length, firstn_length; lia|]. rewrite Forall_forall. intros row Hin.
      apply in_map_iff in Hin. destruct Hin as (p & <- & Hin). assert (Hpin : In p perms) by (rewrite <- (firstn_skipn count perms); apply in_or_app; now left).
      specialize (Hfp p Hpin).
      assert (Hl : latin n (stratified n p (repeat (qc (1 # 2)) n))).
      { apply stratified_latin; [exact Hfp|apply repeat_length|]. rewrite Forall_forall. intros x Hx. apply repeat_spec in Hx. subst. apply half_range. }
      split; [apply Hl|now intros].
    + destruct (String.eqb method "LHS"); [|discriminate]. injection H as <-.
      split; [rewrite map_length, firstn_length, combine_length; lia|]. rewrite Forall_forall. intros row Hin.
      apply in_map_iff in Hin. destruct Hin as ([p d] & <- & Hin).
      assert (Hc : In (p, d) (combine perms draws)) by (rewrite <- (firstn_skipn count (combine perms draws)); apply in_or_app; now left).
      pose proof (in_combine_l _ _ _ _ Hc) as Hpin. apply in_combine_r in Hc. destruct (Hfd d Hc) as (Hdl & Hdr).
      assert (Hl : latin n (stratified n p d)) by (apply stratified_latin; auto).
      split; [apply Hl|now intros].
  - destruct (String.eqb method "MonteCarlo"); [|discriminate]. injection H as <-. split; [rewrite firstn_length; lia|].
    rewrite Forall_forall. intros row Hin. split; [|discriminate].
    assert (Hc : In row draws) by (rewrite <- (firstn_skipn count draws); apply in_or_app; now left). now apply Hfd.
Qed.

Lemma free_NoDup (f : rv -> bool) vars : NoDup (map v_name vars) -> NoDup (map v_name (filter f vars)).
Proof.
  induction vars as [|v vars IH]; intros H; [constructor|]. cbn in H. inversion H; subst. cbn [filter]. destruct (f v); [|now apply IH].
  cbn. constructor; [|now apply IH]. intros Hin. apply H2. apply in_map_iff in Hin. destruct Hin as (w & E & Hin). apply filter_In in Hin.
  rewrite <- E. now apply in_map.
Qed.

(** The uniform values of a free variable outside of every set are a row of the generator. *)
Lemma uniforms_row copula perms draws r before n method unis v :
  generator n (List.length (r_vars r)) perms draws -> NoDup (map v_name (r_vars r)) ->
  uniforms copula perms draws r before n method = Ok unis ->
  In v (r_vars r) -> is_free v = true -> (forall s, In s (r_sets r) -> ~ In (v_name v) (s_names (snd s))) ->
  exists u, dget (v_name v) unis = Some u /\ row_of n (contains "LHS" method) u.
Proof.
  intros Hg Hnd H Hv Hf Hs. unfold uniforms in H. set (free := map v_name (filter is_free (r_vars r))) in *.
  assert (Hin : In (v_name v) free) by (apply in_map; apply filter_In; easy).
  assert (Hfl : (List.length free <= List.length (r_vars r))%nat).
  { unfold free. rewrite map_length. clear. induction (r_vars r) as [|w l IH]; [cbn; lia|]. cbn [filter]. destruct (is_free w); cbn; lia. }
  destruct free as [|f0 free0] eqn:Ef; [easy|]. rewrite <- Ef in *. clear f0 free0 Ef.
  destruct (controlling method n (List.length free) perms draws) as [rows|] eqn:Ec; [|discriminate]. cbn [bind] in H.
  assert (Hg' : generator n (List.length free) perms draws) by (destruct Hg as (A & B & C & D); repeat split; try assumption; lia).
  destruct (@controlling_rows method n (List.length free) perms draws rows Hg' Ec) as (Hl & Hr).
  apply In_nth_error in Hin. destruct Hin as (k & Hk).
  assert (Hkr : (k < List.length rows)%nat) by (rewrite Hl; apply nth_error_Some; congruence).
  destruct (nth_error rows k) as [row|] eqn:Erow; [|apply nth_error_None in Erow; lia].
  exists row. split; [|rewrite Forall_forall in Hr; apply Hr; now apply nth_error_In in Erow].
  rewrite (correlates_notin _ _ _ _ _ _ H Hs). eapply assign_rows_nth; [|exact Hk|exact Erow]. now apply free_NoDup.
Qed.

(** Every free variable has as many uniform values as asked for. *)
Lemma uniforms_length copula perms draws r before n method unis :
  generator n (List.length (r_vars r)) perms draws -> NoDup (map v_name (r_vars r)) -> keeps_shape n copula ->
  uniforms copula perms draws r before n method = Ok unis ->
  forall v, In v (r_vars r) -> v_anchor v = v_name v -> exists u, dget (v_name v) unis = Some u /\ List.length u = n.
Proof.
  intros Hg Hnd Hk H. unfold uniforms in H. set (free := map v_name (filter is_free (r_vars r))) in *.
  assert (Hfree : forall v, In v (r_vars r) -> v_anchor v = v_name v -> In (v_name v) free).
  { intros v Hv Ea. apply in_map. apply filter_In. split; [exact Hv|]. unfold is_free. now rewrite Ea, String.eqb_refl. }
  assert (Hfl : (List.length free <= List.length (r_vars r))%nat).
  { unfold free. rewrite map_length. clear. induction (r_vars r) as [|w l IH]; [cbn; lia|]. cbn [filter]. destruct (is_free w); cbn; lia. }
  set (good := fun u : dict (list Qc) => forall v, In v (r_vars r) -> v_anchor v = v_name v -> exists row, dget (v_name v) u = Some row /\ List.length row = n).
  assert (Hstart : forall u0, match free with [] => Ok before | _ => let* rows := controlling method n (List.length free) perms draws in Ok (assign_rows free rows before) end = Ok u0 -> good u0).
  { intros u0 H0 v Hv Ea. pose proof (Hfree v Hv Ea) as Hin. destruct free as [|f0 free0] eqn:Ef; [easy|]. rewrite <- Ef in *. 
    destruct (controlling method n (List.length free) perms draws) as [rows|] eqn:Ec; [|discriminate]. cbn [bind] in H0. injection H0 as <-.
    assert (Hg' : generator n (List.length free) perms draws) by (destruct Hg as (A & B & C & D); repeat split; try assumption; lia).
    destruct (@controlling_rows method n (List.length free) perms draws rows Hg' Ec) as (Hl & Hr).
    apply In_nth_error in Hin. destruct Hin as (k & Hkk).
    assert (Hkr : (k < List.length rows)%nat) by (rewrite Hl; apply nth_error_Some; congruence).
    destruct (nth_error rows k) as [row|] eqn:Erow; [|apply nth_error_None in Erow; lia].
    exists row. split; [eapply assign_rows_nth; [|exact Hkk|exact Erow]; now apply free_NoDup|].
    rewrite Forall_forall in Hr. apply nth_error_In in Erow. destruct (Hr row Erow) as (Hrl & _). exact Hrl. }
  destruct (match free with [] => Ok before | _ => let* rows := controlling method n (List.length free) perms draws in Ok (assign_rows free rows before) end) as [u0|] eqn:E0; [|discriminate].
  cbn [bind] in H. specialize (Hstart u0 eq_refl).
  assert (Hgood : forall sets u u', foldM (correlate copula (r_vars r)) u sets = Ok u' -> good u -> good u').
  { clear -Hk. induction sets as [|s sets IH]; intros u u' H Hu; cbn [foldM] in H; [now injection H as <-|].
    destruct (correlate copula (r_vars r) u s) as [u1|] eqn:E; [|discriminate]. cbn [bind] in H. apply (IH u1 u' H).
    unfold correlate in E. destruct (mapM _ (s_names (snd s))) as [rows|] eqn:Em; [|discriminate]. cbn [bind] in E. injection E as <-.
    assert (Hrows : Forall (fun row => List.length row = n) rows).
    { apply mapM_Forall2 in Em. clear -Em Hu. induction Em as [|x row names rows Hx _ IHm]; [constructor|]. constructor; [|exact IHm].
      unfold uni_sample in Hx. destruct (root_of _ (r_vars r) x) as [rt|] eqn:Er; [|discriminate]. apply root_anchored in Er.
      apply anchored_root_free in Er. destruct Er as (w & Hw & <- & Ea). destruct (Hu w Hw Ea) as (row' & E1 & E2). rewrite E1 in Hx. congruence. }
    destruct (Hk (s_rho (snd s)) rows Hrows) as (_ & Hc). intros v Hv Ea. destruct (Hu v Hv Ea) as (row & E1 & E2).
    destruct (@assign_rows_keeps (s_names (snd s)) (copula (s_rho (snd s)) rows) u (v_name v)) as (row' & E'); [eauto|].
    exists row'. split; [exact E'|]. apply assign_rows_some in E'. destruct E' as [Hin|E']; [|congruence]. rewrite Forall_forall in Hc. now apply Hc. }
  exact (Hgood _ _ _ H Hstart).
Qed.

(** ** Transformation of all variables *)

(** No multinomial variable of [l] is governed by [r]. *)
Definition untouched (vars l : list rv) (r : string) : Prop := forall m, In m l -> is_multinomial m -> ~ anchored vars (v_name m) r.

Lemma transform_one_unis vars n w v w' r : transform_one vars n w v = Ok w' -> (is_multinomial v -> ~ anchored vars (v_name v) r) ->
  dget r (w_unis w') = dget r (w_unis w).
Proof.
  unfold transform_one. intros H Hm. destruct (v_kind v) as [f|theta|f] eqn:Ek.
  - destruct (uni_sample vars (w_unis w) (v_name v)); [|discriminate]. destruct (f l); [|discriminate]. now injection H as <-.
  - destruct (root_of _ vars (v_name v)) as [rt|] eqn:Er; [|discriminate]. destruct (dget rt (w_unis w)) as [u|]; [|discriminate].
    cbn in H. injection H as <-. cbn [w_unis]. apply dget_dset_ne. intros ->. apply root_anchored in Er. apply Hm; [now exists theta|exact Er].
  - destruct (f n); [|discriminate]. now injection H as <-.
Qed.

Lemma transform_one_samples vars n w v w' x : transform_one vars n w v = Ok w' -> x <> v_name v -> dget x (w_samples w') = dget x (w_samples w).
Proof.
  unfold transform_one. intros H Hx. destruct (v_kind v) as [f|theta|f] eqn:Ek.
  - destruct (uni_sample vars (w_unis w) (v_name v)); [|discriminate]. destruct (f l); [|discriminate]. injection H as <-. now apply dget_dset_ne.
  - destruct (root_of _ vars (v_name v)) as [rt|] eqn:Er; [|discriminate]. destruct (dget rt (w_unis w)) as [u|]; [|discriminate].
    cbn in H. injection H as <-. now apply dget_dset_ne.
  - destruct (f n); [|discriminate]. injection H as <-. now apply dget_dset_ne.
Qed.

Lemma transform_one_self vars n w v w' : transform_one vars n w v = Ok w' ->
  exists s, dget (v_name v) (w_samples w') = Some s /\
  ((exists f, v_kind v = Utility f /\ f n = Ok s) \/
   (exists r u, anchored vars (v_name v) r /\ dget r (w_unis w) = Some u /\ sample_from v n u s)).
Proof.
  unfold transform_one, sample_from. intros H. destruct (v_kind v) as [f|theta|f] eqn:Ek.
  - unfold uni_sample in H. destruct (root_of _ vars (v_name v)) as [rt|] eqn:Er; [|discriminate].
    destruct (dget rt (w_unis w)) as [u|] eqn:Eu; [|discriminate].
    destruct (f u) as [s|] eqn:Ef; [|discriminate]. injection H as <-. exists s. split; [apply dget_dset_eq|]. right. exists rt, u.
    split; [now apply root_anchored in Er|]. now split.
  - destruct (root_of _ vars (v_name v)) as [rt|] eqn:Er; [|discriminate]. destruct (dget rt (w_unis w)) as [u|] eqn:Eu; [|discriminate].
    cbn in H. injection H as <-. eexists. split; [apply dget_dset_eq|]. right. exists rt, u. split; [now apply root_anchored in Er|]. now split.
  - destruct (f n) as [s|] eqn:Ef; [|discriminate]. injection H as <-. exists s. split; [apply dget_dset_eq|]. left. now exists f.
Qed.

Lemma transform_all_unis vars n l : forall w w' r, foldM (transform_one vars n) w l = Ok w' -> untouched vars l r ->
  dget r (w_unis w') = dget r (w_unis w).
Proof.
  induction l as [|v l IH]; intros w w' r H Hu; cbn [foldM] in H; [congruence|].
  destruct (transform_one vars n w v) as [w1|] eqn:E; [|discriminate]. cbn [bind] in H.
  rewrite (IH w1 w' r H) by (intros m Hm; apply Hu; now right). eapply transform_one_unis; [exact E|]. intros Hm. apply Hu; [now left|exact Hm].
Qed.

Lemma transform_all_samples vars n l : forall w w' x, foldM (transform_one vars n) w l = Ok w' -> ~ In x (map v_name l) ->
  dget x (w_samples w') = dget x (w_samples w).
Proof.
  induction l as [|v l IH]; intros w w' x H Hx; cbn [foldM] in H; [congruence|].
  destruct (transform_one vars n w v) as [w1|] eqn:E; [|discriminate]. cbn [bind] in H.
  rewrite (IH w1 w' x H) by (intros Hin; apply Hx; now right). eapply transform_one_samples; [exact E|]. intros ->. apply Hx. now left.
Qed.

Lemma foldM_app {A S} (f : S -> A -> result S) l1 : forall s l2, foldM f s (l1 ++ l2) = let* s' := foldM f s l1 in foldM f s' l2.
Proof. induction l1 as [|x l1 IH]; intros s l2; [reflexivity|]. cbn [app foldM]. destruct (f s x); [|reflexivity]. cbn [bind]. apply IH. Qed.

Lemma transform_all_split vars n pre v post w w' : NoDup (map v_name (pre ++ v :: post)) ->
  foldM (transform_one vars n) w (pre ++ v :: post) = Ok w' ->
  exists w1 w2, foldM (transform_one vars n) w pre = Ok w1 /\ transform_one vars n w1 v = Ok w2 /\
    dget (v_name v) (w_samples w') = dget (v_name v) (w_samples w2).
Proof.
  intros Hnd H. rewrite foldM_app in H. destruct (foldM (transform_one vars n) w pre) as [w1|]; [|discriminate]. cbn [bind foldM] in H.
  destruct (transform_one vars n w1 v) as [w2|] eqn:E2; [|discriminate]. cbn [bind] in H. exists w1, w2. split; [reflexivity|]. split; [exact E2|].
  eapply transform_all_samples; [exact H|]. rewrite map_app in Hnd. cbn in Hnd. apply NoDup_remove_2 in Hnd. intros Hin. apply Hnd. apply in_or_app. now right.
Qed.

Lemma generate_split copula perms draws r w n method w' : generate_sample copula perms draws r w n method = Ok w' ->
  exists unis, uniforms copula perms draws r (w_unis w) n method = Ok unis /\
    foldM (transform_one (r_vars r) n) (World unis (w_samples w)) (r_vars r) = Ok w'.
Proof.
  unfold generate_sample. intros H. destruct (uniforms copula perms draws r (w_unis w) n method) as [unis|]; [|discriminate]. now exists unis.
Qed.

(** What the samples of a variable are computed from. *)
Lemma generate_sample_of copula perms draws r w n method w' unis pre v post root :
  NoDup (map v_name (r_vars r)) -> generate_sample copula perms draws r w n method = Ok w' ->
  uniforms copula perms draws r (w_unis w) n method = Ok unis ->
  r_vars r = pre ++ v :: post -> anchored (r_vars r) (v_name v) root -> untouched (r_vars r) pre root ->
  (exists f s, v_kind v = Utility f /\ f n = Ok s /\ dget (v_name v) (w_samples w') = Some s) \/
  (exists u s, dget root unis = Some u /\ dget (v_name v) (w_samples w') = Some s /\ sample_from v n u s).
Proof.
  intros Hnd H Hu Es Ha Ht. destruct (generate_split _ _ _ _ _ _ _ _ H) as (unis' & Hu' & Hf). rewrite Hu in Hu'. injection Hu' as <-.
  rewrite Es in Hf at 2. destruct (@transform_all_split (r_vars r) n pre v post (World unis (w_samples w)) w') as (w1 & w2 & H1 & H2 & E); [now rewrite <- Es|exact Hf|].
  destruct (transform_one_self _ _ _ _ _ H2) as (s & E2 & [(f & Ek & Ef)|(rt & u & Hrt & Eu & Hs)]).
  - left. exists f, s. rewrite E. easy.
  - right. assert (rt = root) by (eapply anchored_fun; eauto). subst rt. exists u, s. rewrite E. split; [|easy].
    rewrite <- Eu. symmetry. apply (transform_all_unis _ _ _ _ _ _ H1 Ht).
Qed.

(** Everything succeeds or fails independently of the order without multinomial variables. *)
Definition outcome_of (vars : list rv) (unis : dict (list Qc)) (n : nat) (v : rv) : result (list Qc) :=
  match v_kind v with
  | Utility f => f n
  | Transform f => match uni_sample vars unis (v_name v) with None => Err ValueError | Some u => f u end
  | Multinomial theta => Err RuntimeError
  end.

Lemma transform_all_plain vars n unis l : forall samples, (forall m, In m l -> ~ is_multinomial m) ->
  foldM (transform_one vars n) (World unis samples) l =
  (let* rows := mapM (fun v => let* s := outcome_of vars unis n v in Ok (v_name v, s)) l in
   Ok (World unis (fold_left (fun d ns => dset (fst ns) (snd ns) d) rows samples))).
Proof.
  induction l as [|v l IH]; intros samples Hm; [reflexivity|]. cbn [foldM mapM].
  assert (E : transform_one vars n (World unis samples) v = let* s := outcome_of vars unis n v in Ok (World unis (dset (v_name v) s samples))).
  { unfold transform_one, outcome_of. cbn [w_unis w_samples]. destruct (v_kind v) as [f|theta|f] eqn:Ek; [|exfalso; apply (Hm v); [now left|now exists theta]|reflexivity].
    now destruct (uni_sample vars unis (v_name v)). }
  rewrite E. destruct (outcome_of vars unis n v) as [s|]; [|reflexivity]. cbn [bind]. rewrite IH by (intros m Hin; apply Hm; now right).
  destruct (mapM _ l); reflexivity.
Qed.

Lemma find_rv_perm vars vars' x : NoDup (map v_name vars) -> Permutation vars vars' -> find_rv vars' x = find_rv vars x.
Proof.
  intros Hnd Hp. assert (Hnd' : NoDup (map v_name vars')) by (eapply Permutation_NoDup; [apply Permutation_map; exact Hp|exact Hnd]).
  destruct (find_rv vars x) as [v|] eqn:E.
  - apply find_rv_In in E. destruct E as (Hin & <-). apply find_rv_found; [exact Hnd'|]. now rewrite <- Hp.
  - apply find_rv_None in E. apply find_rv_None. intros Hin. apply E. eapply Permutation_in; [apply Permutation_sym, Permutation_map, Hp|exact Hin].
Qed.

Lemma root_of_perm vars vars' : NoDup (map v_name vars) -> Permutation vars vars' -> forall fuel x, root_of fuel vars' x = root_of fuel vars x.
Proof.
  intros Hnd Hp. induction fuel as [|fuel IH]; intros x; cbn [root_of]; rewrite (find_rv_perm vars vars' x Hnd Hp); [reflexivity|].
  destruct (find_rv vars x) as [v|]; [|reflexivity]. now rewrite IH.
Qed.

Lemma fold_dset_notin (rows : list (string * list Qc)) : forall d x, ~ In x (map fst rows) ->
  dget x (fold_left (fun d ns => dset (fst ns) (snd ns) d) rows d) = dget x d.
Proof.
  induction rows as [|[a s] rows IH]; intros d x Hx; [reflexivity|]. cbn [fold_left fst snd]. rewrite IH by (intros H; apply Hx; now right).
  apply dget_dset_ne. intros ->. apply Hx. now left.
Qed.
Lemma fold_dset_in (rows : list (string * list Qc)) : forall d x s, NoDup (map fst rows) -> In (x, s) rows ->
  dget x (fold_left (fun d ns => dset (fst ns) (snd ns) d) rows d) = Some s.
Proof.
  induction rows as [|[a t] rows IH]; intros d x s Hnd Hin; [easy|]. cbn in Hnd. inversion Hnd; subst. cbn [fold_left fst snd].
  destruct Hin as [E|Hin]; [|now apply IH]. injection E as <- <-. rewrite fold_dset_notin by assumption. apply dget_dset_eq.
Qed.

Lemma mapM_perm {A B} (f : A -> result B) l l' : Permutation l l' -> forall r, mapM f l = Ok r -> exists r', mapM f l' = Ok r' /\ Permutation r r'.
Proof.
  intros Hp. induction Hp as [|x l l' Hp IH|x y l|l l' l'' _ IH1 _ IH2]; intros r H.
  - exists r. split; [exact H|]. reflexivity.
  - cbn [mapM] in *. destruct (f x) as [b|]; [|discriminate]. cbn [bind] in *. destruct (mapM f l) as [bs|]; [|discriminate]. cbn [bind] in H. injection H as <-.
    destruct (IH bs eq_refl) as (bs' & -> & Hbs). exists (b :: bs'). split; [reflexivity|]. now constructor.
  - cbn [mapM] in *. destruct (f y) as [b|]; [|discriminate]. cbn [bind] in *. destruct (f x) as [c|]; [|discriminate]. cbn [bind] in *.
    destruct (mapM f l) as [bs|]; [|discriminate]. cbn [bind] in *. injection H as <-. eexists. split; [reflexivity|]. constructor.
  - destruct (IH1 r H) as (r' & E & P1). destruct (IH2 r' E) as (r'' & E' & P2). exists r''. split; [exact E'|]. now transitivity r'.
Qed.

Lemma mapM_ext_in' {A B} (f g : A -> result B) l : (forall x, In x l -> f x = g x) -> mapM f l = mapM g l.
Proof.
  induction l as [|x l IH]; intros H; [reflexivity|]. cbn [mapM]. rewrite (H x) by now left. rewrite IH; [reflexivity|]. intros y Hy. apply H. now right.
Qed.

Lemma transform_order vars vars' n unis unis' samples w : NoDup (map v_name vars) -> Permutation vars vars' ->
  (forall m, In m vars -> ~ is_multinomial m) -> (forall x, dget x unis' = dget x unis) ->
  foldM (transform_one vars n) (World unis samples) vars = Ok w ->
  exists w', foldM (transform_one vars' n) (World unis' samples) vars' = Ok w' /\ forall x, dget x (w_samples w') = dget x (w_samples w).
Proof.
  intros Hnd Hp Hm Hu H. rewrite transform_all_plain in H by assumption.
  rewrite transform_all_plain by (intros m Hin; apply Hm; now rewrite Hp).
  assert (Eo : forall v, outcome_of vars' unis' n v = outcome_of vars unis n v).
  { intros v. unfold outcome_of, uni_sample. rewrite <- (Permutation_length Hp), (root_of_perm _ _ Hnd Hp).
    destruct (v_kind v); try reflexivity. destruct (root_of _ vars (v_name v)); [|reflexivity]. now rewrite Hu. }
  rewrite (@mapM_ext_in' _ _ _ (fun v => let* s := outcome_of vars unis n v in Ok (v_name v, s)) vars') by (intros; now rewrite Eo).
  destruct (mapM (fun v => let* s := outcome_of vars unis n v in Ok (v_name v, s)) vars) as [rows|] eqn:Er; [|discriminate]. cbn [bind] in H. injection H as <-.
  destruct (mapM_perm _ _ _ Hp _ Er) as (rows' & -> & Hpr). cbn [bind]. eexists. split; [reflexivity|]. cbn [w_samples].
  assert (Ef : map fst rows = map v_name vars).
  { apply mapM_Forall2 in Er. clear -Er. revert Er. generalize (outcome_of vars unis n). intros o Er.
    induction Er as [|v row vs rows Hv _ IH]; [reflexivity|]. cbn. rewrite IH. destruct (o v); [|discriminate]. cbn in Hv. injection Hv as <-. reflexivity. }
  assert (Hnr : NoDup (map fst rows)) by now rewrite Ef.
  assert (Hnr' : NoDup (map fst rows')) by (eapply Permutation_NoDup; [apply Permutation_map; exact Hpr|exact Hnr]).
  intros x. destruct (in_dec String.string_dec x (map fst rows)) as [Hin|Hin].
  - apply in_map_iff in Hin. destruct Hin as ([x' s] & <- & Hin). cbn [fst].
    rewrite (fold_dset_in rows samples x' s Hnr Hin). apply fold_dset_in; [exact Hnr'|]. now rewrite <- Hpr.
  - rewrite (fold_dset_notin rows samples x Hin). apply fold_dset_notin. intros H. apply Hin.
    eapply Permutation_in; [apply Permutation_sym, Permutation_map, Hpr|exact H].
Qed.

(** Sizes of the samples. *)
Lemma transform_sizes vars n l : forall w w', foldM (transform_one vars n) w l = Ok w' -> (forall v, In v l -> keeps_size v) ->
  (forall v, In v vars -> v_anchor v = v_name v -> exists u, dget (v_name v) (w_unis w) = Some u /\ List.length u = n) ->
  NoDup (map v_name l) ->
  forall v, In v l -> exists s, dget (v_name v) (w_samples w') = Some s /\ List.length s = n.
Proof.
  induction l as [|v l IH]; intros w w' H Hk Hu Hnd x Hx; [easy|]. cbn [foldM] in H.
  destruct (transform_one vars n w v) as [w1|] eqn:E; [|discriminate]. cbn [bind] in H. cbn in Hnd. inversion Hnd; subst.
  destruct Hx as [->|Hx].
  - rewrite (transform_all_samples _ _ _ _ _ _ H) by assumption. destruct (transform_one_self _ _ _ _ _ E) as (s & Es & Hs).
    exists s. split; [exact Es|]. specialize (Hk x (or_introl eq_refl)). unfold keeps_size in Hk.
    destruct Hs as [(f & Ek & Ef)|(rt & u & Hrt & Eu & Hs)]; [rewrite Ek in Hk; now apply Hk|].
    apply anchored_root_free in Hrt. destruct Hrt as (a & Ha & <- & Ea). destruct (Hu a Ha Ea) as (u' & Eu' & El). rewrite Eu in Eu'. injection Eu' as <-.
    unfold sample_from in Hs. destruct (v_kind x) as [f|theta|f]; [rewrite (Hk _ _ Hs); exact El| |now apply Hk].
    subst s. cbn [multinomial_inverse snd]. now rewrite !map_length.
  - apply (IH w1 w' H); [intros; apply Hk; now right| |assumption|assumption].
    intros a Ha Ea. destruct (Hu a Ha Ea) as (u & Eu & El). unfold transform_one in E. destruct (v_kind v) as [f|theta|f].
    + destruct (uni_sample vars (w_unis w) (v_name v)); [|discriminate]. destruct (f l0); [|discriminate]. injection E as <-. now exists u.
    + destruct (root_of _ vars (v_name v)) as [rt|] eqn:Er; [|discriminate]. destruct (dget rt (w_unis w)) as [u'|] eqn:Eu'; [|discriminate].
      cbn in E. injection E as <-. cbn [w_unis]. destruct (String.eqb_spec (v_name a) rt) as [Ex|Hne].
      * rewrite Ex in Eu |- *. rewrite dget_dset_eq. eexists. split; [reflexivity|]. rewrite map_length. congruence.
      * rewrite dget_dset_ne by assumption. now exists u.
    + destruct (f n); [|discriminate]. injection E as <-. now exists u.
Qed.
