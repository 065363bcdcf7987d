(** Proofs about reports. *)
From Coq Require Import Sorting.Permutation Sorting.Sorted Qround DecimalString DecimalNat.
From Verif Require Import Prelude PreludeFacts Pandas PandasFacts M_Base M_FileIO M_Damage P_Base M_Outputs S_Outputs P_Outputs M_Report S_Report.
Set Implicit Arguments.
Local Open Scope string_scope.
Local Open Scope list_scope.

(** ** Lists *)

Lemma mapM_In_ok {A B} (f : A -> result B) l out : mapM f l = Ok out -> forall y, In y out <-> exists x, In x l /\ f x = Ok y.
Proof.
  revert out. induction l as [|x l IH]; intros out H y; cbn [mapM] in H.
  - injection H as <-. split; [intros []|intros (x & [] & _)].
  - destruct (f x) as [b|] eqn:E; [|discriminate]. cbn [bind] in H. destruct (mapM f l) as [bs|] eqn:E'; [|discriminate]. cbn [bind] in H. injection H as <-.
    split.
    + intros [<-|Hy]; [exists x; split; [now left|exact E]|]. apply (IH _ eq_refl) in Hy as (x' & Hx & Ex). exists x'. split; [now right|exact Ex].
    + intros (x' & [<-|Hx] & Ex); [left; congruence|]. right. apply (IH _ eq_refl). eauto.
Qed.
Lemma mapM_exists {A B} (f : A -> result B) l : (forall x, In x l -> exists y, f x = Ok y) -> exists out, mapM f l = Ok out.
Proof.
  induction l as [|x l IH]; intros H; [now exists []|]. destruct (H x (or_introl eq_refl)) as [y Hy]. destruct IH as [out Ho]; [intros z Hz; apply H; now right|].
  exists (y :: out). cbn [mapM]. rewrite Hy. cbn [bind]. rewrite Ho. reflexivity.
Qed.
Lemma trailing_tl x l : trailing (x :: l) -> trailing l.
Proof.
  intros (a & k & E & Ha). destruct a as [|y a]; cbn in E.
  - destruct k; [discriminate|]. injection E as _ ->. exists [], k. now split.
  - injection E as -> ->. exists a, k. split; [reflexivity|]. intros H. apply Ha. now right.
Qed.
Lemma trailing_empty l : trailing ("" :: l) -> Forall (eq "") ("" :: l).
Proof.
  intros (a & k & E & Ha). destruct a as [|y a]; cbn in E.
  - rewrite E. apply Forall_forall. intros x Hx. symmetry. now apply repeat_spec in Hx.
  - injection E as <- _. exfalso. apply Ha. now left.
Qed.
Lemma drop_trailing l : trailing l -> (Forall (eq "") l /\ drop_empty l = []) \/ (~ Forall (eq "") l /\ drop_empty l = l).
Proof.
  destruct l as [|x l]; intros H; [left; split; constructor|]. cbn [drop_empty]. destruct (String.eqb_spec x "") as [->|N].
  - left. pose proof (trailing_empty H) as F. split; [exact F|]. inversion F as [|? ? _ Fl]; subst. clear - Fl. induction l as [|y l IH]; [reflexivity|]. inversion Fl; subst. cbn. now apply IH.
  - right. split; [|reflexivity]. intros F. inversion F. now apply N.
Qed.
Lemma all_empty_repeat l : Forall (eq "") l -> l = repeat "" (List.length l).
Proof. induction 1; [reflexivity|]. cbn. now subst x; f_equal. Qed.

(** ** Dictionaries *)

Definition is_leaf (t : jtree) : Prop := match t with JTree _ => False | _ => True end.
Lemma leaf_is_leaf T rows col t : leaf T rows col = Ok t -> is_leaf t.
Proof. unfold leaf. destruct (forallb _ _); [destruct (mapM _ _); [|discriminate]|]; intros H; injection H as <-; exact I. Qed.
Lemma found_leaf t l v : is_leaf t -> found t l v -> v = t /\ Forall (eq "") l.
Proof. intros H F. destruct F; [now split|now split|destruct H]. Qed.
Lemma leaf_found t l : is_leaf t -> Forall (eq "") l -> found t l t.
Proof. destruct t; intros H F; [now constructor|now constructor|destruct H]. Qed.
Lemma found_is_leaf t l v : found t l v -> is_leaf v.
Proof. induction 1; [exact I|exact I|assumption]. Qed.

Section Below.
  Context {A : Type}.
  Variables (m : nat) (cols : list (list string * A)).
  Hypothesis Hlen : forall c, In c cols -> List.length (fst c) = S m.
  Hypothesis Hnd : NoDup (map fst cols).
  Hypothesis Htr : forall c, In c cols -> trailing (fst c).
  Definition tails (k : string) : list (list string * A) := map (fun c => (tl (fst c), snd c)) (filter (fun c => String.eqb k (hd "" (fst c))) cols).
  Lemma tails_In k l a : In (l, a) (tails k) <-> In (k :: l, a) cols.
  Proof.
    unfold tails. rewrite in_map_iff. split.
    - intros ([p b] & E & H). apply filter_In in H as [H Hk]. pose proof (Hlen _ H) as L. cbn [fst snd] in *. injection E as <- <-. destruct p as [|x p]; [discriminate L|].
      cbn [hd tl] in *. apply String.eqb_eq in Hk. now subst.
    - intros H. exists (k :: l, a). split; [reflexivity|]. apply filter_In. split; [exact H|]. cbn. apply String.eqb_refl.
  Qed.
  Lemma tails_NoDup k : NoDup (map fst (tails k)).
  Proof.
    unfold tails. clear Htr. induction cols as [|[p a] cs IH]; [constructor|]. inversion Hnd as [|? ? N1 N2]; subst. specialize (IH (fun c Hc => Hlen _ (or_intror Hc)) N2). cbn [filter fst].
    destruct (String.eqb_spec k (hd "" p)) as [E|N]; [|exact IH]. cbn [map fst snd]. constructor; [|exact IH].
    intros H. apply N1. rewrite map_map, in_map_iff in H. destruct H as ([q b] & Eq & H). apply filter_In in H as [H Hk]. cbn [fst] in *. apply String.eqb_eq in Hk.
    pose proof (Hlen _ (or_introl eq_refl)) as L1. pose proof (Hlen _ (or_intror H)) as L2. cbn [fst] in *. destruct p as [|x p]; [discriminate|]. destruct q as [|y q]; [discriminate|].
    cbn in E, Hk, Eq. subst. apply in_map_iff. exists (y :: p, b). now split.
  Qed.
  Lemma below_cases k : In k (map (fun c => hd "" (fst c)) cols) ->
    (exists a, below_label k cols = [([], a)] /\ (forall l b, In (k :: l, b) cols <-> l = repeat "" m /\ b = a)) \/
    (exists c sub, below_label k cols = c :: sub /\ (0 < m)%nat /\ (forall x, In x (c :: sub) -> List.length (fst x) = m /\ trailing (fst x)) /\ NoDup (map fst (c :: sub)) /\
      (forall l b, In (l, b) (c :: sub) <-> In (k :: l, b) cols)).
  Proof.
    intros Hk. unfold below_label. fold (tails k).
    assert (Hl : forall x, In x (tails k) -> List.length (fst x) = m /\ trailing (fst x)).
    { intros [l b] H. apply tails_In in H. pose proof (Hlen _ H) as L. pose proof (Htr _ H) as Tr. cbn [fst] in *. split; [now injection L|now apply trailing_tl in Tr]. }
    pose proof (@tails_In k) as HI. pose proof (@tails_NoDup k) as HN.
    apply in_map_iff in Hk as ([p a] & Ek & Hp). cbn [fst] in Ek.
    assert (In (tl p, a) (tails k)). { apply HI. pose proof (Hlen _ Hp) as L. cbn [fst] in L. destruct p as [|x p]; [discriminate|]. cbn in *. now subst x. }
    destruct (tails k) as [|[l b] [|c2 sub]] eqn:Et; [destruct H| |].
    - destruct H as [[= -> ->]|[]]. destruct (Hl (tl p, a) (or_introl eq_refl)) as [L Tr]. cbn [fst snd] in *.
      destruct (drop_trailing Tr) as [[F ->]|[F ->]].
      + left. exists a. split; [reflexivity|]. intros l b. rewrite <- HI. split.
        * intros [[= <- <-]|[]]. split; [|reflexivity]. rewrite (all_empty_repeat F) at 1. now rewrite L.
        * intros [-> ->]. left. f_equal. rewrite (all_empty_repeat F). now rewrite L.
      + right. exists (tl p, a), []. split; [reflexivity|]. split; [destruct m; [exfalso; apply F; destruct (tl p); [constructor|discriminate]|lia]|]. split; [exact Hl|]. split; [exact HN|exact HI].
    - right. exists (l, b), (c2 :: sub). split; [reflexivity|]. split; [|now split].
      destruct m; [exfalso|lia]. destruct c2 as [l2 b2]. destruct (Hl (l, b) (or_introl eq_refl)) as [L1 _]. destruct (Hl (l2, b2) (or_intror (or_introl eq_refl))) as [L2 _].
      cbn [fst] in L1, L2. destruct l; [|discriminate]. destruct l2; [|discriminate]. inversion HN as [|? ? Na _]. apply Na. now left.
  Qed.
End Below.

Lemma to_dict_found T rows : forall fuel m cols, (m <= fuel)%nat -> (0 < m)%nat -> (forall c, In c cols -> List.length (fst c) = m) -> NoDup (map fst cols) ->
  (forall c, In c cols -> trailing (fst c)) -> (forall c, In c cols -> exists t, leaf T rows (snd c) = Ok t) ->
  exists d, to_dict T fuel rows cols = Ok d /\ (forall k t, In (k, t) d -> In k (map (fun c => hd "" (fst c)) cols)) /\
    (forall p t, List.length p = m -> (found (JTree d) p t <-> exists col, In (p, col) cols /\ leaf T rows col = Ok t)).
Proof.
  induction fuel as [|fuel IH]; intros m cols Hm Hpos Hlen Hnd Htr Hleaf; [lia|]. destruct m as [|m]; [lia|]. cbn [to_dict].
  set (f := fun label => match below_label label cols with [([], col)] => let* l := leaf T rows col in Ok (label, l) | ([], _) :: _ => Err AttributeError
    | sub => let* d := to_dict T fuel rows sub in Ok (label, JTree d) end).
  assert (Hf : forall k, In k (map (fun c => hd "" (fst c)) cols) -> exists t, f k = Ok (k, t) /\
    forall l v, List.length l = m -> (found t l v <-> exists col, In (k :: l, col) cols /\ leaf T rows col = Ok v)).
  { intros k Hk. destruct (@below_cases _ m cols Hlen Hnd Htr k Hk) as [(col & Eb & Hin)|(c & sub & Eb & Hm' & Hs & Hn & Hin)].
    - destruct (Hleaf (k :: repeat "" m, col)) as [t Ht]; [now apply Hin|]. exists t. unfold f. rewrite Eb. cbn [snd] in Ht. rewrite Ht. cbn [bind]. split; [reflexivity|].
      intros l v L. pose proof (@leaf_is_leaf _ _ _ _ Ht) as Hi. split.
      + intros F. destruct (found_leaf Hi F) as [-> Fl]. exists col. split; [|exact Ht]. apply Hin. split; [|reflexivity]. rewrite (all_empty_repeat Fl) at 1. now rewrite L.
      + intros (col' & H' & E'). apply Hin in H' as [-> ->]. rewrite Ht in E'. injection E' as <-. apply leaf_found; [exact Hi|]. apply Forall_forall. intros x Hx. symmetry. now apply repeat_spec in Hx.
    - destruct (IH m (c :: sub)) as (d & Ed & Hd1 & Hd2); [lia|exact Hm'|intros x Hx; apply (Hs x Hx)|exact Hn|intros x Hx; apply (Hs x Hx)| |].
      { intros [l b] Hx. apply Hin in Hx. apply (Hleaf (k :: l, b) Hx). }
      exists (JTree d). split.
      + unfold f. rewrite Eb. destruct c as [l b]. destruct (Hs (l, b) (or_introl eq_refl)) as [L _]. cbn [fst] in L. destruct l as [|x l]; [cbn in L; lia|].
        destruct sub; rewrite Ed; reflexivity.
      + intros l v L. rewrite (Hd2 l v L). split; intros (col & H1 & H2); exists col; (split; [|exact H2]); apply Hin; exact H1. }
  destruct (@mapM_exists _ _ f (unique String.eqb (map (fun c => hd "" (fst c)) cols))) as [d Hd].
  { intros k Hk. apply (proj1 (unique_In String.eqb String.eqb_eq _ _)) in Hk. destruct (Hf k Hk) as (t & Ht & _). eauto. }
  exists d. split; [exact Hd|]. split.
  - intros k t H. apply (proj1 (mapM_In_ok _ _ Hd _)) in H as (k' & Hk & E). apply (proj1 (unique_In String.eqb String.eqb_eq _ _)) in Hk. destruct (Hf k' Hk) as (t' & Ht & _). rewrite Ht in E. injection E as <- _. exact Hk.
  - intros [|k l] t L; [discriminate|]. injection L as L. split.
    + intros F. inversion F as [| |? t' ? ? ? H F' ]; subst. apply (proj1 (mapM_In_ok _ _ Hd _)) in H as (k' & Hk & E). apply (proj1 (unique_In String.eqb String.eqb_eq _ _)) in Hk.
      destruct (Hf k' Hk) as (t'' & Ht & Hc). rewrite Ht in E. injection E as <- <-. now apply Hc.
    + intros (col & H & E). assert (Hk : In k (map (fun c => hd "" (fst c)) cols)) by (apply in_map_iff; exists (k :: l, col); now split).
      destruct (Hf k Hk) as (t' & Ht & Hc). apply (@found_below k t'); [|apply Hc; eauto]. apply (mapM_In_ok _ _ Hd). exists k. split; [now apply (unique_In String.eqb String.eqb_eq)|exact Ht].
Qed.

(** ** Labels *)

Lemma split_one s : (List.length (split_on "-" s) <= 1)%nat -> split_on "-" s = [s].
Proof.
  intros H. pose proof (split_on_nonempty "-" s) as N. pose proof (join_split "-" s) as J. destruct (split_on "-" s) as [|a [|b l]]; [easy| |cbn in H; lia]. now rewrite <- J.
Qed.
Lemma labels_ok simple labels : labels <> [] -> column_labels simple labels = Ok (levels simple labels, map (path simple labels) labels) /\ (0 < levels simple labels)%nat /\
  (forall l, In l labels -> List.length (path simple labels l) = levels simple labels).
Proof.
  intros N. unfold column_labels, path, levels. destruct simple; [repeat split; lia|].
  unfold parts. set (w := list_max (map (fun l => List.length (split_on "-" l)) labels)).
  assert (Hw : forall l, In l labels -> (List.length (split_on "-" l) <= w)%nat).
  { intros l Hl. pose proof (proj1 (list_max_le (map (fun l => List.length (split_on "-" l)) labels) w) (le_n _)) as F. rewrite Forall_forall in F. apply F. apply in_map_iff. eauto. }
  assert (Hpos : (0 < w)%nat).
  { assert (X : exists l, In l labels) by (destruct labels as [|l ls]; [easy|exists l; now left]). destruct X as [l Hl]. specialize (Hw l Hl). clearbody w.
    pose proof (split_on_nonempty "-" l) as X. destruct (split_on "-" l) as [|a b]; [easy|]. cbn in Hw. lia. }
  split; [|split; [exact Hpos|]].
  - destruct labels as [|l0 ls]; [easy|]. cbn [to_multi_index]. rewrite map_map. fold w. destruct (Nat.ltb_spec 1 w) as [H1|H1]; cbn [bind].
    + rewrite map_map. reflexivity.
    + assert (Ew : w = 1%nat) by lia. rewrite Ew. f_equal. f_equal. apply map_ext_in. intros l Hl. specialize (Hw l Hl). rewrite split_one by lia. reflexivity.
  - intros l Hl. rewrite app_length, repeat_length. specialize (Hw l Hl). lia.
Qed.

(** ** Rows *)

Lemma all_digits_lower s : all_digits s = true -> lower s = s.
Proof.
  induction s as [|a s IH]; [reflexivity|]. cbn. intros H. apply andb_prop in H as [H1 H2]. f_equal; [|now apply IH].
  unfold is_digit in H1. unfold lower_ascii. apply andb_prop in H1 as [A B]. apply Nat.leb_le in A, B. destruct (Nat.leb_spec 65 (nat_of_ascii a)); [lia|reflexivity].
Qed.
Lemma numeric_no_units s : isnumeric s = true -> is_units s = false.
Proof.
  unfold isnumeric, is_units. intros H. apply andb_prop in H as [_ H]. rewrite (@all_digits_lower _ H). destruct (String.eqb_spec s "units") as [->|]; [discriminate|reflexivity].
Qed.
Lemma uint_digits u : all_digits (NilEmpty.string_of_uint u) = true.
Proof. induction u; [reflexivity|..]; exact IHu. Qed.
Lemma str_of_nat_numeric n : isnumeric (str_of_nat n) = true.
Proof.
  unfold isnumeric, str_of_nat. rewrite uint_digits, andb_true_r. apply negb_true_iff. destruct (Nat.to_uint n) eqn:E; try reflexivity. exfalso.
  assert (E2 : n = 0%nat) by (rewrite <- (Unsigned.of_to n), E; reflexivity). subst n. discriminate E.
Qed.
Lemma row_numbers_numeric n : forallb isnumeric (row_numbers n) = true.
Proof. apply forallb_forall. intros x Hx. apply in_map_iff in Hx as (k & <- & _). apply str_of_nat_numeric. Qed.
Lemma numeric_rows_no_units rows : forallb isnumeric rows = true -> existsb is_units rows = false.
Proof.
  intros H. destruct (existsb is_units rows) eqn:E; [|reflexivity]. apply existsb_exists in E as (x & Hx & Ex). rewrite forallb_forall in H. specialize (H x Hx). now rewrite numeric_no_units in Ex.
Qed.
Lemma units_at_none rows : existsb is_units rows = false -> units_at rows = None.
Proof. induction rows as [|k rows IH]; [reflexivity|]. cbn. destruct (is_units k); [discriminate|]. intros H. now rewrite IH. Qed.
Lemma units_at_last rows : existsb is_units rows = false -> units_at (rows ++ ["Units"]) = Some (List.length rows).
Proof. induction rows as [|k rows IH]; [reflexivity|]. cbn. destruct (is_units k); [discriminate|]. intros H. now rewrite IH. Qed.
Lemma without_last {A} (l : list A) x : without (List.length l) (l ++ [x]) = l.
Proof. unfold without. rewrite firstn_app, firstn_all, Nat.sub_diag. cbn [firstn]. rewrite skipn_all2 by (rewrite app_length; cbn; lia). now rewrite !app_nil_r. Qed.

(** ** Columns of a file *)

(** A number of a column with the unit [u]. *)
Definition as_read (T : tools) (u : option string) (x : num) : M_FileIO.cell :=
  match u with
  | Some u => match parse T u, x with None, Some _ => CStr (show T x) | _, _ => CNum x end
  | None => CNum x
  end.
Lemma read_numbers T xs : reads_back T -> read_column T (map (show T) xs) = map CNum xs.
Proof.
  intros H. unfold read_column. assert (E : forallb (fun t => match parse T t with Some _ => true | None => false end) (map (show T) xs) = true).
  { apply forallb_forall. intros t Ht. apply in_map_iff in Ht as (x & <- & _). now rewrite H. }
  rewrite E, map_map. apply map_ext. intros x. now rewrite H.
Qed.
Lemma read_with_unit T xs u : reads_back T -> exists c, read_column T (map (show T) xs ++ [u]) = map (as_read T (Some u)) xs ++ [c] /\ (parse T u = None -> c = CStr u).
Proof.
  intros H. unfold read_column. rewrite forallb_app. cbn [forallb].
  assert (E : forallb (fun t => match parse T t with Some _ => true | None => false end) (map (show T) xs) = true).
  { apply forallb_forall. intros t Ht. apply in_map_iff in Ht as (x & <- & _). now rewrite H. }
  rewrite E. destruct (parse T u) as [y|] eqn:Ep; cbn [andb].
  - exists (CNum y). split; [|discriminate]. rewrite map_app, map_map. cbn [map]. rewrite Ep. f_equal. apply map_ext. intros x. unfold as_read. now rewrite H, Ep.
  - exists (CStr u). split; [|reflexivity]. rewrite map_app, map_map. cbn [map]. rewrite Ep. f_equal. apply map_ext. intros x. unfold as_read. rewrite H, Ep. now destruct x.
Qed.
Lemma leaf_numbers T rows u xs : reads_back T -> leaf T rows (map (as_read T u) xs) = Ok (if forallb isnumeric rows then JList xs else JRows (combine rows (map (as_read T u) xs))).
Proof.
  intros H. unfold leaf. destruct (forallb isnumeric rows); [|reflexivity].
  assert (E : mapM (as_float T) (map (as_read T u) xs) = Ok xs).
  { induction xs as [|x xs IH]; [reflexivity|]. cbn [map mapM]. assert (E : as_float T (as_read T u x) = Ok x).
    { unfold as_read. destruct u as [u|]; [|reflexivity]. destruct (parse T u); [reflexivity|]. destruct x; [|reflexivity]. cbn. now rewrite H. }
    rewrite E. cbn [bind]. now rewrite IH. }
  rewrite E. reflexivity.
Qed.
(** The columns, each with its unit. *)
Definition col_units {A} (cols : list A) (units : option (list string)) : list (option string) :=
  match units with Some us => map Some us | None => map (fun _ => None) cols end.
Lemma found_dset d k x p t : hd "" p <> k -> (found (JTree (dset k x d)) p t <-> found (JTree d) p t).
Proof.
  intros N. assert (H : forall k' t', k' <> k -> (In (k', t') (dset k x d) <-> In (k', t') d)).
  { intros k' t' Nk. clear N p t. induction d as [|[a b] d IH]; cbn [dset].
    - split; [intros [[= <- _]|[]]; easy|intros []].
    - destruct (String.eqb_spec k a) as [<-|Na].
      + split; (intros [[= <- <-]|H]; [easy|now right]).
      + split; (intros [[= <- <-]|H]; [now left|right; now apply IH]). }
  split; intros F; (destruct p as [|k' l]; [inversion F|]; cbn in N; inversion F as [| |? t' ? ? ? Hin F']; subst; apply (@found_below k' t'); [now apply H|exact F']).
Qed.
Lemma dset_In {V} k (x : V) d : In (k, x) (dset k x d).
Proof. induction d as [|[a b] d IH]; cbn; [now left|]. destruct (String.eqb_spec k a) as [<-|]; [now left|now right]. Qed.

Lemma combine_maps {A B C} (f : A -> B) (g : A -> C) l : combine (map f l) (map g l) = map (fun x => (f x, g x)) l.
Proof. induction l as [|x l IH]; [reflexivity|]. cbn. now rewrite IH. Qed.
Lemma map_fst_combine {A B} (l : list A) (l' : list B) : (List.length l <= List.length l')%nat -> map fst (combine l l') = l.
Proof. revert l'. induction l as [|a l IH]; intros [|b l'] H; cbn in *; [reflexivity|reflexivity|lia|]. rewrite IH by lia. reflexivity. Qed.

Lemma json_found T simple rows cols units : reads_back T -> well_labelled simple (map fst cols) -> existsb is_units rows = false ->
  Forall (fun c => List.length (snd c) = List.length rows) cols -> units_for cols units ->
  exists d, json_file T simple (table_file T rows cols units) = Ok d /\
    (forall p t, List.length p = levels simple (map fst cols) -> hd "" p <> "Units" ->
      (found (JTree d) p t <-> exists label xs u, In ((label, xs), u) (combine cols (col_units cols units)) /\ p = path simple (map fst cols) label /\
        t = if forallb isnumeric rows then JList xs else JRows (combine rows (map (as_read T u) xs)))) /\
    (forall us, units = Some us -> exists e, In ("Units", JRows e) d /\
      forall label xs u, In ((label, xs), u) (combine cols us) -> parse T u = None -> In (join "-" (path simple (map fst cols) label), CStr u) e).
Proof.
  intros HT (Hne & Hnd & Htr & Hun) Hrows Hlen Hu.
  set (labels := map fst cols) in *.
  destruct (labels_ok simple Hne) as (El & Hpos & Hpl).
  (* the table that is converted *)
  set (table := map (fun cu : (string * list num) * option string => (path simple labels (fst (fst cu)), map (as_read T (snd cu)) (snd (fst cu)))) (combine cols (col_units cols units))).
  assert (Lu : List.length (col_units cols units) = List.length cols).
  { unfold col_units. destruct units; cbn in Hu; rewrite map_length; [exact Hu|reflexivity]. }
  assert (Efst : map fst table = map (path simple labels) labels).
  { unfold table, labels. rewrite !map_map. cbn [fst].
    transitivity (map (fun c => path simple (map fst cols) (fst c)) (map fst (combine cols (col_units cols units)))); [now rewrite map_map|]. now rewrite map_fst_combine by lia. }
  destruct (@to_dict_found T rows (levels simple labels) (levels simple labels) table (le_n _) Hpos) as (d & Ed & _ & Hd).
  { intros c Hc. assert (H : In (fst c) (map fst table)) by now apply in_map. rewrite Efst in H. apply in_map_iff in H as (l & <- & Hl). now apply Hpl. }
  { now rewrite Efst. }
  { intros c Hc. assert (H : In (fst c) (map fst table)) by now apply in_map. rewrite Efst in H. rewrite Forall_forall in Htr. now apply Htr. }
  { intros c Hc. apply in_map_iff in Hc as (cu & <- & _). cbn [snd]. rewrite leaf_numbers by exact HT. eauto. }
  assert (Hfound : forall p t, List.length p = levels simple labels -> (found (JTree d) p t <-> exists label xs u, In ((label, xs), u) (combine cols (col_units cols units)) /\ p = path simple labels label /\
        t = if forallb isnumeric rows then JList xs else JRows (combine rows (map (as_read T u) xs)))).
  { intros p t L. rewrite (Hd p t L). split.
    - intros (col & Hc & Ht). apply in_map_iff in Hc as ([[label xs] u] & E & Hc). cbn [fst snd] in E. injection E as <- <-. rewrite leaf_numbers in Ht by exact HT. injection Ht as <-. eauto 6.
    - intros (label & xs & u & Hc & -> & ->). exists (map (as_read T u) xs). split; [|now apply leaf_numbers]. apply in_map_iff. exists ((label, xs), u). now split. }
  unfold json_file, table_file. destruct units as [us|]; cbn [units_for col_units] in *.
  - (* with units *)
    cbn [f_rows f_cols].
    assert (Ef : map fst (map (fun cu => with_unit (numbers T (fst cu)) (snd cu)) (combine cols us)) = labels).
    { rewrite map_map. cbn [fst with_unit numbers]. unfold labels. rewrite <- (@map_fst_combine _ _ cols us) at 2 by lia. now rewrite map_map. }
    rewrite Ef, El. cbn [bind fst snd]. rewrite units_at_last by exact Hrows. rewrite without_last, map_map.
    set (read := fun cu : string * list num * string => read_column T (snd (with_unit (numbers T (fst cu)) (snd cu)))).
    assert (Ec : combine (map (path simple labels) labels) (map read (combine cols us)) = map (fun cu => (path simple labels (fst (fst cu)), read cu)) (combine cols us)).
    { unfold labels. rewrite map_map. transitivity (combine (map (fun c => path simple (map fst cols) (fst c)) (map fst (combine cols us))) (map read (combine cols us))); [now rewrite map_fst_combine by lia|].
      rewrite map_map. apply combine_maps. }
    rewrite Ec, !map_map. cbn [fst snd].
    assert (Et : map (fun x => (path simple labels (fst (fst x)), without (List.length rows) (read x))) (combine cols us) = table).
    { unfold table. clear - Hlen HT.
      assert (G : combine cols (map Some us) = map (fun cu => (fst cu, Some (snd cu))) (combine cols us)).
      { clear. revert us. induction cols as [|c cs IH]; intros [|u us]; cbn; [reflexivity..|]. now rewrite IH. }
      rewrite G, map_map. cbn [fst snd]. apply map_ext_in. intros [[label xs] u] Hin. cbn [fst snd]. f_equal. unfold read. cbn [with_unit numbers fst snd].
      destruct (@read_with_unit T xs u HT) as (c & -> & _). rewrite Forall_forall in Hlen. apply in_combine_l in Hin. specialize (Hlen _ Hin). cbn [snd] in Hlen.
      rewrite <- Hlen, <- (map_length (as_read T (Some u)) xs). apply without_last. }
    rewrite Et, Ed. cbn [bind]. eexists. split; [reflexivity|]. split.
    + intros p t L N. rewrite found_dset by exact N. now apply Hfound.
    + intros us' [= <-]. eexists. split; [apply dset_In|]. intros label xs u Hin Hp. apply in_map_iff. exists ((label, xs), u). split; [|exact Hin]. cbn [fst snd]. f_equal.
      unfold read. cbn [with_unit numbers fst snd]. destruct (@read_with_unit T xs u HT) as (c & -> & Hc). rewrite Forall_forall in Hlen. pose proof (Hlen _ (in_combine_l _ _ _ _ Hin)) as L. cbn [snd] in L.
      rewrite <- L, <- (map_length (as_read T (Some u)) xs), app_nth2, Nat.sub_diag by lia. cbn. now apply Hc.
  - cbn [f_rows f_cols]. rewrite map_map. cbn [fst numbers]. change (map (fun x => fst x) cols) with labels. rewrite El. cbn [bind fst snd]. rewrite units_at_none by exact Hrows. rewrite map_map. cbn [snd numbers].
    assert (Et : combine (map (path simple labels) labels) (map (fun x => read_column T (map (show T) (snd x))) cols) = table).
    { unfold table, labels. clear - HT. generalize (path simple (map fst cols)) as P. intros P. induction cols as [|[l xs] cs IH]; [reflexivity|]. cbn [map combine fst snd]. rewrite (@read_numbers T xs HT). f_equal. exact IH. }
    rewrite Et, Ed. exists d. split; [reflexivity|]. split; [intros p t L _; now apply Hfound|discriminate].
Qed.

(** ** Values in order *)

Lemma Qcleb_trans a b c : Qcleb a b = true -> Qcleb b c = true -> Qcleb a c = true.
Proof. rewrite !Qcleb_true. apply Qcle_trans. Qed.
Lemma Qcleb_total a b : Qcleb a b = true \/ Qcleb b a = true.
Proof. rewrite !Qcleb_true. destruct (Qclt_le_dec a b) as [H|H]; [left; now apply Qclt_le_weak|now right]. Qed.
Lemma sorted_Qc l : sorted_by Qcleb l <-> StronglySorted Qcle l.
Proof. split; (induction 1 as [|x l Hs IH Hx]; constructor; [exact IH|]; eapply Forall_impl; [|exact Hx]; intros y; apply Qcleb_true). Qed.
Lemma sorted_nth l : StronglySorted Qcle l -> forall i j a b, (i <= j)%nat -> nth_error l i = Some a -> nth_error l j = Some b -> (a <= b)%Qc.
Proof.
  induction 1 as [|x l Hs IH Hx]; intros i j a b Hij Ha Hb; [destruct i; discriminate|]. destruct i as [|i], j as [|j]; cbn in Ha, Hb; [|..|lia|].
  - injection Ha as <-. injection Hb as <-. apply Qcle_refl.
  - injection Ha as <-. rewrite Forall_forall in Hx. apply Hx. exact (nth_error_In _ _ Hb).
  - apply (IH i j); [lia|exact Ha|exact Hb].
Qed.
Lemma sorted_same l l' : StronglySorted Qcle l -> StronglySorted Qcle l' -> Permutation l l' -> l = l'.
Proof.
  intros H H'. apply (@sorted_perm_unique _ Qcleb); [intros a b; rewrite !Qcleb_true; apply Qcle_antisym|now apply sorted_Qc|now apply sorted_Qc].
Qed.
Lemma floor_bounds h : (0 <= h)%Qc -> (qn (Z.to_nat (Qfloor (this h))) <= h)%Qc /\ (h < qn (Z.to_nat (Qfloor (this h))) + 1)%Qc.
Proof.
  intros H. assert (Hz : (0 <= Qfloor (this h))%Z). { change 0%Z with (Qfloor 0). apply Qfloor_resp_le. exact H. }
  assert (E : (this (qn (Z.to_nat (Qfloor (this h)))) == inject_Z (Qfloor (this h)))%Q) by (unfold qn; rewrite Z2Nat.id by exact Hz; apply this_Q2Qc).
  split.
  - unfold Qcle. rewrite E. apply Qfloor_le.
  - unfold Qclt. rewrite this_plus, E, this_1. pose proof (Qlt_floor (this h)) as L. rewrite inject_Z_plus in L. exact L.
Qed.
Lemma position_unique k k' w w' : (0 <= w)%Qc -> (w < 1)%Qc -> (0 <= w')%Qc -> (w' < 1)%Qc -> (qn k + w = qn k' + w')%Qc -> k = k' /\ w = w'.
Proof.
  intros A B C D E. assert (H : forall k k' w w', (0 <= w)%Qc -> (w' < 1)%Qc -> (qn k + w = qn k' + w')%Qc -> (k <= k')%nat).
  { clear. intros k k' w w' A B E. destruct (Nat.le_gt_cases k k') as [|N]; [assumption|]. exfalso. apply (qn_le (S k') k) in N. rewrite qn_S in N. qlra. }
  assert (k = k') by (apply Nat.le_antisymm; [now apply (H k k' w w')|apply (H k' k w' w); auto]). subst k'. split; [reflexivity|]. qlra.
Qed.
Lemma position_order k k' w w' : (0 <= w)%Qc -> (w' < 1)%Qc -> (qn k + w <= qn k' + w')%Qc -> (k < k')%nat \/ (k = k' /\ (w <= w')%Qc).
Proof.
  intros A B E. destruct (Nat.lt_trichotomy k k') as [|[->|N]]; [now left|right; split; [reflexivity|qlra]|]. exfalso. apply (qn_le (S k') k) in N. rewrite qn_S in N. qlra.
Qed.

(** The value at a position. *)
Definition at_position (ys : list Qc) (k : nat) (w x : Qc) : Prop :=
  (w = 0%Qc /\ nth_error ys k = Some x) \/ exists a b, nth_error ys k = Some a /\ nth_error ys (S k) = Some b /\ x = (a + w * (b - a))%Qc.
Lemma at_position_first ys k w x : at_position ys k w x -> exists a, nth_error ys k = Some a.
Proof. intros [[_ H]|(a & b & H & _)]; eauto. Qed.
Lemma at_position_lower ys k w x a : StronglySorted Qcle ys -> (0 <= w)%Qc -> at_position ys k w x -> nth_error ys k = Some a -> (a <= x)%Qc.
Proof.
  intros Hs Hw [[_ H]|(a' & b & H & Hb & ->)] Ha; rewrite Ha in H; injection H as <-; [apply Qcle_refl|].
  pose proof (@sorted_nth _ Hs k (S k) a b (Nat.le_succ_diag_r k) Ha Hb). qnra.
Qed.
Lemma at_position_upper ys k w x j b : StronglySorted Qcle ys -> (0 <= w)%Qc -> (w < 1)%Qc -> at_position ys k w x -> (k < j)%nat -> nth_error ys j = Some b -> (x <= b)%Qc.
Proof.
  intros Hs Hw Hw1 [[_ H]|(a & c & H & Hc & ->)] Hj Hb; [exact (@sorted_nth _ Hs k j x b ltac:(lia) H Hb)|].
  pose proof (@sorted_nth _ Hs k (S k) a c (Nat.le_succ_diag_r k) H Hc). pose proof (@sorted_nth _ Hs (S k) j c b Hj Hc Hb). qnra.
Qed.
Lemma at_position_unique ys k w x x' : at_position ys k w x -> at_position ys k w x' -> x = x'.
Proof.
  intros [[E H]|(a & b & Ha & Hb & ->)] [[E' H']|(a' & b' & Ha' & Hb' & ->)].
  - congruence.
  - rewrite Ha' in H. injection H as <-. subst w. qlra.
  - rewrite Ha in H'. injection H' as <-. subst w. qlra.
  - congruence.
Qed.

Lemma percentile_ok p v : v <> [] -> (0 <= p)%Qc -> (p <= 1)%Qc -> exists x, percentile p v = Some x /\ interpolated p v x.
Proof.
  intros Hv H0 H1. unfold percentile. destruct v as [|v0 vs]; [easy|]. set (v := v0 :: vs) in *. eexists. split; [reflexivity|].
  set (ys := isort Qcleb v). set (h := (qn (List.length v - 1) * p)%Qc). set (k := Z.to_nat (Qfloor (this h))).
  assert (Pn : (0 <= qn (List.length v - 1))%Qc) by apply qn_nonneg.
  assert (Hh0 : (0 <= h)%Qc) by (unfold h; now apply Qcmult_nonneg).
  assert (Hh1 : (h <= qn (List.length v - 1))%Qc) by (unfold h; qnra).
  destruct (floor_bounds Hh0) as [F1 F2]. fold k in F1, F2.
  assert (Lys : List.length ys = List.length v) by (symmetry; apply Permutation_length, isort_perm).
  assert (Hk : (k <= List.length v - 1)%nat) by (apply qn_le; eapply Qcle_trans; eassumption).
  assert (Hpos : (0 < List.length v)%nat) by (cbn; lia).
  exists ys, k, (h - qn k)%Qc. split; [apply isort_perm|]. split; [apply sorted_Qc; apply isort_sorted; [exact Qcleb_trans|exact Qcleb_total]|].
  split; [qlra|]. split; [qlra|]. split; [fold h; qlra|].
  destruct (nth_error ys k) as [a|] eqn:Ea; [|apply nth_error_None in Ea; lia].
  rewrite (nth_error_nth _ _ _ Ea). destruct (nth_error ys (S k)) as [b|] eqn:Eb.
  - right. exists a, b. split; [reflexivity|]. split; [reflexivity|]. rewrite (nth_error_nth _ _ _ Eb). ring.
  - left. assert (k = (List.length v - 1)%nat) by (apply nth_error_None in Eb; lia). subst k.
    assert (E : (h - qn (Z.to_nat (Qfloor (this h))))%Qc = 0%Qc) by (rewrite H in F1, F2 |- *; qlra). split; [exact E|]. f_equal. rewrite E. ring.
Qed.
Lemma interpolated_unique p v v' x x' : Permutation v v' -> interpolated p v x -> interpolated p v' x' -> x = x'.
Proof.
  intros Hp (ys & k & w & P & S & W0 & W1 & E & H) (ys' & k' & w' & P' & S' & W0' & W1' & E' & H').
  assert (ys = ys'). { apply sorted_same; [exact S|exact S'|]. rewrite <- P, Hp. exact P'. } subst ys'.
  rewrite <- (Permutation_length Hp), E in E'. destruct (@position_unique _ _ _ _ W0 W1 W0' W1' E') as [-> ->]. exact (at_position_unique H H').
Qed.
Lemma interpolated_between p v x m M : interpolated p v x -> least v m -> greatest v M -> (m <= x)%Qc /\ (x <= M)%Qc.
Proof.
  intros (ys & k & w & P & S & W0 & W1 & E & H) [_ Hm] [_ HM]. destruct (at_position_first H) as [a Ha]. split.
  - apply Qcle_trans with a; [apply Hm; apply (Permutation_in _ (Permutation_sym P)); exact (nth_error_In _ _ Ha)|exact (@at_position_lower _ _ _ _ _ S W0 H Ha)].
  - destruct H as [[_ H]|(a' & b & H1 & H2 & ->)].
    + apply HM. apply (Permutation_in _ (Permutation_sym P)). exact (nth_error_In _ _ H).
    + assert (B1 : (a' <= M)%Qc) by (apply HM, (Permutation_in _ (Permutation_sym P)), (nth_error_In _ _ H1)). assert (B2 : (b <= M)%Qc) by (apply HM, (Permutation_in _ (Permutation_sym P)), (nth_error_In _ _ H2)). qnra.
Qed.
Lemma interpolated_monotone p p' v x x' : (p <= p')%Qc -> interpolated p v x -> interpolated p' v x' -> (x <= x')%Qc.
Proof.
  intros Hp (ys & k & w & P & S & W0 & W1 & E & H) (ys' & k' & w' & P' & S' & W0' & W1' & E' & H').
  assert (ys = ys') by (apply sorted_same; [exact S|exact S'|now rewrite <- P]). subst ys'.
  pose proof (qn_nonneg (List.length v - 1)) as Hn. assert (L : (qn k + w <= qn k' + w')%Qc) by (rewrite <- E, <- E'; qnra).
  destruct (at_position_first H') as [a' Ha']. destruct (@position_order _ _ _ _ W0 W1' L) as [Hk|[-> Hw]].
  - apply Qcle_trans with a'; [exact (@at_position_upper _ _ _ _ _ _ S W0 W1 H Hk Ha')|exact (@at_position_lower _ _ _ _ _ S W0' H' Ha')].
  - destruct H as [[Ew H]|(a & b & Ha & Hb & ->)]; [exact (@at_position_lower _ _ _ _ _ S W0' H' H)|].
    destruct H' as [[Ew' H']|(a2 & b2 & Ha2 & Hb2 & ->)].
    + subst w'. assert (w = 0%Qc) by qlra. subst w. rewrite Ha in H'. injection H' as <-. qlra.
    + rewrite Ha in Ha2. injection Ha2 as <-. rewrite Hb in Hb2. injection Hb2 as <-. pose proof (@sorted_nth _ S k' (Datatypes.S k') a b (Nat.le_succ_diag_r k') Ha Hb). qnra.
Qed.
Lemma filter_length_perm {A} (f : A -> bool) l l' : Permutation l l' -> List.length (filter f l) = List.length (filter f l').
Proof. induction 1; cbn; [reflexivity|destruct (f x); cbn; congruence|destruct (f x), (f y); reflexivity|congruence]. Qed.
Lemma filter_all {A} (f : A -> bool) l : (forall x, In x l -> f x = true) -> filter f l = l.
Proof. induction l as [|x l IH]; intros H; [reflexivity|]. cbn. rewrite (H x (or_introl eq_refl)). f_equal. apply IH. intros y Hy. apply H. now right. Qed.
Lemma filter_first {A} (f : A -> bool) l m : (m <= List.length l)%nat -> (forall i x, (i < m)%nat -> nth_error l i = Some x -> f x = true) -> (m <= List.length (filter f l))%nat.
Proof.
  intros Hm H. rewrite <- (firstn_skipn m l), filter_app, app_length, filter_all.
  - rewrite firstn_length_le by exact Hm. lia.
  - intros x Hx. apply In_nth_error in Hx as [i Hi]. assert (L : (i < m)%nat). { assert (i < List.length (firstn m l))%nat by (apply nth_error_Some; congruence). rewrite firstn_length_le in H0; lia. }
    apply (H i); [exact L|]. rewrite <- (firstn_skipn m l), nth_error_app1 by (rewrite firstn_length_le; lia). exact Hi.
Qed.
Lemma filter_last {A} (f : A -> bool) l m : (m <= List.length l)%nat -> (forall i x, (m <= i)%nat -> nth_error l i = Some x -> f x = true) -> (List.length l - m <= List.length (filter f l))%nat.
Proof.
  intros Hm H. rewrite <- (firstn_skipn m l) at 2. rewrite filter_app, app_length, (filter_all f (skipn m l)).
  - rewrite skipn_length. lia.
  - intros x Hx. apply In_nth_error in Hx as [i Hi]. apply (H (m + i)%nat); [lia|]. rewrite <- (firstn_skipn m l), nth_error_app2 by (rewrite firstn_length_le; lia). rewrite firstn_length_le by exact Hm. now replace (m + i - m)%nat with i by lia.
Qed.
Lemma interpolated_rank p v x : interpolated p v x ->
  (qn (List.length v - 1) * p < qn (List.length (at_most x v)))%Qc /\ (qn (List.length v - 1) * (1 - p) <= qn (List.length (at_least x v)))%Qc.
Proof.
  intros (ys & k & w & P & S & W0 & W1 & E & H). unfold at_most, at_least. rewrite !(filter_length_perm _ P). pose proof (Permutation_length P) as L.
  destruct (at_position_first H) as [a Ha]. assert (Hk : (k < List.length ys)%nat) by (apply nth_error_Some; congruence). split.
  - rewrite E. assert (C : (Datatypes.S k <= List.length (filter (fun y => Qcleb y x) ys))%nat).
    { apply filter_first; [lia|]. intros i y Hi Hy. apply Qcleb_true. apply Qcle_trans with a; [exact (@sorted_nth _ S i k y a ltac:(lia) Hy Ha)|exact (@at_position_lower _ _ _ _ _ S W0 H Ha)]. }
    apply qn_le in C. rewrite qn_S in C. qlra.
  - assert (C : (List.length v - 1 - k <= List.length (filter (fun y => Qcleb x y) ys))%nat).
    { replace (List.length v - 1 - k)%nat with (List.length ys - Datatypes.S k)%nat by lia. apply filter_last; [lia|]. intros i y Hi Hy. apply Qcleb_true. exact (@at_position_upper _ _ _ _ _ _ S W0 W1 H Hi Hy). }
    apply qn_le in C. assert (Eq : qn (List.length v - 1) = (qn (List.length v - 1 - k) + qn k)%Qc) by (rewrite <- qn_add; f_equal; lia). qlra.
Qed.
Lemma interpolated_scaled c p v x : (0 < c)%Qc -> interpolated p v x -> interpolated p (map (Qcmult c) v) (c * x)%Qc.
Proof.
  intros Hc (ys & k & w & P & S & W0 & W1 & E & H). exists (map (Qcmult c) ys), k, w. rewrite map_length. split; [now apply Permutation_map|]. split.
  { clear - S Hc. induction S as [|y l Hs IH Hy]; cbn; constructor; [exact IH|]. rewrite Forall_map. eapply Forall_impl; [|exact Hy]. cbn. intros z Hz. qnra. }
  split; [exact W0|]. split; [exact W1|]. split; [exact E|]. destruct H as [[Ew H]|(a & b & Ha & Hb & ->)].
  - left. split; [exact Ew|]. now apply map_nth_error.
  - right. exists (c * a)%Qc, (c * b)%Qc. split; [now apply map_nth_error|]. split; [now apply map_nth_error|]. ring.
Qed.

Lemma fold_min_spec l : forall x, least (x :: l) (fold_left Qcmin l x).
Proof.
  induction l as [|y l IH]; intros x; cbn [fold_left]; [split; [now left|intros y [<-|[]]; apply Qcle_refl]|].
  destruct (IH (Qcmin x y)) as [A B]. destruct (Qcmin_spec x y) as [[H E]|[H E]]; rewrite E in *; split.
  - destruct A as [A|A]; [now left|right; now right].
  - intros z [<-|[<-|Hz]]; [apply B; now left|apply Qcle_trans with x; [apply B; now left|exact H]|apply B; now right].
  - destruct A as [A|A]; [right; now left|right; now right].
  - intros z [<-|[<-|Hz]]; [apply Qcle_trans with y; [apply B; now left|exact H]|apply B; now left|apply B; now right].
Qed.
Lemma fold_max_spec l : forall x, greatest (x :: l) (fold_left Qcmax l x).
Proof.
  induction l as [|y l IH]; intros x; cbn [fold_left]; [split; [now left|intros y [<-|[]]; apply Qcle_refl]|].
  destruct (IH (Qcmax x y)) as [A B]. destruct (Qcmax_spec x y) as [[H E]|[H E]]; rewrite E in *; split.
  - destruct A as [A|A]; [right; now left|right; now right].
  - intros z [<-|[<-|Hz]]; [apply Qcle_trans with y; [exact H|apply B; now left]|apply B; now left|apply B; now right].
  - destruct A as [A|A]; [now left|right; now right].
  - intros z [<-|[<-|Hz]]; [apply B; now left|apply Qcle_trans with x; [exact H|apply B; now left]|apply B; now right].
Qed.
Lemma minimum_spec v : v <> [] -> exists m, minimum v = Some m /\ least v m.
Proof. destruct v as [|x v]; [easy|]. intros _. exists (fold_left Qcmin v x). split; [reflexivity|apply fold_min_spec]. Qed.
Lemma maximum_spec v : v <> [] -> exists m, maximum v = Some m /\ greatest v m.
Proof. destruct v as [|x v]; [easy|]. intros _. exists (fold_left Qcmax v x). split; [reflexivity|apply fold_max_spec]. Qed.
Lemma least_unique v v' m m' : Permutation v v' -> least v m -> least v' m' -> m = m'.
Proof. intros P [A B] [C D]. apply Qcle_antisym; [apply B, (Permutation_in _ (Permutation_sym P)), C|apply D, (Permutation_in _ P), A]. Qed.
Lemma greatest_unique v v' m m' : Permutation v v' -> greatest v m -> greatest v' m' -> m = m'.
Proof. intros P [A B] [C D]. apply Qcle_antisym; [apply D, (Permutation_in _ P), A|apply B, (Permutation_in _ (Permutation_sym P)), C]. Qed.

(** ** Summary *)

Lemma nth_repeat_lt {A} (x d : A) n i : (i < n)%nat -> nth i (repeat x n) d = x.
Proof. revert i. induction n as [|n IH]; intros [|i] H; [lia..|reflexivity|]. cbn. apply IH. lia. Qed.
Lemma dget_join {V} (g : list string -> V) K k0 ks : (forall k, In k ks -> join "-" k = K -> k = k0) -> join "-" k0 = K ->
  dget K (map (fun k => (join "-" k, g k)) ks) = if existsb (label_eqb k0) ks then Some (g k0) else None.
Proof.
  intros H H0. induction ks as [|k ks IH]; [reflexivity|]. cbn [map dget existsb]. destruct (String.eqb_spec K (join "-" k)) as [E|N].
  - rewrite (H k (or_introl eq_refl) (eq_sym E)). assert (X : label_eqb k0 k0 = true) by now apply label_eqb_eq. now rewrite X.
  - assert (X : label_eqb k0 k = false). { destruct (label_eqb k0 k) eqn:Eq; [|reflexivity]. apply label_eqb_eq in Eq. subst k. now rewrite H0 in N. }
    rewrite X. cbn [orb]. apply IH. intros k' Hk'. apply H. now right.
Qed.
Lemma group_total_form n lv s : group_total n lv s = map (fun k => (k, map (fun i => Some (nsum (map (fun c => nth i c None) (members lv k s)))) (seq 0 n))) (keys_of lv s).
Proof.
  unfold group_total, groupby, keys_of. rewrite !map_map. cbn [fst snd]. apply map_ext_in. intros k _. rewrite group_rows_members. reflexivity.
Qed.
Lemma flag_spec n name K s i : (forall a b, join "-" [a; b] = K -> a = name /\ b = "1") -> join "-" [name; "1"] = K -> (i < n)%nat ->
  nth i (flag_column n K (simple_labels (group_total n [0; 4]%nat s))) None = Some (amount (fun l => level_is 0 name l && level_is 4 "1" l)%bool i s).
Proof.
  intros HK HK0 Hi. unfold flag_column, simple_labels. rewrite group_total_form, map_map. cbn [fst snd].
  rewrite (@dget_join _ (fun k => map (fun i => Some (nsum (map (fun c => nth i c None) (members [0; 4]%nat k s)))) (seq 0 n)) K [name; "1"]); [|intros k Hk E|exact HK0].
  - assert (Ea : forall l, label_eqb [name; "1"] (pick [0; 4]%nat l) = (level_is 0 name l && level_is 4 "1" l)%bool).
    { intros l. unfold pick, level_is. cbn [map]. apply eq_iff_eq_true. rewrite label_eqb_eq, andb_true_iff, !String.eqb_eq. split; [intros [= -> ->]; now split|intros [<- <-]; reflexivity]. }
    assert (Em : qsum (map nfill0 (map (fun c => nth i c None) (members [0; 4]%nat [name; "1"] s))) = amount (fun l => level_is 0 name l && level_is 4 "1" l)%bool i s).
    { rewrite members_amount. unfold amount. f_equal. f_equal. apply filter_ext. intros c. apply Ea. }
    destruct (existsb (label_eqb [name; "1"]) (keys_of [0; 4]%nat s)) eqn:Ex.
    + rewrite nth_map_seq by exact Hi. f_equal. rewrite nsum_nfill0. exact Em.
    + rewrite nth_repeat_lt by exact Hi. f_equal. symmetry. unfold amount.
      assert (F : filter (fun c : list string * list num => (level_is 0 name (fst c) && level_is 4 "1" (fst c))%bool) s = []); [|now rewrite F].
      destruct (filter _ s) as [|c l] eqn:Ef; [reflexivity|]. exfalso. assert (Hc : In c (filter (fun c : list string * list num => (level_is 0 name (fst c) && level_is 4 "1" (fst c))%bool) s)) by (rewrite Ef; now left).
      apply filter_In in Hc as [Hc Hl]. rewrite <- Ea in Hl. apply label_eqb_eq in Hl.
      assert (Hk : existsb (label_eqb [name; "1"]) (keys_of [0; 4]%nat s) = true); [|congruence]. apply existsb_exists. exists [name; "1"]. split; [apply keys_of_In; exists c; now split|now apply label_eqb_eq].
  - apply keys_of_In in Hk as (c & _ & ->). unfold pick in E |- *. cbn [map] in *. destruct (HK _ _ E) as [-> ->]. reflexivity.
Qed.
Lemma collapse_key a b : join "-" [a; b] = "collapse-1" -> a = "collapse" /\ b = "1".
Proof.
  cbn. intros H. do 8 (destruct a as [|? a]; cbn in H; [discriminate H|]; injection H as -> H). destruct a as [|? a]; cbn in H; [injection H as ->; now split|].
  injection H as -> H. destruct a as [|? a]; cbn in H; [discriminate H|]. injection H as -> H. destruct a; discriminate H.
Qed.
Lemma irreparable_key a b : join "-" [a; b] = "irreparable-1" -> a = "irreparable" /\ b = "1".
Proof.
  cbn. intros H. do 11 (destruct a as [|? a]; cbn in H; [discriminate H|]; injection H as -> H). destruct a as [|? a]; cbn in H; [injection H as ->; now split|].
  injection H as -> H. destruct a as [|? a]; cbn in H; [discriminate H|]. injection H as -> H. destruct a; discriminate H.
Qed.
