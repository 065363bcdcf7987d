(** Proofs about reading tables. *)
From Verif Require Import Prelude PreludeFacts Pandas PandasFacts M_Base M_Load S_Load.
Set Implicit Arguments.
Local Open Scope string_scope.
Local Open Scope list_scope.

Lemma na_words s : mem s na_values = true <-> In s missing_words.
Proof.
  rewrite mem_true. unfold na_values, missing_words. cbn [In]. tauto.
Qed.
Lemma na_words_false s : mem s na_values = false <-> ~ In s missing_words.
Proof. rewrite <- na_words. destruct (mem s na_values); intuition congruence. Qed.

Lemma lower_units k : String.eqb (lower k) "units" = true <-> says_units k.
Proof.
  rewrite String.eqb_eq. unfold says_units.
  assert (H : forall w, Forall (fun b => 97 <= nat_of_ascii b <= 122)%nat (list_ascii_of_string w) -> forall k,
             lower k = w <-> Forall2 same_letter (list_ascii_of_string k) (list_ascii_of_string w)).
  { clear k. induction w as [|b w IH]; intros Hw k; destruct k as [|a k]; cbn.
    - split; [constructor | reflexivity].
    - split; intro Q; inversion Q.
    - split; intro Q; inversion Q.
    - cbn in Hw. inversion Hw as [|? ? Hb Hw']; subst. specialize (IH Hw' k).
      assert (E : lower_ascii a = b <-> same_letter a b).
      { unfold same_letter, lower_ascii.
        pose proof (nat_ascii_bounded a) as Ba. pose proof (nat_ascii_bounded b) as Bb.
        destruct (Nat.leb 65 (nat_of_ascii a) && Nat.leb (nat_of_ascii a) 90) eqn:U.
        - apply andb_true_iff in U. destruct U as [U1 U2]. apply Nat.leb_le in U1, U2.
          split.
          + intros <-. right. rewrite nat_ascii_embedding; lia.
          + intros [-> | Q]; [lia|]. rewrite Q. apply ascii_nat_embedding.
        - split.
          + intros ->. left; reflexivity.
          + intros [-> | Q]; [reflexivity|]. apply andb_false_iff in U. destruct U as [U | U]; apply Nat.leb_gt in U; lia. }
      split.
      + intro Q. injection Q as Q1 Q2. constructor; [apply E; exact Q1 | apply IH; exact Q2].
      + intro Q. inversion Q; subst. f_equal; [apply E; assumption | apply IH; assumption]. }
  apply H. cbn. repeat constructor; vm_compute; lia.
Qed.

Local Opaque na_values mem.
Section Cells.
Context (parse : string -> option Qc).

Definition final (cells : list raw) : list raw := convert_column parse (map parse_na cells).

Lemma cell_cases c : (exists x, denotes parse c x) \/ is_word parse c.
Proof.
  destruct c as [s | x]; [|left; exists x; constructor].
  destruct (mem s na_values) eqn:E.
  - apply na_words in E. left. exists None. constructor; exact E.
  - apply na_words_false in E. destruct (parse s) as [q|] eqn:P.
    + left. exists (Some q). constructor 3; assumption.
    + right. exists s. auto.
Qed.
Lemma denotes_number c x : denotes parse c x -> to_number parse (parse_na c) = Ok x.
Proof.
  intros [y | s Hs | s q Hs P]; cbn; [reflexivity | |].
  - apply na_words in Hs. rewrite Hs. reflexivity.
  - apply na_words_false in Hs. rewrite Hs. cbn. rewrite P. reflexivity.
Qed.
Lemma word_number c : is_word parse c -> to_number parse (parse_na c) = Err ValueError.
Proof. intros [s [-> [Hs P]]]. cbn. apply na_words_false in Hs. rewrite Hs. cbn. rewrite P. reflexivity. Qed.
Lemma parse_na_as_is c : as_is c (parse_na c).
Proof.
  destruct c as [s | x]; cbn; [|constructor].
  destruct (mem s na_values) eqn:E; [apply na_words in E | apply na_words_false in E]; constructor; exact E.
Qed.

Lemma numbers_mapM cells xs : Forall2 (denotes parse) cells xs -> mapM (to_number parse) (map parse_na cells) = Ok xs.
Proof.
  induction 1 as [|c x cells xs H _ IH]; cbn; [reflexivity|].
  rewrite (denotes_number H). cbn. rewrite IH. reflexivity.
Qed.
Lemma word_mapM cells c : In c cells -> is_word parse c -> exists e, mapM (to_number parse) (map parse_na cells) = Err e.
Proof.
  intros Hin Hw. induction cells as [|a cells IH]; [destruct Hin|]. cbn.
  destruct Hin as [-> | Hin].
  - rewrite (word_number Hw). cbn. eauto.
  - destruct (to_number parse (parse_na a)) as [x|e]; cbn; [|eauto].
    destruct (IH Hin) as [e ->]. cbn. eauto.
Qed.
Lemma final_numbers cells xs : Forall2 (denotes parse) cells xs -> final cells = map RNum xs.
Proof. intro H. unfold final, convert_column. rewrite (numbers_mapM H). reflexivity. Qed.
Lemma final_word cells c : In c cells -> is_word parse c -> final cells = map parse_na cells.
Proof. intros Hin Hw. unfold final, convert_column. destruct (word_mapM cells Hin Hw) as [e ->]. reflexivity. Qed.

Lemma cells_cases cells : (exists xs, Forall2 (denotes parse) cells xs) \/ exists c, In c cells /\ is_word parse c.
Proof.
  induction cells as [|a cells IH]; [left; exists []; constructor|].
  destruct (cell_cases a) as [[x Hx] | Hw]; [|right; exists a; split; [left; reflexivity | exact Hw]].
  destruct IH as [[xs Hxs] | [c [Hc Hw]]].
  - left. exists (x :: xs). constructor; assumption.
  - right. exists c. split; [right; exact Hc | exact Hw].
Qed.
Lemma numeric_numbers xs : numeric (map RNum xs) = true.
Proof. induction xs; cbn; auto. Qed.
Lemma numeric_word cells c : In c cells -> is_word parse c -> numeric (map parse_na cells) = false.
Proof.
  intros Hin [s [-> [Hs _]]]. apply Bool.not_true_iff_false. intro Q. unfold numeric in Q.
  rewrite forallb_forall in Q. specialize (Q (parse_na (RText s)) (in_map parse_na _ _ Hin)).
  cbn in Q. apply na_words_false in Hs. rewrite Hs in Q. discriminate.
Qed.
Lemma numeric_final cells : numeric (final cells) = true <-> forall c, In c cells -> exists x, denotes parse c x.
Proof.
  destruct (cells_cases cells) as [[xs H] | [c [Hc Hw]]].
  - rewrite (final_numbers H), numeric_numbers. split; [|reflexivity]. intros _ c Hc.
    clear - H Hc. induction H as [|a x cells xs Ha _ IH]; [destruct Hc|]. destruct Hc as [-> | Hc]; eauto.
  - rewrite (final_word cells Hc Hw), (numeric_word cells Hc Hw). split; [discriminate|]. intro Q. destruct (Q c Hc) as [x Hx].
    apply denotes_number in Hx. rewrite (word_number Hw) in Hx. discriminate.
Qed.

(** *** Converting twice *)
Lemma mapM_numbers xs : mapM (to_number parse) (map RNum xs) = Ok xs.
Proof. induction xs as [|x xs IH]; cbn; [reflexivity|]. rewrite IH. reflexivity. Qed.
Lemma convert_numbers xs : convert_column parse (map RNum xs) = map RNum xs.
Proof. unfold convert_column. rewrite mapM_numbers. reflexivity. Qed.
Lemma convert_twice l : convert_column parse (convert_column parse l) = convert_column parse l.
Proof.
  unfold convert_column at 2 3. destruct (mapM (to_number parse) l) eqn:E; [apply convert_numbers|].
  unfold convert_column. rewrite E. reflexivity.
Qed.
Lemma mapM_remove i : forall l xs, mapM (to_number parse) l = Ok xs -> mapM (to_number parse) (remove_at i l) = Ok (remove_at i xs).
Proof.
  induction i as [|i IH]; intros [|a l] xs H; cbn in H.
  - injection H as <-. reflexivity.
  - destruct (to_number parse a) as [x|e]; [|discriminate]. cbn in H.
    destruct (mapM (to_number parse) l) as [ys|e] eqn:El; [|discriminate]. cbn in H. injection H as <-. exact El.
  - injection H as <-. reflexivity.
  - destruct (to_number parse a) as [x|e] eqn:Ea; [|discriminate]. cbn in H.
    destruct (mapM (to_number parse) l) as [ys|e] eqn:El; [|discriminate]. cbn in H. injection H as <-.
    specialize (IH l ys El). unfold remove_at in *. cbn. rewrite Ea. cbn. cbn in IH. rewrite IH. reflexivity.
Qed.
Lemma remove_at_map {A B} (f : A -> B) i l : remove_at i (map f l) = map f (remove_at i l).
Proof. unfold remove_at. rewrite firstn_map, skipn_map, map_app. reflexivity. Qed.
Lemma convert_remove i l : convert_column parse (remove_at i (convert_column parse l)) = convert_column parse (remove_at i l).
Proof.
  unfold convert_column at 2. destruct (mapM (to_number parse) l) as [xs|e] eqn:E; [|reflexivity].
  rewrite remove_at_map, convert_numbers. unfold convert_column. rewrite (mapM_remove i l E). reflexivity.
Qed.

(** *** Factors *)
Lemma factor_spec factors u f : unit_factor factors u f -> factor_of factors (parse_na u) = f.
Proof.
  intros [x | s Hs | s g Hs D | s Hs D]; cbn; [reflexivity | | |].
  - apply na_words in Hs. rewrite Hs. reflexivity.
  - apply na_words_false in Hs. rewrite Hs. cbn. rewrite D. reflexivity.
  - apply na_words_false in Hs. rewrite Hs. cbn. rewrite D. reflexivity.
Qed.
Lemma factor_number factors c x : names_only parse factors -> to_number parse c = Ok x -> factor_of factors c = 1%Qc.
Proof.
  intros Hn H. destruct c as [s | y]; [|reflexivity]. cbn in *. destruct (parse s) eqn:P; [|discriminate].
  rewrite Hn; [reflexivity|]. rewrite P. discriminate.
Qed.
Lemma factors_convert factors l : names_only parse factors -> map (factor_of factors) (convert_column parse l) = map (factor_of factors) l.
Proof.
  intro Hn. unfold convert_column. destruct (mapM (to_number parse) l) as [xs|e] eqn:E; [|reflexivity].
  revert xs E. induction l as [|c l IH]; intros xs E; cbn in E.
  - injection E as <-. reflexivity.
  - destruct (to_number parse c) as [x|e] eqn:Ec; [|discriminate]. cbn in E.
    destruct (mapM (to_number parse) l) as [ys|e] eqn:El; [|discriminate]. cbn in E. injection E as <-.
    cbn. rewrite (@factor_number _ _ _ Hn Ec). f_equal. apply IH. reflexivity.
Qed.
Lemma factor_convert_nth factors l i : names_only parse factors ->
  factor_of factors (nth i (convert_column parse l) (RNum None)) = factor_of factors (nth i l (RNum None)).
Proof.
  intro Hn. rewrite <- !(map_nth (factor_of factors)). rewrite (@factors_convert _ l Hn). reflexivity.
Qed.
End Cells.

(** ** Tables *)
Lemma on_columns_names f t : map fst (t_columns (on_columns f t)) = map fst (t_columns t).
Proof. unfold on_columns. cbn. rewrite map_map. reflexivity. Qed.
Lemma on_columns_comp f g t : on_columns f (on_columns g t) = on_columns (fun l => f (g l)) t.
Proof. unfold on_columns. cbn. rewrite map_map. reflexivity. Qed.
Lemma on_columns_ext f g t : (forall l, f l = g l) -> on_columns f t = on_columns g t.
Proof. intro H. unfold on_columns. f_equal. apply map_ext. intros [c l]. cbn. rewrite H. reflexivity. Qed.
Lemma drop_column_on f k t : drop_column k (on_columns f t) = on_columns f (drop_column k t).
Proof.
  unfold drop_column, on_columns. cbn. f_equal. induction (t_columns t) as [|[c l] cs IH]; cbn; [reflexivity|].
  destruct (String.eqb c k); cbn; rewrite IH; reflexivity.
Qed.
Lemma drop_row_on f g k t : (forall i l, f (remove_at i (g l)) = f (remove_at i l)) ->
  on_columns f (drop_row k (on_columns g t)) = on_columns f (drop_row k t).
Proof.
  intro H. unfold drop_row, on_columns. cbn [t_index t_columns]. f_equal. rewrite !map_map. apply map_ext. intros [c l]. cbn [fst snd]. rewrite H. reflexivity.
Qed.
Lemma drop_row_map f k t : drop_row k (on_columns (map f) t) = on_columns (map f) (drop_row k t).
Proof.
  unfold drop_row, on_columns. cbn [t_index t_columns]. f_equal. rewrite !map_map. apply map_ext. intros [c l]. cbn [fst snd]. rewrite remove_at_map. reflexivity.
Qed.

Section Tables.
Context (parse : string -> option Qc).
Lemma fetch_index s : t_index (fetch parse s) = t_index (table_of s).
Proof. destruct s; reflexivity. Qed.
Lemma fetch_names s : map fst (t_columns (fetch parse s)) = map fst (t_columns (table_of s)).
Proof. destruct s; cbn [fetch table_of]; unfold convert_dtypes; rewrite ?on_columns_names; reflexivity. Qed.

Lemma units_key_some labels k : units_label labels k -> units_key labels = Some k.
Proof.
  intros [Hin [Hs Hu]]. unfold units_key. destruct (find _ labels) as [k'|] eqn:E.
  - apply find_some in E. destruct E as [E1 E2]. apply lower_units in E2. rewrite (Hu k' E1 E2). reflexivity.
  - pose proof (find_none _ _ E k Hin) as Q. cbn in Q. apply lower_units in Hs. congruence.
Qed.
Lemma units_key_none labels : (forall k, In k labels -> ~ says_units k) -> units_key labels = None.
Proof.
  intro H. unfold units_key. destruct (find _ labels) as [k'|] eqn:E; [|reflexivity].
  apply find_some in E. destruct E as [E1 E2]. apply lower_units in E2. destruct (H k' E1 E2).
Qed.

Definition read (t : table) : table := on_columns (final parse) t.
Lemma read_fetch s : convert_dtypes parse (fetch parse s) = read (table_of s).
Proof.
  destruct s as [t | t]; cbn [fetch table_of]; unfold convert_dtypes, read; rewrite ?on_columns_comp; apply on_columns_ext; intro l.
  - reflexivity.
  - apply convert_twice.
Qed.
Lemma read_drop_column k s : convert_dtypes parse (drop_column k (fetch parse s)) = read (drop_column k (table_of s)).
Proof.
  destruct s as [t | t]; cbn [fetch table_of]; unfold convert_dtypes, read; rewrite ?drop_column_on, ?on_columns_comp; apply on_columns_ext; intro l.
  - reflexivity.
  - apply convert_twice.
Qed.
Lemma read_drop_row k s : convert_dtypes parse (drop_row k (fetch parse s)) = read (drop_row k (table_of s)).
Proof.
  destruct s as [t | t]; cbn [fetch table_of]; unfold convert_dtypes, read.
  - rewrite drop_row_map, on_columns_comp. reflexivity.
  - rewrite drop_row_on by (intros; apply convert_remove). rewrite drop_row_map, on_columns_comp. reflexivity.
Qed.

Lemma factors_column factors k s : names_only parse factors ->
  map (factor_of factors) (column_of k (fetch parse s)) = map (fun u => factor_of factors (parse_na u)) (column_of k (table_of s)).
Proof.
  intro Hn. unfold column_of.
  assert (E : forall f t, aget String.eqb k (t_columns (on_columns f t)) = option_map f (aget String.eqb k (t_columns t))).
  { intros f t. unfold on_columns. cbn. induction (t_columns t) as [|[c l] cs IH]; cbn; [reflexivity|].
    destruct (String.eqb _ _); [reflexivity | exact IH]. }
  destruct s as [t | t]; cbn [fetch table_of]; unfold convert_dtypes; rewrite ?E; destruct (aget String.eqb k (t_columns t)) as [l|]; cbn [option_map map]; try reflexivity.
  - rewrite map_map. reflexivity.
  - rewrite (@factors_convert parse _ _ Hn), map_map. reflexivity.
Qed.
Lemma factors_row factors k s : names_only parse factors ->
  map (factor_of factors) (row_of k (fetch parse s)) = map (fun u => factor_of factors (parse_na u)) (row_of k (table_of s)).
Proof.
  intro Hn. unfold row_of. rewrite fetch_index. set (i := position k (t_index (table_of s))).
  destruct s as [t | t]; cbn [fetch table_of]; unfold convert_dtypes, on_columns; cbn [t_columns]; rewrite !map_map; apply map_ext; intros [c l]; cbn [fst snd].
  - change (RNum None) with (parse_na (RNum None)) at 1. rewrite map_nth. reflexivity.
  - rewrite (@factor_convert_nth parse _ _ _ Hn).
    change (RNum None) with (parse_na (RNum None)) at 1. rewrite map_nth. reflexivity.
Qed.
End Tables.

(** ** Variables in rows *)
Lemma remove_nth {A} : forall p (l : list A) i, i <> p -> nth_error (remove_at p l) (if Nat.ltb i p then i else pred i) = nth_error l i.
Proof.
  unfold remove_at. induction p as [|p IH]; intros [|a l] i Hi.
  - destruct i; cbn; [congruence|]. destruct i; reflexivity.
  - destruct i; [congruence|]. reflexivity.
  - assert (N : forall j, nth_error (@nil A) j = None) by (intros [|?]; reflexivity). cbn [firstn skipn app]. rewrite !N. reflexivity.
  - destruct i as [|i]; [reflexivity|]. assert (Hi' : i <> p) by congruence. specialize (IH l i Hi').
    change (Nat.ltb (S i) (S p)) with (Nat.ltb i p). cbn [firstn skipn].
    change (skipn (S p) (a :: l)) with (skipn p l) in *.
    destruct (Nat.ltb i p) eqn:E.
    + cbn. exact IH.
    + apply Nat.ltb_ge in E. destruct i as [|i]; [lia|]. cbn [pred] in *. cbn. exact IH.
Qed.
Lemma position_nth k : forall l, In k l -> nth_error l (position k l) = Some k.
Proof.
  induction l as [|a l IH]; [intros []|]. intro H. cbn. destruct (String.eqb_spec a k) as [-> | N]; [reflexivity|].
  destruct H as [-> | H]; [congruence|]. exact (IH H).
Qed.
Lemma nodup_nth {A} (l : list A) i j x : NoDup l -> nth_error l i = Some x -> nth_error l j = Some x -> i = j.
Proof.
  intros Hn Hi Hj. apply (proj1 (NoDup_nth_error l) Hn).
  - apply nth_error_Some. congruence.
  - congruence.
Qed.
Lemma map2_nth_error {A B C} (f : A -> B -> C) : forall a b i x y, nth_error a i = Some x -> nth_error b i = Some y ->
  nth_error (map2 f a b) i = Some (f x y).
Proof.
  induction a as [|x0 a IH]; intros [|y0 b] [|i] x y Ha Hb; cbn in *; try discriminate.
  - congruence.
  - apply IH; assumption.
Qed.
Lemma column_unique t c l l' : NoDup (map fst (t_columns t)) -> In (c, l) (t_columns t) -> In (c, l') (t_columns t) -> l = l'.
Proof.
  intros Hn H1 H2. apply (In_aget String.eqb String.eqb_eq) in H1; [|exact Hn]. apply (In_aget String.eqb String.eqb_eq) in H2; [|exact Hn].
  congruence.
Qed.

Section Rows.
Context (parse : string -> option Qc).

Lemma load_rows_eq factors s k : units_label (map fst (t_columns (table_of s))) k ->
  exists us, load_data parse factors InRows s =
    Ok (match factors with
        | Some fs => multiply_rows (map (factor_of fs) (column_of k (fetch parse s))) (read parse (drop_column k (table_of s)))
        | None => read parse (drop_column k (table_of s))
        end, us).
Proof.
  intro H. unfold load_data. rewrite fetch_names, (@units_key_some _ _ H). rewrite read_drop_column. eexists. reflexivity.
Qed.

Lemma numbers_of cells : (forall c, In c cells -> exists x, denotes parse c x) -> exists xs, Forall2 (denotes parse) cells xs.
Proof.
  intro H. induction cells as [|a cells IH]; [exists []; constructor|].
  destruct (H a (or_introl eq_refl)) as [x Hx]. destruct IH as [xs Hxs]; [intros c Hc; apply H; right; exact Hc|].
  exists (x :: xs). constructor; assumption.
Qed.
Lemma denotes_fun c x y : denotes parse c x -> denotes parse c y -> x = y.
Proof. intros H1 H2. apply denotes_number in H1, H2. congruence. Qed.
Lemma final_nth cells i y x : (forall c, In c cells -> exists x, denotes parse c x) ->
  nth_error cells i = Some y -> denotes parse y x -> nth_error (final parse cells) i = Some (RNum x).
Proof.
  intros H Hi Hy. destruct (@numbers_of cells H) as [xs Hxs]. rewrite (final_numbers Hxs). clear H.
  revert i Hi. induction Hxs as [|c z cells xs Hc _ IH]; intros [|i] Hi; cbn in Hi; try discriminate.
  - injection Hi as ->. cbn. rewrite (denotes_fun Hy Hc). reflexivity.
  - cbn. apply IH. exact Hi.
Qed.
Lemma final_word_nth cells i y w : In w cells -> is_word parse w -> nth_error cells i = Some y ->
  nth_error (final parse cells) i = Some (parse_na y).
Proof. intros Hin Hw Hi. rewrite (final_word cells Hin Hw). apply map_nth_error. exact Hi. Qed.

Lemma in_drop k c l t : In (c, l) (t_columns t) -> c <> k -> In (c, l) (t_columns (drop_column k t)).
Proof. intros H N. unfold drop_column. cbn. apply filter_In. split; [exact H|]. cbn. apply String.eqb_neq in N. rewrite N. reflexivity. Qed.
Lemma in_on f c l t : In (c, l) (t_columns t) -> In (c, f l) (t_columns (on_columns f t)).
Proof. intro H. unfold on_columns. cbn. apply (in_map (fun c => (fst c, f (snd c)))) in H. exact H. Qed.

Theorem rows_value factors s k t' us r c y x u f :
  rectangular (table_of s) -> units_label (map fst (t_columns (table_of s))) k -> names_only parse factors ->
  load_data parse (Some factors) InRows s = Ok (t', us) -> c <> k ->
  (forall r' y', cell_of (table_of s) r' c y' -> exists x', denotes parse y' x') ->
  cell_of (table_of s) r c y -> denotes parse y x -> cell_of (table_of s) r k u -> unit_factor factors u f ->
  cell_of t' r c (RNum (nmul x (Some f))).
Proof.
  intros [Hi [Hc Hl]] Hk Hn E Hck Hcol [i [l [Er [El Ey]]]] Hx [i' [l' [Er' [El' Eu]]]] Hf.
  pose proof (@nodup_nth _ _ _ _ _ Hi Er Er') as <-.
  destruct (@load_rows_eq (Some factors) s k Hk) as [us' E']. rewrite E' in E. injection E as <- _.
  rewrite (@factors_column parse _ _ _ Hn).
  assert (Hnum : forall c, In c l -> exists x, denotes parse c x).
  { intros y' Hy'. apply In_nth_error in Hy'. destruct Hy' as [j Hj].
    assert (L : (j < List.length (t_index (table_of s)))%nat) by (rewrite <- (Hl c l El); apply nth_error_Some; congruence).
    destruct (nth_error (t_index (table_of s)) j) as [r'|] eqn:Ej; [|apply nth_error_None in Ej; lia].
    apply (Hcol r' y'). exists j, l. auto. }
  exists i. exists (map2 scale (map (fun u => factor_of factors (parse_na u)) (column_of k (table_of s))) (final parse l)).
  split; [exact Er|]. split.
  - unfold multiply_rows. pose proof (in_on (final parse) c l (drop_column k (table_of s)) (@in_drop k c l _ El Hck)) as Q.
    apply (in_on (fun cells => if numeric cells then map2 scale (map (fun u => factor_of factors (parse_na u)) (column_of k (table_of s))) cells else cells)) in Q.
    rewrite (proj2 (numeric_final parse l) Hnum) in Q. exact Q.
  - assert (K : column_of k (table_of s) = l').
    { unfold column_of. rewrite (In_aget String.eqb String.eqb_eq _ _ _ Hc El'). reflexivity. }
    rewrite K. rewrite <- (factor_spec Hf).
    change (RNum (nmul x (Some (factor_of factors (parse_na u))))) with (scale (factor_of factors (parse_na u)) (RNum x)).
    apply map2_nth_error.
    + apply (map_nth_error (fun u => factor_of factors (parse_na u))). exact Eu.
    + exact (@final_nth l i y x Hnum Ey Hx).
Qed.

Lemma as_is_parse y z : as_is y z -> z = parse_na y.
Proof.
  intros [x | s Hs | s Hs]; cbn; [reflexivity | |].
  - apply na_words in Hs. rewrite Hs. reflexivity.
  - apply na_words_false in Hs. rewrite Hs. reflexivity.
Qed.
Theorem rows_text factors s k t' us r c y z w r0 :
  units_label (map fst (t_columns (table_of s))) k -> rectangular (table_of s) ->
  load_data parse factors InRows s = Ok (t', us) -> c <> k ->
  cell_of (table_of s) r0 c w -> is_word parse w -> cell_of (table_of s) r c y -> as_is y z -> cell_of t' r c z.
Proof.
  intros Hk [_ [Hc _]] E Hck [i0 [l0 [_ [El0 Ew]]]] Hw [i [l [Er [El Ey]]]] Hz.
  pose proof (@column_unique _ _ _ _ Hc El0 El) as ->. apply nth_error_In in Ew.
  destruct (@load_rows_eq factors s k Hk) as [us' E']. rewrite E' in E. injection E as <- _.
  exists i, (final parse l).
  pose proof (in_on (final parse) c l (drop_column k (table_of s)) (@in_drop k c l _ El Hck)) as Q.
  pose proof (final_word l Ew Hw) as F. pose proof (numeric_word l Ew Hw) as N.
  split; [destruct factors; exact Er|]. split.
  - destruct factors as [fs|]; [|exact Q]. unfold multiply_rows.
    apply (in_on (fun cells => if numeric cells then map2 scale (map (factor_of fs) (column_of k (fetch parse s))) cells else cells)) in Q.
    rewrite F in *. rewrite N in Q. exact Q.
  - rewrite (as_is_parse Hz). exact (@final_word_nth l i y w Ew Hw Ey).
Qed.
End Rows.

(** ** Variables in columns *)
Section Columns.
Context (parse : string -> option Qc).

Definition scaled_columns (factors : dict Qc) (k : string) (t : table) : table :=
  let p := position k (t_index t) in
  TAB (remove_at p (t_index t))
      (map (fun c => (fst c, map (scale (factor_of factors (parse_na (nth p (snd c) (RNum None))))) (final parse (remove_at p (snd c)))))
           (t_columns t)).

Lemma combine_maps {A B C} (g : A -> B) (h : A -> C) l : combine (map g l) (map h l) = map (fun a => (g a, h a)) l.
Proof. induction l as [|a l IH]; cbn; [reflexivity|]. rewrite IH. reflexivity. Qed.
Lemma mapM_map {A B C} (f : B -> result C) (g : A -> B) l : mapM f (map g l) = mapM (fun a => f (g a)) l.
Proof. induction l as [|a l IH]; cbn; [reflexivity|]. rewrite IH. reflexivity. Qed.
Lemma mapM_check {A B} (ok : A -> bool) (f : A -> B) e l :
  mapM (fun a => if ok a then Ok (f a) else Err e) l = if forallb ok l then Ok (map f l) else Err e.
Proof.
  induction l as [|a l IH]; cbn; [reflexivity|]. destruct (ok a); cbn; [|reflexivity]. rewrite IH.
  destruct (forallb ok l); reflexivity.
Qed.

Definition columns_ok (k : string) (t : table) : bool :=
  forallb (fun c => numeric (final parse (remove_at (position k (t_index t)) (snd c)))) (t_columns t).

Lemma load_columns_eq factors s k : units_label (t_index (table_of s)) k -> names_only parse factors ->
  exists us, load_data parse (Some factors) InColumns s =
    if columns_ok k (table_of s) then Ok (scaled_columns factors k (table_of s), us) else Err TypeError.
Proof.
  intros H Hn. unfold load_data. rewrite fetch_index, (@units_key_some _ _ H). rewrite read_drop_row.
  exists (Some (row_of k (fetch parse s))). rewrite (@factors_row parse _ _ _ Hn).
  set (t := table_of s). unfold multiply_columns, row_of, read, drop_row, on_columns. cbn [t_index t_columns].
  rewrite !map_map. cbn [fst snd]. rewrite combine_maps, mapM_map. cbn [fst snd].
  rewrite (@mapM_check (string * list raw) (string * list raw)
     (fun c => numeric (final parse (remove_at (position k (t_index t)) (snd c))))
     (fun c => (fst c, map (scale (factor_of factors (parse_na (nth (position k (t_index t)) (snd c) (RNum None)))))
                           (final parse (remove_at (position k (t_index t)) (snd c))))) TypeError (t_columns t)).
  fold (columns_ok k t). unfold columns_ok. destruct (forallb _ (t_columns t)); reflexivity.
Qed.

Lemma remove_in {A} p (l : list A) a : In a (remove_at p l) -> exists i, i <> p /\ nth_error l i = Some a.
Proof.
  unfold remove_at. revert l. induction p as [|p IH]; intros [|b l] H.
  - destruct H.
  - cbn in H. apply In_nth_error in H. destruct H as [i Hi]. exists (S i). split; [congruence | exact Hi].
  - destruct H.
  - cbn [firstn] in H. destruct H as [-> | H].
    + exists 0%nat. split; [congruence | reflexivity].
    + change (skipn (S (S p)) (b :: l)) with (skipn (S p) l) in H. destruct (IH l H) as [i [Hi E]].
      exists (S i). split; [congruence | exact E].
Qed.
Lemma in_remove {A} p (l : list A) a i : i <> p -> nth_error l i = Some a -> In a (remove_at p l).
Proof. intros Hi E. rewrite <- (@remove_nth _ p l i Hi) in E. exact (nth_error_In _ _ E). Qed.

Theorem columns_ok_iff s k : rectangular (table_of s) -> units_label (t_index (table_of s)) k ->
  columns_ok k (table_of s) = true <->
  forall r c y, cell_of (table_of s) r c y -> r <> k -> exists x, denotes parse y x.
Proof.
  intros [Hi [_ Hl]] [Hk _]. pose proof (@position_nth k _ Hk) as Hp. unfold columns_ok. rewrite forallb_forall. split.
  - intros H r c y [i [l [Er [El Ey]]]] Hr. specialize (H (c, l) El). cbn [snd] in H.
    apply (proj1 (numeric_final _ _) H). apply (@in_remove _ _ _ _ i); [|exact Ey]. intros ->. congruence.
  - intros H [c l] El. cbn [snd]. apply numeric_final. intros y Hy. apply remove_in in Hy. destruct Hy as [i [Hi' Ey]].
    assert (L : (i < List.length (t_index (table_of s)))%nat) by (rewrite <- (Hl c l El); apply nth_error_Some; congruence).
    destruct (nth_error (t_index (table_of s)) i) as [r|] eqn:Er; [|apply nth_error_None in Er; lia].
    apply (H r c y); [exists i, l; auto|]. intros ->. apply Hi'. exact (@nodup_nth _ _ _ _ _ Hi Er Hp).
Qed.

Theorem columns_value factors s k t' us r c y x u f :
  rectangular (table_of s) -> units_label (t_index (table_of s)) k -> names_only parse factors ->
  load_data parse (Some factors) InColumns s = Ok (t', us) -> r <> k ->
  cell_of (table_of s) r c y -> denotes parse y x -> cell_of (table_of s) k c u -> unit_factor factors u f ->
  cell_of t' r c (RNum (nmul x (Some f))).
Proof.
  intros Hr Hk Hn E Hrk Hy Hx Hu Hf. pose proof (@columns_ok_iff s k Hr Hk) as Hok.
  destruct (@load_columns_eq factors s k Hk Hn) as [us' E']. rewrite E' in E. destruct (columns_ok k (table_of s)); [|discriminate].
  injection E as <- _. specialize (proj1 Hok eq_refl) as Hnum. clear Hok.
  destruct Hr as [Hi [Hc Hl]]. destruct Hy as [i [l [Er [El Ey]]]]. destruct Hu as [p [l' [Ep [El' Eu]]]].
  pose proof (@column_unique _ _ _ _ Hc El' El) as ->.
  pose proof (@position_nth k _ (proj1 Hk)) as Hp. pose proof (@nodup_nth _ _ _ _ _ Hi Hp Ep) as Eqp.
  assert (Hip : i <> p) by (intros ->; congruence).
  exists (if Nat.ltb i p then i else pred i).
  exists (map (scale (factor_of factors (parse_na (nth p l (RNum None))))) (final parse (remove_at p l))).
  unfold scaled_columns. cbn [t_index t_columns]. rewrite Eqp. repeat split.
  - rewrite remove_nth by exact Hip. exact Er.
  - apply (in_map (fun c => (fst c, map (scale (factor_of factors (parse_na (nth p (snd c) (RNum None))))) (final parse (remove_at p (snd c)))))) in El.
    exact El.
  - rewrite (nth_error_nth l p (RNum None) Eu), (factor_spec Hf).
    change (RNum (nmul x (Some f))) with (scale f (RNum x)). apply map_nth_error.
    apply (@final_nth parse (remove_at p l) _ y x).
    + intros c' Hc'. apply remove_in in Hc'. destruct Hc' as [j [Hj Ej]].
      assert (L : (j < List.length (t_index (table_of s)))%nat) by (rewrite <- (Hl c l El); apply nth_error_Some; congruence).
      destruct (nth_error (t_index (table_of s)) j) as [r'|] eqn:Er'; [|apply nth_error_None in Er'; lia].
      apply (Hnum r' c c'); [exists j, l; auto|]. intros ->. apply Hj. exact (@nodup_nth _ _ _ _ _ Hi Er' Ep).
    + rewrite remove_nth by exact Hip. exact Ey.
    + exact Hx.
Qed.
End Columns.

(** ** No units, and where the table comes from *)
Section Sources.
Context (parse : string -> option Qc).
Lemma load_plain factors o s :
  (forall k, In k (match o with InRows => map fst (t_columns (table_of s)) | InColumns => t_index (table_of s) end) -> ~ says_units k) ->
  load_data parse factors o s = Ok (read parse (table_of s), None).
Proof.
  intro H. unfold load_data. destruct o.
  - rewrite fetch_index, (@units_key_none _ H), read_fetch. reflexivity.
  - rewrite fetch_names, (@units_key_none _ H), read_fetch. reflexivity.
Qed.
Lemma same_source factors o t tab : names_only parse factors ->
  (exists us, load_data parse (Some factors) o (File t) = Ok (tab, us)) <-> exists us, load_data parse (Some factors) o (Frame t) = Ok (tab, us).
Proof.
  intro Hn.
  assert (E : forall s, exists us, load_data parse (Some factors) o s =
     match o, units_key (match o with InRows => map fst (t_columns (table_of s)) | InColumns => t_index (table_of s) end) with
     | _, None => Ok (read parse (table_of s), us)
     | InRows, Some k => Ok (multiply_rows (map (fun u => factor_of factors (parse_na u)) (column_of k (table_of s)))
                                           (read parse (drop_column k (table_of s))), us)
     | InColumns, Some k => let* d := multiply_columns (map (fun u => factor_of factors (parse_na u)) (row_of k (table_of s)))
                                           (read parse (drop_row k (table_of s))) in Ok (d, us)
     end).
  { intro s. unfold load_data. destruct o.
    - rewrite fetch_index. destruct (units_key (t_index (table_of s))) as [k|].
      + rewrite read_drop_row, (@factors_row parse _ _ _ Hn). eexists. reflexivity.
      + rewrite read_fetch. eexists. reflexivity.
    - rewrite fetch_names. destruct (units_key (map fst (t_columns (table_of s)))) as [k|].
      + rewrite read_drop_column, (@factors_column parse _ _ _ Hn). eexists. reflexivity.
      + rewrite read_fetch. eexists. reflexivity. }
  destruct (E (File t)) as [us1 E1]. destruct (E (Frame t)) as [us2 E2]. cbn [table_of] in *. rewrite E1, E2.
  destruct o; destruct (units_key _) as [k|]; try (split; intros [us Q]; injection Q as <- _; eexists; reflexivity).
  destruct (multiply_columns _ _) as [d|e]; cbn; split; intros [us Q]; try discriminate; injection Q as <- _; eexists; reflexivity.
Qed.
End Sources.

Section Labels.
Context (parse : string -> option Qc).
Lemma cell_exists t i r c l : rectangular t -> nth_error (t_index t) i = Some r -> In (c, l) (t_columns t) -> exists y, cell_of t r c y.
Proof.
  intros [_ [_ Hl]] Er El. destruct (nth_error l i) as [y|] eqn:Ey.
  - exists y, i, l. auto.
  - apply nth_error_None in Ey. rewrite (Hl c l El) in Ey. assert (N : nth_error (t_index t) i <> None) by congruence.
    apply nth_error_Some in N. lia.
Qed.
Theorem rows_labels factors s k t' us r c : rectangular (table_of s) -> units_label (map fst (t_columns (table_of s))) k ->
  load_data parse factors InRows s = Ok (t', us) ->
  (exists z, cell_of t' r c z) -> c <> k /\ exists y, cell_of (table_of s) r c y.
Proof.
  intros Hr Hk E [z [i [l [Er [El _]]]]]. destruct (@load_rows_eq parse factors s k Hk) as [us' E']. rewrite E' in E. injection E as <- _.
  assert (Er' : nth_error (t_index (table_of s)) i = Some r) by (destruct factors; exact Er).
  assert (Hcol : exists l0, In (c, l0) (t_columns (drop_column k (table_of s)))).
  { destruct factors as [fs|]; unfold multiply_rows, read, on_columns in El; cbn [t_columns] in El.
    - apply in_map_iff in El. destruct El as [[c1 l1] [Q1 El]]. apply in_map_iff in El. destruct El as [[c2 l2] [Q2 El]].
      cbn in Q1, Q2. injection Q1 as <- _. injection Q2 as <- _. exists l2. exact El.
    - apply in_map_iff in El. destruct El as [[c2 l2] [Q2 El]]. cbn in Q2. injection Q2 as <- _. exists l2. exact El. }
  destruct Hcol as [l0 H0]. unfold drop_column in H0. cbn in H0. apply filter_In in H0. destruct H0 as [H0 N]. cbn in N.
  split.
  - intros ->. rewrite String.eqb_refl in N. discriminate.
  - exact (@cell_exists _ i r c l0 Hr Er' H0).
Qed.
Theorem columns_labels factors s k t' us r c : rectangular (table_of s) -> units_label (t_index (table_of s)) k -> names_only parse factors ->
  load_data parse (Some factors) InColumns s = Ok (t', us) ->
  (exists z, cell_of t' r c z) -> r <> k /\ exists y, cell_of (table_of s) r c y.
Proof.
  intros Hr Hk Hn E [z [i [l [Er [El _]]]]]. destruct (@load_columns_eq parse factors s k Hk Hn) as [us' E']. rewrite E' in E.
  destruct (columns_ok parse k (table_of s)); [|discriminate]. injection E as <- _. unfold scaled_columns in *. cbn [t_index t_columns] in *.
  apply nth_error_In in Er. apply remove_in in Er. destruct Er as [j [Hj Ej]].
  apply in_map_iff in El. destruct El as [[c0 l0] [Q El]]. cbn in Q. injection Q as <- _.
  split.
  - intros ->. apply Hj. exact (@nodup_nth _ _ _ _ _ (proj1 Hr) Ej (@position_nth k _ (proj1 Hk))).
  - exact (@cell_exists _ j r c0 l0 Hr Ej El).
Qed.
Theorem plain_value factors o s t' us r c y x :
  rectangular (table_of s) ->
  (forall k, In k (match o with InRows => map fst (t_columns (table_of s)) | InColumns => t_index (table_of s) end) -> ~ says_units k) ->
  load_data parse factors o s = Ok (t', us) ->
  (forall r' y', cell_of (table_of s) r' c y' -> exists x', denotes parse y' x') ->
  cell_of (table_of s) r c y -> denotes parse y x -> cell_of t' r c (RNum x).
Proof.
  intros [Hi [Hc Hl]] Hk E Hcol [i [l [Er [El Ey]]]] Hx. rewrite (@load_plain parse factors o s Hk) in E. injection E as <- _.
  exists i, (final parse l). split; [exact Er|]. split; [exact (in_on (final parse) c l _ El)|].
  apply (@final_nth parse l i y x); [|exact Ey|exact Hx].
  intros y' Hy'. apply In_nth_error in Hy'. destruct Hy' as [j Hj].
  assert (L : (j < List.length (t_index (table_of s)))%nat) by (rewrite <- (Hl c l El); apply nth_error_Some; congruence).
  destruct (nth_error (t_index (table_of s)) j) as [r'|] eqn:Ej; [|apply nth_error_None in Ej; lia].
  apply (Hcol r' y'). exists j, l. auto.
Qed.
End Labels.
