(** C124: tables are read cell by cell. *)
From Verif Require Import Prelude PreludeFacts Pandas PandasFacts M_Base M_Load S_Load P_Load.
Set Implicit Arguments.
Local Open Scope string_scope.
Local Open Scope list_scope.

(** Variables in rows: in a column of numbers, each number comes back times the factor of the unit
    of its row. *)
Theorem C124_rows_value : forall parse factors s k t' us r c y x u f,
  rectangular (table_of s) -> units_label (map fst (t_columns (table_of s))) k -> names_only parse factors ->
  load_data parse (Some factors) InRows s = Ok (t', us) -> c <> k ->
  (forall r' y', cell_of (table_of s) r' c y' -> exists x', denotes parse y' x') ->
  cell_of (table_of s) r c y -> denotes parse y x -> cell_of (table_of s) r k u -> unit_factor factors u f ->
  cell_of t' r c (RNum (nmul x (Some f))).
Proof. exact rows_value. Qed.
Print Assumptions C124_rows_value.

(** Variables in rows: a column with a text that is no number comes back as it is. *)
Theorem C124_rows_text : forall parse factors s k t' us r c y z w r0,
  units_label (map fst (t_columns (table_of s))) k -> rectangular (table_of s) ->
  load_data parse factors InRows s = Ok (t', us) -> c <> k ->
  cell_of (table_of s) r0 c w -> is_word parse w -> cell_of (table_of s) r c y -> as_is y z -> cell_of t' r c z.
Proof. exact rows_text. Qed.
Print Assumptions C124_rows_text.

(** Variables in columns: each number comes back times the factor of the unit of its column. *)
Theorem C124_columns_value : forall parse factors s k t' us r c y x u f,
  rectangular (table_of s) -> units_label (t_index (table_of s)) k -> names_only parse factors ->
  load_data parse (Some factors) InColumns s = Ok (t', us) -> r <> k ->
  cell_of (table_of s) r c y -> denotes parse y x -> cell_of (table_of s) k c u -> unit_factor factors u f ->
  cell_of t' r c (RNum (nmul x (Some f))).
Proof. exact columns_value. Qed.
Print Assumptions C124_columns_value.

(** Variables in columns: the table is read if and only if all cells below the units are numbers;
    otherwise there is a TypeError. *)
Theorem C124_columns_accepted : forall parse factors s k,
  rectangular (table_of s) -> units_label (t_index (table_of s)) k -> names_only parse factors ->
  ((forall r c y, cell_of (table_of s) r c y -> r <> k -> exists x, denotes parse y x) ->
     exists t' us, load_data parse (Some factors) InColumns s = Ok (t', us)) /\
  ((exists r c y, cell_of (table_of s) r c y /\ r <> k /\ is_word parse y) ->
     load_data parse (Some factors) InColumns s = Err TypeError).
Proof.
  intros parse factors s k Hr Hk Hn. destruct (@load_columns_eq parse factors s k Hk Hn) as [us E]. rewrite E.
  pose proof (@columns_ok_iff parse s k Hr Hk) as Hok. split.
  - intro H. rewrite (proj2 Hok H). eauto.
  - intros [r [c [y [Hy [Hrk Hw]]]]]. destruct (columns_ok parse k (table_of s)) eqn:Q; [|reflexivity].
    destruct (proj1 Hok eq_refl r c y Hy Hrk) as [x Hx]. apply denotes_number in Hx. rewrite (word_number Hw) in Hx. discriminate.
Qed.
Print Assumptions C124_columns_accepted.

(** Reading with variables in rows always succeeds, and nothing but the units is left out or added. *)
Theorem C124_labels : forall parse factors s k r c, rectangular (table_of s) ->
  units_label (map fst (t_columns (table_of s))) k ->
  exists t' us, load_data parse factors InRows s = Ok (t', us) /\
    ((exists z, cell_of t' r c z) <-> c <> k /\ exists y, cell_of (table_of s) r c y).
Proof.
  intros parse factors s k r c Hr Hk. destruct (@load_rows_eq parse factors s k Hk) as [us E].
  eexists. exists us. split; [exact E|]. split; [exact (@rows_labels parse factors s k _ us r c Hr Hk E)|].
  intros [Hck [y Hy]].
  destruct Hy as [i [l [Er [El Ey]]]].
  pose proof (in_on (final parse) c l (drop_column k (table_of s)) (@in_drop k c l _ El Hck)) as Q.
  destruct factors as [fs|].
  - pose proof (in_on (fun cells => if numeric cells then map2 scale (map (factor_of fs) (column_of k (fetch parse s))) cells else cells) _ _ _ Q) as Q'.
    destruct Hk as [Hin [_ _]]. apply in_map_iff in Hin. destruct Hin as [[k' lu] [Ek Hlu]]. cbn in Ek. subst k'.
    destruct (@cell_exists (table_of s) i r k lu Hr Er Hlu) as [u [i' [lu' [Er' [Hlu' Eu]]]]].
    pose proof (@nodup_nth _ _ _ _ _ (proj1 Hr) Er Er') as <-.
    assert (L : (i < List.length (final parse l))%nat).
    { unfold final, convert_column. destruct (mapM _ _) as [xs|e] eqn:Em.
      - rewrite map_length. apply mapM_ok_length in Em. rewrite map_length in Em. rewrite Em || rewrite <- Em.
        apply nth_error_Some. congruence.
      - rewrite map_length. apply nth_error_Some. congruence. }
    destruct (nth_error (final parse l) i) as [z|] eqn:Ez; [|apply nth_error_None in Ez; lia].
    assert (Lu : exists g, nth_error (map (factor_of fs) (column_of k (fetch parse s))) i = Some g).
    { assert (Lk : List.length (column_of k (fetch parse s)) = List.length (t_index (table_of s))).
      { unfold column_of. destruct (aget String.eqb k (t_columns (fetch parse s))) as [l0|] eqn:Ea.
        - apply (aget_In String.eqb String.eqb_eq) in Ea. destruct s as [t|t]; cbn [fetch table_of] in *; unfold convert_dtypes, on_columns in Ea; cbn [t_columns] in Ea.
          + apply in_map_iff in Ea. destruct Ea as [[c1 l1] [Q1 Ea]]. cbn in Q1. injection Q1 as <- <-. rewrite map_length. exact (proj2 (proj2 Hr) _ _ Ea).
          + apply in_map_iff in Ea. destruct Ea as [[c1 l1] [Q1 Ea]]. cbn in Q1. injection Q1 as <- <-.
            apply in_map_iff in Ea. destruct Ea as [[c2 l2] [Q2 Ea]]. cbn in Q2. injection Q2 as <- <-.
            rewrite <- (proj2 (proj2 Hr) _ _ Ea). unfold convert_column. destruct (mapM _ _) as [xs|e] eqn:Em.
            * rewrite map_length. apply mapM_ok_length in Em. rewrite map_length in Em. congruence.
            * apply map_length.
        - apply (aget_None String.eqb String.eqb_eq) in Ea. rewrite fetch_names in Ea. exfalso. apply Ea. apply in_map_iff. exists (k, lu). auto. }
      destruct (nth_error (map (factor_of fs) (column_of k (fetch parse s))) i) as [g|] eqn:Eg; [eauto|].
      apply nth_error_None in Eg. rewrite map_length, Lk in Eg. assert (N : nth_error (t_index (table_of s)) i <> None) by congruence.
      apply nth_error_Some in N. lia. }
    destruct Lu as [g Hg].
    eexists (if numeric (final parse l) then scale g z else z), i, _. split; [exact Er|]. split; [exact Q'|].
    destruct (numeric (final parse l)); [apply map2_nth_error; assumption | exact Ez].
  - destruct (nth_error (final parse l) i) as [z|] eqn:Ez; [exists z, i, (final parse l); auto|]. exfalso.
    apply nth_error_None in Ez. assert (N : nth_error l i <> None) by congruence. apply nth_error_Some in N.
    unfold final, convert_column in Ez. destruct (mapM _ _) as [xs|e] eqn:Em.
    + rewrite map_length in Ez. apply mapM_ok_length in Em. rewrite map_length in Em. lia.
    + rewrite map_length in Ez. lia.
Qed.
Print Assumptions C124_labels.

(** Without units the numbers come back as they are. *)
Theorem C124_without_units : forall parse factors o s t' us r c y x,
  rectangular (table_of s) ->
  (forall k, In k (match o with InRows => map fst (t_columns (table_of s)) | InColumns => t_index (table_of s) end) -> ~ says_units k) ->
  load_data parse factors o s = Ok (t', us) ->
  (forall r' y', cell_of (table_of s) r' c y' -> exists x', denotes parse y' x') ->
  cell_of (table_of s) r c y -> denotes parse y x -> cell_of t' r c (RNum x).
Proof. exact plain_value. Qed.
Print Assumptions C124_without_units.

(** The same texts in a file and in memory give the same table. *)
Theorem C124_same_texts : forall parse factors o t tab, names_only parse factors ->
  (exists us, load_data parse (Some factors) o (File t) = Ok (tab, us)) <->
  exists us, load_data parse (Some factors) o (Frame t) = Ok (tab, us).
Proof. exact same_source. Qed.
Print Assumptions C124_same_texts.

(** *** Examples and refutations *)
Definition two_numbers (s : string) : option Qc :=
  if String.eqb s "2" then Some (qn 2) else if String.eqb s "3" then Some (qn 3) else None.
Definition two_units : dict Qc := [("m", qn 1); ("km", qn 1000)].
Definition two_rows : table :=
  TAB ["A"; "B"] [("UNITS", [RText "km"; RText "N/A"]); ("Length", [RText "2"; RText "3"]); ("Note", [RText "2"; RText "long"])].

Lemma two_rows_ok : rectangular two_rows /\ units_label (map fst (t_columns two_rows)) "UNITS" /\ names_only two_numbers two_units.
Proof.
  split; [|split].
  - split; [|split].
    + cbn. constructor; [intros [Q | []]; discriminate | constructor; [intros [] | constructor]].
    + cbn. constructor; [intros [Q | [Q | []]]; discriminate | constructor; [intros [Q | []]; discriminate | constructor; [intros [] | constructor]]].
    + cbn. intros c l [Q | [Q | [Q | []]]]; injection Q as <- <-; reflexivity.
  - split; [left; reflexivity|]. split.
    + apply lower_units. reflexivity.
    + cbn. intros k' [<- | [<- | [<- | []]]] H; [reflexivity | |]; apply lower_units in H; discriminate.
  - intros s H. unfold two_numbers in H. destruct (String.eqb s "2") eqn:E2; [apply String.eqb_eq in E2; subst; reflexivity|].
    destruct (String.eqb s "3") eqn:E3; [apply String.eqb_eq in E3; subst; reflexivity | congruence].
Qed.
Example C124_concrete :
  load_data two_numbers (Some two_units) InRows (Frame two_rows) =
    Ok (TAB ["A"; "B"] [("Length", [RNum (Some (qn 2000)); RNum (Some (qn 3))]); ("Note", [RText "2"; RText "long"])],
        Some [RText "km"; RNum None]).
Proof. vm_compute. repeat (f_equal; try qcr). Qed.

(** A number is not converted if there is a text elsewhere in its column; and it is a text when
    read from a file, but a number when it comes from memory. *)
Theorem C124_rows_value_refuted : exists parse factors t u f x,
  rectangular t /\ units_label (map fst (t_columns t)) "Units" /\ names_only parse factors /\
  cell_of t "A" "Length" (RNum x) /\ cell_of t "A" "Units" u /\ unit_factor factors u f /\ nmul x (Some f) <> x /\
  exists t' us, load_data parse (Some factors) InRows (Frame t) = Ok (t', us) /\ cell_of t' "A" "Length" (RNum x) /\
  forall z, cell_of t' "A" "Length" z -> z = RNum x.
Proof.
  exists two_numbers, two_units,
    (TAB ["A"; "B"] [("Units", [RText "km"; RText "m"]); ("Length", [RNum (Some (qn 2)); RText "short"])]), (RText "km"), (qn 1000), (Some (qn 2)).
  split; [|split; [|split; [|split; [|split; [|split; [|split]]]]]].
  - split; [|split].
    + cbn. constructor; [intros [Q | []]; discriminate | constructor; [intros [] | constructor]].
    + cbn. constructor; [intros [Q | []]; discriminate | constructor; [intros [] | constructor]].
    + cbn. intros c l [Q | [Q | []]]; injection Q as <- <-; reflexivity.
  - split; [left; reflexivity|]. split.
    + apply lower_units. reflexivity.
    + cbn. intros k' [<- | [<- | []]] H; [reflexivity|]. apply lower_units in H. discriminate.
  - exact (proj2 (proj2 two_rows_ok)).
  - exists 0%nat. eexists. split; [reflexivity|]. split; [right; left; reflexivity | reflexivity].
  - exists 0%nat. eexists. split; [reflexivity|]. split; [left; reflexivity | reflexivity].
  - constructor; [|reflexivity]. cbn. intuition discriminate.
  - vm_compute. discriminate.
  - eexists. eexists. split; [vm_compute; reflexivity|]. split.
    + exists 0%nat. eexists. split; [reflexivity|]. split; [left; reflexivity | reflexivity].
    + intros z [i [l [Er [El Ez]]]]. cbn in El. destruct El as [Q | []]. injection Q as <-.
      destruct i as [|[|i]]; cbn in Er, Ez; [injection Ez as <-; vm_compute; reflexivity | discriminate | destruct i; discriminate].
Qed.
Print Assumptions C124_rows_value_refuted.

(** The numbers of a table and their texts are not the same to the reader. *)
Theorem C124_same_numbers_refuted : exists parse factors t text,
  rectangular t /\ names_only parse factors /\ map fst (t_columns t) = map fst (t_columns text) /\ t_index t = t_index text /\
  (forall r c x, cell_of t r c x -> exists y, cell_of text r c y /\ (y = x \/ exists q, x = RNum q /\ denotes parse y q)) /\
  exists t1 t2 us1 us2, load_data parse (Some factors) InRows (Frame t) = Ok (t1, us1) /\
    load_data parse (Some factors) InRows (File text) = Ok (t2, us2) /\
    cell_of t1 "A" "Length" (RNum (Some (qn 2))) /\ cell_of t2 "A" "Length" (RText "2").
Proof.
  exists two_numbers, two_units, (TAB ["A"; "B"] [("Length", [RNum (Some (qn 2)); RText "short"])]),
    (TAB ["A"; "B"] [("Length", [RText "2"; RText "short"])]).
  split; [|split; [|split; [|split; [|split]]]].
  - split; [|split].
    + cbn. constructor; [intros [Q | []]; discriminate | constructor; [intros [] | constructor]].
    + cbn. constructor; [intros [] | constructor].
    + cbn. intros c l [Q | []]; injection Q as <- <-; reflexivity.
  - exact (proj2 (proj2 two_rows_ok)).
  - reflexivity.
  - reflexivity.
  - intros r c x [i [l [Er [El Ex]]]]. cbn in El. destruct El as [Q | []]. injection Q as <- <-.
    destruct i as [|[|i]]; cbn in Er, Ex.
    + injection Er as <-. injection Ex as <-. exists (RText "2"). split.
      * exists 0%nat. eexists. split; [reflexivity|]. split; [left; reflexivity | reflexivity].
      * right. exists (Some (qn 2)). split; [reflexivity|]. constructor 3; [cbn; intuition discriminate | reflexivity].
    + injection Er as <-. injection Ex as <-. exists (RText "short"). split.
      * exists 1%nat. eexists. split; [reflexivity|]. split; [left; reflexivity | reflexivity].
      * left; reflexivity.
    + destruct i; discriminate.
  - do 4 eexists. split; [vm_compute; reflexivity|]. split; [vm_compute; reflexivity|]. split.
    + exists 0%nat. eexists. split; [reflexivity|]. split; [left; reflexivity | reflexivity].
    + exists 0%nat. eexists. split; [reflexivity|]. split; [left; reflexivity | reflexivity].
Qed.
Print Assumptions C124_same_numbers_refuted.

(** Variables in columns: a column of text next to the units stops the reading. *)
Theorem C124_text_column_refuted : exists parse factors t,
  rectangular t /\ units_label (t_index t) "Units" /\ names_only parse factors /\
  cell_of t "Units" "Name" (RText "") /\ load_data parse (Some factors) InColumns (File t) = Err TypeError.
Proof.
  exists two_numbers, two_units, (TAB ["Units"; "0"] [("Length", [RText "km"; RText "2"]); ("Name", [RText ""; RText "short"])]).
  split; [|split; [|split; [|split]]].
  - split; [|split].
    + cbn. constructor; [intros [Q | []]; discriminate | constructor; [intros [] | constructor]].
    + cbn. constructor; [intros [Q | []]; discriminate | constructor; [intros [] | constructor]].
    + cbn. intros c l [Q | [Q | []]]; injection Q as <- <-; reflexivity.
  - split; [left; reflexivity|]. split.
    + apply lower_units. reflexivity.
    + cbn. intros k' [<- | [<- | []]] H; [reflexivity|]. apply lower_units in H. discriminate.
  - exact (proj2 (proj2 two_rows_ok)).
  - exists 0%nat. eexists. split; [reflexivity|]. split; [right; left; reflexivity | reflexivity].
  - vm_compute. reflexivity.
Qed.
Print Assumptions C124_text_column_refuted.
