(** Proofs about saving and loading tables. *)
From Coq Require Import Sorting.Permutation Sorting.Sorted.
From Verif Require Import Prelude PreludeFacts Pandas PandasFacts M_Base S_Base P_Base M_FileIO S_FileIO.
Local Open Scope string_scope.
Local Open Scope list_scope.

Lemma label_mem_In lab l : label_mem lab l = true <-> In lab l.
Proof. unfold label_mem. apply existsb_eqb_In. apply label_eqb_eq. Qed.

Lemma labels_with_In units u lab : In lab (labels_with units u) <-> In (lab, u) units.
Proof.
  unfold labels_with. rewrite in_map_iff. split.
  - intros ([l v] & E & H). apply filter_In in H as [H E2]. apply String.eqb_eq in E2.
    simpl in *. now subst.
  - intros H. exists (lab, u). split; [easy|]. apply filter_In. split; [easy|]. apply String.eqb_refl.
Qed.

(** The cells of a column as written under the unit [o]. *)
Definition stored (factors : dict Qc) (o : option string) (vs : list num) : list num :=
  match o with
  | None => vs
  | Some u => match dget u factors with Some f => scale_values (1 / f)%Qc vs | None => vs end
  end.

Lemma convert_step factors units t us :
  NoDup (map fst units) -> NoDup us -> known_units factors us ->
  foldM (fun (acc : frame) u =>
           let* f := inverse_factor factors u in
           Ok (map (fun e => if label_mem (fst e) (labels_with units u)
                             then (fst e, scale_values f (snd e)) else e) acc)) t us
  = Ok (map (fun e => (fst e, match unit_of units (fst e) with
                              | Some u => if mem u us then stored factors (Some u) (snd e) else snd e
                              | None => snd e end)) t).
Proof.
  intros Hn. revert t. induction us as [|u us IH]; intros t Hus Hk.
  - simpl. f_equal. rewrite <- (map_id t) at 1. apply map_ext. intros [lab vs]. simpl.
    now destruct (unit_of units lab).
  - inversion Hus; subst. inversion Hk as [|? ? (f & Ef & Hf) Hk']; subst.
    cbn [foldM]. unfold inverse_factor at 1. rewrite Ef.
    destruct (Qceqb_spec f 0); [easy|]. cbn [bind]. rewrite IH by easy. f_equal.
    rewrite map_map. apply map_ext. intros [lab vs]. cbn [fst snd].
    destruct (label_mem lab (labels_with units u)) eqn:E; cbn [fst snd].
    + apply label_mem_In, labels_with_In in E. unfold unit_of.
      rewrite (In_aget label_eqb label_eqb_eq _ _ _ Hn E).
      cbn [mem existsb]. rewrite String.eqb_refl. cbn [orb stored]. rewrite Ef.
      destruct (existsb (String.eqb u) us) eqn:E2.
      * change (mem u us = true) in E2. apply mem_true in E2. easy.
      * unfold mem. now rewrite E2.
    + destruct (unit_of units lab) as [v|] eqn:Ev; [|easy]. f_equal.
      cbn [mem existsb]. destruct (String.eqb_spec v u) as [->|]; [|easy].
      exfalso. unfold unit_of in Ev. apply (aget_In label_eqb label_eqb_eq) in Ev.
      apply labels_with_In, label_mem_In in Ev. congruence.
Qed.

Lemma convert_ok factors units t :
  NoDup (map fst units) -> known_units factors (map snd units) ->
  convert_columns factors units t
  = Ok (map (fun e => (fst e, stored factors (unit_of units (fst e)) (snd e))) t).
Proof.
  intros Hn Hk. unfold convert_columns. rewrite convert_step; [|easy|apply unique_NoDup, String.eqb_eq|].
  - f_equal. apply map_ext. intros [lab vs]. cbn [fst snd]. f_equal.
    destruct (unit_of units lab) as [u|] eqn:E; [|easy].
    assert (mem u (unique String.eqb (map snd units)) = true) as ->; [|easy].
    apply mem_true, unique_In; [apply String.eqb_eq|].
    unfold unit_of in E. apply (aget_In label_eqb label_eqb_eq) in E. apply in_map_iff. now exists (lab, u).
  - unfold known_units in *. rewrite Forall_forall in *. intros u Hu. apply Hk.
    now apply unique_In in Hu; [|apply String.eqb_eq].
Qed.

Lemma scale_inverse f vs : f <> 0%Qc -> scale_values f (scale_values (1 / f)%Qc vs) = vs.
Proof.
  intros Hf. unfold scale_values. rewrite map_map. rewrite <- (map_id vs) at 2. apply map_ext.
  intros [x|]; simpl; [|easy]. f_equal. field. easy.
Qed.

Lemma scale_one vs : scale_values 1%Qc vs = vs.
Proof.
  unfold scale_values. rewrite <- (map_id vs) at 2. apply map_ext.
  intros [x|]; simpl; [|easy]. f_equal. ring.
Qed.

Lemma stored_load factors units lab vs :
  known_units factors (map snd units) ->
  scale_values (load_factor factors (unit_of units lab)) (stored factors (unit_of units lab) vs) = vs.
Proof.
  intros Hk. destruct (unit_of units lab) as [u|] eqn:E; simpl; [|apply scale_one].
  unfold unit_of in E. apply (aget_In label_eqb label_eqb_eq) in E.
  unfold known_units in Hk. rewrite Forall_forall in Hk.
  destruct (Hk u) as (f & Ef & Hf). { apply in_map_iff. now exists (lab, u). }
  rewrite Ef. now apply scale_inverse.
Qed.

Lemma sort_labels_perm {A} (l : list (list string * A)) : Permutation (sort_labels l) l.
Proof. symmetry. apply isort_perm. Qed.

Lemma sort_labels_sorted {A} (l : list (list string * A)) :
  sorted_by (fun a b => label_le (fst a) (fst b)) (sort_labels l).
Proof.
  apply isort_sorted.
  - intros a b c. apply label_le_trans.
  - intros a b. apply label_le_total.
Qed.

(** Sorting commutes with a map that keeps the labels. *)
Lemma insert_map {A B} (f : list string -> A -> B) x l :
  insert (fun a b => label_le (fst a) (fst b)) (fst x, f (fst x) (snd x))
    (map (fun e => (fst e, f (fst e) (snd e))) l)
  = map (fun e => (fst e, f (fst e) (snd e)))
      (insert (fun a b => label_le (fst a) (fst b)) x l).
Proof.
  induction l as [|y l IH]; simpl; [easy|].
  destruct (label_le (fst x) (fst y)); simpl; [easy|]. now rewrite IH.
Qed.
Lemma sort_labels_map {A B} (f : list string -> A -> B) l :
  sort_labels (map (fun e => (fst e, f (fst e) (snd e))) l)
  = map (fun e => (fst e, f (fst e) (snd e))) (sort_labels l).
Proof.
  unfold sort_labels. induction l as [|x l IH]; simpl; [easy|].
  rewrite IH. apply (insert_map f x).
Qed.

Lemma sort_labels_idem {A} (l : list (list string * A)) : sort_labels (sort_labels l) = sort_labels l.
Proof. apply isort_id, sort_labels_sorted. Qed.

(** The header survives: expanding the saved header gives the labels back. *)
Lemma header_back n labels (simple : bool) :
  (1 <= n)%nat -> labels <> [] ->
  Forall (fun lab => List.length lab = n /\ Forall no_dash lab) labels ->
  exists ax, to_multi_index (if simple then to_simple_index (make_axis n labels) else make_axis n labels)
             = Ok ax /\ axis_labels ax = labels.
Proof.
  intros Hn Hne H. unfold make_axis. destruct (Nat.ltb_spec 1 n) as [Hl|Hl].
  - exists (Multi n labels). split; [|easy]. destruct simple; [|easy].
    now apply simple_multi_round_trip.
  - assert (n = 1%nat) by lia. subst n.
    assert (E : map (fun s => [s]) (map (hd "") labels) = labels).
    { clear Hne. induction H as [|lab labels [Hlen _] _ IH]; simpl; [easy|]. rewrite IH. f_equal.
      destruct lab as [|x [|]]; simpl in *; try lia. easy. }
    exists (Flat (map (hd "") labels)). split; [|exact E].
    assert (to_multi_index (Flat (map (hd "") labels)) = Ok (Flat (map (hd "") labels))) as Hm.
    { unfold to_multi_index. destruct (map (hd "") labels) eqn:El.
      { now destruct labels. }
      rewrite <- El.
      assert (map (split_on "-") (map (hd "") labels) = labels) as ->.
      { clear Hne El. clear - H. induction H as [|lab labels [Hlen Hd] _ IH]; simpl; [easy|].
        rewrite IH. f_equal. destruct lab as [|x [|]]; simpl in *; try lia.
        inversion Hd; subst. now apply split_on_nochar. }
      assert (list_max (map (@List.length string) labels) = 1%nat) as ->; [|easy].
      apply list_max_const; [now destruct labels|].
      rewrite Forall_forall in H |- *. intros y Hy. apply in_map_iff in Hy as (lab & <- & Hin).
      now apply H. }
    destruct simple; exact Hm.
Qed.

Lemma combine_map {A B C} (f : A -> B) (g : A -> C) l :
  combine (map f l) (map g l) = map (fun x => (f x, g x)) l.
Proof. induction l; simpl; congruence. Qed.

Lemma good_labels_perm n l1 l2 : Permutation l1 l2 -> good_labels n l1 -> good_labels n l2.
Proof.
  intros Hp (Hne & Hnd & H). repeat split.
  - intros ->. now apply Permutation_sym, Permutation_nil in Hp.
  - eapply Permutation_NoDup; eauto.
  - eapply Permutation_Forall; eauto.
Qed.

Lemma save_ok factors units simple n t :
  NoDup (map fst units) -> known_units factors (map snd units) ->
  save_columns (Some factors) (Some units) simple n t =
  Ok {| header := (if simple then to_simple_index (make_axis n (map fst (sort_labels t)))
                   else make_axis n (map fst (sort_labels t)));
        unit_row := Some (map (fun e => unit_of units (fst e)) (sort_labels t));
        cells := map (fun e => stored factors (unit_of units (fst e)) (snd e)) (sort_labels t) |}.
Proof.
  intros Hn Hk. unfold save_columns. rewrite convert_ok by easy. cbn [bind fst snd].
  set (st := fun lab (vs : list num) => stored factors (unit_of units lab) vs).
  change (fun e : list string * list num => (fst e, stored factors (unit_of units (fst e)) (snd e)))
    with (fun e : list string * list num => (fst e, st (fst e) (snd e))).
  rewrite (sort_labels_map st). rewrite !map_map. cbn [fst snd].
  reflexivity.
Qed.

Definition known_entries (l : list (list string * option string)) : units_map :=
  flat_map (fun lu => match snd lu with Some u => [(fst lu, u)] | None => [] end) l.

Lemma known_entries_In l lab u : In (lab, u) (known_entries l) <-> In (lab, Some u) l.
Proof.
  unfold known_entries. rewrite in_flat_map. split.
  - intros ([lab' o] & Hin & H). simpl in H. destruct o as [v|]; [|easy].
    destruct H as [[= -> ->]|[]]. easy.
  - intros H. exists (lab, Some u). split; [easy|]. now left.
Qed.

Lemma round_trip factors units simple n (t : frame) :
  (1 <= n)%nat -> good_labels n (map fst t) ->
  NoDup (map fst units) -> known_units factors (map snd units) ->
  exists s us',
    save_columns (Some factors) (Some units) simple n t = Ok s /\
    load_columns (Some factors) s = Ok (sort_labels t, Some us') /\
    (forall lab u, In (lab, u) us' <-> In (lab, u) units /\ In lab (map fst t)).
Proof.
  intros Hn Hg Hnd Hk. rewrite save_ok by easy.
  assert (Hg' : good_labels n (map fst (sort_labels t))).
  { eapply good_labels_perm; [|exact Hg]. apply Permutation_map. symmetry. apply sort_labels_perm. }
  destruct Hg' as (Hne & Hnd' & Hf).
  destruct (header_back n _ simple Hn Hne Hf) as (ax & Eax & Hax).
  eexists. eexists. split; [reflexivity|]. unfold load_columns. cbn [header unit_row cells].
  rewrite Eax. cbn [bind]. rewrite Hax. split.
  - rewrite !combine_map, map_map, combine_map. cbn [fst snd].
    assert (Et : map (fun e : list string * list num =>
                 (fst e, scale_values (load_factor factors (unit_of units (fst e)))
                          (stored factors (unit_of units (fst e)) (snd e)))) (sort_labels t) = sort_labels t).
    { rewrite <- map_id. apply map_ext. intros [lab vs]. cbn [fst snd]. f_equal. now apply stored_load. }
    rewrite Et, sort_labels_idem. reflexivity.
  - intros lab u. fold (known_entries (map (fun x : list string * list num =>
      (fst x, unit_of units (fst x))) (sort_labels t))).
    assert (Hiff : In (lab, u) (sort_labels (known_entries (map (fun x : list string * list num =>
              (fst x, unit_of units (fst x))) (sort_labels t)))) <->
            In (lab, Some u) (map (fun x : list string * list num => (fst x, unit_of units (fst x))) (sort_labels t))).
    { rewrite <- known_entries_In. split; apply Permutation_in; [|symmetry]; apply sort_labels_perm. }
    rewrite Hiff, in_map_iff. split.
    + intros ([l vs] & [= <- E] & Hin). split.
      * unfold unit_of in E. now apply (aget_In label_eqb label_eqb_eq) in E.
      * apply (Permutation_in _ (sort_labels_perm t)) in Hin. apply in_map_iff. now exists (l, vs).
    + intros [Hu Hin]. apply in_map_iff in Hin as ([l vs] & <- & Hin). exists (l, vs). split.
      * cbn [fst] in *. unfold unit_of. now rewrite (In_aget label_eqb label_eqb_eq _ _ _ Hnd Hu).
      * eapply Permutation_in; [|exact Hin]. symmetry. apply sort_labels_perm.
Qed.

(** Without units nothing is scaled and nothing needs to be known. *)
Lemma round_trip_plain f1 f2 simple n (t : frame) :
  (1 <= n)%nat -> good_labels n (map fst t) ->
  exists s, save_columns f1 None simple n t = Ok s /\
            load_columns f2 s = Ok (sort_labels t, None).
Proof.
  intros Hn (Hne & Hnd & Hf). unfold save_columns. cbn [bind fst snd].
  destruct (header_back n _ simple Hn Hne Hf) as (ax & Eax & Hax).
  eexists. split; [reflexivity|]. unfold load_columns. cbn [header unit_row cells].
  rewrite Eax. cbn [bind]. rewrite Hax. do 3 f_equal. rewrite combine_map.
  rewrite <- (map_id t) at 2. apply map_ext. now intros [lab vs].
Qed.

(** What the file contains. *)
Lemma file_content factors units (simple : bool) n (t : frame) s :
  (1 <= n)%nat -> good_labels n (map fst t) -> NoDup (map fst units) ->
  known_units factors (map snd units) ->
  save_columns (Some factors) (Some units) simple n t = Ok s ->
  List.length (file_columns s) = List.length t /\
  forall lab vs, In (lab, vs) t ->
    exists o vs', In (if simple then [join "-" lab] else lab, o, vs') (file_columns s) /\
                  appears_as factors units lab vs o vs'.
Proof.
  intros Hn Hg Hnd Hk E. rewrite save_ok in E by easy. injection E as <-.
  unfold file_columns. cbn [header unit_row cells].
  assert (Hlab : axis_labels (if simple then to_simple_index (make_axis n (map fst (sort_labels t)))
                   else make_axis n (map fst (sort_labels t)))
                 = map (fun lab => if simple then [join "-" lab] else lab) (map fst (sort_labels t))).
  { assert (Hg' : good_labels n (map fst (sort_labels t))).
    { eapply good_labels_perm; [|exact Hg]. apply Permutation_map. symmetry. apply sort_labels_perm. }
    destruct Hg' as (_ & _ & Hf). unfold make_axis. destruct (Nat.ltb_spec 1 n) as [Hl|Hl].
    - destruct simple; cbn [to_simple_index axis_labels].
      + destruct (Nat.ltb_spec 1 n); [|lia]. cbn [axis_labels]. now rewrite map_map.
      + now rewrite map_id.
    - assert (n = 1%nat) by lia. subst n.
      assert (axis_labels (if simple then to_simple_index (Flat (map (hd "") (map fst (sort_labels t))))
              else Flat (map (hd "") (map fst (sort_labels t))))
              = map (fun s => [s]) (map (hd "") (map fst (sort_labels t)))) as -> by now destruct simple.
      clear - Hf. induction Hf as [|lab l [Hlen _] _ IH]; simpl; [easy|]. rewrite IH. f_equal.
      destruct lab as [|x [|]]; simpl in *; try lia. now destruct simple. }
  rewrite Hlab, map_map, combine_map, combine_map. split.
  - rewrite map_length. apply Permutation_length, sort_labels_perm.
  - intros lab vs Hin. exists (unit_of units lab), (stored factors (unit_of units lab) vs). split.
    + apply in_map_iff. exists (lab, vs). split; [easy|].
      eapply Permutation_in; [|exact Hin]. symmetry. apply sort_labels_perm.
    + destruct (unit_of units lab) as [u|] eqn:Eu; simpl; unfold unit_of in Eu.
      * apply (aget_In label_eqb label_eqb_eq) in Eu. split; [easy|].
        unfold known_units in Hk. rewrite Forall_forall in Hk.
        destruct (Hk u) as (f & Ef & Hf). { apply in_map_iff. now exists (lab, u). }
        exists f. split; [easy|]. rewrite Ef. clear -Hf. induction vs as [|[x|] vs IH]; simpl; constructor; auto.
        field. easy.
      * split; [|easy]. now apply (aget_None label_eqb label_eqb_eq) in Eu.
Qed.

(** A unit without a factor (or with factor zero) stops the saving. *)
Lemma convert_unknown factors units (t : frame) u :
  In u (map snd units) -> (forall f, dget u factors = Some f -> f = 0%Qc) ->
  is_ok (convert_columns factors units t) = false.
Proof.
  intros Hu Hf. unfold convert_columns.
  assert (Hin : In u (unique String.eqb (map snd units))).
  { apply unique_In; [apply String.eqb_eq|easy]. }
  revert t. induction (unique String.eqb (map snd units)) as [|v us IH]; intros t; [easy|].
  cbn [foldM]. destruct Hin as [->|Hin].
  - unfold inverse_factor at 1. destruct (dget u factors) as [f|] eqn:E; [|easy].
    rewrite (Hf f eq_refl). now destruct (Qceqb_spec 0 0).
  - destruct (inverse_factor factors v) as [f|e]; [|easy]. cbn [bind]. now apply IH.
Qed.

Lemma save_unknown factors units simple n t u :
  In u (map snd units) -> (forall f, dget u factors = Some f -> f = 0%Qc) ->
  is_ok (save_columns (Some factors) (Some units) simple n t) = false.
Proof.
  intros Hu Hf. unfold save_columns. pose proof (convert_unknown factors units t u Hu Hf) as H.
  destruct (convert_columns factors units t); easy.
Qed.

(** ** Rows *)

Definition stored_row (hm : bool) (factors : dict Qc) (numeric : list bool) (o : option string)
                      (cs : list cell) : list cell :=
  match o with
  | None => cs
  | Some u => match dget u factors with
              | Some f => scale_row (1 / f)%Qc (cols_to_scale hm numeric) cs
              | None => cs end
  end.

Lemma row_labels_In (units : dict string) u lab :
  mem lab (map fst (filter (fun e => String.eqb (snd e) u) units)) = true <-> In (lab, u) units.
Proof.
  rewrite mem_true, in_map_iff. split.
  - intros ([l v] & E & H). apply filter_In in H as [H E2]. apply String.eqb_eq in E2.
    simpl in *. now subst.
  - intros H. exists (lab, u). split; [easy|]. apply filter_In. split; [easy|]. apply String.eqb_refl.
Qed.

Lemma convert_rows_step hm factors (units : dict string) nc (t : list (string * list cell)) us :
  NoDup (keys units) -> NoDup us -> known_units factors us ->
  foldM (fun acc u =>
           let* f := inverse_factor factors u in
           let labels := map fst (filter (fun e => String.eqb (snd e) u) units) in
           Ok {| numeric_cols := numeric_cols acc;
                 rows := map (fun e => if mem (fst e) labels
                                       then (fst e, scale_row f (cols_to_scale hm (numeric_cols acc)) (snd e))
                                       else e) (rows acc) |})
        {| numeric_cols := nc; rows := t |} us
  = Ok {| numeric_cols := nc;
          rows := map (fun e => (fst e, match dget (fst e) units with
                              | Some u => if mem u us then stored_row hm factors nc (Some u) (snd e) else snd e
                              | None => snd e end)) t |}.
Proof.
  intros Hn. revert t. induction us as [|u us IH]; intros t Hus Hk.
  - simpl. do 2 f_equal. rewrite <- (map_id t) at 1. apply map_ext. intros [lab vs]. simpl.
    now destruct (dget lab units).
  - inversion Hus; subst. inversion Hk as [|? ? (f & Ef & Hf) Hk']; subst.
    cbn [foldM]. unfold inverse_factor at 1. rewrite Ef.
    destruct (Qceqb_spec f 0); [easy|]. cbn [bind numeric_cols rows].
    rewrite IH by easy. do 2 f_equal.
    rewrite map_map. apply map_ext. intros [lab vs]. cbn [fst snd].
    destruct (mem lab (map fst (filter (fun e => String.eqb (snd e) u) units))) eqn:E; cbn [fst snd].
    + apply row_labels_In in E. rewrite (In_dget _ _ _ Hn E).
      cbn [mem existsb]. rewrite String.eqb_refl. cbn [orb stored_row]. rewrite Ef.
      destruct (mem u us) eqn:E2; [apply mem_true in E2; easy|easy].
    + destruct (dget lab units) as [v|] eqn:Ev; [|easy]. f_equal.
      cbn [mem existsb]. destruct (String.eqb_spec v u) as [->|]; [|easy].
      exfalso. apply dget_In in Ev. apply row_labels_In in Ev. congruence.
Qed.

Lemma convert_rows_ok hm factors (units : dict string) t :
  NoDup (keys units) -> known_units factors (map snd units) ->
  convert_rows hm factors units t
  = Ok {| numeric_cols := numeric_cols t;
          rows := map (fun e => (fst e, stored_row hm factors (numeric_cols t) (dget (fst e) units) (snd e))) (rows t) |}.
Proof.
  intros Hn Hk. destruct t as [nc t]. unfold convert_rows.
  rewrite convert_rows_step; [|easy|apply unique_NoDup, String.eqb_eq|].
  - cbn [numeric_cols rows]. do 2 f_equal. apply map_ext. intros [lab vs]. cbn [fst snd]. f_equal.
    destruct (dget lab units) as [u|] eqn:E; [|easy].
    assert (mem u (unique String.eqb (map snd units)) = true) as ->; [|easy].
    apply mem_true, unique_In; [apply String.eqb_eq|].
    apply dget_In in E. apply in_map_iff. now exists (lab, u).
  - unfold known_units in *. rewrite Forall_forall in *. intros u Hu. apply Hk.
    now apply unique_In in Hu; [|apply String.eqb_eq].
Qed.

Lemma scale_row_inverse f nc cs : f <> 0%Qc -> List.length cs = List.length nc ->
  scale_row f nc (scale_row (1 / f)%Qc nc cs) = cs.
Proof.
  intros Hf. revert nc. induction cs as [|c cs IH]; intros [|b nc]; simpl; try easy.
  intros [= E]. unfold scale_row in *. simpl. rewrite IH by easy. f_equal.
  destruct c as [[x|]|s]; destruct b; simpl; try easy. do 2 f_equal. field. easy.
Qed.

Lemma scale_row_one nc cs : List.length cs = List.length nc -> scale_row 1%Qc nc cs = cs.
Proof.
  revert nc. induction cs as [|c cs IH]; intros [|b nc]; simpl; try easy.
  intros [= E]. unfold scale_row in *. simpl. rewrite IH by easy. f_equal.
  destruct c as [[x|]|s]; destruct b; simpl; try easy. do 2 f_equal. ring.
Qed.

Lemma cols_to_scale_true nc : cols_to_scale true nc = nc.
Proof. unfold cols_to_scale. rewrite <- (map_id nc) at 2. apply map_ext. now intros []. Qed.

Lemma insert_map_str {A B} (f : string -> A -> B) x l :
  insert (fun a b => str_le (fst a) (fst b)) (fst x, f (fst x) (snd x))
    (map (fun e => (fst e, f (fst e) (snd e))) l)
  = map (fun e => (fst e, f (fst e) (snd e)))
      (insert (fun a b => str_le (fst a) (fst b)) x l).
Proof.
  induction l as [|y l IH]; simpl; [easy|].
  destruct (str_le (fst x) (fst y)); simpl; [easy|]. now rewrite IH.
Qed.
Lemma isort_map_str {A B} (f : string -> A -> B) l :
  isort (fun a b => str_le (fst a) (fst b)) (map (fun e => (fst e, f (fst e) (snd e))) l)
  = map (fun e => (fst e, f (fst e) (snd e))) (isort (fun a b => str_le (fst a) (fst b)) l).
Proof. induction l as [|x l IH]; simpl; [easy|]. rewrite IH. apply (insert_map_str f x). Qed.

Lemma rows_round_trip factors (units : dict string) (t : rows_table) :
  NoDup (keys units) -> known_units factors (map snd units) ->
  Forall (fun e => List.length (snd e) = List.length (numeric_cols t)) (rows t) ->
  exists s t',
    save_rows true factors units t = Ok s /\ load_rows factors s = t' /\
    numeric_cols t' = numeric_cols t /\ Permutation (rows t') (rows t).
Proof.
  intros Hn Hk Hlen. unfold save_rows. rewrite convert_rows_ok by easy. cbn [bind numeric_cols rows].
  set (st := fun lab cs => stored_row true factors (numeric_cols t) (dget lab units) cs).
  change (fun e : string * list cell => (fst e, stored_row true factors (numeric_cols t) (dget (fst e) units) (snd e)))
    with (fun e : string * list cell => (fst e, st (fst e) (snd e))).
  rewrite (isort_map_str st). eexists. eexists. split; [reflexivity|]. split; [reflexivity|].
  unfold load_rows. cbn [fst snd numeric_cols rows]. split; [easy|].
  rewrite map_map, combine_map, map_map. cbn [fst snd].
  etransitivity; [symmetry; apply isort_perm|].
  etransitivity; [|symmetry; apply isort_perm].
  erewrite map_ext_in; [rewrite map_id; reflexivity|].
  intros [lab cs] Hin. cbn [fst snd]. f_equal. unfold st.
  apply (Permutation_in _ (Permutation_sym (isort_perm _ _))) in Hin.
  rewrite Forall_forall in Hlen. specialize (Hlen _ Hin). cbn [snd] in Hlen.
  destruct (dget lab units) as [u|] eqn:E; cbn [load_factor stored_row].
  - apply dget_In in E. unfold known_units in Hk. rewrite Forall_forall in Hk.
    destruct (Hk u) as (f & Ef & Hf). { apply in_map_iff. now exists (lab, u). }
    rewrite Ef, cols_to_scale_true. now apply scale_row_inverse.
  - now apply scale_row_one.
Qed.
