(** Proofs about the demand sample: loading, saving, adding columns, errors, cloning. *)
From Coq Require Import Sorting.Permutation Sorting.Sorted.
From Verif Require Import Prelude PreludeFacts Pandas PandasFacts M_Base S_Base P_Base
  M_FileIO S_FileIO P_FileIO M_Damage M_Demand S_Demand.
Local Open Scope string_scope.
Local Open Scope list_scope.

Lemma remove_spaces_id s : has_char " " s = false -> remove_spaces s = s.
Proof.
  induction s as [|a s IH]; simpl; [easy|]. intros H. apply orb_false_iff in H as [Ha Hs].
  rewrite Ha, IH; easy.
Qed.

Lemma parse_header_clean labels : labels <> [] -> Forall clean_label labels ->
  parse_header 3 labels = Ok labels.
Proof.
  intros Hne H. unfold parse_header. simpl Nat.ltb. cbv iota.
  assert (E : map (fun lab => map (fun i => remove_spaces (nth i lab "")) [0%nat; 1%nat; 2%nat]) labels = labels).
  { clear Hne. induction H as [|lab labels [Hl Hs] _ IH]; simpl; [easy|]. f_equal; [|exact IH].
    destruct lab as [|a [|b [|c [|]]]]; simpl in *; try lia.
    inversion Hs; subst. inversion H2; subst. inversion H4; subst. now rewrite !remove_spaces_id. }
  destruct labels as [|x l]; [easy|]. cbn [Nat.eqb Nat.ltb Nat.leb]. now rewrite E.
Qed.

Lemma remove_errors_none t :
  Forall (fun e : list string * list num => d_type (fst e) <> "ERROR") t -> remove_errors t = t.
Proof.
  intros H. unfold remove_errors. rewrite filter_none; [easy|].
  intros e He. rewrite Forall_forall in H. apply String.eqb_neq. now apply H.
Qed.

(** Rows handed back to [load_sample] with clean labels and at least one unit. *)
Definition loaded (factors : dict Qc) (t : list (list string * option string * list num)) : frame :=
  sort_labels (map (fun e => (fst (fst e), scale_values (load_factor factors (snd (fst e))) (snd e))) t).
Definition loaded_units (t : list (list string * option string * list num)) : units_map :=
  sort_labels (known_entries (map fst t)).

Lemma n_levels_of n (t : frame) : t <> [] -> Forall (fun e => List.length (fst e) = n) t -> n_levels t = n.
Proof. intros Hne H. destruct H; [easy|]. easy. Qed.

Lemma sort_labels_nil {A} (l : list (list string * A)) : sort_labels l = [] -> l = [].
Proof. intros E. pose proof (sort_labels_perm l) as P. rewrite E in P. now apply Permutation_nil in P. Qed.

Lemma combine_split {A B} (l : list (A * B)) : combine (map fst l) (map snd l) = l.
Proof. induction l as [|[a b] l IH]; simpl; congruence. Qed.

Lemma load_raw factors (t : list (list string * option string * list num)) :
  t <> [] -> loaded_units t <> [] ->
  Forall (fun e => clean_label (fst (fst e))) t ->
  load_sample factors "Units" (as_saved t) =
  Ok {| d_sample := remove_errors (loaded factors t); d_units := loaded_units t; d_units_name := "Units" |}.
Proof.
  intros Hne Hu H. unfold load_sample, as_saved, load_columns. cbn [header unit_row cells to_multi_index bind axis_labels].
  rewrite !combine_map, map_map, combine_map. cbn [bind fst snd].
  change (fun x : list string * option string * list num => (fst (fst x), scale_values (load_factor factors (snd (fst x))) (snd x)))
    with (fun e : list string * option string * list num => (fst (fst e), scale_values (load_factor factors (snd (fst e))) (snd e))).
  fold (loaded factors t).
  assert (Eu : map (fun x : list string * option string * list num => (fst (fst x), snd (fst x))) t = map fst t).
  { apply map_ext. now intros [[a b] c]. }
  rewrite Eu. fold (known_entries (map fst t)). fold (loaded_units t).
  assert (Hl : Forall (fun e : list string * list num => clean_label (fst e)) (loaded factors t)).
  { unfold loaded. eapply Permutation_Forall; [symmetry; apply sort_labels_perm|].
    rewrite Forall_forall in H |- *. intros e He. apply in_map_iff in He as (x & <- & Hx). cbn [fst]. now apply H. }
  assert (Hlne : loaded factors t <> []).
  { intros E. apply sort_labels_nil in E. now destruct t. }
  rewrite (n_levels_of 3).
  2: exact Hlne.
  2:{ eapply Forall_impl; [|exact Hl]. intros e [? _]. easy. }
  assert (Hul : Forall clean_label (map fst (loaded_units t))).
  { unfold loaded_units. rewrite Forall_forall. intros lab Hlab. apply in_map_iff in Hlab as ([l u] & <- & Hin).
    apply (Permutation_in _ (sort_labels_perm _)) in Hin. apply known_entries_In in Hin.
    apply in_map_iff in Hin as (x & Ex & Hx). rewrite Forall_forall in H. apply H in Hx. rewrite Ex in Hx. apply Hx. }
  rewrite !parse_header_clean.
  - cbn [bind]. rewrite !combine_split. easy.
  - intros E. apply map_eq_nil in E. easy.
  - exact Hul.
  - intros E. apply map_eq_nil in E. easy.
  - rewrite Forall_forall in Hl |- *. intros lab Hlab. apply in_map_iff in Hlab as (e & <- & He). now apply Hl.
Qed.

Lemma load_back factors (t : list (list string * option string * list num)) :
  t <> [] -> loaded_units t <> [] ->
  Forall (fun e => clean_label (fst (fst e)) /\ d_type (fst (fst e)) <> "ERROR") t ->
  load_sample factors "Units" (as_saved t) =
  Ok {| d_sample := loaded factors t; d_units := loaded_units t; d_units_name := "Units" |}.
Proof.
  intros Hne Hu H. rewrite load_raw; [|easy|easy|eapply Forall_impl; [|exact H]; now intros e [? _]].
  rewrite remove_errors_none; [easy|]. unfold loaded.
  eapply Permutation_Forall; [symmetry; apply sort_labels_perm|].
  rewrite Forall_forall in H |- *. intros e He. apply in_map_iff in He as (x & <- & Hx). cbn [fst]. now apply H.
Qed.

(** The saved sample. *)
Definition user_rows (factors : dict Qc) (d : demand) : list (list string * option string * list num) :=
  map (fun e => (fst e, unit_of (d_units d) (fst e), stored factors (unit_of (d_units d) (fst e)) (snd e)))
      (sort_labels (d_sample d)).

Lemma save_sample_ok factors m d : good_demand factors m d ->
  save_sample factors d = Ok (user_rows factors d).
Proof.
  intros (Hn & Hs & Hne & Hun & Hk & Hname). unfold save_sample. rewrite save_ok by easy.
  cbn [bind header unit_row cells]. rewrite Hname. cbn [String.eqb negb]. 
  change (negb ("Units" =? "Units")%string) with false. cbv iota.
  unfold make_axis. cbn [Nat.ltb Nat.leb axis_labels]. rewrite !combine_map. reflexivity.
Qed.

Lemma user_rows_In factors d lab o vs :
  In (lab, o, vs) (user_rows factors d) <->
  exists w, In (lab, w) (d_sample d) /\ o = unit_of (d_units d) lab /\ vs = stored factors o w.
Proof.
  unfold user_rows. rewrite in_map_iff. split.
  - intros ([l w] & [= <- <- <-] & Hin). exists w. split; [|easy].
    now apply (Permutation_in _ (sort_labels_perm _)) in Hin.
  - intros (w & Hin & -> & ->). exists (lab, w). split; [easy|].
    eapply Permutation_in; [symmetry; apply sort_labels_perm|easy].
Qed.

Lemma user_rows_labels factors d : Permutation (map (fun e => fst (fst e)) (user_rows factors d)) (map fst (d_sample d)).
Proof.
  unfold user_rows. rewrite map_map. cbn [fst]. apply Permutation_map, sort_labels_perm.
Qed.

Lemma set_column_In lab u col t l o vs :
  NoDup (map (fun e : list string * option string * list num => fst (fst e)) t) ->
  In (l, o, vs) (set_column lab u col t) <->
  (l = lab /\ o = u /\ vs = col) \/ (l <> lab /\ In (l, o, vs) t).
Proof.
  induction t as [|[[l' o'] vs'] t IH]; simpl; intros Hn.
  - split; [intros [[= -> -> ->]|[]]; auto|]. intros [(-> & -> & ->)|[_ []]]. auto.
  - inversion Hn; subst. destruct (label_eqb lab l') eqn:E; simpl.
    + apply label_eqb_eq in E. subst l'. split.
      * intros [[= -> -> ->]|H]; [auto|]. right. split; [|auto]. intros ->. apply H1.
        apply in_map_iff. now exists (lab, o, vs).
      * intros [(-> & -> & ->)|[Hl [[= -> -> ->]|H]]]; auto. easy.
    + assert (lab <> l'). { intros ->. assert (label_eqb l' l' = true) by now apply label_eqb_eq. congruence. }
      rewrite IH by easy. split.
      * intros [[= <- <- <-]|[H'|[Hl H']]]; auto.
      * intros [(-> & -> & ->)|[Hl [H'|H']]]; auto.
Qed.

Lemma set_column_labels lab u col t :
  NoDup (map (fun e : list string * option string * list num => fst (fst e)) t) ->
  NoDup (map (fun e : list string * option string * list num => fst (fst e)) (set_column lab u col t)).
Proof.
  induction t as [|[[l' o'] vs'] t IH]; simpl; intros Hn; [repeat constructor; easy|].
  inversion Hn; subst. destruct (label_eqb lab l') eqn:E; simpl.
  - now constructor.
  - constructor; [|auto]. intros Hin. apply in_map_iff in Hin as ([[l o] vs] & El & Hin). simpl in El. subst l.
    apply set_column_In in Hin; [|easy]. destruct Hin as [(-> & _)|[_ Hin]].
    + assert (label_eqb lab lab = true) by now apply label_eqb_eq. congruence.
    + apply H1. apply in_map_iff. now exists (l', o, vs).
Qed.

Lemma loaded_In factors t lab ws :
  In (lab, ws) (loaded factors t) <->
  exists o vs, In (lab, o, vs) t /\ ws = scale_values (load_factor factors o) vs.
Proof.
  unfold loaded. split.
  - intros H. apply (Permutation_in _ (sort_labels_perm _)) in H. apply in_map_iff in H as ([[l o] vs] & [= <- <-] & Hin).
    eauto.
  - intros (o & vs & Hin & ->). eapply Permutation_in; [symmetry; apply sort_labels_perm|].
    apply in_map_iff. exists (lab, o, vs). auto.
Qed.

Lemma loaded_units_In t lab u :
  In (lab, u) (loaded_units t) <-> exists vs, In (lab, Some u, vs) t.
Proof.
  unfold loaded_units. split.
  - intros H. apply (Permutation_in _ (sort_labels_perm _)), known_entries_In, in_map_iff in H as ([[l o] vs] & [= -> ->] & Hin). eauto.
  - intros (vs & H). eapply Permutation_in; [symmetry; apply sort_labels_perm|]. apply known_entries_In, in_map_iff.
    exists (lab, Some u, vs). auto.
Qed.

Lemma loaded_NoDup factors t :
  NoDup (map (fun e : list string * option string * list num => fst (fst e)) t) -> NoDup (map fst (loaded factors t)).
Proof.
  intros H. eapply Permutation_NoDup; [apply Permutation_map; symmetry; apply sort_labels_perm|].
  rewrite map_map. exact H.
Qed.

Lemma loaded_units_NoDup t :
  NoDup (map (fun e : list string * option string * list num => fst (fst e)) t) -> NoDup (map fst (loaded_units t)).
Proof.
  intros H. eapply Permutation_NoDup; [apply Permutation_map; symmetry; apply sort_labels_perm|].
  induction t as [|[[l o] vs] t IH]; simpl; [constructor|]. inversion H; subst.
  destruct o as [u|]; simpl; [|now apply IH]. constructor; [|now apply IH].
  intros Hin. apply H2. apply in_map_iff in Hin as ([l' u'] & E & Hin). simpl in E. subst l'.
  apply known_entries_In in Hin. apply in_map_iff in Hin as ([[a b] c] & [= -> ->] & Hin).
  apply in_map_iff. exists (l, Some u', c). auto.
Qed.

Lemma scale_in_base f vs : Forall2 (in_base f) vs (scale_values f vs).
Proof. induction vs as [|[x|] vs IH]; simpl; constructor; simpl; auto; ring. Qed.

Lemma scale_values_length f vs : List.length (scale_values f vs) = List.length vs.
Proof. apply map_length. Qed.

Definition column_of (m : nat) (v : col_value) : option (list num) :=
  match v with
  | VScalar x => Some (repeat x m)
  | VArray l => if Nat.eqb (List.length l) m then Some l else None
  end.

Lemma n_rows_of factors m d : good_demand factors m d -> n_rows (d_sample d) = m.
Proof.
  intros (_ & H & Hne & _). destruct (d_sample d) as [|e l]; [easy|]. inversion H; subst. simpl. tauto.
Qed.

Lemma user_rows_good factors m d : good_demand factors m d ->
  NoDup (map (fun e : list string * option string * list num => fst (fst e)) (user_rows factors d)) /\
  Forall (fun e => clean_label (fst (fst e)) /\ d_type (fst (fst e)) <> "ERROR") (user_rows factors d).
Proof.
  intros (Hn & Hs & Hne & Hun & Hk & Hname). split.
  - eapply Permutation_NoDup; [symmetry; apply user_rows_labels|easy].
  - rewrite Forall_forall in Hs |- *. intros [[l o] vs] Hin. apply user_rows_In in Hin as (w & Hin & _).
    apply Hs in Hin. simpl in *. tauto.
Qed.

Lemma user_rows_back factors m d lab o vs : good_demand factors m d ->
  In (lab, o, vs) (user_rows factors d) -> In (lab, scale_values (load_factor factors o) vs) (d_sample d).
Proof.
  intros (Hn & Hs & Hne & Hun & Hk & Hname) H. apply user_rows_In in H as (w & Hin & -> & ->).
  now rewrite stored_load.
Qed.

Lemma user_rows_there factors m d lab ws : good_demand factors m d ->
  In (lab, ws) (d_sample d) ->
  exists o vs, In (lab, o, vs) (user_rows factors d) /\ ws = scale_values (load_factor factors o) vs.
Proof.
  intros (Hn & Hs & Hne & Hun & Hk & Hname) H. exists (unit_of (d_units d) lab), (stored factors (unit_of (d_units d) lab) ws).
  split; [|now rewrite stored_load]. apply user_rows_In. eauto.
Qed.

Lemma unit_of_Some units lab u : NoDup (map fst units) ->
  unit_of units lab = Some u <-> In (lab, u) units.
Proof.
  intros Hn. unfold unit_of. split.
  - apply aget_In, label_eqb_eq.
  - now apply In_aget; [apply label_eqb_eq|].
Qed.

Lemma expand_spec factors m d lab v unit f col :
  good_demand factors m d -> clean_label lab -> d_type lab <> "ERROR" ->
  dget unit factors = Some f -> f <> 0%Qc -> column_of m v = Some col ->
  exists d' new, expand_sample factors d lab v unit = Ok d' /\
    good_demand factors m d' /\
    In (lab, new) (d_sample d') /\ Forall2 (in_base f) col new /\
    (forall l vs, l <> lab -> (In (l, vs) (d_sample d') <-> In (l, vs) (d_sample d))) /\
    (forall l u, In (l, u) (d_units d') <->
       (l = lab /\ u = unit) \/ (l <> lab /\ In (l, u) (d_units d) /\ In l (map fst (d_sample d)))).
Proof.
  intros Hg Hlab Herr Ef Hf Hcol.
  destruct (user_rows_good factors m d Hg) as [HuN HuF].
  unfold expand_sample. rewrite (save_sample_ok _ _ _ Hg). cbn [bind]. rewrite (n_rows_of _ _ _ Hg).
  assert (match v with
          | VScalar x => Ok (repeat x m)
          | VArray l => if Nat.eqb (List.length l) m then Ok l else Err ValueError
          end = Ok col) as ->.
  { unfold column_of in Hcol. destruct v as [x|l]; [congruence|]. destruct (Nat.eqb (List.length l) m); congruence. }
  cbn [bind]. set (t := set_column lab (Some unit) col (user_rows factors d)).
  assert (HtIn : forall l o vs, In (l, o, vs) t <-> (l = lab /\ o = Some unit /\ vs = col) \/ (l <> lab /\ In (l, o, vs) (user_rows factors d)))
    by (intros; now apply set_column_In).
  assert (HtN := set_column_labels lab (Some unit) col _ HuN). fold t in HtN.
  assert (HtF : Forall (fun e : list string * option string * list num => clean_label (fst (fst e)) /\ d_type (fst (fst e)) <> "ERROR") t).
  { rewrite Forall_forall in HuF |- *. intros [[l o] vs] Hin. apply HtIn in Hin as [(-> & -> & ->)|[_ Hin]]; [easy|].
    now apply HuF in Hin. }
  rewrite load_back.
  2:{ intros E. assert (In (lab, Some unit, col) t) by (apply HtIn; auto). rewrite E in H. easy. }
  2:{ intros E. assert (In (lab, unit) (loaded_units t)) by (apply loaded_units_In; exists col; apply HtIn; auto).
      rewrite E in H. easy. }
  2: exact HtF.
  eexists. exists (scale_values f col). split; [reflexivity|]. cbn [d_sample d_units].
  pose proof Hg as (Hn & Hs & Hne & Hun & Hk & Hname).
  assert (Hcolm : List.length col = m).
  { unfold column_of in Hcol. destruct v as [x|l].
    - injection Hcol as <-. apply repeat_length.
    - destruct (Nat.eqb_spec (List.length l) m); [|easy]. now injection Hcol as <-. }
  assert (Hunits : forall l u, In (l, u) (loaded_units t) <->
     (l = lab /\ u = unit) \/ (l <> lab /\ In (l, u) (d_units d) /\ In l (map fst (d_sample d)))).
  { intros l u. rewrite loaded_units_In. split.
    - intros (vs & Hin). apply HtIn in Hin as [(-> & [= ->] & ->)|[Hl Hin]]; [auto|]. right. split; [easy|].
      apply user_rows_In in Hin as (w & Hin & Ho & _). split.
      + symmetry in Ho. now apply unit_of_Some in Ho.
      + apply in_map_iff. now exists (l, w).
    - intros [[-> ->]|(Hl & Hu & Hin)].
      + exists col. apply HtIn. auto.
      + apply in_map_iff in Hin as ([l' w] & E & Hin). simpl in E. subst l'.
        eexists. apply HtIn. right. split; [easy|]. apply user_rows_In. exists w. split; [easy|].
        split; [symmetry; now apply unit_of_Some|reflexivity]. }
  split; [|split; [|split; [|split]]].
  - repeat split.
    + cbn [d_sample]. now apply loaded_NoDup.
    + cbn [d_sample]. rewrite Forall_forall. intros [l ws] Hin. apply loaded_In in Hin as (o & vs & Hin & ->).
      cbn [fst snd]. rewrite scale_values_length.
      apply HtIn in Hin as [(-> & -> & ->)|[Hl Hin]]; [easy|].
      apply (user_rows_back factors m d _ _ _ Hg) in Hin. rewrite Forall_forall in Hs. apply Hs in Hin.
      cbn [fst snd] in Hin. rewrite scale_values_length in Hin. easy.
    + cbn [d_sample]. intros E.
      assert (In (lab, scale_values (load_factor factors (Some unit)) col) (loaded factors t)).
      { apply loaded_In. exists (Some unit), col. split; [|easy]. apply HtIn. auto. }
      rewrite E in H. easy.
    + cbn [d_units]. now apply loaded_units_NoDup.
    + cbn [d_units]. unfold known_units in *. rewrite Forall_forall in Hk |- *. intros u Hu.
      apply in_map_iff in Hu as ([l u'] & E & Hin). simpl in E. subst u'. apply Hunits in Hin as [[_ ->]|(_ & Hin & _)]; [eauto|].
      apply Hk, in_map_iff. now exists (l, u).
  - apply loaded_In. exists (Some unit), col. split; [apply HtIn; auto|]. simpl. now rewrite Ef.
  - apply scale_in_base.
  - intros l vs Hl. rewrite loaded_In. split.
    + intros (o & ws & Hin & ->). apply HtIn in Hin as [(-> & _)|[_ Hin]]; [easy|]. eapply user_rows_back; eauto.
    + intros Hin. destruct (user_rows_there _ _ _ _ _ Hg Hin) as (o & ws & Hi & ->). exists o, ws. split; [|easy].
      apply HtIn. auto.
  - exact Hunits.
Qed.

Lemma expand_length factors m d lab l unit :
  good_demand factors m d -> List.length l <> m ->
  expand_sample factors d lab (VArray l) unit = Err ValueError.
Proof.
  intros Hg Hl. unfold expand_sample. rewrite (save_sample_ok _ _ _ Hg). cbn [bind]. rewrite (n_rows_of _ _ _ Hg).
  destruct (Nat.eqb_spec (List.length l) m); [easy|]. reflexivity.
Qed.

(** ** Adding residual drifts *)

Lemma combine_In_l {A B} (l : list A) (k : list B) x y : In (x, y) (combine l k) -> In x l.
Proof. apply in_combine_l. Qed.

Lemma adjust_spec est factors m d :
  good_demand factors m d ->
  (exists lab, In lab (map fst (d_sample d)) /\ d_type lab = "PID") ->
  (forall lab, In lab (map fst (d_sample d)) -> d_type lab <> "RID") ->
  d_units d <> [] ->
  (forall cols, List.length (est cols) = List.length cols /\
                (Forall (fun c => List.length c = m) cols -> Forall (fun c => List.length c = m) (est cols))) ->
  exists d' pid, estimate_RID_and_adjust_sample est factors d = Ok d' /\
    pid <> [] /\
    pid = map (fun e => (fst (fst e), snd e))
              (filter (fun e => String.eqb (d_type (fst (fst e))) "PID") (user_rows factors d)) /\
    (forall l vs, d_type l <> "RID" -> (In (l, vs) (d_sample d') <-> In (l, vs) (d_sample d))) /\
    (** the peak drift columns as the user sees them *)
    (forall l vs, In (l, vs) pid <->
       d_type l = "PID" /\ exists o w, In (l, w) (d_sample d) /\ appears_as factors (d_units d) l w o vs) /\
    (** each new column is the estimate read with the factor of 'unitless' *)
    (forall l vs, d_type l = "RID" ->
       (In (l, vs) (d_sample d') <->
        exists i p x, nth_error pid i = Some p /\ nth_error (est (map snd pid)) i = Some x /\
          l = "RID" :: tl (fst p) /\ vs = scale_values (load_factor factors (Some "unitless")) x)).
Proof.
  intros Hg Hpid Hrid Hu Hest. pose proof Hg as (Hn & Hs & Hne & Hun & Hk & Hname).
  destruct (user_rows_good factors m d Hg) as [HuN HuF].
  unfold estimate_RID_and_adjust_sample. rewrite (save_sample_ok _ _ _ Hg). cbn [bind].
  set (rows := filter (fun e : list string * option string * list num => String.eqb (d_type (fst (fst e))) "PID") (user_rows factors d)).
  assert (Hrows : forall l o vs, In (l, o, vs) rows <-> In (l, o, vs) (user_rows factors d) /\ d_type l = "PID").
  { intros l o vs. unfold rows. rewrite filter_In. simpl. now rewrite String.eqb_eq. }
  assert (Hrne : rows <> []).
  { destruct Hpid as (lab & Hin & Ht). apply in_map_iff in Hin as ([l w] & E & Hin). simpl in E. subst l.
    intros E. destruct (user_rows_there _ _ _ _ _ Hg Hin) as (o & vs & Hi & _).
    assert (In (lab, o, vs) rows) by (apply Hrows; auto). rewrite E in H. easy. }
  destruct rows as [|r0 rows0] eqn:Erows; [easy|]. rewrite <- Erows in *. clear r0 rows0 Erows.
  set (rid := map (fun pv : (list string * option string * list num) * list num =>
                     let (p, vs) := pv in ("RID" :: tl (fst (fst p)), Some "unitless", vs))
                  (combine rows (est (map snd rows)))).
  assert (HridIn : forall l o vs, In (l, o, vs) rid <->
            exists i p, nth_error rows i = Some p /\ nth_error (est (map snd rows)) i = Some vs /\
                        l = "RID" :: tl (fst (fst p)) /\ o = Some "unitless").
  { intros l o vs. unfold rid. rewrite in_map_iff. split.
    - intros ([p x] & [= <- <- <-] & Hin). apply In_nth_error in Hin as (i & Hi).
      assert (nth_error rows i = Some p /\ nth_error (est (map snd rows)) i = Some x) as [H1 H2].
      { clear - Hi. revert i Hi. generalize (est (map snd rows)). induction rows as [|a rows IH]; intros [|b l] i Hi; destruct i; simpl in *; try easy.
        - now injection Hi as -> ->.
        - now apply IH. }
      exists i, p. auto.
    - intros (i & p & H1 & H2 & -> & ->). exists (p, vs). split; [easy|].
      clear - H1 H2. revert i H1 H2. generalize (est (map snd rows)). induction rows as [|a rows IH]; intros [|b l] i H1 H2; destruct i; simpl in *; try easy.
      + injection H1 as ->. injection H2 as ->. now left.
      + right. now apply (IH l i). }
  assert (HtF : Forall (fun e : list string * option string * list num => clean_label (fst (fst e)) /\ d_type (fst (fst e)) <> "ERROR") (user_rows factors d ++ rid)).
  { apply Forall_app. split; [exact HuF|]. rewrite Forall_forall in HuF |- *. intros [[l o] vs] Hin.
    apply HridIn in Hin as (i & p & Hp & _ & -> & _). apply nth_error_In in Hp. destruct p as [[pl po] pvs].
    apply Hrows in Hp as [Hp _]. apply HuF in Hp as [[Hlen Hsp] _]. cbn [fst snd] in *.
    destruct pl as [|a [|b [|c [|]]]]; simpl in *; try lia.
    split; [|easy]. split; [easy|]. inversion Hsp; subst. inversion H2; subst. repeat constructor; try easy. now inversion H4; subst. }
  rewrite load_back; [| |  |exact HtF].
  2:{ intros E. apply app_eq_nil in E as [E _]. destruct Hpid as (lab & Hin & _). apply in_map_iff in Hin as ([l w] & _ & Hin).
      destruct (user_rows_there _ _ _ _ _ Hg Hin) as (o & vs & Hi & _). now rewrite E in Hi. }
  2:{ assert (exists l o vs, In (l, o, vs) rid) as (l & o & vs & Hin).
      { destruct (est (map snd rows)) as [|x xs] eqn:Ex.
        - destruct (Hest (map snd rows)) as [Hl _]. rewrite Ex, map_length in Hl. now destruct rows.
        - assert (exists p, nth_error rows 0 = Some p) as [p Hp] by (destruct rows as [|p ?]; [easy|now exists p]).
          do 3 eexists. apply HridIn. exists 0%nat, p. try rewrite Ex. rewrite Hp. simpl. repeat split. }
      pose proof Hin as Hin'. apply HridIn in Hin as (i & p & _ & _ & _ & ->).
      intros E. assert (In (l, "unitless") (loaded_units (user_rows factors d ++ rid))).
      { apply loaded_units_In. exists vs. apply in_or_app. auto. }
      rewrite E in H. easy. }
  eexists. exists (map (fun e => (fst (fst e), snd e)) rows).
  split; [reflexivity|]. cbn [d_sample]. split; [|split; [reflexivity|split; [|split]]].
  - intros E. apply map_eq_nil in E. easy.
  - intros l vs Hl. rewrite loaded_In. split.
    + intros (o & ws & Hin & ->). apply in_app_or in Hin as [Hin|Hin].
      * eapply user_rows_back; eauto.
      * apply HridIn in Hin as (i & p & _ & _ & -> & _). now elim Hl.
    + intros Hin. destruct (user_rows_there _ _ _ _ _ Hg Hin) as (o & ws & Hi & ->). exists o, ws. split; [|easy].
      apply in_or_app. auto.
  - intros l vs. rewrite in_map_iff. split.
    + intros ([[l' o] vs'] & [= -> ->] & Hin). apply Hrows in Hin as [Hin Ht]. split; [easy|].
      apply user_rows_In in Hin as (w & Hin & -> & ->). exists (unit_of (d_units d) l), w. split; [easy|].
      unfold appears_as. destruct (unit_of (d_units d) l) as [u|] eqn:Eu.
      * split; [now apply unit_of_Some in Eu|]. pose proof (proj1 (unit_of_Some _ _ _ Hun) Eu) as Hin'.
        unfold known_units in Hk. rewrite Forall_forall in Hk.
        destruct (Hk u) as (f & Ef & Hf). { apply in_map_iff. now exists (l, u). }
        exists f. split; [easy|]. simpl. rewrite Ef. clear -Hf. induction w as [|[x|] w IH]; simpl; constructor; auto.
        field. easy.
      * split; [|easy]. unfold unit_of in Eu. now apply (aget_None label_eqb label_eqb_eq) in Eu.
    + intros (Ht & o & w & Hin & Ha). exists (l, o, vs). split; [easy|]. apply Hrows. split; [|easy].
      apply user_rows_In. exists w. split; [easy|]. unfold appears_as in Ha. destruct o as [u|].
      * destruct Ha as (Hu' & f & Ef & HF). split; [symmetry; now apply unit_of_Some|]. simpl. rewrite Ef.
        assert (Hf : f <> 0%Qc).
        { unfold known_units in Hk. rewrite Forall_forall in Hk.
          destruct (Hk u) as (f' & Ef' & Hf'). { apply in_map_iff. now exists (l, u). } congruence. }
        clear - HF Hf. induction HF as [|[x|] [y|] w vs H _ IH]; simpl; try easy; rewrite <- IH; [|easy].
        do 2 f_equal. rewrite <- H. field. easy.
      * destruct Ha as [Hno ->]. split; [|easy]. symmetry. unfold unit_of. now apply (aget_None label_eqb label_eqb_eq).
  - intros l vs Hl. rewrite loaded_In. rewrite map_map. cbn [snd]. split.
    + intros (o & ws & Hin & ->). apply in_app_or in Hin as [Hin|Hin].
      * exfalso. apply (Hrid l); [|easy]. apply (user_rows_back _ _ _ _ _ _ Hg) in Hin. apply in_map_iff. eexists. split; [|exact Hin]. easy.
      * apply HridIn in Hin as (i & p & H1 & H2 & -> & ->). exists i, (fst (fst p), snd p), ws.
        rewrite nth_error_map, H1. auto.
    + intros (i & p & x & H1 & H2 & -> & ->). rewrite nth_error_map in H1. destruct (nth_error rows i) as [q|] eqn:Eq; [|easy].
      injection H1 as <-. exists (Some "unitless"), x. split; [|easy]. apply in_or_app. right. apply HridIn.
      exists i, q. auto.
Qed.

(** ** Errors *)

Lemma kept_rows_one n errs : kept_rows n [errs] = filter (fun i => negb (truthy (nth i errs None))) (seq 0 n).
Proof.
  unfold kept_rows. induction (seq 0 n) as [|i l IH]; [easy|].
  cbn [flat_map]. rewrite IH. unfold num in *. cbn [filter]. destruct (negb (truthy (nth i errs None))); reflexivity.
Qed.

(** One ERROR column: the rows whose error is zero are kept, in order, in every other column. *)
Lemma remove_errors_one (t : frame) e lab :
  In (lab, e) t -> d_type lab = "ERROR" ->
  (forall l v, In (l, v) t -> d_type l = "ERROR" -> (l, v) = (lab, e)) ->
  NoDup t ->
  remove_errors t =
  map (fun c => (fst c, map (fun i => nth i (snd c) None)
                            (filter (fun i => match nth i e None with Some q => Qceqb q 0 | None => false end) (seq 0 (n_rows t)))))
      (filter (fun c => negb (String.eqb (d_type (fst c)) "ERROR")) t).
Proof.
  intros Hin Ht Huniq Hnd. unfold remove_errors.
  assert (filter (fun e0 : list string * list num => String.eqb (d_type (fst e0)) "ERROR") t = [(lab, e)]) as ->.
  { assert (Hf : forall c, In c (filter (fun e0 : list string * list num => String.eqb (d_type (fst e0)) "ERROR") t) <-> c = (lab, e)).
    { intros [l v]. rewrite filter_In. simpl. rewrite String.eqb_eq. split; [intros [H1 H2]; now apply Huniq|].
      intros [= -> ->]. auto. }
    assert (HN := NoDup_filter (fun e0 : list string * list num => String.eqb (d_type (fst e0)) "ERROR") Hnd).
    destruct (filter _ t) as [|a [|b l]].
    - exfalso. now apply (Hf (lab, e)).
    - f_equal. apply Hf. now left.
    - exfalso. assert (a = (lab, e)) by (apply Hf; now left). assert (b = (lab, e)) by (apply Hf; right; now left).
      subst. inversion HN; subst. apply H1. now left. }
  apply map_ext. intros c. f_equal. unfold take_rows. cbn [map snd]. rewrite kept_rows_one. f_equal.
  apply filter_ext. intros i. unfold truthy. destruct (nth i e None); [|easy]. now rewrite negb_involutive.
Qed.

(** Peak drifts without a unit, or in a unit with factor 1, are seen as stored. *)
Lemma pid_as_stored factors d :
  (forall lab u, In (lab, u) (d_units d) -> d_type lab = "PID" -> dget u factors = Some 1%Qc) ->
  map (fun e => (fst (fst e), snd e))
      (filter (fun e => String.eqb (d_type (fst (fst e))) "PID") (user_rows factors d)) =
  filter (fun e => String.eqb (d_type (fst e)) "PID") (sort_labels (d_sample d)).
Proof.
  intros Hu. unfold user_rows. induction (sort_labels (d_sample d)) as [|[l w] t IH]; [easy|].
  cbn [map filter fst snd]. destruct (String.eqb_spec (d_type l) "PID") as [Ht|Ht]; [|exact IH].
  cbn [map filter fst snd]. rewrite IH. f_equal. f_equal.
  destruct (unit_of (d_units d) l) as [u|] eqn:Eu; [|easy]. simpl.
  rewrite (Hu l u); [| |exact Ht].
  - clear. induction w as [|[x|] w IH]; simpl; [easy| |]; rewrite ?IH; [|easy]. do 2 f_equal. field. easy.
  - unfold unit_of in Eu. eapply aget_In; [apply label_eqb_eq|exact Eu].
Qed.

(** Loading a table with one ERROR column. *)
Lemma load_errors factors m (t : list (list string * option string * list num)) lab e :
  Forall (fun c => clean_label (fst (fst c)) /\ List.length (snd c) = m) t ->
  NoDup (map (fun c => fst (fst c)) t) ->
  In (lab, None, e) t -> d_type lab = "ERROR" ->
  (forall l o v, In (l, o, v) t -> d_type l = "ERROR" -> l = lab) ->
  (exists l u v, In (l, Some u, v) t) ->
  exists d, load_sample factors "Units" (as_saved t) = Ok d /\
    forall l vs, In (l, vs) (d_sample d) <->
      d_type l <> "ERROR" /\ exists o ws, In (l, o, ws) t /\
        vs = map (fun i => nth i (scale_values (load_factor factors o) ws) None) (without_error m e).
Proof.
  intros Hc Hn Hin Ht Huniq (l0 & u0 & v0 & Hu).
  rewrite load_raw.
  2:{ intros ->. easy. }
  2:{ intros E. assert (In (l0, u0) (loaded_units t)) by (apply loaded_units_In; eauto). rewrite E in H. easy. }
  2:{ eapply Forall_impl; [|exact Hc]. now intros c [? _]. }
  eexists. split; [reflexivity|]. cbn [d_sample].
  assert (He : In (lab, e) (loaded factors t)).
  { apply loaded_In. exists None, e. split; [easy|]. simpl. unfold scale_values.
    clear. induction e as [|[x|] e IH]; simpl; [easy| |]; rewrite <- IH; [|easy]. do 2 f_equal. ring. }
  assert (Hln := loaded_NoDup factors t Hn).
  rewrite (remove_errors_one _ e lab); auto.
  2:{ intros l v Hlv Htl. pose proof Hlv as Hlv'. apply loaded_In in Hlv as (o & ws & Hin' & _).
      assert (l = lab) as -> by eauto. f_equal.
      assert (E1 := In_aget label_eqb label_eqb_eq _ _ _ Hln Hlv'). assert (E2 := In_aget label_eqb label_eqb_eq _ _ _ Hln He). congruence. }
  2:{ now apply NoDup_map_inv in Hln. }
  assert (Hrows : n_rows (loaded factors t) = m).
  { destruct (loaded factors t) as [|c tl] eqn:El; [easy|]. assert (In c (loaded factors t)) by (rewrite El; now left).
    destruct c as [l v]. apply loaded_In in H as (o & ws & Hi & ->). simpl. rewrite scale_values_length.
    rewrite Forall_forall in Hc. now apply Hc in Hi. }
  rewrite Hrows. intros l vs. rewrite in_map_iff. split.
  - intros ([l' v] & [= <- <-] & Hi). apply filter_In in Hi as [Hi Hb]. cbn [fst snd] in *.
    apply negb_true_iff, String.eqb_neq in Hb. split; [easy|]. apply loaded_In in Hi as (o & ws & Hi & ->). eauto.
  - intros (Hl & o & ws & Hi & ->). exists (l, scale_values (load_factor factors o) ws). split; [easy|].
    apply filter_In. split; [apply loaded_In; eauto|]. cbn [fst]. now apply negb_true_iff, String.eqb_neq.
Qed.
