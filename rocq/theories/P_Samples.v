(** Facts about saved samples. *)
From Coq Require Import Sorting.Permutation Sorting.Sorted.
From Verif Require Import Prelude PreludeFacts Pandas PandasFacts M_Base S_Base P_Base
  M_FileIO S_FileIO P_FileIO M_Samples S_Samples.
Set Implicit Arguments.
Local Open Scope string_scope.
Local Open Scope list_scope.

(** ** The assignments *)

Definition apply_all (ps : partial_units) (us : partial_units) : partial_units :=
  fold_left (fun us p => assign_units (fst p) (snd p) us) ps us.

Lemma assign_labels p u us : map fst (assign_units p u us) = map fst us.
Proof.
  unfold assign_units. rewrite map_map. apply map_ext. intros e. now destruct (starts_with p (fst e)).
Qed.

Lemma has_prefix_labels p us us' : map fst us = map fst us' -> has_prefix p us = has_prefix p us'.
Proof.
  unfold has_prefix. revert us'. induction us as [|e us IH]; intros [|e' us']; simpl; try easy.
  intros [= E1 E2]. rewrite E1. f_equal. now apply IH.
Qed.

Lemma has_prefix_true p us : has_prefix p us = true <->
  exists lab, In lab (map fst us) /\ starts_with p lab = true.
Proof.
  unfold has_prefix. rewrite existsb_exists. split.
  - intros (e & Hin & H). exists (fst e). split; [now apply in_map|easy].
  - intros (lab & Hin & H). apply in_map_iff in Hin as (e & <- & Hin). now exists e.
Qed.

Lemma assign_none p u us : has_prefix p us = false -> assign_units p u us = us.
Proof.
  unfold has_prefix, assign_units. induction us as [|e us IH]; simpl; [easy|].
  destruct (starts_with p (fst e)); simpl; [easy|]. intros H. now rewrite IH.
Qed.

Lemma find_all_false {A} (f : A -> bool) l : (forall x, In x l -> f x = false) -> find f l = None.
Proof.
  induction l as [|x l IH]; simpl; intros H; [easy|]. rewrite (H x (or_introl eq_refl)).
  apply IH. intros y Hy. apply H. now right.
Qed.

Definition assigned (ps : partial_units) (lab : list string) (d : option string) : option string :=
  match find (fun p => starts_with (fst p) lab) ps with Some p => snd p | None => d end.

(** No label gets two assignments. *)
Definition exclusive (ps : partial_units) : Prop :=
  ForallOrdPairs (fun p q => forall lab, starts_with (fst p) lab = true ->
                                         starts_with (fst q) lab = false) ps.

Lemma apply_all_spec ps : forall us, exclusive ps ->
  apply_all ps us = map (fun e => (fst e, assigned ps (fst e) (snd e))) us.
Proof.
  unfold assigned. induction ps as [|p ps IH]; intros us H; simpl.
  - rewrite <- (map_id us) at 1. apply map_ext. now intros [].
  - inversion H as [|? ? Hp Hps]; subst. rewrite IH by easy. unfold assign_units. rewrite map_map.
    apply map_ext. intros [lab o]. cbn [fst snd]. destruct (starts_with (fst p) lab) eqn:E; cbn [fst snd].
    + rewrite find_all_false. 2:{ intros q Hq. rewrite Forall_forall in Hp. now apply (Hp q Hq). }
      easy.
    + easy.
Qed.

(** ** What is stored *)

Definition stored_sample (factors : dict Qc) (col : list string -> string) (simple : bool) (n : nat)
                         (t : frame) : saved :=
  {| header := (if simple then to_simple_index (make_axis n (map fst (sort_labels t)))
                else make_axis n (map fst (sort_labels t)));
     unit_row := Some (map (fun e => Some (col (fst e))) (sort_labels t));
     cells := map (fun e => stored factors (Some (col (fst e))) (snd e)) (sort_labels t) |}.

Lemma all_units_ok us : Forall (fun e => snd e <> None) us ->
  exists m, all_units us = Ok m /\ map (fun e => (fst e, Some (snd e))) m = us.
Proof.
  induction us as [|[lab [u|]] us IH]; simpl; intros H.
  - now exists [].
  - inversion H as [|? ? _ H']; subst. destruct (IH H') as (m & -> & E). exists ((lab, u) :: m).
    simpl. now rewrite E.
  - now inversion H.
Qed.

Lemma all_units_missing us lab : In (lab, None) us -> all_units us = Err KeyError.
Proof.
  induction us as [|[l [u|]] us IH]; simpl; [easy| |easy].
  intros [H|H]; [easy|]. now rewrite IH.
Qed.

Lemma save_spec factors simple n (t : frame) us (col : list string -> string) :
  (forall lab, In lab (map fst t) -> In (lab, Some (col lab)) us) ->
  Forall (fun e => snd e <> None) us -> NoDup (map fst us) ->
  (forall lab u, In (lab, Some u) us -> exists f, dget u factors = Some f /\ f <> 0%Qc) ->
  save_with_units factors simple n t us = Ok (stored_sample factors col simple n t).
Proof.
  intros Hcol Hall Hnd Hk. unfold save_with_units.
  destruct (all_units_ok Hall) as (m & -> & E). cbn [bind].
  assert (Hm : NoDup (map fst m)).
  { replace (map fst m) with (map fst us); [easy|]. rewrite <- E, map_map. now apply map_ext. }
  rewrite save_ok; [|exact Hm|].
  - f_equal. unfold stored_sample. f_equal.
    + f_equal. apply map_ext_in. intros e He.
      assert (Hin : In (fst e) (map fst t)).
      { apply in_map. eapply Permutation_in; [apply sort_labels_perm|exact He]. }
      apply Hcol in Hin. rewrite <- E in Hin. apply in_map_iff in Hin as ([l u] & [= <- E2] & Hin).
      unfold unit_of. apply (In_aget label_eqb label_eqb_eq _ _ _ Hm). now rewrite <- E2.
    + apply map_ext_in. intros e He.
      assert (Hin : In (fst e) (map fst t)).
      { apply in_map. eapply Permutation_in; [apply sort_labels_perm|exact He]. }
      apply Hcol in Hin. rewrite <- E in Hin. apply in_map_iff in Hin as ([l u] & [= <- E2] & Hin).
      f_equal. unfold unit_of. apply (In_aget label_eqb label_eqb_eq _ _ _ Hm). now rewrite <- E2.
  - unfold known_units. apply Forall_forall. intros u Hu. apply in_map_iff in Hu as ([l u'] & <- & Hin).
    apply (Hk l). rewrite <- E. apply in_map_iff. now exists (l, u').
Qed.

Section Stored.
  Variables (factors : dict Qc) (col : list string -> string) (simple : bool) (n : nat) (t : frame).
  Hypothesis Hn : (1 < n)%nat.
  Hypothesis Hg : good_labels n (map fst t).
  Hypothesis Hk : forall lab, In lab (map fst t) ->
    exists f, dget (col lab) factors = Some f /\ f <> 0%Qc.

  Lemma good_sorted : good_labels n (map fst (sort_labels t)).
  Proof.
    eapply good_labels_perm; [|exact Hg]. apply Permutation_map. symmetry. apply sort_labels_perm.
  Qed.

  Lemma sorted_label e : In e (sort_labels t) -> In (fst e) (map fst t).
  Proof. intros H. apply in_map. eapply Permutation_in; [apply sort_labels_perm|exact H]. Qed.

  Lemma stored_header : to_multi_index (header (stored_sample factors col simple n t))
                        = Ok (Multi n (map fst (sort_labels t))).
  Proof.
    destruct good_sorted as (Hne & _ & Hf). unfold stored_sample, make_axis. cbn [header].
    destruct (Nat.ltb_spec 1 n); [|lia]. destruct simple; [|easy].
    now apply simple_multi_round_trip.
  Qed.

  Lemma stored_levels : column_levels (stored_sample factors col simple n t) = n.
  Proof. unfold column_levels. now rewrite stored_header. Qed.

  Lemma load_stored : load_columns (Some factors) (stored_sample factors col simple n t)
    = Ok (sort_labels t, Some (map (fun e => (fst e, col (fst e))) (sort_labels t))).
  Proof.
    unfold load_columns. rewrite stored_header. cbn [bind axis_labels].
    unfold stored_sample. cbn [unit_row cells]. f_equal. f_equal.
    - rewrite !combine_map, map_map, combine_map. cbn [fst snd].
      transitivity (sort_labels (sort_labels t)); [|apply sort_labels_idem]. f_equal.
      rewrite <- (map_id (sort_labels t)) at 2. apply map_ext_in. intros [lab vs] He. cbn [fst snd]. f_equal.
      destruct (Hk _ (sorted_label _ He)) as (f & Ef & Hf). cbn [fst] in Ef.
      unfold stored, load_factor. rewrite Ef. now apply scale_inverse.
    - rewrite combine_map. rewrite flat_map_concat_map, map_map. cbn [fst snd].
      f_equal. transitivity (sort_labels (map (fun e : list string * list num => (fst e, col (fst e))) (sort_labels t))).
      + f_equal. clear. induction (sort_labels t) as [|e l IH]; simpl; [easy|]. now rewrite IH.
      + rewrite (sort_labels_map (fun lab (_ : list num) => col lab)). now rewrite sort_labels_idem.
  Qed.

  Lemma load_unlabelled : load_columns (Some factors) (without_units (stored_sample factors col simple n t))
    = Ok (map (fun e => (fst e, stored factors (Some (col (fst e))) (snd e))) (sort_labels t), None).
  Proof.
    unfold load_columns. change (header (without_units (stored_sample factors col simple n t)))
      with (header (stored_sample factors col simple n t)).
    rewrite stored_header. cbn [bind axis_labels]. unfold stored_sample, without_units. cbn [unit_row cells].
    f_equal. f_equal. rewrite combine_map.
    rewrite (sort_labels_map (fun lab (vs : list num) => stored factors (Some (col lab)) vs)).
    now rewrite sort_labels_idem.
  Qed.

  Lemma stored_expressed lab vs : In lab (map fst t) ->
    expressed factors (col lab) vs (stored factors (Some (col lab)) vs).
  Proof.
    intros H. destruct (Hk _ H) as (f & Ef & Hf). exists f. split; [exact Ef|]. unfold stored. rewrite Ef.
    clear -Hf. induction vs as [|[x|] vs IH]; simpl; constructor; auto. field. easy.
  Qed.

  Lemma stored_written (unit_is : list string -> string -> Prop) :
    (forall lab, In lab (map fst t) -> unit_is lab (col lab)) ->
    written factors unit_is (if simple then in_file else in_table) t (stored_sample factors col simple n t).
  Proof.
    intros Hu. unfold written, file_columns, stored_sample. cbn [unit_row header cells].
    assert (Hlab : axis_labels (if simple then to_simple_index (make_axis n (map fst (sort_labels t)))
                     else make_axis n (map fst (sort_labels t)))
                   = map (fun e => (if simple then in_file else in_table) (fst e)) (sort_labels t)).
    { unfold make_axis. destruct (Nat.ltb_spec 1 n); [|lia]. destruct simple.
      - cbn [to_simple_index]. destruct (Nat.ltb_spec 1 n); [|lia]. cbn [axis_labels]. now rewrite !map_map.
      - reflexivity. }
    rewrite Hlab, !combine_map. split.
    - rewrite map_length. apply Permutation_length, sort_labels_perm.
    - intros lab vs Hin. assert (Hl : In lab (map fst t)) by now apply (in_map fst) in Hin.
      exists (col lab), (stored factors (Some (col lab)) vs). split; [now apply Hu|]. split.
      + apply in_map_iff. exists (lab, vs). split; [easy|].
        eapply Permutation_in; [|exact Hin]. symmetry. apply sort_labels_perm.
      + now apply stored_expressed.
  Qed.
End Stored.

(** ** First units *)

Lemma first_units_get (us : units_map) c :
  dget c (first_units us) = hd_error (group_rows String.eqb c (map (fun e => (hd "" (fst e), snd e)) us)).
Proof.
  unfold first_units, groupby. set (l := map _ us).
  assert (H : forall ks, dget c (flat_map (fun g : string * list string => match snd g with [] => [] | u :: _ => [(fst g, u)] end)
                 (map (fun k => (k, group_rows String.eqb k l)) ks))
            = if mem c ks then hd_error (group_rows String.eqb c l) else None).
  { induction ks as [|k ks IH]; [easy|]. cbn [map flat_map snd fst]. unfold mem. cbn [existsb].
    fold (mem c ks). destruct (group_rows String.eqb k l) as [|u r] eqn:E.
    - cbn [app]. rewrite IH. destruct (String.eqb_spec c k) as [<-|]; [|easy]. rewrite E. cbn. now destruct (mem c ks).
    - cbn [app dget]. destruct (String.eqb_spec c k) as [<-|]; [now rewrite E|]. exact IH. }
  rewrite H. destruct (mem c _) eqn:E; [easy|]. apply mem_false in E.
  destruct (group_rows String.eqb c l) as [|u r] eqn:Eg; [easy|]. exfalso. apply E.
  assert (Hin : In u (group_rows String.eqb c l)) by (rewrite Eg; now left).
  apply (In_group_rows String.eqb String.eqb_eq) in Hin.
  eapply Permutation_in; [apply isort_perm|]. apply unique_In; [apply String.eqb_eq|].
  now apply (in_map fst) in Hin.
Qed.

Lemma first_units_same us c u :
  (exists lab, In (lab, u) us /\ hd "" lab = c) ->
  (forall lab u', In (lab, u') us -> hd "" lab = c -> u' = u) ->
  dget c (first_units us) = Some u.
Proof.
  intros (lab & Hin & Hc) Hall. rewrite first_units_get.
  assert (Hg : In u (group_rows String.eqb c (map (fun e : list string * string => (hd "" (fst e), snd e)) us))).
  { apply (In_group_rows String.eqb String.eqb_eq). apply in_map_iff. exists (lab, u). cbn. now rewrite Hc. }
  destruct (group_rows _ _ _) as [|u' r] eqn:E; [easy|]. cbn. f_equal.
  assert (Hg' : In u' (u' :: r)) by now left. rewrite <- E in Hg'.
  apply (In_group_rows String.eqb String.eqb_eq) in Hg'. apply in_map_iff in Hg' as ([l v] & [= E1 E2] & Hi).
  subst. eapply Hall; [exact Hi|]. easy.
Qed.

Lemma first_units_none us c : (forall lab u', In (lab, u') us -> hd "" lab <> c) ->
  dget c (first_units us) = None.
Proof.
  intros H. rewrite first_units_get. destruct (group_rows _ _ _) as [|u r] eqn:E; [easy|]. exfalso.
  assert (Hg : In u (u :: r)) by now left. rewrite <- E in Hg.
  apply (In_group_rows String.eqb String.eqb_eq) in Hg. apply in_map_iff in Hg as ([l v] & [= E1 E2] & Hi).
  subst. now apply (H l u).
Qed.

(** ** Components *)

Definition by_component (units : dict string) : partial_units :=
  map (fun cu => ([fst cu], Some (snd cu))) units.

Definition component_unit (units : dict string) (lab : list string) : string :=
  match dget (hd "" lab) units with Some u => u | None => "" end.

Lemma starts_one c lab : starts_with [c] lab = true <-> exists tl, lab = c :: tl.
Proof.
  destruct lab as [|x lab]; simpl.
  - split; [easy|]. intros (tl & [=]).
  - rewrite andb_true_r, String.eqb_eq. split.
    + intros ->. now exists lab.
    + now intros (tl & [= -> _]).
Qed.

Lemma by_component_exclusive units : NoDup (keys units) -> exclusive (by_component units).
Proof.
  unfold exclusive, by_component, keys. induction units as [|[c u] units IH]; simpl; intros H; constructor.
  - inversion H as [|? ? Hc _]; subst. apply Forall_forall. intros q Hq. apply in_map_iff in Hq as ([c' u'] & <- & Hin).
    cbn [fst]. intros lab Hs. apply starts_one in Hs as (tl & ->).
    destruct (starts_with [c'] (c :: tl)) eqn:E; [|easy]. apply starts_one in E as (tl' & [= -> _]).
    exfalso. apply Hc. apply in_map_iff. now exists (c', u').
  - inversion H; subst. now apply IH.
Qed.

Lemma by_component_assigned units lab d : lab <> [] ->
  assigned (by_component units) lab d
  = match dget (hd "" lab) units with Some u => Some u | None => d end.
Proof.
  intros Hne. unfold assigned, by_component. induction units as [|[c u] units IH]; cbn [map find dget fst snd]; [easy|].
  destruct lab as [|x lab]; [easy|]. cbn [starts_with hd] in *. rewrite andb_true_r.
  rewrite (String.eqb_sym x c). destruct (String.eqb_spec c x); [easy|]. exact IH.
Qed.

Lemma no_units_labels t : map fst (no_units t) = map fst t.
Proof. unfold no_units. rewrite map_map. now apply map_ext. Qed.

Lemma component_units_spec units t : 
  (forall c, In c (keys units) -> exists lab, In lab (map fst t) /\ starts_with [c] lab = true) ->
  component_units units t = Ok (apply_all (by_component units) (no_units t)).
Proof.
  unfold component_units, apply_all, by_component. intros H.
  assert (G : forall us, map fst us = map fst t ->
    foldM (fun us cu => if has_prefix [fst cu] us then Ok (assign_units [fst cu] (Some (snd cu)) us) else Err KeyError)
          us units
    = Ok (fold_left (fun us p => assign_units (fst p) (snd p) us)
            (map (fun cu : string * string => ([fst cu], Some (snd cu))) units) us)).
  { induction units as [|[c u] units IH]; intros us Hus; [easy|]. cbn [foldM map fold_left fst snd].
    assert (has_prefix [c] us = true) as ->.
    { apply has_prefix_true. rewrite Hus. apply H. now left. }
    cbn [bind]. apply IH.
    - intros c' Hc'. apply H. now right.
    - now rewrite assign_labels. }
  apply G, no_units_labels.
Qed.

Section Components.
  Variables (factors : dict Qc) (units : dict string) (n : nat) (t : frame).
  Hypothesis Hn : (1 < n)%nat.
  Hypothesis Hg : good_labels n (map fst t).
  Hypothesis Hnd : NoDup (keys units).
  Hypothesis Hhas : forall lab, In lab (map fst t) -> In (hd "" lab) (keys units).
  Hypothesis Hk : known_units factors (map snd units).

  Lemma label_ne lab : In lab (map fst t) -> lab <> [].
  Proof.
    destruct Hg as (_ & _ & Hf). rewrite Forall_forall in Hf. intros H. apply Hf in H as [H _].
    intros ->. simpl in H. lia.
  Qed.

  Lemma label_cons lab : In lab (map fst t) -> exists tl, lab = hd "" lab :: tl.
  Proof. intros H. apply label_ne in H. destruct lab; [easy|]. now exists lab. Qed.

  Lemma unit_get lab : In lab (map fst t) -> dget (hd "" lab) units = Some (component_unit units lab).
  Proof.
    intros H. apply Hhas, In_keys_dget in H as (u & E). unfold component_unit. now rewrite E.
  Qed.

  Lemma unit_known lab : In lab (map fst t) ->
    exists f, dget (component_unit units lab) factors = Some f /\ f <> 0%Qc.
  Proof.
    intros H. apply unit_get, dget_In in H. unfold known_units in Hk. rewrite Forall_forall in Hk.
    apply Hk. now apply (in_map snd) in H.
  Qed.

  Lemma units_of_columns :
    apply_all (by_component units) (no_units t)
    = map (fun e => (fst e, Some (component_unit units (fst e)))) t.
  Proof.
    rewrite apply_all_spec by now apply by_component_exclusive.
    unfold no_units. rewrite map_map. apply map_ext_in. intros e He. cbn [fst snd]. f_equal.
    apply (in_map fst) in He. rewrite by_component_assigned by now apply label_ne.
    now rewrite unit_get.
  Qed.

  Lemma save_components_spec (tf : bool) us :
    us = map (fun e => (fst e, Some (component_unit units (fst e)))) t ->
    save_with_units factors tf n t us = Ok (stored_sample factors (component_unit units) tf n t).
  Proof.
    intros ->. apply save_spec.
    - intros lab H. apply in_map_iff in H as (e & <- & H). apply in_map_iff. now exists e.
    - apply Forall_forall. intros e He. apply in_map_iff in He as (e' & <- & _). easy.
    - rewrite map_map. cbn [fst]. apply Hg.
    - intros lab u H. apply in_map_iff in H as (e & [= <- <-] & H). apply unit_known. now apply in_map.
  Qed.

  Lemma unit_is lab : In lab (map fst t) -> unit_by_component units lab (component_unit units lab).
  Proof.
    intros H. exists (hd "" lab). split; [easy|]. apply dget_In. now apply unit_get.
  Qed.

  (** The units found in the file. *)
  Lemma first_units_back c : 
    (forall c, In c (keys units) -> exists lab, In lab (map fst t) /\ hd "" lab = c) ->
    dget c (first_units (map (fun e => (fst e, component_unit units (fst e))) (sort_labels t)))
    = dget c units.
  Proof.
    intros Hused. destruct (dget c units) as [u|] eqn:E.
    - apply first_units_same.
      + destruct (Hused c) as (lab & Hin & Hc); [now apply dget_Some_keys in E|].
        exists lab. split; [|easy]. apply in_map_iff in Hin as (e & <- & Hin).
        apply in_map_iff. exists e. split.
        * f_equal. unfold component_unit. rewrite Hc, E. easy.
        * eapply Permutation_in; [|exact Hin]. symmetry. apply sort_labels_perm.
      + intros lab u' Hin Hc. apply in_map_iff in Hin as (e & [= <- <-] & _).
        unfold component_unit. now rewrite Hc, E.
    - apply first_units_none. intros lab u' Hin Hc. apply in_map_iff in Hin as (e & [= <- <-] & Hin).
      apply sorted_label in Hin. apply Hhas in Hin. rewrite Hc in Hin. apply dget_None in E. easy.
  Qed.
End Components.

(** ** Damage *)

Definition padded (cu : string * string) : list string * option string :=
  ([fst cu; ""; ""; ""; ""], Some (snd cu)).

Lemma has_prefix_app p a b : has_prefix p (a ++ b) = has_prefix p a || has_prefix p b.
Proof. unfold has_prefix. apply existsb_app. Qed.

Lemma assign_app p u a b : assign_units p u (a ++ b) = assign_units p u a ++ assign_units p u b.
Proof. unfold assign_units. apply map_app. Qed.

Lemma damage_units_spec units t : NoDup (keys units) ->
  damage_units units t
  = apply_all (by_component units) (no_units t)
    ++ map padded (filter (fun cu => negb (has_prefix [fst cu] (no_units t))) units).
Proof.
  unfold damage_units, apply_all, by_component. intros Hnd.
  assert (G : forall us ex, NoDup (keys units) -> map fst us = map fst (no_units t) ->
    (forall c, In c (keys units) -> has_prefix [c] ex = false) ->
    fold_left (fun us cu => if has_prefix [fst cu] us
                          then assign_units [fst cu] (Some (snd cu)) us
                          else us ++ [([fst cu; ""; ""; ""; ""], Some (snd cu))]) units (us ++ ex)
    = fold_left (fun us p => assign_units (fst p) (snd p) us)
        (map (fun cu : string * string => ([fst cu], Some (snd cu))) units) us
      ++ ex ++ map padded (filter (fun cu => negb (has_prefix [fst cu] (no_units t))) units)).
  { clear Hnd. induction units as [|[c u] units IH]; intros us ex Hnd Hus Hex.
    - cbn. now rewrite app_nil_r.
    - cbn [fold_left map filter fst snd]. unfold keys in Hnd. cbn [map fst] in Hnd. inversion Hnd as [|? ? Hc Hnd']; subst.
      rewrite has_prefix_app, (Hex c (or_introl eq_refl)), orb_false_r.
      rewrite (has_prefix_labels [c] us (no_units t) Hus).
      destruct (has_prefix [c] (no_units t)) eqn:E; cbn [negb].
      + rewrite assign_app, (@assign_none [c] _ ex) by now apply Hex; left. apply IH; [easy| |].
        * now rewrite assign_labels.
        * intros c' Hc'. apply Hex. now right.
      + rewrite <- app_assoc. rewrite IH; [| easy | easy |].
        * rewrite assign_none by now rewrite (has_prefix_labels [c] us (no_units t) Hus).
          f_equal. rewrite <- app_assoc. f_equal.
        * intros c' Hc'. rewrite has_prefix_app, Hex by now right.
          unfold has_prefix. cbn [existsb orb fst starts_with]. rewrite andb_true_r, orb_false_r.
          destruct (String.eqb_spec c' c) as [->|]; [|easy]. now exfalso. }
  rewrite <- (app_nil_r (no_units t)) at 1. rewrite G; [easy|easy|easy|]. easy.
Qed.

Lemma save_damage_spec factors units t (tf : bool) :
  good_labels 5 (map fst t) -> NoDup (keys units) ->
  (forall lab, In lab (map fst t) -> In (hd "" lab) (keys units)) ->
  known_units factors (map snd units) ->
  save_damage factors tf units (Some t) = Ok (Some (stored_sample factors (component_unit units) tf 5 t)).
Proof.
  intros Hg Hnd Hhas Hk. unfold save_damage. rewrite damage_units_spec by easy.
  assert (H5 : (1 < 5)%nat) by lia.
  rewrite (@units_of_columns units 5 t H5 Hg Hnd Hhas).
  rewrite (@save_spec factors tf 5 t _ (component_unit units)); [easy| | | |].
  - intros lab H. apply in_or_app. left. apply in_map_iff in H as (e & <- & H). apply in_map_iff. now exists e.
  - apply Forall_forall. intros e He. apply in_app_or in He as [He|He]; apply in_map_iff in He as (e' & <- & _); easy.
  - rewrite map_app, !map_map. cbn [fst padded]. apply NoDup_app_intro.
    + apply Hg.
    + assert (Hf : NoDup (map fst (filter (fun cu : string * string => negb (has_prefix [fst cu] (no_units t))) units))).
      { clear -Hnd. unfold keys in Hnd. induction units as [|cu us IH]; simpl; [constructor|].
        inversion Hnd; subst. destruct (negb _); simpl; [|now apply IH]. constructor; [|now apply IH].
        intros Hin. apply H1. apply in_map_iff in Hin as (x & E & Hin). apply filter_In in Hin as [Hin _].
        apply in_map_iff. now exists x. }
      revert Hf. generalize (filter (fun cu : string * string => negb (has_prefix [fst cu] (no_units t))) units).
      intros l. induction l as [|cu l IH]; simpl; intros Hl; [constructor|]. inversion Hl; subst. constructor; [|now apply IH].
      intros Hin. apply in_map_iff in Hin as (x & [= E] & Hin). apply H1. apply in_map_iff. now exists x.
    + intros lab H1 H2. apply in_map_iff in H2 as (cu & <- & Hin). apply filter_In in Hin as [_ Hin].
      apply Bool.negb_true_iff in Hin. assert (has_prefix [fst cu] (no_units t) = true); [|congruence].
      apply has_prefix_true. exists [fst cu; ""; ""; ""; ""]. rewrite no_units_labels. split; [easy|].
      simpl. now rewrite String.eqb_refl.
  - intros lab u H. apply in_app_or in H as [H|H].
    + apply in_map_iff in H as (e & [= <- <-] & H). apply (@unit_known factors units t Hhas Hk). now apply in_map.
    + apply in_map_iff in H as (cu & [= <- <-] & H). apply filter_In in H as [H _].
      unfold known_units in Hk. rewrite Forall_forall in Hk. apply Hk. now apply in_map.
Qed.

(** A component without a unit. *)
Lemma save_damage_missing factors units t tf lab : NoDup (keys units) ->
  In lab (map fst t) -> lab <> [] -> ~ In (hd "" lab) (keys units) ->
  save_damage factors tf units (Some t) = Err KeyError.
Proof.
  intros Hnd Hin Hne Hno. unfold save_damage, save_with_units. rewrite damage_units_spec by easy.
  rewrite (@all_units_missing _ lab); [easy|]. apply in_or_app. left.
  rewrite apply_all_spec by now apply by_component_exclusive. unfold no_units. rewrite map_map. cbn [fst snd].
  apply in_map_iff in Hin as (e & <- & Hin). apply in_map_iff. exists e. split; [|easy]. f_equal.
  rewrite by_component_assigned by easy. apply dget_None in Hno. now rewrite Hno.
Qed.

(** ** Losses *)

Definition by_pair (params : loss_unit_table) : partial_units :=
  map (fun p => ([snd (fst p); fst (fst p)], snd p)) params.

Definition pair_unit (params : loss_unit_table) (lab : list string) : string :=
  match assigned (by_pair params) lab None with Some u => u | None => "" end.

Lemma starts_two a b lab : starts_with [a; b] lab = true <-> exists tl, lab = a :: b :: tl.
Proof.
  destruct lab as [|x [|y lab]]; simpl.
  - split; [easy|]. intros (tl & [=]).
  - rewrite andb_false_r. split; [easy|]. intros (tl & [=]).
  - rewrite andb_true_r, andb_true_iff, !String.eqb_eq. split.
    + intros [-> ->]. now exists lab.
    + now intros (tl & [= -> -> _]).
Qed.

Lemma by_pair_exclusive params : NoDup (map fst params) -> exclusive (by_pair params).
Proof.
  unfold exclusive, by_pair. induction params as [|[[c dv] u] params IH]; simpl; intros H; constructor.
  - inversion H as [|? ? Hc _]; subst. apply Forall_forall. intros q Hq.
    apply in_map_iff in Hq as ([[c' dv'] u'] & <- & Hin).
    cbn [fst snd]. intros lab Hs. apply starts_two in Hs as (tl & ->).
    destruct (starts_with [dv'; c'] (dv :: c :: tl)) eqn:E; [|easy]. apply starts_two in E as (tl' & [= -> -> _]).
    exfalso. apply Hc. apply in_map_iff. now exists (c', dv', u').
  - inversion H; subst. now apply IH.
Qed.

Lemma by_pair_assigned params dv c u tl d : NoDup (map fst params) -> In (c, dv, u) params ->
  assigned (by_pair params) (dv :: c :: tl) d = u.
Proof.
  intros Hnd Hin. unfold assigned, by_pair. induction params as [|[[c' dv'] u'] params IH]; [easy|].
  cbn [map find fst snd]. inversion Hnd as [|? ? Hc Hnd']; subst.
  destruct (starts_with [dv'; c'] (dv :: c :: tl)) eqn:E.
  - apply starts_two in E as (tl' & [= -> -> _]). destruct Hin as [Hin|Hin]; [now injection Hin|].
    exfalso. apply Hc. apply in_map_iff. now exists (c', dv', u).
  - destruct Hin as [[= -> -> ->]|Hin].
    + exfalso. simpl in E. now rewrite !String.eqb_refl in E.
    + now apply IH.
Qed.

Lemma loss_units_spec params t :
  (forall lab, In lab (map fst t) -> (2 <= List.length lab)%nat) ->
  (forall c dv u, In (c, dv, u) params ->
     (exists lab, In lab (map fst t) /\ nth 0 lab "" = dv) ->
     (exists lab, In lab (map fst t) /\ nth 1 lab "" = c) ->
     exists lab, In lab (map fst t) /\ nth 0 lab "" = dv /\ nth 1 lab "" = c) ->
  loss_units params t = Ok (apply_all (by_pair (isort pair_le params)) (no_units (sort_labels t))).
Proof.
  intros Hlen Horph. unfold loss_units.
  assert (Es : sort_labels (no_units t) = no_units (sort_labels t)).
  { unfold no_units. apply (sort_labels_map (fun _ (_ : list num) => @None string)). }
  rewrite Es.
  assert (Hmap : map fst (no_units (sort_labels t)) = map fst (sort_labels t)) by apply no_units_labels.
  set (st := no_units (sort_labels t)) in *.
  assert (Hin : forall lab, In lab (map fst st) <-> In lab (map fst t)).
  { intros lab. rewrite Hmap. split; apply Permutation_in, Permutation_map; [|symmetry]; apply sort_labels_perm. }
  assert (Hp : forall c dv u, In (c, dv, u) (isort pair_le params) -> In (c, dv, u) params).
  { intros c dv u. apply Permutation_in. symmetry. apply isort_perm. }
  unfold apply_all, by_pair.
  assert (G : forall ps us, (forall c dv u, In (c, dv, u) ps -> In (c, dv, u) params) -> map fst us = map fst st ->
    foldM (fun us p => let '(cmp, dv, u) := p in
           if mem dv (map (fun e => nth 0 (fst e) "") st) && mem cmp (map (fun e => nth 1 (fst e) "") st)
           then if has_prefix [dv; cmp] us then Ok (assign_units [dv; cmp] u us) else Err KeyError
           else Ok us) us ps
    = Ok (fold_left (fun us p => assign_units (fst p) (snd p) us)
            (map (fun p : string * string * option string => ([snd (fst p); fst (fst p)], snd p)) ps) us)).
  { induction ps as [|[[c dv] u] ps IH]; intros us Hps Hus; [easy|]. cbn [foldM map fold_left fst snd].
    destruct (mem dv _ && mem c _) eqn:E.
    - apply andb_true_iff in E as [E1 E2]. apply mem_true, in_map_iff in E1 as (e1 & Ee1 & H1).
      apply mem_true, in_map_iff in E2 as (e2 & Ee2 & H2).
      destruct (Horph c dv u) as (lab & Hl & H0 & Hc).
      { apply Hps. now left. }
      { exists (fst e1). split; [|easy]. apply Hin. now apply in_map. }
      { exists (fst e2). split; [|easy]. apply Hin. now apply in_map. }
      assert (has_prefix [dv; c] us = true) as ->.
      { apply has_prefix_true. exists lab. rewrite Hus. split; [now apply Hin|]. apply starts_two.
        pose proof (Hlen lab Hl) as Hll. destruct lab as [|x [|y lab]]; simpl in *; try lia. subst. now exists lab. }
      cbn [bind]. apply IH; [|now rewrite assign_labels]. intros; apply Hps; now right.
    - cbn [bind]. rewrite assign_none.
      + apply IH; [|easy]. intros; apply Hps; now right.
      + destruct (has_prefix [dv; c] us) eqn:Ep; [|easy]. apply has_prefix_true in Ep as (lab & Hl & Hs).
        apply starts_two in Hs as (tl & ->). rewrite Hus in Hl. apply in_map_iff in Hl as (e & Ee & He).
        apply andb_false_iff in E as [E|E]; apply mem_false in E; exfalso; apply E, in_map_iff; exists e;
          rewrite Ee; easy. }
  now apply G.
Qed.

Lemma save_loss_spec factors params t (tf : bool) :
  good_labels 7 (map fst t) -> NoDup (map fst params) ->
  (forall lab, In lab (map fst t) -> exists u f, unit_by_pair params lab u /\ dget u factors = Some f /\ f <> 0%Qc) ->
  (forall c dv u, In (c, dv, u) params ->
     (exists lab, In lab (map fst t) /\ nth 0 lab "" = dv) ->
     (exists lab, In lab (map fst t) /\ nth 1 lab "" = c) ->
     exists lab, In lab (map fst t) /\ nth 0 lab "" = dv /\ nth 1 lab "" = c) ->
  save_loss factors tf (Some params) (Some t)
    = Ok (stored_sample factors (pair_unit (isort pair_le params)) tf 7 t) /\
  (forall lab u, In lab (map fst t) -> unit_by_pair params lab u -> pair_unit (isort pair_le params) lab = u).
Proof.
  intros Hg Hnd Hu Horph. unfold save_loss.
  assert (Hlen : forall lab, In lab (map fst t) -> (2 <= List.length lab)%nat).
  { destruct Hg as (_ & _ & Hf). rewrite Forall_forall in Hf. intros lab H. apply Hf in H as [-> _]. lia. }
  assert (Hnd' : NoDup (map fst (isort pair_le params))).
  { eapply Permutation_NoDup; [|exact Hnd]. apply Permutation_map, isort_perm. }
  assert (Ha : forall lab u d, In lab (map fst t) -> unit_by_pair params lab u ->
             assigned (by_pair (isort pair_le params)) lab d = Some u).
  { intros lab u d Hin (dv & c & [H0 H1] & Hp). pose proof (Hlen lab Hin) as Hl.
    destruct lab as [|x [|y tl]]; simpl in *; try lia. subst.
    apply by_pair_assigned; [easy|]. eapply Permutation_in; [apply isort_perm|exact Hp]. }
  assert (Hpu : forall lab u, In lab (map fst t) -> unit_by_pair params lab u -> pair_unit (isort pair_le params) lab = u).
  { intros lab u Hin Hp. unfold pair_unit. now rewrite (Ha lab u None). }
  split; [|exact Hpu].
  rewrite loss_units_spec by easy. cbn [bind].
  rewrite apply_all_spec by now apply by_pair_exclusive. unfold no_units. rewrite map_map. cbn [fst snd].
  rewrite (@save_spec factors tf 7 t _ (pair_unit (isort pair_le params))); [easy| | | |].
  - intros lab Hin. destruct (Hu lab Hin) as (u & f & Hp & _).
    apply in_map_iff in Hin as (e & <- & Hin). apply in_map_iff. exists e. split.
    + f_equal. rewrite (Hpu _ u); [|now apply in_map|easy]. apply Ha; [now apply in_map|easy].
    + eapply Permutation_in; [|exact Hin]. symmetry. apply sort_labels_perm.
  - apply Forall_forall. intros e He. apply in_map_iff in He as (e' & <- & He). cbn [snd].
    apply sorted_label in He. destruct (Hu _ He) as (u & f & Hp & _). now rewrite (Ha _ u).
  - rewrite map_map. cbn [fst]. eapply Permutation_NoDup; [|exact (proj1 (proj2 Hg))].
    apply Permutation_map. symmetry. apply sort_labels_perm.
  - intros lab u H. apply in_map_iff in H as (e & [= <- E] & He). apply sorted_label in He.
    destruct (Hu _ He) as (u' & f & Hp & Hf). rewrite (Ha _ u') in E by easy. injection E as <-. now exists f.
Qed.

(** A pair of which both parts occur, but not together. *)
Lemma loss_units_orphan params t c dv u :
  In (c, dv, u) params ->
  (exists lab, In lab (map fst t) /\ nth 0 lab "" = dv) ->
  (exists lab, In lab (map fst t) /\ nth 1 lab "" = c) ->
  (forall lab, In lab (map fst t) -> ~ (nth 0 lab "" = dv /\ nth 1 lab "" = c)) ->
  loss_units params t = Err KeyError.
Proof.
  intros Hin Hdv Hc Hno. unfold loss_units.
  assert (Hl : forall lab, In lab (map fst (sort_labels (no_units t))) <-> In lab (map fst t)).
  { intros lab. rewrite <- (no_units_labels t).
    split; apply Permutation_in, Permutation_map; [|symmetry]; apply sort_labels_perm. }
  set (st := sort_labels (no_units t)) in *.
  assert (Hin' : In (c, dv, u) (isort pair_le params)) by (eapply Permutation_in; [apply isort_perm|exact Hin]).
  assert (G : forall ps us, In (c, dv, u) ps -> map fst us = map fst st ->
    foldM (fun us p => let '(cmp, dv, u) := p in
           if mem dv (map (fun e => nth 0 (fst e) "") st) && mem cmp (map (fun e => nth 1 (fst e) "") st)
           then if has_prefix [dv; cmp] us then Ok (assign_units [dv; cmp] u us) else Err KeyError
           else Ok us) us ps = Err KeyError).
  { induction ps as [|[[c' dv'] u'] ps IH]; intros us Hps Hus; [easy|]. cbn [foldM].
    destruct Hps as [[= -> -> ->]|Hps].
    - assert (mem dv (map (fun e => nth 0 (fst e) "") st) = true) as ->.
      { apply mem_true. destruct Hdv as (lab & Hlab & <-). apply Hl in Hlab. apply in_map_iff in Hlab as (e & <- & He).
        apply in_map_iff. now exists e. }
      assert (mem c (map (fun e => nth 1 (fst e) "") st) = true) as ->.
      { apply mem_true. destruct Hc as (lab & Hlab & <-). apply Hl in Hlab. apply in_map_iff in Hlab as (e & <- & He).
        apply in_map_iff. now exists e. }
      cbn [andb]. destruct (has_prefix [dv; c] us) eqn:E; [|easy].
      apply has_prefix_true in E as (lab & Hlab & Hs). rewrite Hus in Hlab. apply Hl in Hlab.
      apply starts_two in Hs as (tl & ->). exfalso. now apply (Hno _ Hlab).
    - destruct (mem dv' _ && mem c' _); cbn [bind].
      + destruct (has_prefix [dv'; c'] us); cbn [bind]; [|easy]. apply IH; [easy|]. now rewrite assign_labels.
      + now apply IH. }
  now apply G.
Qed.

(** ** Labels without the last level *)

Lemma add_uid_distinct {A} (l : list (list string * A)) : forall seen,
  NoDup (map fst l) -> (forall lab, In lab (map fst l) -> ~ In lab seen) ->
  add_uid seen l = map (fun e => (fst e ++ ["0"], snd e)) l.
Proof.
  induction l as [|[lab a] l IH]; intros seen Hnd Hs; [easy|]. cbn [add_uid map fst snd].
  cbn [map fst] in Hnd. inversion Hnd as [|? ? Hl Hnd']; subst. f_equal.
  - rewrite filter_none; [easy|]. intros x Hx. destruct (label_eqb lab x) eqn:E; [|easy].
    apply label_eqb_eq in E. subst. exfalso. apply (Hs x); [now left|easy].
  - apply IH; [easy|]. intros x Hx Hin. apply in_app_or in Hin as [Hin|[<-|[]]]; [|easy].
    apply (Hs x); [now right|easy].
Qed.

Lemma dedupe_distinct {A} (l : list (list string * A)) : NoDup (map fst l) ->
  Permutation (dedupe_index l) (map (fun e => (fst e ++ ["0"], snd e)) l).
Proof.
  intros H. unfold dedupe_index. rewrite add_uid_distinct by easy. symmetry. apply isort_perm.
Qed.

(** Any table with units. *)
Lemma saved_table factors units n (t : frame) :
  (1 < n)%nat -> good_labels n (map fst t) ->
  NoDup (map fst units) -> known_units factors (map snd units) ->
  exists s us, save_columns (Some factors) (Some units) true n t = Ok s /\
    load_columns (Some factors) s = Ok (sort_labels t, Some us) /\ column_levels s = n /\
    (forall lab u, In (lab, u) us <-> In (lab, u) units /\ In lab (map fst t)).
Proof.
  intros Hn Hg Hnd Hk. destruct (round_trip factors units true n t) as (s & us & Hs & Hl & Hu); try easy; [lia|].
  exists s, us. split; [easy|]. split; [easy|]. split; [|easy].
  rewrite save_ok in Hs by easy. injection Hs as <-. unfold column_levels. cbn [header].
  destruct (@good_sorted n t Hg) as (Hne & _ & Hf).
  unfold make_axis. destruct (Nat.ltb_spec 1 n); [|lia]. now rewrite simple_multi_round_trip.
Qed.
