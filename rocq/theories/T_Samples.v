(** Property theorems: saved samples of components, damage and losses (C100-C103). *)
From Coq Require Import Sorting.Permutation Sorting.Sorted.
From Verif Require Import Prelude PreludeFacts Pandas PandasFacts M_Base S_Base P_Base
  M_FileIO S_FileIO P_FileIO M_Samples S_Samples P_Samples.
Local Open Scope string_scope.
Local Open Scope list_scope.

(** * C100 A component sample survives saving and loading *)

(** The file holds every column in the unit of its component; loading it gives the same sample
    and units, and saving what was loaded gives the same file. *)
Theorem C100_components_partial : forall factors a,
  good_labels 4 (map fst (cmp_sample a)) ->
  NoDup (keys (cmp_units a)) -> known_units factors (map snd (cmp_units a)) ->
  (forall lab vs, In (lab, vs) (cmp_sample a) -> In (hd "" lab) (keys (cmp_units a))) ->
  (forall c u, In (c, u) (cmp_units a) -> exists lab vs, In (lab, vs) (cmp_sample a) /\ component_of lab c) ->
  exists s a',
    save_cmp_sample factors true a = Ok s /\
    written factors (unit_by_component (cmp_units a)) in_file (cmp_sample a) s /\
    load_cmp_sample factors s = Ok a' /\
    same_columns (cmp_sample a) (cmp_sample a') /\
    (forall c, dget c (cmp_units a') = dget c (cmp_units a)) /\
    save_cmp_sample factors true a' = Ok s.
Proof.
  intros factors a Hg Hnd Hk Hhas Hused.
  assert (Hhas' : forall lab, In lab (map fst (cmp_sample a)) -> In (hd "" lab) (keys (cmp_units a))).
  { intros lab H. apply in_map_iff in H as ([l vs] & <- & H). now apply (Hhas l vs). }
  assert (Hused' : forall c, In c (keys (cmp_units a)) -> exists lab, In lab (map fst (cmp_sample a)) /\ hd "" lab = c).
  { intros c H. unfold keys in H. apply in_map_iff in H as ([c' u] & <- & H). destruct (Hused c' u H) as (lab & vs & Hin & Hc).
    exists lab. split; [now apply (in_map fst) in Hin|easy]. }
  assert (H4 : (1 < 4)%nat) by lia.
  assert (Hpre : forall c, In c (keys (cmp_units a)) ->
            exists lab, In lab (map fst (cmp_sample a)) /\ starts_with [c] lab = true).
  { intros c H. destruct (Hused' c H) as (lab & Hin & <-). exists lab. split; [easy|]. apply starts_one.
    now apply (@label_cons 4 _ H4 Hg). }
  assert (Hsave : save_cmp_sample factors true a
                  = Ok (stored_sample factors (component_unit (cmp_units a)) true 4 (cmp_sample a))).
  { unfold save_cmp_sample. rewrite component_units_spec by easy. cbn [bind].
    apply save_components_spec; try easy. now apply (@units_of_columns _ 4). }
  pose proof (@unit_known factors (cmp_units a) (cmp_sample a) Hhas' Hk) as Huk.
  exists (stored_sample factors (component_unit (cmp_units a)) true 4 (cmp_sample a)).
  eexists. split; [exact Hsave|]. split.
  { apply (@stored_written factors _ true 4); try easy. intros lab Hl. now apply (@unit_is (cmp_units a) (cmp_sample a)). }
  split.
  { unfold load_cmp_sample. rewrite load_stored by easy. cbn [bind snd]. rewrite stored_levels by easy.
    cbn [Nat.eqb bind fst]. reflexivity. }
  cbn [cmp_sample cmp_units]. split; [split; [apply sort_labels_perm|apply sort_labels_sorted]|].
  assert (Hfirst : forall c, dget c (first_units (map (fun e => (fst e, component_unit (cmp_units a) (fst e)))
                        (sort_labels (cmp_sample a)))) = dget c (cmp_units a)).
  { intros c. now apply first_units_back. }
  split; [exact Hfirst|].
  set (us' := first_units _) in *.
  assert (Hnd' : NoDup (keys us')).
  { unfold us', first_units, keys. set (l := map _ (map _ _)).
    pose proof (groupby_NoDup String.eqb str_le String.eqb_eq l) as Hgn. revert Hgn.
    generalize (groupby String.eqb str_le l). intros g. induction g as [|[k vs] g IH]; cbn [flat_map map fst snd]; [constructor|].
    intros Hn. inversion Hn as [|? ? Hk1 Hn1]; subst. destruct vs as [|v vs]; cbn [app map fst]; [now apply IH|].
    constructor; [|now apply IH]. intros Hin. apply Hk1. apply in_map_iff in Hin as ([k2 u2] & E & Hin). cbn in E. subst.
    apply in_flat_map in Hin as ([k3 vs3] & Hin & H3). cbn [fst snd] in H3. destruct vs3; [easy|]. destruct H3 as [[= -> _]|[]].
    now apply (in_map fst) in Hin. }
  assert (Hkeys : forall c, In c (keys us') <-> In c (keys (cmp_units a))).
  { intros c. split; intros H; apply In_keys_dget in H as (u & E).
    - rewrite Hfirst in E. now apply dget_Some_keys in E.
    - rewrite <- Hfirst in E. now apply dget_Some_keys in E. }
  assert (Hlab : forall lab, In lab (map fst (sort_labels (cmp_sample a))) <-> In lab (map fst (cmp_sample a))).
  { intros lab. split; apply Permutation_in, Permutation_map; [|symmetry]; apply sort_labels_perm. }
  assert (Hcu : forall lab, component_unit us' lab = component_unit (cmp_units a) lab).
  { intros lab. unfold component_unit. now rewrite Hfirst. }
  unfold save_cmp_sample. cbn [cmp_units cmp_sample]. rewrite component_units_spec.
  2:{ intros c Hc. destruct (Hpre c) as (lab & Hin & Hs); [now apply Hkeys|]. exists lab. split; [now apply Hlab|easy]. }
  cbn [bind].
  assert (Hg' : good_labels 4 (map fst (sort_labels (cmp_sample a)))) by now apply good_sorted.
  rewrite (@save_components_spec factors us' 4 (sort_labels (cmp_sample a))).
  - f_equal. unfold stored_sample. rewrite sort_labels_idem. f_equal.
    + f_equal. apply map_ext. intros e. now rewrite Hcu.
    + apply map_ext. intros e. now rewrite Hcu.
  - exact Hg'.
  - intros lab H. apply Hkeys, Hhas', Hlab, H.
  - unfold known_units. apply Forall_forall. intros u Hu. apply in_map_iff in Hu as ([c u'] & <- & Hu).
    apply (In_dget _ _ _ Hnd') in Hu. rewrite Hfirst in Hu. apply dget_In in Hu.
    unfold known_units in Hk. rewrite Forall_forall in Hk. apply Hk. now apply (in_map snd) in Hu.
  - apply (@units_of_columns us' 4); try easy. intros lab H. apply Hkeys, Hhas', Hlab, H.
Qed.
Print Assumptions C100_components_partial.

(** Hypotheses met: two components, one of them in square feet, at two locations. *)
Definition ex_factors : dict Qc := [("ea", qz 1); ("ft2", qc (929 # 10000)); ("USD", qz 1); ("day", qz 2)].
Definition ex_asset : asset :=
  {| cmp_sample := [(["B"; "1"; "1"; "0"], [Some (qz 20); Some (qz 30)]);
                    (["A"; "2"; "1"; "0"], [Some (qz 4); None]);
                    (["A"; "1"; "1"; "0"], [Some (qz 3); Some (qz 5)])];
     cmp_units := [("B", "ft2"); ("A", "ea")];
     cmp_blocks := [(["B"; "1"; "1"; "0"], qz 2); (["A"; "2"; "1"; "0"], qz 1);
                    (["A"; "1"; "1"; "0"], qz 4)] |}.

Ltac labels :=
  repeat split; [discriminate|repeat constructor; cbn; intuition discriminate|
                 repeat constructor; unfold no_dash; cbn; intuition discriminate].
Ltac units :=
  repeat constructor; cbn; (eexists; split; [reflexivity|intros H; now apply (f_equal this) in H]).

Example C100_components_hypotheses_met :
  good_labels 4 (map fst (cmp_sample ex_asset)) /\
  NoDup (keys (cmp_units ex_asset)) /\ known_units ex_factors (map snd (cmp_units ex_asset)) /\
  (forall lab vs, In (lab, vs) (cmp_sample ex_asset) -> In (hd "" lab) (keys (cmp_units ex_asset))) /\
  (forall c u, In (c, u) (cmp_units ex_asset) ->
     exists lab vs, In (lab, vs) (cmp_sample ex_asset) /\ component_of lab c).
Proof.
  split; [labels|]. split; [repeat constructor; cbn; intuition discriminate|].
  split; [units|]. split.
  - intros lab vs [[= <- <-]|[[= <- <-]|[[= <- <-]|[]]]]; cbn; auto.
  - intros c u [[= <- <-]|[[= <- <-]|[]]].
    + exists ["B"; "1"; "1"; "0"]. eexists. split; [now left|easy].
    + exists ["A"; "2"; "1"; "0"]. eexists. split; [right; now left|easy].
Qed.

Example C100_components_concrete :
  match save_cmp_sample ex_factors true ex_asset with
  | Ok s => axis_labels (header s) = [["A-1-1-0"]; ["A-2-1-0"]; ["B-1-1-0"]] /\
            unit_row s = Some [Some "ea"; Some "ea"; Some "ft2"]
  | Err _ => False
  end.
Proof. vm_compute. split; reflexivity. Qed.

(** The number of blocks of a performance group is not part of the file: after loading, every
    group has one block. *)
Theorem C100_blocks_refuted : exists factors a s a',
  save_cmp_sample factors true a = Ok s /\ load_cmp_sample factors s = Ok a' /\
  exists lab b b', In (lab, b) (cmp_blocks a) /\ In (lab, b') (cmp_blocks a') /\
                   NoDup (map fst (cmp_blocks a)) /\ NoDup (map fst (cmp_blocks a')) /\ b <> b'.
Proof.
  exists ex_factors, ex_asset. eexists. eexists. split; [vm_compute; reflexivity|].
  split; [vm_compute; reflexivity|].
  exists ["A"; "1"; "1"; "0"], (qz 4), (qz 1). split; [cbn; auto|]. split; [left; vm_compute; reflexivity|].
  split; [repeat constructor; cbn; intuition discriminate|].
  split; [repeat constructor; cbn; intuition discriminate|].
  intros H. now apply (f_equal this) in H.
Qed.
Print Assumptions C100_blocks_refuted.

(** A table without the last level gets the identifier 0 everywhere; its values are converted
    from the units written in it. *)
Theorem C100_uid : forall factors units t,
  good_labels 3 (map fst t) -> NoDup (map fst units) -> known_units factors (map snd units) ->
  exists s a,
    save_columns (Some factors) (Some units) true 3 t = Ok s /\
    load_cmp_sample factors s = Ok a /\
    Permutation (cmp_sample a) (map (fun e => (fst e ++ ["0"], snd e)) t) /\
    Permutation (cmp_blocks a) (map (fun e => (fst e ++ ["0"], qz 1)) t).
Proof.
  intros factors units t Hg Hnd Hk.
  destruct (@saved_table factors units 3 t ltac:(lia) Hg Hnd Hk) as (s & us & Hs & Hl & Hlev & _).
  exists s. eexists. split; [exact Hs|]. split.
  { unfold load_cmp_sample. rewrite Hl. cbn [bind snd fst]. rewrite Hlev. cbn [Nat.eqb bind]. reflexivity. }
  cbn [cmp_sample cmp_blocks].
  assert (HP : Permutation (dedupe_index (sort_labels t)) (map (fun e => (fst e ++ ["0"], snd e)) t)).
  { etransitivity; [apply dedupe_distinct|].
    - apply (@good_sorted 3 t Hg).
    - apply Permutation_map, sort_labels_perm. }
  split; [exact HP|]. apply (Permutation_map (fun e => (fst e, 1%Qc))) in HP. rewrite map_map in HP. exact HP.
Qed.
Print Assumptions C100_uid.
Example C100_uid_hypotheses_met :
  good_labels 3 [["A"; "1"; "1"]; ["B"; "1"; "1"]] /\
  NoDup (map fst [(["A"; "1"; "1"], "ft2")]) /\ known_units ex_factors (map snd [(["A"; "1"; "1"], "ft2")]).
Proof. split; [labels|]. split; [repeat constructor; cbn; intuition discriminate|units]. Qed.

(** Any other number of levels is rejected. *)
Theorem C100_levels : forall factors units n t,
  (1 < n)%nat -> n <> 3%nat -> n <> 4%nat ->
  good_labels n (map fst t) -> NoDup (map fst units) -> known_units factors (map snd units) ->
  exists s, save_columns (Some factors) (Some units) true n t = Ok s /\
            load_cmp_sample factors s = Err ValueError.
Proof.
  intros factors units n t Hn H3 H4 Hg Hnd Hk.
  destruct (@saved_table factors units n t Hn Hg Hnd Hk) as (s & us & Hs & Hl & Hlev & _).
  exists s. split; [exact Hs|]. unfold load_cmp_sample. rewrite Hl. cbn [bind snd fst]. rewrite Hlev.
  apply Nat.eqb_neq in H3, H4. now rewrite H3, H4.
Qed.
Print Assumptions C100_levels.
Example C100_levels_hypotheses_met :
  good_labels 2 [["A"; "1"]; ["B"; "1"]] /\ (1 < 2)%nat /\ 2%nat <> 3%nat /\ 2%nat <> 4%nat.
Proof. split; [labels|lia]. Qed.

(** * C101 A damage sample survives saving and loading *)

(** Components of the asset that have no damage do not matter. *)
Theorem C101_damage : forall factors units t,
  good_labels 5 (map fst t) -> NoDup (keys units) -> known_units factors (map snd units) ->
  (forall lab vs, In (lab, vs) t -> In (hd "" lab) (keys units)) ->
  exists s t',
    save_damage factors true units (Some t) = Ok (Some s) /\
    written factors (unit_by_component units) in_file t s /\
    load_damage factors s = Ok t' /\ same_columns t t' /\
    save_damage factors true units (Some t') = Ok (Some s).
Proof.
  intros factors units t Hg Hnd Hk Hhas.
  assert (Hhas' : forall lab, In lab (map fst t) -> In (hd "" lab) (keys units)).
  { intros lab H. apply in_map_iff in H as ([l vs] & <- & H). now apply (Hhas l vs). }
  assert (H5 : (1 < 5)%nat) by lia.
  pose proof (@unit_known factors units t Hhas' Hk) as Huk.
  exists (stored_sample factors (component_unit units) true 5 t), (sort_labels t).
  split; [now apply save_damage_spec|]. split.
  { apply (@stored_written factors _ true 5); try easy. intros lab Hl. now apply (@unit_is units t). }
  split.
  { unfold load_damage. rewrite load_stored by easy. cbn [bind fst]. now rewrite stored_levels. }
  split; [split; [apply sort_labels_perm|apply sort_labels_sorted]|].
  rewrite save_damage_spec; try easy.
  - do 2 f_equal. unfold stored_sample. now rewrite sort_labels_idem.
  - now apply good_sorted.
  - intros lab H. apply Hhas'. eapply Permutation_in; [|exact H]. apply Permutation_map, sort_labels_perm.
Qed.
Print Assumptions C101_damage.

Definition ex_damage : frame :=
  [(["B"; "1"; "1"; "0"; "1"], [Some (qz 20); Some (qz 0)]);
   (["A"; "1"; "1"; "0"; "2"], [Some (qz 1); Some (qz 5)]);
   (["A"; "1"; "1"; "0"; "1"], [Some (qz 2); None])].
Definition ex_units : dict string := [("B", "ft2"); ("A", "ea"); ("C", "ea")].
Example C101_damage_hypotheses_met :
  good_labels 5 (map fst ex_damage) /\ NoDup (keys ex_units) /\ known_units ex_factors (map snd ex_units) /\
  (forall lab vs, In (lab, vs) ex_damage -> In (hd "" lab) (keys ex_units)).
Proof.
  split; [labels|]. split; [repeat constructor; cbn; intuition discriminate|]. split; [units|].
  intros lab vs [[= <- <-]|[[= <- <-]|[[= <- <-]|[]]]]; cbn; auto.
Qed.

(** A file with another number of levels is rejected. *)
Theorem C101_levels : forall factors units n t,
  (1 < n)%nat -> n <> 5%nat ->
  good_labels n (map fst t) -> NoDup (map fst units) -> known_units factors (map snd units) ->
  exists s, save_columns (Some factors) (Some units) true n t = Ok s /\
            load_damage factors s = Err ValueError.
Proof.
  intros factors units n t Hn H5 Hg Hnd Hk.
  destruct (@saved_table factors units n t Hn Hg Hnd Hk) as (s & us & Hs & Hl & Hlev & _).
  exists s. split; [exact Hs|]. unfold load_damage. rewrite Hl. cbn [bind snd fst]. rewrite Hlev.
  apply Nat.eqb_neq in H5. now rewrite H5.
Qed.
Print Assumptions C101_levels.
Example C101_levels_hypotheses_met : good_labels 4 [["A"; "1"; "1"; "1"]; ["B"; "1"; "1"; "1"]].
Proof. labels. Qed.

(** A damage sample can be loaded into an assessment whose asset does not list one of its
    components, but then it can no longer be saved or handed out. *)
Theorem C101_foreign_refuted : forall factors units t (tf : bool),
  good_labels 5 (map fst t) -> NoDup (keys units) ->
  (exists lab vs, In (lab, vs) t /\ ~ In (hd "" lab) (keys units)) ->
  save_damage factors tf units (Some t) = Err KeyError.
Proof.
  intros factors units t tf (_ & _ & Hf) Hnd (lab & vs & Hin & Hno). apply (in_map fst) in Hin. cbn [fst] in Hin.
  apply save_damage_missing with (lab := lab); try easy. intros ->.
  rewrite Forall_forall in Hf. apply Hf in Hin as [H _]. discriminate.
Qed.
Print Assumptions C101_foreign_refuted.
Example C101_foreign_hypotheses_met : exists s t',
  save_damage ex_factors true ex_units (Some ex_damage) = Ok (Some s) /\
  load_damage ex_factors s = Ok t' /\
  good_labels 5 (map fst t') /\
  exists lab vs, In (lab, vs) t' /\ ~ In (hd "" lab) (keys [("A", "ea")]).
Proof.
  eexists. eexists. split; [vm_compute; reflexivity|]. split; [vm_compute; reflexivity|]. split; [labels|].
  exists ["B"; "1"; "1"; "0"; "1"]. eexists. split; [right; right; now left|]. cbn. intuition discriminate.
Qed.

(** * C102 A loss sample survives saving and loading *)

(** Every column has a unit, and the parameters list no decision variable for a component of
    which both occur in the sample, but not together. *)
Theorem C102_losses_partial : forall factors params t,
  good_labels 7 (map fst t) -> NoDup (map fst params) ->
  (forall lab vs, In (lab, vs) t ->
     exists u f, unit_by_pair params lab u /\ dget u factors = Some f /\ f <> 0%Qc) ->
  (forall c dv u, In (c, dv, u) params ->
     (exists lab vs, In (lab, vs) t /\ nth 0 lab "" = dv) ->
     (exists lab vs, In (lab, vs) t /\ nth 1 lab "" = c) ->
     exists lab vs, In (lab, vs) t /\ loss_column lab dv c) ->
  exists s t' dv_units,
    save_loss factors true (Some params) (Some t) = Ok s /\
    written factors (unit_by_pair params) in_file t s /\
    load_loss factors s = Ok (t', dv_units) /\ same_columns t t' /\
    (forall dv u, (exists lab vs, In (lab, vs) t /\ nth 0 lab "" = dv) ->
       (forall lab vs, In (lab, vs) t -> nth 0 lab "" = dv -> unit_by_pair params lab u) ->
       dget dv dv_units = Some u) /\
    (forall dv, In dv (keys dv_units) <-> exists lab vs, In (lab, vs) t /\ nth 0 lab "" = dv).
Proof.
  intros factors params t Hg Hnd Hu Horph.
  assert (Hfr : forall (Q : list string -> Prop),
     (exists lab, In lab (map fst t) /\ Q lab) <-> (exists lab vs, In (lab, vs) t /\ Q lab)).
  { intros Q. split.
    - intros (lab & H & HQ). apply in_map_iff in H as ([l vs] & <- & H). now exists l, vs.
    - intros (lab & vs & H & HQ). exists lab. split; [now apply (in_map fst) in H|easy]. }
  assert (Hu' : forall lab, In lab (map fst t) ->
     exists u f, unit_by_pair params lab u /\ dget u factors = Some f /\ f <> 0%Qc).
  { intros lab H. apply in_map_iff in H as ([l vs] & <- & H). now apply (Hu l vs). }
  destruct (@save_loss_spec factors params t true Hg Hnd Hu') as [Hsave Hpu].
  { intros c dv u Hp H1 H2. apply (Hfr (fun lab => nth 0 lab "" = dv /\ nth 1 lab "" = c)).
    apply (Horph c dv u Hp); [now apply (Hfr (fun lab => nth 0 lab "" = dv))|now apply (Hfr (fun lab => nth 1 lab "" = c))]. }
  set (col := pair_unit (isort pair_le params)) in *.
  assert (H7 : (1 < 7)%nat) by lia.
  assert (Hk : forall lab, In lab (map fst t) -> exists f, dget (col lab) factors = Some f /\ f <> 0%Qc).
  { intros lab H. destruct (Hu' lab H) as (u & f & Hp & Hf). exists f. now rewrite (Hpu lab u H Hp). }
  assert (Hlab0 : forall lab, In lab (map fst t) -> hd "" lab = nth 0 lab "") by now intros [|].
  exists (stored_sample factors col true 7 t). eexists. eexists. split; [exact Hsave|]. split.
  { apply (@stored_written factors _ true 7); try easy. intros lab Hl.
    destruct (Hu' lab Hl) as (u & f & Hp & _). now rewrite (Hpu lab u Hl Hp). }
  split.
  { unfold load_loss. rewrite load_stored by easy. cbn [bind snd]. rewrite stored_levels by easy.
    cbn [Nat.eqb negb bind fst]. reflexivity. }
  split; [split; [apply sort_labels_perm|apply sort_labels_sorted]|].
  split.
  - intros dv u Hex Hall. apply first_units_same.
    + destruct Hex as (lab & vs & Hin & Hdv). exists lab.
      assert (Hl : In lab (map fst t)) by now apply (in_map fst) in Hin.
      split; [|now rewrite Hlab0]. apply in_map_iff. exists (lab, vs). cbn [fst]. split.
      * f_equal. apply Hpu; [easy|]. now apply (Hall lab vs).
      * eapply Permutation_in; [|exact Hin]. symmetry. apply sort_labels_perm.
    + intros lab u' Hin Hdv. apply in_map_iff in Hin as ([l vs] & [= <- <-] & Hin). cbn [fst].
      apply (Permutation_in _ (sort_labels_perm t)) in Hin.
      assert (Hl : In l (map fst t)) by now apply (in_map fst) in Hin.
      apply Hpu; [easy|]. apply (Hall l vs); [easy|]. now rewrite <- Hlab0.
  - intros dv. split.
    + intros H. apply In_keys_dget in H as (u & E). rewrite first_units_get in E.
      destruct (group_rows _ _ _) as [|u' r] eqn:Eg; [discriminate|].
      assert (Hin : In u' (u' :: r)) by now left. rewrite <- Eg in Hin.
      apply (In_group_rows String.eqb String.eqb_eq) in Hin. apply in_map_iff in Hin as ([l v] & [= <- <-] & Hin).
      apply in_map_iff in Hin as ([l2 vs] & [= <- <-] & Hin). cbn [fst].
      apply (Permutation_in _ (sort_labels_perm t)) in Hin. exists l2, vs. split; [easy|].
      symmetry. apply Hlab0. now apply (in_map fst) in Hin.
    + intros (lab & vs & Hin & Hdv). destruct (dget dv (first_units (map (fun e => (fst e, col (fst e))) (sort_labels t)))) eqn:E.
      { now apply dget_Some_keys in E. }
      exfalso. rewrite first_units_get in E.
      assert (Hg2 : In (col lab) (group_rows String.eqb dv (map (fun e : list string * string => (hd "" (fst e), snd e))
                   (map (fun e => (fst e, col (fst e))) (sort_labels t))))).
      { apply (In_group_rows String.eqb String.eqb_eq). apply in_map_iff. exists (lab, col lab). split.
        - cbn [fst snd]. f_equal. rewrite Hlab0; [easy|]. now apply (in_map fst) in Hin.
        - apply in_map_iff. exists (lab, vs). split; [easy|].
          eapply Permutation_in; [|exact Hin]. symmetry. apply sort_labels_perm. }
      destruct (group_rows _ _ _); [easy|discriminate].
Qed.
Print Assumptions C102_losses_partial.

Definition ex_loss : frame :=
  [(["Time"; "A"; "A"; "1"; "1"; "1"; "0"], [Some (qz 4); Some (qz 6)]);
   (["Cost"; "B"; "B"; "1"; "1"; "1"; "0"], [Some (qz 100); Some (qz 0)]);
   (["Cost"; "A"; "A"; "2"; "1"; "1"; "0"], [Some (qz 10); None])].
Definition ex_params : loss_unit_table :=
  [("B", "Cost", Some "USD"); ("A", "Time", Some "day"); ("A", "Cost", Some "USD"); ("C", "Cost", None)].
Example C102_losses_hypotheses_met :
  good_labels 7 (map fst ex_loss) /\ NoDup (map fst ex_params) /\
  (forall lab vs, In (lab, vs) ex_loss ->
     exists u f, unit_by_pair ex_params lab u /\ dget u ex_factors = Some f /\ f <> 0%Qc) /\
  (forall c dv u, In (c, dv, u) ex_params ->
     (exists lab vs, In (lab, vs) ex_loss /\ nth 0 lab "" = dv) ->
     (exists lab vs, In (lab, vs) ex_loss /\ nth 1 lab "" = c) ->
     exists lab vs, In (lab, vs) ex_loss /\ loss_column lab dv c).
Proof.
  split; [labels|]. split; [repeat constructor; cbn; intuition discriminate|]. split.
  - intros lab vs [[= <- <-]|[[= <- <-]|[[= <- <-]|[]]]].
    + exists "day", (qz 2). split; [exists "Time", "A"; split; [easy|cbn; auto]|]. split; [easy|]. intros H; now apply (f_equal this) in H.
    + exists "USD", (qz 1). split; [exists "Cost", "B"; split; [easy|cbn; auto]|]. split; [easy|]. intros H; now apply (f_equal this) in H.
    + exists "USD", (qz 1). split; [exists "Cost", "A"; split; [easy|cbn; auto]|]. split; [easy|]. intros H; now apply (f_equal this) in H.
  - intros c dv u [[= <- <- <-]|[[= <- <- <-]|[[= <- <- <-]|[[= <- <- <-]|[]]]]] _ Hc.
    + eexists. eexists. split; [right; left; reflexivity|easy].
    + eexists. eexists. split; [left; reflexivity|easy].
    + eexists. eexists. split; [right; right; left; reflexivity|easy].
    + destruct Hc as (lab & vs & [[= <- <-]|[[= <- <-]|[[= <- <-]|[]]]] & Hc); discriminate.
Qed.

(** When the parameters give a decision variable for a component that has no such column in the
    sample, although the component and the decision variable both occur, nothing can be saved. *)
Theorem C102_orphan_refuted : forall factors params t (tf : bool) c dv u,
  In (c, dv, u) params ->
  (exists lab vs, In (lab, vs) t /\ nth 0 lab "" = dv) ->
  (exists lab vs, In (lab, vs) t /\ nth 1 lab "" = c) ->
  (forall lab vs, In (lab, vs) t -> ~ loss_column lab dv c) ->
  save_loss factors tf (Some params) (Some t) = Err KeyError.
Proof.
  intros factors params t tf c dv u Hp (l1 & v1 & H1 & E1) (l2 & v2 & H2 & E2) Hno. unfold save_loss.
  rewrite (@loss_units_orphan params t c dv u); try easy.
  - exists l1. split; [now apply (in_map fst) in H1|easy].
  - exists l2. split; [now apply (in_map fst) in H2|easy].
  - intros lab Hin H. apply in_map_iff in Hin as ([l vs] & <- & Hin). now apply (Hno l vs).
Qed.
Print Assumptions C102_orphan_refuted.
(** The repair time of B is defined, but only costs of B occur in the sample. *)
Example C102_orphan_hypotheses_met :
  In ("B", "Time", Some "day") (ex_params ++ [("B", "Time", Some "day")]) /\
  (exists lab vs, In (lab, vs) ex_loss /\ nth 0 lab "" = "Time") /\
  (exists lab vs, In (lab, vs) ex_loss /\ nth 1 lab "" = "B") /\
  (forall lab vs, In (lab, vs) ex_loss -> ~ loss_column lab "Time" "B") /\
  is_ok (save_loss ex_factors true (Some ex_params) (Some ex_loss)) = true.
Proof.
  split; [cbn; auto 6|]. split; [eexists; eexists; split; [left; reflexivity|easy]|].
  split; [eexists; eexists; split; [right; left; reflexivity|easy]|]. split; [|vm_compute; reflexivity].
  intros lab vs [[= <- <-]|[[= <- <-]|[[= <- <-]|[]]]] [H1 H2]; discriminate.
Qed.

(** A loss sample without the level of identifiers cannot be loaded. *)
Theorem C102_uid_refuted : forall factors units t,
  good_labels 6 (map fst t) -> NoDup (map fst units) -> known_units factors (map snd units) ->
  exists s, save_columns (Some factors) (Some units) true 6 t = Ok s /\
            load_loss factors s = Err ValueError.
Proof.
  intros factors units t Hg Hnd Hk.
  destruct (@saved_table factors units 6 t ltac:(lia) Hg Hnd Hk) as (s & us & Hs & Hl & Hlev & _).
  exists s. split; [exact Hs|]. unfold load_loss. rewrite Hl. cbn [bind snd fst]. now rewrite Hlev.
Qed.
Print Assumptions C102_uid_refuted.
Example C102_uid_hypotheses_met :
  good_labels 6 [["Cost"; "A"; "A"; "1"; "1"; "1"]; ["Time"; "A"; "A"; "1"; "1"; "1"]].
Proof. labels. Qed.

(** * C103 A sample handed out and put back is the same sample *)

(** The tables handed out hold the sample in the units reported with them. *)
Theorem C103_tables : forall factors units t,
  good_labels 5 (map fst t) -> NoDup (keys units) -> known_units factors (map snd units) ->
  (forall lab vs, In (lab, vs) t -> In (hd "" lab) (keys units)) ->
  exists s, save_damage factors false units (Some t) = Ok (Some s) /\
            written factors (unit_by_component units) in_table t s /\
            exists t', load_damage factors s = Ok t' /\ same_columns t t'.
Proof.
  intros factors units t Hg Hnd Hk Hhas.
  assert (Hhas' : forall lab, In lab (map fst t) -> In (hd "" lab) (keys units)).
  { intros lab H. apply in_map_iff in H as ([l vs] & <- & H). now apply (Hhas l vs). }
  assert (H5 : (1 < 5)%nat) by lia.
  pose proof (@unit_known factors units t Hhas' Hk) as Huk.
  exists (stored_sample factors (component_unit units) false 5 t).
  split; [now apply save_damage_spec|]. split.
  { apply (@stored_written factors _ false 5); try easy. intros lab Hl. now apply (@unit_is units t). }
  exists (sort_labels t). split; [|split; [apply sort_labels_perm|apply sort_labels_sorted]].
  unfold load_damage. rewrite load_stored by easy. cbn [bind fst]. now rewrite stored_levels.
Qed.
Print Assumptions C103_tables.

(** Put back without its units, as regional runs do, every column ends up divided by the factor
    of its unit. *)
Theorem C103_put_back_partial : forall factors units t,
  good_labels 5 (map fst t) -> NoDup (keys units) -> known_units factors (map snd units) ->
  (forall lab vs, In (lab, vs) t -> In (hd "" lab) (keys units)) ->
  exists t', take_and_put_back factors units t = Ok t' /\
    Permutation (map fst t') (map fst t) /\
    (forall lab vs, In (lab, vs) t ->
       exists u vs', unit_by_component units lab u /\ In (lab, vs') t' /\ expressed factors u vs vs') /\
    ((forall u, In u (map snd units) -> dget u factors = Some 1%Qc) -> same_columns t t').
Proof.
  intros factors units t Hg Hnd Hk Hhas.
  assert (Hhas' : forall lab, In lab (map fst t) -> In (hd "" lab) (keys units)).
  { intros lab H. apply in_map_iff in H as ([l vs] & <- & H). now apply (Hhas l vs). }
  assert (H5 : (1 < 5)%nat) by lia.
  pose proof (@unit_known factors units t Hhas' Hk) as Huk.
  eexists. split.
  { unfold take_and_put_back. rewrite save_damage_spec by easy. cbn [bind].
    unfold load_damage. rewrite load_unlabelled by easy. cbn [bind fst].
    change (column_levels (without_units ?s)) with (column_levels s). rewrite stored_levels by easy.
    cbn [Nat.eqb]. reflexivity. }
  split; [|split].
  - rewrite map_map. cbn [fst]. apply Permutation_map, sort_labels_perm.
  - intros lab vs Hin. assert (Hl : In lab (map fst t)) by now apply (in_map fst) in Hin.
    exists (component_unit units lab), (stored factors (Some (component_unit units lab)) vs).
    split; [now apply (@unit_is units t)|]. split.
    + apply in_map_iff. exists (lab, vs). split; [easy|].
      eapply Permutation_in; [|exact Hin]. symmetry. apply sort_labels_perm.
    + now apply (@stored_expressed factors (component_unit units) t).
  - intros H1.
    assert (E : map (fun e => (fst e, stored factors (Some (component_unit units (fst e))) (snd e))) (sort_labels t)
                = sort_labels t).
    { rewrite <- (map_id (sort_labels t)) at 2. apply map_ext_in. intros [lab vs] He. cbn [fst snd]. f_equal.
      apply sorted_label in He. cbn [fst] in He. unfold stored. rewrite H1.
      - apply scale_one.
      - apply (@unit_get units t Hhas') in He. apply dget_In in He. now apply (in_map snd) in He. }
    rewrite E. split; [apply sort_labels_perm|apply sort_labels_sorted].
Qed.
Print Assumptions C103_put_back_partial.
Example C103_put_back_hypotheses_met :
  good_labels 5 (map fst ex_damage) /\ NoDup (keys [("A", "ea"); ("B", "ea")]) /\
  known_units ex_factors (map snd [("A", "ea"); ("B", "ea")]) /\
  (forall lab vs, In (lab, vs) ex_damage -> In (hd "" lab) (keys [("A", "ea"); ("B", "ea")])) /\
  (forall u, In u (map snd [("A", "ea"); ("B", "ea")]) -> dget u ex_factors = Some 1%Qc).
Proof.
  split; [labels|]. split; [repeat constructor; cbn; intuition discriminate|]. split; [units|]. split.
  - intros lab vs [[= <- <-]|[[= <- <-]|[[= <- <-]|[]]]]; cbn; auto.
  - intros u [<-|[<-|[]]]; reflexivity.
Qed.

(** A damage sample in square feet is not what it was. *)
Theorem C103_put_back_refuted : exists factors units t t',
  good_labels 5 (map fst t) /\ known_units factors (map snd units) /\
  take_and_put_back factors units t = Ok t' /\ ~ Permutation t' t.
Proof.
  exists ex_factors, ex_units, ex_damage. eexists. split; [labels|]. split; [units|].
  split; [vm_compute; reflexivity|]. intros H.
  assert (Hin : In (["B"; "1"; "1"; "0"; "1"], [Some (qz 20); Some (qz 0)]) ex_damage) by now left.
  eapply Permutation_in in Hin; [|symmetry; exact H].
  destruct Hin as [[=]|[[=]|[E|[]]]]. injection E as E. discriminate.
Qed.
Print Assumptions C103_put_back_refuted.
