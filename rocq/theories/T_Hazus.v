(** Property C123: the built-in damage processes applied to an asset. *)
From Verif Require Import Prelude PreludeFacts Pandas M_Base M_Damage S_Damage P_Proc P_Fema M_Assess S_Assess P_Assess S_Hazus P_Hazus.
Local Open Scope string_scope.
Local Open Scope list_scope.

(** Buildings: complete damage of the structure or collapse for another reason leaves collapse only;
    otherwise irreparable drifts leave these only; other realizations do not change. *)
Theorem C123_buildings_partial : forall n order components user ds, usual components -> of_asset components ds -> well_formed n ds ->
  exists ds' w, apply_process order (Some "Hazus Earthquake - Buildings") components user ds = Ok (ds', w) /\ well_formed n ds' /\ map fst ds' = map fst ds /\
  forall i, (i < n)%nat ->
    (building_collapsed components ds i -> now_collapsed ds' i) /\ (building_irreparable components ds i -> now_irreparable ds' i) /\
    (~ building_collapsed components ds i -> ~ building_irreparable components ds i -> as_before ds ds' i).
Proof.
  intros n order components user ds U O W. destruct (run_hazus n order _ "STR" building_rules components user ds (or_introl (conj eq_refl (conj eq_refl eq_refl))) U O W) as (w & E).
  eexists. exists w. split; [exact E|]. now apply building_effect.
Qed.
Print Assumptions C123_buildings_partial.
(** Lifeline facilities: the same without drifts. *)
Theorem C123_facilities_partial : forall n order components user ds, usual components -> of_asset components ds -> well_formed n ds ->
  exists ds' w, apply_process order (Some "Hazus Earthquake - Lifeline Facilities") components user ds = Ok (ds', w) /\ well_formed n ds' /\ map fst ds' = map fst ds /\
  forall i, (i < n)%nat -> (facility_collapsed components ds i -> now_collapsed ds' i) /\ (~ facility_collapsed components ds i -> as_before ds ds' i).
Proof.
  intros n order components user ds U O W. destruct (run_hazus n order _ "LF" facility_rules components user ds (or_intror (conj eq_refl (conj eq_refl eq_refl))) U O W) as (w & E).
  eexists. exists w. split; [exact E|]. now apply facility_effect.
Qed.
Print Assumptions C123_facilities_partial.
(** FEMA P-58: collapse and irreparable drifts as such, whatever the other components are called. *)
Theorem C123_fema : forall n order components user ds, of_asset components ds -> well_formed n ds ->
  exists ds' w, apply_process order (Some "FEMA P-58") components user ds = Ok (ds', w) /\ well_formed n ds' /\ map fst ds' = map fst ds /\
  forall i, (i < n)%nat ->
    (fema_collapsed ds i -> now_collapsed ds' i) /\ (fema_irreparable ds i -> now_irreparable ds' i) /\
    (~ fema_collapsed ds i -> ~ fema_irreparable ds i -> as_before ds ds' i).
Proof.
  intros n order components user ds O W. destruct (run_fema n order components user ds O W) as (w & E). eexists. exists w. split; [exact E|].
  destruct (run_fema_effect n ds W) as (H1 & H2 & H3). split; [exact H1|]. split; [exact H2|exact H3].
Qed.
Print Assumptions C123_fema.
(** No process, a hurricane, or an approach that is not known: nothing changes. *)
Theorem C123_none : forall order components user ds approach, dget approach default_damage_processes = None -> approach <> "User Defined" ->
  apply_process order None components user ds = Ok (ds, []) /\ apply_process order (Some "Hazus Hurricane") components user ds = Ok (ds, []) /\
  apply_process order (Some approach) components user ds = Ok (ds, []).
Proof.
  intros order components user ds a H N. split; [reflexivity|]. split; [reflexivity|]. unfold apply_process, damage_process. rewrite H.
  apply String.eqb_neq in N. rewrite N. reflexivity.
Qed.
Print Assumptions C123_none.

(** ** Several structural components *)

Definition two_str : ds_frame :=
  [(Blk (PG "STR.W1.LC" "1" "1" "0") "1", [5%Z; 0%Z; 3%Z; 0%Z]); (Blk (PG "STR.C1L.LC" "1" "1" "0") "1", [0%Z; 5%Z; 2%Z; 0%Z]);
   (Blk (PG "collapse" "0" "1" "0") "1", [0%Z; 0%Z; 0%Z; 0%Z]); (Blk (PG "excessiveRID" "1" "1" "0") "1", [0%Z; 0%Z; 1%Z; 0%Z]);
   (Blk (PG "irreparable" "0" "1" "0") "1", [0%Z; 0%Z; 0%Z; 0%Z])].
Definition two_components : list string := ["STR.W1.LC"; "STR.C1L.LC"; "collapse"; "excessiveRID"; "irreparable"].
Example C123_hypotheses_met : usual two_components /\ of_asset two_components two_str /\ well_formed 4 two_str /\
  exists w, apply_process (fun l => l) (Some "Hazus Earthquake - Buildings") two_components None two_str =
  Ok ([(Blk (PG "STR.W1.LC" "1" "1" "0") "1", [5%Z; (-1)%Z; (-1)%Z; 0%Z]); (Blk (PG "STR.C1L.LC" "1" "1" "0") "1", [0%Z; (-1)%Z; (-1)%Z; 0%Z]);
       (Blk (PG "collapse" "0" "1" "0") "1", [0%Z; 1%Z; 0%Z; 0%Z]); (Blk (PG "excessiveRID" "1" "1" "0") "1", [0%Z; (-1)%Z; (-1)%Z; 0%Z]);
       (Blk (PG "irreparable" "0" "1" "0") "1", [0%Z; (-1)%Z; 1%Z; 0%Z])], w).
Proof.
  split; [|split; [|split]].
  - intros c H. cbn in H. repeat (destruct H as [<- | H]; [repeat split; (reflexivity || discriminate)|]). destruct H.
  - intros b H. cbn in H. repeat (destruct H as [<- | H]; [cbn; tauto|]). destruct H.
  - split; [|repeat constructor]. cbn. repeat constructor; cbn; intuition discriminate.
  - eexists. vm_compute. reflexivity.
Qed.
(** A structural component other than the last one may be completely damaged without any effect. *)
Theorem C123_every_component_refuted : ~ (forall n order components user ds ds' w i c, usual components -> of_asset components ds -> well_formed n ds ->
  apply_process order (Some "Hazus Earthquake - Buildings") components user ds = Ok (ds', w) -> (i < n)%nat ->
  starts_with "STR." c = true -> present ds "collapse" -> in_state ds c i 5 -> in_state ds' "collapse" i 1).
Proof.
  intros H. destruct C123_hypotheses_met as (U & O & W & w & E).
  assert (X : in_state two_str "STR.W1.LC" 0 5).
  { apply (hs_spec 4); [exact W|lia|reflexivity]. }
  assert (P : present two_str "collapse") by (apply cmp_in_true; reflexivity).
  specialize (H _ _ _ _ _ _ _ 0%nat "STR.W1.LC" U O W E ltac:(lia) eq_refl P X).
  apply (hs_spec 4) in H; [discriminate H| |lia]. split; [|repeat constructor]. cbn. repeat constructor; cbn; intuition discriminate.
Qed.
Print Assumptions C123_every_component_refuted.
