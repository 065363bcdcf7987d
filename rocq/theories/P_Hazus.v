(** Proofs for property C123: the built-in damage processes as they are applied to an asset. *)
From Verif Require Import Prelude PreludeFacts Pandas PandasFacts M_Base P_Base M_Damage S_Damage P_Eval P_Qty P_Text P_Proc P_Fema M_Assess S_Assess P_Assess S_Hazus.
Local Open Scope string_scope.
Local Open Scope list_scope.

(** ** Rules that are part of the asset *)

Lemma keep_present_rules components rules : Forall (fun r : rule => has_char "_" (fst (fst r)) = false /\ has_char "_" (snd (fst r)) = false) rules ->
  keep_present components (rules_of rules) = Ok (rules_of (filter (fun r => mem (snd (fst r)) components) rules)).
Proof.
  intros Hr. unfold keep_present.
  assert (M : mapM (fun rule => match split_on "_" (fst rule) with
                                 | _ :: c :: _ => Ok (if mem c components then [rule] else [])
                                 | _ => Err IndexError
                                 end) (rules_of rules) =
          Ok (map (fun r => if mem (snd (fst r)) components then [entry (fst (fst r)) (snd (fst r)) (snd r)] else []) rules)).
  { induction Hr as [|[[o s] e] l [H1 H2] Hr IH]; [reflexivity|]. unfold rules_of in *. cbn [map mapM fst snd] in *.
    replace (split_on "_" (fst (entry o s e))) with [o; s] by (symmetry; now apply split_two). cbn [bind]. rewrite IH. reflexivity. }
  rewrite M. cbn [bind]. f_equal. clear. induction rules as [|[[o s] e] l IH]; [reflexivity|]. cbn [map List.concat filter fst snd]. rewrite IH. destruct (mem s components); reflexivity.
Qed.

(** ** Plain rules *)

(** A rule with the damage state that sets it off, its target and what becomes of this. *)
Definition desc := (rule * (Z * string * Z))%type.
Definition source (d : desc) : string := snd (fst (fst d)).
Definition good (d : desc) : Prop :=
  match d with (o, s, (ev, info), (k, tgt, v)) =>
    has_char "_" o = false /\ has_char "_" s = false /\ ends_with "-LOC" s = false /\ starts_with "DS" ev = true /\ pyint (str_drop 2 ev) = Some k /\
    exists tev, split_on "_" info = [tgt; tev] /\ parse_target_event tev = Ok v
  end.
Definition step (ds : ds_frame) (d : desc) : ds_frame := upd (taskf (source d) (fst (fst (snd d))) (snd (fst (snd d))) (snd (snd d)) ds) ds.
Definition run (l : list desc) (ds : ds_frame) : ds_frame := fold_left step l ds.

Lemma step_wf n ds d : well_formed n ds -> well_formed n (step ds d).
Proof. intros H. now apply upd_wf. Qed.
Lemma step_keys ds d : map fst (step ds d) = map fst ds.
Proof. apply upd_keys. Qed.
Lemma run_wf n l : forall ds, well_formed n ds -> well_formed n (run l ds).
Proof. induction l as [|d l IH]; intros ds H; [exact H|]. apply IH. now apply step_wf. Qed.
Lemma run_keys l : forall ds, map fst (run l ds) = map fst ds.
Proof. induction l as [|d l IH]; intros ds; [reflexivity|]. cbn. fold (run l (step ds d)). now rewrite IH, step_keys. Qed.
Lemma foldM_rules n order l : forall ds w0, Forall good l -> well_formed n ds ->
  exists w, foldM (perform_dmg_task order) (ds, w0) (as_tasks (rules_of (map fst l))) = Ok (run l ds, w).
Proof.
  induction l as [|[[[o s] [ev info]] [[k tgt] v]] l IH]; intros ds w0 G W; [cbn; eauto|]. inversion_clear G as [|? ? G1 G2].
  destruct G1 as (H1 & H2 & H3 & H4 & H5 & tev & H6 & H7).
  destruct (plain_task n order (ds, w0) (o ++ String "_" s) ev info s k tgt tev v W) as (w1 & E); try assumption.
  { unfold parse_source. rewrite split_on_app by exact H1. rewrite split_on_nochar by exact H2. now rewrite H3. }
  change (exists w, (let* st := perform_dmg_task order (ds, w0) ((o ++ String "_" s)%string, [(ev, One info)]) in
    foldM (perform_dmg_task order) st (as_tasks (rules_of (map fst l)))) = Ok (run l (step ds (o, s, (ev, info), (k, tgt, v))), w)).
  rewrite E. cbn [bind fst].
  apply (IH _ w1 G2). exact (step_wf n ds (o, s, (ev, info), (k, tgt, v)) W).
Qed.
Lemma run_filter n (keep : desc -> bool) l : forall ds, well_formed n ds -> (forall d, In d l -> keep d = false -> cmp_in (source d) ds = false) -> run (filter keep l) ds = run l ds.
Proof.
  induction l as [|d l IH]; intros ds W H; [reflexivity|]. cbn [filter]. destruct (keep d) eqn:E.
  - cbn. apply IH; [now apply step_wf|]. intros d' Hd Hk. rewrite (cmp_in_keys _ _ ds) by apply step_keys. apply H; [now right|exact Hk].
  - cbn. replace (step ds d) with ds; [apply IH; [exact W|]; intros d' Hd Hk; apply H; [now right|exact Hk]|].
    unfold step. symmetry. etransitivity; [|apply (upd_id ds)]. apply (upd_ext n ds W). intros b i x _ _. unfold taskf, hs. now rewrite (H d (or_introl eq_refl) E).
Qed.

(** ** The processes *)

Definition class_desc (c : string) : desc := ("1", c, ("DS5", "collapse_DS1"), (5%Z, "collapse", 1%Z)).
Definition effects_of (r : rule) : Z * string * Z :=
  match snd (snd r) with
  | "collapse_DS1" => (1%Z, "collapse", 1%Z)
  | "irreparable_DS1" => (1%Z, "irreparable", 1%Z)
  | "collapse_DS0" => (1%Z, "collapse", 0%Z)
  | _ => (1%Z, "ALL", (-1)%Z)
  end.
Definition descs (rules : list rule) : list desc := map (fun r => (r, effects_of r)) rules.
Lemma descs_rules rules : map fst (descs rules) = rules.
Proof. unfold descs. rewrite map_map. cbn. apply map_id. Qed.
Lemma descs_good : Forall good (descs building_rules) /\ Forall good (descs facility_rules) /\ Forall good (descs fema_rules).
Proof. repeat split; repeat constructor; try (eexists; split; reflexivity). Qed.
Lemma class_good c : has_char "_" c = false -> ends_with "-LOC" c = false -> good (class_desc c).
Proof. intros H1 H2. cbn. do 2 (split; [assumption || reflexivity|]). split; [exact H2|]. do 2 (split; [reflexivity|]). exists "DS1". split; reflexivity. Qed.

Lemma filter_descs (keep : string -> bool) (l : list desc) : map fst (filter (fun d : desc => keep (source d)) l) = filter (fun r : rule => keep (snd (fst r))) (map fst l).
Proof. induction l as [|d l IH]; [reflexivity|]. cbn [map filter]. unfold source at 1. destruct (keep (snd (fst (fst d)))); cbn; now rewrite IH. Qed.

(** Processes that are in order are run as they are, up to rules for components that are not there. *)
Lemma run_process n order components (l : list desc) ds : well_formed n ds -> of_asset components ds -> Forall good l ->
  exists w, foldM (perform_dmg_task order) (ds, []) (as_tasks (rules_of (filter (fun r => mem (snd (fst r)) components) (map fst l)))) = Ok (run l ds, w).
Proof.
  intros W O G. rewrite <- (filter_descs (fun s => mem s components)).
  destruct (foldM_rules n order (filter (fun d => mem (source d) components) l) ds []) as (w & E); [|exact W|].
  - rewrite Forall_forall in *. intros d Hd. apply filter_In in Hd as [Hd _]. now apply G.
  - exists w. rewrite E. f_equal. f_equal. apply (run_filter n); [exact W|]. intros d Hd Hk. apply mem_false in Hk.
    apply not_true_is_false. intros C. apply cmp_in_true in C as (b & Hb & Hc). apply Hk. rewrite <- Hc. now apply O.
Qed.

Lemma sort_buildings components c :
  sort_tasks (as_tasks (rules_of (filter (fun r : rule => mem (snd (fst r)) components) building_rules ++ [("1", c, ("DS5", "collapse_DS1"))]))) =
  as_tasks (rules_of (("1", c, ("DS5", "collapse_DS1")) :: filter (fun r : rule => mem (snd (fst r)) components) building_rules)).
Proof.
  unfold building_rules. cbn [filter fst snd].
  destruct (mem "excessive.coll.DEM" components), (mem "collapse" components), (mem "excessiveRID" components), (mem "irreparable" components); reflexivity.
Qed.
Lemma sort_facilities components c :
  sort_tasks (as_tasks (rules_of (filter (fun r : rule => mem (snd (fst r)) components) facility_rules ++ [("1", c, ("DS5", "collapse_DS1"))]))) =
  as_tasks (rules_of (("1", c, ("DS5", "collapse_DS1")) :: filter (fun r : rule => mem (snd (fst r)) components) facility_rules)).
Proof. unfold facility_rules. cbn [filter fst snd]. destruct (mem "collapse" components); reflexivity. Qed.
Lemma sort_rules components : let f := filter (fun r : rule => mem (snd (fst r)) components) in
  sort_tasks (as_tasks (rules_of (f building_rules))) = as_tasks (rules_of (f building_rules)) /\
  sort_tasks (as_tasks (rules_of (f facility_rules))) = as_tasks (rules_of (f facility_rules)) /\
  sort_tasks (as_tasks (rules_of (f fema_rules))) = as_tasks (rules_of (f fema_rules)).
Proof.
  cbv zeta. unfold building_rules, facility_rules, fema_rules. cbn [filter fst snd].
  destruct (mem "excessive.coll.DEM" components), (mem "collapse" components), (mem "excessiveRID" components), (mem "irreparable" components); repeat split; reflexivity.
Qed.

Definition class_descs (c : string) : list desc := if String.eqb c "" then [] else [class_desc c].
Lemma class_descs_some c : c <> "" -> class_descs c = [class_desc c].
Proof. intros H. unfold class_descs. apply String.eqb_neq in H. now rewrite H. Qed.
Lemma run_hazus n order approach class rules components user ds : hazus_default approach class rules -> usual components -> of_asset components ds -> well_formed n ds ->
  exists w, apply_process order (Some approach) components user ds =
    Ok (run (class_descs (last_match (class ++ ".") components) ++ descs rules) ds, w).
Proof.
  intros Ha Hu O W.
  assert (HL : contains (class ++ ".") "" = false) by (destruct Ha as [(_ & -> & _)|(_ & -> & _)]; reflexivity).
  assert (D : dget approach default_damage_processes = Some (entry "1" class ("DS5", "collapse_DS1") :: rules_of rules))
    by (destruct Ha as [(-> & -> & ->)|(-> & -> & ->)]; reflexivity).
  assert (Me : mem approach ["Hazus Earthquake"; "Hazus Earthquake - Buildings"; "Hazus Earthquake - Lifeline Facilities"] = true)
    by (destruct Ha as [(-> & -> & ->)|(-> & -> & ->)]; reflexivity).
  assert (Hr : Forall (fun r : rule => has_char "_" (fst (fst r)) = false /\ has_char "_" (snd (fst r)) = false) rules)
    by (destruct Ha as [(-> & -> & ->)|(-> & -> & ->)]; repeat constructor).
  assert (Hg : Forall good (descs rules)) by (destruct Ha as [(-> & -> & ->)|(-> & -> & ->)]; apply descs_good).
  assert (Nc : ~ In class components). { intros H. destruct (Hu _ H) as (_ & _ & H1 & H2). destruct Ha as [(_ & -> & _)|(_ & -> & _)]; contradiction. }
  unfold apply_process, damage_process. rewrite D, Me, cmp_map_eq. cbv zeta.
  destruct (string_dec (last_match (class ++ ".") components) "") as [E0|N0].
  - assert (SP : specialize [("STR", last_match "STR." components); ("LF", last_match "LF." components); ("NSA", last_match "NSA." components)]
         (entry "1" class ("DS5", "collapse_DS1") :: rules_of rules) = rules_of (("1", class, ("DS5", "collapse_DS1")) :: rules)).
    { apply specialize_absent_class; [|reflexivity]. destruct Ha as [(-> & -> & ->)|(-> & -> & ->)]; [left|right]; repeat split; exact E0. }
    rewrite SP, E0, keep_present_rules. 2:{ constructor; [|exact Hr]. destruct Ha as [(_ & -> & _)|(_ & -> & _)]; split; reflexivity. }
    cbn [bind filter fst snd app]. apply mem_false in Nc. rewrite Nc. unfold perform_dmg_process.
    destruct (run_process n order components (descs rules) ds W O Hg) as (w & E). exists w. rewrite descs_rules in E.
    etransitivity; [|exact E]. f_equal. destruct (sort_rules components) as (S1 & S2 & _). destruct Ha as [(_ & _ & ->)|(_ & _ & ->)]; [exact S1|exact S2].
  - set (c := last_match (class ++ ".") components) in *.
    assert (Hl : last_of_class class components c) by (now apply last_match_some).
    assert (Hin : In c components). { destruct Hl as (b & a & E & _). rewrite E. apply in_or_app. right. now left. }
    destruct (Hu _ Hin) as (Hx & He & Hs & Hf).
    assert (SP : specialize [("STR", last_match "STR." components); ("LF", last_match "LF." components); ("NSA", last_match "NSA." components)]
         (entry "1" class ("DS5", "collapse_DS1") :: rules_of rules) = rules_of (rules ++ [("1", c, ("DS5", "collapse_DS1"))])).
    { unfold rules_of. rewrite map_app. cbn [map fst snd]. destruct Ha as [(-> & -> & ->)|(-> & -> & ->)]; [now apply specialize_buildings|now apply specialize_facilities]. }
    rewrite SP, keep_present_rules. 2:{ apply Forall_app. split; [exact Hr|]. repeat constructor. exact Hx. }
    cbn [bind]. unfold perform_dmg_process. rewrite filter_app. cbn [filter fst snd]. apply mem_true in Hin. rewrite Hin.
    rewrite (class_descs_some c N0).
    destruct (run_process n order components (class_desc c :: descs rules) ds W O) as (w & E); [constructor; [now apply class_good|exact Hg]|]. exists w.
    cbn [map] in E. rewrite descs_rules in E. cbn [filter class_desc fst snd] in E. rewrite Hin in E.
    etransitivity; [|exact E]. f_equal. destruct Ha as [(_ & _ & ->)|(_ & _ & ->)]; [apply sort_buildings|apply sort_facilities].
Qed.
Lemma run_fema n order components user ds : of_asset components ds -> well_formed n ds ->
  exists w, apply_process order (Some "FEMA P-58") components user ds = Ok (run (descs fema_rules) ds, w).
Proof.
  intros O W. unfold apply_process, damage_process. change (dget "FEMA P-58" default_damage_processes) with (Some (rules_of fema_rules)). cbn [mem existsb String.eqb Ascii.eqb Bool.eqb orb].
  cbv zeta. rewrite keep_present_rules by (repeat constructor). cbn [bind]. unfold perform_dmg_process.
  destruct (run_process n order components (descs fema_rules) ds W O (proj2 (proj2 descs_good))) as (w & E). exists w. rewrite descs_rules in E.
  etransitivity; [|exact E]. f_equal. apply sort_rules.
Qed.

(** ** Effects *)

Lemma run_fema_effect n ds : well_formed n ds -> fema_effect n ds (run (descs fema_rules) ds).
Proof.
  intros W. destruct (fema_tasks_spec n (fun l => l) ds W [] "1" "2" "3" "4" "5") as (ds' & w & E & H); try reflexivity.
  destruct (foldM_rules n (fun l => l) (descs fema_rules) ds [] (proj2 (proj2 descs_good)) W) as (w' & E').
  change (foldM (perform_dmg_task (fun l => l)) (ds, []) (as_tasks (rules_of (map fst (descs fema_rules)))) = Ok (ds', w)) in E. 
  assert (X : run (descs fema_rules) ds = ds') by congruence. rewrite X. exact H.
Qed.
Lemma run_building_effect n ds : well_formed n ds -> fema_effect n ds (run (descs building_rules) ds).
Proof. exact (run_fema_effect n ds). Qed.

Section Collapse.
  Context (n : nat) (ds : ds_frame) (W : well_formed n ds) (c : string) (Hc : c <> "collapse").
  Let T := step ds (class_desc c).
  Lemma T_cell b i z : cell_at T b i z <-> exists x, cell_at ds b i x /\ z = if hs c ds i 5 && String.eqb (cmp (b_of b)) "collapse" then 1%Z else x.
  Proof. unfold T, step. rewrite upd_cell. reflexivity. Qed.
  Lemma T_present x : present T x <-> present ds x.
  Proof. unfold present, T. now rewrite step_keys. Qed.
  Lemma T_other x i k : (i < n)%nat -> x <> "collapse" -> in_state T x i k <-> in_state ds x i k.
  Proof.
    intros Hi Hx. rewrite <- !(hs_spec n) by (assumption || now apply step_wf). unfold T, step. rewrite (hs_frame n ds W); [reflexivity|exact Hi|].
    intros b y Hb. unfold taskf. cbn [class_desc source fst snd]. rewrite is_target_one by reflexivity. rewrite Hb. apply String.eqb_neq in Hx. now rewrite Hx, andb_false_r.
  Qed.
  Lemma T_collapse i : (i < n)%nat -> in_state T "collapse" i 1 <-> (present ds "collapse" /\ in_state ds c i 5) \/ in_state ds "collapse" i 1.
  Proof.
    intros Hi. rewrite <- !(hs_spec n) by (assumption || now apply step_wf). rewrite <- cmp_in_true. unfold T, step. destruct (hs c ds i 5) eqn:E.
    - rewrite (hs_const n ds W _ _ _ _ 1%Z); [|exact Hi|].
      + rewrite Z.eqb_refl, andb_true_r. split; [now left|]. intros [[H _]|H]; [exact H|]. unfold hs in H. now apply andb_true_iff in H.
      + intros b y Hb. unfold taskf. cbn [class_desc source fst snd]. rewrite E, is_target_one, Hb by reflexivity. reflexivity.
    - rewrite (hs_frame n ds W); [|exact Hi|].
      + split; [now right|]. intros [[_ H]|H]; [discriminate H|exact H].
      + intros b y Hb. unfold taskf. cbn [class_desc source fst snd]. now rewrite E.
  Qed.
  Lemma T_same i : (i < n)%nat -> ~ (present ds "collapse" /\ in_state ds c i 5) -> as_before ds T i.
  Proof.
    intros Hi H b z. rewrite T_cell. destruct (hs c ds i 5 && String.eqb (cmp (b_of b)) "collapse") eqn:E.
    - apply andb_true_iff in E as [E1 E2]. apply (hs_spec n ds W) in E1; [|exact Hi]. apply String.eqb_eq in E2.
      assert (K : forall y, ~ cell_at ds b i y). { intros y (col & Hin & _). apply H. split; [|exact E1]. exists b. split; [apply in_map_iff; now exists (b, col)|exact E2]. }
      split; [intros (x & Hx & _)|intros Hx]; now destruct (K _ Hx).
    - split; [now intros (x & Hx & ->)|eauto].
  Qed.
End Collapse.

Lemma last_complete class components ds i : contains (class ++ ".") "" = false ->
  (complete class components ds i <-> last_match (class ++ ".") components <> "" /\ in_state ds (last_match (class ++ ".") components) i 5).
Proof.
  intros HL. unfold complete. split.
  - intros (c & H1 & H2). apply last_match_some in H1 as [<- H1]; [|exact HL]. now split.
  - intros [H1 H2]. exists (last_match (class ++ ".") components). split; [now apply last_match_some|exact H2].
Qed.
Lemma class_not_collapse class components : (class = "STR" \/ class = "LF") -> last_match (class ++ ".") components <> "" -> last_match (class ++ ".") components <> "collapse".
Proof.
  intros Hc N E. assert (HL : contains (class ++ ".") "" = false) by (destruct Hc as [-> | ->]; reflexivity).
  assert (L : last_of_class class components "collapse") by (apply last_match_some; [exact HL|split; [exact E|discriminate]]).
  destruct L as (? & ? & _ & L & _). destruct Hc as [-> | ->]; discriminate L.
Qed.

Lemma building_effect n components ds : well_formed n ds ->
  let ds' := run (class_descs (last_match "STR." components) ++ descs building_rules) ds in
  well_formed n ds' /\ map fst ds' = map fst ds /\ forall i, (i < n)%nat ->
    (building_collapsed components ds i -> now_collapsed ds' i) /\ (building_irreparable components ds i -> now_irreparable ds' i) /\
    (~ building_collapsed components ds i -> ~ building_irreparable components ds i -> as_before ds ds' i).
Proof.
  intros W ds'. split; [now apply run_wf|]. split; [apply run_keys|]. intros i Hi.
  pose proof (fun x => last_complete "STR" components x i eq_refl) as LC. change ("STR" ++ ".")%string with "STR." in LC.
  assert (NC := class_not_collapse "STR" components (or_introl eq_refl)). change ("STR" ++ ".")%string with "STR." in NC.
  unfold ds', class_descs. clear ds'. destruct (String.eqb_spec (last_match "STR." components) "") as [E|N].
  - cbn [app]. destruct (run_building_effect n ds W) as (_ & _ & H). destruct (H i Hi) as (H1 & H2 & H3).
    assert (C : building_collapsed components ds i <-> fema_collapsed ds i).
    { unfold building_collapsed, fema_collapsed. rewrite (LC ds), E. split; [intros [Hp [[Hn _]|Hx]]; [easy|now split]|intros [Hp Hx]; split; [exact Hp|now right]]. }
    assert (I : building_irreparable components ds i <-> fema_irreparable ds i) by (unfold building_irreparable, fema_irreparable; now rewrite C).
    rewrite C, I. split; [exact H1|]. split; [exact H2|exact H3].
  - cbn [app]. set (c := last_match "STR." components) in *. specialize (NC N). cbn [run fold_left]. fold (run (descs building_rules) (step ds (class_desc c))).
    set (T := step ds (class_desc c)). assert (WT : well_formed n T) by now apply step_wf.
    destruct (run_building_effect n T WT) as (_ & _ & H). destruct (H i Hi) as (H1 & H2 & H3).
    assert (TP : forall x, present T x <-> present ds x) by exact (T_present ds c).
    assert (TO : forall x k, x <> "collapse" -> in_state T x i k <-> in_state ds x i k) by (intros x k Hx; now apply (T_other n ds W c)).
    assert (TC : in_state T "collapse" i 1 <-> (present ds "collapse" /\ in_state ds c i 5) \/ in_state ds "collapse" i 1) by now apply (T_collapse n ds W c).
    assert (C : building_collapsed components ds i <-> fema_collapsed T i).
    { unfold building_collapsed, fema_collapsed. rewrite (LC ds), TP, TO, TC by discriminate. tauto. }
    assert (I : building_irreparable components ds i <-> fema_irreparable T i).
    { unfold building_irreparable, fema_irreparable. rewrite C, TP, !TO by discriminate. reflexivity. }
    rewrite C, I. split; [exact H1|]. split; [exact H2|]. intros N1 N2 b z. rewrite (H3 N1 N2 b z). apply (T_same n ds W c); [exact Hi|].
    intros X. apply N1, C. split; [apply X|left]. apply LC. split; [exact N|apply X].
Qed.

Lemma facility_effect n components ds : well_formed n ds ->
  let ds' := run (class_descs (last_match "LF." components) ++ descs facility_rules) ds in
  well_formed n ds' /\ map fst ds' = map fst ds /\ forall i, (i < n)%nat ->
    (facility_collapsed components ds i -> now_collapsed ds' i) /\ (~ facility_collapsed components ds i -> as_before ds ds' i).
Proof.
  intros W ds'. split; [now apply run_wf|]. split; [apply run_keys|]. intros i Hi.
  pose proof (fun x => last_complete "LF" components x i eq_refl) as LC. change ("LF" ++ ".")%string with "LF." in LC.
  assert (NC := class_not_collapse "LF" components (or_intror eq_refl)). change ("LF" ++ ".")%string with "LF." in NC.
  assert (G : forall T, well_formed n T -> (in_state T "collapse" i 1 -> now_collapsed (run (descs facility_rules) T) i) /\ (~ in_state T "collapse" i 1 -> as_before T (run (descs facility_rules) T) i)).
  { intros T WT. cbn [descs facility_rules map run fold_left]. set (d := (_, _) : desc). rewrite <- (hs_spec n T WT "collapse" i 1 Hi).
    split; intros Hh.
    - split.
      + apply (hs_spec n); [now apply step_wf|exact Hi|]. unfold step. rewrite (hs_frame n T WT); [exact Hh|exact Hi|].
        intros b x Hb. unfold taskf. cbn [d source fst snd effects_of]. now rewrite is_target_all, Hb, andb_false_r.
      + intros b z Hz Hb. unfold step in Hz. apply upd_cell in Hz as (x & _ & ->). unfold taskf. cbn [d source fst snd effects_of]. rewrite Hh, is_target_all.
        apply String.eqb_neq in Hb. now rewrite Hb.
    - apply not_true_is_false in Hh. intros b z. unfold step. rewrite upd_cell. unfold taskf. cbn [d source fst snd effects_of]. rewrite Hh. split; [now intros (x & Hx & ->)|eauto]. }
  unfold ds', class_descs. clear ds'. destruct (String.eqb_spec (last_match "LF." components) "") as [E|N].
  - cbn [app]. destruct (G ds W) as [G1 G2].
    assert (C : facility_collapsed components ds i <-> in_state ds "collapse" i 1).
    { unfold facility_collapsed. rewrite (LC ds), E. split; [intros [Hp [[Hn _]|Hx]]; [easy|exact Hx]|intros Hx; split; [|now right]].
      apply cmp_in_true. apply (hs_spec n ds W) in Hx; [|exact Hi]. unfold hs in Hx. now apply andb_true_iff in Hx. }
    rewrite C. now split.
  - cbn [app]. set (c := last_match "LF." components) in *. specialize (NC N). cbn [run fold_left]. fold (run (descs facility_rules) (step ds (class_desc c))).
    set (T := step ds (class_desc c)). assert (WT : well_formed n T) by now apply step_wf. destruct (G T WT) as [G1 G2].
    assert (TC : in_state T "collapse" i 1 <-> (present ds "collapse" /\ in_state ds c i 5) \/ in_state ds "collapse" i 1) by now apply (T_collapse n ds W c).
    assert (C : facility_collapsed components ds i <-> in_state T "collapse" i 1).
    { unfold facility_collapsed. rewrite (LC ds), TC. split; [tauto|]. intros [H|H]; [tauto|]. split; [|now right].
      apply cmp_in_true. apply (hs_spec n ds W) in H; [|exact Hi]. unfold hs in H. now apply andb_true_iff in H. }
    rewrite C. split; [exact G1|]. intros N1 b z. rewrite (G2 N1 b z). apply (T_same n ds W c); [exact Hi|]. intros X. apply N1, C. split; [apply X|left]. apply LC. split; [exact N|apply X].
Qed.
