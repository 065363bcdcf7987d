(** The outputs of a calculation: grouped and condensed samples, the files of the output directory,
    and which outputs are requested. *)
From Verif Require Import Prelude PreludeFacts M_Base M_Damage P_Base M_Outputs S_Outputs P_Outputs.
Set Implicit Arguments.
Local Open Scope string_scope.
Local Open Scope list_scope.

(** ** C62 *)

(** Grouping by any set of levels: one column per combination that occurs; in a realization it is
    the sum of its members, missing only if all of them are. *)
Theorem C62_groups : forall n levels s,
  NoDup (map fst (group_sum n levels s)) /\
  (forall key, In key (map fst (group_sum n levels s)) <-> exists c, In c s /\ key = pick levels (fst c)) /\
  forall key col i, In (key, col) (group_sum n levels s) -> (i < n)%nat ->
    (nth i col None = None <-> all_missing (fun l => label_eqb key (pick levels l)) i s) /\
    nfill0 (nth i col None) = amount (fun l => label_eqb key (pick levels l)) i s.
Proof.
  intros n levels s. split; [|split].
  - rewrite group_sum_form, map_map. cbn [fst]. rewrite map_id. apply keys_of_NoDup.
  - intros key. rewrite group_sum_form, map_map. cbn [fst]. rewrite map_id. apply keys_of_In.
  - intros key col i H Hi. apply group_sum_In in H as [_ ->]. rewrite nth_sum by exact Hi. split.
    + rewrite <- members_missing. apply PandasFacts.nsum1_None.
    + rewrite PandasFacts.nsum1_nfill0. apply members_amount.
Qed.
Print Assumptions C62_groups.

(** Totals are kept, for every selection of groups. *)
Theorem C62_total : forall n levels s (p : list string -> bool) i, (i < n)%nat ->
  amount p i (group_sum n levels s) = amount (fun l => p (pick levels l)) i s.
Proof. intros n levels s p i Hi. apply amount_group, Hi. Qed.
Print Assumptions C62_total.

(** The saved and the grouped losses have the total of the sample, for each decision variable,
    whether or not components at the same place are aggregated. *)
Theorem C62_losses : forall n colocated has_ds s dv i, (i < n)%nat ->
  amount (level_is 0 dv) i (loss_saved n colocated has_ds s) = amount (level_is 0 dv) i s /\
  amount (level_is 0 dv) i (loss_grouped n colocated has_ds s) = amount (level_is 0 dv) i s /\
  amount (fun _ => true) i (loss_grouped n colocated has_ds s) = amount (fun _ => true) i s.
Proof.
  intros n colocated has_ds s dv i Hi.
  assert (S : forall p, (forall l, p (pick [0; 1; 2; 3; 4; 5]%nat l) = p l) -> (forall l, p (pick [0; 1; 2; 3; 4]%nat l) = p l) ->
    amount p i (loss_saved n colocated has_ds s) = amount p i s).
  { intros p H1 H2. unfold loss_saved. destruct colocated; [|reflexivity]. rewrite amount_group by exact Hi.
    apply amount_ext. intros c _. destruct has_ds; [apply H1|apply H2]. }
  unfold loss_grouped. split; [|split].
  - apply S; intros l; reflexivity.
  - rewrite amount_group by exact Hi. rewrite <- S by (intros l; reflexivity). apply amount_ext. intros c _. reflexivity.
  - rewrite amount_group by exact Hi. apply S; intros l; reflexivity.
Qed.
Print Assumptions C62_losses.

(** Aggregating components at the same place first makes no difference to the grouped losses. *)
Theorem C62_colocated : forall n has_ds s, loss_grouped n true has_ds s = loss_grouped n false has_ds s.
Proof.
  intros n has_ds s. unfold loss_grouped, loss_saved. apply group_twice. intros l. destruct has_ds; reflexivity.
Qed.
Print Assumptions C62_colocated.

Definition ex_losses : sample :=
  [(["Cost"; "B.1"; "B.1"; "1"; "1"; "1"; "0"], [Some (qc (3 # 1)); None]);
   (["Cost"; "B.1"; "B.1"; "1"; "1"; "1"; "1"], [Some (qc (4 # 1)); None]);
   (["Cost"; "B.1"; "B.1"; "2"; "1"; "2"; "0"], [None; Some (qc (1 # 2))]);
   (["Time"; "B.1"; "B.1"; "1"; "1"; "1"; "0"], [Some (qc (2 # 1)); Some (qc (2 # 1))])].
Example C62_concrete : loss_grouped 2 true true ex_losses =
  [(["Cost"; "B.1"; "B.1"], [Some (qc (7 # 1)); Some (qc (1 # 2))]); (["Time"; "B.1"; "B.1"], [Some (qc (2 # 1)); Some (qc (2 # 1))])] /\
  amount (level_is 0 "Cost") 0 ex_losses = qc (7 # 1).
Proof. split; vm_compute; reflexivity. Qed.

(** ** C60 *)

(** Condensing works exactly when the damage states are numbers; each component and location
    is reported once. With non-negative quantities the report is the governing damage state, and it
    is missing only if all quantities are. *)
Theorem C60_governing : forall n colocated s out,
  damage_condensed n colocated s = Ok out ->
  (forall c q, In c s -> In (Some q) (snd c) -> (0 <= q)%Qc) ->
  (forall c d, In c s -> pyint (nth 4 (fst c) "") = Some d -> (0 <= d)%Z) ->
  NoDup (map fst out) /\
  (forall c, In c s -> In [nth 0 (fst c) ""; nth 1 (fst c) ""] (map fst out)) /\
  (forall key, In key (map fst out) -> exists c, In c s /\ key = [nth 0 (fst c) ""; nth 1 (fst c) ""]) /\
  forall cmp loc col i, In ([cmp; loc], col) out -> (i < n)%nat ->
    match nth i col None with
    | Some v => governing s cmp loc i v
    | None => all_missing (fun l => level_is 0 cmp l && level_is 1 loc l)%bool i s
    end.
Proof.
  intros n colocated s out H Hq Hd. destruct (condensed_form _ _ _ H) as [F1 [F2 [F3 _]]].
  split; [exact F3|]. split; [|split].
  - intros c Hc. destruct (F2 c Hc) as [col Hin]. apply in_map_iff. eexists. split; [|exact Hin]. reflexivity.
  - intros key Hk. apply in_map_iff in Hk as [[k col] [<- Hk]]. cbn [fst]. destruct (F1 _ _ Hk) as [c [Hc ->]]. exists c. auto.
  - intros cmp loc col i Hin Hi. apply (@condensed_value n colocated s out cmp loc col i H Hin Hi); [|exact Hd].
    intros c q Hc E. apply (Hq c q Hc). rewrite <- E. apply nth_In. destruct (Nat.ltb i (Datatypes.length (snd c))) eqn:L; [apply Nat.ltb_lt, L|].
    apply Nat.ltb_ge in L. rewrite nth_overflow in E by exact L. discriminate.
Qed.
Print Assumptions C60_governing.
Theorem C60_defined : forall n colocated s,
  (exists out, damage_condensed n colocated s = Ok out) <-> (forall c, In c s -> pyint (nth 4 (fst c) "") <> None).
Proof. intros n colocated s. apply condensed_ok. Qed.
Print Assumptions C60_defined.
(** Missing values are reported as missing, not as undamaged. *)
Theorem C60_missing : forall n colocated s out cmp loc col i,
  damage_condensed n colocated s = Ok out -> In ([cmp; loc], col) out -> (i < n)%nat ->
  all_missing (fun l => level_is 0 cmp l && level_is 1 loc l)%bool i s -> nth i col None = None.
Proof.
  intros n colocated s out cmp loc col i H Hin Hi Hm. destruct (condensed_form _ _ _ H) as [_ [_ [_ F]]].
  destruct (F _ _ _ Hin Hi) as [cells [-> C]]. apply nmax1_None. intros x Hx. apply C in Hx as [c [d [Hc [K [_ ->]]]]].
  assert (N : forall l, l = None -> condense_value d l = None) by (intros l ->; reflexivity). apply N.
  apply PandasFacts.nsum1_None. apply members_missing. intros c' Hc' E. apply (Hm c' Hc').
  change (pick [0; 1; 4]%nat (fst c)) with (pick [0; 1]%nat (fst c) ++ [nth 4 (fst c) ""]) in E. rewrite K in E.
  cbn [app] in E. rewrite location_key in E. apply andb_true_iff in E as [E _]. exact E.
Qed.
Print Assumptions C60_missing.

Definition ex_damage : sample :=
  [(["B.1"; "1"; "1"; "0"; "0"], [Some (qc (5 # 1)); Some 0%Qc; None]);
   (["B.1"; "1"; "1"; "0"; "1"], [Some 0%Qc; Some (qc (2 # 1)); None]);
   (["B.1"; "1"; "2"; "0"; "2"], [Some 0%Qc; Some (qc (3 # 1)); None]);
   (["B.1"; "1"; "2"; "1"; "2"], [Some 0%Qc; Some (qc (1 # 2)); None])].
Example C60_concrete : damage_condensed 3 true ex_damage = Ok [(["B.1"; "1"], [Some 0%Qc; Some (qc (2 # 1)); None])] /\
  damage_condensed 3 false ex_damage = Ok [(["B.1"; "1"], [Some 0%Qc; Some (qc (2 # 1)); None])].
Proof. split; vm_compute; reflexivity. Qed.
Example C60_hypotheses_met :
  (forall c q, In c ex_damage -> In (Some q) (snd c) -> (0 <= q)%Qc) /\
  (forall c d, In c ex_damage -> pyint (nth 4 (fst c) "") = Some d -> (0 <= d)%Z).
Proof.
  split.
  - intros c q Hc Hq. unfold ex_damage in Hc. cbn [In] in Hc. repeat (destruct Hc as [<-|Hc]; [cbn [snd In] in Hq;
      repeat (destruct Hq as [Hq|Hq]; [try discriminate; injection Hq as <-; vm_compute; discriminate|]); destruct Hq|]). destruct Hc.
  - intros c d Hc E. unfold ex_damage in Hc. cbn [In] in Hc.
    repeat (destruct Hc as [<-|Hc]; [vm_compute in E; injection E as <-; lia|]). destruct Hc.
Qed.

(** ** C63 *)

(** A run leaves exactly these files: the summary and, if CSV is wanted, the requested results; if
    JSON is wanted, their JSON versions; no other known result file; everything else untouched. *)
Theorem C63_directory : forall made o dir, exists dir', run_directory made o dir = Ok dir' /\
  forall f,
    (summary_file f \/ (csv_wanted o /\ produces o f) -> dget f dir' = Some (made f)) /\
    (json_wanted o -> forall g, summary_file g \/ produces o g -> f = json_name g -> dget f dir' = Some (made f)) /\
    (In f known_output_files -> ~ (summary_file f \/ (csv_wanted o /\ produces o f)) -> dget f dir' = None) /\
    (~ In f known_output_files -> (json_wanted o -> forall g, summary_file g \/ produces o g -> f <> json_name g) -> dget f dir' = dget f dir).
Proof.
  intros made o dir. destruct (directory_form made o dir) as [dir' [E F]]. exists dir'. split; [exact E|]. intros f. rewrite (F f). clear E F.
  set (cv := get_keys (JDict o) ["Format"; "CSV"] (JBool false)). set (jv := get_keys (JDict o) ["Format"; "JSON"] (JBool false)).
  set (jb := match jv with JBool false => false | _ => true end).
  assert (Jw : json_wanted o <-> jb = true).
  { unfold json_wanted, jb. fold jv. clearbody jv. destruct jv as [| |[|]| | | |]; split; intros X; try discriminate; try reflexivity. contradiction. }
  set (cb := match cv with JBool true => true | _ => contains "DL_summary" f end).
  assert (Cw : In f known_output_files -> cb = true <-> (csv_wanted o \/ summary_file f)).
  { intros K. unfold cb, csv_wanted. fold cv. clearbody cv. destruct cv as [| |[|]| | | |];
      try (rewrite (@summary_name f K); split; [intros X; right; exact X|intros [X|X]; [discriminate|exact X]]).
    split; [intros _; left; reflexivity|intros _; reflexivity]. }
  assert (A : (mem f (out_files o) && cb)%bool = true <-> summary_file f \/ csv_wanted o /\ produces o f).
  { rewrite andb_true_iff, mem_true, out_files_In. split.
    - intros [[P|S] C]; [|left; exact S]. apply Cw in C; [|apply (@out_files_known o), out_files_In; left; exact P]. destruct C as [C|C]; auto.
    - intros [S|[C P]].
      + split; [right; exact S|]. apply Cw; [|right; exact S]. apply (@out_files_known o), out_files_In. right. exact S.
      + split; [left; exact P|]. apply Cw; [|left; exact C]. apply (@out_files_known o), out_files_In. left. exact P. }
  assert (B : (jb && mem f (map json_name (out_files o)))%bool = true <-> json_wanted o /\ exists g, (summary_file g \/ produces o g) /\ f = json_name g).
  { rewrite andb_true_iff, mem_true, in_map_iff, Jw. split.
    - intros [J [g [<- Hg]]]. split; [exact J|]. exists g. apply out_files_In in Hg. split; [tauto|reflexivity].
    - intros [J [g [Hg ->]]]. split; [exact J|]. exists g. split; [reflexivity|]. apply out_files_In. tauto. }
  destruct (mem f (out_files o) && cb)%bool eqn:EA.
  - assert (A' := proj1 A eq_refl). split; [reflexivity|]. split; [reflexivity|]. split; [intros _ X; contradiction|].
    intros K. exfalso. apply K. apply andb_true_iff in EA as [EA _]. apply mem_true in EA. apply (@out_files_known o), EA.
  - assert (A' : ~ (summary_file f \/ csv_wanted o /\ produces o f)) by (intros X; apply A in X; discriminate).
    split; [intros X; contradiction|]. destruct (jb && mem f (map json_name (out_files o)))%bool eqn:EB.
    + destruct (proj1 B eq_refl) as [J [g [Hg Ef]]]. split; [reflexivity|]. split.
      * intros K. exfalso. revert K. rewrite Ef. apply json_name_unknown. apply (@out_files_known o), out_files_In. tauto.
      * intros _ X. exfalso. apply (X J g Hg). exact Ef.
    + assert (B' : ~ (json_wanted o /\ exists g, (summary_file g \/ produces o g) /\ f = json_name g)) by (intros X; apply B in X; discriminate).
      split; [intros J g Hg Ef; exfalso; apply B'; split; [exact J|exists g; auto]|]. split.
      * intros K _. apply mem_true in K. rewrite K. reflexivity.
      * intros K _. apply mem_false in K. rewrite K. reflexivity.
Qed.
Print Assumptions C63_directory.

(** In particular files that are not named like results or their JSON versions are never touched. *)
Theorem C63_others : forall made o dir dir' f, run_directory made o dir = Ok dir' ->
  ~ In f known_output_files -> ~ In f (map json_name known_output_files) -> dget f dir' = dget f dir.
Proof.
  intros made o dir dir' f E K J. destruct (C63_directory made o dir) as [d [E' F]]. rewrite E in E'. injection E' as <-.
  apply (F f); [exact K|]. intros _ g Hg ->. apply J. apply in_map. apply (@out_files_known o), out_files_In. tauto.
Qed.
Print Assumptions C63_others.

Definition ex_outputs : dict json :=
  [("Demand", JDict [("Sample", JBool true); ("Statistics", JBool false)]); ("Loss", JDict [("Repair", JDict [("AggregateStatistics", JBool true)])]);
   ("Format", JDict [("CSV", JBool false); ("JSON", JBool true)])].
Definition ex_dir : directory := [("DMG_sample.zip", "old"); ("notes.txt", "mine"); ("DMG_grp_stats.json", "old")].
Example C63_concrete : run_directory (fun _ => "new") ex_outputs ex_dir =
  Ok [("notes.txt", "mine"); ("DMG_grp_stats.json", "old"); ("DL_summary.csv", "new"); ("DL_summary_stats.csv", "new");
      ("DEM_sample.json", "new"); ("DV_repair_agg_stats.json", "new"); ("DL_summary.json", "new"); ("DL_summary_stats.json", "new")].
Proof. vm_compute. reflexivity. Qed.

(** ** C75 *)

(** The JSON versions of results of an earlier run that are not requested now stay in the directory
    among the new ones, whatever the run. *)
Theorem C75_stale_json_refuted : forall made o dir dir' g old,
  run_directory made o dir = Ok dir' -> In g known_output_files -> ~ summary_file g -> ~ produces o g ->
  dget (json_name g) dir = Some old -> dget (json_name g) dir' = Some old.
Proof.
  intros made o dir dir' g old E K S P Ho. destruct (C63_directory made o dir) as [d [E' F]]. rewrite E in E'. injection E' as <-.
  rewrite <- Ho. apply (F (json_name g)); [apply json_name_unknown, K|]. intros _ g' Hg' Ej.
  assert (X : g = g').
  { assert (K' : In g' known_output_files) by (apply (@out_files_known o), out_files_In; tauto). apply json_name_inj; assumption. }
  subst g'. tauto.
Qed.
Print Assumptions C75_stale_json_refuted.
(** Results in CSV form of an earlier run are always gone. *)
Theorem C75_fresh_csv_partial : forall made o dir dir' f v,
  run_directory made o dir = Ok dir' -> In f known_output_files -> dget f dir' = Some v -> v = made f /\ (summary_file f \/ produces o f).
Proof.
  intros made o dir dir' f v E K Hv. destruct (directory_form made o dir) as [d [E' F]]. rewrite E in E'. injection E' as <-.
  rewrite F in Hv. destruct (mem f (out_files o) && _)%bool eqn:EA.
  - injection Hv as <-. split; [reflexivity|]. apply andb_true_iff in EA as [EA _]. apply mem_true in EA. apply out_files_In in EA. tauto.
  - destruct (_ && mem f (map json_name (out_files o)))%bool eqn:EB.
    + apply andb_true_iff in EB as [_ EB]. apply mem_true in EB. apply in_map_iff in EB as [g [<- Hg]]. exfalso.
      apply (@json_name_unknown g (@out_files_known o g Hg) K).
    + apply mem_true in K. rewrite K in Hv. discriminate.
Qed.
Print Assumptions C75_fresh_csv_partial.
Example C75_concrete : exists dir', run_directory (fun _ => "new") ex_outputs ex_dir = Ok dir' /\ dget "DMG_grp_stats.json" dir' = Some "old" /\ dget "DMG_sample.zip" dir' = None.
Proof. eexists. split; [apply C63_concrete|]. split; reflexivity. Qed.

(** ** C61 *)

(** A run that brings its own outputs, with settings, asks for the same outputs after any other runs. *)
Theorem C61_own_partial : forall i own is is', ri_auto i = false -> ri_own i = Some own -> filled own "Settings" ->
  fst (parse_outputs i (after_runs is pristine)) = fst (parse_outputs i (after_runs is' pristine)).
Proof.
  intros i own is is' Ha Ho [kv [d Hs]]. apply (@own_independent i own); [exact Ha|exact Ho|intros ->; discriminate|].
  unfold missing.
  assert (G : dget "Settings" (map (fun kv => (fst kv, OV (snd kv))) own) = Some (OV (JDict (kv :: d)))).
  { clear - Hs. induction own as [|[k v] own IH]; [discriminate|]. cbn [dget map fst snd] in *.
    destruct (String.eqb "Settings" k); [injection Hs as ->; reflexivity|apply IH, Hs]. }
  rewrite G. reflexivity.
Qed.
Print Assumptions C61_own_partial.
(** Repeating a run, any number of times, asks for the same outputs each time. *)
Theorem C61_repeated : forall i n, fst (parse_outputs i (after_runs (repeat i n) pristine)) = fst (parse_outputs i pristine).
Proof. intros i n. rewrite repeat_fix. reflexivity. Qed.
Print Assumptions C61_repeated.
(** Runs with their own outputs and complete regional runs do not influence later ones. *)
Theorem C61_harmless_partial : forall is i, Forall (fun j => brings_outputs j \/ complete_regional j) is ->
  fst (parse_outputs i (after_runs is pristine)) = fst (parse_outputs i pristine).
Proof.
  intros is i H. assert (E : after_runs is pristine = pristine); [|rewrite E; reflexivity].
  induction is as [|j is IH]; [reflexivity|]. apply Forall_cons_iff in H as [Hj H]. unfold after_runs. cbn [fold_left].
  assert (Ej : snd (parse_outputs j pristine) = pristine).
  { destruct Hj as [[Ha [own [Ho Hn]]]|Hj]; [apply (own_state j pristine Ha Ho Hn)|].
    destruct j as [au de lo ou ow fo]. destruct Hj as [Ha [Hd [Hl [Hf Hu]]]]. cbn [ri_auto ri_detailed ri_losses ri_format ri_outputs] in *. subst.
    destruct ou as [[[[[|] [|]] dm] dv]|]; [destruct Hu as [Hi [-> ->]]; try discriminate; reflexivity..|reflexivity]. }
  rewrite Ej. apply IH, H.
Qed.
Print Assumptions C61_harmless_partial.
(** After one regional run without losses every later regional run, whatever it calculates and
    whatever ran in between, saves no losses. *)
Theorem C61_refuted : forall before first between i,
  ri_auto first = true -> ri_detailed first = false -> ri_losses first = false ->
  ri_auto i = true -> ri_detailed i = false ->
  forall f, produces (fst (parse_outputs i (after_runs (before ++ first :: between) pristine))) f ->
    ~ In f ["DV_repair_sample.zip"; "DV_repair_stats.csv"; "DV_repair_grp.zip"; "DV_repair_grp_stats.csv"; "DV_repair_agg.zip"; "DV_repair_agg_stats.csv"].
Proof.
  intros before first between i F1 F2 F3 I1 I2 f P. unfold after_runs in P. rewrite fold_left_app in P. cbn [fold_left] in P.
  set (sh := snd (parse_outputs first _)) in P. fold (after_runs between sh) in P.
  assert (L : off "Loss" (sh_regional sh)) by (apply no_losses_regional; assumption).
  assert (L2 : off "Loss" (sh_regional (snd (parse_outputs i (after_runs between sh))))).
  { apply parse_regional; [discriminate|discriminate|]. apply runs_regional; [discriminate|discriminate|exact L]. }
  assert (G := regional_outputs i (after_runs between sh) (k := "Loss") I1 I2).
  unfold off in L2. rewrite L2 in G. cbn [option_map deref] in G.
  assert (E : forall w, ~ wants (fst (parse_outputs i (after_runs between sh))) ["Loss"; "Repair"] w).
  { intros w W. apply wants_requested in W. cbn [fold_left] in W. unfold section at 2 in W. rewrite G in W by discriminate. destruct W. }
  inversion P as [W|W|W|W|W|W|W|W|W|W|W|W|W|W]; subst f; try (exfalso; apply (E _ W)); cbn [In]; intros X;
    repeat (destruct X as [X|X]; [discriminate|]); destruct X.
Qed.
Print Assumptions C61_refuted.
Definition ex_regional (losses : bool) : run_input := RI true false losses None None None.
Example C61_refuted_hypotheses_met :
  ri_losses (ex_regional false) = false /\
  produces (fst (parse_outputs (ex_regional true) pristine)) "DV_repair_sample.zip" /\
  dget "Loss" (fst (parse_outputs (ex_regional true) (after_runs [ex_regional false] pristine))) = Some (JDict []).
Proof. split; [reflexivity|]. split; [apply p_dv_s; apply wants_requested; vm_compute; auto|reflexivity]. Qed.
(** Settings leak too: a run without outputs and a detailed automatic run change the default
    settings of a run that brings outputs without settings. *)
Theorem C61_settings_refuted : exists before i, brings_outputs i /\
  get_keys (JDict (fst (parse_outputs i pristine))) ["Settings"; "CondenseDS"] JNull = JBool false /\
  get_keys (JDict (fst (parse_outputs i (after_runs before pristine)))) ["Settings"; "CondenseDS"] JNull = JBool true.
Proof.
  exists [RI false false true None None None; RI true true true None None None], (RI false false true None (Some ex_outputs) None).
  split; [split; [reflexivity|exists ex_outputs; split; [reflexivity|discriminate]]|]. split; vm_compute; reflexivity.
Qed.
Print Assumptions C61_settings_refuted.
Example C61_own_hypotheses_met : filled (("Settings", JDict [("CondenseDS", JBool true)]) :: ex_outputs) "Settings".
Proof. exists ("CondenseDS", JBool true), []. reflexivity. Qed.
Example C61_harmless_hypotheses_met : Forall (fun j => brings_outputs j \/ complete_regional j)
  [ex_regional true; RI false false true None (Some ex_outputs) None; RI true false true (Some (true, false, true, true)) None None].
Proof.
  apply Forall_cons; [|apply Forall_cons; [|apply Forall_cons; [|apply Forall_nil]]].
  - right. repeat split.
  - left. split; [reflexivity|]. exists ex_outputs. split; [reflexivity|discriminate].
  - right. repeat split.
Qed.
