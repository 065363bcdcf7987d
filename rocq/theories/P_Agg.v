(** Proofs about the aggregation of losses. *)
From Coq Require Import Sorting.Permutation.
From Verif Require Import Prelude PreludeFacts Pandas PandasFacts M_Base S_Base P_Base M_FileIO S_FileIO P_FileIO
  M_Damage M_Agg S_Agg P_Req.
Local Open Scope string_scope.
Local Open Scope list_scope.

Lemma lkey_label_inj a b : lkey_label a = lkey_label b -> a = b.
Proof. destruct a, b. cbn. now intros [= -> -> -> -> -> ->]. Qed.
Lemma lkey_eqb_eq a b : lkey_eqb a b = true <-> a = b.
Proof.
  unfold lkey_eqb. rewrite label_eqb_eq. split; [apply lkey_label_inj|now intros ->].
Qed.
Lemma lkey_eqb_refl a : lkey_eqb a a = true.
Proof. now apply lkey_eqb_eq. Qed.
Lemma lkey_eqb_sym a b : lkey_eqb a b = lkey_eqb b a.
Proof. destruct (lkey_eqb a b) eqn:E, (lkey_eqb b a) eqn:E2; try easy.
  - apply lkey_eqb_eq in E. subst. now rewrite lkey_eqb_refl in E2.
  - apply lkey_eqb_eq in E2. subst. now rewrite lkey_eqb_refl in E.
Qed.

(** ** Text *)

Lemma prefix_has_char c p : forall s, String.prefix p s = true -> has_char c p = true -> has_char c s = true.
Proof.
  induction p as [|a p IH]; intros s Hp Hc; [easy|]. destruct s as [|b s]; [easy|]. cbn in Hp.
  destruct (ascii_dec a b); [|easy]. subst b. cbn [has_char] in *. apply orb_true_iff in Hc as [Hc|Hc].
  - now rewrite Hc.
  - rewrite (IH _ Hp Hc). apply orb_true_r.
Qed.
Lemma remove_absent c p fuel : forall s, has_char c p = true -> has_char c s = false -> str_remove_fuel fuel p s = s.
Proof.
  induction fuel as [|fuel IH]; intros s Hp Hs; [easy|]. destruct s as [|a s]; [easy|]. cbn [str_remove_fuel].
  destruct (String.prefix p (String a s)) eqn:E.
  - rewrite (prefix_has_char _ _ _ E Hp) in Hs. discriminate.
  - cbn [has_char] in Hs. apply orb_false_iff in Hs as [_ Hs]. now rewrite IH.
Qed.

Lemma prefix_app p : forall s, String.prefix p (p ++ s) = true.
Proof. induction p as [|a p IH]; intros s; [now destruct s|]. cbn. destruct (ascii_dec a a); [apply IH|easy]. Qed.
Lemma drop_app p : forall s, str_drop (String.length p) (p ++ s) = s.
Proof. induction p as [|a p IH]; intros s; [reflexivity|]. cbn. apply IH. Qed.
Lemma remove_head fuel p s : p <> "" -> str_remove_fuel (S fuel) p (p ++ s) = str_remove_fuel fuel p s.
Proof.
  intros Hp. pose proof (prefix_app p s) as H1. pose proof (drop_app p s) as H2.
  destruct p as [|a p]; [easy|]. cbn [String.append] in *. cbn [str_remove_fuel]. now rewrite H1, H2.
Qed.

Definition letters (s : string) : Prop := Forall (fun a => is_letter a = true) (list_ascii_of_string s).
Lemma letters_no_char c s : is_letter c = false -> letters s -> has_char c s = false.
Proof.
  intros Hc. unfold letters. induction s as [|a s IH]; intros H; [easy|]. inversion H; subst. cbn [has_char].
  rewrite (IH H3). destruct (Ascii.eqb_spec a c); [|easy]. congruence.
Qed.
Lemma lower_letter_is a : lower_letter a -> is_letter a = true.
Proof.
  unfold lower_letter, is_letter. intros [H1 H2]. apply orb_true_iff. right. apply andb_true_iff.
  split; now apply Nat.leb_le.
Qed.
Lemma lower_ascii_lower a : lower_letter a -> lower_ascii a = a.
Proof. unfold lower_letter, lower_ascii. intros [H1 H2]. destruct (Nat.leb_spec (nat_of_ascii a) 90); [lia|]. now rewrite andb_false_r. Qed.
Lemma lower_ascii_upper a : upper_letter a -> lower_letter (lower_ascii a) /\ upper_ascii (lower_ascii a) = a.
Proof.
  unfold upper_letter, lower_letter, lower_ascii, upper_ascii. intros [H1 H2].
  rewrite (proj2 (Nat.leb_le _ _) H1), (proj2 (Nat.leb_le _ _) H2). cbn [andb].
  rewrite nat_ascii_embedding by lia.
  rewrite (proj2 (Nat.leb_le _ _)) by lia. rewrite (proj2 (Nat.leb_le _ _)) by lia. cbn [andb].
  split; [lia|]. rewrite Nat.add_sub. apply ascii_nat_embedding.
Qed.
Lemma lower_lower s : Forall lower_letter (list_ascii_of_string s) -> lower s = s.
Proof. induction s as [|a s IH]; intros H; [easy|]. inversion H; subst. cbn [lower]. now rewrite lower_ascii_lower, IH. Qed.
Lemma title_inside s : Forall lower_letter (list_ascii_of_string s) -> title_from true s = s.
Proof.
  induction s as [|a s IH]; intros H; [easy|]. inversion H; subst. cbn [title_from].
  rewrite lower_ascii_lower, lower_letter_is, IH by easy. easy.
Qed.
Lemma capitalised_lower dv : capitalised dv ->
  title (lower dv) = dv /\ letters (lower dv).
Proof.
  intros (a & t & -> & Ha & Ht). destruct (lower_ascii_upper a Ha) as [Hl Hu]. cbn [lower]. rewrite lower_lower by easy.
  split.
  - unfold title. cbn [title_from]. rewrite lower_letter_is, title_inside by easy. now rewrite Hu.
  - constructor; [now apply lower_letter_is|]. eapply Forall_impl; [|exact Ht]. apply lower_letter_is.
Qed.
Lemma lower_inj a b : capitalised a -> capitalised b -> lower a = lower b -> a = b.
Proof.
  intros Ha Hb E. destruct (capitalised_lower _ Ha) as [Ta _], (capitalised_lower _ Hb) as [Tb _]. congruence.
Qed.

Lemma measure_repair dv : capitalised dv -> title (measure (repair_column dv)) = dv.
Proof.
  intros H. destruct (capitalised_lower _ H) as [Ht Hl]. unfold measure, repair_column.
  assert (E : str_remove "repair_" ("repair_" ++ lower dv) = lower dv).
  { unfold str_remove. change (String.length ("repair_" ++ lower dv)) with (S (6 + String.length (lower dv))).
    rewrite remove_head by easy. apply (remove_absent "_"); [easy|]. now apply letters_no_char. }
  assert (Hd : has_char "-" (lower dv) = false) by now apply letters_no_char.
  assert (Hr : forall p, has_char "-" p = true -> str_remove p (lower dv) = lower dv)
    by (intros p Hp; unfold str_remove; now apply (remove_absent "-")).
  now rewrite E, Hr, Hr.
Qed.
Lemma repair_no_dash dv : capitalised dv -> has_char "-" (repair_column dv) = false.
Proof.
  intros H. destruct (capitalised_lower _ H) as [_ Hl]. unfold repair_column. rewrite has_char_app.
  rewrite (letters_no_char "-" (lower dv)); easy.
Qed.

(** ** Columns of a decision variable *)
Definition dv_columns (n : nat) (s : qframe) (dv : string) : list (string * list num) :=
  if String.eqb dv "Time"
  then [("repair_time-sequential", sum_rows n (location_sums n dv s));
        ("repair_time-parallel", max_rows n (location_sums n dv s))]
  else [(repair_column dv, sum_rows n (location_sums n dv s))].
Definition dv_names (dv : string) : list string :=
  if String.eqb dv "Time" then ["repair_time-sequential"; "repair_time-parallel"] else [repair_column dv].
Lemma dv_columns_names n s dv : map fst (dv_columns n s dv) = dv_names dv.
Proof. unfold dv_columns, dv_names. now destruct (String.eqb dv "Time"). Qed.

Lemma dv_names_disjoint a b c : capitalised a -> capitalised b -> In c (dv_names a) -> In c (dv_names b) -> a = b.
Proof.
  intros Ha Hb. pose proof (repair_no_dash _ Ha) as Da. pose proof (repair_no_dash _ Hb) as Db.
  unfold dv_names. destruct (String.eqb_spec a "Time") as [->|Na], (String.eqb_spec b "Time") as [->|Nb]; try easy.
  - intros H1 [<-|[]]. exfalso. destruct H1 as [E|[E|[]]]; rewrite <- E in Db; discriminate Db.
  - intros [<-|[]] H1. exfalso. destruct H1 as [E|[E|[]]]; rewrite <- E in Da; discriminate Da.
  - intros [<-|[]] [E|[]]. unfold repair_column in E. apply lower_inj; auto.
    now injection E.
Qed.

Lemma ddel_keys {V} c (d : dict V) : keys (ddel c d) = filter (fun k => negb (String.eqb c k)) (keys d).
Proof. unfold keys, ddel. induction d as [|[k v] d IH]; cbn; [easy|]. destruct (String.eqb c k); cbn; now rewrite IH. Qed.
Lemma NoDup_ddel {V} c (d : dict V) : NoDup (keys d) -> NoDup (keys (ddel c d)).
Proof. rewrite ddel_keys. apply NoDup_filter. Qed.

(** One step of the loop. *)
Definition dv_step (n : nat) (s : qframe) (d : dict (list num)) (dv : string) : result (dict (list num)) :=
  match of_dv dv s with
  | [] => if String.eqb dv "Time"
          then let* d1 := drop_column "repair_time-parallel" d in drop_column "repair_time-sequential" d1
          else drop_column (repair_column dv) d
  | _ => if String.eqb dv "Time"
         then Ok (dset "repair_time-parallel" (max_rows n (location_sums n dv s))
                   (dset "repair_time-sequential" (sum_rows n (location_sums n dv s)) d))
         else Ok (dset (repair_column dv) (sum_rows n (location_sums n dv s)) d)
  end.

Lemma drop_ok c (d : dict (list num)) : In c (keys d) -> drop_column c d = Ok (ddel c d).
Proof. intros H. unfold drop_column. now rewrite (proj2 (dmem_true c d) H). Qed.

Lemma dv_step_ok n s d dv : NoDup (keys d) -> (forall c, In c (dv_names dv) -> In c (keys d)) ->
  exists d', dv_step n s d dv = Ok d' /\ NoDup (keys d') /\
    (forall c, In c (dv_names dv) -> dget c d' = match of_dv dv s with [] => None | _ => dget c (dv_columns n s dv) end) /\
    (forall c, ~ In c (dv_names dv) -> dget c d' = dget c d).
Proof.
  intros Hn Hin. unfold dv_step, dv_names, dv_columns in *. destruct (of_dv dv s) as [|x l].
  - destruct (String.eqb dv "Time").
    + rewrite (drop_ok "repair_time-parallel") by (apply Hin; cbn; auto). cbn [bind].
      rewrite drop_ok.
      2:{ rewrite ddel_keys. apply filter_In. split; [apply Hin; cbn; auto|easy]. }
      eexists. split; [reflexivity|]. split; [now apply NoDup_ddel, NoDup_ddel|]. split.
      * intros c [<-|[<-|[]]]; [now apply dget_ddel_eq|]. rewrite dget_ddel_ne by easy. now apply dget_ddel_eq.
      * intros c Hc. rewrite !dget_ddel_ne; [easy| |]; intros ->; apply Hc; cbn; auto.
    + rewrite drop_ok by (apply Hin; cbn; auto). eexists. split; [reflexivity|]. split; [now apply NoDup_ddel|]. split.
      * intros c [<-|[]]. apply dget_ddel_eq.
      * intros c Hc. rewrite dget_ddel_ne; [easy|]. intros ->. apply Hc. cbn; auto.
  - destruct (String.eqb dv "Time").
    + eexists. split; [reflexivity|]. split; [now apply NoDup_keys_dset, NoDup_keys_dset|]. split.
      * intros c [<-|[<-|[]]].
        -- rewrite dget_dset_ne by easy. now rewrite dget_dset_eq.
        -- now rewrite dget_dset_eq.
      * intros c Hc. rewrite !dget_dset_ne; [easy| |]; intros ->; apply Hc; cbn; auto.
    + eexists. split; [reflexivity|]. split; [now apply NoDup_keys_dset|]. split.
      * intros c [<-|[]]. rewrite dget_dset_eq. cbn. now rewrite String.eqb_refl.
      * intros c Hc. rewrite dget_dset_ne; [easy|]. intros ->. apply Hc. cbn; auto.
Qed.

Lemma dv_fold n s dvs : forall d, NoDup (keys d) -> NoDup dvs -> Forall capitalised dvs ->
  (forall dv c, In dv dvs -> In c (dv_names dv) -> In c (keys d)) ->
  exists d', foldM (dv_step n s) d dvs = Ok d' /\ NoDup (keys d') /\
    (forall dv c, In dv dvs -> In c (dv_names dv) ->
       dget c d' = match of_dv dv s with [] => None | _ => dget c (dv_columns n s dv) end) /\
    (forall c, (forall dv, In dv dvs -> ~ In c (dv_names dv)) -> dget c d' = dget c d).
Proof.
  induction dvs as [|dv dvs IH]; intros d Hn Hd Hc Hin.
  - exists d. repeat split; auto. easy.
  - inversion Hd; inversion Hc; subst. destruct (dv_step_ok n s d dv Hn) as (d1 & E1 & N1 & G1 & O1).
    { intros c H. apply (Hin dv); [now left|easy]. }
    rewrite Forall_forall in H6.
    assert (Hdis : forall dv' c, In dv' dvs -> In c (dv_names dv') -> ~ In c (dv_names dv)).
    { intros dv' c H H' H''. apply H1. now rewrite (dv_names_disjoint dv dv' c) by auto. }
    destruct (IH d1 N1 H2) as (d' & E' & N' & G' & O').
    { apply Forall_forall. exact H6. }
    { intros dv' c H H'. pose proof (O1 c (Hdis _ _ H H')) as E. pose proof (Hin dv' c (or_intror H) H') as Hk.
      apply In_keys_dget in Hk as (v & Hv). rewrite Hv in E. now apply dget_Some_keys in E. }
    exists d'. cbn [foldM]. rewrite E1. cbn [bind]. split; [exact E'|]. split; [exact N'|]. split.
    + intros dv' c [<-|H] H'; [|now apply G']. rewrite O'; [now apply G1|]. intros dv'' Hd'' Hc''.
      now apply (Hdis dv'' c).
    + intros c H. rewrite O'; [|intros dv' H'; apply H; now right]. apply O1. apply H. now left.
Qed.

Lemma construct_In dvs c : In c (construct_columns dvs) <-> exists dv, In dv dvs /\ In c (dv_names dv).
Proof.
  unfold construct_columns. rewrite in_app_iff, in_map_iff. split.
  - intros [(dv & <- & H)|H].
    + apply filter_In in H as [H E]. exists dv. split; [easy|]. unfold dv_names. apply negb_true_iff in E. rewrite E. now left.
    + destruct (mem "Time" dvs) eqn:E; [|easy]. apply mem_true in E. exists "Time". now split.
  - intros (dv & H & Hc). unfold dv_names in Hc. destruct (String.eqb_spec dv "Time") as [->|Hne].
    + right. now rewrite (proj2 (mem_true _ _) H).
    + left. exists dv. destruct Hc as [<-|[]]. split; [easy|]. apply filter_In. split; [easy|].
      apply negb_true_iff. now apply String.eqb_neq.
Qed.
Lemma construct_NoDup dvs : NoDup dvs -> Forall capitalised dvs -> NoDup (construct_columns dvs).
Proof.
  intros Hn Hc. unfold construct_columns. rewrite Forall_forall in Hc. apply NoDup_app_iff. split; [|split].
  - clear - Hn Hc. induction dvs as [|dv dvs IH]; [constructor|]. inversion Hn; subst. cbn [filter].
    assert (IH' := IH H2 (fun x H => Hc x (or_intror H))).
    destruct (negb (String.eqb dv "Time")) eqn:E; [|easy]. cbn [map]. constructor; [|easy].
    intros Hin. apply in_map_iff in Hin as (dv' & E' & Hin). apply filter_In in Hin as [Hin _].
    apply H1. replace dv with dv'; [easy|]. apply lower_inj; [apply Hc; now right|apply Hc; now left|].
    unfold repair_column in E'. now injection E'.
  - destruct (mem "Time" dvs); repeat constructor; cbn; intuition discriminate.
  - intros c Hin H. apply in_map_iff in Hin as (dv & <- & Hin). apply filter_In in Hin as [Hin _].
    pose proof (repair_no_dash _ (Hc _ Hin)) as Hd. destruct (mem "Time" dvs); [|easy].
    destruct H as [E|[E|[]]]; rewrite <- E in Hd; discriminate Hd.
Qed.

Lemma dv_totals_spec n dvs s : NoDup dvs -> Forall capitalised dvs ->
  exists d, dv_totals n dvs s = Ok d /\ NoDup (keys d) /\
    forall c v, dget c d = Some v <-> exists dv, In dv dvs /\ of_dv dv s <> [] /\ In (c, v) (dv_columns n s dv).
Proof.
  intros Hn Hc. unfold dv_totals. change (fun (d : dict (list num)) dv => match of_dv dv s with [] => _ | _ => _ end) with (dv_step n s).
  set (d0 := map _ _). change (list (string * list (option Qc))) with (dict (list num)) in d0. assert (Hk : keys d0 = construct_columns dvs).
  { unfold d0, keys. rewrite map_map. cbn. apply map_id. }
  destruct (dv_fold n s dvs d0) as (d & E & N & G & O); auto.
  { rewrite Hk. now apply construct_NoDup. }
  { intros dv c H H'. rewrite Hk. apply construct_In. eauto. }
  exists d. split; [exact E|]. split; [exact N|]. intros c v. split.
  - intros Hd. assert (Hcase : (exists dv, In dv dvs /\ In c (dv_names dv)) \/ ~ exists dv, In dv dvs /\ In c (dv_names dv)).
    { rewrite <- construct_In. destruct (mem c (construct_columns dvs)) eqn:E2; [left; now apply mem_true|right; now apply mem_false]. }
    destruct Hcase as [(dv & H & H')|Hno].
    + rewrite (G dv c H H') in Hd. exists dv. split; [easy|].
      destruct (of_dv dv s) eqn:E2; [easy|]. split; [easy|]. now apply dget_In in Hd.
    + exfalso. rewrite O in Hd by (intros dv H H'; apply Hno; eauto).
      apply dget_Some_keys in Hd. rewrite Hk in Hd. apply construct_In in Hd. easy.
  - intros (dv & H & Hp & Hin). assert (H' : In c (dv_names dv)).
    { rewrite <- (dv_columns_names n s). now apply (in_map fst) in Hin. }
    rewrite (G dv c H H'). destruct (of_dv dv s); [easy|]. apply In_dget; [|easy].
    unfold keys. rewrite dv_columns_names. unfold dv_names. destruct (String.eqb dv "Time"); repeat constructor; cbn; intuition discriminate.
Qed.

(** ** The reported table *)

Lemma title_names dv c : capitalised dv -> In c (dv_names dv) -> title (measure c) = dv.
Proof.
  intros Hc. unfold dv_names. destruct (String.eqb_spec dv "Time") as [->|Hne].
  - intros [<-|[<-|[]]]; reflexivity.
  - intros [<-|[]]. now apply measure_repair.
Qed.

Lemma column_units_ok dv_units cols : (forall c, In c cols -> exists u, dget (title (measure c)) dv_units = Some u) ->
  exists us, column_units dv_units cols = Ok us.
Proof.
  unfold column_units. induction cols as [|c cols IH]; intros H; [now exists []|]. cbn [mapM].
  destruct (H c (or_introl eq_refl)) as (u & ->). cbn [bind]. destruct IH as (us & ->); [intros; apply H; now right|]. cbn [bind]. eauto.
Qed.
Lemma column_units_spec dv_units cols us : column_units dv_units cols = Ok us ->
  map fst us = map (fun c => [c]) cols /\
  forall c u, NoDup cols -> In c cols -> (unit_of us [c] = Some u <-> dget (title (measure c)) dv_units = Some u).
Proof.
  unfold column_units. revert us. induction cols as [|c cols IH]; intros us H; cbn [mapM] in H.
  - injection H as <-. split; [easy|]. intros c u _ [].
  - destruct (dget (title (measure c)) dv_units) as [u0|] eqn:E; [|easy]. cbn [bind] in H.
    binv H us'. injection H as <-. destruct (IH _ eq_refl) as [H1 H2]. split; [cbn; now rewrite H1|].
    intros c' u Hn [<-|Hc'].
    + unfold unit_of. cbn. rewrite String.eqb_refl. cbn. rewrite E. intuition congruence.
    + inversion Hn; subst. unfold unit_of. cbn. destruct (String.eqb_spec c' c) as [->|]; [easy|]. cbn. now apply H2.
Qed.

(** How a column name becomes a label. *)
Definition label_for (w : nat) (c : string) : list string :=
  if Nat.ltb 1 w then pad_to w (split_on "-" c) else [c].
Definition width (cols : list string) : nat := list_max (map (@List.length string) (map (split_on "-") cols)).

Lemma multi_labels cols : cols <> [] -> exists ax, to_multi_index (Flat cols) = Ok ax /\ axis_labels ax = map (label_for (width cols)) cols.
Proof.
  intros H. unfold to_multi_index, label_for, width. destruct cols as [|c cols']; [easy|]. remember (c :: cols') as cols.
  destruct (Nat.ltb 1 _); eexists; (split; [reflexivity|]); cbn [axis_labels]; [now rewrite map_map|easy].
Qed.

Lemma combine_map_labels {A B C} (f : A -> B) (g : A -> C) l : combine (map f l) (map g l) = map (fun x => (f x, g x)) l.
Proof. induction l; cbn; congruence. Qed.

Lemma aggregate_eq n dvs dv_units factors s agg d :
  dv_totals n dvs s = Ok d -> NoDup (keys d) ->
  aggregate_sample n dvs dv_units factors s = Ok agg ->
  d <> [] /\
  (forall c v, dget c d = Some v -> exists u f, dget (title (measure c)) dv_units = Some u /\ dget u factors = Some f /\ f <> 0%Qc) /\
  Permutation agg (map (fun e => (label_for (width (keys d)) (fst e),
                                  match dget (title (measure (fst e))) dv_units with
                                  | Some u => stored factors (Some u) (snd e) | None => snd e end)) d).
Proof.
  intros Ed Hn H. unfold aggregate_sample in H. rewrite Ed in H. cbn [bind] in H. binv H us. binv H sv. binv H ax. injection H as <-.
  destruct (column_units_spec _ _ _ E) as [Hus Hu].
  assert (Hnu : NoDup (map fst us)).
  { rewrite Hus. apply FinFun.Injective_map_NoDup; [|exact Hn]. intros a b [= ->]. easy. }
  assert (Hk : known_units factors (map snd us)).
  { unfold known_units. apply Forall_forall. intros u Hin.
    assert (Hz : ~ (forall f, dget u factors = Some f -> f = 0%Qc)).
    { intros Hz. assert (Hs : is_ok (Ok sv) = false) by (rewrite <- E0; now apply (save_unknown factors us _ _ _ u)).
      discriminate Hs. }
    destruct (dget u factors) as [f|] eqn:Ef.
    - exists f. split; [easy|]. intros ->. apply Hz. congruence.
    - exfalso. apply Hz. congruence. }
  rewrite (save_ok factors us false 1 _ Hnu Hk) in E0. injection E0 as <-. cbn [header cells] in *.
  set (t := map (fun c : string * list num => ([fst c], snd c)) d) in *.
  assert (Hhd : make_axis 1 (map fst (sort_labels t)) = Flat (map (fun e => hd "" (fst e)) (sort_labels t))).
  { unfold make_axis. cbn. now rewrite map_map. }
  rewrite Hhd in E1.
  assert (Hdne : d <> []). { intros ->. cbn in E1. discriminate E1. }
  split; [exact Hdne|]. split.
  { intros c v Hc. pose proof (dget_Some_keys _ _ Hc) as Hk'. destruct (dget (title (measure c)) dv_units) as [u|] eqn:Eu.
    - exists u. assert (Hin : In u (map snd us)).
      { apply Hu in Eu; [|easy|easy]. unfold unit_of in Eu. apply (aget_In label_eqb label_eqb_eq) in Eu. now apply (in_map snd) in Eu. }
      unfold known_units in Hk. rewrite Forall_forall in Hk. destruct (Hk u Hin) as (f & Hf & Hf0). eauto.
    - exfalso. unfold column_units in E. destruct (mapM_Forall2 (fun c => match dget (title (measure c)) dv_units with
                 | Some u => Ok ([c], u) | None => Err KeyError end) (keys d) us) as [HF _].
      specialize (HF E). destruct (Forall2_In_l _ HF Hk') as (y & _ & Hy). rewrite Eu in Hy. discriminate Hy. }
  set (cols := map (fun e => hd "" (fst e)) (sort_labels t)) in *.
  assert (Hcp : Permutation cols (keys d)).
  { unfold cols. rewrite (sort_labels_perm t). unfold t. rewrite map_map. cbn. reflexivity. }
  assert (Hw : width cols = width (keys d)).
  { unfold width. assert (Hlm : forall l1 l2, Permutation l1 l2 -> list_max l1 = list_max l2).
    { intros l1 l2 Hp. unfold list_max. induction Hp; cbn; lia. }
    apply Hlm. now apply Permutation_map, Permutation_map. }
  destruct (multi_labels cols) as (ax' & Eax & Hlab).
  { intros Ec. rewrite Ec in Hcp. apply Permutation_nil in Hcp. unfold keys in Hcp. apply map_eq_nil in Hcp. easy. }
  assert (ax' = ax) as -> by congruence. rewrite Hlab, Hw. unfold cols. rewrite map_map, combine_map_labels.
  rewrite (sort_labels_perm _). rewrite (sort_labels_perm t). unfold t. rewrite map_map. cbn [fst snd hd].
  assert (Hext : forall e, In e d -> stored factors (unit_of us [fst e]) (snd e) =
      match dget (title (measure (fst e))) dv_units with Some u => stored factors (Some u) (snd e) | None => snd e end).
  { intros e He. assert (Hke : In (fst e) (keys d)) by now apply in_map.
    destruct (dget (title (measure (fst e))) dv_units) as [u|] eqn:Eu.
    - apply Hu in Eu; [|easy|easy]. now rewrite Eu.
    - destruct (unit_of us [fst e]) as [u|] eqn:Eu'; [|easy]. apply Hu in Eu'; [|easy|easy]. congruence. }
  rewrite (map_ext_in _ (fun e => (label_for (width (keys d)) (fst e),
                                  match dget (title (measure (fst e))) dv_units with
                                  | Some u => stored factors (Some u) (snd e) | None => snd e end))); [reflexivity|].
  intros e He. f_equal. now apply Hext.
Qed.

Definition qtotal (p : lkey -> bool) (s : qframe) (i : nat) : Qc :=
  qsum (map (row i) (filter (fun c => p (fst c)) s)).
Definition q_peak (s : qframe) (dv : string) (i : nat) (x : Qc) : Prop :=
  (exists l, (exists c, In c s /\ k_dv (fst c) = dv /\ k_loc (fst c) = l) /\ x = qtotal (dv_at dv l) s i) /\
  (forall l, (exists c, In c s /\ k_dv (fst c) = dv /\ k_loc (fst c) = l) -> (qtotal (dv_at dv l) s i <= x)%Qc).

Lemma seqb_eq a b : String.eqb a b = true <-> a = b.
Proof. apply String.eqb_eq. Qed.

Lemma location_sum_total n dv s i : (i < n)%nat ->
  qsum (map (fun c => nth i c 0%Qc) (location_sums n dv s)) = qtotal (dv_is dv) s i.
Proof.
  intros Hi. unfold location_sums. rewrite map_map.
  rewrite (map_ext _ (fun g : string * list (list Qc) => qsum (map (fun c => nth i c 0%Qc) (snd g)))).
  2:{ intros g. now rewrite nth_map_seq. }
  rewrite (qsum_groupby String.eqb seqb_eq str_le (fun _ c => nth i c 0%Qc)). rewrite map_map. reflexivity.
Qed.

Lemma group_rows_filter {K A V} (eqb : K -> K -> bool) (key : A -> K) (f : A -> V) k l :
  group_rows eqb k (map (fun c => (key c, f c)) l) = map f (filter (fun c => eqb k (key c)) l).
Proof.
  unfold group_rows. induction l as [|a l IH]; [easy|]. cbn [map filter fst]. destruct (eqb k (key a)); cbn [map snd]; now rewrite IH.
Qed.
Lemma filter_filter {A} (p q : A -> bool) l : filter p (filter q l) = filter (fun x => q x && p x) l.
Proof. induction l as [|a l IH]; [easy|]. cbn. destruct (q a); cbn; [destruct (p a); now rewrite IH|exact IH]. Qed.

Lemma location_sums_In n dv s i x : (i < n)%nat ->
  In x (map (fun c => nth i c 0%Qc) (location_sums n dv s)) <->
  exists l, (exists c, In c s /\ k_dv (fst c) = dv /\ k_loc (fst c) = l) /\ x = qtotal (dv_at dv l) s i.
Proof.
  intros Hi. unfold location_sums. rewrite map_map.
  assert (Hv : forall l, qsum (map (fun c => nth i c 0%Qc)
                 (group_rows String.eqb l (map (fun c => (k_loc (fst c), snd c)) (of_dv dv s)))) = qtotal (dv_at dv l) s i).
  { intros l. rewrite group_rows_filter. unfold of_dv. rewrite filter_filter, map_map. unfold qtotal, dv_at.
    rewrite (filter_ext _ (fun c => String.eqb (k_dv (fst c)) dv && String.eqb (k_loc (fst c)) l)); [reflexivity|].
    intros c. now rewrite (String.eqb_sym l). }
  rewrite in_map_iff. split.
  - intros ([l g] & <- & Hin). apply (groupby_In String.eqb str_le seqb_eq) in Hin as [Hl ->]. rewrite nth_map_seq by easy. cbn [snd].
    exists l. split; [|now rewrite Hv]. rewrite map_map in Hl. apply in_map_iff in Hl as (c & <- & Hc). cbn [fst].
    apply filter_In in Hc as [Hc E]. apply String.eqb_eq in E. eauto.
  - intros (l & (c & Hc & Hdv & Hl) & ->).
    exists (l, group_rows String.eqb l (map (fun c => (k_loc (fst c), snd c)) (of_dv dv s))). split.
    + rewrite nth_map_seq by easy. cbn [snd]. apply Hv.
    + apply (groupby_In String.eqb str_le seqb_eq). split; [|easy]. rewrite map_map. apply in_map_iff. exists c. split; [easy|].
      apply filter_In. split; [easy|]. now apply String.eqb_eq.
Qed.

Lemma fold_qmax_ge l : forall x, (x <= fold_left Qcmax l x)%Qc.
Proof.
  induction l as [|y l IH]; intros x; cbn [fold_left]; [apply Qcle_refl|].
  eapply Qcle_trans; [|apply IH]. unfold Qcmax. destruct (Qclt_le_dec x y); [now apply Qclt_le_weak|apply Qcle_refl].
Qed.
Lemma fold_qmax_ge_in l : forall x y, In y l -> (y <= fold_left Qcmax l x)%Qc.
Proof.
  induction l as [|z l IH]; intros x y; [easy|]. cbn [fold_left]. intros [->|H]; [|now apply IH].
  eapply Qcle_trans; [|apply fold_qmax_ge]. unfold Qcmax. destruct (Qclt_le_dec x y); [apply Qcle_refl|easy].
Qed.
Lemma fold_qmax_in l : forall x, fold_left Qcmax l x = x \/ In (fold_left Qcmax l x) l.
Proof.
  induction l as [|z l IH]; intros x; cbn [fold_left]; [auto|]. destruct (IH (Qcmax x z)) as [E|E]; [|right; now right].
  rewrite E. unfold Qcmax. destruct (Qclt_le_dec x z); [right; now left|now left].
Qed.
Lemma qmax_list_spec l x : l <> [] -> (x = qmax_list l <-> In x l /\ forall y, In y l -> (y <= x)%Qc).
Proof.
  destruct l as [|a l]; [easy|]. intros _.
  assert (H : In (qmax_list (a :: l)) (a :: l) /\ forall y, In y (a :: l) -> (y <= qmax_list (a :: l))%Qc).
  { cbn [qmax_list]. split.
    - destruct (fold_qmax_in l a) as [->|H]; [now left|now right].
    - intros y [<-|H]; [apply fold_qmax_ge|now apply fold_qmax_ge_in]. }
  split; [now intros ->|]. intros [H1 H2]. apply Qcle_antisym; [now apply H|apply H2, H].
Qed.

Lemma location_sums_ne n dv s : of_dv dv s <> [] -> location_sums n dv s <> [].
Proof.
  intros H E. unfold location_sums in E. apply map_eq_nil in E.
  assert (Hk : forall k, In k (map fst (map (fun c => (k_loc (fst c), snd c)) (of_dv dv s))) -> In k (map fst (groupby String.eqb str_le (map (fun c => (k_loc (fst c), snd c)) (of_dv dv s))))).
  { intros k. apply (groupby_keys_In String.eqb str_le seqb_eq). }
  rewrite E in Hk. destruct (of_dv dv s) as [|c l]; [easy|]. apply (Hk (k_loc (fst c))). now left.
Qed.
Lemma max_peak n dv s i x : (i < n)%nat -> of_dv dv s <> [] ->
  (x = qmax_list (map (fun c => nth i c 0%Qc) (location_sums n dv s)) <-> q_peak s dv i x).
Proof.
  intros Hi Hp. rewrite qmax_list_spec.
  2:{ intros E. apply map_eq_nil in E. revert E. now apply location_sums_ne. }
  rewrite location_sums_In by easy. unfold q_peak. apply and_iff_compat_l. split.
  - intros H l Hl. apply H. apply location_sums_In; [easy|]. eauto.
  - intros H y Hy. apply location_sums_In in Hy as (l & Hl & ->); [|easy]. now apply H.
Qed.

(** ** Labels of the reported columns *)

Lemma label_reports cols dv c name sub : (forall x, In x cols -> exists dv, capitalised dv /\ In x (dv_names dv)) ->
  capitalised dv -> In c cols -> In c (dv_names dv) ->
  ((label_for (width cols) c = [name] /\ sub = "") \/ label_for (width cols) c = [name; sub]) <->
  ((dv <> "Time" /\ name = c /\ sub = "") \/
   (dv = "Time" /\ name = "repair_time" /\
     ((c = "repair_time-sequential" /\ sub = "sequential") \/ (c = "repair_time-parallel" /\ sub = "parallel")))).
Proof.
  intros Hall Hdv Hin Hc. unfold dv_names in Hc.
  assert (Hw2 : (width cols <= 2)%nat).
  { unfold width. apply list_max_le, Forall_forall. intros k Hk. apply in_map_iff in Hk as (p & <- & Hp).
    apply in_map_iff in Hp as (x & <- & Hx). destruct (Hall _ Hx) as (dv' & Hdv' & Hx'). unfold dv_names in Hx'.
    destruct (String.eqb dv' "Time").
    - destruct Hx' as [<-|[<-|[]]]; cbn; lia.
    - destruct Hx' as [<-|[]]. rewrite split_on_nochar by now apply repair_no_dash. cbn. lia. }
  destruct (String.eqb_spec dv "Time") as [->|Hne].
  - assert (Hw : width cols = 2%nat).
    { apply Nat.le_antisymm; [easy|]. unfold width. destruct Hc as [<-|[<-|[]]];
      (eapply list_max_ge; apply in_map_iff; eexists; split; [|apply in_map_iff; eexists; split; [reflexivity|exact Hin]]; reflexivity). }
    rewrite Hw. destruct Hc as [<-|[<-|[]]]; cbn; split.
    all: intros H; repeat match goal with
         | H : _ \/ _ |- _ => destruct H
         | H : _ /\ _ |- _ => destruct H end; try discriminate; try easy; subst; auto 6.
    all: match goal with H : [_; _] = [_; _] |- _ => injection H as <- <- end; auto 6.
  - destruct Hc as [<-|[]]. unfold label_for. rewrite split_on_nochar by now apply repair_no_dash.
    destruct (Nat.ltb_spec 1 (width cols)).
    + assert (width cols = 2)%nat as -> by lia. cbn. split.
      * intros [[H1 _]|H1]; [discriminate H1|]. injection H1 as <- <-. auto.
      * intros [(_ & -> & ->)|(H1 & _)]; [now right|easy].
    + split.
      * intros [[H1 ->]|H1]; [|discriminate H1]. injection H1 as <-. auto.
      * intros [(_ & -> & ->)|(H1 & _)]; [now left|easy].
Qed.

Lemma stored_nth factors u f n g i v : dget u factors = Some f -> f <> 0%Qc ->
  nth_error (stored factors (Some u) (map (fun i => Some (g i)) (seq 0 n))) i = Some (Some v) <->
  (i < n)%nat /\ (v * f = g i)%Qc.
Proof.
  intros Hf H0. cbn [stored]. rewrite Hf. unfold scale_values. rewrite map_map. cbn [nmul].
  rewrite nth_error_map. destruct (Nat.lt_ge_cases i n) as [Hi|Hi].
  - rewrite (nth_error_nth' _ 0%nat) by now rewrite seq_length. rewrite seq_nth by easy. cbn [option_map Nat.add].
    split.
    + intros E. split; [easy|]. assert (E' : (g i * (1 / f))%Qc = v) by congruence. rewrite <- E'. now field.
    + intros [_ E]. do 2 f_equal. rewrite <- E. now field.
  - rewrite (proj2 (nth_error_None _ _)) by now rewrite seq_length. cbn. split; [discriminate|lia].
Qed.

(** What the aggregated table reports, in terms of the table it is given. *)
Theorem aggregate_reports n dvs dv_units factors s agg name sub i v :
  NoDup dvs -> Forall capitalised dvs -> aggregate_sample n dvs dv_units factors s = Ok agg ->
  (reports agg name sub i v <->
   exists dv f, In dv dvs /\ of_dv dv s <> [] /\ dv_factor dv_units factors dv f /\ (i < n)%nat /\
     ((dv <> "Time" /\ name = ("repair_" ++ lower dv)%string /\ sub = "" /\ (v * f)%Qc = qtotal (dv_is dv) s i) \/
      (dv = "Time" /\ name = "repair_time" /\
        ((sub = "sequential" /\ (v * f)%Qc = qtotal (dv_is dv) s i) \/ (sub = "parallel" /\ q_peak s dv i (v * f)%Qc))))).
Proof.
  intros Hn Hc H. destruct (dv_totals_spec n dvs s Hn Hc) as (d & Ed & Nd & Gd).
  destruct (aggregate_eq _ _ _ _ _ _ d Ed Nd H) as (_ & Hu & Hp). rewrite Forall_forall in Hc.
  assert (Hall : forall x, In x (keys d) -> exists dv, capitalised dv /\ In x (dv_names dv)).
  { intros x Hx. apply In_keys_dget in Hx as (w & Hw). apply Gd in Hw as (dv & H1 & _ & H3). exists dv. split; [now apply Hc|].
    rewrite <- (dv_columns_names n s). now apply (in_map fst) in H3. }
  assert (Hrep : reports agg name sub i v <-> exists dv c col, In dv dvs /\ of_dv dv s <> [] /\ In (c, col) (dv_columns n s dv) /\
     ((label_for (width (keys d)) c = [name] /\ sub = "") \/ label_for (width (keys d)) c = [name; sub]) /\
     exists u f, dget dv dv_units = Some u /\ dget u factors = Some f /\ f <> 0%Qc /\
       nth_error (stored factors (Some u) col) i = Some (Some v)).
  { unfold reports. split.
    - intros (lab & col & Hin & Hl & Hnth). apply (Permutation_in _ Hp) in Hin. apply in_map_iff in Hin as ([c w] & E & Hin).
      cbn [fst snd] in E. apply In_dget in Hin as Hg; [|easy]. apply Gd in Hg as (dv & H1 & H2 & H3).
      assert (Hcn : In c (dv_names dv)) by (rewrite <- (dv_columns_names n s); now apply (in_map fst) in H3).
      destruct (Hu c w) as (u & f & Hu1 & Hu2 & Hu3); [now apply In_dget|]. rewrite Hu1 in E. injection E as <- <-.
      rewrite (title_names dv) in Hu1 by auto. exists dv, c, w. repeat split; auto. eauto 7.
    - intros (dv & c & col & H1 & H2 & H3 & Hl & u & f & Hu1 & Hu2 & Hu3 & Hnth).
      exists (label_for (width (keys d)) c), (stored factors (Some u) col). split; [|auto].
      apply (Permutation_in _ (Permutation_sym Hp)). apply in_map_iff. exists (c, col). cbn [fst snd]. split.
      + rewrite (title_names dv); [now rewrite Hu1|now apply Hc|]. rewrite <- (dv_columns_names n s). now apply (in_map fst) in H3.
      + apply dget_In. apply Gd. eauto. }
  rewrite Hrep. clear Hrep.
  assert (Hkey : forall dv c col, In dv dvs -> of_dv dv s <> [] -> In (c, col) (dv_columns n s dv) ->
     In c (keys d) /\ In c (dv_names dv)).
  { intros dv c col H1 H2 H3. split.
    - assert (Hg : dget c d = Some col) by (apply Gd; eauto). now apply dget_Some_keys in Hg.
    - rewrite <- (dv_columns_names n s). now apply (in_map fst) in H3. }
  split.
  - intros (dv & c & col & H1 & H2 & H3 & Hl & u & f & Hu1 & Hu2 & Hu3 & Hnth).
    destruct (Hkey _ _ _ H1 H2 H3) as [Hk Hcn].
    apply (label_reports _ dv) in Hl; auto. exists dv, f. split; [easy|]. split; [easy|]. split; [now exists u|].
    unfold dv_columns in H3. destruct Hl as [(Hne & -> & ->)|(-> & -> & Hl)].
    + rewrite (proj2 (String.eqb_neq _ _) Hne) in H3. destruct H3 as [E|[]]. injection E as <- <-.
      apply (stored_nth _ _ f) in Hnth as [Hi E]; auto. split; [easy|]. left. repeat split; auto. now rewrite E, location_sum_total.
    + cbn in H3. destruct H3 as [E|[E|[]]]; injection E as <- <-; destruct Hl as [[Ec ->]|[Ec ->]]; try discriminate Ec;
        apply (stored_nth _ _ f) in Hnth as [Hi E]; auto; (split; [easy|]); right; (split; [easy|]); (split; [easy|]).
      * left. split; [easy|]. now rewrite E, location_sum_total.
      * right. split; [easy|]. now apply (max_peak n).
  - intros (dv & f & H1 & H2 & (u & Hu1 & Hu2 & Hu3) & Hi & Hcase). destruct Hcase as [(Hne & -> & -> & E)|(-> & -> & Hcase)].
    + assert (H3 : In (repair_column dv, sum_rows n (location_sums n dv s)) (dv_columns n s dv)).
      { unfold dv_columns. rewrite (proj2 (String.eqb_neq _ _) Hne). now left. }
      destruct (Hkey _ _ _ H1 H2 H3) as [Hk Hcn].
      exists dv, (repair_column dv), (sum_rows n (location_sums n dv s)). repeat split; auto.
      * apply (label_reports _ dv); auto.
      * exists u, f. repeat split; auto. apply (stored_nth _ _ f); auto. split; [easy|]. now rewrite E, location_sum_total.
    + destruct Hcase as [[-> E]|[-> E]].
      * assert (H3 : In ("repair_time-sequential", sum_rows n (location_sums n "Time" s)) (dv_columns n s "Time")) by (now left).
        destruct (Hkey _ _ _ H1 H2 H3) as [Hk Hcn].
        exists "Time", "repair_time-sequential", (sum_rows n (location_sums n "Time" s)). repeat split; auto.
        -- apply (label_reports _ "Time"); auto 7.
        -- exists u, f. repeat split; auto. apply (stored_nth _ _ f); auto. split; [easy|]. now rewrite E, location_sum_total.
      * assert (H3 : In ("repair_time-parallel", max_rows n (location_sums n "Time" s)) (dv_columns n s "Time")) by (right; now left).
        destruct (Hkey _ _ _ H1 H2 H3) as [Hk Hcn].
        exists "Time", "repair_time-parallel", (max_rows n (location_sums n "Time" s)). repeat split; auto.
        -- apply (label_reports _ "Time"); auto 7.
        -- exists u, f. repeat split; auto. apply (stored_nth _ _ f); auto. split; [easy|]. now apply (max_peak n).
Qed.

Lemma aggregate_ok n dvs dv_units factors s :
  NoDup dvs -> Forall capitalised dvs ->
  (exists dv, In dv dvs /\ of_dv dv s <> []) ->
  (forall dv, In dv dvs -> of_dv dv s <> [] -> exists f, dv_factor dv_units factors dv f) ->
  is_ok (aggregate_sample n dvs dv_units factors s) = true.
Proof.
  intros Hn Hc (dv0 & Hin0 & Hp0) Hf. destruct (dv_totals_spec n dvs s Hn Hc) as (d & Ed & Nd & Gd).
  unfold aggregate_sample. rewrite Ed. cbn [bind]. rewrite Forall_forall in Hc.
  assert (Hkey : forall c, In c (keys d) -> exists dv, In dv dvs /\ of_dv dv s <> [] /\ title (measure c) = dv).
  { intros c Hk. apply In_keys_dget in Hk as (w & Hw). apply Gd in Hw as (dv & H1 & H2 & H3). exists dv. split; [easy|]. split; [easy|].
    apply title_names; [now apply Hc|]. rewrite <- (dv_columns_names n s). now apply (in_map fst) in H3. }
  destruct (column_units_ok dv_units (keys d)) as (us & Eus).
  { intros c Hk. destruct (Hkey c Hk) as (dv & H1 & H2 & ->). destruct (Hf dv H1 H2) as (f & u & Hu & _). eauto. }
  rewrite Eus. cbn [bind]. destruct (column_units_spec _ _ _ Eus) as [Hus Hu].
  assert (Hnu : NoDup (map fst us)).
  { rewrite Hus. apply FinFun.Injective_map_NoDup; [|exact Nd]. intros a b [= ->]. easy. }
  assert (Hk : known_units factors (map snd us)).
  { unfold known_units. apply Forall_forall. intros u Hin. apply in_map_iff in Hin as ([lab u'] & <- & Hin). cbn [snd].
    assert (Hl : In lab (map (fun c => [c]) (keys d))) by (rewrite <- Hus; now apply (in_map fst) in Hin).
    apply in_map_iff in Hl as (c & <- & Hk). destruct (Hkey c Hk) as (dv & H1 & H2 & E).
    assert (Hg : unit_of us [c] = Some u') by now apply (In_aget label_eqb label_eqb_eq).
    apply Hu in Hg; [|easy|easy]. destruct (Hf dv H1 H2) as (f & u & Hu1 & Hu2 & Hu3). rewrite E in Hg. exists f.
    assert (u = u') by congruence. now subst. }
  rewrite (save_ok factors us false 1 _ Hnu Hk). cbn [bind header].
  set (t := map (fun c : string * list num => ([fst c], snd c)) d).
  assert (Hhd : make_axis 1 (map fst (sort_labels t)) = Flat (map (fun e => hd "" (fst e)) (sort_labels t))).
  { unfold make_axis. cbn. now rewrite map_map. }
  rewrite Hhd.
  destruct (multi_labels (map (fun e => hd "" (fst e)) (sort_labels t))) as (ax & -> & _); [|reflexivity].
  intros E. apply map_eq_nil in E.
  assert (Hp : Permutation t []) by (rewrite <- E; symmetry; apply sort_labels_perm). apply Permutation_sym, Permutation_nil in Hp.
  apply map_eq_nil in Hp. subst d.
  destruct (dv_columns n s dv0) as [|[c col] l] eqn:E0.
  - unfold dv_columns in E0. destruct (String.eqb dv0 "Time"); discriminate.
  - assert (Hg : dget c [] = Some col); [|discriminate Hg]. apply Gd. exists dv0. rewrite E0. repeat split; auto. now left.
Qed.

(** ** Totals of the combined sample *)
Definition no_ds (s : combined) : list (lkey * list num) := map (fun c => (fst (fst c), snd c)) s.

Lemma sum_over_ds_total p n s i : (i < n)%nat ->
  qtotal p (sum_over_ds n s) i = qsum (map (loss_in i) (filter (fun c => p (fst c)) (no_ds s))).
Proof.
  intros Hi. unfold qtotal, sum_over_ds. fold (no_ds s). rewrite !qsum_filter, map_map. cbn [fst snd row].
  rewrite (map_ext _ (fun g : lkey * list (list num) =>
     qsum (map (fun c => if p (fst g) then nfill0 (nth i c None) else 0%Qc) (snd g)))).
  - now rewrite (qsum_groupby lkey_eqb lkey_eqb_eq lkey_le (fun k c => if p k then nfill0 (nth i c None) else 0%Qc)).
  - intros g. unfold row, total_columns. cbn [snd]. rewrite nth_map_seq by easy. rewrite nsum_nfill0, map_map.
    destruct (p (fst g)); [easy|]. rewrite qsum_const. qlra.
Qed.
Lemma sum_over_ds_keys n s k : In k (map fst (sum_over_ds n s)) <-> exists c, In c (no_ds s) /\ fst c = k.
Proof.
  unfold sum_over_ds. fold (no_ds s). rewrite map_map. cbn [fst].
  change (map (fun g : lkey * list (list num) => fst g)) with (map (@fst lkey (list (list num)))).
  rewrite (groupby_keys_In lkey_eqb lkey_le lkey_eqb_eq). rewrite in_map_iff. firstorder.
Qed.
Lemma sum_over_ds_NoDup n s : NoDup (map fst (sum_over_ds n s)).
Proof.
  unfold sum_over_ds. rewrite map_map. cbn [fst]. apply (groupby_NoDup lkey_eqb lkey_le lkey_eqb_eq).
Qed.
Lemma sum_over_ds_length n s : Forall (fun c => List.length (snd c) = n) (sum_over_ds n s).
Proof.
  unfold sum_over_ds. apply Forall_map. apply Forall_forall. intros g _. cbn. unfold total_columns. now rewrite map_length, seq_length.
Qed.

Lemma read_sample_spec st : ds_sample st <> None \/ lf_sample st <> None ->
  exists s st', read_sample st = (Some s, st') /\ no_ds s = stored_losses st /\ stored_losses st' = stored_losses st.
Proof.
  unfold read_sample, stored_losses, no_ds, with_ds, add_ds_level. destruct (ds_sample st) as [ds|] eqn:E1, (lf_sample st) as [lf|] eqn:E2.
  - intros _. eexists _, _. split; [reflexivity|]. cbn [ds_sample lf_sample]. rewrite !map_app, !map_map. split; [reflexivity|].
    reflexivity.
  - intros _. eexists _, _. split; [reflexivity|]. rewrite E1, E2, app_nil_r, map_map. split; reflexivity.
  - intros _. eexists _, _. split; [reflexivity|]. rewrite E1, E2. split; reflexivity.
  - now intros [H|H].
Qed.

Lemma sized_rows n st s : sized n st -> no_ds s = stored_losses st -> sample_rows s = n.
Proof.
  intros [Hne Hall] E. rewrite <- E in Hne, Hall. unfold sample_rows. destruct s as [|c s]; [easy|]. now inversion Hall; subst.
Qed.
Lemma sized_some n st : sized n st -> ds_sample st <> None \/ lf_sample st <> None.
Proof. intros [Hne _]. unfold stored_losses in Hne. destruct (ds_sample st), (lf_sample st); auto; [left|left|right]; discriminate. Qed.

Lemma of_dv_ne n s dv st : no_ds s = stored_losses st -> (of_dv dv (sum_over_ds n s) <> [] <-> occurs dv st).
Proof.
  intros E. unfold occurs. rewrite <- E. split.
  - intros H. destruct (of_dv dv (sum_over_ds n s)) as [|c l] eqn:E2; [easy|].
    assert (Hin : In c (of_dv dv (sum_over_ds n s))) by (rewrite E2; now left). apply filter_In in Hin as [Hin Hk].
    apply (in_map fst), sum_over_ds_keys in Hin as (c' & Hc' & Ek). exists c'. rewrite Ek. split; [easy|]. now apply String.eqb_eq.
  - intros (c & Hc & Hk) E2. assert (Hin : In (fst c) (map fst (sum_over_ds n s))) by (apply sum_over_ds_keys; eauto).
    apply in_map_iff in Hin as (c' & Ek & Hc'). assert (Hf : In c' (of_dv dv (sum_over_ds n s))).
    { apply filter_In. split; [easy|]. rewrite Ek. now apply String.eqb_eq. }
    now rewrite E2 in Hf.
Qed.
Lemma total_sum p n s st i : (i < n)%nat -> no_ds s = stored_losses st -> qtotal p (sum_over_ds n s) i = total p st i.
Proof. intros Hi E. rewrite sum_over_ds_total by easy. unfold total. now rewrite E. Qed.
Lemma location_sum_over n s dv l st : no_ds s = stored_losses st ->
  ((exists c, In c (sum_over_ds n s) /\ k_dv (fst c) = dv /\ k_loc (fst c) = l) <-> location_of dv l st).
Proof.
  intros E. unfold location_of. rewrite <- E. split.
  - intros (c & Hc & H1 & H2). apply (in_map fst), sum_over_ds_keys in Hc as (c' & Hc' & Ek). exists c'. now rewrite Ek.
  - intros (c & Hc & H1 & H2). assert (Hin : In (fst c) (map fst (sum_over_ds n s))) by (apply sum_over_ds_keys; eauto).
    apply in_map_iff in Hin as (c' & Ek & Hc'). exists c'. now rewrite Ek.
Qed.
Lemma peak_sum_over n s dv st i x : (i < n)%nat -> no_ds s = stored_losses st ->
  (q_peak (sum_over_ds n s) dv i x <-> largest_location st dv i x).
Proof.
  intros Hi E. unfold q_peak, largest_location. split; intros [H1 H2]; split.
  - destruct H1 as (l & Hl & ->). exists l. rewrite <- (total_sum _ n s) by easy. split; [now apply (location_sum_over n s dv l st)|easy].
  - intros l Hl. rewrite <- (total_sum _ n s) by easy. apply H2. now apply (location_sum_over n s dv l st).
  - destruct H1 as (l & Hl & ->). exists l. rewrite (total_sum _ n s st) by easy. split; [now apply (location_sum_over n s dv l st)|easy].
  - intros l Hl. rewrite (total_sum _ n s st) by easy. apply H2. now apply (location_sum_over n s dv l st).
Qed.

(** ** [aggregate_losses] *)
Lemma aggregate_losses_eq order raise dvs dv_units factors config st n : sized n st ->
  (match config with None => Ok tt | Some c => validate_thresholds raise dvs c end) = Ok tt ->
  exists s st', no_ds s = stored_losses st /\ stored_losses st' = stored_losses st /\ read_sample st = (Some s, st') /\
  aggregate_losses order raise dvs dv_units factors config None st =
  ((let* r := apply_replacement_thresholds n config (sum_over_ds n s) in
    let* agg := aggregate_sample n dvs dv_units factors (fst r) in Ok (agg, Some (snd r))), st').
Proof.
  intros Hs Hv. destruct (read_sample_spec st (sized_some _ _ Hs)) as (s & st' & Er & E1 & E2).
  exists s, st'. split; [easy|]. split; [easy|]. split; [easy|]. unfold aggregate_losses. rewrite Hv, Er.
  rewrite (sized_rows n st s Hs E1). cbn [bind].
  destruct (ds_sample st) eqn:D, (lf_sample st) eqn:L; try reflexivity.
  exfalso. destruct (sized_some _ _ Hs); congruence.
Qed.

Theorem totals_reported order raise dvs dv_units factors st n agg exc st' :
  sized n st -> NoDup dvs -> Forall capitalised dvs ->
  aggregate_losses order raise dvs dv_units factors None None st = (Ok (agg, exc), st') ->
  forall name sub i v,
  reports agg name sub i v <->
   exists dv f, In dv dvs /\ occurs dv st /\ dv_factor dv_units factors dv f /\ (i < n)%nat /\
     ((dv <> "Time" /\ name = ("repair_" ++ lower dv)%string /\ sub = "" /\ (v * f)%Qc = total (dv_is dv) st i) \/
      (dv = "Time" /\ name = "repair_time" /\
        ((sub = "sequential" /\ (v * f)%Qc = total (dv_is dv) st i) \/
         (sub = "parallel" /\ largest_location st dv i (v * f)%Qc)))).
Proof.
  intros Hs Hn Hc H name sub i v.
  destruct (aggregate_losses_eq order raise dvs dv_units factors None st n Hs eq_refl) as (s & st2 & E1 & E2 & Er & E).
  rewrite E in H. injection H as H _. cbn [apply_replacement_thresholds bind fst snd] in H. binv H agg'. injection H as <- <-.
  rewrite (aggregate_reports n dvs dv_units factors _ _ name sub i v Hn Hc E0).
  split; intros (dv & f & H1 & H2 & H3 & H4 & H5); exists dv, f; (split; [easy|]);
    (split; [apply (of_dv_ne n s) in H2 || apply (of_dv_ne n s dv st); easy|]); (split; [easy|]); (split; [easy|]).
  - rewrite !(total_sum _ n s st), (peak_sum_over n s dv st) in H5 by easy. exact H5.
  - rewrite !(total_sum _ n s st), (peak_sum_over n s dv st) by easy. exact H5.
Qed.

Theorem totals_accepted order raise dvs dv_units factors st n :
  sized n st -> NoDup dvs -> Forall capitalised dvs ->
  (exists dv, In dv dvs /\ occurs dv st) ->
  (forall dv, In dv dvs -> occurs dv st -> exists f, dv_factor dv_units factors dv f) ->
  is_ok (fst (aggregate_losses order raise dvs dv_units factors None None st)) = true.
Proof.
  intros Hs Hn Hc (dv0 & H0 & Ho) Hf.
  destruct (aggregate_losses_eq order raise dvs dv_units factors None st n Hs eq_refl) as (s & st2 & E1 & E2 & Er & E).
  rewrite E. cbn [apply_replacement_thresholds bind fst snd].
  assert (Hok : is_ok (aggregate_sample n dvs dv_units factors (sum_over_ds n s)) = true).
  { apply aggregate_ok; auto.
    - exists dv0. split; [easy|]. now apply (of_dv_ne n s dv0 st).
    - intros dv H1 H2. apply Hf; [easy|]. now apply (of_dv_ne n s dv st). }
  now destruct (aggregate_sample n dvs dv_units factors (sum_over_ds n s)).
Qed.

(** ** Parallel and sequential repair *)
Lemma loss_nonneg st i c : nonnegative st -> In c (stored_losses st) -> (0 <= loss_in i c)%Qc.
Proof.
  intros Hn Hc. unfold loss_in. destruct (nth i (snd c) None) as [x|] eqn:E; cbn; [|apply Qcle_refl].
  apply (Hn c x Hc). rewrite <- E. apply nth_In. destruct (Nat.lt_ge_cases i (List.length (snd c))) as [H|H]; [easy|].
  rewrite nth_overflow in E by easy. discriminate.
Qed.
Lemma total_nonneg st p i : nonnegative st -> (0 <= total p st i)%Qc.
Proof.
  intros Hn. unfold total. apply qsum_nonneg. apply Forall_forall. intros x Hx. apply in_map_iff in Hx as (c & <- & Hc).
  apply filter_In in Hc as [Hc _]. now apply (loss_nonneg st).
Qed.
Lemma total_mono st (p q : lkey -> bool) i : nonnegative st -> (forall k, p k = true -> q k = true) -> (total p st i <= total q st i)%Qc.
Proof.
  intros Hn Hpq. unfold total. rewrite !qsum_filter.
  assert (H : forall l, (forall c, In c l -> (0 <= loss_in i c)%Qc) ->
     (qsum (map (fun c => if p (fst c) then loss_in i c else 0%Qc) l) <= qsum (map (fun c => if q (fst c) then loss_in i c else 0%Qc) l))%Qc).
  { induction l as [|c l IH]; intros Hl; [apply Qcle_refl|]. cbn. apply Qcplus_le_compat; [|apply IH; intros; apply Hl; now right].
    destruct (p (fst c)) eqn:E; [rewrite (Hpq _ E); apply Qcle_refl|]. destruct (q (fst c)); [apply Hl; now left|apply Qcle_refl]. }
  apply H. intros c Hc. now apply (loss_nonneg st).
Qed.
Lemma largest_le_total st dv i x : nonnegative st -> largest_location st dv i x -> (x <= total (dv_is dv) st i)%Qc.
Proof.
  intros Hn [(l & _ & ->) _]. apply total_mono; [easy|]. intros k. unfold dv_at, dv_is. now intros [H _]%andb_true_iff.
Qed.

(** ** Thresholds *)
Definition thr_col (n : nat) (rows : nat -> bool) (rv : string * list Qc) : lkey * list Qc :=
  (threshold_key (fst rv), map (fun i => if rows i then nth i (snd rv) 0%Qc else 0%Qc) (seq 0 n)).

Lemma combine_seq_map {A B} (f : nat -> A -> B) (d : A) l : forall k,
  map (fun ix => f (fst ix) (snd ix)) (combine (seq k (List.length l)) l) = map (fun i => f (k + i)%nat (nth i l d)) (seq 0 (List.length l)).
Proof.
  induction l as [|a l IH]; intros k; [easy|]. cbn [List.length seq combine map fst snd]. rewrite Nat.add_0_r. f_equal.
  rewrite IH, <- seq_shift, map_map. apply map_ext. intros i. f_equal. lia.
Qed.
Lemma zero_where_eq rows col n : List.length col = n ->
  zero_where 0%Qc rows col = map (fun i => if rows i then 0%Qc else nth i col 0%Qc) (seq 0 n).
Proof. intros <-. unfold zero_where. now rewrite (combine_seq_map (fun i x => if rows i then 0%Qc else x) 0%Qc). Qed.
Lemma set_where_zero rows new n :
  set_where rows new (repeat 0%Qc n) = map (fun i => if rows i then nth i new 0%Qc else 0%Qc) (seq 0 n).
Proof.
  unfold set_where. rewrite (combine_seq_map (fun i x => if rows i then nth i new 0%Qc else x) 0%Qc).
  rewrite repeat_length. apply map_ext_in. intros i Hi. apply in_seq in Hi. cbn [Nat.add]. now rewrite nth_repeat.
Qed.

Lemma threshold_key_inj a b : threshold_key a = threshold_key b -> a = b.
Proof. now intros [= ->]. Qed.

Lemma assign_new n rows s rv : ~ In (threshold_key (fst rv)) (map fst s) ->
  Permutation (assign_replacement n rows s rv) (s ++ [thr_col n rows rv]).
Proof.
  intros Hk. unfold assign_replacement. set (key := threshold_key (fst rv)) in *.
  assert (Hm : amem lkey_eqb key s = false).
  { unfold amem. destruct (aget lkey_eqb key s) eqn:E; [|easy]. exfalso. apply (aget_In lkey_eqb lkey_eqb_eq) in E.
    apply Hk. now apply (in_map fst) in E. }
  rewrite Hm. unfold sort_lkeys. rewrite <- (isort_perm _ (s ++ _)). rewrite map_app. apply Permutation_app.
  - rewrite (map_ext_in _ (fun c => c)); [now rewrite map_id|]. intros c Hc. destruct (lkey_eqb key (fst c)) eqn:E; [|easy].
    apply lkey_eqb_eq in E. exfalso. apply Hk. rewrite E. now apply in_map.
  - cbn [map fst snd]. rewrite lkey_eqb_refl. unfold thr_col. fold key. now rewrite set_where_zero.
Qed.
Lemma assign_all n rows rvs : forall s, NoDup (keys rvs) -> (forall dv, In dv (keys rvs) -> ~ In (threshold_key dv) (map fst s)) ->
  Permutation (fold_left (assign_replacement n rows) rvs s) (s ++ map (thr_col n rows) rvs).
Proof.
  induction rvs as [|rv rvs IH]; intros s Hn Hk; [now rewrite app_nil_r|]. cbn [fold_left]. inversion Hn; subst.
  pose proof (assign_new n rows s rv (Hk _ (or_introl eq_refl))) as Hp.
  rewrite IH; [|easy|].
  - rewrite Hp. now rewrite <- app_assoc.
  - intros dv Hdv Hin. apply (Permutation_in _ (Permutation_map fst Hp)) in Hin. rewrite map_app in Hin.
    apply in_app_iff in Hin as [Hin|[E|[]]]; [apply (Hk dv); [now right|easy]|]. cbn in E. apply threshold_key_inj in E.
    subst dv. easy.
Qed.

Definition q_exceeds (s : qframe) (ratios : dict Qc) (rv : string * list Qc) (i : nat) : bool :=
  negb (has_replacement (of_dv (fst rv) s) i) &&
  match dget (fst rv) ratios with
  | Some ratio => Qcltb (nth i (snd rv) 0%Qc * ratio) (repair_sum (of_dv (fst rv) s) i) | None => false end.

Lemma exceedance_spec n ratios s rv b : exceedance_of n ratios s rv = Ok b ->
  of_dv (fst rv) s <> [] /\ b = map (q_exceeds s ratios rv) (seq 0 n).
Proof.
  unfold exceedance_of. destruct (of_dv (fst rv) s) as [|c l] eqn:E; [easy|]. rewrite <- E. intros H. split; [now rewrite E|].
  destruct (forallb (has_replacement (of_dv (fst rv) s)) (seq 0 n)) eqn:Ef.
  - injection H as <-. apply map_ext_in. intros i Hi. rewrite forallb_forall in Ef. unfold q_exceeds. now rewrite (Ef i Hi).
  - unfold q_exceeds. destruct (dget (fst rv) ratios); [|easy]. injection H as <-. reflexivity.
Qed.

Lemma thresholds_spec n rvs ratios s r : Forall (fun c => List.length (snd c) = n) s -> NoDup (keys rvs) ->
  (forall c, In c s -> k_dmg (fst c) <> "threshold_exceedance") ->
  apply_replacement_thresholds n (Some (rvs, ratios)) s = Ok r ->
  (forall rv, In rv rvs -> of_dv (fst rv) s <> []) /\
  snd r = map (fun rv => (fst rv, map (q_exceeds s ratios rv) (seq 0 n))) rvs /\
  exists rows, (forall i, (i < n)%nat -> rows i = existsb (fun rv => q_exceeds s ratios rv i) rvs) /\
  Permutation (fst r) (map (fun c => (fst c, map (fun i => if rows i then 0%Qc else nth i (snd c) 0%Qc) (seq 0 n))) s
                       ++ map (thr_col n rows) rvs).
Proof.
  intros Hlen Hn Hthr H. unfold apply_replacement_thresholds in H. binv H exc. injection H as <-. cbn [fst snd].
  assert (Hexc : (forall rv, In rv rvs -> of_dv (fst rv) s <> []) /\ exc = map (fun rv => (fst rv, map (q_exceeds s ratios rv) (seq 0 n))) rvs).
  { clear - E. revert exc E. induction rvs as [|rv rvs IH]; intros exc E; cbn [mapM] in E.
    - injection E as <-. split; [easy|reflexivity].
    - binv E b. destruct (exceedance_of n ratios s rv) as [b0|] eqn:Eb; [|easy]. cbn [bind] in E0. injection E0 as <-.
      cbn [bind] in E. destruct (mapM _ rvs) as [es|] eqn:Em; [|easy]. cbn [bind] in E. injection E as <-.
      destruct (IH es eq_refl) as [H1 ->]. destruct (exceedance_spec _ _ _ _ _ Eb) as [H2 ->]. split; [|reflexivity].
      intros rv' [<-|Hrv]; [easy|now apply H1]. }
  destruct Hexc as [H1 ->]. split; [easy|]. split; [reflexivity|].
  set (rows := fun i => existsb _ _). exists rows. split.
  { intros i Hi. unfold rows. clear - Hi. induction rvs as [|rv rvs IH]; [easy|]. cbn [map existsb snd]. rewrite IH.
    now rewrite nth_map_seq. }
  rewrite assign_all; auto.
  2:{ intros dv _ Hin. apply in_map_iff in Hin as (c & Ec & Hc). apply (Hthr c Hc). now rewrite Ec. }
  rewrite map_app. apply Permutation_app.
  - rewrite (map_ext_in _ (fun c => (fst c, map (fun i => if rows i then 0%Qc else nth i (snd c) 0%Qc) (seq 0 n)))); [reflexivity|].
    intros c Hc. rewrite (proj2 (String.eqb_neq _ _) (Hthr c Hc)). rewrite Forall_forall in Hlen. now rewrite (zero_where_eq _ _ n) by auto.
  - rewrite map_map. reflexivity.
Qed.

Lemma qtotal_perm p s s' i : Permutation s s' -> qtotal p s i = qtotal p s' i.
Proof. intros H. unfold qtotal. rewrite !qsum_filter. apply qsum_perm. now apply Permutation_map. Qed.
Lemma of_dv_perm dv s s' : Permutation s s' -> (of_dv dv s <> [] <-> of_dv dv s' <> []).
Proof.
  intros H. assert (Hp : Permutation (of_dv dv s) (of_dv dv s')) by now apply filter_perm.
  split; intros Hne E; rewrite E in Hp; [apply Permutation_sym in Hp|]; apply Permutation_nil in Hp; easy.
Qed.

Section Thresholded.
  Context (n : nat) (rows : nat -> bool) (s : qframe) (rvs : dict (list Qc)).
  Context (Hn : NoDup (keys rvs)).
  Let zeroed := map (fun c : lkey * list Qc => (fst c, map (fun i => if rows i then 0%Qc else nth i (snd c) 0%Qc) (seq 0 n))) s.
  Let s' := zeroed ++ map (thr_col n rows) rvs.

  Lemma zeroed_total p i : (i < n)%nat -> qtotal p zeroed i = if rows i then 0%Qc else qtotal p s i.
  Proof.
    intros Hi. unfold qtotal, zeroed. rewrite !qsum_filter, map_map. cbn [fst].
    destruct (rows i) eqn:E.
    - rewrite (map_ext _ (fun _ => 0%Qc)); [rewrite qsum_const; qlra|]. intros c. unfold row. cbn [snd]. rewrite nth_map_seq by easy.
      rewrite E. now destruct (p (fst c)).
    - apply (f_equal qsum). apply map_ext. intros c. unfold row. cbn [snd]. rewrite nth_map_seq by easy. now rewrite E.
  Qed.
  Lemma thr_total p i : (i < n)%nat -> qtotal p (map (thr_col n rows) rvs) i =
    if rows i then qsum (map (fun rv => if p (threshold_key (fst rv)) then nth i (snd rv) 0%Qc else 0%Qc) rvs) else 0%Qc.
  Proof.
    intros Hi. unfold qtotal. rewrite qsum_filter, map_map. cbn [thr_col fst].
    destruct (rows i) eqn:E.
    - apply (f_equal qsum). apply map_ext. intros rv. unfold row. cbn [thr_col snd]. rewrite nth_map_seq by easy. now rewrite E.
    - rewrite (map_ext _ (fun _ => 0%Qc)); [rewrite qsum_const; qlra|]. intros rv. unfold row. cbn [thr_col snd]. rewrite nth_map_seq by easy.
      rewrite E. now destruct (p _).
  Qed.
  Lemma qtotal_app p a b i : qtotal p (a ++ b) i = (qtotal p a i + qtotal p b i)%Qc.
  Proof. unfold qtotal. now rewrite filter_app, map_app, qsum_app. Qed.

  Lemma qsum_cons x l : qsum (x :: l) = (x + qsum l)%Qc.
  Proof. reflexivity. Qed.
  Lemma single_value dv value i : dget dv rvs = Some value -> forall q,
    qsum (map (fun rv => if String.eqb (fst rv) dv && q then nth i (snd rv) 0%Qc else 0%Qc) rvs) = if q then nth i value 0%Qc else 0%Qc.
  Proof.
    intros Hg q. clear s' zeroed. induction rvs as [|rv l IH]; [easy|]. inversion Hn; subst. cbn [map fst]. rewrite qsum_cons.
    destruct rv as [dv' val]. cbn [dget fst snd] in *. rewrite (String.eqb_sym dv) in Hg.
    destruct (String.eqb_spec dv' dv) as [->|Hne].
    - injection Hg as ->. cbn [andb]. rewrite (map_ext_in _ (fun _ => 0%Qc)).
      + rewrite qsum_const. destruct q; qlra.
      + intros [dv2 v2] Hin. cbn [fst]. destruct (String.eqb_spec dv2 dv) as [->|]; [|easy]. exfalso. apply H1.
        now apply (in_map fst) in Hin.
    - cbn [andb]. rewrite (IH H2 Hg). qlra.
  Qed.

  Lemma thresholded_total dv value i : (i < n)%nat -> dget dv rvs = Some value ->
    qtotal (dv_is dv) s' i = if rows i then nth i value 0%Qc else qtotal (dv_is dv) s i.
  Proof.
    intros Hi Hg. unfold s'. rewrite qtotal_app, zeroed_total, thr_total by easy. destruct (rows i); [|qlra].
    rewrite (map_ext _ (fun rv => if String.eqb (fst rv) dv && true then nth i (snd rv) 0%Qc else 0%Qc)).
    - rewrite (single_value dv value) by easy. qlra.
    - intros rv. unfold dv_is. cbn [threshold_key k_dv]. now rewrite andb_true_r.
  Qed.
  Lemma thresholded_location dv value l i : (i < n)%nat -> dget dv rvs = Some value ->
    qtotal (dv_at dv l) s' i = if rows i then if String.eqb "0" l then nth i value 0%Qc else 0%Qc else qtotal (dv_at dv l) s i.
  Proof.
    intros Hi Hg. unfold s'. rewrite qtotal_app, zeroed_total, thr_total by easy. destruct (rows i); [|qlra].
    rewrite (map_ext _ (fun rv => if String.eqb (fst rv) dv && String.eqb "0" l then nth i (snd rv) 0%Qc else 0%Qc)) by reflexivity.
    rewrite (single_value dv value) by easy. qlra.
  Qed.
  Lemma thresholded_locations dv value l : dget dv rvs = Some value ->
    ((exists c, In c s' /\ k_dv (fst c) = dv /\ k_loc (fst c) = l) <->
     (exists c, In c s /\ k_dv (fst c) = dv /\ k_loc (fst c) = l) \/ l = "0").
  Proof.
    intros Hg. unfold s', zeroed. split.
    - intros (c & Hc & H1 & H2). apply in_app_iff in Hc as [Hc|Hc]; apply in_map_iff in Hc as (c' & <- & Hc'); cbn in *; [|auto].
      left. exists c'. auto.
    - intros [(c & Hc & H1 & H2)| ->].
      + eexists. split; [apply in_app_iff; left; apply in_map; exact Hc|]. easy.
      + exists (thr_col n rows (dv, value)). split; [|easy]. apply in_app_iff. right. apply in_map. now apply dget_In.
  Qed.
  Lemma thresholded_of_dv dv value : dget dv rvs = Some value -> of_dv dv s' <> [].
  Proof.
    intros Hg E. assert (H : In (thr_col n rows (dv, value)) (of_dv dv s')); [|now rewrite E in H].
    apply filter_In. split; [|cbn; apply String.eqb_refl]. apply in_app_iff. right. apply in_map. now apply dget_In.
  Qed.
End Thresholded.

Lemma qtotal_single s c i : NoDup (map fst s) -> In c s -> qtotal (lkey_eqb (fst c)) s i = row i c.
Proof.
  intros Hn Hc. unfold qtotal. induction s as [|a s IH]; [easy|]. inversion Hn; subst. cbn [filter].
  destruct Hc as [->|Hc].
  - rewrite lkey_eqb_refl. cbn [map]. rewrite qsum_cons.
    assert (E : filter (fun c' => lkey_eqb (fst c) (fst c')) s = []).
    { apply filter_none. intros x Hx. destruct (lkey_eqb (fst c) (fst x)) eqn:E; [|easy]. apply lkey_eqb_eq in E.
      exfalso. apply H1. rewrite E. now apply in_map. }
    rewrite E. cbn. qlra.
  - destruct (lkey_eqb (fst c) (fst a)) eqn:E; [|now apply IH]. apply lkey_eqb_eq in E. exfalso. apply H1. rewrite <- E. now apply in_map.
Qed.

Lemma has_replacement_spec n s st dv i : (i < n)%nat -> no_ds s = stored_losses st ->
  has_replacement (of_dv dv (sum_over_ds n s)) i = true <-> replacement_in st dv i.
Proof.
  intros Hi E. unfold has_replacement, replacement_in. rewrite existsb_exists. split.
  - intros (c & Hc & H). apply filter_In in Hc as [Hc Hdv]. apply andb_true_iff in H as [H1 H2].
    exists (fst c). split; [now apply String.eqb_eq|]. split; [now apply String.eqb_eq|].
    rewrite <- (total_sum _ n s) by easy. rewrite qtotal_single by (auto; apply sum_over_ds_NoDup). now apply Qcltb_true.
  - intros (k & Hdv & Hr & Hpos). rewrite <- (total_sum _ n s) in Hpos by easy.
    destruct (filter (fun c => lkey_eqb k (fst c)) (sum_over_ds n s)) as [|c l] eqn:Ef.
    + exfalso. unfold qtotal in Hpos. rewrite Ef in Hpos. cbn in Hpos. revert Hpos. apply Qclt_not_eq || idtac.
      intros Hpos. now apply Qclt_not_eq in Hpos.
    + assert (Hc : In c (filter (fun c => lkey_eqb k (fst c)) (sum_over_ds n s))) by (rewrite Ef; now left).
      apply filter_In in Hc as [Hc Ek]. apply lkey_eqb_eq in Ek. subst k.
      exists c. split.
      * apply filter_In. split; [easy|]. now apply String.eqb_eq.
      * apply andb_true_iff. split; [unfold is_replacement; now apply String.eqb_eq|]. apply Qcltb_true.
        rewrite qtotal_single in Hpos by (auto; apply sum_over_ds_NoDup). exact Hpos.
Qed.
Lemma repair_sum_spec n s st dv i : (i < n)%nat -> no_ds s = stored_losses st ->
  repair_sum (of_dv dv (sum_over_ds n s)) i = repair_loss st dv i.
Proof.
  intros Hi E. unfold repair_loss. rewrite <- (total_sum _ n s) by easy. unfold repair_sum, of_dv, qtotal.
  rewrite filter_filter. reflexivity.
Qed.
Lemma q_exceeds_spec n s st ratios dv value i : (i < n)%nat -> no_ds s = stored_losses st ->
  q_exceeds (sum_over_ds n s) ratios (dv, value) i = true <-> exceeds st ratios dv value i.
Proof.
  intros Hi E. unfold q_exceeds, exceeds. cbn [fst snd]. rewrite andb_true_iff, negb_true_iff.
  rewrite <- (has_replacement_spec n s st dv i Hi E), <- (repair_sum_spec n s st dv i Hi E). split.
  - intros [H1 H2]. split; [now rewrite H1|]. destruct (dget dv ratios) as [r|]; [|easy]. exists r. split; [easy|]. now apply Qcltb_true.
  - intros [H1 (r & -> & H2)]. split; [now destruct (has_replacement _ i)|]. now apply Qcltb_true.
Qed.

Section WithThresholds.
  Context (order : list string -> list string) (raise : bool) (dvs : list string) (dv_units : dict string) (factors : dict Qc).
  Context (values : dict (list Qc)) (ratios : dict Qc) (st : loss_state) (n : nat).
  Context (Hs : sized n st) (Hn : NoDup dvs) (Hc : Forall capitalised dvs) (Hv : NoDup (keys values)).
  Context (Hthr : forall c, In c (stored_losses st) -> k_dmg (fst c) <> "threshold_exceedance").

  Lemma thresholds_outcome agg exc st' :
    aggregate_losses order raise dvs dv_units factors (Some (values, ratios)) None st = (Ok (agg, Some exc), st') ->
    exists s s' rows, no_ds s = stored_losses st /\
      (forall i, (i < n)%nat -> rows i = true <-> triggered st values ratios i) /\
      exc = map (fun rv => (fst rv, map (q_exceeds (sum_over_ds n s) ratios rv) (seq 0 n))) values /\
      (forall dv, In dv dvs -> exists value, dget dv values = Some value) /\
      (forall dv, In dv (keys values) -> occurs dv st) /\
      aggregate_sample n dvs dv_units factors s' = Ok agg /\
      Permutation s' (map (fun c => (fst c, map (fun i => if rows i then 0%Qc else nth i (snd c) 0%Qc) (seq 0 n))) (sum_over_ds n s)
                       ++ map (thr_col n rows) values).
  Proof.
    intros H. destruct (validate_thresholds raise dvs (values, ratios)) as [[]|e] eqn:Ev.
    2:{ unfold aggregate_losses in H. rewrite Ev in H. discriminate H. }
    destruct (aggregate_losses_eq order raise dvs dv_units factors (Some (values, ratios)) st n Hs Ev) as (s & st2 & E1 & E2 & Er & E).
    rewrite E in H. injection H as H _. binv H r. binv H agg'. injection H as <- <-.
    destruct (thresholds_spec n values ratios (sum_over_ds n s) r) as (H1 & H2 & rows & Hr & Hp); auto.
    { apply sum_over_ds_length. }
    { intros c Hin. apply (in_map fst), sum_over_ds_keys in Hin as (c' & Hc' & <-). apply Hthr. now rewrite <- E1. }
    exists s, (fst r), rows. split; [easy|]. split; [|split; [easy|split; [|split; [|split; [easy|exact Hp]]]]].
    - intros i Hi. rewrite (Hr i Hi), existsb_exists. unfold triggered. split.
      + intros ([dv value] & Hin & Hq). exists dv, value. split; [easy|]. now apply (q_exceeds_spec n s).
      + intros (dv & value & Hin & Hq). exists (dv, value). split; [easy|]. now apply (q_exceeds_spec n s st).
    - intros dv Hdv. unfold validate_thresholds in Ev. cbn [fst snd] in Ev.
      destruct (raise && _); [discriminate|]. destruct (existsb (fun dv => negb (dmem dv values)) dvs) eqn:Ex; [discriminate|].
      destruct (dget dv values) as [v|] eqn:Eg; [eauto|]. exfalso.
      assert (existsb (fun dv => negb (dmem dv values)) dvs = true); [|congruence]. apply existsb_exists. exists dv. split; [easy|].
      apply negb_true_iff, dmem_false. intros Hk. apply In_keys_dget in Hk as (v & Hv'). congruence.
    - intros dv Hdv. apply In_keys_dget in Hdv as (v & Hg). apply dget_In in Hg. apply (of_dv_ne n s dv st E1). now apply (H1 _ Hg).
  Qed.

  Theorem thresholds_reported agg exc st' :
    aggregate_losses order raise dvs dv_units factors (Some (values, ratios)) None st = (Ok (agg, Some exc), st') ->
    forall name sub i v, sub <> "parallel" ->
    (reports agg name sub i v <->
     exists dv f value, In dv dvs /\ dget dv values = Some value /\ dv_factor dv_units factors dv f /\ (i < n)%nat /\
       (if String.eqb dv "Time" then name = "repair_time" /\ sub = "sequential" else name = ("repair_" ++ lower dv)%string /\ sub = "") /\
       ((triggered st values ratios i /\ (v * f)%Qc = nth i value 0%Qc) \/
        (~ triggered st values ratios i /\ (v * f)%Qc = total (dv_is dv) st i))).
  Proof.
    intros H name sub i v Hsub. destruct (thresholds_outcome _ _ _ H) as (s & s' & rows & E1 & Hr & _ & Hval & _ & Ha & Hp).
    rewrite (aggregate_reports n dvs dv_units factors _ _ name sub i v Hn Hc Ha).
    assert (Htot : forall dv value, (i < n)%nat -> dget dv values = Some value -> forall x,
      (x = qtotal (dv_is dv) s' i <-> (triggered st values ratios i /\ x = nth i value 0%Qc) \/
        (~ triggered st values ratios i /\ x = total (dv_is dv) st i))).
    { intros dv value Hi Hg x. rewrite (qtotal_perm _ _ _ i Hp), (thresholded_total n rows _ values Hv dv value i Hi Hg).
      rewrite (total_sum _ n s st) by easy. pose proof (Hr i Hi) as Hri. destruct (rows i).
      - split; [intros ->; left; split; [now apply Hri|easy]|]. intros [[_ ->]|[Hno _]]; [easy|]. exfalso. apply Hno. now apply Hri.
      - split; [intros ->; right; split; [|easy]; intros Ht; apply Hri in Ht; discriminate|].
        intros [[Ht _]|[_ ->]]; [|easy]. apply Hri in Ht. discriminate. }
    split.
    - intros (dv & f & Hdv & Hpres & Hf & Hi & Hcase). destruct (Hval dv Hdv) as (value & Hg). exists dv, f, value.
      split; [easy|]. split; [easy|]. split; [easy|]. split; [easy|].
      destruct Hcase as [(Hne & -> & -> & Et)|(-> & -> & [[-> Et]|[-> _]])]; [| |easy].
      + rewrite (proj2 (String.eqb_neq _ _) Hne). split; [easy|]. now apply Htot.
      + rewrite String.eqb_refl. split; [easy|]. now apply Htot.
    - intros (dv & f & value & Hdv & Hg & Hf & Hi & Hname & Et). exists dv, f. split; [easy|]. split.
      { apply (of_dv_perm dv _ _ Hp). now apply (thresholded_of_dv n rows _ values dv value). }
      split; [easy|]. split; [easy|]. apply (Htot dv value Hi Hg) in Et.
      destruct (String.eqb_spec dv "Time") as [->|Hne]; destruct Hname as [-> ->]; [right|left]; auto.
  Qed.

  Theorem thresholds_parallel agg exc st' : nonnegative st -> (forall dv value, In (dv, value) values -> Forall (fun x => (0 <= x)%Qc) value) ->
    aggregate_losses order raise dvs dv_units factors (Some (values, ratios)) None st = (Ok (agg, Some exc), st') ->
    forall name i v,
    (reports agg name "parallel" i v <->
     exists f value, name = "repair_time" /\ In "Time" dvs /\ dget "Time" values = Some value /\ dv_factor dv_units factors "Time" f /\ (i < n)%nat /\
       ((triggered st values ratios i /\ (v * f)%Qc = nth i value 0%Qc) \/
        (~ triggered st values ratios i /\ largest_location st "Time" i (v * f)%Qc))).
  Proof.
    intros Hnn Hvn H name i v. destruct (thresholds_outcome _ _ _ H) as (s & s' & rows & E1 & Hr & _ & Hval & Hocc & Ha & Hp).
    rewrite (aggregate_reports n dvs dv_units factors _ _ name "parallel" i v Hn Hc Ha).
    assert (Hpk : forall value, (i < n)%nat -> dget "Time" values = Some value -> forall x,
      (q_peak s' "Time" i x <-> (triggered st values ratios i /\ x = nth i value 0%Qc) \/
        (~ triggered st values ratios i /\ largest_location st "Time" i x))).
    { intros value Hi Hg x.
      set (s2 := map (fun c => (fst c, map (fun i => if rows i then 0%Qc else nth i (snd c) 0%Qc) (seq 0 n))) (sum_over_ds n s)
                       ++ map (thr_col n rows) values) in *.
      assert (Hloc : forall l, (exists c, In c s' /\ k_dv (fst c) = "Time" /\ k_loc (fst c) = l) <-> location_of "Time" l st \/ l = "0").
      { intros l. rewrite <- (location_sum_over n s) by easy. rewrite <- (thresholded_locations n rows _ values "Time" value l Hg).
        fold s2. split; intros (c & Hin & H2); exists c; (split; [|easy]); [apply (Permutation_in _ Hp)|apply (Permutation_in _ (Permutation_sym Hp))]; easy. }
      assert (Hval0 : (0 <= nth i value 0)%Qc).
      { pose proof (Hvn "Time" value (dget_In _ _ Hg)) as Hf. rewrite Forall_forall in Hf.
        destruct (Nat.lt_ge_cases i (List.length value)) as [Hl|Hl]; [apply Hf; now apply nth_In|]. rewrite nth_overflow by easy. apply Qcle_refl. }
      assert (Htl : forall l, qtotal (dv_at "Time" l) s' i = if rows i then if String.eqb "0" l then nth i value 0%Qc else 0%Qc else total (dv_at "Time" l) st i).
      { intros l. rewrite (qtotal_perm _ _ _ i Hp). unfold s2. rewrite (thresholded_location n rows _ values Hv "Time" value l i Hi Hg).
        rewrite (total_sum _ n s st) by easy. easy. }
      unfold q_peak. pose proof (Hr i Hi) as Hri. destruct (rows i).
      - assert (Ht : triggered st values ratios i) by now apply Hri. split.
        + intros [(l & Hl & ->) Hmax]. left. split; [easy|]. apply Qcle_antisym.
          * rewrite Htl. destruct (String.eqb "0" l); [apply Qcle_refl|easy].
          * specialize (Hmax "0" (proj2 (Hloc "0") (or_intror eq_refl))). rewrite Htl in Hmax at 1. exact Hmax.
        + intros [[_ ->]|[Hno _]]; [|easy]. split.
          * exists "0". split; [apply Hloc; now right|]. now rewrite Htl.
          * intros l _. rewrite Htl. destruct (String.eqb "0" l); [apply Qcle_refl|easy].
      - assert (Ht : ~ triggered st values ratios i) by (intros Ht; apply Hri in Ht; discriminate).
        destruct (Hocc "Time" (dget_Some_keys _ _ Hg)) as (c0 & Hc0 & Hdv0).
        assert (Hl0 : location_of "Time" (k_loc (fst c0)) st) by (exists c0; auto).
        assert (Hzero : forall l, ~ location_of "Time" l st -> total (dv_at "Time" l) st i = 0%Qc).
        { intros l Hno. unfold total. rewrite filter_none; [reflexivity|]. intros c Hin. unfold dv_at.
          destruct (String.eqb_spec (k_dv (fst c)) "Time"); [|easy]. destruct (String.eqb_spec (k_loc (fst c)) l); [|easy].
          exfalso. apply Hno. now exists c. }
        assert (Hdec : forall l, location_of "Time" l st \/ ~ location_of "Time" l st).
        { intros l. destruct (existsb (fun c => dv_at "Time" l (fst c)) (stored_losses st)) eqn:E.
          - left. apply existsb_exists in E as (c & Hin & E). apply andb_true_iff in E as [Ea Eb]. exists c. now rewrite <- String.eqb_eq, <- (String.eqb_eq _ l).
          - right. intros (c & Hin & H1 & H2). assert (existsb (fun c => dv_at "Time" l (fst c)) (stored_losses st) = true); [|congruence].
            apply existsb_exists. exists c. split; [easy|]. unfold dv_at. now rewrite H1, H2, !String.eqb_refl. }
        split.
        + intros [(l & Hl & ->) Hmax]. right. split; [easy|]. rewrite Htl. split.
          * destruct (Hdec l) as [Hd|Hd]; [eauto|]. exists (k_loc (fst c0)). split; [easy|].
            rewrite (Hzero l Hd). apply Qcle_antisym; [now apply total_nonneg|].
            specialize (Hmax (k_loc (fst c0)) (proj2 (Hloc _) (or_introl Hl0))). rewrite !Htl, (Hzero l Hd) in Hmax. exact Hmax.
          * intros l' Hl'. specialize (Hmax l' (proj2 (Hloc l') (or_introl Hl'))). now rewrite !Htl in Hmax.
        + intros [[Hy _]|[_ [(l & Hl & ->) Hmax]]]; [easy|]. split.
          * exists l. split; [apply Hloc; now left|]. now rewrite Htl.
          * intros l' _. rewrite Htl. destruct (Hdec l') as [Hd|Hd]; [now apply Hmax|]. rewrite (Hzero l' Hd). now apply total_nonneg. }
    split.
    - intros (dv & f & Hdv & Hpres & Hf & Hi & Hcase).
      destruct Hcase as [(_ & _ & E & _)|(-> & -> & [[E _]|[_ Et]])]; [discriminate E|discriminate E|].
      destruct (Hval _ Hdv) as (value & Hg). exists f, value. repeat (split; [easy|]). now apply Hpk.
    - intros (f & value & -> & Hdv & Hg & Hf & Hi & Et). exists "Time", f. split; [easy|]. split.
      { apply (of_dv_perm "Time" _ _ Hp). now apply (thresholded_of_dv n rows _ values "Time" value). }
      split; [easy|]. split; [easy|]. right. split; [easy|]. split; [easy|]. right. split; [easy|]. now apply (Hpk value).
  Qed.

  Theorem thresholds_flags agg exc st' :
    aggregate_losses order raise dvs dv_units factors (Some (values, ratios)) None st = (Ok (agg, Some exc), st') ->
    keys exc = keys values /\
    forall dv value, In (dv, value) values -> exists b, In (dv, b) exc /\ List.length b = n /\
      forall i, (i < n)%nat -> (nth i b false = true <-> exceeds st ratios dv value i).
  Proof.
    intros H. destruct (thresholds_outcome _ _ _ H) as (s & s' & rows & E1 & Hr & -> & _). split.
    - unfold keys. rewrite map_map. reflexivity.
    - intros dv value Hin. eexists. split; [apply in_map_iff; exists (dv, value); split; [reflexivity|easy]|].
      split; [now rewrite map_length, seq_length|]. intros i Hi. rewrite nth_map_seq by easy. now apply q_exceeds_spec.
  Qed.

  Theorem thresholds_accepted :
    dvs <> [] ->
    (forall dv, In dv dvs -> In dv (keys values)) -> (raise = true -> forall dv, In dv (keys values ++ keys ratios) -> In dv dvs) ->
    (forall dv, In dv (keys values) -> In dv (keys ratios) /\ occurs dv st) ->
    (forall dv, In dv dvs -> exists f, dv_factor dv_units factors dv f) ->
    is_ok (fst (aggregate_losses order raise dvs dv_units factors (Some (values, ratios)) None st)) = true.
  Proof.
    intros Hne H1 H2 H3 H4.
    assert (Ev : validate_thresholds raise dvs (values, ratios) = Ok tt).
    { unfold validate_thresholds. cbn [fst snd].
      destruct (raise && existsb (fun k => negb (mem k dvs)) (keys values ++ keys ratios)) eqn:E.
      - exfalso. apply andb_true_iff in E as [Er Ex]. apply existsb_exists in Ex as (dv & Hin & E). apply negb_true_iff, mem_false in E.
        apply E. now apply H2.
      - destruct (existsb _ dvs) eqn:Ex; [|easy]. exfalso. apply existsb_exists in Ex as (dv & Hin & E'). apply negb_true_iff, dmem_false in E'.
        apply E'. now apply H1. }
    destruct (aggregate_losses_eq order raise dvs dv_units factors (Some (values, ratios)) st n Hs Ev) as (s & st2 & E1 & E2 & Er & E).
    rewrite E. cbn [fst].
    assert (Hok : exists r, apply_replacement_thresholds n (Some (values, ratios)) (sum_over_ds n s) = Ok r).
    { unfold apply_replacement_thresholds.
      assert (Hm : exists exc, mapM (fun rv => let* b := exceedance_of n ratios (sum_over_ds n s) rv in Ok (fst rv, b)) values = Ok exc).
      { assert (Hall : forall rv, In rv values -> exists b, exceedance_of n ratios (sum_over_ds n s) rv = Ok b).
        { intros rv Hin. unfold exceedance_of. destruct (H3 (fst rv) (in_map fst _ _ Hin)) as [Hk Ho].
          apply (of_dv_ne n s (fst rv) st E1) in Ho. destruct (of_dv (fst rv) (sum_over_ds n s)) eqn:Eo; [easy|].
          destruct (forallb _ _); [eauto|]. apply In_keys_dget in Hk as (r & ->). eauto. }
        clear - Hall. induction values as [|rv l IH]; [now exists []|]. cbn [mapM].
        destruct (Hall rv (or_introl eq_refl)) as (b & ->). cbn [bind]. destruct IH as (exc & ->); [intros; apply Hall; now right|].
        cbn [bind]. eauto. }
      destruct Hm as (exc & ->). cbn [bind]. eauto. }
    destruct Hok as (r & Er'). rewrite Er'. cbn [bind].
    destruct (thresholds_spec n values ratios (sum_over_ds n s) r) as (_ & _ & rows & _ & Hp); auto.
    { apply sum_over_ds_length. }
    { intros c Hin. apply (in_map fst), sum_over_ds_keys in Hin as (c' & Hc' & <-). apply Hthr. now rewrite <- E1. }
    assert (Hag : is_ok (aggregate_sample n dvs dv_units factors (fst r)) = true).
    { apply aggregate_ok; auto. destruct dvs as [|dv l]; [easy|]. exists dv. split; [now left|].
      destruct (In_keys_dget dv values) as (value & Hg); [apply H1; now left|].
      apply (of_dv_perm dv _ _ Hp). now apply (thresholded_of_dv n rows _ values dv value). }
    now destruct (aggregate_sample n dvs dv_units factors (fst r)).
  Qed.
End WithThresholds.
