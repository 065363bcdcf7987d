(** Proofs about the life cycle of a demand model. *)
From Coq Require Import Sorting.Permutation Sorting.Sorted.
From Verif Require Import Prelude PreludeFacts Pandas PandasFacts M_Base M_FileIO M_Damage M_LossDS M_Params M_UQ M_Demand M_DModel
  S_Base S_FileIO S_UQ S_Params S_Demand S_DModel P_Base P_FileIO P_Params P_Var P_Reg P_Sample P_Cal P_Asset.
Set Implicit Arguments.
Local Open Scope string_scope.
Local Open Scope list_scope.

(** ** Generation *)

Lemma edp_columns_ok {V} (columns : list (list string * V)) : columns <> [] ->
  Forall (fun c => edp_label (fst c)) columns ->
  exists out, edp_columns (map (fun c => (edp_tag (fst c), snd c)) columns) = Ok out /\ Permutation out columns.
Proof.
  intros Hne H. unfold edp_columns.
  set (sorted := isort _ (map _ columns)). assert (P : Permutation (map (fun c => (edp_tag (fst c), snd c)) columns) sorted) by apply isort_perm.
  apply Permutation_sym, Permutation_map_inv in P as (cols & Es & Pc).
  assert (Hc : Forall (fun c => edp_label (fst c)) cols) by (eapply Permutation_Forall; [exact Pc|exact H]).
  assert (Hcn : cols <> []) by (intros ->; apply Permutation_sym, Permutation_nil in Pc; congruence).
  rewrite Es, !map_map. cbn [fst snd].
  assert (Em : to_multi_index (Flat (map (fun c : list string * V => edp_tag (fst c)) cols)) = Ok (Multi 4 (map (fun c => "EDP" :: fst c) cols))).
  { pose proof (@simple_multi_round_trip 4 (map (fun c => "EDP" :: fst c) cols)) as R. cbn [to_simple_index] in R.
    rewrite !map_map in R. apply R; [lia|destruct cols; [congruence|discriminate]|]. apply Forall_forall. intros l Hl. apply in_map_iff in Hl as (c & <- & Hin).
    rewrite Forall_forall in Hc. destruct (Hc c Hin) as [L D]. split; [cbn; rewrite L; reflexivity|]. constructor; [reflexivity|exact D]. }
  rewrite Em. cbn [bind]. cbn [Nat.eqb]. eexists. split; [reflexivity|]. eapply Permutation_trans; [|apply Permutation_sym; exact Pc].
  match goal with |- Permutation ?a ?b => replace a with b; [apply Permutation_refl|] end. clear. symmetry.
  induction cols as [|[l v] cols IH]; [reflexivity|]. cbn [map combine filter fst snd]. cbn [String.eqb Ascii.eqb]. cbn. f_equal. exact IH.
Qed.
Lemma edp_columns_err {V} (columns : list (list string * V)) :
  Forall (fun c => List.length (fst c) = 3%nat) columns -> (exists c, In c columns /\ ~ Forall no_dash (fst c)) ->
  edp_columns (map (fun c => (edp_tag (fst c), snd c)) columns) = Err ValueError.
Proof.
  intros H (c0 & Hc0 & Hd). unfold edp_columns.
  set (sorted := isort _ (map _ columns)). assert (P : Permutation (map (fun c => (edp_tag (fst c), snd c)) columns) sorted) by apply isort_perm.
  apply Permutation_sym, Permutation_map_inv in P as (cols & Es & Pc). apply (Permutation_in _ Pc) in Hc0. rewrite Es, !map_map. cbn [fst snd].
  assert (Hc : Forall (fun c => List.length (fst c) = 3%nat) cols) by (eapply Permutation_Forall; [exact Pc|exact H]). clear Es Pc sorted H columns.
  unfold to_multi_index. destruct (map (fun c : list string * V => edp_tag (fst c)) cols) as [|x xs] eqn:Ex; [destruct cols; [destruct Hc0|discriminate]|].
  rewrite <- Ex. clear x xs Ex. rewrite !map_map. set (w := list_max _).
  assert (Hw : (5 <= w)%nat).
  { eapply Nat.le_trans; [|apply list_max_ge; apply in_map_iff; exists c0; split; [reflexivity|exact Hc0]]. rewrite Forall_forall in Hc. specialize (Hc c0 Hc0).
    unfold edp_tag. destruct (@split_join_length ("EDP" :: fst c0) ltac:(discriminate)) as [L1 L2]. cbn [List.length] in L1, L2. rewrite Hc in *.
    destruct (Nat.eq_dec (List.length (split_on "-" (join "-" ("EDP" :: fst c0)))) 4) as [E|E]; [|lia]. specialize (L2 E). inversion L2; contradiction. }
  destruct (Nat.ltb_spec 1 w); [|lia]. cbn [bind]. destruct (Nat.eqb_spec w 4); [lia|]. reflexivity.
Qed.

Lemma edp_tag_inj a b : edp_label a -> edp_label b -> edp_tag a = edp_tag b -> a = b.
Proof.
  intros [La Da] [Lb Db] E. assert (S : forall l, Forall no_dash l -> split_on "-" (edp_tag l) = "EDP" :: l).
  { intros l Hl. unfold edp_tag. apply (@split_join "-"); [discriminate|]. constructor; [reflexivity|exact Hl]. }
  pose proof (S a Da) as Ea. rewrite E, (S b Db) in Ea. congruence.
Qed.

Definition rv_of (lab : list string) (k : kind) : rv := RV (edp_tag lab) (edp_tag lab) k.

Lemma add_variable_ok r v r' : add_variable r v = Ok r' -> r' = Reg (r_vars r ++ [v]) (r_sets r) /\ ~ In (v_name v) (map v_name (r_vars r)).
Proof.
  unfold add_variable, add_rv. destruct (find_rv (r_vars r) (v_name v)) eqn:E; [discriminate|]. intros [= <-]. split; [reflexivity|]. now apply find_rv_None.
Qed.

Lemma fold_variables variable preserve emp ms : forall r r',
  foldM (fun r lm => let* k := demand_kind variable preserve emp lm in add_variable r (rv_of (fst lm) k)) r ms = Ok r' ->
  exists ks, Forall2 (fun lm k => demand_kind variable preserve emp lm = Ok k) ms ks /\
    r' = Reg (r_vars r ++ map (fun lk => rv_of (fst (fst lk)) (snd lk)) (combine ms ks)) (r_sets r) /\
    (NoDup (map v_name (r_vars r)) -> NoDup (map v_name (r_vars r'))).
Proof.
  induction ms as [|lm ms IH]; intros r r' H.
  - cbn in H. injection H as <-. exists []. split; [constructor|]. split; [cbn; rewrite app_nil_r; now destruct r|easy].
  - cbn [foldM] in H. destruct (demand_kind variable preserve emp lm) as [k|] eqn:Ek; [|discriminate]. cbn [bind] in H.
    destruct (add_variable r (rv_of (fst lm) k)) as [r1|] eqn:Ea; [|discriminate]. cbn [bind] in H.
    apply add_variable_ok in Ea as [-> Hni]. apply IH in H as (ks & F & -> & N). exists (k :: ks). split; [now constructor|]. cbn [r_vars r_sets] in *.
    split; [cbn [combine map fst snd]; now rewrite <- app_assoc|]. intros Hnd. apply N. rewrite map_app. cbn. apply NoDup_app_iff. split; [exact Hnd|]. split; [repeat constructor; intros []|].
    intros x Hx [<-|[]]. exact (Hni Hx).
Qed.

Lemma create_rvs_spec variable preserve ms emp corr r : create_rvs variable preserve ms emp corr = Ok r ->
  exists ks, Forall2 (fun lm k => demand_kind variable preserve emp lm = Ok k) ms ks /\
    r_vars r = map (fun lk => rv_of (fst (fst lk)) (snd lk)) (combine ms ks) /\ NoDup (map v_name (r_vars r)) /\
    match corr with
    | None => r_sets r = []
    | Some (labels, rho) => exists s, make_set (unique String.eqb (map edp_tag labels)) rho = Ok s /\ r_sets r = [("EDP_set", s)] /\
        incl (map edp_tag labels) (map v_name (r_vars r))
    end.
Proof.
  unfold create_rvs. intros H.
  change (fun r lm => let* k := demand_kind variable preserve emp lm in add_variable r (RV (edp_tag (fst lm)) (edp_tag (fst lm)) k))
    with (fun r (lm : list string * marginal) => let* k := demand_kind variable preserve emp lm in add_variable r (rv_of (fst lm) k)) in H.
  destruct (foldM _ (Reg [] []) ms) as [r0|] eqn:E; [|discriminate]. cbn [bind] in H. apply fold_variables in E as (ks & F & -> & N).
  specialize (N (NoDup_nil _)). exists ks. split; [exact F|]. cbn [r_vars r_sets app] in *. destruct corr as [[labels rho]|].
  - destruct (forallb _ _) eqn:Ef; [|discriminate]. destruct (make_set _ rho) as [s|] eqn:Es; [|discriminate]. cbn [bind] in H. injection H as <-.
    unfold add_rv_set. cbn [r_vars r_sets dset]. split; [reflexivity|]. split; [exact N|]. exists s. split; [reflexivity|]. split; [reflexivity|].
    intros x Hx. rewrite forallb_forall in Ef. apply mem_true. now apply Ef.
  - injection H as <-. cbn [r_vars r_sets]. easy.
Qed.

Lemma self_anchored vars v : NoDup (map v_name vars) -> In v vars -> v_anchor v = v_name v -> anchored vars (v_name v) (v_name v).
Proof. intros _ Hin E. now apply anchored_self. Qed.

Lemma rv_of_in ms ks lab row k : Forall2 (fun (_ : list string * marginal) (_ : kind) => True) ms ks -> In ((lab, row), k) (combine ms ks) ->
  In (rv_of lab k) (map (fun lk => rv_of (fst (fst lk)) (snd lk)) (combine ms ks)).
Proof. intros _ H. apply in_map_iff. now exists ((lab, row), k). Qed.

(** What the sample of each variable is. *)
Lemma own_sample c r unis n meth w lab k :
  NoDup (map v_name (r_vars r)) -> (forall v, In v (r_vars r) -> v_anchor v = v_name v) ->
  generate_sample (copula c) (perms c) (draws c) r (World [] []) n meth = Ok w ->
  uniforms (copula c) (perms c) (draws c) r [] n meth = Ok unis -> In (rv_of lab k) (r_vars r) ->
  exists s, dget (edp_tag lab) (w_samples w) = Some s /\
    ((exists f, k = Utility f /\ f n = Ok s) \/ (exists u, dget (edp_tag lab) unis = Some u /\ sample_from (rv_of lab k) n u s)).
Proof.
  intros Hnd Ha Hg Hu Hin. pose proof Hin as Hin0. apply in_split in Hin as (pre & post & E).
  destruct (@generate_sample_of (copula c) (perms c) (draws c) r (World [] []) n meth w unis pre (rv_of lab k) post (edp_tag lab)) as [(f & s & Ek & Ef & Es)|(u & s & Eu & Es & Hs)];
    [exact Hnd|exact Hg|exact Hu|exact E| | | |].
  - apply (@anchored_self (r_vars r) (rv_of lab k)); [exact Hin0|reflexivity].
  - intros m Hm _ Hanch. assert (In m (r_vars r)) as Hm' by (rewrite E; apply in_or_app; now left).
    assert (v_name m = edp_tag lab) as En.
    { symmetry. apply (@anchored_fun (r_vars r) (v_name m)); [exact Hnd|exact Hanch|]. apply anchored_self; [exact Hm'|now apply Ha]. }
    rewrite E, map_app in Hnd. cbn [map] in Hnd. apply NoDup_remove_2 in Hnd. apply Hnd. apply in_or_app. left. change (v_name (rv_of lab k)) with (edp_tag lab).
    rewrite <- En. now apply in_map.
  - exists s. split; [exact Es|]. left. exists f. now split.
  - exists s. split; [exact Es|]. right. exists u. now split.
Qed.

Lemma demand_kind_own variable preserve m lab row k : demand_kind variable preserve (m_empirical m) (lab, row) = Ok k ->
  own_distribution variable preserve m lab row k.
Proof.
  unfold demand_kind, own_distribution, is_data, cell. intros H.
  destruct (dget "Family" row) as [[|q|fam]|] eqn:Ef.
  1,2,4: (right; split; [discriminate|exact H]).
  destruct (String.eqb_spec fam "empirical") as [->|Hf].
  - left. split; [reflexivity|]. destruct (m_empirical m) as [t|]; [|discriminate]. destruct (aget label_eqb lab t) as [vs|] eqn:Ea; [|discriminate].
    apply (aget_In label_eqb label_eqb_eq) in Ea. destruct (complete vs) as [theta|] eqn:Ec; [|discriminate]. cbn [bind] in H. injection H as <-.
    exists t, theta. split; [reflexivity|]. split; [|reflexivity]. enough (vs = map Some theta) as <- by exact Ea. clear - Ec.
    unfold complete in Ec. apply mapM_Forall2 in Ec. induction Ec as [|v q vs qs Hv Ec IH]; [reflexivity|]. cbn. f_equal; [|exact IH].
    destruct v; [congruence|discriminate].
  - right. split; [congruence|exact H].
Qed.

Lemma generate_spec variable c q m m' ms : generate variable c q m = Ok m' -> m_marginals m = Some ms -> cloning q = [] ->
  Forall (fun lr => edp_label (fst lr)) ms -> ms <> [] ->
  exists r unis t, create_rvs variable (preserve_order q) ms (m_empirical m) (m_correlation m) = Ok r /\
    uniforms (copula c) (perms c) (draws c) r [] (size q) (method q) = Ok unis /\
    m_sample m' = Some t /\ Permutation (map fst t) (map fst ms) /\ NoDup (map fst t) /\
    forall lab row, In (lab, row) ms -> exists k s, demand_kind variable (preserve_order q) (m_empirical m) (lab, row) = Ok k /\
      In (lab, map Some s) t /\
      ((exists f, k = Utility f /\ f (size q) = Ok s) \/
       (exists u, dget (edp_tag lab) unis = Some u /\ sample_from (rv_of lab k) (size q) u s)).
Proof.
  intros H Em Ecl Hl Hne. unfold generate in H. rewrite Em in H.
  destruct (create_rvs variable (preserve_order q) ms (m_empirical m) (m_correlation m)) as [r|] eqn:Er; [|discriminate]. cbn [bind] in H.
  destruct (generate_sample (copula c) (perms c) (draws c) r (World [] []) (size q) (method q)) as [w|] eqn:Eg; [|discriminate]. cbn [bind] in H.
  destruct (mapM _ (r_vars r)) as [cols|] eqn:Ec; [|discriminate]. cbn [bind] in H.
  destruct (edp_columns cols) as [t|] eqn:Et; [|discriminate]. cbn [bind] in H. rewrite Ecl in H. cbn in H. injection H as <-.
  destruct (create_rvs_spec _ _ _ _ _ Er) as (ks & F & Ev & Hnd & _). destruct (@generate_split (copula c) (perms c) (draws c) r (World [] []) (size q) (method q) w Eg) as (unis & Hu & _).
  cbn [w_unis] in Hu. exists r, unis, t. split; [reflexivity|]. split; [exact Hu|]. split; [reflexivity|].
  assert (Hanch : forall v, In v (r_vars r) -> v_anchor v = v_name v).
  { intros v Hv. rewrite Ev in Hv. apply in_map_iff in Hv as (lk & <- & _). reflexivity. }
  (* the columns are those of the labels *)
  set (val := fun lk : (list string * marginal) * kind => match dget (edp_tag (fst (fst lk))) (w_samples w) with Some s => map Some s | None => [] end).
  assert (Ecols : cols = map (fun c : list string * list num => (edp_tag (fst c), snd c)) (map (fun lk => (fst (fst lk), val lk)) (combine ms ks))).
  { rewrite Ev in Ec. subst val. clear - Ec. revert cols Ec. induction (combine ms ks) as [|lk l IH]; intros cols Ec; [cbn in Ec; injection Ec as <-; reflexivity|].
    cbn [map mapM] in Ec. cbn [rv_of v_name] in Ec. destruct (dget (edp_tag (fst (fst lk))) (w_samples w)) as [s|] eqn:Ed; [|discriminate].
    cbn [bind] in Ec. destruct (mapM _ (map _ l)) as [cs|] eqn:Em; [|discriminate]. cbn [bind] in Ec. injection Ec as <-. cbn [map fst snd]. rewrite Ed.
    f_equal. now apply IH. }
  set (columns := map (fun lk => (fst (fst lk), val lk)) (combine ms ks)) in *.
  assert (Elab : map fst columns = map fst ms).
  { unfold columns. rewrite map_map. cbn [fst]. clear - F. induction F as [|lm k ms ks _ F IH]; [reflexivity|]. cbn. now rewrite IH. }
  destruct (@edp_columns_ok (list num) columns) as (out & Eout & P).
  { intros E0. rewrite E0 in Elab. destruct ms; [congruence|discriminate]. }
  { apply Forall_forall. intros cc Hcc. assert (In (fst cc) (map fst ms)) as Hi by (rewrite <- Elab; now apply in_map).
    apply in_map_iff in Hi as (lr & El & Hlr). rewrite Forall_forall in Hl. rewrite <- El. now apply Hl. }
  rewrite Ecols in Et. assert (out = t) as -> by (enough (Ok out = Ok t) by congruence; etransitivity; [symmetry; exact Eout|exact Et]).
  assert (Pl : Permutation (map fst t) (map fst ms)) by (rewrite <- Elab; now apply Permutation_map).
  split; [exact Pl|].
  assert (NoDup (map fst ms)) as Hms.
  { rewrite Ev, map_map in Hnd. cbn [rv_of v_name] in Hnd. clear - Hnd F. assert (E : map (fun x : list string * marginal * kind => edp_tag (fst (fst x))) (combine ms ks) = map edp_tag (map fst ms)).
    { clear Hnd. induction F as [|lm k ms ks _ F IH]; [reflexivity|]. cbn [map combine fst snd]. f_equal. exact IH. }
    rewrite E in Hnd. now apply NoDup_map_inv in Hnd. }
  split; [eapply Permutation_NoDup; [apply Permutation_sym; exact Pl|exact Hms]|].
  intros lab row Hin. assert (exists k, In ((lab, row), k) (combine ms ks) /\ demand_kind variable (preserve_order q) (m_empirical m) (lab, row) = Ok k) as (k & Hk & Ek).
  { clear - F Hin. induction F as [|lm k ms ks Hlm F IH]; [destruct Hin|]. destruct Hin as [->|Hin]; [exists k; split; [now left|exact Hlm]|].
    destruct (IH Hin) as (k' & H1 & H2). exists k'. split; [now right|exact H2]. }
  assert (In (rv_of lab k) (r_vars r)) as Hrv by (rewrite Ev; apply in_map_iff; exists ((lab, row), k); now split).
  destruct (@own_sample c r unis (size q) (method q) w lab k Hnd Hanch Eg Hu Hrv) as (s & Es & Hs).
  exists k, s. split; [exact Ek|]. split; [|exact Hs]. apply (Permutation_in _ (Permutation_sym P)). unfold columns. apply in_map_iff.
  exists ((lab, row), k). split; [|exact Hk]. cbn [fst snd]. unfold val. cbn [fst]. now rewrite Es.
Qed.

(** ** Calibration *)

Lemma realizations_length t : Forall (fun r => List.length r = List.length t) (realizations t).
Proof. unfold realizations. apply Forall_forall. intros r Hr. apply in_map_iff in Hr as (i & <- & _). apply map_length. Qed.

Lemma columns_at (g : nat -> list string) idx rows :
  combine (map g idx) (columns_of (List.length idx) (map (cells_at idx) rows)) = map (fun p => (g p, map (fun r => nth p r None) rows)) idx.
Proof.
  unfold columns_of. enough (H : forall pre, combine (map g idx) (map (fun j => map (fun r => nth j r None) (map (cells_at (pre ++ idx)) rows)) (seq (List.length pre) (List.length idx))) =
    map (fun p => (g p, map (fun r => nth p r None) rows)) idx) by exact (H []).
  induction idx as [|p idx IH]; intros pre; [reflexivity|]. cbn [map combine List.length seq]. f_equal.
  - f_equal. rewrite map_map. apply map_ext. intros r. unfold cells_at. rewrite map_app, app_nth2 by (rewrite map_length; lia).
    rewrite map_length, Nat.sub_diag. reflexivity.
  - specialize (IH (pre ++ [p])). rewrite app_length in IH. cbn [List.length] in IH. rewrite Nat.add_1_r in IH. rewrite <- app_assoc in IH. exact IH.
Qed.

Lemma filter_positions (cal : list (list string * cal_row)) : forall k,
  map fst (filter (fun c => is_empirical (snd c)) cal) =
  map (fun i => nth (i - k) (map fst cal) []) (filter (fun i => is_empirical (nth (i - k) (map snd cal) empty_row)) (seq k (List.length cal))).
Proof.
  induction cal as [|c cal IH]; intros k; [reflexivity|]. cbn [filter List.length seq map]. rewrite Nat.sub_diag. cbn [nth].
  assert (E : map fst (filter (fun c => is_empirical (snd c)) cal) =
    map (fun i => nth (i - k) (fst c :: map fst cal) []) (filter (fun i => is_empirical (nth (i - k) (snd c :: map snd cal) empty_row)) (seq (S k) (List.length cal)))).
  { rewrite (IH (S k)). assert (Hs : forall i, In i (seq (S k) (List.length cal)) -> (i - k = S (i - S k))%nat) by (intros i Hi; apply in_seq in Hi; lia).
    induction (seq (S k) (List.length cal)) as [|i l IHl]; [reflexivity|]. cbn [filter]. rewrite (Hs i) by now left. cbn [nth].
    destruct (is_empirical (nth (i - S k) (map snd cal) empty_row)); [|apply IHl; intros j Hj; apply Hs; now right].
    cbn [map]. rewrite (Hs i) by now left. cbn [nth]. f_equal. apply IHl. intros j Hj. apply Hs. now right. }
  destruct (is_empirical (snd c)); cbn [map]; rewrite E; [rewrite Nat.sub_diag|]; reflexivity.
Qed.

Lemma filter_length_positions (cal : list (list string * cal_row)) :
  List.length (filter (fun c => is_empirical (snd c)) cal) =
  List.length (filter (fun i => is_empirical (nth i (map snd cal) empty_row)) (seq 0 (List.length cal))).
Proof.
  rewrite <- (map_length fst), (filter_positions cal 0), map_length. f_equal. apply filter_ext. intros i. now rewrite Nat.sub_0_r.
Qed.

(** The positions of the realizations used. *)
Definition used_rows (cal : list cal_row) (t : frame) (keep : list num -> bool) : list nat :=
  filter (fun i => keep (realization t i)) (seq 0 (n_rows t)).

Lemma filter_map_comm {A B} (f : A -> B) (p : B -> bool) l : filter p (map f l) = map f (filter (fun x => p (f x)) l).
Proof. induction l as [|x l IH]; [reflexivity|]. cbn. destruct (p (f x)); cbn; now rewrite IH. Qed.

Lemma kept_column t rows_i p : (p < List.length t)%nat ->
  map (fun r => nth p r None) (map (realization t) rows_i) = map (fun i => nth i (snd (nth p t ([], []))) None) rows_i.
Proof.
  intros Hp. rewrite map_map. apply map_ext. intros i. unfold realization. rewrite (nth_indep _ None (nth i (snd (@nil string, @nil num)) None)) by (rewrite map_length; exact Hp).
  apply (map_nth (fun e => nth i (snd e) None)).
Qed.

Lemma calibrate_spec fit root factors config m m1 t : NoDup (keys config) ->
  calibrate fit root factors config m = Ok m1 -> m_sample m = Some t ->
  exists cal keep thetas rho,
    calibration_settings factors config (map fst t) = Ok cal /\ map fst cal = map fst t /\
    (forall r, In r (realizations t) -> (keep r = true <-> in_censor_range (map snd cal) r /\ in_truncation_range (map snd cal) r)) /\
    m_sample m1 = m_sample m /\ m_units m1 = m_units m /\ m_units_name m1 = m_units_name m /\
    m_marginals m1 = Some (map (marginal_of root (negb (all_nan (map (fun c => sig_increase (snd c)) cal)))) (with_thetas cal thetas)) /\
    m_correlation m1 = Some (map fst (filter (fun c => negb (is_empirical (snd c))) cal), rho) /\
    m_empirical m1 = match filter (fun c => is_empirical (snd c)) cal with
                     | [] => m_empirical m
                     | _ => Some (map (fun p => (nth p (map fst t) [], map (fun i => nth i (snd (nth p t ([], []))) None) (used_rows (map snd cal) t keep)))
                                      (filter (fun p => is_empirical (nth p (map snd cal) empty_row)) (seq 0 (List.length t))))
                     end /\
    fit (map (fun c => family (snd c)) (filter (fun c => negb (is_empirical (snd c))) cal))
        (columns_of (List.length (filter (fun c => negb (is_empirical (snd c))) cal)) (snd (fst (calibration_data (map snd cal) (realizations t)))))
        (snd (calibration_data (map snd cal) (realizations t)))
        (map (fun c => (censor_lower (snd c), censor_upper (snd c))) (filter (fun c => negb (is_empirical (snd c))) cal))
        (map (fun c => (truncate_lower (snd c), truncate_upper (snd c))) (filter (fun c => negb (is_empirical (snd c))) cal)) = Ok (thetas, rho).
Proof.
  intros Hcfg H Es. unfold calibrate, the_demand in H. rewrite Es in H. destruct (m_units m) as [us|] eqn:Eu; [|discriminate]. cbn [bind d_sample] in H.
  destruct (save_sample factors _) as [sv|]; [|discriminate]. cbn [bind] in H.
  destruct (calibration_settings factors config (map fst t)) as [cal|] eqn:Ec; [|discriminate]. cbn [bind] in H.
  pose proof (settings_labels _ _ _ _ Hcfg Ec) as El.
  assert (Hlen : List.length (map snd cal) = List.length t) by (rewrite map_length, <- (map_length fst cal), El; apply map_length).
  destruct (@calibration_filter (map snd cal) (realizations t)) as (keep & cens & Hk & _ & Ed); [rewrite Hlen; apply realizations_length|].
  destruct (calibration_data (map snd cal) (realizations t)) as [[data rest] censored] eqn:Ecd.
  destruct (fit _ _ _ _ _) as [[thetas rho]|] eqn:Ef; [|discriminate]. cbn [bind fst snd] in H. injection H as <-.
  exists cal, keep, thetas, rho. split; [reflexivity|]. split; [exact El|]. split; [exact Hk|]. cbn [m_sample m_units m_units_name m_marginals m_correlation m_empirical].
  split; [now rewrite Es|]. split; [reflexivity|]. split; [reflexivity|]. split; [reflexivity|]. split; [reflexivity|]. split; [|rewrite Ecd; exact Ef].
  destruct (filter (fun c => is_empirical (snd c)) cal) as [|e0 es] eqn:Ee; [reflexivity|]. rewrite <- Ee. f_equal.
  injection Ed as -> _ _.
  assert (Hx : filter (fun i => String.eqb (family (nth i (map snd cal) empty_row)) "empirical") (seq 0 (List.length (map snd cal))) =
               filter (fun p => is_empirical (nth p (map snd cal) empty_row)) (seq 0 (List.length t))) by (rewrite Hlen; reflexivity).
  rewrite Hx. set (idx := filter (fun p => is_empirical (nth p (map snd cal) empty_row)) (seq 0 (List.length t))).
  assert (E1 : map fst (filter (fun c => is_empirical (snd c)) cal) = map (fun p => nth p (map fst t) []) idx).
  { rewrite (filter_positions cal 0). rewrite <- (map_length snd cal), Hlen. unfold idx. rewrite El.
    rewrite (map_ext _ (fun i => nth i (map fst t) [])) by (intros; now rewrite Nat.sub_0_r). f_equal. apply filter_ext. intros i. now rewrite Nat.sub_0_r. }
  assert (E2 : List.length (filter (fun c => is_empirical (snd c)) cal) = List.length idx) by (rewrite <- (map_length fst), E1; apply map_length).
  rewrite E1, E2, columns_at. apply map_ext_in. intros p Hp. f_equal. unfold idx in Hp. apply filter_In in Hp as [Hp _]. apply in_seq in Hp.
  unfold realizations. rewrite filter_map_comm. unfold used_rows. apply (kept_column t); lia.
Qed.

Lemma with_thetas_cal cal : forall thetas, map fst (with_thetas cal thetas) = cal.
Proof.
  induction cal as [|c cal IH]; intros thetas; [reflexivity|]. cbn [with_thetas]. destruct (is_empirical (snd c)); [cbn; now rewrite IH|].
  destruct thetas; cbn; now rewrite IH.
Qed.
Lemma marginal_of_fst root some e : fst (marginal_of root some e) = fst (fst e).
Proof. destruct e as [c [t0 t1]]. reflexivity. Qed.
Lemma marginal_labels root some cal thetas : map fst (map (marginal_of root some) (with_thetas cal thetas)) = map fst cal.
Proof.
  rewrite map_map. rewrite (map_ext _ _ (marginal_of_fst root some)). rewrite <- (with_thetas_cal cal thetas) at 2. now rewrite map_map.
Qed.
Lemma marginal_family root some e : dget "Family" (snd (marginal_of root some e)) = Some (VText (family (snd (fst e)))).
Proof. destruct e as [c [t0 t1]]. reflexivity. Qed.

(** The row of a demand in the calibrated model. *)
Lemma marginal_row root some cal thetas lab c : In (lab, c) cal -> exists th, In (marginal_of root some ((lab, c), th)) (map (marginal_of root some) (with_thetas cal thetas)).
Proof.
  intros H. rewrite <- (with_thetas_cal cal thetas) in H. apply in_map_iff in H as ([c' th] & E & Hin). cbn in E. subst c'. exists th. now apply in_map.
Qed.

Lemma seq_filter_sorted (p : nat -> bool) n : forall k, StronglySorted lt (filter p (seq k n)).
Proof.
  induction n as [|n IH]; intros k; [constructor|]. cbn [seq filter]. destruct (p k); [|apply IH]. constructor; [apply IH|].
  apply Forall_forall. intros x Hx. apply filter_In in Hx as [Hx _]. apply in_seq in Hx. lia.
Qed.

Lemma coupled_calibrated fit root factors config variable c q m m1 m2 t cal :
  NoDup (keys config) -> calibrate fit root factors config m = Ok m1 -> generate variable c q m1 = Ok m2 ->
  preserve_order q = true -> cloning q = [] -> m_sample m = Some t -> t <> [] -> edp_labels (map fst t) ->
  calibration_settings factors config (map fst t) = Ok cal ->
  exists kept t2, StronglySorted lt kept /\
    (forall i, In i kept <-> (i < n_rows t)%nat /\ in_censor_range (map snd cal) (realization t i) /\ in_truncation_range (map snd cal) (realization t i)) /\
    m_sample m2 = Some t2 /\
    forall lab col r, In (lab, col) t -> In (lab, r) cal -> family r = "empirical" ->
      kept <> [] /\
      exists col2, In (lab, col2) t2 /\ List.length col2 = size q /\
        forall k, (k < size q)%nat -> nth k col2 None = nth (nth (k mod List.length kept) kept 0%nat) col None.
Proof.
  intros Hcfg Hc Hg Hp Hcl Es Hne [Hnd Hlab] Ecal.
  destruct (calibrate_spec _ _ _ _ _ Hcfg Hc Es) as (cal' & keep & thetas & rho & Ec' & El & Hk & _ & _ & _ & Em & _ & Ee & _).
  rewrite Ecal in Ec'. injection Ec' as <-. set (some := negb _) in Em.
  set (ms := map (marginal_of root some) (with_thetas cal thetas)) in *.
  assert (Elm : map fst ms = map fst t) by (unfold ms; rewrite marginal_labels; exact El).
  destruct (@generate_spec variable c q m1 m2 ms Hg Em Hcl) as (r & unis & t2 & _ & _ & Et2 & _ & _ & Hcol).
  { apply Forall_forall. intros lr Hlr. rewrite Forall_forall in Hlab. apply Hlab. rewrite <- Elm. now apply in_map. }
  { intros E0. rewrite E0 in Elm. destruct t; [congruence|discriminate]. }
  set (kept := used_rows (map snd cal) t keep) in *. exists kept, t2. split; [apply seq_filter_sorted|]. split; [|split; [exact Et2|]].
  { intros i. unfold kept, used_rows. rewrite filter_In, in_seq. split.
    - intros [Hi Hki]. split; [lia|]. apply Hk in Hki; [exact Hki|]. apply in_map_iff. exists i. split; [reflexivity|]. apply in_seq. lia.
    - intros [Hi Hr]. split; [lia|]. apply Hk; [|exact Hr]. apply in_map_iff. exists i. split; [reflexivity|]. apply in_seq. lia. }
  intros lab col rr Hin Hincal Hfam.
  (* its data *)
  apply In_nth with (d := ([], [])) in Hin as (p & Hplen & Ep).
  assert (Hpl : nth p (map fst t) [] = lab) by (change (@nil string) with (fst (@nil string, @nil num)); rewrite map_nth, Ep; reflexivity).
  assert (Hpos : nth p (map snd cal) empty_row = rr).
  { apply In_nth with (d := ([], empty_row)) in Hincal as (p' & Hp' & Ep').
    assert (p' = p) as ->.
    { assert (List.length cal = List.length t) as Hlen by (rewrite <- (map_length fst cal), El; apply map_length).
      apply (proj1 (NoDup_nth (map fst t) [])); [exact Hnd|rewrite map_length; lia|rewrite map_length; lia|].
      rewrite Hpl, <- El. change (@nil string) with (fst (@nil string, empty_row)). rewrite map_nth, Ep'. reflexivity. }
    change empty_row with (snd (@nil string, empty_row)). rewrite map_nth, Ep'. reflexivity. }
  assert (Hnemp : filter (fun c => is_empirical (snd c)) cal <> []).
  { intros E0. assert (In (lab, rr) (filter (fun c => is_empirical (snd c)) cal)) as Hi; [|rewrite E0 in Hi; destruct Hi].
    apply filter_In. split; [exact Hincal|]. cbn. unfold is_empirical. rewrite Hfam. reflexivity. }
  assert (Ee' : m_empirical m1 = Some (map (fun p => (nth p (map fst t) [], map (fun i => nth i (snd (nth p t ([], []))) None) kept))
                                      (filter (fun p => is_empirical (nth p (map snd cal) empty_row)) (seq 0 (List.length t)))))
    by (destruct (filter (fun c => is_empirical (snd c)) cal); [congruence|exact Ee]). clear Ee.
  destruct (@marginal_row root some cal thetas lab rr Hincal) as (th & Hrow). fold ms in Hrow.
  destruct (marginal_of root some (lab, rr, th)) as [lab' row] eqn:Erow.
  assert (lab' = lab) as -> by (pose proof (marginal_of_fst root some (lab, rr, th)) as X; rewrite Erow in X; exact X).
  assert (Hdata : is_data row).
  { unfold is_data, cell. pose proof (marginal_family root some (lab, rr, th)) as X. rewrite Erow in X. cbn [snd fst] in X. rewrite X, Hfam. reflexivity. }
  destruct (Hcol lab row Hrow) as (k & s & Ek & Hint2 & Hs). apply demand_kind_own in Ek. destruct Ek as [(_ & te & theta & Ete & Hte & Ekk)|[Hnot _]]; [|contradiction].
  rewrite Ee' in Ete. injection Ete as <-. rewrite Hp in Ekk. cbn in Ekk.
  assert (Etheta : map Some theta = map (fun i => nth i col None) kept).
  { apply in_map_iff in Hte as (p' & E' & Hp'). apply filter_In in Hp' as [Hp' _]. apply in_seq in Hp'. injection E' as E1 E2.
    assert (p' = p) as ->.
    { apply (proj1 (NoDup_nth (map fst t) [])); [exact Hnd|rewrite map_length; lia|rewrite map_length; lia|congruence]. }
    rewrite Ep in E2. cbn in E2. symmetry. exact E2. }
  assert (Hlen : List.length theta = List.length kept) by (rewrite <- (map_length Some theta), Etheta; apply map_length).
  destruct Hs as [(f & Ef & Efs)|(u & _ & Hsf)].
  2:{ unfold sample_from in Hsf. rewrite Ekk in Hsf. cbn in Hsf. rewrite Ekk in Ek || idtac.
      destruct theta as [|t0 theta0]; [discriminate Hsf|]. destruct (@coupled_spec (t0 :: theta0) (size q) ltac:(discriminate)) as (s' & Es' & Ls & Hn).
      assert (s' = s) as -> by congruence. split; [intros E0; rewrite E0 in Hlen; discriminate|]. exists (map Some s). split; [exact Hint2|]. split; [rewrite map_length; exact Ls|].
      intros j Hj. rewrite (nth_indep _ None (Some 0%Qc)) by (rewrite map_length; lia). rewrite map_nth, Hn by exact Hj. rewrite Hlen.
      assert (Hm : (j mod List.length kept < List.length kept)%nat) by (apply Nat.mod_upper_bound; rewrite <- Hlen; discriminate).
      rewrite <- (map_nth Some). rewrite (nth_indep _ (Some 0%Qc) None) by (rewrite map_length; lia). rewrite Etheta.
      rewrite (nth_indep _ None (nth 0 col None)) by (rewrite map_length; exact Hm). apply (map_nth (fun i => nth i col None)). }
  assert (f = coupled_inverse theta) as -> by congruence.
  destruct theta as [|t0 theta0]; [discriminate Efs|]. destruct (@coupled_spec (t0 :: theta0) (size q) ltac:(discriminate)) as (s' & Es' & Ls & Hn).
  assert (s' = s) as -> by congruence. split; [intros E0; rewrite E0 in Hlen; discriminate|]. exists (map Some s). split; [exact Hint2|]. split; [rewrite map_length; exact Ls|].
  intros j Hj. rewrite (nth_indep _ None (Some 0%Qc)) by (rewrite map_length; lia). rewrite map_nth, Hn by exact Hj. rewrite Hlen.
  assert (Hm : (j mod List.length kept < List.length kept)%nat) by (apply Nat.mod_upper_bound; rewrite <- Hlen; discriminate).
  rewrite <- (map_nth Some). rewrite (nth_indep _ (Some 0%Qc) None) by (rewrite map_length; lia). rewrite Etheta.
  rewrite (nth_indep _ None (nth 0 col None)) by (rewrite map_length; exact Hm). apply (map_nth (fun i => nth i col None)).
Qed.

(** ** Saving and loading *)

Definition refill (new : string -> value) (row : marginal) : marginal := map (fun cv => (fst cv, new (fst cv))) row.
Lemma refill_keys new row : map fst (refill new row) = map fst row.
Proof. unfold refill. rewrite map_map. reflexivity. Qed.
Lemma cell_refill new row c : cell (refill new row) c = if mem c (map fst row) then new c else VBlank.
Proof.
  unfold cell. induction row as [|[k v] row IH]; [reflexivity|]. cbn [refill map fst dget mem existsb]. destruct (String.eqb c k) eqn:E; [|exact IH].
  apply String.eqb_eq in E. now subst.
Qed.
Lemma cell_absent row c : mem c (map fst row) = false -> cell row c = VBlank.
Proof.
  unfold cell. induction row as [|[k v] row IH]; [reflexivity|]. cbn [map fst dget mem existsb]. destruct (String.eqb c k) eqn:E; [discriminate|exact IH].
Qed.
Lemma cell_In row k v : NoDup (map fst row) -> In (k, v) row -> cell row k = v.
Proof.
  unfold cell. induction row as [|[k' v'] row IH]; intros Hnd H0; [destruct H0|]; destruct H0 as [E|H]; cbn [dget].
  - injection E as -> ->. now rewrite String.eqb_refl.
  - inversion_clear Hnd as [|? ? Hni Hnd']. destruct (String.eqb k k') eqn:E; [|now apply IH]. apply String.eqb_eq in E. subst. exfalso. apply Hni.
    change k' with (fst (k', v)). now apply in_map.
Qed.
Lemma refill_back new row : NoDup (map fst row) -> (forall c, In c (map fst row) -> new c = cell row c) -> refill new row = row.
Proof.
  intros Hnd H. unfold refill. rewrite <- (map_id row) at 2. apply map_ext_in. intros [k v] Hin. cbn. rewrite H by (change k with (fst (k, v)); now apply in_map).
  now rewrite (cell_In _ _ _ Hnd Hin).
Qed.

Definition scaled_value (f : Qc) (v : value) : value := match v with VNum q => VNum (q * f)%Qc | _ => v end.
Lemma scaled_back f v : f <> 0%Qc -> scaled_value f (scaled_value (1 / f)%Qc v) = v.
Proof. intros Hf. destruct v; try reflexivity. cbn. f_equal. field. exact Hf. Qed.
Lemma scaled_numeric f v : numeric v -> numeric (scaled_value f v).
Proof. intros [->|[q ->]]; [now left|right; eexists; reflexivity]. Qed.
Lemma parse_numeric e v : numeric v -> parse_par e v = Ok (match v with VNum q => PNum q | _ => PNone end).
Proof. intros [->|[q ->]]; reflexivity. Qed.
Lemma limit_numeric f v : numeric v -> scale_limit f v = Ok (scaled_value f v).
Proof. intros [->|[q ->]]; reflexivity. Qed.

(** What the scaling does to a row of numbers: which cells are multiplied. *)
Definition scaled_cell (f : Qc) (fam : value) (c : string) (v : value) : value :=
  if mem c ["Theta_0"; "TruncateLower"; "TruncateUpper"] then scaled_value f v
  else if String.eqb c "Theta_1" && match fam with VText x => mem x ["normal_std"; "uniform"] | _ => false end then scaled_value f v
  else v.
Lemma scaled_cell_back f fam c v : f <> 0%Qc -> scaled_cell f fam c (scaled_cell (1 / f)%Qc fam c v) = v.
Proof.
  intros Hf. unfold scaled_cell. destruct (mem c _); [now apply scaled_back|]. destruct (_ && _); [now apply scaled_back|reflexivity].
Qed.
Lemma scaled_cell_blank f fam c : scaled_cell f fam c VBlank = VBlank.
Proof. unfold scaled_cell. destruct (mem c _); [reflexivity|]. destruct (_ && _); reflexivity. Qed.
Lemma scaled_cell_numeric f fam c v : numeric v -> numeric (scaled_cell f fam c v).
Proof. intros H. unfold scaled_cell. destruct (mem c _); [now apply scaled_numeric|]. destruct (_ && _); [now apply scaled_numeric|exact H]. Qed.

Definition plain_cells (old : string -> value) : Prop :=
  numeric (old "Theta_0") /\ numeric (old "Theta_1") /\ old "Theta_2" = VBlank /\ numeric (old "TruncateLower") /\ numeric (old "TruncateUpper") /\
  ((exists fam, old "Family" = VText fam /\ In fam ["normal"; "normal_cov"; "normal_std"; "lognormal"; "uniform"]) \/
   ((old "Family" = VBlank \/ old "Family" = VText "deterministic") /\ old "Theta_1" = VBlank)).

Lemma convert_scaled_plain e f old : plain_cells old ->
  exists new, convert_scaled e true f None old (match old "Family" with VText fam => Some fam | _ => None end) = Ok new /\
    forall c, new c = scaled_cell f (old "Family") c (old c).
Proof.
  intros (H0 & H1 & H2 & Hl & Hu & Hfam). unfold convert_scaled. rewrite (parse_numeric e H0), (parse_numeric e H1), H2. cbn [parse_par bind arg_factor].
  change (true && Qceqb 1 0) with false. cbn iota. assert (E1 : (f / 1)%Qc = f) by (field; discriminate). rewrite E1.
  rewrite (limit_numeric f Hl), (limit_numeric f Hu). cbn [bind].
  assert (Hc : forall (v0 v1 : value) c, v0 = scaled_value f (old "Theta_0") ->
     v1 = scaled_cell f (old "Family") "Theta_1" (old "Theta_1") ->
     (if String.eqb c "Theta_0" then v0 else if String.eqb c "Theta_1" then v1 else if String.eqb c "Theta_2" then VBlank
      else if String.eqb c "TruncateLower" then scaled_value f (old "TruncateLower") else if String.eqb c "TruncateUpper" then scaled_value f (old "TruncateUpper") else old c)
     = scaled_cell f (old "Family") c (old c)).
  { intros v0 v1 c -> ->.
    destruct (String.eqb c "Theta_0") eqn:C0; [apply String.eqb_eq in C0; subst; reflexivity|].
    destruct (String.eqb c "Theta_1") eqn:C1; [apply String.eqb_eq in C1; subst; reflexivity|].
    destruct (String.eqb c "Theta_2") eqn:C2; [apply String.eqb_eq in C2; subst; rewrite H2, scaled_cell_blank; reflexivity|].
    destruct (String.eqb c "TruncateLower") eqn:C3; [apply String.eqb_eq in C3; subst; reflexivity|].
    destruct (String.eqb c "TruncateUpper") eqn:C4; [apply String.eqb_eq in C4; subst; reflexivity|].
    unfold scaled_cell. cbn [mem existsb]. rewrite C0, C1, C3, C4. reflexivity. }
  destruct Hfam as [(fam & Ef & Hin)|[Hf E1']].
  - rewrite Ef in *. destruct H0 as [E0|[q0 E0]]; destruct H1 as [E2|[q1 E2]]; rewrite E0, E2 in *;
    repeat (destruct Hin as [<-|Hin]; [cbn; eexists; (split; [reflexivity|]); intros c; apply Hc; reflexivity|]); destruct Hin.
  - rewrite E1' in *. destruct Hf as [Ef|Ef]; rewrite Ef in *; destruct H0 as [E0|[q0 E0]]; rewrite E0 in *; cbn; eexists; (split; [reflexivity|]); intros c; apply Hc; reflexivity.
Qed.

Lemma convert_demand_cells e inverse u row : convert_demand e inverse u row =
  let* fu := calc_unit_scale_factor e u in
  if match cell row "Family" with VText fam => String.eqb fam "empirical" | _ => false end then Ok row
  else if inverse && Qceqb fu 0 then Err ZeroDivisionError
  else let* new := convert_scaled e true (if inverse then (1 / fu)%Qc else fu) None (cell row)
                                  (match cell row "Family" with VText fam => Some fam | _ => None end) in
       Ok (refill new row).
Proof. reflexivity. Qed.
Lemma convert_demand_plain e u f row : plain_row row -> S_Params.unit_factor e u f -> f <> 0%Qc ->
  exists row', convert_demand e true u row = Ok row' /\ map fst row' = map fst row /\ convert_demand e false u row' = Ok row.
Proof.
  intros (_ & Hnd & Hrow) Hu Hf. apply calc_unit_factor in Hu. destruct Hrow as [Hd|Hp].
  { exists row. unfold is_data in Hd. rewrite !convert_demand_cells, Hu. cbn [bind]. rewrite Hd. cbn. auto. }
  assert (Hp' : plain_cells (cell row)) by exact Hp.
  assert (Hne : (match cell row "Family" with VText fam => String.eqb fam "empirical" | _ => false end) = false).
  { destruct Hp' as (_ & _ & _ & _ & _ & [(fam & Ef & Hin)|[[Ef|Ef] _]]); rewrite Ef; [|reflexivity|reflexivity].
    repeat (destruct Hin as [<-|Hin]; [reflexivity|]). destruct Hin. }
  assert (Hz : Qceqb f 0 = false) by (destruct (Qceqb f 0) eqn:E; [apply Qceqb_true in E; congruence|reflexivity]).
  destruct (convert_scaled_plain e (1 / f)%Qc Hp') as (new & En & Hnew).
  exists (refill new row). split; [|split; [apply refill_keys|]].
  { rewrite convert_demand_cells, Hu. cbn [bind]. rewrite Hne, Hz. cbn [andb]. rewrite En. reflexivity. }
  assert (Hcell : forall c, cell (refill new row) c = scaled_cell (1 / f)%Qc (cell row "Family") c (cell row c)).
  { intros c. rewrite cell_refill. destruct (mem c (map fst row)) eqn:E; [apply Hnew|]. rewrite (cell_absent _ _ E), scaled_cell_blank. reflexivity. }
  assert (Efam : cell (refill new row) "Family" = cell row "Family") by (rewrite Hcell; reflexivity).
  assert (Hp2 : plain_cells (cell (refill new row))).
  { destruct Hp' as (P0 & P1 & P2 & P3 & P4 & P5). unfold plain_cells. rewrite Efam, !Hcell. repeat split; try now apply scaled_cell_numeric.
    - rewrite P2. apply scaled_cell_blank.
    - destruct P5 as [P5|[P5 P6]]; [left; exact P5|right; split; [exact P5|]]. rewrite P6. apply scaled_cell_blank. }
  destruct (convert_scaled_plain e f Hp2) as (new2 & En2 & Hnew2).
  rewrite convert_demand_cells, Hu. cbn [bind andb]. rewrite Efam, Hne. rewrite Efam in En2. rewrite En2. cbn [bind]. f_equal.
  assert (Err : refill new2 (refill new row) = refill new2 row) by (unfold refill; rewrite map_map; reflexivity).
  rewrite Err. apply refill_back; [exact Hnd|]. intros c Hc. rewrite Hnew2, Efam, Hcell. now apply scaled_cell_back.
Qed.

Lemma dset_absent (row : marginal) u v : ~ In u (map fst row) -> dset u v row = row ++ [(u, v)].
Proof.
  induction row as [|[k w] row IH]; intros Hn; [reflexivity|]. cbn [dset]. destruct (String.eqb u k) eqn:E.
  - apply String.eqb_eq in E. exfalso. apply Hn. now left.
  - cbn. rewrite IH; [reflexivity|]. intros H. apply Hn. now right.
Qed.
Lemma ddel_absent (row : marginal) u : ~ In u (map fst row) -> ddel u row = row.
Proof.
  unfold ddel. induction row as [|[k w] row IH]; intros Hn; [reflexivity|]. cbn [filter fst]. destruct (String.eqb u k) eqn:E.
  - apply String.eqb_eq in E. exfalso. apply Hn. now left.
  - cbn [negb]. rewrite IH; [reflexivity|]. intros H. apply Hn. now right.
Qed.
Lemma ddel_dset (row : marginal) u v : ~ In u (map fst row) -> ddel u (dset u v row) = row.
Proof.
  intros Hn. rewrite dset_absent by exact Hn. unfold ddel. rewrite filter_app. cbn [filter fst]. rewrite String.eqb_refl. cbn [negb]. rewrite app_nil_r.
  now apply ddel_absent.
Qed.

Lemma three_levels_back labels : labels <> [] -> Forall edp_label labels -> three_levels (map (join "-") labels) = Ok labels.
Proof.
  intros Hne H. unfold three_levels. pose proof (@simple_multi_round_trip 3 labels ltac:(lia) Hne H) as X. cbn [to_simple_index Nat.ltb Nat.leb] in X.
  rewrite X. reflexivity.
Qed.

Lemma nth_error_combine {A B} (a : list A) (b : list B) x y : In (x, y) (combine a b) <-> exists i, nth_error a i = Some x /\ nth_error b i = Some y.
Proof.
  revert b. induction a as [|x0 a IH]; intros [|y0 b]; cbn.
  - split; [easy|]. intros ([|i] & H & _); discriminate.
  - split; [easy|]. intros ([|i] & H & _); discriminate.
  - split; [easy|]. intros ([|i] & _ & H); discriminate.
  - split.
    + intros [E|H]; [injection E as -> ->; exists 0%nat; auto|]. apply IH in H as (i & H). exists (S i). exact H.
    + intros ([|i] & H1 & H2); [injection H1 as ->; injection H2 as ->; now left|right]. apply IH. exists i. auto.
Qed.
Lemma correlated_In c a b x : correlated c a b x <-> exists row, In (a, row) (combine (fst c) (snd c)) /\ In (b, x) (combine (fst c) row).
Proof.
  unfold correlated, entry. split.
  - intros (i & j & Ha & Hb & E). destruct (nth_error (snd c) i) as [row|] eqn:Er; [|discriminate]. exists row. split; apply nth_error_combine; eauto.
  - intros (row & Ha & Hb). apply nth_error_combine in Ha as (i & Ha & Hr). apply nth_error_combine in Hb as (j & Hb & Hx). exists i, j. rewrite Hr. auto.
Qed.
Lemma combine_fst_snd {A B} (l : list (A * B)) : combine (map fst l) (map snd l) = l.
Proof. induction l as [|[a b] l IH]; [reflexivity|]. cbn. now rewrite IH. Qed.
Lemma combine_firsts {A B} (l : list A) : forall (m : list B), List.length m = List.length l -> map fst (combine l m) = l.
Proof. induction l as [|a l IH]; intros [|b m] H; try discriminate H; [reflexivity|]. cbn. f_equal. apply IH. now injection H. Qed.
Lemma sorted_labels_only {A B} (labels : list (list string)) (xs : list A) (ys : list B) :
  List.length xs = List.length labels -> List.length ys = List.length labels ->
  map fst (sort_labels (combine labels xs)) = map fst (sort_labels (combine labels ys)).
Proof.
  intros Hx Hy.
  assert (H : forall C (zs : list C), List.length zs = List.length labels ->
    map fst (sort_labels (combine labels zs)) = map fst (sort_labels (map (fun l => (l, tt)) labels))).
  { intros C zs Hz. assert (E : map (fun l => (l, tt)) labels = map (fun e => (fst e, (fun _ _ => tt) (fst e) (snd e))) (combine labels zs)).
    { clear - Hz. revert zs Hz. induction labels as [|l labels IH]; intros [|z zs] Hz; try discriminate Hz; [reflexivity|]. cbn. f_equal. apply IH. now injection Hz. }
    rewrite E, (sort_labels_map (fun _ _ => tt)), map_map. reflexivity. }
  now rewrite (H A xs Hx), (H B ys Hy).
Qed.
Lemma load_correlation_spec labels rho : labels <> [] -> Forall edp_label labels -> square (List.length labels) rho ->
  exists c', load_correlation (map (join "-") labels, map (join "-") labels, rho) = Ok c' /\ Permutation (fst c') labels /\
    square (List.length labels) (snd c') /\
    forall a b x, correlated c' a b x <-> correlated (labels, rho) a b x.
Proof.
  intros Hne Hl [Hlen Hrows]. unfold load_correlation. rewrite (three_levels_back Hne Hl). cbn [bind].
  set (srow := fun r : list Qc => map snd (sort_labels (combine labels r))). set (sorted := sort_labels (combine labels (map srow rho))).
  eexists. split; [reflexivity|]. cbn [fst snd].
  assert (Hp : Permutation sorted (combine labels (map srow rho))) by apply sort_labels_perm.
  assert (Hpl : Permutation (map fst sorted) labels).
  { etransitivity; [apply Permutation_map, Hp|]. rewrite combine_firsts; [reflexivity|]. rewrite map_length. lia. }
  assert (Hsq : forall r, List.length r = List.length labels -> List.length (srow r) = List.length labels).
  { intros r Hr. unfold srow. rewrite map_length, (Permutation_length (sort_labels_perm _)), combine_length. lia. }
  split; [exact Hpl|]. split.
  { split; [rewrite map_length, (Permutation_length Hp), combine_length, map_length; lia|].
    apply Forall_forall. intros r Hr. apply in_map_iff in Hr as ([a r'] & <- & Hin). apply (Permutation_in _ Hp) in Hin. apply in_combine_r in Hin.
    apply in_map_iff in Hin as (r0 & <- & Hr0). apply Hsq. rewrite Forall_forall in Hrows. now apply Hrows. }
  intros a b x. rewrite !correlated_In. cbn [fst snd]. rewrite combine_fst_snd.
  assert (Hrow : forall r, In r rho -> forall b x, In (b, x) (combine (map fst sorted) (srow r)) <-> In (b, x) (combine labels r)).
  { intros r Hr b' x'. rewrite Forall_forall in Hrows. pose proof (Hrows _ Hr) as Lr. unfold sorted.
    rewrite (@sorted_labels_only _ _ labels (map srow rho) r) by (rewrite ?map_length; lia). unfold srow. rewrite combine_fst_snd.
    split; apply Permutation_in; [|symmetry]; apply sort_labels_perm. }
  split.
  - intros (row & Ha & Hb). apply (Permutation_in _ Hp) in Ha. apply nth_error_combine in Ha as (i & Ha & Hr). rewrite nth_error_map in Hr.
    destruct (nth_error rho i) as [r|] eqn:Er; [|discriminate]. injection Hr as <-. exists r. split; [apply nth_error_combine; eauto|].
    apply Hrow in Hb; [exact Hb|]. eapply nth_error_In; eauto.
  - intros (r & Ha & Hb). apply nth_error_combine in Ha as (i & Ha & Hr). exists (srow r). split.
    + apply (Permutation_in _ (Permutation_sym Hp)), nth_error_combine. exists i. split; [exact Ha|]. rewrite nth_error_map, Hr. reflexivity.
    + apply Hrow; [|exact Hb]. eapply nth_error_In; eauto.
Qed.

(** The rows of the marginals with their units, as one list. *)
Notation full := (list string * (dict value * string))%type.
Definition row_of (z : full) : list string * marginal := (fst z, fst (snd z)).
Definition unit_in (z : full) : list string * string := (fst z, snd (snd z)).
Lemma together (rows : list (list string * marginal)) : forall units : units_map, map fst units = map fst rows ->
  exists zs : list full, rows = map row_of zs /\ units = map unit_in zs.
Proof.
  induction rows as [|[l r] rows IH]; intros [|[l' u] units] E; try discriminate E; [exists []; auto|]. cbn in E. injection E as <- E.
  destruct (IH units E) as (zs & -> & ->). exists ((l', (r, u)) :: zs). auto.
Qed.
Lemma same_index_ok (zs : list full) : same_index (map row_of zs) (map unit_in zs) = Ok tt.
Proof.
  unfold same_index. rewrite !map_length, Nat.eqb_refl. cbn [negb]. rewrite !map_map, combine_map.
  assert (E : forallb (fun p => label_eqb (fst p) (snd p)) (map (fun z : full => (fst (row_of z), fst (unit_in z))) zs) = true); [|rewrite E; reflexivity].
  apply forallb_forall. intros p Hp. apply in_map_iff in Hp as (z & <- & _). apply label_eqb_eq. reflexivity.
Qed.
Lemma convert_demands_full e inverse (zs : list full) (g : full -> marginal) :
  (forall z, In z zs -> convert_demand e inverse (snd (snd z)) (fst (snd z)) = Ok (g z)) ->
  convert_demands e inverse (map row_of zs) (map unit_in zs) = Ok (map (fun z => (fst z, g z)) zs).
Proof.
  intros H. unfold convert_demands. rewrite same_index_ok. cbn [bind]. rewrite combine_map.
  induction zs as [|z zs IH]; [reflexivity|]. cbn [map mapM snd fst row_of unit_in]. rewrite (H z (or_introl eq_refl)). cbn [bind].
  rewrite IH by (intros z' Hz'; apply H; now right). reflexivity.
Qed.
Lemma unit_of_full (zs : list full) z : NoDup (map fst zs) -> In z zs -> unit_of (map unit_in zs) (fst z) = Some (snd (snd z)).
Proof.
  intros Hnd Hz. unfold unit_of. apply (In_aget label_eqb label_eqb_eq); [rewrite map_map; exact Hnd|]. change (fst z, snd (snd z)) with (unit_in z). now apply in_map.
Qed.

Lemma choose_list {A B} (P : A -> B -> Prop) (d : B) (l : list A) (eqd : forall a b : A, {a = b} + {a <> b}) :
  (forall a, In a l -> exists b, P a b) -> exists g : A -> B, forall a, In a l -> P a (g a).
Proof.
  induction l as [|x l IH]; intros H; [exists (fun _ => d); intros a []|].
  destruct (H x (or_introl eq_refl)) as (b & Hb). destruct IH as (g & Hg); [intros a Ha; apply H; now right|].
  exists (fun a => if eqd a x then b else g a). intros a [<-|Ha]; [destruct (eqd x x); [exact Hb|congruence]|]. destruct (eqd a x) as [->|]; [exact Hb|now apply Hg].
Qed.
Lemma full_dec (a b : full) : {a = b} + {a <> b}.
Proof.
  assert (V : forall v w : value, {v = w} + {v <> w}) by (decide equality; [apply Qc_eq_dec|apply string_dec]).
  repeat (decide equality || apply string_dec || apply V).
Qed.

Lemma load_marginals_back e (zs : list full) (g : full -> marginal) :
  zs <> [] -> NoDup (map fst zs) -> Forall (fun z => edp_label (fst z)) zs ->
  (forall z, In z zs -> ~ In "Units" (map fst (g z)) /\ convert_demand e false (snd (snd z)) (g z) = Ok (fst (snd z))) ->
  load_marginals e (map (fun z => (join "-" (fst z), dset "Units" (VText (snd (snd z))) (g z))) zs)
  = Ok (map row_of (sort_labels zs), map unit_in (sort_labels zs)).
Proof.
  intros Hne Hnd Hl Hg. match goal with |- load_marginals _ ?f = _ => change f with (f : list (string * marginal)); set (file := (f : list (string * marginal))) end.
  assert (Elab : map (@fst string marginal) file = map (join "-") (map fst zs)) by (unfold file; rewrite !map_map; reflexivity).
  set (table := map (fun z : full => (fst z, dset "Units" (VText (snd (snd z))) (g z) : marginal)) zs).
  assert (Etab : combine (map (@fst (list string) (marginal * string)) zs) (map (@snd string marginal) file) = table) by (unfold file, table; rewrite map_map; apply combine_map).
  unfold load_marginals. rewrite Elab. rewrite three_levels_back; [|now destruct zs|rewrite Forall_map; exact Hl]. cbn [bind]. cbv zeta. rewrite Etab.
  assert (E1 : map (fun lm : list string * marginal => (fst lm, ddel "Units" (snd lm))) table = map (fun z => (fst z, g z)) zs).
  { unfold table. rewrite map_map. apply map_ext_in. intros z Hz. cbn [fst snd]. f_equal. apply ddel_dset. now apply Hg. }
  assert (E2 : forallb (fun lm : list string * marginal => dmem "Units" (snd lm)) table = true).
  { apply forallb_forall. intros lm Hlm. apply in_map_iff in Hlm as (z & <- & _). cbn [snd]. unfold dmem. now rewrite dget_dset_eq. }
  assert (E3 : flat_map (fun lm : list string * marginal => match dget "Units" (snd lm) with Some (VText u) => [(fst lm, u)] | _ => [] end)
                 table = map unit_in zs).
  { unfold table. clear. induction zs as [|z zs IH]; [reflexivity|]. cbn [map flat_map fst snd]. rewrite dget_dset_eq, IH. reflexivity. }
  rewrite E1, E2, E3. clear E1 E2 E3 Etab Elab.
  assert (S1 : sort_labels (map (fun z : full => (fst z, g z)) zs) = map (fun z => (fst z, g z)) (sort_labels zs)).
  { assert (Eg : forall ys : list full, map (fun z => (fst z, g z)) ys = map (fun z => (fst z, (fun l rv => g (l, rv)) (fst z) (snd z))) ys)
      by (intros ys; apply map_ext; intros [? ?]; reflexivity).
    rewrite !Eg. exact (sort_labels_map (fun l rv => g (l, rv)) zs). }
  assert (S2 : sort_labels (map unit_in zs) = map unit_in (sort_labels zs)) by exact (sort_labels_map (fun _ rv => snd rv) zs).
  rewrite S1, S2.
  assert (Hsame : map (fun z : full => (fst z, g z)) (sort_labels zs) = map row_of (map (fun z : full => (fst z, (g z, snd (snd z)))) (sort_labels zs)))
    by (rewrite map_map; reflexivity).
  assert (Hun : map unit_in (sort_labels zs) = map unit_in (map (fun z : full => (fst z, (g z, snd (snd z)))) (sort_labels zs)))
    by (rewrite map_map; reflexivity).
  rewrite Hsame. rewrite Hun at 1.
  assert (Hex : exists h : full -> marginal, forall z, In z (map (fun z : full => (fst z, (g z, snd (snd z)))) (sort_labels zs)) ->
            convert_demand e false (snd (snd z)) (fst (snd z)) = Ok (h z) /\ forall z0, In z0 zs -> z = (fst z0, (g z0, snd (snd z0))) -> h z = fst (snd z0)).
  { apply (@choose_list full marginal (fun z hz => convert_demand e false (snd (snd z)) (fst (snd z)) = Ok hz /\ forall z0, In z0 zs -> z = (fst z0, (g z0, snd (snd z0))) -> hz = fst (snd z0)) []); [apply full_dec|].
    intros z Hz. apply in_map_iff in Hz as (z0 & <- & Hz0). apply (Permutation_in _ (sort_labels_perm _)) in Hz0. exists (fst (snd z0)). cbn [fst snd].
    destruct (Hg z0 Hz0) as [_ Hc]. split; [exact Hc|]. intros z1 Hz1 E. injection E as El Eg Eu.
    destruct (Hg z1 Hz1) as [_ Hc1]. rewrite <- Eg, <- Eu in Hc1. congruence. }
  destruct Hex as (h & Hh). rewrite (@convert_demands_full e false _ h) by (intros z Hz; now apply Hh). cbn [bind]. f_equal. f_equal.
  rewrite map_map. apply map_ext_in. intros z Hz. cbn [fst snd]. unfold row_of. f_equal.
  destruct (Hh (fst z, (g z, snd (snd z)))) as [_ X]; [apply in_map_iff; exists z; auto|]. apply X; [|reflexivity].
  now apply (Permutation_in _ (sort_labels_perm zs)).
Qed.

Lemma model_round_trip e m m0 fs rows units :
  complete_model e m rows units -> (m_empirical m = None -> f_empirical fs = None /\ m_empirical m0 = None) ->
  exists fs' m1 rows' units' c c',
    save_model e m fs = (fs', None) /\ load_model e fs' m0 = (m1, None) /\
    m_marginals m1 = Some rows' /\ Permutation rows' rows /\ m_units m1 = Some units' /\ Permutation units' units /\
    m_correlation m = Some c /\ m_correlation m1 = Some c' /\ Permutation (fst c') (fst c) /\ (forall a b x, correlated c' a b x <-> correlated c a b x) /\
    match m_empirical m, m_empirical m1 with
    | None, None => True
    | Some t, Some t' => Permutation t' t
    | _, _ => False
    end.
Proof.
  intros (Em & Eu & Hne & Elab & [Hnd Hlab] & Hk & Hf & Hplain & Hemp & labels & rho & Ec & Hlne & [Hlnd Hll] & Hsq) Hno.
  destruct (@together rows units Elab) as (zs & -> & ->).
  assert (Hnd' : NoDup (map fst zs)) by (rewrite map_map in Hnd; exact Hnd).
  assert (Hlab' : Forall (fun z => edp_label (fst z)) zs) by (rewrite map_map in Hlab; exact (proj1 (Forall_map _ _ _) Hlab)).
  apply (proj1 (Forall_map _ _ _)) in Hf. apply (proj1 (Forall_map _ _ _)) in Hplain. rewrite Forall_forall in Hf, Hplain.
  destruct (@choose_list full marginal (fun z r => convert_demand e true (snd (snd z)) (fst (snd z)) = Ok r /\ map fst r = map fst (fst (snd z)) /\
              convert_demand e false (snd (snd z)) r = Ok (fst (snd z))) [] zs full_dec) as (g & Hg).
  { intros z Hz. destruct (Hf z Hz) as (f & Hu & Hfz). exact (convert_demand_plain (Hplain z Hz) Hu Hfz). }
  destruct (load_correlation_spec Hlne Hll Hsq) as (c' & Elc & Hpc & Hsqc & Hcc).
  set (fs1 := MF (f_marginals fs) (f_empirical fs) (Some (map (join "-") labels, map (join "-") labels, rho))).
  assert (Hemp2 : exists emp, match m_empirical m with
        | None => Ok fs1
        | Some t => let* s := save_columns (Some (factors e)) (m_units m) true 3 t in Ok (MF (f_marginals fs1) (Some s) (f_correlation fs1))
        end = Ok (MF (f_marginals fs1) emp (f_correlation fs1)) /\
      exists emp', match emp with None => Ok (m_empirical m0) | Some s => let* t := load_empirical e s in Ok (Some t) end = Ok emp' /\
      match m_empirical m, emp' with None, None => True | Some t, Some t' => Permutation t' t | _, _ => False end).
  { destruct (m_empirical m) as [t|] eqn:Eemp.
    - destruct (Hemp t eq_refl) as [Htne [Htnd Htl]].
      destruct (@round_trip (factors e) (map unit_in zs) true 3 t) as (s & us' & Es & El & _); [lia| |rewrite map_map; exact Hnd'|exact Hk|].
      { split; [destruct t; [congruence|discriminate]|]. split; [exact Htnd|exact Htl]. }
      assert (Es' : save_columns (Some (factors e)) (m_units m) true 3 t = Ok s) by (rewrite Eu; exact Es).
      rewrite Es'. cbn [bind]. eexists. split; [reflexivity|]. unfold load_empirical. rewrite El. cbn [bind fst].
      assert (E3 : n_levels (sort_labels t) = 3%nat).
      { pose proof (sort_labels_perm t) as Hp. unfold n_levels. destruct (sort_labels t) as [|[l v] st] eqn:Est; [apply Permutation_nil in Hp; congruence|].
        apply (proj1 (Forall_map _ _ _)) in Htl. rewrite Forall_forall in Htl. destruct (Htl (l, v)) as [H3 _]; [|exact H3]. apply (Permutation_in _ Hp). now left. }
      rewrite E3. cbn. eexists. split; [reflexivity|]. apply sort_labels_perm.
    - destruct (Hno eq_refl) as [Hfe Hm0]. exists None. unfold fs1. rewrite Hfe. split; [reflexivity|]. exists (m_empirical m0). split; [reflexivity|]. now rewrite Hm0. }
  destruct Hemp2 as (emp & Esave & emp' & Eload & Hemp').
  eexists. eexists. exists (map row_of (sort_labels zs)), (map unit_in (sort_labels zs)), (labels, rho), c'.
  split.
  { unfold save_model. rewrite Ec. fold fs1. rewrite Esave, Em, Eu. rewrite (@convert_demands_full e true zs g) by (intros z Hz; now apply Hg). reflexivity. }
  split.
  { unfold load_model. cbn [f_empirical f_correlation f_marginals]. rewrite Eload. cbn [or_missing]. unfold load_rest. cbn [bind].
    change (f_correlation fs1) with (Some (map (join "-") labels, map (join "-") labels, rho)). cbn [or_missing bind]. rewrite Elc. cbn [bind].
    rewrite map_map. cbn [fst snd].
    rewrite (map_ext_in _ (fun z : full => (join "-" (fst z), dset "Units" (VText (snd (snd z))) (g z)))) by (intros z Hz; now rewrite (unit_of_full zs z Hnd' Hz)).
    rewrite load_marginals_back; [reflexivity|intros ->; now apply Hne|exact Hnd'|exact Hlab'|].
    intros z Hz. destruct (Hg z Hz) as (_ & Ek & Hc). split; [|exact Hc]. rewrite Ek. destruct (Hplain z Hz) as [Hnu _]. exact Hnu. }
  cbn [m_marginals m_units m_correlation m_empirical].
  split; [reflexivity|]. split; [apply Permutation_map, sort_labels_perm|]. split; [reflexivity|]. split; [apply Permutation_map, sort_labels_perm|].
  split; [exact Ec|]. split; [reflexivity|]. split; [exact Hpc|]. split; [exact Hcc|]. exact Hemp'.
Qed.

(** ** Uniform values *)

Lemma unique_acc_same l : forall seen, NoDup l -> (forall x, In x l -> ~ In x seen) -> unique_acc String.eqb seen l = l.
Proof.
  induction l as [|y l IH]; intros seen Hnd Hs; [reflexivity|]. inversion_clear Hnd as [|? ? Hni Hnd']. cbn [unique_acc].
  destruct (existsb (String.eqb y) seen) eqn:E.
  - exfalso. apply existsb_exists in E as (z & Hz & Ez). apply String.eqb_eq in Ez. subst. apply (Hs z); [now left|exact Hz].
  - f_equal. apply IH; [exact Hnd'|]. intros x Hx Hin. apply in_inv in Hin. destruct Hin as [<-|Hin]; [contradiction|]. apply (Hs x); [now right|exact Hin].
Qed.
Lemma unique_same l : NoDup l -> unique String.eqb l = l.
Proof. intros H. apply unique_acc_same; [exact H|]. intros x _ []. Qed.
Lemma Forall2_nth_r {A B} (P : A -> B -> Prop) l m i y : Forall2 P l m -> nth_error m i = Some y -> exists x, nth_error l i = Some x /\ P x y.
Proof.
  intros F. revert i. induction F as [|a b l m Hab F IH]; intros [|i] E; try discriminate E; cbn in *; [|now apply IH].
  injection E as <-. eauto.
Qed.
Lemma tags_distinct labels : edp_labels labels -> NoDup (map edp_tag labels).
Proof.
  intros [Hnd Hl]. induction labels as [|l labels IH]; [constructor|]. inversion_clear Hnd as [|? ? Hni Hnd']. inversion_clear Hl as [|? ? H0 Hl'].
  cbn [map]. constructor; [|now apply IH]. intros H. apply in_map_iff in H as (l' & E & Hin). apply Hni. rewrite Forall_forall in Hl'.
  rewrite (edp_tag_inj (Hl' l' Hin) H0 E) in Hin. exact Hin.
Qed.
Lemma correlation_tags names R a b x : Forall edp_label names -> edp_label a -> edp_label b ->
  (correlation (map edp_tag names) R (edp_tag a) (edp_tag b) x <-> correlated (names, R) a b x).
Proof.
  intros Hl Ha Hb. unfold correlation, correlated. cbn [fst snd].
  assert (H : forall l i, edp_label l -> (nth_error (map edp_tag names) i = Some (edp_tag l) <-> nth_error names i = Some l)).
  { intros l i Hll. rewrite nth_error_map. destruct (nth_error names i) as [l'|] eqn:E; cbn [option_map]; [|split; discriminate]. split; intros X; [|congruence].
    injection X as X. f_equal. apply edp_tag_inj; [|exact Hll|exact X]. rewrite Forall_forall in Hl. apply Hl. eapply nth_error_In; eauto. }
  split; intros (i & j & H1 & H2 & H3); exists i, j; (split; [apply H; assumption|]); (split; [apply H; assumption|exact H3]).
Qed.

Lemma generate_uniforms c r n meth unis labels rho s :
  generator n (List.length (r_vars r)) (perms c) (draws c) -> (forall R U, List.length (copula c R U) = List.length U) ->
  NoDup (map v_name (r_vars r)) -> (forall v, In v (r_vars r) -> v_anchor v = v_name v) ->
  uniforms (copula c) (perms c) (draws c) r [] n meth = Ok unis ->
  edp_labels labels -> square (List.length labels) rho -> make_set (unique String.eqb (map edp_tag labels)) rho = Ok s -> r_sets r = [("EDP_set", s)] ->
  incl (map edp_tag labels) (map v_name (r_vars r)) ->
  exists names R U, Permutation names labels /\ (forall a b x, correlated (names, R) a b x <-> correlated (labels, rho) a b x) /\
    List.length U = List.length names /\ Forall (fun u => List.length u = n /\ (contains "LHS" meth = true -> latin n u)) U /\
    (forall i lab, nth_error names i = Some lab -> dget (edp_tag lab) unis = nth_error (copula c R U) i) /\
    (forall v, In v (r_vars r) -> ~ In (v_name v) (map edp_tag labels) -> exists u, dget (v_name v) unis = Some u /\ List.length u = n /\ (contains "LHS" meth = true -> latin n u)).
Proof.
  intros Hg Hcop Hnd Hanch Hu Hlab Hsq Hs Hsets Hincl.
  rewrite (unique_same (tags_distinct Hlab)) in Hs.
  destruct (@set_correlations (map edp_tag labels) rho) as (s' & Es' & Hps & Hss & Hcs); [now rewrite map_length|]. assert (s' = s) as -> by congruence.
  destruct (@Permutation_map_inv _ _ edp_tag (s_names s) labels) as (names & En & Hpn); [now symmetry|].
  assert (Hln : Forall edp_label names) by (eapply Permutation_Forall; [exact Hpn|apply Hlab]).
  assert (Hfree : forall v, In v (r_vars r) -> is_free v = true) by (intros v Hv; unfold is_free; now rewrite (Hanch v Hv), String.eqb_refl).
  unfold uniforms in Hu. match type of Hu with bind ?x _ = _ => destruct x as [unis0|] eqn:E0; [|discriminate] end. cbn [bind] in Hu.
  rewrite Hsets in Hu. cbn [foldM] in Hu. unfold correlate in Hu. cbn [snd] in Hu.
  assert (H0 : forall v, In v (r_vars r) -> exists u, dget (v_name v) unis0 = Some u /\ List.length u = n /\ (contains "LHS" meth = true -> latin n u)).
  { intros v Hv. destruct (@uniforms_row (copula c) (perms c) (draws c) (Reg (r_vars r) []) [] n meth unis0 v) as (u & Eu & Hr);
      [exact Hg|exact Hnd| |exact Hv|now apply Hfree|intros ? []|]; [|exists u; split; [exact Eu|exact Hr]].
    unfold uniforms. cbn [r_vars r_sets]. rewrite E0. reflexivity. }
  destruct (mapM _ (s_names s)) as [U|] eqn:EU; [|discriminate]. cbn [bind] in Hu.
  exists names, (s_rho s), U. split; [now symmetry|].
  assert (LU : List.length U = List.length names) by (apply mapM_ok_length in EU; rewrite EU, En; apply map_length).
  assert (Hroot : forall lab, In lab names -> uni_sample (r_vars r) unis0 (edp_tag lab) = dget (edp_tag lab) unis0).
  { intros lab Hl. assert (In (edp_tag lab) (map v_name (r_vars r))) as Hv by (apply Hincl, in_map; now apply (Permutation_in _ (Permutation_sym Hpn))).
    apply in_map_iff in Hv as (v & Ev & Hv). rewrite <- Ev. unfold uni_sample.
    assert (Er : root_of (List.length (r_vars r)) (r_vars r) (v_name v) = Some (v_name v)).
    { destruct (List.length (r_vars r)); cbn [root_of]; rewrite (find_rv_found _ _ Hnd Hv), (Hanch v Hv), String.eqb_refl; reflexivity. }
    now rewrite Er. }
  split.
  { intros a b x. split; intros H.
    - assert (Ha : edp_label a /\ edp_label b).
      { destruct H as (i & j & H1 & H2 & _). rewrite Forall_forall in Hln. split; apply Hln; eapply nth_error_In; eauto. }
      apply (@correlation_tags labels rho a b x (proj2 Hlab) (proj1 Ha) (proj2 Ha)). apply Hcs. rewrite En. apply correlation_tags; tauto.
    - assert (Ha : edp_label a /\ edp_label b).
      { destruct H as (i & j & H1 & H2 & _). destruct Hlab as [_ Hl]. rewrite Forall_forall in Hl. split; apply Hl; eapply nth_error_In; eauto. }
      apply (@correlation_tags names (s_rho s) a b x Hln (proj1 Ha) (proj2 Ha)). rewrite <- En. apply Hcs. apply correlation_tags; [apply Hlab|tauto|tauto|exact H]. }
  split; [exact LU|]. split.
  { apply mapM_Forall2 in EU. rewrite En in EU. clear - EU H0 Hroot Hincl Hpn.
    apply Forall_forall. intros u Hu. apply In_nth_error in Hu as (i & Hi).
    destruct (@Forall2_nth_r _ _ _ _ _ i u EU Hi) as (tag & Ht & Hx). rewrite nth_error_map in Ht. destruct (nth_error names i) as [lab|] eqn:El; [|discriminate]. injection Ht as <-.
    apply nth_error_In in El. rewrite (Hroot lab El) in Hx.
    assert (In (edp_tag lab) (map v_name (r_vars r))) as Hv by (apply Hincl, in_map; now apply (Permutation_in _ (Permutation_sym Hpn))).
    apply in_map_iff in Hv as (v & Ev & Hv). destruct (H0 v Hv) as (u' & Eu' & Hr). rewrite Ev in Eu'. rewrite Eu' in Hx. injection Hx as ->. exact Hr. }
  assert (Hu' : unis = assign_rows (s_names s) (copula c (s_rho s) U) unis0) by (cbn [foldM] in Hu; congruence). clear Hu. subst unis.
  assert (Htags : NoDup (s_names s)) by (eapply Permutation_NoDup; [symmetry; exact Hps|now apply tags_distinct]).
  assert (Lc : List.length (copula c (s_rho s) U) = List.length (s_names s)) by (rewrite Hcop, LU, En, map_length; reflexivity).
  split.
  - intros i lab Hi. destruct (nth_error (copula c (s_rho s) U) i) as [u|] eqn:Eu.
    + unfold assign_rows. apply fold_dset_in.
      * rewrite combine_firsts; [exact Htags|exact Lc].
      * apply nth_error_combine. exists i. split; [|exact Eu]. rewrite En, nth_error_map, Hi. reflexivity.
    + exfalso. apply nth_error_None in Eu. assert (nth_error names i <> None) as Hn by congruence. apply nth_error_Some in Hn. rewrite Lc, En, map_length in Eu. lia.
  - intros v Hv Hni. destruct (H0 v Hv) as (u & Eu & Hr). exists u. split; [|exact Hr]. unfold assign_rows. rewrite fold_dset_notin; [exact Eu|].
    rewrite combine_firsts by exact Lc. intros Hin. apply Hni. apply (Permutation_in _ Hps). exact Hin.
Qed.

(** ** Uncertainty *)

Lemma with_thetas_nth cal : forall thetas k c, List.length thetas = List.length (filter (fun c => negb (is_empirical (snd c))) cal) ->
  nth_error (filter (fun c : list string * cal_row => negb (is_empirical (snd c))) cal) k = Some c -> exists th, nth_error thetas k = Some th /\ In (c, th) (with_thetas cal thetas).
Proof.
  induction cal as [|c0 cal IH]; intros thetas k c Hl Hk; [destruct k; discriminate Hk|]. cbn [filter] in Hl, Hk. cbn [with_thetas].
  destruct (is_empirical (snd c0)); cbn [negb] in Hl, Hk.
  - destruct (IH thetas k c Hl Hk) as (th & E & Hin). exists th. split; [exact E|now right].
  - destruct thetas as [|t0 thetas]; [discriminate Hl|]. cbn [List.length] in Hl. destruct k as [|k].
    + injection Hk as ->. exists t0. split; [reflexivity|now left].
    + destruct (IH thetas k c ltac:(lia) Hk) as (th & E & Hin). exists th. split; [exact E|now right].
Qed.
Lemma all_nan_In (l : list num) q : In (Some q) l -> all_nan l = false.
Proof.
  intros H. destruct (all_nan l) eqn:E; [|reflexivity]. unfold all_nan in E. rewrite forallb_forall in E. specialize (E _ H). discriminate E.
Qed.

(** ** Independence of the history *)

Lemma foldM_same {A B} (f g : B -> A -> result B) l : forall b, (forall b x, In x l -> f b x = g b x) -> foldM f b l = foldM g b l.
Proof.
  induction l as [|x l IH]; intros b H; [reflexivity|]. cbn [foldM]. rewrite (H b x (or_introl eq_refl)). destruct (g b x); [|reflexivity]. cbn [bind].
  apply IH. intros b' x' Hx. apply H. now right.
Qed.
Lemma demand_kind_not_data variable preserve e1 e2 lab row : ~ is_data row -> demand_kind variable preserve e1 (lab, row) = demand_kind variable preserve e2 (lab, row).
Proof.
  intros H. unfold demand_kind. destruct (match match dget "Family" row with Some v => v | None => VText "deterministic" end with VText f => String.eqb f "empirical" | _ => false end) eqn:E; [|reflexivity].
  exfalso. apply H. unfold is_data, cell. destruct (dget "Family" row) as [[|q|fam]|]; try discriminate E. apply String.eqb_eq in E. now subst.
Qed.
Lemma create_rvs_same variable preserve ms e1 e2 corr : e1 = e2 \/ (forall lab row, In (lab, row) ms -> ~ is_data row) ->
  create_rvs variable preserve ms e1 corr = create_rvs variable preserve ms e2 corr.
Proof.
  intros [->|H]; [reflexivity|]. unfold create_rvs. rewrite (foldM_same _ (fun r lm => let* k := demand_kind variable preserve e2 lm in add_variable r (RV (edp_tag (fst lm)) (edp_tag (fst lm)) k))); [reflexivity|].
  intros b [lab row] Hin. rewrite (@demand_kind_not_data variable preserve e1 e2 lab row (H lab row Hin)). reflexivity.
Qed.

Lemma calibrate_history fit root factors config m m' m1 :
  m_sample m' = m_sample m -> m_units m' = m_units m -> m_units_name m' = m_units_name m ->
  calibrate fit root factors config m = Ok m1 ->
  exists m1', calibrate fit root factors config m' = Ok m1' /\ m_marginals m1' = m_marginals m1 /\ m_correlation m1' = m_correlation m1 /\
    m_sample m1' = m_sample m1 /\ m_units m1' = m_units m1 /\ m_units_name m1' = m_units_name m1 /\
    (m_empirical m1' = m_empirical m1 \/ forall rows lab row, m_marginals m1 = Some rows -> In (lab, row) rows -> ~ is_data row).
Proof.
  intros Es Eu En H. unfold calibrate in *. assert (Ed : the_demand m' = the_demand m) by (unfold the_demand; now rewrite Es, Eu, En).
  rewrite Ed. destruct (the_demand m) as [d|]; [|discriminate]. cbn [bind] in *. destruct (save_sample factors d); [|discriminate]. cbn [bind] in *.
  destruct (calibration_settings factors config (map fst (d_sample d))) as [cal|] eqn:Ec; [|discriminate]. cbn [bind] in *.
  destruct (calibration_data (map snd cal) (realizations (d_sample d))) as [[data rest] censored].
  destruct (fit _ _ _ _ _) as [r|]; [|discriminate]. cbn [bind] in *. injection H as <-. eexists. split; [reflexivity|].
  cbn [m_marginals m_correlation m_sample m_units m_units_name m_empirical]. rewrite Es, Eu, En. repeat (split; [reflexivity|]).
  destruct (filter (fun c => is_empirical (snd c)) cal) as [|c0 cs] eqn:Ef; [right|left; reflexivity].
  intros rows lab row E Hin. injection E as <-. apply in_map_iff in Hin as ([c th] & Erow & Hin). intros Hd.
  assert (Hc : In c cal) by (rewrite <- (with_thetas_cal cal (fst r)); change c with (fst (c, th)); now apply in_map).
  pose proof (marginal_family root (negb (all_nan (map (fun c => sig_increase (snd c)) cal))) (c, th)) as Hf. rewrite Erow in Hf. cbn [snd fst] in Hf.
  unfold is_data, cell in Hd. rewrite Hf in Hd. injection Hd as Hd.
  assert (Hx : In c (filter (fun c => is_empirical (snd c)) cal)) by (apply filter_In; split; [exact Hc|]; unfold is_empirical; rewrite Hd; reflexivity).
  rewrite Ef in Hx. destruct Hx.
Qed.
Lemma generate_history variable c q m m' m2 :
  m_marginals m' = m_marginals m -> m_correlation m' = m_correlation m -> m_units m' = m_units m -> m_units_name m' = m_units_name m ->
  (m_empirical m' = m_empirical m \/ forall rows lab row, m_marginals m = Some rows -> In (lab, row) rows -> ~ is_data row) ->
  generate variable c q m = Ok m2 ->
  exists m2', generate variable c q m' = Ok m2' /\ m_sample m2' = m_sample m2 /\ m_units m2' = m_units m2.
Proof.
  intros Em Ec Eu En He H. unfold generate in *. rewrite Em, Ec, Eu, En. destruct (m_marginals m) as [ms|]; [|discriminate].
  rewrite (@create_rvs_same variable (preserve_order q) ms (m_empirical m') (m_empirical m)).
  2:{ destruct He as [He|He]; [left; exact He|right]. intros lab row Hin. exact (He ms lab row eq_refl Hin). }
  destruct (create_rvs _ _ _ _ _) as [r|]; [|discriminate]. cbn [bind] in *. destruct (generate_sample _ _ _ _ _ _ _) as [w|]; [|discriminate]. cbn [bind] in *.
  destruct (mapM _ (r_vars r)) as [cols|]; [|discriminate]. cbn [bind] in *. destruct (edp_columns cols) as [sm|]; [|discriminate]. cbn [bind m_units] in *.
  destruct (cloning q).
  - injection H as <-. eexists. split; [reflexivity|]. cbn. rewrite ?Eu. auto.
  - cbn [m_units_name m_units] in *. rewrite ?Eu, ?En. destruct (m_units m) as [us|]; [|discriminate]. destruct (clone_demands _ _) as [d0|]; [|discriminate]. cbn [bind] in *. injection H as <-.
    eexists. split; [reflexivity|]. auto.
Qed.
Lemma generate_again variable c q m m1 : cloning q = [] -> generate variable c q m = Ok m1 ->
  m_units m1 = m_units m /\ m_marginals m1 = m_marginals m /\ m_empirical m1 = m_empirical m /\ m_correlation m1 = m_correlation m /\
  forall c' q', generate variable c' q' m1 = generate variable c' q' m.
Proof.
  intros Hc H. unfold generate in H. destruct (m_marginals m) as [ms|] eqn:Em; [|discriminate].
  destruct (create_rvs _ _ _ _ _) as [r|]; [|discriminate]. cbn [bind] in *. destruct (generate_sample _ _ _ _ _ _ _) as [w|]; [|discriminate]. cbn [bind] in *.
  destruct (mapM _ (r_vars r)) as [cols|]; [|discriminate]. cbn [bind] in *. destruct (edp_columns cols) as [sm|]; [|discriminate]. cbn [bind m_units] in *.
  rewrite Hc in H. injection H as <-. repeat (split; [reflexivity|]). intros c' q'. unfold generate. cbn. rewrite Em. reflexivity.
Qed.

(** ** Calibrated models are complete *)

Lemma marginal_plain root some c th :
  In (family (snd c)) ["empirical"; "normal"; "normal_cov"; "normal_std"; "lognormal"; "uniform"] -> plain_row (snd (marginal_of root some (c, th))).
Proof.
  intros H. destruct th as [t0 t1]. unfold plain_row. cbn [marginal_of snd map fst]. split; [cbn; intuition discriminate|].
  split; [repeat constructor; cbn; intuition discriminate|].
  assert (Hn : forall x, numeric (of_num x)) by (intros [x|]; [right; eexists; reflexivity|now left]).
  unfold is_data, cell. cbn [dget String.eqb Ascii.eqb Bool.eqb].
  destruct H as [H|H]; [left; now rewrite <- H|right].
  repeat (split; [first [apply Hn|reflexivity]|]). left. exists (family (snd c)). split; [reflexivity|exact H].
Qed.
Lemma NoDup_map_nth {A} (l : list A) d ps : NoDup l -> NoDup ps -> (forall p, In p ps -> (p < List.length l)%nat) -> NoDup (map (fun p => nth p l d) ps).
Proof.
  intros Hl Hps Hb. induction Hps as [|p ps Hni Hps IH]; [constructor|]. cbn [map]. constructor; [|apply IH; intros p' Hp'; apply Hb; now right].
  intros H. apply in_map_iff in H as (p' & E & Hp'). apply Hni. assert (p' = p) as <-; [|exact Hp'].
  apply (proj1 (NoDup_nth l d) Hl); [apply Hb; now right|apply Hb; now left|exact E].
Qed.
Lemma calibrated_complete e fit root config m m1 t units cal :
  NoDup (keys config) -> calibrate fit root (factors e) config m = Ok m1 -> m_sample m = Some t -> m_units m = Some units -> t <> [] ->
  map fst units = map fst t -> edp_labels (map fst t) -> known_units (factors e) (map snd units) ->
  Forall (fun lu => exists f, S_Params.unit_factor e (snd lu) f /\ f <> 0%Qc) units -> m_empirical m = None ->
  calibration_settings (factors e) config (map fst t) = Ok cal ->
  (forall lab r, In (lab, r) cal -> In (family r) ["empirical"; "normal"; "normal_cov"; "normal_std"; "lognormal"; "uniform"]) ->
  (exists lab r, In (lab, r) cal /\ family r <> "empirical") ->
  (forall fams data k lim trunc thetas rho, fit fams data k lim trunc = Ok (thetas, rho) -> square (List.length fams) rho) ->
  exists rows, complete_model e m1 rows units /\ map fst rows = map fst t.
Proof.
  intros Hcfg Hc Es Eu Hne Elab Hl Hk Hf He Ecal Hfam (lab0 & r0 & Hin0 & Hr0) Hsq.
  destruct (calibrate_spec _ _ _ _ _ Hcfg Hc Es) as (cal' & keep & thetas & rho & Ec' & El & _ & _ & Eu1 & _ & Em & Ecorr & Ee & Efit).
  rewrite Ecal in Ec'. injection Ec' as <-. eexists. unfold complete_model. rewrite Em, Eu1, Ee, Ecorr.
  assert (Elm : map fst (map (marginal_of root (negb (all_nan (map (fun c => sig_increase (snd c)) cal)))) (with_thetas cal thetas)) = map fst t)
    by (rewrite marginal_labels; exact El).
  split; [|exact Elm]. split; [reflexivity|]. split; [exact Eu|]. split; [intros E0; rewrite E0 in Elm; destruct t; [congruence|discriminate]|].
  split; [now rewrite Elm|]. split; [rewrite Elm; exact Hl|]. split; [exact Hk|]. split; [exact Hf|]. split; [|split].
  - apply Forall_forall. intros lr Hlr. apply in_map_iff in Hlr as ([c th] & <- & Hin). apply marginal_plain.
    assert (Hcin : In c cal) by (rewrite <- (with_thetas_cal cal thetas); change c with (fst (c, th)); now apply in_map).
    destruct c as [l r]. exact (Hfam l r Hcin).
  - intros te Ete. destruct (filter (fun c => is_empirical (snd c)) cal) as [|c1 cs] eqn:Ef; [congruence|]. injection Ete as <-. split.
    + intros E0. apply map_eq_nil in E0. assert (Hc1' : In c1 (filter (fun c => is_empirical (snd c)) cal)) by (rewrite Ef; now left).
      apply filter_In in Hc1' as [Hc1 He1].
      apply In_nth with (d := ([], empty_row)) in Hc1 as (p & Hp & Ep).
      assert (List.length cal = List.length t) as Hlen by (rewrite <- (map_length fst cal), El; apply map_length).
      assert (In p (filter (fun p => is_empirical (nth p (map snd cal) empty_row)) (seq 0 (List.length t)))) as Hx; [|rewrite E0 in Hx; destruct Hx].
      apply filter_In. split; [apply in_seq; lia|]. change empty_row with (snd (@nil string, empty_row)). rewrite map_nth, Ep. exact He1.
    + rewrite map_map. cbn [fst]. destruct Hl as [Hnd Hll]. split.
      * apply NoDup_map_nth; [exact Hnd|apply NoDup_filter, seq_NoDup|]. intros p Hp. apply filter_In in Hp as [Hp _]. apply in_seq in Hp. rewrite map_length. lia.
      * apply Forall_forall. intros l Hin. apply in_map_iff in Hin as (p & <- & Hp). rewrite Forall_forall in Hll. apply Hll. apply nth_In.
        apply filter_In in Hp as [Hp _]. apply in_seq in Hp. rewrite map_length. lia.
  - exists (map fst (filter (fun c => negb (is_empirical (snd c))) cal)), rho. split; [reflexivity|]. split; [|split].
    + intros E0. apply map_eq_nil in E0. assert (In (lab0, r0) (filter (fun c => negb (is_empirical (snd c))) cal)) as Hx; [|rewrite E0 in Hx; destruct Hx].
      apply filter_In. split; [exact Hin0|]. cbn. unfold is_empirical. destruct (String.eqb_spec (family r0) "empirical"); [contradiction|reflexivity].
    + destruct Hl as [Hnd Hll]. rewrite <- El in Hnd, Hll. split.
      * clear - Hnd. induction cal as [|c cal IH]; [constructor|]. cbn [map] in Hnd. inversion_clear Hnd as [|? ? Hni Hnd']. cbn [filter]. destruct (negb _); [|now apply IH].
        cbn [map]. constructor; [|now apply IH]. intros H. apply Hni. apply in_map_iff in H as (c' & E & Hc'). apply filter_In in Hc' as [Hc' _]. rewrite <- E. now apply in_map.
      * apply Forall_forall. intros l H. rewrite Forall_forall in Hll. apply Hll. apply in_map_iff in H as (c' & E & Hc'). apply filter_In in Hc' as [Hc' _]. rewrite <- E. now apply in_map.
    + apply Hsq in Efit. rewrite map_length in Efit. rewrite map_length. exact Efit.
Qed.

(** Labels with a hyphen. *)
Lemma generate_hyphen variable c q m ms : m_marginals m = Some ms -> Forall (fun lr => List.length (fst lr) = 3%nat) ms ->
  (exists lr, In lr ms /\ ~ Forall no_dash (fst lr)) -> is_ok (generate variable c q m) = false.
Proof.
  intros Em H3 (lr & Hin & Hd). unfold generate. rewrite Em.
  destruct (create_rvs variable (preserve_order q) ms (m_empirical m) (m_correlation m)) as [r|] eqn:Er; [|reflexivity]. cbn [bind].
  destruct (generate_sample (copula c) (perms c) (draws c) r (World [] []) (size q) (method q)) as [w|]; [|reflexivity]. cbn [bind].
  destruct (mapM _ (r_vars r)) as [cols|] eqn:Ec; [|reflexivity]. cbn [bind].
  destruct (create_rvs_spec _ _ _ _ _ Er) as (ks & F & Ev & _ & _).
  assert (Hlen : List.length ks = List.length ms) by (clear - F; induction F; cbn; congruence).
  rewrite Ev in Ec. apply mapM_Forall2 in Ec.
  set (columns := combine (map fst ms) (map snd cols)).
  assert (Ecols : cols = map (fun c => (edp_tag (fst c), snd c)) columns /\ map fst columns = map fst ms).
  { unfold columns. clear - Ec Hlen. revert ks cols Hlen Ec. induction ms as [|lm ms IH]; intros [|k ks] cols Hlen Ec; try discriminate Hlen.
    - inversion Ec. split; reflexivity.
    - cbn [combine map fst snd] in Ec. inversion Ec as [|? col ? cols' Hc Ec' E1 E2]. subst cols. cbn [rv_of v_name] in Hc.
      destruct (dget (edp_tag (fst lm)) (w_samples w)) as [s|]; [|discriminate]. injection Hc as <-.
      destruct (IH ks cols' ltac:(cbn in Hlen; lia) Ec') as [E3 E4]. cbn [map combine fst snd]. split; f_equal; [exact E3|exact E4]. }
  destruct Ecols as [Ecols Efst]. clearbody columns. rewrite Ecols, edp_columns_err; [reflexivity| |].
  - apply Forall_forall. intros c0 Hc0. rewrite Forall_forall in H3. assert (In (fst c0) (map fst ms)) as Hf by (rewrite <- Efst; now apply in_map).
    apply in_map_iff in Hf as (lr' & E & Hl'). rewrite <- E. now apply H3.
  - assert (In (fst lr) (map fst columns)) as Hf by (rewrite Efst; now apply in_map). apply in_map_iff in Hf as (c0 & E & Hc0). exists c0. split; [exact Hc0|]. now rewrite E.
Qed.

(** ** What is fitted *)

Lemma filter_positions_by (p : cal_row -> bool) (cal : list (list string * cal_row)) : forall k,
  filter (fun c => p (snd c)) cal =
  map (fun i => nth (i - k) cal ([], empty_row)) (filter (fun i => p (nth (i - k) (map snd cal) empty_row)) (seq k (List.length cal))).
Proof.
  induction cal as [|c cal IH]; intros k; [reflexivity|]. cbn [filter List.length seq map]. rewrite Nat.sub_diag. cbn [nth].
  assert (E : filter (fun c => p (snd c)) cal =
    map (fun i => nth (i - k) (c :: cal) ([], empty_row)) (filter (fun i => p (nth (i - k) (snd c :: map snd cal) empty_row)) (seq (S k) (List.length cal)))).
  { rewrite (IH (S k)). assert (Hs : forall i, In i (seq (S k) (List.length cal)) -> (i - k = S (i - S k))%nat) by (intros i Hi; apply in_seq in Hi; lia).
    induction (seq (S k) (List.length cal)) as [|i l IHl]; [reflexivity|]. cbn [filter]. rewrite (Hs i) by now left. cbn [nth].
    destruct (p (nth (i - S k) (map snd cal) empty_row)); [|apply IHl; intros j Hj; apply Hs; now right].
    cbn [map]. rewrite (Hs i) by now left. cbn [nth]. f_equal. apply IHl. intros j Hj. apply Hs. now right. }
  destruct (p (snd c)); cbn [map]; rewrite E; [rewrite Nat.sub_diag|]; reflexivity.
Qed.

Lemma columns_at_nth idx rows : columns_of (List.length idx) (map (cells_at idx) rows) = map (fun p => map (fun r => nth p r None) rows) idx.
Proof.
  assert (L : List.length (columns_of (List.length idx) (map (cells_at idx) rows)) = List.length idx) by (unfold columns_of; rewrite map_length; apply seq_length).
  pose proof (columns_at (fun _ => []) idx rows) as H. apply (f_equal (map snd)) in H. rewrite map_map in H. cbn [snd] in H. etransitivity; [|exact H]. clear H.
  revert L. generalize (columns_of (List.length idx) (map (cells_at idx) rows)). induction idx as [|p idx IH]; intros [|c cs] L; try discriminate; [reflexivity|]. cbn. f_equal. apply IH. now injection L.
Qed.

Lemma calibrate_fit fit root factors config m m1 t cal : NoDup (keys config) ->
  calibrate fit root factors config m = Ok m1 -> m_sample m = Some t -> calibration_settings factors config (map fst t) = Ok cal ->
  exists kept censored data thetas rho,
    StronglySorted lt kept /\
    (forall i, In i kept <-> (i < n_rows t)%nat /\ in_censor_range (map snd cal) (realization t i) /\ in_truncation_range (map snd cal) (realization t i)) /\
    StronglySorted lt censored /\
    (forall i, In i censored <-> (i < n_rows t)%nat /\ ~ in_censor_range (map snd cal) (realization t i)) /\
    (forall k lab r, nth_error (filter (fun c => negb (is_empirical (snd c))) cal) k = Some (lab, r) ->
       exists col, In (lab, col) t /\ nth_error data k = Some (map (fun i => nth i col None) kept)) /\
    List.length data = List.length (filter (fun c => negb (is_empirical (snd c))) cal) /\
    fit (map (fun c => family (snd c)) (filter (fun c => negb (is_empirical (snd c))) cal)) data (List.length censored)
        (map (fun c => (censor_lower (snd c), censor_upper (snd c))) (filter (fun c => negb (is_empirical (snd c))) cal))
        (map (fun c => (truncate_lower (snd c), truncate_upper (snd c))) (filter (fun c => negb (is_empirical (snd c))) cal)) = Ok (thetas, rho) /\
    m_marginals m1 = Some (map (marginal_of root (negb (all_nan (map (fun c => sig_increase (snd c)) cal)))) (with_thetas cal thetas)) /\
    m_correlation m1 = Some (map fst (filter (fun c => negb (is_empirical (snd c))) cal), rho).
Proof.
  intros Hcfg H Es Ec. destruct (@calibrate_spec fit root factors config m m1 t Hcfg H Es) as (cal' & _ & thetas & rho & Ec' & El & _ & _ & _ & _ & Em & Er & _ & Ef).
  assert (cal' = cal) as -> by congruence. clear Ec'.
  assert (Hlen : List.length (map snd cal) = List.length t) by (rewrite map_length, <- (map_length fst cal), El; apply map_length).
  destruct (@calibration_filter (map snd cal) (realizations t)) as (keep & cens & Hk & Hc & Ed); [rewrite Hlen; apply realizations_length|].
  rewrite Ed in Ef. cbn [fst snd] in Ef.
  assert (Hreal : forall i, (i < n_rows t)%nat -> In (realization t i) (realizations t)).
  { intros i Hi. unfold realizations, realization. apply in_map_iff. exists i. split; [reflexivity|]. apply in_seq. lia. }
  exists (used_rows (map snd cal) t keep), (used_rows (map snd cal) t cens). eexists. exists thetas, rho.
  split; [apply seq_filter_sorted|]. split.
  { intros i. unfold used_rows. rewrite filter_In, in_seq. split.
    - intros [Hi Hkp]. split; [lia|]. apply Hk; [apply Hreal; lia|exact Hkp].
    - intros [Hi Hr]. split; [lia|]. apply Hk; [apply Hreal; lia|exact Hr]. }
  split; [apply seq_filter_sorted|]. split.
  { intros i. unfold used_rows. rewrite filter_In, in_seq. split.
    - intros [Hi Hkp]. split; [lia|]. apply Hc; [apply Hreal; lia|exact Hkp].
    - intros [Hi Hr]. split; [lia|]. apply Hc; [apply Hreal; lia|exact Hr]. }
  assert (Hcount : List.length (filter cens (realizations t)) = List.length (used_rows (map snd cal) t cens)).
  { unfold realizations. rewrite filter_map_comm, map_length. reflexivity. }
  rewrite Hcount in Ef.
  set (idx := filter (fun i => negb (String.eqb (family (nth i (map snd cal) empty_row)) "empirical")) (seq 0 (List.length (map snd cal)))) in *.
  assert (Epos : filter (fun c => negb (is_empirical (snd c))) cal = map (fun i => nth i cal ([], empty_row)) idx).
  { rewrite (filter_positions_by (fun c => negb (is_empirical c)) cal 0). unfold idx. rewrite map_length.
    rewrite (map_ext (fun i => nth (i - 0) cal ([], empty_row)) (fun i => nth i cal ([], empty_row))) by (intros; now rewrite Nat.sub_0_r). f_equal. apply filter_ext. intros i. now rewrite Nat.sub_0_r. }
  assert (Elen : List.length (filter (fun c => negb (is_empirical (snd c))) cal) = List.length idx) by (rewrite Epos; apply map_length).
  rewrite Elen, columns_at_nth in Ef.
  split; [|split; [|split; [exact Ef|split; [exact Em|exact Er]]]]; [|now rewrite map_length].
  intros k lab r Hnth. rewrite Epos in Hnth. rewrite nth_error_map in Hnth. destruct (nth_error idx k) as [p|] eqn:Ep; [|discriminate]. cbn in Hnth. injection Hnth as Hnth.
  assert (Hp : (p < List.length t)%nat).
  { apply nth_error_In in Ep. unfold idx in Ep. apply filter_In in Ep as [Ep _]. apply in_seq in Ep. rewrite Hlen in Ep. lia. }
  exists (snd (nth p t ([], []))). split.
  - assert (lab = fst (nth p t ([], []))) as ->.
    { change lab with (fst (lab, r)). rewrite <- Hnth. rewrite <- (map_nth fst), El. exact (map_nth fst t ([], []) p). }
    rewrite <- surjective_pairing. now apply nth_In.
  - unfold idx in Ep. rewrite nth_error_map, Ep. cbn [option_map]. f_equal. unfold realizations. rewrite filter_map_comm. apply (kept_column t); exact Hp.
Qed.
