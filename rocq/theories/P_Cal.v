(** Proofs about calibration settings, filtering and cloning. *)
From Coq Require Import Sorting.Permutation.
From Verif Require Import Prelude PreludeFacts Pandas PandasFacts M_Base S_Base P_Base
  M_FileIO M_Damage M_Demand S_FileIO S_Demand P_Sample.
Local Open Scope string_scope.
Local Open Scope list_scope.

(** ** Settings *)

(** What one entry does to a row it applies to. *)
Definition apply_entry (factors : dict Qc) (s : settings) (r : cal_row) : cal_row :=
  match s_family s, scale_factor factors (s_unit s) with
  | Some fam, Ok f => apply_settings fam f s r
  | _, _ => r
  end.

Definition own_entry (factors : dict Qc) (config : dict settings) (e : list string * cal_row) : list string * cal_row :=
  let ty := base_type (d_type (fst e)) in
  if String.eqb ty "ALL" then e
  else match dget ty config with
       | Some s => (fst e, apply_entry factors s (snd e))
       | None => e
       end.

Definition good_entry (factors : dict Qc) (s : settings) : Prop :=
  s_family s <> None /\ exists f, scale_factor factors (s_unit s) = Ok f.

Lemma parse_settings_ok factors ty s cal : good_entry factors s ->
  parse_settings factors ty s cal =
  Ok (map (fun e => if selected ty (d_type (fst e)) then (fst e, apply_entry factors s (snd e)) else e) cal).
Proof.
  intros (Hf & f & Ef). unfold parse_settings, apply_entry. destruct (s_family s) as [fam|]; [|easy].
  now rewrite Ef.
Qed.

Lemma parse_settings_good factors ty s cal cal' :
  parse_settings factors ty s cal = Ok cal' -> good_entry factors s.
Proof.
  unfold parse_settings, good_entry. destruct (s_family s) as [fam|]; [|easy].
  destruct (scale_factor factors (s_unit s)) as [f|]; [|easy]. split; [easy|eauto].
Qed.

Definition config_step factors : list (list string * cal_row) -> string * settings -> result (list (list string * cal_row)) :=
  fun acc e => if String.eqb (fst e) "ALL" then Ok acc else parse_settings factors (fst e) (snd e) acc.

Lemma config_fold factors (config : dict settings) : forall cal cal',
  NoDup (keys config) ->
  foldM (config_step factors) cal config = Ok cal' ->
  cal' = map (own_entry factors config) cal.
Proof.
  induction config as [|[k s] config IH]; intros cal cal' Hn H.
  - simpl in H. injection H as <-. symmetry. rewrite <- (map_id cal) at 2. apply map_ext. intros e. unfold own_entry.
    simpl. now destruct (String.eqb _ _).
  - cbn [foldM] in H. unfold config_step at 1 in H. cbn [fst snd] in H. inversion Hn; subst.
    destruct (String.eqb_spec k "ALL") as [->|Hk].
    + cbn [bind] in H. apply IH in H; [|easy]. subst cal'. apply map_ext. intros e. unfold own_entry.
      destruct (String.eqb_spec (base_type (d_type (fst e))) "ALL"); [easy|]. cbn [dget].
      destruct (String.eqb_spec (base_type (d_type (fst e))) "ALL"); [easy|].
      destruct (String.eqb_spec "ALL" (base_type (d_type (fst e)))); [congruence|]. reflexivity.
    + destruct (parse_settings factors k s cal) as [cal1|] eqn:E1; cbn [bind] in H; [|easy].
      pose proof (parse_settings_good _ _ _ _ _ E1) as Hg.
      rewrite parse_settings_ok in E1 by exact Hg. injection E1 as <-.
      apply IH in H; [|easy]. subst cal'. rewrite map_map. apply map_ext. intros e.
      unfold selected. destruct (String.eqb_spec k "ALL"); [easy|].
      fold (base_type (d_type (fst e))). unfold own_entry.
      destruct (String.eqb_spec (base_type (d_type (fst e))) k) as [Ek|Ek].
      * cbn [fst snd]. rewrite Ek. destruct (String.eqb_spec k "ALL"); [easy|]. cbn [dget]. rewrite String.eqb_refl.
        destruct (dget k config) as [s'|] eqn:E'; [|reflexivity]. exfalso. apply H2. eapply dget_Some_keys; eauto.
      * destruct (String.eqb_spec (base_type (d_type (fst e))) "ALL"); [easy|]. cbn [dget].
        destruct (String.eqb_spec k (base_type (d_type (fst e)))); [congruence|].
        destruct (String.eqb_spec (base_type (d_type (fst e))) k); [congruence|]. reflexivity.
Qed.

Definition no_settings : cal_row :=
  {| family := "nan"; censor_lower := None; censor_upper := None;
     truncate_lower := None; truncate_upper := None; sig_increase := None |}.

Lemma calibration_rows factors config labels cal :
  NoDup (keys config) -> calibration_settings factors config labels = Ok cal ->
  exists sA, dget "ALL" config = Some sA /\ good_entry factors sA /\
    cal = map (fun lab => own_entry factors config (lab, apply_entry factors sA no_settings)) labels.
Proof.
  intros Hn H. unfold calibration_settings in H. fold no_settings in H.
  destruct (dget "ALL" config) as [sA|] eqn:EA; [|easy].
  destruct (parse_settings factors "ALL" sA (map (fun lab => (lab, no_settings)) labels)) as [cal0|] eqn:E0; cbn [bind] in H; [|easy].
  pose proof (parse_settings_good _ _ _ _ _ E0) as Hg. rewrite parse_settings_ok in E0 by exact Hg. injection E0 as <-.
  fold (config_step factors) in H. apply config_fold in H; [|easy]. exists sA. split; [easy|]. split; [easy|].
  subst cal. rewrite !map_map. apply map_ext. intros lab. reflexivity.
Qed.

Lemma all_entries_good factors config labels cal k s :
  NoDup (keys config) -> calibration_settings factors config labels = Ok cal ->
  dget k config = Some s -> good_entry factors s.
Proof.
  intros Hn H Hk. destruct (String.eqb_spec k "ALL") as [->|Hne].
  { destruct (calibration_rows _ _ _ _ Hn H) as (sA & E & Hg & _). congruence. }
  unfold calibration_settings in H. destruct (dget "ALL" config) as [sA|]; [|easy].
  destruct (parse_settings factors "ALL" sA _) as [cal0|]; cbn [bind] in H; [|easy].
  fold (config_step factors) in H. clear Hn sA. revert cal0 H.
  induction config as [|[k' s'] config IH]; intros cal0 H; [easy|]. cbn [foldM] in H. cbn [dget] in Hk.
  destruct (config_step factors cal0 (k', s')) as [cal1|] eqn:E1; cbn [bind] in H; [|easy].
  destruct (String.eqb_spec k k') as [->|].
  - injection Hk as ->. unfold config_step in E1. cbn [fst snd] in E1.
    destruct (String.eqb_spec k' "ALL"); [easy|]. eapply parse_settings_good; eauto.
  - eapply IH; eauto.
Qed.

Lemma calibration_total factors config labels :
  (exists s, dget "ALL" config = Some s) ->
  (forall k s, dget k config = Some s -> good_entry factors s) -> NoDup (keys config) ->
  exists cal, calibration_settings factors config labels = Ok cal.
Proof.
  intros (sA & EA) Hall Hn. unfold calibration_settings. rewrite EA, parse_settings_ok by eauto. cbn [bind].
  fold (config_step factors). 
  assert (Hin : forall k s, In (k, s) config -> good_entry factors s).
  { intros k s Hi. apply (Hall k). now apply In_dget. }
  clear - Hin. match goal with |- exists cal, foldM _ ?c _ = _ => generalize c end.
  induction config as [|[k s] config IH]; intros cal; cbn [foldM]; [eauto|].
  unfold config_step at 1. cbn [fst snd]. destruct (String.eqb k "ALL"); cbn [bind].
  - apply IH. intros; eapply Hin; right; eauto.
  - rewrite parse_settings_ok by (eapply Hin; now left). cbn [bind]. apply IH. intros; eapply Hin; right; eauto.
Qed.

Lemma good_entry_factor factors s : good_entry factors s ->
  exists fam f, s_family s = Some fam /\ scale_factor factors (s_unit s) = Ok f /\ unit_factor factors s f.
Proof.
  intros (Hf & f & Ef). destruct (s_family s) as [fam|]; [|easy]. exists fam, f. split; [easy|]. split; [easy|].
  unfold unit_factor. unfold scale_factor in Ef. destruct (s_unit s) as [u|]; [|congruence].
  destruct (dget u factors); congruence.
Qed.

Lemma unit_factor_fun factors s f g : unit_factor factors s f -> unit_factor factors s g -> f = g.
Proof. unfold unit_factor. destruct (s_unit s); congruence. Qed.

Lemma apply_entry_spec factors s r fam f :
  s_family s = Some fam -> scale_factor factors (s_unit s) = Ok f ->
  apply_entry factors s r = apply_settings fam f s r.
Proof. intros E1 E2. unfold apply_entry. now rewrite E1, E2. Qed.

Lemma apply_limit fam f s r l :
  limit_of l (apply_settings fam f s r) =
  match given_limit (setting_of l s) with
  | Some q => Some (q * f)%Qc
  | None => match limit_of l r with Some q => Some (q * f)%Qc | None => None end
  end.
Proof.
  destruct l; simpl; unfold set_limit, given_limit;
    match goal with |- context [match ?x with _ => _ end] => destruct x as [[q|]|] end; simpl; try easy;
    match goal with |- nmul ?y _ = _ => destruct y end; easy.
Qed.

Lemma settings_labels factors config labels cal :
  NoDup (keys config) -> calibration_settings factors config labels = Ok cal -> map fst cal = labels.
Proof.
  intros Hn H. destruct (calibration_rows _ _ _ _ Hn H) as (sA & _ & _ & ->). rewrite map_map.
  rewrite <- (map_id labels) at 2. apply map_ext. intros lab. unfold own_entry. cbn [fst].
  destruct (String.eqb _ _); [easy|]. now destruct (dget _ config).
Qed.

Lemma settings_own factors config labels cal lab r s :
  NoDup (keys config) -> calibration_settings factors config labels = Ok cal ->
  In (lab, r) cal -> own_settings config lab s ->
  s_family s = Some (family r) /\
  (forall l q f, given_limit (setting_of l s) = Some q -> unit_factor factors s f ->
     limit_of l r = Some (q * f)%Qc) /\
  (forall l f, given_limit (setting_of l s) = None -> unit_factor factors s f ->
     forall sA fA, dget "ALL" config = Some sA -> unit_factor factors sA fA ->
     limit_of l r = match given_limit (setting_of l sA) with
                    | Some q => Some (q * fA * f)%Qc
                    | None => None
                    end) /\
  (forall v f, s_add_uncertainty s = Some v -> unit_factor factors s f ->
     sig_increase r = if String.eqb (family r) "normal" then nmul v (Some f) else v).
Proof.
  intros Hn H Hin (Hne & Hs). pose proof (all_entries_good _ _ _ _ _ _ Hn H Hs) as Hg.
  destruct (calibration_rows _ _ _ _ Hn H) as (sA & EA & HgA & Ecal). subst cal.
  apply in_map_iff in Hin as (lab' & E & _). unfold own_entry in E. cbn [fst snd] in E.
  assert (lab' = lab).
  { destruct (String.eqb (base_type (d_type lab')) "ALL"); [congruence|]. destruct (dget _ config); congruence. }
  subst lab'. destruct (String.eqb_spec (base_type (d_type lab)) "ALL"); [easy|]. rewrite Hs in E. injection E as <-.
  destruct (good_entry_factor _ _ Hg) as (fam & f & Ef & Esf & Huf).
  destruct (good_entry_factor _ _ HgA) as (famA & fA & EfA & EsfA & HufA).
  rewrite (apply_entry_spec _ _ _ _ _ Ef Esf), (apply_entry_spec _ _ _ _ _ EfA EsfA).
  split; [exact Ef|]. split; [|split].
  - intros l q f' Hq Hf'. rewrite (unit_factor_fun _ _ _ _ Hf' Huf), apply_limit, Hq. easy.
  - intros l f' Hq Hf' sA' fA' EA' HA'. rewrite EA in EA'. injection EA' as <-.
    rewrite (unit_factor_fun _ _ _ _ Hf' Huf), (unit_factor_fun _ _ _ _ HA' HufA), !apply_limit, Hq.
    destruct (given_limit (setting_of l sA)); [easy|]. now destruct l.
  - intros v f' Hv Hf'. rewrite (unit_factor_fun _ _ _ _ Hf' Huf). cbn [sig_increase apply_settings family]. now rewrite Hv.
Qed.

Lemma settings_all factors config labels cal lab r sA :
  NoDup (keys config) -> calibration_settings factors config labels = Ok cal ->
  In (lab, r) cal -> no_own_settings config lab -> dget "ALL" config = Some sA ->
  s_family sA = Some (family r) /\
  (forall l f, unit_factor factors sA f ->
     limit_of l r = match given_limit (setting_of l sA) with
                    | Some q => Some (q * f)%Qc
                    | None => None
                    end) /\
  (forall f, unit_factor factors sA f ->
     sig_increase r = match s_add_uncertainty sA with
                      | Some v => if String.eqb (family r) "normal" then nmul v (Some f) else v
                      | None => None
                      end).
Proof.
  intros Hn H Hin Hno EA. destruct (calibration_rows _ _ _ _ Hn H) as (sA' & EA' & HgA & Ecal). subst cal.
  rewrite EA in EA'. injection EA' as <-.
  apply in_map_iff in Hin as (lab' & E & _). unfold own_entry in E. cbn [fst snd] in E.
  assert (lab' = lab).
  { destruct (String.eqb (base_type (d_type lab')) "ALL"); [congruence|]. destruct (dget _ config); congruence. }
  subst lab'. 
  assert (r = apply_entry factors sA no_settings) as ->.
  { destruct (String.eqb_spec (base_type (d_type lab)) "ALL"); [congruence|].
    destruct Hno as [?|Hno]; [easy|]. rewrite Hno in E. congruence. }
  destruct (good_entry_factor _ _ HgA) as (famA & fA & EfA & EsfA & HufA).
  rewrite (apply_entry_spec _ _ _ _ _ EfA EsfA). split; [exact EfA|]. split.
  - intros l f Hf. rewrite (unit_factor_fun _ _ _ _ Hf HufA), apply_limit.
    destruct (given_limit _); [easy|]. now destruct l.
  - intros f Hf. rewrite (unit_factor_fun _ _ _ _ Hf HufA). cbn [sig_increase apply_settings family]. easy.
Qed.

(** A configuration is refused when an entry names no family or an unknown unit, or ALL is missing. *)
Lemma settings_rejected factors config labels :
  NoDup (keys config) ->
  (is_ok (calibration_settings factors config labels) = true <->
   (exists s, dget "ALL" config = Some s) /\
   forall k s, dget k config = Some s ->
     s_family s <> None /\ exists f, unit_factor factors s f).
Proof.
  intros Hn. split.
  - destruct (calibration_settings factors config labels) as [cal|] eqn:E; [|easy]. intros _. split.
    + destruct (calibration_rows _ _ _ _ Hn E) as (sA & EA & _). eauto.
    + intros k s Hk. pose proof (all_entries_good _ _ _ _ _ _ Hn E Hk) as Hg. split; [apply Hg|].
      destruct (good_entry_factor _ _ Hg) as (fam & f & _ & _ & Hf). eauto.
  - intros (HA & Hall). destruct (calibration_total factors config labels) as (cal & ->); try easy.
    intros k s Hk. destruct (Hall k s Hk) as (Hf & f & Huf). split; [easy|]. exists f.
    unfold unit_factor in Huf. unfold scale_factor. destruct (s_unit s); [now rewrite Huf|congruence].
Qed.

(** ** Filtering *)

Lemma row_inside_spec lo up row :
  List.length lo = List.length row -> List.length up = List.length row ->
  row_inside lo up row = true <-> row_within lo up row.
Proof.
  unfold row_inside. rewrite andb_true_iff, !forallb_forall. unfold row_within, within, num in *. intros Hl Hu. split.
  - intros [H1 H2] i Hi. split.
    + intros b Hb. specialize (H1 (nth i row None, nth i up None)).
      rewrite Hb in H1. cbn [fst snd] in H1. destruct (nth i row None) as [v|] eqn:Ev.
      * exists v. split; [easy|]. apply Qcltb_true. apply H1. rewrite <- Hb, <- Ev, <- combine_nth by (symmetry; assumption). apply nth_In. rewrite combine_length. lia.
      * exfalso. assert (nlt None (Some b) = true); [|easy]. apply H1. rewrite <- Hb, <- Ev, <- combine_nth by (symmetry; assumption). apply nth_In. rewrite combine_length. lia.
    + intros a Ha. specialize (H2 (nth i row None, nth i lo None)).
      rewrite Ha in H2. cbn [fst snd] in H2. destruct (nth i row None) as [v|] eqn:Ev.
      * exists v. split; [easy|]. apply Qcltb_true. apply H2. rewrite <- Ha, <- Ev, <- combine_nth by (symmetry; assumption). apply nth_In. rewrite combine_length. lia.
      * exfalso. assert (nlt (Some a) None = true); [|easy]. apply H2. rewrite <- Ha, <- Ev, <- combine_nth by (symmetry; assumption). apply nth_In. rewrite combine_length. lia.
  - intros H. split; intros [x y] Hin; apply (In_nth _ _ (None, None)) in Hin as (i & Hi & E);
      rewrite combine_length in Hi; rewrite combine_nth in E by (symmetry; assumption); injection E as <- <-; cbn [fst snd].
    + destruct (nth i up None) as [b|] eqn:Eb; [|easy]. destruct (H i ltac:(lia)) as [Hup _].
      destruct (Hup b Eb) as (v & -> & Hv). now apply Qcltb_true.
    + destruct (nth i lo None) as [b|] eqn:Eb; [|easy]. destruct (H i ltac:(lia)) as [_ Hlo].
      destruct (Hlo b Eb) as (v & -> & Hv). now apply Qcltb_true.
Qed.

Lemma all_nan_inside lo up row : all_nan up && all_nan lo = true -> row_inside lo up row = true.
Proof.
  rewrite andb_true_iff. unfold all_nan. rewrite !forallb_forall. intros [Hu Hl]. unfold row_inside.
  apply andb_true_iff. rewrite !forallb_forall. split; intros [x y] Hin; cbn [fst snd]; apply in_combine_r in Hin.
  - apply Hu in Hin. now destruct y.
  - apply Hl in Hin. now destruct y.
Qed.

Lemma filter_true {A} (p : A -> bool) l : (forall x, In x l -> p x = true) -> filter p l = l.
Proof. apply filter_all. Qed.

Lemma censor_spec cal rows :
  censor cal rows =
  (filter (row_inside (limits CensorLower cal) (limits CensorUpper cal)) rows,
   List.length (filter (fun r => negb (row_inside (limits CensorLower cal) (limits CensorUpper cal) r)) rows)).
Proof.
  unfold censor, limits.
  change (map (limit_of CensorLower) cal) with (map censor_lower cal).
  change (map (limit_of CensorUpper) cal) with (map censor_upper cal).
  destruct (all_nan (map censor_upper cal) && all_nan (map censor_lower cal)) eqn:E; [|easy].
  rewrite filter_true, filter_none; [easy| |]; intros r _; now rewrite (all_nan_inside _ _ r E).
Qed.

Lemma truncate_spec cal rows :
  truncate cal rows = filter (row_inside (limits TruncateLower cal) (limits TruncateUpper cal)) rows.
Proof.
  unfold truncate, limits.
  change (map (limit_of TruncateLower) cal) with (map truncate_lower cal).
  change (map (limit_of TruncateUpper) cal) with (map truncate_upper cal).
  destruct (all_nan (map truncate_upper cal) && all_nan (map truncate_lower cal)) eqn:E.
  - symmetry. apply filter_true. intros r _. now apply all_nan_inside.
  - set (p := row_inside (map truncate_lower cal) (map truncate_upper cal)).
    destruct (Nat.ltb_spec 0 (List.length (filter (fun r => negb (p r)) rows))) as [|Hz]; [easy|].
    symmetry. apply filter_true. intros r Hr. destruct (p r) eqn:Ep; [easy|]. exfalso.
    assert (In r (filter (fun r0 => negb (p r0)) rows)) by (apply filter_In; now rewrite Ep).
    destruct (filter (fun r0 => negb (p r0)) rows); [easy|]. simpl in Hz. lia.
Qed.

Lemma select_cells_at keep cal row : List.length row = List.length cal ->
  select_cells keep cal row =
  cells_at (filter (fun i => keep (nth i cal empty_row)) (seq 0 (List.length cal))) row.
Proof.
  unfold select_cells, cells_at.
  enough (H : forall k, List.length row = List.length cal ->
     map snd (filter (fun cx => keep (fst cx)) (combine cal row)) =
     map (fun i => nth (i - k) row None) (filter (fun i => keep (nth (i - k) cal empty_row)) (seq k (List.length cal)))).
  { intros Hl. rewrite (H 0%nat) by easy.
    rewrite (map_ext _ (fun i => nth i row None)) by (intros; now rewrite Nat.sub_0_r). f_equal. apply filter_ext. intros i. now rewrite Nat.sub_0_r. }
  revert row. induction cal as [|c cal IH]; intros [|x row] k Hl; simpl in Hl; try easy.
  cbn [combine filter seq List.length fst]. rewrite Nat.sub_diag. cbn [nth].
  assert (Hrest : map snd (filter (fun cx : cal_row * num => keep (fst cx)) (combine cal row)) =
    map (fun i => nth (i - k) (x :: row) None) (filter (fun i => keep (nth (i - k) (c :: cal) empty_row)) (seq (S k) (List.length cal)))).
  { rewrite (IH row (S k)) by lia.
    assert (Hs : forall i, In i (seq (S k) (List.length cal)) -> (i - k = S (i - S k))%nat).
    { intros i Hi. apply in_seq in Hi. lia. }
    assert (forall l, (forall i, In i l -> (i - k = S (i - S k))%nat) ->
       map (fun i => nth (i - S k) row None) (filter (fun i => keep (nth (i - S k) cal empty_row)) l) =
       map (fun i => nth (i - k) (x :: row) None) (filter (fun i => keep (nth (i - k) (c :: cal) empty_row)) l)) as Hm.
    { induction l as [|i l IHl]; intros Hi; [easy|]. cbn [filter]. rewrite (Hi i) by now left. cbn [nth].
      destruct (keep (nth (i - S k) cal empty_row)); cbn [map]; rewrite IHl by (intros; apply Hi; now right); [|easy].
      f_equal. rewrite (Hi i) by now left. easy. }
    now apply Hm. }
  destruct (keep c); cbn [map snd]; rewrite Hrest; [|easy]. rewrite Nat.sub_diag. reflexivity.
Qed.

Lemma filter_filter {A} (p q : A -> bool) l : filter p (filter q l) = filter (fun x => q x && p x) l.
Proof.
  induction l as [|x l IH]; simpl; [easy|]. destruct (q x); simpl; [|exact IH].
  destruct (p x); now rewrite IH.
Qed.

Lemma calibration_filter cal rows :
  Forall (fun r => List.length r = List.length cal) rows ->
  exists keep censored : list num -> bool,
    (forall r, In r rows -> (keep r = true <-> in_censor_range cal r /\ in_truncation_range cal r)) /\
    (forall r, In r rows -> (censored r = true <-> ~ in_censor_range cal r)) /\
    calibration_data cal rows =
      (map (cells_at (filter (fun i => String.eqb (family (nth i cal empty_row)) "empirical") (seq 0 (List.length cal)))) (filter keep rows),
       map (cells_at (filter (fun i => negb (String.eqb (family (nth i cal empty_row)) "empirical")) (seq 0 (List.length cal)))) (filter keep rows),
       List.length (filter censored rows)).
Proof.
  intros Hr. set (pc := row_inside (limits CensorLower cal) (limits CensorUpper cal)).
  set (pt := row_inside (limits TruncateLower cal) (limits TruncateUpper cal)).
  assert (Hc : forall r, In r rows -> (pc r = true <-> in_censor_range cal r)).
  { intros r Hin. rewrite Forall_forall in Hr. apply row_inside_spec; unfold limits; rewrite map_length; symmetry; auto. }
  assert (Ht : forall r, In r rows -> (pt r = true <-> in_truncation_range cal r)).
  { intros r Hin. rewrite Forall_forall in Hr. apply row_inside_spec; unfold limits; rewrite map_length; symmetry; auto. }
  exists (fun r => pc r && pt r), (fun r => negb (pc r)). split; [|split].
  - intros r Hin. rewrite andb_true_iff, Hc, Ht by easy. tauto.
  - intros r Hin. rewrite negb_true_iff. rewrite <- (Hc r Hin). destruct (pc r); intuition congruence.
  - unfold calibration_data. rewrite censor_spec. fold pc. rewrite truncate_spec. fold pt. rewrite filter_filter.
    f_equal. f_equal; apply map_ext_in; intros r Hin; apply filter_In in Hin as [Hin _]; rewrite Forall_forall in Hr;
      rewrite select_cells_at by (now apply Hr); reflexivity.
Qed.

(** ** Cloning *)

Lemma has_dup_spec l : has_dup l = false <-> NoDup l.
Proof.
  induction l as [|x l IH]; simpl; [split; [constructor|easy]|]. rewrite orb_false_iff, IH. split.
  - intros [H1 H2]. constructor; [|easy]. now apply mem_false.
  - intros H. inversion H; subst. split; [|easy]. now apply mem_false.
Qed.

Lemma aget_cloning (cloning : dict (list string)) lab : dashless lab ->
  aget label_eqb lab (map (fun e => (split_on "-" (fst e), map (split_on "-") (snd e))) cloning) =
  match dget (join "-" lab) cloning with Some news => Some (map (split_on "-") news) | None => None end.
Proof.
  intros [Hne Hd]. induction cloning as [|[k news] cloning IH]; simpl; [easy|]. rewrite IH.
  destruct (String.eqb_spec (join "-" lab) k) as [<-|Hk].
  - rewrite split_join by easy. assert (label_eqb lab lab = true) as -> by now apply label_eqb_eq. easy.
  - destruct (label_eqb lab (split_on "-" k)) eqn:E; [|easy]. apply label_eqb_eq in E. subst lab.
    elim Hk. apply join_split.
Qed.

Lemma clone_columns_spec (cloning : dict (list string)) (sample : frame) : forall i,
  Forall (fun e => dashless (fst e)) sample ->
  clone_columns i (map fst sample) (map (fun e => (split_on "-" (fst e), map (split_on "-") (snd e))) cloning) =
  flat_map (fun ie => map (fun l => (fst ie, l)) (clones_of cloning (snd ie))) (combine (seq i (List.length sample)) (map fst sample)).
Proof.
  induction sample as [|e sample IH]; intros i H; [easy|]. inversion H; subst.
  cbn [map clone_columns List.length seq combine flat_map fst snd]. rewrite aget_cloning by easy. rewrite IH by easy. f_equal.
  unfold clones_of. now destruct (dget _ cloning).
Qed.

Lemma mapM_flat {A B C} (f : A -> result B) (g : C -> list A) (h : C -> list B) l :
  (forall c, In c l -> mapM f (g c) = Ok (h c)) -> mapM f (flat_map g l) = Ok (flat_map h l).
Proof.
  induction l as [|c l IH]; intros H; [easy|]. cbn [flat_map].
  assert (forall xs ys zs, mapM f xs = Ok zs -> mapM f ys = Ok (flat_map h l) -> mapM f (xs ++ ys) = Ok (zs ++ flat_map h l)) as Happ.
  { induction xs as [|x xs IHx]; intros ys zs H1 H2; cbn [mapM app] in *.
    - injection H1 as <-. exact H2.
    - destruct (f x) as [y|]; cbn [bind] in *; [|easy]. destruct (mapM f xs) as [w|] eqn:Ew; cbn [bind] in *; [|easy].
      injection H1 as <-. rewrite (IHx ys w) by easy. easy. }
  apply Happ; [apply H; now left|]. apply IH. intros; apply H; now right.
Qed.

Lemma map_flat_map {A B C} (f : B -> C) (g : A -> list B) l : map f (flat_map g l) = flat_map (fun x => map f (g x)) l.
Proof. induction l as [|x l IH]; simpl; [easy|]. now rewrite map_app, IH. Qed.

Lemma iloc_flat {A} (cols : list A) (labels : list (list string)) cloning :
  List.length cols = List.length labels ->
  iloc cols (map fst (flat_map (fun ie : nat * list string => map (fun l => (fst ie, l)) (clones_of cloning (snd ie)))
                               (combine (seq 0 (List.length labels)) labels))) =
  Ok (flat_map (fun lc => map (fun _ => snd lc) (clones_of cloning (fst lc))) (combine labels cols)).
Proof.
  intros Hl. rewrite map_flat_map. unfold iloc.
  rewrite (mapM_flat _ _ (fun ie => match nth_error cols (fst ie) with Some x => map (fun _ => x) (clones_of cloning (snd ie)) | None => [] end)).
  - f_equal.
    enough (H : forall k pre, cols = cols -> List.length pre = k ->
      flat_map (fun ie : nat * list string => match nth_error (pre ++ cols) (fst ie) with Some x => map (fun _ => x) (clones_of cloning (snd ie)) | None => [] end)
        (combine (seq k (List.length labels)) labels) =
      flat_map (fun lc => map (fun _ => snd lc) (clones_of cloning (fst lc))) (combine labels cols)).
    { now apply (H 0%nat []). }
    revert cols Hl. induction labels as [|l labels IH]; intros [|c cols] Hl k pre _ Hp; simpl in Hl; try easy.
    cbn [List.length seq combine flat_map fst snd]. f_equal.
    + rewrite nth_error_app2 by lia. rewrite Hp, Nat.sub_diag. easy.
    + specialize (IH cols ltac:(lia) (S k) (pre ++ [c]) eq_refl). rewrite <- app_assoc in IH. cbn [app] in IH.
      apply IH. rewrite app_length. simpl. lia.
  - intros [i l] Hin. cbn [fst snd]. rewrite map_map. cbn [fst].
    assert (exists x, nth_error cols i = Some x) as [x Ex].
    { apply in_combine_l, in_seq in Hin. destruct (nth_error cols i) eqn:E; [eauto|]. apply nth_error_None in E. lia. }
    rewrite Ex. induction (clones_of cloning l) as [|y ys IH]; [easy|]. cbn [map mapM]. rewrite Ex. cbn [bind].
    now rewrite IH.
Qed.

Lemma clone_ok cloning d :
  Forall (fun e => dashless (fst e)) (d_sample d) ->
  map fst (d_units d) = map fst (d_sample d) ->
  NoDup (List.concat (map snd cloning)) ->
  clone_demands cloning d =
  Ok {| d_sample := flat_map (fun e => map (fun l => (l, snd e)) (clones_of cloning (fst e))) (d_sample d);
        d_units := flat_map (fun e => map (fun l => (l, snd e)) (clones_of cloning (fst e))) (d_units d);
        d_units_name := d_units_name d |}.
Proof.
  intros Hd Hu Hn. unfold clone_demands. apply has_dup_spec in Hn. rewrite Hn.
  cbv zeta. rewrite clone_columns_spec by easy.
  replace (List.length (d_sample d)) with (List.length (map fst (d_sample d))) by apply map_length.
  rewrite !iloc_flat.
  2:{ rewrite map_length. rewrite <- (map_length fst), Hu. now rewrite map_length. }
  2:{ now rewrite !map_length. }
  cbn [bind]. f_equal.
  assert (Hsplit : forall {A} (t : list (list string * A)),
     combine (map snd (flat_map (fun ie : nat * list string => map (fun l => (fst ie, l)) (clones_of cloning (snd ie)))
                               (combine (seq 0 (List.length (map fst t))) (map fst t))))
             (flat_map (fun lc => map (fun _ => snd lc) (clones_of cloning (fst lc))) (combine (map fst t) (map snd t))) =
     flat_map (fun e => map (fun l => (l, snd e)) (clones_of cloning (fst e))) t).
  { intros A t. rewrite combine_split, map_length. generalize 0%nat.
    induction t as [|[l x] t IH]; intros n; [easy|]. cbn [map List.length seq combine flat_map fst snd].
    rewrite map_app, map_map. cbn [snd]. rewrite map_id.
    assert (Hc : forall (a : list (list string)) (b : list (list string)) (c : list A),
      combine (a ++ b) (map (fun _ => x) a ++ c) = map (fun l => (l, x)) a ++ combine b c).
    { induction a as [|y a IHa]; intros b c; simpl; [easy|]. now rewrite IHa. }
    now rewrite Hc, IH. }
  f_equal; [apply Hsplit|]. rewrite <- Hu. apply Hsplit.
Qed.

Lemma clone_duplicates cloning d :
  ~ NoDup (List.concat (map snd cloning)) -> clone_demands cloning d = Err ValueError.
Proof.
  intros H. unfold clone_demands. destruct (has_dup _) eqn:E; [easy|]. now apply has_dup_spec in E.
Qed.
