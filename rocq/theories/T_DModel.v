(** Property theorems about the life cycle of a demand model (C88-C93). *)
From Coq Require Import Sorting.Permutation Sorting.Sorted.
From Verif Require Import Prelude PreludeFacts Pandas PandasFacts M_Base M_FileIO M_Damage M_LossDS M_Params M_UQ M_Demand M_DModel
  S_Base S_FileIO S_UQ S_Params S_Demand S_DModel P_Base P_FileIO P_Params P_Reg P_DModel.
Local Open Scope string_scope.
Local Open Scope list_scope.

Ltac qcompute := vm_compute; repeat (first [reflexivity | apply Qc_is_canon; reflexivity | f_equal]).
Ltac distinct := repeat (constructor; [cbn; intuition discriminate|]); constructor.

(** ** An example *)

Definition dm_env : penv :=
  {| numbers := fun _ => None; shown := fun _ => ""; factors := [("g", qc (981 # 100)); ("unitless", 1%Qc); ("inch", qc (1 # 40))] |}.
Definition dm_settings (fam : string) (unit : option string) (tu au : option num) : settings :=
  {| s_family := Some fam; s_censor_lower := None; s_censor_upper := None; s_truncate_lower := None;
     s_truncate_upper := tu; s_unit := unit; s_add_uncertainty := au |}.
Definition pfa1 := ["PFA"; "0"; "1"].
Definition pfa2 := ["PFA"; "0"; "2"].
Definition pid1 := ["PID"; "1"; "1"].
Definition num_of (z : Z) : num := Some (qz z).
(** The third realization is above the limit. *)
Definition dm_table : frame := [(pfa1, map num_of [1; 2; 9; 3]%Z); (pfa2, map num_of [4; 3; 2; 1]%Z); (pid1, [Some (qc (1 # 10)); Some (qc (1 # 5)); Some (qc (3 # 10)); Some (qc (1 # 2))])].
Definition dm_units : units_map := [(pfa1, "g"); (pfa2, "g"); (pid1, "unitless")].
Definition dm_raw : dmodel := DM (Some dm_table) (Some dm_units) "Units" None None None false.
Definition dm_config : dict settings :=
  [("ALL", dm_settings "empirical" None (Some (Some (qz 5))) None); ("PID", dm_settings "lognormal" None None (Some (Some (qc (2 # 5)))))].
Definition identity (n : nat) : matrix := map (fun i => map (fun j => if (i =? j)%nat then 1%Qc else 0%Qc) (seq 0 n)) (seq 0 n).
Definition dm_fit : fitter := fun fams _ _ _ _ => Ok (map (fun _ => (Some (qc (1 # 5)), Some (qc (3 # 10)))) fams, identity (List.length fams)).
(** The root of 1/4 = 0.3^2 + 0.4^2. *)
Definition dm_root (x : Qc) : Qc := if Qceqb x (qc (1 # 4)) then qc (1 # 2) else x.
Definition dm_variable : family_maker := fun fam _ _ => match fam with VText _ => Ok (Transform (fun us => Ok us)) | _ => Err ValueError end.
Definition dm_chance : chance := Chance (fun _ U => U) [] (map (fun i => repeat (qc (Zpos i # 8)) 5) [1; 2; 3]%positive).
Definition dm_request : request := Request 5 true [] "MonteCarlo".
Definition dm_calibrated : dmodel := Eval vm_compute in match calibrate dm_fit dm_root (factors dm_env) dm_config dm_raw with Ok m => m | Err _ => fresh end.
Lemma dm_calibrate : calibrate dm_fit dm_root (factors dm_env) dm_config dm_raw = Ok dm_calibrated.
Proof. vm_compute. reflexivity. Qed.
Lemma dm_labels : edp_labels (map fst dm_table).
Proof. split; [distinct|]. repeat constructor. Qed.
Definition dm_cal : list (list string * cal_row) := Eval vm_compute in match calibration_settings (factors dm_env) dm_config (map fst dm_table) with Ok c => c | Err _ => [] end.

(** * C88: coupled data *)

(** With the order preserved, realization k of the generated sample consists, for all demands kept
    as data, of values of one and the same realization of the raw sample: number k modulo the
    number of realizations that are inside the limits, in their order. *)
Theorem C88_coupled : forall fit root factors config variable c q m m1 m2 t cal,
  NoDup (keys config) -> calibrate fit root factors config m = Ok m1 -> generate variable c q m1 = Ok m2 ->
  preserve_order q = true -> cloning q = [] -> m_sample m = Some t -> t <> [] -> edp_labels (map fst t) ->
  calibration_settings factors config (map fst t) = Ok cal ->
  exists kept t2, StronglySorted lt kept /\
    (forall i, In i kept <-> (i < n_rows t)%nat /\ in_censor_range (map snd cal) (realization t i) /\ in_truncation_range (map snd cal) (realization t i)) /\
    m_sample m2 = Some t2 /\
    forall lab col r, In (lab, col) t -> In (lab, r) cal -> family r = "empirical" ->
      kept <> [] /\
      exists col2, In (lab, col2) t2 /\ List.length col2 = size q /\
        forall k, (k < size q)%nat -> nth k col2 None = nth (nth (k mod List.length kept) kept 0%nat) col None.
Proof. exact coupled_calibrated. Qed.
Print Assumptions C88_coupled.
Example C88_hypotheses_met : NoDup (keys dm_config) /\ calibrate dm_fit dm_root (factors dm_env) dm_config dm_raw = Ok dm_calibrated /\ dm_table <> [] /\ edp_labels (map fst dm_table) /\
  calibration_settings (factors dm_env) dm_config (map fst dm_table) = Ok dm_cal /\
  exists m2 t2, generate dm_variable dm_chance dm_request dm_calibrated = Ok m2 /\ m_sample m2 = Some t2 /\
    In (pfa1, map num_of [1; 2; 3; 1; 2]%Z) t2 /\ In (pfa2, map num_of [4; 3; 1; 4; 3]%Z) t2.
Proof.
  split; [distinct|]. split; [exact dm_calibrate|]. split; [discriminate|]. split; [exact dm_labels|]. split; [vm_compute; reflexivity|].
  eexists _, _. split; [vm_compute; reflexivity|]. split; [reflexivity|]. split; [left|right; left]; qcompute.
Qed.

(** * C89: saved models *)

(** A model with a unit for every demand can be saved, and loading it anywhere gives the same
    marginals, units, data and correlations, in alphabetical order. The data must be part of the
    model, or be absent from the files and the target. Parameters that are curves are not covered. *)
Theorem C89_round_trip_partial : forall e m m0 fs rows units,
  complete_model e m rows units -> (m_empirical m = None -> f_empirical fs = None /\ m_empirical m0 = None) ->
  exists fs' m1 rows' units' c c',
    save_model e m fs = (fs', None) /\ load_model e fs' m0 = (m1, None) /\
    m_marginals m1 = Some rows' /\ Permutation rows' rows /\ m_units m1 = Some units' /\ Permutation units' units /\
    m_correlation m = Some c /\ m_correlation m1 = Some c' /\ Permutation (fst c') (fst c) /\ (forall a b x, correlated c' a b x <-> correlated c a b x) /\
    match m_empirical m, m_empirical m1 with
    | None, None => True
    | Some t, Some t' => Permutation t' t
    | _, _ => False
    end.
Proof. exact model_round_trip. Qed.
Print Assumptions C89_round_trip_partial.
(** Calibration leaves such a model, if every demand has a unit and at least one is fitted. *)
Theorem C89_calibrated_partial : forall e fit root config m m1 t units cal,
  NoDup (keys config) -> calibrate fit root (factors e) config m = Ok m1 -> m_sample m = Some t -> m_units m = Some units -> t <> [] ->
  map fst units = map fst t -> edp_labels (map fst t) -> known_units (factors e) (map snd units) ->
  Forall (fun lu => exists f, S_Params.unit_factor e (snd lu) f /\ f <> 0%Qc) units -> m_empirical m = None ->
  calibration_settings (factors e) config (map fst t) = Ok cal ->
  (forall lab r, In (lab, r) cal -> In (family r) ["empirical"; "normal"; "normal_cov"; "normal_std"; "lognormal"; "uniform"]) ->
  (exists lab r, In (lab, r) cal /\ family r <> "empirical") ->
  (forall fams data k lim trunc thetas rho, fit fams data k lim trunc = Ok (thetas, rho) -> square (List.length fams) rho) ->
  exists rows, complete_model e m1 rows units /\ map fst rows = map fst t.
Proof. exact calibrated_complete. Qed.
Print Assumptions C89_calibrated_partial.
Lemma dm_known : known_units (factors dm_env) (map snd dm_units).
Proof. unfold known_units. repeat constructor; eexists; (split; [reflexivity|discriminate]). Qed.
Lemma dm_factors : Forall (fun lu => exists f, S_Params.unit_factor dm_env (snd lu) f /\ f <> 0%Qc) dm_units.
Proof. repeat constructor; eexists; (split; [apply calc_unit_factor; reflexivity|discriminate]). Qed.
Lemma identity_square n : square n (identity n).
Proof.
  unfold identity. split; [now rewrite map_length, seq_length|]. apply Forall_forall. intros r Hr. apply in_map_iff in Hr as (i & <- & _). now rewrite map_length, seq_length.
Qed.
Example C89_hypotheses_met : exists rows, complete_model dm_env dm_calibrated rows dm_units /\ List.length rows = 3%nat.
Proof.
  destruct (@C89_calibrated_partial dm_env dm_fit dm_root dm_config dm_raw dm_calibrated dm_table dm_units dm_cal) as (rows & Hc & Hl);
    [distinct|exact dm_calibrate|reflexivity|reflexivity|discriminate|reflexivity|exact dm_labels|exact dm_known|exact dm_factors|reflexivity|vm_compute; reflexivity| | | |].
  - intros lab r Hin. cbn [In dm_cal] in Hin. repeat (destruct Hin as [Hin|Hin]; [injection Hin as <- <-; cbn; auto 9|]). destruct Hin.
  - exists pid1. eexists. split; [right; right; left; reflexivity|]. discriminate.
  - intros fams data k lim trunc thetas rho E. injection E as _ <-. apply identity_square.
  - exists rows. split; [exact Hc|]. rewrite <- (map_length fst), Hl. reflexivity.
Qed.
(** After a generation with cloning the model cannot be saved any more; it could before. *)
Theorem C89_cloned_refuted : exists m1 fs,
  generate dm_variable dm_chance (Request 5 true [("PFA-0-1", ["PFA-0-1"; "PFA-0-3"])] "MonteCarlo") dm_calibrated = Ok m1 /\
  snd (save_model dm_env dm_calibrated (MF None None None)) = None /\ save_model dm_env m1 (MF None None None) = (fs, Some ValueError) /\
  f_correlation fs <> None /\ f_empirical fs <> None /\ f_marginals fs = None.
Proof.
  eexists _, _. split; [vm_compute; reflexivity|]. split; [vm_compute; reflexivity|]. split; [vm_compute; reflexivity|]. split; [discriminate|]. split; [discriminate|reflexivity].
Qed.
Print Assumptions C89_cloned_refuted.
(** A demand without a unit makes the model impossible to save. *)
Theorem C89_units_refuted : exists m1, calibrate dm_fit dm_root (factors dm_env) dm_config
    (DM (Some dm_table) (Some [(pfa1, "g"); (pid1, "unitless")]) "Units" None None None false) = Ok m1 /\
  snd (save_model dm_env m1 (MF None None None)) = Some ValueError.
Proof. eexists. split; [vm_compute; reflexivity|]. vm_compute. reflexivity. Qed.
Print Assumptions C89_units_refuted.

(** Units under other labels, or in another order, are never used for saving. *)
Theorem C89_mismatch : forall e m fs rows units, m_marginals m = Some rows -> m_units m = Some units -> map fst units <> map fst rows ->
  snd (save_model e m fs) <> None /\ f_marginals (fst (save_model e m fs)) = f_marginals fs.
Proof.
  intros e m fs rows units Hm Hu N. unfold save_model. rewrite Hm, Hu.
  set (fs1 := match m_correlation m with None => fs | Some _ => _ end).
  assert (E1 : f_marginals fs1 = f_marginals fs) by (unfold fs1; destruct (m_correlation m) as [[? ?]|]; reflexivity). clearbody fs1.
  destruct (match m_empirical m with None => Ok fs1 | Some t => _ end) as [fs2|x] eqn:E2; [|split; [discriminate|exact E1]].
  assert (E3 : f_marginals fs2 = f_marginals fs).
  { destruct (m_empirical m) as [t|]; [|injection E2 as <-; exact E1]. destruct (save_columns _ _ _ _ t); [|discriminate]. injection E2 as <-. exact E1. }
  assert (E4 : exists x, convert_demands e true rows units = Err x).
  { unfold convert_demands, same_index. destruct (Nat.eqb_spec (List.length rows) (List.length units)) as [El|]; [|eexists; reflexivity]. cbn [negb].
    destruct (forallb _ _) eqn:Ef; [|eexists; reflexivity]. destruct N. clear - El Ef. revert units El Ef.
    induction rows as [|[l r] rows IH]; intros [|[l' u] units] El Ef; try discriminate; [reflexivity|]. cbn in Ef |- *. apply andb_true_iff in Ef as [Ea Eb]. apply label_eqb_eq in Ea as ->. f_equal.
    apply IH; [now injection El|exact Eb]. }
  destruct E4 as [x E4]. rewrite E4. split; [discriminate|exact E3].
Qed.
Print Assumptions C89_mismatch.
Example C89_mismatch_concrete : snd (save_model dm_env (DM (m_sample dm_calibrated) (Some [(pfa2, "g"); (pfa1, "g"); (pid1, "unitless")]) "Units" (m_marginals dm_calibrated) (m_empirical dm_calibrated) (m_correlation dm_calibrated) true) (MF None None None)) = Some AssertionError.
Proof. vm_compute. reflexivity. Qed.

(** * C90: generation *)

(** The sample has one column for each demand. Its values come from the distribution of that demand
    and from uniform values of its own; those of correlated demands are what the copula makes of a
    matrix that gives every pair of demands the correlation they have in the model. *)
Theorem C90_own_distribution_partial : forall variable c q m m' ms labels rho,
  generate variable c q m = Ok m' -> m_marginals m = Some ms -> cloning q = [] -> ms <> [] -> edp_labels (map fst ms) ->
  m_correlation m = Some (labels, rho) -> edp_labels labels -> square (List.length labels) rho ->
  generator (size q) (List.length ms) (perms c) (draws c) -> (forall R U, List.length (copula c R U) = List.length U) ->
  exists t u names R U, m_sample m' = Some t /\ Permutation (map fst t) (map fst ms) /\ NoDup (map fst t) /\
    (forall lab row, In (lab, row) ms -> exists k s, own_distribution variable (preserve_order q) m lab row k /\ In (lab, map Some s) t /\
       match k with
       | Utility f => f (size q) = Ok s
       | Transform f => f (u lab) = Ok s
       | Multinomial theta => s = snd (multinomial_inverse theta (u lab))
       end) /\
    Permutation names labels /\ (forall a b x, correlated (names, R) a b x <-> correlated (labels, rho) a b x) /\
    List.length U = List.length names /\
    Forall (fun v => List.length v = size q /\ (contains "LHS" (method q) = true -> latin (size q) v)) U /\
    (forall i lab, nth_error names i = Some lab -> nth_error (copula c R U) i = Some (u lab)) /\
    (forall lab, In lab (map fst ms) -> ~ In lab labels -> List.length (u lab) = size q /\ (contains "LHS" (method q) = true -> latin (size q) (u lab))).
Proof.
  intros variable c q m m' ms labels rho H Em Hcl Hne [Hnd Hl] Ec Hlab Hsq Hg Hcop.
  assert (Hl' : Forall (fun lr => edp_label (fst lr)) ms) by exact (proj1 (Forall_map _ _ _) Hl).
  destruct (@generate_spec variable c q m m' ms H Em Hcl Hl' Hne) as (r & unis & t & Er & Eu & Et & Hp & Hndt & Hcols).
  destruct (@create_rvs_spec _ _ _ _ _ _ Er) as (ks & F & Ev & Hndv & Hcorr). rewrite Ec in Hcorr. destruct Hcorr as (s & Es & Esets & Hincl).
  assert (Hlen : List.length (r_vars r) = List.length ms).
  { rewrite Ev, map_length, combine_length. assert (List.length ks = List.length ms) by (clear - F; induction F; cbn; congruence). lia. }
  assert (Hanch : forall v, In v (r_vars r) -> v_anchor v = v_name v) by (intros v Hv; rewrite Ev in Hv; apply in_map_iff in Hv as (lk & <- & _); reflexivity).
  destruct (@generate_uniforms c r (size q) (method q) unis labels rho s) as (names & R & U & Hpn & Hcc & HU & Hlat & Hn & Hout); try assumption; [now rewrite Hlen|].
  exists t, (fun lab => match dget (edp_tag lab) unis with Some v => v | None => [] end), names, R, U.
  split; [exact Et|]. split; [exact Hp|]. split; [exact Hndt|]. split.
  { intros lab row Hin. destruct (Hcols lab row Hin) as (k & sm & Ek & Hint & Hs). exists k, sm. split; [now apply demand_kind_own|]. split; [exact Hint|].
    destruct Hs as [(f & -> & Ef)|(v & Evu & Hsf)]; [exact Ef|]. rewrite Evu. unfold sample_from in Hsf. cbn [rv_of v_kind] in Hsf. destruct k; exact Hsf. }
  split; [exact Hpn|]. split; [exact Hcc|]. split; [exact HU|]. split; [exact Hlat|]. split.
  { intros i lab Hi. pose proof (Hn i lab Hi) as X. rewrite X. destruct (nth_error (copula c R U) i) as [v|] eqn:E; [reflexivity|].
    exfalso. apply nth_error_None in E. assert (nth_error names i <> None) as Hx by congruence. apply nth_error_Some in Hx. rewrite Hcop in E. lia. }
  intros lab Hin Hni. apply in_map_iff in Hin as ([lab' row] & E & Hin). cbn in E. subst lab'.
  assert (exists v, In v (r_vars r) /\ v_name v = edp_tag lab) as (v & Hv & Evn).
  { rewrite Ev. clear - F Hin. induction F as [|lm k ms ks Hk F IH]; [destruct Hin|]. cbn [combine map]. destruct Hin as [->|Hin].
    - eexists. split; [left; reflexivity|reflexivity].
    - destruct (IH Hin) as (v & Hv & E). exists v. split; [now right|exact E]. }
  destruct (Hout v Hv) as (w & Ew & Hw).
  - rewrite Evn. intros Hin'. apply in_map_iff in Hin' as (l' & E & Hl2). apply Hni. destruct Hlab as [_ Hll]. rewrite Forall_forall in Hll, Hl'.
    assert (l' = lab) as <-; [|exact Hl2]. apply edp_tag_inj; [now apply Hll|exact (Hl' _ Hin)|exact E].
  - rewrite Evn in Ew. rewrite Ew. exact Hw.
Qed.
Print Assumptions C90_own_distribution_partial.

Definition dm_uniforms : list (list Qc) := map (fun i => repeat (qc (Zpos i # 8)) 5) [1; 2; 3]%positive.
Definition dm_world : chance := Chance (fun _ U => U) (map (fun _ => seq 0 5) [1; 2; 3]%nat) dm_uniforms.
Example C90_hypotheses_met : exists m' ms labels rho, generate dm_variable dm_world dm_request dm_calibrated = Ok m' /\ m_marginals dm_calibrated = Some ms /\ ms <> [] /\
  edp_labels (map fst ms) /\ m_correlation dm_calibrated = Some (labels, rho) /\ edp_labels labels /\ square (List.length labels) rho /\
  generator 5 (List.length ms) (perms dm_world) (draws dm_world).
Proof.
  eexists _, _, _, _. split; [vm_compute; reflexivity|]. split; [reflexivity|]. split; [discriminate|]. split; [exact dm_labels|]. split; [reflexivity|].
  split; [split; [distinct|repeat constructor]|]. split; [exact (identity_square 1)|].
  split; [cbn; lia|]. split; [cbn; lia|]. split; [repeat constructor|]. unfold dm_world, dm_uniforms. cbn [draws map].
  repeat (constructor; [split; [reflexivity|apply Forall_forall; intros x Hx; apply repeat_spec in Hx as ->; split; [discriminate|reflexivity]]|]). constructor.
Qed.
(** A hyphen in a location or direction makes every generation fail. *)
Theorem C90_hyphen_refuted : forall variable c q m ms,
  m_marginals m = Some ms -> Forall (fun lr => List.length (fst lr) = 3%nat) ms -> (exists lr, In lr ms /\ ~ Forall no_dash (fst lr)) ->
  is_ok (generate variable c q m) = false.
Proof. intros. eapply generate_hyphen; eassumption. Qed.
Print Assumptions C90_hyphen_refuted.
Example C90_hyphen_concrete : exists m1, calibrate dm_fit dm_root (factors dm_env) [("ALL", dm_settings "lognormal" None None None)]
    (DM (Some [(["PFA"; "roof-1"; "1"], map num_of [1; 2]%Z)]) (Some [(["PFA"; "roof-1"; "1"], "g")]) "Units" None None None false) = Ok m1 /\
  generate dm_variable dm_chance dm_request m1 = Err ValueError.
Proof. eexists. split; [vm_compute; reflexivity|]. vm_compute. reflexivity. Qed.

(** * C91: additional uncertainty *)

Definition fitted (cal : list (list string * cal_row)) : list (list string * cal_row) :=
  filter (fun c => negb (String.eqb (family (snd c)) "empirical")) cal.
(** Distributions are fitted to the realizations inside the limits, demand by demand; the number of
    the others that are outside the detection limits and the limits are given along. *)
Theorem C25_fitted : forall fit root factors config m m1 t cal,
  NoDup (keys config) -> calibrate fit root factors config m = Ok m1 -> m_sample m = Some t -> calibration_settings factors config (map fst t) = Ok cal ->
  exists kept censored data thetas rho,
    StronglySorted lt kept /\
    (forall i, In i kept <-> (i < n_rows t)%nat /\ in_censor_range (map snd cal) (realization t i) /\ in_truncation_range (map snd cal) (realization t i)) /\
    StronglySorted lt censored /\
    (forall i, In i censored <-> (i < n_rows t)%nat /\ ~ in_censor_range (map snd cal) (realization t i)) /\
    List.length data = List.length (fitted cal) /\
    (forall k lab r, nth_error (fitted cal) k = Some (lab, r) ->
       exists col, In (lab, col) t /\ nth_error data k = Some (map (fun i => nth i col None) kept)) /\
    fit (map (fun c => family (snd c)) (fitted cal)) data (List.length censored)
        (map (fun c => (censor_lower (snd c), censor_upper (snd c))) (fitted cal))
        (map (fun c => (truncate_lower (snd c), truncate_upper (snd c))) (fitted cal)) = Ok (thetas, rho) /\
    m_correlation m1 = Some (map fst (fitted cal), rho).
Proof.
  intros fit root factors config m m1 t cal Hcfg H Es Ec.
  destruct (@calibrate_fit fit root factors config m m1 t cal Hcfg H Es Ec) as (kept & cens & data & thetas & rho & H1 & H2 & H3 & H4 & H5 & H6 & H7 & H8 & H9).
  exists kept, cens, data, thetas, rho. repeat (split; [assumption|]). exact H9.
Qed.
Print Assumptions C25_fitted.
Example C25_fitted_hypotheses_met : exists m1, calibrate (fun fams data n lim tr => match data, n with [[_; _; _]], 0%nat => dm_fit fams data n lim tr | _, _ => Err ValueError end)
    dm_root (factors dm_env) dm_config dm_raw = Ok m1 /\ calibration_settings (factors dm_env) dm_config (map fst dm_table) = Ok dm_cal /\ List.length (fitted dm_cal) = 1%nat.
Proof. eexists. split; [vm_compute; reflexivity|]. split; [vm_compute; reflexivity|reflexivity]. Qed.

(** The parameters of the k-th demand that is fitted are the k-th that the fitting returns, except
    that the square of the second is increased by the square of the additional uncertainty. *)
Theorem C91_added_partial : forall fit root factors config m m1 t cal,
  NoDup (keys config) -> calibrate fit root factors config m = Ok m1 -> m_sample m = Some t -> calibration_settings factors config (map fst t) = Ok cal ->
  exists data n thetas rho rows,
    fit (map (fun c => family (snd c)) (fitted cal)) data n (map (fun c => (censor_lower (snd c), censor_upper (snd c))) (fitted cal))
        (map (fun c => (truncate_lower (snd c), truncate_upper (snd c))) (fitted cal)) = Ok (thetas, rho) /\
    m_marginals m1 = Some rows /\ map fst rows = map fst t /\
    forall k lab r th0 s, List.length thetas = List.length (fitted cal) -> nth_error (fitted cal) k = Some (lab, r) -> nth_error thetas k = Some (Some th0, Some s) ->
      exists row, In (lab, row) rows /\ dget "Family" row = Some (VText (family r)) /\ dget "Theta_0" row = Some (VNum th0) /\
        cell row "TruncateLower" = of_num (truncate_lower r) /\ cell row "TruncateUpper" = of_num (truncate_upper r) /\
        ((forall lab' r', In (lab', r') cal -> sig_increase r' = None) -> dget "Theta_1" row = Some (VNum s)) /\
        (forall i, sig_increase r = Some i -> is_root root (s * s + i * i)%Qc ->
           exists x, dget "Theta_1" row = Some (VNum x) /\ (0 <= x)%Qc /\ (x * x = s * s + i * i)%Qc) /\
        (sig_increase r = None -> root (s * s)%Qc = s -> dget "Theta_1" row = Some (VNum s)).
Proof.
  intros fit root factors config m m1 t cal Hcfg H Es Ec. destruct (@calibrate_spec _ _ _ _ _ _ _ Hcfg H Es) as (cal' & keep & thetas & rho & Ec' & El & _ & _ & _ & _ & Em & _ & _ & Ef).
  assert (cal' = cal) as -> by congruence. eexists _, _, thetas, rho, _. split; [exact Ef|]. split; [exact Em|]. split; [now rewrite marginal_labels|]. intros k lab r th0 s Hlen Hk Hth.
  destruct (@with_thetas_nth cal thetas k (lab, r) Hlen Hk) as (th & Eth & Hin). rewrite Hth in Eth. injection Eth as <-.
  eexists. split; [apply in_map_iff; eexists; split; [|exact Hin]; cbn [marginal_of fst snd]; reflexivity|].
  split; [reflexivity|]. split; [reflexivity|]. split; [reflexivity|]. split; [reflexivity|]. cbn [of_num snd].
  assert (Hcal : In (lab, r) cal) by (apply (proj1 (filter_In _ _ _)) with (1 := nth_error_In _ _ Hk)).
  split; [|split].
  - intros Hno. change (dget "Theta_1" _) with (Some (of_num (if negb (all_nan (map (fun c => sig_increase (snd c)) cal)) then increase_sigma root (sig_increase r) (Some s) else Some s))).
    replace (all_nan _) with true; [reflexivity|]. symmetry. unfold all_nan. apply forallb_forall. intros x Hx. apply in_map_iff in Hx as ([lab' r'] & <- & Hx). cbn. now rewrite (Hno _ _ Hx).
  - intros i Hi [Hr Hp]. change (dget "Theta_1" _) with (Some (of_num (if negb (all_nan (map (fun c => sig_increase (snd c)) cal)) then increase_sigma root (sig_increase r) (Some s) else Some s))).
    rewrite (@all_nan_In _ i); [|rewrite <- Hi; change (sig_increase r) with (sig_increase (snd (lab, r))); apply in_map_iff; exists (lab, r); split; [reflexivity|exact Hcal]].
    cbn [negb increase_sigma]. rewrite Hi. eexists. split; [reflexivity|]. split; [exact Hp|exact Hr].
  - intros Hi Hr. change (dget "Theta_1" _) with (Some (of_num (if negb (all_nan (map (fun c => sig_increase (snd c)) cal)) then increase_sigma root (sig_increase r) (Some s) else Some s))).
    destruct (negb _); [|reflexivity]. cbn [increase_sigma]. rewrite Hi. replace (s * s + 0 * 0)%Qc with (s * s)%Qc by ring. now rewrite Hr.
Qed.
Print Assumptions C91_added_partial.
Definition row_at (m : dmodel) (lab : list string) : option (dict value) := match m_marginals m with Some ms => aget label_eqb lab ms | None => None end.
Example C91_hypotheses_met : nth_error (fitted dm_cal) 0 = Some (pid1, snd (nth 2 dm_cal ([], empty_row))) /\
  sig_increase (snd (nth 2 dm_cal ([], empty_row))) = Some (qc (2 # 5)) /\ is_root dm_root (qc (3 # 10) * qc (3 # 10) + qc (2 # 5) * qc (2 # 5))%Qc /\
  exists row, row_at dm_calibrated pid1 = Some row /\ dget "Theta_1" row = Some (VNum (qc (1 # 2))).
Proof.
  split; [qcompute|]. split; [qcompute|]. split; [split; [qcompute|discriminate]|]. eexists. split; [vm_compute; reflexivity|]. qcompute.
Qed.
(** For normal demands the second parameter is a coefficient of variation: with a mean of 4 and a
    deviation of 3, an additional deviation of 1 must give a variance of 10, and gives 25. *)
Definition normal_fit : fitter := fun fams _ _ _ _ => Ok (map (fun _ => (Some (qz 4), Some (qc (3 # 4)))) fams, identity (List.length fams)).
Definition normal_root (x : Qc) : Qc := if Qceqb x (qc (25 # 16)) then qc (5 # 4) else x.
Definition one_demand : dmodel := DM (Some [(pid1, map num_of [1; 7]%Z)]) (Some [(pid1, "unitless")]) "Units" None None None false.
Theorem C91_normal_refuted : exists m1 row th0 th1,
  calibrate normal_fit normal_root (factors dm_env) [("ALL", dm_settings "normal" None None (Some (Some 1%Qc)))] one_demand = Ok m1 /\
  is_root normal_root (qc (3 # 4) * qc (3 # 4) + 1 * 1)%Qc /\
  row_at m1 pid1 = Some row /\ dget "Theta_0" row = Some (VNum th0) /\ dget "Theta_1" row = Some (VNum th1) /\
  (deviation "normal" (qz 4) (qc (3 # 4)) = qz 3)%Qc /\ (deviation "normal" th0 th1 * deviation "normal" th0 th1 = qz 25)%Qc.
Proof.
  eexists _, _, _, _. split; [vm_compute; reflexivity|]. split; [split; [qcompute|discriminate]|]. split; [vm_compute; reflexivity|].
  split; [reflexivity|]. split; [reflexivity|]. split; qcompute.
Qed.
Print Assumptions C91_normal_refuted.
(** An additional deviation of 4 units of 1/40 is added to a deviation of 3 as if it were 4. *)
Definition std_fit : fitter := fun fams _ _ _ _ => Ok (map (fun _ => (Some (qz 4), Some (qz 3))) fams, identity (List.length fams)).
Definition std_root (x : Qc) : Qc := if Qceqb x (qz 25) then qz 5 else x.
Theorem C91_units_refuted : exists m1 row,
  calibrate std_fit std_root (factors dm_env) [("ALL", dm_settings "normal_std" (Some "inch") None (Some (Some (qz 4))))] one_demand = Ok m1 /\
  is_root std_root (qz 3 * qz 3 + qz 4 * qz 4)%Qc /\ dget "inch" (factors dm_env) = Some (qc (1 # 40)) /\
  row_at m1 pid1 = Some row /\ dget "Theta_1" row = Some (VNum (qz 5)).
Proof.
  eexists _, _. split; [vm_compute; reflexivity|]. split; [split; [qcompute|discriminate]|]. split; [reflexivity|]. split; [vm_compute; reflexivity|]. qcompute.
Qed.
Print Assumptions C91_units_refuted.

(** * C92: the history of a model *)

(** Calibration from the same sample gives the same model, and generation the same sample,
    whatever was calibrated or loaded before. *)
Theorem C92_history_partial : forall fit root factors config variable c q m m' m1 m2,
  m_sample m' = m_sample m -> m_units m' = m_units m -> m_units_name m' = m_units_name m ->
  calibrate fit root factors config m = Ok m1 -> generate variable c q m1 = Ok m2 ->
  exists m1' m2', calibrate fit root factors config m' = Ok m1' /\ generate variable c q m1' = Ok m2' /\
    m_marginals m1' = m_marginals m1 /\ m_correlation m1' = m_correlation m1 /\ m_sample m2' = m_sample m2 /\ m_units m2' = m_units m2.
Proof.
  intros fit root factors config variable c q m m' m1 m2 Es Eu En H1 H2.
  destruct (@calibrate_history _ _ _ _ _ _ _ Es Eu En H1) as (m1' & H1' & Em & Ec & Es1 & Eu1 & En1 & He).
  destruct (@generate_history variable c q m1 m1' m2) as (m2' & H2' & Es2 & Eu2); try assumption. exists m1', m2'. auto 9.
Qed.
Print Assumptions C92_history_partial.
Definition dm_other : dmodel := DM (Some dm_table) (Some dm_units) "Units" None (Some [(pid1, map num_of [7; 8]%Z)]) (Some ([pfa1], identity 1)) true.
Example C92_hypotheses_met : exists m1 m2, calibrate dm_fit dm_root (factors dm_env) dm_config dm_other = Ok m1 /\ generate dm_variable dm_chance dm_request m1 = Ok m2 /\
  m_sample dm_other = m_sample dm_raw.
Proof. eexists _, _. split; [vm_compute; reflexivity|]. split; [vm_compute; reflexivity|reflexivity]. Qed.
(** Data of an earlier calibration stays in the model and is saved with a model that has no demand
    kept as data; a fresh model with the same sample and settings saves no such file. *)
Definition all_lognormal : dict settings := [("ALL", dm_settings "lognormal" None None None)].
Theorem C92_saved_refuted : exists m1 m2 fs fs',
  calibrate dm_fit dm_root (factors dm_env) all_lognormal dm_calibrated = Ok m1 /\ calibrate dm_fit dm_root (factors dm_env) all_lognormal dm_raw = Ok m2 /\
  m_sample dm_calibrated = m_sample dm_raw /\ m_units dm_calibrated = m_units dm_raw /\
  save_model dm_env m1 (MF None None None) = (fs, None) /\ save_model dm_env m2 (MF None None None) = (fs', None) /\
  f_empirical fs <> None /\ f_empirical fs' = None.
Proof.
  eexists _, _, _, _. split; [vm_compute; reflexivity|]. split; [vm_compute; reflexivity|]. split; [reflexivity|]. split; [reflexivity|].
  split; [vm_compute; reflexivity|]. split; [vm_compute; reflexivity|]. split; [discriminate|reflexivity].
Qed.
Print Assumptions C92_saved_refuted.
(** A model loaded from files without data keeps the data of the model that was there before. *)
Theorem C92_loaded_refuted : exists fs m1 m2,
  (exists m, calibrate dm_fit dm_root (factors dm_env) all_lognormal dm_raw = Ok m /\ save_model dm_env m (MF None None None) = (fs, None)) /\
  load_model dm_env fs dm_calibrated = (m1, None) /\ load_model dm_env fs dm_raw = (m2, None) /\ m_empirical m1 = m_empirical dm_calibrated /\ m_empirical m1 <> None /\ m_empirical m2 = None.
Proof.
  eexists _, _, _. split; [eexists; split; vm_compute; reflexivity|]. split; [vm_compute; reflexivity|]. split; [vm_compute; reflexivity|]. split; [reflexivity|]. split; [discriminate|reflexivity].
Qed.
Print Assumptions C92_loaded_refuted.
(** Tables of data passed to the loading method are not used: demands kept as data cannot be
    sampled, although the same tables work as files. *)
Theorem C92_tables_refuted : exists fs m1 m2 m3,
  save_model dm_env dm_calibrated (MF None None None) = (fs, None) /\ f_empirical fs <> None /\
  load_tables dm_env fs fresh = (m1, None) /\ load_model dm_env fs fresh = (m2, None) /\
  generate dm_variable dm_chance dm_request m1 = Err AttributeError /\ generate dm_variable dm_chance dm_request m2 = Ok m3.
Proof.
  eexists _, _, _, _. split; [vm_compute; reflexivity|]. split; [discriminate|]. split; [vm_compute; reflexivity|]. split; [vm_compute; reflexivity|]. split; [vm_compute; reflexivity|]. vm_compute. reflexivity.
Qed.
Print Assumptions C92_tables_refuted.

(** * C93: repeated generation *)

(** Generation changes nothing but the sample: another generation, with any size and random numbers,
    does what it would have done before. *)
Theorem C93_again_partial : forall variable c q m m1, cloning q = [] -> generate variable c q m = Ok m1 ->
  m_units m1 = m_units m /\ m_marginals m1 = m_marginals m /\ m_empirical m1 = m_empirical m /\ m_correlation m1 = m_correlation m /\
  forall c' q', generate variable c' q' m1 = generate variable c' q' m.
Proof. intros. eapply generate_again; eassumption. Qed.
Print Assumptions C93_again_partial.
Example C93_hypotheses_met : exists m1, cloning dm_request = [] /\ generate dm_variable dm_chance dm_request dm_calibrated = Ok m1 /\ m_sample m1 <> m_sample dm_calibrated.
Proof. eexists. split; [reflexivity|]. split; [vm_compute; reflexivity|]. discriminate. Qed.
(** With clones, the units are moved to other demands by the second generation. *)
Definition dm_cloning : request := Request 5 true [("PFA-0-1", ["PFA-0-1"; "PFA-0-3"])] "MonteCarlo".
Theorem C93_cloning_refuted : exists m1 m2 us1 us2,
  generate dm_variable dm_chance dm_cloning dm_calibrated = Ok m1 /\ generate dm_variable dm_chance dm_cloning m1 = Ok m2 /\
  m_units m1 = Some us1 /\ m_units m2 = Some us2 /\ In (pid1, "unitless") us1 /\ In (pid1, "g") us2.
Proof.
  eexists _, _, _, _. split; [vm_compute; reflexivity|]. split; [vm_compute; reflexivity|]. split; [reflexivity|]. split; [reflexivity|]. split; cbn; auto 9.
Qed.
Print Assumptions C93_cloning_refuted.
