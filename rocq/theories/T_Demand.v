(** Property theorems about the demand model (C23-C28, C68-C70). *)
From Coq Require Import Reals Lra Sorting.Permutation.
From Verif Require Import Prelude PreludeFacts Pandas PandasFacts M_Base S_Base P_Base M_FileIO S_FileIO P_FileIO
  M_Damage M_Demand S_Demand P_Rid P_Sample P_Cal P_Req.
Local Open Scope string_scope.
Local Open Scope list_scope.

Ltac qcompute := vm_compute; repeat (first [reflexivity | apply Qc_is_canon; reflexivity | f_equal]).

Ltac good :=
  unfold good_demand, clean_label, known_units; cbn [d_sample d_units d_units_name map fst snd];
  repeat match goal with
         | |- Forall _ (fst _) => cbn [fst]
         | |- _ /\ _ => split
         | |- Forall _ [] => constructor
         | |- Forall _ (_ :: _) => constructor
         | |- NoDup [] => constructor
         | |- NoDup (_ :: _) => constructor; [cbn; intuition congruence|]
         | |- _ = _ => reflexivity
         | |- _ <> _ => discriminate
         end.

(** * C23 Residual drift *)

(** Never negative, never above the peak drift, whatever the scatter. *)
Theorem C23_bounds : forall y p eps : R, (0 <= p)%R -> (0 <= rid_cell y p eps <= p)%R.
Proof. exact rid_bounds. Qed.
Print Assumptions C23_bounds.

(** Zero up to and including the yield drift. *)
Theorem C23_zero : forall y p eps : R, (0 <= p <= y)%R -> rid_cell y p eps = 0%R.
Proof. exact rid_zero. Qed.
Print Assumptions C23_zero.

(** Monotone before the scatter. *)
Theorem C23_monotone : forall y p q : R, (0 <= y)%R -> (p <= q)%R -> (rid_median y p <= rid_median y q)%R.
Proof. exact median_mono. Qed.
Print Assumptions C23_monotone.

(** The FEMA P-58 curve beyond the yield drift, with the scatter as a factor. *)
Theorem C23_curve : forall y p eps : R,
  (y < p < 4 * y -> rid_cell y p eps = Rmin p (0.3 * (p - y) * exp eps))%R /\
  (0 < y -> 4 * y <= p -> rid_cell y p eps = Rmin p ((p - 3 * y) * exp eps))%R.
Proof. exact rid_exact. Qed.
Print Assumptions C23_curve.

(** The table: the same shape, each cell from its own peak drift and its own scatter. *)
Theorem C23_table : forall method y pid eps r i j,
  List.length pid = List.length eps ->
  Forall2 (fun a b => List.length a = List.length b) pid eps ->
  estimate_RID method y pid eps = Ok r ->
  List.length r = List.length pid /\
  ((i < List.length pid)%nat -> (j < List.length (nth i pid []))%nat ->
   List.length (nth i r []) = List.length (nth i pid []) /\
   nth j (nth i r []) 0%R = rid_cell y (nth j (nth i pid []) 0%R) (nth j (nth i eps []) 0%R)).
Proof. exact estimate_cells. Qed.
Print Assumptions C23_table.

(** Any other method is refused. *)
Theorem C23_methods : forall method y pid eps,
  is_ok (estimate_RID method y pid eps) = true <-> method = "FEMA P58" \/ method = "FEMA P-58".
Proof. exact estimate_methods. Qed.
Print Assumptions C23_methods.

Example C23_concrete :
  (rid_cell 0.01 0.03 0 = 0.006)%R /\ (rid_cell 0.01 0.05 0 = 0.02)%R /\ (rid_cell 0.01 0.01 7 = 0)%R /\
  is_ok (estimate_RID "FEMA P-58" 0.01 [[0.03%R; 0.05%R]] [[0%R; 0%R]]) = true.
Proof.
  split; [|split; [|split]].
  - destruct (C23_curve 0.01 0.03 0) as [H _]. rewrite H by lra. rewrite exp_0. unfold Rmin. destruct Rle_dec; lra.
  - destruct (C23_curve 0.01 0.05 0) as [_ H]. rewrite H by lra. rewrite exp_0. unfold Rmin. destruct Rle_dec; lra.
  - apply C23_zero. lra.
  - reflexivity.
Qed.

(** * C24 Calibration settings *)

(** A demand whose type has an entry: the family, the limits (times the factor of the unit of
    that entry) and the added uncertainty are those of the entry. *)
Theorem C24_own : forall factors config labels cal lab r s,
  NoDup (keys config) -> calibration_settings factors config labels = Ok cal ->
  In (lab, r) cal -> own_settings config lab s ->
  s_family s = Some (family r) /\
  (forall l q f, given_limit (setting_of l s) = Some q -> unit_factor factors s f ->
     limit_of l r = Some (q * f)%Qc) /\
  (forall v f, s_add_uncertainty s = Some v -> unit_factor factors s f ->
     sig_increase r = if String.eqb (family r) "normal" then nmul v (Some f) else v).
Proof.
  intros factors config labels cal lab r s Hn H Hin Ho.
  destruct (settings_own _ _ _ _ _ _ _ Hn H Hin Ho) as (H1 & H2 & _ & H4). auto.
Qed.
Print Assumptions C24_own.

(** A demand whose type has none: everything from ALL. *)
Theorem C24_all : forall factors config labels cal lab r sA,
  NoDup (keys config) -> calibration_settings factors config labels = Ok cal ->
  In (lab, r) cal -> no_own_settings config lab -> dget "ALL" config = Some sA ->
  s_family sA = Some (family r) /\
  (forall l f, unit_factor factors sA f ->
     limit_of l r = match given_limit (setting_of l sA) with
                    | Some q => Some (q * f)%Qc
                    | None => None
                    end) /\
  (forall f, unit_factor factors sA f ->
     sig_increase r = match s_add_uncertainty sA with
                      | Some v => if String.eqb (family r) "normal" then nmul v (Some f) else v
                      | None => None
                      end).
Proof. exact settings_all. Qed.
Print Assumptions C24_all.

(** Every demand gets exactly one row, in order. *)
Theorem C24_rows : forall factors config labels cal,
  NoDup (keys config) -> calibration_settings factors config labels = Ok cal -> map fst cal = labels.
Proof. exact settings_labels. Qed.
Print Assumptions C24_rows.

(** Accepted exactly when ALL is present and every entry names a family and a known unit. *)
Theorem C24_accepted : forall factors config labels,
  NoDup (keys config) ->
  (is_ok (calibration_settings factors config labels) = true <->
   (exists s, dget "ALL" config = Some s) /\
   forall k s, dget k config = Some s -> s_family s <> None /\ exists f, unit_factor factors s f).
Proof. exact settings_rejected. Qed.
Print Assumptions C24_accepted.

(** A limit that the own entry does not give is taken over from ALL, converted with the unit of
    ALL: proved when the own entry gives no unit (or one with factor 1). *)
Theorem C24_inherited_partial : forall factors config labels cal lab r s sA fA l,
  NoDup (keys config) -> calibration_settings factors config labels = Ok cal ->
  In (lab, r) cal -> own_settings config lab s -> dget "ALL" config = Some sA ->
  given_limit (setting_of l s) = None -> unit_factor factors s 1%Qc -> unit_factor factors sA fA ->
  limit_of l r = match given_limit (setting_of l sA) with Some q => Some (q * fA)%Qc | None => None end.
Proof.
  intros factors config labels cal lab r s sA fA l Hn H Hin Ho HA Hl H1 HfA.
  destruct (settings_own _ _ _ _ _ _ _ Hn H Hin Ho) as (_ & _ & H3 & _).
  rewrite (H3 l 1%Qc Hl H1 sA fA HA HfA). destruct (given_limit (setting_of l sA)); [|easy]. f_equal. ring.
Qed.
Print Assumptions C24_inherited_partial.

Definition ex_settings (fam : string) (unit : option string) (cl tu au : option num) : settings :=
  {| s_family := Some fam; s_censor_lower := cl; s_censor_upper := None; s_truncate_lower := None;
     s_truncate_upper := tu; s_unit := unit; s_add_uncertainty := au |}.
Definition ex_config : dict settings :=
  [("ALL", ex_settings "lognormal" None None (Some (Some (qc 2))) None);
   ("PFA", ex_settings "normal" (Some "g") (Some (Some (qc (1#2)))) None (Some (Some (qc (1#10)))))].

(** Otherwise the inherited limit is converted twice: the limit 2 of ALL (base units) becomes
    2 * 9.81 for PFA, whose own entry is in g but gives no such limit. *)
Theorem C24_inherited_refuted : exists factors config labels cal lab r s sA q,
  NoDup (keys config) /\ calibration_settings factors config labels = Ok cal /\ In (lab, r) cal /\
  own_settings config lab s /\ given_limit (setting_of TruncateUpper s) = None /\
  dget "ALL" config = Some sA /\ unit_factor factors sA 1%Qc /\
  given_limit (setting_of TruncateUpper sA) = Some q /\
  limit_of TruncateUpper r = Some (q * qc (981#100))%Qc.
Proof.
  exists [("g", qc (981#100))], ex_config, [["PFA"; "0"; "1"]]. do 6 eexists.
  split; [repeat constructor; simpl; intuition congruence|].
  split; [vm_compute; reflexivity|]. split; [now left|].
  split; [split; [vm_compute; discriminate|reflexivity]|].
  split; [reflexivity|]. split; [reflexivity|]. split; [reflexivity|]. split; [reflexivity|].
  simpl. f_equal.
Qed.
Print Assumptions C24_inherited_refuted.

Example C24_concrete : exists cal r,
  calibration_settings [("g", qc (981#100))] ex_config [["PFA"; "0"; "1"]; ["PID"; "1"; "1"]] = Ok cal /\
  In (["PFA"; "0"; "1"], r) cal /\ family r = "normal" /\
  limit_of CensorLower r = Some (qc (981#200)) /\ sig_increase r = Some (qc (981#1000)) /\
  no_own_settings ex_config ["PID"; "1"; "1"].
Proof.
  do 2 eexists. split; [vm_compute; reflexivity|]. split; [now left|]. split; [reflexivity|].
  split; [vm_compute; f_equal; apply Qc_is_canon; reflexivity|].
  split; [vm_compute; f_equal; apply Qc_is_canon; reflexivity|]. now right.
Qed.

(** * C25 Filtering *)

(** The realizations kept for fitting, and for the demands kept as data, are those inside both
    pairs of limits in every demand, in their order and the same for every demand; the count
    handed to the fit is the number of those outside the censoring limits. *)
Theorem C25_filter : forall cal rows,
  Forall (fun r => List.length r = List.length cal) rows ->
  exists keep censored : list num -> bool,
    (forall r, In r rows -> (keep r = true <-> in_censor_range cal r /\ in_truncation_range cal r)) /\
    (forall r, In r rows -> (censored r = true <-> ~ in_censor_range cal r)) /\
    calibration_data cal rows =
      (map (cells_at (filter (fun i => String.eqb (family (nth i cal empty_row)) "empirical")
                             (seq 0 (List.length cal)))) (filter keep rows),
       map (cells_at (filter (fun i => negb (String.eqb (family (nth i cal empty_row)) "empirical"))
                             (seq 0 (List.length cal)))) (filter keep rows),
       List.length (filter censored rows)).
Proof. exact calibration_filter. Qed.
Print Assumptions C25_filter.

Definition ex_cal : list cal_row :=
  [{| family := "lognormal"; censor_lower := None; censor_upper := Some (qc 2);
      truncate_lower := None; truncate_upper := None; sig_increase := None |};
   {| family := "empirical"; censor_lower := None; censor_upper := None;
      truncate_lower := Some (qc 1); truncate_upper := None; sig_increase := None |}].
Example C25_concrete :
  calibration_data ex_cal [[Some (qc 1); Some (qc 5)]; [Some (qc 2); Some (qc 6)];
                           [Some (qc (1#2)); Some (qc 1)]; [Some (qc 0); Some (qc 7)]] =
  ([[Some (qc 5)]; [Some (qc 7)]], [[Some (qc 1)]; [Some (qc 0)]], 1%nat) /\
  in_censor_range ex_cal [Some (qc 1); Some (qc 5)] /\ ~ in_censor_range ex_cal [Some (qc 2); Some (qc 6)].
Proof.
  split; [vm_compute; reflexivity|]. split.
  - apply row_inside_spec; reflexivity.
  - intros H. apply row_inside_spec in H; [|reflexivity|reflexivity]. discriminate H.
Qed.

(** * C26 Cloning *)

(** When every column has a unit: each listed column is replaced by copies under the new labels,
    in order, with its values and its unit, and the others stay as they are. *)
Theorem C26_clone_partial : forall cloning d,
  Forall (fun e => dashless (fst e)) (d_sample d) ->
  map fst (d_units d) = map fst (d_sample d) ->
  NoDup (List.concat (map snd cloning)) ->
  exists d', clone_demands cloning d = Ok d' /\
    d_sample d' = flat_map (fun e => map (fun l => (l, snd e)) (clones_of cloning (fst e))) (d_sample d) /\
    d_units d' = flat_map (fun e => map (fun l => (l, snd e)) (clones_of cloning (fst e))) (d_units d).
Proof. intros cloning d H1 H2 H3. eexists. split; [now apply clone_ok|]. split; reflexivity. Qed.
Print Assumptions C26_clone_partial.

(** A target listed twice is refused. *)
Theorem C26_duplicates : forall cloning d,
  ~ NoDup (List.concat (map snd cloning)) -> clone_demands cloning d = Err ValueError.
Proof. exact clone_duplicates. Qed.
Print Assumptions C26_duplicates.

Definition ex_demand : demand :=
  {| d_sample := [(["PFA"; "0"; "1"], [Some (qc 3); Some (qc 4)]); (["PID"; "1"; "1"], [Some (qc (1#100)); None])];
     d_units := [(["PFA"; "0"; "1"], "g"); (["PID"; "1"; "1"], "unitless")]; d_units_name := "Units" |}.

Example C26_concrete : exists d',
  clone_demands [("PFA-0-1", ["PFA-0-1"; "PFA-0-2"])] ex_demand = Ok d' /\
  map fst (d_sample d') = [["PFA"; "0"; "1"]; ["PFA"; "0"; "2"]; ["PID"; "1"; "1"]] /\
  d_units d' = [(["PFA"; "0"; "1"], "g"); (["PFA"; "0"; "2"], "g"); (["PID"; "1"; "1"], "unitless")] /\
  Forall (fun e => dashless (fst e)) (d_sample ex_demand) /\
  map fst (d_units ex_demand) = map fst (d_sample ex_demand).
Proof.
  eexists. split; [vm_compute; reflexivity|]. split; [reflexivity|]. split; [reflexivity|]. split; [|reflexivity].
  repeat constructor; discriminate.
Qed.

(** A column without a unit: the positions no longer fit, and cloning fails even when the
    column concerned is not listed ... *)
Theorem C26_units_refuted : exists d, 
  NoDup (map fst (d_sample d)) /\ (forall lab u, In (lab, u) (d_units d) -> In lab (map fst (d_sample d))) /\
  clone_demands [] d = Err IndexError.
Proof.
  exists {| d_sample := d_sample ex_demand; d_units := [(["PFA"; "0"; "1"], "g")]; d_units_name := "Units" |}.
  split; [repeat constructor; simpl; intuition congruence|]. split; [|vm_compute; reflexivity].
  intros lab u [[= <- <-]|[]]. now left.
Qed.
Print Assumptions C26_units_refuted.

(** ... or gives units to the wrong columns: after loading a file whose ERROR column carries a
    unit, the unit of that column is given to the first demand. *)
Theorem C26_error_refuted : exists factors s d d',
  load_sample factors "Units" s = Ok d /\ clone_demands [] d = Ok d' /\
  In (["PFA"; "0"; "1"], "g") (d_units d) /\ In (["PFA"; "0"; "1"], "unitless") (d_units d').
Proof.
  exists [("g", qc (981#100)); ("unitless", 1%Qc)],
    (as_saved [(["ERROR"; "0"; "0"], Some "unitless", [Some 0%Qc]); (["PFA"; "0"; "1"], Some "g", [Some (qc 1)])]).
  do 2 eexists. split; [vm_compute; reflexivity|]. split; [vm_compute; reflexivity|].
  split; simpl; auto.
Qed.
Print Assumptions C26_error_refuted.

(** A target that is the label of another column is not refused: two columns get one label. *)
Theorem C26_collision_refuted : exists d d', NoDup (map fst (d_sample d)) /\
  clone_demands [("PFA-0-1", ["PID-1-1"])] d = Ok d' /\ ~ NoDup (map fst (d_sample d')).
Proof.
  exists ex_demand. eexists. split; [repeat constructor; simpl; intuition congruence|].
  split; [vm_compute; reflexivity|]. intros H. inversion H as [|? ? Hn _]. apply Hn. now left.
Qed.
Print Assumptions C26_collision_refuted.

(** * C27 The demand of a performance group *)

(** The groups are distributed over the demands completely and without repetition. *)
Theorem C27_partition : forall nterms params offsets pgs req,
  get_required_demand_type nterms params offsets pgs = Ok req ->
  NoDup (map fst req) /\ Forall (fun kp => snd kp <> []) req /\
  Permutation (List.concat (map snd req)) pgs.
Proof. exact required_partition. Qed.
Print Assumptions C27_partition.

(** One demand per component: the demand of the own type, location and direction, or for
    non-directional components the largest over the directions times the multiplier.  Directional
    groups in the direction called 0 are excluded. *)
Theorem C27_single_partial : forall nterms eval params offsets multipliers sample pgs r p d,
  batch_demands nterms eval params offsets multipliers sample pgs = Ok r -> In p pgs ->
  dget (cmp p) params = Some d -> demand_table sample -> whole_offsets offsets d ->
  (forall t, In t (terms d) -> directional t -> dir p <> "0") ->
  expression d = NoColumn ->
  exists t rest v, terms d = t :: rest /\ demand_of r p = Some v /\
    term_value offsets multipliers sample p t v.
Proof.
  intros nterms eval params offsets multipliers sample pgs r p d H Hp Hd Ht Hw Hdir Hex.
  destruct (batch_demand _ _ _ _ _ _ _ _ _ _ H Hp Hd Ht Hw Hdir) as (ts & Hu & H1 & _).
  destruct (H1 Hex) as (t & v & -> & Hv & Htv). unfold uses in Hu. rewrite Hex in Hu.
  destruct Hu as (t' & rest & Et & [= <-]). exists t, rest, v. auto.
Qed.
Print Assumptions C27_single_partial.

(** Several demands combined by an expression: X1, X2, ... are the values of the terms, provided
    no two terms stand for the same demand. *)
Theorem C27_expression_partial : forall nterms eval params offsets multipliers sample pgs r p d e,
  batch_demands nterms eval params offsets multipliers sample pgs = Ok r -> In p pgs ->
  dget (cmp p) params = Some d -> demand_table sample -> whole_offsets offsets d ->
  (forall t, In t (terms d) -> directional t -> dir p <> "0") ->
  expression d = Text e -> different_terms offsets p (terms d) ->
  exists ts c vals v, uses d nterms ts /\ clean_up_expression e = Ok c /\
    Forall2 (term_value offsets multipliers sample p) ts vals /\
    eval c (named_from 1 vals) = Ok v /\ demand_of r p = Some v.
Proof.
  intros nterms eval params offsets multipliers sample pgs r p d e H Hp Hd Ht Hw Hdir Hex Hdiff.
  destruct (batch_demand _ _ _ _ _ _ _ _ _ _ H Hp Hd Ht Hw Hdir) as (ts & Hu & _ & H2).
  assert (Hdts : different_terms offsets p ts).
  { pose proof Hu as Hu'. unfold uses in Hu'. rewrite Hex in Hu'. destruct Hu' as (c & n & _ & _ & _ & ->).
    unfold different_terms in *. clear - Hdiff. revert n. induction Hdiff as [|t l Ht Hl IH]; intros n; [rewrite firstn_nil; constructor|].
    destruct n as [|n]; simpl; constructor; auto. rewrite Forall_forall in *. intros x Hx. apply Ht.
    rewrite <- (firstn_skipn n l). apply in_or_app. auto. }
  destruct (H2 e Hex Hdts) as (c & vals & v & Hc & HF & Hv & Hd'). exists ts, c, vals, v. auto.
Qed.
Print Assumptions C27_expression_partial.

Definition drift : term := {| t_type := Some "Peak Interstory Drift Ratio"; t_offset := Some 0%Qc; t_directional := Some 1%Qc |}.
Definition accel : term := {| t_type := Some "Peak Floor Acceleration"; t_offset := Some 1%Qc; t_directional := Some 0%Qc |}.
Definition ex_params : dict demand_params :=
  [("B.10", {| expression := NoColumn; terms := [drift] |}); ("D.20", {| expression := NoColumn; terms := [accel] |})].
Definition ex_sample : frame :=
  [(["PFA"; "1"; "1"], [Some (qc 3); None]); (["PFA"; "1"; "2"], [Some (qc 5); Some (qc 2)]);
   (["PID"; "1"; "1"], [Some (qc (1#100)); Some (qc (2#100))]); (["PID"; "1"; "2"], [Some (qc (3#100)); Some (qc (4#100))])].
Definition no_terms (_ : string) : result nat := Err RuntimeError.
Definition no_eval (_ : string) (_ : dict (list num)) : result (list num) := Err RuntimeError.

Example C27_concrete : exists r,
  batch_demands no_terms no_eval ex_params [] [("ALL", qc (12#10))] ex_sample [PG "B.10" "1" "2" "0"; PG "D.20" "0" "0" "0"] = Ok r /\
  demand_of r (PG "B.10" "1" "2" "0") = Some [Some (qc (3#100)); Some (qc (4#100))] /\
  demand_of r (PG "D.20" "0" "0" "0") = Some [Some (qc 6); Some (qc (24#10))] /\
  demand_table ex_sample /\
  Forall (fun e => whole_offsets [] (snd e)) ex_params.
Proof.
  eexists. split; [vm_compute; reflexivity|]. split; [vm_compute; reflexivity|].
  split; [vm_compute; do 2 f_equal; [f_equal; apply Qc_is_canon; reflexivity|do 2 f_equal; apply Qc_is_canon; reflexivity]|].
  split; [repeat constructor|]. repeat constructor; try easy.
  - intros o [= <-]. exists 0%Z. apply Qc_is_canon. reflexivity.
  - intros o [= <-]. exists 1%Z. apply Qc_is_canon. reflexivity.
Qed.

(** A group of a directional component placed in direction 0 is not driven by the demand in
    direction 0 but by the largest over the directions, amplified. *)
Theorem C27_direction_zero_refuted : exists nterms eval params offsets multipliers sample p d t r own v,
  batch_demands nterms eval params offsets multipliers sample [p] = Ok r /\
  dget (cmp p) params = Some d /\ expression d = NoColumn /\ terms d = [t] /\ directional t /\
  whole_offsets offsets d /\ demand_table sample /\
  In (["PID"; "1"; dir p], own) sample /\ asks_for offsets p t "PID" "1" /\
  demand_of r p = Some v /\ v <> own.
Proof.
  exists no_terms, no_eval, ex_params, [], [("ALL", qc (12#10))],
    [(["PID"; "1"; "0"], [Some (qc (1#100))]); (["PID"; "1"; "1"], [Some (qc (2#100))])],
    (PG "B.10" "1" "0" "0"), {| expression := NoColumn; terms := [drift] |}, drift.
  do 3 eexists. split; [vm_compute; reflexivity|]. split; [reflexivity|]. split; [reflexivity|]. split; [reflexivity|].
  split; [intros H; discriminate H|]. split.
  { split; [|easy]. repeat constructor. intros o [= <-]. exists 0%Z. apply Qc_is_canon. reflexivity. }
  split; [repeat constructor|]. split; [now left|]. split.
  { exists "Peak Interstory Drift Ratio", "PID", 1%Z. split; [reflexivity|]. split; [|split; [|split; [lia|reflexivity]]].
    - constructor; [reflexivity|]. exists ["Story Drift Ratio"; "Peak Interstory Drift Ratio"]. simpl. auto.
    - exists 1%Z, 0%Z. split; [reflexivity|]. split; [simpl; f_equal; apply Qc_is_canon; reflexivity|reflexivity]. }
  split; [vm_compute; reflexivity|]. intros H. discriminate H.
Qed.
Print Assumptions C27_direction_zero_refuted.

(** Terms that stand for the same demand are passed once: with terms drift, drift, acceleration
    the variable X2 of the expression is the acceleration. *)
Theorem C27_repeated_refuted : exists params sample p d vars,
  dget (cmp p) params = Some d /\ terms d = [drift; drift; accel] /\ expression d = Text "X1+X2+X3" /\
  batch_demands (fun _ => Ok 3%nat) (fun _ v => match dget "X2" v with Some x => Ok x | None => Err KeyError end)
    params [] [("ALL", 1%Qc)] sample [p] = Ok vars /\
  In (["PID"; "1"; "1"], [Some (qc (1#100))]) sample /\
  demand_of vars p = Some [Some (qc 3)].
Proof.
  exists [("B.10", {| expression := Text "X1+X2+X3"; terms := [drift; drift; accel] |})],
    [(["PID"; "1"; "1"], [Some (qc (1#100))]); (["PFA"; "2"; "1"], [Some (qc 3)])], (PG "B.10" "1" "1" "0").
  do 2 eexists. split; [reflexivity|]. split; [reflexivity|]. split; [reflexivity|].
  split; [vm_compute; reflexivity|]. split; [now left|]. qcompute.
Qed.
Print Assumptions C27_repeated_refuted.

(** * C28 Missing demands *)

(** When demands are obtained at all, every demand that some group asks for was in the sample
    (groups of directional components in the direction called 0 excluded). *)
Theorem C28_present_partial : forall nterms eval params offsets multipliers sample pgs r p d,
  batch_demands nterms eval params offsets multipliers sample pgs = Ok r -> In p pgs ->
  dget (cmp p) params = Some d -> demand_table sample -> whole_offsets offsets d ->
  (forall t, In t (terms d) -> directional t -> dir p <> "0") ->
  exists ts, uses d nterms ts /\
    forall t, In t ts -> exists v, term_value offsets multipliers sample p t v.
Proof. exact batch_present. Qed.
Print Assumptions C28_present_partial.

(** A type that is missing at a location is a ValueError. *)
Theorem C28_location : forall nterms eval params offsets multipliers (sample : frame) pgs req p d ts t full l,
  get_required_demand_type nterms params offsets pgs = Ok req -> demand_table sample ->
  In p pgs -> dget (cmp p) params = Some d -> uses d nterms ts -> In t ts -> whole_offsets offsets d ->
  asks_for offsets p t full l -> (forall col, ~ at_location full l sample col) ->
  batch_demands nterms eval params offsets multipliers sample pgs = Err ValueError.
Proof. exact missing_location. Qed.
Print Assumptions C28_location.

(** Direction 0: the demand asked for is absent and another one is used silently. *)
Theorem C28_direction_zero_refuted : exists nterms eval params offsets multipliers sample p d t r v,
  batch_demands nterms eval params offsets multipliers sample [p] = Ok r /\
  dget (cmp p) params = Some d /\ terms d = [t] /\ directional t /\ asks_for offsets p t "PID" "1" /\
  (forall own, ~ In (["PID"; "1"; dir p], own) sample) /\ demand_of r p = Some v.
Proof.
  exists no_terms, no_eval, ex_params, [], [("ALL", qc (12#10))], [(["PID"; "1"; "1"], [Some (qc (2#100))])],
    (PG "B.10" "1" "0" "0"), {| expression := NoColumn; terms := [drift] |}, drift.
  do 2 eexists. split; [vm_compute; reflexivity|]. split; [reflexivity|]. split; [reflexivity|].
  split; [intros H; discriminate H|]. split.
  { exists "Peak Interstory Drift Ratio", "PID", 1%Z. split; [reflexivity|]. split; [|split; [|split; [lia|reflexivity]]].
    - constructor; [reflexivity|]. exists ["Story Drift Ratio"; "Peak Interstory Drift Ratio"]. simpl. auto.
    - exists 1%Z, 0%Z. split; [reflexivity|]. split; [simpl; f_equal; apply Qc_is_canon; reflexivity|reflexivity]. }
  split; [intros own [H|[]]; discriminate H|]. vm_compute; reflexivity.
Qed.
Print Assumptions C28_direction_zero_refuted.

(** The availability check itself looks at type and location only: a missing direction passes it
    and fails in the next step, with a KeyError. *)
Theorem C28_check_refuted : exists params sample p req,
  get_required_demand_type no_terms params [] [p] = Ok req /\
  map fst req = [(["PID-1-2"], None)] /\
  (forall own, ~ In (["PID"; "1"; "2"], own) sample) /\
  verify_edps_available sample (map fst req) = Ok tt /\
  batch_demands no_terms no_eval params [] [("ALL", 1%Qc)] sample [p] = Err KeyError.
Proof.
  exists ex_params, [(["PID"; "1"; "1"], [Some (qc (2#100))])], (PG "B.10" "1" "2" "0").
  eexists. split; [vm_compute; reflexivity|]. split; [reflexivity|].
  split; [intros own [H|[]]; discriminate H|]. split; vm_compute; reflexivity.
Qed.
Print Assumptions C28_check_refuted.

Example C28_hypotheses_met :
  is_ok (get_required_demand_type no_terms ex_params [] [PG "B.10" "3" "2" "0"]) = true /\
  asks_for [] (PG "B.10" "3" "2" "0") drift "PID" "3" /\
  (forall col, ~ at_location "PID" "3" ex_sample col).
Proof.
  split; [reflexivity|]. split.
  - exists "Peak Interstory Drift Ratio", "PID", 3%Z. split; [reflexivity|]. split; [|split; [|split; [lia|reflexivity]]].
    + constructor; [reflexivity|]. exists ["Story Drift Ratio"; "Peak Interstory Drift Ratio"]. simpl. auto.
    + exists 3%Z, 0%Z. split; [reflexivity|]. split; [simpl; f_equal; apply Qc_is_canon; reflexivity|reflexivity].
  - intros col (d & H). simpl in H. intuition congruence.
Qed.

(** * C71 Expressions *)

Theorem C71_accepted : forall e,
  is_ok (clean_up_expression e) = true <-> forall a, In a (list_ascii_of_string e) -> arithmetic_char a.
Proof. exact clean_accepts. Qed.
Print Assumptions C71_accepted.

(** The pieces between the carets, unchanged, with two stars between them. *)
Theorem C71_text : forall e c, clean_up_expression e = Ok c -> c = join "**" (split_on "^" e).
Proof. exact clean_text. Qed.
Print Assumptions C71_text.

Example C71_concrete : clean_up_expression "sqrt(X1^2 + X2^2)" = Ok "sqrt(X1**2 + X2**2)" /\
  clean_up_expression "0.5*X1" = Err ValueError /\ clean_up_expression "__import__" = Err ValueError.
Proof. repeat split. Qed.

(** * C68 Extending the sample *)

(** A new or replaced column is stored in base units; every other column and its unit stay. *)
Theorem C68_expand : forall factors m d lab v unit f col,
  good_demand factors m d -> clean_label lab -> d_type lab <> "ERROR" ->
  dget unit factors = Some f -> f <> 0%Qc ->
  (v = VArray col /\ List.length col = m \/ exists x, v = VScalar x /\ col = repeat x m) ->
  exists d' new, expand_sample factors d lab v unit = Ok d' /\
    good_demand factors m d' /\
    In (lab, new) (d_sample d') /\ Forall2 (in_base f) col new /\
    (forall l vs, l <> lab -> (In (l, vs) (d_sample d') <-> In (l, vs) (d_sample d))) /\
    (forall l u, In (l, u) (d_units d') <->
       (l = lab /\ u = unit) \/ (l <> lab /\ In (l, u) (d_units d) /\ In l (map fst (d_sample d)))).
Proof.
  intros factors m d lab v unit f col Hg Hl He Hf Hf0 Hv. apply expand_spec; auto.
  destruct Hv as [(-> & Hlen)|(x & -> & ->)]; simpl; [|easy]. now rewrite Hlen, Nat.eqb_refl.
Qed.
Print Assumptions C68_expand.

(** An array of another length is refused. *)
Theorem C68_length : forall factors m d lab l unit,
  good_demand factors m d -> List.length l <> m ->
  expand_sample factors d lab (VArray l) unit = Err ValueError.
Proof. exact expand_length. Qed.
Print Assumptions C68_length.

(** Residual drifts are added beside the existing columns, one for each peak drift column, with
    the values estimated from the peak drifts as the user gave them. *)
Theorem C68_residual : forall est factors m d,
  good_demand factors m d ->
  (exists lab, In lab (map fst (d_sample d)) /\ d_type lab = "PID") ->
  (forall lab, In lab (map fst (d_sample d)) -> d_type lab <> "RID") ->
  d_units d <> [] ->
  (forall cols, List.length (est cols) = List.length cols /\
                (Forall (fun c => List.length c = m) cols -> Forall (fun c => List.length c = m) (est cols))) ->
  exists d' pid, estimate_RID_and_adjust_sample est factors d = Ok d' /\
    (forall l vs, d_type l <> "RID" -> (In (l, vs) (d_sample d') <-> In (l, vs) (d_sample d))) /\
    (forall l vs, In (l, vs) pid <->
       d_type l = "PID" /\ exists o w, In (l, w) (d_sample d) /\ appears_as factors (d_units d) l w o vs) /\
    (forall l vs, d_type l = "RID" ->
       (In (l, vs) (d_sample d') <->
        exists i p x, nth_error pid i = Some p /\ nth_error (est (map snd pid)) i = Some x /\
          l = "RID" :: tl (fst p) /\ vs = scale_values (load_factor factors (Some "unitless")) x)).
Proof.
  intros est factors m d H1 H2 H3 H4 H5. destruct (adjust_spec est factors m d H1 H2 H3 H4 H5) as (d' & pid & E & _ & _ & A & B & C).
  exists d', pid. auto.
Qed.
Print Assumptions C68_residual.

Definition ex_factors2 : dict Qc := [("g", qc (981#100)); ("unitless", 1%Qc); ("percent", qc (1#100))].
Example C68_concrete :
  good_demand ex_factors2 2 ex_demand /\
  (exists d', expand_sample ex_factors2 ex_demand ["PGA"; "0"; "1"] (VScalar (Some (qc 2))) "g" = Ok d' /\
     In (["PGA"; "0"; "1"], [Some (qc (1962#100)); Some (qc (1962#100))]) (d_sample d')).
Proof.
  split.
  - unfold ex_demand. good. all: eexists; (split; [reflexivity|discriminate]).
  - eexists. split; [vm_compute; reflexivity|]. simpl. right. left. qcompute.
Qed.

(** * C69 Failed realizations *)

(** One ERROR column without a unit, three header levels: exactly the realizations whose error is
    zero remain, in order, in every demand; an empty error cell counts as failed. *)
Theorem C69_partial : forall factors m t lab e,
  Forall (fun c => clean_label (fst (fst c)) /\ List.length (snd c) = m) t ->
  NoDup (map (fun c => fst (fst c)) t) ->
  In (lab, None, e) t -> d_type lab = "ERROR" ->
  (forall l o v, In (l, o, v) t -> d_type l = "ERROR" -> l = lab) ->
  (exists l u v, In (l, Some u, v) t) ->
  exists d, load_sample factors "Units" (as_saved t) = Ok d /\
    forall l vs, In (l, vs) (d_sample d) <->
      d_type l <> "ERROR" /\ exists o ws, In (l, o, ws) t /\
        vs = map (fun i => nth i (scale_values (load_factor factors o) ws) None) (without_error m e).
Proof. exact load_errors. Qed.
Print Assumptions C69_partial.

Example C69_concrete : exists d,
  load_sample ex_factors2 "Units" (as_saved
    [(["ERROR"; "0"; "0"], None, [Some 0%Qc; Some 1%Qc; None; Some 0%Qc]);
     (["PID"; "1"; "1"], Some "unitless", [Some (qc 1); Some (qc 2); Some (qc 3); Some (qc 4)])]) = Ok d /\
  d_sample d = [(["PID"; "1"; "1"], [Some (qc 1); Some (qc 4)])].
Proof. eexists. split; [vm_compute; reflexivity|]. qcompute. Qed.

(** Two ERROR columns: a realization that failed in one of them stays, one that failed in
    neither appears twice. *)
Theorem C69_two_refuted : exists d,
  load_sample ex_factors2 "Units" (as_saved
    [(["ERROR"; "0"; "0"], None, [Some 0%Qc; Some 0%Qc]); (["ERROR"; "0"; "1"], None, [Some 0%Qc; Some 1%Qc]);
     (["PID"; "1"; "1"], Some "unitless", [Some (qc 1); Some (qc 2)])]) = Ok d /\
  map (fun e => List.length (snd e)) (d_sample d) = [3%nat].
Proof. eexists. split; vm_compute; reflexivity. Qed.
Print Assumptions C69_two_refuted.

(** The header with an event id in front, where the column of errors is called ERROR as before:
    the level that is examined is empty, so nothing is removed. *)
Theorem C69_event_refuted : exists d,
  load_sample ex_factors2 "Units"
    {| header := Flat ["ERROR"; "1-PID-1-1"]; unit_row := Some [None; Some "unitless"];
       cells := [[Some 0%Qc; Some 1%Qc]; [Some (qc 1); Some (qc 2)]] |} = Ok d /\
  In (["PID"; "1"; "1"], [Some (qc 1); Some (qc 2)]) (d_sample d).
Proof.
  eexists. split; [vm_compute; reflexivity|]. simpl. left. qcompute.
Qed.
Print Assumptions C69_event_refuted.

(** * C70 Units of the peak drift *)

(** Two models holding the same drifts: the same residual drifts, if every peak drift column is
    without a unit or in a unit with factor 1. *)
Theorem C70_partial : forall est factors m d1 d2,
  good_demand factors m d1 -> good_demand factors m d2 -> d_sample d1 = d_sample d2 ->
  (exists lab, In lab (map fst (d_sample d1)) /\ d_type lab = "PID") ->
  (forall lab, In lab (map fst (d_sample d1)) -> d_type lab <> "RID") ->
  d_units d1 <> [] -> d_units d2 <> [] ->
  (forall cols, List.length (est cols) = List.length cols /\
                (Forall (fun c => List.length c = m) cols -> Forall (fun c => List.length c = m) (est cols))) ->
  (forall lab u, In (lab, u) (d_units d1) -> d_type lab = "PID" -> dget u factors = Some 1%Qc) ->
  (forall lab u, In (lab, u) (d_units d2) -> d_type lab = "PID" -> dget u factors = Some 1%Qc) ->
  exists d1' d2', estimate_RID_and_adjust_sample est factors d1 = Ok d1' /\
    estimate_RID_and_adjust_sample est factors d2 = Ok d2' /\
    forall l vs, In (l, vs) (d_sample d1') <-> In (l, vs) (d_sample d2').
Proof.
  intros est factors m d1 d2 G1 G2 Es Hp Hr U1 U2 He F1 F2.
  destruct (adjust_spec est factors m d1 G1 Hp Hr U1 He) as (d1' & pid1 & E1 & _ & P1 & A1 & _ & C1).
  rewrite Es in Hp, Hr.
  destruct (adjust_spec est factors m d2 G2 Hp Hr U2 He) as (d2' & pid2 & E2 & _ & P2 & A2 & _ & C2).
  exists d1', d2'. split; [exact E1|]. split; [exact E2|].
  rewrite pid_as_stored in P1, P2 by assumption. rewrite Es in P1. assert (pid1 = pid2) by congruence. subst pid1.
  intros l vs. destruct (String.eqb_spec (d_type l) "RID") as [Hl|Hl].
  - rewrite (C1 l vs Hl), (C2 l vs Hl). rewrite H. easy.
  - rewrite (A1 l vs Hl), (A2 l vs Hl), Es. easy.
Qed.
Print Assumptions C70_partial.

(** The FEMA P-58 curve with a yield drift of 0.01, without scatter. *)
Definition rid01 (x : num) : num :=
  match x with
  | None => None
  | Some p => Some (if Qcltb p (qc (1#100)) then 0%Qc
                    else if Qcltb p (qc (4#100)) then (qc (3#10) * (p - qc (1#100)))%Qc
                    else (p - qc (3#100))%Qc)
  end.

(** In percent the curve is entered with 2 instead of 0.02: the same drift of 0.02 gives a
    residual drift of 0.003 or of 1.97. *)
Theorem C70_refuted : exists d1 d2 d1' d2',
  good_demand ex_factors2 1 d1 /\ good_demand ex_factors2 1 d2 /\ d_sample d1 = d_sample d2 /\
  estimate_RID_and_adjust_sample (map (map rid01)) ex_factors2 d1 = Ok d1' /\
  estimate_RID_and_adjust_sample (map (map rid01)) ex_factors2 d2 = Ok d2' /\
  In (["RID"; "1"; "1"], [Some (qc (3#1000))]) (d_sample d1') /\
  In (["RID"; "1"; "1"], [Some (qc (197#100))]) (d_sample d2').
Proof.
  set (dm u := {| d_sample := [(["PID"; "1"; "1"], [Some (qc (2#100))])]; d_units := [(["PID"; "1"; "1"], u)]; d_units_name := "Units" |}).
  assert (G : forall u f, dget u ex_factors2 = Some f -> f <> 0%Qc -> good_demand ex_factors2 1 (dm u)).
  { intros u f E Hf. unfold dm. good. eauto. }
  exists (dm "unitless"), (dm "percent"). do 2 eexists.
  split; [eapply G; [reflexivity|discriminate]|]. split; [eapply G; [reflexivity|discriminate]|]. split; [reflexivity|].
  split; [vm_compute; reflexivity|]. split; [vm_compute; reflexivity|].
  split; simpl; right; left; qcompute.
Qed.
Print Assumptions C70_refuted.
