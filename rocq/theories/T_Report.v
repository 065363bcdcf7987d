(** Theorems about reports (C104-C107). *)
From Coq Require Import Sorting.Permutation Sorting.Sorted DecimalString DecimalZ DecimalPos.
From Verif Require Import Prelude PreludeFacts Pandas PandasFacts M_Base M_FileIO M_Damage P_Base M_Outputs S_Outputs P_Outputs M_Report S_Report P_Report.
Set Implicit Arguments.
Local Open Scope string_scope.
Local Open Scope list_scope.

(** ** An example: numbers as fractions *)

Definition show_num (x : num) : string :=
  match x with None => "" | Some q => (NilEmpty.string_of_int (Z.to_int (Qnum (this q))) ++ "/" ++ NilEmpty.string_of_int (Z.to_int (Zpos (Qden (this q)))))%string end.
Definition parse_num (s : string) : option num :=
  if String.eqb s "" then Some None else
  match split_on "/" s with
  | [a; b] => match NilEmpty.int_of_string a, NilEmpty.int_of_string b with
    | Some a, Some b => match Z.of_int b with Zpos d => Some (Some (Q2Qc (Z.of_int a # d))) | _ => None end
    | _, _ => None
    end
  | _ => None
  end.
Definition ex_tools : tools := Tools show_num parse_num.
Lemma no_slash_uint u : has_char "/" (NilEmpty.string_of_uint u) = false.
Proof. induction u; [reflexivity|..]; exact IHu. Qed.
Lemma no_slash z : has_char "/" (NilEmpty.string_of_int (Z.to_int z)) = false.
Proof. destruct (Z.to_int z) as [u|u]; cbn; [apply no_slash_uint|apply no_slash_uint]. Qed.
Lemma ex_reads_back : reads_back ex_tools.
Proof.
  intros [q|]; [|reflexivity]. cbn [parse show ex_tools]. unfold parse_num, show_num.
  set (a := NilEmpty.string_of_int (Z.to_int (Qnum (this q)))). set (b := NilEmpty.string_of_int (Z.to_int (Zpos (Qden (this q))))).
  destruct (String.eqb_spec (a ++ "/" ++ b)%string "") as [E|_]; [destruct a; discriminate E|].
  change ("/" ++ b)%string with (String "/" b). rewrite (split_on_app "/" a b) by apply no_slash. rewrite split_on_nochar by apply no_slash. unfold a, b.
  rewrite !NilEmpty.isi. rewrite !DecimalZ.of_to. do 2 f_equal. apply Qc_is_canon. rewrite this_Q2Qc. now destruct (this q).
Qed.
Definition ex_columns : list (string * list num) := [("PFA-0-1", [Some (qc 1); Some (qc (5 # 2))]); ("PFA-0-2", [Some (qc 3); None]); ("SA", [Some (qc 4); Some (qc 5)])].
Lemma ex_labelled simple : well_labelled simple (map fst ex_columns).
Proof.
  split; [discriminate|]. destruct simple; cbn.
  - split; [repeat constructor; cbn; intuition discriminate|]. split; [|intuition discriminate].
    repeat constructor; [exists ["PFA-0-1"], 0%nat|exists ["PFA-0-2"], 0%nat|exists ["SA"], 0%nat]; (split; [reflexivity|intros [H|[]]; discriminate]).
  - split; [repeat constructor; cbn; intuition discriminate|]. split; [|intuition discriminate].
    repeat constructor; [exists ["PFA"; "0"; "1"], 0%nat|exists ["PFA"; "0"; "2"], 0%nat|exists ["SA"], 2%nat]; (split; [reflexivity|cbn; intuition discriminate]).
Qed.

(** * C104 The JSON version of a sample holds the numbers of the sample *)

(** Following the parts of a label leads to the values of its column, in the order of the
    realizations, and nothing else is there; the units are below [Units]. *)
Theorem C104_samples T simple n cols units : reads_back T -> well_labelled simple (map fst cols) -> Forall (fun c => List.length (snd c) = n) cols -> units_for cols units ->
  exists d, json_file T simple (table_file T (row_numbers n) cols units) = Ok d /\
    (forall p t, List.length p = levels simple (map fst cols) -> hd "" p <> "Units" ->
      (found (JTree d) p t <-> exists label xs, In (label, xs) cols /\ p = path simple (map fst cols) label /\ t = JList xs)) /\
    (forall us, units = Some us -> exists e, In ("Units", JRows e) d /\
      forall label xs u, In ((label, xs), u) (combine cols us) -> no_number T u -> In (join "-" (path simple (map fst cols) label), CStr u) e).
Proof.
  intros HT HL Hn Hu. destruct (@json_found T simple (row_numbers n) cols units HT HL (numeric_rows_no_units _ (row_numbers_numeric n))) as (d & Ed & Hd & Hun); [|exact Hu|].
  { eapply Forall_impl; [|exact Hn]. intros c E. cbn in E. rewrite E. unfold row_numbers. now rewrite map_length, seq_length. }
  exists d. split; [exact Ed|]. split; [|exact Hun]. intros p t L N. rewrite (Hd p t L N), row_numbers_numeric.
  assert (Lu : List.length (col_units cols units) = List.length cols) by (unfold col_units; destruct units; cbn in Hu; now rewrite map_length).
  split.
  - intros (label & xs & u & Hin & Hp & Ht). apply in_combine_l in Hin. eauto.
  - intros (label & xs & Hin & Hp & Ht). rewrite <- (@map_fst_combine _ _ cols (col_units cols units)) in Hin by lia. apply in_map_iff in Hin as ([[l x] u] & [= -> ->] & Hin). eauto 6.
Qed.
Print Assumptions C104_samples.
Example C104_samples_hypotheses_met : forall simple, reads_back ex_tools /\ well_labelled simple (map fst ex_columns) /\ Forall (fun c => List.length (snd c) = 2%nat) ex_columns /\
  units_for ex_columns (Some ["g"; "g"; "inps2"]) /\ no_number ex_tools "g".
Proof. intros simple. split; [exact ex_reads_back|]. split; [apply ex_labelled|]. split; [repeat constructor|]. split; reflexivity. Qed.
Example C104_samples_concrete : exists d, json_file ex_tools false (table_file ex_tools (row_numbers 2) ex_columns (Some ["g"; "g"; "inps2"])) = Ok d /\
  found (JTree d) ["PFA"; "0"; "1"] (JList [Some (qc 1); Some (qc (5 # 2))]) /\ found (JTree d) ["SA"; ""; ""] (JList [Some (qc 4); Some (qc 5)]).
Proof.
  destruct (@C104_samples ex_tools false 2 ex_columns (Some ["g"; "g"; "inps2"]) ex_reads_back (ex_labelled false)) as (d & Ed & Hd & _); [repeat constructor|reflexivity|].
  exists d. split; [exact Ed|]. split; apply Hd; try reflexivity; try discriminate; [exists "PFA-0-1"|exists "SA"]; eexists; (split; [cbn; eauto|]); split; reflexivity.
Qed.

(** * C105 The JSON version of statistics holds the numbers of the statistics *)

(** Without units: yes. *)
Theorem C105_statistics_partial T simple R cols : reads_back T -> well_labelled simple (map fst cols) ->
  exists d, json_file T simple (table_file T (fst (statistics R cols)) (snd (statistics R cols)) None) = Ok d /\
    (forall p t, List.length p = levels simple (map fst cols) -> hd "" p <> "Units" ->
      (found (JTree d) p t <-> exists label xs, In (label, xs) cols /\ p = path simple (map fst cols) label /\
        t = JRows (map (fun s => (fst s, CNum (snd s))) (describe R xs)))).
Proof.
  intros HT HL. unfold statistics. cbn [fst snd]. set (rows := map fst (describe R [])). set (cols' := map (fun c => (fst c, map snd (describe R (snd c)))) cols).
  assert (El : map fst cols' = map fst cols) by (unfold cols'; now rewrite map_map).
  destruct (@json_found T simple rows cols' None HT) as (d & Ed & Hd & _); [now rewrite El|reflexivity| |exact I|].
  { apply Forall_forall. intros c Hc. apply in_map_iff in Hc as (c' & <- & _). cbn [snd]. unfold rows. rewrite !map_length. reflexivity. }
  exists d. split; [exact Ed|]. intros p t L N. rewrite El in Hd. rewrite (Hd p t L N).
  assert (Er : forall xs, combine rows (map (as_read T None) (map snd (describe R xs))) = map (fun s => (fst s, CNum (snd s))) (describe R xs)).
  { intros xs. assert (E : rows = map fst (describe R xs)) by reflexivity. rewrite E, map_map. apply combine_maps. }
  assert (Hr : forallb isnumeric rows = false) by reflexivity. rewrite Hr. cbn [col_units]. split.
  - intros (label & xs & u & Hin & Hp & Ht). pose proof (in_combine_r _ _ _ _ Hin) as Hu. apply in_map_iff in Hu as (_ & <- & _). apply in_combine_l in Hin. apply in_map_iff in Hin as ([l x] & [= <- <-] & Hin).
    exists l, x. split; [exact Hin|]. split; [exact Hp|]. rewrite Ht. exact (f_equal JRows (Er x)).
  - intros (label & xs & Hin & Hp & Ht). exists label, (map snd (describe R xs)), None. split; [|split; [exact Hp|rewrite Er; exact Ht]].
    rewrite <- (map_id cols') at 1. rewrite combine_maps. apply in_map_iff. exists (label, map snd (describe R xs)). split; [reflexivity|]. apply in_map_iff. now exists (label, xs).
Qed.
Print Assumptions C105_statistics_partial.
(** With units every statistic is a text. *)
Theorem C105_text_refuted T simple R cols us : reads_back T -> well_labelled simple (map fst cols) -> List.length us = List.length cols -> Forall (no_number T) us ->
  exists d, json_file T simple (table_file T (fst (statistics R cols)) (snd (statistics R cols)) (Some us)) = Ok d /\
    forall label xs name x, In (label, xs) cols -> In (name, Some x) (describe R xs) ->
      exists rows, found (JTree d) (path simple (map fst cols) label) (JRows rows) /\ In (name, CStr (show T (Some x))) rows /\ ~ In (name, CNum (Some x)) rows.
Proof.
  intros HT HL Hus Hno. unfold statistics. cbn [fst snd]. set (rows := map fst (describe R [])). set (cols' := map (fun c => (fst c, map snd (describe R (snd c)))) cols).
  assert (El : map fst cols' = map fst cols) by (unfold cols'; now rewrite map_map).
  destruct (@json_found T simple rows cols' (Some us) HT) as (d & Ed & Hd & _); [now rewrite El|reflexivity| |cbn; unfold cols'; now rewrite map_length|].
  { apply Forall_forall. intros c Hc. apply in_map_iff in Hc as (c' & <- & _). cbn [snd]. unfold rows. rewrite !map_length. reflexivity. }
  exists d. split; [exact Ed|]. intros label xs name x Hin Hs. rewrite El in Hd. destruct HL as (Hne & _ & _ & Hun).
  destruct (labels_ok simple Hne) as (_ & _ & Hpl).
  assert (Hl : In label (map fst cols)) by (apply in_map_iff; now exists (label, xs)).
  assert (Hin' : In (label, map snd (describe R xs)) cols') by (apply in_map_iff; now exists (label, xs)).
  rewrite <- (@map_fst_combine _ _ cols' us) in Hin' by (unfold cols'; rewrite map_length; lia). apply in_map_iff in Hin' as ([[l ys] u] & [= -> ->] & Hin').
  assert (Hu : parse T u = None). { rewrite Forall_forall in Hno. apply Hno. exact (in_combine_r _ _ _ _ Hin'). }
  exists (combine rows (map (as_read T (Some u)) (map snd (describe R xs)))). split; [|].
  - apply Hd; [now apply Hpl|intros E; apply Hun; apply in_map_iff; now exists label|]. exists label, (map snd (describe R xs)), (Some u). split; [|split; reflexivity].
    cbn [col_units]. clear - Hin'. revert Hin'. generalize us. induction cols' as [|c cs IH]; intros [|v vs]; cbn; [easy..|]. intros [[= -> ->]|H]; [now left|right; now apply IH].
  - assert (E : rows = map fst (describe R xs)) by reflexivity. rewrite E, map_map, combine_maps. split.
    + apply in_map_iff. exists (name, Some x). split; [|exact Hs]. cbn [fst snd as_read]. now rewrite Hu.
    + intros H. apply in_map_iff in H as ([nm y] & [= _ Ey] & _). unfold as_read in Ey. cbn [snd] in Ey. rewrite Hu in Ey. destruct y; discriminate Ey.
Qed.
Print Assumptions C105_text_refuted.
Example C105_text_concrete : In ("max", Some (qc 5)) (describe (Roots (fun x => x) (fun _ => None)) [Some (qc 4); Some (qc 5)]) /\ In ("SA", [Some (qc 4); Some (qc 5)]) ex_columns /\
  Forall (no_number ex_tools) ["g"; "g"; "inps2"].
Proof. split; [repeat (try (left; reflexivity); right)|]. split; [right; right; now left|repeat constructor]. Qed.

(** * C106 The summary says in which realizations the building collapsed or is irreparable *)

Theorem C106_flags n damage repair : exists collapse irreparable,
  summary n (Some damage) repair = match repair with Some s => simple_labels s | None => [] end ++ [("collapse", collapse); ("irreparable", irreparable)] /\
  forall i, (i < n)%nat -> nth i collapse None = Some (in_first_state "collapse" i damage) /\ nth i irreparable None = Some (in_first_state "irreparable" i damage).
Proof.
  eexists. eexists. split; [reflexivity|]. intros i Hi. split; (apply flag_spec; [|reflexivity|exact Hi]); [exact collapse_key|exact irreparable_key].
Qed.
Print Assumptions C106_flags.
Lemma filter_only A (f : A -> bool) l x : NoDup l -> In x l -> f x = true -> (forall y, In y l -> f y = true -> y = x) -> filter f l = [x].
Proof.
  intros Hnd Hin Hx Hf. induction l as [|c l IH]; [destruct Hin|]. inversion Hnd as [|? ? Nc Nl]; subst. destruct Hin as [->|Hin].
  - cbn. rewrite Hx. f_equal. destruct (filter f l) as [|y r] eqn:Er; [reflexivity|]. exfalso. assert (Hy : In y (filter f l)) by (rewrite Er; now left).
    apply filter_In in Hy as [Hy Fy]. apply Nc. rewrite <- (Hf y (or_intror Hy) Fy). exact Hy.
  - cbn. destruct (f c) eqn:Ec; [exfalso; apply Nc; rewrite (Hf c (or_introl eq_refl) Ec); exact Hin|]. apply IH; [exact Nl|exact Hin|]. intros y Hy. apply Hf. now right.
Qed.
(** A building with one quantity of collapse: one exactly if it collapsed. *)
Theorem C106_collapsed n damage repair loc dir uid values i q : (i < n)%nat -> In (["collapse"; loc; dir; uid; "1"], values) damage ->
  (forall c, In c damage -> hd "" (fst c) = "collapse" -> nth 4 (fst c) "" = "1" -> c = (["collapse"; loc; dir; uid; "1"], values)) -> NoDup damage ->
  nth i values None = Some q -> exists out, In ("collapse", out) (summary n (Some damage) repair) /\ nth i out None = Some q.
Proof.
  intros Hi Hin Honly Hnd Hq. destruct (C106_flags n damage repair) as (col & irr & E & H).
  assert (A : in_first_state "collapse" i damage = q).
  { unfold in_first_state, amount.
    assert (F : filter (fun c : list string * list num => (level_is 0 "collapse" (fst c) && level_is 4 "1" (fst c))%bool) damage = [(["collapse"; loc; dir; uid; "1"], values)]).
    { apply filter_only; [exact Hnd|exact Hin|reflexivity|]. intros c Hc Fc. unfold level_is in Fc. apply andb_prop in Fc as [F0 F4]. apply String.eqb_eq in F0, F4. apply Honly; [exact Hc| |exact F4].
      destruct c as [l w]. cbn [fst] in *. destruct l; exact F0. }
    rewrite F. cbn [map qsum fold_right snd]. rewrite Hq. cbn. ring. }
  exists col. split; [refine (eq_ind_r (fun m => In _ m) _ E); apply in_or_app; right; now left|]. rewrite (proj1 (H i Hi)), A. reflexivity.
Qed.
Print Assumptions C106_collapsed.
Definition ex_damage : sample :=
  [(["B10"; "1"; "1"; "0"; "1"], [Some (qc 2); Some (qc 3); None]); (["collapse"; "0"; "1"; "0"; "0"], [Some (qc 1); Some (qc 0); Some (qc 1)]); (["collapse"; "0"; "1"; "0"; "1"], [Some (qc 0); Some (qc 1); Some (qc 0)])].
Example C106_concrete : dget "collapse" (summary 3 (Some ex_damage) None) = Some [Some (qc 0); Some (qc 1); Some (qc 0)] /\
  dget "irreparable" (summary 3 (Some ex_damage) None) = Some [Some (qc 0); Some (qc 0); Some (qc 0)].
Proof. split; vm_compute; reflexivity. Qed.

(** * C107 Statistics describe the sample *)

Theorem C107_statistics R col : present col <> [] -> let v := present col in
  NoDup (map fst (describe R col)) /\
  statistic R col "count" (Some (qn (List.length v))) /\
  (exists m, statistic R col "mean" (Some m) /\ (m * qn (List.length v) = qsum v)%Qc /\
     ((2 <= List.length v)%nat -> exists s, statistic R col "std" (Some (root R s)) /\ (s * qn (List.length v - 1) = qsum (map (fun x => (x - m) * (x - m)) v))%Qc)) /\
  (exists m, statistic R col "min" (Some m) /\ least v m) /\ (exists m, statistic R col "max" (Some m) /\ greatest v m) /\
  ((forall x, In x v -> (0 < x)%Qc) -> statistic R col "log_std" (log_deviation R v)) /\
  (forall name p, In (name, p) reported_percentiles -> exists x, statistic R col name (Some x) /\ interpolated p v x).
Proof.
  intros Hv. cbv zeta. unfold statistic, describe, present in *. set (v := somes col) in *.
  assert (Hn : (0 < List.length v)%nat) by (destruct v; [easy|cbn; lia]). assert (Hq : qn (List.length v) <> 0%Qc) by (apply Qclt_neq, qn_pos, Hn).
  split; [repeat constructor; cbn; intuition discriminate|]. split; [now left|]. split; [|split; [|split; [|split]]].
  - exists (qsum v / qn (List.length v))%Qc. split; [right; left; unfold mean; now destruct v|]. split; [now apply Qcmult_div_cancel|]. intros H2.
    exists (qsum (map (fun x => (x - qsum v / qn (List.length v)) * (x - qsum v / qn (List.length v)))%Qc v) / qn (List.length v - 1))%Qc. split.
    + right; right; left. unfold deviation. destruct v as [|a [|b v']]; [easy|cbn in H2; lia|reflexivity].
    + apply Qcmult_div_cancel. apply Qclt_neq, qn_pos. lia.
  - destruct (minimum_spec Hv) as (m & E & L). exists m. split; [|exact L]. right; right; right; right; left. now rewrite E.
  - destruct (maximum_spec Hv) as (m & E & L). exists m. split; [|exact L]. apply in_or_app. right. apply in_or_app. right. left. now rewrite E.
  - intros Hp. right; right; right; left. f_equal. destruct (minimum_spec Hv) as (m & E & L). rewrite E. specialize (Hp m (proj1 L)). apply Qcltb_true in Hp. now rewrite Hp.
  - intros name p Hin. assert (Hp : (0 <= p)%Qc /\ (p <= 1)%Qc).
    { cbn in Hin. repeat (destruct Hin as [Hin|Hin]; [injection Hin as _ <-; split; apply Qcleb_true; reflexivity|]). destruct Hin. }
    destruct (percentile_ok Hv (proj1 Hp) (proj2 Hp)) as (x & E & Hx). exists x. split; [|exact Hx]. apply in_or_app. right. apply in_or_app. left.
    apply in_map_iff. exists (name, p). cbn [fst snd]. rewrite E. split; [reflexivity|exact Hin].
Qed.
Print Assumptions C107_statistics.
(** The statistics are in order. *)
Theorem C107_order : forall v p p' x x' m M avg, interpolated p v x -> interpolated p' v x' -> (p <= p')%Qc -> least v m -> greatest v M -> (avg * qn (List.length v) = qsum v)%Qc ->
  (m <= x)%Qc /\ (x <= x')%Qc /\ (x' <= M)%Qc /\ (m <= avg)%Qc /\ (avg <= M)%Qc.
Proof.
  intros v p p' x x' m M avg Hx Hx' Hp Hm HM Ha. destruct (interpolated_between Hx Hm HM) as [A _]. destruct (interpolated_between Hx' Hm HM) as [_ B].
  split; [exact A|]. split; [exact (interpolated_monotone Hp Hx Hx')|]. split; [exact B|].
  assert (Hpos : (0 < qn (List.length v))%Qc). { apply qn_pos. destruct Hm as [Hin _]. destruct v; [destruct Hin|cbn; lia]. }
  assert (L : (m * qn (List.length v) <= qsum v)%Qc /\ (qsum v <= M * qn (List.length v))%Qc).
  { destruct Hm as [_ Hm], HM as [_ HM]. clear - Hm HM. induction v as [|a v IH]; [change (qsum []) with 0%Qc; cbn [List.length]; replace (qn 0) with 0%Qc by (now apply Qc_is_canon); split; qlra|]. destruct IH as [I1 I2]; [intros y Hy; apply Hm; now right|intros y Hy; apply HM; now right|].
    cbn [List.length]. rewrite qn_S. change (qsum (a :: v)) with (a + qsum v)%Qc. pose proof (Hm a (or_introl eq_refl)). pose proof (HM a (or_introl eq_refl)). split; qlra. }
  destruct L as [L1 L2]. rewrite <- Ha in L1, L2. split; [apply (Qcmult_lt_0_le_reg_r _ _ _ Hpos L1)|apply (Qcmult_lt_0_le_reg_r _ _ _ Hpos L2)].
Qed.
Print Assumptions C107_order.
(** A percentile separates the values: more than [(n - 1) p] are not above it, at least
    [(n - 1) (1 - p)] not below it. *)
Theorem C107_rank : forall p v x, interpolated p v x ->
  (qn (List.length v - 1) * p < qn (List.length (at_most x v)))%Qc /\ (qn (List.length v - 1) * (1 - p) <= qn (List.length (at_least x v)))%Qc.
Proof. intros p v x. apply interpolated_rank. Qed.
Print Assumptions C107_rank.
(** Missing values and the order of the realizations do not matter. *)
Theorem C107_realizations R col col' : symmetric R -> Permutation (present col) (present col') -> describe R col = describe R col'.
Proof.
  intros HR HP. unfold describe, present in *. set (v := somes col) in *. set (v' := somes col') in *. clearbody v v'.
  assert (L : List.length v = List.length v') by now apply Permutation_length.
  destruct v as [|a v]; [apply Permutation_nil in HP; subst v'; reflexivity|]. destruct v' as [|b v']; [discriminate|].
  assert (N : a :: v <> []) by discriminate. assert (N' : b :: v' <> []) by discriminate.
  assert (Emin : minimum (a :: v) = minimum (b :: v')).
  { destruct (minimum_spec N) as (m & -> & Hm). destruct (minimum_spec N') as (m' & -> & Hm'). f_equal. exact (least_unique HP Hm Hm'). }
  assert (Emax : maximum (a :: v) = maximum (b :: v')).
  { destruct (maximum_spec N) as (m & -> & Hm). destruct (maximum_spec N') as (m' & -> & Hm'). f_equal. exact (greatest_unique HP Hm Hm'). }
  assert (Eper : forall np, In np percentiles -> (fst np, percentile (snd np) (a :: v)) = (fst np, percentile (snd np) (b :: v'))).
  { intros [name p] Hin. cbn [fst snd]. f_equal. assert (Hp : (0 <= p)%Qc /\ (p <= 1)%Qc).
    { cbn in Hin. repeat (destruct Hin as [Hin|Hin]; [injection Hin as _ <-; split; apply Qcleb_true; reflexivity|]). destruct Hin. }
    destruct (percentile_ok N (proj1 Hp) (proj2 Hp)) as (x & -> & Hx). destruct (percentile_ok N' (proj1 Hp) (proj2 Hp)) as (x' & -> & Hx'). f_equal. exact (interpolated_unique HP Hx Hx'). }
  assert (Es : qsum (a :: v) = qsum (b :: v')) by now apply qsum_perm.
  assert (Em : mean (a :: v) = mean (b :: v')) by (unfold mean; now rewrite Es, L).
  assert (Ed : deviation R (a :: v) = deviation R (b :: v')).
  { unfold deviation. rewrite Es, L. destruct v as [|a2 v], v' as [|b2 v']; try discriminate L; [reflexivity|]. do 3 f_equal. apply qsum_perm. now apply Permutation_map. }
  rewrite L, Em, Ed, Emin, Emax, (HR _ _ HP), (map_ext_in _ _ _ Eper). reflexivity.
Qed.
Print Assumptions C107_realizations.
(** Other units: mean, extremes and percentiles are those of the sample in the other unit. *)
Theorem C107_units R col c name x : (0 < c)%Qc -> In name (["mean"; "min"; "max"] ++ map fst reported_percentiles) ->
  statistic R col name (Some x) -> statistic R (map (option_map (Qcmult c)) col) name (Some (c * x)%Qc).
Proof.
  intros Hc Hn Hs. set (col' := map (option_map (Qcmult c)) col).
  assert (Ev : present col' = map (Qcmult c) (present col)). { unfold present, col'. clear. induction col as [|[q|] l IH]; [reflexivity|cbn; f_equal; exact IH|exact IH]. }
  assert (Hv : present col <> []).
  { intros E. unfold statistic, describe, present in *. rewrite E in Hs. cbn in Hs. repeat (destruct Hs as [Hs|Hs]; [try discriminate Hs; injection Hs as <- _; cbn in Hn; intuition discriminate|]). destruct Hs. }
  assert (Hv' : present col' <> []) by (rewrite Ev; destruct (present col); [easy|discriminate]).
  pose proof (C107_statistics R col Hv) as H. pose proof (C107_statistics R col' Hv') as H'. cbv zeta in H, H'. rewrite Ev in H'.
  destruct H as (Nd & _ & (m & S1 & E1 & _) & (mn & S2 & L2) & (mx & S3 & L3) & _ & SP). destruct H' as (_ & _ & (m' & S1' & E1' & _) & (mn' & S2' & L2') & (mx' & S3' & L3') & _ & SP').
  assert (One : forall a b, statistic R col name a -> statistic R col name b -> a = b).
  { intros a b A B. unfold statistic in A, B. clear - Nd A B. induction (describe R col) as [|[k w] l IH]; [destruct A|]. inversion Nd as [|? ? N1 N2]; subst.
    destruct A as [A|A], B as [B|B]; [congruence| | |now apply IH]; exfalso; apply N1; apply in_map_iff; [exists (name, b)|exists (name, a)]; (split; [cbn; congruence|assumption]). }
  assert (Hsum : qsum (map (Qcmult c) (present col)) = (c * qsum (present col))%Qc).
  { clear. induction (present col) as [|a l IH]; [cbn; ring|]. change (c * a + qsum (map (Qcmult c) l) = c * (a + qsum l))%Qc. rewrite IH. ring. }
  apply in_app_or in Hn as [Hn|Hn].
  - cbn in Hn. destruct Hn as [<-|[<-|[<-|[]]]].
    + specialize (One _ _ S1 Hs). injection One as <-. replace (c * m)%Qc with m'; [exact S1'|].
      rewrite map_length, Hsum, <- E1 in E1'. assert (Hq : qn (List.length (present col)) <> 0%Qc) by (apply Qclt_neq, qn_pos; destruct (present col); [easy|cbn; lia]).
      transitivity (m' * qn (List.length (present col)) / qn (List.length (present col)))%Qc; [field; exact Hq|rewrite E1'; field; exact Hq].
    + specialize (One _ _ S2 Hs). injection One as <-. replace (c * mn)%Qc with mn'; [exact S2'|]. apply (@least_unique (map (Qcmult c) (present col)) (map (Qcmult c) (present col)) mn' (c * mn)%Qc); [reflexivity|exact L2'|].
      destruct L2 as [I2 B2]. split; [now apply in_map|]. intros y Hy. apply in_map_iff in Hy as (z & <- & Hz). specialize (B2 z Hz). qnra.
    + specialize (One _ _ S3 Hs). injection One as <-. replace (c * mx)%Qc with mx'; [exact S3'|]. apply (@greatest_unique (map (Qcmult c) (present col)) (map (Qcmult c) (present col)) mx' (c * mx)%Qc); [reflexivity|exact L3'|].
      destruct L3 as [I3 B3]. split; [now apply in_map|]. intros y Hy. apply in_map_iff in Hy as (z & <- & Hz). specialize (B3 z Hz). qnra.
  - apply in_map_iff in Hn as ([nm p] & E & Hp). cbn in E. subst nm. destruct (SP name p Hp) as (y & Sy & Iy). specialize (One _ _ Sy Hs). injection One as <-.
    destruct (SP' name p Hp) as (y' & Sy' & Iy'). replace (c * y)%Qc with y'; [exact Sy'|]. exact (interpolated_unique (Permutation_refl _) Iy' (interpolated_scaled Hc Iy)).
Qed.
Print Assumptions C107_units.
Example C107_concrete : let R := Roots (fun x => x) (fun _ => None) in let col := [Some (qc 4); None; Some (qc 1); Some (qc 2)] in
  present col <> [] /\ symmetric R /\ statistic R col "50%" (Some (qc 2)) /\ statistic R col "90%" (Some (qc (18 # 5))) /\ statistic R col "min" (Some (qc 1)) /\ statistic R col "mean" (Some (qc (7 # 3))).
Proof.
  cbv zeta. split; [discriminate|]. split; [intros v v' _; reflexivity|]. unfold statistic.
  assert (E : forall name x, dget name (describe (Roots (fun x => x) (fun _ => None)) [Some (qc 4); None; Some (qc 1); Some (qc 2)]) = Some x -> In (name, x) (describe (Roots (fun x => x) (fun _ => None)) [Some (qc 4); None; Some (qc 1); Some (qc 2)])).
  { intros name x. generalize (describe (Roots (fun x => x) (fun _ => None)) [Some (qc 4); None; Some (qc 1); Some (qc 2)]) as l. induction l as [|[k w] l IH]; [discriminate|]. cbn. destruct (String.eqb_spec name k) as [->|]; [intros [= ->]; now left|right; now apply IH]. }
  repeat split; apply E; vm_compute; do 2 f_equal; now apply Qc_is_canon.
Qed.

(** * C62 Saved component quantities *)

(** Adding up colocated components keeps the quantity of each component, location and direction. *)
Theorem C62_assets : forall n colocated s cmp loc dir i, (i < n)%nat ->
  amount (fun l => level_is 0 cmp l && level_is 1 loc l && level_is 2 dir l)%bool i (asset_saved n colocated s) =
  amount (fun l => level_is 0 cmp l && level_is 1 loc l && level_is 2 dir l)%bool i s.
Proof.
  intros n colocated s cmp loc dir i Hi. unfold asset_saved. destruct colocated; [|reflexivity]. rewrite amount_group by exact Hi. unfold amount. f_equal.
Qed.
Print Assumptions C62_assets.
(** Every saved column keeps the unit, if colocated components have one. *)
Theorem C62_asset_units : forall colocated units label u, In (label, u) (asset_units colocated units) ->
  (forall a b, In a units -> In b units -> pick [0; 1; 2]%nat (fst a) = pick [0; 1; 2]%nat (fst b) -> snd a = snd b) ->
  forall a, In a units -> (if colocated then pick [0; 1; 2]%nat (fst a) = label else a = (label, u)) -> snd a = u.
Proof.
  intros colocated units label u Hin Hsame a Ha Hl. destruct colocated; [|now subst a]. unfold asset_units in Hin. apply in_map_iff in Hin as ([k us] & E & Hg). cbn [fst snd] in E. injection E as -> <-.
  unfold groupby in Hg. apply in_map_iff in Hg as (k & E & _). injection E as -> <-. unfold group_rows.
  match goal with |- _ = hd "" (map snd (filter ?f ?l)) => destruct (filter f l) as [|b r] eqn:Ef end.
  - exfalso. assert (X : In (pick [0; 1; 2]%nat (fst a), snd a) (filter (fun kv => label_eqb label (fst kv)) (map (fun u => (pick [0; 1; 2]%nat (fst u), snd u)) units))); [|refine (eq_ind _ (fun l => In _ l) X _ Ef)].
    apply filter_In. split; [apply in_map_iff; now exists a|]. cbn. apply label_eqb_eq. now symmetry.
  - cbn. assert (X : In b (filter (fun kv => label_eqb label (fst kv)) (map (fun u => (pick [0; 1; 2]%nat (fst u), snd u)) units))) by (refine (@eq_ind_r _ (b :: r) (fun l => In b l) (or_introl eq_refl) _ Ef)).
    apply filter_In in X as [X1 X2]. apply in_map_iff in X1 as (b' & <- & Hb'). cbn [fst snd] in *. apply label_eqb_eq in X2. apply Hsame; [exact Ha|exact Hb'|]. now rewrite Hl.
Qed.
Print Assumptions C62_asset_units.
Example C62_assets_concrete : asset_saved 1 true [(["B10"; "1"; "1"; "0"], [Some (qc 2)]); (["B10"; "1"; "1"; "1"], [Some (qc 3)]); (["B10"; "2"; "1"; "0"], [Some (qc 4)])] =
    [(["B10"; "1"; "1"], [Some (qc 5)]); (["B10"; "2"; "1"], [Some (qc 4)])] /\
  asset_units true [(["B10"; "1"; "1"; "0"], "ea"); (["B10"; "1"; "1"; "1"], "ea"); (["B10"; "2"; "1"; "0"], "ea")] = [(["B10"; "1"; "1"], "ea"); (["B10"; "2"; "1"], "ea")].
Proof. split; [|reflexivity]. vm_compute. reflexivity. Qed.
