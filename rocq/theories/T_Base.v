(** Property theorems about pelicun/base.py (C02 to C10). *)
From Coq Require Import Sorting.Permutation Sorting.Sorted.
From Verif Require Import Prelude PreludeFacts M_Base S_Base P_Base.
Local Open Scope string_scope.
Local Open Scope list_scope.

(** * C02 Unit conversion *)

(** Without a category argument: accepted exactly when one category knows both units. *)
Theorem C02_accepted_iff : forall all_units values u t,
  one_category all_units ->
  (is_ok (convert_units all_units values u t None) = true <->
   exists c us, In (c, us) all_units /\ In u (keys us) /\ In t (keys us)).
Proof. exact convert_units_accept. Qed.
Print Assumptions C02_accepted_iff.

(** With a category argument: accepted exactly when that category knows both. *)
Theorem C02_accepted_category_iff : forall all_units values u t c,
  c <> "" ->
  (is_ok (convert_units all_units values u t (Some c)) = true <->
   exists us, dget c all_units = Some us /\ In u (keys us) /\ In t (keys us)).
Proof. exact convert_units_accept_cat. Qed.
Print Assumptions C02_accepted_category_iff.

Theorem C02_round_trip : forall all_units values u t there,
  one_category all_units -> nonzero_factors all_units ->
  convert_units all_units values u t None = Ok there ->
  convert_units all_units there t u None = Ok values.
Proof. exact convert_units_round_trip. Qed.
Print Assumptions C02_round_trip.

Theorem C02_composition : forall all_units values u t w mid final,
  one_category all_units -> nonzero_factors all_units ->
  convert_units all_units values u t None = Ok mid ->
  convert_units all_units mid t w None = Ok final ->
  convert_units all_units values u w None = Ok final.
Proof. exact convert_units_compose. Qed.
Print Assumptions C02_composition.

Theorem C02_linear : forall all_units values u t cat res c,
  convert_units all_units values u t cat = Ok res ->
  convert_units all_units (map (Qcmult c) values) u t cat = Ok (map (Qcmult c) res).
Proof. exact convert_units_linear. Qed.
Print Assumptions C02_linear.

(** The factors have their documented meaning: a unit with factor [f] is [f] base units. *)
Theorem C02_value : forall all_units values u t res,
  convert_units all_units values u t None = Ok res ->
  exists c us f g, In (c, us) all_units /\ dget u us = Some f /\ dget t us = Some g /\
    res = map (fun v => v * f / g)%Qc values.
Proof. exact convert_units_value. Qed.
Print Assumptions C02_value.

Definition demo_units : dict (dict Qc) :=
  [("length", [("m", qc 1); ("cm", qc (1#100)); ("ft", qc (3048#10000))]);
   ("time", [("sec", qc 1); ("min", qc 60)])].
Example C02_hypotheses_met : one_category demo_units /\ nonzero_factors demo_units /\
  convert_units demo_units [qc 2; qc (1#2)] "m" "cm" None = Ok [qc 200; qc 50] /\
  convert_units demo_units [qc 2] "m" "sec" None = Err ValueError /\
  convert_units demo_units [qc 2] "m" "min" (Some "time") = Err ValueError.
Proof.
  split; [|split].
  - intros c1 us1 c2 us2 u H1 H2 Hu1 Hu2. simpl in H1, H2.
    destruct H1 as [H1|[H1|[]]], H2 as [H2|[H2|[]]]; injection H1 as <- <-; injection H2 as <- <-; auto;
    simpl in Hu1, Hu2; intuition congruence.
  - intros c us u f H1 H2. simpl in H1.
    destruct H1 as [H1|[H1|[]]]; injection H1 as <- <-; simpl in H2;
    repeat destruct H2 as [H2|H2]; try easy; injection H2 as <- <-; intros E;
    apply Qc_eq_iff in E; vm_compute in E; discriminate.
  - qcr.
Qed.

(** * C03 Units file *)

(** A document is accepted exactly when it is a dictionary of categories with distinct
    names, every value is number-like and no unit is defined twice anywhere. *)
Theorem C03_accepted_iff : forall pyfloat doc,
  is_ok (parse_units pyfloat doc) = true <-> good_units_doc pyfloat doc.
Proof.
  intros pf doc. rewrite parse_units_ok_iff. unfold good_doc_float, good_units_doc.
  split; intros (d & E & N1 & N2 & H); exists d; repeat (split; [assumption|]); intros cat v Hv; destruct (H cat v Hv) as (cd & E2 & H2); exists cd; (split; [exact E2|]);
    intros u w Hw; destruct (H2 u w Hw) as (x & Hx); exists x; now apply to_float_number.
Qed.
Print Assumptions C03_accepted_iff.

(** The resulting table has one entry per unit: exactly the units defined, with the
    factor given. *)
Theorem C03_exact : forall pyfloat doc r,
  parse_units pyfloat doc = Ok r ->
  NoDup (keys r) /\ forall u x, dget u r = Some x <-> defines pyfloat doc u x.
Proof.
  intros pf doc r H. destruct (parse_units_sound _ _ H) as [N D]. split; [exact N|]. intros u x. rewrite D. unfold defines_float, defines.
  split; intros (d & cat & cd & v & E & H1 & H2 & H3); exists d, cat, cd, v; repeat (split; [assumption|]); now apply to_float_number.
Qed.
Print Assumptions C03_exact.

Definition no_strings : string -> option num := fun _ => None.
Example C03_hypotheses_met :
  good_units_doc no_strings (JDict [("length", JDict [("m", JNum (qc 1)); ("ft", JNum (qc (3048#10000)))]);
                                    ("time", JDict [("sec", JNum (qc 1))])]) /\
  parse_units no_strings (JDict [("length", JDict [("m", JNum (qc 1))]);
                                 ("mass", JDict [("m", JNum (qc 2))])]) = Err ValueError /\
  parse_units no_strings (JDict [("length", JDict [("m", JNum (qc 1)); ("m", JNum (qc 2))])]) = Err ValueError /\
  parse_units no_strings (JDict [("length", JNum (qc 1))]) = Err TypeError.
Proof. split; [apply C03_accepted_iff|]; qcr. Qed.

(** * C04 Joined labels *)

(** Round trip for labels of equal depth whose levels contain no dash. *)
Theorem C04_round_trip_partial : forall n labels,
  (1 < n)%nat -> labels <> [] ->
  Forall (fun lab => List.length lab = n /\ Forall no_dash lab) labels ->
  to_multi_index (to_simple_index (Multi n labels)) = Ok (Multi n labels).
Proof. exact simple_multi_round_trip. Qed.
Print Assumptions C04_round_trip_partial.

(** Expanding and joining simple labels of equal depth is lossless. *)
Theorem C04_round_trip_back_partial : forall labels n m,
  (1 < n)%nat -> labels <> [] ->
  Forall (fun s => List.length (split_on "-" s) = n) labels ->
  to_multi_index (Flat labels) = Ok m ->
  to_simple_index m = Flat labels.
Proof. exact multi_simple_round_trip. Qed.
Print Assumptions C04_round_trip_back_partial.

(** Expanding: as many levels as the longest label has pieces; each label gives its own pieces,
    followed by empty strings. *)
Theorem C04_expand : forall labels n rows,
  to_multi_index (Flat labels) = Ok (Multi n rows) ->
  (1 < n)%nat /\ List.length rows = List.length labels /\
  (exists s, In s labels /\ List.length (split_on "-" s) = n) /\
  forall i s, nth_error labels i = Some s ->
    exists k, nth_error rows i = Some (split_on "-" s ++ repeat ""%string k) /\
              (List.length (split_on "-" s) + k = n)%nat.
Proof. exact expand_rows. Qed.
Print Assumptions C04_expand.

(** Labels none of which has a dash stay as they are. *)
Theorem C04_expand_flat : forall labels, labels <> [] -> Forall no_dash labels ->
  to_multi_index (Flat labels) = Ok (Flat labels).
Proof. exact expand_flat. Qed.
Print Assumptions C04_expand_flat.

(** Tables: the axis asked for is converted, the other one stays as it is, any other axis is
    rejected; there and back for both axes. *)
Theorem C04_axis : forall axis rows cols,
  (forall r c, convert_to_SimpleIndex axis rows cols = Ok (r, c) \/ convert_to_MultiIndex axis rows cols = Ok (r, c) ->
     (axis = 0%Z /\ c = cols) \/ (axis = 1%Z /\ r = rows)) /\
  (axis <> 0%Z -> axis <> 1%Z -> convert_to_SimpleIndex axis rows cols = Err ValueError /\ convert_to_MultiIndex axis rows cols = Err ValueError).
Proof.
  intros axis rows cols. unfold convert_to_SimpleIndex, convert_to_MultiIndex. destruct (Z.eqb_spec axis 0) as [->|N0]; [|destruct (Z.eqb_spec axis 1) as [->|N1]].
  - split; [|easy]. intros r c [H|H]; left; split; try reflexivity; [now injection H|]. destruct (to_multi_index rows); [now injection H|discriminate H].
  - split; [|easy]. intros r c [H|H]; right; split; try reflexivity; [now injection H|]. destruct (to_multi_index cols); [now injection H|discriminate H].
  - split; [|easy]. intros r c [H|H]; discriminate H.
Qed.
Print Assumptions C04_axis.
Theorem C04_table_round_trip_partial : forall (axis : Z) n labels other,
  (1 < n)%nat -> labels <> [] -> Forall (fun lab => List.length lab = n /\ Forall no_dash lab) labels ->
  let table := if Z.eqb axis 0 then (Multi n labels, other) else (other, Multi n labels) in
  axis = 0%Z \/ axis = 1%Z ->
  exists r c, convert_to_SimpleIndex axis (fst table) (snd table) = Ok (r, c) /\ convert_to_MultiIndex axis r c = Ok table.
Proof.
  intros axis n labels other Hn Hl Hf table Ha. pose proof (C04_round_trip_partial n labels Hn Hl Hf) as R.
  destruct Ha as [-> | ->]; cbn [table Z.eqb fst snd]; unfold convert_to_SimpleIndex, convert_to_MultiIndex; cbn [Z.eqb Pos.eqb]; eexists; eexists; (split; [reflexivity|]); now rewrite R.
Qed.
Print Assumptions C04_table_round_trip_partial.

Example C04_hypotheses_met :
  to_simple_index (Multi 3 [["PID"; "1"; "2"]; ["PFA"; "0"; "1"]]) = Flat ["PID-1-2"; "PFA-0-1"] /\
  to_multi_index (Flat ["PID-1-2"; "PFA-0-1"]) = Ok (Multi 3 [["PID"; "1"; "2"]; ["PFA"; "0"; "1"]]).
Proof. qcr. Qed.

(** A dash inside a level (a negative number, a component id such as "A-1") breaks the
    round trip: the label comes back with a different depth. *)
Theorem C04_refuted : exists n labels,
  (1 < n)%nat /\ Forall (fun lab => List.length lab = n) labels /\
  to_multi_index (to_simple_index (Multi n labels)) <> Ok (Multi n labels).
Proof. exists 2%nat, [["A-1"; "2"]]. vm_compute. repeat split; [constructor; auto..|congruence]. Qed.
Print Assumptions C04_refuted.

(** Simple labels of different depth do not come back either: "c" becomes "c-". *)
Theorem C04_back_refuted : exists labels m,
  to_multi_index (Flat labels) = Ok m /\ to_simple_index m <> Flat labels.
Proof. exists ["a-b"; "c"], (Multi 2 [["a"; "b"]; ["c"; ""]]). vm_compute. split; congruence. Qed.
Print Assumptions C04_back_refuted.

(** * C05 Merging defaults *)

(** The merged configuration, setting by setting: what the user gave is kept, what only
    the defaults have is added, nothing else appears. *)
Theorem C05_merge_by_path : forall ks user defaults merged,
  wf_json (JDict defaults) ->
  merge_default_config defaults (Some user) = Ok merged ->
  match lookup (JDict user) ks, lookup (JDict defaults) ks with
  | Some a, _ => if is_dict a then exists b, lookup (JDict merged) ks = Some (JDict b)
                 else lookup (JDict merged) ks = Some a
  | None, Some b => if is_dict b then exists c, lookup (JDict merged) ks = Some (JDict c)
                    else lookup (JDict merged) ks = Some b
  | None, None => lookup (JDict merged) ks = None
  end.
Proof. exact update_vals_lookup. Qed.
Print Assumptions C05_merge_by_path.

(** Rejected exactly when a group of settings meets a plain value. *)
Theorem C05_rejected_iff : forall user defaults,
  wf_json (JDict defaults) ->
  (is_ok (merge_default_config defaults (Some user)) = true <-> ~ clash (JDict user) (JDict defaults)).
Proof. exact (fun user defaults H => update_vals_ok_iff user (le_n _) H). Qed.
Print Assumptions C05_rejected_iff.

Theorem C05_idempotent : forall user defaults merged,
  wf_json (JDict defaults) ->
  merge_default_config defaults (Some user) = Ok merged ->
  merge_default_config defaults (Some merged) = Ok merged.
Proof. exact (fun user defaults merged H => update_vals_idem user (le_n _) H). Qed.
Print Assumptions C05_idempotent.

(** No configuration at all means the defaults. *)
Theorem C05_no_user_config : forall defaults,
  merge_default_config defaults None = merge_default_config defaults (Some []).
Proof. exact (fun d => eq_refl). Qed.
Print Assumptions C05_no_user_config.

Definition demo_defaults : dict json :=
  [("SampleSize", JNum (qc 1000));
   ("Log", JDict [("Verbose", JBool false); ("File", JNull)])].
Example C05_hypotheses_met : wf_json (JDict demo_defaults) /\
  merge_default_config demo_defaults (Some [("Log", JDict [("Verbose", JBool true)]); ("X", JNull)])
  = Ok [("Log", JDict [("Verbose", JBool true); ("File", JNull)]); ("X", JNull);
        ("SampleSize", JNum (qc 1000))] /\
  merge_default_config demo_defaults (Some [("Log", JBool true)]) = Err ValueError /\
  merge_default_config demo_defaults (Some [("SampleSize", JDict [])]) = Err ValueError.
Proof.
  split; [|qcr].
  repeat constructor; simpl; intuition congruence.
Qed.

(** * C06 Nested read and write *)

(** Writing then reading returns the value; every other path reads as before. *)
Theorem C06_update_get : forall np22 d ks value,
  good_keys ks ->
  exists d', update np22 false d (join "/" ks) value = Ok d' /\
    (forall def, get (Some d') (join "/" ks) def = value) /\
    forall qs def, good_keys qs -> diverge ks qs ->
      get (Some d') (join "/" qs) def = get (Some d) (join "/" qs) def.
Proof. exact update_then_get. Qed.
Print Assumptions C06_update_get.

(** With [only_if_empty_or_none]: the value is written exactly when the present one is
    unspecified, everything else reads as before. *)
Theorem C06_update_only_if : forall np22 d ks value d',
  good_keys ks -> update np22 true d (join "/" ks) value = Ok d' ->
  let old := match lookup (JDict d) ks with Some x => x | None => JNull end in
  exists b, value_unspecified np22 old = Ok b /\
    lookup (JDict d') ks = (if b then Some value else lookup (JDict d) ks) /\
    (forall q, diverge ks q -> lookup (JDict d') q = lookup (JDict d) q).
Proof. exact update_only_if. Qed.
Print Assumptions C06_update_only_if.

(** Reading follows the keys; a missing path gives the default. *)
Theorem C06_get_spec : forall d ks def, good_keys ks ->
  get (Some d) (join "/" ks) def = match lookup (JDict d) ks with Some x => x | None => def end.
Proof. exact get_lookup. Qed.
Print Assumptions C06_get_spec.

(** Without a configuration everything has its default. *)
Theorem C06_get_none : forall path def, get None path def = def.
Proof. reflexivity. Qed.
Print Assumptions C06_get_none.

(** Leading and trailing slashes do not matter. *)
Theorem C06_slashes : forall d p def,
  get d ("/" ++ p) def = get d p def /\ get d (p ++ "/") def = get d p def.
Proof. exact get_slashes. Qed.
Print Assumptions C06_slashes.

(** A list setting with two or more elements cannot be tested for being specified:
    [is_unspecified] (and hence a conditional update) raises. *)
Theorem C06_is_unspecified_list_refuted : forall np22,
  exists d path, get (Some d) path JNull = JList [JNum (qc 1); JNum (qc 2)] /\
    is_unspecified np22 d path = Err ValueError /\
    update np22 true d path JNull = Err ValueError.
Proof. exact is_unspecified_list. Qed.
Print Assumptions C06_is_unspecified_list_refuted.

(** What counts as unspecified, whenever the test gives an answer. *)
Theorem C06_unspecified : forall np22 d ks b, good_keys ks ->
  is_unspecified np22 d (join "/" ks) = Ok b ->
  (b = true <-> match lookup (JDict d) ks with Some v => not_given v | None => True end).
Proof. exact unspecified_iff. Qed.
Print Assumptions C06_unspecified.

(** It gives one except for longer lists, and for empty lists with numpy 2.2 or newer. *)
Theorem C06_unspecified_answers : forall np22 d ks, good_keys ks ->
  (is_ok (is_unspecified np22 d (join "/" ks)) = true <->
   forall l, lookup (JDict d) ks = Some (JList l) ->
     List.length l = 1%nat \/ (l = [] /\ np22 = false)).
Proof. exact unspecified_ok. Qed.
Print Assumptions C06_unspecified_answers.

Example C06_hypotheses_met : good_keys ["DL"; "Outputs"; "Format"] /\
  diverge ["DL"; "Outputs"; "Format"] ["DL"; "Asset"] /\
  update true false [("DL", JDict [("Asset", JNum (qc 3))])] "DL/Outputs/Format" (JStr "csv")
  = Ok [("DL", JDict [("Asset", JNum (qc 3)); ("Outputs", JDict [("Format", JStr "csv")])])].
Proof.
  split; [split; [congruence|repeat constructor; simpl; congruence]|].
  split; [right; left; congruence|reflexivity].
Qed.

(** * C07 Unique index *)

(** All labels of the result are distinct. *)
Theorem C07_unique : forall A (rows : list (list string * A)), NoDup (map fst (dedupe_index rows)).
Proof. exact (fun A rows => dedupe_NoDup rows). Qed.
Print Assumptions C07_unique.

(** Dropping the added level gives back exactly the rows (as a multiset). *)
Theorem C07_nothing_lost : forall A (rows : list (list string * A)),
  Permutation (map (fun e => (removelast (fst e), snd e)) (dedupe_index rows)) rows.
Proof. exact (fun A rows => dedupe_perm rows). Qed.
Print Assumptions C07_nothing_lost.

(** The i-th row gets the number of earlier rows with the same label. *)
Theorem C07_uid : forall A (rows : list (list string * A)) i lab a,
  nth_error rows i = Some (lab, a) ->
  In (lab ++ [str_of_nat (occurrences lab (map fst (firstn i rows)))], a) (dedupe_index rows).
Proof. exact (fun A rows i lab a => @dedupe_complete A rows i lab a). Qed.
Print Assumptions C07_uid.

(** Rows come out in label order. *)
Theorem C07_sorted : forall A (rows : list (list string * A)),
  StronglySorted (fun a b => label_le (fst a) (fst b) = true) (dedupe_index rows).
Proof. exact (fun A rows => dedupe_sorted rows). Qed.
Print Assumptions C07_sorted.

Example C07_concrete :
  dedupe_index [(["b"; "1"], 10%nat); (["a"; "1"], 20%nat); (["b"; "1"], 30%nat)]
  = [(["a"; "1"; "0"], 20%nat); (["b"; "1"; "0"], 10%nat); (["b"; "1"; "1"], 30%nat)].
Proof. vm_compute. reflexivity. Qed.

(** * C08 Inverting a mapping *)

Theorem C08_accepted_iff : forall m,
  is_ok (invert_mapping m) = true <-> NoDup (flat_map snd m).
Proof. exact invert_ok_iff. Qed.
Print Assumptions C08_accepted_iff.

Theorem C08_inverse : forall m r v k,
  invert_mapping m = Ok r ->
  (dget v r = Some k <-> exists vs, In (k, vs) m /\ In v vs).
Proof. exact (fun m r v k => @invert_lookup m r v k). Qed.
Print Assumptions C08_inverse.

Example C08_hypotheses_met :
  invert_mapping [("a", ["1"; "2"]); ("b", []); ("c", ["3"])] = Ok [("1", "a"); ("2", "a"); ("3", "c")] /\
  invert_mapping [("a", ["1"]); ("b", ["1"])] = Err ValueError.
Proof. qcr. Qed.

(** * C09 Selective scaling *)

Theorem C09_accepted_iff : forall axis raise t conds f,
  NoDup (levels t) ->
  (is_ok (multiply_factor axis raise t conds f) = true <->
   (axis = 0 \/ axis = 1)%Z /\ (forall lv v, In (lv, v) conds -> In lv (levels t)) /\
   (raise = true -> exists e, In e (entries t) /\ satisfies (levels t) conds (fst e))).
Proof. exact multiply_factor_ok_iff. Qed.
Print Assumptions C09_accepted_iff.

(** Exactly the matching entries are scaled, the others and all labels are unchanged. *)
Theorem C09_effect : forall axis raise t conds f t',
  NoDup (levels t) ->
  multiply_factor axis raise t conds f = Ok t' ->
  levels t' = levels t /\
  Forall2 (fun e e' => fst e' = fst e /\
             (satisfies (levels t) conds (fst e) -> scaled_by f (snd e) (snd e')) /\
             (~ satisfies (levels t) conds (fst e) -> snd e' = snd e))
          (entries t) (entries t').
Proof. exact multiply_factor_effect. Qed.
Print Assumptions C09_effect.

Theorem C09_commute : forall axis raise t c1 f1 c2 f2,
  NoDup (levels t) ->
  is_ok (multiply_factor axis raise t c1 f1) = true ->
  is_ok (multiply_factor axis raise t c2 f2) = true ->
  (let* a := multiply_factor axis raise t c1 f1 in multiply_factor axis raise a c2 f2) =
  (let* a := multiply_factor axis raise t c2 f2 in multiply_factor axis raise a c1 f1).
Proof. exact multiply_factor_commute. Qed.
Print Assumptions C09_commute.

Definition demo_table : table :=
  {| levels := ["dv"; "loc"];
     entries := [(["Cost"; "1"], [Some (qc 2); None]); (["Time"; "1"], [Some (qc 4); Some (qc 5)])] |}.
Example C09_hypotheses_met : NoDup (levels demo_table) /\
  multiply_factor 1 true demo_table [("dv", "Cost"); ("loc", "1")] (qc 3)
  = Ok {| levels := ["dv"; "loc"];
          entries := [(["Cost"; "1"], [Some (qc 6); None]); (["Time"; "1"], [Some (qc 4); Some (qc 5)])] |} /\
  multiply_factor 1 true demo_table [("dv", "Carbon")] (qc 3) = Err ValueError /\
  multiply_factor 1 false demo_table [("dv", "Carbon")] (qc 3) = Ok demo_table /\
  multiply_factor 2 true demo_table [] (qc 3) = Err ValueError.
Proof.
  split; [repeat constructor; simpl; intuition congruence|]. qcr.
Qed.

(** * C10 Warnings *)

(** No message is ever printed twice, over any history. *)
Theorem C10_at_most_once : forall spaces red reset ops,
  NoDup (printed (log_run spaces red reset ops)).
Proof. exact warnings_once. Qed.
Print Assumptions C10_at_most_once.

(** After an emit every message added so far has been printed. *)
Theorem C10_all_shown : forall spaces red reset ops o m,
  (o = EmitWarnings \/ exists w, o = Warning w) ->
  In m (all_added (ops ++ [o])) ->
  In (format_warning spaces red reset m) (printed (log_run spaces red reset (ops ++ [o]))).
Proof. exact warnings_complete. Qed.
Print Assumptions C10_all_shown.

(** Only messages that were added are printed. *)
Theorem C10_only_added : forall spaces red reset ops m,
  In m (printed (log_run spaces red reset ops)) ->
  exists x, In x (all_added ops) /\ m = format_warning spaces red reset x.
Proof. exact warnings_sound. Qed.
Print Assumptions C10_only_added.

(** Different messages are never confused by the formatting. *)
Theorem C10_messages_distinct : forall spaces red reset,
  no_newline spaces -> no_newline red -> no_newline reset ->
  forall a b, format_warning spaces red reset a = format_warning spaces red reset b -> a = b.
Proof. exact format_inj. Qed.
Print Assumptions C10_messages_distinct.

Example C10_concrete :
  map String.length (printed (log_run "  " "<" ">" [AddWarning "a"; AddWarning "a"; Warning "bb"; AddWarning "a"; EmitWarnings]))
  = [7%nat; 8%nat] /\ no_newline "  ".
Proof. qcr. Qed.
