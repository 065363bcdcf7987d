(** Property theorems: saving and loading tables (C01, C67). *)
From Coq Require Import Sorting.Permutation Sorting.Sorted.
From Verif Require Import Prelude PreludeFacts Pandas M_Base S_Base M_FileIO S_FileIO P_FileIO.
Local Open Scope string_scope.
Local Open Scope list_scope.

(** * C01 Saving and reloading is lossless *)

(** Tables whose variables are columns: the reload gives every column back with its values and
    the units of the columns that have one, whatever the factors. *)
Theorem C01_round_trip_partial : forall factors units (simple : bool) n t,
  (1 <= n)%nat -> good_labels n (map fst t) ->
  NoDup (map fst units) -> known_units factors (map snd units) ->
  exists s t' us',
    save_columns (Some factors) (Some units) simple n t = Ok s /\
    load_columns (Some factors) s = Ok (t', Some us') /\
    Permutation t' t /\
    StronglySorted (fun a b => label_le (fst a) (fst b) = true) t' /\
    (forall lab u, In (lab, u) us' <-> In (lab, u) units /\ In lab (map fst t)).
Proof.
  intros factors units simple n t Hn Hg Hnd Hk.
  destruct (round_trip factors units simple n t Hn Hg Hnd Hk) as (s & us' & Hs & Hl & Hu).
  exists s, (sort_labels t), us'. split; [exact Hs|]. split; [exact Hl|]. split; [apply sort_labels_perm|].
  split; [apply sort_labels_sorted|exact Hu].
Qed.
Print Assumptions C01_round_trip_partial.

(** The file itself: every column once, divided by the factor of its unit, which is written
    above it; a column without a unit is written as it is. *)
Theorem C01_file : forall factors units (simple : bool) n t s,
  (1 <= n)%nat -> good_labels n (map fst t) -> NoDup (map fst units) ->
  known_units factors (map snd units) ->
  save_columns (Some factors) (Some units) simple n t = Ok s ->
  List.length (file_columns s) = List.length t /\
  forall lab vs, In (lab, vs) t ->
    exists o vs', In (if simple then [join "-" lab] else lab, o, vs') (file_columns s) /\
                  appears_as factors units lab vs o vs'.
Proof. exact file_content. Qed.
Print Assumptions C01_file.

(** Units cannot be written without knowing their factors. *)
Theorem C01_needs_factors : forall units simple n t,
  save_columns None (Some units) simple n t = Err ValueError.
Proof. reflexivity. Qed.
Print Assumptions C01_needs_factors.

(** Without a units assignment nothing is scaled, with or without factors. *)
Theorem C01_no_units : forall f1 f2 (simple : bool) n t,
  (1 <= n)%nat -> good_labels n (map fst t) ->
  exists s t', save_columns f1 None simple n t = Ok s /\
    load_columns f2 s = Ok (t', None) /\ Permutation t' t.
Proof.
  intros f1 f2 simple n t Hn Hg. destruct (round_trip_plain f1 f2 simple n t Hn Hg) as (s & Hs & Hl).
  exists s, (sort_labels t). split; [exact Hs|]. split; [exact Hl|]. apply sort_labels_perm.
Qed.
Print Assumptions C01_no_units.

Definition ex_factors : dict Qc := [("m", 1%Qc); ("in", qc (254#10000)); ("g", qc (981#100))].
Definition ex_table : frame :=
  [(["PID"; "1"; "2"], [Some (qc (1#100)); None]); (["PFA"; "0"; "1"], [Some (qc 3); Some (qc (-2))])].
Definition ex_units : units_map := [(["PFA"; "0"; "1"], "g"); (["PFD"; "9"; "9"], "in")].

Example C01_hypotheses_met :
  good_labels 3 (map fst ex_table) /\ NoDup (map fst ex_units) /\
  known_units ex_factors (map snd ex_units) /\
  save_columns (Some ex_factors) (Some ex_units) true 3 ex_table =
    Ok {| header := Flat ["PFA-0-1"; "PID-1-2"];
          unit_row := Some [Some "g"; None];
          cells := [[Some (qc (300#981)); Some (qc (-200#981))]; [Some (qc (1#100)); None]] |}.
Proof.
  split; [|split; [|split]].
  - split; [easy|]. split.
    + repeat constructor; simpl; intuition congruence.
    + repeat constructor.
  - repeat constructor; simpl; intuition congruence.
  - repeat constructor; simpl; eexists; (split; [reflexivity|]); intros H; discriminate H.
  - qcr.
Qed.

(** Tables whose variables are rows: the round trip would hold if the test "is this column
    numeric" recognised numeric columns. *)
Theorem C01_rows_partial : forall factors (units : dict string) t,
  NoDup (keys units) -> known_units factors (map snd units) ->
  Forall (fun e => List.length (snd e) = List.length (numeric_cols t)) (rows t) ->
  exists s t',
    save_rows true factors units t = Ok s /\ load_rows factors s = t' /\
    numeric_cols t' = numeric_cols t /\ Permutation (rows t') (rows t).
Proof. exact rows_round_trip. Qed.
Print Assumptions C01_rows_partial.

(** With the test as it is evaluated (a numpy dtype is not found in a set of Python types) no
    value is divided by its factor on saving, so a reload multiplies the values: 2 inches come
    back as 0.0508 inches. *)
Theorem C01_rows_refuted : exists factors (units : dict string) t s,
  NoDup (keys units) /\ known_units factors (map snd units) /\
  rows t = [("a", [CNum (Some (qc 2)); CStr "x"])] /\
  save_rows false factors units t = Ok s /\
  rows (load_rows factors s) = [("a", [CNum (Some (qc (508#10000))); CStr "x"])].
Proof.
  exists ex_factors, [("a", "in")], {| numeric_cols := [true; false]; rows := [("a", [CNum (Some (qc 2)); CStr "x"])] |}.
  eexists. split; [repeat constructor; simpl; tauto|]. split.
  - repeat constructor; simpl; eexists; (split; [reflexivity|]); intros H; discriminate H.
  - split; [reflexivity|]. split; [vm_compute; reflexivity|]. vm_compute.
    do 5 f_equal. apply Qc_is_canon. reflexivity.
Qed.
Print Assumptions C01_rows_refuted.

Example C01_rows_hypotheses_met :
  exists s, save_rows true ex_factors [("a", "in")]
    {| numeric_cols := [true; false]; rows := [("b", [CNum (Some (qc 5)); CStr "y"]); ("a", [CNum (Some (qc (508#10000))); CStr "x"])] |}
    = Ok s /\ rows (fst s) = [("a", [CNum (Some (qc 2)); CStr "x"]); ("b", [CNum (Some (qc 5)); CStr "y"])]
    /\ snd s = [Some "in"; None].
Proof. eexists. split; [vm_compute; reflexivity|]. split; [|reflexivity]. vm_compute. do 5 f_equal. apply Qc_is_canon. reflexivity. Qed.

(** * C67 Unknown units *)

(** Saving in a unit that has no conversion factor is rejected. *)
Theorem C67_save_partial : forall factors units simple n t u,
  In u (map snd units) -> dget u factors = None ->
  is_ok (save_columns (Some factors) (Some units) simple n t) = false.
Proof.
  intros factors units simple n t u Hu E. apply (save_unknown factors units simple n t u Hu).
  intros f Ef. congruence.
Qed.
Print Assumptions C67_save_partial.

(** Loading is not: a misspelt unit is read as if the values were in base units. *)
Theorem C67_refuted : exists factors s u t us,
  unit_row s = Some [Some u] /\ dget u factors = None /\
  load_columns (Some factors) s = Ok (t, us) /\ t = [(["PFA"; "0"; "1"], [Some (qc 3)])].
Proof.
  exists ex_factors, {| header := Flat ["PFA-0-1"]; unit_row := Some [Some "gg"]; cells := [[Some (qc 3)]] |}, "gg".
  eexists. eexists. split; [reflexivity|]. split; [reflexivity|]. split; [vm_compute; reflexivity|].
  reflexivity.
Qed.
Print Assumptions C67_refuted.

Example C67_hypotheses_met : In "gg" (map snd [(["PFA"; "0"; "1"], "gg")]) /\ dget "gg" ex_factors = None.
Proof. split; [now left|reflexivity]. Qed.
