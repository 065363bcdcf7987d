(** Property theorems about locations, directions and component assignments (C11, C12, C74). *)
From Coq Require Import Sorting.Permutation Sorting.Sorted.
From Verif Require Import Prelude PreludeFacts M_Base M_Damage M_Scaling M_Params M_Asset S_Base S_Damage S_Params S_Asset P_Base P_Params P_Loc P_Asset.
Local Open Scope string_scope.
Local Open Scope list_scope.

(** * C11 *)

(** The documented forms of a location denote what they say. *)
Theorem C11_locations : forall n s zs, location_form n s zs -> get_locations (Some n) s = Ok (map str_of_Z zs).
Proof. exact location_form_ok. Qed.
Print Assumptions C11_locations.
(** So do the documented forms of a direction. *)
Theorem C11_directions : forall s zs, direction_form s zs -> get_directions (Some s) = Ok (map str_of_Z zs).
Proof. exact direction_form_ok. Qed.
Print Assumptions C11_directions.
Example C11_forms_hypotheses_met :
  location_form 4 "2--4" [2; 3; 4]%Z /\ location_form 4 "1, 3" [1; 3]%Z /\ location_form 4 "all" [1; 2; 3; 4]%Z /\ location_form 4 "roof" [5%Z] /\
  direction_form "1,2" [1; 2]%Z.
Proof.
  assert (F : forall a b l, l = int_range a b -> from_to a b l) by (intros a b l ->; apply from_to_int_range).
  split; [apply like_direction, (@a_range _ "2" "4" 2 4); [reflexivity|reflexivity|reflexivity|discriminate|apply F; reflexivity]|].
  split; [apply like_direction, a_list; exists ["1"; " 3"]; split; [cbn; lia|]; split; [reflexivity|]; repeat constructor|].
  split; [apply all_stories; [reflexivity|apply F; reflexivity]|]. split; [apply the_roof; reflexivity|].
  apply a_list. exists ["1"; "2"]. split; [cbn; lia|]. split; [reflexivity|]. repeat constructor.
Qed.

(** A number with decimals, the way pandas writes a column of integers in which some value is
    missing, denotes its integer part. *)
Theorem C11_decimal : forall stories z f, all_digits f = true ->
  get_locations stories (str_of_Z z ++ "." ++ f) = Ok [str_of_Z z] /\ get_directions (Some (str_of_Z z ++ "." ++ f)%string) = Ok [str_of_Z z].
Proof. intros stories z f H. split; [apply decimal_location|apply decimal_direction]; exact H. Qed.
Print Assumptions C11_decimal.
Example C11_decimal_concrete : get_locations None "2.0" = Ok ["2"] /\ get_directions (Some "-1.75") = Ok ["-1"].
Proof.
  split; [exact (proj1 (C11_decimal None 2 "0" eq_refl))|exact (proj2 (C11_decimal None (-1) "75" eq_refl))].
Qed.

(** A number with an exponent denotes its value, rounded down. *)
Theorem C11_scientific : forall stories (m : nat) (e z : Z),
  (0 <= e -> z = Z.of_nat m * 10 ^ e)%Z -> (e < 0 -> z * 10 ^ (- e) <= Z.of_nat m < (z + 1) * 10 ^ (- e))%Z ->
  get_locations stories (str_of_Z (Z.of_nat m) ++ "e" ++ str_of_Z e) = Ok [str_of_Z z] /\
  get_directions (Some (str_of_Z (Z.of_nat m) ++ "e" ++ str_of_Z e)%string) = Ok [str_of_Z z].
Proof.
  intros stories m e z H1 H2.
  assert (Em : str_of_Z (Z.of_nat m) = str_of_nat m).
  { unfold str_of_Z. destruct (Z.ltb_spec (Z.of_nat m) 0); [lia|]. rewrite Nat2Z.id. reflexivity. }
  rewrite Em. unfold get_locations, get_directions. rewrite scientific_single, (@scale10_floor (Z.of_nat m) e z) by (assumption || lia).
  split; reflexivity.
Qed.
Print Assumptions C11_scientific.
Example C11_scientific_concrete : get_locations None "25e-1" = Ok ["2"] /\ get_directions (Some "2e0") = Ok ["2"].
Proof.
  split; [apply (proj1 (C11_scientific None 25 (-1) 2 ltac:(lia) ltac:(cbn; lia))) | apply (proj2 (C11_scientific None 2 0 2 ltac:(lia) ltac:(lia)))].
Qed.

(** Text that is not a number, without '--': either one of the documented forms or rejected. *)
Theorem C11_rejected_partial : forall n s, trunc_float s = None -> contains "--" s = false ->
  ((exists zs, location_form n s zs) \/ get_locations (Some n) s = Err ValueError) /\
  ((exists zs, direction_form s zs) \/ get_directions (Some s) = Err ValueError).
Proof. intros n s H1 H2. split; [apply location_rejected|apply direction_rejected]; assumption. Qed.
Print Assumptions C11_rejected_partial.
Example C11_rejected_hypotheses_met : trunc_float "basement" = None /\ contains "--" "basement" = false /\
  get_locations (Some 3%Z) "basement" = Err ValueError /\ get_directions (Some "basement") = Err ValueError.
Proof. repeat split. Qed.
(** Text with '--': accepted only between two locations, and denotes everything between their
    first values. *)
Theorem C11_range_ends_partial : forall stories s l, contains "--" s = true -> get_locations stories s = Ok l ->
  exists u v a b us vs zs, s = (u ++ "--" ++ v)%string /\ contains "--" u = false /\ contains "--" v = false /\
    get_locations stories u = Ok (str_of_Z a :: us) /\ get_locations stories v = Ok (str_of_Z b :: vs) /\ from_to a b zs /\ l = map str_of_Z zs.
Proof. exact range_ends. Qed.
Print Assumptions C11_range_ends_partial.
Example C11_range_ends_concrete : contains "--" "-2--1" = true /\ get_locations None "-2--1" = Ok ["-2"; "-1"; "0"; "1"].
Proof. split; reflexivity. Qed.

(** Not every other text is rejected: a list as the end of a range loses its other members, a
    reversed range denotes nothing, and a missing direction becomes "1.0", which is not the
    direction 1. *)
Theorem C11_refuted :
  get_locations (Some 4%Z) "1,2--5" = Ok ["1"; "2"; "3"; "4"; "5"] /\
  get_locations (Some 4%Z) "all--3" = Ok ["1"; "2"; "3"] /\
  get_locations (Some 4%Z) "5--3" = Ok [] /\
  get_directions None = Ok ["1.0"] /\ get_directions (Some "1") = Ok ["1"].
Proof. repeat split. Qed.
Print Assumptions C11_refuted.

(** * C12 *)

(** What is loaded: one performance group for each location and direction of each row, with the
    quantity of the row; no two have the same label. The unit is the one of the first row of the
    component. *)
Theorem C12_groups : forall e stories rows units groups, load_cmp_model e stories rows = Ok (units, groups) ->
  exists factor, groups_of stories rows factor groups /\
    (forall c u, dget c units = Some u <-> first_unit rows c u) /\
    forall r, In r rows -> exists u, first_unit rows (a_cmp r) u /\ (unit_factor e u (factor r) \/ places stories r []).
Proof. exact load_groups. Qed.
Print Assumptions C12_groups.
(** With consistent units each row is converted with its own unit. *)
Theorem C12_own_unit_partial : forall e stories rows units groups, consistent_units rows -> load_cmp_model e stories rows = Ok (units, groups) ->
  exists factor, groups_of stories rows factor groups /\
    forall r, In r rows -> exists u, a_unit r = Some u /\ dget (a_cmp r) units = Some u /\ (unit_factor e u (factor r) \/ places stories r []).
Proof.
  intros e stories rows units groups Hc H. destruct (@load_groups _ _ _ _ _ H) as (factor & Hg & Hu & Hf). exists factor. split; [exact Hg|].
  intros r Hr. destruct (Hf r Hr) as (u & Fu & D). exists u. split; [exact (@first_unit_consistent _ _ _ _ Hc Fu Hr eq_refl)|]. split; [apply Hu; exact Fu|exact D].
Qed.
Print Assumptions C12_own_unit_partial.
(** When a table is accepted. *)
Theorem C12_accepted : forall e stories rows,
  (forall r, In r rows -> exists u f ps, a_unit r = Some u /\ unit_factor e u f /\ places stories r ps /\
     (is_empirical (a_family r) = true \/ supported (a_family r)) /\ a_theta0 r <> None) ->
  (exists r p ps, In r rows /\ places stories r (p :: ps)) ->
  exists units groups, load_cmp_model e stories rows = Ok (units, groups).
Proof. exact load_accepted. Qed.
Print Assumptions C12_accepted.

Definition asset_env : penv := {| numbers := fun _ => None; shown := fun _ => ""; factors := [("ft2", qc (929 # 10000)); ("m2", 1%Qc); ("ea", 1%Qc)] |}.
Definition wall (unit location : string) (q : Qc) (blocks : num) : assign_row :=
  AR "wall" location (Some "1,2") (Some unit) None (Some q) None None None None blocks.
Definition pump : assign_row := AR "pump" "roof" (Some "0") (Some "ea") (Some "lognormal") (Some (qc 2)) (Some (qc (1 # 4))) None (Some (qc (1 # 2))) None None.
Definition asset_rows : list assign_row := [pump; wall "ft2" "1--2" (qc 100) (Some (qc (25 # 10))); wall "ft2" "2" (qc 40) None].
Example C12_hypotheses_met : consistent_units asset_rows /\
  exists units groups, load_cmp_model asset_env (Some 3%Z) asset_rows = Ok (units, groups) /\ List.length groups = 7%nat /\
    In (["wall"; "2"; "1"; "1"], MG None (Some (qc 40 * qc (929 # 10000))%Qc) None None None None 1) groups /\
    In (["wall"; "2"; "1"; "0"], MG None (Some (qc 100 * qc (929 # 10000))%Qc) None None None None 2) groups /\
    In (["pump"; "4"; "0"; "0"], MG (Some "lognormal") (Some (qc 2 * 1)%Qc) (Some (qc (1 # 4))) None (Some (qc (1 # 2) * 1)%Qc) None 1) groups.
Proof.
  split.
  - split.
    + intros r Hr. cbn in Hr. repeat destruct Hr as [<- | Hr]; try (eexists; reflexivity). destruct Hr.
    + intros r r' Hr Hr'. cbn in Hr, Hr'. repeat destruct Hr as [<- | Hr]; try destruct Hr; repeat destruct Hr' as [<- | Hr']; try destruct Hr'; try reflexivity; discriminate.
  - eexists _, _. split; [vm_compute; reflexivity|]. split; [reflexivity|].
    split; [|split]; repeat (try (left; vm_compute; reflexivity); right).
Qed.
Example C12_accepted_hypotheses_met :
  (forall r, In r asset_rows -> exists u f ps, a_unit r = Some u /\ unit_factor asset_env u f /\ places (Some 3%Z) r ps /\
     (is_empirical (a_family r) = true \/ supported (a_family r)) /\ a_theta0 r <> None) /\
  exists r p ps, In r asset_rows /\ places (Some 3%Z) r (p :: ps).
Proof.
  split.
  - intros r Hr. cbn in Hr. repeat destruct Hr as [<- | Hr]; try destruct Hr.
    all: eexists _, _, _; split; [reflexivity|]; split; [apply calc_unit_factor; vm_compute; reflexivity|]; split; [eexists _, _; split; [vm_compute; reflexivity|]; split; [vm_compute; reflexivity|reflexivity]|]; split; [right; cbn; auto 10|discriminate].
  - exists pump. eexists _, _. split; [left; reflexivity|]. eexists _, _. split; [vm_compute; reflexivity|]. split; [vm_compute; reflexivity|reflexivity].
Qed.

(** A row whose unit is not the unit of the first row of its component is converted with the wrong
    unit; a row with a reversed range is dropped without a message; a row without a direction is
    rejected. *)
Theorem C12_refuted :
  (exists units groups, load_cmp_model asset_env (Some 3%Z) [wall "ft2" "1" (qc 100) None; wall "m2" "2" (qc 100) None] = Ok (units, groups) /\
     In (["wall"; "2"; "1"; "0"], MG None (Some (qc 100 * qc (929 # 10000))%Qc) None None None None 1) groups /\ unit_factor asset_env "m2" 1%Qc) /\
  (exists units groups, load_cmp_model asset_env (Some 3%Z) [pump; wall "m2" "3--1" (qc 100) None] = Ok (units, groups) /\
     map (fun g => hd "" (fst g)) groups = ["pump"]) /\
  load_cmp_model asset_env (Some 3%Z) [AR "pump" "roof" None (Some "ea") None (Some (qc 2)) None None None None None] = Err ValueError.
Proof.
  split; [|split].
  - eexists _, _. split; [vm_compute; reflexivity|]. split; [|apply calc_unit_factor; vm_compute; reflexivity].
    repeat (try (left; vm_compute; reflexivity); right).
  - eexists _, _. split; [vm_compute; reflexivity|]. reflexivity.
  - vm_compute. reflexivity.
Qed.
Print Assumptions C12_refuted.

(** * C74 *)

(** The columns of the component sample are the performance groups, each with its own variable. *)
Theorem C74_columns_partial : forall V (columns : list (list string * V)), columns <> [] ->
  Forall (fun c => List.length (fst c) = 4%nat /\ Forall no_dash (fst c)) columns ->
  exists out, cmp_sample_columns columns = Ok out /\ Permutation out columns.
Proof. exact (@sample_columns_ok). Qed.
Print Assumptions C74_columns_partial.
(** A label with a hyphen, such as a basement "-1", makes the whole sample fail. *)
Theorem C74_hyphen : forall V (columns : list (list string * V)), Forall (fun c => List.length (fst c) = 4%nat) columns ->
  (exists c, In c columns /\ ~ Forall no_dash (fst c)) -> cmp_sample_columns columns = Err ValueError.
Proof. exact (@sample_columns_err). Qed.
Print Assumptions C74_hyphen.
Definition sample_labels : list (list string * nat) := [(["wall"; "2"; "1"; "0"], 10%nat); (["wall"; "10"; "1"; "0"], 11%nat); (["pump"; "4"; "0"; "0"], 12%nat)].
Example C74_hypotheses_met : sample_labels <> [] /\ Forall (fun c => List.length (fst c) = 4%nat /\ Forall no_dash (fst c)) sample_labels /\
  cmp_sample_columns sample_labels = Ok [(["pump"; "4"; "0"; "0"], 12%nat); (["wall"; "10"; "1"; "0"], 11%nat); (["wall"; "2"; "1"; "0"], 10%nat)].
Proof. split; [discriminate|]. split; [repeat constructor|]. reflexivity. Qed.
(** A component in the basement is accepted by the component model and then cannot be sampled. *)
Theorem C74_basement_refuted : exists units groups,
  load_cmp_model asset_env (Some 3%Z) [pump; wall "m2" "-1" (qc 100) None] = Ok (units, groups) /\ cmp_sample_columns groups = Err ValueError.
Proof. eexists _, _. split; [vm_compute; reflexivity|]. vm_compute. reflexivity. Qed.
Print Assumptions C74_basement_refuted.
