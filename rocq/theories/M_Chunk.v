(** Model of the assets and losses of a chunk of buildings of a regional run
    (pelicun/tools/regional_sim.py:126-146, 206-348, 558-602, 628-630). *)
From Verif Require Import Prelude Pandas M_Base M_Damage M_Params M_Asset M_Outputs.
Set Implicit Arguments.
Local Open Scope string_scope.
Local Open Scope list_scope.

(** regional_sim.py:126-146 [unique_list], for the texts of the values; integers, texts and numbers
    are equal when their texts are. *)
Definition unique_list (l : list string) : string := join "," (unique String.eqb l).

(** ** Components *)

Definition num_eqb (a b : num) : bool :=
  match a, b with Some x, Some y => Qceqb x y | None, None => true | _, _ => false end.
(** regional_sim.py:561-581, 593: the rows of all buildings; the location is the building. What
    [auto_populate] returns for a building is given. *)
Definition located (chunk : list (Z * list assign_row)) : list assign_row :=
  flat_map (fun b => map (fun r => AR (a_cmp r) (str_of_Z (fst b)) (a_direction r) (a_unit r) (a_family r) (a_theta0 r) (a_theta1 r) (a_theta2 r)
                                      (a_lower r) (a_upper r) (a_blocks r)) (snd b)) chunk.
(** regional_sim.py:597-604: the rows of a component become one row of four columns. Texts like
    '1.0,2.0' are no quantities: [load_cmp_model] raises ValueError (asset_model.py:376); here this is
    found before any other error. *)
Definition chunk_row (g : string * list assign_row) : result assign_row :=
  match unique num_eqb (map a_theta0 (snd g)) with
  | [q] => Ok (AR (fst g) (unique_list (map a_location (snd g))) (Some (unique_list (map (fun r => cell_text (a_direction r)) (snd g))))
                  (Some (unique_list (map (fun r => cell_text (a_unit r)) (snd g)))) None q None None None None None)
  | _ => Err ValueError
  end.
Definition chunk_rows (chunk : list (Z * list assign_row)) : result (list assign_row) :=
  mapM chunk_row (groupby String.eqb str_le (map (fun r => (a_cmp r, r)) (located chunk))).
(** regional_sim.py:558-604, 628-630; the number of stories is not given *)
Definition load_chunk (e : penv) (chunk : list (Z * list assign_row)) : result (dict string * list (list string * marginal)) :=
  let* rows := chunk_rows chunk in load_cmp_model e None rows.

(** ** Losses of the Hazus earthquake method *)

Definition int_text (s : string) : result Z := match pyint s with Some z => Ok z | None => Err ValueError end.
(** regional_sim.py:239-242: buildings by occupancy class; those without a class are in no group *)
Definition occupancy_groups (buildings : list (Z * option string)) : list (string * list Z) :=
  groupby String.eqb str_le (flat_map (fun b => match snd b with Some o => [(o, fst b)] | None => [] end) buildings).
(** regional_sim.py:281-285: columns (component, location, direction, uid, damage state) at some
    locations, in their order *)
Definition damage_at (locs : list string) (s : sample) : sample := filter (fun c => mem (nth 1 (fst c) "") locs) s.
(** regional_sim.py:267-340 for one group and one decision variable. [calc] is the loss calculation:
    occupancy class and damage to losses with labels (dv, loss, dmg, ds, loc, dir, uid); it does not
    depend on what was calculated before. *)
Definition group_losses (n : nat) (calc : string -> sample -> result sample) (lookup : list Z) (damage : sample) (dv : string)
    (g : string * list Z) : result (list (Z * list num)) :=
  let* ids := int_list (unique_list (map str_of_Z (snd g))) in
  let ids := filter (fun z => existsb (Z.eqb z) lookup) ids in
  let* losses := calc (fst g) (damage_at (map str_of_Z ids) damage) in
  let totals := group_sum n [0; 4]%nat (group_sum n [0; 1; 2; 3; 4; 5]%nat losses) in
  match filter (fun c => String.eqb (nth 0 (fst c) "") dv) totals with
  | [] => Err KeyError
  | cols =>
      let* cols := mapM (fun c => let* z := int_text (nth 1 (fst c) "") in Ok (z, snd c)) cols in
      let* l := mapM (fun z => match filter (fun c => Z.eqb (fst c) z) cols with [] => Err KeyError | l => Ok l end) ids in
      Ok (List.concat l)
  end.
(** regional_sim.py:244-251, 341-342 *)
Definition losses_of (n : nat) (calc : string -> sample -> result sample) (buildings : list (Z * option string)) (damage : sample) (dv : string)
    : result (list (Z * list num)) :=
  let* lookup := mapM (fun c => int_text (nth 1 (fst c) "")) damage in
  let* parts := mapM (group_losses n calc lookup damage dv) (occupancy_groups buildings) in
  match parts with
  | [] => Err ValueError
  | _ => Ok (isort (fun a b => (fst a <=? fst b)%Z) (List.concat parts))
  end.
(** regional_sim.py:206-348 [_calculate_losses_hazus_eq] *)
Definition hazus_losses (n : nat) (calc : string -> sample -> result sample) (buildings : list (Z * option string)) (damage : sample)
    : result (list (Z * list num) * list (Z * list num)) :=
  let* costs := losses_of n calc buildings damage "Cost" in
  let* times := losses_of n calc buildings damage "Time" in
  Ok (costs, times).
