(** Specification vocabulary for locations, directions and component assignments. *)
From Coq Require Import Sorting.Sorted Sorting.Permutation.
From Verif Require Import Prelude M_Damage M_Params M_Asset S_Params.
Set Implicit Arguments.
Local Open Scope string_scope.
Local Open Scope list_scope.

(** ** Locations and directions *)

(** All integers from [a] to [b], in ascending order. *)
Definition from_to (a b : Z) (l : list Z) : Prop :=
  (forall z, In z l <-> (a <= z <= b)%Z) /\ StronglySorted Z.lt l.
(** Integers separated by a character; [pyint] reads the text of an integer. *)
Definition listed (s : string) (zs : list Z) : Prop :=
  exists ws, (2 <= List.length ws)%nat /\ s = join "," ws /\ Forall2 (fun w z => pyint w = Some z) ws zs.
(** What a direction denotes. *)
Inductive direction_form (s : string) : list Z -> Prop :=
| one_number z : pyint s = Some z -> direction_form s [z]
| a_range u v a b zs : s = (u ++ "--" ++ v)%string -> pyint u = Some a -> pyint v = Some b -> (a <= b)%Z -> from_to a b zs -> direction_form s zs
| a_list zs : listed s zs -> direction_form s zs.
(** What a location denotes in an asset with [n] stories. *)
Inductive location_form (n : Z) (s : string) : list Z -> Prop :=
| like_direction zs : direction_form s zs -> location_form n s zs
| all_stories zs : s = "all" -> from_to 1 n zs -> location_form n s zs
| top_story : s = "top" -> location_form n s [n]
| the_roof : s = "roof" -> location_form n s [(n + 1)%Z].

(** ** Assignments *)

(** The number of blocks of a row: one unless given; a fraction is dropped. *)
Definition block_count (r : assign_row) : Z :=
  match a_blocks r with None => 1%Z | Some q => if Qle_bool 0 (this q) then Qround.Qfloor (this q) else Qround.Qceiling (this q) end.
(** The quantity parameters of a row times [f]: empirical samples are not multiplied; the second
    parameter of the other families has a unit, is relative or does not exist. *)
Definition scaled (f : Qc) (x : num) : num := match x with Some q => Some (q * f)%Qc | None => None end.
Definition is_empirical (family : option string) : bool := match family with Some s => String.eqb s "empirical" | None => false end.
Definition quantity (f : Qc) (r : assign_row) : marginal :=
  if is_empirical (a_family r)
  then MG (a_family r) (a_theta0 r) (a_theta1 r) (a_theta2 r) (a_lower r) (a_upper r) (block_count r)
  else MG (a_family r) (scaled f (a_theta0 r))
          (match second_of (a_family r) with WithUnit => scaled f (a_theta1 r) | Relative => a_theta1 r | Unused => None end)
          None (scaled f (a_lower r)) (scaled f (a_upper r)) (block_count r).
(** The places a row stands for. *)
Definition places (stories : option Z) (r : assign_row) (ps : list (string * string)) : Prop :=
  exists locs dirs, get_locations stories (a_location r) = Ok locs /\
    get_directions (Some (cell_text (a_direction r))) = Ok dirs /\ ps = list_prod locs dirs.
(** The unit of the first row of a component that has one. *)
Definition first_unit (rows : list assign_row) (c u : string) : Prop :=
  exists before r after, rows = before ++ r :: after /\ a_cmp r = c /\ a_unit r = Some u /\
    forall r', In r' before -> a_cmp r' = c -> a_unit r' = None.
(** Every row has a unit, the same one for all rows of a component. *)
Definition consistent_units (rows : list assign_row) : Prop :=
  (forall r, In r rows -> exists u, a_unit r = Some u) /\
  (forall r r', In r rows -> In r' rows -> a_cmp r = a_cmp r' -> a_unit r = a_unit r').
(** The marginals [groups] are the ones of the rows: one for each place of each row, with the
    parameters of the row times the factor of the row, and distinct labels (component, location,
    direction, number). *)
Definition groups_of (stories : option Z) (rows : list assign_row) (factor : assign_row -> Qc) (groups : list (list string * marginal)) : Prop :=
  exists pss, Forall2 (places stories) rows pss /\
    NoDup (map fst groups) /\
    Permutation (map (fun g => (removelast (fst g), snd g)) groups)
      (flat_map (fun rp => map (fun p => ([a_cmp (fst rp); fst p; snd p], quantity (factor (fst rp)) (fst rp))) (snd rp)) (combine rows pss)).
