(** Specification vocabulary for the chunks of a regional run. *)
From Verif Require Import Prelude M_Base M_Damage M_Params M_Asset M_Outputs S_Params S_Asset S_Outputs.
Set Implicit Arguments.
Local Open Scope string_scope.
Local Open Scope list_scope.

(** ** Components *)

(** Building [b] has a component [c] in direction [d]. *)
Definition has_component (chunk : list (Z * list assign_row)) (b : Z) (c : string) (d : Z) (r : assign_row) : Prop :=
  exists rs, In (b, rs) chunk /\ In r rs /\ a_cmp r = c /\ a_direction r = Some (str_of_Z d).
(** Every row has a direction and a unit. *)
Definition complete (chunk : list (Z * list assign_row)) : Prop :=
  forall b rs r, In (b, rs) chunk -> In r rs -> (exists d, a_direction r = Some (str_of_Z d)) /\ exists u, a_unit r = Some u.
(** The rows of a component are alike in something. *)
Definition alike {T} (field : assign_row -> T) (chunk : list (Z * list assign_row)) : Prop :=
  forall b rs r b' rs' r', In (b, rs) chunk -> In r rs -> In (b', rs') chunk -> In r' rs' -> a_cmp r = a_cmp r' -> field r = field r'.
(** What is assessed at a place. *)
Definition assessed (groups : list (list string * marginal)) (c : string) (b d : Z) (m : marginal) : Prop :=
  exists uid, In ([c; str_of_Z b; str_of_Z d; uid], m) groups.
(** A fixed amount, in one block. *)
Definition fixed (q : num) : marginal := MG None q None None None None 1.

(** ** Losses *)

Definition location_of (c : list string * list num) : string := nth 1 (fst c) "".
(** The damage of the buildings of an occupancy class. *)
Definition class_damage (buildings : list (Z * option string)) (damage : sample) (o : string) : sample :=
  filter (fun c => existsb (fun b => match snd b with Some o' => String.eqb o' o && String.eqb (str_of_Z (fst b)) (location_of c) | None => false end) buildings) damage.
(** The losses at location [l] of a decision variable: labels (dv, loss, dmg, ds, loc, dir, uid). *)
Definition of_place (dv l : string) (label : list string) : bool := (level_is 0 dv label && level_is 4 l label)%bool.
(** A column has the totals of the losses, and nothing where nothing is known. *)
Definition total_losses (n : nat) (losses : sample) (dv l : string) (v : list num) : Prop :=
  List.length v = n /\ forall i, (i < n)%nat ->
    (all_missing (of_place dv l) i losses /\ nth i v None = None) \/ (~ all_missing (of_place dv l) i losses /\ nth i v None = Some (amount (of_place dv l) i losses)).
(** Losses are calculated at the locations of the damage. *)
Definition in_place (calc : string -> sample -> result sample) : Prop :=
  forall o D L c, calc o D = Ok L -> In c L -> exists d, In d D /\ nth 4 (fst c) "" = location_of d.
(** The losses at a location depend on the damage at this location only. *)
Definition at_location (l : string) (D : sample) : sample := filter (fun c => String.eqb (location_of c) l) D.
Definition losses_at (l : string) (L : sample) : sample := filter (fun c => level_is 4 l (fst c)) L.
Definition local (calc : string -> sample -> result sample) : Prop :=
  forall o D D' L L' l, calc o D = Ok L -> calc o D' = Ok L' -> at_location l D = at_location l D' -> losses_at l L = losses_at l L'.
