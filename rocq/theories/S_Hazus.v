(** Specification vocabulary of property C123. *)
From Verif Require Import Prelude Pandas M_Damage S_Damage S_Assess.
Local Open Scope string_scope.
Local Open Scope list_scope.

(** Components of an asset: no underscores, no endings that ask for locations, not the name of a class. *)
Definition usual (components : list string) : Prop :=
  forall c, In c components -> has_char "_" c = false /\ ends_with "-LOC" c = false /\ c <> "STR" /\ c <> "LF".
(** The damage states are those of components of the asset. *)
Definition of_asset (components : list string) (ds : ds_frame) : Prop := forall b, In b (map fst ds) -> In (cmp (b_of b)) components.

(** The last component of a class is in its fifth damage state. *)
Definition complete (class : string) (components : list string) (ds : ds_frame) (i : nat) : Prop :=
  exists c, last_of_class class components c /\ in_state ds c i 5.
Definition building_collapsed (components : list string) (ds : ds_frame) (i : nat) : Prop :=
  present ds "collapse" /\ (complete "STR" components ds i \/ in_state ds "excessive.coll.DEM" i 1 \/ in_state ds "collapse" i 1).
Definition building_irreparable (components : list string) (ds : ds_frame) (i : nat) : Prop :=
  ~ building_collapsed components ds i /\ present ds "irreparable" /\ (in_state ds "excessiveRID" i 1 \/ in_state ds "irreparable" i 1).
Definition facility_collapsed (components : list string) (ds : ds_frame) (i : nat) : Prop :=
  present ds "collapse" /\ (complete "LF" components ds i \/ in_state ds "collapse" i 1).

(** What becomes of a realization. *)
Definition now_collapsed (ds' : ds_frame) (i : nat) : Prop :=
  in_state ds' "collapse" i 1 /\ forall b z, cell_at ds' b i z -> cmp (b_of b) <> "collapse" -> z = (-1)%Z.
Definition now_irreparable (ds' : ds_frame) (i : nat) : Prop :=
  in_state ds' "irreparable" i 1 /\ (forall b z, cell_at ds' b i z -> cmp (b_of b) = "collapse" -> z = 0%Z) /\
  (forall b z, cell_at ds' b i z -> cmp (b_of b) <> "collapse" -> cmp (b_of b) <> "irreparable" -> z = (-1)%Z).
Definition as_before (ds ds' : ds_frame) (i : nat) : Prop := forall b z, cell_at ds' b i z <-> cell_at ds b i z.
