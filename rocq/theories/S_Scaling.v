(** What a scaling table means to its user. *)
From Verif Require Import Prelude M_Base M_Damage M_Scaling.
Set Implicit Arguments.
Local Open Scope string_scope.

(** A text of the form [a--b], where [a] and [b] are integers. *)
Definition is_range (t : string) (a b : Z) : Prop :=
  exists u v, t = u ++ "--" ++ v /\ pyint u = Some a /\ pyint v = Some b.

(** The values a cell of the location and direction columns stands for. *)
Inductive stands_for : option string -> string -> Prop :=
| for_all v : stands_for None v
| for_one t : contains "--" t = false -> stands_for (Some t) t
| for_range t a b z : is_range t a b -> (a <= z <= b)%Z -> stands_for (Some t) (str_of_Z z).

(** What a row says in a column: nothing if the column is missing or the cell is empty. *)
Definition says (t : scaling_csv) (r : dict string * num) (column value : string) : Prop :=
  In column (csv_columns t) /\ dget column (fst r) = Some value.
Definition silent (t : scaling_csv) (r : dict string * num) (column : string) : Prop :=
  forall v, ~ says t r column v.

(** A location or direction the row covers. *)
Definition covers (t : scaling_csv) (r : dict string * num) (column value : string) : Prop :=
  (silent t r column /\ stands_for None value) \/
  (exists text, says t r column text /\ stands_for (Some text) value).

(** The loss sample of the component or of the loss function model. *)
Definition ds_levels := ["dv"; "loss"; "dmg"; "ds"; "loc"; "dir"; "uid"]%list.
Definition lf_levels := ["dv"; "loss"; "dmg"; "loc"; "dir"; "uid"]%list.
Definition loss_table (s : table) : Prop :=
  (levels s = ds_levels \/ levels s = lf_levels) /\
  Forall (fun e => List.length (fst e) = List.length (levels s)) (entries s).

(** The value of a named level of a loss label. *)
Definition at_level (s : table) (label : list string) (level value : string) : Prop :=
  exists p, nth_error (levels s) p = Some level /\ nth_error label p = Some value.

(** A row names a loss: same decision variable; same component unless it is silent;
    a location and a direction it covers. *)
Definition names_loss (t : scaling_csv) (r : dict string * num) (s : table) (label : list string) : Prop :=
  exists dv dmg loc dir,
    at_level s label "dv" dv /\ at_level s label "dmg" dmg /\
    at_level s label "loc" loc /\ at_level s label "dir" dir /\
    says t r "Decision Variable" dv /\
    (silent t r "Component" \/ says t r "Component" dmg) /\
    covers t r "Location" loc /\ covers t r "Direction" dir.

(** The product of the factors of the rows naming the loss. *)
Inductive total_factor (t : scaling_csv) (s : table) (label : list string)
  : list (dict string * num) -> Qc -> Prop :=
| no_rows : total_factor t s label [] 1%Qc
| named_row r f tl k : names_loss t r s label -> snd r = Some f ->
    total_factor t s label tl k -> total_factor t s label (r :: tl) (f * k)%Qc
| other_row r tl k : ~ names_loss t r s label ->
    total_factor t s label tl k -> total_factor t s label (r :: tl) k.

(** A table the user may apply. *)
Definition usable (t : scaling_csv) : Prop :=
  In "Decision Variable" (csv_columns t) /\ In "Scale Factor" (csv_columns t) /\
  csv_rows t <> []%list /\
  forall r, In r (csv_rows t) ->
    (exists dv, says t r "Decision Variable" dv) /\ snd r <> None /\
    forall column text, In column ["Location"; "Direction"]%list -> says t r column text ->
      contains "--" text = false \/ exists a b, is_range text a b.
