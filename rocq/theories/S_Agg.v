(** Specification vocabulary for the aggregation of losses. *)
From Verif Require Import Prelude M_Base M_FileIO M_Agg.
Set Implicit Arguments.
Local Open Scope string_scope.
Local Open Scope list_scope.

(** All stored loss columns, of both models: label without the level ds, and values. *)
Definition stored_losses (st : loss_state) : list (lkey * list num) :=
  match ds_sample st with Some t => map (fun c => (fst (fst c), snd c)) t | None => [] end
  ++ match lf_sample st with Some t => map (fun c => (fst (fst c), snd c)) t | None => [] end.

(** Every column has [n] realizations, and there is at least one column. *)
Definition sized (n : nat) (st : loss_state) : Prop :=
  stored_losses st <> [] /\ Forall (fun c => List.length (snd c) = n) (stored_losses st).

(** A loss that is not available counts as zero. *)
Definition loss_in (i : nat) (c : lkey * list num) : Qc := nfill0 (nth i (snd c) None).

(** Sum of the stored losses of realization [i] over the columns selected by [p]. *)
Definition total (p : lkey -> bool) (st : loss_state) (i : nat) : Qc :=
  qsum (map (loss_in i) (filter (fun c => p (fst c)) (stored_losses st))).

Definition dv_is (dv : string) (k : lkey) : bool := String.eqb (k_dv k) dv.
Definition dv_at (dv l : string) (k : lkey) : bool := String.eqb (k_dv k) dv && String.eqb (k_loc k) l.
(** The decision variable occurs in the stored samples. *)
Definition occurs (dv : string) (st : loss_state) : Prop := exists c, In c (stored_losses st) /\ k_dv (fst c) = dv.
Definition location_of (dv l : string) (st : loss_state) : Prop :=
  exists c, In c (stored_losses st) /\ k_dv (fst c) = dv /\ k_loc (fst c) = l.

Definition nonnegative (st : loss_state) : Prop :=
  forall c x, In c (stored_losses st) -> In (Some x) (snd c) -> (0 <= x)%Qc.

(** The aggregated table reports [v] in realization [i] under the name [name]; [sub] is the
    second level of the label ("" if there is none). *)
Definition reports (agg : frame) (name sub : string) (i : nat) (v : Qc) : Prop :=
  exists lab col, In (lab, col) agg /\ ((lab = [name] /\ sub = "") \/ lab = [name; sub]) /\
                  nth_error col i = Some (Some v).

(** Names such as Cost, Time, Carbon, Energy. *)
Definition upper_letter (a : ascii) : Prop := (65 <= nat_of_ascii a <= 90)%nat.
Definition lower_letter (a : ascii) : Prop := (97 <= nat_of_ascii a <= 122)%nat.
Definition capitalised (s : string) : Prop :=
  exists a t, s = String a t /\ upper_letter a /\ Forall lower_letter (list_ascii_of_string t).

(** The conversion factor of the unit of a decision variable. *)
Definition dv_factor (dv_units : dict string) (factors : dict Qc) (dv : string) (f : Qc) : Prop :=
  exists u, dget dv dv_units = Some u /\ dget u factors = Some f /\ f <> 0%Qc.

(** Replacement has occurred for the decision variable in realization [i]. *)
Definition replacement_in (st : loss_state) (dv : string) (i : nat) : Prop :=
  exists k, k_dv k = dv /\ k_loss k = "replacement" /\ (0 < total (lkey_eqb k) st i)%Qc.
(** The losses of the decision variable other than replacement. *)
Definition repair_loss (st : loss_state) (dv : string) (i : nat) : Qc :=
  total (fun k => String.eqb (k_dv k) dv && negb (String.eqb (k_loss k) "replacement")) st i.

(** The repair consequence exceeds the given ratio of the replacement value. *)
Definition exceeds (st : loss_state) (ratios : dict Qc) (dv : string) (value : list Qc) (i : nat) : Prop :=
  ~ replacement_in st dv i /\
  exists ratio, dget dv ratios = Some ratio /\ (nth i value 0 * ratio < repair_loss st dv i)%Qc.
Definition triggered (st : loss_state) (values : dict (list Qc)) (ratios : dict Qc) (i : nat) : Prop :=
  exists dv value, In (dv, value) values /\ exceeds st ratios dv value i.

(** [x] is the largest of the totals of the locations at which the decision variable occurs. *)
Definition largest_location (st : loss_state) (dv : string) (i : nat) (x : Qc) : Prop :=
  (exists l, location_of dv l st /\ x = total (dv_at dv l) st i) /\
  (forall l, location_of dv l st -> (total (dv_at dv l) st i <= x)%Qc).

(** The combined losses: a table of two components. *)
Definition at_place (dv loss dmg : string) (p : place) : lkey := LK dv loss dmg (fst (fst p)) (snd (fst p)) (snd p).
(** Both components have a loss of this decision variable at the place. *)
Definition present (s : qframe) (dv dmg : string) (p : place) : Prop :=
  exists c, In c s /\ k_dv (fst c) = dv /\ k_dmg (fst c) = dmg /\ place_of (fst c) = p.
Definition paired (s : qframe) (dv a b : string) (p : place) : Prop := present s dv a p /\ present s dv b p.
(** The label of the combination of [a] and [b]. *)
Definition combination_key (dv a b : string) (p : place) : lkey :=
  at_place dv "combination" ("(" ++ a ++ ", " ++ b ++ ")")%string p.
(** Bilinear interpolation in a table whose first column and first row are the coordinates:
    [x] lies in a cell of the coordinates, at a fraction [w] of its width. *)
Definition entry (m : matrix) (i j : nat) : Qc := nth j (nth i m []) 0%Qc.
Definition located (grid : nat -> Qc) (size : nat) (x : Qc) (i : nat) (w : Qc) : Prop :=
  (S i < size)%nat /\ (0 <= w)%Qc /\ (w <= 1)%Qc /\ x = ((1 - w) * grid i + w * grid (S i))%Qc.
Definition bilinear (m : matrix) (x y v : Qc) : Prop :=
  exists i j s t,
    located (fun k => entry m k 0) (List.length m) x i s /\
    located (fun k => entry m 0 k) (List.length (nth 0 m [])) y j t /\
    v = ((1 - s) * ((1 - t) * entry m i j + t * entry m i (S j))
         + s * ((1 - t) * entry m (S i) j + t * entry m (S i) (S j)))%Qc.

(** A square table with equal entries on both sides of the diagonal. *)
Definition symmetric (m : matrix) : Prop :=
  List.length (nth 0 m []) = List.length m /\ forall i j, entry m i j = entry m j i.

(** The values of [a] select the row and those of [b] the column of the table. *)
Definition combined_at (n : nat) (dv a b : string) (m : matrix) (s : qframe) (p : place) (v : list Qc) : Prop :=
  exists la lb va vb, In (at_place dv la a p, va) s /\ In (at_place dv lb b p, vb) s /\ List.length v = n /\
    forall i, (i < n)%nat -> bilinear m (nth i va 0%Qc) (nth i vb 0%Qc) (nth i v 0%Qc).

(** A sequence of aggregations with arbitrary settings. *)
Record call := Call { c_order : list string -> list string; c_raise : bool; c_dvs : list string; c_units : dict string;
                      c_factors : dict Qc; c_config : option replacement_config; c_combos : option (dict (list combination)) }.
Definition run_call (c : call) (st : loss_state) :=
  aggregate_losses (c_order c) (c_raise c) (c_dvs c) (c_units c) (c_factors c) (c_config c) (c_combos c) st.
Definition after (cs : list call) (st : loss_state) : loss_state := fold_left (fun s c => snd (run_call c s)) cs st.

(** A replacement consequence has a positive loss in realization [i] of the damage state sample. *)
Definition replaced_in (t : ds_table) (i : nat) : Prop :=
  exists c x, In c t /\ k_loss (fst (fst c)) = "replacement" /\ nth i (snd c) None = Some x /\ (0 < x)%Qc.
