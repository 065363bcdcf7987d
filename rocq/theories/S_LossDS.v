(** Specification vocabulary for damage-state-based losses. *)
From Verif Require Import Prelude Pandas M_Base M_Damage M_Agg S_Agg M_LossDS.
Set Implicit Arguments.
Local Open Scope string_scope.
Local Open Scope list_scope.

(** A table of unit consequences: increasing quantities, one consequence for each. *)
Definition well_formed_table (ys xs : list Qc) : Prop :=
  xs <> [] /\ List.length ys = List.length xs /\
  forall i, (S i < List.length xs)%nat -> (nth i xs 0%Qc < nth (S i) xs 0%Qc)%Qc.

(** The consequences do not increase with the quantity. *)
Definition not_increasing (ys : list Qc) : Prop := forall i, (S i < List.length ys)%nat -> (nth (S i) ys 0 <= nth i ys 0)%Qc.

(** The point ([q], [v]) lies on the curve: the first value below the first tabulated quantity,
    the last value above the last one, and on the segment between neighbours otherwise. *)
Inductive on_curve (ys xs : list Qc) (q v : Qc) : Prop :=
| curve_below : (q <= nth 0 xs 0)%Qc -> v = nth 0 ys 0%Qc -> on_curve ys xs q v
| curve_above : (nth (List.length xs - 1) xs 0 <= q)%Qc -> v = nth (List.length xs - 1) ys 0%Qc -> on_curve ys xs q v
| curve_between : forall i w, located (fun k => nth k xs 0%Qc) (List.length xs) q i w ->
                  v = ((1 - w) * nth i ys 0 + w * nth (S i) ys 0)%Qc -> on_curve ys xs q v.

(** The label of the loss of decision variable [dv] and consequence [consequence] due to the damage
    of a performance group in a damage state. *)
Definition loss_label (dv consequence : string) (k : qkey) : lkey * string :=
  (LK dv consequence (cmp (fst k)) (loc (fst k)) (dir (fst k)) (uid (fst k)), snd k).

(** The loss parameters of a consequence in a damage state. *)
Definition has_params (s : loss_setup) (consequence dv ds : string) (p : ds_params) : Prop :=
  exists lp row, params s = Some lp /\ In ds (lp_states lp) /\ In ((consequence, dv), row) (lp_rows lp) /\ In (ds, p) row.

(** Labels are unique in every table. *)
Definition unique_labels (s : loss_setup) (dmg : qty_frame) : Prop :=
  NoDup (map fst dmg) /\ NoDup (keys (loss_map s)) /\ NoDup (dvs s) /\
  forall lp, params s = Some lp -> NoDup (lp_states lp) /\ NoDup (map fst (lp_rows lp)) /\
                                   forall r, In r (lp_rows lp) -> NoDup (keys (snd r)).
Definition tables_ok (s : loss_setup) : Prop :=
  forall consequence dv ds p ys xs, has_params s consequence dv ds p -> p_theta0 p = Some (Curve ys xs) -> well_formed_table ys xs.

(** Total quantity over the columns of a component selected by [pool], in realization [i];
    quantities that are not available are skipped. *)
Definition pooled (pool : qkey -> bool) (dmg : qty_frame) (i : nat) : Qc :=
  qsum (map (fun c => nfill0 (nth i (snd c) None)) (filter (fun c => pool (fst c)) dmg)).
(** All floors, directions and groups of the component in the same damage state. *)
Definition same_component_state (k k' : qkey) : bool := String.eqb (cmp (fst k)) (cmp (fst k')) && String.eqb (snd k) (snd k').
Definition same_component (k k' : qkey) : bool := String.eqb (cmp (fst k)) (cmp (fst k')).

(** The groups whose quantities are added up with that of [k]. *)
Definition pool_of (e : eco) (k : qkey) : qkey -> bool := if across_states e then same_component k else same_component_state k.

(** The consequence of one unit at pooled quantity [a]: the number or the tabulated value; a number
    with a distribution is part of the draw [z]. *)
Inductive unit_loss (p : ds_params) (a : Qc) (z : Qc) : Qc -> Prop :=
| unit_constant : forall t, p_theta0 p = Some (Scalar t) -> p_family p = None -> unit_loss p a z t
| unit_random : forall t f, p_theta0 p = Some (Scalar t) -> p_family p = Some f -> unit_loss p a z z
| unit_table : forall ys xs m, p_theta0 p = Some (Curve ys xs) -> p_family p = None -> on_curve ys xs a m -> unit_loss p a z m
| unit_table_random : forall ys xs m f, p_theta0 p = Some (Curve ys xs) -> p_family p = Some f -> on_curve ys xs a m ->
                      unit_loss p a z (m * z)%Qc.

(** The loss of the group [k] with quantity [q] (NaN: none) in realization [i]. *)
Definition loss_of (s : loss_setup) (pool : qkey -> bool) (dmg : qty_frame) (dv : string) (k : qkey) (p : ds_params)
                   (i : nat) (q : num) (v : num) : Prop :=
  match q with
  | None => v = Some 0%Qc
  | Some x => exists u, unit_loss p (pooled pool dmg i) (draws s dv k i) u /\ v = Some (x * u)%Qc
  end.

(** The loss of (dv, consequence, k) is calculated: the group is damaged, and the parameters define
    the consequence of its damage state. *)
Definition calculated (s : loss_setup) (dmg : qty_frame) (dv consequence : string) (k : qkey) (p : ds_params) : Prop :=
  In k (map fst dmg) /\ snd k <> "0" /\ In dv (dvs s) /\ In (cmp (fst k), consequence) (loss_map s) /\
  ~ In (consequence, dv) (missing s) /\ has_params s consequence dv (snd k) p /\ p_theta0 p <> None.

(** The random variable that describes the deviation: the given family and parameters, with the
    value of a table replaced by one. *)
Definition describes (p : ds_params) (r : dv_rv) : Prop :=
  p_family p = Some (rv_family r) /\
  exists m, rv_theta r = m ++ somes [p_theta1 p; p_theta2 p] /\
    match p_theta0 p with Some (Scalar t) => m = [t] | Some (Curve _ _) => m = [1%Qc] | None => m = [] end.

(** A distribution that can be sampled: normal with a second parameter and a mean that is not
    (almost) zero, or lognormal with a second and no third parameter. *)
Definition usable_family (p : ds_params) : Prop :=
  p_family p = None \/
  (p_family p = Some "normal" /\ p_theta1 p <> None /\
   forall t, p_theta0 p = Some (Scalar t) -> (t <= qc (-1 # (10 ^ 40)))%Qc \/ (qc (1 # (10 ^ 40)) <= t)%Qc) \/
  (p_family p = Some "lognormal" /\ p_theta1 p <> None /\ p_theta2 p = None).

(** A sufficient condition for the calculation: parameters are available for every mapped component
    that is damaged; the distributions can be sampled and come with a value; the damage states
    of a component are all random or all not; no label contains a dash. *)
Definition complete_params (s : loss_setup) (dmg : qty_frame) : Prop :=
  exists lp, params s = Some lp /\
  forall consequence dv k, In (cmp (fst k), consequence) (loss_map s) -> In dv (dvs s) -> ~ In (consequence, dv) (missing s) ->
    In k (map fst dmg) ->
    exists row, In ((consequence, dv), row) (lp_rows lp) /\
      (forall ds p, In (ds, p) row -> usable_family p /\
                                      (p_theta0 p = None -> p_family p = None)) /\
      (forall ds p ds' p', In (ds, p) row -> In (ds', p') row -> p_theta0 p <> None -> p_theta0 p' <> None ->
                           p_family p = None -> p_family p' = None).
Definition dash_free (s : loss_setup) (dmg : qty_frame) : Prop :=
  Forall (fun dv => has_char "-"%char dv = false) (dvs s) /\
  Forall (fun k => Forall (fun x => has_char "-"%char x = false) [cmp (fst k); snd k; loc (fst k); dir (fst k); uid (fst k)]) (map fst dmg).

(** All given numbers are non-negative. *)
Definition nonnegative_inputs (s : loss_setup) (dmg : qty_frame) : Prop :=
  (forall k q x, In (k, q) dmg -> In (Some x) q -> (0 <= x)%Qc) /\ (forall dv k i, (0 <= draws s dv k i)%Qc) /\
  (forall consequence dv ds p t, has_params s consequence dv ds p -> p_theta0 p = Some (Scalar t) -> (0 <= t)%Qc) /\
  (forall consequence dv ds p ys xs, has_params s consequence dv ds p -> p_theta0 p = Some (Curve ys xs) -> Forall (fun y => 0 <= y)%Qc ys).
