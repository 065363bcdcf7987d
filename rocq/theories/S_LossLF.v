(** Specification vocabulary for losses from loss functions. *)
From Coq Require Import Sorting.Permutation.
From Verif Require Import Prelude Pandas M_Base M_FileIO M_Damage M_Demand S_Demand M_Agg S_Agg M_LossDS S_LossDS M_LossLF.
Set Implicit Arguments.
Local Open Scope string_scope.
Local Open Scope list_scope.

(** The text 'y1,y2,...|x1,x2,...' of a loss function. *)
Definition table_text (pyfloat : string -> option Qc) (text : string) (ys xs : list Qc) : Prop :=
  exists yt xt, text = (join "," yt ++ "|" ++ join "," xt)%string /\
    Forall (fun t => has_char "," t = false /\ has_char "|" t = false) (yt ++ xt) /\
    Forall2 (fun t y => pyfloat t = Some y) yt ys /\ Forall2 (fun t x => pyfloat t = Some x) xt xs.

(** The same points in some order. *)
Definition same_points (ys xs ys' xs' : list Qc) : Prop :=
  List.length ys = List.length xs /\ Permutation (combine xs ys) (combine xs' ys').

(** The median loss at demand [d]: on the curve, within the tabulated range; NaN for NaN. *)
Definition loss_at (ys xs : list Qc) (d m : num) : Prop :=
  match d with
  | None => m = None
  | Some q => exists v, m = Some v /\ on_curve ys xs q v /\
                        (nth 0 xs 0 <= q)%Qc /\ (q <= nth (List.length xs - 1) xs 0)%Qc
  end.

(** The demand of a performance group (see C27): its own, or the value of the expression. *)
Inductive group_demand (e : lf_env) (sample : frame) (p : pg) (d : demand_params) (v : list num) : Prop :=
| demand_single : forall t rest, expression d = NoColumn -> terms d = t :: rest ->
    term_value (offsets e) (multipliers e) sample p t v -> group_demand e sample p d v
| demand_combined : forall x ts c vals, expression d = Text x -> uses d (nterms e) ts -> clean_up_expression x = Ok c ->
    Forall2 (term_value (offsets e) (multipliers e) sample p) ts vals -> eval e c (named_from 1 vals) = Ok v ->
    group_demand e sample p d v.

(** The demand of the group is one that C27 covers. *)
Definition plain_demand (e : lf_env) (p : pg) (d : demand_params) : Prop :=
  whole_offsets (offsets e) d /\ (forall t, In t (terms d) -> directional t -> dir p <> "0") /\
  different_terms (offsets e) p (terms d).

Definition average (l : list Qc) : Qc := (qsum l / qn (List.length l))%Qc.

(** The loss of a group with [b] blocks, median [m], quantity [q]: without a distribution the
    median times the quantity, otherwise times the average of the deviations of the blocks (none
    where the draw is NaN). NaN counts as no loss. *)
Definition group_loss (b : Z) (draws : option (nat -> num)) (m q : num) : num :=
  match m, q with
  | Some x, Some y =>
      match draws with
      | None => Some (x * y)%Qc
      | Some z => Some (x * y * average (map (fun j => match z j with Some v => v | None => 1%Qc end) (seq 0 (Z.to_nat b))))%Qc
      end
  | _, _ => Some 0%Qc
  end.

(** The label of the loss of a group. *)
Definition lf_label (dv consequence : string) (p : pg) : lkey * option string :=
  (LK dv consequence (cmp p) (loc p) (dir p) (uid p), None).

(** A group has a loss: it has blocks and the loss function of its component is given. *)
Definition has_loss (s : lf_setup) (rows : list ((string * string) * lf_row)) (blocks : list (pg * Z))
                    (p : pg) (b : Z) (dv : string) (r : lf_row) : Prop :=
  In (p, b) blocks /\ (0 < b)%Z /\ In dv (f_dvs s) /\ In (cmp p, cmp p) (f_map s) /\
  In ((cmp p, dv), r) rows /\ ~ In (cmp p, dv) (f_missing s).

Definition unique_inputs (s : lf_setup) (rows : list ((string * string) * lf_row)) (quantities : list (pg * list num))
                         (blocks : list (pg * Z)) : Prop :=
  NoDup (f_dvs s) /\ NoDup (keys (f_map s)) /\ NoDup (map fst rows) /\ NoDup (map fst quantities) /\ NoDup (map fst blocks).

(** Components with loss functions are mapped to themselves. *)
Definition own_functions (s : lf_setup) (rows : list ((string * string) * lf_row)) (blocks : list (pg * Z)) : Prop :=
  forall p b c dv r, In (p, b) blocks -> In (cmp p, c) (f_map s) -> In ((c, dv), r) rows -> c = cmp p.

Definition random_draws (s : lf_setup) (r : lf_row) (dv : string) (p : pg) (i : nat) : option (nat -> num) :=
  match lf_family r with None => None | Some _ => Some (fun j => f_draws s dv p j i) end.

(** No loss function has a distribution. *)
Definition no_families (rows : list ((string * string) * lf_row)) : Prop := forall k r, In (k, r) rows -> lf_family r = None.
