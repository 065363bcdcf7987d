(** Specification vocabulary for the life cycle of a demand model. *)
From Coq Require Import Sorting.Permutation Sorting.Sorted.
From Verif Require Import Prelude Pandas M_Base M_FileIO M_Damage M_Params M_UQ M_Demand M_DModel S_Base S_FileIO S_UQ S_Params S_Demand.
Set Implicit Arguments.
Local Open Scope string_scope.
Local Open Scope list_scope.

(** A cell of a row; blank if there is no such column. *)
Definition cell (row : marginal) (c : string) : value := match dget c row with Some v => v | None => VBlank end.
(** Type, location and direction, without hyphens. *)
Definition edp_label (lab : list string) : Prop := List.length lab = 3%nat /\ Forall no_dash lab.
Definition edp_labels (labels : list (list string)) : Prop := NoDup labels /\ Forall edp_label labels.
(** A table of [n] realizations. *)
Definition table_of (n : nat) (t : frame) : Prop := t <> [] /\ Forall (fun e => List.length (snd e) = n) t.
(** Realization [i] of a table. *)
Definition realization (t : frame) (i : nat) : list num := map (fun e => nth i (snd e) None) t.

(** ** Generation *)

Definition is_data (row : marginal) : Prop := cell row "Family" = VText "empirical".
(** The distribution that the model has for a demand: its own data, or what the family makes of the
    parameters and limits of its row. *)
Definition own_distribution (variable : family_maker) (preserve : bool) (m : dmodel) (lab : list string) (row : marginal) (k : kind) : Prop :=
  (is_data row /\ exists t theta, m_empirical m = Some t /\ In (lab, map Some theta) t /\
     k = if preserve then Utility (coupled_inverse theta) else Transform (mapM (empirical_inverse theta))) \/
  (~ is_data row /\
   variable (match dget "Family" row with Some v => v | None => VText "deterministic" end)
            (somes (map (fun c => dget c row) ["Theta_0"; "Theta_1"; "Theta_2"]))
            (cell row "TruncateLower", cell row "TruncateUpper") = Ok k).

(** ** Saving *)

Definition numeric (v : value) : Prop := v = VBlank \/ exists q, v = VNum q.
(** A row with numbers only, where parameters that the family does not have are blank. *)
Definition plain_row (row : marginal) : Prop :=
  ~ In "Units" (map fst row) /\ NoDup (map fst row) /\
  (is_data row \/
   (numeric (cell row "Theta_0") /\ numeric (cell row "Theta_1") /\ cell row "Theta_2" = VBlank /\
    numeric (cell row "TruncateLower") /\ numeric (cell row "TruncateUpper") /\
    ((exists fam, cell row "Family" = VText fam /\ In fam ["normal"; "normal_cov"; "normal_std"; "lognormal"; "uniform"]) \/
     ((cell row "Family" = VBlank \/ cell row "Family" = VText "deterministic") /\ cell row "Theta_1" = VBlank)))).
(** A model with a unit for every demand, in the order of the demands. *)
Definition complete_model (e : penv) (m : dmodel) (rows : list (list string * marginal)) (units : units_map) : Prop :=
  m_marginals m = Some rows /\ m_units m = Some units /\ rows <> [] /\ map fst units = map fst rows /\ edp_labels (map fst rows) /\
  known_units (factors e) (map snd units) /\
  Forall (fun lu => exists f, S_Params.unit_factor e (snd lu) f /\ f <> 0%Qc) units /\
  Forall (fun lr => plain_row (snd lr)) rows /\
  (forall t, m_empirical m = Some t -> t <> [] /\ edp_labels (map fst t)) /\
  (exists labels rho, m_correlation m = Some (labels, rho) /\ labels <> [] /\ edp_labels labels /\ square (List.length labels) rho).
(** The correlation of two demands in a table with labels. *)
Definition correlated (c : list (list string) * matrix) (a b : list string) (x : Qc) : Prop :=
  exists i j, nth_error (fst c) i = Some a /\ nth_error (fst c) j = Some b /\ entry (snd c) i j = Some x.

(** ** Uncertainty *)

Definition is_root (root : Qc -> Qc) (x : Qc) : Prop := (root x * root x = x)%Qc /\ (0 <= root x)%Qc.
(** The standard deviation of a demand (of its logarithm for lognormal): the second parameter of a
    normal distribution is a coefficient of variation. *)
Definition deviation (fam : string) (th0 th1 : Qc) : Qc :=
  if mem fam ["normal"; "normal_cov"] then (th1 * (if Qcltb th0 0 then - th0 else th0))%Qc else th1.
