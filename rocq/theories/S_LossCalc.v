(** Specification vocabulary for repeated loss calculations. *)
From Verif Require Import Prelude Pandas M_Base M_Damage M_Agg M_LossDS M_LossLF M_LossCalc.
Set Implicit Arguments.
Local Open Scope list_scope.

(** Some performance group has a loss function for some decision variable. *)
Definition driven (s : lf_setup) (groups : list pg) : Prop :=
  exists rows p c r dv, f_rows s = Some rows /\ In p groups /\ dget (cmp p) (f_map s) = Some c /\
    In r rows /\ fst (fst r) = c /\ In dv (f_dvs s) /\ ~ In (cmp p, dv) (f_missing s).
(** The numbers of blocks, which are one if nothing is said about them. *)
Definition block_counts (m : marginals) : list Z :=
  match m_blocks m with Some b => b | None => map (fun _ => 1%Z) (m_groups m) end.
