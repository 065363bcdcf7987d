(** Model of [LossModel.calculate] and the losses it leaves behind
    (pelicun/model/loss_model.py:454-506, 1902-1928, 2535-2570, 2666).

    Not modelled: logging, the copy of the damage sample, which is never changed. *)
From Verif Require Import Prelude Pandas M_Base M_FileIO M_Damage M_Demand M_Agg M_LossDS M_LossLF.
Set Implicit Arguments.
Local Open Scope list_scope.

(** The table [cmp_marginal_params] of the asset: the performance groups and the column [Blocks],
    if there is one. *)
Record marginals := { m_groups : list pg; m_blocks : option (list Z) }.

(** What a calculation uses: settings, models and samples of the assessment. The damage sample
    comes with its number of realizations; it is missing before the first damage calculation. *)
Record loss_inputs := { in_eco : eco; in_ds : loss_setup; in_env : lf_env; in_lf : lf_setup;
                        in_demand : option frame; in_quantities : option (list (pg * list num));
                        in_damage : option (nat * qty_frame) }.

(** The stored losses and the table of the asset, which the calculation writes to. *)
Definition calc_state := (loss_state * option marginals)%type.

(** loss_model.py:2550-2555: the column is added to the table of the asset. *)
Definition add_blocks (m : marginals) : marginals :=
  match m_blocks m with
  | Some _ => m
  | None => {| m_groups := m_groups m; m_blocks := Some (map (fun _ => 1%Z) (m_groups m)) |}
  end.
Definition blocks_of_groups (m : marginals) : list (pg * Z) :=
  match m_blocks m with Some b => combine (m_groups m) b | None => [] end.

(** loss_model.py:485-496: nothing without a damage sample; otherwise the number of realizations
    has to match and the outcome replaces the losses, also if there are none (1920-1926). *)
Definition ds_part (x : loss_inputs) (demand : frame) (st : loss_state) : result loss_state :=
  match in_damage x with
  | None => Ok st
  | Some (n, dmg) =>
      if negb (Nat.eqb (n_rows demand) n) then Err ValueError else
      let* t := calculate_ds n (in_eco x) (in_ds x) dmg in
      Ok {| ds_sample := t; lf_sample := lf_sample st |}
  end.

(** loss_model.py:2535-2666: the losses are replaced if there are any (2535-2536, 2566-2571 return
    early); the column of blocks is added first. *)
Definition lf_part (x : loss_inputs) (demand : frame) (quantities : list (pg * list num)) (m : marginals)
                   (st : loss_state) : result unit * calc_state :=
  match f_rows (in_lf x) with
  | None => (Ok tt, (st, Some m))
  | Some _ =>
      let m1 := add_blocks m in
      match calculate_lf (in_env x) (in_lf x) demand quantities (blocks_of_groups m1) with
      | Err e => (Err e, (st, Some m1))
      | Ok None => (Ok tt, (st, Some m1))
      | Ok (Some t) => (Ok tt, ({| ds_sample := ds_sample st; lf_sample := Some t |}, Some m1))
      end
  end.

(** loss_model.py:454-506; the assertions on the samples (475-484) come first. *)
Definition calculate_losses (x : loss_inputs) (cs : calc_state) : result unit * calc_state :=
  match in_demand x, in_quantities x, snd cs with
  | Some demand, Some quantities, Some m =>
      match ds_part x demand (fst cs) with
      | Err e => (Err e, cs)
      | Ok st1 => lf_part x demand quantities m st1
      end
  | _, _, _ => (Err AssertionError, cs)
  end.

(** Calculations one after the other; one that fails leaves what it has written. *)
Definition calculate_all (xs : list loss_inputs) (cs : calc_state) : calc_state :=
  fold_left (fun cs x => snd (calculate_losses x cs)) xs cs.
