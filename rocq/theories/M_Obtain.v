(** Model of the damage state calculation over batches, [obtain_ds_sample]
    (pelicun/model/damage_model.py:761-856).

    The capacities and the states assigned to limit states are arguments: a table over all
    blocks of the asset, of which a batch uses the columns of its own groups.  In the code they
    are drawn batch by batch (796-800); how they are drawn is in M_Frag and M_Uq. *)
From Verif Require Import Prelude Pandas M_Base M_FileIO M_Damage M_Batch M_Demand.
Set Implicit Arguments.
Local Open Scope list_scope.

(** damage_model.py:782: the batches in order. *)
Definition batch_ids (out : list batched) : list nat := unique Nat.eqb (map fst out).

(** damage_model.py:797: [component_blocks.loc[pgb_i]] *)
Definition batch_groups (out : list batched) (k : nat) : list pg :=
  map (fun r => fst (snd r)) (filter (fun r => Nat.eqb (fst r) k) out).

(** The columns drawn for a batch (808-810). *)
Definition for_groups {A} (pgs : list pg) (t : list (lsc * A)) : list (lsc * A) :=
  filter (fun c => existsb (pg_eqb (b_of (fst (fst c)))) pgs) t.

Section Obtain.
Context (nterms : string -> result nat) (eval : string -> dict (list num) -> result (list num))
        (params : dict demand_params) (offsets multipliers : dict Qc) (sample : frame)
        (cap : cap_frame) (lsds : lsds_frame).

(** damage_model.py:796-848: one batch. *)
Definition obtain_batch (pgs : list pg) : result ds_frame :=
  let* r := batch_demands nterms eval params offsets multipliers sample pgs in
  evaluate_damage_state (n_rows sample) (snd r) (fst r) (for_groups pgs cap) (for_groups pgs lsds).

(** damage_model.py:778-852; [pd.concat] of no batches raises ValueError. *)
Definition obtain_ds_sample (missing available : list string) (size : Z) (cb : block_table)
  : result ds_frame :=
  let* out := get_pg_batches missing available size cb in
  match batch_ids out with
  | [] => Err ValueError
  | ks => let* dss := mapM (fun k => obtain_batch (batch_groups out k)) ks in Ok (List.concat dss)
  end.
End Obtain.
