(** Model of the batching of performance groups, [_get_pg_batches]
    (pelicun/model/damage_model.py:582-704). *)
From Verif Require Import Prelude Pandas.
Set Implicit Arguments.
Local Open Scope list_scope.

(** The table [component_blocks] (damage_model.py:278-295): performance group, number of
    blocks.  Blocks are integers after [astype('int64')]. *)
Definition block_table := list (pg * Z).

(** damage_model.py:638: [component_blocks.drop(pd.Index(missing_components))] removes all
    rows of each missing component and raises KeyError for one without rows. *)
Definition drop_missing (missing : list string) (cb : block_table) : result block_table :=
  if forallb (fun m => existsb (fun r => String.eqb m (cmp (fst r))) cb) missing
  then Ok (filter (fun r => negb (mem (cmp (fst r)) missing)) cb)
  else Err KeyError.

(** damage_model.py:643-647: keep the components with damage parameters in this model. *)
Definition keep_available (available : list string) (cb : block_table) : block_table :=
  filter (fun r => mem (cmp (fst r)) available) cb.

(** damage_model.py:649-653: sum the blocks of equal labels, rows ordered by
    (loc, dir, cmp, uid). *)
Definition sum_blocks (cb : block_table) : block_table :=
  map (fun g => (fst g, zsum (snd g))) (groupby pg_eqb pg_le_ldcu cb).

(** One row of the working table: label, columns Blocks, CBlocks, Batch
    (damage_model.py:655-659). *)
Record brow := BRow { b_pg : pg; b_blocks : Z; b_cum : Z; b_batch : nat }.

Fixpoint cumulate (acc : Z) (cb : block_table) : list brow :=
  match cb with
  | [] => []
  | (p, b) :: tl => BRow p b (acc + b) 0 :: cumulate (acc + b) tl
  end.

Definition set_batch (i : nat) (r : brow) : brow := BRow (b_pg r) (b_blocks r) (b_cum r) i.

(** damage_model.py:665-673: 0 < CBlocks <= block_batch_size. *)
Definition fits (size : Z) (r : brow) : bool := (b_cum r <=? size)%Z && (0 <? b_cum r)%Z.

(** damage_model.py:675-677: select the first row with CBlocks > 0; IndexError if none. *)
Fixpoint mark_first (i : nat) (rows : list brow) : result (list brow) :=
  match rows with
  | [] => Err IndexError
  | r :: tl => if (0 <? b_cum r)%Z then Ok (set_batch i r :: tl)
               else let* tl' := mark_first i tl in Ok (r :: tl')
  end.

(** damage_model.py:675-679: rows to put in batch [i]. *)
Definition mark_batch (size : Z) (i : nat) (rows : list brow) : result (list brow) :=
  if existsb (fits size) rows
  then Ok (map (fun r => if fits size r then set_batch i r else r) rows)
  else mark_first i rows.

(** damage_model.py:683-685: subtract the largest CBlocks of the new batch. *)
Definition shift_cum (i : nat) (rows : list brow) : list brow :=
  let m := zmax 0 (map b_cum (filter (fun r => Nat.eqb (b_batch r) i) rows)) in
  map (fun r => BRow (b_pg r) (b_blocks r) (b_cum r - m) (b_batch r)) rows.

(** damage_model.py:662-690: the loop [for batch_i in range(1, n + 1)] with its break. *)
Fixpoint batch_loop (size : Z) (is_ : list nat) (rows : list brow) : result (list brow) :=
  match is_ with
  | [] => Ok rows
  | i :: tl =>
      let* marked := mark_batch size i rows in
      let rows' := shift_cum i marked in
      if (zmax 0 (map b_cum rows') =? 0)%Z then Ok rows' else batch_loop size tl rows'
  end.

(** Order of the result: (Batch, cmp, loc, dir, uid) (damage_model.py:695-704). *)
Definition batched := (nat * (pg * Z))%type.
Definition batched_le (a b : batched) : bool :=
  (fst a <? fst b)%nat || ((fst a =? fst b)%nat && pg_le (fst (snd a)) (fst (snd b))).

(** [_get_pg_batches] (damage_model.py:582-704).  The grouping by
    (Batch, cmp, loc, dir, uid) at 695-699 has one row per group because 649-652 already
    made the labels distinct; only the reordering is rendered. *)
Definition get_pg_batches (missing available : list string) (size : Z) (cb : block_table)
  : result (list batched) :=
  let* cb1 := drop_missing missing cb in
  let cb2 := sum_blocks (keep_available available cb1) in
  let rows := cumulate 0 cb2 in
  let* rows' := batch_loop size (seq 1 (List.length rows)) rows in
  Ok (isort batched_le (map (fun r => (b_batch r, (b_pg r, b_blocks r))) rows')).
