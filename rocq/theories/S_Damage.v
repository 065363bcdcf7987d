(** Vocabulary for the damage properties: what a block's limit states, demands and states
    are, without reference to how the code combines whole tables. *)
From Verif Require Import Prelude Pandas.
From Verif Require M_Base M_Damage.
Import M_Base(json, JDict, JList, JStr).
Import M_Damage(blk, Blk, b_of, b_no, lsc, edp_key).
Local Open Scope string_scope.
Local Open Scope list_scope.

(** Value of the column labelled [k] in realization [i]. *)
Definition cell_at {K V} (frame : list (K * list V)) (k : K) (i : nat) (v : V) : Prop :=
  exists col, In (k, col) frame /\ nth_error col i = Some v.

(** In realization [i] the capacity of limit state [ls] of block [b] is below the demand
    [d]. *)
Definition exceeded (cap : list (lsc * list num)) (d : num) (b : blk) (ls : string) (i : nat) : Prop :=
  exists c q, cell_at cap (b, ls) i (Some c) /\ d = Some q /\ (c < q)%Qc.

(** [m] is the highest limit state of block [b] exceeded in realization [i]. *)
Definition highest_exceeded (cap : list (lsc * list num)) (d : num) (b : blk) (i : nat)
                            (number : string -> nat) (m : string) : Prop :=
  exceeded cap d b m i /\ (forall ls, exceeded cap d b ls i -> (number ls <= number m)%nat).

(** The limit state ids of block [b]. *)
Definition has_ls (cap : list (lsc * list num)) (b : blk) (ls : string) : Prop :=
  In (b, ls) (map fst cap).

(** Single-digit limit state ids, as numbers. *)
Definition digit_ids : list string := ["1"; "2"; "3"; "4"; "5"; "6"; "7"; "8"; "9"].
Fixpoint id_rank (ls : string) (l : list string) : nat :=
  match l with
  | [] => 0
  | x :: tl => if String.eqb ls x then 1 else S (id_rank ls tl)
  end.
Definition ls_number (ls : string) : nat := id_rank ls digit_ids.

(** Limit state ids are 1 to 9, and no block skips an id used by another block below one
    of its own. *)
Definition gapless (cap : list (lsc * list num)) : Prop :=
  forall b ls, has_ls cap b ls ->
    In ls digit_ids /\
    forall b' ls', has_ls cap b' ls' -> (ls_number ls' < ls_number ls)%nat -> has_ls cap b ls'.

(** Limit state [a] appears before limit state [b] when the labels of all blocks with their limit
    states (component, location, direction, id, block, limit state) are in alphabetical order. *)
Definition label_texts (k : blk) (ls : string) : list string :=
  [cmp (b_of k); loc (b_of k); dir (b_of k); uid (b_of k); b_no k; ls].
Definition seen_before (cap : list (lsc * list num)) (a b : string) : Prop :=
  a <> b /\ exists k, has_ls cap k a /\ forall k', has_ls cap k' b -> label_le (label_texts k a) (label_texts k' b) = true.
(** [m] is the exceeded limit state of the block that appears last. *)
Definition last_seen_exceeded (cap : list (lsc * list num)) (d : num) (b : blk) (i : nat) (m : string) : Prop :=
  exceeded cap d b m i /\ forall ls, exceeded cap d b ls i -> ~ seen_before cap m ls.

(** Demand assigned to performance group [p] in realization [i]. *)
Definition demand_for (demands : list (edp_key * list num)) (required : list (edp_key * list pg))
                      (p : pg) (i : nat) (d : num) : Prop :=
  exists key col pgs, In (key, col) demands /\ In (key, pgs) required /\ In p pgs /\
                      nth_error col i = Some d.

(** Every performance group needs one demand. *)
Definition one_demand (required : list (edp_key * list pg)) : Prop :=
  NoDup (map fst required) /\ NoDup (flat_map snd required).

(** All columns have [n] realizations and labels are distinct. *)
Definition well_formed {K V} (n : nat) (frame : list (K * list V)) : Prop :=
  NoDup (map fst frame) /\ Forall (fun c => List.length (snd c) = n) frame.

(** ** Quantities *)

(** Number of blocks of [p] whose state in realization [i] satisfies [sel]. *)
Definition blocks_with (ds : list (blk * list Z)) (p : pg) (i : nat) (sel : Z -> bool) : nat :=
  List.length (filter (fun c : blk * list Z => pg_eqb (b_of (fst c)) p && sel (nth i (snd c) 0%Z)) ds).

(** Sum of the available entries of group [p] in row [i] of a quantity table. *)
Definition row_total (q : list ((pg * string) * list num)) (p : pg) (i : nat) : Qc :=
  nsum (map (fun c : (pg * string) * list num => nth i (snd c) None)
            (filter (fun c : (pg * string) * list num => pg_eqb (fst (fst c)) p) q)).

(** Number of blocks the quantity of [p] is divided into. *)
Definition blocks_of (blocks : option (list (pg * Z))) (p : pg) (nb : Z) : Prop :=
  match blocks with None => nb = 1%Z | Some l => In (p, nb) l end.

(** ** Damage processes *)

(** [m] is the highest state in realization [i] over the blocks in [sel]. *)
Definition highest_state (ds : list (blk * list Z)) (sel : blk -> Prop) (i : nat) (m : Z) : Prop :=
  (exists b, sel b /\ cell_at ds b i m) /\
  (forall b z, sel b -> cell_at ds b i z -> (z <= m)%Z).

(** Component [c] is in state [k] in realization [i]: the highest state of its blocks. *)
Definition in_state (ds : list (blk * list Z)) (c : string) (i : nat) (k : Z) : Prop :=
  highest_state ds (fun b => cmp (b_of b) = c) i k.

(** The same at location [l] only. *)
Definition in_state_at (ds : list (blk * list Z)) (c l : string) (i : nat) (k : Z) : Prop :=
  highest_state ds (fun b => cmp (b_of b) = c /\ loc (b_of b) = l) i k.

Definition present (ds : list (blk * list Z)) (c : string) : Prop :=
  exists b, In b (map fst ds) /\ cmp (b_of b) = c.

(** Blocks a target names: one component, or ['ALL'] components other than the source. *)
Definition targeted (source target : string) (b : blk) : Prop :=
  (target = "ALL" /\ cmp (b_of b) <> source) \/ (target <> "ALL" /\ cmp (b_of b) = target).

(** The cell of block [b] in realization [i] is one the entry "source in state k: target"
    applies to; [ml] for tasks that match locations. *)
Definition triggered (ml : bool) (ds : list (blk * list Z)) (source target : string) (k : Z)
                     (b : blk) (i : nat) : Prop :=
  targeted source target b /\
  (if ml then in_state_at ds source (loc (b_of b)) i k else in_state ds source i k).

(** The source component a task name states after its first underscore; the suffix -LOC asks
    for matching locations. *)
Definition names_source (name source : string) (ml : bool) : Prop :=
  exists num s rest, split_on "_" name = num :: s :: rest /\
    ((ml = true /\ (exists x, s = (x ++ "-LOC")%string) /\ source = M_Damage.str_remove "-LOC" s) \/
     (ml = false /\ ~ (exists x, s = (x ++ "-LOC")%string) /\ source = s)).

(** [b] is named by no entry of the task. *)
Definition untargeted (t : M_Damage.task) (b : blk) : Prop :=
  forall source ml ev tg info target event, names_source (fst t) source ml ->
    In (ev, tg) (snd t) -> In info (M_Damage.target_list tg) -> split_on "_" info = [target; event] ->
    ~ targeted source target b.

(** Accepted task syntax.  A target entry is [target_event]; its event is only read when the
    target component is present. *)
Definition target_accepted (cols : list blk) (info : string) : Prop :=
  exists target event, split_on "_" info = [target; event] /\
    ((target <> "ALL" /\ ~ (exists b, In b cols /\ cmp (b_of b) = target)) \/
     event = "NA" \/ (exists r, event = ("DS" ++ r)%string /\ M_Damage.pyint r <> None)).
Definition entry_accepted (cols : list blk) (e : string * M_Damage.targets) : Prop :=
  (exists r, fst e = ("DS" ++ r)%string /\ M_Damage.pyint r <> None) /\
  forall info, In info (M_Damage.target_list (snd e)) -> target_accepted cols info.
Definition task_accepted (cols : list blk) (t : M_Damage.task) : Prop :=
  exists source ml, names_source (fst t) source ml /\
    ((exists b, In b cols /\ cmp (b_of b) = source) -> forall e, In e (snd t) -> entry_accepted cols e).

(** The number written before the first underscore of a task name, with [len] digits. *)
Fixpoint all_digits (s : string) : bool :=
  match s with EmptyString => true | String a tl => M_Damage.is_digit a && all_digits tl end.
Definition numbered (name : string) (len : nat) (k : Z) : Prop :=
  exists d r, name = (d ++ "_" ++ r)%string /\ String.length d = len /\ d <> "" /\
              all_digits d = true /\ M_Damage.pyint d = Some k.

(** Realizations the FEMA P-58 process treats as collapsed or irreparable. *)
Definition fema_collapsed (ds : list (blk * list Z)) (i : nat) : Prop :=
  present ds "collapse" /\
  (in_state ds "excessive.coll.DEM" i 1 \/ in_state ds "collapse" i 1).
Definition fema_irreparable (ds : list (blk * list Z)) (i : nat) : Prop :=
  ~ fema_collapsed ds i /\ present ds "irreparable" /\
  (in_state ds "excessiveRID" i 1 \/ in_state ds "irreparable" i 1).

(** ** Damage states a limit state can lead to *)
Definition possible_states (r : M_Damage.lsds_rv) : list Z :=
  match r with
  | M_Damage.DSFixed d => [d]
  | M_Damage.DSDraw ws off => map (fun k => off + Z.of_nat k)%Z (seq 0 (List.length ws))
  end.

(** Limit states with a capacity, in the order of the parameter table. *)
Definition has_capacity (c : string * M_Damage.ls_params) : bool :=
  contains "LS" (fst c) && match M_Damage.theta_0 (snd c) with M_Damage.TNaN => false | _ => true end.
(** Number of damage states of a limit state: one, or one per weight. *)
Definition state_count (p : M_Damage.ls_params) : nat :=
  match M_Damage.ds_weights p with None => 1%nat | Some w => List.length (split_on "|" w) end.
(** The variables created for block [b], in order of creation. *)
Definition variables_of (b : blk) (rvs : list (M_Damage.capacity_rv * (lsc * M_Damage.lsds_rv))) :=
  filter (fun r : M_Damage.capacity_rv * (lsc * M_Damage.lsds_rv) => M_Damage.blk_eqb (fst (M_Damage.c_col (fst r))) b) rvs.

(** ** Capacity adjustment *)

(** What the operators mean. *)
Definition op_meaning (op : ascii) (x y : Qc) : option num :=
  if Ascii.eqb op "+" then Some (Some (x + y)%Qc)
  else if Ascii.eqb op "-" then Some (Some (x - y)%Qc)
  else if Ascii.eqb op "*" then Some (Some (x * y)%Qc)
  else if Ascii.eqb op "/" then Some (if Qc_eq_dec y 0 then None else Some (x / y)%Qc)
  else None.

(** The request that applies to limit state [ls] of performance group [p]: the entry of
    [cmp-loc-dir] for ALL limit states or for that limit state. *)
Definition request_for (spec : dict json) (p : pg) (ls : string) (v : json) : Prop :=
  exists d, dget (join "-" [cmp p; loc p; dir p]) spec = Some (JDict d) /\
    (dget "ALL" d = Some v \/ (dget "ALL" d = None /\ dget ("LS" ++ ls)%string d = Some v)).
Definition request_entries (v : json) : list json := match v with JList l => l | _ => [v] end.

(** The family of a capacity: the one given, deterministic if there is none. *)
Definition capacity_family (p : M_Damage.ls_params) (f : string) : Prop :=
  (M_Damage.family p = Some f /\ f <> "") \/ (M_Damage.family p = None \/ M_Damage.family p = Some "") /\ f = "deterministic".
