(** Model of pelicun/tools/regional_sim.py: asset filters, mapping of intensity measures to buildings,
    chunks processed in any order and the collection of their results. *)
From Verif Require Import Prelude Pandas M_Base M_Damage M_Asset M_NNR.
Set Implicit Arguments.
Local Open Scope string_scope.
Local Open Scope list_scope.

(** ** Asset filters *)

(** [range(a, b + 1)] *)
Definition zrange (a b : Z) : list Z := map (fun k => (a + Z.of_nat k)%Z) (seq 0 (Z.to_nat (b + 1 - a))).
(** regional_sim.py:89-120: one part of the filter. *)
Definition filter_part (part : string) : result (list Z) :=
  match split_first (fun a => Ascii.eqb a "-") part with
  | (_, None) => match pyint part with Some z => Ok [z] | None => Err ValueError end
  | (a, Some b) =>
      match pyint (strip_space a), pyint (strip_space b) with
      | Some x, Some y => if (y <? x)%Z then Err ValueError else Ok (zrange x y)
      | _, _ => Err ValueError
      end
  end.
(** regional_sim.py:61-123 [parse_id_filter] *)
Definition parse_id_filter (s : string) : result (list Z) :=
  if String.eqb s "" then Ok []
  else
    let parts := filter (fun p => negb (String.eqb p "")) (map strip_space (split_on "," s)) in
    let* ids := mapM filter_part parts in
    Ok (isort Z.leb (unique Z.eqb (List.concat ids))).
(** regional_sim.py:877-903: the inventory is a list of identifiers with their data; [.loc] with a
    list selects the rows of each identifier in turn. *)
Definition apply_filter {A} (text : option string) (inventory : list (Z * A)) : result (list (Z * A)) :=
  match text with
  | None => Ok inventory
  | Some s =>
      if String.eqb s "" then Ok inventory
      else
        let* ids := parse_id_filter s in
        match ids with
        | [] => Ok inventory
        | _ => if forallb (fun i => existsb (Z.eqb i) (map fst inventory)) ids
               then Ok (flat_map (fun i => filter (fun r => Z.eqb (fst r) i) inventory) ids)
               else Err ValueError
        end
  end.

(** ** Intensity measures *)

(** regional_sim.py:858-872: column (grid point, measure) for every measure of the configuration,
    in its order. *)
Definition grid_table (ims : list string) (n : nat) (data : nat -> string -> list Qc) : list ((nat * string) * list Qc) :=
  flat_map (fun g => map (fun im => ((g, im), data g im)) ims) (seq 0 n).
Definition column_le (a b : (nat * string) * list Qc) : bool :=
  let '((g, im), _) := a in let '((g', im'), _) := b in
  (Nat.ltb g g' || (Nat.eqb g g' && str_le im im'))%bool.
(** regional_sim.py:485-493: columns sorted by grid point and measure, reshaped to grid point,
    feature, realization. *)
Definition grid_array (ims : list string) (n : nat) (data : nat -> string -> list Qc) : array3 :=
  let sorted := isort column_le (grid_table ims n data) in
  let nf := List.length (unique String.eqb ims) in
  map (fun s => map (fun f => snd (nth (s * nf + f) sorted ((O, ""), []))) (seq 0 nf)) (seq 0 n).
(** regional_sim.py:506-541: the columns of the demand sample. [values] are building, feature,
    realization; measures and locations name the columns. *)
Definition demand_columns (ims : list string) (locs : list string) (values : array3) (n_available size : nat) : list (string * list Qc) :=
  flat_map (fun bl => map (fun fi => ((snd fi ++ "-" ++ snd bl ++ "-1")%string,
                                      map (fun j => at3 values (fst bl) (fst fi) (j mod n_available)) (seq 0 size)))
                          (combine (seq 0 (List.length ims)) ims))
           (combine (seq 0 (List.length locs)) locs).
(** regional_sim.py:485-541: from the grid to the demand sample; [neighbours] is the result of the
    search for each building. *)
Definition map_demands (ims : list string) (n : nat) (data : nat -> string -> list Qc) (n_available : nat)
    (k : nat) (neighbours : list (list Qc * list nat)) (locs : list string) (size : nat) : result (list (string * list Qc)) :=
  let* values := nnr3 "distance2" k neighbours (grid_array ims n data) (List.length (unique String.eqb ims)) n_available in
  Ok (demand_columns ims locs values n_available size).

(** ** Chunks *)

(** regional_sim.py:915-919 *)
Definition chunks {A} (size : nat) (l : list A) : list (list A) :=
  map (fun i => firstn size (skipn (i * size) l)) (seq 0 ((List.length l + size - 1) / size)).
(** The results of one chunk: labelled rows (columns for the demands). *)
Definition rows (R : Type) := list (string * R).
Record parts (R : Type) := PA { pa_demand : rows R; pa_damage : rows R; pa_costs : rows R; pa_times : option (rows R) }.
Definition part_name (kind : string) (i : nat) : string := (kind ++ "_part_" ++ str_of_nat i ++ ".csv")%string.
(** regional_sim.py:764-778 [process_and_save_chunk]: the files written for a chunk. *)
Definition chunk_files {R} (i : nat) (p : parts R) : list (string * rows R) :=
  [(part_name "demand" i, pa_demand p); (part_name "damage" i, pa_damage p); (part_name "repair_costs" i, pa_costs p)] ++
  match pa_times p with Some t => [(part_name "repair_times" i, t)] | None => [] end.
(** regional_sim.py:933-947: all files, chunk by chunk; workers write them in any order. *)
Definition all_files {A R} (process : list A -> parts R) (cs : list (list A)) : list (string * rows R) :=
  List.concat (map2 (fun i c => chunk_files i (process c)) (seq 0 (List.length cs)) cs).
(** The temporary directory after files were written one after the other. *)
Definition written {R} (ws : list (string * rows R)) : dict (rows R) := fold_left (fun d w => dset (fst w) (snd w) d) ws [].
(** regional_sim.py:955-972: the kind of a file by its name. *)
Definition file_kind (f : string) : option string :=
  if starts_with "demand_part_" f then Some "demand"
  else if starts_with "damage_part_" f then Some "damage"
  else if starts_with "repair_costs_part_" f then Some "repair_costs"
  else if starts_with "repair_times_part_" f then Some "repair_times"
  else None.
(** The parts of one kind in the order of the listing. *)
Definition gather {R} (kind : string) (listing : list string) (dir : dict (rows R)) : list (rows R) :=
  somes (map (fun f => match file_kind f with
                       | Some k => if String.eqb k kind then dget f dir else None
                       | None => None
                       end) listing).
(** [pd.concat(parts).reindex(labels)]; duplicates in the source are rejected. *)
Fixpoint has_dup (l : list string) : bool := match l with [] => false | x :: tl => mem x tl || has_dup tl end.
Definition collect {R} (labels : list string) (ps : list (rows R)) : result (option (list (string * option R))) :=
  match ps with
  | [] => Ok None
  | _ => let all := List.concat ps in
         if has_dup (map fst all) then Err ValueError else Ok (Some (map (fun l => (l, dget l all)) labels))
  end.
Record outputs (R : Type) := OU { ou_demand : option (list (string * option R)); ou_damage : option (list (string * option R));
                                  ou_costs : option (list (string * option R)); ou_times : option (list (string * option R)) }.
(** regional_sim.py:978-1012: [index] are the labels of the inventory in its order. *)
Definition finish {R} (ims index : list string) (listing : list string) (dir : dict (rows R)) : result (outputs R) :=
  let* d := collect (flat_map (fun loc => map (fun im => (im ++ "-" ++ loc ++ "-1")%string) ims) index) (gather "demand" listing dir) in
  let* g := collect index (gather "damage" listing dir) in
  let* c := collect index (gather "repair_costs" listing dir) in
  let* t := collect index (gather "repair_times" listing dir) in
  Ok (OU d g c t).

(** ** Damage states and decision variables of a chunk *)

(** regional_sim.py:552-585: the decision variables are read after the loop over the buildings, from
    the configuration generated for the last one. *)
Definition chunk_variables {A} (requested : A -> list string) (chunk : list A) : result (list string) :=
  match rev chunk with [] => Err NameError | b :: _ => Ok (requested b) end.
(** regional_sim.py:413-426: repair times, for the methods with a one-to-one loss map. *)
Definition chunk_times {A R} (requested : A -> list string) (times : rows R) (chunk : list A) : result (option (rows R)) :=
  let* dvs := chunk_variables requested chunk in
  Ok (if mem "Time" dvs then Some times else None).

(** One realization of the damage sample: component, location, direction, uid, state and quantity. *)
Record cell := Cell { ce_cmp : string; ce_loc : string; ce_dir : string; ce_uid : string; ce_ds : Z; ce_value : num }.
Definition at_pair (c l : string) (x : cell) : bool := String.eqb (ce_cmp x) c && String.eqb (ce_loc x) l.
(** regional_sim.py:649-668: quantities summed over uid and direction. The code sums over uid
    first; the sums are the same. *)
Definition state_total (cells : list cell) (c l : string) (k : Z) : num :=
  nsum1 (map ce_value (filter (fun x => at_pair c l x && Z.eqb (ce_ds x) k) cells)).
(** regional_sim.py:670-673 *)
Definition marked (v : num) : num := match v with Some q => if Qcltb 0 q then Some 1%Qc else Some q | None => None end.
(** [groupby.max()], NaN when all values are NaN. *)
Definition nmax_skip (l : list num) : num := match somes l with [] => None | q :: tl => Some (fold_left Qcmax tl q) end.
(** regional_sim.py:675-689: the largest state with a positive quantity. *)
Definition governing_state (cells : list cell) (c l : string) : num :=
  nmax_skip (map (fun k => nmul (marked (state_total cells c l k)) (Some (qz k)))
                 (unique Z.eqb (map ce_ds (filter (at_pair c l) cells)))).
Definition pair_eqb (a b : string * string) : bool := String.eqb (fst a) (fst b) && String.eqb (snd a) (snd b).
(** regional_sim.py:695-702: [astype(int)] rejects NaN; the states of the components at a location
    are added; locations become integers, in order. Truncation to integers is left out: quantities
    are not negative, so the values are integers. *)
Definition damage_table (cells : list cell) : result (list (Z * Qc)) :=
  let* gs := mapM (fun cl => match governing_state cells (fst cl) (snd cl) with Some q => Ok (cl, q) | None => Err ValueError end)
                  (unique pair_eqb (map (fun x => (ce_cmp x, ce_loc x)) cells)) in
  let* table := mapM (fun l => match pyint l with
                               | Some z => Ok (z, qsum (map snd (filter (fun g => String.eqb (snd (fst g)) l) gs)))
                               | None => Err ValueError
                               end) (unique String.eqb (map (fun g => snd (fst g)) gs)) in
  Ok (isort (fun a b => Z.leb (fst a) (fst b)) table).
