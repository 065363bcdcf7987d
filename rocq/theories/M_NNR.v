(** Model of pelicun/tools/NNR.py. The neighbour search (scikit-learn) and the random choices
    (numpy) are arguments: for each target the distances and indices of its neighbours, and the
    rank of the neighbour drawn for each realization. Numbers are exact. *)
From Verif Require Import Prelude Pandas.
Set Implicit Arguments.
Local Open Scope string_scope.
Local Open Scope list_scope.

(** NNR.py:127 *)
Definition epsilon : Qc := qc (1 # 100000000000000000000).
Definition inverse_square (d : Qc) : Qc := (/ (d * d))%Qc.
Definition inverse (d : Qc) : Qc := (/ d)%Qc.
(** [np.array(w) / np.sum(w)] *)
Definition normalised (ws : list Qc) : list Qc := map (fun w => (w / qsum ws)%Qc) ws.
(** NNR.py:161, 171-181; another name leaves [weights] unbound (UnboundLocalError). *)
Definition weights (weight : string) (n_neighbors : nat) (distances : list Qc) : result (list Qc) :=
  let ds := map (fun d => (d + epsilon)%Qc) distances in
  if String.eqb weight "distance2" then Ok (normalised (map inverse_square ds))
  else if String.eqb weight "uniform" then Ok (map (fun _ => (/ qn n_neighbors)%Qc) ds)
  else if String.eqb weight "distance1" then Ok (normalised (map inverse ds))
  else Err NameError.

(** Values of the sources: source, feature, realization. *)
Definition array3 := list (list (list Qc)).
Definition at3 (a : array3) (s f r : nat) : Qc := nth r (nth f (nth s a []) []) 0%Qc.
(** NNR.py:222-228: the expected value of each feature and realization. *)
Definition expected3 (ws : list Qc) (ids : list nat) (a : array3) (nf nr : nat) : list (list Qc) :=
  map (fun f => map (fun r => qsum (map2 (fun w k => (w * at3 a k f r)%Qc) ws ids)) (seq 0 nr)) (seq 0 nf).
(** NNR.py:230-231: known values without realizations. *)
Definition expected2 (ws : list Qc) (ids : list nat) (a : list (list Qc)) (nf : nat) : list Qc :=
  map (fun f => qsum (map2 (fun w k => (w * nth f (nth k a []) 0)%Qc) ws ids)) (seq 0 nf).

(** NNR.py:194-214: the realizations that drew one neighbour; [value f j] is the value of that
    neighbour. *)
Definition take_rank (ranks : list nat) (rank : nat) (value : nat -> nat -> Qc) (vals : list (list num)) : list (list num) :=
  map (fun fc => map (fun jc => if Nat.eqb (nth (fst jc) ranks O) rank then Some (value (fst fc) (fst jc)) else snd jc)
                     (combine (seq 0 (List.length (snd fc))) (snd fc)))
      (combine (seq 0 (List.length vals)) vals).
(** NNR.py:184-214 for values with realizations ([nr] of them) and without. *)
Definition resample (ranks : list nat) (ids : list nat) (nf : nat) (value : nat -> nat -> nat -> Qc) : list (list num) :=
  fold_left (fun vals rank => take_rank ranks rank (value (nth rank ids O)) vals)
            (isort Nat.leb (unique Nat.eqb ranks)) (repeat (repeat None (List.length ranks)) nf).
Definition resample3 (ranks ids : list nat) (a : array3) (nf nr : nat) : list (list num) :=
  resample ranks ids nf (fun k f j => at3 a k f (j mod nr)).
Definition resample2 (ranks ids : list nat) (a : list (list Qc)) (nf : nat) : list (list num) :=
  resample ranks ids nf (fun k f _ => nth f (nth k a []) 0%Qc).

(** NNR.py:170-236, expected values at all targets. *)
Definition nnr3 (weight : string) (n_neighbors : nat) (neighbours : list (list Qc * list nat)) (a : array3) (nf nr : nat) : result (list (list (list Qc))) :=
  mapM (fun t => let* ws := weights weight n_neighbors (fst t) in Ok (expected3 ws (snd t) a nf nr)) neighbours.
Definition nnr2 (weight : string) (n_neighbors : nat) (neighbours : list (list Qc * list nat)) (a : list (list Qc)) (nf : nat) : result (list (list Qc)) :=
  mapM (fun t => let* ws := weights weight n_neighbors (fst t) in Ok (expected2 ws (snd t) a nf)) neighbours.
