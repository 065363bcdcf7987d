(** Model of the random numbers of an assessment: pelicun/base.py:171-250 (the generator of
    [Options] and its seed), pelicun/uq.py:2719-2731 and 2830-2859 (the controlling samples of a
    registry), pelicun/model/demand_model.py:405-406 (the scatter of residual drifts).

    A generator is an object on a heap: [Options] and registries hold references to it. What a
    generator does is an argument: [start] is [np.random.default_rng] for a seed, [entropy] the
    state from the operating system for the k-th generator without one; [uniform], [normal] and
    [permutation] give a value and the next state. Arrays of numbers are drawn one by one, row after
    row. *)
From Verif Require Import Prelude M_UQ.
Set Implicit Arguments.
Local Open Scope string_scope.
Local Open Scope list_scope.

Record generators (G : Type) := Generators {
  start : Z -> G;
  entropy : nat -> G;
  uniform : G -> Qc * G;
  normal : G -> Qc * G;
  permutation : nat -> G -> list nat * G }.

(** Drawing [n] times. *)
Fixpoint draws {G V} (f : G -> V * G) (n : nat) (g : G) : list V * G :=
  match n with
  | O => ([], g)
  | S n => let '(x, g) := f g in let '(xs, g) := draws f n g in (x :: xs, g)
  end.

(** uq.py:2840-2859: [count] rows of [size] numbers between 0 and 1 (see M_UQ), and the generator
    afterwards, also after an error *)
Definition controls {G} (D : generators G) (method : string) (count size : nat) (g : G) : result (list (list Qc)) * G :=
  let '(bins, g) := if contains "LHS" method then draws (permutation D size) count g else ([], g) in
  let '(us, g) := if String.eqb method "LHS" || String.eqb method "MonteCarlo" then draws (draws (uniform D) size) count g else ([], g) in
  (controlling method size count bins us, g).

(** The assessments of a process by name, each with the reference to its generator; the generators
    created so far; how many of them had no seed. *)
Record world (G : Type) := World { asmts : dict nat; heap : list G; unseeded : nat }.
Inductive step :=
| Create (a : string) (seed : option Z)                            (** a new assessment *)
| Reseed (a : string) (seed : option Z)                            (** [options.seed = ...] *)
| Sample (a : string) (method : string) (count size : nat)         (** a registry of the assessment *)
| Scatter (a : string) (count : nat).                              (** residual drifts *)
Definition who (s : step) : string := match s with Create a _ | Reseed a _ | Sample a _ _ _ | Scatter a _ => a end.

Definition allocate {G} (D : generators G) (a : string) (seed : option Z) (w : world G) : world G :=
  let g := match seed with Some s => start D s | None => entropy D (unseeded w) end in
  World (dset a (List.length (heap w)) (asmts w)) (heap w ++ [g]) (match seed with Some _ => unseeded w | None => S (unseeded w) end).
Fixpoint store_at {G} (r : nat) (g : G) (h : list G) : list G :=
  match h, r with
  | [], _ => []
  | _ :: h, O => g :: h
  | x :: h, S r => x :: store_at r g h
  end.
(** What a step hands out, if its assessment exists. *)
Definition run_step {G} (D : generators G) (s : step) (w : world G) : option (result (list (list Qc))) * world G :=
  let used (f : G -> result (list (list Qc)) * G) (a : string) :=
    match dget a (asmts w) with
    | None => (None, w)
    | Some r =>
        match nth_error (heap w) r with
        | None => (None, w)
        | Some g => let '(out, g') := f g in (Some out, World (asmts w) (store_at r g' (heap w)) (unseeded w))
        end
    end in
  match s with
  | Create a seed => (None, allocate D a seed w)
  | Reseed a seed => (None, match dget a (asmts w) with Some _ => allocate D a seed w | None => w end)
  | Sample a method count size => used (controls D method count size) a
  | Scatter a count => used (fun g => let '(xs, g) := draws (normal D) count g in (Ok [xs], g)) a
  end.
(** The outcomes of all steps, each with the name of its assessment. *)
Fixpoint run {G} (D : generators G) (steps : list step) (w : world G) : list (string * result (list (list Qc))) * world G :=
  match steps with
  | [] => ([], w)
  | s :: steps =>
      let '(o, w) := run_step D s w in
      let '(os, w) := run D steps w in
      (match o with Some r => (who s, r) :: os | None => os end, w)
  end.
Definition nothing_yet {G} : world G := World [] [] 0.
