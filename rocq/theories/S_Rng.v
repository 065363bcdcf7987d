(** Vocabulary for the random numbers of assessments. *)
From Verif Require Import Prelude M_Rng.
Set Implicit Arguments.
Local Open Scope string_scope.
Local Open Scope list_scope.

(** The steps of one assessment, and what they handed out. *)
Definition own (a : string) (steps : list step) : list step := filter (fun s => String.eqb (who s) a) steps.
Definition outcomes {O} (a : string) (os : list (string * O)) : list O := map snd (filter (fun o => String.eqb (fst o) a) os).
(** Every seed of the assessment is given. *)
Definition seeded (a : string) (steps : list step) : Prop :=
  forall s, In s steps -> who s = a -> match s with Create _ None | Reseed _ None => False | _ => True end.
(** The outcome of [steps] in a new process. *)
Definition process {G} (D : generators G) (steps : list step) : list (string * result (list (list Qc))) := fst (run D steps nothing_yet).
