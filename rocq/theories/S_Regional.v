(** What a regional simulation is meant to do. *)
From Coq Require Import Sorting.Sorted.
From Verif Require Import Prelude Pandas M_Base M_Damage M_NNR M_Regional.
Set Implicit Arguments.
Local Open Scope string_scope.
Local Open Scope list_scope.

(** ** Filters: a part is a number or a range of numbers. *)
Inductive denotes : string -> Z -> Prop :=
| one_number : forall p z, has_char "-" p = false -> pyint p = Some z -> denotes p z
| a_range : forall a b x y z, has_char "-" a = false -> pyint a = Some x -> pyint b = Some y -> (x <= z <= y)%Z ->
    denotes (a ++ String "-" b)%string z.
(** The parts of a filter: the texts between commas without surrounding white space. *)
Definition filter_parts (s : string) : list string := map strip_space (split_on "," s).
Definition strictly_increasing (l : list Z) : Prop := StronglySorted Z.lt l.

(** ** Intensity measures: the mean of the values of one measure at the neighbours. *)
Definition mean_at (ws : list Qc) (ids : list nat) (value : nat -> Qc) : Qc := qsum (map2 (fun w k => (w * value k)%Qc) ws ids).

(** ** Chunks: every building once. *)
Definition label_of {A} (b : Z * A) : string := str_of_Z (fst b).
Definition demand_label (im loc : string) : string := (im ++ "-" ++ loc ++ "-1")%string.
(** The processing of a chunk yields one row per building and one column per building and measure. *)
Definition complete_rows {A R} (ims : list string) (process : list (Z * A) -> parts R) : Prop := forall c,
  Permutation.Permutation (map fst (pa_damage (process c))) (map label_of c) /\
  Permutation.Permutation (map fst (pa_costs (process c))) (map label_of c) /\
  Permutation.Permutation (map fst (pa_demand (process c))) (flat_map (fun b => map (fun im => demand_label im (label_of b)) ims) c) /\
  (forall t, pa_times (process c) = Some t -> Permutation.Permutation (map fst t) (map label_of c)).

(** ** Damage states *)

(** In the realization the component at the location is in damage state [s]: only that state has
    quantities other than zero. *)
Definition realized (cells : list cell) (c l : string) (s : Z) : Prop := (0 <= s)%Z /\
  (exists x q, In x cells /\ ce_cmp x = c /\ ce_loc x = l /\ ce_ds x = s /\ ce_value x = Some q /\ (0 < q)%Qc) /\
  (forall x q, In x cells -> ce_cmp x = c -> ce_loc x = l -> ce_value x = Some q -> (0 <= q)%Qc /\ (ce_ds x <> s -> q = 0%Qc)).
