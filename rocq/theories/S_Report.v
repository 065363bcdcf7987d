(** What reports are meant to be. *)
From Coq Require Import Sorting.Permutation Sorting.Sorted.
From Verif Require Import Prelude M_Base M_FileIO M_Damage M_Outputs S_Outputs M_Report.
Set Implicit Arguments.
Local Open Scope string_scope.
Local Open Scope list_scope.

(** ** Dictionaries *)

(** Numbers survive being written and read again. *)
Definition reads_back (T : tools) : Prop := forall x, parse T (show T x) = Some x.
(** Following the names of a label leads to a value; empty names may be left over. *)
Inductive found : jtree -> list string -> jtree -> Prop :=
| found_list v l : Forall (eq "") l -> found (JList v) l (JList v)
| found_rows d l : Forall (eq "") l -> found (JRows d) l (JRows d)
| found_below k t d l v : In (k, t) d -> found t l v -> found (JTree d) (k :: l) v.

(** The levels of a label: its parts between dashes, filled up with empty names to the longest label;
    one level with the whole label if simple labels are asked for. *)
Definition parts (label : string) : list string := split_on "-" label.
Definition levels (simple : bool) (labels : list string) : nat :=
  if simple then 1%nat else list_max (map (fun l => List.length (parts l)) labels).
Definition path (simple : bool) (labels : list string) (label : string) : list string :=
  if simple then [label] else parts label ++ repeat "" (levels simple labels - List.length (parts label)).
(** Empty names only at the end. *)
Definition trailing (l : list string) : Prop := exists a k, l = a ++ repeat "" k /\ ~ In "" a.
(** Labels that can be told apart, none of them below [Units]. *)
Definition well_labelled (simple : bool) (labels : list string) : Prop :=
  labels <> [] /\ NoDup (map (path simple labels) labels) /\ Forall trailing (map (path simple labels) labels) /\
  ~ In "Units" (map (fun l => hd "" (path simple labels l)) labels).
Definition units_for {A} (cols : list A) (units : option (list string)) : Prop :=
  match units with Some us => List.length us = List.length cols | None => True end.
Definition no_number (T : tools) (u : string) : Prop := parse T u = None.

(** ** Statistics *)

Definition least (v : list Qc) (x : Qc) : Prop := In x v /\ forall y, In y v -> (x <= y)%Qc.
Definition greatest (v : list Qc) (x : Qc) : Prop := In x v /\ forall y, In y v -> (y <= x)%Qc.
(** The values in order, numbered from zero to [n - 1]: the value at the position [(n - 1) p], on the
    straight line between neighbours. *)
Definition interpolated (p : Qc) (v : list Qc) (x : Qc) : Prop :=
  exists ys k w, Permutation v ys /\ StronglySorted Qcle ys /\ (0 <= w)%Qc /\ (w < 1)%Qc /\
    (qn (List.length v - 1) * p = qn k + w)%Qc /\
    ((w = 0%Qc /\ nth_error ys k = Some x) \/
     exists a b, nth_error ys k = Some a /\ nth_error ys (S k) = Some b /\ x = (a + w * (b - a))%Qc).
Definition at_most (x : Qc) (v : list Qc) : list Qc := filter (fun y => Qcleb y x) v.
Definition at_least (x : Qc) (v : list Qc) : list Qc := filter (fun y => Qcleb x y) v.
Definition present {A} (col : list (option A)) : list A := somes col.
Definition statistic (R : roots) (col : list num) (name : string) (x : num) : Prop := In (name, x) (describe R col).
(** The order of the values does not matter to the library. *)
Definition symmetric (R : roots) : Prop := forall v v', Permutation v v' -> log_deviation R v = log_deviation R v'.
(** The percentiles of the statistics. *)
Definition reported_percentiles : list (string * Qc) :=
  [("0.1%", qc (1 # 1000)); ("2.3%", qc (23 # 1000)); ("10%", qc (1 # 10)); ("15.9%", qc (159 # 1000)); ("50%", qc (1 # 2));
   ("84.1%", qc (841 # 1000)); ("90%", qc (9 # 10)); ("97.7%", qc (977 # 1000)); ("99.9%", qc (999 # 1000))].
(** Amount of [name] in its first damage state: levels cmp, loc, dir, uid, ds. *)
Definition in_first_state (name : string) (i : nat) (damage : sample) : Qc :=
  amount (fun l => level_is 0 name l && level_is 4 "1" l)%bool i damage.
