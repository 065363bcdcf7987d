(** Rendering of the pandas operations the modelled code uses on labelled tables:
    performance group labels, association lookup, [groupby], column maps.  Nothing in this
    file models a particular pelicun function. *)
From Coq Require Import Sorting.Permutation.
From Verif Require Import Prelude.
Set Implicit Arguments.
Local Open Scope string_scope.
Local Open Scope list_scope.

(** ** Labels *)

(** A performance group: the four levels cmp, loc, dir, uid of an asset column. *)
Record pg := PG { cmp : string; loc : string; dir : string; uid : string }.

Definition pg_eqb (a b : pg) : bool :=
  String.eqb (cmp a) (cmp b) && String.eqb (loc a) (loc b)
  && String.eqb (dir a) (dir b) && String.eqb (uid a) (uid b).

(** Tuple order on (cmp, loc, dir, uid). *)
Definition pg_label (a : pg) : list string := [cmp a; loc a; dir a; uid a].
Definition pg_le (a b : pg) : bool := label_le (pg_label a) (pg_label b).
(** Tuple order on (loc, dir, cmp, uid). *)
Definition pg_label_ldcu (a : pg) : list string := [loc a; dir a; cmp a; uid a].
Definition pg_le_ldcu (a b : pg) : bool := label_le (pg_label_ldcu a) (pg_label_ldcu b).

(** ** Association lists with any key type (labelled rows or columns) *)
Section Assoc.
  Context {K V : Type} (eqb : K -> K -> bool).
  Fixpoint aget (k : K) (l : list (K * V)) : option V :=
    match l with
    | [] => None
    | (k', v) :: tl => if eqb k k' then Some v else aget k tl
    end.
  (** [d[k] = v] *)
  Fixpoint aset (k : K) (v : V) (l : list (K * V)) : list (K * V) :=
    match l with
    | [] => [(k, v)]
    | (k', v') :: tl => if eqb k k' then (k', v) :: tl else (k', v') :: aset k v tl
    end.
  Definition amem (k : K) (l : list (K * V)) : bool :=
    match aget k l with Some _ => true | None => false end.
End Assoc.

(** ** [groupby]: groups in sorted key order, rows of a group in table order *)
Section GroupBy.
  Context {K V : Type} (eqb le : K -> K -> bool).
  Definition group_rows (k : K) (l : list (K * V)) : list V :=
    map snd (filter (fun kv => eqb k (fst kv)) l).
  Definition groupby (l : list (K * V)) : list (K * list V) :=
    map (fun k => (k, group_rows k l)) (isort le (unique eqb (map fst l))).
End GroupBy.

(** ** Columns *)

(** Element-wise combination of columns of equal length. *)
Fixpoint map2 {A B C} (f : A -> B -> C) (a : list A) (b : list B) : list C :=
  match a, b with
  | x :: a', y :: b' => f x y :: map2 f a' b'
  | _, _ => []
  end.
Fixpoint map3 {A B C D} (f : A -> B -> C -> D) (a : list A) (b : list B) (c : list C) : list D :=
  match a, b, c with
  | x :: a', y :: b', z :: c' => f x y z :: map3 f a' b' c'
  | _, _, _ => []
  end.

Definition zsum (l : list Z) : Z := fold_right Z.add 0%Z l.

(** Largest element of a list of integers (pandas [max]); [d] for the empty list. *)
Definition zmax (d : Z) (l : list Z) : Z :=
  match l with [] => d | x :: tl => fold_left Z.max tl x end.
