(** Shared vocabulary of the model: Python exceptions as values, ordered
    dictionaries, string helpers, label order, exact rational arithmetic and
    numbers that may be NaN.  Nothing in this file models a particular pelicun
    function; it renders the Python / pandas primitives the code relies on. *)
From Coq Require Export List Bool Arith ZArith Lia String Ascii.
From Coq Require Export QArith Qcanon.
From Coq Require Import Sorting.Permutation Lqa.
From Coq Require Import DecimalString DecimalNat.
Export ListNotations.
Set Implicit Arguments.

(** ** Exceptions as values *)

(** Python exception classes raised (explicitly or by a library call) in the
    modelled code. *)
Inductive exn :=
| ValueError | KeyError | IndexError | TypeError | AttributeError
| NameError | AssertionError | UnitsError | FileNotFoundError | RuntimeError
| ZeroDivisionError | OverflowError | InvalidIndexError.

Inductive result (A : Type) :=
| Ok (a : A)
| Err (e : exn).
Arguments Ok {A} a.
Arguments Err {A} e.

Definition bind {A B} (r : result A) (f : A -> result B) : result B :=
  match r with Ok a => f a | Err e => Err e end.
Notation "'let*' x ':=' r 'in' k" := (bind r (fun x => k))
  (at level 200, x pattern, right associativity).

Definition is_ok {A} (r : result A) : bool :=
  match r with Ok _ => true | Err _ => false end.

(** Sequential evaluation of a Python loop whose body may raise. *)
Fixpoint mapM {A B} (f : A -> result B) (l : list A) : result (list B) :=
  match l with
  | [] => Ok []
  | x :: tl => let* y := f x in let* ys := mapM f tl in Ok (y :: ys)
  end.

Fixpoint foldM {A S} (f : S -> A -> result S) (s : S) (l : list A) : result S :=
  match l with
  | [] => Ok s
  | x :: tl => let* s' := f s x in foldM f s' tl
  end.

(** ** Ordered dictionaries (Python [dict]: insertion order, unique keys) *)

Section Dict.
  Context {V : Type}.
  Definition dict := list (string * V).

  Fixpoint dget (k : string) (d : dict) : option V :=
    match d with
    | [] => None
    | (k', v) :: tl => if String.eqb k k' then Some v else dget k tl
    end.

  (** [d[k] = v]: replaces in place or appends. *)
  Fixpoint dset (k : string) (v : V) (d : dict) : dict :=
    match d with
    | [] => [(k, v)]
    | (k', v') :: tl =>
        if String.eqb k k' then (k', v) :: tl else (k', v') :: dset k v tl
    end.

  (** [del d[k]] / [d.pop(k)] *)
  Definition ddel (k : string) (d : dict) : dict :=
    filter (fun kv => negb (String.eqb k (fst kv))) d.

  Definition dmem (k : string) (d : dict) : bool :=
    match dget k d with Some _ => true | None => false end.

  Definition keys (d : dict) : list string := map fst d.
End Dict.
Arguments dict V : clear implicits.

(** Membership test [x in l] for a list (or set) of strings. *)
Definition mem (x : string) (l : list string) : bool := existsb (String.eqb x) l.

(** ** Strings *)

Local Open Scope string_scope.
Local Open Scope list_scope.

(** [s.split(c)] for a one-character separator [c]. *)
Fixpoint split_on (c : ascii) (s : string) : list string :=
  match s with
  | EmptyString => [""]
  | String a tl =>
      if Ascii.eqb a c then "" :: split_on c tl
      else match split_on c tl with
           | [] => [String a ""]
           | w :: ws => String a w :: ws
           end
  end.

(** [sep.join(l)] *)
Definition join (sep : string) (l : list string) : string := String.concat sep l.

(** [c in s] for a character. *)
Fixpoint has_char (c : ascii) (s : string) : bool :=
  match s with
  | EmptyString => false
  | String a tl => Ascii.eqb a c || has_char c tl
  end.

(** [s.startswith(p)] *)
Definition starts_with (p s : string) : bool := String.prefix p s.

(** [p in s] for strings *)
Fixpoint contains (p s : string) : bool :=
  String.prefix p s ||
  match s with EmptyString => false | String _ tl => contains p tl end.

Fixpoint lstrip (c : ascii) (s : string) : string :=
  match s with
  | EmptyString => ""
  | String a tl => if Ascii.eqb a c then lstrip c tl else s
  end.

Fixpoint str_rev_app (s acc : string) : string :=
  match s with EmptyString => acc | String a tl => str_rev_app tl (String a acc) end.
Definition str_rev (s : string) : string := str_rev_app s "".

(** [s.strip(c)] *)
Definition strip (c : ascii) (s : string) : string :=
  str_rev (lstrip c (str_rev (lstrip c s))).

(** [str(n)] for a natural number. *)
Definition str_of_nat (n : nat) : string :=
  NilEmpty.string_of_uint (Nat.to_uint n).

(** ** Order on labels (Python string / tuple comparison) *)

Definition str_le (a b : string) : bool := String.leb a b.

(** Lexicographic order on tuples of strings. *)
Fixpoint label_le (a b : list string) : bool :=
  match a, b with
  | [], _ => true
  | _ :: _, [] => false
  | x :: a', y :: b' =>
      match String.compare x y with
      | Lt => true
      | Gt => false
      | Eq => label_le a' b'
      end
  end.

Section Sort.
  Context {A : Type} (le : A -> A -> bool).
  Fixpoint insert (x : A) (l : list A) : list A :=
    match l with
    | [] => [x]
    | y :: tl => if le x y then x :: l else y :: insert x tl
    end.
  (** Stable sort (pandas [sort_index], Python [sorted]). *)
  Fixpoint isort (l : list A) : list A :=
    match l with [] => [] | x :: tl => insert x (isort tl) end.
End Sort.

(** [pd.unique] / ordered de-duplication: first occurrences, in order. *)
Section Unique.
  Context {A : Type} (eqb : A -> A -> bool).
  Fixpoint unique_acc (seen : list A) (l : list A) : list A :=
    match l with
    | [] => []
    | x :: tl => if existsb (eqb x) seen then unique_acc seen tl
                 else x :: unique_acc (x :: seen) tl
    end.
  Definition unique (l : list A) : list A := unique_acc [] l.
End Unique.

(** ** Rational numbers *)

Local Open Scope Qc_scope.
Notation "'qc' x" := (Q2Qc x%Q) (at level 9, x at level 9, only parsing).

Definition Qcltb (x y : Qc) : bool := if Qclt_le_dec x y then true else false.
Definition Qcleb (x y : Qc) : bool := if Qclt_le_dec y x then false else true.
Definition Qceqb (x y : Qc) : bool := if Qc_eq_dec x y then true else false.
Definition Qcmax (x y : Qc) : Qc := if Qclt_le_dec x y then y else x.
Definition Qcmin (x y : Qc) : Qc := if Qclt_le_dec x y then x else y.
Definition qn (n : nat) : Qc := Q2Qc (inject_Z (Z.of_nat n)).
Definition qz (z : Z) : Qc := Q2Qc (inject_Z z).

Definition qsum (l : list Qc) : Qc := fold_right Qcplus 0 l.

(** A float cell of a table: [None] is NaN. *)
Definition num := option Qc.

(** IEEE comparison: false if one side is NaN. *)
Definition nlt (x y : num) : bool :=
  match x, y with Some a, Some b => Qcltb a b | _, _ => false end.
Definition nmul (x y : num) : num :=
  match x, y with Some a, Some b => Some (a * b) | _, _ => None end.
Definition nadd (x y : num) : num :=
  match x, y with Some a, Some b => Some (a + b) | _, _ => None end.

(** [fillna(0)] *)
Definition nfill0 (x : num) : Qc := match x with Some a => a | None => 0 end.

(** The values that are not NaN. *)
Definition somes {A} (l : list (option A)) : list A :=
  flat_map (fun x => match x with Some a => [a] | None => [] end) l.

(** pandas [sum(min_count=1)]: NaN if every value is NaN. *)
Definition nsum1 (l : list num) : num :=
  match somes l with [] => None | vs => Some (qsum vs) end.

(** pandas [sum()]: NaN are skipped, the empty sum is zero. *)
Definition nsum (l : list num) : Qc := qsum (somes l).
