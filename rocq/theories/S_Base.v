(** Specification vocabulary for the theorems about pelicun/base.py.  None of these
    definitions refers to the functions being specified. *)
From Coq Require Import Sorting.Permutation Sorting.Sorted.
From Verif Require Import Prelude M_Base.
Set Implicit Arguments.

(** ** Warnings *)

(** The message passed by a call, if any. *)
Definition added (o : log_op) : list string :=
  match o with AddWarning m => [m] | Warning m => [m] | EmitWarnings => [] end.
Definition all_added (ops : list log_op) : list string := flat_map added ops.

(** How a user reads a printed warning: the constant decoration is irrelevant. *)
Definition no_newline (s : string) : Prop := has_char newline s = false.

(** ** Nested dictionaries *)

(** The value found by following a list of keys. *)
Fixpoint lookup (v : json) (ks : list string) : option json :=
  match ks with
  | [] => Some v
  | k :: tl => match v with
               | JDict d => match dget k d with Some v' => lookup v' tl | None => None end
               | _ => None
               end
  end.

(** Every dictionary has distinct keys, at every depth (true of all Python dicts). *)
Inductive wf_json : json -> Prop :=
| wf_null : wf_json JNull
| wf_nan : wf_json JNaN
| wf_bool b : wf_json (JBool b)
| wf_num q : wf_json (JNum q)
| wf_str s : wf_json (JStr s)
| wf_list l : wf_json (JList l)
| wf_dict d : NoDup (map fst d) -> Forall (fun kv => wf_json (snd kv)) d -> wf_json (JDict d).

(** One side has a group of settings where the other has a plain value. *)
Definition clash (user default : json) : Prop :=
  exists ks a b, lookup user ks = Some a /\ lookup default ks = Some b /\
                 is_dict a <> is_dict b.

(** A path written out as keys separated by '/'. *)
Definition good_keys (ks : list string) : Prop :=
  ks <> [] /\ Forall (fun k => k <> EmptyString /\ has_char "/" k = false) ks.

(** Neither list of keys is a prefix of the other. *)
Fixpoint diverge (a b : list string) : Prop :=
  match a, b with
  | x :: a', y :: b' => x <> y \/ diverge a' b'
  | _, _ => False
  end.

(** ** Labels *)

Definition no_dash (s : string) : Prop := has_char "-" s = false.

(** A label satisfies all conditions: each names a level whose value is as required. *)
Definition satisfies (names : list string) (conds : list (string * string))
                     (label : list string) : Prop :=
  forall lv v, In (lv, v) conds ->
    exists p, nth_error names p = Some lv /\ nth_error label p = Some v.

Definition scaled_by (f : Qc) (old new : list num) : Prop :=
  Forall2 (fun o n => match o, n with
                      | Some x, Some y => y = (f * x)%Qc
                      | None, None => True
                      | _, _ => False end) old new.

(** Number of occurrences of a label. *)
Fixpoint occurrences (lab : list string) (l : list (list string)) : nat :=
  match l with
  | [] => 0
  | x :: tl => (if list_eq_dec string_dec lab x then 1 else 0) + occurrences lab tl
  end.

(** ** Units *)

(** Each unit belongs to one category only. *)
Definition one_category (all : dict (dict Qc)) : Prop :=
  forall c1 us1 c2 us2 u, In (c1, us1) all -> In (c2, us2) all ->
    In u (keys us1) -> In u (keys us2) -> us1 = us2.

(** No conversion factor is zero. *)
Definition nonzero_factors (all : dict (dict Qc)) : Prop :=
  forall c us u f, In (c, us) all -> In (u, f) us -> f <> 0%Qc.

(** What counts as a number in a document; texts as Python reads them. *)
Inductive number_of (pyfloat : string -> option num) : json -> num -> Prop :=
| num_number : forall q, number_of pyfloat (JNum q) (Some q)
| num_nan : number_of pyfloat JNaN None
| num_true : number_of pyfloat (JBool true) (Some 1%Qc)
| num_false : number_of pyfloat (JBool false) (Some 0%Qc)
| num_text : forall s x, pyfloat s = Some x -> number_of pyfloat (JStr s) x.

(** A unit is defined, with factor [x], in some category of the document. *)
Definition defines (pyfloat : string -> option num) (doc : json) (u : string) (x : num) : Prop :=
  exists d cat cd v, doc = JDict d /\ In (cat, JDict cd) d /\ In (u, v) cd /\
                     number_of pyfloat v x.

(** All unit names in the document, category by category. *)
Definition unit_names (d : list (string * json)) : list string :=
  flat_map (fun kv => match snd kv with JDict cd => map fst cd | _ => [] end) d.

(** A well-formed units document: categories with distinct names, each a dictionary of
    number-like values, and no unit defined twice anywhere. *)
Definition good_units_doc (pyfloat : string -> option num) (doc : json) : Prop :=
  exists d, doc = JDict d /\ NoDup (map fst d) /\ NoDup (unit_names d) /\
    forall cat v, In (cat, v) d -> exists cd, v = JDict cd /\
      forall u w, In (u, w) cd -> exists x, number_of pyfloat w x.

(** Values that count as not given. *)
Definition not_given (v : json) : Prop :=
  v = JNull \/ v = JNaN \/ v = JDict [] \/ v = JList [] \/ v = JList [JNull] \/ v = JList [JNaN].
