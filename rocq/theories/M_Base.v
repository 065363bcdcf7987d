(** Model of pelicun/base.py (the parts that are logic rather than I/O). *)
From Verif Require Import Prelude.
Set Implicit Arguments.
Local Open Scope string_scope.
Local Open Scope list_scope.

(** ** Logger: warnings (base.py:288-476) *)

(** [Logger.warning_stack], [Logger.emitted] (base.py:368-369); [printed] records,
    in order, every message passed to [warnings.warn] (base.py:451-453).
    The file with the warnings written next to it (454-460) is in [M_Log]. *)
Record logger := { stack : list string; emitted : list string; printed : list string }.

Definition logger_init : logger := {| stack := []; emitted := []; printed := [] |}.

Definition newline : ascii := "010"%char.

(** base.py:440-445: every line is indented and coloured.  [spaces], [red] and
    [reset] are [self.spaces], [Fore.RED] and [Style.RESET_ALL]. *)
Definition format_warning (spaces red reset msg : string) : string :=
  (String newline "" ++
   String.concat "" (map (fun line => spaces ++ red ++ line ++ reset ++ String newline "")
                         (split_on newline msg)))%string.

(** base.py:425-446 (after formatting). *)
Definition add_formatted (m : string) (s : logger) : logger :=
  if mem m (stack s) then s
  else {| stack := stack s ++ [m]; emitted := emitted s; printed := printed s |}.

(** base.py:448-463.  [emitted] is a set in the code; the model keeps a list, only
    membership is ever tested. *)
Definition emit_warnings (s : logger) : logger :=
  {| stack := [];
     emitted := emitted s ++ stack s;
     printed := printed s ++ filter (fun m => negb (mem m (emitted s))) (stack s) |}.

Inductive log_op :=
| AddWarning (msg : string)
| EmitWarnings
| Warning (msg : string).

(** One call on the logger; base.py:465-476 for [Warning]. *)
Definition log_step (spaces red reset : string) (s : logger) (o : log_op) : logger :=
  match o with
  | AddWarning m => add_formatted (format_warning spaces red reset m) s
  | EmitWarnings => emit_warnings s
  | Warning m => emit_warnings (add_formatted (format_warning spaces red reset m) s)
  end.

Definition log_run spaces red reset (ops : list log_op) : logger :=
  fold_left (log_step spaces red reset) ops logger_init.

(** ** Nested dictionaries *)

(** JSON-like configuration values; [JNaN] is a float NaN.  [JDict] is a Python
    dict: key/value pairs in insertion order. *)
Inductive json :=
| JNull
| JNaN
| JBool (b : bool)
| JNum (q : Qc)
| JStr (s : string)
| JList (l : list json)
| JDict (d : list (string * json)).

Definition is_dict (v : json) : bool := match v with JDict _ => true | _ => false end.

(** One iteration of the loop of [update_vals] (base.py:602-640) for the default
    entry [key: p], applied to the user's dictionary [upd].  The recursion on
    nested dictionaries is the inner loop.  The mutation in place becomes the
    returned dictionary; on an error Python leaves the user's dictionary partially
    updated, which the model does not return. *)
Fixpoint update_entry (p : json) (key : string) (upd : dict json) {struct p}
  : result (dict json) :=
  match p with
  | JDict pd =>
      let loop :=
        fix loop (l : list (string * json)) (u : dict json) : result (dict json) :=
          match l with
          | [] => Ok u
          | (k, v) :: tl => let* u' := update_entry v k u in loop tl u'
          end in
      match dget key upd with
      | None => let* d := loop pd [] in Ok (dset key (JDict d) upd)
      | Some (JDict ud) => let* d := loop pd ud in Ok (dset key (JDict d) upd)
      | Some _ => Err ValueError
      end
  | _ =>
      match dget key upd with
      | None => Ok (dset key p upd)
      | Some (JDict _) => Err ValueError
      | Some _ => Ok upd
      end
  end.

(** base.py:563-641 *)
Fixpoint update_vals (upd : dict json) (primary : dict json) : result (dict json) :=
  match primary with
  | [] => Ok upd
  | (k, v) :: tl => let* u := update_entry v k upd in update_vals u tl
  end.

(** base.py:643-676; [defaults] stands for [load_default_options()]. *)
Definition merge_default_config (defaults : dict json) (user : option (dict json))
  : result (dict json) :=
  update_vals (match user with None => [] | Some u => u end) defaults.

(** [path.strip('/').split('/')] (base.py:1742, 1793) *)
Definition path_keys (path : string) : list string := split_on "/" (strip "/" path).

(** base.py:1743-1752: indexing anything but a dictionary with a string raises
    TypeError, a missing key KeyError; both give the default. *)
Fixpoint get_keys (v : json) (ks : list string) (default : json) : json :=
  match ks with
  | [] => v
  | k :: tl =>
      match v with
      | JDict d => match dget k d with Some v' => get_keys v' tl default | None => default end
      | _ => default
      end
  end.

(** base.py:1699-1752; [None] is [d is None]. *)
Definition get (d : option (dict json)) (path : string) (default : json) : json :=
  match d with
  | None => default
  | Some d => get_keys (JDict d) (path_keys path) default
  end.

(** base.py:1842-1853 applied to the value found.  [pd.isna] of a list is an
    array; the truth value of an array with two or more elements raises
    ValueError, with one element it is that element's test, and for an empty
    array it is False (numpy < 2.2, then [value == []] holds) or raises
    (numpy >= 2.2); [np22] selects the numpy version. *)
Definition value_unspecified (np22 : bool) (v : json) : result bool :=
  match v with
  | JNull => Ok true
  | JNaN => Ok true
  | JDict [] => Ok true
  | JList [] => if np22 then Err ValueError else Ok true
  | JList [x] => Ok (match x with JNull | JNaN => true | _ => false end)
  | JList (_ :: _ :: _) => Err ValueError
  | _ => Ok false
  end.

(** base.py:1806-1853 *)
Definition is_unspecified (np22 : bool) (d : dict json) (path : string) : result bool :=
  value_unspecified np22 (get (Some d) path JNull).

(** base.py:1856-1873 *)
Definition is_specified (np22 : bool) (d : dict json) (path : string) : result bool :=
  let* b := is_unspecified np22 d path in Ok (negb b).

(** base.py:1793-1803: [keys] is non-empty.  Missing or non-dictionary intermediate
    values are replaced by an empty dictionary (1796-1797).  The last key is passed
    to [is_unspecified] as a path (1800); since it contains no '/', it denotes
    itself. *)
Definition sub_dict (o : option json) : dict json :=
  match o with Some (JDict i) => i | _ => [] end.

Fixpoint update_keys (np22 only_if : bool) (d : dict json) (k : string) (ks : list string)
                     (value : json) : result (dict json) :=
  match ks with
  | [] =>
      if only_if then
        let* b := is_unspecified np22 d k in
        Ok (if b then dset k value d else d)
      else Ok (dset k value d)
  | k' :: ks' =>
      let* i := update_keys np22 only_if (sub_dict (dget k d)) k' ks' value in
      Ok (dset k (JDict i) d)
  end.

(** base.py:1755-1803 *)
Definition update (np22 only_if : bool) (d : dict json) (path : string) (value : json)
  : result (dict json) :=
  match path_keys path with
  | [] => Err IndexError
  | k :: ks => update_keys np22 only_if d k ks value
  end.

(** ** Index conversions *)

(** A pandas axis: either flat labels or tuples of labels. *)
Inductive axis_index :=
| Flat (labels : list string)
| Multi (nlevels : nat) (labels : list (list string)).

(** base.py:718-783 on the chosen axis; labels are strings already ([str(id_i)]
    is the identity). *)
Definition to_simple_index (i : axis_index) : axis_index :=
  match i with
  | Flat l => Flat l
  | Multi n l => if Nat.ltb 1 n then Flat (map (join "-") l) else Multi n l
  end.

(** base.py:847-850: pad to the longest label. *)
Definition pad_to (n : nat) (l : list string) : list string :=
  l ++ repeat "" (n - List.length l).

(** base.py:798-867; [np.max] of no labels raises ValueError (845). *)
Definition to_multi_index (i : axis_index) : result axis_index :=
  match i with
  | Multi n l => Ok (Multi n l)
  | Flat [] => Err ValueError
  | Flat l =>
      let pieces := map (split_on "-") l in
      let w := list_max (map (@List.length string) pieces) in
      if Nat.ltb 1 w then Ok (Multi w (map (pad_to w) pieces)) else Ok (Flat l)
  end.

(** The axis argument: only 0 and 1 are accepted (base.py:750, 779-781). *)
Definition convert_to_SimpleIndex (axis : Z) (rows cols : axis_index)
  : result (axis_index * axis_index) :=
  if Z.eqb axis 0 then Ok (to_simple_index rows, cols)
  else if Z.eqb axis 1 then Ok (rows, to_simple_index cols)
  else Err ValueError.

(** base.py:829-867 *)
Definition convert_to_MultiIndex (axis : Z) (rows cols : axis_index)
  : result (axis_index * axis_index) :=
  if Z.eqb axis 0 then let* r := to_multi_index rows in Ok (r, cols)
  else if Z.eqb axis 1 then let* c := to_multi_index cols in Ok (rows, c)
  else Err ValueError.

(** ** Selective scaling *)

(** A table seen along one axis: names of the label levels, and for each entry of
    that axis its label and its values along the other axis. *)
Record table := { levels : list string; entries : list (list string * list num) }.

(** Position of a level name. *)
Fixpoint level_pos (name : string) (names : list string) : option nat :=
  match names with
  | [] => None
  | n :: tl => if String.eqb name n then Some 0%nat
               else option_map S (level_pos name tl)
  end.

(** [idx.get_level_values(level) == value] for one label. *)
Definition label_at (pos : nat) (value : string) (label : list string) : bool :=
  match nth_error label pos with Some v => String.eqb v value | None => false end.

(** base.py:989-990: the conditions refine the mask one after the other; an
    unknown level name raises KeyError. *)
Fixpoint conditions_mask (names : list string) (conds : list (string * string))
                         (label : list string) (acc : bool) : result bool :=
  match conds with
  | [] => Ok acc
  | (lv, v) :: tl =>
      match level_pos lv names with
      | None => Err KeyError
      | Some p => conditions_mask names tl label (acc && label_at p v label)
      end
  end.

Definition scale_values (f : Qc) (vs : list num) : list num :=
  map (fun v => nmul v (Some f)) vs.

(** base.py:937-1001.  The table is given along the axis selected by [axis]; the
    axis argument is only checked for validity. *)
Definition multiply_factor (axis : Z) (raise_missing : bool) (t : table)
                           (conds : list (string * string)) (factor : Qc) : result table :=
  if negb (Z.eqb axis 0 || Z.eqb axis 1) then Err ValueError
  else if existsb (fun c => match level_pos (fst c) (levels t) with None => true | _ => false end)
                  conds
  then Err KeyError
  else
    let* mask := mapM (fun e => conditions_mask (levels t) conds (fst e) true) (entries t) in
    if negb (existsb (fun b => b) mask) && raise_missing then Err ValueError
    else Ok {| levels := levels t;
               entries := map (fun em : (list string * list num) * bool =>
                                 let (e, m) := em in
                                 if m then (fst e, scale_values factor (snd e)) else e)
                              (combine (entries t) mask) |}.

(** ** Unique index (base.py:1275-1305) *)

Fixpoint label_eqb (a b : list string) : bool :=
  match a, b with
  | [], [] => true
  | x :: a', y :: b' => String.eqb x y && label_eqb a' b'
  | _, _ => false
  end.

(** [groupby(...).cumcount()]: how often the label occurred before. *)
Fixpoint add_uid {A} (seen : list (list string)) (l : list (list string * A))
  : list (list string * A) :=
  match l with
  | [] => []
  | (lab, a) :: tl =>
      (lab ++ [str_of_nat (List.length (filter (label_eqb lab) seen))], a)
        :: add_uid (seen ++ [lab]) tl
  end.

(** base.py:1301-1305; dtype is [str], the default used everywhere. *)
Definition dedupe_index {A} (rows : list (list string * A)) : list (list string * A) :=
  isort (fun a b => label_le (fst a) (fst b)) (add_uid [] rows).

(** ** Units *)

(** [float(val)] (base.py:1501); [pyfloat] parses strings the way Python does. *)
Definition to_float (pyfloat : string -> option num) (v : json) : result num :=
  match v with
  | JNum q => Ok (Some q)
  | JNaN => Ok None
  | JBool b => Ok (Some (if b then 1 else 0)%Qc)
  | JStr s => match pyfloat s with Some x => Ok x | None => Err ValueError end
  | JNull | JList _ | JDict _ => Err TypeError
  end.

(** base.py:1353-1400 *)
Fixpoint dict_raise_on_duplicates {V} (acc : dict V) (pairs : list (string * V))
  : result (dict V) :=
  match pairs with
  | [] => Ok acc
  | (k, v) :: tl =>
      if dmem k acc then Err ValueError else dict_raise_on_duplicates (acc ++ [(k, v)]) tl
  end.

(** [json.load(f, object_pairs_hook=dict_raise_on_duplicates)]: the hook sees every
    object of the document, inner ones first. *)
Fixpoint json_hook (v : json) : result json :=
  match v with
  | JDict d =>
      let* d' :=
        (fix go (l : list (string * json)) : result (list (string * json)) :=
           match l with
           | [] => Ok []
           | (k, x) :: tl => let* x' := json_hook x in let* tl' := go tl in Ok ((k, x') :: tl')
           end) d in
      let* d'' := dict_raise_on_duplicates [] d' in Ok (JDict d'')
  | JList l =>
      let* l' :=
        (fix go (l : list json) : result (list json) :=
           match l with
           | [] => Ok []
           | x :: tl => let* x' := json_hook x in let* tl' := go tl in Ok (x' :: tl')
           end) l in
      Ok (JList l')
  | _ => Ok v
  end.

(** base.py:1490-1507: first level values must be dictionaries of numbers. *)
Definition parse_category (pyfloat : string -> option num) (v : json)
  : result (dict num) :=
  match v with
  | JDict d => mapM (fun kv => let* x := to_float pyfloat (snd kv) in Ok (fst kv, x)) d
  | _ => Err TypeError
  end.

(** base.py:1490-1510: the table by category. *)
Definition parse_units_categories (pyfloat : string -> option num) (doc : json)
  : result (dict (dict num)) :=
  let* doc' := json_hook doc in
  match doc' with
  | JDict d => mapM (fun kv => let* c := parse_category pyfloat (snd kv) in Ok (fst kv, c)) d
  | _ => Err AttributeError
  end.

(** base.py:1512-1520 *)
Definition flatten_units (cats : dict (dict num)) : result (dict num) :=
  foldM (fun acc (cat : string * dict num) =>
           foldM (fun acc' (uf : string * num) =>
                    if dmem (fst uf) acc' then Err ValueError
                    else Ok (acc' ++ [uf]))
                 acc (snd cat))
        [] cats.

(** base.py:1403-1529 with [preserve_categories=False]: [doc] is the content of the
    custom file if one is given, of default_units.json otherwise. *)
Definition parse_units (pyfloat : string -> option num) (doc : json) : result (dict num) :=
  let* cats := parse_units_categories pyfloat doc in flatten_units cats.

(** base.py:1599-1606: the first category that knows the unit. *)
Fixpoint find_category (unit : string) (all_units : dict (dict Qc)) : option (dict Qc) :=
  match all_units with
  | [] => None
  | (_, us) :: tl => if dmem unit us then Some us else find_category unit tl
  end.

(** base.py:1585-1617: the unit table to use. *)
Definition units_for (all_units : dict (dict Qc)) (unit to_unit : string)
                     (category : option string) : result (dict Qc) :=
  match category with
  | Some c =>
      if String.eqb c "" then (* an empty string is falsy: the category is inferred *)
        match find_category unit all_units with
        | None => Err ValueError
        | Some us => if dmem to_unit us then Ok us else Err ValueError
        end
      else
        match dget c all_units with
        | None => Err ValueError
        | Some us => if dmem unit us && dmem to_unit us then Ok us else Err ValueError
        end
  | None =>
      match find_category unit all_units with
      | None => Err ValueError
      | Some us => if dmem to_unit us then Ok us else Err ValueError
      end
  end.

(** base.py:1539-1631 for an array of values.  Division by a zero factor is IEEE
    infinity in numpy; theorems assume non-zero factors. *)
Definition convert_units (all_units : dict (dict Qc)) (values : list Qc)
                         (unit to_unit : string) (category : option string)
  : result (list Qc) :=
  let* us := units_for all_units unit to_unit category in
  match dget unit us, dget to_unit us with
  | Some f, Some t => Ok (map (fun v => v * f / t)%Qc values)
  | _, _ => Err KeyError
  end.

(** ** Small parsers *)

Definition lower_ascii (a : ascii) : ascii :=
  let n := nat_of_ascii a in
  if (Nat.leb 65 n && Nat.leb n 90)%bool then ascii_of_nat (n + 32) else a.

Fixpoint lower (s : string) : string :=
  match s with EmptyString => "" | String a tl => String (lower_ascii a) (lower tl) end.

(** base.py:1126-1164 for string arguments; ASCII case folding. *)
Definition str2bool (v : string) : result bool :=
  if mem (lower v) ["yes"; "true"; "True"; "t"; "y"; "1"] then Ok true
  else if mem (lower v) ["no"; "false"; "False"; "f"; "n"; "0"] then Ok false
  else Err ValueError. (* argparse.ArgumentTypeError *)

(** base.py:1666-1696 *)
Definition invert_mapping (m : dict (list string)) : result (dict string) :=
  foldM (fun acc (kv : string * list string) =>
           foldM (fun acc' v => if dmem v acc' then Err ValueError
                                else Ok (acc' ++ [(v, fst kv)]))
                 acc (snd kv))
        [] m.
