(** Specification vocabulary for the demand model. *)
From Coq Require Import Sorting.Permutation.
From Verif Require Import Prelude Pandas M_Base M_FileIO M_Damage M_Demand S_FileIO.
Set Implicit Arguments.
Local Open Scope string_scope.
Local Open Scope list_scope.

(** ** Samples *)

(** A clean demand label: type, location and direction, without spaces. *)
Definition clean_label (lab : list string) : Prop :=
  List.length lab = 3%nat /\ Forall (fun s => has_char " " s = false) lab.

(** A demand model as left by loading a clean file with [m] realizations. *)
Definition good_demand (factors : dict Qc) (m : nat) (d : demand) : Prop :=
  NoDup (map fst (d_sample d)) /\
  Forall (fun e => clean_label (fst e) /\ d_type (fst e) <> "ERROR" /\ List.length (snd e) = m)
         (d_sample d) /\
  d_sample d <> [] /\
  NoDup (map fst (d_units d)) /\ known_units factors (map snd (d_units d)) /\
  d_units_name d = "Units".

(** Value [y] in base units of a value [x] given in a unit with factor [f]. *)
Definition in_base (f : Qc) (x y : num) : Prop :=
  match x, y with Some a, Some b => b = (a * f)%Qc | None, None => True | _, _ => False end.

(** The realizations of an error column that did not fail. *)
Definition without_error (m : nat) (e : list num) : list nat :=
  filter (fun i => match nth i e None with Some q => Qceqb q 0 | None => false end) (seq 0 m).

(** ** Calibration *)

(** The converted value of a limit, if the entry gives one that is a number. *)
Definition given_limit (lim : option num) : option Qc :=
  match lim with Some (Some q) => Some q | _ => None end.

(** The four limits of settings and of calibration rows, to state things once. *)
Inductive limit := CensorLower | CensorUpper | TruncateLower | TruncateUpper.
Definition setting_of (l : limit) (s : settings) : option num :=
  match l with
  | CensorLower => s_censor_lower s | CensorUpper => s_censor_upper s
  | TruncateLower => s_truncate_lower s | TruncateUpper => s_truncate_upper s
  end.
Definition limit_of (l : limit) (r : cal_row) : num :=
  match l with
  | CensorLower => censor_lower r | CensorUpper => censor_upper r
  | TruncateLower => truncate_lower r | TruncateUpper => truncate_upper r
  end.

(** The conversion factor an entry names; none means values are in base units. *)
Definition unit_factor (factors : dict Qc) (s : settings) (f : Qc) : Prop :=
  match s_unit s with None => f = 1%Qc | Some u => dget u factors = Some f end.

(** The key of a demand type in the configuration: SA for SA_0.5, PID for PID. *)
Definition base_type (ty : string) : string := hd "" (split_on "_" ty).

(** The entry of the configuration for a demand, if it has one of its own. *)
Definition own_settings (config : dict settings) (lab : list string) (s : settings) : Prop :=
  base_type (d_type lab) <> "ALL" /\ dget (base_type (d_type lab)) config = Some s.
Definition no_own_settings (config : dict settings) (lab : list string) : Prop :=
  base_type (d_type lab) = "ALL" \/ dget (base_type (d_type lab)) config = None.

(** Strictly inside the limits that are given. *)
Definition within (lo up x : num) : Prop :=
  (forall b, up = Some b -> exists v, x = Some v /\ (v < b)%Qc) /\
  (forall a, lo = Some a -> exists v, x = Some v /\ (a < v)%Qc).
Definition row_within (lo up row : list num) : Prop :=
  forall i, (i < List.length row)%nat ->
    within (nth i lo None) (nth i up None) (nth i row None).

(** ** Required demands *)

(** The abbreviations of demands and the names that fragilities use for them. *)
Definition demand_abbreviations : list (string * list string) :=
  [("PID", ["Story Drift Ratio"; "Peak Interstory Drift Ratio"]); ("RID", ["Residual Drift Ratio"; "Residual Interstory Drift Ratio"]);
   ("PRD", ["Roof Drift Ratio"; "Peak Roof Drift Ratio"]); ("PMD", ["Mega Drift Ratio"]); ("EDR", ["Peak Effective Drift Ratio"]);
   ("RDR", ["Racking Drift Ratio"]); ("DWD", ["Damageable Wall Drift"]); ("LR", ["Peak Link Rotation Angle"]); ("LBR", ["Peak Link Beam Chord Rotation"]);
   ("PFA", ["Peak Floor Acceleration"]); ("PFV", ["Peak Floor Velocity"]); ("PFD", ["Peak Floor Displacement"]);
   ("PGA", ["Peak Ground Acceleration"]); ("PGV", ["Peak Ground Velocity"]); ("PGD", ["Permanent Ground Deformation"]);
   ("SA", ["Spectral Acceleration"; "Peak Spectral Acceleration"]); ("SV", ["Spectral Velocity"; "Peak Spectral Velocity"]);
   ("SD", ["Spectral Displacement"; "Peak Spectral Displacement"]);
   ("PWS", ["Peak Gust Wind Speed"]); ("PWF", ["Peak Wind Force"]); ("PWP", ["Peak Wind Pressure"]); ("PIF", ["Peak Internal Force"]); ("PLF", ["Peak Line Force"]);
   ("PIH", ["Peak Inundation Height"]); ("ONE", ["One"])].
Definition stands_for (name d : string) : Prop := exists names, In (d, names) demand_abbreviations /\ In name names.

(** The demand type (with its subtype) that a fragility names. *)
Inductive names_type : string -> string -> string -> Prop :=
| plain_type ty d : has_char "|" ty = false -> stands_for ty d -> names_type ty d d
| sub_type a b d : has_char "|" a = false -> has_char "|" b = false ->
    stands_for a d -> names_type (a ++ "|" ++ b) d (d ++ "_" ++ b).

(** The location a term refers to: that of the group, plus the offset of the fragility, plus
    the offset configured for the demand type (integers). *)
Definition term_location (offsets : dict Qc) (p : pg) (t : term) (d : string) (l : Z) : Prop :=
  exists base off, pyint (loc p) = Some base /\ t_offset t = Some (qz off) /\
    match dget d offsets with
    | None => l = (base + off)%Z
    | Some e => exists extra, e = qz extra /\ l = (base + off + extra)%Z
    end.

Definition directional (t : term) : Prop := t_directional t <> Some 0%Qc.

(** [x] is the largest of the values in [P] that are numbers; NaN if none is. *)
Definition is_largest (P : num -> Prop) (x : num) : Prop :=
  match x with
  | None => forall y, P y -> y = None
  | Some v => P (Some v) /\ forall w, P (Some w) -> (w <= v)%Qc
  end.

(** The columns of a type at a location, over all directions. *)
Definition at_location (ty l : string) (sample : frame) (col : list num) : Prop :=
  exists d, In ([ty; l; d], col) sample.

(** The multiplier for a type: its own, else the one for ALL. *)
Definition multiplier_for (multipliers : dict Qc) (ty : string) (m : Qc) : Prop :=
  dget ty multipliers = Some m \/ (dget ty multipliers = None /\ dget "ALL" multipliers = Some m).

(** What a term of a component asks for at a performance group: demand type and location. *)
Definition asks_for (offsets : dict Qc) (p : pg) (t : term) (full l : string) : Prop :=
  exists ty d z, t_type t = Some ty /\ names_type ty d full /\ term_location offsets p t d z /\
    (0 <= z)%Z /\ l = str_of_Z z.

(** The demand of the own direction. *)
Definition directional_value (sample : frame) (full l d : string) (v : list num) : Prop :=
  In ([full; l; d], v) sample.

(** The largest demand over the directions, times the multiplier, in every realization. *)
Definition nondirectional_value (multipliers : dict Qc) (sample : frame) (full l : string)
                                (v : list num) : Prop :=
  exists m, multiplier_for multipliers full m /\ List.length v = n_rows sample /\
    (exists col, at_location full l sample col) /\
    forall i, (i < n_rows sample)%nat ->
      exists x, is_largest (fun y => exists col, at_location full l sample col /\ nth i col None = y) x /\
                nth i v None = match x with Some q => Some (q * m)%Qc | None => None end.

(** The terms that count for a component: the first one, or as many as the expression has
    variables. *)
Definition uses (d : demand_params) (nterms : string -> result nat) (ts : list term) : Prop :=
  match expression d with
  | NoColumn => exists t rest, terms d = t :: rest /\ ts = [t]
  | Blank => False
  | Text e => exists c n, clean_up_expression e = Ok c /\ nterms c = Ok n /\ (n <= List.length (terms d))%nat /\ ts = firstn n (terms d)
  end.

(** The values a term stands for at a performance group. *)
Definition term_value (offsets multipliers : dict Qc) (sample : frame) (p : pg) (t : term)
                      (v : list num) : Prop :=
  exists full l, asks_for offsets p t full l /\
    ((directional t /\ directional_value sample full l (dir p) v) \/
     (~ directional t /\ nondirectional_value multipliers sample full l v)).

(** A table: three levels in the header and columns of equal length. *)
Definition demand_table (sample : frame) : Prop :=
  Forall (fun e => List.length (fst e) = 3%nat /\ List.length (snd e) = n_rows sample) sample.

(** Offsets are whole numbers of stories. *)
Definition whole_offsets (offsets : dict Qc) (d : demand_params) : Prop :=
  Forall (fun t => forall o, t_offset t = Some o -> exists z, o = qz z) (terms d) /\
  (forall ty e, dget ty offsets = Some e -> exists z, e = qz z).

(** X1, X2, ... for the values of the terms in order. *)
Fixpoint named_from (k : nat) (vals : list (list num)) : dict (list num) :=
  match vals with
  | [] => []
  | v :: tl => (("X" ++ str_of_nat k)%string, v) :: named_from (S k) tl
  end.

(** No two of the terms stand for the same demand of the group. *)
Definition different_terms (offsets : dict Qc) (p : pg) (ts : list term) : Prop :=
  ForallOrdPairs (fun t t' => forall full l, asks_for offsets p t full l -> asks_for offsets p t' full l ->
                    (directional t <-> directional t') -> False) ts.

(** ** Cloning *)

(** The labels a column ends up under: the listed copies, or its own. *)
Definition clones_of (cloning : dict (list string)) (lab : list string) : list (list string) :=
  match dget (join "-" lab) cloning with
  | None => [lab]
  | Some news => map (split_on "-") news
  end.

(** Labels as parts without dashes. *)
Definition dashless (lab : list string) : Prop :=
  lab <> [] /\ Forall (fun s => has_char "-" s = false) lab.

(** ** Filtering *)

(** The limits of a kind over all columns. *)
Definition limits (l : limit) (cal : list cal_row) : list num := map (limit_of l) cal.

(** Inside both pairs of limits. *)
Definition in_censor_range (cal : list cal_row) (row : list num) : Prop :=
  row_within (limits CensorLower cal) (limits CensorUpper cal) row.
Definition in_truncation_range (cal : list cal_row) (row : list num) : Prop :=
  row_within (limits TruncateLower cal) (limits TruncateUpper cal) row.

(** The positions of the columns with a property of their calibration row. *)
Definition empty_row : cal_row :=
  {| family := ""; censor_lower := None; censor_upper := None;
     truncate_lower := None; truncate_upper := None; sig_increase := None |}.
Definition cells_at (is_ : list nat) (row : list num) : list num := map (fun i => nth i row None) is_.

(** ** Expressions *)

(** Letters, digits, operators, brackets and white space (ASCII). *)
Definition arithmetic_char (a : ascii) : Prop :=
  In a (list_ascii_of_string
          "abcdefghijklmnopqrstuvwxyzABCDEFGHIJKLMNOPQRSTUVWXYZ0123456789^+-*/() ") \/
  In (nat_of_ascii a) [9; 10; 11; 12; 13; 28; 29; 30; 31]%nat.
