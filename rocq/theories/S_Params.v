(** Specification vocabulary for the loading of damage and loss parameters. *)
From Verif Require Import Prelude Pandas M_Base M_LossDS M_LossLF S_LossLF M_Params.
Set Implicit Arguments.
Local Open Scope string_scope.
Local Open Scope list_scope.

(** A table as it is read: columns are not repeated, every row has these columns. *)
Definition proper {K} (t : ptable K) : Prop :=
  NoDup (p_cols t) /\ forall k r, In (k, r) (p_rows t) -> map fst r = p_cols t.

(** The definitions of [k], source by source. *)
Definition definitions {K} (eqb : K -> K -> bool) (sources : list (ptable K)) (k : K) : list row :=
  flat_map (fun t => map snd (filter (fun kr => eqb k (fst kr)) (p_rows t))) sources.

(** [r] is the first definition of [k]: sources before do not define it, rows before neither. *)
Definition first_definition {K} (sources : list (ptable K)) (k : K) (r : row) : Prop :=
  exists before src after above below, sources = before ++ src :: after /\ p_rows src = above ++ (k, r) :: below /\
    ~ In k (map fst above) /\ forall t, In t before -> ~ In k (map fst (p_rows t)).

(** The first cell of column [c] that is not blank, over the definitions of [k]. *)
Definition first_cell (rs : list row) (c : col) (v : value) : Prop :=
  (v = VBlank /\ forall r, In r rs -> at_col r c = VBlank) \/
  (v <> VBlank /\ exists before r after, rs = before ++ r :: after /\ at_col r c = v /\ forall x, In x before -> at_col x c = VBlank).

(** ** Units *)

(** 'ft', or '100 ft'; white space around is ignored. *)
Inductive unit_factor (e : penv) (unit : string) (f : Qc) : Prop :=
| plain_unit : forall name, M_Damage.strip_space unit = name -> has_char " " name = false -> dget name (factors e) = Some f -> unit_factor e unit f
| counted_unit : forall count name n g, M_Damage.strip_space unit = (count ++ " " ++ name)%string ->
    has_char " " count = false -> has_char " " name = false ->
    numbers e count = Some n -> dget name (factors e) = Some g -> f = (n * g)%Qc -> unit_factor e unit f.

(** ** Parameters of distributions *)

(** What a cell stands for. *)
Inductive stands_for (e : penv) : value -> par -> Prop :=
| st_blank : stands_for e VBlank PNone
| st_number : forall q, stands_for e (VNum q) (PNum q)
| st_text : forall s q, numbers e s = Some q -> stands_for e (VText s) (PNum q)
| st_curve : forall s ys xs, numbers e s = None -> table_text (numbers e) s ys xs -> stands_for e (VText s) (PCurve ys xs)
| st_more : forall s more ys xs, numbers e (s ++ "|" ++ more)%string = None -> table_text (numbers e) s ys xs ->
    stands_for e (VText (s ++ "|" ++ more)%string) (PCurve ys xs).
(** How a parameter is written. *)
Definition written (e : penv) (p : par) : value :=
  match p with
  | PNone => VBlank
  | PNum q => VNum q
  | PCurve ys xs => VText (join "," (map (shown e) ys) ++ "|" ++ join "," (map (shown e) xs))%string
  end.
(** Ordinates times [f], abscissae times [a]. *)
Definition times (f a : Qc) (p : par) : par :=
  match p with
  | PNone => PNone
  | PNum q => PNum (q * f)%Qc
  | PCurve ys xs => PCurve (map (fun y => y * f)%Qc ys) (map (fun x => x * a)%Qc xs)
  end.

(** The second parameter of a family: has the unit of the variable, is relative, or does not exist. *)
Inductive second_kind := WithUnit | Relative | Unused.
Definition second_of (family : option string) : second_kind :=
  match family with
  | None => Unused
  | Some f => if mem f ["normal_std"; "uniform"] then WithUnit
              else if mem f ["normal"; "normal_cov"; "lognormal"] then Relative else Unused
  end.
Definition supported (family : option string) : Prop :=
  match family with
  | None => True
  | Some f => In f ["normal_std"; "uniform"; "normal"; "normal_cov"; "lognormal"; "deterministic"; "multilinear_CDF"]
  end.
Definition family_of (v : value) (family : option string) : Prop :=
  match v with VBlank => family = None | VText s => family = Some s | VNum _ => False end.

(** The cells of a marginal after multiplication by [f] (abscissae by [a]). *)
Definition rescaled (e : penv) (f a : Qc) (old new : string -> value) : Prop :=
  exists family p0 p1, family_of (old "Family") family /\ supported family /\
    stands_for e (old "Theta_0") p0 /\ new "Theta_0" = written e (times f a p0) /\
    stands_for e (old "Theta_1") p1 /\
    new "Theta_1" = match second_of family with
                    | WithUnit => written e (times f a p1) | Relative => written e (times 1%Qc a p1) | Unused => VBlank end /\
    new "Theta_2" = VBlank /\
    (forall field, In field ["TruncateLower"; "TruncateUpper"] ->
       match old field with VNum q => new field = VNum (q * f)%Qc | VBlank => new field = VBlank | VText _ => False end) /\
    forall field, ~ In field ["Theta_0"; "Theta_1"; "Theta_2"; "TruncateLower"; "TruncateUpper"] -> new field = old field.

(** Empirical distributions and cells without a unit stay as they are. *)
Definition converted (e : penv) (divide : bool) (unit : value) (arg : option value) (old new : string -> value) : Prop :=
  (unit = VBlank /\ forall field, new field = old field) \/
  (old "Family" = VText "empirical" /\ forall field, new field = old field) \/
  exists u fu a, unit = VText u /\ unit_factor e u fu /\
    match arg with
    | None => a = 1%Qc
    | Some v => exists s, v = VText s /\ ((s = "1 EA" /\ a = 1%Qc) \/ (s <> "1 EA" /\ unit_factor e s a))
    end /\
    (divide = true -> a <> 0%Qc) /\ rescaled e (if divide then (fu / a)%Qc else fu) a old new.


(** ** Damage parameters *)

(** Definitions marked as incomplete are not used. *)
Definition usable (r : row) : Prop := at_col r ("Incomplete", "") <> VNum 1.
(** [r] is the definition [r0] after conversion to base units; the unit is removed. *)
Definition damage_row (e : penv) (r0 r : row) : Prop :=
  (forall g f, In (g, f) (map fst r0) -> starts_with "LS" g = true ->
     converted e true (at_col r0 ("Demand", "Unit")) None (fun field => at_col r0 (g, field)) (fun field => at_col r (g, field))) /\
  (forall g f, starts_with "LS" g = false -> (g, f) <> ("Demand", "Unit") -> at_col r (g, f) = at_col r0 (g, f)) /\
  at_col r ("Demand", "Unit") = VBlank /\
  forall c, ~ In c (map fst r0) -> at_col r c = VBlank.
(** Loaded parameters as a source of definitions. *)
Definition loaded_before {K} (old : option (ptable K)) : list (ptable K) := match old with None => [] | Some t => [t] end.
Definition one_each {K} (old : option (ptable K)) : Prop := match old with None => True | Some t => proper t /\ NoDup (map fst (p_rows t)) end.

(** ** Loss parameters *)

Definition heading {K} (t : ptable K) (g : string) : bool := existsb (fun c => String.eqb (fst c) g) (p_cols t).
(** A source with a heading DS1 has consequences of damage states; otherwise it has loss functions. *)
Definition state_sources {K} (sources : list (ptable K)) : list (ptable K) := filter (fun t => heading t "DS1") sources.
Definition function_sources {K} (sources : list (ptable K)) : list (ptable K) := filter (fun t => negb (heading t "DS1")) sources.

Definition state_heading (g : string) : bool := starts_with "DS" g.
Definition function_heading (g : string) : bool := String.eqb g "LossFunction".

(** [r] is [r1] after conversion to base units, each row with its own units. *)
Definition loss_row (e : penv) (divide : bool) (heads : string -> bool) (arg : col) (r1 r : row) : Prop :=
  (forall g, heads g = true -> (exists f, at_col r1 (g, f) <> VBlank) ->
     converted e divide (at_col r1 ("DV", "Unit")) (Some (at_col r1 arg)) (fun field => at_col r1 (g, field)) (fun field => at_col r (g, field))) /\
  (forall g f, heads g = false -> at_col r (g, f) = at_col r1 (g, f)) /\
  (forall c, at_col r1 c = VBlank -> at_col r c = VBlank).

Definition rows_of {K} (t : option (ptable K)) : list (K * row) := match t with None => [] | Some t => p_rows t end.
Definition usable_definitions (rs : list row) : Prop := rs <> [] /\ ~ first_cell rs ("Incomplete", "") (VNum 1).

(** The parameters [t] come from the definitions in [sources]: each cell is the first one that is
    filled; only for the consequences in use. *)
Definition loss_parameters (e : penv) (divide : bool) (heads : string -> bool) (arg : col) (consequences : list string)
                           (sources : list (ptable pkey)) (t : option (ptable pkey)) : Prop :=
  NoDup (map fst (rows_of t)) /\
  (forall k r, In (k, r) (rows_of t) -> In (fst k) consequences /\ usable_definitions (definitions pair_eqb sources k) /\
     exists r1, (forall c, first_cell (definitions pair_eqb sources k) c (at_col r1 c)) /\ loss_row e divide heads arg r1 r) /\
  (forall k, In (fst k) consequences -> usable_definitions (definitions pair_eqb sources k) -> exists r, In (k, r) (rows_of t)).

(** Two rows of a source give different units to a decision variable. *)
Definition inconsistent (t : ptable pkey) : Prop :=
  exists k r k' r', In (k, r) (p_rows t) /\ In (k', r') (p_rows t) /\ snd k = snd k' /\
    at_col r ("DV", "Unit") <> VBlank /\ at_col r' ("DV", "Unit") <> VBlank /\ at_col r ("DV", "Unit") <> at_col r' ("DV", "Unit").

(** ** The loss map *)

(** The components that the labels of a loss map stand for: the label itself, or what follows DMG. *)
Inductive map_names : axis_index -> list string -> Prop :=
| plain_names : forall l, Forall (fun s => contains "DMG" s = false) l -> map_names (Flat l) l
| prefixed_names : forall n rows names, rows <> [] -> Forall2 (fun row name => exists more, row = "DMG" :: name :: more) rows names -> map_names (Multi n rows) names.

(** Components that a policy adds. *)
Definition policy_adds (policy : option string) (component : string) : Prop :=
  policy = Some "fill_all" \/ (policy = Some "fill" /\ component <> "excessiveRID").
