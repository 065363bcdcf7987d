(** What saved outputs are meant to be. *)
From Verif Require Import Prelude M_Base M_Damage M_Outputs.
Set Implicit Arguments.
Local Open Scope string_scope.
Local Open Scope list_scope.

(** The sum, in one realization, of the columns whose label satisfies a condition. *)
Definition amount (p : list string -> bool) (i : nat) (s : sample) : Qc :=
  qsum (map (fun c => nfill0 (nth i (snd c) None)) (filter (fun c => p (fst c)) s)).
Definition all_missing (p : list string -> bool) (i : nat) (s : sample) : Prop :=
  forall c, In c s -> p (fst c) = true -> nth i (snd c) None = None.
Definition level_is (k : nat) (v : string) (label : list string) : bool := String.eqb (nth k label "") v.

(** The quantity of a component in a damage state at a location (levels cmp, loc, dir, uid, ds). *)
Definition quantity (s : sample) (cmp loc ds : string) (i : nat) : Qc :=
  amount (fun l => level_is 0 cmp l && level_is 1 loc l && level_is 4 ds l)%bool i s.
(** The highest damage state with a positive quantity, zero if there is none. *)
Definition governing (s : sample) (cmp loc : string) (i : nat) (v : Qc) : Prop :=
  (forall ds d, (0 < quantity s cmp loc ds i)%Qc -> pyint ds = Some d -> (qz d <= v)%Qc) /\
  ((exists ds d, (0 < quantity s cmp loc ds i)%Qc /\ pyint ds = Some d /\ v = qz d) \/
   (v = 0%Qc /\ forall ds, ~ (0 < quantity s cmp loc ds i)%Qc)).

(** The result files a configuration asks for, and the format it asks for. *)
Fixpoint wants (o : dict json) (sect : list string) (what : string) : Prop :=
  match sect with
  | [] => In (what, JBool true) o
  | k :: inner => exists d, dget k o = Some (JDict d) /\ wants d inner what
  end.
Definition csv_wanted (o : dict json) : Prop := get_keys (JDict o) ["Format"; "CSV"] (JBool false) = JBool true.
Definition json_wanted (o : dict json) : Prop := get_keys (JDict o) ["Format"; "JSON"] (JBool false) <> JBool false.
(** Stem of a file name, section of the configuration, entry. *)
Inductive produces (o : dict json) : string -> Prop :=
| p_dem_s : wants o ["Demand"] "Sample" -> produces o "DEM_sample.zip"
| p_dem_t : wants o ["Demand"] "Statistics" -> produces o "DEM_stats.csv"
| p_cmp_s : wants o ["Asset"] "Sample" -> produces o "CMP_sample.zip"
| p_cmp_t : wants o ["Asset"] "Statistics" -> produces o "CMP_stats.csv"
| p_dmg_s : wants o ["Damage"] "Sample" -> produces o "DMG_sample.zip"
| p_dmg_t : wants o ["Damage"] "Statistics" -> produces o "DMG_stats.csv"
| p_dmg_g : wants o ["Damage"] "GroupedSample" -> produces o "DMG_grp.zip"
| p_dmg_gt : wants o ["Damage"] "GroupedStatistics" -> produces o "DMG_grp_stats.csv"
| p_dv_s : wants o ["Loss"; "Repair"] "Sample" -> produces o "DV_repair_sample.zip"
| p_dv_t : wants o ["Loss"; "Repair"] "Statistics" -> produces o "DV_repair_stats.csv"
| p_dv_g : wants o ["Loss"; "Repair"] "GroupedSample" -> produces o "DV_repair_grp.zip"
| p_dv_gt : wants o ["Loss"; "Repair"] "GroupedStatistics" -> produces o "DV_repair_grp_stats.csv"
| p_dv_a : wants o ["Loss"; "Repair"] "AggregateSample" -> produces o "DV_repair_agg.zip"
| p_dv_at : wants o ["Loss"; "Repair"] "AggregateStatistics" -> produces o "DV_repair_agg_stats.csv".
Definition summary_file (f : string) : Prop := f = "DL_summary.csv" \/ f = "DL_summary_stats.csv".

(** Runs that bring their own outputs; runs of the automatic configuration that ask for everything. *)
Definition brings_outputs (i : run_input) : Prop := ri_auto i = false /\ exists own, ri_own i = Some own /\ own <> [].
Definition complete_regional (i : run_input) : Prop :=
  ri_auto i = true /\ ri_detailed i = false /\ ri_losses i = true /\ ri_format i = None /\
  match ri_outputs i with None => True | Some (im, edp, dm, dv) => (im || edp)%bool = true /\ dm = true /\ dv = true end.
(** A dictionary entry with content. *)
Definition filled (o : dict json) (k : string) : Prop := exists kv d, dget k o = Some (JDict (kv :: d)).
