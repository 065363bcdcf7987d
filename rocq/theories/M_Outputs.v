(** Model of the outputs of a calculation (pelicun/tools/DL_calculation.py): which outputs are
    requested, grouped and condensed samples, and the files of the output directory. *)
From Verif Require Import Prelude Pandas M_Base M_Damage.
Set Implicit Arguments.
Local Open Scope string_scope.
Local Open Scope list_scope.

(** ** Samples *)

(** A sample: labelled columns of equal length. *)
Definition sample := list (list string * list num).
(** The listed levels of a label. *)
Definition pick (levels : list nat) (label : list string) : list string := map (fun k => nth k label "") levels.
(** [df.T.groupby(level=levels).sum().mask(count == 0, nan).T] *)
Definition group_sum (n : nat) (levels : list nat) (s : sample) : sample :=
  map (fun g => (fst g, sum_columns n (snd g))) (groupby label_eqb label_le (map (fun c => (pick levels (fst c), snd c)) s)).

(** DL_calculation.py:1441-1453, 1483-1486 [_loss_save]: levels dv, loss, dmg, (ds,) loc, dir, uid. *)
Definition loss_saved (n : nat) (colocated has_ds : bool) (s : sample) : sample :=
  if colocated then group_sum n (if has_ds then [0; 1; 2; 3; 4; 5]%nat else [0; 1; 2; 3; 4]%nat) s else s.
Definition loss_grouped (n : nat) (colocated has_ds : bool) (s : sample) : sample :=
  group_sum n [0; 1; 2]%nat (loss_saved n colocated has_ds s).

(** DL_calculation.py:1301-1311, 1343-1347 [_damage_save]: levels cmp, loc, dir, uid, ds; grouped by
    cmp, loc, ds. *)
Definition damage_by_location (n : nat) (colocated : bool) (s : sample) : sample :=
  if colocated then group_sum n [0; 1; 3]%nat (group_sum n [0; 1; 2; 4]%nat s) else group_sum n [0; 1; 4]%nat s.
(** DL_calculation.py:1375-1384: without condensing. *)
Definition damage_grouped (n : nat) (colocated : bool) (s : sample) : sample :=
  group_sum n [0]%nat (damage_by_location n colocated s).
(** [groupby(...).max()]: NaN are skipped, NaN if there is no value. *)
Definition nmax1 (l : list num) : num :=
  match somes l with [] => None | x :: tl => Some (fold_left Qcmax tl x) end.
(** DL_calculation.py:1351-1353, 1359: values above zero become one, then the number of the damage state. *)
Definition condense_value (d : Z) (v : num) : num :=
  match v with
  | Some q => Some (if Qcltb 0 q then qz d else (q * qz d)%Qc)
  | None => None
  end.
(** DL_calculation.py:1349-1373 *)
Definition damage_condensed (n : nat) (colocated : bool) (s : sample) : result sample :=
  let* cols := mapM (fun c : list string * list num =>
      match pyint (nth 2 (fst c) "") with
      | Some d => Ok (pick [0; 1]%nat (fst c), map (condense_value d) (snd c))
      | None => Err ValueError
      end) (damage_by_location n colocated s) in
  Ok (map (fun g => (fst g, map (fun i => nmax1 (map (fun c => nth i c None) (snd g))) (seq 0 n)))
          (groupby label_eqb label_le cols)).

(** ** Files *)

(** DL_calculation.py:1135-1154 [_parse_requested_output_file_names] *)
Definition requested (cfg : dict json) : list string :=
  map fst (filter (fun kv => match snd kv with JBool true => true | _ => false end) cfg).
Definition section (o : dict json) (k : string) : dict json := match dget k o with Some (JDict d) => d | _ => [] end.
Definition if_requested (reqs : list string) (k file : string) : list string := if mem k reqs then [file] else [].
(** The files appended to [out_files] by [_demand_save] 1157-1203, [_asset_save] 1206-1266,
    [_damage_save] 1269-1407, [_loss_save] 1410-1533, [_summary_save] 544-573; a section that is
    not specified (380-451) requests nothing. *)
Definition demand_files (o : dict json) : list string :=
  let r := requested (section o "Demand") in if_requested r "Sample" "DEM_sample.zip" ++ if_requested r "Statistics" "DEM_stats.csv".
Definition asset_files (o : dict json) : list string :=
  let r := requested (section o "Asset") in if_requested r "Sample" "CMP_sample.zip" ++ if_requested r "Statistics" "CMP_stats.csv".
Definition damage_files (o : dict json) : list string :=
  let r := requested (section o "Damage") in
  if_requested r "Sample" "DMG_sample.zip" ++ if_requested r "Statistics" "DMG_stats.csv" ++
  if_requested r "GroupedSample" "DMG_grp.zip" ++ if_requested r "GroupedStatistics" "DMG_grp_stats.csv".
Definition loss_files (o : dict json) : list string :=
  let r := requested (section (section o "Loss") "Repair") in
  if_requested r "Sample" "DV_repair_sample.zip" ++ if_requested r "Statistics" "DV_repair_stats.csv" ++
  if_requested r "GroupedSample" "DV_repair_grp.zip" ++ if_requested r "GroupedStatistics" "DV_repair_grp_stats.csv" ++
  if_requested r "AggregateSample" "DV_repair_agg.zip" ++ if_requested r "AggregateStatistics" "DV_repair_agg_stats.csv".
Definition out_files (o : dict json) : list string :=
  demand_files o ++ asset_files o ++ damage_files o ++ loss_files o ++ ["DL_summary.csv"; "DL_summary_stats.csv"].

(** DL_calculation.py:105-122 *)
Definition known_output_files : list string :=
  ["DEM_sample.zip"; "DEM_stats.csv"; "CMP_sample.zip"; "CMP_stats.csv"; "DMG_sample.zip"; "DMG_stats.csv";
   "DMG_grp.zip"; "DMG_grp_stats.csv"; "DV_repair_sample.zip"; "DV_repair_stats.csv"; "DV_repair_grp.zip";
   "DV_repair_grp_stats.csv"; "DV_repair_agg.zip"; "DV_repair_agg_stats.csv"; "DL_summary.csv"; "DL_summary_stats.csv"].
(** The directory: the content of each file. *)
Definition directory := dict string.
(** DL_calculation.py:1536-1571 [_remove_existing_files] *)
Definition remove_existing (known : list string) (dir : directory) : directory :=
  filter (fun f => negb (mem (fst f) known)) dir.
(** [filename[:-3] + 'json'] *)
Definition json_name (f : string) : string := (substring 0 (String.length f - 3) f ++ "json")%string.
Definition write_all (made : string -> string) (fs : list string) (dir : directory) : directory :=
  fold_left (fun d f => dset f (made f) d) fs dir.
(** DL_calculation.py:1013-1083 [_create_json_files_if_requested] *)
Definition create_json (made : string -> string) (o : dict json) (fs : list string) (dir : directory) : directory :=
  match get_keys (JDict o) ["Format"; "JSON"] (JBool false) with
  | JBool false => dir
  | _ => write_all made (map json_name fs) dir
  end.
(** DL_calculation.py:518-541 [_remove_csv_files_if_not_requested] *)
Definition remove_csv (o : dict json) (fs : list string) (dir : directory) : result directory :=
  match get_keys (JDict o) ["Format"; "CSV"] (JBool false) with
  | JBool true => Ok dir
  | _ => foldM (fun d f => if contains "DL_summary" f then Ok d
                           else if dmem f d then Ok (ddel f d) else Err FileNotFoundError) dir fs
  end.
(** DL_calculation.py:330, 380-490 [run_pelicun], the files of the output directory; [made] is the
    content written to each file. *)
Definition run_directory (made : string -> string) (o : dict json) (dir : directory) : result directory :=
  let fs := out_files o in
  let d1 := write_all made fs (remove_existing known_output_files dir) in
  remove_csv o fs (create_json made o fs d1).

(** ** Which outputs are requested *)

(** The module keeps two output configurations and a settings dictionary (DL_calculation.py:124-177).
    A run puts them into its configuration without copying them, so that its changes stay. A value
    is a value or, for the settings, the module's own settings dictionary. *)
Inductive oval := OV (j : json) | OPbe.
Record shared := SH { sh_full : dict oval; sh_regional : dict oval; sh_pbe : dict json }.
Definition deref (pbe : dict json) (v : oval) : json := match v with OV j => j | OPbe => JDict pbe end.
Definition outputs_of (pbe : dict json) (o : dict oval) : dict json := map (fun kv => (fst kv, deref pbe (snd kv))) o.

Definition flags (l : list string) (b : bool) : json := JDict (map (fun k => (k, JBool b)) l).
Definition loss_out : json := JDict [("Repair", flags ["Sample"; "Statistics"; "GroupedSample"; "GroupedStatistics"; "AggregateSample"; "AggregateStatistics"] true)].
Definition regional_settings : dict json := [("CondenseDS", JBool true); ("SimpleIndexInJSON", JBool true); ("AggregateColocatedComponentResults", JBool true)].
(** DL_calculation.py:124-177 *)
Definition pristine : shared := SH
  [("Demand", OV (flags ["Sample"; "Statistics"] true)); ("Asset", OV (flags ["Sample"; "Statistics"] true));
   ("Damage", OV (flags ["Sample"; "Statistics"; "GroupedSample"; "GroupedStatistics"] true));
   ("Loss", OV loss_out); ("Format", OV (JDict [("CSV", JBool true); ("JSON", JBool true)]))]
  [("Demand", OV (JDict [("Sample", JBool true); ("Statistics", JBool false)]));
   ("Asset", OV (JDict [("Sample", JBool true); ("Statistics", JBool false)]));
   ("Damage", OV (JDict [("Sample", JBool false); ("Statistics", JBool false); ("GroupedSample", JBool true); ("GroupedStatistics", JBool true)]));
   ("Loss", OV loss_out); ("Format", OV (JDict [("CSV", JBool false); ("JSON", JBool true)])); ("Settings", OV (JDict regional_settings))]
  [("CondenseDS", JBool false); ("SimpleIndexInJSON", JBool false); ("AggregateColocatedComponentResults", JBool true)].

(** What a run brings: whether it is auto-populated, detailed results, whether losses are
    calculated, the entry [outputs] (IM, EDP, DM, DV), its own [DL/Outputs], the output format. *)
Record run_input := RI { ri_auto : bool; ri_detailed : bool; ri_losses : bool; ri_outputs : option (bool * bool * bool * bool);
                         ri_own : option (dict json); ri_format : option (list string) }.
Inductive target := TFull | TRegional | TOwn.

(** [is_unspecified] for the entries of the output configuration, which are dictionaries here. *)
Definition missing (pbe : dict json) (o : dict oval) (k : string) : bool :=
  match dget k o with
  | Some v => match deref pbe v with JDict [] | JNull | JNaN => true | _ => false end
  | None => true
  end.
Definition update_dict (d u : dict json) : dict json := fold_left (fun d kv => dset (fst kv) (snd kv) d) u d.
(** DL_calculation.py:783-788: [config_ap['DL']['Outputs']['Settings'].update(...)] changes the
    module's settings dictionary if it is the one in place. *)
Definition update_settings (o : dict oval) (pbe u : dict json) : dict oval * dict json :=
  match dget "Settings" o with
  | Some OPbe => (o, update_dict pbe u)
  | Some (OV (JDict d)) => (dset "Settings" (OV (JDict (update_dict d u))) o, pbe)
  | _ => (o, pbe)
  end.
Definition settings_of (pbe : dict json) (o : dict oval) : dict json :=
  match dget "Settings" o with Some v => match deref pbe v with JDict d => d | _ => [] end | None => [] end.

(** DL_calculation.py:777-803, 823-845 [_parse_config_file], restricted to [DL/Outputs]. *)
Definition parse_outputs (i : run_input) (sh : shared) : dict json * shared :=
  let '(t, o, pbe) :=
    if ri_auto i then
      let '(t, o, pbe) :=
        if ri_detailed i then
          let o := if missing (sh_pbe sh) (sh_full sh) "Settings" then dset "Settings" (OV (JDict [])) (sh_full sh) else sh_full sh in
          let '(o, pbe) := update_settings o (sh_pbe sh) (settings_of (sh_pbe sh) (sh_regional sh)) in
          (TFull, o, pbe)
        else (TRegional, sh_regional sh, sh_pbe sh) in
      let o := if ri_losses i then o else dset "Loss" (OV (JDict [])) o in
      let o := match ri_outputs i with
        | None => o
        | Some (im, edp, dm, dv) =>
            let o := if (negb im && negb edp)%bool then dset "Demand" (OV (JDict [])) o else o in
            let o := if dm then o else dset "Damage" (OV (JDict [])) o in
            if dv then o else dset "Loss" (OV (JDict [])) o
        end in
      (t, o, pbe)
    else
      match ri_own i with
      | Some ((_ :: _) as own) => (TOwn, map (fun kv => (fst kv, OV (snd kv))) own, sh_pbe sh)
      | _ => (TFull, sh_full sh, sh_pbe sh)
      end in
  let o := if missing pbe o "Format" then dset "Format" (OV (JDict [("CSV", JBool true); ("JSON", JBool false)])) o else o in
  let o := match ri_format i with
    | None => o
    | Some fs => dset "Format" (OV (JDict [("CSV", JBool (mem "csv" fs)); ("JSON", JBool (mem "json" fs))])) o
    end in
  let o := if missing pbe o "Settings" then dset "Settings" OPbe o else o in
  (outputs_of pbe o,
   match t with
   | TFull => SH o (sh_regional sh) pbe
   | TRegional => SH (sh_full sh) o pbe
   | TOwn => SH (sh_full sh) (sh_regional sh) pbe
   end).
(** A process performs runs one after the other. *)
Definition after_runs (is : list run_input) (sh : shared) : shared := fold_left (fun sh i => snd (parse_outputs i sh)) is sh.
