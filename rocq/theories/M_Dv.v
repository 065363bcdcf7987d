(** Model of the decision variables of a run: those the configuration asks for, those that are
    active in the loss calculation and the totals reported
    (pelicun/tools/DL_calculation.py:402-430,493-515; pelicun/assessment.py:1422-1465;
    pelicun/model/loss_model.py:86,108,175-201). *)
From Verif Require Import Prelude Pandas M_Base M_FileIO M_Params M_Agg M_Assess.
Local Open Scope string_scope.
Local Open Scope list_scope.

(** DL_calculation.py:511-514: [dv_status is True]. *)
Definition is_true (v : json) : bool := match v with JBool b => b | _ => false end.

(** [_parse_decision_variables] (DL_calculation.py:493-515); [.items()] of anything but a
    dictionary raises AttributeError. *)
Definition parse_decision_variables (cfg : dict json) : result (list string) :=
  match get (Some cfg) "DL/Losses/Repair/DecisionVariables" (JBool false) with
  | JBool false => Ok []
  | JDict d => Ok (map fst (filter (fun e => is_true (snd e)) d))
  | _ => Err AttributeError
  end.

(** loss_model.py:86,108: the variables of a new loss model. *)
Definition initial_variables : list string := ["Cost"; "Time"].

(** assessment.py:1422-1423: an empty tuple leaves the variables as they are.  The setter
    (loss_model.py:189-201) hands them to both loss models. *)
Definition activate (current given : list string) : list string :=
  match given with [] => current | _ => given end.

(** [get(config, 'DL/Losses/Repair/CombinationMethod')] (DL_calculation.py:427-429) and
    assessment.py:1430-1461; [table] is the content of combine_wind_flood.csv. *)
Definition combinations (cfg : dict json) (m : lmap) (table : matrix) : result (option (dict (list combination))) :=
  let* method := match get (Some cfg) "DL/Losses/Repair/CombinationMethod" JNull with
                 | JNull => Ok None | JStr s => Ok (Some s) | _ => Err ValueError end in
  let* c := combined_components method m in
  Ok (match c with None => None | Some (w, f) => Some [("Cost", [([w; f], table)])] end).

(** The end of [calculate_loss] (assessment.py:1422-1470) in a run
    (DL_calculation.py:402-430).  [losses dvs] stands for the losses the loss models hold after
    [load_model_parameters] and [calculate] with the variables [dvs] (M_LossDS, M_LossLF), or for
    the exception raised there; [m] is the loss map.  The second component are the variables that
    are active afterwards. *)
Definition run_losses (order : list string -> list string) (raise_unknown : bool) (dv_units : dict string)
    (factors : dict Qc) (table : matrix) (losses : list string -> result loss_state)
    (current : list string) (cfg : dict json) (m : lmap)
  : result (frame * option (list (string * list bool))) * list string :=
  match parse_decision_variables cfg with
  | Err e => (Err e, current)
  | Ok given =>
      let dvs := activate current given in
      (let* st := losses dvs in
       let* combos := combinations cfg m table in
       fst (aggregate_losses order raise_unknown dvs dv_units factors None combos st), dvs)
  end.

(** The variables that are active after several such calculations of one assessment. *)
Definition active_after (order : list string -> list string) (raise_unknown : bool) (dv_units : dict string)
    (factors : dict Qc) (table : matrix) (losses : list string -> result loss_state) (m : lmap)
    (runs : list (dict json)) : list string :=
  fold_left (fun current cfg => snd (run_losses order raise_unknown dv_units factors table losses current cfg m))
            runs initial_variables.
