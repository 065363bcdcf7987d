(** Model of calculations with one call for each step (pelicun/assessment.py:356-592) and of repeated
    calculations with the same assessment. *)
From Verif Require Import Prelude Pandas M_Base M_Params M_Demand.
Set Implicit Arguments.
Local Open Scope string_scope.
Local Open Scope list_scope.

(** assessment.py:420-432: the configuration of collapse with a collapse demand; the label, the value
    and the unit are needed *)
Record collapse_config := CC { c_label : string; c_value : col_value; c_unit : string; c_location : option string; c_direction : option string }.
(** assessment.py:446-459: demands that are added to the sample; a configuration without entries
    counts as none. [est] is [estimate_RID] for a value of 'parameters' and of 'method'. *)
Definition add_demands {V} (est : V -> V -> list (list num) -> list (list num)) (factors : dict Qc) (residual : option (dict V))
    (collapse : option collapse_config) (d : demand) : result demand :=
  let* d := match residual with
            | None | Some [] => Ok d
            | Some c =>
                match dget "parameters" c with
                | None => Err KeyError
                | Some p => match dget "method" c with None => Err KeyError | Some m => estimate_RID_and_adjust_sample (est p m) factors d end
                end
            end in
  match collapse with
  | None => Ok d
  | Some c => expand_sample factors d [c_label c; "0"; "1"] (c_value c) (c_unit c)
  end.

(** assessment.py:461-468: the components of the asset model of the call and the sources of damage
    parameters. The asset model is replaced; the parameters stay with the damage model
    (damage_model.py:138-239), and so do those of earlier calls. *)
Definition damage_call := (list string * list (ptable string))%type.
Definition damage_history (e : penv) (calls : list damage_call) : result (option (ptable string) * list string) :=
  foldM (fun st call => load_damage e (fst call) (fst st) (snd call)) (None, []) calls.

(** assessment.py:511-515: decision variables, the consequences named by the loss map of the call and
    the sources of loss parameters; the decision variables and the loss map are replaced *)
Definition loss_call := (list string * list string * list (ptable pkey))%type.
Definition loss_history (e : penv) (calls : list loss_call) : result loaded :=
  foldM (fun st call => load_loss e (fst (fst call)) (snd (fst call)) (o_pars st) (snd call)) {| o_pars := {| l_ds := None; l_lf := None |}; o_units := []; o_missing := [] |} calls.
