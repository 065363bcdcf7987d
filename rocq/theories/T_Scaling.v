(** Property theorems about consequence scaling (C44). *)
From Verif Require Import Prelude PreludeFacts M_Base M_Damage M_Scaling S_Base S_Scaling P_Scaling T_Demand.
Local Open Scope string_scope.
Local Open Scope list_scope.

(** ** C44 *)

(** A usable table multiplies every loss by the factors of exactly the rows naming it, each
    once, in both samples, and changes no label; a sample not yet calculated stays so. *)
Theorem C44_effect : forall t ms, usable t -> (forall s, In (Some s) ms -> loss_table s) ->
  exists ms', consequence_scaling t ms = (ms', None) /\
  Forall2 (fun o o' =>
    match o, o' with
    | None, None => True
    | Some s, Some s' =>
        levels s' = levels s /\
        Forall2 (fun e e' => fst e' = fst e /\
                   exists k, total_factor t s (fst e) (csv_rows t) k /\ scaled_by k (snd e) (snd e'))
                (entries s) (entries s')
    | _, _ => False
    end) ms ms'.
Proof. exact consequence_scaling_usable. Qed.
Print Assumptions C44_effect.

(** The factor is determined by the table and the label. *)
Theorem C44_factor_unique : forall t s label rows k k',
  total_factor t s label rows k -> total_factor t s label rows k' -> k = k'.
Proof. exact (fun t s label rows k k' H H' => @total_factor_fun t s label rows k H k' H'). Qed.
Print Assumptions C44_factor_unique.

(** Any other table (no decision variable, no factor, no rows, a malformed range) is rejected
    and leaves the samples as they were. *)
Theorem C44_rejected : forall t ms, ~ usable t -> consequence_scaling t ms = (ms, Some ValueError).
Proof. exact consequence_scaling_rejected. Qed.
Print Assumptions C44_rejected.

Definition demo_csv : scaling_csv :=
  {| csv_columns := ["Decision Variable"; "Component"; "Location"; "Scale Factor"];
     csv_rows := [([("Decision Variable", "Cost"); ("Location", "1--2")], Some (qc 2));
                  ([("Decision Variable", "Cost"); ("Component", "A")], Some (qc 3));
                  ([("Decision Variable", "Carbon")], Some (qc 5))] |}.
Definition demo_ds : table :=
  {| levels := ds_levels;
     entries := [(["Cost"; "A"; "A"; "1"; "1"; "1"; "0"], [Some (qc 1); None]);
                 (["Cost"; "B"; "B"; "1"; "2"; "1"; "0"], [Some (qc 1); Some (qc 2)]);
                 (["Cost"; "B"; "B"; "1"; "3"; "1"; "0"], [Some (qc 1); Some (qc 2)]);
                 (["Time"; "A"; "A"; "1"; "1"; "1"; "0"], [Some (qc 1); Some (qc 2)])] |}.
Definition demo_lf : table :=
  {| levels := lf_levels; entries := [(["Cost"; "A"; "A"; "4"; "1"; "0"], [Some (qc 1); Some (qc 7)])] |}.

Example C44_hypotheses_met :
  usable demo_csv /\ loss_table demo_ds /\ loss_table demo_lf /\
  consequence_scaling demo_csv [Some demo_ds; Some demo_lf] =
  ([Some {| levels := ds_levels;
            entries := [(["Cost"; "A"; "A"; "1"; "1"; "1"; "0"], [Some (qc 6); None]);
                        (["Cost"; "B"; "B"; "1"; "2"; "1"; "0"], [Some (qc 2); Some (qc 4)]);
                        (["Cost"; "B"; "B"; "1"; "3"; "1"; "0"], [Some (qc 1); Some (qc 2)]);
                        (["Time"; "A"; "A"; "1"; "1"; "1"; "0"], [Some (qc 1); Some (qc 2)])] |};
    Some {| levels := lf_levels; entries := [(["Cost"; "A"; "A"; "4"; "1"; "0"], [Some (qc 3); Some (qc 21)])] |}],
   None).
Proof.
  split; [|split; [|split]].
  - split; [cbn; tauto|]. split; [cbn; tauto|]. split; [easy|].
    intros r [<-|[<-|[<-|[]]]]; (split; [eexists; split; [cbn; tauto|reflexivity]|]); (split; [discriminate|]);
      intros column text [<-|[<-|[]]] [H1 H2]; try discriminate H2;
      try (exfalso; cbn in H1; intuition discriminate).
    right. exists 1%Z, 2%Z, "1", "2". cbn in H2. assert (text = "1--2") as -> by congruence. easy.
  - split; [now left|]. repeat constructor.
  - split; [now right|]. repeat constructor.
  - qcompute.
Qed.
(** A row without a decision variable; a malformed range. *)
Example C44_rejected_met :
  ~ usable {| csv_columns := ["Location"; "Scale Factor"]; csv_rows := [([("Location", "1")], Some (qc 2))] |} /\
  ~ usable {| csv_columns := ["Decision Variable"; "Location"; "Scale Factor"];
              csv_rows := [([("Decision Variable", "Cost"); ("Location", "1--roof")], Some (qc 2))] |}.
Proof.
  split.
  - intros (H & _). cbn in H. intuition discriminate.
  - intros (_ & _ & _ & H). destruct (H _ (or_introl eq_refl)) as (_ & _ & Hc).
    destruct (Hc "Location" "1--roof") as [E|(a & b & Hr)]; [cbn; tauto|split; [cbn; tauto|reflexivity]|discriminate E|].
    destruct (expand_range_spec Hr) as [_ E]. vm_compute in E. discriminate E.
Qed.
