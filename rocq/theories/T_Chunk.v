(** C108 and C109: the buildings of a chunk of a regional run. *)
From Coq Require Import Sorting.Permutation Sorting.Sorted.
From Verif Require Import Prelude PreludeFacts Pandas PandasFacts M_Base M_Damage M_Params M_Asset M_Outputs M_Chunk S_Params S_Asset S_Outputs S_Chunk
  P_Base P_Text P_Params P_Asset P_Qty P_Outputs P_Chunk.
Set Implicit Arguments.
Local Open Scope string_scope.
Local Open Scope list_scope.

(** * C108 *)

(** At every building, exactly the components of the building are assessed: each in all the
    directions that the component has in some building of the chunk, once. *)
Theorem C108_chunk : forall e chunk units groups, complete chunk -> load_chunk e chunk = Ok (units, groups) ->
  NoDup (map (fun g => removelast (fst g)) groups) /\
  (forall g, In g groups -> exists c b d uid, fst g = [c; str_of_Z b; str_of_Z d; uid]) /\
  (forall c b d, (exists m, assessed groups c b d m) <-> (exists d' r, has_component chunk b c d' r) /\ (exists b' r, has_component chunk b' c d r)).
Proof.
  intros e chunk units groups Hc H. destruct (@load_chunk_entries _ _ _ _ Hc H) as (entries & P & N & I). split; [|split].
  - pose proof (Permutation_map fst P) as Pf. rewrite map_map in Pf. cbn [fst] in Pf. eapply Permutation_NoDup; [symmetry; exact Pf|exact N].
  - intros [x m] Hg. apply (in_map (fun g => (removelast (fst g), snd g))) in Hg. apply (Permutation_in _ P) in Hg. cbn [fst snd] in *.
    apply I in Hg as (c & b & d & f & q & E & _). apply label_four in E as (u & ->). now exists c, b, d, u.
  - intros c b d. split.
    + intros (m & u & Hg). apply (in_map (fun g => (removelast (fst g), snd g))) in Hg. apply (Permutation_in _ P) in Hg. cbn [fst snd removelast] in Hg.
      apply I in Hg as (c' & b' & d' & f & q & E & _ & H1 & H2 & _). injection E as -> E1 E2. apply str_of_Z_inj in E1, E2. subst b' d'. now split.
    + intros [H1 H2]. assert (Hq : exists m, In ([c; str_of_Z b; str_of_Z d], m) entries).
      { destruct (@chunk_entry_exists _ _ _ _ Hc H b c) as (f & q & Q & U); [exact H1|]. exists (fixed (scaled f q)). apply I. exists c, b, d, f, q. auto 10. }
      destruct Hq as (m & Hm). exists m. apply (Permutation_in _ (Permutation_sym P)) in Hm. apply in_map_iff in Hm as ([x m'] & E & Hg). cbn [fst snd] in E. injection E as E ->.
      apply label_four in E as (u & ->). now exists u.
Qed.
Print Assumptions C108_chunk.
(** The amount is the one of the building, in its unit. *)
Theorem C108_amounts : forall e chunk units groups c b d m, complete chunk -> alike a_unit chunk -> load_chunk e chunk = Ok (units, groups) ->
  assessed groups c b d m -> forall d' r, has_component chunk b c d' r ->
  exists u f, a_unit r = Some u /\ unit_factor e u f /\ m = fixed (scaled f (a_theta0 r)).
Proof.
  intros e chunk units groups c b d m Hc Ha H (u & Hg) d' r (rs & Hb & Hr & Ec & Ed). destruct (@load_chunk_entries _ _ _ _ Hc H) as (entries & P & N & I).
  apply (in_map (fun g => (removelast (fst g), snd g))) in Hg. apply (Permutation_in _ P) in Hg. cbn [fst snd removelast] in Hg.
  apply I in Hg as (c' & b' & d1 & f & q & E & -> & _ & _ & Q & U). injection E as <- E1 E2. destruct (Hc b rs r Hb Hr) as [_ (w & Ew)]. exists w, f. split; [exact Ew|]. split.
  - now rewrite (@unit_alike _ _ _ _ _ _ Ha Hb Hr Ec Ew) in U.
  - now rewrite (Q b rs r Hb Hr Ec).
Qed.
Print Assumptions C108_amounts.
(** When a component has the same directions everywhere, the directions are the ones of the building. *)
Theorem C108_own_partial : forall e chunk units groups, complete chunk -> (forall c b b' d r r0 d0, has_component chunk b c d r -> has_component chunk b' c d0 r0 -> exists r', has_component chunk b' c d r') ->
  load_chunk e chunk = Ok (units, groups) -> forall c b d, (exists m, assessed groups c b d m) <-> exists r, has_component chunk b c d r.
Proof.
  intros e chunk units groups Hc Hd H c b d. destruct (@C108_chunk _ _ _ _ Hc H) as (_ & _ & I). rewrite I. split.
  - intros [(d' & r & H1) (b' & r' & H2)]. exact (Hd _ _ _ _ _ _ _ H2 H1).
  - intros (r & Hr). split; [now exists d, r|now exists b, r].
Qed.
Print Assumptions C108_own_partial.
(** Such a chunk is accepted when the rows of a component have the same amount and a known unit. *)
Theorem C108_accepted : forall e chunk, complete chunk -> alike a_unit chunk -> alike a_theta0 chunk ->
  (exists b rs r, In (b, rs) chunk /\ In r rs) ->
  (forall b rs r, In (b, rs) chunk -> In r rs -> a_theta0 r <> None /\ exists u f, a_unit r = Some u /\ unit_factor e u f) ->
  exists units groups, load_chunk e chunk = Ok (units, groups).
Proof.
  intros e chunk Hc Hu Ht (b0 & rs0 & r0 & Hb0 & Hr0) Hk.
  assert (E : exists rows, chunk_rows chunk = Ok rows).
  { unfold chunk_rows. apply mapM_all_ok. intros [c rs] Hg. apply (groupby_In String.eqb str_le String.eqb_eq) in Hg as [Hin ->]. apply component_listed in Hin as (b & rs & r & Hb & Hr & Ec).
    change (group_rows String.eqb c (map (fun r => (a_cmp r, r)) (located chunk))) with (rows_of chunk c). unfold chunk_row. cbn [fst snd].
    assert (unique num_eqb (map a_theta0 (rows_of chunk c)) = [a_theta0 r]) as ->; [|eexists; reflexivity].
    apply (unique_one num_eqb num_eqb_eq). split.
    - intros E. assert (X : In (relocate b r) (rows_of chunk c)) by (apply rows_of_In; now exists b, rs, r). apply (in_map a_theta0) in X. rewrite E in X. destruct X.
    - intros y Hy. apply in_map_iff in Hy as (x & <- & Hx). apply rows_of_In in Hx as (b' & rs' & r' & Hb' & Hr' & -> & Ec'). cbn. apply (Ht _ _ _ _ _ _ Hb' Hr' Hb Hr). congruence. }
  destruct E as (rows & E). unfold load_chunk. rewrite E. cbn [bind]. destruct (@chunk_rows_In _ _ E) as [HR _].
  assert (Hrow : forall R, In R rows -> exists u f p ps, a_unit R = Some u /\ unit_factor e u f /\ places None R (p :: ps) /\ a_family R = None /\ a_theta0 R <> None).
  { intros R HRin. destruct (proj1 (HR R) HRin) as [Hin Er]. destruct (@chunk_row_form _ _ _ Hc Hin Er) as (bs & ds & q & N1 & N2 & _ & _ & _ & _ & Q & ER). destruct Hin as (b & rs & r & Hb & Hr & Ec).
    destruct (Hk b rs r Hb Hr) as (Hq & u & f & Eu & U). destruct bs as [|b1 bs]; [contradiction|]. destruct ds as [|d1 ds]; [contradiction|].
    exists u, f, (str_of_Z b1, str_of_Z d1). eexists. rewrite ER. cbn [a_unit a_family a_theta0]. rewrite (@unit_alike _ _ _ _ _ _ Hu Hb Hr Ec Eu). split; [reflexivity|]. split; [exact U|]. split; [|split; [reflexivity|]].
    - exists (map str_of_Z (b1 :: bs)), (map str_of_Z (d1 :: ds)). cbn [a_location a_direction cell_text]. rewrite numbers_location, numbers_direction by discriminate. split; [reflexivity|]. split; [reflexivity|]. cbn. reflexivity.
    - now rewrite <- (Q b rs r Hb Hr Ec). }
  apply load_accepted.
  - intros R HRin. destruct (Hrow R HRin) as (u & f & p & ps & Eu & U & Pl & Ef & Eq). exists u, f, (p :: ps). rewrite Ef. split; [exact Eu|]. split; [exact U|]. split; [exact Pl|]. split; [right; cbn; auto 10|exact Eq].
  - assert (HRin : exists R, In R rows).
    { unfold chunk_rows in E. apply mapM_Forall2 in E. assert (Hg : In (a_cmp r0, rows_of chunk (a_cmp r0)) (groupby String.eqb str_le (map (fun r => (a_cmp r, r)) (located chunk)))).
      { apply (groupby_In String.eqb str_le String.eqb_eq). split; [apply component_listed; now exists b0, rs0, r0|reflexivity]. }
      destruct (Forall2_In_l _ E Hg) as (R & HRin & _). now exists R. }
    destruct HRin as (R & HRin). destruct (Hrow R HRin) as (u & f & p & ps & _ & _ & Pl & _). now exists R, p, ps.
Qed.
Print Assumptions C108_accepted.

Definition chunk_env : penv := {| numbers := fun _ => None; shown := fun _ => ""; factors := [("ea", 1%Qc)] |}.
Definition piece (c d : string) (q : Qc) : assign_row := AR c "0" (Some d) (Some "ea") None (Some q) None None None None None.
Definition small_chunk : list (Z * list assign_row) := [(12%Z, [piece "W1" "1" 1%Qc]); (7%Z, [piece "S1" "1" 1%Qc]); (3%Z, [piece "W1" "1" 1%Qc])].
Example C108_hypotheses_met : complete small_chunk /\ alike a_unit small_chunk /\ alike a_theta0 small_chunk /\
  (forall b rs r, In (b, rs) small_chunk -> In r rs -> a_theta0 r <> None /\ exists u f, a_unit r = Some u /\ unit_factor chunk_env u f) /\
  (forall c b b' d r r0 d0, has_component small_chunk b c d r -> has_component small_chunk b' c d0 r0 -> exists r', has_component small_chunk b' c d r') /\
  exists units, load_chunk chunk_env small_chunk = Ok (units,
    [(["S1"; "7"; "1"; "0"], fixed (Some 1%Qc)); (["W1"; "12"; "1"; "0"], fixed (Some 1%Qc)); (["W1"; "3"; "1"; "0"], fixed (Some 1%Qc))]).
Proof.
  assert (A : forall b rs r, In (b, rs) small_chunk -> In r rs -> a_direction r = Some "1" /\ a_unit r = Some "ea" /\ a_theta0 r = Some 1%Qc).
  { intros b rs r H Hr. cbn in H. repeat (destruct H as [H|H]; [injection H as <- <-; destruct Hr as [<-|[]]; repeat split|]). destruct H. }
  split; [|split; [|split; [|split; [|split]]]].
  - intros b rs r H Hr. destruct (A b rs r H Hr) as (E1 & E2 & _). split; [exists 1%Z; exact E1|now exists "ea"].
  - intros b rs r b' rs' r' H Hr H' Hr' _. destruct (A b rs r H Hr) as (_ & -> & _). destruct (A b' rs' r' H' Hr') as (_ & -> & _). reflexivity.
  - intros b rs r b' rs' r' H Hr H' Hr' _. destruct (A b rs r H Hr) as (_ & _ & ->). destruct (A b' rs' r' H' Hr') as (_ & _ & ->). reflexivity.
  - intros b rs r H Hr. destruct (A b rs r H Hr) as (_ & E & E'). split; [now rewrite E'|]. exists "ea", 1%Qc. split; [exact E|]. apply calc_unit_factor. reflexivity.
  - intros c b b' d r r0 d0 (rs & Hb & Hr & Ec & Ed) (rs' & Hb' & Hr' & Ec' & Ed'). exists r0, rs'. split; [exact Hb'|]. split; [exact Hr'|]. split; [exact Ec'|].
    destruct (A b rs r Hb Hr) as (E & _). destruct (A b' rs' r0 Hb' Hr') as (E' & _). congruence.
  - eexists. vm_compute. reflexivity.
Qed.

(** Directions spread to the other buildings of the chunk; a component listed twice in a building
    counts once; one different amount fails the whole chunk; an uncertain amount is taken as fixed. *)
Theorem C108_refuted :
  (exists chunk units groups, complete chunk /\ load_chunk chunk_env chunk = Ok (units, groups) /\
     (exists m, assessed groups "W1" 3 2 m) /\ ~ exists r, has_component chunk 3 "W1" 2 r) /\
  (exists b rs units groups, complete [(b, rs)] /\ rs = [piece "W1" "1" 1%Qc; piece "W1" "1" 1%Qc] /\ load_chunk chunk_env [(b, rs)] = Ok (units, groups) /\
     groups = [(["W1"; "12"; "1"; "0"], fixed (Some 1%Qc))]) /\
  (forall b b' c d d' q q' rest, q <> q' ->
     exists x, load_chunk chunk_env ((b, [piece c d q]) :: (b', [piece c d' q']) :: rest) = Err x) /\
  (exists units, load_chunk chunk_env [(12%Z, [AR "W1" "0" (Some "1") (Some "ea") (Some "normal") (Some (qc 10)) (Some (qc 3)) None None None None])] = Ok (units, [(["W1"; "12"; "1"; "0"], fixed (Some (qc 10)))])).
Proof.
  split; [|split; [|split]].
  - exists [(12%Z, [piece "W1" "2" 1%Qc]); (3%Z, [piece "W1" "1" 1%Qc])]. eexists _, _. split; [|split; [vm_compute; reflexivity|split]].
    + intros b rs r H Hr. cbn in H. destruct H as [H|[H|[]]]; injection H as <- <-; destruct Hr as [<-|[]]; (split; [|now exists "ea"]); [now exists 2%Z|now exists 1%Z].
    + eexists. exists "0". cbn. right. right. right. left. reflexivity.
    + intros (r & rs & H & Hr & _ & E). cbn in H. destruct H as [H|[H|[]]]; [discriminate H|]. injection H as <-. destruct Hr as [<-|[]]. discriminate E.
  - exists 12%Z. eexists _, _, _. split; [|split; [reflexivity|split; [vm_compute; reflexivity|vm_compute; reflexivity]]].
    intros b rs r H Hr. cbn in H. destruct H as [H|[]]. injection H as <- <-. destruct Hr as [<-|[<-|[]]]; (split; [now exists 1%Z|now exists "ea"]).
  - intros b b' c d d' q q' rest Hq. set (chunk := (b, [piece c d q]) :: (b', [piece c d' q']) :: rest).
    destruct (load_chunk chunk_env chunk) as [[units groups]|x] eqn:E; [|now exists x]. exfalso. unfold load_chunk in E. destruct (chunk_rows chunk) as [rows|] eqn:R; [|discriminate].
    unfold chunk_rows in R. apply mapM_Forall2 in R. assert (Hg : In (c, rows_of chunk c) (groupby String.eqb str_le (map (fun r => (a_cmp r, r)) (located chunk)))).
    { apply (groupby_In String.eqb str_le String.eqb_eq). split; [apply component_listed; exists b, [piece c d q], (piece c d q); repeat split; now left|reflexivity]. }
    destruct (Forall2_In_l _ R Hg) as (x & _ & Ex). unfold chunk_row in Ex. cbn [fst snd] in Ex. destruct (unique num_eqb (map a_theta0 (rows_of chunk c))) as [|p [|? ?]] eqn:U; try discriminate.
    apply (unique_one num_eqb num_eqb_eq) in U as [_ U]. apply Hq.
    assert (E1 : Some q = p) by (apply (U (a_theta0 (relocate b (piece c d q)))); apply in_map; apply rows_of_In; exists b, [piece c d q], (piece c d q); repeat split; now left).
    assert (E2 : Some q' = p) by (apply (U (a_theta0 (relocate b' (piece c d' q')))); apply in_map; apply rows_of_In; exists b', [piece c d' q'], (piece c d' q'); repeat split; [right; now left|now left]).
    congruence.
  - eexists. vm_compute. reflexivity.
Qed.
Print Assumptions C108_refuted.

(** * C109 *)

(** Costs and times have one row for each building that has an occupancy class and damage, in
    ascending order; the row has the total losses of the building, calculated from the damage of the
    buildings of its class with the consequences of its class. *)
Definition own_losses (n : nat) (calc : string -> sample -> result sample) (buildings : list (Z * option string)) (damage : sample) (dv : string) (t : list (Z * list num)) : Prop :=
  StronglySorted Z.lt (map fst t) /\
  (forall b, In b (map fst t) <-> (exists o, In (b, Some o) buildings) /\ exists c, In c damage /\ location_of c = str_of_Z b) /\
  forall b v, In (b, v) t -> exists o losses, In (b, Some o) buildings /\ calc o (class_damage buildings damage o) = Ok losses /\ total_losses n losses dv (str_of_Z b) v.
Theorem C109_own : forall n calc buildings damage costs times, in_place calc -> NoDup (map fst buildings) ->
  (forall c, In c damage -> exists b, location_of c = str_of_Z b) ->
  hazus_losses n calc buildings damage = Ok (costs, times) ->
  own_losses n calc buildings damage "Cost" costs /\ own_losses n calc buildings damage "Time" times.
Proof.
  intros n calc buildings damage costs times P N W H. unfold hazus_losses in H. destruct (losses_of n calc buildings damage "Cost") as [c|] eqn:Ec; [|discriminate]. cbn [bind] in H.
  destruct (losses_of n calc buildings damage "Time") as [t|] eqn:Et; [|discriminate]. cbn [bind] in H. injection H as <- <-.
  assert (G : forall dv r, losses_of n calc buildings damage dv = Ok r -> own_losses n calc buildings damage dv r); [|split; now apply G].
  intros dv r Er. pose proof (@losses_of_calc _ _ _ _ _ _ N W Er) as Hcalc. destruct (@losses_of_rows _ _ _ _ _ _ P W N Er) as [S I]. split; [exact S|]. split.
  - intros b. rewrite in_map_iff. split.
    + intros ([b' v] & E & Hb). cbn in E. subst b'. apply I in Hb as (o & L & Ho & Hd & _). split; [now exists o|exact Hd].
    + intros [(o & Ho) Hd]. destruct (Hcalc b o Ho) as (L & EL). exists (b, column_of n L dv b). split; [reflexivity|]. apply I. now exists o, L.
  - intros b v Hb. apply I in Hb as (o & L & Ho & _ & E & ->). exists o, L. split; [exact Ho|]. split; [exact E|apply column_total].
Qed.
Print Assumptions C109_own.
(** When the calculation treats locations separately, the losses of a building do not depend on the
    other buildings of the chunk. *)
Theorem C109_local : forall n calc buildings damage costs times buildings' damage' costs' times' b o, in_place calc -> local calc ->
  NoDup (map fst buildings) -> NoDup (map fst buildings') ->
  (forall c, In c damage -> exists b, location_of c = str_of_Z b) -> (forall c, In c damage' -> exists b, location_of c = str_of_Z b) ->
  hazus_losses n calc buildings damage = Ok (costs, times) -> hazus_losses n calc buildings' damage' = Ok (costs', times') ->
  In (b, Some o) buildings -> In (b, Some o) buildings' -> at_location (str_of_Z b) damage = at_location (str_of_Z b) damage' ->
  (forall v, In (b, v) costs <-> In (b, v) costs') /\ (forall v, In (b, v) times <-> In (b, v) times').
Proof.
  intros n calc buildings damage costs times buildings' damage' costs' times' b o P Loc N N' W W' H H' Hb Hb' Hd.
  assert (G : forall dv r r', losses_of n calc buildings damage dv = Ok r -> losses_of n calc buildings' damage' dv = Ok r' -> forall v, In (b, v) r <-> In (b, v) r').
  { intros dv r r' Er Er' v. destruct (@losses_of_rows _ _ _ _ _ _ P W N Er) as [_ I]. destruct (@losses_of_rows _ _ _ _ _ _ P W' N' Er') as [_ I'].
    destruct (@losses_of_calc _ _ _ _ _ _ N W Er b o Hb) as (L & EL). destruct (@losses_of_calc _ _ _ _ _ _ N' W' Er' b o Hb') as (L' & EL').
    assert (EC : column_of n L dv b = column_of n L' dv b).
    { unfold column_of. f_equal. rewrite (members_at dv b L), (members_at dv b L'). f_equal. apply (Loc o _ _ _ _ _ EL EL'). now rewrite (@class_at _ _ _ _ Hb), (@class_at _ _ _ _ Hb'). }
    assert (D : (exists c, In c damage /\ location_of c = str_of_Z b) <-> (exists c, In c damage' /\ location_of c = str_of_Z b)).
    { assert (X : forall D, (exists c, In c D /\ location_of c = str_of_Z b) <-> at_location (str_of_Z b) D <> []).
      { intros D. unfold at_location. split.
        - intros (c & Hc & E) Z0. assert (In c []) as []. rewrite <- Z0. apply filter_In. split; [exact Hc|now apply String.eqb_eq].
        - intros E. destruct (filter (fun c => String.eqb (location_of c) (str_of_Z b)) D) as [|c l] eqn:F; [contradiction|]. exists c. assert (X : In c (c :: l)) by now left. rewrite <- F in X. apply filter_In in X as [X E']. split; [exact X|now apply String.eqb_eq]. }
      rewrite !X, Hd. reflexivity. }
    rewrite I, I'. split; intros (o1 & L1 & Ho & Hdam & E1 & ->).
    - exists o, L'. rewrite (@class_unique _ _ _ _ N Ho Hb) in E1. rewrite EL in E1. injection E1 as <-. split; [exact Hb'|]. split; [now apply D|]. split; [exact EL'|exact EC].
    - exists o, L. rewrite (@class_unique _ _ _ _ N' Ho Hb') in E1. rewrite EL' in E1. injection E1 as <-. split; [exact Hb|]. split; [now apply D|]. split; [exact EL|now symmetry]. }
  unfold hazus_losses in H, H'. destruct (losses_of n calc buildings damage "Cost") as [c|] eqn:Ec; [|discriminate]. destruct (losses_of n calc buildings damage "Time") as [t|] eqn:Et; [|discriminate].
  destruct (losses_of n calc buildings' damage' "Cost") as [c'|] eqn:Ec'; [|discriminate]. destruct (losses_of n calc buildings' damage' "Time") as [t'|] eqn:Et'; [|discriminate]. cbn [bind] in H, H'.
  injection H as <- <-. injection H' as <- <-. split; [now apply (G "Cost")|now apply (G "Time")].
Qed.
Print Assumptions C109_local.
(** All buildings get their losses if every class has damage and the calculation gives both
    variables wherever there is damage. *)
Theorem C109_accepted : forall n calc buildings damage, in_place calc -> NoDup (map fst buildings) -> (exists b o, In (b, Some o) buildings) ->
  (forall c, In c damage -> exists b, location_of c = str_of_Z b) ->
  (forall b o, In (b, Some o) buildings -> exists losses, calc o (class_damage buildings damage o) = Ok losses /\
     (exists b' c, In (b', Some o) buildings /\ In c damage /\ location_of c = str_of_Z b') /\
     forall c, In c (class_damage buildings damage o) -> forall dv, dv = "Cost" \/ dv = "Time" -> exists l, In l losses /\ of_place dv (location_of c) (fst l) = true) ->
  exists costs times, hazus_losses n calc buildings damage = Ok (costs, times).
Proof.
  intros n calc buildings damage P N (b0 & o0 & Hb0) W H.
  assert (G : forall dv, dv = "Cost" \/ dv = "Time" -> exists t, losses_of n calc buildings damage dv = Ok t).
  { intros dv Hdv. unfold losses_of. assert (L : exists lookup, mapM (fun c : list string * list num => int_text (nth 1 (fst c) "")) damage = Ok lookup).
    { apply mapM_all_ok. intros c Hc. destruct (W c Hc) as (z & E). unfold location_of in E. unfold int_text. rewrite E, number_read. now exists z. }
    destruct L as (lookup & L). rewrite L. cbn [bind]. apply mapM_Forall2 in L.
    assert (Gs : exists parts, mapM (group_losses n calc lookup damage dv) (occupancy_groups buildings) = Ok parts).
    { apply mapM_all_ok. intros [o ids] Hg. destruct (@occupancy_In _ _ _ Hg N) as (Hne & Nd & I). destruct ids as [|z ids]; [contradiction|].
      destruct (H z o (proj1 (I z) (or_introl eq_refl))) as (losses & E & (b' & c' & Hb' & Hc' & El') & Hall).
      assert (Hat : forall z c, In (z, Some o) buildings -> In c damage -> location_of c = str_of_Z z -> has_column losses dv z).
      { intros z1 c Hz Hc Ec. destruct (Hall c) with (dv := dv) as (l & Hl & Eo); [|exact Hdv|].
        - apply filter_In. split; [exact Hc|]. apply existsb_exists. exists (z1, Some o). split; [exact Hz|]. cbn. now rewrite String.eqb_refl, Ec, String.eqb_refl.
        - apply andb_true_iff in Eo as [E0 E4]. apply String.eqb_eq in E0, E4. exists l. split; [exact Hl|]. split; [exact E0|]. now rewrite E4. }
      apply (@group_losses_ok _ _ _ _ _ _ _ losses).
      - intros l Hl. destruct (P _ _ _ _ E Hl) as (d & Hd & ->). apply filter_In in Hd as [Hd _]. now apply W.
      - exact Hne.
      - exact Nd.
      - now rewrite (@class_damage_same buildings damage lookup o (z :: ids) L I).
      - exists b'. split; [now apply I|]. now apply (Hat b' c').
      - intros z1 Hz1 Hl. apply existsb_exists in Hl as (z2 & Hz2 & Ez). apply Z.eqb_eq in Ez. subst z2. destruct (Forall2_In_r _ L Hz2) as (c & Hc & Ec). apply (Hat z1 c); [now apply I|exact Hc|].
        destruct (W c Hc) as (z3 & E3). unfold int_text in Ec. unfold location_of in E3. rewrite E3, number_read in Ec. injection Ec as <-. exact E3. }
    destruct Gs as (parts & Gs). rewrite Gs. cbn [bind]. apply mapM_Forall2 in Gs. destruct parts as [|p parts]; [|eexists; reflexivity].
    exfalso. destruct (@occupancy_listed _ _ _ Hb0) as (ids & Hg). destruct (Forall2_In_l _ Gs Hg) as (r & [] & _). }
  destruct (G "Cost" (or_introl eq_refl)) as (c & Ec). destruct (G "Time" (or_intror eq_refl)) as (t & Et). exists c, t. unfold hazus_losses. now rewrite Ec, Et.
Qed.
Print Assumptions C109_accepted.

(** A calculation with a price and a duration for each class. *)
Definition priced_column (price : string -> Qc) (o : string) (c : list string * list num) (dv : string) : list string * list num :=
  ([dv; o; nth 0 (fst c) ""; nth 4 (fst c) ""; nth 1 (fst c) ""; nth 2 (fst c) ""; nth 3 (fst c) ""], map (fun x => match x with Some q => Some (q * price o)%Qc | None => None end) (snd c)).
Definition priced_columns (price : string -> Qc) (o : string) (D : sample) : sample := flat_map (fun c => map (priced_column price o c) ["Cost"; "Time"]) D.
Definition priced (price : string -> Qc) : string -> sample -> result sample := fun o D => Ok (priced_columns price o D).
Lemma priced_in_place price : in_place (priced price).
Proof.
  intros o D L c E Hc. assert (L = priced_columns price o D) as -> by (unfold priced in E; congruence). apply in_flat_map in Hc as (d & Hd & Hc). apply in_map_iff in Hc as (dv & <- & _). now exists d.
Qed.
Lemma priced_at price o l D : losses_at l (priced_columns price o D) = priced_columns price o (at_location l D).
Proof.
  unfold losses_at, at_location, priced_columns. induction D as [|c D IH]; [reflexivity|]. cbn [flat_map filter]. rewrite filter_app, IH. unfold level_is, location_of. cbn [map filter fst nth priced_column].
  destruct (String.eqb (nth 1 (fst c) "") l); reflexivity.
Qed.
Lemma priced_local price : local (priced price).
Proof.
  intros o D D' L L' l E E' H. assert (L = priced_columns price o D) as -> by (unfold priced in E; congruence). assert (L' = priced_columns price o D') as -> by (unfold priced in E'; congruence).
  now rewrite !priced_at, H.
Qed.
Definition two_damage : sample := [(["W1"; "3"; "1"; "0"; "1"], [Some 1%Qc; Some 0%Qc]); (["S1"; "12"; "1"; "0"; "1"], [Some 0%Qc; Some 1%Qc]); (["S1"; "12"; "1"; "0"; "2"], [Some 1%Qc; None]); (["W1"; "7"; "1"; "0"; "1"], [Some 1%Qc; Some 1%Qc])].
Definition two_buildings : list (Z * option string) := [(12%Z, Some "COM1"); (3%Z, Some "RES1"); (7%Z, Some "COM1")].
Definition two_prices (o : string) : Qc := if String.eqb o "RES1" then qc 5 else qc 7.
Example C109_hypotheses_met : in_place (priced two_prices) /\ local (priced two_prices) /\ NoDup (map fst two_buildings) /\ (forall c, In c two_damage -> exists b, location_of c = str_of_Z b) /\ (forall b o, In (b, Some o) two_buildings -> exists losses, priced two_prices o (class_damage two_buildings two_damage o) = Ok losses /\ (exists b' c, In (b', Some o) two_buildings /\ In c two_damage /\ location_of c = str_of_Z b') /\ forall c, In c (class_damage two_buildings two_damage o) -> forall dv, dv = "Cost" \/ dv = "Time" -> exists l, In l losses /\ of_place dv (location_of c) (fst l) = true) /\ (let t := [(3%Z, [Some (qc 5); Some 0%Qc]); (7%Z, [Some (qc 7); Some (qc 7)]); (12%Z, [Some (qc 7); Some (qc 7)])] in
   hazus_losses 2 (priced two_prices) two_buildings two_damage = Ok (t, t)).
Proof.
  split; [apply priced_in_place|]. split; [apply priced_local|]. split; [repeat (constructor; [cbn; intuition discriminate|]); constructor|]. split; [|split].
  - intros c Hc. cbn in Hc. repeat (destruct Hc as [<-|Hc]; [first [exists 3%Z; reflexivity|exists 12%Z; reflexivity|exists 7%Z; reflexivity]|]). destruct Hc.
  - intros b o Hb. eexists. split; [reflexivity|]. split.
    + cbn in Hb. destruct Hb as [Hb|[Hb|[Hb|[]]]]; injection Hb as <- <-.
      * exists 12%Z. eexists. split; [now left|]. split; [right; now left|reflexivity].
      * exists 3%Z. eexists. split; [right; now left|]. split; [now left|reflexivity].
      * exists 12%Z. eexists. split; [now left|]. split; [right; now left|reflexivity].
    + intros c Hc dv Hdv. exists (priced_column two_prices o c dv). split.
      * apply in_flat_map. exists c. split; [exact Hc|]. apply in_map_iff. exists dv. split; [reflexivity|]. destruct Hdv as [->| ->]; [now left|right; now left].
      * unfold of_place, level_is, location_of. cbn [fst nth priced_column]. now rewrite !String.eqb_refl.
  - vm_compute. reflexivity.
Qed.

(** A building without an occupancy class is left out without a message; a class whose buildings have
    no damage fails the whole chunk. *)
Theorem C109_refuted :
  (exists c t, hazus_losses 2 (priced two_prices) [(12%Z, None); (3%Z, Some "RES1"); (7%Z, Some "COM1")] two_damage = Ok (c, t) /\ ~ In 12%Z (map fst c)) /\ (forall n calc buildings damage b o, in_place calc -> NoDup (map fst buildings) -> In (b, Some o) buildings ->
     (forall b' c, In (b', Some o) buildings -> In c damage -> location_of c <> str_of_Z b') -> exists x, hazus_losses n calc buildings damage = Err x).
Proof.
  split; [eexists _, _; split; [vm_compute; reflexivity|cbn; intuition discriminate]|].
  intros n calc buildings damage b o P N Hb Hno. unfold hazus_losses. destruct (losses_of n calc buildings damage "Cost") as [t|x] eqn:E; [|now exists x]. exfalso. unfold losses_of in E.
  destruct (mapM _ damage) as [lookup|] eqn:L; [|discriminate]. cbn [bind] in E. apply mapM_Forall2 in L. destruct (mapM _ (occupancy_groups buildings)) as [parts|] eqn:G; [|discriminate]. apply mapM_Forall2 in G. clear E.
  destruct (@occupancy_listed _ _ _ Hb) as (ids & Hg). destruct (@occupancy_In _ _ _ Hg N) as (Hne & Nd & I). destruct (Forall2_In_l _ G Hg) as (r & _ & Er).
  unfold group_losses in Er. cbn [fst snd] in Er. rewrite (ids_back Hne Nd) in Er. cbn [bind] in Er. rewrite (@class_damage_same buildings damage lookup o ids L I) in Er.
  assert (Z0 : class_damage buildings damage o = []).
  { destruct (class_damage buildings damage o) as [|c l] eqn:C; [reflexivity|]. exfalso. assert (Hc : In c (class_damage buildings damage o)) by (rewrite C; now left). apply filter_In in Hc as [Hc X].
    apply existsb_exists in X as ([b' [o'|]] & Hb' & X); cbn in X; [|discriminate]. apply andb_true_iff in X as [X1 X2]. apply String.eqb_eq in X1, X2. subst o'. exact (Hno b' c Hb' Hc (eq_sym X2)). }
  rewrite Z0 in Er. destruct (calc o []) as [losses|] eqn:EL; [|discriminate]. cbn [bind] in Er.
  destruct losses as [|l losses]; [discriminate Er|]. destruct (P _ _ _ _ EL (or_introl eq_refl)) as (d & [] & _).
Qed.
Print Assumptions C109_refuted.
