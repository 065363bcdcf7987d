(** Proofs about the steps of a damage and loss calculation. *)
From Coq Require Import Lia Permutation.
From Verif Require Import Prelude PreludeFacts Pandas PandasFacts M_Base M_FileIO M_Damage M_LossDS M_Demand M_Params M_Asset M_Assess
  S_Params S_Asset S_Assess S_Base S_FileIO S_Demand P_Base P_FileIO P_Sample P_Params P_Asset P_Loc P_Text P_Req P_Regional.
From Verif Require Import M_Asset M_Assess S_Assess.
Set Implicit Arguments.
Local Open Scope string_scope.
Local Open Scope list_scope.

(** ** Collapse limits *)

Lemma demand_label_type c ty : demand_label c ty <-> (List.length c = 3%nat \/ List.length c = 4%nat) /\ type_of c = ty.
Proof.
  split.
  - intros [|]; split; cbn; auto.
  - intros [[H|H] E].
    + destruct c as [|x [|y [|z [|]]]]; try discriminate. cbn in E. subst. constructor.
    + destruct c as [|x [|y [|z [|w [|]]]]]; try discriminate. cbn in E. subst. constructor.
Qed.

Lemma fold_max_gt (lim : Qc) (qs : list Qc) (q : Qc) : Qcltb lim (fold_left Qcmax qs q) = true <-> exists x, In x (q :: qs) /\ (lim < x)%Qc.
Proof.
  revert q. induction qs as [|y qs IH]; intros q; cbn [fold_left].
  - rewrite Qcltb_true. split; [intros H; exists q; split; [now left|exact H]|]. intros (x & [<-|[]] & H). exact H.
  - rewrite IH. split.
    + intros (x & [<-|Hx] & H).
      * unfold Qcmax in H. destruct (Qclt_le_dec q y) as [E|E]; [exists y; split; [right; now left|exact H]|exists q; split; [now left|exact H]].
      * exists x. split; [right; now right|exact H].
    + assert (L : forall a b, (a <= Qcmax a b)%Qc /\ (b <= Qcmax a b)%Qc).
      { intros a b. unfold Qcmax. destruct (Qclt_le_dec a b) as [E|E]; split; try apply Qcle_refl; [now apply Qclt_le_weak|exact E]. }
      intros (x & [<-|[<-|Hx]] & H).
      * exists (Qcmax q y). split; [now left|]. eapply Qclt_le_trans; [exact H|]. apply L.
      * exists (Qcmax q y). split; [now left|]. eapply Qclt_le_trans; [exact H|]. apply L.
      * exists x. split; [now right|exact H].
Qed.
Lemma combine_nth {A B} (l : list A) (l' : list B) a b : In (a, b) (combine l l') <-> exists i, nth_error l i = Some a /\ nth_error l' i = Some b.
Proof.
  revert l'. induction l as [|x l IH]; intros l'; cbn.
  - split; [intros []|intros ([|i] & H & _); discriminate].
  - destruct l' as [|y l']; cbn.
    + split; [intros []|intros ([|i] & _ & H); discriminate].
    + rewrite IH. split.
      * intros [E|(i & H)]; [injection E as <- <-; now exists O|now exists (S i)].
      * intros ([|i] & H1 & H2); cbn in *; [left; congruence|right; now exists i].
Qed.
Lemma over_limit (p : list string -> bool) lim columns row :
  nlt (Some lim) (max_where p columns row) = true <->
  exists i c q, nth_error columns i = Some c /\ p c = true /\ nth_error row i = Some (Some q) /\ (lim < q)%Qc.
Proof.
  unfold max_where. set (l := somes _).
  assert (Hl : forall q, In q l <-> exists i c, nth_error columns i = Some c /\ p c = true /\ nth_error row i = Some (Some q)).
  { intros q. unfold l. rewrite In_somes, in_map_iff. split.
    - intros ((c & v) & E & Hin). cbn in E. subst v. apply filter_In in Hin as [Hin Hp]. apply combine_nth in Hin as (i & H1 & H2). now exists i, c.
    - intros (i & c & H1 & H2 & H3). exists (c, Some q). split; [reflexivity|]. apply filter_In. split; [|exact H2]. apply combine_nth. now exists i. }
  destruct l as [|q qs].
  - cbn. split; [discriminate|]. intros (i & c & q & H1 & H2 & H3 & _). exfalso. apply (proj2 (Hl q)). now exists i, c.
  - cbn [nlt]. rewrite fold_max_gt. split.
    + intros (x & Hx & H). apply Hl in Hx as (i & c & H1 & H2 & H3). now exists i, c, x.
    + intros (i & c & x & H1 & H2 & H3 & H). exists x. split; [|exact H]. apply Hl. now exists i, c.
Qed.


Lemma limits_spec limits t t' : proper_columns t -> apply_collapse_limits limits t = Ok t' ->
  rd_columns t' = rd_columns t /\ rd_units t' = rd_units t /\
  exists keep, (forall row, keep row = true <-> ~ exceeds limits (rd_columns t) row) /\ rd_rows t' = filter keep (rd_rows t).
Proof.
  intros Hp. unfold apply_collapse_limits. destruct limits as [|tl0 limits0] eqn:El.
  { intros [= <-]. split; [reflexivity|]. split; [reflexivity|]. exists (fun _ => true). split.
    - intros row. split; [|reflexivity]. intros _ (ty & lim & i & c & q & [] & _).
    - symmetry. induction (rd_rows t) as [|x l IH]; cbn; [reflexivity|now rewrite IH]. }
  rewrite <- El. clear El tl0 limits0. destruct (mapM _ limits) as [us|e]; cbn [bind]; [|discriminate].
  intros [= <-]. split; [reflexivity|]. split; [reflexivity|]. cbn [rd_rows]. eexists. split; [|reflexivity].
  intros row. cbn beta. rewrite negb_true_iff. rewrite <- not_true_iff_false.
  apply not_iff_compat. rewrite existsb_exists. split.
  - intros ((ty & lim) & Hin & H). apply over_limit in H as (i & c & q & H1 & H2 & H3 & H4). cbn [fst] in H2. apply String.eqb_eq in H2.
    exists ty, lim, i, c, q. split; [exact Hin|]. split; [exact H1|]. split; [|now split].
    apply demand_label_type. split; [|exact H2]. apply Hp. eapply nth_error_In; eassumption.
  - intros (ty & lim & i & c & q & Hin & H1 & H2 & H3 & H4). exists (ty, lim). split; [exact Hin|]. apply over_limit.
    exists i, c, q. split; [exact H1|]. split; [|now split]. cbn [fst]. apply String.eqb_eq. now apply demand_label_type in H2 as [_ H2].
Qed.
Lemma limits_ok limits t : proper_columns t ->
  (is_ok (apply_collapse_limits limits t) = true <-> forall ty lim, In (ty, lim) limits -> exists c, In c (rd_columns t) /\ demand_label c ty).
Proof.
  intros Hp. unfold apply_collapse_limits. destruct limits as [|tl0 limits0] eqn:El; [split; [intros _ ty lim []|reflexivity]|].
  rewrite <- El. clear El tl0 limits0.
  assert (K : (exists us, mapM (fun tl : string * Qc => if existsb (fun c => String.eqb (type_of c) (fst tl)) (rd_columns t) then Ok tt else Err KeyError) limits = Ok us) <->
              forall ty lim, In (ty, lim) limits -> exists c, In c (rd_columns t) /\ demand_label c ty).
  { induction limits as [|[ty lim] limits IH].
    - split; [intros _ ty lim []|intros _; now exists []].
    - cbn [mapM fst]. destruct (existsb _ (rd_columns t)) eqn:E; cbn [bind].
      + apply existsb_exists in E as (c & Hc & Ec). apply String.eqb_eq in Ec. split.
        * intros (us & H). destruct (mapM _ limits) as [vs|] eqn:Em; [|discriminate]. intros ty' lim' [X|X].
          -- injection X as <- <-. exists c. split; [exact Hc|]. apply demand_label_type. split; [now apply Hp|exact Ec].
          -- apply (proj1 IH (ex_intro _ vs eq_refl) ty' lim' X).
        * intros H. destruct (proj2 IH) as (vs & Ev); [intros ty' lim' X; apply (H ty' lim'); now right|]. rewrite Ev. cbn [bind]. eexists; reflexivity.
      + split; [intros (us & H); discriminate|]. intros H. destruct (H ty lim (or_introl eq_refl)) as (c & Hc & Hd).
        apply demand_label_type in Hd as [_ Hd]. assert (X : existsb (fun c => String.eqb (type_of c) ty) (rd_columns t) = true).
        { apply existsb_exists. exists c. split; [exact Hc|]. now apply String.eqb_eq. }
        congruence. }
  rewrite <- K. destruct (mapM _ limits) as [us|]; cbn; split; try reflexivity; try discriminate; eauto. intros (us & H); discriminate.
Qed.

(** ** Units of demands *)

Lemma base_type_plain ty : exists short, short_type ty short /\ base_type ty = short.
Proof.
  unfold base_type, short_type. exists (hd "" (split_on "_" ty)). split; [|reflexivity].
  destruct (split_on "_" ty) as [|a l] eqn:E; [now apply split_on_nonempty in E|]. cbn [hd].
  assert (Ha : has_char "_" a = false). { pose proof (split_on_pieces "_" ty) as F. rewrite E in F. now inversion F. }
  split; [exact Ha|]. pose proof (join_split "_" ty) as J. rewrite E in J. destruct l as [|b l]; cbn in J.
  - left. congruence.
  - right. eexists. rewrite <- J. reflexivity.
Qed.

Lemma short_type_unique ty a b : short_type ty a -> short_type ty b -> a = b.
Proof.
  assert (K : forall x, short_type ty x -> hd "" (split_on "_" ty) = x).
  { intros x (Hx & [->|(more & ->)]); [now rewrite split_on_nochar|].
    change ("_" ++ more)%string with (String "_" more). now rewrite split_on_app. }
  intros Ha Hb. rewrite <- (K a Ha), <- (K b Hb). reflexivity.
Qed.
Lemma inferred_at u ty short : base_type ty = short ->
  (exists q, In (short, q) quantities /\ inferred_unit u ty = Some (unit_for u q)) \/ (~ In short (map fst quantities) /\ inferred_unit u ty = None).
Proof.
  intros E. unfold inferred_unit. rewrite E. fold (length_name u).
  destruct (mem short ["PID"; "PRD"; "DWD"; "RDR"; "PMD"; "RID"]) eqn:E1.
  { left. exists Ratio. split; [|reflexivity]. apply mem_true in E1. cbn in E1. repeat (destruct E1 as [<-|E1]; [cbn; auto 25|]). destruct E1. }
  destruct (mem short ["PFD"; "PIH"; "SD"; "PGD"]) eqn:E2.
  { left. exists Displacement. split; [|reflexivity]. apply mem_true in E2. cbn in E2. repeat (destruct E2 as [<-|E2]; [cbn; auto 25|]). destruct E2. }
  destruct (mem short ["PFV"; "PWS"; "PGV"; "SV"]) eqn:E3.
  { left. exists Speed. split; [|reflexivity]. apply mem_true in E3. cbn in E3. repeat (destruct E3 as [<-|E3]; [cbn; auto 25|]). destruct E3. }
  destruct (mem short ["PFA"; "PGA"; "SA"]) eqn:E4.
  { left. exists Acceleration. split; [|reflexivity]. apply mem_true in E4. cbn in E4. repeat (destruct E4 as [<-|E4]; [cbn; auto 25|]). destruct E4. }
  right. split; [|reflexivity]. intros H. apply mem_false in E1, E2, E3, E4. cbn in H, E1, E2, E3, E4. intuition.
Qed.
Lemma quantities_functional short q q' : In (short, q) quantities -> In (short, q') quantities -> q = q'.
Proof.
  intros H H'. assert (N : NoDup (map fst quantities)) by (cbn; repeat (constructor; [cbn; intuition discriminate|]); constructor).
  assert (A : dget short quantities = Some q) by (apply dget_NoDup; assumption).
  assert (B : dget short quantities = Some q') by (apply dget_NoDup; assumption). congruence.
Qed.
Lemma inferred_unit_spec u ty unit : demand_unit_is u ty unit <-> inferred_unit u ty = unit.
Proof.
  destruct (base_type_plain ty) as (short & Hp & E). pose proof (@inferred_at u _ _ E) as K. split.
  - intros (short' & Hp' & H). rewrite (short_type_unique Hp' Hp) in H.
    destruct K as [(q & Hq & ->)|[Hn ->]]; destruct H as [(q' & Hq' & ->)|[Hn' ->]]; try reflexivity.
    + now rewrite (quantities_functional Hq Hq').
    + exfalso. apply Hn'. now apply (in_map fst) in Hq.
    + exfalso. apply Hn. now apply (in_map fst) in Hq'.
  - intros <-. exists short. split; [exact Hp|]. destruct K as [(q & Hq & ->)|[Hn ->]]; [left; now exists q|right; now split].
Qed.

(** The table with units: every column with a type, with its unit. *)
Lemma add_units_spec u header0 columns s : List.length (axis_labels header0) = List.length columns ->
  add_units u header0 columns = Ok s ->
  exists ax, to_multi_index header0 = Ok ax /\
  exists t, header s = Flat (map (fun c => join "-" (fst (fst c))) t) /\ unit_row s = Some (map (fun c => snd (fst c)) t) /\ cells s = map snd t /\
    Permutation (map (fun c => (fst (fst c), snd c)) t) (filter (fun c => negb (String.eqb (type_of (fst c)) "")) (combine (axis_labels ax) columns)) /\
    forall lab unit col, In (lab, unit, col) t -> demand_unit_is u (type_of lab) unit.
Proof.
  intros Hl. unfold add_units. destruct (to_multi_index header0) as [ax|] eqn:E; cbn [bind]; [|discriminate]. intros [= <-].
  exists ax. split; [reflexivity|]. set (l := filter _ _).
  exists (map (fun c => (fst c, inferred_unit u (type_of (fst c)), snd c)) l). cbn [header unit_row cells].
  split; [f_equal; rewrite map_map; reflexivity|]. split; [f_equal; rewrite map_map; reflexivity|]. split; [rewrite map_map; reflexivity|].
  split.
  - rewrite map_map. cbn. unfold l.
    rewrite (map_ext _ (fun c => c)) by (intros [a b]; reflexivity). rewrite map_id. apply filter_perm, sort_labels_perm.
  - intros lab unit col H. apply in_map_iff in H as ((lab' & col') & Ec & _). cbn in Ec. injection Ec as <- <- _. now apply inferred_unit_spec.
Qed.

(** From the raw table to the loaded sample. *)
Lemma filter_all {A} (p : A -> bool) l : (forall x, In x l -> p x = true) -> filter p l = l.
Proof. induction l as [|x l IH]; intros H; [reflexivity|]. cbn. rewrite (H x (or_introl eq_refl)), IH; [reflexivity|]. intros y Hy. apply H. now right. Qed.
Lemma units_loaded u (simple : bool) (raw : list (list string * list num)) factors s d :
  raw <> [] -> Forall (fun e => clean_label (fst e) /\ Forall no_dash (fst e) /\ d_type (fst e) <> "" /\ d_type (fst e) <> "ERROR") raw ->
  add_units u (if simple then to_simple_index (make_axis 3 (map fst raw)) else make_axis 3 (map fst raw)) (map snd raw) = Ok s ->
  load_sample factors "Units" s = Ok d ->
  Permutation (d_sample d) (map (fun e => (fst e, scale_values (load_factor factors (inferred_unit u (d_type (fst e)))) (snd e))) raw).
Proof.
  intros Hne Hr H H'. rewrite Forall_forall in Hr.
  assert (Hlab : forall e, In e raw -> type_of (fst e) = d_type (fst e)).
  { intros e He. destruct (Hr e He) as ((Hl & _) & _). unfold type_of, type_level. rewrite Hl. reflexivity. }
  destruct (@header_back 3 (map fst raw) simple) as (ax & Eax & El); [lia|intros C; apply map_eq_nil in C; contradiction| |].
  { apply Forall_forall. intros lab Hin. apply in_map_iff in Hin as (e & <- & He). destruct (Hr e He) as ((Hl & _) & Hd & _). now split. }
  unfold add_units in H. rewrite Eax in H. cbn [bind] in H. rewrite El in H.
  assert (Ec : combine (map fst raw) (map snd raw) = raw). { rewrite combine_map. rewrite (map_ext _ (fun c => c)) by (intros [a b]; reflexivity). apply map_id. }
  rewrite Ec in H. set (t := sort_labels raw) in *.
  assert (Pt : Permutation t raw) by apply sort_labels_perm.
  assert (Ht : forall e, In e t -> In e raw) by (intros e; apply Permutation_in; exact Pt).
  rewrite filter_all in H by (intros e He; apply negb_true_iff, String.eqb_neq; rewrite Hlab by auto; now destruct (Hr e (Ht e He)) as (_ & _ & X & _)).
  injection H as <-. unfold load_sample, load_columns in H'. cbn [unit_row header cells] in H'.
  assert (Tne : t <> []). { intros C. rewrite C in Pt. apply Permutation_nil in Pt. contradiction. }
  assert (Tl : Forall (fun lab => List.length lab = 3%nat /\ Forall no_dash lab) (map fst t)).
  { apply Forall_forall. intros lab Hin. apply in_map_iff in Hin as (e & <- & He). destruct (Hr e (Ht e He)) as ((Hl & _) & Hd & _). now split. }
  destruct (@header_back 3 (map fst t) true) as (ax2 & Eax2 & El2); [lia|intros C; apply map_eq_nil in C; contradiction|exact Tl|].
  cbn [make_axis Nat.ltb Nat.leb to_simple_index] in Eax2. rewrite map_map in Eax2. rewrite Eax2 in H'. cbn [bind] in H'. rewrite El2 in H'.
  set (sc := map (fun cu : list num * option string => scale_values (load_factor factors (snd cu)) (fst cu)) _) in H'.
  assert (Esc : sc = map (fun e => scale_values (load_factor factors (inferred_unit u (d_type (fst e)))) (snd e)) t).
  { unfold sc. rewrite combine_map, map_map. apply map_ext_in. intros e He. cbn. rewrite Hlab by auto. reflexivity. }
  rewrite Esc, combine_map in H'. cbn [fst snd] in H'. clear sc Esc.
  set (t2 := sort_labels _) in H'.
  assert (P2 : Permutation t2 (map (fun e => (fst e, scale_values (load_factor factors (inferred_unit u (d_type (fst e)))) (snd e))) raw)).
  { unfold t2. eapply Permutation_trans; [apply sort_labels_perm|]. now apply Permutation_map. }
  assert (T2 : forall e, In e t2 -> clean_label (fst e) /\ d_type (fst e) <> "ERROR").
  { intros e He. apply (Permutation_in _ P2) in He. apply in_map_iff in He as (e' & <- & He'). cbn. destruct (Hr e' He') as (Hc & _ & _ & X). now split. }
  assert (N2 : t2 <> []). { intros C. rewrite C in P2. apply Permutation_nil, map_eq_nil in P2. contradiction. }
  assert (L2 : n_levels t2 = 3%nat). { destruct t2 as [|e t2']; [contradiction|]. now destruct (T2 e (or_introl eq_refl)) as ((Hl & _) & _). }
  rewrite L2 in H'. rewrite parse_header_clean in H'.
  2:{ intros C. apply map_eq_nil in C. contradiction. }
  2:{ apply Forall_forall. intros lab Hin. apply in_map_iff in Hin as (e & <- & He). now apply T2. }
  cbn [bind] in H'. destruct (parse_header 3 _) as [ul|]; cbn [bind] in H'; [|discriminate]. injection H' as <-. cbn [d_sample].
  assert (E2 : combine (map fst t2) (map snd t2) = t2). { rewrite combine_map. rewrite (map_ext _ (fun c => c)) by (intros [a b]; reflexivity). apply map_id. }
  rewrite E2. rewrite remove_errors_none; [exact P2|]. apply Forall_forall. intros e He. now apply T2.
Qed.

(** ** Residual drifts *)

Lemma filter_filter {A} (p q : A -> bool) l : filter p (filter q l) = filter (fun x => q x && p x) l.
Proof. induction l as [|x l IH]; [reflexivity|]. cbn. destruct (q x); cbn; [destruct (p x); now rewrite IH|exact IH]. Qed.
Lemma peaks_eq direction t : three t ->
  filter (fun e => String.eqb (nth 2 (fst (fst e)) "") direction) (filter (fun e => String.eqb (d_type (fst (fst e))) "PID") t) = peaks direction t.
Proof.
  intros H. rewrite filter_filter. unfold peaks. apply filter_ext_in. intros e He. unfold three in H. rewrite Forall_forall in H. specialize (H e He).
  destruct (fst (fst e)) as [|ty [|loc [|d [|]]]]; try discriminate. reflexivity.
Qed.
Lemma residuals_made est d t : three t -> (forall l, List.length (est d l) = List.length l) ->
  residuals_of est d t (map (fun pv : (list string * option string * list num) * list num => ("RID" :: tl (fst (fst (fst pv))), Some "unitless", snd pv))
                            (combine (peaks d t) (est d (map snd (peaks d t))))).
Proof.
  intros H3 He. specialize (He (map snd (peaks d t))). rewrite map_length in He. unfold residuals_of.
  assert (Hp : forall p, In p (peaks d t) -> exists loc, fst (fst p) = ["PID"; loc; d]).
  { intros p Hin. apply filter_In in Hin as [_ Hin]. destruct (fst (fst p)) as [|ty [|loc [|d' [|]]]]; try discriminate.
    apply andb_true_iff in Hin as [E1 E2]. apply String.eqb_eq in E1, E2. subst. now exists loc. }
  split.
  - revert He Hp. generalize (est d (map snd (peaks d t))) as vs. generalize (peaks d t) as ps. clear.
    induction ps as [|p ps IH]; intros [|v vs] Hl Hp; try discriminate; cbn; constructor.
    + destruct (Hp p (or_introl eq_refl)) as (loc & E). exists loc. rewrite E. split; reflexivity.
    + apply IH; [now injection Hl|]. intros q Hq. apply Hp. now right.
  - rewrite map_map. cbn [snd]. revert He. generalize (est d (map snd (peaks d t))) as vs. generalize (peaks d t) as ps. clear.
    induction ps as [|p ps IH]; intros [|v vs] Hl; try discriminate; cbn; [reflexivity|]. f_equal. apply IH. now injection Hl.
Qed.
Lemma ddel_keys (cfg : drift_config) : map fst (ddel "method" cfg) = directions cfg.
Proof.
  unfold directions, keys, ddel. induction cfg as [|[k v] cfg IH]; [reflexivity|]. cbn [filter map fst]. rewrite (String.eqb_sym k).
  destruct (String.eqb "method" k); cbn [negb map fst]; [exact IH|now rewrite <- IH].
Qed.
Lemma infer_spec est cfg t : (forall d l, List.length (est d l) = List.length l) -> three t -> cfg <> [] ->
  match infer_drifts est (Some cfg) t with
  | Ok (t', cfg') => dget "method" cfg = Some (JStr "FEMA P-58") /\ cfg' = Some (ddel "method" cfg) /\ directions cfg <> [] /\
      exists added, t' = t ++ List.concat added /\ Forall2 (fun d a => peaks d t <> [] /\ residuals_of est d t a) (directions cfg) added
  | Err e => dget "method" cfg <> Some (JStr "FEMA P-58") \/ directions cfg = [] \/ exists d, In d (directions cfg) /\ peaks d t = []
  end.
Proof.
  intros He H3 Hne. unfold infer_drifts. destruct cfg as [|kv cfg0]; [contradiction|]. set (cfg := kv :: cfg0) in *. clearbody cfg. clear kv cfg0.
  destruct (dget "method" cfg) as [m|]; [|left; discriminate].
  destruct (match m with JStr s => String.eqb s "FEMA P-58" | _ => false end) eqn:Em.
  2:{ left. intros E. injection E as ->. discriminate. }
  assert (m = JStr "FEMA P-58") as -> by (destruct m; try discriminate; apply String.eqb_eq in Em; now subst). clear Em.
  rewrite <- (ddel_keys cfg). set (rest := ddel "method" cfg). clearbody rest. clear cfg Hne.
  set (pid := filter _ t).
  assert (Hp : forall d, filter (fun e => String.eqb (nth 2 (fst (fst e)) "") d) pid = peaks d t) by (intros d; now apply peaks_eq).
  destruct pid as [|p0 pid0] eqn:Epid.
  { right. destruct rest as [|[d v] rest]; [now left|]. right. exists d. split; [now left|]. rewrite <- Hp. reflexivity. }
  rewrite <- Epid in *. clear Epid p0 pid0.
  set (f := fun kv : string * json => _).
  assert (K : match mapM f rest with
              | Ok added => Forall2 (fun d a => peaks d t <> [] /\ residuals_of est d t a) (map fst rest) added
              | Err _ => exists d, In d (map fst rest) /\ peaks d t = [] end).
  { induction rest as [|[d v] rest IH]; [constructor|]. cbn [mapM map fst]. unfold f at 1. cbn [fst]. rewrite Hp.
    destruct (peaks d t) as [|q qs] eqn:Eq; cbn [bind]; [exists d; split; [now left|exact Eq]|]. rewrite <- Eq.
    destruct (mapM f rest) as [added|]; cbn [bind].
    - constructor; [|exact IH]. split; [congruence|]. now apply residuals_made.
    - destruct IH as (d' & H1 & H2). exists d'. split; [now right|exact H2]. }
  destruct (mapM f rest) as [added|e]; cbn [bind]; [|right; now right].
  destruct rest as [|kv rest0] eqn:Er; [right; now left|]. split; [reflexivity|]. split; [reflexivity|]. split; [discriminate|]. now exists added.
Qed.

Lemma set_column_spec lab u col t :
  (exists u', In (lab, u', col) (set_column lab u col t) /\ u' = u) /\
  (forall lab' u' col', lab' <> lab -> (In (lab', u', col') (set_column lab u col t) <-> In (lab', u', col') t)).
Proof.
  induction t as [|[[l' u0] c0] t [IH1 IH2]]; cbn [set_column].
  - split; [exists u; split; [now left|reflexivity]|]. intros lab' u' col' Hn. cbn. split; [intros [E|[]]|intros []]. injection E as E _ _. congruence.
  - cbn [fst snd]. destruct (label_eqb lab l') eqn:E.
    + apply label_eqb_eq in E. subst l'. split; [exists u; split; [now left|reflexivity]|]. intros lab' u' col' Hn. cbn.
      split; (intros [E|H]; [injection E as E _ _; congruence|now right]).
    + destruct IH1 as (u' & H & ->). split; [exists u; split; [now right|reflexivity]|]. intros lab' u' col' Hn. cbn. rewrite IH2 by exact Hn. reflexivity.
Qed.

(** ** Components that support the calculation *)

Lemma number_text k : str_of_Z (Z.of_nat k) = str_of_nat k.
Proof. unfold str_of_Z. destruct (Z.ltb_spec (Z.of_nat k) 0); [lia|]. now rewrite Nat2Z.id. Qed.
Lemma joined_form ns : ns <> [] -> direction_form (join "," (map str_of_nat ns)) (map Z.of_nat ns).
Proof.
  intros H. destruct ns as [|n [|m ns]]; [contradiction| |].
  - cbn. apply one_number. apply pyint_str_of_nat.
  - apply a_list. exists (map str_of_nat (n :: m :: ns)). split; [cbn; lia|]. split; [reflexivity|].
    generalize (n :: m :: ns). intros l. induction l; cbn; constructor; [apply pyint_str_of_nat|assumption].
Qed.
Lemma location_of_list stories s zs : (exists z, pyint s = Some z /\ zs = [z]) \/ listed s zs -> get_locations stories s = Ok (map str_of_Z zs).
Proof.
  unfold get_locations. intros [(z & Hz & ->)|Hl].
  - rewrite (as_single_int _ Hz). reflexivity.
  - pose proof (listed_comma Hl) as C. rewrite (as_single_comma _ C). rewrite (listed_no_dashes Hl).
    unfold simple_locations. rewrite (as_single_comma _ C), C. rewrite (proj2 (@int_list_spec _ _ C) Hl). reflexivity.
Qed.
Lemma joined_locations stories ns : ns <> [] -> get_locations stories (join "," (map str_of_nat ns)) = Ok (map str_of_nat ns).
Proof.
  intros H. rewrite (@location_of_list stories _ (map Z.of_nat ns)).
  - f_equal. rewrite map_map. apply map_ext. apply number_text.
  - destruct ns as [|n [|m ns]]; [contradiction| |].
    + left. exists (Z.of_nat n). split; [apply pyint_str_of_nat|reflexivity].
    + right. exists (map str_of_nat (n :: m :: ns)). split; [cbn; lia|]. split; [reflexivity|].
      generalize (n :: m :: ns). intros l. induction l; cbn; constructor; [apply pyint_str_of_nat|assumption].
Qed.
Lemma joined_directions ns : ns <> [] -> get_directions (Some (join "," (map str_of_nat ns))) = Ok (map str_of_nat ns).
Proof. intros H. rewrite (direction_form_ok (joined_form H)). f_equal. rewrite map_map. apply map_ext. apply number_text. Qed.

Lemma labels_of_type_spec ty k demands : Forall numbered demands -> (k = 1 \/ k = 2)%nat ->
  (exists ns, labels_of_type ty k demands = map str_of_nat ns) /\ NoDup (labels_of_type ty k demands) /\
  forall x, In x (labels_of_type ty k demands) <-> exists d, In d demands /\ d_type d = ty /\ nth k d "" = x.
Proof.
  intros Hn Hk. rewrite Forall_forall in Hn. unfold labels_of_type.
  assert (H : forall x, In x (unique String.eqb (map (fun d => nth k d "") (filter (fun d => String.eqb (d_type d) ty) demands))) <-> exists d, In d demands /\ d_type d = ty /\ nth k d "" = x).
  { intros x. rewrite (unique_In String.eqb String.eqb_eq), in_map_iff. split.
    - intros (d & <- & Hd). apply filter_In in Hd as [Hd E]. apply String.eqb_eq in E. now exists d.
    - intros (d & Hd & E & <-). exists d. split; [reflexivity|]. apply filter_In. split; [exact Hd|now apply String.eqb_eq]. }
  split; [|split; [apply (unique_NoDup String.eqb String.eqb_eq)|exact H]].
  assert (F : Forall (fun x => exists n, x = str_of_nat n) (unique String.eqb (map (fun d => nth k d "") (filter (fun d => String.eqb (d_type d) ty) demands)))).
  { apply Forall_forall. intros x Hx. apply H in Hx as (d & Hd & _ & <-). destruct (Hn d Hd) as (ty' & l & m & ->).
    destruct Hk as [-> | ->]; eexists; reflexivity. }
  revert F. clear. generalize (unique String.eqb (map (fun d => nth k d "") (filter (fun d => String.eqb (d_type d) ty) demands))). intros L F.
  induction F as [|x L (n & ->) F IH]; [now exists []|]. destruct IH as (ns & ->). now exists (n :: ns).
Qed.
Lemma NoDup_prod {A B} (l : list A) (l' : list B) : NoDup l -> NoDup l' -> NoDup (list_prod l l').
Proof.
  intros H H'. induction H as [|a l Ha H IH]; cbn; [constructor|]. apply NoDup_app_intro; [|exact IH|].
  - apply FinFun.Injective_map_NoDup; [|exact H']. intros x y E. now injection E.
  - intros [x y] Hin Hin'. apply in_map_iff in Hin as (z & E & _). injection E as <- <-. apply in_prod_iff in Hin' as [Hin' _]. contradiction.
Qed.

(** The row of a component at the locations and directions of a demand type. *)
Lemma joined_row stories name ty demands : Forall numbered demands -> (exists d, In d demands /\ d_type d = ty) ->
  one_each_at stories name (list_prod (labels_of_type ty 1 demands) (labels_of_type ty 2 demands))
    (AR name (joined ty 1 demands) (Some (joined ty 2 demands)) (Some "ea") None (Some 1%Qc) None None None None None).
Proof.
  intros Hn (d & Hd & Et). unfold one_each_at. cbn [a_cmp a_unit a_theta0 a_family a_theta1 a_theta2 a_lower a_upper a_blocks].
  repeat (split; [reflexivity|]). exists (list_prod (labels_of_type ty 1 demands) (labels_of_type ty 2 demands)).
  destruct (@labels_of_type_spec ty 1 demands Hn (or_introl eq_refl)) as ((ns & E1) & N1 & S1).
  destruct (@labels_of_type_spec ty 2 demands Hn (or_intror eq_refl)) as ((ms & E2) & N2 & S2).
  split; [|split; [reflexivity|now apply NoDup_prod]]. unfold places. cbn [a_location a_direction cell_text]. unfold joined.
  exists (labels_of_type ty 1 demands), (labels_of_type ty 2 demands).
  assert (ne1 : ns <> []). { intros ->. assert (X : In (nth 1 d "") (labels_of_type ty 1 demands)) by (apply S1; now exists d). rewrite E1 in X. destruct X. }
  assert (ne2 : ms <> []). { intros ->. assert (X : In (nth 2 d "") (labels_of_type ty 2 demands)) by (apply S2; now exists d). rewrite E2 in X. destruct X. }
  rewrite E1, E2, joined_locations, joined_directions by assumption. repeat split; reflexivity.
Qed.
Lemma single_row stories name : one_each_at stories name [("0", "1")] (AR name "0" (Some "1") (Some "ea") None (Some 1%Qc) None None None None None).
Proof.
  unfold one_each_at. cbn. repeat (split; [reflexivity|]). exists [("0", "1")]. split; [|split; [reflexivity|repeat constructor; intros []]].
  exists ["0"], ["1"]. repeat split.
Qed.
Lemma set_component_new name loc dir rows : ~ In name (map a_cmp rows) ->
  set_component name loc dir rows = rows ++ [AR name loc (Some dir) (Some "ea") None (Some 1%Qc) None None None None None].
Proof.
  intros H. unfold set_component. destruct (existsb _ rows) eqn:E; [|reflexivity]. exfalso. apply H.
  apply existsb_exists in E as (r & Hr & E). apply String.eqb_eq in E. subst. now apply in_map.
Qed.
Lemma some_type_b ty demands : Forall numbered demands -> existsb (fun d => String.eqb (d_type d) ty) demands = true <-> some_of_type ty demands.
Proof.
  intros Hn. rewrite Forall_forall in Hn. rewrite existsb_exists. split.
  - intros (d & Hd & E). apply String.eqb_eq in E. destruct (Hn d Hd) as (t & l & k & ->). cbn in E. subst. now exists (str_of_nat l), (str_of_nat k).
  - intros (l & d & H). exists [ty; l; d]. split; [exact H|apply String.eqb_refl].
Qed.
Lemma prod_places ty demands : Forall numbered demands -> forall l d,
  In (l, d) (list_prod (labels_of_type ty 1 demands) (labels_of_type ty 2 demands)) <->
  exists l' d', In [ty; l; d'] demands /\ In [ty; l'; d] demands.
Proof.
  intros Hn l d. rewrite in_prod_iff.
  destruct (@labels_of_type_spec ty 1 demands Hn (or_introl eq_refl)) as (_ & _ & S1).
  destruct (@labels_of_type_spec ty 2 demands Hn (or_intror eq_refl)) as (_ & _ & S2). rewrite S1, S2. rewrite Forall_forall in Hn. split.
  - intros ((x & Hx & Tx & Lx) & (y & Hy & Ty & Ly)). destruct (Hn x Hx) as (t1 & a & b & ->). destruct (Hn y Hy) as (t2 & a' & b' & ->).
    cbn in *. subst. eexists _, _. split; eassumption.
  - intros (l' & d' & H & H'). split; [exists [ty; l; d']|exists [ty; l'; d]]; repeat split; assumption.
Qed.
Lemma starts_with_spec p s : starts_with p s = true <-> exists x, s = (p ++ x)%string.
Proof.
  unfold starts_with. revert s. induction p as [|a p IH]; intros s; cbn [String.prefix append].
  - split; [intros _; now exists s|intros _; now destruct s].
  - destruct s as [|b s]; [split; [discriminate|intros (x & E); discriminate]|].
    cbn [String.prefix]. destruct (Ascii.ascii_dec a b) as [->|N].
    + rewrite IH. split; [intros (x & ->); now exists x|intros (x & E); injection E as ->; now exists x].
    + split; [discriminate|intros (x & E); now injection E as ->].
Qed.
Definition plain_row (name location direction : string) : assign_row :=
  AR name location (Some direction) (Some "ea") None (Some 1%Qc) None None None None None.
Definition demand_rows (name ty : string) (b : bool) (demands : list (list string)) : list assign_row :=
  if b then [plain_row name (joined ty 1 demands) (joined ty 2 demands)] else [].
Lemma add_support_eq ct irr demands rows : (forall r, In r rows -> ~ In (a_cmp r) reserved) ->
  let b := match ct with Some ty => negb (starts_with "SA" ty) && existsb (fun d => String.eqb (d_type d) ty) demands | None => false end in
  let b' := irr && existsb (fun d => String.eqb (d_type d) "RID") demands in
  add_support ct irr demands rows =
  rows ++ demand_rows "excessive.coll.DEM" (match ct with Some ty => ty | None => "" end) b demands ++ [plain_row "collapse" "0" "1"] ++
  demand_rows "excessiveRID" "RID" b' demands ++ (if b' then [plain_row "irreparable" "0" "1"] else []).
Proof.
  intros Hr b b'. unfold add_support. fold b'.
  assert (N : forall name, In name reserved -> ~ In name (map a_cmp rows)).
  { intros name Hn Hin. apply in_map_iff in Hin as (r & <- & Hin). exact (Hr r Hin Hn). }
  assert (E : match ct with
     | Some ty => if negb (starts_with "SA" ty) && existsb (fun d => String.eqb (d_type d) ty) demands
         then set_component "excessive.coll.DEM" (joined ty 1 demands) (joined ty 2 demands) rows else rows
     | None => rows end = rows ++ demand_rows "excessive.coll.DEM" (match ct with Some ty => ty | None => "" end) b demands).
  { unfold b, demand_rows. destruct ct as [ty|]; [|now rewrite app_nil_r]. destruct (_ && _); [|now rewrite app_nil_r].
    apply set_component_new. apply N. now left. }
  rewrite E. clear E.
  assert (M : forall x, In x (map a_cmp (demand_rows "excessive.coll.DEM" (match ct with Some ty => ty | None => "" end) b demands)) -> x = "excessive.coll.DEM").
  { unfold demand_rows. intros x. destruct b; cbn; [intros [<-|[]]; reflexivity|intros []]. }
  rewrite (@set_component_new "collapse"). 2: { rewrite map_app, in_app_iff. intros [H|H]; [now apply (N "collapse"); [cbn; auto|]|apply M in H; discriminate]. }
  destruct b'; cbn [demand_rows].
  - rewrite (@set_component_new "excessiveRID"). 2: { rewrite !map_app, !in_app_iff. intros [[H|H]|[H|[]]]; [now apply (N "excessiveRID"); [cbn; auto|]|apply M in H; discriminate|discriminate]. }
    rewrite (@set_component_new "irreparable"). 2: { rewrite !map_app, !in_app_iff. intros [[[H|H]|[H|[]]]|[H|[]]]; [now apply (N "irreparable"); [cbn; auto|]|apply M in H; discriminate|discriminate|discriminate]. }
    rewrite <- !app_assoc. reflexivity.
  - rewrite <- !app_assoc. reflexivity.
Qed.
Lemma support_spec stories ct irr demands rows : Forall numbered demands -> (forall r, In r rows -> ~ In (a_cmp r) reserved) ->
  exists extra, add_support ct irr demands rows = rows ++ extra /\ NoDup (map a_cmp extra) /\
    (forall name, In name (map a_cmp extra) <-> needed ct irr demands name) /\
    forall r, In r extra -> exists ps, one_each_at stories (a_cmp r) ps r /\ placed ct demands (a_cmp r) ps.
Proof.
  intros Hn Hr. rewrite (add_support_eq _ _ _ _ Hr). cbv zeta. set (b := match ct with Some _ => _ | None => false end). set (b' := irr && _).
  assert (Hb : b = true <-> exists ty, ct = Some ty /\ (forall s, ty <> ("SA" ++ s)%string) /\ some_of_type ty demands).
  { unfold b. destruct ct as [ty|]; [|split; [discriminate|intros (ty & E & _); discriminate]].
    rewrite andb_true_iff, (some_type_b _ Hn), negb_true_iff. split.
    - intros [H1 H2]. exists ty. split; [reflexivity|]. split; [|exact H2]. intros s ->.
      assert (X : starts_with "SA" ("SA" ++ s)%string = true) by (apply starts_with_spec; now exists s). congruence.
    - intros (ty' & E & H1 & H2). injection E as <-. split; [|exact H2]. destruct (starts_with "SA" ty) eqn:E; [|reflexivity].
      apply starts_with_spec in E as (s & ->). now destruct (H1 s). }
  assert (Hb' : b' = true <-> irr = true /\ some_of_type "RID" demands).
  { unfold b'. now rewrite andb_true_iff, (some_type_b _ Hn). }
  assert (Pl : forall ty, (forall l d, In [ty; l; d] demands -> In (l, d) (list_prod (labels_of_type ty 1 demands) (labels_of_type ty 2 demands))) /\
     (forall l d, In (l, d) (list_prod (labels_of_type ty 1 demands) (labels_of_type ty 2 demands)) -> exists l' d', In [ty; l; d'] demands /\ In [ty; l'; d] demands)).
  { intros ty. split; intros l d; rewrite (prod_places _ Hn); [|auto]. intros H. now exists l, d. }
  eexists. split; [reflexivity|]. split; [|split].
  - unfold demand_rows. destruct b, b'; cbn; repeat constructor; cbn; intuition discriminate.
  - intros name. unfold demand_rows. rewrite !map_app, !in_app_iff. split.
    + intros [H|[[<-|[]]|[H|H]]].
      * destruct b; [|destruct H]. destruct H as [<-|[]]. destruct (proj1 Hb eq_refl) as (ty & E & H1 & H2). now apply (by_demand _ E).
      * apply always.
      * destruct b'; [|destruct H]. destruct H as [<-|[]]. destruct (proj1 Hb' eq_refl). now apply by_drift.
      * destruct b'; [|destruct H]. destruct H as [<-|[]]. destruct (proj1 Hb' eq_refl). now apply drift_outcome.
    + intros [ty E H1 H2| |H1 H2|H1 H2].
      * left. rewrite (proj2 Hb) by (now exists ty). now left.
      * right. left. now left.
      * right. right. left. rewrite (proj2 Hb') by auto. now left.
      * right. right. right. rewrite (proj2 Hb') by auto. now left.
  - intros r. unfold demand_rows. rewrite !in_app_iff. intros [H|[[<-|[]]|[H|H]]].
    + destruct b; [|destruct H]. destruct H as [<-|[]]. destruct (proj1 Hb eq_refl) as (ty & -> & H1 & (l & d & H2)).
      eexists. split; [apply joined_row; [exact Hn|now exists [ty; l; d]]|]. apply (@at_demand _ _ ty); [reflexivity| |]; apply Pl.
    + eexists. split; [apply single_row|]. apply building. cbn; auto.
    + destruct b'; [|destruct H]. destruct H as [<-|[]]. destruct (proj1 Hb' eq_refl) as (_ & (l & d & H2)).
      eexists. split; [apply joined_row; [exact Hn|now exists ["RID"; l; d]]|]. apply at_drift; apply Pl.
    + destruct b'; [|destruct H]. destruct H as [<-|[]]. eexists. split; [apply single_row|]. apply building. cbn; auto.
Qed.
Lemma grid_places ty demands ps : full_grid ty demands -> (forall l d, In [ty; l; d] demands -> In (l, d) ps) ->
  (forall l d, In (l, d) ps -> exists l' d', In [ty; l; d'] demands /\ In [ty; l'; d] demands) -> places_of_type ty demands ps.
Proof. intros Hg H1 H2 l d. split; [|apply H1]. intros H. destruct (H2 _ _ H) as (l' & d' & A & B). apply (Hg _ _ _ _ A B). Qed.

(** ** Databases *)

Lemma database_names_spec s : named_in s (database_names s).
Proof.
  exists (split_on "," s). split; [symmetry; apply join_split|]. split; [apply split_on_nonempty|]. split; [apply split_on_pieces|reflexivity].
Qed.
Lemma prefix_app p s : String.prefix p (p ++ s) = true.
Proof. apply starts_with_spec. now exists s. Qed.
Lemma drop_app p s : str_drop (String.length p) (p ++ s) = s.
Proof. induction p; [reflexivity|exact IHp]. Qed.
Lemma length_app_str p s : String.length (p ++ s) = (String.length p + String.length s)%nat.
Proof. induction p; cbn; [reflexivity|now rewrite IHp]. Qed.
Lemma replace_absent p r s : forall fuel, contains p s = false -> str_replace_fuel fuel p r s = s.
Proof.
  induction s as [|a s IH]; intros [|fuel] H; cbn [str_replace_fuel]; try reflexivity.
  cbn [contains] in H. apply orb_false_iff in H as [H1 H2]. rewrite H1. now rewrite IH.
Qed.
Lemma replace_prefix p r s : p <> "" -> contains p s = false -> str_replace p r (p ++ s) = (r ++ s)%string.
Proof.
  intros Hp H. unfold str_replace. rewrite length_app_str. destruct p as [|a p]; [contradiction|].
  cbn [String.length Nat.add]. cbn [str_replace_fuel append]. change (String a (p ++ s)) with (String a p ++ s)%string. rewrite prefix_app.
  change (str_drop (S (String.length p)) (String a p ++ s)) with (str_drop (String.length (String a p)) (String a p ++ s)).
  now rewrite drop_app, replace_absent.
Qed.
Lemma contains_prefix p s : contains p (p ++ s) = true.
Proof. destruct (p ++ s)%string eqn:E; cbn [contains]; rewrite <- E, prefix_app; reflexivity. Qed.
Lemma contains_inside p s pre : contains p (pre ++ p ++ s) = true.
Proof.
  induction pre as [|a pre IH]; [exact (contains_prefix p s)|]. cbn [append]. cbn [contains]. rewrite IH. apply Bool.orb_true_r.
Qed.
Lemma user_path_spec path folder l ps : user_file folder path l -> user_path path folder = Ok ps -> ps = l.
Proof.
  intros [|p H|d rest H1 H2]; unfold user_path.
  - congruence.
  - rewrite H. congruence.
  - rewrite contains_prefix, H1, (@replace_prefix "CustomDLDataFolder" d rest ltac:(discriminate) H2). congruence.
Qed.
Lemma named_found {K} (fs : files K) dp names tabs :
  database_tables fs (flat_map (fun n => match filter (fun p => dmem p fs) (dp n) with [] => [] | p :: _ => [p] end) names) = Ok tabs ->
  found fs dp names tabs.
Proof.
  unfold database_tables. revert tabs. induction names as [|n names IH]; intros tabs; cbn [flat_map].
  - cbn. intros E. injection E as <-. constructor.
  - destruct (filter _ (dp n)) as [|p rest] eqn:F.
    + cbn [app]. intros H. apply not_found; [|now apply IH]. intros q Hq. destruct (dget q fs) eqn:E; [|reflexivity].
      assert (X : In q (filter (fun p => dmem p fs) (dp n))) by (apply filter_In; split; [exact Hq|]; unfold dmem; now rewrite E). rewrite F in X. destruct X.
    + cbn [app]. intros H. cbn [mapM] in H. destruct (dget p fs) as [t|] eqn:E; [|discriminate]. cbn [bind] in H.
      destruct (mapM _ _) as [ts|] eqn:M; [|discriminate]. cbn in H. injection H as <-.
      assert (X : exists before after, dp n = before ++ p :: after /\ forall q, In q before -> dget q fs = None).
      { revert F. generalize (dp n). intros l. induction l as [|x l IHl]; cbn; [discriminate|]. destruct (dmem x fs) eqn:D.
        - intros F. injection F as -> _. exists [], l. split; [reflexivity|intros q []].
        - intros F. destruct (IHl F) as (b & a & -> & Hb). exists (x :: b), a. split; [reflexivity|]. intros q [<-|Hq]; [|auto].
          unfold dmem in D. now destruct (dget x fs). }
      destruct X as (b & a & X1 & X2). apply (@found_file K fs dp n b p a t names ts X1 X2 E). now apply IH.
Qed.
Lemma mapM_app_inv {A B} (f : A -> result B) l1 : forall l2 r, mapM f (l1 ++ l2) = Ok r -> exists r1 r2, mapM f l1 = Ok r1 /\ mapM f l2 = Ok r2 /\ r = r1 ++ r2.
Proof.
  induction l1 as [|x l1 IH]; intros l2 r H; cbn [app mapM] in *.
  - now exists [], r.
  - destruct (f x) as [y|]; [|discriminate]. cbn [bind] in *. destruct (mapM f (l1 ++ l2)) as [r'|] eqn:E; [|discriminate]. cbn in H. injection H as <-.
    destruct (IH _ _ E) as (r1 & r2 & H1 & H2 & ->). rewrite H1. now exists (y :: r1), r2.
Qed.
Lemma mapM_rev {A B} (f : A -> result B) l l' : mapM f (rev l) = Ok l' -> mapM f l = Ok (rev l').
Proof.
  revert l'. induction l as [|x l IH]; intros l'; cbn [rev].
  - cbn. intros E. injection E as <-. reflexivity.
  - intros H. apply mapM_app_inv in H as (l1 & l2 & H1 & H2 & ->). apply IH in H1. cbn [mapM] in *.
    destruct (f x) as [y|] eqn:E; [|discriminate]. cbn in *. injection H2 as <-. rewrite H1. cbn. now rewrite rev_app_distr.
Qed.
Lemma tables_spec {K} (fs : files K) dp database path folder paths tabs l : user_file folder path l ->
  database_paths fs dp database path folder = Ok paths -> database_tables fs paths = Ok tabs ->
  exists names ts user, match database with Some s => named_in s names | None => names = [] end /\ found fs dp names ts /\
    Forall2 (fun p t => dget p fs = Some t) l user /\ tabs = user ++ rev ts.
Proof.
  intros Hu H HT. unfold database_paths in H. destruct (user_path path folder) as [u|] eqn:U; [|discriminate]. cbn [bind] in H. injection H as <-.
  pose proof (user_path_spec Hu U) as ->. rewrite rev_app_distr in HT. unfold database_tables in HT.
  apply mapM_app_inv in HT as (t1 & t2 & H1 & H2 & ->). apply mapM_rev in H2.
  exists (match database with Some s => database_names s | None => [] end), (rev t2), t1. split; [|split; [|split]].
  - destruct database; [apply database_names_spec|reflexivity].
  - apply named_found. destruct database; exact H2.
  - apply mapM_rev in H1. destruct Hu; cbn [mapM rev bind app] in H1.
    + injection H1 as E. destruct t1; [constructor|]. cbn in E. destruct (rev t1); discriminate.
    + destruct (dget p fs) eqn:E; [|discriminate]. injection H1 as H1. apply (f_equal (@rev _)) in H1. rewrite rev_involutive in H1. subst. now repeat constructor.
    + destruct (dget _ fs) eqn:E; [|discriminate]. injection H1 as H1. apply (f_equal (@rev _)) in H1. rewrite rev_involutive in H1. subst. now repeat constructor.
  - now rewrite rev_involutive.
Qed.

(** ** Damage processes *)

Definition last_match (p : string) (components : list string) : string := fold_left (fun acc c => if contains p c then c else acc) components "".
Lemma cmp_map_eq components : cmp_map components = [("STR", last_match "STR." components); ("LF", last_match "LF." components); ("NSA", last_match "NSA." components)].
Proof.
  unfold cmp_map, last_match. change ("STR" ++ ".")%string with "STR.".
  enough (G : forall a b c, fold_left (fun m c => fold_left (fun m ty => if contains (ty ++ ".")%string c then dset ty c m else m) ["STR"; "LF"; "NSA"] m) components [("STR", a); ("LF", b); ("NSA", c)] =
    [("STR", fold_left (fun acc c => if contains "STR." c then c else acc) components a); ("LF", fold_left (fun acc c => if contains "LF." c then c else acc) components b);
     ("NSA", fold_left (fun acc c => if contains "NSA." c then c else acc) components c)]) by apply G.
  induction components as [|x l IH]; intros a b c; [reflexivity|]. cbn [fold_left append].
  destruct (contains "STR." x), (contains "LF." x), (contains "NSA." x); cbn [dset String.eqb Ascii.eqb Bool.eqb]; rewrite <- IH; reflexivity.
Qed.
Lemma last_match_gen p components : forall a, let r := fold_left (fun acc c => if contains p c then c else acc) components a in
  (exists before after, components = before ++ r :: after /\ contains p r = true /\ forall x, In x after -> contains p x = false) \/
  (r = a /\ forall x, In x components -> contains p x = false).
Proof.
  induction components as [|x l IH]; intros a; cbn.
  - right. split; [reflexivity|intros x []].
  - destruct (IH (if contains p x then x else a)) as [(b & c & E & H)|(E & H)].
    + left. exists (x :: b), c. split; [now rewrite E at 1|]. exact H.
    + cbn in E. rewrite E. destruct (contains p x) eqn:C.
      * left. exists [], l. auto.
      * right. split; [reflexivity|]. intros y [<-|Hy]; auto.
Qed.
Lemma last_match_some class components c : contains (class ++ ".") "" = false -> last_of_class class components c <-> last_match (class ++ ".") components = c /\ c <> "".
Proof.
  intros H0. unfold last_match. destruct (last_match_gen (class ++ ".") components "") as [(b & a & E & H1 & H2)|(E & H)].
  - cbv zeta in *. set (r := fold_left _ components "") in *. clearbody r. split.
    + intros (b' & a' & E' & H1' & H2'). assert (X : c = r).
      { rewrite E in E'. clear E H0. revert b' E'. induction b as [|x b IH]; intros [|y b'] E'; cbn in E'; injection E' as E1 E2.
        - now symmetry.
        - rewrite E2 in H2. exfalso. assert (X : contains (class ++ ".") c = false) by (apply H2; apply in_or_app; right; now left). congruence.
        - rewrite <- E2 in H2'. exfalso. assert (X : contains (class ++ ".") r = false) by (apply H2'; apply in_or_app; right; now left). congruence.
        - exact (IH _ E2). }
      subst c. split; [reflexivity|]. intros X. rewrite X in H1. congruence.
    + intros [<- _]. now exists b, a.
  - cbv zeta in *. rewrite E. split.
    + intros (b' & a' & -> & H1 & _). rewrite (H c) in H1; [discriminate|]. apply in_or_app. right. now left.
    + intros [<- X]. now destruct X.
Qed.
Lemma contains_of_nil p : p <> "" -> contains p "" = false.
Proof. destruct p; [contradiction|reflexivity]. Qed.
Lemma keep_present_spec components p kept : keep_present components p = Ok kept ->
  forall e, In e kept <-> In e p /\ exists order c rest, split_on "_" (fst e) = order :: c :: rest /\ In c components.
Proof.
  unfold keep_present. intros H. destruct (mapM _ p) as [l|] eqn:M; [|discriminate]. cbn in H. injection H as <-. revert l M.
  induction p as [|r p IH]; intros l M e; cbn [mapM] in M.
  - injection M as <-. cbn. tauto.
  - destruct (split_on "_" (fst r)) as [|o [|c rest]] eqn:S; try discriminate. cbn [bind] in M. destruct (mapM _ p) as [l'|]; [|discriminate].
    cbn in M. injection M as <-. cbn [List.concat]. rewrite in_app_iff, (IH _ eq_refl). cbn [In]. destruct (mem c components) eqn:Mc.
    + apply mem_true in Mc. split.
      * intros [[<-|[]]|(H1 & H2)]; [split; [now left|now exists o, c, rest]|auto].
      * intros ([<-|H1] & H2); [left; now left|right; auto].
    + apply mem_false in Mc. split.
      * intros [[]|(H1 & H2)]; auto.
      * intros ([<-|H1] & H2); [|auto]. exfalso. destruct H2 as (o' & c' & r' & E & Hc). rewrite S in E. injection E as _ <- _. contradiction.
Qed.
Lemma keep_present_ok components p : (forall e, In e p -> exists order c rest, split_on "_" (fst e) = order :: c :: rest) -> exists kept, keep_present components p = Ok kept.
Proof.
  unfold keep_present. intros H. enough (exists l, mapM (fun rule => match split_on "_" (fst rule) with
                                 | _ :: c :: _ => Ok (if mem c components then [rule] else [])
                                 | _ => Err IndexError
                                 end) p = Ok l) as (l & ->) by (eexists; reflexivity).
  induction p as [|e p IH]; cbn [mapM]; [now eexists|]. destruct (H e (or_introl eq_refl)) as (o & c & r & ->). cbn [bind].
  destruct IH as (l & ->); [intros e' He; apply H; now right|]. now eexists.
Qed.
Lemma app_nil_str s : (s ++ "")%string = s.
Proof. induction s; cbn; [reflexivity|now rewrite IHs]. Qed.
Definition rules_of (l : list rule) : process := map (fun r => entry (fst (fst r)) (snd (fst r)) (snd r)) l.
Definition same_targets (m : dict string) (p : process) : Prop := Forall (fun r => map (fun t => (fst t, new_target m (snd t))) (snd r) = snd r) p.
Lemma specialize_rest m : forall rest acc, same_targets m rest -> (forall r, In r rest -> new_source m (fst r) = None /\ dget (fst r) acc = Some (snd r)) ->
  fold_left (fun acc rule =>
    let action := map (fun t => (fst t, new_target m (snd t))) (snd rule) in
    match new_source m (fst rule) with
    | Some src => ddel (fst rule) (dset src action acc)
    | None => dset (fst rule) action acc
    end) rest acc = acc.
Proof.
  intros rest acc Ht Hr. induction rest as [|(k, a) rest IH]; [reflexivity|]. cbn [fold_left]. destruct (Hr (k, a) (or_introl eq_refl)) as [H1 H2].
  inversion_clear Ht as [|? ? E Ht']. cbv beta zeta. cbn [fst snd] in *. rewrite H1, E. match goal with |- fold_left _ rest ?x = _ => replace x with acc by (symmetry; exact (@dset_same _ _ _ _ H2)) end.
  apply IH; [assumption|]. intros r' Hr'. apply Hr. now right.
Qed.
Lemma specialize_none m p : NoDup (map fst p) -> same_targets m p -> (forall r, In r p -> new_source m (fst r) = None) -> specialize m p = p.
Proof.
  intros Hn Ht Hs. apply (@specialize_rest m p p Ht). intros r Hr. split; [auto|]. apply dget_NoDup; [exact Hn|]. now destruct r.
Qed.
Lemma dset_new {V} k (v : V) d : ~ In k (map fst d) -> dset k v d = d ++ [(k, v)].
Proof.
  induction d as [|(k', v') d IH]; cbn; [reflexivity|]. intros H. destruct (String.eqb_spec k k') as [->|N]; [tauto|]. rewrite IH; tauto.
Qed.
Lemma specialize_first m k0 a0 rest src : NoDup (map fst ((k0, a0) :: rest)) -> same_targets m ((k0, a0) :: rest) -> new_source m k0 = Some src ->
  ~ In src (map fst ((k0, a0) :: rest)) -> (forall r, In r rest -> new_source m (fst r) = None) -> specialize m ((k0, a0) :: rest) = rest ++ [(src, a0)].
Proof.
  intros Hn Ht H0 Hsrc Hs. unfold specialize. cbn [fold_left fst snd]. cbv beta zeta. rewrite H0. inversion_clear Ht as [|? ? E Ht']. cbn [snd] in E. rewrite E.
  rewrite dset_new by exact Hsrc.
  assert (D : ddel k0 (((k0, a0) :: rest) ++ [(src, a0)]) = rest ++ [(src, a0)]).
  { cbn [app ddel filter fst]. unfold ddel. cbn [filter fst]. rewrite String.eqb_refl. cbn [negb]. apply filter_all. intros x Hx. apply negb_true_iff. apply String.eqb_neq. intros Ex.
    cbn in Hn, Hsrc. inversion_clear Hn. apply in_app_or in Hx as [Hx|[<-|[]]]; [apply H; rewrite Ex; now apply in_map|cbn in Ex; tauto]. }
  match goal with |- fold_left _ rest ?x = _ => replace x with (rest ++ [(src, a0)]) by (symmetry; exact D) end. apply (@specialize_rest m); [exact Ht'|]. intros r Hr. split; [auto|]. rewrite dget_app.
  assert (X : dget (fst r) rest = Some (snd r)). { cbn in Hn. inversion_clear Hn. apply dget_NoDup; [assumption|]. now destruct r. }
  now rewrite X.
Qed.
(** The targets of the default processes name no class of components. *)
Lemma targets_same s l n : Forall (fun np => same_targets [("STR", s); ("LF", l); ("NSA", n)] (snd np)) default_damage_processes.
Proof. unfold default_damage_processes, same_targets. repeat constructor. Qed.
Ltac distinct := repeat constructor; cbn; intuition discriminate.
Lemma specialize_buildings s l n : s <> "STR" -> s <> "" ->
  specialize [("STR", s); ("LF", l); ("NSA", n)] (entry "1" "STR" ("DS5", "collapse_DS1") :: rules_of building_rules) =
  rules_of building_rules ++ [entry "1" s ("DS5", "collapse_DS1")].
Proof.
  intros Hs H0. apply specialize_first.
  - cbn. distinct.
  - repeat constructor.
  - unfold new_source. cbn [filter fst snd contains String.prefix]. apply String.eqb_neq in H0. cbn -[String.eqb]. rewrite H0. cbn. now rewrite app_nil_str.
  - cbn. intros H. repeat destruct H as [H|H]; try discriminate; try contradiction. injection H as H. congruence.
  - intros r Hr. cbn in Hr. repeat destruct Hr as [<-|Hr]; try reflexivity. destruct Hr.
Qed.
Lemma specialize_facilities s l n : l <> "LF" -> l <> "" ->
  specialize [("STR", s); ("LF", l); ("NSA", n)] (entry "1" "LF" ("DS5", "collapse_DS1") :: rules_of facility_rules) =
  rules_of facility_rules ++ [entry "1" l ("DS5", "collapse_DS1")].
Proof.
  intros Hs H0. apply specialize_first.
  - cbn. distinct.
  - repeat constructor.
  - unfold new_source. cbn [filter fst snd contains String.prefix]. apply String.eqb_neq in H0. cbn -[String.eqb]. rewrite H0. cbn. now rewrite app_nil_str.
  - cbn. intros H. repeat destruct H as [H|H]; try discriminate; try contradiction. injection H as H. congruence.
  - intros r Hr. cbn in Hr. repeat destruct Hr as [<-|Hr]; try reflexivity. destruct Hr.
Qed.
Lemma specialize_absent_class s l n k e rules : (k = "STR" /\ s = "" /\ rules = building_rules) \/ (k = "LF" /\ l = "" /\ rules = facility_rules) -> e = ("DS5", "collapse_DS1") ->
  specialize [("STR", s); ("LF", l); ("NSA", n)] (entry "1" k e :: rules_of rules) = entry "1" k e :: rules_of rules.
Proof.
  intros [(-> & -> & ->)|(-> & -> & ->)] ->; apply specialize_none; try (cbn; distinct); try (repeat constructor);
    intros r Hr; cbn in Hr; repeat destruct Hr as [<-|Hr]; try reflexivity; destruct Hr.
Qed.
Lemma kept_rules rules components : Forall (fun r : rule => has_char "_" (fst (fst r)) = false /\ has_char "_" (snd (fst r)) = false) rules ->
  exists kept, keep_present components (rules_of rules) = Ok kept /\
    forall e, In e kept <-> exists o src eff, In (o, src, eff) rules /\ e = entry o src eff /\ In src components.
Proof.
  intros Hr. rewrite Forall_forall in Hr.
  assert (S : forall r, In r rules -> split_on "_" (fst (entry (fst (fst r)) (snd (fst r)) (snd r))) = [fst (fst r); snd (fst r)]).
  { intros r Hin. destruct (Hr r Hin) as [H1 H2]. unfold entry. cbn [fst]. now apply split_two. }
  destruct (@keep_present_ok components (rules_of rules)) as (kept & K).
  { intros e He. apply in_map_iff in He as (r & <- & Hin). rewrite (S r Hin). now eexists _, _, _. }
  exists kept. split; [exact K|]. intros e. rewrite (keep_present_spec _ _ K). split.
  - intros (He & o & c & rest & E & Hc). apply in_map_iff in He as (r & <- & Hin). rewrite (S r Hin) in E. injection E as E1 E2 _.
    destruct r as ((o', src), eff). cbn in *. subst. now exists o, c, eff.
  - intros (o & src & eff & Hin & -> & Hc). split; [apply in_map_iff; now exists (o, src, eff)|].
    specialize (S _ Hin). cbn [fst snd] in S. rewrite S. now eexists _, _, _.
Qed.
Lemma fema_process components user : exists p, damage_process (Some "FEMA P-58") components user = Ok (Some p) /\
  forall e, In e p <-> exists o src eff, In (o, src, eff) fema_rules /\ e = entry o src eff /\ In src components.
Proof.
  destruct (@kept_rules fema_rules components) as (p & K & H); [repeat constructor|]. exists p. split; [|exact H].
  unfold damage_process. change (dget "FEMA P-58" default_damage_processes) with (Some (rules_of fema_rules)). cbn [mem existsb String.eqb Ascii.eqb Bool.eqb orb].
  cbv zeta. rewrite K. reflexivity.
Qed.
Lemma hazus_process approach class rules components user : hazus_default approach class rules ->
  (forall c, In c components -> has_char "_" c = false /\ c <> class) ->
  exists p, damage_process (Some approach) components user = Ok (Some p) /\
  forall e, In e p <-> (exists o src eff, In (o, src, eff) rules /\ e = entry o src eff /\ In src components) \/
                       (exists c, last_of_class class components c /\ e = entry "1" c ("DS5", "collapse_DS1")).
Proof.
  intros Ha Hc.
  assert (HL : contains (class ++ ".") "" = false) by (destruct Ha as [(_ & -> & _)|(_ & -> & _)]; reflexivity).
  assert (D : dget approach default_damage_processes = Some (entry "1" class ("DS5", "collapse_DS1") :: rules_of rules))
    by (destruct Ha as [(-> & -> & ->)|(-> & -> & ->)]; reflexivity).
  assert (Me : mem approach ["Hazus Earthquake"; "Hazus Earthquake - Buildings"; "Hazus Earthquake - Lifeline Facilities"] = true)
    by (destruct Ha as [(-> & -> & ->)|(-> & -> & ->)]; reflexivity).
  assert (Hr : Forall (fun r : rule => has_char "_" (fst (fst r)) = false /\ has_char "_" (snd (fst r)) = false) rules)
    by (destruct Ha as [(-> & -> & ->)|(-> & -> & ->)]; repeat constructor).
  unfold damage_process. rewrite D, Me, cmp_map_eq. cbv zeta.
  destruct (string_dec (last_match (class ++ ".") components) "") as [E0|N0].
  - assert (SP : specialize [("STR", last_match "STR." components); ("LF", last_match "LF." components); ("NSA", last_match "NSA." components)]
         (entry "1" class ("DS5", "collapse_DS1") :: rules_of rules) = rules_of (("1", class, ("DS5", "collapse_DS1")) :: rules)).
    { apply specialize_absent_class; [|reflexivity]. destruct Ha as [(-> & -> & ->)|(-> & -> & ->)]; [left|right]; repeat split; exact E0. }
    rewrite SP. destruct (@kept_rules (("1", class, ("DS5", "collapse_DS1")) :: rules) components) as (p & K & H).
    { constructor; [|exact Hr]. destruct Ha as [(_ & -> & _)|(_ & -> & _)]; split; reflexivity. }
    exists p. rewrite K. split; [reflexivity|]. intros e. rewrite H. split.
    + intros (o & src & eff & [E|Hin] & -> & Hs); [|left; now exists o, src, eff]. exfalso. injection E as <- <- <-. now destruct (Hc _ Hs).
    + intros [(o & src & eff & Hin & -> & Hs)|(c & Hl & _)]; [exists o, src, eff; split; [now right|auto]|].
      exfalso. apply last_match_some in Hl; [|exact HL]. destruct Hl. congruence.
  - set (c := last_match (class ++ ".") components) in *.
    assert (Hl : last_of_class class components c) by (now apply last_match_some).
    assert (Hin : In c components). { destruct Hl as (b & a & E & _). rewrite E. apply in_or_app. right. now left. }
    destruct (Hc _ Hin) as [Hu Hne].
    assert (SP : specialize [("STR", last_match "STR." components); ("LF", last_match "LF." components); ("NSA", last_match "NSA." components)]
         (entry "1" class ("DS5", "collapse_DS1") :: rules_of rules) = rules_of (rules ++ [("1", c, ("DS5", "collapse_DS1"))])).
    { unfold rules_of. rewrite map_app. cbn [map fst snd]. destruct Ha as [(-> & -> & ->)|(-> & -> & ->)]; [now apply specialize_buildings|now apply specialize_facilities]. }
    rewrite SP. destruct (@kept_rules (rules ++ [("1", c, ("DS5", "collapse_DS1"))]) components) as (p & K & H).
    { apply Forall_app. split; [exact Hr|]. repeat constructor. exact Hu. }
    exists p. rewrite K. split; [reflexivity|]. intros e. rewrite H. split.
    + intros (o & src & eff & Hi & -> & Hs). apply in_app_or in Hi as [Hi|[Hi|[]]]; [left; now exists o, src, eff|].
      injection Hi as <- <- <-. right. now exists c.
    + intros [(o & src & eff & Hi & -> & Hs)|(c' & Hl' & ->)].
      * exists o, src, eff. split; [apply in_or_app; now left|auto].
      * apply last_match_some in Hl'; [|exact HL]. destruct Hl' as [<- _]. exists "1", c, ("DS5", "collapse_DS1"). split; [apply in_or_app; right; now left|auto].
Qed.

(** ** Additional fragilities *)

Lemma fst_unique {K V} (l : list (K * V)) k v v' : NoDup (map fst l) -> In (k, v) l -> In (k, v') l -> v = v'.
Proof.
  induction l as [|(x, y) l IH]; cbn; [intros _ []|]. intros Hn. inversion_clear Hn as [|? ? N Hn']. intros [E|H] [E'|H'].
  - congruence.
  - injection E as -> ->. exfalso. apply N. apply in_map_iff. now exists (k, v').
  - injection E' as -> ->. exfalso. apply N. apply in_map_iff. now exists (k, v).
  - now apply IH.
Qed.
Lemma cells_eq r cells : NoDup (map fst r) -> (forall e, In e cells <-> In e r) -> has_cells r cells.
Proof.
  intros Hn He. split.
  - intros c v H. apply He in H. unfold at_col. destruct (aget pair_eqb c r) as [v'|] eqn:E.
    + apply (aget_In pair_eqb pair_eqb_eq) in E. exact (fst_unique _ _ _ _ Hn E H).
    + apply (aget_None pair_eqb pair_eqb_eq) in E. exfalso. apply E. apply in_map_iff. now exists (c, v).
  - intros c H. unfold at_col. destruct (aget pair_eqb c r) as [v|] eqn:E; [|reflexivity].
    apply (aget_In pair_eqb pair_eqb_eq) in E. exfalso. apply H. apply in_map_iff. exists (c, v). split; [reflexivity|now apply He].
Qed.
Lemma cells_same r r' cells : (forall c, at_col r' c = at_col r c) -> has_cells r cells -> has_cells r' cells.
Proof. intros H [H1 H2]. split; intros; rewrite H; auto. Qed.
Lemma add_cols new : forall cols c, In c (fold_left (fun cs c => if existsb (pair_eqb c) cs then cs else cs ++ [c]) new cols) <-> In c cols \/ In c new.
Proof.
  induction new as [|x new IH]; intros cols c; cbn [fold_left In]; [tauto|]. rewrite IH. destruct (existsb (pair_eqb x) cols) eqn:E.
  - apply existsb_pair in E. split; [tauto|]. intros [H|[<-|H]]; tauto.
  - rewrite in_app_iff. cbn. tauto.
Qed.
Lemma extra_table_rows columns rows k r : In (k, r) (p_rows (extra_table columns rows)) -> exists r0, In (k, r0) rows /\ forall c, at_col r c = at_col r0 c.
Proof.
  unfold extra_table. cbn [p_rows]. intros H. apply in_map_iff in H as ((k0 & r0) & E & Hin). cbn in E. injection E as <- <-. exists r0. split; [exact Hin|].
  intros c. apply at_col_restrict. intros Hc. apply add_cols. right. apply in_flat_map. now exists (k0, r0).
Qed.
Lemma extra_table_keys columns rows : map fst (p_rows (extra_table columns rows)) = map fst rows.
Proof. unfold extra_table. cbn [p_rows]. rewrite map_map. reflexivity. Qed.
Lemma demand_name_spec short name : demand_name short = Some name -> stands_for name short.
Proof.
  rewrite <- edp_stands.
  unfold demand_name. destruct (filter _ EDP_to_demand_type) as [|(n, v) l] eqn:F; [discriminate|]. intros E. injection E as <-.
  assert (H : In (n, v) (filter (fun nv => String.eqb (snd nv) short) EDP_to_demand_type)) by (rewrite F; now left).
  apply filter_In in H as [H E]. cbn in E. apply String.eqb_eq in E. now subst.
Qed.
Lemma demand_name_none short : demand_name short = None <-> ~ In short (map snd EDP_to_demand_type).
Proof.
  unfold demand_name. destruct (filter _ EDP_to_demand_type) as [|(n, v) l] eqn:F.
  - split; [|reflexivity]. intros _ H. apply in_map_iff in H as (e & E & H).
    assert (X : In e (filter (fun nv => String.eqb (snd nv) short) EDP_to_demand_type)) by (apply filter_In; split; [exact H|now apply String.eqb_eq]). rewrite F in X. destruct X.
  - split; [discriminate|]. intros H. exfalso. apply H. assert (X : In (n, v) (filter (fun nv => String.eqb (snd nv) short) EDP_to_demand_type)) by (rewrite F; now left).
    apply filter_In in X as [X E]. cbn in E. apply String.eqb_eq in E. subst. apply in_map_iff. exists (n, short). split; [reflexivity|exact X].
Qed.
Lemma has_char_join2 c a b : has_char c (a ++ "_" ++ b) = false -> has_char c a = false /\ has_char c b = false.
Proof. rewrite !has_char_app. intros H. apply orb_false_iff in H as [H1 H2]. apply orb_false_iff in H2 as [_ H2]. auto. Qed.
Lemma collapse_row_spec u cf r : has_char "|" (cf_type cf) = false -> collapse_row u cf = Ok r ->
  exists u' t d unit, u = Some u' /\ names_type t d (cf_type cf) /\ demand_unit_is u' (cf_type cf) unit /\
    has_cells r (fragility_of (VText t) (unit_cell unit) [(("LS1", "Family"), cf_family cf); (("LS1", "Theta_0"), cf_median cf); (("LS1", "Theta_1"), cf_theta1 cf)]).
Proof.
  intros Hb. unfold collapse_row. pose proof (join_split "_" (cf_type cf)) as Hj. pose proof (split_on_pieces "_" (cf_type cf)) as Hp.
  assert (C : forall type unit, has_cells (demand_cells (VText type) (opt_text unit) ++
              [(("LS1", "Family"), cf_family cf); (("LS1", "Theta_0"), cf_median cf); (("LS1", "Theta_1"), cf_theta1 cf); (("Incomplete", ""), VNum 0)])
     (fragility_of (VText type) (unit_cell unit) [(("LS1", "Family"), cf_family cf); (("LS1", "Theta_0"), cf_median cf); (("LS1", "Theta_1"), cf_theta1 cf)])).
  { intros type unit. apply cells_eq; [cbn; distinct|]. intros e. cbn. tauto. }
  destruct (split_on "_" (cf_type cf)) as [|a [|b [|]]] eqn:S; try discriminate; cbn [bind fst snd]; intros H.
  - cbn in Hj. destruct (demand_name a) as [name|] eqn:N; [|discriminate]. destruct u as [u'|]; [|discriminate]. injection H as <-.
    exists u', name, a, (inferred_unit u' a). split; [reflexivity|]. apply demand_name_spec in N. rewrite <- Hj. split; [|split; [now apply inferred_unit_spec|apply C]].
    apply S_Demand.plain_type; [now apply edp_no_bar with a|exact N].
  - change (a ++ "_" ++ b = cf_type cf)%string in Hj. destruct (demand_name a) as [name|] eqn:N; [|discriminate]. destruct u as [u'|]; [|discriminate]. injection H as <-.
    inversion_clear Hp as [|? ? Pa Hp']. inversion_clear Hp' as [|? ? Pb _].
    exists u', (name ++ "|" ++ b)%string, a, (inferred_unit u' a). split; [reflexivity|]. apply demand_name_spec in N. rewrite <- Hj in Hb. apply has_char_join2 in Hb as [Ha Hb].
    rewrite <- Hj. split; [|split; [|apply C]].
    + apply S_Demand.sub_type; [now apply edp_no_bar with a|exact Hb|exact N].
    + apply inferred_unit_spec. unfold inferred_unit. cbv zeta. assert (E : base_type (a ++ "_" ++ b) = base_type a).
      { unfold base_type. rewrite (split_on_nochar "_" a) by exact Pa. change (a ++ "_" ++ b)%string with (a ++ String "_" b)%string. now rewrite split_on_app. }
      now rewrite E.
Qed.
Lemma extra_spec u ms cf irr water rows columns : (forall c, cf = Some c -> has_char "|" (cf_type c) = false) ->
  extra_fragilities (Some u) (Some ms) cf irr water = Ok rows ->
  NoDup (map fst rows) /\
  (forall k r, In (k, r) (p_rows (extra_table columns rows)) -> exists cells, extra_row u ms cf irr water k cells /\ has_cells r cells) /\
  (forall k cells, extra_row u ms cf irr water k cells -> In k (map fst rows)).
Proof.
  intros Hb H.
  assert (PH : has_cells placeholder not_triggered) by (apply cells_eq; [cbn; distinct|]; intros e; cbn; tauto).
  assert (DR : forall m b, has_cells (demand_cells (VText "Residual Interstory Drift Ratio") (VText "unitless") ++
                      [(("LS1", "Theta_0"), m); (("LS1", "Family"), VText "lognormal"); (("LS1", "Theta_1"), b); (("Incomplete", ""), VNum 0)])
         (fragility_of (VText "Residual Interstory Drift Ratio") (VText "unitless") [(("LS1", "Family"), VText "lognormal"); (("LS1", "Theta_0"), m); (("LS1", "Theta_1"), b)]))
    by (intros m b; apply cells_eq; [cbn; distinct|]; intros e; cbn; tauto).
  assert (PI : has_cells (demand_cells (VText "Peak Ground Velocity") (VText "mps") ++
                    [(("LS1", "Theta_0"), never); (("LS2", "Theta_0"), never); (("Incomplete", ""), VNum 0)])
         (fragility_of (VText "Peak Ground Velocity") (VText "mps") [(("LS1", "Theta_0"), VNum (qz 10000000000)); (("LS2", "Theta_0"), VNum (qz 10000000000))]))
    by (apply cells_eq; [cbn; distinct|]; intros e; cbn; tauto).
  assert (K : NoDup (map fst rows) /\ (forall k r, In (k, r) rows -> exists cells, extra_row u ms cf irr water k cells /\ has_cells r cells) /\
    (forall k cells, extra_row u ms cf irr water k cells -> In k (map fst rows))).
  { unfold extra_fragilities in H. destruct cf as [c|].
    - destruct (collapse_row (Some u) c) as [r0|] eqn:R; [|discriminate]. cbn [bind] in H.
      destruct (@collapse_row_spec _ _ _ (Hb c eq_refl) R) as (u' & t & d & unit & E & Hnt & Hu & Hc). injection E as <-.
      assert (CC : collapse_cells u (Some c) (fragility_of (VText t) (unit_cell unit) [(("LS1", "Family"), cf_family c); (("LS1", "Theta_0"), cf_median c); (("LS1", "Theta_1"), cf_theta1 c)]))
        by (now exists c, t, d, unit).
      destruct (mem "excessive.coll.DEM" ms) eqn:Mm; [apply mem_true in Mm|apply mem_false in Mm]; injection H as <-.
      + split; [destruct irr as [(m, b)|], water; cbn; distinct|]. split.
        * intros k r Hin. destruct irr as [(m, b)|], water; cbn in Hin; repeat destruct Hin as [E|Hin]; try contradiction; injection E as <- <-;
            eexists; (split; [|first [exact Hc|exact PH|apply DR|exact PI]]);
            first [now apply collapse_by_demand|now apply collapse_by_process|now apply (@excessive_drift u ms (Some c) _ _ m b)|now apply irreparable_by_process|now apply pipe_segments].
        * intros k cells HE. destruct HE; try contradiction; destruct irr as [(m, b)|], water; cbn; try discriminate; try congruence; auto 10.
      + split; [destruct irr as [(m, b)|], water; cbn; distinct|]. split.
        * intros k r Hin. destruct irr as [(m, b)|], water; cbn in Hin; repeat destruct Hin as [E|Hin]; try contradiction; injection E as <- <-;
            eexists; (split; [|first [exact Hc|exact PH|apply DR|exact PI]]);
            first [now apply collapse_itself|now apply (@excessive_drift u ms (Some c) _ _ m b)|now apply irreparable_by_process|now apply pipe_segments].
        * intros k cells HE. destruct HE; try contradiction; destruct irr as [(m, b)|], water; cbn; try discriminate; try congruence; auto 10.
    - cbn [bind] in H. injection H as <-.
      split; [destruct irr as [(m, b)|], water; cbn; distinct|]. split.
      + intros k r Hin. destruct irr as [(m, b)|], water; cbn in Hin; repeat destruct Hin as [E|Hin]; try contradiction; injection E as <- <-;
          eexists; (split; [|first [exact PH|apply DR|exact PI]]);
          first [now apply collapse_not_set|now apply (@excessive_drift u ms None _ _ m b)|now apply irreparable_by_process|now apply pipe_segments].
      + intros k cells HE. destruct HE as [cells Hi (c & t & d & x & E & _)|cells Hi (c & t & d & x & E & _)| | | | |]; try discriminate; destruct irr as [(m, b)|], water; cbn; try discriminate; try congruence; auto 10. }
  destruct K as (K1 & K2 & K3). split; [exact K1|]. split; [|exact K3].
  intros k r Hin. destruct (extra_table_rows _ _ _ _ Hin) as (r0 & H0 & Hc). destruct (K2 _ _ H0) as (cells & HE & HC). exists cells. split; [exact HE|now apply (cells_same _ Hc)].
Qed.

(** ** Replacement consequences *)

Lemma given_cells rp m : has_cells (given rp m) (as_configured rp m).
Proof.
  apply cells_eq.
  - unfold given, cells_of. destruct (rp_family rp); cbn; distinct.
  - intros e. unfold given, as_configured, cells_of, consequence, opt_text, opt_value. reflexivity.
Qed.
Lemma default_cells u m : has_cells (cells_of u m) (consequence u m).
Proof. apply cells_eq; [cbn; distinct|]. intros e. reflexivity. Qed.
Lemma blank_cells : has_cells [] [].
Proof. split; [intros c v []|reflexivity]. Qed.
Definition dvs4 : list string := ["Cost"; "Time"; "Carbon"; "Energy"].
Lemma replacement_rows approach conseq occupancy rs t : replacement_table approach conseq occupancy rs = Ok t ->
  exists time, replacement_time approach conseq occupancy (rs_time rs) = Ok time /\
  map fst (p_rows t) = map (fun dv => ("replacement", dv)) dvs4 /\
  forall dv r, In (("replacement", dv), r) (p_rows t) -> exists rp r0, setting rs dv = Some rp /\ (forall c, at_col r c = at_col r0 c) /\
    r0 = (if String.eqb dv "Cost" then replacement_cost approach rp else if String.eqb dv "Time" then time
          else if String.eqb dv "Carbon" then replacement_other "kg" approach rp else replacement_other "MJ" approach rp) /\ In dv dvs4.
Proof.
  unfold replacement_table. destruct (replacement_time _ _ _ _) as [time|] eqn:T; [|discriminate]. cbn [bind]. intros E. exists time. split; [reflexivity|].
  injection E as <-. split; [reflexivity|]. intros dv r Hin. cbn [p_rows In] in Hin.
  assert (A : forall cols r0, (forall c, In c (map fst r0) -> In c cols) -> forall c, at_col (restrict cols r0) c = at_col r0 c)
    by (intros cols r0 H c; apply at_col_restrict; apply H).
  destruct Hin as [E|[E|[E|[E|[]]]]]; injection E as <- <-; eexists _, _; (split; [reflexivity|]); (split; [apply A|split; [reflexivity|cbn; auto]]);
    intros c Hc; apply add_cols; right; rewrite !in_app_iff; tauto.
Qed.
Lemma setting_time rs rp : setting rs "Time" = Some rp -> rp = rs_time rs.
Proof. cbn. congruence. Qed.
Lemma replacement_given approach conseq occupancy rs t dv r rp m : replacement_table approach conseq occupancy rs = Ok t ->
  In (("replacement", dv), r) (p_rows t) -> setting rs dv = Some rp -> rp_median rp = Some m -> has_cells r (as_configured rp m).
Proof.
  intros H Hin Hs Hm. destruct (replacement_rows _ _ _ _ H) as (time & T & _ & HR). destruct (HR _ _ Hin) as (rp' & r0 & Hs' & Hc & E & Hd).
  rewrite Hs in Hs'. injection Hs' as <-. apply (cells_same _ Hc). rewrite E. clear E.
  destruct Hd as [<-|[<-|[<-|[<-|[]]]]]; cbn [String.eqb Ascii.eqb Bool.eqb].
  - unfold replacement_cost. rewrite Hm. apply given_cells.
  - apply setting_time in Hs. unfold replacement_time in T. rewrite <- Hs, Hm in T. injection T as <-. apply given_cells.
  - unfold replacement_other. rewrite Hm. apply given_cells.
  - unfold replacement_other. rewrite Hm. apply given_cells.
Qed.
Lemma replacement_fema conseq occupancy rs t dv r rp : replacement_table "FEMA P-58" conseq occupancy rs = Ok t ->
  In (("replacement", dv), r) (p_rows t) -> setting rs dv = Some rp -> rp_median rp = None -> has_cells r (consequence (VText (fema_unit dv)) (VNum 0)).
Proof.
  intros H Hin Hs Hm. destruct (replacement_rows _ _ _ _ H) as (time & T & _ & HR). destruct (HR _ _ Hin) as (rp' & r0 & Hs' & Hc & E & Hd).
  rewrite Hs in Hs'. injection Hs' as <-. apply (cells_same _ Hc). rewrite E. clear E.
  destruct Hd as [<-|[<-|[<-|[<-|[]]]]]; cbn [String.eqb Ascii.eqb Bool.eqb].
  - unfold replacement_cost. rewrite Hm. apply default_cells.
  - apply setting_time in Hs. unfold replacement_time in T. rewrite <- Hs, Hm in T. injection T as <-. apply default_cells.
  - unfold replacement_other. rewrite Hm. apply default_cells.
  - unfold replacement_other. rewrite Hm. apply default_cells.
Qed.
(** What is left behind otherwise is a blank row. *)
Lemma replacement_blank approach conseq occupancy rs t dv r rp : approach <> "FEMA P-58" -> In dv ["Carbon"; "Energy"] ->
  replacement_table approach conseq occupancy rs = Ok t -> setting rs dv = Some rp -> rp_median rp = None ->
  In (("replacement", dv), r) (p_rows t) -> has_cells r [].
Proof.
  intros Ha Hd H Hs Hm Hin. destruct (replacement_rows _ _ _ _ H) as (time & T & _ & HR). destruct (HR _ _ Hin) as (rp' & r0 & Hs' & Hc & E & _).
  rewrite Hs in Hs'. injection Hs' as <-. apply (cells_same _ Hc). rewrite E. clear E. apply String.eqb_neq in Ha.
  destruct Hd as [<-|[<-|[]]]; cbn [String.eqb Ascii.eqb Bool.eqb]; unfold replacement_other; rewrite Hm, Ha; apply blank_cells.
Qed.
Lemma replacement_ratio approach conseq occupancy rs t r : approach <> "FEMA P-58" -> replacement_table approach conseq occupancy rs = Ok t ->
  In (("replacement", "Cost"), r) (p_rows t) -> rp_median (rs_cost rs) = None -> has_cells r (consequence (VText "loss_ratio") (VNum 1)).
Proof.
  intros Ha H Hin Hm. destruct (replacement_rows _ _ _ _ H) as (time & T & _ & HR). destruct (HR _ _ Hin) as (rp' & r0 & Hs' & Hc & E & _).
  cbn in Hs'. injection Hs' as <-. apply (cells_same _ Hc). rewrite E. clear E. apply String.eqb_neq in Ha. cbn [String.eqb Ascii.eqb Bool.eqb].
  unfold replacement_cost. rewrite Hm, Ha. destruct (mem _ _); apply default_cells.
Qed.
Lemma replacement_days approach class conseq o rs t r : (approach = "Hazus Earthquake - Buildings" /\ class = "STR." \/ approach = "Hazus Earthquake - Lifeline Facilities" /\ class = "LF.") ->
  replacement_table approach conseq (Some o) rs = Ok t -> In (("replacement", "Time"), r) (p_rows t) -> rp_median (rs_time rs) = None ->
  exists r', In (((class ++ o)%string, "Time"), r') (p_rows conseq) /\ has_cells r (consequence (VText "day") (at_col r' ("DS5", "Theta_0"))).
Proof.
  intros Ha H Hin Hm. destruct (replacement_rows _ _ _ _ H) as (time & T & _ & HR). destruct (HR _ _ Hin) as (rp' & r0 & Hs' & Hc & E & _).
  cbn in Hs'. injection Hs' as <-. cbn [String.eqb Ascii.eqb Bool.eqb] in E. subst r0.
  unfold replacement_time in T. rewrite Hm in T.
  assert (TF : time_from conseq (class ++ o)%string = Ok time) by (destruct Ha as [(-> & ->)|(-> & ->)]; exact T).
  unfold time_from in TF. destruct (aget pair_eqb ((class ++ o)%string, "Time") (p_rows conseq)) as [r'|] eqn:A; [|discriminate].
  destruct (has_col _ _); [|discriminate]. injection TF as <-. exists r'. split; [now apply (aget_In pair_eqb pair_eqb_eq)|]. apply (cells_same _ Hc). apply default_cells.
Qed.
(** Other approaches. *)
Lemma replacement_time_ratio approach conseq occupancy rs t r :
  ~ In approach ["FEMA P-58"; "Hazus Earthquake - Buildings"; "Hazus Earthquake - Lifeline Facilities"] ->
  replacement_table approach conseq occupancy rs = Ok t -> In (("replacement", "Time"), r) (p_rows t) -> rp_median (rs_time rs) = None ->
  has_cells r (consequence (VText "loss_ratio") (VNum 1)).
Proof.
  intros Ha H Hin Hm. destruct (replacement_rows _ _ _ _ H) as (time & T & _ & HR). destruct (HR _ _ Hin) as (rp' & r0 & Hs' & Hc & E & _).
  cbn in Hs'. injection Hs' as <-. cbn [String.eqb Ascii.eqb Bool.eqb] in E. subst r0. unfold replacement_time in T. rewrite Hm in T.
  rewrite !(proj2 (String.eqb_neq _ _)) in T by (intros ->; apply Ha; cbn; auto). injection T as <-. apply (cells_same _ Hc). apply default_cells.
Qed.

(** ** Loss maps *)

Lemma set_repair_In label model m c v : In (c, v) (set_repair label model m) <-> (c = label /\ v = [model]) \/ (c <> label /\ In (c, v) m).
Proof.
  unfold set_repair. destruct (existsb (fun e => String.eqb (fst e) label) m) eqn:E.
  - rewrite in_map_iff. split.
    + intros ((c0 & v0) & Eq & Hin). cbn in Eq. destruct (String.eqb_spec c0 label) as [->|N]; injection Eq as <- <-; auto.
    + intros [(-> & ->)|(N & Hin)].
      * apply existsb_exists in E as ((c0 & v0) & Hin & Eq). cbn in Eq. exists (c0, v0). split; [|exact Hin]. cbn. rewrite Eq. apply String.eqb_eq in Eq. now subst.
      * exists (c, v). split; [|exact Hin]. cbn. apply String.eqb_neq in N. now rewrite N.
  - assert (A : forall c v, In (c, v) m -> c <> label).
    { intros c0 v0 Hin ->. assert (X : existsb (fun e => String.eqb (fst e) label) m = true) by (apply existsb_exists; exists (label, v0); split; [exact Hin|apply String.eqb_refl]). congruence. }
    rewrite in_app_iff. cbn. split.
    + intros [Hin|[Eq|[]]]; [right; split; [now apply (A _ v)|exact Hin]|left; injection Eq as <- <-; auto].
    + intros [(-> & ->)|(N & Hin)]; auto.
Qed.
Lemma set_repair_keys label model m : NoDup (map fst m) -> NoDup (map fst (set_repair label model m)).
Proof.
  unfold set_repair. intros Hn. destruct (existsb (fun e => String.eqb (fst e) label) m) eqn:E.
  - rewrite map_map. rewrite (map_ext _ fst); [exact Hn|]. intros (c, v). cbn. now destruct (String.eqb c label).
  - rewrite map_app. cbn. apply NoDup_app_intro; [exact Hn|repeat constructor; intros []|]. intros x Hx [<-|[]].
    apply in_map_iff in Hx as ((c, v) & Eq & Hin). cbn in Eq. subst.
    assert (X : existsb (fun e => String.eqb (fst e) label) m = true) by (apply existsb_exists; exists (label, v); split; [exact Hin|apply String.eqb_refl]). congruence.
Qed.
Lemma plain_not_old s : plain_label s -> s <> "DMG-collapse".
Proof. intros [_ H] ->. discriminate. Qed.
Lemma with_replacement_In m c v : Forall plain_label (map fst m) ->
  In (c, v) (with_replacement m) <-> (In c whole_building /\ v = ["replacement"]) \/ (~ In c whole_building /\ In (c, v) m).
Proof.
  intros Hp. unfold with_replacement. destruct (existsb _ m) eqn:E.
  - exfalso. apply existsb_exists in E as (e & Hin & Eq). apply String.eqb_eq in Eq. rewrite Forall_forall in Hp.
    apply (@plain_not_old (fst e)); [apply Hp; now apply in_map|exact Eq].
  - rewrite !set_repair_In. unfold whole_building. cbn. split.
    + intros [(-> & ->)|(N & [(-> & ->)|(N' & Hin)])]; auto. right. split; [intuition congruence|exact Hin].
    + intros [([<-|[<-|[]]] & ->)|(N & Hin)]; [right; split; [discriminate|left; auto]|left; auto|].
      right. split; [intros ->; tauto|]. right. split; [intros ->; tauto|exact Hin].
Qed.
Lemma with_replacement_keys m : NoDup (map fst m) -> NoDup (map fst (with_replacement m)).
Proof. intros H. unfold with_replacement. destruct (existsb _ m); [exact H|]. now apply set_repair_keys, set_repair_keys. Qed.
Lemma with_replacement_plain m : Forall plain_label (map fst m) -> Forall plain_label (map fst (with_replacement m)).
Proof.
  intros Hp. apply Forall_forall. intros c Hc. apply in_map_iff in Hc as ((c' & v) & <- & Hin). cbn [fst]. apply (with_replacement_In _ _ _ Hp) in Hin as [(Hc & _)|(_ & Hin)].
  - destruct Hc as [<-|[<-|[]]]; split; reflexivity.
  - rewrite Forall_forall in Hp. apply Hp. apply in_map_iff. now exists (c', v).
Qed.
Lemma list_max_ones (l : list string) : l <> [] -> Forall (fun s => has_char "-" s = false) l -> list_max (map (@List.length string) (map (split_on "-") l)) = 1%nat.
Proof.
  intros Hn H. destruct l as [|x l]; [contradiction|]. clear Hn. revert x H. induction l as [|y l IH]; intros x H; inversion_clear H as [|? ? Hx Hl]; cbn [map].
  - rewrite (split_on_nochar "-" x Hx). reflexivity.
  - rewrite (split_on_nochar "-" x Hx). specialize (IH y Hl). cbn [map] in IH. cbn [List.length list_max fold_right] in *. unfold list_max in IH. cbn [fold_right] in IH. rewrite IH. reflexivity.
Qed.
Lemma used_plain components m : m <> [] -> Forall plain_label (map fst m) -> used_map components m = Ok m.
Proof.
  intros Hn Hp. unfold used_map. assert (T : to_multi_index (Flat (map fst m)) = Ok (Flat (map fst m))).
  { unfold to_multi_index. destruct (map fst m) as [|x l] eqn:E; [destruct m; [contradiction|discriminate]|]. rewrite <- E in *. cbv zeta.
    rewrite list_max_ones; [reflexivity|rewrite E; discriminate|]. eapply Forall_impl; [|exact Hp]. now intros a [H _]. }
  rewrite T. cbn [bind]. unfold add_loss_map. assert (D : dmg_flag (Flat (map fst m)) = false).
  { cbn [dmg_flag]. apply not_true_iff_false. intros X. apply existsb_exists in X as (s & Hs & C). rewrite Forall_forall in Hp. destruct (Hp s Hs). congruence. }
  rewrite D. cbn [bind]. f_equal. clear. induction m as [|(a, b) m IH]; [reflexivity|]. cbn [map combine fst snd]. now rewrite IH.
Qed.
Lemma with_replacement_ne m : with_replacement m <> [].
Proof.
  unfold with_replacement. destruct (existsb _ m) eqn:E; [destruct m; discriminate|]. intros X.
  assert (Y : In ("irreparable", ["replacement"]) (set_repair "irreparable" "replacement" (set_repair "collapse" "replacement" m))) by (apply set_repair_In; auto).
  rewrite X in Y. destruct Y.
Qed.
Lemma split_dot_class c : exists class, has_char "." class = false /\ (c = class \/ exists more, c = (class ++ "." ++ more)%string) /\ hd "" (split_on "." c) = class.
Proof.
  pose proof (join_split "." c) as Hj. pose proof (split_on_pieces "." c) as Hp. pose proof (split_on_nonempty "." c) as Hn.
  destruct (split_on "." c) as [|a l]; [contradiction|]. exists a. inversion_clear Hp. split; [assumption|]. split; [|reflexivity].
  destruct l as [|b l]; [left; now symmetry|right]. cbn in Hj. exists (join "." (b :: l)). now symmetry.
Qed.
Lemma class_unique a a' c : has_char "." a = false -> has_char "." a' = false -> (c = a \/ exists more, c = (a ++ "." ++ more)%string) ->
  (c = a' \/ exists more, c = (a' ++ "." ++ more)%string) -> a = a'.
Proof.
  intros Ha Ha' H H'. assert (X : forall b, has_char "." b = false -> (c = b \/ exists more, c = (b ++ "." ++ more)%string) -> hd "" (split_on "." c) = b).
  { intros b Hb [->|(more & ->)]; [now rewrite split_on_nochar|]. change (b ++ "." ++ more)%string with (b ++ String "." more)%string. now rewrite split_on_app. }
  rewrite <- (X a Ha H). now apply X.
Qed.
Lemma belongs_spec approach occupancy c model :
  belongs approach occupancy c model <->
  model = (if starts_with "Hazus Earthquake" approach
           then match occupancy with Some o => (hd "" (split_on "." c) ++ "." ++ o)%string | None => hd "" (split_on "." c) end else c).
Proof.
  destruct (split_dot_class c) as (class & H1 & H2 & H3). rewrite H3. split.
  - intros [Hs|s class' -> Hc1 Hc2].
    + destruct (starts_with "Hazus Earthquake" approach) eqn:E; [|reflexivity]. apply starts_with_spec in E as (x & ->). now destruct (Hs x).
    + rewrite (proj2 (starts_with_spec _ _)) by (now exists s). rewrite (class_unique Hc1 H1 Hc2 H2). reflexivity.
  - intros ->. destruct (starts_with "Hazus Earthquake" approach) eqn:E.
    + apply starts_with_spec in E as (x & ->). now apply (@class_and_occupancy _ _ _ x class).
    + apply same_name. intros s ->. rewrite (proj2 (starts_with_spec _ _)) in E by (now exists s). discriminate.
Qed.
Lemma map_auto_In approach occupancy models components c v : In (c, v) (map_auto approach occupancy models components) <->
  In c components /\ c <> "collapse" /\ exists model, belongs approach occupancy c model /\ In model models /\ v = [model].
Proof.
  unfold map_auto. cbv zeta. rewrite in_flat_map. split.
  - intros (c0 & Hc & Hin). destruct (String.eqb_spec c0 "collapse") as [->|N]; [destruct Hin|].
    match type of Hin with In _ (if mem ?m _ then _ else _) => destruct (mem m models) eqn:M; [|destruct Hin]; apply mem_true in M; destruct Hin as [E|[]] end.
    injection E as <- <-. split; [exact Hc|]. split; [exact N|]. eexists. split; [now apply belongs_spec|]. split; [exact M|reflexivity].
  - intros (Hc & N & model & Hb & Hm & ->). exists c. split; [exact Hc|]. apply String.eqb_neq in N. rewrite N. apply belongs_spec in Hb. rewrite <- Hb.
    apply mem_true in Hm. rewrite Hm. now left.
Qed.
Lemma map_auto_keys approach occupancy models components : NoDup components -> NoDup (map fst (map_auto approach occupancy models components)).
Proof.
  intros H. unfold map_auto. cbv zeta. induction H as [|c l Hc H IH]; [constructor|]. cbn [flat_map]. rewrite map_app.
  apply NoDup_app_intro; [|exact IH|].
  - destruct (String.eqb c "collapse"); [constructor|]. destruct (mem _ models); [|constructor]. repeat constructor. intros [].
  - intros x Hx Hx'. assert (x = c). { destruct (String.eqb c "collapse"); [destruct Hx|]. destruct (mem _ models); [|destruct Hx]. destruct Hx as [<-|[]]. reflexivity. }
    subst. apply in_map_iff in Hx' as ((c' & v) & E & Hin). cbn in E. subst. change (In (c, v) (map_auto approach occupancy models l)) in Hin. apply map_auto_In in Hin. tauto.
Qed.
Lemma automatic_map approach occupancy models components folder path read : Forall plain_label components -> NoDup components ->
  exists m, prepare_map "Automatic" approach occupancy models components folder path read = Ok m /\ used_map components m = Ok m /\ NoDup (map fst m) /\
    forall c v, In (c, v) m <-> (In c whole_building /\ v = ["replacement"]) \/
      (~ In c whole_building /\ In c components /\ exists model, belongs approach occupancy c model /\ In model models /\ v = [model]).
Proof.
  intros Hp Hn. eexists. split; [reflexivity|].
  assert (P : Forall plain_label (map fst (map_auto approach occupancy models components))).
  { apply Forall_forall. intros c Hc. apply in_map_iff in Hc as ((c' & v) & <- & Hin). apply map_auto_In in Hin as (Hc & _). rewrite Forall_forall in Hp. now apply Hp. }
  split; [apply used_plain; [apply with_replacement_ne|now apply with_replacement_plain]|]. split; [now apply with_replacement_keys, map_auto_keys|].
  intros c v. rewrite (with_replacement_In _ _ _ P), map_auto_In. split.
  - intros [H|(H1 & H2 & _ & H3)]; [left|right]; auto.
  - intros [H|(H1 & H2 & H3)]; [left|right]; auto. split; [exact H1|]. split; [exact H2|]. split; [|exact H3]. intros ->. apply H1. cbn. auto.
Qed.
Lemma users_map components approach occupancy models d p read m0 : read (str_replace "CustomDLDataFolder" d p) = Ok m0 -> Forall plain_label (map fst m0) ->
  exists m, prepare_map "User Defined" approach occupancy models components (Some d) (Some p) read = Ok m /\ used_map components m = Ok m /\
    forall c v, In (c, v) m <-> (In c whole_building /\ v = ["replacement"]) \/ (~ In c whole_building /\ In (c, v) m0).
Proof.
  intros Hr Hp. eexists. split; [unfold prepare_map; cbn [String.eqb Ascii.eqb Bool.eqb]; rewrite Hr; reflexivity|].
  split; [apply used_plain; [apply with_replacement_ne|now apply with_replacement_plain]|]. intros c v. now apply with_replacement_In.
Qed.
Lemma old_map components m : In "collapse" (map fst m) -> Forall plain_label (map fst m) -> with_replacement (old_format m) = old_format m /\ used_map components (old_format m) = Ok m.
Proof.
  intros Hc Hp. split.
  - unfold with_replacement. destruct (existsb _ (old_format m)) eqn:E; [reflexivity|]. exfalso. apply in_map_iff in Hc as (e & Ee & Hin).
    assert (X : existsb (fun e => String.eqb (fst e) "DMG-collapse") (old_format m) = true).
    { apply existsb_exists. exists (("DMG-" ++ fst e)%string, snd e). split; [apply in_map_iff; now exists e|]. cbn [fst]. rewrite Ee. reflexivity. }
    congruence.
  - assert (F : map fst (old_format m) = map (fun e => ("DMG-" ++ e)%string) (map fst m)) by (unfold old_format; rewrite !map_map; reflexivity).
    assert (V : map snd (old_format m) = map snd m) by (unfold old_format; rewrite map_map; reflexivity).
    unfold used_map. rewrite F, V. assert (S : map (split_on "-") (map (fun e => ("DMG-" ++ e)%string) (map fst m)) = map (fun c => ["DMG"; c]) (map fst m)).
    { rewrite map_map. apply map_ext_in. intros c Hcc. rewrite Forall_forall in Hp. destruct (Hp c Hcc) as [H _].
      change ("DMG-" ++ c)%string with ("DMG" ++ String "-" c)%string. rewrite split_on_app by reflexivity. now rewrite split_on_nochar. }
    assert (L : map fst m <> []) by (intros E; rewrite E in Hc; destruct Hc).
    assert (W : list_max (map (@List.length string) (map (fun c => ["DMG"; c]) (map fst m))) = 2%nat).
    { revert L. generalize (map fst m). intros l. destruct l as [|x l]; [contradiction|]. intros _. revert x. induction l as [|y l IH]; intros x; [reflexivity|].
      specialize (IH y). cbn [map list_max fold_right List.length] in *. unfold list_max in IH. cbn [fold_right] in IH. rewrite IH. reflexivity. }
    assert (T : to_multi_index (Flat (map (fun e => ("DMG-" ++ e)%string) (map fst m))) = Ok (Multi 2 (map (fun c => ["DMG"; c]) (map fst m)))).
    { unfold to_multi_index. destruct (map (fun e => ("DMG-" ++ e)%string) (map fst m)) as [|x l] eqn:E; [destruct (map fst m); [contradiction|discriminate]|].
      rewrite S, W. cbn [Nat.ltb Nat.leb]. f_equal. f_equal. rewrite map_map. apply map_ext. intros c. reflexivity. }
    rewrite T. cbn [bind]. unfold add_loss_map. assert (D : dmg_flag (Multi 2 (map (fun c => ["DMG"; c]) (map fst m))) = true).
    { cbn [dmg_flag]. destruct (map fst m) as [|x l]; [contradiction|]. reflexivity. }
    rewrite D. assert (SE : second (Multi 2 (map (fun c => ["DMG"; c]) (map fst m))) = Ok (map fst m)).
    { cbn [second]. generalize (map fst m). intros l. induction l as [|x l IH]; [reflexivity|]. cbn [map mapM bind]. rewrite IH. reflexivity. }
    rewrite SE. cbn [bind]. f_equal. clear. induction m as [|(a, b) m IH]; [reflexivity|]. cbn [map combine fst snd]. now rewrite IH.
Qed.
Lemma set_component_others name loc dir rows : In name reserved ->
  filter (fun r => negb (mem (a_cmp r) reserved)) (set_component name loc dir rows) = filter (fun r => negb (mem (a_cmp r) reserved)) rows.
Proof.
  intros Hn. apply mem_true in Hn. unfold set_component. destruct (existsb _ rows).
  - induction rows as [|r rows IH]; [reflexivity|]. cbn [map filter]. rewrite IH. destruct (String.eqb_spec (a_cmp r) name) as [E|E]; [|reflexivity].
    cbn [a_cmp]. rewrite E, Hn. reflexivity.
  - rewrite filter_app. cbn [filter a_cmp]. rewrite Hn. cbn [negb]. apply app_nil_r.
Qed.
Lemma users_rows ct irr demands rows :
  filter (fun r => negb (mem (a_cmp r) reserved)) (add_support ct irr demands rows) = filter (fun r => negb (mem (a_cmp r) reserved)) rows.
Proof.
  assert (R : In "excessive.coll.DEM" reserved /\ In "collapse" reserved /\ In "excessiveRID" reserved /\ In "irreparable" reserved) by (cbn; auto 10).
  destruct R as (R1 & R2 & R3 & R4). unfold add_support. cbv zeta. destruct (irr && _).
  - rewrite !set_component_others by assumption. destruct ct as [ty|]; [|reflexivity]. destruct (_ && _); [now apply set_component_others|reflexivity].
  - rewrite set_component_others by assumption. destruct ct as [ty|]; [|reflexivity]. destruct (_ && _); [now apply set_component_others|reflexivity].
Qed.
Lemma add_cols_NoDup new : forall cols, NoDup cols -> NoDup (fold_left (fun cs c => if existsb (pair_eqb c) cs then cs else cs ++ [c]) new cols).
Proof.
  induction new as [|x new IH]; intros cols H; [exact H|]. cbn [fold_left]. apply IH. destruct (existsb (pair_eqb x) cols) eqn:E; [exact H|].
  apply existsb_pair_false in E. apply NoDup_app_intro; [exact H|repeat constructor; intros []|]. intros y Hy [<-|[]]. contradiction.
Qed.
Lemma extra_proper columns rows : NoDup columns -> proper (extra_table columns rows).
Proof.
  intros H. split; [now apply add_cols_NoDup|]. intros k r Hin. unfold extra_table in *. cbn [p_rows p_cols] in *. apply in_map_iff in Hin as (e & E & _). injection E as _ <-. apply restrict_cols.
Qed.
Lemma unit_list u (raw : list (list string * list num)) : Forall2 (fun e unit => demand_unit_is u (d_type (fst e)) unit) raw (map (fun e => inferred_unit u (d_type (fst e))) raw).
Proof. induction raw; constructor; [now apply inferred_unit_spec|assumption]. Qed.
Lemma config_used_up est cfg t t' cfg' est' t2 : cfg <> [] -> infer_drifts est (Some cfg) t = Ok (t', cfg') -> infer_drifts est' cfg' t2 = Err KeyError.
Proof.
  intros Hn H. destruct cfg as [|kv cfg0]; [contradiction|]. set (cfg := kv :: cfg0) in *.
  unfold infer_drifts in H. change (match cfg with [] => _ | _ :: _ => ?x end) with x in H. cbv beta iota in H.
  unfold cfg in H at 1. cbv beta iota in H. fold cfg in H. clearbody cfg.
  destruct (dget "method" cfg) as [m|]; [|discriminate]. destruct (match m with JStr s => _ | _ => false end); [|discriminate].
  destruct (filter _ t); [discriminate|]. destruct (mapM _ (ddel "method" cfg)) as [rid|]; [|discriminate]. cbn [bind] in H.
  pose proof (dget_ddel_eq "method" cfg) as D. destruct (ddel "method" cfg) as [|kv' rest]; [discriminate|]. injection H as _ <-. unfold infer_drifts. rewrite D. reflexivity.
Qed.
Lemma abbreviation_listed short : In short (map fst demand_abbreviations) -> In short (map snd EDP_to_demand_type).
Proof.
  intros H. apply in_map_iff in H as ([d names] & <- & H). cbn [fst].
  assert (C : forallb (fun a : string * list string => match snd a with [] => false | _ => true end) demand_abbreviations = true) by reflexivity.
  rewrite forallb_forall in C. specialize (C _ H). destruct names as [|x names]; [discriminate C|].
  apply in_map_iff. exists (x, d). split; [reflexivity|]. apply edp_stands. exists (x :: names). split; [exact H|now left].
Qed.
Lemma known_types u ms cf irr water : is_ok (extra_fragilities (Some u) (Some ms) cf irr water) = true <->
  forall c, cf = Some c -> exists short, In short (map fst demand_abbreviations) /\
    (cf_type c = short \/ exists more, has_char "_" more = false /\ cf_type c = (short ++ "_" ++ more)%string).
Proof.
  unfold extra_fragilities. destruct cf as [c|].
  2:{ cbn [bind]. split; [intros _ c E; discriminate|reflexivity]. }
  assert (NU : forall short, In short (map fst demand_abbreviations) -> has_char "_" short = false).
  { intros short H. cbn in H. repeat (destruct H as [<-|H]; [reflexivity|]). destruct H. }
  assert (K : is_ok (collapse_row (Some u) c) = true <-> exists short, In short (map fst demand_abbreviations) /\
    (cf_type c = short \/ exists more, has_char "_" more = false /\ cf_type c = (short ++ "_" ++ more)%string)).
  { unfold collapse_row. split.
    - pose proof (join_split "_" (cf_type c)) as Hj. pose proof (split_on_pieces "_" (cf_type c)) as Hp.
      destruct (split_on "_" (cf_type c)) as [|a [|b [|]]]; try discriminate; cbn [bind fst snd].
      + destruct (demand_name a) as [n|] eqn:N; [|discriminate]. intros _. exists a. split; [|left; now symmetry].
        apply demand_name_spec in N as (names & N & _). apply in_map_iff. exists (a, names). split; [reflexivity|exact N].
      + destruct (demand_name a) as [n|] eqn:N; [|discriminate]. intros _. exists a. split.
        * apply demand_name_spec in N as (names & N & _). apply in_map_iff. exists (a, names). split; [reflexivity|exact N].
        * right. exists b. inversion_clear Hp as [|? ? _ Hp']. inversion_clear Hp' as [|? ? Pb _]. split; [exact Pb|]. now symmetry.
    - intros (short & Hs & H). pose proof (NU _ Hs) as Hu. destruct (demand_name short) as [n|] eqn:N; [|apply demand_name_none in N; exfalso; apply N, abbreviation_listed, Hs].
      destruct H as [->|(more & Hm & ->)].
      + rewrite split_on_nochar by exact Hu. cbn [bind fst snd]. rewrite N. reflexivity.
      + change (short ++ "_" ++ more)%string with (short ++ String "_" more)%string. rewrite split_on_app by exact Hu. rewrite split_on_nochar by exact Hm.
        cbn [bind fst snd]. rewrite N. reflexivity. }
  split.
  - intros H c' E. injection E as <-. apply K. destruct (collapse_row (Some u) c); [reflexivity|discriminate].
  - intros H. specialize (H c eq_refl). apply K in H. destruct (collapse_row (Some u) c); [|discriminate]. reflexivity.
Qed.
Lemma wind_first approach occupancy models wind flood rest folder path read m mw mf : Forall plain_label (wind :: flood :: rest) ->
  ~ In wind whole_building -> ~ In flood whole_building -> belongs approach occupancy wind mw -> belongs approach occupancy flood mf -> In mw models -> In mf models ->
  prepare_map "Automatic" approach occupancy models (wind :: flood :: rest) folder path read = Ok m ->
  combined_components (Some "Hazus Hurricane") m = Ok (Some (wind, flood)).
Proof.
  intros Hp Nw Nf Bw Bf Iw If H. change (Ok (with_replacement (map_auto approach occupancy models (wind :: flood :: rest))) = Ok m) in H.
  assert (Hm : m = with_replacement (map_auto approach occupancy models (wind :: flood :: rest))) by congruence. clear H. subst m.
  assert (E : exists l, map_auto approach occupancy models (wind :: flood :: rest) = (wind, [mw]) :: (flood, [mf]) :: l).
  { apply belongs_spec in Bw. apply belongs_spec in Bf. apply mem_true in Iw. apply mem_true in If. unfold map_auto. cbv zeta. cbn [flat_map]. rewrite <- Bw, <- Bf, Iw, If.
    rewrite !(proj2 (String.eqb_neq _ _)) by (intros ->; cbn in *; tauto). cbn [app]. now eexists. }
  destruct E as (l & E). rewrite E.
  assert (S : forall label model a b l0, exists l', set_repair label model ((wind, a) :: (flood, b) :: l0) = (wind, fst l') :: (flood, fst (snd l')) :: snd (snd l')).
  { intros label model a b l0. unfold set_repair. destruct (existsb _ _).
    - cbn [map fst]. destruct (String.eqb wind label), (String.eqb flood label); (eexists (_, (_, _)); cbn [fst snd]; reflexivity).
    - cbn [app]. eexists (_, (_, _)). cbn [fst snd]. reflexivity. }
  unfold with_replacement. destruct (existsb _ _); [reflexivity|].
  destruct (S "collapse" "replacement" [mw] [mf] l) as (l1 & ->). destruct (S "irreparable" "replacement" (fst l1) (fst (snd l1)) (snd (snd l1))) as (l2 & ->). reflexivity.
Qed.
