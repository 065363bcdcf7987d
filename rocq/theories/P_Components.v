(** Proofs about assets that have a component in common (C120). *)
From Coq Require Import Sorting.Permutation.
From Verif Require Import Prelude PreludeFacts Pandas PandasFacts M_Base M_FileIO M_Damage M_Batch M_Demand P_Req M_Obtain S_Damage S_Demand S_Realizations
  S_Components M_Agg S_Agg M_LossDS S_LossDS M_LossLF S_LossLF P_Agg P_Interp P_Obtain P_LossDS P_LossLF.
Local Open Scope string_scope.
Local Open Scope list_scope.

Lemma same_columns_sym {K V} (P : K -> Prop) (f f' : list (K * V)) : same_columns P f f' -> same_columns P f' f.
Proof. intros H k col Hk. symmetry. now apply H. Qed.
Lemma same_columns_sub {K V} (P Q : K -> Prop) (f f' : list (K * V)) : (forall k, Q k -> P k) -> same_columns P f f' -> same_columns Q f f'.
Proof. intros HQ H k col Hk. apply H. now apply HQ. Qed.
Lemma same_columns_key {K V} (P : K -> Prop) (f f' : list (K * V)) k : same_columns P f f' -> P k -> In k (map fst f) -> In k (map fst f').
Proof. intros H Hk Hin. apply in_map_iff in Hin as ([k' c] & E & Hin). cbn in E. subst k'. apply in_map_iff. exists (k, c). split; [reflexivity|]. now apply H. Qed.

Lemma NoDup_fst {K V} (l : list (K * V)) : NoDup (map fst l) -> NoDup l.
Proof. apply NoDup_map_inv. Qed.
Lemma same_columns_perm {K V} (P : K -> Prop) (f : K -> bool) (l l' : list (K * V)) : same_columns P l l' -> (forall k, f k = true -> P k) ->
  NoDup (map fst l) -> NoDup (map fst l') -> Permutation (filter (fun c => f (fst c)) l) (filter (fun c => f (fst c)) l').
Proof.
  intros H Hf N N'. apply NoDup_Permutation; try (apply NoDup_filter, NoDup_fst; assumption).
  intros [k c]. rewrite !filter_In. cbn. split; intros [Hin Hk]; (split; [|exact Hk]); apply (H k c (Hf k Hk)); exact Hin.
Qed.

(** ** Losses from damage states *)

Lemma pooled_same e k dmg dmg' i : same_columns (fun k' : qkey => cmp (fst k') = cmp (fst k)) dmg dmg' -> NoDup (map fst dmg) -> NoDup (map fst dmg') ->
  pooled (pool_of e k) dmg i = pooled (pool_of e k) dmg' i.
Proof.
  intros H N N'. unfold pooled. apply qsum_perm, Permutation_map. eapply same_columns_perm; try eassumption.
  intros k' Hk. unfold pool_of in Hk. destruct (across_states e).
  - unfold same_component in Hk. apply String.eqb_eq in Hk. now symmetry.
  - unfold same_component_state in Hk. apply andb_true_iff in Hk as [Hk _]. apply String.eqb_eq in Hk. now symmetry.
Qed.

Lemma unit_loss_fun p a z u u' : (forall ys xs, p_theta0 p = Some (Curve ys xs) -> well_formed_table ys xs) -> unit_loss p a z u -> unit_loss p a z u' -> u = u'.
Proof.
  intros Hw H H'. destruct H as [t E F|t f E F|ys xs m E F C|ys xs m f E F C]; destruct H' as [t' E' F'|t' f' E' F'|ys' xs' m' E' F' C'|ys' xs' m' f' E' F' C'];
    try congruence; assert (ys' = ys) as -> by congruence; assert (xs' = xs) as -> by congruence; pose proof (on_curve_fun ys xs a m m' (Hw _ _ E) C C') as ->; reflexivity.
Qed.

Lemma calculated_same s dmg dmg' dv c k p : same_columns (fun k' : qkey => cmp (fst k') = cmp (fst k)) dmg dmg' -> calculated s dmg dv c k p -> calculated s dmg' dv c k p.
Proof. intros H (H1 & H2). split; [|exact H2]. now apply (same_columns_key _ _ _ _ H). Qed.

Lemma states_same n e s dmg dmg' t t' c : across_floors e = true -> unique_labels s dmg -> unique_labels s dmg' -> tables_ok s ->
  same_columns (fun k : qkey => cmp (fst k) = c) dmg dmg' ->
  calculate_ds n e s dmg = Ok (Some t) -> calculate_ds n e s dmg' = Ok (Some t') ->
  forall label vs, k_dmg (fst label) = c -> In (label, vs) t -> In (label, vs) t'.
Proof.
  intros He U U' Ht S H H' label vs Hc Hin.
  destruct (losses_labels n e s dmg t He U H) as [L N]. destruct (losses_labels n e s dmg' t' He U' H') as [L' N'].
  pose proof (proj1 (L label) (in_map fst _ _ Hin)) as (dv & cq & k & p & -> & Hcalc). cbn in Hc.
  assert (S' : same_columns (fun k' : qkey => cmp (fst k') = cmp (fst k)) dmg dmg') by (rewrite Hc; exact S).
  pose proof (calculated_same s dmg dmg' dv cq k p S' Hcalc) as Hcalc'.
  pose proof (proj2 (L' _) (ex_intro _ dv (ex_intro _ cq (ex_intro _ k (ex_intro _ p (conj eq_refl Hcalc')))))) as Hin'.
  apply in_map_iff in Hin' as ([l' vs'] & El & Hin'). cbn in El. subst l'.
  assert (E : vs = vs'); [|now rewrite E].
  pose proof Hcalc as (Hk & _ & _ & _ & _ & Hp & _). apply in_map_iff in Hk as ([k' q] & Ek & Hq). cbn in Ek. subst k'.
  destruct (losses_values n e s dmg t dv cq k p q vs He U Ht H Hcalc Hq Hin) as [Len V].
  assert (Hq' : In (k, q) dmg') by (apply S'; [reflexivity|exact Hq]).
  destruct (losses_values n e s dmg' t' dv cq k p q vs' He U' Ht H' Hcalc' Hq' Hin') as [Len' V'].
  apply (nth_ext _ _ None None); [exact (eq_trans Len (eq_sym Len'))|]. intros i Hi. assert (Hin0 : (i < n)%nat) by (unfold num in *; lia). specialize (V i Hin0). specialize (V' i Hin0).
  unfold loss_of in V, V'. rewrite <- (pooled_same e k dmg dmg' i S' (proj1 U) (proj1 U')) in V'. destruct (nth i q None) as [x|]; [|etransitivity; [exact V|symmetry; exact V']].
  destruct V as (u & Hu & Ev), V' as (u' & Hu' & Ev').
  assert (u = u') as <- by (apply (unit_loss_fun p _ _ u u' (fun ys xs Hxy => Ht cq dv (snd k) p ys xs Hp Hxy) Hu Hu')).
  etransitivity; [exact Ev|symmetry; exact Ev'].
Qed.

(** ** Losses from loss functions *)

(** The column of a group as a function of what concerns the group alone. *)
Definition lf_of (e : lf_env) (s : lf_setup) (sample : frame) rows (p : pg) (dv : string) (b : Z) (q : list num) (vs : list num) : Prop :=
  exists key values r text points med, lf_key e rows (p, dv) = Ok key /\ assemble_one (eval e) (multipliers e) sample key = Ok values /\
    lf_row_of rows (cmp p) dv = Some r /\ lf_function r = Some text /\ stringterpolation (pyfloat e) text = Ok points /\ mapM (interp1d points) values = Ok med /\
    vs = map Some (total_columns (n_rows sample) (map (fun c => snd (deviated s rows c)) (expand (LK dv (cmp p) (cmp p) (loc p) (dir p) (uid p), p, med, q) b))).
Lemma lf_of_fun e s sample rows p dv b q vs vs' : lf_of e s sample rows p dv b q vs -> lf_of e s sample rows p dv b q vs' -> vs = vs'.
Proof.
  intros (k & v & r & t & ps & m & H1 & H2 & H3 & H4 & H5 & H6 & ->) (k' & v' & r' & t' & ps' & m' & H1' & H2' & H3' & H4' & H5' & H6' & ->).
  assert (k' = k) as -> by congruence. assert (v' = v) as -> by congruence. assert (r' = r) as -> by congruence. assert (t' = t) as -> by congruence.
  assert (ps' = ps) as -> by congruence. assert (m' = m) as -> by congruence. reflexivity.
Qed.

Lemma lf_value e s sample quantities blocks t rows p b dv r vs : f_rows s = Some rows -> unique_inputs s rows quantities blocks -> own_functions s rows blocks ->
  calculate_lf e s sample quantities blocks = Ok (Some t) -> has_loss s rows blocks p b dv r -> In (lf_label dv (cmp p) p, vs) t ->
  exists q, In (p, q) quantities /\ lf_of e s sample rows p dv b q vs.
Proof.
  intros Er (Hndv & Hnmap & Hnrows & Hnq & Hnb) Ho H Hl Hin. destruct (calculate_inv e s sample quantities blocks t rows Er H) as (demands & segs & Hd & HF & Hcol & ->).
  pose proof (segs_tagged e s sample rows blocks demands quantities segs Ho Hd HF) as Htag.
  pose proof (lf_groups_NoDup s rows blocks Hnb Hndv) as Hng.
  assert (Hg : In ((p, dv), b) (lf_groups s rows blocks)).
  { destruct Hl as (H1 & H2 & H3 & H4 & H5 & H6). apply In_lf_groups. repeat split; try assumption. apply lf_driven_iff.
    exists (cmp p), dv, r. split; [now apply In_dget|assumption]. }
  pose proof Hl as (_ & Hb & _ & _ & Hr & _).
  destruct (Forall2_combine _ _ _ _ HF Hg) as (seg & Hs & Hm). rewrite group_medians_core in Hm by assumption. binv Hm x. injection Hm as <-.
  destruct (core_inv e s rows demands quantities p dv x E) as (c' & values & r' & text & points & med & q & Hc' & Hval & Hr' & Htx & Hpo & Hmed & Hq' & Hlen & ->).
  destruct (own_group e s sample rows blocks demands p dv b Ho Hd Hg) as [Hmap _]. assert (c' = cmp p) as -> by congruence.
  assert (Hpp : PG (cmp p) (loc p) (dir p) (uid p) = p) by now destruct p. rewrite Hpp in Hval.
  apply (aget_In group_eqb group_eqb_eq) in Hval. destruct (lf_demands_In e sample rows _ demands _ _ Hd Hval) as (_ & key & Hkey & Hone).
  exists q. split; [now apply (aget_In pg_eqb pg_eqb_eq) in Hq'|]. exists key, values, r', text, points, med. repeat (split; [assumption|]).
  set (k := LK dv (cmp p) (cmp p) (loc p) (dir p) (uid p)) in *.
  apply in_map_iff in Hin as ([k' g] & E' & Hin). cbn [fst snd] in E'. unfold lf_label in E'. injection E' as -> <-.
  apply (groupby_In lkey_eqb lkey_le lkey_eqb_eq) in Hin as [_ ->]. fold k. rewrite group_rows_map.
  pose proof (seg_of segs (lf_groups s rows blocks) gtag (p, dv, b) (expand (k, p, med, q) b)
    Htag (NoDup_map_inv _ _ Hng) (fun a b => gtag_inj s rows blocks a b Hng) Hs) as Hfil.
  match goal with |- context [filter ?f (List.concat segs)] =>
    replace (filter f (List.concat segs)) with (expand (k, p, med, q) b) by (symmetry; exact Hfil) end.
  reflexivity.
Qed.

Lemma functions_same e s sample quantities quantities' blocks blocks' t t' rows c : f_rows s = Some rows ->
  unique_inputs s rows quantities blocks -> unique_inputs s rows quantities' blocks' -> own_functions s rows blocks -> own_functions s rows blocks' ->
  same_columns (fun p => cmp p = c) quantities quantities' -> same_columns (fun p => cmp p = c) blocks blocks' ->
  calculate_lf e s sample quantities blocks = Ok (Some t) -> calculate_lf e s sample quantities' blocks' = Ok (Some t') ->
  forall label vs, k_dmg (fst label) = c -> In (label, vs) t -> In (label, vs) t'.
Proof.
  intros Er U U' O O' Sq Sb H H' label vs Hc Hin.
  destruct (lf_losses e s sample quantities blocks t rows Er U O H) as (L & N & _). destruct (lf_losses e s sample quantities' blocks' t' rows Er U' O' H') as (L' & N' & _).
  pose proof (proj1 (L label) (in_map fst _ _ Hin)) as (p & b & dv & r & -> & Hl). cbn in Hc.
  assert (Hl' : has_loss s rows blocks' p b dv r) by (destruct Hl as (H1 & H2); split; [now apply Sb|exact H2]).
  pose proof (proj2 (L' _) (ex_intro _ p (ex_intro _ b (ex_intro _ dv (ex_intro _ r (conj eq_refl Hl')))))) as Hin'.
  apply in_map_iff in Hin' as ([l' vs'] & El & Hin'). cbn in El. subst l'.
  destruct (lf_value e s sample quantities blocks t rows p b dv r vs Er U O H Hl Hin) as (q & Hq & V).
  destruct (lf_value e s sample quantities' blocks' t' rows p b dv r vs' Er U' O' H' Hl' Hin') as (q' & Hq' & V').
  apply Sq in Hq; [|exact Hc].
  assert (q' = q) as ->.
  { destruct U' as (_ & _ & _ & Nq & _). apply (In_aget pg_eqb pg_eqb_eq) in Hq; [|assumption]. apply (In_aget pg_eqb pg_eqb_eq) in Hq'; [|assumption]. congruence. }
  now rewrite (lf_of_fun _ _ _ _ _ _ _ _ _ _ V V').
Qed.

(** ** Damage states *)

Lemma cell_same {K V} (P : K -> Prop) (f f' : list (K * list V)) k i v : same_columns P f f' -> P k -> cell_at f k i v -> cell_at f' k i v.
Proof. intros S Hk (col & Hin & Hi). exists col. split; [now apply S|exact Hi]. Qed.
Lemma exceeded_same c cap cap' d b ls i : same_columns (fun k : lsc => cmp (b_of (fst k)) = c) cap cap' -> cmp (b_of b) = c -> exceeded cap d b ls i -> exceeded cap' d b ls i.
Proof. intros S Hb (x & q & Hc & Hq). exists x, q. split; [|exact Hq]. now apply (cell_same _ _ _ _ _ _ S). Qed.

Lemma damage_same nterms eval params offsets multipliers sample cap cap' lsds lsds' missing missing' available available' cb cb' size size' ds ds' c :
  let n := n_rows sample in
  well_formed n cap -> well_formed n lsds -> (forall k, In k (map fst cap) -> In k (map fst lsds)) -> gapless cap ->
  well_formed n cap' -> well_formed n lsds' -> (forall k, In k (map fst cap') -> In k (map fst lsds')) -> gapless cap' ->
  demand_table sample ->
  (forall c vars v, Forall (fun x => List.length (snd x) = n) vars -> eval c vars = Ok v -> List.length v = n) ->
  NoDup (map fst cb) -> Forall (fun r => (0 < snd r)%Z) cb -> NoDup (map fst cb') -> Forall (fun r => (0 < snd r)%Z) cb' ->
  same_columns (fun k : lsc => cmp (b_of (fst k)) = c) cap cap' -> same_columns (fun k : lsc => cmp (b_of (fst k)) = c) lsds lsds' ->
  same_columns (fun p => cmp p = c) cb cb' -> (In c missing <-> In c missing') -> (In c available <-> In c available') ->
  obtain_ds_sample nterms eval params offsets multipliers sample cap lsds missing available size cb = Ok ds ->
  obtain_ds_sample nterms eval params offsets multipliers sample cap' lsds' missing' available' size' cb' = Ok ds' ->
  forall b i s, cmp (b_of b) = c -> cell_at ds b i s -> cell_at ds' b i s.
Proof.
  intros n W1 W2 W3 G W1' W2' W3' G' T Ev N1 N2 N1' N2' Sc Sl Sb Sm Sa H H' b i s Hb Hcell.
  apply (obtain_cells nterms eval params offsets multipliers sample cap lsds W1 W2 W3 G T Ev missing available cb N1 N2 size ds b i s H) in Hcell as ((ls & Hls) & (A & M & k & Hk) & Hi & Hst).
  apply (obtain_cells nterms eval params offsets multipliers sample cap' lsds' W1' W2' W3' G' T Ev missing' available' cb' N1' N2' size' ds' b i s H').
  rewrite Hb in A, M. split; [|split; [|split; [exact Hi|]]].
  - exists ls. unfold has_ls in *. now apply (same_columns_key _ _ _ _ Sc).
  - rewrite Hb. split; [now apply Sa|]. split; [intros X; apply M; now apply Sm|]. exists k. now apply Sb.
  - destruct Hst as (ky & v & d & K & V & D & X). exists ky, v, d. split; [exact K|]. split; [exact V|]. split; [exact D|].
    destruct X as [[No E]|(m & [Hx Hmax] & Hc)].
    + left. split; [|exact E]. intros l Hx. apply (No l). now apply (exceeded_same c cap' cap d b l i (same_columns_sym _ _ _ Sc)).
    + right. exists m. split; [split|].
      * now apply (exceeded_same c cap cap').
      * intros l Hx'. apply Hmax. now apply (exceeded_same c cap' cap d b l i (same_columns_sym _ _ _ Sc)).
      * now apply (cell_same _ _ _ _ _ _ Sl).
Qed.

(** ** Quantities *)

Lemma blocks_with_columns p (ds ds' : ds_frame) i sel : same_columns (fun b : blk => b_of b = p) ds ds' -> NoDup (map fst ds) -> NoDup (map fst ds') ->
  blocks_with ds p i sel = blocks_with ds' p i sel.
Proof.
  intros S N N'. unfold blocks_with. apply Permutation_length. apply NoDup_Permutation; try (apply NoDup_filter, NoDup_fst; assumption).
  intros [b col]. rewrite !filter_In. cbn. split; intros [Hin Hk]; (split; [|exact Hk]); apply andb_true_iff in Hk as [Hk _]; apply pg_eqb_eq in Hk; apply (S b col Hk); exact Hin.
Qed.
