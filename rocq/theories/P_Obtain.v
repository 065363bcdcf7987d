(** Proofs about the damage state calculation over batches. *)
From Coq Require Import Sorting.Permutation.
From Verif Require Import Prelude PreludeFacts Pandas PandasFacts M_Base S_Base P_Base
  M_FileIO M_Damage M_Demand M_Batch M_Obtain S_FileIO S_Demand S_Damage S_Batch
  P_Batch P_Eval P_Proc P_Qty P_Frag P_Sample P_Req.
Local Open Scope string_scope.
Local Open Scope list_scope.

Lemma verify_list (sample : frame) ks :
  verify_edps_available sample ks = Ok tt <-> Forall (fun k => verify_edps_available sample [k] = Ok tt) ks.
Proof.
  unfold verify_edps_available. set (f := fun (_ : unit) k => foldM _ tt (fst k)).
  assert (H : forall ks u, foldM f u ks = Ok tt <-> u = tt /\ Forall (fun k => f tt k = Ok tt) ks).
  { clear ks. induction ks as [|k ks IH]; intros []; cbn [foldM]; [split; auto|].
    destruct (f tt k) as [[]|] eqn:E; cbn [bind].
    - rewrite IH. split; [intros [_ H]; split; auto|intros [_ H]; inversion H; auto].
    - split; [easy|]. intros [_ H]. inversion H; congruence. }
  fold f. split; [intros H0; apply (proj1 (H ks tt)) in H0; apply Forall_forall; revert H0|intros H0; apply (proj2 (H ks tt)); revert H0; rewrite Forall_forall].
  - intros [_ HF]. rewrite Forall_forall in HF. intros k Hk. cbn [foldM]. now rewrite (HF k Hk).
  - intros HF. split; [easy|]. apply Forall_forall. intros k Hk. specialize (HF k Hk). cbn [foldM] in HF.
    destruct (f tt k) as [[]|]; easy.
Qed.

Section Obtain.
Context (nterms : string -> result nat) (eval : string -> dict (list num) -> result (list num))
        (params : dict demand_params) (offsets multipliers : dict Qc) (sample : frame)
        (cap : cap_frame) (lsds : lsds_frame).
Let n := n_rows sample.
Context (Hcap : well_formed n cap) (Hlsds : well_formed n lsds)
        (Hcols : forall k, In k (map fst cap) -> In k (map fst lsds))
        (Hgap : gapless cap) (Ht : demand_table sample)
        (Heval : forall c vars v, Forall (fun x => List.length (snd x) = n) vars -> eval c vars = Ok v ->
                                  List.length v = n).

Notation batch := (obtain_batch nterms eval params offsets multipliers sample cap lsds).
Notation key p := (key_of nterms params offsets p).
Notation value k := (assemble_one eval multipliers sample k).

(** What a group needs to be computed. *)
Definition computable (p : pg) : Prop :=
  exists k v, key p = Ok k /\ verify_edps_available sample [k] = Ok tt /\ value k = Ok v /\
              pg_columns p cap <> [].

Lemma pg_columns_for pgs p : In p pgs -> pg_columns p (for_groups pgs cap) = pg_columns p cap.
Proof.
  intros Hp. unfold pg_columns, for_groups. clear - Hp. induction cap as [|c l IH]; [easy|].
  cbn [filter map]. destruct (pg_eqb (b_of (fst (fst c))) p) eqn:E.
  - apply pg_eqb_eq in E. rewrite (proj2 (existsb_exists _ _)).
    2:{ exists p. split; [easy|]. now apply pg_eqb_eq. }
    cbn [filter map]. rewrite E, pg_eqb_refl. now f_equal.
  - destruct (existsb _ pgs); cbn [filter map]; [rewrite E|]; exact IH.
Qed.

Lemma required_total pgs : (forall p, In p pgs -> exists k, key p = Ok k) ->
  exists req, get_required_demand_type nterms params offsets pgs = Ok req.
Proof.
  unfold get_required_demand_type. generalize (@nil (required_key * list pg)).
  induction pgs as [|p pgs IH]; intros acc H; cbn [foldM]; [eauto|].
  destruct (H p (or_introl eq_refl)) as (k & ->). cbn [bind]. apply IH. intros q Hq. apply H. now right.
Qed.
Lemma required_all pgs req : get_required_demand_type nterms params offsets pgs = Ok req ->
  forall p, In p pgs -> exists k, key p = Ok k /\ In k (map fst req).
Proof.
  intros H p Hp. destruct (required_find _ _ _ _ _ _ H Hp) as (kp & _ & Hin & Hk). exists (fst kp).
  split; [easy|]. now apply in_map.
Qed.
Lemma required_from pgs req k : get_required_demand_type nterms params offsets pgs = Ok req ->
  In k (map fst req) -> exists p, In p pgs /\ key p = Ok k.
Proof.
  intros H Hk. apply required_ok in H as (_ & HF & HP). apply in_map_iff in Hk as ([k' ps] & <- & Hin).
  rewrite Forall_forall in HF. destruct (HF _ Hin) as [Hne Hall]. cbn [fst snd] in *.
  destruct ps as [|p ps]; [easy|]. inversion Hall; subst. exists p. split; [|easy].
  apply (Permutation_in _ HP). apply in_concat. exists (p :: ps). split; [|now left]. apply in_map_iff. now exists (k', p :: ps).
Qed.

Lemma batch_computable pgs ds : batch pgs = Ok ds -> pgs <> [] /\ forall p, In p pgs -> computable p.
Proof.
  unfold obtain_batch, batch_demands. intros H. binv H r. binv E req. binv E u. binv E dem. injection E as <-.
  unfold evaluate_damage_state in H. binv H cols. clear H. cbn [fst snd] in *.
  unfold demand_columns in E. destruct dem as [|d0 dm] eqn:Ed; [easy|]. rewrite <- Ed in *.
  split.
  - intros ->. cbn in E0. injection E0 as <-. cbn in E2. injection E2 as <-. congruence.
  - intros p Hp. destruct (required_find _ _ _ _ _ _ E0 Hp) as (kp & Hfind & Hin & Hk).
    destruct (required_ok _ _ _ _ _ E0) as (Hn & HF & HP).
    destruct (assembled _ _ _ _ _ (fst kp) E2) as (v & Hg & Hv); [now apply in_map|easy|].
    exists (fst kp), v. split; [easy|]. split; [|split; [easy|]].
    + destruct u. apply (proj1 (verify_list _ _)) in E1. rewrite Forall_forall in E1. apply E1. now apply in_map.
    + binv E l. apply (aget_In key_eqb key_eqb_eq) in Hg.
      destruct (mapM_inv _ _ _ E3 Hg) as (y & Hy & _). cbn [fst] in Hy.
      rewrite (In_aget edp_key_eqb edp_key_eqb_eq _ (snd kp) _ Hn) in Hy by now rewrite <- surjective_pairing.
      binv Hy cs. apply find_some in Hfind as [_ Hex]. apply existsb_exists in Hex as (q & Hq & Eq).
      apply pg_eqb_eq in Eq. subst q. destruct (mapM_inv _ _ _ E4 Hq) as (z & Hz & _).
      rewrite pg_columns_for in Hz by easy. destruct (pg_columns p cap); easy.
Qed.

Lemma computable_batch pgs : pgs <> [] -> (forall p, In p pgs -> computable p) ->
  exists ds, batch pgs = Ok ds.
Proof.
  intros Hne H. unfold obtain_batch, batch_demands.
  destruct (required_total pgs) as (req & Er). { intros p Hp. destruct (H p Hp) as (k & v & Hk & _). eauto. }
  rewrite Er. cbn [bind].
  assert (Hreq : forall k, In k (map fst req) -> exists v, verify_edps_available sample [k] = Ok tt /\ value k = Ok v).
  { intros k Hk. destruct (required_from _ _ _ Er Hk) as (p & Hp & Hkp). destruct (H p Hp) as (k' & v & Hk' & Hv & Hv' & _).
    assert (k' = k) as -> by congruence. eauto. }
  assert (Hv : verify_edps_available sample (map fst req) = Ok tt).
  { apply verify_list. apply Forall_forall. intros k Hk. destruct (Hreq k Hk) as (v & ? & ?). easy. }
  rewrite Hv. cbn [bind].
  assert (exists dem, assemble_required_demand_data eval multipliers sample (map fst req) = Ok dem) as (dem & Ed).
  { unfold assemble_required_demand_data. clear - Hreq. induction (map fst req) as [|k ks IH]; [now exists []|].
    cbn [mapM]. destruct (Hreq k (or_introl eq_refl)) as (v & _ & ->). cbn [bind].
    destruct IH as (dem & ->); [intros; apply Hreq; now right|]. cbn [bind]. eauto. }
  rewrite Ed. cbn [bind fst snd]. unfold evaluate_damage_state, demand_columns.
  destruct dem as [|d0 dm] eqn:Edd.
  { exfalso. destruct pgs as [|p pgs]; [easy|]. destruct (required_all _ _ Er p (or_introl eq_refl)) as (k & _ & Hk).
    unfold assemble_required_demand_data in Ed. apply mapM_ok_length in Ed. destruct (map fst req); [easy|discriminate Ed]. }
  rewrite <- Edd in *. clear Edd d0 dm.
  match goal with |- context [mapM ?f dem] => assert (exists l, mapM f dem = Ok l) as (l & El) end.
  2:{ rewrite El. cbn [bind]. eauto. }
  destruct (required_ok _ _ _ _ _ Er) as (Hn & HF & HP).
  assert (Hd : forall d, In d dem -> In (fst d) (map fst req)).
  { intros d Hd. unfold assemble_required_demand_data in Ed. destruct (mapM_inv_r _ _ _ Ed Hd) as (k & Hk & Hin).
    binv Hk v. injection Hk as <-. exact Hin. }
  clear Ed. induction dem as [|d dem IH]; [now exists []|]. cbn [mapM].
  specialize (Hd d (or_introl eq_refl)) as Hd0. apply in_map_iff in Hd0 as ([k ps] & Ek & Hin). cbn [fst] in Ek.
  destruct d as [k' v']. cbn [fst] in Ek. subst k'. cbn [fst snd].
  rewrite (In_aget edp_key_eqb edp_key_eqb_eq _ ps _ Hn Hin).
  assert (exists cs, mapM (fun p => match pg_columns p (for_groups pgs cap) with [] => Err KeyError | cs => Ok cs end) ps = Ok cs) as (cs & ->).
  { assert (Hps : forall p, In p ps -> In p pgs).
    { intros p Hp. apply (Permutation_in _ HP). apply in_concat. exists ps. split; [|easy]. apply in_map_iff. now exists (k, ps). }
    clear - Hps H. induction ps as [|p ps IH]; [now exists []|]. cbn [mapM].
    rewrite pg_columns_for by (apply Hps; now left). destruct (H p) as (k & v & _ & _ & _ & Hc); [apply Hps; now left|].
    destruct (pg_columns p cap); [easy|]. cbn [bind]. destruct IH as (cs & ->); [intros; apply Hps; now right|]. cbn [bind]. eauto. }
  cbn [bind]. destruct IH as (l & ->); [intros; apply Hd; now right|]. cbn [bind]. eauto.
Qed.

(** ** Lengths *)
Lemma edp_values_length e v : edp_values multipliers sample e = Ok v -> List.length v = n.
Proof.
  unfold edp_values. destruct (split_on "-" e) as [|ty [|l [|d [|]]]]; try easy.
  unfold demand_table in Ht. rewrite Forall_forall in Ht.
  destruct (String.eqb d "0").
  - match goal with |- context [filter ?f sample] => destruct (filter f sample) as [|c cols] eqn:Ef; [easy|];
      assert (Hc : In c (filter f sample)) by (rewrite Ef; now left) end.
    apply filter_In in Hc as [Hc _]. apply Ht in Hc as [_ Hc]. intros H. binv H q. injection H as <-.
    rewrite scale_values_length. cbn [map max_columns]. rewrite map_length, seq_length. exact Hc.
  - destruct (aget label_eqb [ty; l; d] sample) as [x|] eqn:E; [|easy]. intros [= <-].
    apply (aget_In label_eqb label_eqb_eq) in E. now apply Ht in E.
Qed.

Lemma dset_Forall {V} (P : V -> Prop) k v (d : dict V) : P v -> Forall (fun e => P (snd e)) d -> Forall (fun e => P (snd e)) (dset k v d).
Proof.
  intros Hv H. induction H as [|[k' v'] d Hx Hd IH]; cbn [dset]; [repeat constructor; easy|].
  destruct (String.eqb k k'); constructor; auto.
Qed.

Lemma collect_length edps : forall acc vals, collect multipliers sample edps acc = Ok vals ->
  Forall (fun e => List.length (snd e) = n) acc -> Forall (fun e => List.length (snd e) = n) vals.
Proof.
  induction edps as [|e edps IH]; intros acc vals H Ha; cbn [collect] in H.
  - now injection H as <-.
  - binv H v. eapply IH; [exact H|]. apply (dset_Forall (fun l => List.length l = n)); [|exact Ha].
    eapply edp_values_length, E.
Qed.

Lemma value_length k v : value k = Ok v -> List.length v = n.
Proof.
  unfold assemble_one. intros H. binv H vals.
  assert (HF : Forall (fun e : string * list num => List.length (snd e) = n) vals) by (eapply collect_length; [exact E|constructor]).
  destruct (snd k) as [e|].
  - binv H c. eapply Heval; [|exact H]. apply Forall_map. apply Forall_forall. intros [i x] Hx. cbn [fst snd].
    apply in_combine_r in Hx. rewrite Forall_forall in HF. now apply HF.
  - destruct (rev vals) as [|x l] eqn:Er; [easy|]. injection H as <-. rewrite Forall_forall in HF. apply HF.
    apply in_rev. rewrite Er. now left.
Qed.

(** ** States *)

(** The state of a block in a realization. *)
Definition state_is (b : blk) (i : nat) (s : Z) : Prop :=
  exists k v d, key (b_of b) = Ok k /\ value k = Ok v /\ nth_error v i = Some d /\
    (((forall ls, ~ exceeded cap d b ls i) /\ s = 0%Z) \/
     exists m, highest_exceeded cap d b i ls_number m /\ cell_at lsds (b, m) i s).

Lemma cell_unique {K V} m (t : list (K * list V)) k i a b :
  well_formed m t -> cell_at t k i a -> cell_at t k i b -> a = b.
Proof.
  intros [Hn _] (c1 & H1 & E1) (c2 & H2 & E2).
  assert (c1 = c2); [|congruence].
  clear - Hn H1 H2. induction t as [|[k' c] t IH]; [easy|]. inversion Hn; subst.
  destruct H1 as [H1|H1], H2 as [H2|H2]; try congruence; [| |now apply IH].
  - exfalso. injection H1 as -> _. apply H3. now apply (in_map fst) in H2.
  - exfalso. injection H2 as -> _. apply H3. now apply (in_map fst) in H1.
Qed.

Lemma exceeded_has_ls d b ls i : exceeded cap d b ls i -> has_ls cap b ls.
Proof. intros (c & q & (col & Hc & _) & _). apply in_map_iff. now exists ((b, ls), col). Qed.

Lemma state_unique b i s1 s2 : state_is b i s1 -> state_is b i s2 -> s1 = s2.
Proof.
  intros (k1 & v1 & d1 & K1 & V1 & D1 & H1) (k2 & v2 & d2 & K2 & V2 & D2 & H2).
  assert (k2 = k1) as -> by congruence. assert (v2 = v1) as -> by congruence.
  assert (d2 = d1) as -> by congruence.
  destruct H1 as [[N1 ->]|(m1 & [X1 M1] & C1)], H2 as [[N2 ->]|(m2 & [X2 M2] & C2)]; auto.
  - exfalso. now apply (N1 m2).
  - exfalso. now apply (N2 m1).
  - assert (m2 = m1).
    { apply digit_number_inj.
      - apply exceeded_has_ls in X2. now apply (Hgap _ _ X2).
      - apply exceeded_has_ls in X1. now apply (Hgap _ _ X1).
      - specialize (M1 _ X2). specialize (M2 _ X1). lia. }
    subst m2. eapply cell_unique; [exact Hlsds|exact C1|exact C2].
Qed.

(** The highest exceeded limit state exists when one is exceeded. *)
Lemma highest_exists d b i : (exists ls, exceeded cap d b ls i) -> exists m, highest_exceeded cap d b i ls_number m.
Proof.
  intros (ls & Hls).
  assert (Hdec : forall l, {exceeded cap d b l i} + {~ exceeded cap d b l i}).
  { intros l. destruct d as [q|]; [|right; intros (c & q & _ & ? & _); easy].
    destruct (aget lsc_eqb (b, l) cap) as [col|] eqn:E.
    - destruct (nth_error col i) as [[c|]|] eqn:Ei.
      + destruct (Qcltb c q) eqn:Eq.
        * left. exists c, q. split; [exists col; split; [now apply (aget_In lsc_eqb lsc_eqb_eq)|easy]|]. split; [easy|]. now apply Qcltb_true.
        * right. intros (c' & q' & (col' & Hin & Hn) & [= <-] & Hlt).
          rewrite (In_aget lsc_eqb lsc_eqb_eq _ _ _ (proj1 Hcap) Hin) in E.
          assert (col' = col) by congruence. subst col'. assert (c' = c) by congruence. subst c'.
          apply Qcltb_true in Hlt. congruence.
      + right. intros (c' & q' & (col' & Hin & Hn) & _).
        rewrite (In_aget lsc_eqb lsc_eqb_eq _ _ _ (proj1 Hcap) Hin) in E. 
        assert (col' = col) by congruence. subst col'. rewrite Ei in Hn. discriminate Hn.
      + right. intros (c' & q' & (col' & Hin & Hn) & _).
        rewrite (In_aget lsc_eqb lsc_eqb_eq _ _ _ (proj1 Hcap) Hin) in E.
        assert (col' = col) by congruence. subst col'. rewrite Ei in Hn. discriminate Hn.
    - right. intros (c' & q' & (col' & Hin & Hn) & _).
      rewrite (In_aget lsc_eqb lsc_eqb_eq _ _ _ (proj1 Hcap) Hin) in E. discriminate E. }
  assert (Hex : forall cand : list string, (exists l, In l cand /\ exceeded cap d b l i) ->
     exists m, In m cand /\ exceeded cap d b m i /\ forall l, In l cand -> exceeded cap d b l i -> (ls_number l <= ls_number m)%nat).
  { induction cand as [|a cand IH]; intros (l & Hl & He); [easy|].
    destruct (Hdec a) as [Ha|Ha].
    - destruct (existsb (fun x => if Hdec x then true else false) cand) eqn:Ex.
      + destruct IH as (m & Hm & Hem & Hmax).
        { apply existsb_exists in Ex as (x & Hx & Ex). destruct (Hdec x); [eauto|easy]. }
        destruct (Nat.le_gt_cases (ls_number a) (ls_number m)).
        * exists m. split; [now right|]. split; [easy|]. intros x [<-|Hx] Hxe; auto.
        * exists a. split; [now left|]. split; [easy|]. intros x [<-|Hx] Hxe; [lia|]. specialize (Hmax x Hx Hxe). lia.
      + exists a. split; [now left|]. split; [easy|]. intros x [<-|Hx] Hxe; [lia|]. exfalso.
        assert (existsb (fun x => if Hdec x then true else false) cand = true); [|congruence].
        apply existsb_exists. exists x. split; [easy|]. now destruct (Hdec x).
    - destruct Hl as [<-|Hl]; [easy|]. destruct IH as (m & Hm & Hem & Hmax); [eauto|]. exists m.
      split; [now right|]. split; [easy|]. intros x [<-|Hx] Hxe; [easy|auto]. }
  destruct (Hex digit_ids) as (m & _ & Hm & Hmax).
  { exists ls. split; [|easy]. apply exceeded_has_ls in Hls. now apply (Hgap _ _ Hls). }
  exists m. split; [easy|]. intros l Hl. apply Hmax; [|easy]. apply exceeded_has_ls in Hl. now apply (Hgap _ _ Hl).
Qed.

(** ** Restriction to a batch *)

Lemma for_groups_In {A} pgs (t : list (lsc * A)) c :
  In c (for_groups pgs t) <-> In c t /\ In (b_of (fst (fst c))) pgs.
Proof.
  unfold for_groups. rewrite filter_In, existsb_exists. split.
  - intros [H (q & Hq & E)]. apply pg_eqb_eq in E. subst. auto.
  - intros [H Hq]. split; [easy|]. eexists. split; [exact Hq|apply pg_eqb_refl].
Qed.
Lemma for_groups_wf {A} pgs (t : list (lsc * list A)) : well_formed n t -> well_formed n (for_groups pgs t).
Proof.
  intros [H1 H2]. split.
  - unfold for_groups. clear H2. induction t as [|c t IH]; [constructor|]. inversion H1; subst. cbn [filter].
    destruct (existsb _ pgs); [|auto]. cbn [map]. constructor; [|auto]. intros Hin. apply H2.
    apply in_map_iff in Hin as (c' & E & Hin). apply filter_In in Hin as [Hin _]. rewrite <- E. now apply in_map.
  - rewrite Forall_forall in *. intros c Hc. apply for_groups_In in Hc as [Hc _]. auto.
Qed.
Lemma for_groups_ls pgs b ls : has_ls (for_groups pgs cap) b ls <-> has_ls cap b ls /\ In (b_of b) pgs.
Proof.
  unfold has_ls. rewrite !in_map_iff. split.
  - intros (c & E & Hc). apply for_groups_In in Hc as [Hc Hp]. rewrite E in Hp. split; [eauto|easy].
  - intros [(c & E & Hc) Hp]. exists c. split; [easy|]. apply for_groups_In. rewrite E. auto.
Qed.
Lemma for_groups_cell {A} pgs (t : list (lsc * list A)) b ls i x : In (b_of b) pgs ->
  cell_at (for_groups pgs t) (b, ls) i x <-> cell_at t (b, ls) i x.
Proof.
  intros Hp. unfold cell_at. split.
  - intros (col & Hc & Hi). apply for_groups_In in Hc as [Hc _]. eauto.
  - intros (col & Hc & Hi). exists col. split; [|easy]. apply for_groups_In. auto.
Qed.
Lemma for_groups_exceeded pgs d b ls i : In (b_of b) pgs ->
  exceeded (for_groups pgs cap) d b ls i <-> exceeded cap d b ls i.
Proof. intros Hp. unfold exceeded. setoid_rewrite for_groups_cell; easy. Qed.
Lemma for_groups_gapless pgs : gapless (for_groups pgs cap).
Proof.
  intros b ls Hb. apply for_groups_ls in Hb as [Hb Hp]. destruct (Hgap _ _ Hb) as [H1 H2]. split; [easy|].
  intros b' ls' Hb' Hlt. apply for_groups_ls in Hb' as [Hb' _]. apply for_groups_ls. split; [|easy]. now apply (H2 b').
Qed.

Lemma batch_state pgs ds b i : batch pgs = Ok ds -> NoDup pgs ->
  (exists ls, has_ls cap b ls) -> In (b_of b) pgs -> (i < n)%nat ->
  exists s, cell_at ds b i s /\ state_is b i s.
Proof.
  intros H Hnp Hb Hp Hi. unfold obtain_batch, batch_demands in H. binv H r. binv E req. binv E u. binv E dem. injection E as <-.
  cbn [fst snd] in H. unfold evaluate_damage_state in H. binv H cols. cbv zeta in H. injection H as <-.
  destruct (required_find _ _ _ _ _ _ E0 Hp) as (kp & Hfind & Hin & Hk).
  destruct (required_ok _ _ _ _ _ E0) as (Hn & HF & HP).
  destruct (assembled _ _ _ _ _ (fst kp) E2) as (v & Hg & Hv); [now apply in_map|easy|].
  pose proof (value_length _ _ Hv) as Hlv.
  destruct (nth_error v i) as [d|] eqn:Ei; [|apply nth_error_None in Ei; lia].
  assert (Hdk : map fst dem = map fst req).
  { unfold assemble_required_demand_data in E2. apply mapM_Forall2 in E2. clear - E2.
    induction E2 as [|x y l l' Hxy _ IH]; [easy|]. binv Hxy w. injection Hxy as <-. cbn. now f_equal. }
  assert (Hwd : well_formed n dem).
  { split; [now rewrite Hdk|]. apply Forall_forall. intros x Hx. unfold assemble_required_demand_data in E2.
    destruct (mapM_inv_r _ _ _ E2 Hx) as (k & Hk' & _). binv Hk' w. injection Hk' as <-. cbn [snd].
    now apply value_length in E3. }
  assert (Hone : one_demand req).
  { split; [easy|]. rewrite flat_map_concat_map. eapply Permutation_NoDup; [symmetry; exact HP|exact Hnp]. }
  assert (Hdf : demand_for dem req (b_of b) i d).
  { exists (fst kp), v, (snd kp). split; [now apply (aget_In key_eqb key_eqb_eq)|]. split; [now rewrite <- surjective_pairing|].
    split; [|easy]. apply find_some in Hfind as [_ Hex]. apply existsb_exists in Hex as (q & Hq & Eq).
    apply pg_eqb_eq in Eq. now subst q. }
  assert (Hc' : forall k, In k (map fst (for_groups pgs cap)) -> In k (map fst (for_groups pgs lsds))).
  { intros [b' ls'] Hk'. apply for_groups_ls in Hk' as [Hk' Hp']. apply Hcols in Hk'. apply in_map_iff in Hk' as (c & E3 & Hc).
    apply in_map_iff. exists c. split; [easy|]. apply for_groups_In. rewrite E3. auto. }
  assert (Hb' : exists ls, has_ls (for_groups pgs cap) b ls).
  { destruct Hb as (ls & Hls). exists ls. now apply for_groups_ls. }
  assert (Hdecide : (exists ls, exceeded cap d b ls i) \/ forall ls, ~ exceeded cap d b ls i).
  { destruct (@result_spec n dem req (for_groups pgs cap) (for_groups pgs lsds) cols
        (for_groups_wf _ _ Hcap) (for_groups_wf _ _ Hlsds) Hwd Hone Hc' E b i d Hi Hb' Hdf) as (s & Hs & _ & _).
    pose proof (@result_cell n dem req (for_groups pgs cap) (for_groups pgs lsds) cols
        (for_groups_wf _ _ Hcap) (for_groups_wf _ _ Hlsds) Hwd E b i Hi Hb') as Hr.
    destruct (existsb (fun l => match excf (exceedance (for_groups pgs cap) cols) b i l with Some true => true | _ => false end) digit_ids) eqn:Ex.
    - left. apply existsb_exists in Ex as (l & _ & El). exists l.
      destruct (excf (exceedance (for_groups pgs cap) cols) b i l) as [[]|] eqn:Ee; try easy.
      apply (@exc_iff n dem req (for_groups pgs cap) cols (for_groups_wf _ _ Hcap) Hwd Hone E b l i d Hi Hdf) in Ee.
      now apply for_groups_exceeded in Ee.
    - right. intros l Hl. assert (Hd : In l digit_ids). { pose proof (exceeded_has_ls _ _ _ _ Hl) as Hh. now apply (Hgap _ _ Hh). }
      apply (proj2 (for_groups_exceeded pgs d b l i Hp)) in Hl.
      apply (@exc_iff n dem req (for_groups pgs cap) cols (for_groups_wf _ _ Hcap) Hwd Hone E b l i d Hi Hdf) in Hl.
      match type of Ex with ?x = false => assert (x = true); [|congruence] end. apply existsb_exists. exists l. split; [easy|]. now rewrite Hl. }
  destruct Hdecide as [Hx|Hx].
  - destruct (highest_exists _ _ _ Hx) as (m & Hm & Hmax).
    assert (exists s, cell_at lsds (b, m) i s) as (s & Hs).
    { pose proof (Hcols _ (exceeded_has_ls _ _ _ _ Hm)) as Hl. apply in_map_iff in Hl as ([k col] & Ek & Hl). cbn in Ek. subst k.
      destruct Hlsds as [_ Hlen]. rewrite Forall_forall in Hlen. specialize (Hlen _ Hl). cbn in Hlen.
      destruct (nth_error col i) as [s|] eqn:Es; [|apply nth_error_None in Es; lia]. exists s, col. auto. }
    exists s. split.
    + eapply (@result_highest n dem req (for_groups pgs cap) (for_groups pgs lsds) cols) with (m := m) (d := d); eauto using for_groups_wf, for_groups_gapless.
      * now apply for_groups_exceeded.
      * intros l Hl. apply Hmax. now apply for_groups_exceeded in Hl.
      * now apply for_groups_cell.
    + exists (fst kp), v, d. repeat (split; [easy|]). right. exists m. split; [split; easy|easy].
  - exists 0%Z. split.
    + destruct (@result_spec n dem req (for_groups pgs cap) (for_groups pgs lsds) cols
        (for_groups_wf _ _ Hcap) (for_groups_wf _ _ Hlsds) Hwd Hone Hc' E b i d Hi Hb' Hdf) as (s & Hs & Hz & _).
      rewrite Hz in Hs; [exact Hs|]. intros l Hl. apply (Hx l). now apply for_groups_exceeded in Hl.
    + exists (fst kp), v, d. repeat (split; [easy|]). left. auto.
Qed.

Lemma batch_shape pgs ds : batch pgs = Ok ds ->
  well_formed n ds /\ forall b, In b (map fst ds) <-> (exists ls, has_ls cap b ls) /\ In (b_of b) pgs.
Proof.
  intros H. unfold obtain_batch, batch_demands in H. binv H r. binv E req. binv E u. binv E dem. injection E as <-.
  cbn [fst snd] in H. unfold evaluate_damage_state in H. binv H cols. cbv zeta in H. injection H as <-.
  destruct (required_ok _ _ _ _ _ E0) as (Hn & HF & HP).
  assert (Hdk : map fst dem = map fst req).
  { unfold assemble_required_demand_data in E2. apply mapM_Forall2 in E2. clear - E2.
    induction E2 as [|x y l l' Hxy _ IH]; [easy|]. binv Hxy w. injection Hxy as <-. cbn. now f_equal. }
  assert (Hwd : well_formed n dem).
  { split; [now rewrite Hdk|]. apply Forall_forall. intros x Hx. unfold assemble_required_demand_data in E2.
    destruct (mapM_inv_r _ _ _ E2 Hx) as (k & Hk' & _). binv Hk' w. injection Hk' as <-. cbn [snd].
    now apply value_length in E3. }
  split.
  - eapply (@result_shape n dem req (for_groups pgs cap)); eauto using for_groups_wf.
  - intros b. etransitivity; [eapply (@result_blocks n dem req (for_groups pgs cap) (for_groups pgs lsds) cols); eauto using for_groups_wf|].
    setoid_rewrite for_groups_ls. firstorder.
Qed.

Lemma batch_cells pgs ds b i s : batch pgs = Ok ds -> NoDup pgs ->
  (cell_at ds b i s <-> (exists ls, has_ls cap b ls) /\ In (b_of b) pgs /\ (i < n)%nat /\ state_is b i s).
Proof.
  intros H Hn. destruct (batch_shape _ _ H) as [Hw Hk]. split.
  - intros Hc. pose proof Hc as (col & Hin & Hi).
    assert (Hb : In b (map fst ds)) by now apply (in_map fst) in Hin. apply Hk in Hb as [Hb Hp].
    assert (Hlt : (i < n)%nat).
    { destruct Hw as [_ Hl]. rewrite Forall_forall in Hl. specialize (Hl _ Hin). cbn in Hl. rewrite <- Hl.
      apply nth_error_Some. congruence. }
    destruct (batch_state _ _ _ _ H Hn Hb Hp Hlt) as (s' & Hs' & Hst).
    assert (s' = s) as ->.
    { eapply cell_unique; [exact Hw|exact Hs'|exact Hc]. }
    auto.
  - intros (Hb & Hp & Hi & Hst). destruct (batch_state _ _ _ _ H Hn Hb Hp Hi) as (s' & Hs' & Hst').
    now rewrite (state_unique _ _ _ _ Hst Hst').
Qed.

(** ** The whole run *)

Lemma batch_groups_In out k p : In p (batch_groups out k) <-> exists b, In (k, (p, b)) out.
Proof.
  unfold batch_groups. rewrite in_map_iff. split.
  - intros ([k' [p' b]] & <- & H). apply filter_In in H as [H E]. apply Nat.eqb_eq in E. cbn in *. subst. eauto.
  - intros (b & H). exists (k, (p, b)). split; [easy|]. apply filter_In. split; [easy|]. apply Nat.eqb_refl.
Qed.
Lemma batch_groups_NoDup out k : NoDup (map (fun r : batched => fst (snd r)) out) -> NoDup (batch_groups out k).
Proof.
  unfold batch_groups. induction out as [|r out IH]; cbn; [constructor|]. intros H. inversion H; subst.
  destruct (Nat.eqb (fst r) k); cbn; [|auto]. constructor; [|auto]. intros Hin. apply H2.
  apply in_map_iff in Hin as (r' & E & Hin). apply filter_In in Hin as [Hin _]. rewrite <- E. now apply (in_map (fun r : batched => fst (snd r))).
Qed.
Lemma batch_ids_In out k : In k (batch_ids out) <-> exists p b, In (k, (p, b)) out.
Proof.
  unfold batch_ids. rewrite (unique_In _ Nat.eqb_eq), in_map_iff. split.
  - intros ([k' [p b]] & <- & H). eauto.
  - intros (p & b & H). now exists (k, (p, b)).
Qed.

Context (missing available : list string) (cb : block_table)
        (Hcb : NoDup (map fst cb)) (Hpos : Forall (fun r => (0 < snd r)%Z) cb).

Notation obtain size := (obtain_ds_sample nterms eval params offsets multipliers sample cap lsds missing available size cb).

Lemma obtain_cells size ds b i s : obtain size = Ok ds ->
  (cell_at ds b i s <->
   (exists ls, has_ls cap b ls) /\ (In (cmp (b_of b)) available /\ ~ In (cmp (b_of b)) missing /\ exists k, In (b_of b, k) cb) /\
   (i < n)%nat /\ state_is b i s).
Proof.
  intros H. unfold obtain_ds_sample in H. binv H out.
  destruct (batch_ids out) as [|k0 ks0] eqn:Ek; [easy|]. rewrite <- Ek in H. binv H dss. injection H as <-.
  pose proof (batches_cover missing available size Hcb Hpos E) as Hcover.
  pose proof (batches_once missing available size Hcb Hpos E) as Honce.
  assert (Hin : forall col, In (b, col) (List.concat dss) <-> exists k ds, In k (batch_ids out) /\ batch (batch_groups out k) = Ok ds /\ In (b, col) ds).
  { intros col. rewrite in_concat. split.
    - intros (ds & Hds & Hc). destruct (mapM_inv_r _ _ _ E0 Hds) as (k & Hk & Hkin). eauto.
    - intros (k & ds & Hk & Hb & Hc). destruct (mapM_inv _ _ _ E0 Hk) as (ds' & Hds' & Hin').
      exists ds'. split; [easy|]. congruence. }
  assert (Hcell : cell_at (List.concat dss) b i s <-> exists k ds, In k (batch_ids out) /\ batch (batch_groups out k) = Ok ds /\ cell_at ds b i s).
  { unfold cell_at. split.
    - intros (col & Hc & Hv). apply Hin in Hc as (k & ds & Hk & Hb & Hc). exists k, ds. split; [assumption|]. split; [assumption|]. now exists col.
    - intros (k & ds & Hk & Hb & col & Hc & Hv). exists col. split; [|assumption]. apply Hin. now exists k, ds. }
  rewrite Hcell. split.
  - intros (k & ds & Hk & Hb & Hc). apply (batch_cells _ _ _ _ _ Hb (batch_groups_NoDup _ _ Honce)) in Hc as (H1 & H2 & H3 & H4).
    split; [easy|]. split; [|easy]. apply batch_groups_In in H2 as (nb & H2).
    destruct (proj1 (Hcover _ _) (ex_intro _ k H2)) as (A & B & C). eauto.
  - intros (H1 & (H2 & H3 & nb & H4) & H5 & H6).
    destruct (proj2 (Hcover (b_of b) nb) (conj H4 (conj H2 H3))) as (k & Hk).
    assert (Hkin : In k (batch_ids out)) by (apply batch_ids_In; eauto).
    destruct (mapM_inv _ _ _ E0 Hkin) as (ds & Hds & _). exists k, ds. split; [easy|]. split; [easy|].
    apply (batch_cells _ _ _ _ _ Hds (batch_groups_NoDup _ _ Honce)). split; [easy|]. split; [apply batch_groups_In; eauto|]. easy.
Qed.

Lemma obtain_ok size1 size2 ds1 : obtain size1 = Ok ds1 -> exists ds2, obtain size2 = Ok ds2.
Proof.
  intros H. unfold obtain_ds_sample in H. binv H out. 
  destruct (batch_ids out) as [|k0 ks0] eqn:Ek; [easy|]. rewrite <- Ek in H. binv H dss. clear H.
  pose proof (batches_cover missing available size1 Hcb Hpos E) as Hcover.
  assert (Hok : is_ok (get_pg_batches missing available size2 cb) = true).
  { apply get_pg_batches_total; auto. intros m Hm. unfold get_pg_batches, drop_missing in E.
    destruct (forallb _ missing) eqn:Ef; [|easy]. rewrite forallb_forall in Ef. apply Ef in Hm. apply existsb_exists in Hm as (r & Hr & Er).
    exists r. split; [easy|]. symmetry. now apply String.eqb_eq. }
  unfold obtain_ds_sample. destruct (get_pg_batches missing available size2 cb) as [out2|] eqn:E2; [|easy]. cbn [bind].
  pose proof (batches_cover missing available size2 Hcb Hpos E2) as Hcover2.
  assert (Hcomp : forall p nb, In (p, nb) cb -> In (cmp p) available -> ~ In (cmp p) missing -> computable p).
  { intros p nb A B C. destruct (proj2 (Hcover p nb) (conj A (conj B C))) as (k & Hk).
    assert (Hkin : In k (batch_ids out)) by (apply batch_ids_In; eauto).
    destruct (mapM_inv _ _ _ E0 Hkin) as (ds & Hds & _). apply (batch_computable _ _ Hds). apply batch_groups_In. eauto. }
  destruct (batch_ids out2) as [|k1 ks1] eqn:Ek2.
  - exfalso. assert (H0 : In k0 (batch_ids out)) by (rewrite Ek; now left). apply batch_ids_In in H0 as (p & nb & H0).
    destruct (proj1 (Hcover p nb) (ex_intro (fun k => In (k, (p, nb)) out) _ H0)) as (A & B & C).
    destruct (proj2 (Hcover2 p nb) (conj A (conj B C))) as (k & Hk).
    assert (Hkin : In k (batch_ids out2)) by (apply batch_ids_In; eauto). rewrite Ek2 in Hkin. easy.
  - rewrite <- Ek2.
    assert (Hall : forall k, In k (batch_ids out2) -> exists ds, batch (batch_groups out2 k) = Ok ds).
    { intros k Hk. apply computable_batch.
      - apply batch_ids_In in Hk as (p & nb & Hk). intros En. assert (In p (batch_groups out2 k)) by (apply batch_groups_In; eauto).
        now rewrite En in H.
      - intros p Hp. apply batch_groups_In in Hp as (nb & Hp). destruct (proj1 (Hcover2 p nb) (ex_intro (fun k => In (k, (p, nb)) out2) _ Hp)) as (A & B & C). eauto. }
    clear - Hall. induction (batch_ids out2) as [|k ks IH]; [now exists []|]. cbn [mapM].
    destruct (Hall k (or_introl eq_refl)) as (ds & ->). cbn [bind].
    destruct IH as (r & Hr); [intros; apply Hall; now right|]. destruct (mapM _ ks); [|easy]. cbn [bind]. eauto.
Qed.

Lemma obtain_independent size1 size2 ds1 : obtain size1 = Ok ds1 ->
  exists ds2, obtain size2 = Ok ds2 /\ forall b i s, cell_at ds1 b i s <-> cell_at ds2 b i s.
Proof.
  intros H. destruct (obtain_ok _ size2 _ H) as (ds2 & H2). exists ds2. split; [easy|]. intros b i s.
  rewrite (obtain_cells _ _ b i s H), (obtain_cells _ _ b i s H2). easy.
Qed.
End Obtain.
