(** Proofs about damage-state-based losses. *)
From Coq Require Import Sorting.Permutation.
From Verif Require Import Prelude PreludeFacts Pandas PandasFacts M_Base P_Base M_Damage P_Eval P_Qty P_Req M_Agg S_Agg P_Agg P_Comb P_Scaling
  M_LossDS S_LossDS P_Interp.
Local Open Scope string_scope.
Local Open Scope list_scope.

Lemma pair_eqb_eq a b : pair_eqb a b = true <-> a = b.
Proof.
  unfold pair_eqb. rewrite andb_true_iff, !String.eqb_eq. destruct a, b; cbn. split; [intros [-> ->]; easy|now intros [= -> ->]].
Qed.
Lemma qkey_eqb_iff a b : qkey_eqb a b = true <-> a = b.
Proof.
  unfold qkey_eqb. rewrite andb_true_iff, pg_eqb_eq, String.eqb_eq. destruct a, b; cbn. split; [intros [-> ->]; easy|now intros [= -> ->]].
Qed.

Lemma mapM_concat_In {A B} (f : A -> result (list B)) l r y : mapM f l = Ok r ->
  (In y (List.concat r) <-> exists x ys, In x l /\ f x = Ok ys /\ In y ys).
Proof.
  intros H. rewrite in_concat. split.
  - intros (ys & Hys & Hy). destruct (@mapM_inv_r _ _ _ _ _ _ H Hys) as (x & E & Hx). now exists x, ys.
  - intros (x & ys & Hx & E & Hy). destruct (@mapM_inv _ _ _ _ _ _ H Hx) as (ys' & E' & Hys). rewrite E in E'.
    assert (ys' = ys) as -> by congruence. now exists ys.
Qed.

Lemma mapM_concat_NoDup {A B K T} (f : A -> result (list B)) (key : B -> K) (tag : K -> T) (t : A -> T) l r :
  mapM f l = Ok r -> NoDup (map t l) ->
  (forall x ys, In x l -> f x = Ok ys -> NoDup (map key ys)) ->
  (forall x ys y, In x l -> f x = Ok ys -> In y ys -> tag (key y) = t x) ->
  NoDup (map key (List.concat r)).
Proof.
  intros H Hn H1 H2. apply mapM_Forall2 in H. induction H as [|x ys l r E HF IH]; [constructor|]. cbn [List.concat map] in *.
  inversion Hn as [|? ? Hx Hn']; subst. rewrite map_app. apply NoDup_app_intro.
  - apply H1 with x; [now left|assumption].
  - apply IH; [assumption| |]; intros; [eapply H1|eapply H2]; eauto; now right.
  - intros k Hk Hk'. apply in_map_iff in Hk as (y & <- & Hy). apply in_map_iff in Hk' as (y' & Ek & Hy').
    apply in_concat in Hy' as (ys' & Hys' & Hy'). destruct (Forall2_In_r _ HF Hys') as (x' & Hx' & E').
    apply Hx. apply in_map_iff. exists x'. split; [|assumption].
    rewrite <- (H2 x ys y (or_introl eq_refl) E Hy), <- Ek. symmetry. apply (H2 x' ys' y'); [now right|assumption|assumption].
Qed.

Lemma is_missing_true s consequence dv : is_missing s consequence dv = true <-> In (consequence, dv) (missing s).
Proof. unfold is_missing. apply (existsb_eqb_In pair_eqb pair_eqb_eq). Qed.
Lemma is_missing_false s consequence dv : is_missing s consequence dv = false <-> ~ In (consequence, dv) (missing s).
Proof. rewrite <- is_missing_true. destruct (is_missing s consequence dv); split; easy. Qed.

(** ** Pooled quantities *)

Definition lab_of (e : eco) (component ds : string) : list string := if across_states e then [component] else [component; ds].

Lemma eco_label_floors e k : across_floors e = true -> eco_label e k = lab_of e (cmp (fst k)) (snd k).
Proof. intros H. unfold eco_label, lab_of. rewrite H. now destruct (across_states e). Qed.

Lemma eco_aget n e dmg lab : aget label_eqb lab (eco_quantities n e dmg) =
  if existsb (fun c => label_eqb lab (eco_label e (fst c))) dmg
  then Some (sum_columns n (map snd (filter (fun c => label_eqb lab (eco_label e (fst c))) dmg))) else None.
Proof.
  unfold eco_quantities. rewrite (aget_map label_eqb label_eqb_eq (fun _ v => sum_columns n v)).
  rewrite (groupby_aget label_eqb label_le label_eqb_eq), map_map. cbn [fst].
  assert (Ex : existsb (label_eqb lab) (map (fun x : qkey * list num => eco_label e (fst x)) dmg)
             = existsb (fun c => label_eqb lab (eco_label e (fst c))) dmg).
  { clear. induction dmg as [|c dmg IH]; [easy|]. cbn [map existsb]. f_equal. exact IH. }
  assert (Eg : group_rows label_eqb lab (map (fun c : qkey * list num => (eco_label e (fst c), snd c)) dmg)
             = map snd (filter (fun c => label_eqb lab (eco_label e (fst c))) dmg)).
  { clear. unfold group_rows. induction dmg as [|c dmg IH]; [easy|]. cbn [map filter fst snd].
    destruct (label_eqb lab (eco_label e (fst c))); cbn [map snd]; now rewrite IH. }
  unfold qkey in *. rewrite Ex, Eg. match goal with |- context [if ?b then _ else _] => now destruct b end.
Qed.

Lemma label_eqb_sym a b : label_eqb a b = label_eqb b a.
Proof.
  destruct (label_eqb a b) eqn:E, (label_eqb b a) eqn:E2; try easy.
  - apply label_eqb_eq in E. subst. assert (label_eqb b b = true) by now apply label_eqb_eq. congruence.
  - apply label_eqb_eq in E2. subst. assert (label_eqb a a = true) by now apply label_eqb_eq. congruence.
Qed.

Lemma pool_label e k k' : across_floors e = true ->
  label_eqb (lab_of e (cmp (fst k)) (snd k)) (eco_label e k') = pool_of e k k'.
Proof.
  intros H. rewrite (eco_label_floors e k' H). unfold lab_of, pool_of, same_component, same_component_state.
  destruct (across_states e); cbn; now rewrite ?andb_true_r.
Qed.

Lemma pooled_value n e dmg k q i x : across_floors e = true -> In (k, q) dmg -> (i < n)%nat -> nth i q None = Some x ->
  nth i (sum_columns n (map snd (filter (fun c => label_eqb (lab_of e (cmp (fst k)) (snd k)) (eco_label e (fst c))) dmg))) None
  = Some (pooled (pool_of e k) dmg i).
Proof.
  intros He Hk Hi Hx. unfold sum_columns. rewrite nth_map_seq by assumption. rewrite map_map.
  set (l := map (fun x0 : qkey * list num => nth i (snd x0) None) (filter (fun c => pool_of e k (fst c)) dmg)).
  transitivity (nsum1 l). { unfold l. f_equal. f_equal. apply filter_ext. intros c. now apply pool_label. }
  destruct (nsum1 l) as [v|] eqn:E.
  - f_equal. assert (E2 : nfill0 (nsum1 l) = v) by now rewrite E. rewrite nsum1_nfill0 in E2. rewrite <- E2. unfold l, pooled.
    now rewrite map_map.
  - rewrite nsum1_None in E. specialize (E (Some x)). assert (Hc : Some x = None); [|discriminate Hc]. apply E.
    unfold l. apply in_map_iff. exists (k, q). split; [exact Hx|]. apply filter_In. split; [exact Hk|]. cbn [fst].
    rewrite <- (pool_label e k k He). apply label_eqb_eq. symmetry. now apply eco_label_floors.
Qed.

(** ** The medians *)

Lemma medians_In n e s dmg dv m component ds med : across_floors e = true ->
  medians_of e s (eco_quantities n e dmg) dv = Ok m ->
  (In ((component, ds), med) m <->
   exists consequence lp row th q, In (component, consequence) (loss_map s) /\ ~ In (consequence, dv) (missing s) /\
     params s = Some lp /\ In ds (lp_states lp) /\ ds <> "0" /\ aget pair_eqb (consequence, dv) (lp_rows lp) = Some row /\
     p_theta0 (row_params row ds) = Some th /\ supported_family (p_family (row_params row ds)) = true /\
     aget label_eqb (lab_of e component ds) (eco_quantities n e dmg) = Some q /\
     med = map (f_median th (p_family (row_params row ds))) q).
Proof.
  intros He H. unfold medians_of in H. binv H l. assert (Em : List.concat l = m).
  { rewrite He in H. destruct (List.concat l); assert (X : forall a b : list ((string * string) * list num), Ok a = Ok b -> a = b) by congruence;
      now apply X in H. }
  subst m. rewrite (mapM_concat_In _ _ _ _ E). clear H. split; [clear E l|].
  - intros ([c consequence] & ys & Hin & Hys & Hy). cbn [fst snd] in Hys. binv Hys m.
    assert (Ey : ys = map (fun d => ((c, fst d), snd d)) m) by congruence. subst ys. clear Hys.
    apply in_map_iff in Hy as ([ds' med'] & Ek & Hy). assert (c = component /\ ds' = ds /\ med' = med) as (-> & -> & ->) by (cbn in Ek; repeat split; congruence).
    clear Ek. unfold cmp_medians in E. destruct (is_missing s consequence dv) eqn:Em.
    { assert (Em' : m = []) by congruence. now rewrite Em' in Hy. }
    destruct (negb _) eqn:En. { assert (Em' : m = []) by congruence. now rewrite Em' in Hy. }
    destruct (params s) as [lp|] eqn:Ep; [|discriminate E]. binv E l.
    assert (El : List.concat l = m) by congruence. subst m. apply (mapM_concat_In _ _ _ _ E0) in Hy as (ds' & ys & Hds & Hys & Hy).
    destruct (String.eqb ds' "0") eqn:E00. { assert (Ec : ys = []) by congruence. now rewrite Ec in Hy. }
    destruct (aget pair_eqb (consequence, dv) (lp_rows lp)) as [row|] eqn:Er; [|discriminate Hys]. binv Hys mm.
    destruct mm as [v|]; [|assert (Ec : ys = []) by congruence; now rewrite Ec in Hy].
    assert (Ey : ys = [(ds', v)]) by congruence. subst ys. destruct Hy as [Hy|[]].
    assert (ds' = ds /\ v = med) as [-> ->] by (split; congruence). clear Hy Hys. unfold ds_median in E1.
    destruct (p_theta0 (row_params row ds)) as [th|] eqn:Et; [|discriminate E1].
    destruct (supported_family (p_family (row_params row ds))) eqn:Ef; [|discriminate E1]. cbn [negb] in E1. rewrite He in E1.
    fold (lab_of e component ds) in E1. destruct (aget label_eqb (lab_of e component ds) (eco_quantities n e dmg)) as [q|] eqn:Eq; [|discriminate E1].
    exists consequence, lp, row, th, q. repeat split; try assumption; try reflexivity.
    + now apply is_missing_false.
    + intros ->. discriminate E00.
    + congruence.
  - intros (consequence & lp & row & th & q & Hc & Hm & Ep & Hds & H0 & Er & Et & Ef & Eq & ->).
    assert (Hds_m : ds_median e (eco_quantities n e dmg) component ds row = Ok (Some (map (f_median th (p_family (row_params row ds))) q))).
    { unfold ds_median. rewrite Et, Ef. cbn [negb]. rewrite He. fold (lab_of e component ds). now rewrite Eq. }
    destruct (@mapM_inv _ _ _ _ _ _ E Hc) as (ys & Eys & _). exists (component, consequence), ys. split; [assumption|]. split; [assumption|].
    cbn [fst snd] in Eys. binv Eys m. assert (Ey : ys = map (fun d => ((component, fst d), snd d)) m) by congruence. subst ys. clear Eys.
    apply in_map_iff. exists (ds, map (f_median th (p_family (row_params row ds))) q). split; [reflexivity|].
    unfold cmp_medians in E0. apply is_missing_false in Hm. rewrite Hm in E0.
    assert (Hex : existsb (fun c : list string * list num => String.eqb (hd "" (fst c)) component) (eco_quantities n e dmg) = true).
    { apply existsb_exists. apply (aget_In label_eqb label_eqb_eq) in Eq. exists (lab_of e component ds, q). split; [assumption|].
      unfold lab_of. destruct (across_states e); cbn; apply String.eqb_refl. }
    rewrite Hex in E0. cbn [negb] in E0. rewrite Ep in E0. binv E0 l0. assert (El : List.concat l0 = m) by congruence. subst m.
    apply (mapM_concat_In _ _ _ _ E1). destruct (@mapM_inv _ _ _ _ _ _ E1 Hds) as (ys & Eys & _). exists ds, ys. split; [assumption|].
    split; [assumption|]. destruct (String.eqb_spec ds "0") as [Ez|_]; [now apply H0 in Ez|]. rewrite Er, Hds_m in Eys. cbn [bind] in Eys.
    assert (Ey : ys = [(ds, map (f_median th (p_family (row_params row ds))) q)]) by congruence. rewrite Ey. now left.
Qed.

(** ** The random variables *)

Lemma is_cs (c : qkey * list num) component ds :
  String.eqb (cmp (fst (fst c))) component && String.eqb (snd (fst c)) ds = true <-> cmp (fst (fst c)) = component /\ snd (fst c) = ds.
Proof. now rewrite andb_true_iff, !String.eqb_eq. Qed.

Lemma columns_of_In dmg component ds c : In c (columns_of dmg component ds) <-> In c dmg /\ cmp (fst (fst c)) = component /\ snd (fst c) = ds.
Proof. unfold columns_of. rewrite filter_In. now rewrite is_cs. Qed.

Lemma states_of_In dmg component ds : In ds (states_of dmg component) <-> exists c, In c dmg /\ cmp (fst (fst c)) = component /\ snd (fst c) = ds.
Proof.
  unfold states_of. rewrite (unique_In String.eqb String.eqb_eq), in_map_iff. split.
  - intros (c & Hd & Hc). apply filter_In in Hc as [Hc Hcmp]. apply String.eqb_eq in Hcmp. now exists c.
  - intros (c & Hc & Hcmp & Hd). exists c. split; [assumption|]. apply filter_In. split; [assumption|]. now apply String.eqb_eq.
Qed.

Lemma make_rv_families f th u : make_rv f th = Ok u -> In f ["normal"; "lognormal"].
Proof.
  unfold make_rv. destruct (String.eqb f "deterministic"); [discriminate|].
  destruct (String.eqb_spec f "normal") as [->|_]; [now left|]. destruct (String.eqb_spec f "lognormal") as [->|_]; [right; now left|discriminate].
Qed.
Lemma make_rv_usable p f : usable_family p -> p_family p = Some f -> p_theta0 p <> None -> make_rv f (map Some (rv_thetas p)) = Ok tt.
Proof.
  intros H Ef H0. destruct H as [H|[(H & H1 & H2)|(H & H1 & H2)]]; rewrite H in Ef; [discriminate Ef| |].
  - assert (f = "normal") as -> by congruence. unfold make_rv. cbn [String.eqb Ascii.eqb Bool.eqb].
    unfold rv_thetas. destruct (p_theta0 p) as [[t|ys xs]|]; [| |easy]; destruct (p_theta1 p) as [t1|]; try easy.
    cbn -[almost_zero]. replace (almost_zero (Some t)) with false; [reflexivity|]. symmetry. unfold almost_zero. apply andb_false_iff.
      destruct (H2 t eq_refl) as [Ht|Ht]; [right|left]; apply Qcltb_false; assumption.
  - assert (f = "lognormal") as -> by congruence. unfold rv_thetas. rewrite H2.
    destruct (p_theta0 p) as [[t|ys xs]|]; [| |easy]; destruct (p_theta1 p) as [t1|]; easy.
Qed.

Lemma ds_rvs_In dmg dv component ds p l r : ds_rvs dmg dv component ds p = Ok l -> In r l ->
  exists f q, ds <> "0" /\ p_family p = Some f /\ In f ["normal"; "lognormal"] /\ rv_thetas p <> [] /\
              cmp (fst (rv_key r)) = component /\ snd (rv_key r) = ds /\ In (rv_key r, q) dmg /\ r = RV dv (rv_key r) f (rv_thetas p).
Proof.
  unfold ds_rvs. intros H Hr. destruct (String.eqb_spec ds "0") as [->|H0]; [assert (E : l = []) by congruence; now rewrite E in Hr|].
  destruct (p_family p) as [f|] eqn:Ef; [|assert (E : l = []) by congruence; now rewrite E in Hr].
  destruct (rv_thetas p) as [|t0 ts] eqn:Et; [discriminate H|]. binv H uu. apply make_rv_families in E as Em. clear E.
  match type of H with Ok ?a = Ok _ => assert (E : l = a) by congruence end. subst l.
  apply in_map_iff in Hr as ([k q] & <- & Hc). apply columns_of_In in Hc as [Hc Hk]. cbn [fst rv_key] in *.
  exists f, q. now repeat split.
Qed.

Lemma ds_rvs_complete dmg dv component ds p l f k q : ds_rvs dmg dv component ds p = Ok l -> ds <> "0" -> p_family p = Some f ->
  In (k, q) dmg -> cmp (fst k) = component -> snd k = ds -> In (RV dv k f (rv_thetas p)) l.
Proof.
  unfold ds_rvs. intros H H0 Ef Hk Hc Hd. destruct (String.eqb_spec ds "0") as [E0|_]; [now apply H0 in E0|]. rewrite Ef in H.
  destruct (rv_thetas p) as [|t0 ts] eqn:Et; [discriminate H|]. binv H uu. apply make_rv_families in E as Em. clear E.
  match type of H with Ok ?a = Ok _ => assert (E : l = a) by congruence end. subst l.
  apply in_map_iff. exists (k, q). split; [reflexivity|]. apply columns_of_In. now repeat split.
Qed.

Lemma create_rvs_In s dmg rvs r : create_rvs s dmg = Ok rvs ->
  (In r rvs <-> exists consequence lp row f q, In (cmp (fst (rv_key r)), consequence) (loss_map s) /\ In (rv_dv r) (dvs s) /\
     ~ In (consequence, rv_dv r) (missing s) /\ params s = Some lp /\ aget pair_eqb (consequence, rv_dv r) (lp_rows lp) = Some row /\
     In (rv_key r, q) dmg /\ snd (rv_key r) <> "0" /\ p_family (row_params row (snd (rv_key r))) = Some f /\
     r = RV (rv_dv r) (rv_key r) f (rv_thetas (row_params row (snd (rv_key r))))).
Proof.
  intros H. unfold create_rvs in H. binv H l. destruct (forallb splits_cleanly (List.concat l)); [|discriminate H]. cbn [negb] in H.
  destruct (distinct_labels _); [|discriminate H]. cbn [negb] in H. assert (El : List.concat l = rvs) by congruence. subst rvs. clear H.
  rewrite (mapM_concat_In _ _ _ _ E). split.
  - intros ([component consequence] & ys & Hc & Hys & Hr). cbn [fst snd] in Hys.
    match type of Hys with (if ?b then _ else _) = _ => destruct b end; [|assert (Ey : ys = []) by congruence; now rewrite Ey in Hr].
    binv Hys k. assert (Ey : ys = List.concat k) by congruence. subst ys. clear Hys.
    apply (mapM_concat_In _ _ _ _ E0) in Hr as (dv & ys & Hdv & Hys & Hr). unfold cmp_rvs in Hys.
    destruct (is_missing s consequence dv) eqn:Em; [assert (Ey : ys = []) by congruence; now rewrite Ey in Hr|].
    destruct (params s) as [lp|] eqn:Ep; [|discriminate Hys].
    destruct (aget pair_eqb (consequence, dv) (lp_rows lp)) as [row|] eqn:Er; [|assert (Ey : ys = []) by congruence; now rewrite Ey in Hr].
    binv Hys l'. assert (Ey : ys = List.concat l') by congruence. subst ys. clear Hys.
    apply (mapM_concat_In _ _ _ _ E1) in Hr as (ds & ys & Hds & Hys & Hr).
    destruct (ds_rvs_In _ _ _ _ _ _ _ Hys Hr) as (f & q & H0 & Hf & Hf' & Ht & Hcmp & Hsd & Hk & Eq).
    assert (Edv : rv_dv r = dv) by now rewrite Eq. exists consequence, lp, row, f, q. rewrite Edv, Hcmp, Hsd.
    repeat split; try assumption. now apply is_missing_false.
  - intros (consequence & lp & row & f & q & Hc & Hdv & Hm & Ep & Er & Hk & H0 & Hf & Eq).
    destruct (@mapM_inv _ _ _ _ _ _ E Hc) as (ys & Eys & _). eexists _, ys. split; [exact Hc|]. split; [exact Eys|]. cbn [fst snd] in Eys.
    assert (Hex : existsb (fun x : qkey * list num => String.eqb (cmp (fst (fst x))) (cmp (fst (rv_key r)))) dmg = true).
    { apply existsb_exists. exists (rv_key r, q). split; [assumption|]. apply String.eqb_refl. }
    unfold qkey in Hex. unfold qty_frame, qkey in Eys. rewrite Hex in Eys. binv Eys k. assert (Ey : ys = List.concat k) by congruence. subst ys. clear Eys.
    destruct (@mapM_inv _ _ _ _ _ _ E0 Hdv) as (ys & Eys & _). apply (mapM_concat_In _ _ _ _ E0). exists (rv_dv r), ys. split; [assumption|].
    split; [assumption|]. unfold cmp_rvs in Eys. apply is_missing_false in Hm. rewrite Hm, Ep, Er in Eys. binv Eys l'.
    assert (Ey : ys = List.concat l') by congruence. subst ys. clear Eys.
    assert (Hst : In (snd (rv_key r)) (states_of dmg (cmp (fst (rv_key r))))) by (apply states_of_In; exists (rv_key r, q); easy).
    destruct (@mapM_inv _ _ _ _ _ _ E1 Hst) as (ys & Eys & _). apply (mapM_concat_In _ _ _ _ E1). exists (snd (rv_key r)), ys.
    split; [assumption|]. split; [assumption|]. rewrite Eq.
    apply (ds_rvs_complete _ _ _ _ _ _ f _ q Eys H0 Hf Hk); reflexivity.
Qed.

(** ** Parameters *)

Lemma dget_row_params row ds p : p_theta0 p <> None -> (row_params row ds = p <-> dget ds row = Some p).
Proof.
  intros Hp. unfold row_params. destruct (dget ds row) as [p'|]; split; try congruence.
  intros <-. now cbn in Hp.
Qed.

Lemma has_params_iff s dmg consequence dv ds p : unique_labels s dmg ->
  has_params s consequence dv ds p <->
  exists lp row, params s = Some lp /\ In ds (lp_states lp) /\ aget pair_eqb (consequence, dv) (lp_rows lp) = Some row /\ dget ds row = Some p.
Proof.
  intros (_ & _ & _ & Hu). split.
  - intros (lp & row & Ep & Hds & Hr & Hd). destruct (Hu _ Ep) as (_ & Hn & Hr'). exists lp, row. repeat split; try assumption.
    + now apply (In_aget pair_eqb pair_eqb_eq).
    + apply In_dget; [apply (Hr' _ Hr)|assumption].
  - intros (lp & row & Ep & Hds & Hr & Hd). exists lp, row. repeat split; try assumption.
    + now apply (aget_In pair_eqb pair_eqb_eq) in Hr.
    + now apply dget_In.
Qed.

Lemma loss_map_fun s dmg component c c' : unique_labels s dmg -> In (component, c) (loss_map s) -> In (component, c') (loss_map s) -> c = c'.
Proof.
  intros (_ & Hn & _) H H'. apply In_dget in H; [|exact Hn]. apply In_dget in H'; [|exact Hn]. congruence.
Qed.

(** ** The calculation *)

Lemma ds_losses_inv n s dmg rvs dv component ds med ys : ds_losses n s dmg rvs dv ((component, ds), med) = Ok ys ->
  exists consequence, dget component (loss_map s) = Some consequence /\
    (exists c, In c dmg /\ cmp (fst (fst c)) = component /\ snd (fst c) = ds) /\
    (probabilistic rvs dv component = true -> exists r, In r rvs /\ rv_dv r = dv /\ cmp (fst (rv_key r)) = component /\ snd (rv_key r) = ds) /\
    ys = map (fun c => ((LK dv consequence component (loc (fst (fst c))) (dir (fst (fst c))) (uid (fst (fst c))), ds),
                        loss_column s rvs (probabilistic rvs dv component) dv n c med))
             (columns_of dmg component ds).
Proof.
  intros Hl. unfold ds_losses in Hl. destruct (dget component (loss_map s)) as [consequence|]; [|discriminate Hl].
  exists consequence. split; [reflexivity|]. cbv zeta in Hl. destruct (columns_of dmg component ds) as [|c0 cols] eqn:Ec; [discriminate Hl|].
  split. { exists c0. apply columns_of_In. rewrite Ec. now left. }
  destruct (probabilistic rvs dv component) eqn:Ep; cbn [andb] in Hl.
  - destruct (existsb _ rvs) eqn:Ex; [|discriminate Hl]. cbn [negb] in Hl. split; [|congruence]. intros _.
    apply existsb_exists in Ex as (r & Hr & Hb). rewrite !andb_true_iff, !String.eqb_eq in Hb. exists r. tauto.
  - split; [easy|congruence].
Qed.

Lemma calculate_inv n e s dmg t : calculate_ds n e s dmg = Ok (Some t) ->
  exists rvs, create_rvs s dmg = Ok rvs /\
  (forall dv, In dv (dvs s) -> exists m, medians_of e s (eco_quantities n e dmg) dv = Ok m /\
     forall item, In item m -> exists ys, ds_losses n s dmg rvs dv item = Ok ys /\ forall x, In x ys -> In x t) /\
  (forall x, In x t -> exists dv m item ys, In dv (dvs s) /\ medians_of e s (eco_quantities n e dmg) dv = Ok m /\
     In item m /\ ds_losses n s dmg rvs dv item = Ok ys /\ In x ys) /\
  (NoDup (dvs s) -> (forall dv m, medians_of e s (eco_quantities n e dmg) dv = Ok m -> NoDup (map fst m)) ->
   NoDup (map fst dmg) -> NoDup (map fst t)).
Proof.
  unfold calculate_ds. intros H. destruct (all_undamaged dmg); [discriminate H|]. cbv zeta in H. binv H meds. binv H rvs. binv H l.
  assert (El : List.concat l = t).
  { destruct (List.concat l); [discriminate H|]. assert (X : forall a b : ds_table, Ok (Some a) = Ok (Some b) -> a = b) by congruence. now apply X in H. }
  subst t. clear H. exists rvs. split; [reflexivity|].
  assert (Hmeds : forall dv, In dv (dvs s) -> exists m, medians_of e s (eco_quantities n e dmg) dv = Ok m /\ In (dv, m) meds).
  { intros dv Hdv. destruct (@mapM_inv _ _ _ _ _ _ E Hdv) as (y & Ey & Hy). binv Ey m. exists m. split; [reflexivity|].
    assert (y = (dv, m)) as -> by congruence. exact Hy. }
  assert (Hmeds' : forall dm, In dm meds -> In (fst dm) (dvs s) /\ medians_of e s (eco_quantities n e dmg) (fst dm) = Ok (snd dm)).
  { intros dm Hdm. destruct (@mapM_inv_r _ _ _ _ _ _ E Hdm) as (dv & Ey & Hy). binv Ey m. assert (dm = (dv, m)) as -> by congruence. now split. }
  split; [|split].
  - intros dv Hdv. destruct (Hmeds dv Hdv) as (m & Em & Hm). exists m. split; [assumption|]. intros item Hitem.
    destruct (@mapM_inv _ _ _ _ _ _ E1 Hm) as (ys & Ey & Hys). cbn [fst snd] in Ey. binv Ey k.
    destruct (@mapM_inv _ _ _ _ _ _ E2 Hitem) as (y & Ey' & Hy). exists y. split; [assumption|]. intros x Hx.
    apply in_concat. exists ys. split; [assumption|]. assert (ys = List.concat k) as -> by congruence. apply in_concat. now exists y.
  - intros x Hx. apply (mapM_concat_In _ _ _ _ E1) in Hx as ([dv m] & ys & Hdm & Ey & Hx). cbn [fst snd] in Ey. binv Ey k.
    assert (ys = List.concat k) as -> by congruence. apply (mapM_concat_In _ _ _ _ E2) in Hx as (item & ys & Hitem & Ey' & Hx).
    destruct (Hmeds' _ Hdm) as [H1 H2]. exists dv, m, item, ys. now repeat split.
  - intros Hdvs Hm Hdmg.
    assert (Hn : NoDup (map fst meds)).
    { assert (Ef : map fst meds = dvs s); [|now rewrite Ef]. apply mapM_Forall2 in E. clear -E. induction E as [|a b l l' H _ IH]; [easy|].
      cbn [map]. rewrite IH. binv H m. assert (b = (a, m)) as -> by congruence. reflexivity. }
    assert (Hd : forall dv item ys y, ds_losses n s dmg rvs dv item = Ok ys -> In y ys ->
               k_dv (fst (fst y)) = dv /\ (k_dmg (fst (fst y)), snd (fst y)) = fst item).
    { intros dv [[component ds] med] ys y Hl Hy. apply ds_losses_inv in Hl as (consequence & _ & _ & _ & ->).
      apply in_map_iff in Hy as (c & <- & Hc). now split. }
    assert (Hn2 : forall dv item ys, ds_losses n s dmg rvs dv item = Ok ys -> NoDup (map fst ys)).
    { intros dv [[component ds] med] ys Hl. apply ds_losses_inv in Hl as (consequence & _ & _ & _ & ->).
      rewrite map_map. cbn [fst]. revert Hdmg. unfold columns_of. clear. induction dmg as [|c l IH]; intros Hn; [constructor|].
      cbn [map filter] in *. inversion Hn as [|? ? Hx Hn']; subst.
      match goal with |- context [if ?b then _ else _] => destruct b eqn:Ec end; [|now apply IH]. cbn [map].
      constructor; [|now apply IH]. intros Hin. apply in_map_iff in Hin as (c' & Ek & Hc'). apply filter_In in Hc' as [Hc' Ec'].
      apply is_cs in Ec, Ec'. apply Hx. apply in_map_iff. exists c'. split; [|assumption].
      destruct c as [[[] ?] ?], c' as [[[] ?] ?]. cbn in *. destruct Ec, Ec'. congruence. }
    apply (@mapM_concat_NoDup _ _ _ string _ fst (fun k => k_dv (fst k)) fst _ _ E1 Hn).
    + intros [dv m] ys Hdm Ey. cbn [fst snd] in Ey. binv Ey k. assert (ys = List.concat k) as -> by congruence.
      destruct (Hmeds' _ Hdm) as [H1 H2]. cbn [fst snd] in *.
      apply (@mapM_concat_NoDup _ _ _ (string * string) _ fst (fun k => (k_dmg (fst k), snd k)) fst _ _ E2).
      * now apply Hm with dv.
      * intros item ys Hitem Ei. now apply (Hn2 dv item).
      * intros item ys y Hitem Ei Hy. now apply (Hd dv item ys y).
    + intros [dv m] ys y Hdm Ey Hy. cbn [fst snd] in Ey. binv Ey k. assert (ys = List.concat k) as -> by congruence.
      apply (mapM_concat_In _ _ _ _ E2) in Hy as (item & ys & Hitem & Ey' & Hy). now apply (Hd dv item ys y).
Qed.

Lemma medians_NoDup n e s dmg dv m : unique_labels s dmg -> medians_of e s (eco_quantities n e dmg) dv = Ok m -> NoDup (map fst m).
Proof.
  intros (_ & Hn & _ & Hu) H. unfold medians_of in H. binv H l.
  assert (Em : m = List.concat l) by (destruct (List.concat l); [congruence|destruct (across_floors e); congruence]). subst m. clear H.
  apply (@mapM_concat_NoDup _ _ _ string _ fst fst fst _ _ E Hn).
  - intros [component consequence] ys Hc Ey. cbn [fst snd] in Ey. binv Ey d.
    assert (ys = map (fun d => ((component, fst d), snd d)) d) as -> by congruence. clear Ey.
    rewrite map_map. cbn [fst]. assert (Hnd : NoDup (map fst d)).
    { unfold cmp_medians in E0. destruct (is_missing s consequence dv); [assert (d = []) as -> by congruence; constructor|].
      destruct (negb _); [assert (d = []) as -> by congruence; constructor|].
      destruct (params s) as [lp|] eqn:Ep; [|discriminate E0]. binv E0 k. assert (d = List.concat k) as -> by congruence.
      destruct (Hu _ eq_refl) as (Hs & _). apply (@mapM_concat_NoDup _ _ _ string _ fst (fun x => x) (fun x => x) _ _ E1).
      - now rewrite map_id.
      - intros ds ys Hds Ey. destruct (String.eqb ds "0"); [assert (ys = []) as -> by congruence; constructor|].
        destruct (aget pair_eqb (consequence, dv) (lp_rows lp)); [|discriminate Ey]. binv Ey mm.
        destruct mm; [assert (ys = [(ds, l0)]) as -> by congruence|assert (ys = []) as -> by congruence]; repeat constructor. easy.
      - intros ds ys y Hds Ey Hy. destruct (String.eqb ds "0"); [assert (Ec : ys = []) by congruence; now rewrite Ec in Hy|].
        destruct (aget pair_eqb (consequence, dv) (lp_rows lp)); [|discriminate Ey]. binv Ey mm.
        destruct mm; [assert (Ec : ys = [(ds, l0)]) by congruence|assert (Ec : ys = []) by congruence]; rewrite Ec in Hy; [|easy].
        destruct Hy as [<-|[]]. reflexivity. }
    clear -Hnd. induction d as [|x d IH]; [constructor|]. cbn [map] in *. inversion Hnd as [|? ? Hx Hd]; subst. constructor; [|now apply IH].
    intros Hin. apply Hx. apply in_map_iff in Hin as (y & Ey & Hy). apply in_map_iff. exists y. split; [congruence|assumption].
  - intros [component consequence] ys y Hc Ey Hy. cbn [fst snd] in Ey. binv Ey d.
    assert (Ec : ys = map (fun d => ((component, fst d), snd d)) d) by congruence. rewrite Ec in Hy.
    apply in_map_iff in Hy as (z & <- & _). reflexivity.
Qed.

Lemma medians_supported n e s dmg dv m component consequence k q lp ds row th :
  medians_of e s (eco_quantities n e dmg) dv = Ok m -> In (component, consequence) (loss_map s) -> ~ In (consequence, dv) (missing s) ->
  In (k, q) dmg -> cmp (fst k) = component -> params s = Some lp -> In ds (lp_states lp) -> ds <> "0" ->
  aget pair_eqb (consequence, dv) (lp_rows lp) = Some row -> p_theta0 (row_params row ds) = Some th ->
  supported_family (p_family (row_params row ds)) = true.
Proof.
  intros H Hc Hm Hk Hcmp Ep Hds H0 Er Et. unfold medians_of in H. binv H l. clear H.
  destruct (@mapM_inv _ _ _ _ _ _ E Hc) as (ys & Ey & _). cbn [fst snd] in Ey. binv Ey d. clear Ey. unfold cmp_medians in E0.
  apply is_missing_false in Hm. rewrite Hm in E0.
  assert (Hex : existsb (fun c : list string * list num => String.eqb (hd "" (fst c)) component) (eco_quantities n e dmg) = true).
  { apply existsb_exists. destruct (aget label_eqb (eco_label e k) (eco_quantities n e dmg)) as [v|] eqn:Ea.
    - exists (eco_label e k, v). split; [now apply (aget_In label_eqb label_eqb_eq)|]. cbn. rewrite Hcmp. apply String.eqb_refl.
    - exfalso. rewrite eco_aget in Ea. match type of Ea with (if ?b then _ else _) = _ => destruct b eqn:Eb end; [discriminate Ea|].
      assert (Hf : forall c, In c dmg -> label_eqb (eco_label e k) (eco_label e (fst c)) = false).
      { intros c Hcc. destruct (label_eqb (eco_label e k) (eco_label e (fst c))) eqn:El; [|easy].
        assert (Hx : existsb (fun c : qkey * list num => label_eqb (eco_label e k) (eco_label e (fst c))) dmg = true) by (apply existsb_exists; now exists c).
        unfold qkey in *. congruence. }
      specialize (Hf _ Hk). cbn [fst] in Hf. assert (label_eqb (eco_label e k) (eco_label e k) = true) by now apply label_eqb_eq. congruence. }
  rewrite Hex in E0. cbn [negb] in E0. rewrite Ep in E0. binv E0 l0. destruct (@mapM_inv _ _ _ _ _ _ E1 Hds) as (ys' & Ey & _).
  destruct (String.eqb_spec ds "0") as [Ez|_]; [now apply H0 in Ez|]. rewrite Er in Ey. binv Ey mm. unfold ds_median in E2. rewrite Et in E2.
  destruct (supported_family (p_family (row_params row ds))); [reflexivity|discriminate E2].
Qed.

Lemma eco_available n e dmg k q : across_floors e = true -> In (k, q) dmg ->
  aget label_eqb (lab_of e (cmp (fst k)) (snd k)) (eco_quantities n e dmg) =
  Some (sum_columns n (map snd (filter (fun c => label_eqb (lab_of e (cmp (fst k)) (snd k)) (eco_label e (fst c))) dmg))).
Proof.
  intros He Hk. rewrite eco_aget. match goal with |- (if ?b then _ else _) = _ => destruct b eqn:Eb end; [reflexivity|].
  exfalso. assert (Hx : existsb (fun c : qkey * list num => label_eqb (lab_of e (cmp (fst k)) (snd k)) (eco_label e (fst c))) dmg = true).
  { apply existsb_exists. exists (k, q). split; [assumption|]. apply label_eqb_eq. symmetry. now apply eco_label_floors. }
  unfold qkey in *. congruence.
Qed.

(** Which losses are calculated. *)
Lemma losses_labels n e s dmg t : across_floors e = true -> unique_labels s dmg -> calculate_ds n e s dmg = Ok (Some t) ->
  (forall label, In label (map fst t) <->
     exists dv consequence k p, label = loss_label dv consequence k /\ calculated s dmg dv consequence k p) /\
  NoDup (map fst t).
Proof.
  intros He Hu H. destruct (calculate_inv _ _ _ _ _ H) as (rvs & Hrvs & H1 & H2 & H3). split.
  - intros label. split.
    + intros Hl. apply in_map_iff in Hl as ([lab vs] & <- & Hx). cbn [fst].
      destruct (H2 _ Hx) as (dv & m & [[component ds] med] & ys & Hdv & Hm & Hitem & Hys & Hy).
      apply (medians_In n e s dmg dv m component ds med He Hm) in Hitem as
        (consequence & lp & row & th & q & Hc & Hmi & Ep & Hds & H0 & Er & Et & Ef & Eq & ->).
      apply ds_losses_inv in Hys as (consequence' & Hc' & _ & _ & ->).
      assert (consequence' = consequence) as -> by (apply dget_In in Hc'; now apply (loss_map_fun s dmg component)).
      apply in_map_iff in Hy as ([k qk] & Ek & Hk). apply columns_of_In in Hk as (Hk & Hcmp & Hsd). cbn [fst] in *.
      exists dv, consequence, k, (row_params row ds). split.
      * unfold loss_label. rewrite Hcmp, Hsd. congruence.
      * unfold calculated. rewrite Hcmp, Hsd. repeat split; try assumption.
        -- apply in_map_iff. now exists (k, qk).
        -- apply (has_params_iff s dmg) ; [assumption|]. exists lp, row. repeat split; try assumption.
           apply dget_row_params; [congruence|reflexivity].
        -- congruence.
    + intros (dv & consequence & k & p & -> & Hk & H0 & Hdv & Hc & Hmi & Hp & Ht).
      apply in_map_iff in Hk as ([k' q] & Ek & Hk). cbn in Ek. subst k'.
      apply (has_params_iff s dmg) in Hp as (lp & row & Ep & Hds & Er & Ed); [|assumption].
      assert (Erp : row_params row (snd k) = p) by now apply dget_row_params.
      destruct (p_theta0 p) as [th|] eqn:Et; [|easy].
      destruct (H1 dv Hdv) as (m & Hm & Hitems).
      assert (Et' : p_theta0 (row_params row (snd k)) = Some th) by congruence.
      pose proof (medians_supported _ _ _ _ _ _ _ _ _ _ _ _ _ _ Hm Hc Hmi Hk eq_refl Ep Hds H0 Er Et') as Hf.
      assert (Hitem : In ((cmp (fst k), snd k), map (f_median th (p_family (row_params row (snd k))))
          (sum_columns n (map snd (filter (fun c => label_eqb (lab_of e (cmp (fst k)) (snd k)) (eco_label e (fst c))) dmg)))) m).
      { apply (medians_In n e s dmg dv m _ _ _ He Hm). exists consequence, lp, row, th. eexists. repeat split; try eassumption.
        now apply eco_available with q. }
      destruct (Hitems _ Hitem) as (ys & Hys & Hin). apply ds_losses_inv in Hys as (consequence' & Hc' & _ & _ & ->).
      assert (consequence' = consequence) as -> by (apply dget_In in Hc'; now apply (loss_map_fun s dmg (cmp (fst k)))).
      assert (Hcol : In (k, q) (columns_of dmg (cmp (fst k)) (snd k))) by now apply columns_of_In.
      apply in_map_iff. eexists. split; [|apply Hin; apply in_map; exact Hcol]. reflexivity.
  - apply H3; [apply Hu| |apply Hu]. intros dv m Hm. now apply (medians_NoDup n e s dmg dv).
Qed.

(** The values. *)
Lemma losses_values n e s dmg t dv consequence k p q vs : across_floors e = true -> unique_labels s dmg -> tables_ok s ->
  calculate_ds n e s dmg = Ok (Some t) -> calculated s dmg dv consequence k p -> In (k, q) dmg -> In (loss_label dv consequence k, vs) t ->
  List.length vs = n /\ forall i, (i < n)%nat -> loss_of s (pool_of e k) dmg dv k p i (nth i q None) (nth i vs None).
Proof.
  intros He Hu Htab H Hcalc Hk Hx. destruct (calculate_inv _ _ _ _ _ H) as (rvs & Hrvs & H1 & H2 & H3).
  destruct (H2 _ Hx) as (dv' & m & [[component ds] med] & ys & Hdv & Hm & Hitem & Hys & Hy).
  apply (medians_In n e s dmg dv' m component ds med He Hm) in Hitem as
    (consequence' & lp & row & th & aq & Hc & Hmi & Ep & Hds & H0 & Er & Et & Ef & Eq & ->).
  apply ds_losses_inv in Hys as (consequence'' & Hc' & _ & Hprob & ->).
  assert (consequence'' = consequence') as -> by (apply dget_In in Hc'; now apply (loss_map_fun s dmg component)).
  apply in_map_iff in Hy as ([k' qk] & Ek & Hk'). apply columns_of_In in Hk' as (Hk' & Hcmp & Hsd). cbn [fst] in *.
  unfold loss_label in Ek.
  assert (Ev : vs = loss_column s rvs (probabilistic rvs dv' component) dv' n (k', qk) (map (f_median th (p_family (row_params row ds))) aq)) by congruence.
  assert (E1 : dv' = dv) by congruence. assert (E2 : consequence' = consequence) by congruence. assert (E3 : component = cmp (fst k)) by congruence.
  assert (E4 : ds = snd k) by congruence. assert (Ekk : k' = k).
  { destruct k' as [[] ?], k as [[] ?]. cbn in *. congruence. }
  clear Ek. subst dv' consequence' component ds k'.
  assert (qk = q) as ->.
  { destruct Hu as (Hn & _). apply (In_aget qkey_eqb qkey_eqb_iff) in Hk, Hk'; try assumption. congruence. }
  destruct Hcalc as (_ & _ & _ & _ & _ & Hp & Ht).
  pose proof Hp as Hp0. apply (has_params_iff s dmg) in Hp as (lp' & row' & Ep' & Hds' & Er' & Ed); [|assumption].
  assert (lp' = lp) as -> by congruence. assert (row' = row) as -> by congruence.
  assert (Erp : row_params row (snd k) = p) by now apply dget_row_params. rewrite Erp in *.
  (* the deviation *)
  assert (Hz : forall i, (if probabilistic rvs dv (cmp (fst k))
                then (if existsb (fun r => String.eqb (rv_dv r) dv && qkey_eqb (rv_key r) k) rvs then Some (draws s dv k i) else None)
                else Some 1%Qc) = Some (match p_family p with Some _ => draws s dv k i | None => 1%Qc end)).
  { intros i. destruct (p_family p) as [f|] eqn:Efam.
    - assert (Hr : In (RV dv k f (rv_thetas p)) rvs).
      { apply (create_rvs_In _ _ _ _ Hrvs). cbn [rv_key rv_dv]. exists consequence, lp, row, f, q. rewrite Erp. repeat split; assumption. }
      assert (Hpr : probabilistic rvs dv (cmp (fst k)) = true).
      { unfold probabilistic. apply existsb_exists. eexists. split; [exact Hr|]. cbn. now rewrite !String.eqb_refl. }
      rewrite Hpr. assert (Hex : existsb (fun r => String.eqb (rv_dv r) dv && qkey_eqb (rv_key r) k) rvs = true).
      { apply existsb_exists. eexists. split; [exact Hr|]. cbn [rv_dv rv_key]. rewrite String.eqb_refl. now apply qkey_eqb_iff. }
      now rewrite Hex.
    - destruct (probabilistic rvs dv (cmp (fst k))) eqn:Epr; [|reflexivity]. exfalso.
      destruct (Hprob eq_refl) as (r & Hr & Hrd & Hrc & Hrs). apply (create_rvs_In _ _ _ _ Hrvs) in Hr as
        (c2 & lp2 & row2 & f2 & q2 & A1 & A2 & A3 & A4 & A5 & A6 & A7 & A8 & A9). rewrite Hrd, Hrc, Hrs in *.
      assert (c2 = consequence) as -> by now apply (loss_map_fun s dmg (cmp (fst k))).
      assert (lp2 = lp) as -> by congruence. assert (row2 = row) as -> by congruence. rewrite Erp in A8. congruence. }
  unfold loss_column in Ev. cbn [fst snd] in Ev. subst vs. split; [now rewrite map_length, seq_length|]. intros i Hi.
  rewrite nth_map_seq by assumption. rewrite Hz. unfold loss_of, loss_value. destruct (nth i q None) as [x|] eqn:Ex; [|reflexivity].
  rewrite (eco_available n e dmg k q He Hk) in Eq. assert (Eaq : forall a b : list num, Some a = Some b -> b = a) by congruence. apply Eaq in Eq.
  assert (Emed : nth i (map (f_median th (p_family p)) aq) None = f_median th (p_family p) (Some (pooled (pool_of e k) dmg i))).
  { pose proof (pooled_value n e dmg k q i x He Hk Hi Ex) as Hpv.
    assert (Hpv' : nth i aq None = Some (pooled (pool_of e k) dmg i)) by (rewrite Eq; exact Hpv). clear Hpv. rewrite <- Hpv'.
    assert (Hlen : List.length aq = n) by (rewrite Eq; unfold sum_columns; now rewrite map_length, seq_length).
    rewrite nth_indep with (d' := f_median th (p_family p) None) by (now rewrite map_length, Hlen). apply map_nth. }
  rewrite Emed. destruct th as [t0|ys xs]; cbn [f_median]; destruct (p_family p) as [f|] eqn:Efam; cbn [nmul nfill0].
  - exists (draws s dv k i). split; [now apply unit_random with t0 f|]. f_equal. ring.
  - exists t0. split; [now apply unit_constant|]. f_equal. ring.
  - exists (bounded_multilinear ys xs (pooled (pool_of e k) dmg i) * draws s dv k i)%Qc. split; [|f_equal; ring].
    apply unit_table_random with ys xs f; try assumption. apply bounded_multilinear_curve. now apply (Htab consequence dv (snd k) p).
  - exists (bounded_multilinear ys xs (pooled (pool_of e k) dmg i)). split; [|f_equal; ring].
    apply unit_table with ys xs; try assumption. apply bounded_multilinear_curve. now apply (Htab consequence dv (snd k) p).
Qed.

Lemma losses_floors n states s dmg t : calculate_ds n (Eco false states) s dmg <> Ok (Some t).
Proof.
  intros H. assert (Ht : exists x, In x t).
  { unfold calculate_ds in H. destruct (all_undamaged dmg); [discriminate H|]. cbv zeta in H. binv H meds. binv H rvs. binv H l.
    destruct (List.concat l) as [|x r]; [discriminate H|]. assert (X : forall a b : ds_table, Ok (Some a) = Ok (Some b) -> b = a) by congruence.
    apply X in H. subst t. exists x. now left. }
  destruct Ht as (x & Hx). destruct (calculate_inv _ _ _ _ _ H) as (rvs & Hrvs & H1 & H2 & H3).
  destruct (H2 _ Hx) as (dv & m & item & ys & Hdv & Hm & Hitem & _). unfold medians_of in Hm. binv Hm l.
  destruct (List.concat l); [assert (Em : m = []) by congruence; now rewrite Em in Hitem|discriminate Hm].
Qed.

Lemma unique_single {l : list string} d : unique String.eqb l = [d] <-> l <> [] /\ forall x, In x l -> x = d.
Proof.
  pose proof (fun x => unique_In String.eqb String.eqb_eq l x) as Hin. pose proof (unique_NoDup String.eqb String.eqb_eq l) as Hn. split.
  - intros E. rewrite E in *. split.
    + intros ->. now cbn in E.
    + intros x Hx. apply Hin in Hx as [->|[]]. reflexivity.
  - intros [Hne Hall]. destruct (unique String.eqb l) as [|a u] eqn:Eu.
    + destruct l as [|b l]; [easy|]. destruct (proj2 (Hin b) (or_introl eq_refl)).
    + assert (a = d) as -> by (apply Hall, Hin; now left). f_equal. destruct u as [|b u]; [reflexivity|].
      assert (b = d) as -> by (apply Hall, Hin; right; now left). inversion Hn as [|? ? Hc]. subst. exfalso. apply Hc. now left.
Qed.

Lemma all_undamaged_iff dmg : all_undamaged dmg = true <-> dmg <> [] /\ forall k, In k (map fst dmg) -> snd k = "0".
Proof.
  set (l := map (fun c : qkey * list num => snd (fst c)) dmg).
  assert (Hl : all_undamaged dmg = match unique String.eqb l with [d] => String.eqb d "0" | _ => false end) by reflexivity.
  rewrite Hl. clear Hl.
  assert (Hin : (forall x, In x l -> x = "0") <-> forall k, In k (map fst dmg) -> snd k = "0").
  { unfold l. split.
    - intros H k Hk. apply in_map_iff in Hk as (c & <- & Hc). apply H. apply in_map_iff. now exists c.
    - intros H x Hx. apply in_map_iff in Hx as (c & <- & Hc). apply H. apply in_map_iff. now exists c. }
  assert (Hne : l <> [] <-> dmg <> []) by (unfold l; destruct dmg; [easy|split; discriminate]).
  rewrite <- Hin, <- Hne. rewrite <- unique_single. split.
  - destruct (unique String.eqb l) as [|d [|]]; [discriminate| |discriminate]. intros H. apply String.eqb_eq in H. now subst.
  - now intros ->.
Qed.

Lemma losses_none n e s dmg : calculate_ds n e s dmg = Ok None <-> dmg <> [] /\ forall k, In k (map fst dmg) -> snd k = "0".
Proof.
  rewrite <- all_undamaged_iff. unfold calculate_ds. destruct (all_undamaged dmg); [easy|]. split; [|easy].
  intros H. cbv zeta in H. binv H meds. binv H rvs. binv H l. destruct (List.concat l); discriminate H.
Qed.

(** Non-negative inputs give non-negative losses. *)
Lemma on_curve_nonneg ys xs q v : well_formed_table ys xs -> Forall (fun y => 0 <= y)%Qc ys -> on_curve ys xs q v -> (0 <= v)%Qc.
Proof.
  intros Hw Hy Hv. assert (E : v = bounded_multilinear ys xs q) by (apply (on_curve_fun ys xs q); [assumption|assumption|now apply bounded_multilinear_curve]).
  destruct (bounded_multilinear_bounded ys xs q Hw) as (lo & hi & Hlo & _ & H1 & _). rewrite <- E in H1. rewrite Forall_forall in Hy.
  apply Qcle_trans with lo; [now apply Hy|assumption].
Qed.

(** ** Acceptance *)

Lemma distinct_labels_NoDup l : NoDup l -> distinct_labels l = true.
Proof.
  induction 1 as [|a l Ha Hn IH]; [reflexivity|]. cbn. rewrite IH, andb_true_r. apply negb_true_iff.
  destruct (existsb (label_eqb a) l) eqn:E; [|reflexivity]. apply (existsb_eqb_In label_eqb label_eqb_eq) in E. easy.
Qed.

Lemma ok_get {A} (r : result A) : is_ok r = true -> exists x, r = Ok x.
Proof. destruct r; [eauto|discriminate]. Qed.

Lemma rv_thetas_nonempty p : p_theta0 p <> None -> rv_thetas p <> [].
Proof. unfold rv_thetas. destruct (p_theta0 p) as [[]|]; [discriminate|discriminate|easy]. Qed.

Lemma has_char_parts r s dmg q : dash_free s dmg -> In (rv_dv r) (dvs s) -> In (rv_key r, q) dmg -> splits_cleanly r = true.
Proof.
  intros [H1 H2] Hd Hk. rewrite Forall_forall in H1, H2. specialize (H1 _ Hd). specialize (H2 (rv_key r)).
  assert (Hin : In (rv_key r) (map fst dmg)) by (apply in_map_iff; now exists (rv_key r, q)). specialize (H2 Hin).
  unfold splits_cleanly, rv_parts. cbn [existsb]. rewrite H1.
  repeat match goal with H : Forall _ (_ :: _) |- _ => inversion H; subst; clear H end.
  repeat match goal with H : has_char _ _ = false |- _ => rewrite H; clear H end. reflexivity.
Qed.

Lemma accepted_row s dmg lp consequence dv row : unique_labels s dmg -> params s = Some lp ->
  In ((consequence, dv), row) (lp_rows lp) -> aget pair_eqb (consequence, dv) (lp_rows lp) = Some row /\
  forall ds, (exists p, dget ds row = Some p /\ row_params row ds = p /\ In (ds, p) row) \/ row_params row ds = DSP None None None None.
Proof.
  intros (_ & _ & _ & Hu) Ep Hr. destruct (Hu _ Ep) as (_ & Hn & Hrow). split; [now apply (In_aget pair_eqb pair_eqb_eq)|].
  intros ds. unfold row_params. destruct (dget ds row) as [p|] eqn:E; [left|now right]. exists p. repeat split. now apply dget_In.
Qed.

Lemma losses_accepted n s dmg : unique_labels s dmg -> complete_params s dmg -> dash_free s dmg ->
  (exists dv consequence k p, calculated s dmg dv consequence k p) ->
  exists t, calculate_ds n (Eco true false) s dmg = Ok (Some t).
Proof.
  intros Hu (lp & Ep & Hcomp) Hdash Hex. set (e := Eco true false). assert (He : across_floors e = true) by reflexivity.
  unfold calculate_ds. assert (Hd0 : all_undamaged dmg = false).
  { destruct (all_undamaged dmg) eqn:E; [|reflexivity]. apply all_undamaged_iff in E as [_ E]. destruct Hex as (dv & c & k & p & Hk & H0 & _).
    exfalso. apply H0. now apply E. }
  rewrite Hd0. cbv zeta.
  (* medians *)
  assert (Hmed : forall dv, In dv (dvs s) -> exists m, medians_of e s (eco_quantities n e dmg) dv = Ok m).
  { intros dv Hdv. unfold medians_of.
    assert (Hl : exists l, mapM (fun c => let* m := cmp_medians e s (eco_quantities n e dmg) dv (fst c) (snd c) in
                           Ok (map (fun d => ((fst c, fst d), snd d)) m)) (loss_map s) = Ok l).
    { apply ok_get, mapM_is_ok. intros [component consequence] Hc. cbn [fst snd].
      enough (Hm : exists m, cmp_medians e s (eco_quantities n e dmg) dv component consequence = Ok m) by (destruct Hm as (m & ->); reflexivity).
      unfold cmp_medians. destruct (is_missing s consequence dv) eqn:Em; [eauto|].
      destruct (negb _) eqn:En; [eauto|]. rewrite Ep. apply negb_false_iff, existsb_exists in En as ([lab v] & Hin & Hhd).
      apply String.eqb_eq in Hhd. cbn [fst] in Hhd.
      assert (Hk : exists k, In k (map fst dmg) /\ cmp (fst k) = component).
      { assert (Hlab : In lab (map fst (eco_quantities n e dmg))) by (apply in_map_iff; now exists (lab, v)).
        destruct (aget label_eqb lab (eco_quantities n e dmg)) as [v'|] eqn:Ea; [|now apply (aget_None label_eqb label_eqb_eq) in Ea].
        rewrite eco_aget in Ea. match type of Ea with (if ?b then _ else _) = _ => destruct b eqn:Eb end; [|discriminate Ea].
        apply existsb_exists in Eb as (c & Hcc & Ec). apply label_eqb_eq in Ec. exists (fst c). split; [apply in_map_iff; now exists c|]. subst lab.
        rewrite <- Hhd. reflexivity. }
      destruct Hk as (k & Hk & Hkc). clear Hhd. subst component. apply is_missing_false in Em.
      destruct (Hcomp consequence dv k Hc Hdv Em Hk) as (row & Hr & Hf & Hs). destruct (accepted_row s dmg lp consequence dv row Hu Ep Hr) as [Er Hds].
      assert (Hm : exists l, mapM (fun ds => if String.eqb ds "0" then Ok [] else match aget pair_eqb (consequence, dv) (lp_rows lp) with
           | None => Err KeyError | Some row => let* m := ds_median e (eco_quantities n e dmg) (cmp (fst k)) ds row in
             Ok match m with Some v => [(ds, v)] | None => [] end end) (lp_states lp) = Ok l).
      { apply ok_get, mapM_is_ok. intros ds _. destruct (String.eqb ds "0"); [reflexivity|]. rewrite Er. unfold ds_median.
        destruct (p_theta0 (row_params row ds)) as [th|] eqn:Et; [|reflexivity].
        assert (Hsf : supported_family (p_family (row_params row ds)) = true).
        { destruct (Hds ds) as [(p & _ & E & Hin')|E]; rewrite E; [|reflexivity]. destruct (Hf _ _ Hin') as [[->| [(-> & _)| (-> & _)]] _]; reflexivity. }
        rewrite Hsf. cbn [negb]. rewrite He. destruct (aget label_eqb _ (eco_quantities n e dmg)); reflexivity. }
      destruct Hm as (l & ->). cbn [bind]. eauto. }
    destruct Hl as (l & ->). cbn [bind]. rewrite He. destruct (List.concat l); eauto. }
  assert (Hmeds : exists meds, mapM (fun dv => let* m := medians_of e s (eco_quantities n e dmg) dv in Ok (dv, m)) (dvs s) = Ok meds).
  { apply ok_get, mapM_is_ok. intros dv Hdv. destruct (Hmed dv Hdv) as (m & ->). reflexivity. }
  destruct Hmeds as (meds & Emeds). rewrite Emeds. cbn [bind].
  (* random variables *)
  assert (Hrv : exists rvs, create_rvs s dmg = Ok rvs).
  { unfold create_rvs.
    assert (Hdsr : forall consequence dv k row ds, In (cmp (fst k), consequence) (loss_map s) -> In dv (dvs s) ->
              ~ In (consequence, dv) (missing s) -> In k (map fst dmg) -> aget pair_eqb (consequence, dv) (lp_rows lp) = Some row ->
              is_ok (ds_rvs dmg dv (cmp (fst k)) ds (row_params row ds)) = true).
    { intros consequence dv k row ds Hc Hdv Em Hk Er. destruct (Hcomp consequence dv k Hc Hdv Em Hk) as (row' & Hr & Hf & Hs).
      destruct (accepted_row s dmg lp consequence dv row' Hu Ep Hr) as [Er' Hds]. assert (row' = row) as -> by congruence.
      unfold ds_rvs. destruct (String.eqb ds "0"); [reflexivity|]. destruct (Hds ds) as [(p & _ & E & Hin')|E]; rewrite E; [|reflexivity].
      destruct (Hf _ _ Hin') as [Hfam Hth]. destruct (p_family p) as [f|] eqn:Efam; [|reflexivity].
      assert (H0 : p_theta0 p <> None) by (intros E0; now apply Hth in E0).
      pose proof (make_rv_usable p f Hfam Efam H0) as Hm. pose proof (rv_thetas_nonempty p H0) as Hth'.
      destruct (rv_thetas p); [easy|]. rewrite Hm. reflexivity. }
    assert (Hl : exists l, mapM (fun c => if existsb (fun q => String.eqb (cmp (fst (fst q))) (fst c)) dmg
        then let* k := mapM (cmp_rvs s dmg (fst c) (snd c)) (dvs s) in Ok (List.concat k) else Ok []) (loss_map s) = Ok l).
    { apply ok_get, mapM_is_ok. intros [component consequence] Hc. cbn [fst snd].
      match goal with |- is_ok (if ?b then _ else _) = _ => destruct b eqn:Eb end; [|reflexivity].
      apply existsb_exists in Eb as ([k q] & Hk & Hkc). apply String.eqb_eq in Hkc. cbn [fst] in Hkc. subst component.
      enough (Hm : exists k', mapM (cmp_rvs s dmg (cmp (fst k)) consequence) (dvs s) = Ok k') by (destruct Hm as (k' & ->); reflexivity).
      apply ok_get, mapM_is_ok. intros dv Hdv. unfold cmp_rvs. destruct (is_missing s consequence dv) eqn:Em; [reflexivity|]. rewrite Ep.
      destruct (aget pair_eqb (consequence, dv) (lp_rows lp)) as [row|] eqn:Er; [|reflexivity].
      enough (Hm : exists k', mapM (fun ds => ds_rvs dmg dv (cmp (fst k)) ds (row_params row ds)) (states_of dmg (cmp (fst k))) = Ok k')
        by (destruct Hm as (k' & ->); reflexivity).
      apply ok_get, mapM_is_ok. intros ds _. apply is_missing_false in Em. apply (Hdsr consequence dv k row ds Hc Hdv Em); [|assumption].
      apply in_map_iff. now exists (k, q). }
    destruct Hl as (l & El). unfold qty_frame, qkey in El |- *. rewrite El. cbn [bind].
    (* all variables come from the tables *)
    assert (Hin : forall r, In r (List.concat l) -> In (rv_dv r) (dvs s) /\ exists q, In (rv_key r, q) dmg).
    { intros r Hr. apply (mapM_concat_In _ _ _ _ El) in Hr as ([component consequence] & ys & Hc & Ey & Hr). cbn [fst snd] in Ey.
      match type of Ey with (if ?b then _ else _) = _ => destruct b end; [|assert (E0 : ys = []) by congruence; now rewrite E0 in Hr].
      binv Ey k. assert (ys = List.concat k) as -> by congruence. apply (mapM_concat_In _ _ _ _ E) in Hr as (dv & ys & Hdv & Ey' & Hr).
      unfold cmp_rvs in Ey'. destruct (is_missing s consequence dv); [assert (E0 : ys = []) by congruence; now rewrite E0 in Hr|].
      rewrite Ep in Ey'. destruct (aget _ _ _) as [row|]; [|assert (E0 : ys = []) by congruence; now rewrite E0 in Hr].
      binv Ey' k'. assert (ys = List.concat k') as -> by congruence. apply (mapM_concat_In _ _ _ _ E0) in Hr as (ds & ys & _ & Ey'' & Hr).
      destruct (ds_rvs_In _ _ _ _ _ _ _ Ey'' Hr) as (f & q & _ & _ & _ & _ & _ & _ & Hq & Eq). split; [now rewrite Eq|now exists q]. }
    assert (Hsp : forallb splits_cleanly (List.concat l) = true).
    { apply forallb_forall. intros r Hr. destruct (Hin r Hr) as [H1 (q & H2)]. now apply (has_char_parts r s dmg q). }
    rewrite Hsp. cbn [negb].
    assert (Hnd : NoDup (map rv_parts (List.concat l))).
    { apply (@mapM_concat_NoDup _ _ _ string _ rv_parts (fun p => nth 1 p "") fst _ _ El).
      - apply Hu.
      - intros [component consequence] ys Hc Ey. cbn [fst snd] in Ey.
        match type of Ey with (if ?b then _ else _) = _ => destruct b end; [|assert (ys = []) as -> by congruence; constructor].
        binv Ey k. assert (ys = List.concat k) as -> by congruence.
        apply (@mapM_concat_NoDup _ _ _ string _ rv_parts (fun p => nth 0 p "") (fun x => x) _ _ E).
        + rewrite map_id. apply Hu.
        + intros dv ys Hdv Ey'. unfold cmp_rvs in Ey'. destruct (is_missing s consequence dv); [assert (ys = []) as -> by congruence; constructor|].
          rewrite Ep in Ey'. destruct (aget _ _ _) as [row|]; [|assert (ys = []) as -> by congruence; constructor].
          binv Ey' k'. assert (ys = List.concat k') as -> by congruence.
          apply (@mapM_concat_NoDup _ _ _ string _ rv_parts (fun p => nth 2 p "") (fun x => x) _ _ E0).
          * rewrite map_id. apply (unique_NoDup String.eqb String.eqb_eq).
          * intros ds ys _ Ey''. unfold ds_rvs in Ey''. destruct (String.eqb ds "0"); [assert (ys = []) as -> by congruence; constructor|].
            destruct (p_family _) as [f|]; [|assert (ys = []) as -> by congruence; constructor].
            destruct (rv_thetas _) as [|t0 ts]; [discriminate Ey''|]. binv Ey'' uu.
            assert (Eys : ys = map (fun c => RV dv (fst c) f (t0 :: ts)) (columns_of dmg component ds)) by congruence. subst ys. rewrite map_map.
            destruct Hu as (Hn & _). revert Hn. unfold columns_of. clear. induction dmg as [|c l IH]; intros Hn; [constructor|].
            cbn [map filter] in *. inversion Hn as [|? ? Hx Hn']; subst.
            match goal with |- context [if ?b then _ else _] => destruct b eqn:Ec end; [|now apply IH]. cbn [map].
            constructor; [|now apply IH]. intros Hin. apply in_map_iff in Hin as (c' & Ek & Hc'). apply filter_In in Hc' as [Hc' _].
            apply Hx. apply in_map_iff. exists c'. split; [|assumption]. unfold rv_parts in Ek. cbn in Ek.
            destruct c as [[[] ?] ?], c' as [[[] ?] ?]. cbn in *. congruence.
          * intros ds ys y _ Ey'' Hy. destruct (ds_rvs_In _ _ _ _ _ _ _ Ey'' Hy) as (f & q & _ & _ & _ & _ & _ & Hs & _). exact Hs.
        + intros dv ys y Hdv Ey' Hy. unfold cmp_rvs in Ey'. destruct (is_missing s consequence dv); [assert (Ec : ys = []) by congruence; now rewrite Ec in Hy|].
          rewrite Ep in Ey'. destruct (aget _ _ _) as [row|]; [|assert (Ec : ys = []) by congruence; now rewrite Ec in Hy].
          binv Ey' k'. assert (ys = List.concat k') as -> by congruence. apply (mapM_concat_In _ _ _ _ E0) in Hy as (ds & ys & _ & Ey'' & Hy).
          destruct (ds_rvs_In _ _ _ _ _ _ _ Ey'' Hy) as (f & q & _ & _ & _ & _ & _ & Hs & _ & Eq). cbn. now rewrite Eq.
      - intros [component consequence] ys y Hc Ey Hy. cbn [fst snd] in Ey.
        match type of Ey with (if ?b then _ else _) = _ => destruct b end; [|assert (Ec : ys = []) by congruence; now rewrite Ec in Hy].
        binv Ey k. assert (ys = List.concat k) as -> by congruence. apply (mapM_concat_In _ _ _ _ E) in Hy as (dv & ys & Hdv & Ey' & Hy).
        unfold cmp_rvs in Ey'. destruct (is_missing s consequence dv); [assert (Ec : ys = []) by congruence; now rewrite Ec in Hy|].
        rewrite Ep in Ey'. destruct (aget _ _ _) as [row|]; [|assert (Ec : ys = []) by congruence; now rewrite Ec in Hy].
        binv Ey' k'. assert (ys = List.concat k') as -> by congruence. apply (mapM_concat_In _ _ _ _ E0) in Hy as (ds & ys & _ & Ey'' & Hy).
        destruct (ds_rvs_In _ _ _ _ _ _ _ Ey'' Hy) as (f & q & _ & _ & _ & _ & Hcc & _). exact Hcc. }
    rewrite (distinct_labels_NoDup _ Hnd). cbn [negb]. eauto. }
  destruct Hrv as (rvs & Ervs). rewrite Ervs. cbn [bind].
  (* losses *)
  assert (Hls : exists l, mapM (fun dm => let* k := mapM (ds_losses n s dmg rvs (fst dm)) (snd dm) in Ok (List.concat k)) meds = Ok l).
  { apply ok_get, mapM_is_ok. intros [dv m] Hdm. cbn [fst snd].
    destruct (@mapM_inv_r _ _ _ _ _ _ Emeds Hdm) as (dv' & Ey & Hdv). binv Ey m'. assert (dv' = dv /\ m' = m) as [-> ->] by (split; congruence). clear Ey.
    enough (Hk : exists k, mapM (ds_losses n s dmg rvs dv) m = Ok k) by (destruct Hk as (k & ->); reflexivity).
    apply ok_get, mapM_is_ok. intros [[component ds] med] Hitem.
    apply (medians_In n e s dmg dv m component ds med He E) in Hitem as
      (consequence & lp' & row & th & q & Hc & Hmi & Ep' & Hds & H0 & Er & Et & Ef & Eq & ->).
    assert (lp' = lp) as -> by congruence. unfold ds_losses. destruct Hu as (Hun & Hun2 & Hun3 & Hun4).
    rewrite (@In_dget _ _ _ _ Hun2 Hc).
    assert (Hcol : exists k qk, In (k, qk) dmg /\ cmp (fst k) = component /\ snd k = ds).
    { rewrite eco_aget in Eq. match type of Eq with (if ?b then _ else _) = _ => destruct b eqn:Eb end; [|discriminate Eq].
      apply existsb_exists in Eb as ([k qk] & Hk & El). apply label_eqb_eq in El. rewrite eco_label_floors in El by assumption.
      cbn in El. exists k, qk. split; [assumption|]. split; congruence. }
    destruct Hcol as (k & qk & Hk & Hkc & Hks).
    destruct (columns_of dmg component ds) as [|c0 cols] eqn:Ecols.
    { assert (Hbad : In (k, qk) (columns_of dmg component ds)) by now apply columns_of_In. now rewrite Ecols in Hbad. }
    cbv zeta. destruct (probabilistic rvs dv component) eqn:Epr; [|reflexivity]. cbn [andb].
    assert (Hkin : In k (map fst dmg)) by (apply in_map_iff; now exists (k, qk)).
    subst component. destruct (Hcomp consequence dv k Hc Hdv Hmi Hkin) as (row' & Hr & Hf & Hs).
    destruct (accepted_row s dmg lp consequence dv row' (conj Hun (conj Hun2 (conj Hun3 Hun4))) Ep Hr) as [Er' Hdss]. assert (row' = row) as -> by congruence.
    assert (Hfam : exists f, p_family (row_params row ds) = Some f).
    { apply existsb_exists in Epr as (r & Hr' & Hb). apply andb_true_iff in Hb as [Hb1 Hb2]. apply String.eqb_eq in Hb1, Hb2.
      apply (create_rvs_In _ _ _ _ Ervs) in Hr' as (c2 & lp2 & row2 & f2 & q2 & A1 & A2 & A3 & A4 & A5 & A6 & A7 & A8 & A9).
      rewrite Hb1, Hb2 in *. assert (c2 = consequence) as ->.
      { apply (loss_map_fun s dmg (cmp (fst k))); [exact (conj Hun (conj Hun2 (conj Hun3 Hun4)))|assumption|assumption]. }
      assert (lp2 = lp) as -> by congruence. assert (row2 = row) as -> by congruence.
      destruct (Hdss (snd (rv_key r))) as [(p2 & _ & Ep2 & Hin2)|Ep2]; rewrite Ep2 in *; [|discriminate A8].
      destruct (Hdss ds) as [(p1 & _ & Ep1 & Hin1)|Ep1]; rewrite Ep1 in *; [|discriminate Et].
      destruct (p_family p1) as [f1|] eqn:Ef1; [eauto|]. exfalso.
      assert (Ht1 : p_theta0 p1 <> None) by congruence.
      assert (Ht2 : p_theta0 p2 <> None) by (intros Hn0; apply (Hf _ _ Hin2) in Hn0; congruence).
      pose proof (Hs _ _ _ _ Hin1 Hin2 Ht1 Ht2 Ef1). congruence. }
    destruct Hfam as (f & Hfam).
    assert (Hrr : In (RV dv k f (rv_thetas (row_params row ds))) rvs).
    { apply (create_rvs_In _ _ _ _ Ervs). cbn [rv_key rv_dv]. exists consequence, lp, row, f, qk. rewrite Hks. repeat split; try assumption. }
    match goal with |- is_ok (if negb ?b then _ else _) = _ => assert (Hex' : b = true) end.
    { apply existsb_exists. eexists. split; [exact Hrr|]. cbn. now rewrite Hks, !String.eqb_refl. }
    rewrite Hex'. reflexivity. }
  destruct Hls as (l & El). rewrite El. cbn [bind].
  destruct (List.concat l) as [|x t] eqn:Et; [|eauto]. exfalso.
  (* some loss is calculated *)
  destruct Hex as (dv & consequence & k & p & Hk & H0 & Hdv & Hc & Hmi & Hp & Ht).
  apply in_map_iff in Hk as ([k' q] & Ek & Hk). cbn in Ek. subst k'.
  apply (has_params_iff s dmg) in Hp as (lp' & row & Ep' & Hds & Er & Ed); [|assumption].
  assert (Erp : row_params row (snd k) = p) by now apply dget_row_params. destruct (p_theta0 p) as [th|] eqn:Eth; [|easy].
  destruct (Hmed dv Hdv) as (m & Hm). assert (Et' : p_theta0 (row_params row (snd k)) = Some th) by congruence.
  pose proof (medians_supported _ _ _ _ _ _ _ _ _ _ _ _ _ _ Hm Hc Hmi Hk eq_refl Ep' Hds H0 Er Et') as Hf.
  assert (Hitem : In ((cmp (fst k), snd k), map (f_median th (p_family (row_params row (snd k))))
      (sum_columns n (map snd (filter (fun c => label_eqb (lab_of e (cmp (fst k)) (snd k)) (eco_label e (fst c))) dmg)))) m).
  { apply (medians_In n e s dmg dv m _ _ _ He Hm). exists consequence, lp', row, th. eexists. repeat split; try eassumption.
    now apply eco_available with q. }
  destruct (@mapM_inv _ _ _ _ _ _ Emeds Hdv) as (dm & Edm & Hdm). rewrite Hm in Edm. cbn [bind] in Edm. assert (dm = (dv, m)) as -> by congruence.
  destruct (@mapM_inv _ _ _ _ _ _ El Hdm) as (ys & Eys & Hys). cbn [fst snd] in Eys. binv Eys kk.
  destruct (@mapM_inv _ _ _ _ _ _ E Hitem) as (y & Ey & Hy). apply ds_losses_inv in Ey as (c' & _ & _ & _ & ->).
  assert (Hcol : In (k, q) (columns_of dmg (cmp (fst k)) (snd k))) by now apply columns_of_In.
  assert (ys = List.concat kk) as -> by congruence.
  assert (Hbad : exists z, In z (List.concat l)).
  { eexists. apply in_concat. eexists. split; [exact Hys|]. apply in_concat. eexists. split; [exact Hy|]. apply in_map. exact Hcol. }
  destruct Hbad as (z & Hz). rewrite Et in Hz. destruct Hz.
Qed.

Lemma create_rvs_family s dmg rvs r : create_rvs s dmg = Ok rvs -> In r rvs -> In (rv_family r) ["normal"; "lognormal"].
Proof.
  intros H Hr. unfold create_rvs in H. binv H l. destruct (forallb splits_cleanly (List.concat l)); [|discriminate H]. cbn [negb] in H.
  destruct (distinct_labels _); [|discriminate H]. cbn [negb] in H. assert (El : List.concat l = rvs) by congruence. subst rvs. clear H.
  apply (mapM_concat_In _ _ _ _ E) in Hr as ([component consequence] & ys & Hc & Ey & Hr). cbn [fst snd] in Ey.
  match type of Ey with (if ?b then _ else _) = _ => destruct b end; [|assert (E0 : ys = []) by congruence; now rewrite E0 in Hr].
  binv Ey k. assert (ys = List.concat k) as -> by congruence. apply (mapM_concat_In _ _ _ _ E0) in Hr as (dv & ys & Hdv & Ey' & Hr).
  unfold cmp_rvs in Ey'. destruct (is_missing s consequence dv); [assert (E1 : ys = []) by congruence; now rewrite E1 in Hr|].
  destruct (params s) as [lp|]; [|discriminate Ey'].
  destruct (aget _ _ _) as [row|]; [|assert (E1 : ys = []) by congruence; now rewrite E1 in Hr].
  binv Ey' k'. assert (ys = List.concat k') as -> by congruence. apply (mapM_concat_In _ _ _ _ E1) in Hr as (ds & ys & _ & Ey'' & Hr).
  destruct (ds_rvs_In _ _ _ _ _ _ _ Ey'' Hr) as (f & q & _ & _ & Hf & _ & _ & _ & Hq & Eq). now rewrite Eq.
Qed.

Lemma create_rvs_distinct s dmg rvs r r' : create_rvs s dmg = Ok rvs -> In r rvs -> In r' rvs -> rv_dv r = rv_dv r' -> rv_key r = rv_key r' -> r = r'.
Proof.
  intros H. assert (Hd : distinct_labels (map rv_parts rvs) = true).
  { unfold create_rvs in H. binv H l. destruct (forallb splits_cleanly (List.concat l)); [|discriminate H]. cbn [negb] in H.
    destruct (distinct_labels (map rv_parts (List.concat l))) eqn:E1; [|discriminate H]. cbn [negb] in H. assert (El : List.concat l = rvs) by congruence. now subst rvs. }
  clear H. intros Hr Hr' E1 E2. assert (Ep : rv_parts r = rv_parts r') by (unfold rv_parts; congruence).
  induction rvs as [|a l IH]; [easy|]. cbn [map distinct_labels] in Hd. apply andb_true_iff in Hd as [Ha Hd]. apply negb_true_iff in Ha.
  assert (Hna : forall b, In b l -> rv_parts b <> rv_parts a).
  { intros b Hb Eb. assert (existsb (label_eqb (rv_parts a)) (map rv_parts l) = true); [|congruence].
    apply (existsb_eqb_In label_eqb label_eqb_eq). apply in_map_iff. now exists b. }
  destruct Hr as [->|Hr], Hr' as [<-|Hr']; [reflexivity| | |now apply IH].
  - exfalso. now apply (Hna r').
  - exfalso. now apply (Hna r).
Qed.

(** The random variable of a calculated loss. *)
Lemma losses_rv s dmg rvs dv consequence k p : unique_labels s dmg -> create_rvs s dmg = Ok rvs ->
  calculated s dmg dv consequence k p -> p_family p <> None ->
  exists r, In r rvs /\ rv_dv r = dv /\ rv_key r = k /\ describes p r /\ In (rv_family r) ["normal"; "lognormal"] /\
            forall r', In r' rvs -> rv_dv r' = dv -> rv_key r' = k -> r' = r.
Proof.
  intros Hu Hrvs (Hk & H0 & Hdv & Hc & Hmi & Hp & Ht) Hf. destruct (p_family p) as [f|] eqn:Ef; [|easy].
  apply in_map_iff in Hk as ([k' q] & Ek & Hk). cbn in Ek. subst k'.
  apply (has_params_iff s dmg) in Hp as (lp & row & Ep & Hds & Er & Ed); [|assumption].
  assert (Erp : row_params row (snd k) = p) by now apply dget_row_params.
  assert (Hr : In (RV dv k f (rv_thetas p)) rvs).
  { apply (create_rvs_In _ _ _ _ Hrvs). cbn [rv_key rv_dv]. exists consequence, lp, row, f, q. rewrite Erp. repeat split; assumption. }
  eexists. split; [exact Hr|]. split; [reflexivity|]. split; [reflexivity|]. split; [|split].
  - split; [exact Ef|]. cbn [rv_theta]. unfold rv_thetas. destruct (p_theta0 p) as [[t0|ys xs]|]; [|  |easy].
    + exists [t0]. split; reflexivity.
    + exists [1%Qc]. split; reflexivity.
  - exact (create_rvs_family _ _ _ _ Hrvs Hr).
  - intros r' Hr' E1 E2. apply (create_rvs_distinct s dmg rvs); assumption.
Qed.

Lemma losses_item n e s dmg t dv consequence k p : across_floors e = true -> unique_labels s dmg ->
  calculate_ds n e s dmg = Ok (Some t) -> calculated s dmg dv consequence k p ->
  exists rvs med ys, create_rvs s dmg = Ok rvs /\ ds_losses n s dmg rvs dv ((cmp (fst k), snd k), med) = Ok ys.
Proof.
  intros He Hu H (Hk & H0 & Hdv & Hc & Hmi & Hp & Ht). destruct (calculate_inv _ _ _ _ _ H) as (rvs & Hrvs & H1 & _).
  apply in_map_iff in Hk as ([k' q] & Ek & Hk). cbn in Ek. subst k'.
  apply (has_params_iff s dmg) in Hp as (lp & row & Ep & Hds & Er & Ed); [|assumption].
  assert (Erp : row_params row (snd k) = p) by now apply dget_row_params. destruct (p_theta0 p) as [th|] eqn:Et; [|easy].
  destruct (H1 dv Hdv) as (m & Hm & Hitems). assert (Et' : p_theta0 (row_params row (snd k)) = Some th) by congruence.
  pose proof (medians_supported _ _ _ _ _ _ _ _ _ _ _ _ _ _ Hm Hc Hmi Hk eq_refl Ep Hds H0 Er Et') as Hf.
  assert (Hitem : In ((cmp (fst k), snd k), map (f_median th (p_family (row_params row (snd k))))
      (sum_columns n (map snd (filter (fun c => label_eqb (lab_of e (cmp (fst k)) (snd k)) (eco_label e (fst c))) dmg)))) m).
  { apply (medians_In n e s dmg dv m _ _ _ He Hm). exists consequence, lp, row, th. eexists. repeat split; try eassumption.
    now apply eco_available with q. }
  destruct (Hitems _ Hitem) as (ys & Hys & _). exists rvs. eexists. exists ys. split; [assumption|exact Hys].
Qed.

Lemma losses_mixed n e s dmg t dv consequence k p k' p' : unique_labels s dmg ->
  calculated s dmg dv consequence k p -> calculated s dmg dv consequence k' p' -> cmp (fst k) = cmp (fst k') ->
  p_family p = None -> p_family p' <> None -> calculate_ds n e s dmg <> Ok (Some t).
Proof.
  intros Hu Hc Hc' Ecmp Hf Hf' H. destruct e as [floors states]. destruct floors; [|now apply losses_floors in H].
  destruct (losses_item n (Eco true states) s dmg t dv consequence k p eq_refl Hu H Hc) as (rvs & med & ys & Hrvs & Hys).
  destruct (losses_rv s dmg rvs dv consequence k' p' Hu Hrvs Hc' Hf') as (r & Hr & Hrd & Hrk & _).
  apply ds_losses_inv in Hys as (c2 & _ & _ & Hprob & _).
  assert (Hpr : probabilistic rvs dv (cmp (fst k)) = true).
  { unfold probabilistic. apply existsb_exists. exists r. split; [assumption|]. rewrite Hrd, Hrk, Ecmp. now rewrite !String.eqb_refl. }
  destruct (Hprob Hpr) as (r2 & Hr2 & Hd2 & Hcm2 & Hs2). apply (create_rvs_In _ _ _ _ Hrvs) in Hr2 as
    (c3 & lp2 & row2 & f2 & q2 & A1 & A2 & A3 & A4 & A5 & A6 & A7 & A8 & A9). rewrite Hd2, Hcm2, Hs2 in *.
  destruct Hc as (Hk & H0 & Hdv & Hmap & Hmi & Hp & Ht). assert (c3 = consequence) as -> by now apply (loss_map_fun s dmg (cmp (fst k))).
  apply (has_params_iff s dmg) in Hp as (lp & row & Ep & Hds & Er & Ed); [|assumption].
  assert (Erp : row_params row (snd k) = p) by now apply dget_row_params.
  assert (lp2 = lp) as -> by congruence. assert (row2 = row) as -> by congruence. congruence.
Qed.

Lemma losses_deterministic n e s dmg t dv consequence k p : unique_labels s dmg -> calculated s dmg dv consequence k p ->
  p_family p = Some "deterministic" -> calculate_ds n e s dmg <> Ok (Some t).
Proof.
  intros Hu Hc Hf H. destruct (calculate_inv _ _ _ _ _ H) as (rvs & Hrvs & _).
  destruct (losses_rv s dmg rvs dv consequence k p Hu Hrvs Hc) as (r & _ & _ & _ & [Hd _] & Hfam & _); [congruence|].
  rewrite Hf in Hd. assert (E : rv_family r = "deterministic") by congruence. rewrite E in Hfam. cbn in Hfam. destruct Hfam as [X|[X|[]]]; discriminate X.
Qed.

Lemma losses_nonnegative n e s dmg t label vs v : across_floors e = true -> unique_labels s dmg -> tables_ok s ->
  (forall k q, In (k, q) dmg -> List.length q = n) -> nonnegative_inputs s dmg ->
  calculate_ds n e s dmg = Ok (Some t) -> In (label, vs) t -> In v vs -> exists x, v = Some x /\ (0 <= x)%Qc.
Proof.
  intros He Hu Htab Hlen (N1 & N2 & N3 & N4) H Hin Hv. destruct (losses_labels n e s dmg t He Hu H) as [Hl _].
  assert (Hin' : In label (map fst t)) by (apply in_map_iff; now exists (label, vs)). apply Hl in Hin' as (dv & consequence & k & p & -> & Hc).
  pose proof Hc as (Hk & _ & _ & _ & _ & Hp & _). apply in_map_iff in Hk as ([k' q] & Ek & Hk). cbn in Ek. subst k'.
  destruct (losses_values n e s dmg t dv consequence k p q vs He Hu Htab H Hc Hk Hin) as [Hn Hval].
  apply In_nth with (d := None) in Hv as (i & Hi & Ei). rewrite Hn in Hi. specialize (Hval i Hi). rewrite Ei in Hval. unfold loss_of in Hval.
  destruct (nth i q None) as [x|] eqn:Ex; [|exists 0%Qc; split; [assumption|apply Qcle_refl]].
  assert (Hx : (0 <= x)%Qc). { apply (N1 k q); [assumption|]. rewrite <- Ex. apply nth_In. now rewrite (Hlen _ _ Hk). }
  destruct Hval as (u & Hu' & ->). exists (x * u)%Qc. split; [reflexivity|]. apply Qcmult_nonneg; [assumption|].
  destruct Hu' as [t0 E1 E2|t0 f E1 E2|ys xs m E1 E2 E3|ys xs m f E1 E2 E3].
  - now apply (N3 consequence dv (snd k) p).
  - apply N2.
  - apply (on_curve_nonneg ys xs (pooled (pool_of e k) dmg i)); [now apply (Htab consequence dv (snd k) p)|now apply (N4 consequence dv (snd k) p ys xs)|assumption].
  - apply Qcmult_nonneg; [|apply N2].
    apply (on_curve_nonneg ys xs (pooled (pool_of e k) dmg i)); [now apply (Htab consequence dv (snd k) p)|now apply (N4 consequence dv (snd k) p ys xs)|assumption].
Qed.

Lemma losses_unrealized n s dmg t dv consequence k0 ds p : unique_labels s dmg ->
  In k0 (map fst dmg) -> In dv (dvs s) -> In (cmp (fst k0), consequence) (loss_map s) -> ~ In (consequence, dv) (missing s) ->
  has_params s consequence dv ds p -> p_theta0 p <> None -> ds <> "0" ->
  (forall k, In k (map fst dmg) -> cmp (fst k) = cmp (fst k0) -> snd k <> ds) ->
  calculate_ds n (Eco true true) s dmg <> Ok (Some t).
Proof.
  intros Hu Hk Hdv Hc Hmi Hp Ht H0 Hno H. destruct (calculate_inv _ _ _ _ _ H) as (rvs & Hrvs & H1 & _).
  apply in_map_iff in Hk as ([k q] & Ek & Hk). cbn in Ek. subst k0.
  apply (has_params_iff s dmg) in Hp as (lp & row & Ep & Hds & Er & Ed); [|assumption].
  assert (Erp : row_params row ds = p) by now apply dget_row_params. destruct (p_theta0 p) as [th|] eqn:Et; [|easy].
  destruct (H1 dv Hdv) as (m & Hm & Hitems). assert (Et' : p_theta0 (row_params row ds) = Some th) by congruence.
  pose proof (medians_supported _ _ _ _ _ _ _ _ _ _ _ _ _ _ Hm Hc Hmi Hk eq_refl Ep Hds H0 Er Et') as Hf.
  pose proof (eco_available n (Eco true true) dmg k q eq_refl Hk) as Ha.
  assert (Hitem : exists med, In ((cmp (fst k), ds), med) m).
  { eexists. apply (medians_In n (Eco true true) s dmg dv m _ _ _ eq_refl Hm). exists consequence, lp, row, th. eexists.
    repeat split; try eassumption. }
  destruct Hitem as (med & Hitem). destruct (Hitems _ Hitem) as (ys & Hys & _).
  apply ds_losses_inv in Hys as (_ & _ & (c & Hcc & E1 & E2) & _). apply (Hno (fst c)); [|assumption|assumption]. apply in_map_iff. now exists c.
Qed.
