(** Auxiliary lemmas on single realizations of the loss calculation. *)
From Verif Require Import Prelude PreludeFacts Pandas PandasFacts M_Base M_FileIO M_Damage M_Demand M_Agg M_LossDS M_LossLF S_Realizations P_Proc P_Realizations.
Set Implicit Arguments.
Local Open Scope string_scope.
Local Open Scope list_scope.

(** ** Two computations in step *)

(** Both succeed with related results or both fail alike. *)
Definition both {A B} (R : A -> B -> Prop) (r : result A) (r' : result B) : Prop :=
  match r, r' with Ok a, Ok b => R a b | Err e, Err e' => e = e' | _, _ => False end.
(** If both succeed the results are related. *)
Definition agree {A B} (R : A -> B -> Prop) (r : result A) (r' : result B) : Prop :=
  match r, r' with Ok a, Ok b => R a b | _, _ => True end.

Lemma both_agree {A B} (R : A -> B -> Prop) r r' : both R r r' -> agree R r r'.
Proof. destruct r, r'; cbn; easy. Qed.
Lemma both_bind {A B C D} (R : A -> B -> Prop) (S : C -> D -> Prop) r r' k k' :
  both R r r' -> (forall a b, R a b -> both S (k a) (k' b)) -> both S (bind r k) (bind r' k').
Proof. destruct r, r'; cbn; try easy; intros H K; auto. Qed.
Lemma agree_bind {A B C D} (R : A -> B -> Prop) (S : C -> D -> Prop) r r' k k' :
  agree R r r' -> (forall a b, R a b -> agree S (k a) (k' b)) -> agree S (bind r k) (bind r' k').
Proof. destruct r as [a|], r' as [b|]; cbn; try easy; intros H K; auto. destruct (k a); exact I. Qed.
Arguments both_bind {A B C D} R S {r r' k k'} _ _.
Arguments agree_bind {A B C D} R S {r r' k k'} _ _.
Lemma both_mapM {A B C D} (P : A -> B -> Prop) (R : C -> D -> Prop) f g l l' :
  Forall2 P l l' -> (forall x y, P x y -> both R (f x) (g y)) -> both (Forall2 R) (mapM f l) (mapM g l').
Proof.
  intros H K. induction H as [|x y l l' Hx H IH]; cbn [mapM]; [constructor|].
  apply (both_bind _ _ (K _ _ Hx)). intros a b Hab. apply (both_bind _ _ IH). intros. cbn. now constructor.
Qed.
Lemma agree_mapM {A B C D} (P : A -> B -> Prop) (R : C -> D -> Prop) f g l l' :
  Forall2 P l l' -> (forall x y, P x y -> agree R (f x) (g y)) -> agree (Forall2 R) (mapM f l) (mapM g l').
Proof.
  intros H K. induction H as [|x y l l' Hx H IH]; cbn [mapM]; [constructor|].
  apply (agree_bind _ _ (K _ _ Hx)). intros a b Hab. apply (agree_bind _ _ IH). intros. cbn. now constructor.
Qed.
Lemma agree_foldM {A B C D} (P : A -> B -> Prop) (R : C -> D -> Prop) f g l l' :
  Forall2 P l l' -> (forall a b x y, R a b -> P x y -> agree R (f a x) (g b y)) ->
  forall a b, R a b -> agree R (foldM f a l) (foldM g b l').
Proof.
  intros H K. induction H as [|x y l l' Hx H IH]; intros a b Hab; cbn [foldM]; [exact Hab|].
  exact (agree_bind _ _ (K _ _ _ _ Hab Hx) IH).
Qed.
Arguments both_mapM {A B C D} P R {f g l l'} _ _.
Arguments agree_mapM {A B C D} P R {f g l l'} _ _.
Arguments agree_foldM {A B C D} P R {f g l l'} _ _ {a b} _.
Lemma refl_step {A} (l : list A) : Forall2 eq l l.
Proof. induction l; constructor; auto. Qed.
Lemma concat_rel {A B} (R : A -> B -> Prop) l l' : Forall2 (Forall2 R) l l' -> Forall2 R (List.concat l) (List.concat l').
Proof. intros H. induction H; cbn; [constructor|]. now apply Forall2_app. Qed.

(** Rows of a table by groups. *)
Definition named {K A B} (R : A -> B -> Prop) (c : K * A) (c' : K * B) : Prop := fst c = fst c' /\ R (snd c) (snd c').
Lemma named_keys {K A B} (R : A -> B -> Prop) (l : list (K * A)) (l' : list (K * B)) : Forall2 (named R) l l' -> map fst l = map fst l'.
Proof. intros H. induction H as [|c c' l l' [E _] _ IH]; cbn; congruence. Qed.
Lemma groupby_step {K A B} (eqb le : K -> K -> bool) (R : A -> B -> Prop) l l' :
  Forall2 (named R) l l' -> Forall2 (named (Forall2 R)) (groupby eqb le l) (groupby eqb le l').
Proof.
  intros H. unfold groupby. rewrite (named_keys H). apply (@map_step _ _ _ _ eq); [|apply refl_step].
  intros k k' <-. split; [reflexivity|]. cbn. unfold group_rows.
  induction H as [|c c' l l' [E N] _ IH]; cbn; [constructor|]. rewrite <- E. destruct (eqb k (fst c)); cbn; [constructor|]; assumption.
Qed.
Lemma aget_step {K A B} (eqb : K -> K -> bool) (R : A -> B -> Prop) l l' k : Forall2 (named R) l l' ->
  match aget eqb k l, aget eqb k l' with Some a, Some b => R a b | None, None => True | _, _ => False end.
Proof.
  intros H. induction H as [|[c v] [c' v'] l l' [E N] _ IH]; cbn in *; [exact I|]. subst c'. destruct (eqb k c); assumption.
Qed.
Lemma aset_step {K A B} (eqb : K -> K -> bool) (R : A -> B -> Prop) l l' k a b : Forall2 (named R) l l' -> R a b ->
  Forall2 (named R) (aset eqb k a l) (aset eqb k b l').
Proof.
  intros H N. induction H as [|[c v] [c' v'] l l' [E M] H IH]; cbn in *; [constructor; [now split|constructor]|]. subst c'.
  destruct (eqb k c); constructor; try assumption; now split.
Qed.
Lemma filter_named {K A B} (sel : K -> bool) (R : A -> B -> Prop) l l' : Forall2 (named R) l l' ->
  Forall2 (named R) (filter (fun e => sel (fst e)) l) (filter (fun e => sel (fst e)) l').
Proof.
  intros H. induction H as [|c c' f f' [E N] _ IH]; cbn; [constructor|]. rewrite <- E.
  destruct (sel (fst c)); [constructor; [now split|exact IH]|exact IH].
Qed.
Lemma existsb_named {K A B} (g : K -> bool) (R : A -> B -> Prop) l l' : Forall2 (named R) l l' ->
  existsb (fun e => g (fst e)) l = existsb (fun e => g (fst e)) l'.
Proof. intros H. induction H as [|c c' f f' [E _] _ IH]; [reflexivity|]. cbn [existsb]. now rewrite IH, E. Qed.
Lemma map_fst_named {K A B C} (g : K -> C) (R : A -> B -> Prop) l l' : Forall2 (named R) l l' ->
  map (fun e => g (fst e)) l = map (fun e => g (fst e)) l'.
Proof. intros H. induction H as [|c c' f f' [E _] _ IH]; [reflexivity|]. cbn [map]. now rewrite IH, E. Qed.

Section Step.
Variables (n n' i j : nat).
Hypothesis Hij : (i < n)%nat <-> (j < n')%nat.

(** Row [i] of the one column is row [j] of the other. *)
Definition at_row {V} (c c' : list V) : Prop := nth_error c i = nth_error c' j.
Lemma same_named {K V} (f f' : list (K * list V)) : same_row f i f' j <-> Forall2 (named at_row) f f'.
Proof. reflexivity. Qed.
Lemma at_nth {V} (c c' : list V) d : at_row c c' -> nth i c d = nth j c' d.
Proof. apply nth_same. Qed.
Lemma at_seq m k l : nth_error (seq k m) l = if Nat.ltb l m then Some (k + l)%nat else None.
Proof.
  destruct (Nat.ltb_spec l m); [now apply nth_error_seq|]. apply nth_error_None. now rewrite seq_length.
Qed.
Lemma at_map_seq {V} (f g : nat -> V) : ((i < n)%nat -> f i = g j) -> at_row (map f (seq 0 n)) (map g (seq 0 n')).
Proof.
  intros E. unfold at_row. rewrite !nth_error_map, !at_seq.
  destruct (Nat.ltb_spec i n) as [Hi|Hi], (Nat.ltb_spec j n') as [Hj|Hj]; cbn; try lia; [|reflexivity]. now rewrite E.
Qed.
Lemma at_map {V W} (f : V -> W) c c' : at_row c c' -> at_row (map f c) (map f c').
Proof. unfold at_row. rewrite !nth_error_map. now intros ->. Qed.
Lemma rows_nth {V} (d : V) cols cols' : Forall2 at_row cols cols' -> map (fun c => nth i c d) cols = map (fun c => nth j c d) cols'.
Proof. intros H. induction H as [|c c' l l' N _ IH]; cbn; [reflexivity|]. rewrite IH. f_equal. now apply at_nth. Qed.
Lemma sum_columns_step cols cols' : Forall2 at_row cols cols' -> at_row (sum_columns n cols) (sum_columns n' cols').
Proof. intros H. apply at_map_seq. intros _. f_equal. now apply rows_nth. Qed.
Lemma total_columns_step cols cols' : Forall2 at_row cols cols' -> at_row (total_columns n cols) (total_columns n' cols').
Proof. intros H. apply at_map_seq. intros _. f_equal. now apply rows_nth. Qed.

(** ** Damage states *)
Section DS.
Variables (e : eco) (s s' : loss_setup) (dmg dmg' : qty_frame).
Hypothesis Hdvs : dvs s = dvs s'.
Hypothesis Hmap : loss_map s = loss_map s'.
Hypothesis Hmis : missing s = missing s'.
Hypothesis Hpar : params s = params s'.
Hypothesis Hdraw : forall dv k, draws s dv k i = draws s' dv k j.
Hypothesis Hd : Forall2 (named at_row) dmg dmg'.

Lemma eco_step : Forall2 (named at_row) (eco_quantities n e dmg) (eco_quantities n' e dmg').
Proof.
  unfold eco_quantities. apply (@map_step _ _ _ _ (named (Forall2 at_row))).
  - intros x y [E N]. split; [exact E|]. cbn. now apply sum_columns_step.
  - apply groupby_step. apply (@map_step _ _ _ _ (named at_row)); [|exact Hd].
    intros x y [E N]. split; cbn; [now rewrite E|exact N].
Qed.
Definition maybe {A B} (R : A -> B -> Prop) (x : option A) (y : option B) : Prop :=
  match x, y with Some a, Some b => R a b | None, None => True | _, _ => False end.
Lemma ds_median_step q q' c ds row : Forall2 (named at_row) q q' ->
  both (maybe at_row) (ds_median e q c ds row) (ds_median e q' c ds row).
Proof.
  intros H. unfold ds_median. destruct (p_theta0 (row_params row ds)) as [th|]; [|exact I].
  destruct (negb (supported_family (p_family (row_params row ds)))); [reflexivity|].
  destruct (across_floors e).
  - pose proof (aget_step label_eqb (if across_states e then [c] else [c; ds]) H) as A.
    destruct (aget label_eqb (if across_states e then [c] else [c; ds]) q), (aget label_eqb (if across_states e then [c] else [c; ds]) q'); try easy.
    cbn. now apply at_map.
  - assert (N : at_row (@nil num) []) by (unfold at_row; now destruct i, j).
    destruct (across_states e); [exact N|].
    pose proof (existsb_named (fun k => label_eqb (firstn 2 k) [c; ds]) H) as A. cbv beta in A. rewrite A.
    destruct (existsb _ q'); [exact N|exact I].
Qed.
Lemma cmp_medians_step q q' dv c cons : Forall2 (named at_row) q q' ->
  both (Forall2 (named at_row)) (cmp_medians e s q dv c cons) (cmp_medians e s' q' dv c cons).
Proof.
  intros H. unfold cmp_medians, is_missing. rewrite <- Hmis, <- Hpar. destruct (existsb _ (missing s)); [constructor|].
  pose proof (existsb_named (fun k => String.eqb (hd "" k) c) H) as A. cbv beta in A. rewrite A. destruct (negb _); [constructor|].
  destruct (params s) as [lp|]; [|reflexivity].
  apply (both_bind (Forall2 (Forall2 (named at_row)))); [|intros a b K; cbn; now apply concat_rel].
  apply (both_mapM eq); [apply refl_step|]. intros ds ? <-. destruct (String.eqb ds "0"); [constructor|].
  destruct (aget pair_eqb (cons, dv) (lp_rows lp)) as [row|]; [|reflexivity].
  apply (both_bind _ _ (ds_median_step c ds row H)). intros [a|] [b|] K; try easy; constructor; [now split|constructor].
Qed.
Lemma medians_step q q' dv : Forall2 (named at_row) q q' ->
  both (Forall2 (named at_row)) (medians_of e s q dv) (medians_of e s' q' dv).
Proof.
  intros H. unfold medians_of. rewrite <- Hmap. apply (both_bind (Forall2 (Forall2 (named at_row)))).
  - apply (both_mapM eq); [apply refl_step|]. intros c ? <-. apply (both_bind _ _ (cmp_medians_step dv (fst c) (snd c) H)).
    intros a b K. cbn. apply (map_step (R := named at_row)); [|exact K]. intros x y [E N]. split; cbn; [now rewrite E|exact N].
  - intros a b K. apply concat_rel in K. destruct K; [constructor|]. destruct (across_floors e); [now constructor|reflexivity].
Qed.

Lemma columns_step c ds : Forall2 (named at_row) (columns_of dmg c ds) (columns_of dmg' c ds).
Proof. exact (filter_named (fun k : qkey => String.eqb (cmp (fst k)) c && String.eqb (snd k) ds) Hd). Qed.
Lemma states_step c : states_of dmg c = states_of dmg' c.
Proof.
  unfold states_of. f_equal. exact (map_fst_named (fun k : qkey => snd k) (filter_named (fun k : qkey => String.eqb (cmp (fst k)) c) Hd)).
Qed.
Lemma create_step : create_rvs s dmg = create_rvs s' dmg'.
Proof.
  unfold create_rvs. rewrite <- Hmap, <- Hdvs.
  assert (D : forall dv c ds p, ds_rvs dmg dv c ds p = ds_rvs dmg' dv c ds p).
  { intros. unfold ds_rvs. destruct (String.eqb ds "0"); [reflexivity|]. destruct (p_family p); [|reflexivity].
    destruct (rv_thetas p) as [|q qs]; [reflexivity|]. destruct (make_rv _ _); [|reflexivity]. cbn. f_equal.
    exact (map_fst_named (fun k : qkey => RV dv k s0 (q :: qs)) (columns_step c ds)). }
  assert (C : forall c cons dv, cmp_rvs s dmg c cons dv = cmp_rvs s' dmg' c cons dv).
  { intros. unfold cmp_rvs, is_missing. rewrite <- Hmis, <- Hpar, <- states_step. destruct (existsb _ _); [reflexivity|].
    destruct (params s); [|reflexivity]. destruct (aget _ _ _) as [row|]; [|reflexivity]. f_equal.
    induction (states_of dmg c) as [|ds sts IH]; cbn [mapM]; [reflexivity|]. now rewrite D, IH. }
  assert (X : forall l, mapM (fun c => if existsb (fun q : qkey * list num => String.eqb (cmp (fst (fst q))) (fst c)) dmg
      then let* k := mapM (cmp_rvs s dmg (fst c) (snd c)) (dvs s) in Ok (List.concat k) else Ok []) l =
    mapM (fun c => if existsb (fun q : qkey * list num => String.eqb (cmp (fst (fst q))) (fst c)) dmg'
      then let* k := mapM (cmp_rvs s' dmg' (fst c) (snd c)) (dvs s) in Ok (List.concat k) else Ok []) l).
  { induction l as [|c l IH]; cbn [mapM]; [reflexivity|]. rewrite IH.
    assert (Ee : existsb (fun q : qkey * list num => String.eqb (cmp (fst (fst q))) (fst c)) dmg = existsb (fun q : qkey * list num => String.eqb (cmp (fst (fst q))) (fst c)) dmg')
      by exact (existsb_named (fun k : qkey => String.eqb (cmp (fst k)) (fst c)) Hd).
    rewrite Ee. destruct (existsb _ dmg'); [|reflexivity].
    assert (M : forall ll, mapM (cmp_rvs s dmg (fst c) (snd c)) ll = mapM (cmp_rvs s' dmg' (fst c) (snd c)) ll).
    { induction ll as [|dv ll IL]; cbn [mapM]; [reflexivity|]. now rewrite C, IL. }
    now rewrite M. }
  now rewrite X.
Qed.
Lemma ds_losses_step rvs dv m m' : named at_row m m' ->
  both (Forall2 (named at_row)) (ds_losses n s dmg rvs dv m) (ds_losses n' s' dmg' rvs dv m').
Proof.
  destruct m as [[c ds] med], m' as [[c' ds'] med']. intros [E N]. cbn in E, N. injection E as <- <-.
  cbn [ds_losses]. rewrite <- Hmap. destruct (dget c (loss_map s)) as [cons|]; [|reflexivity].
  pose proof (columns_step c ds) as K. destruct K as [|x x' cols cols' Hx K]; [reflexivity|].
  destruct (probabilistic rvs dv c && _); [reflexivity|]. cbn [both].
  apply (map_step (R := named at_row)); [|now constructor].
  intros [k a] [k' b] [Ek Na]. cbn in Ek, Na. subst k'. split; [reflexivity|]. cbn [snd fst].
  unfold loss_column. apply at_map_seq. intros _. cbn [fst snd]. rewrite Hdraw. f_equal; now apply at_nth.
Qed.
Lemma calculate_ds_step : both (maybe (fun t t' => same_row t i t' j)) (calculate_ds n e s dmg) (calculate_ds n' e s' dmg').
Proof.
  unfold calculate_ds. assert (U : all_undamaged dmg = all_undamaged dmg').
  { unfold all_undamaged. assert (M : map (fun c : qkey * list num => snd (fst c)) dmg = map (fun c : qkey * list num => snd (fst c)) dmg')
      by exact (map_fst_named (fun k : qkey => snd k) Hd).
    exact (f_equal (fun l => match unique String.eqb l with [d] => String.eqb d "0" | _ => false end) M). }
  rewrite <- U. destruct (all_undamaged dmg); [exact I|].
  apply (both_bind (Forall2 (named (Forall2 (named at_row))))).
  - rewrite <- Hdvs. apply (both_mapM eq); [apply refl_step|]. intros dv ? <-.
    apply (both_bind _ _ (medians_step dv eco_step)). intros a b K. now split.
  - intros meds meds' K. rewrite <- create_step. destruct (create_rvs s dmg) as [rvs|]; [|reflexivity]. cbn [bind].
    apply (both_bind (Forall2 (Forall2 (named at_row)))).
    + apply (both_mapM _ _ K). intros x y [E N]. rewrite <- E.
      apply (both_bind (Forall2 (Forall2 (named at_row)))); [|intros a b L; cbn; now apply concat_rel].
      apply (both_mapM _ _ N). intros m m' Hm. now apply ds_losses_step.
    + intros a b L. apply concat_rel in L. destruct L; [reflexivity|]. cbn. now constructor.
Qed.
End DS.

(** ** Loss functions *)
Lemma at_length {V} (c c' : list V) : at_row c c' -> (i < List.length c)%nat <-> (j < List.length c')%nat.
Proof. intros E. unfold at_row in E. rewrite <- !nth_error_Some. now rewrite E. Qed.
Lemma mapM_nth {A B} (f : A -> result B) l r k : mapM f l = Ok r -> nth_error r k = match nth_error l k with Some x => match f x with Ok y => Some y | Err _ => None end | None => None end.
Proof.
  revert r k. induction l as [|x l IH]; intros r k; cbn [mapM]; [intros [= <-]; now destruct k|].
  destruct (f x) as [y|] eqn:E; [|discriminate]. cbn [bind]. destruct (mapM f l) as [ys|]; [|discriminate]. cbn [bind]. intros [= <-].
  destruct k; cbn; [now rewrite E|]. now apply IH.
Qed.
Lemma at_mapM {A B} (f : A -> result B) c c' : at_row c c' -> agree at_row (mapM f c) (mapM f c').
Proof.
  intros H. destruct (mapM f c) as [r|] eqn:E, (mapM f c') as [r'|] eqn:E'; cbn; try exact I.
  unfold at_row. rewrite (mapM_nth _ _ _ E), (mapM_nth _ _ _ E'). now rewrite H.
Qed.
Lemma at_mapM_seq {B} (f g : nat -> result B) : f i = g j -> agree at_row (mapM f (seq 0 n)) (mapM g (seq 0 n')).
Proof.
  intros H. destruct (mapM f (seq 0 n)) as [r|] eqn:E, (mapM g (seq 0 n')) as [r'|] eqn:E'; cbn; try exact I.
  unfold at_row. rewrite (mapM_nth _ _ _ E), (mapM_nth _ _ _ E'), !at_seq.
  destruct (Nat.ltb_spec i n) as [Hi|Hi], (Nat.ltb_spec j n') as [Hj|Hj]; try lia; [|reflexivity]. cbn [Nat.add]. now rewrite H.
Qed.
Lemma nth_map2 {A B C} (f : A -> B -> C) a b k : nth_error (map2 f a b) k =
  match nth_error a k, nth_error b k with Some x, Some y => Some (f x y) | _, _ => None end.
Proof.
  revert b k. induction a as [|x a IH]; intros [|y b] [|k]; cbn; try reflexivity; [|apply IH]. now destruct (nth_error a k).
Qed.
Lemma at_map2 {A B C} (f : A -> B -> C) a a' b b' : at_row a a' -> at_row b b' -> at_row (map2 f a b) (map2 f a' b').
Proof. unfold at_row. intros E E'. now rewrite !nth_map2, E, E'. Qed.
Lemma combine_step {K V} (ks : list K) (l l' : list (list V)) : Forall2 at_row l l' -> Forall2 (named at_row) (combine ks l) (combine ks l').
Proof. intros H. revert ks. induction H as [|x y l l' N _ IH]; intros [|k ks]; cbn; constructor; [now split|apply IH]. Qed.
Lemma agree_same {A} (r : result A) : agree eq r r.
Proof. now destruct r. Qed.

Section LF.
Variables (e : lf_env) (s s' : lf_setup) (sample sample' : frame) (quantities quantities' : list (pg * list num)).
Hypothesis Hdvs : f_dvs s = f_dvs s'.
Hypothesis Hmap : f_map s = f_map s'.
Hypothesis Hmis : f_missing s = f_missing s'.
Hypothesis Hrow : f_rows s = f_rows s'.
Hypothesis Hdraw : forall dv p b, f_draws s dv p b i = f_draws s' dv p b j.
Hypothesis Heval : forall c vars vars' v, same_row vars i vars' j -> eval e c vars = Ok v -> exists v', eval e c vars' = Ok v' /\ nth_error v i = nth_error v' j.
Hypothesis Hi : (i < n)%nat.
Hypothesis Hj : (j < n')%nat.
Hypothesis Hs : same_row sample i sample' j.
Hypothesis Hr : rows n sample.
Hypothesis Hr' : rows n' sample'.
Hypothesis Hn : n_rows sample = n.
Hypothesis Hn' : n_rows sample' = n'.
Hypothesis Hq : Forall2 (named at_row) quantities quantities'.

Lemma lf_groups_step rs blocks : lf_groups s rs blocks = lf_groups s' rs blocks.
Proof. unfold lf_groups, lf_driven. now rewrite <- Hdvs, <- Hmap, <- Hmis. Qed.
Lemma lf_demands_step rs gs : agree (Forall2 (named at_row)) (lf_demands e sample rs gs) (lf_demands e sample' rs gs).
Proof.
  unfold lf_demands. apply (agree_bind eq); [apply agree_same|]. intros ks ? <-.
  rewrite (verify_step Hs ks). destruct (verify_edps_available sample' ks); [|exact I]. cbn [bind].
  apply (agree_bind (Forall2 at_row)); [|intros x y K; cbn; now apply combine_step].
  apply (agree_mapM eq); [apply refl_step|]. intros k ? <-.
  destruct (assemble_one (eval e) (multipliers e) sample k) as [v|] eqn:E; [|exact I].
  destruct (@assemble_step n n' i j Hi Hj (eval e) (multipliers e) Heval sample sample' Hs Hr Hr' k v E) as (v' & -> & N). exact N.
Qed.
Lemma group_medians_step rs d d' gb : Forall2 (named at_row) d d' ->
  agree (Forall2 (named at_row)) (group_medians e s rs d quantities gb) (group_medians e s' rs d' quantities' gb).
Proof.
  intros H. destruct gb as [[p dv] b]. unfold group_medians. rewrite <- Hmap. destruct (dget (cmp p) (f_map s)) as [c|]; [|exact I].
  pose proof (aget_step group_eqb (PG c (loc p) (dir p) (uid p), dv) H) as A.
  destruct (aget group_eqb _ d) as [v|], (aget group_eqb _ d') as [v'|]; try easy.
  destruct (lf_row_of rs (cmp p) dv) as [r|]; [|exact I]. destruct (lf_function r) as [text|]; [|exact I].
  destruct (stringterpolation (pyfloat e) text) as [pts|]; [|exact I]. cbn [bind].
  apply (agree_bind at_row); [now apply at_mapM|]. intros med med' M.
  apply (agree_bind (Forall2 (named at_row))); [|intros x y K; exact K].
  apply (agree_mapM eq); [apply refl_step|]. intros k ? <-.
  pose proof (aget_step pg_eqb p Hq) as B. destruct (aget pg_eqb p quantities) as [q|], (aget pg_eqb p quantities') as [q'|]; try easy.
  destruct (Nat.eqb (List.length med) (List.length q)); [|exact I]. destruct (Nat.eqb (List.length med') (List.length q')); [|exact I].
  split; [reflexivity|]. cbn [snd]. now apply at_map2.
Qed.
Lemma lf_medians_step rs d d' m m' gs : Forall2 (named at_row) d d' ->
  agree (Forall2 (named at_row)) (lf_medians e s rs d quantities m gs) (lf_medians e s' rs d' quantities' m' gs).
Proof.
  intros H. unfold lf_medians. apply (agree_bind (Forall2 (Forall2 (named at_row)))).
  - apply (agree_mapM eq); [apply refl_step|]. intros g ? <-. now apply group_medians_step.
  - intros a b K. apply concat_rel in K.
    match goal with |- agree _ (match ?u with _ => _ end) (match ?v with _ => _ end) => assert (K' : Forall2 (named at_row) u v) by exact K end.
    destruct K' as [|x y l l' Hx K']; [exact I|].
    match goal with |- agree _ (if ?u then _ else _) (if ?v then _ else _) => destruct u, v; try exact I end. now constructor.
Qed.
Lemma deviate_step c c' r : named at_row c c' -> at_row (deviate s c r) (deviate s' c' r).
Proof.
  destruct c as [[[k p] b] med], c' as [[[k' p'] b'] med']. intros [E N]. cbn in E, N. injection E as <- <- <-. cbn [deviate].
  destruct r; [|exact N]. unfold at_row. rewrite !nth_error_map, !at_seq. pose proof (at_length N) as L. pose proof (at_nth None N) as M.
  destruct (Nat.ltb_spec i (List.length med)) as [G|G], (Nat.ltb_spec j (List.length med')) as [G'|G']; cbn; try lia; [|reflexivity].
  rewrite Hdraw. f_equal. unfold num in *. now rewrite M.
Qed.
Lemma calculate_lf_step blocks : agree (maybe (fun t t' => same_row t i t' j)) (calculate_lf e s sample quantities blocks) (calculate_lf e s' sample' quantities' blocks).
Proof.
  unfold calculate_lf. rewrite <- Hrow. destruct (f_rows s) as [rs|]; [|exact I]. rewrite <- lf_groups_step.
  destruct (lf_groups s rs blocks) as [|g gs]; [exact I|].
  apply (agree_bind _ _ (lf_demands_step rs (map fst (g :: gs)))). intros d d' D.
  apply (agree_bind _ _ (lf_medians_step rs (n_rows sample) (n_rows sample') (g :: gs) D)). intros cols cols' C.
  apply (agree_bind (Forall2 (named at_row))).
  - apply (agree_mapM _ _ C). intros x y Hx. pose proof Hx as [E _]. rewrite <- E. destruct (has_rv rs (fst (fst (fst x)))) as [r|]; [|exact I].
    split; [reflexivity|]. now apply deviate_step.
  - intros v v' V. cbn. apply (map_step (R := named (Forall2 at_row))); [|now apply groupby_step].
    intros x y [E N]. rewrite <- E, Hn, Hn'. split; [reflexivity|]. cbn [snd]. apply at_map. now apply total_columns_step.
Qed.
End LF.

(** ** Aggregation *)
Lemma sum_over_ds_step (t t' : combined) : Forall2 (named at_row) t t' -> Forall2 (named at_row) (sum_over_ds n t) (sum_over_ds n' t').
Proof.
  intros H. unfold sum_over_ds. apply (map_step (R := named (Forall2 at_row))).
  - intros x y [E N]. split; [exact E|]. cbn. now apply total_columns_step.
  - apply groupby_step. apply (map_step (R := named at_row)); [|exact H]. intros x y [E N]. split; cbn; [now rewrite E|exact N].
Qed.
Lemma apop_step cols (t t' : qframe) : Forall2 (named at_row) t t' ->
  Forall2 (named at_row) (fold_left (fun d k => apop k d) cols t) (fold_left (fun d k => apop k d) cols t').
Proof.
  revert t t'. induction cols as [|k cols IH]; intros t t' H; [exact H|]. cbn [fold_left]. apply IH. unfold apop.
  exact (filter_named (fun x => negb (lkey_eqb k x)) H).
Qed.
Definition two (st st' : qframe * qframe) : Prop := Forall2 (named at_row) (fst st) (fst st') /\ Forall2 (named at_row) (snd st) (snd st').
Lemma combine_at_agree order d2l dv comb target st st' p : two st st' ->
  agree two (combine_at order n d2l dv comb target st p) (combine_at order n' d2l dv comb target st' p).
Proof.
  destruct st as [a b], st' as [a' b']. intros [H H']. cbn in H, H'. unfold combine_at.
  apply (agree_bind eq); [apply agree_same|]. intros cols ? <-.
  apply (agree_bind (Forall2 at_row)).
  - apply (agree_mapM eq); [apply refl_step|]. intros k ? <-. pose proof (aget_step lkey_eqb k H) as A.
    destruct (aget lkey_eqb k a), (aget lkey_eqb k a'); try easy.
  - intros v v' V. apply (agree_bind at_row).
    + apply at_mapM_seq. f_equal. now apply rows_nth.
    + intros c c' C. split; cbn; [now apply apop_step|]. now apply aset_step.
Qed.
Lemma combine_one_agree order cols dv st st' comb : two st st' -> agree two (combine_one order n cols dv st comb) (combine_one order n' cols dv st' comb).
Proof.
  intros H. unfold combine_one. destruct (find _ _) as [g|]; [|exact I].
  apply (agree_foldM eq two); [apply refl_step| |exact H]. intros a b p ? K <-. now apply combine_at_agree.
Qed.
Lemma combinations_agree order combos (t t' : qframe) : Forall2 (named at_row) t t' ->
  agree (Forall2 (named at_row)) (apply_loss_combinations order n combos t) (apply_loss_combinations order n' combos t').
Proof.
  intros H. unfold apply_loss_combinations. rewrite <- (named_keys H). apply (agree_bind two).
  - apply (agree_foldM eq two); [apply refl_step| |split; [exact H|constructor]]. intros a b x ? K <-.
    apply (agree_foldM eq two); [apply refl_step| |exact K]. intros a' b' c ? K' <-. now apply combine_one_agree.
  - intros [a b] [a' b'] [A B]. cbn in *. clear -A B. revert b b' B. induction A as [|x y a a' [E N] A IH]; intros b b' B; [exact B|].
    cbn [fold_left]. apply IH. rewrite <- E. now apply aset_step.
Qed.

Lemma of_dv_step dv (t t' : qframe) : Forall2 (named at_row) t t' -> Forall2 (named at_row) (of_dv dv t) (of_dv dv t').
Proof. intros H. exact (filter_named (fun k => String.eqb (k_dv k) dv) H). Qed.
Lemma has_replacement_step (t t' : qframe) : Forall2 (named at_row) t t' -> has_replacement t i = has_replacement t' j.
Proof.
  intros H. unfold has_replacement. induction H as [|x y t t' [E N] _ IH]; [reflexivity|]. cbn [existsb]. rewrite IH, E. unfold row. now rewrite (at_nth 0%Qc N).
Qed.
Lemma repair_sum_step (t t' : qframe) : Forall2 (named at_row) t t' -> repair_sum t i = repair_sum t' j.
Proof.
  intros H. unfold repair_sum. f_equal. pose proof (filter_named (fun k => negb (is_replacement k)) H) as F. cbv beta in F.
  induction F as [|x y l l' [E N] _ IH]; [reflexivity|]. cbn [map]. rewrite IH. f_equal. exact (at_nth 0%Qc N).
Qed.
Lemma exceedance_agree ratios (t t' : qframe) rv rv' : Forall2 (named at_row) t t' -> named at_row rv rv' ->
  agree at_row (exceedance_of n ratios t rv) (exceedance_of n' ratios t' rv').
Proof.
  intros H [E N]. unfold exceedance_of. rewrite <- E. pose proof (of_dv_step (fst rv) H) as K.
  pose proof (has_replacement_step K) as R. pose proof (repair_sum_step K) as S.
  set (u := of_dv (fst rv) t) in *. set (u' := of_dv (fst rv) t') in *. clearbody u u'.
  destruct u as [|x u]; [exact I|]. destruct u' as [|x' u']; [inversion K|].
  destruct (forallb (has_replacement (x :: u)) (seq 0 n)) eqn:F, (forallb (has_replacement (x' :: u')) (seq 0 n')) eqn:F'.
  - cbn. now apply at_map_seq.
  - destruct (dget (fst rv) ratios); [|exact I]. cbn [agree]. apply at_map_seq. intros Hi. rewrite <- R.
    rewrite forallb_forall in F. rewrite F; [reflexivity|]. apply in_seq. lia.
  - destruct (dget (fst rv) ratios); [|exact I]. cbn [agree]. apply at_map_seq. intros Hi. rewrite R.
    rewrite forallb_forall in F'. rewrite F'; [reflexivity|]. apply in_seq. lia.
  - destruct (dget (fst rv) ratios); [|exact I]. cbn [agree]. apply at_map_seq. intros _. now rewrite R, S, (at_nth 0%Qc N).
Qed.
Lemma at_mapi {V W} (f g : nat -> V -> W) c c' : at_row c c' -> (forall x, f i x = g j x) ->
  at_row (map (fun ix => f (fst ix) (snd ix)) (combine (seq 0 (List.length c)) c)) (map (fun ix => g (fst ix) (snd ix)) (combine (seq 0 (List.length c')) c')).
Proof.
  intros H E. assert (G : forall (h : nat -> V -> W) l k m, nth_error (map (fun ix => h (fst ix) (snd ix)) (combine (seq m (List.length l)) l)) k = option_map (h (m + k)%nat) (nth_error l k)).
  { clear. intros h. induction l as [|x l IH]; intros [|k] m; cbn [List.length seq combine map nth_error option_map fst snd]; try reflexivity.
    - now rewrite Nat.add_0_r.
    - rewrite IH. f_equal. f_equal. lia. }
  unfold at_row in *. rewrite !G, H. cbn [Nat.add]. destruct (nth_error c' j); cbn; [now rewrite E|reflexivity].
Qed.
Lemma assign_step r r' (t t' : qframe) rv rv' : r i = r' j -> Forall2 (named at_row) t t' -> named at_row rv rv' ->
  Forall2 (named at_row) (assign_replacement n r t rv) (assign_replacement n' r' t' rv').
Proof.
  intros Er H [E N]. unfold assign_replacement. rewrite <- E. apply (map_step (R := named at_row)).
  - intros x y [Ex Nx]. rewrite <- Ex. destruct (lkey_eqb _ (fst x)); [|now split]. split; [reflexivity|]. cbn [snd].
    unfold set_where. apply (at_mapi (fun k v => if r k then nth k (snd rv) 0%Qc else v) (fun k v => if r' k then nth k (snd rv') 0%Qc else v) Nx).
    intros v. now rewrite Er, (at_nth 0%Qc N).
  - unfold amem. pose proof (aget_step lkey_eqb (threshold_key (fst rv)) H) as A.
    destruct (aget lkey_eqb _ t), (aget lkey_eqb _ t'); try easy.
    unfold sort_lkeys. apply isort_step; [intros a a' b b' [Ea _] [Eb _]; now rewrite Ea, Eb|].
    apply Forall2_app; [exact H|]. constructor; [split; [reflexivity|]|constructor]. cbn.
    assert (G : forall m, repeat 0%Qc m = map (fun _ => 0%Qc) (seq 0 m)) by (intros m; generalize 0%nat; induction m as [|m IH]; intros st; cbn; [reflexivity|now rewrite <- IH]).
    rewrite !G. now apply at_map_seq.
Qed.
Definition same_config (c c' : option replacement_config) : Prop :=
  maybe (fun a b => Forall2 (named at_row) (fst a) (fst b) /\ snd a = snd b) c c'.
Definition two' (st st' : qframe * list (string * list bool)) : Prop :=
  Forall2 (named at_row) (fst st) (fst st') /\ Forall2 (named at_row) (snd st) (snd st').
Lemma thresholds_agree config config' (t t' : qframe) : same_config config config' -> Forall2 (named at_row) t t' ->
  agree two' (apply_replacement_thresholds n config t) (apply_replacement_thresholds n' config' t').
Proof.
  intros C H. destruct config as [[rvs ratios]|], config' as [[rvs' ratios']|]; cbn [same_config maybe fst snd] in C; try easy; [|split; [exact H|constructor]].
  destruct C as [C <-]. cbn [fst] in C. unfold apply_replacement_thresholds. apply (agree_bind (Forall2 (named at_row))).
  - apply (agree_mapM _ _ C). intros x y Hx. pose proof (exceedance_agree ratios H Hx) as X. destruct Hx as [E _]. rewrite <- E in *.
    destruct (exceedance_of n ratios t x), (exceedance_of n' ratios t' y); cbn in *; try exact I. now split.
  - intros ex ex' X. assert (R : existsb (fun e => nth i (snd e) false) ex = existsb (fun e => nth j (snd e) false) ex').
    { clear -X. induction X as [|x y l l' [_ N] _ IH]; [reflexivity|]. cbn [existsb]. rewrite IH. f_equal. now apply at_nth. }
    split; [|exact X]. cbn [fst]. apply (map_step (R := named at_row)).
    + intros x y [Ex Nx]. rewrite <- Ex. destruct (String.eqb _ _); [now split|]. split; [reflexivity|]. cbn [snd]. unfold zero_where.
      apply (at_mapi (fun k v => if existsb (fun e => nth k (snd e) false) ex then 0%Qc else v) (fun k v => if existsb (fun e => nth k (snd e) false) ex' then 0%Qc else v) Nx).
      intros v. now rewrite R.
    + clear X. revert t t' H. induction C as [|x y rvs rvs' Hx C IH]; intros t t' H; [exact H|]. cbn [fold_left]. apply IH. now apply assign_step.
Qed.

(** *** Totals *)
Lemma location_step dv (t t' : qframe) : Forall2 (named at_row) t t' -> Forall2 at_row (location_sums n dv t) (location_sums n' dv t').
Proof.
  intros H. unfold location_sums. apply (map_step (R := named (Forall2 at_row))).
  - intros x y [_ N]. apply at_map_seq. intros _. f_equal. now apply rows_nth.
  - apply groupby_step. apply (map_step (R := named at_row)); [|now apply of_dv_step]. intros x y [E N]. split; cbn; [now rewrite E|exact N].
Qed.
Lemma drop_agree c (d d' : dict (list num)) : Forall2 (named at_row) d d' -> agree (Forall2 (named at_row)) (drop_column c d) (drop_column c d').
Proof.
  intros H. unfold drop_column. destruct (dmem c d); [|exact I]. destruct (dmem c d'); [|exact I]. cbn. unfold ddel.
  exact (filter_named (fun k => negb (String.eqb c k)) H).
Qed.
Lemma totals_agree dvl (t t' : qframe) : Forall2 (named at_row) t t' ->
  agree (Forall2 (named at_row)) (dv_totals n dvl t) (dv_totals n' dvl t').
Proof.
  intros H. unfold dv_totals. apply (agree_foldM eq (Forall2 (named at_row))); [apply refl_step| |].
  - intros d d' dv ? D <-. pose proof (of_dv_step dv H) as O. pose proof (location_step dv H) as L.
    assert (Sm : at_row (sum_rows n (location_sums n dv t)) (sum_rows n' (location_sums n' dv t'))).
    { apply at_map_seq. intros _. f_equal. f_equal. now apply rows_nth. }
    assert (Mx : at_row (max_rows n (location_sums n dv t)) (max_rows n' (location_sums n' dv t'))).
    { apply at_map_seq. intros _. f_equal. f_equal. now apply rows_nth. }
    destruct O.
    + destruct (String.eqb dv "Time"); [|now apply drop_agree]. apply (agree_bind (Forall2 (named at_row))); [now apply drop_agree|]. intros. now apply drop_agree.
    + destruct (String.eqb dv "Time"); cbn; repeat apply dset_step; assumption.
  - apply (map_step (R := eq)); [|apply refl_step]. intros c ? <-. split; [reflexivity|]. cbn. now apply at_map_seq.
Qed.
Lemma sort_labels_step {A B} (R : A -> B -> Prop) l l' : Forall2 (named R) l l' -> Forall2 (named R) (sort_labels l) (sort_labels l').
Proof.
  unfold sort_labels. intros H. induction H as [|x y l l' Hx H IH]; cbn; [constructor|].
  revert IH. generalize (isort (fun a b => label_le (fst a) (fst b)) l) (isort (fun a b => label_le (fst a) (fst b)) l').
  intros u v K. induction K as [|a b u v Ha K IK]; cbn; [constructor; [exact Hx|constructor]|].
  destruct Hx as [E N], Ha as [E' N']. rewrite <- E, <- E'. destruct (label_le (fst x) (fst a)); constructor; try (now split); try assumption. constructor; [now split|assumption].
Qed.
Lemma aggregate_agree dvl du fs (t t' : qframe) : Forall2 (named at_row) t t' ->
  agree (Forall2 (named at_row)) (aggregate_sample n dvl du fs t) (aggregate_sample n' dvl du fs t').
Proof.
  intros H. unfold aggregate_sample. apply (agree_bind _ _ (totals_agree dvl H)). intros d d' D.
  unfold keys. rewrite <- (named_keys D). destruct (column_units du (map fst d)) as [us|]; [|exact I]. cbn [bind]. unfold save_columns.
  assert (C : agree (Forall2 (named at_row)) (convert_columns fs us (map (fun c => ([fst c], snd c)) d)) (convert_columns fs us (map (fun c => ([fst c], snd c)) d'))).
  { unfold convert_columns. apply (agree_foldM eq (Forall2 (named at_row))); [apply refl_step| |].
    - intros a b u ? K <-. destruct (inverse_factor fs u) as [f|]; [|exact I]. cbn. apply (map_step (R := named at_row)); [|exact K].
      intros x y [E N]. rewrite <- E. destruct (label_mem (fst x) (labels_with us u)); [|now split]. split; [reflexivity|]. cbn. unfold scale_values. now apply at_map.
    - apply (map_step (R := named at_row)); [|exact D]. intros x y [E N]. split; cbn; [now rewrite E|exact N]. }
  destruct (convert_columns fs us _) as [a|], (convert_columns fs us _) as [b|]; cbn in C; cbn [bind]; try exact I.
  2: { cbn [header]. match goal with |- agree _ ?r _ => destruct r; exact I end. }
  apply sort_labels_step in C. cbn [fst header cells]. rewrite <- (named_keys C).
  destruct (to_multi_index (make_axis 1 (map fst (sort_labels a)))) as [ax|]; [|exact I]. cbn.
  apply sort_labels_step. apply combine_step. clear -C. induction C as [|x y l l' [_ N] _ IH]; cbn; constructor; assumption.
Qed.
End Step.

Definition same_sample {A} (i j : nat) (x x' : option (list (A * list num))) : Prop :=
  maybe (fun t t' => same_row t i t' j) x x'.
Lemma aggregate_losses_agree order ru dvl du fs config config' combos st st' i j :
  same_config i j config config' -> same_sample i j (ds_sample st) (ds_sample st') -> same_sample i j (lf_sample st) (lf_sample st') ->
  (ds_sample st <> None \/ lf_sample st <> None) ->
  agree (fun r r' => same_row (fst r) i (fst r') j /\ maybe (fun x x' => same_row x i x' j) (snd r) (snd r'))
    (fst (aggregate_losses order ru dvl du fs config combos st)) (fst (aggregate_losses order ru dvl du fs config' combos st')).
Proof.
  intros C Hd Hl Ne. unfold aggregate_losses.
  destruct (match config with Some c => validate_thresholds ru dvl c | None => Ok tt end); [|exact I].
  destruct (match combos with Some c => validate_combinations dvl c | None => Ok tt end); [|exact I].
  assert (B : forall s s', Forall2 (named (at_row i j)) s s' ->
    agree (fun r r' => same_row (fst r) i (fst r') j /\ maybe (fun x x' => same_row x i x' j) (snd r) (snd r'))
      (let n := sample_rows s in
       let* s1 := match combos with None => Ok (sum_over_ds n s) | Some c => apply_loss_combinations order n c (sum_over_ds n s) end in
       let* r := apply_replacement_thresholds n config s1 in
       let* agg := aggregate_sample n dvl du fs (fst r) in Ok (agg, Some (snd r)))
      (let n := sample_rows s' in
       let* s1 := match combos with None => Ok (sum_over_ds n s') | Some c => apply_loss_combinations order n c (sum_over_ds n s') end in
       let* r := apply_replacement_thresholds n config' s1 in
       let* agg := aggregate_sample n dvl du fs (fst r) in Ok (agg, Some (snd r)))).
  { intros s s' H. cbv zeta. assert (Hij : (i < sample_rows s)%nat <-> (j < sample_rows s')%nat).
    { destruct H as [|x y s s' [_ N] H]; cbn; [lia|]. exact (at_length N). }
    apply (agree_bind (Forall2 (named (at_row i j)))).
    - destruct combos as [c|]; [apply (combinations_agree Hij)|cbn]; exact (sum_over_ds_step Hij H).
    - intros x y K. eapply agree_bind; [exact (@thresholds_agree _ _ _ _ Hij _ _ _ _ C K)|]. intros r r' [R1 R2].
      apply (agree_bind _ _ (aggregate_agree Hij dvl du fs R1)). intros f f' F. split; [exact F|exact R2]. }
  assert (W : forall t t' : ds_table, same_row t i t' j -> Forall2 (named (at_row i j)) (with_ds t) (with_ds t')).
  { intros t t' H. unfold with_ds. apply (map_step (R := named (at_row i j))); [|exact H]. intros x y [E N]. split; cbn; [now rewrite E|exact N]. }
  assert (L : forall t t' : lf_table, same_row t i t' j -> Forall2 (named (at_row i j)) (add_ds_level t) (add_ds_level t')).
  { intros t t' H. unfold add_ds_level. apply (map_step (R := named (at_row i j))); [|exact H]. intros x y [E N]. split; cbn; [now rewrite E|exact N]. }
  destruct (match config' with Some c => validate_thresholds ru dvl c | None => Ok tt end).
  2: { cbn [fst]. match goal with |- agree _ ?r _ => destruct r; exact I end. }
  unfold read_sample. destruct st as [ds lf], st' as [ds' lf']. cbn [ds_sample lf_sample] in *.
  destruct ds as [ds|], ds' as [ds'|]; cbn in Hd; try easy; destruct lf as [lf|], lf' as [lf'|]; cbn in Hl; try easy.
  - apply B. apply Forall2_app; [now apply W|now apply L].
  - apply B. now apply W.
  - now apply B.
  - destruct Ne; easy.
Qed.
