(** Proofs about single realizations of the damage calculation. *)
From Coq Require Import Sorting.Permutation.
From Verif Require Import Prelude PreludeFacts Pandas PandasFacts M_Base M_FileIO M_Damage M_Batch M_Demand M_Obtain S_Damage S_Realizations P_Eval P_Proc P_Qty T_Damage.
Set Implicit Arguments.
Local Open Scope string_scope.
Local Open Scope list_scope.

Lemma same_row_keys {K V} (f f' : list (K * list V)) i j : same_row f i f' j -> map fst f = map fst f'.
Proof. intros H. induction H as [|c c' f f' [E _] _ IH]; [reflexivity|]. cbn. now rewrite E, IH. Qed.

Lemma same_row_map {K V A} (g : K -> A) (f f' : list (K * list V)) i j : same_row f i f' j -> map (fun c => g (fst c)) f = map (fun c => g (fst c)) f'.
Proof. intros H. induction H as [|c c' f f' [E _] _ IH]; [reflexivity|]. cbn. now rewrite E, IH. Qed.

Lemma same_row_aget {K V} (eqb : K -> K -> bool) (f f' : list (K * list V)) i j k : same_row f i f' j ->
  match aget eqb k f, aget eqb k f' with
  | Some c, Some c' => nth_error c i = nth_error c' j
  | None, None => True
  | _, _ => False
  end.
Proof.
  intros H. induction H as [|[a c] [a' c'] f f' [E N] _ IH]; [exact I|]. cbn in *. subst a'.
  destruct (eqb k a); assumption.
Qed.

(** Sorting by labels keeps rows in step. *)
Lemma insert_step {A} (R : A -> A -> Prop) (le : A -> A -> bool) x x' l l' :
  (forall a a' b b', R a a' -> R b b' -> le a b = le a' b') -> R x x' -> Forall2 R l l' ->
  Forall2 R (insert le x l) (insert le x' l').
Proof.
  intros Hle Hx H. induction H as [|y y' l l' Hy H IH]; cbn; [now constructor; [|constructor]|].
  rewrite (Hle x x' y y' Hx Hy). destruct (le x' y'); constructor; try assumption. now constructor.
Qed.
Lemma isort_step {A} (R : A -> A -> Prop) (le : A -> A -> bool) l l' :
  (forall a a' b b', R a a' -> R b b' -> le a b = le a' b') -> Forall2 R l l' -> Forall2 R (isort le l) (isort le l').
Proof. intros Hle H. induction H as [|x x' l l' Hx H IH]; cbn; [constructor|]. now apply insert_step. Qed.
Lemma map_step {A A' B B'} (R : A -> A' -> Prop) (S : B -> B' -> Prop) f g l l' :
  (forall x y, R x y -> S (f x) (g y)) -> Forall2 R l l' -> Forall2 S (map f l) (map g l').
Proof. intros Hf H. induction H; cbn; constructor; auto. Qed.

(** ** Damage states *)
Section Step.
Variables (n n' i j : nat).
Hypothesis Hi : (i < n)%nat.
Hypothesis Hj : (j < n')%nat.

Lemma pg_columns_step p cap cap' : same_row cap i cap' j -> pg_columns p cap = pg_columns p cap'.
Proof.
  intros H. unfold pg_columns. now rewrite (same_row_keys H).
Qed.
Lemma concat_step {K V} (l l' : list (list (K * list V))) :
  Forall2 (fun f f' => same_row f i f' j) l l' -> same_row (List.concat l) i (List.concat l') j.
Proof. intros H. induction H as [|x y l l' Hx _ IH]; cbn; [constructor|]. now apply Forall2_app. Qed.

Lemma demand_columns_step demands demands' required cap cap' dem :
  same_row demands i demands' j -> same_row cap i cap' j -> demand_columns demands required cap = Ok dem ->
  exists dem', demand_columns demands' required cap' = Ok dem' /\ same_row dem i dem' j.
Proof.
  intros Hd Hc. unfold demand_columns.
  set (g := fun (cap : cap_frame) (d : edp_key * list num) => match aget edp_key_eqb (fst d) required with
                  | None => Err KeyError
                  | Some pgs =>
                      let* cs := mapM (fun p => match pg_columns p cap with [] => Err KeyError | cs => Ok cs end) pgs in
                      Ok (map (fun c => (c, snd d)) (List.concat cs)) end).
  assert (M : forall l, mapM (g cap) demands = Ok l -> exists l', mapM (g cap') demands' = Ok l' /\ Forall2 (fun f f' => same_row f i f' j) l l').
  { induction Hd as [|d d' ds ds' [E N] Hd IH]; cbn [mapM]; intros l Hl; [injection Hl as <-; exists []; split; [reflexivity|constructor]|].
    assert (G : forall x, g cap d = Ok x -> exists x', g cap' d' = Ok x' /\ same_row x i x' j).
    { intros x. unfold g. rewrite <- E. destruct (aget edp_key_eqb (fst d) required) as [pgs|]; [|discriminate].
      assert (P : mapM (fun p => match pg_columns p cap with [] => Err KeyError | cs => Ok cs end) pgs =
                  mapM (fun p => match pg_columns p cap' with [] => Err KeyError | cs => Ok cs end) pgs).
      { clear -Hc. induction pgs as [|p pgs IH]; cbn [mapM]; [reflexivity|]. now rewrite (pg_columns_step p Hc), IH. }
      rewrite P. intros Hx. destruct (mapM (fun p => match pg_columns p cap' with [] => Err KeyError | cs => Ok cs end) pgs) as [cs|]; [|discriminate Hx]. cbn [bind] in Hx |- *. injection Hx as <-. eexists. split; [reflexivity|].
      unfold same_row. induction (List.concat cs) as [|c l' IHl]; cbn; constructor; [|exact IHl]. cbn. split; [reflexivity|exact N]. }
    destruct (g cap d) as [x|]; [|discriminate Hl]. cbn [bind] in Hl. destruct (mapM (g cap) ds) as [xs|]; [|discriminate Hl].
    cbn [bind] in Hl. injection Hl as <-. destruct (G x eq_refl) as (x' & -> & S). destruct (IH xs eq_refl) as (xs' & -> & Ss).
    cbn [bind]. eexists. split; [reflexivity|]. now constructor. }
  destruct demands as [|d ds]; [discriminate|]. destruct demands' as [|d' ds']; [inversion Hd|].
  fold (g cap). fold (g cap'). intros H. destruct (mapM (g cap) (d :: ds)) as [l|] eqn:El; [|discriminate H].
  cbn [bind] in H. injection H as <-. destruct (M l eq_refl) as (l' & -> & S). cbn [bind]. eexists. split; [reflexivity|]. now apply concat_step.
Qed.

Lemma exceedance_step cap cap' dem dem' : same_row cap i cap' j -> same_row dem i dem' j ->
  same_row (exceedance cap dem) i (exceedance cap' dem') j.
Proof.
  intros Hc Hd. unfold exceedance, same_row in *.
  apply map_step with (R := fun c c' : lsc * list num => fst c = fst c' /\ nth_error (snd c) i = nth_error (snd c') j).
  - intros c c' [E N]. cbn [fst snd]. split; [exact E|]. rewrite <- E.
    pose proof (same_row_aget lsc_eqb (fst c) Hd) as A. destruct (aget lsc_eqb (fst c) dem) as [d|], (aget lsc_eqb (fst c) dem') as [d'|]; try easy.
    + now rewrite !map2_nth_error, N, A.
    + now rewrite !nth_error_map, N.
  - apply isort_step; [|exact Hc]. intros a a' b b' [Ea _] [Eb _]. now rewrite Ea, Eb.
Qed.
Lemma apply_ls_step exc exc' lsds lsds' ls ds ds' : same_row exc i exc' j -> same_row lsds i lsds' j -> same_row ds i ds' j ->
  same_row (apply_ls exc lsds ds ls) i (apply_ls exc' lsds' ds' ls) j.
Proof.
  intros He Hl Hd. unfold apply_ls.
  apply map_step with (R := fun c c' : blk * list Z => fst c = fst c' /\ nth_error (snd c) i = nth_error (snd c') j); [|exact Hd].
  intros c c' [E N]. cbn [fst snd]. split; [exact E|]. rewrite <- E.
  pose proof (same_row_aget lsc_eqb (fst c, ls) He) as A. pose proof (same_row_aget lsc_eqb (fst c, ls) Hl) as B.
  destruct (aget lsc_eqb (fst c, ls) exc) as [x|], (aget lsc_eqb (fst c, ls) exc') as [x'|]; try easy.
  destruct (aget lsc_eqb (fst c, ls) lsds) as [y|], (aget lsc_eqb (fst c, ls) lsds') as [y'|]; try easy.
  now rewrite !map3_nth_error, N, A, B.
Qed.
Lemma evaluate_step demands demands' required cap cap' lsds lsds' ds :
  same_row demands i demands' j -> same_row cap i cap' j -> same_row lsds i lsds' j ->
  evaluate_damage_state n demands required cap lsds = Ok ds ->
  exists ds', evaluate_damage_state n' demands' required cap' lsds' = Ok ds' /\ same_row ds i ds' j.
Proof.
  intros Hd Hc Hl H. unfold evaluate_damage_state in *. destruct (demand_columns demands required cap) as [dem|] eqn:E; [|discriminate H].
  cbn [bind] in H. injection H as <-. destruct (@demand_columns_step _ _ _ _ _ _ Hd Hc E) as (dem' & -> & Hm). cbn [bind].
  eexists. split; [reflexivity|]. pose proof (exceedance_step Hc Hm) as He.
  assert (L : ls_list (exceedance cap dem) = ls_list (exceedance cap' dem')).
  { unfold ls_list. f_equal. exact (same_row_map (fun k : lsc => snd k) He). }
  rewrite <- L. clear L. generalize (ls_list (exceedance cap dem)). intros lss.
  assert (I0 : same_row (initial_ds n cap) i (initial_ds n' cap') j).
  { assert (G : forall l l' : list blk, l = l' -> same_row (map (fun b => (b, repeat 0%Z n)) l) i (map (fun b => (b, repeat 0%Z n')) l') j).
    { intros l l' <-. induction l as [|b l IH]; cbn; constructor; [|exact IH]. cbn.
      split; [reflexivity|]. now rewrite !nth_error_repeat by assumption. }
    apply G. f_equal. exact (same_row_map (fun k : lsc => fst k) Hc). }
  revert I0. generalize (initial_ds n cap), (initial_ds n' cap'). induction lss as [|ls lss IH]; intros d0 d0' I0; [exact I0|].
  cbn [fold_left]. apply IH. now apply apply_ls_step.
Qed.

(** ** Damage processes *)
Lemma nth_same {A} (c c' : list A) d : nth_error c i = nth_error c' j -> nth i c d = nth j c' d.
Proof.
  intros E. assert (N : forall (l : list A) k, nth k l d = match nth_error l k with Some x => x | None => d end).
  { induction l as [|x l IH]; intros [|k]; cbn; auto. }
  now rewrite !N, E.
Qed.
Lemma highest_step sel ds ds' : same_row ds i ds' j -> highest sel ds i = highest sel ds' j.
Proof.
  intros H. unfold highest. f_equal. induction H as [|c c' ds ds' [E N] _ IH]; [reflexivity|]. cbn. rewrite <- E.
  destruct (sel (fst c)); cbn; [|exact IH]. rewrite IH. f_equal. now apply nth_same.
Qed.
Lemma set_cells_step r r' cols v ds ds' : same_row ds i ds' j -> r i = r' j ->
  same_row (set_cells r cols v ds) i (set_cells r' cols v ds') j.
Proof.
  intros H R. unfold set_cells.
  apply map_step with (R := fun c c' : blk * list Z => fst c = fst c' /\ nth_error (snd c) i = nth_error (snd c') j); [|exact H].
  intros c c' [E N]. rewrite <- E. destruct (cols (fst c)); [|now split]. cbn [fst snd]. split; [reflexivity|].
  rewrite !nth_error_map2_seq, N, R. reflexivity.
Qed.
Lemma source_locs_step source ds ds' : same_row ds i ds' j -> source_locs source ds = source_locs source ds'.
Proof.
  intros H. unfold source_locs. f_equal. induction H as [|c c' ds ds' [E _] _ IH]; [reflexivity|]. cbn. rewrite <- E.
  destruct (is_source source (fst c)); cbn; now rewrite ?IH, ?E.
Qed.
Lemma cmp_in_step c ds ds' : same_row ds i ds' j -> cmp_in c ds = cmp_in c ds'.
Proof. intros H. unfold cmp_in. induction H as [|x x' ds ds' [E _] _ IH]; [reflexivity|]. cbn. now rewrite IH, E. Qed.

Definition same_state (st st' : proc_state) : Prop := same_row (fst st) i (fst st') j /\ snd st = snd st'.
Definition in_step (r r' : result proc_state) : Prop :=
  match r, r' with Ok st, Ok st' => same_state st st' | Err e, Err e' => e = e' | _, _ => False end.
Lemma foldM_step {A} (f : proc_state -> A -> result proc_state) l : (forall st st' x, same_state st st' -> in_step (f st x) (f st' x)) ->
  forall st st', same_state st st' -> in_step (foldM f st l) (foldM f st' l).
Proof.
  intros Hf. induction l as [|x l IH]; intros st st' H; cbn [foldM]; [exact H|]. pose proof (Hf st st' x H) as K.
  destruct (f st x), (f st' x); cbn [bind]; try easy. now apply IH.
Qed.
Lemma event_step source k target v ds ds' : same_row ds i ds' j ->
  same_row (perform_dmg_event source k target v ds) i (perform_dmg_event source k target v ds') j.
Proof. intros H. unfold perform_dmg_event. apply set_cells_step; [exact H|]. now rewrite (highest_step _ H). Qed.
Lemma event_loc_step order source k target v ds ds' : same_row ds i ds' j ->
  same_row (perform_dmg_event_loc order source k target v ds) i (perform_dmg_event_loc order source k target v ds') j.
Proof.
  intros H. unfold perform_dmg_event_loc. rewrite <- (source_locs_step source H). generalize (order (source_locs source ds)).
  intros ls. revert ds ds' H. induction ls as [|l ls IH]; intros ds ds' H; [exact H|]. cbn [fold_left]. apply IH.
  unfold perform_dmg_event_at. apply set_cells_step; [exact H|]. now rewrite (highest_step _ H).
Qed.
Lemma target_step order source ml k st st' info : same_state st st' ->
  in_step (perform_target order source ml k st info) (perform_target order source ml k st' info).
Proof.
  intros [H W]. unfold perform_target. destruct (split_on "_" info) as [|target [|event [|x l]]]; try reflexivity.
  rewrite <- (cmp_in_step target H). destruct (negb (String.eqb target "ALL") && negb (cmp_in target (fst st)))%bool; [split; cbn; [exact H|now rewrite W]|].
  destruct (parse_target_event event) as [v|e]; cbn [bind in_step]; [|reflexivity]. split; [|exact W]. cbn [fst].
  destruct ml; [now apply event_loc_step|now apply event_step].
Qed.
Lemma task_step order st st' t : same_state st st' -> in_step (perform_dmg_task order st t) (perform_dmg_task order st' t).
Proof.
  intros [H W]. unfold perform_dmg_task. destruct (parse_source (fst t)) as [[source ml]|e]; cbn [bind in_step]; [|reflexivity].
  rewrite <- (cmp_in_step source H). destruct (cmp_in source (fst st)); [|split; cbn; [exact H|now rewrite W]].
  apply foldM_step; [|now split]. intros a a' e K. unfold perform_event. destruct (starts_with "DS" (fst e)); [|reflexivity].
  destruct (pyint (str_drop 2 (fst e))) as [k|]; [|reflexivity]. apply foldM_step; [|exact K]. intros b b' info B. now apply target_step.
Qed.
Lemma process_step order tasks ds ds' out w : same_row ds i ds' j ->
  perform_dmg_process order tasks ds = Ok (out, w) ->
  exists out', perform_dmg_process order tasks ds' = Ok (out', w) /\ same_row out i out' j.
Proof.
  intros H E.
  assert (K : in_step (perform_dmg_process order tasks ds) (perform_dmg_process order tasks ds')).
  { unfold perform_dmg_process. apply foldM_step; [|now split]. intros st st' t S. now apply task_step. }
  rewrite E in K. destruct (perform_dmg_process order tasks ds') as [[out' w']|]; [|easy]. destruct K as [K W]. cbn in K, W. subst w'. eauto.
Qed.

(** ** Demands *)
Lemma filter_step {K V} (sel : K -> bool) (f f' : list (K * list V)) : same_row f i f' j ->
  same_row (filter (fun e => sel (fst e)) f) i (filter (fun e => sel (fst e)) f') j.
Proof.
  intros H. induction H as [|c c' f f' [E N] _ IH]; cbn; [constructor|]. rewrite <- E.
  destruct (sel (fst c)); [constructor; [now split|exact IH]|exact IH].
Qed.
Lemma rows_filter {K V} (sel : K * list V -> bool) m (f : list (K * list V)) : rows m f -> rows m (filter sel f).
Proof. intros H. unfold rows in *. rewrite Forall_forall in *. intros c Hc. apply filter_In in Hc. now apply H. Qed.
Lemma nth_rows {K} (f : list (K * list num)) (f' : list (K * list num)) : same_row f i f' j ->
  map (fun c => nth i c None) (map snd f) = map (fun c => nth j c None) (map snd f').
Proof. intros H. induction H as [|c c' f f' [_ N] _ IH]; [reflexivity|]. cbn. rewrite IH. f_equal. now apply nth_same. Qed.
Lemma max_step {K} (f f' : list (K * list num)) : same_row f i f' j -> rows n f -> rows n' f' -> f <> [] ->
  nth_error (max_columns (map snd f)) i = nth_error (max_columns (map snd f')) j.
Proof.
  intros H R R' Ne. pose proof (nth_rows H) as E. destruct H as [|c c' f f' C H]; [easy|].
  apply Forall_inv in R. apply Forall_inv in R'. cbn [map] in *. unfold max_columns.
  rewrite !nth_error_map, R, R', !nth_error_seq by assumption. cbn [option_map]. exact (f_equal (fun l => Some (nmax l)) E).
Qed.
Lemma existsb_step {K V} (g : K -> bool) (f f' : list (K * list V)) : same_row f i f' j ->
  existsb (fun e => g (fst e)) f = existsb (fun e => g (fst e)) f'.
Proof. intros H. induction H as [|c c' f f' [E _] _ IH]; [reflexivity|]. cbn [existsb]. now rewrite IH, E. Qed.
Lemma foldM_same {A B} (f g : A -> B -> result A) l : (forall a x, f a x = g a x) -> forall a, foldM f a l = foldM g a l.
Proof. intros E. induction l as [|x l IH]; intros a; cbn [foldM]; [reflexivity|]. rewrite E. destruct (g a x); [apply IH|reflexivity]. Qed.
Section Demands.
Variables (eval : string -> dict (list num) -> result (list num)) (nterms : string -> result nat) (params : dict demand_params) (offsets multipliers : dict Qc).
Hypothesis Heval : forall c vars vars' v, same_row vars i vars' j -> eval c vars = Ok v -> exists v', eval c vars' = Ok v' /\ nth_error v i = nth_error v' j.
Variables (sample sample' : frame).
Hypothesis Hs : same_row sample i sample' j.
Hypothesis Hr : rows n sample.
Hypothesis Hr' : rows n' sample'.

Lemma edp_step edp v : edp_values multipliers sample edp = Ok v ->
  exists v', edp_values multipliers sample' edp = Ok v' /\ nth_error v i = nth_error v' j.
Proof.
  unfold edp_values. destruct (split_on "-" edp) as [|ty [|l [|d [|x xs]]]]; try discriminate.
  destruct (String.eqb d "0").
  - set (sel := fun k : list string => match k with a :: b :: _ => (String.eqb a ty && String.eqb b l)%bool | _ => false end).
    change (fun e => match fst e with a :: b :: _ => (String.eqb a ty && String.eqb b l)%bool | _ => false end) with (fun e : list string * list num => sel (fst e)).
    pose proof (filter_step sel Hs) as F. pose proof (@rows_filter _ _ (fun e : list string * list num => sel (fst e)) _ _ Hr) as R. pose proof (@rows_filter _ _ (fun e : list string * list num => sel (fst e)) _ _ Hr') as R'.
    destruct (filter (fun e : list string * list num => sel (fst e)) sample) as [|c cs]; [discriminate|].
    destruct (filter (fun e : list string * list num => sel (fst e)) sample') as [|c' cs']; [inversion F|].
    destruct (match dget ty multipliers with Some m => Ok m | None => match dget "ALL" multipliers with Some m => Ok m | None => Err ValueError end end) as [m|]; [|discriminate].
    cbn [bind]. intros [= <-]. eexists. split; [reflexivity|]. unfold scale_values.
    assert (Ne : c :: cs <> []) by discriminate. etransitivity; [apply nth_error_map|]. etransitivity; [|symmetry; apply nth_error_map]. exact (f_equal (option_map (fun v => nmul v (Some m))) (max_step F R R' Ne)).
  - pose proof (same_row_aget label_eqb [ty; l; d] Hs) as A. destruct (aget label_eqb [ty; l; d] sample) as [w|]; [|discriminate].
    intros [= <-]. destruct (aget label_eqb [ty; l; d] sample') as [w'|]; [|easy]. eauto.
Qed.
Lemma dset_step (acc acc' : dict (list num)) k v v' : same_row acc i acc' j -> nth_error v i = nth_error v' j ->
  same_row (dset k v acc) i (dset k v' acc') j.
Proof.
  intros H N. induction H as [|[a c] [a' c'] acc acc' [E M] H IH]; cbn in *; [constructor; [now split|constructor]|]. subst a'.
  destruct (String.eqb k a); constructor; try assumption; now split.
Qed.
Lemma collect_step edps : forall acc acc' out, same_row acc i acc' j -> collect multipliers sample edps acc = Ok out ->
  exists out', collect multipliers sample' edps acc' = Ok out' /\ same_row out i out' j.
Proof.
  induction edps as [|e edps IH]; intros acc acc' out H; cbn [collect]; [intros [= <-]; eauto|].
  destruct (edp_values multipliers sample e) as [v|] eqn:E; [|discriminate]. cbn [bind]. intros Hc.
  destruct (edp_step _ E) as (v' & -> & N). cbn [bind]. apply (IH _ (dset e v' acc') _ (@dset_step _ _ e _ _ H N) Hc).
Qed.
Lemma assemble_step k v : assemble_one eval multipliers sample k = Ok v ->
  exists v', assemble_one eval multipliers sample' k = Ok v' /\ nth_error v i = nth_error v' j.
Proof.
  unfold assemble_one. destruct (collect multipliers sample (fst k) []) as [vals|] eqn:E; [|discriminate]. cbn [bind].
  destruct (@collect_step (fst k) [] [] vals (Forall2_nil _) E) as (vals' & -> & S). cbn [bind].
  destruct (snd k) as [e|].
  - destruct (clean_up_expression e) as [c|]; [|discriminate]. cbn [bind]. apply Heval. clear -S.
    assert (G : forall start m, same_row (map (fun iv => (("X" ++ str_of_nat (Datatypes.S (fst iv)))%string, snd (snd iv))) (combine (seq start m) vals)) i
        (map (fun iv => (("X" ++ str_of_nat (Datatypes.S (fst iv)))%string, snd (snd iv))) (combine (seq start m) vals')) j).
    { induction S as [|x y vals vals' [Ex N] S IH]; intros start [|m]; cbn [seq combine map]; try constructor; [now split|apply IH]. }
    assert (L : List.length vals = List.length vals') by (clear G; induction S; cbn; congruence). rewrite L. apply G.
  - assert (R : same_row (rev vals) i (rev vals') j).
    { clear -S. induction S as [|x y vals vals' R S IH]; cbn; [constructor|]. apply Forall2_app; [exact IH|]. constructor; [exact R|constructor]. }
    destruct R as [|x y l l' [_ N] R]; [discriminate|]. intros [= <-]. eauto.
Qed.
Lemma verify_step ks : verify_edps_available sample ks = verify_edps_available sample' ks.
Proof.
  assert (X : forall ty l, existsb (fun e : list string * list num => match fst e with a :: b :: _ => (String.eqb a ty && String.eqb b l)%bool | _ => false end) sample =
                           existsb (fun e : list string * list num => match fst e with a :: b :: _ => (String.eqb a ty && String.eqb b l)%bool | _ => false end) sample').
  { intros ty l. exact (existsb_step (fun k : list string => match k with a :: b :: _ => (String.eqb a ty && String.eqb b l)%bool | _ => false end) Hs). }
  unfold verify_edps_available. apply foldM_same. intros _ k. apply foldM_same. intros _ e.
  destruct (split_on "-" e) as [|ty [|l [|d [|x xs]]]]; try reflexivity. now rewrite X.
Qed.
Lemma batch_demands_step pgs req dem : batch_demands nterms eval params offsets multipliers sample pgs = Ok (req, dem) ->
  exists dem', batch_demands nterms eval params offsets multipliers sample' pgs = Ok (req, dem') /\ same_row dem i dem' j.
Proof.
  unfold batch_demands. destruct (get_required_demand_type nterms params offsets pgs) as [req0|]; [|discriminate]. cbn [bind].
  rewrite (verify_step (map fst req0)). destruct (verify_edps_available sample' (map fst req0)); [|discriminate]. cbn [bind].
  assert (A : forall ks out, assemble_required_demand_data eval multipliers sample ks = Ok out ->
    exists out', assemble_required_demand_data eval multipliers sample' ks = Ok out' /\ same_row out i out' j).
  { unfold assemble_required_demand_data. induction ks as [|k ks IH]; cbn [mapM]; intros out; [intros [= <-]; exists []; split; [reflexivity|constructor]|].
    destruct (assemble_one eval multipliers sample k) as [v|] eqn:E; [|discriminate]. cbn [bind].
    destruct (assemble_step _ E) as (v' & -> & N). cbn [bind].
    destruct (mapM _ ks) as [vs|]; [|discriminate]. cbn [bind]. intros [= <-]. destruct (IH vs eq_refl) as (vs' & -> & S). cbn [bind].
    eexists. split; [reflexivity|]. constructor; [now split|exact S]. }
  destruct (assemble_required_demand_data eval multipliers sample (map fst req0)) as [d|] eqn:E; [|discriminate]. cbn [bind].
  intros [= <- <-]. destruct (A _ _ E) as (d' & -> & S). cbn [bind]. eauto.
Qed.

(** ** All batches *)
Variables (cap cap' : cap_frame) (lsds lsds' : lsds_frame).
Hypothesis Hc : same_row cap i cap' j.
Hypothesis Hl : same_row lsds i lsds' j.
Hypothesis Hn : n_rows sample = n.
Hypothesis Hn' : n_rows sample' = n'.
Lemma obtain_step missing available size cb ds :
  obtain_ds_sample nterms eval params offsets multipliers sample cap lsds missing available size cb = Ok ds ->
  exists ds', obtain_ds_sample nterms eval params offsets multipliers sample' cap' lsds' missing available size cb = Ok ds' /\ same_row ds i ds' j.
Proof.
  unfold obtain_ds_sample. destruct (get_pg_batches missing available size cb) as [out|]; [|discriminate]. cbn [bind].
  assert (B : forall pgs d, obtain_batch nterms eval params offsets multipliers sample cap lsds pgs = Ok d ->
    exists d', obtain_batch nterms eval params offsets multipliers sample' cap' lsds' pgs = Ok d' /\ same_row d i d' j).
  { intros pgs d. unfold obtain_batch. destruct (batch_demands nterms eval params offsets multipliers sample pgs) as [[req dem]|] eqn:E; [|discriminate].
    destruct (batch_demands_step _ E) as (dem' & -> & S). cbn [bind fst snd]. rewrite Hn, Hn'.
    apply evaluate_step; [exact S| |].
    - exact (filter_step (fun k : lsc => existsb (pg_eqb (b_of (fst k))) pgs) Hc).
    - exact (filter_step (fun k : lsc => existsb (pg_eqb (b_of (fst k))) pgs) Hl). }
  assert (A : forall ks dss, mapM (fun k => obtain_batch nterms eval params offsets multipliers sample cap lsds (batch_groups out k)) ks = Ok dss ->
    exists dss', mapM (fun k => obtain_batch nterms eval params offsets multipliers sample' cap' lsds' (batch_groups out k)) ks = Ok dss' /\
      Forall2 (fun f f' => same_row f i f' j) dss dss').
  { induction ks as [|k ks IH]; cbn [mapM]; intros dss; [intros [= <-]; exists []; split; [reflexivity|constructor]|].
    destruct (obtain_batch nterms eval params offsets multipliers sample cap lsds (batch_groups out k)) as [d|] eqn:E; [|discriminate]. cbn [bind].
    destruct (B _ _ E) as (d' & -> & S). cbn [bind]. destruct (mapM _ ks) as [ds1|]; [|discriminate]. cbn [bind]. intros [= <-].
    destruct (IH ds1 eq_refl) as (ds1' & -> & S1). cbn [bind]. eexists. split; [reflexivity|]. now constructor. }
  destruct (batch_ids out) as [|k ks]; [discriminate|].
  destruct (mapM _ (k :: ks)) as [dss|] eqn:E; [|discriminate]. cbn [bind]. intros [= <-].
  destruct (A _ _ E) as (dss' & -> & S). cbn [bind]. eexists. split; [reflexivity|]. now apply concat_step.
Qed.
End Demands.
End Step.
