(** Proofs about capacity variables and damage state numbering (damage_model.py:1163-1596). *)
From Coq Require Import Sorting.Permutation Sorting.Sorted.
From Verif Require Import Prelude PreludeFacts Pandas PandasFacts M_Base P_Base M_Damage S_Damage P_Eval P_Qty P_Text P_Proc.
Local Open Scope string_scope.
Local Open Scope list_scope.

Ltac bind_inv H :=
  match type of H with
  | bind ?r _ = Ok _ => let E := fresh "E" in destruct r as [?|?] eqn:E; cbn [bind] in H; [|discriminate H]
  end.

(** ** Number of pieces of a weight string *)
Lemma split_length_remove c d s : Ascii.eqb c d = false ->
  List.length (split_on c (remove_char d s)) = List.length (split_on c s).
Proof.
  intros Hcd. induction s as [|a s IH]; simpl; [easy|].
  destruct (Ascii.eqb_spec a d) as [->|Hd].
  - rewrite Ascii.eqb_sym, Hcd. rewrite IH. pose proof (split_on_nonempty c s) as Hne.
    now destruct (split_on c s).
  - simpl. destruct (Ascii.eqb a c); simpl; [now rewrite IH|].
    pose proof (split_on_nonempty c s) as Hne. pose proof (split_on_nonempty c (remove_char d s)) as Hne'.
    destruct (split_on c s), (split_on c (remove_char d s)); simpl in *; congruence.
Qed.

Lemma state_count_pos p : (1 <= state_count p)%nat.
Proof.
  unfold state_count. destruct (ds_weights p) as [w|]; [|easy]. pose proof (split_on_nonempty "|" w).
  destruct (split_on "|" w); [easy|]. simpl. lia.
Qed.

Lemma assign_lsds_spec pf p ds_id nxt rv :
  assign_lsds pf (ds_weights p) ds_id = Ok (nxt, rv) ->
  nxt = (ds_id + Z.of_nat (state_count p))%Z /\
  possible_states rv = map (fun k => ds_id + Z.of_nat k)%Z (seq 1 (state_count p)).
Proof.
  unfold assign_lsds, state_count. destruct (ds_weights p) as [w|].
  - intros H. bind_inv H. injection H as <- <-. apply mapM_ok_length in E.
    rewrite split_length_remove in E by easy. rewrite E. split; [easy|].
    cbn [possible_states]. rewrite E, <- seq_shift, map_map. apply map_ext. intros. lia.
  - intros [= <- <-]. simpl. split; [lia|]. f_equal.
Qed.

(** ** Variables of one limit state *)
Local Notation rvt := (capacity_rv * (lsc * lsds_rv))%type.

Lemma ls_rvs_spec pf p ls first anchors prm th blocks : forall ds_id rvs nxt,
  ls_rvs pf p ls first anchors prm th ds_id blocks = Ok (rvs, nxt) ->
  (blocks <> [] -> nxt = (ds_id + Z.of_nat (state_count prm))%Z) /\
  map (fun r : rvt => c_col (fst r)) rvs = map (fun b => (Blk p (str_of_nat (S b)), ls)) blocks /\
  (forall r : rvt, In r rvs ->
     fst (snd r) = c_col (fst r) /\ c_family (fst r) = family_of prm /\
     c_trunc (fst r) = (tr_lower prm, tr_upper prm) /\
     possible_states (snd (snd r)) = map (fun k => ds_id + Z.of_nat k)%Z (seq 1 (state_count prm)) /\
     (String.eqb (family_of prm) "multilinear_CDF" = false -> c_theta (fst r) = th) /\
     exists b, In b blocks /\ c_col (fst r) = (Blk p (str_of_nat (S b)), ls) /\
       (String.eqb (family_of prm) "multilinear_CDF" = true -> b = 0%nat /\ c_theta (fst r) = th) /\
       c_anchor (fst r) = if first then None else nth_error anchors b).
Proof.
  induction blocks as [|b blocks IH]; intros ds_id rvs nxt H; cbn [ls_rvs] in H.
  - injection H as <- <-. split; [easy|]. split; [easy|]. now intros r [].
  - bind_inv H. bind_inv H. bind_inv H. destruct a1 as [nx rv]. bind_inv H. destruct a1 as [rest ?].
    injection H as <- <-. destruct (IH _ _ _ E2) as (_ & IH2 & IH3).
    destruct (assign_lsds_spec _ _ _ _ _ E1) as [-> Hp].
    assert (Ha : a = if first then None else nth_error anchors b).
    { destruct first; [congruence|]. destruct (nth_error anchors b); congruence. }
    split; [easy|]. split; [simpl; now rewrite IH2|]. intros r [<-|Hr]; cbn [fst snd c_col c_family c_trunc c_theta c_anchor].
    + do 4 (split; [easy|]). split.
      * intros Ef. unfold block_theta in E0. rewrite Ef in E0. congruence.
      * exists b. split; [now left|]. split; [easy|]. split; [|exact Ha].
        intros Ef. unfold block_theta in E0. rewrite Ef in E0. destruct b; [|easy]. now destruct th; [easy|easy|injection E0 as <-].
    + destruct (IH3 r Hr) as (R1 & R2 & R3 & R4 & R5 & b' & Hb' & R6). do 5 (split; [easy|]).
      exists b'. split; [now right|easy].
Qed.

(** ** One performance group *)

Definition of_block (b : blk) (r : rvt) : bool := blk_eqb (fst (c_col (fst r))) b.

Lemma filter_one {A} (f : A -> bool) l1 x l2 :
  f x = true -> (forall y, In y l1 -> f y = false) -> (forall y, In y l2 -> f y = false) ->
  filter f (l1 ++ x :: l2) = [x].
Proof.
  intros Hx H1 H2. rewrite filter_app, (filter_none f l1 H1). simpl. now rewrite Hx, (filter_none f l2 H2).
Qed.

Lemma NoDup_map_filter_one {A B} (g : A -> B) (eqb : B -> B -> bool) (eqb_eq : forall a b, eqb a b = true <-> a = b) l k :
  NoDup (map g l) -> In k (map g l) -> exists x, In x l /\ g x = k /\ filter (fun x => eqb (g x) k) l = [x].
Proof.
  intros Hn Hin. apply in_map_iff in Hin as (x & <- & Hx). exists x. split; [easy|]. split; [easy|].
  apply in_split in Hx as (l1 & l2 & ->). rewrite map_app in Hn. simpl in Hn.
  apply NoDup_remove_2 in Hn. apply filter_one.
  - now apply eqb_eq.
  - intros y Hy. destruct (eqb (g y) (g x)) eqn:E; [|easy]. apply eqb_eq in E. exfalso. apply Hn.
    apply in_or_app. left. rewrite <- E. now apply in_map.
  - intros y Hy. destruct (eqb (g y) (g x)) eqn:E; [|easy]. apply eqb_eq in E. exfalso. apply Hn.
    apply in_or_app. right. rewrite <- E. now apply in_map.
Qed.

Lemma ls_rvs_block pf p ls first anchors prm th n ds_id rvs nxt b :
  ls_rvs pf p ls first anchors prm th ds_id (seq 0 n) = Ok (rvs, nxt) -> (b < n)%nat ->
  exists r, In r rvs /\ c_col (fst r) = (Blk p (str_of_nat (S b)), ls) /\
            filter (of_block (Blk p (str_of_nat (S b)))) rvs = [r].
Proof.
  intros H Hb. destruct (ls_rvs_spec _ _ _ _ _ _ _ _ _ _ _ H) as (_ & Hcols & _).
  assert (Hc : map (fun r : rvt => fst (c_col (fst r))) rvs = map (fun b => Blk p (str_of_nat (S b))) (seq 0 n)).
  { rewrite <- (map_map (fun r : rvt => c_col (fst r)) fst), Hcols, map_map. easy. }
  destruct (NoDup_map_filter_one (fun r : rvt => fst (c_col (fst r))) blk_eqb blk_eqb_eq rvs (Blk p (str_of_nat (S b)))) as (r & Hr & Er & Ef).
  - rewrite Hc. apply FinFun.Injective_map_NoDup; [|apply seq_NoDup].
    intros x y [= E]. apply str_of_nat_inj in E. lia.
  - rewrite Hc. apply (in_map (fun b => Blk p (str_of_nat (S b)))). apply in_seq. lia.
  - exists r. split; [easy|]. split; [|easy].
    assert (Hin : In (c_col (fst r)) (map (fun r : rvt => c_col (fst r)) rvs)) by (apply (in_map (fun r : rvt => c_col (fst r))); exact Hr).
    rewrite Hcols in Hin. apply in_map_iff in Hin as (b' & Eb' & _). rewrite <- Eb' in Er |- *. simpl in Er.
    now rewrite Er.
Qed.

Lemma ds_count_cons c row : ds_count (c :: row) = ((if has_capacity c then state_count (snd c) else 0) + ds_count row)%nat.
Proof.
  unfold ds_count, has_capacity, state_count. simpl. destruct (contains "LS" (fst c)); [|easy]. simpl.
  now destruct (theta_0 (snd c)).
Qed.

(** States of one block, over its limit states in order, are consecutive. *)
Lemma pg_rvs_states pf p n adj first b : (b < n)%nat -> forall row anchors ds_id rvs,
  pg_rvs pf p n adj first anchors ds_id row = Ok rvs ->
  flat_map (fun r : rvt => possible_states (snd (snd r))) (filter (of_block (Blk p (str_of_nat (S b)))) rvs) =
  map (fun k => ds_id + Z.of_nat k)%Z (seq 1 (ds_count row)).
Proof.
  intros Hb. induction row as [|[name prm] row IH]; intros anchors ds_id rvs H; cbn [pg_rvs] in H.
  - injection H as <-. easy.
  - rewrite ds_count_cons. unfold has_capacity. cbn [fst snd].
    destruct (contains "LS" name) eqn:El; cbn [andb].
    2:{ now apply IH in H. }
    assert (Hdef : forall q, theta_0 prm <> TNaN -> q = (let* th := adjusted_theta adj (str_drop 2 name) prm in
             let is_first := String.eqb (str_drop 2 name) first in
             let* (rvs0, nxt) := ls_rvs pf p (str_drop 2 name) is_first anchors prm th ds_id (seq 0 n) in
             let anchors' := if is_first then anchors ++ map (fun r => c_col (fst r)) rvs0 else anchors in
             let* rest := pg_rvs pf p n adj first anchors' nxt row in Ok (rvs0 ++ rest)) ->
             q = Ok rvs ->
      flat_map (fun r : rvt => possible_states (snd (snd r))) (filter (of_block (Blk p (str_of_nat (S b)))) rvs) =
      map (fun k => ds_id + Z.of_nat k)%Z (seq 1 (state_count prm + ds_count row))).
    { intros q _ -> Hq. bind_inv Hq. cbv zeta in Hq. bind_inv Hq. destruct a0 as [rvs0 nxt]. bind_inv Hq.
      injection Hq as <-. rewrite filter_app, flat_map_app. apply IH in E1. rewrite E1.
      destruct (ls_rvs_block _ _ _ _ _ _ _ _ _ _ _ b E0 Hb) as (r & Hr & _ & Ef).
      destruct (ls_rvs_spec _ _ _ _ _ _ _ _ _ _ _ E0) as (Hn & _ & Hall).
      rewrite Ef. simpl. rewrite app_nil_r. destruct (Hall r Hr) as (_ & _ & _ & -> & _).
      rewrite Hn by (destruct n; [lia|easy]). rewrite seq_app, map_app. f_equal.
      replace (1 + state_count prm)%nat with (state_count prm + 1)%nat by lia.
      rewrite (seq_shift_add (state_count prm) 1), map_map. apply map_ext. intros. lia. }
    destruct (theta_0 prm) eqn:Et; [| |now apply IH in H].
    + eapply Hdef; [discriminate|reflexivity|exact H].
    + eapply Hdef; [discriminate|reflexivity|exact H].
Qed.

Lemma pg_rvs_step pf p n adj first anchors ds_id name prm row :
  pg_rvs pf p n adj first anchors ds_id ((name, prm) :: row) =
  if has_capacity (name, prm) then
    let* th := adjusted_theta adj (str_drop 2 name) prm in
    let* (rvs, nxt) := ls_rvs pf p (str_drop 2 name) (String.eqb (str_drop 2 name) first) anchors prm th ds_id (seq 0 n) in
    let* rest := pg_rvs pf p n adj first
                   (if String.eqb (str_drop 2 name) first then anchors ++ map (fun r : rvt => c_col (fst r)) rvs else anchors)
                   nxt row in
    Ok (rvs ++ rest)
  else pg_rvs pf p n adj first anchors ds_id row.
Proof.
  unfold has_capacity. cbn [fst snd pg_rvs]. destruct (contains "LS" name); [|easy].
  now destruct (theta_0 prm).
Qed.

(** Columns, families and bounds of all variables of a group; number of states. *)
Lemma pg_rvs_cols pf p n adj first b : (b < n)%nat -> forall row anchors ds_id rvs,
  pg_rvs pf p n adj first anchors ds_id row = Ok rvs ->
  map (fun r : rvt => (snd (c_col (fst r)), List.length (possible_states (snd (snd r)))))
      (filter (of_block (Blk p (str_of_nat (S b)))) rvs) =
  map (fun c : string * ls_params => (str_drop 2 (fst c), state_count (snd c))) (filter has_capacity row).
Proof.
  intros Hb. induction row as [|[name prm] row IH]; intros anchors ds_id rvs H.
  - injection H as <-. easy.
  - rewrite pg_rvs_step in H. cbn [filter]. destruct (has_capacity (name, prm)).
    2:{ now apply IH in H. }
    bind_inv H. bind_inv H. destruct a0 as [rvs0 nxt]. bind_inv H. injection H as <-.
    rewrite filter_app, map_app. apply IH in E1. rewrite E1.
    destruct (ls_rvs_block _ _ _ _ _ _ _ _ _ _ _ b E0 Hb) as (r & Hr & Ec & Ef).
    destruct (ls_rvs_spec _ _ _ _ _ _ _ _ _ _ _ E0) as (_ & _ & Hall).
    rewrite Ef. cbn [map app]. f_equal. rewrite Ec. destruct (Hall r Hr) as (_ & _ & _ & -> & _).
    now rewrite map_length, seq_length.
Qed.

(** Every variable belongs to the group and comes from one limit state column. *)
Lemma pg_rvs_from pf p n adj first : forall row anchors ds_id rvs,
  pg_rvs pf p n adj first anchors ds_id row = Ok rvs ->
  forall r : rvt, In r rvs -> exists name prm b th,
    In (name, prm) row /\ has_capacity (name, prm) = true /\ (b < n)%nat /\
    c_col (fst r) = (Blk p (str_of_nat (S b)), str_drop 2 name) /\ fst (snd r) = c_col (fst r) /\
    c_family (fst r) = family_of prm /\ c_trunc (fst r) = (tr_lower prm, tr_upper prm) /\
    adjusted_theta adj (str_drop 2 name) prm = Ok th /\ c_theta (fst r) = th.
Proof.
  induction row as [|[name prm] row IH]; intros anchors ds_id rvs H r Hr.
  - injection H as <-. easy.
  - rewrite pg_rvs_step in H. destruct (has_capacity (name, prm)) eqn:Ed.
    2:{ destruct (IH _ _ _ H r Hr) as (nm & pr & b & th & Hin & HH). exists nm, pr, b, th. split; [now right|easy]. }
    bind_inv H. bind_inv H. destruct a0 as [rvs0 nxt]. bind_inv H. injection H as <-.
    apply in_app_or in Hr as [Hr|Hr].
    + destruct (ls_rvs_spec _ _ _ _ _ _ _ _ _ _ _ E0) as (_ & _ & Hall).
      destruct (Hall r Hr) as (R1 & R2 & R3 & _ & R5 & b & Hb & R6 & R7 & _).
      exists name, prm, b, a. split; [now left|]. split; [easy|]. apply in_seq in Hb. split; [lia|].
      do 5 (split; [easy|]). destruct (String.eqb (family_of prm) "multilinear_CDF") eqn:Ef; [now apply R7|now apply R5].
    + destruct (IH _ _ _ E1 r Hr) as (nm & pr & b & th & Hin & HH). exists nm, pr, b, th. split; [now right|easy].
Qed.

(** ** Anchors *)
Lemma pg_rvs_anchors_after pf p n adj first : forall row ds_id rvs,
  ~ In first (limit_states row) ->
  pg_rvs pf p n adj first (map (fun b => (Blk p (str_of_nat (S b)), first)) (seq 0 n)) ds_id row = Ok rvs ->
  forall r : rvt, In r rvs -> snd (c_col (fst r)) <> first /\
    c_anchor (fst r) = Some (fst (c_col (fst r)), first).
Proof.
  induction row as [|[name prm] row IH]; intros ds_id rvs Hn H r Hr.
  - injection H as <-. easy.
  - rewrite pg_rvs_step in H.
    assert (Hn' : ~ In first (limit_states row)).
    { intros Hin. apply Hn. unfold limit_states in *. cbn [filter fst].
      destruct (contains "LS" name); [now right|easy]. }
    destruct (has_capacity (name, prm)) eqn:Ed.
    2:{ eapply IH; eauto. }
    assert (Hne : String.eqb (str_drop 2 name) first = false).
    { apply String.eqb_neq. intros E. apply Hn. unfold limit_states. cbn [filter fst].
      unfold has_capacity in Ed. cbn [fst] in Ed. destruct (contains "LS" name); [|easy]. left. exact E. }
    rewrite Hne in H. bind_inv H. bind_inv H. destruct a0 as [rvs0 nxt]. bind_inv H. injection H as <-.
    apply in_app_or in Hr as [Hr|Hr]; [|eapply IH; eauto].
    destruct (ls_rvs_spec _ _ _ _ _ _ _ _ _ _ _ E0) as (_ & _ & Hall).
    destruct (Hall r Hr) as (_ & _ & _ & _ & _ & b & Hb & R6 & _ & R8). rewrite R6, R8. cbn [fst snd].
    split; [now apply String.eqb_neq|]. apply in_seq in Hb.
    rewrite nth_error_map, nth_error_seq by lia. easy.
Qed.

Lemma limit_states_cons name prm row :
  limit_states ((name, prm) :: row) = if contains "LS" name then str_drop 2 name :: limit_states row else limit_states row.
Proof. unfold limit_states. cbn [filter fst]. now destruct (contains "LS" name). Qed.

Lemma pg_rvs_no_anchor pf p n adj first : (0 < n)%nat -> forall row ds_id rvs,
  ~ In first (limit_states row) -> pg_rvs pf p n adj first [] ds_id row = Ok rvs ->
  rvs = [] /\ filter has_capacity row = [].
Proof.
  intros Hpos. induction row as [|[name prm] row IH]; intros ds_id rvs Hn H.
  - injection H as <-. easy.
  - rewrite pg_rvs_step in H. rewrite limit_states_cons in Hn. cbn [filter]. destruct (has_capacity (name, prm)) eqn:Ed.
    + exfalso. unfold has_capacity in Ed. cbn [fst] in Ed. destruct (contains "LS" name); [|easy].
      assert (Hne : String.eqb (str_drop 2 name) first = false).
      { apply String.eqb_neq. intros E. apply Hn. now left. }
      rewrite Hne in H. bind_inv H. bind_inv H. destruct n; [lia|]. cbn in E0. discriminate E0.
    + apply IH in H; [easy|]. intros Hin. apply Hn. now destruct (contains "LS" name); [right|].
Qed.

Lemma pg_rvs_anchors pf p n adj ds_id : forall row rvs, (0 < n)%nat ->
  NoDup (limit_states row) ->
  pg_rvs pf p n adj (hd "" (limit_states row)) [] ds_id row = Ok rvs ->
  forall r : rvt, In r rvs ->
    c_anchor (fst r) = if String.eqb (snd (c_col (fst r))) (hd "" (limit_states row)) then None
                       else Some (fst (c_col (fst r)), hd "" (limit_states row)).
Proof.
  intros row rvs Hpos. revert rvs. induction row as [|[name prm] row IH]; intros rvs Hn H r Hr.
  - injection H as <-. easy.
  - rewrite pg_rvs_step in H. rewrite limit_states_cons in *. destruct (has_capacity (name, prm)) eqn:Ed.
    + assert (Hc : contains "LS" name = true).
      { unfold has_capacity in Ed. cbn [fst] in Ed. now destruct (contains "LS" name). }
      rewrite Hc in *. cbn [hd] in *. rewrite String.eqb_refl in H. bind_inv H. bind_inv H. destruct a0 as [rvs0 nxt].
      bind_inv H. injection H as <-.
      destruct (ls_rvs_spec _ _ _ _ _ _ _ _ _ _ _ E0) as (_ & Hcols & Hall).
      apply in_app_or in Hr as [Hr|Hr].
      * destruct (Hall r Hr) as (_ & _ & _ & _ & _ & b & Hb & R6 & _ & R8). rewrite R6, R8. cbn [snd].
        now rewrite String.eqb_refl.
      * cbn [app] in E1. rewrite Hcols in E1. inversion Hn as [|? ? Hnot _]; subst.
        destruct (pg_rvs_anchors_after _ _ _ _ _ _ _ _ Hnot E1 r Hr) as [Hne ->].
        apply <- String.eqb_neq in Hne. destruct (String.eqb_spec (snd (c_col (fst r))) (str_drop 2 name)) as [E2|E2]; [|easy]. rewrite E2 in Hne. rewrite String.eqb_refl in Hne. discriminate Hne.
    + destruct (contains "LS" name) eqn:Hc; [|exact (IH _ Hn H r Hr)].
      cbn [hd] in *. inversion Hn as [|? ? Hnot _]; subst.
      apply pg_rvs_no_anchor in H as [-> _]; [|easy|easy]. easy.
Qed.

(** ** Batches *)
Definition group_part pf (params : dict frg_row) (sc : scaling) (e : pg * nat) : result (list rvt) :=
  let (p, n) := e in
  match dget (cmp p) params with
  | None => Ok []
  | Some row => pg_rvs pf p n (dget (join "-" [cmp p; loc p; dir p]) sc) (hd "" (limit_states row)) [] 0 row
  end.

Lemma create_inv pf params spec batch rvs : create_dmg_RVs pf params spec batch = Ok rvs ->
  exists sc l, parse_scaling_specification pf spec = Ok sc /\ Forall2 (fun e x => group_part pf params sc e = Ok x) batch l /\
               rvs = List.concat l.
Proof.
  unfold create_dmg_RVs. intros H. bind_inv H. bind_inv H. injection H as <-. exists a, a0. split; [easy|].
  split; [|easy]. apply mapM_Forall2 in E0. exact E0.
Qed.

Lemma group_part_block pf params sc p n x r : group_part pf params sc (p, n) = Ok x -> In r x ->
  b_of (fst (c_col (fst r))) = p.
Proof.
  unfold group_part. destruct (dget (cmp p) params); [|intros [= <-]; easy].
  intros H Hr. destruct (pg_rvs_from _ _ _ _ _ _ _ _ _ H r Hr) as (? & ? & ? & ? & _ & _ & _ & -> & _). easy.
Qed.

Lemma filter_group pf params sc p n b : forall batch l,
  Forall2 (fun e x => group_part pf params sc e = Ok x) batch l -> NoDup (map fst batch) -> In (p, n) batch ->
  exists x, group_part pf params sc (p, n) = Ok x /\
            filter (of_block (Blk p b)) (List.concat l) = filter (of_block (Blk p b)) x.
Proof.
  intros batch l H. induction H as [|[q m] x batch l Hx Hl IH]; [easy|]. cbn [map fst]. intros Hn Hin.
  inversion Hn as [|? ? Hnot Hn']; subst. cbn [List.concat]. rewrite filter_app.
  assert (Hother : forall q' m' x', q' <> p -> group_part pf params sc (q', m') = Ok x' -> filter (of_block (Blk p b)) x' = []).
  { intros q' m' x' Hne Hg. apply filter_none. intros r Hr. apply (group_part_block _ _ _ _ _ _ _ Hg) in Hr.
    unfold of_block. destruct (blk_eqb _ _) eqn:E; [|easy]. apply blk_eqb_eq in E. rewrite E in Hr. cbn in Hr. congruence. }
  destruct Hin as [[= -> ->]|Hin].
  - exists x. split; [easy|]. rewrite <- (app_nil_r (filter _ x)) at 2. f_equal.
    clear - Hl Hnot Hother. induction Hl as [|[q' m'] x' batch l Hx Hl IH]; [easy|]. cbn [List.concat map fst] in *.
    rewrite filter_app, IH, app_nil_r.
    + apply (Hother q' m'); [|easy]. intros ->. apply Hnot. now left.
    + intros Hin. apply Hnot. now right.
  - destruct (IH Hn' Hin) as (y & Hy & Ey). exists y. split; [easy|]. rewrite Ey.
    rewrite (Hother q m); [easy| |easy]. intros ->. apply Hnot. apply in_map_iff. now exists (p, n).
Qed.

Lemma create_states pf params spec batch rvs p n b row :
  create_dmg_RVs pf params spec batch = Ok rvs -> NoDup (map fst batch) -> In (p, n) batch -> (b < n)%nat ->
  dget (cmp p) params = Some row ->
  map (fun r : rvt => (snd (c_col (fst r)), List.length (possible_states (snd (snd r)))))
      (variables_of (Blk p (str_of_nat (S b))) rvs) =
  map (fun c : string * ls_params => (str_drop 2 (fst c), state_count (snd c))) (filter has_capacity row) /\
  flat_map (fun r : rvt => possible_states (snd (snd r))) (variables_of (Blk p (str_of_nat (S b))) rvs) =
  map Z.of_nat (seq 1 (list_sum (map (fun c => state_count (snd c)) (filter has_capacity row)))).
Proof.
  intros H Hn Hin Hb Hrow. apply create_inv in H as (sc & l & _ & Hl & ->).
  destruct (filter_group pf params sc p n (str_of_nat (S b)) batch l Hl Hn Hin) as (x & Hx & Ex).
  unfold variables_of. unfold of_block in Ex. rewrite Ex. unfold group_part in Hx. rewrite Hrow in Hx.
  split; [exact (pg_rvs_cols _ _ _ _ _ b Hb _ _ _ _ Hx)|].
  pose proof (pg_rvs_states _ _ _ _ _ b Hb _ _ _ _ Hx) as Hs. unfold of_block in Hs. rewrite Hs.
  replace (ds_count row) with (list_sum (map (fun c : string * ls_params => state_count (snd c)) (filter has_capacity row))).
  - apply map_ext. intros. lia.
  - clear. induction row as [|c row IH]; [easy|]. rewrite ds_count_cons. cbn [filter]. destruct (has_capacity c); rewrite <- IH; reflexivity.
Qed.

(** Every variable of a batch. *)
Lemma create_from pf params spec batch rvs r : create_dmg_RVs pf params spec batch = Ok rvs -> In r rvs ->
  exists sc p n row x, parse_scaling_specification pf spec = Ok sc /\ In (p, n) batch /\
    dget (cmp p) params = Some row /\
    pg_rvs pf p n (dget (join "-" [cmp p; loc p; dir p]) sc) (hd "" (limit_states row)) [] 0 row = Ok x /\ In r x.
Proof.
  intros H Hr. apply create_inv in H as (sc & l & Hsc & Hl & ->). apply in_concat in Hr as (x & Hx & Hr).
  destruct (@Forall2_In_r _ _ _ _ _ x Hl Hx) as ([p n] & Hp & Hg). unfold group_part in Hg.
  destruct (dget (cmp p) params) as [row|] eqn:Er; [|injection Hg as <-; easy].
  exists sc, p, n, row, x. easy.
Qed.

(** ** Scaling specification *)
Definition ops2 (k l : string) (sc : scaling) : list (string * num) :=
  match dget k sc with Some d => match dget l d with Some o => o | None => [] end | None => [] end.
Definition filled (sc : scaling) : Prop :=
  forall k d l o, dget k sc = Some d -> dget l d = Some o -> o <> [].

Lemma append_ops2 key ls op sc k l :
  ops2 k l (append_op key ls op sc) =
  if String.eqb k key && String.eqb l ls then ops2 k l sc ++ [op] else ops2 k l sc.
Proof.
  unfold append_op, ops2. destruct (String.eqb_spec k key) as [->|Hk]; cbn [andb].
  - rewrite dget_dset_eq. destruct (String.eqb_spec l ls) as [->|Hl].
    + rewrite dget_dset_eq. destruct (dget key sc) as [d|]; [|easy]. now destruct (dget ls d).
    + rewrite dget_dset_ne by easy. now destruct (dget key sc).
  - now rewrite dget_dset_ne by easy.
Qed.

Lemma append_filled key ls op sc : filled sc -> filled (append_op key ls op sc).
Proof.
  intros H k d l o Hk Hl. unfold append_op in Hk. destruct (String.eqb_spec k key) as [->|Hne].
  - rewrite dget_dset_eq in Hk. injection Hk as <-. destruct (String.eqb_spec l ls) as [->|Hne].
    + rewrite dget_dset_eq in Hl. injection Hl as <-. now destruct (match dget ls _ with Some _ => _ | None => _ end).
    + rewrite dget_dset_ne in Hl by easy. destruct (dget key sc) as [d|] eqn:E; [|easy]. eapply H; eauto.
  - rewrite dget_dset_ne in Hk by easy. eapply H; eauto.
Qed.

Lemma entries_fold pf key ls l : forall acc acc',
  foldM (fun a s => let* op := parse_spec pf s in Ok (append_op key ls op a)) acc l = Ok acc' ->
  exists ops, mapM (parse_spec pf) l = Ok ops /\
    (filled acc -> filled acc') /\
    forall k m, ops2 k m acc' = if String.eqb k key && String.eqb m ls then ops2 k m acc ++ ops else ops2 k m acc.
Proof.
  induction l as [|s l IH]; intros acc acc' H; cbn [foldM] in H.
  - injection H as <-. exists []. split; [easy|]. split; [easy|]. intros k m. rewrite app_nil_r.
    now destruct (_ && _).
  - bind_inv H. bind_inv E. injection E as <-. apply IH in H as (ops & Ho & Hf & Hops). exists (a0 :: ops).
    split; [cbn; now rewrite E0, Ho|]. split; [intros Hfa; apply Hf; now apply append_filled|].
    intros k m. rewrite Hops, append_ops2. destruct (_ && _); [|easy]. now rewrite <- app_assoc.
Qed.

Lemma component_fold pf key d : forall acc acc', NoDup (keys d) ->
  foldM (parse_limit_state pf key) acc d = Ok acc' ->
  (filled acc -> filled acc') /\
  (forall k m, k <> key -> ops2 k m acc' = ops2 k m acc) /\
  (forall m, match dget m d with
             | None => ops2 key m acc' = ops2 key m acc
             | Some v => exists ops, mapM (parse_spec pf) (request_entries v) = Ok ops /\
                                     ops2 key m acc' = ops2 key m acc ++ ops
             end) /\
  (forall m v, dget m d = Some v -> starts_with "LS" m = true \/ m = "ALL").
Proof.
  induction d as [|[ls v] d IH]; intros acc acc' Hn H; cbn [foldM] in H.
  - injection H as <-. repeat split; easy.
  - bind_inv H. unfold parse_limit_state in E. destruct (starts_with "LS" ls || String.eqb ls "ALL") eqn:Els; [|easy].
    apply entries_fold in E as (ops & Ho & Hf & Hops). inversion Hn as [|? ? Hnot Hn']; subst.
    apply IH in H as (Hf' & Hk & Hm & Hl); [|easy]. split; [intros Hx; now apply Hf', Hf|]. split; [|split].
    + intros k m Hne. rewrite Hk, Hops by easy. destruct (String.eqb_spec k key); [congruence|easy].
    + intros m. cbn [dget]. specialize (Hm m). destruct (String.eqb_spec m ls) as [->|Hne].
      * assert (En : dget ls d = None) by now apply dget_None. rewrite En in Hm.
        exists ops. split; [easy|]. rewrite Hm, Hops. now rewrite !String.eqb_refl.
      * assert (E2 : ops2 key m a = ops2 key m acc).
        { rewrite Hops. destruct (String.eqb_spec m ls); [congruence|]. now rewrite andb_false_r. }
        now rewrite <- E2.
    + intros m w. cbn [dget]. destruct (String.eqb_spec m ls) as [->|Hne]; [|apply Hl].
      intros _. apply orb_true_iff in Els as [Els|Els]; [now left|right; now apply String.eqb_eq].
Qed.

Definition spec_wf (spec : dict json) : Prop :=
  NoDup (keys spec) /\ forall k d, dget k spec = Some (JDict d) -> NoDup (keys d).

Lemma spec_fold pf spec : forall acc sc, spec_wf spec -> foldM (parse_component pf) acc spec = Ok sc ->
  (filled acc -> filled sc) /\
  forall k, match dget k spec with
            | None => forall m, ops2 k m sc = ops2 k m acc
            | Some j => exists d, j = JDict d /\ (dget "ALL" d = None \/ List.length d = 1%nat) /\
                forall m, match dget m d with
                          | None => ops2 k m sc = ops2 k m acc
                          | Some v => exists ops, mapM (parse_spec pf) (request_entries v) = Ok ops /\
                                                  ops2 k m sc = ops2 k m acc ++ ops
                          end
            end.
Proof.
  induction spec as [|[key j] spec IH]; intros acc sc [Hn Hd] H; cbn [foldM] in H.
  - injection H as <-. easy.
  - bind_inv H. unfold parse_component in E. cbn [snd fst] in E. inversion Hn as [|? ? Hnot Hn']; subst.
    destruct j as [ | | | |s|l|d]; try discriminate E.
    { destruct (_ && _); discriminate E. }
    { destruct (_ && _); discriminate E. }
    destruct (dmem "ALL" d && Nat.ltb 1 (List.length d)) eqn:Eall; [discriminate E|].
    apply component_fold in E as (Hf & Hk & Hm & _).
    2:{ apply (Hd key). cbn. now rewrite String.eqb_refl. }
    apply IH in H as (Hf' & HH).
    2:{ split; [easy|]. intros k d' E'. apply (Hd k). cbn. destruct (String.eqb_spec k key) as [->|]; [|easy].
        exfalso. apply Hnot. now apply dget_Some_keys in E'. }
    split; [intros; now apply Hf', Hf|]. intros k. cbn [dget]. specialize (HH k). destruct (String.eqb_spec k key) as [->|Hne].
    + assert (En : dget key spec = None) by now apply dget_None. rewrite En in HH.
      exists d. split; [easy|]. split.
      * unfold dmem in Eall. destruct (dget "ALL" d) eqn:Ea; [|now left]. right. cbn [andb] in Eall.
        apply Nat.ltb_ge in Eall. destruct d as [|? [|? ?]]; cbn in *; try easy; lia.
      * intros m. specialize (Hm m). rewrite HH. exact Hm.
    + destruct (dget k spec) as [j|].
      * destruct HH as (d' & -> & Ha & HH). exists d'. split; [easy|]. split; [easy|]. intros m. specialize (HH m).
        rewrite Hk in HH by easy. exact HH.
      * intros m. rewrite HH. now apply Hk.
Qed.

(** The adjusted parameters in terms of the operations that apply. *)
Lemma adjusted_theta_ops sc key ls prm q : filled sc -> theta_0 prm = TNum q -> scalable (family_of prm) = true ->
  forall ops, ops = (if match ops2 key "ALL" sc with [] => true | _ => false end then ops2 key ("LS" ++ ls)%string sc else ops2 key "ALL" sc) ->
  adjusted_theta (dget key sc) ls prm =
  match ops with
  | [] => Ok (ThVec [Some q; theta_1 prm; theta_2 prm])
  | _ => let* vs := handle_operation_list (Some q) ops in
         match vs with
         | [v] => Ok (ThVec [v; theta_1 prm; theta_2 prm])
         | _ => Ok (ThMat (map (fun v => [v; theta_1 prm; theta_2 prm]) vs))
         end
  end.
Proof.
  intros Hf Hq Hs ops ->. unfold adjusted_theta, ops2. rewrite Hq, Hs.
  destruct (dget key sc) as [d|] eqn:Ek; [|easy].
  unfold ops_for.
  destruct d as [|x d']; [easy|]. set (d := x :: d') in *.
  destruct (dget "ALL" d) as [oa|] eqn:Ea.
  - pose proof (Hf _ _ _ _ Ek Ea) as Hne. destruct oa; [easy|]. easy.
  - destruct (dget ("LS" ++ ls)%string d) as [ol|] eqn:El; [|easy].
    pose proof (Hf _ _ _ _ Ek El) as Hne. now destruct ol.
Qed.

Lemma handle_operation_spec x op y v : op_meaning op x y = Some v ->
  handle_operation (Some x) (String op "") (Some y) = Ok v.
Proof.
  unfold op_meaning, handle_operation. cbn [nadd nmul].
  destruct (Ascii.eqb_spec op "+") as [->|]; [now intros [= <-]|].
  destruct (Ascii.eqb_spec op "-") as [->|]; [now intros [= <-]|].
  destruct (Ascii.eqb_spec op "*") as [->|]; [now intros [= <-]|].
  destruct (Ascii.eqb_spec op "/") as [->|]; [|easy]. intros [= <-]. cbn.
  destruct (Qceqb_spec y 0), (Qc_eq_dec y 0); easy.
Qed.

Lemma parse_spec_iff pf j op y : parse_spec pf j = Ok (op, y) <->
  exists a rest, j = JStr (String a rest) /\ op = String a "" /\ In a ["+"; "-"; "*"; "/"]%char /\ pf rest = Some y.
Proof.
  unfold parse_spec. destruct j as [| | | |s| |]; try (split; [easy|]; intros (? & ? & [=] & _)).
  destruct s as [|a rest]; [split; [easy|]; intros (? & ? & [=] & _)|].
  destruct (mem (String a "") ["+"; "-"; "*"; "/"]) eqn:Em.
  - assert (Ha : In a ["+"; "-"; "*"; "/"]%char).
    { apply mem_true in Em. cbn in *. intuition congruence. }
    destruct (pf rest) as [x|] eqn:Ep.
    + split; [intros [= <- <-]; now exists a, rest|]. intros (a' & r' & [= <- <-] & -> & _ & Hp). congruence.
    + split; [easy|]. intros (a' & r' & [= <- <-] & _ & _ & Hp). congruence.
  - split; [easy|]. intros (a' & r' & [= <- <-] & _ & Ha & _). exfalso. apply mem_false in Em. apply Em.
    cbn in *. intuition congruence.
Qed.
Lemma parse_spec_ok pf j : is_ok (parse_spec pf j) = true <->
  exists a rest, j = JStr (String a rest) /\ In a ["+"; "-"; "*"; "/"]%char /\ pf rest <> None.
Proof.
  destruct (parse_spec pf j) as [[op y]|e] eqn:E; cbn.
  - apply parse_spec_iff in E as (a & rest & -> & -> & Ha & Hp). split; [|easy]. intros _. exists a, rest.
    split; [easy|]. split; [easy|congruence].
  - split; [easy|]. intros (a & rest & -> & Ha & Hp). destruct (pf rest) as [y|] eqn:Ep; [|easy].
    assert (Hx : parse_spec pf (JStr (String a rest)) = Ok (String a "", y)).
    { apply parse_spec_iff. now exists a, rest. }
    congruence.
Qed.

Lemma create_adjusted pf params spec batch rvs r p b ls : spec_wf spec ->
  create_dmg_RVs pf params spec batch = Ok rvs -> In r rvs -> c_col (fst r) = (Blk p b, ls) ->
  exists row name prm, dget (cmp p) params = Some row /\ In (name, prm) row /\ has_capacity (name, prm) = true /\
    ls = str_drop 2 name /\ c_family (fst r) = family_of prm /\
    forall q, theta_0 prm = TNum q -> scalable (family_of prm) = true ->
      ((forall v, ~ request_for spec p ls v) -> c_theta (fst r) = ThVec [Some q; theta_1 prm; theta_2 prm]) /\
      (forall v, request_for spec p ls v -> exists ops, mapM (parse_spec pf) (request_entries v) = Ok ops /\
         match ops with
         | [] => c_theta (fst r) = ThVec [Some q; theta_1 prm; theta_2 prm]
         | _ => exists vs, mapM (fun o => handle_operation (Some q) (fst o) (snd o)) ops = Ok vs /\
                c_theta (fst r) = match vs with
                                  | [x] => ThVec [x; theta_1 prm; theta_2 prm]
                                  | _ => ThMat (map (fun x => [x; theta_1 prm; theta_2 prm]) vs)
                                  end
         end).
Proof.
  intros Hw H Hr Hc. destruct (create_from _ _ _ _ _ _ H Hr) as (sc & p' & n & row & x & Hsc & Hin & Hrow & Hx & Hrx).
  destruct (pg_rvs_from _ _ _ _ _ _ _ _ _ Hx r Hrx) as (name & prm & b' & th & Hnm & Hcap & Hb & Ec & _ & Hfam & _ & Hth & Ecth).
  rewrite Hc in Ec. injection Ec as E1 E2 E3. assert (E3' : str_drop 2 name = ls) by (symmetry; exact E3). clear E3. rewrite E3' in *. subst p'. exists row, name, prm. do 5 (split; [easy|]).
  intros q Hq Hs. unfold parse_scaling_specification in Hsc. apply spec_fold in Hsc as [Hf HH]; [|easy].
  assert (Hfil : filled sc) by (apply Hf; intros k d l o E; discriminate E).
  set (key := join "-" [cmp p; loc p; dir p]) in *.
  specialize (HH key).
  pose proof (adjusted_theta_ops sc key ls prm q Hfil Hq Hs _ eq_refl) as HA.
  set (ops := if match ops2 key "ALL" sc with [] => true | _ => false end then _ else _) in HA.
  assert (Hval : ops = [] /\ c_theta (fst r) = ThVec [Some q; theta_1 prm; theta_2 prm] \/
                 ops <> [] /\ exists vs, mapM (fun o => handle_operation (Some q) (fst o) (snd o)) ops = Ok vs /\
                     c_theta (fst r) = match vs with
                                  | [x] => ThVec [x; theta_1 prm; theta_2 prm]
                                  | _ => ThMat (map (fun x => [x; theta_1 prm; theta_2 prm]) vs)
                                  end).
  { rewrite Hth in HA. destruct ops as [|o l]; [left; split; [easy|congruence]|right]. split; [easy|].
    unfold handle_operation_list in HA. destruct (mapM _ (o :: l)) as [vs|]; cbn [bind] in HA; [|easy].
    exists vs. split; [easy|]. destruct vs as [|? [|? ?]]; rewrite Ecth; congruence. }
  assert (Hempty : forall m, ops2 key m [] = []) by easy.
  split.
  - intros Hno. assert (E : ops = []).
    { unfold ops. destruct (dget key spec) as [j|] eqn:Ek.
      - destruct HH as (d & -> & _ & HH). pose proof (HH "ALL") as HALL. pose proof (HH ("LS" ++ ls)%string) as HLS.
        destruct (dget "ALL" d) eqn:Ea.
        { exfalso. eapply Hno. exists d. split; [exact Ek|]. left. exact Ea. }
        rewrite HALL, Hempty. destruct (dget ("LS" ++ ls)%string d) eqn:El.
        { exfalso. eapply Hno. exists d. split; [exact Ek|]. right. split; [exact Ea|exact El]. }
        now rewrite HLS.
      - now rewrite !HH. }
    destruct Hval as [[_ Hv]|[Hne _]]; [exact Hv|easy].
  - intros v (d & Ek & Hv). fold key in Ek. rewrite Ek in HH. destruct HH as (d' & [= <-] & Hone & HH).
    assert (E : exists o, mapM (parse_spec pf) (request_entries v) = Ok o /\ ops = o).
    { destruct Hv as [Hv|[Hna Hv]].
      - pose proof (HH "ALL") as HALL. rewrite Hv in HALL. destruct HALL as (o & Ho & Eo). exists o. split; [easy|].
        unfold ops. rewrite Eo, Hempty. cbn [app]. destruct o; [|easy].
        destruct Hone as [Hone|Hone]; [congruence|]. pose proof (HH ("LS" ++ ls)%string) as HLS.
        destruct d as [|[k0 v0] [|? ?]]; try discriminate Hone. cbn [dget] in Hv, HLS.
        destruct (String.eqb_spec "ALL" k0) as [<-|]; [|discriminate Hv].
        change (String.eqb ("LS" ++ ls) "ALL") with false in HLS. rewrite HLS. easy.
      - pose proof (HH "ALL") as HALL. rewrite Hna in HALL. pose proof (HH ("LS" ++ ls)%string) as HLS.
        rewrite Hv in HLS. destruct HLS as (o & Ho & Eo). exists o. split; [easy|]. unfold ops. rewrite HALL, Hempty, Eo. easy. }
    destruct E as (o & Ho & Eo). exists o. split; [easy|]. rewrite Eo in Hval.
    destruct Hval as [[-> Hv']|[Hne Hv']]; [exact Hv'|]. destruct o; [easy|exact Hv'].
Qed.

(** ** Number of blocks *)
Lemma ls_rvs_ok pf p ls first anchors prm th blocks : forall ds_id,
  String.eqb (family_of prm) "multilinear_CDF" = false ->
  (first = true \/ Forall (fun b => nth_error anchors b <> None) blocks) ->
  is_ok (ls_rvs pf p ls first anchors prm th ds_id blocks) =
  match blocks with [] => true | _ => is_ok (assign_lsds pf (ds_weights prm) ds_id) end.
Proof.
  induction blocks as [|b blocks IH]; intros ds_id Hf Ha; [easy|]. cbn [ls_rvs].
  assert (E : exists a, (if first then Ok None else match nth_error anchors b with Some a => Ok (Some a) | None => Err IndexError end) = Ok a).
  { destruct Ha as [->|Ha]; [now eexists|]. destruct first; [now eexists|]. inversion Ha as [|? ? Hb _]; subst.
    destruct (nth_error anchors b); [now eexists|easy]. }
  destruct E as (a & ->). cbn [bind]. unfold block_theta. rewrite Hf. cbn [bind].
  destruct (assign_lsds pf (ds_weights prm) ds_id) as [[nxt rv]|] eqn:Ea; cbn [bind]; [|easy].
  specialize (IH ds_id Hf). rewrite Ea in IH.
  assert (Ha' : first = true \/ Forall (fun b => nth_error anchors b <> None) blocks).
  { destruct Ha as [Ha|Ha]; [now left|right]. now inversion Ha. }
  specialize (IH Ha').
  destruct (ls_rvs pf p ls first anchors prm th ds_id blocks) as [[rest z]|]; [easy|]. destruct blocks; easy.
Qed.

Lemma ls_rvs_next pf p ls first anchors prm th n ds_id rvs nxt : (0 < n)%nat ->
  ls_rvs pf p ls first anchors prm th ds_id (seq 0 n) = Ok (rvs, nxt) ->
  nxt = (ds_id + Z.of_nat (state_count prm))%Z /\
  map (fun r : rvt => c_col (fst r)) rvs = map (fun b => (Blk p (str_of_nat (S b)), ls)) (seq 0 n).
Proof.
  intros Hn H. apply ls_rvs_spec in H as (H1 & H2 & _). split; [|easy]. apply H1. destruct n; [lia|easy].
Qed.

Lemma pg_rvs_blocks pf p n n' adj first : (0 < n)%nat -> (0 < n')%nat -> forall row A A' ds_id,
  Forall (fun c : string * ls_params => has_capacity c = true -> String.eqb (family_of (snd c)) "multilinear_CDF" = false) row ->
  (A = [] /\ A' = []) \/ ((n <= List.length A)%nat /\ (n' <= List.length A')%nat) ->
  is_ok (pg_rvs pf p n adj first A ds_id row) = is_ok (pg_rvs pf p n' adj first A' ds_id row).
Proof.
  intros Hn Hn'. induction row as [|[name prm] row IH]; intros A A' ds_id Hfam HA; [easy|].
  rewrite !pg_rvs_step. inversion Hfam as [|? ? Hf Hfam']; subst. destruct (has_capacity (name, prm)) eqn:Ed; [|now apply IH].
  specialize (Hf eq_refl). cbn [snd] in Hf.
  destruct (adjusted_theta adj (str_drop 2 name) prm) as [th|]; cbn [bind]; [|easy].
  set (isf := String.eqb (str_drop 2 name) first).
  assert (Hok : is_ok (ls_rvs pf p (str_drop 2 name) isf A prm th ds_id (seq 0 n)) =
                is_ok (ls_rvs pf p (str_drop 2 name) isf A' prm th ds_id (seq 0 n'))).
  { destruct isf eqn:Ei.
    - rewrite !ls_rvs_ok by (try easy; now left). destruct n; [lia|]. destruct n'; [lia|]. easy.
    - destruct HA as [[-> ->]|[L L']].
      + destruct n; [lia|]. destruct n'; [lia|]. easy.
      + rewrite !ls_rvs_ok; try easy.
        * destruct n; [lia|]. destruct n'; [lia|]. easy.
        * right. apply Forall_forall. intros b Hb. apply in_seq in Hb. apply nth_error_Some. lia.
        * right. apply Forall_forall. intros b Hb. apply in_seq in Hb. apply nth_error_Some. lia. }
  destruct (ls_rvs pf p (str_drop 2 name) isf A prm th ds_id (seq 0 n)) as [[rvs nxt]|] eqn:E1;
  destruct (ls_rvs pf p (str_drop 2 name) isf A' prm th ds_id (seq 0 n')) as [[rvs' nxt']|] eqn:E2; try easy; cbn [bind].
  apply ls_rvs_next in E1 as [-> C1]; [|easy]. apply ls_rvs_next in E2 as [-> C2]; [|easy]. rewrite C1, C2.
  assert (HH := IH (if isf then A ++ map (fun b => (Blk p (str_of_nat (S b)), str_drop 2 name)) (seq 0 n) else A)
           (if isf then A' ++ map (fun b => (Blk p (str_of_nat (S b)), str_drop 2 name)) (seq 0 n') else A')
           (ds_id + Z.of_nat (state_count prm))%Z Hfam').
  assert (HL : is_ok (pg_rvs pf p n adj first (if isf then A ++ map (fun b => (Blk p (str_of_nat (S b)), str_drop 2 name)) (seq 0 n) else A) (ds_id + Z.of_nat (state_count prm)) row) =
               is_ok (pg_rvs pf p n' adj first (if isf then A' ++ map (fun b => (Blk p (str_of_nat (S b)), str_drop 2 name)) (seq 0 n') else A') (ds_id + Z.of_nat (state_count prm)) row)).
  { apply HH. destruct isf; [right|exact HA]. rewrite !app_length, !map_length, !seq_length. lia. }
  destruct (pg_rvs pf p n adj first _ _ row), (pg_rvs pf p n' adj first _ _ row); easy.
Qed.

Lemma mapM_ok_ext {A B C} (f : A -> result C) (g : B -> result C) l l' :
  Forall2 (fun a b => is_ok (f a) = is_ok (g b)) l l' -> is_ok (mapM f l) = is_ok (mapM g l').
Proof.
  intros H. induction H as [|a b l l' Hab H IH]; [easy|]. cbn. destruct (f a), (g b); cbn in *; try easy.
  destruct (mapM f l), (mapM g l'); easy.
Qed.

Lemma create_blocks pf (params : dict frg_row) spec b1 b2 :
  (forall c (row : frg_row), dget c params = Some row -> Forall (fun c : string * ls_params => has_capacity c = true -> String.eqb (family_of (snd c)) "multilinear_CDF" = false) row) ->
  Forall2 (fun x y : pg * nat => fst x = fst y /\ (0 < snd x)%nat /\ (0 < snd y)%nat) b1 b2 ->
  is_ok (create_dmg_RVs pf params spec b1) = is_ok (create_dmg_RVs pf params spec b2).
Proof.
  intros Hf H. unfold create_dmg_RVs. destruct (parse_scaling_specification pf spec) as [sc|]; cbn [bind]; [|easy].
  assert (E : is_ok (mapM (group_part pf params sc) b1) = is_ok (mapM (group_part pf params sc) b2)).
  { apply mapM_ok_ext. eapply Forall2_weaken; [|exact H]. intros [p n] [p' n'] (Ep & Hn & Hn'). cbn in Ep. subst p'.
    unfold group_part. destruct (dget (cmp p) params) as [row|] eqn:Er; [|reflexivity]. cbn in Hn, Hn'.
    apply pg_rvs_blocks; try easy; [now apply (Hf (cmp p))|now left]. }
  unfold group_part in E. destruct (mapM _ b1), (mapM _ b2); easy.
Qed.

(** With a multilinear CDF and two blocks it never works. *)
Lemma ls_rvs_multilinear pf p ls first anchors prm th n ds_id :
  String.eqb (family_of prm) "multilinear_CDF" = true -> (2 <= n)%nat ->
  is_ok (ls_rvs pf p ls first anchors prm th ds_id (seq 0 n)) = false.
Proof.
  intros Hf Hn. destruct (ls_rvs _ _ _ _ _ _ _ _ _) as [[rvs nxt]|] eqn:E; [|easy]. exfalso.
  destruct (ls_rvs_block _ _ _ _ _ _ _ _ _ _ _ 1 E ltac:(lia)) as (r & Hr & Hc & _).
  destruct (ls_rvs_spec _ _ _ _ _ _ _ _ _ _ _ E) as (_ & _ & Hall).
  destruct (Hall r Hr) as (_ & _ & _ & _ & _ & b & _ & R6 & R7 & _). destruct (R7 Hf) as [-> _].
  rewrite Hc in R6. discriminate R6.
Qed.
Lemma pg_rvs_multilinear pf p n adj first : (2 <= n)%nat -> forall row A ds_id,
  (exists c, In c row /\ has_capacity c = true /\ String.eqb (family_of (snd c)) "multilinear_CDF" = true) ->
  is_ok (pg_rvs pf p n adj first A ds_id row) = false.
Proof.
  intros Hn. induction row as [|[name prm] row IH]; intros A ds_id (c & Hc & Hd & Hf); [easy|].
  rewrite pg_rvs_step. destruct Hc as [<-|Hc].
  - rewrite Hd. destruct (adjusted_theta _ _ _); cbn [bind]; [|easy].
    pose proof (ls_rvs_multilinear pf p (str_drop 2 name) (String.eqb (str_drop 2 name) first) A prm a n ds_id Hf Hn) as HH.
    destruct (ls_rvs _ _ _ _ _ _ _ _ _); [easy|easy].
  - assert (HH : exists c, In c row /\ has_capacity c = true /\ String.eqb (family_of (snd c)) "multilinear_CDF" = true) by now exists c.
    destruct (has_capacity (name, prm)); [|now apply IH].
    destruct (adjusted_theta _ _ _); cbn [bind]; [|easy]. destruct (ls_rvs _ _ _ _ _ _ _ _ _) as [[? ?]|]; cbn [bind]; [|easy].
    match goal with |- is_ok (bind ?x _) = _ => assert (E : is_ok x = false) by (now apply IH); destruct x; [discriminate E|reflexivity] end.
Qed.
Lemma mapM_not_ok {A B} (f : A -> result B) l x : In x l -> is_ok (f x) = false -> is_ok (mapM f l) = false.
Proof.
  induction l as [|y l IH]; [easy|]. intros [->|Hin] Hf; cbn.
  - now destruct (f x).
  - destruct (f y); cbn; [|easy]. specialize (IH Hin Hf). now destruct (mapM f l).
Qed.
Lemma create_multilinear pf (params : dict frg_row) spec batch p n row c :
  In (p, n) batch -> (2 <= n)%nat -> dget (cmp p) params = Some row -> In c row -> has_capacity c = true ->
  family_of (snd c) = "multilinear_CDF" -> is_ok (create_dmg_RVs pf params spec batch) = false.
Proof.
  intros Hin Hn Hrow Hc Hcap Hf. unfold create_dmg_RVs.
  destruct (parse_scaling_specification pf spec) as [sc|]; cbn [bind]; [|easy].
  assert (E : is_ok (mapM (group_part pf params sc) batch) = false).
  { eapply mapM_not_ok; [exact Hin|]. unfold group_part. rewrite Hrow. apply pg_rvs_multilinear; [easy|].
    exists c. split; [easy|]. split; [easy|]. rewrite Hf. easy. }
  unfold group_part in E. destruct (mapM _ batch); easy.
Qed.

(** ** Probabilities *)
Lemma count_filter d ds : d <> (-1)%Z -> count_z d (filter (fun d => negb (d =? -1)%Z) ds) = count_z d ds.
Proof.
  intros Hd. unfold count_z. induction ds as [|x ds IH]; [easy|]. cbn [filter].
  destruct (Z.eqb_spec x (-1)) as [->|Hx]; cbn [negb].
  - rewrite IH. destruct (Z.eqb_spec d (-1)); [congruence|easy].
  - cbn [filter]. destruct (d =? x)%Z; cbn [List.length]; now rewrite IH.
Qed.
Lemma count_pos d l : (0 < count_z d l)%nat <-> In d l.
Proof.
  unfold count_z. split.
  - intros H. destruct (filter (Z.eqb d) l) as [|x t] eqn:E; [cbn in H; lia|].
    assert (Hx : In x (filter (Z.eqb d) l)) by (rewrite E; now left). apply filter_In in Hx as [Hx He].
    apply Z.eqb_eq in He. now subst.
  - intros H. assert (Hx : In d (filter (Z.eqb d) l)) by (apply filter_In; split; [easy|apply Z.eqb_refl]).
    destruct (filter (Z.eqb d) l); [easy|cbn; lia].
Qed.

Lemma counts_total us l : NoDup us -> (forall x, In x l -> In x us) ->
  list_sum (map (fun d => count_z d l) us) = List.length l.
Proof.
  intros Hn. induction l as [|x l IH]; intros Hl.
  - cbn [List.length]. clear. induction us; cbn; [easy|]. exact IHus.
  - cbn [List.length]. rewrite <- IH by (intros; apply Hl; now right).
    assert (Hx : In x us) by (apply Hl; now left). clear IH Hl.
    induction us as [|u us IHu]; [easy|]. cbn [map list_sum fold_right]. inversion Hn as [|? ? Hnot Hn']; subst.
    destruct Hx as [->|Hx].
    + assert (E : map (fun d => count_z d (x :: l)) us = map (fun d => count_z d l) us).
      { apply map_ext_in. intros a Ha. unfold count_z. cbn [filter]. destruct (Z.eqb_spec a x); [congruence|easy]. }
      unfold list_sum in *. rewrite E. unfold count_z at 1. cbn [filter]. rewrite Z.eqb_refl. cbn [List.length].
      unfold count_z at 2. lia.
    + specialize (IHu Hn' Hx). unfold list_sum in *. rewrite IHu. unfold count_z at 1. cbn [filter].
      destruct (Z.eqb_spec u x) as [->|]; [easy|]. unfold count_z at 2. lia.
Qed.

Lemma aget_isort_map {B} (f : Z -> B) us d : NoDup us ->
  aget Z.eqb d (map (fun d => (d, f d)) (isort Z.leb us)) = if existsb (Z.eqb d) us then Some (f d) else None.
Proof.
  intros Hn. assert (E : existsb (Z.eqb d) us = existsb (Z.eqb d) (isort Z.leb us)).
  { apply eq_iff_eq_true. rewrite !existsb_exists. split; intros (x & Hx & He); exists x; (split; [|easy]).
    - eapply Permutation_in; [apply isort_perm|exact Hx].
    - eapply Permutation_in; [symmetry; apply isort_perm|exact Hx]. }
  rewrite E. clear. induction (isort Z.leb us) as [|x l IH]; [easy|]. cbn. destruct (Z.eqb_spec d x) as [->|]; [easy|exact IH].
Qed.

Lemma prob_cell_spec ds d : (exists x, In x ds /\ x <> (-1)%Z) ->
  prob_cell (block_probabilities ds) d =
  if existsb (Z.eqb d) ds && negb (d =? -1)%Z
  then Some (qn (count_z d ds) / qn (List.length (filter (fun d => negb (d =? -1)%Z) ds)))%Qc else None.
Proof.
  intros (x & Hx & Hne). unfold prob_cell, block_probabilities.
  assert (Hin : In x (filter (fun d => negb (d =? -1)%Z) ds)).
  { apply filter_In. split; [easy|]. apply negb_true_iff. now apply Z.eqb_neq. }
  destruct (filter (fun d => negb (d =? -1)%Z) ds) as [|y l] eqn:E; [easy|]. rewrite <- E in *. clear E y l Hin.
  set (vs := filter (fun d => negb (d =? -1)%Z) ds).
  rewrite aget_isort_map by (apply unique_NoDup, Z.eqb_eq).
  assert (E : existsb (Z.eqb d) (unique Z.eqb vs) = existsb (Z.eqb d) ds && negb (d =? -1)%Z).
  { apply eq_iff_eq_true. rewrite andb_true_iff, !existsb_exists. split.
    - intros (y & Hy & He). apply Z.eqb_eq in He as <-. rewrite (unique_In _ Z.eqb_eq) in Hy. apply filter_In in Hy as [Hy Hn].
      split; [|easy]. exists d. now rewrite Z.eqb_refl.
    - intros [(y & Hy & He) Hn]. apply Z.eqb_eq in He as <-. exists d. rewrite Z.eqb_refl. split; [|easy].
      rewrite (unique_In _ Z.eqb_eq). now apply filter_In. }
  rewrite E. destruct (_ && _) eqn:E2; [|easy]. do 2 f_equal. unfold vs. rewrite count_filter; [easy|].
  apply andb_true_iff in E2 as [_ E2]. apply negb_true_iff, Z.eqb_neq in E2. easy.
Qed.

Lemma qsum_qn l : qsum (map qn l) = qn (list_sum l).
Proof. induction l as [|x l IH]; [easy|]. cbn [map list_sum fold_right]. rewrite qsum_cons, IH, <- qn_add. easy. Qed.

Lemma prob_total ds us : (exists x, In x ds /\ x <> (-1)%Z) -> NoDup us ->
  (forall x, In x ds -> x <> (-1)%Z -> In x us) ->
  nsum (map (prob_cell (block_probabilities ds)) us) = 1%Qc.
Proof.
  intros Hx Hn Hus. set (vs := filter (fun d => negb (d =? -1)%Z) ds).
  assert (Hlen : qn (List.length vs) <> 0%Qc).
  { destruct Hx as (x & Hx & Hne). assert (Hin : In x vs).
    { apply filter_In. split; [easy|]. apply negb_true_iff. now apply Z.eqb_neq. }
    intros E. change 0%Qc with (qn 0) in E. apply qn_inj in E. destruct vs; easy. }
  rewrite nsum_nfill0, map_map.
  rewrite (map_ext_in _ (fun d => (/ qn (List.length vs)) * qn (count_z d vs))%Qc).
  2:{ intros d _. rewrite prob_cell_spec by easy. fold vs.
      destruct (existsb (Z.eqb d) ds && negb (d =? -1)%Z) eqn:E.
      - cbn [nfill0]. apply andb_true_iff in E as [_ E]. apply negb_true_iff, Z.eqb_neq in E.
        assert (Ecf : count_z d vs = count_z d ds) by now apply count_filter. rewrite Ecf. field. exact Hlen.
      - cbn [nfill0]. assert (E0 : count_z d vs = 0%nat).
        { destruct (count_z d vs) eqn:Ec; [easy|]. assert (Hp : (0 < count_z d vs)%nat) by lia.
          apply count_pos in Hp. apply filter_In in Hp as [Hp Hq].
          assert (E1 : existsb (Z.eqb d) ds = true) by (apply existsb_exists; exists d; split; [easy|apply Z.eqb_refl]).
          rewrite E1, Hq in E. discriminate E. }
        rewrite E0. change (qn 0) with 0%Qc. ring. }
  rewrite qsum_map_scale, <- (map_map (fun d => count_z d vs) qn), qsum_qn, counts_total; [field; exact Hlen|easy|].
  intros x Hin. apply filter_In in Hin as [Hin Hne]. apply Hus; [easy|]. apply negb_true_iff, Z.eqb_neq in Hne. easy.
Qed.

(** ** Complete columns *)
Section Complete.
  Context (n : nat) (params : dict frg_row) (sample out : qty_frame)
          (Hp : NoDup (keys params)) (Hs : NoDup (map fst sample))
          (H : complete_ds_cols n params sample = Ok out).

  Definition in_sample (p : pg) : Prop := exists s, In (p, s) (map fst sample).

  Lemma completed_In p s : In (p, s) (completed_keys params sample) <->
    in_sample p /\ exists row d, dget (cmp p) params = Some row /\ (d <= ds_count row)%nat /\ s = str_of_nat d.
  Proof.
    clear H out. unfold completed_keys. rewrite in_flat_map. split.
    - intros ([c row] & Hc & Hin). cbn [fst snd] in Hin. apply in_flat_map in Hin as (d & Hd & Hin).
      apply in_map_iff in Hin as (q & [= -> <-] & Hq). apply filter_In in Hq as [Hq Ec]. apply String.eqb_eq in Ec. subst c.
      split.
      + apply (Permutation_in _ (Permutation_sym (isort_perm _ _))) in Hq. rewrite (unique_In _ pg_eqb_eq) in Hq.
        apply in_map_iff in Hq as ([[q' s'] v] & <- & Hq). exists s'. apply in_map_iff. now exists (q', s', v).
      + exists row, d. apply in_seq in Hd. split; [|split; [lia|easy]]. now apply In_dget.
    - intros [(s' & Hin) (row & d & Hr & Hd & ->)]. exists (cmp p, row). split; [now apply dget_In|]. cbn [fst snd].
      apply in_flat_map. exists d. split; [apply in_seq; lia|]. apply in_map_iff. exists p. split; [easy|].
      apply filter_In. split; [|apply String.eqb_refl].
      eapply Permutation_in; [apply isort_perm|]. rewrite (unique_In _ pg_eqb_eq).
      apply in_map_iff in Hin as ([[q' s''] v] & [= -> ->] & Hin). apply in_map_iff. now exists (p, s', v).
  Qed.

  Lemma qkey_eqb_eq' (a b : qkey) : qkey_eqb a b = true <-> a = b.
  Proof.
    unfold qkey_eqb. rewrite andb_true_iff, pg_eqb_eq, String.eqb_eq. destruct a, b; cbn. split; [now intros [-> ->]|now intros [= -> ->]].
  Qed.

  Lemma complete_cell p s col : In ((p, s), col) out <->
    in_sample p /\ (exists row d, dget (cmp p) params = Some row /\ (d <= ds_count row)%nat /\ s = str_of_nat d) /\
    (In ((p, s), col) sample \/ (~ In (p, s) (map fst sample) /\ col = repeat (Some 0%Qc) n)).
  Proof.
    unfold complete_ds_cols in H. destruct (forallb _ sample); [|discriminate H]. injection H as <-.
    rewrite <- and_assoc, <- completed_In, in_map_iff. split.
    - intros (k & [= -> <-] & Hk). split; [easy|]. destruct (aget qkey_eqb (p, s) sample) as [v|] eqn:E.
      + left. now apply (aget_In qkey_eqb qkey_eqb_eq') in E.
      + right. split; [|easy]. now apply (aget_None qkey_eqb qkey_eqb_eq') in E.
    - intros [Hk Hor]. exists (p, s). split; [|easy]. f_equal. destruct Hor as [Hin|[Hno ->]].
      + now rewrite (In_aget qkey_eqb qkey_eqb_eq' _ _ _ Hs Hin).
      + apply (aget_None qkey_eqb qkey_eqb_eq') in Hno. now rewrite Hno.
  Qed.
  Lemma complete_keeps k col : In (k, col) sample -> In (k, col) out.
  Proof.
    intros Hin. destruct k as [p s]. apply complete_cell.
    assert (Hk : In (p, s) (completed_keys params sample)).
    { unfold complete_ds_cols in H. destruct (forallb _ sample) eqn:E; [|discriminate H].
      rewrite forallb_forall in E. specialize (E _ Hin). apply existsb_exists in E as (k & Hk & Ek).
      apply qkey_eqb_eq' in Ek. cbn in Ek. now subst k. }
    apply completed_In in Hk as [H1 H2]. split; [easy|]. split; [easy|]. now left.
  Qed.
End Complete.
