(** Proofs about repeated calculations. *)
From Verif Require Import Prelude PreludeFacts Pandas PandasFacts M_Base M_Params M_Demand M_Session S_Params S_Session P_Base P_Params.
Set Implicit Arguments.
Local Open Scope string_scope.
Local Open Scope list_scope.

Lemma kept_app calls c i k : (i < List.length calls)%nat -> kept_since (calls ++ [c]) i k <-> kept_since calls i k /\ In k (fst c).
Proof.
  intros Hi. split.
  - intros H. split.
    + intros j call Hj E. apply (H j call Hj). rewrite nth_error_app1; [exact E|]. apply nth_error_Some. now rewrite E.
    + apply (H (List.length calls) c); [lia|]. rewrite nth_error_app2, Nat.sub_diag by lia. reflexivity.
  - intros [H Hc] j call Hj E. destruct (Nat.lt_ge_cases j (List.length calls)) as [L|L].
    + rewrite nth_error_app1 in E by exact L. exact (H j call Hj E).
    + rewrite nth_error_app2 in E by exact L. destruct (j - List.length calls)%nat as [|n]; [injection E as <-; exact Hc|destruct n; discriminate].
Qed.
Lemma kept_last calls c k : kept_since (calls ++ [c]) (List.length calls) k <-> In k (fst c).
Proof.
  split.
  - intros H. apply (H (List.length calls) c); [lia|]. rewrite nth_error_app2, Nat.sub_diag by lia. reflexivity.
  - intros Hc j call Hj E. rewrite nth_error_app2 in E by exact Hj. destruct (j - List.length calls)%nat as [|n]; [injection E as <-; exact Hc|destruct n; discriminate].
Qed.
Lemma defined_app calls c i k r : (i < List.length calls)%nat -> defined_in (calls ++ [c]) i k r <-> defined_in calls i k r.
Proof. intros Hi. unfold defined_in. now rewrite nth_error_app1 by exact Hi. Qed.
Lemma defined_last calls c k r : defined_in (calls ++ [c]) (List.length calls) k r <-> first_definition (snd c) k r /\ usable r.
Proof.
  unfold defined_in. rewrite nth_error_app2, Nat.sub_diag by lia. cbn [nth_error]. split.
  - intros (call & E & H). injection E as <-. exact H.
  - intros H. now exists c.
Qed.
Lemma defined_bound calls i k r : defined_in calls i k r -> (i < List.length calls)%nat.
Proof. intros (call & E & _). apply nth_error_Some. now rewrite E. Qed.

Lemma damage_row_same e r0 r r' : damage_row_c e r0 r -> same_cells r' r -> damage_row_c e r0 r'.
Proof.
  intros (H1 & H2 & H3 & H4) S. split; [|split; [|split]].
  - intros g f Hg Hs. eapply conv_ext; [reflexivity| |exact (H1 g f Hg Hs)]. intros x. symmetry. apply S.
  - intros g f Hs Hd. rewrite S. now apply H2.
  - now rewrite S.
  - intros c Hc. rewrite S. now apply H4.
Qed.
Lemma damage_row_usable e r0 r : damage_row_c e r0 r -> usable r0 -> usable r.
Proof. intros (_ & H2 & _) U. unfold usable. rewrite (H2 "Incomplete" ""); [exact U|reflexivity|discriminate]. Qed.

Lemma first_definition_nil {K} (k : K) r : ~ first_definition [] k r.
Proof. intros (b & s & a & ab & be & E & _). destruct b; discriminate. Qed.

Lemma foldM_snoc {A B} (f : B -> A -> result B) l x b : foldM f b (l ++ [x]) = (let* y := foldM f b l in f y x).
Proof. revert b. induction l as [|a l IH]; intros b; cbn [foldM app]; [cbn [bind]; destruct (f b x); reflexivity|]. destruct (f b a); cbn [bind]; [apply IH|reflexivity]. Qed.

(** One step: what is in the table after a call. *)
Lemma load_step e set old sources t missing : one_each old -> (forall s, In s sources -> proper s) -> load_damage e set old sources = Ok (t, missing) ->
  one_each t /\
  (forall k r, In (k, r) (rows_of t) -> exists r0, first_definition (loaded_before old ++ sources) k r0 /\ In k set /\ usable r0 /\ damage_row_c e r0 r) /\
  (forall k r0, first_definition (loaded_before old ++ sources) k r0 -> In k set -> usable r0 -> exists r, In (k, r) (rows_of t)) /\
  (forall k, In k missing <-> In k set /\ ~ exists r, In (k, r) (rows_of t)).
Proof.
  intros Ho Hp H. destruct t as [t|].
  - destruct (load_damage_spec _ _ _ _ _ _ Ho Hp H) as (P & N & R & C & M). cbn [rows_of one_each]. auto.
  - apply load_damage_none in H as (-> & -> & ->). cbn [one_each rows_of loaded_before app]. repeat split; auto.
    + intros k r [].
    + intros k r0 X. now apply first_definition_nil in X.
    + intros (r & []).
    + tauto.
Qed.
Lemma old_definition (old : option (ptable string)) sources k r : one_each old ->
  first_definition (loaded_before old ++ sources) k r <-> In (k, r) (rows_of old) \/ ((forall r', ~ In (k, r') (rows_of old)) /\ first_definition sources k r).
Proof.
  intros Ho. rewrite (first_definition_app String.eqb String.eqb_eq). destruct old as [t|]; cbn [loaded_before rows_of].
  - setoid_rewrite (first_definition_one t k); [reflexivity|apply Ho|apply Ho].
  - split; intros [H|[H1 H2]]; [now apply first_definition_nil in H|right; split; [now intros r' []|exact H2]|destruct H|right; split; [intros r' X; now apply first_definition_nil in X|exact H2]].
Qed.

Lemma history_spec e calls t missing : (forall c s, In c calls -> In s (snd c) -> proper s) -> damage_history e calls = Ok (t, missing) ->
  one_each t /\
  (forall k r, In (k, r) (rows_of t) -> exists i r0, in_force calls i k r0 /\ damage_row_c e r0 r) /\
  (forall i k r0, kept_since calls i k -> defined_in calls i k r0 -> exists r, In (k, r) (rows_of t)) /\
  (forall before last, calls = before ++ [last] -> forall k, In k missing <-> In k (fst last) /\ ~ exists r, In (k, r) (rows_of t)).
Proof.
  revert t missing. induction calls as [|c calls IH] using rev_ind; intros t missing Hp H.
  - injection H as <- <-. cbn [rows_of one_each]. repeat split; try (now intros k r []).
    + intros i k r0 _ D. apply defined_bound in D. cbn in D. lia.
    + destruct before; discriminate.
    + destruct before; discriminate.
    + destruct before; discriminate.
  - unfold damage_history in H. rewrite foldM_snoc in H. destruct (foldM _ _ calls) as [[old m0]|] eqn:E; [|discriminate]. cbn [bind fst] in H.
    destruct (IH old m0) as (Ho & R0 & C0 & _); [intros c' s Hc' Hs; apply (Hp c'); [apply in_or_app; now left|exact Hs]|exact E|]. clear IH.
    assert (Hps : forall s, In s (snd c) -> proper s) by (intros s Hs; apply (Hp c); [apply in_or_app; right; now left|exact Hs]).
    destruct (@load_step _ _ _ _ _ _ Ho Hps H) as (Ht & R & C & M). split; [exact Ht|]. split; [|split].
    + intros k r' Hr. destruct (R k r' Hr) as (r1 & Hf & Hk & Hu & Hd). apply (@old_definition _ _ _ _ Ho) in Hf as [Hf|[Hno Hf]].
      * destruct (R0 k r1 Hf) as (i & r0 & (K & D & Mn) & Hd0). exists i, r0. pose proof (defined_bound D) as Bi. split.
        -- split; [apply kept_app; [exact Bi|now split]|]. split; [now apply defined_app|]. intros i' r'' Hi' Hk' Hd'. apply (proj1 (@kept_app calls c i' k ltac:(lia))) in Hk' as [Hk' _]. apply (proj1 (@defined_app calls c i' k r'' ltac:(lia))) in Hd'. exact (Mn i' r'' Hi' Hk' Hd').
        -- exact (damage_row_same Hd0 (@damage_row_c_again e r1 r' (proj1 (proj2 (proj2 Hd0))) Hd)).
      * exists (List.length calls), r1. split; [|exact Hd]. split; [now apply kept_last|]. split; [now apply defined_last|]. intros i' r'' Hi' Hk' Hd'.
        apply (proj1 (@kept_app calls c i' k ltac:(exact Hi'))) in Hk' as [Hk' _]. apply (proj1 (@defined_app calls c i' k r'' ltac:(exact Hi'))) in Hd'. destruct (C0 i' k r'' Hk' Hd') as (x & Hx). exact (Hno x Hx).
    + intros i k r0 K D. pose proof (defined_bound D) as Bi. rewrite app_length in Bi. cbn in Bi.
      assert (Old : forall x, In (k, x) (rows_of old) -> In k (fst c) -> exists r, In (k, r) (rows_of t)).
      { intros x Hx Hk. apply (C k x); [|exact Hk|].
        - apply (@old_definition _ _ _ _ Ho). now left.
        - destruct (R0 k x Hx) as (j & r1 & (_ & (call & _ & _ & U) & _) & Hd). exact (damage_row_usable Hd U). }
      destruct (Nat.lt_ge_cases i (List.length calls)) as [L|L].
      * apply (proj1 (@kept_app calls c i k L)) in K as [K Hk]. apply (proj1 (@defined_app calls c i k r0 L)) in D. destruct (C0 i k r0 K D) as (x & Hx). exact (Old x Hx Hk).
      * assert (i = List.length calls) as -> by lia. apply (proj1 (kept_last calls c k)) in K. apply (proj1 (defined_last calls c k r0)) in D as [Df Du].
        assert (Dec : (exists x, In (k, x) (rows_of old)) \/ forall x, ~ In (k, x) (rows_of old)).
        { destruct (mem k (map fst (rows_of old))) eqn:Em; [left|right].
          - apply mem_true in Em. apply in_map_iff in Em as ([k' x] & Ek & Hx). cbn in Ek. subst. now exists x.
          - intros x Hx. apply (in_map fst) in Hx. apply mem_true in Hx. cbn in Hx. congruence. }
        destruct Dec as [(x & Hx)|Hno]; [exact (Old x Hx K)|]. apply (C k r0); [|exact K|exact Du]. apply (@old_definition _ _ _ _ Ho). right. now split.
    + intros before last E1. apply app_inj_tail in E1 as [_ <-]. exact M.
Qed.
