(** Facts about the primitives of [Prelude]. *)
From Coq Require Import Sorting.Permutation Sorting.Sorted Lqa.
From Coq Require Import DecimalString DecimalNat DecimalFacts.
From Verif Require Export Prelude.
Set Implicit Arguments.
Local Open Scope Qc_scope.

(** ** Rational arithmetic: reduce goals about [Qc] to [Q] and use [lra]. *)

Lemma Qc_eq_iff (x y : Qc) : x = y <-> (this x == this y)%Q.
Proof. split; [intros ->; reflexivity | apply Qc_is_canon]. Qed.
Lemma this_Q2Qc q : (this (Q2Qc q) == q)%Q.
Proof. simpl. apply Qred_correct. Qed.
Lemma this_plus x y : (this (x + y) == this x + this y)%Q.
Proof. apply this_Q2Qc. Qed.
Lemma this_mult x y : (this (x * y) == this x * this y)%Q.
Proof. apply this_Q2Qc. Qed.
Lemma this_opp x : (this (- x) == - this x)%Q.
Proof. apply this_Q2Qc. Qed.
Lemma this_minus x y : (this (x - y) == this x - this y)%Q.
Proof. unfold Qcminus. rewrite this_plus, this_opp. reflexivity. Qed.
Lemma this_inv x : (this (/ x) == / this x)%Q.
Proof. apply this_Q2Qc. Qed.

Lemma this_0 : (this 0 == 0)%Q.  Proof. reflexivity. Qed.
Lemma this_1 : (this 1 == 1)%Q.  Proof. reflexivity. Qed.

Lemma Qcltb_spec x y : BoolSpec (x < y) (y <= x) (Qcltb x y).
Proof. unfold Qcltb. destruct (Qclt_le_dec x y); constructor; assumption. Qed.
Lemma Qcleb_spec x y : BoolSpec (x <= y) (y < x) (Qcleb x y).
Proof. unfold Qcleb. destruct (Qclt_le_dec y x); constructor; assumption. Qed.
Lemma Qceqb_spec x y : BoolSpec (x = y) (x <> y) (Qceqb x y).
Proof. unfold Qceqb. destruct (Qc_eq_dec x y); constructor; assumption. Qed.

Ltac qc_push_in H :=
  repeat first
    [ rewrite this_plus in H | rewrite this_mult in H | rewrite this_minus in H
    | rewrite this_opp in H | rewrite this_0 in H | rewrite this_1 in H
    | rewrite this_Q2Qc in H ].
Ltac qc_push :=
  repeat first
    [ rewrite this_plus | rewrite this_mult | rewrite this_minus
    | rewrite this_opp | rewrite this_0 | rewrite this_1 | rewrite this_Q2Qc ].

(** Turn every hypothesis and the goal about [Qc] into one about [Q]. *)
Ltac qc2q :=
  repeat match goal with
  | H : _ /\ _ |- _ => destruct H
  end;
  repeat match goal with
  | H : @eq Qc _ _ |- _ => apply Qc_eq_iff in H
  | H : @eq Qc _ _ -> False |- _ => rewrite Qc_eq_iff in H
  | H : ~ (@eq Qc _ _) |- _ => rewrite Qc_eq_iff in H
  | H : Qcle _ _ |- _ => unfold Qcle in H
  | H : Qclt _ _ |- _ => unfold Qclt in H
  | H : ~ (Qcle _ _) |- _ => unfold Qcle in H
  | H : ~ (Qclt _ _) |- _ => unfold Qclt in H
  end;
  try match goal with
  | |- @eq Qc _ _ => apply Qc_eq_iff
  | |- ~ (@eq Qc _ _) => rewrite Qc_eq_iff
  | |- Qcle _ _ => unfold Qcle
  | |- Qclt _ _ => unfold Qclt
  | |- ~ (Qcle _ _) => unfold Qcle
  | |- ~ (Qclt _ _) => unfold Qclt
  end;
  repeat match goal with
  | H : context [this (Qcplus _ _)] |- _ => qc_push_in H
  | H : context [this (Qcmult _ _)] |- _ => qc_push_in H
  | H : context [this (Qcminus _ _)] |- _ => qc_push_in H
  | H : context [this (Qcopp _)] |- _ => qc_push_in H
  | H : context [this (Q2Qc _)] |- _ => qc_push_in H
  end;
  qc_push.

(** Concrete evaluation of goals whose results contain rationals. *)
Ltac qcr :=
  vm_compute;
  repeat first
    [ match goal with |- @eq Qc _ _ => apply Qc_is_canon; reflexivity end
    | match goal with |- _ /\ _ => split end
    | reflexivity | discriminate | congruence
    | match goal with |- _ = _ => progress f_equal end ].
Ltac qlra := qc2q; try (split; qc2q); lra.
Ltac qnra := qc2q; nra.

Lemma Qcltb_true x y : Qcltb x y = true <-> x < y.
Proof. destruct (Qcltb_spec x y); split; intros; try easy; exfalso; qlra. Qed.
Lemma Qcltb_false x y : Qcltb x y = false <-> y <= x.
Proof. destruct (Qcltb_spec x y); split; intros; try easy; exfalso; qlra. Qed.
Lemma Qcleb_true x y : Qcleb x y = true <-> x <= y.
Proof. destruct (Qcleb_spec x y); split; intros; try easy; exfalso; qlra. Qed.
Lemma Qcleb_false x y : Qcleb x y = false <-> y < x.
Proof. destruct (Qcleb_spec x y); split; intros; try easy; exfalso; qlra. Qed.
Lemma Qceqb_true x y : Qceqb x y = true <-> x = y.
Proof. destruct (Qceqb_spec x y); split; intros; try easy; exfalso; qlra. Qed.

Lemma Qcmax_spec x y : (x <= y /\ Qcmax x y = y) \/ (y <= x /\ Qcmax x y = x).
Proof. unfold Qcmax. destruct (Qclt_le_dec x y); [left|right]; split; auto; qlra. Qed.
Lemma Qcmin_spec x y : (x <= y /\ Qcmin x y = x) \/ (y <= x /\ Qcmin x y = y).
Proof. unfold Qcmin. destruct (Qclt_le_dec x y); [left|right]; split; auto; qlra. Qed.

Lemma qn_S n : qn (S n) = qn n + 1.
Proof.
  unfold qn. apply Qc_eq_iff. rewrite this_plus, !this_Q2Qc.
  rewrite Nat2Z.inj_succ. unfold inject_Z, Qeq, Qplus; simpl. lia.
Qed.
Lemma qn_0 : qn 0 = 0.  Proof. reflexivity. Qed.
Lemma qn_1 : qn 1 = 1.  Proof. reflexivity. Qed.
Lemma qn_add a b : qn (a + b) = qn a + qn b.
Proof. induction a; simpl. rewrite qn_0; ring. rewrite !qn_S, IHa. ring. Qed.
Lemma qn_mul a b : qn (a * b) = qn a * qn b.
Proof. induction a; simpl. rewrite qn_0; ring. rewrite qn_add, qn_S, IHa. ring. Qed.
Lemma qn_le a b : (a <= b)%nat <-> qn a <= qn b.
Proof.
  unfold qn, Qcle. rewrite !this_Q2Qc. unfold Qle; simpl. lia.
Qed.
Lemma qn_lt a b : (a < b)%nat <-> qn a < qn b.
Proof.
  unfold qn, Qclt. rewrite !this_Q2Qc. unfold Qlt; simpl. lia.
Qed.
Lemma qn_nonneg n : 0 <= qn n.
Proof. rewrite <- qn_0. apply qn_le. lia. Qed.
Lemma qn_pos n : (0 < n)%nat -> 0 < qn n.
Proof. rewrite <- qn_0. apply qn_lt. Qed.
Lemma qn_inj a b : qn a = qn b -> a = b.
Proof.
  intros H. apply Nat.le_antisymm; apply qn_le; rewrite H; apply Qcle_refl.
Qed.

Lemma Qclt_neq x : 0 < x -> x <> 0.
Proof. intros H ->. qlra. Qed.
Lemma Qcmult_div_cancel a b : b <> 0 -> a / b * b = a.
Proof. intros H. field. assumption. Qed.
Lemma Qcinv_pos x : 0 < x -> 0 < / x.
Proof.
  intros H. unfold Qclt. rewrite this_inv, this_0.
  apply Qinv_lt_0_compat. exact H.
Qed.
Lemma Qcmult_pos x y : 0 < x -> 0 < y -> 0 < x * y.
Proof. intros. qc2q. nra. Qed.
Lemma Qcmult_nonneg x y : 0 <= x -> 0 <= y -> 0 <= x * y.
Proof. intros. qc2q. nra. Qed.
Lemma Qcdiv_pos x y : 0 < x -> 0 < y -> 0 < x / y.
Proof. intros. unfold Qcdiv. apply Qcmult_pos; auto using Qcinv_pos. Qed.
Lemma Qcdiv_nonneg x y : 0 <= x -> 0 < y -> 0 <= x / y.
Proof.
  intros. unfold Qcdiv. apply Qcmult_nonneg; auto.
  apply Qclt_le_weak. auto using Qcinv_pos.
Qed.
Lemma Qcle_div x y z : 0 < z -> (x <= y / z <-> x * z <= y).
Proof.
  intros Hz. assert (Hn := Qclt_neq Hz).
  assert (E : y = y / z * z) by (field; assumption).
  set (w := y / z) in *. rewrite E. split; intros; qc2q; nra.
Qed.
Lemma Qclt_div x y z : 0 < z -> (x < y / z <-> x * z < y).
Proof.
  intros Hz. assert (Hn := Qclt_neq Hz).
  assert (E : y = y / z * z) by (field; assumption).
  set (w := y / z) in *. rewrite E. split; intros; qc2q; nra.
Qed.
Lemma Qcdiv_le x y z : 0 < z -> (y / z <= x <-> y <= x * z).
Proof.
  intros Hz. assert (Hn := Qclt_neq Hz).
  assert (E : y = y / z * z) by (field; assumption).
  set (w := y / z) in *. rewrite E. split; intros; qc2q; nra.
Qed.
Lemma Qcdiv_lt x y z : 0 < z -> (y / z < x <-> y < x * z).
Proof.
  intros Hz. assert (Hn := Qclt_neq Hz).
  assert (E : y = y / z * z) by (field; assumption).
  set (w := y / z) in *. rewrite E. split; intros; qc2q; nra.
Qed.

(** ** Sums *)
Lemma qsum_app l1 l2 : qsum (l1 ++ l2) = qsum l1 + qsum l2.
Proof. induction l1; simpl. ring. rewrite IHl1. ring. Qed.
Lemma qsum_cons x l : qsum (x :: l) = x + qsum l.  Proof. reflexivity. Qed.
Lemma qsum_perm l1 l2 : Permutation l1 l2 -> qsum l1 = qsum l2.
Proof. induction 1; simpl; try congruence. ring. Qed.
Lemma qsum_nonneg l : Forall (fun x => 0 <= x) l -> 0 <= qsum l.
Proof. induction 1; simpl; qlra. Qed.
Lemma qsum_map_scale {A} (f : A -> Qc) c l :
  qsum (map (fun x => c * f x) l) = c * qsum (map f l).
Proof. induction l; simpl. ring. rewrite IHl. ring. Qed.
Lemma qsum_map_add {A} (f g : A -> Qc) l :
  qsum (map (fun x => f x + g x) l) = qsum (map f l) + qsum (map g l).
Proof. induction l; simpl. ring. rewrite IHl. ring. Qed.
Lemma qsum_map_ext {A} (f g : A -> Qc) l :
  (forall x, In x l -> f x = g x) -> qsum (map f l) = qsum (map g l).
Proof. intros. f_equal. apply map_ext_in. assumption. Qed.
Lemma qsum_const {A} (l : list A) c : qsum (map (fun _ => c) l) = qn (List.length l) * c.
Proof. induction l; simpl. rewrite qn_0; ring. rewrite qn_S, IHl. ring. Qed.
Lemma qsum_map_le {A} (f g : A -> Qc) l :
  (forall x, In x l -> f x <= g x) -> qsum (map f l) <= qsum (map g l).
Proof.
  induction l as [|a l IH]; simpl; intros H. qlra.
  assert (f a <= g a) by auto. assert (qsum (map f l) <= qsum (map g l)) by auto. qlra.
Qed.
Lemma qsum_le_in l x : Forall (fun x => 0 <= x) l -> In x l -> x <= qsum l.
Proof.
  induction 1 as [|y l Hy Hl IH]; simpl; [easy|].
  intros [->|Hin]. pose proof (qsum_nonneg Hl). qlra. specialize (IH Hin). qlra.
Qed.

(** ** Dictionaries *)
Section DictFacts.
  Context {V : Type}.
  Implicit Types (d : dict V) (k : string).

  Lemma dget_dset_eq k v d : dget k (dset k v d) = Some v.
  Proof.
    induction d as [|[k' v'] d IH]; simpl. now rewrite String.eqb_refl.
    destruct (String.eqb_spec k k'); simpl.
    - subst. now rewrite String.eqb_refl.
    - destruct (String.eqb_spec k k'); congruence.
  Qed.
  Lemma dget_dset_ne k k' v d : k <> k' -> dget k (dset k' v d) = dget k d.
  Proof.
    intros Hne. induction d as [|[k0 v0] d IH]; simpl.
    - destruct (String.eqb_spec k k'); congruence.
    - destruct (String.eqb_spec k' k0); simpl.
      + subst. destruct (String.eqb_spec k k0); congruence.
      + destruct (String.eqb_spec k k0); congruence.
  Qed.
  Lemma dget_In k v d : dget k d = Some v -> In (k, v) d.
  Proof.
    induction d as [|[k0 v0] d IH]; simpl; [easy|].
    destruct (String.eqb_spec k k0). intros [= ->]; subst; auto. auto.
  Qed.
  Lemma dget_None k d : dget k d = None <-> ~ In k (keys d).
  Proof.
    induction d as [|[k0 v0] d IH]; simpl. tauto.
    destruct (String.eqb_spec k k0).
    - subst. split; [easy|]. intros H; exfalso; auto.
    - rewrite IH. split; [intros H [H'|H']; congruence | tauto].
  Qed.
  Lemma dget_Some_keys k v d : dget k d = Some v -> In k (keys d).
  Proof. intros H. apply dget_In in H. apply in_map_iff. now exists (k, v). Qed.
  Lemma In_keys_dget k d : In k (keys d) -> exists v, dget k d = Some v.
  Proof.
    intros H. destruct (dget k d) eqn:E; [eauto|]. now apply dget_None in E.
  Qed.
  Lemma In_dget k v d : NoDup (keys d) -> In (k, v) d -> dget k d = Some v.
  Proof.
    induction d as [|[k0 v0] d IH]; simpl; [easy|].
    intros Hnd [H|H]; inversion Hnd; subst.
    - injection H as -> ->. now rewrite String.eqb_refl.
    - destruct (String.eqb_spec k k0); [|auto]. subst. exfalso.
      apply H2. apply in_map_iff. now exists (k0, v).
  Qed.
  Lemma keys_dset k v d :
    keys (dset k v d) = if dmem k d then keys d else keys d ++ [k].
  Proof.
    unfold dmem. induction d as [|[k0 v0] d IH]; simpl; [easy|].
    destruct (String.eqb_spec k k0); simpl; [easy|].
    rewrite IH. now destruct (dget k d).
  Qed.
  Lemma NoDup_app_single {A} (l : list A) x : NoDup l -> ~ In x l -> NoDup (l ++ [x]).
  Proof.
    induction l as [|a l IH]; simpl; intros Hn Hx.
    - constructor; auto.
    - inversion Hn; subst. constructor.
      + rewrite in_app_iff; simpl. intros [H|[H|[]]]; auto.
      + apply IH; auto.
  Qed.
  Lemma NoDup_keys_dset k v d : NoDup (keys d) -> NoDup (keys (dset k v d)).
  Proof.
    intros H. rewrite keys_dset. unfold dmem. destruct (dget k d) eqn:E; [easy|].
    apply dget_None in E. now apply NoDup_app_single.
  Qed.
  Lemma dmem_true k d : dmem k d = true <-> In k (keys d).
  Proof.
    unfold dmem. destruct (dget k d) eqn:E.
    - split; [intros _; eapply dget_Some_keys; eauto|easy].
    - apply dget_None in E. split; [easy|]. tauto.
  Qed.
  Lemma dmem_false k d : dmem k d = false <-> ~ In k (keys d).
  Proof. rewrite <- dmem_true. destruct (dmem k d); split; intros; try easy. Qed.
  Lemma dset_same k v d : dget k d = Some v -> dset k v d = d.
  Proof.
    induction d as [|[k0 v0] d IH]; simpl; [easy|].
    destruct (String.eqb_spec k k0). intros [= ->]; reflexivity.
    intros H. f_equal. auto.
  Qed.
  Lemma dget_app k d1 d2 :
    dget k (d1 ++ d2) = match dget k d1 with Some v => Some v | None => dget k d2 end.
  Proof.
    induction d1 as [|[k0 v0] d1 IH]; simpl; [easy|].
    now destruct (String.eqb_spec k k0).
  Qed.
  Lemma dget_ddel_eq k d : dget k (ddel k d) = None.
  Proof.
    induction d as [|[k0 v0] d IH]; simpl; [easy|].
    destruct (String.eqb_spec k k0); simpl; [easy|].
    destruct (String.eqb_spec k k0); congruence.
  Qed.
  Lemma dget_ddel_ne k k' d : k <> k' -> dget k (ddel k' d) = dget k d.
  Proof.
    intros Hne. induction d as [|[k0 v0] d IH]; simpl; [easy|].
    destruct (String.eqb_spec k' k0); simpl.
    - subst. destruct (String.eqb_spec k k0); congruence.
    - destruct (String.eqb_spec k k0); congruence.
  Qed.
End DictFacts.

Lemma mem_true x l : mem x l = true <-> In x l.
Proof.
  unfold mem. rewrite existsb_exists. split.
  - intros (y & Hy & E). apply String.eqb_eq in E. now subst.
  - intros H. exists x. now rewrite String.eqb_refl.
Qed.
Lemma mem_false x l : mem x l = false <-> ~ In x l.
Proof. rewrite <- mem_true. destruct (mem x l); split; intros; try easy. Qed.

(** ** Monadic loops *)
Lemma mapM_ok_length {A B} (f : A -> result B) l ys :
  mapM f l = Ok ys -> List.length ys = List.length l.
Proof.
  revert ys. induction l as [|x l IH]; simpl; intros ys.
  - intros [= <-]. reflexivity.
  - destruct (f x); simpl; [|easy]. destruct (mapM f l) eqn:E; simpl; [|easy].
    intros [= <-]. simpl. now rewrite (IH _ eq_refl).
Qed.
Lemma mapM_Forall2 {A B} (f : A -> result B) l ys :
  mapM f l = Ok ys <-> Forall2 (fun x y => f x = Ok y) l ys.
Proof.
  revert ys. induction l as [|x l IH]; simpl; intros ys.
  - split. intros [= <-]. constructor. now inversion 1.
  - split.
    + destruct (f x) eqn:Ex; simpl; [|easy]. destruct (mapM f l) eqn:E; simpl; [|easy].
      intros [= <-]. constructor; auto. now apply IH.
    + inversion 1; subst. rewrite H2. simpl.
      assert (mapM f l = Ok l') as -> by now apply IH. reflexivity.
Qed.
Lemma mapM_ext {A B} (f g : A -> result B) l :
  (forall x, In x l -> f x = g x) -> mapM f l = mapM g l.
Proof.
  induction l as [|x l IH]; simpl; intros H; [easy|].
  rewrite H by auto. destruct (g x); simpl; [|easy]. rewrite IH; auto.
Qed.
Lemma mapM_pure {A B} (f : A -> B) l : mapM (fun x => Ok (f x)) l = Ok (map f l).
Proof. induction l as [|x l IH]; simpl; [easy|]. rewrite IH. reflexivity. Qed.

(** ** Strings *)
Local Open Scope string_scope.

Lemma string_app_nil s : s ++ "" = s.
Proof. induction s; simpl; congruence. Qed.
Lemma string_app_assoc a b c : a ++ (b ++ c) = (a ++ b) ++ c.
Proof. induction a; simpl; congruence. Qed.
Lemma str_rev_app_spec s acc : str_rev_app s acc = (str_rev s ++ acc)%string.
Proof.
  unfold str_rev. revert acc. induction s as [|a s IH]; intros acc; simpl; [easy|].
  rewrite IH. rewrite (IH (String a "")). rewrite <- string_app_assoc. reflexivity.
Qed.
Lemma str_rev_cons a s : str_rev (String a s) = (str_rev s ++ String a "")%string.
Proof. unfold str_rev at 1. simpl. apply str_rev_app_spec. Qed.
Lemma str_rev_app_dist a b : str_rev (a ++ b) = (str_rev b ++ str_rev a)%string.
Proof.
  induction a as [|c a IH]; simpl. now rewrite string_app_nil.
  rewrite !str_rev_cons, IH. now rewrite string_app_assoc.
Qed.
Lemma str_rev_involutive s : str_rev (str_rev s) = s.
Proof.
  induction s as [|a s IH]; [easy|]. rewrite str_rev_cons, str_rev_app_dist, IH. reflexivity.
Qed.
Lemma string_app_inj_l a b c : (a ++ b = a ++ c)%string -> b = c.
Proof. induction a; simpl; intros H; [easy|]. injection H. auto. Qed.

Lemma split_on_nonempty c s : split_on c s <> [].
Proof.
  destruct s as [|a s]; simpl; [easy|]. destruct (Ascii.eqb a c); [easy|].
  destruct (split_on c s); easy.
Qed.

Lemma split_on_nochar c s : has_char c s = false -> split_on c s = [s].
Proof.
  induction s as [|a s IH]; simpl; [easy|].
  intros H. apply orb_false_iff in H as [Ha Hs]. rewrite Ha, IH by easy. reflexivity.
Qed.

(** Splitting what was joined gives the pieces back if no piece contains the separator. *)
Lemma split_on_app c w s :
  has_char c w = false ->
  split_on c (w ++ String c s) = w :: split_on c s.
Proof.
  induction w as [|a w IH]; simpl.
  - intros _. now rewrite Ascii.eqb_refl.
  - intros H. apply orb_false_iff in H as [Ha Hs]. rewrite Ha, IH by easy. reflexivity.
Qed.
Lemma split_join c l :
  l <> [] -> Forall (fun w => has_char c w = false) l ->
  split_on c (join (String c "") l) = l.
Proof.
  unfold join. induction l as [|w l IH]; [easy|]. intros _ H. inversion H; subst.
  destruct l as [|w' l].
  - simpl. now apply split_on_nochar.
  - change (String.concat (String c "") (w :: w' :: l))
      with (w ++ String c "" ++ String.concat (String c "") (w' :: l))%string.
    simpl append at 2. rewrite split_on_app by easy. f_equal. apply IH; easy.
Qed.
Lemma split_on_pieces c s : Forall (fun w => has_char c w = false) (split_on c s).
Proof.
  induction s as [|a s IH]; simpl; [now constructor|].
  destruct (Ascii.eqb a c) eqn:E; [now constructor|].
  destruct (split_on c s) as [|w ws]; simpl.
  - constructor; [|constructor]. simpl. now rewrite E.
  - inversion IH; subst. constructor; [|easy]. simpl. now rewrite E.
Qed.
Lemma join_split c s : join (String c "") (split_on c s) = s.
Proof.
  unfold join. induction s as [|a s IH]; simpl; [easy|].
  destruct (Ascii.eqb_spec a c).
  - subst. destruct (split_on c s) eqn:E. now apply split_on_nonempty in E.
    rewrite <- E in *. simpl.
    change (String.concat (String c "") ("" :: split_on c s)) with
      (match split_on c s with [] => "" | _ => "" ++ String c "" ++ String.concat (String c "") (split_on c s) end)%string.
    rewrite E. rewrite <- E. rewrite IH. reflexivity.
  - destruct (split_on c s) as [|w ws] eqn:E. now apply split_on_nonempty in E.
    destruct ws as [|w' ws]; simpl in *; congruence.
Qed.

Lemma has_char_app c a b : has_char c (a ++ b) = has_char c a || has_char c b.
Proof. induction a; simpl; [easy|]. now rewrite IHa, orb_assoc. Qed.

Lemma str_of_nat_inj a b : str_of_nat a = str_of_nat b -> a = b.
Proof.
  unfold str_of_nat. intros H.
  apply (f_equal NilEmpty.uint_of_string) in H. rewrite !NilEmpty.usu in H.
  injection H as H. now apply DecimalNat.Unsigned.to_uint_inj.
Qed.

(** ** Order on strings and labels *)
Lemma ascii_compare_refl a : Ascii.compare a a = Eq.
Proof. unfold Ascii.compare. apply N.compare_refl. Qed.
Lemma string_compare_refl s : String.compare s s = Eq.
Proof. induction s; simpl; [easy|]. now rewrite ascii_compare_refl. Qed.
Lemma ascii_compare_lt_trans a b c :
  Ascii.compare a b = Lt -> Ascii.compare b c = Lt -> Ascii.compare a c = Lt.
Proof. unfold Ascii.compare. rewrite !N.compare_lt_iff. lia. Qed.
Lemma ascii_compare_eq a b : Ascii.compare a b = Eq -> a = b.
Proof. apply Ascii.compare_eq_iff. Qed.
Lemma string_lt_trans a b c :
  String.compare a b = Lt -> String.compare b c = Lt -> String.compare a c = Lt.
Proof.
  revert b c. induction a as [|x a IH]; intros [|y b] [|z c]; simpl; try easy.
  destruct (Ascii.compare x y) eqn:E1; [|..]; destruct (Ascii.compare y z) eqn:E2; intros H1 H2; try easy.
  - apply ascii_compare_eq in E1, E2. subst. rewrite ascii_compare_refl. eauto.
  - apply ascii_compare_eq in E1. subst. now rewrite E2.
  - apply ascii_compare_eq in E2. subst. now rewrite E1.
  - now rewrite (ascii_compare_lt_trans _ _ _ E1 E2).
Qed.

Definition str_lt (a b : string) : Prop := String.compare a b = Lt.

Lemma str_le_spec a b : str_le a b = true <-> a = b \/ str_lt a b.
Proof.
  unfold str_le, str_lt, String.leb. destruct (String.compare a b) eqn:E.
  - apply String.compare_eq_iff in E. subst. tauto.
  - tauto.
  - split; [easy|]. intros [->|H]; [|easy]. rewrite string_compare_refl in E. easy.
Qed.
Lemma str_le_trans a b c : str_le a b = true -> str_le b c = true -> str_le a c = true.
Proof.
  rewrite !str_le_spec. intros [->|H1] [->|H2]; auto. right. eapply string_lt_trans; eauto.
Qed.
Lemma str_le_total a b : str_le a b = true \/ str_le b a = true.
Proof. apply String.leb_total. Qed.
Lemma str_le_antisym a b : str_le a b = true -> str_le b a = true -> a = b.
Proof. apply String.leb_antisym. Qed.

Lemma label_le_refl a : label_le a a = true.
Proof. induction a; simpl; [easy|]. now rewrite string_compare_refl. Qed.
Lemma label_le_total a b : label_le a b = true \/ label_le b a = true.
Proof.
  revert b. induction a as [|x a IH]; intros [|y b]; simpl; auto.
  rewrite (String.compare_antisym y x). destruct (String.compare x y) eqn:E; simpl; auto.
Qed.
Lemma label_le_antisym a b : label_le a b = true -> label_le b a = true -> a = b.
Proof.
  revert b. induction a as [|x a IH]; intros [|y b]; simpl; try easy.
  rewrite (String.compare_antisym y x).
  destruct (String.compare x y) eqn:E; simpl; try easy.
  apply String.compare_eq_iff in E. subst. intros. f_equal. auto.
Qed.
Lemma label_le_trans a b c : label_le a b = true -> label_le b c = true -> label_le a c = true.
Proof.
  revert b c. induction a as [|x a IH]; intros [|y b] [|z c]; simpl; try easy.
  destruct (String.compare x y) eqn:E1; destruct (String.compare y z) eqn:E2; intros H1 H2; try easy.
  - apply String.compare_eq_iff in E1, E2. subst. rewrite string_compare_refl. eauto.
  - apply String.compare_eq_iff in E1. subst. now rewrite E2.
  - apply String.compare_eq_iff in E2. subst. now rewrite E1.
  - now rewrite (string_lt_trans _ _ _ E1 E2).
Qed.

(** ** Sorting *)
Section SortFacts.
  Context {A : Type} (le : A -> A -> bool).
  Lemma insert_perm x l : Permutation (x :: l) (insert le x l).
  Proof.
    induction l as [|y l IH]; simpl; [reflexivity|].
    destruct (le x y); [reflexivity|].
    rewrite perm_swap. now constructor.
  Qed.
  Lemma isort_perm l : Permutation l (isort le l).
  Proof.
    induction l as [|x l IH]; simpl; [reflexivity|].
    rewrite <- insert_perm. now constructor.
  Qed.
  Context (le_trans : forall a b c, le a b = true -> le b c = true -> le a c = true)
          (le_total : forall a b, le a b = true \/ le b a = true).
  Definition sorted_by (l : list A) : Prop := StronglySorted (fun a b => le a b = true) l.
  Lemma insert_sorted x l : sorted_by l -> sorted_by (insert le x l).
  Proof.
    induction 1 as [|y l Hs IH Hy]; simpl.
    - repeat constructor.
    - destruct (le x y) eqn:E.
      + constructor; [constructor; auto|]. constructor; [easy|].
        eapply Forall_impl; [|exact Hy]. simpl. intros; eauto.
      + constructor; [easy|].
        rewrite <- insert_perm. constructor; [|easy].
        destruct (le_total x y); congruence.
  Qed.
  Lemma isort_sorted l : sorted_by (isort le l).
  Proof. induction l; simpl. constructor. now apply insert_sorted. Qed.
  Lemma isort_id l : sorted_by l -> isort le l = l.
  Proof.
    induction 1 as [|x l Hs IH Hx]; simpl; [easy|]. rewrite IH.
    destruct l; simpl; [easy|]. inversion Hx; subst. now rewrite H1.
  Qed.
  (** A sorted arrangement is unique for an antisymmetric order. *)
  Lemma sorted_perm_unique l1 l2 :
    (forall a b, le a b = true -> le b a = true -> a = b) ->
    sorted_by l1 -> sorted_by l2 -> Permutation l1 l2 -> l1 = l2.
  Proof.
    intros Hanti H1. revert l2. induction H1 as [|x l1 Hs IH Hx]; intros l2 H2 Hp.
    - now apply Permutation_nil in Hp.
    - destruct H2 as [|y l2 Hs2 Hy].
      + now apply Permutation_sym, Permutation_nil in Hp.
      + assert (x = y) as ->.
        { assert (In x (y :: l2)) as Hin by (eapply Permutation_in; [exact Hp|now left]).
          assert (In y (x :: l1)) as Hin' by
              (eapply Permutation_in; [symmetry; exact Hp|now left]).
          destruct Hin as [->|Hin]; [easy|]. destruct Hin' as [->|Hin']; [easy|].
          rewrite Forall_forall in Hx, Hy. auto. }
        f_equal. apply IH; [easy|]. now apply Permutation_cons_inv in Hp.
  Qed.
End SortFacts.

(** ** Ordered de-duplication *)
Section UniqueFacts.
  Context {A : Type} (eqb : A -> A -> bool) (eqb_eq : forall a b, eqb a b = true <-> a = b).
  Lemma existsb_eqb_In x l : existsb (eqb x) l = true <-> In x l.
  Proof.
    rewrite existsb_exists. split.
    - intros (y & Hy & E). apply eqb_eq in E. now subst.
    - intros H. exists x. split; [easy|]. now apply eqb_eq.
  Qed.
  Lemma unique_acc_In seen l x :
    In x (unique_acc eqb seen l) <-> In x l /\ ~ In x seen.
  Proof.
    revert seen. induction l as [|y l IH]; intros seen; simpl. tauto.
    destruct (existsb (eqb y) seen) eqn:E.
    - apply existsb_eqb_In in E. rewrite IH. intuition (subst; tauto).
    - assert (~ In y seen) by (rewrite <- existsb_eqb_In, E; easy).
      simpl. rewrite IH. simpl.
      assert (Hdec : {y = x} + {y <> x}).
      { destruct (eqb y x) eqn:Eyx; [left; now apply eqb_eq|right].
        intros <-. assert (eqb y y = true) by now apply eqb_eq. congruence. }
      destruct Hdec; intuition (subst; tauto).
  Qed.
  Lemma unique_In l x : In x (unique eqb l) <-> In x l.
  Proof. unfold unique. rewrite unique_acc_In. simpl. tauto. Qed.
  Lemma unique_acc_NoDup seen l : NoDup (unique_acc eqb seen l).
  Proof.
    revert seen. induction l as [|y l IH]; intros seen; simpl. constructor.
    destruct (existsb (eqb y) seen); [apply IH|]. constructor; [|apply IH].
    rewrite unique_acc_In. simpl. tauto.
  Qed.
  Lemma unique_NoDup l : NoDup (unique eqb l).
  Proof. apply unique_acc_NoDup. Qed.
End UniqueFacts.

Lemma somes_map_Some {A} (l : list A) : somes (map Some l) = l.
Proof. induction l; simpl; congruence. Qed.
Lemma In_somes {A} (l : list (option A)) x : In x (somes l) <-> In (Some x) l.
Proof.
  unfold somes. rewrite in_flat_map. split.
  - intros ([y|] & H & H'); simpl in H'; [|easy]. destruct H' as [->|[]]. easy.
  - intros H. exists (Some x). simpl. auto.
Qed.
