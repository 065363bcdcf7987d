(** Facts about the text handling of [M_Damage]: numbers, prefixes, removal of parts. *)
From Coq Require Import DecimalString DecimalNat.
From Verif Require Import Prelude PreludeFacts Pandas M_Base P_Base M_Damage S_Damage.
Local Open Scope string_scope.
Local Open Scope list_scope.

Lemma digit_cases a : is_digit a = true -> In a ["0"; "1"; "2"; "3"; "4"; "5"; "6"; "7"; "8"; "9"]%char.
Proof.
  intros H. destruct a as [[] [] [] [] [] [] [] []]; try (vm_compute in H; discriminate H); simpl; tauto.
Qed.
Lemma digit_not_space a : is_digit a = true -> is_space a = false.
Proof. intros H. apply digit_cases in H. simpl in H. repeat (destruct H as [<-|H]; [reflexivity|]). easy. Qed.
Lemma digit_not c a : is_digit a = true -> is_digit c = false -> Ascii.eqb a c = false.
Proof. intros H Hc. destruct (Ascii.eqb_spec a c); [congruence|easy]. Qed.

Lemma all_digits_app a b : all_digits (a ++ b) = all_digits a && all_digits b.
Proof. induction a as [|c a IH]; simpl; [easy|]. now rewrite IH, andb_assoc. Qed.
Lemma all_digits_rev s : all_digits (str_rev s) = all_digits s.
Proof.
  induction s as [|a s IH]; [easy|]. rewrite str_rev_cons, all_digits_app, IH. simpl.
  rewrite andb_true_r. apply andb_comm.
Qed.
Lemma all_digits_nochar c s : is_digit c = false -> all_digits s = true -> has_char c s = false.
Proof.
  intros Hc. induction s as [|a s IH]; simpl; [easy|]. intros H. apply andb_true_iff in H as [Ha Hs].
  rewrite (digit_not c a Ha Hc). auto.
Qed.
Lemma string_of_uint_digits d : all_digits (NilEmpty.string_of_uint d) = true.
Proof. induction d; simpl; auto. Qed.
Lemma str_of_nat_digits k : all_digits (str_of_nat k) = true.
Proof. apply string_of_uint_digits. Qed.
Lemma str_of_nat_nonempty k : str_of_nat k <> "".
Proof.
  unfold str_of_nat. destruct (Nat.to_uint k) eqn:E; try easy. intros _.
  destruct k as [|k]; [vm_compute in E; discriminate E|].
  pose proof (Unsigned.of_to (S k)) as H. rewrite E in H. discriminate H.
Qed.

Lemma lstrip_digits s : all_digits s = true -> lstrip_space s = s.
Proof.
  destruct s as [|a s]; simpl; [easy|]. intros H. apply andb_true_iff in H as [Ha _].
  now rewrite digit_not_space.
Qed.
Lemma strip_digits s : all_digits s = true -> strip_space s = s.
Proof.
  intros H. unfold strip_space. rewrite (lstrip_digits s H).
  rewrite lstrip_digits by now rewrite all_digits_rev. apply str_rev_involutive.
Qed.

Lemma parse_uint d : forall a,
  parse_digits (Z.of_nat a) true (NilEmpty.string_of_uint d) = Some (Z.of_nat (Nat.of_uint_acc d a)).
Proof.
  assert (E : forall a, Nat.tail_mul 10 a = (10 * a)%nat) by (intros; apply Nat.tail_mul_spec).
  induction d; intros a; [easy|..];
    cbn [NilEmpty.string_of_uint parse_digits Nat.of_uint_acc];
    match goal with |- context[if is_digit ?c then _ else _] =>
      change (is_digit c) with true; cbv iota;
      let z := eval vm_compute in (digit_value c) in change (digit_value c) with z end;
    rewrite <- IHd; f_equal; rewrite ?Nat2Z.inj_succ, (E a), Nat2Z.inj_mul; lia.
Qed.

Lemma parse_digits_start s acc : s <> "" -> all_digits s = true ->
  parse_digits acc false s = parse_digits acc true s.
Proof. destruct s as [|a s]; [easy|]. intros _ H. simpl in *. apply andb_true_iff in H as [-> _]. easy. Qed.

Lemma pyint_digits s : s <> "" -> all_digits s = true -> pyint s = parse_digits 0 true s.
Proof.
  intros Hne H. unfold pyint. rewrite (strip_digits s H). destruct s as [|a s]; [easy|].
  simpl in H. apply andb_true_iff in H as [Ha Hs].
  rewrite (digit_not "-" a Ha), (digit_not "+" a Ha) by reflexivity.
  apply parse_digits_start; [easy|]. simpl. now rewrite Ha.
Qed.

Lemma pyint_str_of_nat k : pyint (str_of_nat k) = Some (Z.of_nat k).
Proof.
  rewrite pyint_digits by (apply str_of_nat_nonempty || apply str_of_nat_digits).
  unfold str_of_nat. change 0%Z with (Z.of_nat 0). rewrite parse_uint. f_equal. f_equal.
  change (Nat.of_uint_acc (Nat.to_uint k) 0) with (Nat.of_uint (Nat.to_uint k)). apply Unsigned.of_to.
Qed.

(** ** Splitting task names *)
Lemma split_two c a b : has_char c a = false -> has_char c b = false ->
  split_on c (a ++ String c b) = [a; b].
Proof. intros Ha Hb. rewrite split_on_app by easy. now rewrite split_on_nochar. Qed.

Lemma prefix_app p s : String.prefix p (p ++ s) = true.
Proof. induction p as [|a p IH]; simpl; [now destruct s|]. destruct (ascii_dec a a); easy. Qed.
Lemma ends_with_app p s : ends_with p (s ++ p) = true.
Proof. unfold ends_with. rewrite str_rev_app_dist. apply prefix_app. Qed.
Lemma prefix_true p s : String.prefix p s = true <-> exists t, s = (p ++ t)%string.
Proof.
  split.
  - revert s. induction p as [|a p IH]; intros s; simpl; [eauto|].
    destruct s as [|b s]; [easy|]. simpl. destruct (ascii_dec a b) as [->|]; [|easy].
    intros H. apply IH in H as (t & ->). now exists t.
  - intros (t & ->). apply prefix_app.
Qed.
Lemma ends_with_true p s : ends_with p s = true <-> exists t, s = (t ++ p)%string.
Proof.
  unfold ends_with. rewrite prefix_true. split.
  - intros (t & E). exists (str_rev t). rewrite <- (str_rev_involutive s), E, str_rev_app_dist.
    now rewrite str_rev_involutive.
  - intros (t & ->). exists (str_rev t). apply str_rev_app_dist.
Qed.
Lemma ends_with_nochar c p s : has_char c p = true -> has_char c s = false -> ends_with p s = false.
Proof.
  intros Hp Hs. destruct (ends_with p s) eqn:E; [|easy]. apply ends_with_true in E as (t & ->).
  rewrite has_char_app, Hp, orb_true_r in Hs. easy.
Qed.

Lemma length_app a b : String.length (a ++ b) = (String.length a + String.length b)%nat.
Proof. induction a; simpl; auto. Qed.
Lemma remove_suffix_fuel c p s fuel : (String.length s < fuel)%nat -> has_char c s = false ->
  str_remove_fuel fuel (String c p) (s ++ String c p) = s.
Proof.
  revert s. induction fuel as [|f IH]; intros s Hf Hs; [lia|]. destruct s as [|a s].
  - cbn [append str_remove_fuel]. rewrite (proj2 (prefix_true (String c p) (String c p))) by (exists ""; now rewrite string_app_nil).
    assert (E : forall t, str_drop (String.length t) t = "") by (induction t; auto). rewrite E. now destruct f.
  - simpl in Hs. apply orb_false_iff in Hs as [Ha Hs]. cbn [append str_remove_fuel].
    assert (String.prefix (String c p) (String a (s ++ String c p)) = false) as ->.
    { simpl. destruct (ascii_dec c a) as [->|]; [|easy]. now rewrite Ascii.eqb_refl in Ha. }
    simpl in Hf. now rewrite IH by (lia || easy).
Qed.
Lemma remove_suffix c p s : has_char c s = false -> str_remove (String c p) (s ++ String c p) = s.
Proof.
  intros H. unfold str_remove. apply remove_suffix_fuel; [|easy]. rewrite length_app. simpl. lia.
Qed.

Lemma parse_source_plain num source : has_char "_" num = false -> has_char "_" source = false ->
  has_char "-" source = false -> parse_source (num ++ "_" ++ source) = Ok (source, false).
Proof.
  intros Hn Hs Hd. unfold parse_source. change ("_" ++ source)%string with (String "_" source).
  rewrite split_two by easy. now rewrite (ends_with_nochar "-") by easy.
Qed.
Lemma parse_source_loc num source : has_char "_" num = false -> has_char "_" source = false ->
  has_char "-" source = false -> parse_source (num ++ "_" ++ source ++ "-LOC") = Ok (source, true).
Proof.
  intros Hn Hs Hd. unfold parse_source. change ("_" ++ source ++ "-LOC")%string with (String "_" (source ++ "-LOC")).
  rewrite split_two; [|easy|rewrite has_char_app, Hs; easy]. rewrite ends_with_app.
  f_equal. f_equal. now apply (remove_suffix "-" "LOC").
Qed.
Lemma parse_target_DS k : parse_target_event ("DS" ++ str_of_nat k) = Ok (Z.of_nat k).
Proof.
  unfold parse_target_event, starts_with. rewrite prefix_app. cbn [append str_drop].
  now rewrite pyint_str_of_nat.
Qed.

(** The source of a task, and which target events are understood. *)
Lemma parse_source_names name source ml :
  parse_source name = Ok (source, ml) <-> names_source name source ml.
Proof.
  unfold parse_source, names_source. destruct (split_on "_" name) as [|num [|s rest]] eqn:E.
  1, 2: split; [easy|]; intros (? & ? & ? & ? & _); easy.
  destruct (ends_with "-LOC" s) eqn:El.
  - apply ends_with_true in El. split.
    + intros [= <- <-]. exists num, s, rest. auto.
    + intros (n' & s' & r' & [= <- <- <-] & [(-> & _ & ->)|(_ & Hn & _)]); [easy|contradiction].
  - assert (Hn : ~ exists x, s = (x ++ "-LOC")%string).
    { intros H. apply ends_with_true in H. congruence. }
    split.
    + intros [= <- <-]. exists num, s, rest. auto.
    + intros (n' & s' & r' & [= <- <- <-] & [(_ & H & _)|(-> & _ & ->)]); [contradiction|easy].
Qed.

Lemma parse_target_ok ev :
  (exists v, parse_target_event ev = Ok v) <->
  ev = "NA" \/ exists r, ev = ("DS" ++ r)%string /\ pyint r <> None.
Proof.
  unfold parse_target_event. destruct (starts_with "DS" ev) eqn:Es.
  - unfold starts_with in Es. apply prefix_true in Es as (r & ->). cbn [append str_drop].
    destruct (pyint r) as [z|] eqn:Ez.
    + split; [|eauto]. intros _. right. exists r. split; [easy|]. congruence.
    + split; [now intros (v & ?)|]. intros [H|(r' & [= <-] & H)]; [discriminate H|contradiction].
  - destruct (String.eqb_spec ev "NA") as [->|Hn].
    + split; eauto.
    + split; [now intros (v & ?)|]. intros [H|(r & -> & _)]; [contradiction|].
      unfold starts_with in Es. now rewrite prefix_app in Es.
Qed.
