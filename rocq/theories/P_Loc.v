(** Proofs about locations and directions. *)
From Coq Require Import Sorting.Sorted.
From Verif Require Import Prelude PreludeFacts M_Base M_Damage M_Scaling M_Params M_Asset S_Asset P_Base P_Text S_Scaling P_Scaling.
Set Implicit Arguments.
Local Open Scope string_scope.
Local Open Scope list_scope.

(** ** Texts of numbers *)

Lemma parse_digits_nochar c s : is_digit c = false -> c <> "_"%char -> forall acc prev z, parse_digits acc prev s = Some z -> has_char c s = false.
Proof.
  intros Hc Hu. induction s as [|a s IH]; [reflexivity|]. intros acc prev z. cbn [parse_digits has_char].
  destruct (is_digit a) eqn:Ed.
  - intros H. rewrite (IH _ _ _ H). destruct (Ascii.eqb_spec a c); [subst; congruence|reflexivity].
  - destruct (Ascii.eqb_spec a "_") as [->|]; cbn [andb]; [|discriminate]. destruct prev; [|discriminate].
    destruct (Ascii.eqb_spec "_" c); [congruence|]. cbn [orb].
    destruct s as [|b s]; [discriminate|]. intros H. exact (IH _ _ _ H).
Qed.

Lemma split_first_spec p s : forall u o, split_first p s = (u, o) ->
  match o with
  | None => s = u
  | Some v => exists a, p a = true /\ s = (u ++ String a v)%string
  end.
Proof.
  induction s as [|a s IH]; intros u o; cbn [split_first].
  - intros [= <- <-]. reflexivity.
  - destruct (p a) eqn:Ep.
    + intros [= <- <-]. exists a. split; [exact Ep|reflexivity].
    + destruct (split_first p s) as [u' o'] eqn:E. intros [= <- <-]. specialize (IH _ _ eq_refl).
      destruct o' as [v|]; [|now subst]. destruct IH as (b & Hb & ->). exists b. split; [exact Hb|reflexivity].
Qed.
Lemma split_first_none p s : (forall a, has_char a s = true -> p a = false) -> split_first p s = (s, None).
Proof.
  induction s as [|a s IH]; [reflexivity|]. intros H. cbn [split_first].
  rewrite H by (cbn; now rewrite Ascii.eqb_refl). rewrite IH; [reflexivity|].
  intros b Hb. apply H. cbn. rewrite Hb. apply orb_true_r.
Qed.

Definition plain (c : ascii) : Prop := (c = ","%char \/ c = "-"%char).
Lemma lower_ascii_plain c a : plain c -> Ascii.eqb (lower_ascii a) c = Ascii.eqb a c.
Proof.
  intros [-> | ->]; destruct a as [[] [] [] [] [] [] [] []]; reflexivity.
Qed.
Lemma lower_has_char c s : plain c -> has_char c (lower s) = has_char c s.
Proof.
  intros Hc. induction s as [|a s IH]; [reflexivity|]. cbn [lower has_char]. rewrite IH, lower_ascii_plain by exact Hc. reflexivity.
Qed.
Lemma plain_not_digit c : plain c -> is_digit c = false /\ c <> "_"%char /\ is_space c = false /\ is_exp c = false /\ c <> "."%char /\ c <> "+"%char.
Proof. intros [-> | ->]; repeat split; try reflexivity; discriminate. Qed.
Lemma space_nochar c s : is_space c = false -> spaces_only s = true -> has_char c s = false.
Proof.
  intros Hc. induction s as [|a s IH]; [reflexivity|]. cbn. intros H. apply andb_true_iff in H as [Ha Hs].
  rewrite (IH Hs). destruct (Ascii.eqb_spec a c); [subst; congruence|reflexivity].
Qed.

Lemma digits_or_empty_nochar c s z : is_digit c = false -> c <> "_"%char -> digits_or_empty s = Some z -> has_char c s = false.
Proof.
  intros H1 H2. unfold digits_or_empty. destruct (String.eqb_spec s ""); [subst; reflexivity|]. intros H. exact (@parse_digits_nochar _ _ H1 H2 _ _ _ H).
Qed.

(** An unsigned number has no comma, no dash at the beginning, and a dash only behind the
    exponent character. *)
Lemma trunc_unsigned_shape c s t : plain c -> trunc_unsigned s = Some t ->
  (has_char c s = false /\ s <> "") \/
  exists m x t', has_char c m = false /\ m <> "" /\ is_exp x = true /\ s = (m ++ String x t')%string /\ exists z, signed_digits t' = Some z.
Proof.
  intros Hc. unfold trunc_unsigned. destruct (plain_not_digit Hc) as (N1 & N2 & N3 & N4 & N5 & N6).
  destruct (mem (lower s) ["inf"; "infinity"]) eqn:Ei.
  { intros _. left. apply mem_true in Ei. rewrite <- (lower_has_char s Hc).
    split; [destruct Ei as [<- | [<- | []]]; destruct Hc as [-> | ->]; reflexivity|].
    intros ->. cbn in Ei. destruct Ei as [E | [E | []]]; discriminate E. }
  destruct (String.eqb_spec (lower s) "nan") as [En|_].
  { intros _. left. rewrite <- (lower_has_char s Hc), En. split; [destruct Hc as [-> | ->]; reflexivity|]. intros ->. discriminate En. }
  destruct (split_first is_exp s) as [m e] eqn:Es. destruct (split_first (is_char ".") m) as [w f] eqn:Em.
  apply split_first_spec in Es. apply split_first_spec in Em.
  assert (Hm : match f with
               | None => exists n, parse_digits 0 false w = Some n
               | Some f => String.eqb w "" && String.eqb f "" = false /\ exists n d, digits_or_empty w = Some n /\ digits_or_empty f = Some d
               end -> has_char c m = false /\ m <> "").
  { destruct f as [f|].
    - destruct Em as (d & Hd & ->). intros (_ & n & k & Ew & Ef).
      unfold is_char in Hd. apply Ascii.eqb_eq in Hd. subst d. split; [|destruct w; discriminate].
      rewrite has_char_app. cbn [has_char]. rewrite (@digits_or_empty_nochar _ _ _ N1 N2 Ew), (@digits_or_empty_nochar _ _ _ N1 N2 Ef).
      destruct (Ascii.eqb_spec "." c); [congruence|reflexivity].
    - subst w. intros (n & Ew). split; [exact (@parse_digits_nochar _ _ N1 N2 _ _ _ Ew)|]. intros ->. discriminate Ew. }
  assert (Hf : forall (z : Z) (o : option truncation), o = match f with
        | None => option_map (fun n => TInt (scale10 n z)) (parse_digits 0 false w)
        | Some f => if String.eqb w "" && String.eqb f "" then None
            else match digits_or_empty w, digits_or_empty f with Some n, Some d => let k := Z.of_nat (count_digits f) in Some (TInt (scale10 (n * 10 ^ k + d) (z - k))) | _, _ => None end
        end -> o = Some t -> has_char c m = false /\ m <> "").
  { intros z o -> H. apply Hm. destruct f as [f|].
    - destruct (String.eqb w "" && String.eqb f ""); [discriminate H|]. split; [reflexivity|].
      destruct (digits_or_empty w) as [n|]; [|discriminate H]. destruct (digits_or_empty f) as [d|]; [|discriminate H]. exists n, d. auto.
    - destruct (parse_digits 0 false w) as [n|]; [|discriminate H]. exists n. reflexivity. }
  destruct e as [t'|].
  - destruct Es as (x & Hx & ->). destruct (signed_digits t') as [z|] eqn:Ez; [|discriminate]. intros H. right.
    exists m, x, t'. destruct (Hf z _ eq_refl H) as [H1 H2].
    split; [exact H1|]. split; [exact H2|]. split; [exact Hx|]. split; [reflexivity|]. exists z. exact Ez.
  - subst m. intros H. left. exact (Hf 0%Z _ eq_refl H).
Qed.

Lemma signed_digits_comma t z : signed_digits t = Some z -> has_char "," t = false.
Proof.
  unfold signed_digits. destruct t as [|a tl]; [discriminate|].
  destruct (Ascii.eqb_spec a "-") as [->|_].
  { destruct (parse_digits 0 false tl) as [k|] eqn:E; [|discriminate]. intros _. cbn. exact (@parse_digits_nochar "," tl eq_refl ltac:(discriminate) _ _ _ E). }
  destruct (Ascii.eqb_spec a "+") as [->|_].
  { intros E. cbn. exact (@parse_digits_nochar "," tl eq_refl ltac:(discriminate) _ _ _ E). }
  intros E. exact (@parse_digits_nochar "," (String a tl) eq_refl ltac:(discriminate) _ _ _ E).
Qed.
Lemma signed_digits_dash t z : signed_digits t = Some z -> has_char "-" t = false \/ exists q, t = String "-" q /\ has_char "-" q = false /\ q <> "".
Proof.
  unfold signed_digits. destruct t as [|a tl]; [discriminate|].
  destruct (Ascii.eqb_spec a "-") as [->|_].
  { destruct (parse_digits 0 false tl) as [k|] eqn:E; [|discriminate]. intros _. right. exists tl. split; [reflexivity|].
    split; [exact (parse_digits_no_dash _ _ _ E)|exact (@parse_digits_nonempty _ _ _ E)]. }
  destruct (Ascii.eqb_spec a "+") as [->|_].
  { intros E. left. cbn. exact (parse_digits_no_dash _ _ _ E). }
  intros E. left. exact (parse_digits_no_dash _ _ _ E).
Qed.

Lemma trunc_unsigned_comma s t : trunc_unsigned s = Some t -> has_char "," s = false.
Proof.
  intros H. destruct (@trunc_unsigned_shape "," _ _ (or_introl eq_refl) H) as [[E _]|(m & x & t' & Hm & _ & Hx & -> & z & Hz)]; [exact E|].
  rewrite has_char_app, Hm. cbn. rewrite (signed_digits_comma _ Hz). unfold is_exp in Hx.
  destruct (Ascii.eqb_spec x ","); [subst; discriminate Hx|reflexivity].
Qed.
(** Followed by something without a dash. *)
Lemma trunc_unsigned_dashes s t w : has_char "-" w = false -> trunc_unsigned s = Some t ->
  contains "--" (s ++ w) = false /\ contains "--" (String "-" (s ++ w)) = false.
Proof.
  intros Hw H.
  assert (K : forall a r, Ascii.eqb a "-" = false -> contains "--" (String a r) = contains "--" r -> contains "--" (String "-" (String a r)) = contains "--" (String a r)).
  { intros a r Ha _. change (contains "--" (String "-" (String a r))) with (String.prefix "--" (String "-" (String a r)) || contains "--" (String a r))%bool.
    rewrite prefix_dd, Ha, andb_false_r. reflexivity. }
  assert (K2 : forall a r, Ascii.eqb a "-" = false -> contains "--" (String a r) = contains "--" r).
  { intros a r Ha. apply (contains_dd_app (String a "") r). cbn. rewrite Ha. reflexivity. }
  assert (Hs : contains "--" (s ++ w) = false /\ exists a r, (s ++ w)%string = String a r /\ Ascii.eqb a "-" = false).
  { destruct (@trunc_unsigned_shape "-" _ _ (or_intror eq_refl) H) as [[E Hne]|(m & x & t' & Hm & Hne & Hx & -> & z & Hz)].
    - split.
      + apply contains_dd_nochar. rewrite has_char_app, E, Hw. reflexivity.
      + destruct s as [|a r]; [congruence|]. exists a, (r ++ w)%string. split; [reflexivity|]. cbn in E. apply orb_false_iff in E as [E _]. exact E.
    - split.
      + rewrite <- string_app_assoc. cbn [append]. rewrite contains_dd_app by exact Hm.
        assert (Hxd : Ascii.eqb x "-" = false) by (destruct (Ascii.eqb_spec x "-"); [subst; discriminate Hx|reflexivity]).
        rewrite K2 by exact Hxd. destruct (signed_digits_dash _ Hz) as [E|(q & -> & E & Hq)].
        * apply contains_dd_nochar. rewrite has_char_app, E, Hw. reflexivity.
        * cbn [append]. apply contains_dd_dash; [rewrite has_char_app, E, Hw; reflexivity|]. destruct q; [congruence|discriminate].
      + destruct m as [|a r]; [congruence|]. cbn [append]. eexists a, _. split; [reflexivity|]. cbn in Hm. apply orb_false_iff in Hm as [E _]. exact E. }
  destruct Hs as [Hs (a & r & E & Ha)]. split; [exact Hs|]. rewrite E in *. rewrite K by (try exact Ha; apply K2; exact Ha). exact Hs.
Qed.

Lemma trunc_float_comma s t : trunc_float s = Some t -> has_char "," s = false.
Proof.
  unfold trunc_float. destruct (strip_shape s) as (w1 & w2 & E & H1 & H2). destruct (strip_space s) as [|a tl]; [discriminate|].
  rewrite E. rewrite !has_char_app. rewrite (@space_nochar "," w1 eq_refl H1), (@space_nochar "," w2 eq_refl H2), orb_false_r. cbn [orb].
  destruct (Ascii.eqb_spec a "-") as [->|_].
  { destruct (trunc_unsigned tl) as [k|] eqn:Ek; [|discriminate]. intros _. cbn. exact (trunc_unsigned_comma _ Ek). }
  destruct (Ascii.eqb_spec a "+") as [->|_].
  { intros Ek. cbn. exact (trunc_unsigned_comma _ Ek). }
  intros Ek. exact (trunc_unsigned_comma _ Ek).
Qed.
Lemma trunc_float_dashes s t : trunc_float s = Some t -> contains "--" s = false.
Proof.
  unfold trunc_float. destruct (strip_shape s) as (w1 & w2 & E & H1 & H2). destruct (strip_space s) as [|a tl]; [discriminate|].
  apply space_no_dash in H1, H2. rewrite E. rewrite contains_dd_app by exact H1.
  destruct (Ascii.eqb_spec a "-") as [->|_].
  { destruct (trunc_unsigned tl) as [k|] eqn:Ek; [|discriminate]. intros _. cbn [append]. exact (proj2 (trunc_unsigned_dashes _ _ H2 Ek)). }
  destruct (Ascii.eqb_spec a "+") as [->|_].
  { intros Ek. cbn [append]. etransitivity; [exact (contains_dd_app "+" (tl ++ w2) eq_refl)|]. exact (proj1 (trunc_unsigned_dashes _ _ H2 Ek)). }
  intros Ek. exact (proj1 (trunc_unsigned_dashes _ _ H2 Ek)).
Qed.

(** Integers are numbers. *)
Lemma parse_digits_trunc s z : parse_digits 0 false s = Some z -> trunc_unsigned s = Some (TInt z).
Proof.
  intros H. unfold trunc_unsigned.
  assert (Hch : forall a, has_char a s = true -> is_digit a = true \/ a = "_"%char).
  { intros a Ha. destruct (is_digit a) eqn:Ed; [auto|]. destruct (ascii_dec a "_") as [->|N]; [auto|].
    rewrite (@parse_digits_nochar _ _ Ed N _ _ _ H) in Ha. discriminate. }
  assert (Hlow : forall a, In a ["n"; "N"]%char -> has_char a s = false).
  { intros a Ha. destruct (has_char a s) eqn:E; [|reflexivity]. destruct (Hch _ E) as [C|C]; destruct Ha as [<- | [<- | []]]; discriminate C. }
  assert (Hn : has_char "n" (lower s) = false).
  { clear - Hlow. induction s as [|a s IH]; [reflexivity|]. cbn [lower has_char].
    rewrite IH by (intros b Hb; specialize (Hlow b Hb); cbn in Hlow; apply orb_false_iff in Hlow as [_ Hl]; exact Hl).
    rewrite orb_false_r. pose proof (Hlow "n"%char ltac:(cbn; auto)) as L1. pose proof (Hlow "N"%char ltac:(cbn; auto)) as L2.
    cbn in L1, L2. apply orb_false_iff in L1 as [L1 _]. apply orb_false_iff in L2 as [L2 _]. clear - L1 L2.
    destruct a as [[] [] [] [] [] [] [] []]; first [discriminate L1|discriminate L2|reflexivity]. }
  destruct (mem (lower s) ["inf"; "infinity"]) eqn:Ei.
  { apply mem_true in Ei. destruct Ei as [E | [E | []]]; rewrite <- E in Hn; discriminate Hn. }
  destruct (String.eqb_spec (lower s) "nan") as [En|_]; [rewrite En in Hn; discriminate Hn|].
  rewrite split_first_none by (intros a Ha; destruct (Hch _ Ha) as [C| ->]; [clear - C; destruct a as [[] [] [] [] [] [] [] []]; try discriminate C; reflexivity|reflexivity]).
  rewrite split_first_none by (intros a Ha; destruct (Hch _ Ha) as [C| ->]; [clear - C; destruct a as [[] [] [] [] [] [] [] []]; try discriminate C; reflexivity|reflexivity]).
  rewrite H. cbn [option_map]. do 2 f_equal. unfold scale10. cbn. ring.
Qed.
Lemma pyint_trunc s z : pyint s = Some z -> trunc_float s = Some (TInt z).
Proof.
  unfold pyint, trunc_float. destruct (strip_space s) as [|a tl]; [discriminate|].
  destruct (Ascii.eqb a "-").
  - destruct (parse_digits 0 false tl) as [k|] eqn:E; [|discriminate]. intros [= <-]. rewrite (parse_digits_trunc _ E). reflexivity.
  - destruct (Ascii.eqb a "+"); apply parse_digits_trunc.
Qed.

Lemma as_single_int s z : pyint s = Some z -> as_single s = Ok z.
Proof. intros H. unfold as_single. rewrite (pyint_trunc _ H). reflexivity. Qed.
Lemma as_single_dashes s : contains "--" s = true -> as_single s = Err ValueError.
Proof. intros H. unfold as_single. destruct (trunc_float s) as [t|] eqn:E; [|reflexivity]. rewrite (trunc_float_dashes _ E) in H. discriminate. Qed.
Lemma as_single_comma s : has_char "," s = true -> as_single s = Err ValueError.
Proof. intros H. unfold as_single. destruct (trunc_float s) as [t|] eqn:E; [|reflexivity]. rewrite (trunc_float_comma _ E) in H. discriminate. Qed.

(** ** Ranges and lists *)

Lemma int_range_sorted a b : StronglySorted Z.lt (int_range a b).
Proof.
  unfold int_range. generalize 0%nat. induction (Z.to_nat (b + 1 - a)) as [|n IH]; intros k; cbn; constructor; [apply IH|].
  apply Forall_forall. intros z Hz. apply in_map_iff in Hz as (i & <- & Hi). apply in_seq in Hi. lia.
Qed.
Lemma sorted_same (l l' : list Z) : StronglySorted Z.lt l -> StronglySorted Z.lt l' -> (forall z, In z l <-> In z l') -> l = l'.
Proof.
  revert l'. induction l as [|x l IH]; intros l' Hs Hs' H.
  - destruct l' as [|y l']; [reflexivity|]. exfalso. apply (H y). left. reflexivity.
  - destruct l' as [|y l']; [exfalso; apply (H x); left; reflexivity|].
    inversion Hs as [|? ? Hs1 Hf1]; subst. inversion Hs' as [|? ? Hs2 Hf2]; subst. rewrite Forall_forall in Hf1, Hf2.
    assert (x = y).
    { destruct (proj1 (H x) (or_introl eq_refl)) as [E|Hx]; [congruence|]. destruct (proj2 (H y) (or_introl eq_refl)) as [E|Hy]; [congruence|].
      specialize (Hf1 _ Hy). specialize (Hf2 _ Hx). lia. }
    subst y. f_equal. apply IH; [exact Hs1|exact Hs2|]. intros z. split; intros Hz.
    + destruct (proj1 (H z) (or_intror Hz)) as [E|Hz']; [|exact Hz']. subst z. specialize (Hf1 _ Hz). lia.
    + destruct (proj2 (H z) (or_intror Hz)) as [E|Hz']; [|exact Hz']. subst z. specialize (Hf2 _ Hz). lia.
Qed.
Lemma from_to_int_range a b : from_to a b (int_range a b).
Proof. split; [intros z; apply int_range_In|apply int_range_sorted]. Qed.
Lemma from_to_eq a b l : from_to a b l -> l = int_range a b.
Proof. intros [H1 H2]. apply sorted_same; [exact H2|apply int_range_sorted|]. intros z. rewrite H1. symmetry. apply int_range_In. Qed.

Lemma pyint_comma s z : pyint s = Some z -> has_char "," s = false.
Proof. intros H. apply trunc_float_comma with (TInt z). apply pyint_trunc, H. Qed.

Lemma join_comma (w1 w2 : string) ws : has_char "," (join "," (w1 :: w2 :: ws)) = true.
Proof.
  change (join "," (w1 :: w2 :: ws)) with (w1 ++ "," ++ join "," (w2 :: ws))%string. rewrite has_char_app. cbn [append has_char].
  rewrite Ascii.eqb_refl. apply orb_true_r.
Qed.
Lemma listed_comma s zs : listed s zs -> has_char "," s = true.
Proof.
  intros (ws & Hl & -> & _). destruct ws as [|w1 [|w2 ws]]; cbn in Hl; try lia. apply join_comma.
Qed.
Lemma Forall2_mono {A B} (P Q : A -> B -> Prop) l l' : (forall a b, P a b -> Q a b) -> Forall2 P l l' -> Forall2 Q l l'.
Proof. intros H F. induction F; constructor; auto. Qed.
Lemma int_list_spec s zs : has_char "," s = true -> (int_list s = Ok zs <-> listed s zs).
Proof.
  intros Hc. unfold int_list. rewrite mapM_Forall2. split.
  - intros H. exists (split_on "," s). split; [|split].
    + destruct (split_on "," s) as [|w [|w2 ws]] eqn:E; [exfalso; exact (split_on_nonempty _ _ E)| |cbn; lia].
      exfalso. pose proof (join_split "," s) as J. pose proof (split_on_pieces "," s) as F. rewrite E in J, F. cbn in J. subst w.
      apply Forall_inv in F. congruence.
    + symmetry. apply join_split.
    + eapply Forall2_mono; [|exact H]. intros w z. cbn. destruct (pyint w); congruence.
  - intros (ws & Hl & -> & F). rewrite (@PreludeFacts.split_join "," ws).
    + eapply Forall2_mono; [|exact F]. intros w z. cbn. intros ->. reflexivity.
    + destruct ws; [cbn in Hl; lia|discriminate].
    + clear Hl Hc. induction F as [|w z ws zs Hw F IH]; constructor; [exact (pyint_comma _ Hw)|exact IH].
Qed.
Lemma int_list_err s e : int_list s = Err e -> e = ValueError.
Proof.
  unfold int_list. induction (split_on "," s) as [|w ws IH]; cbn; [discriminate|]. destruct (pyint w); cbn [bind]; [|congruence].
  destruct (mapM _ ws); cbn [bind]; [discriminate|]. intros [= ->]. apply IH. reflexivity.
Qed.
Lemma listed_no_dashes s zs : listed s zs -> contains "--" s = false.
Proof.
  intros (ws & _ & -> & F). clear - F. induction F as [|w z ws zs Hw F IH]; [reflexivity|].
  destruct (pyint_clean _ Hw) as [C1 C2]. destruct ws as [|w2 ws]; [exact C2|].
  change (join "," (w :: w2 :: ws)) with (w ++ "," ++ join "," (w2 :: ws))%string.
  cbn [append].
  assert (K : forall u v, contains "--" u = false -> contains "--" (u ++ String "," v) = contains "--" v).
  { clear. induction u as [|a u IH]; intros v Hu.
    - cbn [append]. exact (contains_dd_app "," v eq_refl).
    - destruct u as [|b u].
      + cbn [append]. change (contains "--" (String a (String "," v))) with (String.prefix "--" (String a (String "," v)) || contains "--" (String "," v))%bool.
        rewrite prefix_dd, andb_false_r. exact (contains_dd_app "," v eq_refl).
      + cbn [append]. apply contains_cons in Hu as [Hp Hc]. specialize (IH v Hc). cbn [append] in IH.
        change (contains "--" (String a (String b (u ++ String "," v)))) with (String.prefix "--" (String a (String b (u ++ String "," v))) || contains "--" (String b (u ++ String "," v)))%bool.
        rewrite prefix_dd in Hp |- *. rewrite Hp. exact IH. }
  rewrite K by exact C2. exact IH.
Qed.

(** ** Pieces *)

Lemma one_char_dashes a : contains "--" (String a "") = false.
Proof.
  destruct (Ascii.eqb_spec a "-") as [->|N]; [reflexivity|]. apply contains_dd_nochar. cbn.
  destruct (Ascii.eqb_spec a "-"); [congruence|reflexivity].
Qed.
Lemma split_dashes_pieces : forall n s, (String.length s <= n)%nat -> Forall (fun w => contains "--" w = false) (split_dashes s).
Proof.
  induction n as [|n IH]; intros s Hn.
  - destruct s; [repeat constructor|cbn in Hn; lia].
  - destruct s as [|a s]; [repeat constructor|]. destruct s as [|b s].
    + repeat constructor. apply one_char_dashes.
    + rewrite split_dashes_cons2. destruct (Ascii.eqb a "-" && Ascii.eqb b "-") eqn:E.
      * constructor; [reflexivity|]. apply IH. cbn in Hn. lia.
      * pose proof (IH (String b s) ltac:(cbn in Hn |- *; lia)) as F.
        destruct s as [|c s].
        -- cbn in F |- *. constructor; [|constructor]. change (contains "--" (String a (String b ""))) with (String.prefix "--" (String a (String b "")) || contains "--" (String b ""))%bool.
           rewrite prefix_dd, E. apply one_char_dashes.
        -- rewrite split_dashes_cons2 in *. destruct (Ascii.eqb b "-" && Ascii.eqb c "-") eqn:E2.
           ++ inversion F; subst. constructor; [|assumption]. apply one_char_dashes.
           ++ destruct (split_dashes (String c s)) as [|w ws]; [constructor|]. inversion F as [|? ? F1 F2]; subst. constructor; [|assumption].
              change (contains "--" (String a (String b w))) with (String.prefix "--" (String a (String b w)) || contains "--" (String b w))%bool.
              rewrite prefix_dd, E, F1. reflexivity.
Qed.

(** ** Forms *)

Lemma range_split u v a b : pyint u = Some a -> pyint v = Some b ->
  contains "--" (u ++ "--" ++ v)%string = true /\ split_dashes (u ++ "--" ++ v)%string = [u; v] /\ has_char "," (u ++ "--" ++ v)%string = false.
Proof.
  intros Hu Hv. split; [apply contains_here|]. destruct (pyint_clean _ Hu) as [Cu _]. destruct (pyint_clean _ Hv) as [_ Cv]. split.
  - rewrite split_dashes_app by exact Cu. rewrite split_dashes_nochar by exact Cv. reflexivity.
  - rewrite !has_char_app, (pyint_comma _ Hu), (pyint_comma _ Hv). reflexivity.
Qed.

Lemma direction_form_ok s zs : direction_form s zs -> get_directions (Some s) = Ok (map str_of_Z zs).
Proof.
  intros [z Hz|u v a b zs' -> Hu Hv Hab Hr|zs' Hl]; unfold get_directions.
  - rewrite (as_single_int _ Hz). reflexivity.
  - destruct (range_split _ _ Hu Hv) as (C1 & C2 & C3). rewrite (as_single_dashes _ C1), C3, C1, C2.
    unfold simple_directions. rewrite (as_single_int _ Hu), (as_single_int _ Hv). cbn [bind head_of]. rewrite (from_to_eq Hr). reflexivity.
  - pose proof (listed_comma Hl) as C. rewrite (as_single_comma _ C), C. rewrite (proj2 (@int_list_spec _ _ C) Hl). reflexivity.
Qed.
Lemma location_form_ok n s zs : location_form n s zs -> get_locations (Some n) s = Ok (map str_of_Z zs).
Proof.
  intros [zs' [z Hz|u v a b zs'' -> Hu Hv Hab Hr|zs'' Hl]|zs' -> Hr| -> | ->]; unfold get_locations.
  - rewrite (as_single_int _ Hz). reflexivity.
  - destruct (range_split _ _ Hu Hv) as (C1 & C2 & C3). rewrite (as_single_dashes _ C1), C1, C2.
    unfold simple_locations. rewrite (as_single_int _ Hu), (as_single_int _ Hv). cbn [bind head_of]. rewrite (from_to_eq Hr). reflexivity.
  - pose proof (listed_comma Hl) as C. rewrite (as_single_comma _ C). rewrite (listed_no_dashes Hl).
    unfold simple_locations. rewrite (as_single_comma _ C), C. rewrite (proj2 (@int_list_spec _ _ C) Hl). reflexivity.
  - change (as_single "all") with (@Err Z ValueError). change (contains "--" "all") with false. cbn [bind].
    unfold simple_locations. change (as_single "all") with (@Err Z ValueError). cbn. rewrite (from_to_eq Hr). reflexivity.
  - reflexivity.
  - reflexivity.
Qed.

Lemma location_rejected n s : trunc_float s = None -> contains "--" s = false ->
  (exists zs, location_form n s zs) \/ get_locations (Some n) s = Err ValueError.
Proof.
  intros Ht Hd. assert (Ha : as_single s = Err ValueError) by (unfold as_single; rewrite Ht; reflexivity).
  unfold get_locations. rewrite Ha, Hd. unfold simple_locations. rewrite Ha.
  destruct (has_char "," s) eqn:Hc.
  - destruct (int_list s) as [zs|e] eqn:E.
    + left. exists zs. apply like_direction, a_list. apply int_list_spec; assumption.
    + right. rewrite (int_list_err _ E). reflexivity.
  - destruct (String.eqb_spec s "all") as [->|_]; [left; eexists; apply all_stories; [reflexivity|apply from_to_int_range]|].
    destruct (String.eqb_spec s "top") as [->|_]; [left; eexists; apply top_story; reflexivity|].
    destruct (String.eqb_spec s "roof") as [->|_]; [left; eexists; apply the_roof; reflexivity|]. right. reflexivity.
Qed.
Lemma direction_rejected s : trunc_float s = None -> contains "--" s = false ->
  (exists zs, direction_form s zs) \/ get_directions (Some s) = Err ValueError.
Proof.
  intros Ht Hd. assert (Ha : as_single s = Err ValueError) by (unfold as_single; rewrite Ht; reflexivity).
  unfold get_directions. rewrite Ha, Hd.
  destruct (has_char "," s) eqn:Hc; [|right; reflexivity].
  destruct (int_list s) as [zs|e] eqn:E.
  - left. exists zs. apply a_list. apply int_list_spec; assumption.
  - right. rewrite (int_list_err _ E). reflexivity.
Qed.

(** ** Ranges *)

Lemma range_ends stories s l : contains "--" s = true -> get_locations stories s = Ok l ->
  exists u v a b us vs zs, s = (u ++ "--" ++ v)%string /\ contains "--" u = false /\ contains "--" v = false /\
    get_locations stories u = Ok (str_of_Z a :: us) /\ get_locations stories v = Ok (str_of_Z b :: vs) /\ from_to a b zs /\ l = map str_of_Z zs.
Proof.
  intros Hc. unfold get_locations at 1. rewrite (as_single_dashes _ Hc), Hc.
  pose proof (join_dashes s) as J. pose proof (@split_dashes_pieces _ s (le_n _)) as F.
  destruct (split_dashes s) as [|u [|v [|w ws]]]; cbn [bind]; try discriminate.
  pose proof (Forall_inv F) as Cu. pose proof (Forall_inv (Forall_inv_tail F)) as Cv. cbn beta in Cu, Cv. cbn in J.
  assert (K : forall t z zs, contains "--" t = false -> simple_locations stories t = Ok (z :: zs) -> get_locations stories t = Ok (str_of_Z z :: map str_of_Z zs)).
  { intros t z zs Ct H. unfold get_locations. rewrite Ct. unfold simple_locations in *. destruct (as_single t) as [q|[]]; try discriminate H.
    - injection H as <- <-. reflexivity.
    - rewrite H. reflexivity. }
  destruct (simple_locations stories u) as [[|a us]|] eqn:Eu; cbn [bind head_of]; try discriminate.
  destruct (simple_locations stories v) as [[|b vs]|] eqn:Ev; cbn [bind head_of]; try discriminate.
  intros [= <-]. exists u, v, a, b, (map str_of_Z us), (map str_of_Z vs), (int_range a b).
  split; [symmetry; exact J|]. split; [exact Cu|]. split; [exact Cv|]. split; [exact (K _ _ _ Cu Eu)|]. split; [exact (K _ _ _ Cv Ev)|]. split; [apply from_to_int_range|reflexivity].
Qed.
