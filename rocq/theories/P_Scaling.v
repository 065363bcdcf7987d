(** Proofs about consequence scaling. *)
From Verif Require Import Prelude PreludeFacts M_Base M_Damage M_Scaling S_Base S_Scaling P_Base P_Text.
Set Implicit Arguments.
Local Open Scope string_scope.

(** ** Texts *)

Lemma contains_cons p a s : contains p (String a s) = false ->
  String.prefix p (String a s) = false /\ contains p s = false.
Proof. cbn [contains]. intros H. now apply orb_false_iff in H. Qed.

Lemma contains_suffix p u v : contains p v = true -> contains p (u ++ v) = true.
Proof. induction u as [|a u IH]; intros H; [easy|]. cbn [append contains]. rewrite (IH H). now rewrite orb_true_r. Qed.
Lemma contains_here p v w : contains p (v ++ p ++ w) = true.
Proof.
  apply contains_suffix. destruct (p ++ w) as [|a s] eqn:E; [now destruct p|].
  cbn [contains]. rewrite <- E. now rewrite prefix_app.
Qed.

Lemma split_dashes_cons2 a b s : split_dashes (String a (String b s)) =
  if Ascii.eqb a "-" && Ascii.eqb b "-" then "" :: split_dashes s
  else match split_dashes (String b s) with [] => [] | w :: ws => String a w :: ws end.
Proof. reflexivity. Qed.

Lemma prefix_dd a b s : String.prefix "--" (String a (String b s)) = (Ascii.eqb a "-" && Ascii.eqb b "-")%bool.
Proof.
  unfold String.prefix. destruct (ascii_dec "-" a) as [<-|Ha].
  - rewrite Ascii.eqb_refl. cbn [andb]. destruct (ascii_dec "-" b) as [<-|Hb].
    + rewrite Ascii.eqb_refl. now destruct s.
    + symmetry. apply Ascii.eqb_neq. congruence.
  - assert (Ascii.eqb a "-" = false) as -> by (apply Ascii.eqb_neq; congruence). reflexivity.
Qed.

Lemma split_dashes_nochar s : contains "--" s = false -> split_dashes s = [s].
Proof.
  induction s as [|a s IH]; [easy|]. intros H. apply contains_cons in H as [Hp Hc].
  destruct s as [|b s]; [easy|]. rewrite split_dashes_cons2. rewrite prefix_dd in Hp. rewrite Hp.
  now rewrite (IH Hc).
Qed.

Lemma split_dashes_app u v : contains "--" (u ++ "-") = false ->
  split_dashes (u ++ "--" ++ v) = u :: split_dashes v.
Proof.
  induction u as [|a u IH]; [reflexivity|]. intros H.
  change (String a u ++ "-") with (String a (u ++ "-")) in H.
  change (String a u ++ "--" ++ v) with (String a (u ++ "--" ++ v)).
  apply contains_cons in H as [Hp Hc]. specialize (IH Hc).
  destruct (u ++ "--" ++ v) as [|b s] eqn:E; [now destruct u|].
  rewrite split_dashes_cons2, IH.
  assert (Eb : (Ascii.eqb a "-" && Ascii.eqb b "-")%bool = false).
  { destruct u as [|b' u]; cbn [append] in E, Hp.
    - injection E as <- <-. destruct (Ascii.eqb_spec a "-"); [subst; discriminate|reflexivity].
    - injection E as <- <-. now rewrite prefix_dd in Hp. }
  now rewrite Eb.
Qed.

Lemma join_dashes_aux : forall n s, (String.length s <= n)%nat -> join "--" (split_dashes s) = s /\ split_dashes s <> [].
Proof.
  induction n as [|n IH]; intros s Hn.
  { destruct s; [easy|cbn in Hn; lia]. }
  destruct s as [|a [|b s]]; [easy|easy|]. rewrite split_dashes_cons2. cbn [String.length] in Hn.
  destruct (Ascii.eqb_spec a "-") as [->|Ha]; cbn [andb].
  - destruct (Ascii.eqb_spec b "-") as [->|Hb].
    + destruct (IH s) as [E Hne]; [lia|]. split; [|easy].
      unfold join in *. destruct (split_dashes s) as [|w ws]; [easy|].
      change (String.concat "--" ("" :: w :: ws)) with ("" ++ "--" ++ String.concat "--" (w :: ws)). now rewrite E.
    + destruct (IH (String b s)) as [E Hne]; [cbn [String.length]; lia|].
      destruct (split_dashes (String b s)) as [|w ws]; [easy|]. split; [|easy].
      unfold join in *. destruct ws as [|w' ws].
      * cbn in E |- *. now rewrite E.
      * change (String.concat "--" (String "-" w :: w' :: ws)) with (String "-" (String.concat "--" (w :: w' :: ws))). now rewrite E.
  - destruct (IH (String b s)) as [E Hne]; [cbn [String.length]; lia|].
    destruct (split_dashes (String b s)) as [|w ws]; [easy|]. split; [|easy].
    unfold join in *. destruct ws as [|w' ws].
    * cbn in E |- *. now rewrite E.
    * change (String.concat "--" (String a w :: w' :: ws)) with (String a (String.concat "--" (w :: w' :: ws))). now rewrite E.
Qed.
Lemma join_dashes s : join "--" (split_dashes s) = s.
Proof. now apply (@join_dashes_aux (String.length s)). Qed.

(** Shape of the texts Python reads as integers. *)
Fixpoint spaces_only (s : string) : bool :=
  match s with EmptyString => true | String a tl => is_space a && spaces_only tl end.

Lemma spaces_only_app a b : spaces_only (a ++ b) = (spaces_only a && spaces_only b)%bool.
Proof. induction a as [|c a IH]; [easy|]. cbn. now rewrite IH, andb_assoc. Qed.
Lemma spaces_only_rev s : spaces_only (str_rev s) = spaces_only s.
Proof.
  induction s as [|a s IH]; [easy|]. rewrite str_rev_cons, spaces_only_app, IH. cbn.
  rewrite andb_true_r. apply andb_comm.
Qed.
Lemma lstrip_shape s : exists w, s = w ++ lstrip_space s /\ spaces_only w = true.
Proof.
  induction s as [|a s IH]; [exists ""; easy|]. cbn [lstrip_space]. destruct (is_space a) eqn:E.
  - destruct IH as (w & Ew & Hw). exists (String a w). split; [cbn [append]; now rewrite <- Ew|cbn; now rewrite E, Hw].
  - exists "". easy.
Qed.
Lemma strip_shape s : exists w1 w2, s = w1 ++ strip_space s ++ w2 /\ spaces_only w1 = true /\ spaces_only w2 = true.
Proof.
  destruct (lstrip_shape s) as (w1 & E1 & H1).
  destruct (lstrip_shape (str_rev (lstrip_space s))) as (w2 & E2 & H2).
  exists w1, (str_rev w2). split; [|now rewrite spaces_only_rev].
  apply (f_equal str_rev) in E2. rewrite str_rev_involutive, str_rev_app_dist in E2.
  unfold strip_space. rewrite <- E2. exact E1.
Qed.
Lemma space_no_dash s : spaces_only s = true -> has_char "-" s = false.
Proof.
  induction s as [|a s IH]; [easy|]. cbn. intros H. apply andb_true_iff in H as [Ha Hs].
  rewrite (IH Hs). destruct (Ascii.eqb_spec a "-"); [subst; discriminate|reflexivity].
Qed.
Lemma parse_digits_no_dash s : forall acc prev z, parse_digits acc prev s = Some z -> has_char "-" s = false.
Proof.
  induction s as [|a s IH]; [easy|]. intros acc prev z. cbn [parse_digits].
  destruct (is_digit a) eqn:Ed.
  - intros H. cbn. rewrite (IH _ _ _ H). destruct (Ascii.eqb_spec a "-"); [subst; discriminate|reflexivity].
  - destruct (Ascii.eqb_spec a "_") as [->|]; cbn [andb]; [|easy]. destruct prev; [|easy].
    destruct s; [easy|]. intros H. change (has_char "-" (String "_" (String a s)) = false).
    cbn [has_char]. change (has_char "-" (String a s) = false). now apply (IH _ _ _ H).
Qed.
Lemma parse_digits_nonempty s acc z : parse_digits acc false s = Some z -> s <> "".
Proof. now destruct s. Qed.

(** All before the number proper is white space and at most one sign. *)
Lemma pyint_shape s z : pyint s = Some z ->
  exists w q, (s = w ++ q \/ s = w ++ String "-" q) /\ has_char "-" w = false /\ has_char "-" q = false /\ q <> "".
Proof.
  unfold pyint. destruct (strip_shape s) as (w1 & w2 & E & H1 & H2).
  destruct (strip_space s) as [|a tl]; [easy|].
  apply space_no_dash in H1, H2.
  destruct (Ascii.eqb_spec a "-") as [->|Ha].
  - destruct (parse_digits 0 false tl) as [k|] eqn:Ep; [|easy]. intros _.
    exists w1, (tl ++ w2). split; [right; exact E|]. split; [easy|].
    rewrite has_char_app, (parse_digits_no_dash _ _ _ Ep). split; [easy|].
    apply parse_digits_nonempty in Ep. now destruct tl.
  - assert (Hd : forall z', (if Ascii.eqb a "+" then parse_digits 0 false tl
                             else parse_digits 0 false (String a tl)) = Some z' -> has_char "-" (String a tl) = false).
    { intros z'. destruct (Ascii.eqb_spec a "+") as [->|]; intros Hp.
      - now apply parse_digits_no_dash in Hp.
      - now apply parse_digits_no_dash in Hp. }
    intros Hp. apply Hd in Hp. exists w1, (String a tl ++ w2). split; [left; exact E|]. split; [easy|].
    rewrite has_char_app, Hp. easy.
Qed.

Lemma contains_dd_nochar s : has_char "-" s = false -> contains "--" (s ++ "-") = false /\ contains "--" s = false.
Proof.
  induction s as [|a s IH]; [easy|]. cbn [has_char append]. intros H. apply orb_false_iff in H as [Ha Hs].
  destruct (IH Hs) as [I1 I2]. cbn [contains]. rewrite I1, I2, !orb_false_r.
  split; unfold String.prefix; destruct (ascii_dec "-" a) as [<-|]; try easy; now rewrite Ascii.eqb_refl in Ha.
Qed.
Lemma contains_dd_app w q : has_char "-" w = false -> contains "--" (w ++ q) = contains "--" q.
Proof.
  induction w as [|a w IH]; [easy|]. cbn [has_char append]. intros H. apply orb_false_iff in H as [Ha Hs].
  cbn [contains]. rewrite (IH Hs). unfold String.prefix.
  destruct (ascii_dec "-" a) as [<-|]; [now rewrite Ascii.eqb_refl in Ha|reflexivity].
Qed.
Lemma contains_dd_dash q : has_char "-" q = false -> q <> "" -> contains "--" (String "-" (q ++ "-")) = false /\ contains "--" (String "-" q) = false.
Proof.
  intros H Hq. destruct (contains_dd_nochar _ H) as [I1 I2]. destruct q as [|b q]; [easy|].
  cbn [append] in *. cbn [has_char] in H. apply orb_false_iff in H as [Hb _].
  change (contains "--" (String "-" ?s)) with (String.prefix "--" (String "-" s) || contains "--" s)%bool.
  rewrite I1, I2, !prefix_dd, !Ascii.eqb_refl. cbn [andb]. rewrite !orb_false_r.
  rewrite Ascii.eqb_sym in Hb. rewrite ?Hb. rewrite Ascii.eqb_sym in Hb. now rewrite ?Hb.
Qed.

Lemma pyint_clean s z : pyint s = Some z -> contains "--" (s ++ "-") = false /\ contains "--" s = false.
Proof.
  intros H. destruct (pyint_shape _ H) as (w & q & [->| ->] & Hw & Hq & Hne).
  - apply contains_dd_nochar. now rewrite has_char_app, Hw, Hq.
  - rewrite <- string_app_assoc. rewrite (contains_dd_app w (String "-" q ++ "-") Hw), (contains_dd_app w (String "-" q) Hw). now apply contains_dd_dash.
Qed.

(** ** Ranges *)

Lemma expand_range_spec t a b : is_range t a b ->
  contains "--" t = true /\
  expand_range (Some t) = Ok (map (fun z => Some (str_of_Z z)) (int_range a b)).
Proof.
  intros (u & v & -> & Hu & Hv). pose proof (contains_here "--" u v) as Hc.
  split; [exact Hc|]. unfold expand_range. rewrite Hc.
  destruct (pyint_clean _ Hu) as [Cu _]. destruct (pyint_clean _ Hv) as [_ Cv].
  rewrite split_dashes_app by easy. rewrite split_dashes_nochar by easy.
  cbn [mapM bind]. rewrite Hu. cbn [bind]. rewrite Hv. reflexivity.
Qed.

Lemma expand_range_inv t l : contains "--" t = true -> expand_range (Some t) = Ok l -> exists a b, is_range t a b.
Proof.
  unfold expand_range. intros ->. intros H. pose proof (join_dashes t) as E.
  destruct (mapM _ (split_dashes t)) as [ints|] eqn:Em; [|easy]. cbn [bind] in H.
  destruct ints as [|a [|b [|]]]; try easy. exists a, b.
  destruct (split_dashes t) as [|u [|v [|]]]; cbn [mapM bind] in Em.
  - easy.
  - destruct (pyint u); cbn in Em; easy.
  - destruct (pyint u) as [a'|] eqn:Eu; cbn [bind] in Em; [|easy].
    destruct (pyint v) as [b'|] eqn:Ev; cbn [bind] in Em; [|easy].
    assert (a' = a /\ b' = b) as [-> ->] by (split; congruence).
    exists u, v. split; [|easy]. symmetry. exact E.
  - destruct (pyint u); cbn [bind] in Em; [|easy]. destruct (pyint v); cbn [bind] in Em; [|easy].
    destruct (match pyint s with Some z => Ok z | None => Err ValueError end); cbn [bind] in Em; [|easy].
    destruct (mapM _ l0); cbn [bind] in Em; easy.
Qed.

Lemma expand_range_err t e : expand_range (Some t) = Err e -> e = ValueError.
Proof.
  unfold expand_range. destruct (contains "--" t); [|easy].
  destruct (mapM _ (split_dashes t)) as [ints|e'] eqn:Em; cbn [bind].
  - destruct ints as [|a [|b [|]]]; congruence.
  - intros [= <-]. revert e' Em. induction (split_dashes t) as [|x l IH]; [easy|]. intros e'. cbn [mapM].
    destruct (pyint x); cbn [bind]; [|congruence]. destruct (mapM _ l); cbn [bind]; [easy|].
    intros [= ->]. now apply IH.
Qed.

(** ** Applying the expanded rows *)

Definition conds_rows := list (list (string * string) * Qc).
Definition row_factor (names : list string) (label : list string) (r : list (string * string) * Qc) : Qc :=
  if matchb names (fst r) label then snd r else 1%Qc.
Definition total (names : list string) (rows : conds_rows) (label : list string) : Qc :=
  fold_right (fun r k => row_factor names label r * k)%Qc 1%Qc rows.
Definition scale_table (rows : conds_rows) (s : table) : table :=
  {| levels := levels s;
     entries := map (fun e => (fst e, scale_values (total (levels s) rows (fst e)) (snd e))) (entries s) |}.

Lemma scale_values_1 vs : scale_values 1 vs = vs.
Proof.
  unfold scale_values. rewrite <- (map_id vs) at 2. apply map_ext. intros [v|]; cbn; [|easy].
  f_equal. ring.
Qed.
Lemma scale_values_mul f g vs : scale_values g (scale_values f vs) = scale_values (f * g) vs.
Proof.
  unfold scale_values. rewrite map_map. apply map_ext. intros [v|]; cbn; [|easy]. f_equal. ring.
Qed.
Lemma table_eta s : {| levels := levels s; entries := entries s |} = s.
Proof. now destruct s. Qed.

Lemma scale_table_nil s : scale_table [] s = s.
Proof.
  unfold scale_table. cbn [total fold_right]. transitivity {| levels := levels s; entries := entries s |}; [|now destruct s].
  f_equal. rewrite <- (map_id (entries s)) at 2. apply map_ext. intros [l v]. cbn [fst snd]. now rewrite scale_values_1.
Qed.
Lemma scale_table_cons r rows s : scale_table (r :: rows) s = scale_table rows (scale_table [r] s).
Proof.
  unfold scale_table. cbn [levels entries]. f_equal. rewrite map_map. apply map_ext. intros [l v]. cbn [fst snd].
  f_equal. rewrite scale_values_mul. f_equal. unfold total. cbn [fold_right]. ring.
Qed.

Lemma existsb_mem_levels conds names : known_levels names conds ->
  existsb (fun c : string * string => negb (mem (fst c) names)) conds = false.
Proof.
  intros H. apply not_true_iff_false. rewrite existsb_exists. intros ([lv v] & Hin & E).
  specialize (H _ _ Hin). cbn [fst] in E. apply negb_true_iff, mem_false in E. easy.
Qed.

Lemma scale_model_eq conds f o :
  (forall s, o = Some s -> NoDup (levels s) /\ known_levels (levels s) conds) ->
  scale_model conds f false o = Ok (option_map (scale_table [(conds, f)]) o).
Proof.
  intros H. destruct o as [s|]; [|easy]. destruct (H s eq_refl) as [Hn Hk]. cbn [scale_model option_map].
  rewrite (existsb_mem_levels Hk). rewrite multiply_factor_eq by easy. change (negb (Z.eqb 1 0 || Z.eqb 1 1)) with false. cbn iota.
  destruct (existsb (fun c : string * string => match level_pos (fst c) (levels s) with None => true | _ => false end) conds) eqn:E.
  { apply known_levels_dec in Hk. congruence. }
  rewrite andb_false_r. cbn [bind]. unfold scale_table. do 3 f_equal. apply map_ext. intros [l v].
  unfold scale_if, row_factor. cbn [fst snd total fold_right]. unfold row_factor. cbn [fst snd].
  destruct (matchb (levels s) conds l).
  - do 2 f_equal. ring.
  - f_equal. replace (1 * 1)%Qc with 1%Qc by ring. now rewrite scale_values_1.
Qed.

Lemma scale_models_eq conds f ms :
  (forall s, In (Some s) ms -> NoDup (levels s) /\ known_levels (levels s) conds) ->
  scale_models conds f false ms = (map (option_map (scale_table [(conds, f)])) ms, None).
Proof.
  induction ms as [|o ms IH]; intros H; [easy|]. cbn [scale_models].
  rewrite scale_model_eq by (intros s ->; apply H; now left).
  rewrite IH by (intros s Hs; apply H; now right). reflexivity.
Qed.

Lemma apply_rows_eq rows : forall ms,
  (forall s r, In (Some s) ms -> In r rows -> NoDup (levels s) /\ known_levels (levels s) (fst r)) ->
  (forall r, In r rows -> exists v, In ("dv", v) (fst r)) ->
  apply_rows rows ms = (map (option_map (scale_table rows)) ms, None).
Proof.
  induction rows as [|r rows IH]; intros ms H Hdv.
  - cbn [apply_rows]. f_equal. rewrite <- (map_id ms) at 1. apply map_ext. intros [s|]; [|easy].
    cbn [option_map]. now rewrite scale_table_nil.
  - cbn [apply_rows]. unfold apply_consequence_scaling.
    assert (existsb (fun c : string * string => String.eqb (fst c) "dv") (fst r) = true) as ->.
    { destruct (Hdv r (or_introl eq_refl)) as (v & Hv). apply existsb_exists. exists ("dv", v). easy. }
    cbn [negb]. rewrite scale_models_eq by (intros s Hs; apply (H s r Hs); now left).
    rewrite IH.
    + f_equal. rewrite map_map. apply map_ext. intros [s|]; [|easy]. cbn [option_map]. destruct r as [c f].
      now rewrite <- scale_table_cons.
    + intros s r' Hs Hr. apply in_map_iff in Hs as ([s0|] & Es & Hs0); [|easy]. cbn in Es.
      assert (s = scale_table [(fst r, snd r)] s0) as -> by congruence. cbn [levels scale_table].
      apply (H s0 r' Hs0). now right.
    + intros r' Hr. apply Hdv. now right.
Qed.

Lemma total_app names a b label : total names (a ++ b)%list label = (total names a label * total names b label)%Qc.
Proof. induction a as [|r a IH]; unfold total in *; cbn [app fold_right]; [ring|]. rewrite IH. ring. Qed.

(** ** One row of the file *)

Definition okb (o : option string) (x : string) : bool :=
  match o with None => true | Some v => String.eqb v x end.
Definition condition (name : string) (v : option string) : list (string * string) :=
  match v with Some x => [(name, x)] | None => [] end.

Lemma satisfies_app names a b label : satisfies names (a ++ b)%list label <-> satisfies names a label /\ satisfies names b label.
Proof.
  unfold satisfies. split.
  - intros H. split; intros lv v Hin; apply H, in_or_app; auto.
  - intros [Ha Hb] lv v Hin. apply in_app_or in Hin as [Hin|Hin]; auto.
Qed.

Lemma at_level_fun s label lv x y : NoDup (levels s) -> at_level s label lv x -> at_level s label lv y -> x = y.
Proof.
  intros Hn (p & Hp & Ex) (q & Hq & Ey). assert (p = q); [|subst; congruence].
  eapply NoDup_nth_error; [exact Hn| |congruence]. apply nth_error_Some. congruence.
Qed.

Lemma satisfies_condition s label lv o x : NoDup (levels s) -> at_level s label lv x ->
  (satisfies (levels s) (condition lv o) label <-> okb o x = true).
Proof.
  intros Hn Hat. destruct o as [v|]; cbn [condition okb].
  - rewrite String.eqb_eq. split.
    + intros H. destruct (H lv v (or_introl eq_refl)) as (p & Hp & Ev).
      apply (at_level_fun (s:=s) (label:=label) (lv:=lv)); [easy| |easy]. now exists p.
    + intros -> lv' v' [H|[]]. assert (lv' = lv /\ v' = x) as [-> ->] by (split; congruence). exact Hat.
  - split; [easy|]. intros _ lv' v' [].
Qed.

Lemma known_condition names lv o : In lv names -> known_levels names (condition lv o).
Proof. intros H. destruct o; intros lv' v'; cbn; [intros [E|[]]; now assert (lv' = lv) as -> by congruence|easy]. Qed.
Lemma known_app names a b : known_levels names a -> known_levels names b -> known_levels names (a ++ b)%list.
Proof. intros Ha Hb lv v Hin. apply in_app_or in Hin as [H|H]; eauto. Qed.

Lemma loss_table_levels s : loss_table s ->
  NoDup (levels s) /\ In "dv" (levels s) /\ In "dmg" (levels s) /\ In "loc" (levels s) /\ In "dir" (levels s).
Proof.
  intros [[->| ->] _]; (split; [|cbn; tauto]); repeat constructor; cbn; intuition congruence.
Qed.

Lemma level_value s label lv : loss_table s -> List.length label = List.length (levels s) -> In lv (levels s) ->
  exists x, at_level s label lv x.
Proof.
  intros _ Hl Hin. apply In_nth_error in Hin as (p & Hp).
  destruct (nth_error label p) as [x|] eqn:E; [exists x, p; easy|].
  apply nth_error_None in E. assert (nth_error (levels s) p <> None) by congruence. apply nth_error_Some in H. lia.
Qed.

Lemma matchb_conditions s label dv dmg loc dir c1 c2 c3 c4 : loss_table s ->
  at_level s label "dv" dv -> at_level s label "dmg" dmg -> at_level s label "loc" loc -> at_level s label "dir" dir ->
  matchb (levels s) (condition "dv" c1 ++ condition "dmg" c2 ++ condition "loc" c3 ++ condition "dir" c4)%list label
  = (okb c1 dv && okb c2 dmg && (okb c3 loc && okb c4 dir))%bool.
Proof.
  intros Ht H1 H2 H3 H4. destruct (loss_table_levels Ht) as (Hn & I1 & I2 & I3 & I4).
  apply eq_true_iff_eq. rewrite matchb_spec by (try easy; repeat apply known_app; now apply known_condition).
  rewrite !satisfies_app, !andb_true_iff.
  rewrite (satisfies_condition _ Hn H1), (satisfies_condition _ Hn H2), (satisfies_condition _ Hn H3), (satisfies_condition _ Hn H4).
  tauto.
Qed.

(** The number of entries of a product list satisfying a conjunction. *)
Lemma filter_list_prod {A B} (p : A -> bool) (q : B -> bool) la lb :
  List.length (filter (fun x => p (fst x) && q (snd x))%bool (list_prod la lb))
  = (List.length (filter p la) * List.length (filter q lb))%nat.
Proof.
  induction la as [|a la IH]; [easy|]. cbn [list_prod filter]. rewrite filter_app, app_length, IH.
  assert (E : List.length (filter (fun x : A * B => p (fst x) && q (snd x))%bool (map (fun y => (a, y)) lb))
              = if p a then List.length (filter q lb) else 0%nat).
  { clear. induction lb as [|b lb IH]; [now destruct (p a)|]. cbn [map filter fst snd].
    destruct (p a); cbn [andb]; [destruct (q b); cbn [List.length]; now rewrite ?IH|exact IH]. }
  rewrite E. destruct (p a); cbn [List.length]; lia.
Qed.

Lemma total_const names label f (conds : option string * option string -> list (string * string)) l :
  total names (map (fun x => (conds x, f)) l) label
  = Qcpower f (List.length (filter (fun x => matchb names (conds x) label) l)).
Proof.
  induction l as [|x l IH]; [reflexivity|]. cbn [map filter]. unfold total in *. cbn [fold_right]. rewrite IH.
  unfold row_factor. cbn [fst snd]. destruct (matchb names (conds x) label); cbn [List.length Qcpower]; ring.
Qed.

Lemma int_range_In a b z : In z (int_range a b) <-> (a <= z <= b)%Z.
Proof.
  unfold int_range. rewrite in_map_iff. split.
  - intros (i & <- & Hi). apply in_seq in Hi. lia.
  - intros H. exists (Z.to_nat (z - a)). split; [lia|]. apply in_seq. lia.
Qed.
Lemma int_range_NoDup a b : NoDup (int_range a b).
Proof.
  unfold int_range. apply FinFun.Injective_map_NoDup; [|apply seq_NoDup]. intros i j H. lia.
Qed.

Lemma str_of_nat_inj a b : str_of_nat a = str_of_nat b -> a = b.
Proof. intros H. apply (f_equal pyint) in H. rewrite !pyint_str_of_nat in H. assert (Z.of_nat a = Z.of_nat b) by congruence. lia. Qed.
Lemma str_of_nat_no_dash k : has_char "-" (str_of_nat k) = false.
Proof. apply all_digits_nochar; [easy|apply str_of_nat_digits]. Qed.
Lemma str_of_Z_inj a b : str_of_Z a = str_of_Z b -> a = b.
Proof.
  unfold str_of_Z. destruct (Z.ltb_spec a 0), (Z.ltb_spec b 0); intros H1.
  - assert (str_of_nat (Z.to_nat (- a)) = str_of_nat (Z.to_nat (- b))) by congruence. apply str_of_nat_inj in H2. lia.
  - pose proof (str_of_nat_no_dash (Z.to_nat b)) as Hd. rewrite <- H1 in Hd. cbn in Hd. discriminate.
  - pose proof (str_of_nat_no_dash (Z.to_nat a)) as Hd. rewrite H1 in Hd. cbn in Hd. discriminate.
  - apply str_of_nat_inj in H1. lia.
Qed.

Lemma count_one {A} (p : A -> bool) (l : list A) : NoDup l ->
  (forall y z, In y l -> In z l -> p y = true -> p z = true -> y = z) ->
  List.length (filter p l) = if existsb p l then 1%nat else 0%nat.
Proof.
  induction 1 as [|x l Hx Hn IH]; intros H; [easy|]. cbn [filter existsb]. destruct (p x) eqn:E; cbn [orb].
  - cbn [List.length]. f_equal. assert (filter p l = []) as ->; [|easy].
    destruct (filter p l) as [|y tl] eqn:Ef; [easy|exfalso].
    assert (Hy : In y (filter p l)) by (rewrite Ef; now left). apply filter_In in Hy as [Hy Hp].
    apply Hx. rewrite (H x y); [easy|now left|now right|easy|easy].
  - apply IH. intros y z Hy Hz. apply H; now right.
Qed.

(** What an expanded cell matches. *)
Lemma expand_range_count c l x : expand_range c = Ok l ->
  List.length (filter (fun o => okb o x) l) = if existsb (fun o => okb o x) l then 1%nat else 0%nat.
Proof.
  intros H. assert (Hsingle : forall o, List.length (filter (fun o => okb o x) [o]) = if existsb (fun o => okb o x) [o] then 1%nat else 0%nat).
  { intros o. cbn. now destruct (okb o x). }
  destruct c as [t|]; [|assert (l = [None]) as -> by (cbn in H; congruence); apply Hsingle].
  destruct (contains "--" t) eqn:Ec.
  - destruct (expand_range_inv _ Ec H) as (a & b & Hr). destruct (expand_range_spec Hr) as [_ E].
    assert (l = map (fun z => Some (str_of_Z z)) (int_range a b)) as -> by congruence.
    apply count_one.
    + apply FinFun.Injective_map_NoDup; [|apply int_range_NoDup]. intros y z Hyz.
      apply str_of_Z_inj. congruence.
    + intros y z Hy Hz. apply in_map_iff in Hy as (i & <- & _), Hz as (j & <- & _). cbn [okb].
      rewrite !String.eqb_eq. intros -> ->. reflexivity.
  - unfold expand_range in H. rewrite Ec in H. assert (l = [Some t]) as -> by congruence. apply Hsingle.
Qed.

Lemma expand_range_stands c l x : expand_range c = Ok l ->
  (existsb (fun o => okb o x) l = true <-> stands_for c x).
Proof.
  intros H. destruct c as [t|].
  2:{ assert (l = [None]) as -> by (cbn in H; congruence). cbn. split; [intros _; constructor|easy]. }
  destruct (contains "--" t) eqn:Ec.
  - destruct (expand_range_inv _ Ec H) as (a & b & Hr). destruct (expand_range_spec Hr) as [_ E].
    assert (l = map (fun z => Some (str_of_Z z)) (int_range a b)) as -> by congruence.
    rewrite existsb_exists. split.
    + intros (o & Ho & Hok). apply in_map_iff in Ho as (z & <- & Hz). cbn [okb] in Hok. apply String.eqb_eq in Hok as <-.
      apply int_range_In in Hz. econstructor; eauto.
    + intros Hs. inversion Hs; subst; [congruence|]. exists (Some (str_of_Z z)). split; [|cbn; now apply String.eqb_eq].
      apply in_map_iff. exists z. split; [easy|]. apply int_range_In.
      match goal with Hr' : is_range t ?a' ?b' |- _ => destruct (expand_range_spec Hr') as [_ E'] end.
      assert (Heq : map (fun z => Some (str_of_Z z)) (int_range a0 b0) = map (fun z => Some (str_of_Z z)) (int_range a b)) by congruence.
      assert (Hin : In (Some (str_of_Z z)) (map (fun z => Some (str_of_Z z)) (int_range a b))).
      { rewrite <- Heq. apply in_map_iff. exists z. split; [easy|]. now apply int_range_In. }
      apply in_map_iff in Hin as (z' & Ez & Hz). assert (z' = z) as -> by (apply str_of_Z_inj; congruence).
      now apply int_range_In.
  - unfold expand_range in H. rewrite Ec in H. assert (l = [Some t]) as -> by congruence. cbn. rewrite orb_false_r.
    rewrite String.eqb_eq. split; [intros ->; now constructor|]. intros Hs. inversion Hs; subst; [easy|].
    match goal with Hr : is_range _ _ _ |- _ => apply expand_range_spec in Hr as [Hc _] end. congruence.
Qed.

Lemma cell_says t r c v : cell t r c = Some v <-> says t r c v.
Proof.
  unfold cell, says. destruct (mem c (csv_columns t)) eqn:E.
  - apply mem_true in E. tauto.
  - apply mem_false in E. split; [easy|tauto].
Qed.
Lemma cell_silent t r c : cell t r c = None <-> silent t r c.
Proof.
  split.
  - intros H v Hv. apply cell_says in Hv. congruence.
  - intros H. destruct (cell t r c) as [v|] eqn:E; [|easy]. apply cell_says in E. now apply H in E.
Qed.
Lemma cell_covers t r c x : stands_for (cell t r c) x <-> covers t r c x.
Proof.
  unfold covers. destruct (cell t r c) as [v|] eqn:E.
  - apply cell_says in E. split; [right; eauto|]. intros [[Hs _]|(w & Hw & H)]; [now apply Hs in E|].
    apply cell_says in Hw, E. assert (w = v) as -> by congruence. exact H.
  - apply cell_silent in E. split; [now left|]. intros [[_ H]|(w & Hw & _)]; [exact H|]. now apply E in Hw.
Qed.

Lemma expand_row_total t r f l s label : loss_table s -> List.length label = List.length (levels s) ->
  snd r = Some f -> (exists dv, says t r "Decision Variable" dv) ->
  expand_row t r = Ok l ->
  (names_loss t r s label -> total (levels s) l label = f) /\
  (~ names_loss t r s label -> total (levels s) l label = 1%Qc) /\
  (names_loss t r s label \/ ~ names_loss t r s label).
Proof.
  intros Ht Hl Hf (dvr & Hdvr) H. destruct (loss_table_levels Ht) as (Hn & I1 & I2 & I3 & I4).
  destruct (@level_value s label _ Ht Hl I1) as (dv & A1). destruct (@level_value s label _ Ht Hl I2) as (dmg & A2).
  destruct (@level_value s label _ Ht Hl I3) as (loc & A3). destruct (@level_value s label _ Ht Hl I4) as (dir & A4).
  unfold expand_row in H. unfold num in *. rewrite Hf in H.
  destruct (expand_range (cell t r "Location")) as [locs|] eqn:El; [|easy]. cbn [bind] in H.
  destruct (expand_range (cell t r "Direction")) as [dirs|] eqn:Ed; [|easy]. cbn [bind] in H.
  assert (l = map (fun ld => ((fun ld : option string * option string => condition "dv" (cell t r "Decision Variable")
                      ++ condition "dmg" (cell t r "Component")
                      ++ condition "loc" (fst ld) ++ condition "dir" (snd ld))%list ld, f)) (list_prod locs dirs)) as ->
    by (symmetry; exact (f_equal (fun r => match r with Ok a => a | Err _ => [] end) H)).
  clear H. rewrite total_const.
  pose (p := okb (cell t r "Decision Variable") dv). pose (q := okb (cell t r "Component") dmg).
  assert (E : List.length (filter (fun ld : option string * option string => matchb (levels s)
                   (condition "dv" (cell t r "Decision Variable") ++ condition "dmg" (cell t r "Component")
                      ++ condition "loc" (fst ld) ++ condition "dir" (snd ld))%list label) (list_prod locs dirs))
              = if (p && q && existsb (fun o => okb o loc) locs && existsb (fun o => okb o dir) dirs)%bool then 1%nat else 0%nat).
  { rewrite (filter_ext _ (fun ld => (p && q) && (okb (fst ld) loc && okb (snd ld) dir))%bool).
    2:{ intros ld. now apply matchb_conditions. }
    destruct (p && q)%bool; cbn [andb].
    - rewrite (filter_list_prod (fun o => okb o loc) (fun o => okb o dir)).
      rewrite (@expand_range_count _ _ loc El), (@expand_range_count _ _ dir Ed).
      destruct (existsb _ locs), (existsb _ dirs); reflexivity.
    - clear. induction (list_prod locs dirs); easy. }
  rewrite E. clear E.
  assert (Hiff : (p && q && existsb (fun o => okb o loc) locs && existsb (fun o => okb o dir) dirs)%bool = true <-> names_loss t r s label).
  { rewrite !andb_true_iff, (@expand_range_stands _ _ loc El), (@expand_range_stands _ _ dir Ed), !cell_covers.
    unfold names_loss. split.
    - intros [[[Hp Hq] Hc1] Hc2]. exists dv, dmg, loc, dir. repeat (split; [assumption|]).
      split; [|split; [|easy]].
      + unfold p in Hp. destruct (cell t r "Decision Variable") as [v|] eqn:Ev.
        * cbn in Hp. apply String.eqb_eq in Hp as ->. now apply cell_says.
        * apply cell_silent in Ev. now apply Ev in Hdvr.
      + unfold q in Hq. destruct (cell t r "Component") as [v|] eqn:Ev.
        * cbn in Hq. apply String.eqb_eq in Hq as ->. right. now apply cell_says.
        * left. now apply cell_silent.
    - intros (dv' & dmg' & loc' & dir' & B1 & B2 & B3 & B4 & Hdv & Hc & Hl' & Hd').
      assert (dv' = dv) as -> by (eapply at_level_fun; eauto).
      assert (dmg' = dmg) as -> by (eapply at_level_fun; eauto).
      assert (loc' = loc) as -> by (eapply at_level_fun; eauto).
      assert (dir' = dir) as -> by (eapply at_level_fun; eauto).
      repeat split; try assumption.
      + unfold p. apply cell_says in Hdv. rewrite Hdv. cbn. apply String.eqb_refl.
      + unfold q. destruct Hc as [Hc|Hc]; [apply cell_silent in Hc|apply cell_says in Hc]; rewrite Hc; cbn; [easy|apply String.eqb_refl]. }
  destruct (p && q && _ && _)%bool.
  - assert (N : names_loss t r s label) by now apply Hiff. cbn [Qcpower]. split; [intros _; ring|]. split; [easy|now left].
  - assert (N : ~ names_loss t r s label) by (intros N; apply Hiff in N; discriminate).
    cbn [Qcpower]. split; [easy|]. split; [easy|now right].
Qed.

Lemma expand_row_shape t r l : expand_row t r = Ok l -> forall x, In x l ->
  (forall dv, says t r "Decision Variable" dv -> In ("dv", dv) (fst x)) /\
  forall s, loss_table s -> known_levels (levels s) (fst x).
Proof.
  unfold expand_row. destruct (expand_range (cell t r "Location")) as [locs|]; [|easy]. cbn [bind].
  destruct (expand_range (cell t r "Direction")) as [dirs|]; [|easy]. cbn [bind]. intros H x Hx.
  match type of H with Ok ?m = Ok _ => assert (E : l = m) by congruence end. rewrite E in Hx. clear H E.
  apply in_map_iff in Hx as (ld & <- & _). cbn [fst]. split.
  - intros dv Hdv. apply cell_says in Hdv. rewrite Hdv. now left.
  - intros s Ht. destruct (loss_table_levels Ht) as (Hn & I1 & I2 & I3 & I4).
    repeat apply known_app; now apply known_condition.
Qed.

Lemma expand_ok t r : (forall column text, In column ["Location"; "Direction"]%list -> says t r column text ->
    contains "--" text = false \/ exists a b, is_range text a b) <-> is_ok (expand_row t r) = true.
Proof.
  assert (Hone : forall c, (forall text, says t r c text -> contains "--" text = false \/ exists a b, is_range text a b) <->
                           is_ok (expand_range (cell t r c)) = true).
  { intros c. destruct (cell t r c) as [v|] eqn:E.
    - apply cell_says in E. split.
      + intros H. destruct (H v E) as [Hc|(a & b & Hr)].
        * unfold expand_range. now rewrite Hc.
        * apply expand_range_spec in Hr as [_ ->]. reflexivity.
      + intros H text Ht. apply cell_says in Ht, E. assert (text = v) as -> by congruence.
        destruct (contains "--" v) eqn:Ec; [|now left]. right.
        destruct (expand_range (Some v)) eqn:Ee; [|easy]. eapply expand_range_inv; eauto.
    - apply cell_silent in E. split; [easy|]. intros _ text Ht. now apply E in Ht. }
  pose proof (Hone "Location") as HL. pose proof (Hone "Direction") as HD.
  unfold expand_row. destruct (expand_range (cell t r "Location")) as [locs|]; cbn [bind is_ok] in *.
  - destruct (expand_range (cell t r "Direction")) as [dirs|]; cbn [bind is_ok] in *.
    + split; [easy|]. intros _ column text [<-|[<-|[]]]; [apply HL; reflexivity|apply HD; reflexivity].
    + split; [|easy]. intros H. apply HD. intros text. apply H. cbn. tauto.
  - split; [|easy]. intros H. apply HL. intros text. apply H. cbn. tauto.
Qed.

Lemma expand_row_err t r e : expand_row t r = Err e -> e = ValueError.
Proof.
  unfold expand_row. destruct (expand_range (cell t r "Location")) as [locs|e1] eqn:E1; cbn [bind].
  - destruct (expand_range (cell t r "Direction")) as [dirs|e2] eqn:E2; cbn [bind]; [easy|].
    intros [= <-]. destruct (cell t r "Direction"); [|easy]. now apply expand_range_err in E2.
  - intros [= <-]. destruct (cell t r "Location"); [|easy]. now apply expand_range_err in E1.
Qed.

(** ** The whole file *)

Definition result_for (t : scaling_csv) (o o' : option table) : Prop :=
  match o, o' with
  | None, None => True
  | Some s, Some s' =>
      levels s' = levels s /\
      Forall2 (fun e e' => fst e' = fst e /\
                 exists k, total_factor t s (fst e) (csv_rows t) k /\ scaled_by k (snd e) (snd e'))
              (entries s) (entries s')
  | _, _ => False
  end.

Lemma rows_total t s label : loss_table s -> List.length label = List.length (levels s) -> forall rows l,
  (forall r, In r rows -> (exists dv, says t r "Decision Variable" dv) /\ snd r <> None) ->
  mapM (expand_row t) rows = Ok l ->
  total_factor t s label rows (total (levels s) (List.concat l) label).
Proof.
  intros Ht Hl. induction rows as [|r rows IH]; intros l Hr H.
  - assert (l = []) as -> by (cbn in H; congruence). constructor.
  - cbn [mapM] in H. destruct (expand_row t r) as [l1|] eqn:E1; [|easy]. cbn [bind] in H.
    destruct (mapM (expand_row t) rows) as [ls|] eqn:E2; [|easy]. cbn [bind] in H.
    assert (l = l1 :: ls) as -> by congruence. cbn [List.concat]. rewrite total_app.
    destruct (Hr r (or_introl eq_refl)) as [Hdv Hf]. destruct (snd r) as [f|] eqn:Ef; [|easy].
    destruct (@expand_row_total t r f l1 s label Ht Hl Ef Hdv E1) as (Hy & Hno & [N|N]).
    + rewrite (Hy N). constructor; [easy|easy|]. apply IH; [|easy]. intros r' Hr'. apply Hr. now right.
    + rewrite (Hno N). replace (1 * total (levels s) (List.concat ls) label)%Qc with (total (levels s) (List.concat ls) label) by ring.
      constructor; [easy|]. apply IH; [|easy]. intros r' Hr'. apply Hr. now right.
Qed.

Lemma mapM_is_ok {A B} (f : A -> result B) l : is_ok (mapM f l) = true <-> forall x, In x l -> is_ok (f x) = true.
Proof.
  induction l as [|x l IH]; [cbn; easy|]. cbn [mapM]. destruct (f x) eqn:E; cbn [bind].
  - destruct (mapM f l); cbn [bind is_ok] in *.
    + split; [|easy]. intros _ y [<-|Hy]; [now rewrite E|]. now apply IH.
    + split; [easy|]. intros H. apply IH. intros y Hy. apply H. now right.
  - split; [easy|]. intros H. specialize (H x (or_introl eq_refl)). now rewrite E in H.
Qed.
Lemma mapM_err {A B} (f : A -> result B) (e0 : exn) l : (forall x e, f x = Err e -> e = e0) ->
  forall e, mapM f l = Err e -> e = e0.
Proof.
  intros H. induction l as [|x l IH]; [easy|]. intros e. cbn [mapM]. destruct (f x) eqn:E; cbn [bind].
  - destruct (mapM f l); cbn [bind]; [easy|]. intros [= <-]. now apply IH.
  - intros [= <-]. eauto.
Qed.

Lemma consequence_scaling_usable t ms : usable t -> (forall s, In (Some s) ms -> loss_table s) ->
  exists ms', consequence_scaling t ms = (ms', None) /\ Forall2 (result_for t) ms ms'.
Proof.
  intros (Hdv & Hsf & Hne & Hr) Hms. unfold consequence_scaling.
  apply mem_true in Hdv, Hsf. rewrite Hdv, Hsf. cbn [negb orb].
  assert (existsb (fun r => match cell t r "Decision Variable" with None => true | _ => false end) (csv_rows t) = false) as ->.
  { apply not_true_iff_false. rewrite existsb_exists. intros (r & Hin & E). destruct (Hr r Hin) as ((dv & Hd) & _).
    apply cell_says in Hd. now rewrite Hd in E. }
  match goal with |- context [existsb ?f (csv_rows t)] => assert (existsb f (csv_rows t) = false) as -> end.
  { apply not_true_iff_false. rewrite existsb_exists. intros (r & Hin & E). destruct (Hr r Hin) as (_ & Hs & _).
    unfold num in *. destruct (snd r); [discriminate E|now apply Hs]. }
  assert (Hok : is_ok (mapM (expand_row t) (csv_rows t)) = true).
  { apply mapM_is_ok. intros r Hin. apply expand_ok. now apply Hr. }
  destruct (csv_rows t) as [|r0 rows0] eqn:Er; [easy|]. rewrite <- Er in *.
  destruct (mapM (expand_row t) (csv_rows t)) as [l|] eqn:El; [|easy].
  assert (Hrow : forall x, In x (List.concat l) -> exists r, In r (csv_rows t) /\ exists lr, expand_row t r = Ok lr /\ In x lr).
  { intros x Hx. apply in_concat in Hx as (lr & Hlr & Hx). apply mapM_Forall2 in El.
    destruct (Forall2_In_r _ El Hlr) as (r & Hin & E). eauto. }
  rewrite apply_rows_eq.
  - eexists. split; [reflexivity|]. clear Hrow. induction ms as [|o ms IH]; [constructor|]. constructor.
    + destruct o as [s|]; [|exact I]. cbn [option_map result_for scale_table levels entries]. split; [reflexivity|].
      assert (Ht : loss_table s) by (apply Hms; now left). pose proof (proj2 Ht) as Hlen.
      induction (entries s) as [|e es IHe]; [constructor|]. inversion Hlen; subst. constructor; [|now apply IHe].
      cbn [fst snd]. split; [easy|]. eexists. split.
      * apply rows_total; [easy|easy| |exact El]. intros r Hin. split; now apply Hr.
      * apply scale_values_spec.
    + apply IH. intros s Hs. apply Hms. now right.
  - intros s x Hs Hx. destruct (Hrow x Hx) as (r & Hin & lr & Elr & Hxl).
    split; [now apply loss_table_levels, Hms|]. apply (@expand_row_shape t r lr Elr x Hxl). now apply Hms.
  - intros x Hx. destruct (Hrow x Hx) as (r & Hin & lr & Elr & Hxl).
    destruct (Hr r Hin) as ((dv & Hd) & _). exists dv. now apply (@expand_row_shape t r lr Elr x Hxl).
Qed.

Lemma consequence_scaling_rejected t ms : ~ usable t -> consequence_scaling t ms = (ms, Some ValueError).
Proof.
  intros Hu. unfold consequence_scaling.
  destruct (mem "Decision Variable" (csv_columns t)) eqn:E1; [|reflexivity]. cbn [negb orb].
  destruct (existsb (fun r => match cell t r "Decision Variable" with None => true | _ => false end) (csv_rows t)) eqn:E2; [reflexivity|].
  destruct (mem "Scale Factor" (csv_columns t)) eqn:E3; [|reflexivity]. cbn [negb orb].
  match goal with |- context [existsb ?f (csv_rows t)] => destruct (existsb f (csv_rows t)) eqn:E4; [reflexivity|] end.
  destruct (csv_rows t) as [|r0 rows0] eqn:Er; [reflexivity|]. rewrite <- Er in *.
  destruct (mapM (expand_row t) (csv_rows t)) as [l|e] eqn:El.
  - exfalso. apply Hu. split; [now apply mem_true|]. split; [now apply mem_true|]. split; [congruence|].
    intros r Hin. split; [|split].
    + destruct (cell t r "Decision Variable") as [dv|] eqn:Ec; [exists dv; now apply cell_says|].
      rewrite <- not_true_iff_false, existsb_exists in E2. exfalso. apply E2. exists r. now rewrite Ec.
    + intros Hs. rewrite <- not_true_iff_false, existsb_exists in E4. apply E4. exists r. unfold num in *. now rewrite Hs.
    + apply expand_ok. assert (Hok : is_ok (mapM (expand_row t) (csv_rows t)) = true) by now rewrite El.
      rewrite mapM_is_ok in Hok. now apply Hok.
  - f_equal. f_equal. eapply mapM_err; [|exact El]. intros r e'. apply expand_row_err.
Qed.

Lemma total_factor_fun t s label rows k : total_factor t s label rows k -> forall k', total_factor t s label rows k' -> k = k'.
Proof.
  induction 1; intros k' H'; inversion H'; subst; try easy.
  - f_equal; [congruence|auto].
  - auto.
Qed.
