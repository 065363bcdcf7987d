(** Proofs about the loading of damage and loss parameters. *)
From Coq Require Import Sorting.Permutation.
From Verif Require Import Prelude PreludeFacts Pandas PandasFacts M_Base P_Base M_Damage M_LossDS P_LossDS M_LossLF S_LossLF P_LossLF P_Req P_Eval M_Params S_Params.
Local Open Scope string_scope.
Local Open Scope list_scope.

(** ** Units *)

Lemma split_two c s a b : split_on c s = [a; b] -> s = (a ++ String c b)%string /\ has_char c a = false /\ has_char c b = false.
Proof.
  intros H. pose proof (join_split c s) as Hj. pose proof (split_on_pieces c s) as Hp. rewrite H in *. inversion Hp as [|? ? Ha Hp']; subst.
  inversion Hp'; subst. repeat split; assumption || (symmetry; exact Hj).
Qed.
Lemma split_one c s a : split_on c s = [a] -> s = a /\ has_char c a = false.
Proof.
  intros H. pose proof (join_split c s) as Hj. pose proof (split_on_pieces c s) as Hp. rewrite H in *. apply Forall_inv in Hp.
  split; [symmetry; exact Hj|assumption].
Qed.

Lemma calc_unit_factor e u f : calc_unit_scale_factor e u = Ok f <-> unit_factor e u f.
Proof.
  unfold calc_unit_scale_factor. split.
  - destruct (split_on " " (strip_space u)) as [|a [|b [|c l]]] eqn:E; try discriminate.
    + destruct (dget a (factors e)) as [g|] eqn:Eg; [|discriminate]. intros [= <-]. apply split_one in E as [E Hc].
      now apply (@plain_unit e u g a).
    + destruct (numbers e a) as [n|] eqn:En; [|discriminate]. destruct (dget b (factors e)) as [g|] eqn:Eg; [|discriminate]. intros [= <-].
      apply split_two in E as (E & Ha & Hb). now apply (@counted_unit e u _ a b n g).
  - intros [name E Hc Hg|count name n g E Hc Hn En Hg ->].
    + rewrite E, split_on_nochar by assumption. now rewrite Hg.
    + rewrite E. change (count ++ " " ++ name)%string with (count ++ String " " name)%string. rewrite split_on_app by assumption.
      rewrite split_on_nochar by assumption. now rewrite En, Hg.
Qed.

(** ** Parameters *)

Lemma split_on_other c d s : has_char d s = false -> Forall (fun w => has_char d w = false) (split_on c s).
Proof.
  induction s as [|a s IH]; cbn [split_on has_char]; intros H; [now constructor|]. apply orb_false_iff in H as [Ha Hs]. specialize (IH Hs).
  destruct (Ascii.eqb a c); [now constructor|]. destruct (split_on c s) as [|w l]; [constructor; [|constructor]|inversion IH; subst; constructor; [|assumption]].
  - cbn. now rewrite Ha.
  - cbn. rewrite Ha. assumption.
Qed.
Lemma floats_inv pf l qs : floats pf l = Ok qs -> Forall2 (fun t q => pf t = Some q) l qs.
Proof.
  unfold floats. intros H. apply mapM_Forall2 in H. eapply Forall2_weaken; [|exact H]. intros t q E. cbn beta in E. destruct (pf t); congruence.
Qed.

Lemma parse_stands e v p : parse_par e v = Ok p -> stands_for e v p.
Proof.
  unfold parse_par. destruct v as [|q|s]; [intros [= <-]; constructor|intros [= <-]; constructor|].
  destruct (numbers e s) as [q|] eqn:En; [intros [= <-]; now constructor|].
  destruct (split_on "|" s) as [|yt [|xt rest]] eqn:E; [discriminate| |].
  - intros H. binv H ys. discriminate H.
  - intros H. binv H ys. binv H xs. injection H as <-.
    assert (Ht : table_text (numbers e) (yt ++ "|" ++ xt)%string ys xs).
    { exists (split_on "," yt), (split_on "," xt). pose proof (split_on_pieces "|" s) as Hp. rewrite E in Hp.
      inversion Hp as [|? ? Hy Hp']; subst. inversion Hp' as [|? ? Hx Hp'']; subst. split; [|split; [|split]].
      - pose proof (join_split "," yt) as J1. pose proof (join_split "," xt) as J2. now rewrite J1, J2.
      - apply Forall_app. split; apply Forall_forall; intros t Hin.
        + split; [pose proof (split_on_pieces "," yt) as F|pose proof (split_on_other "," "|" yt Hy) as F]; rewrite Forall_forall in F; now apply F.
        + split; [pose proof (split_on_pieces "," xt) as F|pose proof (split_on_other "," "|" xt Hx) as F]; rewrite Forall_forall in F; now apply F.
      - now apply floats_inv.
      - now apply floats_inv. }
    pose proof (join_split "|" s) as J. rewrite E in J. destruct rest as [|z rest].
    + assert (s = (yt ++ "|" ++ xt)%string) as -> by (symmetry; exact J). now constructor.
    + assert (Es : s = ((yt ++ "|" ++ xt) ++ "|" ++ join "|" (z :: rest))%string).
      { rewrite <- J. change (join "|" (yt :: xt :: z :: rest)) with (yt ++ "|" ++ xt ++ "|" ++ join "|" (z :: rest))%string.
        assert (A : forall a b c : string, (a ++ b ++ c = (a ++ b) ++ c)%string) by (induction a as [|? ? IH]; intros; cbn; [reflexivity|now rewrite IH]).
        now rewrite !A. }
      rewrite Es in En |- *. now constructor.
Qed.

Lemma show_written e f a p v : show_par e p (par_scale f (scale_args a p)) = Ok v -> v = written e (times f a p).
Proof. destruct p; cbn; congruence. Qed.
Lemma show_relative e a p v : show_par e p (scale_args a p) = Ok v -> v = written e (times 1%Qc a p).
Proof.
  destruct p as [|q|ys xs]; cbn; [congruence| |].
  - intros [= <-]. f_equal. ring.
  - intros [= <-]. assert (E : map (fun y : Qc => (y * 1)%Qc) ys = ys) by (rewrite <- (map_id ys) at 2; apply map_ext; intros y; ring).
    now rewrite E.
Qed.
Lemma show_none e p v : show_par e p PNone = Ok v -> v = VBlank.
Proof. destruct p; cbn; congruence. Qed.

Lemma scale_limit_spec f v w : scale_limit f v = Ok w ->
  match v with VNum q => w = VNum (q * f)%Qc | VBlank => w = VBlank | VText _ => False end.
Proof. destruct v; cbn; congruence. Qed.

Lemma scale_distribution_spec f family t0 t1 t2 n0 n1 n2 : scale_distribution f family (t0, t1, t2) = Ok (n0, n1, n2) ->
  supported family /\ n0 = par_scale f t0 /\ n2 = PNone /\
  n1 = match second_of family with WithUnit => par_scale f t1 | Relative => t1 | Unused => PNone end.
Proof.
  unfold scale_distribution. destruct family as [fam|]; [|intros [= <- <- <-]; cbn; auto].
  unfold second_of, supported. cbn [mem existsb In].
  destruct (String.eqb_spec fam "normal_std") as [->|N1]; [intros [= <- <- <-]; cbn; auto|].
  destruct (String.eqb_spec fam "uniform") as [->|N2]; [intros [= <- <- <-]; cbn; auto 10|].
  destruct (String.eqb_spec fam "normal") as [->|N3]; [intros [= <- <- <-]; cbn; auto 10|].
  destruct (String.eqb_spec fam "normal_cov") as [->|N4]; [intros [= <- <- <-]; cbn; auto 10|].
  destruct (String.eqb_spec fam "lognormal") as [->|N5]; [intros [= <- <- <-]; cbn; auto 10|].
  destruct (String.eqb_spec fam "deterministic") as [->|N6]; [intros [= <- <- <-]; cbn; auto 10|].
  destruct (String.eqb_spec fam "multilinear_CDF") as [->|N7]; [intros [= <- <- <-]; cbn; auto 10|]. discriminate.
Qed.

Lemma arg_factor_spec e arg a : arg_factor e arg = Ok a ->
  match arg with
  | None => a = 1%Qc
  | Some v => exists s, v = VText s /\ ((s = "1 EA" /\ a = 1%Qc) \/ (s <> "1 EA" /\ unit_factor e s a))
  end.
Proof.
  unfold arg_factor. destruct arg as [[|q|s]|]; try discriminate; [|congruence]. destruct (String.eqb_spec s "1 EA") as [->|N].
  - intros [= <-]. exists "1 EA". auto.
  - intros H. apply calc_unit_factor in H. exists s. auto.
Qed.

Lemma convert_marginal_spec e divide unit arg old new : convert_marginal e divide unit arg old = Ok new -> converted e divide unit arg old new.
Proof.
  unfold convert_marginal. destruct unit as [|q|u]; [intros [= <-]; left; auto|discriminate|]. intros H. binv H fu.
  assert (Hkeep : forall family, family_of (old "Family") family -> convert_scaled e divide fu arg old family = Ok new -> converted e divide (VText u) arg old new).
  { clear H. intros family Hfam H. unfold convert_scaled in H. right. right. binv H p0. binv H p1. binv H p2. binv H fa.
    destruct (divide && Qceqb fa 0) eqn:Ez; [discriminate|]. binv H lo. binv H hi. binv H n. destruct n as [[n0 n1] n2].
    binv H v0. binv H v1. binv H v2. injection H as <-.
    apply scale_distribution_spec in E6 as (Hsup & -> & -> & ->). exists u, fu, fa. split; [reflexivity|]. split; [now apply calc_unit_factor|].
    split; [now apply arg_factor_spec|]. split.
    { intros -> Hz. subst fa. cbn in Ez. discriminate Ez. }
    exists family, p0, p1. split; [assumption|]. split; [assumption|]. split; [now apply parse_stands|].
    split; [cbn; now apply show_written in E7|]. split; [now apply parse_stands|]. split; [|split; [|split]].
    - cbn. destruct (second_of family); [now apply show_written in E8|now apply show_relative in E8|now apply show_none in E8].
    - cbn. now apply show_none in E9.
    - intros field [<-|[<-|[]]]; cbn; [apply scale_limit_spec in E4|apply scale_limit_spec in E5];
        [destruct (old "TruncateLower")|destruct (old "TruncateUpper")]; assumption.
    - intros field Hf. cbn [In] in Hf.
      destruct (String.eqb_spec field "Theta_0") as [->|_]; [exfalso; apply Hf; auto|].
      destruct (String.eqb_spec field "Theta_1") as [->|_]; [exfalso; apply Hf; auto|].
      destruct (String.eqb_spec field "Theta_2") as [->|_]; [exfalso; apply Hf; auto|].
      destruct (String.eqb_spec field "TruncateLower") as [->|_]; [exfalso; apply Hf; auto|].
      destruct (String.eqb_spec field "TruncateUpper") as [->|_]; [exfalso; apply Hf; auto 10|]. reflexivity. }
  destruct (old "Family") as [|q|fam] eqn:Ef; [now apply (Hkeep None)|discriminate|].
  destruct (String.eqb_spec fam "empirical") as [->|_]; [|now apply (Hkeep (Some fam))].
  injection H as <-. right. left. auto.
Qed.

(** ** Tables *)

Lemma at_col_notin (r : row) c : ~ In c (map fst r) -> at_col r c = VBlank.
Proof.
  intros H. unfold at_col. destruct (aget pair_eqb c r) as [v|] eqn:E; [|reflexivity]. exfalso. apply H.
  apply (aget_In pair_eqb pair_eqb_eq) in E. apply in_map_iff. now exists (c, v).
Qed.
Lemma at_col_map (f : col -> value) cols c : at_col (map (fun c => (c, f c)) cols) c = if existsb (pair_eqb c) cols then f c else VBlank.
Proof.
  unfold at_col. induction cols as [|x cols IH]; [reflexivity|]. cbn [map aget existsb]. destruct (pair_eqb c x) eqn:E; [|exact IH].
  apply pair_eqb_eq in E. now subst.
Qed.
Lemma existsb_pair c (cols : list col) : existsb (pair_eqb c) cols = true <-> In c cols.
Proof. apply (existsb_eqb_In pair_eqb pair_eqb_eq). Qed.
Lemma existsb_pair_false c (cols : list col) : existsb (pair_eqb c) cols = false <-> ~ In c cols.
Proof. rewrite <- existsb_pair. destruct (existsb (pair_eqb c) cols); split; intros; easy. Qed.
Lemma at_col_restrict cols r c : (In c (map fst r) -> In c cols) -> at_col (restrict cols r) c = at_col r c.
Proof.
  intros H. unfold restrict. rewrite (at_col_map (at_col r)). destruct (existsb (pair_eqb c) cols) eqn:E; [reflexivity|].
  apply existsb_pair_false in E. rewrite at_col_notin; auto.
Qed.
Lemma restrict_cols cols r : map fst (restrict cols r) = cols.
Proof. unfold restrict. rewrite map_map. cbn. apply map_id. Qed.

Section Merge.
  Context {K : Type} (eqb le : K -> K -> bool) (eqb_eq : forall a b, eqb a b = true <-> a = b) (pick : list value -> value).
  Hypothesis pick_blank : forall vs, (forall v, In v vs -> v = VBlank) -> pick vs = VBlank.
  Hypothesis pick_one : forall v, pick [v] = v.
  Hypothesis pick_app : forall vs ws, vs <> [] -> pick (pick vs :: ws) = pick (vs ++ ws).

  Definition defs (t : ptable K) (k : K) : list row := map snd (filter (fun kr => eqb k (fst kr)) (p_rows t)).
  Definition merged (sources : list (ptable K)) (t : ptable K) : Prop :=
    proper t /\ NoDup (map fst (p_rows t)) /\
    (forall k, In k (map fst (p_rows t)) <-> exists src, In src sources /\ In k (map fst (p_rows src))) /\
    (forall k r c, In (k, r) (p_rows t) -> at_col r c = pick (map (fun r => at_col r c) (definitions eqb sources k))) /\
    (forall c, In c (p_cols t) <-> exists src, In src sources /\ In c (p_cols src)).

  Lemma In_defs t k r : In r (defs t k) <-> In (k, r) (p_rows t).
  Proof.
    unfold defs. rewrite in_map_iff. split.
    - intros ([k' r'] & <- & Hin). apply filter_In in Hin as [Hin E]. cbn in E. apply eqb_eq in E. now subst.
    - intros Hin. exists (k, r). split; [reflexivity|]. apply filter_In. split; [assumption|]. now apply eqb_eq.
  Qed.
  Lemma definitions_In sources k : definitions eqb sources k <> [] <-> exists src, In src sources /\ In k (map fst (p_rows src)).
  Proof.
    split.
    - intros H. destruct (definitions eqb sources k) as [|r rs] eqn:E; [easy|]. assert (Hr : In r (definitions eqb sources k)) by (rewrite E; now left).
      unfold definitions in Hr. apply in_flat_map in Hr as (src & Hs & Hr). exists src. split; [assumption|]. apply In_defs in Hr. now apply (in_map fst) in Hr.
    - intros (src & Hs & Hk) E. apply in_map_iff in Hk as ([k' r] & Ek & Hr). cbn in Ek. subst k'.
      assert (Hin : In r (definitions eqb sources k)) by (unfold definitions; apply in_flat_map; exists src; split; [assumption|now apply In_defs]).
      now rewrite E in Hin.
  Qed.

  Lemma group_first_spec t : proper t -> merged [t] (group_first eqb le pick t).
  Proof.
    intros [Hn Hp]. unfold group_first. split; [|split; [|split; [|split]]]; cbn [p_cols p_rows].
    - split; [assumption|]. cbn [p_rows p_cols]. intros k r Hin. apply in_map_iff in Hin as (g & E & _). injection E as _ <-. rewrite map_map. cbn. apply map_id.
    - rewrite map_map. cbn [fst]. apply (groupby_NoDup eqb le eqb_eq).
    - intros k. rewrite map_map. cbn [fst]. rewrite (groupby_keys_In eqb le eqb_eq). split.
      + intros Hk. exists t. split; [now left|assumption].
      + now intros (src & [<-|[]] & Hk).
    - intros k r c Hin. apply in_map_iff in Hin as ([k' g] & E & Hin). injection E as -> <-. cbn [fst snd].
      apply (groupby_In eqb le eqb_eq) in Hin as [_ ->]. rewrite (at_col_map (fun c => pick (map (fun r => at_col r c) (group_rows eqb k (p_rows t))))).
      unfold definitions. cbn [flat_map]. rewrite app_nil_r. destruct (existsb (pair_eqb c) (p_cols t)) eqn:E; [reflexivity|].
      symmetry. apply pick_blank. intros v Hv. apply in_map_iff in Hv as (r & <- & Hr).
      apply existsb_pair_false in E. apply at_col_notin. apply In_defs in Hr. now rewrite (Hp k r Hr).
    - intros c. split; [intros Hc; exists t; split; [now left|assumption]|]. now intros (src & [<-|[]] & Hc).
  Qed.

  Lemma defs_NoDup t k r : NoDup (map fst (p_rows t)) -> In (k, r) (p_rows t) -> defs t k = [r].
  Proof. intros Hn Hin. now apply (group_rows_single eqb eqb_eq). Qed.
  Lemma defs_none t k : ~ In k (map fst (p_rows t)) -> defs t k = [].
  Proof.
    intros H. destruct (defs t k) as [|r rs] eqn:E; [reflexivity|]. exfalso. apply H. assert (Hr : In r (defs t k)) by (rewrite E; now left).
    apply In_defs in Hr. now apply (in_map fst) in Hr.
  Qed.

  Lemma merged_self t : proper t -> NoDup (map fst (p_rows t)) -> merged [t] t.
  Proof.
    intros Hp Hn. split; [assumption|]. split; [assumption|]. split; [|split].
    - intros k. split; [intros H; exists t; split; [now left|assumption]|]. now intros (src & [<-|[]] & H).
    - intros k r c Hin. unfold definitions. cbn [flat_map]. rewrite app_nil_r. fold (defs t k). rewrite (defs_NoDup t k r Hn Hin). cbn [map]. now rewrite pick_one.
    - intros c. split; [intros H; exists t; split; [now left|assumption]|]. now intros (src & [<-|[]] & H).
  Qed.

  Lemma proper_concat (a b : ptable K) : proper a -> proper b -> proper (concat_rows a b).
  Proof.
    intros [Ha _] [Hb _]. unfold concat_rows. split; cbn [p_cols p_rows].
    - apply NoDup_app_intro; [assumption|now apply NoDup_filter|]. intros c Hc Hf. apply filter_In in Hf as [_ Hf]. apply negb_true_iff, existsb_pair_false in Hf. contradiction.
    - intros k r Hin. apply in_map_iff in Hin as (kr & E & _). injection E as _ <-. apply restrict_cols.
  Qed.
  Lemma concat_cols (a b : ptable K) c : In c (p_cols (concat_rows a b)) <-> In c (p_cols a) \/ In c (p_cols b).
  Proof.
    unfold concat_rows. cbn [p_cols]. rewrite in_app_iff, filter_In, negb_true_iff, existsb_pair_false. 
    destruct (existsb (pair_eqb c) (p_cols a)) eqn:E; [apply existsb_pair in E|apply existsb_pair_false in E]; tauto.
  Qed.
  Lemma concat_defs (a b : ptable K) k : defs (concat_rows a b) k = map (restrict (p_cols (concat_rows a b))) (defs a k ++ defs b k).
  Proof.
    unfold defs, concat_rows. cbn [p_rows p_cols]. set (cols := _ ++ _). rewrite <- map_app, <- filter_app.
    induction (p_rows a ++ p_rows b) as [|[k' r] l IH]; [reflexivity|]. cbn [map filter fst snd]. destruct (eqb k k'); cbn [map snd]; now rewrite IH.
  Qed.

  Lemma In_dec_key (t : ptable K) k : In k (map fst (p_rows t)) \/ ~ In k (map fst (p_rows t)).
  Proof.
    destruct (existsb (eqb k) (map fst (p_rows t))) eqn:E; [left|right].
    - now apply (existsb_eqb_In eqb eqb_eq).
    - intros H. apply (existsb_eqb_In eqb eqb_eq) in H. congruence.
  Qed.

  Lemma load_more_spec sources t data : merged sources t -> proper data -> merged (sources ++ [data]) (load_more eqb le pick (Some t) data).
  Proof.
    intros (Hpt & Hnt & Hkt & Hvt & Hct) Hpd. unfold load_more. pose proof (proper_concat t data Hpt Hpd) as Hpc.
    destruct (group_first_spec _ Hpc) as (H1 & H2 & H3 & H4 & H5).
    assert (Hkeys : forall k, In k (map fst (p_rows (concat_rows t data))) <-> In k (map fst (p_rows t)) \/ In k (map fst (p_rows data))).
    { intros k. unfold concat_rows. cbn [p_rows]. rewrite map_map. cbn [fst]. now rewrite map_app, in_app_iff. }
    split; [assumption|]. split; [assumption|]. split; [|split].
    - intros k. rewrite H3. split.
      + intros (src & [<-|[]] & Hk). apply Hkeys in Hk as [Hk|Hk].
        * apply Hkt in Hk as (src & Hs & Hk). exists src. split; [apply in_or_app; now left|assumption].
        * exists data. split; [apply in_or_app; right; now left|assumption].
      + intros (src & Hs & Hk). exists (concat_rows t data). split; [now left|]. apply Hkeys. apply in_app_or in Hs as [Hs|[<-|[]]]; [left; apply Hkt; eauto|now right].
    - intros k r c Hin. rewrite (H4 k r c Hin). unfold definitions. cbn [flat_map]. rewrite app_nil_r, flat_map_app. cbn [flat_map]. rewrite app_nil_r.
      fold (defs (concat_rows t data) k) (defs data k) (definitions eqb sources k). rewrite concat_defs, map_map.
      transitivity (pick (map (fun r => at_col r c) (defs t k ++ defs data k))).
      { f_equal. apply map_ext_in. intros x Hx. apply at_col_restrict. intros Hc. apply concat_cols. apply in_app_or in Hx as [Hx|Hx]; apply In_defs in Hx.
        - left. now rewrite <- (proj2 Hpt k x Hx).
        - right. now rewrite <- (proj2 Hpd k x Hx). }
      rewrite !map_app. assert (Hdec : In k (map fst (p_rows t)) \/ ~ In k (map fst (p_rows t))) by (apply In_dec_key).
      destruct Hdec as [Hk|Hk].
      + apply in_map_iff in Hk as ([k' r'] & E & Hr'). cbn in E. subst k'. rewrite (defs_NoDup t k r' Hnt Hr'). cbn [map app].
        rewrite (Hvt k r' c Hr'). apply pick_app. intros E. apply map_eq_nil in E. apply (definitions_In sources k); [|assumption]. apply Hkt. now apply (in_map fst) in Hr'.
      + rewrite (defs_none t k Hk). cbn [map app].
        destruct (definitions eqb sources k) as [|x xs] eqn:E; [reflexivity|]. exfalso. apply Hk, Hkt, definitions_In. now rewrite E.
    - intros c. rewrite H5. split.
      + intros (src & [<-|[]] & Hc). apply concat_cols in Hc as [Hc|Hc].
        * apply Hct in Hc as (src & Hs & Hc). exists src. split; [apply in_or_app; now left|assumption].
        * exists data. split; [apply in_or_app; right; now left|assumption].
      + intros (src & Hs & Hc). exists (concat_rows t data). split; [now left|]. apply concat_cols. apply in_app_or in Hs as [Hs|[<-|[]]]; [left; apply Hct; eauto|now right].
  Qed.
End Merge.

(** ** Several sources *)

Lemma first_value_blank vs : (forall v, In v vs -> v = VBlank) -> first_value vs = VBlank.
Proof. destruct vs as [|v vs]; [easy|]. intros H. apply H. now left. Qed.
Lemma first_value_app vs ws : vs <> [] -> first_value (first_value vs :: ws) = first_value (vs ++ ws).
Proof. now destruct vs. Qed.
Lemma first_filled_blank vs : (forall v, In v vs -> v = VBlank) -> first_filled vs = VBlank.
Proof.
  unfold first_filled. induction vs as [|v vs IH]; [easy|]. intros H. cbn [filter]. rewrite (H v (or_introl eq_refl)). cbn. apply IH.
  intros w Hw. apply H. now right.
Qed.
Lemma first_filled_one v : first_filled [v] = v.
Proof. now destruct v. Qed.
Lemma first_filled_app vs ws : vs <> [] -> first_filled (first_filled vs :: ws) = first_filled (vs ++ ws).
Proof.
  intros _. induction vs as [|v vs IH]; [reflexivity|]. destruct v; [|reflexivity|reflexivity].
  change (first_filled (VBlank :: vs)) with (first_filled vs). exact IH.
Qed.
Lemma first_filled_cell (rs : list row) c : first_cell rs c (first_filled (map (fun r => at_col r c) rs)).
Proof.
  induction rs as [|r rs IH].
  - left. split; [reflexivity|]. now intros r [].
  - cbn [map]. destruct (at_col r c) as [|q|s] eqn:E.
    + change (first_filled (VBlank :: map (fun r => at_col r c) rs)) with (first_filled (map (fun r => at_col r c) rs)).
      destruct IH as [(E0 & H)|(E0 & before & x & after & -> & Ex & H)]; [left|right].
      * split; [assumption|]. intros x [<-|Hx]; [assumption|now apply H].
      * split; [assumption|]. exists (r :: before), x, after. split; [reflexivity|]. split; [assumption|]. intros y [<-|Hy]; [assumption|now apply H].
    + right. split; [easy|]. exists [], r, rs. split; [reflexivity|]. split; [assumption|easy].
    + right. split; [easy|]. exists [], r, rs. split; [reflexivity|]. split; [assumption|easy].
Qed.
Lemma first_cell_fun rs c v w : first_cell rs c v -> first_cell rs c w -> v = w.
Proof.
  intros [(-> & H)|(Hv & b & r & a & E & Er & H)] [(-> & H')|(Hw & b' & r' & a' & E' & Er' & H')].
  - reflexivity.
  - exfalso. apply Hw. rewrite <- Er'. apply H. rewrite E'. apply in_or_app. right. now left.
  - exfalso. apply Hv. rewrite <- Er. apply H'. rewrite E. apply in_or_app. right. now left.
  - subst v w. rewrite E in E'. clear E. revert b' H' E'. induction b as [|x b IH]; intros [|x' b'] H' E'; cbn [app] in E'.
    + injection E' as -> _. reflexivity.
    + injection E' as -> _. exfalso. apply Hv. apply H'. now left.
    + injection E' as -> _. exfalso. apply Hw. apply H. now left.
    + injection E' as -> E'. apply (IH (fun y Hy => H y (or_intror Hy)) b' (fun y Hy => H' y (or_intror Hy)) E').
Qed.

Section Sources.
  Context {K : Type} (eqb le : K -> K -> bool) (eqb_eq : forall a b, eqb a b = true <-> a = b) (pick : list value -> value).
  Hypothesis pick_blank : forall vs, (forall v, In v vs -> v = VBlank) -> pick vs = VBlank.
  Hypothesis pick_app : forall vs ws, vs <> [] -> pick (pick vs :: ws) = pick (vs ++ ws).
  Context (step : option (ptable K) -> ptable K -> result (option (ptable K))).
  Hypothesis step_ok : forall o d o', step o d = Ok o' -> o' = Some (load_more eqb le pick o d).

  Definition merged_opt (sources : list (ptable K)) (o : option (ptable K)) : Prop :=
    match o with None => sources = [] | Some t => merged eqb pick sources t end.
  Lemma merge_all sources : forall before old t, merged_opt before old -> (forall s, In s sources -> proper s) ->
    foldM step old sources = Ok t -> merged_opt (before ++ sources) t.
  Proof.
    induction sources as [|s sources IH]; intros before old t Hold Hp H.
    - injection H as <-. now rewrite app_nil_r.
    - cbn [foldM] in H. binv H o. apply step_ok in E. subst o. change (s :: sources) with ([s] ++ sources). rewrite app_assoc.
      apply (IH _ (Some (load_more eqb le pick old s))); [|intros; apply Hp; now right|assumption].
      destruct old as [o|]; cbn [merged_opt] in *.
      + apply (load_more_spec eqb le eqb_eq pick); auto. apply Hp. now left.
      + subst before. apply (group_first_spec eqb le eqb_eq pick); auto. apply Hp. now left.
  Qed.
End Sources.

(** The first definition. *)
Lemma definitions_first {K} (eqb : K -> K -> bool) (eqb_eq : forall a b, eqb a b = true <-> a = b) sources k (r : row) :
  first_definition sources k r <-> exists rs, definitions eqb sources k = r :: rs.
Proof.
  split.
  - intros (before & src & after & above & below & -> & Es & Ha & Hb). unfold definitions. rewrite flat_map_app. cbn [flat_map]. rewrite Es.
    replace (flat_map (fun t => map snd (filter (fun kr : K * row => eqb k (fst kr)) (p_rows t))) before) with (@nil row).
    + cbn [app]. rewrite filter_app, map_app, <- app_assoc. rewrite (@filter_none _ _ above).
      * cbn [map app filter fst]. rewrite (proj2 (eqb_eq k k) eq_refl). cbn [map snd app]. eexists. reflexivity.
      * intros [k' x] Hx. cbn. destruct (eqb k k') eqn:E; [|reflexivity]. apply eqb_eq in E. subst. exfalso. apply Ha. now apply (in_map fst) in Hx.
    + symmetry. induction before as [|t before IH]; [reflexivity|]. cbn [flat_map]. rewrite IH; [|intros; apply Hb; now right].
      rewrite (@filter_none _ _ (p_rows t)); [reflexivity|]. intros [k' x] Hx. cbn. destruct (eqb k k') eqn:E; [|reflexivity].
      apply eqb_eq in E. subst. exfalso. apply (Hb t (or_introl eq_refl)). now apply (in_map fst) in Hx.
  - intros (rs & E). induction sources as [|t sources IH]; [easy|]. unfold definitions in E. cbn [flat_map] in E.
    destruct (map snd (filter (fun kr => eqb k (fst kr)) (p_rows t))) as [|x xs] eqn:Et.
    + destruct (IH E) as (before & src & after & above & below & -> & Es & Ha & Hb). exists (t :: before), src, after, above, below.
      split; [reflexivity|]. split; [assumption|]. split; [assumption|]. intros u [<-|Hu]; [|now apply Hb].
      intros Hk. apply in_map_iff in Hk as ([k' y] & Ek & Hy). cbn in Ek. subst k'.
      assert (In y (map snd (filter (fun kr => eqb k (fst kr)) (p_rows t)))) as Hin.
      { apply in_map_iff. exists (k, y). split; [reflexivity|]. apply filter_In. split; [assumption|]. now apply eqb_eq. }
      now rewrite Et in Hin.
    + cbn [app] in E. injection E as -> _. clear IH. 
      enough (exists above below, p_rows t = above ++ (k, r) :: below /\ ~ In k (map fst above)) as (above & below & Hr & Ha).
      { exists [], t, sources, above, below. split; [reflexivity|]. split; [assumption|]. split; [assumption|]. now intros u []. }
      revert Et. generalize (p_rows t) as l. induction l as [|[k' y] l IH]; [easy|]. cbn [filter fst]. destruct (eqb k k') eqn:Ek.
      * apply eqb_eq in Ek. subst k'. cbn [map snd]. intros Et. injection Et as -> _. exists [], l. split; [reflexivity|easy].
      * intros Et. destruct (IH Et) as (above & below & -> & Ha). exists ((k', y) :: above), below. split; [reflexivity|].
        cbn. intros [->|H]; [|now apply Ha]. rewrite (proj2 (eqb_eq k k) eq_refl) in Ek. discriminate.
Qed.

(** ** The conversion of rows *)

Lemma converted_ext e divide unit arg old old' new new' : (forall f, old f = old' f) -> (forall f, new f = new' f) ->
  converted e divide unit arg old new -> converted e divide unit arg old' new'.
Proof.
  intros Ho Hn [(E & H)|[(E & H)|(u & fu & a & E & Hu & Ha & Hd & H)]].
  - left. split; [assumption|]. intros f. now rewrite <- Ho, <- Hn.
  - right. left. rewrite <- Ho. split; [assumption|]. intros f. now rewrite <- Ho, <- Hn.
  - right. right. exists u, fu, a. repeat (split; [assumption|]).
    destruct H as (family & p0 & p1 & Hf & Hs & H0 & N0 & H1 & N1 & N2 & Hl & Hr). exists family, p0, p1.
    rewrite <- !Ho, <- !Hn. repeat (split; [assumption|]). split.
    + intros field Hin. specialize (Hl field Hin). rewrite <- Ho, <- Hn. exact Hl.
    + intros field Hin. rewrite <- Ho, <- Hn. now apply Hr.
Qed.
Lemma stands_blank e p : stands_for e VBlank p -> p = PNone.
Proof. intros H. now inversion H. Qed.
Lemma converted_blank e divide unit arg old new f : converted e divide unit arg old new -> old f = VBlank -> new f = VBlank.
Proof.
  intros [(E & H)|[(E & H)|(u & fu & a & E & Hu & Ha & Hd & H)]] Hf.
  - now rewrite H.
  - now rewrite H.
  - destruct H as (family & p0 & p1 & Hfam & Hs & H0 & N0 & H1 & N1 & N2 & Hl & Hr).
    destruct (in_dec string_dec f ["Theta_0"; "Theta_1"; "Theta_2"; "TruncateLower"; "TruncateUpper"]) as [Hin|Hn]; [|now rewrite Hr].
    assert (Ht : In f ["TruncateLower"; "TruncateUpper"] -> new f = VBlank) by (intros Hi; specialize (Hl f Hi); now rewrite Hf in Hl).
    destruct Hin as [<-|[<-|[<-|[<-|[<-|[]]]]]].
    + rewrite Hf in H0. apply stands_blank in H0. now subst p0.
    + rewrite Hf in H1. apply stands_blank in H1. subst p1. rewrite N1. now destruct (second_of family).
    + assumption.
    + apply Ht. now left.
    + apply Ht. right. now left.
Qed.

(** The conversion as the model computes it; it depends on the cells only. *)
Lemma convert_scaled_ext e divide fu arg old old' family n : (forall f, old f = old' f) -> convert_scaled e divide fu arg old family = Ok n ->
  exists n', convert_scaled e divide fu arg old' family = Ok n' /\ forall f, n f = n' f.
Proof.
  intros Ho H. unfold convert_scaled in *. rewrite <- !Ho. binv H p0. binv H p1. binv H p2. binv H fa. cbn [bind].
  destruct (divide && Qceqb fa 0); [discriminate|]. binv H lo. binv H hi. cbn [bind]. binv H x. cbn [bind]. destruct x as [[n0 n1] n2].
  binv H v0. binv H v1. binv H v2. injection H as <-. cbn [bind]. eexists. split; [reflexivity|]. intros f. cbv beta. now rewrite Ho.
Qed.
Lemma convert_marginal_ext e divide unit arg old old' n : (forall f, old f = old' f) -> convert_marginal e divide unit arg old = Ok n ->
  exists n', convert_marginal e divide unit arg old' = Ok n' /\ forall f, n f = n' f.
Proof.
  intros Ho H. unfold convert_marginal in *. destruct unit as [|q|u]; [|discriminate|].
  - injection H as <-. exists old'. auto.
  - binv H fu. cbn [bind]. rewrite <- Ho. destruct (old "Family") as [|q|fam]; [now apply (convert_scaled_ext _ _ _ _ old)|discriminate|].
    destruct (String.eqb fam "empirical"); [|now apply (convert_scaled_ext _ _ _ _ old)]. injection H as <-. exists old'. auto.
Qed.
Definition conv (e : penv) (divide : bool) (unit : value) (arg : option value) (old new : string -> value) : Prop :=
  exists n, convert_marginal e divide unit arg old = Ok n /\ forall f, n f = new f.
Lemma conv_ext e divide unit arg old old' new new' : (forall f, old f = old' f) -> (forall f, new f = new' f) ->
  conv e divide unit arg old new -> conv e divide unit arg old' new'.
Proof.
  intros Ho Hn (n & H & En). destruct (convert_marginal_ext _ _ _ _ _ _ _ Ho H) as (n' & H' & En'). exists n'. split; [assumption|].
  intros f. now rewrite <- En', En, Hn.
Qed.
Lemma conv_converted e divide unit arg old new : conv e divide unit arg old new -> converted e divide unit arg old new.
Proof. intros (n & H & En). apply convert_marginal_spec in H. now apply (converted_ext e divide unit arg old old n new). Qed.
Lemma conv_fun e divide unit arg old new new' : conv e divide unit arg old new -> conv e divide unit arg old new' -> forall f, new f = new' f.
Proof. intros (n & H & En) (n' & H' & En') f. rewrite H in H'. injection H' as <-. now rewrite <- En, <- En'. Qed.
Lemma conv_blank e divide unit arg old new f : conv e divide unit arg old new -> old f = VBlank -> new f = VBlank.
Proof. intros H. apply conv_converted in H. exact (converted_blank _ _ _ _ _ _ _ H). Qed.

Lemma convert_row_spec e divide unit arg groups r r' : convert_row e divide unit arg groups r = Ok r' ->
  map fst r' = map fst r /\
  (forall g, In g groups -> conv e divide (at_col r unit) (option_map (at_col r) arg) (fun f => at_col r (g, f)) (fun f => at_col r' (g, f))) /\
  (forall g f, ~ In g groups -> at_col r' (g, f) = at_col r (g, f)).
Proof.
  intros H. unfold convert_row in H. binv H news. injection H as <-.
  assert (Hk : map fst news = groups).
  { apply mapM_Forall2 in E. clear - E. induction E as [|g n l l' Hgn _ IH]; [reflexivity|]. binv Hgn x. injection Hgn as <-. cbn. now f_equal. }
  assert (Hat : forall c, at_col (map (fun cv : col * value => match dget (fst (fst cv)) news with Some new => (fst cv, new (snd (fst cv))) | None => cv end) r) c =
                          match dget (fst c) news with Some new => if existsb (pair_eqb c) (map fst r) then new (snd c) else VBlank | None => at_col r c end).
  { intros c. unfold at_col. clear E. induction r as [|[c' v] r IH]; cbn [map aget existsb fst snd].
    - now destruct (dget (fst c) news).
    - destruct (pair_eqb c c') eqn:Ec; cbn [fst snd].
      + apply pair_eqb_eq in Ec. subst c'. destruct (dget (fst c) news); cbn [fst]; now rewrite (proj2 (pair_eqb_eq c c) eq_refl).
      + assert (Hf : fst (match dget (fst c') news with Some new => (c', new (snd c')) | None => (c', v) end) = c') by now destruct (dget (fst c') news).
        destruct (match dget (fst c') news with Some new => (c', new (snd c')) | None => (c', v) end) as [c'' v''] eqn:Em.
        cbn [fst] in Hf. subst c''. rewrite Ec. exact IH. }
  split; [|split].
  - rewrite map_map. apply map_ext. intros [c v]. cbn [fst snd]. now destruct (dget (fst c) news).
  - intros g Hg. destruct (dget g news) as [new|] eqn:Eg.
    + pose proof Eg as Hin. apply dget_In in Hin. destruct (mapM_inv_r _ _ _ E Hin) as (g' & Hg' & _). binv Hg' x. injection Hg' as -> ->.
      exists new. split; [assumption|]. intros f. rewrite Hat. cbn [fst snd]. rewrite Eg.
      destruct (existsb (pair_eqb (g, f)) (map fst r)) eqn:Ef; [reflexivity|]. apply convert_marginal_spec in E0. apply (converted_blank _ _ _ _ _ _ _ E0). apply at_col_notin.
      now apply existsb_pair_false in Ef.
    + exfalso. rewrite <- Hk in Hg. apply in_map_iff in Hg as ([g' n] & Eg' & Hin). cbn in Eg'. subst g'. 
      apply dget_None in Eg. apply Eg. now apply (in_map fst) in Hin.
  - intros g f Hg. rewrite Hat. cbn [fst]. destruct (dget g news) as [new|] eqn:Eg; [|reflexivity]. exfalso. apply Hg. rewrite <- Hk.
    apply dget_In in Eg. now apply (in_map fst) in Eg.
Qed.

(** ** Damage parameters *)

Lemma NoDup_map_filter {A B} (g : A -> B) p l : NoDup (map g l) -> NoDup (map g (filter p l)).
Proof.
  induction l as [|x l IH]; [easy|]. cbn [map filter]. intros H. inversion H as [|? ? Hn Hd]; subst. destruct (p x); [|auto].
  cbn [map]. constructor; [|auto]. intros Hin. apply Hn. apply in_map_iff in Hin as (y & E & Hy). apply filter_In in Hy as [Hy _].
  rewrite <- E. now apply in_map.
Qed.
Lemma is_one_eq v : is_one v = true <-> v = VNum 1.
Proof.
  destruct v as [|q|s]; cbn; [easy| |easy]. rewrite Qceqb_true. split; [now intros ->|]. intros H. now injection H.
Qed.
Lemma remove_incomplete_rows {K} (t : ptable K) kr : proper t -> (In kr (p_rows (remove_incomplete t)) <-> In kr (p_rows t) /\ usable (snd kr)).
Proof.
  intros [_ Hp]. unfold remove_incomplete, usable. destruct (has_col t ("Incomplete", "")) eqn:E.
  - cbn [p_rows]. rewrite filter_In, negb_true_iff. apply and_iff_compat_l. rewrite <- is_one_eq. now destruct (is_one (at_col (snd kr) ("Incomplete", ""))).
  - split; [|easy]. intros H. split; [assumption|]. apply existsb_pair_false in E. rewrite at_col_notin; [easy|]. destruct kr as [k r]. cbn. now rewrite (Hp k r H).
Qed.
Lemma remove_incomplete_cols {K} (t : ptable K) : p_cols (remove_incomplete t) = p_cols t.
Proof. unfold remove_incomplete. now destruct (has_col t ("Incomplete", "")). Qed.
Lemma remove_incomplete_NoDup {K} (t : ptable K) : NoDup (map fst (p_rows t)) -> NoDup (map fst (p_rows (remove_incomplete t))).
Proof. unfold remove_incomplete. destruct (has_col t ("Incomplete", "")); [|auto]. cbn [p_rows]. apply NoDup_map_filter. Qed.
Lemma keep_rows_proper {K} p (t : ptable K) : proper t -> proper (keep_rows p t).
Proof. intros [H H']. split; [assumption|]. cbn. intros k r Hin. apply filter_In in Hin as [Hin _]. now apply (H' k). Qed.
Lemma keep_rows_In {K} p (t : ptable K) k r : In (k, r) (p_rows (keep_rows p t)) <-> In (k, r) (p_rows t) /\ p k = true.
Proof. cbn. now rewrite filter_In. Qed.

Lemma headings_In {K} (t : ptable K) p g : In g (headings t p) <-> (exists f, In (g, f) (p_cols t)) /\ p g = true.
Proof.
  unfold headings. rewrite filter_In. apply and_iff_compat_r. rewrite (unique_In String.eqb String.eqb_eq), in_map_iff. split.
  - intros ([g' f] & E & H). cbn in E. subst. eauto.
  - intros (f & H). now exists (g, f).
Qed.

Lemma drop_at (r : row) d c : at_col (filter (fun cv : col * value => negb (pair_eqb (fst cv) d)) r) c = if pair_eqb c d then VBlank else at_col r c.
Proof.
  unfold at_col. induction r as [|[c' v] r IH]; cbn [filter fst aget]; [now destruct (pair_eqb c d)|].
  destruct (pair_eqb c' d) eqn:E; cbn [negb aget fst].
  - rewrite IH. destruct (pair_eqb c d) eqn:Ed; [reflexivity|]. destruct (pair_eqb c c') eqn:Ec; [|reflexivity].
    apply pair_eqb_eq in Ec, E. subst. rewrite (proj2 (pair_eqb_eq d d) eq_refl) in Ed. discriminate.
  - destruct (pair_eqb c c') eqn:Ec; [|exact IH]. apply pair_eqb_eq in Ec. subst c'. now rewrite E.
Qed.

(** Rows with the same cells. *)
Definition same_cells (r r' : row) : Prop := forall c, at_col r c = at_col r' c.

Lemma convert_damage_spec e t t' : proper t -> convert_damage e t = Ok t' ->
  map fst (p_rows t') = map fst (p_rows t) /\
  p_cols t' = filter (fun c => negb (pair_eqb c demand_unit)) (p_cols t) /\ proper t' /\ has_col t demand_unit = true /\
  (forall k r', In (k, r') (p_rows t') -> exists r, In (k, r) (p_rows t) /\
     (forall g, (exists f, In (g, f) (p_cols t)) -> starts_with "LS" g = true ->
        conv e true (at_col r demand_unit) None (fun field => at_col r (g, field)) (fun field => at_col r' (g, field))) /\
     (forall g f, starts_with "LS" g = false -> (g, f) <> demand_unit -> at_col r' (g, f) = at_col r (g, f)) /\
     at_col r' demand_unit = VBlank).
Proof.
  intros [Hn Hp] H. unfold convert_damage in H. destruct (has_col t demand_unit) eqn:Eu; [|discriminate]. binv H rows. injection H as <-.
  cbn [p_rows p_cols]. pose proof (proj1 (mapM_Forall2 _ _ _) E) as HF.
  assert (Hrow : forall k r', In (k, r') rows -> exists r r1, In (k, r) (p_rows t) /\
            convert_row e true demand_unit None (headings t (starts_with "LS")) r = Ok r1 /\
            r' = filter (fun cv : col * value => negb (pair_eqb (fst cv) demand_unit)) r1).
  { intros k r' Hin. destruct (mapM_inv_r _ _ _ E Hin) as ([k0 r] & Hr & Hin0). cbn [fst snd] in Hr. binv Hr r1. injection Hr as -> <-. exists r, r1. now repeat split. }
  split; [|split; [reflexivity|split; [|split; [reflexivity|]]]].
  - clear - HF. induction HF as [|x y l l' Hxy _ IH]; [reflexivity|]. binv Hxy r1. injection Hxy as <-. cbn. now f_equal.
  - split; cbn [p_cols p_rows]; [now apply NoDup_filter|]. intros k r' Hin. destruct (Hrow k r' Hin) as (r & r1 & Hr & Hc & ->).
    destruct (convert_row_spec _ _ _ _ _ _ _ Hc) as (Hf & _). rewrite <- (Hp k r Hr), <- Hf. clear. induction r1 as [|[c v] r1 IH]; [reflexivity|].
    cbn [map filter fst]. destruct (negb (pair_eqb c demand_unit)); cbn [map fst]; now rewrite IH.
  - intros k r' Hin. destruct (Hrow k r' Hin) as (r & r1 & Hr & Hc & ->). destruct (convert_row_spec _ _ _ _ _ _ _ Hc) as (Hf & Hg & Ho).
    exists r. split; [assumption|]. split; [|split].
    + intros g Hgc Hls. assert (Hgi : In g (headings t (starts_with "LS"))) by (apply headings_In; now split).
      eapply conv_ext; [| |apply (Hg g Hgi)]; [reflexivity|]. intros f. cbn beta. rewrite drop_at.
      destruct (pair_eqb (g, f) demand_unit) eqn:Ed; [|reflexivity]. apply pair_eqb_eq in Ed. injection Ed as -> _. discriminate.
    + intros g f Hls Hd. rewrite drop_at. destruct (pair_eqb (g, f) demand_unit) eqn:Ed; [now apply pair_eqb_eq in Ed|].
      apply Ho. rewrite headings_In. intros [_ H]. congruence.
    + rewrite drop_at. now rewrite (proj2 (pair_eqb_eq demand_unit demand_unit) eq_refl).
Qed.

Lemma one_each_merged (old : option (ptable string)) pick : (forall v, pick [v] = v) -> one_each old -> merged_opt String.eqb pick (loaded_before old) old.
Proof. intros Hpick H. destruct old as [t|]; [|reflexivity]. destruct H. now apply (merged_self String.eqb String.eqb_eq). Qed.

Lemma first_value_definition (sources : list (ptable string)) t k r : merged String.eqb first_value sources t -> In (k, r) (p_rows t) ->
  exists r0, first_definition sources k r0 /\ forall c, at_col r c = at_col r0 c.
Proof.
  intros (_ & _ & Hk & Hv & _) Hin. assert (Hd : definitions String.eqb sources k <> []).
  { apply (definitions_In String.eqb String.eqb_eq), Hk. now apply (in_map fst) in Hin. }
  destruct (definitions String.eqb sources k) as [|r0 rs] eqn:E; [easy|]. exists r0. split.
  - apply (definitions_first String.eqb String.eqb_eq). now exists rs.
  - intros c. rewrite (Hv k r c Hin), E. reflexivity.
Qed.
Lemma first_definition_fun {K} (eqb : K -> K -> bool) (eqb_eq : forall a b, eqb a b = true <-> a = b) sources (k : K) r r' :
  first_definition sources k r -> first_definition sources k r' -> r = r'.
Proof.
  intros H H'. apply (definitions_first eqb eqb_eq) in H as (rs & E), H' as (rs' & E'). rewrite E in E'. now injection E'.
Qed.
Lemma first_definition_source {K} sources (k : K) r : first_definition sources k r -> exists src, In src sources /\ In (k, r) (p_rows src).
Proof.
  intros (before & src & after & above & below & -> & Es & _). exists src. split; [apply in_or_app; right; now left|]. rewrite Es. apply in_or_app. right. now left.
Qed.
Lemma has_definition {K} (eqb : K -> K -> bool) (eqb_eq : forall a b, eqb a b = true <-> a = b) sources (k : K) :
  (exists src, In src sources /\ In k (map fst (p_rows src))) <-> exists r, first_definition sources k r.
Proof.
  rewrite <- (definitions_In eqb eqb_eq). split.
  - destruct (definitions eqb sources k) as [|r rs] eqn:E; [easy|]. intros _. exists r. apply (definitions_first eqb eqb_eq). now exists rs.
  - intros (r & H). apply (definitions_first eqb eqb_eq) in H as (rs & E). now rewrite E.
Qed.

(** [damage_row] with the conversion of the model. *)
Definition damage_row_c (e : penv) (r0 r : row) : Prop :=
  (forall g f, In (g, f) (map fst r0) -> starts_with "LS" g = true ->
     conv e true (at_col r0 ("Demand", "Unit")) None (fun field => at_col r0 (g, field)) (fun field => at_col r (g, field))) /\
  (forall g f, starts_with "LS" g = false -> (g, f) <> ("Demand", "Unit") -> at_col r (g, f) = at_col r0 (g, f)) /\
  at_col r ("Demand", "Unit") = VBlank /\
  forall c, ~ In c (map fst r0) -> at_col r c = VBlank.
Lemma damage_row_c_spec e r0 r : damage_row_c e r0 r -> damage_row e r0 r.
Proof. intros (H & H'). split; [|assumption]. intros g f Hin Hs. apply conv_converted. now apply (H g f). Qed.
Lemma damage_row_c_fun e r0 r r' : damage_row_c e r0 r -> damage_row_c e r0 r' -> same_cells r r'.
Proof.
  intros (H1 & H2 & H3 & H4) (H1' & H2' & H3' & H4') [g f]. destruct (existsb (pair_eqb (g, f)) (map fst r0)) eqn:E.
  - apply existsb_pair in E. destruct (starts_with "LS" g) eqn:Es.
    + exact (conv_fun _ _ _ _ _ _ _ (H1 g f E Es) (H1' g f E Es) f).
    + destruct (pair_eqb (g, f) demand_unit) eqn:Ed; [apply pair_eqb_eq in Ed; rewrite Ed; unfold demand_unit; now rewrite H3, H3'|].
      rewrite H2, H2'; try assumption; try reflexivity; intros Hx; rewrite <- not_true_iff_false in Ed; apply Ed, pair_eqb_eq; exact Hx.
  - apply existsb_pair_false in E. now rewrite H4, H4'.
Qed.
(** Loaded parameters have no unit: they are not converted again. *)
Lemma damage_row_c_again e r0 r : at_col r0 ("Demand", "Unit") = VBlank -> damage_row_c e r0 r -> same_cells r r0.
Proof.
  intros Hu (H1 & H2 & H3 & H4) [g f]. destruct (existsb (pair_eqb (g, f)) (map fst r0)) eqn:E.
  - apply existsb_pair in E. destruct (starts_with "LS" g) eqn:Es.
    + destruct (H1 g f E Es) as (n & Hn & En). rewrite Hu in Hn. injection Hn as <-. symmetry. apply (En f).
    + destruct (pair_eqb (g, f) demand_unit) eqn:Ed; [apply pair_eqb_eq in Ed; rewrite Ed; unfold demand_unit; now rewrite H3|].
      apply H2; [assumption|]. intros Hx; rewrite <- not_true_iff_false in Ed; apply Ed, pair_eqb_eq; exact Hx.
  - apply existsb_pair_false in E. rewrite H4 by assumption. symmetry. now apply at_col_notin.
Qed.

Theorem load_damage_spec e cmp_set old sources t missing : one_each old -> (forall s, In s sources -> proper s) ->
  load_damage e cmp_set old sources = Ok (Some t, missing) ->
  proper t /\ NoDup (map fst (p_rows t)) /\
  (forall k r, In (k, r) (p_rows t) -> exists r0, first_definition (loaded_before old ++ sources) k r0 /\ In k cmp_set /\ usable r0 /\ damage_row_c e r0 r) /\
  (forall k r0, first_definition (loaded_before old ++ sources) k r0 -> In k cmp_set -> usable r0 -> exists r, In (k, r) (p_rows t)) /\
  (forall k, In k missing <-> In k cmp_set /\ ~ exists r, In (k, r) (p_rows t)).
Proof.
  intros Hold Hp H. unfold load_damage in H. binv H ot. destruct ot as [m|]; [|discriminate]. binv H t1. injection H as -> <-.
  assert (Hm : merged String.eqb first_value (loaded_before old ++ sources) m).
  { refine (merge_all String.eqb str_le String.eqb_eq first_value first_value_blank first_value_app _ _ sources (loaded_before old) old (Some m) _ Hp E).
    - intros o d o' Ho. cbv beta in Ho. destruct (has_group d "LS1"); [|discriminate]. now injection Ho.
    - now apply one_each_merged. }
  set (kept := keep_rows (fun k => mem k cmp_set) m) in *.
  assert (Hkp : proper kept) by (apply keep_rows_proper; apply Hm).
  assert (Hcp : proper (remove_incomplete kept)).
  { split; [rewrite remove_incomplete_cols; apply Hkp|]. intros k r Hin. rewrite remove_incomplete_cols. apply remove_incomplete_rows in Hin as [Hin _]; [|assumption]. now apply (proj2 Hkp k). }
  assert (Hrows : forall k r, In (k, r) (p_rows (remove_incomplete kept)) <-> In (k, r) (p_rows m) /\ In k cmp_set /\ usable r).
  { intros k r. rewrite remove_incomplete_rows by assumption. cbn [snd]. unfold kept. rewrite keep_rows_In, mem_true. tauto. }
  destruct (convert_damage_spec e _ _ Hcp E0) as (Hk & Hc & Htp & Hu & Hr).
  assert (Hnd : NoDup (map fst (p_rows t))).
  { rewrite Hk. apply remove_incomplete_NoDup. unfold kept. cbn [p_rows keep_rows]. apply NoDup_map_filter. apply Hm. }
  assert (Hin : forall k, (exists r, In (k, r) (p_rows t)) <-> exists r, In (k, r) (p_rows (remove_incomplete kept))).
  { intros k. assert (Hks : forall T : ptable string, (exists r, In (k, r) (p_rows T)) <-> In k (map fst (p_rows T))).
    { intros T. rewrite in_map_iff. split; [intros (r & Hr'); now exists (k, r)|]. intros ([k' r] & Ek & Hr'). cbn in Ek. subst. eauto. }
    rewrite !Hks. now rewrite Hk. }
  assert (Hres : forall k r, In (k, r) (p_rows t) -> exists r0, first_definition (loaded_before old ++ sources) k r0 /\ In k cmp_set /\ usable r0 /\ damage_row_c e r0 r).
  { intros k r Hkr. destruct (Hr k r Hkr) as (r1 & Hr1 & Hls & Hoth & Hun). apply Hrows in Hr1 as (Hr1 & Hks & Hus).
    destruct (first_value_definition _ _ k r1 Hm Hr1) as (r0 & Hfd & Hsame). exists r0. split; [assumption|]. split; [assumption|].
    split; [unfold usable in *; now rewrite <- Hsame|]. 
    destruct (first_definition_source _ _ _ Hfd) as (src & Hsrc & Hr0).
    assert (Hcols : forall c, In c (map fst r0) -> In c (p_cols (remove_incomplete kept))).
    { intros c Hcin. rewrite remove_incomplete_cols. apply Hm. exists src. split; [assumption|].
      assert (Hps : proper src). { apply in_app_or in Hsrc as [Hs|Hs]; [|now apply Hp]. destruct old as [o|]; [|easy]. destruct Hs as [<-|[]]. apply Hold. }
      now rewrite <- (proj2 Hps k r0 Hr0). }
    split; [|split; [|split]].
    - intros g f Hgf Hst. unfold demand_unit in Hls. rewrite <- Hsame. eapply conv_ext; [| |apply (Hls g); [exists f; now apply Hcols|assumption]]; [|reflexivity].
      intros x. apply Hsame.
    - intros g f Hst Hd. rewrite <- Hsame. now apply Hoth.
    - exact Hun.
    - intros [g f] Hcn. assert (Hb : at_col r1 (g, f) = VBlank) by (rewrite Hsame; now apply at_col_notin).
      destruct (pair_eqb (g, f) demand_unit) eqn:Ed; [apply pair_eqb_eq in Ed; now rewrite Ed|].
      assert (Hd : (g, f) <> demand_unit) by (intros Hx; rewrite Hx, (proj2 (pair_eqb_eq demand_unit demand_unit) eq_refl) in Ed; discriminate).
      destruct (starts_with "LS" g) eqn:Es; [|rewrite Hoth; assumption].
      destruct (existsb (pair_eqb (g, f)) (p_cols t)) eqn:Ec.
      + apply existsb_pair in Ec. rewrite Hc in Ec. apply filter_In in Ec as [Ec _].
        apply (@conv_blank _ _ _ _ _ _ f (Hls g (ex_intro _ f Ec) Es)). exact Hb.
      + apply existsb_pair_false in Ec. apply at_col_notin. now rewrite (proj2 Htp k r Hkr). }
  repeat (split; [assumption|]). split.
  - intros k r0 Hfd Hks Hus. apply Hin. assert (Hkm : In k (map fst (p_rows m))).
    { apply Hm. apply (has_definition String.eqb String.eqb_eq). now exists r0. }
    apply in_map_iff in Hkm as ([k' r1] & Ek & Hr1). cbn in Ek. subst k'. exists r1. apply Hrows. split; [assumption|]. split; [assumption|].
    destruct (first_value_definition _ _ k r1 Hm Hr1) as (r0' & Hfd' & Hsame). rewrite (first_definition_fun String.eqb String.eqb_eq _ _ _ _ Hfd Hfd') in Hus.
    unfold usable in *. now rewrite Hsame.
  - intros k. rewrite filter_In, negb_true_iff. apply and_iff_compat_l.
    split.
    + intros Hf (r & Hr'). apply (in_map fst) in Hr'. apply mem_true in Hr'. cbn in Hr'. congruence.
    + intros Hn. destruct (mem k (map fst (p_rows t))) eqn:Em; [|reflexivity]. apply mem_true in Em. exfalso. apply Hn.
      apply in_map_iff in Em as ([k' r] & Ek & Hr'). cbn in Ek. subst. eauto.
Qed.
Lemma load_damage_none e cmp_set old sources missing : load_damage e cmp_set old sources = Ok (None, missing) -> old = None /\ sources = [] /\ missing = cmp_set.
Proof.
  intros H. unfold load_damage in H. binv H ot. destruct ot as [m|]; [binv H t1; discriminate|]. injection H as <-.
  destruct sources as [|s sources]; [injection E as ->; now repeat split|]. exfalso. revert old s E. induction sources as [|s' sources IH]; intros old s E; cbn [foldM] in E; binv E o.
  - destruct (has_group s "LS1"); [|discriminate]. injection E0 as <-. discriminate.
  - destruct (has_group s "LS1"); [|discriminate]. injection E0 as <-. exact (IH _ s' E).
Qed.

(** Two calls. *)
Lemma first_definition_app {K} (eqb : K -> K -> bool) (eqb_eq : forall a b, eqb a b = true <-> a = b) (a b : list (ptable K)) k r :
  first_definition (a ++ b) k r <-> first_definition a k r \/ ((forall r', ~ first_definition a k r') /\ first_definition b k r).
Proof.
  setoid_rewrite (definitions_first eqb eqb_eq). unfold definitions. rewrite flat_map_app.
  destruct (flat_map (fun t => map snd (filter (fun kr => eqb k (fst kr)) (p_rows t))) a) as [|x xs]; cbn [app].
  - split; [intros H; right; split; [now intros r' (rs & Hr)|assumption]|]. intros [(rs & H)|[_ H]]; [discriminate|assumption].
  - split.
    + intros (rs & E). injection E as -> _. left. now exists xs.
    + intros [(rs & E)|[H _]]; [injection E as -> _; eexists; reflexivity|]. exfalso. apply (H x). now exists xs.
Qed.
Lemma first_definition_one {K} (t : ptable K) k r : NoDup (map fst (p_rows t)) -> (first_definition [t] k r <-> In (k, r) (p_rows t)).
Proof.
  intros Hn. split.
  - intros H. now apply first_definition_source in H as (src & [<-|[]] & H).
  - intros H. destruct (in_split _ _ H) as (above & below & E). exists [], t, [], above, below. split; [reflexivity|]. split; [assumption|].
    split; [|now intros u []]. rewrite E, map_app in Hn. cbn [map fst] in Hn. apply NoDup_remove_2 in Hn. intros Hin. apply Hn, in_or_app. now left.
Qed.

Theorem load_damage_twice e cmp_set a b t1 m1 t2 m2 t m : (forall s, In s (a ++ b) -> proper s) ->
  (forall k r, first_definition a k r -> In k cmp_set -> usable r) ->
  load_damage e cmp_set None a = Ok (Some t1, m1) -> load_damage e cmp_set (Some t1) b = Ok (Some t2, m2) ->
  load_damage e cmp_set None (a ++ b) = Ok (Some t, m) ->
  (forall k, In k (map fst (p_rows t2)) <-> In k (map fst (p_rows t))) /\
  (forall k r r2, In (k, r) (p_rows t) -> In (k, r2) (p_rows t2) -> same_cells r r2) /\
  (forall k, In k m2 <-> In k m).
Proof.
  intros Hp Hus L1 L2 L.
  assert (Hpa : forall s, In s a -> proper s) by (intros; apply Hp, in_or_app; now left).
  assert (Hpb : forall s, In s b -> proper s) by (intros; apply Hp, in_or_app; now right).
  destruct (load_damage_spec e cmp_set None a t1 m1 I Hpa L1) as (P1 & N1 & R1 & C1 & M1).
  destruct (load_damage_spec e cmp_set (Some t1) b t2 m2 (conj P1 N1) Hpb L2) as (P2 & N2 & R2 & C2 & M2).
  destruct (load_damage_spec e cmp_set None (a ++ b) t m I Hp L) as (P & N & R & C & M).
  cbn [loaded_before app] in *. change (t1 :: b) with ([t1] ++ b) in *.
  assert (Hks : forall (T : ptable string) k, In k (map fst (p_rows T)) <-> exists r, In (k, r) (p_rows T)).
  { intros T k. rewrite in_map_iff. split; [intros ([k' r] & Ek & Hr'); cbn in Ek; subst; eauto|]. intros (r & Hr'). now exists (k, r). }
  assert (Husr1 : forall k r0 r, first_definition a k r0 -> damage_row_c e r0 r -> In k cmp_set -> usable r).
  { intros k r0 r Hf (_ & H2 & _) Hk. unfold usable. rewrite (H2 "Incomplete" ""); [|reflexivity|discriminate]. now apply (Hus k). }
  assert (Hkey : forall k, (exists r, In (k, r) (p_rows t2)) <-> exists r, In (k, r) (p_rows t)).
  { intros k. split.
    - intros (r & Hr). destruct (R2 k r Hr) as (r0 & Hfd & Hk & Hu & _). apply (first_definition_app String.eqb String.eqb_eq) in Hfd as [Hfd|[Hno Hfd]].
      + apply (first_definition_one t1 k r0 N1) in Hfd. destruct (R1 k r0 Hfd) as (r00 & Hf & _ & Hu' & _).
        apply (C k r00); try assumption. apply (first_definition_app String.eqb String.eqb_eq). now left.
      + apply (C k r0); try assumption. apply (first_definition_app String.eqb String.eqb_eq). right. split; [|assumption].
        intros r' Hr'. destruct (C1 k r' Hr' Hk (Hus k r' Hr' Hk)) as (x & Hx). apply (Hno x). now apply (first_definition_one t1 k x N1).
    - intros (r & Hr). destruct (R k r Hr) as (r0 & Hfd & Hk & Hu & _). apply (first_definition_app String.eqb String.eqb_eq) in Hfd as [Hfd|[Hno Hfd]].
      + destruct (C1 k r0 Hfd Hk Hu) as (r1 & Hr1). apply (C2 k r1); try assumption.
        * apply (first_definition_app String.eqb String.eqb_eq). left. now apply (first_definition_one t1 k r1 N1).
        * destruct (R1 k r1 Hr1) as (r0' & Hfd' & _ & _ & Hd). now apply (Husr1 k r0' r1).
      + apply (C2 k r0); try assumption. apply (first_definition_app String.eqb String.eqb_eq). right. split; [|assumption].
        intros r' Hr'. apply (first_definition_one t1 k r' N1) in Hr'. destruct (R1 k r' Hr') as (x & Hx & _). now apply (Hno x). }
  split; [|split].
  - intros k. rewrite !Hks. apply Hkey.
  - intros k r r2 Hr Hr2. destruct (R k r Hr) as (r0 & Hfd & Hk & _ & Hd). destruct (R2 k r2 Hr2) as (r0' & Hfd' & _ & _ & Hd').
    apply (first_definition_app String.eqb String.eqb_eq) in Hfd' as [Hfd'|[Hno Hfd']].
    + apply (first_definition_one t1 k r0' N1) in Hfd'. destruct (R1 k r0' Hfd') as (r00 & Hf & _ & _ & Hd1).
      assert (r00 = r0) as ->.
      { apply (first_definition_fun String.eqb String.eqb_eq (a ++ b) k); [|assumption]. apply (first_definition_app String.eqb String.eqb_eq). now left. }
      intros c. rewrite (damage_row_c_fun e r0 r r0' Hd Hd1 c). symmetry. exact (damage_row_c_again e r0' r2 (proj1 (proj2 (proj2 Hd1))) Hd' c).
    + assert (r0' = r0) as ->.
      { apply (first_definition_fun String.eqb String.eqb_eq (a ++ b) k); [|assumption]. apply (first_definition_app String.eqb String.eqb_eq). right. split; [|assumption].
        intros r' Hr'. destruct (C1 k r' Hr' Hk (Hus k r' Hr' Hk)) as (x & Hx). apply (Hno x). now apply (first_definition_one t1 k x N1). }
      now apply (damage_row_c_fun e r0).
  - intros k. rewrite M2, M, Hkey. reflexivity.
Qed.

(** ** Loss parameters *)

Lemma convert_rows_spec e divide arg groups (rows rows' : list (pkey * row)) :
  mapM (fun kr => let* r := convert_row e divide dv_unit (Some arg) groups (snd kr) in Ok (fst kr, r)) rows = Ok rows' ->
  map fst rows' = map fst rows /\
  forall k r', In (k, r') rows' -> exists r, In (k, r) rows /\ convert_row e divide dv_unit (Some arg) groups r = Ok r'.
Proof.
  intros H. split.
  - apply mapM_Forall2 in H. induction H as [|x y l l' Hxy _ IH]; [reflexivity|]. binv Hxy r1. injection Hxy as <-. cbn. now f_equal.
  - intros k r' Hin. destruct (mapM_inv_r _ _ _ H Hin) as ([k0 r] & Hr & Hin0). cbn [fst snd] in Hr. binv Hr r1. injection Hr as -> ->. now exists r.
Qed.

Lemma keys_rows {K} (rows : list (K * row)) k : In k (map fst rows) <-> exists r, In (k, r) rows.
Proof. rewrite in_map_iff. split; [intros ([k' r] & Ek & Hr'); cbn in Ek; subst; eauto|]. intros (r & Hr'). now exists (k, r). Qed.

(** A table [m] merged from [srcs], cleaned to [c] and converted to [t]. *)
Lemma loss_parameters_from e divide heads arg groups consequences srcs (m c t : ptable pkey) :
  merged pair_eqb first_filled srcs m ->
  (forall k r, In (k, r) (p_rows c) -> exists r1, In (k, r1) (p_rows m) /\ In (fst k) consequences /\ usable r1 /\ same_cells r r1) ->
  (forall k r1, In (k, r1) (p_rows m) -> In (fst k) consequences -> usable r1 -> In k (map fst (p_rows c))) ->
  NoDup (map fst (p_rows c)) ->
  (forall g, In g groups -> heads g = true) ->
  (forall g f k r, heads g = true -> In (k, r) (p_rows c) -> at_col r (g, f) <> VBlank -> In g groups) ->
  mapM (fun kr => let* r := convert_row e divide dv_unit (Some arg) groups (snd kr) in Ok (fst kr, r)) (p_rows c) = Ok (p_rows t) ->
  loss_parameters e divide heads arg consequences srcs (Some t).
Proof.
  intros Hm Hc Hc' Hn Hg Hh H. apply convert_rows_spec in H as [Hk Hr].
  destruct Hm as (_ & Hnm & Hkm & Hvm & _).
  assert (Hfc : forall k r1 x, In (k, r1) (p_rows m) -> first_cell (definitions pair_eqb srcs k) x (at_col r1 x)).
  { intros k r1 x Hin. rewrite (Hvm k r1 x Hin). apply first_filled_cell. }
  assert (Hd : forall k, definitions pair_eqb srcs k <> [] <-> exists r1, In (k, r1) (p_rows m)).
  { intros k. rewrite (definitions_In pair_eqb pair_eqb_eq), <- Hkm. apply keys_rows. }
  assert (Hus : forall k r1, In (k, r1) (p_rows m) -> (usable r1 <-> usable_definitions (definitions pair_eqb srcs k))).
  { intros k r1 Hin. unfold usable, usable_definitions. pose proof (Hfc k r1 ("Incomplete", "") Hin) as Hf. split.
    - intros Hu. split; [apply Hd; eauto|]. intros Hf'. apply Hu. exact (first_cell_fun _ _ _ _ Hf Hf').
    - intros [_ Hu] E. rewrite E in Hf. contradiction. }
  unfold loss_parameters. cbn [rows_of]. split; [now rewrite Hk|]. split.
  - intros k r Hin. destruct (Hr k r Hin) as (r0 & Hr0 & Hcr). destruct (Hc k r0 Hr0) as (r1 & Hr1 & Hkc & Hu & Hsame). split; [assumption|].
    split; [now apply (Hus k r1)|]. exists r0. split; [intros x; rewrite Hsame; now apply Hfc|].
    destruct (convert_row_spec _ _ _ _ _ _ _ Hcr) as (Hf & Hcv & Ho). split; [|split].
    + intros g Hgh (f & Hf'). apply conv_converted. apply Hcv. now apply (Hh g f k r0).
    + intros g f Hgh. apply Ho. intros Hgi. apply Hg in Hgi. congruence.
    + intros [g f] Hb. destruct (in_dec string_dec g groups) as [Hgi|Hgn]; [|now rewrite Ho].
      apply (conv_blank _ _ _ _ _ _ f (Hcv g Hgi)). exact Hb.
  - intros k Hkc Hu. destruct (proj1 (Hd k) (proj1 Hu)) as (r1 & Hr1). apply (keys_rows (p_rows t)). rewrite Hk. apply (Hc' k r1); try assumption. now apply (Hus k r1).
Qed.

Lemma clean_rows consequences (m : ptable pkey) k r : proper m ->
  (In (k, r) (p_rows (remove_incomplete (keep_rows (fun k : pkey => mem (fst k) consequences) m))) <-> In (k, r) (p_rows m) /\ In (fst k) consequences /\ usable r).
Proof.
  intros Hp. rewrite remove_incomplete_rows by now apply keep_rows_proper. cbn [snd]. rewrite keep_rows_In, mem_true. tauto.
Qed.
Lemma clean_proper {K} p (m : ptable K) : proper m -> proper (remove_incomplete (keep_rows p m)).
Proof.
  intros Hp. pose proof (keep_rows_proper p m Hp) as Hkp. split; [rewrite remove_incomplete_cols; apply Hkp|].
  intros k r Hin. rewrite remove_incomplete_cols. apply remove_incomplete_rows in Hin as [Hin _]; [|assumption]. now apply (proj2 Hkp k).
Qed.
Lemma clean_NoDup {K} p (m : ptable K) : NoDup (map fst (p_rows m)) -> NoDup (map fst (p_rows (remove_incomplete (keep_rows p m)))).
Proof. intros H. apply remove_incomplete_NoDup. cbn. now apply NoDup_map_filter. Qed.

(** Dropped columns are blank. *)
Lemma drop_unused_cells (t : ptable pkey) k r c : proper t -> In (k, r) (p_rows t) -> at_col (restrict (p_cols (drop_unused_states t)) r) c = at_col r c.
Proof.
  intros Hp Hin. unfold drop_unused_states. cbn [p_cols]. unfold restrict. rewrite (at_col_map (at_col r)). set (used := fun c : string * string => _).
  destruct (existsb (pair_eqb c) (filter used (p_cols t))) eqn:E; [reflexivity|]. apply existsb_pair_false in E. symmetry.
  destruct (existsb (pair_eqb c) (p_cols t)) eqn:Ec.
  - apply existsb_pair in Ec. destruct (used c) eqn:Eu; [exfalso; apply E, filter_In; now split|].
    unfold used in Eu. apply negb_false_iff, andb_true_iff in Eu as [_ Eu]. rewrite forallb_forall in Eu. specialize (Eu _ Hin). rewrite forallb_forall in Eu.
    specialize (Eu c Ec). cbn [snd] in Eu. rewrite String.eqb_refl in Eu. cbn in Eu. now destruct (at_col r c).
  - apply existsb_pair_false in Ec. apply at_col_notin. now rewrite (proj2 Hp k r Hin).
Qed.
Lemma drop_unused_proper (t : ptable pkey) : proper t -> proper (drop_unused_states t).
Proof.
  intros [Hn _]. split; [now apply NoDup_filter|]. unfold drop_unused_states. cbn [p_rows p_cols]. intros k r Hin. apply in_map_iff in Hin as (kr & E & _).
  injection E as _ <-. apply restrict_cols.
Qed.
Lemma filled_in_cols {K} (t : ptable K) k r c : proper t -> In (k, r) (p_rows t) -> at_col r c <> VBlank -> In c (p_cols t).
Proof.
  intros Hp Hin Hb. destruct (existsb (pair_eqb c) (p_cols t)) eqn:E; [now apply existsb_pair|]. exfalso. apply Hb. apply existsb_pair_false in E.
  apply at_col_notin. now rewrite (proj2 Hp k r Hin).
Qed.

(** The sources of each kind. *)
Definition step_any {K} (eqb le : K -> K -> bool) (pick : list value -> value) (o : option (ptable K)) (d : ptable K) : result (option (ptable K)) := Ok (Some (load_more eqb le pick o d)).
Lemma load_source_split sources : forall old s, foldM load_source old sources = Ok s ->
  foldM (step_any pair_eqb pair_le first_filled) (l_ds old) (state_sources sources) = Ok (l_ds s) /\
  foldM (step_any pair_eqb pair_le first_filled) (l_lf old) (function_sources sources) = Ok (l_lf s) /\
  (forall t, In t sources -> has_col t dv_unit = true /\ consistent t = true) /\
  (forall t, In t (function_sources sources) -> heading t "LossFunction" = true).
Proof.
  induction sources as [|t sources IH]; intros old s H; cbn [foldM] in H.
  - injection H as <-. repeat split; easy.
  - binv H s1. unfold load_source in E. destruct (has_col t dv_unit) eqn:Eu; [|discriminate]. destruct (consistent t) eqn:Ec; [|discriminate]. cbn [negb] in E.
    unfold state_sources, function_sources. cbn [filter]. change (heading t "DS1") with (has_group t "DS1").
    destruct (has_group t "DS1") eqn:Ed; cbn [negb].
    + injection E as <-. destruct (IH _ _ H) as (H1 & H2 & H3 & H4). cbn [l_ds l_lf] in *. split; [exact H1|]. split; [exact H2|]. split; [|exact H4].
      intros x [<-|Hx]; [now split|now apply H3].
    + destruct (has_group t "LossFunction") eqn:El; [|discriminate]. injection E as <-. destruct (IH _ _ H) as (H1 & H2 & H3 & H4). cbn [l_ds l_lf] in *.
      split; [exact H1|]. split; [exact H2|]. split; [intros x [<-|Hx]; [now split|now apply H3]|]. intros x [<-|Hx]; [exact El|now apply H4].
Qed.
Lemma one_each_merged_loss (old : option (ptable pkey)) : one_each old -> merged_opt pair_eqb first_filled (loaded_before old) old.
Proof. intros H. destruct old as [t|]; [|reflexivity]. destruct H. apply (merged_self pair_eqb pair_eqb_eq); auto using first_filled_one. Qed.
Lemma merged_loss sources old t : one_each old -> (forall s, In s sources -> proper s) ->
  foldM (step_any pair_eqb pair_le first_filled) old sources = Ok t -> merged_opt pair_eqb first_filled (loaded_before old ++ sources) t.
Proof.
  intros Ho Hp H. refine (merge_all pair_eqb pair_le pair_eqb_eq first_filled first_filled_blank first_filled_app _ _ sources (loaded_before old) old t _ Hp H).
  - intros o d o' E. unfold step_any in E. congruence.
  - now apply one_each_merged_loss.
Qed.

Lemma loss_parameters_none e divide heads arg consequences sources : sources = [] -> loss_parameters e divide heads arg consequences sources None.
Proof. intros ->. split; [constructor|]. split; [easy|]. now intros k _ [H _]. Qed.

Theorem load_loss_spec e dvs consequences old sources out :
  one_each (l_ds old) -> one_each (l_lf old) -> (forall s, In s sources -> proper s) ->
  load_loss e dvs consequences old sources = Ok out ->
  loss_parameters e true state_heading ("Quantity", "Unit") consequences (loaded_before (l_ds old) ++ state_sources sources) (l_ds (o_pars out)) /\
  loss_parameters e false function_heading ("Demand", "Unit") consequences (loaded_before (l_lf old) ++ function_sources sources) (l_lf (o_pars out)).
Proof.
  intros Hod Hol Hp H. unfold load_loss in H. binv H s. binv H ds. binv H lf. injection H as <-. cbn [o_pars l_ds l_lf] in *.
  destruct (load_source_split _ _ _ E) as (Hd & Hl & _ & _).
  assert (Hpd : forall t, In t (state_sources sources) -> proper t) by (intros t Ht; apply filter_In in Ht as [Ht _]; now apply Hp).
  assert (Hpl : forall t, In t (function_sources sources) -> proper t) by (intros t Ht; apply filter_In in Ht as [Ht _]; now apply Hp).
  apply merged_loss in Hd; [|assumption|assumption]. apply merged_loss in Hl; [|assumption|assumption]. clear E. split.
  - destruct (l_ds s) as [m|]; cbn [option_map opt_map merged_opt] in *; [|injection E0 as <-; now apply loss_parameters_none].
    binv E0 t. injection E0 as <-. unfold convert_ds in E. destruct (_ && _); [|discriminate]. binv E rows. injection E as <-. cbn [p_rows].
    set (cl := remove_incomplete (keep_rows (fun k : pkey => mem (fst k) consequences) m)) in *.
    assert (Hpc : proper cl) by (apply clean_proper; apply Hd).
    assert (Hrow : forall k r, In (k, r) (p_rows (drop_unused_states cl)) -> exists r1, In (k, r1) (p_rows cl) /\ same_cells r r1).
    { intros k r Hin. cbn [drop_unused_states p_rows] in Hin. apply in_map_iff in Hin as ([k' r1] & Ek & Hin). cbn [fst snd] in Ek. injection Ek as -> <-.
      exists r1. split; [assumption|]. intros c. now apply (drop_unused_cells cl k). }
    apply (loss_parameters_from e true state_heading ("Quantity", "Unit") (headings (drop_unused_states cl) (starts_with "DS")) consequences _ m (drop_unused_states cl)); auto.
    + intros k r Hin. destruct (Hrow k r Hin) as (r1 & Hr1 & Hsame). apply (clean_rows consequences m) in Hr1 as (Hr1 & Hk & Hu); [|apply Hd]. now exists r1.
    + intros k r1 Hr1 Hk Hu. cbn [drop_unused_states p_rows]. rewrite map_map. cbn [fst]. apply keys_rows. exists r1. now apply (clean_rows consequences m); [apply Hd|].
    + cbn [drop_unused_states p_rows]. rewrite map_map. cbn [fst]. apply clean_NoDup. apply Hd.
    + intros g Hg. now apply headings_In in Hg.
    + intros g f k r Hg Hin Hb. apply headings_In. split; [|exact Hg]. exists f. now apply (filled_in_cols _ k r _ (drop_unused_proper cl Hpc)).
  - destruct (l_lf s) as [m|]; cbn [option_map opt_map merged_opt] in *; [|injection E1 as <-; now apply loss_parameters_none].
    binv E1 t. injection E1 as <-. unfold convert_lf in E. destruct (_ && _); [|discriminate]. binv E rows. injection E as <-. cbn [p_rows].
    set (cl := remove_incomplete (keep_rows (fun k : pkey => mem (fst k) consequences) m)) in *.
    apply (loss_parameters_from e false function_heading ("Demand", "Unit") ["LossFunction"] consequences _ m cl); auto.
    + intros k r Hin. apply (clean_rows consequences m) in Hin as (Hr1 & Hk & Hu); [|apply Hl]. exists r. repeat split; auto.
    + intros k r1 Hr1 Hk Hu. apply keys_rows. exists r1. now apply (clean_rows consequences m); [apply Hl|].
    + apply clean_NoDup. apply Hl.
    + intros g [<-|[]]. reflexivity.
    + intros g f k r Hg _ _. apply String.eqb_eq in Hg. subst g. now left.
Qed.

(** Required parameters that are missing. *)
Lemma loss_parameters_available e divide heads arg consequences sources t k : loss_parameters e divide heads arg consequences sources t -> In (fst k) consequences ->
  (In k (available t) <-> usable_definitions (definitions pair_eqb sources k)).
Proof.
  intros (_ & H1 & H2) Hk. assert (Ha : In k (available t) <-> exists r, In (k, r) (rows_of t)).
  { destruct t as [t|]; cbn [available rows_of]; [apply keys_rows|]. split; [easy|]. now intros (r & []). }
  rewrite Ha. split; [|now apply H2]. intros (r & Hr). now apply H1 in Hr.
Qed.
Theorem load_loss_missing e dvs consequences old sources out :
  one_each (l_ds old) -> one_each (l_lf old) -> (forall s, In s sources -> proper s) ->
  load_loss e dvs consequences old sources = Ok out ->
  NoDup (o_missing out) /\
  forall c dv, In (c, dv) (o_missing out) <->
    In c consequences /\ In dv dvs /\
    ~ usable_definitions (definitions pair_eqb (loaded_before (l_ds old) ++ state_sources sources) (c, dv)) /\
    ~ usable_definitions (definitions pair_eqb (loaded_before (l_lf old) ++ function_sources sources) (c, dv)).
Proof.
  intros Hod Hol Hp H. destruct (load_loss_spec _ _ _ _ _ _ Hod Hol Hp H) as (Hds & Hlf).
  unfold load_loss in H. binv H s. binv H ds. binv H lf. injection H as <-. cbn [o_pars o_missing l_ds l_lf] in *.
  unfold missing_of. cbn [l_ds l_lf]. split; [apply NoDup_filter, (unique_NoDup pair_eqb pair_eqb_eq)|]. intros c dv.
  rewrite filter_In, negb_true_iff, (unique_In pair_eqb pair_eqb_eq), in_flat_map, orb_false_iff, !existsb_pair_false.
  assert (Hreq : (exists x, In x dvs /\ In (c, dv) (map (fun c => (c, x)) consequences)) <-> In c consequences /\ In dv dvs).
  { split.
    - intros (x & Hx & Hin). apply in_map_iff in Hin as (c' & Ec & Hc). injection Ec as -> ->. auto.
    - intros [Hc Hd]. exists dv. split; [assumption|]. apply in_map_iff. now exists c. }
  rewrite Hreq. split.
  - intros ((Hc & Hd) & Ha & Hb). repeat (split; [assumption|]). split.
    + intros Hu. apply Ha. now apply (loss_parameters_available _ _ _ _ _ _ _ _ Hds).
    + intros Hu. apply Hb. now apply (loss_parameters_available _ _ _ _ _ _ _ _ Hlf).
  - intros (Hc & Hd & Ha & Hb). split; [now split|]. split; intros Hu.
    + apply Ha. now apply (loss_parameters_available _ _ _ _ _ _ _ _ Hds).
    + apply Hb. now apply (loss_parameters_available _ _ _ _ _ _ _ _ Hlf).
Qed.

(** Units of decision variables. *)
Lemma value_eqb_eq a b : value_eqb a b = true <-> a = b.
Proof.
  destruct a as [|x|x], b as [|y|y]; cbn; try easy.
  - rewrite Qceqb_true. split; [now intros ->|]. intros H. now injection H.
  - rewrite String.eqb_eq. split; [now intros ->|]. intros H. now injection H.
Qed.
Lemma is_blank_eq v : is_blank v = true <-> v = VBlank.
Proof. now destruct v. Qed.
Lemma units_of_In t dv v : In v (units_of t dv) <-> v <> VBlank /\ exists k r, In (k, r) (p_rows t) /\ snd k = dv /\ at_col r dv_unit = v.
Proof.
  unfold units_of. rewrite (unique_In value_eqb value_eqb_eq), filter_In, negb_true_iff, in_map_iff. split.
  - intros [([k r] & E & Hin) Hb]. apply filter_In in Hin as [Hin Ek]. apply String.eqb_eq in Ek. cbn in E, Ek. split; [|eauto]. intros ->. discriminate.
  - intros (Hb & k & r & Hin & Ek & E). split; [|now destruct v]. exists (k, r). split; [assumption|]. apply filter_In. split; [assumption|]. now apply String.eqb_eq.
Qed.
Lemma units_of_NoDup t dv : NoDup (units_of t dv).
Proof. apply (unique_NoDup value_eqb value_eqb_eq). Qed.
Lemma consistent_spec t : consistent t = false <-> inconsistent t.
Proof.
  unfold consistent, inconsistent. split.
  - intros H. assert (He : existsb (fun dv => negb (Nat.leb (List.length (units_of t dv)) 1)) (unique String.eqb (map (fun kr : pkey * row => snd (fst kr)) (p_rows t))) = true).
    { revert H. induction (unique String.eqb _) as [|d l IH]; cbn; [easy|]. destruct (Nat.leb _ 1); cbn; auto. }
    apply existsb_exists in He as (dv & _ & Hdv). apply negb_true_iff, Nat.leb_gt in Hdv. pose proof (units_of_NoDup t dv) as Hn.
    destruct (units_of t dv) as [|u [|w l]] eqn:E; [cbn in Hdv; lia|cbn in Hdv; lia|].
    assert (Hu : In u (units_of t dv)) by (rewrite E; now left). assert (Hw : In w (units_of t dv)) by (rewrite E; right; now left).
    apply units_of_In in Hu as (Hub & k & r & Hr & Ek & Eu), Hw as (Hwb & k' & r' & Hr' & Ek' & Ew). exists k, r, k', r'.
    unfold dv_unit in Eu, Ew. rewrite Eu, Ew. repeat (split; [congruence|]). intros ->. inversion Hn as [|? ? Hni _]; subst. apply Hni. now left.
  - intros (k & r & k' & r' & Hr & Hr' & Ek & Hb & Hb' & Hne).
    destruct (forallb _ _) eqn:E; [|reflexivity]. exfalso. rewrite forallb_forall in E. specialize (E (snd k)).
    assert (Hin : In (snd k) (unique String.eqb (map (fun kr : pkey * row => snd (fst kr)) (p_rows t)))).
    { apply (unique_In String.eqb String.eqb_eq), in_map_iff. now exists (k, r). }
    specialize (E Hin). apply Nat.leb_le in E.
    assert (Hu : In (at_col r dv_unit) (units_of t (snd k))) by (apply units_of_In; eauto 10).
    assert (Hw : In (at_col r' dv_unit) (units_of t (snd k))) by (apply units_of_In; eauto 10).
    destruct (units_of t (snd k)) as [|u [|w l]]; [easy| |cbn in E; lia]. destruct Hu as [Hu|[]], Hw as [Hw|[]]. unfold dv_unit in *. congruence.
Qed.
Theorem inconsistent_rejected e dvs consequences old sources t : In t sources -> inconsistent t -> is_ok (load_loss e dvs consequences old sources) = false.
Proof.
  intros Hin Hi. destruct (load_loss e dvs consequences old sources) as [out|] eqn:H; [|reflexivity]. exfalso. unfold load_loss in H. binv H s.
  destruct (load_source_split _ _ _ E) as (_ & _ & Hc & _). apply Hc in Hin as [_ Hin]. apply consistent_spec in Hi. congruence.
Qed.

Definition quiet {A} (r : result A) : Prop := r <> Err UnitsError.
Lemma quiet_bind {A B} (r : result A) (k : A -> result B) : quiet r -> (forall x, quiet (k x)) -> quiet (bind r k).
Proof. unfold quiet. intros Hr Hk. destruct r as [x|err]; cbn [bind]; [apply Hk|]. intros E. apply Hr. now injection E as ->. Qed.
Lemma quiet_ok {A} (x : A) : quiet (Ok x).
Proof. easy. Qed.
Lemma quiet_mapM {A B} (f : A -> result B) l : (forall x, quiet (f x)) -> quiet (mapM f l).
Proof.
  intros H. induction l as [|x l IH]; cbn [mapM]; [easy|]. apply quiet_bind; [apply H|]. intros y. apply quiet_bind; [assumption|]. easy.
Qed.
Lemma quiet_unit e u : quiet (calc_unit_scale_factor e u).
Proof.
  unfold calc_unit_scale_factor. destruct (split_on " " (strip_space u)) as [|a [|b [|c l]]]; try easy; [now destruct (dget a (factors e))|].
  destruct (numbers e a); [|easy]. now destruct (dget b (factors e)).
Qed.
Lemma quiet_floats pf l : quiet (floats pf l).
Proof. unfold floats. apply quiet_mapM. intros x. now destruct (pf x). Qed.
Lemma quiet_parse e v : quiet (parse_par e v).
Proof.
  destruct v as [|q|s]; cbn; [easy|easy|]. destruct (numbers e s); [easy|]. destruct (split_on "|" s) as [|y rest]; [easy|].
  apply quiet_bind; [apply quiet_floats|]. intros ys. destruct rest as [|x rest]; [easy|]. apply quiet_bind; [apply quiet_floats|easy].
Qed.
Lemma quiet_marginal e divide unit arg old : quiet (convert_marginal e divide unit arg old).
Proof.
  assert (Hs : forall fu family, quiet (convert_scaled e divide fu arg old family)).
  { intros fu family. unfold convert_scaled. repeat (apply quiet_bind; [apply quiet_parse|intros ?]). apply quiet_bind; [|intros fa].
    { unfold arg_factor. destruct arg as [[|q|s]|]; try easy. destruct (String.eqb s "1 EA"); [easy|]. apply quiet_unit. }
    destruct (divide && Qceqb fa 0); [easy|]. apply quiet_bind; [now destruct (old "TruncateLower")|intros lo]. apply quiet_bind; [now destruct (old "TruncateUpper")|intros hi].
    apply quiet_bind; [|intros [[n0 n1] n2]].
    { unfold scale_distribution. destruct family as [fam|]; [|easy]. now repeat match goal with |- context [if ?b then _ else _] => destruct b end. }
    repeat (apply quiet_bind; [|intros ?]); try easy.
    - now destruct x, n0.
    - now destruct x0, n1.
    - now destruct x1, n2. }
  unfold convert_marginal. destruct unit as [|q|u]; [easy|easy|]. apply quiet_bind; [apply quiet_unit|intros fu].
  destruct (old "Family") as [|q|fam]; [apply Hs|easy|]. destruct (String.eqb fam "empirical"); [easy|apply Hs].
Qed.
Lemma quiet_row e divide unit arg groups r : quiet (convert_row e divide unit arg groups r).
Proof. unfold convert_row. apply quiet_bind; [|easy]. apply quiet_mapM. intros g. apply quiet_bind; [apply quiet_marginal|easy]. Qed.
Theorem units_error_only e dvs consequences old sources : load_loss e dvs consequences old sources = Err UnitsError -> exists t, In t sources /\ inconsistent t.
Proof.
  intros H. unfold load_loss in H. destruct (foldM load_source old sources) as [s|err] eqn:E; cbn [bind] in H.
  - exfalso. revert H. apply quiet_bind.
    + destruct (l_ds s) as [t|]; cbn [option_map opt_map l_ds]; [|easy]. apply quiet_bind; [|easy]. unfold convert_ds. destruct (_ && _); [|easy].
      apply quiet_bind; [|easy]. apply quiet_mapM. intros kr. apply quiet_bind; [apply quiet_row|easy].
    + intros ds. apply quiet_bind; [|easy]. destruct (l_lf s) as [t|]; cbn [option_map opt_map l_lf]; [|easy]. apply quiet_bind; [|easy]. unfold convert_lf. destruct (_ && _); [|easy].
      apply quiet_bind; [|easy]. apply quiet_mapM. intros kr. apply quiet_bind; [apply quiet_row|easy].
  - injection H as ->. revert old E. induction sources as [|t sources IH]; intros old E; [discriminate|]. cbn [foldM] in E.
    destruct (load_source old t) as [s|err] eqn:Es; cbn [bind] in E.
    + destruct (IH s E) as (x & Hx & Hi). exists x. split; [now right|assumption].
    + injection E as ->. unfold load_source in Es. destruct (negb (has_col t dv_unit)); [discriminate|]. destruct (consistent t) eqn:Ec; cbn [negb] in Es.
      * destruct (has_group t "DS1"); [discriminate|]. now destruct (has_group t "LossFunction").
      * exists t. split; [now left|]. now apply consistent_spec.
Qed.

(** ** The loss map *)

Lemma fill_spec all ncols components : forall m, exists added, fill all ncols components m = m ++ added /\
  NoDup (map fst added) /\
  (forall c vs, In (c, vs) added -> vs = repeat c ncols) /\
  forall c, In c (map fst added) <-> In c components /\ ~ In c (map fst m) /\ (all = true \/ c <> "excessiveRID").
Proof.
  induction components as [|x l IH]; intros m; cbn [fill fold_left].
  - exists []. rewrite app_nil_r. repeat split; try easy; try constructor.
  - change (fold_left _ l ?m') with (fill all ncols l m').
    assert (Hskip : (forall c, c = x -> In c (map fst m) \/ (all = false /\ c = "excessiveRID")) ->
      exists added, fill all ncols l m = m ++ added /\ NoDup (map fst added) /\ (forall c vs, In (c, vs) added -> vs = repeat c ncols) /\
        forall c, In c (map fst added) <-> In c (x :: l) /\ ~ In c (map fst m) /\ (all = true \/ c <> "excessiveRID")).
    { intros Hx. destruct (IH m) as (added & E & Hn & Hv & Hk). exists added. repeat (split; [assumption|]). intros c. rewrite Hk. split.
      - intros (Hc & Hm & Ha). split; [now right|now split].
      - intros ([->|Hc] & Hm & Ha); [|now split]. exfalso. destruct (Hx c eq_refl) as [Hx'|[-> ->]]; [contradiction|]. now destruct Ha. }
    destruct (mem x (map fst m)) eqn:Em.
    + apply Hskip. intros c ->. left. now apply mem_true.
    + apply mem_false in Em. destruct (negb all && String.eqb x "excessiveRID") eqn:Ex.
      * apply Hskip. intros c ->. right. apply andb_true_iff in Ex as [Ea Ex]. apply negb_true_iff in Ea. now apply String.eqb_eq in Ex.
      * destruct (IH (m ++ [(x, repeat x ncols)])) as (added & E & Hn & Hv & Hk). exists ((x, repeat x ncols) :: added).
        rewrite E, <- app_assoc. split; [reflexivity|]. rewrite map_app in Hk. cbn [map fst] in *. setoid_rewrite in_app_iff in Hk. split; [|split].
        -- constructor; [|assumption]. intros Hin. apply Hk in Hin as (_ & Hin & _). apply Hin. right. now left.
        -- intros c vs [Ec|Hin]; [|now apply Hv]. now injection Ec as <- <-.
        -- intros c. cbn [In]. rewrite Hk. cbn [In]. apply andb_false_iff in Ex. rewrite negb_false_iff in Ex. rewrite String.eqb_neq in Ex. split.
           ++ intros [<-|(Hc & Hm & Ha)]; [split; [now left|]; split; [assumption|]; tauto|]. tauto.
           ++ intros ([<-|Hc] & Hm & Ha); [now left|]. destruct (string_dec x c) as [<-|Hne]; [now left|]. right. split; [assumption|]. tauto.
Qed.

Lemma map_names_model labels names : map_names labels names ->
  (if dmg_flag labels then second labels else Ok (match labels with Flat l => l | Multi _ l => map (join "-") l end)) = Ok names.
Proof.
  intros [l H|n rows names' Hne H].
  - cbn [dmg_flag]. replace (existsb (contains "DMG") l) with false; [reflexivity|]. symmetry. induction H as [|x l Hx _ IH]; [reflexivity|]. cbn [existsb]. now rewrite Hx, IH.
  - cbn [dmg_flag]. inversion H as [|row name rs ns (more & Hr) Hrs]; subst; [easy|]. cbn [existsb]. cbn [mem existsb orb]. change (mem "DMG" ("DMG" :: name :: more)) with true. cbn [orb].
    cbn [second]. apply mapM_Forall2. eapply Forall2_weaken; [|exact H]. intros r nm (mr & ->). reflexivity.
Qed.
Theorem add_loss_map_spec components labels values names ncols policy m : map_names labels names ->
  add_loss_map components (Some (labels, values)) ncols policy = Ok m ->
  exists added, m = combine names values ++ added /\
    NoDup (map fst added) /\
    (forall c vs, In (c, vs) added -> vs = repeat c ncols) /\
    forall c, In c (map fst added) <-> In c components /\ ~ In c (map fst (combine names values)) /\ policy_adds policy c.
Proof.
  intros Hn H. unfold add_loss_map in H. rewrite (map_names_model _ _ Hn) in H. cbn [bind] in H. unfold policy_adds. destruct policy as [p|].
  - destruct (String.eqb_spec p "fill") as [->|Nf].
    + injection H as <-. destruct (fill_spec false ncols components (combine names values)) as (added & E & Hd & Hv & Hk). exists added. repeat (split; [assumption|]).
      intros c. rewrite Hk. split; intros (H1 & H2 & H3); repeat (split; [assumption|]).
      * right. split; [reflexivity|]. now destruct H3.
      * right. destruct H3 as [H3|[_ H3]]; [discriminate|assumption].
    + destruct (String.eqb_spec p "fill_all") as [->|Na]; [|discriminate].
      injection H as <-. destruct (fill_spec true ncols components (combine names values)) as (added & E & Hd & Hv & Hk). exists added. repeat (split; [assumption|]).
      intros c. rewrite Hk. split; intros (H1 & H2 & H3); repeat (split; [assumption|]); now left.
  - injection H as <-. exists []. rewrite app_nil_r. split; [reflexivity|]. split; [constructor|]. split; [easy|]. intros c. split; [easy|].
    intros (_ & _ & [H|[H _]]); discriminate.
Qed.
Theorem add_loss_map_alone components ncols policy m : add_loss_map components None ncols policy = Ok m ->
  NoDup (map fst m) /\ (forall c vs, In (c, vs) m -> vs = repeat c ncols) /\ forall c, In c (map fst m) <-> In c components /\ policy_adds policy c.
Proof.
  intros H. assert (H' : add_loss_map components (Some (Flat [], [])) ncols policy = Ok m) by (destruct policy as [p|]; [exact H|discriminate]).
  apply (add_loss_map_spec _ _ _ [] _ _ _ (@plain_names [] (Forall_nil _))) in H' as (added & -> & Hn & Hv & Hk). cbn [combine app]. repeat (split; [assumption|]).
  intros c. rewrite Hk. cbn. tauto.
Qed.
Theorem add_loss_map_ok components user ncols policy : (forall labels values, user = Some (labels, values) -> exists names, map_names labels names) ->
  (is_ok (add_loss_map components user ncols policy) = true <-> (user <> None \/ policy <> None) /\ (policy = None \/ policy = Some "fill" \/ policy = Some "fill_all")).
Proof.
  intros Hu. destruct user as [[labels values]|].
  - destruct (Hu _ _ eq_refl) as (names & Hn). unfold add_loss_map. rewrite (map_names_model _ _ Hn). cbn [bind]. destruct policy as [p|]; cbn [is_ok].
    + destruct (String.eqb_spec p "fill") as [->|Nf]; [cbn; split; [intros _; split; [now left|auto]|auto]|].
      destruct (String.eqb_spec p "fill_all") as [->|Na]; [cbn; split; [intros _; split; [now left|auto]|auto]|]. cbn. split; [easy|].
      intros [_ [E|[E|E]]]; congruence.
    + split; [intros _; split; [now left|auto]|auto].
  - destruct policy as [p|]; cbn; [|split; [easy|]; now intros [[H|H] _]].
    destruct (String.eqb_spec p "fill") as [->|Nf]; [cbn; split; [intros _; split; [now right|auto]|auto]|].
    destruct (String.eqb_spec p "fill_all") as [->|Na]; [cbn; split; [intros _; split; [now right|auto]|auto]|]. cbn. split; [easy|].
    intros [_ [E|[E|E]]]; congruence.
Qed.

(** ** A first definition without gaps *)

Lemma first_definition_cells sources k r0 r1 : first_definition sources k r0 ->
  (forall r', In r' (definitions pair_eqb sources k) -> forall c, at_col r' c <> VBlank -> at_col r0 c <> VBlank) ->
  (forall c, first_cell (definitions pair_eqb sources k) c (at_col r1 c)) -> same_cells r1 r0.
Proof.
  intros Hf Hfull Hc c. apply (definitions_first pair_eqb pair_eqb_eq) in Hf as (rs & E). apply (first_cell_fun (definitions pair_eqb sources k) c); [apply Hc|].
  rewrite E. destruct (is_blank (at_col r0 c)) eqn:Eb.
  - apply is_blank_eq in Eb. left. split; [assumption|]. intros r' Hr'. rewrite <- E in Hr'. destruct (is_blank (at_col r' c)) eqn:Eb'; [now apply is_blank_eq|].
    exfalso. apply (Hfull r' Hr' c); [|assumption]. intros Ex. rewrite Ex in Eb'. discriminate.
  - right. split; [intros Ex; rewrite Ex in Eb; discriminate|]. exists [], r0, rs. split; [reflexivity|]. split; [reflexivity|easy].
Qed.
Lemma loss_row_ext e divide heads arg r1 r0 r : same_cells r1 r0 -> loss_row e divide heads arg r1 r -> loss_row e divide heads arg r0 r.
Proof.
  intros Hs (H1 & H2 & H3). split; [|split].
  - intros g Hg (f & Hf). rewrite <- !Hs. eapply converted_ext; [| |apply (H1 g Hg); exists f; now rewrite Hs]; [|reflexivity]. intros x. apply Hs.
  - intros g f Hg. rewrite <- Hs. now apply H2.
  - intros c Hc. apply H3. now rewrite Hs.
Qed.
Theorem loss_first_wins e divide heads arg consequences sources t k r r0 : loss_parameters e divide heads arg consequences sources t ->
  In (k, r) (rows_of t) -> first_definition sources k r0 ->
  (forall r', In r' (definitions pair_eqb sources k) -> forall c, at_col r' c <> VBlank -> at_col r0 c <> VBlank) ->
  loss_row e divide heads arg r0 r.
Proof.
  intros (_ & H & _) Hin Hf Hfull. destruct (H k r Hin) as (_ & _ & r1 & Hc & Hr). apply (loss_row_ext _ _ _ _ r1); [|assumption].
  now apply (first_definition_cells sources k).
Qed.

(** ** Units of the decision variables *)

Lemma first_filled_In l : first_filled l <> VBlank -> In (first_filled l) l.
Proof.
  induction l as [|x l IH]; [intros H; now destruct H|]. destruct x as [|q|s]; [|now left|now left]. intros H. right. now apply IH.
Qed.
Lemma first_units_In t dv v : dget dv (first_units t) = Some v -> v <> VBlank -> exists k r, In (k, r) (p_rows t) /\ snd k = dv /\ at_col r dv_unit = v.
Proof.
  intros H Hb. apply dget_In in H. unfold first_units in H. apply in_map_iff in H as ([dv' vs] & E & Hin). cbn [fst snd] in E. injection E as -> Ev.
  apply (groupby_In String.eqb str_le String.eqb_eq) in Hin as [_ ->]. subst v.
  apply first_filled_In in Hb. rename Hb into Hv.
  apply (In_group_rows String.eqb String.eqb_eq) in Hv. apply in_map_iff in Hv as ([k r] & E & Hin). cbn [fst snd] in E. injection E as Ek Er. now exists k, r.
Qed.
Lemma fold_dset_last (l : dict value) : forall d dv v, dget dv (fold_left (fun d kv => dset (fst kv) (snd kv) d) l d) = Some v -> In (dv, v) l \/ dget dv d = Some v.
Proof.
  induction l as [|[k w] l IH]; intros d dv v H; cbn [fold_left fst snd] in H; [now right|]. apply IH in H as [H|H]; [left; now right|].
  destruct (string_dec dv k) as [->|Hne]; [rewrite dget_dset_eq in H; injection H as ->; left; now left|]. rewrite dget_dset_ne in H by assumption. now right.
Qed.
Lemma first_units_NoDup t : NoDup (map fst (first_units t)).
Proof. unfold first_units. rewrite map_map. cbn [fst]. apply (groupby_NoDup String.eqb str_le String.eqb_eq). Qed.
Lemma all_units_In s dv v : dget dv (all_units s) = Some v -> v <> VBlank ->
  exists k r, (In (k, r) (rows_of (l_ds s)) \/ In (k, r) (rows_of (l_lf s))) /\ snd k = dv /\ at_col r dv_unit = v.
Proof.
  intros H Hb. unfold all_units in H. destruct (l_ds s) as [d|], (l_lf s) as [f|]; cbn [rows_of].
  - apply fold_dset_last in H as [H|H].
    + apply (In_dget _ _ _ (first_units_NoDup f)) in H. apply first_units_In in H as (k & r & Hin & E); [|assumption]. exists k, r. auto.
    + apply first_units_In in H as (k & r & Hin & E); [|assumption]. exists k, r. auto.
  - apply first_units_In in H as (k & r & Hin & E); [|assumption]. exists k, r. auto.
  - apply fold_dset_last in H as [H|H]; [|discriminate].
    apply (In_dget _ _ _ (first_units_NoDup f)) in H. apply first_units_In in H as (k & r & Hin & E); [|assumption]. exists k, r. auto.
  - discriminate.
Qed.

Theorem reported_units e dvs consequences old sources out dv v :
  load_loss e dvs consequences old sources = Ok out -> dget dv (o_units out) = Some v -> v <> VBlank ->
  exists k r, (In (k, r) (rows_of (l_ds (o_pars out))) \/ In (k, r) (rows_of (l_lf (o_pars out)))) /\ snd k = dv /\ at_col r ("DV", "Unit") = v.
Proof.
  intros H Hu Hb. unfold load_loss in H. binv H s. binv H ds. binv H lf. injection H as <-. cbn [o_pars o_units l_ds l_lf] in *.
  apply all_units_In in Hu as (k & r & Hin & Hk & Hr); [|assumption]. cbn [l_ds l_lf] in Hin.
  assert (Hgo : forall divide arg groups rows rows', mapM (fun kr : pkey * row => let* r := convert_row e divide dv_unit (Some arg) groups (snd kr) in Ok (fst kr, r)) rows = Ok rows' ->
            ~ In "DV" groups -> In (k, r) rows -> exists r', In (k, r') rows' /\ at_col r' dv_unit = v).
  { intros divide arg groups rows rows' Hm Hg Hi. destruct (@mapM_inv _ _ _ _ _ _ Hm Hi) as (y & Hy & Hin'). cbn [fst snd] in Hy. binv Hy r'. injection Hy as <-. exists r'.
    split; [assumption|]. destruct (convert_row_spec _ _ _ _ _ _ _ E2) as (_ & _ & Ho). unfold dv_unit in *. now rewrite Ho. }
  destruct Hin as [Hin|Hin].
  - destruct (l_ds s) as [t|]; cbn [option_map opt_map rows_of] in *; [|easy]. binv E0 t'. injection E0 as <-. unfold convert_ds in E2. destruct (_ && _); [|discriminate].
    binv E2 rows. injection E2 as <-. cbn [rows_of p_rows]. destruct (Hgo _ _ _ _ _ E0) with (2 := Hin) as (r' & Hr' & E'); [|exists k, r'; auto].
    intros Hd. apply headings_In in Hd as [_ Hd]. discriminate.
  - destruct (l_lf s) as [t|]; cbn [option_map opt_map rows_of] in *; [|easy]. binv E1 t'. injection E1 as <-. unfold convert_lf in E2. destruct (_ && _); [|discriminate].
    binv E2 rows. injection E2 as <-. cbn [rows_of p_rows]. destruct (Hgo _ _ _ _ _ E1) with (2 := Hin) as (r' & Hr' & E'); [|exists k, r'; auto].
    intros [Hd|[]]. discriminate.
Qed.
