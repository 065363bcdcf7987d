(** Proofs about the model of base.py. *)
From Coq Require Import Sorting.Permutation Sorting.Sorted.
From Verif Require Import Prelude PreludeFacts M_Base S_Base.
Set Implicit Arguments.

(** ** Logger *)
Section Log.
  Variables spaces red reset : string.
  Let fmt := format_warning spaces red reset.

  Definition log_inv (ops : list log_op) (s : logger) : Prop :=
    NoDup (printed s) /\ NoDup (stack s) /\
    (forall m, In m (printed s) <-> In m (emitted s)) /\
    (forall m, In m (printed s) \/ In m (stack s) <-> exists x, In x (all_added ops) /\ m = fmt x).

  Lemma add_inv ops s m :
    log_inv ops s -> log_inv (ops ++ [AddWarning m]) (add_formatted (fmt m) s).
  Proof.
    intros (H1 & H2 & H3 & H4). unfold add_formatted.
    assert (Hadd : forall y, (exists x, In x (all_added (ops ++ [AddWarning m])) /\ y = fmt x) <->
                   ((exists x, In x (all_added ops) /\ y = fmt x) \/ y = fmt m)).
    { intros y. unfold all_added. rewrite flat_map_app. simpl. split.
      - intros (x & Hx & ->). apply in_app_iff in Hx as [Hx|[->|[]]]; eauto.
      - intros [(x & Hx & ->)| ->]; eexists; (split; [|reflexivity]); apply in_app_iff; simpl; auto. }
    destruct (mem (fmt m) (stack s)) eqn:E.
    - apply mem_true in E. repeat split; auto; try apply H3.
      + intros H. apply Hadd. left. now apply H4.
      + intros H. apply Hadd in H as [H| ->]; [now apply H4|auto].
    - apply mem_false in E. repeat split; simpl; auto; try apply H3.
      + now apply NoDup_app_single.
      + rewrite in_app_iff; simpl. intros H. apply Hadd.
        destruct H as [H|[H|[H|[]]]]; [left; apply H4; auto..|right; auto].
      + intros H. apply Hadd in H. rewrite in_app_iff; simpl.
        destruct H as [H| ->]; [apply H4 in H; tauto|auto].
  Qed.

  Lemma NoDup_app_intro {A} (l1 l2 : list A) :
    NoDup l1 -> NoDup l2 -> (forall x, In x l1 -> ~ In x l2) -> NoDup (l1 ++ l2).
  Proof.
    induction 1; simpl; intros; [easy|]. constructor.
    - rewrite in_app_iff. intros [|]; [easy|]. eapply H2; eauto.
    - apply IHNoDup; auto.
  Qed.

  Lemma emit_inv ops s :
    log_inv ops s -> log_inv (ops ++ [EmitWarnings]) (emit_warnings s) /\ stack (emit_warnings s) = [].
  Proof.
    intros (H1 & H2 & H3 & H4). split; [|reflexivity]. unfold emit_warnings.
    assert (Hadd : forall y, (exists x, In x (all_added (ops ++ [EmitWarnings])) /\ y = fmt x) <->
                   (exists x, In x (all_added ops) /\ y = fmt x)).
    { intros y. unfold all_added. rewrite flat_map_app. simpl. now rewrite app_nil_r. }
    assert (Hin : forall m, In m (printed s ++ filter (fun m => negb (mem m (emitted s))) (stack s))
                    <-> In m (printed s) \/ In m (stack s)).
    { intros m. rewrite in_app_iff, filter_In. split; [tauto|].
      intros [H|H]; [tauto|]. destruct (mem m (emitted s)) eqn:E.
      - apply mem_true in E. apply H3 in E. tauto.
      - right. auto. }
    repeat split; cbn [printed stack emitted].
    - apply NoDup_app_intro; [easy|now apply NoDup_filter|].
      intros x Hx. rewrite filter_In. intros [_ Hm]. apply negb_true_iff, mem_false in Hm.
      apply Hm. now apply H3.
    - constructor.
    - rewrite Hin. rewrite in_app_iff. intros [H|H]; [left; now apply H3|auto].
    - rewrite Hin. rewrite in_app_iff. intros [H|H]; [left; now apply H3|auto].
    - intros [H|[]]. apply Hin in H. apply Hadd. now apply H4.
    - intros H. left. apply Hin. apply H4. now apply Hadd.
  Qed.

  Lemma log_run_snoc ops o : log_run spaces red reset (ops ++ [o]) =
    log_step spaces red reset (log_run spaces red reset ops) o.
  Proof. unfold log_run. now rewrite fold_left_app. Qed.

  Lemma log_run_inv ops :
    log_inv ops (log_run spaces red reset ops) /\
    match rev ops with EmitWarnings :: _ | Warning _ :: _ => stack (log_run spaces red reset ops) = []
                  | _ => True end.
  Proof.
    induction ops as [|o ops IH] using rev_ind.
    - split; [|easy]. unfold log_inv; simpl. split; [constructor|]. split; [constructor|].
      split; [tauto|]. intros m. split; [tauto|]. intros (x & [] & _).
    - rewrite log_run_snoc, rev_app_distr. destruct IH as [IH _]. destruct o as [m| |m]; simpl.
      + split; [now apply add_inv|easy].
      + now apply emit_inv.
      + split; [|reflexivity].
        pose proof (@emit_inv _ _ (@add_inv _ _ m IH)) as [H _].
        destruct H as (H1 & H2 & H3 & H4). repeat split; auto; try apply H3.
        * intros H. apply H4 in H. destruct H as (x & Hx & ->). exists x. split; [|easy].
          unfold all_added in *. rewrite !flat_map_app in *. simpl in *. rewrite app_nil_r in Hx. exact Hx.
        * intros (x & Hx & ->). apply H4. exists x. split; [|easy].
          unfold all_added in *. rewrite !flat_map_app in *. simpl in *. rewrite app_nil_r. exact Hx.
  Qed.

  (** Formatting is injective. *)
  Hypothesis Hs : no_newline spaces.
  Hypothesis Hr : no_newline red.
  Hypothesis Hz : no_newline reset.

  Lemma concat_lines l :
    Forall no_newline l ->
    split_on newline (String.concat "" (map (fun line => spaces ++ red ++ line ++ reset ++ String newline "") l))%string
    = map (fun line => spaces ++ red ++ line ++ reset)%string l ++ [""%string].
  Proof.
    assert (E : forall (l : list string) (w : string), String.concat "" (w :: l) = (w ++ String.concat "" l)%string).
    { intros [|x l'] w; simpl; [now rewrite string_app_nil|easy]. }
    induction 1 as [|w l Hw Hl IH]; [reflexivity|].
    cbn [map app]. rewrite E.
    replace ((spaces ++ red ++ w ++ reset ++ String newline "") ++
             String.concat "" (map (fun line => spaces ++ red ++ line ++ reset ++ String newline "") l))%string
      with ((spaces ++ red ++ w ++ reset) ++ String newline
             (String.concat "" (map (fun line => spaces ++ red ++ line ++ reset ++ String newline "") l)))%string.
    2:{ rewrite !string_app_assoc. rewrite <- (string_app_assoc _ (String newline "")). reflexivity. }
    rewrite split_on_app.
    - now rewrite IH.
    - unfold no_newline in *. rewrite !has_char_app, Hs, Hr, Hz, Hw. reflexivity.
  Qed.

  Lemma append_suffix_inj (a b c : string) : (a ++ c = b ++ c)%string -> a = b.
  Proof.
    intros H. apply (f_equal str_rev) in H. rewrite !str_rev_app_dist in H.
    apply string_app_inj_l in H. apply (f_equal str_rev) in H. now rewrite !str_rev_involutive in H.
  Qed.

  Lemma format_inj a b : fmt a = fmt b -> a = b.
  Proof.
    unfold fmt, format_warning. intros H. injection H as H.
    apply (f_equal (split_on newline)) in H.
    rewrite !concat_lines in H by apply split_on_pieces.
    apply app_inj_tail in H as [H _].
    assert (Hj : split_on newline a = split_on newline b).
    { revert H. generalize (split_on newline a) (split_on newline b).
      induction l as [|x l IH]; intros [|y l']; simpl; try easy.
      intros H. injection H as Hx Hl. f_equal; [|now apply IH].
      apply string_app_inj_l in Hx. apply string_app_inj_l in Hx. now apply append_suffix_inj in Hx. }
    rewrite <- (join_split newline a), <- (join_split newline b). now rewrite Hj.
  Qed.
End Log.

Lemma warnings_once spaces red reset ops :
  NoDup (printed (log_run spaces red reset ops)).
Proof. apply log_run_inv. Qed.

Lemma warnings_sound spaces red reset ops m :
  In m (printed (log_run spaces red reset ops)) ->
  exists x, In x (all_added ops) /\ m = format_warning spaces red reset x.
Proof. intros H. destruct (log_run_inv spaces red reset ops) as [(_ & _ & _ & H4) _]. apply H4. auto. Qed.

Lemma warnings_complete spaces red reset ops o m :
  (o = EmitWarnings \/ exists w, o = Warning w) ->
  In m (all_added (ops ++ [o])) ->
  In (format_warning spaces red reset m) (printed (log_run spaces red reset (ops ++ [o]))).
Proof.
  intros Ho Hm. destruct (log_run_inv spaces red reset (ops ++ [o])) as [(_ & _ & _ & H4) Hst].
  rewrite rev_app_distr in Hst. simpl in Hst.
  assert (Hs : stack (log_run spaces red reset (ops ++ [o])) = []).
  { destruct Ho as [->|[w ->]]; exact Hst. }
  assert (H := proj2 (H4 (format_warning spaces red reset m)) (ex_intro _ m (conj Hm eq_refl))).
  destruct H as [H|H]; [easy|]. rewrite Hs in H. easy.
Qed.

(** ** Configuration merge *)

Definition merge1 (uo : option json) (pv : json) : result json :=
  match pv with
  | JDict pd =>
      match uo with
      | None => let* d := update_vals [] pd in Ok (JDict d)
      | Some (JDict ud) => let* d := update_vals ud pd in Ok (JDict d)
      | Some _ => Err ValueError
      end
  | _ => match uo with
         | None => Ok pv
         | Some (JDict _) => Err ValueError
         | Some x => Ok x
         end
  end.

Lemma update_entry_loop pd u :
  (fix loop (l : list (string * json)) (u : dict json) : result (dict json) :=
     match l with
     | [] => Ok u
     | (k, v) :: tl => let* u' := update_entry v k u in loop tl u'
     end) pd u = update_vals u pd.
Proof.
  revert u. induction pd as [|[k v] pd IH]; intros u; simpl; [easy|].
  destruct (update_entry v k u); simpl; [apply IH|easy].
Qed.

Lemma update_entry_spec p k u :
  update_entry p k u = let* v := merge1 (dget k u) p in Ok (dset k v u).
Proof.
  destruct p; simpl; rewrite ?update_entry_loop;
  (destruct (dget k u) as [v|] eqn:E; simpl;
   [destruct v; simpl; rewrite ?update_entry_loop|rewrite ?update_entry_loop]);
  try reflexivity; try (rewrite dset_same by assumption; reflexivity);
  match goal with |- context [update_vals ?a ?b] => destruct (update_vals a b) end; reflexivity.
Qed.

Fixpoint jsize (v : json) : nat :=
  match v with
  | JDict d => S (list_sum (map (fun kv => jsize (snd kv)) d))
  | _ => 1
  end.

Lemma jsize_In k v d : In (k, v) d -> (jsize v < jsize (JDict d))%nat.
Proof.
  induction d as [|[k' v'] d IH]; simpl; [easy|].
  intros [H|H]; [injection H as -> ->; lia|]. apply IH in H. simpl in H. lia.
Qed.

(** The effect of [update_vals] key by key. *)
Lemma update_vals_get p : NoDup (keys p) -> forall u r,
  update_vals u p = Ok r ->
  forall k, dget k p = None /\ dget k r = dget k u \/
            exists pv v, dget k p = Some pv /\ merge1 (dget k u) pv = Ok v /\ dget k r = Some v.
Proof.
  induction p as [|[k0 v0] p IH]; simpl; intros Hnd u r H k.
  - injection H as <-. auto.
  - inversion Hnd; subst. rewrite update_entry_spec in H.
    destruct (merge1 (dget k0 u) v0) as [v|] eqn:Em; simpl in H; [|easy].
    destruct (IH H3 _ _ H k) as [[Hp Hr]|(pv & w & Hp & Hm & Hr)].
    + destruct (String.eqb_spec k k0).
      * subst. right. exists v0, v. repeat split; auto. rewrite Hr. apply dget_dset_eq.
      * left. split; [easy|]. rewrite Hr. now apply dget_dset_ne.
    + destruct (String.eqb_spec k k0).
      * subst. apply dget_Some_keys in Hp. easy.
      * right. exists pv, w. rewrite dget_dset_ne in Hm by easy. auto.
Qed.

Lemma update_vals_keys p u r : update_vals u p = Ok r -> NoDup (keys u) -> NoDup (keys r).
Proof.
  revert u r. induction p as [|[k v] p IH]; simpl; intros u r; [now intros [= <-]|].
  rewrite update_entry_spec. destruct (merge1 (dget k u) v); simpl; [|easy].
  intros H Hn. eapply IH; [exact H|]. now apply NoDup_keys_dset.
Qed.

Definition wf_dict d := wf_json (JDict d).
Lemma wf_dict_inv d : wf_dict d -> NoDup (keys d) /\ forall k v, dget k d = Some v -> wf_json v.
Proof.
  inversion 1; subst. split; [easy|]. intros k v Hg. apply dget_In in Hg.
  rewrite Forall_forall in H2. apply (H2 _ Hg).
Qed.

Lemma lookup_nil_dict ks : lookup (JDict []) ks = match ks with [] => Some (JDict []) | _ => None end.
Proof. destruct ks; reflexivity. Qed.

(** Full characterisation by paths. *)
Lemma update_vals_lookup : forall ks u p r,
  wf_dict p -> update_vals u p = Ok r ->
  match lookup (JDict u) ks, lookup (JDict p) ks with
  | Some a, _ => if is_dict a then exists b, lookup (JDict r) ks = Some (JDict b)
                 else lookup (JDict r) ks = Some a
  | None, Some b => if is_dict b then exists c, lookup (JDict r) ks = Some (JDict c)
                    else lookup (JDict r) ks = Some b
  | None, None => lookup (JDict r) ks = None
  end.
Proof.
  induction ks as [|k ks IH]; intros u p r Hwf H.
  - simpl. eauto.
  - destruct (wf_dict_inv Hwf) as [Hnd Hsub].
    cbn [lookup]. destruct (update_vals_get _ Hnd _ H k) as [[Hp Hr]|(pv & v & Hp & Hm & Hr)].
    + rewrite Hp, Hr. destruct (dget k u) as [uv|]; [|easy].
      destruct (lookup uv ks) as [a|]; [|easy].
      destruct (is_dict a) eqn:Ea; [|easy]. destruct a; try easy. eauto.
    + rewrite Hp, Hr. specialize (Hsub _ _ Hp).
      destruct pv as [| | | | |l|pd].
      7:{ simpl in Hm. destruct (dget k u) as [uv|].
          - destruct uv; try easy. destruct (update_vals d pd) as [d'|] eqn:E; simpl in Hm; [|easy].
            injection Hm as <-. apply (IH _ _ _ Hsub E).
          - destruct (update_vals [] pd) as [d'|] eqn:E; simpl in Hm; [|easy].
            injection Hm as <-. specialize (IH _ _ _ Hsub E). rewrite lookup_nil_dict in IH.
            destruct ks; [|exact IH]. simpl in *. eauto. }
      all: simpl in Hm; destruct (dget k u) as [uv|];
        [ destruct uv; try easy; injection Hm as <-; destruct ks; simpl; auto
        | injection Hm as <-; destruct ks; simpl; auto ].
Qed.

Lemma clash_sub k u p uv pv :
  dget k u = Some uv -> dget k p = Some pv -> clash uv pv -> clash (JDict u) (JDict p).
Proof.
  intros Hu Hp (ks & a & b & Ha & Hb & Hne). exists (k :: ks), a, b. simpl. now rewrite Hu, Hp.
Qed.

Lemma not_clash_nil p : ~ clash (JDict []) (JDict p).
Proof.
  intros (ks & a & b & Ha & Hb & Hne). rewrite lookup_nil_dict in Ha. destruct ks; [|easy].
  injection Ha as <-. simpl in Hb. injection Hb as <-. now apply Hne.
Qed.

Lemma update_vals_ok_iff : forall n u p,
  (jsize (JDict p) <= n)%nat -> wf_dict p ->
  (is_ok (update_vals u p) = true <-> ~ clash (JDict u) (JDict p)).
Proof.
  induction n as [|n IHn]; intros u p Hn Hwf; [simpl in Hn; lia|].
  (* a clash below some key, or none at all *)
  destruct (wf_dict_inv Hwf) as [Hnd Hsub].
  assert (Hm : forall k pv uo, In (k, pv) p ->
     (is_ok (merge1 uo pv) = true <-> match uo with None => True | Some uv => ~ clash uv pv end)).
  { intros k pv uo Hin. assert (Hs : (jsize pv <= n)%nat) by (apply jsize_In in Hin; lia).
    assert (Hwv : wf_json pv) by (eapply Hsub, In_dget; eauto).
    assert (Hleaf : forall uv, is_dict pv = false -> is_dict uv = false -> ~ clash uv pv).
    { intros uv H1 H2 (ks & a & b & Ha & Hb & Hne). destruct ks; simpl in *.
      - congruence.
      - destruct pv; easy. }
    assert (Hcl : forall uv, is_dict pv <> is_dict uv -> clash uv pv).
    { intros uv H. exists [], uv, pv. simpl. auto. }
    destruct pv as [| | | | |l|pd].
    7:{ destruct uo as [uv|]; simpl.
        - destruct uv as [| | | | |l|ud].
          7:{ specialize (IHn ud pd Hs Hwv). destruct (update_vals ud pd); exact IHn. }
          all: split; [easy|intros Hc; exfalso; apply Hc, Hcl; easy].
        - specialize (IHn [] pd Hs Hwv). destruct (update_vals [] pd); simpl in *; [easy|].
          split; [easy|]. intros _. apply IHn. apply not_clash_nil. }
    all: destruct uo as [uv|]; simpl; [|easy].
    all: destruct uv; simpl; (split; [intros ?; try easy; now apply Hleaf|]).
    all: try easy.
    all: intros Hc; exfalso; apply Hc, Hcl; easy. }
  clear IHn.
  assert (Hfold : forall l u', NoDup (keys l) -> (forall kv, In kv l -> In kv p) ->
     (is_ok (update_vals u' l) = true <->
      forall k pv uv, In (k, pv) l -> dget k u' = Some uv -> ~ clash uv pv)).
  { induction l as [|[k0 v0] l IH]; intros u' Hndl Hincl; simpl.
    - split; [easy|]. reflexivity.
    - inversion Hndl; subst. rewrite update_entry_spec.
      assert (Hin0 : In (k0, v0) p) by (apply Hincl; now left).
      specialize (Hm k0 v0 (dget k0 u') Hin0).
      destruct (merge1 (dget k0 u') v0) as [w|] eqn:Em; simpl.
      + rewrite IH; [|easy|intros; apply Hincl; now right].
        split.
        * intros Hall k pv uv [H|H] Hg.
          -- injection H as <- <-. rewrite Hg in Hm. now apply Hm.
          -- eapply Hall; [exact H|]. rewrite dget_dset_ne; [exact Hg|].
             intros ->. apply H1. apply in_map_iff. now exists (k0, pv).
        * intros Hall k pv uv H Hg. eapply Hall; [right; exact H|].
          rewrite dget_dset_ne in Hg; [exact Hg|].
          intros ->. apply H1. apply in_map_iff. now exists (k0, pv).
      + split; [easy|]. intros Hall. simpl in Hm. destruct (dget k0 u') as [uv|] eqn:Eg.
        * apply Hm. eapply Hall; [now left|exact Eg].
        * now apply Hm. }
  rewrite Hfold by auto. split.
  - intros Hall (ks & a & b & Ha & Hb & Hne). destruct ks as [|k ks]; simpl in *.
    + injection Ha as <-. injection Hb as <-. now apply Hne.
    + destruct (dget k u) as [uv|] eqn:Eu; [|easy]. destruct (dget k p) as [pv|] eqn:Ep; [|easy].
      eapply Hall; [apply dget_In; exact Ep|exact Eu|]. now exists ks, a, b.
  - intros Hnc k pv uv Hin Hg Hc. apply Hnc. eapply clash_sub; [exact Hg| |exact Hc].
    now apply In_dget.
Qed.

Lemma dset_dset_same {V} k (v : V) d : dset k v (dset k v d) = dset k v d.
Proof. apply dset_same. apply dget_dset_eq. Qed.

(** Merging again changes nothing. *)
Lemma update_vals_noop p : forall r,
  (forall k pv, In (k, pv) p -> exists v, dget k r = Some v /\ merge1 (Some v) pv = Ok v) ->
  update_vals r p = Ok r.
Proof.
  induction p as [|[k pv] p IH]; simpl; intros r H; [easy|].
  destruct (H k pv (or_introl eq_refl)) as (v & Hg & Hm).
  rewrite update_entry_spec, Hg, Hm. simpl. rewrite dset_same by easy.
  apply IH. intros; apply H; auto.
Qed.

Lemma update_vals_idem : forall n u p r, (jsize (JDict p) <= n)%nat -> wf_dict p ->
  update_vals u p = Ok r -> update_vals r p = Ok r.
Proof.
  induction n as [|n IHn]; intros u p r Hn Hwf H; [simpl in Hn; lia|].
  destruct (wf_dict_inv Hwf) as [Hnd Hsub].
  apply update_vals_noop. intros k pv Hin.
  assert (Hg := In_dget _ _ _ Hnd Hin).
  destruct (update_vals_get _ Hnd _ H k) as [[Hp _]|(pv' & v & Hp & Hm & Hr)]; [congruence|].
  assert (pv' = pv) by congruence. subst pv'. exists v. split; [easy|].
  assert (Hs : (jsize pv <= n)%nat) by (apply jsize_In in Hin; lia).
  specialize (Hsub _ _ Hg).
  destruct pv as [| | | | |l|pd].
  7:{ simpl in Hm |- *. destruct (dget k u) as [uv|].
      - destruct uv; try easy. destruct (update_vals d pd) as [d'|] eqn:E; simpl in Hm; [|easy].
        injection Hm as <-. rewrite (IHn _ _ _ Hs Hsub E). reflexivity.
      - destruct (update_vals [] pd) as [d'|] eqn:E; simpl in Hm; [|easy].
        injection Hm as <-. rewrite (IHn _ _ _ Hs Hsub E). reflexivity. }
  all: simpl in Hm |- *; destruct (dget k u) as [uv|];
    [destruct uv; try easy; injection Hm as <-; reflexivity
    |injection Hm as <-; reflexivity].
Qed.

(** ** Paths *)

Lemma lstrip_nochar c a s : a <> c -> lstrip c (String a s) = String a s.
Proof. intros H. simpl. destruct (Ascii.eqb_spec a c); congruence. Qed.

Lemma lstrip_repeat c s n : lstrip c (String.concat "" (repeat (String c "") n) ++ s) = lstrip c s.
Proof.
  induction n as [|n IH]; [easy|].
  assert (E : forall l (w : string), String.concat "" (w :: l) = (w ++ String.concat "" l)%string).
  { intros [|x l'] w; simpl; [now rewrite string_app_nil|easy]. }
  cbn [repeat]. rewrite E. simpl. now rewrite Ascii.eqb_refl.
Qed.

Lemma good_keys_join ks : good_keys ks ->
  exists a s, join "/" ks = String a s /\ a <> "/"%char.
Proof.
  intros [Hne Hall]. destruct ks as [|k ks]; [easy|]. inversion Hall; subst.
  destruct H1 as [Hk Hc]. destruct k as [|a k]; [easy|]. simpl in Hc.
  apply orb_false_iff in Hc as [Ha _].
  exists a. unfold join. destruct ks; simpl; eexists; (split; [reflexivity|]);
  intros ->; now rewrite Ascii.eqb_refl in Ha.
Qed.

Lemma last_char s : s <> ""%string -> exists w a, s = (w ++ String a "")%string.
Proof.
  induction s as [|a s IH]; [easy|]. intros _. destruct s as [|b s].
  - now exists ""%string, a.
  - destruct IH as (w & c & E); [easy|]. exists (String a w), c. simpl. congruence.
Qed.

Lemma good_keys_join_last ks : good_keys ks ->
  exists a s, join "/" ks = (s ++ String a "")%string /\ a <> "/"%char.
Proof.
  intros [Hne Hall]. induction ks as [|k ks IH]; [easy|]. inversion Hall; subst.
  destruct ks as [|k' ks].
  - destruct H1 as [Hk Hc]. destruct (last_char Hk) as (w & a & ->). exists a, w. split; [easy|].
    rewrite has_char_app in Hc. apply orb_false_iff in Hc as [_ Hc]. simpl in Hc.
    intros ->. now rewrite Ascii.eqb_refl in Hc.
  - destruct IH as (a & s & E & Ha); [easy|easy|]. exists a, (k ++ "/" ++ s)%string. split; [|easy].
    unfold join in *.
    change (String.concat "/" (k :: k' :: ks)) with (k ++ "/" ++ String.concat "/" (k' :: ks))%string.
    rewrite E. now rewrite !string_app_assoc.
Qed.

Lemma path_keys_join ks : good_keys ks -> path_keys (join "/" ks) = ks.
Proof.
  intros H. unfold path_keys, strip.
  destruct (good_keys_join H) as (a & s & E & Ha).
  destruct (good_keys_join_last H) as (b & t & E' & Hb).
  assert (El : lstrip "/" (join "/" ks) = join "/" ks) by (rewrite E; now apply lstrip_nochar).
  rewrite El. rewrite E' at 1. rewrite str_rev_app_dist. simpl str_rev at 2.
  simpl append. rewrite lstrip_nochar by easy.
  change (String b (str_rev t)) with (str_rev (String b "") ++ str_rev t)%string.
  rewrite <- str_rev_app_dist, <- E', str_rev_involutive.
  destruct H as [Hne Hall]. apply split_join; [easy|].
  eapply Forall_impl; [|exact Hall]. simpl; intros k0 [_ Hk0]; exact Hk0.
Qed.

(** Leading and trailing separators do not matter. *)
Lemma path_keys_slash_l p : path_keys (String "/" p) = path_keys p.
Proof. reflexivity. Qed.

Lemma lstrip_app_last c s : exists t, lstrip c (s ++ String c "") = t /\
  lstrip c (str_rev t) = lstrip c (str_rev (lstrip c s)).
Proof.
  induction s as [|a s IH]; simpl.
  - rewrite Ascii.eqb_refl. now exists ""%string.
  - destruct (Ascii.eqb a c) eqn:E.
    + exact IH.
    + eexists. split; [reflexivity|].
      change (String a (s ++ String c "")) with ((String a s) ++ String c "")%string.
      rewrite str_rev_app_dist. simpl. now rewrite Ascii.eqb_refl.
Qed.
Lemma path_keys_slash_r p : path_keys (p ++ "/") = path_keys p.
Proof.
  unfold path_keys, strip. destruct (lstrip_app_last "/" p) as (t & -> & E).
  now rewrite E.
Qed.

Lemma get_keys_lookup v ks def : get_keys v ks def = match lookup v ks with Some x => x | None => def end.
Proof.
  revert v. induction ks as [|k ks IH]; intros v; simpl; [easy|].
  destruct v; try easy. destruct (dget k d); [apply IH|easy].
Qed.

Lemma path_keys_ne p : path_keys p <> [].
Proof. apply split_on_nonempty. Qed.

Lemma path_keys_single k : has_char "/" k = false -> path_keys k = [k].
Proof.
  intros H. unfold path_keys.
  assert (Hl : forall s, has_char "/" s = false -> lstrip "/" s = s).
  { intros [|a s]; simpl; [easy|]. destruct (Ascii.eqb a "/"); easy. }
  assert (Hr : forall s, has_char "/" s = false -> has_char "/" (str_rev s) = false).
  { induction s as [|a s IH]; [easy|]. rewrite str_rev_cons, has_char_app. simpl.
    intros E. apply orb_false_iff in E as [E1 E2]. rewrite IH by easy. now rewrite E1. }
  assert (strip "/" k = k) as ->.
  { unfold strip. rewrite (Hl k H), (Hl _ (Hr k H)). apply str_rev_involutive. }
  now apply split_on_nochar.
Qed.

(** Update, forced. *)
Lemma update_keys_forced np22 ks : forall d k value,
  exists d', update_keys np22 false d k ks value = Ok d' /\
    lookup (JDict d') (k :: ks) = Some value /\
    forall q, diverge (k :: ks) q ->
      (lookup (JDict d') q = lookup (JDict d) q).
Proof.
  induction ks as [|k' ks IH]; intros d k value; cbn [update_keys].
  - eexists. split; [reflexivity|]. split.
    + simpl. now rewrite dget_dset_eq.
    + intros [|q0 q]; simpl; [easy|]. intros [H|[]]. rewrite dget_dset_ne; auto.
  - destruct (IH (sub_dict (dget k d)) k' value) as (i & Hi & Hl & Hf).
    rewrite Hi. cbn [bind]. eexists. split; [reflexivity|]. split.
    + simpl. rewrite dget_dset_eq. exact Hl.
    + intros [|q0 q]; cbn [diverge]; [easy|]. intros H. simpl.
      destruct (string_dec q0 k) as [->|Hq].
      * rewrite dget_dset_eq. destruct H as [H|H]; [congruence|].
        rewrite Hf by exact H. destruct q as [|q1 q]; [easy|]. simpl.
        destruct (dget k d) as [[| | | | | |i']|]; reflexivity.
      * rewrite dget_dset_ne by easy. reflexivity.
Qed.

Lemma update_forced np22 d ks value :
  good_keys ks ->
  exists d', update np22 false d (join "/" ks) value = Ok d' /\
    lookup (JDict d') ks = Some value /\
    forall qs, diverge ks qs -> lookup (JDict d') qs = lookup (JDict d) qs.
Proof.
  intros H. unfold update. rewrite (path_keys_join H). destruct ks as [|k ks].
  - now destruct H.
  - apply update_keys_forced.
Qed.

(** Update only if unspecified. *)
Lemma update_keys_only_if np22 ks : forall d k value d',
  Forall (fun k => has_char "/" k = false) (k :: ks) ->
  update_keys np22 true d k ks value = Ok d' ->
  let old := match lookup (JDict d) (k :: ks) with Some x => x | None => JNull end in
  exists b, value_unspecified np22 old = Ok b /\
    lookup (JDict d') (k :: ks) = (if b then Some value else lookup (JDict d) (k :: ks)) /\
    (forall q, diverge (k :: ks) q -> lookup (JDict d') q = lookup (JDict d) q).
Proof.
  induction ks as [|k' ks IH]; intros d k value d' Hk; cbn [update_keys].
  - unfold is_unspecified, get. rewrite path_keys_single by (now inversion Hk).
    rewrite get_keys_lookup. cbn zeta.
    destruct (value_unspecified np22 _) as [b|] eqn:E; simpl bind; [|easy].
    intros [= <-]. exists b. split; [easy|]. destruct b; simpl.
    + rewrite dget_dset_eq. split; [easy|]. intros [|q0 q]; [easy|]. intros [H|[]].
      simpl. rewrite dget_dset_ne by auto. easy.
    + easy.
  - set (inner := sub_dict (dget k d)).
    destruct (update_keys np22 true inner k' ks value) as [i|] eqn:E; simpl bind; [|easy].
    intros [= <-]. inversion Hk; subst.
    destruct (IH _ _ _ _ H2 E) as (b & Hb & Hl & Hf).
    assert (El : lookup (JDict d) (k :: k' :: ks) = lookup (JDict inner) (k' :: ks)).
    { simpl. subst inner. destruct (dget k d) as [[| | | | | |i']|]; reflexivity. }
    cbn zeta. rewrite El. exists b. split; [exact Hb|]. split.
    + cbn [lookup]. rewrite dget_dset_eq. exact Hl.
    + intros [|q0 q]; cbn [diverge]; [easy|]. intros H. simpl.
      destruct (string_dec q0 k) as [->|Hq].
      * rewrite dget_dset_eq. destruct H as [H|H]; [congruence|].
        rewrite Hf by exact H. destruct q as [|q1 q]; [easy|]. simpl. subst inner.
        destruct (dget k d) as [[| | | | | |i']|]; reflexivity.
      * rewrite dget_dset_ne by easy. reflexivity.
Qed.

Lemma update_only_if np22 d ks value d' :
  good_keys ks -> update np22 true d (join "/" ks) value = Ok d' ->
  let old := match lookup (JDict d) ks with Some x => x | None => JNull end in
  exists b, value_unspecified np22 old = Ok b /\
    lookup (JDict d') ks = (if b then Some value else lookup (JDict d) ks) /\
    (forall q, diverge ks q -> lookup (JDict d') q = lookup (JDict d) q).
Proof.
  intros H. unfold update. rewrite (path_keys_join H). destruct ks as [|k ks].
  - now destruct H.
  - apply update_keys_only_if. destruct H as [_ H]. eapply Forall_impl; [|exact H]. simpl. tauto.
Qed.

Lemma get_lookup d ks def : good_keys ks ->
  get (Some d) (join "/" ks) def = match lookup (JDict d) ks with Some x => x | None => def end.
Proof. intros H. unfold get. rewrite (path_keys_join H). apply get_keys_lookup. Qed.

Lemma get_slashes d p def :
  get d ("/" ++ p) def = get d p def /\ get d (p ++ "/") def = get d p def.
Proof.
  unfold get. destruct d; [|easy].
  change ("/" ++ p)%string with (String "/" p). now rewrite path_keys_slash_l, path_keys_slash_r.
Qed.

Lemma update_then_get np22 d ks value :
  good_keys ks ->
  exists d', update np22 false d (join "/" ks) value = Ok d' /\
    (forall def, get (Some d') (join "/" ks) def = value) /\
    forall qs def, good_keys qs -> diverge ks qs ->
      get (Some d') (join "/" qs) def = get (Some d) (join "/" qs) def.
Proof.
  intros H. destruct (update_forced np22 d value H) as (d' & Hu & Hl & Hf).
  exists d'. split; [exact Hu|]. split.
  - intros def. rewrite get_lookup by exact H. now rewrite Hl.
  - intros qs def Hq Hd. rewrite !get_lookup by exact Hq. now rewrite Hf.
Qed.

Lemma unspecified_iff np22 d ks b : good_keys ks ->
  is_unspecified np22 d (join "/" ks) = Ok b ->
  (b = true <-> match lookup (JDict d) ks with Some v => not_given v | None => True end).
Proof.
  intros Hk. unfold is_unspecified. rewrite get_lookup by easy. unfold not_given.
  destruct (lookup (JDict d) ks) as [v|]; [|now intros [= <-]].
  destruct v as [| | | | |[|x [|y l]]|[|e l]]; cbn; try (intros [= <-]; intuition congruence).
  - destruct np22; [easy|]. intros [= <-]. intuition congruence.
  - intros [= <-]. destruct x; intuition congruence.
Qed.

Lemma unspecified_ok np22 d ks : good_keys ks ->
  (is_ok (is_unspecified np22 d (join "/" ks)) = true <->
   forall l, lookup (JDict d) ks = Some (JList l) ->
     List.length l = 1%nat \/ (l = [] /\ np22 = false)).
Proof.
  intros Hk. unfold is_unspecified. rewrite get_lookup by easy.
  destruct (lookup (JDict d) ks) as [v|]; [|easy].
  destruct v as [| | | | |[|x [|y l]]|[|e l]]; cbn; try (split; [intros _ ? ?; congruence|easy]).
  - destruct np22; cbn; split; try easy.
    + intros H. destruct (H [] eq_refl) as [H0|[_ H0]]; discriminate H0.
    + intros _ l [= <-]. now right.
  - split; [|easy]. intros _ l [= <-]. now left.
  - split; [easy|]. intros H. destruct (H _ eq_refl) as [H0|[H0 _]]; discriminate H0.
Qed.

Lemma is_unspecified_list np22 : exists d path,
  get (Some d) path JNull = JList [JNum (qc 1); JNum (qc 2)] /\
  is_unspecified np22 d path = Err ValueError /\
  update np22 true d path JNull = Err ValueError.
Proof. exists [("a"%string, JList [JNum (qc 1); JNum (qc 2)])], "a"%string. auto. Qed.

(** ** Index conversions *)

Lemma list_max_const n l : l <> [] -> Forall (fun x => x = n) l -> list_max l = n.
Proof.
  intros Hne H. induction H as [|x l Hx Hl IH]; [easy|]. subst. simpl.
  destruct l as [|y l]; simpl in *; [lia|]. inversion Hl; subst. rewrite IH by easy. lia.
Qed.

Lemma simple_multi_round_trip n labels :
  (1 < n)%nat -> labels <> [] ->
  Forall (fun lab => List.length lab = n /\ Forall no_dash lab) labels ->
  to_multi_index (to_simple_index (Multi n labels)) = Ok (Multi n labels).
Proof.
  intros Hn Hne H. simpl. destruct (Nat.ltb_spec 1 n); [|lia].
  assert (E : map (split_on "-") (map (join "-") labels) = labels).
  { clear Hne. induction H as [|lab labels [Hl Hd] _ IH]; simpl; [easy|]. f_equal; [|exact IH].
    apply split_join; [|exact Hd]. intros ->. simpl in Hl. lia. }
  unfold to_multi_index. destruct (map (join "-") labels) as [|x xs] eqn:El.
  - now apply map_eq_nil in El.
  - rewrite E.
    assert (Hm : list_max (map (@List.length string) labels) = n).
    { apply list_max_const; [now destruct labels|].
      rewrite Forall_forall in H |- *. intros y Hy. apply in_map_iff in Hy as (lab & <- & Hin).
      now apply H. }
    rewrite Hm. destruct (Nat.ltb_spec 1 n); [|lia]. do 2 f_equal.
    clear - H. induction H as [|lab labels [Hl _] _ IH]; simpl; [easy|]. rewrite IH. f_equal.
    unfold pad_to. rewrite Hl, Nat.sub_diag. apply app_nil_r.
Qed.

(** The other way round: flat labels of equal depth. *)
Lemma multi_simple_round_trip labels n m :
  (1 < n)%nat -> labels <> [] ->
  Forall (fun s => List.length (split_on "-" s) = n) labels ->
  to_multi_index (Flat labels) = Ok m ->
  to_simple_index m = Flat labels.
Proof.
  intros Hn Hne H. unfold to_multi_index. destruct labels as [|x xs] eqn:El; [easy|]. rewrite <- El in *.
  assert (Hm : list_max (map (@List.length string) (map (split_on "-") labels)) = n).
  { apply list_max_const; [now rewrite El|].
    rewrite Forall_forall in H |- *. intros y Hy. apply in_map_iff in Hy as (lab & <- & Hin).
    apply in_map_iff in Hin as (s & <- & Hs). now apply H. }
  rewrite Hm. destruct (Nat.ltb_spec 1 n); [|lia]. intros [= <-].
  unfold to_simple_index. destruct (Nat.ltb_spec 1 n); [|lia]. f_equal.
  clear - H. induction H as [|s labels Hl _ IH]; simpl; [easy|]. rewrite IH. f_equal.
  unfold pad_to. rewrite Hl, Nat.sub_diag. simpl. rewrite app_nil_r. apply (join_split "-").
Qed.

Lemma list_max_In l : l <> [] -> In (list_max l) l.
Proof.
  induction l as [|a l IH]; [easy|]. intros _. cbn [list_max fold_right].
  change (fold_right Nat.max 0%nat l) with (list_max l).
  destruct l as [|b l]; [left; cbn; lia|].
  destruct (Nat.max_spec a (list_max (b :: l))) as [[_ ->]|[_ ->]]; [right; now apply IH|now left].
Qed.
Lemma list_max_ge x l : In x l -> (x <= list_max l)%nat.
Proof.
  induction l as [|a l IH]; [easy|]. intros [->|H]; cbn [list_max fold_right];
    change (fold_right Nat.max 0%nat l) with (list_max l); [lia|]. specialize (IH H). lia.
Qed.

Lemma expand_rows labels n rows :
  to_multi_index (Flat labels) = Ok (Multi n rows) ->
  (1 < n)%nat /\ List.length rows = List.length labels /\
  (exists s, In s labels /\ List.length (split_on "-" s) = n) /\
  forall i s, nth_error labels i = Some s ->
    exists k, nth_error rows i = Some (split_on "-" s ++ repeat ""%string k) /\
              (List.length (split_on "-" s) + k = n)%nat.
Proof.
  unfold to_multi_index. destruct labels as [|x xs] eqn:El; [easy|]. rewrite <- El.
  set (w := list_max _). destruct (Nat.ltb_spec 1 w) as [Hw|]; [|easy]. intros [= <- <-].
  split; [exact Hw|]. split; [now rewrite !map_length|]. split.
  - assert (H : In w (map (@List.length string) (map (split_on "-") labels))) by (apply list_max_In; now rewrite El).
    apply in_map_iff in H as (l & Hl & H). apply in_map_iff in H as (s & <- & Hs). eauto.
  - intros i s Hi. exists (w - List.length (split_on "-" s))%nat. split.
    + rewrite map_map. erewrite map_nth_error by exact Hi. reflexivity.
    + assert (List.length (split_on "-" s) <= w)%nat; [|lia]. apply list_max_ge.
      apply in_map, in_map. eapply nth_error_In, Hi.
Qed.

Lemma expand_flat labels : labels <> [] -> Forall no_dash labels ->
  to_multi_index (Flat labels) = Ok (Flat labels).
Proof.
  intros Hne H. unfold to_multi_index. destruct labels as [|x xs] eqn:El; [easy|]. rewrite <- El in *.
  assert (list_max (map (@List.length string) (map (split_on "-") labels)) = 1%nat) as ->.
  { apply list_max_const; [now rewrite El|]. rewrite Forall_forall in H |- *. intros y Hy.
    apply in_map_iff in Hy as (lab & <- & Hin). apply in_map_iff in Hin as (s & <- & Hs).
    rewrite split_on_nochar; [easy|]. now apply H. }
  now rewrite El.
Qed.

(** ** Selective scaling *)

Lemma level_pos_nth name names p : NoDup names ->
  level_pos name names = Some p <-> nth_error names p = Some name.
Proof.
  intros Hnd. revert p. induction names as [|n names IH]; intros p; simpl.
  - split; [easy|]. destruct p; easy.
  - inversion Hnd; subst. destruct (String.eqb_spec name n).
    + subst. split.
      * intros [= <-]. reflexivity.
      * destruct p; [easy|]. simpl. intros H. apply nth_error_In in H. easy.
    + destruct p; simpl.
      * split; [|congruence]. destruct (level_pos name names); easy.
      * rewrite <- IH by easy. destruct (level_pos name names); simpl; split; congruence.
Qed.

Lemma level_pos_None name names : level_pos name names = None <-> ~ In name names.
Proof.
  induction names as [|n names IH]; simpl; [tauto|].
  destruct (String.eqb_spec name n).
  - subst. split; [easy|tauto].
  - destruct (level_pos name names); simpl; intuition congruence.
Qed.

Lemma conditions_mask_ok names conds label acc :
  NoDup names -> (forall lv v, In (lv, v) conds -> In lv names) ->
  exists b, conditions_mask names conds label acc = Ok b /\
    (b = true <-> acc = true /\ satisfies names conds label).
Proof.
  intros Hnd. revert acc. induction conds as [|[lv v] conds IH]; intros acc Hk; simpl.
  - exists acc. split; [easy|]. unfold satisfies. simpl. intuition.
  - destruct (level_pos lv names) as [p|] eqn:E.
    2:{ apply level_pos_None in E. exfalso. apply E, (Hk lv v). now left. }
    destruct (IH (acc && label_at p v label)) as (b & Hb & Hspec); [intros; eapply Hk; right; eauto|].
    exists b. split; [exact Hb|]. rewrite Hspec, andb_true_iff.
    assert (Hla : label_at p v label = true <-> nth_error label p = Some v).
    { unfold label_at. destruct (nth_error label p); [|easy].
      rewrite String.eqb_eq. split; congruence. }
    rewrite Hla. apply level_pos_nth in E; [|easy]. unfold satisfies. simpl.
    split.
    + intros [[Ha Hp] Hs]. split; [easy|]. intros lv' v' [H|H]; [|auto].
      injection H as <- <-. eauto.
    + intros [Ha Hs]. repeat split; auto.
      destruct (Hs lv v (or_introl eq_refl)) as (p' & Hn & Hl).
      assert (p' = p); [|now subst].
      eapply NoDup_nth_error; eauto; [|congruence].
      apply nth_error_Some. congruence.
Qed.

Lemma scale_values_spec f vs : scaled_by f vs (scale_values f vs).
Proof.
  unfold scaled_by, scale_values. induction vs as [|v vs IH]; simpl; constructor; [|exact IH].
  destruct v; simpl; [|easy]. ring.
Qed.

Definition scale_if (m : bool) (f : Qc) (e : list string * list num) :=
  if m then (fst e, scale_values f (snd e)) else e.

Definition matchb (names : list string) (conds : list (string * string)) (label : list string) : bool :=
  match conditions_mask names conds label true with Ok b => b | Err _ => false end.

Definition known_levels (names : list string) (conds : list (string * string)) : Prop :=
  forall lv v, In (lv, v) conds -> In lv names.

Lemma matchb_spec names conds label : NoDup names -> known_levels names conds ->
  matchb names conds label = true <-> satisfies names conds label.
Proof.
  intros Hn Hk. unfold matchb. destruct (@conditions_mask_ok names conds label true Hn Hk) as (b & -> & H).
  rewrite H. tauto.
Qed.

Lemma known_levels_dec names conds :
  existsb (fun c : string * string => match level_pos (fst c) names with None => true | _ => false end) conds = false
  <-> known_levels names conds.
Proof.
  unfold known_levels. rewrite <- not_true_iff_false, existsb_exists. split.
  - intros H lv v Hin. destruct (level_pos lv names) eqn:E.
    + destruct (in_dec string_dec lv names); [easy|]. apply level_pos_None in n0. congruence.
    + exfalso. apply H. exists (lv, v). simpl. now rewrite E.
  - intros H ([lv v] & Hin & E). simpl in E. destruct (level_pos lv names) eqn:E'; [easy|].
    apply level_pos_None in E'. apply E', (H _ _ Hin).
Qed.

Lemma multiply_factor_eq axis raise t conds f :
  NoDup (levels t) ->
  multiply_factor axis raise t conds f =
  if negb (Z.eqb axis 0 || Z.eqb axis 1) then Err ValueError
  else if existsb (fun c => match level_pos (fst c) (levels t) with None => true | _ => false end) conds
  then Err KeyError
  else if negb (existsb (fun e => matchb (levels t) conds (fst e)) (entries t)) && raise then Err ValueError
  else Ok {| levels := levels t;
             entries := map (fun e => scale_if (matchb (levels t) conds (fst e)) f e) (entries t) |}.
Proof.
  intros Hnd. unfold multiply_factor. destruct (negb _); [easy|].
  destruct (existsb (fun c : string * string => _) conds) eqn:Ek; [easy|].
  apply known_levels_dec in Ek.
  rewrite (@mapM_ext _ _ _ (fun e => Ok (matchb (levels t) conds (fst e)))).
  2:{ intros e _. unfold matchb. now destruct (@conditions_mask_ok (levels t) conds (fst e) true Hnd Ek) as (b & -> & _). }
  rewrite mapM_pure. simpl bind.
  assert (E : existsb (fun b => b) (map (fun e => matchb (levels t) conds (fst e)) (entries t))
              = existsb (fun e => matchb (levels t) conds (fst e)) (entries t)).
  { induction (entries t); simpl; congruence. }
  rewrite E. destruct (negb _ && raise)%bool; [easy|]. do 2 f_equal.
  clear E. unfold scale_if. induction (entries t) as [|e es IH]; simpl; [easy|]. now rewrite IH.
Qed.

Lemma multiply_factor_ok_iff axis raise t conds f :
  NoDup (levels t) ->
  (is_ok (multiply_factor axis raise t conds f) = true <->
   (axis = 0 \/ axis = 1)%Z /\ known_levels (levels t) conds /\
   (raise = true -> exists e, In e (entries t) /\ satisfies (levels t) conds (fst e))).
Proof.
  intros Hnd. rewrite multiply_factor_eq by easy.
  destruct (Z.eqb axis 0 || Z.eqb axis 1)%bool eqn:Ea; cbn [negb].
  2:{ split; [easy|]. intros [H _]. apply orb_false_iff in Ea as [E0 E1].
      apply Z.eqb_neq in E0, E1. lia. }
  assert (Hax : (axis = 0 \/ axis = 1)%Z).
  { apply orb_true_iff in Ea as [E|E]; apply Z.eqb_eq in E; auto. }
  destruct (existsb (fun c : string * string => _) conds) eqn:Ek.
  { split; [easy|]. intros (_ & H & _). apply known_levels_dec in H. congruence. }
  apply known_levels_dec in Ek.
  destruct (existsb (fun e => matchb (levels t) conds (fst e)) (entries t)) eqn:Em; cbn [negb andb].
  - apply existsb_exists in Em as (e0 & Hin & Hm). rewrite matchb_spec in Hm by easy.
    split; [|easy]. intros _. split; [easy|]. split; [easy|]. eauto.
  - destruct raise.
    + split; [easy|]. intros (_ & _ & H). destruct (H eq_refl) as (e0 & Hin & Hs).
      rewrite <- matchb_spec in Hs by easy.
      rewrite <- not_true_iff_false in Em. exfalso. apply Em. apply existsb_exists. eauto.
    + split; [|easy]. intros _. split; [easy|]. split; easy.
Qed.

Lemma multiply_factor_effect axis raise t conds f t' :
  NoDup (levels t) ->
  multiply_factor axis raise t conds f = Ok t' ->
  levels t' = levels t /\
  Forall2 (fun e e' => fst e' = fst e /\
             (satisfies (levels t) conds (fst e) -> scaled_by f (snd e) (snd e')) /\
             (~ satisfies (levels t) conds (fst e) -> snd e' = snd e))
          (entries t) (entries t').
Proof.
  intros Hnd. rewrite multiply_factor_eq by easy.
  destruct (negb _); [easy|].
  destruct (existsb (fun c : string * string => _) conds) eqn:Ek; [easy|].
  apply known_levels_dec in Ek.
  destruct (_ && _)%bool; [easy|]. intros [= <-]. simpl. split; [easy|].
  induction (entries t) as [|e es IH]; simpl; constructor; [|exact IH].
  unfold scale_if. destruct (matchb (levels t) conds (fst e)) eqn:Em; simpl.
  - rewrite matchb_spec in Em by easy. repeat split; [intros; apply scale_values_spec|easy].
  - rewrite <- not_true_iff_false, matchb_spec in Em by easy. repeat split; easy.
Qed.

Lemma scale_values_comm f g vs : scale_values f (scale_values g vs) = scale_values g (scale_values f vs).
Proof.
  unfold scale_values. rewrite !map_map. apply map_ext. intros [v|]; simpl; [|easy]. f_equal. ring.
Qed.

Lemma existsb_map_fst names conds f m es :
  existsb (fun e => matchb names conds (fst e)) (map (fun e => scale_if (m e) f e) es)
  = existsb (fun e => matchb names conds (fst e)) es.
Proof.
  induction es as [|e es IH]; simpl; [easy|]. rewrite IH. unfold scale_if. now destruct (m e).
Qed.

Lemma multiply_factor_commute axis raise t c1 f1 c2 f2 :
  NoDup (levels t) ->
  is_ok (multiply_factor axis raise t c1 f1) = true ->
  is_ok (multiply_factor axis raise t c2 f2) = true ->
  (let* a := multiply_factor axis raise t c1 f1 in multiply_factor axis raise a c2 f2) =
  (let* a := multiply_factor axis raise t c2 f2 in multiply_factor axis raise a c1 f1).
Proof.
  intros Hnd. rewrite !multiply_factor_eq by easy.
  destruct (negb (Z.eqb axis 0 || Z.eqb axis 1)) eqn:Ea; [easy|].
  destruct (existsb (fun c : string * string => _) c1) eqn:E1; [easy|].
  destruct (existsb (fun e => matchb (levels t) c1 (fst e)) (entries t)) eqn:M1;
  destruct (existsb (fun c : string * string => _) c2) eqn:E2; try easy;
  destruct (existsb (fun e => matchb (levels t) c2 (fst e)) (entries t)) eqn:M2;
  destruct raise; simpl; try easy; intros _ _;
  rewrite !multiply_factor_eq by easy; simpl levels; simpl entries; rewrite Ea, E1, E2;
  rewrite !existsb_map_fst, M1, M2; simpl; do 2 f_equal; rewrite !map_map; apply map_ext; intros e;
  unfold scale_if;
  destruct (matchb (levels t) c1 (fst e)) eqn:X1, (matchb (levels t) c2 (fst e)) eqn:X2; simpl;
  rewrite ?X1, ?X2; simpl; try easy; f_equal; apply scale_values_comm.
Qed.

(** ** Unique index *)

Lemma label_eqb_eq a b : label_eqb a b = true <-> a = b.
Proof.
  revert b. induction a as [|x a IH]; intros [|y b]; simpl; try easy.
  rewrite andb_true_iff, String.eqb_eq, IH. split; [now intros [-> ->]|]. now intros [= -> ->].
Qed.

Lemma filter_occurrences lab l : List.length (filter (label_eqb lab) l) = occurrences lab l.
Proof.
  induction l as [|x l IH]; simpl; [easy|].
  destruct (list_eq_dec string_dec lab x).
  - subst. assert (label_eqb x x = true) as -> by now apply label_eqb_eq. simpl. congruence.
  - destruct (label_eqb lab x) eqn:E; [apply label_eqb_eq in E; congruence|]. exact IH.
Qed.

Lemma occurrences_app lab l1 l2 : occurrences lab (l1 ++ l2) = (occurrences lab l1 + occurrences lab l2)%nat.
Proof. induction l1; simpl; [easy|]. rewrite IHl1. lia. Qed.

Lemma add_uid_nth {A} (l : list (list string * A)) : forall seen i lab a,
  nth_error l i = Some (lab, a) ->
  nth_error (add_uid seen l) i =
  Some (lab ++ [str_of_nat (occurrences lab seen + occurrences lab (map fst (firstn i l)))], a).
Proof.
  induction l as [|[lab0 a0] l IH]; intros seen [|i] lab a; simpl; try easy.
  - intros [= -> ->]. rewrite filter_occurrences, Nat.add_0_r. reflexivity.
  - intros H. rewrite (IH _ _ _ _ H), occurrences_app. simpl. do 5 f_equal. lia.
Qed.

Lemma add_uid_length {A} (l : list (list string * A)) seen : List.length (add_uid seen l) = List.length l.
Proof. revert seen. induction l as [|[lab a] l IH]; intros; simpl; [easy|]. now rewrite IH. Qed.

Lemma occurrences_firstn_lt {A} (l : list (list string * A)) i j lab a :
  nth_error l i = Some (lab, a) -> (i < j)%nat ->
  (occurrences lab (map fst (firstn i l)) < occurrences lab (map fst (firstn j l)))%nat.
Proof.
  revert i j. induction l as [|[lab0 a0] l IH]; intros [|i] [|j]; simpl; try easy; try lia.
  - intros [= -> ->] _. destruct (list_eq_dec string_dec lab lab); [lia|easy].
  - intros H Hij. apply (IH i j) in H; [|lia]. lia.
Qed.

Lemma add_uid_NoDup {A} (l : list (list string * A)) : NoDup (map fst (add_uid [] l)).
Proof.
  apply NoDup_nth_error. intros i j Hi. rewrite !nth_error_map.
  rewrite map_length, add_uid_length in Hi.
  destruct (nth_error l i) as [[li ai]|] eqn:Ei; [|apply nth_error_None in Ei; lia].
  rewrite (add_uid_nth _ _ _ Ei). simpl.
  destruct (nth_error l j) as [[lj aj]|] eqn:Ej.
  - rewrite (add_uid_nth _ _ _ Ej). simpl. intros [= H].
    apply app_inj_tail in H as [<- H]. apply str_of_nat_inj in H.
    destruct (lt_eq_lt_dec i j) as [[Hl|He]|Hl]; [|easy|].
    + pose proof (occurrences_firstn_lt _ Ei Hl). lia.
    + pose proof (occurrences_firstn_lt _ Ej Hl). lia.
  - destruct (nth_error (add_uid [] l) j) eqn:E; [|easy].
    assert (j < List.length (add_uid [] l))%nat by (apply nth_error_Some; congruence).
    rewrite add_uid_length in *. apply nth_error_None in Ej. lia.
Qed.

Lemma dedupe_NoDup {A} (l : list (list string * A)) : NoDup (map fst (dedupe_index l)).
Proof.
  unfold dedupe_index. eapply Permutation_NoDup; [|apply (add_uid_NoDup l)].
  apply Permutation_map, isort_perm.
Qed.

Lemma dedupe_complete {A} (l : list (list string * A)) i lab a :
  nth_error l i = Some (lab, a) ->
  In (lab ++ [str_of_nat (occurrences lab (map fst (firstn i l)))], a) (dedupe_index l).
Proof.
  intros H. unfold dedupe_index. eapply Permutation_in; [apply isort_perm|].
  eapply nth_error_In. rewrite (add_uid_nth _ _ _ H). reflexivity.
Qed.

Lemma dedupe_perm {A} (l : list (list string * A)) :
  Permutation (map (fun e => (removelast (fst e), snd e)) (dedupe_index l)) l.
Proof.
  unfold dedupe_index.
  transitivity (map (fun e => (removelast (fst e), snd e)) (add_uid [] l)).
  - apply Permutation_map. symmetry. apply isort_perm.
  - generalize (@nil (list string)). induction l as [|[lab a] l IH]; intros seen; simpl; [constructor|].
    rewrite removelast_last. constructor. apply IH.
Qed.

Lemma dedupe_sorted {A} (l : list (list string * A)) :
  StronglySorted (fun a b => label_le (fst a) (fst b) = true) (dedupe_index l).
Proof.
  unfold dedupe_index. apply isort_sorted.
  - intros a b c. apply label_le_trans.
  - intros a b. apply label_le_total.
Qed.

(** ** Mapping inversion *)

Lemma invert_inner k vs : forall acc,
  foldM (fun (acc' : dict string) v => if dmem v acc' then Err ValueError else Ok (acc' ++ [(v, k)])) acc vs
  = if existsb (fun v => dmem v acc) vs || negb (if ListDec.NoDup_dec string_dec vs then true else false)
    then Err ValueError else Ok (acc ++ map (fun v => (v, k)) vs).
Proof.
  induction vs as [|v vs IH]; intros acc; simpl.
  - destruct (ListDec.NoDup_dec string_dec []); [|now exfalso; apply n; constructor].
    simpl. now rewrite app_nil_r.
  - destruct (dmem v acc) eqn:E; simpl; [easy|]. rewrite IH, <- app_assoc. simpl.
    assert (Hm : existsb (fun x => dmem x (acc ++ [(v, k)])) vs = existsb (fun x => dmem x acc) vs || mem v vs).
    { clear. induction vs as [|x vs IH]; simpl; [easy|]. rewrite IH.
      assert (dmem x (acc ++ [(v, k)]) = dmem x acc || String.eqb v x)%bool as ->.
      { unfold dmem. rewrite dget_app. simpl. destruct (dget x acc); simpl; [easy|].
        rewrite String.eqb_sym. now destruct (String.eqb v x). }
      unfold mem. simpl. destruct (dmem x acc), (String.eqb v x), (existsb (fun x0 => dmem x0 acc) vs); simpl; easy. }
    rewrite Hm.
    destruct (ListDec.NoDup_dec string_dec vs) as [Hd|Hd], (ListDec.NoDup_dec string_dec (v :: vs)) as [Hd'|Hd'];
      try (inversion Hd'; subst; tauto).
    + inversion Hd'; subst. assert (mem v vs = false) as -> by now apply mem_false.
      rewrite !orb_false_r. reflexivity.
    + assert (mem v vs = true) as ->.
      { apply mem_true. destruct (in_dec string_dec v vs); [easy|]. exfalso. apply Hd'. now constructor. }
      simpl. rewrite !orb_true_r. reflexivity.
    + simpl. rewrite !orb_true_r. reflexivity.
Qed.

Definition pairs_of (m : dict (list string)) : list (string * string) :=
  flat_map (fun kv => map (fun v => (v, fst kv)) (snd kv)) m.

Lemma keys_pairs m : keys (pairs_of m) = flat_map snd m.
Proof.
  unfold pairs_of, keys. induction m as [|[k vs] m IH]; simpl; [easy|].
  rewrite map_app, IH, map_map. simpl. now rewrite map_id.
Qed.

Lemma NoDup_app_iff {A} (l1 l2 : list A) :
  NoDup (l1 ++ l2) <-> NoDup l1 /\ NoDup l2 /\ (forall x, In x l1 -> ~ In x l2).
Proof.
  split.
  - induction l1 as [|x l1 IH]; simpl; [intros; repeat split; auto; constructor|].
    intros H. inversion H; subst. rewrite in_app_iff in H2. destruct (IH H3) as (H4 & H5 & H6).
    repeat split; auto; [constructor; tauto|]. intros y [->|Hy]; [tauto|auto].
  - intros (H1 & H2 & H3). now apply NoDup_app_intro.
Qed.

Lemma invert_mapping_eq m acc :
  NoDup (keys acc) ->
  foldM (fun (acc : dict string) (kv : string * list string) =>
           foldM (fun acc' v => if dmem v acc' then Err ValueError else Ok (acc' ++ [(v, fst kv)]))
                 acc (snd kv)) acc m
  = if ListDec.NoDup_dec string_dec (keys acc ++ keys (pairs_of m))
    then Ok (acc ++ pairs_of m) else Err ValueError.
Proof.
  revert acc. induction m as [|[k vs] m IH]; intros acc Hacc.
  - simpl. rewrite !app_nil_r. destruct (ListDec.NoDup_dec string_dec (keys acc)); easy.
  - cbn [foldM fst snd]. rewrite invert_inner.
    assert (Ep : pairs_of ((k, vs) :: m) = map (fun v => (v, k)) vs ++ pairs_of m) by reflexivity.
    assert (Ekv : keys (map (fun v : string => (v, k)) vs) = vs).
    { unfold keys. rewrite map_map. simpl. apply map_id. }
    assert (Ek : keys (pairs_of ((k, vs) :: m)) = vs ++ keys (pairs_of m)).
    { rewrite Ep. unfold keys in *. now rewrite map_app, Ekv. }
    rewrite Ek.
    destruct (existsb (fun v => dmem v acc) vs) eqn:Ex; simpl orb; cbv iota.
    + simpl. apply existsb_exists in Ex as (v & Hin & Hm). apply dmem_true in Hm.
      destruct (ListDec.NoDup_dec string_dec (keys acc ++ vs ++ keys (pairs_of m))) as [Hn|]; [|easy].
      apply NoDup_app_iff in Hn as (_ & _ & Hn). exfalso. apply (Hn v Hm). apply in_app_iff; auto.
    + destruct (ListDec.NoDup_dec string_dec vs) as [Hvs|Hvs]; simpl.
      * assert (Hdis : forall x, In x (keys acc) -> ~ In x vs).
        { intros x Hx Hv. rewrite <- not_true_iff_false, existsb_exists in Ex. apply Ex.
          exists x. split; [easy|]. now apply dmem_true. }
        assert (Eka : keys (acc ++ map (fun v : string => (v, k)) vs) = keys acc ++ vs).
        { unfold keys in *. rewrite map_app. now rewrite Ekv. }
        rewrite IH.
        -- rewrite Eka, <- !app_assoc. reflexivity.
        -- rewrite Eka. now apply NoDup_app_intro.
      * destruct (ListDec.NoDup_dec string_dec (keys acc ++ vs ++ keys (pairs_of m))) as [Hn|]; [|easy].
        apply NoDup_app_iff in Hn as (_ & Hn & _). apply NoDup_app_iff in Hn as (Hn & _). easy.
Qed.

Lemma invert_mapping_spec m :
  invert_mapping m = if ListDec.NoDup_dec string_dec (flat_map snd m)
                     then Ok (pairs_of m) else Err ValueError.
Proof.
  unfold invert_mapping. rewrite invert_mapping_eq by constructor. simpl. now rewrite keys_pairs.
Qed.

Lemma invert_ok_iff m : is_ok (invert_mapping m) = true <-> NoDup (flat_map snd m).
Proof. rewrite invert_mapping_spec. destruct (ListDec.NoDup_dec _ _); simpl; split; easy. Qed.

Lemma invert_lookup m r v k :
  invert_mapping m = Ok r ->
  (dget v r = Some k <-> exists vs, In (k, vs) m /\ In v vs).
Proof.
  rewrite invert_mapping_spec. destruct (ListDec.NoDup_dec _ _) as [Hn|]; [|easy]. intros [= <-].
  rewrite <- keys_pairs in Hn. split.
  - intros H. apply dget_In in H. unfold pairs_of in H. apply in_flat_map in H as ([k' vs] & Hin & H).
    apply in_map_iff in H as (v' & [= -> <-] & Hv). eauto.
  - intros (vs & Hin & Hv). apply In_dget; [easy|]. unfold pairs_of. apply in_flat_map.
    exists (k, vs). split; [easy|]. apply in_map_iff. eauto.
Qed.

(** ** Units *)

Lemma find_category_Some u all us : find_category u all = Some us ->
  exists c, In (c, us) all /\ In u (keys us).
Proof.
  induction all as [|[c us'] all IH]; simpl; [easy|].
  destruct (dmem u us') eqn:E.
  - intros [= <-]. exists c. split; [auto|]. now apply dmem_true.
  - intros H. destruct (IH H) as (c' & Hin & Hu). eauto.
Qed.
Lemma find_category_None u all : find_category u all = None <->
  forall c us, In (c, us) all -> ~ In u (keys us).
Proof.
  induction all as [|[c us'] all IH]; simpl; [firstorder|].
  destruct (dmem u us') eqn:E.
  - split; [easy|]. intros H. apply dmem_true in E. exfalso. eapply H; eauto.
  - apply dmem_false in E. rewrite IH. split.
    + intros H c0 us [[= <- <-]|Hin]; eauto.
    + intros H c0 us Hin. eauto.
Qed.

Lemma units_for_infer all u t :
  units_for all u t None = match find_category u all with
                           | None => Err ValueError
                           | Some us => if dmem t us then Ok us else Err ValueError end.
Proof. reflexivity. Qed.

Lemma convert_units_accept all vs u t :
  one_category all ->
  (is_ok (convert_units all vs u t None) = true <->
   exists c us, In (c, us) all /\ In u (keys us) /\ In t (keys us)).
Proof.
  intros Hone. unfold convert_units. rewrite units_for_infer.
  destruct (find_category u all) as [us|] eqn:E.
  - destruct (find_category_Some _ _ E) as (c & Hin & Hu).
    destruct (dmem t us) eqn:Et.
    + simpl. pose proof Et as Et'. apply dmem_true in Et'.
      destruct (In_keys_dget _ _ Hu) as [f ->]. destruct (In_keys_dget _ _ Et') as [g ->].
      simpl. split; [|easy]. eauto.
    + simpl. split; [easy|]. intros (c' & us' & Hin' & Hu' & Ht').
      assert (us = us') by (eapply Hone; [exact Hin|exact Hin'|exact Hu|exact Hu']). subst.
      apply dmem_true in Ht'. congruence.
  - simpl. split; [easy|]. intros (c & us & Hin & Hu & _). rewrite find_category_None in E.
    exfalso. eapply E; eauto.
Qed.

Lemma convert_units_accept_cat all vs u t c :
  c <> ""%string ->
  (is_ok (convert_units all vs u t (Some c)) = true <->
   exists us, dget c all = Some us /\ In u (keys us) /\ In t (keys us)).
Proof.
  intros Hc. unfold convert_units, units_for.
  destruct (String.eqb_spec c ""); [easy|].
  destruct (dget c all) as [us|] eqn:E; [|split; [easy|]; intros (us & H & _); congruence].
  destruct (dmem u us && dmem t us)%bool eqn:Em; simpl.
  - apply andb_true_iff in Em as [Hu Ht]. apply dmem_true in Hu, Ht.
    destruct (In_keys_dget _ _ Hu) as [f ->]. destruct (In_keys_dget _ _ Ht) as [g ->]. simpl.
    split; eauto.
  - split; [easy|]. intros (us' & [= <-] & Hu & Ht). apply dmem_true in Hu, Ht. now rewrite Hu, Ht in Em.
Qed.

Lemma units_for_None_sym all u t us :
  one_category all -> units_for all u t None = Ok us -> units_for all t u None = Ok us.
Proof.
  intros Hone. rewrite !units_for_infer.
  destruct (find_category u all) as [us'|] eqn:E; [|easy].
  destruct (find_category_Some _ _ E) as (c & Hin & Hu).
  destruct (dmem t us') eqn:Et; [|easy]. intros [= ->].
  apply dmem_true in Et.
  destruct (find_category t all) as [us2|] eqn:E2.
  - destruct (find_category_Some _ _ E2) as (c2 & Hin2 & Ht2).
    assert (us2 = us) by (eapply Hone; eauto). subst.
    apply dmem_true in Hu. now rewrite Hu.
  - rewrite find_category_None in E2. exfalso. eapply E2; eauto.
Qed.

Lemma units_for_In all u t us :
  units_for all u t None = Ok us -> exists c, In (c, us) all.
Proof.
  rewrite units_for_infer. destruct (find_category u all) eqn:E; [|easy].
  destruct (find_category_Some _ _ E) as (c & Hin & _).
  destruct (dmem t d); [|easy]. intros [= <-]. eauto.
Qed.

Lemma convert_units_inv all vs u t ws :
  convert_units all vs u t None = Ok ws ->
  exists us f g, units_for all u t None = Ok us /\ dget u us = Some f /\ dget t us = Some g /\
    ws = map (fun v => v * f / g)%Qc vs.
Proof.
  unfold convert_units. destruct (units_for all u t None) as [us|] eqn:E; simpl; [|easy].
  destruct (dget u us) eqn:Eu; [|easy]. destruct (dget t us) eqn:Et; [|easy].
  intros [= <-]. eauto 8.
Qed.

Lemma convert_units_value all vs u t ws :
  convert_units all vs u t None = Ok ws ->
  exists c us f g, In (c, us) all /\ dget u us = Some f /\ dget t us = Some g /\
    ws = map (fun v => v * f / g)%Qc vs.
Proof.
  intros H. destruct (convert_units_inv _ _ _ _ H) as (us & f & g & Hus & Hf & Hg & ->).
  destruct (units_for_In _ _ _ Hus) as (c & Hin). exists c, us, f, g. auto.
Qed.

Lemma convert_units_round_trip all vs u t ws :
  one_category all -> nonzero_factors all ->
  convert_units all vs u t None = Ok ws -> convert_units all ws t u None = Ok vs.
Proof.
  intros Hone Hnz H. destruct (convert_units_inv _ _ _ _ H) as (us & f & g & Hus & Hf & Hg & ->).
  unfold convert_units. rewrite (@units_for_None_sym _ _ _ _ Hone Hus). simpl. rewrite Hf, Hg. f_equal.
  destruct (units_for_In _ _ _ Hus) as (c & Hin).
  assert (f <> 0)%Qc by (eapply Hnz; [exact Hin|apply dget_In; exact Hf]).
  assert (g <> 0)%Qc by (eapply Hnz; [exact Hin|apply dget_In; exact Hg]).
  rewrite map_map. rewrite <- (map_id vs) at 2. apply map_ext. intros v. field. auto.
Qed.

Lemma convert_units_compose all vs u t w ws xs :
  one_category all -> nonzero_factors all ->
  convert_units all vs u t None = Ok ws -> convert_units all ws t w None = Ok xs ->
  convert_units all vs u w None = Ok xs.
Proof.
  intros Hone Hnz H1 H2.
  destruct (convert_units_inv _ _ _ _ H1) as (us & f & g & Hus & Hf & Hg & ->).
  destruct (convert_units_inv _ _ _ _ H2) as (us2 & g2 & h & Hus2 & Hg2 & Hh & ->).
  assert (Hs := @units_for_None_sym _ _ _ _ Hone Hus).
  assert (us2 = us).
  { rewrite units_for_infer in Hs, Hus2.
    destruct (find_category t all); [|easy]. destruct (dmem u d), (dmem w d); congruence. }
  subst us2. assert (g2 = g) by congruence. subst g2.
  unfold convert_units.
  assert (Huw : units_for all u w None = Ok us).
  { rewrite units_for_infer in Hus |- *. destruct (find_category u all) as [us'|]; [|easy].
    destruct (dmem t us'); [|easy]. injection Hus as ->.
    assert (dmem w us = true) as -> by (apply dmem_true; eapply dget_Some_keys; eauto). easy. }
  rewrite Huw. simpl. rewrite Hf, Hh. f_equal. rewrite map_map. apply map_ext. intros v.
  destruct (units_for_In _ _ _ Hus) as (c & Hin).
  assert (g <> 0)%Qc by (eapply Hnz; [exact Hin|apply dget_In; exact Hg]).
  assert (h <> 0)%Qc by (eapply Hnz; [exact Hin|apply dget_In; exact Hh]).
  field. auto.
Qed.

Lemma convert_units_linear all vs u t cat ws c :
  convert_units all vs u t cat = Ok ws ->
  convert_units all (map (Qcmult c) vs) u t cat = Ok (map (Qcmult c) ws).
Proof.
  unfold convert_units. destruct (units_for all u t cat) as [us|]; simpl; [|easy].
  destruct (dget u us); [|easy]. destruct (dget t us); [|easy]. intros [= <-]. f_equal.
  rewrite !map_map. apply map_ext. intros. unfold Qcdiv. ring.
Qed.

(** *** Units documents *)

Lemma raise_dup_spec {V} (pairs : list (string * V)) : forall acc, NoDup (keys acc) ->
  dict_raise_on_duplicates acc pairs =
  if ListDec.NoDup_dec string_dec (keys acc ++ keys pairs) then Ok (acc ++ pairs) else Err ValueError.
Proof.
  induction pairs as [|[k v] pairs IH]; intros acc Hacc; simpl.
  - rewrite !app_nil_r. now destruct (ListDec.NoDup_dec string_dec (keys acc)).
  - destruct (dmem k acc) eqn:E.
    + apply dmem_true in E. destruct (ListDec.NoDup_dec _ _) as [Hn|]; [|easy].
      apply NoDup_app_iff in Hn as (_ & _ & H). exfalso. apply (H k E). now left.
    + apply dmem_false in E. rewrite IH.
      * unfold keys. rewrite map_app. simpl. rewrite <- !app_assoc. reflexivity.
      * unfold keys. rewrite map_app. simpl. now apply NoDup_app_single.
Qed.

Lemma raise_dup_nil {V} (pairs : list (string * V)) :
  dict_raise_on_duplicates [] pairs =
  if ListDec.NoDup_dec string_dec (keys pairs) then Ok pairs else Err ValueError.
Proof. rewrite raise_dup_spec by constructor. reflexivity. Qed.

Definition hook_pairs := fix go (l : list (string * json)) : result (list (string * json)) :=
  match l with
  | [] => Ok []
  | (k, x) :: tl => let* x' := json_hook x in let* tl' := go tl in Ok ((k, x') :: tl')
  end.

Lemma json_hook_dict d : json_hook (JDict d) =
  let* d' := hook_pairs d in
  if ListDec.NoDup_dec string_dec (keys d') then Ok (JDict d') else Err ValueError.
Proof.
  simpl. fold hook_pairs. destruct (hook_pairs d) as [d'|]; simpl; [|easy].
  rewrite raise_dup_nil. now destruct (ListDec.NoDup_dec _ _).
Qed.

Lemma hook_pairs_Forall2 d d' : hook_pairs d = Ok d' <->
  Forall2 (fun a b => fst a = fst b /\ json_hook (snd a) = Ok (snd b)) d d'.
Proof.
  revert d'. induction d as [|[k x] d IH]; simpl; intros d'.
  - split; [intros [= <-]; constructor|now inversion 1].
  - split.
    + destruct (json_hook x) as [x'|] eqn:E; simpl; [|easy].
      destruct (hook_pairs d) as [tl|] eqn:Et; simpl; [|easy]. intros [= <-].
      constructor; [simpl; auto|]. now apply IH.
    + inversion 1 as [|? [k' x'] ? tl [Hk Hx] Htl]; subst. simpl in *. subst. rewrite Hx. simpl.
      apply IH in Htl. now rewrite Htl.
Qed.

Lemma hook_pairs_keys d d' : hook_pairs d = Ok d' -> keys d' = keys d.
Proof.
  intros H. apply hook_pairs_Forall2 in H. unfold keys.
  induction H as [|[k x] [k' x'] ? ? [Hk _] _ IH]; simpl in *; congruence.
Qed.

(** A number-like leaf passes the hook unchanged. *)
Lemma to_float_hook pyfloat v x : to_float pyfloat v = Ok x -> json_hook v = Ok v.
Proof. destruct v; simpl; easy. Qed.

Lemma hook_to_float pyfloat v v' x : json_hook v = Ok v' -> to_float pyfloat v' = Ok x -> v' = v.
Proof.
  destruct v; simpl; try (intros [= <-]; easy).
  - match goal with |- context [bind ?r _] => destruct r; simpl; [|easy] end. intros [= <-]. easy.
  - fold hook_pairs. destruct (hook_pairs d); simpl; [|easy].
    match goal with |- context [bind ?r _] => destruct r; simpl; [|easy] end. intros [= <-]. easy.
Qed.

Definition cat_parsed (pyfloat : string -> option num) (a : string * json) (b : string * dict num) : Prop :=
  fst a = fst b /\ exists cd, snd a = JDict cd /\ NoDup (keys cd) /\
  Forall2 (fun p q => fst p = fst q /\ to_float pyfloat (snd p) = Ok (snd q)) cd (snd b).

Lemma parse_category_spec pyfloat v v' c :
  json_hook v = Ok v' -> parse_category pyfloat v' = Ok c ->
  exists cd, v = JDict cd /\ NoDup (keys cd) /\
    Forall2 (fun p q => fst p = fst q /\ to_float pyfloat (snd p) = Ok (snd q)) cd c.
Proof.
  intros Hh Hp. destruct v' as [| | | | | |d']; simpl in Hp; try easy.
  destruct v as [| | | | | l|d]; simpl in Hh; try easy.
  - match type of Hh with context [bind ?r _] => destruct r; simpl in Hh; easy end.
  - fold hook_pairs in Hh. change (json_hook (JDict d) = Ok (JDict d')) in Hh.
    rewrite json_hook_dict in Hh. destruct (hook_pairs d) as [d2|] eqn:E; simpl in Hh; [|easy].
    destruct (ListDec.NoDup_dec _ _) as [Hn|]; [|easy]. injection Hh as ->.
    exists d. split; [easy|]. split; [now rewrite <- (hook_pairs_keys _ E)|].
    apply hook_pairs_Forall2 in E. apply mapM_Forall2 in Hp. clear Hn.
    revert c Hp. induction E as [|[k x] [k' x'] d d' [Hk Hx] _ IH]; intros c Hp; inversion Hp; subst; constructor.
    + simpl in *. destruct (to_float pyfloat x') eqn:Ef; simpl in H1; [|easy]. injection H1 as <-.
      simpl. split; [easy|]. rewrite <- Ef. f_equal. symmetry. eapply hook_to_float; eauto.
    + apply IH. assumption.
Qed.

Lemma parse_category_complete pyfloat cd c :
  NoDup (keys cd) ->
  Forall2 (fun p q => fst p = fst q /\ to_float pyfloat (snd p) = Ok (snd q)) cd c ->
  json_hook (JDict cd) = Ok (JDict cd) /\ parse_category pyfloat (JDict cd) = Ok c.
Proof.
  intros Hn H. split.
  - rewrite json_hook_dict. assert (hook_pairs cd = Ok cd) as ->.
    { apply hook_pairs_Forall2. clear Hn. induction H as [|[k x] [k' x'] ? ? [Hk Hx] _ IH]; constructor; [|exact IH].
      split; [easy|]. eapply to_float_hook; exact Hx. }
    simpl. destruct (ListDec.NoDup_dec _ _); easy.
  - simpl. apply mapM_Forall2. clear Hn. induction H as [|[k x] [k' x'] ? ? [Hk Hx] _ IH]; constructor; [|exact IH].
    simpl in *. rewrite Hx. simpl. congruence.
Qed.

Lemma categories_spec pyfloat doc cats :
  parse_units_categories pyfloat doc = Ok cats <->
  exists d, doc = JDict d /\ NoDup (keys d) /\ Forall2 (cat_parsed pyfloat) d cats.
Proof.
  unfold parse_units_categories. split.
  - destruct (json_hook doc) as [doc'|] eqn:Eh; simpl; [|easy].
    destruct doc' as [| | | | | |d']; try easy. intros Hm.
    destruct doc as [| | | | | l|d]; try (simpl in Eh; easy).
    + simpl in Eh. match type of Eh with context [bind ?r _] => destruct r; simpl in Eh; easy end.
    + rewrite json_hook_dict in Eh. destruct (hook_pairs d) as [d2|] eqn:E; simpl in Eh; [|easy].
      destruct (ListDec.NoDup_dec _ _) as [Hn|]; [|easy]. injection Eh as ->.
      exists d. split; [easy|]. split; [now rewrite <- (hook_pairs_keys _ E)|].
      apply hook_pairs_Forall2 in E. apply mapM_Forall2 in Hm. clear Hn.
      revert cats Hm. induction E as [|[k x] [k' x'] d d' [Hk Hx] _ IH]; intros cats Hp; inversion Hp; subst; constructor.
      * simpl in *. destruct (parse_category pyfloat x') eqn:Ef; simpl in H1; [|easy]. injection H1 as <-.
        destruct (parse_category_spec _ _ Hx Ef) as (cd & -> & Hnc & HF).
        split; [easy|]. simpl. eauto.
      * apply IH. assumption.
  - intros (d & -> & Hn & HF). rewrite json_hook_dict.
    assert (hook_pairs d = Ok d) as ->.
    { apply hook_pairs_Forall2. clear Hn. induction HF as [|[k x] [k' x'] ? ? (Hk & cd & E & Hnc & Hcd) _ IH];
      constructor; [|exact IH]. split; [easy|]. simpl in *. subst. now apply (@parse_category_complete pyfloat _ _ Hnc Hcd). }
    simpl. destruct (ListDec.NoDup_dec _ _); [|easy]. simpl.
    apply mapM_Forall2. clear Hn n. induction HF as [|[k x] [k' x'] ? ? (Hk & cd & E & Hnc & Hcd) _ IH]; constructor; [|exact IH].
    cbn [fst snd] in *. subst. destruct (@parse_category_complete pyfloat _ _ Hnc Hcd) as [_ Hp]. 
    rewrite Hp. reflexivity.
Qed.

Lemma flatten_inner (c : dict num) : forall acc, NoDup (keys acc) ->
  foldM (fun (acc' : dict num) (uf : string * num) =>
           if dmem (fst uf) acc' then Err ValueError else Ok (acc' ++ [uf])) acc c
  = if ListDec.NoDup_dec string_dec (keys acc ++ keys c) then Ok (acc ++ c) else Err ValueError.
Proof.
  induction c as [|[u f] c IH]; intros acc Hacc; simpl.
  - rewrite !app_nil_r. now destruct (ListDec.NoDup_dec string_dec (keys acc)).
  - destruct (dmem u acc) eqn:E; simpl.
    + apply dmem_true in E. destruct (ListDec.NoDup_dec _ _) as [Hn|]; [|easy].
      apply NoDup_app_iff in Hn as (_ & _ & H). exfalso. apply (H u E). now left.
    + apply dmem_false in E. rewrite IH.
      * unfold keys. rewrite map_app. simpl. rewrite <- !app_assoc. reflexivity.
      * unfold keys. rewrite map_app. simpl. now apply NoDup_app_single.
Qed.

Lemma flatten_acc cats : forall acc, NoDup (keys acc) ->
  foldM (fun acc (cat : string * dict num) =>
           foldM (fun acc' (uf : string * num) =>
                    if dmem (fst uf) acc' then Err ValueError else Ok (acc' ++ [uf]))
                 acc (snd cat)) acc cats
  = if ListDec.NoDup_dec string_dec (keys acc ++ keys (flat_map snd cats))
    then Ok (acc ++ flat_map snd cats) else Err ValueError.
Proof.
  induction cats as [|[n c] cats IH]; intros acc Hacc.
  - simpl. rewrite !app_nil_r. now destruct (ListDec.NoDup_dec string_dec (keys acc)).
  - cbn [foldM snd flat_map]. rewrite flatten_inner by easy.
    assert (E : keys (c ++ flat_map snd cats) = keys c ++ keys (flat_map snd cats)).
    { unfold keys. apply map_app. }
    rewrite E.
    destruct (ListDec.NoDup_dec string_dec (keys acc ++ keys c)) as [Hn|Hn]; simpl.
    + rewrite IH.
      * unfold keys. rewrite map_app, <- !app_assoc. reflexivity.
      * unfold keys. now rewrite map_app.
    + destruct (ListDec.NoDup_dec string_dec (keys acc ++ keys c ++ _)) as [Hn'|]; [|easy].
      rewrite app_assoc in Hn'. apply NoDup_app_iff in Hn' as (Hn' & _). easy.
Qed.

Lemma flatten_units_spec cats :
  flatten_units cats = if ListDec.NoDup_dec string_dec (keys (flat_map snd cats))
                       then Ok (flat_map snd cats) else Err ValueError.
Proof. unfold flatten_units. rewrite flatten_acc by constructor. reflexivity. Qed.

Lemma unit_names_cats pyfloat d cats :
  Forall2 (cat_parsed pyfloat) d cats -> keys (flat_map snd cats) = unit_names d.
Proof.
  unfold keys, unit_names. induction 1 as [|[k x] [k' c] ? ? (Hk & cd & E & Hnc & Hcd) _ IH]; simpl; [easy|].
  simpl in *. subst. rewrite map_app, IH. f_equal.
  clear - Hcd. induction Hcd as [|p q ? ? [Hk _] _ IH]; simpl; congruence.
Qed.

Lemma flat_In {A B} (f : A -> list B) l y : In y (flat_map f l) <-> exists x, In x l /\ In y (f x).
Proof. apply in_flat_map. Qed.

Lemma Forall2_In_l {A B} (P : A -> B -> Prop) l1 l2 x :
  Forall2 P l1 l2 -> In x l1 -> exists y, In y l2 /\ P x y.
Proof.
  induction 1; simpl; [easy|]. intros [->|Hin]; [eauto|]. destruct (IHForall2 Hin) as (z & Hz & HP). eauto.
Qed.
Lemma Forall2_In_r {A B} (P : A -> B -> Prop) l1 l2 y :
  Forall2 P l1 l2 -> In y l2 -> exists x, In x l1 /\ P x y.
Proof.
  induction 1; simpl; [easy|]. intros [->|Hin]; [eauto|]. destruct (IHForall2 Hin) as (z & Hz & HP). eauto.
Qed.

Definition defines_float (pyfloat : string -> option num) (doc : json) (u : string) (x : num) : Prop :=
  exists d cat cd v, doc = JDict d /\ In (cat, JDict cd) d /\ In (u, v) cd /\
                     to_float pyfloat v = Ok x.

Definition good_doc_float (pyfloat : string -> option num) (doc : json) : Prop :=
  exists d, doc = JDict d /\ NoDup (map fst d) /\ NoDup (unit_names d) /\
    forall cat v, In (cat, v) d -> exists cd, v = JDict cd /\
      forall u w, In (u, w) cd -> exists x, to_float pyfloat w = Ok x.
Lemma to_float_number pyfloat v x : to_float pyfloat v = Ok x <-> number_of pyfloat v x.
Proof.
  split.
  - destruct v as [| |b|q|s|l|d]; cbn; intros H; try discriminate H.
    + injection H as <-. constructor.
    + injection H as <-. destruct b; constructor.
    + injection H as <-. constructor.
    + destruct (pyfloat s) as [y|] eqn:E; [|discriminate H]. injection H as <-. now constructor.
  - intros H. destruct H as [q| | | |s x E]; try reflexivity. cbn. now rewrite E.
Qed.

Lemma parse_units_sound pyfloat doc r :
  parse_units pyfloat doc = Ok r ->
  NoDup (keys r) /\ forall u x, dget u r = Some x <-> defines_float pyfloat doc u x.
Proof.
  unfold parse_units. destruct (parse_units_categories pyfloat doc) as [cats|] eqn:E; simpl; [|easy].
  rewrite flatten_units_spec. destruct (ListDec.NoDup_dec _ _) as [Hn|]; [|easy]. intros [= <-].
  split; [easy|]. apply categories_spec in E as (d & -> & Hnd & HF). intros u x. split.
  - intros Hg. apply dget_In, flat_In in Hg as ([c us] & Hin & Hux). simpl in Hux.
    destruct (Forall2_In_r _ HF Hin) as ([c' v] & Hin' & (Hc & cd & Ev & _ & Hcd)). simpl in *. subst.
    destruct (Forall2_In_r _ Hcd Hux) as ([u' w] & Hin'' & [Hu Hw]). simpl in *. subst.
    exists d, c, cd, w. auto.
  - intros (d' & c & cd & w & [= <-] & Hin & Huw & Hf). apply In_dget; [easy|]. apply flat_In.
    destruct (Forall2_In_l _ HF Hin) as ([c' us] & Hin' & (Hc & cd' & Ev & _ & Hcd)). simpl in *.
    injection Ev as <-. destruct (Forall2_In_l _ Hcd Huw) as ([u' x'] & Hin'' & [Hu Hw]). simpl in *. subst.
    exists (c', us). split; [easy|]. simpl. congruence.
Qed.

Lemma Forall2_exists {A B} (P : A -> B -> Prop) l : (forall x, In x l -> exists y, P x y) -> exists l', Forall2 P l l'.
Proof.
  induction l as [|x l IH]; intros H; [exists []; constructor|].
  destruct (H x (or_introl eq_refl)) as [y Hy]. destruct IH as [l' Hl']; [intros; apply H; now right|].
  exists (y :: l'). now constructor.
Qed.

Lemma NoDup_flat_map_In {A B} (f : A -> list B) l x : NoDup (flat_map f l) -> In x l -> NoDup (f x).
Proof.
  induction l as [|a l IH]; simpl; [easy|]. intros H. apply NoDup_app_iff in H as (H1 & H2 & _).
  intros [->|Hin]; auto.
Qed.

Lemma parse_units_ok_iff pyfloat doc :
  is_ok (parse_units pyfloat doc) = true <-> good_doc_float pyfloat doc.
Proof.
  unfold parse_units. split.
  - destruct (parse_units_categories pyfloat doc) as [cats|] eqn:E; simpl; [|easy].
    rewrite flatten_units_spec. destruct (ListDec.NoDup_dec _ _) as [Hn|]; [|easy]. intros _.
    apply categories_spec in E as (d & -> & Hnd & HF). exists d. split; [easy|]. split; [easy|].
    split; [now rewrite <- (unit_names_cats HF)|].
    intros cat v Hin. destruct (Forall2_In_l _ HF Hin) as ([c' us] & Hin' & (Hc & cd' & Ev & _ & Hcd)). simpl in *.
    exists cd'. split; [easy|]. intros u w Huw. destruct (Forall2_In_l _ Hcd Huw) as ([u' x'] & _ & [_ Hw]). eauto.
  - intros (d & -> & Hnd & Hnu & Hall).
    assert (Hc : exists cats, Forall2 (cat_parsed pyfloat) d cats).
    { apply Forall2_exists. intros [c v] Hin. destruct (Hall _ _ Hin) as (cd & -> & Hcd).
      destruct (@Forall2_exists _ (string * num) (fun p q => fst p = fst q /\ to_float pyfloat (snd p) = Ok (snd q)) cd) as [us Hus].
      { intros [u w] Huw. destruct (Hcd _ _ Huw) as [x Hx]. exists (u, x). auto. }
      exists (c, us). split; [easy|]. exists cd. split; [easy|]. split; [|exact Hus].
      apply (NoDup_flat_map_In _ _ _ Hnu Hin). }
    destruct Hc as [cats HF].
    assert (parse_units_categories pyfloat (JDict d) = Ok cats) as ->.
    { apply categories_spec. eauto. }
    simpl. rewrite flatten_units_spec, (unit_names_cats HF).
    destruct (ListDec.NoDup_dec _ _); easy.
Qed.
