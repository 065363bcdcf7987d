(** Proofs about updates of the model library. *)
From Verif Require Import Prelude PreludeFacts M_Damage M_Dlml S_Dlml.
Set Implicit Arguments.
Local Open Scope string_scope.
Local Open Scope list_scope.

Section Run.
  Variables (hash : blob -> string) (lib : library) (sha : string).

  Lemma andThen_ok : forall A B (r : run A) (k : A -> run B) s t b s2,
    andThen r k s = (t, Ok (b, s2)) ->
    exists t1 a s1 t2, r s = (t1, Ok (a, s1)) /\ k a s1 = (t2, Ok (b, s2)) /\ t = t1 ++ t2.
  Proof.
    intros A B r k s t b s2 H. unfold andThen in H. destruct (r s) as [t1 [[a s1]|x]] eqn:E; [|discriminate].
    destruct (k a s1) as [t2 o] eqn:E2. injection H as <- ->. exists t1, a, s1, t2. auto.
  Qed.
  Lemma andThen_visits : forall A B (r : run A) (k : A -> run B) s x,
    In x (fst (andThen r k s)) -> In x (fst (r s)) \/ exists a s1, snd (r s) = Ok (a, s1) /\ In x (fst (k a s1)).
  Proof.
    intros A B r k s x H. unfold andThen in H. destruct (r s) as [t1 [[a s1]|e]] eqn:E; [|left; exact H].
    destruct (k a s1) as [t2 o] eqn:E2. apply in_app_or in H as [H|H]; [left; exact H|].
    right. exists a, s1. split; [reflexivity|]. rewrite E2. exact H.
  Qed.

  Lemma download_ok : forall p s t b s', download_file lib sha p s = (t, Ok (b, s')) ->
    lib sha p = Some b /\ s' = with_file p b s.
  Proof.
    intros p s t b s' H. unfold download_file in H. destruct (lib sha p) as [c|]; [|discriminate].
    apply andThen_ok in H as [t1 [a [s1 [t2 [H1 [H2 _]]]]]]. unfold write_file in H1. injection H1 as _ _ <-.
    injection H2 as _ <- <-. auto.
  Qed.
  Lemma download_visits : forall p s x, In x (fst (download_file lib sha p s)) -> cachef x = cachef s.
  Proof.
    intros p s x H. unfold download_file in H. destruct (lib sha p) as [c|]; [|destruct H].
    apply andThen_visits in H as [H|[a [s1 [_ []]]]]. unfold write_file in H. cbn [fst] in H.
    apply in_map_iff in H as [y [<- _]]. reflexivity.
  Qed.

  Lemma right_with : forall p b s q, lib sha p = Some b -> right lib sha s q -> right lib sha (with_file p b s) q.
  Proof.
    intros p b s q Hp [c [H1 H2]]. exists c. split; [exact H1|]. cbn [with_file disk].
    destruct (String.eqb_spec p q) as [<-|N].
    - rewrite dget_dset_eq. congruence.
    - rewrite dget_dset_ne by congruence. exact H2.
  Qed.
  Lemma right_now : forall p b s, lib sha p = Some b -> right lib sha (with_file p b s) p.
  Proof. intros p b s H. exists b. split; [exact H|]. cbn [with_file disk]. apply dget_dset_eq. Qed.

  Variables (use_cache : bool) (old : cache) (changed : option (list string)).
  Definition skips_ok : Prop := forall p s h, can_skip hash use_cache old changed p s = Some h ->
    exists b, lib sha p = Some b /\ dget p (disk s) = Some b /\ h = hash b.
  Definition hashes_ok (hs : dict string) : Prop := forall p h, dget p hs = Some h -> exists b, lib sha p = Some b /\ h = hash b.

  Lemma hashes_dset : forall hs p b, hashes_ok hs -> lib sha p = Some b -> hashes_ok (dset p (hash b) hs).
  Proof.
    intros hs p b H Hp q h E. destruct (String.eqb_spec p q) as [<-|N].
    - rewrite dget_dset_eq in E. injection E as <-. eauto.
    - rewrite dget_dset_ne in E by congruence. apply (H q h E).
  Qed.

  Lemma download_all_ok : skips_ok -> forall files hs s t hs' s',
    download_all hash lib sha use_cache old changed files hs s = (t, Ok (hs', s')) -> hashes_ok hs ->
    (forall p, In p files -> right lib sha s' p) /\ (forall q, right lib sha s q -> right lib sha s' q) /\
    cachef s' = cachef s /\ hashes_ok hs'.
  Proof.
    intros Hs. induction files as [|p tl IH]; intros hs s t hs' s' H Hh.
    - injection H as _ <- <-. split; [intros p []|]. auto.
    - cbn [download_all] in H. destruct (can_skip hash use_cache old changed p s) as [h|] eqn:E.
      + destruct (Hs p s h E) as [b [Hb [Hd ->]]].
        destruct (IH _ _ _ _ _ H (@hashes_dset _ _ _ Hh Hb)) as [I1 [I2 [I3 I4]]].
        split; [|auto]. intros q [<-|Hq]; [|apply I1, Hq]. apply I2. exists b. auto.
      + apply andThen_ok in H as [t1 [b [s1 [t2 [H1 [H2 _]]]]]]. apply download_ok in H1 as [Hb ->].
        destruct (IH _ _ _ _ _ H2 (@hashes_dset _ _ _ Hh Hb)) as [I1 [I2 [I3 I4]]].
        split; [|split; [|split; [exact I3|exact I4]]].
        * intros q [<-|Hq]; [|apply I1, Hq]. apply I2, right_now, Hb.
        * intros q Hq. apply I2, right_with; assumption.
  Qed.
  Lemma download_all_cachef : forall files hs s t hs' s',
    download_all hash lib sha use_cache old changed files hs s = (t, Ok (hs', s')) -> cachef s' = cachef s.
  Proof.
    induction files as [|p tl IH]; intros hs s t hs' s' H.
    - injection H as _ <- <-. reflexivity.
    - cbn [download_all] in H. destruct (can_skip hash use_cache old changed p s) as [h|].
      + apply (IH _ _ _ _ _ H).
      + apply andThen_ok in H as [t1 [b [s1 [t2 [H1 [H2 _]]]]]]. apply download_ok in H1 as [_ ->].
        apply (IH _ _ _ _ _ H2).
  Qed.
  Lemma download_all_visits : forall files hs s x,
    In x (fst (download_all hash lib sha use_cache old changed files hs s)) -> cachef x = cachef s.
  Proof.
    induction files as [|p tl IH]; intros hs s x H; [destruct H|].
    cbn [download_all] in H. destruct (can_skip hash use_cache old changed p s) as [h|]; [apply (IH _ _ _ H)|].
    apply andThen_visits in H as [H|[b [s1 [H1 H2]]]]; [apply (download_visits _ _ _ H)|].
    destruct (download_file lib sha p s) as [t o] eqn:E. cbn [snd] in H1. subst o. apply download_ok in E as [_ ->].
    apply (IH _ _ _ H2).
  Qed.

  (** An update ends well if the library has the files. *)
  Lemma download_all_succeeds : forall files hs s, (forall p, In p files -> lib sha p <> None) ->
    exists t hs' s', download_all hash lib sha use_cache old changed files hs s = (t, Ok (hs', s')).
  Proof.
    induction files as [|p tl IH]; intros hs s H; [eexists _, _, _; reflexivity|].
    cbn [download_all]. destruct (can_skip hash use_cache old changed p s) as [h|].
    - apply IH. intros q Hq. apply H. right. exact Hq.
    - destruct (lib sha p) as [b|] eqn:E; [|exfalso; apply (H p); [left; reflexivity|exact E]].
      unfold andThen at 1. unfold download_file. rewrite E. unfold andThen, write_file, ret.
      destruct (IH (dset p (hash b) hs) (with_file p b s)) as [t [hs' [s' E2]]]; [intros q Hq; apply H; right; exact Hq|].
      rewrite E2. eexists _, _, _. reflexivity.
  Qed.
End Run.

(** ** Names *)

Lemma listed_names : forall text p, In p (listed_files text) <-> names text p.
Proof.
  intros text p. unfold listed_files. rewrite in_map_iff. split.
  - intros [l [<- H]]. apply filter_In in H as [H1 H2]. apply andb_true_iff in H2 as [H2 H3].
    apply negb_true_iff in H2. apply negb_true_iff in H3. apply String.eqb_neq in H2. exists l. auto.
  - intros [l [H1 [H2 [-> H3]]]]. exists l. split; [reflexivity|]. apply filter_In. split; [exact H1|].
    rewrite H2. apply String.eqb_neq in H3. rewrite H3. reflexivity.
Qed.

(** ** The record tells the truth *)

Definition cache_true (hash : blob -> string) (lib : library) (s : local) : Prop :=
  forall c sha, cachef s = Saved c -> c_commit c = Some sha -> hashes_ok hash lib sha (c_hashes c).

Section Updates.
  Variables (hash : blob -> string) (lib : library).
  Hypothesis hash_inj : forall a b, hash a = hash b -> a = b.

  Lemma load_true : forall s sha, cache_true hash lib s -> c_commit (load_cache s) = Some sha -> hashes_ok hash lib sha (c_hashes (load_cache s)).
  Proof.
    intros s sha H. unfold load_cache. destruct (cachef s) as [| |c] eqn:E; cbn [c_commit]; [discriminate|discriminate|].
    apply (H c sha E).
  Qed.

  Lemma skip_sound : forall cmp s sha o, cache_true hash lib s -> honest lib cmp -> c_commit (load_cache s) = Some o ->
    skips_ok hash lib sha true (load_cache s) (changed_files cmp o sha).
  Proof.
    intros cmp s sha o Hc Hh Ho p s' h H. unfold can_skip in H.
    destruct (changed_files cmp o sha) as [cs|] eqn:Ec; [|discriminate].
    destruct (mem p cs) eqn:Em; [discriminate|]. cbn [negb andb] in H.
    destruct (dget p (c_hashes (load_cache s))) as [h0|] eqn:E1; [|discriminate].
    destruct (dget p (disk s')) as [b|] eqn:E2; [|discriminate].
    destruct (negb (String.eqb h0 "")); [|discriminate]. cbn [andb] in H.
    destruct (String.eqb_spec (hash b) h0) as [Eh|]; [|discriminate]. injection H as <-.
    destruct (@load_true s o Hc Ho p h0 E1) as [b0 [L ->]]. apply hash_inj in Eh as ->.
    exists b0. split; [|auto].
    assert (N : ~ In p cs) by (intro X; rewrite (proj2 (mem_true p cs) X) in Em; discriminate).
    assert (A : forall x y : option blob, x = Some b0 -> (x <> y -> In p cs) -> y = Some b0).
    { intros x y -> X. destruct y as [y|].
      - destruct (String.eqb_spec b0 y) as [->|D]; [reflexivity|]. exfalso. apply N, X. congruence.
      - exfalso. apply N, X. discriminate. }
    apply (A (lib o p) (lib sha p) L). apply (Hh o sha cs p Ec).
  Qed.
  Lemma no_skip : forall uc old sha, skips_ok hash lib sha uc old None.
  Proof. intros uc old sha p s h H. discriminate. Qed.

  (** What an update does that is not a mere early return. *)
  Lemma update_ok : forall cmp uc sha s s', cache_true hash lib s -> honest lib cmp ->
    snd (update hash lib cmp uc sha s) = Ok (tt, s') ->
    (uc = true /\ recorded s = Some sha /\ s' = s) \/
    (delivered lib sha s' /\
     if uc then exists hs, cachef s' = Saved (CA (Some sha) hs) /\ hashes_ok hash lib sha hs else cachef s' = cachef s).
  Proof.
    intros cmp uc sha s s' Hc Hh H. unfold update in H.
    set (old := if uc then load_cache s else CA None []) in *.
    destruct (match c_commit old with Some o => String.eqb o sha | None => false end) eqn:Ee.
    - left. cbn [snd] in H. injection H as <-. destruct (c_commit old) as [o|] eqn:Eo; [|discriminate].
      apply String.eqb_eq in Ee as ->. subst old. destruct uc; [|discriminate].
      split; [reflexivity|]. split; [|reflexivity]. unfold recorded. unfold load_cache in Eo.
      destruct (cachef s); [discriminate|discriminate|exact Eo].
    - right.
      set (changed := match c_commit old with Some o => if String.eqb o "" then None else changed_files cmp o sha | None => None end) in *.
      assert (Hsk : skips_ok hash lib sha uc old changed).
      { subst changed. destruct (c_commit old) as [o|] eqn:Eo; [|apply no_skip].
        destruct (String.eqb o ""); [apply no_skip|]. subst old. destruct uc; [|discriminate].
        apply skip_sound; assumption. }
      destruct (andThen _ _ s) as [t o] eqn:E. cbn [snd] in H. subst o.
      apply andThen_ok in E as [t1 [text [s1 [t2 [H1 [H2 _]]]]]]. apply download_ok in H1 as [Hm ->].
      apply andThen_ok in H2 as [t3 [hs [s2 [t4 [H3 [H4 _]]]]]].
      destruct (@download_all_ok hash lib sha uc old changed Hsk _ _ _ _ _ _ H3) as [D1 [D2 [D3 D4]]];
        [intros p h X; discriminate|].
      assert (Dm : right lib sha s2 manifest) by (apply D2, right_now, Hm).
      destruct uc.
      + unfold save_cache in H4. injection H4 as _ <-. split; [|exists hs; auto].
        exists text. split; [exact Hm|]. destruct Dm as [b [B1 B2]]. rewrite Hm in B1. injection B1 as <-.
        split; [exact B2|]. intros p Hp. apply listed_names in Hp. destruct (D1 p Hp) as [c [C1 C2]]. exists c. auto.
      + injection H4 as _ <-. split; [|exact D3].
        exists text. split; [exact Hm|]. destruct Dm as [b [B1 B2]]. rewrite Hm in B1. injection B1 as <-.
        split; [exact B2|]. intros p Hp. apply listed_names in Hp. apply (D1 p Hp).
  Qed.

  (** Every state of an update: the record is the old one or broken, or the update is complete. *)
  Lemma update_visits : forall cmp uc sha s x, In x (visited (update hash lib cmp uc sha) s) ->
    cachef x = cachef s \/ cachef x = Broken \/ snd (update hash lib cmp uc sha s) = Ok (tt, x).
  Proof.
    intros cmp uc sha s x [<-|H]; [left; reflexivity|]. unfold update in H |- *.
    destruct (match c_commit (if uc then load_cache s else CA None []) with Some o => String.eqb o sha | None => false end); [destruct H|].
    set (changed := match c_commit _ with Some o => if String.eqb o "" then None else changed_files cmp o sha | None => None end) in *.
    set (old := if uc then load_cache s else CA None []) in *.
    apply andThen_visits in H as [H|[text [s1 [H1 H2]]]]; [left; apply (@download_visits _ _ _ _ _ H)|].
    destruct (download_file lib sha manifest s) as [t o] eqn:E. cbn [snd] in H1. subst o.
    pose proof (@download_ok lib sha _ _ _ _ _ E) as [_ Es1].
    apply andThen_visits in H2 as [H2|[hs [s2 [H3 H4]]]].
    - left. rewrite (@download_all_visits _ _ _ _ _ _ _ _ _ _ H2). subst s1. reflexivity.
    - destruct (download_all hash lib sha uc old changed (listed_files text) [] s1) as [t2 o] eqn:E2.
      cbn [snd] in H3. subst o. pose proof (@download_all_cachef _ _ _ _ _ _ _ _ _ _ _ _ E2) as Ec.
      destruct uc; [|destruct H4]. destruct H4 as [<-|[<-|[]]]; [right; left; reflexivity|].
      right. right. unfold andThen at 1. rewrite E. unfold andThen at 1. rewrite E2. reflexivity.
  Qed.

  Lemma update_true : forall cmp uc sha s s', cache_true hash lib s -> honest lib cmp ->
    snd (update hash lib cmp uc sha s) = Ok (tt, s') -> cache_true hash lib s'.
  Proof.
    intros cmp uc sha s s' Hc Hh H. destruct (@update_ok _ _ _ _ _ Hc Hh H) as [[_ [_ ->]]|[_ H2]]; [exact Hc|].
    destruct uc.
    - destruct H2 as [hs [E Hs]]. intros c sha' Ec Es. rewrite E in Ec. injection Ec as <-. injection Es as <-. exact Hs.
    - intros c sha' Ec. rewrite H2 in Ec. apply (Hc c sha' Ec).
  Qed.
  Lemma true_same : forall s s', cachef s' = cachef s -> cache_true hash lib s -> cache_true hash lib s'.
  Proof. intros s s' E H c sha Ec. rewrite E in Ec. apply (H c sha Ec). Qed.
  Lemma true_broken : forall s, cachef s = Broken -> cache_true hash lib s.
  Proof. intros s E c sha Ec. rewrite E in Ec. discriminate. Qed.
  Lemma visit_true : forall cmp uc sha s x, cache_true hash lib s -> honest lib cmp ->
    In x (visited (update hash lib cmp uc sha) s) -> cache_true hash lib x.
  Proof.
    intros cmp uc sha s x Hc Hh H. destruct (@update_visits _ _ _ _ _ H) as [E|[E|E]].
    - apply (@true_same s x E Hc).
    - apply (true_broken _ E).
    - apply (@update_true _ _ _ _ _ Hc Hh E).
  Qed.
  Lemma check_true : forall s x, cache_true hash lib s -> In x (visited check_version s) -> cache_true hash lib x.
  Proof.
    intros s x Hc [<-|[<-|[<-|[]]]]; [exact Hc|apply true_broken; reflexivity|].
    intros c sha E1 E2. cbn [cachef] in E1. injection E1 as <-. apply (@load_true s sha Hc E2).
  Qed.
  Lemma step_true : forall e s s', event_honest lib e -> cache_true hash lib s -> step hash lib e s s' -> cache_true hash lib s'.
  Proof.
    intros [cmp uc sha|cmp uc sha| |p b|p|] s s' He Hc H; cbn [step event_honest] in *.
    - apply (@update_true _ _ _ _ _ Hc He H).
    - apply (@visit_true _ _ _ _ _ Hc He H).
    - apply (@check_true _ _ Hc H).
    - subst s'. apply (@true_same s); [reflexivity|exact Hc].
    - subst s'. apply (@true_same s); [reflexivity|exact Hc].
    - subst s'. intros c sha E. discriminate.
  Qed.
  Lemma history_true : forall es s s', history hash lib es s s' -> Forall (event_honest lib) es -> cache_true hash lib s -> cache_true hash lib s'.
  Proof.
    intros es s s' H. induction H as [s|e es s s1 s2 H1 H2 IH]; intros Hf Hc; [exact Hc|].
    inversion Hf as [|? ? F1 F2]; subst. apply (IH F2). apply (@step_true _ _ _ F1 Hc H1).
  Qed.
  Lemma nothing_true : cache_true hash lib nothing.
  Proof. intros c sha E. discriminate. Qed.

  Lemma delivered_same : forall sha s s', disk s' = disk s -> delivered lib sha s -> delivered lib sha s'.
  Proof.
    intros sha s s' E [text [H1 [H2 H3]]]. exists text. rewrite E. split; [exact H1|]. split; [exact H2|].
    intros p Hp. destruct (H3 p Hp) as [b [B1 B2]]. exists b. rewrite E. auto.
  Qed.

  (** The attempts at one update. *)
  Lemma attempts_inv : forall uc sha s s1, attempts hash lib uc sha s s1 -> cache_true hash lib s ->
    (uc = true -> recorded s = Some sha -> delivered lib sha s) ->
    cache_true hash lib s1 /\ (uc = true -> recorded s1 = Some sha -> delivered lib sha s1).
  Proof.
    intros uc sha s s1 H. induction H as [s|cmp s s1 s2 Hh Hv H2 IH]; intros Hc Hr; [auto|].
    apply IH; [apply (@visit_true _ _ _ _ _ Hc Hh Hv)|]. intros Eu Er.
    destruct Hv as [<-|Hv]; [apply (Hr Eu Er)|].
    destruct (@update_visits _ _ _ _ _ (or_intror Hv)) as [E|[E|E]].
    - (* the record is the old one: then the update would not have written anything *)
      assert (Ers : recorded s = Some sha) by (unfold recorded in *; rewrite E in Er; exact Er).
      exfalso. unfold update in Hv. subst uc. unfold recorded in Ers. unfold load_cache in Hv.
      destruct (cachef s) as [| |c]; [discriminate|discriminate|]. cbn [c_commit] in Hv. rewrite Ers in Hv.
      rewrite String.eqb_refl in Hv. destruct Hv.
    - unfold recorded in Er. rewrite E in Er. discriminate.
    - destruct (@update_ok _ _ _ _ _ Hc Hh E) as [[_ [Ers ->]]|[D _]]; [apply (Hr Eu Ers)|exact D].
  Qed.

  (** Complete updates with the record, and version checks. *)
  Definition orderly (e : event) : Prop := match e with Updated _ uc _ => uc = true | Checked => True | _ => False end.
  Lemma orderly_sound : forall es s s', history hash lib es s s' -> Forall (event_honest lib) es -> Forall orderly es ->
    cache_true hash lib s -> (forall sha, recorded s = Some sha -> delivered lib sha s) ->
    cache_true hash lib s' /\ (forall sha, recorded s' = Some sha -> delivered lib sha s').
  Proof.
    intros es s s' H. induction H as [s|e es s s1 s2 H1 H2 IH]; intros Hf Ho Hc Hr; [auto|].
    inversion Hf as [|? ? F1 F2]; subst. inversion Ho as [|? ? O1 O2]; subst.
    apply (IH F2 O2); [apply (@step_true _ _ _ F1 Hc H1)|].
    destruct e as [cmp uc sha| | | | |]; cbn [orderly] in O1; try contradiction; cbn [step event_honest] in *.
    - subst uc. intros sha' E. destruct (@update_ok _ _ _ _ _ Hc F1 H1) as [[_ [Er ->]]|[D [hs [Es _]]]]; [apply (Hr _ E)|].
      unfold recorded in E. rewrite Es in E. injection E as <-. exact D.
    - intros sha E. destruct H1 as [<-|[<-|[<-|[]]]]; [apply (Hr _ E)|discriminate|].
      apply (@delivered_same sha s); [reflexivity|]. apply Hr. unfold recorded in *. cbn [cachef] in E. unfold load_cache in E.
      destruct (cachef s); [discriminate|discriminate|exact E].
  Qed.

  Lemma update_succeeds : forall cmp uc sha s, lib sha manifest <> None ->
    (forall text p, lib sha manifest = Some text -> names text p -> lib sha p <> None) ->
    exists s', snd (update hash lib cmp uc sha s) = Ok (tt, s').
  Proof.
    intros cmp uc sha s Hm Hp. unfold update.
    destruct (match c_commit (if uc then load_cache s else CA None []) with Some o => String.eqb o sha | None => false end); [eexists; reflexivity|].
    destruct (lib sha manifest) as [text|] eqn:E; [|contradiction].
    set (changed := match c_commit _ with Some o => if String.eqb o "" then None else changed_files cmp o sha | None => None end).
    set (old := if uc then load_cache s else CA None []).
    destruct (@download_all_succeeds hash lib sha uc old changed (listed_files text) [] (with_file manifest text s)) as [t [hs [s' E2]]].
    { intros p H. apply listed_names in H. apply (Hp text p eq_refl H). }
    unfold andThen, download_file, write_file, ret. rewrite E. unfold andThen. rewrite E2. destruct uc; eexists; reflexivity.
  Qed.
End Updates.

(** ** A comparison that omits a file *)

Section Stale.
  Variables (hash : blob -> string) (lib : library) (sha : string) (old : cache) (cs : list string).
  Lemma download_keeps : forall p b0 h, mem p cs = false -> dget p (c_hashes old) = Some h -> h <> "" -> h = hash b0 ->
    forall files hs s t hs' s', dget p (disk s) = Some b0 ->
    download_all hash lib sha true old (Some cs) files hs s = (t, Ok (hs', s')) -> dget p (disk s') = Some b0.
  Proof.
    intros p b0 h Hm Hh Hn Eh. induction files as [|q tl IH]; intros hs s t hs' s' Hd H.
    - injection H as _ <- <-. exact Hd.
    - cbn [download_all] in H. destruct (can_skip hash true old (Some cs) q s) as [g|] eqn:E; [apply (IH _ _ _ _ _ Hd H)|].
      apply andThen_ok in H as [t1 [b [s1 [t2 [H1 [H2 _]]]]]]. apply download_ok in H1 as [_ ->].
      apply (IH _ _ _ _ _) in H2; [exact H2|]. cbn [with_file disk].
      destruct (String.eqb_spec q p) as [->|N]; [|rewrite dget_dset_ne by congruence; exact Hd].
      exfalso. unfold can_skip in E. rewrite Hm in E. cbn [negb andb] in E. rewrite Hh, Hd in E.
      apply String.eqb_neq in Hn. rewrite Hn in E. cbn [negb andb] in E. rewrite <- Eh in E. rewrite String.eqb_refl in E. discriminate.
  Qed.
End Stale.

(** ** Without the record *)

Lemma update_fresh : forall hash lib cmp sha s s', snd (update hash lib cmp false sha s) = Ok (tt, s') -> delivered lib sha s'.
Proof.
  intros hash lib cmp sha s s' H. unfold update in H. cbn [c_commit] in H.
  destruct (andThen _ _ s) as [t o] eqn:E. cbn [snd] in H. subst o.
  apply andThen_ok in E as [t1 [text [s1 [t2 [H1 [H2 _]]]]]]. apply download_ok in H1 as [Hm ->].
  apply andThen_ok in H2 as [t3 [hs [s2 [t4 [H3 [H4 _]]]]]].
  destruct (@download_all_ok hash lib sha false (CA None []) None (@no_skip hash lib false (CA None []) sha) _ _ _ _ _ _ H3) as [D1 [D2 _]];
    [intros p h X; discriminate|].
  injection H4 as _ <-. destruct (D2 manifest (@right_now lib sha manifest text s Hm)) as [b [B1 B2]].
  rewrite Hm in B1. injection B1 as <-. exists text. split; [exact Hm|]. split; [exact B2|].
  intros p Hp. apply listed_names in Hp. apply (D1 p Hp).
Qed.

(** ** The manifest is there from the first write on *)

Lemma dmem_dset : forall V (d : dict V) p q v, dmem q d = true -> dmem q (dset p v d) = true.
Proof.
  intros V d p q v H. unfold dmem in *. destruct (String.eqb_spec p q) as [->|N].
  - rewrite dget_dset_eq. reflexivity.
  - rewrite dget_dset_ne by congruence. exact H.
Qed.
Lemma download_keeps_manifest : forall lib sha p s x, dmem manifest (disk s) = true ->
  In x (fst (download_file lib sha p s)) -> dmem manifest (disk x) = true.
Proof.
  intros lib sha p s x H Hx. unfold download_file in Hx. destruct (lib sha p) as [b|]; [|destruct Hx].
  apply andThen_visits in Hx as [Hx|[a [s1 [_ []]]]]. apply in_map_iff in Hx as [y [<- _]]. apply dmem_dset, H.
Qed.
Lemma download_all_keeps_manifest : forall hash lib sha uc old changed files hs s x, dmem manifest (disk s) = true ->
  In x (fst (download_all hash lib sha uc old changed files hs s)) -> dmem manifest (disk x) = true.
Proof.
  intros hash lib sha uc old changed. induction files as [|p tl IH]; intros hs s x H Hx; [destruct Hx|].
  cbn [download_all] in Hx. destruct (can_skip hash uc old changed p s) as [h|]; [apply (IH _ _ _ H Hx)|].
  apply andThen_visits in Hx as [Hx|[b [s1 [H1 H2]]]]; [apply (download_keeps_manifest _ _ _ _ _ H Hx)|].
  destruct (download_file lib sha p s) as [t o] eqn:E. cbn [snd] in H1. subst o. apply download_ok in E as [_ ->].
  apply (IH _ (with_file p b s) _ (@dmem_dset _ _ p _ b H) H2).
Qed.
Lemma download_all_end_manifest : forall hash lib sha uc old changed files hs s t hs' s', dmem manifest (disk s) = true ->
  download_all hash lib sha uc old changed files hs s = (t, Ok (hs', s')) -> dmem manifest (disk s') = true.
Proof.
  intros hash lib sha uc old changed. induction files as [|p tl IH]; intros hs s t hs' s' H Hx.
  - injection Hx as _ <- <-. exact H.
  - cbn [download_all] in Hx. destruct (can_skip hash uc old changed p s) as [h|]; [apply (IH _ _ _ _ _ H Hx)|].
    apply andThen_ok in Hx as [t1 [b [s1 [t2 [H1 [H2 _]]]]]]. apply download_ok in H1 as [_ ->].
    apply (IH _ (with_file p b s) _ _ _ (@dmem_dset _ _ p _ b H) H2).
Qed.
Lemma update_has_manifest : forall hash lib cmp uc sha s x, In x (fst (update hash lib cmp uc sha s)) -> data_exists x = true.
Proof.
  intros hash lib cmp uc sha s x H. unfold update in H.
  destruct (match c_commit (if uc then load_cache s else CA None []) with Some o => String.eqb o sha | None => false end); [destruct H|].
  unfold data_exists. apply andThen_visits in H as [H|[text [s1 [H1 H2]]]].
  - unfold download_file in H. destruct (lib sha manifest) as [b|]; [|destruct H].
    apply andThen_visits in H as [H|[a [s1 [_ []]]]]. apply in_map_iff in H as [y [<- _]].
    unfold dmem. cbn [with_file disk]. rewrite dget_dset_eq. reflexivity.
  - destruct (download_file lib sha manifest s) as [t o] eqn:E. cbn [snd] in H1. subst o. apply download_ok in E as [_ ->].
    assert (M : dmem manifest (disk (with_file manifest text s)) = true) by (unfold dmem; cbn [with_file disk]; rewrite dget_dset_eq; reflexivity).
    apply andThen_visits in H2 as [H2|[hs [s2 [H3 H4]]]]; [apply (download_all_keeps_manifest _ _ _ _ _ _ _ _ _ _ M H2)|].
    match type of H3 with snd ?r = _ => destruct r as [t2 o] eqn:E2 end. cbn [snd] in H3. subst o.
    apply (@download_all_end_manifest _ _ _ _ _ _ _ _ _ _ _ _ M) in E2.
    destruct uc; [|destruct H4]. destruct H4 as [<-|[<-|[]]]; exact E2.
Qed.
