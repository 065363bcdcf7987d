From Verif Require Import Prelude PreludeFacts M_Base S_Base P_Base M_Outputs M_Library M_Config S_Config.
Set Implicit Arguments.
Local Open Scope string_scope.
Local Open Scope list_scope.

Lemma bind_ok {A B} (r : result A) (k : A -> result B) b : bind r k = Ok b -> exists a, r = Ok a /\ k a = Ok b.
Proof. destruct r as [a|e]; cbn [bind]; [eauto|discriminate]. Qed.
(** Proved by a lemma: the kernel would take minutes to compare the reduced terms. *)
Ltac binv H x :=
  let E := fresh "E" in apply bind_ok in H; destruct H as (x & E & H); cbv beta in H.

(** Unfolds a function as a whole, which the kernel checks at once. *)
Ltac open_def f H :=
  let e := eval cbv delta [f] in f in
  let Q := fresh in assert (Q : f = e) by reflexivity; rewrite Q in H; clear Q; cbv beta in H.

(** ** Steps *)

Fixpoint divergeb (a b : list string) : bool :=
  match a, b with
  | x :: a', y :: b' => (negb (String.eqb x y) || divergeb a' b')%bool
  | _, _ => false
  end.
Lemma divergeb_true a : forall b, divergeb a b = true <-> diverge a b.
Proof.
  induction a as [|x a IH]; intros [|y b]; cbn; try easy.
  rewrite orb_true_iff, IH, negb_true_iff, String.eqb_neq. tauto.
Qed.

Definition framed (ks : list string) (d d' : dict json) : Prop :=
  forall q, divergeb ks q = true -> value d' q = value d q.

Definition wellkeys (ks : list string) := Forall (fun k => has_char "/" k = false) ks.

Lemma put_spec np22 d p v d' ks : update np22 false d p v = Ok d' -> path_keys p = ks ->
  value d' ks = Some v /\ framed ks d d'.
Proof.
  unfold update. intros H Hp. rewrite Hp in H. revert H. destruct ks as [|k ks]; [easy|]. intros H.
  destruct (update_keys_forced np22 ks d k v) as (d2 & E & A & B). rewrite E in H. injection H as <-.
  split; [exact A|]. intros q Hq. apply B. now apply divergeb_true.
Qed.
Lemma put_total np22 d p v : exists d', update np22 false d p v = Ok d'.
Proof.
  unfold update. destruct (path_keys p) as [|k ks] eqn:E; [now apply path_keys_ne in E|].
  destruct (update_keys_forced np22 ks d k v) as (d2 & E2 & _). eauto.
Qed.

Lemma unspec_spec np22 d p ks b : is_unspecified np22 d p = Ok b -> path_keys p = ks ->
  (b = false <-> given d ks).
Proof.
  intros H Hp. revert H. unfold is_unspecified, get. rewrite Hp, get_keys_lookup. unfold given, value.
  destruct (lookup (JDict d) ks) as [v|].
  - unfold not_given. intros H. split.
    + intros ->. exists v. split; [easy|]. intros N.
      destruct N as [-> | [-> | [-> | [-> | [-> | ->]]]]]; cbn in H; try discriminate H.
      destruct np22; discriminate H.
    + intros (w & [= <-] & N). destruct b; [|easy]. exfalso. apply N.
      destruct v as [| | | | |[|x [|y l]]|[|e l]]; cbn in H; try discriminate H; auto 7.
      injection H as H. destruct x; try discriminate H; auto 7.
  - intros [= <-]. split; [easy|]. now intros (w & ? & _).
Qed.

Lemma wk ks : forallb (fun k => negb (has_char "/" k)) ks = true -> wellkeys ks.
Proof.
  intros H. apply Forall_forall. intros k Hk. rewrite forallb_forall in H. specialize (H k Hk).
  now apply negb_true_iff in H.
Qed.

Lemma put_if_spec np22 d p v d' ks : update np22 true d p v = Ok d' -> path_keys p = ks -> forallb (fun k => negb (has_char "/" k)) ks = true ->
  (given d ks -> value d' ks = value d ks) /\ (~ given d ks -> value d' ks = Some v) /\ framed ks d d'.
Proof.
  unfold update. intros H Hp Hk. apply wk in Hk. rewrite Hp in H. revert H. destruct ks as [|k ks]; [easy|]. intros H.
  destruct (@update_keys_only_if np22 ks d k v d' Hk H) as (b & A & B & F).
  assert (G : b = false <-> given d (k :: ks)).
  { unfold given, value. destruct (lookup (JDict d) (k :: ks)) as [w|] eqn:E.
    - split.
      + intros ->. exists w. split; [easy|]. intros N. unfold not_given in N.
        destruct N as [-> | [-> | [-> | [-> | [-> | ->]]]]]; cbn in A; try discriminate A.
        destruct np22; discriminate A.
      + intros (w' & [= <-] & N). destruct b; [|easy]. exfalso. apply N. unfold not_given.
        destruct w as [| | | | |[|x [|y l]]|[|e l]]; cbn in A; try discriminate A; auto 7.
        injection A as A. destruct x; try discriminate A; auto 7.
    - cbn in A. injection A as <-. split; [easy|]. now intros (w & ? & _). }
  split; [|split].
  - intros Hg. apply G in Hg. subst b. exact B.
  - intros Hg. destruct b; [exact B|]. exfalso. apply Hg. now apply G.
  - intros q Hq. apply F. now apply divergeb_true.
Qed.

Lemma get_spec d p ks : path_keys p = ks ->
  get (Some d) p JNull = match value d ks with Some v => v | None => JNull end.
Proof. intros Hp. unfold get. rewrite Hp. apply get_keys_lookup. Qed.

Lemma truthy_spec v : truthy v = true <-> is_true v.
Proof.
  unfold is_true. destruct v as [| |[]|q|[|a s]|[|x l]|[|e l]]; cbn;
    try (split; [discriminate | intros H; exfalso; apply H; auto 8; fail]);
    try (split; [intros _; intuition discriminate | reflexivity]).
  unfold Qceqb. destruct (Qc_eq_dec q 0) as [-> |N]; cbn.
  - split; [discriminate|]. intros H. exfalso. apply H. auto.
  - split; [|reflexivity]. intros _. intuition congruence.
Qed.
Lemma get_true d p ks : path_keys p = ks ->
  (truthy (get (Some d) p JNull) = true <-> set_true d ks).
Proof.
  intros Hp. rewrite (get_spec d _ Hp). unfold set_true. destruct (value d ks) as [v|].
  - rewrite truthy_spec. split; [eauto|]. now intros (w & [= <-] & ?).
  - cbn. split; [discriminate|]. now intros (w & ? & _).
Qed.

(** Frames chase settings through the steps. *)
Lemma framed_given ks d d' q : framed ks d d' -> divergeb ks q = true -> (given d' q <-> given d q).
Proof. intros F D. unfold given. now rewrite (F q D). Qed.
Lemma framed_true ks d d' q : framed ks d d' -> divergeb ks q = true -> (set_true d' q <-> set_true d q).
Proof. intros F D. unfold set_true. now rewrite (F q D). Qed.

(** Computed by the virtual machine. *)
Notation KK := ltac:(vm_compute; reflexivity) (only parsing).

(** ** The schema *)

Lemma valid_dict t r e ps d : valid (Schema t r e ps) (JDict d) = true ->
  (forall k, In k r -> dget k d <> None) /\
  (forall k s x, dget k ps = Some s -> dget k d = Some x -> valid s x = true).
Proof.
  cbn [valid]. rewrite !andb_true_iff. intros (_ & ((R & _) & P)). split.
  - intros k Hk. rewrite forallb_forall in R. specialize (R k Hk). unfold dmem in R.
    destruct (dget k d); [easy|discriminate R].
  - intros k s x. induction ps as [|[k0 s0] ps IH]; [easy|]. apply andb_true_iff in P as [P1 P2].
    cbn [dget]. destruct (String.eqb_spec k k0) as [-> |N].
    + intros [= ->] Hx. now rewrite Hx in P1.
    + apply IH. exact P2.
Qed.
Lemma valid_object t r e ps v : valid (Schema [t] r e ps) v = true -> has_type v t = true.
Proof. cbn [valid existsb]. rewrite !andb_true_iff, orb_false_r. tauto. Qed.

Lemma lookup_app a : forall v b, lookup v (a ++ b) = match lookup v a with Some w => lookup w b | None => None end.
Proof.
  induction a as [|k a IH]; intros v b; [reflexivity|]. cbn. destruct v; try reflexivity.
  destruct (dget k d); [apply IH|reflexivity].
Qed.
Lemma below_given d q k r v : value d (q ++ k :: r) = Some v -> given d q.
Proof.
  unfold value, given. rewrite lookup_app. unfold value. destruct (lookup (JDict d) q) as [w|]; [|easy].
  intros H. exists w. split; [easy|]. destruct w as [| | | | | |[|e l]]; cbn in H; try easy.
  intros [? | [? | [? | [? | [? | ?]]]]]; discriminate.
Qed.

Section Finish.
Variable C : Type.
Variable h : host C.
Notation DFP := ["DL"; "Demands"; "DemandFilePath"].
Notation OSS := ["DL"; "Options"; "Sampling"; "SampleSize"].
Notation DSS := ["DL"; "Demands"; "SampleSize"].

Lemma set_sample_size_spec cfg d : set_sample_size h cfg = Ok d ->
  framed OSS cfg d /\
  exists v n, first_true cfg OSS DSS v /\ h_int h v = Ok n /\ value d OSS = Some (JNum (qz n)).
Proof.
  unfold set_sample_size. intros H.
  assert (E1 := @get_true cfg "DL/Options/Sampling/SampleSize" OSS KK).
  assert (E2 := @get_true cfg "DL/Demands/SampleSize" DSS KK).
  assert (G1 := @get_spec cfg "DL/Options/Sampling/SampleSize" OSS KK).
  assert (G2 := @get_spec cfg "DL/Demands/SampleSize" DSS KK).
  set (o := get (Some cfg) "DL/Options/Sampling/SampleSize" JNull) in *.
  set (e := get (Some cfg) "DL/Demands/SampleSize" JNull) in *.
  destruct (truthy o) eqn:To; cbn [bind] in H.
  - binv H n. destruct (@put_spec _ _ _ _ _ OSS H KK) as [A B]. split; [exact B|].
    exists o, n. split; [|now split]. apply truthy_spec in To. split; [exact To|]. left.
    destruct (value cfg OSS) as [w|]; [now rewrite G1|]. exfalso. apply To. rewrite G1. now left.
  - destruct (truthy e) eqn:Te; cbn [bind] in H; [|discriminate H].
    binv H n. destruct (@put_spec _ _ _ _ _ OSS H KK) as [A B]. split; [exact B|].
    exists e, n. split; [|now split]. apply truthy_spec in Te. split; [exact Te|]. right. split.
    + rewrite <- E1. discriminate.
    + destruct (value cfg DSS) as [w|]; [now rewrite G2|]. exfalso. apply Te. rewrite G2. now left.
Qed.

(** Four settings with defaults *)
Definition is_some (j : json) (v : option json) : Prop := v = Some j.
Lemma kept_or_frame ks ps d0 d1 d2 f : framed ps d0 d1 -> divergeb ps ks = true -> kept_or d1 d2 ks f -> kept_or d0 d2 ks f.
Proof.
  intros F D [A B]. unfold kept_or. rewrite <- (@framed_given _ _ _ _ F D), <- (F _ D). now split.
Qed.
Lemma kept_or_after ks ps d0 d1 d2 f : kept_or d0 d1 ks f -> framed ps d1 d2 -> divergeb ps ks = true -> kept_or d0 d2 ks f.
Proof. intros [A B] F D. unfold kept_or. rewrite (F _ D). now split. Qed.

Lemma set_defaults_spec c cfg d : set_defaults h c cfg = Ok d ->
  (forall q, forallb (fun p => divergeb p q)
     [["DL"; "Options"; "LogFile"]; ["DL"; "Options"; "Verbose"]; ["DL"; "Options"; "ListAllDamageStates"]; DFP] = true ->
     value d q = value cfg q) /\
  kept_or cfg d ["DL"; "Options"; "LogFile"] (is_some (JStr "pelicun_log.txt")) /\
  kept_or cfg d ["DL"; "Options"; "Verbose"] (is_some (JBool true)) /\
  kept_or cfg d ["DL"; "Options"; "ListAllDamageStates"] (is_some (JBool true)) /\
  kept_or cfg d DFP (is_some (JStr (c_dir c ++ "/response.csv"))).
Proof.
  unfold set_defaults. intros H. binv H d1. binv H d2. binv H d3.
  destruct (@put_if_spec _ _ _ _ _ ["DL"; "Options"; "LogFile"] E KK KK) as (A1 & B1 & F1).
  destruct (@put_if_spec _ _ _ _ _ ["DL"; "Options"; "Verbose"] E0 KK KK) as (A2 & B2 & F2).
  destruct (@put_if_spec _ _ _ _ _ ["DL"; "Options"; "ListAllDamageStates"] E1 KK KK) as (A3 & B3 & F3).
  destruct (@put_if_spec _ _ _ _ _ DFP H KK KK) as (A4 & B4 & F4).
  assert (K1 : kept_or cfg d1 ["DL"; "Options"; "LogFile"] (is_some (JStr "pelicun_log.txt"))) by now split.
  assert (K2 : kept_or d1 d2 ["DL"; "Options"; "Verbose"] (is_some (JBool true))) by now split.
  assert (K3 : kept_or d2 d3 ["DL"; "Options"; "ListAllDamageStates"] (is_some (JBool true))) by now split.
  assert (K4 : kept_or d3 d DFP (is_some (JStr (c_dir c ++ "/response.csv")))) by now split.
  split; [|split; [|split; [|split]]].
  - intros q. cbn [forallb]. rewrite !andb_true_iff. intros (D1 & D2 & D3 & D4 & _).
    rewrite (F4 _ D4), (F3 _ D3), (F2 _ D2), (F1 _ D1). reflexivity.
  - eapply kept_or_after; [|exact F4|vm_compute; reflexivity]. eapply kept_or_after; [|exact F3|vm_compute; reflexivity].
    eapply kept_or_after; [|exact F2|vm_compute; reflexivity]. exact K1.
  - eapply kept_or_after; [|exact F4|vm_compute; reflexivity]. eapply kept_or_after; [|exact F3|vm_compute; reflexivity].
    eapply kept_or_frame; [exact F1|reflexivity|]. exact K2.
  - eapply kept_or_after; [|exact F4|vm_compute; reflexivity]. eapply kept_or_frame; [exact F1|reflexivity|].
    eapply kept_or_frame; [exact F2|reflexivity|]. exact K3.
  - eapply kept_or_frame; [exact F1|reflexivity|]. eapply kept_or_frame; [exact F2|reflexivity|].
    eapply kept_or_frame; [exact F3|reflexivity|]. exact K4.
Qed.

Lemma legacy_repair cfg d1 : (if truthy (get (Some cfg) "DL/Losses/BldgRepair" JNull)
              then update (h_np22 h) false cfg "DL/Losses/Repair" (get (Some cfg) "DL/Losses/BldgRepair" JNull) else Ok cfg) = Ok d1 ->
  framed ["DL"; "Losses"; "Repair"] cfg d1 /\
    (set_true cfg ["DL"; "Losses"; "BldgRepair"] -> value d1 ["DL"; "Losses"; "Repair"] = value cfg ["DL"; "Losses"; "BldgRepair"]) /\
    (~ set_true cfg ["DL"; "Losses"; "BldgRepair"] -> d1 = cfg).
Proof. intros E.
 assert (T := @get_true cfg "DL/Losses/BldgRepair" ["DL"; "Losses"; "BldgRepair"] KK).
    destruct (truthy (get (Some cfg) "DL/Losses/BldgRepair" JNull)).
    - destruct (@put_spec _ _ _ _ _ ["DL"; "Losses"; "Repair"] E KK) as [A B]. split; [exact B|]. split; [|tauto].
      intros (v & Hv & _). rewrite A, (@get_spec cfg "DL/Losses/BldgRepair" ["DL"; "Losses"; "BldgRepair"] KK), Hv. reflexivity.
    - injection E as <-. split; [easy|]. split; [|easy]. intros K. apply T in K. discriminate K.
Qed.
Lemma legacy_outputs d1 d2 : (if truthy (get (Some d1) "DL/Outputs/Loss/BldgRepair" JNull)
              then update (h_np22 h) false d1 "DL/Outputs/Loss/Repair" (get (Some d1) "DL/Outputs/Loss/BldgRepair" JNull) else Ok d1) = Ok d2 ->
 framed ["DL"; "Outputs"; "Loss"; "Repair"] d1 d2.
Proof. intros E0. destruct (truthy _) in E0.
    - now destruct (@put_spec _ _ _ _ _ ["DL"; "Outputs"; "Loss"; "Repair"] E0 KK) as [A B].
    - now injection E0 as <-.
Qed.

Lemma stories_int d2 d : (let* b := is_unspecified (h_np22 h) d2 "DL/Asset/NumberOfStories" in
  if b then Ok d2
  else let* n := h_int h (get (Some d2) "DL/Asset/NumberOfStories" JNull) in
       update (h_np22 h) false d2 "DL/Asset/NumberOfStories" (JNum (qz n))) = Ok d ->
  framed ["DL"; "Asset"; "NumberOfStories"] d2 d /\
    (given d2 ["DL"; "Asset"; "NumberOfStories"] -> exists v n, value d2 ["DL"; "Asset"; "NumberOfStories"] = Some v /\
     h_int h v = Ok n /\ value d ["DL"; "Asset"; "NumberOfStories"] = Some (JNum (qz n))) /\
    (~ given d2 ["DL"; "Asset"; "NumberOfStories"] -> d = d2) /\ (given d2 ["DL"; "Asset"] -> given d ["DL"; "Asset"]).
Proof.
  intros H. binv H b.
  assert (G := @unspec_spec _ _ _ ["DL"; "Asset"; "NumberOfStories"] _ E KK).
  destruct b.
    - injection H as <-. split; [easy|]. split; [|easy]. intros K. apply G in K. discriminate K.
    - binv H n. destruct (@put_spec _ _ _ _ _ ["DL"; "Asset"; "NumberOfStories"] H KK) as [A B].
      split; [exact B|]. split; [|split; [tauto|]].
      + intros (v & Hv & _). exists v, n. split; [exact Hv|].
      split; [|exact A]. rewrite (@get_spec d2 "DL/Asset/NumberOfStories" ["DL"; "Asset"; "NumberOfStories"] KK), Hv in E0. exact E0.
      + intros _. exact (@below_given d ["DL"; "Asset"] _ _ _ A).
Qed.
Lemma replace_legacy_spec cfg d : replace_legacy h cfg = Ok d ->
  (forall q, forallb (fun p => divergeb p q)
     [["DL"; "Losses"; "Repair"]; ["DL"; "Outputs"; "Loss"; "Repair"]; ["DL"; "Asset"; "NumberOfStories"]] = true ->
     value d q = value cfg q) /\
  (set_true cfg ["DL"; "Losses"; "BldgRepair"] -> value d ["DL"; "Losses"; "Repair"] = value cfg ["DL"; "Losses"; "BldgRepair"]) /\
  (~ set_true cfg ["DL"; "Losses"; "BldgRepair"] -> value d ["DL"; "Losses"; "Repair"] = value cfg ["DL"; "Losses"; "Repair"]) /\
  (given cfg ["DL"; "Asset"; "NumberOfStories"] -> exists v n, value cfg ["DL"; "Asset"; "NumberOfStories"] = Some v /\
     h_int h v = Ok n /\ value d ["DL"; "Asset"; "NumberOfStories"] = Some (JNum (qz n))) /\
  (~ given cfg ["DL"; "Asset"; "NumberOfStories"] -> value d ["DL"; "Asset"; "NumberOfStories"] = value cfg ["DL"; "Asset"; "NumberOfStories"]) /\
  (given cfg ["DL"; "Asset"] -> given d ["DL"; "Asset"]).
Proof.
  unfold replace_legacy. intros H. binv H d1. binv H d2.
  destruct (legacy_repair _ E) as (F1 & A1 & B1). assert (S2 := legacy_outputs _ E0). destruct (stories_int _ H) as (F3 & A3 & B3 & P3).
  clear E E0 H.
  assert (Vc : value d2 ["DL"; "Asset"; "NumberOfStories"] = value cfg ["DL"; "Asset"; "NumberOfStories"]).
  { rewrite (S2 ["DL"; "Asset"; "NumberOfStories"] KK). apply F1. vm_compute; reflexivity. }
  assert (Va : value d2 ["DL"; "Asset"] = value cfg ["DL"; "Asset"]).
  { rewrite (S2 ["DL"; "Asset"] KK). apply F1. vm_compute; reflexivity. }
  assert (Gc : given d2 ["DL"; "Asset"; "NumberOfStories"] <-> given cfg ["DL"; "Asset"; "NumberOfStories"])
    by (unfold given; now rewrite Vc).
  split; [|split; [|split; [|split; [|split]]]].
  - intros q. cbn [forallb]. rewrite !andb_true_iff. intros (D1 & D2 & D3 & _).
    rewrite (F3 _ D3), (S2 _ D2), (F1 _ D1). reflexivity.
  - intros K. rewrite (F3 ["DL"; "Losses"; "Repair"] KK), (S2 ["DL"; "Losses"; "Repair"] KK). exact (A1 K).
  - intros K. rewrite (F3 ["DL"; "Losses"; "Repair"] KK), (S2 ["DL"; "Losses"; "Repair"] KK). now rewrite (B1 K).
  - intros K. rewrite <- Vc. apply A3. now apply Gc.
  - intros K. rewrite B3; [exact Vc|]. now rewrite Gc.
  - intros K. apply P3. unfold given in *. now rewrite Va.
Qed.

Lemma mapM_reject (cfg : dict json) (f : string -> string) l r :
  mapM (fun k => let* b := is_unspecified (h_np22 h) cfg (f k) in reject b) l = Ok r ->
  forall k, In k l -> is_unspecified (h_np22 h) cfg (f k) = Ok false.
Proof.
  revert r. induction l as [|x l IH]; intros r H k [].
  - subst x. cbn [mapM] in H. binv H u. binv E b. destruct b; [discriminate E|exact E0].
  - cbn [mapM] in H. binv H u. binv H us. eapply IH; eauto.
Qed.

Notation CF := ["DL"; "Damage"; "CollapseFragility"].
Notation CFD := ["DL"; "Damage"; "CollapseFragility"; "CapacityDistribution"].
Notation CFT := ["DL"; "Damage"; "CollapseFragility"; "Theta_1"].
Lemma check_collapse_spec cfg d : check_collapse h cfg = Ok d ->
  (forall q, forallb (fun p => divergeb p q) [CFD; CFT] = true -> value d q = value cfg q) /\
  (given cfg CF -> ~ given cfg CFD -> value d CFD = Some (JStr "deterministic") /\ value d CFT = Some (JStr "N/A")) /\
  (~ given cfg CF \/ given cfg CFD -> d = cfg) /\
  (given d ["DL"; "Demands"; "InferResidualDrift"] -> given d ["DL"; "Demands"; "InferResidualDrift"; "method"]) /\
  (given d CF -> forall k, In k ["CapacityDistribution"; "CapacityMedian"; "Theta_1"] -> given d ["DL"; "Damage"; "CollapseFragility"; k]).
Proof.
  unfold check_collapse. intros H. binv H b. binv H m. binv H u. binv H b2.
  assert (G := @unspec_spec _ _ _ ["DL"; "Demands"; "InferResidualDrift"] _ E KK).
  assert (Gf := @unspec_spec _ _ _ CF _ E2 KK).
  assert (R : given cfg ["DL"; "Demands"; "InferResidualDrift"] -> given cfg ["DL"; "Demands"; "InferResidualDrift"; "method"]).
  { intros K. apply G in K. subst b. destruct m; [discriminate E1|].
    now apply (@unspec_spec _ _ _ ["DL"; "Demands"; "InferResidualDrift"; "method"] _ E0 KK). }
  destruct b2.
  - injection H as <-. assert (N : ~ given cfg CF) by (intros K; apply Gf in K; discriminate K).
    split; [easy|]. split; [tauto|]. split; [easy|]. split; [exact R|]. tauto.
  - binv H b3. binv H d1. binv H us. injection H as <-.
    assert (Gd := @unspec_spec _ _ _ CFD _ E3 KK).
    assert (K : forall k, In k ["CapacityDistribution"; "CapacityMedian"; "Theta_1"] -> given d1 ["DL"; "Damage"; "CollapseFragility"; k]).
    { intros k Hk. assert (M := mapM_reject d1 (fun k => "DL/Damage/CollapseFragility/" ++ k)%string _ E5 _ Hk).
      cbn [In] in Hk. destruct Hk as [<- | [<- | [<- | []]]]; now apply (@unspec_spec _ _ _ _ _ M KK). }
    destruct b3.
    + destruct (get (Some cfg) "DL/Damage/CollapseFragility" JNull) eqn:Eg; try discriminate E4.
      binv E4 d0. destruct (@put_spec _ _ _ _ _ CFD E6 KK) as [A1 F1].
      destruct (@put_spec _ _ _ _ _ CFT E4 KK) as [A2 F2].
      assert (F : forall q, forallb (fun p => divergeb p q) [CFD; CFT] = true -> value d1 q = value cfg q).
      { intros q. cbn [forallb]. rewrite !andb_true_iff. intros (D1 & D2 & _). now rewrite (F2 _ D2), (F1 _ D1). }
      split; [exact F|]. split; [|split; [|split]].
      * intros _ _. rewrite (F2 CFD KK). now split.
      * intros [N | N]; [exfalso; apply N; now apply Gf|]. apply Gd in N. discriminate N.
      * unfold given. rewrite !F by (vm_compute; reflexivity). exact R.
      * intros _. exact K.
    + injection E4 as <-. assert (Y : given cfg CFD) by now apply Gd. split; [easy|]. split; [tauto|]. split; [easy|].
      split; [exact R|]. intros _. exact K.
Qed.

Lemma outputs_need (cfg : dict json) l r a b :
  mapM (fun ks => let* o := is_unspecified (h_np22 h) cfg (fst ks) in
                  if o then Ok tt else let* b := is_unspecified (h_np22 h) cfg (snd ks) in reject b) l = Ok r ->
  In (a, b) l -> is_unspecified (h_np22 h) cfg a = Ok true \/ is_unspecified (h_np22 h) cfg b = Ok false.
Proof.
  revert r. induction l as [|x l IH]; intros r H [].
  - subst x. cbn [mapM] in H. binv H u. binv E o. cbn [fst snd] in *. destruct o; [now left|]. right.
    binv E b2. destruct b2; [discriminate E|]. assumption.
  - cbn [mapM] in H. binv H u. binv H us. eapply IH; eauto.
Qed.
Lemma user_defined v r : match v with JStr "User Defined" => r | _ => Ok tt end = Ok tt -> v = JStr "User Defined" -> r = Ok tt.
Proof. now intros H ->. Qed.
Lemma present_spec d p ks : path_keys p = ks ->
  ((match get (Some d) p JNull with JNull => true | _ => false end) = false <-> present d ks).
Proof.
  intros Hp. rewrite (@get_spec d _ _ Hp). unfold present. destruct (value d ks) as [v|].
  - destruct v; split; intros H; try easy; try (eexists; split; [reflexivity|discriminate]).
    now destruct H as (v & [= <-] & ?).
  - split; [discriminate|]. now intros (v & ? & _).
Qed.
Lemma one_file w a b u P Q : w = false -> (if w then Ok tt else reject (Bool.eqb a b)) = Ok u ->
  (a = false <-> P) -> (b = false <-> Q) -> (P <-> ~ Q).
Proof.
  intros -> H A B. unfold reject in H. destruct (Bool.eqb a b) eqn:E; [discriminate H|]. apply Bool.eqb_false_iff in E.
  destruct a, b; intuition congruence.
Qed.
Lemma check_rest_spec d u : check_rest h d = Ok u -> given d ["DL"; "Asset"] ->
  (given d ["DL"; "Damage"; "IrreparableDamage"] ->
     forall k, In k ["DriftCapacityMedian"; "DriftCapacityLogStd"] -> given d ["DL"; "Damage"; "IrreparableDamage"; k]) /\
  (value d ["DL"; "Damage"; "DamageProcess"] = Some (JStr "User Defined") -> given d ["DL"; "Damage"; "DamageProcessFilePath"]) /\
  (given d ["DL"; "Outputs"; "Damage"] -> given d ["DL"; "Damage"]) /\
  (given d ["DL"; "Outputs"; "Loss"] -> given d ["DL"; "Losses"]) /\
  (present d ["DL"; "Asset"; "ComponentAssignmentFile"] <-> ~ present d ["DL"; "Asset"; "ComponentSampleFile"]).
Proof.
  unfold check_rest. intros H Ha. binv H b. binv H x. binv H y. binv H z. binv H w.
  assert (Gi := @unspec_spec _ _ _ ["DL"; "Damage"; "IrreparableDamage"] _ E KK).
  split; [|split; [|split; [|split]]].
  - intros K. apply Gi in K. subst b. intros k Hk.
    assert (M := mapM_reject d (fun k => "DL/Damage/IrreparableDamage/" ++ k)%string _ E0 _ Hk).
    cbn [In] in Hk. destruct Hk as [<- | [<- | []]]; now apply (@unspec_spec _ _ _ _ _ M KK).
  - intros K. destruct y. apply user_defined in E1.
    + binv E1 b2. destruct b2; [discriminate E1|]. now apply (@unspec_spec _ _ _ ["DL"; "Damage"; "DamageProcessFilePath"] _ E4 KK).
    + rewrite (@get_spec d "DL/Damage/DamageProcess" ["DL"; "Damage"; "DamageProcess"] KK), K. reflexivity.
  - intros K. destruct (outputs_need d _ _ _ E2 (or_intror (or_introl eq_refl))) as [M|M].
    + apply (@unspec_spec _ _ _ ["DL"; "Outputs"; "Damage"] _ M KK) in K. discriminate K.
    + now apply (@unspec_spec _ _ _ ["DL"; "Damage"] _ M KK).
  - intros K. destruct (outputs_need d _ _ _ E2 (or_intror (or_intror (or_introl eq_refl)))) as [M|M].
    + apply (@unspec_spec _ _ _ ["DL"; "Outputs"; "Loss"] _ M KK) in K. discriminate K.
    + now apply (@unspec_spec _ _ _ ["DL"; "Losses"] _ M KK).
  - apply (@unspec_spec _ _ _ ["DL"; "Asset"] _ E3 KK) in Ha. exact (@one_file _ _ _ _ _ _ Ha H
      (@present_spec d "DL/Asset/ComponentAssignmentFile" ["DL"; "Asset"; "ComponentAssignmentFile"] KK)
      (@present_spec d "DL/Asset/ComponentSampleFile" ["DL"; "Asset"; "ComponentSampleFile"] KK)).
Qed.

(** Everything after the scripts. *)
Definition apartb (ps : list (list string)) (q : list string) : bool := forallb (fun p => divergeb p q) ps.
Lemma apartb_true ps q : apartb ps q = true <-> apart ps q.
Proof.
  unfold apartb, apart. rewrite forallb_forall, Forall_forall. split; intros H p Hp; apply divergeb_true; auto.
Qed.
Lemma divergeb_app a : forall q, divergeb a q = true -> forall b, divergeb (a ++ b) q = true.
Proof.
  induction a as [|x a IH]; intros [|y q]; cbn [divergeb app]; try discriminate. intros H b.
  apply orb_true_iff in H as [H|H]; [now rewrite H|]. rewrite (IH _ H). apply orb_true_r.
Qed.
Lemma not_given_dec w : not_given w \/ ~ not_given w.
Proof.
  unfold not_given. destruct w as [| | | | |[|x [|y l]]|[|e l]]; try (right; intuition discriminate); auto 8.
  destruct x; try (right; intuition discriminate); auto 8.
Qed.
Lemma given_str s : ~ not_given (JStr s).
Proof. unfold not_given. intuition discriminate. Qed.
Lemma reject_ok b u : reject b = Ok u -> b = false.
Proof. now destruct b. Qed.

Notation NOS := ["DL"; "Asset"; "NumberOfStories"].
Definition finished (c : call) (cfg d : dict json) : Prop :=
  (forall q, apart own_changes q -> value d q = value cfg q) /\
  (exists v n, first_true cfg OSS DSS v /\ h_int h v = Ok n /\ value d OSS = Some (JNum (qz n))) /\
  kept_or cfg d ["DL"; "Options"; "LogFile"] (is_some (JStr "pelicun_log.txt")) /\
  kept_or cfg d ["DL"; "Options"; "Verbose"] (is_some (JBool true)) /\
  kept_or cfg d ["DL"; "Options"; "ListAllDamageStates"] (is_some (JBool true)) /\
  kept_or cfg d DFP (is_some (JStr (c_dir c ++ "/response.csv"))) /\
  (set_true cfg ["DL"; "Losses"; "BldgRepair"] -> value d ["DL"; "Losses"; "Repair"] = value cfg ["DL"; "Losses"; "BldgRepair"]) /\
  (~ set_true cfg ["DL"; "Losses"; "BldgRepair"] -> value d ["DL"; "Losses"; "Repair"] = value cfg ["DL"; "Losses"; "Repair"]) /\
  (given cfg NOS -> exists v n, value cfg NOS = Some v /\ h_int h v = Ok n /\ value d NOS = Some (JNum (qz n))) /\
  (~ given cfg NOS -> value d NOS = value cfg NOS) /\
  (given cfg CF -> ~ given cfg CFD -> value d CFD = Some (JStr "deterministic") /\ value d CFT = Some (JStr "N/A")) /\
  (~ given cfg CF \/ given cfg CFD -> value d CFD = value cfg CFD /\ value d CFT = value cfg CFT).
Definition whole (d : dict json) : Prop :=
  complete d /\ (present d ["DL"; "Asset"; "ComponentAssignmentFile"] <-> ~ present d ["DL"; "Asset"; "ComponentSampleFile"]).

Lemma finish_spec c sh ri cfg d : finish h c sh ri cfg = Ok d -> finished c cfg d /\ whole d.
Proof.
  unfold finish. intros H. binv H d1. binv H d2. binv H b1. binv H u1. binv H b2. binv H u2. binv H d3. binv H d4. binv H d5. binv H u3.
  injection H as <-.
  apply reject_ok in E2. apply reject_ok in E4. subst b1 b2.
  destruct (set_sample_size_spec _ E) as (F1 & v & n & V1 & V2 & V3).
  destruct (@put_spec _ _ _ _ _ ["DL"; "Outputs"] E0 KK) as [_ F2].
  assert (Ga : given d2 ["DL"; "Asset"]) by now apply (@unspec_spec _ _ _ ["DL"; "Asset"] _ E3 KK).
  destruct (set_defaults_spec c _ E5) as (F3 & L1 & L2 & L3 & L4).
  destruct (replace_legacy_spec _ E6) as (F4 & R1 & R2 & N1 & N2 & G4).
  destruct (check_collapse_spec _ E7) as (F5 & C1 & C2 & C3 & C4).
  clear E E0 E1 E3 E5 E6 E7.
  (* settings before the defaults *)
  assert (B : forall q, apartb [OSS; ["DL"; "Outputs"]] q = true -> value d2 q = value cfg q).
  { intros q. unfold apartb. cbn [forallb]. rewrite !andb_true_iff. intros (D1 & D2 & _). now rewrite (F2 _ D2), (F1 _ D1). }
  assert (B3 : forall q, apartb [OSS; ["DL"; "Outputs"]; ["DL"; "Options"; "LogFile"]; ["DL"; "Options"; "Verbose"]; ["DL"; "Options"; "ListAllDamageStates"]; DFP] q = true -> value d3 q = value cfg q).
  { intros q D. unfold apartb in D. cbn [forallb] in D. rewrite !andb_true_iff in D. destruct D as (D1 & D2 & D3 & D4 & D5 & D6 & _).
    rewrite F3, B; [reflexivity| |]; unfold apartb; cbn [forallb].
    - now rewrite D1, D2.
    - now rewrite D3, D4, D5, D6. }
  assert (Bg : forall q, apartb [OSS; ["DL"; "Outputs"]; ["DL"; "Options"; "LogFile"]; ["DL"; "Options"; "Verbose"]; ["DL"; "Options"; "ListAllDamageStates"]; DFP] q = true -> (given d3 q <-> given cfg q)).
  { intros q D. unfold given. now rewrite (B3 q D). }
  assert (B4 : forall q, apartb [["DL"; "Losses"; "Repair"]; ["DL"; "Outputs"; "Loss"; "Repair"]; NOS; CFD; CFT] q = true -> value d5 q = value d3 q).
  { intros q D. unfold apartb in D. cbn [forallb] in D. rewrite !andb_true_iff in D. destruct D as (D1 & D2 & D3 & D4 & D5 & _).
    rewrite F5, F4; [reflexivity| |]; cbn [forallb].
    - now rewrite D1, D2, D3.
    - now rewrite D4, D5. }
  assert (Gd : forall q, apartb [["DL"; "Losses"; "Repair"]; ["DL"; "Outputs"; "Loss"; "Repair"]; NOS] q = true -> value d4 q = value d3 q) by exact F4.
  assert (Ga3 : given d3 ["DL"; "Asset"]).
  { unfold given. rewrite F3 by (vm_compute; reflexivity). exact Ga. }
  assert (Ga5 : given d5 ["DL"; "Asset"]).
  { unfold given. rewrite F5 by (vm_compute; reflexivity). exact (G4 Ga3). }
  destruct (@check_rest_spec _ _ E8 Ga5) as (H1 & H2 & H3 & H4 & H5).
  assert (KO : forall ks f, kept_or d2 d3 ks f -> apartb [OSS; ["DL"; "Outputs"]] ks = true ->
     apartb [["DL"; "Losses"; "Repair"]; ["DL"; "Outputs"; "Loss"; "Repair"]; NOS; CFD; CFT] ks = true -> kept_or cfg d5 ks f).
  { intros ks f [KA KB] D1 D2. unfold kept_or, given in *. rewrite (B4 _ D2). rewrite (B _ D1) in KA, KB. now split. }
  assert (VD : forall q, apartb [CFD; CFT] q = true -> value d5 q = value d4 q) by exact F5.
  split.
  - unfold finished.
    split; [|split; [|split; [|split; [|split; [|split; [|split; [|split; [|split; [|split; [|split]]]]]]]]]].
    + intros q A. apply apartb_true in A. unfold apartb, own_changes in A. cbn [forallb] in A. rewrite !andb_true_iff in A.
      destruct A as (A1 & A2 & A3 & A4 & A5 & A6 & A7 & A8 & A9 & A10 & _).
      assert (A3' : divergeb ["DL"; "Outputs"; "Loss"; "Repair"] q = true).
      { exact (@divergeb_app ["DL"; "Outputs"] q A3 ["Loss"; "Repair"]). }
      rewrite B4, B3; [reflexivity| |]; unfold apartb; cbn [forallb].
      * now rewrite A1, A2, A3, A4, A5, A6.
      * now rewrite A7, A8, A9, A10, A3'.
    + exists v, n. split; [exact V1|]. split; [exact V2|].
      rewrite B4 by (vm_compute; reflexivity). rewrite F3 by (vm_compute; reflexivity).
      rewrite (F2 OSS KK). exact V3.
    + apply (KO _ _ L1); vm_compute; reflexivity.
    + apply (KO _ _ L2); vm_compute; reflexivity.
    + apply (KO _ _ L3); vm_compute; reflexivity.
    + apply (KO _ _ L4); vm_compute; reflexivity.
    + rewrite (VD ["DL"; "Losses"; "Repair"] KK). rewrite <- (B3 ["DL"; "Losses"; "BldgRepair"] KK). intros K. apply R1.
      unfold set_true in *. now rewrite (B3 ["DL"; "Losses"; "BldgRepair"] KK).
    + rewrite (VD ["DL"; "Losses"; "Repair"] KK). rewrite <- (B3 ["DL"; "Losses"; "Repair"] KK). intros K. apply R2.
      unfold set_true in *. now rewrite (B3 ["DL"; "Losses"; "BldgRepair"] KK).
    + rewrite <- (Bg NOS KK), <- (B3 NOS KK), (VD NOS KK). exact N1.
    + rewrite <- (Bg NOS KK), <- (B3 NOS KK), (VD NOS KK). exact N2.
    + assert (X1 : given d4 CF <-> given cfg CF) by (unfold given; now rewrite (Gd CF KK), (B3 CF KK)).
      assert (X2 : given d4 CFD <-> given cfg CFD) by (unfold given; now rewrite (Gd CFD KK), (B3 CFD KK)).
      rewrite <- X1, <- X2. exact C1.
    + assert (X1 : given d4 CF <-> given cfg CF) by (unfold given; now rewrite (Gd CF KK), (B3 CF KK)).
      assert (X2 : given d4 CFD <-> given cfg CFD) by (unfold given; now rewrite (Gd CFD KK), (B3 CFD KK)).
      rewrite <- X1, <- X2. intros K. rewrite (C2 K), (Gd CFD KK), (B3 CFD KK), (Gd CFT KK), (B3 CFT KK). now split.
  - split; [|exact H5]. unfold complete. split; [|split; [exact Ga5|]].
    + unfold given. rewrite B4 by (vm_compute; reflexivity). destruct L4 as [LA LB].
      destruct (value d2 DFP) as [w|] eqn:Ew.
      * assert (D := not_given_dec w).
        destruct D as [D|D].
        -- rewrite LB; [|intros (w' & Hw & N); rewrite Ew in Hw; injection Hw as <-; tauto].
           eexists. split; [reflexivity|]. apply given_str.
        -- rewrite LA by (exists w; now split). exists w. now split.
      * rewrite LB; [|intros (w' & Hw & N); rewrite Ew in Hw; discriminate Hw].
        eexists. split; [reflexivity|]. apply given_str.
    + repeat split; assumption.
Qed.

Lemma finish_outputs c sh ri cfg d : finish h c sh ri cfg = Ok d ->
  exists cfg0, framed OSS cfg cfg0 /\ forall q, divergeb ["DL"; "Outputs"; "Loss"; "Repair"] q = true ->
    (exists r, q = "DL" :: "Outputs" :: r) -> value d q = below (Some (JDict (fst (parse_outputs (ri cfg0) sh)))) (skipn 2 q).
Proof.
  unfold finish. intros H. binv H d1. binv H d2. binv H b1. binv H u1. binv H b2. binv H u2. binv H d3. binv H d4. binv H d5. binv H u3.
  injection H as <-.
  destruct (set_sample_size_spec _ E) as (F1 & _).
  destruct (@put_spec _ _ _ _ _ ["DL"; "Outputs"] E0 KK) as [V2 _].
  destruct (set_defaults_spec c _ E5) as (F3 & _).
  destruct (replace_legacy_spec _ E6) as (F4 & _).
  destruct (check_collapse_spec _ E7) as (F5 & _).
  clear E E0 E1 E2 E3 E4 E5 E6 E7 E8.
  exists d1. split; [exact F1|]. intros q D (r & ->).
  assert (X : forall p, divergeb ("DL" :: "Outputs" :: p) ("DL" :: "Outputs" :: r) = divergeb p r) by reflexivity.
  assert (A : forall x p, String.eqb x "Outputs" = false -> divergeb ("DL" :: x :: p) ("DL" :: "Outputs" :: r) = true).
  { intros x p Hx. cbn [divergeb]. rewrite Hx. reflexivity. }
  rewrite F5, F4, F3.
  - unfold value in *. change ("DL" :: "Outputs" :: r) with (["DL"; "Outputs"] ++ r). rewrite lookup_app, V2. reflexivity.
  - unfold apartb. cbn [forallb]. rewrite !A by reflexivity. reflexivity.
  - unfold apartb. cbn [forallb]. rewrite D, !A by reflexivity. reflexivity.
  - unfold apartb. cbn [forallb]. rewrite !A by reflexivity. reflexivity.
Qed.
Lemma finish_asset c sh ri cfg d : finish h c sh ri cfg = Ok d -> given cfg ["DL"; "Asset"].
Proof.
  unfold finish. intros H. binv H d1. binv H d2. binv H b1. binv H u1. binv H b2. binv H u2. clear H.
  destruct (set_sample_size_spec _ E) as (F1 & _).
  destruct (@put_spec _ _ _ _ _ ["DL"; "Outputs"] E0 KK) as [_ F2].
  apply reject_ok in E4. subst b2.
  assert (Ga : given d2 ["DL"; "Asset"]) by now apply (@unspec_spec _ _ _ ["DL"; "Asset"] _ E3 KK).
  unfold given in *. now rewrite (F2 ["DL"; "Asset"] KK), (F1 ["DL"; "Asset"] KK) in Ga.
Qed.
End Finish.

(** ** What the schema demands *)

Fixpoint schema_at (s : schema) (ks : list string) : option schema :=
  match ks, s with
  | [], _ => Some s
  | k :: tl, Schema _ _ _ ps => match dget k ps with Some s' => schema_at s' tl | None => None end
  end.
Lemma valid_at ks : forall s v s' x, valid s v = true -> schema_at s ks = Some s' -> lookup v ks = Some x -> valid s' x = true.
Proof.
  induction ks as [|k ks IH]; intros s v s' x V A L; cbn [schema_at lookup] in *.
  - injection A as <-. injection L as <-. destruct s. exact V.
  - destruct s as [t r e ps]. destruct v as [| | | | | |d]; try discriminate L.
    destruct (dget k ps) as [s1|] eqn:E1; [|discriminate A].
    destruct (dget k d) as [x1|] eqn:E2; [|discriminate L].
    apply (IH s1 x1); auto. exact (proj2 (@valid_dict _ _ _ _ _ V) k s1 x1 E1 E2).
Qed.
Lemma schema_demand_file cfg v : valid input_schema (JDict cfg) = true ->
  value cfg ["DL"; "Demands"; "DemandFilePath"] = Some v -> exists s, v = JStr s.
Proof.
  intros V L. assert (W := @valid_at ["DL"; "Demands"; "DemandFilePath"] input_schema (JDict cfg) (Schema ["string"] [] None []) v V KK L).
  apply valid_object in W. destruct v; try discriminate W. eauto.
Qed.
Lemma schema_asset cfg v : valid input_schema (JDict cfg) = true ->
  value cfg ["DL"; "Asset"] = Some v -> exists s, value cfg ["DL"; "Asset"; "ComponentAssignmentFile"] = Some (JStr s).
Proof.
  intros V L.
  destruct (schema_at input_schema ["DL"; "Asset"]) as [[t r e ps]|] eqn:Es; [|vm_compute in Es; discriminate Es].
  assert (W := @valid_at _ _ _ _ _ V Es L). assert (Ht : t = ["object"] /\ r = ["ComponentAssignmentFile"]).
  { vm_compute in Es. injection Es as <- <- _ _. now split. }
  destruct Ht as [-> ->].
  assert (D : exists d, v = JDict d). { apply valid_object in W. destruct v; try discriminate W. eauto. }
  destruct D as [d ->]. destruct (@valid_dict _ _ _ _ _ W) as [R _].
  specialize (R _ (or_introl eq_refl)). destruct (dget "ComponentAssignmentFile" d) as [x|] eqn:Ex; [|easy].
  assert (L2 : value cfg ["DL"; "Asset"; "ComponentAssignmentFile"] = Some x).
  { unfold value in *. change ["DL"; "Asset"; "ComponentAssignmentFile"] with (["DL"; "Asset"] ++ ["ComponentAssignmentFile"]).
    rewrite lookup_app, L. cbn [lookup]. now rewrite Ex. }
  assert (X := @valid_at ["DL"; "Asset"; "ComponentAssignmentFile"] input_schema (JDict cfg) (Schema ["string"] [] None []) x V KK L2).
  apply valid_object in X. destruct x; try discriminate X. rewrite L2. eauto.
Qed.

Section Parse.
Variable C : Type.
Variable h : host C.
Notation DFP := ["DL"; "Demands"; "DemandFilePath"].
Notation DSS := ["DL"; "Demands"; "SampleSize"].

Lemma add_demand_file_spec c cfg d : add_demand_file h c cfg = Ok d ->
  framed DFP cfg d /\ (given cfg ["DL"] <-> given d ["DL"]) /\
  (given cfg ["DL"] -> given cfg DFP -> d = cfg) /\
  (given cfg ["DL"] -> ~ given cfg DFP -> value d DFP = Some (jopt (c_demand_file c))) /\
  (~ given cfg ["DL"] -> d = cfg).
Proof.
  unfold add_demand_file. intros H. binv H b. assert (G := @unspec_spec _ _ _ ["DL"] _ E KK). destruct b.
  - injection H as <-. assert (N : ~ given cfg ["DL"]) by (intros K; apply G in K; discriminate K).
    split; [easy|]. repeat split; tauto.
  - binv H b2. assert (G2 := @unspec_spec _ _ _ DFP _ E0 KK). assert (Y : given cfg ["DL"]) by now apply G. destruct b2.
    + destruct (@put_spec _ _ _ _ _ DFP H KK) as [A F]. split; [exact F|].
      assert (Yd : given d ["DL"]) by exact (@below_given d ["DL"] _ _ _ A).
      split; [tauto|]. split; [|split; [tauto|tauto]]. intros _ K. apply G2 in K. discriminate K.
    + injection H as <-. split; [easy|]. split; [tauto|]. split; [easy|]. split; [|tauto].
      intros _ K. exfalso. apply K. now apply G2.
Qed.

Definition own_ri c : dict json -> run_input := fun cfg => RI false (c_detailed c) false None (own_outputs cfg) (c_format c).
Lemma parse_own c sh cfg r : given cfg ["DL"] -> parse_config h c sh cfg = Ok r ->
  exists cfg1 d, r = Some d /\ add_demand_file h c cfg = Ok cfg1 /\ valid input_schema (JDict cfg1) = true /\
    finish h c sh (own_ri c) cfg1 = Ok d.
Proof.
  intros G H. unfold parse_config in H. binv H cfg1. destruct (valid input_schema (JDict cfg1)) eqn:V; [|discriminate H].
  destruct (add_demand_file_spec _ _ E) as (F & G1 & _).
  binv H b. assert (G2 := @unspec_spec _ _ _ ["DL"] _ E0 KK). destruct b.
  - apply G1 in G. apply G2 in G. discriminate G.
  - binv H d. injection H as <-. exists cfg1, d. now repeat split.
Qed.
Lemma parse_auto_unfold c sh cfg r : ~ given cfg ["DL"] -> parse_config h c sh cfg = Ok r ->
  valid input_schema (JDict cfg) = true /\
  ((r = None /\ parse_auto h c cfg = Ok None) \/
   exists cfg1 ri d, r = Some d /\ parse_auto h c cfg = Ok (Some (cfg1, ri)) /\ finish h c sh (fun _ => ri) cfg1 = Ok d).
Proof.
  intros G H. unfold parse_config in H. binv H cfg1.
  destruct (add_demand_file_spec _ _ E) as (_ & _ & _ & _ & Eq). specialize (Eq G). subst cfg1.
  destruct (valid input_schema (JDict cfg)) eqn:V; [|discriminate H]. split; [reflexivity|].
  binv H b. assert (G2 := @unspec_spec _ _ _ ["DL"] _ E0 KK). destruct b.
  - binv H o. destruct o as [[cfg1 ri]|].
    + right. binv H d. injection H as <-. exists cfg1, ri, d. now repeat split.
    + left. now injection H as <-.
  - exfalso. apply G. now apply G2.
Qed.

(** ** Scripts *)

Lemma auto_populate_spec cfg p ap comp : auto_populate h cfg p = Ok (ap, comp) ->
  exists copy aim dl, h_script h (script_location h p) cfg = Ok (copy, aim, dl, comp) /\
    value ap ["DL"] = Some dl /\ forall q, value ap ("DL" :: q) = lookup dl q.
Proof.
  unfold auto_populate. intros H. destruct (dget "GeneralInformation" cfg) as [g|]; [|discriminate H].
  assert (B : exists r, h_script h (script_location h p) cfg = Ok r /\
    (let '(copy, aim, dl, comp) := r in
      match dget "GeneralInformation" copy with
      | None => Err KeyError
      | Some (JDict g) => Ok (dset "DL" dl (dset "GeneralInformation" (JDict (update_dict g aim)) copy), comp)
      | Some _ => Err AttributeError
      end) = Ok (ap, comp)).
  { destruct g; try discriminate H; apply bind_ok in H; destruct H as (r & A & B); now exists r. }
  clear H. destruct B as ([[[copy aim] dl] comp'] & A & B).
  destruct (dget "GeneralInformation" copy) as [[| | | | | |g0]|]; try discriminate B. injection B as <- <-.
  exists copy, aim, dl. split; [exact A|]. split.
  - unfold value. cbn [lookup]. now rewrite dget_dset_eq.
  - intros q. unfold value. cbn [lookup]. now rewrite dget_dset_eq.
Qed.

Notation CDB := ["DL"; "Asset"; "ComponentDatabase"].
Notation RDB := ["DL"; "Losses"; "Repair"; "ConsequenceDatabase"].
Notation CMB := ["DL"; "Losses"; "Repair"; "CombinationMethod"].
Lemma add_script_spec cfg acc p acc' : add_script h cfg acc p = Ok acc' ->
  (forall q, apartb further_changes q = true -> value (fst acc') q = value (fst acc) q) /\
  value (fst acc') CMB = Some (JStr "Hazus Hurricane").
Proof.
  unfold add_script. intros H. binv H r. binv H d1. binv H d2. binv H d3. injection H as <-. cbn [fst].
  destruct (@put_spec _ _ _ _ _ CDB E0 KK) as [_ F1]. destruct (@put_spec _ _ _ _ _ RDB E1 KK) as [_ F2].
  destruct (@put_spec _ _ _ _ _ CMB E2 KK) as [A F3]. split; [|exact A].
  intros q. unfold apartb, further_changes. cbn [forallb]. rewrite !andb_true_iff. intros (D1 & D2 & D3 & _).
  now rewrite (F3 _ D3), (F2 _ D2), (F1 _ D1).
Qed.
Lemma add_scripts_spec cfg ps : forall acc acc', foldM (add_script h cfg) acc ps = Ok acc' ->
  (ps = [] -> acc' = acc) /\
  (ps <> [] -> value (fst acc') CMB = Some (JStr "Hazus Hurricane")) /\
  forall q, (ps <> [] -> apartb further_changes q = true) -> value (fst acc') q = value (fst acc) q.
Proof.
  induction ps as [|p ps IH]; intros acc acc' H; cbn [foldM] in H.
  - injection H as <-. easy.
  - binv H a. destruct (add_script_spec _ _ _ E) as [F A]. destruct (IH _ _ H) as (I1 & I2 & I3). split; [easy|]. split.
    + intros _. destruct ps as [|p' ps]; [|now apply I2]. now rewrite (I1 eq_refl).
    + intros q D. assert (D' : apartb further_changes q = true) by now apply D.
      rewrite I3 by (intros _; exact D'). now apply F.
Qed.
Lemma run_scripts_spec cfg p ps ap comps : run_scripts h cfg (p :: ps) = Ok (ap, comps) ->
  exists copy aim dl comp, h_script h (script_location h p) cfg = Ok (copy, aim, dl, comp) /\
    (forall q, (ps <> [] -> apartb further_changes ("DL" :: q) = true) -> value ap ("DL" :: q) = lookup dl q) /\
    (ps <> [] -> value ap CMB = Some (JStr "Hazus Hurricane")).
Proof.
  unfold run_scripts. intros H. binv H r. destruct r as [ap0 comp]. cbn [fst snd] in H.
  destruct (auto_populate_spec _ _ E) as (copy & aim & dl & A & _ & B). exists copy, aim, dl, comp. split; [exact A|].
  destruct (add_scripts_spec _ _ _ H) as (_ & I2 & I3). cbn [fst] in *. split; [|exact I2].
  intros q D. rewrite (I3 _ D). apply B.
Qed.

(** ** Options *)

(** What merging the user's options makes of the script's *)
Definition merged (user script : option json) (result : option json) : Prop :=
  match user with
  | Some u => if truthy u then exists o e p, script = Some (JDict o) /\ u = JDict (e :: p) /\
                exists r, result = Some (JDict r) /\ update_vals o (e :: p) = Ok r
              else result = script
  | None => result = script
  end.
Notation APO := ["Applications"; "DL"; "ApplicationData"; "Options"].
Lemma merge_options_spec cfg ap ap' : merge_options cfg ap = Ok ap' ->
  framed ["DL"; "Options"] ap ap' /\ merged (value cfg APO) (value ap ["DL"; "Options"]) (value ap' ["DL"; "Options"]).
Proof.
  unfold merge_options. rewrite (@get_spec cfg "Applications/DL/ApplicationData/Options" APO KK).
  rewrite (@get_spec ap "Applications/DL/ApplicationData/Options" APO KK).
  destruct (value cfg APO) as [u|].
  2:{ cbn. intros [= <-]. easy. }
  unfold merged. destruct u as [| |[]|q|s|l|[|e p]]; cbn [truthy]; try (intros [= <-]; easy).
  - destruct (negb (Qceqb q 0)); [discriminate|]. now intros [= <-].
  - destruct s; [|discriminate]. now intros [= <-].
  - destruct l; [|discriminate]. now intros [= <-].
  - intros H. assert (H' : match dget "DL" ap with
          | Some (JDict dl) =>
              match dget "Options" dl with
              | Some (JDict o) =>
                  let* o := update_vals o (e :: p) in
                  Ok (dset "DL" (JDict (dset "Options" (JDict o) dl)) ap)
              | Some _ => Err TypeError
              | None => Err KeyError
              end
          | _ => Err TypeError
          end = Ok ap').
    { destruct (value ap APO) as [w|]; [destruct w; try discriminate H; exact H|discriminate H]. }
    clear H. destruct (dget "DL" ap) as [dl|] eqn:E1; [|discriminate H']. destruct dl as [| | | | | |dl]; try discriminate H'.
    destruct (dget "Options" dl) as [o|] eqn:E2; [|discriminate H']. destruct o as [| | | | | |o]; try discriminate H'.
    binv H' r. injection H' as <-. split.
    + intros [|k q]; [discriminate|]. cbn [divergeb]. unfold value. cbn [lookup]. intros D.
      destruct (String.eqb_spec k "DL") as [-> |N]; [|now rewrite dget_dset_ne by congruence].
      rewrite dget_dset_eq, E1. rewrite String.eqb_refl in D. cbn [negb orb] in D.
      destruct q as [|k2 q]; [discriminate D|]. cbn [divergeb] in D. cbn [lookup]. rewrite orb_false_r in D.
      apply negb_true_iff in D. apply String.eqb_neq in D. now rewrite dget_dset_ne by congruence.
    + exists o, e, p. unfold value. cbn [lookup]. rewrite E1. cbn [lookup]. rewrite E2. split; [reflexivity|]. split; [reflexivity|].
      exists r. rewrite dget_dset_eq. cbn [lookup]. rewrite dget_dset_eq. now split.
Qed.

Lemma falsy_below u k ks : truthy u = false -> lookup u (k :: ks) = None.
Proof. destruct u as [| |[]|q|s|l|[|e p]]; try reflexivity; discriminate. Qed.
Lemma merged_prefers user script result k ks :
  (forall u, user = Some u -> wf_json u) -> merged user script result -> prefers script user result (k :: ks).
Proof.
  unfold merged, prefers. intros W M. destruct user as [u|].
  - destruct (truthy u) eqn:T.
    + destruct M as (o & e & p & -> & -> & r & -> & U). unfold below.
      exact (@update_vals_lookup (k :: ks) _ _ _ (W _ eq_refl) U).
    + subst result. unfold below. rewrite (@falsy_below _ k ks T).
      destruct script as [v|]; [|reflexivity]. destruct (lookup v (k :: ks)) as [a|]; [|reflexivity].
      destruct a; try reflexivity. cbn [is_dict]. eauto.
  - subst result. unfold below. destruct script as [v|]; [|reflexivity]. destruct (lookup v (k :: ks)) as [a|]; [|reflexivity].
    destruct a; try reflexivity. cbn [is_dict]. eauto.
Qed.
Lemma wf_lookup ks : forall v w, wf_json v -> lookup v ks = Some w -> wf_json w.
Proof.
  induction ks as [|k ks IH]; intros v w W L; cbn [lookup] in L; [now injection L as <-|].
  destruct v as [| | | | | |d]; try discriminate L. destruct (dget k d) as [x|] eqn:E; [|discriminate L].
  apply (IH x); [|exact L]. exact (proj2 (wf_dict_inv W) k x E).
Qed.

Notation CPL := ["DL"; "Demands"; "CoupledDemands"].
Notation CAL := ["DL"; "Demands"; "Calibration"].
Notation CAF := ["DL"; "Asset"; "ComponentAssignmentFile"].
Definition all_lognormal : json := JDict [("ALL", JDict [("DistributionFamily", JStr "lognormal")])].
Lemma complete_auto_spec c ap d : complete_auto h c ap = Ok d ->
  (forall q, apartb [DFP; DSS; CPL; CAL; CAF] q = true -> value d q = value ap q) /\
  value d DFP = Some (jopt (c_demand_file c)) /\ value d DSS = Some (JStr (c_realizations c)) /\
  value d CPL = (if c_coupled c then Some (JBool true) else value ap CPL) /\
  value d CAL = (if c_coupled c then value ap CAL else Some all_lognormal) /\
  value d CAF = Some (JStr (c_out c ++ "/CMP_QNT.csv")).
Proof.
  unfold complete_auto. intros H. binv H d1. binv H d2. binv H d3.
  destruct (@put_spec _ _ _ _ _ DFP E KK) as [A1 F1]. destruct (@put_spec _ _ _ _ _ DSS E0 KK) as [A2 F2].
  destruct (@put_spec _ _ _ _ _ CAF H KK) as [A4 F4].
  assert (S3 : (forall q, apartb [CPL; CAL] q = true -> value d3 q = value d2 q) /\
     value d3 CPL = (if c_coupled c then Some (JBool true) else value d2 CPL) /\
     value d3 CAL = (if c_coupled c then value d2 CAL else Some all_lognormal)).
  { destruct (c_coupled c).
    - destruct (@put_spec _ _ _ _ _ CPL E1 KK) as [A3 F3]. split; [|split; [exact A3|exact (F3 CAL KK)]].
      intros q. unfold apartb. cbn [forallb]. rewrite !andb_true_iff. intros (D & _). exact (F3 _ D).
    - destruct (@put_spec _ _ _ _ _ CAL E1 KK) as [A3 F3]. split; [|split; [exact (F3 CPL KK)|exact A3]].
      intros q. unfold apartb. cbn [forallb]. rewrite !andb_true_iff. intros (_ & D & _). exact (F3 _ D). }
  destruct S3 as (F3 & A5 & A6).
  assert (F12 : forall q, apartb [DFP; DSS] q = true -> value d2 q = value ap q).
  { intros q. unfold apartb. cbn [forallb]. rewrite !andb_true_iff. intros (D1 & D2 & _). now rewrite (F2 _ D2), (F1 _ D1). }
  split; [|split; [|split; [|split; [|split]]]].
  - intros q. unfold apartb. cbn [forallb]. rewrite !andb_true_iff. intros (D1 & D2 & D3 & D4 & D5 & _).
    rewrite (F4 _ D5), F3, F12; [reflexivity| |]; unfold apartb; cbn [forallb].
    + now rewrite D1, D2.
    + now rewrite D3, D4.
  - rewrite (F4 DFP KK), (F3 DFP KK), (F2 DFP KK). exact A1.
  - rewrite (F4 DSS KK), (F3 DSS KK). exact A2.
  - rewrite (F4 CPL KK), A5, (F12 CPL KK). reflexivity.
  - rewrite (F4 CAL KK), A6, (F12 CAL KK). reflexivity.
  - exact A4.
Qed.

(** The configuration given to the scripts *)
Definition asked (c : call) (cfg a : dict json) : Prop :=
  value a DFP = Some (jopt (c_demand_file c)) /\ value a DSS = Some (JStr (c_realizations c)) /\
  forall k q, k <> "DL" -> value a (k :: q) = value cfg (k :: q).
Lemma diverge_head a b k q : k <> a -> divergeb (a :: b) (k :: q) = true.
Proof. intros N. cbn [divergeb]. apply orb_true_iff. left. apply negb_true_iff, String.eqb_neq. congruence. Qed.

Lemma skip_spec ap : is_skip (get (Some ap) "DL" JNull) = true <-> value ap ["DL"] = Some (JStr "N/A").
Proof.
  rewrite (@get_spec ap "DL" ["DL"] KK). destruct (value ap ["DL"]) as [v|]; [|now split].
  destruct v as [| | | |s| |]; cbn [is_skip]; try (split; discriminate). rewrite String.eqb_eq. split; congruence.
Qed.
Lemma from_scripts_spec c a ap r : from_scripts h c a ap = Ok r ->
  (r = None /\ value ap ["DL"] = Some (JStr "N/A")) \/
   exists ap1 ap2 cfg1 ri, r = Some (cfg1, ri) /\ value ap ["DL"] <> Some (JStr "N/A") /\
     merge_options a ap = Ok ap1 /\ complete_auto h c ap1 = Ok ap2 /\
     update (h_np22 h) false a "DL" (get (Some ap2) "DL" JNull) = Ok cfg1.
Proof.
  intros H. unfold from_scripts in H. assert (K := skip_spec ap). destruct (is_skip (get (Some ap) "DL" JNull)).
  - left. split; [now injection H as <-|now apply K].
  - right. binv H ap1. binv H ap2. binv H l. binv H os. binv H cfg1. injection H as <-.
    exists ap1, ap2, cfg1. eexists. split; [reflexivity|]. split; [intros W; apply K in W; discriminate W|]. now repeat split.
Qed.
Lemma parse_auto_begin c cfg r : parse_auto h c cfg = Ok r ->
  exists p ps a ap comps, model_scripts h c cfg = Ok (p :: ps) /\ forallb (h_exists h) (p :: ps) = true /\ asked c cfg a /\
    run_scripts h a (p :: ps) = Ok (ap, comps) /\ given ap ["DL"] /\
    ((r = None /\ value ap ["DL"] = Some (JStr "N/A")) \/
     exists ap1 ap2 cfg1 ri, r = Some (cfg1, ri) /\ value ap ["DL"] <> Some (JStr "N/A") /\
       merge_options a ap = Ok ap1 /\ complete_auto h c ap1 = Ok ap2 /\
       update (h_np22 h) false a "DL" (get (Some ap2) "DL" JNull) = Ok cfg1).
Proof.
  intros H. open_def (@parse_auto) H. binv H ps. destruct (forallb (h_exists h) ps) eqn:Ex; [|discriminate H].
  binv H a1. binv H a. binv H rs. binv H b.
  destruct ps as [|p ps]; [discriminate E2|]. destruct rs as [ap comps]. cbn [fst] in *.
  destruct (@put_spec _ _ _ _ _ DFP E0 KK) as [A1 F1]. destruct (@put_spec _ _ _ _ _ DSS E1 KK) as [A2 F2].
  assert (Gd := @unspec_spec _ _ _ ["DL"] _ E3 KK).
  destruct b; [discriminate H|].
  exists p, ps, a, ap, comps. split; [exact E|]. split; [exact Ex|]. split.
  { split; [rewrite (F2 DFP KK); exact A1|]. split; [exact A2|]. intros k q N.
    rewrite (F2 (k :: q)) by now apply diverge_head. apply F1. now apply diverge_head. }
  split; [exact E2|]. split; [now apply Gd|].
  exact (from_scripts_spec _ _ _ H).
Qed.

Notation OPT := ["DL"; "Options"].
Lemma apartb_cons p ps q : apartb (p :: ps) q = true <-> divergeb p q = true /\ apartb ps q = true.
Proof. unfold apartb. cbn [forallb]. apply andb_true_iff. Qed.
Lemma parse_auto_spec c cfg cfg1 ri : parse_auto h c cfg = Ok (Some (cfg1, ri)) ->
  exists p ps a copy aim dl comp, model_scripts h c cfg = Ok (p :: ps) /\ asked c cfg a /\
    h_script h (script_location h p) a = Ok (copy, aim, dl, comp) /\
    (forall k q, k <> "DL" -> value cfg1 (k :: q) = value cfg (k :: q)) /\
    (forall q, apartb [DFP; DSS; CPL; CAL; CAF; OPT] ("DL" :: q) = true -> (ps <> [] -> apartb further_changes ("DL" :: q) = true) ->
       value cfg1 ("DL" :: q) = lookup dl q) /\
    value cfg1 DFP = Some (jopt (c_demand_file c)) /\ value cfg1 DSS = Some (JStr (c_realizations c)) /\
    value cfg1 CPL = (if c_coupled c then Some (JBool true) else lookup dl ["Demands"; "CoupledDemands"]) /\
    value cfg1 CAL = (if c_coupled c then lookup dl ["Demands"; "Calibration"] else Some all_lognormal) /\
    value cfg1 CAF = Some (JStr (c_out c ++ "/CMP_QNT.csv")) /\
    merged (value cfg APO) (lookup dl ["Options"]) (value cfg1 OPT) /\
    (ps <> [] -> value cfg1 CMB = Some (JStr "Hazus Hurricane")).
Proof.
  intros H. destruct (parse_auto_begin _ _ H) as (p & ps & a & ap & comps & M & _ & A & R & _ & [[Q _] | K]); [discriminate Q|].
  destruct K as (ap1 & ap2 & cfg1' & ri' & Q & _ & Mo & Co & U). injection Q as <- <-.
  destruct (run_scripts_spec _ _ _ R) as (copy & aim & dl & comp & Hs & V & Vc).
  exists p, ps, a, copy, aim, dl, comp. split; [exact M|]. split; [exact A|]. split; [exact Hs|].
  destruct (merge_options_spec _ _ Mo) as [F1 Me]. destruct (complete_auto_spec _ _ Co) as (F2 & V1 & V2 & V3 & V4 & V5).
  destruct (@put_spec _ _ _ _ _ ["DL"] U KK) as [W F3]. destruct A as (A1 & A2 & A3).
  assert (G : exists e, value ap2 ["DL"] = Some e).
  { destruct (value ap2 ["DL"]) as [e|] eqn:E; [eauto|]. unfold value in V2, E.
    change DSS with (["DL"] ++ ["Demands"; "SampleSize"]) in V2. rewrite lookup_app, E in V2. discriminate V2. }
  destruct G as [e G].
  assert (D : forall q, value cfg1 ("DL" :: q) = value ap2 ("DL" :: q)).
  { intros q. rewrite (@get_spec ap2 "DL" ["DL"] KK), G in W. unfold value in *.
    change ("DL" :: q) with (["DL"] ++ q). now rewrite !lookup_app, W, G. }
  assert (P : forall q, apartb [DFP; DSS; CPL; CAL; CAF] ("DL" :: q) = true -> divergeb OPT ("DL" :: q) = true -> value cfg1 ("DL" :: q) = value ap ("DL" :: q)).
  { intros q D1 D2. now rewrite D, (F2 _ D1), (F1 _ D2). }
  split; [|split; [|split; [|split; [|split; [|split; [|split; [|split]]]]]]].
  - intros k q N. rewrite (F3 (k :: q)) by now apply diverge_head. now apply A3.
  - intros q D1 D2. rewrite !apartb_cons in D1. destruct D1 as (D1 & D3 & D4 & D5 & D6 & D7 & _).
    rewrite P; [now apply V| |exact D7]. rewrite !apartb_cons. now repeat split.
  - rewrite D. exact V1.
  - rewrite D. exact V2.
  - rewrite D. rewrite V3. destruct (c_coupled c); [reflexivity|]. rewrite (F1 CPL KK). apply V. intros _. vm_compute. reflexivity.
  - rewrite D. rewrite V4. destruct (c_coupled c); [|reflexivity]. rewrite (F1 CAL KK). apply V. intros _. vm_compute. reflexivity.
  - rewrite D. exact V5.
  - rewrite D, (F2 OPT KK). rewrite <- (A3 "Applications") by discriminate.
    rewrite <- (V ["Options"]) by (intros _; vm_compute; reflexivity). exact Me.
  - intros N. rewrite D. rewrite (F2 CMB KK), (F1 CMB KK). now apply Vc.
Qed.
(** Databases of several scripts. *)
Lemma join_snoc t0 t1 ts : join "," ((t0 ++ "," ++ t1)%string :: ts) = join "," (t0 :: t1 :: ts).
Proof. destruct ts as [|t2 ts]; [reflexivity|]. change (join "," (t0 :: t1 :: t2 :: ts)) with (t0 ++ "," ++ (t1 ++ "," ++ join "," (t2 :: ts)))%string.
  change (join "," ((t0 ++ "," ++ t1)%string :: t2 :: ts)) with ((t0 ++ "," ++ t1) ++ "," ++ join "," (t2 :: ts))%string. now rewrite !string_app_assoc. Qed.
Definition supplies (a : dict json) (q : list string) (p t : string) : Prop :=
  forall copy aim dl comp, h_script h (script_location h p) a = Ok (copy, aim, dl, comp) -> lookup dl q = Some (JStr t).
Lemma supplied cfg p r q t : auto_populate h cfg p = Ok r -> supplies cfg q p t -> value (fst r) ("DL" :: q) = Some (JStr t).
Proof. destruct r as [ap comp]. intros H S. destruct (auto_populate_spec _ _ H) as (copy & aim & dl & A & _ & V). cbn [fst]. rewrite V. exact (S _ _ _ _ A). Qed.
Lemma add_scripts_databases cfg ps ts us : Forall2 (supplies cfg ["Asset"; "ComponentDatabase"]) ps ts ->
  Forall2 (supplies cfg ["Losses"; "Repair"; "ConsequenceDatabase"]) ps us ->
  forall acc acc' t u, foldM (add_script h cfg) acc ps = Ok acc' ->
  value (fst acc) CDB = Some (JStr t) -> value (fst acc) RDB = Some (JStr u) ->
  value (fst acc') CDB = Some (JStr (join "," (t :: ts))) /\ value (fst acc') RDB = Some (JStr (join "," (u :: us))).
Proof.
  intros H. revert us. induction H as [|p t1 ps ts Hp H IH]; intros us Hu; inversion Hu as [|? u1 ? us' Hp' Hu']; subst; intros acc acc' t u K Vt Vu; cbn [foldM] in K.
  - injection K as <-. now split.
  - binv K acc1. rewrite <- !join_snoc. apply (IH _ Hu' _ _ _ _ K); clear K IH; unfold add_script in E; binv E r; binv E d1; binv E d2; binv E d3; injection E as <-; cbn [fst].
    + destruct (@put_spec _ _ _ _ _ CDB E1 KK) as [A _]. destruct (@put_spec _ _ _ _ _ RDB E2 KK) as [_ F2]. destruct (@put_spec _ _ _ _ _ CMB E3 KK) as [_ F3].
      rewrite (F3 CDB KK), (F2 CDB KK), A. unfold join_text. rewrite !(@get_spec _ "DL/Asset/ComponentDatabase" CDB KK), Vt, (supplied E0 Hp). reflexivity.
    + destruct (@put_spec _ _ _ _ _ CDB E1 KK) as [_ F1]. destruct (@put_spec _ _ _ _ _ RDB E2 KK) as [A _]. destruct (@put_spec _ _ _ _ _ CMB E3 KK) as [_ F3].
      rewrite (F3 RDB KK), A. unfold join_text. rewrite !(@get_spec _ "DL/Losses/Repair/ConsequenceDatabase" RDB KK), (F1 RDB KK), Vu, (supplied E0 Hp'). reflexivity.
Qed.
Lemma parse_auto_databases c cfg cfg1 ri ps ts us : parse_auto h c cfg = Ok (Some (cfg1, ri)) -> model_scripts h c cfg = Ok ps ->
  (forall a, asked c cfg a -> Forall2 (supplies a ["Asset"; "ComponentDatabase"]) ps ts /\ Forall2 (supplies a ["Losses"; "Repair"; "ConsequenceDatabase"]) ps us) ->
  value cfg1 CDB = Some (JStr (join "," ts)) /\ value cfg1 RDB = Some (JStr (join "," us)).
Proof.
  intros H M0 Sa. destruct (parse_auto_begin _ _ H) as (p & ps' & a & ap & comps & M & _ & A & R & _ & [[Q _] | K]); [discriminate Q|].
  rewrite M in M0. injection M0 as <-. destruct K as (ap1 & ap2 & cfg1' & ri' & Q & _ & Mo & Co & U). injection Q as <- <-.
  destruct (merge_options_spec _ _ Mo) as [F1 _]. destruct (complete_auto_spec _ _ Co) as (F2 & _ & V2 & _).
  destruct (@put_spec _ _ _ _ _ ["DL"] U KK) as [W F3].
  assert (G : exists e, value ap2 ["DL"] = Some e).
  { destruct (value ap2 ["DL"]) as [e|] eqn:E; [eauto|]. unfold value in V2, E.
    change DSS with (["DL"] ++ ["Demands"; "SampleSize"]) in V2. rewrite lookup_app, E in V2. discriminate V2. }
  destruct G as [e G].
  assert (D : forall q, value cfg1 ("DL" :: q) = value ap2 ("DL" :: q)).
  { intros q. rewrite (@get_spec ap2 "DL" ["DL"] KK), G in W. unfold value in *.
    change ("DL" :: q) with (["DL"] ++ q). now rewrite !lookup_app, W, G. }
  rewrite !D, (F2 CDB KK), (F2 RDB KK), (F1 CDB KK), (F1 RDB KK).
  destruct (Sa a A) as [St Su]. inversion St as [|? t ? ts' Sp St']; subst. inversion Su as [|? u ? us' Sp' Su']; subst.
  unfold run_scripts in R. binv R r. exact (@add_scripts_databases _ _ _ _ St' Su' _ _ _ _ R (supplied E Sp) (supplied E Sp')).
Qed.
Lemma parse_skip c cfg : parse_auto h c cfg = Ok None ->
  exists p a copy aim comp, model_scripts h c cfg = Ok [p] /\ asked c cfg a /\
    h_script h (script_location h p) a = Ok (copy, aim, JStr "N/A", comp).
Proof.
  intros H. destruct (parse_auto_begin _ _ H) as (p & ps & a & ap & comps & M & _ & A & R & _ & [[_ Q] | K]).
  2:{ destruct K as (ap1 & ap2 & cfg1' & ri' & Q & _). discriminate Q. }
  destruct (run_scripts_spec _ _ _ R) as (copy & aim & dl & comp & Hs & V & Vc).
  destruct ps as [|p2 ps].
  - exists p, a, copy, aim, comp. split; [exact M|]. split; [exact A|]. rewrite (V []) in Q by easy. cbn [lookup] in Q.
    injection Q as ->. exact Hs.
  - exfalso. specialize (Vc ltac:(discriminate)). unfold value in Vc, Q.
    change CMB with (["DL"] ++ ["Losses"; "Repair"; "CombinationMethod"]) in Vc. rewrite lookup_app, Q in Vc. discriminate Vc.
Qed.
End Parse.

(** ** Which arguments matter *)
Definition by_cases C (h : host C) (a : result (dict json)) (k : dict json -> bool -> result (option (dict json))) : result (option (dict json)) :=
  let* cfg := a in
  if valid input_schema (JDict cfg) then let* b := is_unspecified (h_np22 h) cfg "DL" in k cfg b else Err InvalidConfig.
Lemma by_cases_ext C (h : host C) a a' k k' : a = a' ->
  (forall cfg b, a = Ok cfg -> is_unspecified (h_np22 h) cfg "DL" = Ok b -> k cfg b = k' cfg b) ->
  by_cases h a k = by_cases h a' k'.
Proof.
  intros <- K. destruct a as [cfg|e]; [|reflexivity]. unfold by_cases. cbn [bind]. destruct (valid input_schema (JDict cfg)); [|reflexivity].
  destruct (is_unspecified (h_np22 h) cfg "DL") as [b|e] eqn:U; [|reflexivity]. cbn [bind]. apply K; [reflexivity|exact U].
Qed.
Lemma parse_by_cases C (h : host C) c sh cfg : parse_config h c sh cfg = by_cases h (add_demand_file h c cfg) (fun cfg b =>
  if b then let* r := parse_auto h c cfg in
            match r with None => Ok None | Some (cfg, ri) => let* cfg := finish h c sh (fun _ => ri) cfg in Ok (Some cfg) end
  else let* cfg := finish h c sh (own_ri c) cfg in Ok (Some cfg)).
Proof. reflexivity. Qed.
Lemma finish_ext C (h : host C) c c' sh ri ri' cfg : c_dir c = c_dir c' ->
  (forall cfg, fst (parse_outputs (ri cfg) sh) = fst (parse_outputs (ri' cfg) sh)) ->
  finish h c sh ri cfg = finish h c' sh ri' cfg.
Proof.
  intros E O. unfold finish. destruct (set_sample_size h cfg) as [d|e]; [|reflexivity]. cbn [bind]. rewrite (O d).
  unfold set_defaults. rewrite E. reflexivity.
Qed.
Lemma bind_ext A B (r : result A) (k k' : A -> result B) : (forall x, k x = k' x) -> bind r k = bind r k'.
Proof. intros K. destruct r as [x|e]; [apply K|reflexivity]. Qed.
