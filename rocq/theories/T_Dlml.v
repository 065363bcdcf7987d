(** The data of the model library: updates, interruptions, first download. *)
From Verif Require Import Prelude PreludeFacts M_Damage M_Dlml S_Dlml P_Dlml.
Set Implicit Arguments.
Local Open Scope string_scope.
Local Open Scope list_scope.

(** ** C53 *)

(** An update without the record delivers the commit, from any state and whatever the API answers. *)
Theorem C53_no_cache : forall hash lib cmp sha s s',
  snd (update hash lib cmp false sha s) = Ok (tt, s') -> delivered lib sha s'.
Proof. intros hash lib cmp sha s s' H. exact (@update_fresh hash lib cmp sha s s' H). Qed.
Print Assumptions C53_no_cache.

(** After any history (updates with and without the record, complete or interrupted anywhere,
    version checks, files edited or deleted by somebody, the record removed) an update that ends
    well delivers the commit, unless that very commit is on record and nothing is done. *)
Theorem C53_any_history_partial : forall hash lib es s cmp uc sha s',
  (forall a b, hash a = hash b -> a = b) -> Forall (event_honest lib) es -> honest lib cmp ->
  history hash lib es nothing s ->
  snd (update hash lib cmp uc sha s) = Ok (tt, s') ->
  delivered lib sha s' \/ (uc = true /\ recorded s = Some sha /\ s' = s).
Proof.
  intros hash lib es s cmp uc sha s' Hi He Hc Hs Hu.
  pose proof (@history_true hash lib Hi es nothing s Hs He (@nothing_true hash lib)) as Ht.
  destruct (@update_ok hash lib Hi cmp uc sha s s' Ht Hc Hu) as [R|[D _]]; auto.
Qed.
Print Assumptions C53_any_history_partial.

(** If all updates before were made with the record and ended well (version checks may have been
    interrupted), every further one delivers its commit: upgrades and downgrades alike. *)
Theorem C53_orderly_partial : forall hash lib es s cmp sha s',
  (forall a b, hash a = hash b -> a = b) -> Forall (event_honest lib) es -> honest lib cmp ->
  Forall (fun e => match e with Updated _ uc _ => uc = true | Checked => True | _ => False end) es ->
  history hash lib es nothing s ->
  snd (update hash lib cmp true sha s) = Ok (tt, s') -> delivered lib sha s'.
Proof.
  intros hash lib es s cmp sha s' Hi He Hc Ho Hs Hu.
  destruct (@orderly_sound hash lib Hi es nothing s Hs He Ho (@nothing_true hash lib)) as [Ht Hr]; [discriminate|].
  destruct (@update_ok hash lib Hi cmp true sha s s' Ht Hc Hu) as [[_ [R ->]]|[D _]]; [apply Hr, R|exact D].
Qed.
Print Assumptions C53_orderly_partial.

(** An update ends well whenever the library has the manifest and the files it names. *)
Theorem C53_succeeds : forall hash lib cmp uc sha s,
  lib sha "model_files.txt" <> None ->
  (forall text p, lib sha "model_files.txt" = Some text -> names text p -> lib sha p <> None) ->
  exists s', snd (update hash lib cmp uc sha s) = Ok (tt, s').
Proof. intros hash lib cmp uc sha s Hm Hp. apply update_succeeds; assumption. Qed.
Print Assumptions C53_succeeds.

(** *** A small library: two commits that differ in one file. *)

Definition text_of (l : list string) : string := join (String newline_char "") l.
Definition ex_manifest : string := Eval vm_compute in text_of ["# files"; "fema.csv"; ""; " hazus.csv "].
Definition ex_lib : library := fun sha p =>
  if (String.eqb sha "aaaaaaa" || String.eqb sha "bbbbbbb")%bool then
    if String.eqb p "model_files.txt" then Some ex_manifest
    else if String.eqb p "fema.csv" then Some "f"
    else if String.eqb p "hazus.csv" then Some (if String.eqb sha "aaaaaaa" then "old" else "new")
    else None
  else None.
Definition ex_cmp : comparison := fun old new =>
  if (String.eqb old "aaaaaaa" && String.eqb new "bbbbbbb")%bool then Some ("ahead", ["hazus.csv"])
  else if (String.eqb old "bbbbbbb" && String.eqb new "aaaaaaa")%bool then Some ("behind", [])
  else None.
Definition ex_hash (b : blob) : string := "h" ++ b.
Lemma ex_hash_inj : forall a b, ex_hash a = ex_hash b -> a = b.
Proof. intros a b H. injection H as H. exact H. Qed.
Lemma ex_names : forall p, names ex_manifest p -> p = "fema.csv" \/ p = "hazus.csv".
Proof.
  intros p H. apply listed_names in H. vm_compute in H. destruct H as [<-|[<-|[]]]; [left|right]; reflexivity.
Qed.
Lemma ex_honest : honest ex_lib ex_cmp.
Proof.
  intros old new files p H D. unfold changed_files, ex_cmp in H.
  destruct (String.eqb_spec old "aaaaaaa") as [Oa|Oa]; destruct (String.eqb_spec new "bbbbbbb") as [Nb|Nb];
    destruct (String.eqb_spec old "bbbbbbb") as [Ob|Ob]; destruct (String.eqb_spec new "aaaaaaa") as [Na|Na];
    subst; try discriminate; cbn in H; try discriminate.
  - injection H as <-. destruct (String.eqb_spec p "hazus.csv") as [->|N]; [left; reflexivity|].
    exfalso. apply D. unfold ex_lib. cbn [String.eqb Ascii.eqb Bool.eqb orb].
    destruct (String.eqb p "model_files.txt"); [reflexivity|]. destruct (String.eqb p "fema.csv"); [reflexivity|].
    destruct (String.eqb_spec p "hazus.csv"); [contradiction|reflexivity].
  - injection H as <-. destruct (String.eqb_spec p "hazus.csv") as [->|N]; [left; reflexivity|].
    exfalso. apply D. unfold ex_lib. cbn [String.eqb Ascii.eqb Bool.eqb orb].
    destruct (String.eqb p "model_files.txt"); [reflexivity|]. destruct (String.eqb p "fema.csv"); [reflexivity|].
    destruct (String.eqb_spec p "hazus.csv"); [contradiction|reflexivity].
Qed.
(** The state after an update. *)
Definition after (uc : bool) (sha : string) (s : local) : local :=
  match snd (update ex_hash ex_lib ex_cmp uc sha s) with Ok (_, s') => s' | Err _ => s end.
Lemma after_ok : forall uc sha s, ex_lib sha "model_files.txt" <> None -> snd (update ex_hash ex_lib ex_cmp uc sha s) = Ok (tt, after uc sha s).
Proof.
  intros uc sha s H. unfold after. destruct (@C53_succeeds ex_hash ex_lib ex_cmp uc sha s H) as [s' ->]; [|reflexivity].
  intros text p E Hp. unfold ex_lib in E |- *. unfold ex_lib in H.
  destruct (String.eqb sha "aaaaaaa" || String.eqb sha "bbbbbbb")%bool; [|contradiction]. injection E as <-.
  destruct (ex_names Hp) as [->| ->]; cbn; [discriminate|]. destruct (String.eqb sha "aaaaaaa"); discriminate.
Qed.

(** An upgrade and a downgrade; the unchanged file is not downloaded again. *)
Example C53_hypotheses_met :
  history ex_hash ex_lib [Updated ex_cmp true "aaaaaaa"; Checked; Updated ex_cmp true "bbbbbbb"] nothing (after true "bbbbbbb" (after true "aaaaaaa" nothing)) /\
  dget "hazus.csv" (disk (after true "bbbbbbb" (after true "aaaaaaa" nothing))) = Some "new" /\
  dget "hazus.csv" (disk (after true "aaaaaaa" (after true "bbbbbbb" (after true "aaaaaaa" nothing)))) = Some "old" /\
  recorded (after true "aaaaaaa" (after true "bbbbbbb" (after true "aaaaaaa" nothing))) = Some "aaaaaaa".
Proof.
  split; [|vm_compute; auto].
  apply h_cons with (after true "aaaaaaa" nothing); [apply after_ok; discriminate|].
  apply h_cons with (after true "aaaaaaa" nothing); [left; reflexivity|].
  apply h_cons with (after true "bbbbbbb" (after true "aaaaaaa" nothing)); [apply after_ok; discriminate|]. constructor.
Qed.

Lemma not_delivered : forall s, dget "hazus.csv" (disk s) <> Some "old" -> ~ delivered ex_lib "aaaaaaa" s.
Proof.
  intros s H [text [H1 [_ H3]]]. injection H1 as <-. destruct (H3 "hazus.csv") as [b [B1 B2]].
  - apply listed_names. vm_compute. auto.
  - injection B1 as <-. contradiction.
Qed.

(** Refuted: an update without the record leaves the old record in place, so that going back to the
    recorded commit does nothing, although another commit's files are installed. *)
Theorem C53_stale_record_refuted : exists es s s',
  Forall (event_honest ex_lib) es /\
  es = [Updated ex_cmp true "aaaaaaa"; Updated ex_cmp false "bbbbbbb"] /\
  history ex_hash ex_lib es nothing s /\
  snd (update ex_hash ex_lib ex_cmp true "aaaaaaa" s) = Ok (tt, s') /\ ~ delivered ex_lib "aaaaaaa" s'.
Proof.
  exists [Updated ex_cmp true "aaaaaaa"; Updated ex_cmp false "bbbbbbb"], (after false "bbbbbbb" (after true "aaaaaaa" nothing)),
    (after true "aaaaaaa" (after false "bbbbbbb" (after true "aaaaaaa" nothing))).
  split; [repeat constructor; apply ex_honest|]. split; [reflexivity|]. split.
  - apply h_cons with (after true "aaaaaaa" nothing); [apply after_ok; discriminate|].
    apply h_cons with (after false "bbbbbbb" (after true "aaaaaaa" nothing)); [apply after_ok; discriminate|]. constructor.
  - split; [apply after_ok; discriminate|]. apply not_delivered. vm_compute. discriminate.
Qed.
Print Assumptions C53_stale_record_refuted.

(** Refuted: an update to another commit is interrupted and the user goes back to the recorded one. *)
Theorem C53_interrupted_refuted : exists s s',
  history ex_hash ex_lib [Updated ex_cmp true "aaaaaaa"; Interrupted ex_cmp true "bbbbbbb"] nothing s /\
  snd (update ex_hash ex_lib ex_cmp true "aaaaaaa" s) = Ok (tt, s') /\ ~ delivered ex_lib "aaaaaaa" s'.
Proof.
  (* interrupted while the changed file is being written *)
  set (s0 := after true "aaaaaaa" nothing).
  exists (with_file "hazus.csv" "ne" s0), (after true "aaaaaaa" (with_file "hazus.csv" "ne" s0)).
  split.
  - apply h_cons with s0; [apply after_ok; discriminate|].
    apply h_cons with (with_file "hazus.csv" "ne" s0); [|constructor].
    cbn [step]. vm_compute. repeat (first [left; reflexivity | right]).
  - split; [apply after_ok; discriminate|]. apply not_delivered. vm_compute. discriminate.
Qed.
Print Assumptions C53_interrupted_refuted.

(** Refuted: if the comparison omits a file that changed (GitHub lists at most 300 files, and for
    diverged commits only the changes since the common ancestor), its old content stays. *)
Theorem C53_incomplete_comparison_refuted : forall hash lib cmp old new files hs s s' p b0,
  cachef s = Saved (CA (Some old) hs) -> old <> new -> old <> "" -> changed_files cmp old new = Some files ->
  ~ In p files -> p <> "model_files.txt" -> dget p hs = Some (hash b0) -> hash b0 <> "" -> dget p (disk s) = Some b0 -> lib new p <> Some b0 ->
  snd (update hash lib cmp true new s) = Ok (tt, s') -> ~ right lib new s' p.
Proof.
  intros hash lib cmp old new files hs s s' p b0 Ec Hne Hn0 Ech Hin Hm Eh Eh0 Ed Hl Hu [b [B1 B2]].
  unfold update in Hu. unfold load_cache in Hu. rewrite Ec in Hu. cbn [c_commit] in Hu.
  apply String.eqb_neq in Hne. rewrite Hne in Hu. apply String.eqb_neq in Hn0. rewrite Hn0, Ech in Hu.
  destruct (andThen _ _ s) as [t o] eqn:E. cbn [snd] in Hu. subst o.
  apply andThen_ok in E as [t1 [text [s1 [t2 [H1 [H2 _]]]]]]. apply download_ok in H1 as [_ ->].
  apply andThen_ok in H2 as [t3 [hs' [s2 [t4 [H3 [H4 _]]]]]].
  unfold save_cache in H4. injection H4 as _ <-. cbn [disk] in B2.
  assert (D : dget p (disk s2) = Some b0).
  { apply (@download_keeps hash lib new (CA (Some old) hs) files p b0 (hash b0)) with (6 := H3); try reflexivity; try assumption.
    - destruct (mem p files) eqn:X; [|reflexivity]. exfalso. apply Hin. apply mem_true, X.
    - cbn [with_file disk]. rewrite dget_dset_ne; [exact Ed|]. unfold manifest. congruence. }
  rewrite D in B2. injection B2 as <-. contradiction.
Qed.
Print Assumptions C53_incomplete_comparison_refuted.
(** Two commits on diverged branches: the comparison lists only what the new one changed. *)
Definition diverged_cmp : comparison := fun _ _ => Some ("diverged", []).
Example C53_incomplete_comparison_hypotheses_met : exists s',
  snd (update ex_hash ex_lib diverged_cmp true "bbbbbbb" (after true "aaaaaaa" nothing)) = Ok (tt, s') /\
  dget "hazus.csv" (disk s') = Some "old" /\ recorded s' = Some "bbbbbbb".
Proof. eexists. vm_compute. auto. Qed.

(** A release whose tag can be looked up is the commit the tag points to, never what the release
    names as its target. *)
Theorem C53_release : forall tag tag_object target c, points_to tag_object tag c -> c <> "" ->
  resolve_release (Some tag) tag_object target = Ok c.
Proof.
  intros tag tag_object target c H Hc. apply String.eqb_neq in Hc. unfold resolve_release.
  destruct H as [c|t c Ho]; cbn; [|rewrite Ho]; rewrite Hc; reflexivity.
Qed.
Print Assumptions C53_release.
Example C53_release_hypotheses_met : points_to (fun t => if String.eqb t "1234567" then Some "bbbbbbb" else None) ("tag", "1234567") "bbbbbbb".
Proof. constructor. reflexivity. Qed.

(** Refuted: if the tag of the release cannot be looked up, a branch name stands for the commit; a
    later update of the same release finds the name on record and does nothing, whatever the branch
    has become. *)
Theorem C53_branch_refuted : forall hash lib1 lib2 cmp tag_object branch s s1,
  branch <> "" ->
  resolve_release None tag_object (Some branch) = Ok branch /\
  (snd (update hash lib1 cmp true branch s) = Ok (tt, s1) -> snd (update hash lib2 cmp true branch s1) = Ok (tt, s1)).
Proof.
  intros hash lib1 lib2 cmp tag_object branch s s1 Hb. split.
  { unfold resolve_release. apply String.eqb_neq in Hb. rewrite Hb. reflexivity. }
  intros H.
  assert (R : recorded s1 = Some branch).
  { unfold update in H. destruct (match c_commit (load_cache s) with Some o => String.eqb o branch | None => false end) eqn:E.
    - injection H as <-. unfold recorded, load_cache in *. destruct (cachef s) as [| |c]; [discriminate|discriminate|].
      destruct (c_commit c) as [o|]; [|discriminate]. apply String.eqb_eq in E as ->. reflexivity.
    - destruct (andThen _ _ s) as [t o] eqn:E1. cbn [snd] in H. subst o.
      apply andThen_ok in E1 as [t1 [text [s2 [t2 [_ [H2 _]]]]]]. apply andThen_ok in H2 as [t3 [hs [s3 [t4 [_ [H4 _]]]]]].
      unfold save_cache in H4. injection H4 as _ <-. reflexivity. }
  unfold update. unfold recorded in R. unfold load_cache. destruct (cachef s1) as [| |c]; [discriminate|discriminate|].
  rewrite R. rewrite String.eqb_refl. reflexivity.
Qed.
Print Assumptions C53_branch_refuted.

(** ** C54 *)

(** Any number of attempts at one update, each interrupted at any point, after any history; the
    attempt that ends well delivers the commit. What is asked of the start is that it is not
    recorded as the commit it is not. *)
Theorem C54_repeated_partial : forall hash lib es s uc sha s1 cmp s2,
  (forall a b, hash a = hash b -> a = b) -> Forall (event_honest lib) es -> honest lib cmp ->
  history hash lib es nothing s ->
  (uc = true -> recorded s = Some sha -> delivered lib sha s) ->
  attempts hash lib uc sha s s1 ->
  snd (update hash lib cmp uc sha s1) = Ok (tt, s2) -> delivered lib sha s2.
Proof.
  intros hash lib es s uc sha s1 cmp s2 Hi He Hc Hs Hr Ha Hu.
  pose proof (@history_true hash lib Hi es nothing s Hs He (@nothing_true hash lib)) as Ht.
  destruct (@attempts_inv hash lib Hi uc sha s s1 Ha Ht Hr) as [Ht1 Hr1].
  destruct (@update_ok hash lib Hi cmp uc sha s1 s2 Ht1 Hc Hu) as [[E [R ->]]|[D _]]; [apply (Hr1 E R)|exact D].
Qed.
Print Assumptions C54_repeated_partial.
(** The record is being written when the update to bbbbbbb is interrupted. *)
Definition ex_torn : local := LO (disk (after true "bbbbbbb" (after true "aaaaaaa" nothing))) Broken.
Example C54_hypotheses_met :
  recorded (after true "aaaaaaa" nothing) = Some "aaaaaaa" /\
  attempts ex_hash ex_lib true "bbbbbbb" (after true "aaaaaaa" nothing) ex_torn /\
  snd (update ex_hash ex_lib ex_cmp true "bbbbbbb" ex_torn) = Ok (tt, after true "bbbbbbb" ex_torn).
Proof.
  split; [reflexivity|]. split; [|apply after_ok; discriminate].
  apply a_more with ex_cmp ex_torn; [apply ex_honest| |constructor].
  vm_compute. repeat (first [left; reflexivity | right]).
Qed.

(** Refuted in general: an update without the record is interrupted and repeated with it. *)
Theorem C54_refuted : exists s s1 s2,
  history ex_hash ex_lib [Updated ex_cmp true "aaaaaaa"; Updated ex_cmp false "bbbbbbb"] nothing s /\
  In s1 (visited (update ex_hash ex_lib ex_cmp false "aaaaaaa") s) /\
  snd (update ex_hash ex_lib ex_cmp true "aaaaaaa" s1) = Ok (tt, s2) /\ ~ delivered ex_lib "aaaaaaa" s2.
Proof.
  set (s := after false "bbbbbbb" (after true "aaaaaaa" nothing)).
  exists s, s, (after true "aaaaaaa" s). split.
  - apply h_cons with (after true "aaaaaaa" nothing); [apply after_ok; discriminate|].
    apply h_cons with s; [apply after_ok; discriminate|]. constructor.
  - split; [left; reflexivity|]. split; [apply after_ok; discriminate|]. apply not_delivered. vm_compute. discriminate.
Qed.
Print Assumptions C54_refuted.

(** ** C55 *)

(** Refuted: from the first write of the first download on, wherever it is interrupted, the data
    are taken for installed, and no later import downloads or changes a file. *)
Theorem C55_refuted : forall hash lib cmp sha x,
  In x (fst (update hash lib cmp true sha nothing)) ->
  data_exists x = true /\
  forall lib' cmp' sha' y, In y (visited (import_package hash lib' cmp' sha') x) -> disk y = disk x.
Proof.
  intros hash lib cmp sha x H. pose proof (@update_has_manifest _ _ _ _ _ _ _ H) as M. split; [exact M|].
  intros lib' cmp' sha' y Hy. unfold import_package in Hy. unfold visited in Hy. rewrite M in Hy.
  destruct Hy as [<-|[<-|[<-|[]]]]; reflexivity.
Qed.
Print Assumptions C55_refuted.
(** The download stops while the manifest is written; nothing else is there. *)
Example C55_refuted_concrete : exists x,
  In x (fst (update ex_hash ex_lib ex_cmp true "aaaaaaa" nothing)) /\
  dget "hazus.csv" (disk x) = None /\ dget "model_files.txt" (disk x) = Some "# fi" /\ data_exists x = true.
Proof.
  exists (with_file "model_files.txt" "# fi" nothing). split; [|vm_compute; auto].
  vm_compute. repeat (first [left; reflexivity | right]).
Qed.
(** What does hold: if nothing has been written, the next import downloads, and if it ends well
    the data of the latest release are there. *)
Theorem C55_not_started_partial : forall hash lib cmp sha s',
  (forall a b, hash a = hash b -> a = b) -> honest lib cmp ->
  data_exists nothing = false /\
  (snd (import_package hash lib cmp sha nothing) = Ok (tt, s') -> delivered lib sha s' /\ data_exists s' = true).
Proof.
  intros hash lib cmp sha s' Hi Hc. split; [reflexivity|]. intros H.
  change (snd (update hash lib cmp true sha nothing) = Ok (tt, s')) in H.
  destruct (@update_ok hash lib Hi cmp true sha nothing s' (@nothing_true hash lib) Hc H) as [[_ [R _]]|[D _]]; [discriminate|].
  split; [exact D|]. destruct D as [text [_ [D _]]]. unfold data_exists, dmem, manifest. rewrite D. reflexivity.
Qed.
Print Assumptions C55_not_started_partial.
