(** Proofs about command lines (C121). *)
From Coq Require Import Sorting.Permutation.
From Verif Require Import Prelude PreludeFacts M_Base M_Config M_Cli S_Cli.
Local Open Scope string_scope.
Local Open Scope list_scope.

(** ** Names *)

Definition names : list string := flat_map o_names options.
Definition proper_names : list string := flat_map (fun e => fst (fst (fst e))) documented ++ other_switches ++ other_texts.
Definition dest_of (n : string) : string := match find_option n with Some o => o_dest o | None => "" end.
Definition kind_of (n : string) : option kind := option_map o_kind (find_option n).
Definition dest_for (k : string) : string := match dget k passed with Some d => d | None => "" end.

Lemma text_name n : is_text n -> In n proper_names /\ kind_of n = Some Text.
Proof.
  intros H. assert (X : In n (flat_map (fun e : list string * string * bool * value => if snd (fst e) then [] else fst (fst (fst e))) documented ++ other_texts)).
  { apply in_or_app. destruct H as [H|(ns & k & d & H & Hn)]; [now right|left]. apply in_flat_map. now exists (ns, k, false, d). }
  clear H. cbn in X. repeat (destruct X as [<- | X]; [split; [cbn; tauto|vm_compute; reflexivity]|]). destruct X.
Qed.
Lemma switch_name n : is_switch n -> In n proper_names /\ exists c, kind_of n = Some (Switch c).
Proof.
  intros H. assert (X : In n (flat_map (fun e : list string * string * bool * value => if snd (fst e) then fst (fst (fst e)) else []) documented ++ other_switches)).
  { apply in_or_app. destruct H as [H|(ns & k & d & H & Hn)]; [now right|left]. apply in_flat_map. now exists (ns, k, true, d). }
  clear H. cbn in X. repeat (destruct X as [<- | X]; [split; [cbn; tauto|eexists; vm_compute; reflexivity]|]). destruct X.
Qed.
Lemma proper_name n : In n proper_names -> is_option n = true /\ cut n = (n, None) /\ (forall v, is_option (n ++ "=" ++ v) = true /\ cut (n ++ "=" ++ v) = (n, Some v)).
Proof. intros X. cbn in X. repeat (destruct X as [<- | X]; [repeat split|]). destruct X. Qed.
Lemma documented_dest ns k sw d n : In (ns, k, sw, d) documented -> In n proper_names -> (In n ns <-> dest_of n = dest_for k).
Proof.
  assert (C : forallb (fun e => forallb (fun n => Bool.eqb (mem n (fst (fst (fst e)))) (String.eqb (dest_of n) (dest_for (snd (fst (fst e)))))) proper_names) documented = true) by (vm_compute; reflexivity).
  intros H Hn. rewrite forallb_forall in C. specialize (C _ H). cbn [fst snd] in C. rewrite forallb_forall in C. specialize (C _ Hn).
  apply Bool.eqb_prop in C. rewrite <- (String.eqb_eq (dest_of n)), <- C. symmetry. apply mem_true.
Qed.
Lemma documented_keyword ns k sw d ds : In (ns, k, sw, d) documented ->
  dget k (keywords ds) = Some (match dget (dest_for k) ds with Some v => v | None => VNone end).
Proof. intros H. cbn in H. repeat (destruct H as [H|H]; [apply (f_equal (fun e => snd (fst (fst e)))) in H; cbn in H; subst k; reflexivity|]). destruct H. Qed.
Lemma documented_default ns k sw d : In (ns, k, sw, d) documented -> dget (dest_for k) defaults = Some d.
Proof. intros H. cbn in H. repeat (destruct H as [H|H]; [injection H as <- <- <- <-; vm_compute; reflexivity|]). destruct H. Qed.
Lemma documented_kind ns k sw d n : In (ns, k, sw, d) documented -> In n ns -> In n proper_names /\ (sw = false -> kind_of n = Some Text) /\ (sw = true -> exists c, kind_of n = Some (Switch c)).
Proof.
  intros H Hn. destruct sw.
  - destruct (@switch_name n) as [A B]; [right; now exists ns, k, d|]. split; [exact A|]. now split.
  - destruct (@text_name n) as [A B]; [right; now exists ns, k, d|]. split; [exact A|]. now split.
Qed.

(** ** Values *)

Lemma yes_bool t : means_yes t -> str2bool t = Ok true.
Proof.
  unfold means_yes, str2bool. intros H. replace (mem (lower t) ["yes"; "true"; "True"; "t"; "y"; "1"]) with true; [reflexivity|].
  symmetry. apply mem_true. cbn in *. tauto.
Qed.
Lemma no_bool t : means_no t -> str2bool t = Ok false.
Proof.
  unfold means_no, str2bool. intros H. cbn in H. repeat (destruct H as [<- | H]; [reflexivity|]). destruct H.
Qed.
Definition value_of (s : setting) : value :=
  match kind_of (fst s) with
  | Some (Switch _) => match str2bool (snd s) with Ok b => VBool b | Err _ => VNone end
  | _ => VText (snd s)
  end.
Definition apply_settings (settings : list setting) (ds : dict value) : dict value :=
  fold_left (fun ds s => dset (dest_of (fst s)) (value_of s) ds) settings ds.

Lemma kind_find n k : kind_of n = Some k -> exists o, find_option n = Some o /\ o_kind o = k.
Proof. unfold kind_of. destruct (find_option n) as [o|]; [|discriminate]. cbn. intros H. injection H as <-. now exists o. Qed.
Lemma proper_spec s : proper s -> In (fst s) proper_names /\ exists o, find_option (fst s) = Some o /\ dest_of (fst s) = o_dest o /\ convert o (snd s) = Ok (value_of s) /\
  (o_kind o = Text /\ value_of s = VText (snd s) \/ exists c, o_kind o = Switch c).
Proof.
  intros [H|[H V]].
  - destruct (text_name _ H) as [Hn Hk]. split; [exact Hn|]. destruct (kind_find _ _ Hk) as (o & Ho & Hok). exists o. split; [exact Ho|].
    split; [unfold dest_of; now rewrite Ho|]. unfold convert, value_of. rewrite Hok, Hk. split; [reflexivity|]. now left.
  - destruct (switch_name _ H) as [Hn [c Hk]]. split; [exact Hn|]. destruct (kind_find _ _ Hk) as (o & Ho & Hok). exists o. split; [exact Ho|].
    split; [unfold dest_of; now rewrite Ho|]. unfold convert, value_of. rewrite Hok, Hk. split; [|right; now exists c].
    destruct V as [V|V]; [rewrite (yes_bool _ V)|rewrite (no_bool _ V)]; reflexivity.
Qed.
Lemma plain_value s : plain s -> is_option (snd s) = false.
Proof. unfold plain, is_option. now intros ->. Qed.

(** ** Parsing *)

Lemma parse_tokens settings : forall rest ds, Forall proper settings -> Forall plain settings ->
  parse_args (as_tokens settings ++ rest) ds = parse_args rest (apply_settings settings ds).
Proof.
  induction settings as [|[n v] settings IH]; intros rest ds P Q; [reflexivity|]. inversion_clear P as [|? ? P1 P2]. inversion_clear Q as [|? ? Q1 Q2].
  destruct (proper_spec _ P1) as (Hn & o & Ho & Hd & Hc & Hk). destruct (proper_name _ Hn) as (O1 & O2 & _). apply plain_value in Q1. cbn [fst snd] in *.
  change (as_tokens ((n, v) :: settings) ++ rest) with (n :: v :: (as_tokens settings ++ rest)). cbn [parse_args]. rewrite O1, O2, Ho. cbn [apply_settings fold_left fst].
  rewrite Hd. destruct Hk as [[Hk Hv]|[c Hk]]; rewrite Hk, Q1.
  - rewrite <- Hv. now apply IH.
  - rewrite Hc. cbn [bind]. now apply IH.
Qed.
Lemma parse_attached settings : forall rest ds, Forall proper settings ->
  parse_args (as_attached settings ++ rest) ds = parse_args rest (apply_settings settings ds).
Proof.
  induction settings as [|[n v] settings IH]; intros rest ds P; [reflexivity|]. inversion_clear P as [|? ? P1 P2].
  destruct (proper_spec _ P1) as (Hn & o & Ho & Hd & Hc & Hk). destruct (proper_name _ Hn) as (_ & _ & O). destruct (O v) as [O1 O2]. cbn [fst snd] in *.
  cbn [as_attached map app fst snd parse_args]. rewrite O1, O2, Ho. cbn [apply_settings fold_left fst]. rewrite Hd.
  destruct Hk as [[Hk Hv]|[c Hk]]; rewrite Hk, Hc; cbn [bind]; now apply IH.
Qed.
Lemma main_tokens settings rest : settings <> [] -> Forall proper settings -> Forall plain settings ->
  main (as_tokens settings ++ rest) = let* ds := parse_args rest (apply_settings settings defaults) in Ok (Some (keywords ds)).
Proof. intros N P Q. destruct settings as [|s settings]; [easy|]. rewrite <- (parse_tokens (s :: settings) rest defaults P Q). reflexivity. Qed.
Lemma main_attached settings rest : settings <> [] -> Forall proper settings ->
  main (as_attached settings ++ rest) = let* ds := parse_args rest (apply_settings settings defaults) in Ok (Some (keywords ds)).
Proof. intros N P. destruct settings as [|s settings]; [easy|]. rewrite <- (parse_attached (s :: settings) rest defaults P). reflexivity. Qed.

(** ** The outcome *)

Definition found (d : string) (l : list setting) : option setting := find (fun s : setting => String.eqb (dest_of (fst s)) d) (rev l).
Lemma find_snoc (f : setting -> bool) l x : find f (l ++ [x]) = match find f l with Some y => Some y | None => if f x then Some x else None end.
Proof. induction l as [|y l IHl]; cbn; [now destruct (f x)|]. destruct (f y); [reflexivity|apply IHl]. Qed.
Lemma dget_apply settings : forall ds d, dget d (apply_settings settings ds) =
  match found d settings with Some s => Some (value_of s) | None => dget d ds end.
Proof.
  induction settings as [|s settings IH]; intros ds d; [reflexivity|]. etransitivity; [exact (IH _ d)|].
  assert (E : found d (s :: settings) = match found d settings with Some y => Some y | None => if String.eqb (dest_of (fst s)) d then Some s else None end)
    by (unfold found; cbn [rev]; apply find_snoc).
  rewrite E. destruct (found d settings); [reflexivity|].
  destruct (String.eqb (dest_of (fst s)) d) eqn:Ed.
  - apply String.eqb_eq in Ed. rewrite Ed. apply dget_dset_eq.
  - apply String.eqb_neq in Ed. apply dget_dset_ne. congruence.
Qed.
Lemma find_rev_last (f : setting -> bool) l s : find f (rev l) = Some s -> exists a b, l = a ++ s :: b /\ f s = true /\ forall x, In x b -> f x = false.
Proof.
  induction l as [|x l IH] using rev_ind; [discriminate|]. rewrite rev_app_distr. cbn. destruct (f x) eqn:E.
  - intros H. injection H as <-. exists l, []. split; [reflexivity|]. split; [exact E|easy].
  - intros H. destruct (IH H) as (a & b & -> & Hs & Hb). exists a, (b ++ [x]). split; [now rewrite <- app_assoc|]. split; [exact Hs|].
    intros y Hy. apply in_app_or in Hy as [Hy|[<-|[]]]; [now apply Hb|exact E].
Qed.
Lemma find_rev_none (f : setting -> bool) l : find f (rev l) = None -> forall x, In x l -> f x = false.
Proof. intros H x Hx. apply (find_none _ _ H x). now apply in_rev in Hx. Qed.

Lemma apply_as_set settings : Forall proper settings -> as_set settings (keywords (apply_settings settings defaults)).
Proof.
  intros P ns k sw d Hd. rewrite Forall_forall in P. rewrite (documented_keyword _ _ _ _ _ Hd), dget_apply.
  assert (D : forall s, In s settings -> (In (fst s) ns <-> String.eqb (dest_of (fst s)) (dest_for k) = true)).
  { intros s Hs. rewrite String.eqb_eq. eapply documented_dest; [exact Hd|]. now apply (proper_spec s), P. }
  destruct (found (dest_for k) settings) as [s|] eqn:F; unfold found in F.
  - apply find_rev_last in F as (a & b & -> & Hs & Hb). exists (Some (snd s)). split.
    + constructor; [apply D; [apply in_or_app; right; now left|exact Hs]|]. intros x Hx Hn. apply D in Hn; [|apply in_or_app; right; now right].
      rewrite (Hb x Hx) in Hn. discriminate Hn.
    + assert (Hn : In (fst s) ns) by (apply D; [apply in_or_app; right; now left|exact Hs]).
      destruct (documented_kind _ _ _ _ _ Hd Hn) as (_ & K0 & K1). unfold value_of. destruct sw.
      * destruct (K1 eq_refl) as [c ->]. split; intros V; [rewrite (yes_bool _ V)|rewrite (no_bool _ V)]; reflexivity.
      * now rewrite (K0 eq_refl).
  - pose proof (find_rev_none _ _ F) as No. exists None. split.
    + constructor. intros s Hs Hn. apply (D s Hs) in Hn. rewrite (No s Hs) in Hn. discriminate Hn.
    + now rewrite (documented_default _ _ _ _ Hd).
Qed.

Lemma apply_perm settings settings' d : Permutation settings settings' ->
  (forall s s' a b c, settings = a ++ s :: b ++ s' :: c -> dest_of (fst s) <> dest_of (fst s')) ->
  dget d (apply_settings settings defaults) = dget d (apply_settings settings' defaults).
Proof.
  intros Hp Hd. rewrite !dget_apply.
  assert (U : forall s s', In s settings -> In s' settings -> dest_of (fst s) = dest_of (fst s') -> s = s').
  { clear d Hp. induction settings as [|x l IH]; [easy|]. intros s s' [<-|Hs] [<-|Hs'] E.
    - reflexivity.
    - exfalso. apply in_split in Hs' as (b & c & ->). apply (Hd x s' [] b c); [reflexivity|exact E].
    - exfalso. apply in_split in Hs as (b & c & ->). apply (Hd x s [] b c); [reflexivity|now symmetry].
    - apply IH; try assumption. intros t t' a b c ->. apply (Hd t t' (x :: a) b c). reflexivity. }
  destruct (found d settings) as [s|] eqn:F; destruct (found d settings') as [s'|] eqn:F'; unfold found in F, F'; [| | |reflexivity].
  - apply find_some in F as [I E], F' as [I' E']. apply in_rev in I, I'. apply (Permutation_in _ (Permutation_sym Hp)) in I'.
    apply String.eqb_eq in E, E'. now rewrite (U s s' I I' (eq_trans E (eq_sym E'))).
  - exfalso. apply find_some in F as [I E]. apply in_rev in I. apply (Permutation_in _ Hp) in I. rewrite (find_rev_none _ _ F' s I) in E. discriminate E.
  - exfalso. apply find_some in F' as [I E]. apply in_rev in I. apply (Permutation_in _ (Permutation_sym Hp)) in I. rewrite (find_rev_none _ _ F s' I) in E. discriminate E.
Qed.
Lemma keywords_ext ds ds' : (forall d, In d (map snd passed) -> dget d ds = dget d ds') -> keywords ds = keywords ds'.
Proof. intros H. unfold keywords. apply map_ext_in. intros p Hp. rewrite H; [reflexivity|]. now apply in_map. Qed.
