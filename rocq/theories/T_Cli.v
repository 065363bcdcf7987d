(** Properties C121 and C122: the command lines. *)
From Coq Require Import Sorting.Permutation.
From Verif Require Import Prelude PreludeFacts M_Base M_Config S_Config M_Outputs M_Cli S_Cli P_Cli T_Config.
Local Open Scope string_scope.
Local Open Scope list_scope.

(** * C121 The options of DL_calculation reach the run *)

(** Every option counts with its last value, the others have the documented defaults. *)
Theorem C121_reach : forall settings, settings <> [] -> Forall proper settings -> Forall plain settings ->
  exists kw, main (as_tokens settings) = Ok (Some kw) /\ as_set settings kw.
Proof.
  intros l N P Q. pose proof (main_tokens l [] N P Q) as H. rewrite app_nil_r in H. cbn [parse_args bind] in H.
  eexists. split; [exact H|]. now apply apply_as_set.
Qed.
Print Assumptions C121_reach.

(** The same for values attached with an equals sign; these may also begin with a minus sign. *)
Theorem C121_attached : forall settings, settings <> [] -> Forall proper settings ->
  exists kw, main (as_attached settings) = Ok (Some kw) /\ as_set settings kw.
Proof.
  intros l N P. pose proof (main_attached l [] N P) as H. rewrite app_nil_r in H. cbn [parse_args bind] in H.
  eexists. split; [exact H|]. now apply apply_as_set.
Qed.
Print Assumptions C121_attached.

(** The order of settings of different options does not matter. *)
Theorem C121_order : forall settings settings', Forall proper settings -> Forall plain settings -> Permutation settings settings' ->
  ForallOrdPairs (fun s s' => ~ same_option (fst s) (fst s')) settings -> main (as_tokens settings) = main (as_tokens settings').
Proof.
  intros l l' P Q Hp D. destruct l as [|s0 l0] eqn:El. { apply Permutation_nil in Hp. now subst. } rewrite <- El in *.
  assert (N : l <> []) by (subst; discriminate). clear s0 l0 El.
  assert (N' : l' <> []) by (intros ->; apply Permutation_sym, Permutation_nil in Hp; easy).
  assert (P' : Forall proper l') by (rewrite Forall_forall in *; intros x Hx; apply P; now apply (Permutation_in _ (Permutation_sym Hp))).
  assert (Q' : Forall plain l') by (rewrite Forall_forall in *; intros x Hx; apply Q; now apply (Permutation_in _ (Permutation_sym Hp))).
  pose proof (main_tokens l [] N P Q) as H. pose proof (main_tokens l' [] N' P' Q') as H'. rewrite app_nil_r in H, H'.
  rewrite H, H'. cbn [parse_args bind]. do 2 f_equal. apply keywords_ext. intros d _. apply apply_perm; [exact Hp|].
  intros s s' a b c -> E.
  assert (F : ~ same_option (fst s) (fst s')).
  { clear -D. induction a as [|x a IH]; cbn in D; inversion_clear D as [|? ? D1 D2].
    - rewrite Forall_forall in D1. apply D1. apply in_or_app. right. now left.
    - now apply IH. }
  apply F. clear F. rewrite Forall_forall in P.
  destruct (proper_spec s) as (Hn & _); [apply P, in_or_app; right; now left|].
  destruct (proper_spec s') as (Hn' & _); [apply P, in_or_app; right; right; apply in_or_app; right; now left|].
  revert Hn Hn' E. clear. generalize (fst s), (fst s'). intros n n' Hn Hn' E.
  assert (C : forallb (fun n => forallb (fun n' => implb (String.eqb (dest_of n) (dest_of n'))
    (String.eqb n n' || existsb (fun e : list string * string * bool * value => mem n (fst (fst (fst e))) && mem n' (fst (fst (fst e)))) documented)) proper_names) proper_names = true)
    by (vm_compute; reflexivity).
  rewrite forallb_forall in C. specialize (C _ Hn). rewrite forallb_forall in C. specialize (C _ Hn'). rewrite E, String.eqb_refl in C. cbn [implb] in C.
  apply orb_true_iff in C as [C|C]; [left; now apply String.eqb_eq|right]. apply existsb_exists in C as ([[[ns k] sw] d] & Hd & C). cbn [fst] in C.
  apply andb_true_iff in C as [C C']. apply mem_true in C, C'. now exists ns, k, sw, d.
Qed.
Print Assumptions C121_order.

Fixpoint prefixes (s : string) : list string := match s with EmptyString => [""] | String a tl => "" :: map (String a) (prefixes tl) end.
Lemma prefix_In b : forall n, starts_with b n = true -> In b (prefixes n).
Proof.
  induction b as [|a b IH]; intros n H; [destruct n; now left|]. destruct n as [|c n]; [discriminate H|]. cbn in H.
  destruct (ascii_dec a c) as [->|]; [|discriminate H]. right. apply in_map. now apply IH.
Qed.
(** A beginning that only one name has stands for that name. *)
Theorem C121_beginning : forall before b n v after, only_beginning b n -> starts_with b n = true -> plain (n, v) ->
  Forall proper before -> Forall plain before ->
  main (as_tokens before ++ [b; v] ++ after) = main (as_tokens before ++ [n; v] ++ after).
Proof.
  intros before b n v after (Hb & Hn & Ho) Hs Hv P Q.
  assert (C : forallb (fun n => forallb (fun b => implb (starts_with "--" b && forallb (fun m => implb (starts_with b m) (String.eqb m n)) known_names)
     (is_option b && is_option n && String.eqb (fst (cut b)) b && String.eqb (fst (cut n)) n && match snd (cut b), snd (cut n) with None, None => true | _, _ => false end &&
      match find_option b, find_option n with Some o, Some o' => String.eqb (o_dest o) (o_dest o') | _, _ => false end)) (prefixes n)) known_names = true) by (vm_compute; reflexivity).
  rewrite forallb_forall in C. specialize (C _ Hn). rewrite forallb_forall in C. specialize (C _ (prefix_In _ _ Hs)).
  replace (starts_with "--" b && _) with true in C.
  2:{ symmetry. apply andb_true_iff. split; [exact Hb|]. apply forallb_forall. intros m Hm. destruct (starts_with b m) eqn:E; [|reflexivity]. cbn. apply String.eqb_eq. now apply Ho. }
  cbn [implb] in C. repeat (apply andb_true_iff in C as [C ?]).
  repeat match goal with H : String.eqb _ _ = true |- _ => apply String.eqb_eq in H end.
  assert (F : find_option b = find_option n).
  { destruct (find_option b) as [o|] eqn:E; [|discriminate]. destruct (find_option n) as [o'|] eqn:E'; [|discriminate].
    assert (I : forall x y, find_option x = Some y -> In y options).
    { clear. intros x y. unfold find_option. destruct (find _ options) as [z|] eqn:Ef; [intros Hz; injection Hz as <-; apply find_some in Ef; exact (proj1 Ef)|].
      destruct (starts_with "--" x); [|discriminate]. destruct (filter _ options) as [|z [|]] eqn:Efl; try discriminate. intros Hz. injection Hz as <-.
      assert (Hz : In z [z]) by now left. rewrite <- Efl in Hz. apply filter_In in Hz. exact (proj1 Hz). }
    f_equal. apply I in E, E'. match goal with H : String.eqb (o_dest o) (o_dest o') = true |- _ => apply String.eqb_eq in H; revert H | H : o_dest o = o_dest o' |- _ => revert H end.
    clear -E E'. intros D. revert E' D. cbn in E. cbn [In options].
    repeat match goal with H : _ \/ _ |- _ => destruct H as [<- | H] end; try contradiction; cbn [o_dest]; intros E' D;
      repeat match goal with H : _ \/ _ |- _ => destruct H as [<- | H] end; try contradiction; cbn [o_dest] in D; first [reflexivity | discriminate D]. }
  destruct (cut b) as [b1 b2] eqn:Cb, (cut n) as [n1 n2] eqn:Cn. cbn [fst snd] in *. subst b1 n1. destruct b2; [discriminate|]. destruct n2; [discriminate|].
  assert (K : forall ds, parse_args ([b; v] ++ after) ds = parse_args ([n; v] ++ after) ds).
  { intros ds. cbn [app parse_args]. rewrite Cb, Cn, F. replace (is_option b) with (is_option n) by (rewrite H3; unfold is_option; now rewrite C, H4). rewrite H3.
    destruct (find_option n) as [o|]; [|reflexivity]. destruct (o_kind o); reflexivity || (apply plain_value in Hv; cbn in Hv; now rewrite Hv). }
  destruct before as [|s0 before]; [cbn [as_tokens flat_map app]; unfold main; specialize (K defaults); cbn [app] in K |- *; rewrite K; reflexivity|].
  rewrite !main_tokens by easy. now rewrite K.
Qed.
Print Assumptions C121_beginning.

Lemma help_ends h : In h ["-h"; "--help"] -> is_option h = true /\ forall rest ns, parse_args (h :: rest) ns = Err SystemExit.
Proof. intros [<-|[<-|[]]]; split; reflexivity. Qed.
Lemma parse_help h : In h ["-h"; "--help"] -> forall k args ns r, (List.length args <= k)%nat -> In h args -> parse_args args ns <> Ok r.
Proof.
  intros Hh. destruct (help_ends h Hh) as [Ho He].
  induction k as [|k IH]; intros args ns r Hk Hi; [destruct args; [destruct Hi|cbn in Hk; lia]|].
  destruct args as [|t rest]; [destruct Hi|]. cbn [List.length] in Hk.
  destruct Hi as [->|Hi]; [rewrite He; discriminate|]. cbn [parse_args].
  destruct (is_option t); [|discriminate]. destruct (cut t) as [n attached]. destruct (find_option n) as [o|]; [|discriminate].
  assert (R : forall ns', parse_args rest ns' <> Ok r) by (intros ns'; apply IH; [lia|exact Hi]).
  assert (R' : forall v rest' ns', rest = v :: rest' -> is_option v = false -> parse_args rest' ns' <> Ok r).
  { intros v rest' ns' -> Hv. apply IH; [cbn in Hk; lia|]. destruct Hi as [->|Hi]; [congruence|exact Hi]. }
  destruct (o_kind o) as [|c|]; [| |discriminate].
  - destruct attached as [v|]; [destruct (convert o v); [apply R|discriminate]|].
    destruct rest as [|v rest']; [discriminate|]. destruct (is_option v) eqn:E; [discriminate|]. now apply (R' v rest').
  - destruct attached as [v|]; [destruct (convert o v); [apply R|discriminate]|].
    destruct rest as [|v rest']; [destruct Hi|]. destruct (is_option v) eqn:E; [apply R|].
    destruct (convert o v); [|discriminate]. now apply (R' v rest').
Qed.

(** Without options nothing is run, nor with a request for help wherever it is; with an unknown
    option neither. *)
Theorem C121_help : main [] = Ok None /\
  forall args h, In h ["-h"; "--help"] -> In h args -> forall kw, main args <> Ok (Some kw).
Proof.
  split; [reflexivity|]. intros args h Hh Hi kw. unfold main. destruct args as [|t args]; [discriminate|].
  pose proof (fun r => parse_help h Hh _ (t :: args) defaults r (le_n _) Hi) as K.
  destruct (parse_args (t :: args) defaults) as [ns|]; [now destruct (K ns)|discriminate].
Qed.
Print Assumptions C121_help.
Theorem C121_unknown : forall before t after, starts_with "--" t = true -> has_char "=" t = false -> (forall m, In m known_names -> starts_with t m = false) ->
  Forall proper before -> Forall plain before -> exists e, main (as_tokens before ++ t :: after) = Err e.
Proof.
  intros before t after Ht He Hk P Q. exists SystemExit.
  assert (Hc : cut t = (t, None)).
  { clear -He. induction t as [|a t IH]; [reflexivity|]. cbn in *. apply orb_false_iff in He as [E1 E2]. now rewrite E1, (IH E2). }
  assert (Hf : find_option t = None).
  { unfold find_option. destruct (find _ options) as [o|] eqn:E.
    - exfalso. apply find_some in E as [Ho Hm]. apply mem_true in Hm.
      assert (X : In t known_names). { clear -Ho Hm. cbn in Ho. repeat (destruct Ho as [<- | Ho]; [cbn in Hm; cbn; intuition|]). destruct Ho. }
      apply Hk in X. assert (R : forall s, starts_with s s = true) by (induction s as [|a s IH]; [reflexivity|]; cbn; destruct (ascii_dec a a); [exact IH|easy]).
      rewrite R in X. discriminate X.
    - rewrite Ht. destruct (filter _ options) as [|o os] eqn:Ef; [reflexivity|]. exfalso.
      assert (Ho : In o (o :: os)) by now left. rewrite <- Ef in Ho. apply filter_In in Ho as [Ho Hm]. apply existsb_exists in Hm as (m & Hm & Hs).
      assert (X : In m known_names). { clear -Ho Hm. cbn in Ho. repeat (destruct Ho as [<- | Ho]; [cbn in Hm; cbn; intuition|]). destruct Ho. }
      rewrite (Hk m X) in Hs. discriminate Hs. }
  assert (Hi : is_option t = true).
  { unfold is_option. destruct t as [|a [|b t]]; [discriminate Ht| |].
    - exfalso. unfold starts_with, prefix in Ht. destruct (ascii_dec _ a); discriminate Ht.
    - unfold starts_with, prefix in Ht. destruct (ascii_dec _ a) as [<-|]; [|discriminate Ht]. reflexivity. }
  assert (K : forall ds, parse_args (t :: after) ds = Err SystemExit) by (intros ds; cbn [parse_args]; now rewrite Hi, Hc, Hf).
  destruct before as [|s0 before]; [cbn [as_tokens flat_map app]; unfold main; now rewrite K|].
  rewrite main_tokens by easy. now rewrite K.
Qed.
Print Assumptions C121_unknown.

(** ** What the run makes of the options *)

Lemma starts_split p s : String.prefix p s = true -> exists b, s = (p ++ b)%string.
Proof.
  revert s. induction p as [|x p IH]; intros s H; [now exists s|]. destruct s as [|y s]; [discriminate H|]. cbn in H.
  destruct (ascii_dec x y) as [->|]; [|discriminate H]. destruct (IH _ H) as (b & ->). now exists b.
Qed.
Lemma prefix_self p b : String.prefix p (p ++ b) = true.
Proof. induction p as [|x p IH]; [now destruct b|]. cbn. now destruct (ascii_dec x x). Qed.
Lemma contains_split p s : contains p s = true <-> exists a b, s = (a ++ p ++ b)%string.
Proof.
  split.
  - induction s as [|x s IH]; intros H.
    + exists "", "". destruct p; [reflexivity|discriminate H].
    + cbn [contains] in H. apply orb_true_iff in H as [H|H].
      * destruct (starts_split _ _ H) as (b & ->). now exists "", b.
      * destruct (IH H) as (a & b & ->). now exists (String x a), b.
  - intros (a & b & ->). induction a as [|x a IH]; [|cbn [append contains]; now rewrite IH, orb_true_r].
    cbn [append]. pose proof (prefix_self p b) as H. destruct (p ++ b)%string eqn:E; cbn [contains]; now rewrite H.
Qed.
Lemma format_found t f : In f ["csv"; "json"] -> (In f (filter (fun g => contains g t) ["csv"; "json"]) <-> exists a b, t = (a ++ f ++ b)%string).
Proof. intros Hf. rewrite filter_In, contains_split. intuition. Qed.

(** A run needs a configuration file.  Its files are looked for in the folder of that file; the
    results go to the folder given, and to that of the configuration file without one; a format is
    asked for if its name in small letters is part of the text given; demands, realizations, the
    script, user models and the two switches are those given. *)
Theorem C121_run : forall resolve parent settings, settings <> [] -> Forall proper settings -> Forall plain settings ->
  exists kw, main (as_tokens settings) = Ok (Some kw) /\
  exists config, last_given ["-c"; "--filenameDL"] settings config /\
  match config with
  | None => to_call resolve parent kw = Err TypeError
  | Some p => exists c, to_call resolve parent kw = Ok c /\ c_dir c = parent (resolve p) /\
      (exists o, last_given ["--dirnameOutput"] settings o /\
         c_out c = match o with Some o => resolve o | None => parent (resolve p) end) /\
      (exists f, last_given ["--output_format"] settings f /\
         match f with
         | None => c_format c = None
         | Some t => exists fs, c_format c = Some fs /\
             forall name, In name ["csv"; "json"] -> (In name fs <-> exists a b, t = (a ++ name ++ b)%string)
         end) /\
      (exists d, last_given ["-d"; "--demandFile"] settings d /\ c_demand_file c = d) /\
      (exists s, last_given ["-s"; "--Realizations"] settings s /\ c_realizations c = match s with Some n => n | None => "None" end) /\
      (exists a, last_given ["--auto_script"] settings a /\ c_auto_script c = match a with Some a => Some (resolve a) | None => None end) /\
      (exists m, last_given ["--custom_model_dir"] settings m /\ c_models c = m) /\
      (exists b, last_given ["--detailed_results"] settings b /\
         match b with None => c_detailed c = true
         | Some t => (means_yes t -> c_detailed c = true) /\ (means_no t -> c_detailed c = false) end) /\
      (exists b, last_given ["--coupled_EDP"] settings b /\
         match b with None => c_coupled c = false
         | Some t => (means_yes t -> c_coupled c = true) /\ (means_no t -> c_coupled c = false) end)
  end.
Proof.
  intros resolve parent l N P Q. destruct (C121_reach l N P Q) as (kw & H & A). exists kw. split; [exact H|].
  assert (D : forall ns k switch d, In (ns, k, switch, d) documented -> exists g, last_given ns l g /\
      match g, switch with
      | None, _ => dget k kw = Some d
      | Some t, false => dget k kw = Some (VText t)
      | Some t, true => (means_yes t -> dget k kw = Some (VBool true)) /\ (means_no t -> dget k kw = Some (VBool false))
      end) by exact A. clear A H.
  assert (In0 : forall i e, nth_error documented i = Some e -> In e documented) by (intros i e; apply nth_error_In).
  destruct (D _ _ _ _ (In0 0%nat _ eq_refl)) as (gc & Lc & Ec). exists gc. split; [exact Lc|]. unfold to_call.
  destruct gc as [p|]; [|now rewrite Ec]. cbn beta iota in Ec. rewrite Ec. cbn [text_of].
  eexists. split; [reflexivity|]. cbn [c_dir c_out c_format c_demand_file c_realizations c_auto_script c_models c_detailed c_coupled].
  split; [reflexivity|].
  destruct (D _ _ _ _ (In0 1%nat _ eq_refl)) as (g1 & L1 & E1). destruct (D _ _ _ _ (In0 2%nat _ eq_refl)) as (g2 & L2 & E2).
  destruct (D _ _ _ _ (In0 3%nat _ eq_refl)) as (g3 & L3 & E3). destruct (D _ _ _ _ (In0 4%nat _ eq_refl)) as (g4 & L4 & E4).
  destruct (D _ _ _ _ (In0 5%nat _ eq_refl)) as (g5 & L5 & E5). destruct (D _ _ _ _ (In0 6%nat _ eq_refl)) as (g6 & L6 & E6).
  destruct (D _ _ _ _ (In0 7%nat _ eq_refl)) as (g7 & L7 & E7). destruct (D _ _ _ _ (In0 8%nat _ eq_refl)) as (g8 & L8 & E8).
  clear D In0 Ec.
  split; [exists g3; split; [exact L3|]; destruct g3; now rewrite E3|].
  split; [exists g6; split; [exact L6|]; destruct g6 as [t|]; rewrite E6; [|reflexivity];
          exists (filter (fun g => contains g t) ["csv"; "json"]); split; [reflexivity|]; intros name Hn; now apply format_found|].
  split; [exists g1; split; [exact L1|]; destruct g1; now rewrite E1|].
  split; [exists g2; split; [exact L2|]; destruct g2; now rewrite E2|].
  split; [exists g4; split; [exact L4|]; destruct g4; now rewrite E4|].
  split; [exists g5; split; [exact L5|]; destruct g5; now rewrite E5|].
  split.
  - exists g7. split; [exact L7|]. destruct g7 as [t|]; [|now rewrite E7]. destruct E7 as [Y Z]. split; intros M; [now rewrite (Y M)|now rewrite (Z M)].
  - exists g8. split; [exact L8|]. destruct g8 as [t|]; [|now rewrite E8]. destruct E8 as [Y Z]. split; intros M; [now rewrite (Y M)|now rewrite (Z M)].
Qed.
Print Assumptions C121_run.

(** ** What is not as documented *)

(** The switch for coupled demands has no effect unless it is followed by a value. *)
Theorem C121_coupled_refuted : forall settings, settings <> [] -> Forall proper settings -> Forall plain settings ->
  (forall s, In s settings -> fst s <> "--coupled_EDP") ->
  main (as_tokens settings ++ ["--coupled_EDP"]) = main (as_tokens settings).
Proof.
  intros l N P Q H. pose proof (main_tokens l [] N P Q) as H0. rewrite app_nil_r in H0. rewrite H0, main_tokens by assumption.
  replace (parse_args ["--coupled_EDP"] (apply_settings l defaults)) with (@Ok (dict value) (dset "coupled_EDP" (VBool false) (apply_settings l defaults))) by reflexivity.
  cbn [parse_args bind]. do 2 f_equal. apply keywords_ext. intros d Hd.
  destruct (string_dec d "coupled_EDP") as [->|Hne]; [|now apply dget_dset_ne]. rewrite dget_dset_eq, dget_apply.
  destruct (found "coupled_EDP" l) as [s|] eqn:F; [|reflexivity]. exfalso. unfold found in F. apply find_some in F as [I E]. apply in_rev in I. apply String.eqb_eq in E.
  rewrite Forall_forall in P. destruct (proper_spec s (P s I)) as (Hn & _). apply (H s I). revert Hn E. generalize (fst s). clear. intros n Hn.
  cbn in Hn. repeat (destruct Hn as [<- | Hn]; [vm_compute; intros E; try discriminate E; reflexivity|]). destruct Hn.
Qed.
Print Assumptions C121_coupled_refuted.

Lemma find_app' (f : setting -> bool) l l' : find f (l ++ l') = match find f l with Some y => Some y | None => find f l' end.
Proof. induction l as [|y l IHl]; cbn; [reflexivity|]. destruct (f y); [reflexivity|apply IHl]. Qed.
(** The switch for the log file has no effect at all. *)
Theorem C121_log_refuted : forall before v after, means_yes v \/ means_no v -> starts_with "-" v = false -> before <> [] ->
  Forall proper (before ++ after) -> Forall plain (before ++ after) ->
  main (as_tokens (before ++ ("--log_file", v) :: after)) = main (as_tokens (before ++ after)).
Proof.
  intros before v after Hv Hp N P Q.
  assert (P' : Forall proper (before ++ ("--log_file", v) :: after)).
  { rewrite Forall_forall in *. intros x Hx. apply in_app_or in Hx as [Hx|[<-|Hx]]; [apply P, in_or_app; now left| |apply P, in_or_app; now right].
    right. split; [left; now left|exact Hv]. }
  assert (Q' : Forall plain (before ++ ("--log_file", v) :: after)).
  { rewrite Forall_forall in *. intros x Hx. apply in_app_or in Hx as [Hx|[<-|Hx]]; [apply Q, in_or_app; now left|exact Hp|apply Q, in_or_app; now right]. }
  assert (N1 : before ++ after <> []) by (destruct before; easy). assert (N2 : before ++ ("--log_file", v) :: after <> []) by (destruct before; easy).
  pose proof (main_tokens _ [] N1 P Q) as H1. pose proof (main_tokens _ [] N2 P' Q') as H2. rewrite app_nil_r in H1, H2. rewrite H1, H2.
  cbn [parse_args bind]. do 2 f_equal. apply keywords_ext. intros d Hd.
  rewrite !dget_apply. unfold found. rewrite !rev_app_distr. cbn [rev]. rewrite <- app_assoc, !find_app'.
  destruct (find (fun s : setting => String.eqb (dest_of (fst s)) d) (rev after)); [reflexivity|]. cbn [app find]. replace (String.eqb (dest_of (fst ("--log_file", v))) d) with false; [reflexivity|].
  symmetry. apply String.eqb_neq. intros <-. cbn in Hd. intuition discriminate.
Qed.
Print Assumptions C121_log_refuted.

(** Upper case names of formats: no file in any format. With a list, as the function expects, or in
    lower case there are files. *)
Definition cl_config (format : string) : result (option (dict json)) :=
  let* r := main ["-c"; "/work/input.json"; "--output_format"; format] in
  match r with
  | None => Ok None
  | Some kw => let* c := to_call (fun p => p) (fun _ => "/work") kw in parse_config ex_host c pristine ex_own
  end.
Theorem C121_format_refuted : exists d d', cl_config "CSV" = Ok (Some d) /\ cl_config "csv" = Ok (Some d') /\
  S_Config.value d ["DL"; "Outputs"; "Format"; "CSV"] = Some (JBool false) /\ S_Config.value d ["DL"; "Outputs"; "Format"; "JSON"] = Some (JBool false) /\
  S_Config.value d' ["DL"; "Outputs"; "Format"; "CSV"] = Some (JBool true).
Proof. eexists. eexists. split; [vm_compute; reflexivity|]. split; [vm_compute; reflexivity|]. repeat split; vm_compute; reflexivity. Qed.
Print Assumptions C121_format_refuted.

(** ** Cases *)

Definition cl_settings : list setting :=
  [("-c", "in.json"); ("--demandFile", "edp.csv"); ("--coupled_EDP", "True"); ("-d", "other.csv"); ("--detailed_results", "no"); ("--log_file", "0")].
Lemma cl_proper : Forall proper cl_settings /\ Forall plain cl_settings.
Proof.
  split; repeat (apply Forall_cons || apply Forall_nil); try reflexivity.
  - left. right. exists ["-c"; "--filenameDL"], "config_path", VNone. cbn. tauto.
  - left. right. exists ["-d"; "--demandFile"], "demand_file", VNone. cbn. tauto.
  - right. split; [right; exists ["--coupled_EDP"], "coupled_edp", (VBool false); cbn; tauto|]. left. cbn. tauto.
  - left. right. exists ["-d"; "--demandFile"], "demand_file", VNone. cbn. tauto.
  - right. split; [right; exists ["--detailed_results"], "detailed_results", (VBool true); cbn; tauto|]. right. cbn. tauto.
  - right. split; [left; cbn; tauto|]. right. cbn. tauto.
Qed.
Example C121_concrete :
  main (as_tokens cl_settings) = Ok (Some [("config_path", VText "in.json"); ("demand_file", VText "other.csv"); ("output_path", VNone); ("realizations", VNone);
    ("auto_script_path", VNone); ("custom_model_dir", VNone); ("output_format", VNone); ("detailed_results", VBool false); ("coupled_edp", VBool true)]) /\
  main (as_attached cl_settings) = main (as_tokens cl_settings) /\
  main ["-c"; "in.json"; "--coupled_EDP"; "--det"; "n"] = main ["-c"; "in.json"; "--detailed_results=n"] /\
  only_beginning "--det" "--detailed_results" /\ is_ok (main ["-c"; "in.json"; "--d"; "x"]) = false /\ is_ok (main ["-c"; "in.json"; "--workers"; "4"]) = false.
Proof.
  split; [vm_compute; reflexivity|]. split; [vm_compute; reflexivity|]. split; [vm_compute; reflexivity|]. split.
  - split; [reflexivity|]. split; [cbn; tauto|]. intros m Hm. cbn in Hm. repeat (destruct Hm as [<- | Hm]; [vm_compute; intros E; try discriminate E; reflexivity|]). destruct Hm.
  - split; vm_compute; reflexivity.
Qed.
Example C121_order_hypotheses_met : let l := [("-c", "in.json"); ("-d", "edp.csv"); ("--Realizations", "100")] in
  ForallOrdPairs (fun s s' : setting => ~ same_option (fst s) (fst s')) l /\ Permutation l (rev l).
Proof.
  split; [|apply Permutation_rev].
  assert (K : forall n n', n <> n' -> existsb (fun e : list string * string * bool * value => mem n (fst (fst (fst e))) && mem n' (fst (fst (fst e)))) documented = false -> ~ same_option n n').
  { intros n n' Hne E [->|(ns & k & sw & d & Hd & H1 & H2)]; [easy|].
    assert (X : existsb (fun e : list string * string * bool * value => mem n (fst (fst (fst e))) && mem n' (fst (fst (fst e)))) documented = true).
    { apply existsb_exists. exists (ns, k, sw, d). split; [exact Hd|]. cbn [fst]. apply andb_true_iff. now split; apply mem_true. }
    rewrite E in X. discriminate X. }
  repeat constructor; apply K; try discriminate; vm_compute; reflexivity.
Qed.

(** * C122 The library is updated to what is asked for *)

Lemma hex_In a : is_hex a = true <-> In a hex_digits.
Proof.
  split.
  - destruct a as [[] [] [] [] [] [] [] []]; vm_compute; intros H; try discriminate H; tauto.
  - intros H. cbn in H. repeat (destruct H as [<- | H]; [reflexivity|]). destruct H.
Qed.
Lemma all_hex_In s : all_hex s = true <-> forall a, In a (list_ascii_of_string s) -> In a hex_digits.
Proof.
  induction s as [|a s IH]; cbn [all_hex list_ascii_of_string]; [split; [intros _ a []|reflexivity]|]. rewrite andb_true_iff, hex_In, IH. split.
  - intros [Ha Hs] b [<-|Hb]; [exact Ha|now apply Hs].
  - intros H. split; [apply H; now left|]. intros b Hb. apply H. now right.
Qed.
Lemma substring_whole s : substring 0 (String.length s) s = s.
Proof. induction s as [|a s IH]; [reflexivity|]. cbn. now rewrite IH. Qed.
Lemma commit_target sha : target_request ("commit " ++ sha) = Commit sha.
Proof.
  unfold target_request. replace (starts_with "commit " ("commit " ++ sha)) with true by (now destruct sha). f_equal.
  replace (String.length ("commit " ++ sha) - 7)%nat with (String.length sha) by (cbn; lia). exact (substring_whole sha).
Qed.

(** A commit of seven hexadecimal digits, the latest commit, or a version: the library is asked for
    this and nothing else, and its answer is what is downloaded. *)
Theorem C122_commit : forall commits versions sha, short_sha sha \/ sha = "latest" ->
  dlml_update commits versions (target_request ("commit " ++ sha)) = match commits sha with Err ValueError => Err RuntimeError | x => x end.
Proof.
  intros commits versions sha H. rewrite commit_target. unfold dlml_update. replace (negb (String.eqb sha "latest") && negb (validate_commit_sha sha)) with false; [reflexivity|].
  symmetry. apply andb_false_iff. destruct H as [[L H]| ->]; [right|now left]. apply negb_false_iff. unfold validate_commit_sha. rewrite L, (proj2 (all_hex_In sha) H). now destruct (String.eqb sha "latest").
Qed.
Print Assumptions C122_commit.
Theorem C122_version : forall commits versions target, starts_with "commit " target = false ->
  dlml_update commits versions (target_request target) = match versions target with Err ValueError => Err RuntimeError | x => x end.
Proof. intros commits versions t H. unfold target_request. now rewrite H. Qed.
Print Assumptions C122_version.
(** Anything else after [commit] is rejected whatever the library has, up to a final line break. *)
Theorem C122_rejected : forall commits versions sha, ~ short_sha sha -> sha <> "latest" -> (forall s, sha <> (s ++ newline)%string) ->
  dlml_update commits versions (target_request ("commit " ++ sha)) = Err RuntimeError.
Proof.
  intros commits versions sha H1 H2 H3. rewrite commit_target. unfold dlml_update. replace (negb (String.eqb sha "latest") && negb (validate_commit_sha sha)) with true; [reflexivity|].
  symmetry. apply String.eqb_neq in H2. unfold validate_commit_sha. rewrite H2. cbn [negb andb orb]. apply negb_true_iff, orb_false_iff. split.
  - apply not_true_is_false. intros E. apply andb_true_iff in E as [E1 E2]. apply H1. split; [now apply Nat.eqb_eq|now apply all_hex_In].
  - apply not_true_is_false. intros E. apply andb_true_iff in E as [E1 E2]. apply andb_true_iff in E1 as [E0 E1]. apply Nat.eqb_eq in E0. apply String.eqb_eq in E2.
    apply (H3 (substring 0 7 sha)). rewrite <- E2. clear -E0.
    do 8 (destruct sha as [|? sha]; [discriminate E0|]). destruct sha; [reflexivity|discriminate E0].
Qed.
Print Assumptions C122_rejected.
(** The command as documented does not touch the data on import. *)
Theorem C122_import : forall program rest, skips_check (program :: "dlml" :: "update" :: rest) = true.
Proof. intros p rest. unfold skips_check. cbn. apply orb_true_r. Qed.
Print Assumptions C122_import.

(** ** What is not as documented *)

(** The full name of a commit is rejected, and so is one of the examples of the help. *)
Theorem C122_full_sha_refuted : forall commits versions sha, String.length sha = 40%nat -> dlml_update commits versions (target_request ("commit " ++ sha)) = Err RuntimeError.
Proof.
  intros commits versions sha H. rewrite commit_target. unfold dlml_update, validate_commit_sha. rewrite H. cbn [Nat.eqb andb orb].
  destruct (String.eqb sha "latest") eqn:E; [apply String.eqb_eq in E; subst; discriminate H|reflexivity].
Qed.
Print Assumptions C122_full_sha_refuted.
Theorem C122_example_refuted : forall commits versions, dlml_update commits versions (target_request "commit def567") = Err RuntimeError.
Proof. reflexivity. Qed.
Print Assumptions C122_example_refuted.
(** Options before the action: the import checks the data, and downloads the latest ones if there are none. *)
Theorem C122_import_refuted : skips_check ["pelicun"; "dlml"; "--no-cache"; "update"; "v1.2.0"] = false.
Proof. reflexivity. Qed.
Print Assumptions C122_import_refuted.
Example C122_concrete : short_sha "abc1234" /\ short_sha "ABC1234" /\ ~ short_sha "def567" /\
  dlml_update (fun s => Ok (s ++ "567890")%string) (fun _ => Err ValueError) (target_request "commit abc1234") = Ok "abc1234567890" /\
  dlml_update (fun s => Ok s) (fun v => Ok ("sha of " ++ v)%string) (target_request "v1.2.0") = Ok "sha of v1.2.0".
Proof.
  split; [split; [reflexivity|apply all_hex_In; reflexivity]|]. split; [split; [reflexivity|apply all_hex_In; reflexivity]|].
  split; [intros [E _]; discriminate E|]. split; reflexivity.
Qed.
