(** Theorems about references to the built-in library (C110). *)
From Verif Require Import Prelude PreludeFacts M_Damage M_Library S_Library P_Text.
Set Implicit Arguments.
Local Open Scope string_scope.
Local Open Scope list_scope.

(** ** Texts with slashes *)

Lemma prefix_cons a p b s : String.prefix (String a p) (String b s) = if Ascii.ascii_dec a b then String.prefix p s else false.
Proof. reflexivity. Qed.
Lemma prefix_nil s : String.prefix "" s = true.
Proof. now destruct s. Qed.
Lemma prefix_slash w a b : has_char "/" w = false -> String.prefix (w ++ "/") (a ++ "/" ++ b) = String.prefix (w ++ "/") (a ++ "/").
Proof.
  revert a. induction w as [|y w IH]; intros a Hw.
  - destruct a as [|x a]; cbn [append]; rewrite !prefix_cons, !prefix_nil; reflexivity.
  - cbn in Hw. apply orb_false_iff in Hw as [Hy Hw]. destruct a as [|x a]; cbn [append]; rewrite !prefix_cons.
    + destruct (Ascii.ascii_dec y "/") as [->|]; [discriminate Hy|reflexivity].
    + destruct (Ascii.ascii_dec y x); [|reflexivity]. apply (IH a Hw).
Qed.
Lemma contains_slash w a b : has_char "/" w = false -> contains (w ++ "/") (a ++ "/" ++ b) = (contains (w ++ "/") (a ++ "/") || contains (w ++ "/") b)%bool.
Proof.
  intros Hw. induction a as [|x a IH].
  - cbn [append]. cbn [contains]. rewrite (prefix_slash w "" b Hw : String.prefix (w ++ "/") (String "/" b) = String.prefix (w ++ "/") "/").
    destruct (String.prefix (w ++ "/") "/"); [reflexivity|]. cbn [orb].
    assert (E : String.prefix (w ++ "/") "" = false) by (destruct w; reflexivity). rewrite E. reflexivity.
  - change (String x a ++ "/" ++ b)%string with (String x (a ++ "/" ++ b)). change (String x a ++ "/")%string with (String x (a ++ "/")). cbn [contains]. rewrite IH. rewrite (prefix_slash w (String x a) b Hw : String.prefix (w ++ "/") (String x (a ++ "/" ++ b)) = String.prefix (w ++ "/") (String x (a ++ "/"))).
    now rewrite orb_assoc.
Qed.
Lemma contains_no_slash w b : has_char "/" b = false -> contains (w ++ "/") b = false.
Proof.
  intros Hb. destruct (contains (w ++ "/") b) eqn:E; [|reflexivity]. exfalso. revert E. induction b as [|x b IH]; [destruct w; discriminate|].
  cbn in Hb. apply orb_false_iff in Hb as [Hx Hb]. cbn [contains]. intros E. apply orb_prop in E as [E|E]; [|now apply IH].
  clear IH. revert w E. assert (G : forall w s, has_char "/" s = false -> String.prefix (w ++ "/") s = false).
  { induction w as [|y w IH]; intros [|z s] Hs; [reflexivity| |reflexivity|]; cbn [append]; rewrite prefix_cons.
    - cbn in Hs. apply orb_false_iff in Hs as [Hz _]. destruct (Ascii.ascii_dec "/" z) as [<-|]; [discriminate Hz|reflexivity].
    - cbn in Hs. apply orb_false_iff in Hs as [_ Hs]. destruct (Ascii.ascii_dec y z); [apply (IH s Hs)|reflexivity]. }
  intros w E. rewrite (G w (String x b)) in E; [discriminate|]. cbn. now rewrite Hx.
Qed.
Lemma starts_prefix s t : contains s (s ++ t) = true.
Proof. destruct (s ++ t)%string eqn:E; cbn [contains]; rewrite <- E; now rewrite prefix_app. Qed.

Lemma reference_parts method file : file_name method -> file_name file -> rev (path_parts (reference method file)) = [file; method; "PelicunDefault"].
Proof.
  intros (Hm & M0 & M1) (Hf & F0 & F1). unfold path_parts, reference.
  change (starts_with "/" ("PelicunDefault/" ++ method ++ "/" ++ file)) with false. cbn [app].
  change ("PelicunDefault/" ++ method ++ "/" ++ file)%string with ("PelicunDefault" ++ String "/" (method ++ String "/" file))%string.
  rewrite (split_on_app "/" "PelicunDefault" _ eq_refl), (split_on_app "/" method _ Hm), (split_on_nochar _ _ Hf).
  apply String.eqb_neq in M0, M1, F0, F1. cbn [filter mem existsb]. rewrite M0, M1, F0, F1. reflexivity.
Qed.
Lemma dget_listed V (d : dict V) k v : dget k d = Some v -> In (k, v) d.
Proof. induction d as [|[k' v'] d IH]; [discriminate|]. cbn. destruct (String.eqb_spec k k') as [->|]; [intros [= ->]; now left|right; now apply IH]. Qed.
Lemma method_get method folder : dget method resource_paths = Some (folder ++ "/")%string <-> method_folder method folder.
Proof.
  unfold method_folder. split.
  - apply dget_listed.
  - intros H. cbn in H. repeat (destruct H as [H|H]; [injection H as <- <-; reflexivity|]). destruct H.
Qed.
Lemma str_assoc a b c : (a ++ (b ++ c))%string = ((a ++ b) ++ c)%string.
Proof. induction a as [|x a IH]; cbn; [reflexivity|now rewrite IH]. Qed.
Lemma join_cons2 sep a b l : join sep (a :: b :: l) = (a ++ sep ++ join sep (b :: l))%string.
Proof. reflexivity. Qed.
Lemma library_found root method folder file : method_folder method folder -> library_file root method file = Ok (in_library root folder file).
Proof.
  intros H. unfold library_file. rewrite (proj2 (method_get method folder) H). f_equal. unfold in_library.
  assert (E : join "/" (path_parts (folder ++ "/") ++ [file]) = (folder ++ "/" ++ file)%string /\ path_parts (folder ++ "/") <> []).
  { unfold method_folder in H. cbn in H. repeat (destruct H as [H|H]; [injection H as <- E; apply (f_equal str_rev) in E;
      rewrite str_rev_app_dist in E; cbn in E; injection E as E; apply (f_equal str_rev) in E; rewrite str_rev_involutive in E; cbn in E; subst folder; split; [reflexivity|discriminate]|]). destruct H. }
  destruct E as [E N]. cbn [app]. rewrite !join_cons2. destruct (path_parts (folder ++ "/") ++ [file]) as [|x l] eqn:X; [now destruct (path_parts (folder ++ "/"))|].
  rewrite join_cons2, E. reflexivity.
Qed.

(** * C110 References to the built-in library *)

(** A reference to a file of a method leads to that file. *)
Theorem C110_methods : forall root method folder file, method_folder method folder -> file_name file ->
  substitute_path root (reference method file) = Ok (in_library root folder file).
Proof.
  intros root method folder file Hm Hf. unfold substitute_path. unfold reference at 1. rewrite (starts_prefix "PelicunDefault/").
  assert (Hn : file_name method). { unfold method_folder in Hm. cbn in Hm. repeat (destruct Hm as [Hm|Hm]; [injection Hm as <- _; repeat split; discriminate|]). destruct Hm. }
  assert (Hne : method <> "PelicunDefault"). { unfold method_folder in Hm. cbn in Hm. repeat (destruct Hm as [Hm|Hm]; [injection Hm as <- _; discriminate|]). destruct Hm. }
  rewrite (reference_parts Hn Hf). apply String.eqb_neq in Hne. rewrite Hne. cbn [bind fst snd]. now apply library_found.
Qed.
Print Assumptions C110_methods.
Example C110_methods_concrete : method_folder "FEMA P-58" "seismic/building/component/FEMA P-58 2nd Edition" /\ file_name "fragility.csv" /\
  substitute_path "/opt/pelicun" "PelicunDefault/FEMA P-58/fragility.csv" = Ok "/opt/pelicun/resources/DamageAndLossModelLibrary/seismic/building/component/FEMA P-58 2nd Edition/fragility.csv".
Proof. split; [now left|]. split; [repeat split; discriminate|reflexivity]. Qed.

(** A method that is not in the library is reported. *)
Theorem C110_unknown : forall root method file, file_name method -> file_name file -> method <> "PelicunDefault" -> (forall folder, ~ In (method, folder) resource_paths) ->
  substitute_path root (reference method file) = Err KeyError.
Proof.
  intros root method file Hm Hf Hne Hno. unfold substitute_path. unfold reference at 1. rewrite (starts_prefix "PelicunDefault/"), (reference_parts Hm Hf).
  apply String.eqb_neq in Hne. rewrite Hne. cbn [bind fst snd]. unfold library_file. destruct (dget method resource_paths) as [folder|] eqn:E; [|reflexivity].
  exfalso. apply (Hno folder). now apply dget_listed.
Qed.
Print Assumptions C110_unknown.
Example C110_unknown_concrete : file_name "Hazus Flood" /\ forall folder, ~ In ("Hazus Flood", folder) resource_paths.
Proof. split; [repeat split; discriminate|]. intros folder H. cbn in H. repeat (destruct H as [H|H]; [discriminate H|]). destruct H. Qed.

(** Every other path and every table stays as it is, in its place. *)
Theorem C110_sources : forall D root (l l' : list (source D)), substitute root l = Ok l' ->
  Forall2 (resolved root) l l' /\ forall k s, nth_error l k = Some (Path s) -> contains "PelicunDefault/" s = false -> nth_error l' k = Some (Path s).
Proof.
  intros D root l l' H.
  assert (F : Forall2 (resolved root) l l').
  { unfold substitute in H. apply mapM_Forall2 in H. induction H as [|x y l l' E H IH]; constructor; [|exact IH]. destruct x as [s|d]; cbn in *; [|now injection E as <-].
    destruct (substitute_path root s) as [p|]; [|discriminate]. injection E as <-. now exists p. }
  split; [exact F|]. intros k s Hk Hs. clear H. revert k Hk. induction F as [|x y l l' R F IH]; intros [|k] Hk; [discriminate..| |now apply IH].
  cbn in *. injection Hk as ->. cbn in R. destruct R as (p & -> & E). unfold substitute_path in E. rewrite Hs in E. now injection E as <-.
Qed.
Print Assumptions C110_sources.
Example C110_sources_concrete : substitute (D := nat) "/opt" [Path "own.csv"; Table 7%nat; Path "PelicunDefault/Hazus Hurricane/fragility.csv"] =
  Ok [Path "own.csv"; Table 7%nat; Path "/opt/resources/DamageAndLossModelLibrary/hurricane/building/portfolio/Hazus v5.1 coupled/fragility.csv"].
Proof. reflexivity. Qed.

Lemma library_form root method file p : library_file root method file = Ok p -> exists folder, method_folder method folder /\ p = in_library root folder file.
Proof.
  intros H. assert (E : exists folder, method_folder method folder).
  { unfold library_file in H. destruct (dget method resource_paths) as [f|] eqn:E; [|discriminate]. assert (X : exists folder, f = (folder ++ "/")%string).
    { clear H. apply dget_listed in E. cbn in E. repeat (destruct E as [E|E]; [injection E as _ <-; match goal with |- exists _, ?f = _ => exists (substring 0 (String.length f - 1) f) end; reflexivity|]). destruct E. }
    destruct X as (folder & ->). exists folder. now apply method_get. }
  destruct E as (folder & F). exists folder. split; [exact F|]. rewrite (library_found root file F) in H. now injection H as <-.
Qed.
Lemma last_part_name s f l : rev (path_parts s) = f :: l -> f = "/" \/ has_char "/" f = false.
Proof.
  intros H. assert (I : In f (path_parts s)) by (apply in_rev; rewrite H; now left). unfold path_parts in I. apply in_app_or in I as [I|I].
  - left. destruct (starts_with "/" s); [|destruct I]. destruct I as [<-|[]]. reflexivity.
  - right. apply filter_In in I as [I _]. pose proof (split_on_pieces "/" s) as P. rewrite Forall_forall in P. now apply P.
Qed.
(** Substituting twice is the same as once. *)
Theorem C110_again : forall root s p, contains "PelicunDefault/" (root ++ "/") = false -> substitute_path root s = Ok p -> substitute_path root p = Ok p.
Proof.
  intros root s p Hr H. unfold substitute_path in H. destruct (contains "PelicunDefault/" s) eqn:C; [|injection H as <-; unfold substitute_path; now rewrite C].
  destruct (rev (path_parts s)) as [|file [|method rest]] eqn:E; [discriminate..|].
  assert (Hfile : has_char "/" file = false).
  { destruct (last_part_name s E) as [->|Hf]; [|exact Hf]. exfalso. assert (E' : path_parts s = rev rest ++ [method; "/"]) by (rewrite <- (rev_involutive (path_parts s)), E; cbn; now rewrite <- app_assoc).
    unfold path_parts in E'. set (q := filter (fun p => negb (mem p [""; "."])) (split_on "/" s)) in *.
    assert (Q : ~ In "/" q). { intros I. apply filter_In in I as [I _]. pose proof (split_on_pieces "/" s) as P. rewrite Forall_forall in P. specialize (P _ I). discriminate P. }
    destruct (starts_with "/" s).
    - destruct (rev rest) as [|a r]; cbn in E'; injection E' as E1 E2; [subst; apply Q; rewrite E2; now left|apply Q; rewrite E2; apply in_or_app; right; right; now left].
    - cbn in E'. apply Q. rewrite E'. apply in_or_app. right. right. now left. }
  match type of H with bind ?x _ = _ => destruct x as [[m f]|] eqn:X end; [|discriminate]. cbn [bind fst snd] in H.
  assert (Hf : has_char "/" f = false).
  { destruct (String.eqb method "PelicunDefault"); [|injection X as <- <-; exact Hfile]. unfold legacy_file in X.
    match type of X with (if ?b then _ else _) = _ => destruct b end; [|discriminate]. destruct (dget (hd "" (split_on "." file)) legacy_names); [|discriminate]. injection X as _ <-.
    assert (Hl : has_char "/" (last (split_on "." file) "") = false).
    { assert (I : In (last (split_on "." file) "") (split_on "." file)) by (destruct (@exists_last _ (split_on "." file)) as (l0 & x0 & S0); [apply split_on_nonempty|]; rewrite S0, last_last; apply in_or_app; right; now left).
      rewrite <- (join_split "." file) in Hfile. revert Hfile I. generalize (last (split_on "." file) ""). generalize (split_on "." file). clear.
      induction l as [|w l IH]; [intros x _ []|]. intros x Hc [->|I].
      - destruct l; [exact Hc|]. rewrite join_cons2, has_char_app in Hc. now apply orb_false_iff in Hc as [Hc _].
      - destruct l as [|w' l]; [destruct I|]. rewrite join_cons2, !has_char_app in Hc. apply orb_false_iff in Hc as [_ Hc]. apply orb_false_iff in Hc as [_ Hc]. now apply IH. }
    rewrite has_char_app. apply orb_false_iff. split; [now destruct (starts_with "fragility" file || starts_with "damage" file)%bool|exact Hl]. }
  destruct (@library_form _ _ _ _ H) as (folder & F & ->). unfold substitute_path.
  assert (N : contains "PelicunDefault/" (in_library root folder f) = false).
  { unfold in_library. change ("/resources/DamageAndLossModelLibrary/" ++ folder ++ "/" ++ f)%string with ("/" ++ ("resources/DamageAndLossModelLibrary/" ++ folder ++ "/" ++ f))%string.
    rewrite (@contains_slash "PelicunDefault" root) by reflexivity. rewrite (Hr : contains ("PelicunDefault" ++ "/") (root ++ "/") = false). cbn [orb].
    rewrite str_assoc. rewrite (@contains_slash "PelicunDefault") by reflexivity. rewrite (contains_no_slash "PelicunDefault" _ Hf), orb_false_r.
    unfold method_folder in F. cbn in F. repeat (destruct F as [F|F]; [injection F as <- E1; apply (f_equal str_rev) in E1;
      rewrite str_rev_app_dist in E1; cbn in E1; injection E1 as E1; apply (f_equal str_rev) in E1; rewrite str_rev_involutive in E1; cbn in E1; subst folder; reflexivity|]). destruct F. }
  now rewrite N.
Qed.
Print Assumptions C110_again.
Example C110_again_concrete : contains "PelicunDefault/" ("/opt/pelicun" ++ "/") = false /\ exists p, substitute_path "/opt/pelicun" "PelicunDefault/FEMA P-58/fragility.csv" = Ok p.
Proof. split; [reflexivity|eexists; reflexivity]. Qed.

(** ** File names of earlier versions *)

Lemma legacy_file_name name method extension : In (name, method) legacy_names -> has_char "." extension = false ->
  legacy_file (name ++ "." ++ extension) = Ok (method, (legacy_kind name ++ "." ++ extension)%string).
Proof.
  intros H He. unfold legacy_file, legacy_kind.
  assert (S0 : split_on "." (name ++ "." ++ extension) = [name; extension]).
  { change (name ++ "." ++ extension)%string with (name ++ String "." extension)%string. rewrite split_on_app, (split_on_nochar _ _ He); [reflexivity|].
    cbn in H. repeat (destruct H as [H|H]; [injection H as <- _; reflexivity|]). destruct H. }
  rewrite S0. cbn [hd last]. cbn in H. repeat (destruct H as [H|H]; [injection H as <- <-; reflexivity|]). destruct H.
Qed.
Lemma legacy_path root file : file_name file -> substitute_path root ("PelicunDefault/" ++ file) = let* mf := legacy_file file in library_file root (fst mf) (snd mf).
Proof.
  intros (Hf & F0 & F1). unfold substitute_path. rewrite (starts_prefix "PelicunDefault/"). unfold path_parts. change (starts_with "/" ("PelicunDefault/" ++ file)) with false. cbn [app].
  change ("PelicunDefault/" ++ file)%string with ("PelicunDefault" ++ String "/" file)%string. rewrite (split_on_app "/" "PelicunDefault" _ eq_refl), (split_on_nochar _ _ Hf).
  apply String.eqb_neq in F0, F1. cbn [filter mem existsb]. rewrite F0, F1. reflexivity.
Qed.
(** A file name of an earlier version stands for its method, if the library has the method. *)
Theorem C110_legacy_partial : forall root name method folder extension, In (name, method) legacy_names -> method_folder method folder ->
  has_char "." extension = false -> has_char "/" extension = false ->
  substitute_path root ("PelicunDefault/" ++ name ++ "." ++ extension) = Ok (in_library root folder (legacy_kind name ++ "." ++ extension)) /\
  substitute_path root ("PelicunDefault/" ++ name ++ "." ++ extension) = substitute_path root (reference method (legacy_kind name ++ "." ++ extension)).
Proof.
  intros root name method folder extension H F He Hs.
  assert (Hf : file_name (name ++ "." ++ extension)).
  { split; [rewrite has_char_app; apply orb_false_iff; split; [|exact Hs]; cbn in H; repeat (destruct H as [H|H]; [injection H as <- _; reflexivity|]); destruct H|].
    cbn in H. repeat (destruct H as [H|H]; [injection H as <- _; split; discriminate|]). destruct H. }
  assert (Hk : file_name (legacy_kind name ++ "." ++ extension)).
  { unfold legacy_kind. destruct (starts_with "damage_DB" name || starts_with "fragility_DB" name)%bool; (split; [exact Hs|split; discriminate]). }
  rewrite (C110_methods root F Hk). rewrite (@legacy_path root (name ++ "." ++ extension) Hf), (@legacy_file_name name method extension H He). cbn [bind fst snd]. rewrite (library_found root _ F). split; reflexivity.
Qed.
Print Assumptions C110_legacy_partial.
Example C110_legacy_concrete : In ("damage_DB_Hazus_EQ_story", "Hazus Earthquake - Stories") legacy_names /\ method_folder "Hazus Earthquake - Stories" "seismic/building/subassembly/Hazus v5.1" /\
  substitute_path "/opt" "PelicunDefault/damage_DB_Hazus_EQ_story.csv" = substitute_path "/opt" "PelicunDefault/Hazus Earthquake - Stories/fragility.csv".
Proof. split; [right; right; now left|]. split; [right; right; now left|reflexivity]. Qed.
(** Two of these names stand for methods that the library does not have, and of the four beginnings
    that are recognised two have no names. *)
Theorem C110_legacy_refuted :
  (forall name, In name ["damage_DB_Hazus_EQ_water"; "damage_DB_Hazus_EQ_power"] -> is_legacy_name name /\
     forall root extension, has_char "." extension = false -> has_char "/" extension = false -> substitute_path root ("PelicunDefault/" ++ name ++ "." ++ extension) = Err KeyError) /\
  (forall beginning rest root, In beginning ["fragility_DB"; "bldg_repair_DB"] -> has_char "/" rest = false ->
     substitute_path root ("PelicunDefault/" ++ beginning ++ rest) = Err KeyError).
Proof.
  split.
  - intros name Hn. assert (Hm : exists method, In (name, method) legacy_names /\ dget method resource_paths = None).
    { destruct Hn as [<-|[<-|[]]]; eexists; (split; [unfold legacy_names; repeat (try (left; reflexivity); right)|reflexivity]). }
    destruct Hm as (method & Hm & Hno). split; [now exists method|]. intros root extension He Hs.
    assert (Hf : file_name (name ++ "." ++ extension)). { destruct Hn as [<-|[<-|[]]]; (split; [exact Hs|split; discriminate]). }
    rewrite (@legacy_path root (name ++ "." ++ extension) Hf), (@legacy_file_name name method extension Hm He). cbn [bind fst snd]. unfold library_file. now rewrite Hno.
  - intros beginning rest root Hb Hr. assert (Hf : file_name (beginning ++ rest)) by (destruct Hb as [<-|[<-|[]]]; (split; [exact Hr|split; discriminate])).
    rewrite (@legacy_path root (beginning ++ rest) Hf). unfold legacy_file.
    match goal with |- context [if ?b then _ else _] => destruct b end; [|reflexivity].
    destruct (dget (hd "" (split_on "." (beginning ++ rest))) legacy_names) as [method|] eqn:E; [|reflexivity]. exfalso. apply dget_listed in E.
    assert (P : String.prefix beginning (hd "" (split_on "." (beginning ++ rest))) = true).
    { assert (G : forall b r, has_char "." b = false -> String.prefix b (hd "" (split_on "." (b ++ r))) = true).
      { induction b as [|x b IH]; intros r Hc; [apply prefix_nil|]. cbn in Hc. apply orb_false_iff in Hc as [Hx Hc]. cbn [append split_on]. rewrite Hx. specialize (IH r Hc).
        destruct (split_on "." (b ++ r)) as [|w ws] eqn:Ew; [now apply split_on_nonempty in Ew|]. cbn [hd] in *. rewrite prefix_cons. destruct (Ascii.ascii_dec x x); [exact IH|easy]. }
      apply G. destruct Hb as [<-|[<-|[]]]; reflexivity. }
    revert E P. generalize (hd "" (split_on "." (beginning ++ rest))). intros w E P. cbn in E.
    destruct Hb as [<-|[<-|[]]]; repeat (destruct E as [E|E]; [injection E as <- _; discriminate P|]); destruct E.
Qed.
Print Assumptions C110_legacy_refuted.

(** ** Consequence databases *)

(** For the name of a method, the database that is loaded is the one that is returned. *)
Theorem C110_consequences : forall root is_file method folder, method_folder method folder ->
  consequence_source root is_file method =
    Ok (if is_file (in_library root folder "consequence_repair.csv") then [(in_library root folder "consequence_repair.csv", in_library root folder "consequence_repair.csv")]
        else if is_file (in_library root folder "loss_repair.csv") then [(in_library root folder "loss_repair.csv", in_library root folder "loss_repair.csv")] else []).
Proof.
  intros root is_file method folder F. unfold consequence_source, default_data.
  assert (L : is_legacy method = false). { unfold method_folder in F. cbn in F. repeat (destruct F as [F|F]; [injection F as <- _; reflexivity|]). destruct F. }
  rewrite L.
  assert (R : forall f, file_name f -> substitute_path root ("PelicunDefault/" ++ method ++ "/" ++ f) = Ok (in_library root folder f)) by (intros f Hf; exact (C110_methods root F Hf)).
  assert (N1 : file_name "consequence_repair.csv") by (repeat split; discriminate). assert (N2 : file_name "loss_repair.csv") by (repeat split; discriminate).
  assert (R1 : substitute_path root ("PelicunDefault/" ++ method ++ "/consequence_repair.csv") = Ok (in_library root folder "consequence_repair.csv")) by exact (R _ N1).
  assert (R2 : substitute_path root ("PelicunDefault/" ++ method ++ "/" ++ "consequence_repair" ++ "." ++ "csv") = Ok (in_library root folder "consequence_repair.csv")) by exact (R _ N1).
  assert (R3 : substitute_path root ("PelicunDefault/" ++ method ++ "/loss_repair.csv") = Ok (in_library root folder "loss_repair.csv")) by exact (R _ N2).
  assert (R4 : substitute_path root ("PelicunDefault/" ++ method ++ "/" ++ "loss_repair" ++ "." ++ "csv") = Ok (in_library root folder "loss_repair.csv")) by exact (R _ N2).
  rewrite R1, R2, R3, R4. cbn [bind]. destruct (is_file (in_library root folder "consequence_repair.csv")); [reflexivity|]. now destruct (is_file (in_library root folder "loss_repair.csv")).
Qed.
Print Assumptions C110_consequences.
Lemma under_file root name file : ends_with "csv" name = true \/ ends_with "CSV" name = true -> file_name file ->
  substitute_path root ("PelicunDefault/" ++ name ++ "/" ++ file) = Err KeyError.
Proof.
  intros Hn (Hf & F0 & F1). unfold substitute_path. rewrite (starts_prefix "PelicunDefault/").
  assert (P : exists w rest, rev (path_parts ("PelicunDefault/" ++ name ++ "/" ++ file)) = file :: w :: rest /\ (ends_with "csv" w = true \/ ends_with "CSV" w = true)).
  { unfold path_parts. change (starts_with "/" ("PelicunDefault/" ++ name ++ "/" ++ file)) with false. cbn [app].
    assert (S0 : split_on "/" ("PelicunDefault/" ++ name ++ "/" ++ file) = "PelicunDefault" :: split_on "/" name ++ [file]).
    { change ("PelicunDefault/" ++ name ++ "/" ++ file)%string with ("PelicunDefault" ++ String "/" (name ++ "/" ++ file))%string. rewrite (split_on_app "/" "PelicunDefault" _ eq_refl). f_equal.
      rewrite <- (join_split "/" name) at 1. pose proof (split_on_pieces "/" name) as Pn. destruct (split_on "/" name) as [|w ws] eqn:Ew; [now apply split_on_nonempty in Ew|]. clear Ew Hn.
      revert w Pn. induction ws as [|w' ws IH]; intros w Pn; inversion Pn as [|? ? P1 P2]; subst.
      - cbn [join String.concat]. change (w ++ "/" ++ file)%string with (w ++ String "/" file)%string. rewrite (split_on_app "/" w _ P1), (split_on_nochar _ _ Hf). reflexivity.
      - rewrite join_cons2, <- !str_assoc. change (w ++ "/" ++ (join "/" (w' :: ws) ++ "/" ++ file))%string with (w ++ String "/" (join "/" (w' :: ws) ++ "/" ++ file))%string.
        rewrite (split_on_app "/" w _ P1), (IH w' P2). reflexivity. }
    rewrite S0. destruct (@exists_last _ (split_on "/" name)) as (l & w & E); [apply split_on_nonempty|]. rewrite E.
    assert (W : ends_with "csv" w = true \/ ends_with "CSV" w = true).
    { assert (G : forall suffix, has_char "/" suffix = false -> ends_with suffix name = true -> ends_with suffix w = true).
      { intros suffix Hs En. apply ends_with_true in En as (t & ->). destruct (@exists_last _ (split_on "/" t)) as (lt & wt & Et); [apply split_on_nonempty|].
        assert (X : split_on "/" (t ++ suffix) = lt ++ [(wt ++ suffix)%string]).
        { rewrite <- (join_split "/" t), Et. pose proof (split_on_pieces "/" t) as Pt. rewrite Et in Pt. clear E Et. revert Pt. induction lt as [|a lt IH]; intros Pt; inversion Pt as [|? ? P1 P2]; subst.
          - cbn. apply split_on_nochar. rewrite has_char_app. now rewrite P1, Hs.
          - cbn [app]. destruct (lt ++ [wt]) as [|b r] eqn:El; [now destruct lt|]. rewrite join_cons2, <- !str_assoc. change (a ++ "/" ++ (join "/" (b :: r) ++ suffix))%string with (a ++ String "/" (join "/" (b :: r) ++ suffix))%string.
            rewrite (split_on_app "/" a _ P1). f_equal. now apply IH. }
        rewrite X in E. apply app_inj_tail in E as [_ <-]. apply ends_with_app. }
      destruct Hn as [Hn|Hn]; [left|right]; now apply G. }
    exists w. eexists. split; [|exact W]. cbn [filter mem existsb]. change (negb (String.eqb "PelicunDefault" "" || (String.eqb "PelicunDefault" "." || false))) with true. cbn iota.
    rewrite !filter_app. cbn [filter mem existsb]. apply String.eqb_neq in F0, F1. rewrite F0, F1.
    assert (W0 : String.eqb w "" = false /\ String.eqb w "." = false). { split; apply String.eqb_neq; intros ->; destruct W; discriminate. }
    destruct W0 as [-> ->]. cbn [orb negb]. cbn [rev]. rewrite !rev_app_distr. reflexivity. }
  destruct P as (w & rest & -> & W).
  assert (Wn : String.eqb w "PelicunDefault" = false) by (apply String.eqb_neq; intros ->; destruct W; discriminate). rewrite Wn. cbn [bind fst snd]. unfold library_file.
  destruct (dget w resource_paths) eqn:E; [|reflexivity]. exfalso. apply dget_listed in E. cbn in E. repeat (destruct E as [E|E]; [injection E as <- _; destruct W; discriminate|]). destruct E.
Qed.
(** A file name of an earlier version is never accepted for consequences, whatever files there are. *)
Theorem C110_consequences_refuted : forall root is_file name, is_legacy name = true ->
  (forall p, substitute_path root ("PelicunDefault/" ++ name) = Ok p -> consequence_source root is_file name = Err KeyError) /\
  (exists name method, In (name, method) legacy_names /\ is_legacy (name ++ ".csv") = true /\ exists p, substitute_path root ("PelicunDefault/" ++ name ++ ".csv") = Ok p).
Proof.
  intros root is_file name H. split.
  - intros p Hp. assert (Hn : ends_with "csv" name = true \/ ends_with "CSV" name = true) by (unfold is_legacy in H; now apply orb_prop in H).
    unfold consequence_source, default_data. rewrite H, Hp. cbn [bind].
    rewrite (@under_file root name ("consequence_repair" ++ "." ++ "csv") Hn) by (repeat split; discriminate).
    change ("PelicunDefault/" ++ name ++ "/loss_repair.csv")%string with ("PelicunDefault/" ++ name ++ "/" ++ "loss_repair.csv")%string.
    rewrite (@under_file root name "loss_repair.csv" Hn) by (repeat split; discriminate). now destruct (is_file p).
  - exists "loss_repair_DB_FEMA_P58_2nd", "FEMA P-58". split; [unfold legacy_names; repeat (try (left; reflexivity); right)|]. split; [reflexivity|]. eexists. reflexivity.
Qed.
Print Assumptions C110_consequences_refuted.

(** ** Component databases *)

(** For the name of a method, the fragilities of the method are loaded if the library has them; a file
    name of an earlier version loads the file of its method. *)
Theorem C110_components : forall root is_file method folder, method_folder method folder ->
  component_source root is_file method = Ok (if is_file (in_library root folder "fragility.csv") then [in_library root folder "fragility.csv"] else []) /\
  forall name, In (name, method) legacy_names ->
    component_source root is_file (name ++ ".csv") =
      Ok (if is_file (in_library root folder (legacy_kind name ++ ".csv")) then [in_library root folder (legacy_kind name ++ ".csv")] else []).
Proof.
  intros root is_file method folder F. split.
  - unfold component_source.
    assert (L : is_legacy method = false). { unfold method_folder in F. cbn in F. repeat (destruct F as [F|F]; [injection F as <- _; reflexivity|]). destruct F. }
    rewrite L. assert (N1 : file_name "fragility.csv") by (repeat split; discriminate).
    assert (R1 : substitute_path root ("PelicunDefault/" ++ method ++ "/fragility.csv") = Ok (in_library root folder "fragility.csv")) by exact (C110_methods root F N1).
    now rewrite R1.
  - intros name Hn. unfold component_source.
    assert (L : is_legacy (name ++ ".csv") = true). { unfold is_legacy. apply orb_true_iff. left. change (name ++ ".csv")%string with (name ++ ("." ++ "csv"))%string. rewrite str_assoc. apply ends_with_app. }
    rewrite L. change (name ++ ".csv")%string with (name ++ "." ++ "csv")%string. rewrite (proj1 (@C110_legacy_partial root name method folder "csv" Hn F eq_refl eq_refl)). reflexivity.
Qed.
Print Assumptions C110_components.
Example C110_components_concrete : component_source "/opt" (fun _ => true) "damage_DB_Hazus_EQ_story.csv" = component_source "/opt" (fun _ => true) "Hazus Earthquake - Stories".
Proof. reflexivity. Qed.
