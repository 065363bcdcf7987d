(** Proofs about the log files. *)
From Verif Require Import Prelude PreludeFacts M_Base S_Base P_Base M_Damage P_Text M_Log S_Log.
Set Implicit Arguments.
Local Open Scope string_scope.
Local Open Scope list_scope.

Lemma path_eqb_eq p q : path_eqb p q = true <-> p = q.
Proof.
  destruct p as [a b], q as [c d]. unfold path_eqb. cbn [fst snd]. rewrite andb_true_iff, !String.eqb_eq.
  split; [intros [-> ->]; reflexivity|intros [= -> ->]; auto].
Qed.
Lemma path_eqb_refl p : path_eqb p p = true. Proof. now apply path_eqb_eq. Qed.
Lemma path_eqb_neq p q : p <> q -> path_eqb p q = false.
Proof. intros H. destruct (path_eqb p q) eqn:E; [apply path_eqb_eq in E; easy|easy]. Qed.

Lemma indent_spaces ms : indent ms = spaces_of ms. Proof. now destruct ms. Qed.

(** ** Messages *)

Fixpoint lines_text (ms stamp blank : bool) (time : string) (first : bool) (lines : list string) : string :=
  match lines with
  | [] => ""
  | x :: tl => (String newline (formatted ms stamp blank time first x) ++ lines_text ms stamp blank time false tl)%string
  end.
Fixpoint lines_screen (ms stamp blank : bool) (time : string) (first : bool) (lines : list string) : string :=
  match lines with
  | [] => ""
  | x :: tl => (formatted ms stamp blank time first x ++ String newline (lines_screen ms stamp blank time false tl))%string
  end.

Definition rest_pad (ms stamp blank : bool) : string := if stamp || blank then spaces_of ms else "".
Fixpoint rest_text (pad : string) (tl : list string) : string :=
  match tl with [] => "" | y :: tl => (String newline (pad ++ y) ++ rest_text pad tl)%string end.

Lemma hanging_split pad : forall m x tl, split_on newline m = x :: tl -> hanging pad m = (x ++ rest_text pad tl)%string.
Proof.
  induction m as [|c m IH]; intros x tl H.
  - injection H as <- <-. reflexivity.
  - cbn [split_on] in H. cbn [hanging]. change (Ascii.eqb c "010"%char) with (Ascii.eqb c newline).
    destruct (split_on newline m) as [|y l] eqn:E; [now apply split_on_nonempty in E|].
    destruct (Ascii.eqb c newline) eqn:Ec.
    + apply Ascii.eqb_eq in Ec. subst c. rewrite ?Ascii.eqb_refl in H. injection H as <- <-.
      rewrite (IH _ _ eq_refl). cbn [append rest_text]. now rewrite string_app_assoc.
    + assert (H' : x = String c y /\ tl = l).
      { rewrite ?(Ascii.eqb_sym newline c), ?Ec in H. injection H as <- <-. auto. }
      destruct H' as [-> ->]. rewrite (IH _ _ eq_refl). reflexivity.
Qed.

Lemma lines_rest ms stamp blank time : forall tl,
  lines_text ms stamp blank time false tl = rest_text (rest_pad ms stamp blank) tl.
Proof.
  induction tl as [|y tl IH]; [reflexivity|]. cbn [lines_text rest_text]. rewrite IH.
  unfold formatted, rest_pad. rewrite andb_false_r. now destruct (stamp || blank).
Qed.

Definition entry_of (stamp blank : bool) (time m : string) : entry :=
  {| e_stamp := stamp; e_blank := blank; e_time := time; e_text := m |}.

Lemma lines_entry ms stamp blank time m :
  lines_text ms stamp blank time true (split_on newline m) = String newline (entry_text ms (entry_of stamp blank time m)).
Proof.
  destruct (split_on newline m) as [|x tl] eqn:E; [now apply split_on_nonempty in E|].
  cbn [lines_text]. rewrite lines_rest. cbn [append]. f_equal. unfold entry_text, first_part, rest_part, entry_of.
  cbn [e_stamp e_blank e_time e_text]. rewrite !indent_spaces. rewrite (hanging_split _ _ E).
  unfold formatted, rest_pad. destruct stamp; cbn [andb orb]; [now rewrite !string_app_assoc|].
  destruct blank; cbn [orb]; [now rewrite !string_app_assoc|reflexivity].
Qed.

Lemma lines_screen_entry ms stamp blank time : forall lines first, lines <> [] ->
  String newline (lines_screen ms stamp blank time first lines) = (lines_text ms stamp blank time first lines ++ String newline "")%string.
Proof.
  induction lines as [|x tl IH]; intros first H; [easy|]. cbn [lines_screen lines_text]. cbn [append]. f_equal.
  rewrite <- string_app_assoc. f_equal. destruct tl as [|y tl]; [reflexivity|]. apply IH. easy.
Qed.

Lemma put_line_logs l t w : logs (put_line l t w) = logs w. Proof. reflexivity. Qed.
Lemma put_lines_logs l stamp blank time : forall lines first w, logs (put_lines l stamp blank time first lines w) = logs w.
Proof. induction lines as [|x tl IH]; intros first w; [reflexivity|]. cbn [put_lines]. now rewrite IH. Qed.

Lemma append_to_same p s d c : d p = Some c -> append_to p s d p = Some (c ++ s)%string.
Proof. intros H. unfold append_to. now rewrite path_eqb_refl, H. Qed.
Lemma append_to_other p q s d : p <> q -> append_to q s d p = d p.
Proof. intros H. unfold append_to. now rewrite path_eqb_neq. Qed.

Lemma put_lines_same l p stamp blank time : log_path l = Some p -> forall lines first w c, files w p = Some c ->
  files (put_lines l stamp blank time first lines w) p = Some (c ++ lines_text (show_ms l) stamp blank time first lines)%string.
Proof.
  intros Hl. induction lines as [|x tl IH]; intros first w c Hc.
  - cbn [put_lines lines_text]. now rewrite string_app_nil.
  - cbn [put_lines lines_text]. erewrite IH.
    2:{ cbn [put_line files]. rewrite Hl. apply append_to_same. exact Hc. }
    now rewrite string_app_assoc.
Qed.
Lemma put_lines_other l p stamp blank time : log_path l <> Some p -> forall lines first w,
  files (put_lines l stamp blank time first lines w) p = files w p.
Proof.
  intros Hl. induction lines as [|x tl IH]; intros first w; [reflexivity|]. cbn [put_lines]. rewrite IH.
  cbn [put_line files]. destruct (log_path l) as [q|]; [|reflexivity]. apply append_to_other. congruence.
Qed.

Lemma put_lines_screen l stamp blank time : forall lines first w,
  screen (put_lines l stamp blank time first lines w) =
  if print_log l then (screen w ++ lines_screen (show_ms l) stamp blank time first lines)%string else screen w.
Proof.
  induction lines as [|x tl IH]; intros first w.
  - cbn [put_lines lines_screen]. rewrite string_app_nil. now destruct (print_log l).
  - cbn [put_lines lines_screen]. rewrite IH. cbn [put_line screen]. destruct (print_log l); [|reflexivity].
    rewrite !string_app_assoc. rewrite <- (string_app_assoc _ (String newline "")). reflexivity.
Qed.

Lemma msg_logs l stamp blank time m w : logs (msg l stamp blank time m w) = logs w.
Proof. apply put_lines_logs. Qed.
Lemma msg_same l p stamp blank time m w c : log_path l = Some p -> files w p = Some c ->
  files (msg l stamp blank time m w) p = Some (c ++ log_text (show_ms l) [entry_of stamp blank time m])%string.
Proof.
  intros Hl Hc. unfold msg. rewrite (put_lines_same _ stamp blank time Hl _ true w Hc), lines_entry. cbn [log_text].
  now rewrite string_app_nil.
Qed.
Lemma msg_other l p stamp blank time m w : log_path l <> Some p -> files (msg l stamp blank time m w) p = files w p.
Proof. intros H. now apply put_lines_other. Qed.

Lemma tell_all_logs times m : forall ls k w, logs (tell_all times k ls m w) = logs w.
Proof. induction ls as [|l tl IH]; intros k w; [reflexivity|]. cbn [tell_all]. now rewrite IH, msg_logs. Qed.

Lemma tell_all_other times m p : forall ls k w, (forall l, In l ls -> log_path l <> Some p) ->
  files (tell_all times k ls m w) p = files w p.
Proof.
  induction ls as [|l tl IH]; intros k w H; [reflexivity|]. cbn [tell_all]. rewrite IH by (intros; apply H; now right).
  apply msg_other. apply H. now left.
Qed.

Lemma tell_all_same times m p l : forall ls k j w c, nth_error ls k = Some l -> log_path l = Some p ->
  (forall i l', nth_error ls i = Some l' -> i <> k -> log_path l' <> Some p) -> files w p = Some c ->
  files (tell_all times j ls m w) p = Some (c ++ log_text (show_ms l) [entry_of true true (times (j + k)%nat) m])%string.
Proof.
  induction ls as [|l0 tl IH]; intros k j w c Hk Hl Hpriv Hc; [destruct k; discriminate|].
  destruct k as [|k].
  - injection Hk as ->. cbn [tell_all]. rewrite tell_all_other.
    + rewrite (msg_same _ true true (times j) m w Hl Hc). now rewrite Nat.add_0_r.
    + intros l' Hin. apply In_nth_error in Hin as [i Hi]. apply (Hpriv (S i) l'); [exact Hi|easy].
  - cbn [tell_all]. cbn [nth_error] in Hk.
    rewrite (IH k (S j) (msg l0 true true (times j) m w) c Hk Hl).
    + now rewrite Nat.add_succ_r.
    + intros i l' Hi Hn. apply (Hpriv (S i) l'); [exact Hi|lia].
    + rewrite msg_other; [exact Hc|]. apply (Hpriv 0%nat l0); [reflexivity|easy].
Qed.

(** ** Histories *)

Definition creates (es : list event) : nat :=
  List.length (filter (fun e => match e with Create _ _ _ => true | _ => false end) es).

Lemma told_app k : forall es es' n, told k n (es ++ es') = told k n es ++ told k (n + creates es) es'.
Proof.
  induction es as [|e es IH]; intros es' n.
  - cbn. now rewrite Nat.add_0_r.
  - destruct e; cbn [app told]; unfold creates; cbn [filter List.length]; fold (creates es).
    + rewrite IH. now rewrite Nat.add_succ_r.
    + destruct (_ && _); cbn [app]; now rewrite IH.
    + apply IH.
    + destruct (Nat.ltb k n); cbn [app]; now rewrite IH.
Qed.
Lemma told_none k : forall es n, (n + creates es <= k)%nat -> told k n es = [].
Proof.
  induction es as [|e es IH]; intros n H; [reflexivity|].
  destruct e; unfold creates in H; cbn [filter List.length] in H; fold (creates es) in H; cbn [told].
  - apply IH. lia.
  - replace (Nat.ltb k n) with false by (symmetry; apply Nat.ltb_ge; lia). rewrite andb_false_r. apply IH. lia.
  - apply IH. lia.
  - replace (Nat.ltb k n) with false by (symmetry; apply Nat.ltb_ge; lia). apply IH. lia.
Qed.
Lemma requests_app k : forall es es' n, warn_requests k n (es ++ es') = warn_requests k n es ++ warn_requests k (n + creates es) es'.
Proof.
  induction es as [|e es IH]; intros es' n.
  - cbn. now rewrite Nat.add_0_r.
  - destruct e; cbn [app warn_requests]; unfold creates; cbn [filter List.length]; fold (creates es).
    + rewrite IH. now rewrite Nat.add_succ_r.
    + apply IH.
    + destruct (_ && _); cbn [app]; now rewrite IH.
    + apply IH.
Qed.
Lemma requests_none k : forall es n, (n + creates es <= k)%nat -> warn_requests k n es = [].
Proof.
  induction es as [|e es IH]; intros n H; [reflexivity|].
  destruct e; unfold creates in H; cbn [filter List.length] in H; fold (creates es) in H; cbn [warn_requests].
  - apply IH. lia.
  - apply IH. lia.
  - replace (Nat.ltb k n) with false by (symmetry; apply Nat.ltb_ge; lia). rewrite andb_false_r. apply IH. lia.
  - apply IH. lia.
Qed.

Lemma log_text_app ms : forall a b, log_text ms (a ++ b) = (log_text ms a ++ log_text ms b)%string.
Proof. induction a as [|e a IH]; intros b; [reflexivity|]. cbn [app log_text append]. now rewrite IH, string_app_assoc. Qed.

Lemma change_at_length {A} (f : A -> A) : forall l k, List.length (change_at k f l) = List.length l.
Proof. induction l as [|x l IH]; intros [|k]; cbn; auto. Qed.
Lemma change_at_nth {A} (f : A -> A) : forall l k j,
  nth_error (change_at k f l) j = if Nat.eqb j k then option_map f (nth_error l j) else nth_error l j.
Proof.
  induction l as [|x l IH]; intros k j.
  - destruct k, j; cbn; try reflexivity. now destruct (Nat.eqb j k).
  - destruct k as [|k], j as [|j]; cbn; try reflexivity. apply IH.
Qed.

Section Hist.
  Variable resolve : path -> path.
  Variable d0 : disk.
  Notation hist := (history resolve d0).

  Lemma hist_app es e : hist (es ++ [e]) = happen resolve (hist es) e.
  Proof. unfold history. now rewrite fold_left_app. Qed.

  Lemma hist_length es : List.length (logs (hist es)) = creates es.
  Proof.
    induction es as [|e es IH] using rev_ind; [reflexivity|].
    rewrite hist_app. unfold creates. rewrite filter_app, app_length. fold (creates es). rewrite <- IH.
    destruct e as [p ms pr|k st bl t m|k o|t m]; cbn [happen filter List.length].
    - unfold create. destruct p; cbn [logs]; now rewrite app_length.
    - destruct (nth_error _ k); rewrite ?msg_logs; lia.
    - unfold warn_op. destruct (nth_error _ k); cbn [logs]; rewrite ?change_at_length; lia.
    - rewrite tell_all_logs. lia.
  Qed.

  (** The files and the settings of a logger stay as they are. *)
  Definition same_but_warned (l l' : log) : Prop :=
    log_path l = log_path l' /\ warning_path l = warning_path l' /\ show_ms l = show_ms l' /\ print_log l = print_log l'.

  Lemma happen_keeps w e k l : nth_error (logs w) k = Some l ->
    exists l', nth_error (logs (happen resolve w e)) k = Some l' /\ same_but_warned l l'.
  Proof.
    intros H. destruct e as [p ms pr|i st bl t m|i o|t m]; cbn [happen].
    - exists l. split; [|repeat split]. unfold create. destruct p; cbn [logs]; rewrite nth_error_app1; auto; apply nth_error_Some; congruence.
    - exists l. split; [|repeat split]. destruct (nth_error (logs w) i); [rewrite msg_logs|]; exact H.
    - unfold warn_op. destruct (nth_error (logs w) i) eqn:E; cbn [logs]; [|exists l; repeat split; exact H].
      rewrite change_at_nth. destruct (Nat.eqb k i); rewrite H; cbn [option_map]; eexists; (split; [reflexivity|repeat split]).
    - exists l. split; [|repeat split]. now rewrite tell_all_logs.
  Qed.

  Lemma write_warnings_other l d p : warning_path l <> Some p -> write_warnings l d p = d p.
  Proof.
    intros H. unfold write_warnings. destruct (warning_path l) as [q|]; [|reflexivity].
    assert (N : p <> q) by congruence. generalize (stack (warned l)) as ms. intros ms. revert d.
    induction ms as [|m ms IH]; intros d; [reflexivity|]. cbn [fold_left]. rewrite IH.
    destruct (mem m _); [reflexivity|]. now apply append_to_other.
  Qed.

  Lemma overwrite_same p s d : overwrite p s d p = Some s.
  Proof. unfold overwrite. now rewrite path_eqb_refl. Qed.
  Lemma overwrite_other p q s d : p <> q -> overwrite q s d p = d p.
  Proof. intros H. unfold overwrite. now rewrite path_eqb_neq. Qed.

  Lemma private_before es e k p : no_other_uses (logs (hist (es ++ [e]))) k p -> no_other_uses (logs (hist es)) k p.
  Proof.
    intros H j l Hj Hn. rewrite hist_app in H. destruct (happen_keeps _ e _ Hj) as (l' & Hl' & (E1 & E2 & _)).
    rewrite E1, E2. now apply (H j).
  Qed.

  Lemma keep_back es e k l : nth_error (logs (hist (es ++ [e]))) k = Some l ->
    (exists l0, nth_error (logs (hist es)) k = Some l0 /\ same_but_warned l0 l) \/
    (k = creates es /\ exists p ms pr, e = Create p ms pr /\
       l = {| log_path := option_map resolve p; warning_path := option_map (warnings_for resolve) p; show_ms := ms; print_log := pr; warned := logger_init |}).
  Proof.
    intros H. destruct (Nat.lt_ge_cases k (creates es)) as [Hk|Hk].
    - left. rewrite <- hist_length in Hk. destruct (nth_error (logs (hist es)) k) as [l0|] eqn:E; [|apply nth_error_None in E; lia].
      exists l0. split; [reflexivity|]. destruct (happen_keeps _ e _ E) as (l' & Hl' & Hs). rewrite <- hist_app in Hl'. congruence.
    - right. assert (Hlen : (k < List.length (logs (hist (es ++ [e]))))%nat) by (apply nth_error_Some; congruence).
      rewrite hist_length in Hlen. unfold creates in Hlen. rewrite filter_app, app_length in Hlen. fold (creates es) in Hlen.
      destruct e as [p ms pr|i st bl t m|i o|t m]; cbn [filter List.length] in Hlen; try lia.
      assert (k = creates es) by lia. subst k. split; [reflexivity|]. exists p, ms, pr. split; [reflexivity|].
      rewrite hist_app in H. cbn [happen] in H. unfold create in H.
      destruct p as [p|]; cbn [logs] in H; rewrite nth_error_app2 in H by (rewrite hist_length; lia);
        rewrite hist_length, Nat.sub_diag in H; cbn in H; now injection H as <-.
  Qed.

  (** The log file. *)
  Lemma log_content es : forall k l p, nth_error (logs (hist es)) k = Some l -> log_path l = Some p ->
    warning_path l <> Some p -> no_other_uses (logs (hist es)) k p ->
    files (hist es) p = Some (log_text (show_ms l) (told k 0 es)).
  Proof.
    induction es as [|e es IH] using rev_ind; intros k l p Hk Hp Hw Hpriv; [destruct k; discriminate|].
    destruct (keep_back _ _ _ Hk) as [(l0 & H0 & (E1 & E2 & E3 & E4))|(-> & p0 & ms & pr & -> & ->)].
    2:{ rewrite told_app, (@told_none _ es 0%nat) by lia. cbn [app told log_text]. rewrite hist_app. cbn [happen create log_path warning_path] in *.
        destruct p0 as [p0|]; [|discriminate]. injection Hp as <-. cbn [create files option_map] in *.
        rewrite overwrite_other by congruence. apply overwrite_same. }
    specialize (IH k l0 p H0 (eq_trans E1 Hp) ltac:(congruence) (private_before _ _ Hpriv)).
    assert (Hkn : (k < creates es)%nat) by (rewrite <- hist_length; apply nth_error_Some; congruence).
    assert (Hlt : Nat.ltb k (0 + creates es) = true) by (apply Nat.ltb_lt; exact Hkn).
    rewrite told_app, log_text_app. rewrite <- E3 in *. pose proof Hpriv as Hpriv0. rewrite hist_app in Hpriv |- *.
    destruct e as [p0 ms pr|i st bl t m|i o|t m]; cbn [happen told].
    - rewrite string_app_nil. assert (N : log_path l0 = Some p) by congruence.
      assert (Q : nth_error (logs (happen resolve (hist es) (Create p0 ms pr))) (creates es) =
        Some {| log_path := option_map resolve p0; warning_path := option_map (warnings_for resolve) p0; show_ms := ms; print_log := pr; warned := logger_init |}).
      { cbn [happen]. unfold create. destruct p0; cbn [logs]; rewrite nth_error_app2 by (rewrite hist_length; lia); now rewrite hist_length, Nat.sub_diag. }
      destruct (Hpriv _ _ Q ltac:(lia)) as [A B]. unfold create. destruct p0 as [p0|]; cbn [files option_map log_path warning_path] in *; [|exact IH].
      rewrite !overwrite_other by congruence. exact IH.
    - rewrite Hlt, andb_true_r. destruct (Nat.eqb i k) eqn:Ei.
      + apply Nat.eqb_eq in Ei. subst i. rewrite H0. apply msg_same; [congruence|exact IH].
      + apply Nat.eqb_neq in Ei. cbn [log_text]. rewrite string_app_nil. destruct (nth_error (logs (hist es)) i) as [l1|] eqn:E; [|exact IH].
        rewrite msg_other; [exact IH|]. exact (proj1 (private_before _ _ Hpriv0 E Ei)).
    - cbn [log_text]. rewrite string_app_nil. unfold warn_op. destruct (nth_error (logs (hist es)) i) as [l1|] eqn:E; [|exact IH].
      cbn [files]. assert (W : warning_path l1 <> Some p).
      { destruct (Nat.eq_dec i k) as [-> |Hn]; [congruence|]. exact (proj2 (private_before _ _ Hpriv0 E Hn)). }
      destruct o; [exact IH| |]; rewrite write_warnings_other; auto.
    - rewrite Hlt. erewrite tell_all_same; [reflexivity|exact H0|congruence| |exact IH].
      intros j l' Hj Hn. exact (proj1 (private_before _ _ Hpriv0 Hj Hn)).
  Qed.

  (** The warnings of a logger are those of [M_Base]. *)
  Lemma warned_state es : forall k l, nth_error (logs (hist es)) k = Some l ->
    warned l = log_run (spaces_of (show_ms l)) red reset (warn_requests k 0 es).
  Proof.
    induction es as [|e es IH] using rev_ind; intros k l Hk; [destruct k; discriminate|].
    destruct (keep_back _ _ _ Hk) as [(l0 & H0 & (E1 & E2 & E3 & E4))|(-> & p0 & ms & pr & -> & ->)].
    2:{ rewrite requests_app, (@requests_none _ es 0%nat) by lia. reflexivity. }
    assert (Hkn : (k < creates es)%nat) by (rewrite <- hist_length; apply nth_error_Some; congruence).
    assert (Hlt : Nat.ltb k (0 + creates es) = true) by (apply Nat.ltb_lt; exact Hkn).
    specialize (IH k l0 H0). rewrite requests_app. unfold log_run in *. rewrite fold_left_app. rewrite <- E3, <- IH.
    rewrite hist_app in Hk. destruct e as [p0 ms pr|i st bl t m|i o|t m]; cbn [happen warn_requests fold_left] in *.
    - assert (N : nth_error (logs (create resolve p0 ms pr (hist es))) k = Some l0).
      { unfold create. destruct p0; cbn [logs]; rewrite nth_error_app1; auto; rewrite hist_length; lia. }
      congruence.
    - destruct (nth_error (logs (hist es)) i); rewrite ?msg_logs in Hk; congruence.
    - unfold warn_op in Hk. rewrite Hlt, andb_true_r. destruct (nth_error (logs (hist es)) i) as [l1|] eqn:E.
      + cbn [logs] in Hk. rewrite change_at_nth in Hk. rewrite (Nat.eqb_sym i k). destruct (Nat.eqb k i) eqn:Ei.
        * apply Nat.eqb_eq in Ei. subst i. rewrite H0 in Hk, E. cbn [option_map] in Hk. injection E as <-. injection Hk as <-. reflexivity.
        * cbn [fold_left]. congruence.
      + destruct (Nat.eqb i k) eqn:Ei; [apply Nat.eqb_eq in Ei; congruence|]. cbn [fold_left]. congruence.
    - rewrite tell_all_logs in Hk. congruence.
  Qed.

  Definition cat (l : list string) : string := fold_right String.append "" l.
  Lemma cat_app a b : cat (a ++ b) = (cat a ++ cat b)%string.
  Proof. induction a as [|x a IH]; [reflexivity|]. cbn [app cat fold_right]. fold (cat (a ++ b)). fold (cat a). now rewrite IH, string_app_assoc. Qed.

  Lemma write_warnings_same l d p c : warning_path l = Some p -> d p = Some c ->
    write_warnings l d p =
    Some (c ++ cat (map (plain (show_ms l)) (filter (fun m => negb (mem m (emitted (warned l)))) (stack (warned l)))))%string.
  Proof.
    intros Hp. unfold write_warnings. rewrite Hp. generalize (stack (warned l)) as ms. intros ms. revert d c.
    induction ms as [|m ms IH]; intros d c Hc.
    - cbn. now rewrite string_app_nil.
    - cbn [fold_left filter]. destruct (mem m (emitted (warned l))); cbn [negb]; [now apply IH|].
      cbn [map cat fold_right]. fold (cat (map (plain (show_ms l)) (filter (fun m => negb (mem m (emitted (warned l)))) ms))).
      erewrite IH by (apply append_to_same; exact Hc). now rewrite string_app_assoc.
  Qed.

  (** The file with the warnings. *)
  Lemma warning_content es : forall k l p, nth_error (logs (hist es)) k = Some l -> warning_path l = Some p ->
    log_path l <> Some p -> no_other_uses (logs (hist es)) k p ->
    files (hist es) p = Some (cat (map (plain (show_ms l)) (printed (warned l)))).
  Proof.
    induction es as [|e es IH] using rev_ind; intros k l p Hk Hp Hw Hpriv; [destruct k; discriminate|].
    pose proof (warned_state _ _ Hk) as W1.
    destruct (keep_back _ _ _ Hk) as [(l0 & H0 & (E1 & E2 & E3 & E4))|(-> & p0 & ms & pr & -> & ->)].
    2:{ cbn [warned printed logger_init map cat fold_right]. rewrite hist_app. cbn [happen log_path warning_path] in *.
        destruct p0 as [p0|]; [|discriminate]. injection Hp as <-. cbn [create files option_map] in *. apply overwrite_same. }
    specialize (IH k l0 p H0 (eq_trans E2 Hp) ltac:(congruence) (private_before _ _ Hpriv)).
    pose proof (warned_state _ _ H0) as W0.
    assert (Hkn : (k < creates es)%nat) by (rewrite <- hist_length; apply nth_error_Some; congruence).
    assert (Hlt : Nat.ltb k (0 + creates es) = true) by (apply Nat.ltb_lt; exact Hkn).
    rewrite requests_app in W1. unfold log_run in W1. rewrite fold_left_app in W1. fold (log_run (spaces_of (show_ms l)) red reset (warn_requests k 0 es)) in W1.
    rewrite <- E3 in *. rewrite <- W0 in W1. rewrite W1.
    pose proof Hpriv as Hpriv0. rewrite hist_app in Hpriv |- *.
    destruct e as [p0 ms pr|i st bl t m|i o|t m]; cbn [happen warn_requests fold_left].
    - assert (Q : nth_error (logs (happen resolve (hist es) (Create p0 ms pr))) (creates es) =
        Some {| log_path := option_map resolve p0; warning_path := option_map (warnings_for resolve) p0; show_ms := ms; print_log := pr; warned := logger_init |}).
      { cbn [happen]. unfold create. destruct p0; cbn [logs]; rewrite nth_error_app2 by (rewrite hist_length; lia); now rewrite hist_length, Nat.sub_diag. }
      destruct (Hpriv _ _ Q ltac:(lia)) as [A B]. unfold create. destruct p0 as [p0|]; cbn [files option_map log_path warning_path] in *; [|exact IH].
      rewrite !overwrite_other by congruence. exact IH.
    - destruct (nth_error (logs (hist es)) i) as [l1|] eqn:E; [|exact IH].
      rewrite msg_other; [exact IH|]. destruct (Nat.eq_dec i k) as [-> |Hn]; [congruence|]. exact (proj1 (private_before _ _ Hpriv0 E Hn)).
    - rewrite Hlt, andb_true_r. unfold warn_op. destruct (nth_error (logs (hist es)) i) as [l1|] eqn:E.
      + cbn [files]. destruct (Nat.eqb i k) eqn:Ei.
        * apply Nat.eqb_eq in Ei. subst i. rewrite H0 in E. injection E as <-.
          assert (EW : warning_path l0 = Some p) by congruence. destruct o as [m| |m]; cbn [fold_left].
          -- cbn [log_step]. unfold add_formatted. destruct (mem _ _); exact IH.
          -- erewrite write_warnings_same by (exact EW || exact IH). cbn [log_step emit_warnings printed]. now rewrite map_app, cat_app.
          -- erewrite write_warnings_same by (exact EW || exact IH). unfold set_warned. cbn [show_ms warned]. cbn [log_step emit_warnings printed].
             rewrite map_app, cat_app. unfold add_formatted. destruct (mem _ _); reflexivity.
        * apply Nat.eqb_neq in Ei. cbn [fold_left]. assert (W : warning_path l1 <> Some p) by exact (proj2 (private_before _ _ Hpriv0 E Ei)).
          destruct o as [m| |m]; [exact IH| |]; rewrite write_warnings_other; auto.
      + destruct (Nat.eqb i k) eqn:Ei; [apply Nat.eqb_eq in Ei; congruence|]. exact IH.
    - rewrite tell_all_other; [exact IH|]. intros l1 Hin. apply In_nth_error in Hin as [j Hj].
      destruct (Nat.eq_dec j k) as [-> |Hn]; [congruence|]. exact (proj1 (private_before _ _ Hpriv0 Hj Hn)).
  Qed.
End Hist.

(** ** The text of a warning *)

Lemma remove_fuel p : p <> "" -> forall n s f, (String.length s <= n)%nat -> (n <= f)%nat -> str_remove_fuel f p s = str_remove_fuel n p s.
Proof.
  intros Hp. induction n as [|n IH]; intros s f H1 H2.
  - destruct s; [|cbn in H1; lia]. now destruct f.
  - destruct f as [|f]; [lia|]. destruct s as [|a s]; [reflexivity|]. cbn [str_remove_fuel]. cbn [String.length] in H1.
    destruct (String.prefix p (String a s)) eqn:E; [|f_equal; apply IH; lia].
    apply IH; [|lia]. destruct p as [|b p]; [easy|]. cbn [String.length str_drop].
    assert (L : forall k t, (String.length (str_drop k t) <= String.length t)%nat).
    { induction k as [|k IHk]; intros [|c t]; cbn; try lia. specialize (IHk t). lia. }
    specialize (L (String.length p) s). lia.
Qed.

Lemma remove_hit p v : p <> "" -> str_remove p (p ++ v) = str_remove p v.
Proof.
  intros Hp. unfold str_remove. destruct p as [|b p]; [easy|]. cbn [append String.length str_remove_fuel].
  assert (E : String.prefix (String b p) (String b (p ++ v)) = true) by (apply prefix_true; now exists v).
  rewrite E. cbn [str_drop].
  assert (D : forall q t, str_drop (String.length q) (q ++ t) = t) by (induction q; intros t; cbn; auto).
  rewrite D. rewrite (@remove_fuel (String b p) Hp (String.length v) v); auto.
  assert (L : forall q t, String.length (q ++ t) = (String.length q + String.length t)%nat) by (induction q; intros t; cbn; auto).
  rewrite L. lia.
Qed.
Lemma remove_miss p a v : p <> "" -> String.prefix p (String a v) = false -> str_remove p (String a v) = String a (str_remove p v).
Proof. intros Hp H. unfold str_remove. cbn [String.length str_remove_fuel]. now rewrite H. Qed.

(** A text without the first character of what is removed stays. *)
Lemma remove_pass a p : forall u v, has_char a u = false -> str_remove (String a p) (u ++ v) = (u ++ str_remove (String a p) v)%string.
Proof.
  induction u as [|c u IH]; intros v H; [reflexivity|]. cbn [has_char] in H. apply orb_false_iff in H as [Hc Hu]. cbn [append].
  rewrite remove_miss; [now rewrite IH|easy|]. cbn [String.prefix]. destruct (ascii_dec a c) as [-> |]; [now rewrite Ascii.eqb_refl in Hc|reflexivity].
Qed.

(** So does a text that does not contain it, before a character that is not part of it. *)
Lemma remove_inside p b v : p <> "" -> has_char b p = false -> forall u, (~ exists x y, u = (x ++ p ++ y)%string) ->
  str_remove p (u ++ String b v) = (u ++ String b (str_remove p v))%string.
Proof.
  intros Hp Hb.
  assert (P : forall q u, has_char b q = false -> String.prefix q (u ++ String b v) = true -> exists y, u = (q ++ y)%string).
  { induction q as [|c q IHq]; intros u Hq H; [now exists u|]. cbn [has_char] in Hq. apply orb_false_iff in Hq as [Hc Hq].
    destruct u as [|d u].
    - cbn in H. destruct (ascii_dec c b) as [-> |]; [now rewrite Ascii.eqb_refl in Hc|discriminate].
    - cbn in H. destruct (ascii_dec c d) as [-> |]; [|discriminate]. destruct (IHq u Hq H) as [y ->]. now exists y. }
  induction u as [|c u IH]; intros H; cbn [append].
  - apply remove_miss; [easy|]. destruct (String.prefix p (String b v)) eqn:E; [|reflexivity]. exfalso.
    destruct (P p "" Hb E) as [y Hy]. destruct p; [easy|discriminate].
  - rewrite remove_miss; [|easy|].
    + f_equal. apply IH. intros (x & y & ->). apply H. now exists (String c x), y.
    + destruct (String.prefix p (String c (u ++ String b v))) eqn:E; [|reflexivity]. exfalso.
      destruct (P p (String c u) Hb E) as [y Hy]. apply H. exists "", y. exact Hy.
Qed.

Lemma has_char_spaces c ms : c <> " "%char -> has_char c (spaces_of ms) = false.
Proof.
  intros H. assert (E : Ascii.eqb " "%char c = false) by (destruct (Ascii.eqb " "%char c) eqn:E; [apply Ascii.eqb_eq in E; congruence|reflexivity]).
  destruct ms; cbn [spaces_of has_char]; rewrite !E; reflexivity.
Qed.

Section Plain.
  Variable ms : bool.
  Notation sp := (spaces_of ms).
  Let nl := String newline "".

  Lemma concat_cat l : String.concat "" l = cat l.
  Proof.
    induction l as [|w l IH]; [reflexivity|]. destruct l as [|x l]; [cbn; now rewrite string_app_nil|].
    change (String.concat "" (w :: x :: l)) with (w ++ "" ++ String.concat "" (x :: l))%string. rewrite IH. reflexivity.
  Qed.

  Lemma step_red lines : Forall (fun w => has_char escape w = false) lines ->
    str_remove red (cat (map (fun line => sp ++ red ++ line ++ reset ++ nl)%string lines)) = cat (map (fun line => sp ++ line ++ reset ++ nl)%string lines).
  Proof.
    induction 1 as [|w l Hw Hl IH]; [reflexivity|]. cbn [map cat fold_right].
    fold (cat (map (fun line => sp ++ red ++ line ++ reset ++ nl)%string l)). fold (cat (map (fun line => sp ++ line ++ reset ++ nl)%string l)).
    rewrite <- IH. rewrite <- !string_app_assoc. unfold red at 1.
    rewrite remove_pass by (apply has_char_spaces; discriminate). fold red. rewrite remove_hit by discriminate.
    unfold red at 1. rewrite remove_pass by exact Hw. fold red. f_equal.
  Qed.

  Lemma step_reset lines : Forall (fun w => has_char escape w = false) lines ->
    str_remove reset (cat (map (fun line => sp ++ line ++ reset ++ nl)%string lines)) = cat (map (fun line => sp ++ line ++ nl)%string lines).
  Proof.
    induction 1 as [|w l Hw Hl IH]; [reflexivity|]. cbn [map cat fold_right].
    fold (cat (map (fun line => sp ++ line ++ reset ++ nl)%string l)). fold (cat (map (fun line => sp ++ line ++ nl)%string l)).
    rewrite <- IH. rewrite <- !string_app_assoc. unfold reset at 1.
    rewrite remove_pass by (apply has_char_spaces; discriminate). fold reset.
    unfold reset at 1. rewrite remove_pass by exact Hw. fold reset. f_equal. f_equal.
    rewrite remove_hit by discriminate. unfold reset at 1. rewrite remove_pass by reflexivity. reflexivity.
  Qed.

  Lemma step_spaces lines : Forall (fun w => ~ exists x y, w = (x ++ sp ++ y)%string) lines ->
    str_remove sp (cat (map (fun line => sp ++ line ++ nl)%string lines)) = cat (map (fun line => line ++ nl)%string lines).
  Proof.
    assert (Hsp : sp <> "") by now destruct ms.
    induction 1 as [|w l Hw Hl IH]; [now destruct ms|]. cbn [map cat fold_right].
    fold (cat (map (fun line => sp ++ line ++ nl)%string l)). fold (cat (map (fun line => line ++ nl)%string l)).
    rewrite <- IH. rewrite <- !string_app_assoc. rewrite remove_hit by exact Hsp. cbn [nl append]. unfold nl. cbn [append].
    apply remove_inside; [exact Hsp| |exact Hw]. apply has_char_spaces. discriminate.
  Qed.

  Lemma plain_text m : ordinary ms m -> plain ms (format_warning sp red reset m) = (String newline m ++ nl)%string.
  Proof.
    intros [He Hg]. unfold plain, format_warning. rewrite concat_cat.
    assert (F1 : Forall (fun w => has_char escape w = false) (split_on newline m)).
    { apply Forall_forall. intros w Hin. apply in_split in Hin as (a & b & E).
      assert (J := join_split newline m). rewrite E in J. clear E. rewrite <- J in He. clear J Hg. unfold join in He.
      assert (G : forall sep l1 l2, has_char escape (String.concat sep (l1 ++ w :: l2)) = false -> has_char escape w = false).
      { intros sep. induction l1 as [|x l1 IH]; intros l2 H.
        - cbn in H. destruct l2; [exact H|]. rewrite !has_char_app in H. now apply orb_false_iff in H as [H _].
        - apply (IH l2). cbn [app] in H. destruct (l1 ++ w :: l2) eqn:E; [now destruct l1|].
          change (String.concat sep (x :: s :: l)) with (x ++ sep ++ String.concat sep (s :: l))%string in H.
          rewrite !has_char_app in H. apply orb_false_iff in H as [_ H]. now apply orb_false_iff in H as [_ H]. }
      exact (G _ _ _ He). }
    assert (F2 : Forall (fun w => ~ exists x y, w = (x ++ sp ++ y)%string) (split_on newline m)).
    { apply Forall_forall. intros w Hin (x & y & ->). apply in_split in Hin as (a & b & E).
      assert (J := join_split newline m). rewrite E in J. clear E. apply Hg. unfold join in J.
      assert (G : forall sep w l1 l2, exists u v, String.concat sep (l1 ++ w :: l2) = (u ++ w ++ v)%string).
      { intros sep w. induction l1 as [|z l1 IH]; intros l2.
        - destruct l2 as [|s l2]; [exists "", ""; cbn; now rewrite string_app_nil|]. exists "", (sep ++ String.concat sep (s :: l2))%string. reflexivity.
        - destruct (IH l2) as (u & v & E). cbn [app]. destruct (l1 ++ w :: l2) eqn:E2; [now destruct l1|].
          change (String.concat sep (z :: s :: l)) with (z ++ sep ++ String.concat sep (s :: l))%string. rewrite E.
          exists (z ++ sep ++ u)%string, v. now rewrite !string_app_assoc. }
      destruct (G (String newline "") (x ++ sp ++ y)%string a b) as (u & v & EJ). exists (u ++ x)%string, (y ++ v)%string.
      transitivity (u ++ (x ++ sp ++ y) ++ v)%string; [congruence|]. change (indent ms) with sp. now rewrite !string_app_assoc. }
    change (String newline "" ++ cat (map (fun line => sp ++ red ++ line ++ reset ++ String newline "")%string (split_on newline m)))%string
      with (nl ++ cat (map (fun line => sp ++ red ++ line ++ reset ++ nl)%string (split_on newline m)))%string.
    unfold red at 1. rewrite remove_pass by reflexivity. fold red. rewrite step_red by exact F1.
    unfold reset at 1. rewrite remove_pass by reflexivity. fold reset. rewrite step_reset by exact F1.
    assert (R : forall v, str_remove sp (nl ++ v) = (nl ++ str_remove sp v)%string).
    { intros v. unfold nl. destruct ms; cbn [spaces_of]; now apply remove_pass. }
    rewrite R, step_spaces by exact F2. unfold nl at 1. cbn [append]. f_equal.
    clear. rewrite <- (join_split newline m) at 2. unfold join. generalize (split_on_nonempty newline m).
    generalize (split_on newline m) as l. induction l as [|w l IH]; intros H; [easy|].
    destruct l as [|x l]; [cbn; now rewrite string_app_nil|].
    change (String.concat (String newline "") (w :: x :: l)) with (w ++ nl ++ String.concat (String newline "") (x :: l))%string.
    rewrite <- !string_app_assoc. rewrite <- (IH ltac:(discriminate)). cbn [map cat fold_right]. now rewrite <- !string_app_assoc.
  Qed.
End Plain.

(** ** The warnings of a history *)

Section Order.
  Variable sp : string.
  Hypothesis Hsp : no_newline sp.
  Notation fmt := (format_warning sp red reset).
  Definition coming (s : logger) : list string := filter (fun m => negb (mem m (emitted s))) (stack s).

  Lemma fmt_in m l : In (fmt m) (map fmt l) <-> In m l.
  Proof.
    split; [|apply in_map]. intros H. apply in_map_iff in H as (x & E & Hx).
    apply (@format_inj sp red reset Hsp eq_refl eq_refl) in E. now subst.
  Qed.

  Lemma add_order ops s m : log_inv sp red reset ops s -> forall us, printed s ++ coming s = map fmt us ->
    printed (add_formatted (fmt m) s) ++ coming (add_formatted (fmt m) s) = map fmt (if in_dec string_dec m us then us else us ++ [m]).
  Proof.
    intros (H1 & H2 & H3 & H4) us E.
    assert (K : In m us <-> In (fmt m) (printed s) \/ In (fmt m) (stack s)).
    { rewrite <- fmt_in, <- E, in_app_iff. unfold coming. rewrite filter_In. split; [tauto|]. intros [H|H]; [tauto|].
      destruct (mem (fmt m) (emitted s)) eqn:Em; [left; apply H3; now apply mem_true|right; split; [exact H|reflexivity]]. }
    unfold add_formatted. destruct (mem (fmt m) (stack s)) eqn:Es.
    - apply mem_true in Es. destruct (in_dec string_dec m us) as [|N]; [exact E|]. exfalso. apply N, K. auto.
    - apply mem_false in Es. unfold coming in *. cbn [printed stack emitted]. rewrite filter_app. cbn [filter].
      destruct (mem (fmt m) (emitted s)) eqn:Em; cbn [negb].
      + apply mem_true, H3 in Em. rewrite app_nil_r. destruct (in_dec string_dec m us) as [|N]; [exact E|]. exfalso. apply N, K. auto.
      + apply mem_false in Em. destruct (in_dec string_dec m us) as [Y|N].
        * exfalso. apply K in Y as [Y|Y]; [apply H3 in Y|]; tauto.
        * rewrite map_app, app_assoc. now rewrite E.
  Qed.

  Lemma emit_order s : printed (emit_warnings s) ++ coming (emit_warnings s) = printed s ++ coming s.
  Proof. unfold emit_warnings, coming. cbn [printed stack emitted filter]. now rewrite app_nil_r. Qed.

  Lemma run_order ops : printed (log_run sp red reset ops) ++ coming (log_run sp red reset ops) = map fmt (first_added (all_added ops)).
  Proof.
    induction ops as [|o ops IH] using rev_ind; [reflexivity|]. rewrite log_run_snoc.
    destruct (log_run_inv sp red reset ops) as [I _]. unfold all_added, first_added in *. rewrite flat_map_app, fold_left_app.
    destruct o as [m| |m]; cbn [log_step flat_map added app fold_left].
    - now apply (add_order _ I).
    - rewrite emit_order. exact IH.
    - rewrite emit_order. now apply (add_order _ I).
  Qed.

  Lemma emitted_all ops o : (o = EmitWarnings \/ exists m, o = Warning m) -> coming (log_run sp red reset (ops ++ [o])) = [].
  Proof. intros H. rewrite log_run_snoc. destruct H as [-> |[m ->]]; reflexivity. Qed.

  Lemma printed_texts ops : exists ws pending, printed (log_run sp red reset ops) = map fmt ws /\
    coming (log_run sp red reset ops) = map fmt pending /\ ws ++ pending = first_added (all_added ops).
  Proof.
    assert (E := run_order ops). symmetry in E. apply map_eq_app in E as (ws & pending & E1 & E2 & E3). exists ws, pending. auto.
  Qed.
End Order.

Lemma first_added_in ms m : In m (first_added ms) -> In m ms.
Proof.
  unfold first_added. assert (G : forall l acc, In m (fold_left (fun acc m => if in_dec string_dec m acc then acc else acc ++ [m]) l acc) -> In m acc \/ In m l).
  { induction l as [|x l IH]; intros acc H; [auto|]. cbn [fold_left] in H. apply IH in H as [H|H]; [|right; now right].
    destruct (in_dec string_dec x acc); [auto|]. apply in_app_iff in H as [H|[-> |[]]]; [auto|right; now left]. }
  intros H. apply G in H as [[]|H]. exact H.
Qed.

Lemma cat_warnings ms : forall ws, (forall m, In m ws -> ordinary ms m) ->
  cat (map (plain ms) (map (format_warning (spaces_of ms) red reset) ws)) = warnings_text ws.
Proof.
  induction ws as [|m ws IH]; intros H; [reflexivity|]. cbn [map cat fold_right warnings_text].
  fold (cat (map (plain ms) (map (format_warning (spaces_of ms) red reset) ws))).
  rewrite IH by (intros; apply H; now right). rewrite plain_text by (apply H; now left). now rewrite <- string_app_assoc.
Qed.

(** ** The screen *)

Lemma screen_text_app ms : forall a b, screen_text ms (a ++ b) = (screen_text ms a ++ screen_text ms b)%string.
Proof.
  induction a as [|e a IH]; intros b; [reflexivity|]. cbn [app screen_text]. rewrite IH. rewrite <- string_app_assoc. reflexivity.
Qed.

Lemma msg_screen l stamp blank time m w :
  screen (msg l stamp blank time m w) = if print_log l then (screen w ++ screen_text (show_ms l) [entry_of stamp blank time m])%string else screen w.
Proof.
  unfold msg. rewrite put_lines_screen. destruct (print_log l); [|reflexivity]. f_equal. cbn [screen_text].
  assert (H := lines_screen_entry (show_ms l) stamp blank time true (@split_on_nonempty newline m)).
  rewrite lines_entry in H. cbn [append] in H. now injection H.
Qed.

Lemma tell_all_quiet times m : forall ls k w, (forall l, In l ls -> print_log l = false) -> screen (tell_all times k ls m w) = screen w.
Proof.
  induction ls as [|l tl IH]; intros k w H; [reflexivity|]. cbn [tell_all]. rewrite IH by (intros; apply H; now right).
  rewrite msg_screen, (H l) by now left. reflexivity.
Qed.
Lemma tell_all_screen times m l : forall ls k j w, nth_error ls k = Some l -> print_log l = true ->
  (forall i l', nth_error ls i = Some l' -> i <> k -> print_log l' = false) ->
  screen (tell_all times j ls m w) = (screen w ++ screen_text (show_ms l) [entry_of true true (times (j + k)%nat) m])%string.
Proof.
  induction ls as [|l0 tl IH]; intros k j w Hk Hl Hq; [destruct k; discriminate|].
  destruct k as [|k]; cbn [tell_all].
  - injection Hk as ->. rewrite tell_all_quiet.
    + rewrite msg_screen, Hl. now rewrite Nat.add_0_r.
    + intros l' Hin. apply In_nth_error in Hin as [i Hi]. apply (Hq (S i) l'); [exact Hi|easy].
  - rewrite (IH k (S j)); [|exact Hk|exact Hl|intros i l' Hi Hn; apply (Hq (S i) l'); [exact Hi|lia]].
    rewrite msg_screen, (Hq 0%nat l0) by easy. now rewrite Nat.add_succ_r.
Qed.

Section Screen.
  Variable resolve : path -> path.
  Variable d0 : disk.
  Notation hist := (history resolve d0).

  Lemma quiet_screen es : (forall l, In l (logs (hist es)) -> print_log l = false) -> screen (hist es) = "".
  Proof.
    induction es as [|e es IH] using rev_ind; intros H; [reflexivity|].
    assert (Hq : forall l, In l (logs (hist es)) -> print_log l = false).
    { intros l Hin. apply In_nth_error in Hin as [k Hk]. destruct (happen_keeps resolve _ e _ Hk) as (l' & Hl' & (_ & _ & _ & E)).
      rewrite E. apply H. rewrite hist_app. now apply nth_error_In in Hl'. }
    rewrite hist_app. specialize (IH Hq). destruct e as [p0 ms pr|i st bl t m|i o|t m]; cbn [happen].
    - unfold create. destruct p0; exact IH.
    - destruct (nth_error (logs (hist es)) i) eqn:E; [|exact IH]. rewrite msg_screen, Hq; [exact IH|]. now apply nth_error_In in E.
    - unfold warn_op. destruct (nth_error (logs (hist es)) i); exact IH.
    - now rewrite tell_all_quiet.
  Qed.

  Lemma screen_content es : forall k l, nth_error (logs (hist es)) k = Some l -> print_log l = true ->
    (forall j l', nth_error (logs (hist es)) j = Some l' -> j <> k -> print_log l' = false) ->
    screen (hist es) = screen_text (show_ms l) (told k 0 es).
  Proof.
    induction es as [|e es IH] using rev_ind; intros k l Hk Hp Hq; [destruct k; discriminate|].
    assert (Hq0 : forall j l', nth_error (logs (hist es)) j = Some l' -> j <> k -> print_log l' = false).
    { intros j l' Hj Hn. destruct (happen_keeps resolve _ e _ Hj) as (l2 & H2 & (_ & _ & _ & E)). rewrite E. rewrite <- hist_app in H2. exact (Hq j l2 H2 Hn). }
    destruct (keep_back _ _ _ _ _ Hk) as [(l0 & H0 & (E1 & E2 & E3 & E4))|(-> & p0 & ms & pr & -> & ->)].
    2:{ rewrite told_app, (@told_none _ es 0%nat) by lia. cbn [app told screen_text]. rewrite hist_app. cbn [happen].
        transitivity (screen (hist es)); [unfold create; now destruct p0|]. apply quiet_screen. intros l Hin.
        apply In_nth_error in Hin as [j Hj]. apply (Hq0 j l Hj). intros ->.
        assert ((creates es < List.length (logs (hist es)))%nat) by (apply nth_error_Some; congruence). rewrite hist_length in H. lia. }
    assert (P0 : print_log l0 = true) by congruence.
    specialize (IH k l0 H0 P0 Hq0).
    assert (Hkn : (k < creates es)%nat) by (rewrite <- (hist_length resolve d0); apply nth_error_Some; congruence).
    assert (Hlt : Nat.ltb k (0 + creates es) = true) by (apply Nat.ltb_lt; exact Hkn).
    rewrite told_app, screen_text_app. rewrite <- E3. rewrite hist_app.
    destruct e as [p0 ms pr|i st bl t m|i o|t m]; cbn [happen told].
    - rewrite string_app_nil. unfold create. now destruct p0.
    - rewrite Hlt, andb_true_r. destruct (Nat.eqb i k) eqn:Ei.
      + apply Nat.eqb_eq in Ei. subst i. rewrite H0, msg_screen, P0, IH. reflexivity.
      + apply Nat.eqb_neq in Ei. cbn [screen_text]. rewrite string_app_nil. destruct (nth_error (logs (hist es)) i) as [l1|] eqn:E; [|exact IH].
        rewrite msg_screen, (Hq0 i l1 E Ei). exact IH.
    - cbn [screen_text]. rewrite string_app_nil. unfold warn_op. destruct (nth_error (logs (hist es)) i); exact IH.
    - rewrite Hlt. rewrite (@tell_all_screen t _ l0 _ k 0%nat _ H0 P0 Hq0), IH. reflexivity.
  Qed.
End Screen.

(** ** Names *)

Lemma length_app a b : String.length (a ++ b) = (String.length a + String.length b)%nat.
Proof. induction a; cbn; auto. Qed.

Lemma concat_last sep x : forall l, l <> [] -> String.concat sep (l ++ [x]) = (String.concat sep l ++ sep ++ x)%string.
Proof.
  induction l as [|y l IH]; intros H; [easy|]. destruct l as [|z l]; [reflexivity|].
  change ((y :: z :: l) ++ [x]) with (y :: (z :: l) ++ [x]). destruct ((z :: l) ++ [x]) eqn:E; [discriminate|]. 
  change (String.concat sep (y :: s :: l0)) with (y ++ sep ++ String.concat sep (s :: l0))%string.
  change (String.concat sep (y :: z :: l)) with (y ++ sep ++ String.concat sep (z :: l))%string.
  rewrite IH by discriminate. now rewrite !string_app_assoc.
Qed.

Lemma split_name name : (fst (split_file_name name) ++ snd (split_file_name name))%string = name.
Proof.
  assert (J := join_split "." name). unfold split_file_name.
  destruct (String.eqb _ "" || _) eqn:E; [cbn [fst snd]; apply string_app_nil|]. cbn [fst snd].
  apply orb_false_iff in E as [E _]. destruct (split_on "." name) as [|y l0] eqn:El; [now apply split_on_nonempty in El|].
  assert (N : y :: l0 <> []) by discriminate. rewrite (app_removelast_last "" N) in J. unfold join in *.
  rewrite concat_last in J; [rewrite <- J at 1; reflexivity|]. intros H. rewrite H in E. discriminate.
Qed.

Lemma split_dotted b : has_char "." b = false -> forall a, split_on "." (a ++ String "." b) = split_on "." a ++ [b].
Proof.
  intros Hb. induction a as [|c a IH]; cbn [append split_on].
  - cbn. now rewrite split_on_nochar.
  - rewrite IH. destruct (Ascii.eqb c "."); [reflexivity|]. destruct (split_on "." a) as [|w ws] eqn:E; [now apply split_on_nonempty in E|reflexivity].
Qed.
Lemma split_with_extension a b : a <> "" -> b <> "" -> has_char "." b = false -> split_file_name (a ++ String "." b) = (a, String "." b).
Proof.
  intros Ha Hb Hd. unfold split_file_name. rewrite split_dotted by exact Hd. rewrite removelast_last, last_last, join_split.
  apply String.eqb_neq in Ha, Hb. rewrite Ha, Hb. reflexivity.
Qed.
Lemma split_without_dot a : has_char "." a = false -> split_file_name a = (a, "").
Proof. intros H. unfold split_file_name. rewrite split_on_nochar by exact H. reflexivity. Qed.
