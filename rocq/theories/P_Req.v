(** Proofs about the demands required by performance groups. *)
From Coq Require Import Sorting.Permutation.
From Verif Require Import Prelude PreludeFacts Pandas PandasFacts M_Base S_Base P_Base
  M_FileIO M_Damage M_Demand S_FileIO S_Demand P_Proc P_Qty P_Frag P_Sample.
Local Open Scope string_scope.
Local Open Scope list_scope.

Ltac binv H x :=
  match type of H with
  | bind ?r _ = Ok _ => let E := fresh "E" in destruct r as [x|?] eqn:E; cbn [bind] in H; [|discriminate H]
  end.

(** ** Text *)

Lemma no_dash_Z z : (0 <= z)%Z -> has_char "-" (str_of_Z z) = false.
Proof.
  intros H. unfold str_of_Z. destruct (Z.ltb_spec z 0); [lia|]. unfold str_of_nat.
  apply string_of_uint_nominus.
Qed.

Lemma split_on_dash_app a b :
  split_on "-" (a ++ String "-" b) = split_on "-" a ++ split_on "-" b.
Proof.
  induction a as [|c a IH]; [easy|].
  cbn [append split_on]. rewrite IH. destruct (Ascii.eqb c "-"); [easy|].
  destruct (split_on "-" a) as [|w ws] eqn:E; [now apply split_on_nonempty in E|]. easy.
Qed.

Lemma split_dash3 a m b x y w :
  has_char "-" m = false ->
  split_on "-" (a ++ "-" ++ m ++ "-" ++ b) = [x; y; w] -> x = a /\ y = m /\ w = b /\
  has_char "-" a = false /\ has_char "-" b = false.
Proof.
  intros Hm H. pose proof (split_on_nonempty "-" a) as Hl.
  rewrite (split_on_dash_app a (m ++ "-" ++ b) : split_on "-" (a ++ "-" ++ m ++ "-" ++ b) = _) in H.
  remember (split_on "-" a) as l eqn:El. symmetry in El. rewrite (split_on_app "-" m b Hm : split_on "-" (m ++ "-" ++ b) = m :: split_on "-" b) in H.
  destruct (split_on "-" b) as [|w1 [|w2 ws]] eqn:Eb; [now apply split_on_nonempty in Eb| |].
  - destruct l as [|l1 [|l2 [|l3 l4]]]; try easy.
    + injection H as -> -> ->.
      assert (a = x). { rewrite <- (join_split "-" a), El. reflexivity. }
      assert (b = w). { rewrite <- (join_split "-" b), Eb. reflexivity. }
      subst. repeat split; auto.
      * pose proof (split_on_pieces "-" x) as HF. rewrite El in HF. now inversion HF.
      * pose proof (split_on_pieces "-" w) as HF. rewrite Eb in HF. now inversion HF.
    + exfalso. apply (f_equal (@List.length string)) in H. rewrite !app_length in H. simpl in H. lia.
  - exfalso. apply (f_equal (@List.length string)) in H. rewrite app_length in H. destruct l; simpl in H; try easy. lia.
Qed.

Lemma split_dash3_back a m b :
  has_char "-" a = false -> has_char "-" m = false -> has_char "-" b = false ->
  split_on "-" (a ++ "-" ++ m ++ "-" ++ b) = [a; m; b].
Proof.
  intros Ha Hm Hb. rewrite (split_on_app "-" a (m ++ "-" ++ b) Ha : split_on "-" (a ++ "-" ++ m ++ "-" ++ b) = a :: split_on "-" (m ++ "-" ++ b)).
  rewrite (split_on_app "-" m b Hm : split_on "-" (m ++ "-" ++ b) = m :: split_on "-" b). now rewrite split_on_nochar.
Qed.

Lemma int_of_qz z : int_of (qz z) = z.
Proof. unfold int_of, qz. simpl. unfold Qred. simpl. 
  pose proof (Z.ggcd_gcd z 1) as Hg. pose proof (Z.ggcd_correct_divisors z 1) as Hd.
  destruct (Z.ggcd z 1) as [g [aa bb]]. simpl in *. rewrite Z.gcd_1_r in Hg. subst g.
  destruct Hd as [H1 H2]. replace aa with z by lia. replace bb with 1%Z by lia. simpl. apply Z.quot_1_r.
Qed.

Lemma qz_add a b : (qz a + qz b)%Qc = qz (a + b).
Proof. apply Qc_eq_iff. unfold qz. qc2q. rewrite inject_Z_plus. reflexivity. Qed.

Lemma truthy_directional t : truthy (t_directional t) = true <-> directional t.
Proof.
  unfold directional, truthy. destruct (t_directional t) as [q|]; [|split; [easy|easy]].
  rewrite negb_true_iff. destruct (Qceqb q 0) eqn:E.
  - apply Qceqb_true in E. subst. split; [easy|]. intros H. now elim H.
  - split; [|easy]. intros _ [= ->]. assert (Qceqb 0 0 = true) by now apply Qceqb_true. congruence.
Qed.

(** ** What a term asks for *)

Definition direction_of (p : pg) (t : term) : string := if truthy (t_directional t) then dir p else "0".

Lemma dget_edp_In k v : dget k EDP_to_demand_type = Some v <-> In (k, v) EDP_to_demand_type.
Proof.
  split; [apply dget_In|]. intros H. apply In_dget; [|exact H].
  unfold keys, EDP_to_demand_type. simpl. 
  repeat (constructor; [simpl; intros Hc; repeat (destruct Hc as [Hc|Hc]; [discriminate Hc|]); exact Hc|]). constructor.
Qed.

Lemma edp_stands k v : In (k, v) EDP_to_demand_type <-> stands_for k v.
Proof.
  split.
  - intros H. assert (C : forallb (fun e => existsb (fun a => String.eqb (fst a) (snd e) && mem (fst e) (snd a)) demand_abbreviations) EDP_to_demand_type = true) by (vm_compute; reflexivity).
    rewrite forallb_forall in C. specialize (C _ H). apply existsb_exists in C as ([d names] & Hd & C). cbn [fst snd] in C.
    apply andb_true_iff in C as [C1 C2]. apply String.eqb_eq in C1. apply mem_true in C2. subst d. now exists names.
  - intros (names & Hd & Hn).
    assert (C : forallb (fun a => forallb (fun x => existsb (fun e => String.eqb (fst e) x && String.eqb (snd e) (fst a)) EDP_to_demand_type) (snd a)) demand_abbreviations = true) by (vm_compute; reflexivity).
    rewrite forallb_forall in C. specialize (C _ Hd). rewrite forallb_forall in C. specialize (C _ Hn). apply existsb_exists in C as ([x y] & He & C). cbn [fst snd] in C.
    apply andb_true_iff in C as [C1 C2]. apply String.eqb_eq in C1, C2. now subst.
Qed.
Lemma dget_edp k v : dget k EDP_to_demand_type = Some v <-> stands_for k v.
Proof. rewrite dget_edp_In. apply edp_stands. Qed.

Lemma edp_no_bar k v : stands_for k v -> has_char "|" k = false.
Proof.
  rewrite <- edp_stands. unfold EDP_to_demand_type. simpl. intros H.
  repeat (destruct H as [H|H]; [injection H as <- _; reflexivity|]). easy.
Qed.

Lemma edp_names ty d full :
  (if has_char "|" ty
   then match split_on "|" ty with
        | [a; b] => match dget a EDP_to_demand_type with
                    | Some d => Ok (d, (d ++ "_" ++ b)%string)
                    | None => Err KeyError
                    end
        | _ => Err ValueError
        end
   else match dget ty EDP_to_demand_type with
        | Some d => Ok (d, d)
        | None => Err KeyError
        end) = Ok (d, full) <-> names_type ty d full.
Proof.
  split.
  - destruct (has_char "|" ty) eqn:Eb.
    + pose proof (split_on_pieces "|" ty) as HF. pose proof (join_split "|" ty) as Hj.
      destruct (split_on "|" ty) as [|a [|b [|]]]; try easy.
      destruct (dget a EDP_to_demand_type) as [d'|] eqn:Ed; [|easy]. intros [= -> <-].
      inversion HF as [|? ? Ha HF']; subst. inversion HF' as [|? ? Hb _]; subst.
      change (names_type (a ++ "|" ++ b) d (d ++ "_" ++ b)). constructor; auto. now apply dget_edp.
    + destruct (dget ty EDP_to_demand_type) as [d'|] eqn:Ed; [|easy]. intros [= -> ->].
      constructor; [easy|]. now apply dget_edp.
  - intros H. inversion H; subst.
    + rewrite H0. apply dget_edp in H1. now rewrite H1.
    + assert (has_char "|" (a ++ "|" ++ b) = true) as ->.
      { rewrite has_char_app. simpl. now rewrite orb_true_r. }
      rewrite (split_on_app "|" a b H0 : split_on "|" (a ++ "|" ++ b) = a :: split_on "|" b).
      rewrite split_on_nochar by easy. apply dget_edp in H2. now rewrite H2.
Qed.

Definition whole (offsets : dict Qc) (t : term) : Prop :=
  (forall o, t_offset t = Some o -> exists z, o = qz z) /\
  (forall ty e, dget ty offsets = Some e -> exists z, e = qz z).

Lemma edp_of_spec offsets p t s :
  whole offsets t ->
  (edp_of offsets p t = Ok s <->
   exists full l, asks_for offsets p t full l /\ s = (full ++ "-" ++ l ++ "-" ++ direction_of p t)%string).
Proof.
  intros [Hw1 Hw2]. unfold edp_of, asks_for. destruct (t_type t) as [ty|]; [|split; [easy|intros (? & ? & (? & ? & ? & ? & _) & _); easy]].
  split.
  - intros H. match type of H with bind ?r _ = _ => destruct r as [[d full]|] eqn:E; cbn [bind fst snd] in H; [|easy] end.
    apply edp_names in E.
    destruct (t_offset t) as [o|] eqn:Eo; [|easy]. cbn [bind] in H. destruct (Hw1 o eq_refl) as [z ->].
    destruct (pyint (loc p)) as [b|] eqn:Eb; [|easy].
    set (off := match dget d offsets with Some e => int_of (qz z + e) | None => int_of (qz z) end) in *.
    destruct (Z.ltb_spec (b + off) 0); [easy|]. injection H as <-.
    exists full, (str_of_Z (b + off)). split; [|reflexivity].
    exists ty, d, (b + off)%Z. repeat split; auto. unfold term_location. exists b, z. split; [easy|]. split; [easy|].
    unfold off. destruct (dget d offsets) as [e|] eqn:Ee.
    + destruct (Hw2 d e Ee) as [e' ->]. exists e'. split; [easy|]. rewrite qz_add, int_of_qz. lia.
    + now rewrite int_of_qz.
  - intros (full & l & (ty' & d & z & [= <-] & Hn & Hl & Hz & ->) & ->).
    apply edp_names in Hn. rewrite Hn. cbn [bind fst snd]. destruct Hl as (b & off & Hb & Ho & Hl). rewrite Ho, Hb. cbn [bind].
    assert (match dget d offsets with Some e => int_of (qz off + e) | None => int_of (qz off) end = z - b)%Z as Hoff.
    { destruct (dget d offsets) as [e|].
      - destruct Hl as (x & -> & ->). rewrite qz_add, int_of_qz. lia.
      - rewrite int_of_qz. lia. }
    rewrite Hoff. replace (b + (z - b))%Z with z by lia. destruct (Z.ltb_spec z 0); [lia|]. reflexivity.
Qed.

(** ** Filing groups under keys *)

Lemma key_eqb_eq a b : key_eqb a b = true <-> a = b.
Proof.
  unfold key_eqb. destruct a as [la ea], b as [lb eb]. cbn [fst snd]. rewrite andb_true_iff, label_eqb_eq.
  unfold opt_eqb. destruct ea, eb; try rewrite String.eqb_eq; split; intuition congruence.
Qed.

Lemma append_to_In k p l k' ps : In (k', ps) (append_to k p l) ->
  (k' = k /\ exists q, ps = q ++ [p] /\ (q = [] \/ In (k, q) l)) \/ In (k', ps) l.
Proof.
  induction l as [|[k1 p1] l IH]; simpl.
  - intros [[= <- <-]|[]]. left. split; [easy|]. exists []. auto.
  - destruct (key_eqb k k1) eqn:E; simpl.
    + apply key_eqb_eq in E. subst k1. intros [[= <- <-]|H]; [|auto]. left. split; [easy|]. exists p1. auto.
    + intros [H|H]; [auto|]. destruct (IH H) as [(-> & q & -> & Hq)|H']; [|auto]. left. split; [easy|]. exists q. split; [easy|]. tauto.
Qed.

Lemma append_to_keys k p l : 
  map fst (append_to k p l) = map fst l /\ In k (map fst l) \/
  map fst (append_to k p l) = map fst l ++ [k] /\ ~ In k (map fst l).
Proof.
  induction l as [|[k1 p1] l IH]; simpl; [right; tauto|].
  destruct (key_eqb k k1) eqn:E; simpl.
  - apply key_eqb_eq in E. subst. left. auto.
  - assert (k1 <> k). { intros ->. assert (key_eqb k k = true) by now apply key_eqb_eq. congruence. }
    destruct IH as [[-> ?]|[-> ?]]; [left; auto|right]. split; [easy|]. intuition.
Qed.

Lemma append_to_perm k p l : Permutation (List.concat (map snd (append_to k p l))) (List.concat (map snd l) ++ [p]).
Proof.
  induction l as [|[k1 p1] l IH]; simpl; [easy|]. destruct (key_eqb k k1); simpl.
  - rewrite <- !app_assoc. apply Permutation_app_head. apply Permutation_app_comm.
  - rewrite <- app_assoc. now apply Permutation_app_head.
Qed.

Lemma required_spec nterms params offsets pgs : forall acc req,
  foldM (fun acc p => let* k := key_of nterms params offsets p in Ok (append_to k p acc)) acc pgs = Ok req ->
  NoDup (map fst acc) ->
  Forall (fun kp => snd kp <> [] /\ Forall (fun p => key_of nterms params offsets p = Ok (fst kp)) (snd kp)) acc ->
  NoDup (map fst req) /\
  Forall (fun kp => snd kp <> [] /\ Forall (fun p => key_of nterms params offsets p = Ok (fst kp)) (snd kp)) req /\
  Permutation (List.concat (map snd req)) (List.concat (map snd acc) ++ pgs).
Proof.
  induction pgs as [|p pgs IH]; intros acc req H Hn HF; cbn [foldM] in H.
  - injection H as <-. rewrite app_nil_r. auto.
  - destruct (key_of nterms params offsets p) as [k|] eqn:Ek; cbn [bind] in H; [|easy].
    apply IH in H.
    + destruct H as (H1 & H2 & H3). split; [easy|]. split; [easy|]. rewrite H3.
      rewrite (append_to_perm k p acc). rewrite <- app_assoc. easy.
    + destruct (append_to_keys k p acc) as [[-> ?]|[-> ?]]; [easy|].
      apply NoDup_app_intro; [easy|repeat constructor; easy|]. intros x Hx [->|[]]. easy.
    + rewrite Forall_forall in HF |- *. intros [k' ps] Hin. apply append_to_In in Hin as [(-> & q & -> & Hq)|Hin].
      * cbn [fst snd]. split; [now destruct q|]. apply Forall_app. split; [|repeat constructor; easy].
        destruct Hq as [->|Hq]; [constructor|]. apply HF in Hq. apply Hq.
      * now apply HF in Hin.
Qed.

Lemma required_ok nterms params offsets pgs req :
  get_required_demand_type nterms params offsets pgs = Ok req ->
  NoDup (map fst req) /\
  Forall (fun kp => snd kp <> [] /\ Forall (fun p => key_of nterms params offsets p = Ok (fst kp)) (snd kp)) req /\
  Permutation (List.concat (map snd req)) pgs.
Proof. intros H. apply required_spec in H; [easy|constructor|constructor]. Qed.

Lemma required_find nterms params offsets pgs req p :
  get_required_demand_type nterms params offsets pgs = Ok req -> In p pgs ->
  exists kp, find (fun kp => existsb (pg_eqb p) (snd kp)) req = Some kp /\ In kp req /\
    key_of nterms params offsets p = Ok (fst kp).
Proof.
  intros H Hp. apply required_ok in H as (_ & HF & HP).
  destruct (find (fun kp => existsb (pg_eqb p) (snd kp)) req) as [kp|] eqn:E.
  - apply find_some in E as [Hin Hex]. exists kp. split; [easy|]. split; [easy|].
    rewrite Forall_forall in HF. apply HF in Hin as [_ Hin]. apply existsb_exists in Hex as (q & Hq & Eq).
    apply pg_eqb_eq in Eq. subst q. rewrite Forall_forall in Hin. now apply Hin.
  - exfalso. apply (Permutation_in _ (Permutation_sym HP)) in Hp. apply in_concat in Hp as (ps & Hps & Hp).
    apply in_map_iff in Hps as (kp & <- & Hkp). apply (find_none _ _ E) in Hkp.
    assert (existsb (pg_eqb p) (snd kp) = true); [|congruence]. apply existsb_exists. exists p. split; [easy|apply pg_eqb_refl].
Qed.

(** ** Values *)

Lemma nmax_spec l : is_largest (fun y => In y l) (nmax l).
Proof.
  unfold nmax. destruct (somes l) as [|x tl] eqn:E.
  - simpl. intros y Hy. destruct y as [v|]; [|easy]. apply In_somes in Hy. rewrite E in Hy. easy.
  - simpl. 
    assert (H : forall tl x, (In (fold_left Qcmax tl x) (x :: tl)) /\ (forall w, In w (x :: tl) -> w <= fold_left Qcmax tl x)%Qc).
    { clear. induction tl as [|y tl IH]; intros x; cbn [fold_left].
      - split; [now left|]. intros w [->|[]]. apply Qcle_refl.
      - destruct (IH (Qcmax x y)) as [H1 H2]. pose proof (Qcmax_spec x y) as Hs. split.
        + destruct H1 as [H1|H1]; [|simpl; auto]. rewrite <- H1. destruct Hs as [[_ ->]|[_ ->]]; simpl; auto.
        + intros w Hw. assert (Hm : (Qcmax x y <= fold_left Qcmax tl (Qcmax x y))%Qc) by (apply H2; now left).
          destruct Hw as [->|[->|Hw]]; [| |apply H2; now right]; (eapply Qcle_trans; [|exact Hm]);
            destruct Hs as [[? ->]|[? ->]]; auto; apply Qcle_refl. }
    destruct (H tl x) as [H1 H2]. rewrite <- E in H1, H2. split; [now apply In_somes|].
    intros w Hw. apply H2. now apply In_somes.
Qed.

Lemma is_largest_ext (P Q : num -> Prop) x : (forall y, P y <-> Q y) -> is_largest P x -> is_largest Q x.
Proof.
  intros H. destruct x as [v|]; simpl.
  - intros [H1 H2]. split; [now apply H|]. intros w Hw. apply H2. now apply H.
  - intros H1 y Hy. apply H1. now apply H.
Qed.

Definition at_type_loc (ty l : string) (e : list string * list num) : bool :=
  match fst e with a :: b :: _ => String.eqb a ty && String.eqb b l | _ => false end.

Lemma at_type_loc_spec (sample : frame) ty l e : demand_table sample -> In e sample ->
  (at_type_loc ty l e = true <-> exists d, fst e = [ty; l; d]).
Proof.
  intros Ht He. unfold demand_table in Ht. rewrite Forall_forall in Ht. apply Ht in He as [Hl _].
  unfold at_type_loc. destruct (fst e) as [|a [|b [|c [|]]]]; simpl in Hl; try lia.
  rewrite andb_true_iff, !String.eqb_eq. split; [intros [-> ->]; eauto|]. intros (d & [= -> -> _]). auto.
Qed.

Lemma at_location_filter (sample : frame) ty l col : demand_table sample ->
  (at_location ty l sample col <-> In col (map snd (filter (at_type_loc ty l) sample))).
Proof.
  intros Ht. unfold at_location. rewrite in_map_iff. split.
  - intros (d & Hin). exists ([ty; l; d], col). split; [easy|]. apply filter_In. split; [easy|].
    apply (at_type_loc_spec sample); eauto. now exists d.
  - intros ([lab c] & <- & Hin). apply filter_In in Hin as [Hin Hb]. apply (at_type_loc_spec sample) in Hb as [d Hd]; auto.
    simpl in Hd. subst lab. eauto.
Qed.

Lemma edp_values_nondir multipliers (sample : frame) ty l v :
  has_char "-" ty = false -> has_char "-" l = false -> demand_table sample ->
  edp_values multipliers sample (ty ++ "-" ++ l ++ "-" ++ "0") = Ok v ->
  nondirectional_value multipliers sample ty l v.
Proof.
  intros Hty Hl Ht H. unfold edp_values in H. rewrite split_dash3_back in H by easy. 
  rewrite String.eqb_refl in H.
  change (filter (fun e : list string * list num => match fst e with a :: b :: _ => (a =? ty)%string && (b =? l)%string | _ => false end) sample)
    with (filter (at_type_loc ty l) sample) in H.
  destruct (filter (at_type_loc ty l) sample) as [|c cols] eqn:Ef; [easy|].
  binv H q. injection H as <-. exists q.
  assert (Hc : In c sample) by (apply (filter_In (at_type_loc ty l)); rewrite Ef; now left).
  assert (Hlen : List.length (snd c) = n_rows sample).
  { unfold demand_table in Ht. rewrite Forall_forall in Ht. now apply Ht in Hc. }
  split; [|split; [|split]].
  - unfold multiplier_for. destruct (dget ty multipliers); [left; congruence|]. right. split; [easy|]. destruct (dget "ALL" multipliers); congruence.
  - rewrite scale_values_length. cbn [map max_columns]. rewrite map_length, seq_length. exact Hlen.
  - exists (snd c). apply at_location_filter; [easy|]. rewrite Ef. now left.
  - intros i Hi. exists (nmax (map (fun col => nth i col None) (map snd (c :: cols)))). split.
    + eapply is_largest_ext; [|apply nmax_spec]. intros y. rewrite in_map_iff. split.
      * intros (col & <- & Hin). exists col. split; [|easy]. apply at_location_filter; [easy|]. now rewrite Ef.
      * intros (col & Hin & <-). exists col. split; [easy|]. apply at_location_filter in Hin; [|easy]. now rewrite Ef in Hin.
    + unfold scale_values. cbn [map max_columns]. rewrite map_map.
      rewrite nth_map_seq by lia. unfold nmul. destruct (nmax _); reflexivity.
Qed.

Lemma edp_values_dir multipliers (sample : frame) ty l d v :
  has_char "-" ty = false -> has_char "-" l = false -> has_char "-" d = false -> d <> "0" ->
  edp_values multipliers sample (ty ++ "-" ++ l ++ "-" ++ d) = Ok v ->
  directional_value sample ty l d v.
Proof.
  intros Hty Hl Hd Hd0 H. unfold edp_values in H. rewrite split_dash3_back in H by easy.
  destruct (String.eqb_spec d "0"); [easy|]. destruct (aget label_eqb [ty; l; d] sample) eqn:E; [|easy].
  injection H as <-. eapply aget_In; [apply label_eqb_eq|exact E].
Qed.

Lemma edp_values_split multipliers sample edp v :
  edp_values multipliers sample edp = Ok v -> exists x y z, split_on "-" edp = [x; y; z].
Proof.
  unfold edp_values. destruct (split_on "-" edp) as [|x [|y [|z [|]]]]; try easy. eauto.
Qed.

Lemma term_values offsets multipliers sample p t s v :
  whole offsets t -> demand_table sample -> (directional t -> dir p <> "0") ->
  edp_of offsets p t = Ok s -> edp_values multipliers sample s = Ok v ->
  term_value offsets multipliers sample p t v.
Proof.
  intros Hw Ht Hd Hs Hv. apply edp_of_spec in Hs as (full & l & Ha & ->); [|easy].
  exists full, l. split; [easy|].
  destruct Ha as (ty & d & z & _ & _ & _ & Hz & ->). pose proof (no_dash_Z z Hz) as Hz'.
  destruct (edp_values_split _ _ _ _ Hv) as (x & y & w & Hsp).
  apply split_dash3 in Hsp as (-> & -> & -> & Hf & Hdir); [|easy].
  unfold direction_of in *. destruct (truthy (t_directional t)) eqn:Et.
  - left. apply truthy_directional in Et. split; [easy|]. eapply edp_values_dir; eauto.
  - right. split; [intros Hc; apply truthy_directional in Hc; congruence|]. eapply edp_values_nondir; eauto.
Qed.

Lemma collect_spec multipliers sample edps : forall acc vals,
  collect multipliers sample edps acc = Ok vals ->
  NoDup edps -> (forall e, In e edps -> dget e acc = None) ->
  exists vs, Forall2 (fun e v => edp_values multipliers sample e = Ok v) edps vs /\ vals = acc ++ combine edps vs.
Proof.
  induction edps as [|e edps IH]; intros acc vals H Hn Ha; cbn [collect] in H.
  - injection H as <-. exists []. split; [constructor|]. now rewrite app_nil_r.
  - binv H l. inversion Hn; subst. apply IH in H; [|easy|].
    + destruct H as (vs & HF & ->). exists (l :: vs). split; [now constructor|]. cbn [combine].
      assert (dset e l acc = acc ++ [(e, l)]) as ->.
      { specialize (Ha e (or_introl eq_refl)). clear - Ha. induction acc as [|[k v] acc IH]; simpl in *; [easy|].
        destruct (String.eqb e k); [easy|]. now rewrite IH. }
      now rewrite <- app_assoc.
    + intros e' He'. rewrite dget_dset_ne; [apply Ha; now right|]. intros ->. easy.
Qed.

Lemma named_spec k (edps : list string) vs : List.length edps = List.length vs ->
  map (fun iv : nat * (string * list num) => (("X" ++ str_of_nat (S (fst iv)))%string, snd (snd iv))) (combine (seq k (List.length (combine edps vs))) (combine edps vs)) =
  named_from (S k) vs.
Proof.
  revert k vs. induction edps as [|e edps IH]; intros k [|v vs] H; simpl in H; try easy.
  cbn [combine List.length seq map fst snd named_from]. now rewrite IH by lia.
Qed.

Lemma collect_single multipliers sample e vals :
  collect multipliers sample [e] [] = Ok vals -> exists v, edp_values multipliers sample e = Ok v /\ vals = [(e, v)].
Proof. cbn [collect]. intros H. binv H v. injection H as <-. eauto. Qed.

Lemma terms_of_uses nterms d e ts : terms_of nterms d = Ok (e, ts) ->
  uses d nterms ts /\ match expression d with Text x => e = Some x | _ => e = None end.
Proof.
  unfold terms_of, uses. destruct (expression d) as [| |x].
  - destruct (terms d) as [|t rest]; [easy|]. intros [= <- <-]. eauto.
  - easy.
  - intros H. binv H s. binv H n. destruct (Nat.leb_spec n (List.length (terms d))); [|easy]. injection H as <- <-. split; [|easy].
    exists s, n. auto.
Qed.

Lemma uses_In d nterms ts t : uses d nterms ts -> In t ts -> In t (terms d).
Proof.
  unfold uses. destruct (expression d).
  - intros (t' & rest & -> & ->) [->|[]]. now left.
  - easy.
  - intros (c & n & _ & _ & _ & ->) H. rewrite <- (firstn_skipn n (terms d)). apply in_or_app. auto.
Qed.

Lemma assembled eval multipliers sample req dem k :
  assemble_required_demand_data eval multipliers sample req = Ok dem -> In k req -> NoDup req ->
  exists v, aget key_eqb k dem = Some v /\ assemble_one eval multipliers sample k = Ok v.
Proof.
  intros H Hin Hn. unfold assemble_required_demand_data in H. apply mapM_Forall2 in H.
  induction H as [|x y req dem Hxy HF IH]; [easy|]. inversion Hn; subst. binv Hxy v. injection Hxy as <-.
  cbn [aget]. destruct (key_eqb k x) eqn:Ek.
  - apply key_eqb_eq in Ek. subst x. eauto.
  - destruct Hin as [->|Hin]; [|now apply IH]. assert (key_eqb k k = true) by now apply key_eqb_eq. congruence.
Qed.

Lemma ForallOrdPairs_NoDup_edps offsets p ts edps :
  Forall (whole offsets) ts -> different_terms offsets p ts -> (forall t, In t ts -> directional t -> dir p <> "0") ->
  Forall2 (fun t e => edp_of offsets p t = Ok e) ts edps ->
  Forall (fun e => exists x y z, split_on "-" e = [x; y; z]) edps -> NoDup edps.
Proof.
  intros Hw Hd Hdir HF Hs. induction HF as [|t e ts edps He HF IH]; [constructor|].
  inversion Hw; subst. inversion Hd as [|? ? Hd1 Hd2]; subst. inversion Hs; subst. constructor.
  - intros Hin. destruct (Forall2_In_r _ HF Hin) as (t' & Ht' & He').
    rewrite Forall_forall in Hd1, H2. pose proof (H2 t' Ht') as Hw'.
    apply edp_of_spec in He as (full & l & Ha & ->); [|easy].
    apply edp_of_spec in He' as (full' & l' & Ha' & Ee); [|easy].
    assert (Hl : has_char "-" l = false) by (destruct Ha as (? & ? & z & _ & _ & _ & Hz & ->); now apply no_dash_Z).
    assert (Hl' : has_char "-" l' = false) by (destruct Ha' as (? & ? & z & _ & _ & _ & Hz & ->); now apply no_dash_Z).
    destruct H3 as (x & y & z & Hsp). pose proof Hsp as Hsp'. rewrite Ee in Hsp'.
    apply split_dash3 in Hsp as (-> & -> & -> & _ & _); [|easy].
    apply split_dash3 in Hsp' as (<- & <- & Edir & _ & _); [|easy].
    apply (Hd1 t' Ht' full l Ha Ha'). unfold direction_of in Edir.
    pose proof (Hdir t (or_introl eq_refl)) as D1. pose proof (Hdir t' (or_intror Ht')) as D2.
    rewrite <- !truthy_directional in *. destruct (truthy (t_directional t)), (truthy (t_directional t')); intuition congruence.
  - apply IH; auto. intros t' Ht'. apply Hdir. now right.
Qed.

Lemma batch_demand nterms eval params offsets multipliers sample pgs r p d :
  batch_demands nterms eval params offsets multipliers sample pgs = Ok r -> In p pgs ->
  dget (cmp p) params = Some d -> demand_table sample -> whole_offsets offsets d ->
  (forall t, In t (terms d) -> directional t -> dir p <> "0") ->
  exists ts, uses d nterms ts /\
    (expression d = NoColumn ->
       exists t v, ts = [t] /\ demand_of r p = Some v /\ term_value offsets multipliers sample p t v) /\
    (forall e, expression d = Text e -> different_terms offsets p ts ->
       exists c vals v, clean_up_expression e = Ok c /\
         Forall2 (term_value offsets multipliers sample p) ts vals /\
         eval c (named_from 1 vals) = Ok v /\ demand_of r p = Some v).
Proof.
  intros H Hp Hd Ht [Hw1 Hw2] Hdir. unfold batch_demands in H. binv H req. binv H uu. binv H dem. injection H as <-.
  destruct (required_find _ _ _ _ _ _ E Hp) as (kp & Hfind & Hkin & Hkey).
  destruct (required_ok _ _ _ _ _ E) as (Hreqn & _ & _).
  unfold key_of in Hkey. rewrite Hd in Hkey. binv Hkey p0. binv Hkey edps. injection Hkey as Hk.
  destruct p0 as [e ts]. cbn [fst snd] in *.
  apply terms_of_uses in E2 as [Hu He]. apply mapM_Forall2 in E3.
  assert (Hwts : Forall (whole offsets) ts).
  { rewrite Forall_forall in Hw1 |- *. intros t Hin. split; [|exact Hw2]. apply Hw1. eapply uses_In; eauto. }
  assert (Hdirts : forall t, In t ts -> directional t -> dir p <> "0").
  { intros t Hin. apply Hdir. eapply uses_In; eauto. }
  destruct (assembled _ _ _ _ _ (fst kp) E1 (in_map fst _ _ Hkin) Hreqn) as (v & Hag & Hone).
  assert (Hdem : demand_of (req, dem) p = Some v).
  { unfold demand_of. cbn [fst snd]. now rewrite Hfind. }
  exists ts. split; [exact Hu|]. unfold assemble_one in Hone. rewrite <- Hk in Hone. cbn [fst snd] in Hone. binv Hone vals. split.
  - intros Hex. rewrite Hex in He. subst e. unfold uses in Hu. rewrite Hex in Hu. destruct Hu as (t & rest & Hterms & ->).
    inversion E3 as [|? edp ? ? Hedp Hrest]; subst. inversion Hrest; subst.
    apply collect_single in E2 as (w & Hw & ->). cbn [rev app] in Hone. injection Hone as <-. cbn [snd] in *.
    exists t, w. split; [easy|]. split; [easy|].
    inversion Hwts; subst. eapply term_values; eauto. apply Hdirts. now left.
  - intros x Hex Hdiff. rewrite Hex in He. subst e. binv Hone s.
    assert (Hsplit : Forall (fun e => exists x y z, split_on "-" e = [x; y; z]) edps).
    { clear - E2. revert E2. generalize (@nil (string * list num)) as acc. induction edps as [|e edps IH]; intros acc H; [constructor|].
      cbn [collect] in H. binv H l. constructor; [eapply edp_values_split; eauto|]. eapply IH; eauto. }
    assert (Hnd : NoDup edps) by (eapply ForallOrdPairs_NoDup_edps; eauto).
    apply collect_spec in E2 as (vs & HFv & ->); [|easy|easy]. cbn [app] in Hone.
    rewrite named_spec in Hone by (clear - HFv; induction HFv; simpl; congruence).
    exists s, vs, v. split; [easy|]. split; [|split; [exact Hone|exact Hdem]].
    clear - E3 HFv Hwts Ht Hdirts. revert vs HFv. induction E3 as [|t e ts edps He HF IH]; intros vs HFv; inversion HFv; subst; [constructor|].
    inversion Hwts; subst. constructor.
    + eapply term_values; eauto. apply Hdirts. now left.
    + apply IH; auto. intros t' Hin. apply Hdirts. now right.
Qed.

(** ** Missing demands *)

Lemma verify_fold_err (sample : frame) (edps : list string) e : In e edps ->
  (forall x y z, split_on "-" e = [x; y; z] -> existsb (at_type_loc x y) sample = false) ->
  foldM (fun _ edp =>
      match split_on "-" edp with
      | [ty; l; _] => if existsb (at_type_loc ty l) sample then Ok tt else Err ValueError
      | _ => Err ValueError
      end) tt edps = Err ValueError.
Proof.
  intros Hin He. induction edps as [|a edps IH]; [easy|]. cbn [foldM].
  destruct Hin as [->|Hin].
  - destruct (split_on "-" e) as [|x [|y [|z [|]]]]; try easy. now rewrite (He x y z eq_refl).
  - destruct (split_on "-" a) as [|x [|y [|z [|]]]]; try easy. destruct (existsb _ sample); [|easy]. now apply IH.
Qed.

Lemma verify_missing (sample : frame) required k e : In k required -> In e (fst k) ->
  (forall x y z, split_on "-" e = [x; y; z] -> existsb (at_type_loc x y) sample = false) ->
  verify_edps_available sample required = Err ValueError.
Proof.
  intros Hk He Hm. unfold verify_edps_available. induction required as [|k' required IH]; [easy|]. cbn [foldM].
  match goal with |- context [bind ?x _] => set (r := x) end.
  assert (Hr : r = Ok tt \/ r = Err ValueError).
  { unfold r. clear. induction (fst k') as [|a l IH]; [now left|]. cbn [foldM].
    destruct (split_on "-" a) as [|x [|y [|z [|]]]]; auto. destruct (existsb _ sample); auto. }
  destruct Hk as [->|Hk].
  - assert (r = Err ValueError) as -> by (unfold r; now apply verify_fold_err with (e := e)). easy.
  - destruct Hr as [-> | ->]; [|easy]. now apply IH.
Qed.

(** A type missing at a location is found before anything is calculated. *)
Lemma missing_location nterms eval params offsets multipliers (sample : frame) pgs req p d ts t full l :
  get_required_demand_type nterms params offsets pgs = Ok req -> demand_table sample ->
  In p pgs -> dget (cmp p) params = Some d -> uses d nterms ts -> In t ts -> whole_offsets offsets d ->
  asks_for offsets p t full l -> (forall col, ~ at_location full l sample col) ->
  batch_demands nterms eval params offsets multipliers sample pgs = Err ValueError.
Proof.
  intros Hreq Ht Hp Hd Hu Hin [Hw1 Hw2] Ha Hmiss. unfold batch_demands. rewrite Hreq. cbn [bind].
  destruct (required_find _ _ _ _ _ _ Hreq Hp) as (kp & _ & Hkin & Hkey).
  unfold key_of in Hkey. rewrite Hd in Hkey. binv Hkey p0. binv Hkey edps. injection Hkey as Hk.
  destruct p0 as [ex ts']. cbn [fst snd] in *. apply terms_of_uses in E as [Hu' _].
  assert (ts' = ts) as ->.
  { unfold uses in Hu, Hu'. destruct (expression d) as [| |x]; [|easy|].
    - destruct Hu as (? & ? & ? & ?), Hu' as (? & ? & ? & ?). congruence.
    - destruct Hu as (c & n & E1 & E2 & _ & ->), Hu' as (c' & n' & E1' & E2' & _ & ->). congruence. }
  apply mapM_Forall2 in E0. destruct (Forall2_In_l _ E0 Hin) as (e & He & Hee).
  rewrite verify_missing with (k := fst kp) (e := e); [easy|apply in_map; exact Hkin|now rewrite <- Hk|].
  intros x y z Hsp.
  assert (Hwt : whole offsets t).
  { split; [|exact Hw2]. rewrite Forall_forall in Hw1. apply Hw1. eapply uses_In; eauto. }
  apply edp_of_spec in Hee as (full' & l' & Ha' & ->); [|easy].
  assert (full' = full /\ l' = l) as [-> ->].
  { destruct Ha as (ty & d0 & z0 & H1 & H2 & H3 & _ & ->), Ha' as (ty' & d0' & z0' & H1' & H2' & H3' & _ & ->).
    rewrite H1 in H1'. injection H1' as <-. apply edp_names in H2, H2'. rewrite H2 in H2'. injection H2' as <- <-.
    split; [easy|]. f_equal. destruct H3 as (b & o & Hb & Ho & Hl), H3' as (b' & o' & Hb' & Ho' & Hl').
    rewrite Hb in Hb'. injection Hb' as <-. rewrite Ho in Ho'. assert (Ho'' : qz o = qz o') by congruence. clear Ho'. rename Ho'' into Ho'.
    apply (f_equal int_of) in Ho'. rewrite !int_of_qz in Ho'. subst o'. destruct (dget d0 offsets).
    - destruct Hl as (x1 & -> & ->), Hl' as (x2 & E2 & ->). apply (f_equal int_of) in E2. rewrite !int_of_qz in E2. congruence.
    - congruence. }
  apply split_dash3 in Hsp as (-> & -> & _); [|destruct Ha as (? & ? & z0 & _ & _ & _ & Hz & ->); now apply no_dash_Z].
  destruct (existsb (at_type_loc full l) sample) eqn:Ex; [|easy]. exfalso.
  apply existsb_exists in Ex as (c & Hc & Hb). apply (at_type_loc_spec sample) in Hb as [dd Hdd]; auto.
  apply (Hmiss (snd c)). exists dd. rewrite <- Hdd. now destruct c.
Qed.

Lemma collect_all multipliers sample edps : forall acc vals,
  collect multipliers sample edps acc = Ok vals ->
  Forall (fun e => exists v, edp_values multipliers sample e = Ok v) edps.
Proof.
  induction edps as [|e edps IH]; intros acc vals H; [constructor|]. cbn [collect] in H. binv H v.
  constructor; eauto.
Qed.

Lemma batch_present nterms eval params offsets multipliers sample pgs r p d :
  batch_demands nterms eval params offsets multipliers sample pgs = Ok r -> In p pgs ->
  dget (cmp p) params = Some d -> demand_table sample -> whole_offsets offsets d ->
  (forall t, In t (terms d) -> directional t -> dir p <> "0") ->
  exists ts, uses d nterms ts /\
    forall t, In t ts -> exists v, term_value offsets multipliers sample p t v.
Proof.
  intros H Hp Hd Ht [Hw1 Hw2] Hdir. unfold batch_demands in H. binv H req. binv H uu. binv H dem. injection H as <-.
  destruct (required_find _ _ _ _ _ _ E Hp) as (kp & Hfind & Hkin & Hkey).
  destruct (required_ok _ _ _ _ _ E) as (Hreqn & _ & _).
  unfold key_of in Hkey. rewrite Hd in Hkey. binv Hkey p0. binv Hkey edps. injection Hkey as Hk.
  destruct p0 as [e ts]. cbn [fst snd] in *.
  apply terms_of_uses in E2 as [Hu He]. apply mapM_Forall2 in E3.
  destruct (assembled _ _ _ _ _ (fst kp) E1 (in_map fst _ _ Hkin) Hreqn) as (v & Hag & Hone).
  unfold assemble_one in Hone. rewrite <- Hk in Hone. cbn [fst snd] in Hone. binv Hone vals.
  exists ts. split; [easy|]. intros t Hin. destruct (Forall2_In_l _ E3 Hin) as (s & Hs & Hts).
  apply collect_all in E2. rewrite Forall_forall in E2. destruct (E2 s Hs) as [w Hw]. exists w.
  rewrite Forall_forall in Hw1. pose proof (uses_In _ _ _ _ Hu Hin) as Hin'.
  eapply term_values; eauto. split; [now apply Hw1|exact Hw2].
Qed.

(** The groups are filed completely and without repetition. *)
Lemma required_partition nterms params offsets pgs req :
  get_required_demand_type nterms params offsets pgs = Ok req ->
  NoDup (map fst req) /\ Forall (fun kp => snd kp <> []) req /\
  Permutation (List.concat (map snd req)) pgs.
Proof.
  intros H. apply required_ok in H as (H1 & H2 & H3). split; [easy|]. split; [|easy].
  eapply Forall_impl; [|exact H2]. now intros kp [Hk _].
Qed.

(** ** Expressions *)

Lemma allowed_char_spec a : allowed_char a = true <-> arithmetic_char a.
Proof.
  unfold arithmetic_char. destruct a as [b0 b1 b2 b3 b4 b5 b6 b7].
  destruct b0, b1, b2, b3, b4, b5, b6, b7;
    (split; [intros H; vm_compute in H; first [discriminate H|vm_compute; tauto]
            |intros H; first [reflexivity|exfalso; vm_compute in H; intuition congruence]]).
Qed.

Lemma all_chars_spec p s : all_chars p s = true <-> forall a, In a (list_ascii_of_string s) -> p a = true.
Proof.
  induction s as [|c s IH]; cbn; [split; easy|]. rewrite andb_true_iff, IH. split.
  - intros [H1 H2] a [<-|Ha]; auto.
  - intros H. split; [apply H; now left|]. intros a Ha. apply H. now right.
Qed.

Lemma clean_accepts e :
  is_ok (clean_up_expression e) = true <-> forall a, In a (list_ascii_of_string e) -> arithmetic_char a.
Proof.
  unfold clean_up_expression. destruct (all_chars allowed_char e) eqn:E.
  - split; [|easy]. intros _ a Ha. apply allowed_char_spec. exact (proj1 (all_chars_spec _ _) E a Ha).
  - split; [easy|]. intros H. exfalso. assert (all_chars allowed_char e = true); [|congruence].
    apply all_chars_spec. intros a Ha. now apply allowed_char_spec, H.
Qed.

Lemma join_head sep c x l : join sep (String c x :: l) = String c (join sep (x :: l)).
Proof. destruct l; reflexivity. Qed.

Lemma caret_join s : caret_to_stars s = join "**" (split_on "^" s).
Proof.
  induction s as [|c s IH]; [reflexivity|]. cbn [caret_to_stars split_on].
  destruct (Ascii.eqb_spec c "^") as [->|Hc].
  - rewrite IH. destruct (split_on "^" s) as [|x l] eqn:E; [now apply split_on_nonempty in E|]. reflexivity.
  - rewrite IH. destruct (split_on "^" s) as [|x l] eqn:E; [now apply split_on_nonempty in E|].
    now rewrite join_head.
Qed.

Lemma clean_text e c : clean_up_expression e = Ok c -> c = join "**" (split_on "^" e).
Proof. unfold clean_up_expression. destruct all_chars; [|easy]. intros [= <-]. apply caret_join. Qed.
