(** Property theorems about capacity variables, damage state numbering, capacity
    adjustments, probabilities and complete columns (C36, C38, C39, C64-C66). *)
From Coq Require Import Sorting.Permutation.
From Verif Require Import Prelude PreludeFacts Pandas PandasFacts M_Base P_Base M_Damage S_Damage P_Eval P_Qty P_Text P_Proc P_Frag.
Local Open Scope string_scope.
Local Open Scope list_scope.

(** * C36 *)

(** For every block the created variables are those of the limit states with a capacity, in
    order; each can lead to one state per weight (or one), and together the states are
    1, 2, 3, ... without gap or repetition. *)
Theorem C36_consecutive : forall pyfloat params spec batch rvs p n b row,
  create_dmg_RVs pyfloat params spec batch = Ok rvs ->
  NoDup (map fst batch) -> In (p, n) batch -> (b < n)%nat -> dget (cmp p) params = Some row ->
  let vars := variables_of (Blk p (str_of_nat (S b))) rvs in
  map (fun r => (snd (c_col (fst r)), List.length (possible_states (snd (snd r))))) vars =
  map (fun c => (str_drop 2 (fst c), state_count (snd c))) (filter has_capacity row) /\
  flat_map (fun r => possible_states (snd (snd r))) vars =
  map Z.of_nat (seq 1 (list_sum (map (fun c => state_count (snd c)) (filter has_capacity row)))).
Proof. exact create_states. Qed.
Print Assumptions C36_consecutive.

Definition demo_lsp (w : option string) : ls_params := LSP (TNum (qc 1)) (Some (qc 1)) None (Some "lognormal") w None None.
Definition demo_row : frg_row := [("Demand", LSP TNaN None None None None None None);
  ("LS1", demo_lsp None); ("LS2", demo_lsp (Some "0.4 | 0.6")); ("LS3", LSP TNaN None None None None None None);
  ("LS4", demo_lsp None)].
Definition demo_float (s : string) : option num :=
  if String.eqb s "0.4" then Some (Some (qc 2)) else if String.eqb s "0.6" then Some (Some (qc 3))
  else if String.eqb s "2" then Some (Some (qc 2)) else None.
Definition demo_g := PG "A" "1" "2" "0".
Example C36_hypotheses_met : exists rvs,
  create_dmg_RVs demo_float [("A", demo_row)] [] [(demo_g, 2%nat)] = Ok rvs /\
  map (fun r => (c_col (fst r), possible_states (snd (snd r)))) rvs =
  [((Blk demo_g "1", "1"), [1]); ((Blk demo_g "2", "1"), [1]);
   ((Blk demo_g "1", "2"), [2; 3]); ((Blk demo_g "2", "2"), [2; 3]);
   ((Blk demo_g "1", "4"), [4]); ((Blk demo_g "2", "4"), [4])]%Z.
Proof. eexists. split; vm_compute; reflexivity. Qed.

(** * C38 *)

(** A scaling string is accepted exactly when it is an operator followed by a number, and
    read as that operator and number. *)
Theorem C38_syntax : forall pyfloat j,
  (is_ok (parse_spec pyfloat j) = true <->
     exists a rest, j = JStr (String a rest) /\ In a ["+"; "-"; "*"; "/"]%char /\ pyfloat rest <> None) /\
  (forall op y, parse_spec pyfloat j = Ok (op, y) <->
     exists a rest, j = JStr (String a rest) /\ op = String a "" /\ In a ["+"; "-"; "*"; "/"]%char /\
                    pyfloat rest = Some y).
Proof.
  intros pyfloat j. split; [exact (parse_spec_ok pyfloat j)|exact (parse_spec_iff pyfloat j)].
Qed.
Print Assumptions C38_syntax.

Lemma family_of_given p : capacity_family p (family_of p).
Proof. unfold capacity_family, family_of. destruct (family p) as [[|a f]|]; [right|left|right]; auto. split; [reflexivity|discriminate]. Qed.
(** Which parameters a capacity variable gets: unchanged without a request; with one, the
    requested operations on the first parameter, one operation giving one value, several
    one per realization; for normal, lognormal and deterministic capacities. *)
Theorem C38_applied_partial : forall pyfloat params spec batch rvs r p b ls,
  NoDup (keys spec) -> (forall k d, dget k spec = Some (JDict d) -> NoDup (keys d)) ->
  create_dmg_RVs pyfloat params spec batch = Ok rvs -> In r rvs -> c_col (fst r) = (Blk p b, ls) ->
  exists row name prm, dget (cmp p) params = Some row /\ In (name, prm) row /\ has_capacity (name, prm) = true /\
    ls = str_drop 2 name /\ capacity_family prm (c_family (fst r)) /\
    forall q, theta_0 prm = TNum q -> In (c_family (fst r)) ["normal"; "lognormal"; "deterministic"] ->
      ((forall v, ~ request_for spec p ls v) -> c_theta (fst r) = ThVec [Some q; theta_1 prm; theta_2 prm]) /\
      (forall v, request_for spec p ls v -> exists ops, mapM (parse_spec pyfloat) (request_entries v) = Ok ops /\
         match ops with
         | [] => c_theta (fst r) = ThVec [Some q; theta_1 prm; theta_2 prm]
         | _ => exists vs, mapM (fun o => handle_operation (Some q) (fst o) (snd o)) ops = Ok vs /\
                c_theta (fst r) = match vs with
                                  | [x] => ThVec [x; theta_1 prm; theta_2 prm]
                                  | _ => ThMat (map (fun x => [x; theta_1 prm; theta_2 prm]) vs)
                                  end
         end).
Proof.
  intros pyfloat params spec batch rvs r p b ls H1 H2 H Hr Hc.
  destruct (create_adjusted pyfloat params spec batch rvs r p b ls (conj H1 H2) H Hr Hc)
    as (row & name & prm & A1 & A2 & A3 & A4 & A5 & A6).
  exists row, name, prm. do 4 (split; [easy|]). split; [rewrite A5; apply family_of_given|]. intros q Hq Hf. apply A6; [easy|].
  unfold scalable. rewrite <- A5. now apply mem_true.
Qed.
Print Assumptions C38_applied_partial.

(** The operators mean what they say. *)
Theorem C38_operation : forall x op y v, op_meaning op x y = Some v ->
  handle_operation (Some x) (String op "") (Some y) = Ok v.
Proof. exact handle_operation_spec. Qed.
Print Assumptions C38_operation.

(** Families that cannot be scaled are left unscaled although the specification is accepted. *)
Theorem C38_families_refuted : ~ (forall pyfloat params spec batch rvs r p b ls row prm q a rest y v,
  create_dmg_RVs pyfloat params spec batch = Ok rvs -> In r rvs -> c_col (fst r) = (Blk p b, ls) ->
  dget (cmp p) params = Some row -> In (("LS" ++ ls)%string, prm) row -> theta_0 prm = TNum q ->
  request_for spec p ls (JStr (String a rest)) -> pyfloat rest = Some (Some y) -> op_meaning a q y = Some v ->
  c_theta (fst r) = ThVec [v; theta_1 prm; theta_2 prm]).
Proof.
  intros H.
  set (prm := LSP (TNum (qc 1)) (Some (qc 1)) None (Some "weibull") None None None).
  destruct (create_dmg_RVs demo_float [("A", [("LS1", prm)])] [("A-1-2", JDict [("ALL", JStr "*2")])] [(demo_g, 1%nat)]) as [rvs|] eqn:E;
    [|vm_compute in E; discriminate E].
  assert (E' := E). vm_compute in E'. injection E' as E'.
  specialize (H demo_float [("A", [("LS1", prm)])] [("A-1-2", JDict [("ALL", JStr "*2")])] [(demo_g, 1%nat)] rvs
                (hd (CapRV (Blk demo_g "", "") "" (ThTable "") (None, None) None, ((Blk demo_g "", ""), DSFixed 0)) rvs)
                demo_g "1" "1" [("LS1", prm)] prm (qc 1) "*"%char "2" (qc 2) (Some (qc 2)) E).
  rewrite <- E' in H. cbn in H. specialize (H (or_introl eq_refl) eq_refl eq_refl (or_introl eq_refl) eq_refl).
  assert (Hr : request_for [("A-1-2", JDict [("ALL", JStr "*2")])] demo_g "1" (JStr "*2")).
  { exists [("ALL", JStr "*2")]. split; [reflexivity|]. left. reflexivity. }
  specialize (H Hr eq_refl). assert (Hv : Some (Some (qc 1 * qc 2)%Qc) = Some (Some (qc 2))) by (vm_compute; reflexivity).
  specialize (H Hv). discriminate H.
Qed.
Print Assumptions C38_families_refuted.

(** The short form {'CMP-LOC-DIR': '*1.2'} is rejected, whatever the string. *)
Theorem C38_short_form_refuted : forall pyfloat params spec batch k s,
  In (k, JStr s) spec -> is_ok (create_dmg_RVs pyfloat params spec batch) = false.
Proof.
  intros pyfloat params spec batch k s Hin. unfold create_dmg_RVs.
  assert (E : forall acc, is_ok (foldM (parse_component pyfloat) acc spec) = false).
  { induction spec as [|[k' j] spec IH]; [easy|]. intros acc. cbn [foldM]. destruct Hin as [[= -> ->]|Hin].
    - unfold parse_component. cbn. destruct (_ && _); easy.
    - destruct (parse_component pyfloat acc (k', j)); cbn [bind]; [|easy]. now apply IH. }
  unfold parse_scaling_specification. specialize (E []). destruct (foldM _ _ spec); easy.
Qed.
Print Assumptions C38_short_form_refuted.

Example C38_hypotheses_met : exists rvs r,
  create_dmg_RVs demo_float [("A", demo_row)] [("A-1-2", JDict [("LS2", JStr "*2")])] [(demo_g, 1%nat)] = Ok rvs /\
  In r rvs /\ c_col (fst r) = (Blk demo_g "1", "2") /\
  c_theta (fst r) = ThVec [Some (qc 2); Some (qc 1); None] /\
  request_for [("A-1-2", JDict [("LS2", JStr "*2")])] demo_g "2" (JStr "*2").
Proof.
  eexists. eexists. split; [vm_compute; reflexivity|]. split; [right; left; reflexivity|].
  split; [reflexivity|]. split; [vm_compute; reflexivity|].
  exists [("LS2", JStr "*2")]. split; [reflexivity|]. right. split; reflexivity.
Qed.

(** * C39 *)

(** The reported probability of a state is its share of the available realizations of the
    block; the probabilities of a block add up to one. *)
Theorem C39_distribution : forall ds t b c,
  probabilities ds = Ok t -> In (b, c) t ->
  exists col, In (b, col) ds /\
    ((forall x, In x col -> x = (-1)%Z) -> forall d, prob_cell c d = None) /\
    ((exists x, In x col /\ x <> (-1)%Z) ->
      (forall d, d <> (-1)%Z -> In d col ->
         prob_cell c d = Some (qn (List.length (filter (Z.eqb d) col)) /
                               qn (List.length (filter (fun d => negb (d =? -1)%Z) col)))%Qc) /\
      (forall d, d = (-1)%Z \/ ~ In d col -> prob_cell c d = None) /\
      (forall us, NoDup us -> (forall x, In x col -> x <> (-1)%Z -> In x us) ->
         nsum (map (prob_cell c) us) = 1%Qc)).
Proof.
  intros ds t b c H Hin. unfold probabilities in H. destruct (_ || _); [|discriminate H]. injection H as <-.
  apply (Permutation_in _ (Permutation_sym (isort_perm _ _))) in Hin.
  apply in_map_iff in Hin as ([b' col] & [= -> <-] & Hc). exists col. split; [easy|]. cbn [snd]. split.
  - intros Hall d. unfold block_probabilities. rewrite filter_none; [easy|]. intros x Hx. rewrite (Hall x Hx). easy.
  - intros Hav. split; [|split].
    + intros d Hd Hin. rewrite prob_cell_spec by easy.
      assert (E : existsb (Z.eqb d) col = true) by (apply existsb_exists; exists d; split; [easy|apply Z.eqb_refl]).
      apply Z.eqb_neq in Hd. now rewrite E, Hd.
    + intros d Hd. rewrite prob_cell_spec by easy. destruct Hd as [->|Hd]; [now rewrite andb_false_r|].
      destruct (existsb (Z.eqb d) col) eqn:E; [|easy]. exfalso. apply Hd. apply existsb_exists in E as (x & Hx & Ex).
      apply Z.eqb_eq in Ex. now subst.
    + intros us Hn Hus. now apply prob_total.
Qed.
Print Assumptions C39_distribution.

(** Every block is reported, unless no block has any available realization: then nothing is. *)
Theorem C39_accepted : forall ds, ds <> [] ->
  (is_ok (probabilities ds) = true <-> exists b col x, In (b, col) ds /\ In x col /\ x <> (-1)%Z) /\
  (forall t, probabilities ds = Ok t -> Permutation (map fst t) (map fst ds)).
Proof.
  intros ds Hne. unfold probabilities. split.
  - assert (E : existsb (fun c : blk * option (list (Z * Qc)) => match snd c with Some _ => true | None => false end)
                  (map (fun c => (fst c, block_probabilities (snd c))) ds) = true <->
                exists b col x, In (b, col) ds /\ In x col /\ x <> (-1)%Z).
    { rewrite existsb_exists. split.
      - intros (y & Hy & Hs). apply in_map_iff in Hy as ([b col] & <- & Hc). cbn [snd fst] in Hs.
        unfold block_probabilities in Hs. destruct (filter _ col) as [|x l] eqn:E; [discriminate Hs|].
        assert (Hx : In x (filter (fun d => negb (d =? -1)%Z) col)) by (rewrite E; now left).
        apply filter_In in Hx as [Hx Hd]. apply negb_true_iff, Z.eqb_neq in Hd. now exists b, col, x.
      - intros (b & col & x & Hc & Hx & Hd). exists (b, block_probabilities col). split.
        + apply in_map_iff. now exists (b, col).
        + cbn [snd]. unfold block_probabilities.
          assert (Hin : In x (filter (fun d => negb (d =? -1)%Z) col)).
          { apply filter_In. split; [easy|]. apply negb_true_iff. now apply Z.eqb_neq. }
          destruct (filter _ col); easy. }
    rewrite <- E. destruct (existsb _ _); cbn; [easy|]. destruct ds; [easy|]. easy.
  - intros t H. destruct (_ || _); [|discriminate H]. injection H as <-.
    rewrite <- (isort_perm _ (map (fun c : blk * list Z => (fst c, block_probabilities (snd c))) ds)), map_map. easy.
Qed.
Print Assumptions C39_accepted.

Example C39_hypotheses_met :
  let ds := [(Blk demo_g "1", [0; 2; 0; -1]); (Blk demo_g "2", [-1; -1; -1; -1])]%Z in
  exists t c, probabilities ds = Ok t /\ In (Blk demo_g "1", c) t /\
    prob_cell c 0 = Some (qn 2 / qn 3)%Qc /\ prob_cell c 2 = Some (qn 1 / qn 3)%Qc /\ prob_cell c 1 = None.
Proof.
  eexists. eexists. split; [vm_compute; reflexivity|]. split; [left; reflexivity|].
  repeat split; vm_compute; reflexivity.
Qed.

(** * C64 *)

(** With all damage states listed, every group of the sample has one column per state from
    0 to the number of states of its component; existing columns are kept and the others
    are zero; nothing else is added. *)
Theorem C64_complete : forall n params sample out,
  NoDup (keys params) -> NoDup (map fst sample) -> complete_ds_cols n params sample = Ok out ->
  (forall k col, In (k, col) sample -> In (k, col) out) /\
  forall p s col, In ((p, s), col) out <->
    (exists s', In (p, s') (map fst sample)) /\
    (exists row d, dget (cmp p) params = Some row /\
       (d <= list_sum (map (fun c => state_count (snd c)) (filter has_capacity row)))%nat /\ s = str_of_nat d) /\
    (In ((p, s), col) sample \/ (~ In (p, s) (map fst sample) /\ col = repeat (Some 0%Qc) n)).
Proof.
  intros n params sample out Hp Hs H.
  assert (E : forall row, list_sum (map (fun c => state_count (snd c)) (filter has_capacity row)) = ds_count row).
  { induction row as [|c row IH]; [easy|]. rewrite ds_count_cons. cbn [filter]. destruct (has_capacity c); rewrite <- IH; reflexivity. }
  split; [exact (complete_keeps n params sample out Hp Hs H)|].
  intros p s col. rewrite (complete_cell n params sample out Hp Hs H p s col). unfold in_sample.
  split; intros (A & (row & d & B1 & B2 & B3) & C); (split; [exact A|]; split; [|exact C]); exists row, d.
  - now rewrite E.
  - now rewrite E in B2.
Qed.
Print Assumptions C64_complete.

Example C64_hypotheses_met : exists out,
  complete_ds_cols 2 [("A", demo_row)] [((demo_g, "2"), [Some (qc 5); None])] = Ok out /\
  map fst out = [(demo_g, "0"); (demo_g, "1"); (demo_g, "2"); (demo_g, "3"); (demo_g, "4")].
Proof. eexists. split; vm_compute; reflexivity. Qed.

(** * C65 *)

(** The capacities of a block are tied to that block's first limit state: the first has no
    anchor, every other one is anchored to the first of the same block. *)
Theorem C65_anchors : forall pyfloat params spec batch rvs r row,
  create_dmg_RVs pyfloat params spec batch = Ok rvs -> In r rvs ->
  Forall (fun e : pg * nat => (0 < snd e)%nat) batch ->
  dget (cmp (b_of (fst (c_col (fst r))))) params = Some row -> NoDup (limit_states row) ->
  c_anchor (fst r) =
    if String.eqb (snd (c_col (fst r))) (hd "" (limit_states row)) then None
    else Some (fst (c_col (fst r)), hd "" (limit_states row)).
Proof.
  intros pyfloat params spec batch rvs r row H Hr Hpos Hrow Hn.
  destruct (create_from _ _ _ _ _ _ H Hr) as (sc & p & n & row' & x & _ & Hin & Hrow' & Hx & Hrx).
  destruct (pg_rvs_from _ _ _ _ _ _ _ _ _ Hx r Hrx) as (name & prm & b & th & _ & _ & _ & Ec & _).
  assert (Er : row' = row) by (rewrite Ec in Hrow; cbn in Hrow; congruence). subst row'.
  rewrite Forall_forall in Hpos. specialize (Hpos _ Hin).
  exact (pg_rvs_anchors _ _ _ _ _ row x Hpos Hn Hx r Hrx).
Qed.
Print Assumptions C65_anchors.

(** A component whose first limit state has no capacity but a later one does is rejected. *)
Theorem C65_first_missing_refuted : forall pyfloat (params : dict frg_row) spec batch p n (row : frg_row) c rest,
  In (p, n) batch -> (0 < n)%nat -> dget (cmp p) params = Some row -> row = c :: rest ->
  contains "LS" (fst c) = true -> has_capacity c = false -> NoDup (limit_states row) ->
  (exists c', In c' rest /\ has_capacity c' = true) ->
  is_ok (create_dmg_RVs pyfloat params spec batch) = false.
Proof.
  intros pyfloat params spec batch p n row [name prm] rest Hin Hn Hrow -> Hls Hcap Hnd (c' & Hc' & Hcap').
  destruct (create_dmg_RVs pyfloat params spec batch) as [rvs|] eqn:E; [|easy]. exfalso.
  apply create_inv in E as (sc & l & _ & Hl & _).
  destruct (@Forall2_In_l _ _ _ _ _ (p, n) Hl Hin) as (x & _ & Hx). unfold group_part in Hx. rewrite Hrow in Hx.
  rewrite pg_rvs_step, Hcap, limit_states_cons in Hx. rewrite limit_states_cons in Hnd. cbn [fst] in Hls. rewrite Hls in *.
  inversion Hnd as [|? ? Hnot _]; subst. cbn [hd] in Hx.
  apply pg_rvs_no_anchor in Hx as [_ Hf]; [|easy|easy].
  assert (Hx : In c' (filter has_capacity rest)) by now apply filter_In. rewrite Hf in Hx. easy.
Qed.
Print Assumptions C65_first_missing_refuted.

Example C65_hypotheses_met : exists rvs,
  create_dmg_RVs demo_float [("A", demo_row)] [] [(demo_g, 2%nat)] = Ok rvs /\ limit_states demo_row = ["1"; "2"; "3"; "4"] /\
  map (fun r => c_anchor (fst r)) rvs =
  [None; None; Some (Blk demo_g "1", "1"); Some (Blk demo_g "2", "1"); Some (Blk demo_g "1", "1"); Some (Blk demo_g "2", "1")].
Proof. eexists. split; [vm_compute; reflexivity|]. split; vm_compute; reflexivity. Qed.
Example C65_first_missing_hypotheses_met :
  create_dmg_RVs demo_float [("A", tl (tl (tl demo_row)))] [] [(demo_g, 1%nat)] = Err IndexError.
Proof. vm_compute. reflexivity. Qed.

(** * C66 *)

(** Without multilinear CDF capacities, whether a component is accepted does not depend on
    the number of its blocks. *)
Theorem C66_blocks_partial : forall pyfloat params spec b1 b2,
  (forall c row, dget c params = Some row ->
     Forall (fun c => has_capacity c = true -> family (snd c) <> Some "multilinear_CDF") row) ->
  Forall2 (fun x y : pg * nat => fst x = fst y /\ (0 < snd x)%nat /\ (0 < snd y)%nat) b1 b2 ->
  is_ok (create_dmg_RVs pyfloat params spec b1) = is_ok (create_dmg_RVs pyfloat params spec b2).
Proof.
  intros pf params spec b1 b2 H. apply create_blocks. intros c row Hr. eapply Forall_impl; [|exact (H c row Hr)]. intros x Hx Hc. specialize (Hx Hc).
  apply String.eqb_neq. unfold family_of. destruct (family (snd x)) as [[|a f]|]; try discriminate. congruence.
Qed.
Print Assumptions C66_blocks_partial.

(** With two or more blocks, a multilinear CDF is always rejected. *)
Theorem C66_multilinear_refuted : forall pyfloat params spec batch p n row c,
  In (p, n) batch -> (2 <= n)%nat -> dget (cmp p) params = Some row -> In c row -> has_capacity c = true ->
  family (snd c) = Some "multilinear_CDF" -> is_ok (create_dmg_RVs pyfloat params spec batch) = false.
Proof.
  intros pf params spec batch p n row c H1 H2 H3 H4 H5 H6. apply (create_multilinear pf params spec batch p n row c); try assumption. unfold family_of. now rewrite H6.
Qed.
Print Assumptions C66_multilinear_refuted.

(** ... although one block is accepted. *)
Example C66_multilinear_one_block :
  is_ok (create_dmg_RVs demo_float [("A", [("LS1", LSP (TStr "0,1|2,3") None None (Some "multilinear_CDF") None None None)])]
                        [] [(demo_g, 1%nat)]) = true.
Proof. vm_compute. reflexivity. Qed.
Example C66_hypotheses_met :
  is_ok (create_dmg_RVs demo_float [("A", demo_row)] [] [(demo_g, 1%nat)]) = true /\
  Forall (fun c => has_capacity c = true -> family (snd c) <> Some "multilinear_CDF") demo_row.
Proof. split; [vm_compute; reflexivity|]. repeat constructor; discriminate. Qed.
