(** Property theorems about random variables, sets and registries (C13, C15-C20, C22). *)
From Coq Require Import Sorting.Permutation Floats.SpecFloat.
From Verif Require Import Prelude PreludeFacts M_UQ S_UQ P_Var P_Reg.
Local Open Scope string_scope.
Local Open Scope list_scope.

(** A small registry for the examples: [a] is free, [b] is anchored to [a], [c] is anchored to
    [b], [d] is a deterministic variable. *)
Definition doubled (u : list Qc) : result (list Qc) := Ok (map (fun x => qc 2 * x)%Qc u).
Definition shifted (u : list Qc) : result (list Qc) := Ok (map (fun x => qc 1 + x)%Qc u).
Definition demo_a := RV "a" "a" (Transform doubled).
Definition demo_b := RV "b" "a" (Transform shifted).
Definition demo_c := RV "c" "b" (Transform doubled).
Definition demo_d := RV "d" "d" (Utility (deterministic_inverse [qc 7])).
Definition demo_reg := Reg [demo_a; demo_b; demo_c; demo_d] [].
Definition demo_perms := repeat [1%nat; 2%nat; 0%nat] 4.
Definition demo_draws := repeat [qc 0; qc (1 # 2); qc (1 # 4)] 4.
Definition no_copula (rho : matrix) (rows : list (list Qc)) := rows.

Lemma demo_generator count : (count <= 4)%nat -> generator 3 count demo_perms demo_draws.
Proof.
  intros Hc. repeat split.
  - exact Hc.
  - exact Hc.
  - unfold demo_perms. apply Forall_forall. intros p Hp. apply repeat_spec in Hp. subst p. cbn.
    apply perm_trans with [1; 0; 2]%nat; [constructor; apply perm_swap|apply perm_swap].
  - unfold demo_draws. apply Forall_forall. intros p Hp. apply repeat_spec in Hp. subst p. split; [reflexivity|].
    repeat constructor; discriminate.
Qed.
Lemma demo_names : NoDup (map v_name (r_vars demo_reg)).
Proof. cbn. repeat constructor; cbn; intuition discriminate. Qed.
Lemma demo_anchor_b : anchored (r_vars demo_reg) "b" "a".
Proof.
  apply (@anchored_step _ demo_b); [cbn; auto|discriminate|]. apply (@anchored_self _ demo_a); [cbn; auto|reflexivity].
Qed.
Lemma demo_anchor_c : anchored (r_vars demo_reg) "c" "a".
Proof. apply (@anchored_step _ demo_c); [cbn; auto|discriminate|]. exact demo_anchor_b. Qed.
Lemma demo_no_multinomial v : In v (r_vars demo_reg) -> ~ is_multinomial v.
Proof. cbn. intros [<-|[<-|[<-|[<-|[]]]]] (t & E); discriminate E. Qed.

(** * C13 *)

(** With exact arithmetic: whatever permutations and numbers in [0,1) the generator hands out, the
    uniform values of a free variable have exactly one value in each interval [k/n,(k+1)/n) and
    none elsewhere. The variable is not in a set (whose copula changes the values) and no
    multinomial variable is governed by it (see C17). *)
Theorem C13_strata_partial : forall copula perms draws r w n method w' v,
  method = "LHS" \/ method = "LHS_midpoint" ->
  generator n (List.length (r_vars r)) perms draws -> NoDup (map v_name (r_vars r)) ->
  generate_sample copula perms draws r w n method = Ok w' ->
  In v (r_vars r) -> v_anchor v = v_name v ->
  (forall s, In s (r_sets r) -> ~ In (v_name v) (s_names (snd s))) ->
  (forall m, In m (r_vars r) -> is_multinomial m -> ~ anchored (r_vars r) (v_name m) (v_name v)) ->
  exists u, uni_sample (r_vars r) (w_unis w') (v_name v) = Some u /\ latin n u.
Proof.
  intros copula perms draws r w n method w' v Hm Hg Hnd H Hv Ea Hs Hu.
  destruct (generate_split _ _ _ _ _ _ _ _ H) as (unis & Eu & Hf).
  assert (Hfree : is_free v = true) by (unfold is_free; now rewrite Ea, String.eqb_refl).
  destruct (uniforms_row _ _ _ _ _ _ _ _ v Hg Hnd Eu Hv Hfree Hs) as (u & Edu & _ & Hl). exists u. split; [|apply Hl; now apply is_lhs].
  unfold uni_sample.
  assert (Er : root_of (List.length (r_vars r)) (r_vars r) (v_name v) = Some (v_name v)).
  { destruct (List.length (r_vars r)); cbn [root_of]; rewrite (find_rv_found _ _ Hnd Hv), Ea, String.eqb_refl; reflexivity. }
  rewrite Er, (transform_all_unis _ _ _ _ _ _ Hf Hu). exact Edu.
Qed.
Print Assumptions C13_strata_partial.

Example C13_hypotheses_met : exists w', generate_sample no_copula demo_perms demo_draws demo_reg (World [] []) 3 "LHS" = Ok w' /\
  uni_sample (r_vars demo_reg) (w_unis w') "a" = Some [qc (1 # 3); qc (5 # 6); qc (1 # 12)] /\
  dget "b" (w_samples w') = Some [qc (4 # 3); qc (11 # 6); qc (13 # 12)].
Proof. eexists. split; [vm_compute; reflexivity|]. split; qcr. Qed.

(** In binary64 the values reach 1: for n = 2, the second interval and the largest number below 1
    that the generator produces, (1 + (1 - 2^-53)) / 2 is rounded to 1. An empirical variable
    then reads behind the end of its data. *)
Definition binary64 (z : Z) : spec_float := binary_normalize 53 1024 z 0 false.
Definition stratified64 (n bin : Z) (draw : spec_float) : spec_float :=
  SFdiv 53 1024 (SFadd 53 1024 (binary64 bin) draw) (binary64 n).
Theorem C13_binary64_refuted :
  let draw := S754_finite false 9007199254740991 (-53) in
  SFltb draw (binary64 1) = true /\ SFeqb (stratified64 2 1 draw) (binary64 1) = true /\
  SFeqb (stratified64 1000 999 draw) (binary64 1) = true /\
  forall theta, theta <> [] -> empirical_inverse theta 1 = Err IndexError.
Proof.
  cbv zeta. split; [vm_compute; reflexivity|]. split; [vm_compute; reflexivity|]. split; [vm_compute; reflexivity|].
  intros theta Hne. unfold empirical_inverse. replace (1 * qn (List.length theta))%Qc with (qn (List.length theta)) by ring.
  assert (E : to_int (qn (List.length theta)) = Z.of_nat (List.length theta)).
  { replace (qn (List.length theta)) with (1 * qn (List.length theta))%Qc by ring. apply this_mult_qn; [discriminate|].
    replace (1 * qn (List.length theta))%Qc with (qn (List.length theta)) by ring. split; [apply Qcle_refl|]. apply qn_lt. lia. }
  rewrite E. unfold index_at. destruct (Z.ltb_spec (Z.of_nat (List.length theta)) 0); [lia|].
  destruct (Z.ltb_spec (Z.of_nat (List.length theta)) 0); [lia|]. rewrite Nat2Z.id.
  now rewrite (proj2 (nth_error_None theta (List.length theta)) (le_n _)).
Qed.
Print Assumptions C13_binary64_refuted.

(** * C15 *)

(** Without limits, and with two limits c < d inside the range, the values lie in the
    intersection, increase with the uniform value, and the cdf of a value is that uniform value. *)
Theorem C15_partial : forall a b limits lo hi,
  (a < b)%Qc -> (limits = (None, None) /\ lo = a /\ hi = b \/ limits = (Some lo, Some hi) /\ (a <= lo)%Qc /\ (lo < hi)%Qc /\ (hi <= b)%Qc) ->
  (forall u, (0 <= u)%Qc -> (u <= 1)%Qc -> exists x, uniform_inverse (a, b) limits u = Some x /\
     (a <= x)%Qc /\ (x <= b)%Qc /\ (lo <= x)%Qc /\ (x <= hi)%Qc /\ uniform_var_cdf (a, b) limits x = Some u) /\
  (forall u u' x x', (u < u')%Qc -> uniform_inverse (a, b) limits u = Some x -> uniform_inverse (a, b) limits u' = Some x' -> (x < x')%Qc).
Proof.
  intros a b limits lo hi Hab Hl.
  assert (Hb : uniform_bounds (a, b) limits = (Some lo, Some hi)) by (destruct Hl as [(-> & -> & ->)|(-> & _)]; reflexivity).
  assert (Hr : (a <= lo)%Qc /\ (lo < hi)%Qc /\ (hi <= b)%Qc).
  { destruct Hl as [(_ & -> & ->)|(_ & H)]; [|exact H]. split; [apply Qcle_refl|]. split; [exact Hab|apply Qcle_refl]. }
  destruct Hr as (H1 & H2 & H3). unfold uniform_inverse, uniform_var_cdf. rewrite Hb. split.
  - intros u Hu0 Hu1. destruct (uniform_ppf_spec lo hi u H2 Hu0 Hu1) as (E & A & B & C). eexists. split; [exact E|].
    repeat split; try assumption; qlra.
  - intros u u' x x' Hu Hx Hx'. unfold uniform_ppf in Hx, Hx'. rewrite (proj2 (Qcltb_true _ _) H2) in Hx, Hx'.
    destruct (_ && _) in Hx; [|discriminate]. destruct (_ && _) in Hx'; [|discriminate]. injection Hx as <-. injection Hx' as <-. qnra.
Qed.
Print Assumptions C15_partial.

Example C15_hypotheses_met : uniform_inverse (qc 0, qc 10) (Some (qc 2), Some (qc 4)) (qc (1 # 4)) = Some (qc (5 # 2)).
Proof. reflexivity. Qed.

(** Limits that leave the range take the values with them, and a single limit gives NaN always. *)
Theorem C15_refuted :
  (exists a b c d u x, (a < b)%Qc /\ (0 <= u)%Qc /\ (u <= 1)%Qc /\ uniform_inverse (a, b) (Some c, Some d) u = Some x /\ (b < x)%Qc) /\
  (forall a b c u, uniform_inverse (a, b) (Some c, None) u = None /\ uniform_inverse (a, b) (None, Some c) u = None).
Proof.
  split; [|easy]. exists (qc 0), (qc 1), (qc 0), (qc 4), (qc (1 # 2)), (qc 2). repeat split; try reflexivity; discriminate.
Qed.
Print Assumptions C15_refuted.

(** * C16 *)

(** Probabilities summing to more than one are rejected, others accepted; every uniform value
    leads to exactly the outcome whose interval contains it, and there is exactly one. *)
Theorem C16_outcome : forall theta values j u,
  theta <> [] -> Forall (fun p => (0 <= p)%Qc) theta -> multinomial_init false theta = Ok theta ->
  nth_error values j = Some u -> (0 <= u)%Qc -> (u <= 1)%Qc ->
  exists i, (i < List.length theta)%nat /\ nth_error (snd (multinomial_inverse theta values)) j = Some (qn i) /\
    outcome_interval theta i u /\ forall i', outcome_interval theta i' u -> i' = i.
Proof.
  intros theta values j u Hne Hp Hi Hj H0 H1. unfold multinomial_init in Hi.
  destruct (Qcltb_spec 1 (qsum theta)) as [|Hs]; [discriminate|].
  destruct (multinomial_outcome _ _ _ _ Hne Hp Hs Hj H0 H1) as (i & E & Ho). exists i. split; [apply Ho|]. split; [exact E|]. split; [exact Ho|].
  intros i' Ho'. eapply outcome_unique; eassumption.
Qed.
Print Assumptions C16_outcome.

Theorem C16_rejected : forall theta, ((1 < qsum theta)%Qc -> multinomial_init false theta = Err ValueError) /\
  ((qsum theta <= 1)%Qc -> multinomial_init false theta = Ok theta).
Proof.
  intros theta. unfold multinomial_init. destruct (Qcltb_spec 1 (qsum theta)) as [H|H]; split; intros H'; try reflexivity; exfalso; qlra.
Qed.
Print Assumptions C16_rejected.

Example C16_hypotheses_met : multinomial_init false [qc (1 # 5); qc (1 # 2); qc (3 # 10)] = Ok [qc (1 # 5); qc (1 # 2); qc (3 # 10)] /\
  snd (multinomial_inverse [qc (1 # 5); qc (1 # 2); qc (3 # 10)] [qc (1 # 10); qc (1 # 5); qc (7 # 10); qc 1]) = [qc 0; qc 1; qc 2; qc 2].
Proof. split; qcr. Qed.

(** * C17 *)

(** The sample of a variable is computed from the uniform values of the variable at the end of
    its chain of anchors, as they were before any sample was generated - if no multinomial
    variable generated before is governed by the same one. *)
Theorem C17_governed_partial : forall copula perms draws r w n method w' unis pre v post root,
  NoDup (map v_name (r_vars r)) -> generate_sample copula perms draws r w n method = Ok w' ->
  uniforms copula perms draws r (w_unis w) n method = Ok unis ->
  r_vars r = pre ++ v :: post -> anchored (r_vars r) (v_name v) root ->
  (forall m, In m pre -> is_multinomial m -> ~ anchored (r_vars r) (v_name m) root) ->
  (forall f, v_kind v <> Utility f) ->
  exists u s, dget root unis = Some u /\ dget (v_name v) (w_samples w') = Some s /\ sample_from v n u s.
Proof.
  intros copula perms draws r w n method w' unis pre v post root Hnd H Hu Es Ha Ht Hk.
  destruct (generate_sample_of _ _ _ _ _ _ _ _ _ _ _ _ _ Hnd H Hu Es Ha Ht) as [(f & s & Ek & _)|Hs]; [|exact Hs]. now apply Hk in Ek.
Qed.
Print Assumptions C17_governed_partial.

(** And these uniform values are still there afterwards. *)
Theorem C17_intact_partial : forall copula perms draws r w n method w' unis x root,
  generate_sample copula perms draws r w n method = Ok w' ->
  uniforms copula perms draws r (w_unis w) n method = Ok unis ->
  anchored (r_vars r) x root ->
  (forall m, In m (r_vars r) -> is_multinomial m -> ~ anchored (r_vars r) (v_name m) root) ->
  dget root (w_unis w') = dget root unis.
Proof.
  intros copula perms draws r w n method w' unis x root H Hu Ha Ht.
  destruct (generate_split _ _ _ _ _ _ _ _ H) as (unis' & Hu' & Hf). rewrite Hu in Hu'. injection Hu' as <-.
  exact (transform_all_unis _ _ _ _ _ _ Hf Ht).
Qed.
Print Assumptions C17_intact_partial.

(** In a registry without multinomial variables the order of the variables does not matter: the
    same uniform values give the same samples. *)
Theorem C17_order_partial : forall copula copula' perms perms' draws draws' r r' w w1 n method unis unis',
  NoDup (map v_name (r_vars r)) -> Permutation (r_vars r) (r_vars r') ->
  (forall m, In m (r_vars r) -> ~ is_multinomial m) ->
  uniforms copula perms draws r (w_unis w) n method = Ok unis ->
  uniforms copula' perms' draws' r' (w_unis w) n method = Ok unis' ->
  (forall x, dget x unis' = dget x unis) ->
  generate_sample copula perms draws r w n method = Ok w1 ->
  exists w2, generate_sample copula' perms' draws' r' w n method = Ok w2 /\ forall x, dget x (w_samples w2) = dget x (w_samples w1).
Proof.
  intros copula copula' perms perms' draws draws' r r' w w1 n method unis unis' Hnd Hp Hm Hu Hu' Hx H.
  destruct (generate_split _ _ _ _ _ _ _ _ H) as (unis0 & Hu0 & Hf). rewrite Hu in Hu0. injection Hu0 as <-.
  destruct (transform_order _ _ _ _ _ _ _ Hnd Hp Hm Hx Hf) as (w2 & E2 & Hs). exists w2. split; [|exact Hs].
  unfold generate_sample. rewrite Hu'. exact E2.
Qed.
Print Assumptions C17_order_partial.

Example C17_hypotheses_met : exists w', generate_sample no_copula demo_perms demo_draws demo_reg (World [] []) 3 "LHS" = Ok w' /\
  NoDup (map v_name (r_vars demo_reg)) /\ anchored (r_vars demo_reg) "c" "a" /\ (forall v, In v (r_vars demo_reg) -> ~ is_multinomial v) /\
  dget "c" (w_samples w') = Some [qc (2 # 3); qc (5 # 3); qc (1 # 6)].
Proof.
  eexists. split; [vm_compute; reflexivity|]. split; [exact demo_names|]. split; [exact demo_anchor_c|]. split; [exact demo_no_multinomial|].
  qcr.
Qed.

(** A multinomial variable overwrites the uniform values it shares: a variable anchored to it is
    transformed from the numbers 10, 11, ... when it comes later, and from the uniform values
    when it comes before. *)
Definition multi_m := RV "m" "m" (Multinomial [qc (1 # 2); qc (1 # 2)]).
Definition multi_x := RV "x" "m" (Transform doubled).
Theorem C17_refuted :
  (exists w, generate_sample no_copula [[0; 1]]%nat [[qc 0; qc 0]] (Reg [multi_m; multi_x] []) (World [] []) 2 "LHS" = Ok w /\
     dget "m" (w_samples w) = Some [qc 0; qc 1] /\ dget "x" (w_samples w) = Some [qc 20; qc 22] /\ dget "m" (w_unis w) = Some [qc 10; qc 11]) /\
  (exists w, generate_sample no_copula [[0; 1]]%nat [[qc 0; qc 0]] (Reg [multi_x; multi_m] []) (World [] []) 2 "LHS" = Ok w /\
     dget "m" (w_samples w) = Some [qc 0; qc 1] /\ dget "x" (w_samples w) = Some [qc 0; qc 1]).
Proof.
  split; eexists; (split; [vm_compute; reflexivity|]); repeat split; qcr.
Qed.
Print Assumptions C17_refuted.

(** * C18 *)

(** Every uniform value in [0,1) leads to the datum whose interval of length 1/m contains it. *)
Theorem C18_empirical : forall theta u, theta <> [] -> (0 <= u)%Qc -> (u < 1)%Qc ->
  exists i, (i < List.length theta)%nat /\ in_stratum (List.length theta) i u /\
    empirical_inverse theta u = Ok (nth i theta 0%Qc) /\ In (nth i theta 0%Qc) theta.
Proof.
  intros theta u Hne H0 H1. destruct (empirical_spec theta u Hne H0 H1) as (i & Hi & Hs & E). exists i. repeat split; try assumption; try apply Hs.
  now apply nth_In.
Qed.
Print Assumptions C18_empirical.

Example C18_empirical_concrete : empirical_inverse [qc 5; qc 6; qc 7] (qc (2 # 3)) = Ok (qc 7) /\ empirical_inverse [qc 5; qc 6; qc 7] (qc (65 # 100)) = Ok (qc 6).
Proof. split; qcr. Qed.

(** A coupled sample has the requested size and repeats the rows in order: two variables with the
    same number of raw rows take both values of each realization from the same row. *)
Theorem C18_coupled : forall theta n, theta <> [] ->
  exists s, coupled_inverse theta n = Ok s /\ List.length s = n /\
    forall j, (j < n)%nat -> nth j s 0%Qc = nth (j mod List.length theta) theta 0%Qc.
Proof. exact coupled_spec. Qed.
Print Assumptions C18_coupled.

Theorem C18_together : forall theta theta' n s s', theta <> [] -> List.length theta' = List.length theta ->
  coupled_inverse theta n = Ok s -> coupled_inverse theta' n = Ok s' ->
  forall j, (j < n)%nat -> exists row, (row < List.length theta)%nat /\ nth j s 0%Qc = nth row theta 0%Qc /\ nth j s' 0%Qc = nth row theta' 0%Qc.
Proof.
  intros theta theta' n s s' Hne Hl Hs Hs' j Hj.
  assert (Hne' : theta' <> []) by (intros ->; destruct theta; easy).
  destruct (coupled_spec theta n Hne) as (t & Et & _ & Ht). destruct (coupled_spec theta' n Hne') as (t' & Et' & _ & Ht').
  rewrite Hs in Et. injection Et as <-. rewrite Hs' in Et'. injection Et' as <-.
  exists (j mod List.length theta)%nat. split; [apply Nat.mod_upper_bound; destruct theta; easy|].
  split; [now apply Ht|]. rewrite <- Hl. now apply Ht'.
Qed.
Print Assumptions C18_together.

Example C18_coupled_concrete : coupled_inverse [qc 5; qc 6; qc 7] 5 = Ok [qc 5; qc 6; qc 7; qc 5; qc 6].
Proof. qcr. Qed.

(** * C19 *)

(** Whatever the order of the list, the set contains the same variables, and its matrix gives the
    same number for every two names as the caller's. *)
Theorem C19_set : forall names rho, square (List.length names) rho ->
  exists s, make_set names rho = Ok s /\ Permutation (s_names s) names /\ set_rho s None = Ok (s_rho s) /\ square (List.length names) (s_rho s) /\
    forall a b c, correlation (s_names s) (s_rho s) a b c <-> correlation names rho a b c.
Proof.
  intros names rho Hsq. destruct (set_correlations names rho Hsq) as (s & Es & Hp & Hss & Hc). exists s. easy.
Qed.
Print Assumptions C19_set.

(** A subset of the names, in any order, gives the sub-matrix in that order; names that are not in
    the set are an error. *)
Theorem C19_subset : forall names rho s sub, NoDup names -> square (List.length names) rho -> symmetric rho ->
  make_set names rho = Ok s ->
  (incl sub names -> exists m, set_rho s (Some sub) = Ok m /\ square (List.length sub) m /\
     forall i j a b, nth_error sub i = Some a -> nth_error sub j = Some b -> exists c, entry m i j = Some c /\ correlation names rho a b c) /\
  (~ incl sub names -> set_rho s (Some sub) = Err ValueError).
Proof.
  intros names rho s sub Hnd Hsq Hsym Es. destruct (set_correlations names rho Hsq) as (s' & Es' & Hp & Hss & Hc).
  rewrite Es in Es'. injection Es' as <-. split.
  - intros Hi. destruct (@set_rho_spec s (List.length names) sub Hss) as (m & Em & Hm & He).
    + now apply Permutation_length.
    + eapply Permutation_NoDup; [apply Permutation_sym; exact Hp|exact Hnd].
    + intros x Hx. rewrite Hp. now apply Hi.
    + exists m. split; [exact Em|]. split; [exact Hm|]. intros i j a b Ha Hb. destruct (He i j a b Ha Hb) as (c & Ec & Hcor).
      exists c. split; [exact Ec|]. apply Hc in Hcor. now apply correlation_sym.
  - intros Hi. apply set_rho_unknown. intros H. apply Hi. intros x Hx. apply H in Hx. now rewrite Hp in Hx.
Qed.
Print Assumptions C19_subset.

Definition demo_rho : matrix := [[qc 1; qc (1 # 2); qc (1 # 3)]; [qc (1 # 2); qc 1; qc (1 # 5)]; [qc (1 # 3); qc (1 # 5); qc 1]].
Example C19_hypotheses_met : square 3 demo_rho /\ symmetric demo_rho /\
  exists s, make_set ["z"; "x"; "y"] demo_rho = Ok s /\ s_names s = ["x"; "y"; "z"] /\
    s_rho s = [[qc 1; qc (1 # 5); qc (1 # 2)]; [qc (1 # 5); qc 1; qc (1 # 3)]; [qc (1 # 2); qc (1 # 3); qc 1]] /\
    set_rho s (Some ["y"; "z"]) = Ok [[qc 1; qc (1 # 3)]; [qc (1 # 3); qc 1]].
Proof.
  split; [split; [reflexivity|repeat constructor]|]. split.
  - intros i j. do 4 (destruct i as [|i]; [do 4 (destruct j as [|j]; [reflexivity|]); now destruct j|]).
    unfold entry. replace (nth_error demo_rho (S (S (S (S i))))) with (@None (list Qc)) by now destruct i.
    do 3 (destruct j as [|j]; [now destruct i|]). destruct j; reflexivity.
  - eexists. split; [vm_compute; reflexivity|]. repeat split; qcr.
Qed.

(** * C20 *)

(** Adding a variable under a name in use is an error and changes nothing; otherwise it is added,
    found under its name, and the others are found as before. *)
Theorem C20_add : forall r v,
  (In (v_name v) (map v_name (r_vars r)) -> add_rv r v = (r, Some ValueError)) /\
  (~ In (v_name v) (map v_name (r_vars r)) -> exists r', add_rv r v = (r', None) /\ find_rv (r_vars r') (v_name v) = Some v /\
     r_sets r' = r_sets r /\ forall x, x <> v_name v -> find_rv (r_vars r') x = find_rv (r_vars r) x).
Proof.
  intros r v. unfold add_rv. split.
  - intros Hin. destruct (find_rv (r_vars r) (v_name v)) as [w|] eqn:E; [reflexivity|]. now apply find_rv_None in E.
  - intros Hn. apply find_rv_None in Hn as E. rewrite E. eexists. split; [reflexivity|]. cbn [r_vars r_sets].
    split; [rewrite find_rv_app, E; cbn; now rewrite String.eqb_refl|]. split; [reflexivity|]. intros x Hx. rewrite find_rv_app.
    destruct (find_rv (r_vars r) x); [reflexivity|]. cbn. destruct (String.eqb_spec (v_name v) x) as [E'|_]; [congruence|reflexivity].
Qed.
Print Assumptions C20_add.

(** After every history of additions (some of which may have failed) the names are distinct, and
    the variable found under a name is the first one that was added with it. *)
Theorem C20_history : forall vs, let r := add_each (Reg [] []) vs in
  NoDup (map v_name (r_vars r)) /\
  forall x v, find_rv (r_vars r) x = Some v <->
    exists pre post, vs = pre ++ v :: post /\ v_name v = x /\ ~ In x (map v_name pre).
Proof.
  intros vs. cbv zeta. destruct (add_each_spec vs (Reg [] [])) as (A & _ & C); [constructor|]. split; [exact A|].
  intros x v. rewrite C. cbn [r_vars app]. clear. unfold find_rv. induction vs as [|w vs IH].
  - split; [discriminate|]. intros (pre & post & E & _). now destruct pre.
  - cbn [find]. destruct (String.eqb_spec (v_name w) x) as [Ew|Ew].
    + split.
      * intros E. injection E as <-. exists [], vs. now split.
      * intros ([|p pre] & post & E & Hx & Hn); [injection E as -> _; reflexivity|]. injection E as <- _. exfalso. apply Hn. now left.
    + rewrite IH. split.
      * intros (pre & post & -> & Hx & Hn). exists (w :: pre), post. split; [reflexivity|]. split; [exact Hx|]. intros [Hw|Hin]; [now apply Ew|now apply Hn].
      * intros ([|p pre] & post & E & Hx & Hn); [injection E as -> _; easy|]. injection E as <- ->. exists pre, post.
        split; [reflexivity|]. split; [exact Hx|]. intros Hin. apply Hn. now right.
Qed.
Print Assumptions C20_history.

(** Every successful generation leaves every variable with a sample of the requested size. *)
Theorem C20_sizes : forall copula perms draws r w n method w',
  generator n (List.length (r_vars r)) perms draws -> NoDup (map v_name (r_vars r)) -> keeps_shape n copula ->
  (forall v, In v (r_vars r) -> keeps_size v) ->
  generate_sample copula perms draws r w n method = Ok w' ->
  forall v, In v (r_vars r) -> exists s, dget (v_name v) (w_samples w') = Some s /\ List.length s = n.
Proof.
  intros copula perms draws r w n method w' Hg Hnd Hc Hk H v Hv.
  destruct (generate_split _ _ _ _ _ _ _ _ H) as (unis & Hu & Hf).
  eapply transform_sizes; [exact Hf|exact Hk| |exact Hnd|exact Hv]. cbn [w_unis].
  exact (uniforms_length _ _ _ _ _ _ _ _ Hg Hnd Hc Hu).
Qed.
Print Assumptions C20_sizes.

Example C20_hypotheses_met : generator 3 (List.length (r_vars demo_reg)) demo_perms demo_draws /\ keeps_shape 3 no_copula /\
  (forall v, In v (r_vars demo_reg) -> keeps_size v) /\
  r_vars (add_each (Reg [] []) [demo_a; demo_b; RV "a" "a" (Transform shifted); demo_c; demo_d]) = r_vars demo_reg /\
  is_ok (generate_sample no_copula demo_perms demo_draws demo_reg (World [] []) 3 "LHS_midpoint") = true.
Proof.
  split; [apply demo_generator; cbn; lia|]. split; [now intros rho rows H|]. split; [|split; [reflexivity|vm_compute; reflexivity]].
  cbn. intros v [<-|[<-|[<-|[<-|[]]]]]; cbn.
  1-3: intros u s E; injection E as <-; apply map_length.
  intros n s E. injection E as <-. apply repeat_length.
Qed.

(** * C22 *)

(** Accepted exactly when the points start at probability 0, end at probability 1, and both
    coordinates grow by more than 1e-8 from each point to the next (numpy's isclose). *)
Theorem C22_accepted_partial : forall theta, multilinear_init false theta = Ok theta <-> valid_cdf (qc (1 # 100000000)) theta.
Proof. exact multilinear_init_spec. Qed.
Print Assumptions C22_accepted_partial.

(** Valid cdfs with points closer than that are rejected. *)
Theorem C22_close_points_refuted : exists theta, valid_cdf 0 theta /\ multilinear_init false theta = Err ValueError.
Proof.
  exists [(qc 0, qc 0); (qc (1 # 1000000000), qc (1 # 2)); (qc 1, qc 1)]. split; [|vm_compute; reflexivity].
  exists (qc 0, qc 0). repeat split; reflexivity.
Qed.
Print Assumptions C22_close_points_refuted.

(** Samples lie between the first and the last point, increase with the uniform value, and have
    that value as their cdf; between the end points the cdf is undone by the inverse. *)
Theorem C22_inverse : forall theta, multilinear_init false theta = Ok theta ->
  (forall u, (0 <= u)%Qc -> (u <= 1)%Qc ->
     (fst (nth 0 theta (0, 0)) <= multilinear_inverse theta u)%Qc /\ (multilinear_inverse theta u <= fst (last theta (0, 0)))%Qc /\
     multilinear_cdf theta (multilinear_inverse theta u) = u) /\
  (forall u u', (0 <= u)%Qc -> (u < u')%Qc -> (u' <= 1)%Qc -> (multilinear_inverse theta u < multilinear_inverse theta u')%Qc) /\
  (forall x, (fst (nth 0 theta (0, 0)) <= x)%Qc -> (x <= fst (last theta (0, 0)))%Qc -> multilinear_inverse theta (multilinear_cdf theta x) = x).
Proof.
  intros theta H. apply multilinear_init_spec in H. assert (Hg : (0 <= qc (1 # 100000000))%Qc) by discriminate.
  split; [|split].
  - intros u H0 H1. exact (multilinear_inverse_spec _ _ u Hg H H0 H1).
  - intros u u' H0 Hlt H1. assert (Hle : (u <= u')%Qc) by qlra.
    pose proof (multilinear_inverse_monotone _ _ u u' Hg H H0 Hle H1) as Hm. apply Qcle_lt_or_eq in Hm. destruct Hm as [|E]; [assumption|].
    exfalso. destruct (multilinear_inverse_spec _ _ u Hg H H0) as (_ & _ & E1); [qlra|].
    destruct (multilinear_inverse_spec _ _ u' Hg H) as (_ & _ & E2); [qlra|assumption|]. cbv zeta in *. rewrite E, E2 in E1. subst. qlra.
  - intros x Hlo Hhi. exact (multilinear_inverse_cdf _ _ x Hg H Hlo Hhi).
Qed.
Print Assumptions C22_inverse.

Example C22_hypotheses_met :
  let theta := [(qc 1, qc 0); (qc 2, qc (1 # 4)); (qc 5, qc 1)] in
  multilinear_init false theta = Ok theta /\ multilinear_inverse theta (qc (1 # 2)) = qc 3 /\ multilinear_cdf theta (qc 3) = qc (1 # 2) /\
  multilinear_cdf theta (qc 0) = qc 0 /\ multilinear_cdf theta (qc 6) = qc 1.
Proof. cbv zeta. repeat split; qcr. Qed.
