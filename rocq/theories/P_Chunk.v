(** Proofs about the chunks of a regional run. *)
From Coq Require Import Sorting.Permutation Sorting.Sorted.
From Verif Require Import Prelude PreludeFacts Pandas PandasFacts M_Base M_Damage M_Params M_Asset M_Outputs M_Chunk S_Params S_Asset S_Outputs S_Chunk
  P_Base P_Text P_Params P_Loc P_Asset P_Qty P_Assess P_Outputs.
Set Implicit Arguments.
Local Open Scope string_scope.
Local Open Scope list_scope.

Lemma number_read z : pyint (str_of_Z z) = Some z. 
Proof.
  unfold str_of_Z. destruct (Z.ltb_spec z 0) as [H|H].
  - unfold pyint. rewrite strip_spaceless.
    + cbn [Ascii.eqb]. change (Ascii.eqb "-" "-") with true. cbn match. rewrite str_of_nat_parse. cbn. f_equal. lia.
    + intros a Ha. cbn [has_char] in Ha. apply orb_true_iff in Ha as [Ha|Ha]; [apply Ascii.eqb_eq in Ha; now subst a|exact (digits_spaceless _ (str_of_nat_digits _) _ Ha)].
  - rewrite pyint_str_of_nat. f_equal. lia.
Qed.
Lemma numbers_listed zs : (2 <= List.length zs)%nat -> listed (join "," (map str_of_Z zs)) zs.
Proof.
  intros H. exists (map str_of_Z zs). split; [now rewrite map_length|]. split; [reflexivity|]. clear H.
  induction zs; constructor; [apply number_read|assumption].
Qed.
Lemma numbers_location stories zs : zs <> [] -> get_locations stories (join "," (map str_of_Z zs)) = Ok (map str_of_Z zs).
Proof.
  intros H. apply location_of_list. destruct zs as [|z [|z' zs]]; [contradiction| |].
  - left. exists z. split; [apply number_read|reflexivity].
  - right. apply numbers_listed. cbn. lia.
Qed.
Lemma numbers_direction zs : zs <> [] -> get_directions (Some (join "," (map str_of_Z zs))) = Ok (map str_of_Z zs).
Proof.
  intros H. apply direction_form_ok. destruct zs as [|z [|z' zs]]; [contradiction| |].
  - apply one_number. apply number_read.
  - apply a_list. apply numbers_listed. cbn. lia.
Qed.
Lemma all_numbers (l : list string) : (forall x, In x l -> exists z, x = str_of_Z z) -> exists zs, l = map str_of_Z zs.
Proof.
  induction l as [|x l IH]; intros H; [now exists []|]. destruct (H x (or_introl eq_refl)) as (z & ->). destruct IH as (zs & ->); [intros y Hy; apply H; now right|].
  now exists (z :: zs).
Qed.
Lemma unique_numbers (l : list string) : l <> [] -> (forall x, In x l -> exists z, x = str_of_Z z) ->
  exists zs, zs <> [] /\ NoDup zs /\ unique_list l = join "," (map str_of_Z zs) /\ forall z, In z zs <-> In (str_of_Z z) l.
Proof.
  intros Hl H. destruct (@all_numbers (unique String.eqb l)) as (zs & E).
  { intros x Hx. apply (proj1 (unique_In String.eqb String.eqb_eq _ _)) in Hx. now apply H. }
  assert (I : forall z, In z zs <-> In (str_of_Z z) l).
  { intros z. rewrite <- (unique_In String.eqb String.eqb_eq l), E, in_map_iff. split; [intros Hz; now exists z|]. intros (z' & Ez & Hz). apply str_of_Z_inj in Ez. now subst z'. }
  exists zs. split; [|split; [|split; [unfold unique_list; now rewrite E|exact I]]].
  - intros ->. cbn in E. destruct l as [|x l]; [contradiction|]. assert (X : In x (unique String.eqb (x :: l))) by (apply (unique_In String.eqb String.eqb_eq); now left). rewrite E in X. destruct X.
  - apply (NoDup_map_inv str_of_Z). rewrite <- E. apply (unique_NoDup String.eqb String.eqb_eq).
Qed.

(** ** Components *)

Definition relocate (b : Z) (r : assign_row) : assign_row :=
  AR (a_cmp r) (str_of_Z b) (a_direction r) (a_unit r) (a_family r) (a_theta0 r) (a_theta1 r) (a_theta2 r) (a_lower r) (a_upper r) (a_blocks r).
Lemma located_In chunk x : In x (located chunk) <-> exists b rs r, In (b, rs) chunk /\ In r rs /\ x = relocate b r.
Proof.
  unfold located. rewrite in_flat_map. split.
  - intros ([b rs] & Hb & Hx). apply in_map_iff in Hx as (r & <- & Hr). now exists b, rs, r.
  - intros (b & rs & r & Hb & Hr & ->). exists (b, rs). split; [exact Hb|]. apply in_map_iff. now exists r.
Qed.
Lemma num_eqb_eq a b : num_eqb a b = true <-> a = b.
Proof.
  destruct a as [x|], b as [y|]; cbn; try (split; [discriminate|discriminate]); [|split; reflexivity].
  unfold Qceqb. destruct (Qc_eq_dec x y) as [->|N]; split; try reflexivity; try discriminate. intros H. injection H as ->. contradiction.
Qed.
Lemma unique_one {A} (eqb : A -> A -> bool) (eqb_eq : forall a b, eqb a b = true <-> a = b) l x : unique eqb l = [x] <-> l <> [] /\ forall y, In y l -> y = x.
Proof.
  split.
  - intros E. split; [intros ->; discriminate E|]. intros y Hy. apply (proj2 (unique_In eqb eqb_eq _ _)) in Hy. rewrite E in Hy. now destruct Hy as [<-|[]].
  - intros [Hl H]. assert (F : forall y, In y (unique eqb l) -> y = x) by (intros y Hy; apply (proj1 (unique_In eqb eqb_eq _ _)) in Hy; now apply H).
    pose proof (unique_NoDup eqb eqb_eq l) as N. destruct (unique eqb l) as [|a [|b u]] eqn:E.
    + destruct l as [|a l]; [contradiction|]. assert (X : In a (unique eqb (a :: l))) by (apply (unique_In eqb eqb_eq); now left). rewrite E in X. destruct X.
    + now rewrite (F a (or_introl eq_refl)).
    + exfalso. inversion N as [|? ? N1 N2]. subst. apply N1. rewrite (F a (or_introl eq_refl)), (F b (or_intror (or_introl eq_refl))). now left.
Qed.

(** The rows of a component in a chunk. *)
Definition rows_of (chunk : list (Z * list assign_row)) (c : string) : list assign_row :=
  group_rows String.eqb c (map (fun r => (a_cmp r, r)) (located chunk)).
Lemma rows_of_In chunk c x : In x (rows_of chunk c) <-> exists b rs r, In (b, rs) chunk /\ In r rs /\ x = relocate b r /\ a_cmp r = c.
Proof.
  unfold rows_of. rewrite (In_group_rows String.eqb String.eqb_eq), in_map_iff. split.
  - intros (y & E & Hy). injection E as E1 E2. subst y. apply located_In in Hy as (b & rs & r & Hb & Hr & ->). now exists b, rs, r.
  - intros (b & rs & r & Hb & Hr & -> & E). exists (relocate b r). split; [cbn; now rewrite E|]. apply located_In. now exists b, rs, r.
Qed.
Lemma component_listed chunk c : In c (map fst (map (fun r => (a_cmp r, r)) (located chunk))) <-> exists b rs r, In (b, rs) chunk /\ In r rs /\ a_cmp r = c.
Proof.
  rewrite map_map, in_map_iff. cbn [fst]. split.
  - intros (x & E & Hx). apply located_In in Hx as (b & rs & r & Hb & Hr & ->). now exists b, rs, r.
  - intros (b & rs & r & Hb & Hr & E). exists (relocate b r). split; [exact E|]. apply located_In. now exists b, rs, r.
Qed.
Lemma chunk_rows_In chunk rows : chunk_rows chunk = Ok rows ->
  (forall R, In R rows <-> (exists b rs r, In (b, rs) chunk /\ In r rs /\ a_cmp r = a_cmp R) /\ chunk_row (a_cmp R, rows_of chunk (a_cmp R)) = Ok R) /\
  NoDup (map a_cmp rows).
Proof.
  intros H. unfold chunk_rows in H. apply mapM_Forall2 in H.
  assert (Hc : forall g R, chunk_row g = Ok R -> a_cmp R = fst g). { intros [c rs] R. unfold chunk_row. destruct (unique _ _) as [|q [|? ?]]; try discriminate. intros E. now injection E as <-. }
  assert (Em : map a_cmp rows = map fst (groupby String.eqb str_le (map (fun r => (a_cmp r, r)) (located chunk)))).
  { revert H Hc. generalize (groupby String.eqb str_le (map (fun r => (a_cmp r, r)) (located chunk))). intros gs H Hc. clear - H Hc.
    induction H as [|g R gs rows Hg F IH]; [reflexivity|]. cbn. now rewrite IH, (Hc _ _ Hg). }
  split.
  - intros R. split.
    + intros HR. destruct (Forall2_In_r _ H HR) as ([c rs] & Hg & E). apply (groupby_In String.eqb str_le String.eqb_eq) in Hg as [Hk ->]. pose proof (Hc _ _ E) as EC. cbn [fst] in EC. subst c.
      split; [now apply component_listed|exact E].
    + intros [Hk E]. apply component_listed in Hk. assert (Hg : In (a_cmp R, rows_of chunk (a_cmp R)) (groupby String.eqb str_le (map (fun r => (a_cmp r, r)) (located chunk)))).
      { apply (groupby_In String.eqb str_le String.eqb_eq). split; [exact Hk|reflexivity]. }
      destruct (Forall2_In_l _ H Hg) as (R' & HR' & E'). rewrite E in E'. now injection E' as <-.
  - rewrite Em. apply (groupby_NoDup String.eqb str_le String.eqb_eq).
Qed.
Lemma chunk_row_form chunk c R : complete chunk -> (exists b rs r, In (b, rs) chunk /\ In r rs /\ a_cmp r = c) -> chunk_row (c, rows_of chunk c) = Ok R ->
  exists bs ds q, bs <> [] /\ ds <> [] /\ NoDup bs /\ NoDup ds /\
    (forall b, In b bs <-> exists d r, has_component chunk b c d r) /\ (forall d, In d ds <-> exists b r, has_component chunk b c d r) /\
    (forall b rs r, In (b, rs) chunk -> In r rs -> a_cmp r = c -> a_theta0 r = q) /\
    R = AR c (join "," (map str_of_Z bs)) (Some (join "," (map str_of_Z ds))) (Some (unique_list (map (fun r => cell_text (a_unit r)) (rows_of chunk c)))) None q None None None None None.
Proof.
  intros Hcomp (b0 & rs0 & r0 & Hb0 & Hr0 & E0) H.
  assert (Hin : In (relocate b0 r0) (rows_of chunk c)) by (apply rows_of_In; now exists b0, rs0, r0).
  unfold chunk_row in H. cbn [fst snd] in H. destruct (unique num_eqb (map a_theta0 (rows_of chunk c))) as [|q [|? ?]] eqn:Q; try discriminate. injection H as <-.
  apply (unique_one num_eqb num_eqb_eq) in Q as [_ Q].
  destruct (@unique_numbers (map a_location (rows_of chunk c))) as (bs & N1 & D1 & -> & I1).
  { intros E. apply (in_map a_location) in Hin. rewrite E in Hin. destruct Hin. }
  { intros x Hx. apply in_map_iff in Hx as (y & <- & Hy). apply rows_of_In in Hy as (b & rs & r & _ & _ & -> & _). now exists b. }
  destruct (@unique_numbers (map (fun r => cell_text (a_direction r)) (rows_of chunk c))) as (ds & N2 & D2 & -> & I2).
  { intros E. apply (in_map (fun r => cell_text (a_direction r))) in Hin. rewrite E in Hin. destruct Hin. }
  { intros x Hx. apply in_map_iff in Hx as (y & <- & Hy). apply rows_of_In in Hy as (b & rs & r & Hb & Hr & -> & _). destruct (Hcomp b rs r Hb Hr) as [(d & Ed) _]. exists d. cbn. now rewrite Ed. }
  exists bs, ds, q. split; [exact N1|]. split; [exact N2|]. split; [exact D1|]. split; [exact D2|]. split; [|split; [|split; [|reflexivity]]].
  - intros b. rewrite I1, in_map_iff. split.
    + intros (y & E & Hy). apply rows_of_In in Hy as (b' & rs & r & Hb & Hr & -> & Ec). cbn in E. apply str_of_Z_inj in E. subst b'.
      destruct (Hcomp b rs r Hb Hr) as [(d & Ed) _]. exists d, r, rs. auto.
    + intros (d & r & rs & Hb & Hr & Ec & Ed). exists (relocate b r). split; [reflexivity|]. apply rows_of_In. now exists b, rs, r.
  - intros d. rewrite I2, in_map_iff. split.
    + intros (y & E & Hy). apply rows_of_In in Hy as (b & rs & r & Hb & Hr & -> & Ec). cbn in E. destruct (Hcomp b rs r Hb Hr) as [(d' & Ed) _]. rewrite Ed in E. cbn in E. apply str_of_Z_inj in E. subst d'.
      exists b, r, rs. auto.
    + intros (b & r & rs & Hb & Hr & Ec & Ed). exists (relocate b r). split; [cbn; now rewrite Ed|]. apply rows_of_In. now exists b, rs, r.
  - intros b rs r Hb Hr Ec. apply (Q (a_theta0 (relocate b r))). apply in_map. apply rows_of_In. now exists b, rs, r.
Qed.

Lemma NoDup_list_prod {A B} (l : list A) (l' : list B) : NoDup l -> NoDup l' -> NoDup (list_prod l l').
Proof.
  intros H H'. induction H as [|x l N H IH]; [constructor|]. cbn [list_prod]. apply NoDup_app_iff. split; [|split; [exact IH|]].
  - apply FinFun.Injective_map_NoDup; [|exact H']. intros a b E. now injection E as ->.
  - intros [a b] Hx Hy. apply in_map_iff in Hx as (b' & E & _). injection E as <- <-. apply in_prod_iff in Hy as [Hy _]. contradiction.
Qed.
Lemma first_unit_only rows R u : NoDup (map a_cmp rows) -> In R rows -> first_unit rows (a_cmp R) u -> a_unit R = Some u.
Proof.
  intros N HR (before & r & after & E & Ec & Eu & _). assert (r = R); [|now subst r].
  assert (Hr : In r rows) by (rewrite E; apply in_or_app; right; now left). clear E. revert N HR Hr. clear - Ec. induction rows as [|x rows IH]; [intros _ []|].
  intros N HR Hr. inversion N as [|? ? N1 N2]. subst. destruct HR as [->|HR], Hr as [->|Hr]; [reflexivity| | |now apply IH].
  - exfalso. apply N1. rewrite <- Ec. now apply in_map.
  - exfalso. apply N1. rewrite Ec. now apply in_map.
Qed.
Lemma label_four (g : list string) a b c : removelast g = [a; b; c] <-> exists u, g = [a; b; c; u].
Proof.
  split.
  - intros H. destruct g as [|x g]; [discriminate|]. assert (E : x :: g = removelast (x :: g) ++ [last (x :: g) ""]) by (apply app_removelast_last; discriminate).
    rewrite H in E. now exists (last (x :: g) "").
  - intros (u & ->). reflexivity.
Qed.
(** What is loaded for a chunk. *)
Lemma load_chunk_entries e chunk units groups : complete chunk -> load_chunk e chunk = Ok (units, groups) ->
  exists entries, Permutation (map (fun g => (removelast (fst g), snd g)) groups) entries /\ NoDup (map fst entries) /\
    (forall x m, In (x, m) entries <-> exists c b d f q, x = [c; str_of_Z b; str_of_Z d] /\ m = fixed (scaled f q) /\
       (exists d' r, has_component chunk b c d' r) /\ (exists b' r, has_component chunk b' c d r) /\
       (forall b rs r, In (b, rs) chunk -> In r rs -> a_cmp r = c -> a_theta0 r = q) /\
       unit_factor e (unique_list (map (fun r => cell_text (a_unit r)) (rows_of chunk c))) f).
Proof.
  intros Hc H. unfold load_chunk in H. destruct (chunk_rows chunk) as [rows|] eqn:E; [|discriminate]. cbn [bind] in H.
  destruct (chunk_rows_In _ E) as [HR ND]. destruct (@load_groups _ _ _ _ _ H) as (factor & (pss & F & _ & P) & _ & Hf). clear H.
  eexists. split; [exact P|].
  assert (Hrow : forall R ps, In (R, ps) (combine rows pss) -> exists bs ds q, bs <> [] /\ ds <> [] /\ NoDup bs /\ NoDup ds /\ ps = list_prod (map str_of_Z bs) (map str_of_Z ds) /\
     (forall b, In b bs <-> exists d r, has_component chunk b (a_cmp R) d r) /\ (forall d, In d ds <-> exists b r, has_component chunk b (a_cmp R) d r) /\
     (forall b rs r, In (b, rs) chunk -> In r rs -> a_cmp r = a_cmp R -> a_theta0 r = q) /\ S_Asset.quantity (factor R) R = fixed (scaled (factor R) q) /\
     unit_factor e (unique_list (map (fun r => cell_text (a_unit r)) (rows_of chunk (a_cmp R)))) (factor R)).
  { intros R ps HRp. assert (HRin : In R rows) by (now apply in_combine_l in HRp). assert (Hpl : places None R ps).
    { clear - F HRp. induction F as [|x y l l' Hp F IH]; [destruct HRp|]. destruct HRp as [E|HRp]; [now injection E as -> ->|now apply IH]. }
    destruct (proj1 (HR R) HRin) as [Hk Er]. destruct (chunk_row_form Hc Hk Er) as (bs & ds & q & N1 & N2 & D1 & D2 & I1 & I2 & Q & ER).
    exists bs, ds, q. destruct Hpl as (locs & dirs & L & D & ->). rewrite ER in L, D. cbn [a_location a_direction cell_text] in L, D.
    rewrite numbers_location in L by exact N1. rewrite numbers_direction in D by exact N2. injection L as <-. injection D as <-.
    do 8 (split; [first [assumption|reflexivity]|]). split.
    - rewrite ER. reflexivity.
    - destruct (Hf R HRin) as (u & Fu & [U|(locs & dirs & L & D & Ep)]).
      + pose proof (@first_unit_only _ _ _ ND HRin Fu) as Eu. rewrite ER in Eu at 1. cbn [a_unit] in Eu. injection Eu as <-. exact U.
      + exfalso. rewrite ER in L, D. cbn [a_location a_direction cell_text] in L, D. rewrite numbers_location in L by exact N1. rewrite numbers_direction in D by exact N2.
        injection L as <-. injection D as <-. destruct bs as [|b bs]; [contradiction|]. destruct ds as [|d ds]; [contradiction|]. discriminate Ep. }
  split.
  - assert (NDc : NoDup (map (fun rp : assign_row * list (string * string) => a_cmp (fst rp)) (combine rows pss))).
    { clear - F ND. induction F as [|x y l l' Hp F IH]; [constructor|]. cbn [combine map fst] in *. inversion ND as [|? ? N1 N2]. subst. constructor; [|now apply IH].
      intros Hin. apply in_map_iff in Hin as ([R ps] & E & HRp). apply N1. rewrite <- E. apply in_map. now apply in_combine_l in HRp. }
    revert Hrow NDc. generalize (combine rows pss). intros l Hrow NDc. induction l as [|[R ps] l IH]; [constructor|]. cbn [flat_map]. rewrite map_app. cbn [map] in NDc. inversion NDc as [|? ? N1 N2]. subst.
    apply NoDup_app_iff. split; [|split].
    + destruct (Hrow R ps (or_introl eq_refl)) as (bs & ds & q & _ & _ & D1 & D2 & -> & _). rewrite map_map. cbn [fst].
      apply FinFun.Injective_map_NoDup; [intros [x y] [x' y'] Exy; cbn in Exy; now injection Exy as -> ->|].
      apply NoDup_list_prod; (apply FinFun.Injective_map_NoDup; [intros z z'; apply str_of_Z_inj|assumption]).
    + apply IH; [|exact N2]. intros R' ps' HRp. apply Hrow. now right.
    + intros x Hx Hx'. apply in_map_iff in Hx as ([x1 m1] & <- & Hx). apply in_map_iff in Hx as (p & Ep & _). cbn [fst snd] in Ep. injection Ep as Ep _. subst x1. cbn [fst] in Hx'.
      apply in_map_iff in Hx' as ([x2 m2] & Ex & Hx'). apply in_flat_map in Hx' as ([R2 ps2] & HR2 & Hx'). apply in_map_iff in Hx' as (p2 & Ep & _). cbn [fst snd] in Ep, Ex. injection Ep as Ep _. rewrite <- Ep in Ex. clear Ep.
      injection Ex as Ec _ _. apply N1. rewrite <- Ec. cbn [fst]. apply (in_map (fun rp : assign_row * list (string * string) => a_cmp (fst rp)) _ _ HR2).
  - intros x m. rewrite in_flat_map. split.
    + intros ([R ps] & HRp & Hx). destruct (Hrow R ps HRp) as (bs & ds & q & _ & _ & _ & _ & -> & I1 & I2 & Q & Em & U). apply in_map_iff in Hx as ([x1 y1] & Ex & Hp). cbn [fst snd] in Ex.
      injection Ex as <- <-. apply in_prod_iff in Hp as [Hx Hy]. apply in_map_iff in Hx as (b & <- & Hb). apply in_map_iff in Hy as (d & <- & Hd).
      exists (a_cmp R), b, d, (factor R), q. split; [reflexivity|]. split; [exact Em|]. split; [now apply I1|]. split; [now apply I2|]. split; [exact Q|exact U].
    + intros (c & b & d & f & q & -> & -> & Hb & Hd & Q & U).
      assert (HR' : exists R, In R rows /\ a_cmp R = c).
      { destruct Hb as (d' & r & rs & Hb & Hr & Ec & _). unfold chunk_rows in E. apply mapM_Forall2 in E.
        assert (Hg : In (c, rows_of chunk c) (groupby String.eqb str_le (map (fun r => (a_cmp r, r)) (located chunk)))).
        { apply (groupby_In String.eqb str_le String.eqb_eq). split; [apply component_listed; now exists b, rs, r|reflexivity]. }
        destruct (Forall2_In_l _ E Hg) as (R & HRin & ER). exists R. split; [exact HRin|]. unfold chunk_row in ER. destruct (unique _ _) as [|q' [|? ?]]; try discriminate. now injection ER as <-. }
      destruct HR' as (R & HRin & <-). assert (HRp : exists ps, In (R, ps) (combine rows pss)).
      { clear - F HRin. induction F as [|x y l l' Hp F IH]; [destruct HRin|]. destruct HRin as [->|HRin]; [exists y; now left|]. destruct (IH HRin) as (ps & Hps). exists ps. now right. }
      destruct HRp as (ps & HRp). exists (R, ps). split; [exact HRp|]. destruct (Hrow R ps HRp) as (bs & ds & q' & _ & _ & _ & _ & -> & I1 & I2 & Q' & Em & U').
      apply in_map_iff. exists (str_of_Z b, str_of_Z d). cbn [fst snd]. split.
      * f_equal. rewrite Em. f_equal. f_equal; [apply calc_unit_factor in U, U'; congruence|]. destruct Hb as (d' & r & rs & Hb & Hr & Ec & _). rewrite <- (Q b rs r Hb Hr Ec). symmetry. now apply (Q' b rs r Hb Hr).
      * apply in_prod_iff. split; apply in_map; [now apply I1|now apply I2].
Qed.

(** ** Losses *)

Lemma number_no_comma z : has_char "," (str_of_Z z) = false.
Proof. exact (pyint_comma _ (number_read z)). Qed.
Lemma unique_same_list {l : list string} : NoDup l -> unique String.eqb l = l.
Proof.
  unfold unique. intros H. enough (G : forall seen, (forall x, In x l -> ~ In x seen) -> unique_acc String.eqb seen l = l) by (apply G; intros x _ []).
  induction H as [|x l N H IH]; intros seen Hs; [reflexivity|]. cbn [unique_acc]. destruct (existsb (String.eqb x) seen) eqn:E.
  - exfalso. apply existsb_exists in E as (y & Hy & E). apply String.eqb_eq in E. subst y. exact (Hs x (or_introl eq_refl) Hy).
  - f_equal. apply IH. intros y Hy [->|Hy2]; [contradiction|]. exact (Hs y (or_intror Hy) Hy2).
Qed.
Lemma ids_back ids : ids <> [] -> NoDup ids -> int_list (unique_list (map str_of_Z ids)) = Ok ids.
Proof.
  intros Hne H. unfold unique_list. rewrite unique_same_list by (apply FinFun.Injective_map_NoDup; [intros a b; apply str_of_Z_inj|exact H]).
  unfold int_list. rewrite split_join.
  - apply mapM_Forall2. clear. induction ids; constructor; [now rewrite number_read|assumption].
  - now destruct ids.
  - apply Forall_forall. intros x Hx. apply in_map_iff in Hx as (z & <- & _). apply number_no_comma.
Qed.
Lemma occupancy_In buildings o ids : In (o, ids) (occupancy_groups buildings) -> NoDup (map fst buildings) ->
  ids <> [] /\ NoDup ids /\ forall z, In z ids <-> In (z, Some o) buildings.
Proof.
  intros H N. unfold occupancy_groups in H. apply (groupby_In String.eqb str_le String.eqb_eq) in H as [Hk ->].
  assert (I : forall z, In z (group_rows String.eqb o (flat_map (fun b => match snd b with Some o0 => [(o0, fst b)] | None => [] end) buildings)) <-> In (z, Some o) buildings).
  { intros z. rewrite (In_group_rows String.eqb String.eqb_eq), in_flat_map. split.
    - intros ([z' [o'|]] & Hb & Hz); cbn in Hz; [|destruct Hz]. destruct Hz as [E|[]]. now injection E as -> ->.
    - intros Hz. exists (z, Some o). split; [exact Hz|now left]. }
  split; [|split; [|exact I]].
  - apply in_map_iff in Hk as ([o' z] & E & Hz). cbn in E. subst o'. intros E. assert (X : In z []) by (rewrite <- E; apply (In_group_rows String.eqb String.eqb_eq); exact Hz). destruct X.
  - clear I Hk. induction buildings as [|[z [o'|]] bs IH]; [constructor| |].
    + inversion N as [|? ? N1 N2]. subst. specialize (IH N2). unfold group_rows in *. cbn [flat_map snd fst app filter]. destruct (String.eqb o o') eqn:E; [|exact IH]. cbn [map snd]. constructor; [|exact IH].
      intros Hin. apply N1. apply in_map_iff in Hin as ([o1 z1] & E1 & Hin). cbn in E1. subst z1. apply filter_In in Hin as [Hin _]. apply in_flat_map in Hin as ([z2 [o2|]] & Hb & Hz); cbn in Hz; [|destruct Hz].
      destruct Hz as [E2|[]]. injection E2 as _ <-. apply (in_map fst) in Hb. exact Hb.
    + inversion N as [|? ? N1 N2]. subst. exact (IH N2).
Qed.
Lemma occupancy_listed buildings z o : In (z, Some o) buildings -> exists ids, In (o, ids) (occupancy_groups buildings).
Proof.
  intros H. eexists. unfold occupancy_groups. apply (groupby_In String.eqb str_le String.eqb_eq). split; [|reflexivity].
  apply in_map_iff. exists (o, z). split; [reflexivity|]. apply in_flat_map. exists (z, Some o). split; [exact H|now left].
Qed.
Lemma class_damage_same buildings damage lookup o ids : Forall2 (fun c z => int_text (nth 1 (fst c) "") = Ok z) damage lookup ->
  (forall z, In z ids <-> In (z, Some o) buildings) ->
  damage_at (map str_of_Z (filter (fun z => existsb (Z.eqb z) lookup) ids)) damage = class_damage buildings damage o.
Proof.
  intros F I. unfold damage_at, class_damage. apply filter_ext_in. intros c Hc. apply eq_iff_eq_true. rewrite existsb_exists. split.
  - intros H. apply mem_true in H. apply in_map_iff in H as (z & E & Hz). apply filter_In in Hz as [Hz _]. exists (z, Some o). split; [now apply I|]. cbn.
    apply andb_true_iff. split; apply String.eqb_eq; [reflexivity|exact E].
  - intros ([z [o'|]] & Hb & E); cbn in E; [|discriminate]. apply andb_true_iff in E as [E1 E2]. apply String.eqb_eq in E1, E2. subst o'.
    apply mem_true. apply in_map_iff. exists z. split; [exact E2|]. apply filter_In. split; [now apply I|]. apply existsb_exists.
    destruct (Forall2_In_l _ F Hc) as (z' & Hz' & E). exists z'. split; [exact Hz'|]. apply Z.eqb_eq. unfold int_text in E. unfold location_of in E2. rewrite <- E2, number_read in E. now injection E.
Qed.
(** The column of a building. *)
Definition column_of (n : nat) (losses : sample) (dv : string) (z : Z) : list num := sum_columns n (members [0; 4]%nat [dv; str_of_Z z] losses).
Definition has_column (losses : sample) (dv : string) (z : Z) : Prop := exists c, In c losses /\ nth 0 (fst c) "" = dv /\ nth 4 (fst c) "" = str_of_Z z.
Definition whole (s : sample) (k : nat) : Prop := forall c, In c s -> exists z, nth k (fst c) "" = str_of_Z z.
Lemma table_lookup n (losses : sample) dv z cols : whole losses 4 ->
  mapM (fun c => let* z := int_text (nth 1 (fst c) "") in Ok (z, snd c)) (filter (fun c => String.eqb (nth 0 (fst c) "") dv) (group_sum n [0; 4]%nat losses)) = Ok cols ->
  (has_column losses dv z -> filter (fun c => Z.eqb (fst c) z) cols = [(z, column_of n losses dv z)]) /\
  (~ has_column losses dv z -> filter (fun c => Z.eqb (fst c) z) cols = []).
Proof.
  intros W E. apply mapM_Forall2 in E.
  assert (Hcols : forall z' v, In (z', v) cols <-> has_column losses dv z' /\ v = column_of n losses dv z').
  { intros z' v. split.
    - intros H. destruct (Forall2_In_r _ E H) as ([key col] & Hg & Ez). apply filter_In in Hg as [Hg Ek]. apply String.eqb_eq in Ek. apply group_sum_In in Hg as [(c & Hc & ->) ->].
      cbn [pick map nth fst snd] in Ek, Ez. unfold int_text in Ez. destruct (W c Hc) as (zc & Ezc). rewrite Ezc, number_read in Ez. cbn [bind] in Ez. injection Ez as <- <-.
      split; [now exists c|]. unfold column_of. now rewrite Ek.
    - intros [(c & Hc & E0 & E4) ->]. assert (Hg : In ([dv; str_of_Z z'], column_of n losses dv z') (filter (fun c => String.eqb (nth 0 (fst c) "") dv) (group_sum n [0; 4]%nat losses))).
      { apply filter_In. split; [|cbn; now apply String.eqb_eq]. apply group_sum_In. split; [|reflexivity]. exists c. split; [exact Hc|]. unfold pick. cbn [map]. now rewrite E0, E4. }
      destruct (Forall2_In_l _ E Hg) as (y & Hy & Ey). cbn [fst snd nth] in Ey. unfold int_text in Ey. rewrite number_read in Ey. cbn [bind] in Ey. injection Ey as <-. exact Hy. }
  assert (ND : NoDup (map fst cols)).
  { assert (Em : map str_of_Z (map fst cols) = map (fun c => nth 1 (fst c) "") (filter (fun c => String.eqb (nth 0 (fst c) "") dv) (group_sum n [0; 4]%nat losses))).
    { assert (W' : forall c, In c (filter (fun c => String.eqb (nth 0 (fst c) "") dv) (group_sum n [0; 4]%nat losses)) -> exists z, nth 1 (fst c) "" = str_of_Z z).
      { intros [key col] Hg. apply filter_In in Hg as [Hg _]. apply group_sum_In in Hg as [(c & Hc & ->) _]. cbn. now apply W. }
      revert E W'. generalize (filter (fun c => String.eqb (nth 0 (fst c) "") dv) (group_sum n [0; 4]%nat losses)). intros l E W'. clear - E W'.
      induction E as [|c y l ys Hc F IH]; [reflexivity|]. cbn [map]. rewrite IH by (intros c' Hc'; apply W'; now right). f_equal. destruct (W' c (or_introl eq_refl)) as (z & Ez). unfold int_text in Hc. rewrite Ez, number_read in Hc. cbn [bind] in Hc. injection Hc as <-. now rewrite Ez. }
    apply (NoDup_map_inv str_of_Z). rewrite Em. rewrite group_sum_form. pose proof (keys_of_NoDup [0; 4]%nat losses) as K.
    assert (K2 : forall k, In k (keys_of [0; 4]%nat losses) -> exists a b, k = [a; b]). { intros k Hk. apply keys_of_In in Hk as (c & _ & ->). now eexists _, _. }
    revert K K2. generalize (keys_of [0; 4]%nat losses). intros ks K K2. induction K as [|k ks Nk K IH]; [constructor|]. cbn [map filter fst].
    destruct (String.eqb (nth 0 k "") dv) eqn:Ek; [|apply IH; intros k' Hk'; apply K2; now right]. cbn [map fst]. constructor; [|apply IH; intros k' Hk'; apply K2; now right].
    intros Hin. apply in_map_iff in Hin as ([k' v'] & E1 & Hk'). apply filter_In in Hk' as [Hk' Ek']. apply in_map_iff in Hk' as (k'' & E2 & Hk'). injection E2 as -> _. cbn [fst] in *.
    apply String.eqb_eq in Ek, Ek'. destruct (K2 k (or_introl eq_refl)) as (a & b & ->). destruct (K2 k' (or_intror Hk')) as (a' & b' & ->). cbn in Ek, Ek', E1. subst. contradiction. }
  split.
  - intros Hz. assert (Hin : In (z, column_of n losses dv z) cols) by now apply Hcols. clear - ND Hin. induction cols as [|[z' v'] cols IH]; [destruct Hin|]. cbn [map fst] in ND. inversion ND as [|? ? N1 N2]. subst.
    cbn [filter fst]. destruct Hin as [E|Hin].
    + injection E as -> ->. rewrite Z.eqb_refl. f_equal. assert (X : forall x, In x cols -> Z.eqb (fst x) z = false). { intros x Hx. apply Z.eqb_neq. intros E. apply N1. rewrite <- E. now apply in_map. }
      clear - X. induction cols as [|x cols IH]; [reflexivity|]. cbn. rewrite (X x (or_introl eq_refl)). apply IH. intros y Hy. apply X. now right.
    + assert (Z.eqb z' z = false) as ->. { apply Z.eqb_neq. intros ->. apply N1. apply (in_map fst) in Hin. exact Hin. } now apply IH.
  - intros Hz. assert (X : forall x, In x cols -> Z.eqb (fst x) z = false).
    { intros [z' v'] Hx. apply Z.eqb_neq. intros E'. cbn in E'. subst z'. apply Hz. now apply (Hcols z v'). }
    clear - X. induction cols as [|x cols IH]; [reflexivity|]. cbn. rewrite (X x (or_introl eq_refl)). apply IH. intros y Hy. apply X. now right.
Qed.
Lemma group_losses_form n calc lookup damage dv o ids r : in_place calc -> whole damage 1 -> ids <> [] -> NoDup ids ->
  group_losses n calc lookup damage dv (o, ids) = Ok r ->
  exists losses, calc o (damage_at (map str_of_Z (filter (fun z => existsb (Z.eqb z) lookup) ids)) damage) = Ok losses /\
    r = map (fun z => (z, column_of n losses dv z)) (filter (fun z => existsb (Z.eqb z) lookup) ids).
Proof.
  intros P W Hne N H. unfold group_losses in H. cbn [fst snd] in H. rewrite (ids_back Hne N) in H. cbn [bind] in H.
  set (ids' := filter (fun z => existsb (Z.eqb z) lookup) ids) in *. destruct (calc o (damage_at (map str_of_Z ids') damage)) as [losses|] eqn:E; [|discriminate]. cbn [bind] in H.
  exists losses. split; [reflexivity|].
  assert (WL : whole losses 4). { intros c Hc. destruct (P _ _ _ _ E Hc) as (d & Hd & ->). unfold damage_at in Hd. apply filter_In in Hd as [Hd _]. exact (W d Hd). }
  rewrite (@group_twice n [0; 1; 2; 3; 4; 5]%nat [0; 4]%nat [0; 4]%nat losses (fun _ => eq_refl)) in H.
  remember (filter (fun c => String.eqb (nth 0 (fst c) "") dv) (group_sum n [0; 4]%nat losses)) as sel eqn:S. destruct sel as [|s sel]; [discriminate|].
  rewrite S in H. destruct (mapM _ (filter (fun c => String.eqb (nth 0 (fst c) "") dv) (group_sum n [0; 4]%nat losses))) as [cols|] eqn:C; [|discriminate]. cbn [bind] in H.
  pose proof (fun z => @table_lookup n losses dv z cols WL C) as T. clear S C E. revert r H. generalize ids'. clear - T.
  induction ids' as [|z zs IH]; intros r H; cbn [mapM map] in *; [now injection H as <-|].
  destruct (filter (fun c => Z.eqb (fst c) z) cols) as [|x l] eqn:F; [discriminate|]. cbn [bind] in H.
  destruct (mapM _ zs) as [ls|] eqn:M; [|discriminate]. cbn [bind] in H. injection H as <-. cbn [List.concat].
  assert (E : x :: l = [(z, column_of n losses dv z)]).
  { destruct (T z) as [T1 T2]. destruct (List.in_dec string_dec (str_of_Z z) (map (fun c => nth 4 (fst c) "") (filter (fun c => String.eqb (nth 0 (fst c) "") dv) losses))) as [I|I].
    - rewrite <- F. apply T1. apply in_map_iff in I as (c & E & Hc). apply filter_In in Hc as [Hc Ed]. apply String.eqb_eq in Ed. now exists c.
    - exfalso. rewrite T2 in F; [discriminate|]. intros (c & Hc & E0 & E4). apply I. apply in_map_iff. exists c. split; [exact E4|]. apply filter_In. split; [exact Hc|now apply String.eqb_eq]. }
  injection E as -> ->. cbn [app]. f_equal. apply (IH (List.concat ls)). reflexivity.
Qed.
Lemma group_losses_ok n calc lookup damage dv o ids losses : whole losses 4 -> ids <> [] -> NoDup ids ->
  calc o (damage_at (map str_of_Z (filter (fun z => existsb (Z.eqb z) lookup) ids)) damage) = Ok losses ->
  (exists z, In z ids /\ has_column losses dv z) ->
  (forall z, In z ids -> existsb (Z.eqb z) lookup = true -> has_column losses dv z) ->
  exists r, group_losses n calc lookup damage dv (o, ids) = Ok r.
Proof.
  intros WL Hne N E (z0 & _ & Hz0) Hall. unfold group_losses. cbn [fst snd]. rewrite (ids_back Hne N). cbn [bind]. rewrite E. cbn [bind].
  rewrite (@group_twice n [0; 1; 2; 3; 4; 5]%nat [0; 4]%nat [0; 4]%nat losses (fun _ => eq_refl)).
  remember (filter (fun c => String.eqb (nth 0 (fst c) "") dv) (group_sum n [0; 4]%nat losses)) as sel eqn:S. destruct sel as [|s sel].
  - exfalso. destruct Hz0 as (c & Hc & E0 & E4). assert (X : In (pick [0; 4]%nat (fst c), sum_columns n (members [0; 4]%nat (pick [0; 4]%nat (fst c)) losses)) []); [|destruct X].
    rewrite S. apply filter_In. split; [|cbn; now apply String.eqb_eq]. apply group_sum_In. split; [now exists c|reflexivity].
  - rewrite S.
    assert (C : exists cols, mapM (fun c => let* z := int_text (nth 1 (fst c) "") in Ok (z, snd c)) (filter (fun c => String.eqb (nth 0 (fst c) "") dv) (group_sum n [0; 4]%nat losses)) = Ok cols).
    { apply mapM_all_ok. intros [key col] Hg. apply filter_In in Hg as [Hg _]. apply group_sum_In in Hg as [(c & Hc & ->) _]. cbn. destruct (WL c Hc) as (z & ->). unfold int_text. rewrite number_read. cbn. eexists; reflexivity. }
    destruct C as (cols & C). rewrite C. cbn [bind].
    assert (L : exists l, mapM (fun z => match filter (fun c => Z.eqb (fst c) z) cols with [] => Err KeyError | l => Ok l end) (filter (fun z => existsb (Z.eqb z) lookup) ids) = Ok l).
    { apply mapM_all_ok. intros z Hz. apply filter_In in Hz as [Hz Hl]. destruct (@table_lookup n losses dv z cols WL C) as [T _]. rewrite (T (Hall z Hz Hl)). eexists; reflexivity. }
    destruct L as (l & L). rewrite L. cbn [bind]. eexists; reflexivity.
Qed.
Lemma place_key dv z lab : label_eqb [dv; str_of_Z z] (pick [0; 4]%nat lab) = of_place dv (str_of_Z z) lab.
Proof.
  unfold of_place, level_is. apply eq_iff_eq_true. rewrite label_eqb_eq, andb_true_iff, !String.eqb_eq. unfold pick. cbn [map].
  split; [intros E; injection E as -> ->; auto|intros [-> ->]; reflexivity].
Qed.
Lemma column_total n losses dv z : total_losses n losses dv (str_of_Z z) (column_of n losses dv z).
Proof.
  split; [unfold column_of, sum_columns; now rewrite map_length, seq_length|]. intros i Hi. unfold column_of. rewrite nth_sum by exact Hi.
  assert (A : all_missing (of_place dv (str_of_Z z)) i losses <-> (forall x, In x (map (fun c => nth i c None) (members [0; 4]%nat [dv; str_of_Z z] losses)) -> x = None)).
  { rewrite members_missing. unfold all_missing. split; intros H c Hc E; apply (H c Hc); [now rewrite <- place_key|now rewrite place_key]. }
  destruct (nsum1 (map (fun c => nth i c None) (members [0; 4]%nat [dv; str_of_Z z] losses))) as [v|] eqn:E.
  - right. split.
    + intros M. pose proof (proj2 (nsum1_None _) (proj1 A M)) as X. congruence.
    + f_equal. pose proof (nsum1_nfill0 (map (fun c => nth i c None) (members [0; 4]%nat [dv; str_of_Z z] losses))) as S. rewrite E in S. cbn in S. rewrite S, members_amount.
      unfold amount. f_equal. f_equal. apply filter_ext. intros c. apply place_key.
  - left. split; [|reflexivity]. apply (proj2 A). now apply (proj1 (nsum1_None _)).
Qed.
Lemma sorted_strict (l : list (Z * list num)) : StronglySorted (fun a b => (fst a <=? fst b)%Z = true) l -> NoDup (map fst l) -> StronglySorted Z.lt (map fst l).
Proof.
  induction 1 as [|a l S IH F]; intros N; cbn [map]; [constructor|]. cbn [map] in N. inversion N as [|? ? N1 N2]. subst. constructor; [now apply IH|].
  rewrite Forall_forall in *. intros z Hz. apply in_map_iff in Hz as (b & <- & Hb). specialize (F b Hb). apply Z.leb_le in F.
  assert (fst a <> fst b) by (intros E; apply N1; rewrite E; now apply in_map). lia.
Qed.
Lemma losses_of_rows n calc buildings damage dv t : in_place calc -> whole damage 1 -> NoDup (map fst buildings) ->
  losses_of n calc buildings damage dv = Ok t ->
  StronglySorted Z.lt (map fst t) /\
  (forall b v, In (b, v) t <-> exists o losses, In (b, Some o) buildings /\ (exists c, In c damage /\ location_of c = str_of_Z b) /\
     calc o (class_damage buildings damage o) = Ok losses /\ v = column_of n losses dv b).
Proof.
  intros P W N H. unfold losses_of in H. destruct (mapM _ damage) as [lookup|] eqn:L; [|discriminate]. cbn [bind] in H. apply mapM_Forall2 in L.
  destruct (mapM _ (occupancy_groups buildings)) as [parts|] eqn:G; [|discriminate]. cbn [bind] in H. apply mapM_Forall2 in G.
  assert (Ht : t = isort (fun a b : Z * list num => (fst a <=? fst b)%Z) (List.concat parts)) by (destruct parts; [discriminate|now injection H as <-]). clear H.
  assert (Hlook : forall z, existsb (Z.eqb z) lookup = true <-> exists c, In c damage /\ location_of c = str_of_Z z).
  { intros z. rewrite existsb_exists. split.
    - intros (z' & Hz & E). apply Z.eqb_eq in E. subst z'. destruct (Forall2_In_r _ L Hz) as (c & Hc & E). exists c. split; [exact Hc|]. destruct (W c Hc) as (z' & E'). unfold int_text in E. rewrite E', number_read in E. injection E as <-. exact E'.
    - intros (c & Hc & E). destruct (Forall2_In_l _ L Hc) as (z' & Hz & E'). exists z'. split; [exact Hz|]. apply Z.eqb_eq. unfold int_text in E'. unfold location_of in E. rewrite E, number_read in E'. now injection E'. }
  assert (Hpart : forall o ids r, In (o, ids) (occupancy_groups buildings) -> group_losses n calc lookup damage dv (o, ids) = Ok r ->
     (forall b v, In (b, v) r <-> exists losses, In (b, Some o) buildings /\ (exists c, In c damage /\ location_of c = str_of_Z b) /\
        calc o (class_damage buildings damage o) = Ok losses /\ v = column_of n losses dv b) /\ NoDup (map fst r)).
  { intros o ids r Hg Er. destruct (@occupancy_In _ _ _ Hg N) as (Hne & Nd & I). destruct (@group_losses_form _ _ _ _ _ _ _ _ P W Hne Nd Er) as (losses & Ec & ->).
    rewrite (@class_damage_same buildings damage lookup o ids L I) in Ec. split.
    - intros b v. rewrite in_map_iff. split.
      + intros (z & E & Hz). injection E as -> <-. apply filter_In in Hz as [Hz Hl]. exists losses. split; [now apply I|]. split; [now apply Hlook|]. auto.
      + intros (losses' & Hb & Hl & Ec' & ->). rewrite Ec in Ec'. injection Ec' as <-. exists b. split; [reflexivity|]. apply filter_In. split; [now apply I|now apply Hlook].
    - rewrite map_map. cbn [fst]. rewrite map_id. now apply NoDup_filter. }
  assert (Hcat : forall b v, In (b, v) (List.concat parts) <-> exists o losses, In (b, Some o) buildings /\ (exists c, In c damage /\ location_of c = str_of_Z b) /\
     calc o (class_damage buildings damage o) = Ok losses /\ v = column_of n losses dv b).
  { intros b v. rewrite in_concat. split.
    - intros (r & Hr & Hbv). destruct (Forall2_In_r _ G Hr) as ([o ids] & Hg & Er). destruct (Hpart o ids r Hg Er) as [I _]. destruct (proj1 (I _ _) Hbv) as (losses & X). now exists o, losses.
    - intros (o & losses & Hb & X). destruct (@occupancy_listed _ _ _ Hb) as (ids & Hg). destruct (Forall2_In_l _ G Hg) as (r & Hr & Er). exists r. split; [exact Hr|].
      apply (proj1 (Hpart o ids r Hg Er)). now exists losses. }
  assert (Nc : NoDup (map fst (List.concat parts))).
  { assert (NG : NoDup (map fst (occupancy_groups buildings))) by (apply (groupby_NoDup String.eqb str_le String.eqb_eq)).
    clear Hcat Ht. revert Hpart NG G. generalize (occupancy_groups buildings). intros gs Hpart NG G. induction G as [|[o ids] r gs parts Er G IH]; [constructor|]. cbn [List.concat]. rewrite map_app.
    cbn [map fst] in NG. inversion NG as [|? ? N1 N2]. subst. apply NoDup_app_iff. destruct (Hpart o ids r (or_introl eq_refl) Er) as [I Nr]. split; [exact Nr|]. split; [apply IH; [|exact N2]; intros o' ids' r' Hg; apply Hpart; now right|].
    intros b Hb Hb'. apply in_map_iff in Hb as ([b1 v] & E & Hb). cbn in E. subst b1. destruct (proj1 (I _ _) Hb) as (? & Ho & _).
    apply in_map_iff in Hb' as ([b1 v'] & E & Hb'). cbn in E. subst b1. apply in_concat in Hb' as (r' & Hr' & Hb'). destruct (Forall2_In_r _ G Hr') as ([o' ids'] & Hg' & Er').
    destruct (Hpart o' ids' r' (or_intror Hg') Er') as [I' _]. destruct (proj1 (I' _ _) Hb') as (? & Ho' & _). apply N1.
    assert (E : Some o = Some o').
    { clear - N Ho Ho'. induction buildings as [|[z x] bs IH]; [destruct Ho|]. cbn in N. inversion N as [|? ? M1 M2]. subst. destruct Ho as [E|Ho], Ho' as [E'|Ho'].
      - congruence.
      - exfalso. injection E as -> ->. apply M1. apply (in_map fst) in Ho'. exact Ho'.
      - exfalso. injection E' as -> ->. apply M1. apply (in_map fst) in Ho. exact Ho.
      - now apply IH. }
    injection E as ->. apply (in_map fst) in Hg'. exact Hg'. }
  pose proof (isort_perm (fun a b : Z * list num => (fst a <=? fst b)%Z) (List.concat parts)) as Pm. rewrite <- Ht in Pm. split.
  - apply sorted_strict.
    + rewrite Ht. apply isort_sorted; [intros a b c H1 H2; apply Z.leb_le in H1, H2; apply Z.leb_le; lia|]. intros a b. rewrite !Z.leb_le. lia.
    + eapply Permutation_NoDup; [apply Permutation_map; exact Pm|exact Nc].
  - intros b v. rewrite <- Hcat. split; intros H; [eapply Permutation_in; [symmetry; exact Pm|exact H]|eapply Permutation_in; [exact Pm|exact H]].
Qed.
Lemma losses_of_calc n calc buildings damage dv t : NoDup (map fst buildings) -> whole damage 1 -> losses_of n calc buildings damage dv = Ok t ->
  forall b o, In (b, Some o) buildings -> exists losses, calc o (class_damage buildings damage o) = Ok losses.
Proof.
  intros N W H b o Hb. unfold losses_of in H. destruct (mapM _ damage) as [lookup|] eqn:L; [|discriminate]. cbn [bind] in H. apply mapM_Forall2 in L.
  destruct (mapM _ (occupancy_groups buildings)) as [parts|] eqn:G; [|discriminate]. apply mapM_Forall2 in G.
  destruct (@occupancy_listed _ _ _ Hb) as (ids & Hg). destruct (@occupancy_In _ _ _ Hg N) as (Hne & Nd & I). destruct (Forall2_In_l _ G Hg) as (r & _ & Er).
  unfold group_losses in Er. cbn [fst snd] in Er. rewrite (ids_back Hne Nd) in Er. cbn [bind] in Er. rewrite (@class_damage_same buildings damage lookup o ids L I) in Er.
  destruct (calc o (class_damage buildings damage o)) as [losses|]; [now exists losses|discriminate].
Qed.
Lemma members_at dv b (L : sample) : members [0; 4]%nat [dv; str_of_Z b] L = members [0; 4]%nat [dv; str_of_Z b] (losses_at (str_of_Z b) L).
Proof.
  unfold members, losses_at. f_equal. induction L as [|c L IH]; [reflexivity|]. cbn [filter]. rewrite place_key. unfold of_place. destruct (level_is 4 (str_of_Z b) (fst c)) eqn:E.
  - cbn [filter]. rewrite place_key. unfold of_place. rewrite E. now rewrite IH.
  - now rewrite andb_false_r, IH.
Qed.
Lemma class_at buildings damage b o : In (b, Some o) buildings -> at_location (str_of_Z b) (class_damage buildings damage o) = at_location (str_of_Z b) damage.
Proof.
  intros Hb. unfold at_location, class_damage. induction damage as [|c D IH]; [reflexivity|]. cbn [filter].
  match goal with |- context [existsb ?p buildings] => destruct (existsb p buildings) eqn:E end.
  - cbn [filter]. now rewrite IH.
  - destruct (String.eqb (location_of c) (str_of_Z b)) eqn:El; [|exact IH]. exfalso. apply String.eqb_eq in El.
    assert (X : existsb (fun b0 : Z * option string => match snd b0 with Some o' => (String.eqb o' o && String.eqb (str_of_Z (fst b0)) (location_of c))%bool | None => false end) buildings = true).
    { apply existsb_exists. exists (b, Some o). split; [exact Hb|]. cbn. rewrite String.eqb_refl, El, String.eqb_refl. reflexivity. }
    rewrite E in X. discriminate X.
Qed.
Lemma class_unique (buildings : list (Z * option string)) b o o' : NoDup (map fst buildings) -> In (b, Some o) buildings -> In (b, Some o') buildings -> o = o'.
Proof.
  intros N Ho Ho'. induction buildings as [|[z x] bs IH]; [destruct Ho|]. cbn in N. inversion N as [|? ? M1 M2]. subst. destruct Ho as [E|Ho], Ho' as [E'|Ho'].
  - congruence.
  - exfalso. injection E as -> ->. apply M1. apply (in_map fst) in Ho'. exact Ho'.
  - exfalso. injection E' as -> ->. apply M1. apply (in_map fst) in Ho. exact Ho.
  - now apply IH.
Qed.
Lemma unit_alike chunk c b rs r u : alike a_unit chunk -> In (b, rs) chunk -> In r rs -> a_cmp r = c -> a_unit r = Some u ->
  unique_list (map (fun r => cell_text (a_unit r)) (rows_of chunk c)) = u.
Proof.
  intros Ha Hb Hr Ec Eu. unfold unique_list. assert (unique String.eqb (map (fun r => cell_text (a_unit r)) (rows_of chunk c)) = [u]) as ->; [|reflexivity].
  apply (unique_one String.eqb String.eqb_eq). split.
  - intros E. assert (X : In (relocate b r) (rows_of chunk c)) by (apply rows_of_In; now exists b, rs, r). apply (in_map (fun r => cell_text (a_unit r))) in X. rewrite E in X. destruct X.
  - intros y Hy. apply in_map_iff in Hy as (x & <- & Hx). apply rows_of_In in Hx as (b' & rs' & r' & Hb' & Hr' & -> & Ec'). cbn.
    rewrite (Ha _ _ _ _ _ _ Hb' Hr' Hb Hr); [now rewrite Eu|congruence].
Qed.
Lemma chunk_entry_exists e chunk units groups : complete chunk -> load_chunk e chunk = Ok (units, groups) ->
  forall b c, (exists d r, has_component chunk b c d r) -> exists f q,
    (forall b rs r, In (b, rs) chunk -> In r rs -> a_cmp r = c -> a_theta0 r = q) /\
    unit_factor e (unique_list (map (fun r => cell_text (a_unit r)) (rows_of chunk c))) f.
Proof.
  intros Hc H b c (d & r & rs & Hb & Hr & Ec & Ed). unfold load_chunk in H. destruct (chunk_rows chunk) as [rows|] eqn:E; [|discriminate]. cbn [bind] in H.
  destruct (chunk_rows_In _ E) as [HR ND]. destruct (@load_groups _ _ _ _ _ H) as (factor & _ & _ & Hf).
  assert (HR' : exists R, In R rows /\ a_cmp R = c).
  { unfold chunk_rows in E. apply mapM_Forall2 in E.
    assert (Hg : In (c, rows_of chunk c) (groupby String.eqb str_le (map (fun r => (a_cmp r, r)) (located chunk)))).
    { apply (groupby_In String.eqb str_le String.eqb_eq). split; [apply component_listed; now exists b, rs, r|reflexivity]. }
    destruct (Forall2_In_l _ E Hg) as (R & HRin & ER). exists R. split; [exact HRin|]. unfold chunk_row in ER. destruct (unique _ _) as [|q' [|? ?]]; try discriminate. now injection ER as <-. }
  destruct HR' as (R & HRin & <-). destruct (proj1 (HR R) HRin) as [Hk Er]. destruct (chunk_row_form Hc Hk Er) as (bs & ds & q & N1 & N2 & _ & _ & _ & _ & Q & ER).
  exists (factor R), q. split; [exact Q|]. destruct (Hf R HRin) as (u & Fu & [U|(locs & dirs & L & D & Ep)]).
  - pose proof (@first_unit_only _ _ _ ND HRin Fu) as Eu. rewrite ER in Eu at 1. cbn [a_unit] in Eu. injection Eu as <-. exact U.
  - exfalso. rewrite ER in L, D. cbn [a_location a_direction cell_text] in L, D. rewrite numbers_location in L by exact N1. rewrite numbers_direction in D by exact N2.
    injection L as <-. injection D as <-. destruct bs as [|b1 bs]; [contradiction|]. destruct ds as [|d1 ds]; [contradiction|]. discriminate Ep.
Qed.
