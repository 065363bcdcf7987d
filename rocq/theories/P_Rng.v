(** Proofs about the random numbers of assessments. *)
From Coq Require Import Lia.
From Verif Require Import Prelude PreludeFacts M_UQ M_Rng S_Rng.
Set Implicit Arguments.
Local Open Scope string_scope.
Local Open Scope list_scope.

Lemma dget_dset {V} a b (v : V) d : dget b (dset a v d) = if String.eqb a b then Some v else dget b d.
Proof. destruct (String.eqb_spec a b) as [->|N]; [apply dget_dset_eq|apply dget_dset_ne; congruence]. Qed.
Lemma store_at_same {G} r (g : G) h : (r < List.length h)%nat -> nth_error (store_at r g h) r = Some g.
Proof. revert r. induction h as [|x h IH]; intros [|r] H; cbn in *; try lia; [reflexivity|]. apply IH. lia. Qed.
Lemma store_at_other {G} r r' (g : G) h : r <> r' -> nth_error (store_at r g h) r' = nth_error h r'.
Proof. revert r r'. induction h as [|x h IH]; intros [|r] [|r'] H; cbn; try reflexivity; [congruence|]. apply IH. congruence. Qed.
Lemma store_at_length {G} r (g : G) h : List.length (store_at r g h) = List.length h.
Proof. revert r. induction h as [|x h IH]; intros [|r]; cbn; try reflexivity. now rewrite IH. Qed.

(** References are valid, and no two assessments share one. *)
Definition separate {G} (w : world G) : Prop :=
  (forall a r, dget a (asmts w) = Some r -> (r < List.length (heap w))%nat) /\
  (forall a b r, dget a (asmts w) = Some r -> dget b (asmts w) = Some r -> a = b).
(** The generator of an assessment. *)
Definition generator {G} (w : world G) (a : string) : option G :=
  match dget a (asmts w) with Some r => nth_error (heap w) r | None => None end.

Lemma generator_some {G} (w : world G) a : separate w -> generator w a = None <-> dget a (asmts w) = None.
Proof.
  intros [V _]. unfold generator. destruct (dget a (asmts w)) as [r|] eqn:E; [|tauto]. specialize (V a r E). split; [|discriminate]. intros H. apply nth_error_None in H. lia.
Qed.

Lemma allocate_separate {G} (D : generators G) a seed w : separate w -> separate (allocate D a seed w).
Proof.
  intros [V S]. split; unfold allocate; cbn [asmts heap].
  - intros b r H. rewrite app_length. cbn. rewrite dget_dset in H. destruct (String.eqb_spec a b); [injection H as <-; lia|]. specialize (V b r H). lia.
  - intros b c r Hb Hc. rewrite dget_dset in Hb, Hc. destruct (String.eqb_spec a b) as [Eb|Nb]; destruct (String.eqb_spec a c) as [Ec|Nc].
    + congruence.
    + injection Hb as <-. apply V in Hc. lia.
    + injection Hc as <-. apply V in Hb. lia.
    + eauto.
Qed.
Lemma allocate_generator {G} (D : generators G) a seed w b : separate w -> generator (allocate D a seed w) b =
  if String.eqb a b then Some (match seed with Some s => start D s | None => entropy D (unseeded w) end) else generator w b.
Proof.
  intros [V _]. unfold generator, allocate. cbn [asmts heap]. rewrite dget_dset. destruct (String.eqb_spec a b) as [E|N].
  - rewrite nth_error_app2 by lia. now rewrite Nat.sub_diag.
  - destruct (dget b (asmts w)) as [r|] eqn:E; [|reflexivity]. apply nth_error_app1. exact (V b r E).
Qed.

(** What a step does to the generator of its own assessment. *)
Definition effect {G} (D : generators G) (s : step) (fresh : G) (og : option G) : option (result (list (list Qc))) * option G :=
  match s with
  | Create _ seed => (None, Some (match seed with Some z => start D z | None => fresh end))
  | Reseed _ seed => (None, match og with Some _ => Some (match seed with Some z => start D z | None => fresh end) | None => None end)
  | Sample _ method count size => match og with Some g => (Some (fst (controls D method count size g)), Some (snd (controls D method count size g))) | None => (None, None) end
  | Scatter _ count => match og with Some g => (Some (Ok [fst (draws (normal D) count g)]), Some (snd (draws (normal D) count g))) | None => (None, None) end
  end.
Lemma run_step_spec {G} (D : generators G) s w : separate w ->
  separate (snd (run_step D s w)) /\ fst (run_step D s w) = fst (effect D s (entropy D (unseeded w)) (generator w (who s))) /\
  forall b, generator (snd (run_step D s w)) b = if String.eqb (who s) b then snd (effect D s (entropy D (unseeded w)) (generator w b)) else generator w b.
Proof.
  intros Sep.
  assert (U : forall (f : G -> result (list (list Qc)) * G) a, let o := match dget a (asmts w) with
             | None => (None, w)
             | Some r => match nth_error (heap w) r with None => (None, w) | Some g => let '(out, g') := f g in (Some out, World (asmts w) (store_at r g' (heap w)) (unseeded w)) end
             end in
            separate (snd o) /\ fst o = match generator w a with Some g => Some (fst (f g)) | None => None end /\
            forall b, generator (snd o) b = if String.eqb a b then match generator w b with Some g => Some (snd (f g)) | None => None end else generator w b).
  { intros f a. destruct (dget a (asmts w)) as [r|] eqn:E.
    - destruct (nth_error (heap w) r) as [g|] eqn:Eg.
      + destruct (f g) as [out g'] eqn:Ef. cbv zeta. cbn [fst snd]. destruct Sep as [V S]. split; [|split].
        * split; cbn [asmts heap]; [intros b r' H; rewrite store_at_length; eauto|eauto].
        * unfold generator. rewrite E, Eg, Ef. reflexivity.
        * intros b. unfold generator. cbn [asmts heap]. destruct (String.eqb_spec a b) as [<-|N].
          -- rewrite E, Eg, Ef. apply store_at_same. exact (V a r E).
          -- destruct (dget b (asmts w)) as [r'|] eqn:Eb; [|reflexivity]. apply store_at_other. intros ->. apply N. eauto.
      + exfalso. apply nth_error_None in Eg. destruct Sep as [V _]. specialize (V a r E). lia.
    - cbv zeta. cbn [fst snd]. split; [exact Sep|]. unfold generator. rewrite E. split; [reflexivity|]. intros b. destruct (String.eqb_spec a b) as [<-|N]; [now rewrite E|reflexivity]. }
  destruct s as [a seed|a seed|a method count size|a count]; cbn [run_step who effect].
  - cbn [fst snd]. split; [now apply allocate_separate|]. split; [reflexivity|]. intros b. now rewrite allocate_generator.
  - cbn [fst snd]. destruct (dget a (asmts w)) as [r|] eqn:E.
    + split; [now apply allocate_separate|]. split; [reflexivity|]. intros b. rewrite allocate_generator by exact Sep. destruct (String.eqb_spec a b) as [<-|N]; [|reflexivity].
      destruct (generator w a) as [g|] eqn:Eg; [reflexivity|]. apply generator_some in Eg; [congruence|exact Sep].
    + split; [exact Sep|]. split; [reflexivity|]. intros b. destruct (String.eqb_spec a b) as [<-|N]; [|reflexivity]. unfold generator. now rewrite E.
  - destruct (U (controls D method count size) a) as (U1 & U2 & U3). split; [exact U1|]. split.
    + rewrite U2. now destruct (generator w a).
    + intros b. rewrite U3. destruct (String.eqb a b); [|reflexivity]. now destruct (generator w b).
  - destruct (U (fun g => let '(xs, g) := draws (normal D) count g in (Ok [xs], g)) a) as (U1 & U2 & U3). split; [exact U1|]. split.
    + rewrite U2. destruct (generator w a) as [g|]; [|reflexivity]. cbn. now destruct (draws (normal D) count g).
    + intros b. rewrite U3. destruct (String.eqb a b); [|reflexivity]. destruct (generator w b) as [g|]; [|reflexivity]. cbn. now destruct (draws (normal D) count g).
Qed.

Lemma effect_fresh {G} (D : generators G) s f f' og : match s with Create _ None | Reseed _ None => False | _ => True end -> effect D s f og = effect D s f' og.
Proof. destruct s as [a [z|]|a [z|]|a m c n|a c]; intros H; try destruct H; reflexivity. Qed.

Lemma outcomes_cons {O} a b (o : O) os : outcomes a ((b, o) :: os) = (if String.eqb b a then [o] else []) ++ outcomes a os.
Proof. unfold outcomes. cbn [filter fst]. now destruct (String.eqb b a). Qed.

(** Two worlds with the same generator of [a]. *)
Lemma run_isolated {G} (D : generators G) a steps : forall w w', separate w -> separate w' -> generator w a = generator w' a -> seeded a steps ->
  outcomes a (fst (run D steps w)) = outcomes a (fst (run D (own a steps) w')) /\
  generator (snd (run D steps w)) a = generator (snd (run D (own a steps) w')) a.
Proof.
  induction steps as [|s steps IH]; intros w w' S S' Hg Hs; [split; [reflexivity|exact Hg]|].
  assert (Hs' : seeded a steps) by (intros t Ht; apply Hs; now right).
  destruct (run_step_spec D s S) as (A1 & A2 & A3). cbn [own filter run]. fold (own a steps). destruct (String.eqb_spec (who s) a) as [E|N].
  - destruct (run_step_spec D s S') as (B1 & B2 & B3). cbn [run].
    assert (Ho : fst (run_step D s w) = fst (run_step D s w')).
    { rewrite A2, B2, E, Hg. rewrite (@effect_fresh G D s (entropy D (unseeded w)) (entropy D (unseeded w'))); [reflexivity|]. apply Hs; [now left|exact E]. }
    assert (Hg' : generator (snd (run_step D s w)) a = generator (snd (run_step D s w')) a).
    { rewrite A3, B3, E, String.eqb_refl, Hg. rewrite (@effect_fresh G D s (entropy D (unseeded w)) (entropy D (unseeded w'))); [reflexivity|]. apply Hs; [now left|exact E]. }
    destruct (run_step D s w) as [o w1]. destruct (run_step D s w') as [o' w1']. cbn [fst snd] in *. clear A2 B2. subst o'.
    destruct (IH w1 w1' A1 B1 Hg' Hs') as [I1 I2]. destruct (run D steps w1) as [os w2]. destruct (run D (own a steps) w1') as [os' w2']. cbn [fst snd] in *. split; [|exact I2].
    destruct o as [r|]; [|exact I1]. rewrite !outcomes_cons. now rewrite I1.
  - assert (Hg' : generator (snd (run_step D s w)) a = generator w' a).
    { rewrite A3. destruct (String.eqb_spec (who s) a); [contradiction|exact Hg]. }
    destruct (run_step D s w) as [o w1]. cbn [fst snd] in *. destruct (IH w1 w' A1 S' Hg' Hs') as [I1 I2]. destruct (run D steps w1) as [os w2]. cbn [fst snd] in *. split; [|exact I2].
    destruct o as [r|]; [|exact I1]. rewrite outcomes_cons. destruct (String.eqb_spec (who s) a); [contradiction|exact I1].
Qed.
Lemma nothing_separate {G} : separate (@nothing_yet G).
Proof. split; cbn; discriminate. Qed.
Lemma run_separate {G} (D : generators G) steps : forall w, separate w -> separate (snd (run D steps w)).
Proof.
  induction steps as [|s steps IH]; intros w S; [exact S|]. cbn [run]. destruct (run_step_spec D s S) as (A1 & _). destruct (run_step D s w) as [o w1]. cbn [snd] in A1. specialize (IH w1 A1).
  destruct (run D steps w1). exact IH.
Qed.
Lemma own_idem a steps : own a (own a steps) = own a steps.
Proof. unfold own. induction steps as [|s steps IH]; [reflexivity|]. cbn. destruct (String.eqb (who s) a) eqn:E; [cbn; rewrite E; now f_equal|exact IH]. Qed.
Lemma run_app {G} (D : generators G) xs ys w : run D (xs ++ ys) w = (fst (run D xs w) ++ fst (run D ys (snd (run D xs w))), snd (run D ys (snd (run D xs w)))).
Proof.
  revert w. induction xs as [|s xs IH]; intros w; [cbn; now destruct (run D ys w)|]. cbn [app run]. destruct (run_step D s w) as [o w1]. rewrite IH. destruct (run D xs w1) as [os w2]. cbn [fst snd].
  now destruct o.
Qed.

(** ** More variables *)
Lemma draws_plus {G V} (f : G -> V * G) n m g : draws f (n + m) g =
  (fst (draws f n g) ++ fst (draws f m (snd (draws f n g))), snd (draws f m (snd (draws f n g)))).
Proof.
  revert g. induction n as [|n IH]; intros g; [cbn; now destruct (draws f m g)|]. cbn [Nat.add draws]. destruct (f g) as [x g1]. rewrite IH. now destruct (draws f n g1) as [xs g2].
Qed.
Lemma draws_length {G V} (f : G -> V * G) n g : List.length (fst (draws f n g)) = n.
Proof. revert g. induction n as [|n IH]; intros g; [reflexivity|]. cbn. destruct (f g) as [x g1]. specialize (IH g1). destruct (draws f n g1). cbn in *. congruence. Qed.
