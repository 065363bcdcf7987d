(** C56, C57, C58, C76, C77, C78: regional simulations. *)
From Coq Require Import Sorting.Sorted Sorting.Permutation.
From Verif Require Import Prelude PreludeFacts Pandas PandasFacts P_LossLF P_NNR P_Regional M_Base M_Damage M_NNR M_Regional S_Regional.
Set Implicit Arguments.
Local Open Scope string_scope.
Local Open Scope list_scope.

(** * C58: filters *)

(** A filter is accepted exactly when each of its parts is blank, a number or a range that is not
    empty; the identifiers are then those the parts denote, each once, in increasing order. *)
Theorem C58_meaning : forall s ids, parse_id_filter s = Ok ids ->
  strictly_increasing ids /\ forall z, In z ids <-> exists p, In p (filter_parts s) /\ denotes p z.
Proof. intros s ids H. apply parse_filter_ok in H as [A [B _]]. split; assumption. Qed.
Print Assumptions C58_meaning.
Theorem C58_accepted : forall s, (exists ids, parse_id_filter s = Ok ids) <-> forall p, In p (filter_parts s) -> p = "" \/ exists z, denotes p z.
Proof.
  intros s. split.
  - intros [ids H]. apply parse_filter_ok in H as [_ [_ C]]. exact C.
  - apply parse_filter_defined.
Qed.
Print Assumptions C58_accepted.
Theorem C58_rejected : forall s e, parse_id_filter s = Err e -> e = ValueError /\ exists p, In p (filter_parts s) /\ p <> "" /\ forall z, ~ denotes p z.
Proof.
  intros s e H. split; [exact (parse_filter_error _ H)|]. unfold parse_id_filter in H. destruct (String.eqb s ""); [discriminate|].
  destruct (mapM filter_part _) as [ls|e'] eqn:E; cbn [bind] in H; [discriminate|]. apply mapM_error in E as [p [Hp Ep]]. apply filter_In in Hp as [Hp Ne].
  exists p. split; [exact Hp|]. split; [intros ->; discriminate|]. intros z D. destruct (filter_part_defined D) as [ids X]. congruence.
Qed.
Print Assumptions C58_rejected.
Example C58_hypotheses_met : parse_id_filter " 8, 3-5 ,, 4" = Ok [3; 4; 5; 8]%Z /\ parse_id_filter "5-3" = Err ValueError /\ parse_id_filter "-2" = Err ValueError /\ parse_id_filter "a" = Err ValueError.
Proof. repeat split; vm_compute; reflexivity. Qed.
(** * C78: filtered inventories *)

(** The simulation keeps exactly the buildings the filter asks for, in increasing order, and stops
    when one of them is not in the inventory. *)
Theorem C78_inventory_partial : forall A s (inv kept : list (Z * A)), (exists p z, In p (filter_parts s) /\ denotes p z) -> NoDup (map fst inv) ->
  apply_filter (Some s) inv = Ok kept ->
  strictly_increasing (map fst kept) /\ (forall b, In b kept -> In b inv) /\
  (forall z, In z (map fst kept) <-> exists p, In p (filter_parts s) /\ denotes p z).
Proof.
  intros A s inv kept [p [z [Hp Hd]]] Hn H.
  assert (Es : s <> "") by (intros ->; destruct Hp as [<-|[]]; exact (denotes_nonempty Hd)).
  pose proof H as H0. unfold apply_filter in H0. pose proof Es as Es'. apply String.eqb_neq in Es'. rewrite Es' in H0.
  destruct (parse_id_filter s) as [ids|e] eqn:E; cbn [bind] in H0; [|discriminate]. clear H0. pose proof (parse_filter_ok _ E) as [S [M _]].
  assert (Ni : ids <> []) by (intros ->; destruct (proj2 (M z) (ex_intro _ p (conj Hp Hd)))).
  destruct (@apply_filter_ok A s inv kept ids Es E Ni H) as [_ [K F]]. rewrite (F Hn). split; [exact S|]. split; [|exact M].
  intros b Hb. apply K, Hb.
Qed.
Print Assumptions C78_inventory_partial.
Theorem C78_missing : forall A s (inv : list (Z * A)) p z, In p (filter_parts s) -> denotes p z -> ~ In z (map fst inv) -> apply_filter (Some s) inv = Err ValueError.
Proof.
  intros A s inv p z Hp Hd Hn. destruct (parse_id_filter s) as [ids|e] eqn:E.
  - apply (@apply_filter_missing A s inv ids z E); [|exact Hn]. apply (proj2 (proj1 (proj2 (parse_filter_ok _ E)) z)). exists p. auto.
  - unfold apply_filter. destruct (String.eqb s "") eqn:Es; [apply String.eqb_eq in Es; subst s; discriminate|]. rewrite E. cbn [bind]. rewrite (parse_filter_error _ E). reflexivity.
Qed.
Print Assumptions C78_missing.
Example C78_inventory_concrete : apply_filter (Some "7,2-3") [(3, "c"); (2, "b"); (9, "i"); (7, "g")]%Z = Ok [(2, "b"); (3, "c"); (7, "g")]%Z.
Proof. vm_compute. reflexivity. Qed.
(** A filter that names no building keeps all of them. *)
Theorem C78_refuted : exists s, s <> "" /\ (forall p z, In p (filter_parts s) -> ~ denotes p z) /\
  forall A (inv : list (Z * A)), apply_filter (Some s) inv = Ok inv.
Proof.
  exists " , ". split; [discriminate|]. split; [|reflexivity]. intros p z Hp. change (filter_parts " , ") with [""; ""] in Hp. destruct Hp as [<-|[<-|[]]]; apply denotes_nonempty.
Qed.
Print Assumptions C78_refuted.

(** * C57: intensity measures *)

(** The demands of a building are means of grid values at its neighbours, realization by
    realization; the measures named in alphabetical order are reported under their own names. *)
Theorem C57_sorted_partial : forall ims n data available k neighbours locs size cols b f ws,
  NoDup ims -> StronglySorted (fun x y => str_le x y = true) ims -> (0 < available)%nat ->
  map_demands ims n data available k neighbours locs size = Ok cols -> List.length neighbours = List.length locs ->
  (b < List.length locs)%nat -> (f < List.length ims)%nat -> (forall g, In g (snd (nth b neighbours ([], []))) -> (g < n)%nat) ->
  weights "distance2" k (fst (nth b neighbours ([], []))) = Ok ws ->
  nth_error cols (b * List.length ims + f) = Some (demand_label (nth f ims "") (nth b locs ""),
    map (fun j => mean_at ws (snd (nth b neighbours ([], []))) (fun g => nth (j mod available) (data g (nth f ims "")) 0%Qc)) (seq 0 size)).
Proof.
  intros ims n data available k neighbours locs size cols b f ws Hn Hs Ha H Hl Hb Hf Hg Hw.
  rewrite (@demands_at ims n data available k neighbours locs size cols b f ws Hn Ha H Hl Hb Hf Hg Hw). rewrite (isort_id Hs). reflexivity.
Qed.
Print Assumptions C57_sorted_partial.
(** In any other order some measure is reported under the name of another one: at a building at a
    grid point, with one neighbour, the column of measure [nth f ims] holds another value. *)
Theorem C57_refuted : forall ims, NoDup ims -> ~ StronglySorted (fun x y => str_le x y = true) ims ->
  exists data f cols col, (f < List.length ims)%nat /\ map_demands ims 1 data 1 1 [([0%Qc], [O])] ["7"] 1 = Ok cols /\
  nth_error cols f = Some (demand_label (nth f ims "") "7", col) /\ nth O col 0%Qc <> nth O (data O (nth f ims "")) 0%Qc.
Proof.
  intros ims Hn Hs. set (ts := isort str_le ims). assert (Pt : Permutation ims ts) by apply isort_perm.
  assert (St : sorted_by str_le ts) by (apply isort_sorted; [apply str_le_trans|apply str_le_total]).
  assert (D : exists f, (f < List.length ims)%nat /\ nth f ims "" <> nth f ts "").
  { assert (X : ims <> ts) by (intros E; apply Hs; rewrite E; exact St). assert (L := Permutation_length Pt). clearbody ts. clear - X L. revert ts X L.
    induction ims as [|x l IH]; intros [|y t] X L; cbn [List.length] in L; [contradiction|lia|lia|]. destruct (string_dec x y) as [->|N].
    - destruct (IH t) as [f [Hf E]]; [congruence|lia|]. exists (S f). cbn [List.length nth]. split; [lia|exact E].
    - exists O. cbn [List.length nth]. split; [lia|exact N]. }
  destruct D as [f [Hf Df]]. set (data := fun (g : nat) (im : string) => [if String.eqb im (nth f ims "") then 1%Qc else 0%Qc]).
  assert (W : exists ws, weights "distance2" 1 [0%Qc] = Ok ws) by (eexists; reflexivity). destruct W as [ws W].
  assert (M : exists cols, map_demands ims 1 data 1 1 [([0%Qc], [O])] ["7"] 1 = Ok cols).
  { unfold map_demands, nnr3. cbn [mapM fst snd]. rewrite W. cbn [bind]. eauto. }
  destruct M as [cols M]. exists data, f, cols.
  pose proof (@demands_at ims 1 data 1 1 [([0%Qc], [O])] ["7"] 1 cols O f ws Hn ltac:(lia) M eq_refl ltac:(cbn; lia) Hf) as E. cbn [Nat.mul Nat.add nth fst snd] in E.
  eexists. split; [exact Hf|]. split; [exact M|]. split; [apply E; [intros g [<-|[]]; lia|exact W]|].
  cbn [seq map nth]. change (0 mod 1)%nat with O. unfold data. cbn [nth].
  assert (F : String.eqb (nth f (isort str_le ims) "") (nth f ims "") = false) by (apply String.eqb_neq; intros X; apply Df; symmetry; exact X). rewrite F, String.eqb_refl.
  unfold mean_at. destruct ws as [|w ws]; cbn [map2]; [cbn; discriminate|]. assert (Z : qsum (map2 (fun (w0 : Qc) (_ : nat) => (w0 * 0)%Qc) (w :: ws) [O]) = 0%Qc).
  { cbn [map2]. destruct ws; cbn [map2]; unfold qsum; cbn [fold_right]; ring. }
  cbn [map2] in Z. rewrite Z. discriminate.
Qed.
Print Assumptions C57_refuted.
Definition two_points (g : nat) (im : string) : list Qc := if String.eqb im "PGA" then [qc (1 # 10); qc (2 # 10)] else [qc 7; qc 8].
Example C57_concrete : exists cols, map_demands ["PGV"; "PGA"] 1 two_points 2 1 [([0%Qc], [O])] ["12"] 3 = Ok cols /\
  map (fun c => (fst c, List.length (snd c))) cols = [("PGV-12-1", 3%nat); ("PGA-12-1", 3%nat)] /\
  map (fun x => Qceqb x (qc (2 # 10))) (snd (nth 0 cols ("", []))) = [false; true; false].
Proof. eexists. split; [vm_compute; reflexivity|]. split; vm_compute; reflexivity. Qed.

(** * C56: chunks and workers *)

(** Every building is in exactly one chunk, no chunk is empty or larger than the limit. *)
Theorem C56_once : forall A size (l : list A), (0 < size)%nat ->
  List.concat (chunks size l) = l /\ forall c, In c (chunks size l) -> c <> [] /\ (List.length c <= size)%nat.
Proof. intros A size l H. split; [apply chunks_concat, H|]. intros c. apply chunks_size, H. Qed.
Print Assumptions C56_once.
Example C56_once_concrete : chunks 2 [1; 2; 3; 4; 5]%nat = [[1; 2]; [3; 4]; [5]]%nat.
Proof. reflexivity. Qed.
(** The results do not depend on the order in which the workers write their files, nor on the order
    in which the directory lists them. *)
Theorem C56_schedule : forall A R (process : list A -> parts R) cs ims index ws ws' listing listing',
  Permutation ws (all_files process cs) -> Permutation ws' (all_files process cs) ->
  Permutation listing (map fst ws) -> Permutation listing' (map fst ws') ->
  finish ims index listing (written ws) = finish ims index listing' (written ws').
Proof. intros A R process cs ims index ws ws' listing listing' H H' L L'. rewrite (finish_spec process cs ims index H L), (finish_spec process cs ims index H' L'). reflexivity. Qed.
Print Assumptions C56_schedule.

(** Rows in the order of the labels, none missing. *)
Definition rows_for {R} (labels : list string) (rows : list (string * option R)) : Prop := map fst rows = labels /\ forall l v, In (l, v) rows -> v <> None.
(** Whatever the order of the buildings in the chunks, of the writes and of the listing: the files
    have one row per building (one column per building and measure for the demands) in the order of
    the inventory, and it is the row computed in the chunk of that building. Repair times are given
    for the buildings of the chunks that have them. *)
Theorem C56_complete : forall A R ims size (inventory sorted : list (Z * A)) (process : list (Z * A) -> parts R) ws listing,
  inventory <> [] -> (0 < size)%nat -> Permutation inventory sorted -> NoDup (map fst inventory) -> (forall b, In b inventory -> (0 <= fst b)%Z) ->
  NoDup ims -> complete_rows ims process ->
  Permutation ws (all_files process (chunks size sorted)) -> Permutation listing (map fst ws) ->
  exists out d g c, finish ims (map label_of inventory) listing (written ws) = Ok out /\
  ou_demand out = Some d /\ ou_damage out = Some g /\ ou_costs out = Some c /\
  rows_for (flat_map (fun b => map (fun im => demand_label im (label_of b)) ims) inventory) d /\
  rows_for (map label_of inventory) g /\ rows_for (map label_of inventory) c /\
  (forall chunk b, In chunk (chunks size sorted) -> In b chunk ->
    (forall v, In (label_of b, v) (pa_damage (process chunk)) -> In (label_of b, Some v) g) /\
    (forall v, In (label_of b, v) (pa_costs (process chunk)) -> In (label_of b, Some v) c) /\
    (forall im v, In im ims -> In (demand_label im (label_of b), v) (pa_demand (process chunk)) -> In (demand_label im (label_of b), Some v) d)) /\
  ((forall chunk, In chunk (chunks size sorted) -> pa_times (process chunk) = None) -> ou_times out = None) /\
  ((exists chunk, In chunk (chunks size sorted) /\ pa_times (process chunk) <> None) ->
    exists t, ou_times out = Some t /\ map fst t = map label_of inventory /\
    forall chunk b, In chunk (chunks size sorted) -> In b chunk ->
      match pa_times (process chunk) with
      | Some r => forall v, In (label_of b, v) r -> In (label_of b, Some v) t
      | None => In (label_of b, None) t
      end).
Proof.
  intros A R ims size inventory sorted process ws listing Hne Hsz Hp Hn Hz Hi Hc Hw Hl.
  set (cs := chunks size sorted) in *. assert (Cs : List.concat cs = sorted) by (apply chunks_concat, Hsz).
  set (lab1 := fun b : Z * A => [label_of b]). set (labd := fun b : Z * A => map (fun im => demand_label im (label_of b)) ims).
  assert (F1 : forall l, flat_map lab1 l = map label_of l) by (intros l; induction l as [|x l IH]; [reflexivity|cbn [flat_map lab1 app map]; rewrite IH; reflexivity]).
  assert (Hns : NoDup (map fst sorted)) by (eapply Permutation_NoDup; [apply Permutation_map, Hp|exact Hn]).
  assert (Hzs : forall b, In b sorted -> (0 <= fst b)%Z) by (intros b Hb; apply Hz; eapply Permutation_in; [apply Permutation_sym, Hp|exact Hb]).
  assert (N1 : NoDup (flat_map lab1 (List.concat cs))) by (rewrite Cs, F1; apply labels_NoDup, Hns).
  assert (Nd : NoDup (flat_map labd (List.concat cs))) by (rewrite Cs; apply demand_labels_NoDup; assumption).
  set (fd := fun c => of_kind "demand" (process c)). set (fg := fun c => of_kind "damage" (process c)). set (fc := fun c => of_kind "repair_costs" (process c)). set (ft := fun c => of_kind "repair_times" (process c)).
  assert (Ld : forall c r, In c cs -> fd c = Some r -> Permutation (map fst r) (flat_map labd c)).
  { intros c r _ E. unfold fd in E. cbn in E. injection E as <-. destruct (Hc c) as [_ [_ [X _]]]. exact X. }
  assert (Lg : forall c r, In c cs -> fg c = Some r -> Permutation (map fst r) (flat_map lab1 c)).
  { intros c r _ E. unfold fg in E. cbn in E. injection E as <-. rewrite F1. destruct (Hc c) as [X _]. exact X. }
  assert (Lc : forall c r, In c cs -> fc c = Some r -> Permutation (map fst r) (flat_map lab1 c)).
  { intros c r _ E. unfold fc in E. cbn in E. injection E as <-. rewrite F1. destruct (Hc c) as [_ [X _]]. exact X. }
  assert (Lt : forall c r, In c cs -> ft c = Some r -> Permutation (map fst r) (flat_map lab1 c)).
  { intros c r _ E. unfold ft in E. cbn in E. rewrite F1. destruct (Hc c) as [_ [_ [_ X]]]. exact (X r E). }
  assert (C0 : exists c0, In c0 cs).
  { destruct cs as [|c0 cs']; [|exists c0; left; reflexivity]. cbn in Cs. subst sorted. apply Permutation_sym, Permutation_nil in Hp. contradiction. }
  destruct C0 as [c0 Hc0].
  assert (Sd : somes (map fd cs) <> []) by (eapply somes_nonempty; [exact Hc0|reflexivity]).
  assert (Sg : somes (map fg cs) <> []) by (eapply somes_nonempty; [exact Hc0|reflexivity]).
  assert (Sc : somes (map fc cs) <> []) by (eapply somes_nonempty; [exact Hc0|reflexivity]).
  assert (Own : forall b, In b inventory -> exists c, In c cs /\ In b c).
  { intros b Hb. apply (Permutation_in _ Hp) in Hb. rewrite <- Cs in Hb. apply in_concat in Hb as [c [H1 H2]]. exists c. auto. }
  assert (InI : forall c b, In c cs -> In b c -> In b inventory).
  { intros c b H1 H2. apply (Permutation_in _ (Permutation_sym Hp)). rewrite <- Cs. apply in_concat. exists c. auto. }
  assert (Tt : exists t, collect (map label_of inventory) (somes (map ft cs)) = Ok t /\
     ((forall c, In c cs -> ft c = None) -> t = None) /\
     ((exists c, In c cs /\ ft c <> None) -> t = Some (map (fun l => (l, dget l (List.concat (somes (map ft cs))))) (map label_of inventory)))).
  { destruct (somes (map ft cs)) as [|r rs] eqn:E.
    - exists None. split; [reflexivity|]. split; [reflexivity|]. intros [c [H1 H2]]. destruct (ft c) as [r|] eqn:Ec; [|contradiction]. exfalso. exact (@somes_nonempty _ _ cs ft c r H1 Ec E).
    - exists (Some (map (fun l => (l, dget l (List.concat (somes (map ft cs))))) (map label_of inventory))). rewrite E. split; [|split; [|reflexivity]].
      + rewrite <- E. rewrite (@collected _ _ lab1 cs ft N1 Lt) by (rewrite E; discriminate). reflexivity.
      + intros H. exfalso. assert (X : In r (somes (map ft cs))) by (rewrite E; left; reflexivity). unfold somes in X. apply in_flat_map in X as [o [Ho X]]. apply in_map_iff in Ho as [c [<- Hcc]]. rewrite (H c Hcc) in X. destruct X. }
  destruct Tt as [t [Et [T0 T1]]].
  exists (OU (Some (map (fun l => (l, dget l (List.concat (somes (map fd cs))))) (flat_map labd inventory)))
             (Some (map (fun l => (l, dget l (List.concat (somes (map fg cs))))) (map label_of inventory)))
             (Some (map (fun l => (l, dget l (List.concat (somes (map fc cs))))) (map label_of inventory))) t).
  do 3 eexists. split; [|split; [reflexivity|split; [reflexivity|split; [reflexivity|]]]].
  - rewrite (finish_spec process cs ims (map label_of inventory) Hw Hl). cbv zeta. fold fd fg fc ft.
    assert (Fl : flat_map (fun loc => map (fun im => demand_label im loc) ims) (map label_of inventory) = flat_map labd inventory).
    { clear. induction inventory as [|b l IH]; [reflexivity|]. cbn [map flat_map]. rewrite IH. reflexivity. }
    rewrite Fl. rewrite (@collected _ _ labd cs fd Nd Ld) by exact Sd. rewrite (@collected _ _ lab1 cs fg N1 Lg) by exact Sg. rewrite (@collected _ _ lab1 cs fc N1 Lc) by exact Sc.
    cbn [bind]. fold ft. rewrite Et. reflexivity.
  - assert (Row : forall (f : list (Z * A) -> option (rows R)) lab, NoDup (flat_map lab (List.concat cs)) -> (forall c r, In c cs -> f c = Some r -> Permutation (map fst r) (flat_map lab c)) -> (forall c, f c <> None) ->
       rows_for (flat_map lab inventory) (map (fun l => (l, dget l (List.concat (somes (map f cs))))) (flat_map lab inventory))).
    { intros f lab N L Sm. split; [rewrite map_map; apply map_id|]. intros l v H. apply in_map_iff in H as [l' [E H]]. injection E as -> <-. apply in_flat_map in H as [b [Hb H]].
      destruct (Own b Hb) as [c [H1 H2]]. destruct (f c) as [r|] eqn:Ec; [|destruct (Sm c Ec)]. destruct (@has_row _ _ lab cs f L c b l r H1 H2 H Ec) as [v Hv].
      rewrite (@found _ _ lab cs f N L c r l v H1 Ec Hv). discriminate. }
    assert (Fnd : forall (f : list (Z * A) -> option (rows R)) lab c b l r v, NoDup (flat_map lab (List.concat cs)) -> (forall c r, In c cs -> f c = Some r -> Permutation (map fst r) (flat_map lab c)) ->
       In c cs -> In b c -> In l (lab b) -> f c = Some r -> In (l, v) r -> In (l, Some v) (map (fun l => (l, dget l (List.concat (somes (map f cs))))) (flat_map lab inventory))).
    { intros f lab c b l r v N L H1 H2 H3 Ec Hv. apply in_map_iff. exists l. split; [f_equal; exact (@found _ _ lab cs f N L c r l v H1 Ec Hv)|]. apply in_flat_map. exists b. split; [exact (InI c b H1 H2)|exact H3]. }
    split; [apply Row; [exact Nd|exact Ld|intros c; discriminate]|].
    split; [rewrite <- F1; apply Row; [exact N1|exact Lg|intros c; discriminate]|].
    split; [rewrite <- F1; apply Row; [exact N1|exact Lc|intros c; discriminate]|].
    split; [|split].
    + intros c b H1 H2. split; [|split].
      * intros v Hv. rewrite <- F1. apply (Fnd fg lab1 c b (label_of b) (pa_damage (process c)) v N1 Lg H1 H2); [left; reflexivity|reflexivity|exact Hv].
      * intros v Hv. rewrite <- F1. apply (Fnd fc lab1 c b (label_of b) (pa_costs (process c)) v N1 Lc H1 H2); [left; reflexivity|reflexivity|exact Hv].
      * intros im v Him Hv. apply (Fnd fd labd c b (demand_label im (label_of b)) (pa_demand (process c)) v Nd Ld H1 H2); [unfold labd; apply in_map_iff; exists im; auto|reflexivity|exact Hv].
    + exact T0.
    + intros H. cbn [ou_times]. rewrite (T1 H). eexists. split; [reflexivity|]. split; [rewrite map_map; apply map_id|].
      intros c b H1 H2. destruct (pa_times (process c)) as [r|] eqn:Ec.
      * intros v Hv. rewrite <- F1. apply (Fnd ft lab1 c b (label_of b) r v N1 Lt H1 H2); [left; reflexivity|exact Ec|exact Hv].
      * apply in_map_iff. exists (label_of b). split; [|apply in_map; exact (InI c b H1 H2)]. f_equal. apply (@not_found _ _ lab1 cs ft N1 Lt c b (label_of b) H1 H2); [left; reflexivity|exact Ec].
Qed.
Print Assumptions C56_complete.
(** When the row of a building does not depend on the other buildings of its chunk, neither the
    order of the buildings nor the size of the chunks matters. *)
Theorem C56_local : forall A R ims size (inventory sorted : list (Z * A)) (process : list (Z * A) -> parts R) ws listing
    (damage cost : Z * A -> R) (demand : string * (Z * A) -> R),
  inventory <> [] -> (0 < size)%nat -> Permutation inventory sorted -> NoDup (map fst inventory) -> (forall b, In b inventory -> (0 <= fst b)%Z) ->
  NoDup ims -> complete_rows ims process ->
  (forall c b v, In b c -> In (label_of b, v) (pa_damage (process c)) -> v = damage b) ->
  (forall c b v, In b c -> In (label_of b, v) (pa_costs (process c)) -> v = cost b) ->
  (forall c b im v, In b c -> In (demand_label im (label_of b), v) (pa_demand (process c)) -> v = demand (im, b)) ->
  Permutation ws (all_files process (chunks size sorted)) -> Permutation listing (map fst ws) ->
  exists out, finish ims (map label_of inventory) listing (written ws) = Ok out /\
  ou_damage out = Some (map (fun b => (label_of b, Some (damage b))) inventory) /\
  ou_costs out = Some (map (fun b => (label_of b, Some (cost b))) inventory) /\
  ou_demand out = Some (flat_map (fun b => map (fun im => (demand_label im (label_of b), Some (demand (im, b)))) ims) inventory).
Proof.
  intros A R ims size inventory sorted process ws listing damage cost demand Hne Hsz Hp Hn Hz Hi Hc Dd Dc De Hw Hl.
  destruct (C56_complete Hne Hsz Hp Hn Hz Hi Hc Hw Hl) as [out [d [g [c [E [Ed [Eg [Ec [Rd [Rg [Rc [H _]]]]]]]]]]]].
  exists out. split; [exact E|]. rewrite Ed, Eg, Ec.
  assert (Own : forall b, In b inventory -> exists ch, In ch (chunks size sorted) /\ In b ch).
  { intros b Hb. apply (Permutation_in _ Hp) in Hb. rewrite <- (@chunks_concat _ size sorted Hsz) in Hb. apply in_concat in Hb as [x [H1 H2]]. exists x. auto. }
  assert (Row : forall (r : rows R) (ch : list (Z * A)) b, Permutation (map fst r) (map label_of ch) -> In b ch -> exists v, In (label_of b, v) r).
  { intros r ch b P Hb. assert (X : In (label_of b) (map fst r)) by (eapply Permutation_in; [apply Permutation_sym, P|apply in_map, Hb]). apply in_map_iff in X as [[l v] [X Y]]. cbn in X. subst l. exists v. exact Y. }
  assert (NL := labels_NoDup _ Hn).
  split; [|split]; f_equal.
  - apply (@rows_determined _ _ label_of (fun b => Some (damage b)) inventory g); [apply Rg|exact NL|]. intros b Hb. destruct (Own b Hb) as [ch [H1 H2]]. destruct (Hc ch) as [X _].
    destruct (Row _ ch b X H2) as [v Hv]. rewrite <- (Dd ch b v H2 Hv). apply (H ch b H1 H2), Hv.
  - apply (@rows_determined _ _ label_of (fun b => Some (cost b)) inventory c); [apply Rc|exact NL|]. intros b Hb. destruct (Own b Hb) as [ch [H1 H2]]. destruct (Hc ch) as [_ [X _]].
    destruct (Row _ ch b X H2) as [v Hv]. rewrite <- (Dc ch b v H2 Hv). apply (H ch b H1 H2), Hv.
  - set (pairs := flat_map (fun b => map (fun im => (im, b)) ims) inventory).
    assert (F : forall {V} (h : string * (Z * A) -> V), flat_map (fun b => map (fun im => h (im, b)) ims) inventory = map h pairs).
    { intros V h. unfold pairs. clear. induction inventory as [|b l IH]; [reflexivity|]. cbn [flat_map]. rewrite map_app, IH, map_map. reflexivity. }
    etransitivity; [|symmetry; exact (F _ (fun p => (demand_label (fst p) (label_of (snd p)), Some (demand p))))].
    apply (@rows_determined _ _ (fun p => demand_label (fst p) (label_of (snd p))) (fun p => Some (demand p)) pairs d).
    + destruct Rd as [Rd _]. rewrite Rd. apply (F _ (fun p => demand_label (fst p) (label_of (snd p)))).
    + assert (Fx := F _ (fun p => demand_label (fst p) (label_of (snd p)))). cbn [fst snd] in Fx. rewrite <- Fx. apply demand_labels_NoDup; assumption.
    + intros [im b] Hp'. unfold pairs in Hp'. apply in_flat_map in Hp' as [b' [Hb Hx]]. apply in_map_iff in Hx as [im' [X Him]]. injection X as -> ->. cbn [fst snd].
      destruct (Own b Hb) as [ch [H1 H2]]. destruct (Hc ch) as [_ [_ [X _]]].
      assert (Y : In (demand_label im (label_of b)) (map fst (pa_demand (process ch)))).
      { eapply Permutation_in; [apply Permutation_sym, X|]. apply in_flat_map. exists b. split; [exact H2|]. apply in_map_iff. exists im. auto. }
      apply in_map_iff in Y as [[l v] [Y Z]]. cbn in Y. subst l. rewrite <- (De ch b im v H2 Z). apply (H ch b H1 H2); assumption.
Qed.
Print Assumptions C56_local.
Definition demo_process (c : list (Z * string)) : parts string :=
  PA (flat_map (fun b => map (fun im => (demand_label im (label_of b), (im ++ snd b)%string)) ["PGA"; "PGV"]) c)
     (map (fun b => (label_of b, ("damage of " ++ snd b)%string)) c) (map (fun b => (label_of b, ("cost of " ++ snd b)%string)) c)
     (if existsb (fun b => String.eqb (snd b) "COM1") c then Some (map (fun b => (label_of b, ("time of " ++ snd b)%string)) c) else None).
Example C56_hypotheses_met : complete_rows ["PGA"; "PGV"] demo_process.
Proof.
  intros c. unfold demo_process. cbn [pa_demand pa_damage pa_costs pa_times]. rewrite !map_map. split; [reflexivity|]. split; [reflexivity|]. split.
  - rewrite !flat_map_concat_map, concat_map, map_map. apply Permutation_refl'. f_equal.
  - intros t E. destruct (existsb _ c); [|discriminate]. injection E as <-. rewrite map_map. reflexivity.
Qed.
Example C56_concrete :
  let inventory := [(5, "RES1"); (2, "COM1"); (9, "AGR1")]%Z in let sorted := [(9, "AGR1"); (2, "COM1"); (5, "RES1")]%Z in
  let ws := rev (all_files demo_process (chunks 2 sorted)) in
  match finish ["PGA"; "PGV"] (map label_of inventory) (map fst ws) (written ws) with
  | Ok out => ou_damage out = Some [("5", Some "damage of RES1"); ("2", Some "damage of COM1"); ("9", Some "damage of AGR1")] /\
              ou_times out = Some [("5", None); ("2", Some "time of COM1"); ("9", Some "time of AGR1")]
  | Err _ => False
  end.
Proof. vm_compute. split; reflexivity. Qed.

(** * C76: decision variables *)

(** Repair times are computed for the buildings of a chunk when the last of them asks for them: when
    all ask for the same variables, each building gets what it asks for. *)
Theorem C76_same_partial : forall A R (requested : A -> list string) (times : rows R) chunk out b,
  (forall x y, In x chunk -> In y chunk -> requested x = requested y) -> chunk_times requested times chunk = Ok out -> In b chunk ->
  (out = Some times <-> In "Time" (requested b)) /\ (out = None <-> ~ In "Time" (requested b)).
Proof.
  intros A R requested times chunk out b Hs H Hb. unfold chunk_times, chunk_variables in H. destruct (rev chunk) as [|x l] eqn:E; cbn [bind] in H; [discriminate|].
  assert (Hx : In x chunk) by (apply in_rev; rewrite E; left; reflexivity). rewrite (Hs x b Hx Hb) in H. injection H as <-.
  destruct (mem "Time" (requested b)) eqn:M.
  - apply mem_true in M. split; (split; [intros; try discriminate; auto|intros; auto; try contradiction]).
  - apply mem_false in M. split; (split; [intros; try discriminate; auto|intros; auto; try contradiction]).
Qed.
Print Assumptions C76_same_partial.
(** In general a building that asks for repair times does not get them when the last building of the
    chunk does not ask for them, and conversely. *)
Theorem C76_refuted : forall A R (requested : A -> list string) (times : rows R) front b last, In b front ->
  (In "Time" (requested b) -> ~ In "Time" (requested last) -> chunk_times requested times (front ++ [last]) = Ok None) /\
  (~ In "Time" (requested b) -> In "Time" (requested last) -> chunk_times requested times (front ++ [last]) = Ok (Some times)).
Proof.
  intros A R requested times front b last Hb. unfold chunk_times, chunk_variables. rewrite rev_app_distr. cbn [rev app bind]. split; intros _ H.
  - apply mem_false in H. rewrite H. reflexivity.
  - apply mem_true in H. rewrite H. reflexivity.
Qed.
Print Assumptions C76_refuted.
Example C76_concrete : let requested (b : Z * string) := if String.eqb (snd b) "RES1" then ["Cost"; "Time"] else ["Cost"] in
  chunk_times requested [("1", qc 5); ("2", qc 6)] [(1, "RES1"); (2, "COM1")]%Z = Ok None /\ chunk_times requested [("1", qc 5); ("2", qc 6)] [(2, "COM1"); (1, "RES1")]%Z <> Ok None.
Proof. split; [reflexivity|discriminate]. Qed.

(** * C77: damage states *)

(** A building with one component is reported in the damage state of that component. *)
Theorem C77_state_partial : forall cells table c l s z, damage_table cells = Ok table -> pyint l = Some z -> realized cells c l s ->
  (forall x, In x cells -> ce_loc x = l -> ce_cmp x = c) -> In (z, qz s) table.
Proof. intros cells table c l s z H Hz Hr Hc. exact (table_single H Hz Hr Hc). Qed.
Print Assumptions C77_state_partial.
Definition house : list cell := [Cell "STR.W1" "4" "1" "0" 0 (Some 0%Qc); Cell "STR.W1" "4" "1" "0" 1 (Some 0%Qc); Cell "STR.W1" "4" "1" "0" 3 (Some 1%Qc); Cell "STR.W1" "4" "1" "0" 4 (Some 0%Qc)].
Example C77_hypotheses_met : damage_table house = Ok [(4%Z, qz 3)] /\ realized house "STR.W1" "4" 3 /\ (forall x, In x house -> ce_loc x = "4" -> ce_cmp x = "STR.W1").
Proof.
  split; [vm_compute; reflexivity|]. split; [split; [lia|split]|].
  - exists (Cell "STR.W1" "4" "1" "0" 3 (Some 1%Qc)), 1%Qc. repeat split; try reflexivity. right. right. left. reflexivity.
  - intros x q [<-|[<-|[<-|[<-|[]]]]] _ _ E; cbn in E; injection E as <-; (split; [discriminate|intros N; cbn in N; reflexivity || (exfalso; apply N; reflexivity)]).
  - intros x [<-|[<-|[<-|[<-|[]]]]] _; reflexivity.
Qed.
(** The states of several components are added: the result is no damage state of the building. *)
Theorem C77_refuted : exists cells, realized cells "STR" "4" 3 /\ realized cells "NSD" "4" 2 /\ damage_table cells = Ok [(4%Z, qz 5)].
Proof.
  exists [Cell "STR" "4" "1" "0" 3 (Some 1%Qc); Cell "NSD" "4" "1" "0" 2 (Some 1%Qc)]. split; [|split; [|vm_compute; reflexivity]].
  - split; [lia|]. split.
    + exists (Cell "STR" "4" "1" "0" 3 (Some 1%Qc)), 1%Qc. repeat split; try reflexivity. left. reflexivity.
    + intros x q [<-|[<-|[]]] A _ E; cbn in A, E; try discriminate; injection E as <-. split; [discriminate|]. intros N. exfalso. apply N. reflexivity.
  - split; [lia|]. split.
    + exists (Cell "NSD" "4" "1" "0" 2 (Some 1%Qc)), 1%Qc. repeat split; try reflexivity. right. left. reflexivity.
    + intros x q [<-|[<-|[]]] A _ E; cbn in A, E; try discriminate; injection E as <-. split; [discriminate|]. intros N. exfalso. apply N. reflexivity.
Qed.
Print Assumptions C77_refuted.
