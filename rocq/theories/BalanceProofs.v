(** Lemmas on mesh balancing. *)
From Coq Require Import List Arith Bool Lia.
From Verif Require Import Base TreeModel TreeSpec TreeProofs TreeProofs2 TreeProofs3 TreeProofs4
  BalanceModel BalanceSpec.
Import ListNotations.
Close Scope Z_scope.
Open Scope nat_scope.

(** ** tmapM *)

Fixpoint mapM_tree {A B} (f : A -> outcome B) (l : list (tree A)) : outcome (list (tree B)) :=
  match l with
  | [] => Ok []
  | c :: l' => do d <- tmapM f c; do ds <- mapM_tree f l'; Ok (d :: ds)
  end.

Lemma tmapM_node {A B} (f : A -> outcome B) cs :
  tmapM f (Node cs) = do ds <- mapM_tree f cs; Ok (Node ds).
Proof.
  cbn [tmapM]. f_equal. induction cs as [|c cs IH]; [reflexivity|]. cbn [mapM_tree].
  destruct (tmapM f c); cbn [bind]; try reflexivity. rewrite IH. reflexivity.
Qed.

Lemma tmapM_ok {A B} (f : A -> outcome B) g t : (forall x, In x (leaves t) -> f x = Ok (g x)) ->
  tmapM f t = Ok (tmap g t).
Proof.
  induction t as [a|cs IH] using tree_ind'; intros H.
  - cbn [tmapM]. rewrite H by (simpl; auto). reflexivity.
  - rewrite tmapM_node. cbn [tmap leaves] in *.
    assert (E : mapM_tree f cs = Ok (map (tmap g) cs)).
    { induction IH as [|c cs Hc Hcs IHcs]; [reflexivity|]. cbn [mapM_tree map flat_map] in *.
      rewrite Hc by (intros; apply H; apply in_or_app; auto). bsimp.
      rewrite IHcs by (intros; apply H; apply in_or_app; auto). reflexivity. }
    rewrite E. reflexivity.
Qed.

(** ** Neighbours *)

Lemma neighbour_moves D i j : D = 2 -> in_range D i -> level i < 31 ->
  (neighbour i j <-> next_on 0 i = Ok j \/ prev_on 0 i = Ok j \/ next_on 1 i = Ok j \/ prev_on 1 i = Ok j).
Proof.
  intros -> Hi Hl.
  destruct (next_prev 2 0 i) as (j1 & c1 & E1 & R1 & L1 & _ & N1 & C1); auto.
  destruct (prev_next 2 0 i) as (j2 & c2 & E2 & R2 & L2 & _ & N2 & C2); auto.
  destruct (next_prev 2 1 i) as (j3 & c3 & E3 & R3 & L3 & _ & N3 & C3); auto.
  destruct (prev_next 2 1 i) as (j4 & c4 & E4 & R4 & L4 & _ & N4 & C4); auto.
  assert (EQ : forall j', level j = level i -> level j' = level i -> coords j = coords j' -> j' = j).
  { intros j' HL HL' HC. destruct j as [l cs], j' as [l' cs']; cbn [level coords] in *. congruence. }
  split.
  - intros (HL & a & c & Ha & Hn & [HC|HC]).
    + destruct a as [|[|a]]; [| |lia].
      * assert (c = c1) by congruence. subst c1. left. rewrite E1. f_equal. apply EQ; auto. congruence.
      * assert (c = c3) by congruence. subst c3. right; right; left. rewrite E3. f_equal. apply EQ; auto. congruence.
    + destruct a as [|[|a]]; [| |lia].
      * assert (c = c2) by congruence. subst c2. right; left. rewrite E2. f_equal. apply EQ; auto. congruence.
      * assert (c = c4) by congruence. subst c4. right; right; right. rewrite E4. f_equal. apply EQ; auto. congruence.
  - intros [H|[H|[H|H]]].
    + assert (j1 = j) by congruence. subst j1. split; auto. exists 0, c1. auto.
    + assert (j2 = j) by congruence. subst j2. split; auto. exists 0, c2. auto.
    + assert (j3 = j) by congruence. subst j3. split; auto. exists 1, c3. auto.
    + assert (j4 = j) by congruence. subst j4. split; auto. exists 1, c4. auto.
Qed.

Lemma neighbour_in_range i j : in_range 2 i -> level i < 31 -> neighbour i j ->
  in_range 2 j /\ level j = level i.
Proof.
  intros Hi Hl Hn. split; [|apply Hn]. apply (neighbour_moves 2) in Hn; auto.
  destruct (next_prev 2 0 i) as (j1 & c1 & E1 & R1 & _); auto.
  destruct (prev_next 2 0 i) as (j2 & c2 & E2 & R2 & _); auto.
  destruct (next_prev 2 1 i) as (j3 & c3 & E3 & R3 & _); auto.
  destruct (prev_next 2 1 i) as (j4 & c4 & E4 & R4 & _); auto.
  destruct Hn as [H|[H|[H|H]]]; congruence.
Qed.

(** There is a deep node at a neighbour of i. *)
Definition crowded {A} (t : tree A) (i : idx) : Prop :=
  exists j n, neighbour i j /\ node_at t j = Ok n /\ 1 < depth n.

Lemma deep_node_ok {A} (t : tree A) j : wf_tree 2 t -> in_range 2 j -> level j <= 31 ->
  exists b, deep_node t (Ok j) = Ok b /\ (b = true <-> exists n, node_at t j = Ok n /\ 1 < depth n).
Proof.
  intros Hwf Hj Hl. unfold deep_node. bsimp.
  destruct (lookup_cases 2 t j Hwf Hj Hl) as [(v & E & _ & _ & _ & C)|[(cs & E & _ & _ & _ & C)|(E & _ & _ & _ & C)]];
    rewrite C; bsimp; rewrite ?E; bsimp.
  - exists (1 <? depth (Leaf v)). split; [reflexivity|]. split; [discriminate|].
    intros (n & En & Hn). injection En as <-. simpl in Hn. lia.
  - exists (1 <? depth (Node cs)). split; [reflexivity|]. rewrite Nat.ltb_lt. split; [eauto|].
    intros (n & En & Hn). injection En as <-. exact Hn.
  - exists false. split; [reflexivity|]. split; [discriminate|]. intros (n & En & _). discriminate.
Qed.

Lemma over_refined_at_ok {A} (t : tree A) i : wf_tree 2 t -> in_range 2 i -> level i < 31 ->
  exists b, over_refined_at t i = Ok b /\ (b = true <-> crowded t i).
Proof.
  intros Hwf Hi Hl.
  destruct (next_prev 2 0 i) as (j1 & c1 & E1 & R1 & L1 & _); auto.
  destruct (prev_next 2 0 i) as (j2 & c2 & E2 & R2 & L2 & _); auto.
  destruct (next_prev 2 1 i) as (j3 & c3 & E3 & R3 & L3 & _); auto.
  destruct (prev_next 2 1 i) as (j4 & c4 & E4 & R4 & L4 & _); auto.
  destruct (deep_node_ok t j1) as (b1 & F1 & G1); auto; [lia|].
  destruct (deep_node_ok t j2) as (b2 & F2 & G2); auto; [lia|].
  destruct (deep_node_ok t j3) as (b3 & F3 & G3); auto; [lia|].
  destruct (deep_node_ok t j4) as (b4 & F4 & G4); auto; [lia|].
  exists (b1 || (b2 || (b3 || b4))). split.
  - unfold over_refined_at, orM. rewrite E1, E2, E3, E4, F1, F2, F3, F4. cbn [bind].
    destruct b1, b2, b3, b4; reflexivity.
  - rewrite !orb_true_iff, G1, G2, G3, G4. unfold crowded. split.
    + intros [(n & H)|[(n & H)|[(n & H)|(n & H)]]].
      * exists j1, n. split; [apply (neighbour_moves 2); auto|tauto].
      * exists j2, n. split; [apply (neighbour_moves 2); auto|tauto].
      * exists j3, n. split; [apply (neighbour_moves 2); auto|tauto].
      * exists j4, n. split; [apply (neighbour_moves 2); auto|tauto].
    + intros (j & n & Hn & H). apply (neighbour_moves 2) in Hn; auto.
      destruct Hn as [Hn|[Hn|[Hn|Hn]]].
      * left. exists n. replace j1 with j by congruence. auto.
      * right; left. exists n. replace j2 with j by congruence. auto.
      * right; right; left. exists n. replace j3 with j by congruence. auto.
      * right; right; right. exists n. replace j4 with j by congruence. auto.
Qed.

Definition flag {A} (t : tree A) (i : idx) : bool :=
  match over_refined_at t i with Ok b => b | _ => false end.

Lemma leaf_index_facts {A} D (t : tree A) i : wf_tree D t -> In i (leaves (indexes D t)) ->
  in_range D i /\ level i <= depth t.
Proof.
  intros Hwf Hi. split; [exact (proj1 (Forall_forall _ _) (indexes_in_range D t Hwf) i Hi)|].
  apply in_indexes_iff in Hi; auto. destruct Hi as (p & v & _ & -> & Hp). apply depth_path in Hp.
  cbn [level]. simpl in Hp. lia.
Qed.

Lemma over_refined_ok {A} (t : tree A) : wf_tree 2 t -> depth t <= 30 ->
  over_refined_neighbors t = Ok (tmap (flag t) (indexes 2 t)) /\
  forall i, In i (leaves (indexes 2 t)) -> (flag t i = true <-> crowded t i).
Proof.
  intros Hwf Hd.
  assert (H : forall i, In i (leaves (indexes 2 t)) ->
    over_refined_at t i = Ok (flag t i) /\ (flag t i = true <-> crowded t i)).
  { intros i Hi. destruct (leaf_index_facts 2 t i Hwf Hi) as [Hr Hl].
    destruct (over_refined_at_ok t i) as (b & E & F); auto; [lia|].
    unfold flag. rewrite E. auto. }
  split; [apply tmapM_ok; intros x Hx; apply H; auto|intros i Hi; apply H; auto].
Qed.

(** ** Balance in terms of nodes *)

Lemma deepest_leaf {A} D (t : tree A) : wf_tree D t -> exists p, In p (leaf_paths t) /\ length p = depth t.
Proof.
  induction t as [a|cs IH] using tree_ind'; intros Hwf; [exists []; simpl; auto|].
  apply wf_node_inv in Hwf. destruct Hwf as [HL HF].
  assert (HM : exists c, In c cs /\ depth c = list_max (map depth cs)).
  { assert (Hne : cs <> []) by (intros ->; simpl in HL; pose proof (pow2_pos D); lia). clear -Hne.
    induction cs as [|c cs IH]; [congruence|]. destruct cs as [|c2 cs].
    - exists c. split; [simpl; auto|]. simpl. lia.
    - destruct IH as (c' & Hc & E); [discriminate|].
      change (list_max (map depth (c :: c2 :: cs))) with (Nat.max (depth c) (list_max (map depth (c2 :: cs)))).
      destruct (Nat.le_ge_cases (depth c) (list_max (map depth (c2 :: cs)))).
      + exists c'. split; [simpl in *; tauto|]. lia.
      + exists c. split; [simpl; auto|]. lia. }
  destruct HM as (c & Hc & E). apply In_nth_error in Hc. destruct Hc as [k Hk].
  rewrite Forall_forall in IH. destruct (IH c (nth_error_In _ _ Hk)) as (p & Hp & HLp).
  { eapply Forall_nth_error; eauto. }
  exists (k :: p). split; [apply (leaf_path_child cs k c p Hk); auto|]. cbn [length depth]. lia.
Qed.

Lemma node_path_wf {A} D p : forall (t : tree A) n, wf_tree D t -> node_path p t = Some n -> wf_tree D n.
Proof.
  induction p as [|k p IH]; intros t n Hwf Hn; [injection Hn as <-; auto|].
  destruct t as [|cs]; [discriminate|]. cbn [node_path] in Hn.
  destruct (nth_error cs k) as [c|] eqn:E; [|discriminate]. apply wf_node_inv in Hwf.
  eapply IH; [|eauto]. eapply Forall_nth_error; [apply Hwf|eauto].
Qed.

Lemma balanced_iff {A} (t : tree A) : wf_tree 2 t -> depth t <= 30 ->
  (balanced t <-> forall i, In i (leaves (indexes 2 t)) -> ~ crowded t i).
Proof.
  intros Hwf Hd. unfold balanced, crowded. split.
  - intros HB i Hi (j & n & Hn & HN & Hdn). destruct (leaf_index_facts 2 t i Hwf Hi) as [Hr Hl].
    assert (Hl31 : level i < 31) by lia.
    destruct (neighbour_in_range i j Hr Hl31 Hn) as [Rj Lj].
    destruct (in_range_addr 2 j Rj) as (q & Hq & HLq & ->).
    rewrite node_at_addr in HN by (auto; lia).
    destruct (node_path q t) as [n'|] eqn:EN; [|discriminate]. injection HN as ->.
    pose proof (node_path_wf 2 q t n Hwf EN) as Wn.
    destruct (deepest_leaf 2 n Wn) as (r & Hr2 & HLr).
    assert (Hro : path_ok 2 r) by (exact (proj1 (Forall_forall _ _) (leaf_paths_ok 2 n Wn) r Hr2)).
    assert (Hqr : path_ok 2 (q ++ r)) by (apply Forall_app; auto).
    apply leaf_paths_in in Hr2. destruct Hr2 as [v Hv].
    specialize (HB i (addr 2 q) (addr 2 (q ++ r)) Hi Hn).
    assert (level (addr 2 (q ++ r)) <= level i + 1).
    { apply HB.
      - apply in_indexes_iff; auto. exists (q ++ r), v. split; auto. split; [reflexivity|].
        rewrite node_path_app, EN. exact Hv.
      - apply covers_addr; auto. eauto. }
    unfold addr in H, Lj; cbn [level] in H, Lj. rewrite app_length in H. lia.
  - intros HB i j l Hi Hn Hl Hc. destruct (leaf_index_facts 2 t i Hwf Hi) as [Hr Hli].
    assert (Hl31 : level i < 31) by lia.
    destruct (neighbour_in_range i j Hr Hl31 Hn) as [Rj Lj].
    destruct (in_range_addr 2 j Rj) as (q & Hq & HLq & ->).
    apply in_indexes_iff in Hl; auto. destruct Hl as (p & v & Hp & -> & Hv).
    apply covers_prefix in Hc; auto. destruct Hc as [r ->].
    rewrite node_path_app in Hv. destruct (node_path q t) as [n|] eqn:EN; [|discriminate].
    cbn [level]. rewrite app_length. unfold addr in Lj; cbn [level] in Lj.
    apply depth_path in Hv. simpl in Hv.
    assert (~ 1 < depth n); [|lia]. intros Hd2. apply (HB i Hi). exists (addr 2 q), n. split; auto. split; auto.
    rewrite node_at_addr by (auto; unfold addr in HLq; lia). rewrite EN. reflexivity.
Qed.

(** ** One pass as a structural function *)

Section step.
  Context {A : Type} (refine : A -> list A).
  Hypothesis refine_len : forall a, length (refine a) = 4.

  Fixpoint stepI (G : idx -> bool) (i : idx) (t : tree A) : tree A :=
    match t with
    | Leaf a => if G i then Node (map Leaf (refine a)) else Leaf a
    | Node cs => Node (mapi (fun k c => stepI G (child_index i k) c) cs)
    end.

  Fixpoint pairI (G : idx -> bool) (i : idx) (t : tree A) : tree (bool * A) :=
    match t with
    | Leaf a => Leaf (G i, a)
    | Node cs => Node (mapi (fun k c => pairI G (child_index i k) c) cs)
    end.

  Lemma pair_flags G t : forall i, pair_trees (tmap G (indexes_from i t)) t = Ok (pairI G i t).
  Proof.
    unfold pair_trees. induction t as [a|cs IH] using tree_ind'; intros i; [reflexivity|].
    cbn [indexes_from tmap pairI]. rewrite binary_op_node.
    enough (E : bin_list pair (map (tmap G) (mapi (fun k c => indexes_from (child_index i k) c) cs)) cs =
                Ok (mapi (fun k c => pairI G (child_index i k) c) cs)) by (rewrite E; reflexivity).
    unfold mapi. generalize 0 as k.
    induction IH as [|c cs Hc Hcs IHcs]; intros k; [reflexivity|].
    cbn [mapi_from map bin_list]. rewrite Hc. bsimp. rewrite IHcs. reflexivity.
  Qed.

  Lemma bif_pairs G t : forall i,
    tmap snd (bifurcate_if fst (map_2nd refine) (pairI G i t)) = stepI G i t.
  Proof.
    induction t as [a|cs IH] using tree_ind'; intros i.
    - cbn [pairI bifurcate_if stepI fst]. destruct (G i); [|reflexivity].
      unfold tree_of, map_2nd; cbn [snd fst tmap]. rewrite !map_map. reflexivity.
    - cbn [pairI bifurcate_if stepI tmap]. f_equal. unfold mapi. generalize 0 as k.
      induction IH as [|c cs Hc Hcs IHcs]; intros k; [reflexivity|].
      cbn [mapi_from map]. rewrite Hc, IHcs. reflexivity.
  Qed.

  Lemma balance_step_ok t : wf_tree 2 t -> depth t <= 30 ->
    balance_step refine t = Ok (stepI (flag t) (root_index 2) t).
  Proof.
    intros Hwf Hd. unfold balance_step. rewrite (proj1 (over_refined_ok t Hwf Hd)). bsimp.
    unfold indexes. rewrite pair_flags. bsimp. rewrite bif_pairs. reflexivity.
  Qed.

  Lemma stepI_wf G t : forall i, wf_tree 2 t -> wf_tree 2 (stepI G i t).
  Proof.
    induction t as [a|cs IH] using tree_ind'; intros i Hwf; cbn [stepI].
    - destruct (G i); [|constructor]. constructor; [rewrite map_length, refine_len; reflexivity|].
      apply Forall_forall. intros x Hx. apply in_map_iff in Hx. destruct Hx as (? & <- & _). constructor.
    - apply wf_node_inv in Hwf. destruct Hwf as [HL HF]. constructor.
      + unfold mapi. rewrite mapi_from_length. exact HL.
      + apply Forall_forall. intros x Hx. apply In_nth_error in Hx. destruct Hx as [n Hn].
        rewrite nth_error_mapi in Hn. destruct (nth_error cs n) as [c|] eqn:E; [|discriminate].
        cbn [option_map] in Hn. injection Hn as <-.
        rewrite Forall_forall in IH. apply IH; [eapply nth_error_In; eauto|eapply Forall_nth_error; eauto].
  Qed.

  Lemma list_max_le_iff l n : list_max l <= n <-> Forall (fun x => x <= n) l.
  Proof. apply list_max_le. Qed.

  Lemma stepI_depth G t : forall i M, depth t <= M ->
    (forall p, In p (leaf_paths t) -> G (ext i p) = true -> length p < M) -> depth (stepI G i t) <= M.
  Proof.
    induction t as [a|cs IH] using tree_ind'; intros i M Hd H; cbn [stepI].
    - destruct (G i) eqn:E; [|simpl; lia]. cbn [depth].
      specialize (H [] (or_introl eq_refl) E). simpl in H.
      assert (list_max (map depth (map Leaf (refine a))) <= 0).
      { apply list_max_le. apply Forall_forall. intros x Hx. rewrite map_map in Hx.
        apply in_map_iff in Hx. destruct Hx as (? & <- & _). simpl. lia. }
      lia.
    - cbn [depth] in *. destruct M as [|M]; [lia|]. apply le_n_S, list_max_le.
      apply le_S_n in Hd. apply list_max_le in Hd.
      apply Forall_forall. intros x Hx. apply in_map_iff in Hx. destruct Hx as (y & <- & Hy).
      apply In_nth_error in Hy. destruct Hy as [k Hk]. rewrite nth_error_mapi in Hk.
      destruct (nth_error cs k) as [c|] eqn:E; [|discriminate]. cbn [option_map] in Hk. injection Hk as <-.
      rewrite Forall_forall in IH. apply IH.
      + eapply nth_error_In; eauto.
      + rewrite Forall_forall in Hd. apply Hd. apply in_map. eapply nth_error_In; eauto.
      + intros p Hp HG. enough (length (k :: p) < S M) by (simpl in *; lia).
        apply H; [apply (leaf_path_child cs k c p E); auto|]. exact HG.
  Qed.

  Lemma stepI_id G t : forall i, (forall p, In p (leaf_paths t) -> G (ext i p) = false) -> stepI G i t = t.
  Proof.
    induction t as [a|cs IH] using tree_ind'; intros i H; cbn [stepI].
    - pose proof (H [] (or_introl eq_refl)) as H0. unfold ext in H0; cbn [fold_left] in H0.
      rewrite H0. reflexivity.
    - f_equal. apply nth_error_ext. intros n. rewrite nth_error_mapi.
      destruct (nth_error cs n) as [c|] eqn:E; cbn [option_map]; [|reflexivity]. f_equal.
      rewrite Forall_forall in IH. apply IH; [eapply nth_error_In; eauto|].
      intros p Hp. apply (H (n :: p)). apply (leaf_path_child cs n c p E); auto.
  Qed.

  Lemma stepI_size_ge G t : forall i, size t <= size (stepI G i t).
  Proof.
    induction t as [a|cs IH] using tree_ind'; intros i; cbn [stepI].
    - destruct (G i); [|simpl; lia]. rewrite (size_leaves (Node _)). cbn [leaves]. rewrite flat_map_map_Leaf, refine_len.
      simpl; lia.
    - cbn [size]. unfold mapi. generalize 0 as k.
      induction IH as [|c cs Hc Hcs IHcs]; intros k; [simpl; lia|].
      cbn [mapi_from map list_sum fold_right]. specialize (IHcs (S k)).
      pose proof (Hc (child_index i k)). unfold list_sum in IHcs. lia.
  Qed.

  Lemma stepI_size_gt G t : forall i p, In p (leaf_paths t) -> G (ext i p) = true ->
    size t < size (stepI G i t).
  Proof.
    induction t as [a|cs IH] using tree_ind'; intros i p Hp HG; cbn [stepI].
    - destruct Hp as [<-|[]]. unfold ext in HG; cbn [fold_left] in HG. rewrite HG.
      rewrite (size_leaves (Node _)). cbn [leaves]. rewrite flat_map_map_Leaf, refine_len. simpl; lia.
    - apply leaf_paths_in in Hp. destruct Hp as [v Hv]. destruct p as [|k p]; [discriminate|].
      cbn [node_path] in Hv. destruct (nth_error cs k) as [c|] eqn:E; [|discriminate].
      assert (Hp : In p (leaf_paths c)) by (apply leaf_paths_in; eauto).
      cbn [size]. unfold mapi.
      assert (HG' : G (ext (child_index i (0 + k)) p) = true) by exact HG.
      clear HG Hv. revert k E HG'. generalize 0 as b.
      induction cs as [|c0 cs IHcs]; intros b k E HG.
      + destruct k; discriminate.
      + inversion IH as [|? ? Hc0 Hcs]; subst.
        destruct k as [|k]; cbn [nth_error] in E.
        * injection E as ->. rewrite Nat.add_0_r in HG. cbn [mapi_from map list_sum fold_right].
          pose proof (Hc0 (child_index i b) p Hp HG).
          assert (G2 : list_sum (map size cs) <=
                    list_sum (map size (mapi_from (fun k c => stepI G (child_index i k) c) (S b) cs))).
          { clear -refine_len. generalize (S b) as m. induction cs as [|c cs IH]; intros m; [simpl; lia|].
            cbn [mapi_from map list_sum fold_right]. pose proof (stepI_size_ge G c (child_index i m)).
            specialize (IH (S m)). unfold list_sum in IH. lia. }
          unfold list_sum in G2. lia.
        * cbn [mapi_from map list_sum fold_right].
          pose proof (stepI_size_ge G c0 (child_index i b)).
          rewrite Nat.add_succ_r, <- Nat.add_succ_l in HG.
          specialize (IHcs Hcs (S b) k E HG). unfold list_sum in IHcs. lia.
  Qed.
End step.
