(** C68: the mesh of vertex blocks (src/mesh_tree_operators.hpp, create_vertex_quadtree; src/subprog_binary.cpp,
    create_vertices) and the cell areas and centres made from it (src/subprog_binary_solver_data.cpp). *)
From Coq Require Import ZArith Reals Lra List Arith Bool Lia.
From Verif Require Import Base TreeModel TreeSpec TreeProofs TreeProofs3 TreeProofs4 BalanceModel BalanceSpec BalanceProofs BalanceProofs2 BalanceProps
  NdModel NdSpec NdProofs NdProofs2 NdProofs3 NdOpsModel NdOpsProofs ProlongModel ProlongProofs FluxSpec FluxProofs3 FluxProofs4 FluxProofs5
  GuardSpec GuardProofs GuardProofs2 GuardProofs3 MeshModel MeshSpec MeshProofs MeshProofs2.
Import ListNotations.
Open Scope Z_scope.

Lemma at_leaf_path {A} (t : tree A) i v : wf_tree 2 t -> (depth t <= 31)%nat -> in_range 2 i -> at_ t i = Ok v ->
  exists q, path_ok 2 q /\ i = addr 2 q /\ node_path q t = Some (Leaf v).
Proof.
  intros W Hd Hi Ea. destruct (in_range_addr 2 i Hi) as (q & Hq & Hlq & ->). exists q. split; [assumption|]. split; [reflexivity|].
  destruct (le_lt_dec (length q) 31) as [H|H]; [apply at_addr in Ea; auto|].
  exfalso. unfold at_, addr in Ea. cbn [level coords] in Ea. destruct (length q) as [|l] eqn:El; [lia|]. revert Ea. destruct t as [a|cs]; cbn; [discriminate|].
  unfold orthant; cbn [level]. unfold shl1. destruct (Nat.ltb_spec l 31); [lia|]. discriminate.
Qed.

Lemma grown_path r p0 (u t : tree (array (R * R))) : grown r u t -> forall ds, node_path p0 u = Some (Node ds) -> exists cs, node_path p0 t = Some (Node cs).
Proof.
  intros G ds E. apply grown_refines in G. destruct (refines_node_path p0 u t _ G E) as (n & En & Rn). inversion Rn; subst. eauto.
Qed.

(** What create_vertex_quadtree makes: the passes, balanced. *)
Lemma quadtree_made predicate N d : 1 <= N < 2147483647 -> (d <= 30)%nat ->
  exists t, (forall fuel, (4 ^ d < fuel)%nat -> create_vertex_quadtree fuel predicate N N d = Ok t) /\
    wf_tree 2 t /\ balanced t /\ (depth t <= d)%nat /\ regp N [] t /\ grown split4 (passes N predicate d) t /\
    exists fuel, ensure_valid_quadtree split4 fuel (passes N predicate d) = Ok t.
Proof.
  intros [H1 H2] Hd. destruct (passes_facts N H1 H2 predicate d) as (W & D & R).
  destruct (balance_ends_balanced split4 (passes N predicate d) split4_length W ltac:(lia)) as (t & E & Wt & Bt & Gt & Dt).
  exists t. split.
  - intros fuel Hf. unfold create_vertex_quadtree. rewrite passes_ok by assumption. bsimp.
    rewrite (ensureM_total (ablock N) refine_locations split4 (split4_block N H1 H2) split4_length); auto; [|eapply regp_blocks; eassumption|lia].
    apply E. eapply Nat.le_lt_trans; [|exact Hf]. apply Nat.pow_le_mono_r; lia.
  - split; [assumption|]. split; [assumption|]. split; [lia|]. split; [eapply (regp_grown N H1 H2); [constructor|exact Gt|exact R]|]. split; [assumption|].
    exists (S (4 ^ depth (passes N predicate d))). apply E. lia.
Qed.

(** Every predicate, block size and depth up to 30 give a balanced mesh of at most that depth whose every block holds the
    vertices of a uniform grid of its level on the square of half-width [radius]: neighbouring blocks share their vertices. *)
Theorem mesh_is_regular predicate N d radius : 1 <= N < 2147483647 -> (d <= 30)%nat ->
  exists t, (forall fuel, (4 ^ d < fuel)%nat -> create_vertices fuel predicate N d radius = Ok t) /\
    wf_tree 2 t /\ balanced t /\ (depth t <= d)%nat /\ regular N radius t.
Proof.
  intros HN Hd. destruct (quadtree_made predicate N d HN Hd) as (t & E & W & B & D & R & _).
  exists (tmap (arr_map (loc_scale radius)) t). pose proof (shape_sym _ _ (tmap_shape (arr_map (loc_scale radius)) t)) as SS.
  destruct (same_shape_wf _ _ W SS) as [W' D'].
  split; [intros fuel Hf; unfold create_vertices; rewrite (E fuel Hf); reflexivity|]. split; [assumption|]. split; [eapply same_shape_balanced; eassumption|]. split; [lia|].
  intros i b Hi Eb. destruct (at_leaf_path _ i b W' ltac:(lia) Hi Eb) as (q & Hq & -> & Eq). rewrite node_path_tmap in Eq.
  destruct (node_path q t) as [[v|cs]|] eqn:Ev; try discriminate. cbn [option_map tmap] in Eq. injection Eq as <-.
  destruct (R q v Hq Ev) as [R1 R2]. split; [exact R1|]. intros k m Hk Hm. cbn [arr_map aget]. rewrite R2 by (repeat constructor; lia). bsimp. f_equal.
  unfold vblock, vtx, loc_scale, glob, point_in, place. cbn [app addr level coords fst snd].
  pose proof (of_path_length 2 q) as Lc. destruct (of_path 2 q) as [|c0 [|c1 [|c2 cs]]]; try discriminate. cbn [zipw nth]. rewrite !plus_IZR, !mult_IZR.
  assert (HI : IZR N <> 0%R) by (apply not_0_IZR; lia). pose proof (pow_lt 2 (length q) ltac:(lra)).
  f_equal; field; split; lra.
Qed.

(** ** Cells *)
Lemma binary_reps_gen {A B C} (f : A -> B -> C) x y s X Y : reps x s X -> reps y s Y ->
  exists z, NdModel.binary_op f x y = Ok z /\ reps z s (fun i => f (X i) (Y i)).
Proof.
  intros [X1 X2] [Y1 Y2]. unfold NdModel.binary_op. rewrite X1, Y1, seq_eqb_refl. eexists. split; [reflexivity|]. split; [reflexivity|].
  intros i Hi. cbn [aget]. rewrite X2, Y2 by assumption. reflexivity.
Qed.
Lemma map_reps {A B} (f : A -> B) x s X : reps x s X -> reps (arr_map f x) s (fun i => f (X i)).
Proof. intros [X1 X2]. split; [exact X1|]. intros i Hi. cbn [arr_map aget]. rewrite X2 by assumption. reflexivity. Qed.
Lemma midpoint_reps {A} (add : A -> A -> A) half ax x s X : okshape s -> (ax < length s)%nat -> 1 <= nth ax s 0 -> reps x s X ->
  exists z, midpoint_on_axis add half ax x = Ok z /\ reps z (upd ax (nth ax s 0 - 1) s) (fun i => half (add (X i) (X (upd ax (1 + nth ax i 0) i)))).
Proof.
  intros HO HL Hn HX. pose proof (okshape_nth ax s HO HL) as Hb. unfold midpoint_on_axis.
  destruct (select_unit_reps ax 0 1 (nth ax s 0 - 1) true x s X HO HL HX) as (l & E1 & R1); [apply w64_small; lia|lia|lia|].
  destruct (select_unit_reps ax 1 0 (nth ax s 0) true x s X HO HL HX) as (r & E2 & R2); [rewrite Z.sub_0_r; apply w64_small; lia|lia|lia|].
  rewrite E1, E2. bsimp. rewrite Z.sub_0_r in R1. destruct (binary_reps_gen add l r _ _ _ R1 R2) as (z & Ez & Rz). rewrite Ez. bsimp.
  eexists. split; [reflexivity|]. eapply reps_ext; [apply map_reps; exact Rz|]. intros i Hi. cbv beta. f_equal. f_equal. f_equal. apply upd_nth.
Qed.
Lemma difference_reps_gen {A} (sub : A -> A -> A) ax x s X : okshape s -> (ax < length s)%nat -> 1 <= nth ax s 0 -> reps x s X ->
  exists z, difference_on_axis sub ax x = Ok z /\ reps z (upd ax (nth ax s 0 - 1) s) (fun i => sub (X (upd ax (1 + nth ax i 0) i)) (X i)).
Proof.
  intros HO HL Hn HX. pose proof (okshape_nth ax s HO HL) as Hb. unfold difference_on_axis.
  destruct (select_unit_reps ax 0 1 (nth ax s 0 - 1) true x s X HO HL HX) as (l & E1 & R1); [apply w64_small; lia|lia|lia|].
  destruct (select_unit_reps ax 1 0 (nth ax s 0) true x s X HO HL HX) as (r & E2 & R2); [rewrite Z.sub_0_r; apply w64_small; lia|lia|lia|].
  rewrite E1, E2. bsimp. rewrite Z.sub_0_r in R1. destruct (binary_reps_gen sub r l _ _ _ R2 R1) as (z & Ez & Rz). rewrite Ez.
  exists z. split; [reflexivity|]. eapply reps_ext; [exact Rz|]. intros i Hi. cbv beta. f_equal. f_equal. apply upd_nth.
Qed.

Lemma ok2 a b : 0 <= a < two64 -> 0 <= b < two64 -> okshape [a; b].
Proof. intros H1 H2. repeat constructor; lia. Qed.

(** The cells of one block. *)
Lemma block_cells N radius i b : 1 <= N < 2147483647 ->
  reps b [N + 1; N + 1] (fun k => point_in radius N i (IZR (nth 0 k 0)) (IZR (nth 1 k 0))) ->
  (exists a, cell_areas b = Ok a /\ reps a [N; N] (fun _ => (2 * radius / (IZR N * 2 ^ level i)) * (2 * radius / (IZR N * 2 ^ level i)))%R) /\
  (exists c, cell_centers b = Ok c /\ reps c [N; N] (fun k => point_in radius N i (IZR (nth 0 k 0) + 1 / 2) (IZR (nth 1 k 0) + 1 / 2))).
Proof.
  intros HN HR. assert (HT : 2147483647 < two64) by (unfold two64; lia).
  assert (HI : IZR N <> 0%R) by (apply not_0_IZR; lia). pose proof (pow_lt 2 (level i) ltac:(lra)) as Hp.
  split.
  - unfold cell_areas.
    destruct (difference_reps_gen Rminus 0 (arr_map fst b) [N + 1; N + 1] _ ltac:(apply ok2; lia) ltac:(cbn; lia) ltac:(cbn; lia) (map_reps fst _ _ _ HR)) as (d & E1 & R1).
    rewrite E1. bsimp. cbn [nth upd] in R1. replace (N + 1 - 1) with N in R1 by lia.
    destruct (midpoint_reps Rplus (fun x => x / 2)%R 1 d [N; N + 1] _ ltac:(apply ok2; lia) ltac:(cbn; lia) ltac:(cbn; lia) R1) as (dx & E2 & R2).
    rewrite E2. bsimp. cbn [nth upd] in R2. replace (N + 1 - 1) with N in R2 by lia.
    destruct (difference_reps_gen Rminus 1 (arr_map snd b) [N + 1; N + 1] _ ltac:(apply ok2; lia) ltac:(cbn; lia) ltac:(cbn; lia) (map_reps snd _ _ _ HR)) as (e & E3 & R3).
    rewrite E3. bsimp. cbn [nth upd] in R3. replace (N + 1 - 1) with N in R3 by lia.
    destruct (midpoint_reps Rplus (fun x => x / 2)%R 0 e [N + 1; N] _ ltac:(apply ok2; lia) ltac:(cbn; lia) ltac:(cbn; lia) R3) as (dy & E4 & R4).
    rewrite E4. bsimp. cbn [nth upd] in R4. replace (N + 1 - 1) with N in R4 by lia.
    destruct (binary_reps_gen Rmult dx dy _ _ _ R2 R4) as (a & E5 & R5). exists a. split; [exact E5|].
    eapply reps_ext; [exact R5|]. intros k Hk. apply inb_length in Hk. destruct k as [|k0 [|k1 [|k2 k]]]; try discriminate.
    cbn [nth upd]. unfold point_in, place. cbn [fst snd]. rewrite !plus_IZR. field. split; lra.
  - unfold cell_centers.
    destruct (midpoint_reps loc_add loc_half 0 b [N + 1; N + 1] _ ltac:(apply ok2; lia) ltac:(cbn; lia) ltac:(cbn; lia) HR) as (m & E1 & R1).
    rewrite E1. bsimp. cbn [nth upd] in R1. replace (N + 1 - 1) with N in R1 by lia.
    destruct (midpoint_reps loc_add loc_half 1 m [N; N + 1] _ ltac:(apply ok2; lia) ltac:(cbn; lia) ltac:(cbn; lia) R1) as (c & E2 & R2).
    cbn [nth upd] in R2. replace (N + 1 - 1) with N in R2 by lia. exists c. split; [exact E2|].
    eapply reps_ext; [exact R2|]. intros k Hk. apply inb_length in Hk. destruct k as [|k0 [|k1 [|k2 k]]]; try discriminate.
    cbn [nth upd]. unfold point_in, place, loc_half, loc_add. cbn [fst snd]. rewrite !plus_IZR. f_equal; field; split; lra.
Qed.

Definition or_else {A} (d : A) (m : outcome A) : A := match m with Ok x => x | _ => d end.
Lemma tmapM_leaves {A B} (f : A -> outcome B) (dflt : B) t : (forall x, In x (leaves t) -> exists y, f x = Ok y) ->
  tmapM f t = Ok (tmap (fun x => or_else dflt (f x)) t).
Proof. intros H. apply tmapM_ok. intros x Hx. destruct (H x Hx) as [y E]. rewrite E. reflexivity. Qed.

(** Leaves of area [c / 4 ^ level] cover [c]. *)
Lemma quarter_sum (t : tree R) : forall c, wf_tree 2 t -> (forall p v, path_ok 2 p -> node_path p t = Some (Leaf v) -> v = (c / 4 ^ length p)%R) ->
  rsum (fun x => x) (leaves t) = c.
Proof.
  induction t as [a|cs IH] using tree_ind'; intros c W H.
  - cbn [leaves rsum]. rewrite (H [] a ltac:(constructor) eq_refl). simpl. field.
  - apply wf_node_inv in W. destruct W as [W1 W2]. cbn [leaves].
    assert (G : forall l, Forall (fun t => rsum (fun x => x) (leaves t) = (c / 4)%R) l -> rsum (fun x => x) (flat_map leaves l) = (c / 4 * INR (length l))%R).
    { induction 1 as [|x l Hx Hl IHl]; [cbn; ring|]. cbn [flat_map]. rewrite rsum_app, Hx, IHl. cbn [length]. rewrite S_INR. ring. }
    rewrite G; [rewrite W1; simpl; field|]. apply Forall_forall. intros x Hx. rewrite Forall_forall in IH, W2. apply IH; auto.
    intros p v Hp Ep. apply In_nth_error in Hx. destruct Hx as [k Hk].
    rewrite (H (k :: p) v).
    + cbn [length]. simpl pow. pose proof (pow_lt 4 (length p) ltac:(lra)). field. lra.
    + constructor; [|assumption]. rewrite <- W1. apply nth_error_Some. congruence.
    + cbn [node_path]. rewrite Hk. assumption.
Qed.

(** The cells of a regular mesh: each is a square of its level's side, its centre is the middle of its square, and the
    areas add up to the whole. *)
Theorem mesh_cells N radius t : 1 <= N < 2147483647 -> wf_tree 2 t -> (depth t <= 30)%nat -> regular N radius t ->
  exists dA xc, tmapM cell_areas t = Ok dA /\ tmapM cell_centers t = Ok xc /\ same_shape t dA /\ same_shape t xc /\
    (forall i, in_range 2 i -> (exists b, at_ t i = Ok b) ->
      exists a c, at_ dA i = Ok a /\ at_ xc i = Ok c /\ ashape a = [N; N] /\ ashape c = [N; N] /\
      forall k m, 0 <= k < N -> 0 <= m < N ->
        aget a [k; m] = Ok ((2 * radius / (IZR N * 2 ^ level i)) ^ 2)%R /\
        aget c [k; m] = Ok (point_in radius N i (IZR k + 1 / 2) (IZR m + 1 / 2))) /\
    area N dA = ((2 * radius) ^ 2)%R.
Proof.
  intros HN W Hd HR.
  assert (K : forall p v, path_ok 2 p -> node_path p t = Some (Leaf v) ->
     reps v [N + 1; N + 1] (fun k => point_in radius N (addr 2 p) (IZR (nth 0 k 0)) (IZR (nth 1 k 0)))).
  { intros p v Hp E. assert (HLp : (length p <= 30)%nat) by (apply depth_path in E; lia).
    destruct (HR (addr 2 p) v) as [H1 H2]; [apply path_in_range|apply at_addr; auto; lia|]. split; [exact H1|].
    intros k Hk. pose proof (inb_length _ _ Hk) as Lk. destruct k as [|k0 [|k1 [|k2 k]]]; try discriminate.
    pose proof (inb_nth 0 _ _ Hk ltac:(cbn; lia)) as K0. pose proof (inb_nth 1 _ _ Hk ltac:(cbn; lia)) as K1. cbn [nth] in K0, K1. cbn [nth]. apply H2; lia. }
  assert (KL : forall v, In v (leaves t) -> exists p, path_ok 2 p /\ node_path p t = Some (Leaf v)) by (intros v Hv; apply leaf_has_path; assumption).
  set (d0 := mkarr [] (fun _ => UB) : array R). set (d1 := mkarr [] (fun _ => UB) : array (R * R)).
  exists (tmap (fun x => or_else d0 (cell_areas x)) t), (tmap (fun x => or_else d1 (cell_centers x)) t).
  split; [apply tmapM_leaves; intros x Hx; destruct (KL x Hx) as (p & Hp & Ep); destruct (block_cells N radius _ _ HN (K p x Hp Ep)) as [(a & Ea & _) _]; eauto|].
  split; [apply tmapM_leaves; intros x Hx; destruct (KL x Hx) as (p & Hp & Ep); destruct (block_cells N radius _ _ HN (K p x Hp Ep)) as [_ (a & Ea & _)]; eauto|].
  split; [apply shape_sym, tmap_shape|]. split; [apply shape_sym, tmap_shape|]. split.
  - intros i Hi (b & Eb). destruct (at_leaf_path t i b W ltac:(lia) Hi Eb) as (q & Hq & -> & Eq).
    assert (HLq : (length q <= 30)%nat) by (apply depth_path in Eq; lia).
    destruct (block_cells N radius _ _ HN (K q b Hq Eq)) as [(a & Ea & A1 & A2) (c & Ec & C1 & C2)]. exists a, c.
    split; [apply at_addr; [apply tmap_wf; assumption|assumption|lia|]; rewrite node_path_tmap, Eq; cbn [option_map tmap]; rewrite Ea; reflexivity|].
    split; [apply at_addr; [apply tmap_wf; assumption|assumption|lia|]; rewrite node_path_tmap, Eq; cbn [option_map tmap]; rewrite Ec; reflexivity|].
    split; [assumption|]. split; [assumption|]. intros k m Hk Hm. split.
    + rewrite A2 by (repeat constructor; lia). f_equal. ring.
    + rewrite C2 by (repeat constructor; lia). reflexivity.
  - unfold area. rewrite tmap_leaves, rsum_map.
    pose (s := fun x => rsum (val (or_else d0 (cell_areas x))) (idxs [N; N])).
    transitivity (rsum (fun x => x) (leaves (tmap s t))); [rewrite tmap_leaves, rsum_map; reflexivity|].
    apply quarter_sum; [apply tmap_wf; assumption|]. intros p v Hp Ep. rewrite node_path_tmap in Ep.
    destruct (node_path p t) as [[b|cs]|] eqn:Eb; try discriminate. cbn [option_map tmap] in Ep. injection Ep as <-.
    destruct (block_cells N radius _ _ HN (K p b Hp Eb)) as [(a & Ea & A1 & A2) _]. unfold s. rewrite Ea. cbn [or_else].
    rewrite (rsum_ext _ (fun _ => (2 * radius / (IZR N * 2 ^ level (addr 2 p)) * (2 * radius / (IZR N * 2 ^ level (addr 2 p))))%R)).
    + rewrite rsum_const. assert (EL : INR (length (idxs [N; N])) = (IZR N * IZR N)%R).
      { rewrite idxs_length by (repeat constructor; lia). unfold prodz. cbn [fold_right]. rewrite INR_IZR_INZ, Z2Nat.id by nia. rewrite <- mult_IZR. f_equal. lia. }
      rewrite EL. cbn [addr level]. replace (4 ^ length p)%R with (2 ^ length p * 2 ^ length p)%R by (rewrite <- Rpow_mult_distr; f_equal; ring).
      assert (HI : IZR N <> 0%R) by (apply not_0_IZR; lia). pose proof (pow_lt 2 (length p) ltac:(lra)). field. split; lra.
    + intros k Hk. apply idxs_In in Hk. unfold val. rewrite A2 by assumption. reflexivity.
Qed.

(** ** Which blocks are refined *)
Lemma refines_by_paths {A B} (t : tree A) : forall (w : tree B), wf_tree 2 t -> wf_tree 2 w ->
  (forall p cs, path_ok 2 p -> node_path p t = Some (Node cs) -> exists ds, node_path p w = Some (Node ds)) -> refines t w.
Proof.
  induction t as [a|cs IH] using tree_ind'; intros w W Ww H; [constructor|].
  destruct (H [] cs ltac:(constructor) eq_refl) as [ds E]. cbn [node_path] in E. injection E as ->. constructor.
  apply wf_node_inv in W. destruct W as [W1 W2]. apply wf_node_inv in Ww. destruct Ww as [V1 V2].
  assert (G : forall k c, nth_error cs k = Some c -> forall d, nth_error ds k = Some d -> refines c d).
  { intros k c Ec d Ed. rewrite Forall_forall in IH, W2, V2. apply IH; eauto using nth_error_In.
    intros p es Hp Ep. destruct (H (k :: p) es) as [fs Ef].
    - constructor; [|assumption]. rewrite <- W1. apply nth_error_Some. congruence.
    - cbn [node_path]. rewrite Ec. assumption.
    - cbn [node_path] in Ef. rewrite Ed in Ef. eauto. }
  assert (L : length cs = length ds) by congruence. clear -G L. revert ds G L. induction cs as [|c cs IHl]; intros [|d ds] G L; try discriminate; constructor.
  - exact (G 0%nat c eq_refl d eq_refl).
  - apply IHl; [|cbn in L; lia]. intros k x Ex y Ey. exact (G (S k) x Ex y Ey).
Qed.

Lemma asked_wanted predicate N d p : path_ok 2 p -> (asked predicate N d (addr 2 p) <-> (length p < d)%nat /\ wanted N predicate p).
Proof.
  intros Hp. unfold asked, wanted. cbn [addr level]. split.
  - intros (_ & H1 & H2). split; [assumption|]. intros q r E. apply (H2 (addr 2 q)); [apply path_in_range|].
    apply covers_addr; [|assumption|eauto]. rewrite E in Hp. apply Forall_app in Hp. apply Hp.
  - intros [H1 H2]. split; [apply path_in_range|]. split; [assumption|]. intros j Hj HC. destruct (in_range_addr 2 j Hj) as (q & Hq & _ & ->).
    apply covers_addr in HC; [|assumption|assumption]. destruct HC as [r E]. exact (H2 q r E).
Qed.

(** If the criterion is no easier to meet at finer levels, the blocks that meet it together with all coarser blocks around
    them are refined, and the mesh is the coarsest balanced one in which they are. *)
Theorem mesh_refined_where_asked predicate N d radius t fuel : 1 <= N < 2147483647 -> (d <= 30)%nat -> (4 ^ d < fuel)%nat -> antitone predicate ->
  create_vertices fuel predicate N d radius = Ok t ->
  (forall i, asked predicate N d i -> exists cs, node_at t i = Ok (Node cs)) /\
  (forall w : tree (array (R * R)), wf_tree 2 w -> (depth w <= 30)%nat -> balanced w ->
     (forall i, asked predicate N d i -> exists cs, node_at w i = Ok (Node cs)) -> refines t w).
Proof.
  intros HN Hd Hf HA E. destruct (quadtree_made predicate N d HN Hd) as (u & Eu & W & B & D & _ & Gr & f & Ef).
  destruct HN as [H1 H2]. destruct (passes_facts N H1 H2 predicate d) as (Wp & Dp & _).
  unfold create_vertices in E. rewrite (Eu fuel Hf) in E. cbn [bind] in E. injection E as <-. split.
  - intros i Hi. destruct (in_range_addr 2 i (proj1 Hi)) as (p & Hp & _ & ->). apply (asked_wanted predicate N d p Hp) in Hi.
    destruct (proj2 (passes_refined N H1 H2 predicate d HA p Hp) Hi) as [cs Ec]. destruct (grown_path _ p _ _ Gr cs Ec) as [ds Ed].
    rewrite (node_at_addr 2) by (auto using tmap_wf; lia). rewrite node_path_tmap, Ed. cbn [option_map tmap]. eauto.
  - intros w Ww Dw Bw HW. assert (R1 : refines u w).
    { apply (balance_minimal split4 (passes N predicate d) u w f split4_length Wp ltac:(lia) Ef Ww Dw Bw).
      apply refines_by_paths; auto. intros p cs Hp Ep. assert (Hi : asked predicate N d (addr 2 p)).
      { apply asked_wanted; [assumption|]. apply (passes_refined N H1 H2 predicate d HA p Hp). eauto. }
      destruct (HW _ Hi) as [ds Ed]. rewrite (node_at_addr 2) in Ed by (auto; destruct Hi as (_ & Hl & _); cbn [addr level] in Hl; lia).
      destruct (node_path p w) as [n|]; [|discriminate]. injection Ed as ->. eauto. }
    clear -R1. revert w R1. induction u as [a|cs IH] using tree_ind'; intros w R1; inversion R1 as [|? ds HF]; subst; [constructor|].
    cbn [tmap]. constructor. clear R1. induction HF; cbn [map]; constructor; [exact (Forall_inv IH _ H)|exact (IHHF (Forall_inv_tail IH))].
Qed.

(** The criterion of the binary program is no easier to meet at finer levels if the focus index is not negative. *)
Theorem refinement_radius_antitone factor index : (0 <= index)%R -> antitone (refinement_radius factor index).
Proof.
  intros Hi l m x Hx Hlm H. destruct m as [|m]; [destruct l; [assumption|lia]|]. cbn [refinement_radius] in H.
  destruct (Rlt_dec x (factor / Rpower (INR (S m)) index)) as [Hm|]; [|discriminate].
  assert (Pm : (0 < Rpower (INR (S m)) index)%R) by apply exp_pos.
  assert (Hf : (0 < factor)%R).
  { destruct (Rlt_dec 0 factor); [assumption|]. exfalso. assert (factor / Rpower (INR (S m)) index <= 0)%R; [|lra].
    unfold Rdiv. pose proof (Rinv_0_lt_compat _ Pm). nra. }
  destruct l as [|l]; cbn [refinement_radius].
  - destruct (Rlt_dec index 0); [lra|]. destruct (Rlt_dec 0 index); [destruct (Rlt_dec 0 factor); [reflexivity|lra]|].
    assert (index = 0%R) by lra. subst index. rewrite Rpower_O in Hm by (apply lt_0_INR; lia). destruct (Rlt_dec x factor); [reflexivity|lra].
  - match goal with |- (if ?c then _ else _) = _ => destruct c as [|Hc] end; [reflexivity|]. exfalso. apply Hc. eapply Rlt_le_trans; [exact Hm|].
    unfold Rdiv. apply Rmult_le_compat_l; [lra|]. apply Rinv_le_contravar; [apply exp_pos|].
    apply Rle_Rpower_l; [assumption|]. split; [apply lt_0_INR; lia|apply le_INR; lia].
Qed.

(** With a negative index the criterion is met at finer levels first; the pass number, not the block's level, is what it
    is asked about, and blocks are refined that do not meet it. *)
Lemma root_radius N : 1 <= N -> block_radius N (mkidx 0 [0%nat; 0%nat]) = 0%R.
Proof.
  intros HN. unfold block_radius, point_in, place. cbn [level coords nth fst snd]. simpl pow. cbn [Z.of_nat]. rewrite Z.mul_0_l.
  assert (HI : IZR N <> 0%R) by (apply not_0_IZR; lia).
  replace (_ + _)%R with 0%R; [apply sqrt_0|]. field. assumption.
Qed.
Theorem mesh_refined_unasked_refuted : exists factor index N d t,
  (forall fuel, (4 ^ d < fuel)%nat -> create_vertices fuel (refinement_radius factor index) N d 1 = Ok t) /\
  refinement_radius factor index 0 (block_radius N (mkidx 0 [0%nat; 0%nat])) = false /\
  exists cs, node_at t (mkidx 0 [0%nat; 0%nat]) = Ok (Node cs).
Proof.
  exists 1%R, (-1)%R, 2, 2%nat. destruct (quadtree_made (refinement_radius 1 (-1)) 2 2 ltac:(lia) ltac:(lia)) as (u & Eu & W & B & D & _ & Gr & _).
  exists (tmap (arr_map (loc_scale 1)) u). split; [intros fuel Hf; unfold create_vertices; rewrite (Eu fuel Hf); reflexivity|].
  rewrite root_radius by lia. split; [cbn [refinement_radius]; destruct (Rlt_dec (-1) 0); [|lra]; destruct (Rlt_dec 0 0); [lra|reflexivity]|].
  assert (E : exists cs, node_path [] (passes 2 (refinement_radius 1 (-1)) 2) = Some (Node cs)).
  { rewrite passes_S. assert (E1 : passes 2 (refinement_radius 1 (-1)) 1 = Leaf (root_block 2 2)).
    { rewrite passes_S. unfold pass, passes. cbn [seq fold_left bifurcate_if].
      rewrite (rad_regular 2 ltac:(lia) _ [] ltac:(constructor) (root_regular 2 ltac:(lia) ltac:(lia))).
      change (addr 2 []) with (mkidx 0 [0%nat; 0%nat]). rewrite root_radius by lia.
      cbn [refinement_radius]. destruct (Rlt_dec (-1) 0); [|lra]. destruct (Rlt_dec 0 0); [lra|reflexivity]. }
    rewrite E1. unfold pass. cbn [bifurcate_if node_path].
    rewrite (rad_regular 2 ltac:(lia) _ [] ltac:(constructor) (root_regular 2 ltac:(lia) ltac:(lia))).
    change (addr 2 []) with (mkidx 0 [0%nat; 0%nat]). rewrite root_radius by lia.
    cbn [refinement_radius INR]. match goal with |- context [if ?c then true else false] => destruct c as [|Hc] end; [eexists; reflexivity|].
    exfalso. apply Hc. unfold Rdiv. rewrite Rmult_1_l. apply Rinv_0_lt_compat, exp_pos. }
  destruct E as [cs E]. destruct (grown_path _ [] _ _ Gr cs E) as [ds Ed]. cbn [node_path] in Ed. injection Ed as ->. eexists. reflexivity.
Qed.

(** Example: the root refined once; the first vertex row of the block (1, 0) starts in the middle of the domain. *)
Definition vertex_of (t : tree (array (R * R))) (i : idx) (k : list Z) : outcome (R * R) := do b <- at_ t i; aget b k.
Definition small_mesh : outcome (tree (array (R * R))) := create_vertices 5 (fun l _ => (l <? 1)%nat) 2 3 3.
Example mesh_example : (do t <- small_mesh; Ok (size t)) = Ok 4%nat /\
  exists x y, (do t <- small_mesh; vertex_of t (mkidx 1 [1; 0]%nat) [1; 2]) = Ok (x, y) /\ x = 1.5%R /\ y = 0%R.
Proof.
  split; [vm_compute; reflexivity|]. do 2 eexists. split; [vm_compute; reflexivity|]. split; lra.
Qed.

Print Assumptions mesh_is_regular.
Print Assumptions mesh_cells.
Print Assumptions mesh_refined_where_asked.
Print Assumptions refinement_radius_antitone.
Print Assumptions mesh_refined_unasked_refuted.
