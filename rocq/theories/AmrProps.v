(** The mesh refinement sandbox: no new extrema, the number of steps, and what it does to the total. *)
From Coq Require Import ZArith Reals Lra Lia List Arith Bool QArith.
From Verif Require Import Base RationalModel RationalSpec RationalProofs TreeModel TreeSpec TreeProofs TreeProofs2 TreeProofs3 TreeProofs4 TreeProps BalanceModel BalanceSpec BalanceProofs
  NdModel NdSpec NdProofs NdProofs2 NdProofs3 NdOpsModel NdOpsProofs ProlongModel ProlongProofs FluxModel FluxTreeProofs FluxProofs FluxSpec FluxProofs2 FluxProofs3 FluxProofs4 FluxProofs5 FluxProps
  GuardModel GuardSpec GuardProofs GuardProofs2 GuardProofs3 GuardProofs4 MeshModel MeshSpec MeshProofs MeshProofs2 MeshProps StepModel StepSpec StepProofs StepProofs2 StepProofs3 UniformProofs SolutionProofs
  AmrModel AmrProofs AmrProofs2.
Import ListNotations.
Close Scope Q_scope.
Open Scope Z_scope.

(** ** Vocabulary *)
(** A set of numbers that has every number between two of its own. *)
Definition convex (Q : R -> Prop) : Prop := forall x y s, (0 <= s <= 1)%R -> Q x -> Q y -> Q (x + s * (y - x))%R.
(** Every cell of a mesh with blocks of N x N cells has a value in the set. *)
Definition every_cell (N : Z) (t : tree (array R)) (Q : R -> Prop) : Prop :=
  Forall (fun b => forall k x, inb [N; N] k -> aget b k = Ok x -> Q x) (leaves t).
(** The vertices are those of a mesh the program can build, whatever the refinement criterion, and there is a density in
    every cell. *)
Definition sandbox_state (N : Z) (d : nat) (s : solution (T := R)) : Prop :=
  (exists predicate fuel, (4 ^ d < fuel)%nat /\ create_vertex_quadtree fuel predicate N N d = Ok (vertices s)) /\
  cell_data N (vertices s) (conserved s).
(** The step: just under the width of the smallest cells. *)
Definition sandbox_step (N : Z) (s : solution (T := R)) : R := (2 / IZR (N + 1) / 2 ^ depth (vertices s))%R.

Lemma self_shape {A} (t : tree A) : same_shape t t.
Proof. apply (shape_trans t (indexes 2 t) t); [apply shape_sym|]; apply indexes_shape. Qed.

Lemma made_mesh predicate N d fuel t : 1 <= N < 2147483647 -> (d <= 30)%nat -> (4 ^ d < fuel)%nat -> create_vertex_quadtree fuel predicate N N d = Ok t ->
  wf_tree 2 t /\ balanced t /\ (depth t <= d)%nat /\ regular N 1 t.
Proof.
  intros HN Hd Hf E. destruct (quadtree_made predicate N d HN Hd) as (t' & E' & W & B & D & R1 & _). rewrite (E' fuel Hf) in E. injection E as ->.
  do 3 (split; [assumption|]). intros i b Hi Eb. destruct (at_leaf_path _ i b W ltac:(lia) Hi Eb) as (q & Hq & -> & Eq). destruct (R1 q b Hq Eq) as [R2 R3]. split; [exact R2|].
  intros k m Hk Hm. rewrite R3 by (repeat constructor; lia). f_equal. unfold vblock, vtx, point_in, place, GuardSpec.glob. cbn [app addr level coords fst snd].
  pose proof (of_path_length 2 q) as Lc. destruct (of_path 2 q) as [|c0 [|c1 [|c2 cs]]]; try discriminate. cbn [zipw nth]. rewrite !plus_IZR, !mult_IZR.
  assert (HI : IZR N <> 0%R) by (apply not_0_IZR; lia). pose proof (pow_lt 2 (length q) ltac:(lra)). f_equal; field; split; try assumption; lra.
Qed.

Section State.
Variables (N : Z) (vt : tree (array (R * R))).
Hypothesis HN : 1 <= N < 2147483647.
Hypothesis W : wf_tree 2 vt.
Hypothesis D : (depth vt <= 30)%nat.

Lemma data_field (u : tree (array R)) : cell_data N vt u -> exists U, mesh_field 0 vt u N N U.
Proof.
  intros [S F]. destruct (same_shape_wf vt u W S) as [Wu Du]. apply (field_of vt 0%R 0 u N N ltac:(lia) S). intros i b Hi.
  rewrite Forall_forall in F. destruct (F b (node_leaves u i b Wu Hi)) as [S1 V1].
  exists (fun x k => match aget b [x; k] with Ok y => y | _ => 0%R end). split; [exact S1|]. intros x k Hx Hk. change (face 0 x k) with [x; k].
  destruct (V1 [x; k] (inb2_intro N x k Hx Hk)) as [y Ey]. rewrite Ey. reflexivity.
Qed.
Lemma field_data (u : tree (array R)) U : mesh_field 0 vt u N N U -> cell_data N vt u.
Proof.
  intros HU. destruct (field_tree vt W D _ _ _ _ _ HU) as [Wu Du]. split; [apply HU|]. apply leaves_nodes; [assumption|lia|]. intros i v Hi.
  exact (rep2_full N v 0 (U i) ltac:(lia) (proj2 HU i v Hi)).
Qed.
Lemma field_cells (u : tree (array R)) U (Q : R -> Prop) : mesh_field 0 vt u N N U -> (forall i b x y, is_node u i (Leaf b) -> 0 <= x < N -> 0 <= y < N -> Q (U i x y)) -> every_cell N u Q.
Proof.
  intros HU H. destruct (field_tree vt W D _ _ _ _ _ HU) as [Wu Du]. apply leaves_nodes; [assumption|lia|]. intros i v Hi k x Hk Ex.
  destruct (inb2 N k Hk) as (p & q & -> & Hp & Hq). pose proof (proj2 (proj2 HU i v Hi) p q Hp Hq) as E. change (face 0 p q) with [p; q] in E. rewrite Ex in E. injection E as ->. eapply H; eassumption.
Qed.
Lemma cells_field (u : tree (array R)) U (Q : R -> Prop) : mesh_field 0 vt u N N U -> every_cell N u Q -> forall i b k x, is_node u i (Leaf b) -> inb [N; N] k -> aget b k = Ok x -> Q x.
Proof.
  intros HU H i b k x Hi Hk Ex. destruct (field_tree vt W D _ _ _ _ _ HU) as [Wu Du]. unfold every_cell in H. rewrite Forall_forall in H. exact (H b (node_leaves u i b Wu Hi) k x Hk Ex).
Qed.

Lemma step_known : regular N 1 vt -> time_step Rdiv IZR vt = Ok (2 / IZR (N + 1) / 2 ^ depth vt)%R.
Proof.
  intros Reg. unfold time_step. destruct (tree_front_is_first_leaf _ 2 vt W) as (b & rest & EL & ->). bsimp.
  assert (SB : ashape b = [N + 1; N + 1]).
  { assert (F : Forall (fun b => ashape b = [N + 1; N + 1]) (leaves vt)).
    { apply leaves_nodes; [assumption|lia|]. intros i v Hi. exact (proj1 (Reg i v (proj1 Hi) (leaf_at vt i v Hi))). }
    rewrite EL in F. exact (Forall_inv F). }
  rewrite SB. cbn [nth]. rewrite Z.max_id. unfold shl1. destruct (Nat.ltb_spec (depth vt) 31); [|lia]. bsimp. do 2 f_equal.
  rewrite <- INR_IZR_INZ. rewrite pow_INR. reflexivity.
Qed.
End State.

(** ** No new extrema *)
(** On every mesh the program can build, with any densities in its cells, the step completes, keeps the mesh, and every
    new density lies in every convex set (every interval, in particular) that holds all the old ones. *)
Theorem sandbox_no_new_extrema N d fuel s n (Q : R -> Prop) : 1 <= N < 2147483647 -> (d <= 30)%nat -> (30 < fuel)%nat -> sandbox_state N d s ->
  iteration s = mkrat n 1 -> 0 <= n < 2147483647 -> convex Q -> every_cell N (conserved s) Q ->
  exists s', next_real fuel s = Ok s' /\ sandbox_state N d s' /\ vertices s' = vertices s /\ every_cell N (conserved s') Q /\
    iteration s' = mkrat (n + 1) 1 /\ time s' = (time s + sandbox_step N s)%R /\
    (0 < sandbox_step N s)%R /\ forall i, In i (leaves (indexes 2 (vertices s))) -> (sandbox_step N s < width N i)%R.
Proof.
  intros HN Hd Hf ((predicate & f0 & Hf0 & EV) & CD) Hn Hnn CQ HQ. destruct (made_mesh predicate N d f0 (vertices s) HN Hd Hf0 EV) as (W & B & D & Reg).
  assert (HDn : (depth (vertices s) <= 30)%nat) by lia.
  destruct (data_field N (vertices s) W HDn (conserved s) CD) as [U HU].
  set (dt := sandbox_step N s).
  destruct (step_values N (vertices s) HN W HDn B Reg (size_ok N HN) (conserved s) U HU fuel dt ltac:(lia)) as (dA & fx & fy & E0 & E1 & u1 & _ & _ & P0 & P1 & _ & _ & EU & HU1).
  assert (PN : (0 < IZR N)%R) by (apply IZR_lt; lia). assert (PN1 : (0 < IZR (N + 1))%R) by (apply IZR_lt; lia).
  assert (Pos : (0 < dt)%R) by (unfold dt, sandbox_step; repeat apply Rdiv_lt_0_compat; try lra; apply pow_lt; lra).
  assert (Small : forall i v, is_node (vertices s) i (Leaf v) -> (dt < width N i)%R).
  { intros i v Hi. pose proof (is_node_facts _ W i _ Hi) as [_ Hl]. cbn [TreeModel.depth] in Hl. unfold dt, sandbox_step, width.
    assert (HP : (2 ^ level i <= 2 ^ depth (vertices s))%R) by (apply Rle_pow; [lra|lia]). pose proof (pow_lt 2 (level i) ltac:(lra)) as P2.
    unfold Rdiv. rewrite Rmult_assoc. apply Rmult_lt_compat_l; [lra|]. rewrite <- Rinv_mult. apply Rinv_lt_contravar; [repeat apply Rmult_lt_0_compat; lra|]. rewrite plus_IZR. nra. }
  exists (mksol (mkrat (n + 1) 1) (time s + dt)%R (vertices s) u1). split; [|split; [|split; [|split; [|split; [|split; [|split]]]]]]; try reflexivity; try exact Pos.
  - unfold next_real, next_solution. rewrite (step_known N (vertices s) W HDn Reg). bsimp. change (2 / IZR (N + 1) / 2 ^ depth (vertices s))%R with dt. rewrite EU. bsimp.
    rewrite Hn, advance_count_int by (unfold safe; lia). reflexivity.
  - split; [exists predicate, f0; auto|]. exact (field_data N (vertices s) W HDn u1 _ HU1).
  - cbn [conserved]. apply (field_cells N (vertices s) W HDn u1 _ Q HU1). intros i b x y Hi Hx Hy. cbv beta.
    destruct (shape_leaf u1 (vertices s) i b) as [v Hv]; [exact (proj1 (field_tree _ W HDn _ _ _ _ _ HU1))|exact (shape_sym _ _ (proj1 HU1))|exact Hi|].
    destruct (shape_leaf (vertices s) (conserved s) i v W (proj1 HU) Hv) as [c Hc].
    assert (St : stable Rplus halve N (conserved s) Q).
    { split; [|exact (cells_field N (vertices s) W HDn (conserved s) U Q HU HQ)]. intros p q Hp Hq. replace ((p + q) / 2)%R with (p + / 2 * (q - p))%R by field. apply CQ; [lra|assumption|assumption]. }
    pose proof (proj2 (proj2 P0) Q St i c x y Hc ltac:(lia) Hy) as Q0. pose proof (proj2 (proj2 P1) Q St i c y x Hc ltac:(lia) Hx) as Q1.
    assert (QU : Q (U i x y)).
    { apply (cells_field N (vertices s) W HDn (conserved s) U Q HU HQ i c [x; y] _ Hc); [apply inb2_intro; assumption|]. exact (proj2 (proj2 HU i c Hc) x y Hx Hy). }
    pose proof (width_pos N i ltac:(lia)) as Hw. pose proof (Small i v Hv) as Hs.
    replace (U i x y - dt / (2 * width N i) * (U i x y - E0 i x y + (U i x y - E1 i y x)))%R with (U i x y + dt / width N i * ((E0 i x y + / 2 * (E1 i y x - E0 i x y)) - U i x y))%R by (field; lra).
    apply CQ; [|assumption|apply CQ; [lra|assumption|assumption]]. split; [apply Rlt_le, Rdiv_lt_0_compat; lra|]. apply Rmult_le_reg_r with (width N i); [assumption|].
    unfold Rdiv. rewrite Rmult_assoc, Rinv_l by lra. lra.
  - intros i Hi. destruct (in_leaf (vertices s) W ltac:(lia) i Hi) as (v & Hv). exact (Small i v Hv).
Qed.

(** ** A whole run *)
Lemma initial_density_range p : (0 < initial_density p <= 1)%R.
Proof.
  unfold initial_density. split; [apply exp_pos|]. rewrite <- exp_0. destruct (Req_dec (fst p * fst p + snd p * snd p) 0) as [->|H].
  - right. f_equal. lra.
  - left. apply exp_increasing. assert (0 <= fst p * fst p + snd p * snd p)%R by nra. unfold Rdiv. nra.
Qed.
Lemma unit_convex : convex (fun x => 0 < x <= 1)%R.
Proof. intros x y s Hs Hx Hy. destruct (Req_dec s 1) as [->|H]; [lra|]. assert (s < 1)%R by lra. split; nra. Qed.

Lemma sandbox_start N d fuel : 1 <= N < 2147483647 -> (d <= 30)%nat -> (4 ^ d < fuel)%nat ->
  exists s, create_solution_state fuel N d = Ok s /\ sandbox_state N d s /\ iteration s = mkrat 0 1 /\ time s = 0%R /\ every_cell N (conserved s) (fun x => 0 < x <= 1)%R.
Proof.
  intros HN Hd Hf. destruct (quadtree_made refine_inside N d HN Hd) as (t & E & _). pose proof (E fuel Hf) as EV. destruct (made_mesh refine_inside N d fuel t HN Hd Hf EV) as (W & B & D & Reg).
  assert (HD : (depth t <= 30)%nat) by lia. pose proof (size_ok N HN) as HN2.
  destruct (lift_mapM t W HD (fun b => do c <- cell_centers b; Ok (arr_map initial_density c)) 0 0 t (N + 1) (N + 1) N N (vertex 0 1 N)
    (fun i x y => initial_density (loc_half (loc_add (loc_half (loc_add (vertex 0 1 N i x y) (vertex 0 1 N i (1 + x) y))) (loc_half (loc_add (vertex 0 1 N i x (1 + y)) (vertex 0 1 N i (1 + x) (1 + y)))))))
    (vertex_field N t Reg 0 ltac:(lia))) as (u & EU & HU).
  { intros i b Hi. pose proof (proj2 (vertex_field N t Reg 0 ltac:(lia)) i b Hi) as R1. unfold cell_centers.
    apply rep2_flip in R1; [|lia]. destruct (midpoint_rep2 loc_add loc_half 1 b (N + 1) (N + 1) _ ltac:(lia) ltac:(lia) ltac:(lia) R1) as (m & Em & Rm). change (1 - 1)%nat with 0%nat in Em. rewrite Em. bsimp.
    apply rep2_flip in Rm; [|lia]. change (1 - 1)%nat with 0%nat in Rm. replace (N + 1 - 1) with N in Rm by lia.
    destruct (midpoint_rep2 loc_add loc_half 0 m N (N + 1) _ ltac:(lia) ltac:(lia) ltac:(lia) Rm) as (c & Ec & Rc). change (1 - 0)%nat with 1%nat in Ec. rewrite Ec. bsimp.
    eexists. split; [reflexivity|]. replace (N + 1 - 1) with N in Rc by lia. apply (map_rep2 initial_density) in Rc. exact Rc. }
  exists (mksol (rat_of_int 0) 0%R t u). split; [unfold create_solution_state; rewrite EV; bsimp; rewrite EU; reflexivity|].
  split; [split; [exists refine_inside, fuel; auto|exact (field_data N t W HD u _ HU)]|]. do 2 (split; [reflexivity|]).
  apply (field_cells N t W HD u _ _ HU). intros. apply initial_density_range.
Qed.

Lemma least_multiple (x dt : R) : forall m, (x <= INR m * dt)%R -> exists k, (k <= m)%nat /\ (x <= INR k * dt)%R /\ forall j, (j < k)%nat -> (INR j * dt < x)%R.
Proof.
  induction m as [|m IH]; intros H.
  - exists 0%nat. split; [lia|]. split; [exact H|]. intros j Hj. lia.
  - destruct (Rle_dec x (INR m * dt)) as [L|L].
    + destruct (IH L) as (k & Hk & X). exists k. split; [lia|exact X].
    + destruct (Rle_dec 0 dt) as [P|P].
      * exists (S m). split; [lia|]. split; [exact H|]. intros j Hj. apply Rle_lt_trans with (INR m * dt)%R; [|lra]. apply Rmult_le_compat_r; [assumption|]. apply le_INR. lia.
      * exfalso. apply L. apply Rle_trans with (INR (S m) * dt)%R; [exact H|]. rewrite S_INR. nra.
Qed.

Lemma run_steps N d fuel tfinal (Q : R -> Prop) : 1 <= N < 2147483647 -> (d <= 30)%nat -> (30 < fuel)%nat -> convex Q -> forall k s c, sandbox_state N d s -> iteration s = mkrat c 1 -> 0 <= c -> c + Z.of_nat k <= 2147483647 ->
  every_cell N (conserved s) Q -> (tfinal <= time s + INR k * sandbox_step N s)%R -> (forall j, (j < k)%nat -> (time s + INR j * sandbox_step N s < tfinal)%R) ->
  forall n, (k <= n)%nat -> exists s', run_loop fuel n tfinal s = Ok s' /\ vertices s' = vertices s /\ iteration s' = mkrat (c + Z.of_nat k) 1 /\ time s' = (time s + INR k * sandbox_step N s)%R /\
    sandbox_state N d s' /\ every_cell N (conserved s') Q.
Proof.
  intros HN Hd Hf CQ. induction k as [|k IH]; intros s c St Hc Hc0 Hck HQ H1 H2 n Hn.
  - exists s. split; [|split; [reflexivity|split; [rewrite Hc; f_equal; lia|split; [cbn [INR]; ring|split; assumption]]]].
    cbn [INR] in H1. destruct n; cbn [run_loop]; (destruct (Rlt_dec (time s) tfinal); [lra|reflexivity]).
  - destruct n as [|n]; [lia|]. cbn [run_loop]. pose proof (H2 0%nat ltac:(lia)) as H0. cbn [INR] in H0. destruct (Rlt_dec (time s) tfinal) as [_|X]; [|lra].
    destruct (sandbox_no_new_extrema N d fuel s c Q HN Hd Hf St Hc ltac:(lia) CQ HQ) as (s1 & E & St1 & V1 & Q1 & I1 & T1 & _). rewrite E. bsimp.
    assert (ST : sandbox_step N s1 = sandbox_step N s) by (unfold sandbox_step; rewrite V1; reflexivity).
    destruct (IH s1 (c + 1) St1 I1 ltac:(lia) ltac:(lia) Q1) with (n := n) as (s' & Er & Vr & Ir & Tr & Sr & Qr).
    + rewrite ST, T1. rewrite S_INR in H1. lra.
    + intros j Hj. rewrite ST, T1. pose proof (H2 (S j) ltac:(lia)) as X. rewrite S_INR in X. lra.
    + lia.
    + exists s'. split; [exact Er|]. split; [congruence|]. split; [rewrite Ir; f_equal; lia|]. split; [rewrite Tr, ST, T1, S_INR; ring|]. split; assumption.
Qed.

(** With every block size, depth and final time the program can count to, the run starts, ends after the least number of
    steps that reaches the final time, all of one size, and the density in every cell stays between zero and one. *)
Theorem sandbox_run N d fuel tfinal : 1 <= N < 2147483647 -> (d <= 30)%nat -> (4 ^ d < fuel)%nat -> (30 < fuel)%nat ->
  exists s0, create_solution_state fuel N d = Ok s0 /\ let dt := sandbox_step N s0 in (0 < dt)%R /\
    ((tfinal <= 2147483647 * dt)%R -> exists k, (tfinal <= INR k * dt)%R /\ (forall j, (j < k)%nat -> INR j * dt < tfinal)%R /\
      forall n, (k <= n)%nat -> exists s, run_loop fuel n tfinal s0 = Ok s /\ vertices s = vertices s0 /\ iteration s = mkrat (Z.of_nat k) 1 /\ time s = (INR k * dt)%R /\
        every_cell N (conserved s) (fun x => 0 < x <= 1)%R).
Proof.
  intros HN Hd Hf Hf2. destruct (sandbox_start N d fuel HN Hd Hf) as (s0 & E0 & St & I0 & T0 & Q0). exists s0. split; [exact E0|]. cbv zeta.
  destruct (sandbox_no_new_extrema N d fuel s0 0 _ HN Hd Hf2 St I0 ltac:(lia) unit_convex Q0) as (_ & _ & _ & _ & _ & _ & _ & Pos & _). split; [exact Pos|]. intros Ht.
  destruct (least_multiple tfinal (sandbox_step N s0) (Z.to_nat 2147483647)) as (k & Hk & K1 & K2).
  { rewrite INR_IZR_INZ, Z2Nat.id by lia. exact Ht. }
  assert (HkZ : Z.of_nat k <= 2147483647) by (apply Nat2Z.inj_le in Hk; rewrite Z2Nat.id in Hk by lia; exact Hk).
  exists k. split; [exact K1|]. split; [exact K2|]. intros n Hn.
  destruct (run_steps N d fuel tfinal _ HN Hd Hf2 unit_convex k s0 0 St I0 ltac:(lia) ltac:(lia) Q0) with (n := n) as (s & Er & Vr & Ir & Tr & Sr & Qr).
  - rewrite T0. lra.
  - intros j Hj. rewrite T0. pose proof (K2 j Hj). lra.
  - exact Hn.
  - exists s. split; [exact Er|]. split; [exact Vr|]. split; [exact Ir|]. split; [rewrite Tr, T0; ring|exact Qr].
Qed.

(** ** Examples *)
(** A set of numbers that is not convex can lose a value in one step: the hypothesis is used. *)
Example not_convex : ~ convex (fun x => x = 0 \/ x = 1)%R.
Proof. intros H. destruct (H 0%R 1%R (1 / 2)%R ltac:(lra) (or_introl eq_refl) (or_intror eq_refl)); lra. Qed.
Example interval_convex a b : convex (fun x => a <= x <= b)%R.
Proof. intros x y s Hs Hx Hy. nra. Qed.
(** The refinement criterion: the root is always refined, the blocks next to the centre on the second level too, those in the corners not. *)
Example refine_root : refine_inside 0 100 = true.
Proof. reflexivity. Qed.
Example refine_middle : refine_inside 2 (36 / 100) = true /\ refine_inside 2 (79 / 100) = false.
Proof. unfold refine_inside. replace (INR 2) with 2%R by (cbn; lra). split; destruct (Rlt_dec _ _); try reflexivity; exfalso; lra. Qed.
(** The step for blocks of 16 x 16 cells on a mesh of depth 4 and for one block. *)
Example step_of_one_block (b : array (R * R)) u : sandbox_step 16 (mksol (mkrat 0 1) 0%R (Leaf b) u) = (2 / 17)%R.
Proof. unfold sandbox_step. cbn [vertices TreeModel.depth pow]. change (16 + 1) with 17. lra. Qed.
Print Assumptions sandbox_no_new_extrema.
Print Assumptions sandbox_run.
