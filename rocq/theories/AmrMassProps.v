(** The mesh refinement sandbox: the total density times area. *)
From Coq Require Import ZArith Reals Lra Lia List Arith Bool QArith.
From Verif Require Import Base RationalModel RationalSpec RationalProofs TreeModel TreeSpec TreeProofs TreeProofs2 TreeProofs3 TreeProofs4 TreeProps BalanceModel BalanceSpec BalanceProofs
  NdModel NdSpec NdProofs NdProofs2 NdProofs3 NdOpsModel NdOpsProofs ProlongModel ProlongProofs FluxModel FluxTreeProofs FluxProofs FluxSpec FluxProofs2 FluxProofs3 FluxProofs4 FluxProofs5 FluxProps
  GuardModel GuardSpec GuardProofs GuardProofs2 GuardProofs3 GuardProofs4 MeshModel MeshSpec MeshProofs MeshProofs2 MeshProps StepModel StepSpec StepProofs StepProofs2 StepProofs3 UniformProofs SolutionProofs
  AmrModel AmrProofs AmrProofs2 AmrProps.
Import ListNotations.
Close Scope Q_scope.
Open Scope Z_scope.

(** All blocks of a mesh have the same size. *)
Definition one_level {A} (t : tree A) : Prop := exists l, forall i, In i (leaves (indexes 2 t)) -> level i = l.

(** Fluxes that agree across the faces of blocks of one size carry nothing away. *)
Lemma level_outflow N (HN : 1 <= N) (HB : 2 * N + 2 < two64) a (Ha : (a < 2)%nat) (f : tree (array R)) (W : wf_tree 2 f) (D : (depth f <= 30)%nat) (Bal : balanced f)
  (F : Forall (full (upd a (N + 1) [N; N])) (leaves f)) : consistent N a true f -> one_level f ->
  rtotal (fun i => L N a N (lk f i) - L N a 0 (lk f i))%R (leaves (indexes 2 f)) = 0%R.
Proof.
  intros C [l HL]. destruct (corrected_tree N HN HB a Ha f W D Bal F) as (fc & Ec & _). destruct (outflow N HN HB a Ha f W D Bal F true C fc Ec) as [O P].
  rewrite (P eq_refl) in O. transitivity (rtotal (fun i => L N a N (corrected a f i) - L N a 0 (corrected a f i))%R (leaves (indexes 2 f))); [symmetry|exact O]. symmetry. apply total_ext. intros i Hi. destruct (in_leaf f W D i Hi) as (b & Hb).
  assert (Elk : lk f i = b) by (unfold lk; rewrite (leaf_at f i b Hb); reflexivity). rewrite Elk.
  destruct (corrected_ok N HN HB a Ha f W D Bal F i b Hb) as (_ & _ & _ & CL & CH). pose proof (is_node_facts f W i _ Hb) as [_ Hli]. cbn [TreeModel.depth] in Hli.
  assert (Leafy : forall j w0 w1 w2 w3, level j = level i -> ~ is_node f j (Node [Leaf w0; Leaf w1; Leaf w2; Leaf w3])).
  { intros j w0 w1 w2 w3 Hj X. pose proof (is_node_child f W D j _ 0 (Leaf w0) X eq_refl) as Y. apply leaf_in in Y; [|assumption]. apply HL in Y. apply HL in Hi.
    unfold child_index in Y. cbn [level] in Y. lia. }
  destruct (prev_next 2 a i (proj1 Hb) Ha ltac:(lia)) as (jl & cl & El & _ & LJl & _). destruct (next_prev 2 a i (proj1 Hb) Ha ltac:(lia)) as (jr & cr & Er & _ & LJr & _).
  destruct (CL jl El) as [C1 C2]. destruct (CH jr Er) as [C3 C4].
  rewrite (proj1 (C1 ltac:(intros cs X; destruct (C2 cs X) as (w0 & w1 & w2 & w3 & -> & _); exact (Leafy jl w0 w1 w2 w3 LJl X)))).
  rewrite (proj1 (C3 ltac:(intros cs X; destruct (C4 cs X) as (w0 & w1 & w2 & w3 & -> & _); exact (Leafy jr w0 w1 w2 w3 LJr X)))). reflexivity.
Qed.

(** On a mesh of blocks of one size the step keeps the total. *)
Theorem sandbox_conserves N d fuel s n : 1 <= N < 2147483647 -> (d <= 30)%nat -> (30 < fuel)%nat -> sandbox_state N d s ->
  iteration s = mkrat n 1 -> 0 <= n < 2147483647 -> one_level (vertices s) ->
  exists s' dA, next_real fuel s = Ok s' /\ tmapM (area_from_vertices Rplus Rminus Rmult halve) (vertices s) = Ok dA /\
    mesh_content N (conserved s') dA = mesh_content N (conserved s) dA.
Proof.
  intros HN Hd Hf ((predicate & f0 & Hf0 & EV) & CD) Hn Hnn [lv HL]. destruct (made_mesh predicate N d f0 (vertices s) HN Hd Hf0 EV) as (W & B & D & Reg).
  assert (HDn : (depth (vertices s) <= 30)%nat) by lia.
  destruct (data_field N (vertices s) W HDn (conserved s) CD) as [U HU]. pose proof (size_ok N HN) as HN2.
  set (dt := sandbox_step N s). set (u0 := conserved s) in *. set (vt := vertices s) in *.
  destruct (step_values N vt HN W HDn B Reg HN2 u0 U HU fuel dt ltac:(lia)) as (dA & fx & fy & E0 & E1 & u1 & EA & HA & P0 & P1 & HX & HY & EU & HU1).
  exists (mksol (mkrat (n + 1) 1) (time s + dt)%R vt u1), dA. split; [|split; [exact EA|]].
  { unfold next_real, next_solution. fold vt. rewrite (step_known N vt W HDn Reg). bsimp. change (2 / IZR (N + 1) / 2 ^ depth vt)%R with dt. fold u0. rewrite EU. bsimp.
    rewrite Hn, advance_count_int by (unfold safe; lia). reflexivity. }
  cbn [conserved].
  destruct (field_tree vt W HDn _ _ _ _ _ HU) as [Wu Du]. destruct (field_tree vt W HDn _ _ _ _ _ HA) as [Wa Da]. destruct (field_tree vt W HDn _ _ _ _ _ HX) as [Wx Dx].
  destruct (field_tree vt W HDn _ _ _ _ _ HY) as [Wy Dy]. destruct (field_tree vt W HDn _ _ _ _ _ HU1) as [W1 D1].
  assert (Iu : indexes 2 u0 = indexes 2 vt) by (unfold indexes; apply same_shape_indexes, HU). assert (Ia : indexes 2 dA = indexes 2 vt) by (unfold indexes; apply same_shape_indexes, HA).
  assert (Ix : indexes 2 fx = indexes 2 vt) by (unfold indexes; apply same_shape_indexes, HX). assert (Iy : indexes 2 fy = indexes 2 vt) by (unfold indexes; apply same_shape_indexes, HY).
  assert (I1 : indexes 2 u1 = indexes 2 vt) by (unfold indexes; apply same_shape_indexes, HU1).
  assert (Fx : Forall (full (upd 0 (N + 1) [N; N])) (leaves fx)).
  { apply leaves_nodes; [assumption|lia|]. intros i v Hi. destruct (rep2_reps 0 _ _ _ _ ltac:(lia) (proj2 HX i v Hi)) as [S1 V1]. split; [exact S1|]. intros k Hk. rewrite (V1 k Hk). eauto. }
  assert (Fy : Forall (full (upd 1 (N + 1) [N; N])) (leaves fy)).
  { apply leaves_nodes; [assumption|lia|]. intros i v Hi. destruct (rep2_reps 1 _ _ _ _ ltac:(lia) (proj2 HY i v Hi)) as [S1 V1]. split; [exact S1|]. intros k Hk. rewrite (V1 k Hk). eauto. }
  assert (Same : forall i j, In i (leaves (indexes 2 vt)) -> In j (leaves (indexes 2 vt)) -> width N i = width N j) by (intros i j Hi Hj; unfold width; rewrite (HL i Hi), (HL j Hj); reflexivity).
  assert (CON : forall a E f, (a < 2)%nat -> upwind N u0 U a E -> mesh_field a vt f (N + 1) N (fun i x k => (E i x k / 2 * width N i)%R) -> consistent N a true f).
  { intros a E f Ha (Q1 & Q2 & _) Hff i j b c Hi Hj HLj HO HAx Eb Ec k Hk. destruct (field_tree vt W HDn _ _ _ _ _ Hff) as [Wf Df].
    assert (If : indexes 2 f = indexes 2 vt) by (unfold indexes; apply same_shape_indexes, Hff).
    destruct (in_leaf f Wf ltac:(lia) i Hi) as (b' & Nb). destruct (in_leaf f Wf ltac:(lia) j Hj) as (c' & Nc).
    rewrite (leaf_at f i b' Nb) in Eb. injection Eb as ->. rewrite (leaf_at f j c' Nc) in Ec. injection Ec as ->.
    rewrite If in Hi, Hj. destruct (in_leaf u0 Wu ltac:(lia) i ltac:(rewrite Iu; exact Hi)) as (v & Nv). destruct (in_leaf u0 Wu ltac:(lia) j ltac:(rewrite Iu; exact Hj)) as (w & Nw).
    pose proof (is_node_facts f Wf i _ Nb) as [_ Hli]. cbn [TreeModel.depth] in Hli.
    assert (NX : next_on a i = Ok j).
    { apply next_on_coords; auto; [exact (proj1 Nb)|exact (proj1 Nc)|lia|]. destruct HAx as [X|(_ & X)]; [left; exact X|right; exact X]. }
    pose proof (next_prev_on a i j (proj1 Nb) Ha ltac:(lia) NX) as PV.
    rewrite (proj2 (proj2 Hff i b Nb) N k ltac:(lia) Hk), (proj2 (proj2 Hff j c Nc) 0 k ltac:(lia) Hk). do 2 f_equal; [|apply Same; assumption].
    replace N with (N - 1 + 1) at 1 by lia. rewrite (Q1 i v (N - 1) k Nv ltac:(lia) Hk), (Q2 j i w v k Nw Nv PV Hk). reflexivity. }
  assert (OLx : one_level fx) by (exists lv; rewrite Ix; exact HL). assert (OLy : one_level fy) by (exists lv; rewrite Iy; exact HL).
  pose proof (level_outflow N ltac:(lia) ltac:(lia) 0 ltac:(lia) fx Wx Dx (same_shape_balanced _ _ (proj1 HX) B) Fx (CON 0%nat E0 fx ltac:(lia) P0 HX) OLx) as OX.
  pose proof (level_outflow N ltac:(lia) ltac:(lia) 1 ltac:(lia) fy Wy Dy (same_shape_balanced _ _ (proj1 HY) B) Fy (CON 1%nat E1 fy ltac:(lia) P1 HY) OLy) as OY.
  rewrite Ix in OX. rewrite Iy in OY.
  assert (BS : forall i, In i (leaves (indexes 2 vt)) -> content N (lk u1 i) (lk dA i) = (content N (lk u0 i) (lk dA i) - dt * ((L N 0 N (lk fx i) - L N 0 0 (lk fx i)) + (L N 1 N (lk fy i) - L N 1 0 (lk fy i))))%R).
  { intros i Hi. destruct (in_leaf u0 Wu ltac:(lia) i ltac:(rewrite Iu; exact Hi)) as (u & Nu). destruct (in_leaf dA Wa ltac:(lia) i ltac:(rewrite Ia; exact Hi)) as (ar & Na).
    destruct (in_leaf fx Wx ltac:(lia) i ltac:(rewrite Ix; exact Hi)) as (x & Nx). destruct (in_leaf fy Wy ltac:(lia) i ltac:(rewrite Iy; exact Hi)) as (y & Ny).
    destruct (in_leaf u1 W1 ltac:(lia) i ltac:(rewrite I1; exact Hi)) as (u' & Nu').
    unfold lk. rewrite (leaf_at _ _ _ Nu), (leaf_at _ _ _ Na), (leaf_at _ _ _ Nx), (leaf_at _ _ _ Ny), (leaf_at _ _ _ Nu').
    destruct (rep2_reps 0 _ _ _ _ ltac:(lia) (proj2 HX i x Nx)) as [SX VX]. destruct (rep2_reps 1 _ _ _ _ ltac:(lia) (proj2 HY i y Ny)) as [SY VY].
    destruct (proj2 HU i u Nu) as [SU VU]. destruct (proj2 HA i ar Na) as [SA VA]. destruct (proj2 HU1 i u' Nu') as [SU1 VU1].
    unfold L. rewrite <- (difference_sum N ltac:(lia) 0 ltac:(lia) (val x)), <- (difference_sum N ltac:(lia) 1 ltac:(lia) (val y)). unfold content.
    change (@rsum (list Z)) with (@total R 0%R Rplus (list Z)).
    assert (HI : forall p, In p (idxs [N; N]) -> inb [N; N] p) by (intros p; apply idxs_In). pose proof (width_pos N i ltac:(lia)) as Hw.
    revert HI. generalize (idxs [N; N]) as ps. induction ps as [|p ps IH]; intros HI; cbn [total]; [ring|]. rewrite IH by (intros; apply HI; right; assumption).
    pose proof (HI p (or_introl eq_refl)) as Hp. destruct (inb2 N p Hp) as (q & r & -> & Hq & Hr). cbn [nth upd].
    assert (EX : forall q', 0 <= q' < N + 1 -> val x [q'; r] = (E0 i q' r / 2 * width N i)%R).
    { intros q' Hq'. unfold val. change [q'; r] with (face 0 q' r). rewrite (proj2 (proj2 HX i x Nx) q' r Hq' Hr). reflexivity. }
    assert (EY : forall r', 0 <= r' < N + 1 -> val y [q; r'] = (E1 i r' q / 2 * width N i)%R).
    { intros r' Hr'. unfold val. change [q; r'] with (face 1 r' q). rewrite (proj2 (proj2 HY i y Ny) r' q Hr' Hq). reflexivity. }
    rewrite !EX, !EY by lia. unfold val. change [q; r] with (face 0 q r). rewrite VU, VA, VU1 by assumption. replace (1 + q) with (q + 1) by lia. replace (1 + r) with (r + 1) by lia.
    rewrite (proj1 P0 i u q r Nu Hq Hr), (proj1 P1 i u r q Nu Hr Hq). cbn [Nat.eqb]. field. lra. }
  unfold mesh_content. rewrite (leaves_lk u1 W1 ltac:(lia)), (leaves_lk dA Wa ltac:(lia)), (leaves_lk u0 Wu ltac:(lia)), I1, Ia, Iu. rewrite !combine_map, !FluxProofs5.rsum_map. cbn [fst snd].
  assert (T1 : rtotal (fun i => content N (lk u1 i) (lk dA i)) (leaves (indexes 2 vt)) = (rtotal (fun i => content N (lk u0 i) (lk dA i)) (leaves (indexes 2 vt)) -
    dt * (rtotal (fun i => L N 0 N (lk fx i) - L N 0 0 (lk fx i)) (leaves (indexes 2 vt)) + rtotal (fun i => L N 1 N (lk fy i) - L N 1 0 (lk fy i)) (leaves (indexes 2 vt))))%R).
  { clear -BS. revert BS. generalize (leaves (indexes 2 vt)) as ls. induction ls as [|i ls IH]; intros BS; cbn [total]; [ring|].
    rewrite IH by (intros; apply BS; right; assumption). rewrite (BS i (or_introl eq_refl)). ring. }
  rewrite T1, OX, OY. ring.
Qed.

(** ** Blocks of several sizes *)
(** Exact rational arithmetic, kept in lowest terms. *)
Definition next_q : nat -> solution (T := Q) -> outcome (solution (T := Q)) :=
  next_solution (fun x y => Qred (x + y)) (fun x y => Qred (x - y)) (fun x y => Qred (x * y)) (fun x y => Qred (x / y)) (fun x => Qred (- x)) (fun x => Qred (x / 2)) inject_Z.
(** The vertices of a block of N x N cells of the square from -1 to 1. *)
Definition corner_q (N : Z) (i : idx) (a : nat) (k : Z) : Q :=
  Qred (inject_Z (2 * (Z.of_nat (nth a (coords i) 0%nat) * N + k)) / inject_Z (N * 2 ^ Z.of_nat (level i)) - 1)%Q.
Definition grid_q {A} (n : Z) (f : Z -> Z -> A) : array A :=
  mkarr [n; n] (fun k => if (0 <=? nth 0 k 0) && (nth 0 k 0 <? n) && (0 <=? nth 1 k 0) && (nth 1 k 0 <? n) then Ok (f (nth 0 k 0) (nth 1 k 0)) else UB).
(** The mesh of the program for depth 3: the four inner blocks of the second level are refined once more. *)
Definition depth3 : tree unit :=
  let l := Leaf tt in let q := Node [l; l; l; l] in Node [Node [l; l; l; q]; Node [l; l; q; l]; Node [l; q; l; l]; Node [q; l; l; l]].
(** Density times area over all cells. *)
Definition total_q (N : Z) (s : solution (T := Q)) : outcome Q :=
  do l <- mapM (fun z : idx * array Q => do c <- mapM (aget (snd z)) (idxs [N; N]); Ok (fold_right (fun x y => Qred (x + y)) 0%Q c * ((2 / inject_Z (N * 2 ^ Z.of_nat (level (fst z)))) ^ 2))%Q)
    (combine (leaves (indexes 2 (conserved s))) (leaves (conserved s)));
  Ok (Qred (fold_right (fun x y => Qred (x + y)) 0%Q l)).
(** A density of one in half of one of the small blocks, nothing elsewhere. *)
Definition spot : solution (T := Q) := mksol (mkrat 0 1) 0%Q (tmap (fun i => grid_q 3 (fun x y => (corner_q 2 i 0 x, corner_q 2 i 1 y))) (indexes 2 depth3))
  (tmap (fun i => grid_q 2 (fun x _ => if (level i =? 3)%nat && (nth 0 (coords i) 0 =? 5)%nat && (nth 1 (coords i) 0 =? 3)%nat && (x =? 1) then 1 else 0)%Q) (indexes 2 depth3)).

(** Where blocks of two sizes meet the step does not keep the total: what leaves the small cells is not what arrives in
    the large one.  A sixth of this density is lost in one step. *)
Theorem sandbox_conserves_refuted : exists s' : solution (T := Q), next_q 31 spot = Ok s' /\ vertices s' = vertices spot /\ total_q 2 spot = Ok (1 # 32)%Q /\ total_q 2 s' = Ok (5 # 192)%Q.
Proof.
  assert (E : match next_q 31 spot with Ok s' => total_q 2 s' | _ => UB end = Ok (5 # 192)%Q) by (vm_compute; reflexivity).
  destruct (next_q 31 spot) as [s'| | |] eqn:Es; try discriminate E. exists s'. split; [reflexivity|]. split; [|split; [vm_compute; reflexivity|exact E]].
  clear E. unfold next_q, next_solution in Es. apply bind_ok_inv in Es. destruct Es as (dt & _ & Es). apply bind_ok_inv in Es. destruct Es as (u1 & _ & Es).
  apply bind_ok_inv in Es. destruct Es as (it & _ & Es). injection Es as <-. reflexivity.
Qed.

(** The number of zones in the message of every step counts the vertices, not the cells: for blocks of one cell it is
    four times too large. *)
Theorem sandbox_zones N d s : 1 <= N < 46340 -> (d <= 30)%nat -> sandbox_state N d s ->
  reported_zones s = Z.of_nat (length (leaves (vertices s))) * ((N + 1) * (N + 1)) /\
  fold_right Z.add 0 (map (fun b => volume (ashape b)) (leaves (conserved s))) = Z.of_nat (length (leaves (conserved s))) * (N * N).
Proof.
  intros HN Hd ((predicate & f0 & Hf0 & EV) & (S & F)). destruct (made_mesh predicate N d f0 (vertices s) ltac:(lia) Hd Hf0 EV) as (W & B & D & Reg).
  assert (G : forall A (l : list (array A)) n, 1 <= n <= 46340 -> Forall (fun b => ashape b = [n; n]) l -> fold_right Z.add 0 (map (fun b => volume (ashape b)) l) = Z.of_nat (length l) * (n * n)).
  { intros A l n Hn H. assert (V : volume [n; n] = n * n).
    { rewrite volume_prod; [unfold prodz; cbn [fold_right]; lia|repeat constructor; lia|unfold prodz; cbn [fold_right]; nia]. }
    induction H as [|b l Hb _ IH]; [reflexivity|]. cbn [map fold_right length]. rewrite IH, Hb, V. lia. }
  split; (apply G; [lia|]); [|revert F; apply Forall_impl; intros b [Hb _]; exact Hb].
  apply leaves_nodes; [assumption|lia|]. intros i b Hi. apply (Reg i b); [exact (proj1 Hi)|apply (leaf_at _ _ _ Hi)].
Qed.

(** ** Examples *)
(** A mesh of one block: every state on it can be stepped, with the total kept. *)
Example one_block : exists vt, create_vertex_quadtree 5 (fun _ _ => false) 3 3 0 = Ok vt /\ one_level vt /\ List.length (leaves vt) = 1%nat /\
  sandbox_state 3 0 (mksol (mkrat 0 1) 0%R vt (tmap (fun _ => grid_q 3 (fun x y => IZR (x - 2 * y))) vt)).
Proof.
  destruct (quadtree_made (fun _ _ => false) 3 0 ltac:(lia) ltac:(lia)) as (vt & E & W & B & D & _). specialize (E 5%nat ltac:(cbn; lia)). exists vt. split; [exact E|].
  destruct vt as [b|cs]; [|cbn [TreeModel.depth] in D; lia]. split; [|split; [reflexivity|]].
  - exists 0%nat. intros i [<-|[]]. reflexivity.
  - split; [exists (fun _ _ => false), 5%nat; split; [cbn; lia|exact E]|]. split; [constructor|]. constructor; [|constructor]. split; [reflexivity|].
    intros k Hk. destruct (inb2 3 k Hk) as (x & y & -> & Hx & Hy). unfold grid_q. cbn [aget nth]. rewrite (proj2 (Z.leb_le 0 x)), (proj2 (Z.leb_le 0 y)), (proj2 (Z.ltb_lt x 3)), (proj2 (Z.ltb_lt y 3)) by lia. eexists. reflexivity.
Qed.
(** The spot is on blocks of two sizes, 28 in all, and the step is not undone by a different reading of the neighbours: with
    one density everywhere nothing moves. *)
Example depth3_blocks : length (leaves depth3) = 28%nat /\ map (fun i => level i) (leaves (indexes 2 depth3)) = [2;2;2;3;3;3;3;2;2;3;3;3;3;2;2;3;3;3;3;2;2;3;3;3;3;2;2;2]%nat.
Proof. vm_compute. split; reflexivity. Qed.
Example level_field : (do s <- next_q 31 (mksol (mkrat 0 1) 0%Q (vertices spot) (tmap (fun _ => grid_q 2 (fun _ _ => 3)%Q) (indexes 2 depth3)));
  mapM (fun b => mapM (aget b) (idxs [2; 2])) (leaves (conserved s))) = Ok (repeat [3; 3; 3; 3]%Q 28).
Proof. vm_compute. reflexivity. Qed.
Example spot_zones : reported_zones spot = 252 /\ 28 * (2 * 2) = 112.
Proof. split; reflexivity. Qed.
Print Assumptions sandbox_conserves.
Print Assumptions sandbox_conserves_refuted.
Print Assumptions sandbox_zones.
