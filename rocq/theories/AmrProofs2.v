(** Lemmas: the new densities of the mesh refinement sandbox and the fluxes they are made from. *)
From Coq Require Import ZArith Reals Lra Lia List Arith Bool.
From Verif Require Import Base RationalModel TreeModel TreeSpec TreeProofs TreeProofs2 TreeProofs3 TreeProofs4 BalanceModel BalanceSpec BalanceProofs
  NdModel NdSpec NdProofs NdProofs2 NdProofs3 NdOpsModel NdOpsProofs ProlongModel ProlongProofs FluxModel FluxTreeProofs FluxProofs FluxSpec FluxProofs2 FluxProofs3 FluxProofs4 FluxProofs5 FluxProps
  GuardModel GuardSpec GuardProofs GuardProofs2 GuardProofs3 GuardProofs4 MeshModel MeshSpec MeshProofs MeshProps StepModel StepSpec StepProofs StepProofs2 StepProofs3 UniformProofs AmrModel AmrProofs.
Import ListNotations.
Open Scope Z_scope.

Notation halve := (fun x : R => x / 2)%R.
Notation advance_real := (advance_density Rplus Rminus Rmult Rdiv Ropp halve).

(** The width of a cell of block [i]. *)
Definition width (N : Z) (i : idx) : R := (2 / (IZR N * 2 ^ level i))%R.
Lemma width_pos N i : 1 <= N -> (0 < width N i)%R.
Proof. intros H. unfold width. apply Rdiv_lt_0_compat; [lra|]. apply Rmult_lt_0_compat; [apply IZR_lt; lia|apply pow_lt; lra]. Qed.

Lemma size_ok N : 1 <= N < 2147483647 -> 1 <= N /\ 4 * N + 4 < two64.
Proof. intros H. split; [lia|]. apply Z.lt_trans with (4 * 2147483647 + 4); [lia|reflexivity]. Qed.

Section Step.
Variables (N : Z) (vt : tree (array (R * R))).
Hypothesis HN : 1 <= N < 2147483647.
Hypothesis W : wf_tree 2 vt.
Hypothesis D : (depth vt <= 30)%nat.
Hypothesis Bal : balanced vt.
Hypothesis Reg : regular N 1 vt.
Hypothesis HN2 : 1 <= N /\ 4 * N + 4 < two64.

Lemma vertex_field a : (a < 2)%nat -> mesh_field a vt vt (N + 1) (N + 1) (vertex a 1 N).
Proof. intros Ha. split; [apply (shape_trans vt (indexes 2 vt) vt); [apply shape_sym|]; apply indexes_shape|]. intros i b Hi. eapply vertices_rep2; eassumption. Qed.

Lemma spacing_field a : (a < 2)%nat -> exists s, tmapM (spacing_on_axis Rminus (1 - a)) vt = Ok s /\ mesh_field a vt s (N + 1) N (fun i _ _ => width N i).
Proof.
  intros Ha. apply (lift_mapM vt W D _ a a vt (N + 1) (N + 1) (N + 1) N (vertex a 1 N) _ (vertex_field a Ha)).
  intros i b Hi. pose proof (proj2 (vertex_field a Ha) i b Hi) as R1. unfold spacing_on_axis.
  apply (map_rep2 (if (1 - a =? 0)%nat then fst else snd)) in R1. destruct (difference_rep2 Rminus a _ (N + 1) (N + 1) _ Ha ltac:(lia) ltac:(lia) R1) as (z & E & R2).
  exists z. split; [exact E|]. replace (N + 1 - 1) with N in R2 by lia. eapply rep2_ext; [exact R2|]. intros x k Hx Hk. cbv beta.
  pose proof (across_width a 1 N i x k Ha ltac:(lia)) as X. unfold width. replace (2 * 1)%R with 2%R in X by ring. rewrite <- X. axes Ha; reflexivity.
Qed.

Lemma area_field : exists dA, tmapM (area_from_vertices Rplus Rminus Rmult halve) vt = Ok dA /\ mesh_field 0 vt dA N N (fun i _ _ => (width N i ^ 2)%R).
Proof.
  destruct (mesh_cells N 1 vt HN W D Reg) as (dA & xc & EA & _ & SA & _ & HA & _). exists dA. split; [exact EA|]. split; [exact SA|].
  intros i b Hi. destruct (same_shape_wf vt dA W SA) as [WA DA]. destruct (shape_leaf dA vt i b WA (shape_sym _ _ SA) Hi) as [v Hv].
  destruct (HA i (proj1 Hi) (ex_intro _ v (leaf_at vt i v Hv))) as (a & c & E1 & _ & S1 & _ & V). rewrite (leaf_at dA i b Hi) in E1. injection E1 as <-.
  split; [exact S1|]. intros x k Hx Hk. change (face 0 x k) with [x; k]. rewrite (proj1 (V x k Hx Hk)). unfold width. do 4 f_equal. ring.
Qed.

Variables (u0 : tree (array R)) (U : idx -> Z -> Z -> R).
Hypothesis HU : mesh_field 0 vt u0 N N U.

Lemma u0_blocks : blocks 2 N u0 /\ balanced u0.
Proof.
  destruct (field_tree vt W D _ _ _ _ _ HU) as [Wu Du]. split; [|exact (same_shape_balanced vt u0 (proj1 HU) Bal)]. constructor; [exact HN2|assumption|assumption|].
  apply leaves_nodes; [assumption|lia|]. intros i v Hi. exact (rep2_full N v 0 (U i) ltac:(lia) (proj2 HU i v Hi)).
Qed.

Lemma u0_leaf i v : is_node vt i (Leaf v) -> exists b, is_node u0 i (Leaf b).
Proof. intros H. exact (shape_leaf vt u0 i v W (proj1 HU) H). Qed.

(** The values of the first [N + 1] layers of the extended blocks along an axis. *)
Definition upwind (a : nat) (E : idx -> Z -> Z -> R) : Prop :=
  (forall i v x k, is_node u0 i (Leaf v) -> 0 <= x < N -> 0 <= k < N -> E i (x + 1) k = if (a =? 0)%nat then U i x k else U i k x) /\
  (forall i j v w k, is_node u0 i (Leaf v) -> is_node u0 j (Leaf w) -> prev_on a i = Ok j -> 0 <= k < N -> E i 0 k = if (a =? 0)%nat then U j (N - 1) k else U j k (N - 1)) /\
  (forall Q, stable Rplus halve N u0 Q -> forall i v x k, is_node u0 i (Leaf v) -> 0 <= x < N + 1 -> 0 <= k < N -> Q (E i x k)).

Lemma axis_fluxes a fuel : (a < 2)%nat -> (depth vt < fuel)%nat ->
  exists s e h f E, tmapM (spacing_on_axis Rminus (1 - a)) vt = Ok s /\ extend_tree Rplus halve fuel u0 a = Ok e /\ tmapM (flux_from_conserved_density halve a) e = Ok h /\ tree_op Rmult h s = Ok f /\
    upwind a E /\ mesh_field a vt f (N + 1) N (fun i x k => (E i x k / 2 * width N i)%R).
Proof.
  intros Ha Hf. destruct u0_blocks as [Bu Bb]. destruct (field_tree vt W D _ _ _ _ _ HU) as [Wu Du].
  assert (HU' : mesh_field a u0 u0 N N (fun i x k => if (a =? 0)%nat then U i x k else U i k x)).
  { split; [apply (shape_trans u0 (indexes 2 u0) u0); [apply shape_sym|]; apply indexes_shape|]. intros i b Hi. pose proof (proj2 HU i b Hi) as R0.
    axes Ha; [exact R0|]. apply (rep2_flip 0) in R0; [exact R0|lia]. }
  assert (Hf' : (depth u0 < fuel)%nat) by (destruct (same_shape_wf vt u0 W (proj1 HU)) as [_ X]; lia).
  destruct (extend_field Rplus halve N u0 Bu Bb 0%R a fuel _ Ha Hf' HU') as (e & E & Ee & HE & P1 & P2 & P3).
  destruct (spacing_field a Ha) as (s & Es & Hs).
  assert (HE' : mesh_field a vt e (N + 2) N E) by (destruct HE as [S1 H1]; split; [exact (shape_trans _ _ _ (proj1 HU) S1)|exact H1]).
  destruct (lift_mapM vt W D (flux_from_conserved_density halve a) a a e (N + 2) N (N + 1) N E (fun i x k => (E i x k / 2)%R) HE') as (h & Eh & Hh).
  { intros i b Hi. unfold flux_from_conserved_density. pose proof (map_rep2 halve a b _ _ _ (proj2 HE' i b Hi)) as R1.
    destruct (layers_rep2 a _ (N + 2) N _ 0 1 Ha ltac:(lia) ltac:(lia) ltac:(lia) ltac:(lia) ltac:(lia) R1) as (z & Ez & R2). exists z. split; [exact Ez|].
    replace (N + 2 - 1 - 0) with (N + 1) in R2 by lia. exact R2. }
  destruct (lift_op vt W D Rmult a h s (N + 1) N _ _ Ha Hh Hs) as (f & Ef & Hff).
  exists s, e, h, f, E. do 4 (split; [assumption|]). split; [|exact Hff]. split; [exact P1|split; [exact P2|]]. intros Q HQ i v x k Hi Hx Hk. eapply P3; [exact HQ|exact Hi|lia|exact Hk].
Qed.

(** The step completes; the new value of every cell. *)
Lemma step_values fuel dt : (depth vt < fuel)%nat ->
  exists dA fx fy E0 E1 u1, tmapM (area_from_vertices Rplus Rminus Rmult halve) vt = Ok dA /\ mesh_field 0 vt dA N N (fun i _ _ => (width N i ^ 2)%R) /\
    upwind 0 E0 /\ upwind 1 E1 /\
    mesh_field 0 vt fx (N + 1) N (fun i x k => (E0 i x k / 2 * width N i)%R) /\
    mesh_field 1 vt fy (N + 1) N (fun i x k => (E1 i x k / 2 * width N i)%R) /\
    advance_real fuel vt u0 dt = Ok u1 /\
    mesh_field 0 vt u1 N N (fun i x y => U i x y - dt / (2 * width N i) * ((U i x y - E0 i x y) + (U i x y - E1 i y x)))%R.
Proof.
  intros Hf. destruct (axis_fluxes 0 fuel ltac:(lia) Hf) as (dy & ex & hx & fx & E0 & EY & EX & EHX & EFX & P0 & Hfx).
  destruct (axis_fluxes 1 fuel ltac:(lia) Hf) as (dx & ey & hy & fy & E1 & EDX & EEY & EHY & EFY & P1 & Hfy).
  destruct area_field as (dA & EA & HA). exists dA, fx, fy, E0, E1.
  destruct (lift_mapM vt W D (difference_on_axis Rminus 0) 0 0 fx (N + 1) N N N _ (fun i x y => (E0 i (1 + x)%Z y / 2 * width N i - E0 i x y / 2 * width N i)%R) Hfx) as (gx & EGX & HGX).
  { intros i b Hi. pose proof (proj2 Hfx i b Hi) as R1. apply rep2_flip in R1; [|lia]. destruct (difference_rep2 Rminus 1 b N (N + 1) _ ltac:(lia) ltac:(lia) ltac:(lia) R1) as (z & Ez & Rz).
    exists z. split; [exact Ez|]. apply rep2_flip in Rz; [|lia]. replace (N + 1 - 1) with N in Rz by lia. exact Rz. }
  destruct (lift_mapM vt W D (difference_on_axis Rminus 1) 1 0 fy (N + 1) N N N _ (fun i x y => (E1 i (1 + y)%Z x / 2 * width N i - E1 i y x / 2 * width N i)%R) Hfy) as (gy & EGY & HGY).
  { intros i b Hi. pose proof (proj2 Hfy i b Hi) as R1. apply rep2_flip in R1; [|lia]. change (1 - 1)%nat with 0%nat in R1. destruct (difference_rep2 Rminus 0 b N (N + 1) _ ltac:(lia) ltac:(lia) ltac:(lia) R1) as (z & Ez & Rz).
    exists z. split; [exact Ez|]. replace (N + 1 - 1) with N in Rz by lia. exact Rz. }
  pose proof (lift_map vt W D Ropp 0 gx N N _ HGX) as HLX. pose proof (lift_map vt W D Ropp 0 gy N N _ HGY) as HLY.
  destruct (lift_op vt W D Rplus 0 _ _ N N _ _ ltac:(lia) HLX HLY) as (l & EL & HL).
  pose proof (lift_map vt W D (fun x => x * dt)%R 0 l N N _ HL) as HLD.
  destruct (lift_op vt W D Rdiv 0 _ _ N N _ _ ltac:(lia) HLD HA) as (w & EW & HW).
  destruct (lift_op vt W D Rplus 0 _ _ N N _ _ ltac:(lia) HU HW) as (u1 & EU & HU1).
  exists u1. do 6 (split; [assumption|]). split.
  - unfold advance_density. change (1 - 0)%nat with 1%nat in EY. change (1 - 1)%nat with 0%nat in EDX. rewrite EA. bsimp. rewrite EDX. bsimp. rewrite EY. bsimp. rewrite EX. bsimp. rewrite EHX. bsimp. rewrite EFX. bsimp. rewrite EEY. bsimp. rewrite EHY. bsimp. rewrite EFY. bsimp. rewrite EGX. bsimp. rewrite EGY. bsimp. rewrite EL. bsimp. rewrite EW. bsimp. exact EU.
  - eapply field_ext; [exact HU1|]. intros i b x y Hi Hx Hy. cbv beta. pose proof (width_pos N i ltac:(lia)) as Hw.
    destruct (shape_leaf u1 vt i b) as [v Hv]; [|exact (shape_sym _ _ (proj1 HU1))|exact Hi|]; [exact (proj1 (field_tree vt W D _ _ _ _ _ HU1))|].
    destruct (u0_leaf i v Hv) as [c Hc]. replace (1 + x) with (x + 1) by lia. replace (1 + y) with (y + 1) by lia.
    rewrite (proj1 P0 i c x y Hc Hx Hy), (proj1 P1 i c y x Hc Hy Hx). cbn [Nat.eqb]. field. lra.
Qed.
End Step.
