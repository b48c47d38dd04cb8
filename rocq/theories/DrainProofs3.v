(** Lemmas: the mass flux of the HLLE solver between two states, the flux of the binary scheme without slopes, and the new
    density of every cell of a mesh. *)
From Coq Require Import ZArith Reals Lra List Arith Bool Lia.
From Verif Require Import Base TreeModel TreeSpec TreeProofs TreeProofs2 TreeProofs3 TreeProofs4 BalanceModel BalanceSpec BalanceProofs
  NdModel NdSpec NdProofs NdProofs2 NdProofs3 NdOpsModel NdOpsProofs PlmModel ProlongModel ProlongProofs FluxModel FluxTreeProofs FluxProofs FluxSpec FluxProofs2 FluxProofs3 FluxProofs4 FluxProofs5
  GuardModel GuardSpec GuardProofs GuardProofs2 MeshModel MeshSpec MeshProofs2 MeshProps StepModel StepSpec StepProofs StepProofs2 StepProofs3 StepProps UniformProofs DrainProofs DrainProofs2
  DimensionalModel TwoBodyModel HydroModel GeometryProps HlleProps SourceModel SourceProofs SolutionModel SolutionSpec SolutionProofs SolutionProofs2 SolutionProofs3 UniformProps.
Import ListNotations.
Open Scope R_scope.

(** No more mass leaves a state than its density times the largest signal speed. *)
Lemma hlle_mass Pl Pr cs2 n S : 0 <= HydroModel.sigma Pl -> 0 <= HydroModel.sigma Pr -> 0 < cs2 ->
  Rabs (iso_velocity_along Pl n) + sqrt cs2 <= S -> Rabs (iso_velocity_along Pr n) + sqrt cs2 <= S ->
  - (S * HydroModel.sigma Pr) <= d0 (iso_hlle Pl Pr cs2 cs2 n) <= S * HydroModel.sigma Pl.
Proof.
  intros Hl Hr Hc H1 H2. unfold iso_hlle, hlle3. cbn [d0]. unfold hlle_component, iso_wavespeeds, iso_flux, iso_conserved. cbn [fst snd d0].
  set (ul := iso_velocity_along Pl n) in *. set (ur := iso_velocity_along Pr n) in *. set (c := sqrt cs2) in *. assert (Hc' : 0 < c) by (apply sqrt_lt_R0; assumption).
  set (ap := smax 0 (smax (ul + c) (ur + c))). set (am := smin 0 (smin (ul - c) (ur - c))). set (sl := HydroModel.sigma Pl) in *. set (sr := HydroModel.sigma Pr) in *.
  assert (A1 : 0 <= ap <= S /\ ul + c <= ap /\ ur + c <= ap).
  { unfold ap, smax. revert H1 H2. unfold Rabs. repeat destruct (Rcase_abs _); repeat destruct (Rlt_dec _ _); lra. }
  assert (A2 : - S <= am <= 0 /\ am <= ul - c /\ am <= ur - c).
  { unfold am, smin. revert H1 H2. unfold Rabs. repeat destruct (Rcase_abs _); repeat destruct (Rlt_dec _ _); lra. }
  clearbody ap am. assert (HD : 0 < ap - am) by lra.
  assert (E : (ul * sl * ap - ur * sr * am - (sl - sr) * ap * am) / (ap - am) = sl * (ap * ((ul - am) / (ap - am))) - sr * (- am * ((ap - ur) / (ap - am)))) by (field; lra).
  rewrite E.
  assert (B1 : 0 <= (ul - am) / (ap - am) <= 1).
  { split; [apply Rmult_le_pos; [lra|left; apply Rinv_0_lt_compat; lra]|]. apply Rmult_le_reg_r with (ap - am); [lra|]. unfold Rdiv. rewrite Rmult_assoc, Rinv_l; lra. }
  assert (B2 : 0 <= (ap - ur) / (ap - am) <= 1).
  { split; [apply Rmult_le_pos; [lra|left; apply Rinv_0_lt_compat; lra]|]. apply Rmult_le_reg_r with (ap - am); [lra|]. unfold Rdiv. rewrite Rmult_assoc, Rinv_l; lra. }
  set (x := (ul - am) / (ap - am)) in *. set (y := (ap - ur) / (ap - am)) in *. clearbody x y. clear E.
  assert (C1 : 0 <= ap * x <= S) by nra. assert (C2 : 0 <= - am * y <= S) by nra. split; nra.
Qed.

(** In safe mode there are no slopes. *)
Lemma slope_safe sd l p q r : plm_slope sd true l p q r = IPrim 0 0 0.
Proof.
  assert (Z : forall x y z, (plm_gradient false false false x y z 0 / spacing_at sd l = 0)%R).
  { intros x y z. unfold plm_gradient. match goal with |- context [minabs ?a ?b ?c] => assert (minabs a b c = 0) as M end.
    { replace ((y - x) * 0)%R with 0%R by ring. replace ((z - y) * 0)%R with 0%R by ring. unfold minabs. rewrite Rabs_R0. pose proof (Rabs_pos ((z - x) * 0.5)). unfold Rmin. repeat destruct (Rle_dec _ _); lra. }
    rewrite M. unfold Rdiv. ring. }
  unfold plm_slope. rewrite !Z. reflexivity.
Qed.

Lemma axis_velocity_is p a : (a < 2)%nat -> axis_velocity p a = if (a =? 0)%nat then HydroModel.vx p else HydroModel.vy p.
Proof.
  intros Ha. unfold axis_velocity, iso_velocity_along, axis_vector. destruct a as [|[|a]]; [| |lia]; cbn [Nat.eqb]; unfold project, make_unit_vector; cbn [n1 n2 n3].
  all: ring.
Qed.

(** The flux of mass between two states of limited speed, without slopes. *)
Lemma safe_flux sd b a l x p q V C : (a < 2)%nat -> 0 < HydroModel.sigma p -> 0 < HydroModel.sigma q ->
  Rabs (HydroModel.vx p) <= V -> Rabs (HydroModel.vy p) <= V -> Rabs (HydroModel.vx q) <= V -> Rabs (HydroModel.vy q) <= V -> 0 <= C -> 0 < cs2_at_position sd b x <= C * C ->
  - ((V + C) * HydroModel.sigma q) <= d0 (flux_of sd b a l x (p, q) (IPrim 0 0 0, IPrim 0 0 0) (IPrim 0 0 0, IPrim 0 0 0)) <= (V + C) * HydroModel.sigma p.
Proof.
  intros Ha Sp Sq V1 V2 V3 V4 HC Hc.
  assert (H : - ((V + C) * HydroModel.sigma q) <= d0 (intercell_flux_u sd b a l x (p, q) (IPrim 0 0 0, IPrim 0 0 0) (IPrim 0 0 0, IPrim 0 0 0)) <= (V + C) * HydroModel.sigma p).
  { unfold intercell_flux_u, v3_add. cbn [d0 fst snd].
    replace (prim_add p (prim_mul (prim_mul (IPrim 0 0 0) 0.5) (spacing_at sd l))) with p by (destruct p; unfold prim_add, prim_mul; cbn [HydroModel.sigma HydroModel.vx HydroModel.vy]; f_equal; ring).
    replace (prim_sub q (prim_mul (prim_mul (IPrim 0 0 0) 0.5) (spacing_at sd l))) with q by (destruct q; unfold prim_sub, prim_mul; cbn [HydroModel.sigma HydroModel.vx HydroModel.vy]; f_equal; ring).
    replace (d0 (viscous_flux a _ _ _)) with 0 by (unfold viscous_flux; destruct (a =? 0)%nat; reflexivity). rewrite Rplus_0_r.
    assert (SC : sqrt (cs2_at_position sd b x) <= C) by (rewrite <- (sqrt_square C) by assumption; apply sqrt_le_1_alt; lra).
    assert (K : forall w, Rabs (HydroModel.vx w) <= V -> Rabs (HydroModel.vy w) <= V -> Rabs (iso_velocity_along w (axis_vector a)) + sqrt (cs2_at_position sd b x) <= V + C).
    { intros w W1 W2. fold (axis_velocity w a). rewrite (axis_velocity_is w a Ha). destruct (a =? 0)%nat; lra. }
    apply hlle_mass; try lra; apply K; assumption. }
  unfold flux_of. destruct (conserve_linear_p sd); [exact H|]. unfold intercell_flux_q, to_angmom_fluxes. cbn [d0]. exact H.
Qed.

(** The middle of a face, as a place in the block. *)
Definition face_place (a : nat) (r : R) (N : Z) (i : idx) (x k : Z) : R * R :=
  if (a =? 0)%nat then point_in r N i (IZR x) (IZR k + 1 / 2) else point_in r N i (IZR k + 1 / 2) (IZR x).
Lemma face_middle_place a r N i x k : (a < 2)%nat -> face_middle a r N i x k = face_place a r N i x k.
Proof.
  intros Ha. unfold face_middle, face_place, vertex, loc_half, loc_add, point_in, MeshSpec.place. set (h := 2 * r / (IZR N * 2 ^ level i)). destruct (a =? 0)%nat; cbn [fst snd]; rewrite plus_IZR; apply (f_equal2 pair); field.
Qed.

Open Scope Z_scope.
(** The new value of every cell of a mesh. *)
Lemma step_cells N dA u0 src fx fy dt u1 : mesh N dA u0 src fx fy -> advance_blocks (@contains_compiled) dA u0 src fx fy dt = Ok u1 ->
  forall i w, is_node u1 i (Leaf w) -> exists bx by_ a u s, is_node fx i (Leaf bx) /\ is_node fy i (Leaf by_) /\ at_ dA i = Ok a /\ at_ u0 i = Ok u /\ at_ src i = Ok s /\
    reps w [N; N] (fun p => (val u p - (val (corrected 0 fx i) (upd 0 (1 + nth 0 p 0)%Z p) - val (corrected 0 fx i) p
      + (val (corrected 1 fy i) (upd 1 (1 + nth 1 p 0)%Z p) - val (corrected 1 fy i) p)) * dt / val a p + val s p)%R).
Proof.
  intros M EU i w Hw. destruct M as [[HN HB] W D Bal (Sa & Ss & Sx & Sy) (Fu & Fs & Fa) (Fx & Fy)].
  destruct (same_shape_wf _ _ W Sa) as [Wa Da]. destruct (same_shape_wf _ _ W Ss) as [Ws Ds]. destruct (same_shape_wf _ _ W Sx) as [Wx Dx]. destruct (same_shape_wf _ _ W Sy) as [Wy Dy].
  assert (Ia : indexes 2 dA = indexes 2 u0) by (apply same_shape_indexes; assumption). assert (Is : indexes 2 src = indexes 2 u0) by (apply same_shape_indexes; assumption).
  assert (Ix : indexes 2 fx = indexes 2 u0) by (apply same_shape_indexes; assumption). assert (Iy : indexes 2 fy = indexes 2 u0) by (apply same_shape_indexes; assumption).
  pose proof (same_shape_balanced _ _ Sx Bal) as Bx. pose proof (same_shape_balanced _ _ Sy Bal) as By.
  destruct (corrected_tree N HN HB 0 ltac:(lia) fx Wx ltac:(lia) Bx Fx) as (fxc & Ex & Sxc & Ixc & Lxc & Fxc & Jx).
  destruct (corrected_tree N HN HB 1 ltac:(lia) fy Wy ltac:(lia) By Fy) as (fyc & Ey & Syc & Iyc & Lyc & Fyc & Jy).
  set (upd1 := fun i => match block_update dA u0 src fxc fyc dt i with Ok v => v | _ => mkarr [] (fun _ => UB) end).
  assert (BU : forall i, In i (leaves (indexes 2 u0)) -> block_update dA u0 src fxc fyc dt i = Ok (upd1 i) /\ exists bx by_ a u s, is_node fx i (Leaf bx) /\ is_node fy i (Leaf by_) /\ at_ dA i = Ok a /\ at_ u0 i = Ok u /\ at_ src i = Ok s /\
    reps (upd1 i) [N; N] (fun p => (val u p - (val (corrected 0 fx i) (upd 0 (1 + nth 0 p 0)%Z p) - val (corrected 0 fx i) p
      + (val (corrected 1 fy i) (upd 1 (1 + nth 1 p 0)%Z p) - val (corrected 1 fy i) p)) * dt / val a p + val s p)%R)).
  { clear i w Hw. intros i Hi. destruct (lk_at u0 i W ltac:(lia) Hi) as [A1 A2]. destruct (lk_at dA i Wa ltac:(lia) ltac:(rewrite Ia; exact Hi)) as [A3 A4].
    destruct (lk_at src i Ws ltac:(lia) ltac:(rewrite Is; exact Hi)) as [A5 A6].
    rewrite Forall_forall in Fu, Fs, Fa, Fxc, Fyc. destruct (Fa _ A4) as [Fa1 Fa2].
    destruct (in_leaf fx Wx ltac:(lia) i ltac:(rewrite Ix; exact Hi)) as (bx & Nx). destruct (in_leaf fy Wy ltac:(lia) i ltac:(rewrite Iy; exact Hi)) as (by_ & Ny).
    destruct (block_cell N HN HB dA u0 src fxc fyc dt i _ _ _ _ _ A3 A1 A5 (Jx i ltac:(rewrite Ix; exact Hi)) (Jy i ltac:(rewrite Iy; exact Hi))) as (v & EV & RV); auto.
    - apply Fxc. rewrite Lxc. apply in_map. rewrite Ix. exact Hi.
    - apply Fyc. rewrite Lyc. apply in_map. rewrite Iy. exact Hi.
    - unfold upd1. rewrite EV. split; [reflexivity|]. exists bx, by_, (lk dA i), (lk u0 i), (lk src i). do 5 (split; [assumption|]). exact RV. }
  destruct (built u0 upd1 W ltac:(lia)) as (S1 & W1 & D1 & I1 & L1 & K1).
  assert (E1 : advance_blocks (@contains_compiled) dA u0 src fx fy dt = Ok (tmap upd1 (indexes 2 u0))).
  { unfold advance_blocks. unfold correct_axis in Ex, Ey. cbn [Nat.eqb] in Ex, Ey. rewrite Ex, Ey. bsimp. apply tmapM_ok. intros j Hj. apply (BU j Hj). }
  rewrite EU in E1. apply ok_inj in E1. subst u1. assert (Hi : In i (leaves (indexes 2 u0))) by (rewrite <- I1; exact (leaf_in _ W1 _ _ Hw)).
  pose proof (K1 i Hi) as E. rewrite (leaf_at _ i w Hw) in E. injection E as ->. exact (proj2 (BU i Hi)).
Qed.
