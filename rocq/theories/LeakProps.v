(** Property theorems: mass in the binary program when the sound speed follows the bodies (axisymmetric_cs2 = 0, the
    default).  The mesh is periodic, and the two sides of the domain see the same gas, but not the same sound speed. *)
From Coq Require Import ZArith Reals Lra List Arith Bool Lia.
From Verif Require Import Base TreeModel TreeSpec TreeProofs TreeProofs3 TreeProofs4 BalanceModel BalanceSpec BalanceProofs NdModel NdSpec NdProofs NdProofs2 NdOpsModel NdOpsProofs PlmModel ProlongProofs FluxModel FluxSpec FluxTreeProofs FluxProofs FluxProofs3 FluxProofs4 FluxProofs5
  GuardSpec GuardProofs2 MeshModel MeshSpec MeshProps DimensionalModel StepModel StepSpec StepProofs StepProofs2 StepProofs3 StepProps UniformProofs TwoBodyModel OrbitProofs ElementsProofs HydroModel
  SourceModel SourceProofs SolutionModel SolutionSpec SolutionProofs SolutionProofs2 SolutionProofs3 SolutionProofs4 UniformProps SolutionExample OneBlockProofs.
Import ListNotations.
Open Scope Z_scope.

Section One.
Variables (N : Z) (d : nat) (predicate : nat -> R -> bool) (fuel : nat) (sd : settings) (fd : fields).
Hypothesis HS : setup N d predicate fuel sd fd.
Variable w : array (R * R).
Hypothesis HV : vertices fd = Leaf w.

(** The mass fluxes of the one block through its faces, and the new density of a cell. *)
Definition fluxes_x safe (flux : nat -> nat -> R * R -> iprim * iprim -> iprim * iprim -> iprim * iprim -> v3) (G : Z -> Z -> iprim) : Z -> Z -> R :=
  face_value (fun a l x p g h => d0 (flux a l x p g h)) N (domain_radius sd) 0 (root_index 2) (around N G) (around N (slope_x (plm_slope sd safe) N G)) (around N (slope_y (plm_slope sd safe) N G)).
Definition fluxes_y safe (flux : nat -> nat -> R * R -> iprim * iprim -> iprim * iprim -> iprim * iprim -> v3) (G : Z -> Z -> iprim) : Z -> Z -> R :=
  face_value (fun a l x p g h => d0 (flux a l x p g h)) N (domain_radius sd) 1 (root_index 2) (around N (flip G)) (around N (flip (slope_y (plm_slope sd safe) N G))) (around N (flip (slope_x (plm_slope sd safe) N G))).
Lemma one_update safe flux v u s G U S dt : cell_data N (vertices fd) (Leaf v) -> rep2 0 v N N G -> reps u [N; N] U -> reps s [N; N] S ->
  exists u1 Y, update3 sd fd fuel safe flux (Leaf v) (Leaf u) (Leaf s) dt = Ok (Leaf u1) /\ cell_data N (vertices fd) (Leaf u1) /\ reps u1 [N; N] Y /\
    forall x y, 0 <= x < N -> 0 <= y < N -> d0 (Y [x; y]) = (d0 (U [x; y]) - (fluxes_x safe flux G (1 + x) y - fluxes_x safe flux G x y + (fluxes_y safe flux G (1 + y) x - fluxes_y safe flux G y x)) * dt / cell_area N sd (root_index 2) + d0 (S [x; y]))%R.
Proof.
  intros Hp RG RU RS. destruct (mesh_facts N d predicate fuel sd fd HS) as (W & D & _ & HR & HF).
  pose proof HS as HS'. destruct HS' as [s1 s2 s3 s4 s5 s6 s7 s8 s9 s10]. assert (Hr : domain_radius sd <> 0%R) by lra. assert (HN : 1 <= N /\ 4 * N + 4 < two64) by (unfold two64; lia).
  assert (CD : forall (b : array v3) F, reps b [N; N] F -> cell_data N (vertices fd) (Leaf b)).
  { intros b F [R1 R2]. rewrite HV. split; [constructor|]. constructor; [|constructor]. split; [exact R1|]. intros k Hk. rewrite (R2 k Hk). eauto. }
  pose proof (CD _ _ RU) as Hu. pose proof (CD _ _ RS) as Hs.
  assert (ST := fun c : v3 -> R => step_conserves prim_add (fun p => prim_mul p (1 / 2)) (plm_slope sd safe) (fun a l x p g h => c (flux a l x p g h)) predicate N d (domain_radius sd) fuel (vertices fd) (cell_areas fd) (Leaf v) (tmap (arr_map c) (Leaf u)) (tmap (arr_map c) (Leaf s)) dt
    s1 s3 s4 Hr s6 s7 Hp (cell_data_map N (vertices fd) (Leaf u) c Hu) (cell_data_map N (vertices fd) (Leaf s) c Hs)).
  destruct (ST d0) as (_ & _ & _ & _ & t0 & _ & _ & _ & A0 & D0 & _). destruct (ST d1) as (_ & _ & _ & _ & t1 & _ & _ & _ & A1 & D1 & _). destruct (ST d2) as (_ & _ & _ & _ & t2 & _ & _ & _ & A2 & D2 & _).
  destruct (joined3 N d predicate fuel sd fd HS t0 t1 t2 D0 D1 D2) as (u1 & EJ & DJ & _ & HJ).
  assert (LF : exists y, u1 = Leaf y) by (destruct DJ as [SJ _]; rewrite HV in SJ; inversion SJ; eauto). destruct LF as [y ->].
  destruct (HJ (root_index 2)) as (y' & a & b' & c & A & B & C & Ny & Na & _ & _ & Ra & _ & _ & Ry); [rewrite HV; left; reflexivity|].
  pose proof (is_node_unique _ _ _ _ Ny (leaf_root y)) as X. injection X as ->.
  exists y. eexists. split; [unfold update3; rewrite A0; bsimp; rewrite A1; bsimp; rewrite A2; bsimp; exact EJ|]. split; [exact DJ|]. split; [exact Ry|]. cbn [d0]. intros p q Hx Hy.
  unfold StepModel.advance in A0. rewrite HV in A0, HR.
  destruct (one_fluxes prim_add (fun p => prim_mul p (1 / 2)) (plm_slope sd safe) (fun a l x p g h => d0 (flux a l x p g h)) N (domain_radius sd) v w fuel G HN RG HR ltac:(rewrite HV in HF; cbn in HF; lia)) as (fx & fy & EF & RX & RY).
  rewrite EF in A0. cbn [bind] in A0. destruct (shapes N d predicate fuel sd fd HS) as (SA & _ & SC). destruct (SC (root_index 2) w) as (ar & _ & Nar & _ & Rar & _); [rewrite HV; apply leaf_root|].
  rewrite HV in SA. assert (EAr : cell_areas fd = Leaf ar).
  { inversion SA as [x0 y0 H1 H2|]. rewrite <- H2 in Nar. pose proof (is_node_unique _ _ _ _ Nar (leaf_root y0)) as X. congruence. }
  rewrite EAr in A0. cbn [tmap] in A0.
  destruct (one_step N ar (arr_map d0 u) (arr_map d0 s) fx fy dt _ _ _ _ _ HN (reps_rep2 0 ar N N _ ltac:(lia) Rar) (reps_rep2 0 _ N N _ ltac:(lia) (map_reps d0 u [N; N] U RU)) (reps_rep2 0 _ N N _ ltac:(lia) (map_reps d0 s [N; N] S RS)) RX RY) as (n1 & EN & RN).
  rewrite EN in A0. injection A0 as <-. pose proof (is_node_unique _ _ _ _ Na (leaf_root n1)) as X. injection X as ->.
  pose proof (proj2 RN p q Hx Hy) as V. pose proof (proj2 Ra [p; q] ltac:(repeat constructor; lia)) as V'. change (face 0 p q) with [p; q] in *. rewrite V in V'. apply ok_inj in V'. rewrite <- V'. reflexivity.
Qed.
End One.

(** ** A run that loses mass *)
(** One block of 2 x 2 cells, gas at rest, twice as dense on the right as on the left, and a binary of mass ratio 1/2 on a
    circular orbit; no sinks, no buffer, no density floor, no viscosity. *)
Definition leak_sd (lin : bool) : settings := Settings 0 (1 / 4) 1 1 1 1 0 1 0 0 0 (3 / 2) (1 / 2) 10 1 false lin true true 2.
Definition leak_gas : array v3 := mkarr [2; 2] (fun k => Ok (V3 (if nth 0 k 0 =? 0 then 1 / 10 else 1 / 5) 0 0)).
Definition leak_state (lin : bool) : solution :=
  Solution 0 (if lin then Leaf leak_gas else empty_tree) (if lin then empty_tree else Leaf leak_gas) (0, 0)%R (0, 0)%R (0, 0)%R (0, 0)%R 0 0
    zero_elements zero_elements (elements_of_orbit (Orbit 1 1 (1 / 2) 0)).
Definition leak_fields vt xc dA : fields := Fields vt xc dA (Leaf leak_gas) (Leaf leak_gas) (Leaf ex_still).
Definition leak_pair : two_body := TwoBody (Body (2 / 3) (1 / 3) 0 0 (1 / 3)) (Body (1 / 3) (- (2 / 3)) 0 0 (- (2 / 3))).

Lemma leak_setup lin : exists v c a, setup 2 0 ex_none 2 (leak_sd lin) (leak_fields (Leaf v) (Leaf c) (Leaf a)).
Proof.
  destruct (mesh_is_regular ex_none 2 0 1 ltac:(lia) ltac:(lia)) as (vt & EV & W & _ & D & HR). specialize (EV 2%nat ltac:(cbn; lia)).
  assert (exists v, vt = Leaf v) as [v ->] by (destruct vt; [eauto|cbn [depth] in D; lia]).
  destruct (mesh_cells 2 1 (Leaf v) ltac:(lia) W ltac:(cbn; lia) HR) as (dA & xc & EA & EC & Sa & Sc & _).
  assert (exists a, dA = Leaf a) as [a ->] by (inversion Sa; eauto). assert (exists c, xc = Leaf c) as [c ->] by (inversion Sc; eauto).
  exists v, c, a. constructor; cbn [leak_sd block_size domain_radius leak_fields vertices cell_areas cell_centers buffer_rate_field initial_conserved_u initial_conserved_q]; auto; try lia; try lra.
  - split; [constructor|]. constructor; [|constructor]. split; [reflexivity|]. intros k _. eexists. reflexivity.
  - assert (G : cell_data 2 (Leaf v) (Leaf leak_gas)) by (split; [constructor|]; constructor; [|constructor]; split; [reflexivity|]; intros k _; eexists; reflexivity). destruct (conserve_linear_p _); exact G.
Qed.
Lemma leak_bodies lin : full_state_at 2 (orbital_elements (leak_state lin)) (time (leak_state lin)) = Ok leak_pair.
Proof.
  cbn [leak_state orbital_elements time]. unfold full_state_at, elements_of_orbit. cbn [after tau orb]. destruct (Rlt_dec 0 0) as [X|_]; [lra|]. bsimp. unfold state_at. cbn [ecc]. destruct (Rlt_dec 0 0) as [X|_]; [lra|]. bsimp.
  unfold state_of, place, omega_of. cbn [ecc ratio sep mtot pomega cmx cmy cmvx cmvy body1 body2 mass px py TwoBodyModel.vx TwoBodyModel.vy]. destruct (Req_EM_T 1 0) as [X|_]; [lra|].
  replace (1 / 1 / 1 / 1)%R with 1%R by field. rewrite sqrt_1. replace (1 * (0 - 0))%R with 0%R by ring. replace (- 0)%R with 0%R by ring. rewrite cos_0, sin_0. replace (1 - 0 * 0)%R with 1%R by ring. rewrite sqrt_1.
  unfold leak_pair. f_equal. f_equal; f_equal; field.
Qed.
Lemma leak_bound a b c e : ((a - c) * (a - c) + (b - e) * (b - e) < 2)%R ->
  exists p, elements_at (TwoBody (Body (2 / 3) (1 / 3) 0 a b) (Body (1 / 3) (- (2 / 3)) 0 c e)) 0 = Ok p.
Proof.
  intros H. assert (ED : rel_D (TwoBody (Body (2 / 3) (1 / 3) 0 a b) (Body (1 / 3) (- (2 / 3)) 0 c e)) = 1%R).
  { unfold rel_D, gap. cbn [body1 body2 px py]. apply sqrt_of; lra. }
  apply elements_spec_ok; cbn [body1 body2 mass]; [lra|lra|rewrite ED; lra|]. unfold rel_E, red, gap. rewrite ED. cbn [body1 body2 mass TwoBodyModel.vx TwoBodyModel.vy]. lra.
Qed.

(** The sound speed. *)
Definition leak_c (lin : bool) (x y : R) : R := sqrt (cs2_at_position (leak_sd lin) leak_pair (x, y)).
Lemma leak_cs2 lin x y : cs2_at_position (leak_sd lin) leak_pair (x, y) = (2 / 3 / sqrt ((x - 1 / 3) * (x - 1 / 3) + y * y + 1) + 1 / 3 / sqrt ((x + 2 / 3) * (x + 2 / 3) + y * y + 1))%R.
Proof.
  unfold cs2_at_position. cbn [leak_sd axisymmetric_cs2 mach_number]. unfold grav_phi_field, pow12. cbn [leak_sd softening_radius leak_pair body1 body2 px py mass fst snd].
  replace ((x - 1 / 3) * (x - 1 / 3) + (y - 0) * (y - 0) + 1 * 1)%R with ((x - 1 / 3) * (x - 1 / 3) + y * y + 1)%R by ring.
  replace ((x - - (2 / 3)) * (x - - (2 / 3)) + (y - 0) * (y - 0) + 1 * 1)%R with ((x + 2 / 3) * (x + 2 / 3) + y * y + 1)%R by ring. unfold Rdiv. rewrite Rinv_1. ring.
Qed.
Lemma inv_sqrt_small x : (1 <= x -> 0 < / sqrt x <= 1)%R.
Proof.
  intros H. assert (1 <= sqrt x)%R by (rewrite <- sqrt_1 at 1; apply sqrt_le_1; lra). split; [apply Rinv_0_lt_compat; lra|]. rewrite <- Rinv_1 at 1. apply Rinv_le_contravar; lra.
Qed.
Lemma leak_cs2_small lin x y : (0 < cs2_at_position (leak_sd lin) leak_pair (x, y) <= 1)%R.
Proof.
  rewrite leak_cs2. unfold Rdiv. pose proof (Rle_0_sqr y). pose proof (Rle_0_sqr (x - 1 / 3)). pose proof (Rle_0_sqr (x + 2 / 3)). unfold Rsqr in *.
  pose proof (inv_sqrt_small ((x - 1 / 3) * (x - 1 / 3) + y * y + 1) ltac:(lra)). pose proof (inv_sqrt_small ((x + 2 / 3) * (x + 2 / 3) + y * y + 1) ltac:(lra)). unfold Rdiv in *. lra.
Qed.
Lemma leak_c_small lin x y : (0 < leak_c lin x y <= 1)%R.
Proof.
  unfold leak_c. pose proof (leak_cs2_small lin x y). split; [apply sqrt_lt_R0; lra|]. rewrite <- sqrt_1. apply sqrt_le_1; lra.
Qed.
(** It is larger at the right edge than at the left. *)
Lemma leak_uneven lin y : (y * y = 1 / 4 -> leak_c lin (- (1)) y < leak_c lin 1 y)%R.
Proof.
  intros Hy. unfold leak_c. apply sqrt_lt_1; [left; apply leak_cs2_small..|]. rewrite !leak_cs2, !Hy.
  assert (B : forall x lo hi, (0 < lo -> 0 < hi -> lo * lo <= x <= hi * hi -> / hi <= / sqrt x <= / lo)%R).
  { intros x lo hi H1 H2 H3. assert (lo <= sqrt x <= hi)%R.
    { split; [rewrite <- (sqrt_square lo) at 1 by lra; apply sqrt_le_1; nra|rewrite <- (sqrt_square hi) by lra; apply sqrt_le_1; nra]. }
    split; apply Rinv_le_contravar; lra. }
  pose proof (B ((1 - 1 / 3) * (1 - 1 / 3) + 1 / 4 + 1)%R 1.3%R 1.302%R ltac:(lra) ltac:(lra) ltac:(lra)).
  pose proof (B ((1 + 2 / 3) * (1 + 2 / 3) + 1 / 4 + 1)%R 2%R 2.008%R ltac:(lra) ltac:(lra) ltac:(lra)).
  pose proof (B ((- (1) - 1 / 3) * (- (1) - 1 / 3) + 1 / 4 + 1)%R 1.74%R 1.741%R ltac:(lra) ltac:(lra) ltac:(lra)).
  pose proof (B ((- (1) + 2 / 3) * (- (1) + 2 / 3) + 1 / 4 + 1)%R 1.166%R 1.167%R ltac:(lra) ltac:(lra) ltac:(lra)).
  unfold Rdiv in *. lra.
Qed.

(** The gas and its fluxes. *)
Definition leak_prim (x k : Z) : iprim := IPrim (if x =? 0 then 1 / 10 else 1 / 5) 0 0.
Lemma slope_turn sd safe l p q : plm_slope sd safe l p q p = IPrim 0 0 0.
Proof.
  assert (Z : forall x y th, (plm_gradient false false false x y x th / spacing_at sd l = 0)%R).
  { intros x y th. assert (minabs ((y - x) * th) ((x - x) * 0.5) ((x - y) * th) = 0%R) as M.
    { replace ((x - x) * 0.5)%R with 0%R by ring. unfold minabs. rewrite Rabs_R0. pose proof (Rabs_pos ((y - x) * th)). pose proof (Rabs_pos ((x - y) * th)). unfold Rmin. repeat destruct (Rle_dec _ _); lra. }
    unfold plm_gradient. rewrite M. unfold Rdiv. ring. }
  unfold plm_slope. rewrite !Z. reflexivity.
Qed.
Lemma leak_slope_x sd safe x k : slope_x (plm_slope sd safe) 2 leak_prim x k = IPrim 0 0 0.
Proof.
  unfold slope_x. replace (leak_prim ((x + 1) mod 2) k) with (leak_prim ((x - 1) mod 2) k); [apply slope_turn|]. f_equal. replace (x + 1) with (x - 1 + 1 * 2) by lia. rewrite Z.mod_add by lia. reflexivity.
Qed.
Lemma leak_slope_y sd safe x k : slope_y (plm_slope sd safe) 2 leak_prim x k = IPrim 0 0 0.
Proof. unfold slope_y. apply slope_same. Qed.

Lemma rest_flux lin a l x s t (Hc : (0 < cs2_at_position (leak_sd lin) leak_pair x)%R) :
  d0 (flux_of (leak_sd lin) leak_pair a l x (IPrim s 0 0, IPrim t 0 0) (IPrim 0 0 0, IPrim 0 0 0) (IPrim 0 0 0, IPrim 0 0 0)) = ((s - t) * sqrt (cs2_at_position (leak_sd lin) leak_pair x) / 2)%R.
Proof.
  assert (H : d0 (intercell_flux_u (leak_sd lin) leak_pair a l x (IPrim s 0 0, IPrim t 0 0) (IPrim 0 0 0, IPrim 0 0 0) (IPrim 0 0 0, IPrim 0 0 0)) = ((s - t) * sqrt (cs2_at_position (leak_sd lin) leak_pair x) / 2)%R).
  { unfold intercell_flux_u, v3_add. cbn [d0 fst snd].
    replace (prim_add (IPrim s 0 0) (prim_mul (prim_mul (IPrim 0 0 0) 0.5) (spacing_at (leak_sd lin) l))) with (IPrim s 0 0) by (unfold prim_add, prim_mul; cbn [HydroModel.sigma HydroModel.vx HydroModel.vy]; f_equal; ring).
    replace (prim_sub (IPrim t 0 0) (prim_mul (prim_mul (IPrim 0 0 0) 0.5) (spacing_at (leak_sd lin) l))) with (IPrim t 0 0) by (unfold prim_sub, prim_mul; cbn [HydroModel.sigma HydroModel.vx HydroModel.vy]; f_equal; ring).
    set (c2 := cs2_at_position (leak_sd lin) leak_pair x) in *. pose proof (sqrt_lt_R0 c2 Hc) as Hp. unfold iso_hlle, hlle3, iso_flux, iso_conserved, iso_wavespeeds. cbn [d0 fst snd HydroModel.sigma].
    assert (V : forall q, iso_velocity_along (IPrim q 0 0) (axis_vector a) = 0%R) by (intros q; unfold iso_velocity_along, project; cbn; ring). rewrite !V.
    replace (d0 (viscous_flux _ _ _ _)) with 0%R by (unfold viscous_flux; destruct (a =? 0)%nat; reflexivity).
    set (c := sqrt c2) in *. replace (smax 0 (smax (0 + c) (0 + c))) with c by (unfold smax; repeat destruct (Rlt_dec _ _); lra). replace (smin 0 (smin (0 - c) (0 - c))) with (- c)%R by (unfold smin; repeat destruct (Rlt_dec _ _); lra).
    unfold hlle_component. field. lra. }
  unfold flux_of. destruct (conserve_linear_p _); [exact H|]. unfold intercell_flux_q, to_angmom_fluxes. cbn [d0]. exact H.
Qed.
Lemma leak_flux_x lin x k : fluxes_x 2 (leak_sd lin) false (flux_of (leak_sd lin) leak_pair) leak_prim x k =
  ((HydroModel.sigma (leak_prim ((x - 1) mod 2) k) - HydroModel.sigma (leak_prim (x mod 2) k)) * leak_c lin (IZR x - 1) (IZR k - 1 / 2) / 2)%R.
Proof.
  unfold fluxes_x, face_value, around. rewrite !leak_slope_x, !leak_slope_y. cbn [Nat.eqb]. replace (1 + x - 1) with x by lia.
  replace (loc_half (loc_add (vertex 0 (domain_radius (leak_sd lin)) 2 (root_index 2) x k) (vertex 0 (domain_radius (leak_sd lin)) 2 (root_index 2) x (1 + k)))) with (IZR x - 1, IZR k - 1 / 2)%R.
  2:{ unfold loc_half, loc_add, vertex, point_in, MeshSpec.place. cbn [Nat.eqb leak_sd domain_radius level root_index coords repeat nth pow Z.of_nat Z.mul fst snd]. rewrite plus_IZR. f_equal; field. }
  unfold leak_prim. rewrite rest_flux by apply leak_cs2_small. cbn [HydroModel.sigma].
  replace (snd (vertex 0 (domain_radius (leak_sd lin)) 2 (root_index 2) x (1 + k)) - snd (vertex 0 (domain_radius (leak_sd lin)) 2 (root_index 2) x k))%R with 1%R.
  2:{ unfold vertex, point_in, MeshSpec.place. cbn [Nat.eqb leak_sd domain_radius level root_index coords repeat nth pow Z.of_nat Z.mul fst snd]. rewrite plus_IZR. field. }
  unfold leak_c. field.
Qed.
Lemma leak_flux_y lin x k : fluxes_y 2 (leak_sd lin) false (flux_of (leak_sd lin) leak_pair) leak_prim x k = 0%R.
Proof.
  unfold fluxes_y, face_value, around, flip. rewrite !leak_slope_x, !leak_slope_y. unfold leak_prim. destruct (loc_half _) as [X Y]. rewrite rest_flux by apply leak_cs2_small. field.
Qed.

(** The pull of the gas on the bodies is small. *)
Lemma leak_center lin i j : cell_center 2 (leak_sd lin) (root_index 2) [i; j] = (IZR i - 1 / 2, IZR j - 1 / 2)%R.
Proof. unfold cell_center, point_in, MeshSpec.place. cbn [leak_sd domain_radius level root_index coords repeat nth pow Z.of_nat Z.mul]. f_equal; field. Qed.
Lemma pow32_small x : (1 <= x -> 0 < / pow32 x <= 1)%R.
Proof.
  intros H. assert (1 <= sqrt x)%R by (rewrite <- sqrt_1 at 1; apply sqrt_le_1; lra). assert (1 <= pow32 x)%R by (unfold pow32; nra).
  split; [apply Rinv_0_lt_compat; lra|]. rewrite <- Rinv_1 at 1. apply Rinv_le_contravar; lra.
Qed.
Lemma leak_booked lin B U I : (forall k, inb [2; 2] k -> U k = V3 (if nth 0 k 0 =? 0 then 1 / 10 else 1 / 5) 0 0) ->
  let t := tot_u 2 (leak_sd lin) leak_pair (cell_center 2 (leak_sd lin) (root_index 2)) (fun _ => cell_area 2 (leak_sd lin) (root_index 2)) B U I (1 / 4) in
  mass_accreted_on t = (0, 0)%R /\ (exists f g, integrated_force_x_on t = (f, g) /\ - (1 / 25) <= f <= 1 / 25 /\ - (1 / 20) <= g <= 1 / 20)%R /\ integrated_force_y_on t = (0, 0)%R /\
  ((forall k, inb [2; 2] k -> B k = 0%R) -> mass_ejected t = 0%R).
Proof.
  intros HU t. subst t. unfold tot_u, out. cbn [mass_accreted_on integrated_force_x_on integrated_force_y_on mass_ejected]. rewrite ex_cells. cbn [rsum map fold_right].
  rewrite !leak_center. rewrite !HU by (apply idxs_In; rewrite ex_cells; cbn; tauto). cbn [nth Z.eqb].
  unfold cell_area. cbn [leak_sd domain_radius level root_index pow]. unfold cell_sink, cell_pull, vec_mul, v3_mul, v3_neg, sink_rate_field, grav_vdot_field. cbn [d0 fst snd leak_pair body1 body2 px py mass leak_sd sink_rate sink_radius softening_radius].
  repeat match goal with |- context [pow32 ?x] => progress (first [replace x with (35 / 18)%R by field | replace x with (23 / 18)%R by field | replace x with (47 / 18)%R by field]) end.
  replace (2 * 1 / (2 * 1) * (2 * 1 / (2 * 1) * 1))%R with 1%R by field.
  assert (PN : forall x, (1 <= x -> pow32 x <> 0)%R) by (intros x Hx; pose proof (pow32_small x Hx); intros X; rewrite X, Rinv_0 in *; lra).
  split; [f_equal; ring|]. split; [|split; [f_equal; field; repeat split; apply PN; lra|intros HB; rewrite !HB by (apply idxs_In; rewrite ex_cells; cbn; tauto); unfold cell_buffer, v3_mul; cbn [d0]; ring]].
  pose proof (pow32_small (35 / 18) ltac:(lra)) as H1. pose proof (pow32_small (23 / 18) ltac:(lra)) as H2. pose proof (pow32_small (47 / 18) ltac:(lra)) as H3.
  do 2 eexists. split; [reflexivity|]. set (p1 := pow32 (35 / 18)) in *. set (p2 := pow32 (23 / 18)) in *. set (p3 := pow32 (47 / 18)) in *.
  assert (D : forall x p, (x / p = x * / p)%R) by reflexivity. rewrite !(D _ p1), !(D _ p2), !(D _ p3). lra.
Qed.

(** The run: it keeps a valid state, nothing is booked, and the disk loses mass. *)
Lemma leak_run lin : exists v c a s1, let fd := leak_fields (Leaf v) (Leaf c) (Leaf a) in setup 2 0 ex_none 2 (leak_sd lin) fd /\ valid 2 (leak_sd lin) fd (leak_state lin) /\ steps (leak_sd lin) fd 2 1 (leak_state lin) = Ok s1 /\
  s_mass_accreted_on s1 = (0, 0)%R /\ s_mass_ejected s1 = 0%R /\
  exists y Y, conserved (leak_sd lin) s1 = Leaf y /\ reps y [2; 2] Y /\ forall x k, 0 <= x < 2 -> 0 <= k < 2 -> d0 (Y [x; k]) =
    (if x =? 0 then 1 / 10 + (leak_c lin 0 (IZR k - 1 / 2) + leak_c lin (- (1)) (IZR k - 1 / 2)) / 80 else 1 / 5 - (leak_c lin 1 (IZR k - 1 / 2) + leak_c lin 0 (IZR k - 1 / 2)) / 80)%R.
Proof.
  destruct (leak_setup lin) as (v & c & a & HS). exists v, c, a. set (fd := leak_fields (Leaf v) (Leaf c) (Leaf a)) in *.
  assert (HC : conserved (leak_sd lin) (leak_state lin) = Leaf leak_gas) by (destruct lin; reflexivity).
  assert (RG : reps leak_gas [2; 2] (fun k => V3 (if nth 0 k 0 =? 0 then 1 / 10 else 1 / 5) 0 0)) by (split; [reflexivity|]; intros; reflexivity).
  assert (HM : on_mesh 2 (leak_sd lin) fd (leak_state lin)).
  { unfold on_mesh. rewrite HC. split; [constructor|]. constructor; [|constructor]. split; [reflexivity|]. intros k _. eexists. reflexivity. }
  assert (HD : densities 2 (conserved (leak_sd lin) (leak_state lin))).
  { rewrite HC. constructor; [|constructor]. intros k u _ E. injection E as <-. cbn [d0]. destruct (nth 0 k 0 =? 0); lra. }
  assert (HV : valid 2 (leak_sd lin) fd (leak_state lin)).
  { split; [exact HM|]. split; [exact HD|]. destruct lin; eexists; split; reflexivity. }
  destruct (recovered_cells 2 0 ex_none 2 (leak_sd lin) fd HS (leak_state lin) HM HD) as (p0 & Ep & Dp & Kp).
  pose proof (leak_bodies lin) as Eb.
  destruct (advance_form 2 0 ex_none 2 (leak_sd lin) fd HS (leak_state lin) (1 / 4) false leak_pair p0 HM Ep Dp Eb) as (z & Sz & Dz & Kz & EA).
  assert (exists y, z = Leaf y) as [y ->] by (inversion Sz; eauto). assert (exists q, p0 = Leaf q) as [q0 ->] by (destruct Dp as [SP _]; inversion SP; eauto).
  destruct (Kz (root_index 2) y (leaf_root y)) as (q & br & ui & B & U & I & F & Nq & Nb & Ni & Rq & Rb & Ri & RF & EF & T).
  assert (HU : forall k, inb [2; 2] k -> U k = V3 (if nth 0 k 0 =? 0 then 1 / 10 else 1 / 5) 0 0).
  { intros k Hk. rewrite HC in Nq. pose proof (is_node_unique _ _ _ _ Nq (leaf_root leak_gas)) as X. injection X as ->. pose proof (proj2 Rq k Hk) as E1. injection E1 as E1. symmetry. exact E1. }
  assert (HB : forall k, inb [2; 2] k -> B k = 0%R).
  { intros k Hk. pose proof (is_node_unique _ _ _ _ Nb (leaf_root ex_still)) as X. injection X as ->. pose proof (proj2 Rb k Hk) as E1. injection E1 as <-. reflexivity. }
  destruct (leak_booked lin B U I HU) as (T1 & (f & g & T2 & Hf & Hg) & T3 & T7). specialize (T7 HB). cbv zeta in T. rewrite T1, T2, T3, T7 in T. destruct T as (T4 & T5 & T6 & _ & _ & T8).
  assert (RP : rep2 0 q0 2 2 leak_prim).
  { rewrite HC in Kp. destruct (Kp (root_index 2) leak_gas _ (leaf_root leak_gas) RG) as (y' & Ny & Ry). pose proof (is_node_unique _ _ _ _ Ny (leaf_root q0)) as X. injection X as ->.
    pose proof (reps_rep2 0 q0 2 2 _ ltac:(lia) Ry) as R2. eapply rep2_ext; [exact R2|]. intros x k Hx Hk. unfold prim_at, leak_prim. cbn [leak_sd conserve_linear_p d0 d1 d2]. change (face 0 x k) with [x; k]. cbn [nth]. cbv zeta. unfold Rdiv. destruct lin; f_equal; ring. }
  rewrite HC in EA. cbn [tmap] in EA.
  destruct (one_update 2 0 ex_none 2 (leak_sd lin) fd HS v eq_refl false (flux_of (leak_sd lin) leak_pair) q0 leak_gas (fst y) leak_prim _ F (1 / 4) Dp RP RG RF) as (u1 & Y & EU & Du & RY & HY).
  rewrite EU in EA. cbn [bind] in EA. change (tsum no_totals totals_add (Leaf (snd y))) with (snd y) in EA.
  assert (HY' : forall x k, 0 <= x < 2 -> 0 <= k < 2 -> d0 (Y [x; k]) =
    (if x =? 0 then 1 / 10 + (leak_c lin 0 (IZR k - 1 / 2) + leak_c lin (- (1)) (IZR k - 1 / 2)) / 80 else 1 / 5 - (leak_c lin 1 (IZR k - 1 / 2) + leak_c lin 0 (IZR k - 1 / 2)) / 80)%R).
  { intros x k Hx Hk. rewrite HY by assumption. rewrite EF, HU, HB by (repeat constructor; lia). rewrite !leak_flux_y, !leak_flux_x. unfold cell_area. cbn [leak_sd domain_radius level root_index pow].
    unfold mass_source, cell_sink, cell_buffer, v3_mul, v3_neg, v3_sub, sink_rate_field, floor_term. cbn [d0 leak_pair body1 body2 px py leak_sd sink_rate sink_radius density_floor fst snd nth].
    assert (x = 0 \/ x = 1) as [->| ->] by lia; cbn [Z.eqb]; [destruct (Rlt_dec (1 / 10) 0) as [X|_]; [lra|]|destruct (Rlt_dec (1 / 5) 0) as [X|_]; [lra|]].
    - change ((1 + 0 - 1) mod 2) with 0. change ((1 + 0) mod 2) with 1. change ((0 - 1) mod 2) with 1. change (0 mod 2) with 0. unfold leak_prim. cbn [Z.eqb HydroModel.sigma]. change (1 + 0) with 1.
      replace (1 - 1)%R with 0%R by ring. replace (0 - 1)%R with (- (1))%R by ring. destruct (conserve_linear_p _); unfold v3_mul; cbn [d0]; field.
    - change ((1 + 1 - 1) mod 2) with 1. change ((1 + 1) mod 2) with 0. change ((1 - 1) mod 2) with 0. change (1 mod 2) with 1. unfold leak_prim. cbn [Z.eqb HydroModel.sigma]. change (1 + 1) with 2.
      replace (2 - 1)%R with 1%R by ring. replace (1 - 1)%R with 0%R by ring. destruct (conserve_linear_p _); unfold v3_mul; cbn [d0]; field. }
  destruct (leak_bound 0 (1 / 3) 0 (- (2 / 3))) as [e1 E1]; [lra|].
  destruct (leak_bound (0 + f / (2 / 3)) (1 / 3) (0 + g / (1 / 3)) (- (2 / 3))) as [e2 E2]; [assert (- (1 / 4) <= 0 + f / (2 / 3) - (0 + g / (1 / 3)) <= 1 / 4)%R by lra; nra|].
  assert (EB : exists s1, booked_solution (leak_sd lin) (leak_state lin) leak_pair (snd y) (used (leak_sd lin) (Leaf u1)) (used_q (leak_sd lin) (Leaf u1)) (1 / 4) = Ok s1 /\ s_mass_accreted_on s1 = (0, 0)%R /\ s_mass_ejected s1 = 0%R).
  { unfold booked_solution. unfold bodies_acc, bodies_grv, accreted_body, pulled_body. rewrite T4, T5, T6. cbn [leak_pair body1 body2 mass px py TwoBodyModel.vx TwoBodyModel.vy fst snd leak_sd no_accretion_force leak_state time].
    rewrite !Rplus_0_r. rewrite E1. bsimp.
    replace (1 / 3 + 0 / (2 / 3))%R with (1 / 3)%R by field. replace (- (2 / 3) + 0 / (1 / 3))%R with (- (2 / 3))%R by field.
    rewrite E2. bsimp. eexists. split; [reflexivity|]. cbn [s_mass_accreted_on s_mass_ejected]. unfold two_add, leak_state. cbn [fst snd s_mass_accreted_on s_mass_ejected]. split; [rewrite !Rplus_0_l; reflexivity|]. rewrite T8. ring. }
  destruct EB as (s1 & EB & M1 & M2). exists s1. rewrite EB in EA. cbn [bind] in EA. cbv zeta. fold fd.
  split; [exact HS|]. split; [exact HV|]. assert (DN : densities 2 (Leaf u1)).
  { constructor; [|constructor]. intros k u Hk Eu. rewrite (proj2 RY k Hk) in Eu. apply ok_inj in Eu. subst u. change [2; 2] with (face 0 2 2) in Hk. destruct (inb_face 0 2 2 k ltac:(lia) Hk) as (x & j & -> & Hx & Hj). change (face 0 x j) with [x; j].
    rewrite HY' by assumption. pose proof (leak_c_small lin 0 (IZR j - 1 / 2)). pose proof (leak_c_small lin (- (1)) (IZR j - 1 / 2)). pose proof (leak_c_small lin 1 (IZR j - 1 / 2)). destruct (x =? 0); lra. }
  assert (EC1 : conserved (leak_sd lin) s1 = Leaf u1).
  { destruct (booked_fields _ _ _ _ _ _ _ _ EB) as (_ & F1 & F2 & _). unfold conserved, used, used_q in *. destruct (conserve_linear_p (leak_sd lin)); assumption. }
  unfold steps, next_solution. cbn [leak_sd fixed_dt recommended_time_step bind]. unfold can_fail. cbn [leak_sd rk_order Z.eqb Pos.eqb].
  destruct (checked 2 0 ex_none 2 (leak_sd lin) fd HS (Leaf u1) s1 Du) as [[_ EC]|[X _]]; [|contradiction]. rewrite EC in EA. fold (leak_sd lin). rewrite EA. repeat (split; [first [reflexivity | assumption]|]).
  exists u1, Y. repeat (split; [assumption|]). exact HY'.
Qed.

(** With the default sound speed the mass of the gas and the bodies' books do not add up to a constant, even with no sinks,
    no buffer, no floor and no viscosity: the periodic edge is crossed by unequal fluxes. *)
Theorem mass_run_refuted lin : exists fd s s1, setup 2 0 ex_none 2 (leak_sd lin) fd /\ valid 2 (leak_sd lin) fd s /\ axisymmetric_cs2 (leak_sd lin) = false /\
  steps (leak_sd lin) fd 2 1 s = Ok s1 /\ s_mass_accreted_on s1 = (0, 0)%R /\ s_mass_ejected s1 = 0%R /\
  (mass_ledger 2 (leak_sd lin) fd s1 < mass_ledger 2 (leak_sd lin) fd s)%R.
Proof.
  destruct (leak_run lin) as (v & c & a & s1 & HS & HV & ES & M1 & M2 & y & Y & EC & RY & HY). set (fd := leak_fields (Leaf v) (Leaf c) (Leaf a)) in *.
  exists fd, (leak_state lin), s1. do 2 (split; [assumption|]). split; [reflexivity|]. do 3 (split; [assumption|]).
  destruct (shapes 2 0 ex_none 2 (leak_sd lin) fd HS) as (_ & _ & L). destruct (L (root_index 2) v (leaf_root v)) as (a' & _ & Na & _ & Ra & _).
  pose proof (is_node_unique _ _ _ _ Na (leaf_root a)) as X. injection X as ->.
  unfold mass_ledger. rewrite EC, M1, M2. replace (conserved (leak_sd lin) (leak_state lin)) with (Leaf leak_gas) by (destruct lin; reflexivity).
  change (cell_areas fd) with (Leaf a). unfold held, both. cbn [fst snd leak_state s_mass_accreted_on s_mass_ejected]. rewrite ex_cells. cbn [leaves combine rsum map fold_right fst snd]. unfold reading.
  rewrite !(proj2 Ra), !(proj2 RY) by (apply idxs_In; rewrite ex_cells; cbn; tauto). cbn [leak_gas aget nth Z.eqb d0]. rewrite !HY by lia. cbn [Z.eqb]. unfold cell_area. cbn [leak_sd domain_radius level root_index pow].
  replace (2 * 1 / (2 * 1) * (2 * 1 / (2 * 1) * 1))%R with 1%R by field.
  pose proof (leak_uneven lin (0 - 1 / 2) ltac:(lra)). pose proof (leak_uneven lin (1 - 1 / 2) ltac:(lra)). lra.
Qed.
Print Assumptions mass_run_refuted.
