(** C91: a uniform gas at rest in the cloud program (src/subprog_cloud.cpp 439-585). *)
From Coq Require Import ZArith Reals List Lia Lra Bool.
From Verif Require Import Base NdModel NdSpec NdProofs NdOpsModel NdOpsProofs2 DimensionalModel HydroModel HlleProofs SrhdProps SrhdRecoverProps HlleProps PlmModel SedovModel Rep1Proofs SedovProofs SedovProps Rep2Proofs CloudModel CloudProofs CloudProofs2 CloudProps CloudSetupProps.
Import ListNotations.
Open Scope R_scope.

(** *** Statements *)
(** The contents of the cells of a gas that has the density d and the pressure p everywhere and does not move. *)
Definition resting (d p : R) (X Q : Z -> R) (i j : Z) : v5 :=
  times5 (srhd_conserved (Prim d 0 0 0 p) (4 / 3)) (2 * PI / 3 * (X (i + 1)%Z ^ 3 - X i ^ 3) * (cos (Q j) - cos (Q (j + 1)%Z))).

(** *** Proofs *)
Lemma floor_passes U g floor P : srhd_recover U g 0 = Ok P -> floor * rho P <= pre P -> srhd_recover U g floor = Ok P.
Proof.
  unfold srhd_recover. cbv zeta. destruct (newton 50 _ _ _ _ _) as [[W p]|]; [|discriminate]. destruct (Rlt_dec 0 0) as [|_]; [lra|]. cbn [rho pre].
  destruct (Rle_dec (c0 U / W) 0) as [|HD]; [discriminate|]. destruct (Rle_dec p 0) as [|HP]; [discriminate|]. intros E. injection E as <-. cbn [rho pre]. intros F.
  assert (EP : (if Rlt_dec 0 floor then smax p (floor * c0 U / W) else p) = p).
  { destruct (Rlt_dec 0 floor); [|reflexivity]. unfold smax. destruct (Rlt_dec p (floor * c0 U / W)) as [L|]; [|reflexivity]. unfold Rdiv in *. lra. }
  rewrite EP. destruct (Rle_dec (c0 U / W) 0); [contradiction|]. destruct (Rle_dec p 0); [contradiction|]. reflexivity.
Qed.
Lemma no_gradient theta y : estimate_gradient theta y y y = 0.
Proof. unfold estimate_gradient, plm_gradient. cbv zeta. assert (E : minabs ((y - y) * theta) ((y - y) * 0.5) ((y - y) * theta) = 0). { unfold minabs. replace (y - y) with 0 by ring. rewrite !Rmult_0_l, Rabs_R0. unfold Rmin. repeat destruct (Rle_dec _ _); reflexivity. } rewrite E. ring. Qed.
Lemma uniform_face c L k i A : (reconstruct_method c = 1 \/ reconstruct_method c = 2)%Z -> (0 <= i < k - 1)%Z ->
  (forall x, (i + 1 - reconstruct_method c <= x <= i + reconstruct_method c)%Z -> (0 <= x < k)%Z -> L x = A) -> face_states c L k i = (A, A).
Proof.
  intros HM Hi HL. unfold face_states. destruct HM as [E|E]; rewrite E in *; cbn [Z.eqb Pos.eqb].
  - unfold pcm_states. rewrite (HL i), (HL (1 + i)%Z) by lia. reflexivity.
  - assert (G : forall x, (x = i \/ x = 1 + i)%Z -> line_gradient (plm_theta c) L k x = zero_prim).
    { intros x Hx. unfold line_gradient. destruct (Z.eqb_spec x 0); [reflexivity|]. destruct (Z.eqb_spec x (k - 1)); [reflexivity|]. cbn [orb]. rewrite (HL (x - 1)%Z), (HL x), (HL (1 + x)%Z) by lia. unfold lift3. rewrite !no_gradient. reflexivity. }
    unfold plm_states. rewrite (G i), (G (1 + i)%Z) by tauto. rewrite (HL i), (HL (1 + i)%Z) by lia. destruct A as [a b c' e f]. unfold prim_plus, prim_minus, prim_times, zero_prim. cbn [rho u1 u2 u3 pre]. f_equal; f_equal; ring.
Qed.
Lemma resting_flux d p axis : 0 < d -> 0 < p -> (axis = 0 \/ axis = 1)%nat -> srhd_hlle (Prim d 0 0 0 p) (Prim d 0 0 0 p) (CloudModel.on_axis axis) gamma_law_index = V5 0 (if (axis =? 0)%nat then p else 0) (if (axis =? 0)%nat then 0 else p) 0 0.
Proof.
  intros Hd Hp HA. rewrite srhd_hlle_consistent.
  - unfold srhd_physical_flux, srhd_flux, flux5, srhd_conserved, beta_along, project. destruct HA as [-> | ->]; cbn [CloudModel.on_axis Nat.eqb c0 c1 c2 c3 c4 n1 n2 n3 make_unit_vector rho u1 u2 u3 pre]; f_equal; unfold Rdiv; ring.
  - unfold relativistic, gamma_law_index. cbn [rho pre]. lra.
  - destruct HA as [-> | ->]; unfold unit_norm; simpl; ring.
Qed.
(** The cosines and sines of the two faces of a cell. *)
Lemma polar_identity a b : sin ((a + b) / 2) <> 0 -> (cos a - cos b) * tan (PI / 2 - (a + b) / 2) = sin b - sin a.
Proof.
  intros HS. unfold tan. rewrite sin_shift, cos_shift. set (x := (a + b) / 2) in *. set (y := (b - a) / 2). replace a with (x - y) by (unfold x, y; field). replace b with (x + y) by (unfold x, y; field).
  rewrite cos_minus, cos_plus, sin_plus, sin_minus. field. exact HS.
Qed.
(** A uniform gas at rest does not stay at rest: away from the inflow (two rows of cells with the second reconstruction, one with the
    first), each step pushes every cell outward, and toward the equator or the pole, by the third power of its width.  Mass and
    energy do not change. *)
Theorem cloud_still_gas_is_driven c fuel n m X Q s d p : good_cloud c -> sizes fuel n m -> method_ok c m -> spherical n m X Q -> rk_order c = 1%Z ->
  0 < d -> 0 < p -> temperature_floor c * d <= p -> on_grid s n m X Q (resting d p X Q) ->
  exists s' U', next_solution c fuel s = Ok s' /\ on_grid s' n m X Q U' /\ forall i j, (reconstruct_method c <= i < n)%Z -> (0 <= j < m)%Z ->
    let dt := cfl c * (X 1%Z - X 0%Z) in let w := X (i + 1)%Z - X i in
    c0 (U' i j) = c0 (resting d p X Q i j) /\ c4 (U' i j) = c4 (resting d p X Q i j) /\ c3 (U' i j) = 0 /\
    c1 (U' i j) = dt * (2 * PI * p * (cos (Q j) - cos (Q (j + 1)%Z)) * w ^ 3 / (3 * (X i + X (i + 1)%Z))) /\
    c2 (U' i j) = dt * (PI * p * (sin (Q (j + 1)%Z) - sin (Q j)) * w ^ 3 / (3 * (X i + X (i + 1)%Z))) /\
    (0 < cfl c -> 0 < c1 (U' i j)).
Proof.
  intros G HS HM SP RK Hd Hp HF HU. pose proof HS as (Hn & Hm & _). pose proof (radii_positive n m X Q SP) as PX. pose proof (angles_ordered n m X Q SP ltac:(lia)) as PQ. pose proof SP as (_ & HX & Q0 & QM & HQ).
  pose proof PI_RGT_0 as PP. destruct (sizes_fit _ _ _ HS) as (SB & _).
  assert (COS : forall j, (0 <= j < m)%Z -> 0 < cos (Q j) - cos (Q (j + 1)%Z)).
  { intros j Hj. pose proof (PQ j ltac:(lia)). pose proof (PQ (j + 1)%Z ltac:(lia)). pose proof (HQ j Hj). assert (cos (Q (j + 1)%Z) < cos (Q j)) by (apply cos_decreasing_1; lra). lra. }
  assert (V : forall i j, vol X Q i j = 2 * PI / 3 * (X (i + 1)%Z ^ 3 - X i ^ 3) * (cos (Q j) - cos (Q (j + 1)%Z))) by (intros i j; unfold vol; rewrite (Z.add_comm 1 i), (Z.add_comm 1 j); field).
  assert (VP : forall i j, (0 <= i < n)%Z -> (0 <= j < m)%Z -> 0 < vol X Q i j).
  { intros i j Hi Hj. rewrite V. apply Rmult_lt_0_compat; [|apply COS, Hj]. apply Rmult_lt_0_compat; [lra|]. pose proof (PX i ltac:(lia)). pose proof (HX i Hi). set (x := X i) in *. set (y := X (i + 1)%Z) in *. replace (y ^ 3 - x ^ 3) with ((y - x) * (y * y + x * y + x * x)) by ring. apply Rmult_lt_0_compat; [lra|]. assert (0 < x * x) by (apply Rmult_lt_0_compat; lra). assert (0 < x * y) by (apply Rmult_lt_0_compat; lra). assert (0 < y * y) by (apply Rmult_lt_0_compat; lra). lra. }
  assert (RC : recovered c n m X Q (resting d p X Q) (fun _ _ => Prim d 0 0 0 p)).
  { intros i j Hi Hj. apply floor_passes; [|exact HF]. rewrite <- (recover_static_exact (Prim d 0 0 0 p) gamma_law_index 0); [|unfold relativistic, gamma_law_index; cbn [rho pre]; lra|reflexivity..|lra]. f_equal.
    pose proof (VP i j Hi Hj). unfold resting. rewrite <- V. change (4 / 3) with gamma_law_index. destruct (srhd_conserved (Prim d 0 0 0 p) gamma_law_index) as [x0 x1 x2 x3 x4]. unfold over5, times5. cbn [c0 c1 c2 c3 c4]. f_equal; field; lra. }
  destruct HU as (U1 & U2 & U3).
  destruct (advance_value c fuel n m X Q (units_of c) (time s) (fun _ _ => Prim d 0 0 0 p) (resting d p X Q) (step_of c X) s s HS HM (reference_units _ G) U2 eq_refl U1 U2 U3 RC) as (u & E & R).
  eexists _, _. split; [|split].
  - unfold CloudModel.next_solution. rewrite (time_step_value c n m X Q s _ Hn ltac:(lia) (conj U1 (conj U2 U3))). bsimp. rewrite RK. cbn [Z.eqb Pos.eqb]. exact E.
  - split; [exact U1|]. split; [exact U2|]. exact R.
  - intros i j Hi Hj. cbv zeta. fold (step_of c X). assert (HM' : (reconstruct_method c = 1 \/ reconstruct_method c = 2)%Z) by (destruct HM as [[]|[]]; tauto). assert (Hi' : (0 <= i < n)%Z) by lia.
    assert (FR : forall f, (f = i \/ f = 1 + i)%Z -> flux_r c n Q (units_of c) (time s) (fun _ _ => Prim d 0 0 0 p) f j = V5 0 p 0 0 0).
    { intros f Hf. unfold flux_r. rewrite (uniform_face c _ _ f (Prim d 0 0 0 p) HM'); [apply (resting_flux d p 0); tauto|lia|]. intros x Hx Hk. unfold extended. destruct (Z.ltb_spec x 1); [lia|]. destruct (x <? n + 1)%Z; reflexivity. }
    assert (FQ : forall f, (0 < f < m)%Z -> flux_q c m (fun _ _ => Prim d 0 0 0 p) i f = V5 0 0 p 0 0).
    { intros f Hf. unfold flux_q. destruct (Z.eqb_spec f 0); [lia|]. destruct (Z.eqb_spec f m); [lia|]. cbn [orb]. rewrite (uniform_face c _ _ (f - 1) (Prim d 0 0 0 p) HM'); [apply (resting_flux d p 1); tauto|lia|]. reflexivity. }
    assert (TQ : forall f, (0 <= f <= m)%Z -> times5 (flux_q c m (fun _ _ => Prim d 0 0 0 p) i f) (- area_q X Q i f) = V5 0 0 (- (PI * p * (X (i + 1)%Z ^ 2 - X i ^ 2) * sin (Q f))) 0 0).
    { intros f Hf. unfold area_q, center_r. rewrite (Z.add_comm 1 i). replace 0.5 with (/ 2) by lra. destruct (Z.eq_dec f 0) as [-> |N0]; [|destruct (Z.eq_dec f m) as [-> |N1]].
      - rewrite Q0, sin_0. unfold times5. f_equal; ring.
      - rewrite QM, sin_PI. unfold times5. f_equal; ring.
      - rewrite FQ by lia. unfold times5. cbn [c0 c1 c2 c3 c4]. f_equal; field. }
    assert (N : next_of c n m X Q (units_of c) (time s) (fun _ _ => Prim d 0 0 0 p) (resting d p X Q) (step_of c X) i j =
      plus5 (resting d p X Q i j) (V5 0 (step_of c X * (2 * PI * p * (cos (Q j) - cos (Q (j + 1)%Z)) * (X (i + 1)%Z - X i) ^ 3 / (3 * (X i + X (i + 1)%Z))))
         (step_of c X * (PI * p * (sin (Q (j + 1)%Z) - sin (Q j)) * (X (i + 1)%Z - X i) ^ 3 / (3 * (X i + X (i + 1)%Z)))) 0 0)).
    { unfold next_of, rate_of. rewrite !TQ by lia. rewrite (FR i), (FR (1 + i)%Z) by tauto. rewrite V. unfold source_of, srhd_source. cbv zeta. cbn [u1 u2 u3 pre]. set (H := enthalpy_density _ _). clearbody H.
      assert (CQ : center_q Q j = (Q j + Q (j + 1)%Z) / 2) by (unfold center_q; rewrite (Z.add_comm 1 j); lra). assert (CR : center_r X i = (X i + X (i + 1)%Z) / 2) by (unfold center_r; rewrite (Z.add_comm 1 i); lra). rewrite CQ, CR.
      pose proof (PX i ltac:(lia)) as P0. pose proof (PX (i + 1)%Z ltac:(lia)) as P1. pose proof (PQ j ltac:(lia)). pose proof (PQ (j + 1)%Z ltac:(lia)). pose proof (HQ j Hj).
      assert (SN : sin ((Q j + Q (j + 1)%Z) / 2) <> 0) by (apply Rgt_not_eq, sin_gt_0; lra). pose proof (polar_identity _ _ SN) as PI2. set (T := tan _) in *. clearbody T.
      unfold area_r. rewrite (Z.add_comm 1 i), (Z.add_comm 1 j) in *. set (x0 := X i) in *. set (x1 := X (i + 1)%Z) in *. set (C := cos (Q j) - cos (Q (j + 1)%Z)) in *. replace 2.0 with 2 by lra.
      unfold plus5, minus5, times5. cbn [c0 c1 c2 c3 c4]. clearbody x0 x1 C. f_equal; f_equal; try (field; lra). assert (SB' : sin (Q (j + 1)%Z) = C * T + sin (Q j)) by lra. rewrite SB'. field. lra. }
    rewrite N. unfold plus5. cbn [c0 c1 c2 c3 c4]. unfold resting. unfold times5. cbn [c0 c1 c2 c3 c4].
    assert (Z1 : c1 (srhd_conserved (Prim d 0 0 0 p) (4 / 3)) = 0) by (unfold srhd_conserved; cbn [c1 u1]; ring). assert (Z2 : c2 (srhd_conserved (Prim d 0 0 0 p) (4 / 3)) = 0) by (unfold srhd_conserved; cbn [c2 u2]; ring). assert (Z3 : c3 (srhd_conserved (Prim d 0 0 0 p) (4 / 3)) = 0) by (unfold srhd_conserved; cbn [c3 u3]; ring).
    rewrite Z1, Z2, Z3. split; [ring|]. split; [ring|]. split; [ring|]. split; [ring|]. split; [ring|]. intros HC. rewrite Rmult_0_l, Rplus_0_l. pose proof (PX i ltac:(lia)) as P0. pose proof (PX (i + 1)%Z ltac:(lia)) as P1. pose proof (HX i Hi') as P2. pose proof (COS j Hj) as P3. pose proof (HX 0%Z ltac:(lia)) as P4. change (0 + 1)%Z with 1%Z in P4.
    apply Rmult_lt_0_compat; [unfold step_of; apply Rmult_lt_0_compat; lra|]. apply Rdiv_lt_0_compat; [|lra]. apply Rmult_lt_0_compat; [|apply pow_lt; lra]. apply Rmult_lt_0_compat; [|exact P3]. apply Rmult_lt_0_compat; lra.
Qed.

(** *** Example *)
(** Two shells between 1, 2 and 3, two zones: the zones of the outer shell gain the radial momentum 0.4 * 2 pi / 15. *)
Example cloud_still_example : exists s' U', next_solution demo 12 (Solution 0 (vector 3 demo_X) (vector 3 demo_Q) (table 2 2 (resting 1 1 demo_X demo_Q))) = Ok s' /\ on_grid s' 2 2 demo_X demo_Q U' /\
  c1 (U' 1%Z 0%Z) = 4 / 10 * (2 * PI / 15) /\ c2 (U' 1%Z 0%Z) = 4 / 10 * (PI / 15) /\ c0 (U' 1%Z 0%Z) = 2 * PI / 3 * 19.
Proof.
  assert (SP : spherical 2 2 demo_X demo_Q). { unfold spherical, demo_X, demo_Q. pose proof PI_RGT_0. repeat split; try (cbn [Z.add Pos.add]; lra); intros k Hk; rewrite ?plus_IZR; try lra. }
  destruct (cloud_still_gas_is_driven demo 12 2 2 demo_X demo_Q (Solution 0 (vector 3 demo_X) (vector 3 demo_Q) (table 2 2 (resting 1 1 demo_X demo_Q))) 1 1) as (s' & U' & E & R & F); try lra; try assumption; try reflexivity.
  - apply demo_good.
  - unfold sizes; lia.
  - left. split; [reflexivity|lia].
  - cbn [temperature_floor demo]. lra.
  - split; [apply vector_rep|]. split; [apply vector_rep|]. apply table_grid.
  - exists s', U'. split; [exact E|]. split; [exact R|]. destruct (F 1%Z 0%Z ltac:(cbn; lia) ltac:(lia)) as (F0 & _ & _ & F1 & F2 & _). rewrite F0, F1, F2. unfold resting, srhd_conserved, lorentz_factor, gamma_beta_squared, times5. cbn [c0 c1 c2 c3 c4 rho u1 u2 u3 pre cfl demo]. unfold demo_X, demo_Q. cbn [Z.add Pos.add].
    replace (0 * (PI / 2)) with 0 by ring. replace (1 * (PI / 2)) with (PI / 2) by ring. rewrite cos_0, sin_0, cos_PI2, sin_PI2. replace (1 + (0 * 0 + 0 * 0 + 0 * 0)) with 1 by ring. rewrite ?sqrt_1. split; [field|]. split; [field|]. field.
Qed.
Print Assumptions cloud_still_gas_is_driven.
