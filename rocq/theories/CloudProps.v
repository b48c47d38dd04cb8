(** C87, C88: mass and energy of the cloud program, and what its jet injects (src/subprog_cloud.cpp 466-698). *)
From Coq Require Import ZArith Reals List Lia Lra Bool.
From Verif Require Import Base NdModel NdSpec NdProofs NdOpsModel NdOpsProofs2 DimensionalModel HydroModel HlleProofs SrhdProps HlleProps SrhdRecoverProps PlmModel SedovModel Rep1Proofs SedovProofs SedovProps Rep2Proofs CloudModel CloudProofs CloudProofs2.
From Verif Require JetModel JetProps AtmosphereModel AtmosphereProps.
Import ListNotations.
Open Scope R_scope.

(** *** Statements *)
(** The part of the sphere of radius X i between the polar angles Q j and Q (j + 1). *)
Definition zone_area (X Q : Z -> R) (i j : Z) : R := 2 * PI * X i ^ 2 * (cos (Q j) - cos (Q (j + 1)%Z)).
(** What leaves through the outer face when the outermost cells are in the states P: f is the flux of a state. *)
Definition leaving (f : prim -> R) (n m : Z) (X Q : Z -> R) (P : Z -> Z -> prim) : R := rsum (fun j => zone_area X Q n j * f (P (n - 1)%Z j)) m.
(** What enters through the inner face; [face j] is the flux through the j-th inner face. *)
Definition entering (face : Z -> R) (m : Z) (X Q : Z -> R) : R := rsum (fun j => zone_area X Q 0 j * face j) m.
(** The gas that flows in at the polar angle q (t is the code time): density of the jet base, the two jets' gamma-beta
    added, no pressure. *)
Definition jet_state (c : config) (ref : unit_system) (t q : R) : prim :=
  let j := JetModel.Jet (jet_total_energy c) (jet_gamma_beta c) (jet_duration c) (jet_opening_angle c) (jet_structure_exp c) (inner_radius c) in
  let T := t * u_time ref in
  Prim (JetModel.density_at_base j * u_length ref ^ 3 / u_mass ref) (JetModel.gamma_beta j q T + JetModel.gamma_beta j (PI - q) T) 0 0 0.
Definition middle_angle (Q : Z -> R) (j : Z) : R := (Q j + Q (j + 1)%Z) / 2.
(** The flux through the inner face j: between the jet and the state of the gas at the face. *)
Definition inner_face (cfg : config) (n : Z) (Q : Z -> R) (ref : unit_system) (t : R) (P : Z -> Z -> prim) (j : Z) : v5 :=
  srhd_hlle (jet_state cfg ref t (middle_angle Q j)) (inner_state cfg n Q ref t P j) (make_unit_vector 1 0 0) (4 / 3).
Definition average_density (X Q : Z -> R) (U : Z -> Z -> v5) (i j : Z) : v5 :=
  let V := 2 * PI / 3 * (X (i + 1)%Z ^ 3 - X i ^ 3) * (cos (Q j) - cos (Q (j + 1)%Z)) in
  V5 (c0 (U i j) / V) (c1 (U i j) / V) (c2 (U i j) / V) (c3 (U i j) / V) (c4 (U i j) / V).
(** Every cell holds a gas, and P are the states. *)
Definition gas_of (cfg : config) (n m : Z) (X Q : Z -> R) (U : Z -> Z -> v5) (P : Z -> Z -> prim) : Prop :=
  forall i j, (0 <= i < n)%Z -> (0 <= j < m)%Z -> srhd_recover (average_density X Q U i j) (4 / 3) (temperature_floor cfg) = Ok (P i j) /\ gas (P i j).
(** The gas moves outward faster than sound. *)
Definition outgoing (P : prim) : Prop :=
  gas P /\ 0 <= u1 P /\ let cs2 := 4 / 3 * pre P / (rho P + 4 * pre P) in cs2 <= u1 P ^ 2 * (1 - cs2).

(** *** Proofs *)
Lemma area_spec X Q i j : area_r X Q i j = zone_area X Q i j.
Proof. unfold area_r, zone_area. rewrite (Z.add_comm 1 j). ring. Qed.
Lemma nozzle_spec cfg Q ref t j : u_length ref <> 0 -> u_mass ref <> 0 -> nozzle cfg Q ref t j = jet_state cfg ref t (middle_angle Q j).
Proof.
  intros A B. unfold nozzle, inflow, jet_state, middle_angle, center_q, make_jet_nozzle_model, mass_density. cbv zeta. rewrite (Z.add_comm 1 j). replace 0.5 with (/ 2) by lra.
  replace ((Q j + Q (j + 1)%Z) * / 2) with ((Q j + Q (j + 1)%Z) / 2) by reflexivity. f_equal. field. split; assumption.
Qed.
Lemma density_spec X Q U i j : over5 (U i j) (vol X Q i j) = average_density X Q U i j.
Proof. unfold over5, average_density. cbv zeta. replace (vol X Q i j) with (2 * PI / 3 * (X (i + 1)%Z ^ 3 - X i ^ 3) * (cos (Q j) - cos (Q (j + 1)%Z))); [reflexivity|]. unfold vol. rewrite (Z.add_comm 1 i), (Z.add_comm 1 j). field. Qed.
(** The configurations for which the program has units: lengths in inner radii, masses in cloud masses, times in light
    crossing times of the inner radius. *)
Definition good_cloud (c : config) : Prop := 0 < inner_radius c < cloud_cutoff c /\ density_index c < 3 < density_index2 c /\ 0 < cloud_mass c.
Definition units_of (c : config) : unit_system := Units (inner_radius c) (cloud_mass c * (1989 * 10 ^ 30)) (inner_radius c / 29980000000).
Lemma reference_units c : good_cloud c -> make_reference_units c = Ok (units_of c).
Proof.
  intros ((A & B) & (C & D) & E). unfold make_reference_units, make_atmosphere_model.
  destruct (AtmosphereProps.with_total_mass_from_default (AtmosphereModel.with_outer_index (AtmosphereModel.with_inner_index (AtmosphereModel.with_cutoff_radius (AtmosphereModel.with_inner_radius
       AtmosphereModel.default_atmosphere (inner_radius c)) (cloud_cutoff c)) (density_index c)) (density_index2 c)) (cloud_mass c * solar_mass_cgs)) as (a' & EA & ET & _); [exact A|exact B|exact C|exact D|reflexivity|].
  rewrite EA. bsimp. rewrite ET. bsimp. f_equal. unfold units_of. unfold AtmosphereModel.with_total_mass in EA. apply bind_ok_inv in EA as (t & _ & EA). injection EA as <-. reflexivity.
Qed.
Lemma units_nonzero c : good_cloud c -> u_length (units_of c) <> 0 /\ u_mass (units_of c) <> 0.
Proof.
  intros ((A & B) & _ & E). unfold units_of. cbn [u_length u_mass]. assert (0 < 1989 * 10 ^ 30) by (apply Rmult_lt_0_compat; [lra|apply pow_lt; lra]). assert (0 < cloud_mass c * (1989 * 10 ^ 30)) by (apply Rmult_lt_0_compat; assumption).
  split; intros Z; lra.
Qed.
Lemma gas_recovered c n m X Q U P : recovered c n m X Q U P -> gas_of c n m X Q U P.
Proof. intros H i j Hi Hj. specialize (H i j Hi Hj). rewrite density_spec in H. split; [exact H|]. destruct (recover_sound _ _ _ _ H) as (A & B & _). split; assumption. Qed.
Lemma boundary_mass cfg n m X Q t P U : good_cloud cfg -> (1 <= n)%Z -> gas_of cfg n m X Q U P ->
  boundary_rate cfg n m X Q (units_of cfg) t P c0 = entering (fun j => c0 (inner_face cfg n Q (units_of cfg) t P j)) m X Q - leaving srhd_mass_flux n m X Q P.
Proof.
  intros G Hn HG. destruct (units_nonzero cfg G) as [A B]. unfold boundary_rate, entering, leaving, inner_face. f_equal; apply rsum_ext; intros j Hj; rewrite area_spec; [rewrite nozzle_spec by assumption; reflexivity|].
  f_equal. apply (srhd_open (P (n - 1)%Z j)). apply HG; lia.
Qed.
Lemma boundary_energy cfg n m X Q t P U : good_cloud cfg -> (1 <= n)%Z -> gas_of cfg n m X Q U P ->
  boundary_rate cfg n m X Q (units_of cfg) t P c4 = entering (fun j => c4 (inner_face cfg n Q (units_of cfg) t P j)) m X Q - leaving srhd_energy_flux n m X Q P.
Proof.
  intros G Hn HG. destruct (units_nonzero cfg G) as [A B]. unfold boundary_rate, entering, leaving, inner_face. f_equal; apply rsum_ext; intros j Hj; rewrite area_spec; [rewrite nozzle_spec by assumption; reflexivity|].
  f_equal. apply (srhd_open (P (n - 1)%Z j)). apply HG; lia.
Qed.
Lemma run_to c fuel : forall j (sq : nat -> solution) s, sq 0%nat = s -> (forall i, (i < j)%nat -> next_solution c fuel (sq i) = Ok (sq (S i))) -> CloudModel.run c fuel j s = Ok (sq j).
Proof.
  induction j as [|j IH]; intros sq s E HS; [cbn; rewrite E; reflexivity|]. cbn [CloudModel.run]. rewrite <- E, (HS 0%nat) by lia. cbn [bind].
  apply (IH (fun i => sq (S i))); [reflexivity|]. intros i Hi. apply HS. lia.
Qed.
Lemma sum_ext f g k : (forall i, (i < k)%nat -> f i = g i) -> sum_over f k = sum_over g k.
Proof. intros E. unfold sum_over. f_equal. apply map_ext_in. intros i Hi. apply in_seq in Hi. apply E. lia. Qed.
Lemma run_order cfg fuel steps s s' : CloudModel.run cfg fuel (S steps) s = Ok s' -> rk_order cfg = 1%Z \/ rk_order cfg = 2%Z.
Proof.
  intros E. cbn [CloudModel.run] in E. apply bind_ok_inv in E as (s1 & E & _). unfold CloudModel.next_solution in E. apply bind_ok_inv in E as (dt & _ & E).
  destruct (Z.eqb_spec (rk_order cfg) 1); [left; assumption|]. destruct (Z.eqb_spec (rk_order cfg) 2); [right; assumption|discriminate].
Qed.

(** *** C87 *)
(** Mass and energy change by what crosses the inner and the outer face, and by nothing else: the poles are closed and the
    geometrical sources carry none.  P k are the states at the beginning of the step k; in a second-order run P' k are the
    states after its first stage and the two rates are averaged, both with the jet at the time of the beginning. *)
Theorem cloud_budget cfg fuel n m X Q steps s s' U : good_cloud cfg -> sizes fuel n m -> method_ok cfg m -> on_grid s n m X Q U -> CloudModel.run cfg fuel steps s = Ok s' ->
  exists (Us : nat -> Z -> Z -> v5) (P P' : nat -> Z -> Z -> prim), Us 0%nat = U /\ on_grid s' n m X Q (Us steps) /\
    let dt := cfl cfg * (X 1%Z - X 0%Z) in let t k := time s + INR k * dt in
    (forall k, (k <= steps)%nat -> exists sk, CloudModel.run cfg fuel k s = Ok sk /\ on_grid sk n m X Q (Us k) /\ time sk = t k) /\
    (forall k, (k < steps)%nat -> gas_of cfg n m X Q (Us k) (P k)) /\
    (rk_order cfg = 2%Z -> forall k, (k < steps)%nat -> exists sk r V, CloudModel.run cfg fuel k s = Ok sk /\ CloudModel.advance cfg fuel sk sk dt = Ok r /\ on_grid r n m X Q V /\ gas_of cfg n m X Q V (P' k)) /\
    let mass_rate k R := entering (fun j => c0 (inner_face cfg n Q (units_of cfg) (t k) R j)) m X Q - leaving srhd_mass_flux n m X Q R in
    let energy_rate k R := entering (fun j => c4 (inner_face cfg n Q (units_of cfg) (t k) R j)) m X Q - leaving srhd_energy_flux n m X Q R in
    let average k (rate : nat -> (Z -> Z -> prim) -> R) := if (rk_order cfg =? 1)%Z then rate k (P k) else (rate k (P k) + rate k (P' k)) / 2 in
    rsum (fun i => rsum (fun j => c0 (Us steps i j)) m) n = rsum (fun i => rsum (fun j => c0 (U i j)) m) n + dt * sum_over (fun k => average k mass_rate) steps /\
    rsum (fun i => rsum (fun j => c4 (Us steps i j)) m) n = rsum (fun i => rsum (fun j => c4 (U i j)) m) n + dt * sum_over (fun k => average k energy_rate) steps.
Proof.
  intros G HS HM HU E. pose proof (reference_units cfg G) as HR. destruct (run_rates cfg fuel n m X Q _ HS HM HR steps s s' U HU E) as (sq & Us & P & P' & S0 & SN & U0 & SH & ST & B).
  pose proof HS as (Hn & Hm & _). exists Us, P, P'. split; [exact U0|]. split; [rewrite <- SN; apply SH; lia|]. cbv zeta. fold (step_of cfg X).
  assert (RT : forall k, (k <= steps)%nat -> CloudModel.run cfg fuel k s = Ok (sq k)) by (intros k Hk; apply run_to; [exact S0|]; intros i Hi; apply ST; lia).
  assert (GP : forall k, (k < steps)%nat -> gas_of cfg n m X Q (Us k) (P k)) by (intros k Hk; apply gas_recovered, ST, Hk).
  assert (GP' : rk_order cfg = 2%Z -> forall k, (k < steps)%nat -> exists r V, CloudModel.advance cfg fuel (sq k) (sq k) (step_of cfg X) = Ok r /\ on_grid r n m X Q V /\ gas_of cfg n m X Q V (P' k)).
  { intros R2 k Hk. destruct (ST k Hk) as (_ & _ & M). destruct (M R2) as (r & V & M1 & M2 & M3). exists r, V. split; [exact M1|]. split; [exact M2|]. apply gas_recovered, M3. }
  split; [|split; [exact GP|split]].
  - intros k Hk. exists (sq k). split; [apply RT, Hk|]. apply SH, Hk.
  - intros R2 k Hk. destruct (GP' R2 k Hk) as (r & V & M1 & M2 & M3). exists (sq k), r, V. split; [apply RT; lia|]. split; [exact M1|]. split; assumption.
  - assert (RK : (0 < steps)%nat -> rk_order cfg = 1%Z \/ rk_order cfg = 2%Z) by (intros L; destruct steps as [|k]; [lia|]; eapply run_order, E).
    pose proof (B c0 mass_linear (fun _ _ _ _ => eq_refl)) as B0. pose proof (B c4 energy_linear (fun _ _ _ _ => eq_refl)) as B4. unfold total in B0, B4.
    split; [rewrite B0|rewrite B4]; f_equal; f_equal; apply sum_ext; intros k Hk; destruct (SH k ltac:(lia)) as [_ TK]; rewrite TK; unfold stage_average;
      (destruct (Z.eqb_spec (rk_order cfg) 1) as [R1|R1]; [|destruct (RK ltac:(lia)) as [|R2]; [contradiction|]; destruct (GP' R2 k Hk) as (_ & V & _ & _ & GV)]);
      try rewrite (boundary_mass _ _ _ _ _ _ _ _ G Hn (GP k Hk)); try rewrite (boundary_energy _ _ _ _ _ _ _ _ G Hn (GP k Hk)); try rewrite (boundary_mass _ _ _ _ _ _ _ _ G Hn GV); try rewrite (boundary_energy _ _ _ _ _ _ _ _ G Hn GV); reflexivity.
Qed.

(** *** C88 *)
Section Inflow.
Variables (P : prim).
Hypothesis HP : outgoing P.
Lemma outgoing_speeds : 0 <= fst (srhd_wavespeeds P (make_unit_vector 1 0 0) (4 / 3)) /\ 0 < snd (srhd_wavespeeds P (make_unit_vector 1 0 0) (4 / 3)).
Proof.
  destruct HP as ((R & K) & U & M). cbv zeta in M. assert (RE : relativistic P (4 / 3)) by (unfold relativistic; lra).
  pose proof (signal_speeds_below_light P _ _ RE radial_norm) as SB. fold radial in *. destruct RE as (_ & _ & G1 & G2). pose proof (sound_speed_range P (4 / 3) R K G1 G2) as C.
  pose proof (speed_range P radial radial_norm) as [V VN]. cbv zeta in V, VN.
  assert (CE : srhd_sound_speed_squared P (4 / 3) = 4 / 3 * pre P / (rho P + 4 * pre P)) by (unfold srhd_sound_speed_squared, enthalpy_density; field; lra).
  rewrite <- CE in M. change (srhd_wavespeeds P (make_unit_vector 1 0 0) (4 / 3)) with (srhd_wavespeeds P radial (4 / 3)). split.
  - unfold srhd_wavespeeds. cbn [fst]. set (c2 := srhd_sound_speed_squared P (4 / 3)) in *. set (uu := gamma_beta_squared P) in *.
    assert (UU : 0 <= uu) by (unfold uu, gamma_beta_squared; nra). set (W := lorentz_factor P). assert (W2 : W * W = 1 + uu) by (apply sqrt_sqrt; lra). assert (WP : 0 < W) by (apply sqrt_lt_R0; fold uu; lra).
    assert (BE : beta_along P radial = u1 P / W) by (unfold beta_along, project, radial; cbn [n1 n2 n3 make_unit_vector]; fold W; field; lra). set (b := beta_along P radial) in *.
    assert (BW : b * W = u1 P) by (rewrite BE; field; lra). assert (B0 : 0 <= b) by (rewrite BE; apply Rmult_le_pos; [exact U|left; apply Rinv_0_lt_compat, WP]). set (vv := uu / (1 + uu)) in *.
    assert (VE : (1 - vv) * (W * W) = 1) by (unfold vv; rewrite W2; field; lra).
    assert (KEY : c2 * (1 - vv) <= b * b * (1 - c2)).
    { assert (c2 * (1 - vv) * (W * W) <= b * b * (1 - c2) * (W * W)); [|nra]. replace (c2 * (1 - vv) * (W * W)) with (c2 * ((1 - vv) * (W * W))) by ring. rewrite VE. replace (b * b * (1 - c2) * (W * W)) with ((b * W) ^ 2 * (1 - c2)) by ring. rewrite BW. lra. }
    assert (DP : 0 < 1 - vv * c2) by nra. apply Rmult_le_pos; [|left; apply Rinv_0_lt_compat, DP].
    assert (S : sqrt (c2 * (1 - vv) * (1 - vv * c2 - b * b * (1 - c2))) <= b * (1 - c2)); [|lra].
    rewrite <- (sqrt_square (b * (1 - c2))) by (apply Rmult_le_pos; lra). apply sqrt_le_1_alt.
    assert (b * (1 - c2) * (b * (1 - c2)) - c2 * (1 - vv) * (1 - vv * c2 - b * b * (1 - c2)) = (1 - vv * c2) * (b * b * (1 - c2) - c2 * (1 - vv))) by ring.
    assert (0 <= (1 - vv * c2) * (b * b * (1 - c2) - c2 * (1 - vv))) by (apply Rmult_le_pos; lra). lra.
  - assert (B0 : 0 <= beta_along P radial).
    { unfold beta_along, project, radial. cbn [n1 n2 n3 make_unit_vector]. apply Rmult_le_pos; [lra|]. left. apply Rinv_0_lt_compat, sqrt_lt_R0. unfold gamma_beta_squared. nra. }
    destruct (srhd_wavespeeds P radial (4 / 3)) as [a b]. cbn [snd]. lra.
Qed.
(** Against a gas that moves outward faster than sound the whole flux is that of the cold jet. *)
Lemma cold_inflow d u : 0 < d -> 0 <= u -> let F := srhd_hlle (Prim d u 0 0 0) P (make_unit_vector 1 0 0) (4 / 3) in c0 F = d * u /\ c4 F = d * (sqrt (1 + u * u) - 1) * u.
Proof.
  intros Hd Hu. cbv zeta. destruct outgoing_speeds as [S1 S2]. set (W := sqrt (1 + u * u)). assert (WP : 0 < W) by (apply sqrt_lt_R0; nra).
  assert (GB : gamma_beta_squared (Prim d u 0 0 0) = u * u) by (unfold gamma_beta_squared; cbn; ring).
  assert (LF : lorentz_factor (Prim d u 0 0 0) = W) by (unfold lorentz_factor; rewrite GB; reflexivity).
  assert (CS : srhd_sound_speed_squared (Prim d u 0 0 0) (4 / 3) = 0) by (unfold srhd_sound_speed_squared; cbn [pre]; unfold Rdiv; ring).
  assert (BA : beta_along (Prim d u 0 0 0) (make_unit_vector 1 0 0) = u / W) by (unfold beta_along, project; cbn [n1 n2 n3 make_unit_vector u1 u2 u3]; rewrite LF; f_equal; ring).
  assert (WS : srhd_wavespeeds (Prim d u 0 0 0) (make_unit_vector 1 0 0) (4 / 3) = (u / W, u / W)).
  { unfold srhd_wavespeeds. rewrite CS, BA, GB. replace (0 * (1 - u * u / (1 + u * u)) * (1 - u * u / (1 + u * u) * 0 - u / W * (u / W) * (1 - 0))) with 0 by ring. rewrite sqrt_0. f_equal; unfold Rdiv; rewrite ?Rmult_0_r; field; lra. }
  assert (U0 : 0 <= u / W) by (apply Rmult_le_pos; [exact Hu|left; apply Rinv_0_lt_compat, WP]).
  unfold srhd_hlle. cbv zeta. rewrite WS. cbn [fst snd]. destruct (srhd_wavespeeds P (make_unit_vector 1 0 0) (4 / 3)) as [a b]. cbn [fst snd] in *.
  assert (AM : smin 0 (smin (u / W) a) = 0) by (unfold smin; repeat destruct (Rlt_dec _ _); lra).
  assert (AP : 0 < smax 0 (smax (u / W) b)) by (unfold smax; repeat destruct (Rlt_dec _ _); lra). rewrite AM. set (ap := smax 0 (smax (u / W) b)) in *.
  unfold hlle5. cbn [c0 c4]. rewrite !hlle_left_form by lra. unfold srhd_flux, flux5, srhd_conserved, specific_enthalpy, enthalpy_density. rewrite BA, LF. cbn [c0 c4 rho u1 u2 u3 pre n1 n2 n3 make_unit_vector].
  pose proof (proj1 (proj1 HP)) as RP. split; rewrite Rmult_0_l, Rplus_0_r; field; repeat split; lra.
Qed.
End Inflow.

Definition jet_of (c : config) : JetModel.jet := JetModel.Jet (jet_total_energy c) (jet_gamma_beta c) (jet_duration c) (jet_opening_angle c) (jet_structure_exp c) (inner_radius c).
(** Energy per unit time and solid angle that crosses the inner face at the polar angle q, in erg per second and
    steradian; F is the energy flux in code units, x the radius of the face in inner radii. *)
Definition power_per_steradian (c : config) (x F : R) : R :=
  let u := units_of c in x ^ 2 * F * (u_mass u * 29980000000 ^ 2 / u_time u).
Lemma base_positive c : JetProps.good (jet_of c) -> 0 < JetModel.density_at_base (jet_of c).
Proof.
  intros (A & B & C & D & E). unfold JetModel.density_at_base. apply Rdiv_lt_0_compat; [exact A|]. pose proof PI_RGT_0. assert (0 < JetModel.light_speed_cgs ^ 3) by (apply pow_lt; unfold JetModel.light_speed_cgs; lra).
  assert (0 < (JetModel.G0 (jet_of c) * JetModel.r0 (jet_of c) * JetModel.qj (jet_of c)) ^ 2) by (apply pow_lt; repeat apply Rmult_lt_0_compat; assumption). repeat (assumption || (apply Rmult_lt_0_compat)); try assumption; lra.
Qed.
Lemma gamma_beta_positive j q t : 0 < JetModel.G0 j -> 0 < JetModel.gamma_beta j q t.
Proof. intros G. unfold JetModel.gamma_beta. repeat apply Rmult_lt_0_compat; try apply exp_pos. exact G. Qed.
Definition jet_speed (c : config) (t q : R) : R := JetModel.gamma_beta (jet_of c) q t + JetModel.gamma_beta (jet_of c) (PI - q) t.
(** Where the gas inside the first shell moves outward faster than sound, nothing of the jet is held back: mass
    enters with the density and the gamma-beta of the jet, energy (without rest mass) with the Lorentz factor minus one. *)
Theorem cloud_jet_inflow c n Q t P j : good_cloud c -> JetProps.good (jet_of c) -> outgoing (inner_state c n Q (units_of c) t P j) ->
  let q := middle_angle Q j in let T := t * (inner_radius c / 29980000000) in let u := jet_speed c T q in
  let d := JetModel.density_at_base (jet_of c) * inner_radius c ^ 3 / (cloud_mass c * (1989 * 10 ^ 30)) in
  0 < d /\ 0 < u /\ c0 (inner_face c n Q (units_of c) t P j) = d * u /\ c4 (inner_face c n Q (units_of c) t P j) = d * (sqrt (1 + u * u) - 1) * u.
Proof.
  intros G J O. cbv zeta. destruct (units_nonzero c G) as [_ UM]. destruct G as ((A & _) & _ & M).
  assert (HU : 0 < jet_speed c (t * (inner_radius c / 29980000000)) (middle_angle Q j)) by (apply Rplus_lt_0_compat; apply gamma_beta_positive, J).
  assert (HD : 0 < JetModel.density_at_base (jet_of c) * inner_radius c ^ 3 / (cloud_mass c * (1989 * 10 ^ 30))).
  { apply Rdiv_lt_0_compat; [apply Rmult_lt_0_compat; [apply base_positive, J|apply pow_lt, A]|]. apply Rmult_lt_0_compat; [exact M|]. apply Rmult_lt_0_compat; [lra|apply pow_lt; lra]. }
  split; [exact HD|]. split; [exact HU|]. apply (cold_inflow _ O); [exact HD|lra].
Qed.
(** In physical units: the luminosity the nozzle stands for at this speed, density * speed^2 * r0^2 * c^3, times
    (W - 1) / u, and the two constants for the speed of light differ.  It is less than that luminosity. *)
Lemma lorentz_excess u : 0 < u -> 0 < (sqrt (1 + u * u) - 1) / u /\ (sqrt (1 + u * u) - 1) / u < 1 /\ (sqrt (1 + u * u) - 1) / u <= u / 2.
Proof.
  intros U. set (W := sqrt (1 + u * u)). assert (W2 : W * W = 1 + u * u) by (apply sqrt_sqrt; nra). assert (W0 : 0 <= W) by apply sqrt_pos. assert (W1 : 1 < W) by nra. assert (WU : W < 1 + u) by nra.
  assert (I : 0 < / u) by (apply Rinv_0_lt_compat, U). assert (J : u * / u = 1) by (apply Rinv_r; lra). unfold Rdiv. split; [apply Rmult_lt_0_compat; lra|]. split; [rewrite <- J; apply Rmult_lt_compat_r; lra|].
  replace (u * / 2) with (u * u / 2 * / u) by (field; lra). apply Rmult_le_compat_r; [lra|]. nra.
Qed.
Theorem cloud_jet_power c n Q t P j : good_cloud c -> JetProps.good (jet_of c) -> outgoing (inner_state c n Q (units_of c) t P j) ->
  let q := middle_angle Q j in let T := t * (inner_radius c / 29980000000) in let u := jet_speed c T q in
  let L := JetModel.density_at_base (jet_of c) * u ^ 2 * inner_radius c ^ 2 * 30000000000 ^ 3 in
  let E := power_per_steradian c 1 (c4 (inner_face c n Q (units_of c) t P j)) in
  E = L * ((sqrt (1 + u * u) - 1) / u) * (2998 / 3000) ^ 3 /\ 0 < E < L /\ E < L * (u / 2) /\
  L <= 2 * (JetModel.luminosity_per_steradian (jet_of c) q T + JetModel.luminosity_per_steradian (jet_of c) (PI - q) T).
Proof.
  intros G J O. destruct (cloud_jet_inflow c n Q t P j G J O) as (HD & HU & _ & HE). cbv zeta in *. set (q := middle_angle Q j) in *. set (T := t * (inner_radius c / 29980000000)) in *. set (u := jet_speed c T q) in *.
  pose proof (base_positive c J) as HB. set (b := JetModel.density_at_base (jet_of c)) in *. destruct G as ((A & _) & _ & M). destruct (lorentz_excess u HU) as (K0 & K1 & K2). set (k := (sqrt (1 + u * u) - 1) / u) in *.
  assert (EE : power_per_steradian c 1 (c4 (inner_face c n Q (units_of c) t P j)) = b * u ^ 2 * inner_radius c ^ 2 * 30000000000 ^ 3 * k * (2998 / 3000) ^ 3).
  { rewrite HE. unfold power_per_steradian, units_of, k. cbv zeta. cbn [u_mass u_time]. assert (0 < 10 ^ 30) by (apply pow_lt; lra). set (z := 10 ^ 30) in *. field. repeat split; lra. }
  set (L := b * u ^ 2 * inner_radius c ^ 2 * 30000000000 ^ 3) in *.
  assert (LP : 0 < L) by (unfold L; apply Rmult_lt_0_compat; [apply Rmult_lt_0_compat; [apply Rmult_lt_0_compat; [exact HB|apply pow_lt, HU]|apply pow_lt, A]|apply pow_lt; lra]). rewrite EE. split; [reflexivity|].
  assert (C : 0 < (2998 / 3000) ^ 3 < 1) by lra. set (cc := (2998 / 3000) ^ 3) in *. clearbody cc. assert (0 < L * k) by (apply Rmult_lt_0_compat; assumption). split; [split; [nra|]|split].
  - apply Rlt_trans with (L * k); nra.
  - apply Rlt_le_trans with (L * k); [nra|]. apply Rmult_le_compat_l; lra.
  - rewrite <- !JetProps.jet_base_carries_luminosity. unfold L, u, jet_speed. fold b. cbn [JetModel.r0 jet_of]. unfold JetModel.light_speed_cgs. set (x := JetModel.gamma_beta _ q T). set (y := JetModel.gamma_beta _ (PI - q) T).
    assert (0 < b * inner_radius c ^ 2 * 30000000000 ^ 3) by (apply Rmult_lt_0_compat; [apply Rmult_lt_0_compat; [exact HB|apply pow_lt, A]|apply pow_lt; lra]). set (a := b * inner_radius c ^ 2 * 30000000000 ^ 3) in *.
    replace (b * (x + y) ^ 2 * inner_radius c ^ 2 * 30000000000 ^ 3) with (a * (x + y) ^ 2) by (unfold a; ring).
    replace (2 * (b * x ^ 2 * inner_radius c ^ 2 * 30000000000 ^ 3 + b * y ^ 2 * inner_radius c ^ 2 * 30000000000 ^ 3)) with (a * (2 * (x ^ 2 + y ^ 2))) by (unfold a; ring). apply Rmult_le_compat_l; [lra|]. clearbody x y. pose proof (pow2_ge_0 (x - y)). lra.
Qed.
(** Finding: "jet_total_energy: total energy to be injected".  For slow jets it is missed by any factor: at every angle and
    all times the injected power is below 2 jet_gamma_beta times what the nozzle stands for. *)
Theorem cloud_jet_energy_refuted c n Q t P j : good_cloud c -> JetProps.good (jet_of c) -> outgoing (inner_state c n Q (units_of c) t P j) -> 0 <= t ->
  let q := middle_angle Q j in let T := t * (inner_radius c / 29980000000) in
  power_per_steradian c 1 (c4 (inner_face c n Q (units_of c) t P j)) <
    2 * jet_gamma_beta c * (JetModel.luminosity_per_steradian (jet_of c) q T + JetModel.luminosity_per_steradian (jet_of c) (PI - q) T).
Proof.
  intros G J O Ht. destruct (cloud_jet_power c n Q t P j G J O) as (_ & [E0 _] & E2 & L2). destruct (cloud_jet_inflow c n Q t P j G J O) as (_ & HU & _). cbv zeta in *. set (q := middle_angle Q j) in *. set (T := t * (inner_radius c / 29980000000)) in *.
  set (u := jet_speed c T q) in *. set (L := JetModel.density_at_base _ * u ^ 2 * _ * _) in *. set (S := JetModel.luminosity_per_steradian _ q T + _) in *.
  assert (TP : 0 <= T) by (unfold T; destruct G as ((A & _) & _); apply Rmult_le_pos; [exact Ht|]; apply Rmult_le_pos; lra).
  assert (GB : forall x, JetModel.gamma_beta (jet_of c) x T <= jet_gamma_beta c).
  { intros x. unfold JetModel.gamma_beta. destruct J as (_ & J1 & J2 & _). assert (EX : forall y, y <= 0 -> exp y <= 1) by (intros y Hy; rewrite <- exp_0; destruct Hy as [Hy| ->]; [left; apply exp_increasing, Hy|right; reflexivity]).
    assert (A1 : exp (- (1 / 2) * JetModel.pow0 (x / JetModel.qj (jet_of c)) (JetModel.structure_exponent (jet_of c))) <= 1).
    { apply EX. assert (0 <= JetModel.pow0 (x / JetModel.qj (jet_of c)) (JetModel.structure_exponent (jet_of c))) by (unfold JetModel.pow0; destruct (Rlt_dec _ _); [left; apply exp_pos|right; reflexivity]). lra. }
    assert (A2 : exp (- (1 / 2) * T / JetModel.tj (jet_of c)) <= 1) by (apply EX; assert (0 <= T / JetModel.tj (jet_of c)) by (apply Rmult_le_pos; [exact TP|left; apply Rinv_0_lt_compat, J2]); unfold Rdiv in *; lra).
    change (JetModel.G0 (jet_of c)) with (jet_gamma_beta c) in *. match goal with |- _ * exp ?a * exp ?b <= _ => pose proof (exp_pos a); pose proof (exp_pos b); set (ea := exp a) in *; set (eb := exp b) in * end. assert (ea * eb <= 1) by nra. rewrite Rmult_assoc. nra. }
  assert (U2 : u <= 2 * jet_gamma_beta c) by (unfold u, jet_speed; pose proof (GB q); pose proof (GB (PI - q)); lra).
  assert (LP : 0 < L) by nra. apply Rlt_le_trans with (L * (u / 2)); [exact E2|]. apply Rle_trans with (L * jet_gamma_beta c); [apply Rmult_le_compat_l; lra|]. assert (0 < jet_gamma_beta c) by (apply J). nra.
Qed.

(** In a run: while the gas at the inner faces moves outward faster than sound, mass and energy grow by what the jets of the
    configuration carry through these faces at each time, less what leaves through the outer face. *)
Theorem cloud_jet_run cfg fuel n m X Q steps s s' U : good_cloud cfg -> JetProps.good (jet_of cfg) -> sizes fuel n m -> method_ok cfg m -> on_grid s n m X Q U ->
  CloudModel.run cfg fuel steps s = Ok s' ->
  exists (Us : nat -> Z -> Z -> v5) (P P' : nat -> Z -> Z -> prim), Us 0%nat = U /\ on_grid s' n m X Q (Us steps) /\
    (forall k, (k < steps)%nat -> gas_of cfg n m X Q (Us k) (P k)) /\
    let dt := cfl cfg * (X 1%Z - X 0%Z) in let t k := time s + INR k * dt in
    let first_order := (rk_order cfg =? 1)%Z in
    ((forall k j, (k < steps)%nat -> (0 <= j < m)%Z ->
        outgoing (inner_state cfg n Q (units_of cfg) (t k) (P k) j) /\
        (first_order = false -> outgoing (inner_state cfg n Q (units_of cfg) (t k) (P' k) j))) ->
     let d := JetModel.density_at_base (jet_of cfg) * inner_radius cfg ^ 3 / (cloud_mass cfg * (1989 * 10 ^ 30)) in
     let u k j := jet_speed cfg (t k * (inner_radius cfg / 29980000000)) (middle_angle Q j) in
     let injected k (amount : R -> R) := rsum (fun j => zone_area X Q 0 j * amount (u k j)) m in
     let lost k flux := if first_order then leaving flux n m X Q (P k) else (leaving flux n m X Q (P k) + leaving flux n m X Q (P' k)) / 2 in
     rsum (fun i => rsum (fun j => c0 (Us steps i j)) m) n = rsum (fun i => rsum (fun j => c0 (U i j)) m) n +
       dt * sum_over (fun k => injected k (fun u => d * u) - lost k srhd_mass_flux) steps /\
     rsum (fun i => rsum (fun j => c4 (Us steps i j)) m) n = rsum (fun i => rsum (fun j => c4 (U i j)) m) n +
       dt * sum_over (fun k => injected k (fun u => d * (sqrt (1 + u * u) - 1) * u) - lost k srhd_energy_flux) steps).
Proof.
  intros G J HS HM HU E. destruct (cloud_budget cfg fuel n m X Q steps s s' U G HS HM HU E) as (Us & P & P' & U0 & SH & B). cbv zeta in B. destruct B as (_ & GP & _ & BM & BE).
  exists Us, P, P'. split; [exact U0|]. split; [exact SH|]. split; [exact GP|]. cbv zeta. intros HO. rewrite BM, BE.
  split; f_equal; f_equal; apply sum_ext; intros k Hk;
    set (tk := time s + INR k * (cfl cfg * (X 1%Z - X 0%Z))) in *;
    (assert (EP : forall R, (forall j, (0 <= j < m)%Z -> outgoing (inner_state cfg n Q (units_of cfg) tk R j)) ->
       entering (fun j => c0 (inner_face cfg n Q (units_of cfg) tk R j)) m X Q = rsum (fun j => zone_area X Q 0 j * (JetModel.density_at_base (jet_of cfg) * inner_radius cfg ^ 3 / (cloud_mass cfg * (1989 * 10 ^ 30)) * jet_speed cfg (tk * (inner_radius cfg / 29980000000)) (middle_angle Q j))) m /\
       entering (fun j => c4 (inner_face cfg n Q (units_of cfg) tk R j)) m X Q = rsum (fun j => zone_area X Q 0 j * (JetModel.density_at_base (jet_of cfg) * inner_radius cfg ^ 3 / (cloud_mass cfg * (1989 * 10 ^ 30)) *
         (sqrt (1 + jet_speed cfg (tk * (inner_radius cfg / 29980000000)) (middle_angle Q j) * jet_speed cfg (tk * (inner_radius cfg / 29980000000)) (middle_angle Q j)) - 1) * jet_speed cfg (tk * (inner_radius cfg / 29980000000)) (middle_angle Q j))) m)
      by (intros R HR; unfold entering; split; apply rsum_ext; intros j Hj; destruct (cloud_jet_inflow cfg n Q tk R j G J (HR j Hj)) as (_ & _ & H0 & H4); f_equal; assumption));
    pose proof (EP (P k) (fun j Hj => proj1 (HO k j Hk Hj))) as [Q0 Q4];
    (destruct (rk_order cfg =? 1)%Z;
     [ first [rewrite Q0; reflexivity | rewrite Q4; reflexivity]
     | pose proof (EP (P' k) (fun j Hj => proj2 (HO k j Hk Hj) eq_refl)) as [Q0' Q4'];
       first [rewrite Q0, Q0' | rewrite Q4, Q4']; field ]).
Qed.

(** *** Examples *)
Definition demo : config := Config 2 1 300000000 30000000000 (1 / 50) 2 6 1 (10 ^ 50) 1 (1 / 8) (1 / 10) 2 (4 / 10) 1 1 1 0.
Lemma demo_good : good_cloud demo /\ JetProps.good (jet_of demo).
Proof. unfold good_cloud, JetProps.good, demo, jet_of. cbn [inner_radius cloud_cutoff density_index density_index2 cloud_mass JetModel.Ej JetModel.G0 JetModel.tj JetModel.qj JetModel.r0 jet_total_energy jet_gamma_beta jet_duration jet_opening_angle]. assert (0 < 10 ^ 50) by (apply pow_lt; lra). repeat split; lra. Qed.
Definition table {A} (n m : Z) (F : Z -> Z -> A) : array A := mkarr [n; m] (fun i => Ok (F (hd 0%Z i) (hd 0%Z (tl i)))).
Lemma table_grid {A} n m (F : Z -> Z -> A) : grid2 (table n m F) n m F.
Proof. split; reflexivity. Qed.
Definition demo_X (k : Z) : R := IZR (k + 1).
Definition demo_Q (k : Z) : R := IZR k * (PI / 2).
Definition demo_U (i j : Z) : v5 := times5 (srhd_conserved (Prim 1 0 0 0 1) gamma_law_index) (vol demo_X demo_Q i j).
Definition demo_start : solution := Solution 0 (vector 2 demo_X) (vector 3 demo_Q) (table 1 2 demo_U).
(** One shell of two cells with gas at rest, which then only takes in what the jet sends. *)
Example cloud_budget_example : exists s' U', CloudModel.run demo 9 1 demo_start = Ok s' /\ on_grid s' 1 2 demo_X demo_Q U' /\ time s' = 4 / 10 /\
  rsum (fun i => rsum (fun j => c0 (U' i j)) 2) 1 = rsum (fun i => rsum (fun j => c0 (demo_U i j)) 2) 1 + 4 / 10 * entering (fun j => c0 (inner_face demo 1 demo_Q (units_of demo) 0 (fun _ _ => Prim 1 0 0 0 1) j)) 2 demo_X demo_Q.
Proof.
  assert (HS : sizes 9 1 2) by (unfold sizes; lia). assert (HM : method_ok demo 2) by (left; cbn; lia).
  assert (HU : on_grid demo_start 1 2 demo_X demo_Q demo_U) by (split; [apply vector_rep|split; [apply vector_rep|apply table_grid]]).
  assert (VP : forall i j, (0 <= i < 1)%Z -> (0 <= j < 2)%Z -> 0 < vol demo_X demo_Q i j).
  { intros i j Hi Hj. replace i with 0%Z by lia. unfold vol, demo_X, demo_Q. change (1 + 0 + 1)%Z with 2%Z. change (0 + 1)%Z with 1%Z. pose proof PI_RGT_0. assert (C : cos (IZR j * (PI / 2)) - cos (IZR (1 + j) * (PI / 2)) = 1).
    { assert (j = 0%Z \/ j = 1%Z) as [-> | ->] by lia; [change (1 + 0)%Z with 1%Z; rewrite Rmult_0_l, Rmult_1_l, cos_0, cos_PI2; ring|]. change (1 + 1)%Z with 2%Z. rewrite Rmult_1_l. replace (2 * (PI / 2)) with PI by field. rewrite cos_PI2, cos_PI. ring. }
    rewrite C. lra. }
  assert (RC : recovered demo 1 2 demo_X demo_Q demo_U (fun _ _ => Prim 1 0 0 0 1)).
  { intros i j Hi Hj. specialize (VP i j Hi Hj). unfold demo_U. set (V := vol demo_X demo_Q i j) in *. replace (over5 (times5 (srhd_conserved (Prim 1 0 0 0 1) gamma_law_index) V) V) with (srhd_conserved (Prim 1 0 0 0 1) gamma_law_index).
    - apply recover_static_exact; cbn [u1 u2 u3 demo temperature_floor]; try lra. unfold relativistic, gamma_law_index. cbn [rho pre]. lra.
    - destruct (srhd_conserved (Prim 1 0 0 0 1) gamma_law_index) as [a b c d e]. unfold over5, times5. cbn [c0 c1 c2 c3 c4]. f_equal; field; lra. }
  destruct (advance_value demo 9 1 2 demo_X demo_Q (units_of demo) 0 (fun _ _ => Prim 1 0 0 0 1) demo_U (step_of demo demo_X) demo_start demo_start HS HM (reference_units _ (proj1 demo_good)) (proj1 (proj2 HU)) eq_refl (proj1 HU) (proj1 (proj2 HU)) (proj2 (proj2 HU)) RC) as (u & E & _).
  assert (ER : CloudModel.run demo 9 1 demo_start = Ok (Solution (time demo_start + step_of demo demo_X) (radial_vertices demo_start) (polar_vertices demo_start) u)).
  { cbn [CloudModel.run]. unfold CloudModel.next_solution. rewrite (time_step_value demo 1 2 demo_X demo_Q demo_start demo_U ltac:(lia) ltac:(reflexivity) HU). bsimp. cbn [rk_order demo Z.eqb Pos.eqb]. rewrite E. reflexivity. }
  eexists. destruct (cloud_budget demo 9 1 2 demo_X demo_Q 1 demo_start _ demo_U (proj1 demo_good) HS HM HU ER) as (Us & P & P' & U0 & SH & B). cbv zeta in B. destruct B as (_ & GP & _ & BM & _). exists (Us 1%nat).
  assert (ST : cfl demo * (demo_X 1%Z - demo_X 0%Z) = 4 / 10) by (unfold demo_X; cbn; lra).
  split; [exact ER|]. split; [exact SH|]. split; [cbn [time demo_start]; unfold step_of; rewrite ST; ring|]. rewrite BM, ST. f_equal. f_equal. unfold sum_over. cbn [seq map fold_right demo rk_order Z.eqb Pos.eqb]. rewrite Rplus_0_r.
  assert (PE : forall i j, (0 <= i < 1)%Z -> (0 <= j < 2)%Z -> P 0%nat i j = Prim 1 0 0 0 1).
  { intros i j Hi Hj. destruct (GP 0%nat ltac:(lia) i j Hi Hj) as [R _]. specialize (RC i j Hi Hj). rewrite density_spec in RC. rewrite U0 in R. assert (X : Ok (P 0%nat i j) = Ok (Prim 1 0 0 0 1)) by (rewrite <- R; exact RC). injection X. auto. }
  assert (LZ : leaving srhd_mass_flux 1 2 demo_X demo_Q (P 0%nat) = 0).
  { unfold leaving. rewrite (rsum_ext _ (fun _ => 0)); [apply rsum_zero|]. intros j Hj. change (1 - 1)%Z with 0%Z. rewrite PE by lia. unfold srhd_mass_flux. cbn [rho u1]. ring. }
  rewrite LZ. unfold entering. rewrite Rminus_0_r. apply rsum_ext. intros j Hj. f_equal. unfold inner_face, inner_state. cbn [reconstruct_method demo Z.eqb Pos.eqb]. rewrite PE by lia. cbn [time demo_start INR]. rewrite Rplus_0_l, Rmult_0_l. reflexivity.
Qed.
(** The jet of this configuration (jet_gamma_beta = 1/8) against an outgoing gas: below a quarter of its luminosity. *)
Example cloud_jet_example j : let P := fun _ _ : Z => Prim 1 1 0 0 (1 / 10) in
  outgoing (inner_state demo 1 demo_Q (units_of demo) 0 P j) /\
  let F := power_per_steradian demo 1 (c4 (inner_face demo 1 demo_Q (units_of demo) 0 P j)) in
  0 < F /\ F < (JetModel.luminosity_per_steradian (jet_of demo) (middle_angle demo_Q j) 0 + JetModel.luminosity_per_steradian (jet_of demo) (PI - middle_angle demo_Q j) 0) / 4.
Proof.
  cbv zeta. set (P := fun _ _ : Z => Prim 1 1 0 0 (1 / 10)). destruct demo_good as [G J]. assert (O : outgoing (inner_state demo 1 demo_Q (units_of demo) 0 P j)).
  { unfold inner_state. cbn [reconstruct_method demo Z.eqb Pos.eqb]. unfold P, outgoing, gas. cbv zeta. cbn [rho u1 pre]. repeat split; lra. }
  split; [exact O|]. destruct (cloud_jet_power demo 1 demo_Q 0 P j G J O) as (_ & [A _] & _). split; [exact A|].
  pose proof (cloud_jet_energy_refuted demo 1 demo_Q 0 P j G J O (Rle_refl 0)) as L. cbv zeta in L. rewrite Rmult_0_l in L. change (jet_gamma_beta demo) with (1 / 8) in L. lra.
Qed.
Print Assumptions cloud_budget.
Print Assumptions cloud_jet_inflow.
Print Assumptions cloud_jet_power.
Print Assumptions cloud_jet_energy_refuted.
Print Assumptions cloud_jet_run.
