(** C51: relativistic signal speeds. *)
From Coq Require Import List Reals Lra Lia Psatz.
From Verif Require Import Base DimensionalModel HydroModel HlleProofs.
Open Scope R_scope.

(** A state of the relativistic equations with positive density and pressure, and an equation of state whose
    sound speed is below that of light. *)
Definition relativistic (P : prim) (g : R) : Prop := 0 < rho P /\ 0 < pre P /\ 1 < g <= 2.

Theorem signal_speeds_below_light P n g : relativistic P g -> unit_norm n ->
  let '(m, p) := srhd_wavespeeds P n g in -1 < m < beta_along P n /\ beta_along P n < p < 1.
Proof.
  intros (Hr & Hp & Hg1 & Hg2) Hn. pose proof (sound_speed_range P g Hr Hp Hg1 Hg2) as C. pose proof (speed_range P n Hn) as [V VN].
  unfold srhd_wavespeeds. apply (srhd_speed_bounds _ _ _ C V VN).
Qed.
(** The flow itself is slower than light, along every direction. *)
Theorem flow_speed_below_light P n : unit_norm n -> -1 < beta_along P n < 1.
Proof. intros Hn. pose proof (speed_range P n Hn) as [V VN]. split; nra. Qed.
Theorem sound_speed_below_light P g : relativistic P g -> 0 < srhd_sound_speed_squared P g < 1.
Proof. intros (Hr & Hp & Hg1 & Hg2). apply sound_speed_range; assumption. Qed.
(** For a gas moving along the direction the speeds are the relativistic sum and difference of flow and sound
    speed; for a gas at rest they are the sound speed. *)
Theorem signal_speeds_add_relativistically P n g : relativistic P g -> unit_norm n ->
  beta_along P n * beta_along P n = gamma_beta_squared P / (1 + gamma_beta_squared P) ->
  let v := beta_along P n in let c := sqrt (srhd_sound_speed_squared P g) in
  srhd_wavespeeds P n g = ((v - c) / (1 - v * c), (v + c) / (1 + v * c)).
Proof.
  intros HP Hn HV v c. pose proof (sound_speed_below_light _ _ HP) as C. pose proof (flow_speed_below_light P n Hn) as V. fold v in V, HV.
  assert (CC : srhd_sound_speed_squared P g = c * c) by (symmetry; apply sqrt_sqrt; lra). assert (C0 : 0 < c) by (apply sqrt_lt_R0; lra). assert (C1 : c < 1) by nra.
  unfold srhd_wavespeeds. fold v. rewrite <- HV, CC.
  replace (c * c * (1 - v * v) * (1 - v * v * (c * c) - v * v * (1 - c * c))) with ((c * (1 - v * v)) * (c * (1 - v * v))) by ring.
  assert (Q1 : 0 < 1 - v * v) by nra. rewrite sqrt_square by nra.
  assert (Q2 : 0 < 1 - v * c) by nra. assert (Q3 : 0 < 1 + v * c) by nra.
  assert (Q4 : 0 < 1 - v * v * (c * c)) by nra.
  f_equal; field; repeat split; nra.
Qed.
(** Beyond gamma = 2 sound can be faster than light. *)
Theorem sound_speed_gamma_bound_sharp : exists P, 0 < rho P /\ 0 < pre P /\ 1 < srhd_sound_speed_squared P 3.
Proof. exists (Prim 1 0 0 0 10). simpl. repeat split; try lra. unfold srhd_sound_speed_squared, enthalpy_density. simpl. lra. Qed.

Example srhd_example :
  relativistic (Prim (1/2) (3/4) 0 0 (1/6)) (4/3) /\ lorentz_factor (Prim (1/2) (3/4) 0 0 (1/6)) = 5/4 /\
  beta_along (Prim (1/2) (3/4) 0 0 (1/6)) (make_unit_vector 1 0 0) = 3/5 /\
  srhd_sound_speed_squared (Prim (1/2) (3/4) 0 0 (1/6)) (4/3) = 4/21.
Proof.
  assert (L : lorentz_factor (Prim (1/2) (3/4) 0 0 (1/6)) = 5/4).
  { unfold lorentz_factor, gamma_beta_squared. simpl. replace (1 + (3 / 4 * (3 / 4) + 0 * 0 + 0 * 0)) with ((5/4) * (5/4)) by lra. apply sqrt_square. lra. }
  split; [repeat split; simpl; lra|]. split; [exact L|]. split.
  - unfold beta_along. rewrite L. unfold project. simpl. lra.
  - unfold srhd_sound_speed_squared, enthalpy_density. simpl. lra.
Qed.

Print Assumptions signal_speeds_below_light.
Print Assumptions flow_speed_below_light.
Print Assumptions sound_speed_below_light.
Print Assumptions signal_speeds_add_relativistically.
Print Assumptions sound_speed_gamma_bound_sharp.
