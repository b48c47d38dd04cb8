(** The cloud program, src/subprog_cloud.cpp: grid, initial condition, jet inflow, reconstruction and time step, on the
    arrays of NdModel.  Doubles are real numbers.  The iteration number is left out (RationalModel), the schedule is that
    of ScheduleModel, the configuration is a record of the values read from it (ConfigModel). *)
From Coq Require Import ZArith Reals List.
From Verif Require Import Base NdModel NdOpsModel DimensionalModel HydroModel PlmModel MeshModel.
From Verif Require AtmosphereModel JetModel.
From Verif Require Import SedovModel.
Import ListNotations.
Open Scope R_scope.

(** The items of config_template that the functions below read, src/subprog_cloud.cpp 60-87. *)
Record config := Config {
  nr : Z; num_decades : R; inner_radius : R; cloud_cutoff : R; cloud_mass : R; density_index : R; density_index2 : R;
  jet_delay_time : R; jet_total_energy : R; jet_duration : R; jet_gamma_beta : R; jet_opening_angle : R; jet_structure_exp : R;
  cfl : R; rk_order : Z; reconstruct_method : Z; plm_theta : R; temperature_floor : R }.
(** The macros of src/subprog_cloud.cpp 52-54; gamma_law_index is that of SedovModel. *)
Definition light_speed_cgs : R := 29980000000.
Definition solar_mass_cgs : R := 1989 * 10 ^ 30.

(** solution_t, src/subprog_cloud.cpp 104-110. *)
Record solution := Solution { time : R; radial_vertices : array R; polar_vertices : array R; conserved : array v5 }.
(** The operators of solution_t, src/subprog_cloud.cpp 113-135, with [scale] the value of the rational number; both leave
    the vertices of the left operand.  .shared() evaluates. *)
Definition solution_plus (fuel : nat) (a b : solution) : outcome solution :=
  do u <- binary_op plus5 (conserved a) (conserved b);
  do u' <- evaluate fuel zero5 u;
  Ok (Solution (time a + time b) (radial_vertices a) (polar_vertices a) u').
Definition solution_times (fuel : nat) (a : solution) (scale : R) : outcome solution :=
  do u' <- evaluate fuel zero5 (arr_map (fun x => times5 x scale) (conserved a));
  Ok (Solution (time a * scale) (radial_vertices a) (polar_vertices a) u').

(** nd::meshgrid of two arrays, src/core_ndarray.hpp 1700-1704. *)
Definition meshgrid (a b : array R) : array R * array R := let c := cartesian_product a b in (arr_map fst c, arr_map snd c).
(** midpoint_on_axis and difference_on_axis for doubles. *)
Definition midpoint (axis : nat) (a : array R) : outcome (array R) := midpoint_on_axis Rplus (fun x => x * 0.5) axis a.
Definition difference (axis : nat) (a : array R) : outcome (array R) := difference_on_axis Rminus axis a.

(** radial_face_areas, src/subprog_cloud.cpp 260-266. *)
Definition radial_face_areas (rv qv : array R) : outcome (array R) :=
  let '(r, q) := meshgrid rv qv in
  do rc <- midpoint 1 r;
  do dm <- difference 1 (arr_opp (arr_map cos q));
  do rr <- binary_op Rmult rc rc;
  do a <- binary_op Rmult rr dm;
  Ok (arr_map (fun x => x * 2 * PI) a).
(** polar_face_areas, src/subprog_cloud.cpp 268-275. *)
Definition polar_face_areas (rv qv : array R) : outcome (array R) :=
  let '(r, q) := meshgrid rv qv in
  do dr <- difference 0 r;
  do rc <- midpoint 0 r;
  do qc <- midpoint 0 q;
  do a <- binary_op Rmult rc dr;
  do b <- binary_op Rmult a (arr_map sin qc);
  Ok (arr_map (fun x => x * 2 * PI) b).
(** cell_volumes, src/subprog_cloud.cpp 277-283. *)
Definition cell_volumes (rv qv : array R) : outcome (array R) :=
  let '(r, q) := meshgrid rv qv in
  do d0 <- difference 0 (arr_map (fun r => r * r * r) r);
  do dv <- midpoint 1 d0;
  do m0 <- difference 1 (arr_opp (arr_map cos q));
  do dm <- midpoint 0 m0;
  do a <- binary_op Rmult dv dm;
  Ok (arr_map (fun x => x * 2 * PI / 3) a).
(** cell_centroids, src/subprog_cloud.cpp 285-290. *)
Definition cell_centroids (rv qv : array R) : outcome (array (R * R)) :=
  do rc <- midpoint 0 rv;
  do qc <- midpoint 0 qv;
  Ok (cartesian_product rc qc).

(** make_cloud_envelop_model, src/subprog_cloud.cpp 296-301. *)
Definition make_cloud_envelop_model (c : config) : AtmosphereModel.envelop :=
  let e := AtmosphereModel.default_envelop in
  AtmosphereModel.Envelop (inner_radius c) (AtmosphereModel.envelop_mass e) (AtmosphereModel.u1 e) (AtmosphereModel.m1 e) (AtmosphereModel.psi e) (density_index c).
(** make_atmosphere_model, src/subprog_cloud.cpp 303-311. *)
Definition make_atmosphere_model (c : config) : outcome AtmosphereModel.atmosphere :=
  AtmosphereModel.with_total_mass
    (AtmosphereModel.with_outer_index (AtmosphereModel.with_inner_index (AtmosphereModel.with_cutoff_radius (AtmosphereModel.with_inner_radius
       AtmosphereModel.default_atmosphere (inner_radius c)) (cloud_cutoff c)) (density_index c)) (density_index2 c))
    (cloud_mass c * solar_mass_cgs).
(** make_jet_nozzle_model, src/subprog_cloud.cpp 313-322. *)
Definition make_jet_nozzle_model (c : config) : JetModel.jet :=
  JetModel.Jet (jet_total_energy c) (jet_gamma_beta c) (jet_duration c) (jet_opening_angle c) (jet_structure_exp c) (inner_radius c).
(** unit_system_t, src/subprog_cloud.cpp 177-195. *)
Record unit_system := Units { u_length : R; u_mass : R; u_time : R }.
Definition mass_density (u : unit_system) : R := u_mass u / u_length u ^ 3.
Definition energy (u : unit_system) : R := u_mass u * light_speed_cgs ^ 2.
Definition energy_density (u : unit_system) : R := energy u / u_length u ^ 3.
Definition power (u : unit_system) : R := energy u / u_time u.
(** make_reference_units, src/subprog_cloud.cpp 324-332. *)
Definition make_reference_units (c : config) : outcome unit_system :=
  do a <- make_atmosphere_model c;
  do m <- AtmosphereModel.total_mass a;
  Ok (Units (AtmosphereModel.r0 a) m (AtmosphereModel.r0 a / light_speed_cgs)).

(** Arithmetic of primitive states (derivable_sequence_t of five), src/core_sequence.hpp 240-330. *)
Definition prim_plus (A B : prim) : prim := Prim (rho A + rho B) (u1 A + u1 B) (u2 A + u2 B) (u3 A + u3 B) (pre A + pre B).
Definition prim_minus (A B : prim) : prim := Prim (rho A - rho B) (u1 A - u1 B) (u2 A - u2 B) (u3 A - u3 B) (pre A - pre B).
Definition prim_times (A : prim) (k : R) : prim := Prim (rho A * k) (u1 A * k) (u2 A * k) (u3 A * k) (pre A * k).
(** estimate_gradient_plm, src/subprog_cloud.cpp 450-464: the expression of math_interpolation.hpp (PlmModel).  The sign
    bits of zeros do not matter there (PlmProps). *)
Definition estimate_gradient (theta ul u0 ur : R) : R := plm_gradient false false false ul u0 ur theta.
(** mara::lift, src/core_sequence.hpp 621-637. *)
Definition lift3 (f : R -> R -> R -> R) (A B C : prim) : prim :=
  Prim (f (rho A) (rho B) (rho C)) (f (u1 A) (u1 B) (u1 C)) (f (u2 A) (u2 B) (u2 C)) (f (u3 A) (u3 B) (u3 C)) (f (pre A) (pre B) (pre C)).

(** unit_vector_t::on_axis(axis), src/core_geometric.hpp 62-74; used with axes 0 and 1 only. *)
Definition on_axis (axis : nat) : unit_vector := match axis with O => make_unit_vector 1 0 0 | 1%nat => make_unit_vector 0 1 0 | _ => make_unit_vector 0 0 1 end.
(** intercell_flux, src/subprog_cloud.cpp 439-448. *)
Definition intercell_flux (axis : nat) (z : array (prim * prim)) : array v5 :=
  arr_map (fun w => srhd_hlle (fst w) (snd w) (on_axis axis) gamma_law_index) z.

Section Program.
Variable c : config.
Variable fuel : nat.

(** The inflow function, src/subprog_cloud.cpp 475-483; [t] in seconds. *)
Definition inflow (t reference_density q : R) : prim :=
  let j := make_jet_nozzle_model c in
  Prim (JetModel.density_at_base j / reference_density) (JetModel.gamma_beta j q t + JetModel.gamma_beta j (PI - q) t) 0 0 0.
(** extend_inflow_nozzle_inner, src/subprog_cloud.cpp 466-493; [s] is the solution of the app_state. *)
Definition extend_inflow_nozzle_inner (s : solution) (a : array prim) : outcome (array prim) :=
  do reference <- make_reference_units c;
  do qc <- midpoint 0 (polar_vertices s);
  let t := time s * u_time reference in
  let values := arr_map (inflow t (mass_density reference)) qc in
  do b <- evaluate_buffer fuel zero_prim values;
  do row <- reshape_backed [1%Z; volume (ashape qc)] (ashape values) b;
  concat_on 0 a row.
(** extend_zero_gradient_outer, src/subprog_cloud.cpp 503-509. *)
Definition extend_zero_gradient_outer (a : array prim) : outcome (array prim) := do xr <- select_final 1 0 a; concat_on 0 xr a.
(** extend_bc: mara::compose applies the second function first, src/app_performance.hpp 47-53. *)
Definition extend_bc (s : solution) (a : array prim) : outcome (array prim) := do e <- extend_zero_gradient_outer a; extend_inflow_nozzle_inner s e.

(** The extrapolation to faces for reconstruct_method 1 and 2, src/subprog_cloud.cpp 538, 554-570. *)
Definition extrapolate_pcm (axis : nat) (p : array prim) : outcome (array (prim * prim)) := zip_adjacent2_on_axis axis p.
Definition extrapolate_plm (axis : nat) (p : array prim) : outcome (array (prim * prim)) :=
  do t <- zip_adjacent3_on_axis axis p;
  do g0 <- extend_zeros (fun x => prim_times x 0) axis (arr_map (fun w => lift3 (estimate_gradient (plm_theta c)) (fst w) (fst (snd w)) (snd (snd w))) t);
  do g <- evaluate fuel zero_prim g0;
  do pl <- select_axis axis 0 1 1 true p; do gl <- select_axis axis 0 1 1 true g;
  do pr <- select_axis axis 1 0 1 true p; do gr <- select_axis axis 1 0 1 true g;
  do l <- binary_op prim_plus pl (arr_map (fun x => prim_times x 0.5) gl);
  do r <- binary_op prim_minus pr (arr_map (fun x => prim_times x 0.5) gr);
  zip2 l r.

(** The common part of the two branches of advance, src/subprog_cloud.cpp 515-549 and 572-582. *)
Definition advance_with (extrapolate : nat -> array prim -> outcome (array (prim * prim))) (app s : solution) (dt : R) : outcome solution :=
  let rv := radial_vertices s in let qv := polar_vertices s in
  do rc0 <- cell_centroids rv qv; do rc <- evaluate fuel (0, 0) rc0;
  do dv0 <- cell_volumes rv qv; do dv <- evaluate fuel 0 dv0;
  do ar0 <- radial_face_areas rv qv; do dAr <- evaluate fuel 0 ar0;
  do aq0 <- polar_face_areas rv qv; do dAq <- evaluate fuel 0 aq0;
  let u0 := conserved s in
  do q <- binary_op over5 u0 dv;
  do p0 <- evaluate fuel zero_prim (arr_mapM (fun U => srhd_recover U gamma_law_index (temperature_floor c)) q);
  do pr <- zip2 p0 rc;
  do s0 <- binary_op times5 (arr_map (fun w => srhd_source (fst w) gamma_law_index (fst (snd w)) (tan (PI / 2 - snd (snd w)))) pr) dv;
  do pe <- extend_bc app p0;
  do zr <- extrapolate 0%nat pe;
  do fr <- binary_op times5 (intercell_flux 0 zr) (arr_opp dAr);
  do lr <- difference_on_axis minus5 0 fr;
  do zq <- extrapolate 1%nat p0;
  do fq0 <- extend_zeros (fun x => times5 x 0) 1 (intercell_flux 1 zq);
  do fq <- binary_op times5 fq0 (arr_opp dAq);
  do lq <- difference_on_axis minus5 1 fq;
  do l <- binary_op plus5 lr lq;
  do ls <- binary_op plus5 l s0;
  do u1 <- binary_op plus5 u0 (arr_map (fun x => times5 x dt) ls);
  do u1' <- evaluate fuel zero5 u1;
  Ok (Solution (time s + dt) rv qv u1').
(** advance, src/subprog_cloud.cpp 511-585. *)
Definition advance (app s : solution) (dt : R) : outcome solution :=
  if (reconstruct_method c =? 1)%Z then advance_with extrapolate_pcm app s dt
  else if (reconstruct_method c =? 2)%Z then advance_with extrapolate_plm app s dt
  else Throw InvalidArgument.

(** The time step, src/subprog_cloud.cpp 678-679. *)
Definition time_step (s : solution) : outcome R :=
  do d <- difference 0 (radial_vertices s);
  do dr_min <- aget d [0%Z];
  Ok (dr_min / 1 * cfl c).
(** next_solution, src/subprog_cloud.cpp 676-698; b0 = 1/2. *)
Definition next_solution (s0 : solution) : outcome solution :=
  do dt <- time_step s0;
  if (rk_order c =? 1)%Z then advance s0 s0 dt
  else if (rk_order c =? 2)%Z then
    do s1 <- advance s0 s0 dt;
    do s2 <- advance s0 s1 dt;
    do a <- solution_times fuel s0 (1 / 2);
    do b <- solution_times fuel s2 (1 - 1 / 2);
    solution_plus fuel a b
  else Throw InvalidArgument.
(** The run loop, src/subprog_cloud.cpp 929-933, without its outputs. *)
Fixpoint run (steps : nat) (s : solution) : outcome solution :=
  match steps with O => Ok s | S k => do s' <- next_solution s; run k s' end.

(** initial_p_v2, src/subprog_cloud.cpp 627-643; the temperature is 1e-6. *)
Definition initial_p (e : AtmosphereModel.envelop) (reference : unit_system) (secant_fuel : nat) (r : R) : outcome prim :=
  let r_cm := r * u_length reference in
  do d <- AtmosphereModel.envelop_density_at e secant_fuel r_cm (jet_delay_time c);
  do u <- AtmosphereModel.gamma_beta_at e secant_fuel r_cm (jet_delay_time c);
  let density := d / mass_density reference in
  Ok (Prim density u 0 0 (density * (1 / 1000000))).
(** The vertices, src/subprog_cloud.cpp 646-652; the conversion of a double outside the range of int is undefined. *)
Definition new_radial_vertices (zones : Z) : array R :=
  arr_map (fun y => Rpower 10 y) (linspace Rplus Rminus Rmult Rdiv IZR 0 (num_decades c) (zones + 1)).
Definition new_polar_vertices : array R := linspace Rplus Rminus Rmult Rdiv IZR 0 PI (nr c + 1).
(** new_solution, src/subprog_cloud.cpp 610-666. *)
Definition new_solution (secant_fuel : nat) : outcome solution :=
  let e := make_cloud_envelop_model c in
  do reference <- make_reference_units c;
  do zones <- chk (truncate (num_decades c * IZR (nr c)));
  do count <- chk (zones + 1)%Z;
  do rv <- evaluate fuel 0 (new_radial_vertices (count - 1));
  do qcount <- chk (nr c + 1)%Z;
  do qv <- evaluate fuel 0 new_polar_vertices;
  do dv <- cell_volumes rv qv;
  do cc <- cell_centroids rv qv;
  do u <- binary_op times5 (arr_map (fun P => srhd_conserved P gamma_law_index) (arr_mapM (fun x => initial_p e reference secant_fuel (fst x)) cc)) dv;
  do u' <- evaluate fuel zero5 u;
  Ok (Solution 0 rv qv u').
End Program.
