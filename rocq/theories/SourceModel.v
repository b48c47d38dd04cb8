(** The source terms of the binary scheme, the totals booked with them, and whole steps of the solution
    (src/subprog_binary_scheme.cpp 60-75, 80-125, 325-470, 565-610, 725-1070, src/subprog_binary.cpp 258-293).
    Doubles are exact real numbers.  A step is made component by component of the conserved tuples with StepModel.advance
    and put together again.  The number of iterations is left out (RationalModel), as is std::printf in validate. *)
From Coq Require Import ZArith Reals List Bool.
From Verif Require Import Base TreeModel BalanceModel NdModel NdSpec NdOpsModel FluxModel MeshModel HydroModel TwoBodyModel StepModel.
Import ListNotations.
Open Scope R_scope.

(** Arithmetic of tuples of three, src/core_tuple.hpp 121-148. *)
Definition v3_zero : v3 := V3 0 0 0.
Definition v3_add (a b : v3) : v3 := V3 (d0 a + d0 b) (d1 a + d1 b) (d2 a + d2 b).
Definition v3_sub (a b : v3) : v3 := V3 (d0 a - d0 b) (d1 a - d1 b) (d2 a - d2 b).
Definition v3_mul (a : v3) (s : R) : v3 := V3 (d0 a * s) (d1 a * s) (d2 a * s).
Definition v3_neg (a : v3) : v3 := V3 (- d0 a) (- d1 a) (- d2 a).
(** A vector times a number, src/core_sequence.hpp 522-526. *)
Definition vec_mul (a : R * R) (s : R) : R * R := (fst a * s, snd a * s).
(** Pairs of booked numbers, one for each body. *)
Definition two_zero : R * R := (0, 0).
Definition two_add (a b : R * R) : R * R := (fst a + fst b, snd a + snd b).

(** source_term_total_t, src/subprog_binary.hpp 137-151 and operator+, src/subprog_binary_scheme.cpp 61-75. *)
Record totals := Totals {
  mass_accreted_on : R * R; angular_momentum_accreted_on : R * R; integrated_torque_on : R * R;
  momentum_x_accreted_on : R * R; momentum_y_accreted_on : R * R; integrated_force_x_on : R * R; integrated_force_y_on : R * R;
  work_done_on : R * R; mass_ejected : R; angular_momentum_ejected : R }.
Definition no_totals : totals := Totals two_zero two_zero two_zero two_zero two_zero two_zero two_zero two_zero 0 0.
Definition totals_add (a b : totals) : totals :=
  Totals (two_add (mass_accreted_on a) (mass_accreted_on b)) (two_add (angular_momentum_accreted_on a) (angular_momentum_accreted_on b))
    (two_add (integrated_torque_on a) (integrated_torque_on b)) (two_add (momentum_x_accreted_on a) (momentum_x_accreted_on b))
    (two_add (momentum_y_accreted_on a) (momentum_y_accreted_on b)) (two_add (integrated_force_x_on a) (integrated_force_x_on b))
    (two_add (integrated_force_y_on a) (integrated_force_y_on b)) (two_add (work_done_on a) (work_done_on b))
    (mass_ejected a + mass_ejected b) (angular_momentum_ejected a + angular_momentum_ejected b).

(** The sum over a tree, src/core_tree.hpp 502. *)
Fixpoint tsum {A} (zero : A) (add : A -> A -> A) (t : tree A) : A :=
  match t with
  | Leaf a => a
  | Node cs => fold_left add (map (tsum zero add) cs) zero
  end.

(** The settings in solver_data_t, src/subprog_binary.hpp 73-94.  reconstruct_method and riemann_solver are left out:
    nothing reads them. *)
Record settings := Settings {
  sink_rate : R; recommended_time_step : R; softening_radius : R; gst_suppr_radius : R; domain_radius : R; sink_radius : R;
  density_floor : R; mach_number : R; alpha : R; alpha_cutoff_radius : R; nu : R; plm_theta : R; cfl_number : R;
  begin_live_binary : R; rk_order : Z; axisymmetric_cs2 : bool; conserve_linear_p : bool; fixed_dt : bool;
  no_accretion_force : bool; block_size : Z }.

(** std::pow(x, 3. / 2) and std::pow(x, 1. / 2) for x >= 0, called through dimensional_value_t::pow,
    src/core_dimensional.hpp 224-235. *)
Definition pow32 (x : R) : R := x * sqrt x.
Definition pow12 (x : R) : R := sqrt x.

(** grav_vdot_field, src/subprog_binary_scheme.cpp 82-93. *)
Definition grav_vdot_field (sd : settings) (b : body) (x : R * R) : R * R :=
  let dr := (fst x - px b, snd x - py b) in
  let dr2 := fst dr * fst dr + snd dr * snd dr in
  let rs2 := softening_radius sd * softening_radius sd in
  let k c := - c / pow32 (dr2 + rs2) * 1 * mass b in
  (k (fst dr), k (snd dr)).

(** grav_phi_field, src/subprog_binary_scheme.cpp 99-110. *)
Definition grav_phi_field (sd : settings) (b : body) (x : R * R) : R :=
  let dr := (fst x - px b, snd x - py b) in
  let dr2 := fst dr * fst dr + snd dr * snd dr in
  let rs2 := softening_radius sd * softening_radius sd in
  - 1 * mass b / pow12 (dr2 + rs2).

(** sink_rate_field, src/subprog_binary_scheme.cpp 114-124. *)
Definition sink_rate_field (sd : settings) (b : body) (x : R * R) : R :=
  let dr := (fst x - px b, snd x - py b) in
  let s2 := sink_radius sd * sink_radius sd in
  let a2 := (fst dr * fst dr + snd dr * snd dr) / s2 / 2 in
  sink_rate sd * exp (- a2).

(** cs2_at_position, src/subprog_binary_scheme.cpp 161-176. *)
Definition cs2_at_position (sd : settings) (b : two_body) (x : R * R) : R :=
  let M := mach_number sd in
  if axisymmetric_cs2 sd then 1 / sqrt (fst x * fst x + snd x * snd x) / M / M
  else - (grav_phi_field sd (body1 b) x + grav_phi_field sd (body2 b) x) / M / M.

(** force_to_source_terms_u and force_to_source_terms_q, src/subprog_binary_scheme.cpp 327-339. *)
Definition force_to_source_terms_u (x f : R * R) : v3 := V3 0 (fst f) (snd f).
Definition force_to_source_terms_q (x f : R * R) : v3 := V3 0 (fst x * fst f + snd x * snd f) (fst x * snd f - snd x * fst f).

(** -(a | nd::multiply(dA) | nd::sum()), src/subprog_binary_scheme.cpp 388-407. *)
Definition booked (a dA : array R) : outcome R :=
  do p <- NdModel.binary_op Rmult a dA;
  do s <- arr_sum (Z.to_nat (fold_right Z.mul 1%Z (ashape p))) 0 Rplus p;
  Ok (- s).
(** The same for both bodies. *)
Definition booked2 (a1 a2 dA : array R) : outcome (R * R) :=
  do t1 <- booked a1 dA; do t2 <- booked a2 dA; Ok (t1, t2).

(** nd::zip(a, b) | nd::apply(f), src/core_ndarray.hpp 1627-1644, 2310-2318. *)
Definition zip_apply {A B C} (f : A -> B -> C) (a : array A) (b : array B) : outcome (array C) :=
  do z <- zip2 a b; Ok (arr_map (fun w => f (fst w) (snd w)) z).

(** The gravitational force per area of a body, src/subprog_binary_scheme.cpp 374-375, 428-429. *)
Definition gravity (sd : settings) (b : body) (xc : array (R * R)) (u0 : array v3) : outcome (array (R * R)) :=
  NdModel.binary_op vec_mul (arr_map (grav_vdot_field sd b) xc) (arr_map d0 u0).
(** s_sink, src/subprog_binary_scheme.cpp 379-380, 433-434. *)
Definition sink (sd : settings) (b : body) (xc : array (R * R)) (u0 : array v3) (dt : R) : outcome (array v3) :=
  do k <- NdModel.binary_op v3_mul (arr_map v3_neg u0) (arr_map (sink_rate_field sd b) xc);
  Ok (arr_map (fun u => v3_mul u dt) k).
(** s_buffer, src/subprog_binary_scheme.cpp 381, 435. *)
Definition buffer (ui u0 : array v3) (br : array R) (dt : R) : outcome (array v3) :=
  do d <- NdModel.binary_op v3_sub ui u0;
  do k <- NdModel.binary_op v3_mul d br;
  Ok (arr_map (fun u => v3_mul u dt) k).
(** s_floor, src/subprog_binary_scheme.cpp 382-385. *)
Definition floor_term (sd : settings) (u : v3) : v3 := v3_mul (v3_mul u (1 / 100)) (if Rlt_dec (d0 u) (density_floor sd) then 1 else 0).
(** work, src/subprog_binary_scheme.cpp 359-371. *)
Definition work (b : body) (du : v3) : R :=
  let M0 := mass b in
  let px0 := TwoBodyModel.vx b * M0 in
  let py0 := TwoBodyModel.vy b * M0 in
  let M1 := M0 + d0 du in
  let px1 := px0 + d1 du in
  let py1 := py0 + d2 du in
  ((px1 * px1 + py1 * py1) / M1 - (px0 * px0 + py0 * py0) / M0) * (1 / 2).
(** -(s | nd::multiply(dA) | nd::sum()) of tuples, component by component. *)
Definition booked_v3 (a : array v3) (dA : array R) : outcome v3 :=
  do x <- booked (arr_map d0 a) dA; do y <- booked (arr_map d1 a) dA; do z <- booked (arr_map d2 a) dA; Ok (V3 x y z).

(** source_terms_u, src/subprog_binary_scheme.cpp 345-411. *)
Definition source_terms_u (sd : settings) (b : two_body) (xc : array (R * R)) (dA br : array R) (u0 ui : array v3) (dt : R)
    : outcome (array v3 * totals) :=
  let lz uc := zip_apply (fun u x => iso_angular_momentum u (fst x) (snd x)) uc xc in
  let scaled f := arr_map (fun w => vec_mul w dt) f in
  do fg1 <- gravity sd (body1 b) xc u0;
  do fg2 <- gravity sd (body2 b) xc u0;
  do g1 <- zip_apply force_to_source_terms_u xc fg1;
  do g2 <- zip_apply force_to_source_terms_u xc fg2;
  let s_grav_1 := arr_map (fun u => v3_mul u dt) g1 in
  let s_grav_2 := arr_map (fun u => v3_mul u dt) g2 in
  do s_sink_1 <- sink sd (body1 b) xc u0 dt;
  do s_sink_2 <- sink sd (body2 b) xc u0 dt;
  do s_buffer <- buffer ui u0 br dt;
  let s_floor := arr_map (floor_term sd) u0 in
  do t_mass <- booked2 (arr_map d0 s_sink_1) (arr_map d0 s_sink_2) dA;
  do l1 <- lz s_sink_1; do l2 <- lz s_sink_2; do t_lz <- booked2 l1 l2 dA;
  do q1 <- lz s_grav_1; do q2 <- lz s_grav_2; do t_torque <- booked2 q1 q2 dA;
  do lb <- lz s_buffer; do t_lz_ej <- booked lb dA;
  do t_mass_ej <- booked (arr_map d0 s_buffer) dA;
  do t_fx <- booked2 (arr_map fst (scaled fg1)) (arr_map fst (scaled fg2)) dA;
  do t_fy <- booked2 (arr_map snd (scaled fg1)) (arr_map snd (scaled fg2)) dA;
  do t_px <- booked2 (arr_map d1 s_sink_1) (arr_map d1 s_sink_2) dA;
  do t_py <- booked2 (arr_map d2 s_sink_1) (arr_map d2 s_sink_2) dA;
  do du1 <- booked_v3 s_sink_1 dA; do du2 <- booked_v3 s_sink_2 dA;
  do s1 <- NdModel.binary_op v3_add s_grav_1 s_grav_2;
  do s2 <- NdModel.binary_op v3_add s1 s_sink_1;
  do s3 <- NdModel.binary_op v3_add s2 s_sink_2;
  do s4 <- NdModel.binary_op v3_add s3 s_buffer;
  do s5 <- NdModel.binary_op v3_add s4 s_floor;
  Ok (s5, Totals t_mass t_lz t_torque t_px t_py t_fx t_fy (work (body1 b) du1, work (body2 b) du2) t_mass_ej t_lz_ej).

(** source_terms_q, src/subprog_binary_scheme.cpp 417-466. *)
Definition source_terms_q (sd : settings) (b : two_body) (xc : array (R * R)) (dA br : array R) (p0 : array iprim) (q0 qi : array v3) (dt : R)
    : outcome (array v3 * totals) :=
  let sr2 := gst_suppr_radius sd * gst_suppr_radius sd in
  let scaled f := arr_map (fun w => vec_mul w dt) f in
  do fg1 <- gravity sd (body1 b) xc q0;
  do fg2 <- gravity sd (body2 b) xc q0;
  do g1 <- zip_apply force_to_source_terms_q xc fg1;
  do g2 <- zip_apply force_to_source_terms_q xc fg2;
  let s_grav_1 := arr_map (fun u => v3_mul u dt) g1 in
  let s_grav_2 := arr_map (fun u => v3_mul u dt) g2 in
  do s_sink_1 <- sink sd (body1 b) xc q0 dt;
  do s_sink_2 <- sink sd (body2 b) xc q0 dt;
  do s_buffer <- buffer qi q0 br dt;
  do s_geom <- zip_apply (fun p x => v3_mul (v3_mul (iso_angmom_source p (cs2_at_position sd b x)) (1 - exp (- (fst x * fst x + snd x * snd x) / sr2))) dt) p0 xc;
  do dps1 <- zip_apply (fun s x => let u := iso_linear_of_angmom s (fst x) (snd x) in (d1 u, d2 u)) s_sink_1 xc;
  do dps2 <- zip_apply (fun s x => let u := iso_linear_of_angmom s (fst x) (snd x) in (d1 u, d2 u)) s_sink_2 xc;
  do t_mass <- booked2 (arr_map d0 s_sink_1) (arr_map d0 s_sink_2) dA;
  do t_lz <- booked2 (arr_map d2 s_sink_1) (arr_map d2 s_sink_2) dA;
  do t_torque <- booked2 (arr_map d2 s_grav_1) (arr_map d2 s_grav_2) dA;
  do t_mass_ej <- booked (arr_map d0 s_buffer) dA;
  do t_lz_ej <- booked (arr_map d2 s_buffer) dA;
  do t_fx <- booked2 (arr_map fst (scaled fg1)) (arr_map fst (scaled fg2)) dA;
  do t_fy <- booked2 (arr_map snd (scaled fg1)) (arr_map snd (scaled fg2)) dA;
  do t_px <- booked2 (arr_map fst dps1) (arr_map fst dps2) dA;
  do t_py <- booked2 (arr_map snd dps1) (arr_map snd dps2) dA;
  do s1 <- NdModel.binary_op v3_add s_grav_1 s_grav_2;
  do s2 <- NdModel.binary_op v3_add s1 s_sink_1;
  do s3 <- NdModel.binary_op v3_add s2 s_sink_2;
  do s4 <- NdModel.binary_op v3_add s3 s_buffer;
  do s5 <- NdModel.binary_op v3_add s4 s_geom;
  Ok (s5, Totals t_mass t_lz t_torque t_px t_py t_fx t_fy two_zero t_mass_ej t_lz_ej).
