(** Whole steps of the binary solution (src/subprog_binary_scheme.cpp 145-320, 565-610, 725-1128, src/subprog_binary.cpp
    258-293).  Doubles are exact real numbers.  The conserved tuples are advanced component by component with
    StepModel.advance and put together again.  The iteration number is left out (RationalModel), as is what
    validate prints. *)
From Coq Require Import ZArith Reals List Bool.
From Verif Require Import Base TreeModel BalanceModel NdModel NdSpec NdOpsModel FluxModel MeshModel PlmModel DimensionalModel TwoBodyModel HydroModel StepModel SourceModel.
Import ListNotations.
Open Scope R_scope.

(** The fields in solver_data_t, src/subprog_binary.hpp 97-102. *)
Record fields := Fields {
  vertices : tree (array (R * R)); cell_centers : tree (array (R * R)); cell_areas : tree (array R);
  initial_conserved_u : tree (array v3); initial_conserved_q : tree (array v3); buffer_rate_field : tree (array R) }.

(** solution_t, src/subprog_binary.hpp 107-125. *)
Record solution := Solution {
  time : R; conserved_u : tree (array v3); conserved_q : tree (array v3);
  s_mass_accreted_on : R * R; s_angular_momentum_accreted_on : R * R; s_integrated_torque_on : R * R; s_work_done_on : R * R;
  s_mass_ejected : R; s_angular_momentum_ejected : R;
  orbital_elements_acc : elements; orbital_elements_grav : elements; orbital_elements : elements }.

(** A default tree of arrays of rank 2: one leaf, no cells, src/core_tree.hpp 911 and src/core_ndarray.hpp. *)
Definition empty_tree {A} : tree (array A) := Leaf (mkarr [0; 0]%Z (fun _ => UB)).

(** Primitive variables are sequences, src/physics_iso2d.hpp 63-64 and src/core_sequence.hpp 505-526. *)
Definition prim_add (a b : iprim) : iprim := IPrim (sigma a + sigma b) (vx a + vx b) (vy a + vy b).
Definition prim_sub (a b : iprim) : iprim := IPrim (sigma a - sigma b) (vx a - vx b) (vy a - vy b).
Definition prim_mul (a : iprim) (k : R) : iprim := IPrim (sigma a * k) (vx a * k) (vy a * k).

(** spacing_at_root / (1 << level), src/subprog_binary_scheme.cpp 790-798, 1112-1118. *)
Definition spacing_at (sd : settings) (l : nat) : R := 2 * domain_radius sd / IZR (block_size sd) / 2 ^ l.

(** estimate_gradient of one cell, src/subprog_binary_scheme.cpp 789-800 with estimate_plm_difference 149-155.  The sign
    bits of zeros do not matter. *)
Definition plm_slope (sd : settings) (safe_mode : bool) (l : nat) (a b c : iprim) : iprim :=
  let th := if safe_mode then 0 else plm_theta sd in
  let g x y z := plm_gradient false false false x y z th / spacing_at sd l in
  IPrim (g (sigma a) (sigma b) (sigma c)) (g (vx a) (vx b) (vx c)) (g (vy a) (vy b) (vy c)).

(** nu_at_position, src/subprog_binary_scheme.cpp 178-194. *)
Definition nu_at_position (sd : settings) (x : R * R) (cs2 : R) : R :=
  let radius := sqrt (fst x * fst x + snd x * snd x) in
  let rc := alpha_cutoff_radius sd in
  let profile := if Rlt_dec 0 rc then 0.5 * (1 + tanh (3 * (radius - rc))) else 1 in
  if Rlt_dec 0 (nu sd) then profile * nu sd else profile * alpha sd * sqrt cs2 * (radius / mach_number sd).

(** viscous_flux, src/subprog_binary_scheme.cpp 220-262; the axis is 0 or 1. *)
Definition viscous_flux (axis : nat) (g h : iprim * iprim) (mu : R) : v3 :=
  let mean (f : iprim -> R) (p : iprim * iprim) := 0.5 * (f (fst p) + f (snd p)) in
  if (axis =? 0)%nat then
    let dx_ux := mean vx g in let dx_uy := mean vy g in let dy_ux := mean vx h in let dy_uy := mean vy h in
    V3 0 (- (mu * (dx_ux - dy_uy))) (- (mu * (dx_uy + dy_ux)))
  else
    let dx_ux := mean vx h in let dx_uy := mean vy h in let dy_ux := mean vx g in let dy_uy := mean vy g in
    V3 0 (- (mu * (dx_uy + dy_ux))) (- (- mu * (dx_ux - dy_uy))).

(** unit_vector_t::on_axis, src/core_geometric.hpp 62-75. *)
Definition axis_vector (axis : nat) : unit_vector := if (axis =? 0)%nat then make_unit_vector 1 0 0 else make_unit_vector 0 1 0.

(** intercell_flux_u, src/subprog_binary_scheme.cpp 265-291. *)
Definition intercell_flux_u (sd : settings) (b : two_body) (axis l : nat) (xf : R * R) (p0 g_long g_tran : iprim * iprim) : v3 :=
  let dx := spacing_at sd l in
  let pl_hat := prim_add (fst p0) (prim_mul (prim_mul (fst g_long) 0.5) dx) in
  let pr_hat := prim_sub (snd p0) (prim_mul (prim_mul (snd g_long) 0.5) dx) in
  let cs2 := cs2_at_position sd b xf in
  let mu := 0.5 * nu_at_position sd xf cs2 * (sigma pl_hat + sigma pr_hat) in
  v3_add (iso_hlle pl_hat pr_hat cs2 cs2 (axis_vector axis)) (viscous_flux axis g_long g_tran mu).
(** intercell_flux_q, src/subprog_binary_scheme.cpp 293-320. *)
Definition intercell_flux_q (sd : settings) (b : two_body) (axis l : nat) (xf : R * R) (p0 g_long g_tran : iprim * iprim) : v3 :=
  to_angmom_fluxes axis (domain_radius sd) xf (intercell_flux_u sd b axis l xf p0 g_long g_tran).

(** An exception in a task of the thread pool ends the process (nothing calls set_exception, src/core_thread_pool.hpp
    100-110), which is given as [UB]: the step does not catch it. *)
Definition in_task {A} (m : outcome A) : outcome A := match m with Throw _ => UB | _ => m end.

(** Number of indexes of a shape. *)
Definition volume_of (s : list Z) : nat := Z.to_nat (prodz s).

(** nd::to_shared of an array whose elements are computed by a function that can throw, src/core_ndarray.hpp 1419-1432. *)
Definition forced {A} (a : array A) : outcome (array A) :=
  do _ <- for_each (volume_of (ashape a)) (make_access_pattern (ashape a)) (fun i _ => do _ <- aget a i; Ok tt) tt;
  Ok a.

(** recover_primitive, src/subprog_binary_scheme.cpp 1075-1100. *)
Definition recover_primitive (sd : settings) (fd : fields) (s : solution) : outcome (tree (array iprim)) :=
  if conserve_linear_p sd then
    tmapM (fun U => in_task (forced (mkarr (ashape U) (fun i => do u <- aget U i; iso_recover u)))) (conserved_u s)
  else
    do qx <- pair_trees (conserved_q s) (cell_centers fd);
    tmapM (fun z => in_task (
      do QX <- zip2 (fst z) (snd z);
      forced (mkarr (ashape QX) (fun i => do w <- aget QX i; iso_recover_angmom (fst w) (fst (snd w)) (snd (snd w)))))) qx.

(** Putting the three components of the tuples together. *)
Definition join3 (t0 t1 t2 : tree (array R)) : outcome (tree (array v3)) :=
  tmapM (fun i =>
    do a <- at_ t0 i; do b <- at_ t1 i; do c <- at_ t2 i;
    do bc <- zip2 b c; do abc <- zip2 a bc;
    Ok (arr_map (fun w => V3 (fst w) (fst (snd w)) (snd (snd w))) abc)) (indexes 2 t0).

(** The new conserved tuples: block_fluxes, correct_fluxes and block_update of one step,
    src/subprog_binary_scheme.cpp 803-829, 922-945. *)
Definition update3 (sd : settings) (fd : fields) (fuel : nat) (safe_mode : bool) (flux : nat -> nat -> R * R -> iprim * iprim -> iprim * iprim -> iprim * iprim -> v3)
    (p0 : tree (array iprim)) (u0 src : tree (array v3)) (dt : R) : outcome (tree (array v3)) :=
  let one (c : v3 -> R) := StepModel.advance prim_add (fun p => prim_mul p (1 / 2)) (plm_slope sd safe_mode) (fun a l x p g h => c (flux a l x p g h))
    fuel (vertices fd) p0 (cell_areas fd) (tmap (arr_map c) u0) (tmap (arr_map c) src) dt in
  do t0 <- one d0; do t1 <- one d1; do t2 <- one d2; join3 t0 t1 t2.

(** The source terms of every block, src/subprog_binary_scheme.cpp 583, 606. *)
Definition sources_u (sd : settings) (fd : fields) (b : two_body) (u0 : tree (array v3)) (dt : R) (i : idx) : outcome (array v3 * totals) :=
  do xc <- at_ (cell_centers fd) i; do dA <- at_ (cell_areas fd) i; do br <- at_ (buffer_rate_field fd) i;
  do u <- at_ u0 i; do ui <- at_ (initial_conserved_u fd) i;
  source_terms_u sd b xc dA br u ui dt.
Definition sources_q (sd : settings) (fd : fields) (b : two_body) (p0 : tree (array iprim)) (q0 : tree (array v3)) (dt : R) (i : idx) : outcome (array v3 * totals) :=
  do xc <- at_ (cell_centers fd) i; do dA <- at_ (cell_areas fd) i; do br <- at_ (buffer_rate_field fd) i;
  do q <- at_ q0 i; do qi <- at_ (initial_conserved_q fd) i; do p <- at_ p0 i;
  source_terms_q sd b xc dA br p q qi dt.

(** validate_u and validate_q, src/subprog_binary_scheme.cpp 726-784. *)
Definition negative_density (xc : tree (array (R * R))) (u : tree (array v3)) (i : idx) : outcome bool :=
  do x <- at_ xc i; do b <- at_ u i; do z <- zip2 x b;
  arr_sum (volume_of (ashape z)) false Init.Datatypes.orb (arr_map (fun w => if Rlt_dec (d0 (snd w)) 0 then true else false) z).
Definition validate (fd : fields) (u : tree (array v3)) (s : solution) : outcome solution :=
  do bad <- tmapM (negative_density (cell_centers fd) u) (indexes 2 u);
  if existsb (fun b => b) (leaves bad) then Throw RuntimeError else Ok s.

(** The bodies after accretion and after the pull of the gas, src/subprog_binary_scheme.cpp 831-883, 947-999. *)
Definition accreted_body (sd : settings) (b : body) (dM dpx dpy : R) : body :=
  let M := mass b in
  let p1 := M * TwoBodyModel.vx b in let p2 := M * TwoBodyModel.vy b in
  let v1 := (p1 + dpx) / (M + dM) in let v2 := (p2 + dpy) / (M + dM) in
  Body (mass b + dM) (px b) (py b) (if no_accretion_force sd then TwoBodyModel.vx b else v1) (if no_accretion_force sd then TwoBodyModel.vy b else v2).
Definition pulled_body (b : body) (fx fy : R) : body :=
  Body (mass b) (px b) (py b) (TwoBodyModel.vx b + fx / mass b) (TwoBodyModel.vy b + fy / mass b).
Definition bodies_acc (sd : settings) (b : two_body) (t : totals) : two_body :=
  TwoBody (accreted_body sd (body1 b) (fst (mass_accreted_on t)) (fst (momentum_x_accreted_on t)) (fst (momentum_y_accreted_on t)))
          (accreted_body sd (body2 b) (snd (mass_accreted_on t)) (snd (momentum_x_accreted_on t)) (snd (momentum_y_accreted_on t))).
Definition bodies_grv (b : two_body) (t : totals) : two_body :=
  TwoBody (pulled_body (body1 b) (fst (integrated_force_x_on t)) (fst (integrated_force_y_on t)))
          (pulled_body (body2 b) (snd (integrated_force_x_on t)) (snd (integrated_force_y_on t))).

(** The new solution, src/subprog_binary_scheme.cpp 885-903, 1001-1020. *)
Definition booked_solution (sd : settings) (s : solution) (b : two_body) (t : totals) (u1 q1 : tree (array v3)) (dt : R) : outcome solution :=
  let live := if Rlt_dec (begin_live_binary sd) (time s) then 1 else 0 in
  let E0 := orbital_elements s in
  do E_acc <- elements_at (bodies_acc sd b t) (time s);
  do E_grv <- elements_at (bodies_grv b t) (time s);
  Ok (Solution (time s + dt) u1 q1
    (two_add (s_mass_accreted_on s) (mass_accreted_on t)) (two_add (s_angular_momentum_accreted_on s) (angular_momentum_accreted_on t))
    (two_add (s_integrated_torque_on s) (integrated_torque_on t)) (two_add (s_work_done_on s) (work_done_on t))
    (s_mass_ejected s + mass_ejected t) (s_angular_momentum_ejected s + angular_momentum_ejected t)
    (eadd (orbital_elements_acc s) (ediff E0 E_acc)) (eadd (orbital_elements_grav s) (ediff E0 E_grv))
    (eadd E0 (escale (eadd (eadd (ediff E0 E_acc) (ediff E0 E_grv)) (ediff_cm E0 dt)) live))).

(** advance_u, src/subprog_binary_scheme.cpp 787-904. *)
Definition advance_u (sd : settings) (fd : fields) (fuel : nat) (s : solution) (dt : R) (safe_mode : bool) : outcome solution :=
  do p0 <- recover_primitive sd fd s;
  do b <- full_state_at fuel (orbital_elements s) (time s);
  do r <- tmapM (sources_u sd fd b (conserved_u s) dt) (indexes 2 p0);
  do u1 <- update3 sd fd fuel safe_mode (intercell_flux_u sd b) p0 (conserved_u s) (tmap fst r) dt;
  do s1 <- booked_solution sd s b (tsum no_totals totals_add (tmap snd r)) u1 empty_tree dt;
  validate fd u1 s1.
(** advance_q, src/subprog_binary_scheme.cpp 906-1021. *)
Definition advance_q (sd : settings) (fd : fields) (fuel : nat) (s : solution) (dt : R) (safe_mode : bool) : outcome solution :=
  do p0 <- recover_primitive sd fd s;
  do b <- full_state_at fuel (orbital_elements s) (time s);
  do r <- tmapM (sources_q sd fd b p0 (conserved_q s) dt) (indexes 2 p0);
  do q1 <- update3 sd fd fuel safe_mode (intercell_flux_q sd b) p0 (conserved_q s) (tmap fst r) dt;
  do s1 <- booked_solution sd s b (tsum no_totals totals_add (tmap snd r)) empty_tree q1 dt;
  validate fd q1 s1.
(** advance, src/subprog_binary_scheme.cpp 1023-1028. *)
Definition advance (sd : settings) (fd : fields) (fuel : nat) (s : solution) (dt : R) (safe_mode : bool) : outcome solution :=
  if conserve_linear_p sd then advance_u sd fd fuel s dt safe_mode else advance_q sd fd fuel s dt safe_mode.

(** Sum and multiples of solutions, src/subprog_binary_scheme.cpp 1033-1069. *)
Definition tree_add (t u : tree (array v3)) : outcome (tree (array v3)) :=
  do p <- pair_trees t u; tmapM (fun z => NdModel.binary_op v3_add (fst z) (snd z)) p.
Definition tree_mul (t : tree (array v3)) (k : R) : tree (array v3) := tmap (arr_map (fun u => v3_mul u k)) t.
Definition solution_add (a b : solution) : outcome solution :=
  do u <- tree_add (conserved_u a) (conserved_u b);
  do q <- tree_add (conserved_q a) (conserved_q b);
  Ok (Solution (time a + time b) u q
    (two_add (s_mass_accreted_on a) (s_mass_accreted_on b)) (two_add (s_angular_momentum_accreted_on a) (s_angular_momentum_accreted_on b))
    (two_add (s_integrated_torque_on a) (s_integrated_torque_on b)) (two_add (s_work_done_on a) (s_work_done_on b))
    (s_mass_ejected a + s_mass_ejected b) (s_angular_momentum_ejected a + s_angular_momentum_ejected b)
    (eadd (orbital_elements_acc a) (orbital_elements_acc b)) (eadd (orbital_elements_grav a) (orbital_elements_grav b))
    (eadd (orbital_elements a) (orbital_elements b))).
Definition solution_mul (a : solution) (k : R) : solution :=
  Solution (time a * k) (tree_mul (conserved_u a) k) (tree_mul (conserved_q a) k)
    (vec_mul (s_mass_accreted_on a) k) (vec_mul (s_angular_momentum_accreted_on a) k) (vec_mul (s_integrated_torque_on a) k) (vec_mul (s_work_done_on a) k)
    (s_mass_ejected a * k) (s_angular_momentum_ejected a * k)
    (escale (orbital_elements_acc a) k) (escale (orbital_elements_grav a) k) (escale (orbital_elements a) k).

(** maximum_timestep, src/subprog_binary_scheme.cpp 1107-1126.  It goes by the indexes of conserved_u whichever of the two
    trees is in use. *)
Fixpoint tmin (t : tree R) : R :=
  match t with
  | Leaf x => x
  | Node cs => match map tmin cs with [] => 0 | x :: l => fold_left Rmin l x end
  end.
Definition block_timestep (sd : settings) (fd : fields) (b : two_body) (p : tree (array iprim)) (i : idx) : outcome R :=
  do xc <- at_ (cell_centers fd) i;
  do pc <- at_ p i;
  do z <- zip2 pc xc;
  let w := arr_map (fun w => iso_max_wavespeed (fst w) (cs2_at_position sd b (snd w))) z in
  do m <- arr_best (volume_of (ashape w)) (fun a b => if Rlt_dec b a then true else false) 0 w;
  Ok (spacing_at sd (level i) / m).
Definition maximum_timestep (sd : settings) (fd : fields) (fuel : nat) (s : solution) : outcome R :=
  do p <- recover_primitive sd fd s;
  do b <- full_state_at fuel (orbital_elements s) (time s);
  do t <- tmapM (block_timestep sd fd b p) (indexes 2 (conserved_u s));
  Ok (tmin t).

(** next_solution, src/subprog_binary.cpp 258-293. *)
Definition can_fail (sd : settings) (fd : fields) (fuel : nat) (s0 : solution) (dt : R) (safe_mode : bool) : outcome solution :=
  if (rk_order sd =? 1)%Z then advance sd fd fuel s0 dt safe_mode
  else if (rk_order sd =? 2)%Z then
    do s1 <- advance sd fd fuel s0 dt safe_mode;
    do s2 <- advance sd fd fuel s1 dt safe_mode;
    solution_add (solution_mul s0 (1 / 2)) (solution_mul s2 (1 - 1 / 2))
  else Throw InvalidArgument.
Definition next_solution (sd : settings) (fd : fields) (fuel : nat) (s : solution) : outcome solution :=
  do dt <- (if fixed_dt sd then Ok (recommended_time_step sd) else do m <- maximum_timestep sd fd fuel s; Ok (cfl_number sd * m));
  match can_fail sd fd fuel s dt false with
  | Throw _ => can_fail sd fd fuel s (dt * (1 / 10)) true
  | r => r
  end.
(** The loop of main, src/subprog_binary.cpp 414-436, without its tasks: n steps. *)
Fixpoint steps (sd : settings) (fd : fields) (fuel : nat) (n : nat) (s : solution) : outcome solution :=
  match n with O => Ok s | S m => do s1 <- next_solution sd fd fuel s; steps sd fd fuel m s1 end.

(** disk_mass and disk_angular_momentum, src/subprog_binary_diagnostics.cpp 18-42. *)
Definition tree_total (t : tree (array R)) : outcome R :=
  do s <- tmapM (fun a => arr_sum (volume_of (ashape a)) 0 Rplus a) t; Ok (tsum 0 Rplus s).
Definition tree_times (t u : tree (array R)) : outcome (tree (array R)) :=
  do p <- pair_trees t u; tmapM (fun z => NdModel.binary_op Rmult (fst z) (snd z)) p.
Definition disk_mass (sd : settings) (fd : fields) (s : solution) : outcome R :=
  do p <- tree_times (tmap (arr_map d0) (if conserve_linear_p sd then conserved_u s else conserved_q s)) (cell_areas fd);
  tree_total p.
Definition disk_angular_momentum (sd : settings) (fd : fields) (s : solution) : outcome R :=
  if conserve_linear_p sd then
    do ux <- pair_trees (conserved_u s) (cell_centers fd);
    do lz <- tmapM (fun z => zip_apply (fun u x => iso_angular_momentum u (fst x) (snd x)) (fst z) (snd z)) ux;
    do p <- tree_times lz (cell_areas fd);
    tree_total p
  else
    do p <- tree_times (tmap (arr_map d2) (conserved_q s)) (cell_areas fd);
    tree_total p.
