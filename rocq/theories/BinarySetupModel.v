(** The start of the binary program: the initial disk, the solver data and the initial solution
    (src/subprog_binary.cpp 105-227, src/subprog_binary_solver_data.cpp 18-115).  Doubles are real numbers. *)
From Coq Require Import ZArith Reals List Bool String.
From Verif Require Import Base TreeModel BalanceModel FluxModel NdModel NdOpsModel MeshModel TwoBodyModel HydroModel SourceModel SolutionModel.
Import ListNotations.
Open Scope R_scope.

(** The items of create_config_template that are read below, src/subprog_binary.cpp 57-99, with the int items as Z. *)
Record options := Options {
  o_cfl_number : R; o_fixed_dt : Z; o_depth : Z; o_begin_live_binary : R; o_conserve_linear_p : Z; o_block_size : Z;
  o_focus_factor : R; o_focus_index : R; o_rk_order : Z; o_reconstruct_method : string; o_plm_theta : R;
  o_source_term_softening : R; o_softening_radius : R; o_sink_radius : R; o_sink_rate : R; o_buffer_damping_rate : R;
  o_domain_radius : R; o_disk_radius : R; o_disk_mass : R; o_ambient_density : R; o_density_floor : R; o_separation : R;
  o_mass_ratio : R; o_eccentricity : R; o_counter_rotate : Z; o_mach_number : R; o_axisymmetric_cs2 : Z;
  o_no_accretion_force : Z; o_alpha_cutoff_radius : R; o_alpha : R; o_nu : R; o_mdot : R }.

(** The default values, src/subprog_binary.cpp 57-99. *)
Definition default_options : options :=
  Options (4 / 10) 0 4 1000000 1 24 2 2 2 "plm" (18 / 10) 1 (5 / 100) (5 / 100) 1 10 12 2 (1 / 1000) (1 / 10000) 0 1 1 0 0 10 0 0 0 (1 / 10) 0 0.

(** An int as a condition. *)
Definition truth (z : Z) : bool := negb (z =? 0)%Z.

(** s0 and s1, src/subprog_binary.cpp 115-116. *)
Definition disk_s0 (o : options) : R := o_disk_mass o / (170618 / 10000 * o_disk_radius o * o_disk_radius o).
Definition disk_s1 (o : options) : R := o_ambient_density o * disk_s0 o.

(** sigma, src/subprog_binary.cpp 118-122. *)
Definition disk_sigma (o : options) (r : R) : R :=
  let x := r / o_disk_radius o in disk_s0 o * exp (- (1 / 2) * (x - 1) * (x - 1)) + disk_s1 o.

(** dp_dr, src/subprog_binary.cpp 124-131. *)
Definition disk_dp_dr (o : options) (r : R) : R :=
  let GM := 1 in
  let Ma := o_mach_number o in
  let rs := o_softening_radius o in
  let x := r / o_disk_radius o in
  GM / Ma / Ma / (r + rs) * (x * (1 - x) * (1 - disk_s1 o / disk_sigma o r) - 1).

(** The closure of create_disk_profile, src/subprog_binary.cpp 133-152.  None is a velocity that is not a number: the
    root of a negative number, or 0 / 0 at the origin.  The other divisors (disk_radius, mach_number, the density and
    r + softening_radius) are taken not to be zero. *)
Definition disk_profile (o : options) (p : R * R) : option iprim :=
  let x := fst p in
  let y := snd p in
  let r := sqrt (x * x + y * y) in
  let rs := o_softening_radius o in
  let GM := 1 in
  let k := GM / (r + rs) + disk_dp_dr o r in
  if Req_EM_T r 0 then None else
  if Rlt_dec k 0 then None else
  let vp := sqrt k * (if truth (o_counter_rotate o) then -1 else 1) in
  let vr := - o_mdot o / (disk_sigma o r * 2 * PI * r) * (if Rlt_dec 2 r then 1 else 0) in
  Some (IPrim (disk_sigma o r) (vr * (x / r) + vp * (- y / r)) (vr * (y / r) + vp * (x / r))).

(** block | nd::map(create_disk_profile(run_config)), src/subprog_binary.cpp 201, 210 and
    src/subprog_binary_solver_data.cpp 38.  An element that is not a number is nothing the model can go on with: it is
    UB here. *)
Definition disk_block (o : options) (xc : array (R * R)) : array iprim :=
  mkarr (ashape xc) (fun k => do p <- aget xc k; match disk_profile o p with Some P => Ok P | None => UB end).

(** create_vertices with the options read, src/subprog_binary.cpp 166-184.  block_size and depth become size_t. *)
Definition vertices_of (fuel : nat) (o : options) : outcome (tree (array (R * R))) :=
  create_vertices fuel (refinement_radius (o_focus_factor o) (o_focus_index o)) (w64 (o_block_size o)) (Z.to_nat (w64 (o_depth o))) (o_domain_radius o).

(** create_binary_params, src/subprog_binary.cpp 186-194. *)
Definition binary_params (o : options) : orbit := Orbit (o_separation o) 1 (o_mass_ratio o) (o_eccentricity o).

(** create_solution, src/subprog_binary.cpp 196-227. *)
Definition create_solution (fuel : nat) (o : options) : outcome solution :=
  do v <- vertices_of fuel o;
  do u <- tmapM (fun b => do xc <- MeshModel.cell_centers b; forced (arr_map iso_conserved (disk_block o xc))) v;
  do q <- tmapM (fun b => do xc <- MeshModel.cell_centers b; do a <- zip_apply (fun x P => iso_angmom P (fst x) (snd x)) xc (disk_block o xc); forced a) v;
  let lin := truth (o_conserve_linear_p o) in
  Ok (Solution 0 (if lin then u else empty_tree) (if lin then empty_tree else q) two_zero two_zero two_zero two_zero 0 0
        zero_elements zero_elements (elements_of_orbit (binary_params o))).

(** The largest of the values of a tree, src/core_tree.hpp; tmin is the smallest. *)
Fixpoint tmax (t : tree R) : R :=
  match t with
  | Leaf x => x
  | Node cs => match map tmax cs with [] => 0 | x :: l => fold_left Rmax l x end
  end.
(** nd::min and nd::max. *)
Definition least (a : array R) : outcome R := arr_best (volume_of (ashape a)) (fun x y => if Rlt_dec x y then true else false) 0 a.
Definition greatest (a : array R) : outcome R := arr_best (volume_of (ashape a)) (fun x y => if Rlt_dec y x then true else false) 0 a.

(** min_dx and min_dy, src/subprog_binary_solver_data.cpp 41-55. *)
Definition min_spacing (axis : nat) (v : tree (array (R * R))) : outcome R :=
  do t <- tmapM (fun b => do d <- difference_on_axis Rminus axis (arr_map (if (axis =? 0)%nat then fst else snd) b); least d) v;
  Ok (tmin t).

(** velocity_magnitude, src/physics_iso2d.hpp 191-200. *)
Definition velocity_magnitude (P : iprim) : R := sqrt (HydroModel.vx P * HydroModel.vx P + HydroModel.vy P * HydroModel.vy P).

(** The lambda of buffer_rate_field, src/subprog_binary_solver_data.cpp 69-77. *)
Definition buffer_rate (o : options) (p : R * R) : R :=
  let tightness := 3 in
  let rc := sqrt (fst p * fst p + snd p * snd p) in
  o_buffer_damping_rate o * (1 + tanh (tightness * (rc - o_domain_radius o))).

(** create_solver_data, src/subprog_binary_solver_data.cpp 18-115. *)
Definition create_solver_data (fuel : nat) (o : options) : outcome (settings * fields) :=
  do v <- vertices_of fuel o;
  do xc <- tmapM MeshModel.cell_centers v;
  do dA <- tmapM MeshModel.cell_areas v;
  do dx <- min_spacing 0 v;
  do dy <- min_spacing 1 v;
  do m <- tmapM (fun c => greatest (arr_map velocity_magnitude (disk_block o c))) xc;
  let max_velocity := Rmax 1 (tmax m) in
  do br <- tmapM (fun c => forced (arr_map (buffer_rate o) c)) xc;
  do s <- create_solution fuel o;
  let sd := Settings (o_sink_rate o) (Rmin dx dy / max_velocity * o_cfl_number o) (o_softening_radius o)
    (o_source_term_softening o * Rmin dx dy) (o_domain_radius o) (o_sink_radius o) (o_density_floor o * o_disk_mass o)
    (o_mach_number o) (o_alpha o) (o_alpha_cutoff_radius o) (o_nu o) (o_plm_theta o) (o_cfl_number o) (o_begin_live_binary o)
    (o_rk_order o) (truth (o_axisymmetric_cs2 o)) (truth (o_conserve_linear_p o)) (truth (o_fixed_dt o))
    (truth (o_no_accretion_force o)) (w64 (o_block_size o)) in
  if String.eqb (o_reconstruct_method o) "pcm" || String.eqb (o_reconstruct_method o) "plm" then
    Ok (sd, Fields v xc dA (conserved_u s) (conserved_q s) br)
  else Throw InvalidArgument.
