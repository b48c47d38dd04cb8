(** Two disks whose densities differ by a factor, and runs of the disk program that take every step at the first attempt and before the
    binary goes live. *)
From Coq Require Import ZArith Reals List Bool.
From Verif Require Import Base TreeModel NdModel NdOpsModel MeshModel DimensionalModel TwoBodyModel HydroModel SourceModel SolutionModel BinarySetupModel RelProofs.
Import ListNotations.
Open Scope R_scope.

(** The same settings with another density floor. *)
Definition with_floor (sd : settings) (f : R) : settings :=
  Settings (sink_rate sd) (recommended_time_step sd) (softening_radius sd) (gst_suppr_radius sd) (domain_radius sd) (sink_radius sd)
    f (mach_number sd) (alpha sd) (alpha_cutoff_radius sd) (nu sd) (plm_theta sd) (cfl_number sd)
    (begin_live_binary sd) (rk_order sd) (axisymmetric_cs2 sd) (conserve_linear_p sd) (fixed_dt sd) (no_accretion_force sd) (block_size sd).

Section Units.
Variable k : R.
(** Numbers, tuples and pairs k times as large; states of k times the density with the same velocity. *)
Definition num (x y : R) : Prop := y = x * k.
Definition tup (u v : v3) : Prop := v = v3_mul u k.
Definition two (u v : R * R) : Prop := v = vec_mul u k.
Definition gas (p q : iprim) : Prop := q = IPrim (sigma p * k) (vx p) (vy p).

(** The settings and the options of a disk k times as heavy: disk_mass and mdot, and with disk_mass the density floor
    (src/subprog_binary_solver_data.cpp 18-115, src/subprog_binary.cpp 105-152). *)
Definition floor_of (sd : settings) : settings := with_floor sd (density_floor sd * k).
Definition heavier (o : options) : options :=
  Options (o_cfl_number o) (o_fixed_dt o) (o_depth o) (o_begin_live_binary o) (o_conserve_linear_p o) (o_block_size o) (o_focus_factor o) (o_focus_index o) (o_rk_order o) (o_reconstruct_method o) (o_plm_theta o)
    (o_source_term_softening o) (o_softening_radius o) (o_sink_radius o) (o_sink_rate o) (o_buffer_damping_rate o) (o_domain_radius o) (o_disk_radius o) (o_disk_mass o * k) (o_ambient_density o) (o_density_floor o) (o_separation o)
    (o_mass_ratio o) (o_eccentricity o) (o_counter_rotate o) (o_mach_number o) (o_axisymmetric_cs2 o) (o_no_accretion_force o) (o_alpha_cutoff_radius o) (o_alpha o) (o_nu o) (o_mdot o * k).
Notation cells E := (trel (arel E)).
(** What is given with the mesh, and the states of the run. *)
Record fields_in_units (fd fd' : fields) : Prop := {
  fu_vertices : vertices fd' = vertices fd; fu_centers : cell_centers fd' = cell_centers fd; fu_areas : cell_areas fd' = cell_areas fd; fu_buffer : buffer_rate_field fd' = buffer_rate_field fd;
  fu_u : cells tup (initial_conserved_u fd) (initial_conserved_u fd'); fu_q : cells tup (initial_conserved_q fd) (initial_conserved_q fd') }.
Record in_units (s s' : solution) : Prop := {
  iu_time : time s' = time s; iu_u : cells tup (conserved_u s) (conserved_u s'); iu_q : cells tup (conserved_q s) (conserved_q s');
  iu_mass : s_mass_accreted_on s' = vec_mul (s_mass_accreted_on s) k; iu_angmom : s_angular_momentum_accreted_on s' = vec_mul (s_angular_momentum_accreted_on s) k;
  iu_torque : s_integrated_torque_on s' = vec_mul (s_integrated_torque_on s) k; iu_mass_ej : s_mass_ejected s' = s_mass_ejected s * k; iu_angmom_ej : s_angular_momentum_ejected s' = s_angular_momentum_ejected s * k;
  iu_orbit : orbital_elements s' = orbital_elements s }.
End Units.

(** n steps, each made by the first attempt of next_solution (src/subprog_binary.cpp 258-293), at times before the binary goes live
    (src/subprog_binary_scheme.cpp 787-1069). *)
Definition step_length (sd : settings) (fd : fields) (fuel : nat) (s : solution) : outcome R :=
  if fixed_dt sd then Ok (recommended_time_step sd) else do m <- maximum_timestep sd fd fuel s; Ok (cfl_number sd * m).
Inductive first_attempts (sd : settings) (fd : fields) (fuel : nat) : nat -> solution -> solution -> Prop :=
| no_attempt s : time s <= begin_live_binary sd -> first_attempts sd fd fuel O s s
| an_attempt n s dt s1 r : time s <= begin_live_binary sd -> step_length sd fd fuel s = Ok dt -> can_fail sd fd fuel s dt false = Ok s1 ->
    first_attempts sd fd fuel n s1 r -> first_attempts sd fd fuel (S n) s r.
