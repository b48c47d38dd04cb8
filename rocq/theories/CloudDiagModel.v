(** The diagnostics of the cloud program, src/subprog_cloud.cpp 139-175 and 334-435, on the arrays of NdModel.  Doubles are
    real numbers; the numbers of the program in the units of the reference system are converted as in CloudModel. *)
From Coq Require Import ZArith Reals List.
From Verif Require Import Base NdModel NdOpsModel DimensionalModel HydroModel PlmModel SedovModel CloudModel ShockModel.
Import ListNotations.
Open Scope R_scope.

(** The entries j of the fifteen arrays that the loop of src/subprog_cloud.cpp 362-398 fills, in the order of its last
    fifteen assignments; [powers] are those of postshock_flow_power02, 04, 08, 16, 32 and 64. *)
Record zone := Zone { solid_angle : R; total_energy : R; midpoint_radius : R; upstream_radius : R; pressure_radius : R; luminosity_radius : R;
  flow_gamma : R; flow_power : R; powers : list R; flow_power_max : R }.
(** diagnostic_fields_t, src/subprog_cloud.cpp 139-175.  The fifteen arrays over the polar zones are one list of records. *)
Record fields := Fields { f_time : R; f_radial_vertices : array R; f_polar_vertices : array R; f_zones : list zone;
  f_specific_entropy : array R; f_gas_pressure : array R; f_mass_density : array R; f_radial_gamma_beta : array R; f_radial_energy_flow : array R }.

(** p.flux(rhat, gamma_law_index)[4], src/physics_srhd.hpp 259-281. *)
Definition radial_energy_flux (P : prim) : R := c4 (srhd_flux P (on_axis 0) (srhd_conserved P gamma_law_index)).
(** The indexes iNN of src/subprog_cloud.cpp 376-381. *)
Definition shells_behind (k i : Z) : Z := if (k <? i)%Z then (i - k)%Z else 0%Z.

Section Diagnostics.
Variable c : config.
Variable fuel : nat.
(** [primitive], src/subprog_cloud.cpp 340-344; it is not evaluated. *)
Definition gas_state (s : solution) : outcome (array prim) :=
  do dv <- cell_volumes (radial_vertices s) (polar_vertices s);
  do q <- binary_op over5 (conserved s) dv;
  Ok (arr_mapM (fun U => srhd_recover U gamma_law_index (temperature_floor c)) q).
(** The body of the loop, src/subprog_cloud.cpp 364-397. *)
Definition zone_at (reference : unit_system) (s : solution) (dAr radial_cells : array R) (primitive : array prim) (j : Z) : outcome zone :=
  do p0 <- freeze_axis 1 j primitive;
  do pj <- evaluate fuel zero_prim p0;
  do uj <- freeze_axis 1 j (conserved s);
  do a0 <- freeze_axis 1 j dAr;
  do Aj <- midpoint 0 a0;
  do l0 <- binary_op Rmult (arr_map radial_energy_flux pj) Aj;
  let Lj := arr_map (fun x => x * power reference) l0 in
  do si <- find_shock_index fuel gamma_law_index pj;
  let i := hd 0%Z si in
  do up <- find_index_of_pressure_plateau_ahead fuel pj i;
  do pr <- find_index_of_maximum_pressure_behind fuel pj i;
  do lu <- find_index_of_maximum_behind fuel Lj i;
  do a00 <- aget dAr [0%Z; j]; do r0 <- aget (radial_vertices s) [0%Z];
  do e <- arr_sum fuel 0 Rplus (arr_map (fun u => c4 u * energy reference) uj);
  do r_mid <- aget radial_cells [i]; do r_up <- aget radial_cells [up]; do r_pr <- aget radial_cells [pr]; do r_lu <- aget radial_cells [lu];
  do p <- aget primitive [pr; j];
  do lp <- aget Lj [pr];
  do ls <- mapM (fun k => aget Lj [shells_behind k i]) [2; 4; 8; 16; 32; 64]%Z;
  do lm <- aget Lj [lu];
  Ok (Zone (a00 / r0 / r0) e (r_mid * u_length reference) (r_up * u_length reference) (r_pr * u_length reference) (r_lu * u_length reference) (lorentz_factor p) lp ls lm).
(** make_diagnostic_fields, src/subprog_cloud.cpp 334-435; nd::to_shared evaluates. *)
Definition make_diagnostic_fields (s : solution) : outcome fields :=
  do reference <- make_reference_units c;
  do primitive <- gas_state s;
  do dAr <- radial_face_areas (radial_vertices s) (polar_vertices s);
  do radial_cells <- midpoint 0 (radial_vertices s);
  do zones <- mapM (zone_at reference s dAr radial_cells primitive) (map Z.of_nat (seq 0 (Z.to_nat (volume (ashape (polar_vertices s)) - 1))));
  do rv <- evaluate fuel 0 (arr_map (fun x => x * u_length reference) (radial_vertices s));
  do se <- evaluate fuel 0 (arr_map (specific_entropy gamma_law_index) primitive);
  do gp <- evaluate fuel 0 (arr_map (fun p => pre p * energy_density reference) primitive);
  do md <- evaluate fuel 0 (arr_map (fun p => rho p * mass_density reference) primitive);
  do gb <- evaluate fuel 0 (arr_map u1 primitive);
  do inner <- select_axis 0 0 1 1 true dAr;
  do fl <- binary_op times5 (arr_map (fun p => srhd_flux p (on_axis 0) (srhd_conserved p gamma_law_index)) primitive) inner;
  do ef <- evaluate fuel 0 (arr_map (fun F => c4 F * power reference) fl);
  Ok (Fields (time s * u_time reference) rv (polar_vertices s) zones se gp md gb ef).
End Diagnostics.
