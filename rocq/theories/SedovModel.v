(** The explosion program, src/subprog_sedov.cpp: grid, initial condition, boundary conditions and time step, on the
    arrays of NdModel.  Doubles are real numbers.  The iteration number is left out (RationalModel), the schedule is that
    of ScheduleModel. *)
From Coq Require Import ZArith Reals List.
From Verif Require Import Base NdModel NdOpsModel DimensionalModel HydroModel.
Import ListNotations.
Open Scope R_scope.

(** The template argument HydroSystem, as far as the program uses it; src/subprog_sedov.cpp 120-122. *)
Record hydro := Hydro { recover : v5 -> outcome prim; riemann : prim -> prim -> v5; source : prim -> R -> v5; to_conserved : prim -> v5 }.
(** The macros of src/subprog_sedov.cpp 48-49. *)
Definition gamma_law_index : R := 4 / 3.
Definition cfl_number : R := 4 / 10.
(** on_axis_1, src/core_geometric.hpp, see DimensionalModel. *)
Definition radial : unit_vector := make_unit_vector 1 0 0.
(** SedovProblem<mara::euler> and SedovProblem<mara::srhd>: the functions bound in src/subprog_sedov.cpp 226, 400-401 with
    temperature floor 0. *)
Definition euler_system : hydro :=
  Hydro (fun U => Ok (euler_recover U gamma_law_index 0)) (fun l r => euler_hlle l r radial gamma_law_index) euler_source_radial (fun P => euler_conserved P gamma_law_index).
Definition srhd_system : hydro :=
  Hydro (fun U => srhd_recover U gamma_law_index 0) (fun l r => srhd_hlle l r radial gamma_law_index) (fun P => srhd_source_radial P gamma_law_index) (fun P => srhd_conserved P gamma_law_index).

(** Arithmetic of sequences of five, src/core_sequence.hpp 240-330. *)
Definition plus5 (A B : v5) : v5 := V5 (c0 A + c0 B) (c1 A + c1 B) (c2 A + c2 B) (c3 A + c3 B) (c4 A + c4 B).
Definition minus5 (A B : v5) : v5 := V5 (c0 A - c0 B) (c1 A - c1 B) (c2 A - c2 B) (c3 A - c3 B) (c4 A - c4 B).
Definition times5 (A : v5) (k : R) : v5 := V5 (c0 A * k) (c1 A * k) (c2 A * k) (c3 A * k) (c4 A * k).
Definition over5 (A : v5) (k : R) : v5 := V5 (c0 A / k) (c1 A / k) (c2 A / k) (c3 A / k) (c4 A / k).
(** The value of a default-constructed element of a buffer. *)
Definition zero5 : v5 := V5 0 0 0 0 0.
Definition zero_prim : prim := Prim 0 0 0 0 0.

(** nd::map with a function that may throw, src/core_ndarray.hpp 2290-2298. *)
Definition arr_mapM {A B} (f : A -> outcome B) (a : array A) : array B := mkarr (ashape a) (fun i => do x <- aget a i; f x).
(** operator unary minus of an array, src/core_ndarray.hpp 2460-2490. *)
Definition arr_opp (a : array R) : array R := arr_map Ropp a.

(** solution_state_t, src/subprog_sedov.cpp 128-134. *)
Record solution := Solution { s_time : R; s_vertices : array R; s_conserved : array v5 }.

(** negate_radial_velocity, src/subprog_sedov.cpp 86-94 (both systems). *)
Definition negate_radial_velocity (P : prim) : prim := Prim (rho P) (- u1 P) (u2 P) (u3 P) (pre P).
(** face_areas, src/subprog_sedov.cpp 167-171. *)
Definition face_areas (xv : array R) : array R := arr_map (fun r => r * r) xv.
(** cell_volumes, src/subprog_sedov.cpp 173-181. *)
Definition shell_volume (r0 r1 : R) : R := (r1 ^ 3 - r0 ^ 3) / 3.
Definition cell_volumes (xv : array R) : outcome (array R) :=
  do z <- zip_adjacent2_on_axis 0 xv; Ok (arr_map (fun w => shell_volume (fst w) (snd w)) z).
(** midpoint_on_axis(0) of the vertices. *)
Definition cell_centers (xv : array R) : outcome (array R) := midpoint_on_axis Rplus (fun x => x * 0.5) 0 xv.

Section Program.
Variable H : hydro.
Variable fuel : nat.

(** intercell_flux(0), src/subprog_sedov.cpp 217-229. *)
Definition intercell_flux (a : array prim) : outcome (array v5) :=
  do l <- select_axis 0 0 1 1 true a;
  do r <- select_axis 0 1 0 1 true a;
  do z <- zip2 l r;
  Ok (arr_map (fun w => riemann H (fst w) (snd w)) z).
(** extend_reflecting_inner, src/subprog_sedov.cpp 231-241. *)
Definition extend_reflecting_inner (a : array prim) : outcome (array prim) :=
  do xl <- select_first 1 0 a;
  concat_on 0 a (arr_map negate_radial_velocity xl).
(** extend_zero_gradient_outer, src/subprog_sedov.cpp 243-250. *)
Definition extend_zero_gradient_outer (a : array prim) : outcome (array prim) :=
  do xr <- select_final 1 0 a;
  concat_on 0 xr a.

(** p0 of next_solution and of the diagnostics: u0 / dv, recovered and evaluated, src/subprog_sedov.cpp 411. *)
Definition primitives (s : solution) : outcome (array prim) :=
  do dv <- cell_volumes (s_vertices s);
  do q <- binary_op over5 (s_conserved s) dv;
  evaluate fuel zero_prim (arr_mapM (recover H) q).

(** The time step, src/subprog_sedov.cpp 404-405. *)
Definition time_step (s : solution) : outcome R :=
  do d <- difference_on_axis Rminus 0 (s_vertices s);
  do dr_min <- aget d [0%Z];
  Ok (cfl_number * dr_min).

(** next_solution, src/subprog_sedov.cpp 394-421. *)
Definition next_solution (s : solution) : outcome solution :=
  do dt <- time_step s;
  do dv0 <- cell_volumes (s_vertices s);
  do dv <- evaluate fuel 0 dv0;
  let da := face_areas (s_vertices s) in
  do rc <- cell_centers (s_vertices s);
  let u0 := s_conserved s in
  do q <- binary_op over5 u0 dv;
  do p0 <- evaluate fuel zero_prim (arr_mapM (recover H) q);
  do pr <- zip2 p0 rc;
  do s0 <- binary_op times5 (arr_map (fun w => source H (fst w) (snd w)) pr) dv;
  do pi <- extend_reflecting_inner p0;
  do pe <- extend_zero_gradient_outer pi;
  do f <- intercell_flux pe;
  do fa <- binary_op times5 f (arr_opp da);
  do l0 <- difference_on_axis minus5 0 fa;
  do ls <- binary_op plus5 l0 s0;
  do u1 <- binary_op plus5 u0 (arr_map (fun x => times5 x dt) ls);
  do u1' <- evaluate fuel zero5 u1;
  Ok (Solution (s_time s + dt) (s_vertices s) u1').

(** The run loop, src/subprog_sedov.cpp 636-644, without its outputs. *)
Fixpoint run (steps : nat) (s : solution) : outcome solution :=
  match steps with O => Ok s | S k => do s' <- next_solution s; run k s' end.

(** new_solution, src/subprog_sedov.cpp 348-383.  The temperature is 1e-6. *)
Definition initial_p (explosion_density explosion_pressure density_index : R) (r : R) : prim :=
  Prim (if Rlt_dec r 1 then explosion_density else Rpower r (- density_index)) 0 0 0
       (if Rlt_dec r 1 then explosion_pressure else Rpower r (- density_index) * (1 / 1000000)).
(** [zones] is int(radial_decades * nr); the vertices are 10 to the powers between -0.5 and radial_decades. *)
Definition new_vertices (radial_decades : R) (zones : Z) : array R :=
  arr_map (fun y => Rpower 10 y) (linspace Rplus Rminus Rmult Rdiv IZR (- (1 / 2)) radial_decades (zones + 1)).
Definition new_solution (explosion_density explosion_pressure density_index radial_decades : R) (zones : Z) : outcome solution :=
  let xv := new_vertices radial_decades zones in
  do dv <- cell_volumes xv;
  do xc <- cell_centers xv;
  do xv' <- evaluate fuel 0 xv;
  do u <- binary_op times5 (arr_map (to_conserved H) (arr_map (initial_p explosion_density explosion_pressure density_index) xc)) dv;
  do u' <- evaluate fuel zero5 u;
  Ok (Solution 0 xv' u').
(** int(radial_decades * nr) + 1 vertices over radial_decades = log10(outer_radius), src/subprog_sedov.cpp 366-370; the
    conversion of a double outside the range of int is undefined. *)
Definition truncate (x : R) : Z := if Rle_dec 0 x then Int_part x else (- Int_part (- x))%Z.
Definition new_run (explosion_density explosion_pressure density_index outer_radius : R) (nr : Z) : outcome solution :=
  let radial_decades := ln outer_radius / ln 10 in
  do zones <- chk (truncate (radial_decades * IZR nr));
  do count <- chk (zones + 1)%Z;
  new_solution explosion_density explosion_pressure density_index radial_decades (count - 1).
End Program.
