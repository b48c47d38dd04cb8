(** nd::where with its slots (src/core_ndarray.hpp 2035-2053), the shock locator (src/post_shock_locator.hpp) and the time
    series of the explosion program (src/subprog_sedov.cpp 96-117, 275-313).  Doubles are real numbers. *)
From Coq Require Import ZArith Reals List Bool.
From Verif Require Import Base NdModel NdOpsModel DimensionalModel HydroModel PolyModel SedovModel.
Import ListNotations.
Open Scope Z_scope.

(** src/core_ndarray.hpp 2035-2053 with sum 1881-1899: one slot per true element (counted in unsigned long), then one write
    per true element.  The slots start as default-constructed indexes. *)
Definition nd_where (fuel : nat) (a : array bool) : outcome (array (list Z)) :=
  do count <- arr_sum fuel 0 (fun r x => w64 (r + x)) (arr_map Z.b2z a);
  do r <- for_each fuel (make_access_pattern (ashape a))
    (fun i '(n, b) => do x <- aget a i; if x : bool then do b' <- buf_write b n i; Ok (w64 (n + 1), b') else Ok (n, b))
    (0, repeat (map (fun _ => 0) (ashape a)) (Z.to_nat count));
  make_backed [count] (snd r).

(** specific_entropy, src/physics_euler.hpp 147-150 and src/physics_srhd.hpp 138-141. *)
Definition specific_entropy (g : R) (P : prim) : R := ln (pre P / Rpower (rho P) g).

Definition less (x y : R) : bool := if Rlt_dec x y then true else false.
Definition same (x y : R) : bool := if Req_EM_T x y then true else false.
(** find_shock_index, src/post_shock_locator.hpp 71-81, as a function of the entropies s0. *)
Definition find_drop_index (fuel : nat) (s0 : array R) : outcome (list Z) :=
  do ds <- difference_on_axis Rminus 0 s0;
  do m <- arr_best fuel less 0%R ds;
  do w <- nd_where fuel (arr_map (fun x => same x m) ds);
  aget w [0].
Definition find_shock_index (fuel : nat) (g : R) (primitive : array prim) : outcome (list Z) :=
  find_drop_index fuel (arr_map (specific_entropy g) primitive).

(** A catch (const std::exception&) that returns zero. *)
Definition catch_zero (m : outcome Z) : outcome Z := match m with Throw _ => Ok 0 | x => x end.
(** find_index_of_maximum_behind, src/post_shock_locator.hpp 97-113; indexes are of type std::size_t. *)
Fixpoint scan_behind (fuel : nat) (y : array R) (index : Z) : outcome Z :=
  match fuel with
  | O => NoFuel
  | S f => do a <- aget y [w64 (index - 1)]; do b <- aget y [index]; if less b a then scan_behind f y (w64 (index - 1)) else Ok index
  end.
Definition find_index_of_maximum_behind (fuel : nat) (a : array R) (index : Z) : outcome Z := catch_zero (scan_behind fuel (bounds_check a) index).
(** src/post_shock_locator.hpp 129-133. *)
Definition find_index_of_maximum_pressure_behind (fuel : nat) (primitive : array prim) (index : Z) : outcome Z :=
  find_index_of_maximum_behind fuel (arr_map pre primitive) index.
(** find_index_of_pressure_plateau_ahead, src/post_shock_locator.hpp 149-172.  The comparison may read its two elements in
    either order; both reads are checked. *)
Fixpoint scan_ahead (fuel : nat) (dlogp : array R) (index : Z) : outcome Z :=
  match fuel with
  | O => NoFuel
  | S f => do a <- aget dlogp [w64 (index - 1)]; do b <- aget dlogp [w64 (index - 2)]; if less a (1 / 2 * b) then scan_ahead f dlogp (w64 (index + 1)) else Ok index
  end.
Definition find_index_of_pressure_plateau_ahead (fuel : nat) (primitive : array prim) (index : Z) : outcome Z :=
  do d <- difference_on_axis Rminus 0 (arr_map ln (arr_map pre primitive));
  catch_zero (scan_ahead fuel (bounds_check d) index).

(** solve_for_shock_velocity, src/subprog_sedov.cpp 107-114 (euler) and 96-105 (srhd); None is a division by zero. *)
Definition euler_shock_velocity (p1 p2 : prim) : option R :=
  if Req_EM_T (rho p2 - rho p1) 0 then None else Some ((rho p2 * u1 p2 - rho p1 * u1 p1) / (rho p2 - rho p1))%R.
Definition srhd_shock_velocity (p1 p2 : prim) : option R :=
  let d := (rho p2 * lorentz_factor p2 - rho p1 * lorentz_factor p1)%R in
  if Req_EM_T d 0 then None else Some ((rho p2 * u1 p2 - rho p1 * u1 p1) / d)%R.

(** compute_time_series_data, src/subprog_sedov.cpp 275-313.  The values of a division by zero (NaN or infinity) are None. *)
Record time_series := TimeSeries { ts_time : R; shock_radius : R; radius_upstream : R; radius_downstream : R; radius_interpolated : option R; shock_velocity : option R }.
Definition compute_time_series_data (H : hydro) (velocity : prim -> prim -> option R) (fuel : nat) (s : solution) : outcome time_series :=
  do primitive <- primitives H fuel s;
  do si <- find_shock_index fuel gamma_law_index primitive;
  let shock_index := hd 0 si in
  do down <- find_index_of_maximum_pressure_behind fuel primitive shock_index;
  do up <- find_index_of_pressure_plateau_ahead fuel primitive shock_index;
  do rc <- cell_centers (s_vertices s);
  let vc := arr_map u1 primitive in
  do r_shock <- aget (s_vertices s) [shock_index];
  do r_up <- aget rc [up];
  do r_down <- aget rc [down];
  do r0 <- aget rc [w64 (down - 1)]; do r1 <- aget rc [down]; do r2 <- aget rc [w64 (down + 1)];
  do v0 <- aget vc [w64 (down - 1)]; do v1 <- aget vc [down]; do v2 <- aget vc [w64 (down + 1)];
  do p_up <- aget primitive [up]; do p_down <- aget primitive [down];
  Ok (TimeSeries (s_time s) r_shock r_up r_down (option_map fst (parabola_vertex r0 r1 r2 v0 v1 v2)) (velocity p_up p_down)).
