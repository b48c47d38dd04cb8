(** The explosion program and the cloud program as a whole, without restart: initial solution, run loop, schedule and
    outputs. The parts are in SedovModel.v, CloudModel.v and RunModel.v. *)
From Coq Require Import ZArith Reals List String.
From Verif Require Import Base StrModel NdModel SedovModel ScheduleModel RunModel.
From Verif Require CloudModel.
Import ListNotations.
Open Scope R_scope.

(** The conditions in next_schedule, src/subprog_sedov.cpp 456-458 and src/subprog_cloud.cpp 728-730. *)
Definition task_due (time last interval : R) : bool := if Rle_dec interval (time - last) then true else false.
(** The options of the explosion program, src/subprog_sedov.cpp 55-70, that a run without restart uses besides the names
    of its files; [newtonian] is the choice of the system. *)
Record explosion_config : Type := ExplosionConfig {
  nr : Z; tfinal : R; cpi : R; tsi : R; dfi : R; outer_radius : R; explosion_pressure : R; explosion_density : R; density_index : R }.
(** create_app_state and run_main, src/subprog_sedov.cpp 530-557 and 625-646, given [rounds] rounds of the loop. *)
Definition explosion_program (H : hydro) (fuel : nat) (c : explosion_config) (rounds : nat) : outcome (list (sout (T := R) (Sol := solution) (Cfg := explosion_config)) * Z) :=
  do s0 <- new_run H fuel (explosion_density c) (explosion_pressure c) (density_index c) (outer_radius c) (nr c);
  simple_program 0 Rplus task_due (fun _ => next_solution H fuel) s_time [(lit "write_diagnostics", dfi); (lit "write_time_series", tsi)] cpi
    (fun c s => if Rlt_dec (s_time s) (tfinal c) then true else false) c s0 rounds.
(** The options of the cloud program, src/subprog_cloud.cpp config_template, and those of the schedule. *)
Record cloud_config : Type := CloudConfig { physics : CloudModel.config; c_tfinal : R; c_cpi : R; c_tsi : R; c_dfi : R }.
(** create_app_state and run_main, src/subprog_cloud.cpp 915-937, given [rounds] rounds of the loop; [secant] bounds the
    iterations of the root finder of the initial condition. *)
Definition cloud_program (fuel secant : nat) (c : cloud_config) (rounds : nat) : outcome (list (sout (T := R) (Sol := CloudModel.solution) (Cfg := cloud_config)) * Z) :=
  do s0 <- CloudModel.new_solution (physics c) fuel secant;
  simple_program 0 Rplus task_due (fun c => CloudModel.next_solution (physics c) fuel) CloudModel.time [(lit "write_diagnostics", c_dfi); (lit "write_time_series", c_tsi)] c_cpi
    (fun c s => if Rlt_dec (CloudModel.time s) (c_tfinal c) then true else false) c s0 rounds.
