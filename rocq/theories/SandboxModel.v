(** The mesh refinement sandbox as a program: its schedule, its files and main (src/subprog_amrsand.cpp). The solution
    is in AmrModel.v. *)
From Coq Require Import ZArith Reals List String.
From Verif Require Import Base StrModel MapModel ScheduleModel TreeModel NdModel AmrModel.
Import ListNotations.
Open Scope R_scope.

(** config_template, src/subprog_amrsand.cpp 118-127. *)
Record config : Type := Config { restart : str; outdir : str; dfi : R; tfinal : R; block_size : Z; max_depth : nat }.
(** app_state_t, src/subprog_amrsand.cpp 70-75. *)
Record app_state : Type := App { a_solution : solution (T := R); a_schedule : schedule R; a_config : config }.
(** diagnostics_t and its write, src/subprog_amrsand.cpp 81-87 and 107-112; the number of the file is in its name. *)
Record diagnostics : Type := Diagnostics { d_number : Z; d_time : R; d_vertices : tree (array (R * R)); d_conserved : tree (array R) }.

(** The name of the task. *)
Definition task_name : str := lit "write_diagnostics".
(** create_schedule, src/subprog_amrsand.cpp 157-162. *)
Definition create_schedule : outcome (schedule R) := create_and_mark_as_due 0 Rplus task_name [].
(** create_app_state, src/subprog_amrsand.cpp 164-172. The option restart is not looked at, here or elsewhere. *)
Definition create_app_state (fuel : nat) (cfg : config) : outcome app_state :=
  do s <- create_solution_state fuel (block_size cfg) (max_depth cfg);
  do sc <- create_schedule;
  Ok (App s sc cfg).
(** create_diagnostics, src/subprog_amrsand.cpp 174-182. *)
Definition create_diagnostics (number : Z) (s : app_state) : diagnostics :=
  Diagnostics number (time (a_solution s)) (vertices (a_solution s)) (conserved (a_solution s)).
(** next_schedule, src/subprog_amrsand.cpp 235-243. *)
Definition next_schedule (sc : schedule R) (cfg : config) (t : R) : outcome (schedule R) :=
  do last <- last_performed task_name sc;
  if Rle_dec (dfi cfg) (t - last) then mark_as_due Rplus task_name (dfi cfg) sc else Ok sc.
(** next, src/subprog_amrsand.cpp 307-314: the schedule is advanced with the time before the step. *)
Definition next (fuel : nat) (s : app_state) : outcome app_state :=
  do u <- next_real fuel (a_solution s);
  do sc <- next_schedule (a_schedule s) (a_config s) (time (a_solution s));
  Ok (App u sc (a_config s)).
(** run_tasks with write_diagnostics, src/subprog_amrsand.cpp 217-224 and 316-326, and the files it writes. *)
Definition run_tasks (s : app_state) : outcome (app_state * list diagnostics) :=
  do due <- is_due task_name (a_schedule s);
  if due then
    do count <- num_times_performed task_name (a_schedule s);
    do sc <- mark_as_completed task_name (a_schedule s);
    Ok (App (a_solution s) sc (a_config s), [create_diagnostics count s])
  else Ok (s, []).
(** simulation_should_continue, src/subprog_amrsand.cpp 226-229. *)
Definition should_continue (s : app_state) : bool := if Rlt_dec (time (a_solution s)) (tfinal (a_config s)) then true else false.
(** The loop of run_main, src/subprog_amrsand.cpp 351-355, for at most [rounds] rounds. *)
Fixpoint rounds_of (fuel rounds : nat) (w : app_state * list diagnostics) : outcome (app_state * list diagnostics) :=
  match rounds with
  | O => Ok w
  | S n => if should_continue (fst w) then do s1 <- next fuel (fst w); do r <- run_tasks s1; rounds_of fuel n (fst r, snd w ++ snd r) else Ok w
  end.
(** run_main, src/subprog_amrsand.cpp 338-359: the files and the exit code; [NoFuel] when the loop needs more rounds. *)
Definition run_main (fuel : nat) (cfg : config) (rounds : nat) : outcome (list diagnostics * Z) :=
  do s <- create_app_state fuel cfg;
  do r <- run_tasks s;
  do w <- rounds_of fuel rounds r;
  if should_continue (fst w) then NoFuel
  else do s1 <- next fuel (fst w); do r2 <- run_tasks s1; Ok (snd w ++ snd r2, 0%Z).
