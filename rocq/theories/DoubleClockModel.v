(** The clocks of the programs in double arithmetic: the times at which tasks are due, and the time of the run. *)
From Coq Require Import ZArith Reals List.
From Verif Require Import Base DoubleModel.
Open Scope R_scope.

(** app_schedule.hpp:124-125, the addition in mark_as_due, and app_schedule.hpp:190, the comparison in mark_tasks_in (also
    subprog_sedov.cpp:454-456 and subprog_cloud.cpp:727-729), for ScheduleModel.v. *)
Definition add_fl (last amount : R) : R := fl (last + amount).
Definition due_fl (time last interval : R) : bool := if Rle_dec interval (fl (time - last)) then true else false.

(** The time after one step: first order in subprog_sedov.cpp:417, subprog_cloud.cpp:545, 577, subprog_amrsand.cpp:296,
    subprog_boilerplate.cpp:133 and subprog_binary_scheme.cpp:890, 1006; second order in subprog_binary.cpp:270-276 with
    the operators of subprog_binary_scheme.cpp:1033-1055 (the scale 1/2 as a double is exact). *)
Definition time_1 (t dt : R) : R := fl (t + dt).
Definition time_2 (t dt : R) : R := fl (fl (t * (1 / 2)) + fl (time_1 (time_1 t dt) dt * (1 / 2))).

(** The condition of the run loop: subprog_sedov.cpp:552-557, subprog_cloud.cpp:822-827, subprog_amrsand.cpp:224-227, subprog_boilerplate.cpp:229-233; subprog_binary.cpp:317-320, where [turn]
    is 2 * M_PI. *)
Definition continue_1 (tfinal t : R) : bool := if Rlt_dec t tfinal then true else false.
Definition continue_2 (turn tfinal t : R) : bool := if Rlt_dec (fl (t / turn)) tfinal then true else false.

(** The run loop as far as it concerns the time (subprog_binary.cpp:428, subprog_sedov.cpp:638, subprog_cloud.cpp:929,
    subprog_amrsand.cpp:343, subprog_boilerplate.cpp:279):
    [dt k] is the time step taken in step [k]; the result is the number of steps and the time at the end. *)
Fixpoint run_clock (fuel : nat) (continue : R -> bool) (next : R -> R -> R) (dt : nat -> R) (k : nat) (t : R) : outcome (nat * R) :=
  match fuel with
  | O => NoFuel
  | S f => if continue t then run_clock f continue next dt (S k) (next t (dt k)) else Ok (k, t)
  end.
