(** The boilerplate program: advection of a wave around a ring (src/subprog_boilerplate.cpp). Its schedule and outputs are
    in RunModel.v, its checkpoint in CheckpointModel.v. Exact arithmetic. *)
From Coq Require Import ZArith Reals List.
From Verif Require Import Base NdModel NdOpsModel ScheduleModel RunModel.
Import ListNotations.
Open Scope R_scope.

(** solution_state_t, src/subprog_boilerplate.cpp 58-64. *)
Record state : Type := State { time : R; iteration : Z; vertices : array R; solution : array R }.
(** new_solution, src/subprog_boilerplate.cpp 98-111; [n] is the option N. nx + 1 is an int, which linspace takes as
    size_t. [fuel] bounds the loop of shared(). *)
Definition new_solution (fuel : nat) (n : Z) : outcome state :=
  do _ <- chk (n + 1);
  let xv := linspace Rplus Rminus Rmult Rdiv IZR 0 1 (w64 (n + 1)) in
  do xc <- midpoint_on_axis Rplus (fun x => x * 0.5) 0 xv;
  do v <- evaluate fuel 0 xv;
  do u <- evaluate fuel 0 (arr_map (fun x => sin (2 * PI * x)) xc);
  Ok (State 0 0 v u).
(** next_solution, src/subprog_boilerplate.cpp 121-136: nx is the number of vertices; the iteration is an int. *)
Definition next_solution (fuel : nat) (s : state) : outcome state :=
  let nx := nth 0 (ashape (vertices s)) 0%Z in
  let dt := 0.25 / IZR nx in
  do u1 <- advection_step Rminus Rmult Rdiv dt (vertices s) (solution s);
  do _ <- chk (iteration s + 1);
  do u <- evaluate fuel 0 u1;
  Ok (State (time s + dt) (iteration s + 1) (vertices s) u).
(** The first [steps] turns of the run loop, src/subprog_boilerplate.cpp 279-283, without its outputs. *)
Fixpoint run (fuel steps : nat) (s : state) : outcome state :=
  match steps with O => Ok s | S k => do s' <- next_solution fuel s; run fuel k s' end.
(** The run loop with its condition, src/subprog_boilerplate.cpp 229-234 and 279-283, for at most [turns] turns. *)
Fixpoint run_loop (fuel turns : nat) (tfinal : R) (s : state) : outcome state :=
  if Rlt_dec (time s) tfinal then
    match turns with O => NoFuel | S k => do s' <- next_solution fuel s; run_loop fuel k tfinal s' end
  else Ok s.

(** The options, src/subprog_boilerplate.cpp 48-55, without restart. *)
Record config : Type := Config { N : Z; cpi : R; tfinal : R }.
(** The condition at src/subprog_boilerplate.cpp 162. *)
Definition checkpoint_due (time last interval : R) : bool := if Rle_dec interval (time - last) then true else false.
(** main, src/subprog_boilerplate.cpp 265-287, without restart, given [rounds] rounds of its loop: the files written and
    the exit code. *)
Definition program (fuel : nat) (cfg : config) (rounds : nat) : outcome (list (sout (T := R) (Sol := state) (Cfg := config)) * Z) :=
  do s0 <- new_solution fuel (N cfg);
  simple_program 0 Rplus checkpoint_due (fun _ => next_solution fuel) time [] cpi (fun c s => if Rlt_dec (time s) (tfinal c) then true else false) cfg s0 rounds.
