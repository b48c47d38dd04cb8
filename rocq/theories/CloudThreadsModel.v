(** The step of the cloud program with its evaluations on several threads: src/app_parallel.hpp 75-103, used at
    src/subprog_cloud.cpp 525. CloudModel.v has the same step with evaluations on one thread. *)
From Coq Require Import ZArith Reals List.
From Verif Require Import Base NdModel NdOpsModel ParallelModel HydroModel PlmModel MeshModel SedovModel CloudModel.
Import ListNotations.
Open Scope R_scope.

(** What becomes of a call: it returns (or throws, ...) to its caller, or std::terminate ends the process. *)
Inductive fate (A : Type) : Type := Returns (o : outcome A) | Ended.
Arguments Returns {A}. Arguments Ended {A}.
Definition call {A B} (m : outcome A) (k : A -> fate B) : fate B :=
  match m with Ok a => k a | Throw e => Returns (Throw e) | UB => Returns UB | NoFuel => Returns NoFuel end.
Definition fbind {A B} (m : fate A) (k : A -> fate B) : fate B := match m with Returns o => call o k | Ended => Ended end.
Notation "'here' x <- m ; k" := (call m (fun x => k)) (at level 60, right associativity).
Notation "'wait' x <- m ; k" := (fbind m (fun x => k)) (at level 60, right associativity).

(** evaluate_on, src/app_parallel.hpp 75-103: [order] is the order in which the threads' assignments happen. An exception
    thrown by array(index) leaves the function the std::thread was started with, which calls std::terminate; what the
    other threads do until then cannot be seen. *)
Definition evaluate_threads {A} (d : A) (a : array A) (order : list (list Z)) : fate (array A) :=
  match run_writes a order (repeat d (Z.to_nat (volume (ashape a)))) with
  | Throw _ => Ended
  | r => Returns (do b <- r; make_backed (ashape a) b)
  end.

Section Program.
Context (c : config) (fuel : nat).

(** CloudModel.advance_with with line 525 as it is: the six evaluations at src/subprog_cloud.cpp 527-533 and 549 or 581,
    the k-th of them in the order [order k]. *)
Definition advance_with_threads (order : nat -> list (list Z)) (extrapolate : nat -> array prim -> outcome (array (prim * prim))) (app s : solution) (dt : R) : fate solution :=
  let rv := radial_vertices s in let qv := polar_vertices s in
  here rc0 <- cell_centroids rv qv; wait rc <- evaluate_threads (0, 0) rc0 (order 0%nat);
  here dv0 <- cell_volumes rv qv; wait dv <- evaluate_threads 0 dv0 (order 1%nat);
  here ar0 <- radial_face_areas rv qv; wait dAr <- evaluate_threads 0 ar0 (order 2%nat);
  here aq0 <- polar_face_areas rv qv; wait dAq <- evaluate_threads 0 aq0 (order 3%nat);
  let u0 := conserved s in
  here q <- binary_op over5 u0 dv;
  wait p0 <- evaluate_threads zero_prim (arr_mapM (fun U => srhd_recover U gamma_law_index (temperature_floor c)) q) (order 4%nat);
  here pr <- zip2 p0 rc;
  here s0 <- binary_op times5 (arr_map (fun w => srhd_source (fst w) gamma_law_index (fst (snd w)) (tan (PI / 2 - snd (snd w)))) pr) dv;
  here pe <- extend_bc c fuel app p0;
  here zr <- extrapolate 0%nat pe;
  here fr <- binary_op times5 (intercell_flux 0 zr) (arr_opp dAr);
  here lr <- difference_on_axis minus5 0 fr;
  here zq <- extrapolate 1%nat p0;
  here fq0 <- extend_zeros (fun x => times5 x 0) 1 (intercell_flux 1 zq);
  here fq <- binary_op times5 fq0 (arr_opp dAq);
  here lq <- difference_on_axis minus5 1 fq;
  here l <- binary_op plus5 lr lq;
  here ls <- binary_op plus5 l s0;
  here u1 <- binary_op plus5 u0 (arr_map (fun x => times5 x dt) ls);
  wait u1' <- evaluate_threads zero5 u1 (order 5%nat);
  Returns (Ok (Solution (time s + dt) rv qv u1')).
(** advance, src/subprog_cloud.cpp 511-585. *)
Definition advance_threads (order : nat -> list (list Z)) (app s : solution) (dt : R) : fate solution :=
  if (reconstruct_method c =? 1)%Z then advance_with_threads order extrapolate_pcm app s dt
  else if (reconstruct_method c =? 2)%Z then advance_with_threads order (extrapolate_plm c fuel) app s dt
  else Returns (Throw InvalidArgument).
(** next_solution, src/subprog_cloud.cpp 676-698: [order] for each of its calls of advance. The sums use .shared(), on
    one thread (113-135). *)
Definition next_solution_threads (order : nat -> nat -> list (list Z)) (s0 : solution) : fate solution :=
  here dt <- time_step c s0;
  if (rk_order c =? 1)%Z then advance_threads (order 0%nat) s0 s0 dt
  else if (rk_order c =? 2)%Z then
    wait s1 <- advance_threads (order 0%nat) s0 s0 dt;
    wait s2 <- advance_threads (order 1%nat) s0 s1 dt;
    here a <- solution_times fuel s0 (1 / 2);
    here b <- solution_times fuel s2 (1 - 1 / 2);
    Returns (solution_plus fuel a b)
  else Returns (Throw InvalidArgument).
(** The run loop, src/subprog_cloud.cpp 929-933, without its outputs: [order] for each step. *)
Fixpoint run_threads (order : nat -> nat -> nat -> list (list Z)) (steps : nat) (s : solution) : fate solution :=
  match steps with
  | O => Returns (Ok s)
  | S k => wait s' <- next_solution_threads (order 0%nat) s; run_threads (fun i => order (S i)) k s'
  end.
End Program.
