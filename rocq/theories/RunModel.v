(** Model of whole runs: the main functions of the subprograms with the step after the loop, and of
    src/app_main.cpp, which picks the subprogram and returns its exit code. *)
From Coq Require Import List Arith Ascii String Bool ZArith.
From Verif Require Import Base StrModel MapModel ScheduleModel.
Import ListNotations.
Close Scope Z_scope.
Open Scope nat_scope.

(** subprog_binary.cpp:414-436: main without restart. The loop is given [n] rounds, and NoFuel is the outcome when it
    needs more. After the loop, line 434 makes one more step and runs the tasks on it; the state it gives is dropped.
    The result: the files written, and the exit code. *)
Definition binary_program {T} (tzero : T) tadd tdue {Sol Cfg Sample Diag} next_solution time_of cpi dfi tsi should_continue
    (diagnose : Cfg -> Sol -> Diag) (sample : Cfg -> Sol -> Sample) (cfg : Cfg) (sol : Sol) (n : nat)
    : outcome (list (bout (T := T) (Sol := Sol) (Cfg := Cfg) (Sample := Sample) (Diag := Diag)) * Z) :=
  do w <- binary_main tzero tadd tdue next_solution time_of cpi dfi tsi should_continue diagnose sample cfg sol n;
  if should_continue (b_cfg (fst w)) (b_sol (fst w)) then NoFuel
  else
    do w1 <- bnext tadd tdue next_solution time_of cpi dfi tsi w;
    do w2 <- brun_tasks diagnose sample w1;
    Ok (snd w2, 0%Z).

(** subprog_boilerplate.cpp:141-147, subprog_sedov.cpp:428-435, subprog_cloud.cpp:703-710: new_schedule. *)
Definition sschedule {T} (tzero : T) (tadd : T -> T -> T) (names : list str) : outcome (schedule T) :=
  foldM (fun s n => create_and_mark_as_due tzero tadd n s) [] names.

(** subprog_boilerplate.cpp:265-287, subprog_sedov.cpp:622-646, subprog_cloud.cpp:915-937: main without restart; the
    step after the loop is at 285, 644 and 935. [others] lists the tasks besides write_checkpoint. *)
Definition simple_program {T} (tzero : T) tadd tdue {Sol Cfg} next_solution time_of (others : list (str * (Cfg -> T))) cpi
    should_continue (cfg : Cfg) (sol : Sol) (n : nat) : outcome (list (sout (T := T) (Sol := Sol) (Cfg := Cfg)) * Z) :=
  do sc <- sschedule tzero tadd (lit "write_checkpoint" :: map fst others);
  do r <- srun_tasks others (mks sol sc cfg);
  do w <- sloop tadd tdue next_solution time_of others cpi should_continue n r;
  if should_continue (s_cfg (fst w)) (s_sol (fst w)) then NoFuel
  else
    do s1 <- snext tadd tdue next_solution time_of others cpi (fst w);
    do r2 <- srun_tasks others s1;
    Ok (snd w ++ snd r2, 0%Z).

(** What app_main.cpp prints: the usage with the names of the subprograms (68-73), the execution time (78), or the
    message on an invalid subprogram (94). *)
Inductive message : Type := Usage (names : list str) | ExecutionTime | InvalidSubprogram (name : str).

(** app_main.cpp:52-96: main. [programs] is the map of the subprograms that were compiled in (54-62), each the
    outcome of its main for the arguments it is given; [argv] the arguments, the program's own name first. The call of
    the subprogram is not inside a try block (the one at 81-91 is commented out), so what it throws ends the program.
    With argc = 0, line 75 reads argv[1] beyond the terminating null pointer. *)
Definition app_main (programs : smap (list str -> outcome Z)) (argv : list str) : outcome (list message * Z) :=
  match argv with
  | [] => UB
  | [_] => Ok ([Usage (map fst programs)], 0%Z)
  | _ :: name :: args =>
      match mfind name programs with
      | Some p => do code <- p (name :: args); Ok ([ExecutionTime], code)
      | None => Ok ([InvalidSubprogram name], 0%Z)
      end
  end.
