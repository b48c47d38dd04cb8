(** Model of runs of src/subprog_binary.cpp that are killed and resumed: main with and without restart, and what the output
    directory holds when the process is killed at any moment. *)
From Coq Require Import List Arith Ascii String Bool ZArith.
From Verif Require Import Base StrModel MapModel FsModel ScheduleModel.
Import ListNotations.
Close Scope Z_scope.
Open Scope nat_scope.

Section kill.
  Context {T : Type} (tzero : T) (tadd : T -> T -> T) (tdue : T -> T -> T -> bool).
  Context {Sol Cfg Sample Diag : Type} (next_solution : Cfg -> Sol -> outcome Sol) (time_of : Sol -> T).
  Context (cpi dfi tsi : Cfg -> T) (should_continue : Cfg -> Sol -> bool).
  Context (diagnose : Cfg -> Sol -> Diag) (sample : Cfg -> Sol -> Sample).
  Context (cfg : Cfg) (sol : Sol).
  Notation bout := (@bout T Sol Cfg Sample Diag).
  Notation bfile := (@bfile T Sol Cfg Sample).
  Notation bworld := (@bworld T Sol Cfg Sample Diag).

  (** How the program is started: anew, or from a checkpoint file. [l] lists the schedule group of the file in the order in which it is
      iterated; [c] is the configuration of the resumed run (subprog_binary.cpp:155-164). *)
  Inductive start : Type := Fresh | From (f : bfile) (l : list (str * (str * Z * T))) (c : Cfg).

  (** subprog_binary.cpp:238-252: create_state. *)
  Definition create_state (st : start) : outcome bworld :=
    match st with
    | Fresh => do sc <- bschedule tzero tadd; Ok (mkb sol sc [] cfg, [])
    | From f l c => Ok (bread f l c, [])
    end.
  (** subprog_binary.cpp:414-432: main up to [m] rounds of the loop: the state and the files written. *)
  Definition rounds (st : start) (m : nat) : outcome bworld :=
    do w <- create_state st;
    do w <- brun_tasks diagnose sample w;
    bloop tadd tdue next_solution time_of cpi dfi tsi should_continue diagnose sample m w.
  (** subprog_binary.cpp:414-436: all of main: the files written and the exit code; NoFuel if the loop needs more than [n] rounds. *)
  Definition program (st : start) (n : nat) : outcome (list bout * Z) :=
    do w <- rounds st n;
    if should_continue (b_cfg (fst w)) (b_sol (fst w)) then NoFuel
    else
      do w1 <- bnext tadd tdue next_solution time_of cpi dfi tsi w;
      do w2 <- brun_tasks diagnose sample w1;
      Ok (snd w2, 0%Z).

  (** subprog_binary.cpp:334-335 and 348-349: the name of a file in the output directory. *)
  Definition file_name (x : bout) : str :=
    match x with
    | OutCheckpoint n _ => create_numbered_filename (lit "chkpt") (Z.to_nat n) (lit "h5")
    | OutDiagnostics n _ => create_numbered_filename (lit "diagnostics") (Z.to_nat n) (lit "h5")
    end.
  (** What is found under a name: a whole file, or one whose writing was cut off. h5::File(fname, "w") empties a file
      that is there (subprog_binary.cpp:336, 350, core_hdf5.hpp:951-954), whole or not. *)
  Inductive content : Type := Whole (x : bout) | Torn.
  Definition directory : Type := str -> option content.
  Definition empty : directory := fun _ => None.
  Definition same_name (a b : str) : bool := match str_cmp a b with Eq => true | _ => false end.
  Definition store (name : str) (c : content) (d : directory) : directory := fun m => if same_name name m then Some c else d m.
  Definition write_all (d : directory) (o : list bout) : directory := fold_left (fun d x => store (file_name x) (Whole x) d) o d.

  (** A process that was started from [st] and killed: [done] are the files it had written, [next] the one it was writing, if any. It was
      in or before some round of the loop, or in the step after the loop with a file still to write. *)
  Definition being (next : option bout) (rest : list bout) : Prop := match next with None => True | Some x => hd_error rest = Some x end.
  Definition killed (st : start) (done : list bout) (next : option bout) : Prop :=
    (exists m s rest, rounds st m = Ok (s, done ++ rest) /\ being next rest) \/
    (exists n x rest, program st n = Ok (done ++ x :: rest, 0%Z) /\ being next (x :: rest)).
  (** What it leaves in the directory. *)
  Definition left_by (d : directory) (done : list bout) (next : option bout) : directory :=
    match next with None => write_all d done | Some x => store (file_name x) Torn (write_all d done) end.
End kill.

(** subprog_boilerplate.cpp:265-287 and subprog_cloud.cpp:915-937: main with restart from a checkpoint file, in the way of simple_program of
    RunModel.v ([others]: the tasks besides write_checkpoint; subprog_sedov.cpp can not be resumed at all, ScheduleProps.v). *)
Definition simple_resumed {T} tadd tdue {Sol Cfg} next_solution time_of (others : list (str * (Cfg -> T))) cpi should_continue
    (f : sfile (T := T) (Sol := Sol) (Cfg := Cfg)) (l : list (str * (str * Z * T))) (c : Cfg) (n : nat)
    : outcome (list (sout (T := T) (Sol := Sol) (Cfg := Cfg)) * Z) :=
  do r <- srun_tasks others (sread f l c);
  do w <- sloop tadd tdue next_solution time_of others cpi should_continue n r;
  if should_continue (s_cfg (fst w)) (s_sol (fst w)) then NoFuel
  else
    do s1 <- snext tadd tdue next_solution time_of others cpi (fst w);
    do r2 <- srun_tasks others s1;
    Ok (snd w ++ snd r2, 0%Z).
