(** Model of src/app_schedule.hpp, the schedule part of src/app_serialize.hpp, and the run loops of
    src/subprog_binary.cpp, subprog_boilerplate.cpp, subprog_sedov.cpp and subprog_cloud.cpp.

    The type [T] of times and its operations are parameters: the statements that do not need exact
    arithmetic therefore hold for IEEE doubles as well. *)
From Coq Require Import List Arith Ascii String Bool ZArith.
From Verif Require Import Base StrModel MapModel.
Import ListNotations.
Close Scope Z_scope.
Open Scope nat_scope.

(** String literals. *)
Definition lit (s : String.string) : str := list_ascii_of_string s.

(** app_schedule.hpp:62-68: task_t. *)
Record task (T : Type) : Type := mktask { t_name : str; t_count : Z; t_last : T; t_due : bool }.
Arguments mktask {T}. Arguments t_name {T}. Arguments t_count {T}. Arguments t_last {T}. Arguments t_due {T}.

(** app_schedule.hpp:56-144: schedule_t. *)
Definition schedule (T : Type) : Type := smap (task T).

Section schedule.
  Context {T : Type} (tzero : T) (tadd : T -> T -> T).
  (** [tdue time last interval] is the comparison time - last >= interval (app_schedule.hpp:190). *)
  Context (tdue : T -> T -> T -> bool).

  (** app_schedule.hpp:75-84: at. *)
  Definition sat (n : str) (s : schedule T) : outcome (task T) :=
    match mfind n s with Some t => Ok t | None => Throw OutOfRange end.

  (** app_schedule.hpp:86-99: num_times_performed, last_performed, is_due. *)
  Definition num_times_performed (n : str) (s : schedule T) : outcome Z := do t <- sat n s; Ok (t_count t).
  Definition last_performed (n : str) (s : schedule T) : outcome T := do t <- sat n s; Ok (t_last t).
  Definition is_due (n : str) (s : schedule T) : outcome bool := do t <- sat n s; Ok (t_due t).

  (** app_schedule.hpp:112-115: insert. *)
  Definition sinsert (t : task T) (s : schedule T) : schedule T := mset (t_name t) t s.

  (** app_schedule.hpp:117-120: create. *)
  Definition screate (n : str) (s : schedule T) : schedule T := mset n (mktask n 0%Z tzero false) s.

  (** app_schedule.hpp:122-126: mark_as_due. *)
  Definition mark_as_due (n : str) (amount : T) (s : schedule T) : outcome (schedule T) :=
    do t <- sat n s; Ok (mset n (mktask (t_name t) (t_count t) (tadd (t_last t) amount) true) s).

  (** app_schedule.hpp:128-132: create_and_mark_as_due. *)
  Definition create_and_mark_as_due (n : str) (s : schedule T) : outcome (schedule T) :=
    mark_as_due n tzero (screate n s).

  (** app_schedule.hpp:134-138: mark_as_completed. *)
  Definition mark_as_completed (n : str) (s : schedule T) : outcome (schedule T) :=
    do t <- sat n s;
    do c <- chk (t_count t + 1);
    Ok (mset n (mktask (t_name t) c (t_last t) false) s).

  (** app_schedule.hpp:181-196: mark_tasks_in; [cur] is the given state's schedule, [next] the copy being
      changed. *)
  Fixpoint mark_tasks (cur : schedule T) (time : T) (l : list (str * T)) (next : schedule T) : outcome (schedule T) :=
    match l with
    | [] => Ok next
    | (n, interval) :: l' =>
        do last <- last_performed n cur;
        do next' <- (if tdue time last interval then mark_as_due n interval next else Ok next);
        mark_tasks cur time l' next'
    end.
  Definition mark_tasks_in (s : schedule T) (time : T) (l : list (str * T)) : outcome (schedule T) :=
    mark_tasks s time l s.

  (** app_serialize.hpp:69-78: write_schedule. What the group then holds: one subgroup per task, with the
      datasets "name", "num_times_performed" and "last_performed". *)
  Definition write_schedule (s : schedule T) : smap (str * Z * T) :=
    map (fun e => (fst e, (t_name (snd e), t_count (snd e), t_last (snd e)))) s.

  (** app_serialize.hpp:80-94: read_schedule; [l] lists the group's entries in iteration order. *)
  Definition read_schedule (l : list (str * (str * Z * T))) : schedule T :=
    fold_left (fun s e => let '(_, c, t) := snd e in sinsert (mktask (fst e) c t false) s) l [].
End schedule.

(** app_schedule.hpp:162-174: run_scheduled_tasks, for any state type with a schedule; tasks may fail. *)
Section run.
  Context {T State : Type} (sched : State -> schedule T).

  Fixpoint run_scheduled (state : State) (tasks : list (str * (State -> outcome State))) (next : State) : outcome State :=
    match tasks with
    | [] => Ok next
    | (n, f) :: l =>
        do d <- is_due n (sched state);
        do next' <- (if d then f next else Ok next);
        run_scheduled state l next'
    end.
  Definition run_scheduled_tasks (state : State) (tasks : list (str * (State -> outcome State))) : outcome State :=
    run_scheduled state tasks state.
End run.

(** ** The binary subprogram *)
Section binary.
  Context {T : Type} (tzero : T) (tadd : T -> T -> T) (tdue : T -> T -> T -> bool).
  (** The solution, the configuration, a time series sample, and diagnostic fields. *)
  Context {Sol Cfg Sample Diag : Type}.
  (** subprog_binary.cpp:258-293: next_solution (with its retry); may throw. *)
  Context (next_solution : Cfg -> Sol -> outcome Sol).
  Context (time_of : Sol -> T).
  (** The three intervals read from the configuration, 298-300. *)
  Context (cpi dfi tsi : Cfg -> T).
  (** 317-320: simulation_should_continue. *)
  Context (should_continue : Cfg -> Sol -> bool).
  Context (diagnose : Cfg -> Sol -> Diag) (sample : Cfg -> Sol -> Sample).

  (** subprog_binary.hpp: state_t. *)
  Record bstate : Type := mkb { b_sol : Sol; b_sched : schedule T; b_series : list Sample; b_cfg : Cfg }.

  (** What a checkpoint file holds, subprog_binary_io.cpp:149-158: the schedule without the due flags, the
      series in reverse order. *)
  Record bfile : Type := mkbf { f_sol : Sol; f_sched : smap (str * Z * T); f_series : list Sample; f_cfg : Cfg }.

  (** The files written, in order: kind, number, contents. *)
  Inductive bout : Type := OutCheckpoint (n : Z) (f : bfile) | OutDiagnostics (n : Z) (d : Diag).

  (** The program state together with the files written so far. *)
  Definition bworld : Type := (bstate * list bout)%type.

  (** subprog_binary_io.cpp:149-158: write. *)
  Definition bwrite (s : bstate) : bfile :=
    mkbf (b_sol s) (write_schedule (b_sched s)) (rev (b_series s)) (b_cfg s).
  (** subprog_binary_io.cpp:193-201: read, and subprog_binary.cpp:251: .with(run_config). [l] lists the
      schedule group in the order the file iterates it. *)
  Definition bread (f : bfile) (l : list (str * (str * Z * T))) (cfg : Cfg) : bstate :=
    mkb (f_sol f) (read_schedule l) (rev (f_series f)) cfg.

  Definition n_chk := lit "write_checkpoint".
  Definition n_dia := lit "write_diagnostics".
  Definition n_tsr := lit "record_time_series".

  (** app_schedule.hpp:149-155: complete_task_in. *)
  Definition complete_task_in (s : bstate) (n : str) : outcome bstate :=
    do sc <- mark_as_completed n (b_sched s); Ok (mkb (b_sol s) sc (b_series s) (b_cfg s)).

  (** subprog_binary.cpp:331-341. *)
  Definition t_checkpoint (w : bworld) : outcome bworld :=
    let (s, o) := w in
    do c <- num_times_performed n_chk (b_sched s);
    do s' <- complete_task_in s n_chk;
    Ok (s', o ++ [OutCheckpoint c (bwrite s')]).
  (** subprog_binary.cpp:345-354. *)
  Definition t_diagnostics (w : bworld) : outcome bworld :=
    let (s, o) := w in
    do c <- num_times_performed n_dia (b_sched s);
    do s' <- complete_task_in s n_dia;
    Ok (s', o ++ [OutDiagnostics c (diagnose (b_cfg s) (b_sol s))]).
  (** subprog_binary.cpp:358-379. *)
  Definition t_series (w : bworld) : outcome bworld :=
    let (s, o) := w in
    do s' <- complete_task_in (mkb (b_sol s) (b_sched s) (sample (b_cfg s) (b_sol s) :: b_series s) (b_cfg s)) n_tsr;
    Ok (s', o).

  (** subprog_binary.cpp:326-386: run_tasks. *)
  Definition brun_tasks (w : bworld) : outcome bworld :=
    run_scheduled_tasks (fun w : bworld => b_sched (fst w)) w
      [(n_dia, t_diagnostics); (n_tsr, t_series); (n_chk, t_checkpoint)].

  (** subprog_binary.cpp:295-311: next_schedule, next_state. *)
  Definition bnext (w : bworld) : outcome bworld :=
    let (s, o) := w in
    do sol <- next_solution (b_cfg s) (b_sol s);
    do sc <- mark_tasks_in tadd tdue (b_sched s) (time_of (b_sol s))
      [(n_chk, cpi (b_cfg s)); (n_dia, dfi (b_cfg s)); (n_tsr, tsi (b_cfg s))];
    Ok (mkb sol sc (b_series s) (b_cfg s), o).

  (** subprog_binary.cpp:229-236: create_schedule. *)
  Definition bschedule : outcome (schedule T) :=
    do s1 <- create_and_mark_as_due tzero tadd n_chk [];
    do s2 <- create_and_mark_as_due tzero tadd n_dia s1;
    create_and_mark_as_due tzero tadd n_tsr s2.

  (** subprog_binary.cpp:426-432: n rounds of the loop, as long as the run should continue. *)
  Fixpoint bloop (n : nat) (w : bworld) : outcome bworld :=
    match n with
    | 0 => Ok w
    | S n' =>
        if should_continue (b_cfg (fst w)) (b_sol (fst w))
        then do w1 <- bnext w; do w2 <- brun_tasks w1; bloop n' w2
        else Ok w
    end.
End binary.

(** ** The boilerplate, sedov and cloud subprograms *)
Section simple.
  Context {T : Type} (tadd : T -> T -> T) (tdue : T -> T -> T -> bool).
  Context {Sol Cfg : Type} (next_solution : Cfg -> Sol -> outcome Sol) (time_of : Sol -> T).
  (** The task names in the order of run_tasks, with their intervals; write_checkpoint comes first
      (subprog_boilerplate.cpp:232-243, subprog_sedov.cpp run_tasks, subprog_cloud.cpp:829-850). *)
  Context (others : list (str * (Cfg -> T))) (cpi : Cfg -> T).

  Record sstate : Type := mks { s_sol : Sol; s_sched : schedule T; s_cfg : Cfg }.
  Record sfile : Type := mksf { sf_sol : Sol; sf_sched : smap (str * Z * T); sf_cfg : Cfg }.
  (** The outputs: a checkpoint with its number, or another output with its name and number. *)
  Inductive sout : Type := SCheckpoint (n : Z) (f : sfile) | SOther (name : str) (n : Z).

  (** write_checkpoint (subprog_boilerplate.cpp:192-201, subprog_cloud.cpp write_checkpoint): the state as it is
      before the task is marked as completed. *)
  Definition swrite (s : sstate) : sfile := mksf (s_sol s) (write_schedule (s_sched s)) (s_cfg s).
  Definition sread (f : sfile) (l : list (str * (str * Z * T))) (cfg : Cfg) : sstate := mks (sf_sol f) (read_schedule l) cfg.

  (** One "if (state.schedule.is_due(name))" of run_tasks; [s] is the argument, [n] the copy. *)
  Definition stask (s : sstate) (name : str) (mk : Z -> sout) (w : schedule T * list sout)
    : outcome (schedule T * list sout) :=
    do d <- is_due name (s_sched s);
    if d then
      do c <- num_times_performed name (s_sched s);
      do sc <- mark_as_completed name (fst w);
      Ok (sc, snd w ++ [mk c])
    else Ok w.

  (** run_tasks. *)
  Definition srun_tasks (s : sstate) : outcome (sstate * list sout) :=
    do w1 <- stask s (lit "write_checkpoint") (fun c => SCheckpoint c (swrite s)) (s_sched s, []);
    do w2 <- foldM (fun w e => stask s (fst e) (SOther (fst e)) w) w1 others;
    Ok (mks (s_sol s) (fst w2) (s_cfg s), snd w2).

  (** next and next_schedule. *)
  Definition snext (s : sstate) : outcome sstate :=
    do sol <- next_solution (s_cfg s) (s_sol s);
    do sc <- mark_tasks_in tadd tdue (s_sched s) (time_of (s_sol s))
      ((lit "write_checkpoint", cpi (s_cfg s)) :: map (fun e => (fst e, snd e (s_cfg s))) others);
    Ok (mks sol sc (s_cfg s)).

  (** The loop "while (simulation_should_continue(state)) state = run_tasks(next(state))", at most n rounds
      (subprog_boilerplate.cpp:279-283, subprog_sedov.cpp:638-642, subprog_cloud.cpp:929-933), with the outputs. *)
  Context (should_continue : Cfg -> Sol -> bool).
  Fixpoint sloop (n : nat) (w : sstate * list sout) : outcome (sstate * list sout) :=
    match n with
    | 0 => Ok w
    | S n' =>
        if should_continue (s_cfg (fst w)) (s_sol (fst w))
        then do s1 <- snext (fst w); do r <- srun_tasks s1; sloop n' (fst r, snd w ++ snd r)
        else Ok w
    end.
End simple.

(** The names of the groups in a checkpoint file, and the group the configuration is read from on restart. *)
Inductive simple_prog : Type := Boilerplate | Sedov | Cloud.
(** subprog_boilerplate.cpp:204-206, subprog_sedov.cpp:490-492, subprog_cloud.cpp:762-764. *)
Definition written_groups (p : simple_prog) : list str :=
  [lit "solution"; lit "schedule"; match p with Boilerplate => lit "run_config" | Sedov | Cloud => lit "config" end].
(** subprog_boilerplate.cpp:185, subprog_sedov.cpp:476, subprog_cloud.cpp:749. *)
Definition config_group_read (p : simple_prog) : str :=
  match p with Boilerplate | Sedov => lit "run_config" | Cloud => lit "config" end.
(** core_hdf5.hpp:575-579 with 91-104: open_group throws when the group is absent. *)
Definition open_group (groups : list str) (n : str) : outcome str :=
  if existsb (fun g => match str_cmp n g with Eq => true | _ => false end) groups then Ok n else Throw InvalidArgument.
(** The groups opened by a restart: the configuration first, then solution and schedule
    (subprog_boilerplate.cpp:113-118,150-155,179-188 and the same functions of sedov and cloud). *)
Definition restart_opens (p : simple_prog) : outcome (list str) :=
  mapM (open_group (written_groups p)) [config_group_read p; lit "solution"; lit "schedule"].

(** subprog_binary.cpp:414-436: main without restart, up to n rounds of the loop. *)
Definition binary_main {T} (tzero : T) tadd tdue {Sol Cfg Sample Diag} next_solution time_of cpi dfi tsi should_continue
    (diagnose : Cfg -> Sol -> Diag) (sample : Cfg -> Sol -> Sample) (cfg : Cfg) (sol : Sol) (n : nat)
    : outcome (bworld (T := T)) :=
  do sc <- bschedule tzero tadd;
  do w <- brun_tasks diagnose sample (mkb sol sc [] cfg, []);
  bloop tadd tdue next_solution time_of cpi dfi tsi should_continue diagnose sample n w.
