(** Model of src/core_thread_pool.hpp and of the maps on several threads of src/core_tree.hpp when functions throw. *)
From Coq Require Import List Arith Bool.
From Verif Require Import Base TreeModel BalanceModel PoolModel.
Import ListNotations.
Close Scope Z_scope.
Open Scope nat_scope.

(** The process: the pool, and whether std::terminate has ended the process. *)
Record proc (B : Type) : Type := mkproc { p_pool : pool B; p_ended : bool }.
Arguments mkproc {B}. Arguments p_pool {B}. Arguments p_ended {B}.

Section fail.
  (** What the n-th task does: fn(args...) returns or throws, core_thread_pool.hpp 105-108. *)
  Context {B : Type} (body : nat -> outcome B) (dflt : B).
  (** The value of a task that returns. *)
  Definition value_of (n : nat) : B := match body n with Ok b => b | _ => dflt end.

  (** As PoolModel.step, core_thread_pool.hpp 64-181; nothing between fn(args...) (107) and the start function of the thread (172-181) has a handler, and an
      exception that leaves the start function of a std::thread calls std::terminate. *)
  Inductive fstep : label -> proc B -> proc B -> Prop :=
  | f_goes_on l s s' : step value_of l s s' ->
      (forall k n, l = LWorker k -> nth_error (workers s) k = Some (WRunning n) -> exists b, body n = Ok b) ->
      fstep l (mkproc s false) (mkproc s' false)
  | f_terminates k n e s : nth_error (workers s) k = Some (WRunning n) -> body n = Throw e ->
      fstep (LWorker k) (mkproc s false) (mkproc s true).
  Inductive fexec : list label -> proc B -> proc B -> Prop :=
  | fe_nil q : fexec [] q q
  | fe_cons l ls q q1 q2 : fstep l q q1 -> fexec ls q1 q2 -> fexec (l :: ls) q q2.
  Definition freachable (q : proc B) : Prop := exists n ls, fexec ls (mkproc (init n) false) q.
  (** No worker can move. *)
  Definition fquiet (q : proc B) : Prop := forall k q', ~ fstep (LWorker k) q q'.
  (** map on a thread pool, core_tree.hpp 615-625, second half: what the caller gets in this state of the process; [NoFuel]: it waits, or there is no process. *)
  Definition collect (q : proc B) (ids : tree nat) : outcome (tree B) := if p_ended q then NoFuel else tmapM (future_get (p_pool q)) ids.
End fail.

(** map with a launch policy, core_tree.hpp 604-613: std::async keeps what the function returned or threw in the future, and get() returns or throws it. *)
Definition async_map {A B} (f : A -> outcome B) (t : tree A) : outcome (tree B) := tmapM (fun future => future) (tmap f t).
