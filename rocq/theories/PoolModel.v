(** Model of src/core_thread_pool.hpp as a transition system over interleavings.

    One transition is one critical section of the mutex, or one access to the atomic [stop], or one
    notification. The mutex is held from one transition to the next only by a worker that has evaluated
    the wait predicate to false and has not yet gone to sleep ([WChecked]).
    Tasks are numbered in the order in which they are enqueued; the number stands for the task's tag.
    Not modelled: exceptions thrown by a task (they end the process), the memory model below sequential
    consistency. *)
From Coq Require Import List Arith Bool.
From Verif Require Import Base TreeModel.
Import ListNotations.
Close Scope Z_scope.
Open Scope nat_scope.

(** Where a worker is in core_thread_pool.hpp:139-181. *)
Inductive wstate : Type :=
| WTop                (* before taking the lock in next(), or woken in condition.wait (141-142) *)
| WChecked            (* in condition.wait: predicate was false, lock held, not yet asleep (142) *)
| WBlocked            (* asleep in condition.wait (142) *)
| WRunning (n : nat)  (* next() returned task n, in task.run() (175-177) *)
| WFinishing (n : nat)(* before taking the lock in complete() (162, 178) *)
| WExited.            (* left the loop (175) *)

(** Where the owner of the pool is in stop_all, core_thread_pool.hpp:84-96. *)
Inductive cstate : Type :=
| CIdle    (* not in stop_all *)
| CNotify  (* stop = true done, before notify_all (89) *)
| CJoin.   (* joining the threads (91-94) *)

(** core_thread_pool.hpp:184-189: the members. [enqueued] counts the tasks ever enqueued; [started],
    [promises] and [late] are records for the statements: the order in which tasks were started, the
    results delivered so far, and whether a task was enqueued after [stop] was set. [ub] is set when
    complete() does not find the task. *)
Record pool (B : Type) : Type := mkpool {
  stop : bool;
  pending : list nat;
  running : list nat;
  workers : list wstate;
  caller : cstate;
  enqueued : nat;
  started : list nat;
  promises : list (nat * B);
  late : bool;
  ub : bool
}.
Arguments mkpool {B}.
Arguments stop {B}. Arguments pending {B}. Arguments running {B}. Arguments workers {B}.
Arguments caller {B}. Arguments enqueued {B}. Arguments started {B}. Arguments promises {B}.
Arguments late {B}. Arguments ub {B}.

(** core_thread_pool.hpp:64-82: the pool after construction with n workers. *)
Definition init {B} (n : nat) : pool B := mkpool false [] [] (repeat WTop n) CIdle 0 [] [] false false.

(** No worker holds the mutex. *)
Definition mutex_free {B} (s : pool B) : Prop := ~ In WChecked (workers s).

(** condition.notify_one: wakes one sleeping worker, if there is any. *)
Definition notify_one (ws ws' : list wstate) : Prop :=
  (exists k, nth_error ws k = Some WBlocked /\ ws' = set_nth k WTop ws) \/ (~ In WBlocked ws /\ ws' = ws).

(** condition.notify_all: wakes all sleeping workers. *)
Definition wake (w : wstate) : wstate := match w with WBlocked => WTop | _ => w end.
Definition notify_all (ws : list wstate) : list wstate := map wake ws.

(** core_thread_pool.hpp:127-130 and 164: erase the first task with the tag. *)
Fixpoint erase_tag (n : nat) (l : list nat) : option (list nat) :=
  match l with
  | [] => None
  | m :: l' => if m =? n then Some l' else match erase_tag n l' with Some r => Some (m :: r) | None => None end
  end.

Definition set_worker {B} (k : nat) (w : wstate) (s : pool B) : pool B :=
  mkpool (stop s) (pending s) (running s) (set_nth k w (workers s)) (caller s) (enqueued s) (started s)
    (promises s) (late s) (ub s).

(** Who moves. *)
Inductive label : Type :=
| LEnqueue | LWorker (k : nat) | LSpurious (k : nat) | LStop | LNotify | LJoin | LRestart (n : nat).

Section steps.
  (** What the n-th enqueued task computes (core_thread_pool.hpp:105-108: fn(args...)). *)
  Context {B : Type} (body : nat -> B).

  Inductive step : label -> pool B -> pool B -> Prop :=
  (** 116-121: enqueue_internal, by any thread. *)
  | s_enqueue s ws : mutex_free s -> notify_one (workers s) ws ->
      step LEnqueue s (mkpool (stop s) (pending s ++ [enqueued s]) (running s) ws (caller s) (S (enqueued s))
        (started s) (promises s) (late s || stop s) (ub s))
  (** 141-142: predicate false, still holding the lock. *)
  | s_check s k : nth_error (workers s) k = Some WTop -> mutex_free s -> stop s = false -> pending s = [] ->
      step (LWorker k) s (set_worker k WChecked s)
  (** 142: go to sleep and release the lock. *)
  | s_sleep s k : nth_error (workers s) k = Some WChecked -> step (LWorker k) s (set_worker k WBlocked s)
  (** 144-147, 175: stopping and nothing to do. *)
  | s_exit s k : nth_error (workers s) k = Some WTop -> mutex_free s -> stop s = true -> pending s = [] ->
      step (LWorker k) s (set_worker k WExited s)
  (** 149-153: take the front task. *)
  | s_take s k n r : nth_error (workers s) k = Some WTop -> mutex_free s -> pending s = n :: r ->
      step (LWorker k) s (mkpool (stop s) r (running s ++ [n]) (set_nth k (WRunning n) (workers s)) (caller s)
        (enqueued s) (started s ++ [n]) (promises s) (late s) (ub s))
  (** 105-108, 177: run the task, which sets the promise. *)
  | s_run s k n : nth_error (workers s) k = Some (WRunning n) ->
      step (LWorker k) s (mkpool (stop s) (pending s) (running s) (set_nth k (WFinishing n) (workers s)) (caller s)
        (enqueued s) (started s) (promises s ++ [(n, body n)]) (late s) (ub s))
  (** 160-165, 178: complete. *)
  | s_complete s k n : nth_error (workers s) k = Some (WFinishing n) -> mutex_free s ->
      step (LWorker k) s (mkpool (stop s) (pending s)
        (match erase_tag n (running s) with Some r => r | None => running s end)
        (set_nth k WTop (workers s)) (caller s) (enqueued s) (started s) (promises s) (late s)
        (ub s || match erase_tag n (running s) with Some _ => false | None => true end))
  (** 142: spurious wakeup. *)
  | s_spurious s k : nth_error (workers s) k = Some WBlocked -> step (LSpurious k) s (set_worker k WTop s)
  (** 86-88: stop = true. *)
  | s_stop s : caller s = CIdle -> stop s = false ->
      step LStop s (mkpool true (pending s) (running s) (workers s) CNotify (enqueued s) (started s) (promises s)
        (late s) (ub s))
  (** 89: notify_all, without the lock. *)
  | s_notify s : caller s = CNotify ->
      step LNotify s (mkpool (stop s) (pending s) (running s) (notify_all (workers s)) CJoin (enqueued s) (started s)
        (promises s) (late s) (ub s))
  (** 91-94: all joins have returned. *)
  | s_join s : caller s = CJoin -> (forall w, In w (workers s) -> w = WExited) ->
      step LJoin s (mkpool (stop s) (pending s) (running s) (workers s) CIdle (enqueued s) (started s) (promises s)
        (late s) (ub s))
  (** 71-82: restart, once stop_all has returned; queued tasks stay. *)
  | s_restart s n : caller s = CIdle -> stop s = true ->
      step (LRestart n) s (mkpool false (pending s) (running s) (repeat WTop n) CIdle (enqueued s) (started s)
        (promises s) false (ub s)).

  Inductive exec : list label -> pool B -> pool B -> Prop :=
  | e_nil s : exec [] s s
  | e_cons l ls s s1 s2 : step l s s1 -> exec ls s1 s2 -> exec (l :: ls) s s2.

  (** States reachable from a new pool of any number of workers. *)
  Definition reachable (s : pool B) : Prop := exists n ls, exec ls (init n) s.

  (** core_tree.hpp:615-625: map on a thread pool, second half: get() of every leaf's future. [ids] holds the
      number of the job that was enqueued for each leaf. A future without a result blocks: [NoFuel]. *)
  Definition future_get (s : pool B) (n : nat) : outcome B :=
    match List.find (fun p => fst p =? n) (promises s) with Some p => Ok (snd p) | None => NoFuel end.
End steps.

(** core_tree.hpp:615-625: map on a thread pool, first half: one job per leaf, in leaf order, when no other
    thread enqueues in between; the tree of job numbers, starting at [b]. *)
Fixpoint number {A} (b : nat) (t : tree A) : tree nat :=
  match t with
  | Leaf _ => Leaf b
  | Node cs =>
      Node ((fix go (b : nat) (l : list (tree A)) : list (tree nat) :=
               match l with
               | [] => []
               | c :: l' => number b c :: go (b + size c) l'
               end) b cs)
  end.
