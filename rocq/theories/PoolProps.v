(** C15-C17: the thread pool and the parallel tree map. *)
From Coq Require Import List Arith Bool Lia Permutation.
From Verif Require Import Base TreeModel TreeSpec TreeProofs PoolModel PoolProofs BalanceModel BalanceProofs.
Import ListNotations.
Close Scope Z_scope.
Open Scope nat_scope.

(** At every moment of every execution: the tasks started so far, followed by those waiting, are the tasks
    enqueued, in order; each started task has delivered its result exactly once or is being run by exactly
    one worker; and complete() always finds the task it is told about. *)
Theorem pool_fifo_exactly_once {B} (body : nat -> B) s : reachable body s ->
  started s ++ pending s = seq 0 (enqueued s) /\ NoDup (started s) /\
  Permutation (started s) (map fst (promises s) ++ flat_map in_run (workers s)) /\ ub s = false.
Proof.
  intros H. apply reachable_inv in H. destruct H as [I1 I2 I3 I4 I5 _ _ _ _ _ _]. repeat split; auto.
  assert (HN : NoDup (started s ++ pending s)) by (rewrite I1; apply seq_NoDup).
  clear -HN. revert HN. induction (started s) as [|x l IH]; intros HN; constructor; inversion HN; subst; auto.
  intros Hin. apply H1. apply in_or_app. auto.
Qed.

(** A worker leaves only when the pool is stopping and no task waits. *)
Theorem pool_exits_only_when_empty {B} (body : nat -> B) s s' k :
  step body (LWorker k) s s' -> nth_error (workers s) k <> Some WExited -> nth_error (workers s') k = Some WExited ->
  stop s = true /\ pending s = [].
Proof.
  intros H H1 H2. inversion H; subst; auto; exfalso; cbn [workers set_worker] in H2;
    match goal with Hk : nth_error _ k = Some _ |- _ =>
      destruct (split_worker _ _ _ Hk) as (l1 & l2 & EW & HL & HS); rewrite HS in H2;
      rewrite nth_error_app2, HL, Nat.sub_diag in H2 by lia; discriminate end.
Qed.

(** Once all workers have left, every task has run, if none was enqueued after the request to stop. *)
Theorem pool_all_tasks_done_after_stop {B} (body : nat -> B) s : reachable body s ->
  late s = false -> workers s <> [] -> (forall w, In w (workers s) -> w = WExited) ->
  pending s = [] /\ running s = [] /\ Permutation (map fst (promises s)) (seq 0 (enqueued s)).
Proof. intros H. apply all_exited_done with (body := body). apply reachable_inv. exact H. Qed.

(** A pool with workers that is not being stopped finishes all its tasks: the number of moves is bounded
    (spurious wakeups aside, each of which allows three more), and when no worker can move all is done. *)
Theorem pool_runs_all_tasks {B} (body : nat -> B) s s' ls : reachable body s ->
  stop s = false -> workers s <> [] -> exec body ls s s' -> forallb internal ls = true ->
  length ls <= work s + 3 * length (filter spurious ls) /\
  (quiet body s' -> pending s' = [] /\ running s' = [] /\ enqueued s' = enqueued s /\
     Permutation (map fst (promises s')) (seq 0 (enqueued s))).
Proof.
  intros H Hs Hw HE HF. split; [pose proof (exec_work body ls s s' HE HF); lia|]. intros Q.
  pose proof (reachable_inv body s' (reachable_exec body ls s s' H HE)) as I'.
  assert (G : stop s' = stop s /\ enqueued s' = enqueued s /\ length (workers s') = length (workers s)).
  { clear -HE HF. induction HE as [|l ls s s1 s2 H HE IH]; auto. cbn [forallb] in HF. apply andb_true_iff in HF.
    destruct HF as [H1 H2]. destruct (IH H2) as (-> & -> & ->).
    assert (HS : forall k w (l : list wstate), length (set_nth k w l) = length l).
    { clear. intros k w l. revert k. induction l; intros [|k]; simpl; auto. }
    destruct H; try discriminate; cbn; rewrite ?HS; auto. }
  destruct G as (G1 & G2 & G3). rewrite <- G2.
  destruct (quiet_done body s' I' Q) as (E1 & E2 & E3); [congruence| |auto].
  destruct (workers s'); [destruct (workers s); [congruence|discriminate]|discriminate].
Qed.

(** Two workers, three tasks; the second worker overtakes the first, tasks still start in order. *)
Example pool_example :
  exists s, exec (fun n => 10 * n)
    [LEnqueue; LEnqueue; LEnqueue; LWorker 0; LWorker 1; LWorker 1; LWorker 1; LWorker 1; LWorker 0] (init 2) s /\
    started s = [0; 1; 2] /\ pending s = [] /\ promises s = [(1, 10); (0, 0)] /\ running s = [0; 2] /\
    workers s = [WFinishing 0; WRunning 2].
Proof.
  assert (HN : forall ws ws' : list wstate, ws' = ws -> ~ In WBlocked ws -> notify_one ws ws') by (right; auto).
  eexists. split.
  - unfold init. cbn [repeat].
    eapply e_cons; [apply s_enqueue; [cbv; intuition discriminate|apply HN; [reflexivity|cbv; intuition discriminate]]|].
    eapply e_cons; [apply s_enqueue; [cbv; intuition discriminate|apply HN; [reflexivity|cbv; intuition discriminate]]|].
    eapply e_cons; [apply s_enqueue; [cbv; intuition discriminate|apply HN; [reflexivity|cbv; intuition discriminate]]|].
    cbn.
    eapply e_cons; [eapply s_take; [reflexivity|cbv; intuition discriminate|reflexivity]|]. cbn.
    eapply e_cons; [eapply s_take; [reflexivity|cbv; intuition discriminate|reflexivity]|]. cbn.
    eapply e_cons; [eapply s_run; reflexivity|]. cbn.
    eapply e_cons; [eapply s_complete; [reflexivity|cbv; intuition discriminate]|]. cbn.
    eapply e_cons; [eapply s_take; [reflexivity|cbv; intuition discriminate|reflexivity]|]. cbn.
    eapply e_cons; [eapply s_run; reflexivity|]. cbn.
    apply e_nil.
  - cbn. repeat split.
Qed.

(** ** Stopping *)

(** Finding: stop_all sets the flag and notifies without holding the mutex. If a worker has just found
    nothing to do and is not yet asleep, it misses the notification; it then sleeps and stop_all waits for it
    without end (spurious wakeups and late tasks excepted). *)
Theorem pool_stop_terminates_refuted {B} (body : nat -> B) s k : reachable body s ->
  caller s = CNotify -> nth_error (workers s) k = Some WChecked ->
  exists s1, exec body [LNotify; LWorker k] s s1 /\
    forall ls s2, exec body ls s1 s2 -> forallb internal ls = true ->
      forallb (fun l => negb (spurious l)) ls = true ->
      caller s2 = CJoin /\ nth_error (workers s2) k = Some WBlocked.
Proof.
  intros HR Hc Hk. eexists. split.
  - eapply e_cons; [apply s_notify; exact Hc|]. eapply e_cons; [|apply e_nil]. eapply (s_sleep body _ k).
    cbn [workers]. unfold notify_all. rewrite nth_error_map, Hk. reflexivity.
  - intros ls s2 HE HF HS. eapply asleep_forever; eauto. cbn [workers set_worker].
    destruct (split_worker (notify_all (workers s)) k WChecked) as (l1 & l2 & _ & HL & HSet).
    { unfold notify_all. rewrite nth_error_map, Hk. reflexivity. }
    rewrite HSet, nth_error_app2, HL, Nat.sub_diag by lia. reflexivity.
Qed.

(** This situation occurs: a pool with one worker, stopped just after it was made. *)
Example pool_stop_hangs_example :
  exists s, exec (fun n => n) [LWorker 0; LStop] (init 1) s /\ caller s = CNotify /\ nth_error (workers s) 0 = Some WChecked.
Proof.
  eexists. split; [|split].
  - eapply e_cons; [eapply s_check; [reflexivity|cbv; intuition discriminate|reflexivity|reflexivity]|]. cbn.
    eapply e_cons; [eapply s_stop; reflexivity|]. apply e_nil.
  - reflexivity.
  - reflexivity.
Qed.

(** Otherwise stopping works: if no worker is at that point when the notification is sent, then the number
    of further moves is bounded, and when nothing can move any more the join has returned. *)
Theorem pool_stop_terminates {B} (body : nat -> B) s s1 s2 ls : reachable body s ->
  caller s = CNotify -> ~ In WChecked (workers s) -> step body LNotify s s1 ->
  exec body ls s1 s2 -> forallb internal ls = true ->
  length ls <= work s1 + 3 * length (filter spurious ls) /\
  (quiet body s2 -> (forall s', ~ step body LJoin s2 s') ->
     caller s2 = CIdle /\ forall w, In w (workers s2) -> w = WExited).
Proof.
  intros HR Hc HC H1 HE HF. split; [pose proof (exec_work body ls s1 s2 HE HF); lia|]. intros Q HJ.
  pose proof (reachable_inv body s HR) as I.
  destruct (awake_notify body s s1 I Hc HC H1) as [A C1].
  pose proof (exec_awake body ls s1 s2 A HE HF) as (A1 & A2 & A3).
  assert (HX : forall w, In w (workers s2) -> w = WExited).
  { pose proof (quiet_workers body s2 Q) as QW. rewrite Forall_forall in QW. intros w Hw.
    destruct (QW w Hw) as [->|]; auto. contradiction. }
  split; auto. destruct (exec_caller body ls s1 s2 HE HF C1) as [Hd|Hd]; auto.
  exfalso. eapply HJ. apply s_join; auto.
Qed.

(** ** The parallel tree map *)

(** [ids] holds, leaf by leaf, the number of a job that computes [f] of the leaf's value. *)
Inductive jobs_of {A B} (body : nat -> B) (f : A -> B) : tree nat -> tree A -> Prop :=
| j_leaf n v : body n = f v -> jobs_of body f (Leaf n) (Leaf v)
| j_node ids cs : Forall2 (jobs_of body f) ids cs -> jobs_of body f (Node ids) (Node cs).

(** The jobs submitted by the map are such jobs. *)
Theorem parallel_map_submits {A B} (body : nat -> B) (f : A -> B) (t : tree A) : forall b,
  (forall k v, nth_error (leaves t) k = Some v -> body (b + k) = f v) -> jobs_of body f (number b t) t.
Proof.
  induction t as [a|cs IH] using tree_ind'; intros b H.
  - constructor. rewrite <- (Nat.add_0_r b). apply H. reflexivity.
  - cbn [number]. constructor. change (leaves (Node cs)) with (flat_map leaves cs) in H.
    revert b H. induction IH as [|c cs Hc HF IHF]; intros b H; constructor.
    + apply Hc. intros k v Hk. apply H. cbn [flat_map]. rewrite nth_error_app1; auto.
      apply nth_error_Some. congruence.
    + apply IHF. intros k v Hk. rewrite <- Nat.add_assoc. apply H. cbn [flat_map].
      rewrite size_leaves, nth_error_app2 by lia. rewrite <- Hk. f_equal. lia.
Qed.

Lemma collect_safe {A B} (body : nat -> B) (f : A -> B) s (ids : tree nat) : inv body s -> forall t r,
  jobs_of body f ids t -> tmapM (future_get s) ids = Ok r -> r = tmap f t.
Proof.
  intros I. induction ids as [n|ids IH] using tree_ind'; intros t r HJ HM; inversion HJ as [? v Hv|? cs HF]; subst.
  - cbn [tmapM tmap] in *. destruct (future_get s n) as [x| | |] eqn:E; try discriminate. injection HM as <-.
    unfold future_get in E. destruct (List.find _ (promises s)) as [[m y]|] eqn:EF; [|discriminate].
    apply find_some in EF. destruct EF as [E1 E2]. cbn in *. apply Nat.eqb_eq in E2. subst m. injection E as ->.
    pose proof (i_val _ _ I) as HV. rewrite Forall_forall in HV. apply HV in E1. cbn in E1. congruence.
  - rewrite tmapM_node in HM. destruct (mapM_tree (future_get s) ids) as [ds| | |] eqn:E; try discriminate.
    injection HM as <-. cbn [tmap]. f_equal. clear HJ.
    revert ds E. induction HF as [|i c ids cs H HF IHF]; intros ds E; [injection E as <-; reflexivity|].
    cbn [mapM_tree] in E. inversion IH; subst.
    destruct (tmapM (future_get s) i) as [d| | |] eqn:E1; try discriminate. revert E; bsimp; intros E.
    destruct (mapM_tree (future_get s) ids) as [ds'| | |] eqn:E2; try discriminate. injection E as <-.
    cbn [map]. f_equal; eauto.
Qed.

Lemma collect_done {A B} (body : nat -> B) (f : A -> B) s (ids : tree nat) : inv body s ->
  (forall n, In n (leaves ids) -> In n (map fst (promises s))) -> forall t, jobs_of body f ids t ->
  tmapM (future_get s) ids = Ok (tmap f t).
Proof.
  intros I. induction ids as [n|ids IH] using tree_ind'; intros HD t HJ; inversion HJ as [? v Hv|? cs HF]; subst.
  - cbn [tmapM tmap]. rewrite (future_get_ok body s n I) by (apply HD; left; reflexivity). bsimp. congruence.
  - rewrite tmapM_node. cbn [tmap].
    assert (E : mapM_tree (future_get s) ids = Ok (map (tmap f) cs)).
    { clear HJ. change (leaves (Node ids)) with (flat_map leaves ids) in HD. induction HF as [|i c ids cs H HF IHF]; [reflexivity|].
      inversion IH; subst. cbn [mapM_tree map].
      rewrite (H2 (fun n Hn => HD n (in_or_app _ _ _ (or_introl Hn))) c H). bsimp.
      rewrite IHF; auto. intros n Hn. apply HD. cbn [flat_map]. apply in_or_app. auto. }
    rewrite E. reflexivity.
Qed.

(** Whatever the schedule, collecting the results never yields anything but the sequential map. *)
Theorem parallel_map_correct {A B} (body : nat -> B) (f : A -> B) (t : tree A) ids s r :
  reachable body s -> jobs_of body f ids t -> tmapM (future_get s) ids = Ok r -> r = tmap f t.
Proof. intros H. apply (collect_safe body f s ids (reachable_inv body s H)). Qed.

(** And the results do become available: after boundedly many moves of a pool with workers. *)
Theorem parallel_map_completes {A B} (body : nat -> B) (f : A -> B) (t : tree A) ids s s' ls :
  reachable body s -> stop s = false -> workers s <> [] ->
  jobs_of body f ids t -> (forall n, In n (leaves ids) -> n < enqueued s) ->
  exec body ls s s' -> forallb internal ls = true ->
  length ls <= work s + 3 * length (filter spurious ls) /\
  (quiet body s' -> tmapM (future_get s') ids = Ok (tmap f t)).
Proof.
  intros HR Hs Hw HJ HN HE HF.
  destruct (pool_runs_all_tasks body s s' ls HR Hs Hw HE HF) as [HL HQ]. split; auto. intros Q.
  apply collect_done with (body := body); auto.
  - apply reachable_inv. eapply reachable_exec; eauto.
  - intros n Hn. apply HN in Hn. destruct (HQ Q) as (_ & _ & _ & HP).
    eapply Permutation_in; [symmetry; exact HP|]. apply in_seq. lia.
Qed.

(** A tree of five leaves whose jobs finished in the order 3, 0, 4, 2, 1. *)
Example parallel_map_example :
  let t := Node [Leaf 7; Node [Leaf 5; Leaf 6]; Leaf 1; Leaf 2] in
  let body := fun n => nth n [49; 25; 36; 1; 4] 0 in
  number 0 t = Node [Leaf 0; Node [Leaf 1; Leaf 2]; Leaf 3; Leaf 4] /\
  jobs_of body (fun v => v * v) (number 0 t) t /\
  tmapM (future_get (mkpool false [] [] [] CIdle 5 [0;1;2;3;4] [(3,1);(0,49);(4,4);(2,36);(1,25)] false false)) (number 0 t)
    = Ok (Node [Leaf 49; Node [Leaf 25; Leaf 36]; Leaf 1; Leaf 4]).
Proof.
  split; [reflexivity|]. split; [|reflexivity]. apply parallel_map_submits.
  intros [|[|[|[|[|k]]]]] v Hv; cbn in Hv; try (injection Hv as <-; reflexivity). destruct k; discriminate.
Qed.

Print Assumptions pool_fifo_exactly_once.
Print Assumptions pool_exits_only_when_empty.
Print Assumptions pool_all_tasks_done_after_stop.
Print Assumptions pool_runs_all_tasks.
Print Assumptions pool_stop_terminates_refuted.
Print Assumptions pool_stop_terminates.
Print Assumptions parallel_map_submits.
Print Assumptions parallel_map_correct.
Print Assumptions parallel_map_completes.
