(** C18-C21: schedules and restarting. *)
From Coq Require Import List Arith Ascii String Bool ZArith Lia Permutation Reals Lra.
From Verif Require Import Base StrModel MapModel MapProofs ScheduleModel ScheduleProofs RestartProofs RestartProofs2 DriftProofs.
Import ListNotations.
Close Scope R_scope.
Open Scope nat_scope.

(** ** C18: recurring tasks do not drift *)

(** One history of a schedule: [sc n] is the schedule before check [n] (mark_tasks_in at time [tm n]), [mk n] the
    schedule after it; whatever happens between two checks does not touch the last-performed time of [k]. *)
Definition check_history (sc mk : nat -> schedule R) (tm : nat -> R) (l : list (str * R)) (k : str) : Prop :=
  (forall n, msorted (sc n)) /\ NoDup (map fst l) /\ (forall n m, In m (map fst l) -> mfind m (sc n) <> None) /\
  (forall n, mark_tasks_in Rplus tdueR (sc n) (tm n) l = Ok (mk n)) /\
  (forall n, last_performed k (sc (S n)) = last_performed k (mk n)).

(** Whatever the step sizes: start plus a whole number of intervals, at most one more per check. *)
Theorem schedule_last_is_multiple sc mk tm l k I L0 :
  check_history sc mk tm l k -> In (k, I) l -> last_performed k (sc 0) = Ok L0 ->
  forall n, exists j, j <= n /\ last_performed k (sc n) = Ok (L0 + INR j * I)%R.
Proof. intros (H1 & H2 & H3 & H4 & H5) H6 H7. eapply drift_multiple; eauto. Qed.

(** Steps no longer than the interval: after every check the time lies within one interval of it. *)
Theorem schedule_never_lags sc mk tm l k I L0 :
  check_history sc mk tm l k -> In (k, I) l -> last_performed k (sc 0) = Ok L0 -> (0 < I)%R ->
  (L0 <= tm 0%nat < L0 + 2 * I)%R -> (forall n, tm n <= tm (S n) <= tm n + I)%R ->
  forall n, exists j, last_performed k (mk n) = Ok (L0 + INR j * I)%R /\ (L0 + INR j * I <= tm n < L0 + (INR j + 1) * I)%R.
Proof.
  intros (H1 & H2 & H3 & H4 & H5) H6 H7 H8 H9 H10 n.
  destruct (drift_bracket sc mk tm l k I L0 H1 H2 H3 H4 H5 H6 H7 H9 H10 n) as (j & _ & H). exists j. exact H.
Qed.

(** Then the task becomes due at exactly the checks whose step crosses a multiple of the interval. *)
Theorem schedule_due_at_crossings sc mk tm l k I L0 :
  check_history sc mk tm l k -> In (k, I) l -> last_performed k (sc 0) = Ok L0 -> (0 < I)%R ->
  (L0 <= tm 0%nat < L0 + 2 * I)%R -> (forall n, tm n <= tm (S n) <= tm n + I)%R ->
  forall n, is_due k (sc (S n)) = Ok false ->
  exists b, is_due k (mk (S n)) = Ok b /\ (b = true <-> exists j, (tm n < L0 + INR j * I <= tm (S n))%R).
Proof. intros (H1 & H2 & H3 & H4 & H5) H6 H7 H8 H9 H10. eapply drift_due; eauto. Qed.

Lemma tdueR_true t l i : (i <= t - l)%R -> tdueR t l i = true.
Proof. intros H. unfold tdueR. destruct (Rle_dec i (t - l)%R); [reflexivity|contradiction]. Qed.
Lemma tdueR_false t l i : (t - l < i)%R -> tdueR t l i = false.
Proof. intros H. unfold tdueR. destruct (Rle_dec i (t - l)%R); [exfalso; lra|reflexivity]. Qed.

(** Steps of 0.4 with interval 1: due at the checks at 1.2 and 2.0, with last-performed 1 and then 2. *)
Example schedule_drift_example :
  let at_ (t : R) := [(lit "out", mktask (lit "out") 1%Z t false)] in
  let due_ (t : R) := [(lit "out", mktask (lit "out") 1%Z t true)] in
  mark_tasks_in Rplus tdueR (at_ 0%R) (4/5)%R [(lit "out", 1%R)] = Ok (at_ 0%R) /\
  mark_tasks_in Rplus tdueR (at_ 0%R) (6/5)%R [(lit "out", 1%R)] = Ok (due_ (0 + 1)%R) /\
  mark_tasks_in Rplus tdueR (at_ 1%R) (8/5)%R [(lit "out", 1%R)] = Ok (at_ 1%R) /\
  mark_tasks_in Rplus tdueR (at_ 1%R) 2%R [(lit "out", 1%R)] = Ok (due_ (1 + 1)%R).
Proof.
  lazy -[tdueR Rplus Rdiv IZR].
  rewrite (tdueR_false (4 / 5)%R), (tdueR_true (6 / 5)%R), (tdueR_false (8 / 5)%R), (tdueR_true 2%R) by lra. auto.
Qed.

(** A step longer than the interval: only one interval is recorded, so outputs fall behind the simulation time. *)
Example schedule_long_step_example :
  let at_ (t : R) := [(lit "out", mktask (lit "out") 1%Z t false)] in
  mark_tasks_in Rplus tdueR (at_ 0%R) 5%R [(lit "out", 1%R)] =
    Ok [(lit "out", mktask (lit "out") 1%Z (0 + 1)%R true)].
Proof.
  lazy -[tdueR Rplus Rdiv IZR].
  rewrite (tdueR_true 5%R) by lra. reflexivity.
Qed.

(** ** C19: run_scheduled_tasks *)

(** The calls are those of the due tasks, in order, each on the result of the one before; due as judged at the start. *)
Theorem scheduled_tasks_run_in_order {T State} (sched : State -> schedule T) state tasks :
  (forall n f, In (n, f) tasks -> mfind n (sched state) <> None) ->
  run_scheduled_tasks sched state tasks =
    foldM (fun w e => snd e w) state
      (filter (fun e => match mfind (fst e) (sched state) with Some t => t_due t | None => false end) tasks).
Proof. intros H. apply run_scheduled_fold. exact H. Qed.

(** An unregistered name is reported, after the tasks listed before it have run. *)
Theorem scheduled_tasks_unregistered {T State} (sched : State -> schedule T) state l1 n f l2 :
  (forall m g, In (m, g) l1 -> mfind m (sched state) <> None) -> mfind n (sched state) = None ->
  run_scheduled_tasks sched state (l1 ++ (n, f) :: l2) = do _ <- run_scheduled_tasks sched state l1; Throw OutOfRange.
Proof. intros H1 H2. unfold run_scheduled_tasks. apply run_scheduled_unregistered; auto. Qed.

(** If each task's only effect on the schedule is to mark itself as completed: those that were due are then not due and
    counted once more, and all other entries are unchanged. *)
Theorem scheduled_tasks_effect {T State} (sched : State -> schedule T) state tasks state' :
  msorted (sched state) -> NoDup (map fst tasks) ->
  (forall n f, In (n, f) tasks -> mfind n (sched state) <> None) ->
  (forall n f w w', In (n, f) tasks -> f w = Ok w' -> mark_as_completed n (sched w) = Ok (sched w')) ->
  run_scheduled_tasks sched state tasks = Ok state' ->
  forall k, mfind k (sched state') =
    match mfind k (sched state) with
    | Some t => Some (if t_due t && existsb (fun e => if str_dec k (fst e) then true else false) tasks
                      then mktask (t_name t) (t_count t + 1)%Z (t_last t) false else t)
    | None => None
    end.
Proof.
  intros HS HN HR HC H k. unfold run_scheduled_tasks in H. rewrite run_scheduled_fold in H by exact HR.
  destruct (fold_completed sched (filter (fun e => due_in (sched state) (fst e)) tasks)) with (w := state) (w' := state')
    as (_ & _ & F); auto.
  { apply filter_sub. apply Forall_forall. intros [n f] Hin w w' E. cbn in *. eapply HC; eauto. }
  { apply filter_nodup. exact HN. }
  rewrite F. destruct (in_dec str_dec k _) as [Hin|Hout]; destruct (mfind k (sched state)) as [t|] eqn:E; cbn [option_map]; auto.
  - apply in_map_iff in Hin. destruct Hin as (e & <- & He). apply filter_In in He. destruct He as [He Hd].
    unfold due_in in Hd. rewrite E in Hd. rewrite Hd. cbn [andb].
    replace (existsb _ tasks) with true; [reflexivity|]. symmetry. apply existsb_exists. exists e. split; auto.
    destruct (str_dec (fst e) (fst e)); congruence.
  - destruct (t_due t) eqn:ED; cbn [andb]; auto. destruct (existsb _ tasks) eqn:EX; auto. exfalso. apply Hout.
    apply existsb_exists in EX. destruct EX as (e & He & Hk). destruct (str_dec k (fst e)) as [->|]; [|discriminate].
    apply in_map. apply filter_In. split; auto. unfold due_in. rewrite E. exact ED.
Qed.

Example scheduled_tasks_example :
  let s := [(lit "a", mktask (lit "a") 3%Z 0 true); (lit "b", mktask (lit "b") 0%Z 0 false)] in
  let log m (w : schedule nat * list str) := do sc <- mark_as_completed m (fst w); Ok (sc, snd w ++ [m]) in
  run_scheduled_tasks fst (s, []) [(lit "b", log (lit "b")); (lit "a", log (lit "a"))] =
    Ok ([(lit "a", mktask (lit "a") 4%Z 0 false); (lit "b", mktask (lit "b") 0%Z 0 false)], [lit "a"]).
Proof. vm_compute. reflexivity. Qed.

(** ** C20: the binary subprogram resumes exactly *)

(** For every checkpoint [f] among the outputs of a run: it was the last output of some round [m]; reading it (in any
    order of the schedule's entries) gives the state the run had after that round, with the new configuration; the
    resumed run does nothing before its loop; and for every number of further rounds it goes through the same states and
    gives the same outputs as the original run did after that checkpoint. *)
Theorem binary_restart_exact
    {T : Type} (tzero : T) tadd tdue {Sol Cfg Sample Diag : Type} (next_solution : Cfg -> Sol -> outcome Sol)
    time_of cpi dfi tsi should_continue (diagnose : Cfg -> Sol -> Diag) (sample : Cfg -> Sol -> Sample)
    cfg sol n s o c f cfg' l :
  let main := binary_main tzero tadd tdue next_solution time_of cpi dfi tsi should_continue diagnose sample cfg sol in
  main n = Ok (s, o) -> In (OutCheckpoint c f) o ->
  agree next_solution cpi dfi tsi should_continue diagnose sample cfg cfg' ->
  Permutation l (f_sched f) ->
  let r := bread f l cfg' in
  exists m sm om pre, m <= n /\ main m = Ok (sm, om) /\ om = pre ++ [OutCheckpoint c f] /\
    r = mkb (b_sol sm) (b_sched sm) (b_series sm) cfg' /\
    brun_tasks diagnose sample (r, []) = Ok (r, []) /\
    forall k, match main (m + k), bloop tadd tdue next_solution time_of cpi dfi tsi should_continue diagnose sample k (r, []) with
      | Ok (s1, o1), Ok (s2, o2) =>
          s2 = mkb (b_sol s1) (b_sched s1) (b_series s1) cfg' /\ exists d, o1 = om ++ d /\ o2 = map (rco cfg') d
      | Throw e, Throw e' => e = e'
      | UB, UB => True
      | NoFuel, NoFuel => True
      | _, _ => False
      end.
Proof.
  intros main HM Hin HA HP r.
  destruct (restart_continues tzero tadd tdue next_solution time_of cpi dfi tsi should_continue diagnose sample
    cfg sol n (s, o) c f cfg' l HM Hin HA HP) as (m & [sm om] & pre & H1 & H2 & H3 & H4 & H5 & H6).
  exists m, sm, om, pre. split; auto. split; auto. split; auto. split; auto. split; auto. intros k. specialize (H6 k).
  unfold rel_out in H6. unfold r, main.
  destruct (binary_main _ _ _ _ _ _ _ _ _ _ _ _ _ (m + k)) as [[s1 o1]| | |];
    destruct (bloop _ _ _ _ _ _ _ _ _ _ k _) as [[s2 o2]| | |]; auto.
Qed.

(** Times in nat: a run of 5 rounds with cpi 2, dfi 3, tsi 1 writes checkpoints 0, 1, 2 and diagnostics 0, 1. *)
Example binary_restart_example :
  match binary_main 0 Nat.add (fun t l i => i <=? t - l) (fun _ s => Ok (S s)) (fun s => s) (fun _ : unit => 2) (fun _ => 3)
    (fun _ => 1) (fun _ _ => true) (fun _ s => s) (fun _ s => s) tt 0 5 with
  | Ok (s, o) => map (fun x => match x with OutCheckpoint n f => (0, n, f_sol f) | OutDiagnostics n d => (1, n, d) end) o =
      [(1, 0%Z, 0); (0, 0%Z, 0); (0, 1%Z, 3); (1, 1%Z, 4); (0, 2%Z, 5)]
  | _ => False
  end.
Proof. vm_compute. reflexivity. Qed.

(** ** C21: the other subprograms do not *)

(** The state of the run at a checkpoint: a well-formed schedule with all tasks registered. *)
Definition simple_ready {T Sol Cfg : Type} (others : list (str * (Cfg -> T))) (s : sstate (T := T) (Sol := Sol) (Cfg := Cfg)) : Prop :=
  msorted (s_sched s) /\ Forall (fun e => t_name (snd e) = fst e) (s_sched s) /\
  (forall n, In n (lit "write_checkpoint" :: map fst others) -> mfind n (s_sched s) <> None) /\
  ~ In (lit "write_checkpoint") (map fst others).

(** Resuming from checkpoint number [c] writes checkpoint number [c] again, and produces none of the outputs that were due. *)
Theorem simple_restart_overwrites
    {T : Type} (tadd : T -> T -> T) tdue {Sol Cfg : Type} (next_solution : Cfg -> Sol -> outcome Sol) time_of others cpi
    should_continue (s s' : sstate (T := T) (Sol := Sol) (Cfg := Cfg)) o c f l cfg :
  simple_ready others s ->
  srun_tasks others s = Ok (s', o) -> In (SCheckpoint c f) o -> Permutation l (sf_sched f) ->
  let r := sread f l cfg in
  srun_tasks others r = Ok (r, []) /\
  forall n r' o', sloop tadd tdue next_solution time_of others cpi should_continue n (r, []) = Ok (r', o') ->
    exists k, chk_numbers o' = map (fun i => (c + Z.of_nat i)%Z) (seq 0 k).
Proof.
  intros (HS & HN & HR & HO) HM Hin HP r.
  destruct (srun_written others s s' o c f HM Hin) as [-> HC]. split.
  - apply sread_noop; auto.
  - intros n r' o' HL.
    destruct (sloop_numbers tadd tdue next_solution time_of others cpi should_continue HO n r [] r' o' c HL) as (d & k & E & H & _).
    + split.
      * unfold r, sread. cbn [s_sched]. rewrite (read_write_schedule (s_sched s) l HS HN HP).
        apply (msorted_map (fun t => mktask (t_name t) (t_count t) (t_last t) false)). exact HS.
      * apply num_spec. unfold r. rewrite (sread_find s l cfg HS HN HP). apply num_spec in HC. destruct HC as (t & F & C).
        rewrite F. cbn. eauto.
    + exists k. subst o'. exact H.
Qed.

(** The claimed property, and a witness against each half: a run whose first round writes checkpoint 0 and diagnostics 0;
    the resumed run writes checkpoint 0 again, and its first diagnostics is that of the next interval. *)
Definition simple_restart_property {T Sol Cfg : Type} tadd tdue next_solution time_of others cpi should_continue : Prop :=
  forall (s s' : sstate (T := T) (Sol := Sol) (Cfg := Cfg)) o c f l cfg,
    simple_ready others s -> srun_tasks others s = Ok (s', o) -> In (SCheckpoint c f) o -> Permutation l (sf_sched f) ->
    forall n r' o' c' f', sloop tadd tdue next_solution time_of others cpi should_continue n (sread f l cfg, []) = Ok (r', o') ->
      In (SCheckpoint c' f') o' -> (c < c')%Z.

Theorem simple_restart_refuted :
  exists others, ~ simple_restart_property Nat.add (fun t l i => i <=? t - l) (fun (_ : unit) s => Ok (S s)) (fun s : nat => s) others
    (fun _ => 2) (fun _ _ => true).
Proof.
  exists [(lit "write_diagnostics", fun _ => 3)]. intros H.
  set (s := mks 0 [(lit "write_checkpoint", mktask (lit "write_checkpoint") 0%Z 0 true);
                   (lit "write_diagnostics", mktask (lit "write_diagnostics") 0%Z 0 true)] tt).
  assert (X : (0 < 0)%Z); [|lia].
  eapply (H s _ _ 0%Z (swrite s) (sf_sched (swrite s)) tt) with (n := 3) (c' := 0%Z).
  - split; [repeat constructor|]. split; [repeat constructor|]. split.
    + intros n [<-|[<-|[]]]; vm_compute; discriminate.
    + intros [X|[]]. discriminate.
  - vm_compute. reflexivity.
  - left. reflexivity.
  - apply Permutation_refl.
  - vm_compute. reflexivity.
  - left. reflexivity.
Qed.

(** The same state: the original run wrote diagnostics 0 at time 0, the resumed one writes its first at time 4. *)
Example simple_restart_example :
  let others := [(lit "write_diagnostics", fun _ : unit => 3)] in
  let s := mks 0 [(lit "write_checkpoint", mktask (lit "write_checkpoint") 7%Z 0 true);
                  (lit "write_diagnostics", mktask (lit "write_diagnostics") 5%Z 0 true)] tt in
  match srun_tasks others s with
  | Ok (s', [SCheckpoint c f; SOther _ d]) =>
      (c, d) = (7%Z, 5%Z) /\
      match sloop Nat.add (fun t l i => i <=? t - l) (fun _ s => Ok (S s)) (fun s => s) others (fun _ => 2) (fun _ _ => true)
              4 (sread f (sf_sched f) tt, []) with
      | Ok (r, o) => map (fun x => match x with SCheckpoint n f => (0, n, sf_sol f) | SOther _ n => (1, n, 0) end) o =
          [(0, 7%Z, 3); (1, 5%Z, 0)]
      | _ => False
      end
  | _ => False
  end.
Proof. vm_compute. split; reflexivity. Qed.

(** A sedov run cannot be resumed at all: the group it reads the configuration from is not in its checkpoints. *)
Theorem sedov_restart_refuted : restart_opens Sedov = Throw InvalidArgument.
Proof. vm_compute. reflexivity. Qed.
Theorem other_restarts_open : forall p, p <> Sedov -> exists gs, restart_opens p = Ok gs.
Proof. intros [| |] H; try congruence; vm_compute; eauto. Qed.

Print Assumptions schedule_last_is_multiple.
Print Assumptions schedule_never_lags.
Print Assumptions schedule_due_at_crossings.
Print Assumptions scheduled_tasks_run_in_order.
Print Assumptions scheduled_tasks_effect.
Print Assumptions binary_restart_exact.
Print Assumptions simple_restart_overwrites.
Print Assumptions simple_restart_refuted.
Print Assumptions sedov_restart_refuted.
