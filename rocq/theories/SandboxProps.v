(** Complete runs of the mesh refinement sandbox: which files they leave and what is in them. *)
From Coq Require Import ZArith Reals Lra Lia List Arith Bool String.
From Verif Require Import Base StrModel MapModel ScheduleModel RationalModel TreeModel TreeSpec BalanceModel NdModel NdSpec GuardModel MeshModel DriftProofs RunModel RunSpec RunProofs RunProps AmrModel AmrProofs AmrProofs2 AmrProps AmrMassProps FluxSpec SandboxModel.
Import ListNotations.
Open Scope R_scope.

(** *** The run of the boilerplate program with the task of another name *)
Definition entry (n : str) (c : Z) (l : R) (d : bool) : schedule R := [(n, mktask n c l d)].
Definition alike (a b : schedule R) : Prop := exists c l d, a = entry (lit "write_checkpoint") c l d /\ b = entry task_name c l d.
Definition renamed (x : diagnostics) (o : @sout R (solution (T := R)) config) : Prop :=
  match o with SCheckpoint n f => x = Diagnostics n (time (sf_sol f)) (vertices (sf_sol f)) (conserved (sf_sol f)) | SOther _ _ => False end.
Definition go (c : config) (s : solution (T := R)) : bool := if Rlt_dec (time s) (tfinal c) then true else false.
Definition due_rule (t last I : R) : bool := if Rle_dec I (t - last) then true else false.

Section Same.
Variable fuel : nat.
Let nx (c : config) := next_real fuel.
Definition same_state (a : sstate (T := R) (Sol := solution (T := R)) (Cfg := config)) (b : app_state) : Prop := s_sol a = a_solution b /\ s_cfg a = a_config b /\ alike (s_sched a) (a_schedule b).
Definition same_world (a : sstate * list sout) (b : app_state * list diagnostics) : Prop := same_state (fst a) (fst b) /\ Forall2 renamed (snd b) (snd a).
Definition matched {A B} (Rel : A -> B -> Prop) (x : outcome A) (y : outcome B) : Prop := match x with Ok a => exists b, y = Ok b /\ Rel a b | _ => True end.

Lemma tasks_match a b : same_state a b -> matched same_world (srun_tasks [] a) (run_tasks b).
Proof.
  intros (E1 & E2 & c & l & d & Ea & Eb). destruct a as [sa ca fa], b as [sb cb fb]. cbn [s_sol s_cfg s_sched a_solution a_config a_schedule] in *. subst.
  unfold srun_tasks, run_tasks, stask. cbn [s_sched a_schedule].
  change (is_due (lit "write_checkpoint") (entry (lit "write_checkpoint") c l d)) with (@Ok bool d). change (is_due task_name (entry task_name c l d)) with (@Ok bool d). cbn [bind]. destruct d; cbn [bind].
  - change (num_times_performed (lit "write_checkpoint") (entry (lit "write_checkpoint") c l true)) with (@Ok Z c). change (num_times_performed task_name (entry task_name c l true)) with (@Ok Z c). cbn [bind fst snd].
    unfold mark_as_completed. change (sat (lit "write_checkpoint") (entry (lit "write_checkpoint") c l true)) with (Ok (mktask (lit "write_checkpoint") c l true)). change (sat task_name (entry task_name c l true)) with (Ok (mktask task_name c l true)). cbn [bind t_count t_name t_last].
    destruct (chk (c + 1)) as [c'| | |] eqn:E; cbn [bind matched foldM]; try exact I. eexists. split; [reflexivity|].
    split; cbn [fst snd]; [split; [reflexivity|split; [reflexivity|]]; exists c', l, false; split; reflexivity|]. cbn [app]. constructor; [reflexivity|constructor].
  - cbn [foldM bind matched fst snd]. eexists. split; [reflexivity|]. split; [|constructor]. split; [reflexivity|]. split; [reflexivity|]. exists c, l, false. split; reflexivity.
Qed.
Lemma next_match a b : same_state a b -> matched same_state (snext Rplus due_rule nx time [] dfi a) (next fuel b).
Proof.
  intros (E1 & E2 & c & l & d & Ea & Eb). destruct a as [sa ca fa], b as [sb cb fb]. cbn [s_sol s_cfg s_sched a_solution a_config a_schedule] in *. subst.
  unfold snext, next. cbn [s_sol s_cfg s_sched a_solution a_config a_schedule]. unfold nx. destruct (next_real fuel sb) as [u| | |]; cbn [bind matched]; try exact I.
  unfold mark_tasks_in, next_schedule. cbn [mark_tasks map]. change (last_performed (lit "write_checkpoint") (entry (lit "write_checkpoint") c l d)) with (@Ok R l). change (last_performed task_name (entry task_name c l d)) with (@Ok R l). cbn [bind].
  unfold due_rule. destruct (Rle_dec (dfi fb) (time sb - l)); cbn [bind].
  - unfold mark_as_due. change (sat (lit "write_checkpoint") (entry (lit "write_checkpoint") c l d)) with (Ok (mktask (lit "write_checkpoint") c l d)). change (sat task_name (entry task_name c l d)) with (Ok (mktask task_name c l d)). cbn [bind t_count t_name t_last matched].
    eexists. split; [reflexivity|]. split; [reflexivity|]. split; [reflexivity|]. exists c, (l + dfi fb), true. split; reflexivity.
  - cbn [matched]. eexists. split; [reflexivity|]. split; [reflexivity|]. split; [reflexivity|]. exists c, l, d. split; reflexivity.
Qed.
Lemma loop_match n : forall a b, same_world a b -> matched same_world (sloop Rplus due_rule nx time [] dfi go n a) (rounds_of fuel n b).
Proof.
  induction n as [|n IH]; intros [a oa] [b ob] [S O].
  - cbn. eexists. split; [reflexivity|]. split; assumption.
  - cbn [sloop rounds_of fst snd]. cbn [fst snd] in S, O. replace (should_continue b) with (go (s_cfg a) (s_sol a)) by (destruct S as (E1 & E2 & _); unfold go, should_continue; rewrite E1, E2; reflexivity).
    destruct (go (s_cfg a) (s_sol a)); [|cbn; eexists; split; [reflexivity|split; assumption]].
    pose proof (next_match a b S) as M1. destruct (snext Rplus due_rule nx time [] dfi a) as [a1| | |]; cbn [bind matched] in *; try exact I. destruct M1 as (b1 & -> & S1). cbn [bind].
    pose proof (tasks_match a1 b1 S1) as M2. destruct (srun_tasks [] a1) as [r| | |]; cbn [bind matched] in *; try exact I. destruct M2 as (r' & -> & S2 & O2). cbn [bind]. apply IH. split; [exact S2|]. cbn [snd]. apply Forall2_app; assumption.
Qed.
Lemma program_match cfg s0 n o : create_solution_state fuel (block_size cfg) (max_depth cfg) = Ok s0 ->
  simple_program 0 Rplus due_rule nx time [] dfi go cfg s0 n = Ok (o, 0%Z) -> exists x, run_main fuel cfg n = Ok (x, 0%Z) /\ Forall2 renamed x o.
Proof.
  intros E0 E. unfold simple_program, sschedule in E. cbn [foldM map] in E. unfold run_main, create_app_state. rewrite E0. cbn [bind].
  change (create_and_mark_as_due 0 Rplus (lit "write_checkpoint") []) with (Ok (entry (lit "write_checkpoint") 0%Z (0 + 0) true)) in E. change create_schedule with (Ok (entry task_name 0%Z (0 + 0) true)). cbn [bind] in *.
  assert (S : same_state (mks s0 (entry (lit "write_checkpoint") 0%Z (0 + 0) true) cfg) (App s0 (entry task_name 0%Z (0 + 0) true) cfg)) by (split; [reflexivity|split; [reflexivity|]]; exists 0%Z, (0 + 0), true; split; reflexivity).
  pose proof (tasks_match _ _ S) as M1. destruct (srun_tasks [] _) as [r| | |]; cbn [bind matched] in *; try discriminate. destruct M1 as (r' & -> & SW). cbn [bind].
  pose proof (loop_match n _ _ SW) as M2. destruct (sloop _ _ _ _ _ _ _ n r) as [w| | |]; cbn [bind matched] in *; try discriminate. destruct M2 as (w' & -> & S2 & O2). cbn [bind].
  replace (should_continue (fst w')) with (go (s_cfg (fst w)) (s_sol (fst w))) by (destruct S2 as (E1 & E2 & _); unfold go, should_continue; rewrite E1, E2; reflexivity).
  destruct (go (s_cfg (fst w)) (s_sol (fst w))); [discriminate|].
  pose proof (next_match _ _ S2) as M3. destruct (snext _ _ _ _ _ _ (fst w)) as [a1| | |]; cbn [bind matched] in *; try discriminate. destruct M3 as (b1 & -> & S3). cbn [bind].
  pose proof (tasks_match _ _ S3) as M4. destruct (srun_tasks [] a1) as [r2| | |]; cbn [bind matched] in *; try discriminate. destruct M4 as (r2' & -> & S4 & O4). cbn [bind]. injection E as <-.
  eexists. split; [reflexivity|]. apply Forall2_app; assumption.
Qed.
End Same.

(** *** The solutions of a run *)
Fixpoint after (fuel k : nat) (s : solution (T := R)) : outcome (solution (T := R)) :=
  match k with O => Ok s | S j => do s1 <- after fuel j s; next_real fuel s1 end.

Lemma after_steps N d fuel s0 : (1 <= N < 2147483647)%Z -> (d <= 30)%nat -> (30 < fuel)%nat -> sandbox_state N d s0 -> iteration s0 = mkrat 0 1 -> time s0 = 0 -> every_cell N (conserved s0) (fun x => 0 < x <= 1) ->
  forall k, (Z.of_nat k <= 2147483647)%Z -> exists s, after fuel k s0 = Ok s /\ sandbox_state N d s /\ iteration s = mkrat (Z.of_nat k) 1 /\ time s = INR k * sandbox_step N s0 /\ vertices s = vertices s0 /\
    every_cell N (conserved s) (fun x => 0 < x <= 1) /\
    forall dA, one_level (vertices s0) -> tmapM (area_from_vertices Rplus Rminus Rmult halve) (vertices s0) = Ok dA -> mesh_content N (conserved s) dA = mesh_content N (conserved s0) dA.
Proof.
  intros HN Hd Hf St I0 T0 Q0. induction k as [|k IH]; intros Hk.
  - exists s0. do 3 (split; [first [reflexivity | assumption]|]). split; [rewrite T0; cbn [INR]; ring|]. split; [reflexivity|]. split; [exact Q0|]. reflexivity.
  - destruct (IH ltac:(lia)) as (s & E & S1 & I1 & T1 & V1 & Q1 & M1).
    destruct (sandbox_no_new_extrema N d fuel s (Z.of_nat k) _ HN Hd Hf S1 I1 ltac:(lia) unit_convex Q1) as (s' & E' & S2 & V2 & Q2 & I2 & T2 & _).
    exists s'. cbn [after]. rewrite E. cbn [bind]. split; [exact E'|]. split; [exact S2|]. split; [rewrite I2; f_equal; lia|].
    split; [rewrite T2, T1; unfold sandbox_step; rewrite V1, S_INR; ring|]. split; [congruence|]. split; [exact Q2|]. intros dA HO EA.
    destruct (sandbox_conserves N d fuel s (Z.of_nat k) HN Hd Hf S1 I1 ltac:(lia)) as (s'' & dA' & E'' & EA' & C); [rewrite V1; exact HO|]. rewrite V1, EA in EA'. injection EA' as <-. rewrite E' in E''. injection E'' as <-. rewrite C. exact (M1 dA HO EA).
Qed.

(** Every complete run: for every block size, depth and final time the program can count to and every interval no shorter
    than a step, it ends with exit code 0 and has written the files 0, 1, ..., as many as whole intervals have passed at
    the final time. File 0 holds the initial condition, file k a solution between k intervals and two steps later, on the
    initial mesh and with all densities between zero and one; if all blocks are of one size, with the initial mass. *)
Theorem sandbox_files fuel cfg : let N := block_size cfg in (1 <= N < 2147483647)%Z -> (max_depth cfg <= 30)%nat -> (4 ^ max_depth cfg < fuel)%nat -> (30 < fuel)%nat ->
  exists s0, create_solution_state fuel N (max_depth cfg) = Ok s0 /\ let dt := sandbox_step N s0 in 0 < dt /\
  (0 < tfinal cfg -> tfinal cfg <= 2147483640 * dt -> dt <= dfi cfg ->
   exists rounds, forall m, (rounds <= m)%nat -> exists x K last, run_main fuel cfg m = Ok (x, 0%Z) /\ tfinal cfg <= last < tfinal cfg + dt /\ whole_intervals (dfi cfg) last K /\
    map d_number x = map Z.of_nat (seq 0 (S K)) /\
    forall f, In f x -> d_vertices f = vertices s0 /\ every_cell N (d_conserved f) (fun x => 0 < x <= 1) /\
      (d_number f = 0%Z -> d_time f = 0 /\ d_conserved f = conserved s0) /\ ((0 < d_number f)%Z -> IZR (d_number f) * dfi cfg <= d_time f < IZR (d_number f) * dfi cfg + 2 * dt) /\
      forall dA, one_level (vertices s0) -> tmapM (area_from_vertices Rplus Rminus Rmult halve) (vertices s0) = Ok dA -> mesh_content N (d_conserved f) dA = mesh_content N (conserved s0) dA).
Proof.
  intros N HN Hd Hf Hf2. destruct (sandbox_start N (max_depth cfg) fuel HN Hd Hf) as (s0 & E0 & St & I0 & T0 & Q0). exists s0. split; [exact E0|]. intros dt.
  destruct (sandbox_no_new_extrema N (max_depth cfg) fuel s0 0 _ HN Hd Hf2 St I0 ltac:(lia) unit_convex Q0) as (_ & _ & _ & _ & _ & _ & _ & Pos & _). fold dt in Pos. split; [exact Pos|]. intros HT HB HC.
  destruct (least_multiple (tfinal cfg) dt (Z.to_nat 2147483640)) as (k & Hk & K1 & K2). { rewrite INR_IZR_INZ, Z2Nat.id by lia. exact HB. }
  assert (HkZ : (Z.of_nat k <= 2147483640)%Z) by (apply Nat2Z.inj_le in Hk; rewrite Z2Nat.id in Hk by lia; exact Hk).
  pose proof (after_steps N (max_depth cfg) fuel s0 HN Hd Hf2 St I0 T0 Q0) as ST. fold dt in ST.
  set (sol := fun j => match after fuel j s0 with Ok s => s | _ => s0 end).
  assert (SOL : forall j, (j <= k + 1)%nat -> after fuel j s0 = Ok (sol j)) by (intros j Hj; destruct (ST j ltac:(lia)) as (s & E & _); unfold sol; rewrite E; reflexivity).
  assert (INV : forall j, (j <= k + 1)%nat -> time (sol j) = INR j * dt /\ vertices (sol j) = vertices s0 /\ every_cell N (conserved (sol j)) (fun x => 0 < x <= 1) /\
    forall dA, one_level (vertices s0) -> tmapM (area_from_vertices Rplus Rminus Rmult halve) (vertices s0) = Ok dA -> mesh_content N (conserved (sol j)) dA = mesh_content N (conserved s0) dA).
  { intros j Hj. destruct (ST j ltac:(lia)) as (s & E & _ & _ & A & B & C & D). rewrite (SOL j Hj) in E. injection E as <-. auto. }
  assert (TIME : forall j, (j <= k + 1)%nat -> time (sol j) = INR j * dt) by (intros j Hj; apply INV, Hj).
  assert (NEXT : forall j, (j <= k)%nat -> next_real fuel (sol j) = Ok (sol (S j))). { intros j Hj. pose proof (SOL (S j) ltac:(lia)) as A. cbn [after] in A. rewrite (SOL j) in A by lia. exact A. }
  assert (K3 : INR k * dt < tfinal cfg + dt). { destruct k as [|k']; [cbn [INR]; lra|]. pose proof (K2 k' ltac:(lia)). rewrite S_INR. lra. }
  assert (RO : run_of (fun _ => next_real fuel) go cfg sol k).
  { split; [intros i Hi; apply NEXT; lia|]. split; [|split; [|lia]].
    - intros i Hi. unfold go. rewrite TIME by lia. destruct (Rlt_dec _ _) as [_|X]; [reflexivity|]. exfalso. apply X, K2, Hi.
    - unfold go. rewrite TIME by lia. destruct (Rlt_dec _ _); [lra|reflexivity]. }
  assert (SW : steps_within (fun i => time (sol i)) (dfi cfg) k).
  { split; [lra|]. split; [rewrite TIME by lia; simpl; ring|]. intros i Hi. rewrite !TIME by lia. rewrite S_INR. lra. }
  exists k. intros m Hm.
  destruct (boilerplate_run_outputs (fun _ => next_real fuel) time dfi go cfg sol k m RO (NEXT k ltac:(lia)) SW Hm) as (o & K & rc & EP & HW & HR & HS).
  destruct (program_match fuel cfg s0 m o E0) as (x & EX & FX). { change due_rule with tdueR. assert (S0 : sol 0%nat = s0) by reflexivity. rewrite <- S0. exact EP. }
  assert (FXS : forall x o, Forall2 renamed x o -> map (fun f => (d_number f, (d_time f, d_vertices f, d_conserved f))) x = map (fun p => (fst p, (time (snd p), vertices (snd p), conserved (snd p)))) (scheckpoints o)).
  { clear. intros x o H. induction H as [|f a x o HF H IH]; [reflexivity|]. destruct a as [n f'|]; [|destruct HF]. cbn in HF. subst f. cbn. f_equal. exact IH. }
  specialize (FXS x o FX). rewrite HS, map_map in FXS. cbn [fst snd] in FXS.
  assert (NX : map d_number x = map Z.of_nat (seq 0 (S K))) by (apply (f_equal (map fst)) in FXS; rewrite !map_map in FXS; exact FXS).
  exists x, K, (time (sol k)). split; [exact EX|]. split; [rewrite TIME by lia; lra|]. split; [exact HW|]. split; [exact NX|].
  intros f Hf'. apply (in_map (fun f => (d_number f, (d_time f, d_vertices f, d_conserved f)))) in Hf'. rewrite FXS in Hf'. apply in_map_iff in Hf' as (j & EQ & Hj). apply in_seq in Hj. injection EQ as N1 T1 V1 C1. rewrite <- N1, <- T1, <- V1, <- C1. pose proof (HR j ltac:(lia)) as AR.
  assert (RB : (rc j <= k + 1)%nat).
  { destruct (rc j) as [|r]; [lia|]. destruct AR as (_ & A1 & A2). destruct (le_lt_dec r k) as [|G]; [lia|]. exfalso. specialize (A2 k G). cbv beta in A2. destruct HW as [W1 _]. assert (INR j <= INR K) by (apply le_INR; lia). assert (0 < dfi cfg) by lra. nra. }
  destruct (INV (rc j) RB) as (_ & V2 & C2 & M2). split; [exact V2|]. split; [exact C2|]. split; [|split; [|exact M2]].
  - intros Z0. assert (j = 0%nat) as -> by lia. destruct (rc 0%nat) as [|r] eqn:ER; [|destruct AR as (A & _); lia]. split; [rewrite TIME by lia; simpl; ring|reflexivity].
  - intros Hp. rewrite <- INR_IZR_INZ. destruct (rc j) as [|r] eqn:ER; [cbn [at_round] in AR; lia|]. destruct AR as (_ & A1 & A2). rewrite TIME in A1 by lia. rewrite TIME by lia. rewrite S_INR. split; [lra|]. destruct r as [|r].
    + exfalso. simpl in A1. assert (1 <= INR j) by (apply (le_INR 1); lia). nra.
    + specialize (A2 r ltac:(lia)). cbv beta in A2. rewrite TIME in A2 by lia. rewrite S_INR. lra.
Qed.

(** *** The option restart *)
Definition asked (r : str) (c : config) : config := Config r (outdir c) (dfi c) (tfinal c) (block_size c) (max_depth c).
Definition asked_state (r : str) (s : app_state) : app_state := App (a_solution s) (a_schedule s) (asked r (a_config s)).
Definition asked_world (r : str) (w : app_state * list diagnostics) : app_state * list diagnostics := (asked_state r (fst w), snd w).
Definition changed {A} (f : A -> A) (x : outcome A) : outcome A := do a <- x; Ok (f a).
Lemma asked_next fuel r s : next fuel (asked_state r s) = changed (asked_state r) (next fuel s).
Proof. unfold next, changed, next_schedule. cbn [asked_state a_solution a_schedule a_config asked dfi]. destruct (next_real fuel (a_solution s)); cbn [bind]; try reflexivity. destruct (last_performed _ _) as [l| | |]; cbn [bind]; try reflexivity. destruct (Rle_dec _ _); [destruct (mark_as_due _ _ _ _)|]; reflexivity. Qed.
Lemma asked_tasks r s : run_tasks (asked_state r s) = changed (asked_world r) (run_tasks s).
Proof. unfold run_tasks, changed. cbn [asked_state a_solution a_schedule a_config]. destruct (is_due _ _) as [[]| | |]; cbn [bind]; try reflexivity. destruct (num_times_performed _ _); cbn [bind]; try reflexivity. destruct (mark_as_completed _ _); reflexivity. Qed.
Lemma asked_rounds fuel r n : forall w, rounds_of fuel n (asked_world r w) = changed (asked_world r) (rounds_of fuel n w).
Proof.
  induction n as [|n IH]; intros w; [reflexivity|]. cbn [rounds_of]. change (should_continue (fst (asked_world r w))) with (should_continue (fst w)). destruct (should_continue (fst w)); [|reflexivity].
  cbn [asked_world fst snd]. rewrite asked_next. unfold changed. destruct (next fuel (fst w)) as [s1| | |]; cbn [bind]; try reflexivity. rewrite asked_tasks. unfold changed. destruct (run_tasks s1) as [q| | |]; cbn [bind]; try reflexivity.
  exact (IH (fst q, snd w ++ snd q)).
Qed.
(** Whatever file it names, the run is the one from the initial condition. *)
Theorem sandbox_restart_ignored fuel cfg r m : run_main fuel (asked r cfg) m = run_main fuel cfg m.
Proof.
  unfold run_main, create_app_state. cbn [asked block_size max_depth]. destruct (create_solution_state _ _ _) as [s0| | |]; cbn [bind]; try reflexivity. destruct create_schedule as [sc| | |]; cbn [bind]; try reflexivity.
  change (App s0 sc (asked r cfg)) with (asked_state r (App s0 sc cfg)). rewrite asked_tasks. unfold changed. destruct (run_tasks (App s0 sc cfg)) as [w| | |]; cbn [bind]; try reflexivity.
  rewrite asked_rounds. unfold changed. destruct (rounds_of fuel m w) as [v| | |]; cbn [bind]; try reflexivity. change (should_continue (fst (asked_world r v))) with (should_continue (fst v)). destruct (should_continue (fst v)); [reflexivity|].
  cbn [asked_world fst snd]. rewrite asked_next. unfold changed. destruct (next fuel (fst v)) as [s1| | |]; cbn [bind]; try reflexivity. rewrite asked_tasks. unfold changed. destruct (run_tasks s1) as [q| | |]; reflexivity.
Qed.
(** The claim that a run restarted from a file goes on from there (its first output is not of time zero). *)
Definition sandbox_restarts : Prop := forall fuel cfg r m x, r <> [] -> run_main fuel (asked r cfg) m = Ok (x, 0%Z) -> exists f, nth_error x 0 = Some f /\ 0 < d_time f.

(** One block of 2 x 2 cells, an output per unit of time. *)
Definition ex_config : config := Config [] (lit "data") 1 1 2 0.
Example sandbox_files_example : exists m x s0, run_main 31 ex_config m = Ok (x, 0%Z) /\ map d_number x = [0; 1]%Z /\ create_solution_state 31 2 0 = Ok s0 /\ one_level (vertices s0) /\
  exists f g, x = [f; g] /\ d_time f = 0 /\ 1 <= d_time g < 7 / 3.
Proof.
  destruct (sandbox_files 31 ex_config) as (s0 & E0 & Pos & H); try (cbn; lia). cbn [ex_config block_size max_depth] in *.
  destruct (sandbox_start 2 0 31 ltac:(lia) ltac:(lia) ltac:(cbn; lia)) as (s0' & E0' & ((pr & f0 & Hf0 & EV) & _) & _). rewrite E0 in E0'. injection E0' as <-.
  destruct (made_mesh pr 2 0 f0 (vertices s0) ltac:(lia) ltac:(lia) Hf0 EV) as (W & B & D & _).
  assert (DT : sandbox_step 2 s0 = 2 / 3) by (unfold sandbox_step; replace (TreeModel.depth (vertices s0)) with 0%nat by lia; change (2 + 1)%Z with 3%Z; cbn [pow]; field).
  rewrite DT in H. cbn [dfi tfinal ex_config] in H. specialize (H ltac:(lra) ltac:(lra) ltac:(lra)). destruct H as [rounds H]. destruct (H rounds (le_n _)) as (x & K & last & E & HL & [W1 W2] & HN & HF).
  assert (K = 1%nat) as ->. { assert (HK1 : INR K < 2) by lra. assert (HK2 : 0 < INR K) by lra. apply INR_lt with (m := 2%nat) in HK1. apply INR_lt with (n := 0%nat) in HK2. lia. }
  exists rounds, x, s0. split; [exact E|]. split; [exact HN|]. split; [exact E0|]. split.
  - destruct (vertices s0) as [v|cs] eqn:EVt; [|cbn in D; lia]. exists 0%nat. intros i [<-|[]]. reflexivity.
  - destruct x as [|f [|g [|h x]]]; try discriminate HN. injection HN as N1 N2. exists f, g. split; [reflexivity|]. destruct (HF f (or_introl eq_refl)) as (_ & _ & Z0 & _). destruct (HF g (or_intror (or_introl eq_refl))) as (_ & _ & _ & Z1 & _).
    rewrite N2 in Z1. split; [apply Z0, N1|]. specialize (Z1 ltac:(reflexivity)). lra.
Qed.
Theorem sandbox_restarts_refuted : ~ sandbox_restarts.
Proof.
  intros H. destruct sandbox_files_example as (m & x & s0 & E & _ & _ & _ & f & g & -> & T & _). destruct (H 31%nat ex_config (lit "data/diagnostics.0001.h5") m _ ltac:(discriminate) (eq_trans (sandbox_restart_ignored _ _ _ _) E)) as (f' & EF & P). cbn in EF. injection EF as <-. lra.
Qed.
Print Assumptions sandbox_files.
Print Assumptions sandbox_restart_ignored.
Print Assumptions sandbox_restarts_refuted.
