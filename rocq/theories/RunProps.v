(** C105: a complete run writes every output that is due. *)
From Coq Require Import List Arith Ascii String Bool ZArith Lia Reals Lra.
From Verif Require Import Base StrModel MapModel ScheduleModel DriftProofs RunModel RunSpec RunProofs RunProofs2.
Import ListNotations.
Close Scope Z_scope.
Close Scope R_scope.
Open Scope nat_scope.

(** The checkpoints among the files of a binary run: number, solution and time series. The diagnostics files: number
    and contents. *)
Definition checkpoints {Sol Cfg Sample Diag} (o : list (@bout R Sol Cfg Sample Diag)) : list (Z * Sol * list Sample) :=
  flat_map (fun x => match x with OutCheckpoint n f => [(n, f_sol f, f_series f)] | _ => [] end) o.
Definition diagnostics {Sol Cfg Sample Diag} (o : list (@bout R Sol Cfg Sample Diag)) : list (Z * Diag) :=
  flat_map (fun x => match x with OutDiagnostics n d => [(n, d)] | _ => [] end) o.

(** A run of [N] steps: [sol i] is the solution after [i] steps; the run should continue before each of them and not
    after the last. *)
Definition run_of {Sol Cfg} (next_solution : Cfg -> Sol -> outcome Sol) (should_continue : Cfg -> Sol -> bool) (cfg : Cfg)
    (sol : nat -> Sol) (N : nat) : Prop :=
  (forall i, i < N -> next_solution cfg (sol i) = Ok (sol (S i))) /\
  (forall i, i < N -> should_continue cfg (sol i) = true) /\ should_continue cfg (sol N) = false /\
  (Z.of_nat N < 2 ^ 31 - 3)%Z.

Section binary.
Context {Sol Cfg Sample Diag : Type} (next_solution : Cfg -> Sol -> outcome Sol) (time_of : Sol -> R).
Context (cpi dfi tsi : Cfg -> R) (should_continue : Cfg -> Sol -> bool).
Context (diagnose : Cfg -> Sol -> Diag) (sample : Cfg -> Sol -> Sample).
Context (cfg : Cfg) (sol : nat -> Sol) (N : nat).
Let t (i : nat) : R := time_of (sol i).
Let program := binary_program 0%R Rplus tdueR next_solution time_of cpi dfi tsi should_continue diagnose sample cfg (sol 0).

(** The run ends with exit code 0. Its checkpoints are numbered 0, 1, ..., as many as whole intervals have passed at
    the final time; checkpoint [k] holds the solution after the step that follows the first time at or beyond [k]
    intervals, and the samples of the time series up to there, oldest first; the same for the diagnostics files. *)
Theorem binary_run_outputs n :
  run_of next_solution should_continue cfg sol N -> next_solution cfg (sol N) = Ok (sol (S N)) ->
  steps_within t (cpi cfg) N -> steps_within t (dfi cfg) N -> steps_within t (tsi cfg) N -> N <= n ->
  exists o Kc Kd rc rd rs m, program n = Ok (o, 0%Z) /\
    whole_intervals (cpi cfg) (t N) Kc /\ whole_intervals (dfi cfg) (t N) Kd /\
    (forall k, k <= Kc -> at_round t (cpi cfg) k (rc k)) /\
    (forall k, k <= Kd -> at_round t (dfi cfg) k (rd k)) /\
    (forall j, (INR j * tsi cfg <= t N)%R -> at_round t (tsi cfg) j (rs j)) /\
    (forall k, k <= Kc -> whole_intervals (tsi cfg) (asked t (rc k)) (m k)) /\
    checkpoints o = map (fun k => (Z.of_nat k, sol (rc k), map (fun j => sample cfg (sol (rs j))) (seq 0 (S (m k))))) (seq 0 (S Kc)) /\
    diagnostics o = map (fun k => (Z.of_nat k, diagnose cfg (sol (rd k)))) (seq 0 (S Kd)).
Proof.
  intros (Hn & Hg & Hs & Hi) Hl Hc Hd Ht Hle.
  exists (all_outs time_of cpi dfi tsi diagnose sample cfg sol (S N)).
  exists (K t (cpi cfg) (S N)), (K t (dfi cfg) (S N)), (rnd t (cpi cfg) N), (rnd t (dfi cfg) N), (rnd t (tsi cfg) N).
  exists (fun k => K t (tsi cfg) (rnd t (cpi cfg) N k)).
  split; [unfold program; apply (program_run next_solution time_of cpi dfi tsi should_continue diagnose sample cfg sol N); auto|].
  split; [apply (K_spec t (cpi cfg) N Hc (S N)); lia|]. split; [apply (K_spec t (dfi cfg) N Hd (S N)); lia|].
  split; [intros k Hk; apply (rnd_spec t (cpi cfg) N Hc k Hk)|]. split; [intros k Hk; apply (rnd_spec t (dfi cfg) N Hd k Hk)|].
  split.
  { intros j Hj. apply (rnd_spec t (tsi cfg) N Ht j). unfold K. apply kmul_ge; [apply Ht|apply (u_pos t (tsi cfg) N Ht); lia|exact Hj]. }
  split; [intros k Hk; apply (K_spec t (tsi cfg) N Ht); apply (rnd_spec t (cpi cfg) N Hc k Hk)|]. split.
  - pose proof (cps_all time_of cpi dfi tsi diagnose sample cfg sol (S N)) as E. unfold cps in E. unfold checkpoints. rewrite E.
    fold t. rewrite (gather_rounds t (cpi cfg) N Hc) by lia. apply map_ext_in. intros k Hk. apply in_seq in Hk.
    destruct (rnd_spec t (cpi cfg) N Hc k ltac:(lia)) as (R1 & _ & R3). rewrite <- R3. f_equal.
    rewrite (gather_rounds t (tsi cfg) N Ht) by exact R1. reflexivity.
  - pose proof (dgs_all time_of cpi dfi tsi diagnose sample cfg sol (S N)) as E. unfold dgs in E. unfold diagnostics. rewrite E.
    fold t. rewrite (gather_rounds t (dfi cfg) N Hd) by lia. apply map_ext_in. intros k Hk. apply in_seq in Hk.
    destruct (rnd_spec t (dfi cfg) N Hd k ltac:(lia)) as (R1 & _ & R3). rewrite <- R3. reflexivity.
Qed.

(** When the solution of output [k] is made: not before [k] intervals, and less than two of the longest steps later. *)
Theorem output_time I k i (h : R) : steps_within t I N -> at_round t I k i -> i <= S N ->
  (forall j, j <= N -> (t j <= t (S j) <= t j + h)%R) ->
  (INR k * I <= t i)%R /\ (0 < k -> (t i < INR k * I + 2 * h)%R).
Proof.
  intros (HI & H0 & HS) HA Hi Hh. destruct i as [|i]; cbn [at_round] in HA.
  - subst k. cbn [INR]. rewrite H0. split; [lra|]. intros H. lia.
  - destruct HA as (Hk & H1 & H2). pose proof (Hh i ltac:(lia)). split; [lra|]. intros _.
    destruct i as [|i].
    + rewrite H0 in *. assert (1 <= INR k)%R by (apply (le_INR 1); lia). exfalso. nra.
    + specialize (H2 i ltac:(lia)). pose proof (Hh i ltac:(lia)). lra.
Qed.

(** The step after the loop can fail, and the program then fails, although the run has reached its final time. *)
Theorem last_step_fails n e :
  run_of next_solution should_continue cfg sol N -> next_solution cfg (sol N) = Throw e ->
  steps_within t (cpi cfg) N -> steps_within t (dfi cfg) N -> steps_within t (tsi cfg) N -> N <= n ->
  program n = Throw e.
Proof.
  intros (Hn & Hg & Hs & Hi) Hl Hc Hd Ht Hle.
  apply (program_fails next_solution time_of cpi dfi tsi should_continue diagnose sample cfg sol N); auto.
Qed.

(** What the loop alone writes: only the outputs due at the time before its last step. *)
Theorem loop_outputs n :
  run_of next_solution should_continue cfg sol N ->
  steps_within t (cpi cfg) N -> steps_within t (dfi cfg) N -> steps_within t (tsi cfg) N -> N <= n ->
  exists s o Kc Kd, binary_main 0%R Rplus tdueR next_solution time_of cpi dfi tsi should_continue diagnose sample cfg (sol 0) n = Ok (s, o) /\
    b_sol s = sol N /\
    whole_intervals (cpi cfg) (asked t N) Kc /\ whole_intervals (dfi cfg) (asked t N) Kd /\
    map (fun c => fst (fst c)) (checkpoints o) = map Z.of_nat (seq 0 (S Kc)) /\
    map fst (diagnostics o) = map Z.of_nat (seq 0 (S Kd)).
Proof.
  intros (Hn & Hg & Hs & Hi) Hc Hd Ht Hle.
  eexists _, _, (K t (cpi cfg) N), (K t (dfi cfg) N).
  split; [apply (main_run next_solution time_of cpi dfi tsi should_continue diagnose sample cfg sol N); auto|].
  split; [reflexivity|].
  split; [apply (K_spec t (cpi cfg) N Hc N); lia|]. split; [apply (K_spec t (dfi cfg) N Hd N); lia|]. split.
  - pose proof (cps_all time_of cpi dfi tsi diagnose sample cfg sol N) as E. unfold cps in E. unfold checkpoints. rewrite E.
    fold t. rewrite (gather_rounds t (cpi cfg) N Hc) by lia. rewrite map_map. apply map_ext_in. intros k Hk. apply in_seq in Hk.
    pose proof (K_mono t (cpi cfg) N Hc N (S N) ltac:(lia) ltac:(lia)).
    destruct (rnd_spec t (cpi cfg) N Hc k ltac:(lia)) as (R1 & _ & R3). rewrite <- R3. reflexivity.
  - pose proof (dgs_all time_of cpi dfi tsi diagnose sample cfg sol N) as E. unfold dgs in E. unfold diagnostics. rewrite E.
    fold t. rewrite (gather_rounds t (dfi cfg) N Hd) by lia. rewrite map_map. apply map_ext_in. intros k Hk. apply in_seq in Hk.
    pose proof (K_mono t (dfi cfg) N Hd N (S N) ltac:(lia) ltac:(lia)).
    destruct (rnd_spec t (dfi cfg) N Hd k ltac:(lia)) as (R1 & _ & R3). rewrite <- R3. reflexivity.
Qed.
End binary.

(** ** The other programs *)
Definition scheckpoints {Sol Cfg} (o : list (@sout R Sol Cfg)) : list (Z * Sol) :=
  flat_map (fun x => match x with SCheckpoint n f => [(n, sf_sol f)] | _ => [] end) o.
(** The numbers of the other outputs of a task, such as write_diagnostics. *)
Definition snumbers {Sol Cfg} (name : String.string) (o : list (@sout R Sol Cfg)) : list Z :=
  flat_map (fun x => match x with SOther m n => match str_cmp m (lit name) with Eq => [n] | _ => [] end | _ => [] end) o.

Section simple.
Context {Sol Cfg : Type} (next_solution : Cfg -> Sol -> outcome Sol) (time_of : Sol -> R).
Context (cpi dfi tsi : Cfg -> R) (should_continue : Cfg -> Sol -> bool).
Context (cfg : Cfg) (sol : nat -> Sol) (N : nat).
Let t (i : nat) : R := time_of (sol i).

(** The boilerplate program. *)
Theorem boilerplate_run_outputs n :
  run_of next_solution should_continue cfg sol N -> next_solution cfg (sol N) = Ok (sol (S N)) ->
  steps_within t (cpi cfg) N -> N <= n ->
  exists o Kc rc, simple_program 0%R Rplus tdueR next_solution time_of [] cpi should_continue cfg (sol 0) n = Ok (o, 0%Z) /\
    whole_intervals (cpi cfg) (t N) Kc /\
    (forall k, k <= Kc -> at_round t (cpi cfg) k (rc k)) /\
    scheckpoints o = map (fun k => (Z.of_nat k, sol (rc k))) (seq 0 (S Kc)).
Proof.
  intros (Hn & Hg & Hs & Hi) Hl Hc Hle.
  assert (Hn' : forall i, i <= N -> next_solution cfg (sol i) = Ok (sol (S i)))
    by (intros i Hi'; destruct (Nat.eq_dec i N) as [->|]; [exact Hl|apply Hn; lia]).
  set (outs := b1outs time_of cpi cfg sol). exists (souts outs (S N)), (K t (cpi cfg) (S N)), (rnd t (cpi cfg) N).
  split; [apply (sprogram_run next_solution time_of cpi should_continue cfg sol N [] (b1 time_of cpi cfg sol) outs); auto|].
  { intros i Hi' Hx. apply (b1round next_solution time_of cpi cfg sol N); auto. }
  { apply (b1init time_of cpi cfg sol N); auto. }
  split; [apply (K_spec t (cpi cfg) N Hc (S N)); lia|].
  split; [intros k Hk; apply (rnd_spec t (cpi cfg) N Hc k Hk)|].
  unfold scheckpoints. rewrite (gather_outs time_of sol _ (fun i => (Z.of_nat (K t (cpi cfg) i), sol i)) outs (cpi cfg)).
  - fold t. rewrite (gather_rounds t (cpi cfg) N Hc) by lia. apply map_ext_in. intros k Hk. apply in_seq in Hk.
    destruct (rnd_spec t (cpi cfg) N Hc k ltac:(lia)) as (_ & _ & R3). rewrite <- R3. reflexivity.
  - intros a b. apply flat_map_app.
  - intros i. unfold outs, b1outs. destruct (new time_of sol (cpi cfg) i); reflexivity.
Qed.

(** The sedov and cloud programs. *)
Theorem simple_run_outputs n :
  run_of next_solution should_continue cfg sol N -> next_solution cfg (sol N) = Ok (sol (S N)) ->
  steps_within t (cpi cfg) N -> steps_within t (dfi cfg) N -> steps_within t (tsi cfg) N -> N <= n ->
  exists o Kc Kd Ks rc,
    simple_program 0%R Rplus tdueR next_solution time_of [(lit "write_diagnostics", dfi); (lit "write_time_series", tsi)] cpi
      should_continue cfg (sol 0) n = Ok (o, 0%Z) /\
    whole_intervals (cpi cfg) (t N) Kc /\ whole_intervals (dfi cfg) (t N) Kd /\ whole_intervals (tsi cfg) (t N) Ks /\
    (forall k, k <= Kc -> at_round t (cpi cfg) k (rc k)) /\
    scheckpoints o = map (fun k => (Z.of_nat k, sol (rc k))) (seq 0 (S Kc)) /\
    snumbers "write_diagnostics" o = map Z.of_nat (seq 0 (S Kd)) /\
    snumbers "write_time_series" o = map Z.of_nat (seq 0 (S Ks)).
Proof.
  intros (Hn & Hg & Hs & Hi) Hl Hc Hd Ht Hle.
  assert (Hn' : forall i, i <= N -> next_solution cfg (sol i) = Ok (sol (S i)))
    by (intros i Hi'; destruct (Nat.eq_dec i N) as [->|]; [exact Hl|apply Hn; lia]).
  set (outs := b3outs time_of cpi cfg sol dfi tsi).
  exists (souts outs (S N)), (K t (cpi cfg) (S N)), (K t (dfi cfg) (S N)), (K t (tsi cfg) (S N)), (rnd t (cpi cfg) N).
  split; [apply (sprogram_run next_solution time_of cpi should_continue cfg sol N (two dfi tsi) (b3 time_of cpi cfg sol dfi tsi) outs); auto|].
  { intros i Hi' Hx. apply (b3round next_solution time_of cpi cfg sol N); auto. }
  { apply (b3init time_of cpi cfg sol N); auto. }
  split; [apply (K_spec t (cpi cfg) N Hc (S N)); lia|]. split; [apply (K_spec t (dfi cfg) N Hd (S N)); lia|].
  split; [apply (K_spec t (tsi cfg) N Ht (S N)); lia|].
  split; [intros k Hk; apply (rnd_spec t (cpi cfg) N Hc k Hk)|].
  assert (G : forall I g, steps_within t I N -> (forall i, g i = Z.of_nat (K t I i)) ->
    gather t I g (S N) = map Z.of_nat (seq 0 (S (K t I (S N))))).
  { intros I g HI Hg'. rewrite (gather_rounds t I N HI) by lia. apply map_ext_in. intros k Hk. apply in_seq in Hk.
    destruct (rnd_spec t I N HI k ltac:(lia)) as (_ & _ & R3). rewrite Hg', <- R3. reflexivity. }
  split; [|split].
  - unfold scheckpoints. rewrite (gather_outs time_of sol _ (fun i => (Z.of_nat (K t (cpi cfg) i), sol i)) outs (cpi cfg)).
    + fold t. rewrite (gather_rounds t (cpi cfg) N Hc) by lia. apply map_ext_in. intros k Hk. apply in_seq in Hk.
      destruct (rnd_spec t (cpi cfg) N Hc k ltac:(lia)) as (_ & _ & R3). rewrite <- R3. reflexivity.
    + intros a b. apply flat_map_app.
    + intros i. unfold outs, b3outs. destruct (new time_of sol (cpi cfg) i), (new time_of sol (dfi cfg) i), (new time_of sol (tsi cfg) i); reflexivity.
  - unfold snumbers. rewrite (gather_outs time_of sol _ (fun i => Z.of_nat (K t (dfi cfg) i)) outs (dfi cfg)).
    + apply G; auto.
    + intros a b. apply flat_map_app.
    + intros i. unfold outs, b3outs. destruct (new time_of sol (cpi cfg) i), (new time_of sol (dfi cfg) i), (new time_of sol (tsi cfg) i); reflexivity.
  - unfold snumbers. rewrite (gather_outs time_of sol _ (fun i => Z.of_nat (K t (tsi cfg) i)) outs (tsi cfg)).
    + apply G; auto.
    + intros a b. apply flat_map_app.
    + intros i. unfold outs, b3outs. destruct (new time_of sol (cpi cfg) i), (new time_of sol (dfi cfg) i), (new time_of sol (tsi cfg) i); reflexivity.
Qed.
End simple.

(** ** Samples after the last checkpoint *)

(** The claim that every sample that is due is in some checkpoint. *)
Definition samples_kept : Prop :=
  forall (next_solution : unit -> nat -> outcome nat) (time_of : nat -> R) (cpi dfi tsi : unit -> R)
    (should_continue : unit -> nat -> bool) (sol : nat -> nat) (N n : nat) o,
  run_of next_solution should_continue tt sol N -> next_solution tt (sol N) = Ok (sol (S N)) ->
  let t i := time_of (sol i) in
  steps_within t (cpi tt) N -> steps_within t (dfi tt) N -> steps_within t (tsi tt) N -> N <= n ->
  binary_program 0%R Rplus tdueR next_solution time_of cpi dfi tsi should_continue (fun _ s => s) (fun _ s => s) tt (sol 0) n = Ok (o, 0%Z) ->
  forall j i, (INR j * tsi tt <= t N)%R -> at_round t (tsi tt) j i -> exists c, In c (checkpoints o) /\ In (sol i) (snd c).

(** Three unit steps with a checkpoint every 2 and a sample every 1: the sample for time 3 is in no file. *)
Lemma unit_steps (I : R) : (1 <= I)%R -> steps_within (fun i => INR i) I 3.
Proof. intros HI. split; [lra|]. split; [reflexivity|]. intros i Hi. rewrite S_INR. lra. Qed.
Theorem samples_kept_refuted : ~ samples_kept.
Proof.
  intros H.
  set (nx := fun (_ : unit) (s : nat) => Ok (S s)). set (go := fun (_ : unit) (s : nat) => s <? 3).
  set (sol := fun i : nat => i).
  assert (HR : run_of nx go tt sol 3).
  { split; [intros; reflexivity|]. split; [|split; [reflexivity|reflexivity]].
    intros i Hi. unfold go, sol. apply Nat.ltb_lt. lia. }
  destruct (binary_run_outputs nx INR (fun _ => 2%R) (fun _ => 1%R) (fun _ => 1%R) go (fun _ s => s) (fun _ s => s) tt sol 3 3 HR
    eq_refl (unit_steps 2%R ltac:(lra)) (unit_steps 1%R ltac:(lra)) (unit_steps 1%R ltac:(lra)) (le_n 3))
    as (o & Kc & Kd & rc & rd & rs & m & P & WC & _ & RC & _ & RS & WM & C & _).
  specialize (H nx INR (fun _ => 2%R) (fun _ => 1%R) (fun _ => 1%R) go sol 3 3 o HR eq_refl
    (unit_steps 2%R ltac:(lra)) (unit_steps 1%R ltac:(lra)) (unit_steps 1%R ltac:(lra)) (le_n 3) P 3 4).
  destruct H as (c & Hc & Hin).
  - unfold sol. cbn [INR]. lra.
  - cbn [at_round]. split; [lia|]. unfold sol. split; [cbn [INR]; lra|]. intros j Hj. rewrite Rmult_1_r. apply lt_INR. exact Hj.
  - unfold whole_intervals, sol in WC. cbn [INR] in WC.
    assert (HK : Kc = 1).
    { destruct Kc as [|[|Kc]]; [cbn [INR] in WC; lra|reflexivity|]. rewrite !S_INR in WC. pose proof (pos_INR Kc). lra. }
    subst Kc. rewrite C in Hc. apply in_map_iff in Hc. destruct Hc as (k & <- & Hk). apply in_seq in Hk.
    cbn [snd] in Hin. apply in_map_iff in Hin. destruct Hin as (j & Ej & Hj). apply in_seq in Hj.
    specialize (RC k ltac:(lia)). specialize (WM k ltac:(lia)). cbv beta in *. unfold sol in *.
    assert (HA : (asked (fun i => INR i) (rc k) <= 2)%R).
    { destruct (rc k) as [|i]; cbn [asked]; [lra|]. cbn [at_round] in RC. destruct RC as (R1 & R2 & R3).
      assert (k = 1) by lia. subst k. destruct (le_lt_dec i 2) as [Hi|Hi]; [apply le_INR in Hi; cbn [INR] in Hi; lra|].
      specialize (R3 2 Hi). cbn [INR] in R3. lra. }
    destruct WM as [W1 W2]. rewrite Rmult_1_r in *.
    assert (Hm : m k <= 2) by (apply INR_le; cbn [INR]; lra).
    specialize (RS j). assert (HJ : j <= 2) by lia. apply le_INR in HJ as HJ'. cbn [INR] in HJ'.
    specialize (RS ltac:(cbn [INR]; lra)). rewrite Ej in RS. cbn [at_round] in RS. destruct RS as (_ & _ & RS).
    specialize (RS 2 ltac:(lia)). cbn [INR] in RS. lra.
Qed.

(** ** app_main *)

(** A sub-program that is not there: the program prints a message and reports success. *)
Definition failure_reported : Prop :=
  forall programs argv out code, app_main programs argv = Ok (out, code) ->
  (exists x, In (InvalidSubprogram x) out) -> code <> 0%Z.
Theorem failure_reported_refuted : ~ failure_reported.
Proof.
  intros H. apply (H [] [lit "mara"; lit "bnary"] [InvalidSubprogram (lit "bnary")] 0%Z); [reflexivity| |reflexivity].
  eexists. left. reflexivity.
Qed.

(** A run of a sub-program: its exit code is the exit code of the process, it gets the arguments from its own name on,
    and an exception it throws is not caught; otherwise nothing is run. *)
Theorem app_main_runs programs x name args : msorted programs ->
  app_main programs (x :: name :: args) =
  match find (fun e => if MapProofs.str_dec (fst e) name then true else false) programs with
  | Some (_, p) =>
      match p (name :: args) with
      | Ok code => Ok ([ExecutionTime], code)
      | Throw e => Throw e
      | UB => UB
      | NoFuel => NoFuel
      end
  | None => Ok ([InvalidSubprogram name], 0%Z)
  end.
Proof.
  intros HS. cbn [app_main].
  assert (E : mfind name programs =
    option_map snd (find (fun e => if MapProofs.str_dec (fst e) name then true else false) programs)).
  { destruct (find _ programs) as [[k p]|] eqn:F; cbn [option_map snd].
    - apply find_some in F. destruct F as [F1 F2]. cbn [fst] in F2. destruct (MapProofs.str_dec k name) as [->|]; [|discriminate].
      apply MapProofs.mfind_in; auto.
    - destruct (mfind name programs) as [p|] eqn:M; [|reflexivity]. exfalso.
      apply MapProofs.mfind_in in M; auto. apply (find_none _ _ F) in M. cbn [fst] in M.
      destruct (MapProofs.str_dec name name); congruence. }
  rewrite E. destruct (find _ programs) as [[k p]|]; cbn [option_map snd]; [|reflexivity]. destruct (p (name :: args)); reflexivity.
Qed.

(** ** Examples *)

(** The same three unit steps computed with times in nat: checkpoint 1 is made of the solution at time 3, after the step
    that follows time 2, with the samples made at 0, 2 and 3; diagnostics 3 is written by the step after the loop. *)
Example three_steps :
  match binary_program 0 Nat.add (fun t l i => i <=? t - l) (fun _ s => Ok (S s)) (fun s => s) (fun _ : unit => 2) (fun _ => 1)
    (fun _ => 1) (fun _ s => s <? 3) (fun _ s => s) (fun _ s => s) tt 0 3 with
  | Ok (o, code) =>
      flat_map (fun x => match x with OutCheckpoint n f => [(n, f_sol f, f_series f)] | _ => [] end) o = [(0%Z, 0, [0]); (1%Z, 3, [0; 2; 3])] /\
      flat_map (fun x => match x with OutDiagnostics n d => [(n, d)] | _ => [] end) o = [(0%Z, 0); (1%Z, 2); (2%Z, 3); (3%Z, 4)] /\ code = 0%Z
  | _ => False
  end.
Proof. vm_compute. auto. Qed.

(** The step after the loop fails. *)
Example three_steps_fail :
  binary_program 0 Nat.add (fun t l i => i <=? t - l) (fun _ s => if s <? 3 then Ok (S s) else Throw RuntimeError) (fun s => s)
    (fun _ : unit => 2) (fun _ => 1) (fun _ => 1) (fun _ s => s <? 3) (fun _ s => s) (fun _ s => s) tt 0 3 = Throw RuntimeError.
Proof. vm_compute. reflexivity. Qed.

(** The sedov and cloud programs on the same steps. *)
Example three_simple_steps :
  match simple_program 0 Nat.add (fun t l i => i <=? t - l) (fun _ s => Ok (S s)) (fun s => s)
    [(lit "write_diagnostics", fun _ : unit => 1); (lit "write_time_series", fun _ => 3)] (fun _ => 2) (fun _ s => s <? 3) tt 0 3 with
  | Ok (o, code) =>
      map (fun x => match x with SCheckpoint n f => (lit "c", n, sf_sol f) | SOther m n => (m, n, 0) end) o =
      [(lit "c", 0%Z, 0); (lit "write_diagnostics", 0%Z, 0); (lit "write_time_series", 0%Z, 0);
       (lit "write_diagnostics", 1%Z, 0); (lit "c", 1%Z, 3); (lit "write_diagnostics", 2%Z, 0);
       (lit "write_diagnostics", 3%Z, 0); (lit "write_time_series", 1%Z, 0)] /\ code = 0%Z
  | _ => False
  end.
Proof. vm_compute. auto. Qed.

Example app_main_example :
  let programs := [(lit "binary", fun args => Ok (Z.of_nat (List.length args))); (lit "sedov", fun _ => Throw InvalidArgument)] in
  app_main programs [lit "mara"] = Ok ([Usage [lit "binary"; lit "sedov"]], 0%Z) /\
  app_main programs [lit "mara"; lit "binary"; lit "N=4"] = Ok ([ExecutionTime], 2%Z) /\
  app_main programs [lit "mara"; lit "sedov"] = Throw InvalidArgument /\
  app_main programs [lit "mara"; lit "Binary"] = Ok ([InvalidSubprogram (lit "Binary")], 0%Z).
Proof. vm_compute. auto. Qed.

Print Assumptions binary_run_outputs.
Print Assumptions output_time.
Print Assumptions last_step_fails.
Print Assumptions loop_outputs.
Print Assumptions boilerplate_run_outputs.
Print Assumptions simple_run_outputs.
Print Assumptions samples_kept_refuted.
Print Assumptions failure_reported_refuted.
Print Assumptions app_main_runs.
