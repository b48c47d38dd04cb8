(** A run of one of the simpler programs that ends has gone through a sequence of solutions. *)
From Coq Require Import List Arith Bool ZArith Lia Reals.
From Verif Require Import Base StrModel MapModel ScheduleModel DriftProofs RunModel RunSpec RunProps.
Import ListNotations.
Close Scope Z_scope.
Close Scope R_scope.
Open Scope nat_scope.

Section Trace.
Context {Sol Cfg : Type} (next : Cfg -> Sol -> outcome Sol) (time_of : Sol -> R) (others : list (str * (Cfg -> R))) (cpi : Cfg -> R) (go : Cfg -> Sol -> bool).

Lemma tasks_keep (s : @sstate R Sol Cfg) r : srun_tasks others s = Ok r -> s_sol (fst r) = s_sol s /\ s_cfg (fst r) = s_cfg s.
Proof. intros E. unfold srun_tasks in E. apply bind_ok_inv in E as (w1 & _ & E). apply bind_ok_inv in E as (w2 & _ & E). injection E as <-. split; reflexivity. Qed.
Lemma next_step (s : @sstate R Sol Cfg) s1 : snext Rplus tdueR next time_of others cpi s = Ok s1 -> next (s_cfg s) (s_sol s) = Ok (s_sol s1) /\ s_cfg s1 = s_cfg s.
Proof. intros E. unfold snext in E. apply bind_ok_inv in E as (x & E1 & E). apply bind_ok_inv in E as (y & _ & E). injection E as <-. split; [exact E1|reflexivity]. Qed.
Lemma loop_trace n : forall w w', sloop Rplus tdueR next time_of others cpi go n w = Ok w' ->
  exists N (sol : nat -> Sol), N <= n /\ sol 0 = s_sol (fst w) /\ sol N = s_sol (fst w') /\ s_cfg (fst w') = s_cfg (fst w) /\
    (forall i, i < N -> next (s_cfg (fst w)) (sol i) = Ok (sol (S i))) /\ (forall i, i < N -> go (s_cfg (fst w)) (sol i) = true).
Proof.
  induction n as [|n IH]; intros w w' E; cbn [sloop] in E; [injection E as <-; exists 0, (fun _ => s_sol (fst w)); repeat split; auto; intros; lia|].
  destruct (go (s_cfg (fst w)) (s_sol (fst w))) eqn:G; [|injection E as <-; exists 0, (fun _ => s_sol (fst w)); repeat split; auto; try lia; intros; lia].
  apply bind_ok_inv in E as (s1 & E1 & E). apply bind_ok_inv in E as (r & E2 & E). destruct (next_step _ _ E1) as [N1 C1]. destruct (tasks_keep _ _ E2) as [S2 C2].
  destruct (IH _ _ E) as (N & sol & HN & H0 & HF & HC & HS & HG). cbn [fst] in *. rewrite S2 in H0. rewrite C2, C1 in HS, HG, HC.
  exists (S N), (fun i => match i with 0 => s_sol (fst w) | S j => sol j end). split; [lia|]. split; [reflexivity|]. split; [exact HF|]. split; [exact HC|]. split.
  - intros [|i] Hi; [rewrite H0; exact N1|apply HS; lia].
  - intros [|i] Hi; [exact G|apply HG; lia].
Qed.
Lemma program_trace cfg s0 n o code : (Z.of_nat n < 2 ^ 31 - 3)%Z -> simple_program 0%R Rplus tdueR next time_of others cpi go cfg s0 n = Ok (o, code) ->
  exists N sol, N <= n /\ sol 0 = s0 /\ run_of next go cfg sol N /\ next cfg (sol N) = Ok (sol (S N)).
Proof.
  intros Hn E. unfold simple_program in E. apply bind_ok_inv in E as (sc & _ & E). apply bind_ok_inv in E as (r & E1 & E). apply bind_ok_inv in E as (w & E2 & E).
  destruct (tasks_keep _ _ E1) as [S1 C1]. cbn [s_sol s_cfg] in *. destruct (loop_trace _ _ _ E2) as (N & sol & HN & H0 & HF & HC & HS & HG). rewrite C1 in *. rewrite S1 in H0. rewrite HC in E. rewrite <- HF in E.
  destruct (go cfg (sol N)) eqn:G; [discriminate|]. apply bind_ok_inv in E as (s1 & E3 & _). destruct (next_step _ _ E3) as [N3 _]. rewrite HC, <- HF in N3.
  exists N, (fun i => if i <=? N then sol i else s_sol s1). split; [exact HN|]. split; [exact H0|]. split; [split; [|split; [|split]]|].
  - intros i Hi. destruct (Nat.leb_spec i N), (Nat.leb_spec (S i) N); try lia. apply HS, Hi.
  - intros i Hi. destruct (Nat.leb_spec i N); [|lia]. apply HG, Hi.
  - rewrite Nat.leb_refl. exact G.
  - lia.
  - rewrite Nat.leb_refl. destruct (Nat.leb_spec (S N) N); [lia|]. exact N3.
Qed.
End Trace.
