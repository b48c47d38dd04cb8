(** C102: the clocks of the programs in double arithmetic. *)
From Coq Require Import ZArith Reals Lra Lia List Arith Psatz.
From Flocq Require Import Core.
From Verif Require Import Base StrModel MapModel ScheduleModel DoubleModel DoubleProofs DoubleGridProofs DoubleGridProps DoubleClockModel DoubleClockProofs.
Import ListNotations.
Open Scope R_scope.

(** One history of a schedule with rounded times, as in C18: [sc n] is the schedule before check [n] at time [tm n], [mk n] the one
    after it, and between two checks the last-performed time of [k] is not touched. *)
Definition check_history_fl (sc mk : nat -> schedule R) (tm : nat -> R) (l : list (str * R)) (k : str) : Prop :=
  (forall n, msorted (sc n)) /\ NoDup (map fst l) /\ (forall n m, In m (map fst l) -> mfind m (sc n) <> None) /\
  (forall n, mark_tasks_in add_fl due_fl (sc n) (tm n) l = Ok (mk n)) /\
  (forall n, last_performed k (sc (S n)) = last_performed k (mk n)).

(** Over a million intervals, with steps shorter than the interval, a task has been marked as due as often as intervals have
    passed: after every check the number of marks is within 1/2048 of the whole part of time / interval, and the
    last-performed time within 1/4096 of an interval of that multiple. *)
Theorem schedule_in_doubles sc mk tm l k I : check_history_fl sc mk tm l k -> In (k, I) l -> last_performed k (sc 0%nat) = Ok 0 ->
  double I -> bp (-1000) <= I -> 0 <= tm 0%nat < I -> (forall n, 0 <= tm (S n) - tm n <= I * (1 - bp (-29))) ->
  forall n, tm n <= 1048576 * I ->
  exists j L, last_performed k (mk n) = Ok L /\ Rabs (L - INR j * I) <= / 4096 * I /\ (INR j - / 2048) * I <= tm n < (INR j + 1 + / 2048) * I.
Proof. intros (H1 & H2 & H3 & H4 & H5) Hk Hs DI HI H0 Hst n Hn. exact (lag_exact sc mk tm l k I H1 H2 H3 H4 H5 Hk Hs DI HI H0 Hst n Hn). Qed.

(** The mark itself: a task is due when the interval has passed, and not due as long as less than the interval but for one
    rounding has passed. *)
Theorem due_in_doubles time last I : double I -> bp (-1000) <= I ->
  (I <= time - last -> due_fl time last I = true) /\ (time - last < I * (1 - bp (-53)) -> due_fl time last I = false).
Proof.
  intros D H. destruct (due_iff time last I D H) as [A B]. split; intros K; destruct (due_fl time last I); try reflexivity; [specialize (B eq_refl)|specialize (A eq_refl)]; lra.
Qed.
Lemma tenth : fl (1 / 10) = 7205759403792794 * bp (-56).
Proof. apply fl_eq; [lia| | |]; change (bp (-56)) with (/ 72057594037927936); change (bp (-56 + 52)) with (/ 16); change (bp (-56 + 53)) with (/ 8); try lra. apply Rabs_def1; lra. Qed.
(** The sum of three tenths is not the double nearest to 3/10, so the rounding in last-performed is not idle. *)
Example acc_example : acc (fl (1 / 10)) 2 = 2 * fl (1 / 10) /\ acc (fl (1 / 10)) 3 = 5404319552844596 * bp (-54) /\ fl (3 / 10) = 5404319552844595 * bp (-54).
Proof.
  cbn [acc]. rewrite Rplus_0_l, (fl_id (fl (1 / 10))) by apply fl_double. replace (fl (1 / 10) + fl (1 / 10)) with (2 * fl (1 / 10)) by ring. rewrite (fl_id (2 * fl (1 / 10))) by (apply double_twice, fl_double). split; [reflexivity|]. split.
  - rewrite tenth. set (z := 2 * (7205759403792794 * bp (-56)) + 7205759403792794 * bp (-56)).
    assert (Ez : z = 21617278211378382 * bp (-56)) by (unfold z; ring). rewrite Ez. assert (B : bp (-54) = 4 * bp (-56)) by reflexivity || (change (-54)%Z with (2 + -56)%Z; rewrite bpow_plus; reflexivity).
    unfold fl, round, scaled_mantissa, cexp. rewrite (mag_unique radix2 _ (-1)).
    + unfold fexp, FLT_exp. change (Z.max (-1 - 53) (-1074)) with (-54)%Z. change (bp (- -54)) with 18014398509481984. change (bp (-56)) with (/ 72057594037927936). replace (21617278211378382 * / 72057594037927936 * 18014398509481984) with (5404319552844595 + / 2) by lra.
      assert (Z : ZnearestE (5404319552844595 + / 2) = 5404319552844596%Z).
      { unfold ZnearestE, Znearest. assert (Fl : Zfloor (5404319552844595 + / 2) = 5404319552844595%Z) by (apply Zfloor_imp; rewrite plus_IZR; lra). rewrite Fl, Rcompare_Eq by lra. cbn [negb Z.even]. apply Zceil_imp. rewrite minus_IZR. lra. }
      rewrite Z. unfold F2R. cbn [Fnum Fexp]. reflexivity.
    + change (bp (-56)) with (/ 72057594037927936). rewrite Rabs_pos_eq by lra. change (bp (-1 - 1)) with (/ 4). change (bp (-1)) with (/ 2). lra.
  - apply fl_eq; [lia| | |]; change (bp (-54)) with (/ 18014398509481984); change (bp (-54 + 52)) with (/ 4); change (bp (-54 + 53)) with (/ 2); try lra. apply Rabs_def1; lra.
Qed.

(** The run loop, of first or second order, from time zero: with every step at least [d], where [d] is not below 2^-48 of the
    final time, it ends; the last time is the final time or later by less than one step and a rounding, and it is the sum of the
    steps up to one rounding per step. *)
Theorem run_in_doubles next dt tfinal d D fuel : next = time_1 \/ next = time_2 ->
  0 < tfinal -> bp (-1000) <= d -> bp (-48) * tfinal <= d -> (forall k, double (dt k) /\ d <= dt k <= D) -> tfinal / (d / 2) + 1 <= INR fuel ->
  exists k t, run_clock fuel (continue_1 tfinal) next dt 0 0 = Ok (k, t) /\ tfinal <= t <= (tfinal + D) * (1 + bp (-50)) /\
    INR k * (d / 2) <= t /\ Rabs (t - total dt k) <= INR k * (bp (-50) * (tfinal + D)).
Proof.
  intros Hn HT Hd HdT Hdt Hf. assert (An : accurate next) by (destruct Hn as [->| ->]; [apply time_1_accurate|apply time_2_accurate]).
  assert (Hc : forall t, continue_1 tfinal t = true -> t < tfinal) by (intros t; unfold continue_1; destruct (Rlt_dec t tfinal); [auto|discriminate]).
  pose proof (bpow_gt_0 radix2 (-1000)) as P. destruct (Hdt 0%nat) as [_ B0]. assert (B5 : bp (-50) = / 1125899906842624) by reflexivity.
  destruct (run_clock_ends (continue_1 tfinal) next dt tfinal d D An Hc Hd HdT HT Hdt fuel 0 0) as (k & t & R1 & R2 & R3 & R4 & R5 & R6).
  - apply double_0.
  - lra.
  - rewrite B5. lra.
  - cbn. rewrite Rminus_0_r, Rabs_R0. lra.
  - rewrite Rminus_0_r. exact Hf.
  - apply INR_lt. cbn. assert (0 < tfinal / (d / 2)) by (apply Rmult_lt_0_compat; [lra|apply Rinv_0_lt_compat; lra]). lra.
  - exists k, t. split; [exact R1|]. split; [|split; [cbn in R5; lra|exact R6]]. split; [|exact R3]. unfold continue_1 in R2. destruct (Rlt_dec t tfinal); [discriminate|lra].
Qed.
(** The same for the binary program, whose final time is in turns of 2 pi. *)
Theorem binary_run_in_doubles next dt turn tfinal d D fuel : next = time_1 \/ next = time_2 ->
  0 < turn -> double tfinal -> bp (-1000) <= tfinal -> bp (-1000) <= d -> bp (-48) * (turn * tfinal) <= d -> (forall k, double (dt k) /\ d <= dt k <= D) ->
  turn * tfinal / (d / 2) + 1 <= INR fuel ->
  exists k t, run_clock fuel (continue_2 turn tfinal) next dt 0 0 = Ok (k, t) /\ turn * tfinal * (1 - bp (-53)) <= t <= (turn * tfinal + D) * (1 + bp (-50)) /\
    INR k * (d / 2) <= t /\ Rabs (t - total dt k) <= INR k * (bp (-50) * (turn * tfinal + D)).
Proof.
  intros Hn Ht DT HT Hd HdT Hdt Hf. assert (An : accurate next) by (destruct Hn as [->| ->]; [apply time_1_accurate|apply time_2_accurate]).
  pose proof (bpow_gt_0 radix2 (-1000)) as P.
  assert (Hc : forall t, continue_2 turn tfinal t = true -> t < turn * tfinal).
  { intros t. unfold continue_2. destruct (Rlt_dec (fl (t / turn)) tfinal) as [L|L]; [intros _|discriminate]. destruct (Rlt_le_dec t (turn * tfinal)) as [C|C]; [exact C|exfalso].
    assert (tfinal <= fl (t / turn)). { apply fl_ge_double; [exact DT|]. apply Rmult_le_reg_r with turn; [lra|]. replace (t / turn * turn) with t by (field; lra). lra. } lra. }
  destruct (Hdt 0%nat) as [_ B0]. assert (B5 : bp (-50) = / 1125899906842624) by reflexivity. assert (TT : 0 < turn * tfinal) by (apply Rmult_lt_0_compat; lra).
  destruct (run_clock_ends (continue_2 turn tfinal) next dt (turn * tfinal) d D An Hc Hd HdT TT Hdt fuel 0 0) as (k & t & R1 & R2 & R3 & R4 & R5 & R6).
  - apply double_0.
  - lra.
  - rewrite B5. lra.
  - cbn. rewrite Rminus_0_r, Rabs_R0. lra.
  - rewrite Rminus_0_r. exact Hf.
  - apply INR_lt. cbn. assert (0 < turn * tfinal / (d / 2)) by (apply Rmult_lt_0_compat; [lra|apply Rinv_0_lt_compat; lra]). lra.
  - exists k, t. split; [exact R1|]. split; [|split; [cbn in R5; lra|exact R6]]. split; [|exact R3]. unfold continue_2 in R2. destruct (Rlt_dec (fl (t / turn)) tfinal) as [L|L]; [discriminate|]. apply Rnot_lt_le in L.
    assert (Q : tfinal * (1 - bp (-53)) <= t / turn).
    { assert (T2 : bp (-1000) = 4194304 * bp (-1022)) by (change (-1000)%Z with (22 + -1022)%Z; rewrite bpow_plus; reflexivity). pose proof bp1022_pos as B22.
      destruct (Rlt_le_dec (t / turn) (bp (-1022))) as [C|C]; [exfalso; assert (fl (t / turn) <= bp (-1022)) by (apply fl_le_double; [apply double_bpow; lia|lra]); lra|]. destruct (rel_up _ C) as [U1 _]. rewrite bp53 in *. nra. }
    apply (Rmult_le_compat_r turn) in Q; [|lra]. replace (t / turn * turn) with t in Q by (field; lra). lra.
Qed.
Example run_example : run_clock 5 (continue_1 1) time_1 (fun _ => 1 / 2) 0 0 = Ok (2%nat, 1) /\ run_clock 5 (continue_1 1) time_2 (fun _ => 1 / 2) 0 0 = Ok (2%nat, 1).
Proof.
  assert (Fh : fl (1 / 2) = 1 / 2) by (apply (dyadic 1 (-1)); [change (bp (-1)) with (/ 2); lra|reflexivity|lia]). assert (F1 : fl 1 = 1) by (apply (whole 1); reflexivity). assert (Fq : fl (1 / 4) = 1 / 4) by (apply (dyadic 1 (-2)); [change (bp (-2)) with (/ 4); lra|reflexivity|lia]).
  assert (F3 : fl (3 / 4) = 3 / 4) by (apply (dyadic 3 (-2)); [change (bp (-2)) with (/ 4); lra|reflexivity|lia]). assert (F32 : fl (3 / 2) = 3 / 2) by (apply (dyadic 3 (-1)); [change (bp (-1)) with (/ 2); lra|reflexivity|lia]).
  assert (C0 : continue_1 1 0 = true) by (unfold continue_1; destruct (Rlt_dec 0 1); [reflexivity|lra]). assert (Ch : continue_1 1 (1 / 2) = true) by (unfold continue_1; destruct (Rlt_dec (1 / 2) 1); [reflexivity|lra]). assert (C1 : continue_1 1 1 = false) by (unfold continue_1; destruct (Rlt_dec 1 1); [lra|reflexivity]).
  assert (N1 : time_1 0 (1 / 2) = 1 / 2) by (unfold time_1; rewrite Rplus_0_l; exact Fh). assert (N2 : time_1 (1 / 2) (1 / 2) = 1) by (unfold time_1; replace (1 / 2 + 1 / 2) with 1 by lra; exact F1). assert (N3 : time_1 1 (1 / 2) = 3 / 2) by (unfold time_1; replace (1 + 1 / 2) with (3 / 2) by lra; exact F32).
  assert (M1 : time_2 0 (1 / 2) = 1 / 2). { unfold time_2. rewrite N1, N2, Rmult_0_l, Rmult_1_l, fl_0, Fh, Rplus_0_l. exact Fh. }
  assert (M2 : time_2 (1 / 2) (1 / 2) = 1). { unfold time_2. rewrite N2, N3. replace (1 / 2 * (1 / 2)) with (1 / 4) by lra. replace (3 / 2 * (1 / 2)) with (3 / 4) by lra. rewrite Fq, F3. replace (1 / 4 + 3 / 4) with 1 by lra. exact F1. }
  split; cbn [run_clock]; rewrite C0; rewrite ?N1, ?M1, Ch, ?N2, ?M2, C1; reflexivity.
Qed.

(** When the steps get short, the run never ends: a step below half a unit in the last place of the time leaves it as it is,
    and nothing notices.  In exact arithmetic steps of 2^-60 would end any run. *)
Theorem clock_stalls_refuted next : next = time_1 \/ next = time_2 -> exists dt, (forall k, double (dt k) /\ bp (-60) <= dt k <= 1) /\
  forall fuel, run_clock fuel (continue_1 2) next dt 0 0 = NoFuel.
Proof.
  intros Hn. exists (fun k => match k with O => 1 | S _ => bp (-60) end).
  assert (B : bp (-60) = / 1152921504606846976) by reflexivity. assert (D60 : double (bp (-60))) by (apply double_bpow; lia). assert (D1 : double 1) by (apply (double_int 1); reflexivity).
  split; [intros [|k]; (split; [assumption|lra])|].
  assert (F1 : fl 1 = 1) by (apply fl_id, D1). assert (Fh : fl (1 / 2) = 1 / 2) by (apply (dyadic 1 (-1)); [change (bp (-1)) with (/ 2); lra|reflexivity|lia]).
  assert (Fs : fl (1 + bp (-60)) = 1).
  { rewrite (fl_eq (1 + bp (-60)) 4503599627370496 (-52)).
    - change (bp (-52)) with (/ 4503599627370496). lra.
    - lia.
    - change (bp (-52 + 52)) with 1. change (bp (-52 + 53)) with 2. rewrite B. lra.
    - change (bp (-52)) with (/ 4503599627370496). rewrite B. apply Rabs_def1; lra.
    - change (bp (-52 + 52)) with 1. change (bp (-52 + 53)) with 2. change (bp (-52)) with (/ 4503599627370496). lra. }
  assert (S1 : next 1 (bp (-60)) = 1).
  { destruct Hn as [->| ->]; [exact Fs|]. unfold time_2, time_1. rewrite Fs, Fs, Rmult_1_l, Fh. replace (1 / 2 + 1 / 2) with 1 by lra. exact F1. }
  assert (S0 : next 0 1 = 1).
  { destruct Hn as [->| ->]; unfold time_2, time_1; rewrite Rplus_0_l, F1; [reflexivity|]. replace (1 + 1) with 2 by lra. rewrite (whole 2) by reflexivity. rewrite Rmult_0_l, fl_0, Rplus_0_l. replace (2 * (1 / 2)) with 1 by lra. rewrite F1. exact F1. }
  assert (C1 : continue_1 2 1 = true) by (unfold continue_1; destruct (Rlt_dec 1 2); [reflexivity|lra]). assert (C0 : continue_1 2 0 = true) by (unfold continue_1; destruct (Rlt_dec 0 2); [reflexivity|lra]).
  assert (L : forall fuel k, run_clock fuel (continue_1 2) next (fun k => match k with O => 1 | S _ => bp (-60) end) (S k) 1 = NoFuel).
  { induction fuel as [|f IH]; intros k; [reflexivity|]. cbn [run_clock]. rewrite C1, S1. apply IH. }
  intros [|f]; [reflexivity|]. cbn [run_clock]. rewrite C0, S0. apply L.
Qed.

Print Assumptions schedule_in_doubles.
Print Assumptions due_in_doubles.
Print Assumptions run_in_doubles.
Print Assumptions binary_run_in_doubles.
Print Assumptions clock_stalls_refuted.
