(** Clocks in double arithmetic. *)
From Coq Require Import ZArith Reals Lra Lia List Arith Psatz.
From Flocq Require Import Core.
From Verif Require Import Base StrModel MapModel MapProofs ScheduleModel ScheduleProofs DoubleModel DoubleProofs DoubleGridProofs DoubleClockModel.
Import ListNotations.
Open Scope R_scope.

Section Check.
  Context (sc mk : nat -> schedule R) (tm : nat -> R) (l : list (str * R)) (k : str) (I : R).
  Context (Hsorted : forall n, msorted (sc n)) (Hnames : NoDup (map fst l)) (Hreg : forall n m, In m (map fst l) -> mfind m (sc n) <> None).
  Context (Hmark : forall n, mark_tasks_in add_fl due_fl (sc n) (tm n) l = Ok (mk n)).
  Context (Hkeep : forall n, last_performed k (sc (S n)) = last_performed k (mk n)).
  Context (Hk : In (k, I) l).

  Lemma last_is (s : schedule R) v : last_performed k s = Ok v <-> exists t, mfind k s = Some t /\ t_last t = v.
  Proof.
    unfold last_performed, sat. destruct (mfind k s) as [t|]; bsimp.
    - split; [intros H; exists t; split; congruence|]. intros (t' & H & <-). congruence.
    - split; [discriminate|]. intros (t' & H & _). discriminate.
  Qed.
  Lemma check_fl n v : last_performed k (sc n) = Ok v ->
    last_performed k (mk n) = Ok (if due_fl (tm n) v I then fl (v + I) else v) /\
    (is_due k (sc n) = Ok false -> is_due k (mk n) = Ok (due_fl (tm n) v I)).
  Proof.
    intros H. apply last_is in H. destruct H as (t & F & E).
    destruct (mark_tasks_in_spec 0 add_fl due_fl (sc n) (tm n) l (Hsorted n) Hnames (Hreg n)) as (r & Er & _ & Fr).
    rewrite Hmark in Er. assert (r = mk n) by congruence. subst r.
    specialize (Fr k). rewrite F in Fr. cbn [option_map] in Fr. unfold marked in Fr.
    rewrite (listed_in (T := R) 0 add_fl due_fl k I l Hnames Hk), E in Fr. split.
    - apply last_is. destruct (due_fl (tm n) v I); eexists; (split; [exact Fr|]); cbn; unfold add_fl; congruence.
    - unfold is_due, sat. rewrite F, Fr. bsimp. intros HD. destruct (due_fl (tm n) v I); cbn; auto.
  Qed.
End Check.

(** The sum of equal intervals. *)
Fixpoint acc (I : R) (j : nat) : R := match j with O => 0 | S i => fl (acc I i + I) end.
Lemma acc_double I j : double (acc I j).
Proof. destruct j; [apply double_0|apply fl_double]. Qed.
Lemma acc_nonneg I j : 0 <= I -> 0 <= acc I j.
Proof. intros H. induction j; cbn; [lra|]. apply fl_nonneg. lra. Qed.
Lemma acc_error I j : double I -> 0 <= I -> (Z.of_nat j <= 2 ^ 53)%Z -> Rabs (acc I j - INR j * I) <= INR j * (INR j + 1) * bp (-53) * I.
Proof.
  intros D H. induction j as [|j IH]; intros Hj; [cbn [acc]; replace (0 - INR 0 * I) with 0 by (cbn; ring); rewrite Rabs_R0; cbn; lra|].
  specialize (IH ltac:(lia)). cbn [acc]. rewrite S_INR. set (u := bp (-53)) in *. pose proof (fl_sum (acc I j) I (acc_double I j) D) as E. fold u in E.
  pose proof (acc_nonneg I j H) as A0. rewrite (Rabs_pos_eq (acc I j + I)) in E by lra. apply Rabs_le_inv in IH, E. pose proof (pos_INR j) as J0.
  assert (U : u * (INR j + 1) <= 1). { unfold u. apply Rmult_le_reg_l with (bp 53); [apply bpow_gt_0|]. rewrite <- Rmult_assoc, <- bpow_plus. change (bp (53 + -53)) with 1. rewrite <- S_INR, INR_IZR_INZ. change (bp 53) with (IZR (2 ^ 53)). rewrite Rmult_1_l, Rmult_1_r. apply IZR_le. exact Hj. }
  assert (U0 : 0 < u) by apply bpow_gt_0. set (n := INR j) in *. set (a := acc I j) in *.
  assert (B : u * (a + I) <= u * (n * I + n * (n + 1) * u * I + I)) by (apply Rmult_le_compat_l; lra).
  assert (C : u * (n * (n + 1) * u * I) <= u * (n + 1) * I). { replace (u * (n * (n + 1) * u * I)) with (u * (n + 1) * I * (u * n)) by ring. assert (0 <= u * (n + 1) * I) by (apply Rmult_le_pos; [apply Rmult_le_pos; lra|lra]). assert (0 <= u * n <= 1) by (split; [apply Rmult_le_pos; lra|nra]). nra. }
  apply Rabs_le. split; nra.
Qed.

(** One check. *)
Lemma due_iff t v I : double I -> bp (-1000) <= I -> (due_fl t v I = true -> I * (1 - bp (-53)) <= t - v) /\ (due_fl t v I = false -> t - v < I).
Proof.
  intros D H. unfold due_fl. destruct (Rle_dec I (fl (t - v))) as [L|L]; split; intros E; try discriminate E.
  - assert (T : bp (-1022) <= bp (-1000)) by (apply bpow_le; lia). assert (T2 : bp (-1000) = 4194304 * bp (-1022)) by (change (-1000)%Z with (22 + -1022)%Z; rewrite bpow_plus; reflexivity). pose proof bp1022_pos as B0.
    destruct (Rlt_le_dec (t - v) (bp (-1022))) as [C|C].
    + assert (fl (t - v) <= bp (-1022)) by (apply fl_le_double; [apply double_bpow; lia|lra]). lra.
    + destruct (rel_up _ C) as [R1 _]. rewrite bp53 in *. nra.
  - apply Rnot_le_lt in L. destruct (Rlt_le_dec (t - v) I) as [C|C]; [exact C|]. exfalso. assert (I <= fl (t - v)) by (apply fl_ge_double; assumption). lra.
Qed.

Lemma bp20 : bp 20 = 1048576. Proof. reflexivity. Qed.
Lemma bp30 : bp (-30) = / 1073741824. Proof. reflexivity. Qed.

Section Lag.
  Context (sc mk : nat -> schedule R) (tm : nat -> R) (l : list (str * R)) (k : str) (I : R).
  Context (Hsorted : forall n, msorted (sc n)) (Hnames : NoDup (map fst l)) (Hreg : forall n m, In m (map fst l) -> mfind m (sc n) <> None).
  Context (Hmark : forall n, mark_tasks_in add_fl due_fl (sc n) (tm n) l = Ok (mk n)).
  Context (Hkeep : forall n, last_performed k (sc (S n)) = last_performed k (mk n)).
  Context (Hk : In (k, I) l) (Hstart : last_performed k (sc 0%nat) = Ok 0).
  Context (DI : double I) (HI : bp (-1000) <= I) (H0 : 0 <= tm 0%nat < I) (Hstep : forall n, 0 <= tm (S n) - tm n <= I * (1 - bp (-29))).

  Lemma I_pos : 0 < I.
  Proof. pose proof (bpow_gt_0 radix2 (-1000)). lra. Qed.
  Lemma tm_pos n : 0 <= tm n.
  Proof. induction n; [lra|]. specialize (Hstep n). lra. Qed.

  Lemma small_count j t : 0 <= t -> t <= bp 20 * I -> (Z.of_nat j <= 2 ^ 21)%Z -> acc I j <= t + bp (-30) * I -> (Z.of_nat j <= 2 ^ 20)%Z.
  Proof.
    intros T0 T J A. pose proof I_pos as P. pose proof (acc_error I j DI ltac:(lra) ltac:(lia)) as E. apply Rabs_le_inv in E. rewrite bp20, bp30, bp53 in *.
    assert (Jr : INR j <= 2097152). { rewrite INR_IZR_INZ. change 2097152 with (IZR (2 ^ 21)). apply IZR_le, J. } pose proof (pos_INR j) as J0.
    assert (Q : INR j * (INR j + 1) * / 9007199254740992 * I <= 1 / 2 * I). { apply Rmult_le_compat_r; [lra|]. nra. }
    assert (B : INR j * I <= (1048576 + 3 / 4) * I) by lra. apply Rmult_le_reg_r in B; [|exact P]. rewrite INR_IZR_INZ in B.
    assert (C : IZR (Z.of_nat j) < IZR (2 ^ 20 + 1)) by (change (IZR (2 ^ 20 + 1)) with 1048577; lra). apply lt_IZR in C. lia.
  Qed.

  (** After check [n]: the last-performed time is a sum of intervals, no more than a hair ahead of the time and less than one interval behind. *)
  Definition on_time (s : schedule R) (t w : R) (j : nat) : Prop :=
    last_performed k s = Ok (acc I j) /\ (Z.of_nat j <= 2 ^ 21)%Z /\ acc I j <= t + bp (-30) * I /\ t - acc I j < w.
  Lemma check_lag n j : tm n <= bp 20 * I -> on_time (sc n) (tm n) (2 * I - bp (-29) * I) j -> exists j', on_time (mk n) (tm n) I j'.
  Proof.
    intros T (L & J & A & B). pose proof I_pos as P. pose proof (tm_pos n) as T0. pose proof (small_count j (tm n) T0 T J A) as J2.
    destruct (check_fl sc mk tm l k I Hsorted Hnames Hreg Hmark Hk n _ L) as [M _]. destruct (due_iff (tm n) (acc I j) I DI HI) as [D1 D2]. destruct (due_fl (tm n) (acc I j) I).
    - specialize (D1 eq_refl). exists (S j). split; [exact M|]. split; [lia|]. cbn [acc]. pose proof (fl_sum (acc I j) I (acc_double I j) DI) as E. pose proof (acc_nonneg I j ltac:(lra)) as A0. rewrite (Rabs_pos_eq (acc I j + I)) in E by lra. apply Rabs_le_inv in E.
      rewrite bp53, bp20, bp30 in *. change (bp (-29)) with (/ 536870912) in *. assert (S1 : acc I j + I <= 1048578 * I) by lra.
      assert (/ 9007199254740992 * (acc I j + I) <= / 9007199254740992 * (1048578 * I)) by (apply Rmult_le_compat_l; lra). split; lra.
    - specialize (D2 eq_refl). exists j. repeat split; try assumption.
  Qed.
  Lemma lag n : tm n <= bp 20 * I -> exists j, on_time (mk n) (tm n) I j.
  Proof.
    pose proof I_pos as P. assert (B29 : bp (-29) = / 536870912) by reflexivity. induction n as [|n IH]; intros T.
    - apply (check_lag 0 0 T). split; [exact Hstart|]. split; [lia|]. cbn [acc]. rewrite B29, bp30. split; lra.
    - specialize (Hstep n) as St. destruct IH as (j & L & J & A & B); [lra|]. apply (check_lag (S n) j T). split; [rewrite Hkeep; exact L|]. split; [exact J|]. split; lra.
  Qed.
  Lemma lag_exact n : tm n <= bp 20 * I -> exists j L, last_performed k (mk n) = Ok L /\ Rabs (L - INR j * I) <= bp (-12) * I /\ (INR j - bp (-11)) * I <= tm n < (INR j + 1 + bp (-11)) * I.
  Proof.
    intros T. destruct (lag n T) as (j & L & J & A & B). pose proof I_pos as P. exists j, (acc I j). split; [exact L|].
    pose proof (small_count j (tm n) (tm_pos n) T J A) as J2. pose proof (acc_error I j DI ltac:(lra) ltac:(lia)) as E. assert (Jr : INR j <= 1048576). { rewrite INR_IZR_INZ. change 1048576 with (IZR (2 ^ 20)). apply IZR_le, J2. } pose proof (pos_INR j) as J0.
    change (bp (-12)) with (/ 4096). change (bp (-11)) with (/ 2048). rewrite bp30, bp53 in *.
    assert (Q : INR j * (INR j + 1) * / 9007199254740992 * I <= / 4096 * I). { apply Rmult_le_compat_r; [lra|]. nra. }
    split; [lra|]. apply Rabs_le_inv in E. split; lra.
  Qed.
End Lag.

(** One time step. *)
Definition accurate (next : R -> R -> R) : Prop :=
  forall t dt, double t -> double dt -> 0 <= t -> bp (-1000) <= dt -> double (next t dt) /\ Rabs (next t dt - (t + dt)) <= bp (-50) * (t + dt).
Lemma bp50 : bp (-50) = 8 * bp (-53). Proof. change (-50)%Z with (3 + -53)%Z. rewrite bpow_plus. reflexivity. Qed.
Lemma time_1_accurate : accurate time_1.
Proof.
  intros t dt Dt Dd T D. unfold time_1. split; [apply fl_double|]. pose proof (fl_sum t dt Dt Dd) as E. pose proof (bpow_gt_0 radix2 (-1000)). rewrite (Rabs_pos_eq (t + dt)) in E by lra. rewrite bp50, bp53 in *. lra.
Qed.
Lemma time_2_accurate : accurate time_2.
Proof.
  intros t dt Dt Dd T D. unfold time_2. split; [apply fl_double|]. pose proof (bpow_gt_0 radix2 (-1000)) as P.
  unfold time_1. pose proof (fl_sum t dt Dt Dd) as E1. assert (D1 : double (fl (t + dt))) by apply fl_double. set (t1 := fl (t + dt)) in *. rewrite (Rabs_pos_eq (t + dt)) in E1 by lra.
  pose proof (fl_sum t1 dt D1 Dd) as E2. assert (D2 : double (fl (t1 + dt))) by apply fl_double. set (t2 := fl (t1 + dt)) in *.
  pose proof (fl_any (t * (1 / 2))) as E3. assert (D3 : double (fl (t * (1 / 2)))) by apply fl_double. set (h1 := fl (t * (1 / 2))) in *.
  pose proof (fl_any (t2 * (1 / 2))) as E4. assert (D4 : double (fl (t2 * (1 / 2)))) by apply fl_double. set (h2 := fl (t2 * (1 / 2))) in *.
  pose proof (fl_sum h1 h2 D3 D4) as E5. set (r := fl (h1 + h2)) in *.
  assert (Eta : bp (-1075) <= bp (-53) * dt). { apply Rle_trans with (bp (-53) * bp (-1000)); [rewrite <- bpow_plus; apply bpow_le; lia|apply Rmult_le_compat_l; [apply bpow_ge_0|lra]]. }
  set (eta := bp (-1075)) in *. rewrite bp50, bp53 in *. set (u := / 9007199254740992) in *. assert (U : 0 < u < / 1000000) by (unfold u; lra). clearbody u eta.
  apply Rabs_le_inv in E1.
  assert (S1 : 0 <= t1) by nra. rewrite (Rabs_pos_eq (t1 + dt)) in E2 by lra. apply Rabs_le_inv in E2. assert (S2 : 0 <= t2) by nra.
  rewrite (Rabs_pos_eq (t * (1 / 2))) in E3 by lra. rewrite (Rabs_pos_eq (t2 * (1 / 2))) in E4 by lra. apply Rabs_le_inv in E3, E4.
  assert (X : 0 <= u * (t + dt)) by nra. assert (X1 : u * (u * (t + dt)) <= / 1000000 * (u * (t + dt))) by (apply Rmult_le_compat_r; lra).
  assert (Y : u * (t1 + dt) <= 2 * u * (t + dt) + u * (u * (t + dt))). { assert (t1 + dt <= 2 * (t + dt) + u * (t + dt)) by lra. nra. }
  assert (Y2 : u * (t1 + dt) <= u * (t + dt) + u * dt + u * (u * (t + dt))). { assert (t1 + dt <= (t + dt) + dt + u * (t + dt)) by lra. nra. }
  assert (Z : u * t2 <= u * (t + 2 * dt) + u * (u * (t + dt)) + u * (u * (t1 + dt))). { assert (t2 <= t + 2 * dt + u * (t + dt) + u * (t1 + dt)) by lra. nra. }
  assert (Z2 : u * (u * (t1 + dt)) <= / 1000000 * (u * (t1 + dt))) by (apply Rmult_le_compat_r; nra).
  assert (Udt : u * dt <= u * (t + dt)) by nra. assert (Udt0 : 0 <= u * dt) by nra.
  assert (H : Rabs (h1 + h2) <= (t + dt) + 6 * u * (t + dt)). { apply Rabs_le. split; nra. }
  assert (H2 : u * Rabs (h1 + h2) <= u * (t + dt) + 6 * (u * (u * (t + dt)))) by nra. apply Rabs_le_inv in E5.
  apply Rabs_le. split; nra.
Qed.

Fixpoint total (dt : nat -> R) (k : nat) : R := match k with O => 0 | S i => total dt i + dt i end.

Section Run.
  Context (continue : R -> bool) (next : R -> R -> R) (dt : nat -> R) (T d D : R).
  Context (Hnext : accurate next) (Hcont : forall t, continue t = true -> t < T).
  Context (Hd : bp (-1000) <= d) (HT : bp (-48) * T <= d) (HT0 : 0 < T) (Hdt : forall k, double (dt k) /\ d <= dt k <= D).

  Lemma step_bounds t k : double t -> 0 <= t < T -> t + dt k / 2 <= next t (dt k) <= (T + D) * (1 + bp (-50)) /\ Rabs (next t (dt k) - (t + dt k)) <= bp (-50) * (T + D).
  Proof.
    intros Dt Ht. destruct (Hdt k) as [Dk Bk]. destruct (Hnext t (dt k) Dt Dk ltac:(lra) ltac:(lra)) as [_ E]. assert (B48 : bp (-48) = 4 * bp (-50)) by (change (-48)%Z with (2 + -50)%Z; rewrite bpow_plus; reflexivity).
    rewrite B48 in HT. change (bp (-50)) with (/ 1125899906842624) in *. assert (E' := E). apply Rabs_le_inv in E. pose proof (bpow_gt_0 radix2 (-1000)). split; [split|]; lra.
  Qed.
  Lemma run_clock_ends : forall fuel k t, double t -> 0 <= t -> t <= (T + D) * (1 + bp (-50)) -> Rabs (t - total dt k) <= INR k * (bp (-50) * (T + D)) ->
    (T - t) / (d / 2) + 1 <= INR fuel -> (0 < fuel)%nat ->
    exists k' t', run_clock fuel continue next dt k t = Ok (k', t') /\ continue t' = false /\ t' <= (T + D) * (1 + bp (-50)) /\ (k <= k')%nat /\ (INR k' - INR k) * (d / 2) <= t' - t /\
      Rabs (t' - total dt k') <= INR k' * (bp (-50) * (T + D)).
  Proof.
    pose proof (bpow_gt_0 radix2 (-1000)) as P. induction fuel as [|f IH]; intros k t Dt Ht Ht2 He Hf Hp; [lia|]. cbn [run_clock]. destruct (continue t) eqn:C.
    - apply Hcont in C. destruct (step_bounds t k Dt ltac:(lra)) as [S1 S2]. destruct (Hdt k) as [Dk Bk]. destruct (Hnext t (dt k) Dt Dk Ht ltac:(lra)) as [Dn _].
      assert (G : (T - next t (dt k)) / (d / 2) <= (T - t) / (d / 2) - 1). { apply Rmult_le_reg_r with (d / 2); [lra|]. replace ((T - next t (dt k)) / (d / 2) * (d / 2)) with (T - next t (dt k)) by (field; lra). replace (((T - t) / (d / 2) - 1) * (d / 2)) with (T - t - d / 2) by (field; lra). lra. }
      rewrite S_INR in Hf. assert (F0 : (0 < f)%nat). { apply INR_lt. cbn. assert (0 < (T - t) / (d / 2)) by (apply Rmult_lt_0_compat; [lra|apply Rinv_0_lt_compat; lra]). lra. }
      destruct (IH (S k) (next t (dt k)) Dn ltac:(lra) (proj2 S1)) as (k' & t' & R1 & R2 & R3 & R4 & R5 & R6); [|lra|exact F0|].
      + cbn [total]. rewrite S_INR. replace (next t (dt k) - (total dt k + dt k)) with ((next t (dt k) - (t + dt k)) + (t - total dt k)) by ring. eapply Rle_trans; [apply Rabs_triang|]. lra.
      + exists k', t'. repeat split; try assumption; try lia. rewrite S_INR in R5. lra.
    - exists k, t. split; [reflexivity|]. repeat split; try assumption; try lia; lra.
  Qed.
End Run.
