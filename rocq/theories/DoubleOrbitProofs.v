(** Proofs on the evaluation of an orbit in double arithmetic. *)
From Coq Require Import ZArith Reals Lra Lia List Arith Psatz Classical.
From Flocq Require Import Core.
From Verif Require Import Base TwoBodyModel KeplerProofs DoubleModel DoubleProofs.
Import ListNotations.
Open Scope R_scope.

Lemma pigeon (P : nat -> nat -> Prop) n m : (forall i, (i < n)%nat -> exists j, (j < m)%nat /\ P i j) -> (forall i i' j, P i j -> P i' j -> i = i') -> (n <= m)%nat.
Proof.
  intros H I. assert (exists l, length l = n /\ Forall (fun j => (j < m)%nat) l /\ (forall j, In j l -> exists i, (i < n)%nat /\ P i j) /\ NoDup l) as (l & <- & B & _ & N).
  { clear -H I. induction n as [|n IH]; [exists []; repeat split; [constructor|intros _ []|constructor]|]. destruct IH as (l & L & B & S & N); [intros i Hi; apply H; lia|].
    destruct (H n) as (j & Hj & Pj); [lia|]. exists (j :: l). repeat split; [cbn; lia|constructor; assumption| |].
    - intros k [<-|Hk]; [exists n; split; [lia|exact Pj]|]. destruct (S k Hk) as (i & Hi & Pi). exists i. split; [lia|exact Pi].
    - constructor; [|exact N]. intros K. destruct (S j K) as (i & Hi & Pi). specialize (I i n j Pi Pj). lia. }
  rewrite <- (seq_length m 0). apply NoDup_incl_length; [exact N|]. intros j Hj. apply in_seq. rewrite Forall_forall in B. specialize (B j Hj). lia.
Qed.

Lemma bp_num e p : (bp e = p -> 0 < p)%R. Proof. intros <-. apply bpow_gt_0. Qed.
Lemma b32 : bp (-32) = / 4294967296. Proof. reflexivity. Qed.
Lemma b31 : bp (-31) = / 2147483648. Proof. reflexivity. Qed.
Lemma b33 : bp (-33) = / 8589934592. Proof. reflexivity. Qed.
Lemma b50 : bp (-50) = / 1125899906842624. Proof. reflexivity. Qed.
Lemma b53 : bp (-53) = / 9007199254740992. Proof. reflexivity. Qed.
Lemma b21 : bp 21 = 2097152. Proof. reflexivity. Qed.
Lemma b20 : bp 20 = 1048576. Proof. reflexivity. Qed.
Lemma double_1 : double 1. Proof. exact (double_bpow 0 ltac:(lia)). Qed.

Lemma tolerance_high : tolerance <= bp (-33).
Proof. apply fl_le_double; [apply double_bpow; lia|]. rewrite b33. lra. Qed.

Lemma abs_le x a : Rabs x <= a <-> - a <= x <= a.
Proof. unfold Rabs. destruct (Rcase_abs x); lra. Qed.
Lemma up_spec x : x < IZR (up x) <= x + 1.
Proof. destruct (archimed x). lra. Qed.

Lemma product_err e f g x : 0 <= e <= 1 / 4 -> Rabs (f - g) <= bp (-50) -> -1 <= g <= 1 -> x = fl (e * f) -> Rabs (x - e * g) <= bp (-51) /\ Rabs x <= 13 / 50.
Proof.
  intros He A G ->. apply abs_le in A. rewrite b50 in A.
  assert (E1 : - (1 / 4 * / 1125899906842624) <= e * (f - g) <= 1 / 4 * / 1125899906842624) by (split; nra).
  assert (E2 : - (1 / 4) <= e * g <= 1 / 4) by (split; nra). replace (e * f) with (e * g + e * (f - g)) by ring. set (p := e * g) in *. set (q := e * (f - g)) in *.
  assert (A0 : Rabs (p + q) <= bp 0) by (apply abs_le; change (bp 0) with 1; lra).
  pose proof (fl_err 0 _ ltac:(lia) A0) as K. change (0 - 53)%Z with (-53)%Z in K. rewrite b53 in K. apply abs_le in K. change (bp (-51)) with (/ 2251799813685248).
  split; apply abs_le; lra.
Qed.

Section Stall.
Variable sinf : R -> R.
Hypothesis Hsin : forall x, double x -> Rabs (sinf x - sin x) <= bp (-50).
Variables (e : R) (b : Z).
Hypothesis He : 1 / 1000 <= e <= 1 / 4.
Hypothesis Hb : (20 <= b <= 38)%Z.

Let s (E : R) : R := fl (e * sinf E).
Let F (E : R) : R := fl (E - s E).
Let h : R := bp (b - 52).
Let T : R := bp b.
Let one : Z := (2 ^ (52 - b))%Z.
Lemma h_bounds : bp (-32) <= h <= / 16384.
Proof. split; [apply bpow_le; lia|]. change (/ 16384) with (bp (-14)). apply bpow_le. lia. Qed.
Lemma T_bounds : 1048576 <= T.
Proof. change 1048576 with (bp 20). apply bpow_le. lia. Qed.
Lemma T_h : 2 * T = IZR (2 ^ 53) * h.
Proof. unfold T, h. change (IZR (2 ^ 53)) with (bp 53). replace (2 * bp b) with (bp 1 * bp b) by reflexivity. rewrite <- !bpow_plus. f_equal. ring. Qed.
Lemma one_h : IZR one * h = 1.
Proof. unfold one, h. change 2%Z with (radix_val radix2). rewrite (IZR_Zpower radix2) by lia. rewrite <- bpow_plus. change 1 with (bp 0). f_equal. ring. Qed.

Lemma s_le E : double E -> Rabs (s E) <= 13 / 50 /\ Rabs (s E - e * sin E) <= bp (-51).
Proof. intros H. destruct (product_err e (sinf E) (sin E) _ ltac:(lra) (Hsin E H) (SIN_bound E) eq_refl). split; assumption. Qed.
Lemma F_err E : double E -> Rabs E <= 2 * T - 1 -> Rabs (F E - (E - e * sin E)) <= 2 * h.
Proof.
  intros H L. destruct (s_le E H) as [S1 S2]. apply abs_le in S1, S2, L. pose proof h_bounds as HB. pose proof T_bounds.
  assert (TB : bp (b + 1) = 2 * T) by (unfold T; rewrite bpow_plus; change (bp 1) with 2; ring).
  assert (A : Rabs (E - s E) <= bp (b + 1)) by (apply abs_le; rewrite TB; lra).
  pose proof (fl_err (b + 1) _ ltac:(lia) A) as K. fold (F E) in K. replace (b + 1 - 53)%Z with (b - 52)%Z in K by ring. fold h in K. apply abs_le in K.
  apply abs_le. rewrite b32 in HB. change (bp (-51)) with (/ 2251799813685248) in S2. lra.
Qed.

Lemma grid_double z : 0 <= IZR z * h < 2 * T -> double (IZR z * h).
Proof.
  intros [L U]. rewrite T_h in U. pose proof h_bounds as HB. rewrite b32 in HB. assert (Hp : 0 < h) by lra. apply (double_mult z (b - 52)); [|lia]. apply Z.abs_lt. split.
  - apply lt_IZR. assert (0 <= IZR z) by (apply Rmult_le_reg_r with h; lra). change (IZR (- 2 ^ 53)) with (- 9007199254740992). lra.
  - apply lt_IZR. apply Rmult_lt_reg_r with h; assumption.
Qed.

Lemma hits z E : let t := IZR z * h in T + 4 <= t <= 2 * T - 4 -> double E -> Rabs (anomaly_equation sinf e t E) <= tolerance ->
  F E = t /\ t - 2 <= E <= t + 2.
Proof.
  intros t Ht HE HL. unfold anomaly_equation in HL. fold (s E) in HL. fold (F E) in HL. pose proof tolerance_high as TH. pose proof h_bounds as HB. pose proof T_bounds as TB. rewrite b33 in TH. rewrite b32 in HB.
  assert (N : Rabs (F E - t) < h).
  { apply Rnot_le_lt. intros X. assert (h <= Rabs (fl (F E - t))); [|lra].
    unfold Rabs in X. destruct (Rcase_abs _) as [Y|Y].
    - pose proof (fl_le_double (F E - t) (- h) ltac:(apply double_opp, double_bpow; lia) ltac:(lra)). rewrite <- Rabs_Ropp. eapply Rle_trans; [|apply Rle_abs]. lra.
    - pose proof (fl_ge_double (F E - t) h ltac:(apply double_bpow; lia) ltac:(lra)). eapply Rle_trans; [|apply Rle_abs]. lra. }
  assert (NN : - h < F E - t < h) by (unfold Rabs in N; destruct (Rcase_abs _); lra).
  assert (EQ : F E = t).
  { destruct (double_grid (F E) b (fl_double _) ltac:(lia)) as [m Em].
    - fold T. eapply Rle_trans; [|apply Rle_abs]. lra.
    - fold h in Em. rewrite Em. unfold t. rewrite Em in NN. unfold t in NN. do 2 f_equal.
      assert (IZR (m - z) < 1 /\ -1 < IZR (m - z)) as [A B]. { rewrite minus_IZR. split; apply Rmult_lt_reg_r with h; lra. }
      apply lt_IZR in A. apply (lt_IZR (-1)) in B. lia. }
  split; [exact EQ|]. destruct (s_le E HE) as [S1 _]. apply abs_le in S1. pose proof one_h as OH. split; apply Rnot_lt_le; intros X.
  - assert (F E <= IZR (z - one) * h). { apply fl_le_double; [apply grid_double|]; rewrite minus_IZR, Rmult_minus_distr_r, OH; fold t; lra. }
    rewrite EQ, minus_IZR, Rmult_minus_distr_r, OH in H. fold t in H. lra.
  - assert (IZR (z + one) * h <= F E). { apply fl_ge_double; [apply grid_double|]; rewrite plus_IZR, Rmult_plus_distr_r, OH; fold t; lra. }
    rewrite EQ, plus_IZR, Rmult_plus_distr_r, OH in H. fold t in H. lra.
Qed.

Lemma kepler_order x y : x <= y -> x - e * sin x <= y - e * sin y.
Proof. intros H. pose proof (sin_lipschitz x y) as L. apply abs_le in L. rewrite (Rabs_left1 (x - y)) in L by lra. nra. Qed.

(** In every stretch of time of length 20 in that range there is a mean anomaly that no double solves. *)
Lemma unsolvable t0 : T + 4 <= t0 <= 2 * T - 24 -> exists t, t0 <= t <= t0 + 20 /\ double t /\ forall E, double E -> tolerance < Rabs (anomaly_equation sinf e t E).
Proof.
  intros Ht. pose proof pi_gt3 as P3. pose proof PI_4 as P4. pose proof h_bounds as Hh. rewrite b32 in Hh. pose proof T_bounds as TB.
  set (k := up ((t0 + 3) / (2 * PI))). destruct (up_spec ((t0 + 3) / (2 * PI))) as [K1 K2]. fold k in K1, K2.
  set (c := 2 * IZR k * PI + PI).
  assert (C : t0 + 6 < c <= t0 + 15).
  { assert (A1 : t0 + 3 < IZR k * (2 * PI)) by (apply Rmult_lt_reg_r with (/ (2 * PI)); [apply Rinv_0_lt_compat; lra|]; rewrite Rmult_assoc, Rinv_r, Rmult_1_r by lra; exact K1).
    assert (A2 : IZR k * (2 * PI) <= t0 + 3 + 2 * PI).
    { apply Rmult_le_reg_r with (/ (2 * PI)); [apply Rinv_0_lt_compat; lra|]. rewrite Rmult_assoc, Rinv_r, Rmult_1_r by lra. replace ((t0 + 3 + 2 * PI) * / (2 * PI)) with ((t0 + 3) / (2 * PI) + 1) by (field; lra). exact K2. }
    unfold c. lra. }
  assert (SL : sin (c - PI / 2) = 1) by (unfold c; replace (2 * IZR k * PI + PI - PI / 2) with (PI / 2 + 2 * IZR k * PI) by field; rewrite sin_shift; apply sin_PI2).
  assert (SR : sin (c + PI / 2) = -1) by (unfold c; replace (2 * IZR k * PI + PI + PI / 2) with (3 * (PI / 2) + 2 * IZR k * PI) by field; rewrite sin_shift; apply sin_3PI2).
  assert (DV : forall x, x / h * h = x) by (intros x; field; lra).
  set (A := c - PI / 2 - 3 / 4 * e). set (i0 := up (A / h)). destruct (up_spec (A / h)) as [I1 I2]. fold i0 in I1, I2.
  set (m := up (PI / h)). destruct (up_spec (PI / h)) as [M1 M2]. fold m in M1, M2.
  set (j0 := up ((c - PI / 2) / h)). destruct (up_spec ((c - PI / 2) / h)) as [J1 J2]. fold j0 in J1, J2.
  assert (Hp : 0 < h) by lra.
  assert (I1' : A < IZR i0 * h) by (rewrite <- (DV A); apply Rmult_lt_compat_r; assumption).
  assert (I2' : IZR i0 * h <= A + h) by (rewrite <- (DV A) at 1; replace (A / h * h + h) with ((A / h + 1) * h) by ring; apply Rmult_le_compat_r; lra).
  assert (M1' : PI < IZR m * h) by (rewrite <- (DV PI); apply Rmult_lt_compat_r; assumption).
  assert (M2' : IZR m * h <= PI + h) by (rewrite <- (DV PI) at 1; replace (PI / h * h + h) with ((PI / h + 1) * h) by ring; apply Rmult_le_compat_r; lra).
  assert (J1' : c - PI / 2 < IZR j0 * h) by (rewrite <- (DV (c - PI / 2)); apply Rmult_lt_compat_r; assumption).
  assert (J2' : IZR j0 * h <= c - PI / 2 + h) by (rewrite <- (DV (c - PI / 2)) at 1; replace ((c - PI / 2) / h * h + h) with (((c - PI / 2) / h + 1) * h) by ring; apply Rmult_le_compat_r; lra).
  assert (Mp : (0 < m)%Z). { apply lt_IZR. apply Rmult_lt_reg_r with h; lra. }
  clear I1 I2 M1 M2 J1 J2.
  apply NNPP. intros NO.
  assert (X : (S (Z.to_nat m) <= Z.to_nat m)%nat); [|lia].
  apply (pigeon (fun i j => F (IZR (j0 + Z.of_nat j) * h) = IZR (i0 + Z.of_nat i) * h)).
  2:{ intros i i' j H1 H2. rewrite H1 in H2. apply Rmult_eq_reg_r in H2; [|lra]. apply eq_IZR in H2. lia. }
  intros i Hi. set (z := (i0 + Z.of_nat i)%Z).
  assert (Hz : A < IZR z * h <= A + PI + 2 * h).
  { assert (0 <= IZR (Z.of_nat i) <= IZR m) as [Q1 Q2] by (split; apply IZR_le; lia). unfold z. rewrite plus_IZR.
    assert (0 <= IZR (Z.of_nat i) * h) by (apply Rmult_le_pos; lra). assert (IZR (Z.of_nat i) * h <= IZR m * h) by (apply Rmult_le_compat_r; lra). lra. }
  unfold A in Hz. clearbody m j0 i0 z.
  assert (Rz : T + 4 <= IZR z * h <= 2 * T - 4) by lra.
  assert (exists E, double E /\ Rabs (anomaly_equation sinf e (IZR z * h) E) <= tolerance) as (E & HE & LE).
  { apply NNPP. intros NE. apply NO. exists (IZR z * h). split; [lra|]. split; [apply grid_double; lra|].
    intros E HE. apply Rnot_le_lt. intros LE. apply NE. exists E. auto. }
  destruct (hits z E Rz HE LE) as [EQ BE].
  pose proof (F_err E HE ltac:(apply abs_le; lra)) as FE. rewrite EQ in FE. apply abs_le in FE.
  assert (EL : c - PI / 2 < E). { apply Rnot_le_lt. intros Y. pose proof (kepler_order _ _ Y) as KO. rewrite SL in KO. lra. }
  assert (EU : E < c + PI / 2). { apply Rnot_le_lt. intros Y. pose proof (kepler_order _ _ Y) as KO. rewrite SR in KO. lra. }
  destruct (double_grid E b HE ltac:(lia)) as [mE Em]; [fold T; eapply Rle_trans; [|apply Rle_abs]; lra|]. fold h in Em.
  assert (G1 : (j0 <= mE)%Z). { apply Z.lt_succ_r. apply lt_IZR. rewrite succ_IZR. apply Rmult_lt_reg_r with h; [lra|]. rewrite Em in EL. lra. }
  assert (G2 : (mE < j0 + m)%Z). { apply lt_IZR. rewrite plus_IZR. apply Rmult_lt_reg_r with h; [lra|]. rewrite Em in EU. lra. }
  exists (Z.to_nat (mE - j0)). split; [lia|]. replace (j0 + Z.of_nat (Z.to_nat (mE - j0)))%Z with mE by lia. rewrite <- Em. exact EQ.
Qed.
End Stall.

(** *** One round of Newton's method *)
Section Round.
Variables sinf cosf : R -> R.
Hypothesis Hsin : forall x, double x -> Rabs (sinf x - sin x) <= bp (-50).
Hypothesis Hcos : forall x, double x -> Rabs (cosf x - cos x) <= bp (-50).
Variables (e M : R) (b : Z).
Hypothesis He : 0 <= e <= 1 / 4.
Hypothesis Hb : (2 <= b <= 39)%Z.
Hypothesis HM : Rabs M <= bp b - 3.

Let beta := bp (b - 53).
Lemma beta_bounds : 0 < beta <= / 16384.
Proof. split; [apply bpow_gt_0|]. change (/ 16384) with (bp (-14)). apply bpow_le. lia. Qed.

Let K := kepler e M.
Let K' := kepler' e.
Lemma K'_bounds x : 3 / 4 <= K' x <= 5 / 4.
Proof. unfold K', kepler'. pose proof (COS_bound x). split; nra. Qed.

Lemma value_err x : double x -> Rabs (x - M) <= 1 -> Rabs (anomaly_equation sinf e M x - K x) <= beta + bp (-50) /\ Rabs (anomaly_equation sinf e M x) <= 13 / 10.
Proof.
  intros Dx Hx. unfold anomaly_equation. destruct (product_err e (sinf x) (sin x) _ He (Hsin x Dx) (SIN_bound x) eq_refl) as [S1 S2]. set (s := fl (e * sinf x)) in *.
  pose proof beta_bounds as B. apply abs_le in S1, S2, HM, Hx. change (bp (-51)) with (/ 2251799813685248) in S1.
  assert (A : Rabs (x - s) <= bp b) by (apply abs_le; lra). pose proof (fl_err b _ ltac:(lia) A) as E1. fold beta in E1. set (w := fl (x - s)) in *. apply abs_le in E1.
  assert (A2 : Rabs (w - M) <= bp 1) by (apply abs_le; change (bp 1) with 2; lra). pose proof (fl_err 1 _ ltac:(lia) A2) as E2. change (1 - 53)%Z with (-52)%Z in E2. change (bp (-52)) with (/ 4503599627370496) in E2. apply abs_le in E2.
  unfold K, kepler. rewrite b50. split; apply abs_le; lra.
Qed.
Lemma slope_err x : double x -> Rabs (anomaly_derivative cosf e x - K' x) <= bp (-50).
Proof.
  intros Dx. unfold anomaly_derivative. destruct (product_err e (cosf x) (cos x) _ He (Hcos x Dx) (COS_bound x) eq_refl) as [S1 S2]. set (s := fl (e * cosf x)) in *.
  apply abs_le in S1, S2. change (bp (-51)) with (/ 2251799813685248) in S1.
  assert (A2 : Rabs (1 - s) <= bp 1) by (apply abs_le; change (bp 1) with 2; lra). pose proof (fl_err 1 _ ltac:(lia) A2) as E2. change (1 - 53)%Z with (-52)%Z in E2. change (bp (-52)) with (/ 4503599627370496) in E2. apply abs_le in E2.
  unfold K', kepler'. rewrite b50. apply abs_le; lra.
Qed.
Let next (x : R) : R := fl (x - fl (anomaly_equation sinf e M x / anomaly_derivative cosf e x)).
Lemma quotient_err y k g g' d : Rabs (y - k) <= d -> Rabs y <= 13 / 10 -> 3 / 4 <= g' <= 5 / 4 -> Rabs (g - g') <= bp (-50) -> 0 <= d ->
  Rabs (y / g - k / g') <= 15 / 11 * d + 3 * bp (-50) /\ Rabs (y / g) <= 19 / 10.
Proof.
  intros Hy Yb Hg Hgg Hd. apply abs_le in Hy, Yb, Hgg. rewrite b50 in *. set (u := / 1125899906842624) in *. assert (U : 0 < u < 1 / 1000) by (unfold u; lra).
  assert (G : 74 / 100 <= g <= 126 / 100) by lra. assert (IG : 0 < / g <= 100 / 74) by (split; [apply Rinv_0_lt_compat; lra|]; replace (100 / 74) with (/ (74 / 100)) by field; apply Rinv_le; lra).
  assert (IG' : 0 < / g' <= 4 / 3) by (split; [apply Rinv_0_lt_compat; lra|]; replace (4 / 3) with (/ (3 / 4)) by field; apply Rinv_le; lra).
  assert (Q : Rabs (y / g) <= 19 / 10).
  { apply abs_le. unfold Rdiv. split; nra. }
  split; [|exact Q]. replace (y / g - k / g') with ((y - k) * / g' + (y / g) * ((g' - g) * / g')) by (field; lra). apply abs_le in Q. set (p := y / g) in *.
  assert (P1 : - (4 / 3 * d) <= (y - k) * / g' <= 4 / 3 * d) by (split; nra).
  assert (P2 : - (4 / 3 * u) <= (g' - g) * / g' <= 4 / 3 * u) by (split; nra). set (r := (g' - g) * / g') in *.
  assert (P3 : - (3 * u) <= p * r <= 3 * u) by (split; nra). apply abs_le. lra.
Qed.
Lemma next_err x : double x -> Rabs (x - M) <= 1 -> Rabs (next x - (x - K x / K' x)) <= 5 / 2 * beta + 5 * bp (-50).
Proof.
  intros Dx Hx. destruct (value_err x Dx Hx) as [V1 V2]. pose proof (slope_err x Dx) as SE. pose proof beta_bounds as B.
  destruct (quotient_err _ _ _ _ (beta + bp (-50)) V1 V2 (K'_bounds x) SE ltac:(rewrite b50; lra)) as [Q1 Q2]. unfold next. set (q := anomaly_equation sinf e M x / anomaly_derivative cosf e x) in *.
  apply abs_le in Q1, Q2, HM, Hx. rewrite b50 in *.
  assert (A2 : Rabs q <= bp 1) by (apply abs_le; change (bp 1) with 2; lra). pose proof (fl_err 1 _ ltac:(lia) A2) as E2. change (1 - 53)%Z with (-52)%Z in E2. change (bp (-52)) with (/ 4503599627370496) in E2. apply abs_le in E2. set (f := fl q) in *.
  assert (A : Rabs (x - f) <= bp b) by (apply abs_le; lra). pose proof (fl_err b _ ltac:(lia) A) as E1. fold beta in E1. apply abs_le in E1. apply abs_le. lra.
Qed.

(** The iterates stay near the mean anomaly. *)
Lemma next_near x : double x -> Rabs (x - M) <= 1 -> Rabs (next x - M) <= 1.
Proof.
  intros Dx Hx. pose proof (next_err x Dx Hx) as NE. pose proof beta_bounds as B. pose proof (K'_bounds x) as KB.
  assert (X : Rabs (x - K x / K' x - M) <= 2 / 3).
  { replace (x - K x / K' x - M) with ((e * sin x - (x - M) * (e * cos x)) * / K' x) by (unfold K, K', kepler, kepler' in *; field; lra).
    assert (I : 0 < / K' x <= 4 / 3) by (split; [apply Rinv_0_lt_compat; lra|]; replace (4 / 3) with (/ (3 / 4)) by field; apply Rinv_le; lra).
    pose proof (SIN_bound x). pose proof (COS_bound x). apply abs_le in Hx.
    assert (S : - (1 / 4) <= e * sin x <= 1 / 4) by (split; nra). assert (C : - (1 / 4) <= e * cos x <= 1 / 4) by (split; nra). set (s := e * sin x) in *. set (c := e * cos x) in *. set (d := x - M) in *.
    assert (D : - (1 / 4) <= d * c <= 1 / 4) by (split; nra). set (g := d * c) in *. apply abs_le. split; nra. }
  apply abs_le in X, NE. rewrite b50 in *. apply abs_le. lra.
Qed.
(** They approach the solution. *)
Lemma next_closer x r : double x -> Rabs (x - M) <= 1 -> K r = 0 -> Rabs (next x - r) <= 2 / 3 * Rabs (x - r) + (5 / 2 * beta + 5 * bp (-50)).
Proof.
  intros Dx Hx Hr. pose proof (next_err x Dx Hx) as NE. pose proof (K'_bounds x) as KB.
  assert (X : Rabs (x - K x / K' x - r) <= 2 / 3 * Rabs (x - r)).
  { replace (x - K x / K' x - r) with (e * ((sin x - sin r) - cos x * (x - r)) * / K' x) by (unfold K, K', kepler, kepler' in *; replace M with (r - e * sin r) by lra; field; lra).
    assert (I : 0 < / K' x <= 4 / 3) by (split; [apply Rinv_0_lt_compat; lra|]; replace (4 / 3) with (/ (3 / 4)) by field; apply Rinv_le; lra).
    pose proof (sin_lipschitz x r) as L. pose proof (COS_bound x) as CB. set (d := Rabs (x - r)) in *. assert (0 <= d) by apply Rabs_pos. apply abs_le in L.
    assert (C : - d <= cos x * (x - r) <= d). { assert (- d <= x - r <= d) by (apply abs_le, Rle_refl). split; nra. }
    set (p := cos x * (x - r)) in *. set (q := sin x - sin r) in *. assert (P : - (1 / 2 * d) <= e * (q - p) <= 1 / 2 * d) by (split; nra). set (g := e * (q - p)) in *. apply abs_le. split; nra. }
  replace (next x - r) with ((next x - (x - K x / K' x)) + (x - K x / K' x - r)) by ring. eapply Rle_trans; [apply Rabs_triang|]. lra.
Qed.
Lemma next_double x : double (next x).
Proof. apply fl_double. Qed.
End Round.
