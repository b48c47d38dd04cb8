(** The place of a binary on its orbit, in double arithmetic (src/model_two_body.hpp 113-145, 168-216). *)
From Coq Require Import ZArith Reals Lra Lia List Arith Psatz Classical.
From Flocq Require Import Core.
From Verif Require Import Base TwoBodyModel KeplerProofs DoubleModel DoubleProofs DoubleOrbitProofs.
Import ListNotations.
Open Scope R_scope.

(** *** Statements *)
(** A sine or cosine of the C library whose error is below 2^-50. *)
Definition accurate (f g : R -> R) : Prop := forall x, double x -> Rabs (f x - g x) <= / 2 ^ 50.
(** The sequence of values that Newton's method goes through. *)
Definition iterate (sinf cosf : R -> R) (e M : R) (n : nat) : R :=
  Nat.iter n (fun x => fl (x - fl (anomaly_equation sinf e M x / anomaly_derivative cosf e x))) M.

Lemma pow_bp n : / 2 ^ n = bp (- Z.of_nat n).
Proof. rewrite bpow_opp. f_equal. rewrite <- (IZR_Zpower radix2) by lia. rewrite pow_IZR. reflexivity. Qed.
Lemma accurate_bp f g : accurate f g -> forall x, double x -> Rabs (f x - g x) <= bp (-50).
Proof. intros H x Dx. change (-50)%Z with (- Z.of_nat 50)%Z. rewrite <- pow_bp. apply H, Dx. Qed.
Lemma newton_fl_S k f g tol x y : newton_fl (S k) f g tol x y = if Rlt_dec tol (Rabs y) then let x1 := fl (x - fl (y / g x)) in newton_fl k f g tol x1 (f x1) else Ok x.
Proof. reflexivity. Qed.
Lemma tolerance_low : 99 / 1000000000000 <= tolerance.
Proof.
  assert (A : Rabs (/ 10 ^ 10) <= bp (-33)) by (apply abs_le; rewrite b33; lra). pose proof (fl_err (-33) _ ltac:(lia) A) as K. fold tolerance in K. apply abs_le in K.
  assert (bp (-33 - 53) <= bp (-50)) by (apply bpow_le; lia). rewrite b50 in *. lra.
Qed.
Lemma tolerance_mid : tolerance <= 101 / 1000000000000.
Proof.
  assert (A : Rabs (/ 10 ^ 10) <= bp (-33)) by (apply abs_le; rewrite b33; lra). pose proof (fl_err (-33) _ ltac:(lia) A) as K. fold tolerance in K. apply abs_le in K.
  assert (bp (-33 - 53) <= bp (-50)) by (apply bpow_le; lia). rewrite b50 in *. lra.
Qed.

(** For an eccentricity up to 1/4 and a mean anomaly up to 2^16 - 3 (10430 orbits), the loop ends within 60 rounds with
    Kepler's equation solved to 2e-10. *)
Theorem orbit_in_doubles sinf cosf mtot sep e t : accurate sinf sin -> accurate cosf cos -> 0 <= e <= 1 / 4 ->
  let M := fl (omega_fl mtot sep * t) in Rabs M <= 2 ^ 16 - 3 ->
  exists E, eccentric_anomaly sinf cosf 61 mtot sep e t = Ok E /\ Rabs (E - e * sin E - M) <= 2 / 10 ^ 10 /\ Rabs (E - M) <= 1.
Proof.
  intros HS HC He M HM. pose proof (accurate_bp _ _ HS) as Hs. pose proof (accurate_bp _ _ HC) as Hc.
  assert (HM' : Rabs M <= bp 16 - 3) by (change (bp 16) with 65536; lra).
  destruct (kepler_solvable e M ltac:(lra)) as [r Hr]. pose proof tolerance_low as TL. pose proof tolerance_mid as TM.
  set (eta := 5 / 2 * bp (16 - 53) + 5 * bp (-50)). assert (Eb : bp (16 - 53) = / 137438953472) by reflexivity.
  assert (DM : double M) by apply fl_double.
  assert (L : forall k x, double x -> Rabs (x - M) <= 1 -> Rabs (x - r) <= (3 / 2) ^ k * (1 / 100000000000) + 3 * eta ->
    exists E, newton_fl (S k) (anomaly_equation sinf e M) (anomaly_derivative cosf e) tolerance x (anomaly_equation sinf e M x) = Ok E /\ double E /\ Rabs (anomaly_equation sinf e M E) <= tolerance /\ Rabs (E - M) <= 1).
  { induction k as [|k IH]; intros x Dx Nx Cx; set (y := anomaly_equation sinf e M x).
    - exists x. cbn [newton_fl]. assert (Rabs y <= tolerance); [|split; [destruct (Rlt_dec _ _); [lra|reflexivity]|auto]].
      destruct (value_err sinf Hs e M 16 He ltac:(lia) HM' x Dx Nx) as [V _]. fold y in V. cbn [pow] in Cx.
      assert (KX : Rabs (kepler e M x) <= 5 / 4 * Rabs (x - r)).
      { replace (kepler e M x) with ((x - r) - e * (sin x - sin r)) by (unfold kepler in *; lra). pose proof (sin_lipschitz x r) as SL. set (d := Rabs (x - r)) in *. assert (0 <= d) by apply Rabs_pos. apply abs_le in SL.
        assert (- d <= x - r <= d) by (apply abs_le, Rle_refl). set (q := sin x - sin r) in *. assert (- (1 / 4 * d) <= e * q <= 1 / 4 * d) by (split; nra). apply abs_le. lra. }
      replace y with ((y - kepler e M x) + kepler e M x) by ring. eapply Rle_trans; [apply Rabs_triang|]. unfold eta in Cx. rewrite Eb in *. rewrite b50 in *. lra.
    - destruct (Rlt_dec tolerance (Rabs y)) as [T|T].
      + rewrite newton_fl_S. fold y. destruct (Rlt_dec _ _) as [_|]; [|lra]. cbv zeta.
        apply (IH (fl (x - fl (y / anomaly_derivative cosf e x)))).
        * apply fl_double.
        * apply (next_near sinf cosf Hs Hc e M 16 He ltac:(lia) HM' x Dx Nx).
        * eapply Rle_trans; [apply (next_closer sinf cosf Hs Hc e M 16 He ltac:(lia) HM' x r Dx Nx Hr)|]. fold eta. cbn [pow] in Cx. lra.
      + exists x. rewrite newton_fl_S. fold y. destruct (Rlt_dec _ _) as [|_]; [lra|]. split; [reflexivity|]. split; [exact Dx|]. split; [fold y; lra|exact Nx]. }
  destruct (L 60%nat M DM) as (E & HE & DE & TE & NE).
  - rewrite Rminus_eq_0, Rabs_R0. lra.
  - assert (Rabs (M - r) <= 1 / 4). { unfold kepler in Hr. replace (M - r) with (- (e * sin r)) by lra. rewrite Rabs_Ropp. pose proof (SIN_bound r). apply abs_le. split; nra. }
    assert (1 / 4 <= (3 / 2) ^ 60 * (1 / 100000000000)).
    { replace ((3 / 2) ^ 60) with (3 ^ 60 / 2 ^ 60) by (unfold Rdiv; rewrite Rpow_mult_distr, pow_inv; reflexivity). rewrite !pow_IZR. set (a := (3 ^ Z.of_nat 60)%Z). set (c := (2 ^ Z.of_nat 60)%Z). vm_compute in a, c. unfold a, c. lra. }
    assert (0 <= eta) by (unfold eta; rewrite Eb, b50; lra). lra.
  - exists E. split; [exact HE|]. split; [|exact NE]. destruct (value_err sinf Hs e M 16 He ltac:(lia) HM' E DE NE) as [V _]. change (E - e * sin E - M) with (kepler e M E). apply abs_le in V, TE. rewrite Eb, b50 in V. apply abs_le. lra.
Qed.

(** From a mean anomaly of 2^20 on (166886 orbits) the loop does not always end: on the orbit with mass 1, separation 1 and
    any eccentricity from 1/1000 to 1/4 there is in every stretch of 20 units of time (about three orbits) a time at which the
    loop goes on for ever, whatever sine and cosine of that accuracy the library has.  The values it goes through stay within
    1 of the mean anomaly, so neither overflow nor a value that is not a number ends it. *)
Theorem orbit_stalls_refuted sinf cosf e b t0 : accurate sinf sin -> accurate cosf cos -> 1 / 1000 <= e <= 1 / 4 -> (20 <= b <= 38)%nat -> 2 ^ b + 4 <= t0 <= 2 ^ S b - 24 ->
  exists t, double t /\ t0 <= t <= t0 + 20 /\ (forall n, eccentric_anomaly sinf cosf n 1 1 e t = NoFuel) /\ (forall n, double (iterate sinf cosf e t n) /\ Rabs (iterate sinf cosf e t n - t) <= 1).
Proof.
  intros HS HC He Hb Ht. pose proof (accurate_bp _ _ HS) as Hs. pose proof (accurate_bp _ _ HC) as Hc.
  assert (B : bp (Z.of_nat b) = 2 ^ b) by (rewrite <- (IZR_Zpower radix2) by lia; rewrite pow_IZR; reflexivity).
  cbn [pow] in Ht. destruct (unsolvable sinf Hs e (Z.of_nat b) He ltac:(lia) t0) as (t & Rt & Dt & NO); [rewrite B; lra|]. exists t. split; [exact Dt|]. split; [exact Rt|].
  assert (W : omega_fl 1 1 = 1). { unfold omega_fl. destruct (Req_EM_T 1 0); [lra|]. replace (1 / 1) with 1 by field. rewrite !(fl_id 1) by apply double_1. replace (1 / 1) with 1 by field. rewrite !(fl_id 1) by apply double_1. replace (1 / 1) with 1 by field. rewrite !(fl_id 1) by apply double_1. rewrite sqrt_1. apply fl_id, double_1. }
  split.
  - intros n. unfold eccentric_anomaly. rewrite W, Rmult_1_l, (fl_id t Dt). assert (G : forall k x, double x -> newton_fl k (anomaly_equation sinf e t) (anomaly_derivative cosf e) tolerance x (anomaly_equation sinf e t x) = NoFuel).
    { induction k as [|k IH]; intros x Dx; [reflexivity|]. cbn [newton_fl]. pose proof (NO x Dx). destruct (Rlt_dec _ _); [|lra]. apply IH, fl_double. }
    apply G, Dt.
  - assert (B1 : bp (Z.of_nat b + 1) = 2 * 2 ^ b) by (rewrite bpow_plus, B; change (bp 1) with 2; ring).
    assert (HM : Rabs t <= bp (Z.of_nat b + 1) - 3) by (rewrite B1; pose proof (pow_lt 2 b ltac:(lra)); apply abs_le; lra).
    induction n as [|n [D N]]; [cbn; rewrite Rminus_eq_0, Rabs_R0; split; [exact Dt|lra]|]. cbn [iterate Nat.iter nat_rect]. fold (iterate sinf cosf e t n). split; [apply fl_double|].
    exact (next_near sinf cosf Hs Hc e t (Z.of_nat b + 1) ltac:(lra) ltac:(lia) HM _ D N).
Qed.

(** The loop that moves a time before the periapse to a later orbit: if no time is beyond 2^b and the period is at least
    2^(b - 51), every round adds at least half a period, so the loop ends, less than two periods after the periapse. *)
Theorem after_in_doubles b tau P : (2 <= b <= 900)%nat -> 2 ^ b / 2 ^ 51 <= P -> tau + P <= 2 ^ b ->
  forall n t, - 2 ^ b <= t -> tau - t <= INR n * (P / 2) -> exists s, after_fl (S n) tau P t = Ok s /\ tau <= s /\ (s = t \/ s <= tau + 5 / 4 * P).
Proof.
  intros Hb HP HT. assert (B : bp (Z.of_nat b) = 2 ^ b) by (rewrite <- (IZR_Zpower radix2) by lia; rewrite pow_IZR; reflexivity).
  assert (Q : bp (Z.of_nat b - 53) = 2 ^ b / 2 ^ 51 / 4). { unfold Zminus. rewrite bpow_plus, B. replace (bp (Z.opp 53)) with (/ 2 ^ 53) by (rewrite pow_bp; reflexivity). replace (2 ^ 53) with (2 ^ 51 * 4) by (cbn [pow]; ring). set (x := 2 ^ 51). assert (0 < x) by (apply pow_lt; lra). field. lra. }
  pose proof (bpow_gt_0 radix2 (Z.of_nat b - 53)) as Q0. assert (P0 : 0 < P) by lra.
  induction n as [|n IH]; intros t Ht HN; cbn [after_fl].
  - cbn [INR] in HN. destruct (Rlt_dec t tau); [lra|]. exists t. split; [reflexivity|]. split; [lra|left; reflexivity].
  - destruct (Rlt_dec t tau) as [L|L]; [|exists t; split; [reflexivity|]; split; [lra|left; reflexivity]].
    assert (A : Rabs (t + P) <= bp (Z.of_nat b)) by (rewrite B; apply abs_le; lra). pose proof (fl_err (Z.of_nat b) _ ltac:(lia) A) as E. apply abs_le in E. rewrite Q in E.
    rewrite S_INR in HN. destruct (IH (fl (t + P))) as (s & Es & Ls & D); [lra|lra|]. exists s. split; [exact Es|]. split; [exact Ls|]. right. destruct D as [-> |D]; lra.
Qed.
(** It does not end in general: no period below 8 is seen at a time of -2^57. *)
Theorem after_stalls_refuted tau P : 0 < P < 8 -> - 2 ^ 57 < tau -> forall n, after_fl n tau P (- 2 ^ 57) = NoFuel.
Proof.
  intros HP HT. set (T := 2 ^ 57) in *. assert (TB : bp 57 = T) by (unfold T; rewrite pow_IZR; reflexivity). assert (DT : double (- T)) by (rewrite <- TB; apply double_opp, double_bpow; lia).
  assert (F : fl (- T + P) = - T).
  { pose proof (round_N_pt radix2 fexp (fun z => negb (Z.even z)) (- T + P)) as N. change (Rnd_N_pt double (- T + P) (fl (- T + P))) in N. destruct N as [Dd N]. specialize (N (- T) DT). set (d := fl (- T + P)) in *.
    rewrite (Rabs_left (- T - (- T + P))) in N by lra. apply abs_le in N.
    assert (T56 : bp 56 = T / 2) by (rewrite <- TB; change (bp 56) with 72057594037927936; change (bp 57) with 144115188075855872; lra). assert (TV : T = 144115188075855872) by (rewrite <- TB; reflexivity).
    destruct (double_grid d 56 Dd ltac:(lia)) as [m Em]; [rewrite T56, Rabs_left1; lra|]. change (bp (56 - 52)) with 16 in Em.
    assert (M : (m = - 9007199254740992)%Z); [|rewrite Em, M, TV; lra].
    assert (-9007199254740993 < IZR m < -9007199254740991) as [A1 A2] by lra. apply lt_IZR in A1, A2. lia. }
  induction n as [|n IH]; [reflexivity|]. cbn [after_fl]. destruct (Rlt_dec _ _); [|lra]. rewrite F. exact IH.
Qed.

(** *** Examples *)
(** A correctly rounded sine and cosine. *)
Lemma rounded_accurate f : (forall x, -1 <= f x <= 1) -> accurate (fun x => fl (f x)) f.
Proof.
  intros H x _. rewrite pow_bp. assert (A : Rabs (f x) <= bp 0) by (apply abs_le; change (bp 0) with 1; apply H). eapply Rle_trans; [apply (fl_err 0 _ ltac:(lia) A)|]. apply bpow_le. cbn. lia.
Qed.
Lemma sin_accurate : accurate (fun x => fl (sin x)) sin. Proof. apply rounded_accurate. exact SIN_bound. Qed.
Lemma cos_accurate : accurate (fun x => fl (cos x)) cos. Proof. apply rounded_accurate. exact COS_bound. Qed.
(** A quarter of a circle along an orbit of eccentricity 1/8 around mass 4 at distance 4: omega is 1/4. *)
Example orbit_in_doubles_example : exists E, eccentric_anomaly (fun x => fl (sin x)) (fun x => fl (cos x)) 61 4 4 (1 / 8) 6 = Ok E /\ Rabs (E - 1 / 8 * sin E - 3 / 2) <= 2 / 10 ^ 10.
Proof.
  assert (W : omega_fl 4 4 = 1 / 4).
  { unfold omega_fl. destruct (Req_EM_T 4 0); [lra|]. replace (4 / 4) with 1 by field. rewrite (fl_id 1) by apply double_1. assert (D4 : double (1 / 4)) by (replace (1 / 4) with (bp (-2)) by (change (bp (-2)) with (/ 4); field); apply double_bpow; lia).
    rewrite (fl_id (1 / 4)) by exact D4. assert (D16 : double (1 / 4 / 4)) by (replace (1 / 4 / 4) with (bp (-4)) by (change (bp (-4)) with (/ 16); field); apply double_bpow; lia). rewrite (fl_id (1 / 4 / 4)) by exact D16.
    replace (sqrt (1 / 4 / 4)) with (1 / 4). - apply fl_id, D4. - symmetry. replace (1 / 4 / 4) with ((1 / 4) * (1 / 4)) by field. apply sqrt_square. lra. }
  assert (M : fl (omega_fl 4 4 * 6) = 3 / 2). { rewrite W. replace (1 / 4 * 6) with (3 / 2) by field. apply fl_id. replace (3 / 2) with (IZR 3 * bp (-1)) by (change (bp (-1)) with (/ 2); field). apply double_mult; [reflexivity|lia]. }
  destruct (orbit_in_doubles _ _ 4 4 (1 / 8) 6 sin_accurate cos_accurate) as (E & HE & L & _); [lra|rewrite M, Rabs_pos_eq; lra|]. rewrite M in L. exists E. auto.
Qed.
(** With the correctly rounded functions, within 20 units after time 1048580. *)
Example orbit_stalls_example : exists t, double t /\ 1048580 <= t <= 1048600 /\ forall n, eccentric_anomaly (fun x => fl (sin x)) (fun x => fl (cos x)) n 1 1 (1 / 4) t = NoFuel.
Proof.
  destruct (orbit_stalls_refuted _ _ (1 / 4) 20 1048580 sin_accurate cos_accurate) as (t & D & Rt & N & _); [lra|lia|split; [|rewrite pow_IZR; set (x := (2 ^ Z.of_nat 21)%Z); vm_compute in x; unfold x; lra]|].
  - rewrite pow_IZR. set (x := (2 ^ Z.of_nat 20)%Z). vm_compute in x. unfold x. lra.
  - exists t. repeat split; try assumption; lra.
Qed.
(** A period of 6 and a periapse at 20: from time 1 the loop goes to a time between 20 and 28. *)
Example after_example : exists s, after_fl 8 20 6 1 = Ok s /\ 20 <= s <= 28 /\ forall n, after_fl n 20 6 (- 2 ^ 57) = NoFuel.
Proof.
  destruct (after_in_doubles 5 20 6 ltac:(lia) ltac:(lra) ltac:(lra) 7 1 ltac:(lra) ltac:(cbn [INR]; lra)) as (s & E & L & D). exists s. split; [exact E|]. split; [destruct D; lra|]. apply after_stalls_refuted; [lra|]. pose proof (pow_lt 2 57 ltac:(lra)). lra.
Qed.

Print Assumptions orbit_in_doubles.
Print Assumptions orbit_stalls_refuted.
Print Assumptions after_in_doubles.
Print Assumptions after_stalls_refuted.
