(** The jet nozzle injects the energy it is asked for (src/model_jet_nozzle.hpp 55-128). *)
From Coq Require Import Reals Lra.
From Coquelicot Require Import Coquelicot.
From Verif Require Import AtmosphereProofs JetModel.
Open Scope R_scope.

(** *** Statements *)
(** The energy that both jets inject into the cones of half opening angle Q until time T, with the solid angle of a ring
    2 pi sin q dq, and with its small-angle form 2 pi q dq. *)
Definition energy_with (ring : R -> R) (j : jet) (Q T E : R) : Prop :=
  is_RInt (fun t => RInt (fun q => 2 * luminosity_per_steradian j q t * (2 * PI * ring q)) 0 Q) 0 T E /\
  forall t, ex_RInt (fun q => 2 * luminosity_per_steradian j q t * (2 * PI * ring q)) 0 Q.
Definition good (j : jet) : Prop := 0 < Ej j /\ 0 < G0 j /\ 0 < tj j /\ 0 < qj j /\ 0 < r0 j.

(** *** Proofs *)
Lemma pow0_two x : 0 <= x -> pow0 x 2 = x ^ 2.
Proof.
  intros H. unfold pow0. destruct (Rlt_dec 0 x) as [P|P]; [|assert (x = 0) as -> by lra; ring].
  replace 2 with (INR 2) at 1 by (cbn; ring). apply Rpower_pow. exact P.
Qed.
Lemma pow0_one x : 0 <= x -> pow0 x 1 = x.
Proof. intros H. unfold pow0. destruct (Rlt_dec 0 x) as [P|P]; [apply Rpower_1; exact P|lra]. Qed.
Lemma light_cgs_pos : 0 < light_speed_cgs.
Proof. unfold light_speed_cgs. lra. Qed.
Lemma luminosity_form j q t : good j -> luminosity_per_steradian j q t = Ej j / (2 * PI * qj j ^ 2 * tj j) * exp (- pow0 (q / qj j) (structure_exponent j)) * exp (- t / tj j).
Proof. intros (A & B & C & D & E). unfold luminosity_per_steradian, density_at_base. pose proof light_cgs_pos. pose proof PI_RGT_0. field. repeat split; lra. Qed.
Lemma time_part k s T : 0 < s -> 0 <= T -> is_RInt (fun t => k * exp (- t / s)) 0 T (k * s * (1 - exp (- T / s))).
Proof.
  intros Hs HT. set (F t := - k * s * exp (- t / s)). replace (k * s * (1 - exp (- T / s))) with (F T - F 0) by (unfold F; replace (- 0 / s) with 0 by (field; lra); rewrite exp_0; ring).
  apply (ftc F); [exact HT| |]; intros t _.
  - unfold F. auto_derive; [exact I|]. unfold Rdiv. generalize (exp (- t * / s)). intros x. field. lra.
  - apply dcont. eexists. auto_derive; [exact I|reflexivity].
Qed.
(** Energy from the angular integral. *)
Lemma energy_from ring j Q T A : good j -> 0 <= Q -> 0 <= T -> is_RInt (fun q => exp (- pow0 (q / qj j) (structure_exponent j)) * ring q) 0 Q A ->
  energy_with ring j Q T (Ej j * (2 / qj j ^ 2 * A) * (1 - exp (- T / tj j))).
Proof.
  intros G HQ HT HA. pose proof G as (E0 & G0' & T0 & Q0 & R0). pose proof PI_RGT_0 as P.
  assert (I : forall t, is_RInt (fun q => 2 * luminosity_per_steradian j q t * (2 * PI * ring q)) 0 Q (Ej j * 2 / (qj j ^ 2 * tj j) * A * exp (- t / tj j))).
  { intros t. apply (is_RInt_ext (fun q => scal (Ej j * 2 / (qj j ^ 2 * tj j) * exp (- t / tj j)) (exp (- pow0 (q / qj j) (structure_exponent j)) * ring q))).
    - intros q _. rewrite luminosity_form by exact G. unfold scal. cbn. unfold mult. cbn. field. repeat split; lra.
    - replace (Ej j * 2 / (qj j ^ 2 * tj j) * A * exp (- t / tj j)) with (scal (Ej j * 2 / (qj j ^ 2 * tj j) * exp (- t / tj j)) A) by (unfold scal; cbn; unfold mult; cbn; ring). apply (is_RInt_scal (V := R_NormedModule)). exact HA. }
  split; [|intros t; eexists; exact (I t)].
  apply (is_RInt_ext (fun t => Ej j * 2 / (qj j ^ 2 * tj j) * A * exp (- t / tj j))).
  - intros t _. symmetry. apply is_RInt_unique. exact (I t).
  - replace (Ej j * (2 / qj j ^ 2 * A) * (1 - exp (- T / tj j))) with (Ej j * 2 / (qj j ^ 2 * tj j) * A * tj j * (1 - exp (- T / tj j))) by (field; lra). apply time_part; assumption.
Qed.
Lemma gauss_part s Q : 0 < s -> 0 <= Q -> is_RInt (fun q => exp (- (q / s) ^ 2) * q) 0 Q (s ^ 2 / 2 * (1 - exp (- (Q / s) ^ 2))).
Proof.
  intros Hs HQ. set (F q := - (s ^ 2 / 2) * exp (- (q / s) ^ 2)). replace (s ^ 2 / 2 * (1 - exp (- (Q / s) ^ 2))) with (F Q - F 0).
  2:{ unfold F. replace (- (0 / s) ^ 2) with 0 by (field; lra). rewrite exp_0. ring. }
  apply (ftc F); [exact HQ| |]; intros q _.
  - unfold F. auto_derive; [exact I|]. replace (q * / s * (q * / s * 1)) with ((q / s) ^ 2) by (field; lra). generalize (exp (- (q / s) ^ 2)). intros x. field. lra.
  - apply dcont. eexists. auto_derive; [exact I|reflexivity].
Qed.
Lemma gauss_cubic s Q : 0 < s -> 0 <= Q -> is_RInt (fun q => exp (- (q / s) ^ 2) * q ^ 3) 0 Q (s ^ 4 / 2 * (1 - (1 + (Q / s) ^ 2) * exp (- (Q / s) ^ 2))).
Proof.
  intros Hs HQ. set (F q := - (s ^ 4 / 2) * ((1 + (q / s) ^ 2) * exp (- (q / s) ^ 2))). replace (s ^ 4 / 2 * (1 - (1 + (Q / s) ^ 2) * exp (- (Q / s) ^ 2))) with (F Q - F 0).
  2:{ unfold F. replace (- (0 / s) ^ 2) with 0 by (field; lra). rewrite exp_0. field. lra. }
  apply (ftc F); [exact HQ| |]; intros q _.
  - unfold F. auto_derive; [repeat split|]. replace (q * / s * (q * / s * 1)) with ((q / s) ^ 2) by (field; lra). generalize (exp (- (q / s) ^ 2)). intros x. field. lra.
  - apply dcont. eexists. auto_derive; [repeat split|reflexivity].
Qed.
Lemma cos_below q : 1 - q ^ 2 / 2 <= cos q.
Proof.
  replace q with (2 * (q / 2)) at 2 by field. rewrite cos_2a_sin. assert (S : Rabs (sin (q / 2)) <= Rabs (q / 2)).
  { destruct (Rle_dec 0 (q / 2)) as [H|H].
    - rewrite (Rabs_right (q / 2)) by lra. destruct (Rle_lt_or_eq_dec _ _ H) as [P|<-]; [|rewrite sin_0, Rabs_R0; lra]. apply Rabs_le. split; [|left; apply sin_lt_x; exact P].
      destruct (Rle_dec (q / 2) PI) as [K|K]; [pose proof (sin_ge_0 (q / 2) H K); lra|]. pose proof (SIN_bound (q / 2)). pose proof PI2_1. lra.
    - rewrite <- (Rabs_Ropp (sin _)), <- sin_neg, <- (Rabs_Ropp (q / 2)). set (x := - (q / 2)) in *. assert (P : 0 < x) by (unfold x; lra). rewrite (Rabs_right x) by lra. apply Rabs_le. split; [|left; apply sin_lt_x; exact P].
      destruct (Rle_dec x PI) as [K|K]; [pose proof (sin_ge_0 x ltac:(lra) K); lra|]. pose proof (SIN_bound x). pose proof PI2_1. lra. }
  apply Rsqr_le_abs_1 in S. unfold Rsqr in S. lra.
Qed.
Lemma sin_below q : 0 <= q -> q - q ^ 3 / 6 <= sin q.
Proof.
  intros Hq. destruct (MVT_gen (fun x => sin x - x + x ^ 3 / 6) 0 q (fun x => cos x - 1 + x ^ 2 / 2)) as (c & Hc & E).
  - intros x _. auto_derive; [exact I|field].
  - intros x _. apply continuity_pt_filterlim. apply (dcont (fun x => sin x - x + x ^ 3 / 6)). eexists. auto_derive; [exact I|reflexivity].
  - rewrite sin_0 in E. pose proof (cos_below c). assert (0 <= (cos c - 1 + c ^ 2 / 2) * (q - 0)) by (apply Rmult_le_pos; lra). lra.
Qed.

(** *** Theorems *)
(** With the structure exponent 2 the two jets inject, with the small-angle form of the solid angle, exactly the asked
    energy (up to the Gaussian and exponential tails).  With the true solid angle they inject less, by at most the fraction
    qj^2 / 6. *)
Theorem jet_energy j Q T : good j -> structure_exponent j = 2 -> 0 <= Q -> 0 <= T ->
  let E := Ej j * (1 - exp (- (Q / qj j) ^ 2)) * (1 - exp (- T / tj j)) in
  energy_with (fun q => q) j Q T E /\ exists E', energy_with sin j Q T E' /\ E * (1 - qj j ^ 2 / 6) <= E' <= E.
Proof.
  intros G HS HQ HT. cbv zeta. pose proof G as (E0 & _ & T0 & Q0 & _). set (s := qj j) in *.
  assert (PW : forall q, 0 < q < Q -> pow0 (q / s) (structure_exponent j) = (q / s) ^ 2) by (intros q Hq; rewrite HS; apply pow0_two; left; apply Rdiv_lt_0_compat; lra).
  assert (X : forall ring A, is_RInt (fun q => exp (- (q / s) ^ 2) * ring q) 0 Q A -> energy_with ring j Q T (Ej j * (2 / s ^ 2 * A) * (1 - exp (- T / tj j)))).
  { intros ring A H. apply energy_from; auto. eapply is_RInt_ext; [|exact H]. intros q Hq. rewrite Rmin_left, Rmax_right in Hq by lra. cbv beta. fold s. rewrite PW by exact Hq. reflexivity. }
  split.
  - replace (Ej j * (1 - exp (- (Q / s) ^ 2))) with (Ej j * (2 / s ^ 2 * (s ^ 2 / 2 * (1 - exp (- (Q / s) ^ 2))))) by (field; lra). apply X. apply gauss_part; assumption.
  - assert (EX : ex_RInt (fun q => exp (- (q / s) ^ 2) * sin q) 0 Q). { apply (ex_RInt_continuous (fun q => exp (- (q / s) ^ 2) * sin q)). intros q _. apply dcont. eexists. auto_derive; [repeat split|reflexivity]. }
    destruct EX as [A HA]. exists (Ej j * (2 / s ^ 2 * A) * (1 - exp (- T / tj j))). split; [apply X; exact HA|].
    pose proof (gauss_part s Q Q0 HQ) as I1. pose proof (gauss_cubic s Q Q0 HQ) as I3. set (g := exp (- (Q / s) ^ 2)) in *. assert (gP : 0 < g) by apply exp_pos.
    assert (ET : 0 <= 1 - exp (- T / tj j)). { assert (exp (- T / tj j) <= 1); [|lra]. rewrite <- exp_0. assert (L : - T / tj j <= 0) by (unfold Rdiv; pose proof (Rinv_0_lt_compat _ T0); nra). destruct L as [L| ->]; [left; apply exp_increasing; exact L|right; reflexivity]. }
    assert (U : A <= s ^ 2 / 2 * (1 - g)).
    { apply (is_RInt_le _ _ 0 Q _ _ HQ HA I1). intros q Hq. apply Rmult_le_compat_l; [left; apply exp_pos|]. left. apply sin_lt_x. lra. }
    assert (L : s ^ 2 / 2 * (1 - g) - / 6 * (s ^ 4 / 2 * (1 - (1 + (Q / s) ^ 2) * g)) <= A).
    { pose proof (is_RInt_minus (V := R_NormedModule) _ _ 0 Q _ _ I1 (is_RInt_scal (V := R_NormedModule) _ 0 Q (/ 6) _ I3)) as I. unfold minus, plus, opp, scal in I. cbn in I. unfold mult in I. cbn in I.
      assert (H : (s * (s * 1) / 2 * (1 - g) + - (/ 6 * (s * (s * (s * (s * 1))) / 2 * (1 - (1 + Q / s * (Q / s * 1)) * g)))) <= A).
      { apply (is_RInt_le _ _ 0 Q _ _ HQ I HA). intros q Hq. pose proof (sin_below q ltac:(lra)) as SB. set (e := exp _). assert (eP : 0 <= e) by (left; apply exp_pos). apply (Rmult_le_compat_l e) in SB; [|exact eP]. eapply Rle_trans; [|exact SB]. right. field. }
      cbn [pow]. lra. }
    assert (L2 : s ^ 2 / 2 * (1 - g) * (1 - s ^ 2 / 6) <= A).
    { assert (0 <= / 6 * (s ^ 4 / 2) * ((Q / s) ^ 2 * g)); [|replace (s ^ 2 / 2 * (1 - g) * (1 - s ^ 2 / 6)) with (s ^ 2 / 2 * (1 - g) - / 6 * (s ^ 4 / 2) * (1 - g)) by field; lra].
      apply Rmult_le_pos; [|apply Rmult_le_pos; [apply pow2_ge_0|lra]]. pose proof (pow_lt s 4 Q0). lra. }
    assert (C : 0 <= 2 / s ^ 2) by (left; apply Rdiv_lt_0_compat; [lra|apply pow_lt; exact Q0]).
    assert (U' : 2 / s ^ 2 * A <= 1 - g) by (replace (1 - g) with (2 / s ^ 2 * (s ^ 2 / 2 * (1 - g))) by (field; lra); apply Rmult_le_compat_l; assumption).
    assert (L' : (1 - g) * (1 - s ^ 2 / 6) <= 2 / s ^ 2 * A) by (replace ((1 - g) * (1 - s ^ 2 / 6)) with (2 / s ^ 2 * (s ^ 2 / 2 * (1 - g) * (1 - s ^ 2 / 6))) by (field; lra); apply Rmult_le_compat_l; assumption).
    split.
    + replace (Ej j * (1 - g) * (1 - exp (- T / tj j)) * (1 - s ^ 2 / 6)) with (Ej j * ((1 - g) * (1 - s ^ 2 / 6)) * (1 - exp (- T / tj j))) by ring. apply Rmult_le_compat_r; [exact ET|]. apply Rmult_le_compat_l; lra.
    + apply Rmult_le_compat_r; [exact ET|]. apply Rmult_le_compat_l; lra.
Qed.
(** The defaults: opening angle 0.1, so the energy is right to 1/600. *)
Example jet_energy_example : good default_jet /\ exists E', energy_with sin default_jet 1 10 E' /\
  (1 - exp (- (100))) * (1 - exp (- (10))) * (1 - / 600) <= E' <= (1 - exp (- (100))) * (1 - exp (- (10))).
Proof.
  assert (G : good default_jet) by (unfold good, default_jet; cbn; lra). split; [exact G|]. destruct (jet_energy default_jet 1 10 G eq_refl ltac:(lra) ltac:(lra)) as (_ & E' & H & B). exists E'. split; [exact H|]. cbn [default_jet Ej qj tj] in B.
  replace (- (1 / (1 / 10)) ^ 2) with (- (100)) in B by field. replace (- (10) / 1) with (- (10)) in B by field. lra.
Qed.

(** The note that other exponents err by about ten percent is not right: with the exponent 1 twice the energy is injected. *)
Theorem jet_energy_exponent_one j Q T : good j -> structure_exponent j = 1 -> 0 <= Q -> 0 <= T ->
  energy_with (fun q => q) j Q T (2 * Ej j * (1 - (1 + Q / qj j) * exp (- (Q / qj j))) * (1 - exp (- T / tj j))).
Proof.
  intros G HS HQ HT. pose proof G as (E0 & _ & T0 & Q0 & _). set (s := qj j) in *. set (A := s ^ 2 * (1 - (1 + Q / s) * exp (- (Q / s)))).
  replace (2 * Ej j * (1 - (1 + Q / s) * exp (- (Q / s)))) with (Ej j * (2 / s ^ 2 * A)) by (unfold A; field; lra). apply energy_from; auto.
  apply (is_RInt_ext (fun q => exp (- (q / s)) * q)). { intros q Hq. rewrite Rmin_left, Rmax_right in Hq by lra. fold s. rewrite HS, pow0_one; [reflexivity|]. left. apply Rdiv_lt_0_compat; lra. }
  set (F q := - s ^ 2 * ((1 + q / s) * exp (- (q / s)))). replace A with (F Q - F 0) by (unfold F, A; replace (0 / s) with 0 by (field; lra); rewrite Ropp_0, exp_0; ring).
  apply (ftc F); [exact HQ| |]; intros q _.
  - unfold F. auto_derive; [repeat split|]. unfold Rdiv. generalize (exp (- (q * / s))). intros x. field. lra.
  - apply dcont. eexists. auto_derive; [repeat split|reflexivity].
Qed.

(** The flow at the base carries that luminosity: density times the square of the four-velocity times r0^2 c^3. *)
Theorem jet_base_carries_luminosity j q t : density_at_base j * gamma_beta j q t ^ 2 * r0 j ^ 2 * light_speed_cgs ^ 3 = luminosity_per_steradian j q t.
Proof.
  unfold luminosity_per_steradian, gamma_beta. set (x := pow0 _ _). replace (- x) with (- (1 / 2) * x + - (1 / 2) * x) by field. replace (- t / tj j) with (- (1 / 2) * t / tj j + - (1 / 2) * t / tj j) by (unfold Rdiv; generalize (/ tj j); intros y; field).
  rewrite !exp_plus. ring.
Qed.
Theorem jet_energy_structure_refuted : let j := Jet 1 2 1 (1 / 10) 1 1 in
  good j /\ exists E, energy_with (fun q => q) j 10 100 E /\ 19 / 10 < E < 2.
Proof.
  cbv zeta. set (j := Jet _ _ _ _ _ _). assert (G : good j) by (unfold good, j; cbn; lra). split; [exact G|]. eexists. split; [apply jet_energy_exponent_one; [exact G|reflexivity|lra|lra]|].
  unfold j. cbn [Ej qj tj]. replace (10 / (1 / 10)) with 100 by field. replace (- (100) / 1) with (- (100)) by field.
  assert (X : 0 < exp (- (100)) < / 30000). { split; [apply exp_pos|]. rewrite exp_Ropp. apply Rinv_lt_contravar; [apply Rmult_lt_0_compat; [lra|apply exp_pos]|].
    replace 100 with (100 / 3 + (100 / 3 + 100 / 3)) by field. rewrite !exp_plus. pose proof (exp_ineq1 (100 / 3) ltac:(lra)) as H. set (e := exp (100 / 3)) in *. assert (34 < e) by lra. assert (34 * 34 < e * e) by nra. nra. }
  nra.
Qed.
Example jet_base_example : gamma_beta default_jet 0 0 = 2 /\ luminosity_per_steradian default_jet 0 0 = 50 / PI.
Proof.
  split.
  - unfold gamma_beta, default_jet. cbn. unfold pow0. destruct (Rlt_dec 0 (0 / (1 / 10))) as [H|_]; [lra|]. replace (- (1 / 2) * 0) with 0 by ring. replace (0 / 1) with 0 by field. rewrite exp_0. ring.
  - rewrite luminosity_form by (unfold good, default_jet; cbn; lra). unfold default_jet. cbn. unfold pow0. destruct (Rlt_dec 0 (0 / (1 / 10))) as [H|_]; [lra|]. rewrite Ropp_0, exp_0. replace (0 / 1) with 0 by field. rewrite ?exp_0. field. apply PI_neq0.
Qed.

Print Assumptions jet_energy.
Print Assumptions jet_energy_exponent_one.
Print Assumptions jet_energy_structure_refuted.
Print Assumptions jet_base_carries_luminosity.
