(** C63: recovery of the primitive state of the relativistic gas. *)
From Coq Require Import List Reals Lra Lia Psatz.
From Verif Require Import Base DimensionalModel HydroModel HlleProofs SrhdProps.
Open Scope R_scope.

(** The tolerance and the cap on the squared speed (physics_srhd.hpp:370 and 397). *)
Definition eps : R := 1e-10.
Lemma eps_range : 0 < eps < 1 / 1000000000.
Proof. unfold eps. lra. Qed.

Definition residual (D tau SS g p : R) : R := snd (fst (newton_residual D tau SS g p)).
Definition slope (D tau SS g p : R) : R := snd (newton_residual D tau SS g p).
Definition trial_lorentz (D tau SS g p : R) : R := fst (fst (newton_residual D tau SS g p)).

Section Residual.
Context (D tau SS g : R).
Hypotheses (HD : 0 < D) (HS : 0 <= SS) (Hg : 1 < g <= 2).
Let E p := tau + D + p.
Let m p := smin (SS / E p ^ 2) (1 - eps).

Lemma m_range p : 0 <= m p < 1.
Proof.
  pose proof eps_range. unfold m, smin. assert (0 <= SS / E p ^ 2).
  { unfold Rdiv. destruct (Req_dec (E p) 0) as [Z|Z]; [rewrite Z; simpl; rewrite Rmult_0_l, Rinv_0; lra|].
    apply Rmult_le_pos; [assumption|]. apply Rlt_le, Rinv_0_lt_compat. nra. }
  destruct (Rlt_dec (1 - eps) (SS / E p ^ 2)); lra.
Qed.
Let q p := sqrt (1 - m p).
Lemma q_range p : 0 < q p <= 1 /\ q p * q p = 1 - m p.
Proof.
  pose proof (m_range p). unfold q. assert (0 < sqrt (1 - m p)) by (apply sqrt_lt_R0; lra).
  assert (sqrt (1 - m p) * sqrt (1 - m p) = 1 - m p) by (apply sqrt_sqrt; lra). split; [split|]; try assumption. nra.
Qed.

Lemma trial_form p : trial_lorentz D tau SS g p = / q p.
Proof.
  unfold trial_lorentz, newton_residual. cbn [fst snd]. fold eps. fold (E p). fold (m p). pose proof (m_range p).
  unfold q. rewrite <- sqrt_inv. f_equal. field. lra.
Qed.
Lemma residual_form p : residual D tau SS g p = (g - 1) * (E p * (1 - m p) - D * q p - p) - p.
Proof.
  unfold residual, newton_residual. cbn [fst snd]. fold eps. fold (E p). fold (m p). pose proof (m_range p). pose proof (q_range p) as [[Q1 Q2] Q3].
  replace (sqrt (1 / (1 - m p))) with (/ q p) by (unfold q; rewrite <- sqrt_inv; f_equal; field; lra).
  rewrite <- Q3. unfold E. field. repeat split; lra.
Qed.
Lemma slope_form p : 0 < E p -> slope D tau SS g p = m p * (g * p / (E p * (1 - m p))) - 1.
Proof.
  intros HE. unfold slope, newton_residual. cbn [fst snd]. fold eps. fold (E p). fold (m p). pose proof (m_range p). pose proof (q_range p) as [[Q1 Q2] Q3].
  replace (sqrt (1 / (1 - m p))) with (/ q p) by (unfold q; rewrite <- sqrt_inv; f_equal; field; lra).
  do 3 f_equal. rewrite <- Q3. unfold E. field. repeat split; lra.
Qed.

(** E m(E) grows no faster downwards than E itself. *)
Lemma momentum_slope p p' : 0 < E p -> p <= p' -> E p * m p - E p' * m p' <= p' - p /\ m p' <= m p.
Proof.
  intros HE HP. pose proof eps_range as HEps. assert (HE' : E p <= E p') by (unfold E; lra). assert (HD' : p' - p = E p' - E p) by (unfold E; ring). rewrite HD'. clear HD' HP.
  unfold m. revert HE HE'. generalize (E p) (E p'). intros a b Ha Hab. set (c := 1 - eps) in *. assert (Hc : 0 < c < 1) by (unfold c; lra).
  assert (M : forall x, 0 < x -> x * (SS / x ^ 2) = SS / x) by (intros; field; lra).
  assert (I : / b <= / a) by (apply Rinv_le_contravar; lra).
  assert (I2 : SS / b ^ 2 <= SS / a ^ 2).
  { unfold Rdiv. apply Rmult_le_compat_l; [assumption|]. apply Rinv_le_contravar; [nra|]. nra. }
  unfold smin. destruct (Rlt_dec c (SS / a ^ 2)) as [X|X], (Rlt_dec c (SS / b ^ 2)) as [Y|Y]; try lra.
  - split; [|lra]. nra.
  - split; [|lra]. rewrite (M b) by lra.
    assert (X' : c * (a * a) < SS). { apply (Rmult_lt_compat_r (a * a)) in X; [|nra]. replace (SS / a ^ 2 * (a * a)) with SS in X by (field; lra). exact X. }
    assert (Z : c * (a * a) / b <= SS / b) by (unfold Rdiv; apply Rmult_le_compat_r; [apply Rlt_le, Rinv_0_lt_compat; lra|lra]).
    assert (W : a * c - c * (a * a) / b = c * (a / b) * (b - a)) by (field; lra).
    assert (a / b <= 1) by (apply (Rmult_le_reg_r b); [lra|]; replace (a / b * b) with a by (field; lra); lra).
    assert (0 < a / b) by (apply Rdiv_lt_0_compat; lra). assert (c * (a / b) <= 1) by nra.
    assert (c * (a / b) * (b - a) <= 1 * (b - a)) by (apply Rmult_le_compat_r; lra). lra.
  - split; [|assumption]. rewrite (M a), (M b) by lra.
    assert (X' : SS <= c * (a * a)). { apply Rnot_lt_le in X. apply (Rmult_le_compat_r (a * a)) in X; [|nra]. replace (SS / a ^ 2 * (a * a)) with SS in X by (field; lra). exact X. }
    assert (W : SS / a - SS / b = SS / (a * b) * (b - a)) by (field; lra). rewrite W.
    assert (SS / (a * b) <= 1).
    { apply (Rmult_le_reg_r (a * b)); [nra|]. replace (SS / (a * b) * (a * b)) with SS by (field; lra). nra. }
    assert (SS / (a * b) * (b - a) <= 1 * (b - a)) by (apply Rmult_le_compat_r; lra). lra.
Qed.

(** The residual falls at a rate of at least 2 - g everywhere, cap or no cap. *)
Theorem residual_decreases p p' : 0 < tau + D + p -> p <= p' -> (2 - g) * (p' - p) <= residual D tau SS g p - residual D tau SS g p'.
Proof.
  intros HE HP. rewrite !residual_form. destruct (momentum_slope p p' HE HP) as [A B].
  assert (Q : q p <= q p') by (apply sqrt_le_1_alt; lra).
  assert (D * q p <= D * q p') by (apply Rmult_le_compat_l; lra).
  assert (Z : E p' * (1 - m p') - D * q p' - p' - (E p * (1 - m p) - D * q p - p) <= p' - p) by (unfold E in *; lra).
  assert ((g - 1) * (E p' * (1 - m p') - D * q p' - p' - (E p * (1 - m p) - D * q p - p)) <= (g - 1) * (p' - p)) by (apply Rmult_le_compat_l; lra).
  lra.
Qed.
(** A trial pressure at which the loop stops leaves the total energy density positive. *)
Lemma stop_positive p : 0 <= tau -> eps <= tau + D -> Rabs (residual D tau SS g p) < eps -> 0 < E p.
Proof.
  intros HT HTD HR. apply Rnot_le_lt. intros HE. rewrite residual_form in HR. pose proof (m_range p) as M. pose proof (q_range p) as [[Q1 Q2] _].
  apply Rabs_def2 in HR. destruct HR as [HR _].
  assert (X : 0 <= - E p * m p) by (apply Rmult_le_pos; lra). assert (D * q p <= D * 1) by (apply Rmult_le_compat_l; lra).
  assert (Y : E p * (1 - m p) - D * q p - p = - E p * m p - D * q p + (tau + D)) by (unfold E; ring).
  assert (0 <= (g - 1) * (E p * (1 - m p) - D * q p - p)) by (apply Rmult_le_pos; lra). unfold E in *. lra.
Qed.

(** Two trial pressures: densities and enthalpies differ by no more than twice the difference. *)
Lemma trial_density p p' : 0 < E p -> p <= p' -> (D <= E p * q p \/ D <= E p' * q p') -> 0 <= D * q p' - D * q p <= 2 * (p' - p).
Proof.
  intros HE HP C. destruct (momentum_slope p p' HE HP) as [A B]. pose proof (m_range p) as M1. pose proof (m_range p') as M2.
  pose proof (q_range p) as [[Q1 Q2] Q3]. pose proof (q_range p') as [[Q1' Q2'] Q3'].
  assert (Q : q p <= q p') by (apply sqrt_le_1_alt; lra). assert (HE' : E p' = E p + (p' - p)) by (unfold E; ring).
  split; [assert (D * q p <= D * q p') by (apply Rmult_le_compat_l; lra); lra|].
  assert (F : (q p' - q p) * (q p' + q p) = m p - m p') by lra.
  destruct C as [C|C].
  - assert (D * (q p' - q p) <= E p * q p * (q p' - q p)) by (apply Rmult_le_compat_r; lra).
    assert (q p * (q p' - q p) <= (q p' - q p) * (q p' + q p)) by nra.
    assert (E p * (q p * (q p' - q p)) <= E p * (m p - m p')) by (apply Rmult_le_compat_l; lra).
    assert ((p' - p) * m p' <= (p' - p) * 1) by (apply Rmult_le_compat_l; lra). nra.
  - assert (D * (q p' - q p) <= E p' * q p' * (q p' - q p)) by (apply Rmult_le_compat_r; lra).
    assert (q p' * (q p' - q p) <= (q p' - q p) * (q p' + q p)) by nra.
    assert (E p' * (q p' * (q p' - q p)) <= E p' * (m p - m p')) by (apply Rmult_le_compat_l; lra).
    assert ((p' - p) * m p <= (p' - p) * 1) by (apply Rmult_le_compat_l; lra). nra.
Qed.
Lemma trial_enthalpy p p' : 0 < E p -> p <= p' -> 0 <= E p' * (1 - m p') - E p * (1 - m p) <= 2 * (p' - p).
Proof.
  intros HE HP. destruct (momentum_slope p p' HE HP) as [A B]. pose proof (m_range p) as M1. pose proof (m_range p') as M2.
  assert (HE' : E p' = E p + (p' - p)) by (unfold E; ring). split; [|lra].
  assert (E p * (1 - m p) <= E p * (1 - m p')) by (apply Rmult_le_compat_l; lra). assert (0 <= (p' - p) * (1 - m p')) by (apply Rmult_le_pos; lra). rewrite HE'. lra.
Qed.
(** The Newton slope is bounded away from zero unless the gas is extremely dilute. *)
Lemma slope_bound p : 0 < E p -> g < 2 -> Rabs (residual D tau SS g p) < eps -> 2 * eps / (2 - g) <= E p * (1 - m p) -> slope D tau SS g p <= - (2 - g) / 2.
Proof.
  intros HE Hg2 HR HH. rewrite slope_form by assumption. rewrite residual_form in HR. apply Rabs_def2 in HR. destruct HR as [HR1 HR2].
  pose proof (m_range p) as M. pose proof (q_range p) as [[Q1 Q2] _]. pose proof eps_range.
  set (K := E p * (1 - m p)) in *. assert (HK : 0 < K) by (apply Rmult_lt_0_compat; lra).
  assert (Hp : g * p <= (g - 1) * K + eps). { assert (0 <= (g - 1) * (D * q p)) by (apply Rmult_le_pos; [lra|nra]). lra. }
  assert (HE1 : eps <= (2 - g) / 2 * K). { apply (Rmult_le_compat_l ((2 - g) / 2)) in HH; [|lra]. replace ((2 - g) / 2 * (2 * eps / (2 - g))) with eps in HH by (field; lra). exact HH. }
  assert (X : g * p / K <= g - 1 + (2 - g) / 2).
  { apply (Rmult_le_reg_r K); [exact HK|]. replace (g * p / K * K) with (g * p) by (field; lra). lra. }
  assert (m p * (g * p / K) <= g - 1 + (2 - g) / 2).
  { destruct (Rle_dec 0 (g * p / K)) as [Y|Y]; [|assert (m p * (g * p / K) <= 0) by nra; lra]. assert (m p * (g * p / K) <= 1 * (g * p / K)) by (apply Rmult_le_compat_r; lra). lra. }
  lra.
Qed.
End Residual.

(** Invariants of the conserved state of a physical gas. *)
Section State.
Context (P : prim) (g : R).
Hypotheses (HP : relativistic P g).
Let W := lorentz_factor P.
Let H := enthalpy_density P g.
Let U := srhd_conserved P g.
Definition momentum_squared (U : v5) : R := c1 U * c1 U + c2 U * c2 U + c3 U * c3 U.

Lemma momentum_squared_nonneg V : 0 <= momentum_squared V.
Proof. unfold momentum_squared. nra. Qed.
Lemma state_facts : 1 <= W /\ W * W = 1 + gamma_beta_squared P /\ H = rho P + pre P * (g / (g - 1)) /\ 0 < H /\
  c0 U = rho P * W /\ c4 U + c0 U + pre P = H * (W * W) /\ momentum_squared U = (H * W) * (H * W) * (W * W - 1) /\ 0 <= c4 U.
Proof.
  destruct HP as (Hr & Hp & Hg1 & Hg2).
  assert (HU : 0 <= gamma_beta_squared P) by (unfold gamma_beta_squared; nra).
  assert (WW : W * W = 1 + gamma_beta_squared P) by (apply sqrt_sqrt; lra).
  assert (W1 : 1 <= W) by (unfold W, lorentz_factor; rewrite <- sqrt_1 at 1; apply sqrt_le_1_alt; lra).
  assert (HE : H = rho P + pre P * (g / (g - 1))) by (unfold H, enthalpy_density; field; lra).
  assert (G1 : 1 < g / (g - 1)). { apply (Rmult_lt_reg_r (g - 1)); [lra|]. replace (g / (g - 1) * (g - 1)) with g by (field; lra). lra. }
  assert (H0 : rho P + pre P < H) by (rewrite HE; nra).
  split; [exact W1|]. split; [exact WW|]. split; [exact HE|]. split; [lra|].
  unfold U, srhd_conserved, momentum_squared. fold W. cbn [c0 c1 c2 c3 c4]. unfold specific_enthalpy. fold H.
  split; [reflexivity|]. split; [field; lra|]. split.
  - rewrite WW. unfold gamma_beta_squared. field. lra.
  - replace (rho P * W * (H / rho P) * W - pre P - rho P * W) with (H * (W * W) - pre P - rho P * W) by (field; lra).
    assert (W2 : W * 1 <= W * W) by (apply Rmult_le_compat_l; lra).
    assert (rho P * W <= rho P * (W * W)) by (apply Rmult_le_compat_l; lra). assert (pre P * 1 <= pre P * (W * W)) by (apply Rmult_le_compat_l; lra).
    assert ((rho P + pre P) * (W * W) <= H * (W * W)) by (apply Rmult_le_compat_r; lra). lra.
Qed.

Definition recoverable : Prop := W * W * eps <= 1.

(** The true pressure is a zero of the residual, and the trial Lorentz factor there is the true one. *)
Lemma true_m : recoverable -> smin (momentum_squared U / (c4 U + c0 U + pre P) ^ 2) (1 - eps) = 1 - 1 / (W * W).
Proof.
  intros C. unfold recoverable in C. destruct state_facts as (W1 & WW & HE & H0 & D0 & T0 & S0 & _). rewrite T0, S0.
  replace (H * W * (H * W) * (W * W - 1) / (H * (W * W)) ^ 2) with (1 - 1 / (W * W)) by (field; split; lra).
  assert (eps <= 1 / (W * W)). { apply (Rmult_le_reg_r (W * W)); [nra|]. replace (1 / (W * W) * (W * W)) with 1 by (field; lra). lra. }
  unfold smin. destruct (Rlt_dec (1 - eps) (1 - 1 / (W * W))); lra.
Qed.
Lemma true_q : sqrt (1 - (1 - 1 / (W * W))) = / W.
Proof.
  destruct state_facts as (W1 & _). replace (1 - (1 - 1 / (W * W))) with ((/ W) * (/ W)) by (field; lra). apply sqrt_square. apply Rlt_le, Rinv_0_lt_compat. lra.
Qed.
Theorem true_pressure_is_root : recoverable ->
  residual (c0 U) (c4 U) (momentum_squared U) g (pre P) = 0 /\ trial_lorentz (c0 U) (c4 U) (momentum_squared U) g (pre P) = W.
Proof.
  intros C. destruct state_facts as (W1 & WW & HE & H0 & D0 & T0 & S0 & _). destruct HP as (Hr & Hp & Hg1 & Hg2).
  assert (0 < c0 U) by (rewrite D0; apply Rmult_lt_0_compat; lra). pose proof (momentum_squared_nonneg U).
  rewrite residual_form, trial_form by (try assumption; lra). rewrite (true_m C), true_q. split.
  - rewrite T0, D0, HE. field. lra.
  - field. lra.
Qed.
(** It is the only one. *)
Theorem root_unique p : recoverable -> g < 2 -> 0 < c4 U + c0 U + p -> residual (c0 U) (c4 U) (momentum_squared U) g p = 0 -> p = pre P.
Proof.
  intros C Hg HE HZ. destruct (true_pressure_is_root C) as [Z _]. destruct state_facts as (W1 & WW & HH & H0 & D0 & T0 & S0 & _). destruct HP as (Hr & Hp & Hg1 & Hg2).
  assert (0 < c0 U) by (rewrite D0; apply Rmult_lt_0_compat; lra). pose proof (momentum_squared_nonneg U).
  destruct (Rtotal_order p (pre P)) as [L|[L|L]]; [|exact L|]; exfalso.
  - pose proof (residual_decreases (c0 U) (c4 U) (momentum_squared U) g ltac:(assumption) ltac:(assumption) ltac:(lra) p (pre P) HE ltac:(lra)). nra.
  - pose proof (residual_decreases (c0 U) (c4 U) (momentum_squared U) g ltac:(assumption) ltac:(assumption) ltac:(lra) (pre P) p ltac:(rewrite T0; apply Rmult_lt_0_compat; nra) ltac:(lra)). nra.
Qed.
End State.

(** How the loop ends. *)
Lemma newton_step k D tau SS g p : newton (S k) D tau SS g p =
  if Rlt_dec (Rabs (residual D tau SS g p)) eps then Some (trial_lorentz D tau SS g p, p - residual D tau SS g p / slope D tau SS g p)
  else newton k D tau SS g (p - residual D tau SS g p / slope D tau SS g p).
Proof. unfold residual, slope, trial_lorentz. cbn [newton]. destruct (newton_residual D tau SS g p) as [[W f] s]. reflexivity. Qed.
Lemma newton_exit k D tau SS g : forall p W p', newton k D tau SS g p = Some (W, p') ->
  exists x, Rabs (residual D tau SS g x) < eps /\ W = trial_lorentz D tau SS g x /\ p' = x - residual D tau SS g x / slope D tau SS g x.
Proof.
  induction k as [|k IH]; intros p W p' HN; [discriminate|]. cbn [newton] in HN.
  unfold residual, slope, trial_lorentz in *. destruct (newton_residual D tau SS g p) as [[W1 f] s] eqn:EN. cbv beta iota zeta in HN.
  destruct (Rlt_dec (Rabs f) 1e-10) as [C|C]; [|exact (IH _ _ _ HN)]. exists p. rewrite EN. cbn [fst snd].
  assert (W1 = W /\ p - f / s = p') as [-> <-] by (split; congruence). auto.
Qed.

(** Whatever the loop returns for a physical gas is that gas, to the tolerance: with no
    temperature floor, the density, the pressure and the direction of motion are those of the
    state the conserved densities came from. *)
Theorem recover_accurate P g floor Q : relativistic P g -> g < 2 -> recoverable P -> 4 * eps / (2 - g) <= enthalpy_density P g -> floor <= 0 ->
  srhd_recover (srhd_conserved P g) g floor = Ok Q ->
  Rabs (rho Q - rho P) <= 2 * eps / (2 - g) /\ Rabs (pre Q - pre P) <= 3 * eps / (2 - g) /\ 0 < rho Q /\ 0 < pre Q /\
  exists lambda, 0 < lambda /\ u1 Q = lambda * u1 P /\ u2 Q = lambda * u2 P /\ u3 Q = lambda * u3 P.
Proof.
  intros HP Hg HC HH HF HR. destruct (true_pressure_is_root P g HP HC) as [Z _]. pose proof (true_m P g HP HC) as TM. pose proof (true_q P g HP) as TQ.
  destruct (state_facts P g HP) as (W1 & WW & HE & H0 & D0 & T0 & S0 & TAU). pose proof (momentum_squared_nonneg (srhd_conserved P g)) as SN.
  pose proof eps_range as EP. assert (HP' := HP). destruct HP' as (Hr & Hp & Hg1 & Hg2).
  set (U := srhd_conserved P g) in *. unfold srhd_recover in HR. fold (momentum_squared U) in HR.
  destruct (newton 50 (c0 U) (c4 U) (momentum_squared U) g 0) as [[W0 pq]|] eqn:EN; [|discriminate].
  destruct (newton_exit _ _ _ _ _ _ _ _ EN) as (x & X1 & X2 & X3). destruct (Rlt_dec 0 floor) as [?|_]; [lra|].
  set (W := lorentz_factor P) in *. set (H := enthalpy_density P g) in *. set (D := c0 U) in *. set (tau := c4 U) in *. set (SS := momentum_squared U) in *.
  assert (HD : 0 < D) by (rewrite D0; apply Rmult_lt_0_compat; lra).
  assert (W2 : W * 1 <= W * W) by (apply Rmult_le_compat_l; lra). assert (HW : H * 1 <= H * (W * W)) by (apply Rmult_le_compat_l; lra).
  assert (E2 : 2 * eps <= 2 * eps / (2 - g)). { apply (Rmult_le_reg_r (2 - g)); [lra|]. replace (2 * eps / (2 - g) * (2 - g)) with (2 * eps) by (field; lra). nra. }
  assert (G2 : 2 <= g / (g - 1)). { apply (Rmult_le_reg_r (g - 1)); [lra|]. replace (g / (g - 1) * (g - 1)) with g by (field; lra). lra. }
  assert (HPR : rho P + 2 * pre P <= H). { rewrite HE. nra. }
  assert (E4 : 4 * eps / (2 - g) = 2 * (2 * eps / (2 - g))) by (field; lra). assert (E1 : eps / (2 - g) = / 2 * (2 * eps / (2 - g))) by (field; lra).
  assert (HT : eps <= tau + D) by lra.
  pose proof (stop_positive D tau SS g HD SN ltac:(lra) x TAU HT X1) as EX. cbv beta in EX.
  assert (EPP : 0 < tau + D + pre P) by (rewrite T0; lra).
  assert (DX : Rabs (x - pre P) <= eps / (2 - g)).
  { apply Rabs_def2 in X1. destruct X1 as [X1 X1']. apply (Rmult_le_reg_r (2 - g)); [lra|]. replace (eps / (2 - g) * (2 - g)) with eps by (field; lra). rewrite <- (Rabs_right (2 - g)) by lra. rewrite <- Rabs_mult.
    destruct (Rle_dec x (pre P)) as [L|L].
    - pose proof (residual_decreases D tau SS g HD SN ltac:(lra) x (pre P) EX L). apply Rabs_le. nra.
    - pose proof (residual_decreases D tau SS g HD SN ltac:(lra) (pre P) x EPP ltac:(lra)). apply Rabs_le. nra. }
  assert (RP : rho P = D * sqrt (1 - smin (SS / (tau + D + pre P) ^ 2) (1 - eps))) by (rewrite TM, TQ, D0; field; lra).
  assert (DE : D <= (tau + D + pre P) * sqrt (1 - smin (SS / (tau + D + pre P) ^ 2) (1 - eps))).
  { rewrite TM, TQ, T0, D0. replace (H * (W * W) * / W) with (H * W) by (field; lra). apply Rmult_le_compat_r; lra. }
  assert (KP : (tau + D + pre P) * (1 - smin (SS / (tau + D + pre P) ^ 2) (1 - eps)) = H) by (rewrite TM, T0; field; lra).
  rewrite trial_form in X2 by (try assumption; lra). pose proof (q_range D tau SS SN x) as [[QX1 QX2] _]. cbv beta in QX1, QX2.
  assert (RX : D / W0 = D * sqrt (1 - smin (SS / (tau + D + x) ^ 2) (1 - eps))) by (rewrite X2; field; lra).
  assert (WP : 0 < W0) by (rewrite X2; apply Rinv_0_lt_compat; assumption).
  assert (AD : Rabs (D / W0 - rho P) <= 2 * eps / (2 - g) /\ 2 * eps / (2 - g) <= (tau + D + x) * (1 - smin (SS / (tau + D + x) ^ 2) (1 - eps))).
  { rewrite RX, RP. apply Rabs_def2 in X1. destruct (Rle_dec x (pre P)) as [L|L].
    - rewrite Rabs_left1 in DX by lra. pose proof (trial_density D tau SS HD SN x (pre P) EX L ltac:(right; exact DE)) as TD.
      pose proof (trial_enthalpy D tau SS SN x (pre P) EX L) as TE. cbv beta in TD, TE. split; [apply Rabs_le|]; lra.
    - rewrite Rabs_right in DX by lra. pose proof (trial_density D tau SS HD SN (pre P) x EPP ltac:(lra) ltac:(left; exact DE)) as TD.
      pose proof (trial_enthalpy D tau SS SN (pre P) x EPP ltac:(lra)) as TE. cbv beta in TD, TE. split; [apply Rabs_le|]; lra. }
  destruct AD as [AD AK]. pose proof (slope_bound D tau SS g HD SN ltac:(lra) x EX Hg X1 AK) as SB.
  assert (AP : Rabs (pq - pre P) <= 3 * eps / (2 - g)).
  { rewrite X3. replace (x - residual D tau SS g x / slope D tau SS g x - pre P) with ((x - pre P) + (- (residual D tau SS g x / slope D tau SS g x))) by ring.
    eapply Rle_trans; [apply Rabs_triang|]. rewrite Rabs_Ropp. unfold Rdiv at 1. rewrite Rabs_mult, Rabs_inv, (Rabs_left (slope D tau SS g x)) by lra.
    assert (/ - slope D tau SS g x <= 2 / (2 - g)). { replace (2 / (2 - g)) with (/ ((2 - g) / 2)) by (field; lra). apply Rinv_le_contravar; lra. }
    assert (0 < / - slope D tau SS g x) by (apply Rinv_0_lt_compat; lra).
    assert (Rabs (residual D tau SS g x) * / - slope D tau SS g x <= eps * (2 / (2 - g))) by (apply Rmult_le_compat; try lra; apply Rabs_pos).
    replace (3 * eps / (2 - g)) with (eps / (2 - g) + eps * (2 / (2 - g))) by (field; lra). lra. }
  cbn [rho pre u1 u2 u3] in HR. destruct (Rle_dec (D / W0) 0) as [?|N1]; [discriminate|]. destruct (Rle_dec pq 0) as [?|N2]; [discriminate|].
  assert (HQ : Prim (D / W0) (W0 * c1 U / (tau + D + pq)) (W0 * c2 U / (tau + D + pq)) (W0 * c3 U / (tau + D + pq)) pq = Q) by congruence. subst Q. cbn [rho pre u1 u2 u3].
  split; [exact AD|]. split; [exact AP|]. split; [lra|]. split; [lra|]. exists (W0 * (H * W) / (tau + D + pq)).
  assert (MU : c1 U = H * W * u1 P /\ c2 U = H * W * u2 P /\ c3 U = H * W * u3 P).
  { unfold U, srhd_conserved, specific_enthalpy. cbn [c1 c2 c3]. fold W H. repeat split; field; lra. }
  destruct MU as (-> & -> & ->). assert (0 < tau + D + pq) by lra. split; [|repeat split; field; lra].
  apply Rmult_lt_0_compat; [repeat apply Rmult_lt_0_compat; lra|apply Rinv_0_lt_compat; lra].
Qed.

(** A gas at rest is recovered exactly, whatever its density and pressure, in at most two steps. *)
Theorem recover_static_exact P g floor : relativistic P g -> u1 P = 0 -> u2 P = 0 -> u3 P = 0 -> floor <= 0 ->
  srhd_recover (srhd_conserved P g) g floor = Ok P.
Proof.
  intros HP H1 H2 H3 HF. assert (HP' := HP). destruct HP' as (Hr & Hp & Hg1 & Hg2). destruct P as [r a b c p]. cbn [rho u1 u2 u3 pre] in *. subst a b c.
  assert (HW : lorentz_factor (Prim r 0 0 0 p) = 1). { unfold lorentz_factor, gamma_beta_squared. cbn [u1 u2 u3]. replace (1 + (0 * 0 + 0 * 0 + 0 * 0)) with 1 by ring. apply sqrt_1. }
  destruct (state_facts _ g HP) as (_ & _ & HE & H0 & D0 & T0 & S0 & _). cbn [rho pre] in *. rewrite HW in *.
  set (U := srhd_conserved (Prim r 0 0 0 p) g) in *.
  assert (SN : momentum_squared U = 0) by (rewrite S0; ring). assert (HD : c0 U = r) by lra.
  assert (HT : c4 U = p / (g - 1)). { replace (c4 U) with (enthalpy_density (Prim r 0 0 0 p) g - r - p) by lra. rewrite HE. field. lra. }
  assert (MS : forall x, smin (0 / (p / (g - 1) + r + x) ^ 2) (1 - 1e-10) = 0). { intros x. unfold Rdiv at 1. rewrite Rmult_0_l. unfold smin. destruct (Rlt_dec (1 - 1e-10) 0); lra. }
  assert (NR : forall x, newton_residual r (p / (g - 1)) 0 g x = (1, p - x, -1)).
  { intros x. unfold newton_residual. rewrite MS. replace (1 / (1 - 0)) with 1 by field. rewrite sqrt_1. f_equal; [f_equal|]; [|ring]. field. lra. }
  assert (NW : newton 50 r (p / (g - 1)) 0 g 0 = Some (1, p)).
  { change 50%nat with (S (S 48)). cbn [newton]. rewrite NR. cbv beta iota zeta. replace (0 - (p - 0) / -1) with p by field.
    destruct (Rlt_dec (Rabs (p - 0)) 1e-10); [reflexivity|]. rewrite NR. cbv beta iota zeta. replace (p - (p - p) / -1) with p by field.
    destruct (Rlt_dec (Rabs (p - p)) 1e-10) as [|N]; [reflexivity|]. exfalso. apply N. replace (p - p) with 0 by ring. rewrite Rabs_R0. lra. }
  assert (CU : c1 U = 0 /\ c2 U = 0 /\ c3 U = 0). { unfold U, srhd_conserved. cbn [c1 c2 c3 u1 u2 u3]. repeat split; ring. } destruct CU as (C1 & C2 & C3).
  unfold srhd_recover. fold (momentum_squared U). rewrite SN, HD, HT, NW. destruct (Rlt_dec 0 floor) as [?|_]; [lra|]. rewrite C1, C2, C3. cbv zeta. cbn [rho pre].
  replace (r / 1) with r by field. destruct (Rle_dec r 0) as [?|_]; [lra|]. destruct (Rle_dec p 0) as [?|_]; [lra|]. do 2 f_equal; unfold Rdiv; rewrite Rmult_0_r; apply Rmult_0_l.
Qed.

(** Whatever conserved state is given, physical or not: a result has positive density, positive
    pressure not below the floor temperature, and moves along the momentum. *)
Theorem recover_sound U g floor Q : srhd_recover U g floor = Ok Q ->
  0 < rho Q /\ 0 < pre Q /\ (0 < floor -> floor * rho Q <= pre Q) /\
  exists lambda, u1 Q = lambda * c1 U /\ u2 Q = lambda * c2 U /\ u3 Q = lambda * c3 U.
Proof.
  unfold srhd_recover. intros HR. destruct (newton _ _ _ _ _ _) as [[W0 p]|]; [|discriminate]. cbv zeta in HR. cbn [rho pre] in HR.
  set (p' := if Rlt_dec 0 floor then smax p (floor * c0 U / W0) else p) in *.
  destruct (Rle_dec (c0 U / W0) 0) as [?|N1]; [discriminate|]. destruct (Rle_dec p' 0) as [?|N2]; [discriminate|].
  match type of HR with Ok ?X = Ok Q => assert (HQ : X = Q) by congruence end. subst Q. cbn [rho pre u1 u2 u3].
  split; [lra|]. split; [lra|]. split.
  - intros HF. unfold p'. destruct (Rlt_dec 0 floor) as [_|?]; [|lra]. unfold smax. replace (floor * c0 U / W0) with (floor * (c0 U / W0)) by (unfold Rdiv; ring).
    destruct (Rlt_dec p (floor * (c0 U / W0))); lra.
  - exists (W0 / (c4 U + c0 U + p')). unfold Rdiv. repeat split; ring.
Qed.

(** The cap on the squared speed: no result has a density below D / 10^5, so a gas with a
    Lorentz factor above 10^5 is never recovered; its density comes out too large. *)
Theorem recover_lorentz_cap P g floor Q : relativistic P g -> srhd_recover (srhd_conserved P g) g floor = Ok Q ->
  lorentz_factor P / 100000 * rho P <= rho Q.
Proof.
  intros HP HR. destruct (state_facts P g HP) as (W1 & WW & HE & H0 & D0 & T0 & S0 & TAU). assert (HP' := HP). destruct HP' as (Hr & Hp & Hg1 & Hg2).
  set (U := srhd_conserved P g) in *. unfold srhd_recover in HR. fold (momentum_squared U) in HR. pose proof (momentum_squared_nonneg U) as SN.
  destruct (newton 50 (c0 U) (c4 U) (momentum_squared U) g 0) as [[W0 p]|] eqn:EN; [|discriminate]. destruct (newton_exit _ _ _ _ _ _ _ _ EN) as (x & _ & X2 & _).
  cbv zeta in HR. cbn [rho pre] in HR. destruct (Rle_dec (c0 U / W0) 0) as [?|N1]; [discriminate|].
  match type of HR with (if Rle_dec ?y 0 then _ else _) = _ => destruct (Rle_dec y 0) as [?|N2]; [discriminate|] end.
  match type of HR with Ok ?X = Ok Q => assert (HQ : X = Q) by congruence end. subst Q. cbn [rho].
  rewrite trial_form in X2 by (try assumption; lra).
  pose proof (q_range (c0 U) (c4 U) (momentum_squared U) SN x) as [[Q1 Q2] Q3]. cbv beta in Q1, Q2, Q3.
  set (q := sqrt _) in *. set (m := smin _ _) in *.
  assert (M : m <= 1 - eps). { unfold m, smin. match goal with |- (if ?c then _ else _) <= _ => destruct c end; [apply Rle_refl|apply Rnot_lt_le; assumption]. } clearbody m q.
  assert (QE : / 100000 <= q). { apply Rnot_lt_le. intros L. assert (q * q < / 100000 * / 100000) by (apply Rmult_gt_0_lt_compat; lra). unfold eps in M. lra. }
  rewrite X2. replace (c0 U / / q) with (c0 U * q) by (field; lra). rewrite D0.
  replace (lorentz_factor P / 100000 * rho P) with (rho P * lorentz_factor P * / 100000) by (unfold Rdiv; ring). apply Rmult_le_compat_l; [apply Rmult_le_pos; lra|exact QE].
Qed.

(** One step is all that is taken when the residual at zero pressure is already below 1e-10. *)
Lemma first_guess U g q : 0 < c0 U -> 0 < c4 U + c0 U -> 1 < g <= 2 -> 0 < q <= 1 -> eps <= q * q -> momentum_squared U = (c4 U + c0 U) ^ 2 * (1 - q * q) ->
  0 < (g - 1) * ((c4 U + c0 U) * (q * q) - c0 U * q) < eps ->
  srhd_recover U g 0 = let p := (g - 1) * ((c4 U + c0 U) * (q * q) - c0 U * q) in
    Ok (Prim (c0 U * q) (/ q * c1 U / (c4 U + c0 U + p)) (/ q * c2 U / (c4 U + c0 U + p)) (/ q * c3 U / (c4 U + c0 U + p)) p).
Proof.
  intros HD HT Hg Hq Hqe HS Hp. pose proof (momentum_squared_nonneg U) as SN. unfold srhd_recover. fold (momentum_squared U).
  assert (MS : smin (momentum_squared U / (c4 U + c0 U + 0) ^ 2) (1 - eps) = 1 - q * q).
  { rewrite HS, Rplus_0_r. replace ((c4 U + c0 U) ^ 2 * (1 - q * q) / (c4 U + c0 U) ^ 2) with (1 - q * q) by (field; lra). unfold smin. destruct (Rlt_dec _ _); lra. }
  assert (SQ : sqrt (1 - (1 - q * q)) = q) by (replace (1 - (1 - q * q)) with (q * q) by ring; apply sqrt_square; lra).
  pose proof (residual_form (c0 U) (c4 U) (momentum_squared U) g HD SN 0) as RF. pose proof (trial_form (c0 U) (c4 U) (momentum_squared U) g SN 0) as TF.
  pose proof (slope_form (c0 U) (c4 U) (momentum_squared U) g HD SN 0 ltac:(lra)) as SF. cbv beta in RF, TF, SF. rewrite MS in RF, TF, SF. rewrite SQ in RF, TF.
  set (p := (g - 1) * ((c4 U + c0 U) * (q * q) - c0 U * q)) in *. assert (RF' : residual (c0 U) (c4 U) (momentum_squared U) g 0 = p) by (rewrite RF; unfold p; ring).
  assert (SF' : slope (c0 U) (c4 U) (momentum_squared U) g 0 = -1) by (rewrite SF; unfold Rdiv; ring).
  assert (NW : newton 50 (c0 U) (c4 U) (momentum_squared U) g 0 = Some (/ q, p)).
  { change 50%nat with (S 49). rewrite newton_step, RF', SF', TF. destruct (Rlt_dec (Rabs p) eps) as [_|N]; [|exfalso; apply N; rewrite Rabs_right; lra].
    f_equal. f_equal. field. }
  rewrite NW. destruct (Rlt_dec 0 0) as [?|_]; [lra|]. cbv zeta. cbn [rho pre].
  replace (c0 U / / q) with (c0 U * q) by (field; lra).
  assert (0 < c0 U * q) by (apply Rmult_lt_0_compat; lra). destruct (Rle_dec (c0 U * q) 0) as [?|_]; [lra|]. destruct (Rle_dec p 0) as [?|_]; [lra|]. reflexivity.
Qed.

(** The tolerance is absolute, so a dilute gas comes back with a wrong pressure and a wrong
    density: here 1.5e-12 and 25e-12 become 1.125e-12 and 17.25e-12. *)
Lemma w34 r p : lorentz_factor (Prim r (3 / 4) 0 0 p) = 5 / 4.
Proof.
  unfold lorentz_factor, gamma_beta_squared. cbn [u1 u2 u3]. replace (1 + (3 / 4 * (3 / 4) + 0 * 0 + 0 * 0)) with (5 / 4 * (5 / 4)) by field. apply sqrt_square. lra.
Qed.
Theorem recover_dilute_refuted :
  let P := Prim (1.5e-12) (3 / 4) 0 0 (25e-12) in
  relativistic P (5 / 3) /\ recoverable P /\
  exists Q, srhd_recover (srhd_conserved P (5 / 3)) (5 / 3) 0 = Ok Q /\ rho Q = 3 / 4 * rho P /\ pre Q = 69 / 100 * pre P.
Proof.
  cbv zeta. set (P := Prim _ _ _ _ _). assert (HW : lorentz_factor P = 5 / 4) by apply w34.
  split; [unfold relativistic, P; cbn [rho pre]; lra|]. split; [unfold recoverable, eps; rewrite HW; lra|].
  assert (HU : srhd_conserved P (5 / 3) = V5 (1.875e-12) (60e-12) 0 0 (73.125e-12)).
  { unfold srhd_conserved, specific_enthalpy, enthalpy_density. rewrite HW. unfold P. cbn [rho pre u1 u2 u3]. f_equal; lra. }
  rewrite HU. eexists. split; [apply (first_guess _ _ (3 / 5)); unfold momentum_squared, eps; cbn [c0 c1 c2 c3 c4]; lra|].
  cbn [rho pre c0 c1 c2 c3 c4]. unfold P. cbn [rho pre]. split; lra.
Qed.

(** A moving gas that satisfies every hypothesis of [recover_accurate] and is recovered. *)
Example recover_accurate_example :
  let P := Prim (156.5e-12) (3 / 4) 0 0 (26.5e-12) in
  relativistic P (11 / 10) /\ 11 / 10 < 2 /\ recoverable P /\ 4 * eps / (2 - 11 / 10) <= enthalpy_density P (11 / 10) /\
  exists Q, srhd_recover (srhd_conserved P (11 / 10)) (11 / 10) 0 = Ok Q /\ Rabs (pre Q - pre P) <= 1 / 1000000000000.
Proof.
  cbv zeta. set (P := Prim _ _ _ _ _). assert (HW : lorentz_factor P = 5 / 4) by apply w34.
  split; [unfold relativistic, P; cbn [rho pre]; lra|]. split; [lra|]. split; [unfold recoverable, eps; rewrite HW; lra|].
  split; [unfold eps, enthalpy_density, P; cbn [rho pre]; lra|].
  assert (HU : srhd_conserved P (11 / 10) = V5 (195.625e-12) (420e-12) 0 0 (477.875e-12)).
  { unfold srhd_conserved, specific_enthalpy, enthalpy_density. rewrite HW. unfold P. cbn [rho pre u1 u2 u3]. f_equal; lra. }
  rewrite HU. eexists. split; [apply (first_guess _ _ (351 / 449)); unfold momentum_squared, eps; cbn [c0 c1 c2 c3 c4]; lra|].
  cbn [rho pre c0 c1 c2 c3 c4]. unfold P. cbn [rho pre]. apply Rabs_le. lra.
Qed.

Print Assumptions true_pressure_is_root.
Print Assumptions root_unique.
Print Assumptions recover_accurate.
Print Assumptions recover_static_exact.
Print Assumptions recover_sound.
Print Assumptions recover_lorentz_cap.
Print Assumptions recover_dilute_refuted.
(** A static gas far below the tolerance is still exact. *)
Example recover_static_example : srhd_recover (srhd_conserved (Prim (1e-15) 0 0 0 (3e-20)) (4 / 3)) (4 / 3) 0 = Ok (Prim (1e-15) 0 0 0 (3e-20)).
Proof. apply recover_static_exact; cbn [u1 u2 u3]; try lra. unfold relativistic. cbn [rho pre]. lra. Qed.
