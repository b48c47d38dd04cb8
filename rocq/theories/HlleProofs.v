(** Lemmas about the HLLE formula and the signal speeds. *)
From Coq Require Import List Reals Lra Lia Psatz.
From Verif Require Import Base DimensionalModel HydroModel.
Open Scope R_scope.

Lemma smax_spec a b : a <= smax a b /\ b <= smax a b /\ (smax a b = a \/ smax a b = b).
Proof. unfold smax. destruct (Rlt_dec a b); repeat split; auto; lra. Qed.
Lemma smin_spec a b : smin a b <= a /\ smin a b <= b /\ (smin a b = a \/ smin a b = b).
Proof. unfold smin. destruct (Rlt_dec b a); repeat split; auto; lra. Qed.
Lemma smax_opp a b : smax (- a) (- b) = - smin a b.
Proof. unfold smax, smin. destruct (Rlt_dec (- a) (- b)), (Rlt_dec b a); lra. Qed.
Lemma smin_opp a b : smin (- a) (- b) = - smax a b.
Proof. unfold smax, smin. destruct (Rlt_dec (- b) (- a)), (Rlt_dec a b); lra. Qed.
Lemma smax_comm a b : smax a b = smax b a.
Proof. unfold smax. destruct (Rlt_dec a b), (Rlt_dec b a); lra. Qed.
Lemma smin_comm a b : smin a b = smin b a.
Proof. unfold smin. destruct (Rlt_dec a b), (Rlt_dec b a); lra. Qed.

(** The outermost speeds of an interface. *)
Definition fan_plus (Al Ar : R * R) : R := smax 0 (smax (snd Al) (snd Ar)).
Definition fan_minus (Al Ar : R * R) : R := smin 0 (smin (fst Al) (fst Ar)).
Lemma fan_open Al Ar : fst Al < snd Al -> 0 < fan_plus Al Ar - fan_minus Al Ar.
Proof.
  intros H. unfold fan_plus, fan_minus. destruct (smax_spec 0 (smax (snd Al) (snd Ar))) as (A & B & _). destruct (smax_spec (snd Al) (snd Ar)) as (C & D & _).
  destruct (smin_spec 0 (smin (fst Al) (fst Ar))) as (A' & B' & _). destruct (smin_spec (fst Al) (fst Ar)) as (C' & D' & _). lra.
Qed.
Lemma fan_signs Al Ar : fan_minus Al Ar <= 0 <= fan_plus Al Ar.
Proof. unfold fan_plus, fan_minus. destruct (smax_spec 0 (smax (snd Al) (snd Ar))) as (A & _). destruct (smin_spec 0 (smin (fst Al) (fst Ar))) as (B & _). lra. Qed.
Lemma fan_bounds Al Ar : snd Al <= fan_plus Al Ar /\ snd Ar <= fan_plus Al Ar /\ fan_minus Al Ar <= fst Al /\ fan_minus Al Ar <= fst Ar.
Proof.
  unfold fan_plus, fan_minus. destruct (smax_spec 0 (smax (snd Al) (snd Ar))) as (A & B & _). destruct (smax_spec (snd Al) (snd Ar)) as (C & D & _).
  destruct (smin_spec 0 (smin (fst Al) (fst Ar))) as (A' & B' & _). destruct (smin_spec (fst Al) (fst Ar)) as (C' & D' & _). repeat split; lra.
Qed.
Lemma fan_right Al Ar : 0 <= fst Al -> 0 <= fst Ar -> fan_minus Al Ar = 0.
Proof.
  intros H1 H2. unfold fan_minus. destruct (smin_spec (fst Al) (fst Ar)) as (A & B & C). unfold smin at 1. destruct (Rlt_dec _ 0) as [L|]; [|reflexivity]. destruct C as [C|C]; rewrite C in L; lra.
Qed.
Lemma fan_left Al Ar : snd Al <= 0 -> snd Ar <= 0 -> fan_plus Al Ar = 0.
Proof.
  intros H1 H2. unfold fan_plus. destruct (smax_spec (snd Al) (snd Ar)) as (A & B & C). unfold smax at 1. destruct (Rlt_dec 0 _) as [L|]; [|reflexivity]. destruct C as [C|C]; rewrite C in L; lra.
Qed.
(** Speeds seen from the other side. *)
Definition reversed (A : R * R) : R * R := (- snd A, - fst A).
Lemma fan_reversed Al Ar : fan_plus (reversed Ar) (reversed Al) = - fan_minus Al Ar /\ fan_minus (reversed Ar) (reversed Al) = - fan_plus Al Ar.
Proof.
  unfold fan_plus, fan_minus, reversed. cbn [fst snd]. rewrite !smax_opp, !smin_opp. rewrite (smin_comm (fst Ar)), (smax_comm (snd Ar)).
  replace 0 with (- 0) at 1 3 by lra. rewrite smax_opp, smin_opp. auto.
Qed.

Lemma hlle_consistent ap am f u : 0 < ap - am -> hlle_component ap am f f u u = f.
Proof. intros H. unfold hlle_component. field. lra. Qed.
Lemma hlle_right ap fl fr ul ur : 0 < ap -> hlle_component ap 0 fl fr ul ur = fl.
Proof. intros H. unfold hlle_component. field. lra. Qed.
Lemma hlle_left am fl fr ul ur : am < 0 -> hlle_component 0 am fl fr ul ur = fr.
Proof. intros H. unfold hlle_component. field. lra. Qed.
Lemma hlle_flip ap am fl fr ul ur : 0 < ap - am -> hlle_component (- am) (- ap) (- fr) (- fl) ur ul = - hlle_component ap am fl fr ul ur.
Proof. intros H. unfold hlle_component. field. lra. Qed.
Lemma hlle_flip_state ap am fl fr ul ur : 0 < ap - am -> hlle_component (- am) (- ap) fr fl (- ur) (- ul) = hlle_component ap am fl fr ul ur.
Proof. intros H. unfold hlle_component. field. lra. Qed.
(** The flux lies between the two one-sided fluxes corrected by the outermost waves. *)
Lemma hlle_left_form ap am fl fr ul ur : 0 < ap - am ->
  hlle_component ap am fl fr ul ur = fl + am * ((ap * ur - am * ul + fl - fr) / (ap - am) - ul).
Proof. intros H. unfold hlle_component. field. lra. Qed.
Lemma hlle_right_form ap am fl fr ul ur : 0 < ap - am ->
  hlle_component ap am fl fr ul ur = fr + ap * ((ap * ur - am * ul + fl - fr) / (ap - am) - ur).
Proof. intros H. unfold hlle_component. field. lra. Qed.

Definition unit_norm (n : unit_vector) : Prop := n1 n * n1 n + n2 n * n2 n + n3 n * n3 n = 1.

(** Relativistic speeds. *)
Section Srhd.
Variables (P : prim) (n : unit_vector) (g : R).
Hypotheses (Hrho : 0 < rho P) (Hp : 0 < pre P) (Hg1 : 1 < g) (Hg2 : g <= 2) (Hn : unit_norm n).

Lemma sound_speed_range : 0 < srhd_sound_speed_squared P g < 1.
Proof.
  unfold srhd_sound_speed_squared, enthalpy_density. assert (I : 0 < / (g - 1)) by (apply Rinv_0_lt_compat; lra).
  assert (I2 : / (g - 1) * (g - 1) = 1) by (apply Rinv_l; lra).
  assert (D : 0 < rho P + pre P * (1 + 1 / (g - 1))) by (unfold Rdiv; nra). split.
  - apply Rdiv_lt_0_compat; nra.
  - apply (Rmult_lt_reg_r (rho P + pre P * (1 + 1 / (g - 1)))); [exact D|]. unfold Rdiv at 1. rewrite Rmult_assoc, Rinv_l, Rmult_1_r, Rmult_1_l by lra.
    unfold Rdiv. rewrite Rmult_1_l. assert (1 <= / (g - 1)) by nra. nra.
Qed.
Lemma gamma_beta_nonneg : 0 <= gamma_beta_squared P.
Proof. unfold gamma_beta_squared. pose proof (Rle_0_sqr (u1 P)). pose proof (Rle_0_sqr (u2 P)). pose proof (Rle_0_sqr (u3 P)). unfold Rsqr in *. lra. Qed.
Lemma speed_range : let uu := gamma_beta_squared P in let vv := uu / (1 + uu) in 0 <= vv < 1 /\ beta_along P n * beta_along P n <= vv.
Proof.
  intros uu vv. pose proof gamma_beta_nonneg as U. fold uu in U. assert (I : 0 < / (1 + uu)) by (apply Rinv_0_lt_compat; lra). assert (J : (1 + uu) * / (1 + uu) = 1) by (apply Rinv_r; lra).
  split; [unfold vv, Rdiv; split; nra|].
  unfold beta_along, lorentz_factor. fold uu. assert (S : sqrt (1 + uu) * sqrt (1 + uu) = 1 + uu) by (apply sqrt_sqrt; lra).
  assert (0 < sqrt (1 + uu)) by (apply sqrt_lt_R0; lra).
  replace (project n (u1 P) (u2 P) (u3 P) / sqrt (1 + uu) * (project n (u1 P) (u2 P) (u3 P) / sqrt (1 + uu)))
    with (project n (u1 P) (u2 P) (u3 P) * project n (u1 P) (u2 P) (u3 P) / (1 + uu)) by (rewrite <- S at 1; field; lra).
  unfold vv, Rdiv. apply Rmult_le_compat_r; [lra|]. unfold project, uu, gamma_beta_squared, unit_norm in *.
  revert Hn. generalize (u1 P) (u2 P) (u3 P) (n1 n) (n2 n) (n3 n). intros x y z a b c HN.
  pose proof (Rle_0_sqr (x * b - y * a)) as Q1. pose proof (Rle_0_sqr (x * c - z * a)) as Q2. pose proof (Rle_0_sqr (y * c - z * b)) as Q3. unfold Rsqr in *.
  replace (x * x + y * y + z * z) with ((x * x + y * y + z * z) * (a * a + b * b + c * c)) by (rewrite HN; ring). lra.
Qed.
End Srhd.

Lemma srhd_speed_bounds c2 vv vn : 0 < c2 < 1 -> 0 <= vv < 1 -> vn * vn <= vv ->
  let k0 := sqrt (c2 * (1 - vv) * (1 - vv * c2 - vn * vn * (1 - c2))) in
  0 < k0 /\ 0 < 1 - vv * c2 /\
  -1 < (vn * (1 - c2) - k0) / (1 - vv * c2) < vn /\ vn < (vn * (1 - c2) + k0) / (1 - vv * c2) < 1.
Proof.
  intros [C0 C1] [V0 V1] VN k0. assert (A1 : -1 < vn) by nra. assert (A2 : vn < 1) by nra.
  assert (D : 0 < 1 - vv * c2) by nra.
  assert (K : 0 < c2 * (1 - vv)) by nra. assert (S : 0 < 1 - vn * vn) by lra.
  assert (R : 0 < 1 - vv * c2 - vn * vn * (1 - c2)).
  { replace (1 - vv * c2 - vn * vn * (1 - c2)) with ((1 - c2) * (1 - vn * vn) + c2 * (1 - vv)) by ring. assert (0 < (1 - c2) * (1 - vn * vn)) by (apply Rmult_lt_0_compat; lra). lra. }
  assert (R2 : 0 < c2 * (1 - vv) * (1 - vv * c2 - vn * vn * (1 - c2))) by (apply Rmult_lt_0_compat; assumption).
  assert (KP : 0 < k0) by (apply sqrt_lt_R0; exact R2).
  assert (KK : k0 * k0 = c2 * (1 - vv) * (1 - vv * c2 - vn * vn * (1 - c2))) by (apply sqrt_sqrt; lra).
  assert (DIV : forall a b, a < b * (1 - vv * c2) -> a / (1 - vv * c2) < b).
  { intros a b H. apply (Rmult_lt_reg_r (1 - vv * c2)); [assumption|]. unfold Rdiv. rewrite Rmult_assoc, Rinv_l, Rmult_1_r by lra. assumption. }
  assert (DIV' : forall a b, b * (1 - vv * c2) < a -> b < a / (1 - vv * c2)).
  { intros a b H. apply (Rmult_lt_reg_r (1 - vv * c2)); [assumption|]. unfold Rdiv. rewrite Rmult_assoc, Rinv_l, Rmult_1_r by lra. assumption. }
  assert (SQ : forall B, 0 < B -> k0 * k0 < B * B -> k0 < B). { intros B H1 H2. apply Rnot_le_lt. intros H. nra. }
  assert (SQ' : forall B, B * B < k0 * k0 -> B < k0). { intros B H2. apply Rnot_le_lt. intros H. nra. }
  assert (UP : forall w, -1 < w < 1 -> vn * vn = w * w -> k0 < 1 - vv * c2 - w * (1 - c2)).
  { intros w [W0 W1] WW. apply SQ.
    - replace (1 - vv * c2 - w * (1 - c2)) with ((1 - c2) * (1 - w) + c2 * (1 - vv)) by ring. assert (0 < (1 - c2) * (1 - w)) by (apply Rmult_lt_0_compat; lra). lra.
    - rewrite KK, WW.
      enough (0 < (1 - c2) * (1 - w) * (1 - w) * ((1 - c2) + c2 * (1 - vv))) by nra. apply Rmult_lt_0_compat; [|lra].
      repeat apply Rmult_lt_0_compat; lra. }
  assert (FL : forall w, -1 < w < 1 -> vn * vn = w * w -> w * (c2 * (1 - vv)) < k0).
  { intros w [W0 W1] WW. apply SQ'. rewrite KK, WW.
    enough (0 < c2 * (1 - vv) * ((1 - w * w) * ((1 - c2) + c2 * (1 - vv)))) by nra. apply Rmult_lt_0_compat; [lra|]. apply Rmult_lt_0_compat; lra. }
  split; [assumption|]. split; [assumption|]. split; split.
  - apply DIV'. pose proof (UP (- vn) ltac:(lra) ltac:(ring)). lra.
  - apply DIV. pose proof (FL (- vn) ltac:(lra) ltac:(ring)). lra.
  - apply DIV'. pose proof (FL vn ltac:(lra) ltac:(ring)). lra.
  - apply DIV. pose proof (UP vn ltac:(lra) ltac:(ring)). lra.
Qed.
