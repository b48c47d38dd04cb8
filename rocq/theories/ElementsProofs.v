(** Lemmas for C52: recovering the orbital elements of a state (model_two_body.hpp:295-402). *)
From Coq Require Import Reals Lra Lia Psatz.
From Verif Require Import Base TwoBodyModel TwoBodyProofs KeplerProofs.
Open Scope R_scope.

Lemma atan2_polar y x r : 0 < r -> x * x + y * y = r * r -> r * cos (atan2 y x) = x /\ r * sin (atan2 y x) = y.
Proof.
  intros Hr E.
  assert (G : x <> 0 -> cos (atan (y / x)) = Rabs x / r /\ sin (atan (y / x)) = y / x * (Rabs x / r)).
  { intros Hx. rewrite cos_atan, sin_atan. assert (S : sqrt (1 + Rsqr (y / x)) = r / Rabs x).
    { apply Rsqr_inj; [apply sqrt_pos|apply Rlt_le, Rdiv_lt_0_compat; [lra|apply Rabs_pos_lt; exact Hx]|].
      rewrite Rsqr_sqrt. 2: { pose proof (Rle_0_sqr (y / x)). lra. }
      unfold Rsqr. replace (r / Rabs x * (r / Rabs x)) with (r * r / (Rabs x * Rabs x)) by (field; apply Rabs_no_R0; exact Hx).
      rewrite <- E. replace (Rabs x * Rabs x) with (x * x) by (rewrite <- Rabs_mult, Rabs_right; [reflexivity|nra]). field. exact Hx. }
    rewrite S. assert (Rabs x <> 0) by (apply Rabs_no_R0; exact Hx). split; field; repeat split; try assumption; lra. }
  unfold atan2. destruct (Rlt_dec 0 x) as [P|P].
  - destruct (G ltac:(lra)) as [-> ->]. rewrite Rabs_right by lra. split; field; lra.
  - destruct (Rlt_dec x 0) as [N|N].
    + destruct (G ltac:(lra)) as [C S]. rewrite Rabs_left in C, S by lra.
      destruct (Rle_dec 0 y); [rewrite neg_cos, neg_sin|rewrite cos_minus, sin_minus, cos_PI, sin_PI]; rewrite C, S; split; field; lra.
    + assert (x = 0) by lra. subst x. destruct (Rlt_dec 0 y) as [Q|Q].
      * rewrite cos_PI2, sin_PI2. split; nra.
      * destruct (Rlt_dec y 0) as [Q2|Q2].
        -- rewrite cos_neg, sin_neg, cos_PI2, sin_PI2. split; nra.
        -- assert (y = 0) by lra. subst y. nra.
Qed.
Lemma sqrt_of x y : 0 <= y -> y * y = x -> sqrt x = y.
Proof. intros H <-. apply sqrt_square. exact H. Qed.
Lemma clamp_id x : 0 <= x <= 1 -> clamp 0 1 x = x.
Proof. intros. unfold clamp. rewrite Rmax_left by lra. apply Rmin_left. lra. Qed.

Section State.
Context (s : two_body) (t : R).
Let c1 := body1 s. Let c2 := body2 s.
Let M1 := mass c1. Let M2 := mass c2. Let M := M1 + M2. Let q := M2 / M1.
Let x_cm := (px c1 * mass c1 + px c2 * mass c2) / M.
Let y_cm := (py c1 * mass c1 + py c2 * mass c2) / M.
Let vx_cm := (vx c1 * mass c1 + vx c2 * mass c2) / M.
Let vy_cm := (vy c1 * mass c1 + vy c2 * mass c2) / M.
Let x1 := px c1 - x_cm. Let y1 := py c1 - y_cm. Let x2 := px c2 - x_cm. Let y2 := py c2 - y_cm.
Let r1 := sqrt (x1 * x1 + y1 * y1). Let r2 := sqrt (x2 * x2 + y2 * y2).
Let vx1 := vx c1 - vx_cm. Let vy1 := vy c1 - vy_cm. Let vx2 := vx c2 - vx_cm. Let vy2 := vy c2 - vy_cm.
Let vf1 := - vx1 * y1 / r1 + vy1 * x1 / r1.
Let vf2 := - vx2 * y2 / r2 + vy2 * x2 / r2.
Let v1 := sqrt (vx1 * vx1 + vy1 * vy1).
Let E1 := 0.5 * M1 * (vx1 * vx1 + vy1 * vy1).
Let E2 := 0.5 * M2 * (vx2 * vx2 + vy2 * vy2).
Let L1 := M1 * r1 * vf1. Let L2 := M2 * r2 * vf2.
Let D' := r1 + r2. Let L := L1 + L2. Let E := E1 + E2 - M1 * M2 / D'.
Let a := -0.5 * M1 * M2 / E.
Let b := sqrt (-0.5 * L * L / E * (M1 + M2) / (M1 * M2)).
Let e := sqrt (clamp 0 1 (1 - b * b / a / a)).
Let omega := sqrt (M / a / a / a).
Let a1 := a * q / (1 + q). Let b1 := b * q / (1 + q).
Let cn := if Req_EM_T e 0 then x1 / r1 else (1 - r1 / a1) / e.
Let cf := a1 / r1 * (cn - e).
Let sn := if Req_EM_T e 0 then y1 / r1 else (vx1 * x1 + vy1 * y1) / (e * v1 * r1) * sqrt (1 - e * e * cn * cn).
Let sf := b1 / r1 * sn.
Let cE := (e + cf) / (1 + e * cf).
Let sE := sqrt (1 - e * e) * sf / (1 + e * cf).
Let EE := atan2 sE cE. Let MM := EE - e * sE. Let tau' := t - MM / omega.
Let ax := (cn - e) * x1 + sn * sqrt (1 - e * e) * y1.
Let ay := (cn - e) * y1 - sn * sqrt (1 - e * e) * x1.
Let theta := atan2 ay ax.
Lemma elements_unfold : elements_at s t =
  if Rle_dec 0 E then Throw InvalidArgument else Ok (Elements theta tau' x_cm y_cm vx_cm vy_cm (Orbit a M q e)).
Proof. reflexivity. Qed.
Lemma elements_unbound : 0 <= E -> elements_at s t = Throw InvalidArgument.
Proof. intros H. rewrite elements_unfold. destruct (Rle_dec 0 E); [reflexivity|lra]. Qed.

Let dx := px c1 - px c2. Let dy := py c1 - py c2. Let du := vx c1 - vx c2. Let dv := vy c1 - vy c2.
Let D := sqrt (dx * dx + dy * dy).
Let V2 := du * du + dv * dv.
Let h := dx * dv - dy * du.
Let rv := dx * du + dy * dv.
Hypothesis (Hm1 : 0 < M1) (Hm2 : 0 < M2) (HD : 0 < D).

Lemma M_pos : 0 < M. Proof. unfold M. lra. Qed.
Ltac pos := pose proof M_pos as HM.
Lemma x1_eq : x1 = M2 / M * dx. Proof. pos. unfold x1, x_cm, dx. fold M1 M2. replace M1 with (M - M2) by (unfold M; ring). field. lra. Qed.
Lemma y1_eq : y1 = M2 / M * dy. Proof. pos. unfold y1, y_cm, dy. fold M1 M2. replace M1 with (M - M2) by (unfold M; ring). field. lra. Qed.
Lemma x2_eq : x2 = - (M1 / M) * dx. Proof. pos. unfold x2, x_cm, dx. fold M1 M2. replace M2 with (M - M1) by (unfold M; ring). field. lra. Qed.
Lemma y2_eq : y2 = - (M1 / M) * dy. Proof. pos. unfold y2, y_cm, dy. fold M1 M2. replace M2 with (M - M1) by (unfold M; ring). field. lra. Qed.
Lemma vx1_eq : vx1 = M2 / M * du. Proof. pos. unfold vx1, vx_cm, du. fold M1 M2. replace M1 with (M - M2) by (unfold M; ring). field. lra. Qed.
Lemma vy1_eq : vy1 = M2 / M * dv. Proof. pos. unfold vy1, vy_cm, dv. fold M1 M2. replace M1 with (M - M2) by (unfold M; ring). field. lra. Qed.
Lemma vx2_eq : vx2 = - (M1 / M) * du. Proof. pos. unfold vx2, vx_cm, du. fold M1 M2. replace M2 with (M - M1) by (unfold M; ring). field. lra. Qed.
Lemma vy2_eq : vy2 = - (M1 / M) * dv. Proof. pos. unfold vy2, vy_cm, dv. fold M1 M2. replace M2 with (M - M1) by (unfold M; ring). field. lra. Qed.
Lemma DD : D * D = dx * dx + dy * dy. Proof. apply sqrt_sqrt. nra. Qed.
Lemma frac2 : 0 < M2 / M. Proof. pos. apply Rdiv_lt_0_compat; lra. Qed.
Lemma frac1 : 0 < M1 / M. Proof. pos. apply Rdiv_lt_0_compat; lra. Qed.
Lemma r1_eq : r1 = M2 / M * D.
Proof. pose proof frac2. apply sqrt_of; [apply Rmult_le_pos; lra|]. rewrite x1_eq, y1_eq. transitivity (M2 / M * (M2 / M) * (D * D)); [ring|]. rewrite DD. ring. Qed.
Lemma r2_eq : r2 = M1 / M * D.
Proof. pose proof frac1. apply sqrt_of; [apply Rmult_le_pos; lra|]. rewrite x2_eq, y2_eq. transitivity (M1 / M * (M1 / M) * (D * D)); [ring|]. rewrite DD. ring. Qed.
Lemma D'_eq : D' = D.
Proof. pos. unfold D'. rewrite r1_eq, r2_eq. replace M2 with (M - M1) by (unfold M; ring). field. lra. Qed.
Lemma E_eq : E = M1 * M2 / M * (V2 / 2 - M / D).
Proof.
  pos. unfold E, E1, E2. rewrite D'_eq, vx1_eq, vy1_eq, vx2_eq, vy2_eq. replace 0.5 with (/ 2) by lra. unfold V2. unfold M in *. field. lra.
Qed.
Lemma L_eq : L = M1 * M2 / M * h.
Proof.
  pos. pose proof frac1 as F1. pose proof frac2 as F2. assert (R1 : r1 <> 0) by (rewrite r1_eq; apply Rmult_integral_contrapositive_currified; lra).
  assert (R2 : r2 <> 0) by (rewrite r2_eq; apply Rmult_integral_contrapositive_currified; lra).
  transitivity (M1 * (x1 * vy1 - y1 * vx1) + M2 * (x2 * vy2 - y2 * vx2)).
  - unfold L, L1, L2, vf1, vf2. field. split; assumption.
  - rewrite x1_eq, y1_eq, x2_eq, y2_eq, vx1_eq, vy1_eq, vx2_eq, vy2_eq. unfold h. unfold M in *. field. lra.
Qed.
Lemma lagrange : h * h + rv * rv = D * D * V2.
Proof. rewrite DD. unfold h, rv, V2. ring. Qed.

Hypothesis (Hbound : E < 0) (Hccw : 0 < L).
Lemma red_pos : 0 < M1 * M2 / M. Proof. pos. apply Rdiv_lt_0_compat; [apply Rmult_lt_0_compat; lra|lra]. Qed.
Lemma eps_neg : V2 / 2 - M / D < 0.
Proof. pose proof red_pos as P. pose proof Hbound as B. rewrite E_eq in B. apply Rnot_le_lt. intros C. assert (0 <= M1 * M2 / M * (V2 / 2 - M / D)) by (apply Rmult_le_pos; lra). lra. Qed.
Lemma h_pos : 0 < h.
Proof. pose proof red_pos as P. pose proof Hccw as B. rewrite L_eq in B. apply Rnot_le_lt. intros C. assert (0 <= M1 * M2 / M * - h) by (apply Rmult_le_pos; lra). lra. Qed.
Lemma V2_pos : 0 < V2.
Proof. pose proof lagrange as G. pose proof h_pos. apply Rnot_le_lt. intros C. assert (0 < h * h) by nra. assert (0 <= rv * rv) by nra. assert (0 <= D * D * - V2) by (apply Rmult_le_pos; nra). lra. Qed.
Lemma a_eps : a * (V2 / 2 - M / D) = - M / 2.
Proof. pos. pose proof eps_neg as N. pose proof red_pos. unfold a. rewrite E_eq. replace (-0.5) with (- / 2) by lra. field. repeat split; try lra. intros Z. assert (V2 / 2 - M / D = (V2 * D - 2 * M) / (2 * D)) by (field; lra). rewrite H0 in N. replace (V2 * D - 2 * M) with 0 in N by lra. unfold Rdiv in N. lra. Qed.
Lemma a_pos : 0 < a.
Proof. pos. pose proof a_eps as A. pose proof eps_neg as N. apply Rnot_le_lt. intros C. assert (0 <= - a * - (V2 / 2 - M / D)) by (apply Rmult_le_pos; lra). lra. Qed.
Lemma V2_eq : V2 = M * (2 / D - 1 / a).
Proof. pos. pose proof a_pos as A. pose proof a_eps as Q. assert (V2 / 2 - M / D = - M / 2 / a) by (rewrite <- Q; field; lra). transitivity (2 * (V2 / 2 - M / D) + 2 * M / D); [field; lra|]. rewrite H. field. lra. Qed.
Lemma b_sq : b * b = h * h * a / M.
Proof.
  pos. pose proof a_pos as A. pose proof red_pos as P. pose proof eps_neg as N.
  assert (I : -0.5 * L * L / E * (M1 + M2) / (M1 * M2) = h * h * a / M).
  { fold M. transitivity (L * L * a * M / (M1 * M2 * (M1 * M2))); [unfold a; field; repeat split; try lra|]. rewrite L_eq. field. lra. }
  unfold b. rewrite I. apply sqrt_sqrt. apply Rlt_le, Rdiv_lt_0_compat; [|lra]. pose proof h_pos. apply Rmult_lt_0_compat; [nra|lra].
Qed.
Lemma e_arg : 1 - b * b / a / a = (1 - D / a) * (1 - D / a) + rv * rv / (a * M).
Proof.
  pos. pose proof a_pos as A. rewrite b_sq. pose proof lagrange as G. rewrite V2_eq in G.
  assert (H2 : h * h = D * D * (M * (2 / D - 1 / a)) - rv * rv) by lra. rewrite H2. field. lra.
Qed.
Lemma e_sq : e * e = 1 - h * h / (M * a) /\ 0 <= e < 1 /\ e * e = (1 - D / a) * (1 - D / a) + rv * rv / (a * M).
Proof.
  pos. pose proof a_pos as A. pose proof h_pos as H. assert (AM : 0 < a * M) by (apply Rmult_lt_0_compat; lra).
  assert (B : 1 - b * b / a / a = 1 - h * h / (M * a)) by (rewrite b_sq; field; lra).
  assert (B0 : 0 < h * h / (M * a)) by (apply Rdiv_lt_0_compat; nra).
  assert (B1 : 0 <= 1 - b * b / a / a).
  { rewrite e_arg. assert (0 <= rv * rv / (a * M)) by (apply Rmult_le_pos; [nra|apply Rlt_le, Rinv_0_lt_compat; lra]). pose proof (Rle_0_sqr (1 - D / a)) as SQ. unfold Rsqr in SQ. lra. }
  assert (Q : e * e = 1 - b * b / a / a). { unfold e. rewrite clamp_id by lra. apply sqrt_sqrt. exact B1. }
  assert (P : 0 <= e) by apply sqrt_pos. split; [lra|]. split; [|rewrite Q; apply e_arg]. split; [exact P|]. nra.
Qed.
Let k := sqrt (1 - e * e).
Lemma k_eq : 0 < k /\ k * k = 1 - e * e.
Proof. destruct e_sq as (_ & F & _). assert (0 < 1 - e * e) by nra. split; [apply sqrt_lt_R0; assumption|apply sqrt_sqrt; lra]. Qed.
Let g := sqrt (a * M).
Lemma g_eq : 0 < g /\ g * g = a * M.
Proof. pos. pose proof a_pos. assert (0 < a * M) by nra. split; [apply sqrt_lt_R0; assumption|apply sqrt_sqrt; lra]. Qed.
Lemma h_eq : h = g * k.
Proof.
  pos. pose proof a_pos as A. destruct k_eq as (K & KK). destruct g_eq as (G & GG). destruct e_sq as (F & _). pose proof h_pos as H.
  assert (Q : h * h = g * k * (g * k)). { transitivity (g * g * (k * k)); [|ring]. rewrite GG, KK, F. field. lra. }
  apply Rsqr_inj; [lra|nra|exact Q].
Qed.
Lemma omega_eq : 0 < omega /\ a * a * omega = g.
Proof.
  pos. pose proof a_pos as A. destruct g_eq as (G & GG). assert (P : 0 < M / a / a / a) by (do 3 (apply Rdiv_lt_0_compat; [|exact A]); exact HM).
  assert (W : 0 < omega) by (apply sqrt_lt_R0; exact P). assert (WW : omega * omega = M / a / a / a) by (apply sqrt_sqrt; lra). split; [exact W|].
  apply Rsqr_inj; [nra|lra|]. unfold Rsqr. transitivity (a * a * (a * a) * (omega * omega)); [ring|]. rewrite WW, GG. field. lra.
Qed.
Lemma a1_r1 : a1 / r1 = a / D /\ b1 / r1 = b / D /\ r1 / a1 = D / a.
Proof. pos. pose proof a_pos. unfold a1, b1. rewrite r1_eq. unfold q. unfold M in *. repeat split; field; repeat split; lra. Qed.
Lemma b_eq : b = a * k.
Proof.
  pos. pose proof a_pos. destruct k_eq as (K & KK). destruct e_sq as (F & _). apply Rsqr_inj; [apply sqrt_pos|nra|]. unfold Rsqr. rewrite b_sq.
  transitivity (a * a * (k * k)); [|ring]. rewrite KK, F. field. lra.
Qed.
(** The anomaly: the two branches agree on what matters. *)
Lemma anomaly_facts : cn * cn + sn * sn = 1 /\ D = a * (1 - e * cn) /\ rv = g * e * sn.
Proof.
  pos. pose proof a_pos as A. destruct g_eq as (G & GG). destruct e_sq as (F & FB & F2). pose proof DD as DQ. pose proof frac2 as FR. pose proof V2_pos as VP.
  assert (RV : 0 <= rv * rv / (a * M)) by (apply Rmult_le_pos; [nra|apply Rlt_le, Rinv_0_lt_compat; nra]).
  unfold sn, cn. destruct (Req_EM_T e 0) as [Z|Z].
  - rewrite Z in F2. assert (Q1 : 1 - D / a = 0) by nra. assert (Q2 : rv * rv / (a * M) = 0) by nra.
    assert (Q3 : D = a) by (replace D with (D / a * a) by (field; lra); replace (D / a) with 1 by lra; ring).
    assert (Q4 : rv * rv = 0) by (replace (rv * rv) with (rv * rv / (a * M) * (a * M)) by (field; lra); rewrite Q2; ring).
    assert (rv = 0) by nra.
    rewrite x1_eq, y1_eq, r1_eq. split; [|split; [rewrite Z; lra|rewrite Z; lra]].
    transitivity ((dx * dx + dy * dy) / (D * D)); [field; repeat split; lra|]. rewrite <- DQ. field. lra.
  - destruct a1_r1 as (_ & _ & ->). set (cc := (1 - D / a) / e).
    assert (CC : e * cc = 1 - D / a) by (unfold cc; field; split; [lra|exact Z]).
    assert (SV : v1 = M2 / M * sqrt V2).
    { apply sqrt_of; [apply Rmult_le_pos; [lra|apply sqrt_pos]|]. rewrite vx1_eq, vy1_eq. transitivity (M2 / M * (M2 / M) * (sqrt V2 * sqrt V2)); [ring|]. rewrite sqrt_sqrt by lra. unfold V2. ring. }
    assert (SV0 : 0 < sqrt V2) by (apply sqrt_lt_R0; exact VP).
    assert (SS : sqrt (1 - e * e * cc * cc) = D * sqrt V2 / g).
    { apply sqrt_of; [apply Rlt_le, Rdiv_lt_0_compat; [nra|lra]|]. transitivity (D * D * (sqrt V2 * sqrt V2) / (g * g)); [field; lra|]. rewrite sqrt_sqrt by lra. rewrite GG.
      replace (e * e * cc * cc) with (e * cc * (e * cc)) by ring. rewrite CC, V2_eq. field. lra. }
    assert (SN : (vx1 * x1 + vy1 * y1) / (e * v1 * r1) * sqrt (1 - e * e * cc * cc) = rv / (e * g)).
    { rewrite SS, SV, x1_eq, y1_eq, vx1_eq, vy1_eq, r1_eq. unfold rv. field. repeat split; try lra; assumption. }
    rewrite SN. split; [|split].
    + apply Rmult_eq_reg_l with (e * e); [|nra]. transitivity (e * cc * (e * cc) + rv * rv / (g * g)); [field; split; [lra|assumption]|]. rewrite CC, GG, Rmult_1_r, <- F2. ring.
    + transitivity (a - a * (e * cc)); [|ring]. rewrite CC. field. lra.
    + field. split; [lra|assumption].
Qed.
Lemma n_eq : 0 < 1 - e * cn.
Proof. pose proof a_pos. destruct anomaly_facts as (_ & Q & _). apply Rnot_le_lt. intros C. assert (0 <= a * - (1 - e * cn)) by (apply Rmult_le_pos; lra). lra. Qed.
Lemma cE_eq : cE = cn /\ sE = sn.
Proof.
  pose proof n_eq as N. pose proof a_pos as A. destruct anomaly_facts as (_ & Q & _). destruct e_sq as (_ & FB & _). destruct k_eq as (K & KK).
  destruct a1_r1 as (R1 & R2 & _). assert (NE : 0 < 1 - e * e) by nra.
  assert (CF : cf = (cn - e) / (1 - e * cn)) by (unfold cf; rewrite R1, Q; field; split; lra).
  assert (SF : sf = k * sn / (1 - e * cn)) by (unfold sf; rewrite R2, b_eq, Q; field; split; lra).
  assert (DN : 1 + e * cf = (1 - e * e) / (1 - e * cn)) by (rewrite CF; field; lra).
  unfold cE, sE. rewrite DN, SF, CF. fold k. split; [field; split; lra|].
  transitivity (k * k * sn / (1 - e * e)); [field; split; lra|]. rewrite KK. field. lra.
Qed.
Lemma EE_eq : cos EE = cn /\ sin EE = sn.
Proof.
  destruct anomaly_facts as (T & _). destruct cE_eq as (C & S). unfold EE. rewrite C, S.
  destruct (atan2_polar sn cn 1) as (P & Q); [lra|lra|]. lra.
Qed.
Lemma theta_eq : let rho := M2 / M * (D * D / a) in 0 < rho /\ rho * cos theta = ax /\ rho * sin theta = ay.
Proof.
  intros rho. pos. pose proof a_pos as A. pose proof frac2 as FR. assert (P : 0 < rho) by (unfold rho; apply Rmult_lt_0_compat; [lra|]; apply Rdiv_lt_0_compat; nra).
  split; [exact P|]. apply atan2_polar; [exact P|]. destruct anomaly_facts as (T & Q & _). destruct k_eq as (_ & KK).
  unfold ax, ay. fold k. rewrite x1_eq, y1_eq.
  transitivity (M2 / M * (M2 / M) * (((cn - e) * (cn - e) + sn * sn * (k * k)) * (dx * dx + dy * dy))); [ring|].
  rewrite <- DD, KK. replace (sn * sn) with (1 - cn * cn) by lra. unfold rho.
  transitivity (M2 / M * (M2 / M) * ((1 - e * cn) * (1 - e * cn) * (D * D))); [ring|].
  replace (1 - e * cn) with (D / a); [field; lra|]. rewrite Q at 1. field. lra.
Qed.

(** The elements reproduce the state. *)
Lemma elements_reproduce : let p := Elements theta tau' x_cm y_cm vx_cm vy_cm (Orbit a M q e) in
  elements_at s t = Ok p /\ bound (orb p) /\ TwoBody (place p (body1 (state_of (orb p) EE))) (place p (body2 (state_of (orb p) EE))) = s
  /\ EE - e * sin EE = omega_of (orb p) * (t - tau').
Proof.
  intros p. pos. pose proof a_pos as A. pose proof red_pos. destruct e_sq as (_ & FB & _). destruct EE_eq as (C & S). destruct omega_eq as (W & AW).
  assert (B : bound (orb p)). { unfold bound, p; cbn [orb sep mtot ratio ecc]. repeat split; try lra. unfold q. apply Rdiv_lt_0_compat; lra. }
  assert (OM : omega_of (orb p) = omega). { rewrite (omega_form _ B). reflexivity. }
  split; [|split; [exact B|split]].
  - rewrite elements_unfold. destruct (Rle_dec 0 E); [lra|reflexivity].
  - destruct theta_eq as (RP & CT & ST). set (rho := M2 / M * (D * D / a)) in *.
    pose proof n_eq as N. destruct anomaly_facts as (T & Q & RVQ). destruct k_eq as (K & KK). pose proof frac2 as FR. pose proof DD as DQ.
    assert (CT' : cos theta = a / (D * D) * ((cn - e) * dx + sn * k * dy)).
    { apply Rmult_eq_reg_l with rho; [|lra]. rewrite CT. unfold ax. fold k. rewrite x1_eq, y1_eq. unfold rho. field. lra. }
    assert (ST' : sin theta = a / (D * D) * ((cn - e) * dy - sn * k * dx)).
    { apply Rmult_eq_reg_l with rho; [|lra]. rewrite ST. unfold ay. fold k. rewrite x1_eq, y1_eq. unfold rho. field. lra. }
    set (rx := a * (cn - e)). set (ry := a * (sn * k)). set (ux := - a * omega / (1 - e * cn) * sn). set (uy := a * omega / (1 - e * cn) * cn * k).
    assert (NN : (cn - e) * (cn - e) + sn * sn * (k * k) = D * D / (a * a)).
    { rewrite KK. replace (sn * sn) with (1 - cn * cn) by lra. transitivity ((1 - e * cn) * (1 - e * cn)); [ring|]. rewrite Q. field. lra. }
    assert (PX : rx * cos theta - ry * sin theta = dx).
    { rewrite CT', ST'. unfold rx, ry. transitivity (a * a / (D * D) * (((cn - e) * (cn - e) + sn * sn * (k * k)) * dx)); [field; lra|]. rewrite NN. field. lra. }
    assert (PY : rx * sin theta + ry * cos theta = dy).
    { rewrite CT', ST'. unfold rx, ry. transitivity (a * a / (D * D) * (((cn - e) * (cn - e) + sn * sn * (k * k)) * dy)); [field; lra|]. rewrite NN. field. lra. }
    assert (RR : rx * ux + ry * uy = rv).
    { pose proof (relative_radial (orb p) EE B) as R. unfold p in R; cbn [orb sep ecc] in R. rewrite C, S in R. fold p in R. fold (orb p) in R.
      change (omega_of (Orbit a M q e)) with (omega_of (orb p)) in R. rewrite OM in R. fold k in R. fold rx ry ux uy in R. rewrite R, RVQ, <- AW. ring. }
    assert (RA : rx * uy - ry * ux = h).
    { pose proof (relative_area (orb p) EE B) as R. unfold p in R; cbn [orb sep ecc] in R. rewrite C, S in R. fold p in R.
      change (omega_of (Orbit a M q e)) with (omega_of (orb p)) in R. rewrite OM in R. fold k in R. fold rx ry ux uy in R. rewrite R, h_eq, <- AW. ring. }
    set (U := ux * cos theta - uy * sin theta). set (V := ux * sin theta + uy * cos theta).
    assert (TT : cos theta * cos theta + sin theta * sin theta = 1) by (pose proof (sin2_cos2 theta) as X; unfold Rsqr in X; lra).
    assert (U1 : dx * U + dy * V = rv).
    { rewrite <- PX, <- PY, <- RR. unfold U, V. transitivity ((rx * ux + ry * uy) * (cos theta * cos theta + sin theta * sin theta)); [ring|]. rewrite TT. ring. }
    assert (U2 : dx * V - dy * U = h).
    { rewrite <- PX at 1. rewrite <- PY at 1. rewrite <- RA. unfold U, V. transitivity ((rx * uy - ry * ux) * (cos theta * cos theta + sin theta * sin theta)); [ring|]. rewrite TT. ring. }
    assert (DP : 0 < dx * dx + dy * dy) by (rewrite <- DQ; nra).
    assert (UE : U = du). { apply Rmult_eq_reg_l with (dx * dx + dy * dy); [|lra]. unfold rv in U1. unfold h in U2. transitivity (dx * (dx * U + dy * V) - dy * (dx * V - dy * U)); [ring|]. rewrite U1, U2. ring. }
    assert (VE : V = dv). { apply Rmult_eq_reg_l with (dx * dx + dy * dy); [|lra]. unfold rv in U1. unfold h in U2. transitivity (dy * (dx * U + dy * V) + dx * (dx * V - dy * U)); [ring|]. rewrite U1, U2. ring. }
    pose proof (state_form (orb p) EE B) as SF. rewrite SF. clear SF. rewrite C, S, OM. unfold place. rewrite cos_neg, sin_neg. unfold p; cbn [body1 body2 mass px py vx vy pomega cmx cmy cmvx cmvy orb sep mtot ratio ecc].
    fold k. fold rx ry ux uy.
    assert (F1 : q / (1 + q) = M2 / M) by (unfold q, M in *; field; lra). assert (F2 : 1 / (1 + q) = M1 / M) by (unfold q, M in *; field; lra).
    assert (F3 : M / (1 + q) = M1) by (unfold q, M in *; field; lra). rewrite F1, F2, F3.
    assert (F4 : M * (M2 / M) = M2) by (field; lra). rewrite F4.
    assert (G1 : forall X0 Y0, M2 / M * X0 * cos theta + M2 / M * Y0 * - sin theta = M2 / M * (X0 * cos theta - Y0 * sin theta)) by (intros; ring).
    assert (G2 : forall X0 Y0, - (M2 / M * X0) * - sin theta + M2 / M * Y0 * cos theta = M2 / M * (X0 * sin theta + Y0 * cos theta)) by (intros; ring).
    assert (G3 : forall X0 Y0, - (M1 / M) * X0 * cos theta + - (M1 / M) * Y0 * - sin theta = - (M1 / M) * (X0 * cos theta - Y0 * sin theta)) by (intros; ring).
    assert (G4 : forall X0 Y0, - (- (M1 / M) * X0) * - sin theta + - (M1 / M) * Y0 * cos theta = - (M1 / M) * (X0 * sin theta + Y0 * cos theta)) by (intros; ring).
    rewrite !G1, !G2, !G3, !G4. rewrite PX, PY. fold U V. rewrite UE, VE.
    rewrite <- x1_eq, <- y1_eq, <- x2_eq, <- y2_eq, <- vx1_eq, <- vy1_eq, <- vx2_eq, <- vy2_eq.
    unfold x1, y1, x2, y2, vx1, vy1, vx2, vy2.
    assert (forall A0 B0, A0 - B0 + B0 = A0) by (intros; ring). rewrite !H0.
    unfold M1, M2, c1, c2. destruct s as [[] []]. reflexivity.
  - rewrite OM. unfold tau'. replace (t - (t - MM / omega)) with (MM / omega) by ring. unfold MM. destruct cE_eq as (_ & SE). rewrite SE, <- S. field. lra.
Qed.
End State.

(** The same in terms of the relative position and velocity. *)
Definition red (s : two_body) : R := mass (body1 s) * mass (body2 s) / (mass (body1 s) + mass (body2 s)).
Definition gap (f : body -> R) (s : two_body) : R := f (body1 s) - f (body2 s).
Definition rel_D (s : two_body) : R := sqrt (gap px s * gap px s + gap py s * gap py s).
Definition rel_E (s : two_body) : R := red s * ((gap vx s * gap vx s + gap vy s * gap vy s) / 2 - (mass (body1 s) + mass (body2 s)) / rel_D s).
Definition rel_L (s : two_body) : R := red s * (gap px s * gap vy s - gap py s * gap vx s).
Lemma elements_spec s t : 0 < mass (body1 s) -> 0 < mass (body2 s) -> 0 < rel_D s -> rel_E s < 0 -> 0 < rel_L s ->
  exists p E, elements_at s t = Ok p /\ bound (orb p) /\ TwoBody (place p (body1 (state_of (orb p) E))) (place p (body2 (state_of (orb p) E))) = s
  /\ E - ecc (orb p) * sin E = omega_of (orb p) * (t - tau p).
Proof.
  intros H1 H2 HD HE HL. pose proof (elements_reproduce s t H1 H2 HD) as R.
  rewrite (E_eq s H1 H2 HD), (L_eq s H1 H2 HD) in R. specialize (R HE HL). cbv zeta in R. eexists _, _. exact R.
Qed.
Lemma elements_spec_throw s t : 0 < mass (body1 s) -> 0 < mass (body2 s) -> 0 < rel_D s -> 0 <= rel_E s -> elements_at s t = Throw InvalidArgument.
Proof. intros H1 H2 HD HE. apply elements_unbound. rewrite (E_eq s H1 H2 HD). exact HE. Qed.
Lemma elements_spec_ok s t : 0 < mass (body1 s) -> 0 < mass (body2 s) -> 0 < rel_D s -> rel_E s < 0 -> exists p, elements_at s t = Ok p.
Proof.
  intros H1 H2 HD HE. rewrite elements_unfold. rewrite (E_eq s H1 H2 HD).
  match goal with |- exists p, (if ?c then _ else Ok ?x) = Ok p => destruct c as [C|C]; [exfalso; exact (Rlt_not_le _ _ HE C)|exists x; reflexivity] end.
Qed.
