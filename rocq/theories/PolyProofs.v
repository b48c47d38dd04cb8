(** Lemmas for the polynomial root solvers. *)
From Coq Require Import Reals Lra Psatz.
From Verif Require Import PolyModel.
Open Scope R_scope.

Lemma fdiv_ok x y : y <> 0 -> fdiv x y = Some (x / y).
Proof. intros H. unfold fdiv. destruct (Req_EM_T y 0); [contradiction|reflexivity]. Qed.
Lemma fsqrt_ok x : 0 <= x -> fsqrt x = Some (sqrt x).
Proof. intros H. unfold fsqrt. destruct (Rlt_dec x 0); [lra|reflexivity]. Qed.
Lemma facos_ok x : -1 <= x <= 1 -> facos x = Some (acos x).
Proof. intros H. unfold facos. destruct (Rlt_dec x (-1)); [lra|]. destruct (Rlt_dec 1 x); [lra|reflexivity]. Qed.

Lemma fcbrt_ok x : 0 <= x -> exists t, fcbrt x = Some t /\ t * t * t = x.
Proof.
  intros H. unfold fcbrt. destruct (Rlt_dec x 0); [lra|]. destruct (Rlt_dec 0 x) as [P|P].
  - eexists; split; [reflexivity|]. rewrite <- !Rpower_plus. replace (1 / 3 + 1 / 3 + 1 / 3) with 1 by lra. apply Rpower_1. assumption.
  - exists 0. split; [reflexivity|]. lra.
Qed.
Lemma signed_cbrt_ok s : exists t, signed_cbrt s = Some t /\ t * t * t = s.
Proof.
  unfold signed_cbrt. destruct (Rle_dec 0 s) as [P|P]; [apply fcbrt_ok; assumption|].
  destruct (fcbrt_ok (- s)) as (t & E & C); [lra|]. rewrite E. exists (- t). split; [reflexivity|]. lra.
Qed.

Lemma cube_diff x y : x * x * x - y * y * y = (x - y) * (x * x + x * y + y * y).
Proof. ring. Qed.
Lemma cube_inj x y : x * x * x = y * y * y -> x = y.
Proof.
  intros H. assert (H0 : (x - y) * (x * x + x * y + y * y) = 0) by (rewrite <- cube_diff; lra).
  apply Rmult_integral in H0 as [H0|H0]; [lra|].
  assert (H1 : (x + y / 2) * (x + y / 2) + 3 / 4 * (y * y) = 0) by lra.
  pose proof (Rle_0_sqr (x + y / 2)) as S1. pose proof (Rle_0_sqr y) as S2. unfold Rsqr in *.
  assert (y * y = 0) by lra. assert (Y : y = 0) by nra. subst y. assert (x * x = 0) by lra. nra.
Qed.

(** ** Cubic *)
Section Cubic.
Variables a2 a1 a0 : R.
Let q := a1 / 3 - a2 * a2 / 9.
Let r := (a1 * a2 - 3 * a0) / 6 - a2 * a2 * a2 / 27.

Lemma depress x : x * x * x + a2 * (x * x) + a1 * x + a0 = (x + a2 / 3) * (x + a2 / 3) * (x + a2 / 3) + 3 * q * (x + a2 / 3) - 2 * r.
Proof. unfold q, r. field. Qed.

Lemma one_real (s1 s2 : R) : s1 * s1 * s1 + s2 * s2 * s2 = 2 * r -> s1 * s2 = - q -> forall y : R,
  y * y * y + 3 * q * y - 2 * r = (y - (s1 + s2)) * ((y + (s1 + s2) / 2) * (y + (s1 + s2) / 2) + 3 / 4 * ((s1 - s2) * (s1 - s2))).
Proof. intros HR HQ y. replace (3 * q) with (-3 * (s1 * s2)) by lra. rewrite <- HR. field. Qed.

Lemma three_real sq s3 c s : sq * sq = - q -> s3 * s3 = 3 -> c * c + s * s = 1 -> sq * sq * sq * (4 * (c * c * c) - 3 * c) = r -> forall y : R,
  y * y * y + 3 * q * y - 2 * r = (y - 2 * sq * c) * (y - (- sq * c - s3 * sq * s)) * (y - (- sq * c + s3 * sq * s)).
Proof.
  intros HQ H3 HC HR y. replace (3 * q) with (- 3 * (sq * sq)) by lra. rewrite <- HR.
  replace ((y - 2 * sq * c) * (y - (- sq * c - s3 * sq * s)) * (y - (- sq * c + s3 * sq * s)))
    with ((y - 2 * sq * c) * ((y + sq * c) * (y + sq * c) - (s3 * s3) * (sq * sq) * (s * s))) by ring.
  rewrite H3. replace (s * s) with (1 - c * c) by lra. ring.
Qed.
End Cubic.

Lemma cos_triple t : cos (3 * t) = 4 * (cos t * cos t * cos t) - 3 * cos t.
Proof.
  replace (3 * t) with (2 * t + t) by ring. rewrite cos_plus, cos_2a, sin_2a.
  assert (H : sin t * sin t = 1 - cos t * cos t) by (pose proof (sin2_cos2 t) as E; unfold Rsqr in E; lra).
  replace (2 * sin t * cos t * sin t) with (2 * cos t * (sin t * sin t)) by ring. rewrite H. ring.
Qed.

(** Everything later proofs need about the cubic solver. *)
Definition cubic_poly (c3 c2 c1 c0 x : R) : R := c3 * (x * x * x) + c2 * (x * x) + c1 * x + c0.

Lemma cubic_roots_spec c3 c2 c1 c0 : c3 <> 0 ->
  exists res, cubic_roots c3 c2 c1 c0 = Some res /\
   ((num_roots res = 1%nat /\ exists m k, 0 < k /\
       forall x, cubic_poly c3 c2 c1 c0 x = c3 * (x - c_x1 res) * ((x - m) * (x - m) + k)) \/
    (num_roots res = 3%nat /\ c_x2 res <= Rmax (c_x1 res) (c_x3 res) /\
       forall x, cubic_poly c3 c2 c1 c0 x = c3 * (x - c_x1 res) * (x - c_x2 res) * (x - c_x3 res))).
Proof.
  intros H3. unfold cubic_roots. rewrite !fdiv_ok by assumption. cbn [obind].
  set (a2 := c2 / c3). set (a1 := c1 / c3). set (a0 := c0 / c3). cbv zeta.
  set (q := a1 / 3 - a2 * a2 / 9). set (r := (a1 * a2 - 3 * a0) / 6 - a2 * a2 * a2 / 27).
  assert (HP : forall x, cubic_poly c3 c2 c1 c0 x = c3 * ((x + a2 / 3) * (x + a2 / 3) * (x + a2 / 3) + 3 * q * (x + a2 / 3) - 2 * r)).
  { intros x. unfold q, r. rewrite <- depress. unfold cubic_poly, a2, a1, a0. field. assumption. }
  clearbody a2 a1 a0.
  destruct (Rlt_dec 0 (q * q * q + r * r)) as [D|D]; [|destruct (Rlt_dec (q * q * q + r * r) 0) as [D'|D']].
  - rewrite fsqrt_ok by lra. cbn [obind]. set (sd := sqrt (q * q * q + r * r)).
    assert (SD : sd * sd = q * q * q + r * r) by (apply sqrt_sqrt; lra).
    assert (SP : 0 < sd) by (apply sqrt_lt_R0; assumption).
    destruct (signed_cbrt_ok (r + sd)) as (s1 & E1 & C1). destruct (signed_cbrt_ok (r - sd)) as (s2 & E2 & C2).
    rewrite E1, E2. cbn [obind]. eexists; split; [reflexivity|]. left. cbn [num_roots c_x1]. split; [reflexivity|].
    assert (S12 : s1 * s2 = - q).
    { apply cube_inj. replace (s1 * s2 * (s1 * s2) * (s1 * s2)) with ((s1 * s1 * s1) * (s2 * s2 * s2)) by ring. rewrite C1, C2.
      replace ((r + sd) * (r - sd)) with (r * r - sd * sd) by ring. rewrite SD. ring. }
    exists (- (s1 + s2) / 2 - a2 / 3), (3 / 4 * ((s1 - s2) * (s1 - s2))). split.
    + assert (s1 - s2 <> 0). { intros Q. assert (s1 = s2) by lra. subst s2. lra. } nra.
    + intros x. rewrite HP. unfold q, r. rewrite (one_real a2 a1 a0 s1 s2); [field|fold r; lra|fold q; assumption].
  - assert (QN : q < 0). { destruct (Rlt_dec q 0); [assumption|]. pose proof (Rle_0_sqr r) as S. unfold Rsqr in S. assert (0 <= q * q * q) by (apply Rmult_le_pos; [apply Rmult_le_pos|]; lra). lra. }
    assert (QC : 0 < - q * q * q). { replace (- q * q * q) with ((- q) * (- q) * (- q)) by ring. apply Rmult_lt_0_compat; [apply Rmult_lt_0_compat|]; lra. }
    rewrite !fsqrt_ok by lra. cbn [obind]. set (d := sqrt (- q * q * q)).
    assert (DP : 0 < d) by (apply sqrt_lt_R0; assumption). assert (DD : d * d = - q * q * q) by (apply sqrt_sqrt; lra).
    rewrite fdiv_ok by lra. cbn [obind].
    assert (RD : r * r < d * d) by lra.
    assert (B : -1 <= r / d <= 1).
    { assert (- d < r < d) by nra. split.
      - apply Rmult_le_reg_r with d; [assumption|]. unfold Rdiv. rewrite Rmult_assoc, Rinv_l by lra. lra.
      - apply Rmult_le_reg_r with d; [assumption|]. unfold Rdiv. rewrite Rmult_assoc, Rinv_l by lra. lra. }
    rewrite facos_ok by assumption. cbn [obind]. set (th := acos (r / d) / 3). set (sq := sqrt (- q)). set (s3 := sqrt 3).
    assert (SQ : sq * sq = - q) by (apply sqrt_sqrt; lra). assert (SQP : 0 < sq) by (apply sqrt_lt_R0; lra).
    assert (S3 : s3 * s3 = 3) by (apply sqrt_sqrt; lra). assert (S3P : 0 < s3) by (apply sqrt_lt_R0; lra).
    assert (DQ : d = sq * sq * sq).
    { apply Rsqr_inj; [lra|repeat apply Rmult_le_pos; lra|]. unfold Rsqr. rewrite DD. replace (sq * sq * sq * (sq * sq * sq)) with ((sq * sq) * (sq * sq) * (sq * sq)) by ring. rewrite SQ. ring. }
    assert (CT : sq * sq * sq * (4 * (cos th * cos th * cos th) - 3 * cos th) = r).
    { rewrite <- cos_triple. unfold th. replace (3 * (acos (r / d) / 3)) with (acos (r / d)) by field. rewrite cos_acos by assumption. rewrite <- DQ. field. lra. }
    assert (CS : cos th * cos th + sin th * sin th = 1) by (pose proof (sin2_cos2 th) as E; unfold Rsqr in E; lra).
    assert (SN : 0 <= sin th). { pose proof (acos_bound (r / d)). apply sin_ge_0; unfold th; pose proof PI_RGT_0; lra. }
    eexists; split; [reflexivity|]. right. cbn [num_roots c_x1 c_x2 c_x3]. split; [reflexivity|]. split.
    + apply Rle_trans with (- sq * cos th - a2 / 3 + s3 * sq * sin th); [|apply Rmax_r]. pose proof (Rmult_le_pos (s3 * sq) (sin th) ltac:(nra) SN). lra.
    + intros x. rewrite HP. unfold q, r. rewrite (three_real a2 a1 a0 sq s3 (cos th) (sin th)); [ring|assumption..].
  - assert (D0 : q * q * q + r * r = 0) by lra. destruct (signed_cbrt_ok r) as (s & E & C). rewrite E. cbn [obind].
    assert (SQ : - (s * s) = q). { apply cube_inj. replace (- (s * s) * - (s * s) * - (s * s)) with (- ((s * s * s) * (s * s * s))) by ring. rewrite C. lra. }
    eexists; split; [reflexivity|]. right. cbn [num_roots c_x1 c_x2 c_x3]. split; [reflexivity|]. split; [apply Rmax_r|].
    intros x. rewrite HP. rewrite <- SQ, <- C. ring.
Qed.

(** ** Quartic *)

Definition quartic_poly (d4 d3 d2 d1 d0 x : R) : R := d4 * (x * x * x * x) + d3 * (x * x * x) + d2 * (x * x) + d1 * x + d0.

(** A quadratic x^2 + b x + c written through its discriminant D2 = b^2 - 4 c. *)
Lemma quadratic_roots h D2 x : 0 <= D2 -> (x - h) * (x - h) - D2 / 4 = (x - (h - 0.5 * sqrt D2)) * (x - (h + 0.5 * sqrt D2)).
Proof.
  intros H. replace ((x - (h - 0.5 * sqrt D2)) * (x - (h + 0.5 * sqrt D2))) with ((x - h) * (x - h) - (sqrt D2 * sqrt D2) / 4) by lra.
  rewrite sqrt_sqrt by assumption. reflexivity.
Qed.
Lemma quadratic_none h D2 x : D2 < 0 -> 0 < (x - h) * (x - h) - D2 / 4.
Proof. intros H. pose proof (Rle_0_sqr (x - h)) as S. unfold Rsqr in S. lra. Qed.

Lemma limit_nonneg (f : R -> R) u a b : (f = fun x => x * x - a) -> b = u -> (forall x, b < x -> 0 < f x) -> 0 <= f u.
Proof.
  intros -> -> H. destruct (Rle_dec 0 (u * u - a)) as [L|L]; [assumption|]. exfalso.
  assert (K : u * u - a < 0) by lra. set (m := a - u * u) in *. assert (0 < m) by (unfold m; lra).
  set (e := Rmin 1 (m / (2 * Rabs u + 2))).
  assert (P : 0 < 2 * Rabs u + 2) by (pose proof (Rabs_pos u); lra).
  assert (EP : 0 < e). { unfold e. apply Rmin_glb_lt; [lra|]. apply Rdiv_lt_0_compat; assumption. }
  assert (E1 : e <= 1) by apply Rmin_l. assert (E2 : e * (2 * Rabs u + 2) <= m).
  { apply Rle_trans with (m / (2 * Rabs u + 2) * (2 * Rabs u + 2)); [apply Rmult_le_compat_r; [lra|apply Rmin_r]|]. right. field. lra. }
  specialize (H (u + e) ltac:(lra)). pose proof (RRle_abs u) as E3.
  assert ((u + e) * (u + e) - a = e * (2 * u + e) - m) by (unfold m; ring).
  assert (e * (2 * u + e) <= e * (2 * Rabs u + 2)) by (apply Rmult_le_compat_l; lra). lra.
Qed.

(** The largest root of the resolvent: its sign pattern is all that matters. *)
Lemma resolvent a3 a2 a1 a0 u1 : let c := fun u => cubic_poly 1 (- a2) (a1 * a3 - 4 * a0) (4 * a0 * a2 - a1 * a1 - a0 * a3 * a3) u in
  c u1 = 0 -> (forall u, u1 < u -> 0 < c u) ->
  let R2 := 0.25 * a3 * a3 + u1 - a2 in
  0 <= R2 /\ (R2 = 0 -> 0 <= u1 * u1 - 4 * a0 /\ a3 * u1 / 2 = a1) /\ R2 * (u1 * u1 - 4 * a0) = (a3 * u1 / 2 - a1) * (a3 * u1 / 2 - a1).
Proof.
  intros c H0 HP R2.
  assert (HC : forall u, c u = (0.25 * a3 * a3 + u - a2) * (u * u - 4 * a0) - (a3 * u / 2 - a1) * (a3 * u / 2 - a1)).
  { intros u. unfold c, cubic_poly. lra. }
  assert (H2 : R2 * (u1 * u1 - 4 * a0) = (a3 * u1 / 2 - a1) * (a3 * u1 / 2 - a1)) by (rewrite HC in H0; unfold R2; lra).
  split; [|split; [|assumption]].
  - set (us := a2 - 0.25 * a3 * a3). destruct (Rlt_dec u1 us) as [L|L]; [|unfold R2, us in *; lra].
    exfalso. specialize (HP us L). rewrite HC in HP. pose proof (Rle_0_sqr (a3 * us / 2 - a1)) as S. unfold Rsqr in S.
    replace (0.25 * a3 * a3 + us - a2) with 0 in HP by (unfold us; lra). lra.
  - intros E. rewrite E in H2. assert (Z : a3 * u1 / 2 - a1 = 0) by nra. split; [|lra].
    apply (limit_nonneg (fun x => x * x - 4 * a0) u1 (4 * a0) u1 eq_refl eq_refl). intros x Hx. specialize (HP x Hx). rewrite HC in HP.
    pose proof (Rle_0_sqr (a3 * x / 2 - a1)) as S. unfold Rsqr in S.
    assert (P : 0 < (0.25 * a3 * a3 + x - a2) * (x * x - 4 * a0)) by lra.
    assert (0 < 0.25 * a3 * a3 + x - a2) by (unfold R2 in E; lra).
    apply Rnot_le_lt. intros Q. nra.
Qed.

Definition pair_poly (real : bool) (xa xb : R) (Q : R -> R) : Prop :=
  if real then forall x, Q x = (x - xa) * (x - xb) else forall x, 0 < Q x.

Lemma quartic_factors a3 a2 a1 a0 u1 RR D2 E2 :
  let R2 := 0.25 * a3 * a3 + u1 - a2 in
  0 <= R2 -> RR = sqrt R2 -> R2 * (u1 * u1 - 4 * a0) = (a3 * u1 / 2 - a1) * (a3 * u1 / 2 - a1) ->
  (RR <> 0 -> D2 = 0.75 * a3 * a3 - R2 - 2 * a2 + 0.25 * (4 * a3 * a2 - 8 * a1 - a3 * a3 * a3) / RR /\
              E2 = 0.75 * a3 * a3 - R2 - 2 * a2 - 0.25 * (4 * a3 * a2 - 8 * a1 - a3 * a3 * a3) / RR) ->
  (RR = 0 -> 0 <= u1 * u1 - 4 * a0 /\ a3 * u1 / 2 = a1 /\
     D2 = 0.75 * a3 * a3 - 2 * a2 + 2 * sqrt (u1 * u1 - 4 * a0) /\ E2 = 0.75 * a3 * a3 - 2 * a2 - 2 * sqrt (u1 * u1 - 4 * a0)) ->
  forall x, x * x * x * x + a3 * (x * x * x) + a2 * (x * x) + a1 * x + a0 =
    ((x - (-0.25 * a3 + 0.5 * RR)) * (x - (-0.25 * a3 + 0.5 * RR)) - D2 / 4) *
    ((x - (-0.25 * a3 - 0.5 * RR)) * (x - (-0.25 * a3 - 0.5 * RR)) - E2 / 4).
Proof.
  intros R2 HR2 ER HK H1 H2 x. assert (RR2 : RR * RR = R2) by (rewrite ER; apply sqrt_sqrt; assumption).
  destruct (Req_EM_T RR 0) as [Z|Z].
  - destruct (H2 Z) as (P & W & -> & ->). rewrite Z in RR2. rewrite Z.
    set (s := sqrt (u1 * u1 - 4 * a0)). assert (SS : s * s = u1 * u1 - 4 * a0) by (apply sqrt_sqrt; assumption).
    assert (U : u1 = a2 - 0.25 * a3 * a3) by (unfold R2 in RR2; lra).
    assert (A0 : a0 = (u1 * u1 - s * s) / 4) by lra. rewrite <- W, A0. clearbody s. rewrite U. lra.
  - destruct (H1 Z) as (-> & ->).
    set (k := (a3 * u1 / 2 - a1) / (2 * RR)).
    assert (HA : (u1 * u1 - 4 * a0) = 4 * (k * k)).
    { apply Rmult_eq_reg_l with R2; [|rewrite <- RR2; nra]. rewrite HK. unfold k. rewrite <- RR2. field. assumption. }
    assert (A0 : a0 = u1 * u1 / 4 - k * k) by lra.
    assert (A1 : a1 = a3 * u1 / 2 - 2 * (RR * k)) by (unfold k; field; assumption).
    assert (U : u1 = RR * RR + a2 - 0.25 * a3 * a3) by (unfold R2 in RR2; lra).
    clearbody k. rewrite <- RR2. subst a0 a1. clear - Z U. subst u1.
    replace 0.75 with (3 / 4) by lra. replace 0.25 with (1 / 4) by lra. replace (-0.25) with (- (1 / 4)) by lra. replace 0.5 with (1 / 2) by lra. field. assumption.
Qed.
