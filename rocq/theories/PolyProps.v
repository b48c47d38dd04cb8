(** C42: the polynomial solvers report exactly the real roots. *)
From Coq Require Import Reals Lra Psatz.
From Verif Require Import PolyModel PolyProofs.
Open Scope R_scope.

Lemma mult_zero3 a b c d : a <> 0 -> a * b * c * d = 0 <-> b = 0 \/ c = 0 \/ d = 0.
Proof.
  intros H. split.
  - intros E. apply Rmult_integral in E as [E|E]; [|tauto]. apply Rmult_integral in E as [E|E]; [|tauto].
    apply Rmult_integral in E as [E|E]; [contradiction|tauto].
  - intros [->|[->| ->]]; ring.
Qed.

(** The solver always succeeds, and says one or three. *)
Theorem cubic_roots_exact (c3 c2 c1 c0 : R) : c3 <> 0 ->
  exists res, cubic_roots c3 c2 c1 c0 = Some res /\
    ((num_roots res = 1%nat /\ forall x, cubic_poly c3 c2 c1 c0 x = 0 <-> x = c_x1 res) \/
     (num_roots res = 3%nat /\ (forall x, cubic_poly c3 c2 c1 c0 x = 0 <-> x = c_x1 res \/ x = c_x2 res \/ x = c_x3 res) /\
        (* with their multiplicities *)
        forall x, cubic_poly c3 c2 c1 c0 x = c3 * (x - c_x1 res) * (x - c_x2 res) * (x - c_x3 res))).
Proof.
  intros H. destruct (cubic_roots_spec c3 c2 c1 c0 H) as (res & E & [(N & m & k & K & P)|(N & _ & P)]); exists res; split; try assumption.
  - left. split; [assumption|]. intros x. rewrite P. split.
    + intros Q. apply Rmult_integral in Q as [Q|Q].
      * apply Rmult_integral in Q as [Q|Q]; [contradiction|lra].
      * pose proof (Rle_0_sqr (x - m)) as S. unfold Rsqr in S. lra.
    + intros ->. ring.
  - right. split; [assumption|]. split; [|assumption]. intros x. rewrite P, mult_zero3 by assumption. split; intros [Q|[Q|Q]]; lra.
Qed.

Lemma largest_root a2 a1 a0 res : cubic_roots 1 a2 a1 a0 = Some res ->
  let u1 := if Nat.eqb (num_roots res) 1 then c_x1 res else Rmax (c_x1 res) (c_x3 res) in
  cubic_poly 1 a2 a1 a0 u1 = 0 /\ forall u, u1 < u -> 0 < cubic_poly 1 a2 a1 a0 u.
Proof.
  intros E. destruct (cubic_roots_spec 1 a2 a1 a0) as (res' & E' & H); [lra|]. rewrite E in E'. injection E' as <-.
  destruct H as [(N & m & k & K & P)|(N & M & P)]; rewrite N; cbn [Nat.eqb]; cbv zeta.
  - split; [rewrite P; ring|]. intros u Hu. rewrite P. pose proof (Rle_0_sqr (u - m)) as S. unfold Rsqr in S.
    apply Rmult_lt_0_compat; lra.
  - split.
    + rewrite P. unfold Rmax. destruct Rle_dec; ring.
    + intros u Hu. rewrite P. pose proof (Rmax_l (c_x1 res) (c_x3 res)). pose proof (Rmax_r (c_x1 res) (c_x3 res)).
      rewrite Rmult_1_l. apply Rmult_lt_0_compat; [apply Rmult_lt_0_compat|]; lra.
Qed.

Lemma quartic_roots_spec (d4 d3 d2 d1 d0 : R) : d4 <> 0 ->
  exists res Q1 Q2, quartic_roots d4 d3 d2 d1 d0 = Some res /\
    (forall x, quartic_poly d4 d3 d2 d1 d0 x = d4 * Q1 x * Q2 x) /\
    pair_poly (pair_1_is_real res) (q_x1 res) (q_x2 res) Q1 /\
    pair_poly (pair_2_is_real res) (q_x3 res) (q_x4 res) Q2.
Proof.
  intros H. unfold quartic_roots. rewrite !fdiv_ok by assumption. cbn [obind].
  set (a3 := d3 / d4). set (a2 := d2 / d4). set (a1 := d1 / d4). set (a0 := d0 / d4). cbv zeta.
  assert (HP : forall x, quartic_poly d4 d3 d2 d1 d0 x = d4 * (x * x * x * x + a3 * (x * x * x) + a2 * (x * x) + a1 * x + a0)).
  { intros x. unfold quartic_poly, a3, a2, a1, a0. field. assumption. }
  clearbody a3 a2 a1 a0.
  destruct (cubic_roots_spec 1 (- a2) (a1 * a3 - 4 * a0) (4 * a0 * a2 - a1 * a1 - a0 * a3 * a3)) as (cub & EC & _); [lra|].
  pose proof (largest_root _ _ _ _ EC) as LR. rewrite EC. cbn [obind]. cbv zeta in LR.
  set (u1 := if Nat.eqb (num_roots cub) 1 then c_x1 cub else Rmax (c_x1 cub) (c_x3 cub)) in *. destruct LR as [L1 L2].
  destruct (resolvent a3 a2 a1 a0 u1 L1 L2) as (R20 & RZ & RK).
  set (R2 := 0.25 * a3 * a3 + u1 - a2) in *. clearbody u1.
  assert (ER : (if Rlt_dec 0 R2 then fsqrt R2 else Some 0) = Some (sqrt R2)).
  { destruct (Rlt_dec 0 R2); [apply fsqrt_ok; lra|]. replace R2 with 0 by lra. rewrite sqrt_0. reflexivity. }
  rewrite ER. cbn [obind]. set (RR := sqrt R2).
  assert (EDE : exists D2 E2, (if Req_EM_T RR 0
    then let! s := fsqrt (u1 * u1 - 4 * a0) in Some (0.75 * a3 * a3 - 2 * a2 + 2 * s, 0.75 * a3 * a3 - 2 * a2 - 2 * s)
    else let! g := fdiv (0.25 * (4 * a3 * a2 - 8 * a1 - a3 * a3 * a3)) RR in Some (0.75 * a3 * a3 - R2 - 2 * a2 + g, 0.75 * a3 * a3 - R2 - 2 * a2 - g)) = Some (D2, E2) /\
    (forall x, x * x * x * x + a3 * (x * x * x) + a2 * (x * x) + a1 * x + a0 =
      ((x - (-0.25 * a3 + 0.5 * RR)) * (x - (-0.25 * a3 + 0.5 * RR)) - D2 / 4) *
      ((x - (-0.25 * a3 - 0.5 * RR)) * (x - (-0.25 * a3 - 0.5 * RR)) - E2 / 4))).
  { destruct (Req_EM_T RR 0) as [Z|Z].
    - assert (R2Z : R2 = 0) by (apply sqrt_eq_0; assumption). destruct (RZ R2Z) as [P W].
      rewrite fsqrt_ok by assumption. cbn [obind]. eexists; eexists; split; [reflexivity|].
      apply (quartic_factors a3 a2 a1 a0 u1 RR); fold R2; auto. intros; contradiction.
    - rewrite fdiv_ok by assumption. cbn [obind]. eexists; eexists; split; [reflexivity|].
      apply (quartic_factors a3 a2 a1 a0 u1 RR); fold R2; auto. intros; contradiction. }
  destruct EDE as (D2 & E2 & EDE & HF). rewrite EDE. cbn [obind]. clear EDE.
  set (Q1 := fun x => (x - (-0.25 * a3 + 0.5 * RR)) * (x - (-0.25 * a3 + 0.5 * RR)) - D2 / 4).
  set (Q2 := fun x => (x - (-0.25 * a3 - 0.5 * RR)) * (x - (-0.25 * a3 - 0.5 * RR)) - E2 / 4).
  assert (HQ : forall x, quartic_poly d4 d3 d2 d1 d0 x = d4 * Q1 x * Q2 x) by (intros x; rewrite HP, HF; unfold Q1, Q2; ring).
  destruct (Rle_dec 0 D2) as [PD|PD]; destruct (Rle_dec 0 E2) as [PE|PE]; rewrite ?fsqrt_ok by assumption; cbn [obind];
    eexists; exists Q1, Q2; (split; [reflexivity|]); (split; [assumption|]); cbn [fst snd q_x1 q_x2 q_x3 q_x4 pair_1_is_real pair_2_is_real];
    (split; [first [intros x; apply quadratic_roots; assumption | intros x; apply quadratic_none; lra]
            |first [intros x; apply quadratic_roots; assumption | intros x; apply quadratic_none; lra]]).
Qed.

(** The solver always succeeds; a number is a root exactly when it is reported in a pair flagged real. *)
Theorem quartic_roots_exact (d4 d3 d2 d1 d0 : R) : d4 <> 0 ->
  exists res, quartic_roots d4 d3 d2 d1 d0 = Some res /\
    forall x, quartic_poly d4 d3 d2 d1 d0 x = 0 <->
      (pair_1_is_real res = true /\ (x = q_x1 res \/ x = q_x2 res)) \/ (pair_2_is_real res = true /\ (x = q_x3 res \/ x = q_x4 res)).
Proof.
  intros H. destruct (quartic_roots_spec d4 d3 d2 d1 d0 H) as (res & Q1 & Q2 & E & P & P1 & P2). exists res. split; [assumption|]. intros x. rewrite P.
  assert (K : forall b xa xb Q, pair_poly b xa xb Q -> (Q x = 0 <-> b = true /\ (x = xa \/ x = xb))).
  { intros [|] xa xb Q HQ; unfold pair_poly in HQ; specialize (HQ x); split.
    - intros Z. rewrite HQ in Z. apply Rmult_integral in Z as [Z|Z]; (split; [reflexivity|]); [left|right]; lra.
    - rewrite HQ. intros [_ [->| ->]]; ring.
    - intros Z. lra.
    - intros [Z _]. discriminate Z. }
  rewrite <- (K _ _ _ _ P1), <- (K _ _ _ _ P2). split.
  - intros Z. apply Rmult_integral in Z as [Z|Z]; [|tauto]. apply Rmult_integral in Z as [Z|Z]; [contradiction|tauto].
  - intros [-> | ->]; ring.
Qed.

(** When both pairs are real the four values are the roots with their multiplicities. *)
Theorem quartic_roots_multiplicity (d4 d3 d2 d1 d0 : R) res : d4 <> 0 ->
  quartic_roots d4 d3 d2 d1 d0 = Some res -> pair_1_is_real res = true -> pair_2_is_real res = true ->
  forall x, quartic_poly d4 d3 d2 d1 d0 x = d4 * (x - q_x1 res) * (x - q_x2 res) * (x - q_x3 res) * (x - q_x4 res).
Proof.
  intros H E R1 R2 x. destruct (quartic_roots_spec d4 d3 d2 d1 d0 H) as (res' & Q1 & Q2 & E' & P & P1 & P2). rewrite E in E'. injection E' as <-.
  rewrite R1 in P1. rewrite R2 in P2. rewrite P, (P1 x), (P2 x). ring.
Qed.

(** Three points of a parabola with distinct abscissas give its vertex. *)
Theorem parabola_vertex_exact (al be ga x1 x2 x3 : R) : let p := fun t => al * t * t + be * t + ga in
  al <> 0 -> x1 <> x2 -> x1 <> x3 -> x2 <> x3 ->
  exists x y, parabola_vertex x1 x2 x3 (p x1) (p x2) (p x3) = Some (x, y) /\ forall t, p t = al * (t - x) * (t - x) + y.
Proof.
  intros p HA H12 H13 H23. unfold parabola_vertex. cbv zeta.
  assert (D : (x1 - x2) * (x1 - x3) * (x2 - x3) <> 0).
  { intros Q. apply Rmult_integral in Q as [Q|Q]; [apply Rmult_integral in Q as [Q|Q]|]; lra. }
  rewrite !(fdiv_ok _ _ D). cbn [obind].
  assert (EA : (x3 * (p x2 - p x1) + x2 * (p x1 - p x3) + x1 * (p x3 - p x2)) / ((x1 - x2) * (x1 - x3) * (x2 - x3)) = al).
  { unfold p. field. repeat split; lra. }
  assert (EB : (x3 * x3 * (p x1 - p x2) + x2 * x2 * (p x3 - p x1) + x1 * x1 * (p x2 - p x3)) / ((x1 - x2) * (x1 - x3) * (x2 - x3)) = be).
  { unfold p. field. repeat split; lra. }
  assert (EG : (x2 * x3 * (x2 - x3) * p x1 + x3 * x1 * (x3 - x1) * p x2 + x1 * x2 * (x1 - x2) * p x3) / ((x1 - x2) * (x1 - x3) * (x2 - x3)) = ga).
  { unfold p. field. repeat split; lra. }
  rewrite EA, EB, EG. rewrite !fdiv_ok by lra. cbn [obind]. eexists; eexists; split; [reflexivity|]. intros t. unfold p. field. assumption.
Qed.

(** Examples: a triple root, and a biquadratic with two double roots (the R = 0 branch). *)
Example cubic_triple_root res : cubic_roots 2 (-6) 6 (-2) = Some res -> forall x, (x = c_x1 res -> x = 1).
Proof.
  intros E x ->. destruct (cubic_roots_exact 2 (-6) 6 (-2)) as (res' & E' & H); [lra|]. rewrite E in E'. injection E' as <-.
  assert (Z : cubic_poly 2 (-6) 6 (-2) (c_x1 res) = 0) by (destruct H as [(_ & H)|(_ & H & _)]; apply H; tauto).
  unfold cubic_poly in Z. assert (Z' : (c_x1 res - 1) * (c_x1 res - 1) * (c_x1 res - 1) = 0) by lra.
  apply Rmult_integral in Z' as [Z'|Z']; [apply Rmult_integral in Z' as [Z'|Z']|]; lra.
Qed.
Example quartic_no_real_root res : quartic_roots 1 0 0 0 1 = Some res -> pair_1_is_real res = false /\ pair_2_is_real res = false.
Proof.
  intros E. destruct (quartic_roots_exact 1 0 0 0 1) as (res' & E' & H); [lra|]. rewrite E in E'. injection E' as <-.
  assert (N : forall x, quartic_poly 1 0 0 0 1 x <> 0).
  { intros x Q. unfold quartic_poly in Q. pose proof (Rle_0_sqr (x * x)) as S. unfold Rsqr in S. lra. }
  split.
  - destruct (pair_1_is_real res) eqn:P; [|reflexivity]. destruct (N (q_x1 res)). apply H. left. tauto.
  - destruct (pair_2_is_real res) eqn:P; [|reflexivity]. destruct (N (q_x3 res)). apply H. right. tauto.
Qed.
Example quartic_double_roots res : quartic_roots 1 0 (-2) 0 1 = Some res -> forall x,
  (pair_1_is_real res = true /\ (x = q_x1 res \/ x = q_x2 res)) \/ (pair_2_is_real res = true /\ (x = q_x3 res \/ x = q_x4 res)) <-> x = 1 \/ x = -1.
Proof.
  intros E x. destruct (quartic_roots_exact 1 0 (-2) 0 1) as (res' & E' & H); [lra|]. rewrite E in E'. injection E' as <-. rewrite <- H.
  unfold quartic_poly. split.
  - intros Q. assert (Q' : (x - 1) * (x + 1) * ((x - 1) * (x + 1)) = 0) by lra.
    apply Rmult_integral in Q' as [Q'|Q']; apply Rmult_integral in Q' as [Q'|Q']; [left|right|left|right]; lra.
  - intros [-> | ->]; lra.
Qed.

Print Assumptions cubic_roots_exact.
Print Assumptions quartic_roots_exact.
Print Assumptions quartic_roots_multiplicity.
Print Assumptions parabola_vertex_exact.
