(** Lemmas for C52: Kepler's equation and the Newton iteration of model_two_body.hpp:130-145. *)
From Coq Require Import Reals Lra Lia Psatz ZArith.
From Verif Require Import Base TwoBodyModel.
Open Scope R_scope.

Lemma cos_decr x y : 0 <= x <= PI -> 0 <= y <= PI -> x <= y -> cos y <= cos x.
Proof.
  intros [] [] L. destruct (Req_dec x y) as [->|N]; [lra|].
  apply Rlt_le, cos_decreasing_1; lra.
Qed.
(** The sine is concave on [0, pi]. *)
Lemma sin_tangent x y : 0 <= x <= PI -> 0 <= y <= PI -> sin y <= sin x + cos x * (y - x).
Proof.
  intros Hx Hy. destruct (Rtotal_order x y) as [L|[->|L]]; [|lra|].
  - destruct (MVT_cor2 sin cos x y L) as (c & E & C1 & C2); [intros; apply derivable_pt_lim_sin|].
    assert (cos c <= cos x) by (apply cos_decr; lra). nra.
  - destruct (MVT_cor2 sin cos y x L) as (c & E & C1 & C2); [intros; apply derivable_pt_lim_sin|].
    assert (cos x <= cos c) by (apply cos_decr; lra). nra.
Qed.
Lemma sin_le_id x : 0 <= x -> x <= PI -> sin x <= x.
Proof. intros. pose proof PI_RGT_0. pose proof (sin_tangent 0 x ltac:(lra) ltac:(lra)) as S. rewrite sin_0, cos_0 in S. lra. Qed.
Lemma cos_upper x : 0 <= x -> x <= PI / 2 -> cos x <= 1 - x ^ 2 / 2 + x ^ 4 / 24.
Proof.
  intros H0 H1. pose proof (cos_bound x 0 ltac:(lra) ltac:(lra)) as [_ C].
  change (2 * (0 + 1))%nat with 2%nat in C. unfold cos_approx, cos_term in C. cbn [sum_f_R0] in C.
  replace (INR (fact (2 * 0))) with 1 in C by (cbn; lra). replace (INR (fact (2 * 1))) with 2 in C by (cbn; lra).
  replace (INR (fact (2 * 2))) with 24 in C by (cbn; lra).
  replace (2 * 0)%nat with 0%nat in C by lia. replace (2 * 1)%nat with 2%nat in C by lia. replace (2 * 2)%nat with 4%nat in C by lia.
  cbn [pow] in C |- *. lra.
Qed.
Lemma pi_gt3 : 3 < PI.
Proof. pose proof PI2_3_2. lra. Qed.

(** The first Newton step from E = M does not leave [0, pi]. *)
Lemma first_step e M : 0 <= e <= 9 / 10 -> 0 <= M <= PI -> e * sin M <= (PI - M) * (1 - e * cos M).
Proof.
  intros He [H0 H1]. pose proof pi_gt3 as P3.
  assert (S1 : sin M <= M) by (apply sin_le_id; lra).
  assert (S2 : sin M <= PI - M). { rewrite <- sin_PI_x. apply sin_le_id; lra. }
  pose proof (SIN_bound M) as SB. pose proof (COS_bound M) as CB. assert (S0 : 0 <= sin M) by (apply sin_ge_0; lra).
  destruct (Rle_lt_dec (PI / 2) M) as [B|B].
  - assert (C : cos M <= 0). { apply cos_le_0; lra. }
    assert (e * sin M <= PI - M) by nra. assert (0 <= (PI - M) * (e * - cos M)) by (apply Rmult_le_pos; [lra|apply Rmult_le_pos; lra]). nra.
  - assert (C := cos_upper M H0 ltac:(lra)). assert (C0 : 0 <= cos M) by (apply cos_ge_0; lra).
    assert (G : 9 / 10 * (sin M + (PI - M) * cos M) <= PI - M).
    { destruct (Rle_lt_dec M 1) as [B1|B1].
      - assert (Q : cos M <= 1 - 11 / 24 * (M * M)).
        { assert (M ^ 4 <= M * M) by (cbn [pow]; assert (M * M <= 1) by nra; nra). cbn [pow] in C. cbn [pow] in *. nra. }
        assert (N : 3 - M <= PI - M) by lra.
        assert (K : 9 / 10 * M <= (3 - M) * (1 / 10 + 33 / 80 * (M * M))) by nra.
        assert (K1 : (3 - M) * (1 / 10 + 33 / 80 * (M * M)) <= (PI - M) * (1 / 10 + 33 / 80 * (M * M))) by (apply Rmult_le_compat_r; nra).
        assert (K2 : (PI - M) * cos M <= (PI - M) * (1 - 11 / 24 * (M * M))) by (apply Rmult_le_compat_l; lra).
        nra.
      - assert (HC : cos M <= 13 / 24).
        { assert (C1 := cos_upper 1 ltac:(lra) ltac:(lra)). assert (cos M <= cos 1) by (apply cos_decr; lra). cbn [pow] in C1. lra. }
        destruct (Rle_lt_dec M (6 / 5)) as [B2|B2].
        + assert ((PI - M) * cos M <= (PI - M) * (13 / 24)) by (apply Rmult_le_compat_l; lra). lra.
        + assert (HD : cos M <= 37 / 100).
          { assert (C1 := cos_upper (6 / 5) ltac:(lra) ltac:(lra)). assert (cos M <= cos (6 / 5)) by (apply cos_decr; lra). cbn [pow] in C1. lra. }
          assert ((PI - M) * cos M <= (PI - M) * (37 / 100)) by (apply Rmult_le_compat_l; lra). lra. }
    assert (A : 0 <= sin M + (PI - M) * cos M) by (assert (0 <= (PI - M) * cos M) by (apply Rmult_le_pos; lra); lra).
    assert (e * (sin M + (PI - M) * cos M) <= 9 / 10 * (sin M + (PI - M) * cos M)) by (apply Rmult_le_compat_r; lra). lra.
Qed.

Section Kepler.
Context (e : R).
Hypothesis (He : 0 <= e <= 9 / 10).

Lemma kepler'_pos E : 1 / 10 <= kepler' e E <= 19 / 10.
Proof. unfold kepler'. pose proof (COS_bound E). nra. Qed.
(** Kepler's function is convex on [0, pi]. *)
Lemma kepler_convex M x y : 0 <= x <= PI -> 0 <= y <= PI -> kepler e M x + kepler' e x * (y - x) <= kepler e M y.
Proof. intros Hx Hy. pose proof (sin_tangent x y Hx Hy) as S. unfold kepler, kepler'. nra. Qed.

(** From the right of the root the iteration decreases, by at least half the tolerance per step. *)
Lemma newton_right tol M : 0 <= M <= PI -> 0 < tol -> forall n x, 0 <= x <= PI -> 0 <= kepler e M x -> x <= INR n * (tol / 2) ->
  exists E, newton (S n) (kepler e M) (kepler' e) tol x = Ok E /\ 0 <= E <= PI.
Proof.
  intros HM Ht n. induction n as [|n IH]; intros x Hx Hf Hn.
  - cbn [INR] in Hn. assert (x = 0) by lra. subst x. cbn [newton]. destruct (Rlt_dec tol (Rabs (kepler e M 0))) as [L|L].
    + exfalso. unfold kepler in *. rewrite sin_0 in *. assert (K : 0 - e * 0 - M = 0) by lra. rewrite K, Rabs_R0 in L. lra.
    + exists 0. split; [reflexivity|lra].
  - remember (S n) as n' eqn:En. cbn [newton]. destruct (Rlt_dec tol (Rabs (kepler e M x))) as [L|L]; [|exists x; split; [reflexivity|lra]].
    subst n'. rewrite Rabs_right in L by lra. pose proof (kepler'_pos x) as G. set (d := kepler e M x / kepler' e x).
    assert (D : d * kepler' e x = kepler e M x) by (unfold d; field; lra).
    assert (D0 : tol / 2 <= d) by nra.
    assert (X0 : 0 <= x - d).
    { pose proof (kepler_convex M x 0 Hx ltac:(lra)) as C. assert (K : kepler e M 0 = - M) by (unfold kepler; rewrite sin_0; lra). rewrite K in C. nra. }
    apply IH; [lra| |].
    + pose proof (kepler_convex M x (x - d) Hx ltac:(lra)) as C. replace (x - d - x) with (- d) in C by ring. nra.
    + rewrite S_INR in Hn. lra.
Qed.
Lemma newton_base tol : 0 < tol -> exists n, forall M, 0 <= M <= PI -> exists E, newton n (kepler e M) (kepler' e) tol M = Ok E /\ 0 <= E <= PI.
Proof.
  intros Ht. pose proof pi_gt3. pose proof (archimed (PI / (tol / 2))) as [A _]. set (n := Z.to_nat (up (PI / (tol / 2)))).
  assert (HN : PI <= INR n * (tol / 2)).
  { unfold n. rewrite INR_IZR_INZ, Z2Nat.id. 2: { apply le_IZR. assert (0 < PI / (tol / 2)) by (apply Rdiv_lt_0_compat; lra). lra. }
    assert (PI = PI / (tol / 2) * (tol / 2)) by (field; lra). nra. }
  exists (S (S n)). intros M HM. remember (S n) as n' eqn:En. cbn [newton].
  destruct (Rlt_dec tol (Rabs (kepler e M M))) as [L|L]; [|exists M; split; [reflexivity|lra]]. subst n'.
  pose proof (kepler'_pos M) as G. set (d := kepler e M M / kepler' e M).
  assert (D : d * kepler' e M = kepler e M M) by (unfold d; field; lra).
  assert (K : kepler e M M = - (e * sin M)) by (unfold kepler; ring).
  assert (S0 : 0 <= sin M) by (apply sin_ge_0; lra). pose proof (first_step e M He HM) as F. fold (kepler' e M) in F.
  assert (D1 : d <= 0) by nra. assert (D2 : M - d <= PI) by nra.
  apply newton_right; try lra.
  pose proof (kepler_convex M M (M - d) HM ltac:(lra)) as C. replace (M - d - M) with (- d) in C by ring. lra.
Qed.
End Kepler.

(** Symmetries of the iteration. *)
Lemma sin_shift x k : sin (x + 2 * IZR k * PI) = sin x.
Proof.
  destruct (Z_le_gt_dec 0 k) as [H|H].
  - rewrite <- (Z2Nat.id k H), <- INR_IZR_INZ. apply sin_period.
  - rewrite <- (sin_period (x + 2 * IZR k * PI) (Z.to_nat (- k))). rewrite INR_IZR_INZ, Z2Nat.id by lia. rewrite opp_IZR. f_equal. ring.
Qed.
Lemma cos_shift x k : cos (x + 2 * IZR k * PI) = cos x.
Proof.
  destruct (Z_le_gt_dec 0 k) as [H|H].
  - rewrite <- (Z2Nat.id k H), <- INR_IZR_INZ. apply cos_period.
  - rewrite <- (cos_period (x + 2 * IZR k * PI) (Z.to_nat (- k))). rewrite INR_IZR_INZ, Z2Nat.id by lia. rewrite opp_IZR. f_equal. ring.
Qed.
Definition omap {A B} (f : A -> B) (m : outcome A) : outcome B := do x <- m; Ok (f x).
Lemma newton_shift e M k n x tol :
  newton n (kepler e (M + 2 * IZR k * PI)) (kepler' e) tol (x + 2 * IZR k * PI) = omap (fun y => y + 2 * IZR k * PI) (newton n (kepler e M) (kepler' e) tol x).
Proof.
  assert (F : forall y, kepler e (M + 2 * IZR k * PI) (y + 2 * IZR k * PI) = kepler e M y) by (intros; unfold kepler; rewrite sin_shift; ring).
  assert (G : forall y, kepler' e (y + 2 * IZR k * PI) = kepler' e y) by (intros; unfold kepler'; rewrite cos_shift; ring).
  revert x; induction n as [|n IH]; intros x; cbn [newton]; [reflexivity|]. rewrite F, G.
  destruct (Rlt_dec tol (Rabs (kepler e M x))); [|reflexivity]. rewrite <- IH. f_equal. ring.
Qed.
Lemma newton_opp e M n x tol :
  newton n (kepler e (- M)) (kepler' e) tol (- x) = omap Ropp (newton n (kepler e M) (kepler' e) tol x).
Proof.
  assert (F : forall y, kepler e (- M) (- y) = - kepler e M y) by (intros; unfold kepler; rewrite sin_neg; ring).
  assert (G : forall y, kepler' e (- y) = kepler' e y) by (intros; unfold kepler'; rewrite cos_neg; ring).
  revert x; induction n as [|n IH]; intros x; cbn [newton]; [reflexivity|]. rewrite F, G, Rabs_Ropp.
  destruct (Rlt_dec tol (Rabs (kepler e M x))); [|reflexivity]. rewrite <- IH. f_equal. unfold Rdiv. ring.
Qed.
Lemma reduce_angle M : exists k r, M = r + 2 * IZR k * PI /\ - PI <= r <= PI.
Proof.
  pose proof pi_gt3. pose proof (archimed ((M + PI) / (2 * PI))) as [A B]. set (u := up ((M + PI) / (2 * PI))) in *.
  exists (u - 1)%Z, (M - 2 * IZR (u - 1) * PI). split; [ring|]. rewrite minus_IZR.
  assert (E : M + PI = (M + PI) / (2 * PI) * (2 * PI)) by (field; lra). split; nra.
Qed.
Lemma newton_terminates e tol : 0 <= e <= 9 / 10 -> 0 < tol -> exists n, forall M, exists E, newton n (kepler e M) (kepler' e) tol M = Ok E /\ Rabs (E - M) <= PI.
Proof.
  intros He Ht. destruct (newton_base e He tol Ht) as (n & H). exists n. intros M. destruct (reduce_angle M) as (k & r & -> & R).
  rewrite newton_shift. destruct (Rle_lt_dec 0 r) as [P|P].
  - destruct (H r ltac:(lra)) as (E & -> & HE). exists (E + 2 * IZR k * PI). split; [reflexivity|]. apply Rabs_le. lra.
  - destruct (H (- r) ltac:(lra)) as (E & Q & HE). pose proof (newton_opp e (- r) n (- r) tol) as O. rewrite Ropp_involutive, Q in O. rewrite O.
    exists (- E + 2 * IZR k * PI). split; [reflexivity|]. apply Rabs_le. lra.
Qed.
Lemma newton_sound n f g tol x E : newton n f g tol x = Ok E -> Rabs (f E) <= tol.
Proof.
  revert x; induction n as [|n IH]; intros x H; cbn [newton] in H; [discriminate H|].
  destruct (Rlt_dec tol (Rabs (f x))); [eauto|]. injection H as <-. lra.
Qed.
Lemma newton_more n m f g tol x E : newton n f g tol x = Ok E -> (n <= m)%nat -> newton m f g tol x = Ok E.
Proof.
  revert m x; induction n as [|n IH]; intros m x H L; cbn [newton] in H; [discriminate H|]. destruct m as [|m]; [lia|]. cbn [newton].
  destruct (Rlt_dec tol (Rabs (f x))); [|exact H]. apply IH; [exact H|lia].
Qed.

(** Kepler's equation has exactly one solution, and it depends smoothly on the mean anomaly. *)
Lemma sin_lipschitz x y : Rabs (sin x - sin y) <= Rabs (x - y).
Proof.
  assert (G : forall u v, u < v -> Rabs (sin v - sin u) <= Rabs (v - u)).
  { intros u v L. destruct (MVT_cor2 sin cos u v L) as (c & E & _); [intros; apply derivable_pt_lim_sin|]. rewrite E, Rabs_mult.
    assert (Rabs (cos c) <= 1) by (apply Rabs_le; pose proof (COS_bound c); lra). pose proof (Rabs_pos (v - u)). nra. }
  destruct (Rtotal_order x y) as [L|[->|L]]; [|rewrite !Rminus_diag_eq by reflexivity; lra|auto].
  rewrite (Rabs_minus_sym (sin x)), (Rabs_minus_sym x). auto.
Qed.
Lemma cos_lipschitz x y : Rabs (cos x - cos y) <= Rabs (x - y).
Proof. pose proof (sin_lipschitz (PI / 2 + x) (PI / 2 + y)) as S. rewrite !cos_sin. replace (PI / 2 + x - (PI / 2 + y)) with (x - y) in S by ring. exact S. Qed.
Lemma kepler_apart e M x y : 0 <= e < 1 -> (1 - e) * Rabs (x - y) <= Rabs (kepler e M x - kepler e M y).
Proof.
  intros He. replace (kepler e M x - kepler e M y) with ((x - y) - e * (sin x - sin y)) by (unfold kepler; ring).
  pose proof (Rabs_triang_inv (x - y) (e * (sin x - sin y))) as T. rewrite Rabs_mult, (Rabs_right e) in T by lra.
  pose proof (sin_lipschitz x y). assert (e * Rabs (sin x - sin y) <= e * Rabs (x - y)) by (apply Rmult_le_compat_l; lra). lra.
Qed.
Lemma kepler_unique e M x y : 0 <= e < 1 -> kepler e M x = 0 -> kepler e M y = 0 -> x = y.
Proof.
  intros He Hx Hy. pose proof (kepler_apart e M x y He) as A. rewrite Hx, Hy, Rminus_0_r, Rabs_R0 in A.
  assert (Z : Rabs (x - y) = 0). { pose proof (Rabs_pos (x - y)). nra. }
  destruct (Req_dec (x - y) 0) as [D|D]; [lra|]. apply Rabs_no_R0 in D. lra.
Qed.
Lemma kepler_solvable e M : 0 <= e < 1 -> exists E, kepler e M E = 0.
Proof.
  intros He. assert (C : continuity (kepler e M)) by (intros x; unfold kepler; apply derivable_continuous_pt; reg).
  destruct (IVT (kepler e M) (M - 2) (M + 2) C ltac:(lra)) as (E & _ & HE).
  - unfold kepler. pose proof (SIN_bound (M - 2)). nra.
  - unfold kepler. pose proof (SIN_bound (M + 2)). nra.
  - exists E. exact HE.
Qed.
