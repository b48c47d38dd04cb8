(** Proofs on the power-law atmosphere. *)
From Coq Require Import Reals Lra.
From Coquelicot Require Import Coquelicot.
From Verif Require Import Base AtmosphereModel.
Open Scope R_scope.

Lemma dcont (f : R -> R) x : ex_derive f x -> continuous f x.
Proof. exact (ex_derive_continuous f x). Qed.
Lemma ftc (F f : R -> R) a b : a <= b -> (forall r, a <= r <= b -> is_derive F r (f r)) -> (forall r, a <= r <= b -> continuous f r) -> is_RInt f a b (F b - F a).
Proof.
  intros H D C. apply (is_RInt_derive F f a b); intros r Hr; rewrite Rmin_left, Rmax_right in Hr by lra; auto.
Qed.
(** *** Powers *)
Lemma cpow_one y : cpow 1 y = 1.
Proof. unfold cpow, Rpower. rewrite ln_1, Rmult_0_r. apply exp_0. Qed.
Lemma cpow_pos x y : 0 < cpow x y.
Proof. apply exp_pos. Qed.
Lemma cube x : 0 < x -> x ^ 3 = exp (3 * ln x).
Proof. intros H. replace (3 * ln x) with (INR 3 * ln x) by (cbn; ring). change (exp (INR 3 * ln x)) with (Rpower x (INR 3)). symmetry. apply Rpower_pow. exact H. Qed.
Lemma ln_div x y : 0 < x -> 0 < y -> ln (x / y) = ln x - ln y.
Proof. intros. unfold Rdiv. rewrite ln_mult, ln_Rinv by (auto using Rinv_0_lt_compat). ring. Qed.

(** *** One power law *)
Section Law.
Context (k s n : R).
Hypothesis (Hs : 0 < s).
Definition law (r : R) : R := 4 * PI * r ^ 2 * (k * cpow (r / s) (- n)).
Lemma law_continuous r : 0 < r -> continuous law r.
Proof.
  intros Hr. apply dcont. eexists. unfold law, cpow, Rpower. auto_derive; [|reflexivity].
  repeat split; auto. apply Rdiv_lt_0_compat; assumption.
Qed.
Lemma law_integral a b : 0 < a -> a <= b -> n <> 3 ->
  is_RInt law a b (4 * PI * (k * cpow (b / s) (- n) * b ^ 3 - k * cpow (a / s) (- n) * a ^ 3) / (3 - n)).
Proof.
  intros Ha Hab Hn. set (F r := 4 * PI * (k * cpow (r / s) (- n) * r ^ 3) / (3 - n)).
  replace (4 * PI * (k * cpow (b / s) (- n) * b ^ 3 - k * cpow (a / s) (- n) * a ^ 3) / (3 - n)) with (F b - F a) by (unfold F; field; lra).
  apply ftc; [lra|intros r Hr..].
  - unfold F, law, cpow, Rpower. auto_derive.
    + repeat split; auto. apply Rdiv_lt_0_compat; lra.
    + unfold Rdiv. generalize (exp (- n * ln (r * / s))). intros x. field. repeat split; lra.
  - apply law_continuous. lra.
Qed.
Lemma law_integral_3 a b : 0 < a -> a <= b -> n = 3 -> is_RInt law a b (4 * PI * (k * cpow (b / s) (- n) * b ^ 3 * ln (b / a))).
Proof.
  intros Ha Hab H3. rewrite H3. assert (E : forall r, 0 < r -> cpow (r / s) (- (3)) * r ^ 3 = s ^ 3).
  { intros r Hr. unfold cpow, Rpower. rewrite (cube r Hr), (cube s Hs), <- exp_plus, ln_div by assumption. f_equal. ring. }
  set (F r := 4 * PI * (k * s ^ 3 * ln r)).
  replace (4 * PI * (k * cpow (b / s) (- (3)) * b ^ 3 * ln (b / a))) with (F b - F a).
  2:{ rewrite (Rmult_assoc k), E by lra. unfold F. rewrite ln_div by lra. ring. }
  assert (D : forall r, 0 < r -> law r = 4 * PI * (k * s ^ 3 * / r)).
  { intros r Hr. unfold law. rewrite H3, <- (E r Hr). field. lra. }
  apply ftc; [lra|intros r Hr..].
  - rewrite D by lra. unfold F. auto_derive; [lra|]. field. lra.
  - apply law_continuous. lra.
Qed.
End Law.

(** *** The atmosphere *)
Section Atmosphere.
Context (a : atmosphere).
Hypothesis (H0 : 0 < r0 a) (H1 : r0 a <= rc a).
Definition shell (r : R) : R := 4 * PI * r ^ 2 * density_at a r.
Let kc := density_inside a (rc a).

Lemma shell_inside r : r <= rc a -> shell r = law (f0 a) (r0 a) (n1 a) r.
Proof. intros H. unfold shell, density_at, law, density_inside. destruct (Rle_dec _ _); [reflexivity|lra]. Qed.
Lemma shell_outside r : rc a <= r -> shell r = law kc (rc a) (n2 a) r.
Proof.
  intros H. unfold shell, density_at, law. destruct (Rle_dec r (rc a)) as [L|L]; [|reflexivity].
  assert (r = rc a) as -> by lra. fold kc. unfold Rdiv. rewrite Rinv_r by lra. rewrite cpow_one. ring.
Qed.
Lemma within : is_RInt shell (r0 a) (rc a) (mass_within_cutoff a).
Proof.
  apply (is_RInt_ext (law (f0 a) (r0 a) (n1 a))).
  { intros r Hr. rewrite Rmin_left, Rmax_right in Hr by lra. symmetry. apply shell_inside. lra. }
  unfold mass_within_cutoff, density_at. destruct (Rle_dec (rc a) (rc a)) as [_|X]; [|lra]. destruct (Rle_dec (r0 a) (rc a)) as [_|X]; [|lra].
  destruct (Req_EM_T (n1 a) 3) as [E|E]; [apply law_integral_3|apply law_integral]; assumption.
Qed.
Lemma beyond b : rc a <= b -> n2 a <> 3 -> is_RInt shell (rc a) b (4 * PI * kc * rc a ^ 3 / (n2 a - 3) * (1 - exp ((3 - n2 a) * ln (b / rc a)))).
Proof.
  intros Hb Hn. apply (is_RInt_ext (law kc (rc a) (n2 a))).
  { intros r Hr. rewrite Rmin_left, Rmax_right in Hr by lra. symmetry. apply shell_outside. lra. }
  match goal with |- is_RInt _ _ _ ?x => replace x with (4 * PI * (kc * cpow (b / rc a) (- n2 a) * b ^ 3 - kc * cpow (rc a / rc a) (- n2 a) * rc a ^ 3) / (3 - n2 a)) end.
  { apply law_integral; [lra..|assumption]. }
  replace (rc a / rc a) with 1 by (field; lra). rewrite cpow_one. unfold cpow, Rpower. rewrite (cube b) by lra. rewrite ln_div by lra.
  replace ((3 - n2 a) * (ln b - ln (rc a))) with (- n2 a * (ln b - ln (rc a)) + 3 * ln b + - (3 * ln (rc a))) by ring. rewrite !exp_plus, exp_Ropp, <- (cube (rc a)) by lra. field. split; [lra|]. split; [lra|]. lra.
Qed.
End Atmosphere.
