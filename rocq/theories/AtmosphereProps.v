(** The power-law atmosphere holds the mass it says (src/model_atmosphere.hpp 91-135). *)
From Coq Require Import Reals Lra.
From Coquelicot Require Import Coquelicot.
From Verif Require Import Base AtmosphereModel AtmosphereProofs.
Open Scope R_scope.

(** *** Statements *)
(** The mass between two radii is the integral of 4 pi r^2 rho(r); the mass beyond a radius is its limit. *)
Definition mass_between (a : atmosphere) (x y m : R) : Prop := is_RInt (fun r => 4 * PI * r ^ 2 * density_at a r) x y m.
Definition mass_beyond (a : atmosphere) (x m : R) : Prop :=
  (forall y, x <= y -> ex_RInt (fun r => 4 * PI * r ^ 2 * density_at a r) x y) /\
  is_lim (fun y => RInt (fun r => 4 * PI * r ^ 2 * density_at a r) x y) p_infty m.
Definition mass_unbounded (a : atmosphere) (x : R) : Prop :=
  (forall y, x <= y -> ex_RInt (fun r => 4 * PI * r ^ 2 * density_at a r) x y) /\
  is_lim (fun y => RInt (fun r => 4 * PI * r ^ 2 * density_at a r) x y) p_infty p_infty.

(** *** Limits *)
Lemma ln_far c : 0 < c -> is_lim (fun y => ln (y / c)) p_infty p_infty.
Proof.
  intros Hc. apply (is_lim_comp ln (fun y => y / c) p_infty p_infty p_infty).
  - exact is_lim_ln_p.
  - replace p_infty with (Rbar_mult p_infty (/ c)) at 2.
    + apply (is_lim_scal_r (fun y => y) (/ c) p_infty p_infty). apply is_lim_id.
    + pose proof (Rinv_0_lt_compat c Hc) as P. cbn. destruct (Rle_dec 0 (/ c)) as [L|L]; [|exfalso; lra]. destruct (Rle_lt_or_eq_dec 0 (/ c) L); [reflexivity|exfalso; lra].
  - exists 0. intros y _. discriminate.
Qed.
Lemma faded k c : 0 < c -> k < 0 -> is_lim (fun y => exp (k * ln (y / c))) p_infty 0.
Proof.
  intros Hc Hk. apply (is_lim_comp exp (fun y => k * ln (y / c)) p_infty 0 m_infty).
  - exact is_lim_exp_m.
  - replace m_infty with (Rbar_mult k p_infty).
    + apply is_lim_scal_l, ln_far. exact Hc.
    + cbn. destruct (Rle_dec 0 k); [exfalso; lra|reflexivity].
  - exists 0. intros y _. discriminate.
Qed.
Lemma from_to (f : R -> R) x y b : x <= y -> y <= b -> ex_RInt f x y -> ex_RInt f y b -> RInt f x b = RInt f x y + RInt f y b.
Proof. intros _ _ A B. symmetry. exact (RInt_Chasles f x y b A B). Qed.

Section Proofs.
Context (a : atmosphere).
Hypothesis (H0 : 0 < r0 a) (H1 : r0 a <= rc a).
Let f (r : R) : R := 4 * PI * r ^ 2 * density_at a r.
Lemma outside_integrable y : rc a <= y -> ex_RInt f (rc a) y.
Proof.
  intros H. apply (ex_RInt_ext (law (density_inside a (rc a)) (rc a) (n2 a))).
  { intros r Hr. rewrite Rmin_left, Rmax_right in Hr by lra. symmetry. apply (shell_outside a); lra. }
  apply (ex_RInt_continuous (law (density_inside a (rc a)) (rc a) (n2 a))). intros r Hr. rewrite Rmin_left, Rmax_right in Hr by lra. apply law_continuous; lra.
Qed.
Lemma mass_beyond_holds m : mass_beyond_cutoff a = Ok m -> mass_beyond a (rc a) m.
Proof.
  unfold mass_beyond_cutoff. destruct (Rle_dec (n2 a) 3) as [L|L]; [discriminate|]. intros E. injection E as <-. split; [exact outside_integrable|].
  unfold density_at at 2. destruct (Rle_dec (rc a) (rc a)) as [_|X]; [|lra]. set (M := 4 * PI * density_inside a (rc a) * rc a ^ 3 / (n2 a - 3)).
  apply (is_lim_ext_loc (fun y => M * (1 - exp ((3 - n2 a) * ln (y / rc a))))).
  { exists (rc a). intros y Hy. symmetry. apply is_RInt_unique. apply (beyond a H0 H1); lra. }
  assert (G : is_lim (fun y => M * (1 - exp ((3 - n2 a) * ln (y / rc a)))) p_infty (Rbar_mult M (1 - 0))).
  { apply (is_lim_scal_l (fun y => 1 - exp ((3 - n2 a) * ln (y / rc a)))). apply (is_lim_minus' (fun _ => 1)); [apply is_lim_const|]. apply faded; lra. }
  change (Rbar_mult M (1 - 0)) with (Finite (M * (1 - 0))) in G. replace (M * (1 - 0)) with M in G by ring. exact G.
Qed.
Lemma mass_beyond_diverges : 0 < f0 a -> n2 a <= 3 -> mass_unbounded a (rc a).
Proof.
  intros Hf Hn. split; [exact outside_integrable|]. set (k := 4 * PI * density_inside a (rc a) * rc a ^ 3).
  assert (Hk : 0 < density_inside a (rc a)) by (unfold density_inside; apply Rmult_lt_0_compat; [exact Hf|apply cpow_pos]).
  assert (P : 0 < k) by (unfold k; pose proof PI_RGT_0; pose proof (pow_lt (rc a) 3 ltac:(lra)); apply Rmult_lt_0_compat; [apply Rmult_lt_0_compat; [lra|exact Hk]|assumption]).
  apply (is_lim_le_p_loc (fun y => k * ln (y / rc a))).
  - exists (rc a). intros y Hy.
    assert (I : is_RInt (fun r => k * / r) (rc a) y (k * ln y - k * ln (rc a))).
    { apply (ftc (fun r => k * ln r)); [lra|intros r Hr; auto_derive; [lra|ring]|]. intros r Hr. apply dcont. eexists. auto_derive; [lra|reflexivity]. }
    pose proof (is_RInt_unique (fun r => k * / r) (rc a) y _ I) as U. assert (U2 : k * ln (y / rc a) = RInt (fun r => k * / r) (rc a) y) by (rewrite U, ln_div; lra). rewrite U2.
    apply RInt_le; [lra|eexists; exact I|apply outside_integrable; lra|]. intros r Hr. change (4 * PI * r ^ 2 * density_at a r) with (shell a r). rewrite (shell_outside a H0 H1) by lra. unfold law.
    assert (Q : (rc a / r) ^ 3 <= cpow (r / rc a) (- n2 a)).
    { rewrite cube by (apply Rdiv_lt_0_compat; lra). unfold cpow, Rpower. rewrite !ln_div by lra. assert (0 <= ln r - ln (rc a)) by (pose proof (ln_increasing (rc a) r ltac:(lra) ltac:(lra)); lra).
      assert (E : 3 * (ln (rc a) - ln r) <= - n2 a * (ln r - ln (rc a))) by nra. destruct (Rle_lt_or_eq_dec _ _ E) as [X|X]; [left; apply exp_increasing; exact X|right; f_equal; exact X]. }
    replace (k * / r) with (4 * PI * r ^ 2 * (density_inside a (rc a) * (rc a / r) ^ 3)) by (unfold k; field; lra).
    apply Rmult_le_compat_l; [pose proof PI_RGT_0; pose proof (pow2_ge_0 r); nra|]. apply Rmult_le_compat_l; [lra|exact Q].
  - assert (G : is_lim (fun y => k * ln (y / rc a)) p_infty (Rbar_mult k p_infty)) by (apply is_lim_scal_l, ln_far; lra).
    replace (Rbar_mult k p_infty) with p_infty in G; [exact G|]. cbn. destruct (Rle_dec 0 k) as [L|L]; [|exfalso; lra]. destruct (Rle_lt_or_eq_dec 0 k L); [reflexivity|exfalso; lra].
Qed.
Lemma total_holds m : total_mass a = Ok m -> mass_beyond a (r0 a) m.
Proof.
  unfold total_mass. destruct (mass_beyond_cutoff a) as [mb| | |] eqn:E; cbn [bind]; try discriminate. intros X. injection X as <-.
  destruct (mass_beyond_holds mb E) as [_ L]. pose proof (within a H0 H1) as W. fold f in L.
  assert (EX : forall y, rc a <= y -> ex_RInt f (r0 a) y) by (intros y Hy; apply (ex_RInt_Chasles f _ (rc a)); [eexists; exact W|apply outside_integrable; exact Hy]).
  split.
  - intros y Hy. destruct (Rle_dec (rc a) y) as [G|G]; [apply EX; exact G|].
    apply (ex_RInt_Chasles_1 f _ y (rc a)); [lra|eexists; exact W].
  - apply (is_lim_ext_loc (fun y => mass_within_cutoff a + RInt f (rc a) y)).
    { exists (rc a). intros y Hy. change (mass_within_cutoff a + RInt f (rc a) y = RInt f (r0 a) y). rewrite (from_to f (r0 a) (rc a) y ltac:(lra) ltac:(lra) (ex_intro _ _ W) (outside_integrable y ltac:(lra))). f_equal. symmetry. apply is_RInt_unique. exact W. }
    apply (is_lim_plus' (fun _ => mass_within_cutoff a)); [apply is_lim_const|exact L].
Qed.
End Proofs.

(** *** Theorems *)
(** The masses within and beyond the cutoff radius and the total mass are the integrals of the density profile; and where
    the program refuses to give a mass beyond the cutoff, there is no finite one. *)
Theorem atmosphere_masses a : 0 < r0 a -> r0 a <= rc a ->
  mass_between a (r0 a) (rc a) (mass_within_cutoff a) /\
  (forall m, mass_beyond_cutoff a = Ok m -> mass_beyond a (rc a) m) /\
  (forall m, total_mass a = Ok m -> mass_beyond a (r0 a) m) /\
  ((exists m, total_mass a = Ok m) <-> 3 < n2 a) /\
  (0 < f0 a -> forall x, total_mass a = Throw x -> mass_unbounded a (rc a)).
Proof.
  intros H0 H1. split; [exact (within a H0 H1)|]. split; [exact (mass_beyond_holds a H0 H1)|]. split; [exact (total_holds a H0 H1)|]. unfold total_mass, mass_beyond_cutoff. split.
  - destruct (Rle_dec (n2 a) 3); cbn [bind]; split; [intros [m X]; discriminate|lra|lra|eauto].
  - intros Hf x. destruct (Rle_dec (n2 a) 3) as [L|L]; cbn [bind]; intros E; [|discriminate]. exact (mass_beyond_diverges a H0 H1 Hf L).
Qed.
Example atmosphere_masses_example : total_mass default_atmosphere = Ok (4 * PI * (1 / 10000 * 100 ^ 3 - 1) + 4 * PI * (1 / 10000) * 100 ^ 3 / 3) /\
  mass_beyond default_atmosphere 1 (4 * PI * (1 / 10000 * 100 ^ 3 - 1) + 4 * PI * (1 / 10000) * 100 ^ 3 / 3).
Proof.
  assert (P : cpow (100 / 1) (- (2)) = 1 / 10000).
  { unfold cpow, Rpower. replace (- (2) * ln (100 / 1)) with (- (ln 100 + ln 100)) by (replace (100 / 1) with 100 by field; ring). rewrite exp_Ropp, exp_plus, exp_ln by lra. field. }
  assert (E : total_mass default_atmosphere = Ok (4 * PI * (1 / 10000 * 100 ^ 3 - 1) + 4 * PI * (1 / 10000) * 100 ^ 3 / 3)).
  { unfold total_mass, mass_beyond_cutoff, mass_within_cutoff, density_at, density_inside, default_atmosphere. cbn [n1 n2 r0 rc f0]. destruct (Rle_dec 6 3) as [X|_]; [lra|]. destruct (Req_EM_T 2 3) as [X|_]; [lra|].
    destruct (Rle_dec 100 100) as [_|X]; [|lra]. destruct (Rle_dec 1 100) as [_|X]; [|lra]. cbn [bind]. rewrite P. replace (1 / 1) with 1 by field. rewrite cpow_one. f_equal. field. }
  split; [exact E|]. apply (atmosphere_masses default_atmosphere); [cbn; lra..|exact E].
Qed.

(** The density is continuous across the cutoff. *)
Theorem atmosphere_continuous a r : 0 < r0 a -> r0 a <= rc a -> 0 < r -> continuous (density_at a) r.
Proof.
  intros H0 H1 Hr. assert (LI : forall k s n x, 0 < s -> 0 < x -> continuous (fun y => k * cpow (y / s) (- n)) x).
  { intros k s n x Hs Hx. apply dcont. eexists. unfold cpow, Rpower. auto_derive; [apply Rdiv_lt_0_compat; assumption|reflexivity]. }
  destruct (Rtotal_order r (rc a)) as [L|[L|L]].
  - apply (continuous_ext_loc (density_at a) (density_inside a) r); [|apply LI; assumption].
    assert (P : 0 < rc a - r) by lra. exists (mkposreal _ P). intros y Hy. unfold density_at. destruct (Rle_dec y (rc a)) as [_|X]; [reflexivity|]. exfalso. unfold ball in Hy. cbn in Hy. unfold AbsRing_ball, abs, minus, plus, opp in Hy. cbn in Hy. apply Rabs_def2 in Hy. lra.
  - subst r. intros P HP.
    assert (V : density_at a (rc a) = density_inside a (rc a)) by (unfold density_at; destruct (Rle_dec _ _); [reflexivity|lra]).
    assert (V2 : density_at a (rc a) = density_inside a (rc a) * cpow (rc a / rc a) (- n2 a)) by (replace (rc a / rc a) with 1 by (field; lra); rewrite cpow_one, V; ring).
    destruct (LI (f0 a) (r0 a) (n1 a) (rc a) H0 Hr P) as [d1 D1]; [change (locally (density_inside a (rc a)) P); rewrite <- V; exact HP|].
    destruct (LI (density_inside a (rc a)) (rc a) (n2 a) (rc a) Hr Hr P) as [d2 D2]; [change (locally (density_inside a (rc a) * cpow (rc a / rc a) (- n2 a)) P); rewrite <- V2; exact HP|].
    exists (mkposreal _ (Rmin_stable_in_posreal d1 d2)). intros y Hy. unfold density_at. cbn in Hy. destruct (Rle_dec y (rc a)).
    + apply D1. eapply ball_le; [|exact Hy]. apply Rmin_l.
    + apply D2. eapply ball_le; [|exact Hy]. apply Rmin_r.
  - apply (continuous_ext_loc (density_at a) (fun y => density_inside a (rc a) * cpow (y / rc a) (- n2 a)) r); [|apply LI; lra].
    assert (P : 0 < r - rc a) by lra. exists (mkposreal _ P). intros y Hy. unfold density_at. destruct (Rle_dec y (rc a)) as [X|_]; [|reflexivity]. exfalso. unfold ball in Hy. cbn in Hy. unfold AbsRing_ball, abs, minus, plus, opp in Hy. cbn in Hy. apply Rabs_def2 in Hy. lra.
Qed.

(** Asking for a total mass gives that mass divided by the coefficient the model had before: right from the default
    coefficient 1 only. *)
Lemma coefficient_scales a x m : f0 a <> 0 -> total_mass a = Ok m -> total_mass (with_coefficient a x) = Ok (x / f0 a * m).
Proof.
  intros Hf. assert (D : forall r, density_at (with_coefficient a x) r = x / f0 a * density_at a r).
  { intros r. unfold density_at, density_inside, with_coefficient. cbn [f0 r0 rc n1 n2]. destruct (Rle_dec r (rc a)); field; exact Hf. }
  unfold total_mass, mass_beyond_cutoff, mass_within_cutoff. rewrite !D. cbn [with_coefficient n1 n2 r0 rc]. destruct (Rle_dec (n2 a) 3) as [L|L]; cbn [bind]; [discriminate|]. intros E. injection E as <-. f_equal.
  destruct (Req_EM_T (n1 a) 3) as [_|N]; field; repeat split; lra.
Qed.
Theorem with_total_mass_scaled a m a' : f0 a <> 0 -> total_mass a <> Ok 0 -> with_total_mass a m = Ok a' -> total_mass a' = Ok (m / f0 a).
Proof.
  intros Hf Ht. unfold with_total_mass. destruct (total_mass a) as [t| | |] eqn:E; cbn [bind]; try discriminate. intros X. injection X as <-.
  rewrite (coefficient_scales a (m / t) t Hf E). f_equal. field. split; [exact Hf|]. intros ->. apply Ht. reflexivity.
Qed.
Theorem with_total_mass_from_default a m : 0 < r0 a -> r0 a < rc a -> n1 a < 3 -> 3 < n2 a -> f0 a = 1 ->
  exists a', with_total_mass a m = Ok a' /\ total_mass a' = Ok m /\ mass_beyond a' (r0 a') m.
Proof.
  intros H0 H1 N1 N2 Hf.
  assert (TP : exists t, total_mass a = Ok t /\ 0 < t).
  { unfold total_mass, mass_beyond_cutoff, mass_within_cutoff. destruct (Rle_dec (n2 a) 3) as [L|_]; [lra|]. cbn [bind]. eexists. split; [reflexivity|]. destruct (Req_EM_T (n1 a) 3) as [X|_]; [lra|].
    unfold density_at. destruct (Rle_dec (rc a) (rc a)) as [_|X]; [|lra]. destruct (Rle_dec (r0 a) (rc a)) as [_|X]; [|lra]. unfold density_inside. rewrite Hf. replace (r0 a / r0 a) with 1 by (field; lra). rewrite cpow_one.
    assert (K : r0 a ^ 3 < cpow (rc a / r0 a) (- n1 a) * rc a ^ 3).
    { rewrite (cube (r0 a)), (cube (rc a)) by lra. unfold cpow, Rpower. rewrite <- exp_plus. apply exp_increasing. rewrite ln_div by lra. pose proof (ln_increasing (r0 a) (rc a) H0 H1). nra. }
    pose proof (cpow_pos (rc a / r0 a) (- n1 a)) as CP. pose proof PI_RGT_0 as PP. pose proof (pow_lt (rc a) 3 ltac:(lra)) as RP.
    apply Rplus_lt_0_compat; apply Rdiv_lt_0_compat; try lra; [nra|]. apply Rmult_lt_0_compat; [nra|exact RP]. }
  destruct TP as (t & E & Ht). exists (with_coefficient a (m / t)). assert (W : with_total_mass a m = Ok (with_coefficient a (m / t))) by (unfold with_total_mass; rewrite E; reflexivity).
  split; [exact W|]. assert (T : total_mass (with_coefficient a (m / t)) = Ok m).
  { replace m with (m / f0 a) at 2 by (rewrite Hf; field). apply (with_total_mass_scaled a m); [lra| |exact W]. rewrite E. intros X. injection X as X. lra. }
  split; [exact T|]. apply (atmosphere_masses (with_coefficient a (m / t))); [exact H0|cbn; lra|exact T].
Qed.
(** Asked for mass 10, a model with coefficient 2 has mass 5. *)
Theorem with_total_mass_refuted : exists a a', with_total_mass a 10 = Ok a' /\ total_mass a' = Ok 5.
Proof.
  destruct atmosphere_masses_example as [E _]. set (t := 4 * PI * (1 / 10000 * 100 ^ 3 - 1) + 4 * PI * (1 / 10000) * 100 ^ 3 / 3) in *.
  assert (Ht : 0 < t) by (unfold t; pose proof PI_RGT_0; lra).
  pose proof (coefficient_scales default_atmosphere 2 t ltac:(cbn; lra) E) as E2. exists (with_coefficient default_atmosphere 2). eexists. split; [unfold with_total_mass; rewrite E2; reflexivity|].
  assert (W : with_total_mass (with_coefficient default_atmosphere 2) 10 = Ok (with_coefficient (with_coefficient default_atmosphere 2) (10 / (2 / f0 default_atmosphere * t)))) by (unfold with_total_mass; rewrite E2; reflexivity).
  replace 5 with (10 / f0 (with_coefficient default_atmosphere 2)) by (cbn; field). apply (with_total_mass_scaled (with_coefficient default_atmosphere 2) 10); [cbn; lra| |exact W]. rewrite E2. intros X. injection X as X. cbn in X. lra.
Qed.

Print Assumptions atmosphere_masses.
Print Assumptions atmosphere_continuous.
Print Assumptions with_total_mass_scaled.
Print Assumptions with_total_mass_from_default.
Print Assumptions with_total_mass_refuted.
