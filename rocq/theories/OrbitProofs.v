(** Lemmas for C52: the exact orbit solves Newton's equations of motion. *)
From Coq Require Import Reals Lra Lia Psatz.
From Coquelicot Require Import Coquelicot.
From Verif Require Import Base TwoBodyModel TwoBodyProofs KeplerProofs.
Open Scope R_scope.

Section Anomaly.
Context (e w : R) (A : R -> R).
Hypothesis (He : 0 <= e < 1) (Hw : 0 < w) (HA : forall t, A t - e * sin (A t) = w * t).

Lemma anomaly_apart t u : (1 - e) * Rabs (A t - A u) <= w * Rabs (t - u).
Proof.
  pose proof (kepler_apart e 0 (A t) (A u) He) as K. unfold kepler in K.
  replace (A t - e * sin (A t) - 0 - (A u - e * sin (A u) - 0)) with (w * (t - u)) in K by (rewrite Rmult_minus_distr_l, <- !HA; ring).
  rewrite Rabs_mult, (Rabs_right w) in K by lra. exact K.
Qed.
Lemma kepler'_ge E : 1 - e <= kepler' e E.
Proof. unfold kepler'. pose proof (COS_bound E). nra. Qed.
Lemma anomaly_derive t : is_derive A t (w / kepler' e (A t)).
Proof.
  apply is_derive_Reals. intros eps Heps. set (g := kepler' e (A t)). pose proof (kepler'_ge (A t)) as G. fold g in G.
  assert (D : derivable_pt_lim (fun E => E - e * sin E) (A t) g).
  { apply is_derive_Reals. auto_derive; [trivial|]. unfold g, kepler'. ring. }
  assert (P1 : 0 < eps * ((1 - e) * g) / w) by (apply Rdiv_lt_0_compat; [apply Rmult_lt_0_compat; [lra|apply Rmult_lt_0_compat; lra]|lra]).
  destruct (D _ P1) as ((del & Hdel) & HD). cbn [pos] in HD.
  assert (P2 : 0 < del * (1 - e) / w) by (apply Rdiv_lt_0_compat; [apply Rmult_lt_0_compat; lra|lra]).
  exists (mkposreal _ P2). cbn [pos]. intros h Hh Hh2. set (k := A (t + h) - A t).
  assert (K0 : w * h = k - e * (sin (A t + k) - sin (A t))).
  { replace (A t + k) with (A (t + h)) by (unfold k; ring). pose proof (HA t). pose proof (HA (t + h)). unfold k. lra. }
  assert (Kn : k <> 0). { intros Z. rewrite Z, Rplus_0_r in K0. apply Hh. assert (w * h = 0) by lra. apply Rmult_integral in H. destruct H; lra. }
  assert (Kl : Rabs k < del).
  { pose proof (anomaly_apart (t + h) t) as L. fold k in L. replace (t + h - t) with h in L by ring.
    apply Rmult_lt_reg_l with (1 - e); [lra|]. apply Rle_lt_trans with (w * Rabs h); [exact L|].
    apply Rmult_lt_reg_r with (/ w); [apply Rinv_0_lt_compat; lra|]. replace (w * Rabs h * / w) with (Rabs h) by (field; lra).
    replace ((1 - e) * del * / w) with (del * (1 - e) / w) by (field; lra). exact Hh2. }
  specialize (HD k Kn Kl). replace ((A t + k - e * sin (A t + k) - (A t - e * sin (A t))) / k) with (w * h / k) in HD by (rewrite K0; field; exact Kn).
  set (r := w * h / k) in *.
  assert (R1 : 1 - e <= r).
  { assert (Q : (1 - e) * (k * k) <= w * h * k).
    { rewrite K0. pose proof (sin_lipschitz (A t + k) (A t)) as SL. replace (A t + k - A t) with k in SL by ring.
      assert (S2 : (sin (A t + k) - sin (A t)) * k <= k * k).
      { apply Rle_trans with (Rabs ((sin (A t + k) - sin (A t)) * k)); [apply Rle_abs|]. rewrite Rabs_mult.
        apply Rle_trans with (Rabs k * Rabs k); [apply Rmult_le_compat_r; [apply Rabs_pos|exact SL]|]. rewrite <- Rabs_mult, Rabs_right; [lra|nra]. }
      assert (e * ((sin (A t + k) - sin (A t)) * k) <= e * (k * k)) by (apply Rmult_le_compat_l; lra). nra. }
    assert (K2 : 0 < k * k) by (destruct (Rdichotomy _ _ Kn); nra).
    apply Rmult_le_reg_r with (k * k); [exact K2|]. unfold r. replace (w * h / k * (k * k)) with (w * h * k) by (field; exact Kn). exact Q. }
  replace (k / h - w / g) with (w * (g - r) / (r * g)).
  2: { assert (HK : k / h = w / r) by (unfold r; field; repeat split; try assumption; lra). rewrite HK. field. split; lra. }
  unfold Rdiv. rewrite !Rabs_mult, (Rabs_right w) by lra. rewrite (Rabs_right (/ (r * g))).
  2: { apply Rle_ge, Rlt_le, Rinv_0_lt_compat, Rmult_lt_0_compat; lra. }
  rewrite Rabs_minus_sym. apply Rmult_lt_reg_r with (r * g); [apply Rmult_lt_0_compat; lra|].
  rewrite Rmult_assoc, Rinv_l, Rmult_1_r by (apply Rgt_not_eq, Rmult_lt_0_compat; lra).
  apply Rlt_le_trans with (w * (eps * ((1 - e) * g) / w)); [apply Rmult_lt_compat_l; [lra|exact HD]|].
  replace (w * (eps * ((1 - e) * g) / w)) with (eps * ((1 - e) * g)) by (field; lra).
  apply Rmult_le_compat_l; [lra|]. apply Rmult_le_compat_r; lra.
Qed.
End Anomaly.

(** Existence of the exact anomaly as a function of time. *)
Lemma anomaly_exists e w : 0 <= e < 1 -> exists A : R -> R, forall t, A t - e * sin (A t) = w * t.
Proof.
  intros He. assert (S : forall M, {E : R | kepler e M E = 0}).
  { intros M. assert (C : continuity (kepler e M)) by (intros x; unfold kepler; apply derivable_continuous_pt; reg).
    destruct (IVT (kepler e M) (M - 2) (M + 2) C ltac:(lra)) as (E & _ & HE).
    - unfold kepler. pose proof (SIN_bound (M - 2)). nra.
    - unfold kepler. pose proof (SIN_bound (M + 2)). nra.
    - exists E. exact HE. }
  exists (fun t => proj1_sig (S (w * t))). intros t. cbv beta. destruct (S (w * t)) as (E & H). cbn [proj1_sig]. unfold kepler in H. lra.
Qed.

Section Motion.
Context (o : orbit) (A : R -> R).
Hypothesis (HB : bound o).
Hypothesis (HA : forall t, A t - ecc o * sin (A t) = omega_of o * t).
Let a := sep o.
Let e := ecc o.
Let w := omega_of o.
Let k := sqrt (1 - e * e).
Let n (E : R) := 1 - e * cos E.

Lemma dA t : is_derive A t (w / n (A t)).
Proof. apply anomaly_derive with (e := e) (w := w); [apply HB|apply omega_facts; exact HB|exact HA]. Qed.
Lemma npos E : 0 < n E.
Proof. exact (n_pos o E HB). Qed.

Let rx E := a * (cos E - e).
Let ry E := a * (sin E * k).
Let ux E := - a * w / n E * sin E.
Let uy E := a * w / n E * cos E * k.
Lemma compose (f : R -> R) df t : is_derive f (A t) df -> is_derive (fun t => f (A t)) t (w / n (A t) * df).
Proof. intros H. apply (is_derive_comp f A t df (w / n (A t))); [exact H|apply dA]. Qed.
Lemma drx t : is_derive (fun t => rx (A t)) t (ux (A t)).
Proof.
  replace (ux (A t)) with (w / n (A t) * (- a * sin (A t))); [|pose proof (npos (A t)); unfold ux; field; lra].
  apply compose. unfold rx. auto_derive; [trivial|]. ring.
Qed.
Lemma dry t : is_derive (fun t => ry (A t)) t (uy (A t)).
Proof.
  replace (uy (A t)) with (w / n (A t) * (a * cos (A t) * k)); [|pose proof (npos (A t)); unfold uy; field; lra].
  apply compose. unfold ry. auto_derive; [trivial|]. ring.
Qed.
Let M := mtot o.
Let d E := a * n E.
Lemma dpos E : 0 < d E.
Proof. unfold d. apply Rmult_lt_0_compat; [apply HB|apply npos]. Qed.
Lemma dux t : is_derive (fun t => ux (A t)) t (- M * rx (A t) / (d (A t) * d (A t) * d (A t))).
Proof.
  pose proof (npos (A t)) as N. destruct HB as (H1 & _). fold a in H1. destruct (omega_facts o HB) as (_ & W). fold w a M in W.
  replace (- M * rx (A t) / (d (A t) * d (A t) * d (A t))) with (w / n (A t) * (- a * w * ((cos (A t) - e) / (n (A t) * n (A t))))).
  2: { unfold rx, d. rewrite <- W. field. lra. }
  apply compose. unfold ux, n in *. auto_derive; [lra|].
  pose proof (trig (A t)) as T. transitivity (- a * w * ((cos (A t) * (1 - e * cos (A t)) - e * (sin (A t) * sin (A t))) / ((1 - e * cos (A t)) * (1 - e * cos (A t))))); [field; lra|].
  rewrite T. field. lra.
Qed.
Lemma duy t : is_derive (fun t => uy (A t)) t (- M * ry (A t) / (d (A t) * d (A t) * d (A t))).
Proof.
  pose proof (npos (A t)) as N. destruct HB as (H1 & _). fold a in H1. destruct (omega_facts o HB) as (_ & W). fold w a M in W.
  replace (- M * ry (A t) / (d (A t) * d (A t) * d (A t))) with (w / n (A t) * (- a * w * k * (sin (A t) / (n (A t) * n (A t))))).
  2: { unfold ry, d. rewrite <- W. field. lra. }
  apply compose. unfold uy, n in *. auto_derive; [lra|]. field. lra.
Qed.
End Motion.
