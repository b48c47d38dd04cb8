(** C52: two-body orbits.  The definitions here are the physics, written without reference to the code. *)
From Coq Require Import Reals Lra Lia Psatz ZArith.
From Coquelicot Require Import Coquelicot.
From Verif Require Import Base TwoBodyModel TwoBodyProofs KeplerProofs OrbitProofs ElementsProofs.
Open Scope R_scope.

Definition m1 s := mass (body1 s).
Definition m2 s := mass (body2 s).
Definition dist s := sqrt ((px (body1 s) - px (body2 s)) * (px (body1 s) - px (body2 s)) + (py (body1 s) - py (body2 s)) * (py (body1 s) - py (body2 s))).
Definition kinetic s := (m1 s * (vx (body1 s) * vx (body1 s) + vy (body1 s) * vy (body1 s)) + m2 s * (vx (body2 s) * vx (body2 s) + vy (body2 s) * vy (body2 s))) / 2.
Definition potential s := - (m1 s * m2 s / dist s).
Definition energy s := kinetic s + potential s.
Definition angular s := m1 s * (px (body1 s) * vy (body1 s) - py (body1 s) * vx (body1 s)) + m2 s * (px (body2 s) * vy (body2 s) - py (body2 s) * vx (body2 s)).
Definition center (f : body -> R) s := (m1 s * f (body1 s) + m2 s * f (body2 s)) / (m1 s + m2 s).
(** The same state seen from a frame displaced by (x, y) and moving at (u, v). *)
Definition seen_from x y u v s := let f b := Body (mass b) (px b - x) (py b - y) (vx b - u) (vy b - v) in TwoBody (f (body1 s)) (f (body2 s)).
Definition cm_frame s := seen_from (center px s) (center py s) (center vx s) (center vy s) s.
(** Newton's equations of motion with G = 1. *)
Definition gravitates (tr : R -> two_body) : Prop := forall t,
  let s := tr t in let d3 := dist s * dist s * dist s in
  is_derive (fun t => px (body1 (tr t))) t (vx (body1 s)) /\ is_derive (fun t => py (body1 (tr t))) t (vy (body1 s)) /\
  is_derive (fun t => px (body2 (tr t))) t (vx (body2 s)) /\ is_derive (fun t => py (body2 (tr t))) t (vy (body2 s)) /\
  is_derive (fun t => vx (body1 (tr t))) t (m2 s * (px (body2 s) - px (body1 s)) / d3) /\
  is_derive (fun t => vy (body1 (tr t))) t (m2 s * (py (body2 s) - py (body1 s)) / d3) /\
  is_derive (fun t => vx (body2 (tr t))) t (m1 s * (px (body1 s) - px (body2 s)) / d3) /\
  is_derive (fun t => vy (body2 (tr t))) t (m1 s * (py (body1 s) - py (body2 s)) / d3).

Lemma separation_dist s : separation s = dist s.
Proof. unfold separation, dist. f_equal. ring. Qed.
Lemma total_energy_energy s : total_energy s = energy s.
Proof. unfold total_energy, energy, kinetic, potential, m1, m2. rewrite separation_dist. replace 0.5 with (/ 2) by lra. unfold Rdiv. ring. Qed.

Lemma state_at_form fuel o t s : bound o -> state_at fuel o t = Ok s ->
  exists E, s = state_of o E /\ Rabs (kepler (ecc o) (omega_of o * t) E) <= 1e-10 /\ (ecc o = 0 -> E = omega_of o * t).
Proof.
  intros HB. unfold state_at. destruct (Rlt_dec 0 (ecc o)) as [P|P]; intros H.
  - apply bind_ok_inv in H as (E & HE & H). injection H as <-. exists E. split; [reflexivity|]. split; [exact (newton_sound _ _ _ _ _ _ HE)|lra].
  - injection H as <-. exists (omega_of o * t). split; [reflexivity|]. split; [|reflexivity]. destruct HB as (_ & _ & _ & HB).
    assert (Z : ecc o = 0) by lra. unfold kepler. rewrite Z. replace (omega_of o * t - 0 * sin (omega_of o * t) - omega_of o * t) with 0 by ring. rewrite Rabs_R0. lra.
Qed.

Section Conserved.
Context (o : orbit) (E : R).
Hypothesis (HB : bound o).
Let s := state_of o E.
Lemma state_masses : m1 s = mtot o / (1 + ratio o) /\ m2 s = mtot o * (ratio o / (1 + ratio o)).
Proof. unfold m1, m2, s. rewrite (state_form o E HB). split; reflexivity. Qed.
Lemma state_dist : dist s = sep o * (1 - ecc o * cos E).
Proof.
  destruct HB as (A & _ & Q & _). pose proof (n_pos o E HB) as N. unfold dist, s. apply sqrt_of; [apply Rmult_le_pos; lra|]. rewrite (state_form o E HB). cbn [body1 body2 px py].
  rewrite <- (relative_distance o E HB). field. lra.
Qed.
Lemma state_center f : f = px \/ f = py \/ f = vx \/ f = vy -> m1 s * f (body1 s) + m2 s * f (body2 s) = 0.
Proof.
  destruct HB as (A & _ & Q & _). intros F. unfold m1, m2, s. rewrite (state_form o E HB). cbn [body1 body2 mass].
  destruct F as [->|[->|[->| ->]]]; cbn [px py vx vy]; field; repeat split; try lra; apply Rgt_not_eq, (n_pos o E HB).
Qed.
Lemma state_energy : energy s = orbital_energy o.
Proof.
  pose proof HB as (A & M & Q & _). pose proof (n_pos o E HB) as N. unfold energy, kinetic, potential. rewrite state_dist. destruct state_masses as (-> & ->).
  unfold s. rewrite (state_form o E HB). cbn [body1 body2 vx vy]. pose proof (relative_speed o E HB) as V.
  set (ux := - sep o * omega_of o / (1 - ecc o * cos E) * sin E) in *. set (uy := sep o * omega_of o / (1 - ecc o * cos E) * cos E * sqrt (1 - ecc o * ecc o)) in *.
  transitivity (mtot o / (1 + ratio o) * (ratio o / (1 + ratio o)) * (ux * ux + uy * uy) / 2 - mtot o / (1 + ratio o) * (mtot o * (ratio o / (1 + ratio o))) / (sep o * (1 - ecc o * cos E))); [field; repeat split; lra|].
  rewrite V. unfold orbital_energy. replace (-0.5) with (- / 2) by lra. field. repeat split; lra.
Qed.
Lemma state_angular : angular s = mtot o * ratio o / ((1 + ratio o) * (1 + ratio o)) * (sep o * sep o * omega_of o * sqrt (1 - ecc o * ecc o)).
Proof.
  pose proof HB as (A & M & Q & _). unfold angular. destruct state_masses as (-> & ->). unfold s. rewrite (state_form o E HB). cbn [body1 body2 px py vx vy].
  rewrite <- (relative_area o E HB). field. repeat split; try lra. apply Rgt_not_eq, (n_pos o E HB).
Qed.
Lemma orbital_angular : orbital_angular_momentum o = mtot o * ratio o / ((1 + ratio o) * (1 + ratio o)) * (sep o * sep o * omega_of o * sqrt (1 - ecc o * ecc o)).
Proof.
  pose proof HB as (A & M & Q & _). destruct (omega_facts o HB) as (W & WW). destruct (k_facts o HB) as (K & KK & _).
  unfold orbital_angular_momentum. apply sqrt_of.
  - apply Rmult_le_pos; [|apply Rlt_le; repeat apply Rmult_lt_0_compat; lra]. apply Rlt_le, Rdiv_lt_0_compat; [nra|nra].
  - set (k := sqrt (1 - ecc o * ecc o)) in *.
    transitivity (mtot o * ratio o / ((1 + ratio o) * (1 + ratio o)) * (mtot o * ratio o / ((1 + ratio o) * (1 + ratio o))) * (omega_of o * omega_of o * (sep o * sep o * sep o)) * sep o * (k * k)); [ring|].
    rewrite KK, WW. unfold orbital_energy. replace (-0.5) with (- / 2) by lra. replace (-2.0) with (-2) by lra. field. repeat split; lra.
Qed.
End Conserved.

(** The state returned for any time has the prescribed masses, its center of mass at rest at the origin, and exactly the
    energy and angular momentum of the orbit; the separation stays between periapsis and apoapsis.  The tolerance of the
    Newton iteration affects none of these. *)
Theorem orbit_conserved fuel o t s : bound o -> state_at fuel o t = Ok s ->
  m1 s + m2 s = mtot o /\ m2 s = ratio o * m1 s /\ 0 < m1 s /\ 0 < m2 s /\
  center px s = 0 /\ center py s = 0 /\ center vx s = 0 /\ center vy s = 0 /\
  energy s = - (m1 s * m2 s) / (2 * sep o) /\ energy s = orbital_energy o /\ total_energy s = energy s /\
  angular s = orbital_angular_momentum o /\ 0 < angular s /\
  sep o * (1 - ecc o) <= dist s <= sep o * (1 + ecc o) /\ separation s = dist s.
Proof.
  intros HB H. destruct (state_at_form fuel o t s HB H) as (E & -> & _). clear H. destruct (state_masses o E HB) as (H1 & H2). pose proof HB as (A & M & Q & Ec).
  pose proof (state_center o E HB) as C.
  assert (P1 : 0 < m1 (state_of o E)) by (rewrite H1; apply Rdiv_lt_0_compat; lra).
  assert (P2 : 0 < m2 (state_of o E)) by (rewrite H2; apply Rmult_lt_0_compat; [lra|apply Rdiv_lt_0_compat; lra]).
  split; [rewrite H1, H2; field; lra|]. split; [rewrite H1, H2; field; lra|]. split; [exact P1|]. split; [exact P2|].
  unfold center. rewrite !C by tauto.
  do 4 (split; [unfold Rdiv; ring|]).
  assert (EN := state_energy o E HB).
  split; [rewrite EN, H1, H2; unfold orbital_energy; replace (-0.5) with (- / 2) by lra; field; repeat split; lra|].
  split; [exact EN|]. split; [apply total_energy_energy|].
  assert (AN := state_angular o E HB). assert (AP : 0 < angular (state_of o E)).
  { rewrite AN. destruct (omega_facts o HB) as (W & _). destruct (k_facts o HB) as (K & _). apply Rmult_lt_0_compat; [apply Rdiv_lt_0_compat; nra|]. repeat apply Rmult_lt_0_compat; lra. }
  split; [rewrite (orbital_angular o HB); exact AN|]. split; [exact AP|]. split; [|apply separation_dist].
  rewrite (state_dist o E HB). pose proof (COS_bound E). split; apply Rmult_le_compat_l; nra.
Qed.

(** With Kepler's equation solved exactly, the trajectory solves Newton's equations of motion; such an anomaly exists. *)
Theorem exact_orbit_gravitates o : bound o ->
  (exists A, forall t, A t - ecc o * sin (A t) = 2 * PI / orbital_period o * t) /\
  forall A, (forall t, A t - ecc o * sin (A t) = 2 * PI / orbital_period o * t) -> gravitates (fun t => state_of o (A t)).
Proof.
  intros HB. pose proof HB as (A0 & M0 & Q0 & E0). destruct (omega_facts o HB) as (W & WW). pose proof pi_gt3.
  assert (P : 2 * PI / orbital_period o = omega_of o).
  { unfold orbital_period. rewrite <- (omega_form o HB). field. split; lra. }
  rewrite P. split; [apply anomaly_exists; lra|]. intros A HA t. cbv zeta.
  destruct (state_masses o (A t) HB) as (H1 & H2). rewrite (state_dist o (A t) HB), H1, H2.
  pose proof (n_pos o (A t) HB) as N. pose proof (drx o A HB HA t) as D1. pose proof (dry o A HB HA t) as D2. pose proof (dux o A HB HA t) as D3. pose proof (duy o A HB HA t) as D4.
  cbv beta in D1, D2, D3, D4. cbv zeta in D1, D2, D3, D4.
  assert (X : forall (c : R) (f : R -> R) (l l' : R) (g : R -> R), is_derive f t l -> (forall u, g u = c * f u) -> l' = c * l -> is_derive g t l').
  { intros c f l l' g D F ->. apply is_derive_ext with (fun u => c * f u); [intros u; rewrite F; reflexivity|]. apply (is_derive_scal f t c l D). }
  split; [|split; [|split; [|split; [|split; [|split; [|split]]]]]].
  - eapply (X (ratio o / (1 + ratio o))); [exact D1|intros u; rewrite (state_form o (A u) HB); reflexivity|rewrite (state_form o (A t) HB); reflexivity].
  - eapply (X (ratio o / (1 + ratio o))); [exact D2|intros u; rewrite (state_form o (A u) HB); reflexivity|rewrite (state_form o (A t) HB); reflexivity].
  - eapply (X (- (1 / (1 + ratio o)))); [exact D1|intros u; rewrite (state_form o (A u) HB); reflexivity|rewrite (state_form o (A t) HB); reflexivity].
  - eapply (X (- (1 / (1 + ratio o)))); [exact D2|intros u; rewrite (state_form o (A u) HB); reflexivity|rewrite (state_form o (A t) HB); reflexivity].
  - eapply (X (ratio o / (1 + ratio o))); [exact D3|intros u; rewrite (state_form o (A u) HB); reflexivity|rewrite (state_form o (A t) HB); cbn [body1 body2 px py]; field; repeat split; lra].
  - eapply (X (ratio o / (1 + ratio o))); [exact D4|intros u; rewrite (state_form o (A u) HB); reflexivity|rewrite (state_form o (A t) HB); cbn [body1 body2 px py]; field; repeat split; lra].
  - eapply (X (- (1 / (1 + ratio o)))); [exact D3|intros u; rewrite (state_form o (A u) HB); reflexivity|rewrite (state_form o (A t) HB); cbn [body1 body2 px py]; field; repeat split; lra].
  - eapply (X (- (1 / (1 + ratio o)))); [exact D4|intros u; rewrite (state_form o (A u) HB); reflexivity|rewrite (state_form o (A t) HB); cbn [body1 body2 px py]; field; repeat split; lra].
Qed.

(** The returned state is the exact one up to a small error in phase, hence in position. *)
Theorem state_at_accurate fuel o t s A : bound o -> (forall t, A t - ecc o * sin (A t) = 2 * PI / orbital_period o * t) ->
  state_at fuel o t = Ok s ->
  let x := state_of o (A t) in let err := sep o * (1e-10 / (1 - ecc o)) in
  Rabs (px (body1 s) - px (body1 x)) <= err /\ Rabs (py (body1 s) - py (body1 x)) <= err /\
  Rabs (px (body2 s) - px (body2 x)) <= err /\ Rabs (py (body2 s) - py (body2 x)) <= err /\ (ecc o = 0 -> s = x).
Proof.
  intros HB HA H x err. pose proof HB as (A0 & M0 & Q0 & E0). destruct (omega_facts o HB) as (W & WW). pose proof pi_gt3.
  assert (P : 2 * PI / orbital_period o = omega_of o) by (unfold orbital_period; rewrite <- (omega_form o HB); field; split; lra).
  rewrite P in HA. destruct (state_at_form fuel o t s HB H) as (E & -> & K & Z).
  assert (KA : kepler (ecc o) (omega_of o * t) (A t) = 0) by (unfold kepler; rewrite HA; ring).
  pose proof (kepler_apart (ecc o) (omega_of o * t) E (A t) E0) as D. rewrite KA, Rminus_0_r in D.
  assert (DE : Rabs (E - A t) <= 1e-10 / (1 - ecc o)).
  { apply Rmult_le_reg_l with (1 - ecc o); [lra|]. replace ((1 - ecc o) * (1e-10 / (1 - ecc o))) with 1e-10 by (field; lra). lra. }
  pose proof (cos_lipschitz E (A t)) as CL. pose proof (sin_lipschitz E (A t)) as SL. destruct (k_facts o HB) as (KP & _ & K1).
  unfold x, err. rewrite (state_form o E HB), (state_form o (A t) HB). cbn [body1 body2 px py].
  set (k := sqrt (1 - ecc o * ecc o)) in *. set (del := 1e-10 / (1 - ecc o)) in *.
  assert (F : forall f d, 0 <= f <= 1 -> Rabs d <= del -> Rabs (f * (sep o * d)) <= sep o * del).
  { intros f d Hf Hd. rewrite !Rabs_mult, (Rabs_right f), (Rabs_right (sep o)) by lra. pose proof (Rabs_pos d).
    apply Rle_trans with (1 * (sep o * Rabs d)); [apply Rmult_le_compat_r; [apply Rmult_le_pos; lra|lra]|]. rewrite Rmult_1_l. apply Rmult_le_compat_l; lra. }
  assert (F1 : 0 <= ratio o / (1 + ratio o) <= 1). { split; [apply Rlt_le, Rdiv_lt_0_compat; lra|]. apply Rmult_le_reg_r with (1 + ratio o); [lra|]. unfold Rdiv. rewrite Rmult_assoc, Rinv_l; lra. }
  assert (F2 : 0 <= 1 / (1 + ratio o) <= 1). { split; [apply Rlt_le, Rdiv_lt_0_compat; lra|]. apply Rmult_le_reg_r with (1 + ratio o); [lra|]. unfold Rdiv. rewrite Rmult_assoc, Rinv_l; lra. }
  assert (FC : Rabs (cos E - cos (A t)) <= del) by lra.
  assert (FS : Rabs ((sin E - sin (A t)) * k) <= del).
  { rewrite Rabs_mult, (Rabs_right k) by lra. pose proof (Rabs_pos (sin E - sin (A t))). nra. }
  split; [|split; [|split; [|split]]].
  - replace (ratio o / (1 + ratio o) * (sep o * (cos E - ecc o)) - ratio o / (1 + ratio o) * (sep o * (cos (A t) - ecc o))) with (ratio o / (1 + ratio o) * (sep o * (cos E - cos (A t)))) by (unfold Rdiv; ring). apply F; assumption.
  - replace (ratio o / (1 + ratio o) * (sep o * (sin E * k)) - ratio o / (1 + ratio o) * (sep o * (sin (A t) * k))) with (ratio o / (1 + ratio o) * (sep o * ((sin E - sin (A t)) * k))) by (unfold Rdiv; ring). apply F; assumption.
  - replace (- (1 / (1 + ratio o)) * (sep o * (cos E - ecc o)) - - (1 / (1 + ratio o)) * (sep o * (cos (A t) - ecc o))) with (- (1 / (1 + ratio o) * (sep o * (cos E - cos (A t))))) by (unfold Rdiv; ring). rewrite Rabs_Ropp. apply F; assumption.
  - replace (- (1 / (1 + ratio o)) * (sep o * (sin E * k)) - - (1 / (1 + ratio o)) * (sep o * (sin (A t) * k))) with (- (1 / (1 + ratio o) * (sep o * ((sin E - sin (A t)) * k)))) by (unfold Rdiv; ring). rewrite Rabs_Ropp. apply F; assumption.
  - intros Z0. specialize (Z Z0). assert (EA : A t = E). { pose proof (HA t) as HT. rewrite Z0 in HT. rewrite Z. lra. } rewrite EA. reflexivity.
Qed.

(** For eccentricities up to 9/10 the Newton loop terminates, with a number of iterations that does not depend on the time. *)
Theorem state_at_terminates o : bound o -> ecc o <= 9 / 10 -> exists n, forall fuel t, (n <= fuel)%nat -> exists s, state_at fuel o t = Ok s.
Proof.
  intros HB He. pose proof HB as (_ & _ & _ & E0). destruct (newton_terminates (ecc o) 1e-10 ltac:(lra) ltac:(lra)) as (n & H). exists n. intros fuel t L.
  unfold state_at. destruct (Rlt_dec 0 (ecc o)); [|eauto]. destruct (H (omega_of o * t)) as (E & HE & _).
  rewrite (newton_more _ fuel _ _ _ _ _ HE L). bsimp. eauto.
Qed.

Lemma state_of_shift o E k : state_of o (E + 2 * IZR k * PI) = state_of o E.
Proof. unfold state_of. rewrite cos_shift, sin_shift. reflexivity. Qed.
Lemma omega_period o : bound o -> omega_of o * orbital_period o = 2 * PI /\ 0 < orbital_period o.
Proof.
  intros HB. destruct (omega_facts o HB) as (W & _). pose proof pi_gt3. unfold orbital_period. rewrite <- (omega_form o HB). split; [field; lra|]. apply Rdiv_lt_0_compat; lra.
Qed.
Lemma state_at_shift fuel o t k : bound o -> state_at fuel o (t + IZR k * orbital_period o) = state_at fuel o t.
Proof.
  intros HB. destruct (omega_period o HB) as (WP & _). unfold state_at.
  replace (omega_of o * (t + IZR k * orbital_period o)) with (omega_of o * t + 2 * IZR k * PI) by (rewrite Rmult_plus_distr_l; f_equal; rewrite (Rmult_comm (IZR k)), <- Rmult_assoc, WP; ring).
  destruct (Rlt_dec 0 (ecc o)).
  - rewrite newton_shift. destruct (newton fuel (kepler (ecc o) (omega_of o * t)) (kepler' (ecc o)) 1e-10 (omega_of o * t)); try reflexivity. unfold omap. bsimp. rewrite state_of_shift. reflexivity.
  - rewrite state_of_shift. reflexivity.
Qed.
(** The state repeats after every orbital period, exactly. *)
Theorem state_at_periodic fuel o t : bound o -> state_at fuel o (t + orbital_period o) = state_at fuel o t.
Proof. intros HB. rewrite <- (state_at_shift fuel o t 1 HB). f_equal. ring. Qed.

(** Full elements. *)
Lemma after_form n tau P t t' : after n tau P t = Ok t' -> tau <= t' /\ exists k : nat, t' = t + INR k * P.
Proof.
  revert t; induction n as [|n IH]; intros t H; cbn [after] in H; [discriminate H|]. destruct (Rlt_dec t tau).
  - destruct (IH _ H) as (L & k & ->). split; [exact L|]. exists (S k). rewrite S_INR. ring.
  - injection H as <-. split; [lra|]. exists 0%nat. cbn [INR]. ring.
Qed.
Lemma after_more n m tau P t t' : after n tau P t = Ok t' -> (n <= m)%nat -> after m tau P t = Ok t'.
Proof.
  revert m t; induction n as [|n IH]; intros m t H L; cbn [after] in H; [discriminate H|]. destruct m as [|m]; [lia|]. cbn [after].
  destruct (Rlt_dec t tau); [apply IH; [exact H|lia]|exact H].
Qed.
Lemma after_terminates tau P t : 0 < P -> exists n t', after n tau P t = Ok t'.
Proof.
  intros HP. assert (G : forall n t, tau - t <= INR n * P -> exists t', after (S n) tau P t = Ok t').
  { induction n as [|n IH]; intros u Hu.
    - cbn [after]. cbn [INR] in Hu. destruct (Rlt_dec u tau); [lra|eauto].
    - remember (S n) as n' eqn:En. cbn [after]. destruct (Rlt_dec u tau); [|eauto]. subst n'. apply IH. rewrite S_INR in Hu. lra. }
  pose proof (archimed ((tau - t) / P)) as [A _]. set (z := up ((tau - t) / P)) in *.
  exists (S (Z.to_nat z)). apply G. assert (B : IZR z <= INR (Z.to_nat z)). { rewrite INR_IZR_INZ. apply IZR_le. lia. }
  assert (Q : tau - t = (tau - t) / P * P) by (field; lra). nra.
Qed.
Lemma place_center p s f x : m1 s + m2 s <> 0 -> (f = px /\ x = cmx p \/ f = py /\ x = cmy p \/ f = vx /\ x = cmvx p \/ f = vy /\ x = cmvy p) ->
  m1 s * px (body1 s) + m2 s * px (body2 s) = 0 -> m1 s * py (body1 s) + m2 s * py (body2 s) = 0 ->
  m1 s * vx (body1 s) + m2 s * vx (body2 s) = 0 -> m1 s * vy (body1 s) + m2 s * vy (body2 s) = 0 ->
  center f (TwoBody (place p (body1 s)) (place p (body2 s))) = x.
Proof.
  intros N F X Y U V. unfold center, m1, m2 in *. cbn [body1 body2 place mass].
  set (c := cos (- pomega p)). set (z := sin (- pomega p)).
  destruct F as [[-> ->]|[[-> ->]|[[-> ->]|[-> ->]]]]; cbn [place px py vx vy]; fold c z.
  - transitivity (((mass (body1 s) * px (body1 s) + mass (body2 s) * px (body2 s)) * c + (mass (body1 s) * py (body1 s) + mass (body2 s) * py (body2 s)) * z) / (mass (body1 s) + mass (body2 s)) + cmx p); [field; exact N|]. rewrite X, Y. unfold Rdiv. ring.
  - transitivity ((- (mass (body1 s) * px (body1 s) + mass (body2 s) * px (body2 s)) * z + (mass (body1 s) * py (body1 s) + mass (body2 s) * py (body2 s)) * c) / (mass (body1 s) + mass (body2 s)) + cmy p); [field; exact N|]. rewrite X, Y. unfold Rdiv. ring.
  - transitivity (((mass (body1 s) * vx (body1 s) + mass (body2 s) * vx (body2 s)) * c + (mass (body1 s) * vy (body1 s) + mass (body2 s) * vy (body2 s)) * z) / (mass (body1 s) + mass (body2 s)) + cmvx p); [field; exact N|]. rewrite U, V. unfold Rdiv. ring.
  - transitivity ((- (mass (body1 s) * vx (body1 s) + mass (body2 s) * vx (body2 s)) * z + (mass (body1 s) * vy (body1 s) + mass (body2 s) * vy (body2 s)) * c) / (mass (body1 s) + mass (body2 s)) + cmvy p); [field; exact N|]. rewrite U, V. unfold Rdiv. ring.
Qed.
(** Quantities of the center-of-mass frame do not see the placement. *)
Section Placed.
Context (p : elements) (E : R).
Hypothesis (HB : bound (orb p)).
Let s0 := state_of (orb p) E.
Definition placed (p : elements) (s : two_body) := TwoBody (place p (body1 s)) (place p (body2 s)).
Let s := placed p s0.
Lemma masses_sum : m1 s0 + m2 s0 = mtot (orb p) /\ 0 < m1 s0 /\ 0 < m2 s0.
Proof.
  pose proof HB as (A & M & Q & _). destruct (state_masses (orb p) E HB) as (H1 & H2). unfold s0. rewrite H1, H2.
  split; [field; lra|]. split; [apply Rdiv_lt_0_compat; lra|apply Rmult_lt_0_compat; [lra|apply Rdiv_lt_0_compat; lra]].
Qed.
Lemma placed_masses : m1 s = m1 s0 /\ m2 s = m2 s0.
Proof. split; reflexivity. Qed.
Lemma placed_center : center px s = cmx p /\ center py s = cmy p /\ center vx s = cmvx p /\ center vy s = cmvy p.
Proof.
  destruct masses_sum as (MS & P1 & P2). assert (N : m1 s0 + m2 s0 <> 0) by lra. pose proof (state_center (orb p) E HB) as C. fold s0 in C.
  split; [|split; [|split]]; apply place_center; try exact N; try tauto; apply C; tauto.
Qed.
Lemma rot : cos (- pomega p) * cos (- pomega p) + sin (- pomega p) * sin (- pomega p) = 1.
Proof. pose proof (sin2_cos2 (- pomega p)) as X. unfold Rsqr in X. lra. Qed.
Lemma placed_dist : dist s = dist s0.
Proof.
  unfold dist. f_equal. unfold s, placed. cbn [body1 body2 place px py]. pose proof rot as R. set (c := cos (- pomega p)) in *. set (z := sin (- pomega p)) in *.
  set (dx := px (body1 s0) - px (body2 s0)). set (dy := py (body1 s0) - py (body2 s0)).
  transitivity ((c * c + z * z) * (dx * dx + dy * dy)); [unfold dx, dy; ring|]. rewrite R. ring.
Qed.
Lemma placed_frame : cm_frame s = placed (Elements (pomega p) 0 0 0 0 0 (orb p)) s0.
Proof.
  unfold cm_frame, seen_from. destruct placed_center as (-> & -> & -> & ->). unfold s, placed. cbn [body1 body2 place mass px py vx vy pomega cmx cmy cmvx cmvy orb].
  unfold place. cbn [body1 body2 mass px py vx vy pomega cmx cmy cmvx cmvy orb].
  f_equal; f_equal; ring.
Qed.
Lemma frame_energy : energy (cm_frame s) = orbital_energy (orb p).
Proof.
  rewrite placed_frame, <- (state_energy (orb p) E HB). fold s0. set (p0 := Elements (pomega p) 0 0 0 0 0 (orb p)).
  unfold energy. f_equal.
  - unfold kinetic. change (m1 (placed p0 s0)) with (m1 s0). change (m2 (placed p0 s0)) with (m2 s0). f_equal. unfold placed, p0. cbn [body1 body2 place vx vy pomega cmvx cmvy].
    pose proof rot as R. set (c := cos (- pomega p)) in *. set (z := sin (- pomega p)) in *.
    transitivity ((c * c + z * z) * (m1 s0 * (vx (body1 s0) * vx (body1 s0) + vy (body1 s0) * vy (body1 s0)) + m2 s0 * (vx (body2 s0) * vx (body2 s0) + vy (body2 s0) * vy (body2 s0)))); [ring|]. rewrite R. ring.
  - unfold potential. change (m1 (placed p0 s0)) with (m1 s0). change (m2 (placed p0 s0)) with (m2 s0). f_equal. f_equal. unfold dist. f_equal.
    unfold placed, p0. cbn [body1 body2 place px py pomega cmx cmy].
    pose proof rot as R. set (c := cos (- pomega p)) in *. set (z := sin (- pomega p)) in *.
    set (dx := px (body1 s0) - px (body2 s0)). set (dy := py (body1 s0) - py (body2 s0)).
    transitivity ((c * c + z * z) * (dx * dx + dy * dy)); [unfold dx, dy; ring|]. rewrite R. ring.
Qed.
Lemma frame_angular : angular (cm_frame s) = orbital_angular_momentum (orb p).
Proof.
  rewrite placed_frame, (orbital_angular (orb p) HB), <- (state_angular (orb p) E HB). fold s0. unfold angular, placed. cbn [body1 body2 place px py vx vy pomega cmx cmy cmvx cmvy].
  change (m1 (TwoBody (place (Elements (pomega p) 0 0 0 0 0 (orb p)) (body1 s0)) (place (Elements (pomega p) 0 0 0 0 0 (orb p)) (body2 s0)))) with (m1 s0).
  change (m2 (TwoBody (place (Elements (pomega p) 0 0 0 0 0 (orb p)) (body1 s0)) (place (Elements (pomega p) 0 0 0 0 0 (orb p)) (body2 s0)))) with (m2 s0).
  pose proof rot as R. set (c := cos (- pomega p)) in *. set (z := sin (- pomega p)) in *.
  transitivity ((c * c + z * z) * (m1 s0 * (px (body1 s0) * vy (body1 s0) - py (body1 s0) * vx (body1 s0)) + m2 s0 * (px (body2 s0) * vy (body2 s0) - py (body2 s0) * vx (body2 s0)))); [ring|]. rewrite R. ring.
Qed.
End Placed.

Lemma full_form fuel p t s : bound (orb p) -> full_state_at fuel p t = Ok s ->
  exists E (k : nat), s = placed p (state_of (orb p) E) /\ Rabs (kepler (ecc (orb p)) (omega_of (orb p) * (t + INR k * orbital_period (orb p) - tau p)) E) <= 1e-10.
Proof.
  intros HB H. unfold full_state_at in H. apply bind_ok_inv in H as (t' & H1 & H). apply bind_ok_inv in H as (s0 & H2 & H). injection H as <-.
  destruct (after_form _ _ _ _ _ H1) as (_ & k & ->). destruct (state_at_form _ _ _ _ HB H2) as (E & -> & K & _). exists E, k. split; [reflexivity|exact K].
Qed.
(** A full set of elements puts the center of mass where it says, moving as it says, and keeps energy and angular
    momentum in the center-of-mass frame. *)
Theorem full_state_conserved fuel p t s : bound (orb p) -> full_state_at fuel p t = Ok s ->
  m1 s + m2 s = mtot (orb p) /\ m2 s = ratio (orb p) * m1 s /\
  center px s = cmx p /\ center py s = cmy p /\ center vx s = cmvx p /\ center vy s = cmvy p /\
  energy (cm_frame s) = orbital_energy (orb p) /\ angular (cm_frame s) = orbital_angular_momentum (orb p) /\
  sep (orb p) * (1 - ecc (orb p)) <= dist s <= sep (orb p) * (1 + ecc (orb p)).
Proof.
  intros HB H. destruct (full_form _ _ _ _ HB H) as (E & k & -> & _). destruct (masses_sum p E HB) as (MS & _). pose proof HB as (A & M & Q & Ec).
  destruct (state_masses (orb p) E HB) as (H1 & H2). destruct (placed_center p E HB) as (C1 & C2 & C3 & C4).
  split; [exact MS|]. split; [change (m2 (state_of (orb p) E) = ratio (orb p) * m1 (state_of (orb p) E)); rewrite H1, H2; field; lra|].
  split; [exact C1|]. split; [exact C2|]. split; [exact C3|]. split; [exact C4|]. split; [apply frame_energy; exact HB|]. split; [apply frame_angular; exact HB|].
  rewrite placed_dist, (state_dist (orb p) E HB). pose proof (COS_bound E). split; apply Rmult_le_compat_l; nra.
Qed.
(** At the time tau the bodies are at periapsis, in the direction pomega. *)
Theorem full_state_periapsis fuel p : bound (orb p) -> exists s, full_state_at (S fuel) p (tau p) = Ok s /\
  let d := sep (orb p) * (1 - ecc (orb p)) in
  px (body1 s) - px (body2 s) = d * cos (pomega p) /\ py (body1 s) - py (body2 s) = d * sin (pomega p) /\
  (px (body1 s) - px (body2 s)) * (vx (body1 s) - vx (body2 s)) + (py (body1 s) - py (body2 s)) * (vy (body1 s) - vy (body2 s)) = 0.
Proof.
  intros HB. exists (placed p (state_of (orb p) 0)). pose proof HB as (A & M & Q & Ec). split.
  - unfold full_state_at. cbn [after]. destruct (Rlt_dec (tau p) (tau p)); [lra|]. bsimp. unfold state_at.
    replace (omega_of (orb p) * (tau p - tau p)) with 0 by ring. destruct (Rlt_dec 0 (ecc (orb p))); [|reflexivity].
    cbn [newton]. destruct (Rlt_dec 1e-10 (Rabs (kepler (ecc (orb p)) 0 0))) as [L|L]; [|reflexivity].
    exfalso. unfold kepler in L. rewrite sin_0 in L. replace (0 - ecc (orb p) * 0 - 0) with 0 in L by ring. rewrite Rabs_R0 in L. lra.
  - cbv zeta. pose proof (n_pos (orb p) 0 HB) as N. unfold placed. cbn [body1 body2 place px py vx vy]. rewrite (state_form (orb p) 0 HB). cbn [body1 body2 px py vx vy].
    rewrite cos_neg, sin_neg. rewrite sin_0, cos_0 in *. split; [field; lra|]. split; [field; lra|]. field. repeat split; lra.
Qed.
Theorem full_state_terminates p t : bound (orb p) -> ecc (orb p) <= 9 / 10 -> exists n, forall fuel, (n <= fuel)%nat -> exists s, full_state_at fuel p t = Ok s.
Proof.
  intros HB He. destruct (omega_period _ HB) as (_ & PP). destruct (after_terminates (tau p) _ t PP) as (n1 & t' & H1). destruct (state_at_terminates _ HB He) as (n2 & H2).
  exists (n1 + n2)%nat. intros fuel L. unfold full_state_at. rewrite (after_more n1 fuel _ _ _ _ H1) by lia. bsimp. destruct (H2 fuel (t' - tau p) ltac:(lia)) as (s & ->). bsimp. eauto.
Qed.
Theorem full_state_periodic fuel p t s : bound (orb p) -> full_state_at fuel p t = Ok s -> full_state_at fuel p (t + orbital_period (orb p)) = Ok s.
Proof.
  intros HB H. destruct (omega_period _ HB) as (_ & PP). unfold full_state_at in *. apply bind_ok_inv in H as (t' & H1 & H). destruct fuel as [|n]; [discriminate H1|].
  cbn [after] in H1. destruct (Rlt_dec t (tau p)) as [L|L].
  - rewrite (after_more n (S n) _ _ _ _ H1) by lia. bsimp. exact H.
  - injection H1 as <-. cbn [after]. destruct (Rlt_dec (t + orbital_period (orb p)) (tau p)); [lra|]. bsimp.
    replace (t + orbital_period (orb p) - tau p) with (t - tau p + IZR 1 * orbital_period (orb p)) by ring. rewrite (state_at_shift _ _ _ 1 HB). exact H.
Qed.

(** From states to elements. *)
Lemma frame_rel s : 0 < m1 s -> 0 < m2 s -> energy (cm_frame s) = rel_E s /\ angular (cm_frame s) = rel_L s.
Proof.
  intros H1 H2. unfold rel_E, rel_L, red, gap. unfold cm_frame, seen_from, energy, kinetic, potential, angular, center.
  change (m1 (TwoBody ?a ?b)) with (mass a). unfold m1, m2 in *. cbn [body1 body2 mass px py vx vy].
  split.
  - replace (dist _) with (rel_D s).
    + set (d := rel_D s). unfold Rdiv. set (i := / d). field. lra.
    + unfold rel_D, dist, gap. cbn [body1 body2 px py]. f_equal. ring.
  - field. lra.
Qed.
(** Every bound, counter-clockwise state of two positive masses gets elements that reproduce it exactly: place the exact
    orbit at time [t], and the state is recovered. *)
Theorem elements_describe_state s t : 0 < m1 s -> 0 < m2 s -> 0 < dist s -> energy (cm_frame s) < 0 -> 0 < angular (cm_frame s) ->
  exists p E, elements_at s t = Ok p /\ bound (orb p) /\ E - ecc (orb p) * sin E = 2 * PI / orbital_period (orb p) * (t - tau p) /\
    TwoBody (place p (body1 (state_of (orb p) E))) (place p (body2 (state_of (orb p) E))) = s.
Proof.
  intros H1 H2 HD HE HL. destruct (frame_rel s H1 H2) as (FE & FL). rewrite FE in HE. rewrite FL in HL.
  destruct (elements_spec s t H1 H2 HD HE HL) as (p & E & Q & B & R & K). exists p, E. split; [exact Q|]. split; [exact B|]. split; [|exact R].
  rewrite K. f_equal. destruct (omega_period _ B) as (WP & PP). apply Rmult_eq_reg_r with (orbital_period (orb p)); [|lra]. rewrite WP. field. lra.
Qed.
(** Unbound states are rejected. *)
Theorem elements_unbound_throws s t : 0 < m1 s -> 0 < m2 s -> 0 < dist s -> 0 <= energy (cm_frame s) -> elements_at s t = Throw InvalidArgument.
Proof. intros H1 H2 HD HE. destruct (frame_rel s H1 H2) as (FE & _). rewrite FE in HE. apply elements_spec_throw; assumption. Qed.
(** No elements describe a clockwise binary, yet such a state is accepted: the recovered orbit turns the other way. *)
Theorem clockwise_refuted s t : 0 < m1 s -> 0 < m2 s -> 0 < dist s -> energy (cm_frame s) < 0 -> angular (cm_frame s) < 0 ->
  (exists p, elements_at s t = Ok p) /\ forall p E, bound (orb p) -> TwoBody (place p (body1 (state_of (orb p) E))) (place p (body2 (state_of (orb p) E))) <> s.
Proof.
  intros H1 H2 HD HE HL. split.
  - destruct (frame_rel s H1 H2) as (FE & _). rewrite FE in HE. apply elements_spec_ok; assumption.
  - intros p E B Q. pose proof (frame_angular p E B) as A. unfold placed in A. rewrite Q in A. rewrite A in HL.
    unfold orbital_angular_momentum in HL. match type of HL with sqrt ?x < 0 => pose proof (sqrt_pos x) end. lra.
Qed.

Lemma orbit_ext o o' : sep o = sep o' -> mtot o = mtot o' -> ratio o = ratio o' -> ecc o = ecc o' -> o = o'.
Proof. destruct o as [x1 x2 x3 x4], o' as [y1 y2 y3 y4]. cbn [sep mtot ratio ecc]. congruence. Qed.
Lemma angle_full x : cos x = 1 -> exists k, x = 2 * IZR k * PI.
Proof.
  intros H. destruct (reduce_angle x) as (k & r & -> & R). exists k. rewrite cos_shift in H. pose proof pi_gt3.
  assert (G : forall u, 0 < u <= PI -> cos u < 1) by (intros u U; rewrite <- cos_0; apply cos_decreasing_1; lra).
  destruct (Rtotal_order r 0) as [L|[->|L]]; [|ring|].
  - specialize (G (- r) ltac:(lra)). rewrite cos_neg in G. lra.
  - specialize (G r ltac:(lra)). lra.
Qed.
Lemma angle_same x y : cos x = cos y -> sin x = sin y -> exists k, x = y + 2 * IZR k * PI.
Proof.
  intros C S. destruct (angle_full (x - y)) as (k & K).
  - rewrite cos_minus, C, S. pose proof (sin2_cos2 y) as T. unfold Rsqr in T. lra.
  - exists k. lra.
Qed.
Lemma placed_rel p E : bound (orb p) -> let s := placed p (state_of (orb p) E) in let a := sep (orb p) in let e := ecc (orb p) in let k := sqrt (1 - e * e) in
  gap px s = a * (cos E - e) * cos (pomega p) - a * (sin E * k) * sin (pomega p) /\
  gap py s = a * (cos E - e) * sin (pomega p) + a * (sin E * k) * cos (pomega p) /\
  gap px s * gap vx s + gap py s * gap vy s = a * a * omega_of (orb p) * e * sin E.
Proof.
  intros HB s a e k. pose proof HB as (A & M & Q & _). pose proof (n_pos (orb p) E HB) as N.
  unfold s, placed, gap. cbn [body1 body2]. unfold place. cbn [px py vx vy]. rewrite (state_form (orb p) E HB). cbn [body1 body2 px py vx vy]. rewrite cos_neg, sin_neg.
  fold a e k. set (w := omega_of (orb p)) in *. split; [field; lra|]. split; [field; lra|].
  pose proof (relative_radial (orb p) E HB) as R. fold a e w in R. fold k in R. rewrite <- R.
  pose proof (sin2_cos2 (pomega p)) as T. unfold Rsqr in T. set (c := cos (pomega p)) in *. set (z := sin (pomega p)) in *.
  set (rx := a * (cos E - e)). set (ry := a * (sin E * k)). set (ux := - a * w / (1 - e * cos E) * sin E). set (uy := a * w / (1 - e * cos E) * cos E * k).
  transitivity ((rx * ux + ry * uy) * (z * z + c * c)); [field; lra|]. rewrite T. ring.
Qed.

(** Elements to state and back: the orbit and the center of mass come back exactly; for an eccentric orbit so does the
    direction of the periapsis (up to full turns), and the time of periapsis up to whole periods and the Newton
    tolerance. *)
Theorem elements_roundtrip fuel p t s : bound (orb p) -> full_state_at fuel p t = Ok s ->
  exists p', elements_at s t = Ok p' /\ orb p' = orb p /\
    cmx p' = cmx p /\ cmy p' = cmy p /\ cmvx p' = cmvx p /\ cmvy p' = cmvy p /\
    (0 < ecc (orb p) -> cos (pomega p') = cos (pomega p) /\ sin (pomega p') = sin (pomega p) /\
       exists n, 2 * PI / orbital_period (orb p) * Rabs (tau p' - tau p + IZR n * orbital_period (orb p)) <= 1e-10).
Proof.
  intros HB H. destruct (full_form _ _ _ _ HB H) as (E & j & -> & K). set (s := placed p (state_of (orb p) E)). clear H.
  destruct (masses_sum p E HB) as (MS & P1 & P2). pose proof HB as (A & M & Q & Ec).
  assert (HD : 0 < dist s). { unfold s. rewrite placed_dist, (state_dist _ _ HB). apply Rmult_lt_0_compat; [exact A|apply n_pos; exact HB]. }
  assert (HE : energy (cm_frame s) = - (m1 s * m2 s) / (2 * sep (orb p))).
  { unfold s. rewrite (frame_energy p E HB). destruct (state_masses (orb p) E HB) as (H1 & H2). change (m1 (placed p ?x)) with (m1 x). change (m2 (placed p ?x)) with (m2 x). rewrite H1, H2.
    unfold orbital_energy. replace (-0.5) with (- / 2) by lra. field. repeat split; lra. }
  assert (HL := frame_angular p E HB). fold s in HL. rewrite (orbital_angular _ HB) in HL.
  assert (P1' : 0 < m1 s) by exact P1. assert (P2' : 0 < m2 s) by exact P2.
  assert (HEn : energy (cm_frame s) < 0). { rewrite HE. assert (0 < m1 s * m2 s / (2 * sep (orb p))) by (apply Rdiv_lt_0_compat; nra). unfold Rdiv in *. lra. }
  destruct (omega_facts _ HB) as (W & WW). destruct (k_facts _ HB) as (KP & KK & _).
  assert (CO : 0 < mtot (orb p) * ratio (orb p) / ((1 + ratio (orb p)) * (1 + ratio (orb p)))) by (apply Rdiv_lt_0_compat; nra).
  assert (HLn : 0 < angular (cm_frame s)). { rewrite HL. apply Rmult_lt_0_compat; [exact CO|]. repeat apply Rmult_lt_0_compat; lra. }
  destruct (elements_describe_state s t P1' P2' HD HEn HLn) as (p' & E' & EQ & B' & K' & R). exists p'. split; [exact EQ|].
  fold (placed p' (state_of (orb p') E')) in R. pose proof B' as (A' & M' & Q' & Ec').
  destruct (masses_sum p' E' B') as (MS' & _). destruct (state_masses (orb p) E HB) as (H1 & H2). destruct (state_masses (orb p') E' B') as (H1' & H2').
  assert (R1 : m1 (state_of (orb p') E') = m1 (state_of (orb p) E)) by (change (m1 (placed p' (state_of (orb p') E')) = m1 s); rewrite R; reflexivity).
  assert (R2 : m2 (state_of (orb p') E') = m2 (state_of (orb p) E)) by (change (m2 (placed p' (state_of (orb p') E')) = m2 s); rewrite R; reflexivity).
  assert (OM : mtot (orb p') = mtot (orb p)) by (rewrite <- MS, <- MS', R1, R2; reflexivity).
  assert (OQ : ratio (orb p') = ratio (orb p)).
  { assert (X : ratio (orb p') = m2 (state_of (orb p') E') / m1 (state_of (orb p') E')) by (rewrite H1', H2'; field; split; lra).
    assert (Y : ratio (orb p) = m2 (state_of (orb p) E) / m1 (state_of (orb p) E)) by (rewrite H1, H2; field; split; lra). rewrite X, Y, R1, R2. reflexivity. }
  assert (OA : sep (orb p') = sep (orb p)).
  { pose proof (frame_energy p' E' B') as F. rewrite R in F. unfold s in F. rewrite (frame_energy p E HB) in F. unfold orbital_energy in F. rewrite OM, OQ in F. replace (-0.5) with (- / 2) in F by lra.
    set (k1 := mtot (orb p) / (1 + ratio (orb p))) in *. assert (K1 : 0 < k1) by (unfold k1; apply Rdiv_lt_0_compat; lra).
    assert (K2 : 0 < mtot (orb p) - k1). { unfold k1. replace (mtot (orb p) - mtot (orb p) / (1 + ratio (orb p))) with (mtot (orb p) * ratio (orb p) / (1 + ratio (orb p))) by (field; lra). apply Rdiv_lt_0_compat; nra. }
    set (k2 := mtot (orb p) - k1) in *. assert (KZ : 0 < k1 * k2) by nra.
    apply Rmult_eq_reg_l with (- / 2 * k1 * k2 / (sep (orb p) * sep (orb p'))).
    - transitivity (- / 2 * k1 * k2 / sep (orb p)); [field; split; lra|]. rewrite F. field. split; lra.
    - unfold Rdiv. apply Rmult_integral_contrapositive_currified; [nra|apply Rinv_neq_0_compat; nra]. }
  assert (OW : omega_of (orb p') = omega_of (orb p)) by (unfold omega_of; rewrite OA, OM; reflexivity).
  assert (OE : ecc (orb p') = ecc (orb p)).
  { pose proof (frame_angular p' E' B') as F. rewrite R, (orbital_angular _ B'), HL, OM, OQ, OA, OW in F.
    apply Rmult_eq_reg_l in F; [|lra]. apply Rmult_eq_reg_l in F; [|apply Rgt_not_eq; repeat apply Rmult_lt_0_compat; lra].
    destruct (k_facts _ B') as (_ & KK' & _). rewrite <- F, KK in KK'. nra. }
  assert (OO : orb p' = orb p) by (apply orbit_ext; assumption).
  split; [exact OO|].
  destruct (placed_center p E HB) as (C1 & C2 & C3 & C4). destruct (placed_center p' E' B') as (D1 & D2 & D3 & D4). rewrite R in D1, D2, D3, D4. fold s in C1, C2, C3, C4.
  split; [congruence|]. split; [congruence|]. split; [congruence|]. split; [congruence|]. intros EP.
  destruct (placed_rel p E HB) as (X1 & X2 & X3). destruct (placed_rel p' E' B') as (Y1 & Y2 & Y3). fold s in X1, X2, X3. rewrite R in Y1, Y2, Y3. rewrite OO in Y1, Y2, Y3.
  set (a := sep (orb p)) in *. set (e := ecc (orb p)) in *. set (k := sqrt (1 - e * e)) in *. set (w := omega_of (orb p)) in *.
  assert (SE : sin E' = sin E). { rewrite X3 in Y3. apply Rmult_eq_reg_l with (a * a * w * e); [lra|]. apply Rgt_not_eq. repeat apply Rmult_lt_0_compat; lra. }
  assert (CE : cos E' = cos E).
  { assert (F1 : dist s = sep (orb p') * (1 - ecc (orb p') * cos E')) by (rewrite <- (state_dist _ E' B'), <- R; apply placed_dist).
    assert (F2 : dist s = a * (1 - e * cos E)) by (unfold a, e; rewrite <- (state_dist _ E HB); apply placed_dist). rewrite OO in F1. fold a e in F1. rewrite F2 in F1.
    apply Rmult_eq_reg_l in F1; [|lra]. apply Rmult_eq_reg_l with e; lra. }
  rewrite SE, CE in Y1, Y2. set (rx := a * (cos E - e)) in *. set (ry := a * (sin E * k)) in *.
  assert (RP : 0 < rx * rx + ry * ry). { pose proof (relative_distance (orb p) E HB) as RD. fold a e in RD. fold k in RD. fold rx ry in RD. rewrite RD. pose proof (n_pos (orb p) E HB) as N. fold e in N. assert (0 < a * (1 - e * cos E)) by (apply Rmult_lt_0_compat; lra). nra. }
  assert (C : cos (pomega p') = cos (pomega p)).
  { apply Rmult_eq_reg_l with (rx * rx + ry * ry); [|lra]. transitivity (rx * gap px s + ry * gap py s); [rewrite Y1, Y2; ring|rewrite X1, X2; ring]. }
  assert (S : sin (pomega p') = sin (pomega p)).
  { apply Rmult_eq_reg_l with (rx * rx + ry * ry); [|lra]. transitivity (rx * gap py s - ry * gap px s); [rewrite Y1, Y2; ring|rewrite X1, X2; ring]. }
  split; [exact C|]. split; [exact S|].
  destruct (angle_same E' E CE SE) as (n & HN). destruct (omega_period _ HB) as (WP & PP). fold w in WP. set (P := orbital_period (orb p)) in *.
  assert (WE : 2 * PI / P = w) by (rewrite <- WP; field; lra). rewrite OO in K'. fold P e in K'. rewrite WE, SE in K'. rewrite WE.
  exists (Z.of_nat j + n)%Z. rewrite <- (Rabs_right w) at 1 by lra. rewrite <- Rabs_mult.
  unfold kepler in K. rewrite plus_IZR, <- INR_IZR_INZ.
  replace (w * (tau p' - tau p + (INR j + IZR n) * P)) with (- (E - e * sin E - w * (t + INR j * P - tau p))); [rewrite Rabs_Ropp; exact K|].
  assert (T1 : E - e * sin E = w * (t - tau p') - 2 * IZR n * PI) by (rewrite <- K'; rewrite HN; ring). rewrite T1.
  transitivity (- (w * (t - tau p') - IZR n * (w * P) - w * (t + INR j * P - tau p))); [rewrite WP; ring|ring].
Qed.

(** mean_anomaly: the angle is omega * t up to full turns, so it is the mean anomaly only when tau is a whole number of
    periods. *)
Theorem mean_anomaly_value fuel p t M : bound (orb p) -> mean_anomaly fuel p t = Ok M ->
  exists k, M = 2 * PI / orbital_period (orb p) * t + 2 * IZR k * PI.
Proof.
  intros HB H. unfold mean_anomaly in H. apply bind_ok_inv in H as (t' & H1 & H). injection H as <-. destruct (after_form _ _ _ _ _ H1) as (_ & k & ->).
  destruct (omega_period _ HB) as (_ & PP). exists (Z.of_nat k). rewrite <- INR_IZR_INZ. field. lra.
Qed.
Theorem mean_anomaly_refuted : exists p M, bound (orb p) /\ mean_anomaly 1 p (tau p) = Ok M /\ cos M <> 1.
Proof.
  set (o := Orbit 1 1 1 0). assert (B : bound o) by (unfold bound, o; cbn [sep mtot ratio ecc]; lra).
  exists (Elements 0 (PI / 2) 0 0 0 0 o), (PI / 2). split; [exact B|].
  assert (P : orbital_period o = 2 * PI). { unfold orbital_period, o; cbn [sep mtot]. replace (1 / 1 / 1 / 1) with 1 by field. rewrite sqrt_1. field. }
  split.
  - unfold mean_anomaly. cbn [orb tau]. rewrite P. cbn [after]. destruct (Rlt_dec (PI / 2) (PI / 2)); [lra|]. bsimp. f_equal. pose proof pi_gt3. field. lra.
  - rewrite cos_PI2. lra.
Qed.

(** The nearest representative of a difference. *)
Theorem nearest_minimal d P : 0 < P -> (nearest d P = d \/ nearest d P = d + P \/ nearest d P = d - P) /\
  Rabs (nearest d P) <= Rabs d /\ Rabs (nearest d P) <= Rabs (d + P) /\ Rabs (nearest d P) <= Rabs (d - P) /\
  (Rabs d <= 3 / 2 * P -> Rabs (nearest d P) <= P / 2).
Proof.
  intros HP. unfold nearest. destruct (Rlt_dec (Rabs d) (Rmin (Rabs (d + P)) (Rabs (d - P)))) as [L|L].
  - pose proof (Rmin_l (Rabs (d + P)) (Rabs (d - P))). pose proof (Rmin_r (Rabs (d + P)) (Rabs (d - P))).
    repeat split; [tauto|lra|lra|lra|]. intros _. unfold Rabs in *. repeat destruct Rcase_abs; lra.
  - assert (Q : Rmin (Rabs (d + P)) (Rabs (d - P)) <= Rabs d) by lra. unfold Rmin in Q.
    destruct (Rlt_dec (Rabs (d + P)) (Rabs (d - P))) as [L2|L2]; destruct (Rle_dec (Rabs (d + P)) (Rabs (d - P))); try lra;
      (repeat split; [tauto|lra|lra|lra|]); intros B; unfold Rabs in *; repeat destruct Rcase_abs; lra.
Qed.
Example nearest_example : nearest (3 / 4) 1 = - (1 / 4).
Proof. unfold nearest, Rmin, Rabs. repeat destruct Rcase_abs; try lra; repeat (destruct Rle_dec || destruct Rlt_dec); lra. Qed.
(** Differences beyond one and a half periods are not fully reduced. *)
Theorem nearest_far_refuted : exists d P, 0 < P /\ nearest d P <> 0 /\ exists k, d = IZR k * P.
Proof.
  exists 2, 1. split; [lra|]. split; [|exists 2%Z; ring]. unfold nearest, Rmin, Rabs. repeat destruct Rcase_abs; try lra; repeat (destruct Rle_dec || destruct Rlt_dec); lra.
Qed.
(** Adding the difference of two sets of elements to the first describes the second binary. *)
Theorem diff_describes a b : bound (orb b) -> let c := eadd a (ediff a b) in
  orb c = orb b /\ cmx c = cmx b /\ cmy c = cmy b /\ cmvx c = cmvx b /\ cmvy c = cmvy b /\
  cos (pomega c) = cos (pomega b) /\ sin (pomega c) = sin (pomega b) /\ exists k, tau c = tau b + IZR k * orbital_period (orb b).
Proof.
  intros HB c. destruct (omega_period _ HB) as (_ & PP). pose proof pi_gt3.
  split; [apply orbit_ext; unfold c; cbn; ring|]. do 4 (split; [unfold c; cbn; ring|]).
  assert (T : exists k, pomega c = pomega b + 2 * IZR k * PI).
  { unfold c, eadd, ediff; cbn [pomega]. destruct (nearest_minimal (pomega b - pomega a) (2 * PI) ltac:(lra)) as ([->|[->| ->]] & _); [exists 0%Z|exists 1%Z|exists (-1)%Z]; ring. }
  destruct T as (k & T). rewrite T, cos_shift, sin_shift. split; [reflexivity|]. split; [reflexivity|].
  unfold c, eadd, ediff; cbn [tau]. destruct (nearest_minimal (tau b - tau a) (orbital_period (orb b)) PP) as ([->|[->| ->]] & _); [exists 0%Z|exists 1%Z|exists (-1)%Z]; ring.
Qed.
(** A set of elements with the same orbit whose tau differs by whole periods gives the same states. *)
Theorem tau_whole_periods fuel fuel' p p' t s k : bound (orb p) -> orb p' = orb p -> cmx p' = cmx p -> cmy p' = cmy p -> cmvx p' = cmvx p -> cmvy p' = cmvy p ->
  cos (pomega p') = cos (pomega p) -> sin (pomega p') = sin (pomega p) -> tau p' = tau p + IZR k * orbital_period (orb p) ->
  full_state_at fuel p t = Ok s -> (exists s', full_state_at fuel' p' t = Ok s') -> (fuel <= fuel')%nat -> full_state_at fuel' p' t = Ok s.
Proof.
  intros HB O C1 C2 C3 C4 CO SI T H (s' & H') L. unfold full_state_at in *. rewrite O in *.
  apply bind_ok_inv in H as (t1 & A1 & H). apply bind_ok_inv in H as (u & U & H). injection H as <-.
  apply bind_ok_inv in H' as (t1' & A1' & H'). apply bind_ok_inv in H' as (u' & U' & H'). injection H' as <-. rewrite A1'. bsimp. rewrite U'. bsimp.
  destruct (after_form _ _ _ _ _ A1) as (_ & n & E1). destruct (after_form _ _ _ _ _ A1') as (_ & n' & E1').
  assert (X : t1' - tau p' = t1 - tau p + IZR (Z.of_nat n' - Z.of_nat n - k) * orbital_period (orb p)) by (rewrite E1, E1', T, !minus_IZR, <- !INR_IZR_INZ; ring).
  rewrite X, (state_at_shift _ _ _ _ HB) in U'.
  assert (U2 : state_at fuel' (orb p) (t1 - tau p) = Ok u).
  { unfold state_at in *. destruct (Rlt_dec 0 (ecc (orb p))); [|exact U]. apply bind_ok_inv in U as (E & HE & U). rewrite (newton_more _ fuel' _ _ _ _ _ HE L). bsimp. exact U. }
  rewrite U2 in U'. injection U' as <-. unfold place. rewrite !cos_neg, !sin_neg, CO, SI, C1, C2, C3, C4. reflexivity.
Qed.

(** delta_a_over_a is the logarithmic derivative of the semi-major axis when masses and velocities change at fixed positions
    (energies taken in the frame of the given velocities). *)
Definition changing (s1 s2 : two_body) (l : R) : two_body :=
  let f b c := Body (mass b + l * (mass c - mass b)) (px b) (py b) (vx b + l * (vx c - vx b)) (vy b + l * (vy c - vy b)) in
  TwoBody (f (body1 s1) (body1 s2)) (f (body2 s1) (body2 s2)).
Definition semi_major (s : two_body) : R := - (m1 s * m2 s) / (2 * energy s).
Theorem delta_a_is_derivative s1 s2 : 0 < m1 s1 -> 0 < m2 s1 -> 0 < dist s1 -> energy s1 <> 0 ->
  is_derive (fun l => semi_major (changing s1 s2 l)) 0 (semi_major s1 * delta_a_over_a s2 s1).
Proof.
  intros H1 H2 HD HE. unfold delta_a_over_a. rewrite total_energy_energy. replace 0.5 with (/ 2) by lra.
  unfold semi_major, energy, kinetic, potential in *. set (d := dist s1) in *.
  assert (DD : forall l, dist (changing s1 s2 l) = d) by reflexivity.
  apply is_derive_ext with (fun l => - ((m1 s1 + l * (m1 s2 - m1 s1)) * (m2 s1 + l * (m2 s2 - m2 s1))) /
    (2 * (((m1 s1 + l * (m1 s2 - m1 s1)) * ((vx (body1 s1) + l * (vx (body1 s2) - vx (body1 s1))) * (vx (body1 s1) + l * (vx (body1 s2) - vx (body1 s1))) + (vy (body1 s1) + l * (vy (body1 s2) - vy (body1 s1))) * (vy (body1 s1) + l * (vy (body1 s2) - vy (body1 s1))))
      + (m2 s1 + l * (m2 s2 - m2 s1)) * ((vx (body2 s1) + l * (vx (body2 s2) - vx (body2 s1))) * (vx (body2 s1) + l * (vx (body2 s2) - vx (body2 s1))) + (vy (body2 s1) + l * (vy (body2 s2) - vy (body2 s1))) * (vy (body2 s1) + l * (vy (body2 s2) - vy (body2 s1))))) / 2
      + - ((m1 s1 + l * (m1 s2 - m1 s1)) * (m2 s1 + l * (m2 s2 - m2 s1)) / d)))); [intros l; rewrite DD; reflexivity|].
  fold (m1 s1) (m2 s1) (m1 s2) (m2 s2).
  set (M1 := m1 s1) in *. set (M2 := m2 s1) in *. set (N1 := m1 s2) in *. set (N2 := m2 s2) in *.
  set (a1 := vx (body1 s1)) in *. set (b1 := vy (body1 s1)) in *. set (a2 := vx (body2 s1)) in *. set (b2 := vy (body2 s1)) in *.
  set (c1 := vx (body1 s2)) in *. set (d1 := vy (body1 s2)) in *. set (c2 := vx (body2 s2)) in *. set (d2 := vy (body2 s2)) in *.
  clearbody M1 M2 N1 N2 a1 b1 a2 b2 c1 d1 c2 d2 d.
  assert (HE2 : (M1 * (a1 * a1 + b1 * b1) + M2 * (a2 * a2 + b2 * b2)) * d - 2 * (M1 * M2) <> 0).
  { intros Z. apply HE. replace ((M1 * (a1 * a1 + b1 * b1) + M2 * (a2 * a2 + b2 * b2)) / 2 + - (M1 * M2 / d)) with (((M1 * (a1 * a1 + b1 * b1) + M2 * (a2 * a2 + b2 * b2)) * d - 2 * (M1 * M2)) / (2 * d)) by (field; lra). rewrite Z. unfold Rdiv. ring. }
  auto_derive.
  - replace (M1 + 0 * (N1 - M1)) with M1 by ring. replace (M2 + 0 * (N2 - M2)) with M2 by ring. replace (a1 + 0 * (c1 - a1)) with a1 by ring. replace (b1 + 0 * (d1 - b1)) with b1 by ring.
    replace (a2 + 0 * (c2 - a2)) with a2 by ring. replace (b2 + 0 * (d2 - b2)) with b2 by ring. unfold Rdiv in HE. intros Z. apply HE. lra.
  - rewrite !Rmult_0_l, !Rplus_0_r. field. repeat split; lra.
Qed.
(** With a moving center of mass it is not the change of the orbit: a uniform boost, which leaves the orbit alone, is
    reported as a change. *)
Theorem delta_a_boost_refuted : exists s1 s2, 0 < m1 s1 /\ 0 < m2 s1 /\ energy (cm_frame s1) < 0 /\ cm_frame s2 = cm_frame s1 /\ delta_a_over_a s2 s1 <> 0.
Proof.
  set (s v := TwoBody (Body (1 / 2) (1 / 2) 0 v (1 / 2)) (Body (1 / 2) (- (1 / 2)) 0 v (- (1 / 2)))).
  exists (s (1 / 4)), (s (5 / 4)).
  assert (D : forall v, dist (s v) = 1). { intros v. unfold dist, s. cbn [body1 body2 px py]. apply sqrt_of; [lra|field]. }
  assert (F : forall v, cm_frame (s v) = s 0).
  { intros v. unfold cm_frame, seen_from, center, m1, m2, s. cbn [body1 body2 mass px py vx vy]. f_equal; f_equal; field. }
  split; [cbn; lra|]. split; [cbn; lra|]. split; [|split; [rewrite !F; reflexivity|]].
  - rewrite F. unfold energy, kinetic, potential. rewrite D. unfold m1, m2, s. cbn [body1 body2 mass vx vy]. lra.
  - unfold delta_a_over_a. rewrite total_energy_energy. unfold energy, kinetic, potential. rewrite D. unfold m1, m2, s. cbn [body1 body2 mass vx vy]. replace 0.5 with (/ 2) by lra.
    match goal with |- ?x <> 0 => replace x with (8 / 3) by field end. lra.
Qed.

(** Angles: wrap and clamp (model_two_body.hpp:150-162). *)
Theorem wrap_sound n x0 x1 x y : x0 < x1 -> wrap n x0 x1 x = Ok y -> x0 <= y <= x1 /\ exists k, y = x + IZR k * (x1 - x0).
Proof.
  intros L. revert x; induction n as [|n IH]; intros x H; cbn [wrap] in H; [discriminate H|]. destruct (Rlt_dec x x0); [|destruct (Rlt_dec x1 x)].
  - destruct (IH _ H) as (B & k & ->). split; [exact B|]. exists (k + 1)%Z. rewrite plus_IZR. ring.
  - destruct (IH _ H) as (B & k & ->). split; [exact B|]. exists (k - 1)%Z. rewrite minus_IZR. ring.
  - injection H as <-. split; [lra|]. exists 0%Z. ring.
Qed.
Theorem wrap_terminates x0 x1 x : x0 < x1 -> exists n y, wrap n x0 x1 x = Ok y.
Proof.
  intros L. assert (G : forall n u, - INR n * (x1 - x0) <= u - x0 -> u - x1 <= INR n * (x1 - x0) -> exists y, wrap (S n) x0 x1 u = Ok y).
  { induction n as [|n IH]; intros u H1 H2.
    - cbn [INR] in *. cbn [wrap]. destruct (Rlt_dec u x0); [lra|]. destruct (Rlt_dec x1 u); [lra|eauto].
    - rewrite S_INR in *. remember (S n) as n' eqn:En. cbn [wrap]. pose proof (pos_INR n). assert (0 <= INR n * (x1 - x0)) by (apply Rmult_le_pos; lra). destruct (Rlt_dec u x0); [|destruct (Rlt_dec x1 u); [|eauto]]; subst n'; apply IH; lra. }
  pose proof (archimed (Rabs (x - x0) / (x1 - x0))) as [A _]. set (z := up (Rabs (x - x0) / (x1 - x0))) in *.
  exists (S (Z.to_nat z)). assert (B : IZR z <= INR (Z.to_nat z)). { rewrite INR_IZR_INZ. apply IZR_le. lia. }
  assert (Q : Rabs (x - x0) = Rabs (x - x0) / (x1 - x0) * (x1 - x0)) by (field; lra).
  assert (Q2 : Rabs (x - x0) <= INR (Z.to_nat z) * (x1 - x0)) by nra. pose proof (Rle_abs (x - x0)). pose proof (Rle_abs (- (x - x0))) as Q3. rewrite Rabs_Ropp in Q3.
  apply G; lra.
Qed.
Theorem clamp_range x0 x1 x : x0 <= x1 -> x0 <= clamp x0 x1 x <= x1 /\ (x0 <= x <= x1 -> clamp x0 x1 x = x).
Proof.
  intros L. unfold clamp. split.
  - split; [apply Rmin_glb; [apply Rmax_r|exact L]|apply Rmin_r].
  - intros B. rewrite Rmax_left by lra. apply Rmin_left. lra.
Qed.

(** A concrete eccentric binary at periapsis. *)
Definition sample_orbit := Orbit 1 1 1 (3 / 5).
Example sample_bound : bound sample_orbit.
Proof. unfold bound, sample_orbit; cbn [sep mtot ratio ecc]. lra. Qed.
Example sample_state : state_at 1 sample_orbit 0 = Ok (TwoBody (Body (1 / 2) (1 / 5) 0 0 1) (Body (1 / 2) (- (1 / 5)) 0 0 (-1))).
Proof.
  unfold state_at. rewrite Rmult_0_r. cbn [sample_orbit ecc newton]. destruct (Rlt_dec 0 (3 / 5)); [|lra].
  destruct (Rlt_dec 1e-10 (Rabs (kepler (3 / 5) 0 0))) as [L|L].
  - exfalso. unfold kepler in L. rewrite sin_0 in L. replace (0 - 3 / 5 * 0 - 0) with 0 in L by ring. rewrite Rabs_R0 in L. lra.
  - bsimp. rewrite (state_form _ 0 sample_bound), (omega_form _ sample_bound). unfold sample_orbit; cbn [sep mtot ratio ecc]. rewrite sin_0, cos_0.
    replace (1 / 1 / 1 / 1) with 1 by field. rewrite sqrt_1. replace (sqrt (1 - 3 / 5 * (3 / 5))) with (4 / 5) by (symmetry; apply sqrt_of; [lra|field]).
    f_equal. f_equal; f_equal; field.
Qed.
Example sample_terminates : exists n, forall t, exists s, state_at n sample_orbit t = Ok s.
Proof. destruct (state_at_terminates sample_orbit sample_bound ltac:(cbn; lra)) as (n & H). exists n. intros t. apply H. lia. Qed.
(** Reversing the velocities of that state gives a clockwise binary. *)
Example sample_clockwise : let s := TwoBody (Body (1 / 2) (1 / 5) 0 0 (-1)) (Body (1 / 2) (- (1 / 5)) 0 0 1) in
  (exists p, elements_at s 0 = Ok p) /\ forall p E, bound (orb p) -> TwoBody (place p (body1 (state_of (orb p) E))) (place p (body2 (state_of (orb p) E))) <> s.
Proof.
  intros s. assert (D : dist s = 2 / 5) by (unfold dist, s; cbn [body1 body2 px py]; apply sqrt_of; [lra|field]).
  assert (F : cm_frame s = s) by (unfold cm_frame, seen_from, center, m1, m2, s; cbn [body1 body2 mass px py vx vy]; f_equal; f_equal; field).
  apply clockwise_refuted; try (unfold m1, m2, s; cbn [body1 body2 mass]; lra); [rewrite D; lra| |]; rewrite F.
  - unfold energy, kinetic, potential. rewrite D. unfold m1, m2, s. cbn [body1 body2 mass vx vy]. lra.
  - unfold angular, m1, m2, s. cbn [body1 body2 mass px py vx vy]. lra.
Qed.

Print Assumptions orbit_conserved.
Print Assumptions exact_orbit_gravitates.
Print Assumptions state_at_accurate.
Print Assumptions state_at_terminates.
Print Assumptions state_at_periodic.
Print Assumptions full_state_conserved.
Print Assumptions full_state_periapsis.
Print Assumptions full_state_terminates.
Print Assumptions full_state_periodic.
Print Assumptions elements_describe_state.
Print Assumptions elements_unbound_throws.
Print Assumptions clockwise_refuted.
Print Assumptions elements_roundtrip.
Print Assumptions mean_anomaly_value.
Print Assumptions mean_anomaly_refuted.
Print Assumptions nearest_minimal.
Print Assumptions diff_describes.
Print Assumptions tau_whole_periods.
Print Assumptions delta_a_is_derivative.
Print Assumptions delta_a_boost_refuted.
Print Assumptions wrap_sound.
Print Assumptions clamp_range.
