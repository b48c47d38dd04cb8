(** The expanding envelop of the cloud program (src/model_atmosphere.hpp 155-281). *)
From Coq Require Import Reals Lra Lia.
From Coquelicot Require Import Coquelicot.
From Verif Require Import Base AtmosphereModel AtmosphereProofs EnvelopProofs.
Open Scope R_scope.

(** Lorentz factor of gas with four-velocity u (in units of light speed). *)
Definition lorentz (u : R) : R := sqrt (1 + u * u).

(** Every shell holds its own mass: the comoving density times the Lorentz factor is the density in the frame of the
    explosion, and a shell of thickness |dr| = |dr/dm| dm holds the mass dm.  The shells do not cross (the radius falls with
    the mass coordinate) and none is faster than light. *)
Theorem envelop_shells_hold_mass e m t : 0 < u1 e -> 0 < m1 e -> 0 < psi e -> 0 < m -> 0 < t ->
  exists r', is_derive (fun x => radius e x t) m r' /\ r' < 0 /\
    4 * PI * radius e m t ^ 2 * (lorentz (gamma_beta e m) * density e m t) * Rabs r' = 1 /\
    0 < radius e m t < light_speed * t.
Proof.
  intros HU HM HP Hm Ht. pose proof (u_pos e HU m) as U. pose proof (root_pos (gamma_beta e m)) as P. pose proof (sqrt_pos_lt (gamma_beta e m)) as Q. pose proof light_pos as L. pose proof PI_RGT_0 as PI0. pose proof (velocity_pos e HU m) as V.
  set (D := dudm e m / (sqrt (1 + gamma_beta e m * gamma_beta e m) * (1 + gamma_beta e m * gamma_beta e m)) * light_speed).
  assert (ND : dudm e m < 0). { unfold dudm. assert (0 < psi e / m * gamma_beta e m) by (apply Rmult_lt_0_compat; [apply Rdiv_lt_0_compat; assumption|exact U]). replace (- psi e / m * gamma_beta e m) with (- (psi e / m * gamma_beta e m)) by (unfold Rdiv; ring). lra. }
  assert (NR : D * t < 0).
  { assert (0 < - D * t); [|lra]. apply Rmult_lt_0_compat; [|exact Ht]. unfold D. replace (- (dudm e m / (sqrt (1 + gamma_beta e m * gamma_beta e m) * (1 + gamma_beta e m * gamma_beta e m)) * light_speed)) with (- dudm e m / (sqrt (1 + gamma_beta e m * gamma_beta e m) * (1 + gamma_beta e m * gamma_beta e m)) * light_speed) by (unfold Rdiv; ring).
    apply Rmult_lt_0_compat; [|exact L]. apply Rdiv_lt_0_compat; [lra|]. apply Rmult_lt_0_compat; assumption. }
  exists (D * t). split; [|split; [exact NR|split]].
  - unfold radius. pose proof (velocity_derive e HM m Hm) as VD. fold D in VD. pose proof (is_derive_mult (velocity e) (fun _ => t) m D 0 VD (is_derive_const t m) Rmult_comm) as X. unfold mult, plus, zero in X. cbn in X. replace (D * t) with (D * t + velocity e m * 0) by ring. exact X.
  - rewrite (Rabs_left _ NR). unfold density, radius, lorentz. rewrite (Rabs_left _ ND). unfold D, velocity. set (w := sqrt (1 + gamma_beta e m * gamma_beta e m)) in *. assert (W : w * w = 1 + gamma_beta e m * gamma_beta e m) by (unfold w; apply sqrt_sqrt; lra).
    replace (1 + gamma_beta e m ^ 2) with (w * w) by (rewrite W; ring). rewrite <- W. field. repeat split; try lra.
  - unfold radius. split; [apply Rmult_lt_0_compat; assumption|]. apply Rmult_lt_compat_r; [exact Ht|]. unfold velocity. set (w := sqrt (1 + gamma_beta e m * gamma_beta e m)) in *. assert (W : w * w = 1 + gamma_beta e m * gamma_beta e m) by (unfold w; apply sqrt_sqrt; lra).
    rewrite <- (Rmult_1_l light_speed) at 2. apply Rmult_lt_compat_r; [exact L|]. apply Rmult_lt_reg_r with w; [exact Q|]. unfold Rdiv. rewrite Rmult_assoc, Rinv_l, Rmult_1_r, Rmult_1_l by lra. nra.
Qed.

(** The root finder: started at m1 and 2 m1, it finds the mass coordinate of every shell: it ends, and the radius of the answer agrees with the given one to
    1e-10 in the decimal logarithm. *)
Theorem mass_coordinate_found e M t : 0 < u1 e -> 0 < m1 e -> 0 < psi e -> psi e <= / 2 -> 0 < t -> m1 e <= M ->
  exists n, forall fuel, (n <= fuel)%nat -> exists m, mass_coordinate e fuel (radius e M t) t = Ok m /\ m1 e <= m <= Rmax M (m1 e * 2) /\
    Rabs (log10 (radius e M t) - log10 (radius e m t)) <= / 10 ^ 10.
Proof.
  intros HU HM HP HP2 Ht HB. set (r := radius e M t). assert (F : forall x, 0 < x -> log_ratio e r t x = Ok (lr e r t x)) by (intros x Hx; unfold log_ratio, lr; destruct (Rlt_dec 0 x); [reflexivity|lra]).
  assert (T : 0 < / 10 ^ 10) by (apply Rinv_0_lt_compat; lra).
  unfold mass_coordinate, solve_secant. rewrite (F (m1 e)), (F (m1 e * 2)) by lra. cbn [bind].
  assert (R0 : lr e r t M = 0) by (unfold lr, r; ring).
  assert (CS : m1 e * 2 <= M \/ M = m1 e \/ m1 e < M < m1 e * 2) by lra. destruct CS as [CS|[->|CS]].
  - set (S := (lr e r t (m1 e * 2) - lr e r t (m1 e)) / (m1 e * 2 - m1 e)).
    pose proof (lr_increasing e HU HM HP r t (m1 e) (m1 e * 2) Ht HM ltac:(lra)) as I.
    assert (HS : 0 < S) by (apply Rdiv_lt_0_compat; lra).
    assert (exists n, M - m1 e * 2 <= INR n * (/ 10 ^ 10 / S)) as [n Hn].
    { assert (K : 0 < / 10 ^ 10 / S) by (apply Rdiv_lt_0_compat; assumption). destruct (nfloor_ex ((M - m1 e * 2) / (/ 10 ^ 10 / S))) as (n & _ & Hn); [apply Rle_div_r; lra|]. exists (Datatypes.S n). rewrite S_INR.
      apply Rle_div_l; lra. }
    exists n. intros fuel Hf. destruct (secant_ends (log_ratio e r t) (lr e r t) (m1 e) M (/ 10 ^ 10) S) with (n := n) (a := m1 e) (b := m1 e * 2) as (m & E & Hm & Hg); auto; try lra.
    + intros x Hx. apply F. lra.
    + intros x y Hx Hxy _. apply lr_increasing; auto; lra.
    + intros x y z Hx Hxy Hyz _. apply lr_concave; auto; lra.
    + right. reflexivity.
    + exists m. split; [exact (secant_loop_fuel n _ _ _ _ _ _ _ _ E Hf)|]. split; [pose proof (Rmax_l M (m1 e * 2)); lra|exact Hg].
  - pose proof (lr_increasing e HU HM HP r t (m1 e) (m1 e * 2) Ht HM ltac:(lra)) as I. rewrite R0 in I.
    exists 1%nat. intros fuel Hf. destruct fuel as [|n]; [lia|]. cbn [secant_loop]. rewrite R0. destruct (Rlt_dec (/ 10 ^ 10) (Rabs (lr e r t (m1 e * 2)))) as [L|L].
    + destruct (Req_EM_T (lr e r t (m1 e * 2)) 0) as [X|_]; [lra|]. replace (m1 e * 2 - lr e r t (m1 e * 2) * (m1 e * 2 - m1 e) / (lr e r t (m1 e * 2) - 0)) with (m1 e) by (field; lra).
      rewrite (F (m1 e) HM). cbn [bind]. exists (m1 e). split; [destruct n; cbn [secant_loop]; rewrite R0, Rabs_R0; (destruct (Rlt_dec (/ 10 ^ 10) 0) as [X|_]; [lra|reflexivity])|]. split; [pose proof (Rmax_l (m1 e) (m1 e * 2)); lra|]. change (Rabs (lr e r t (m1 e)) <= / 10 ^ 10). rewrite R0, Rabs_R0. lra.
    + exists (m1 e * 2). split; [reflexivity|]. split; [pose proof (Rmax_r (m1 e) (m1 e * 2)); lra|]. change (Rabs (lr e r t (m1 e * 2)) <= / 10 ^ 10). lra.
  - destruct (secant_from_ends (log_ratio e r t) (lr e r t) (m1 e) (m1 e * 2) M (/ 10 ^ 10) (lr' e (m1 e * 2)) (lr' e (m1 e))) as (n & m & E & Hm & Hg); auto.
    + intros x Hx. apply F. lra.
    + intros x y Hx Hy Hxy. destruct (Rtotal_order x y) as [X|[X|X]]; [|contradiction|].
      * destruct (lr_slope e HU HM r t x y Ht ltac:(lra) X) as (c & Hc & ->). split; apply lr'_decreasing; auto; lra.
      * destruct (lr_slope e HU HM r t y x Ht ltac:(lra) X) as (c & Hc & EQ). replace ((lr e r t y - lr e r t x) / (y - x)) with ((lr e r t x - lr e r t y) / (x - y)) by (field; lra). rewrite EQ. split; apply lr'_decreasing; auto; lra.
    + apply lr'_pos; auto; lra.
    + unfold lr'. pose proof ln10 as L10. set (a := gamma_beta e (m1 e)). set (b := gamma_beta e (m1 e * 2)).
      assert (B : 0 < b < a). { split; [apply u_pos; exact HU|]. unfold a, b, gamma_beta, cpow, Rpower. apply Rmult_lt_compat_l; [exact HU|]. apply exp_increasing. rewrite !ln_div by lra. pose proof (ln_increasing (m1 e) (m1 e * 2) HM ltac:(lra)) as LI. pose proof (Rmult_lt_0_compat _ _ HP (Rlt_Rminus _ _ LI)). lra. }
      replace (2 * (psi e / (m1 e * 2 * (1 + b * b)) / ln 10)) with (psi e / (m1 e * (1 + b * b)) / ln 10) by (field; repeat split; nra). unfold Rdiv. apply Rmult_lt_compat_r; [apply Rinv_0_lt_compat; exact L10|]. apply Rmult_lt_compat_l; [exact HP|]. apply Rinv_lt_contravar; [apply Rmult_lt_0_compat; apply Rmult_lt_0_compat; nra|apply Rmult_lt_compat_l; nra].
    + exists n. intros fuel Hf. exists m. split; [exact (secant_loop_fuel n _ _ _ _ _ _ _ _ E Hf)|]. split; [pose proof (Rmax_r M (m1 e * 2)); lra|exact Hg].
Qed.

(** Every radius between the cloud and the outer boundary of the envelop belongs to a shell. *)
Lemma shell_at e r t : 0 < u1 e -> 0 < m1 e -> 0 < psi e -> 0 < t -> m1 e <= envelop_mass e ->
  cloud_outer_boundary e t <= r <= envelop_outer_boundary e t -> exists M, m1 e <= M <= envelop_mass e /\ radius e M t = r.
Proof.
  intros HU HM HP Ht HE Hr. unfold cloud_outer_boundary, cloud_velocity, envelop_outer_boundary in Hr. fold (radius e (envelop_mass e) t) in Hr.
  destruct (Req_EM_T r (radius e (m1 e) t)) as [->|N1]; [exists (m1 e); split; [lra|reflexivity]|]. destruct (Req_EM_T r (radius e (envelop_mass e) t)) as [->|N2]; [exists (envelop_mass e); split; [lra|reflexivity]|].
  assert (L : m1 e < envelop_mass e). { destruct (Rle_lt_or_eq_dec _ _ HE) as [X|X]; [exact X|]. rewrite <- X in *. lra. }
  destruct (Ranalysis5.IVT_interv (fun x => r - radius e x t) (m1 e) (envelop_mass e)) as (M & H1 & H2); [|exact L|lra|lra|exists M; split; [exact H1|lra]].
  intros x Hx. apply continuity_pt_filterlim. apply (dcont (fun x => r - radius e x t)). destruct (envelop_shells_hold_mass e x t HU HM HP ltac:(lra) Ht) as (r' & D & _). eexists. exact (is_derive_minus (fun _ => r) _ x 0 r' (is_derive_const r x) D).
Qed.

(** The flow is ballistic: at every radius in the envelop the velocity is r / t, to 1e-10 in the decimal logarithm; the
    cloud moves with the velocity of its boundary. *)
Theorem envelop_velocity e r t : 0 < u1 e -> 0 < m1 e -> 0 < psi e -> psi e <= / 2 -> 0 < t -> m1 e <= envelop_mass e ->
  (cloud_outer_boundary e t <= r <= envelop_outer_boundary e t -> exists n, forall fuel, (n <= fuel)%nat ->
     exists v, velocity_at e fuel r t = Ok v /\ Rabs (log10 (r / t) - log10 v) <= / 10 ^ 10) /\
  (r < cloud_outer_boundary e t -> forall fuel, velocity_at e fuel r t = Ok (cloud_outer_boundary e t / t)).
Proof.
  intros HU HM HP HP2 Ht HE. split.
  - intros Hr. destruct (shell_at e r t HU HM HP Ht HE Hr) as (M & H1 & H2). destruct (mass_coordinate_found e M t HU HM HP HP2 Ht ltac:(lra)) as (n & Hn). rewrite H2 in Hn.
    exists n. intros fuel Hf. destruct (Hn fuel Hf) as (m & E & Hm & Hg). exists (velocity e m). unfold velocity_at, gamma_beta_at. destruct (Rlt_dec r (cloud_outer_boundary e t)) as [X|_]; [lra|]. destruct (Rlt_dec (envelop_outer_boundary e t) r) as [X|_]; [lra|].
    rewrite E. cbn [bind]. split; [reflexivity|]. pose proof (velocity_pos e HU m) as V. pose proof (velocity_pos e HU M) as VM.
    assert (R0 : 0 < r) by (rewrite <- H2; apply Rmult_lt_0_compat; assumption). pose proof ln10 as L.
    replace (log10 (r / t) - log10 (velocity e m)) with (log10 r - log10 (radius e m t)); [exact Hg|]. unfold log10, radius. rewrite ln_div, ln_mult by assumption. field. lra.
  - intros Hr fuel. unfold velocity_at, gamma_beta_at. destruct (Rlt_dec r (cloud_outer_boundary e t)) as [_|X]; [|lra]. cbn [bind]. f_equal. unfold cloud_outer_boundary, cloud_velocity, cloud_gamma_beta.
    pose proof light_pos as L. pose proof (u_pos e HU (envelop_mass e)) as U. pose proof (sqrt_pos_lt (gamma_beta e (envelop_mass e))) as Q. pose proof (root_pos (gamma_beta e (envelop_mass e))) as P.
    unfold velocity. set (u := gamma_beta e (envelop_mass e)) in *. set (w := sqrt (1 + u * u)) in *. assert (W : w * w = 1 + u * u) by (unfold w; apply sqrt_sqrt; lra).
    replace (u / w * light_speed / light_speed) with (u / w) by (field; lra). replace (1 - u / w * (u / w)) with (/ w * / w) by (field_simplify_eq; [|lra]; nra). rewrite sqrt_square by (left; apply Rinv_0_lt_compat; exact Q).
    replace (u / w / / w) with u by (field; lra). fold w. field. lra.
Qed.

(** The default model: five decades of mass, psi = 1/4. *)
Example envelop_velocity_example t : 0 < t -> (exists n, forall fuel, (n <= fuel)%nat -> exists m, mass_coordinate default_envelop fuel (radius default_envelop (10 ^ 30) t) t = Ok m /\
    Rabs (log10 (radius default_envelop (10 ^ 30) t) - log10 (radius default_envelop m t)) <= / 10 ^ 10) /\ 10 ^ 30 < envelop_mass default_envelop /\ cloud_outer_boundary default_envelop t < envelop_outer_boundary default_envelop t.
Proof.
  intros Ht. split; [|split].
  - destruct (mass_coordinate_found default_envelop (10 ^ 30) t) as (n & Hn); try (cbn [default_envelop u1 m1 psi]; lra). exists n. intros fuel Hf. destruct (Hn fuel Hf) as (m & E & _ & G). exists m. auto.
  - cbn [default_envelop envelop_mass]. unfold solar_mass. lra.
  - unfold cloud_outer_boundary, cloud_velocity, envelop_outer_boundary. fold (radius default_envelop (envelop_mass default_envelop) t).
    pose proof (lr_increasing default_envelop ltac:(cbn; lra) ltac:(cbn [default_envelop m1]; lra) ltac:(cbn; lra) 1 t (m1 default_envelop) (envelop_mass default_envelop) Ht ltac:(cbn [default_envelop m1]; lra) ltac:(cbn [default_envelop m1 envelop_mass]; unfold solar_mass; lra)) as I.
    unfold lr, log10 in I. pose proof ln10 as L. assert (K : ln (radius default_envelop (envelop_mass default_envelop) t) < ln (radius default_envelop (m1 default_envelop) t)).
    { apply Rmult_lt_reg_r with (/ ln 10); [apply Rinv_0_lt_compat; exact L|]. unfold Rdiv in I. lra. }
    apply ln_lt_inv; [apply Rmult_lt_0_compat; [apply velocity_pos; cbn; lra|exact Ht]..|exact K].
Qed.
Example envelop_shells_example : exists r', is_derive (fun x => radius default_envelop x 1) (10 ^ 26) r' /\
  4 * PI * radius default_envelop (10 ^ 26) 1 ^ 2 * (lorentz (gamma_beta default_envelop (10 ^ 26)) * density default_envelop (10 ^ 26) 1) * Rabs r' = 1 /\ gamma_beta default_envelop (10 ^ 26) = 4.
Proof.
  destruct (envelop_shells_hold_mass default_envelop (10 ^ 26) 1) as (r' & D & _ & E & _); try (cbn [default_envelop u1 m1 psi]; lra). exists r'. split; [exact D|]. split; [exact E|].
  unfold gamma_beta. cbn [default_envelop u1 m1 psi]. replace (10 ^ 26 / 10 ^ 26) with 1 by (field; lra). rewrite cpow_one. ring.
Qed.

Print Assumptions envelop_shells_hold_mass.
Print Assumptions mass_coordinate_found.
Print Assumptions envelop_velocity.
