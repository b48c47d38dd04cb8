(** C64: geometric source terms, angular-momentum form, signal speeds. *)
From Coq Require Import List Reals Lra Lia Psatz.
From Coquelicot Require Import Coquelicot.
From Verif Require Import Base DimensionalModel HydroModel HlleProofs SrhdProps.
Open Scope R_scope.

(** ** Specification: the spherical components of a fixed Cartesian vector (a, b, c) at polar
    angle [q] and azimuth [f], and the divergence of a flux field in spherical coordinates. *)
Definition along_r (a b c q f : R) : R := a * sin q * cos f + b * sin q * sin f + c * cos q.
Definition along_q (a b c q f : R) : R := a * cos q * cos f + b * cos q * sin f - c * sin q.
Definition along_f (a b c q f : R) : R := b * cos f - a * sin f.
Definition sphere_divergence (Fr Fq Ff : R -> R -> R -> R) (r q f d : R) : Prop :=
  exists dr dq df,
    is_derive (fun r => r ^ 2 * Fr r q f) r dr /\ is_derive (fun q => sin q * Fq r q f) q dq /\ is_derive (fun f => Ff r q f) f df /\
    d = dr / r ^ 2 + dq / (r * sin q) + df / (r * sin q).

Definition er : unit_vector := make_unit_vector 1 0 0.
Definition eq : unit_vector := make_unit_vector 0 1 0.
Definition ef : unit_vector := make_unit_vector 0 0 1.
(** A uniform gas that moves with one velocity everywhere, seen in spherical components. *)
Definition uniform (d a b c p q f : R) : prim := Prim d (along_r a b c q f) (along_q a b c q f) (along_f a b c q f) p.
(** Its source terms balance the divergence of its fluxes: it stays as it is. *)
Definition steady (flux : prim -> unit_vector -> v5) (source : prim -> R -> R -> v5) (d a b c p r q f : R) : Prop :=
  forall k, In k (c0 :: c1 :: c2 :: c3 :: c4 :: nil) ->
  sphere_divergence (fun r q f => k (flux (uniform d a b c p q f) er)) (fun r q f => k (flux (uniform d a b c p q f) eq))
    (fun r q f => k (flux (uniform d a b c p q f) ef)) r q f (k (source (uniform d a b c p q f) r (cos q / sin q))).

Lemma speed_fixed a b c q f : along_r a b c q f * along_r a b c q f + along_q a b c q f * along_q a b c q f + along_f a b c q f * along_f a b c q f = a * a + b * b + c * c.
Proof.
  unfold along_r, along_q, along_f. pose proof (sin2_cos2 q) as Q. pose proof (sin2_cos2 f) as F. unfold Rsqr in *.
  transitivity (((a * cos f + b * sin f) * (a * cos f + b * sin f) + c * c) * (sin q * sin q + cos q * cos q) + (b * cos f - a * sin f) * (b * cos f - a * sin f)); [ring|].
  rewrite Q. transitivity ((a * a + b * b) * (sin f * sin f + cos f * cos f) + c * c); [ring|]. rewrite F. ring.
Qed.

Section Frame.
Context (a b c : R).
Let vr := along_r a b c.
Let vq := along_q a b c.
Let vf := along_f a b c.
Lemma dq_r q f : is_derive (fun q => vr q f) q (vq q f).
Proof. unfold vr, vq, along_r, along_q. auto_derive; [trivial|ring]. Qed.
Lemma dq_q q f : is_derive (fun q => vq q f) q (- vr q f).
Proof. unfold vr, vq, along_r, along_q. auto_derive; [trivial|ring]. Qed.
Lemma dq_f q f : is_derive (fun q => vf q f) q 0.
Proof. unfold vf, along_f. auto_derive; [trivial|ring]. Qed.
Lemma df_r q f : is_derive (fun f => vr q f) f (sin q * vf q f).
Proof. unfold vr, vf, along_r, along_f. auto_derive; [trivial|ring]. Qed.
Lemma df_q q f : is_derive (fun f => vq q f) f (cos q * vf q f).
Proof. unfold vq, vf, along_q, along_f. auto_derive; [trivial|ring]. Qed.
Lemma df_f q f : is_derive (fun f => vf q f) f (- (sin q * vr q f + cos q * vq q f)).
Proof.
  unfold vr, vq, vf, along_r, along_q, along_f. auto_derive; [trivial|]. pose proof (sin2_cos2 q) as Q. unfold Rsqr in Q.
  transitivity (- (a * cos f + b * sin f) * (sin q * sin q + cos q * cos q)); [rewrite Q; ring|ring].
Qed.

(** The divergence of a product of two components plus a pressure, by direction. *)
Lemma divergence_of (g1 g2 g3 : R) (C : R -> R -> R) dCq dCf r q f :
  r <> 0 -> sin q <> 0 -> is_derive (fun q => C q f) q dCq -> is_derive (fun f => C q f) f dCf ->
  sphere_divergence (fun _ q f => vr q f * C q f + g1) (fun _ q f => vq q f * C q f + g2) (fun _ q f => vf q f * C q f + g3) r q f
    (2 * g1 / r + cos q / sin q * g2 / r + (vq q f * dCq + vf q f / sin q * dCf) / r).
Proof.
  intros Hr Hs Hq Hf. exists (2 * r * (vr q f * C q f + g1)),
    (cos q * (vq q f * C q f + g2) + sin q * (- vr q f * C q f + vq q f * dCq)),
    (- (sin q * vr q f + cos q * vq q f) * C q f + vf q f * dCf). split; [|split; [|split]].
  - auto_derive; [trivial|ring].
  - auto_derive. { split; [eexists; apply dq_q|]. split; [exists dCq; exact Hq|trivial]. }
    assert (D1 : Derive (fun x : R => vq x f) q = - vr q f) by (apply is_derive_unique, dq_q).
    assert (D2 : Derive (fun x : R => C x f) q = dCq) by (apply is_derive_unique, Hq). rewrite D1, D2. ring.
  - auto_derive. { split; [eexists; apply df_f|]. split; [exists dCf; exact Hf|trivial]. }
    assert (D1 : Derive (fun x : R => vf q x) f = - (sin q * vr q f + cos q * vq q f)) by (apply is_derive_unique, df_f).
    assert (D2 : Derive (fun x : R => C q x) f = dCf) by (apply is_derive_unique, Hf). rewrite D1, D2. ring.
  - field. split; assumption.
Qed.
End Frame.

Lemma divergence_ext Fr Fq Ff Gr Gq Gf r q f d d' :
  (forall r q f, Fr r q f = Gr r q f) -> (forall r q f, Fq r q f = Gq r q f) -> (forall r q f, Ff r q f = Gf r q f) -> d = d' ->
  sphere_divergence Gr Gq Gf r q f d' -> sphere_divergence Fr Fq Ff r q f d.
Proof.
  intros H1 H2 H3 -> (dr & dq & df & A & B & C & E). exists dr, dq, df. split; [|split; [|split]]; [..|exact E].
  - eapply is_derive_ext; [|exact A]. intros t. cbv beta. rewrite H1. reflexivity.
  - eapply is_derive_ext; [|exact B]. intros t. cbv beta. rewrite H2. reflexivity.
  - eapply is_derive_ext; [|exact C]. intros t. cbv beta. rewrite H3. reflexivity.
Qed.

(** Every flux of the form both gases share: speed [l] times component, carried densities [s0],
    [m] times component and [s4]. *)
Section Generic.
Context (a b c l m s0 s4 p r q f : R).
Hypotheses (Hr : r <> 0) (Hs : sin q <> 0).
Let vr := along_r a b c.
Let vq := along_q a b c.
Let vf := along_f a b c.
Lemma scalar_balance s : sphere_divergence (fun _ q f => l * vr q f * s) (fun _ q f => l * vq q f * s) (fun _ q f => l * vf q f * s) r q f 0.
Proof.
  eapply divergence_ext; [| | | |apply (divergence_of a b c 0 0 0 (fun _ _ => l * s) 0 0 r q f Hr Hs); auto_derive; trivial];
    [intros; unfold vr; ring|intros; unfold vq; ring|intros; unfold vf; ring|field; split; assumption].
Qed.
Lemma r_balance : sphere_divergence (fun _ q f => l * vr q f * (m * vr q f) + p) (fun _ q f => l * vq q f * (m * vr q f)) (fun _ q f => l * vf q f * (m * vr q f)) r q f
  ((2 * p + l * m * (vq q f * vq q f + vf q f * vf q f)) / r).
Proof.
  eapply divergence_ext; [| | | |apply (divergence_of a b c p 0 0 (fun q f => l * m * vr q f) (l * m * vq q f) (l * m * (sin q * vf q f)) r q f Hr Hs)];
    [intros; unfold vr; ring|intros; unfold vq; ring|intros; unfold vf; ring| | |].
  - fold vr vq vf. field. split; assumption.
  - apply is_derive_scal. apply dq_r.
  - apply is_derive_scal. apply df_r.
Qed.
Lemma q_balance : sphere_divergence (fun _ q f => l * vr q f * (m * vq q f)) (fun _ q f => l * vq q f * (m * vq q f) + p) (fun _ q f => l * vf q f * (m * vq q f)) r q f
  ((cos q / sin q * p + l * m * (vf q f * vf q f * (cos q / sin q) - vr q f * vq q f)) / r).
Proof.
  eapply divergence_ext; [| | | |apply (divergence_of a b c 0 p 0 (fun q f => l * m * vq q f) (l * m * - vr q f) (l * m * (cos q * vf q f)) r q f Hr Hs)];
    [intros; unfold vr; ring|intros; unfold vq; ring|intros; unfold vf; ring| | |].
  - fold vr vq vf. field. split; assumption.
  - apply is_derive_scal. apply dq_q.
  - apply is_derive_scal. apply df_q.
Qed.
Lemma f_balance : sphere_divergence (fun _ q f => l * vr q f * (m * vf q f)) (fun _ q f => l * vq q f * (m * vf q f)) (fun _ q f => l * vf q f * (m * vf q f) + p) r q f
  (- vf q f * (l * m) * (vr q f + vq q f * (cos q / sin q)) / r).
Proof.
  eapply divergence_ext; [| | | |apply (divergence_of a b c 0 0 p (fun q f => l * m * vf q f) (l * m * 0) (l * m * - (sin q * vr q f + cos q * vq q f)) r q f Hr Hs)];
    [intros; unfold vr; ring|intros; unfold vq; ring|intros; unfold vf; ring| | |].
  - fold vr vq vf. field. split; assumption.
  - apply is_derive_scal. apply dq_f.
  - apply is_derive_scal. apply df_f.
Qed.
End Generic.

(** ** The Euler source terms. *)
Theorem euler_uniform_flow_steady g d a b c p r q f : r <> 0 -> sin q <> 0 ->
  steady (fun P n => euler_flux P n (euler_conserved P g)) (fun P r ct => euler_source P r ct) d a b c p r q f.
Proof.
  intros Hr Hs k HK. pose proof (speed_fixed a b c) as SF.
  assert (EN : forall q f, c4 (euler_conserved (uniform d a b c p q f) g) = 0.5 * d * (a * a + b * b + c * c) + p / (g - 1)).
  { intros. unfold euler_conserved, velocity_squared. cbn [c4 uniform rho u1 u2 u3 pre]. rewrite SF. reflexivity. }
  destruct HK as [<-|[<-|[<-|[<-|[<-|[]]]]]].
  - eapply divergence_ext; [| | | |apply (scalar_balance a b c 1 r q f Hr Hs d)]; intros; unfold euler_source, euler_conserved, euler_flux, flux5, velocity_along, project; cbn [c0 c1 c2 c3 c4 uniform rho u1 u2 u3 pre er eq ef make_unit_vector n1 n2 n3]; (replace 2.0 with 2 by lra); first [ring | field; lra | field; repeat split; lra].
  - eapply divergence_ext; [| | | |apply (r_balance a b c 1 d p r q f Hr Hs)]; intros; unfold euler_source, euler_conserved, euler_flux, flux5, velocity_along, project; cbn [c0 c1 c2 c3 c4 uniform rho u1 u2 u3 pre er eq ef make_unit_vector n1 n2 n3]; (replace 2.0 with 2 by lra); first [ring | field; lra | field; repeat split; lra].
  - eapply divergence_ext; [| | | |apply (q_balance a b c 1 d p r q f Hr Hs)]; intros; unfold euler_source, euler_conserved, euler_flux, flux5, velocity_along, project; cbn [c0 c1 c2 c3 c4 uniform rho u1 u2 u3 pre er eq ef make_unit_vector n1 n2 n3]; (replace 2.0 with 2 by lra); first [ring | field; lra | field; repeat split; lra].
  - eapply divergence_ext; [| | | |apply (f_balance a b c 1 d p r q f Hr Hs)]; intros; unfold euler_source, euler_conserved, euler_flux, flux5, velocity_along, project; cbn [c0 c1 c2 c3 c4 uniform rho u1 u2 u3 pre er eq ef make_unit_vector n1 n2 n3]; (replace 2.0 with 2 by lra); first [ring | field; lra | field; repeat split; lra].
  - revert EN. generalize (0.5 * d * (a * a + b * b + c * c) + p / (g - 1)). intros K EN.
    eapply divergence_ext; [| | | |apply (scalar_balance a b c 1 r q f Hr Hs (K + p))]; intros; unfold euler_source, euler_flux, flux5, velocity_along, project;
      cbn [c4]; rewrite ?EN; cbn [uniform rho u1 u2 u3 pre er eq ef make_unit_vector n1 n2 n3]; ring.
Qed.
(** ** The relativistic source terms. *)
Theorem srhd_uniform_flow_steady g d a b c p r q f : 0 < d -> r <> 0 -> sin q <> 0 ->
  steady (fun P n => srhd_flux P n (srhd_conserved P g)) (fun P r ct => srhd_source P g r ct) d a b c p r q f.
Proof.
  intros Hd Hr Hs k HK. pose proof (speed_fixed a b c) as SF. set (W := sqrt (1 + (a * a + b * b + c * c))).
  assert (HW : 0 < W) by (apply sqrt_lt_R0; nra).
  assert (LW : forall q f, lorentz_factor (uniform d a b c p q f) = W). { intros. unfold lorentz_factor, gamma_beta_squared. cbn [uniform u1 u2 u3]. rewrite SF. reflexivity. }
  assert (HH : forall q f, enthalpy_density (uniform d a b c p q f) g = d + p * (1 + 1 / (g - 1))) by reflexivity. set (H := d + p * (1 + 1 / (g - 1))) in *.
  destruct HK as [<-|[<-|[<-|[<-|[<-|[]]]]]].
  - eapply divergence_ext; [| | | |apply (scalar_balance a b c (/ W) r q f Hr Hs (d * W))]; intros;
      unfold srhd_flux, flux5, beta_along, project, srhd_conserved, specific_enthalpy, srhd_source; rewrite ?LW, ?HH; cbn [c0 c1 c2 c3 c4 uniform rho u1 u2 u3 pre er eq ef make_unit_vector n1 n2 n3]; (replace 2.0 with 2 by lra); first [ring | field; lra | field; repeat split; lra].
  - eapply divergence_ext; [| | | |apply (r_balance a b c (/ W) (W * H) p r q f Hr Hs)]; intros;
      unfold srhd_flux, flux5, beta_along, project, srhd_conserved, specific_enthalpy, srhd_source; rewrite ?LW, ?HH; cbn [c0 c1 c2 c3 c4 uniform rho u1 u2 u3 pre er eq ef make_unit_vector n1 n2 n3]; (replace 2.0 with 2 by lra); first [ring | field; lra | field; repeat split; lra].
  - eapply divergence_ext; [| | | |apply (q_balance a b c (/ W) (W * H) p r q f Hr Hs)]; intros;
      unfold srhd_flux, flux5, beta_along, project, srhd_conserved, specific_enthalpy, srhd_source; rewrite ?LW, ?HH; cbn [c0 c1 c2 c3 c4 uniform rho u1 u2 u3 pre er eq ef make_unit_vector n1 n2 n3]; (replace 2.0 with 2 by lra); first [ring | field; lra | field; repeat split; lra].
  - eapply divergence_ext; [| | | |apply (f_balance a b c (/ W) (W * H) p r q f Hr Hs)]; intros;
      unfold srhd_flux, flux5, beta_along, project, srhd_conserved, specific_enthalpy, srhd_source; rewrite ?LW, ?HH; cbn [c0 c1 c2 c3 c4 uniform rho u1 u2 u3 pre er eq ef make_unit_vector n1 n2 n3]; (replace 2.0 with 2 by lra); first [ring | field; lra | field; repeat split; lra].
  - eapply divergence_ext; [| | | |apply (scalar_balance a b c (/ W) r q f Hr Hs (H * W * W - d * W))]; intros;
      unfold srhd_flux, flux5, beta_along, project, srhd_conserved, specific_enthalpy, srhd_source; rewrite ?LW, ?HH; cbn [c0 c1 c2 c3 c4 uniform rho u1 u2 u3 pre er eq ef make_unit_vector n1 n2 n3]; (replace 2.0 with 2 by lra); first [ring | field; lra | field; repeat split; lra].
Qed.
(** Source terms are functions of the local state, and every state at a point belongs to a uniform
    flow, so nothing else keeps uniform flows steady. *)
Lemma uniform_everywhere P q f : exists a b c, uniform (rho P) a b c (pre P) q f = P.
Proof.
  destruct P as [d x y z p]. cbn [rho pre].
  exists (x * sin q * cos f + y * cos q * cos f - z * sin f), (x * sin q * sin f + y * cos q * sin f + z * cos f), (x * cos q - y * sin q).
  unfold uniform, along_r, along_q, along_f. pose proof (sin2_cos2 q) as Q. pose proof (sin2_cos2 f) as F. unfold Rsqr in *. f_equal.
  - transitivity (x * (sin q * sin q * (sin f * sin f + cos f * cos f) + cos q * cos q) + y * (sin q * cos q) * (sin f * sin f + cos f * cos f - 1)); [ring|]. rewrite F.
    replace (sin q * sin q * 1 + cos q * cos q) with (sin q * sin q + cos q * cos q) by ring. rewrite Q. ring.
  - transitivity (y * (cos q * cos q * (sin f * sin f + cos f * cos f) + sin q * sin q) + x * (sin q * cos q) * (sin f * sin f + cos f * cos f - 1)); [ring|]. rewrite F.
    replace (cos q * cos q * 1 + sin q * sin q) with (sin q * sin q + cos q * cos q) by ring. rewrite Q. ring.
  - transitivity (z * (sin f * sin f + cos f * cos f)); [ring|]. rewrite F. ring.
Qed.
Lemma divergence_unique Fr Fq Ff r q f d d' : sphere_divergence Fr Fq Ff r q f d -> sphere_divergence Fr Fq Ff r q f d' -> d = d'.
Proof.
  intros (x & y & z & X & Y & Z & ->) (x' & y' & z' & X' & Y' & Z' & ->).
  apply is_derive_unique in X, Y, Z, X', Y', Z'. congruence.
Qed.
Theorem euler_source_unique g (source : prim -> R -> R -> v5) :
  (forall d a b c p r q f, r <> 0 -> sin q <> 0 -> steady (fun P n => euler_flux P n (euler_conserved P g)) source d a b c p r q f) ->
  forall P r q, r <> 0 -> sin q <> 0 -> source P r (cos q / sin q) = euler_source P r (cos q / sin q).
Proof.
  intros HS P r q Hr Hq. destruct (uniform_everywhere P q 0) as (a & b & c & HU). specialize (HS (rho P) a b c (pre P) r q 0 Hr Hq).
  pose proof (euler_uniform_flow_steady g (rho P) a b c (pre P) r q 0 Hr Hq) as HE.
  assert (E : forall k, In k (c0 :: c1 :: c2 :: c3 :: c4 :: nil) -> k (source P r (cos q / sin q)) = k (euler_source P r (cos q / sin q))).
  { intros k HK. pose proof (divergence_unique _ _ _ _ _ _ _ _ (HS k HK) (HE k HK)) as D. rewrite !HU in D. exact D. }
  pose proof (E c0) as E0. pose proof (E c1) as E1. pose proof (E c2) as E2. pose proof (E c3) as E3. pose proof (E c4) as E4. cbn [In] in E0, E1, E2, E3, E4.
  destruct (source P r (cos q / sin q)) as [x0 x1 x2 x3 x4], (euler_source P r (cos q / sin q)) as [y0 y1 y2 y3 y4]. cbn [c0 c1 c2 c3 c4] in *.
  rewrite E0, E1, E2, E3, E4 by tauto. reflexivity.
Qed.

(** ** The one-dimensional versions: right for motion along the radius, wrong for a gas that also
    turns about the axis, whose centrifugal term is left out although that of the polar motion is kept. *)
Theorem radial_sources_agree P g r : u2 P = 0 -> u3 P = 0 ->
  euler_source_radial P r = euler_source P r 0 /\ srhd_source_radial P g r = srhd_source P g r 0.
Proof.
  intros H2 H3. unfold euler_source_radial, euler_source, srhd_source_radial, srhd_source. rewrite H2, H3. unfold Rdiv. split; f_equal; ring.
Qed.
Theorem radial_sources_momentum P g r : r <> 0 ->
  c1 (euler_source P r 0) - c1 (euler_source_radial P r) = rho P * (u3 P * u3 P) / r /\
  c1 (srhd_source P g r 0) - c1 (srhd_source_radial P g r) = enthalpy_density P g * (u3 P * u3 P) / r.
Proof.
  intros Hr. unfold euler_source_radial, euler_source, srhd_source_radial, srhd_source. cbn [c1]. split; unfold Rdiv; ring.
Qed.
Theorem radial_source_refuted : exists P r, 0 < rho P /\ 0 < pre P /\ 0 < r /\ u2 P = 0 /\ c1 (euler_source_radial P r) <> c1 (euler_source P r 0).
Proof. exists (Prim 1 0 0 1 1), 1. unfold euler_source_radial, euler_source. cbn [rho u1 u2 u3 pre c1]. repeat split; lra. Qed.

(** ** The angular-momentum form of the isothermal equations: with its one source term a uniform
    flow is steady in the plane, about any centre. *)
Definition plane_divergence (Fx Fy : R -> R -> R) (x y d : R) : Prop :=
  exists dx dy, is_derive (fun x => Fx x y) x dx /\ is_derive (fun y => Fy x y) y dy /\ d = dx + dy.
Theorem angmom_uniform_flow_steady P cs2 x y k : In k (d0 :: d1 :: d2 :: nil) ->
  plane_divergence (fun x y => k (iso_angmom_flux (iso_flux P er cs2) x y)) (fun x y => k (iso_angmom_flux (iso_flux P eq cs2) x y)) x y (k (iso_angmom_source P cs2)).
Proof.
  intros HK. unfold iso_flux, iso_angmom_flux, iso_angmom_source, iso_velocity_along, project.
  destruct HK as [<-|[<-|[<-|[]]]]; cbn [d0 d1 d2 er eq make_unit_vector n1 n2 n3];
    replace 0.5 with (/ 2) by lra; replace 2.0 with 2 by lra; eexists; eexists; (split; [auto_derive; [trivial|reflexivity]|]); (split; [auto_derive; [trivial|reflexivity]|]); field.
Qed.
(** The flux map sends the linear fluxes to those of the converted state: it commutes with the conversion. *)
Theorem angmom_flux_of_state P n cs2 x y :
  d0 (iso_angmom_flux (iso_flux P n cs2) x y) = iso_velocity_along P n * d0 (iso_angmom P x y) /\
  d1 (iso_angmom_flux (iso_flux P n cs2) x y) = iso_velocity_along P n * d1 (iso_angmom P x y) + iso_pressure P cs2 * (x * n1 n + y * n2 n) /\
  d2 (iso_angmom_flux (iso_flux P n cs2) x y) = iso_velocity_along P n * d2 (iso_angmom P x y) + iso_pressure P cs2 * (x * n2 n - y * n1 n).
Proof. unfold iso_angmom_flux, iso_flux, iso_angmom. cbn [d0 d1 d2]. repeat split; ring. Qed.

(** ** The signal speed that limits the time step. *)
Lemma smax_le a b x : smax a b <= x <-> a <= x /\ b <= x.
Proof. unfold smax. destruct (Rlt_dec a b); split; intros; lra. Qed.
Lemma smax_l a b : a <= smax a b.
Proof. unfold smax. destruct (Rlt_dec a b); lra. Qed.
Lemma smax_r a b : b <= smax a b.
Proof. unfold smax. destruct (Rlt_dec a b); lra. Qed.
Theorem max_wavespeed_exact P cs2 :
  iso_max_wavespeed P cs2 = Rmax (Rabs (vx P)) (Rabs (vy P)) + sqrt cs2.
Proof.
  unfold iso_max_wavespeed, iso_wavespeeds, iso_velocity_along, project. cbn [fst snd make_unit_vector n1 n2 n3].
  replace (vx P * 1 + vy P * 0 + 0 * 0) with (vx P) by ring. replace (vx P * 0 + vy P * 1 + 0 * 0) with (vy P) by ring. pose proof (sqrt_pos cs2) as HS. set (c := sqrt cs2) in *.
  assert (M : forall v, smax (Rabs (v - c)) (Rabs (v + c)) = Rabs v + c).
  { intros v. unfold smax, Rabs. destruct (Rcase_abs v), (Rcase_abs (v - c)), (Rcase_abs (v + c)); try (exfalso; lra);
      match goal with |- (if ?d then _ else _) = _ => destruct d end; lra. }
  rewrite !M. unfold smax, Rmax. destruct (Rlt_dec (Rabs (vx P) + c) (Rabs (vy P) + c)), (Rle_dec (Rabs (vx P)) (Rabs (vy P))); lra.
Qed.
Theorem max_wavespeed_bounds P cs2 axis n : on_axis axis = Ok n -> (axis < 2)%nat ->
  let '(am, ap) := iso_wavespeeds P n cs2 in Rabs am <= iso_max_wavespeed P cs2 /\ Rabs ap <= iso_max_wavespeed P cs2.
Proof.
  intros HN HA. rewrite max_wavespeed_exact. pose proof (Rmax_l (Rabs (vx P)) (Rabs (vy P))). pose proof (Rmax_r (Rabs (vx P)) (Rabs (vy P))).
  unfold iso_wavespeeds, iso_velocity_along, project. pose proof (sqrt_pos cs2) as HS. revert HS. generalize (sqrt cs2). intros c HS.
  assert (T : forall v, Rabs (v - c) <= Rabs v + c /\ Rabs (v + c) <= Rabs v + c).
  { intros v. split; unfold Rabs; destruct (Rcase_abs v), (Rcase_abs _); lra. }
  destruct axis as [|[|]]; [| |lia]; cbn in HN; assert (n = n) by reflexivity; inversion HN; cbn [make_unit_vector n1 n2 n3].
  - replace (vx P * 1 + vy P * 0 + 0 * 0) with (vx P) by ring. destruct (T (vx P)). lra.
  - replace (vx P * 0 + vy P * 1 + 0 * 0) with (vy P) by ring. destruct (T (vy P)). lra.
Qed.
(** Across a slanted face signals may be faster, by at most the square root of two in the gas speed. *)
Theorem max_wavespeed_slanted P cs2 n : n1 n * n1 n + n2 n * n2 n + n3 n * n3 n = 1 ->
  let '(am, ap) := iso_wavespeeds P n cs2 in Rabs am <= sqrt 2 * iso_max_wavespeed P cs2 /\ Rabs ap <= sqrt 2 * iso_max_wavespeed P cs2.
Proof.
  intros HN. rewrite max_wavespeed_exact. unfold iso_wavespeeds, iso_velocity_along, project. pose proof (sqrt_pos cs2) as HS. revert HS. generalize (sqrt cs2). intros c HS.
  set (M := Rmax (Rabs (vx P)) (Rabs (vy P))). assert (HX : Rabs (vx P) <= M) by apply Rmax_l. assert (HY : Rabs (vy P) <= M) by apply Rmax_r.
  pose proof (Rabs_pos (vx P)). set (w := vx P * n1 n + vy P * n2 n + 0 * n3 n).
  assert (HQ : sqrt 2 * sqrt 2 = 2) by (apply sqrt_sqrt; lra). pose proof (sqrt_pos 2).
  assert (H1 : 1 <= sqrt 2) by (rewrite <- sqrt_1 at 1; apply sqrt_le_1_alt; lra).
  assert (HX2 : vx P * vx P <= M * M) by (apply Rsqr_le_abs_1; rewrite (Rabs_right M) by lra; assumption).
  assert (HY2 : vy P * vy P <= M * M) by (apply Rsqr_le_abs_1; rewrite (Rabs_right M) by lra; assumption).
  assert (HW : Rabs w <= sqrt 2 * M).
  { rewrite <- (Rabs_right (sqrt 2 * M)) by nra. apply Rsqr_le_abs_0. unfold Rsqr.
    replace (sqrt 2 * M * (sqrt 2 * M)) with (2 * (M * M)) by (transitivity ((sqrt 2 * sqrt 2) * (M * M)); [rewrite HQ; ring|ring]).
    assert (w * w <= (vx P * vx P + vy P * vy P) * (n1 n * n1 n + n2 n * n2 n)).
    { unfold w. pose proof (Rle_0_sqr (vx P * n2 n - vy P * n1 n)). unfold Rsqr in *. lra. }
    assert ((vx P * vx P + vy P * vy P) * (n1 n * n1 n + n2 n * n2 n) <= (vx P * vx P + vy P * vy P) * 1) by (apply Rmult_le_compat_l; nra). lra. }
  assert (c <= sqrt 2 * c) by nra. assert (sqrt 2 * (M + c) = sqrt 2 * M + sqrt 2 * c) by ring.
  assert (T : Rabs (w - c) <= Rabs w + c /\ Rabs (w + c) <= Rabs w + c).
  { split; unfold Rabs; destruct (Rcase_abs w); match goal with |- (if ?d then _ else _) <= _ => destruct d end; lra. }
  destruct T. lra.
Qed.
Theorem max_wavespeed_slanted_refuted : exists P cs2 n, n1 n * n1 n + n2 n * n2 n + n3 n * n3 n = 1 /\ iso_max_wavespeed P cs2 < snd (iso_wavespeeds P n cs2).
Proof.
  exists (IPrim 1 1 1), 0, (make_unit_vector (3 / 5) (4 / 5) 0). cbn [make_unit_vector n1 n2 n3]. split; [lra|]. rewrite max_wavespeed_exact. cbn [vx vy].
  rewrite Rmax_left, Rabs_R1, sqrt_0 by lra. unfold iso_wavespeeds, iso_velocity_along, project. cbn [snd vx vy make_unit_vector n1 n2 n3]. rewrite sqrt_0. lra.
Qed.

(** ** The Roe average linearises the isothermal flux: the matrix of the flux function at the
    averaged velocity maps the jump of the state to the jump of the flux. *)
Definition iso_jacobian (u v cs2 : R) (n : unit_vector) (U : v3) : v3 :=
  let w := u * n1 n + v * n2 n in
  V3 (n1 n * d1 U + n2 n * d2 U)
     ((cs2 * n1 n - u * w) * d0 U + (w + u * n1 n) * d1 U + u * n2 n * d2 U)
     ((cs2 * n2 n - v * w) * d0 U + v * n1 n * d1 U + (w + v * n2 n) * d2 U).
Definition sub3 (U V : v3) : v3 := V3 (d0 U - d0 V) (d1 U - d1 V) (d2 U - d2 V).
Theorem iso_roe_linearises Pl Pr cs2 n : 0 < sigma Pl -> 0 < sigma Pr ->
  let A := iso_roe_average Pr Pl in
  iso_jacobian (vx A) (vy A) cs2 n (sub3 (iso_conserved Pr) (iso_conserved Pl)) = sub3 (iso_flux Pr n cs2) (iso_flux Pl n cs2).
Proof.
  intros Hl Hr. destruct Pl as [sl ul vl], Pr as [sr ur vr]. cbn [sigma] in *. unfold iso_roe_average. cbn [sigma vx vy].
  assert (Kl : 0 < sqrt sl) by (apply sqrt_lt_R0; assumption). assert (Kr : 0 < sqrt sr) by (apply sqrt_lt_R0; assumption).
  assert (Ql : sl = sqrt sl * sqrt sl) by (symmetry; apply sqrt_sqrt; lra). assert (Qr : sr = sqrt sr * sqrt sr) by (symmetry; apply sqrt_sqrt; lra).
  set (a := sqrt sl) in *. set (b := sqrt sr) in *. clearbody a b. subst sl sr.
  unfold iso_jacobian, sub3, iso_conserved, iso_flux, iso_velocity_along, iso_pressure, project. cbn [d0 d1 d2 sigma vx vy].
  f_equal; field; lra.
Qed.
(** That matrix is the derivative of the flux with respect to the conserved state. *)
Theorem iso_jacobian_is_derivative P cs2 n U : 0 < sigma P ->
  let flux_at e := iso_flux (IPrim (sigma P + e * d0 U) ((sigma P * vx P + e * d1 U) / (sigma P + e * d0 U)) ((sigma P * vy P + e * d2 U) / (sigma P + e * d0 U))) n cs2 in
  is_derive (fun e => d0 (flux_at e)) 0 (d0 (iso_jacobian (vx P) (vy P) cs2 n U)) /\
  is_derive (fun e => d1 (flux_at e)) 0 (d1 (iso_jacobian (vx P) (vy P) cs2 n U)) /\
  is_derive (fun e => d2 (flux_at e)) 0 (d2 (iso_jacobian (vx P) (vy P) cs2 n U)).
Proof.
  intros HS. destruct P as [s u v]. cbn [sigma vx vy] in *. unfold iso_flux, iso_jacobian, iso_velocity_along, iso_pressure, project. cbn [d0 d1 d2 sigma vx vy].
  split; [|split]; (auto_derive; [repeat split; lra|]); field; lra.
Qed.

(** ** Examples. *)
Example uniform_example : uniform 1 3 0 0 2 (PI / 2) 0 = Prim 1 3 0 0 2.
Proof. unfold uniform, along_r, along_q, along_f. rewrite sin_PI2, cos_PI2, sin_0, cos_0. f_equal; ring. Qed.
Example sources_example : euler_source (Prim 2 3 1 2 5) 2 1 = V5 0 10 (7 / 2) (- 8) 0.
Proof. unfold euler_source. cbn [rho u1 u2 u3 pre]. f_equal; lra. Qed.
Example max_wavespeed_example : iso_max_wavespeed (IPrim 1 (- 3) 2) 4 = 5.
Proof. rewrite max_wavespeed_exact. cbn [vx vy]. replace 4 with (2 * 2) by ring. rewrite sqrt_square, Rabs_left, Rabs_right, Rmax_left by lra. ring. Qed.
Example roe_example : iso_roe_average (IPrim 4 1 2) (IPrim 1 4 (- 1)) = IPrim 3 2 1.
Proof.
  unfold iso_roe_average. cbn [sigma vx vy]. rewrite sqrt_1. replace (sqrt 4) with 2 by (replace 4 with (2 * 2) by ring; rewrite sqrt_square; lra). f_equal; field.
Qed.
Print Assumptions euler_uniform_flow_steady.
Print Assumptions srhd_uniform_flow_steady.
Print Assumptions euler_source_unique.
Print Assumptions angmom_uniform_flow_steady.
Print Assumptions max_wavespeed_bounds.
Print Assumptions max_wavespeed_slanted.
Print Assumptions iso_roe_linearises.
