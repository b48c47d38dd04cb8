(** C48: conserved and primitive states convert back and forth exactly. *)
From Coq Require Import List Reals Lra Lia Psatz.
From Verif Require Import Base DimensionalModel HydroModel.
Open Scope R_scope.

(** A physical state of the Euler equations. *)
Definition physical (P : prim) : Prop := 0 < rho P /\ 0 < pre P.

Lemma half : 0.5 = / 2. Proof. lra. Qed.

Theorem euler_recover_after_conserve P g floor : physical P -> 1 < g -> euler_recover (euler_conserved P g) g floor = P.
Proof.
  intros [Hr Hp] Hg. destruct P as [r a b c p]. simpl in *. unfold euler_recover, euler_conserved, velocity_squared. cbn [c0 c1 c2 c3 c4 rho u1 u2 u3 pre].
  assert (E : (0.5 * r * (a * a + b * b + c * c) + p / (g - 1) - 0.5 * (r * a * (r * a) + r * b * (r * b) + r * c * (r * c)) / r) * (g - 1) = p).
  { rewrite half. field. split; lra. }
  rewrite E. destruct (Rlt_dec p 0); [lra|]. f_equal; field; lra.
Qed.
(** Conversely, with the floor playing no role, for every conserved state of positive density. *)
Theorem euler_conserve_after_recover U g : 0 < c0 U -> 1 < g -> euler_conserved (euler_recover U g 0) g = U.
Proof.
  intros Hr Hg. destruct U as [r a b c e]. simpl in *. unfold euler_recover, euler_conserved, velocity_squared. cbn [c0 c1 c2 c3 c4].
  destruct (Rlt_dec 0 0); [lra|]. destruct (Rlt_dec _ 0); cbn [rho u1 u2 u3 pre]; rewrite half; f_equal; field; lra.
Qed.
(** The recovered pressure is positive exactly when there is more energy than the motion needs; otherwise the
    floor, when there is one, replaces a negative pressure by temperature times density. *)
Theorem euler_recover_pressure U g floor : 0 < c0 U -> 1 < g ->
  let motion := (c1 U * c1 U + c2 U * c2 U + c3 U * c3 U) / (2 * c0 U) in
  (motion <= c4 U -> pre (euler_recover U g floor) = (c4 U - motion) * (g - 1)) /\
  (c4 U < motion -> 0 < floor -> pre (euler_recover U g floor) = floor * c0 U /\ 0 < pre (euler_recover U g floor)) /\
  (c4 U < motion -> floor <= 0 -> pre (euler_recover U g floor) < 0).
Proof.
  intros Hr Hg motion. unfold euler_recover. cbn [pre]. destruct U as [r a b c e]. cbn [c0 c1 c2 c3 c4] in *.
  replace (0.5 * (a * a + b * b + c * c) / r) with motion by (unfold motion; rewrite half; field; lra).
  split; [|split]; intros H.
  - destruct (Rlt_dec _ 0) as [L|L]; [exfalso; nra|reflexivity].
  - intros HF. destruct (Rlt_dec _ 0) as [L|L]; [|exfalso; nra]. destruct (Rlt_dec 0 floor); [|lra]. split; [reflexivity|nra].
  - intros HF. destruct (Rlt_dec _ 0) as [L|L]; [|exfalso; nra]. destruct (Rlt_dec 0 floor); [lra|assumption].
Qed.

Theorem iso_recover_after_conserve P : 0 < sigma P -> iso_recover (iso_conserved P) = Ok P.
Proof.
  intros H. destruct P as [s a b]. unfold iso_recover, iso_conserved. cbn [d0 d1 d2 sigma vx vy] in *. destruct (Rlt_dec s 0); [lra|]. repeat f_equal; field; lra.
Qed.
Theorem iso_conserve_after_recover U : 0 < d0 U -> exists P, iso_recover U = Ok P /\ iso_conserved P = U.
Proof.
  intros H. destruct U as [s a b]. unfold iso_recover, iso_conserved. cbn [d0 d1 d2] in *. destruct (Rlt_dec s 0); [lra|]. eexists. split; [reflexivity|].
  cbn [sigma vx vy]. f_equal; field; lra.
Qed.
Theorem iso_negative_density_throws U : d0 U < 0 -> iso_recover U = Throw InvalidArgument /\ forall x y, iso_recover_angmom U x y = Throw InvalidArgument.
Proof. intros H. unfold iso_recover, iso_recover_angmom. destruct (Rlt_dec (d0 U) 0); [auto|lra]. Qed.

Lemma radius x y : (x, y) <> (0, 0) -> x * x + y * y <> 0.
Proof.
  intros H E. apply H. pose proof (Rle_0_sqr x) as SX. pose proof (Rle_0_sqr y) as SY. unfold Rsqr in *. f_equal; nra.
Qed.
Theorem angmom_recover_after_conserve P x y : 0 < sigma P -> (x, y) <> (0, 0) -> iso_recover_angmom (iso_angmom P x y) x y = Ok P.
Proof.
  intros H HR. apply radius in HR. destruct P as [s a b]. unfold iso_recover_angmom, iso_angmom. cbn [d0 d1 d2 sigma vx vy] in *. destruct (Rlt_dec s 0); [lra|].
  repeat f_equal; field; split; lra.
Qed.
Theorem angmom_conserve_after_recover Q x y : 0 < d0 Q -> (x, y) <> (0, 0) -> exists P, iso_recover_angmom Q x y = Ok P /\ iso_angmom P x y = Q.
Proof.
  intros H HR. apply radius in HR. destruct Q as [s a b]. unfold iso_recover_angmom, iso_angmom. cbn [d0 d1 d2] in *. destruct (Rlt_dec s 0); [lra|]. eexists. split; [reflexivity|].
  cbn [sigma vx vy]. f_equal; field; split; lra.
Qed.
(** The angular-momentum form turned into the linear one is the linear form of the same state, the recovered
    states agree, and the angular momentum is the moment of the linear momentum. *)
Theorem linear_and_angular_forms_agree P x y : 0 < sigma P -> (x, y) <> (0, 0) ->
  iso_linear_of_angmom (iso_angmom P x y) x y = iso_conserved P /\
  iso_recover (iso_linear_of_angmom (iso_angmom P x y) x y) = iso_recover_angmom (iso_angmom P x y) x y /\
  iso_angular_momentum (iso_conserved P) x y = d2 (iso_angmom P x y).
Proof.
  intros H HR. assert (E : iso_linear_of_angmom (iso_angmom P x y) x y = iso_conserved P).
  { pose proof (radius _ _ HR). destruct P as [s a b]. unfold iso_linear_of_angmom, iso_angmom, iso_conserved. cbn [d0 d1 d2 sigma vx vy] in *. f_equal; field; lra. }
  split; [assumption|]. rewrite E, iso_recover_after_conserve, angmom_recover_after_conserve by assumption. split; [reflexivity|].
  unfold iso_angular_momentum, iso_conserved, iso_angmom. cbn [d0 d1 d2]. ring.
Qed.
Theorem linear_to_angular_and_back Q x y : (x, y) <> (0, 0) -> iso_angmom_flux (iso_linear_of_angmom Q x y) x y = Q /\ iso_linear_of_angmom (iso_angmom_flux Q x y) x y = Q.
Proof.
  intros HR. pose proof (radius _ _ HR). destruct Q as [s a b]. unfold iso_linear_of_angmom, iso_angmom_flux. cbn [d0 d1 d2] in *. split; f_equal; field; lra.
Qed.

Example conversion_example :
  let P := Prim 2 1 0 3 (2/3) in
  euler_conserved P (5/3) = V5 2 2 0 6 11 /\ euler_recover (V5 2 2 0 6 11) (5/3) 0 = P /\
  pre (euler_recover (V5 2 2 0 6 9) (5/3) 0.5) = 1 /\
  iso_angmom (IPrim 2 (1/2) (3/2)) 1 2 = V3 2 7 1 /\ iso_recover_angmom (V3 2 7 1) 1 2 = Ok (IPrim 2 (1/2) (3/2)).
Proof.
  assert (A : euler_conserved (Prim 2 1 0 3 (2/3)) (5/3) = V5 2 2 0 6 11).
  { unfold euler_conserved, velocity_squared. cbn [rho u1 u2 u3 pre]. f_equal; lra. }
  assert (B : iso_angmom (IPrim 2 (1/2) (3/2)) 1 2 = V3 2 7 1).
  { unfold iso_angmom. cbn [sigma vx vy]. f_equal; lra. }
  cbv zeta. split; [exact A|]. split; [rewrite <- A; apply euler_recover_after_conserve; [split; simpl; lra|lra]|].
  split.
    destruct (proj1 (proj2 (euler_recover_pressure (V5 2 2 0 6 9) (5/3) 0.5 ltac:(simpl; lra) ltac:(lra))) ltac:(simpl; lra) ltac:(lra)) as [-> _]. simpl. lra.
  - split; [exact B|]. rewrite <- B. apply angmom_recover_after_conserve; [simpl; lra|]. intros E. injection E. lra.
Qed.

Print Assumptions euler_recover_after_conserve.
Print Assumptions euler_conserve_after_recover.
Print Assumptions euler_recover_pressure.
Print Assumptions iso_recover_after_conserve.
Print Assumptions iso_conserve_after_recover.
Print Assumptions iso_negative_density_throws.
Print Assumptions angmom_recover_after_conserve.
Print Assumptions angmom_conserve_after_recover.
Print Assumptions linear_and_angular_forms_agree.
Print Assumptions linear_to_angular_and_back.
