(** The initial disk of the binary program. *)
From Coq Require Import ZArith Reals Lra Lia List Bool.
From Coquelicot Require Import Coquelicot.
From Verif Require Import Base TwoBodyModel HydroModel SourceModel BinarySetupModel.
Open Scope R_scope.

(** ** Vocabulary *)
(** Options with which the profile has no zero divisor. *)
Record sound (o : options) : Prop := mksound {
  so_radius : 0 < o_disk_radius o; so_mass : 0 < o_disk_mass o; so_ambient : 0 <= o_ambient_density o;
  so_mach : 0 < o_mach_number o; so_soft : 0 <= o_softening_radius o }.
Definition radius (p : R * R) : R := sqrt (fst p * fst p + snd p * snd p).
(** Outward and forward components of the velocity at a point. *)
Definition outward (p : R * R) (P : iprim) : R := (fst p * HydroModel.vx P + snd p * HydroModel.vy P) / radius p.
Definition forward (p : R * R) (P : iprim) : R := (fst p * HydroModel.vy P - snd p * HydroModel.vx P) / radius p.
(** The part of the density that is not the ambient gas. *)
Definition torus_share (o : options) (r : R) : R :=
  let e := exp (- ((r / o_disk_radius o - 1) ^ 2) / 2) in e / (e + o_ambient_density o).

Lemma radius_sqr p : radius p * radius p = fst p * fst p + snd p * snd p.
Proof. unfold radius. apply sqrt_sqrt. nra. Qed.
Lemma radius_zero p : radius p = 0 <-> p = (0, 0).
Proof.
  destruct p as [x y]. split.
  - intros E. pose proof (radius_sqr (x, y)) as H. rewrite E in H. cbn [fst snd] in H. assert (x = 0) by nra. assert (y = 0) by nra. congruence.
  - intros E. injection E as -> ->. unfold radius. cbn [fst snd]. replace (0 * 0 + 0 * 0) with 0 by ring. apply sqrt_0.
Qed.
Lemma radius_pos p : p <> (0, 0) -> 0 < radius p.
Proof. intros H. destruct (Rle_lt_or_eq_dec 0 (radius p) (sqrt_pos _)) as [L|E]; [exact L|]. exfalso. apply H, radius_zero. symmetry. exact E. Qed.

Section Disk.
Variable o : options.
Hypothesis S : sound o.

Lemma s0_pos : 0 < disk_s0 o.
Proof. destruct S. unfold disk_s0. apply Rdiv_lt_0_compat; [assumption|]. apply Rmult_lt_0_compat; [|assumption]. lra. Qed.
Lemma sigma_split r : disk_sigma o r = disk_s0 o * (exp (- ((r / o_disk_radius o - 1) ^ 2) / 2) + o_ambient_density o).
Proof. unfold disk_sigma, disk_s1. cbv zeta. set (x := r / o_disk_radius o). replace (- (1 / 2) * (x - 1) * (x - 1)) with (- ((x - 1) ^ 2) / 2) by field. ring. Qed.
Lemma sigma_pos r : 0 < disk_sigma o r.
Proof. rewrite sigma_split. apply Rmult_lt_0_compat; [apply s0_pos|]. pose proof (exp_pos (- ((r / o_disk_radius o - 1) ^ 2) / 2)). destruct S. lra. Qed.
Lemma share_of r : 1 - disk_s1 o / disk_sigma o r = torus_share o r.
Proof.
  pose proof (sigma_pos r) as H. rewrite sigma_split in *. unfold torus_share, disk_s1. cbv zeta. pose proof s0_pos. pose proof (exp_pos (- ((r / o_disk_radius o - 1) ^ 2) / 2)). destruct S.
  field. split; lra.
Qed.
Lemma share_range r : 0 < torus_share o r <= 1.
Proof.
  unfold torus_share. cbv zeta. pose proof (exp_pos (- ((r / o_disk_radius o - 1) ^ 2) / 2)). destruct S. split; [apply Rdiv_lt_0_compat; lra|].
  apply Rmult_le_reg_r with (exp (- ((r / o_disk_radius o - 1) ^ 2) / 2) + o_ambient_density o); [lra|]. unfold Rdiv at 1. rewrite Rmult_assoc, Rinv_l by lra. lra.
Qed.

(** The squared rotation speed. *)
Definition speed2 (r : R) : R :=
  let x := r / o_disk_radius o in (1 - (1 + x * (x - 1) * torus_share o r) / o_mach_number o ^ 2) / (r + o_softening_radius o).
Lemma speed2_of r : 0 < r -> 1 / (r + o_softening_radius o) + disk_dp_dr o r = speed2 r.
Proof. intros Hr. unfold disk_dp_dr, speed2. cbv zeta. rewrite share_of. destruct S. field. lra. Qed.

(** What the profile is. *)
Lemma profile_known p : p <> (0, 0) -> 0 <= speed2 (radius p) -> exists P, disk_profile o p = Some P /\ sigma P = disk_sigma o (radius p) /\
  outward p P = (if Rlt_dec 2 (radius p) then - o_mdot o / (disk_sigma o (radius p) * 2 * PI * radius p) else 0) /\
  forward p P = (if truth (o_counter_rotate o) then -1 else 1) * sqrt (speed2 (radius p)).
Proof.
  intros Hp Hs. pose proof (radius_pos p Hp) as Hr. unfold disk_profile. cbv zeta. change (sqrt (fst p * fst p + snd p * snd p)) with (radius p).
  rewrite (speed2_of (radius p) Hr). destruct (Req_EM_T (radius p) 0) as [E|_]; [lra|]. destruct (Rlt_dec (speed2 (radius p)) 0) as [L|_]; [lra|].
  eexists. split; [reflexivity|]. split; [reflexivity|]. pose proof (radius_sqr p) as R2. unfold outward, forward. cbn [HydroModel.vx HydroModel.vy]. set (r := radius p) in *.
  set (vp := sqrt (speed2 r) * (if truth (o_counter_rotate o) then -1 else 1)). set (vr := - o_mdot o / (disk_sigma o r * 2 * PI * r) * (if Rlt_dec 2 r then 1 else 0)).
  assert (E1 : (fst p * (vr * (fst p / r) + vp * (- snd p / r)) + snd p * (vr * (snd p / r) + vp * (fst p / r))) / r = vr).
  { transitivity (vr * (fst p * fst p + snd p * snd p) / (r * r)); [field; lra|]. rewrite <- R2. field. lra. }
  assert (E2 : (fst p * (vr * (snd p / r) + vp * (fst p / r)) - snd p * (vr * (fst p / r) + vp * (- snd p / r))) / r = vp).
  { transitivity (vp * (fst p * fst p + snd p * snd p) / (r * r)); [field; lra|]. rewrite <- R2. field. lra. }
  rewrite E1, E2. split; [unfold vr; destruct (Rlt_dec 2 r); ring|unfold vp; ring].
Qed.
Lemma profile_none p : disk_profile o p = None <-> p = (0, 0) \/ speed2 (radius p) < 0.
Proof.
  split.
  - intros E. destruct (Req_EM_T (radius p) 0) as [Z|N]; [left; apply radius_zero; exact Z|]. right. destruct (Rlt_dec (speed2 (radius p)) 0) as [L|L]; [exact L|].
    assert (Hp : p <> (0, 0)) by (intros X; apply N, radius_zero; exact X). destruct (profile_known p Hp ltac:(lra)) as (P & EP & _). congruence.
  - intros H. unfold disk_profile. cbv zeta. change (sqrt (fst p * fst p + snd p * snd p)) with (radius p). destruct (Req_EM_T (radius p) 0) as [Z|N]; [reflexivity|].
    destruct H as [->|H]; [exfalso; apply N, radius_zero; reflexivity|]. assert (0 < radius p) by (apply radius_pos; intros X; apply N, radius_zero; exact X).
    rewrite speed2_of by assumption. destruct (Rlt_dec (speed2 (radius p)) 0); [reflexivity|lra].
Qed.
Lemma speed2_sign r : 0 < r -> (0 <= speed2 r <-> 1 + (r / o_disk_radius o) * (r / o_disk_radius o - 1) * torus_share o r <= o_mach_number o ^ 2).
Proof.
  intros Hr. unfold speed2. cbv zeta. set (q := 1 + r / o_disk_radius o * (r / o_disk_radius o - 1) * torus_share o r). destruct S. assert (0 < o_mach_number o ^ 2) by (apply pow_lt; assumption).
  assert (X : (1 - q / o_mach_number o ^ 2) / (r + o_softening_radius o) = (o_mach_number o ^ 2 - q) / (o_mach_number o ^ 2 * (r + o_softening_radius o))) by (field; lra). rewrite X.
  assert (HD : 0 < o_mach_number o ^ 2 * (r + o_softening_radius o)) by (apply Rmult_lt_0_compat; lra). split; intros Hq.
  - apply Rmult_le_compat_r with (r := o_mach_number o ^ 2 * (r + o_softening_radius o)) in Hq; [|lra]. unfold Rdiv in Hq. rewrite Rmult_assoc, Rinv_l in Hq by lra. lra.
  - apply Rmult_le_pos; [lra|]. left. apply Rinv_0_lt_compat. assumption.
Qed.
End Disk.

(** ** Density and velocity *)
(** Away from the origin, and where the gas is cold enough, the profile has a positive density, it rotates, in the direction
    asked for, at a speed that only depends on the radius, and the mass that flows inward through the circle of every
    radius above 2 is mdot. *)
Theorem disk_is_a_disk o p : sound o -> p <> (0, 0) ->
  let x := radius p / o_disk_radius o in 1 + x * (x - 1) * torus_share o (radius p) <= o_mach_number o ^ 2 ->
  exists P, disk_profile o p = Some P /\ 0 < sigma P /\
    (2 < radius p -> 2 * PI * radius p * sigma P * outward p P = - o_mdot o) /\ (radius p <= 2 -> outward p P = 0) /\
    (o_counter_rotate o = 0%Z -> 0 <= forward p P) /\ (o_counter_rotate o <> 0%Z -> forward p P <= 0) /\
    forall p' P', radius p' = radius p -> disk_profile o p' = Some P' -> sigma P' = sigma P /\ outward p' P' = outward p P /\ forward p' P' = forward p P.
Proof.
  intros S Hp x Hx. pose proof (radius_pos p Hp) as Hr. pose proof (proj2 (speed2_sign o S (radius p) Hr) Hx) as Hs. destruct (profile_known o S p Hp Hs) as (P & E & E1 & E2 & E3).
  pose proof (sigma_pos o S (radius p)) as Hsig. pose proof PI_RGT_0. exists P. split; [exact E|]. split; [rewrite E1; exact Hsig|].
  split; [intros H2; rewrite E1, E2; destruct (Rlt_dec 2 (radius p)); [field; lra|lra]|]. split; [intros H2; rewrite E2; destruct (Rlt_dec 2 (radius p)); [lra|reflexivity]|].
  pose proof (sqrt_pos (speed2 o (radius p))). split; [intros Z; rewrite E3, Z; cbn [truth negb Z.eqb]; lra|].
  split; [intros Z; rewrite E3; unfold truth; rewrite (proj2 (Z.eqb_neq _ _) Z); cbn [negb]; lra|].
  intros p' P' Er E'. assert (Hp' : p' <> (0, 0)) by (intros X; apply radius_zero in X; lra). rewrite <- Er in Hs. destruct (profile_known o S p' Hp' Hs) as (P2 & F & F1 & F2 & F3).
  rewrite E' in F. injection F as <-. rewrite F1, F2, F3, E1, E2, E3, Er. auto.
Qed.

(** Where it is not a number: exactly at the origin and where the gas is too warm for its distance. *)
Theorem disk_numbers o p : sound o -> (disk_profile o p = None <-> p = (0, 0) \/
  (let x := radius p / o_disk_radius o in o_mach_number o ^ 2 < 1 + x * (x - 1) * torus_share o (radius p))).
Proof.
  intros S. rewrite (profile_none o S p). destruct (Req_EM_T (radius p) 0) as [Z|N].
  - apply radius_zero in Z. tauto.
  - assert (Hr : 0 < radius p) by (apply radius_pos; intros X; apply N, radius_zero; exact X). pose proof (speed2_sign o S (radius p) Hr) as H. cbv zeta. split; (intros [L|L]; [left; exact L|right]).
    + apply Rnot_le_lt. intros X. apply H in X. lra.
    + apply Rnot_le_lt. intros X. apply H in X. lra.
Qed.

(** A bound without the exponential: it is a number in the whole square if it would be in the corners without ambient gas. *)
Theorem disk_numbers_square o : sound o -> 1 <= o_mach_number o ->
  (let X := sqrt 2 * o_domain_radius o / o_disk_radius o in 1 + X * (X - 1) <= o_mach_number o ^ 2) ->
  forall p, p <> (0, 0) -> Rabs (fst p) <= o_domain_radius o -> Rabs (snd p) <= o_domain_radius o -> disk_profile o p <> None.
Proof.
  intros S H1 HX p Hp Hx Hy E. apply (proj1 (disk_numbers o p S)) in E. destruct E as [E|E]; [contradiction|]. cbv zeta in E, HX. pose proof (radius_pos p Hp) as Hr.
  pose proof (share_range o S (radius p)) as Hsh. destruct S as [S1 _ _ _ _]. set (x := radius p / o_disk_radius o) in *. set (X := sqrt 2 * o_domain_radius o / o_disk_radius o) in *.
  assert (RX : radius p <= sqrt 2 * o_domain_radius o).
  { pose proof (Rabs_pos (fst p)). apply Rsqr_incr_0_var; [|apply Rmult_le_pos; [apply sqrt_pos|lra]]. unfold Rsqr. rewrite radius_sqr.
    replace (sqrt 2 * o_domain_radius o * (sqrt 2 * o_domain_radius o)) with ((sqrt 2 * sqrt 2) * (o_domain_radius o * o_domain_radius o)) by ring. rewrite sqrt_sqrt by lra.
    assert (Q : forall z, Rabs z <= o_domain_radius o -> z * z <= o_domain_radius o * o_domain_radius o).
    { intros z Hz. replace (z * z) with (Rabs z * Rabs z) by (rewrite <- Rabs_mult; apply Rabs_right; nra). pose proof (Rabs_pos z). nra. }
    pose proof (Q _ Hx). pose proof (Q _ Hy). lra. }
  assert (xX : x <= X). { unfold x, X, Rdiv. apply Rmult_le_compat_r; [left; apply Rinv_0_lt_compat; assumption|exact RX]. }
  assert (x0 : 0 < x) by (unfold x; apply Rdiv_lt_0_compat; assumption). assert (1 <= o_mach_number o ^ 2) by nra.
  destruct (Rle_dec x 1) as [L|L].
  - assert (x * (x - 1) <= 0) by nra. assert (x * (x - 1) * torus_share o (radius p) <= 0) by nra. lra.
  - assert (x * (x - 1) <= X * (X - 1)) by nra. assert (0 <= x * (x - 1)) by nra. assert (x * (x - 1) * torus_share o (radius p) <= x * (x - 1)) by nra. lra.
Qed.

(** The range of Mach numbers is not checked.  With one below or equal to 1, every point beyond disk_radius is not a number;
    with 3 and the defaults, those at the distance 8, well inside the domain. *)
Theorem disk_numbers_refuted : (forall o p, sound o -> o_mach_number o <= 1 -> o_disk_radius o < radius p -> disk_profile o p = None) /\
  forall o p, o_disk_radius o = 2 -> o_disk_mass o = 1 / 1000 -> o_ambient_density o = 1 / 10000 -> o_softening_radius o = 5 / 100 -> o_mach_number o = 3 -> radius p = 8 -> disk_profile o p = None.
Proof.
  split.
  - intros o p S H1 Hr. apply (disk_numbers o p S). right. cbv zeta. pose proof (share_range o S (radius p)) as Hsh. destruct S as [S1 _ _ S4 _].
    assert (1 < radius p / o_disk_radius o). { apply Rmult_lt_reg_r with (o_disk_radius o); [assumption|]. unfold Rdiv. rewrite Rmult_assoc, Rinv_l by lra. lra. }
    set (x := radius p / o_disk_radius o) in *. assert (0 < x * (x - 1)) by nra. assert (0 < x * (x - 1) * torus_share o (radius p)) by nra. nra.
  - intros o p E1 E2 E3 E4 E5 E6. assert (S : sound o) by (split; lra). apply (disk_numbers o p S). right. cbv zeta. unfold torus_share. cbv zeta. rewrite E1, E3, E5, E6.
    replace (8 / 2) with 4 by field. replace (- (4 - 1) ^ 2 / 2) with (- (9 / 2)) by field. pose proof (exp_pos (- (9 / 2))) as HE.
    assert (HB : 1 / 243 <= exp (- (9 / 2))).
    { rewrite exp_Ropp. unfold Rdiv at 1. rewrite Rmult_1_l. apply Rinv_le_contravar; [apply exp_pos|]. apply Rle_trans with (exp 5); [left; apply exp_increasing; lra|].
      replace 5 with (1 + 1 + 1 + 1 + 1) by ring. rewrite !exp_plus. pose proof exp_le_3. pose proof (exp_pos 1). set (e := exp 1) in *.
      assert (e * e <= 9) by nra. assert (e * e * e <= 27) by nra. assert (e * e * e * e <= 81) by nra. nra. }
    set (e := exp (- (9 / 2))) in *. assert (8 / 9 < e / (e + 1 / 10000)). { apply Rmult_lt_reg_r with (e + 1 / 10000); [lra|]. replace (e / (e + 1 / 10000) * (e + 1 / 10000)) with e by (field; lra). lra. } nra.
Qed.

(** ** Balance *)
(** The forces on the gas at distance r on the x axis, for one body of mass 1 at the origin: the gravity and the pressure of
    the scheme.  A disk is in balance if the centripetal acceleration is what they add up to. *)
Definition lone : TwoBodyModel.body := Body 1 0 0 0 0.
Definition centre : two_body := TwoBody lone (Body 0 0 0 0 0).
Definition balanced_at (o : options) (sd : settings) (r : R) : Prop :=
  exists P dP, disk_profile o (r, 0) = Some P /\ is_derive (fun s => disk_sigma o s * cs2_at_position sd centre (s, 0)) r dP /\
    sigma P * (HydroModel.vy P ^ 2 / r) = - (sigma P * fst (grav_vdot_field sd lone (r, 0))) + dP.

Lemma on_axis r : 0 < r -> radius (r, 0) = r.
Proof. intros H. unfold radius. cbn [fst snd]. replace (r * r + 0 * 0) with (r * r) by ring. apply sqrt_square. lra. Qed.
Lemma sigma_derive o r : sound o -> is_derive (disk_sigma o) r (- (r / o_disk_radius o - 1) / o_disk_radius o * torus_share o r * disk_sigma o r).
Proof.
  intros S. pose proof (share_of o S r) as Hsh. pose proof (sigma_pos o S r) as Hp. rewrite <- Hsh.
  replace (- (r / o_disk_radius o - 1) / o_disk_radius o * (1 - disk_s1 o / disk_sigma o r) * disk_sigma o r) with
    (- (r / o_disk_radius o - 1) / o_disk_radius o * (disk_sigma o r - disk_s1 o)) by (destruct S; field; split; lra).
  unfold disk_sigma. cbv zeta. destruct S. auto_derive; [trivial|]. change (r * / o_disk_radius o + - (1)) with (r / o_disk_radius o - 1). set (e := exp (- (1 / 2) * (r / o_disk_radius o - 1) * (r / o_disk_radius o - 1))). field. lra.
Qed.

(** Without softening, and with the sound speed of the option axisymmetric_cs2, the balance is exact at every radius. *)
Theorem disk_balance o sd r : sound o -> o_softening_radius o = 0 -> softening_radius sd = 0 -> axisymmetric_cs2 sd = true -> mach_number sd = o_mach_number o -> 0 < r ->
  disk_profile o (r, 0) <> None -> balanced_at o sd r.
Proof.
  intros S Z1 Z2 A M Hr Hn. assert (Hp : (r, 0) <> (0, 0)) by (intros X; injection X as X; lra). pose proof (on_axis r Hr) as Er.
  assert (Hs : 0 <= speed2 o r). { apply Rnot_lt_le. intros X. apply Hn, (profile_none o S). right. rewrite Er. exact X. }
  destruct (profile_known o S (r, 0) Hp ltac:(rewrite Er; exact Hs)) as (P & E & E1 & E2 & E3). rewrite Er in E1, E2, E3.
  exists P, (- (r / o_disk_radius o - 1) / o_disk_radius o * torus_share o r * disk_sigma o r * (1 / r / o_mach_number o / o_mach_number o) + disk_sigma o r * (- (1 / r ^ 2) / o_mach_number o / o_mach_number o)).
  split; [exact E|]. split.
  - apply (is_derive_ext_loc (fun s => disk_sigma o s * (1 / s / o_mach_number o / o_mach_number o))).
    + exists (mkposreal r Hr). intros s Hb. unfold ball in Hb; cbn in Hb; unfold AbsRing_ball, abs, minus, plus, opp in Hb; cbn in Hb. apply Rabs_def2 in Hb.
      unfold cs2_at_position. cbv zeta. rewrite A, M. cbn [fst snd]. change (sqrt (s * s + 0 * 0)) with (radius (s, 0)). rewrite on_axis by lra. reflexivity.
    + apply (is_derive_mult (disk_sigma o) (fun s => 1 / s / o_mach_number o / o_mach_number o)); [apply sigma_derive; assumption| |intros; apply Rmult_comm].
      destruct S. auto_derive; [lra|]. field. lra.
  - unfold forward in E3. rewrite Er in E3. cbn [fst snd] in E3.
    assert (V2 : HydroModel.vy P ^ 2 = speed2 o r).
    { replace (HydroModel.vy P) with ((r * HydroModel.vy P - 0 * HydroModel.vx P) / r) by (field; lra). rewrite E3.
      replace (((if truth (o_counter_rotate o) then -1 else 1) * sqrt (speed2 o r)) ^ 2) with (sqrt (speed2 o r) * sqrt (speed2 o r)) by (destruct (truth (o_counter_rotate o)); ring). apply sqrt_sqrt. exact Hs. }
    rewrite V2, E1. unfold grav_vdot_field, speed2, pow32. cbn [fst snd px py mass lone]. rewrite Z1, Z2.
    replace ((r - 0) * (r - 0) + (0 - 0) * (0 - 0) + 0 * 0) with (r * r) by ring. rewrite sqrt_square by lra. destruct S. field. lra.
Qed.

(** With softening it is not: the profile has 1 / (r + rs) where the scheme has 1 / sqrt (r^2 + rs^2).  At disk_radius the gas
    is too slow for every softening radius up to half of it, with the default sound speed, at every Mach number above 1. *)
Theorem disk_balance_refuted o sd : sound o -> 1 < o_mach_number o -> 0 < o_softening_radius o <= o_disk_radius o / 2 ->
  softening_radius sd = o_softening_radius o -> axisymmetric_cs2 sd = false -> mach_number sd = o_mach_number o ->
  let r := o_disk_radius o in ~ balanced_at o sd r /\
  exists P dP, disk_profile o (r, 0) = Some P /\ is_derive (fun s => disk_sigma o s * cs2_at_position sd centre (s, 0)) r dP /\
    sigma P * (HydroModel.vy P ^ 2 / r) < - (sigma P * fst (grav_vdot_field sd lone (r, 0))) + dP.
Proof.
  intros S M1 Hrs Z A M r. assert (Hr : 0 < r) by (destruct S; assumption). assert (Hp : (r, 0) <> (0, 0)) by (intros X; injection X as X; lra). pose proof (on_axis r Hr) as Er.
  assert (Ex : r / o_disk_radius o = 1) by (unfold r; field; unfold r in Hr; lra). assert (M2 : 1 < o_mach_number o ^ 2) by nra.
  set (rs := o_softening_radius o) in *. set (s := sqrt (r * r + rs * rs)). assert (Hs : 0 < s) by (apply sqrt_lt_R0; nra). assert (Es : s * s = r * r + rs * rs) by (apply sqrt_sqrt; nra).
  assert (V : speed2 o r = (1 - 1 / o_mach_number o ^ 2) / (r + rs)).
  { unfold speed2. cbv zeta. rewrite Ex. fold rs. field. lra. }
  assert (Hsp : 0 <= speed2 o r). { apply (speed2_sign o S r Hr). rewrite Ex. lra. }
  destruct (profile_known o S (r, 0) Hp ltac:(rewrite Er; exact Hsp)) as (P & E & E1 & E2 & E3). rewrite Er in E1, E2, E3.
  assert (DP : is_derive (fun s => disk_sigma o s * cs2_at_position sd centre (s, 0)) r (disk_sigma o r * (- (r / (s * s * s)) / o_mach_number o / o_mach_number o))).
  { apply (is_derive_ext (fun t => disk_sigma o t * (/ sqrt (t * t + rs * rs) / o_mach_number o / o_mach_number o))).
    { intros t. unfold cs2_at_position, grav_phi_field, pow12. cbv zeta. rewrite A, M, Z. fold rs. cbn [fst snd px py mass lone centre body1 body2].
      replace ((t - 0) * (t - 0) + (0 - 0) * (0 - 0) + rs * rs) with (t * t + rs * rs) by ring. match goal with |- @eq _ ?a ?b => change (@eq R a b) end. unfold Rdiv. ring. }
    replace (disk_sigma o r * (- (r / (s * s * s)) / o_mach_number o / o_mach_number o)) with
      ((- (r / o_disk_radius o - 1) / o_disk_radius o * torus_share o r * disk_sigma o r) * (/ sqrt (r * r + rs * rs) / o_mach_number o / o_mach_number o) + disk_sigma o r * (- (r / (s * s * s)) / o_mach_number o / o_mach_number o)).
    2: { rewrite Ex. unfold Rdiv. ring. }
    apply (is_derive_mult (disk_sigma o) (fun t => / sqrt (t * t + rs * rs) / o_mach_number o / o_mach_number o)); [apply sigma_derive; assumption| |intros; apply Rmult_comm].
    auto_derive.
    - fold s. repeat split; try lra. nra.
    - fold s. field. lra. }
  assert (LT : sigma P * (HydroModel.vy P ^ 2 / r) < - (sigma P * fst (grav_vdot_field sd lone (r, 0))) + disk_sigma o r * (- (r / (s * s * s)) / o_mach_number o / o_mach_number o)).
  { unfold forward in E3. rewrite Er in E3. cbn [fst snd] in E3.
    assert (V2 : HydroModel.vy P ^ 2 = speed2 o r).
    { replace (HydroModel.vy P) with ((r * HydroModel.vy P - 0 * HydroModel.vx P) / r) by (field; lra). rewrite E3.
      replace (((if truth (o_counter_rotate o) then -1 else 1) * sqrt (speed2 o r)) ^ 2) with (sqrt (speed2 o r) * sqrt (speed2 o r)) by (destruct (truth (o_counter_rotate o)); ring). apply sqrt_sqrt. exact Hsp. }
    rewrite V2, V, E1. unfold grav_vdot_field, pow32. cbn [fst snd px py mass lone]. rewrite Z.
    replace ((r - 0) * (r - 0) + (0 - 0) * (0 - 0) + rs * rs) with (r * r + rs * rs) by ring. fold s. rewrite <- Es. pose proof (sigma_pos o S r) as Hsig. set (sg := disk_sigma o r) in *. set (m := o_mach_number o) in *.
    assert (K : / (r * (r + rs)) < r / (s * s * s)).
    { apply Rmult_lt_reg_r with (r * (r + rs) * (s * s * s)); [apply Rmult_lt_0_compat; [nra|apply Rmult_lt_0_compat; nra]|].
      replace (/ (r * (r + rs)) * (r * (r + rs) * (s * s * s))) with (s * s * s) by (field; lra). replace (r / (s * s * s) * (r * (r + rs) * (s * s * s))) with (r * r * (r + rs)) by (field; lra).
      assert (Hl : 0 <= s * s * s) by (apply Rmult_le_pos; nra). assert (Hh : 0 <= r * r * (r + rs)) by nra. apply Rsqr_incrst_0; [|assumption|assumption]. unfold Rsqr.
      replace (s * s * s * (s * s * s)) with ((s * s) * (s * s) * (s * s)) by ring. rewrite Es. fold r in Hrs.
      assert (T : exists t, 0 < t <= 1 / 2 /\ rs = t * r). { exists (rs / r). split; [split; [apply Rdiv_lt_0_compat; lra|]|field; lra]. apply Rmult_le_reg_r with r; [lra|]. unfold Rdiv at 1. rewrite Rmult_assoc, Rinv_l by lra. lra. }
      destruct T as (t & Ht & Et). rewrite Et.
      replace ((r * r + t * r * (t * r)) * (r * r + t * r * (t * r)) * (r * r + t * r * (t * r))) with ((r * r * r) * (r * r * r) * (1 + t * t) ^ 3) by ring.
      replace (r * r * (r + t * r) * (r * r * (r + t * r))) with ((r * r * r) * (r * r * r) * (1 + t) ^ 2) by ring.
      apply Rmult_lt_compat_l; [assert (0 < r * r * r) by (apply Rmult_lt_0_compat; nra); nra|]. assert (t * t <= t / 2) by nra. assert (0 < t * t) by nra. assert ((t * t) * (t * t) <= t / 8) by nra. assert ((t * t) * (t * t) * (t * t) <= t / 32) by nra. nra. }
    assert (F : 0 < 1 - 1 / m ^ 2). { assert (1 / m ^ 2 < 1); [|lra]. apply Rmult_lt_reg_r with (m ^ 2); [lra|]. unfold Rdiv. rewrite Rmult_assoc, Rinv_l by lra. lra. }
    replace (sg * ((1 - 1 / m ^ 2) / (r + rs) / r)) with (sg * (1 - 1 / m ^ 2) * / (r * (r + rs))) by (field; lra).
    replace (- (sg * (- (r - 0) / (s * s * s) * 1 * 1)) + sg * (- (r / (s * s * s)) / m / m)) with (sg * (1 - 1 / m ^ 2) * (r / (s * s * s))) by (field; lra).
    apply Rmult_lt_compat_l; [apply Rmult_lt_0_compat; assumption|exact K]. }
  split; [|exists P; eexists; split; [exact E|]; split; [exact DP|exact LT]].
  intros (P' & dP & E' & D' & B). rewrite E in E'. injection E' as <-. apply is_derive_unique in DP. apply is_derive_unique in D'. rewrite D' in DP. rewrite DP in B. lra.
Qed.

(** ** Examples *)
Example default_sound : sound default_options.
Proof. split; cbn; lra. Qed.
(** With the default options the whole domain has numbers, except the origin. *)
Example default_numbers p : p <> (0, 0) -> Rabs (fst p) <= 12 -> Rabs (snd p) <= 12 -> disk_profile default_options p <> None.
Proof.
  intros Hp Hx Hy. apply disk_numbers_square; [apply default_sound|cbn; lra| |exact Hp|exact Hx|exact Hy]. cbn [o_domain_radius o_disk_radius o_mach_number default_options]. cbv zeta.
  assert (sqrt 2 <= 3 / 2). { apply Rsqr_incr_0_var; [|lra]. unfold Rsqr. rewrite sqrt_sqrt by lra. lra. } pose proof (sqrt_pos 2). replace (sqrt 2 * 12 / 2) with (sqrt 2 * 6) by field. nra.
Qed.
Example default_origin : disk_profile default_options (0, 0) = None.
Proof. apply (disk_numbers _ _ default_sound). left. reflexivity. Qed.
(** The speed at disk_radius: sqrt (0.99 / 2.05). *)
Example default_speed : exists P, disk_profile default_options (2, 0) = Some P /\ HydroModel.vy P = sqrt (99 / 205) /\ HydroModel.vx P = 0.
Proof.
  assert (E : speed2 default_options 2 = 99 / 205). { unfold speed2. cbn [o_disk_radius o_mach_number o_softening_radius default_options]. cbv zeta. replace (2 / 2) with 1 by field. field. }
  destruct (profile_known default_options default_sound (2, 0)) as (P & E0 & _ & E2 & E3); [intros X; injection X; lra|rewrite on_axis by lra; rewrite E; lra|].
  rewrite on_axis in E2, E3 by lra. rewrite E in E3. destruct (Rlt_dec 2 2); [lra|]. unfold outward, forward in E2, E3. rewrite on_axis in E2, E3 by lra. cbn [fst snd] in E2, E3. exists P. split; [exact E0|].
  cbn [o_counter_rotate default_options truth Z.eqb negb] in E3. split; lra.
Qed.
(** The default softening of 0.05 is far below half the disk radius: the default disk is not in balance. *)
Example default_unbalanced sd : softening_radius sd = 5 / 100 -> axisymmetric_cs2 sd = false -> mach_number sd = 10 -> ~ balanced_at default_options sd 2.
Proof. intros H1 H2 H3. apply (disk_balance_refuted default_options sd default_sound); cbn; try lra; assumption. Qed.
Print Assumptions disk_is_a_disk.
Print Assumptions disk_numbers.
Print Assumptions disk_numbers_square.
Print Assumptions disk_numbers_refuted.
Print Assumptions disk_balance.
Print Assumptions disk_balance_refuted.
