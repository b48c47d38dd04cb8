(** C49: the HLLE solvers are consistent, upwinding and mirror symmetric. *)
From Coq Require Import List Reals Lra Lia Psatz.
From Verif Require Import Base DimensionalModel HydroModel HlleProofs SrhdProps.
Open Scope R_scope.

(** Physical states of the three systems. *)
Definition euler_ok (P : prim) (g : R) : Prop := 0 < rho P /\ 0 < pre P /\ 1 < g.

(** Opposite of a flux, and mirror images along axis [i]: the velocity (momentum) along the axis changes sign. *)
Definition opp5 (F : v5) : v5 := V5 (- c0 F) (- c1 F) (- c2 F) (- c3 F) (- c4 F).
Definition opp3 (F : v3) : v3 := V3 (- d0 F) (- d1 F) (- d2 F).
Definition opp_direction (n : unit_vector) : unit_vector := Unit (- n1 n) (- n2 n) (- n3 n).
Definition flip (b : bool) (x : R) : R := if b then - x else x.
Definition mirror (i : nat) (P : prim) : prim :=
  Prim (rho P) (flip (Nat.eqb i 0) (u1 P)) (flip (Nat.eqb i 1) (u2 P)) (flip (Nat.eqb i 2) (u3 P)) (pre P).
Definition mirror5 (i : nat) (F : v5) : v5 :=
  V5 (c0 F) (flip (Nat.eqb i 0) (c1 F)) (flip (Nat.eqb i 1) (c2 F)) (flip (Nat.eqb i 2) (c3 F)) (c4 F).
Definition imirror (i : nat) (P : iprim) : iprim := IPrim (sigma P) (flip (Nat.eqb i 0) (vx P)) (flip (Nat.eqb i 1) (vy P)).
Definition mirror3 (i : nat) (F : v3) : v3 := V3 (d0 F) (flip (Nat.eqb i 0) (d1 F)) (flip (Nat.eqb i 1) (d2 F)).

Lemma v5_eta F : V5 (c0 F) (c1 F) (c2 F) (c3 F) (c4 F) = F. Proof. destruct F; reflexivity. Qed.
Lemma v3_eta F : V3 (d0 F) (d1 F) (d2 F) = F. Proof. destruct F; reflexivity. Qed.

(** What is needed of a system of conservation laws for the general facts. *)
Lemma hlle5_consistent ap am F U : 0 < ap - am -> hlle5 ap am F F U U = F.
Proof. intros H. unfold hlle5. rewrite !hlle_consistent by assumption. apply v5_eta. Qed.
Lemma hlle5_right ap Fl Fr Ul Ur : 0 < ap - 0 -> hlle5 ap 0 Fl Fr Ul Ur = Fl.
Proof. intros H. unfold hlle5. rewrite !hlle_right by lra. apply v5_eta. Qed.
Lemma hlle5_left am Fl Fr Ul Ur : 0 < 0 - am -> hlle5 0 am Fl Fr Ul Ur = Fr.
Proof. intros H. unfold hlle5. rewrite !hlle_left by lra. apply v5_eta. Qed.
Lemma hlle5_opp ap am Fl Fr Ul Ur : 0 < ap - am -> hlle5 (- am) (- ap) (opp5 Fr) (opp5 Fl) Ur Ul = opp5 (hlle5 ap am Fl Fr Ul Ur).
Proof. intros H. unfold hlle5, opp5. cbn [c0 c1 c2 c3 c4]. rewrite !hlle_flip by assumption. reflexivity. Qed.
Lemma hlle5_mirror i ap am Fl Fr Ul Ur : 0 < ap - am ->
  hlle5 (- am) (- ap) (opp5 (mirror5 i Fr)) (opp5 (mirror5 i Fl)) (mirror5 i Ur) (mirror5 i Ul) = opp5 (mirror5 i (hlle5 ap am Fl Fr Ul Ur)).
Proof.
  intros H. unfold hlle5, opp5, mirror5. cbn [c0 c1 c2 c3 c4].
  destruct (Nat.eqb i 0), (Nat.eqb i 1), (Nat.eqb i 2); cbn [flip]; rewrite ?Ropp_involutive, ?hlle_flip, ?hlle_flip_state by assumption; reflexivity.
Qed.
Lemma hlle3_consistent ap am F U : 0 < ap - am -> hlle3 ap am F F U U = F.
Proof. intros H. unfold hlle3. rewrite !hlle_consistent by assumption. apply v3_eta. Qed.
Lemma hlle3_right ap Fl Fr Ul Ur : 0 < ap - 0 -> hlle3 ap 0 Fl Fr Ul Ur = Fl.
Proof. intros H. unfold hlle3. rewrite !hlle_right by lra. apply v3_eta. Qed.
Lemma hlle3_left am Fl Fr Ul Ur : 0 < 0 - am -> hlle3 0 am Fl Fr Ul Ur = Fr.
Proof. intros H. unfold hlle3. rewrite !hlle_left by lra. apply v3_eta. Qed.
Lemma hlle3_opp ap am Fl Fr Ul Ur : 0 < ap - am -> hlle3 (- am) (- ap) (opp3 Fr) (opp3 Fl) Ur Ul = opp3 (hlle3 ap am Fl Fr Ul Ur).
Proof. intros H. unfold hlle3, opp3. cbn [d0 d1 d2]. rewrite !hlle_flip by assumption. reflexivity. Qed.
Lemma hlle3_mirror i ap am Fl Fr Ul Ur : 0 < ap - am ->
  hlle3 (- am) (- ap) (opp3 (mirror3 i Fr)) (opp3 (mirror3 i Fl)) (mirror3 i Ur) (mirror3 i Ul) = opp3 (mirror3 i (hlle3 ap am Fl Fr Ul Ur)).
Proof.
  intros H. unfold hlle3, opp3, mirror3. cbn [d0 d1 d2].
  destruct (Nat.eqb i 0), (Nat.eqb i 1); cbn [flip]; rewrite ?Ropp_involutive, ?hlle_flip, ?hlle_flip_state by assumption; reflexivity.
Qed.
Lemma flux5_opp v p n U : flux5 (- v) p (opp_direction n) U = opp5 (flux5 v p n U).
Proof. unfold flux5, opp5, opp_direction. cbn [c0 c1 c2 c3 c4 n1 n2 n3]. f_equal; ring. Qed.
Lemma flux5_mirror i n v p U : on_axis i = Ok n -> flux5 (- v) p n (mirror5 i U) = opp5 (mirror5 i (flux5 v p n U)).
Proof.
  intros H. destruct i as [|[|[|i]]]; simpl in H; try discriminate H; injection H as <-; unfold flux5, opp5, mirror5; cbn [c0 c1 c2 c3 c4 n1 n2 n3 make_unit_vector flip Nat.eqb]; f_equal; ring.
Qed.
Lemma axis_unit_norm i n : on_axis i = Ok n -> unit_norm n.
Proof. intros H. destruct i as [|[|[|i]]]; simpl in H; try discriminate H; injection H as <-; unfold unit_norm; simpl; ring. Qed.

(** Euler. *)
Lemma euler_speeds_open P n g : euler_ok P g -> fst (euler_wavespeeds P n g) < snd (euler_wavespeeds P n g).
Proof.
  intros (Hr & Hp & Hg). unfold euler_wavespeeds, euler_sound_speed_squared. cbn [fst snd].
  assert (0 < sqrt (g * pre P / rho P)) by (apply sqrt_lt_R0, Rdiv_lt_0_compat; nra). lra.
Qed.
Definition euler_physical_flux (P : prim) (n : unit_vector) (g : R) : v5 := euler_flux P n (euler_conserved P g).

Theorem euler_hlle_consistent P n g : euler_ok P g -> euler_hlle P P n g = euler_physical_flux P n g.
Proof. intros H. unfold euler_hlle. apply hlle5_consistent. apply fan_open, euler_speeds_open, H. Qed.
Theorem euler_hlle_upwind Pl Pr n g : euler_ok Pl g -> euler_ok Pr g ->
  (0 <= fst (euler_wavespeeds Pl n g) -> 0 <= fst (euler_wavespeeds Pr n g) -> euler_hlle Pl Pr n g = euler_physical_flux Pl n g) /\
  (snd (euler_wavespeeds Pl n g) <= 0 -> snd (euler_wavespeeds Pr n g) <= 0 -> euler_hlle Pl Pr n g = euler_physical_flux Pr n g).
Proof.
  intros HL HR. pose proof (fan_open _ (euler_wavespeeds Pr n g) (euler_speeds_open Pl n g HL)) as O. unfold euler_hlle. cbv zeta.
  fold (fan_plus (euler_wavespeeds Pl n g) (euler_wavespeeds Pr n g)). fold (fan_minus (euler_wavespeeds Pl n g) (euler_wavespeeds Pr n g)). split; intros A B.
  - rewrite (fan_right _ _ A B) in O |- *. apply hlle5_right. exact O.
  - rewrite (fan_left _ _ A B) in O |- *. apply hlle5_left. exact O.
Qed.
Lemma euler_wavespeeds_opp P n g : euler_wavespeeds P (opp_direction n) g = reversed (euler_wavespeeds P n g).
Proof. unfold euler_wavespeeds, reversed, velocity_along, project, opp_direction. cbn [fst snd n1 n2 n3]. f_equal; ring. Qed.
Theorem euler_hlle_direction_reversal Pl Pr n g : euler_ok Pl g -> euler_ok Pr g -> euler_hlle Pr Pl (opp_direction n) g = opp5 (euler_hlle Pl Pr n g).
Proof.
  intros HL HR. pose proof (fan_open _ (euler_wavespeeds Pr n g) (euler_speeds_open Pl n g HL)) as O. unfold euler_hlle. cbv zeta. rewrite !euler_wavespeeds_opp.
  destruct (fan_reversed (euler_wavespeeds Pl n g) (euler_wavespeeds Pr n g)) as [E1 E2]. unfold fan_plus, fan_minus in E1, E2, O. rewrite E1, E2, <- hlle5_opp by exact O.
  assert (B : forall P, velocity_along P (opp_direction n) = - velocity_along P n).
  { intros P. unfold velocity_along, project, opp_direction. cbn [n1 n2 n3]. ring. }
  unfold euler_flux. rewrite !B, !flux5_opp. reflexivity.
Qed.
Lemma velocity_along_mirror i n P : on_axis i = Ok n -> velocity_along (mirror i P) n = - velocity_along P n.
Proof.
  intros H. destruct i as [|[|[|i]]]; simpl in H; try discriminate H; injection H as <-; unfold velocity_along, project, mirror; cbn [u1 u2 u3 n1 n2 n3 make_unit_vector flip Nat.eqb]; ring.
Qed.
Lemma euler_conserved_mirror i P g : euler_conserved (mirror i P) g = mirror5 i (euler_conserved P g).
Proof.
  unfold euler_conserved, mirror5, mirror, velocity_squared. cbn [rho u1 u2 u3 pre c0 c1 c2 c3 c4].
  destruct (Nat.eqb i 0), (Nat.eqb i 1), (Nat.eqb i 2); cbn [flip]; f_equal; lra || ring.
Qed.
Theorem euler_hlle_mirror i n Pl Pr g : on_axis i = Ok n -> euler_ok Pl g -> euler_ok Pr g ->
  euler_hlle (mirror i Pr) (mirror i Pl) n g = opp5 (mirror5 i (euler_hlle Pl Pr n g)).
Proof.
  intros HI HL HR. pose proof (fan_open _ (euler_wavespeeds Pr n g) (euler_speeds_open Pl n g HL)) as O. unfold euler_hlle. cbv zeta.
  assert (W : forall P, euler_wavespeeds (mirror i P) n g = reversed (euler_wavespeeds P n g)).
  { intros P. unfold euler_wavespeeds, reversed. rewrite (velocity_along_mirror i n P HI). cbn [fst snd]. unfold euler_sound_speed_squared, mirror. cbn [rho pre]. f_equal; ring. }
  rewrite !W. destruct (fan_reversed (euler_wavespeeds Pl n g) (euler_wavespeeds Pr n g)) as [E1 E2]. unfold fan_plus, fan_minus in E1, E2, O. rewrite E1, E2, <- hlle5_mirror by exact O.
  rewrite !euler_conserved_mirror. unfold euler_flux. rewrite !(velocity_along_mirror i n _ HI). cbn [mirror pre]. rewrite !(flux5_mirror i n _ _ _ HI). reflexivity.
Qed.

(** Isothermal. *)
Definition iso_ok (cs2 : R) : Prop := 0 < cs2.
Lemma iso_speeds_open P n cs2 : 0 < cs2 -> fst (iso_wavespeeds P n cs2) < snd (iso_wavespeeds P n cs2).
Proof. intros H. unfold iso_wavespeeds. cbn [fst snd]. pose proof (sqrt_lt_R0 _ H). lra. Qed.
Theorem iso_hlle_consistent P n cs2 : 0 < cs2 -> iso_hlle P P cs2 cs2 n = iso_flux P n cs2.
Proof. intros H. unfold iso_hlle. apply hlle3_consistent. apply fan_open, iso_speeds_open, H. Qed.
Theorem iso_hlle_upwind Pl Pr n cl cr : 0 < cl -> 0 < cr ->
  (0 <= fst (iso_wavespeeds Pl n cl) -> 0 <= fst (iso_wavespeeds Pr n cr) -> iso_hlle Pl Pr cl cr n = iso_flux Pl n cl) /\
  (snd (iso_wavespeeds Pl n cl) <= 0 -> snd (iso_wavespeeds Pr n cr) <= 0 -> iso_hlle Pl Pr cl cr n = iso_flux Pr n cr).
Proof.
  intros HL HR. pose proof (fan_open _ (iso_wavespeeds Pr n cr) (iso_speeds_open Pl n cl HL)) as O. unfold iso_hlle. cbv zeta.
  fold (fan_plus (iso_wavespeeds Pl n cl) (iso_wavespeeds Pr n cr)). fold (fan_minus (iso_wavespeeds Pl n cl) (iso_wavespeeds Pr n cr)). split; intros A B.
  - rewrite (fan_right _ _ A B) in O |- *. apply hlle3_right. exact O.
  - rewrite (fan_left _ _ A B) in O |- *. apply hlle3_left. exact O.
Qed.
Lemma iso_along_opp P n : iso_velocity_along P (opp_direction n) = - iso_velocity_along P n.
Proof. unfold iso_velocity_along, project, opp_direction. simpl. ring. Qed.
Lemma iso_flux_opp P n cs2 : iso_flux P (opp_direction n) cs2 = opp3 (iso_flux P n cs2).
Proof. unfold iso_flux, opp3. rewrite iso_along_opp. unfold opp_direction. cbn [d0 d1 d2 n1 n2]. f_equal; ring. Qed.
Theorem iso_hlle_direction_reversal Pl Pr n cl cr : 0 < cl -> 0 < cr -> iso_hlle Pr Pl cr cl (opp_direction n) = opp3 (iso_hlle Pl Pr cl cr n).
Proof.
  intros HL HR. pose proof (fan_open _ (iso_wavespeeds Pr n cr) (iso_speeds_open Pl n cl HL)) as O. unfold iso_hlle. cbv zeta.
  assert (W : forall P c, iso_wavespeeds P (opp_direction n) c = reversed (iso_wavespeeds P n c)).
  { intros P c. unfold iso_wavespeeds, reversed. rewrite iso_along_opp. cbn [fst snd]. f_equal; ring. }
  rewrite !W. destruct (fan_reversed (iso_wavespeeds Pl n cl) (iso_wavespeeds Pr n cr)) as [E1 E2]. unfold fan_plus, fan_minus in E1, E2, O. rewrite E1, E2, <- hlle3_opp by exact O.
  rewrite !iso_flux_opp. reflexivity.
Qed.
Theorem iso_hlle_mirror i n Pl Pr cl cr : on_axis i = Ok n -> (i < 2)%nat -> 0 < cl -> 0 < cr ->
  iso_hlle (imirror i Pr) (imirror i Pl) cr cl n = opp3 (mirror3 i (iso_hlle Pl Pr cl cr n)).
Proof.
  intros HI Hi HL HR. pose proof (fan_open _ (iso_wavespeeds Pr n cr) (iso_speeds_open Pl n cl HL)) as O. unfold iso_hlle. cbv zeta.
  assert (A : forall P, iso_velocity_along (imirror i P) n = - iso_velocity_along P n).
  { intros P. destruct i as [|[|i]]; [| |lia]; simpl in HI; injection HI as <-; unfold iso_velocity_along, project, imirror; cbn [vx vy n1 n2 n3 make_unit_vector flip Nat.eqb]; ring. }
  assert (W : forall P c, iso_wavespeeds (imirror i P) n c = reversed (iso_wavespeeds P n c)).
  { intros P c. unfold iso_wavespeeds, reversed. rewrite A. cbn [fst snd]. f_equal; ring. }
  assert (FX : forall P c, iso_flux (imirror i P) n c = opp3 (mirror3 i (iso_flux P n c))).
  { intros P c. unfold iso_flux. rewrite A. destruct i as [|[|i]]; [| |lia]; simpl in HI; injection HI as <-; unfold opp3, mirror3, imirror, iso_pressure; cbn [d0 d1 d2 sigma vx vy n1 n2 make_unit_vector flip Nat.eqb]; f_equal; ring. }
  assert (UX : forall P, iso_conserved (imirror i P) = mirror3 i (iso_conserved P)).
  { intros P. unfold iso_conserved, mirror3, imirror. cbn [d0 d1 d2 sigma vx vy]. destruct (Nat.eqb i 0), (Nat.eqb i 1); cbn [flip]; f_equal; ring. }
  rewrite !W, !FX, !UX. destruct (fan_reversed (iso_wavespeeds Pl n cl) (iso_wavespeeds Pr n cr)) as [E1 E2]. unfold fan_plus, fan_minus in E1, E2, O. rewrite E1, E2.
  apply hlle3_mirror. exact O.
Qed.

(** Relativistic. *)
Lemma srhd_speeds_open P n g : relativistic P g -> unit_norm n -> fst (srhd_wavespeeds P n g) < snd (srhd_wavespeeds P n g).
Proof. intros H Hn. pose proof (signal_speeds_below_light P n g H Hn) as S. destruct (srhd_wavespeeds P n g) as [m p]. cbn [fst snd]. lra. Qed.
Definition srhd_physical_flux (P : prim) (n : unit_vector) (g : R) : v5 := srhd_flux P n (srhd_conserved P g).
Theorem srhd_hlle_consistent P n g : relativistic P g -> unit_norm n -> srhd_hlle P P n g = srhd_physical_flux P n g.
Proof. intros H Hn. unfold srhd_hlle. apply hlle5_consistent. apply fan_open, srhd_speeds_open; assumption. Qed.
Theorem srhd_hlle_upwind Pl Pr n g : relativistic Pl g -> relativistic Pr g -> unit_norm n ->
  (0 <= fst (srhd_wavespeeds Pl n g) -> 0 <= fst (srhd_wavespeeds Pr n g) -> srhd_hlle Pl Pr n g = srhd_physical_flux Pl n g) /\
  (snd (srhd_wavespeeds Pl n g) <= 0 -> snd (srhd_wavespeeds Pr n g) <= 0 -> srhd_hlle Pl Pr n g = srhd_physical_flux Pr n g).
Proof.
  intros HL HR Hn. pose proof (fan_open _ (srhd_wavespeeds Pr n g) (srhd_speeds_open Pl n g HL Hn)) as O. unfold srhd_hlle. cbv zeta.
  fold (fan_plus (srhd_wavespeeds Pl n g) (srhd_wavespeeds Pr n g)). fold (fan_minus (srhd_wavespeeds Pl n g) (srhd_wavespeeds Pr n g)). split; intros A B.
  - rewrite (fan_right _ _ A B) in O |- *. apply hlle5_right. exact O.
  - rewrite (fan_left _ _ A B) in O |- *. apply hlle5_left. exact O.
Qed.
Lemma srhd_wavespeeds_reversed P Q n n' g : beta_along Q n' = - beta_along P n -> gamma_beta_squared Q = gamma_beta_squared P ->
  rho Q = rho P -> pre Q = pre P -> srhd_wavespeeds Q n' g = reversed (srhd_wavespeeds P n g).
Proof.
  intros B G Rh Pr'. unfold srhd_wavespeeds, srhd_sound_speed_squared, enthalpy_density. rewrite B, G, Rh, Pr'. unfold reversed. cbn [fst snd].
  set (c := g * pre P / (rho P + pre P * (1 + 1 / (g - 1)))). set (b := beta_along P n). set (vv := gamma_beta_squared P / (1 + gamma_beta_squared P)).
  replace (- b * - b) with (b * b) by ring. set (k := sqrt _). f_equal; unfold Rdiv; ring.
Qed.
Theorem srhd_hlle_direction_reversal Pl Pr n g : relativistic Pl g -> relativistic Pr g -> unit_norm n ->
  srhd_hlle Pr Pl (opp_direction n) g = opp5 (srhd_hlle Pl Pr n g).
Proof.
  intros HL HR Hn. pose proof (fan_open _ (srhd_wavespeeds Pr n g) (srhd_speeds_open Pl n g HL Hn)) as O. unfold srhd_hlle. cbv zeta.
  assert (B : forall P, beta_along P (opp_direction n) = - beta_along P n).
  { intros P. unfold beta_along, project, opp_direction. cbn [n1 n2 n3]. unfold Rdiv. ring. }
  rewrite (srhd_wavespeeds_reversed Pr Pr n _ g (B Pr)), (srhd_wavespeeds_reversed Pl Pl n _ g (B Pl)) by reflexivity.
  destruct (fan_reversed (srhd_wavespeeds Pl n g) (srhd_wavespeeds Pr n g)) as [E1 E2]. unfold fan_plus, fan_minus in E1, E2, O. rewrite E1, E2, <- hlle5_opp by exact O.
  unfold srhd_flux. rewrite !B, !flux5_opp. reflexivity.
Qed.
Theorem srhd_hlle_mirror i n Pl Pr g : on_axis i = Ok n -> relativistic Pl g -> relativistic Pr g ->
  srhd_hlle (mirror i Pr) (mirror i Pl) n g = opp5 (mirror5 i (srhd_hlle Pl Pr n g)).
Proof.
  intros HI HL HR. pose proof (axis_unit_norm _ _ HI) as Hn. pose proof (fan_open _ (srhd_wavespeeds Pr n g) (srhd_speeds_open Pl n g HL Hn)) as O. unfold srhd_hlle. cbv zeta.
  assert (G : forall P, gamma_beta_squared (mirror i P) = gamma_beta_squared P).
  { intros P. unfold gamma_beta_squared, mirror. cbn [u1 u2 u3]. destruct (Nat.eqb i 0), (Nat.eqb i 1), (Nat.eqb i 2); cbn [flip]; ring. }
  assert (B : forall P, beta_along (mirror i P) n = - beta_along P n).
  { intros P. unfold beta_along, lorentz_factor. rewrite G. pose proof (velocity_along_mirror i n P HI) as V. unfold velocity_along in V. rewrite V. unfold Rdiv. ring. }
  rewrite (srhd_wavespeeds_reversed Pr (mirror i Pr) n n g (B Pr) (G Pr)), (srhd_wavespeeds_reversed Pl (mirror i Pl) n n g (B Pl) (G Pl)) by reflexivity.
  destruct (fan_reversed (srhd_wavespeeds Pl n g) (srhd_wavespeeds Pr n g)) as [E1 E2]. unfold fan_plus, fan_minus in E1, E2, O. rewrite E1, E2, <- hlle5_mirror by exact O.
  assert (UX : forall P, srhd_conserved (mirror i P) g = mirror5 i (srhd_conserved P g)).
  { intros P. unfold srhd_conserved, lorentz_factor. rewrite G. unfold specific_enthalpy, enthalpy_density, mirror5, mirror. cbn [rho u1 u2 u3 pre c0 c1 c2 c3 c4].
    destruct (Nat.eqb i 0), (Nat.eqb i 1), (Nat.eqb i 2); cbn [flip]; f_equal; unfold Rdiv; ring. }
  rewrite !UX. unfold srhd_flux. rewrite !B. cbn [mirror pre]. rewrite !(flux5_mirror i n _ _ _ HI). reflexivity.
Qed.

(** A contact at rest is smeared: the flux of mass is not zero. *)
Example hlle_example :
  iso_hlle (IPrim 1 0 0) (IPrim 1 0 0) 4 4 (make_unit_vector 1 0 0) = V3 0 4 0 /\
  iso_hlle (IPrim 2 0 0) (IPrim 1 0 0) 1 1 (make_unit_vector 1 0 0) = V3 (1/2) (3/2) 0 /\
  iso_hlle (IPrim 2 3 1) (IPrim 1 2 0) 1 1 (make_unit_vector 1 0 0) = iso_flux (IPrim 2 3 1) (make_unit_vector 1 0 0) 1.
Proof.
  split; [|split].
  - rewrite iso_hlle_consistent by lra. unfold iso_flux, iso_velocity_along, iso_pressure, project. simpl. f_equal; lra.
  - unfold iso_hlle, iso_wavespeeds, iso_flux, iso_conserved, iso_velocity_along, iso_pressure, project, hlle3, hlle_component. simpl. rewrite sqrt_1.
    replace (0 * 1 + 0 * 0 + 0 * 0 - 1) with (-1) by ring. replace (0 * 1 + 0 * 0 + 0 * 0 + 1) with 1 by ring.
    unfold smax, smin. destruct (Rlt_dec 1 1); [lra|]. destruct (Rlt_dec 0 1); [|lra]. destruct (Rlt_dec (-1) (-1)); [lra|]. destruct (Rlt_dec (-1) 0); [|lra]. f_equal; lra.
  - apply iso_hlle_upwind; try lra; unfold iso_wavespeeds, iso_velocity_along, project; simpl; rewrite sqrt_1; lra.
Qed.

Print Assumptions euler_hlle_consistent.
Print Assumptions euler_hlle_upwind.
Print Assumptions euler_hlle_direction_reversal.
Print Assumptions euler_hlle_mirror.
Print Assumptions iso_hlle_consistent.
Print Assumptions iso_hlle_upwind.
Print Assumptions iso_hlle_direction_reversal.
Print Assumptions iso_hlle_mirror.
Print Assumptions srhd_hlle_consistent.
Print Assumptions srhd_hlle_upwind.
Print Assumptions srhd_hlle_direction_reversal.
Print Assumptions srhd_hlle_mirror.
