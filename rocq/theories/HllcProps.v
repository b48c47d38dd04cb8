(** C62: the HLLC solver of the isothermal equations. *)
From Coq Require Import List Reals Lra Lia Psatz.
From Verif Require Import Base DimensionalModel HydroModel HlleProofs HlleProps.
Open Scope R_scope.

(** Independent vocabulary: the jump condition across a wave of speed [s]. *)
Definition jump (s : R) (U F V G : v3) : Prop :=
  d0 G - d0 F = s * (d0 V - d0 U) /\ d1 G - d1 F = s * (d1 V - d1 U) /\ d2 G - d2 F = s * (d2 V - d2 U).
(** A gas state moving with normal velocity [u] and pressure [p]: its flux is advection plus pressure push. *)
Definition moving (n : unit_vector) (u p : R) (U F : v3) : Prop :=
  0 < d0 U /\ n1 n * d1 U + n2 n * d2 U = d0 U * u /\
  F = V3 (u * d0 U) (u * d1 U + p * n1 n) (u * d2 U + p * n2 n).
Definition planar (n : unit_vector) : Prop := n1 n * n1 n + n2 n * n2 n = 1.
(** The waves of a calculation are in their proper order. *)
Definition ordered (h : hllc) : Prop := h_sl h < h_sstar h < h_sr h.

Lemma smax_ge a b : a <= smax a b /\ b <= smax a b.
Proof. unfold smax. destruct (Rlt_dec a b); lra. Qed.
Lemma smax_cases a b : smax a b = a \/ smax a b = b.
Proof. unfold smax. destruct (Rlt_dec a b); auto. Qed.

Section Solver.
Context (Pl Pr : iprim) (cl cr : R) (n : unit_vector).
Hypotheses (Sl : 0 < sigma Pl) (Sr : 0 < sigma Pr) (Cl : 0 < cl) (Cr : 0 < cr).
Let h := hllc_variables Pl Pr cl cr n.

Lemma fluxes_of_sides : h_Fl h = iso_flux Pl n cl /\ h_Fr h = iso_flux Pr n cr.
Proof. unfold h, h_Fl, h_Fr. cbn. rewrite !sqrt_sqrt by lra. auto. Qed.

Lemma signal_speeds : h_sl h <= h_ul h - sqrt cl /\ h_ur h + sqrt cr <= h_sr h.
Proof.
  unfold h. cbn. pose proof (sqrt_lt_R0 _ Cl). pose proof (sqrt_lt_R0 _ Cr).
  match goal with |- _ - _ * smax 1 ?x <= _ /\ _ <= _ + _ * smax 1 ?y => pose proof (proj1 (smax_ge 1 x)); pose proof (proj1 (smax_ge 1 y)) end.
  split; nra.
Qed.

(** The contact speed solves the pressure balance. *)
Lemma contact_balance :
  sigma Pl * cl + sigma Pl * (h_sl h - h_ul h) * (h_sstar h - h_ul h) =
  sigma Pr * cr + sigma Pr * (h_sr h - h_ur h) * (h_sstar h - h_ur h).
Proof.
  pose proof signal_speeds as [A B]. pose proof (sqrt_lt_R0 _ Cl). pose proof (sqrt_lt_R0 _ Cr).
  assert (E : h_sstar h = (sigma Pr * cr - sigma Pl * cl + h_ul h * sigma Pl * (h_sl h - h_ul h) - h_ur h * sigma Pr * (h_sr h - h_ur h)) /
     (sigma Pl * (h_sl h - h_ul h) - sigma Pr * (h_sr h - h_ur h))) by reflexivity.
  rewrite E. clear E. clearbody h. field.
  assert (sigma Pl * (h_sl h - h_ul h) < 0) by nra. assert (0 < sigma Pr * (h_sr h - h_ur h)) by nra. lra.
Qed.
End Solver.

Lemma star_facts P n c s ss : planar n -> 0 < sigma P -> s <> ss -> 0 < (s - iso_velocity_along P n) / (s - ss) ->
  let u := iso_velocity_along P n in
  let U := iso_conserved P in let F := iso_flux P n c in
  let V := star_state P n u s ss in let G := star_flux F V U s in
  jump s U F V G /\ moving n ss (sigma P * c + sigma P * (s - u) * (ss - u)) V G.
Proof.
  intros HN HS D K. cbv zeta. set (u := iso_velocity_along P n) in *.
  assert (Hu : u = n1 n * vx P + n2 n * vy P) by (unfold u, iso_velocity_along, project; ring).
  split. { unfold jump, star_flux; cbn [d0 d1 d2]. repeat split; ring. }
  unfold moving, star_state, star_flux, iso_flux, iso_conserved, iso_pressure. fold u. cbn [d0 d1 d2].
  assert (E : s - ss <> 0) by lra.
  split; [replace (sigma P * (s - u) / (s - ss)) with (sigma P * ((s - u) / (s - ss))) by (field; exact E); apply Rmult_lt_0_compat; assumption|].
  split.
  - replace (n1 n * (sigma P * (s - u) / (s - ss) * (ss * n1 n + (vx P - n1 n * u))) + n2 n * (sigma P * (s - u) / (s - ss) * (ss * n2 n + (vy P - n2 n * u))))
      with (sigma P * (s - u) / (s - ss) * ((ss - u) * (n1 n * n1 n + n2 n * n2 n) + (n1 n * vx P + n2 n * vy P))) by (field; exact E).
    rewrite HN, <- Hu. field; exact E.
  - clearbody u. clear HN Hu K. f_equal; field; exact E.
Qed.

(** For every pair of states the solver returns a flux; the final [throw] is dead. *)
Theorem hllc_never_throws Pl Pr cl cr n : exists F, iso_hllc Pl Pr cl cr n = Ok F.
Proof.
  unfold iso_hllc, hllc_flux, rleb. set (h := hllc_variables Pl Pr cl cr n).
  destruct (Rle_dec 0 (h_sl h)); [eauto|]. destruct (Rle_dec (h_sl h) 0); [|lra].
  destruct (Rle_dec 0 (h_sstar h)); cbn [andb]; [eauto|]. destruct (Rle_dec (h_sstar h) 0); [|lra].
  destruct (Rle_dec 0 (h_sr h)); cbn [andb]; [eauto|]. destruct (Rle_dec (h_sr h) 0); [eauto|lra].
Qed.

(** Flux in the two middle regions. *)
Definition GL (h : hllc) := star_flux (h_Fl h) (h_Ul_star h) (h_Ul h) (h_sl h).
Definition GR (h : hllc) := star_flux (h_Fr h) (h_Ur_star h) (h_Ur h) (h_sr h).
Lemma fan_facts Pl Pr cl cr n : planar n -> 0 < sigma Pl -> 0 < sigma Pr -> 0 < cl -> 0 < cr ->
  let h := hllc_variables Pl Pr cl cr n in ordered h -> exists p,
    jump (h_sl h) (iso_conserved Pl) (iso_flux Pl n cl) (h_Ul_star h) (GL h) /\
    jump (h_sr h) (iso_conserved Pr) (iso_flux Pr n cr) (h_Ur_star h) (GR h) /\
    moving n (h_sstar h) p (h_Ul_star h) (GL h) /\ moving n (h_sstar h) p (h_Ur_star h) (GR h).
Proof.
  intros HN Sl Sr Cl Cr h [O1 O2].
  pose proof (signal_speeds Pl Pr cl cr n Cl Cr) as [A B]. fold h in A, B.
  pose proof (contact_balance Pl Pr cl cr n Sl Sr Cl Cr) as E. fold h in E.
  destruct (fluxes_of_sides Pl Pr cl cr n Cl Cr) as [FL FR]. fold h in FL, FR.
  pose proof (sqrt_lt_R0 _ Cl) as QL. pose proof (sqrt_lt_R0 _ Cr) as QR.
  assert (UL : h_ul h = iso_velocity_along Pl n) by reflexivity. assert (UR : h_ur h = iso_velocity_along Pr n) by reflexivity.
  rewrite UL, UR in *.
  assert (KL : 0 < (h_sl h - iso_velocity_along Pl n) / (h_sl h - h_sstar h)).
  { replace ((h_sl h - iso_velocity_along Pl n) / (h_sl h - h_sstar h)) with ((iso_velocity_along Pl n - h_sl h) / (h_sstar h - h_sl h)) by (field; lra).
    apply Rdiv_lt_0_compat; lra. }
  assert (KR : 0 < (h_sr h - iso_velocity_along Pr n) / (h_sr h - h_sstar h)) by (apply Rdiv_lt_0_compat; lra).
  destruct (star_facts Pl n cl (h_sl h) (h_sstar h) HN Sl ltac:(lra) KL) as [JL ML].
  destruct (star_facts Pr n cr (h_sr h) (h_sstar h) HN Sr ltac:(lra) KR) as [JR MR].
  rewrite <- E in MR. eexists. unfold GL, GR. rewrite FL, FR. split; [exact JL|]. split; [exact JR|]. split; [exact ML|exact MR].
Qed.

(** Four constant states separated by three waves, each obeying its jump condition; the middle states share normal
    velocity and pressure; and the reported flux and state belong to the region that contains the face. *)
Theorem hllc_wave_fan Pl Pr cl cr n : planar n -> 0 < sigma Pl -> 0 < sigma Pr -> 0 < cl -> 0 < cr ->
  let h := hllc_variables Pl Pr cl cr n in ordered h ->
  let Ul := iso_conserved Pl in let Ur := iso_conserved Pr in
  let Fl := iso_flux Pl n cl in let Fr := iso_flux Pr n cr in
  exists Vl Gl Vr Gr p,
    jump (h_sl h) Ul Fl Vl Gl /\ jump (h_sstar h) Vl Gl Vr Gr /\ jump (h_sr h) Vr Gr Ur Fr /\
    moving n (h_sstar h) p Vl Gl /\ moving n (h_sstar h) p Vr Gr /\
    h_sl h <= iso_velocity_along Pl n - sqrt cl /\ iso_velocity_along Pr n + sqrt cr <= h_sr h /\
    (0 <= h_sl h -> iso_hllc Pl Pr cl cr n = Ok Fl /\ hllc_state h = Ok Ul) /\
    (h_sl h < 0 <= h_sstar h -> iso_hllc Pl Pr cl cr n = Ok Gl /\ hllc_state h = Ok Vl) /\
    (h_sstar h < 0 <= h_sr h -> iso_hllc Pl Pr cl cr n = Ok Gr /\ hllc_state h = Ok Vr) /\
    (h_sr h < 0 -> iso_hllc Pl Pr cl cr n = Ok Fr /\ hllc_state h = Ok Ur).
Proof.
  intros HN Sl Sr Cl Cr h O. cbv zeta. destruct (fan_facts Pl Pr cl cr n HN Sl Sr Cl Cr O) as (p & JL & JR & ML & MR). fold h in JL, JR, ML, MR.
  pose proof (signal_speeds Pl Pr cl cr n Cl Cr) as [A B]. fold h in A, B.
  destruct (fluxes_of_sides Pl Pr cl cr n Cl Cr) as [FL FR]. fold h in FL, FR. destruct O as [O1 O2].
  exists (h_Ul_star h), (GL h), (h_Ur_star h), (GR h), p. split; [exact JL|]. split.
  { destruct ML as (_ & _ & ->). destruct MR as (_ & _ & ->). unfold jump. cbn [d0 d1 d2]. repeat split; ring. }
  split. { unfold jump in *. repeat split; lra. }
  split; [exact ML|]. split; [exact MR|]. split; [exact A|]. split; [exact B|].
  unfold iso_hllc. fold h. unfold hllc_flux, hllc_state, rleb. fold (GL h) (GR h). rewrite FL, FR.
  change (h_Ul h) with (iso_conserved Pl). change (h_Ur h) with (iso_conserved Pr).
  repeat split; intros; destruct (Rle_dec 0 (h_sl h)), (Rle_dec (h_sl h) 0), (Rle_dec 0 (h_sstar h)), (Rle_dec (h_sstar h) 0), (Rle_dec 0 (h_sr h)), (Rle_dec (h_sr h) 0);
    cbn [andb]; try reflexivity; exfalso; lra.
Qed.

Lemma contact_tie Pl Pr cl cr n : planar n -> 0 < sigma Pl -> 0 < sigma Pr -> 0 < cl -> 0 < cr ->
  let h := hllc_variables Pl Pr cl cr n in ordered h -> h_sstar h = 0 -> GL h = GR h.
Proof.
  intros HN Sl Sr Cl Cr h O Z. destruct (fan_facts Pl Pr cl cr n HN Sl Sr Cl Cr O) as (p & _ & _ & (_ & _ & E1) & (_ & _ & E2)).
  fold h in E1, E2. rewrite E1, E2, Z. f_equal; ring.
Qed.

Lemma star_trivial P n s : s <> iso_velocity_along P n -> star_state P n (iso_velocity_along P n) s (iso_velocity_along P n) = iso_conserved P.
Proof. intros H. unfold star_state, iso_conserved. set (u := iso_velocity_along P n) in *. clearbody u. f_equal; field; lra. Qed.
Lemma star_flux_same F U s : star_flux F U U s = F.
Proof. unfold star_flux. rewrite <- (v3_eta F) at 4. f_equal; ring. Qed.
Lemma star_flux_still F V U : star_flux F V U 0 = F.
Proof. unfold star_flux. rewrite <- (v3_eta F) at 4. f_equal; ring. Qed.

(** An isolated contact (same normal velocity, same pressure, any densities, temperatures and shear): the flux is exactly
    that of the upstream side. *)
Theorem hllc_exact_contact Pl Pr cl cr n : 0 < sigma Pl -> 0 < sigma Pr -> 0 < cl -> 0 < cr ->
  iso_velocity_along Pl n = iso_velocity_along Pr n -> sigma Pl * cl = sigma Pr * cr ->
  (0 <= iso_velocity_along Pl n -> iso_hllc Pl Pr cl cr n = Ok (iso_flux Pl n cl)) /\
  (iso_velocity_along Pr n < 0 -> iso_hllc Pl Pr cl cr n = Ok (iso_flux Pr n cr)).
Proof.
  intros Sl Sr Cl Cr EU EP. set (h := hllc_variables Pl Pr cl cr n).
  pose proof (sqrt_lt_R0 _ Cl) as QL. pose proof (sqrt_lt_R0 _ Cr) as QR.
  pose proof (contact_balance Pl Pr cl cr n Sl Sr Cl Cr) as E. fold h in E.
  pose proof (signal_speeds Pl Pr cl cr n Cl Cr) as [A B]. fold h in A, B.
  destruct (fluxes_of_sides Pl Pr cl cr n Cl Cr) as [FL FR]. fold h in FL, FR.
  assert (UL : h_ul h = iso_velocity_along Pl n) by reflexivity. assert (UR : h_ur h = iso_velocity_along Pr n) by reflexivity.
  rewrite UL, UR in *. rewrite <- EU in *. set (u := iso_velocity_along Pl n) in *.
  assert (ES : h_sstar h = u).
  { assert (Z : (sigma Pl * (h_sl h - u) - sigma Pr * (h_sr h - u)) * (h_sstar h - u) = 0) by lra.
    apply Rmult_integral in Z. destruct Z as [Z|Z]; [|lra]. assert (sigma Pl * (h_sl h - u) < 0) by nra. assert (0 < sigma Pr * (h_sr h - u)) by nra. lra. }
  assert (VL : h_Ul_star h = h_Ul h).
  { unfold h_Ul_star, h_Ul. rewrite ES. change (h_Pl h) with Pl. change (h_n h) with n. rewrite UL. apply star_trivial. fold u. lra. }
  assert (VR : h_Ur_star h = h_Ur h).
  { unfold h_Ur_star, h_Ur. rewrite ES. change (h_Pr h) with Pr. change (h_n h) with n. rewrite UR, EU. apply star_trivial. rewrite <- EU. lra. }
  unfold iso_hllc. fold h. unfold hllc_flux, rleb. rewrite VL, VR, !star_flux_same, FL, FR, ES.
  split; intros H; destruct (Rle_dec 0 (h_sl h)), (Rle_dec (h_sl h) 0), (Rle_dec 0 u), (Rle_dec u 0), (Rle_dec 0 (h_sr h)), (Rle_dec (h_sr h) 0);
    cbn [andb]; try reflexivity; exfalso; lra.
Qed.

(** Equal states on both sides: the exact flux. *)
Theorem hllc_consistent P c n : 0 < sigma P -> 0 < c -> iso_hllc P P c c n = Ok (iso_flux P n c).
Proof.
  intros HS HC. destruct (hllc_exact_contact P P c c n HS HS HC HC eq_refl eq_refl) as [A B].
  destruct (Rle_dec 0 (iso_velocity_along P n)); [apply A; assumption|apply B; lra].
Qed.

(** Swapping sides. *)
Lemma swap_solver (h h' : hllc) (f : v3 -> v3) F : ordered h ->
  h_sl h' = - h_sr h -> h_sr h' = - h_sl h -> h_sstar h' = - h_sstar h ->
  h_Fl h' = f (h_Fr h) -> h_Fr h' = f (h_Fl h) -> GL h' = f (GR h) -> GR h' = f (GL h) -> (h_sstar h = 0 -> GL h = GR h) ->
  hllc_flux h = Ok F -> hllc_flux h' = Ok (f F).
Proof.
  intros [O1 O2] E1 E2 E3 E4 E5 E6 E7 T H. unfold hllc_flux, rleb in *. fold (GL h) (GR h) in H. fold (GL h') (GR h').
  assert (TL : h_sl h = 0 -> GL h = h_Fl h) by (intros Z; unfold GL; rewrite Z; apply star_flux_still).
  assert (TR : h_sr h = 0 -> GR h = h_Fr h) by (intros Z; unfold GR; rewrite Z; apply star_flux_still).
  rewrite E1, E2, E3, E4, E5, E6, E7.
  destruct (Rle_dec 0 (h_sl h)).
  - injection H as <-. destruct (Rle_dec 0 (- h_sr h)); [lra|]. destruct (Rle_dec (- h_sr h) 0); [|lra].
    destruct (Rle_dec 0 (- h_sstar h)); [lra|]. cbn [andb]. destruct (Rle_dec (- h_sstar h) 0); [|lra].
    destruct (Rle_dec 0 (- h_sl h)); cbn [andb]; [rewrite TL by lra; reflexivity|]. destruct (Rle_dec (- h_sl h) 0); [reflexivity|lra].
  - destruct (Rle_dec (h_sl h) 0); [|lra]. destruct (Rle_dec 0 (h_sstar h)); cbn [andb] in H.
    + injection H as <-. destruct (Rle_dec 0 (- h_sr h)); [lra|]. destruct (Rle_dec (- h_sr h) 0); [|lra].
      destruct (Rle_dec 0 (- h_sstar h)); cbn [andb]; [rewrite T by lra; reflexivity|]. destruct (Rle_dec (- h_sstar h) 0); [|lra].
      destruct (Rle_dec 0 (- h_sl h)); [reflexivity|lra].
    + destruct (Rle_dec (h_sstar h) 0); [|lra]. destruct (Rle_dec 0 (h_sr h)); cbn [andb] in H.
      * injection H as <-. destruct (Rle_dec 0 (- h_sr h)); [rewrite TR by lra; reflexivity|].
        destruct (Rle_dec (- h_sr h) 0); [|lra]. destruct (Rle_dec 0 (- h_sstar h)); [reflexivity|lra].
      * destruct (Rle_dec (h_sr h) 0); [|lra]. injection H as <-. destruct (Rle_dec 0 (- h_sr h)); [reflexivity|lra].
Qed.

Lemma swap_vars Pl Pr Ql Qr cl cr n n' : 0 < sigma Pl -> 0 < sigma Pr -> 0 < cl -> 0 < cr ->
  sigma Ql = sigma Pl -> sigma Qr = sigma Pr ->
  iso_velocity_along Ql n' = - iso_velocity_along Pl n -> iso_velocity_along Qr n' = - iso_velocity_along Pr n ->
  let h := hllc_variables Pl Pr cl cr n in let h' := hllc_variables Qr Ql cr cl n' in
  h_sl h' = - h_sr h /\ h_sr h' = - h_sl h /\ h_sstar h' = - h_sstar h.
Proof.
  intros HSl HSr HCl HCr S1 S2 V1 V2 h h'.
  pose proof (signal_speeds Pl Pr cl cr n HCl HCr) as [A B]. fold h in A, B.
  pose proof (sqrt_lt_R0 _ HCl) as QL. pose proof (sqrt_lt_R0 _ HCr) as QR.
  assert (X1 : h_sl h' = - h_sr h).
  { unfold h, h', hllc_variables. cbn [h_sl h_sr]. rewrite S1, S2, V1, V2.
    replace (0.5 * (sigma Pr * cr + sigma Pl * cl) - 0.5 * (- iso_velocity_along Pl n - - iso_velocity_along Pr n) * (0.5 * (sigma Pr + sigma Pl)) * (0.5 * (sqrt cr + sqrt cl)))
      with (0.5 * (sigma Pl * cl + sigma Pr * cr) - 0.5 * (iso_velocity_along Pr n - iso_velocity_along Pl n) * (0.5 * (sigma Pl + sigma Pr)) * (0.5 * (sqrt cl + sqrt cr))) by ring.
    ring. }
  assert (X2 : h_sr h' = - h_sl h).
  { unfold h, h', hllc_variables. cbn [h_sl h_sr]. rewrite S1, S2, V1, V2.
    replace (0.5 * (sigma Pr * cr + sigma Pl * cl) - 0.5 * (- iso_velocity_along Pl n - - iso_velocity_along Pr n) * (0.5 * (sigma Pr + sigma Pl)) * (0.5 * (sqrt cr + sqrt cl)))
      with (0.5 * (sigma Pl * cl + sigma Pr * cr) - 0.5 * (iso_velocity_along Pr n - iso_velocity_along Pl n) * (0.5 * (sigma Pl + sigma Pr)) * (0.5 * (sqrt cl + sqrt cr))) by ring.
    ring. }
  split; [exact X1|]. split; [exact X2|].
  assert (E : h_sstar h = (sigma Pr * cr - sigma Pl * cl + h_ul h * sigma Pl * (h_sl h - h_ul h) - h_ur h * sigma Pr * (h_sr h - h_ur h)) /
     (sigma Pl * (h_sl h - h_ul h) - sigma Pr * (h_sr h - h_ur h))) by reflexivity.
  assert (E' : h_sstar h' = (sigma Ql * cl - sigma Qr * cr + h_ul h' * sigma Qr * (h_sl h' - h_ul h') - h_ur h' * sigma Ql * (h_sr h' - h_ur h')) /
     (sigma Qr * (h_sl h' - h_ul h') - sigma Ql * (h_sr h' - h_ur h'))) by reflexivity.
  rewrite E, E', X1, X2, S1, S2.
  assert (Y1 : h_ul h' = - h_ur h) by exact V2. assert (Y2 : h_ur h' = - h_ul h) by exact V1.
  rewrite Y1, Y2. clear E E' X1 X2 Y1 Y2. clearbody h h'. field.
  assert (sigma Pl * (h_sl h - h_ul h) < 0) by nra. assert (0 < sigma Pr * (h_sr h - h_ur h)) by nra. lra.
Qed.

(** Swapping sides and reversing the normal flips the sign of the flux, provided the waves are ordered. *)
Theorem hllc_direction_reversal Pl Pr cl cr n F : planar n -> 0 < sigma Pl -> 0 < sigma Pr -> 0 < cl -> 0 < cr ->
  ordered (hllc_variables Pl Pr cl cr n) ->
  iso_hllc Pl Pr cl cr n = Ok F -> iso_hllc Pr Pl cr cl (opp_direction n) = Ok (opp3 F).
Proof.
  intros HN HSl HSr HCl HCr O H.
  assert (V : forall P, iso_velocity_along P (opp_direction n) = - iso_velocity_along P n) by (intros P; unfold iso_velocity_along, project, opp_direction; cbn; ring).
  destruct (swap_vars Pl Pr Pl Pr cl cr n (opp_direction n) HSl HSr HCl HCr eq_refl eq_refl (V _) (V _)) as (E1 & E2 & E3).
  set (h := hllc_variables Pl Pr cl cr n) in *. set (h' := hllc_variables Pr Pl cr cl (opp_direction n)) in *.
  assert (SF : forall P c, iso_flux P (opp_direction n) c = opp3 (iso_flux P n c)).
  { intros P c. unfold iso_flux, opp3. rewrite V. cbn. f_equal; ring. }
  assert (SS : forall P s ss, star_state P (opp_direction n) (- iso_velocity_along P n) (- s) (- ss) = star_state P n (iso_velocity_along P n) s ss).
  { intros P s ss. unfold star_state. cbn. generalize (iso_velocity_along P n). intros u.
    replace (sigma P * (- s - - u) / (- s - - ss)) with (sigma P * (s - u) / (s - ss)).
    - f_equal; ring.
    - replace (- s - - ss) with (- (s - ss)) by ring. replace (sigma P * (- s - - u)) with (- (sigma P * (s - u))) by ring. unfold Rdiv. rewrite Rinv_opp. ring. }
  assert (SG : forall F V U s, star_flux (opp3 F) V U (- s) = opp3 (star_flux F V U s)) by (intros; unfold star_flux, opp3; cbn; f_equal; ring).
  assert (W1 : h_Fl h' = opp3 (h_Fr h)) by (unfold h_Fl, h_Fr; exact (SF Pr _)).
  assert (W2 : h_Fr h' = opp3 (h_Fl h)) by (unfold h_Fl, h_Fr; exact (SF Pl _)).
  assert (W3 : h_Ul_star h' = h_Ur_star h).
  { unfold h_Ul_star, h_Ur_star. change (h_ul h') with (iso_velocity_along Pr (opp_direction n)). change (h_Pl h') with Pr. rewrite E1, E3, V. apply SS. }
  assert (W4 : h_Ur_star h' = h_Ul_star h).
  { unfold h_Ul_star, h_Ur_star. change (h_ur h') with (iso_velocity_along Pl (opp_direction n)). change (h_Pr h') with Pl. rewrite E2, E3, V. apply SS. }
  unfold iso_hllc. fold h'. eapply swap_solver with (h := h); try assumption.
  - unfold GL, GR. rewrite W1, W3, E1. apply SG.
  - unfold GL, GR. rewrite W2, W4, E2. apply SG.
  - apply contact_tie; assumption.
Qed.

(** Mirror symmetry along either axis. *)
Theorem hllc_mirror i n Pl Pr cl cr F : on_axis i = Ok n -> (i < 2)%nat -> 0 < sigma Pl -> 0 < sigma Pr -> 0 < cl -> 0 < cr ->
  ordered (hllc_variables Pl Pr cl cr n) ->
  iso_hllc Pl Pr cl cr n = Ok F -> iso_hllc (imirror i Pr) (imirror i Pl) cr cl n = Ok (opp3 (mirror3 i F)).
Proof.
  intros HI Hi HSl HSr HCl HCr O H.
  assert (HN : planar n /\ (i = 0 /\ n = Unit 1 0 0 \/ i = 1 /\ n = Unit 0 1 0)%nat).
  { destruct i as [|[|i]]; [| |lia]; cbn in HI; injection HI as <-; unfold planar, make_unit_vector; cbn; split; auto; lra. }
  destruct HN as [HN C].
  assert (V : forall P, iso_velocity_along (imirror i P) n = - iso_velocity_along P n).
  { intros P. unfold iso_velocity_along, project, imirror. destruct C as [[-> ->]|[-> ->]]; cbn; ring. }
  destruct (swap_vars Pl Pr (imirror i Pl) (imirror i Pr) cl cr n n HSl HSr HCl HCr eq_refl eq_refl (V _) (V _)) as (E1 & E2 & E3).
  set (h := hllc_variables Pl Pr cl cr n) in *. set (h' := hllc_variables (imirror i Pr) (imirror i Pl) cr cl n) in *.
  pose (f := fun F => opp3 (mirror3 i F)).
  assert (SF : forall P c, iso_flux (imirror i P) n c = f (iso_flux P n c)).
  { intros P c. unfold f, iso_flux, opp3. rewrite V. destruct C as [[-> ->]|[-> ->]]; cbn; unfold iso_pressure; cbn; f_equal; ring. }
  assert (SS : forall P s ss, star_state (imirror i P) n (- iso_velocity_along P n) (- s) (- ss) = mirror3 i (star_state P n (iso_velocity_along P n) s ss)).
  { intros P s ss. unfold star_state. change (sigma (imirror i P)) with (sigma P). generalize (iso_velocity_along P n). intros u.
    replace (sigma P * (- s - - u) / (- s - - ss)) with (sigma P * (s - u) / (s - ss)).
    - destruct C as [[-> ->]|[-> ->]]; cbn; unfold mirror3; cbn; f_equal; ring.
    - replace (- s - - ss) with (- (s - ss)) by ring. replace (sigma P * (- s - - u)) with (- (sigma P * (s - u))) by ring. unfold Rdiv. rewrite Rinv_opp. ring. }
  assert (SG : forall F V U s, star_flux (f F) (mirror3 i V) (mirror3 i U) (- s) = f (star_flux F V U s)).
  { intros. unfold star_flux, f, opp3, mirror3. destruct C as [[-> _]|[-> _]]; cbn; f_equal; ring. }
  assert (SU : forall P, iso_conserved (imirror i P) = mirror3 i (iso_conserved P)).
  { intros P. unfold iso_conserved, mirror3. destruct C as [[-> _]|[-> _]]; cbn; f_equal; ring. }
  assert (W1 : h_Fl h' = f (h_Fr h)) by (unfold h_Fl, h_Fr; exact (SF Pr _)).
  assert (W2 : h_Fr h' = f (h_Fl h)) by (unfold h_Fl, h_Fr; exact (SF Pl _)).
  assert (W3 : h_Ul_star h' = mirror3 i (h_Ur_star h)).
  { unfold h_Ul_star, h_Ur_star. change (h_ul h') with (iso_velocity_along (imirror i Pr) n). change (h_Pl h') with (imirror i Pr). rewrite E1, E3, V. apply SS. }
  assert (W4 : h_Ur_star h' = mirror3 i (h_Ul_star h)).
  { unfold h_Ul_star, h_Ur_star. change (h_ur h') with (iso_velocity_along (imirror i Pl) n). change (h_Pr h') with (imirror i Pl). rewrite E2, E3, V. apply SS. }
  assert (W5 : h_Ul h' = mirror3 i (h_Ur h)) by exact (SU Pr). assert (W6 : h_Ur h' = mirror3 i (h_Ul h)) by exact (SU Pl).
  unfold iso_hllc. fold h'. eapply swap_solver with (h := h) (f := f); try assumption.
  - unfold GL, GR. rewrite W1, W3, W5, E1. apply SG.
  - unfold GL, GR. rewrite W2, W4, W6, E2. apply SG.
  - apply contact_tie; assumption.
Qed.

(** Without the guard the symmetry is lost: two equal streams that collide head-on at twice the sound speed each. The
    estimated outer speeds overtake each other, and the solver reports the left stream passing through unhindered. *)
Theorem hllc_mirror_refuted : exists Pl Pr F,
  Pl = imirror 0 Pr /\ 0 < sigma Pl /\ 0 < sigma Pr /\
  iso_hllc Pl Pr 1 1 (Unit 1 0 0) = Ok F /\ F = iso_flux Pl (Unit 1 0 0) 1 /\ d0 F = 2 /\
  iso_hllc (imirror 0 Pr) (imirror 0 Pl) 1 1 (Unit 1 0 0) <> Ok (opp3 (mirror3 0 F)) /\
  d0 (iso_hlle Pl Pr 1 1 (Unit 1 0 0)) = 0.
Proof.
  exists (IPrim 1 2 0), (IPrim 1 (-2) 0), (iso_flux (IPrim 1 2 0) (Unit 1 0 0) 1).
  assert (HL : imirror 0 (IPrim 1 (-2) 0) = IPrim 1 2 0) by (unfold imirror; cbn; f_equal; ring).
  assert (HR : imirror 0 (IPrim 1 2 0) = IPrim 1 (-2) 0) by (unfold imirror; cbn; f_equal; ring).
  assert (F1 : iso_hllc (IPrim 1 2 0) (IPrim 1 (-2) 0) 1 1 (Unit 1 0 0) = Ok (iso_flux (IPrim 1 2 0) (Unit 1 0 0) 1)).
  { destruct (fluxes_of_sides (IPrim 1 2 0) (IPrim 1 (-2) 0) 1 1 (Unit 1 0 0) Rlt_0_1 Rlt_0_1) as [FL _].
    unfold iso_hllc, hllc_flux. rewrite FL. unfold rleb.
    destruct (Rle_dec 0 (h_sl _)) as [_|N]; [reflexivity|]. exfalso. apply N. unfold hllc_variables. cbn [h_sl].
    unfold iso_velocity_along, project. cbn [n1 n2 n3 vx vy sigma]. rewrite sqrt_1.
    replace (0.5 * (1 * 1 + 1 * 1) - 0.5 * (-2 * 1 + 0 * 0 + 0 * 0 - (2 * 1 + 0 * 0 + 0 * 0)) * (0.5 * (1 + 1)) * (0.5 * (1 + 1))) with 3 by lra.
    assert (S3 : sqrt 3 <= 2) by (replace 2 with (sqrt (2 * 2)) by (apply sqrt_square; lra); apply sqrt_le_1; lra).
    replace (smax 0 3) with 3 by (unfold smax; destruct (Rlt_dec 0 3); lra). replace (3 / (1 * 1)) with 3 by field.
    destruct (smax_cases 1 (sqrt 3)) as [-> | ->]; lra. }
  assert (FV : iso_flux (IPrim 1 2 0) (Unit 1 0 0) 1 = V3 2 5 0) by (unfold iso_flux, iso_velocity_along, iso_pressure, project; cbn; f_equal; lra).
  split; [symmetry; exact HL|]. split; [cbn; lra|]. split; [cbn; lra|]. split; [exact F1|]. split; [reflexivity|].
  split; [rewrite FV; reflexivity|]. split.
  - rewrite HL, HR, F1, FV. intros X. injection X as X _. cbn in X. lra.
  - pose proof (iso_hlle_mirror 0 (Unit 1 0 0) (IPrim 1 2 0) (IPrim 1 (-2) 0) 1 1 eq_refl ltac:(lia) Rlt_0_1 Rlt_0_1) as X.
    rewrite HL, HR in X. apply (f_equal d0) in X. unfold opp3, mirror3 in X. cbn [d0] in X. lra.
Qed.

(** When the waves are certainly ordered: equal sound speeds, and the streams approach each other at no more than twice
    the sound speed (any density ratio, any rate of separation). *)
Lemma polyA c s : 1 <= c <= 2 -> 1 <= s -> 0 < 2 * s * s * s + s * s * (2 - 3 * c) + 2 * c * c - c * s.
Proof.
  intros HC HS.
  assert (P2 : 9/4 < 2 * s * s * s - 4 * s * s + 8 - 2 * s).
  { replace (2 * s * s * s - 4 * s * s + 8 - 2 * s) with (2 * ((s - 2) * (s - 1) * (s + 1)) + 4) by ring.
    destruct (Rle_dec s 2).
    - pose proof (Rle_0_sqr (s - 3/2)) as Q; unfold Rsqr in Q. assert (A : 0 <= (2 - s) * (s - 1)) by (apply Rmult_le_pos; lra). assert (B : (2 - s) * (s - 1) <= 1/4) by lra.
      assert ((2 - s) * (s - 1) * (s + 1) <= 1/4 * 3) by (apply Rmult_le_compat; lra). lra.
    - assert (0 < (s - 2) * (s - 1) * (s + 1)) by (repeat apply Rmult_lt_0_compat; lra). lra. }
  assert (- 2 <= (2 - c) * (3 * s * s + s - 2 * c - 4)).
  { assert (X : - 2 * c <= 3 * s * s + s - 2 * c - 4) by nra.
    assert ((2 - c) * (- 2 * c) <= (2 - c) * (3 * s * s + s - 2 * c - 4)) by (apply Rmult_le_compat_l; lra).
    pose proof (Rle_0_sqr (c - 1)) as Q; unfold Rsqr in Q. lra. }
  lra.
Qed.
Lemma polyB c s : c <= 2 -> 1 <= s -> s <= 2 * c - 2 -> 0 < 4 * c + 2 * c * s * s - 4 * s * s - (2 * c - 2 - s) * (s * s * (c + 2) - c).
Proof.
  intros HC HS HM. set (d := 2 * c - 2 - s) in *.
  assert (Hd : 0 <= d) by (unfold d; lra). assert (E : c = 1 + (s + d) / 2) by (unfold d; lra). clearbody d.
  assert (X : s * s * (2 - s) <= 32/27).
  { assert (0 <= (s - 4/3) * (s - 4/3) * (s + 2/3)) by (apply Rmult_le_pos; [apply Rle_0_sqr|lra]). lra. }
  assert (Y : d * (s * s) * (c + 2) <= d * (s * s) * 4) by (apply Rmult_le_compat_l; [apply Rmult_le_pos; [lra|apply Rle_0_sqr]|lra]).
  assert (Z : (4 - 2 * c) * (s * s) = (2 - s - d) * (s * s)) by (rewrite E; field).
  assert (W : 0 <= d * c) by (apply Rmult_le_pos; lra).
  assert (V : d * (s * s) <= (2 - s) * (s * s)) by (apply Rmult_le_compat_r; [apply Rle_0_sqr|lra]).
  lra.
Qed.
Lemma order_core r m : 0 < r -> m <= 2 -> let t := (1 + r) / 2 * smax 0 (1 + m / 2) in
  let ql := smax 1 (sqrt t) in let qr := smax 1 (sqrt (t / r)) in 0 < 1 + ql * ql - r + r * ql * qr - m * r * qr.
Proof.
  intros Hr Hm t ql qr.
  assert (L1 : 1 <= ql) by apply smax_ge. assert (L2 : sqrt t <= ql) by apply smax_ge.
  assert (R1 : 1 <= qr) by apply smax_ge. assert (R2 : sqrt (t / r) <= qr) by apply smax_ge.
  assert (Rq1 : r <= r * qr) by (rewrite <- (Rmult_1_r r) at 1; apply Rmult_le_compat_l; lra).
  assert (Rql : r * qr <= r * ql * qr).
  { assert (0 <= (r * qr) * (ql - 1)) by (apply Rmult_le_pos; lra). lra. }
  assert (Lq : 1 <= ql * ql) by (rewrite <- (Rmult_1_r 1) at 1; apply Rmult_le_compat; lra).
  destruct (Rle_dec m 0) as [M0|M0].
  { assert (0 <= (- m) * (r * qr)) by (apply Rmult_le_pos; lra). lra. }
  pose (c := 1 + m / 2). assert (Et : t = (1 + r) / 2 * c) by (unfold t, c, smax; destruct (Rlt_dec 0 (1 + m / 2)); [reflexivity|lra]).
  assert (Hc : 1 < c <= 2) by (unfold c; lra). assert (Em : m = 2 * c - 2) by (unfold c; lra).
  assert (Ht : 0 < t) by (rewrite Et; apply Rmult_lt_0_compat; lra).
  pose (s := sqrt t). assert (Hs : 0 < s) by (apply sqrt_lt_R0; exact Ht). assert (Ess : s * s = t) by (apply sqrt_sqrt; lra).
  pose (y := sqrt r). assert (Hy : 0 < y) by (apply sqrt_lt_R0; exact Hr). assert (Eyy : y * y = r) by (apply sqrt_sqrt; lra).
  assert (Eq : sqrt (t / r) = s / y) by (unfold s, y; apply sqrt_div; lra).
  fold s in L2. rewrite Eq in R2. destruct (smax_cases 1 (sqrt (t / r))) as [Q|Q]; fold qr in Q.
  - (* the right wave is sonic *) rewrite Q in *.
    assert (Hsy : s <= y). { apply (Rmult_le_compat_r y) in R2; [|lra]. replace (s / y * y) with s in R2 by (field; lra). lra. }
    assert (Htr : t <= r) by (rewrite <- Ess, <- Eyy; apply Rmult_le_compat; lra).
    assert (H1r : 1 <= r) by nra. assert (H1s : 1 <= s) by (apply Rnot_lt_le; intros X; assert (s * s < 1) by nra; nra).
    assert (Er : c * r = 2 * (s * s) - c) by (rewrite Ess, Et; field).
    assert (G : 0 < 1 + s * s - r * (1 + m - s)).
    { pose proof (polyA c s ltac:(lra) H1s) as PA. apply (Rmult_lt_reg_l c); [lra|]. rewrite Rmult_0_r.
      replace (c * (1 + s * s - r * (1 + m - s))) with (c + c * s * s - (c * r) * (2 * c - 1 - s)) by (rewrite Em; ring). rewrite Er. lra. }
    assert (s * s <= ql * ql) by nra. assert (r * s <= r * ql) by nra. nra.
  - rewrite Eq in Q. assert (Erq : r * qr = y * s) by (rewrite Q, <- Eyy; field; lra).
    assert (Hsy : y <= s). { rewrite Q in R1. apply (Rmult_le_compat_r y) in R1; [|lra]. replace (s / y * y) with s in R1 by (field; lra). lra. }
    replace (1 + ql * ql - r + r * ql * qr - m * r * qr) with (1 + ql * ql - r + (r * qr) * (ql - m)) by ring. rewrite Erq, <- Eyy.
    destruct (smax_cases 1 (sqrt t)) as [P|P]; fold ql in P.
    + rewrite P in *. assert (Y1 : y < 1).
      { apply Rnot_le_lt. intros X. assert (1 <= y * y) by nra. assert (s * s <= 1) by nra. assert (1 < (1 + r) / 2 * c) by nra. lra. }
      assert (Y2 : y * s < 1) by nra. assert (Y3 : 0 < y * s) by (apply Rmult_lt_0_compat; assumption). assert (Y4 : y * y < 1) by nra.
      assert (y * s * (m - 1) <= y * s * 1) by (apply Rmult_le_compat_l; lra). lra.
    + fold s in P. rewrite P in *. destruct (Rle_dec m s) as [MS|MS].
      * assert (0 <= y * s * (s - m)) by (apply Rmult_le_pos; [nra|lra]). nra.
      * pose proof (polyB c s ltac:(lra) ltac:(lra) ltac:(lra)) as PB.
        assert (Ey : c * (y * y) = 2 * (s * s) - c) by (rewrite Ess, Eyy, Et; field).
        assert (AM : y * s <= (y * y + s * s) / 2) by (pose proof (Rle_0_sqr (y - s)) as X; unfold Rsqr in X; lra).
        assert (AD : y * s * (m - s) <= (y * y + s * s) / 2 * (m - s)) by (apply Rmult_le_compat_r; lra).
        apply (Rmult_lt_reg_l (2 * c)); [lra|]. rewrite Rmult_0_r.
        assert (B1 : 2 * c * (y * s * (m - s)) <= 2 * c * ((y * y + s * s) / 2 * (m - s))) by (apply Rmult_le_compat_l; lra).
        replace (2 * c * ((y * y + s * s) / 2 * (m - s))) with ((c * (y * y) + c * (s * s)) * (m - s)) in B1 by field.
        rewrite Ey, Em in B1. rewrite Em.
        replace (2 * c * (1 + s * s - y * y + y * s * (s - (2 * c - 2)))) with (2 * c + 2 * c * (s * s) - 2 * (c * (y * y)) - 2 * c * (y * s * (2 * c - 2 - s))) by ring.
        rewrite Ey. lra.
Qed.
Lemma smax_scale k x : 0 < k -> smax 0 (k * x) = k * smax 0 x.
Proof. intros H. unfold smax. destruct (Rlt_dec 0 (k * x)), (Rlt_dec 0 x); try nra; try reflexivity. Qed.
Lemma left_ordered Pl Pr c n : 0 < sigma Pl -> 0 < sigma Pr -> 0 < c ->
  iso_velocity_along Pl n - iso_velocity_along Pr n <= 2 * sqrt c ->
  let h := hllc_variables Pl Pr c c n in h_sl h < h_sstar h.
Proof.
  intros HSl HSr HC HM h. pose proof (sqrt_lt_R0 _ HC) as Ha. pose proof (sqrt_sqrt c ltac:(lra)) as Ea.
  pose proof (contact_balance Pl Pr c c n HSl HSr HC HC) as B. fold h in B.
  pose proof (signal_speeds Pl Pr c c n HC HC) as [A1 A2]. fold h in A1, A2.
  pose (a := sqrt c). pose (r := sigma Pr / sigma Pl). pose (m := (iso_velocity_along Pl n - iso_velocity_along Pr n) / a).
  fold a in Ha, Ea, HM, A1, A2.
  assert (Hr : 0 < r) by (apply Rdiv_lt_0_compat; assumption).
  assert (Hm : m <= 2). { apply (Rmult_le_reg_r a); [exact Ha|]. unfold m. replace ((iso_velocity_along Pl n - iso_velocity_along Pr n) / a * a) with (iso_velocity_along Pl n - iso_velocity_along Pr n) by (field; lra). lra. }
  pose proof (order_core r m Hr Hm) as G. cbv zeta in G.
  pose (pstar := smax 0 (0.5 * (sigma Pl * c + sigma Pr * c) - 0.5 * (iso_velocity_along Pr n - iso_velocity_along Pl n) * (0.5 * (sigma Pl + sigma Pr)) * (0.5 * (a + a)))).
  assert (Ep : pstar = sigma Pl * c * ((1 + r) / 2 * smax 0 (1 + m / 2))).
  { unfold pstar. replace (0.5 * (sigma Pl * c + sigma Pr * c) - 0.5 * (iso_velocity_along Pr n - iso_velocity_along Pl n) * (0.5 * (sigma Pl + sigma Pr)) * (0.5 * (a + a)))
      with (sigma Pl * c * ((1 + r) / 2) * (1 + m / 2)).
    - rewrite smax_scale; [ring|]. apply Rmult_lt_0_compat; [apply Rmult_lt_0_compat; lra|lra].
    - unfold r, m. rewrite <- Ea. replace 0.5 with (/ 2) by lra. field. lra. }
  set (t := (1 + r) / 2 * smax 0 (1 + m / 2)) in *.
  assert (T1 : pstar / (sigma Pl * c) = t) by (rewrite Ep; field; lra).
  assert (T2 : pstar / (sigma Pr * c) = t / r) by (rewrite Ep; unfold r; field; lra).
  set (ql := smax 1 (sqrt t)) in *. set (qr := smax 1 (sqrt (t / r))) in *.
  assert (EL : h_sl h = h_ul h - a * ql).
  { unfold h, hllc_variables. cbn [h_sl h_ul]. fold a. fold pstar. rewrite T1. reflexivity. }
  assert (ER : h_sr h = h_ur h + a * qr).
  { unfold h, hllc_variables. cbn [h_sr h_ur]. fold a. fold pstar. rewrite T2. reflexivity. }
  assert (Eu : h_ul h - h_ur h = m * a) by (unfold m; change (h_ul h) with (iso_velocity_along Pl n); change (h_ur h) with (iso_velocity_along Pr n); field; lra).
  assert (Es : sigma Pr = sigma Pl * r) by (unfold r; field; lra).
  assert (L1 : 1 <= ql) by apply smax_ge. assert (R1 : 1 <= qr) by apply smax_ge.
  rewrite EL, ER, Es, <- Ea in B. rewrite EL. clearbody h r m ql qr a t. clear Ep T1 T2 pstar HM A1 A2 HC EL ER.
  (* (sstar - sl) (ql + r qr) = a (1 + ql^2 - r + r ql qr - m r qr) *)
  assert (Eq : (h_sstar h - (h_ul h - a * ql)) * (ql + r * qr) = a * (1 + ql * ql - r + r * ql * qr - m * r * qr)).
  { apply (Rmult_eq_reg_l (sigma Pl * a)); [|apply Rgt_not_eq, Rmult_lt_0_compat; assumption].
    replace (h_ur h) with (h_ul h - m * a) in * by lra. nra. }
  assert (0 < ql + r * qr) by nra. assert (0 < a * (1 + ql * ql - r + r * ql * qr - m * r * qr)) by (apply Rmult_lt_0_compat; assumption).
  rewrite <- Eq in *. apply Rnot_le_lt. intros X. nra.
Qed.

Theorem hllc_ordered Pl Pr c n : 0 < sigma Pl -> 0 < sigma Pr -> 0 < c ->
  iso_velocity_along Pl n - iso_velocity_along Pr n <= 2 * sqrt c -> ordered (hllc_variables Pl Pr c c n).
Proof.
  intros HSl HSr HC HM. split; [apply left_ordered; assumption|].
  assert (V : forall P, iso_velocity_along P (opp_direction n) = - iso_velocity_along P n) by (intros P; unfold iso_velocity_along, project, opp_direction; cbn; ring).
  destruct (swap_vars Pl Pr Pl Pr c c n (opp_direction n) HSl HSr HC HC eq_refl eq_refl (V _) (V _)) as (E1 & E2 & E3).
  pose proof (left_ordered Pr Pl c (opp_direction n) HSr HSl HC) as X. cbv zeta in X. rewrite !V, E1, E3 in X.
  assert (- h_sr (hllc_variables Pl Pr c c n) < - h_sstar (hllc_variables Pl Pr c c n)) by (apply X; lra). lra.
Qed.

(** A standing contact with shear: no mass crosses it and the pressure is exact, whereas HLLE leaks mass through it. *)
Example hllc_contact_example :
  iso_hllc (IPrim 1 0 3) (IPrim 4 0 (-1)) 4 1 (Unit 1 0 0) = Ok (V3 0 4 0) /\
  0 < d0 (iso_hlle (IPrim 4 0 (-1)) (IPrim 1 0 3) 1 4 (Unit 1 0 0)).
Proof.
  split.
  - destruct (hllc_exact_contact (IPrim 1 0 3) (IPrim 4 0 (-1)) 4 1 (Unit 1 0 0)) as [A _]; try (cbn; lra).
    + unfold iso_velocity_along, project. cbn. lra.
    + rewrite A by (unfold iso_velocity_along, project; cbn; lra). unfold iso_flux, iso_velocity_along, iso_pressure, project. cbn. do 2 f_equal; lra.
  - unfold iso_hlle, hlle3, hlle_component, iso_wavespeeds, iso_flux, iso_conserved, iso_velocity_along, iso_pressure, project. cbn [d0 d1 d2 sigma vx vy n1 n2 n3 fst snd].
    rewrite sqrt_1. replace (sqrt 4) with 2 by (replace 4 with (2 * 2) by ring; symmetry; apply sqrt_square; lra).
    replace (0 * 1 + -1 * 0 + 0 * 0) with 0 by ring. replace (0 * 1 + 3 * 0 + 0 * 0) with 0 by ring.
    replace (smax (0 + 1) (0 + 2)) with 2 by (unfold smax; destruct (Rlt_dec (0 + 1) (0 + 2)); lra).
    replace (smin (0 - 1) (0 - 2)) with (-2) by (unfold smin; destruct (Rlt_dec (0 - 2) (0 - 1)); lra).
    replace (smax 0 2) with 2 by (unfold smax; destruct (Rlt_dec 0 2); lra). replace (smin 0 (-2)) with (-2) by (unfold smin; destruct (Rlt_dec (-2) 0); lra).
    lra.
Qed.
(** Two streams of different density that approach at the sound speed: the guard holds, so the result is mirror symmetric. *)
Example hllc_guard_example : ordered (hllc_variables (IPrim 3 1 0) (IPrim 1 0 2) 1 1 (Unit 1 0 0)).
Proof. apply hllc_ordered; cbn; try lra. unfold iso_velocity_along, project. cbn. rewrite sqrt_1. lra. Qed.

Print Assumptions hllc_never_throws.
Print Assumptions hllc_wave_fan.
Print Assumptions hllc_exact_contact.
Print Assumptions hllc_consistent.
Print Assumptions hllc_direction_reversal.
Print Assumptions hllc_mirror.
Print Assumptions hllc_mirror_refuted.
Print Assumptions hllc_ordered.
