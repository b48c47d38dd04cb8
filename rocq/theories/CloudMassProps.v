(** C112: whether a step of the cloud program leaves mass in every cell (src/subprog_cloud.cpp 450-464, 511-585, 676-698). *)
From Coq Require Import ZArith Reals List Lia Lra Bool Psatz.
From Verif Require Import Base NdModel NdSpec NdProofs NdOpsModel NdOpsProofs2 DimensionalModel HydroModel HlleProofs SrhdProps SrhdRecoverProps HlleProps PlmModel PlmProps SedovModel Rep1Proofs SedovProofs SedovProps Rep2Proofs CloudModel CloudProofs CloudProofs2 CloudProps CloudSetupProps CloudStillProps.
From Verif Require JetModel JetProps.
Import ListNotations.
Open Scope R_scope.

(** *** Statements *)
Definition cell_volume (X Q : Z -> R) (i j : Z) : R := 2 * PI / 3 * (X (i + 1)%Z ^ 3 - X i ^ 3) * (cos (Q j) - cos (Q (j + 1)%Z)).
Definition cone_area (X Q : Z -> R) (i j : Z) : R := PI * (X (i + 1)%Z ^ 2 - X i ^ 2) * sin (Q j).
(** What light carries in the time dt through the outer face and the two side faces of a cell is less than the k-th part of the cell. *)
Definition roomy (k dt : R) (n m : Z) (X Q : Z -> R) : Prop := forall i j, (0 <= i < n)%Z -> (0 <= j < m)%Z ->
  k * (dt * (zone_area X Q (i + 1) j + cone_area X Q i j + cone_area X Q i (j + 1))) < cell_volume X Q i j.
(** The states that were recovered from the cells carry at most k times the mass of the cells. *)
Definition carries (k : R) (n m : Z) (X Q : Z -> R) (U : Z -> Z -> v5) (P : Z -> Z -> prim) : Prop := forall i j, (0 <= i < n)%Z -> (0 <= j < m)%Z ->
  rho (P i j) * lorentz_factor (P i j) * cell_volume X Q i j <= k * c0 (U i j).

(** *** Proofs *)
Lemma between_quotient a b d x : 0 < d -> a * d <= x <= b * d -> a <= x / d <= b.
Proof. intros D [A B]. assert (E : x = x / d * d) by (field; lra). split; apply (Rmult_le_reg_r d); try exact D; rewrite <- E; assumption. Qed.
(** The share of the mass on one side that an HLLE flux can take away. *)
Lemma mass_flux_share ap am vl vr Dl Dr : am <= 0 -> 0 <= ap -> 0 < ap - am -> -1 <= am -> ap <= 1 -> am <= vl <= ap -> am <= vr <= ap -> 0 <= Dl -> 0 <= Dr ->
  - (Dr * ((1 - vr) / 2)) <= (ap * (vl * Dl) - am * (vr * Dr) + ap * am * (Dr - Dl)) / (ap - am) <= Dl * ((1 + vl) / 2).
Proof.
  intros H1 H2 D H3 H4 HL HR DL DR.
  assert (ML : ap * ((vl - am) * Dl) <= Dl * ((1 + vl) / 2) * (ap - am)).
  { assert (0 <= ap * ((1 - vl) * (1 + am)) + - am * ((1 + vl) * (1 - ap))) by (apply Rplus_le_le_0_compat; apply Rmult_le_pos; try lra; apply Rmult_le_pos; lra).
    assert (0 <= Dl * (ap * ((1 - vl) * (1 + am)) + - am * ((1 + vl) * (1 - ap)))) by (apply Rmult_le_pos; assumption). nra. }
  assert (MR : - am * ((ap - vr) * Dr) <= Dr * ((1 - vr) / 2) * (ap - am)).
  { assert (0 <= - am * ((1 + vr) * (1 - ap)) + ap * ((1 - vr) * (1 + am))) by (apply Rplus_le_le_0_compat; apply Rmult_le_pos; try lra; apply Rmult_le_pos; lra).
    assert (0 <= Dr * (- am * ((1 + vr) * (1 - ap)) + ap * ((1 - vr) * (1 + am)))) by (apply Rmult_le_pos; assumption). nra. }
  assert (PL : 0 <= ap * ((vl - am) * Dl)) by (apply Rmult_le_pos; [lra|]; apply Rmult_le_pos; lra). assert (PR : 0 <= - am * ((ap - vr) * Dr)) by (apply Rmult_le_pos; [lra|]; apply Rmult_le_pos; lra).
  replace (ap * (vl * Dl) - am * (vr * Dr) + ap * am * (Dr - Dl)) with (ap * ((vl - am) * Dl) - - am * ((ap - vr) * Dr)) by ring.
  apply between_quotient; lra.
Qed.
(** A gas, or dust. *)
Definition dust_or_gas (P : prim) : Prop := 0 < rho P /\ (pre P = 0 \/ 0 < pre P).
Lemma weak_speeds P n : dust_or_gas P -> unit_norm n -> let w := srhd_wavespeeds P n (4 / 3) in -1 <= fst w <= beta_along P n /\ beta_along P n <= snd w <= 1.
Proof.
  intros [HR [H0|HP]] Hn w.
  - pose proof (flow_speed_below_light P n Hn) as V. unfold w, srhd_wavespeeds. assert (C : srhd_sound_speed_squared P (4 / 3) = 0) by (unfold srhd_sound_speed_squared; rewrite H0; unfold Rdiv; ring). rewrite C, !Rmult_0_l, sqrt_0. cbn [fst snd].
    replace ((beta_along P n * (1 - 0) - 0) / (1 - gamma_beta_squared P / (1 + gamma_beta_squared P) * 0)) with (beta_along P n) by (rewrite Rmult_0_r; field). replace ((beta_along P n * (1 - 0) + 0) / (1 - gamma_beta_squared P / (1 + gamma_beta_squared P) * 0)) with (beta_along P n) by (rewrite Rmult_0_r; field). lra.
  - assert (RE : relativistic P (4 / 3)) by (unfold relativistic; lra). pose proof (signal_speeds_below_light P n _ RE Hn) as S. unfold w. destruct (srhd_wavespeeds P n (4 / 3)). cbn [fst snd]. lra.
Qed.
Lemma lorentz_positive P : 0 < lorentz_factor P. Proof. unfold lorentz_factor, gamma_beta_squared. apply sqrt_lt_R0. nra. Qed.
Lemma srhd_mass_share Pl Pr n : dust_or_gas Pl -> gas Pr -> unit_norm n ->
  - (rho Pr * lorentz_factor Pr * ((1 - beta_along Pr n) / 2)) <= c0 (srhd_hlle Pl Pr n gamma_law_index) <= rho Pl * lorentz_factor Pl * ((1 + beta_along Pl n) / 2).
Proof.
  intros HL [RR PR] Hn. pose proof (weak_speeds Pl n HL Hn) as SL. cbv zeta in SL. assert (KR : relativistic Pr gamma_law_index) by (unfold relativistic, gamma_law_index; lra). pose proof (signal_speeds_below_light Pr n _ KR Hn) as SR.
  change (4 / 3) with gamma_law_index in SL. unfold srhd_hlle. cbv zeta. destruct (srhd_wavespeeds Pl n gamma_law_index) as [ml pl]. destruct (srhd_wavespeeds Pr n gamma_law_index) as [mr pr]. cbn [fst snd] in *.
  unfold hlle5, hlle_component, srhd_flux, flux5, srhd_conserved. cbn [c0]. pose proof (Rmult_lt_0_compat _ _ (proj1 HL) (lorentz_positive Pl)) as DL. pose proof (Rmult_lt_0_compat _ _ RR (lorentz_positive Pr)) as DR.
  set (Dl := rho Pl * lorentz_factor Pl) in *. set (Dr := rho Pr * lorentz_factor Pr) in *. set (vl := beta_along Pl n) in *. set (vr := beta_along Pr n) in *.
  destruct (smax_spec 0 (smax pl pr)) as (A1 & A2 & A3). destruct (smax_spec pl pr) as (B1 & B2 & B3). destruct (smin_spec 0 (smin ml mr)) as (D1 & D2 & D3). destruct (smin_spec ml mr) as (E1 & E2 & E3).
  set (mx := smax pl pr) in *. set (mn := smin ml mr) in *. set (ap := smax 0 mx) in *. set (am := smin 0 mn) in *.
  replace ((vl * Dl * ap - vr * Dr * am - (Dl - Dr) * ap * am) / (ap - am)) with ((ap * (vl * Dl) - am * (vr * Dr) + ap * am * (Dr - Dl)) / (ap - am)) by (field; lra).
  apply mass_flux_share; try lra; try (destruct A3, B3, D3, E3; lra).
Qed.
Lemma gas_or_dust P : gas P -> dust_or_gas P. Proof. intros [A B]. split; [exact A|right; exact B]. Qed.
Lemma axis_norm a : unit_norm (CloudModel.on_axis a). Proof. destruct a as [|[|a]]; unfold unit_norm; simpl; ring. Qed.
Lemma nozzle_dust cfg Q t j : good_cloud cfg -> JetProps.good (jet_of cfg) -> dust_or_gas (nozzle cfg Q (units_of cfg) t j).
Proof.
  intros G J. destruct (units_nonzero cfg G) as [A B]. unfold nozzle, inflow. split; cbn [rho pre]; [|left; reflexivity]. apply Rdiv_lt_0_compat; [exact (base_positive cfg J)|]. unfold mass_density.
  destruct G as ((G1 & _) & _ & G3). unfold units_of. cbn [u_mass u_length]. apply Rdiv_lt_0_compat; [|apply pow_lt, G1]. apply Rmult_lt_0_compat; [exact G3|]. apply Rmult_lt_0_compat; [lra|]. apply pow_lt. lra.
Qed.
Lemma volume_spec X Q i j : vol X Q i j = cell_volume X Q i j.
Proof. unfold vol, cell_volume. rewrite (Z.add_comm 1 i), (Z.add_comm 1 j). field. Qed.
Lemma cone_spec X Q i j : area_q X Q i j = cone_area X Q i j.
Proof. unfold area_q, cone_area, center_r. rewrite (Z.add_comm 1 i). replace 0.5 with (/ 2) by lra. field. Qed.

(** One stage with the first reconstruction. *)
Lemma stage_keeps_mass cfg n m X Q k t P U dt : good_cloud cfg -> JetProps.good (jet_of cfg) -> (1 <= n)%Z -> (2 <= m)%Z -> reconstruct_method cfg = 1%Z -> spherical n m X Q -> 0 < k -> 0 < dt -> roomy k dt n m X Q ->
  (forall i j, (0 <= i < n)%Z -> (0 <= j < m)%Z -> gas (P i j)) -> carries k n m X Q U P ->
  forall i j, (0 <= i < n)%Z -> (0 <= j < m)%Z -> 0 < c0 (next_of cfg n m X Q (units_of cfg) t P U dt i j).
Proof.
  intros G J Hn Hm RM SP Hk Hdt HR HP HC i j Hi Hj. pose proof (radii_positive n m X Q SP) as PX. pose proof (angles_ordered n m X Q SP ltac:(lia)) as PQ. pose proof SP as (_ & HX & _ & _ & HQ). pose proof PI_RGT_0 as PP.
  assert (COS : 0 < cos (Q j) - cos (Q (j + 1)%Z)).
  { pose proof (PQ j ltac:(lia)). pose proof (PQ (j + 1)%Z ltac:(lia)). pose proof (HQ j Hj). assert (cos (Q (j + 1)%Z) < cos (Q j)) by (apply cos_decreasing_1; lra). lra. }
  set (L := extended cfg n Q (units_of cfg) t P j).
  assert (LI : forall x, (1 <= x <= n)%Z -> L x = P (x - 1)%Z j) by (intros x Hx; unfold L, extended; destruct (Z.ltb_spec x 1), (Z.ltb_spec x (n + 1)); try lia; reflexivity).
  assert (LO : L (n + 1)%Z = P (n - 1)%Z j) by (unfold L, extended; destruct (Z.ltb_spec (n + 1) 1), (Z.ltb_spec (n + 1) (n + 1)); try lia; reflexivity).
  assert (LD : forall x, (0 <= x <= n + 1)%Z -> dust_or_gas (L x)).
  { intros x Hx. destruct (Z.eq_dec x 0) as [-> |N]; [apply nozzle_dust; assumption|]. destruct (Z.eq_dec x (n + 1)) as [-> |N']; [rewrite LO|rewrite LI by lia]; apply gas_or_dust, HP; lia. }
  assert (LG : forall x, (1 <= x <= n + 1)%Z -> gas (L x)) by (intros x Hx; destruct (Z.eq_dec x (n + 1)) as [-> |N']; [rewrite LO|rewrite LI by lia]; apply HP; lia).
  set (D := rho (P i j) * lorentz_factor (P i j)). pose proof (HP i j Hi Hj) as [RP PP']. assert (DP : 0 < D) by (apply Rmult_lt_0_compat; [exact RP|apply lorentz_positive]).
  set (v := beta_along (P i j) (CloudModel.on_axis 0)). set (w := beta_along (P i j) (CloudModel.on_axis 1)).
  pose proof (flow_speed_below_light (P i j) _ (axis_norm 0)) as V1. pose proof (flow_speed_below_light (P i j) _ (axis_norm 1)) as W1. fold v in V1. fold w in W1.
  assert (FS : forall M y x, face_states cfg M y x = (M x, M (1 + x)%Z)) by (intros M y x; unfold face_states; rewrite RM; reflexivity).
  assert (FA : - (D * ((1 - v) / 2)) <= c0 (flux_r cfg n Q (units_of cfg) t P i j)).
  { unfold flux_r. rewrite FS. fold L. assert (E : L (1 + i)%Z = P i j) by (rewrite LI by lia; f_equal; lia). pose proof (srhd_mass_share (L i) (L (1 + i)%Z) _ (LD i ltac:(lia)) (LG (1 + i)%Z ltac:(lia)) (axis_norm 0)) as [S _]. rewrite E in *. exact S. }
  assert (FB : c0 (flux_r cfg n Q (units_of cfg) t P (1 + i) j) <= D * ((1 + v) / 2)).
  { unfold flux_r. rewrite FS. fold L. assert (E : L (1 + i)%Z = P i j) by (rewrite LI by lia; f_equal; lia). pose proof (srhd_mass_share (L (1 + i)%Z) (L (1 + (1 + i))%Z) _ (LD (1 + i)%Z ltac:(lia)) (LG (1 + (1 + i))%Z ltac:(lia)) (axis_norm 0)) as [_ S]. rewrite E in *. exact S. }
  assert (FC : - D <= c0 (flux_q cfg m P i j)).
  { unfold flux_q. destruct (Z.eqb_spec j 0); [cbn; lra|]. destruct (Z.eqb_spec j m); [cbn; lra|]. cbn [orb]. rewrite FS. replace (1 + (j - 1))%Z with j by lia.
    pose proof (srhd_mass_share (P i (j - 1)%Z) (P i j) _ (gas_or_dust _ (HP i (j - 1)%Z ltac:(lia) ltac:(lia))) (HP i j Hi Hj) (axis_norm 1)) as [S _]. fold D w in S. assert (D * ((1 - w) / 2) <= D * 1) by (apply Rmult_le_compat_l; lra). lra. }
  assert (FD : c0 (flux_q cfg m P i (1 + j)) <= D).
  { unfold flux_q. destruct (Z.eqb_spec (1 + j) 0); [lia|]. destruct (Z.eqb_spec (1 + j) m); [cbn; lra|]. cbn [orb]. rewrite FS. replace (1 + j - 1)%Z with j by lia.
    pose proof (srhd_mass_share (P i j) (P i (1 + j)%Z) _ (gas_or_dust _ (HP i j Hi Hj)) (HP i (1 + j)%Z ltac:(lia) ltac:(lia)) (axis_norm 1)) as [_ S]. fold D w in S. assert (D * ((1 + w) / 2) <= D * 1) by (apply Rmult_le_compat_l; lra). lra. }
  specialize (HR i j Hi Hj). specialize (HC i j Hi Hj). fold D in HC.
  unfold next_of, rate_of, plus5, times5, minus5. cbn [c0]. rewrite !area_spec, !cone_spec. replace (c0 (source_of X Q P i j)) with 0 by reflexivity. rewrite (Z.add_comm 1 i), (Z.add_comm 1 j) in *.
  set (a := zone_area X Q i j). set (b := zone_area X Q (i + 1) j) in *. set (c := cone_area X Q i j) in *. set (d := cone_area X Q i (j + 1)) in *.
  set (fa := c0 (flux_r cfg n Q (units_of cfg) t P i j)) in *. set (fb := c0 (flux_r cfg n Q (units_of cfg) t P (i + 1) j)) in *. set (fc := c0 (flux_q cfg m P i j)) in *. set (fd := c0 (flux_q cfg m P i (j + 1))) in *.
  pose proof (HX i Hi) as XI. pose proof (PX i ltac:(lia)) as X0.
  assert (A0 : 0 <= a) by (unfold a, zone_area; apply Rmult_le_pos; [apply Rmult_le_pos; [lra|nra]|lra]).
  assert (AB : a <= b) by (unfold a, b, zone_area; apply Rmult_le_compat_r; [lra|]; apply Rmult_le_compat_l; [lra|]; nra).
  assert (CD : 0 <= c /\ 0 <= d).
  { unfold c, d, cone_area. pose proof (PQ j ltac:(lia)). pose proof (PQ (j + 1)%Z ltac:(lia)). assert (0 <= X (i + 1)%Z ^ 2 - X i ^ 2) by nra. split; (apply Rmult_le_pos; [apply Rmult_le_pos; lra|apply sin_ge_0; lra]). }
  assert (R1 : fb * b <= D * ((1 + v) / 2) * b) by (apply Rmult_le_compat_r; lra). assert (R2 : - (D * ((1 - v) / 2)) * a <= fa * a) by (apply Rmult_le_compat_r; lra).
  assert (R3 : D * ((1 - v) / 2) * a <= D * ((1 - v) / 2) * b) by (apply Rmult_le_compat_l; [apply Rmult_le_pos; lra|exact AB]).
  assert (R4 : fd * d <= D * d) by (apply Rmult_le_compat_r; lra). assert (R5 : - D * c <= fc * c) by (apply Rmult_le_compat_r; lra).
  assert (LOSS : fb * b - fa * a + (fd * d - fc * c) <= D * (b + c + d)) by nra.
  assert (LT : k * (D * (dt * (b + c + d))) < k * c0 (U i j)).
  { apply Rlt_le_trans with (D * cell_volume X Q i j); [|lra]. replace (k * (D * (dt * (b + c + d)))) with (D * (k * (dt * (b + c + d)))) by ring. apply Rmult_lt_compat_l; assumption. }
  apply Rmult_lt_reg_l in LT; [|exact Hk]. assert (dt * (fb * b - fa * a + (fd * d - fc * c)) <= dt * (D * (b + c + d))) by (apply Rmult_le_compat_l; lra). lra.
Qed.

(** *** C112 *)
(** With the first reconstruction, no step empties a cell. *)
Theorem cells_keep_mass cfg fuel n m X Q k s s' U : good_cloud cfg -> JetProps.good (jet_of cfg) -> sizes fuel n m -> (2 <= m)%Z -> reconstruct_method cfg = 1%Z -> spherical n m X Q ->
  let dt := cfl cfg * (X 1%Z - X 0%Z) in 0 < cfl cfg -> 0 < k -> roomy k dt n m X Q -> on_grid s n m X Q U ->
  (forall P, gas_of cfg n m X Q U P -> carries k n m X Q U P) ->
  (rk_order cfg = 2%Z -> forall r V P, CloudModel.advance cfg fuel s s dt = Ok r -> on_grid r n m X Q V -> gas_of cfg n m X Q V P -> carries k n m X Q V P) ->
  next_solution cfg fuel s = Ok s' -> exists U', on_grid s' n m X Q U' /\ forall i j, (0 <= i < n)%Z -> (0 <= j < m)%Z -> 0 < c0 (U' i j).
Proof.
  intros G J HS Hm RM SP dt HC Hk HR HU H1 H2 E. pose proof HS as (Hn & _). destruct (sizes_fit _ _ _ HS) as (HB & _). pose proof (reference_units cfg G) as RU. assert (HM : method_ok cfg m) by (left; lia).
  assert (DT : 0 < dt). { unfold dt. destruct SP as (_ & HX & _). specialize (HX 0%Z ltac:(lia)). change (0 + 1)%Z with 1%Z in HX. apply Rmult_lt_0_compat; lra. }
  assert (ST : forall t V P, recovered cfg n m X Q V P -> carries k n m X Q V P -> forall i j, (0 <= i < n)%Z -> (0 <= j < m)%Z -> 0 < c0 (next_of cfg n m X Q (units_of cfg) t P V dt i j)).
  { intros t V P RV CV. apply stage_keeps_mass with (k := k); try assumption. intros i j Hi Hj. apply (gas_recovered _ _ _ _ _ _ _ RV i j Hi Hj). }
  unfold next_solution in E. rewrite (time_step_value cfg n m X Q s U Hn ltac:(lia) HU) in E. cbn [bind] in E. change (step_of cfg X) with dt in E. destruct (Z.eqb_spec (rk_order cfg) 1) as [RK|RK].
  - destruct (advance_spec cfg fuel n m X Q _ s s _ s' U U HS HM RU HU HU E) as (P & HP & HT & HG). eexists. split; [exact HG|]. apply ST; [exact HP|]. apply H1, gas_recovered, HP.
  - destruct (Z.eqb_spec (rk_order cfg) 2) as [RK2|]; [|discriminate]. apply bind_ok_inv in E as (s1 & E1 & E). apply bind_ok_inv in E as (s2 & E2 & E).
    destruct (advance_spec cfg fuel n m X Q _ s s _ s1 U U HS HM RU HU HU E1) as (P & HP & HT1 & HG1). destruct (advance_spec cfg fuel n m X Q _ s s1 _ s2 _ U HS HM RU HU HG1 E2) as (P' & HP' & HT2 & HG2).
    destruct (times_rep fuel n m X Q s U (1 / 2) HS HU) as (a & EA & TA & GA). rewrite EA in E. cbn [bind] in E. destruct (times_rep fuel n m X Q s2 _ (1 - 1 / 2) HS HG2) as (b & EB & TB & GB). rewrite EB in E. cbn [bind] in E.
    destruct (plus_rep fuel n m X Q a _ b _ HS GA GB) as (z & EZ & TZ & GZ). rewrite EZ in E. injection E as <-. eexists. split; [exact GZ|]. intros i j Hi Hj. cbv beta.
    pose proof (ST (time s) _ P' HP' (H2 RK2 s1 _ P' E1 HG1 (gas_recovered _ _ _ _ _ _ _ HP')) i j Hi Hj) as A2. set (W := next_of cfg n m X Q (units_of cfg) (time s) P' _ dt i j) in *.
    pose proof (H1 P (gas_recovered _ _ _ _ _ _ _ HP) i j Hi Hj) as CA. destruct (gas_recovered _ _ _ _ _ _ _ HP i j Hi Hj) as [_ [RP _]].
    assert (UP : 0 < c0 (U i j)).
    { apply (Rmult_lt_reg_l k); [exact Hk|]. rewrite Rmult_0_r. eapply Rlt_le_trans; [|exact CA]. apply Rmult_lt_0_compat; [apply Rmult_lt_0_compat; [exact RP|apply lorentz_positive]|]. apply Rle_lt_trans with (2 := HR i j Hi Hj).
      pose proof (angles_ordered n m X Q SP ltac:(lia)) as PQ. pose proof (radii_positive n m X Q SP) as PX. destruct SP as (_ & HX & _ & _ & HQ). pose proof (PQ j ltac:(lia)). pose proof (PQ (j + 1)%Z ltac:(lia)). pose proof (HQ j Hj). pose proof (HX i Hi). pose proof (PX i ltac:(lia)).
      assert (cos (Q (j + 1)%Z) < cos (Q j)) by (apply cos_decreasing_1; lra). pose proof PI_RGT_0. assert (0 <= X (i + 1)%Z ^ 2 - X i ^ 2) by nra. unfold zone_area, cone_area.
      apply Rmult_le_pos; [lra|]. apply Rmult_le_pos; [lra|]. apply Rplus_le_le_0_compat; [apply Rplus_le_le_0_compat|]; (apply Rmult_le_pos; [apply Rmult_le_pos; nra|]); try lra; apply sin_ge_0; lra. }
    unfold plus5, times5. cbn [c0]. lra.
Qed.

(** The grid of the program leaves that room, with the default time step. *)
Lemma sine_above x : 0 < x <= PI / 2 -> x * cos x <= sin x.
Proof.
  intros [X0 X1]. destruct (MVT_cor2 sin cos 0 x X0 (fun c _ => derivable_pt_lim_sin c)) as (c & E & C0 & C1). rewrite sin_0 in E. assert (cos x <= cos c) by (apply cos_decr_1; lra). nra.
Qed.
Lemma side_bound a b : 0 <= a -> a < b -> b <= PI -> (b - a) * (sin a + sin b) <= 2 * (cos a - cos b).
Proof.
  intros A D B. set (h := (b - a) / 2). set (c := (a + b) / 2). assert (EA : a = c - h) by (unfold c, h; lra). assert (EB : b = c + h) by (unfold c, h; lra).
  assert (S : 0 <= sin c) by (apply sin_ge_0; unfold c; lra). pose proof (sine_above h ltac:(unfold h; lra)) as K. replace (b - a) with (2 * h) by (unfold h; lra). clearbody c h. subst a b. rewrite sin_minus, sin_plus, cos_minus, cos_plus.
  replace (2 * h * (sin c * cos h - cos c * sin h + (sin c * cos h + cos c * sin h))) with (4 * (sin c * (h * cos h))) by ring.
  replace (2 * (cos c * cos h + sin c * sin h - (cos c * cos h - sin c * sin h))) with (4 * (sin c * sin h)) by ring. apply Rmult_le_compat_l; [lra|]. apply Rmult_le_compat_l; assumption.
Qed.
Lemma ten_above m : (128 <= m)%nat -> 10 <= (1 + 2.324 / INR m) ^ m.
Proof.
  intros Hm. induction Hm as [|m Hm IH].
  - assert (E : 1 + 2.324 / INR 128 = 130.324 / 128) by (rewrite INR_IZR_INZ; cbn [Z.of_nat Pos.of_succ_nat Pos.succ]; lra). rewrite E.
    assert (Q : forall x k, (x ^ (2 * k) = (x * x) ^ k)) by (intros x k; rewrite pow_mult; f_equal; ring). set (x := 130.324 / 128).
    assert (S : forall y z k, 0 <= z -> z <= y * y -> 0 <= y -> z ^ k <= y ^ (2 * k)) by (intros y z k Z0 Z1 Y0; rewrite Q; apply pow_incr; lra).
    apply Rle_trans with (1.0366421 ^ 64); [|apply (S x 1.0366421 64%nat); unfold x; lra]. apply Rle_trans with (1.0746268 ^ 32); [|apply (S _ _ 32%nat); lra]. apply Rle_trans with (1.1548227 ^ 16); [|apply (S _ _ 16%nat); lra].
    apply Rle_trans with (1.3336154 ^ 8); [|apply (S _ _ 8%nat); lra]. apply Rle_trans with (1.77853 ^ 4); [|apply (S _ _ 4%nat); lra]. apply Rle_trans with (3.1631689 ^ 2); [|apply (S _ _ 2%nat); lra]. simpl. lra.
  - eapply Rle_trans; [exact IH|]. apply compound; [lra|lia].
Qed.
Lemma ratio_small m : (128 <= m)%Z -> Rpower 10 (/ IZR m) - 1 <= 2.324 / IZR m.
Proof.
  intros Hm. pose proof (ten_above (Z.to_nat m) ltac:(lia)) as T. rewrite INR_IZR_INZ, Z2Nat.id in T by lia. assert (M : 0 < IZR m) by (apply IZR_lt; lia). assert (P : 0 < 2.324 / IZR m) by (apply Rdiv_lt_0_compat; lra).
  rewrite <- Rpower_pow in T by lra. rewrite INR_IZR_INZ, Z2Nat.id in T by lia.
  assert (K : Rpower 10 (/ IZR m) <= Rpower (Rpower (1 + 2.324 / IZR m) (IZR m)) (/ IZR m)) by (apply Rle_Rpower_l; [left; apply Rinv_0_lt_compat, M|lra]).
  rewrite Rpower_mult, Rinv_r, Rpower_1 in K by lra. lra.
Qed.
Theorem program_grid_roomy D n m k c : (128 <= m)%Z -> (1 <= n)%Z -> D * IZR m = IZR n -> 0 < c <= 4 / 10 -> 0 < k <= 1004 / 1000 ->
  let X := log_radius D n in roomy k (c * (X 1%Z - X 0%Z)) n m X (even_angle m).
Proof.
  intros Hm Hn HD Hc Hk X. assert (M : 128 <= IZR m) by (apply IZR_le; lia). assert (N : 0 < IZR n) by (apply IZR_lt; lia). set (q := Rpower 10 (/ IZR m)).
  assert (XS : forall i, X (i + 1)%Z = X i * q). { intros i. unfold X. rewrite radius_ratio. f_equal. unfold q. f_equal. rewrite <- HD. assert (D <> 0) by (intros ->; lra). field. lra. }
  assert (X0 : X 0%Z = 1) by (unfold X, log_radius; rewrite Rmult_0_r; unfold Rdiv; rewrite Rmult_0_l; apply Rpower_O; lra). pose proof (XS 0%Z) as X1. change (0 + 1)%Z with 1%Z in X1. rewrite X0, Rmult_1_l in X1.
  pose proof (ratio_small m ltac:(lia)) as Q1. fold q in Q1. assert (Q0 : 1 < q). { unfold q. rewrite <- (Rpower_O 10) by lra. apply Rpower_lt; [lra|]. apply Rinv_0_lt_compat. lra. }
  assert (XG : forall i, (0 <= i)%Z -> 1 <= X i). { intros i Hi. unfold X, log_radius. rewrite <- (Rpower_O 10) by lra. apply Rle_Rpower; [lra|]. assert (0 <= IZR i) by (apply IZR_le; lia). assert (0 < D) by nra. apply Rmult_le_pos; [apply Rmult_le_pos; lra|left; apply Rinv_0_lt_compat; lra]. }
  intros i j Hi Hj. rewrite X0, X1. unfold zone_area, cone_area, cell_volume. rewrite (XS i). pose proof (XG i ltac:(lia)) as R1. set (r := X i) in *. pose proof PI_RGT_0 as PP. pose proof pi_lower as PL.
  assert (J : 0 <= IZR j /\ IZR j + 1 <= IZR m) by (split; [apply IZR_le; lia|]; rewrite <- plus_IZR; apply IZR_le; lia).
  set (a := even_angle m j). set (b := even_angle m (j + 1)). assert (DE : b - a = PI / IZR m) by (unfold a, b, even_angle; rewrite plus_IZR; field; lra).
  assert (DP : 0 < PI / IZR m) by (apply Rdiv_lt_0_compat; lra). assert (A0 : 0 <= a) by (unfold a, even_angle; apply Rmult_le_pos; [apply Rmult_le_pos; lra|left; apply Rinv_0_lt_compat; lra]).
  assert (B1 : b <= PI). { unfold b, even_angle. rewrite plus_IZR. apply (Rmult_le_reg_r (IZR m)); [lra|]. unfold Rdiv. rewrite Rmult_assoc, Rinv_l by lra. nra. }
  assert (CD : 0 < cos a - cos b). { assert (cos b < cos a) by (apply cos_decreasing_1; lra). lra. } set (dc := cos a - cos b) in *.
  pose proof (side_bound a b A0 ltac:(lra) B1) as SB. fold dc in SB. set (s := sin a + sin b) in *.
  assert (S0 : 0 <= s) by (apply Rplus_le_le_0_compat; apply sin_ge_0; lra).
  (* (q - 1) s <= 1.484 dc *)
  assert (SQ : (q - 1) * s <= 1.48405 * dc).
  { apply Rle_trans with (0.742025 * ((b - a) * s)); [|lra]. rewrite <- Rmult_assoc. apply Rmult_le_compat_r; [exact S0|]. rewrite DE. apply Rle_trans with (1 := Q1). unfold Rdiv. rewrite <- Rmult_assoc. apply Rmult_le_compat_r; [left; apply Rinv_0_lt_compat; lra|]. lra. }
  assert (QS : q - 1 <= 2.324 / 128). { apply Rle_trans with (1 := Q1). unfold Rdiv. apply Rmult_le_compat_l; [lra|]. apply Rinv_le_contravar; lra. }
  assert (MAIN : k * c * (2 * q ^ 2 * dc + (q + 1) * ((q - 1) * s)) < 2 / 3 * (1 + q + q ^ 2) * dc).
  { assert (KC : k * c <= 0.4016) by nra. assert (KC0 : 0 < k * c) by nra. apply Rle_lt_trans with (0.4016 * (2 * q ^ 2 * dc + (q + 1) * (1.48405 * dc))).
    - apply Rmult_le_compat; [lra| |exact KC|].
      + apply Rplus_le_le_0_compat; [apply Rmult_le_pos; nra|]. apply Rmult_le_pos; [lra|]. apply Rmult_le_pos; lra.
      + apply Rplus_le_compat_l. apply Rmult_le_compat_l; lra.
    - replace (0.4016 * (2 * q ^ 2 * dc + (q + 1) * (1.48405 * dc))) with (0.4016 * (2 * q ^ 2 + (q + 1) * 1.48405) * dc) by ring. apply Rmult_lt_compat_r; [exact CD|]. set (d := q - 1) in *. replace q with (1 + d) by (unfold d; ring). assert (0 < d) by (unfold d; lra). nra. }
  assert (R2 : 0 < PI * (q - 1) * r ^ 2) by (apply Rmult_lt_0_compat; [apply Rmult_lt_0_compat; lra|apply pow_lt; lra]).
  apply Rlt_le_trans with (PI * (q - 1) * r ^ 2 * (2 / 3 * (1 + q + q ^ 2) * dc)).
  - replace (k * (c * (q - 1) * (2 * PI * (r * q) ^ 2 * dc + PI * ((r * q) ^ 2 - r ^ 2) * sin a + PI * ((r * q) ^ 2 - r ^ 2) * sin b))) with (PI * (q - 1) * r ^ 2 * (k * c * (2 * q ^ 2 * dc + (q + 1) * ((q - 1) * s)))) by (unfold s; ring).
    apply Rmult_lt_compat_l; assumption.
  - replace (2 * PI / 3 * ((r * q) ^ 3 - r ^ 3) * dc) with (PI * (q - 1) * r ^ 2 * (2 / 3 * (1 + q + q ^ 2) * dc) * r) by field. rewrite <- (Rmult_1_r (PI * (q - 1) * r ^ 2 * (2 / 3 * (1 + q + q ^ 2) * dc))) at 1.
    apply Rmult_le_compat_l; [|exact R1]. apply Rmult_le_pos; [lra|]. apply Rmult_le_pos; [nra|lra].
Qed.

(** With the second reconstruction (the default) a cell of a gas can be left with less than nothing. *)
(** Dust of density one that moves with gamma-beta u. *)
Definition dust (u : R) : v5 := let W := sqrt (1 + u ^ 2) in V5 W (W * u) 0 0 (W * (W - 1)).
(** Inward in the first shell, at rest in the second, outward beyond. *)
Definition parting (A : R) (i : Z) : R := if (i =? 0)%Z then - A else if (i =? 1)%Z then 0 else A.
Definition parting_gas (A : R) (X Q : Z -> R) (i j : Z) : v5 := times5 (dust (parting A i)) (cell_volume X Q i j).

Lemma newton_once D tau SS g p k : newton (S k) D tau SS g p = let '(W, f, g') := newton_residual D tau SS g p in if Rlt_dec (Rabs f) 1e-10 then Some (W, p - f / g') else newton k D tau SS g (p - f / g').
Proof. reflexivity. Qed.
Lemma dust_recovered u floor : u ^ 2 <= 10 ^ 9 -> 0 < floor -> srhd_recover (dust u) gamma_law_index floor = Ok (Prim 1 (u * ((1 + u ^ 2) / (1 + u ^ 2 + floor))) 0 0 floor).
Proof.
  intros Hu Hf. unfold dust. cbv zeta. set (W := sqrt (1 + u ^ 2)). assert (U0 : 0 <= u ^ 2) by nra. assert (WW : W * W = 1 + u ^ 2) by (apply sqrt_sqrt; lra). assert (WP : 0 < W) by (apply sqrt_lt_R0; lra).
  unfold srhd_recover. change 50%nat with (S 49). generalize 49%nat. intros fuel49. cbn [c0 c1 c2 c3 c4]. rewrite newton_once. unfold newton_residual. replace (W * (W - 1) + W + 0) with (W * W) by ring. replace (W * u * (W * u) + 0 * 0 + 0 * 0) with ((W * W) * (u * u)) by ring.
  replace (W * W * (u * u) / (W * W) ^ 2) with (u ^ 2 / (1 + u ^ 2)) by (rewrite <- WW; field; lra).
  assert (EM : smin (u ^ 2 / (1 + u ^ 2)) (1 - 1e-10) = u ^ 2 / (1 + u ^ 2)).
  { assert (K : u ^ 2 / (1 + u ^ 2) <= 1 - 1e-10); [|unfold smin; destruct (Rlt_dec _ _); lra]. apply (Rmult_le_reg_r (1 + u ^ 2)); [lra|]. unfold Rdiv. rewrite Rmult_assoc, Rinv_l, Rmult_1_r by lra. lra. }
  rewrite EM. replace (1 / (1 - u ^ 2 / (1 + u ^ 2))) with (W * W) by (rewrite WW; field; lra). rewrite sqrt_square by lra. cbv beta iota zeta.
  replace ((W * (W - 1) + W * (1 - W) + 0 * (1 - W * W)) / (W * W)) with 0 by (field; lra). replace (W / W * 0 * (gamma_law_index - 1) - 0) with 0 by ring. rewrite Rabs_R0. destruct (Rlt_dec 0 1e-10) as [_|N]; [|lra].
  match goal with |- context [0 - 0 / ?x] => replace (0 - 0 / x) with 0 by (unfold Rdiv; ring) end. destruct (Rlt_dec 0 floor) as [_|N]; [|lra].
  replace (floor * W / W) with floor by (field; lra). assert (EX : smax 0 floor = floor) by (unfold smax; destruct (Rlt_dec 0 floor); lra). rewrite EX. cbn [rho pre].
  replace (W / W) with 1 by (field; lra). destruct (Rle_dec 1 0); [lra|]. destruct (Rle_dec floor 0); [lra|]. f_equal. replace (W * (W - 1) + W + floor) with (W * W + floor) by ring. rewrite WW. f_equal.
  - rewrite <- WW. field. rewrite WW. lra.
  - unfold Rdiv. ring.
  - unfold Rdiv. ring.
Qed.
Lemma speeds_mirrored d u p : srhd_wavespeeds (Prim d (- u) 0 0 p) (CloudModel.on_axis 0) gamma_law_index =
  (- snd (srhd_wavespeeds (Prim d u 0 0 p) (CloudModel.on_axis 0) gamma_law_index), - fst (srhd_wavespeeds (Prim d u 0 0 p) (CloudModel.on_axis 0) gamma_law_index)).
Proof.
  assert (G : gamma_beta_squared (Prim d (- u) 0 0 p) = gamma_beta_squared (Prim d u 0 0 p)) by (unfold gamma_beta_squared; cbn; ring).
  assert (B : beta_along (Prim d (- u) 0 0 p) (CloudModel.on_axis 0) = - beta_along (Prim d u 0 0 p) (CloudModel.on_axis 0)) by (unfold beta_along, lorentz_factor, project; rewrite G; cbn; unfold Rdiv; ring).
  unfold srhd_wavespeeds. rewrite G, B. replace (srhd_sound_speed_squared (Prim d (- u) 0 0 p) gamma_law_index) with (srhd_sound_speed_squared (Prim d u 0 0 p) gamma_law_index) by reflexivity. cbn [fst snd].
  set (b := beta_along _ _). replace (- b * - b) with (b * b) by ring. f_equal; unfold Rdiv; ring.
Qed.
Lemma fast_outgoing u p : 1 <= u -> 0 < p <= 1 -> outgoing (Prim 1 u 0 0 p).
Proof.
  intros Hu Hp. split; [split; cbn; lra|]. cbn [rho u1 pre]. split; [lra|]. assert (K : 0 <= 4 / 3 * p / (1 + 4 * p) <= 1 / 3).
  { split; [apply Rmult_le_pos; [lra|left; apply Rinv_0_lt_compat; lra]|]. apply (Rmult_le_reg_r (1 + 4 * p)); [lra|]. unfold Rdiv at 1. rewrite Rmult_assoc, Rinv_l by lra. lra. }
  cbv zeta. set (c := 4 / 3 * p / (1 + 4 * p)) in *. nra.
Qed.
Lemma gas_relativistic d u p : 0 < d -> 0 < p -> relativistic (Prim d u 0 0 p) gamma_law_index. Proof. intros. unfold relativistic, gamma_law_index. cbn. lra. Qed.
Lemma mass_flux_value d u p : c0 (srhd_physical_flux (Prim d u 0 0 p) (CloudModel.on_axis 0) gamma_law_index) = d * u.
Proof.
  unfold srhd_physical_flux, srhd_flux, flux5, srhd_conserved, beta_along, project. cbn [c0 rho u1 u2 u3 CloudModel.on_axis n1 n2 n3 make_unit_vector]. pose proof (lorentz_positive (Prim d u 0 0 p)). field. lra.
Qed.
Lemma outward_flux u v p : 1 <= u -> 1 <= v -> 0 < p <= 1 -> c0 (srhd_hlle (Prim 1 u 0 0 p) (Prim 1 v 0 0 p) (CloudModel.on_axis 0) gamma_law_index) = u.
Proof.
  intros Hu Hv Hp. pose proof (outgoing_speeds _ (fast_outgoing u p Hu Hp)) as [A _]. pose proof (outgoing_speeds _ (fast_outgoing v p Hv Hp)) as [B _].
  rewrite (proj1 (srhd_hlle_upwind _ _ _ _ (gas_relativistic 1 u p ltac:(lra) ltac:(lra)) (gas_relativistic 1 v p ltac:(lra) ltac:(lra)) (axis_norm 0)) A B), mass_flux_value. ring.
Qed.
Lemma inward_flux u v p : 1 <= u -> 1 <= v -> 0 < p <= 1 -> c0 (srhd_hlle (Prim 1 (- u) 0 0 p) (Prim 1 (- v) 0 0 p) (CloudModel.on_axis 0) gamma_law_index) = - v.
Proof.
  intros Hu Hv Hp. pose proof (outgoing_speeds _ (fast_outgoing u p Hu Hp)) as [A _]. pose proof (outgoing_speeds _ (fast_outgoing v p Hv Hp)) as [B _].
  assert (A' : snd (srhd_wavespeeds (Prim 1 (- u) 0 0 p) (CloudModel.on_axis 0) gamma_law_index) <= 0) by (rewrite speeds_mirrored; cbn [snd]; change (make_unit_vector 1 0 0) with (CloudModel.on_axis 0) in A; unfold gamma_law_index; lra).
  assert (B' : snd (srhd_wavespeeds (Prim 1 (- v) 0 0 p) (CloudModel.on_axis 0) gamma_law_index) <= 0) by (rewrite speeds_mirrored; cbn [snd]; change (make_unit_vector 1 0 0) with (CloudModel.on_axis 0) in B; unfold gamma_law_index; lra).
  rewrite (proj2 (srhd_hlle_upwind _ _ _ _ (gas_relativistic 1 (- u) p ltac:(lra) ltac:(lra)) (gas_relativistic 1 (- v) p ltac:(lra) ltac:(lra)) (axis_norm 0)) A' B'), mass_flux_value. ring.
Qed.
Lemma steep_gradient theta B : 1 <= theta -> 0 < B -> estimate_gradient theta (- B) 0 B = B.
Proof.
  intros Ht HB. unfold estimate_gradient, plm_gradient. cbv zeta. replace ((0 - - B) * theta) with (B * theta) by ring. replace ((B - - B) * 0.5) with B by lra. replace ((B - 0) * theta) with (B * theta) by ring. assert (K : B <= B * theta) by nra.
  assert (S1 : sgn false (B * theta) = 1) by (unfold sgn; repeat destruct (Rlt_dec _ _); lra). assert (S2 : sgn false B = 1) by (unfold sgn; repeat destruct (Rlt_dec _ _); lra). rewrite S1, S2.
  assert (M : minabs (B * theta) B (B * theta) = B) by (unfold minabs; rewrite !Rabs_pos_eq by lra; unfold Rmin; repeat destruct (Rle_dec _ _); lra). rewrite M, Rabs_pos_eq by lra. lra.
Qed.
Lemma low_gradient theta a B : 1 <= theta <= 2 -> 0 <= a -> 0 < B -> estimate_gradient theta a (- B) 0 = 0.
Proof. intros Ht Ha HB. unfold estimate_gradient. apply plm_zero_at_extrema; try lra. Qed.
Lemma newton_lorentz D tau SS g f : forall p0 W p, newton f D tau SS g p0 = Some (W, p) -> 0 <= W.
Proof.
  induction f as [|f IH]; intros p0 W p EN; [discriminate|]. rewrite newton_once in EN. unfold newton_residual in EN. cbv beta iota zeta in EN. destruct (Rlt_dec _ _) in EN; [|exact (IH _ _ _ EN)]. injection EN as <- _. apply sqrt_pos.
Qed.
(** A state with nothing in it is not a state. *)
Lemma empty_not_recovered U g floor P : c0 U < 0 -> srhd_recover U g floor <> Ok P.
Proof.
  intros H E. unfold srhd_recover in E. destruct (newton 50 (c0 U) (c4 U) (c1 U * c1 U + c2 U * c2 U + c3 U * c3 U) g 0) as [[W p]|] eqn:EN; [|discriminate].
  pose proof (newton_lorentz _ _ _ _ _ _ _ _ EN) as WP.
  cbv zeta in E. cbn [rho] in E. destruct (Rle_dec (c0 U / W) 0) as [_|N]; [discriminate|]. apply N. destruct WP as [WP| <-]; [|unfold Rdiv; rewrite Rinv_0; lra]. assert (0 < / W) by (apply Rinv_0_lt_compat, WP). unfold Rdiv. nra.
Qed.
Lemma volume_positive n m X Q i j : spherical n m X Q -> (0 <= i < n)%Z -> (0 <= j < m)%Z -> 0 < cell_volume X Q i j.
Proof.
  intros SP Hi Hj. pose proof (angles_ordered n m X Q SP ltac:(lia)) as PQ. pose proof (radii_positive n m X Q SP) as PX. destruct SP as (_ & HX & _ & _ & HQ). pose proof (PQ j ltac:(lia)). pose proof (PQ (j + 1)%Z ltac:(lia)). pose proof (HQ j Hj). pose proof (HX i Hi). pose proof (PX i ltac:(lia)).
  assert (cos (Q (j + 1)%Z) < cos (Q j)) by (apply cos_decreasing_1; lra). pose proof PI_RGT_0. assert (X i ^ 3 < X (i + 1)%Z ^ 3). { set (a := X i) in *. set (b := X (i + 1)%Z) in *. replace (b ^ 3) with (a ^ 3 + (b - a) * (a * a + a * b + b * b)) by ring. assert (0 < (b - a) * (a * a + a * b + b * b)) by (apply Rmult_lt_0_compat; nra). lra. }
  unfold cell_volume. apply Rmult_lt_0_compat; [|lra]. apply Rmult_lt_0_compat; lra.
Qed.
Theorem plm_empties_cell_refuted cfg fuel n m X Q t : good_cloud cfg -> JetProps.good (jet_of cfg) -> sizes fuel n m -> reconstruct_method cfg = 2%Z -> rk_order cfg = 1%Z -> 1 <= plm_theta cfg <= 2 -> 0 < temperature_floor cfg <= 1 ->
  1 / 1000 <= cfl cfg -> (3 <= n)%Z -> (3 <= m)%Z -> spherical n m X Q -> X 2%Z - X 1%Z <= 2 * (X 1%Z - X 0%Z) ->
  exists s U P s' U', time s = t /\ on_grid s n m X Q U /\ gas_of cfg n m X Q U P /\ carries 1 n m X Q U P /\ next_solution cfg fuel s = Ok s' /\ on_grid s' n m X Q U' /\
    (forall j, (0 <= j < m)%Z -> c0 (U' 1%Z j) < 0) /\ forall s'', next_solution cfg fuel s' <> Ok s''.
Proof.
  intros G J HS RM RK TH FL HC Hn Hm SP GR. destruct (sizes_fit _ _ _ HS) as (HB & _). pose proof (reference_units cfg G) as RU. assert (HM : method_ok cfg m) by (right; lia).
  set (A := 10000). set (U := parting_gas A X Q). set (fl := temperature_floor cfg) in *. set (v (u : R) := u * ((1 + u ^ 2) / (1 + u ^ 2 + fl))).
  set (P := fun i (_ : Z) => Prim 1 (v (parting A i)) 0 0 fl). set (s := Solution t (vector (n + 1) X) (vector (m + 1) Q) (table n m U)).
  assert (HU : on_grid s n m X Q U) by (split; [apply vector_rep|]; split; [apply vector_rep|]; apply table_grid).
  assert (PA : forall i, parting A i ^ 2 <= 10 ^ 9) by (intros i; unfold parting, A; destruct (i =? 0)%Z, (i =? 1)%Z; lra).
  assert (HP : recovered cfg n m X Q U P).
  { intros i j Hi Hj. rewrite volume_spec. pose proof (volume_positive n m X Q i j SP Hi Hj) as V. unfold U, parting_gas. replace (over5 (times5 (dust (parting A i)) (cell_volume X Q i j)) (cell_volume X Q i j)) with (dust (parting A i)) by (unfold over5, times5, dust; cbn; f_equal; field; lra).
    fold fl. rewrite dust_recovered by (try apply PA; lra). reflexivity. }
  assert (CA : carries 1 n m X Q U P).
  { intros i j Hi Hj. pose proof (volume_positive n m X Q i j SP Hi Hj) as V. unfold U, parting_gas, times5, dust. cbv zeta. cbn [c0 P rho]. rewrite !Rmult_1_l. apply Rmult_le_compat_r; [lra|]. unfold lorentz_factor, gamma_beta_squared. cbn [P u1 u2 u3]. apply sqrt_le_1_alt. unfold v. set (u := parting A i). assert (U0 : 0 <= u ^ 2) by nra.
    assert (K : 0 <= (1 + u ^ 2) / (1 + u ^ 2 + fl) <= 1). { split; [apply Rmult_le_pos; [lra|left; apply Rinv_0_lt_compat; lra]|]. apply (Rmult_le_reg_r (1 + u ^ 2 + fl)); [lra|]. unfold Rdiv. rewrite Rmult_assoc, Rinv_l by lra. lra. }
    set (x := (1 + u ^ 2) / (1 + u ^ 2 + fl)) in *. assert (x * x <= 1) by nra. nra. }
  pose proof (gas_recovered cfg n m X Q U P HP) as GP. set (B := v A).
  assert (BB : A / 2 <= B). { unfold B, v, A. apply (Rmult_le_reg_r (1 + 10000 ^ 2 + fl)); [lra|]. unfold Rdiv. replace (10000 * ((1 + 10000 ^ 2) * / (1 + 10000 ^ 2 + fl)) * (1 + 10000 ^ 2 + fl)) with (10000 * (1 + 10000 ^ 2)) by (field; lra). lra. }
  assert (V0 : v 0 = 0) by (unfold v; ring). assert (VM : v (- A) = - B) by (unfold B, v, Rdiv; replace ((- A) ^ 2) with (A ^ 2) by ring; ring).
  assert (P0 : forall j, P 0%Z j = Prim 1 (- B) 0 0 fl) by (intros j; unfold P, parting; cbn [Z.eqb]; rewrite VM; reflexivity).
  assert (P1 : forall j, P 1%Z j = Prim 1 0 0 0 fl) by (intros j; unfold P, parting; cbn [Z.eqb Pos.eqb]; rewrite V0; reflexivity).
  assert (P2 : forall i j, (2 <= i)%Z -> P i j = Prim 1 B 0 0 fl) by (intros i j Hi; unfold P, parting; destruct (Z.eqb_spec i 0), (Z.eqb_spec i 1); try lia; reflexivity).
  destruct (advance_value cfg fuel n m X Q (units_of cfg) t P U (step_of cfg X) s s HS HM RU (proj1 (proj2 HU)) eq_refl (proj1 HU) (proj1 (proj2 HU)) (proj2 (proj2 HU)) HP) as (u & E & R).
  set (s' := Solution (time s + step_of cfg X) (radial_vertices s) (polar_vertices s) u) in *. set (U' := next_of cfg n m X Q (units_of cfg) t P U (step_of cfg X)) in *.
  assert (HU' : on_grid s' n m X Q U') by (split; [apply vector_rep|]; split; [apply vector_rep|]; exact R).
  assert (NEG : forall j, (0 <= j < m)%Z -> c0 (U' 1%Z j) < 0).
  { intros j Hj. set (L := extended cfg n Q (units_of cfg) t P j). assert (BP : 2 <= B) by (unfold A in BB; lra).
    assert (L0 : 0 <= u1 (L 0%Z)). { unfold L, extended. cbn [Z.ltb Z.compare]. unfold nozzle, inflow. cbn [u1]. pose proof J as (_ & GG & _). apply Rplus_le_le_0_compat; left; apply gamma_beta_positive; exact GG. }
    assert (LZ : u2 (L 0%Z) = 0 /\ u3 (L 0%Z) = 0) by (split; reflexivity).
    assert (L1 : L 1%Z = Prim 1 (- B) 0 0 fl) by (unfold L, extended; destruct (Z.ltb_spec 1 1), (Z.ltb_spec 1 (n + 1)); try lia; apply P0).
    assert (L2 : L 2%Z = Prim 1 0 0 0 fl) by (unfold L, extended; destruct (Z.ltb_spec 2 1), (Z.ltb_spec 2 (n + 1)); try lia; apply P1).
    assert (L3 : L 3%Z = Prim 1 B 0 0 fl) by (unfold L, extended; destruct (Z.ltb_spec 3 1), (Z.ltb_spec 3 (n + 1)); try lia; apply P2; lia).
    assert (L4 : L 4%Z = Prim 1 B 0 0 fl) by (unfold L, extended; destruct (Z.ltb_spec 4 1), (Z.ltb_spec 4 (n + 1)); try lia; apply P2; lia).
    assert (IN : forall k, (1 <= k <= 3)%Z -> ((k =? 0) || (k =? n + 2 - 1) = false)%Z) by (intros k Hk; destruct (Z.eqb_spec k 0), (Z.eqb_spec k (n + 2 - 1)); try lia; reflexivity).
    assert (G1 : line_gradient (plm_theta cfg) L (n + 2) 1 = zero_prim).
    { unfold line_gradient. rewrite IN by lia. change (1 - 1)%Z with 0%Z. change (1 + 1)%Z with 2%Z. rewrite L1, L2. unfold lift3. cbn [rho u1 u2 u3 pre]. rewrite !gradient_flat, low_gradient by lra. reflexivity. }
    assert (G2 : line_gradient (plm_theta cfg) L (n + 2) 2 = Prim 0 B 0 0 0).
    { unfold line_gradient. rewrite IN by lia. change (2 - 1)%Z with 1%Z. change (1 + 2)%Z with 3%Z. rewrite L1, L2, L3. unfold lift3. cbn [rho u1 u2 u3 pre]. rewrite !gradient_flat, steep_gradient by lra. reflexivity. }
    assert (G3 : line_gradient (plm_theta cfg) L (n + 2) 3 = zero_prim).
    { unfold line_gradient. rewrite IN by lia. change (3 - 1)%Z with 2%Z. change (1 + 3)%Z with 4%Z. rewrite L2, L3, L4. unfold lift3. cbn [rho u1 u2 u3 pre]. rewrite !gradient_flat. reflexivity. }
    assert (F1 : c0 (flux_r cfg n Q (units_of cfg) t P 1 j) = - (B / 2)).
    { unfold flux_r. fold L. unfold face_states. rewrite RM. cbn [Z.eqb Pos.eqb]. unfold plm_states. change (1 + 1)%Z with 2%Z. rewrite G1, G2, L1, L2. rewrite <- (inward_flux B (B / 2) fl) by lra. f_equal. f_equal; unfold prim_plus, prim_minus, prim_times, zero_prim; cbn [rho u1 u2 u3 pre]; f_equal; lra. }
    assert (F2 : c0 (flux_r cfg n Q (units_of cfg) t P 2 j) = B / 2).
    { unfold flux_r. fold L. unfold face_states. rewrite RM. cbn [Z.eqb Pos.eqb]. unfold plm_states. change (1 + 2)%Z with 3%Z. rewrite G2, G3, L2, L3. rewrite <- (outward_flux (B / 2) B fl) by lra. f_equal. f_equal; unfold prim_plus, prim_minus, prim_times, zero_prim; cbn [rho u1 u2 u3 pre]; f_equal; lra. }
    assert (FQ : forall k, (0 <= k <= m)%Z -> c0 (flux_q cfg m P 1 k) = 0).
    { intros k Hk. unfold flux_q. destruct (Z.eqb_spec k 0); [reflexivity|]. destruct (Z.eqb_spec k m); [reflexivity|]. cbn [orb]. rewrite (uniform_face cfg (P 1%Z) m (k - 1) (Prim 1 0 0 0 fl)); [|right; exact RM|lia|intros; apply P1]. rewrite resting_flux by (try lra; right; reflexivity). reflexivity. }
    unfold U', next_of, rate_of, plus5, times5, minus5. cbn [c0]. change (1 + 1)%Z with 2%Z. rewrite F1, F2, !FQ by lia. replace (c0 (source_of X Q P 1 j)) with 0 by reflexivity. rewrite !area_spec.
    assert (UV : c0 (U 1%Z j) = cell_volume X Q 1 j). { unfold U, parting_gas, times5, dust, parting. cbv zeta. cbn [Z.eqb Pos.eqb c0]. replace (1 + 0 ^ 2) with 1 by ring. rewrite sqrt_1. ring. } rewrite UV.
    pose proof (angles_ordered n m X Q SP ltac:(lia)) as PQ. pose proof (radii_positive n m X Q SP) as PX. pose proof (PX 1%Z ltac:(lia)) as X1. pose proof (PX 2%Z ltac:(lia)) as X2. destruct SP as (_ & HX & _ & _ & HQ). pose proof (HX 0%Z ltac:(lia)) as D0. pose proof (HX 1%Z ltac:(lia)) as D1. change (0 + 1)%Z with 1%Z in D0. change (1 + 1)%Z with 2%Z in D1.
    pose proof (PQ j ltac:(lia)). pose proof (PQ (j + 1)%Z ltac:(lia)). pose proof (HQ j Hj). assert (CC : cos (Q (j + 1)%Z) < cos (Q j)) by (apply cos_decreasing_1; lra). pose proof PI_RGT_0 as PP.
    unfold zone_area, cell_volume, step_of. change (1 + 1)%Z with 2%Z. set (a := X 0%Z) in *. set (b := X 1%Z) in *. set (d := X 2%Z) in *. set (dc := cos (Q j) - cos (Q (j + 1)%Z)). assert (DC : 0 < dc) by (unfold dc; lra).
    match goal with |- ?x < 0 => replace x with (PI * dc * (2 / 3 * (d ^ 3 - b ^ 3) - cfl cfg * B * ((b - a) * (b ^ 2 + d ^ 2)))) by field end.
    assert (2 / 3 * (d ^ 3 - b ^ 3) - cfl cfg * B * ((b - a) * (b ^ 2 + d ^ 2)) < 0).
    { assert (K1 : 2 / 3 * (d ^ 3 - b ^ 3) <= (d - b) * (b ^ 2 + d ^ 2)). { assert (0 <= (d - b) * (d - b) ^ 2) by (apply Rmult_le_pos; nra). nra. }
      assert (SQ : 0 < b ^ 2 + d ^ 2) by nra. assert (K2 : (d - b) * (b ^ 2 + d ^ 2) <= 2 * (b - a) * (b ^ 2 + d ^ 2)) by (apply Rmult_le_compat_r; lra).
      assert (K3 : 4 <= cfl cfg * B) by (unfold A in BB; nra). assert (K4 : 0 < (b - a) * (b ^ 2 + d ^ 2)) by (apply Rmult_lt_0_compat; lra). nra. }
    assert (0 < PI * dc) by (apply Rmult_lt_0_compat; lra). nra. }
  exists s, U, P, s', U'. split; [reflexivity|]. split; [exact HU|]. split; [exact GP|]. split; [exact CA|]. split.
  { unfold next_solution. rewrite (time_step_value cfg n m X Q s U ltac:(lia) ltac:(lia) HU). cbn [bind]. rewrite RK. cbn [Z.eqb Pos.eqb]. exact E. }
  split; [exact HU'|]. split; [exact NEG|]. intros s'' E'. unfold next_solution in E'. rewrite (time_step_value cfg n m X Q s' U' ltac:(lia) ltac:(lia) HU') in E'. cbn [bind] in E'. rewrite RK in E'. cbn [Z.eqb Pos.eqb] in E'.
  destruct (advance_recovers cfg fuel n m X Q s' s' _ s'' U' HS (proj1 HU') (proj1 (proj2 HU')) (proj2 (proj2 HU')) E') as [[P' HP'] _].
  assert (NEG1 : c0 (over5 (U' 1%Z 0%Z) (vol X Q 1 0)) < 0). { rewrite volume_spec. pose proof (volume_positive n m X Q 1 0 SP ltac:(lia) ltac:(lia)) as V. pose proof (NEG 0%Z ltac:(lia)) as K. unfold over5. cbn [c0]. assert (0 < / cell_volume X Q 1 0) by (apply Rinv_0_lt_compat, V). unfold Rdiv. nra. }
  apply (empty_not_recovered _ _ _ _ NEG1 (HP' 1%Z 0%Z ltac:(lia) ltac:(lia))).
Qed.
(** The program's own grid at the default time step: nothing is emptied with the first reconstruction as long as the
    recovered states overstate the mass of no cell by more than four parts in a thousand. *)
Theorem program_keeps_mass cfg fuel n s s' U : good_cloud cfg -> JetProps.good (jet_of cfg) -> sizes fuel n (nr cfg) -> (128 <= nr cfg)%Z -> 0 < num_decades cfg -> num_decades cfg * IZR (nr cfg) = IZR n ->
  reconstruct_method cfg = 1%Z -> rk_order cfg = 1%Z -> 0 < cfl cfg <= 4 / 10 -> let X := log_radius (num_decades cfg) n in let Q := even_angle (nr cfg) in on_grid s n (nr cfg) X Q U ->
  (forall P, gas_of cfg n (nr cfg) X Q U P -> carries (1004 / 1000) n (nr cfg) X Q U P) -> next_solution cfg fuel s = Ok s' ->
  exists U', on_grid s' n (nr cfg) X Q U' /\ forall i j, (0 <= i < n)%Z -> (0 <= j < nr cfg)%Z -> 0 < c0 (U' i j).
Proof.
  intros G J HS Hm HD HN RM RK HC X Q HU HK E. pose proof HS as (Hn & _). assert (M : 0 < IZR (nr cfg)) by (apply IZR_lt; lia). pose proof PI_RGT_0 as PP.
  assert (SP : spherical n (nr cfg) X Q).
  { split; [apply radius_positive|]. split. { intros i Hi. unfold X. rewrite radius_ratio. pose proof (ratio_above_one (num_decades cfg) n HD Hn). pose proof (radius_positive (num_decades cfg) n i). nra. }
    split; [unfold Q, even_angle; field; lra|]. split; [unfold Q, even_angle; field; lra|]. intros j Hj. assert (K : Q (j + 1)%Z - Q j = PI / IZR (nr cfg)) by (unfold Q, even_angle; rewrite plus_IZR; field; lra). assert (0 < PI / IZR (nr cfg)) by (apply Rdiv_lt_0_compat; lra). lra. }
  apply (cells_keep_mass cfg fuel n (nr cfg) X Q (1004 / 1000) s s' U); try assumption; try lra; try lia. apply program_grid_roomy; try assumption; try lia; lra.
Qed.

(** *** Examples *)
(** Two shells between 1, 2 and 3 and two zones, gas at rest: every cell still holds something after a step. *)
Example cells_keep_mass_example : exists s' U', next_solution demo 12 (Solution 0 (vector 3 demo_X) (vector 3 demo_Q) (table 2 2 (resting 1 1 demo_X demo_Q))) = Ok s' /\ on_grid s' 2 2 demo_X demo_Q U' /\
  forall i j, (0 <= i < 2)%Z -> (0 <= j < 2)%Z -> 0 < c0 (U' i j).
Proof.
  assert (SP : spherical 2 2 demo_X demo_Q). { unfold spherical, demo_X, demo_Q. pose proof PI_RGT_0. repeat split; try (cbn [Z.add Pos.add]; lra); intros k Hk; rewrite ?plus_IZR; try lra. }
  assert (HS : sizes 12 2 2) by (unfold sizes; lia). set (s := Solution 0 _ _ _). assert (HU : on_grid s 2 2 demo_X demo_Q (resting 1 1 demo_X demo_Q)) by (split; [apply vector_rep|]; split; [apply vector_rep|]; apply table_grid).
  destruct cloud_still_example as (s' & U' & E & _). fold s in E. exists s'. pose proof PI_RGT_0 as PP.
  destruct (cells_keep_mass demo 12 2 2 demo_X demo_Q 1 s s' (resting 1 1 demo_X demo_Q)) as (V & GV & HV); try assumption; try apply demo_good; try reflexivity; try lra; try lia.
  - cbn [cfl demo]. lra.
  - intros i j Hi Hj. unfold zone_area, cone_area, cell_volume, demo_X, demo_Q. cbn [cfl demo Z.add].
    assert (I : i = 0%Z \/ i = 1%Z) by lia. assert (K : j = 0%Z \/ j = 1%Z) by lia. destruct I as [-> | ->], K as [-> | ->]; cbn [Z.add Pos.add];
      replace (0 * (PI / 2)) with 0 by ring; replace (1 * (PI / 2)) with (PI / 2) by ring; replace (2 * (PI / 2)) with PI by field; rewrite ?cos_0, ?sin_0, ?cos_PI2, ?sin_PI2, ?cos_PI, ?sin_PI; lra.
  - intros P GP i j Hi Hj. destruct (GP i j Hi Hj) as [R _]. pose proof (volume_positive 2 2 demo_X demo_Q i j SP Hi Hj) as VP.
    assert (AE : average_density demo_X demo_Q (resting 1 1 demo_X demo_Q) i j = srhd_conserved (Prim 1 0 0 0 1) (4 / 3)).
    { rewrite <- density_spec, volume_spec. unfold resting. fold (cell_volume demo_X demo_Q i j). generalize (srhd_conserved (Prim 1 0 0 0 1) (4 / 3)). intros [a b c d e]. unfold over5, times5. cbn [c0 c1 c2 c3 c4]. f_equal; field; lra. }
    rewrite AE, recover_static_exact in R by (try reflexivity; try (unfold relativistic; cbn; lra); cbn; lra). injection R as <-. unfold resting, times5. fold (cell_volume demo_X demo_Q i j). cbn [c0 srhd_conserved rho]. lra.
  - intros K. discriminate K.
  - exists V. split; [exact E|]. split; [exact GV|exact HV].
Qed.
(** Three shells between 1, 2, 3 and 4 and three zones with the default settings: some gas is more than swept out of a
    cell in a step, and the step after that fails. *)
Definition usual : config := Config 3 1 300000000 30000000000 (1 / 50) 2 6 1 (10 ^ 50) 1 (1 / 8) (1 / 10) 2 (4 / 10) 1 2 (12 / 10) (1 / 100000000).
Definition thirds (k : Z) : R := IZR k * (PI / 3).
Example plm_empties_example : exists s U P s' U', on_grid s 3 3 demo_X thirds U /\ gas_of usual 3 3 demo_X thirds U P /\ next_solution usual 20 s = Ok s' /\ on_grid s' 3 3 demo_X thirds U' /\ c0 (U' 1%Z 0%Z) < 0 /\ forall s'', next_solution usual 20 s' <> Ok s''.
Proof.
  assert (SP : spherical 3 3 demo_X thirds). { unfold spherical, demo_X, thirds. pose proof PI_RGT_0. repeat split; try (cbn [Z.add Pos.add]; lra); intros k Hk; rewrite ?plus_IZR; try lra. }
  assert (GD : good_cloud usual /\ JetProps.good (jet_of usual)).
  { unfold good_cloud, JetProps.good, usual, jet_of. cbn [inner_radius cloud_cutoff density_index density_index2 cloud_mass JetModel.Ej JetModel.G0 JetModel.tj JetModel.qj JetModel.r0 jet_total_energy jet_gamma_beta jet_duration jet_opening_angle]. assert (0 < 10 ^ 50) by (apply pow_lt; lra). repeat split; lra. }
  destruct (plm_empties_cell_refuted usual 20 3 3 demo_X thirds 0) as (s & U & P & s' & U' & _ & A & B & _ & C & D & E & F); try apply GD; try reflexivity; try lia; try assumption; try (cbn [plm_theta temperature_floor cfl usual]; lra).
  - unfold sizes. lia.
  - unfold demo_X. cbn [Z.add Pos.add]. lra.
  - exists s, U, P, s', U'. repeat (split; [assumption|]). split; [apply E; lia|exact F].
Qed.
Print Assumptions cells_keep_mass.
Print Assumptions program_grid_roomy.
Print Assumptions program_keeps_mass.
Print Assumptions plm_empties_cell_refuted.
