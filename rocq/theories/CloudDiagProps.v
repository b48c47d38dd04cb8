(** C95: the diagnostics of the cloud program (src/subprog_cloud.cpp 334-435). *)
From Coq Require Import ZArith Reals List Lia Lra Bool.
From Verif Require Import Base NdModel NdSpec NdProofs NdOpsModel NdOpsProofs NdOpsProofs2 DimensionalModel HydroModel HlleProofs SrhdProps SrhdRecoverProps PlmModel SedovModel Rep1Proofs SedovProofs SedovProps Rep2Proofs CloudModel CloudProofs CloudProofs2 CloudProps CloudSetupProps ShockModel ShockProps CloudDiagModel.
From Verif Require TreeNameProofs.
Import ListNotations.
Open Scope R_scope.

(** *** Statements *)
(** Energies in erg are multiples of the rest energy of the cloud, powers are that energy per light crossing time of the
    inner radius. *)
Definition cgs_energy (c : config) : R := cloud_mass c * (1989 * 10 ^ 30) * 29980000000 ^ 2.
Definition cgs_power (c : config) : R := cgs_energy c / (inner_radius c / 29980000000).
Definition entropy (P : prim) : R := ln (pre P / Rpower (rho P) (4 / 3)).
(** The power that crosses the middle of the shell i within the zone j: the flux of the shell times the mean area of its faces. *)
Definition zone_power (c : config) (X Q : Z -> R) (P : Z -> Z -> prim) (i j : Z) : R :=
  srhd_energy_flux (P i j) * ((zone_area X Q i j + zone_area X Q (i + 1) j) / 2) * cgs_power c.
(** The first of the steepest entropy drops from one shell to the next. *)
Definition steepest_drop (n : Z) (S : Z -> R) (i : Z) : Prop :=
  (0 <= i < n - 1)%Z /\ (forall k, (0 <= k < n - 1)%Z -> S (i + 1)%Z - S i <= S (k + 1)%Z - S k) /\ (forall k, (0 <= k < i)%Z -> S (i + 1)%Z - S i < S (k + 1)%Z - S k).
(** The end of the climb inward from i. *)
Definition climbs_to (Y : Z -> R) (i r : Z) : Prop := (0 <= r <= i)%Z /\ (forall k, (r < k <= i)%Z -> Y k < Y (k - 1)%Z) /\ (r = 0%Z \/ Y (r - 1)%Z <= Y r).
(** The first shell at or beyond i where the logarithmic pressure slope has halved; shell 0 when there is none or when i < 2. *)
Definition plateau (n : Z) (p : Z -> R) (i u : Z) : Prop :=
  let d k := ln (p (k + 1)%Z) - ln (p k) in
  ((2 <= i)%Z /\ (i <= u < n)%Z /\ (forall k, (i <= k < u)%Z -> d (k - 1)%Z < d (k - 2)%Z / 2) /\ d (u - 2)%Z / 2 <= d (u - 1)%Z) \/
  (u = 0%Z /\ ((i < 2)%Z \/ forall k, (i <= k < n)%Z -> d (k - 1)%Z < d (k - 2)%Z / 2)).
Definition shell_radius (c : config) (X : Z -> R) (i : Z) : R := (X i + X (i + 1)%Z) / 2 * inner_radius c.
Definition zone_is (c : config) (n : Z) (X Q : Z -> R) (U : Z -> Z -> v5) (P : Z -> Z -> prim) (j : Z) (z : zone) (i u r l : Z) : Prop :=
  steepest_drop n (fun k => entropy (P k j)) i /\ plateau n (fun k => pre (P k j)) i u /\ climbs_to (fun k => pre (P k j)) i r /\ climbs_to (fun k => zone_power c X Q P k j) i l /\
  solid_angle z = 2 * PI * (cos (Q j) - cos (Q (j + 1)%Z)) /\ total_energy z = rsum (fun k => c4 (U k j)) n * cgs_energy c /\
  midpoint_radius z = shell_radius c X i /\ upstream_radius z = shell_radius c X u /\ pressure_radius z = shell_radius c X r /\ luminosity_radius z = shell_radius c X l /\
  flow_gamma z = sqrt (1 + (u1 (P r j) ^ 2 + u2 (P r j) ^ 2 + u3 (P r j) ^ 2)) /\
  flow_power z = zone_power c X Q P r j /\ flow_power_max z = zone_power c X Q P l j /\
  powers z = map (fun k => zone_power c X Q P (Z.max 0 (i - k)) j) [2; 4; 8; 16; 32; 64]%Z.

(** *** Proofs *)
Lemma column {A} (a : array A) n m F j : grid2 a n m F -> (0 <= j < m)%Z -> exists z, freeze_axis 1 j a = Ok z /\ rep1 z n (fun i => F i j).
Proof. intros [E1 E2] Hj. unfold freeze_axis. rewrite E1. cbn. eexists. split; [reflexivity|]. split; [reflexivity|]. intros k Hk. cbn [aget insert_axis]. apply E2; assumption. Qed.
Lemma sum1 fuel a n F : (1 <= n < two64)%Z -> (Z.to_nat n <= fuel)%nat -> rep1 a n F -> arr_sum fuel 0 Rplus a = Ok (rsum F n).
Proof.
  intros Hn Hf [E1 E2]. rewrite (arr_sum_total 0 Rplus Rplus_comm ltac:(intros; ring) Rplus_0_l fuel a (fun i => F (hd 0%Z i))); rewrite ?E1.
  - f_equal. unfold rsum. cbn [idxs]. rewrite NdOpsProofs.total_flat by (intros; ring). apply NdOpsProofs.total_ext. intros x _. rewrite NdOpsProofs.total_map. cbn. ring.
  - discriminate.
  - repeat constructor; lia.
  - cbn [prodz fold_right]. rewrite Z.mul_1_r. exact Hf.
  - intros i Hi. inversion Hi as [|d x s i' Hx Hr E3 E4]; subst. inversion Hr; subst. cbn [hd]. apply E2. lia.
Qed.
Lemma flux_spec P : gas P -> radial_energy_flux P = srhd_energy_flux P.
Proof.
  intros [Hr Hp]. unfold radial_energy_flux, srhd_flux, flux5, srhd_conserved, beta_along, project, on_axis, srhd_energy_flux, specific_enthalpy, enthalpy_density, gamma_law_index. cbn [c0 c1 c2 c3 c4 n1 n2 n3 make_unit_vector].
  assert (W : 0 < lorentz_factor P) by (unfold lorentz_factor, gamma_beta_squared; apply sqrt_lt_R0; nra). assert (WE : sqrt (1 + (u1 P * u1 P + u2 P * u2 P + u3 P * u3 P)) = lorentz_factor P) by reflexivity. rewrite WE. field. lra.
Qed.

Section Zones.
Variables (cfg : config) (fuel : nat) (n m : Z) (X Q : Z -> R) (U : Z -> Z -> v5) (s : solution).
Hypothesis HG : good_cloud cfg.
Hypothesis HS : sizes fuel n m.
Hypothesis Hn : (2 <= n)%Z.
Hypothesis HX : X 0%Z <> 0.
Hypothesis HU : on_grid s n m X Q U.
Lemma states_rep : exists p, gas_state cfg s = Ok p /\ ashape p = [n; m] /\ (forall i j v, (0 <= i < n)%Z -> (0 <= j < m)%Z -> (aget p [i; j] = Ok v <-> srhd_recover (over5 (U i j) (vol X Q i j)) gamma_law_index (temperature_floor cfg) = Ok v)).
Proof.
  destruct HU as (R1 & R2 & R3). destruct (CloudProofs.volumes_rep fuel n m X Q (radial_vertices s) (polar_vertices s) HS R1 R2) as (dv & E1 & V1). unfold gas_state. rewrite E1. bsimp.
  destruct (binop2 over5 _ _ _ _ _ _ R3 V1) as (q & E2 & [Q1 Q2]). rewrite E2. bsimp. eexists. split; [reflexivity|]. split; [exact Q1|]. intros i j v Hi Hj. cbn [arr_mapM aget]. rewrite Q2 by assumption. bsimp. reflexivity.
Qed.
Variables (P : Z -> Z -> prim) (p : array prim) (dAr rc : array R).
Hypothesis HP : gas_of cfg n m X Q U P.
Hypothesis Hp : grid2 p n m P.
Hypothesis HA : grid2 dAr (n + 1) m (area_r X Q).
Hypothesis HC : rep1 rc n (fun k => (X k + X (k + 1)%Z) / 2).
Lemma zone_value j : (0 <= j < m)%Z -> exists z i u r l, zone_at fuel (units_of cfg) s dAr rc p j = Ok z /\ zone_is cfg n X Q U P j z i u r l.
Proof.
  intros Hj. destruct (sizes_fit _ _ _ HS) as (B1 & B2 & B3 & B4 & B5). destruct HS as (_ & Hm & HV & HF). destruct HU as ([R1 R1'] & R2 & R3).
  assert (Fn : (Z.to_nat n < fuel)%nat) by nia. assert (N64 : (n + 5 < two64)%Z) by exact B1.
  unfold zone_at. destruct (column p n m P j Hp Hj) as (p0 & E1 & C1). rewrite E1. bsimp. destruct (evaluate1 fuel zero_prim p0 n _ ltac:(lia) ltac:(lia) C1) as (pj & E2 & C2). rewrite E2. bsimp.
  destruct (column (conserved s) n m U j R3 Hj) as (uj & E3 & C3). rewrite E3. bsimp. destruct (column dAr (n + 1) m _ j HA Hj) as (a0 & E4 & C4). rewrite E4. bsimp.
  unfold midpoint. destruct (midpoint1 Rplus (fun x => x * 0.5) a0 (n + 1) _ ltac:(lia) C4) as (Aj & E5 & C5). rewrite E5. bsimp. replace (n + 1 - 1)%Z with n in C5 by lia.
  destruct (binop1 Rmult _ Aj n _ _ (map1 radial_energy_flux pj n _ C2) C5) as (l0 & E6 & C6). rewrite E6. bsimp.
  set (Lj := arr_map (fun x => x * power (units_of cfg)) l0).
  assert (CL : rep1 Lj n (fun k => zone_power cfg X Q P k j)).
  { eapply rep1_ext; [exact (map1 (fun x => x * power (units_of cfg)) l0 n _ C6)|]. intros k Hk. cbv beta. rewrite (flux_spec (P k j)) by (apply HP; assumption). unfold zone_power. rewrite !area_spec, (Z.add_comm 1 k).
    replace (power (units_of cfg)) with (cgs_power cfg) by reflexivity. lra. }
  destruct (shock_found fuel gamma_law_index pj n _ ltac:(lia) ltac:(lia) C2) as (i & E7 & I1 & I2 & I3). rewrite E7. bsimp. cbn [hd].
  destruct (plateau_ahead fuel pj n _ i ltac:(lia) ltac:(lia) ltac:(lia) C2) as (u & E8 & U1). rewrite E8. bsimp.
  destruct (maximum_pressure_behind fuel pj n _ i ltac:(lia) ltac:(lia) ltac:(lia) C2) as (r & E9 & P1). rewrite E9. bsimp.
  destruct (maximum_behind fuel Lj n _ i ltac:(lia) ltac:(lia) ltac:(lia) CL) as (l & E10 & L1). rewrite E10. bsimp.
  destruct HA as [_ A2]. rewrite A2 by lia. bsimp. rewrite R1' by lia. bsimp.
  rewrite (sum1 fuel _ n _ ltac:(lia) ltac:(lia) (map1 (fun x => c4 x * energy (units_of cfg)) uj n _ C3)). bsimp. rewrite rsum_scale.
  assert (UR : (0 <= u < n)%Z) by (destruct U1 as [(_ & ? & _)|(-> & _)]; lia). destruct P1 as (P0 & P1). destruct L1 as (L0 & L1). destruct HC as [_ C7]. rewrite !C7 by lia. bsimp. destruct Hp as [_ Hp2]. rewrite Hp2 by lia. bsimp.
  destruct CL as [_ CL]. rewrite CL by lia. bsimp.
  rewrite (TreeNameProofs.mapM_map (fun k => aget Lj [shells_behind k i]) (fun k => zone_power cfg X Q P (Z.max 0 (i - k)) j)).
  2:{ intros k Hk. assert (0 < k)%Z by (cbn [In] in Hk; lia). replace (shells_behind k i) with (Z.max 0 (i - k)) by (unfold shells_behind; destruct (Z.ltb_spec k i); lia). apply CL. lia. }
  bsimp. rewrite CL by lia. bsimp. exists (Zone (area_r X Q 0 j / X 0%Z / X 0%Z) (rsum (fun k => c4 (U k j)) n * energy (units_of cfg)) ((X i + X (i + 1)%Z) / 2 * u_length (units_of cfg)) ((X u + X (u + 1)%Z) / 2 * u_length (units_of cfg))
    ((X r + X (r + 1)%Z) / 2 * u_length (units_of cfg)) ((X l + X (l + 1)%Z) / 2 * u_length (units_of cfg)) (lorentz_factor (P r j)) (zone_power cfg X Q P r j) (map (fun k => zone_power cfg X Q P (Z.max 0 (i - k)) j) [2; 4; 8; 16; 32; 64]%Z) (zone_power cfg X Q P l j)), i, u, r, l.
  split; [reflexivity|]. unfold zone_is. cbn [solid_angle total_energy midpoint_radius upstream_radius pressure_radius luminosity_radius flow_gamma flow_power flow_power_max powers].
  split; [split; [exact I1|split; [exact I2|exact I3]]|]. split; [exact U1|]. split; [split; assumption|]. split; [split; assumption|].
  split; [unfold area_r; rewrite (Z.add_comm 1 j); field; exact HX|]. split; [reflexivity|]. repeat (split; [reflexivity|]).
  split; [unfold lorentz_factor, gamma_beta_squared; f_equal; ring|]. repeat split.
Qed.
End Zones.

(** What the diagnostics hold: one record per polar zone, and the arrays over the cells in cgs units.  The energy flow through
    a cell is counted with the area of its inner face. *)
Definition fields_are (c : config) (n m : Z) (X Q : Z -> R) (t : R) (qv : array R) (U : Z -> Z -> v5) (P : Z -> Z -> prim) (F : fields) : Prop :=
  f_time F = t * (inner_radius c / 29980000000) /\ rep1 (f_radial_vertices F) (n + 1) (fun i => X i * inner_radius c) /\ f_polar_vertices F = qv /\
  Z.of_nat (length (f_zones F)) = m /\ (forall j z, (0 <= j < m)%Z -> nth_error (f_zones F) (Z.to_nat j) = Some z -> exists i u r l, zone_is c n X Q U P j z i u r l) /\
  grid2 (f_specific_entropy F) n m (fun i j => entropy (P i j)) /\
  grid2 (f_gas_pressure F) n m (fun i j => pre (P i j) * (cgs_energy c / inner_radius c ^ 3)) /\
  grid2 (f_mass_density F) n m (fun i j => rho (P i j) * (cloud_mass c * (1989 * 10 ^ 30) / inner_radius c ^ 3)) /\
  grid2 (f_radial_gamma_beta F) n m (fun i j => u1 (P i j)) /\
  grid2 (f_radial_energy_flow F) n m (fun i j => srhd_energy_flux (P i j) * zone_area X Q i j * cgs_power c).

Lemma mapM_range {B} (f : Z -> outcome B) (G : Z -> B -> Prop) k : (forall j, (0 <= j < Z.of_nat k)%Z -> exists b, f j = Ok b /\ G j b) ->
  exists l, mapM f (map Z.of_nat (seq 0 k)) = Ok l /\ length l = k /\ forall j b, (0 <= j < Z.of_nat k)%Z -> nth_error l (Z.to_nat j) = Some b -> G j b.
Proof.
  assert (K : forall k a, (forall j, (Z.of_nat a <= j < Z.of_nat (a + k))%Z -> exists b, f j = Ok b /\ G j b) ->
    exists l, mapM f (map Z.of_nat (seq a k)) = Ok l /\ length l = k /\ forall j b, (j < k)%nat -> nth_error l j = Some b -> G (Z.of_nat (a + j)) b).
  { clear k. induction k as [|k IH]; intros a H; [exists []; split; [reflexivity|]; split; [reflexivity|intros; lia]|]. cbn [seq map mapM].
    destruct (H (Z.of_nat a) ltac:(lia)) as (b & E & GB). rewrite E. bsimp. destruct (IH (S a) ltac:(intros j Hj; apply H; lia)) as (l & EL & LL & HL). rewrite EL. bsimp. exists (b :: l). split; [reflexivity|]. split; [cbn; lia|].
    intros j c Hj Ec. destruct j as [|j]; cbn in Ec; [injection Ec as <-; rewrite Nat.add_0_r; exact GB|]. replace (a + S j)%nat with (S a + j)%nat by lia. apply HL; [lia|exact Ec]. }
  intros H. destruct (K k 0%nat ltac:(intros j Hj; apply H; lia)) as (l & E & L & HL). exists l. split; [exact E|]. split; [exact L|]. intros j b Hj Eb. specialize (HL (Z.to_nat j) b ltac:(lia) Eb). rewrite Nat.add_0_l, Z2Nat.id in HL by lia. exact HL.
Qed.

(** *** C95 *)
Theorem cloud_diagnostics cfg fuel n m X Q U s : good_cloud cfg -> sizes fuel n m -> (2 <= n)%Z -> X 0%Z <> 0 -> on_grid s n m X Q U ->
  (forall P, gas_of cfg n m X Q U P -> exists F, make_diagnostic_fields cfg fuel s = Ok F /\ fields_are cfg n m X Q (time s) (polar_vertices s) U P F) /\
  (forall F, make_diagnostic_fields cfg fuel s = Ok F -> exists P, gas_of cfg n m X Q U P /\ fields_are cfg n m X Q (time s) (polar_vertices s) U P F).
Proof.
  intros HG HS Hn HX HU. destruct (sizes_fit _ _ _ HS) as (B1 & B2 & B3 & B4 & B5). pose proof HS as (_ & Hm & HV & HF). pose proof HU as (R1 & R2 & R3).
  destruct (states_rep cfg fuel n m X Q U s HS HU) as (p & E1 & S1 & SP). destruct (radial_areas_rep fuel n m X Q _ _ HS R1 R2) as (dAr & E2 & HA).
  assert (MAIN : forall P, gas_of cfg n m X Q U P -> exists F, make_diagnostic_fields cfg fuel s = Ok F /\ fields_are cfg n m X Q (time s) (polar_vertices s) U P F).
  { intros P HP. assert (Hp : grid2 p n m P). { split; [exact S1|]. intros i j Hi Hj. apply SP; try assumption. rewrite density_spec. apply HP; assumption. }
    unfold make_diagnostic_fields. rewrite (reference_units cfg HG). bsimp. rewrite E1. bsimp. rewrite E2. bsimp.
    unfold midpoint. destruct (midpoint1 Rplus (fun x => x * 0.5) _ (n + 1) X ltac:(lia) R1) as (rc & E3 & C3). rewrite E3. bsimp. replace (n + 1 - 1)%Z with n in C3 by lia.
    assert (C3' : rep1 rc n (fun k => (X k + X (k + 1)%Z) / 2)) by (apply (rep1_ext _ _ _ _ C3); intros k Hk; rewrite (Z.add_comm 1 k); lra).
    assert (EV : Z.to_nat (volume (ashape (polar_vertices s)) - 1) = Z.to_nat m). { destruct R2 as [Q1 _]. rewrite Q1, volume1 by lia. f_equal. lia. } rewrite EV.
    destruct (mapM_range (zone_at fuel (units_of cfg) s dAr rc p) (fun j z => exists i u r l, zone_is cfg n X Q U P j z i u r l) (Z.to_nat m)) as (zs & E4 & L4 & Z4).
    { intros j Hj. destruct (zone_value cfg fuel n m X Q U s HS Hn HX HU P p dAr rc HP Hp HA C3' j ltac:(lia)) as (z & i & u & r & l & E & H). exists z. split; [exact E|]. exists i, u, r, l. exact H. }
    rewrite E4. bsimp. destruct (evaluate1 fuel 0 _ (n + 1) _ ltac:(lia) ltac:(nia) (map1 (fun x => x * u_length (units_of cfg)) _ _ _ R1)) as (rv & E5 & C5). rewrite E5. bsimp.
    assert (EVAL : forall (f : prim -> R), exists z, evaluate fuel 0 (arr_map f p) = Ok z /\ grid2 z n m (fun i j => f (P i j))).
    { intros f. apply evaluate2; [lia|lia|apply B5; lia|apply B5; lia|]. exact (map2g f p n m P Hp). }
    destruct (EVAL (specific_entropy gamma_law_index)) as (se & E6 & C6). rewrite E6. bsimp. destruct (EVAL (fun p => pre p * energy_density (units_of cfg))) as (gp & E7 & C7). rewrite E7. bsimp.
    destruct (EVAL (fun p => rho p * mass_density (units_of cfg))) as (md & E8 & C8). rewrite E8. bsimp. destruct (EVAL HydroModel.u1) as (gb & E9 & C9). rewrite E9. bsimp.
    destruct (slice_rows dAr (n + 1) m _ 0 1 ltac:(lia) ltac:(lia) ltac:(lia) ltac:(lia) ltac:(lia) HA) as (inner & E10 & C10). rewrite E10. bsimp. replace (n + 1 - 1 - 0)%Z with n in C10 by lia.
    destruct (binop2 times5 _ inner n m _ _ (map2g (fun q => srhd_flux q (on_axis 0) (srhd_conserved q gamma_law_index)) p n m P Hp) C10) as (fl & E11 & C11). rewrite E11. bsimp.
    destruct (evaluate2 fuel 0 (arr_map (fun G => c4 G * power (units_of cfg)) fl) n m _ ltac:(lia) ltac:(lia) ltac:(apply B5; lia) ltac:(apply B5; lia) (map2g (fun G => c4 G * power (units_of cfg)) fl n m _ C11)) as (ef & E12 & C12). rewrite E12. bsimp.
    eexists. split; [reflexivity|]. unfold fields_are. cbn [f_time f_radial_vertices f_polar_vertices f_zones f_specific_entropy f_gas_pressure f_mass_density f_radial_gamma_beta f_radial_energy_flow].
    split; [reflexivity|]. split; [exact C5|]. split; [reflexivity|]. split; [lia|]. split; [intros j z Hj Ez; apply Z4; [lia|exact Ez]|]. split; [exact C6|]. split; [exact C7|]. split; [exact C8|]. split; [exact C9|].
    eapply grid2_ext; [exact C12|]. intros i j Hi Hj. cbv beta. rewrite Z.add_0_l, area_spec. rewrite <- (flux_spec (P i j)) by (apply HP; assumption). reflexivity. }
  split; [exact MAIN|]. intros F E. pose proof E as E'. unfold make_diagnostic_fields in E'. rewrite (reference_units cfg HG) in E'. cbn [bind] in E'. rewrite E1 in E'. cbn [bind] in E'.
  apply bind_ok_inv in E' as (? & _ & E'). apply bind_ok_inv in E' as (? & _ & E'). apply bind_ok_inv in E' as (? & _ & E'). apply bind_ok_inv in E' as (? & _ & E'). apply bind_ok_inv in E' as (se & E' & _).
  assert (RD : forall i j, (0 <= i < n)%Z -> (0 <= j < m)%Z -> exists v, aget p [i; j] = Ok v).
  { intros i j Hi Hj. destruct (evaluate2_reads fuel 0 _ n m se ltac:(lia) ltac:(lia) ltac:(apply B5; lia) ltac:(apply B5; lia) (S1 : ashape (arr_map (specific_entropy gamma_law_index) p) = [n; m]) E' i j Hi Hj) as (v & Ev).
    cbn [arr_map aget] in Ev. apply bind_ok_inv in Ev as (w & Ew & _). exists w. exact Ew. }
  set (P := fun i j => match aget p [i; j] with Ok v => v | _ => zero_prim end).
  assert (HP : gas_of cfg n m X Q U P). { apply gas_recovered. intros i j Hi Hj. apply SP; try assumption. destruct (RD i j Hi Hj) as (v & Ev). unfold P. rewrite Ev. reflexivity. }
  exists P. split; [exact HP|]. destruct (MAIN P HP) as (F' & EF & HF'). rewrite EF in E. injection E as <-. exact HF'.
Qed.

(** Over the whole sphere: the solid angles sum to 4 pi, the energies to the energy of the gas. *)
Lemma zones_sum (f : zone -> R) (g : Z -> R) : forall zs k, (forall j z, nth_error zs j = Some z -> f z = g (k + Z.of_nat j)%Z) -> fold_right Rplus 0 (map f zs) = rsum (fun j => g (k + j)%Z) (Z.of_nat (length zs)).
Proof.
  intros zs. induction zs as [|z zs IH] using rev_ind; intros k H; [reflexivity|]. rewrite map_app, fold_right_app. cbn [map fold_right length app]. rewrite app_length. cbn [length]. rewrite Nat2Z.inj_add. change (Z.of_nat 1) with 1%Z. rewrite rsum_S by lia.
  rewrite <- (IH k). 2:{ intros j y Ey. apply H. rewrite nth_error_app1; [exact Ey|]. apply nth_error_Some. congruence. }
  rewrite <- (H (length zs) z). 2:{ rewrite nth_error_app2 by lia. rewrite Nat.sub_diag. reflexivity. }
  clear. induction zs as [|y zs IH]; cbn; [ring|]. rewrite IH. ring.
Qed.
Lemma sum_swap (F : Z -> Z -> R) n m : rsum (fun i => rsum (fun j => F i j) m) n = rsum (fun j => rsum (fun i => F i j) n) m.
Proof. unfold rsum. apply (NdOpsProofs.total_swap 0 Rplus Rplus_comm); intros; ring. Qed.
Theorem cloud_diagnostic_totals cfg fuel n m X Q U s F : good_cloud cfg -> sizes fuel n m -> (2 <= n)%Z -> X 0%Z <> 0 -> on_grid s n m X Q U -> make_diagnostic_fields cfg fuel s = Ok F ->
  fold_right Rplus 0 (map total_energy (f_zones F)) = rsum (fun i => rsum (fun j => c4 (U i j)) m) n * cgs_energy cfg /\
  fold_right Rplus 0 (map solid_angle (f_zones F)) = 2 * PI * (cos (Q 0%Z) - cos (Q m)) /\ (Q 0%Z = 0 -> Q m = PI -> fold_right Rplus 0 (map solid_angle (f_zones F)) = 4 * PI).
Proof.
  intros HG HS Hn HX HU E. pose proof HS as (_ & Hm & _). destruct (proj2 (cloud_diagnostics cfg fuel n m X Q U s HG HS Hn HX HU) F E) as (P & HP & (_ & _ & _ & L & Z & _)).
  assert (NZ : forall j z, nth_error (f_zones F) j = Some z -> exists i u r l, zone_is cfg n X Q U P (0 + Z.of_nat j) z i u r l).
  { intros j z Ez. assert (j < length (f_zones F))%nat by (apply nth_error_Some; congruence). rewrite Z.add_0_l. apply Z; [lia|]. rewrite Nat2Z.id. exact Ez. }
  assert (SE : fold_right Rplus 0 (map total_energy (f_zones F)) = rsum (fun i => rsum (fun j => c4 (U i j)) m) n * cgs_energy cfg).
  { rewrite (zones_sum total_energy (fun j => rsum (fun k => c4 (U k j)) n * cgs_energy cfg) _ 0%Z); [|intros j z Ez; destruct (NZ j z Ez) as (i & u & r & l & H); apply H]. rewrite L, rsum_scale, sum_swap. reflexivity. }
  assert (SA : fold_right Rplus 0 (map solid_angle (f_zones F)) = 2 * PI * (cos (Q 0%Z) - cos (Q m))).
  { rewrite (zones_sum solid_angle (fun j => 2 * PI * (cos (Q j) - cos (Q (j + 1)%Z))) _ 0%Z); [|intros j z Ez; destruct (NZ j z Ez) as (i & u & r & l & H); apply H]. rewrite L.
    rewrite (rsum_ext _ (fun j => (cos (Q (1 + j)%Z) - cos (Q j)) * (- 2 * PI))); [rewrite rsum_scale, (SedovProofs.rsum_telescope (fun j => cos (Q j))) by lia; ring|]. intros k Hk. rewrite Z.add_0_l, (Z.add_comm k 1). ring. }
  split; [exact SE|]. split; [exact SA|]. intros H0 H1. rewrite SA, H0, H1, cos_0, cos_PI. ring.
Qed.

(** The places found are in order, except that of the gas ahead: it is at or beyond the shock, or it is the innermost shell. *)
Theorem cloud_shock_places cfg n m X Q U P j z i u r l : good_cloud cfg -> spherical n m X Q -> zone_is cfg n X Q U P j z i u r l ->
  0 < pressure_radius z <= midpoint_radius z /\ 0 < luminosity_radius z <= midpoint_radius z /\
  (midpoint_radius z <= upstream_radius z \/ upstream_radius z = (X 0%Z + X 1%Z) / 2 * inner_radius cfg) /\
  (i = 1%Z -> upstream_radius z < midpoint_radius z).
Proof.
  intros ((HI & _) & _) SP ((I & _) & U1 & (R1 & _) & (L1 & _) & _ & _ & E1 & E2 & E3 & E4 & _). pose proof (radii_positive n m X Q SP) as XP. destruct SP as (_ & XG & _).
  assert (MON : forall a b, (0 <= a <= b)%Z -> (b < n)%Z -> 0 < shell_radius cfg X a <= shell_radius cfg X b /\ ((a < b)%Z -> shell_radius cfg X a < shell_radius cfg X b)).
  { intros a b Hab Hb. unfold shell_radius.
    assert (M : forall k : nat, (a + Z.of_nat k < n)%Z -> X a <= X (a + Z.of_nat k)%Z /\ X (a + 1)%Z <= X (a + Z.of_nat k + 1)%Z /\ ((0 < k)%nat -> X a < X (a + Z.of_nat k)%Z)).
    { induction k as [|k IH]; intros Hk; [rewrite Z.add_0_r; repeat split; try apply Rle_refl; lia|]. destruct (IH ltac:(lia)) as (A & B & _). replace (a + Z.of_nat (S k))%Z with (a + Z.of_nat k + 1)%Z by lia. pose proof (XG (a + Z.of_nat k)%Z ltac:(lia)). pose proof (XG (a + Z.of_nat k + 1)%Z ltac:(lia)). repeat split; try lra. }
    destruct (M (Z.to_nat (b - a)) ltac:(lia)) as (A & B & C). replace (a + Z.of_nat (Z.to_nat (b - a)))%Z with b in * by lia. pose proof (XP a ltac:(lia)). pose proof (XP (a + 1)%Z ltac:(lia)).
    split; [split; [apply Rmult_lt_0_compat; lra|apply Rmult_le_compat_r; lra]|]. intros L. specialize (C ltac:(lia)). apply Rmult_lt_compat_r; lra. }
  rewrite E1, E2, E3, E4. split; [apply MON; lia|]. split; [apply MON; lia|]. split.
  - destruct U1 as [(_ & H & _)|(-> & _)]; [left; apply MON; lia|right; reflexivity].
  - intros ->. destruct U1 as [(H & _)|(-> & _)]; [lia|]. apply (MON 0%Z 1%Z); lia.
Qed.

(** The two energy flows of the same gas differ: the arrays over the zones take the mean of the areas of the two faces, the array
    over the cells takes the inner area, which is smaller. *)
Theorem cloud_energy_flow_refuted cfg fuel n m X Q U s F j z : good_cloud cfg -> sizes fuel n m -> (2 <= n)%Z -> spherical n m X Q -> on_grid s n m X Q U -> make_diagnostic_fields cfg fuel s = Ok F ->
  (0 <= j < m)%Z -> nth_error (f_zones F) (Z.to_nat j) = Some z ->
  exists r e, shell_radius cfg X r = pressure_radius z /\ aget (f_radial_energy_flow F) [r; j] = Ok e /\ flow_power z = e * ((1 + (X (r + 1)%Z / X r) ^ 2) / 2) /\ (0 < flow_power z -> e < flow_power z).
Proof.
  intros HG HS Hn SP HU E Hj Ez. pose proof (radii_positive n m X Q SP) as XP. destruct (sizes_fit _ _ _ HS) as (_ & _ & _ & _ & _). assert (X0 : X 0%Z <> 0) by (pose proof (XP 0%Z ltac:(lia)); lra).
  destruct (proj2 (cloud_diagnostics cfg fuel n m X Q U s HG HS Hn X0 HU) F E) as (P & HP & (_ & _ & _ & L & Z & _ & _ & _ & _ & (_ & EF))).
  destruct (Z j z Hj Ez) as (i & u & r & l & H). pose proof H as ((I & _) & _ & (R1 & _) & _ & _ & _ & _ & _ & E3 & _ & _ & E5 & _).
  exists r, (srhd_energy_flux (P r j) * zone_area X Q r j * cgs_power cfg). split; [symmetry; exact E3|]. split; [apply EF; lia|].
  pose proof (XP r ltac:(lia)) as XR. pose proof (proj1 (proj2 SP) r ltac:(lia)) as XG.
  assert (EQ : flow_power z = srhd_energy_flux (P r j) * zone_area X Q r j * cgs_power cfg * ((1 + (X (r + 1)%Z / X r) ^ 2) / 2)). { rewrite E5. unfold zone_power, zone_area. field. lra. }
  split; [exact EQ|]. set (e := srhd_energy_flux (P r j) * zone_area X Q r j * cgs_power cfg) in *. rewrite EQ. intros PO.
  assert (Q1 : 1 < (X (r + 1)%Z / X r) ^ 2). { assert (1 < X (r + 1)%Z / X r) by (apply (Rmult_lt_reg_r (X r)); [exact XR|]; unfold Rdiv; rewrite Rmult_assoc, Rinv_l by lra; lra). nra. }
  set (q := (X (r + 1)%Z / X r) ^ 2) in *. assert (0 < e) by nra. nra.
Qed.

(** With a single shell there is no drop to find, and an element of an empty array is read. *)
Theorem cloud_diagnostics_one_shell cfg fuel m X Q U s P : good_cloud cfg -> sizes fuel 1 m -> on_grid s 1 m X Q U -> gas_of cfg 1 m X Q U P -> make_diagnostic_fields cfg fuel s = UB.
Proof.
  intros HG HS HU HP. destruct (sizes_fit _ _ _ HS) as (B1 & B2 & B3 & B4 & B5). pose proof HS as (_ & Hm & HV & HF). pose proof HU as (R1 & R2 & R3).
  destruct (states_rep cfg fuel 1 m X Q U s HS HU) as (p & E1 & S1 & SP). destruct (radial_areas_rep fuel 1 m X Q _ _ HS R1 R2) as (dAr & E2 & HA).
  assert (Hp : grid2 p 1 m P). { split; [exact S1|]. intros i j Hi Hj. apply SP; try assumption. rewrite density_spec. apply HP; assumption. }
  unfold make_diagnostic_fields. rewrite (reference_units cfg HG). bsimp. rewrite E1. bsimp. rewrite E2. bsimp.
  unfold midpoint. destruct (midpoint1 Rplus (fun x => x * 0.5) _ (1 + 1) X ltac:(lia) R1) as (rc & E3 & C3). rewrite E3. bsimp.
  assert (EV : Z.to_nat (volume (ashape (polar_vertices s)) - 1) = S (Z.to_nat m - 1)). { destruct R2 as [Q1 _]. rewrite Q1, volume1 by lia. lia. } rewrite EV. cbn [seq map mapM]. change (Z.of_nat 0) with 0%Z.
  assert (EZ : zone_at fuel (units_of cfg) s dAr rc p 0 = UB); [|rewrite EZ; reflexivity].
  unfold zone_at. destruct (column p 1 m P 0 Hp ltac:(lia)) as (p0 & E4 & C4). rewrite E4. bsimp. destruct (evaluate1 fuel zero_prim p0 1 _ ltac:(lia) ltac:(nia) C4) as (pj & E5 & C5). rewrite E5. bsimp.
  destruct (column (conserved s) 1 m U 0 R3 ltac:(lia)) as (uj & E6 & C6). rewrite E6. bsimp. destruct (column dAr (1 + 1) m _ 0 HA ltac:(lia)) as (a0 & E7 & C7). rewrite E7. bsimp.
  unfold midpoint. destruct (midpoint1 Rplus (fun x => x * 0.5) a0 (1 + 1) _ ltac:(lia) C7) as (Aj & E8 & C8). rewrite E8. bsimp. change (1 + 1 - 1)%Z with 1%Z in C8.
  destruct (binop1 Rmult _ Aj 1 _ _ (map1 radial_energy_flux pj 1 _ C5) C8) as (l0 & E9 & C9). rewrite E9. bsimp.
  assert (ES : find_shock_index fuel gamma_law_index pj = UB); [|rewrite ES; reflexivity].
  unfold find_shock_index, find_drop_index. destruct (difference1 Rminus _ 1 _ ltac:(unfold two64; lia) (map1 (specific_entropy gamma_law_index) pj 1 _ C5)) as (ds & E10 & [D1 _]). rewrite E10. bsimp. change (1 - 1)%Z with 0%Z in D1.
  unfold arr_best. rewrite D1. unfold nd_where, arr_sum. cbn [arr_map ashape]. rewrite D1. clear. destruct fuel; reflexivity.
Qed.

(** *** Concrete states *)
Lemma cold_recovered d u W T : 0 < d -> 0 < T -> 1 <= W <= 2 -> W * W = 1 + u * u ->
  srhd_recover (V5 (d * W) (d * W * u) 0 0 (d * W * W - d * W)) (4 / 3) T = Ok (Prim d (u * (W * W) / (W * W + T)) 0 0 (T * d)).
Proof.
  intros Hd HT HW EW. assert (W2 : 1 <= W * W <= 4) by nra. unfold srhd_recover. cbn [c0 c1 c2 c3 c4]. set (D := d * W). set (tau := D * W - D).
  assert (TD : tau + D = d * (W * W)) by (unfold tau, D; ring). assert (DP : 0 < d * (W * W)) by nra. assert (DW : 0 < d * W) by nra.
  assert (NR : newton_residual D tau (D * u * (D * u) + 0 * 0 + 0 * 0) (4 / 3) 0 = (W, 0, -1)).
  { unfold newton_residual. cbv zeta. rewrite TD, Rplus_0_r. replace ((D * u * (D * u) + 0 * 0 + 0 * 0) / (d * (W * W)) ^ 2) with (u * u / (W * W)) by (unfold D; field; split; nra).
    assert (V : u * u / (W * W) = 1 - / (W * W)). { replace (u * u) with (W * W - 1) by lra. field. nra. } rewrite V.
    assert (IW : / 4 <= / (W * W)) by (apply Rinv_le_contravar; lra). unfold smin. destruct (Rlt_dec (1 - 1e-10) (1 - / (W * W))) as [?|_]; [lra|].
    replace (1 / (1 - (1 - / (W * W)))) with (W * W) by (field; nra). rewrite sqrt_square by lra.
    assert (E0 : tau + D * (1 - W) + 0 * (1 - W * W) = 0) by (unfold tau, D; ring). rewrite E0. f_equal; [f_equal|]; unfold Rdiv; ring. }
  change 50%nat with (S 49). cbn [newton]. rewrite NR. cbv beta iota zeta. rewrite Rabs_R0. destruct (Rlt_dec 0 1e-10) as [_|?]; [|lra].
  destruct (Rlt_dec 0 T) as [_|?]; [|contradiction]. replace (0 - 0 / -1) with 0 by field. assert (DD : T * D / W = T * d) by (unfold D; field; lra). rewrite DD.
  assert (MX : smax 0 (T * d) = T * d). { assert (0 < T * d) by nra. unfold smax. destruct (Rlt_dec _ _); lra. } rewrite MX. cbn [rho pre].
  replace (D / W) with d by (unfold D; field; lra). destruct (Rle_dec d 0) as [?|_]; [lra|]. destruct (Rle_dec (T * d) 0) as [?|_]; [nra|].
  rewrite TD. f_equal. f_equal; [unfold D; field; split; nra|unfold Rdiv; rewrite Rmult_0_r; apply Rmult_0_l|unfold Rdiv; rewrite Rmult_0_r; apply Rmult_0_l].
Qed.

(** Four shells of cold gas between the radii 1 to 5, in two zones: dense gas that flows out, dense gas at rest, thin gas that
    flows out, dense gas at rest.  The entropy drops from the third shell to the fourth. *)
Definition layered : config := Config 2 1 300000000 30000000000 (1 / 50) 2 6 1 (10 ^ 50) 1 (1 / 8) (1 / 10) 2 (4 / 10) 1 1 1 (1 / 16).
Lemma layered_good : good_cloud layered.
Proof. unfold good_cloud, layered. cbn. repeat split; lra. Qed.
Definition layer_d (i : Z) : R := if (i =? 2)%Z then 1 / 10 else 1.
Definition layer_u (i : Z) : R := if Z.even i then 3 / 4 else 0.
Definition layer_W (i : Z) : R := if Z.even i then 5 / 4 else 1.
Definition layer_P (i _ : Z) : prim := Prim (layer_d i) (layer_u i * (layer_W i * layer_W i) / (layer_W i * layer_W i + 1 / 16)) 0 0 (1 / 16 * layer_d i).
Definition layer_U (i j : Z) : v5 := times5 (V5 (layer_d i * layer_W i) (layer_d i * layer_W i * layer_u i) 0 0 (layer_d i * layer_W i * layer_W i - layer_d i * layer_W i)) (vol demo_X demo_Q i j).
Definition layers : solution := Solution 1 (vector 5 demo_X) (vector 3 demo_Q) (table 4 2 layer_U).
Lemma quarter_cos j : (0 <= j < 2)%Z -> cos (demo_Q j) - cos (demo_Q (1 + j)) = 1.
Proof.
  intros Hj. unfold demo_Q. assert (j = 0%Z \/ j = 1%Z) as [-> | ->] by lia; [change (1 + 0)%Z with 1%Z; rewrite Rmult_0_l, Rmult_1_l, cos_0, cos_PI2; ring|]. change (1 + 1)%Z with 2%Z. rewrite Rmult_1_l. replace (2 * (PI / 2)) with PI by field. rewrite cos_PI2, cos_PI. ring.
Qed.
Lemma demo_vol i j : (0 <= i)%Z -> (0 <= j < 2)%Z -> 0 < vol demo_X demo_Q i j.
Proof.
  intros Hi Hj. unfold vol. rewrite quarter_cos by exact Hj. unfold demo_X. rewrite !plus_IZR. assert (0 <= IZR i) by (apply IZR_le; lia). set (x := IZR i) in *. pose proof PI_RGT_0.
  replace ((1 + x + 1) ^ 3 - (x + 1) ^ 3) with (3 * x * x + 9 * x + 7) by ring. assert (0 < 3 * x * x + 9 * x + 7) by nra. apply Rmult_lt_0_compat; [|lra]. apply Rmult_lt_0_compat; [|lra]. nra.
Qed.
Lemma demo_spherical n : spherical n 2 demo_X demo_Q.
Proof. unfold spherical, demo_X, demo_Q. pose proof PI_RGT_0. repeat split; try (cbn [Z.add Pos.add]; lra); intros k Hk; rewrite ?plus_IZR; try lra. Qed.
Lemma layers_gas : gas_of layered 4 2 demo_X demo_Q layer_U layer_P.
Proof.
  apply gas_recovered. intros i j Hi Hj. pose proof (demo_vol i j ltac:(lia) Hj) as V. unfold layer_U. set (v := vol demo_X demo_Q i j) in *.
  match goal with |- srhd_recover (over5 (times5 ?w v) v) _ _ = _ => replace (over5 (times5 w v) v) with w by (destruct w as [a b c d e]; unfold over5, times5; cbn [c0 c1 c2 c3 c4]; f_equal; field; lra) end.
  change (temperature_floor layered) with (1 / 16). apply cold_recovered; [unfold layer_d; destruct (i =? 2)%Z; lra|lra| |]; unfold layer_W, layer_u; destruct (Z.even i); lra.
Qed.
Lemma layers_grid : on_grid layers 4 2 demo_X demo_Q layer_U.
Proof. split; [apply (vector_rep 5)|split; [apply (vector_rep 3)|apply table_grid]]. Qed.
(** "The largest power behind the shock" is that of the third shell, although the innermost shell has twice that power. *)
Theorem cloud_power_max_refuted : exists F z, make_diagnostic_fields layered 20 layers = Ok F /\ nth_error (f_zones F) 0 = Some z /\
  midpoint_radius z = shell_radius layered demo_X 2 /\ 0 < flow_power_max z /\ nth 0 (powers z) 0 = 2 * flow_power_max z.
Proof.
  assert (HS : sizes 20 4 2) by (unfold sizes; lia). destruct (proj1 (cloud_diagnostics layered 20 4 2 demo_X demo_Q layer_U layers layered_good HS ltac:(lia) ltac:(unfold demo_X; cbn; lra) layers_grid) layer_P layers_gas) as (F & E & (_ & _ & _ & L & Z & _)).
  destruct (nth_error (f_zones F) 0) as [z|] eqn:Ez; [|apply nth_error_None in Ez; lia]. exists F, z. split; [exact E|]. split; [exact Ez|].
  destruct (Z 0%Z z ltac:(lia) Ez) as (i & u & r & l & ((I1 & I2 & _) & _ & _ & (L0 & L1 & _) & _ & _ & E1 & _ & _ & _ & _ & _ & E2 & E3)). cbv beta in *.
  assert (S0 : forall k, (0 <= k < 4)%Z -> k <> 2%Z -> entropy (layer_P k 0) = ln (1 / 16)).
  { intros k Hk K2. unfold entropy, layer_P, layer_d. cbn [rho pre]. destruct (Z.eqb_spec k 2); [contradiction|]. f_equal. unfold Rpower. rewrite ln_1, Rmult_0_r, exp_0. lra. }
  assert (S2 : ln (1 / 16) < entropy (layer_P 2 0)).
  { unfold entropy, layer_P, layer_d. cbn [rho pre Z.eqb Pos.eqb]. apply ln_increasing; [lra|]. assert (R4 : Rpower (1 / 10) (4 / 3) < 1 / 10).
    { replace (4 / 3) with (1 + 1 / 3) by field. rewrite Rpower_plus, Rpower_1 by lra. assert (Rpower (1 / 10) (1 / 3) < 1). { unfold Rpower. apply Rlt_le_trans with (exp 0); [apply exp_increasing|rewrite exp_0; lra]. assert (ln (1 / 10) < ln 1) by (apply ln_increasing; lra). rewrite ln_1 in *. lra. } pose proof (exp_pos (1 / 3 * ln (1 / 10))). unfold Rpower in *. nra. }
    assert (0 < Rpower (1 / 10) (4 / 3)) by apply exp_pos. set (w := Rpower (1 / 10) (4 / 3)) in *. apply (Rmult_lt_reg_r w); [assumption|]. replace (1 / 16 * (1 / 10) / w * w) with (1 / 16 * (1 / 10)) by (field; lra). nra. }
  assert (I : i = 2%Z).
  { specialize (I2 2%Z ltac:(lia)). change (2 + 1)%Z with 3%Z in I2. rewrite (S0 3%Z) in I2 by lia. assert (i = 0%Z \/ i = 1%Z \/ i = 2%Z) as [-> |[-> | ->]] by lia; [| |reflexivity]; exfalso.
    - change (0 + 1)%Z with 1%Z in I2. rewrite (S0 0%Z), (S0 1%Z) in I2 by lia. lra.
    - change (1 + 1)%Z with 2%Z in I2. rewrite (S0 1%Z) in I2 by lia. lra. }
  subst i. assert (CP : 0 < cgs_power layered). { unfold cgs_power, cgs_energy, layered. cbn [cloud_mass inner_radius]. assert (0 < 10 ^ 30) by (apply pow_lt; lra). set (z30 := 10 ^ 30) in *. lra. }
  assert (A : forall k, zone_area demo_X demo_Q k 0 = 2 * PI * demo_X k ^ 2). { intros k. unfold zone_area. rewrite (Z.add_comm 0 1), (quarter_cos 0) by lia. ring. }
  assert (EN : forall k, srhd_energy_flux (layer_P k 0) = layer_d k * (if Z.even k then srhd_energy_flux (layer_P 0 0) else 0)).
  { intros k. unfold srhd_energy_flux, layer_P, layer_u, layer_W. cbn [rho u1 u2 u3 pre Z.even]. replace (layer_d 0) with 1 by reflexivity. destruct (Z.even k); [ring|]. unfold Rdiv. rewrite !Rmult_0_l, !Rmult_0_r. reflexivity. }
  assert (E0 : 0 < srhd_energy_flux (layer_P 0 0)).
  { unfold srhd_energy_flux, layer_P, layer_u, layer_W. replace (layer_d 0) with 1 by reflexivity. cbn [rho u1 u2 u3 pre Z.even]. set (x := 3 / 4 * (5 / 4 * (5 / 4)) / (5 / 4 * (5 / 4) + 1 / 16)). assert (0 < x) by (unfold x; lra). assert (1 <= sqrt (1 + (x * x + 0 * 0 + 0 * 0))) by (rewrite <- sqrt_1 at 1; apply sqrt_le_1_alt; nra). set (w := sqrt _) in *. nra. }
  assert (LV : forall k, zone_power layered demo_X demo_Q layer_P k 0 = layer_d k * (if Z.even k then srhd_energy_flux (layer_P 0 0) else 0) * (PI * (demo_X k ^ 2 + demo_X (k + 1) ^ 2)) * cgs_power layered). { intros k. unfold zone_power. rewrite EN, !A. field. }
  set (e := srhd_energy_flux (layer_P 0 0)) in *. set (w := cgs_power layered) in *. pose proof PI_RGT_0 as PP. assert (EW : 0 < e * PI * w) by (apply Rmult_lt_0_compat; [apply Rmult_lt_0_compat; assumption|assumption]).
  assert (L2 : zone_power layered demo_X demo_Q layer_P 2 0 = 5 / 2 * (e * PI * w)). { rewrite LV. unfold layer_d, demo_X. cbn [Z.even Z.eqb Pos.eqb Z.add Pos.add Pos.succ]. field. }
  assert (l = 2%Z).
  { destruct (Z.eq_dec l 2) as [|N]; [assumption|]. exfalso. specialize (L1 2%Z ltac:(lia)). change (2 - 1)%Z with 1%Z in L1. rewrite L2, LV in L1. cbn [Z.even] in L1. rewrite Rmult_0_r, !Rmult_0_l in L1. lra. } subst l.
  split; [exact E1|]. rewrite E2, E3, L2. split; [lra|]. cbn [map nth]. change (Z.max 0 (2 - 2)) with 0%Z. rewrite LV. unfold layer_d, demo_X. cbn [Z.even Z.eqb Pos.eqb Z.add Pos.add Pos.succ]. field.
Qed.
(** The same state: the totals over both zones. *)
Example cloud_totals_example : exists F, make_diagnostic_fields layered 20 layers = Ok F /\ f_time F = 300000000 / 29980000000 /\ fold_right Rplus 0 (map solid_angle (f_zones F)) = 4 * PI /\
  fold_right Rplus 0 (map total_energy (f_zones F)) = rsum (fun i => rsum (fun j => c4 (layer_U i j)) 2) 4 * cgs_energy layered.
Proof.
  assert (HS : sizes 20 4 2) by (unfold sizes; lia). assert (X0 : demo_X 0 <> 0) by (unfold demo_X; cbn; lra). destruct (proj1 (cloud_diagnostics layered 20 4 2 demo_X demo_Q layer_U layers layered_good HS ltac:(lia) X0 layers_grid) layer_P layers_gas) as (F & E & FA & _).
  exists F. split; [exact E|]. split; [rewrite FA; cbn [time layers inner_radius layered]; lra|]. destruct (cloud_diagnostic_totals layered 20 4 2 demo_X demo_Q layer_U layers F layered_good HS ltac:(lia) X0 layers_grid E) as (A & _ & B). split; [|exact A].
  apply B; unfold demo_Q; [ring|field].
Qed.
(** Three shells of gas at rest whose density doubles at the outer one: the gas ahead of the shock is found behind it. *)
Definition step_P (i _ : Z) : prim := Prim (if (i =? 2)%Z then 2 else 1) 0 0 0 1.
Definition step_U (i j : Z) : v5 := times5 (srhd_conserved (step_P i j) gamma_law_index) (vol demo_X demo_Q i j).
Definition stepped : solution := Solution 0 (vector 4 demo_X) (vector 3 demo_Q) (table 3 2 step_U).
Theorem cloud_upstream_refuted : exists F z, make_diagnostic_fields demo 20 stepped = Ok F /\ nth_error (f_zones F) 0 = Some z /\ upstream_radius z = 450000000 /\ midpoint_radius z = 750000000 /\ flow_gamma z = 1 /\ flow_power z = 0.
Proof.
  assert (HS : sizes 20 3 2) by (unfold sizes; lia). assert (X0 : demo_X 0 <> 0) by (unfold demo_X; cbn; lra).
  assert (HP : gas_of demo 3 2 demo_X demo_Q step_U step_P).
  { apply gas_recovered. intros i j Hi Hj. pose proof (demo_vol i j ltac:(lia) Hj) as V. unfold step_U. set (v := vol demo_X demo_Q i j) in *.
    match goal with |- srhd_recover (over5 (times5 ?w v) v) _ _ = _ => replace (over5 (times5 w v) v) with w by (destruct w as [a b c d e]; unfold over5, times5; cbn [c0 c1 c2 c3 c4]; f_equal; field; lra) end.
    apply recover_static_exact; cbn [step_P u1 u2 u3 demo temperature_floor]; try lra. unfold relativistic, gamma_law_index, step_P. cbn [rho pre]. destruct (i =? 2)%Z; lra. }
  destruct (proj1 (cloud_diagnostics demo 20 3 2 demo_X demo_Q step_U stepped (proj1 demo_good) HS ltac:(lia) X0 ltac:(split; [apply (vector_rep 4)|split; [apply (vector_rep 3)|apply table_grid]])) step_P HP) as (F & E & (_ & _ & _ & L & Z & _)).
  destruct (nth_error (f_zones F) 0) as [z|] eqn:Ez; [|apply nth_error_None in Ez; lia]. exists F, z. split; [exact E|]. split; [exact Ez|].
  destruct (Z 0%Z z ltac:(lia) Ez) as (i & u & r & l & ((I1 & I2 & _) & U1 & (R1 & _) & _ & _ & _ & E1 & E2 & _ & _ & E3 & E4 & _)). cbv beta in *.
  assert (I : i = 1%Z).
  { assert (i = 0%Z \/ i = 1%Z) as [-> | ->] by lia; [|reflexivity]. exfalso. specialize (I2 1%Z ltac:(lia)). unfold entropy, step_P in I2. cbn [rho pre Z.eqb Pos.eqb Z.add Pos.add] in I2.
    assert (ln (1 / Rpower 2 (4 / 3)) < ln (1 / Rpower 1 (4 / 3))); [|lra]. assert (0 < Rpower 2 (4 / 3)) by apply exp_pos. assert (P1 : Rpower 1 (4 / 3) = 1) by (unfold Rpower; rewrite ln_1, Rmult_0_r; apply exp_0).
    rewrite P1. apply ln_increasing; [apply Rdiv_lt_0_compat; lra|]. assert (1 < Rpower 2 (4 / 3)). { rewrite <- (Rpower_O 2) by lra. apply Rpower_lt; lra. } apply (Rmult_lt_reg_r (Rpower 2 (4 / 3))); [assumption|]. unfold Rdiv. rewrite Rmult_assoc, Rinv_l by lra. lra. }
  subst i. destruct U1 as [(? & _)|(-> & _)]; [lia|]. rewrite E1, E2, E3, E4. unfold shell_radius, zone_power, srhd_energy_flux, step_P, demo_X. cbn [demo inner_radius Z.add Pos.add Pos.succ u1 u2 u3].
  split; [field|]. split; [field|]. split; [replace (1 + (0 ^ 2 + 0 ^ 2 + 0 ^ 2)) with 1 by ring; apply sqrt_1|ring].
Qed.
Print Assumptions cloud_diagnostics.
Print Assumptions cloud_diagnostic_totals.
Print Assumptions cloud_shock_places.
Print Assumptions cloud_energy_flow_refuted.
Print Assumptions cloud_diagnostics_one_shell.
Print Assumptions cloud_power_max_refuted.
Print Assumptions cloud_upstream_refuted.
