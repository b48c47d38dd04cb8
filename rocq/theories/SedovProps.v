(** C80: mass and energy of the explosion program (src/subprog_sedov.cpp 394-421). *)
From Coq Require Import ZArith Reals List Lia Lra Bool.
From Verif Require Import Base NdModel NdSpec NdOpsProofs2 DimensionalModel HydroModel HlleProofs SrhdProps HlleProps SrhdRecoverProps SedovModel Rep1Proofs SedovProofs.
Import ListNotations.
Open Scope R_scope.

(** *** Statements *)
(** [n] shells with the vertices X 0 < ... < X n and the conserved totals U 0 ... U (n-1). *)
Definition shells (s : solution) (n : Z) (X : Z -> R) (U : Z -> v5) : Prop :=
  rep1 (s_vertices s) (n + 1) X /\ rep1 (s_conserved s) n U.
Definition sizes (fuel : nat) (n : Z) : Prop := (1 <= n <= 2147483647)%Z /\ (Z.to_nat n <= fuel)%nat.
Definition grid (n : Z) (X : Z -> R) : Prop := 0 < X 0%Z /\ forall k, (0 <= k < n)%Z -> X k < X (k + 1)%Z.
(** The averages over the shell k: total over volume. *)
Definition density_in (X : Z -> R) (U : Z -> v5) (k : Z) : v5 :=
  let V := (X (k + 1)%Z ^ 3 - X k ^ 3) / 3 in V5 (c0 (U k) / V) (c1 (U k) / V) (c2 (U k) / V) (c3 (U k) / V) (c4 (U k) / V).
Definition gas (P : prim) : Prop := 0 < rho P /\ 0 < pre P.
(** Radial fluxes of mass and of energy (without the rest mass) in a state. *)
Definition euler_mass_flux (P : prim) : R := rho P * u1 P.
Definition euler_energy_flux (P : prim) : R := (rho P * (u1 P * u1 P + u2 P * u2 P + u3 P * u3 P) / 2 + pre P / (4 / 3 - 1) + pre P) * u1 P.
Definition srhd_mass_flux (P : prim) : R := rho P * u1 P.
Definition srhd_energy_flux (P : prim) : R := ((rho P + pre P * (1 + 1 / (4 / 3 - 1))) * sqrt (1 + (u1 P * u1 P + u2 P * u2 P + u3 P * u3 P)) - rho P) * u1 P.
Definition sum_over (f : nat -> R) (steps : nat) : R := fold_right Rplus 0 (map f (seq 0 steps)).

(** *** Proofs *)
Section Budget.
Variables (H : hydro) (ok : prim -> Prop) (mass_flux energy_flux : prim -> R).
Hypothesis wall : forall P, ok P -> c0 (riemann H (negate_radial_velocity P) P) = 0 /\ c4 (riemann H (negate_radial_velocity P) P) = 0.
Hypothesis open : forall P, ok P -> c0 (riemann H P P) = mass_flux P /\ c4 (riemann H P P) = energy_flux P.
Hypothesis no_source : forall P r, c0 (source H P r) = 0 /\ c4 (source H P r) = 0.

Lemma step_budget fuel s s' n X U : sizes fuel n -> shells s n X U -> next_solution H fuel s = Ok s' ->
  exists U' P, shells s' n X U' /\ s_time s' = s_time s + step_of X /\ (forall k, (0 <= k < n)%Z -> recover H (over5 (U k) (volume_of X k)) = Ok (P k)) /\
    (ok (P 0%Z) -> ok (P (n - 1)%Z) ->
     rsum (fun k => c0 (U' k)) n = rsum (fun k => c0 (U k)) n - step_of X * X n ^ 2 * mass_flux (P (n - 1)%Z) /\
     rsum (fun k => c4 (U' k)) n = rsum (fun k => c4 (U k)) n - step_of X * X n ^ 2 * energy_flux (P (n - 1)%Z)).
Proof.
  intros [Hn Hf] [HX HU] E. destruct (step_recovers H n X U fuel s s' Hn Hf HX HU E) as [P HP]. destruct (step_value H n X U P fuel s Hn Hf HX HU HP) as (u & E' & RU). rewrite E' in E. injection E as <-.
  exists (next_of H n X U P), P. split; [split; assumption|]. split; [reflexivity|]. split; [exact HP|]. intros O0 ON. destruct (wall _ O0) as [W0 W4]. destruct (open _ ON) as [F0 F4].
  assert (Z0 : forall c : v5 -> R, (forall P r, c (source H P r) = 0) -> rsum (fun k => c (source H (P k) (center_of X k)) * volume_of X k) n = 0).
  { intros c HC. rewrite (rsum_ext _ (fun k => 0 * 0)%R) by (intros k _; rewrite HC; ring). rewrite rsum_scale. ring. }
  assert (FN : flux_of H n P n = riemann H (P (n - 1)%Z) (P (n - 1)%Z)) by (unfold flux_of; destruct (Z.eqb_spec n 0); [lia|]; rewrite Z.eqb_refl; reflexivity).
  split; (rewrite step_total; [|lia|reflexivity|reflexivity|reflexivity]); rewrite Z0 by (intros; apply no_source); rewrite FN; unfold flux_of; cbn [Z.eqb]; [rewrite W0, F0|rewrite W4, F4]; ring.
Qed.

Lemma run_budget fuel n X : sizes fuel n -> forall steps s s' U, shells s n X U -> run H fuel steps s = Ok s' ->
  exists (sq : nat -> solution) (Us : nat -> Z -> v5) (Q : nat -> Z -> prim), sq 0%nat = s /\ sq steps = s' /\ Us 0%nat = U /\
    (forall j, (j <= steps)%nat -> shells (sq j) n X (Us j) /\ s_time (sq j) = s_time s + INR j * step_of X) /\
    (forall j, (j < steps)%nat -> next_solution H fuel (sq j) = Ok (sq (S j)) /\ forall k, (0 <= k < n)%Z -> recover H (over5 (Us j k) (volume_of X k)) = Ok (Q j k)) /\
    ((forall j, (j < steps)%nat -> ok (Q j 0%Z) /\ ok (Q j (n - 1)%Z)) ->
     rsum (fun k => c0 (Us steps k)) n = rsum (fun k => c0 (U k)) n - step_of X * X n ^ 2 * sum_over (fun j => mass_flux (Q j (n - 1)%Z)) steps /\
     rsum (fun k => c4 (Us steps k)) n = rsum (fun k => c4 (U k)) n - step_of X * X n ^ 2 * sum_over (fun j => energy_flux (Q j (n - 1)%Z)) steps).
Proof.
  intros HS steps. induction steps as [|m IH]; intros s s' U HU E.
  - injection E as <-. exists (fun _ => s), (fun _ => U), (fun _ _ => zero_prim). split; [reflexivity|]. split; [reflexivity|]. split; [reflexivity|]. split; [|split].
    + intros j Hj. split; [exact HU|]. replace j with 0%nat by lia. cbn. ring.
    + intros j Hj. lia.
    + intros _. unfold sum_over. cbn. split; ring.
  - cbn [run] in E. apply bind_ok_inv in E as (s1 & E1 & E2). destruct (step_budget fuel s s1 n X U HS HU E1) as (U1 & P & HU1 & T1 & HP & B1). destruct (IH s1 s' U1 HU1 E2) as (sq & Us & Q & S0 & SM & U0 & SH & ST & B).
    exists (fun j => match j with O => s | S i => sq i end), (fun j => match j with O => U | S i => Us i end), (fun j => match j with O => P | S i => Q i end).
    split; [reflexivity|]. split; [exact SM|]. split; [reflexivity|]. split; [|split].
    + intros [|j] Hj; [split; [exact HU|cbn; ring]|]. destruct (SH j ltac:(lia)) as [A C]. split; [exact A|]. rewrite C, T1, S_INR. ring.
    + intros [|j] Hj; [split; [rewrite S0; exact E1|exact HP]|]. apply ST. lia.
    + intros HO. destruct (B ltac:(intros j Hj; apply (HO (S j)); lia)) as [Bm Be]. destruct (HO 0%nat ltac:(lia)) as [O1 O2]. destruct (B1 O1 O2) as [Cm Ce].
      assert (SO : forall f : prim -> R, sum_over (fun j => f (match j with O => P | S i => Q i end (n - 1)%Z)) (S m) = f (P (n - 1)%Z) + sum_over (fun j => f (Q j (n - 1)%Z)) m).
      { intros f. unfold sum_over. cbn [seq map fold_right]. f_equal. rewrite <- seq_shift, map_map. reflexivity. }
      rewrite !SO, Bm, Be, Cm, Ce. split; ring.
Qed.
End Budget.

Lemma radial_norm : unit_norm radial. Proof. unfold unit_norm, radial. simpl. ring. Qed.
Lemma mirror_twice P : mirror 0 (mirror 0 P) = P. Proof. destruct P. unfold mirror. simpl. rewrite Ropp_involutive. reflexivity. Qed.
Lemma negate_mirror P : negate_radial_velocity P = mirror 0 P. Proof. reflexivity. Qed.
Lemma euler_wall P : gas P -> c0 (riemann euler_system (negate_radial_velocity P) P) = 0 /\ c4 (riemann euler_system (negate_radial_velocity P) P) = 0.
Proof.
  intros [A B]. rewrite negate_mirror. cbn [riemann euler_system]. assert (K : euler_ok P gamma_law_index) by (unfold euler_ok, gamma_law_index; lra).
  assert (M := euler_hlle_mirror 0 radial (mirror 0 P) P gamma_law_index eq_refl K K). rewrite mirror_twice in M. set (F := euler_hlle (mirror 0 P) P radial gamma_law_index) in *.
  pose proof (f_equal c0 M) as M0. pose proof (f_equal c4 M) as M4. unfold opp5, mirror5 in M0, M4. cbn [c0 c4] in M0, M4. split; lra.
Qed.
Lemma euler_open P : gas P -> c0 (riemann euler_system P P) = euler_mass_flux P /\ c4 (riemann euler_system P P) = euler_energy_flux P.
Proof.
  intros [A B]. cbn [riemann euler_system]. rewrite euler_hlle_consistent by (unfold euler_ok, gamma_law_index; lra).
  unfold euler_physical_flux, euler_flux, flux5, euler_conserved, velocity_along, project, radial, euler_mass_flux, euler_energy_flux, velocity_squared, gamma_law_index. cbn [c0 c4 n1 n2 n3 make_unit_vector]. replace 0.5 with (/ 2) by lra. split; [ring|field].
Qed.
Lemma srhd_wall P : gas P -> c0 (riemann srhd_system (negate_radial_velocity P) P) = 0 /\ c4 (riemann srhd_system (negate_radial_velocity P) P) = 0.
Proof.
  intros [A B]. rewrite negate_mirror. cbn [riemann srhd_system]. assert (K : relativistic P gamma_law_index) by (unfold relativistic, gamma_law_index; lra).
  assert (M := srhd_hlle_mirror 0 radial (mirror 0 P) P gamma_law_index eq_refl K K). rewrite mirror_twice in M. set (F := srhd_hlle (mirror 0 P) P radial gamma_law_index) in *.
  pose proof (f_equal c0 M) as M0. pose proof (f_equal c4 M) as M4. unfold opp5, mirror5 in M0, M4. cbn [c0 c4] in M0, M4. split; lra.
Qed.
Lemma srhd_open P : gas P -> c0 (riemann srhd_system P P) = srhd_mass_flux P /\ c4 (riemann srhd_system P P) = srhd_energy_flux P.
Proof.
  intros [A B]. cbn [riemann srhd_system]. rewrite srhd_hlle_consistent by (try apply radial_norm; unfold relativistic, gamma_law_index; lra).
  unfold srhd_physical_flux, srhd_flux, flux5, srhd_conserved, beta_along, project, radial, srhd_mass_flux, srhd_energy_flux, specific_enthalpy, enthalpy_density, lorentz_factor. cbn [c0 c4 n1 n2 n3 make_unit_vector].
  change (u1 P * u1 P + u2 P * u2 P + u3 P * u3 P) with (gamma_beta_squared P). set (W := sqrt (1 + gamma_beta_squared P)).
  assert (WP : 0 < W). { apply sqrt_lt_R0. unfold gamma_beta_squared. nra. } unfold gamma_law_index. split; field; lra.
Qed.

Lemma run_prefix H fuel : forall j (sq : nat -> solution) s, sq 0%nat = s -> (forall i, (i < j)%nat -> next_solution H fuel (sq i) = Ok (sq (S i))) -> run H fuel j s = Ok (sq j).
Proof.
  induction j as [|j IH]; intros sq s E HS; [cbn; rewrite E; reflexivity|]. cbn [run]. rewrite <- E, (HS 0%nat) by lia. cbn [bind].
  apply (IH (fun i => sq (S i))); [reflexivity|]. intros i Hi. apply HS. lia.
Qed.
Lemma volume_spec X k : volume_of X k = (X (k + 1)%Z ^ 3 - X k ^ 3) / 3.
Proof. unfold volume_of, shell_volume. rewrite Z.add_comm. reflexivity. Qed.
Lemma density_spec X U k : over5 (U k) (volume_of X k) = density_in X U k.
Proof. unfold over5, density_in. rewrite volume_spec. reflexivity. Qed.
Lemma step_spec X : step_of X = 4 / 10 * (X 1%Z - X 0%Z). Proof. reflexivity. Qed.

(** *** C80 *)
(** Newtonian: with the densities D, S, E in the outermost shell, mass leaves through the outer face at the rate
    X_n^2 S and energy at the rate X_n^2 (E + p) S / D; the centre is closed. *)
Definition euler_pressure (D : v5) : R := (c4 D - (c1 D * c1 D + c2 D * c2 D + c3 D * c3 D) / (2 * c0 D)) / 3.
Definition euler_gas (D : v5) : Prop := 0 < c0 D /\ 0 < euler_pressure D.
Lemma euler_recovered D : 0 < c0 D -> let P := euler_recover D gamma_law_index 0 in
  rho P = c0 D /\ pre P = euler_pressure D /\ euler_mass_flux P = c1 D /\ euler_energy_flux P = (c4 D + euler_pressure D) * (c1 D / c0 D).
Proof.
  intros HD. cbv zeta. unfold euler_mass_flux, euler_energy_flux, euler_recover, euler_pressure, gamma_law_index. cbv zeta. cbn [rho u1 u2 u3 pre]. replace 0.5 with (/ 2) by lra.
  assert (E : forall p : R, (if Rlt_dec p 0 then if Rlt_dec 0 0 then 0 * c0 D else p else p) = p) by (intros p; destruct (Rlt_dec p 0); [destruct (Rlt_dec 0 0); [lra|]|]; reflexivity).
  rewrite E. repeat split; field; lra.
Qed.
Theorem explosion_budget_newtonian fuel n X steps s s' U : sizes fuel n -> grid n X -> shells s n X U -> run euler_system fuel steps s = Ok s' ->
  exists Us : nat -> Z -> v5, Us 0%nat = U /\ shells s' n X (Us steps) /\ s_time s' = s_time s + INR steps * (4 / 10 * (X 1%Z - X 0%Z)) /\
    (forall j, (j <= steps)%nat -> exists sj, run euler_system fuel j s = Ok sj /\ shells sj n X (Us j)) /\
    ((forall j, (j < steps)%nat -> euler_gas (density_in X (Us j) 0) /\ euler_gas (density_in X (Us j) (n - 1))) ->
     let last j := density_in X (Us j) (n - 1) in let dt := 4 / 10 * (X 1%Z - X 0%Z) in
     rsum (fun k => c0 (Us steps k)) n = rsum (fun k => c0 (U k)) n - dt * X n ^ 2 * sum_over (fun j => c1 (last j)) steps /\
     rsum (fun k => c4 (Us steps k)) n = rsum (fun k => c4 (U k)) n - dt * X n ^ 2 * sum_over (fun j => (c4 (last j) + euler_pressure (last j)) * (c1 (last j) / c0 (last j))) steps).
Proof.
  intros HS HG HU E. destruct (run_budget euler_system gas _ _ euler_wall euler_open (fun P r => conj eq_refl eq_refl) fuel n X HS steps s s' U HU E) as (sq & Us & Q & S0 & SN & U0 & SH & ST & B).
  exists Us. split; [exact U0|]. split; [rewrite <- SN; apply SH; lia|]. split; [rewrite <- SN, <- step_spec; apply SH; lia|]. split.
  - intros j Hj. exists (sq j). split; [|apply SH, Hj]. apply run_prefix; [exact S0|]. intros i Hi. apply ST. lia.
  - intros HK. destruct HS as [Hn _].
    assert (QE : forall j k, (j < steps)%nat -> (0 <= k < n)%Z -> Q j k = euler_recover (density_in X (Us j) k) gamma_law_index 0).
    { intros j k Hj Hk. destruct (ST j Hj) as [_ R]. specialize (R k Hk). rewrite density_spec in R. cbn in R. congruence. }
    assert (GA : forall j, (j < steps)%nat -> gas (Q j 0%Z) /\ gas (Q j (n - 1)%Z)).
    { intros j Hj. destruct (HK j Hj) as [[A1 A2] [B1 B2]]. rewrite !QE by lia. destruct (euler_recovered _ A1) as (R1 & R2 & _). destruct (euler_recovered _ B1) as (R3 & R4 & _). unfold gas. rewrite R1, R2, R3, R4. tauto. }
    destruct (B GA) as [Bm Be]. cbv zeta. rewrite <- step_spec, Bm, Be.
    assert (SE : forall f g : nat -> R, (forall j, (j < steps)%nat -> f j = g j) -> sum_over f steps = sum_over g steps).
    { intros f g EQ. unfold sum_over. f_equal. apply map_ext_in. intros j Hj. apply in_seq in Hj. apply EQ. lia. }
    split; f_equal; f_equal; apply SE; intros j Hj; destruct (HK j Hj) as [_ [B1 _]]; rewrite QE by lia; apply (euler_recovered _ B1).
Qed.
(** Relativistic: no assumption on the states; a step that ends has recovered a gas in every shell. *)
Theorem explosion_budget_relativistic fuel n X steps s s' U : sizes fuel n -> grid n X -> shells s n X U -> run srhd_system fuel steps s = Ok s' ->
  exists (Us : nat -> Z -> v5) (Q : nat -> Z -> prim), Us 0%nat = U /\ shells s' n X (Us steps) /\ s_time s' = s_time s + INR steps * (4 / 10 * (X 1%Z - X 0%Z)) /\
    (forall j, (j <= steps)%nat -> exists sj, run srhd_system fuel j s = Ok sj /\ shells sj n X (Us j)) /\
    (forall j k, (j < steps)%nat -> (0 <= k < n)%Z -> srhd_recover (density_in X (Us j) k) (4 / 3) 0 = Ok (Q j k) /\ gas (Q j k)) /\
    let last j := Q j (n - 1)%Z in let dt := 4 / 10 * (X 1%Z - X 0%Z) in
    rsum (fun k => c0 (Us steps k)) n = rsum (fun k => c0 (U k)) n - dt * X n ^ 2 * sum_over (fun j => srhd_mass_flux (last j)) steps /\
    rsum (fun k => c4 (Us steps k)) n = rsum (fun k => c4 (U k)) n - dt * X n ^ 2 * sum_over (fun j => srhd_energy_flux (last j)) steps.
Proof.
  intros HS HG HU E. destruct (run_budget srhd_system gas _ _ srhd_wall srhd_open (fun P r => conj eq_refl eq_refl) fuel n X HS steps s s' U HU E) as (sq & Us & Q & S0 & SN & U0 & SH & ST & B).
  exists Us, Q. split; [exact U0|]. split; [rewrite <- SN; apply SH; lia|]. split; [rewrite <- SN, <- step_spec; apply SH; lia|]. split.
  - intros j Hj. exists (sq j). split; [|apply SH, Hj]. apply run_prefix; [exact S0|]. intros i Hi. apply ST. lia.
  - destruct HS as [Hn _].
    assert (GA : forall j k, (j < steps)%nat -> (0 <= k < n)%Z -> srhd_recover (density_in X (Us j) k) (4 / 3) 0 = Ok (Q j k) /\ gas (Q j k)).
    { intros j k Hj Hk. destruct (ST j Hj) as [_ R]. specialize (R k Hk). rewrite density_spec in R. cbn in R. split; [exact R|]. destruct (recover_sound _ _ _ _ R) as (A1 & A2 & _). split; assumption. }
    split; [exact GA|]. cbv zeta. rewrite <- step_spec. apply B. intros j Hj. split; apply GA; lia.
Qed.

(** *** C81: a gas at rest with the same pressure everywhere *)
Definition still (X : Z -> R) (H : hydro) (P : prim) (k : Z) : v5 := times5 (to_conserved H P) ((X (k + 1)%Z ^ 3 - X k ^ 3) / 3).
Section Still.
Variables (H : hydro) (P : prim).
Hypothesis recovered : recover H (to_conserved H P) = Ok P.
Hypothesis at_rest : negate_radial_velocity P = P.
Hypothesis flux_at_rest : riemann H P P = V5 0 (pre P) 0 0 0.
Hypothesis source_at_rest : forall r, source H P r = V5 0 (2 * pre P / r) 0 0 0.
Lemma still_step fuel n X s : sizes fuel n -> grid n X -> shells s n X (still X H P) -> exists s' U', next_solution H fuel s = Ok s' /\ shells s' n X U' /\
  forall k, (0 <= k < n)%Z -> c0 (U' k) = c0 (still X H P k) /\ c2 (U' k) = c2 (still X H P k) /\ c3 (U' k) = c3 (still X H P k) /\ c4 (U' k) = c4 (still X H P k) /\
    c1 (U' k) = c1 (still X H P k) + 4 / 10 * (X 1%Z - X 0%Z) * (pre P * (X (k + 1)%Z - X k) ^ 3 / (3 * (X k + X (k + 1)%Z))).
Proof.
  intros [Hn Hf] [H0 HG] [HX HU].
  assert (PX : forall k, (0 <= k <= n)%Z -> 0 < X k).
  { intros k Hk. assert (G : forall m : nat, (Z.of_nat m <= n)%Z -> 0 < X (Z.of_nat m)).
    { induction m as [|m IH]; intros Hm; [exact H0|]. specialize (HG (Z.of_nat m) ltac:(lia)). replace (Z.of_nat (S m)) with (Z.of_nat m + 1)%Z by lia. specialize (IH ltac:(lia)). lra. }
    specialize (G (Z.to_nat k)). rewrite Z2Nat.id in G by lia. apply G. lia. }
  assert (VP : forall k, (0 <= k < n)%Z -> 0 < (X (k + 1)%Z ^ 3 - X k ^ 3) / 3).
  { intros k Hk. specialize (HG k Hk). specialize (PX k ltac:(lia)). assert (X k ^ 3 < X (k + 1)%Z ^ 3); [|lra]. cut (0 < (X (k + 1)%Z - X k) * (X (k + 1)%Z ^ 2 + X (k + 1)%Z * X k + X k ^ 2)); [nra|]. apply Rmult_lt_0_compat; nra. }
  destruct (step_value H n X (still X H P) (fun _ => P) fuel s Hn Hf HX HU) as (u & E & RU).
  { intros k Hk. rewrite volume_spec. specialize (VP k Hk). unfold over5, still, times5. cbn [c0 c1 c2 c3 c4]. rewrite <- recovered. f_equal. destruct (to_conserved H P) as [a b c d e]. cbn [c0 c1 c2 c3 c4]. f_equal; field; lra. }
  eexists _, _. split; [exact E|]. split; [split; [exact HX|exact RU]|]. intros k Hk. unfold next_of, rate_of.
  assert (FA : forall i, flux_of H n (fun _ => P) i = V5 0 (pre P) 0 0 0). { intros i. unfold flux_of. rewrite at_rest, flux_at_rest. destruct (i =? 0)%Z, (i =? n)%Z; reflexivity. }
  rewrite !FA, source_at_rest, volume_spec. unfold plus5, times5, minus5, center_of, step_of, cfl_number. cbn [c0 c1 c2 c3 c4]. rewrite (Z.add_comm 1 k). replace 0.5 with (/ 2) by lra.
  pose proof (PX k ltac:(lia)). pose proof (PX (k + 1)%Z ltac:(lia)). repeat split; try ring. field. lra.
Qed.
End Still.
(** The finding: the program does not keep it. The pressure of the faces and the source differ by the third power of the
    width of the shell, and the gas is driven outward everywhere; its mass and energy do not change. *)
Definition driven (H : hydro) (P : prim) : Prop := forall fuel n X s, sizes fuel n -> grid n X -> shells s n X (still X H P) ->
  exists s' U', next_solution H fuel s = Ok s' /\ shells s' n X U' /\
  forall k, (0 <= k < n)%Z -> c0 (U' k) = c0 (still X H P k) /\ c4 (U' k) = c4 (still X H P k) /\ c2 (U' k) = 0 /\ c3 (U' k) = 0 /\
    c1 (U' k) = 4 / 10 * (X 1%Z - X 0%Z) * (pre P * (X (k + 1)%Z - X k) ^ 3 / (3 * (X k + X (k + 1)%Z))) /\ 0 < c1 (U' k).
Lemma driven_by H d p : 0 < p -> recover H (to_conserved H (Prim d 0 0 0 p)) = Ok (Prim d 0 0 0 p) -> riemann H (Prim d 0 0 0 p) (Prim d 0 0 0 p) = V5 0 p 0 0 0 ->
  (forall r, source H (Prim d 0 0 0 p) r = V5 0 (2 * p / r) 0 0 0) -> c1 (to_conserved H (Prim d 0 0 0 p)) = 0 -> c2 (to_conserved H (Prim d 0 0 0 p)) = 0 -> c3 (to_conserved H (Prim d 0 0 0 p)) = 0 ->
  driven H (Prim d 0 0 0 p).
Proof.
  intros Hp HR HF HSo Z1 Z2 Z3 fuel n X s HS HG HU. destruct (still_step H (Prim d 0 0 0 p) HR ltac:(unfold negate_radial_velocity; cbn; f_equal; ring) HF HSo fuel n X s HS HG HU) as (s' & U' & E & SH & F).
  exists s', U'. split; [exact E|]. split; [exact SH|]. intros k Hk. destruct (F k Hk) as (F0 & F2 & F3 & F4 & F1). split; [exact F0|]. split; [exact F4|].
  rewrite F2, F3, F1. unfold still, times5. cbn [c1 c2 c3]. rewrite Z1, Z2, Z3. split; [ring|]. split; [ring|]. split; [ring|]. cbn [pre].
  destruct HS as [Hn _]. destruct HG as [H0 HG].
  assert (PX : forall m : nat, (Z.of_nat m <= n)%Z -> 0 < X (Z.of_nat m)).
  { induction m as [|m IH]; intros Hm; [exact H0|]. specialize (HG (Z.of_nat m) ltac:(lia)). replace (Z.of_nat (S m)) with (Z.of_nat m + 1)%Z by lia. specialize (IH ltac:(lia)). lra. }
  pose proof (PX (Z.to_nat k) ltac:(lia)) as PK. rewrite Z2Nat.id in PK by lia. pose proof (HG k Hk) as W. pose proof (HG 0%Z ltac:(lia)) as W0.
  rewrite Rmult_0_l, Rplus_0_l. apply Rmult_lt_0_compat; [cbn in W0; lra|]. apply Rdiv_lt_0_compat; [|lra]. apply Rmult_lt_0_compat; [exact Hp|]. apply pow_lt. lra.
Qed.
Theorem still_gas_is_driven_newtonian d p : 0 < d -> 0 < p -> driven euler_system (Prim d 0 0 0 p).
Proof.
  intros Hd Hp. apply driven_by; try exact Hp.
  - cbn [recover to_conserved euler_system]. f_equal. unfold euler_recover, euler_conserved, velocity_squared, gamma_law_index. cbv zeta. cbn [rho u1 u2 u3 pre c0 c1 c2 c3 c4].
    destruct (Rlt_dec _ _) as [L|_]; [destruct (Rlt_dec 0 0); [lra|]|]; f_equal; field; lra.
  - cbn [riemann euler_system]. rewrite euler_hlle_consistent by (unfold euler_ok, gamma_law_index; cbn [rho pre]; lra).
    unfold euler_physical_flux, euler_flux, flux5, euler_conserved, velocity_along, project, radial. cbn [c0 c1 c2 c3 c4 n1 n2 n3 make_unit_vector rho u1 u2 u3 pre]. f_equal; ring.
  - intros r. cbn [source euler_system]. unfold euler_source_radial. cbn [rho u1 u2 u3 pre]. replace 2.0 with 2 by lra. f_equal. unfold Rdiv. ring.
  - cbn. ring.
  - cbn. ring.
  - cbn. ring.
Qed.
Theorem still_gas_is_driven_relativistic d p : 0 < d -> 0 < p -> driven srhd_system (Prim d 0 0 0 p).
Proof.
  intros Hd Hp. apply driven_by; try exact Hp.
  - cbn [recover to_conserved srhd_system]. apply recover_static_exact; try reflexivity; [|lra]. unfold relativistic, gamma_law_index. cbn [rho pre]. lra.
  - cbn [riemann srhd_system]. rewrite srhd_hlle_consistent by (try apply radial_norm; unfold relativistic, gamma_law_index; cbn [rho pre]; lra).
    unfold srhd_physical_flux, srhd_flux, flux5, srhd_conserved, beta_along, project, radial. cbn [c0 c1 c2 c3 c4 n1 n2 n3 make_unit_vector rho u1 u2 u3 pre]. f_equal; unfold Rdiv; ring.
  - intros r. cbn [source srhd_system]. unfold srhd_source_radial. cbn [rho u1 u2 u3 pre]. replace 2.0 with 2 by lra. f_equal. unfold Rdiv. ring.
  - cbn. ring.
  - cbn. ring.
  - cbn. ring.
Qed.

(** *** Examples *)
Definition vector {A} (n : Z) (F : Z -> A) : array A := mkarr [n] (fun i => Ok (F (hd 0%Z i))).
Lemma vector_rep {A} n (F : Z -> A) : rep1 (vector n F) n F. Proof. split; reflexivity. Qed.
(** One shell between 1 and 2 with density 1, velocity 1 and pressure 1/3: 7/3 - 8/5 of the mass remains after a step. *)
Example explosion_budget_example : exists s' U', next_solution euler_system 1 (Solution 0 (vector 2 (fun k => IZR (k + 1))) (vector 1 (fun _ => V5 (7 / 3) (7 / 3) 0 0 (7 / 2)))) = Ok s' /\
  shells s' 1 (fun k => IZR (k + 1)) U' /\ c0 (U' 0%Z) = 7 / 3 - 8 / 5 /\ c4 (U' 0%Z) = 7 / 2 - 44 / 15.
Proof.
  set (s := Solution 0 _ _). set (X := fun k => IZR (k + 1)).
  assert (HS : sizes 1 1) by (split; lia). assert (HU : shells s 1 X (fun _ => V5 (7 / 3) (7 / 3) 0 0 (7 / 2))) by (split; apply vector_rep).
  assert (HG : grid 1 X) by (split; [unfold X; cbn; lra|]; intros k Hk; unfold X; apply IZR_lt; lia).
  destruct (step_value euler_system 1 X (fun _ => V5 (7 / 3) (7 / 3) 0 0 (7 / 2)) (fun k => euler_recover (over5 (V5 (7 / 3) (7 / 3) 0 0 (7 / 2)) (volume_of X k)) gamma_law_index 0) 1 s ltac:(lia) ltac:(lia) (proj1 HU) (proj2 HU) ltac:(reflexivity)) as (u & E & _).
  eexists. assert (R : run euler_system 1 1 s = Ok (Solution (s_time s + step_of X) (s_vertices s) u)) by (cbn [run]; rewrite E; reflexivity).
  destruct (explosion_budget_newtonian 1 1 X 1 s _ _ HS HG HU R) as (Us & U0 & SH & _ & _ & B). exists (Us 1%nat). split; [exact E|]. split; [exact SH|].
  assert (DI : forall k, (k = 0)%Z -> density_in X (Us 0%nat) k = V5 1 1 0 0 (3 / 2)). { intros k ->. rewrite U0. unfold density_in, X. cbv zeta. cbn [c0 c1 c2 c3 c4]. change (0 + 1 + 1)%Z with 2%Z. change (0 + 1)%Z with 1%Z. f_equal; field. }
  destruct B as [Bm Be].
  - intros j Hj. replace j with 0%nat by lia. rewrite !DI by lia. unfold euler_gas, euler_pressure. cbn [c0 c1 c2 c3 c4]. lra.
  - cbv zeta in Bm, Be. unfold sum_over in Bm, Be. cbn [seq map fold_right] in Bm, Be. rewrite !DI in Bm, Be by lia. assert (R1 : forall F, rsum F 1 = F 0%Z) by (intros F; change 1%Z with (0 + 1)%Z at 1; rewrite rsum_S by lia; unfold rsum; cbn; apply Rplus_0_l). rewrite !R1 in Bm, Be. unfold X, euler_pressure in Bm, Be. cbn [c0 c1 c2 c3 c4] in Bm, Be. cbn in Bm, Be. lra.
Qed.
(** The same shell at rest with pressure 9 has the momentum 2/5 after a step. *)
Example still_gas_example : exists s' U', next_solution srhd_system 1 (Solution 0 (vector 2 (fun k => IZR (k + 1))) (vector 1 (still (fun k => IZR (k + 1)) srhd_system (Prim 1 0 0 0 9)))) = Ok s' /\
  shells s' 1 (fun k => IZR (k + 1)) U' /\ c1 (U' 0%Z) = 2 / 5.
Proof.
  set (X := fun k => IZR (k + 1)). destruct (still_gas_is_driven_relativistic 1 9 ltac:(lra) ltac:(lra) 1%nat 1%Z X (Solution 0 (vector 2 X) (vector 1 (still X srhd_system (Prim 1 0 0 0 9))))) as (s' & U' & E & SH & F).
  - split; lia.
  - split; [unfold X; cbn; lra|]. intros k Hk. unfold X. apply IZR_lt. lia.
  - split; apply vector_rep.
  - exists s', U'. split; [exact E|]. split; [exact SH|]. destruct (F 0%Z ltac:(lia)) as (_ & _ & _ & _ & F1 & _). rewrite F1. unfold X. cbn. field.
Qed.
Print Assumptions explosion_budget_newtonian.
Print Assumptions explosion_budget_relativistic.
Print Assumptions still_gas_is_driven_newtonian.
Print Assumptions still_gas_is_driven_relativistic.
