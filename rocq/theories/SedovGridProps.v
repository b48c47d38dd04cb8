(** C82: grid, initial condition and time step of the explosion program (src/subprog_sedov.cpp 348-383, 404-405).
    C83: mass of every shell stays positive. *)
From Coq Require Import ZArith Reals List Lia Lra Bool Psatz.
From Verif Require Import Base NdModel NdSpec NdOpsModel NdProofs NdOpsProofs NdOpsProofs2 DimensionalModel HydroModel HlleProofs SrhdProps HlleProps SrhdRecoverProps SedovModel Rep1Proofs SedovProofs SedovProps.
Import ListNotations.
Open Scope R_scope.

Definition initial_density (explosion_density density_index r : R) : R := if Rlt_dec r 1 then explosion_density else exp (- density_index * ln r).
Definition initial_pressure (explosion_pressure density_index r : R) : R := if Rlt_dec r 1 then explosion_pressure else exp (- density_index * ln r) / 1000000.

Lemma ln10 : 0 < ln 10. Proof. rewrite <- ln_1. apply ln_increasing; lra. Qed.
Lemma new_solution_value H fuel d p a D n : sizes fuel n -> (n < 2147483647)%Z -> (Z.to_nat n < fuel)%nat -> 
  let X k := Rpower 10 (- (1 / 2) + (D - - (1 / 2)) * IZR k / IZR n) in
  exists s, new_solution H fuel d p a D n = Ok s /\ s_time s = 0 /\
    shells s n X (fun k => times5 (to_conserved H (initial_p d p a (center_of X k))) (volume_of X k)).
Proof.
  intros [Hn Hf] Hn' Hf' X. unfold new_solution.
  assert (RX : rep1 (new_vertices D n) (n + 1) X).
  { unfold new_vertices. apply (map1 (fun y => Rpower 10 y)). unfold linspace. split; [reflexivity|]. intros k Hk. cbn [aget hd]. rewrite w64_small by (unfold two64; lia). replace (n + 1 - 1)%Z with n by lia. reflexivity. }
  destruct (volumes_rep n X (new_vertices D n) ltac:(unfold two64; lia) RX) as (dv & E1 & R1). rewrite E1. bsimp.
  unfold cell_centers. destruct (midpoint1 Rplus (fun x => x * 0.5) _ (n + 1) X ltac:(unfold two64; lia) RX) as (xc & E2 & R2). rewrite E2. bsimp. replace (n + 1 - 1)%Z with n in R2 by lia.
  destruct (evaluate1 fuel 0 _ (n + 1) X ltac:(lia) ltac:(lia) RX) as (xv & E3 & R3). rewrite E3. bsimp.
  pose proof (map1 (to_conserved H) _ _ _ (map1 (initial_p d p a) _ _ _ R2)) as R4.
  destruct (binop1 times5 _ _ n _ _ R4 R1) as (u & E5 & R5). rewrite E5. bsimp.
  destruct (evaluate1 fuel zero5 u n _ ltac:(lia) Hf R5) as (u' & E6 & R6). rewrite E6. bsimp.
  eexists. split; [reflexivity|]. split; [reflexivity|]. split; [exact R3|]. exact R6.
Qed.
Lemma Int_part_spec x : IZR (Int_part x) <= x < IZR (Int_part x) + 1.
Proof. destruct (base_Int_part x). lra. Qed.
Lemma geometric X0 D n k : Rpower 10 (X0 + D * IZR (k + 1) / IZR n) = Rpower 10 (X0 + D * IZR k / IZR n) * Rpower 10 (D / IZR n).
Proof. rewrite <- Rpower_plus. f_equal. rewrite plus_IZR. unfold Rdiv. ring. Qed.

(** *** C82 *)
(** [z] shells, evenly spaced in the logarithm, from 10^(-1/2) to the outer radius; at rest, with the explosion inside r = 1. *)
Theorem new_run_grid H fuel d p a outer_radius nr z : 1 < outer_radius -> (1 <= z < 2147483647)%Z -> (Z.to_nat z < fuel)%nat ->
  IZR z <= ln outer_radius / ln 10 * IZR nr < IZR z + 1 ->
  exists s X, new_run H fuel d p a outer_radius nr = Ok s /\ s_time s = 0 /\ grid z X /\
    X 0%Z = / sqrt 10 /\ X z = outer_radius /\ (exists q, 1 < q /\ forall k, X (k + 1)%Z = X k * q) /\
    shells s z X (fun k => let r := (X k + X (k + 1)%Z) / 2 in
      times5 (to_conserved H (Prim (initial_density d a r) 0 0 0 (initial_pressure p a r))) ((X (k + 1)%Z ^ 3 - X k ^ 3) / 3)).
Proof.
  intros HR Hz Hf HZ. set (D := ln outer_radius / ln 10) in *. pose proof ln10 as L10. assert (LR : 0 < ln outer_radius) by (rewrite <- ln_1; apply ln_increasing; lra).
  assert (HD : 0 < D) by (apply Rdiv_lt_0_compat; assumption).
  assert (HT : truncate (D * IZR nr) = z).
  { assert (1 <= IZR z) by (apply IZR_le; lia). unfold truncate. destruct (Rle_dec 0 (D * IZR nr)) as [_|?]; [|lra]. pose proof (Int_part_spec (D * IZR nr)) as IP.
    assert (A : IZR (Int_part (D * IZR nr)) < IZR (z + 1)) by (rewrite plus_IZR; lra). assert (B : IZR z < IZR (Int_part (D * IZR nr) + 1)) by (rewrite plus_IZR; lra). apply lt_IZR in A, B. lia. }
  assert (CH : forall y, (0 <= y <= 2147483647)%Z -> chk y = Ok y) by (intros y Hy; apply chk_ok, in_int_spec; lia).
  destruct (new_solution_value H fuel d p a D z) as (s & E & T & HS); [split; [lia|lia]|lia|lia|]. set (X := fun k => Rpower 10 (- (1 / 2) + (D - - (1 / 2)) * IZR k / IZR z)) in *.
  exists s, X. unfold new_run. fold D. rewrite HT, CH by lia. bsimp. rewrite CH by lia. bsimp. replace (z + 1 - 1)%Z with z by lia.
  split; [exact E|]. split; [exact T|].
  assert (NZ : 0 < IZR z) by (apply IZR_lt; lia).
  assert (Q : 1 < Rpower 10 ((D - - (1 / 2)) / IZR z)). { pose proof (Rpower_lt 10 0 ((D - - (1 / 2)) / IZR z) ltac:(lra) ltac:(apply Rdiv_lt_0_compat; lra)) as Q. rewrite Rpower_O in Q by lra. exact Q. }
  assert (G : forall k, X (k + 1)%Z = X k * Rpower 10 ((D - - (1 / 2)) / IZR z)) by (intros k; apply geometric).
  assert (PX : forall k, 0 < X k) by (intros k; apply exp_pos).
  split. { split; [apply PX|]. intros k _. rewrite G. specialize (PX k). nra. }
  split. { unfold X. replace (- (1 / 2) + (D - - (1 / 2)) * 0 / IZR z) with (- / 2) by (field; lra). rewrite Rpower_Ropp, Rpower_sqrt by lra. reflexivity. }
  split. { unfold X. replace (- (1 / 2) + (D - - (1 / 2)) * IZR z / IZR z) with D by (field; lra). unfold Rpower, D. replace (ln outer_radius / ln 10 * ln 10) with (ln outer_radius) by (field; lra). apply exp_ln. lra. }
  split; [eexists; split; [exact Q|exact G]|].
  destruct HS as [S1 S2]. split; [exact S1|]. apply (rep1_ext _ _ _ _ S2). intros k Hk. cbv zeta. rewrite <- volume_spec. f_equal. f_equal.
  unfold center_of, initial_p, initial_density, initial_pressure. rewrite (Z.add_comm 1 k). replace ((X k + X (k + 1)%Z) * 0.5) with ((X k + X (k + 1)%Z) / 2) by lra. set (r := (X k + X (k + 1)%Z) / 2).
  unfold Rpower. destruct (Rlt_dec r 1); f_equal. unfold Rdiv. ring.
Qed.

(** The step is four tenths of the width of the innermost shell, and no shell of such a grid is narrower. *)
Theorem step_below_every_width fuel s n X U : sizes fuel n -> grid n X -> shells s n X U -> (exists q, 1 < q /\ forall k, X (k + 1)%Z = X k * q) ->
  time_step s = Ok (4 / 10 * (X 1%Z - X 0%Z)) /\ forall k, (0 <= k < n)%Z -> 4 / 10 * (X 1%Z - X 0%Z) <= 4 / 10 * (X (k + 1)%Z - X k).
Proof.
  intros [Hn Hf] [H0 HG] [HX HU] (q & Hq & HQ). split.
  - unfold time_step. destruct (difference1 Rminus _ (n + 1) X ltac:(unfold two64; lia) HX) as (z & E & R). rewrite E. bsimp. destruct R as [_ R]. rewrite R by lia. bsimp. reflexivity.
  - intros k Hk. assert (G : forall m : nat, X 0%Z <= X (Z.of_nat m)).
    { induction m as [|m IH]; [cbn; lra|]. replace (Z.of_nat (S m)) with (Z.of_nat m + 1)%Z by lia. rewrite HQ. nra. }
    specialize (G (Z.to_nat k)). rewrite Z2Nat.id in G by lia. rewrite (HQ k). change (X 1%Z) with (X (0 + 1)%Z). rewrite (HQ 0%Z). nra.
Qed.
(** Relativistic: within a step no signal of any gas crosses more than four tenths of any shell. *)
Theorem signals_stay_in_shells fuel s n X U P : sizes fuel n -> grid n X -> shells s n X U -> (exists q, 1 < q /\ forall k, X (k + 1)%Z = X k * q) -> gas P ->
  exists dt, time_step s = Ok dt /\ 0 < dt /\ forall k, (0 <= k < n)%Z ->
    Rabs (fst (srhd_wavespeeds P radial (4 / 3))) * dt < 4 / 10 * (X (k + 1)%Z - X k) /\ Rabs (snd (srhd_wavespeeds P radial (4 / 3))) * dt < 4 / 10 * (X (k + 1)%Z - X k).
Proof.
  intros HS HG HU HQ [A B]. destruct (step_below_every_width fuel s n X U HS HG HU HQ) as [E L]. eexists. split; [exact E|].
  destruct HS as [Hn _]. destruct HG as [_ HG]. pose proof (HG 0%Z ltac:(lia)) as W. change (0 + 1)%Z with 1%Z in W. split; [lra|]. intros k Hk. specialize (L k Hk).
  pose proof (signal_speeds_below_light P radial (4 / 3) ltac:(unfold relativistic; lra) radial_norm) as S. destruct (srhd_wavespeeds P radial (4 / 3)) as [m p]. cbn [fst snd].
  assert (S1 : Rabs m < 1) by (apply Rabs_def1; lra). assert (S2 : Rabs p < 1) by (apply Rabs_def1; lra). split; nra.
Qed.
(** Newtonian: the same step, whatever the sound speed. A hot explosion is crossed several times. *)
Theorem sound_step_refuted : exists P, gas P /\ forall fuel s n X U, sizes fuel n -> grid n X -> shells s n X U ->
  exists dt, time_step s = Ok dt /\ 4 * (X 1%Z - X 0%Z) < snd (euler_wavespeeds P radial (4 / 3)) * dt.
Proof.
  exists (Prim 1 0 0 0 100). split; [split; cbn; lra|]. intros fuel s n X U [Hn Hf] [H0 HG] [HX HU]. exists (4 / 10 * (X 1%Z - X 0%Z)). split.
  - unfold time_step. destruct (difference1 Rminus _ (n + 1) X ltac:(unfold two64; lia) HX) as (z & E & R). rewrite E. bsimp. destruct R as [_ R]. rewrite R by lia. bsimp. reflexivity.
  - pose proof (HG 0%Z ltac:(lia)) as W. change (0 + 1)%Z with 1%Z in W. unfold euler_wavespeeds, euler_sound_speed_squared, velocity_along, project, radial. cbv zeta. cbn [snd n1 n2 n3 make_unit_vector rho u1 u2 u3 pre].
    assert (S : 11 < sqrt (4 / 3 * 100 / 1)). { replace 11 with (sqrt (11 * 11)) by (apply sqrt_square; lra). apply sqrt_lt_1; lra. } set (c := sqrt _) in *. nra.
Qed.
(** The comment says that nr is the number of zones per decade; the grid also covers half a decade below r = 1. *)
Theorem zones_per_decade_refuted H fuel d p a outer_radius nr z : 1 < outer_radius -> (1 <= z < 2147483647)%Z -> (Z.to_nat z < fuel)%nat ->
  IZR z <= ln outer_radius / ln 10 * IZR nr < IZR z + 1 ->
  exists s X U, new_run H fuel d p a outer_radius nr = Ok s /\ shells s z X U /\ IZR z / (ln (X z / X 0%Z) / ln 10) < IZR nr.
Proof.
  intros HR Hz Hf HZ. destruct (new_run_grid H fuel d p a outer_radius nr z HR Hz Hf HZ) as (s & X & E & _ & [X0 _] & XA & XB & _ & HS). exists s, X. eexists. split; [exact E|]. split; [exact HS|].
  pose proof ln10 as L10. assert (LR : 0 < ln outer_radius) by (rewrite <- ln_1; apply ln_increasing; lra). rewrite XA, XB.
  assert (S10 : 0 < sqrt 10) by (apply sqrt_lt_R0; lra). replace (outer_radius / / sqrt 10) with (outer_radius * sqrt 10) by (field; lra). rewrite ln_mult by lra.
  rewrite <- Rpower_sqrt by lra. unfold Rpower. rewrite ln_exp. replace ((ln outer_radius + / 2 * ln 10) / ln 10) with (ln outer_radius / ln 10 + / 2) by (field; lra). set (D := ln outer_radius / ln 10) in *.
  assert (HD : 0 < D) by (apply Rdiv_lt_0_compat; assumption). assert (1 <= IZR z) by (apply IZR_le; lia). assert (0 < IZR nr) by nra. apply (Rmult_lt_reg_r (D + / 2)); [lra|]. unfold Rdiv. rewrite Rmult_assoc, Rinv_l by lra. nra.
Qed.
(** The comments put the explosion between 0.5 and 1; it begins at 0.316. *)
Theorem explosion_inner_edge_refuted H fuel d p a outer_radius nr z : 1 < outer_radius -> (1 <= z < 2147483647)%Z -> (Z.to_nat z < fuel)%nat ->
  IZR z <= ln outer_radius / ln 10 * IZR nr < IZR z + 1 -> exists s X U, new_run H fuel d p a outer_radius nr = Ok s /\ shells s z X U /\ X 0%Z < 0.317.
Proof.
  intros HR Hz Hf HZ. destruct (new_run_grid H fuel d p a outer_radius nr z HR Hz Hf HZ) as (s & X & E & _ & _ & XA & _ & _ & HS). exists s, X. eexists. split; [exact E|]. split; [exact HS|]. rewrite XA.
  assert (S : 3.16 < sqrt 10). { replace 3.16 with (sqrt (3.16 * 3.16)) by (apply sqrt_square; lra). apply sqrt_lt_1; lra. } apply (Rmult_lt_reg_l (sqrt 10)); [lra|]. rewrite Rinv_r by lra. nra.
Qed.

(** *** C83 *)
Lemma mass_flux_bounds ap am vl vr Dl Dr : am <= 0 -> 0 <= ap -> 0 < ap - am -> -1 <= am -> ap <= 1 -> am <= vl <= ap -> am <= vr <= ap -> 0 < Dl -> 0 < Dr ->
  - Dr <= (ap * (vl * Dl) - am * (vr * Dr) + ap * am * (Dr - Dl)) / (ap - am) <= Dl.
Proof.
  intros. assert (D : 0 < ap - am) by lra. split.
  - apply (Rmult_le_reg_r (ap - am)); [exact D|]. unfold Rdiv. rewrite Rmult_assoc, Rinv_l, Rmult_1_r by lra.
    replace (ap * (vl * Dl) - am * (vr * Dr) + ap * am * (Dr - Dl)) with (ap * ((vl - am) * Dl) + - am * ((vr - ap) * Dr)) by ring.
    assert (0 <= ap * ((vl - am) * Dl)) by (apply Rmult_le_pos; [lra|]; apply Rmult_le_pos; lra). assert (- am * ((ap - vr) * Dr) <= 1 * ((ap - vr) * Dr)) by (apply Rmult_le_compat_r; [apply Rmult_le_pos; lra|lra]).
    assert ((ap - vr) * Dr <= (ap - am) * Dr) by (apply Rmult_le_compat_r; lra). lra.
  - apply (Rmult_le_reg_r (ap - am)); [exact D|]. unfold Rdiv. rewrite Rmult_assoc, Rinv_l, Rmult_1_r by lra.
    replace (ap * (vl * Dl) - am * (vr * Dr) + ap * am * (Dr - Dl)) with (ap * ((vl - am) * Dl) + - am * ((vr - ap) * Dr)) by ring.
    assert (0 <= - am * ((ap - vr) * Dr)) by (apply Rmult_le_pos; [lra|]; apply Rmult_le_pos; lra). assert (ap * ((vl - am) * Dl) <= 1 * ((vl - am) * Dl)) by (apply Rmult_le_compat_r; [apply Rmult_le_pos; lra|lra]).
    assert ((vl - am) * Dl <= (ap - am) * Dl) by (apply Rmult_le_compat_r; lra). lra.
Qed.
Section Positive.
Variables (H : hydro) (ok : prim -> Prop) (m : prim -> R).
Hypothesis bounds : forall Pl Pr, ok Pl -> ok Pr -> - m Pr <= c0 (riemann H Pl Pr) <= m Pl.
Hypothesis ok_negate : forall P, ok P -> ok (negate_radial_velocity P).
Hypothesis no_mass_source : forall P r, c0 (source H P r) = 0.
Lemma positive_step fuel n X U P s s' : sizes fuel n -> grid n X -> shells s n X U -> (forall k, (0 <= k < n)%Z -> X 1%Z - X 0%Z <= X (k + 1)%Z - X k /\ X k ^ 2 + X (k + 1)%Z ^ 2 < 5 * X k * X (k + 1)%Z) ->
  (forall k, (0 <= k < n)%Z -> recover H (over5 (U k) (volume_of X k)) = Ok (P k) /\ ok (P k) /\ 0 < m (P k) /\ c0 (U k) = m (P k) * volume_of X k) ->
  next_solution H fuel s = Ok s' -> exists U', shells s' n X U' /\ forall k, (0 <= k < n)%Z -> 0 < c0 (U' k).
Proof.
  intros [Hn Hf] HG [HX HU] HR HP E. assert (HP' := HP). destruct (step_value H n X U P fuel s Hn Hf HX HU ltac:(intros k Hk; apply HP; exact Hk)) as (u & E' & RU). rewrite E' in E. injection E as <-.
  exists (next_of H n X U P). split; [split; assumption|]. intros k Hk. destruct (HP k Hk) as (_ & OK & MP & CU). destruct (HR k Hk) as [WD RT]. unfold next_of, rate_of, plus5, times5, minus5. cbn [c0]. rewrite no_mass_source, CU.
  assert (FL : - m (P k) <= c0 (flux_of H n P k)).
  { unfold flux_of. destruct (Z.eqb_spec k 0); [subst k; apply bounds; [apply ok_negate|]; exact OK|]. destruct (Z.eqb_spec k n); [lia|]. apply bounds; [apply HP; lia|exact OK]. }
  assert (FR : c0 (flux_of H n P (1 + k)) <= m (P k)).
  { unfold flux_of. destruct (Z.eqb_spec (1 + k) 0); [lia|]. destruct (Z.eqb_spec (1 + k) n).
    - replace (n - 1)%Z with k by lia. apply bounds; exact OK.
    - replace (1 + k - 1)%Z with k by lia. apply bounds; [exact OK|apply HP; lia]. }
  assert (PX : 0 < X k). { destruct HG as [H0 HG]. assert (G : forall j : nat, (Z.of_nat j <= n)%Z -> 0 < X (Z.of_nat j)).
    { induction j as [|j IH]; intros Hj; [exact H0|]. specialize (HG (Z.of_nat j) ltac:(lia)). replace (Z.of_nat (S j)) with (Z.of_nat j + 1)%Z by lia. specialize (IH ltac:(lia)). lra. }
    specialize (G (Z.to_nat k)). rewrite Z2Nat.id in G by lia. apply G. lia. }
  destruct HG as [_ HG]. pose proof (HG k Hk) as WK. pose proof (HG 0%Z ltac:(lia)) as W0. change (0 + 1)%Z with 1%Z in W0. apply Rlt_Rminus in W0. rewrite volume_spec in *. unfold step_of, cfl_number. rewrite (Z.add_comm 1 k) in *.
  set (x := X k) in *. set (y := X (k + 1)%Z) in *. set (w := X 1%Z - X 0%Z) in *. set (FA := c0 (flux_of H n P k)) in *. set (FB := c0 (flux_of H n P (k + 1))) in *. set (M := m (P k)) in *.
  assert (K : 4 / 10 * w * (x ^ 2 + y ^ 2) < (y ^ 3 - x ^ 3) / 3).
  { apply Rle_lt_trans with (4 / 10 * (y - x) * (x ^ 2 + y ^ 2)); [apply Rmult_le_compat_r; nra|]. replace ((y ^ 3 - x ^ 3) / 3) with ((y - x) * ((x ^ 2 + x * y + y ^ 2) / 3)) by field.
    replace (4 / 10 * (y - x) * (x ^ 2 + y ^ 2)) with ((y - x) * (4 / 10 * (x ^ 2 + y ^ 2))) by ring. apply Rmult_lt_compat_l; [lra|]. lra. }
  assert (K2 : 0 < M * ((y ^ 3 - x ^ 3) / 3 - 4 / 10 * w * (x ^ 2 + y ^ 2))) by (apply Rmult_lt_0_compat; lra).
  assert (A1 : 0 <= (FA + M) * (x ^ 2) * (4 / 10 * w)) by (apply Rmult_le_pos; [apply Rmult_le_pos; [lra|nra]|lra]).
  assert (A2 : 0 <= (M - FB) * (y ^ 2) * (4 / 10 * w)) by (apply Rmult_le_pos; [apply Rmult_le_pos; [lra|nra]|lra]). nra.
Qed.
End Positive.

Lemma euler_bounds Pl Pr : (forall P, P = Pl \/ P = Pr -> gas P /\ Rabs (u1 P) + sqrt (4 / 3 * pre P / rho P) <= 1) -> - rho Pr <= c0 (riemann euler_system Pl Pr) <= rho Pl.
Proof.
  intros HP. destruct (HP Pl (or_introl eq_refl)) as [[RL PL] SL]. destruct (HP Pr (or_intror eq_refl)) as [[RR PR] SR]. cbn [riemann euler_system].
  assert (KL : euler_ok Pl gamma_law_index) by (unfold euler_ok, gamma_law_index; lra). pose proof (fan_open _ (euler_wavespeeds Pr radial gamma_law_index) (euler_speeds_open Pl radial _ KL)) as O.
  unfold euler_hlle. cbv zeta. fold (fan_plus (euler_wavespeeds Pl radial gamma_law_index) (euler_wavespeeds Pr radial gamma_law_index)). fold (fan_minus (euler_wavespeeds Pl radial gamma_law_index) (euler_wavespeeds Pr radial gamma_law_index)).
  unfold hlle5, hlle_component, euler_flux, flux5, euler_conserved. cbn [c0].
  assert (V : forall P, velocity_along P radial = u1 P) by (intros P; unfold velocity_along, project, radial; cbn [n1 n2 n3 make_unit_vector]; ring). rewrite !V.
  assert (W : forall P, euler_wavespeeds P radial gamma_law_index = (u1 P - sqrt (4 / 3 * pre P / rho P), u1 P + sqrt (4 / 3 * pre P / rho P))) by (intros P; unfold euler_wavespeeds; cbv zeta; rewrite V; reflexivity). rewrite !W in *.
  assert (AB : forall x, - Rabs x <= x <= Rabs x) by (intros x; split; [destruct (Rcase_abs x); [rewrite Rabs_left; lra|rewrite Rabs_right; lra]|apply RRle_abs]). pose proof (AB (u1 Pl)). pose proof (AB (u1 Pr)).
  pose proof (sqrt_pos (4 / 3 * pre Pl / rho Pl)). pose proof (sqrt_pos (4 / 3 * pre Pr / rho Pr)). unfold fan_plus, fan_minus in *. cbn [fst snd] in *. set (cl := sqrt (4 / 3 * pre Pl / rho Pl)) in *. set (cr := sqrt (4 / 3 * pre Pr / rho Pr)) in *.
  destruct (smax_spec 0 (smax (u1 Pl + cl) (u1 Pr + cr))) as (A1 & A2 & A3). destruct (smax_spec (u1 Pl + cl) (u1 Pr + cr)) as (B1 & B2 & B3). destruct (smin_spec 0 (smin (u1 Pl - cl) (u1 Pr - cr))) as (D1 & D2 & D3). destruct (smin_spec (u1 Pl - cl) (u1 Pr - cr)) as (E1 & E2 & E3).
  set (mx := smax (u1 Pl + cl) (u1 Pr + cr)) in *. set (mn := smin (u1 Pl - cl) (u1 Pr - cr)) in *. set (ap := smax 0 mx) in *. set (am := smin 0 mn) in *.
  replace ((u1 Pl * rho Pl * ap - u1 Pr * rho Pr * am - (rho Pl - rho Pr) * ap * am) / (ap - am)) with ((ap * (u1 Pl * rho Pl) - am * (u1 Pr * rho Pr) + ap * am * (rho Pr - rho Pl)) / (ap - am)) by (field; lra).
  apply mass_flux_bounds; try lra; try (destruct A3, B3, D3, E3; lra).
Qed.
Lemma srhd_bounds Pl Pr : gas Pl -> gas Pr -> - (rho Pr * lorentz_factor Pr) <= c0 (riemann srhd_system Pl Pr) <= rho Pl * lorentz_factor Pl.
Proof.
  intros [RL PL] [RR PR]. cbn [riemann srhd_system].
  assert (KL : relativistic Pl gamma_law_index) by (unfold relativistic, gamma_law_index; lra). assert (KR : relativistic Pr gamma_law_index) by (unfold relativistic, gamma_law_index; lra).
  pose proof (signal_speeds_below_light Pl radial _ KL radial_norm) as SL. pose proof (signal_speeds_below_light Pr radial _ KR radial_norm) as SR.
  pose proof (fan_open (srhd_wavespeeds Pl radial gamma_law_index) (srhd_wavespeeds Pr radial gamma_law_index)) as O.
  unfold srhd_hlle. cbv zeta. destruct (srhd_wavespeeds Pl radial gamma_law_index) as [ml pl]. destruct (srhd_wavespeeds Pr radial gamma_law_index) as [mr pr]. unfold fan_plus, fan_minus in O. cbn [fst snd] in *. specialize (O ltac:(lra)).
  assert (LP : forall P, 0 < lorentz_factor P) by (intros P; unfold lorentz_factor, gamma_beta_squared; apply sqrt_lt_R0; nra).
  unfold hlle5, hlle_component, srhd_flux, flux5, srhd_conserved. cbn [c0]. pose proof (Rmult_lt_0_compat _ _ RL (LP Pl)) as DL. pose proof (Rmult_lt_0_compat _ _ RR (LP Pr)) as DR.
  set (Dl := rho Pl * lorentz_factor Pl) in *. set (Dr := rho Pr * lorentz_factor Pr) in *. set (vl := beta_along Pl radial) in *. set (vr := beta_along Pr radial) in *.
  destruct (smax_spec 0 (smax pl pr)) as (A1 & A2 & A3). destruct (smax_spec pl pr) as (B1 & B2 & B3). destruct (smin_spec 0 (smin ml mr)) as (D1 & D2 & D3). destruct (smin_spec ml mr) as (E1 & E2 & E3).
  set (mx := smax pl pr) in *. set (mn := smin ml mr) in *. set (ap := smax 0 mx) in *. set (am := smin 0 mn) in *.
  replace ((vl * Dl * ap - vr * Dr * am - (Dl - Dr) * ap * am) / (ap - am)) with ((ap * (vl * Dl) - am * (vr * Dr) + ap * am * (Dr - Dl)) / (ap - am)) by (field; lra).
  apply mass_flux_bounds; try lra; try (destruct A3, B3, D3, E3; lra).
Qed.
(** Newtonian: if no signal is faster than one, a step leaves mass in every shell, as long as the outer radius of a shell is
    less than 4.79 of its inner radius. *)
Definition fine (n : Z) (X : Z -> R) : Prop := forall k, (0 <= k < n)%Z -> X 1%Z - X 0%Z <= X (k + 1)%Z - X k /\ X k ^ 2 + X (k + 1)%Z ^ 2 < 5 * X k * X (k + 1)%Z.
Theorem shells_keep_mass_newtonian fuel n X U s s' : sizes fuel n -> grid n X -> fine n X -> shells s n X U ->
  (forall k, (0 <= k < n)%Z -> let D := density_in X U k in euler_gas D /\ Rabs (c1 D / c0 D) + sqrt (4 / 3 * euler_pressure D / c0 D) <= 1) ->
  next_solution euler_system fuel s = Ok s' -> exists U', shells s' n X U' /\ forall k, (0 <= k < n)%Z -> 0 < c0 (U' k).
Proof.
  intros HS HG HF HU HD E. cbv zeta in HD.
  apply (positive_step euler_system (fun P => gas P /\ Rabs (u1 P) + sqrt (4 / 3 * pre P / rho P) <= 1) rho) with (fuel := fuel) (U := U) (s := s) (P := fun k => euler_recover (density_in X U k) gamma_law_index 0); try assumption.
  - intros Pl Pr HL HR. apply euler_bounds. intros P [->| ->]; assumption.
  - intros P [[A B] C]. unfold negate_radial_velocity, gas. cbn [rho u1 u2 u3 pre]. rewrite Rabs_Ropp. tauto.
  - intros P r. reflexivity.
  - intros k Hk. destruct (HD k Hk) as [[A B] C]. destruct (euler_recovered _ A) as (R1 & R2 & _). split; [rewrite density_spec; reflexivity|]. unfold gas. rewrite R1, R2.
    assert (R3 : u1 (euler_recover (density_in X U k) gamma_law_index 0) = c1 (density_in X U k) / c0 (density_in X U k)) by reflexivity. rewrite R3. split; [tauto|]. split; [exact A|].
    unfold density_in in *. cbv zeta in *. cbn [c0] in *. rewrite volume_spec. assert (V : (X (k + 1)%Z ^ 3 - X k ^ 3) / 3 <> 0). { intros Z0. rewrite Z0 in A. unfold Rdiv in A. rewrite Rinv_0, Rmult_0_r in A. lra. } field. lra.
Qed.
(** Relativistic: whenever the recovered states carry the mass of their shells, whatever their velocities. *)
Theorem shells_keep_mass_relativistic fuel n X U P s s' : sizes fuel n -> grid n X -> fine n X -> shells s n X U ->
  (forall k, (0 <= k < n)%Z -> srhd_recover (density_in X U k) (4 / 3) 0 = Ok (P k) /\ rho (P k) * lorentz_factor (P k) * ((X (k + 1)%Z ^ 3 - X k ^ 3) / 3) = c0 (U k)) ->
  next_solution srhd_system fuel s = Ok s' -> exists U', shells s' n X U' /\ forall k, (0 <= k < n)%Z -> 0 < c0 (U' k).
Proof.
  intros HS HG HF HU HD E.
  apply (positive_step srhd_system gas (fun P => rho P * lorentz_factor P)) with (fuel := fuel) (U := U) (s := s) (P := P); try assumption.
  - intros Pl Pr HL HR. apply srhd_bounds; assumption.
  - intros Q [A B]. split; assumption.
  - intros Q r. reflexivity.
  - intros k Hk. destruct (HD k Hk) as [A B]. rewrite density_spec. destruct (recover_sound _ _ _ _ A) as (A1 & A2 & _). split; [exact A|]. split; [split; assumption|]. split; [|rewrite volume_spec; symmetry; exact B].
    apply Rmult_lt_0_compat; [exact A1|]. unfold lorentz_factor, gamma_beta_squared. apply sqrt_lt_R0. nra.
Qed.

(** *** Examples *)
(** The default run: 512 shells up to radius 100. *)
Example new_run_example : exists s X U, new_run srhd_system (Z.to_nat 600) 1 1 0 100 256 = Ok s /\ shells s 512 X U /\ X 512%Z = 100 /\ grid 512 X.
Proof.
  assert (L : ln 100 / ln 10 = 2). { replace 100 with (10 * 10) by ring. rewrite ln_mult by lra. pose proof ln10. field. lra. }
  destruct (new_run_grid srhd_system (Z.to_nat 600) 1 1 0 100 256 512) as (s & X & E & _ & G & _ & X1 & _ & HS); [lra|lia|apply Nat2Z.inj_lt; rewrite !Z2Nat.id by lia; lia|rewrite L; lra|].
  exists s, X. eexists. split; [exact E|]. split; [exact HS|]. split; [exact X1|exact G].
Qed.
(** Two shells between 1, 2 and 4 with a still gas keep their mass. *)
Example shells_keep_mass_example : exists s' U', next_solution srhd_system 2 (Solution 0 (vector 3 (fun k => 2 ^ Z.to_nat k)) (vector 2 (still (fun k => 2 ^ Z.to_nat k) srhd_system (Prim 1 0 0 0 9)))) = Ok s' /\
  shells s' 2 (fun k => 2 ^ Z.to_nat k) U' /\ forall k, (0 <= k < 2)%Z -> 0 < c0 (U' k).
Proof.
  set (X := fun k => 2 ^ Z.to_nat k). set (s := Solution 0 _ _).
  assert (X2 : forall k, (0 <= k < 2)%Z -> X (k + 1)%Z = 2 * X k) by (intros k Hk; unfold X; replace (Z.to_nat (k + 1)) with (S (Z.to_nat k)) by lia; reflexivity).
  assert (XP : forall k, 1 <= X k) by (intros k; unfold X; apply pow_R1_Rle; lra).
  assert (HS : sizes 2 2) by (split; lia). assert (HG : grid 2 X) by (split; [specialize (XP 0%Z); lra|]; intros k Hk; rewrite X2 by lia; specialize (XP k); lra).
  assert (HU : shells s 2 X (still X srhd_system (Prim 1 0 0 0 9))) by (split; apply vector_rep).
  destruct (still_gas_is_driven_relativistic 1 9 ltac:(lra) ltac:(lra) 2%nat 2%Z X s HS HG HU) as (s' & U' & E & _ & _). exists s'.
  destruct (shells_keep_mass_relativistic 2 2 X (still X srhd_system (Prim 1 0 0 0 9)) (fun _ => Prim 1 0 0 0 9) s s' HS HG) as (U1 & S1 & F1); [|exact HU| |exact E|exists U1; split; [exact E|split; assumption]].
  - intros k Hk. rewrite X2 by lia. pose proof (XP k). change (X 1%Z) with (X (0 + 1)%Z). rewrite X2 by lia. assert (X0 : X 0%Z = 1) by reflexivity. rewrite X0. split; nra.
  - intros k Hk. assert (V : 0 < (X (k + 1)%Z ^ 3 - X k ^ 3) / 3). { rewrite X2 by lia. pose proof (XP k). assert (0 < X k ^ 3) by (apply pow_lt; lra). replace ((2 * X k) ^ 3) with (8 * X k ^ 3) by ring. lra. }
    assert (W : lorentz_factor (Prim 1 0 0 0 9) = 1) by (unfold lorentz_factor, gamma_beta_squared; cbn [u1 u2 u3]; replace (1 + (0 * 0 + 0 * 0 + 0 * 0)) with 1 by ring; apply sqrt_1). split.
    + rewrite <- (recover_static_exact (Prim 1 0 0 0 9) (4 / 3) 0); [|unfold relativistic; cbn; lra|reflexivity..|lra]. f_equal.
      unfold density_in, still, times5. cbv zeta. cbn [to_conserved srhd_system]. change gamma_law_index with (4 / 3). destruct (srhd_conserved (Prim 1 0 0 0 9) (4 / 3)) as [a b c d e]. cbn [c0 c1 c2 c3 c4]. f_equal; field; lra.
    + unfold still, times5. cbn [to_conserved srhd_system c0 srhd_conserved rho]. rewrite W. ring.
Qed.
Print Assumptions new_run_grid.
Print Assumptions step_below_every_width.
Print Assumptions signals_stay_in_shells.
Print Assumptions sound_step_refuted.
Print Assumptions zones_per_decade_refuted.
Print Assumptions explosion_inner_edge_refuted.
Print Assumptions shells_keep_mass_newtonian.
Print Assumptions shells_keep_mass_relativistic.
