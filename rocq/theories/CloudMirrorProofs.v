(** The step of the cloud program seen in a mirror that exchanges the two poles. *)
From Coq Require Import ZArith Reals List Lia Lra Bool.
From Verif Require Import Base NdModel NdSpec NdProofs NdOpsModel DimensionalModel HydroModel HlleProofs PlmModel PlmProps MeshModel SedovModel Rep1Proofs SedovProofs Rep2Proofs CloudModel CloudProofs CloudProofs2 CloudFileProps.
Import ListNotations.
Open Scope R_scope.

Definition opposite (U : v5) : v5 := V5 (- c0 U) (- c1 U) (- c2 U) (- c3 U) (- c4 U).
Lemma mirrored_twice U : mirrored (mirrored U) = U. Proof. destruct U. unfold mirrored. cbn. rewrite Ropp_involutive. reflexivity. Qed.
Lemma mirrored_plus A B : mirrored (plus5 A B) = plus5 (mirrored A) (mirrored B). Proof. unfold mirrored, plus5. cbn. f_equal; ring. Qed.
Lemma mirrored_minus A B : mirrored (minus5 A B) = minus5 (mirrored A) (mirrored B). Proof. unfold mirrored, minus5. cbn. f_equal; ring. Qed.
Lemma mirrored_times A k : mirrored (times5 A k) = times5 (mirrored A) k. Proof. unfold mirrored, times5. cbn. f_equal; ring. Qed.
Lemma mirrored_over A k : mirrored (over5 A k) = over5 (mirrored A) k. Proof. unfold mirrored, over5. cbn. f_equal; unfold Rdiv; ring. Qed.

(** ** Fluxes and sources *)
Lemma uu_mirror P : gamma_beta_squared (mirror_gas P) = gamma_beta_squared P. Proof. unfold gamma_beta_squared, mirror_gas. cbn. ring. Qed.
Lemma lorentz_mirror P : lorentz_factor (mirror_gas P) = lorentz_factor P. Proof. unfold lorentz_factor. rewrite uu_mirror. reflexivity. Qed.
Lemma enthalpy_mirror P g : specific_enthalpy (mirror_gas P) g = specific_enthalpy P g. Proof. reflexivity. Qed.
Lemma conserved_mirror P g : srhd_conserved (mirror_gas P) g = mirrored (srhd_conserved P g).
Proof. unfold srhd_conserved. cbv zeta. rewrite lorentz_mirror, enthalpy_mirror. unfold mirrored, mirror_gas. cbn [rho u1 u2 u3 pre c0 c1 c2 c3 c4]. f_equal; ring. Qed.
Lemma beta_radial P : beta_along (mirror_gas P) (on_axis 0) = beta_along P (on_axis 0).
Proof. unfold beta_along, project. rewrite ?lorentz_mirror. unfold mirror_gas, on_axis. cbn. rewrite ?uu_mirror, ?lorentz_mirror. unfold Rdiv. ring. Qed.
Lemma beta_polar P : beta_along (mirror_gas P) (on_axis 1) = - beta_along P (on_axis 1).
Proof. unfold beta_along, project. rewrite lorentz_mirror. unfold mirror_gas, on_axis. cbn [rho u1 u2 u3 n1 n2 n3 make_unit_vector]. unfold Rdiv. ring. Qed.
Lemma speeds_radial P g : srhd_wavespeeds (mirror_gas P) (on_axis 0) g = srhd_wavespeeds P (on_axis 0) g.
Proof. unfold srhd_wavespeeds. rewrite beta_radial, uu_mirror. reflexivity. Qed.
Lemma speeds_polar P g : srhd_wavespeeds (mirror_gas P) (on_axis 1) g = reversed (srhd_wavespeeds P (on_axis 1) g).
Proof.
  unfold srhd_wavespeeds, reversed. rewrite beta_polar, uu_mirror. cbv zeta. cbn [fst snd]. change (srhd_sound_speed_squared (mirror_gas P) g) with (srhd_sound_speed_squared P g).
  replace (- beta_along P (on_axis 1) * - beta_along P (on_axis 1)) with (beta_along P (on_axis 1) * beta_along P (on_axis 1)) by ring. f_equal; unfold Rdiv; ring.
Qed.
Lemma hlle_mirrored l r g : srhd_hlle (mirror_gas l) (mirror_gas r) (on_axis 0) g = mirrored (srhd_hlle l r (on_axis 0) g).
Proof.
  unfold srhd_hlle. cbv zeta. rewrite !speeds_radial, !conserved_mirror. unfold srhd_flux. rewrite !beta_radial.
  set (ap := smax 0 _). set (am := smin 0 _). unfold hlle5, flux5, hlle_component, mirrored, mirror_gas, on_axis. cbn [rho u1 u2 u3 pre c0 c1 c2 c3 c4 n1 n2 n3 make_unit_vector]. f_equal; unfold Rdiv; ring.
Qed.
(** Seen in the mirror, what flowed towards one pole flows towards the other. *)
Lemma hlle_reversed l r g : srhd_hlle (mirror_gas r) (mirror_gas l) (on_axis 1) g = opposite (mirrored (srhd_hlle l r (on_axis 1) g)).
Proof.
  unfold srhd_hlle. cbv zeta. rewrite !speeds_polar, !conserved_mirror. unfold srhd_flux. rewrite !beta_polar.
  destruct (fan_reversed (srhd_wavespeeds l (on_axis 1) g) (srhd_wavespeeds r (on_axis 1) g)) as [E1 E2]. unfold fan_plus, fan_minus in E1, E2. rewrite E1, E2.
  set (ap := smax 0 (smax _ _)). set (am := smin 0 (smin _ _)). unfold hlle5, flux5, hlle_component, mirrored, opposite, mirror_gas, on_axis. cbn [rho u1 u2 u3 pre c0 c1 c2 c3 c4 n1 n2 n3 make_unit_vector].
  replace (- am - - ap) with (ap - am) by ring. f_equal; unfold Rdiv; ring.
Qed.
Lemma source_mirrored P g r q : srhd_source (mirror_gas P) g r (- q) = mirrored (srhd_source P g r q).
Proof. unfold srhd_source. cbv zeta. change (enthalpy_density (mirror_gas P) g) with (enthalpy_density P g). unfold mirrored, mirror_gas. cbn [rho u1 u2 u3 pre c0 c1 c2 c3 c4]. f_equal; unfold Rdiv; ring. Qed.

(** ** Face states *)
Lemma slope_neg theta a b c : estimate_gradient theta (- a) (- b) (- c) = - estimate_gradient theta a b c. Proof. apply plm_negation. Qed.
Lemma slope_rev theta a b c : estimate_gradient theta c b a = - estimate_gradient theta a b c. Proof. apply plm_reversal. Qed.
Lemma lift_mirror theta A B C : lift3 (estimate_gradient theta) (mirror_gas A) (mirror_gas B) (mirror_gas C) = mirror_gas (lift3 (estimate_gradient theta) A B C).
Proof. unfold lift3, mirror_gas. cbn [rho u1 u2 u3 pre]. rewrite slope_neg. reflexivity. Qed.
Lemma lift_reverse theta A B C : lift3 (estimate_gradient theta) C B A = prim_times (lift3 (estimate_gradient theta) A B C) (-1).
Proof. unfold lift3, prim_times. cbn [rho u1 u2 u3 pre]. rewrite (slope_rev theta (rho A)), (slope_rev theta (u1 A)), (slope_rev theta (u2 A)), (slope_rev theta (u3 A)), (slope_rev theta (pre A)). f_equal; ring. Qed.
Lemma zero_mirror : mirror_gas zero_prim = zero_prim. Proof. unfold mirror_gas, zero_prim. cbn. f_equal; ring. Qed.
Lemma gradient_mirror theta L M k i : (forall x, M x = mirror_gas (L x)) -> line_gradient theta M k i = mirror_gas (line_gradient theta L k i).
Proof. intros E. unfold line_gradient. destruct (_ || _); [symmetry; apply zero_mirror|]. rewrite !E. apply lift_mirror. Qed.
Lemma states_mirror c L M k i : (forall x, M x = mirror_gas (L x)) -> face_states c M k i = (mirror_gas (fst (face_states c L k i)), mirror_gas (snd (face_states c L k i))).
Proof.
  intros E. unfold face_states. destruct (_ =? 1)%Z; [unfold pcm_states; rewrite !E; reflexivity|]. unfold plm_states. rewrite !(gradient_mirror _ _ _ _ _ E), !E. cbn [fst snd].
  unfold prim_plus, prim_minus, prim_times, mirror_gas. cbn [rho u1 u2 u3 pre]. f_equal; f_equal; ring.
Qed.
Lemma gradient_reversed theta L M k i : (forall x, M x = mirror_gas (L (k - 1 - x)%Z)) -> line_gradient theta M k i = prim_times (mirror_gas (line_gradient theta L k (k - 1 - i))) (-1).
Proof.
  intros E. unfold line_gradient. destruct (Z.eqb_spec i 0) as [A|A], (Z.eqb_spec i (k - 1)) as [B|B], (Z.eqb_spec (k - 1 - i) 0) as [C|C], (Z.eqb_spec (k - 1 - i) (k - 1)) as [D|D]; try lia; cbn [orb];
    try (rewrite zero_mirror; unfold prim_times, zero_prim; cbn; f_equal; ring).
  rewrite !E. replace (k - 1 - (i - 1))%Z with (1 + (k - 1 - i))%Z by lia. replace (k - 1 - (1 + i))%Z with (k - 1 - i - 1)%Z by lia. rewrite lift_mirror, lift_reverse. unfold mirror_gas, prim_times. cbn [rho u1 u2 u3 pre]. f_equal; ring.
Qed.
Lemma states_reversed c L M k i : (forall x, M x = mirror_gas (L (k - 1 - x)%Z)) -> face_states c M k i = (mirror_gas (snd (face_states c L k (k - 2 - i))), mirror_gas (fst (face_states c L k (k - 2 - i)))).
Proof.
  intros E. unfold face_states. replace (k - 2 - i)%Z with (k - 1 - (1 + i))%Z by lia. destruct (_ =? 1)%Z.
  - unfold pcm_states. rewrite !E. cbn [fst snd]. f_equal; do 2 f_equal; lia.
  - unfold plm_states. rewrite !(gradient_reversed _ _ _ _ _ E), !E. cbn [fst snd]. replace (1 + (k - 1 - (1 + i)))%Z with (k - 1 - i)%Z by lia.
    unfold prim_plus, prim_minus, prim_times, mirror_gas. cbn [rho u1 u2 u3 pre]. f_equal; f_equal; ring.
Qed.

(** ** The step *)
Section Mirror.
Variables (c : config) (n m : Z) (X Q : Z -> R) (ref : unit_system).
Hypothesis HM : (1 <= m)%Z.
(** The polar vertices lie alike on both sides of the equator. *)
Hypothesis HQ : forall j, (0 <= j <= m)%Z -> Q (m - j)%Z = PI - Q j.
Definition swapped {A} (F : Z -> Z -> A) (i j : Z) : A := F i (m - 1 - j)%Z.

Lemma vertex_low j : (0 <= j < m)%Z -> Q (m - 1 - j)%Z = PI - Q (1 + j)%Z. Proof. intros Hj. rewrite <- HQ by lia. f_equal. lia. Qed.
Lemma vertex_high j : (0 <= j < m)%Z -> Q (1 + (m - 1 - j))%Z = PI - Q j. Proof. intros Hj. rewrite <- HQ by lia. f_equal. lia. Qed.
Lemma cos_pi x : cos (PI - x) = - cos x. Proof. rewrite cos_minus, cos_PI, sin_PI. ring. Qed.
Lemma sin_pi x : sin (PI - x) = sin x. Proof. rewrite sin_minus, cos_PI, sin_PI. ring. Qed.
Lemma area_r_swap i j : (0 <= j < m)%Z -> area_r X Q i (m - 1 - j) = area_r X Q i j.
Proof. intros Hj. unfold area_r. rewrite vertex_low, vertex_high, !cos_pi by exact Hj. ring. Qed.
Lemma vol_swap i j : (0 <= j < m)%Z -> vol X Q i (m - 1 - j) = vol X Q i j.
Proof. intros Hj. unfold vol. rewrite vertex_low, vertex_high, !cos_pi by exact Hj. unfold Rdiv. ring. Qed.
Lemma area_q_swap i j : (0 <= j <= m)%Z -> area_q X Q i (m - j) = area_q X Q i j.
Proof. intros Hj. unfold area_q. rewrite HQ, sin_pi by exact Hj. reflexivity. Qed.
Lemma center_swap j : (0 <= j < m)%Z -> center_q Q (m - 1 - j) = PI - center_q Q j.
Proof. intros Hj. unfold center_q. rewrite vertex_low, vertex_high by exact Hj. lra. Qed.
Lemma nozzle_swap t j : (0 <= j < m)%Z -> nozzle c Q ref t j = mirror_gas (nozzle c Q ref t (m - 1 - j)).
Proof.
  intros Hj. unfold nozzle. rewrite center_swap by exact Hj. unfold inflow, mirror_gas. cbv zeta. cbn [rho u1 u2 u3 pre]. replace (PI - (PI - center_q Q j)) with (center_q Q j) by ring. f_equal; ring.
Qed.

Variables (t : R) (P : Z -> Z -> prim) (U : Z -> Z -> v5) (dt : R).
Definition mirror_field (P : Z -> Z -> prim) (i j : Z) : prim := mirror_gas (swapped P i j).
Definition mirror_state (U : Z -> Z -> v5) (i j : Z) : v5 := mirrored (swapped U i j).
Lemma extended_swap i j : (0 <= j < m)%Z -> extended c n Q ref t (mirror_field P) j i = mirror_gas (extended c n Q ref t P (m - 1 - j) i).
Proof. intros Hj. unfold extended. destruct (i <? 1)%Z; [apply nozzle_swap; exact Hj|]. unfold mirror_field, swapped. destruct (i <? n + 1)%Z; reflexivity. Qed.
Lemma flux_r_swap i j : (0 <= j < m)%Z -> flux_r c n Q ref t (mirror_field P) i j = mirrored (flux_r c n Q ref t P i (m - 1 - j)).
Proof.
  intros Hj. unfold flux_r. rewrite (states_mirror c (extended c n Q ref t P (m - 1 - j))) by (intros x; apply extended_swap; exact Hj). destruct (face_states c (extended c n Q ref t P (m - 1 - j)) (n + 2) i) as [l r]. cbn [fst snd]. apply hlle_mirrored.
Qed.
Lemma flux_q_swap i j : (0 <= j <= m)%Z -> flux_q c m (mirror_field P) i j = opposite (mirrored (flux_q c m P i (m - j))).
Proof.
  intros Hj. unfold flux_q. destruct (Z.eqb_spec j 0) as [A|A], (Z.eqb_spec j m) as [B|B], (Z.eqb_spec (m - j) 0) as [C|C], (Z.eqb_spec (m - j) m) as [D|D]; try lia; cbn [orb];
    try (unfold opposite, mirrored, zero5; cbn; f_equal; ring).
  rewrite (states_reversed c (P i)) by (intros x; reflexivity). replace (m - 2 - (j - 1))%Z with (m - j - 1)%Z by lia. destruct (face_states c (P i) m (m - j - 1)) as [l r]. cbn [fst snd]. apply hlle_reversed.
Qed.
Lemma source_swap i j : (0 <= j < m)%Z -> source_of X Q (mirror_field P) i j = mirrored (source_of X Q P i (m - 1 - j)).
Proof.
  intros Hj. unfold source_of, mirror_field, swapped. rewrite center_swap by exact Hj. rewrite <- source_mirrored. f_equal. rewrite <- tan_neg. f_equal. lra.
Qed.
Lemma rate_swap i j : (0 <= j < m)%Z -> rate_of c n m X Q ref t (mirror_field P) i j = mirrored (rate_of c n m X Q ref t P i (m - 1 - j)).
Proof.
  intros Hj. unfold rate_of. rewrite !flux_r_swap, source_swap, !area_r_swap, vol_swap, !flux_q_swap by lia. replace (1 + (m - 1 - j))%Z with (m - j)%Z by lia. replace (m - 1 - j)%Z with (m - (1 + j))%Z by lia.
  rewrite !area_q_swap by lia. unfold mirrored, opposite, plus5, minus5, times5. cbn [c0 c1 c2 c3 c4]. f_equal; ring.
Qed.
Lemma next_swap i j : (0 <= j < m)%Z -> next_of c n m X Q ref t (mirror_field P) (mirror_state U) dt i j = mirror_state (next_of c n m X Q ref t P U dt) i j.
Proof. intros Hj. unfold mirror_state at 2, swapped. unfold next_of. rewrite mirrored_plus, mirrored_times, rate_swap by exact Hj. reflexivity. Qed.
Lemma recovered_swap : recovered c n m X Q U P -> recovered c n m X Q (mirror_state U) (mirror_field P).
Proof.
  intros H i j Hi Hj. unfold mirror_state, mirror_field, swapped. rewrite <- mirrored_over. apply recover_mirrored. rewrite <- (vol_swap i j) by exact Hj. apply H; lia.
Qed.
End Mirror.

Lemma advance_mirror c fuel n m X Q ref app app' s s' dt r U V V' : sizes fuel n m -> method_ok c m -> make_reference_units c = Ok ref -> (forall j, (0 <= j <= m)%Z -> Q (m - j)%Z = PI - Q j) ->
  on_grid app n m X Q V -> on_grid app' n m X Q V' -> time app' = time app -> on_grid s n m X Q U -> on_grid s' n m X Q (mirror_state m U) -> time s' = time s -> advance c fuel app s dt = Ok r ->
  exists r' W, advance c fuel app' s' dt = Ok r' /\ on_grid r n m X Q W /\ on_grid r' n m X Q (mirror_state m W) /\ time r' = time r /\ time r = time s + dt.
Proof.
  intros HS HM HR HQ A (_ & B2 & _) T0 G (G1 & G2 & G3) T E. pose proof HS as (Hn & Hm & _). destruct (advance_spec c fuel n m X Q ref app s dt r U V HS HM HR A G E) as (P & HP & ET & GR).
  pose proof (recovered_swap c n m X Q HQ P U HP) as HP'. destruct (advance_value c fuel n m X Q ref (time app) (mirror_field m P) (mirror_state m U) dt app' s' HS HM HR B2 T0 G1 G2 G3 HP') as (u & E' & R).
  eexists. exists (next_of c n m X Q ref (time app) P U dt). split; [exact E'|]. split; [exact GR|]. split; [|split; [cbn; rewrite ET, T; reflexivity|exact ET]].
  split; [exact G1|]. split; [exact G2|]. cbn [conserved]. eapply grid2_ext; [exact R|]. intros i j Hi Hj. apply next_swap; assumption.
Qed.
Lemma step_mirror c fuel n m X Q ref s s' r U : sizes fuel n m -> method_ok c m -> make_reference_units c = Ok ref -> (forall j, (0 <= j <= m)%Z -> Q (m - j)%Z = PI - Q j) ->
  on_grid s n m X Q U -> on_grid s' n m X Q (mirror_state m U) -> time s' = time s -> next_solution c fuel s = Ok r ->
  exists r' W, next_solution c fuel s' = Ok r' /\ on_grid r n m X Q W /\ on_grid r' n m X Q (mirror_state m W) /\ time r' = time r.
Proof.
  intros HS HM HR HQ G G' T E. pose proof HS as (Hn & Hm & _). destruct (sizes_fit _ _ _ HS) as (HB & _). unfold next_solution in *. rewrite (time_step_value c n m X Q s U Hn ltac:(lia) G) in E. rewrite (time_step_value c n m X Q s' _ Hn ltac:(lia) G'). cbn [bind] in *.
  destruct (Z.eqb_spec (rk_order c) 1) as [RK|RK].
  - destruct (advance_mirror c fuel n m X Q ref s s' s s' _ r U U _ HS HM HR HQ G G' T G G' T E) as (r' & W & A & B & C & D & _). exists r', W. tauto.
  - destruct (rk_order c =? 2)%Z; [|discriminate]. apply bind_ok_inv in E as (a & E1 & E). apply bind_ok_inv in E as (b & E2 & E).
    destruct (advance_mirror c fuel n m X Q ref s s' s s' _ a U U _ HS HM HR HQ G G' T G G' T E1) as (a' & WA & A1 & A2 & A3 & A4 & A5).
    destruct (advance_mirror c fuel n m X Q ref s s' a a' _ b WA U _ HS HM HR HQ G G' T A2 A3 A4 E2) as (b' & WB & B1 & B2 & B3 & B4 & B5). rewrite A1. cbn [bind]. rewrite B1. cbn [bind].
    destruct (times_rep fuel n m X Q s U (1 / 2) HS G) as (h & EA & TA & GA). rewrite EA in E. cbn [bind] in E. destruct (times_rep fuel n m X Q b _ (1 - 1 / 2) HS B2) as (k & EB & TB & GB). rewrite EB in E. cbn [bind] in E.
    destruct (plus_rep fuel n m X Q h _ k _ HS GA GB) as (z & EZ & TZ & GZ). rewrite EZ in E. injection E as <-.
    destruct (times_rep fuel n m X Q s' _ (1 / 2) HS G') as (h' & EA' & TA' & GA'). rewrite EA'. cbn [bind]. destruct (times_rep fuel n m X Q b' _ (1 - 1 / 2) HS B3) as (k' & EB' & TB' & GB'). rewrite EB'. cbn [bind].
    destruct (plus_rep fuel n m X Q h' _ k' _ HS GA' GB') as (z' & EZ' & TZ' & GZ'). rewrite EZ'. exists z'. eexists. split; [reflexivity|]. split; [exact GZ|]. split; [|rewrite TZ', TZ, TA', TA, TB', TB, T, B4; reflexivity].
    destruct GZ' as (Z1 & Z2 & Z3). split; [exact Z1|]. split; [exact Z2|]. eapply grid2_ext; [exact Z3|]. intros i j Hi Hj. cbv beta. unfold mirror_state, swapped. rewrite mirrored_plus, !mirrored_times. reflexivity.
Qed.

(** ** Rotation about the axis *)
Definition no_spin (P : prim) : Prop := u3 P = 0.
Lemma hlle_no_spin l r a : (a < 2)%nat -> no_spin l -> no_spin r -> c3 (srhd_hlle l r (on_axis a) gamma_law_index) = 0.
Proof.
  intros Ha Hl Hr. unfold no_spin in *. unfold srhd_hlle. cbv zeta. set (ap := smax 0 _). set (am := smin 0 _). unfold hlle5, srhd_flux, flux5, srhd_conserved, hlle_component. cbv zeta. cbn [c3]. rewrite Hl, Hr.
  assert (N : n3 (on_axis a) = 0) by (destruct a as [|[|a]]; [reflexivity|reflexivity|lia]). rewrite N. unfold Rdiv. ring.
Qed.
Lemma states_no_spin c L k i : (forall x, no_spin (L x)) -> no_spin (fst (face_states c L k i)) /\ no_spin (snd (face_states c L k i)).
Proof.
  intros H. unfold face_states. destruct (_ =? 1)%Z; [split; apply H|]. assert (G : forall x, u3 (line_gradient (plm_theta c) L k x) = 0).
  { intros x. unfold line_gradient. destruct (_ || _); [reflexivity|]. unfold lift3. cbn [u3]. rewrite !H. apply gradient_flat. }
  unfold plm_states, no_spin, prim_plus, prim_minus, prim_times. cbn [fst snd u3]. rewrite !G, !H. split; ring.
Qed.
Lemma recover_no_spin U g T P : c3 U = 0 -> srhd_recover U g T = Ok P -> no_spin P.
Proof.
  intros H. unfold srhd_recover. destruct (HydroModel.newton _ _ _ _ _ _) as [[W0 p]|]; [|discriminate]. cbv zeta. set (p' := if Rlt_dec 0 T then _ else p). cbn [rho pre].
  destruct (Rle_dec _ 0); [discriminate|]. destruct (Rle_dec p' 0); [discriminate|]. intros E. injection E as <-. unfold no_spin. cbn [u3]. rewrite H. unfold Rdiv. ring.
Qed.
Lemma next_no_spin c n m X Q ref t P U dt i j : (forall i j, no_spin (P i j)) -> c3 (U i j) = 0 -> c3 (next_of c n m X Q ref t P U dt i j) = 0.
Proof.
  intros HP HU. assert (FR : forall i j, c3 (flux_r c n Q ref t P i j) = 0).
  { intros x y. unfold flux_r. destruct (states_no_spin c (extended c n Q ref t P y) (n + 2) x) as [A B].
    - intros z. unfold extended. destruct (z <? 1)%Z; [reflexivity|]. destruct (z <? n + 1)%Z; apply HP.
    - destruct (face_states c _ (n + 2) x) as [l r]. apply hlle_no_spin; [lia|exact A|exact B]. }
  assert (FQ : forall i j, c3 (flux_q c m P i j) = 0).
  { intros x y. unfold flux_q. destruct (_ || _); [reflexivity|]. destruct (states_no_spin c (P x) m (y - 1) (HP x)) as [A B]. destruct (face_states c (P x) m (y - 1)) as [l r]. apply hlle_no_spin; [lia|exact A|exact B]. }
  assert (SQ : c3 (source_of X Q P i j) = 0). { unfold source_of, srhd_source. cbv zeta. cbn [c3]. rewrite HP. unfold Rdiv. ring. }
  unfold next_of, rate_of, plus5, minus5, times5. cbn [c3]. rewrite !FR, !FQ, SQ, HU. ring.
Qed.
Definition spinless (n m : Z) (U : Z -> Z -> v5) : Prop := forall i j, (0 <= i < n)%Z -> (0 <= j < m)%Z -> c3 (U i j) = 0.
Lemma advance_no_spin c fuel n m X Q ref app s dt s' U V : sizes fuel n m -> method_ok c m -> make_reference_units c = Ok ref -> on_grid app n m X Q V -> on_grid s n m X Q U -> spinless n m U -> advance c fuel app s dt = Ok s' ->
  exists W, on_grid s' n m X Q W /\ spinless n m W.
Proof.
  intros HS HM HR (_ & A2 & _) (G1 & G2 & G3) HU E. destruct (advance_recovers c fuel n m X Q app s dt s' U HS G1 G2 G3 E) as [[P HP] _].
  set (P' i j := if ((0 <=? i) && (i <? n) && (0 <=? j) && (j <? m))%Z then P i j else zero_prim).
  assert (IN : forall i j, (0 <= i < n)%Z -> (0 <= j < m)%Z -> P' i j = P i j).
  { intros i j Hi Hj. unfold P'. destruct (Z.leb_spec 0 i), (Z.ltb_spec i n), (Z.leb_spec 0 j), (Z.ltb_spec j m); try lia. reflexivity. }
  assert (HP' : forall i j, (0 <= i < n)%Z -> (0 <= j < m)%Z -> srhd_recover (over5 (U i j) (vol X Q i j)) gamma_law_index (temperature_floor c) = Ok (P' i j)) by (intros i j Hi Hj; rewrite IN by assumption; apply HP; assumption).
  assert (NS : forall i j, no_spin (P' i j)).
  { intros i j. unfold P'. destruct (Z.leb_spec 0 i), (Z.ltb_spec i n), (Z.leb_spec 0 j), (Z.ltb_spec j m); cbn [andb]; try reflexivity. eapply recover_no_spin; [|apply HP; lia]. unfold over5. cbn [c3]. rewrite HU by lia. unfold Rdiv. ring. }
  destruct (advance_value c fuel n m X Q ref (time app) P' U dt app s HS HM HR A2 eq_refl G1 G2 G3 HP') as (u & E' & R). rewrite E' in E. injection E as <-. eexists. split; [split; [exact G1|]; split; [exact G2|exact R]|].
  intros i j Hi Hj. apply next_no_spin; [exact NS|]. apply HU; assumption.
Qed.
Lemma step_no_spin c fuel n m X Q ref s s' U : sizes fuel n m -> method_ok c m -> make_reference_units c = Ok ref -> on_grid s n m X Q U -> spinless n m U -> next_solution c fuel s = Ok s' ->
  exists W, on_grid s' n m X Q W /\ spinless n m W.
Proof.
  intros HS HM HR G HU E. pose proof HS as (Hn & Hm & _). destruct (sizes_fit _ _ _ HS) as (HB & _). unfold next_solution in E. rewrite (time_step_value c n m X Q s U Hn ltac:(lia) G) in E. cbn [bind] in E.
  destruct (rk_order c =? 1)%Z; [exact (advance_no_spin c fuel n m X Q ref s s _ s' U U HS HM HR G G HU E)|]. destruct (rk_order c =? 2)%Z; [|discriminate].
  apply bind_ok_inv in E as (a & E1 & E). apply bind_ok_inv in E as (b & E2 & E). destruct (advance_no_spin c fuel n m X Q ref s s _ a U U HS HM HR G G HU E1) as (WA & GA & SA). destruct (advance_no_spin c fuel n m X Q ref s a _ b WA U HS HM HR G GA SA E2) as (WB & GB & SB).
  destruct (times_rep fuel n m X Q s U (1 / 2) HS G) as (h & EA & _ & GH). rewrite EA in E. cbn [bind] in E. destruct (times_rep fuel n m X Q b _ (1 - 1 / 2) HS GB) as (k & EB & _ & GK). rewrite EB in E. cbn [bind] in E.
  destruct (plus_rep fuel n m X Q h _ k _ HS GH GK) as (z & EZ & _ & GZ). rewrite EZ in E. injection E as <-. eexists. split; [exact GZ|]. intros i j Hi Hj. cbv beta. unfold plus5, times5. cbn [c3]. rewrite HU, SB by assumption. ring.
Qed.
