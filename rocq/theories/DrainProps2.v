(** One cell of the binary program and the Courant number: with the linear reconstruction too a cell keeps its gas as long
    as nothing crosses a quarter of a cell in a step, and with the Courant number that the program has by default it need
    not (src/subprog_binary.cpp 66, 77, src/subprog_binary_scheme.cpp 265-291, 789-829). *)
From Coq Require Import ZArith Reals Lra List Arith Bool Lia.
From Verif Require Import Base PlmModel PlmProps DimensionalModel TwoBodyModel HydroModel HlleProps SourceModel SolutionModel SolutionProofs4 UniformProps DrainModel DrainProofs3.
Open Scope R_scope.

(** *** Statements *)
(** Gas in every cell, nowhere faster than V along either axis. *)
Definition patch (c : Z -> Z -> iprim) (V : R) : Prop := forall i j, 0 < HydroModel.sigma (c i j) /\ Rabs (HydroModel.vx (c i j)) <= V /\ Rabs (HydroModel.vy (c i j)) <= V.
(** The speed of sound is positive and at most C on the four faces of the cell (0, 0). *)
Definition patch_sound (sd : settings) (b : two_body) (l : nat) (o : R * R) (C : R) : Prop := 0 <= C /\ forall a i j, (a < 2)%nat -> (i = 0 /\ j = 0 \/ a = 0%nat /\ i = -1 /\ j = 0 \/ a = 1%nat /\ i = 0 /\ j = -1)%Z ->
  0 < cs2_at_position sd b (upper_face sd l a o i j) <= C * C.

(** *** Proofs *)
Lemma between lo hi x V : Rmin lo hi <= x <= Rmax lo hi -> Rabs lo <= V -> Rabs hi <= V -> Rabs x <= V.
Proof. unfold Rmin, Rmax, Rabs. destruct (Rle_dec lo hi); repeat destruct (Rcase_abs _); lra. Qed.
Lemma between_pos lo hi x : Rmin lo hi <= x <= Rmax lo hi -> 0 < lo -> 0 < hi -> 0 < x.
Proof. unfold Rmin, Rmax. destruct (Rle_dec lo hi); lra. Qed.

Section Face.
Variables (sd : settings) (b : two_body) (l : nat) (safe : bool) (o : R * R) (c : Z -> Z -> iprim) (V C : R).
Hypothesis Hh : 0 < spacing_at sd l.
Hypothesis Hth : (if safe then 0 else plm_theta sd) <= 2.
Hypothesis Hp : patch c V.
Let half_step (a : nat) (i j : Z) : R := plm_gradient false false false (HydroModel.sigma (along a c i j (-1))) (HydroModel.sigma (c i j)) (HydroModel.sigma (along a c i j 1)) (if safe then 0 else plm_theta sd) / 2.

Lemma along_patch a i j n : 0 < HydroModel.sigma (along a c i j n) /\ Rabs (HydroModel.vx (along a c i j n)) <= V /\ Rabs (HydroModel.vy (along a c i j n)) <= V.
Proof. unfold along. destruct (a =? 0)%nat; apply Hp. Qed.
Lemma reaches a i j (f : iprim -> R) : Rmin (f (c i j)) (f (along a c i j 1)) <= f (c i j) + plm_gradient false false false (f (along a c i j (-1))) (f (c i j)) (f (along a c i j 1)) (if safe then 0 else plm_theta sd) / 2 <= Rmax (f (c i j)) (f (along a c i j 1)) /\
  Rmin (f (along a c i j (-1))) (f (c i j)) <= f (c i j) - plm_gradient false false false (f (along a c i j (-1))) (f (c i j)) (f (along a c i j 1)) (if safe then 0 else plm_theta sd) / 2 <= Rmax (f (along a c i j (-1))) (f (c i j)).
Proof. apply plm_face_values. exact Hth. Qed.
Lemma state_above a i j : let p := prim_add (c i j) (prim_mul (prim_mul (cell_slope sd safe l a c i j) 0.5) (spacing_at sd l)) in
  HydroModel.sigma p = HydroModel.sigma (c i j) + half_step a i j /\ 0 < HydroModel.sigma p /\ Rabs (HydroModel.vx p) <= V /\ Rabs (HydroModel.vy p) <= V.
Proof.
  cbv zeta. unfold prim_add, prim_mul, cell_slope, plm_slope. cbn [HydroModel.sigma HydroModel.vx HydroModel.vy].
  assert (E : forall y g, y + g / spacing_at sd l * 0.5 * spacing_at sd l = y + g / 2) by (intros y g; replace 0.5 with (/ 2) by lra; field; lra). rewrite !E. split; [reflexivity|].
  destruct (Hp i j) as (A1 & A2 & A3). destruct (along_patch a i j 1) as (B1 & B2 & B3).
  split; [|split]; [apply (between_pos _ _ _ (proj1 (reaches a i j HydroModel.sigma)))|apply (between _ _ _ V (proj1 (reaches a i j HydroModel.vx)))|apply (between _ _ _ V (proj1 (reaches a i j HydroModel.vy)))]; assumption.
Qed.
Lemma state_below a i j : let p := prim_sub (c i j) (prim_mul (prim_mul (cell_slope sd safe l a c i j) 0.5) (spacing_at sd l)) in
  HydroModel.sigma p = HydroModel.sigma (c i j) - half_step a i j /\ 0 < HydroModel.sigma p /\ Rabs (HydroModel.vx p) <= V /\ Rabs (HydroModel.vy p) <= V.
Proof.
  cbv zeta. unfold prim_sub, prim_mul, cell_slope, plm_slope. cbn [HydroModel.sigma HydroModel.vx HydroModel.vy].
  assert (E : forall y g, y - g / spacing_at sd l * 0.5 * spacing_at sd l = y - g / 2) by (intros y g; replace 0.5 with (/ 2) by lra; field; lra). rewrite !E. split; [reflexivity|].
  destruct (Hp i j) as (A1 & A2 & A3). destruct (along_patch a i j (-1)) as (B1 & B2 & B3).
  split; [|split]; [apply (between_pos _ _ _ (proj2 (reaches a i j HydroModel.sigma)))|apply (between _ _ _ V (proj2 (reaches a i j HydroModel.vx)))|apply (between _ _ _ V (proj2 (reaches a i j HydroModel.vy)))]; assumption.
Qed.
Lemma mass_flux_is a i j : (a < 2)%nat -> let n := (if (a =? 0)%nat then (i + 1, j) else (i, j + 1))%Z in
  cell_flux sd b l safe o c a i j = d0 (iso_hlle (prim_add (c i j) (prim_mul (prim_mul (cell_slope sd safe l a c i j) 0.5) (spacing_at sd l)))
    (prim_sub (c (fst n) (snd n)) (prim_mul (prim_mul (cell_slope sd safe l a c (fst n) (snd n)) 0.5) (spacing_at sd l))) (cs2_at_position sd b (upper_face sd l a o i j)) (cs2_at_position sd b (upper_face sd l a o i j)) (axis_vector a)).
Proof.
  intros Ha n. unfold cell_flux, intercell_flux_u, v3_add. cbn [d0 fst snd]. replace (d0 (viscous_flux a _ _ _)) with 0 by (unfold viscous_flux; destruct (a =? 0)%nat; reflexivity). rewrite Rplus_0_r.
  subst n. destruct (a =? 0)%nat; reflexivity.
Qed.
Lemma flux_between a i j : (a < 2)%nat -> 0 <= C -> 0 < cs2_at_position sd b (upper_face sd l a o i j) <= C * C -> let n := (if (a =? 0)%nat then (i + 1, j) else (i, j + 1))%Z in
  - ((V + C) * (HydroModel.sigma (c (fst n) (snd n)) - half_step a (fst n) (snd n))) <= cell_flux sd b l safe o c a i j <= (V + C) * (HydroModel.sigma (c i j) + half_step a i j).
Proof.
  intros Ha HC Hc n. rewrite (mass_flux_is a i j Ha). cbv zeta. fold n. destruct (state_above a i j) as (E1 & P1 & X1 & Y1). destruct (state_below a (fst n) (snd n)) as (E2 & P2 & X2 & Y2). rewrite <- E1, <- E2.
  assert (SC : sqrt (cs2_at_position sd b (upper_face sd l a o i j)) <= C) by (rewrite <- (sqrt_square C) by assumption; apply sqrt_le_1_alt; lra).
  assert (K : forall w, Rabs (HydroModel.vx w) <= V -> Rabs (HydroModel.vy w) <= V -> Rabs (iso_velocity_along w (axis_vector a)) + sqrt (cs2_at_position sd b (upper_face sd l a o i j)) <= V + C).
  { intros w W1 W2. fold (axis_velocity w a). rewrite (axis_velocity_is w a Ha). destruct (a =? 0)%nat; lra. }
  apply hlle_mass; try lra; apply K; assumption.
Qed.

(** What is left in the cell, whatever the limiter takes out on one side it leaves on the other. *)
Lemma cell_left dt : patch_sound sd b l o C -> 0 <= dt -> HydroModel.sigma (c 0%Z 0%Z) * (1 - 4 * (V + C) * dt / spacing_at sd l) <= cell_after sd b l safe o c dt.
Proof.
  intros [HC HS] Hdt. unfold cell_after. cbv zeta.
  pose proof (flux_between 0 0 0 ltac:(lia) HC ltac:(apply HS; [lia|auto])) as F1. pose proof (flux_between 0 (-1) 0 ltac:(lia) HC ltac:(apply HS; [lia|auto])) as F2.
  pose proof (flux_between 1 0 0 ltac:(lia) HC ltac:(apply HS; [lia|auto])) as F3. pose proof (flux_between 1 0 (-1) ltac:(lia) HC ltac:(apply HS; [lia|auto])) as F4.
  cbn [Nat.eqb fst snd Z.add Z.pos_sub Pos.add] in F1, F2, F3, F4. set (h := spacing_at sd l) in *. set (s := HydroModel.sigma (c 0%Z 0%Z)) in *. set (S := V + C) in *.
  set (f1 := cell_flux _ _ _ _ _ _ 0%nat 0%Z 0%Z) in *. set (f2 := cell_flux _ _ _ _ _ _ 0%nat (-1)%Z 0%Z) in *. set (f3 := cell_flux _ _ _ _ _ _ 1%nat 0%Z 0%Z) in *. set (f4 := cell_flux _ _ _ _ _ _ 1%nat 0%Z (-1)%Z) in *.
  replace (s - (f1 - f2 + f3 - f4) * h * dt / (h * h)) with (s - (f1 - f2 + f3 - f4) * (dt / h)) by (field; lra). replace (s * (1 - 4 * S * dt / h)) with (s - 4 * S * s * (dt / h)) by (field; lra).
  assert (0 <= dt / h) by (apply Rmult_le_pos; [assumption|left; apply Rinv_0_lt_compat; assumption]).
  assert (f1 - f2 + f3 - f4 <= 4 * S * s) by lra. assert ((f1 - f2 + f3 - f4) * (dt / h) <= 4 * S * s * (dt / h)) by (apply Rmult_le_compat_r; assumption). lra.
Qed.
End Face.

(** A cell keeps its gas in either mode as long as the limiter stays within its bounds (theta at most 2) and no signal
    crosses a quarter of a cell. *)
Theorem quarter_cell_keeps_gas sd b l safe o c V C dt : 0 < spacing_at sd l -> plm_theta sd <= 2 -> patch c V -> patch_sound sd b l o C -> 0 <= dt -> 4 * (V + C) * dt <= spacing_at sd l ->
  HydroModel.sigma (c 0%Z 0%Z) * (1 - 4 * (V + C) * dt / spacing_at sd l) <= cell_after sd b l safe o c dt /\ 0 <= cell_after sd b l safe o c dt.
Proof.
  intros Hh Ht Hp HS Hdt Hq. assert (Hth : (if safe then 0 else plm_theta sd) <= 2) by (destruct safe; lra).
  pose proof (cell_left sd b l safe o c V C Hh Hth Hp dt HS Hdt) as L. split; [exact L|]. eapply Rle_trans; [|exact L]. apply Rmult_le_pos; [left; apply Hp|].
  assert (4 * (V + C) * dt / spacing_at sd l <= 1); [|lra]. apply Rmult_le_reg_r with (spacing_at sd l); [assumption|]. replace (4 * (V + C) * dt / spacing_at sd l * spacing_at sd l) with (4 * (V + C) * dt) by (field; lra). lra.
Qed.

(** *** The default settings *)
(** The settings of src/subprog_binary.cpp 66-101, on the cells of width 1 of the root block; bodies as in the default
    binary at time 0. *)
Definition default_sd : settings := Settings 1 1 (1 / 20) 1 12 (1 / 20) 0 10 (1 / 10) 0 0 (9 / 5) (2 / 5) 1000000 2 false true false false 24.
Definition default_pair : two_body := TwoBody (Body (1 / 2) (1 / 2) 0 0 (1 / 2)) (Body (1 / 2) (- (1 / 2)) 0 0 (- (1 / 2))).
(** Thin gas that runs with speed 1 along both axes into a ridge. *)
Definition ridge (i j : Z) : iprim := IPrim (if (i + j <? 0)%Z then 1 / 100 else if (i + j =? 0)%Z then 1 else 5) 1 1.
Definition ridge_center (i j : Z) : R * R := (13 / 2 + IZR i, 13 / 2 + IZR j).

Lemma ridge_cs2 x : 2 <= fst x -> 2 <= snd x -> 0 < cs2_at_position default_sd default_pair x < 1 / 100.
Proof.
  intros H1 H2. unfold cs2_at_position, grav_phi_field. cbn [default_sd axisymmetric_cs2 mach_number softening_radius default_pair body1 body2 px py mass fst snd].
  assert (K : forall q, 1 < q -> 0 < / pow12 q < 1).
  { intros q Hq. unfold pow12. assert (H4 : 1 < sqrt q) by (rewrite <- sqrt_1; apply sqrt_lt_1_alt; lra). split; [apply Rinv_0_lt_compat; lra|rewrite <- Rinv_1; apply Rinv_lt_contravar; lra]. }
  match goal with |- 0 < - (_ / pow12 ?p + _ / pow12 ?q) / 10 / 10 < _ => pose proof (K p ltac:(nra)) as K1; pose proof (K q ltac:(nra)) as K2; set (a := pow12 p) in *; set (d := pow12 q) in * end. unfold Rdiv in *. lra.
Qed.
Lemma ridge_speed x : 2 <= fst x -> 2 <= snd x -> 0 < sqrt (cs2_at_position default_sd default_pair x) < 1 / 10.
Proof.
  intros H1 H2. destruct (ridge_cs2 x H1 H2) as [H3 H4]. split; [apply sqrt_lt_R0; assumption|]. rewrite <- (sqrt_square (1 / 10)) by lra. apply sqrt_lt_1_alt. lra.
Qed.
(** Gas that runs faster than sound takes its own density through the face. *)
Lemma upwind Pl Pr cs2 a : (a < 2)%nat -> HydroModel.vx Pl = 1 -> HydroModel.vy Pl = 1 -> HydroModel.vx Pr = 1 -> HydroModel.vy Pr = 1 -> 0 < sqrt cs2 < 1 -> d0 (iso_hlle Pl Pr cs2 cs2 (axis_vector a)) = HydroModel.sigma Pl.
Proof.
  intros Ha L1 L2 R1 R2 Hc. unfold iso_hlle, hlle3. cbn [d0]. unfold hlle_component, iso_wavespeeds, iso_flux, iso_conserved. cbn [fst snd d0].
  fold (axis_velocity Pl a). fold (axis_velocity Pr a). rewrite !(axis_velocity_is _ a Ha), L1, L2, R1, R2. replace (if (a =? 0)%nat then 1 else 1) with 1 by (destruct (a =? 0)%nat; reflexivity).
  set (k := sqrt cs2) in *. unfold smax, smin. repeat (destruct (Rlt_dec _ _); try lra). all: field; lra.
Qed.
Lemma ridge_slope a i j : (a < 2)%nat -> (i + j = 0 \/ i + j = -1)%Z -> cell_slope default_sd false 0 a ridge i j = IPrim (if (i + j =? 0)%Z then 891 / 500 else 0) 0 0.
Proof.
  intros Ha Hij. unfold cell_slope, plm_slope. set (n := (i + j)%Z). assert (EA : forall m, HydroModel.sigma (along a ridge i j m) = (if (n + m <? 0)%Z then 1 / 100 else if (n + m =? 0)%Z then 1 else 5)).
  { intros m. unfold along, ridge. destruct (a =? 0)%nat; cbn [HydroModel.sigma]; [replace (i + m + j)%Z with (n + m)%Z by (subst n; lia)|replace (i + (j + m))%Z with (n + m)%Z by (subst n; lia)]; reflexivity. }
  assert (EX : forall m, HydroModel.vx (along a ridge i j m) = 1) by (intros m; unfold along; destruct (a =? 0)%nat; reflexivity). assert (EY : forall m, HydroModel.vy (along a ridge i j m) = 1) by (intros m; unfold along; destruct (a =? 0)%nat; reflexivity).
  rewrite !EA, !EX, !EY. unfold ridge. fold n. cbn [HydroModel.sigma HydroModel.vx HydroModel.vy]. cbn [default_sd plm_theta].
  assert (EH : spacing_at default_sd 0 = 1) by (unfold spacing_at; cbn [default_sd domain_radius block_size pow]; field). rewrite EH.
  assert (F : forall y z, plm_gradient false false false y y z (9 / 5) = 0) by (intros y z; apply plm_zero_at_extrema; lra). rewrite !F.
  destruct Hij as [E|E]; fold n in E; rewrite E; cbn [Z.ltb Z.compare Z.eqb Z.add Z.pos_sub Pos.add Pos.compare Pos.compare_cont]; rewrite ?F; f_equal; try field.
  destruct (plm_is_minmod false false false (1 / 100) 1 5 (9 / 5)) as (P & _). rewrite P by lra. rewrite Rmin_left; [rewrite Rmin_left; lra|]. rewrite Rmin_left; lra.
Qed.
Lemma ridge_flux a i j : (a < 2)%nat -> (i + j = 0 \/ i + j = -1)%Z -> (-1 <= i <= 0)%Z -> (-1 <= j <= 0)%Z -> cell_flux default_sd default_pair 0 false (13 / 2, 13 / 2) ridge a i j = if (i + j =? 0)%Z then 1891 / 1000 else 1 / 100.
Proof.
  intros Ha Hij Hi Hj. rewrite (mass_flux_is default_sd default_pair 0 false (13 / 2, 13 / 2) ridge a i j Ha). cbv zeta. assert (EH : spacing_at default_sd 0 = 1) by (unfold spacing_at; cbn [default_sd domain_radius block_size pow]; field).
  rewrite (ridge_slope a i j Ha Hij).
  assert (EV : forall i' j', let g := cell_slope default_sd false 0 a ridge i' j' in HydroModel.vx g = 0 /\ HydroModel.vy g = 0).
  { intros i' j'. unfold cell_slope, plm_slope. cbn [HydroModel.vx HydroModel.vy]. assert (EX : forall m, HydroModel.vx (along a ridge i' j' m) = 1 /\ HydroModel.vy (along a ridge i' j' m) = 1) by (intros m; unfold along; destruct (a =? 0)%nat; split; reflexivity).
    destruct (EX 1%Z) as [-> ->]. destruct (EX (-1)%Z) as [-> ->]. cbn [ridge HydroModel.vx HydroModel.vy]. rewrite plm_zero_at_extrema by lra. unfold Rdiv. split; ring. }
  rewrite upwind; try assumption.
  - unfold prim_add, prim_mul, ridge. cbn [HydroModel.sigma]. rewrite EH. destruct Hij as [-> | ->]; cbn; lra.
  - unfold prim_add, prim_mul. cbn. ring.
  - unfold prim_add, prim_mul. cbn. ring.
  - unfold prim_sub, prim_mul. cbn [HydroModel.vx]. rewrite (proj1 (EV _ _)). cbn. ring.
  - unfold prim_sub, prim_mul. cbn [HydroModel.vy]. rewrite (proj2 (EV _ _)). cbn. ring.
  - assert (B : -1 <= IZR i <= 0 /\ -1 <= IZR j <= 0) by (repeat split; apply IZR_le; lia).
    pose proof (ridge_speed (upper_face default_sd 0 a (13 / 2, 13 / 2) i j)) as X. unfold upper_face in *. rewrite EH in *. destruct (a =? 0)%nat; cbn [fst snd] in *; specialize (X ltac:(lra) ltac:(lra)); lra.
Qed.

(** With the default settings a first attempt can leave less than nothing in a cell: whichever of the cells around it
    sets the time step. *)
Theorem default_courant_refuted : plm_theta default_sd = 9 / 5 /\ cfl_number default_sd = 2 / 5 /\ patch ridge 1 /\ forall i j, (-2 <= i <= 2)%Z -> (-2 <= j <= 2)%Z ->
  cell_after default_sd default_pair 0 false (ridge_center 0 0) ridge (cfl_number default_sd * (spacing_at default_sd 0 / iso_max_wavespeed (ridge i j) (cs2_at_position default_sd default_pair (ridge_center i j)))) < 0.
Proof.
  split; [reflexivity|]. split; [reflexivity|]. split.
  - intros i j. unfold ridge. cbn [HydroModel.sigma HydroModel.vx HydroModel.vy]. rewrite Rabs_R1. split; [|lra]. destruct (i + j <? 0)%Z; [lra|]. destruct (i + j =? 0)%Z; lra.
  - intros i j Hi Hj. assert (B : -2 <= IZR i <= 2 /\ -2 <= IZR j <= 2) by (repeat split; apply IZR_le; lia). destruct (ridge_speed (ridge_center i j)) as [K1 K2]; [unfold ridge_center; cbn [fst snd]; lra|unfold ridge_center; cbn [fst snd]; lra|].
    assert (EH : spacing_at default_sd 0 = 1) by (unfold spacing_at; cbn [default_sd domain_radius block_size pow]; field). set (k := sqrt _) in *.
    assert (EM : iso_max_wavespeed (ridge i j) (cs2_at_position default_sd default_pair (ridge_center i j)) = 1 + k).
    { unfold iso_max_wavespeed, iso_wavespeeds. cbn [fst snd]. change (make_unit_vector 1 0 0) with (axis_vector 0). change (make_unit_vector 0 1 0) with (axis_vector 1). fold (axis_velocity (ridge i j) 0). fold (axis_velocity (ridge i j) 1).
      rewrite !axis_velocity_is by lia. cbn [Nat.eqb ridge HydroModel.vx HydroModel.vy]. fold k. rewrite (Rabs_right (1 - k)), (Rabs_right (1 + k)) by lra. unfold smax. repeat (destruct (Rlt_dec _ _); try lra). }
    rewrite EM. unfold cell_after. cbv zeta. replace (ridge_center 0 0) with (13 / 2, 13 / 2) by (unfold ridge_center; f_equal; ring). rewrite !ridge_flux by lia. rewrite EH. cbn [Z.add Z.eqb ridge HydroModel.sigma Z.ltb Z.compare default_sd cfl_number].
    assert (10 / 11 < / (1 + k)) by (replace (10 / 11) with (/ (11 / 10)) by field; apply Rinv_lt_contravar; nra). unfold Rdiv in *. rewrite !Rmult_1_l, ?Rinv_1, ?Rmult_1_r. lra.
Qed.
(** With a Courant number of a fifth the same cell keeps its gas. *)
Example quarter_cell_keeps_gas_example : patch ridge 1 /\ patch_sound default_sd default_pair 0 (13 / 2, 13 / 2) (1 / 10) /\ 0 <= cell_after default_sd default_pair 0 false (13 / 2, 13 / 2) ridge (1 / 5).
Proof.
  assert (EH : spacing_at default_sd 0 = 1) by (unfold spacing_at; cbn [default_sd domain_radius block_size pow]; field).
  assert (P : patch ridge 1) by apply default_courant_refuted. assert (S : patch_sound default_sd default_pair 0 (13 / 2, 13 / 2) (1 / 10)).
  { split; [lra|]. intros a i j Ha Hij. assert (B : -1 <= IZR i <= 0 /\ -1 <= IZR j <= 0) by (repeat split; apply IZR_le; lia).
    pose proof (ridge_cs2 (upper_face default_sd 0 a (13 / 2, 13 / 2) i j)) as X. unfold upper_face in *. rewrite EH in *. destruct (a =? 0)%nat; cbn [fst snd] in *; specialize (X ltac:(lra) ltac:(lra)); lra. }
  split; [exact P|]. split; [exact S|]. apply (quarter_cell_keeps_gas default_sd default_pair 0 false (13 / 2, 13 / 2) ridge 1 (1 / 10) (1 / 5)); try assumption; rewrite ?EH; cbn [default_sd plm_theta]; lra.
Qed.

Print Assumptions quarter_cell_keeps_gas.
Print Assumptions default_courant_refuted.
