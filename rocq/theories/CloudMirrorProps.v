(** C123: the cloud program keeps the two hemispheres alike and starts no rotation (src/subprog_cloud.cpp 466-579, 676-697). *)
From Coq Require Import ZArith Reals List Lia Lra Bool String Psatz.
From Verif Require Import Base StrModel NdModel NdSpec NdOpsModel NdOpsProofs2 DimensionalModel HydroModel SrhdProps SrhdRecoverProps SedovModel Rep1Proofs SedovProofs SedovProps Rep2Proofs MainModel MainProps CloudModel CloudProofs CloudProofs2 CloudProps CloudSetupProps ScheduleModel DriftProofs RunModel RunSpec RunProps CloudFileProps CloudMirrorProofs.
Import ListNotations.
Close Scope string_scope.
Open Scope R_scope.

(** *** Statements *)
(** Polar vertices that lie alike on both sides of the equator. *)
Definition even_poles (m : Z) (Q : Z -> R) : Prop := forall j, (0 <= j <= m)%Z -> Q (m - j)%Z = PI - Q j.
(** [U'] is what a mirror in the equator shows of [U]: the zone at the same distance from the other pole, with the polar momentum
    reversed. *)
Definition mirror_images (n m : Z) (U U' : Z -> Z -> v5) : Prop := forall i j, (0 <= i < n)%Z -> (0 <= j < m)%Z ->
  c0 (U' i j) = c0 (U i (m - 1 - j)%Z) /\ c1 (U' i j) = c1 (U i (m - 1 - j)%Z) /\ c2 (U' i j) = - c2 (U i (m - 1 - j)%Z) /\ c3 (U' i j) = c3 (U i (m - 1 - j)%Z) /\ c4 (U' i j) = c4 (U i (m - 1 - j)%Z).
(** The contents of the shells between two polar angles. *)
Definition sector (c : v5 -> R) (n : Z) (U : Z -> Z -> v5) (first count : Z) : R := rsum (fun i => rsum (fun j => c (U i (first + j)%Z)) count) n.

(** *** Proofs *)
Lemma images_state n m U U' : mirror_images n m U U' <-> forall i j, (0 <= i < n)%Z -> (0 <= j < m)%Z -> U' i j = mirror_state m U i j.
Proof.
  unfold mirror_images, mirror_state, swapped, mirrored. split; intros H i j Hi Hj; specialize (H i j Hi Hj).
  - destruct H as (A & B & C & D & E). rewrite <- A, <- B, <- C, <- D, <- E. destruct (U' i j); reflexivity.
  - rewrite H. cbn. repeat split.
Qed.
Lemma on_grid_ext s n m X Q U V : on_grid s n m X Q U -> (forall i j, (0 <= i < n)%Z -> (0 <= j < m)%Z -> U i j = V i j) -> on_grid s n m X Q V.
Proof. intros (A & B & C) E. split; [exact A|]. split; [exact B|]. eapply grid2_ext; eassumption. Qed.
(** A run from the mirror image of a solution is the mirror image of the run: step by step, and it fails where the other fails. *)
Theorem cloud_run_mirrored c fuel n m X Q steps s s' r U U' : good_cloud c -> sizes fuel n m -> method_ok c m -> even_poles m Q -> on_grid s n m X Q U -> on_grid s' n m X Q U' -> mirror_images n m U U' -> time s' = time s ->
  CloudModel.run c fuel steps s = Ok r -> exists r' V V', CloudModel.run c fuel steps s' = Ok r' /\ on_grid r n m X Q V /\ on_grid r' n m X Q V' /\ mirror_images n m V V' /\ time r' = time r.
Proof.
  intros G HS HM HQ. revert s s' U U'. induction steps as [|k IH]; intros s s' U U' GU GU' I T E.
  - injection E as <-. exists s', U, U'. repeat split; try assumption; try apply GU; try apply GU'; apply I; assumption.
  - cbn [CloudModel.run] in E. apply bind_ok_inv in E as (a & E1 & E2). pose proof (proj1 (images_state _ _ _ _) I) as I'.
    destruct (step_mirror c fuel n m X Q (units_of c) s s' a U HS HM (reference_units c G) HQ GU (on_grid_ext _ _ _ _ _ _ _ GU' I') T E1) as (a' & W & A & B & C & D).
    destruct (IH a a' W (mirror_state m W) B C ltac:(apply images_state; reflexivity) D E2) as (r' & V & V' & R & K). exists r', V, V'. split; [|exact K]. cbn [CloudModel.run]. rewrite A. exact R.
Qed.
(** A solution that is its own mirror image stays so. *)
Lemma symmetric_run c fuel n m X Q steps s r U : good_cloud c -> sizes fuel n m -> method_ok c m -> even_poles m Q -> on_grid s n m X Q U -> mirror_images n m U U -> CloudModel.run c fuel steps s = Ok r ->
  exists V, on_grid r n m X Q V /\ mirror_images n m V V.
Proof.
  intros G HS HM HQ GU I E. destruct (cloud_run_mirrored c fuel n m X Q steps s s r U U G HS HM HQ GU GU I eq_refl E) as (r' & V & V' & R & GV & GV' & J & _). rewrite E in R. injection R as <-. exists V. split; [exact GV|].
  pose proof (grid2_same _ _ _ _ _ (proj2 (proj2 GV)) (proj2 (proj2 GV'))) as S. intros i j Hi Hj. rewrite (S i j Hi Hj) at 1 2 3 4 5. apply J; assumption.
Qed.
Lemma spinless_run c fuel n m X Q steps s r U : good_cloud c -> sizes fuel n m -> method_ok c m -> on_grid s n m X Q U -> spinless n m U -> CloudModel.run c fuel steps s = Ok r -> exists V, on_grid r n m X Q V /\ spinless n m V.
Proof.
  intros G HS HM. revert s U. induction steps as [|k IH]; intros s U GU I E.
  - injection E as <-. exists U. split; assumption.
  - cbn [CloudModel.run] in E. apply bind_ok_inv in E as (a & E1 & E2). destruct (step_no_spin c fuel n m X Q (units_of c) s a U HS HM (reference_units c G) GU I E1) as (W & A & B). exact (IH a W A B E2).
Qed.
Theorem cloud_no_rotation c fuel n m X Q steps s r U : good_cloud c -> sizes fuel n m -> method_ok c m -> on_grid s n m X Q U -> (forall i j, (0 <= i < n)%Z -> (0 <= j < m)%Z -> c3 (U i j) = 0) -> CloudModel.run c fuel steps s = Ok r ->
  exists V, on_grid r n m X Q V /\ forall i j, (0 <= i < n)%Z -> (0 <= j < m)%Z -> c3 (V i j) = 0.
Proof. exact (spinless_run c fuel n m X Q steps s r U). Qed.

(** Sums over the zones taken from the other pole. *)
Lemma rsum_front F k : (0 <= k)%Z -> rsum F (k + 1) = F 0%Z + rsum (fun j => F (j + 1)%Z) k.
Proof.
  intros Hk. pattern k. apply natlike_ind; [| |exact Hk].
  - rewrite rsum_S by lia. change (rsum F 0) with 0. change (rsum (fun j => F (j + 1)%Z) 0) with 0. ring.
  - intros x Hx IH. rewrite rsum_S by lia. unfold Z.succ. rewrite IH, rsum_S by lia. ring.
Qed.
Lemma rsum_reverse F k : (0 <= k)%Z -> rsum (fun j => F (k - 1 - j)%Z) k = rsum F k.
Proof.
  intros Hk. pattern k. apply natlike_ind; [reflexivity| |exact Hk]. intros x Hx IH. unfold Z.succ. rewrite rsum_front, (rsum_S F) by lia. rewrite <- IH.
  rewrite (rsum_ext _ (fun j => F (x - 1 - j)%Z)) by (intros; f_equal; lia). replace (x + 1 - 1 - 0)%Z with x by lia. ring.
Qed.
Definition even_part (c : v5 -> R) : Prop := c = c0 \/ c = c1 \/ c = c3 \/ c = c4.
Lemma sectors_equal c n m U k : even_part c -> mirror_images n m U U -> (0 <= k <= m)%Z -> sector c n U 0 k = sector c n U (m - k) k.
Proof.
  intros HC I Hk. unfold sector. apply rsum_ext. intros i Hi. rewrite <- (rsum_reverse (fun j => c (U i (m - k + j)%Z))) by lia. apply rsum_ext. intros j Hj. rewrite Z.add_0_l.
  destruct (I i j Hi ltac:(lia)) as (A & B & _ & D & E). replace (m - k + (k - 1 - j))%Z with (m - 1 - j)%Z by lia. destruct HC as [-> |[-> |[-> | ->]]]; assumption.
Qed.
(** The state of a run that the program starts itself. *)
Definition hemispheres_alike (n m : Z) (U : Z -> Z -> v5) : Prop :=
  mirror_images n m U U /\ (forall i j, (0 <= i < n)%Z -> (0 <= j < m)%Z -> c3 (U i j) = 0) /\
  forall k, (0 <= k <= m)%Z -> sector c0 n U 0 k = sector c0 n U (m - k) k /\ sector c1 n U 0 k = sector c1 n U (m - k) k /\ sector c4 n U 0 k = sector c4 n U (m - k) k.
Lemma start_even m Q : (1 <= m)%Z -> Q 0%Z = 0 -> (forall j, Q (j + 1)%Z - Q j = PI / IZR m) -> even_poles m Q /\ forall j, (0 <= j)%Z -> Q j = IZR j * (PI / IZR m).
Proof.
  intros Hm Q0 QD. assert (V : forall j, (0 <= j)%Z -> Q j = IZR j * (PI / IZR m)).
  { intros j Hj. pattern j. apply natlike_ind; [rewrite Q0; ring| |exact Hj]. intros x Hx IH. pose proof (QD x). unfold Z.succ. rewrite plus_IZR. lra. }
  split; [|exact V]. intros j Hj. rewrite !V by lia. rewrite minus_IZR. assert (0 < IZR m) by (apply IZR_lt; lia). field. lra.
Qed.
Lemma start_alike c fuel k n s : good_cloud c -> sizes fuel n (nr c) -> 0 < num_decades c -> shell_count c n -> new_solution c fuel k = Ok s ->
  exists X Q U, time s = 0 /\ X 0%Z = 1 /\ X n = Rpower 10 (num_decades c) /\ (exists q, 1 < q /\ forall i, X (i + 1)%Z = X i * q) /\ Q 0%Z = 0 /\ Q (nr c) = PI /\ (forall j, Q (j + 1)%Z - Q j = PI / IZR (nr c)) /\
    even_poles (nr c) Q /\ on_grid s n (nr c) X Q U /\ mirror_images n (nr c) U U /\ spinless n (nr c) U.
Proof.
  intros G HS HD HN E. pose proof HS as (Hn & Hm & _). destruct (cloud_grid c fuel k n s G HS HD HN E) as (X & Q & P & T0 & X0 & XN & QX & Q0 & QN & QD & ENV & SH).
  destruct (start_even (nr c) Q Hm Q0 QD) as [EP _]. exists X, Q. eexists. repeat (split; [eassumption|]).
  assert (PZ : forall i, (0 <= i < n)%Z -> u2 (P i) = 0 /\ u3 (P i) = 0). { intros i Hi. destruct (ENV i Hi) as (d & w & _ & _ & ->). split; reflexivity. }
  split.
  - intros i j Hi Hj. destruct (PZ i Hi) as [Z2 Z3]. assert (C : cos (Q (nr c - 1 - j)%Z) - cos (Q (nr c - 1 - j + 1)%Z) = cos (Q j) - cos (Q (j + 1)%Z)).
    { pose proof (EP (j + 1)%Z ltac:(lia)) as A. pose proof (EP j ltac:(lia)) as B. replace (nr c - (j + 1))%Z with (nr c - 1 - j)%Z in A by lia. replace (nr c - j)%Z with (nr c - 1 - j + 1)%Z in B by lia. rewrite A, B, !cos_pi. ring. }
    unfold times5, srhd_conserved. cbv zeta. cbn [c0 c1 c2 c3 c4]. rewrite C, Z2. repeat split; ring.
  - intros i j Hi Hj. destruct (PZ i Hi) as [_ Z3]. unfold times5, srhd_conserved. cbv zeta. cbn [c3]. rewrite Z3. ring.
Qed.
Lemma alike_run c fuel n m X Q steps s r U : good_cloud c -> sizes fuel n m -> method_ok c m -> even_poles m Q -> on_grid s n m X Q U -> mirror_images n m U U -> spinless n m U -> CloudModel.run c fuel steps s = Ok r ->
  exists V, on_grid r n m X Q V /\ hemispheres_alike n m V.
Proof.
  intros G HS HM HQ GU I NS E. destruct (symmetric_run c fuel n m X Q steps s r U G HS HM HQ GU I E) as (V & GV & J). destruct (spinless_run c fuel n m X Q steps s r U G HS HM GU NS E) as (W & GW & K).
  exists V. split; [exact GV|]. split; [exact J|]. split.
  - intros i j Hi Hj. rewrite (grid2_same _ _ _ _ _ (proj2 (proj2 GV)) (proj2 (proj2 GW)) i j Hi Hj). apply K; assumption.
  - intros k Hk. unfold even_part in *. repeat split; apply sectors_equal; try assumption; unfold even_part; tauto.
Qed.
(** Every state that a new run reaches has equal hemispheres and no rotation; the zones within any angle of one pole hold as much
    mass, radial momentum and energy as those within the same angle of the other. *)
Theorem cloud_hemispheres c fuel k n steps s0 s : good_cloud c -> sizes fuel n (nr c) -> method_ok c (nr c) -> 0 < num_decades c -> shell_count c n -> new_solution c fuel k = Ok s0 -> CloudModel.run c fuel steps s0 = Ok s ->
  exists X Q U, Q 0%Z = 0 /\ Q (nr c) = PI /\ on_grid s n (nr c) X Q U /\ hemispheres_alike n (nr c) U.
Proof.
  intros G HS HM HD HN E0 E. destruct (start_alike c fuel k n s0 G HS HD HN E0) as (X & Q & U & _ & _ & _ & _ & Q0 & QN & _ & EP & GU & I & NS). destruct (alike_run c fuel n (nr c) X Q steps s0 s U G HS HM EP GU I NS E) as (V & GV & A).
  exists X, Q, V. repeat (split; [assumption|]). exact A.
Qed.
(** So have all checkpoints of a complete run of the program. *)
Theorem cloud_checkpoints_alike fuel secant c n s0 : let p := physics c in good_cloud p -> sizes fuel n (nr p) -> method_ok p (nr p) -> 0 < num_decades p -> shell_count p n -> 0 < cfl p -> new_solution p fuel secant = Ok s0 ->
  exists X Q, Q 0%Z = 0 /\ Q (nr p) = PI /\
    let dt := cfl p * (X 1%Z - X 0%Z) in dt <= c_cpi c -> dt <= c_dfi c -> dt <= c_tsi c ->
    forall rounds o code, (Z.of_nat rounds < 2 ^ 31 - 3)%Z -> cloud_program fuel secant c rounds = Ok (o, code) ->
    forall k s, In (Z.of_nat k, s) (scheckpoints o) -> exists U, on_grid s n (nr p) X Q U /\ hemispheres_alike n (nr p) U.
Proof.
  intros p GC HS HM HD HN HCF E0. destruct (start_alike p fuel secant n s0 GC HS HD HN E0) as (X & Q & U & T0 & X0 & _ & QX & Q0 & QN & _ & EP & GU & I & NS).
  exists X, Q. split; [exact Q0|]. split; [exact QN|]. intros dt HC HDF HT rounds o code HR E k s Hs. unfold cloud_program in E. fold p in E. rewrite E0 in E. cbn [bind] in E.
  assert (DP : 0 < dt). { unfold dt. apply Rmult_lt_0_compat; [exact HCF|]. destruct QX as (q & HQ & QE). specialize (QE 0%Z). change (0 + 1)%Z with 1%Z in QE. rewrite QE, X0. lra. }
  destruct (fixed_step_checkpoints (fun c => CloudModel.next_solution (physics c) fuel) CloudModel.time c_dfi c_tsi c_cpi c_tfinal c s0 dt DP HC HDF HT) with (rounds := rounds) (o := o) (code := code) as (C & N & K & sol & S0 & NX & TF & TU & W & M & A).
  - intros sol m S0 HX. pose proof (run_to p fuel m sol s0 S0 HX) as R. destruct (cloud_budget p fuel n (nr p) X Q m s0 (sol m) _ GC HS HM GU R) as (Us & P & P' & _ & _ & B). destruct B as (B & _). destruct (B m (le_n _)) as (sm & RM & _ & TM). rewrite R in RM. injection RM as <-. rewrite TM, T0. fold dt. ring.
  - exact HR.
  - exact E.
  - destruct (A k s Hs) as (j & HJ & -> & _). assert (RJ : CloudModel.run p fuel j s0 = Ok (sol j)) by (apply run_to; [exact S0|]; intros i Hi; apply NX; lia). exact (alike_run p fuel n (nr p) X Q j s0 (sol j) U GC HS HM EP GU I NS RJ).
Qed.

(** *** Examples *)
Definition lopsided_gas (j : Z) : prim := if (j =? 0)%Z then Prim 1 0 0 0 1 else Prim 2 0 0 0 3.
Definition lopsided (up : bool) : solution := Solution 0 (vector 2 demo_X) (vector 3 demo_Q)
  (table 1 2 (fun i j => times5 (srhd_conserved (lopsided_gas (if up then j else 1 - j)%Z) gamma_law_index) (vol demo_X demo_Q i j))).
Lemma demo_volume i j : (0 <= i < 1)%Z -> (0 <= j < 2)%Z -> vol demo_X demo_Q i j = 14 * PI / 3.
Proof.
  intros Hi Hj. replace i with 0%Z by lia. unfold vol, demo_X, demo_Q. change (1 + 0 + 1)%Z with 2%Z. change (0 + 1)%Z with 1%Z. assert (C : cos (IZR j * (PI / 2)) - cos (IZR (1 + j) * (PI / 2)) = 1).
  { assert (j = 0%Z \/ j = 1%Z) as [-> | ->] by lia; [change (1 + 0)%Z with 1%Z; rewrite Rmult_0_l, Rmult_1_l, cos_0, cos_PI2; ring|]. change (1 + 1)%Z with 2%Z. rewrite Rmult_1_l. replace (2 * (PI / 2)) with PI by field. rewrite cos_PI2, cos_PI. ring. }
  rewrite C. field.
Qed.
Lemma lopsided_steps up : exists s, CloudModel.run demo 9 1 (lopsided up) = Ok s.
Proof.
  assert (HS : sizes 9 1 2) by (unfold sizes; lia). assert (HM : method_ok demo 2) by (left; cbn; lia). set (P (i j : Z) := lopsided_gas (if up then j else 1 - j)%Z). set (U i j := times5 (srhd_conserved (P i j) gamma_law_index) (vol demo_X demo_Q i j)).
  assert (HU : on_grid (lopsided up) 1 2 demo_X demo_Q U) by (split; [apply vector_rep|split; [apply vector_rep|apply table_grid]]). pose proof PI_RGT_0.
  assert (RC : recovered demo 1 2 demo_X demo_Q U P).
  { intros i j Hi Hj. unfold U. rewrite demo_volume by assumption. set (V := 14 * PI / 3). assert (0 < V) by (unfold V; lra). replace (over5 (times5 (srhd_conserved (P i j) gamma_law_index) V) V) with (srhd_conserved (P i j) gamma_law_index).
    - unfold P, lopsided_gas. destruct (_ =? 0)%Z; apply recover_static_exact; cbn [u1 u2 u3 demo temperature_floor]; try lra; unfold relativistic, gamma_law_index; cbn [rho pre]; lra.
    - destruct (srhd_conserved (P i j) gamma_law_index) as [a b c d e]. unfold over5, times5. cbn [c0 c1 c2 c3 c4]. f_equal; field; lra. }
  destruct (advance_value demo 9 1 2 demo_X demo_Q (units_of demo) 0 P U (step_of demo demo_X) (lopsided up) (lopsided up) HS HM (reference_units _ (proj1 demo_good)) (proj1 (proj2 HU)) eq_refl (proj1 HU) (proj1 (proj2 HU)) (proj2 (proj2 HU)) RC) as (u & E & _).
  eexists. cbn [CloudModel.run]. unfold CloudModel.next_solution. rewrite (time_step_value demo 1 2 demo_X demo_Q (lopsided up) U ltac:(lia) ltac:(reflexivity) HU). bsimp. cbn [rk_order demo Z.eqb Pos.eqb]. rewrite E. reflexivity.
Qed.
Lemma demo_even : even_poles 2 demo_Q.
Proof. intros j Hj. unfold demo_Q. rewrite minus_IZR. lra. Qed.
(** Dense gas in the south, and dense gas in the north: after a step, each zone of the one run holds the mass of the other zone of
    the other run, and the polar momenta are opposite. *)
Example cloud_mirror_example : exists r r' V V', CloudModel.run demo 9 1 (lopsided true) = Ok r /\ CloudModel.run demo 9 1 (lopsided false) = Ok r' /\ on_grid r 1 2 demo_X demo_Q V /\ on_grid r' 1 2 demo_X demo_Q V' /\
  c0 (V' 0%Z 0%Z) = c0 (V 0%Z 1%Z) /\ c4 (V' 0%Z 1%Z) = c4 (V 0%Z 0%Z) /\ c2 (V' 0%Z 0%Z) = - c2 (V 0%Z 1%Z).
Proof.
  destruct (lopsided_steps true) as [r E]. assert (HS : sizes 9 1 2) by (unfold sizes; lia). assert (HM : method_ok demo 2) by (left; cbn; lia).
  destruct (cloud_run_mirrored demo 9 1 2 demo_X demo_Q 1 (lopsided true) (lopsided false) r (fun i j => times5 (srhd_conserved (lopsided_gas j) gamma_law_index) (vol demo_X demo_Q i j)) (fun i j => times5 (srhd_conserved (lopsided_gas (1 - j)%Z) gamma_law_index) (vol demo_X demo_Q i j)) (proj1 demo_good) HS HM demo_even) as (r' & V & V' & R & GV & GV' & I & _).
  - split; [apply vector_rep|split; [apply vector_rep|apply table_grid]].
  - split; [apply vector_rep|split; [apply vector_rep|apply table_grid]].
  - intros i j Hi Hj. rewrite !demo_volume by lia. replace (2 - 1 - j)%Z with (1 - j)%Z by lia. unfold times5, srhd_conserved, lopsided_gas. cbv zeta. destruct (1 - j =? 0)%Z; cbn [c0 c1 c2 c3 c4 u1 u2 u3]; repeat split; ring.
  - reflexivity.
  - exact E.
  - exists r, r', V, V'. repeat (split; [assumption|]). destruct (I 0%Z 0%Z ltac:(lia) ltac:(lia)) as (A & _ & B & _). destruct (I 0%Z 1%Z ltac:(lia) ltac:(lia)) as (_ & _ & _ & _ & C). repeat split; assumption.
Qed.
(** The start of the program on 4 by 4 zones: both polar caps hold the same mass. *)
Example cloud_hemispheres_example : exists k s X Q U, new_solution small 30 k = Ok s /\ on_grid s 4 4 X Q U /\ c0 (U 2%Z 0%Z) = c0 (U 2%Z 3%Z) /\ sector c0 4 U 0 2 = sector c0 4 U 2 2.
Proof.
  destruct small_good as (G1 & _ & _ & S1 & _ & Z1 & _). destruct (cloud_starts small 30 4 G1 ltac:(cbn; lra) S1 Z1) as [k K]. destruct (K k ltac:(lia)) as (s & P & E & _).
  destruct (cloud_hemispheres small 30 k 4 0 s s G1 S1 ltac:(left; cbn; lia) ltac:(cbn; lra) Z1 E eq_refl) as (X & Q & U & _ & _ & GU & I & _ & SE). exists k, s, X, Q, U. split; [exact E|]. split; [exact GU|]. split; [apply (I 2%Z 0%Z); cbn; lia|].
  exact (proj1 (SE 2%Z ltac:(cbn; lia))).
Qed.
Print Assumptions cloud_run_mirrored.
Print Assumptions cloud_no_rotation.
Print Assumptions cloud_hemispheres.
Print Assumptions cloud_checkpoints_alike.
