(** The live binary: how the masses and the motion of the two bodies follow from what the disk gives them
    (src/subprog_binary_scheme.cpp 826-904, 947-1021). *)
From Coq Require Import ZArith Reals Lra List Arith Bool Lia.
From Verif Require Import Base TreeModel TreeSpec TreeProofs TreeProofs3 BalanceModel NdModel NdSpec NdProofs NdProofs2 ProlongProofs FluxSpec FluxTreeProofs FluxProofs FluxProofs3 FluxProofs4 FluxProofs5 MeshModel GuardSpec StepSpec StepProofs StepProofs3 TwoBodyModel TwoBodyProofs KeplerProofs OrbitProofs ElementsProofs TwoBodyProps HydroModel
  SourceModel SourceProofs SolutionModel SolutionSpec SolutionProofs SolutionProofs2 SolutionProofs3 SolutionProofs4 SolutionProofs5 UniformProps SolutionProps SolutionExample.
Import ListNotations.
Open Scope R_scope.

(** *** Statements *)
(** The sum over all cells of all blocks. *)
Definition over_cells (N : Z) (fd : fields) (f : idx -> list Z -> R) : R := rsum (fun i => rsum (f i) (idxs [N; N])) (leaves (indexes 2 (vertices fd))).
Section Statement.
Variables (N : Z) (sd : settings) (fd : fields) (s : solution) (dt : R).
Definition gas (i : idx) (k : list Z) : R := reading d0 (look no_array (conserved sd s) i) k.
Definition gas_momentum (g : R * R -> R) (i : idx) (k : list Z) : R := reading (fun u => g (momentum_of sd (cell_center N sd i k) u)) (look no_array (conserved sd s) i) k.
(** Mass and momentum that the sink of a body takes in. *)
Definition intake (b : body) : R := over_cells N fd (fun i k => gas i k * absorbed sd b (cell_center N sd i k) * dt * cell_area N sd i).
Definition momentum_intake (g : R * R -> R) (b : body) : R := over_cells N fd (fun i k => gas_momentum g i k * absorbed sd b (cell_center N sd i k) * dt * cell_area N sd i).
(** The impulse of the gas on a body: softened gravity, with G = 1. *)
Definition impulse (g : R * R -> R) (b : body) : R := over_cells N fd (fun i k =>
  let x := cell_center N sd i k in let e := (fst x - px b, snd x - py b) in
  let r := sqrt (fst e * fst e + snd e * snd e + softening_radius sd * softening_radius sd) in
  gas i k * mass b * g e / r ^ 3 * dt * cell_area N sd i).
End Statement.

(** *** Proofs *)
Lemma pow32_cube x : 0 <= x -> pow32 x = sqrt x ^ 3.
Proof. intros H. unfold pow32. rewrite <- (sqrt_sqrt x H) at 1. ring. Qed.

Section Live.
Context (N : Z) (d : nat) (predicate : nat -> R -> bool) (fuel : nat) (sd : settings) (fd : fields).
Hypothesis HS : setup N d predicate fuel sd fd.
Let vt := vertices fd.

Lemma summed (z : tree (array v3 * totals)) (g : totals -> R) f : additive g -> same_shape vt z -> (forall i y, is_node z i (Leaf y) -> g (snd y) = rsum (f i) (idxs [N; N])) ->
  g (tsum no_totals totals_add (tmap snd z)) = over_cells N fd f.
Proof.
  intros [G0 GA] Sz HZ. destruct (mesh_facts N d predicate fuel sd fd HS) as (W & D & _ & _ & _). fold vt in W, D. destruct (same_shape_wf _ _ W Sz) as [Wz Dz].
  rewrite (tsum_by_address no_totals totals_add g (tmap snd z) vt G0 GA W D (shape_trans _ _ _ Sz (shape_sym _ _ (tmap_shape snd z)))).
  unfold over_cells. apply rsum_ext_in. intros i Hi. destruct (in_leaf vt W D i Hi) as [v Hv]. destruct (shape_leaf vt z i v W Sz Hv) as [y Hy].
  rewrite (look_leaf _ _ _ _ (tmap_leaf snd z i y Wz Hy)). exact (HZ i y Hy).
Qed.

Definition step_sources (b : two_body) (p0 : tree (array iprim)) (s : solution) (dt : R) : idx -> outcome (array v3 * totals) :=
  if conserve_linear_p sd then sources_u sd fd b (conserved_u s) dt else sources_q sd fd b p0 (conserved_q s) dt.
Lemma advance_totals s dt safe b : valid N sd fd s -> full_state_at fuel (orbital_elements s) (time s) = Ok b ->
  exists p0 z t u, recover_primitive sd fd s = Ok p0 /\ tmapM (step_sources b p0 s dt) (indexes 2 p0) = Ok z /\ update3 sd fd fuel safe (flux_of sd b) p0 (conserved sd s) (tmap fst z) dt = Ok u /\ cell_data N vt u /\
    advance sd fd fuel s dt safe = (do s1 <- booked_solution sd s b t (used sd u) (used_q sd u) dt; validate fd u s1) /\
    mass_accreted_on t = (intake N sd fd s dt (body1 b), intake N sd fd s dt (body2 b)) /\
    momentum_x_accreted_on t = (momentum_intake N sd fd s dt fst (body1 b), momentum_intake N sd fd s dt fst (body2 b)) /\
    momentum_y_accreted_on t = (momentum_intake N sd fd s dt snd (body1 b), momentum_intake N sd fd s dt snd (body2 b)) /\
    integrated_force_x_on t = (impulse N sd fd s dt fst (body1 b), impulse N sd fd s dt fst (body2 b)) /\
    integrated_force_y_on t = (impulse N sd fd s dt snd (body1 b), impulse N sd fd s dt snd (body2 b)).
Proof.
  intros V Eb. pose proof V as (HM & HD & _). destruct (recovered N d predicate fuel sd fd HS s HM HD) as (p0 & Ep & Dp).
  destruct (advance_form_src N d predicate fuel sd fd HS s dt safe b p0 HM Ep Dp Eb) as (z & Sz & Dz & Kz & Ez & EA).
  destruct (updated N d predicate fuel sd fd HS safe (flux_of sd b) p0 (conserved sd s) (tmap fst z) dt Dp HM Dz) as (u1 & EU & Du & _). rewrite EU in EA. cbn [bind] in EA.
  exists p0, z, (tsum no_totals totals_add (tmap snd z)), u1. split; [exact Ep|]. split; [exact Ez|]. split; [exact EU|]. split; [exact Du|]. split; [exact EA|].
  assert (G : forall (g : totals -> R * R) (f1 f2 : idx -> list Z -> R), additive (fun t => fst (g t)) -> additive (fun t => snd (g t)) ->
    (forall i y, is_node z i (Leaf y) -> g (snd y) = (rsum (f1 i) (idxs [N; N]), rsum (f2 i) (idxs [N; N]))) -> g (tsum no_totals totals_add (tmap snd z)) = (over_cells N fd f1, over_cells N fd f2)).
  { intros g f1 f2 A1 A2 H. rewrite (surjective_pairing (g _)). f_equal; [apply (summed z (fun t => fst (g t)) f1 A1 Sz)|apply (summed z (fun t => snd (g t)) f2 A2 Sz)]; intros i y Hy; rewrite (H i y Hy); reflexivity. }
  assert (OUT : forall (F H : list Z -> R) A, (forall k, inb [N; N] k -> - (F k * A) = H k) -> out N F (fun _ => A) = rsum H (idxs [N; N])).
  { intros F H A X. unfold out. rewrite <- rsum_opp. apply rsum_ext_in. intros k Hk. apply idxs_In in Hk. exact (X k Hk). }
  assert (RD : forall i q U k, is_node (conserved sd s) i (Leaf q) -> reps q [N; N] U -> inb [N; N] k -> forall f : v3 -> R, reading f (look no_array (conserved sd s) i) k = f (U k)).
  { intros i q U k Nq Rq Hk f. unfold reading. rewrite (look_leaf _ _ _ _ Nq), (proj2 Rq k Hk). reflexivity. }
  assert (AB : forall c x, sink_rate_field sd c x = absorbed sd c x) by reflexivity.
  split; [|split; [|split; [|split]]]; apply G; try (split; intros; cbn [no_totals totals_add mass_accreted_on momentum_x_accreted_on momentum_y_accreted_on integrated_force_x_on integrated_force_y_on two_zero two_add fst snd]; unfold two_zero, two_add; cbn [fst snd]; ring).
  all: intros i y Hy; destruct (Kz i y Hy) as (q & br & ui & B & U & I & F & Nq & _ & _ & Rq & _ & _ & _ & _ & T1 & T2 & T3 & T4 & T5 & _); cbv zeta in *.
  - rewrite T1. unfold tot_u. cbn [mass_accreted_on]. f_equal; apply OUT; intros k Hk; unfold gas; rewrite (RD i q U k Nq Rq Hk d0), <- AB; unfold cell_sink, v3_mul, v3_neg; cbn [d0]; ring.
  - rewrite T4. f_equal; apply OUT; intros k Hk; unfold gas_momentum; rewrite (RD i q U k Nq Rq Hk (fun u => fst (momentum_of sd (cell_center N sd i k) u))), <- AB; unfold momentum_of, lin_of, iso_linear_of_angmom, cell_sink, v3_mul, v3_neg; destruct (conserve_linear_p sd); cbn [d0 d1 d2 fst snd]; unfold Rdiv; ring.
  - rewrite T5. f_equal; apply OUT; intros k Hk; unfold gas_momentum; rewrite (RD i q U k Nq Rq Hk (fun u => snd (momentum_of sd (cell_center N sd i k) u))), <- AB; unfold momentum_of, lin_of, iso_linear_of_angmom, cell_sink, v3_mul, v3_neg; destruct (conserve_linear_p sd); cbn [d0 d1 d2 fst snd]; unfold Rdiv; ring.
  - rewrite T2. unfold tot_u. cbn [integrated_force_x_on]. f_equal; apply OUT; intros k Hk; unfold gas; rewrite (RD i q U k Nq Rq Hk d0); unfold cell_pull, vec_mul, grav_vdot_field; cbn [fst snd]; (rewrite pow32_cube; [unfold Rdiv; ring|]);
      match goal with |- 0 <= ?a * ?a + ?b * ?b + ?c * ?c => pose proof (Rle_0_sqr a); pose proof (Rle_0_sqr b); pose proof (Rle_0_sqr c); unfold Rsqr in *; lra end.
  - rewrite T3. unfold tot_u. cbn [integrated_force_y_on]. f_equal; apply OUT; intros k Hk; unfold gas; rewrite (RD i q U k Nq Rq Hk d0); unfold cell_pull, vec_mul, grav_vdot_field; cbn [fst snd]; (rewrite pow32_cube; [unfold Rdiv; ring|]);
      match goal with |- 0 <= ?a * ?a + ?b * ?b + ?c * ?c => pose proof (Rle_0_sqr a); pose proof (Rle_0_sqr b); pose proof (Rle_0_sqr c); unfold Rsqr in *; lra end.
Qed.

Lemma booked_totals s dt safe s1 : valid N sd fd s -> advance sd fd fuel s dt safe = Ok s1 ->
  exists b t u, full_state_at fuel (orbital_elements s) (time s) = Ok b /\ booked_solution sd s b t (used sd u) (used_q sd u) dt = Ok s1 /\
    mass_accreted_on t = (intake N sd fd s dt (body1 b), intake N sd fd s dt (body2 b)) /\
    momentum_x_accreted_on t = (momentum_intake N sd fd s dt fst (body1 b), momentum_intake N sd fd s dt fst (body2 b)) /\
    momentum_y_accreted_on t = (momentum_intake N sd fd s dt snd (body1 b), momentum_intake N sd fd s dt snd (body2 b)) /\
    integrated_force_x_on t = (impulse N sd fd s dt fst (body1 b), impulse N sd fd s dt fst (body2 b)) /\
    integrated_force_y_on t = (impulse N sd fd s dt snd (body1 b), impulse N sd fd s dt snd (body2 b)).
Proof.
  intros V E. pose proof V as (HM & HD & _). destruct (recovered N d predicate fuel sd fd HS s HM HD) as (p0 & Ep & Dp).
  destruct (full_state_at fuel (orbital_elements s) (time s)) as [b| | |] eqn:Eb.
  2-4: exfalso; unfold advance, advance_u, advance_q in E; rewrite Ep, Eb in E; cbn [bind] in E; destruct (conserve_linear_p sd); discriminate.
  destruct (advance_totals s dt safe b V Eb) as (p & z & t & u & _ & _ & _ & _ & EA & T). rewrite EA in E. clear EA.
  destruct (booked_solution sd s b t (used sd u) (used_q sd u) dt) as [s2| | |] eqn:EB; cbn [bind] in E; try discriminate.
  assert (s2 = s1) as ->. { unfold validate in E. destruct (tmapM _ _); cbn [bind] in E; try discriminate. destruct (existsb _ _); [discriminate|]. injection E as <-. reflexivity. }
  exists b, t, u. auto.
Qed.
End Live.

Lemma intake_nonneg N d predicate fuel sd fd s dt b : setup N d predicate fuel sd fd -> valid N sd fd s -> 0 <= sink_rate sd -> 0 <= dt -> 0 <= intake N sd fd s dt b.
Proof.
  intros HS (HM & HD & _) Hk Ht. destruct (mesh_facts N d predicate fuel sd fd HS) as (W & D & _ & _ & _). destruct (same_shape_wf _ _ W (proj1 HM)) as [Wc Dc].
  unfold intake, over_cells. apply rsum_nonneg. intros i Hi. apply rsum_nonneg. intros k Hk'. apply idxs_In in Hk'.
  destruct (at_address N d predicate fuel sd fd HS _ i HM Hi) as (u & U & Nu & Ru). unfold gas, reading. rewrite (look_leaf _ _ _ _ Nu), (proj2 Ru k Hk').
  unfold densities in HD. rewrite Forall_forall in HD. pose proof (HD u (node_leaves _ i u Wc Nu) k (U k) Hk' (proj2 Ru k Hk')) as P.
  pose proof (cell_area_pos N d predicate fuel sd fd HS i) as A. unfold absorbed. set (e := exp _). assert (0 < e) by apply exp_pos.
  apply Rmult_le_pos; [|lra]. apply Rmult_le_pos; [|lra]. apply Rmult_le_pos; [lra|]. apply Rmult_le_pos; lra.
Qed.

(** One evaluation of the scheme.  Before [begin_live_binary] the elements of the binary are left alone.  From then on the
    bodies gain exactly the mass their sinks take from the cells; the centre of mass drifts with its velocity and towards
    where mass is put in; its velocity changes by the impulse of the gravity of all the gas, and by what accretion brings. *)
Theorem live_binary N d predicate fuel sd fd s dt safe s1 : setup N d predicate fuel sd fd -> valid N sd fd s -> TwoBodyProofs.bound (orb (orbital_elements s)) ->
  0 <= sink_rate sd -> 0 <= dt -> advance sd fd fuel s dt safe = Ok s1 ->
  exists b, full_state_at fuel (orbital_elements s) (time s) = Ok b /\
  let b1 := body1 b in let b2 := body2 b in let E := orbital_elements s in let E1 := orbital_elements s1 in
  let m1 := intake N sd fd s dt b1 in let m2 := intake N sd fd s dt b2 in let M := mtot (orb E) in
  let J g := impulse N sd fd s dt g b1 + impulse N sd fd s dt g b2 in
  let Q g := momentum_intake N sd fd s dt g b1 + momentum_intake N sd fd s dt g b2 in
  s_mass_accreted_on s1 = (fst (s_mass_accreted_on s) + m1, snd (s_mass_accreted_on s) + m2) /\
  mtot (orb (orbital_elements_acc s1)) = mtot (orb (orbital_elements_acc s)) + m1 + m2 /\
  mtot (orb (orbital_elements_grav s1)) = mtot (orb (orbital_elements_grav s)) /\
  (time s <= begin_live_binary sd -> E1 = E) /\
  (begin_live_binary sd < time s ->
    mtot (orb E1) = M + m1 + m2 /\
    cmx E1 = cmx E + cmvx E * dt + (m1 * (px b1 - cmx E) + m2 * (px b2 - cmx E)) / (M + m1 + m2) /\
    cmy E1 = cmy E + cmvy E * dt + (m1 * (py b1 - cmy E) + m2 * (py b2 - cmy E)) / (M + m1 + m2) /\
    cmvx E1 = cmvx E + J fst / M + (if no_accretion_force sd then m1 * (TwoBodyModel.vx b1 - cmvx E) + m2 * (TwoBodyModel.vx b2 - cmvx E) else Q fst - (m1 + m2) * cmvx E) / (M + m1 + m2) /\
    cmvy E1 = cmvy E + J snd / M + (if no_accretion_force sd then m1 * (TwoBodyModel.vy b1 - cmvy E) + m2 * (TwoBodyModel.vy b2 - cmvy E) else Q snd - (m1 + m2) * cmvy E) / (M + m1 + m2)).
Proof.
  intros HS V HB Hk Ht EA. destruct (booked_totals N d predicate fuel sd fd HS s dt safe s1 V EA) as (b & t & u & Eb & EB & T1 & T2 & T3 & T4 & T5). exists b. split; [exact Eb|]. cbv zeta.
  pose proof (intake_nonneg N d predicate fuel sd fd s dt (body1 b) HS V Hk Ht) as P1. pose proof (intake_nonneg N d predicate fuel sd fd s dt (body2 b) HS V Hk Ht) as P2.
  destruct (full_state_conserved fuel _ _ _ HB Eb) as (M1 & M2 & C1 & C2 & C3 & C4 & _). pose proof HB as (A0 & B0 & Q0 & _). unfold center, TwoBodyProps.m1, TwoBodyProps.m2 in *.
  set (m1 := intake N sd fd s dt (body1 b)) in *. set (m2 := intake N sd fd s dt (body2 b)) in *. set (E := orbital_elements s) in *.
  unfold booked_solution in EB. fold E in EB.
  destruct (elements_at (bodies_acc sd b t) (time s)) as [ea| | |] eqn:E1; cbn [bind] in EB; try discriminate. destruct (elements_at (bodies_grv b t) (time s)) as [eg| | |] eqn:E2; cbn [bind] in EB; try discriminate.
  apply ok_inj in EB. subst s1. cbn [s_mass_accreted_on orbital_elements orbital_elements_acc orbital_elements_grav].
  assert (EL : forall c e, elements_at c (time s) = Ok e -> let n1 := mass (body1 c) in let n2 := mass (body2 c) in mtot (orb e) = n1 + n2 /\
    cmx e = (px (body1 c) * n1 + px (body2 c) * n2) / (n1 + n2) /\ cmy e = (py (body1 c) * n1 + py (body2 c) * n2) / (n1 + n2) /\
    cmvx e = (TwoBodyModel.vx (body1 c) * n1 + TwoBodyModel.vx (body2 c) * n2) / (n1 + n2) /\ cmvy e = (TwoBodyModel.vy (body1 c) * n1 + TwoBodyModel.vy (body2 c) * n2) / (n1 + n2)).
  { intros c e H. rewrite elements_unfold in H. destruct (Rle_dec _ _); [discriminate|]. apply ok_inj in H. subst e. cbn [orb mtot cmx cmy cmvx cmvy]. auto. }
  destruct (EL _ _ E1) as (X1 & X2 & X3 & X4 & X5). destruct (EL _ _ E2) as (Y1 & Y2 & Y3 & Y4 & Y5). clear EL E1 E2.
  unfold bodies_acc, accreted_body, bodies_grv, pulled_body in *. cbn [body1 body2 mass px py TwoBodyModel.vx TwoBodyModel.vy] in *. rewrite T1, ?T2, ?T3, ?T4, ?T5 in *. cbn [fst snd] in *.
  assert (G1 : 0 < mass (body1 b)) by nra. assert (G2 : 0 < mass (body2 b)) by nra.
  split; [unfold two_add; reflexivity|]. unfold eadd, ediff, escale, ediff_cm. cbn [orb mtot cmx cmy cmvx cmvy].
  split; [lra|]. split; [lra|]. split.
  - intros L. destruct (Rlt_dec (begin_live_binary sd) (time s)) as [X|_]; [lra|]. destruct E as [? ? ? ? ? ? []]. cbn. f_equal; try ring. f_equal; ring.
  - intros L. destruct (Rlt_dec (begin_live_binary sd) (time s)) as [_|X]; [|lra]. rewrite X1, X2, X3, X4, X5, Y1, Y2, Y3, Y4, Y5, <- M1, <- C1, <- C2, <- C3, <- C4.
    split; [lra|]. split; [field; lra|]. split; [field; lra|]. destruct (no_accretion_force sd); split; field; lra.
Qed.

(** *** Runs *)
Lemma attempts sd fd fuel s dt safe s1 : can_fail sd fd fuel s dt safe = Ok s1 ->
  advance sd fd fuel s dt safe = Ok s1 \/ exists sa sb, advance sd fd fuel s dt safe = Ok sa /\ advance sd fd fuel sa dt safe = Ok sb /\
    orbital_elements s1 = eadd (escale (orbital_elements s) (1 / 2)) (escale (orbital_elements sb) (1 - 1 / 2)) /\
    orbital_elements_acc s1 = eadd (escale (orbital_elements_acc s) (1 / 2)) (escale (orbital_elements_acc sb) (1 - 1 / 2)) /\
    s_mass_accreted_on s1 = two_add (vec_mul (s_mass_accreted_on s) (1 / 2)) (vec_mul (s_mass_accreted_on sb) (1 - 1 / 2)) /\ time s1 = time s * (1 / 2) + time sb * (1 - 1 / 2).
Proof.
  intros E. unfold can_fail in E. destruct (rk_order sd =? 1)%Z; [left; exact E|]. right. destruct (rk_order sd =? 2)%Z; [|discriminate].
  destruct (advance sd fd fuel s dt safe) as [sa| | |]; cbn [bind] in E; try discriminate. destruct (advance sd fd fuel sa dt safe) as [sb| | |] eqn:Eb; cbn [bind] in E; try discriminate. exists sa, sb. split; [reflexivity|]. split; [exact Eb|].
  unfold solution_add in E. destruct (tree_add _ _); cbn [bind] in E; try discriminate. destruct (tree_add _ _); cbn [bind] in E; try discriminate. apply ok_inj in E. subst s1. unfold solution_mul. cbn. auto.
Qed.
Lemma booked_any sd fd fuel s dt safe s1 : advance sd fd fuel s dt safe = Ok s1 -> exists b t u q, full_state_at fuel (orbital_elements s) (time s) = Ok b /\ booked_solution sd s b t u q dt = Ok s1.
Proof.
  assert (VAL : forall u s2, validate fd u s2 = Ok s1 -> s2 = s1).
  { intros u s2 E. unfold validate in E. destruct (tmapM _ _); cbn [bind] in E; try discriminate. destruct (existsb _ _); [discriminate|]. injection E as <-. reflexivity. }
  intros E. unfold advance, advance_u, advance_q in E. destruct (conserve_linear_p sd).
  all: destruct (recover_primitive sd fd s) as [p0| | |]; cbn [bind] in E; try discriminate; destruct (full_state_at fuel (orbital_elements s) (time s)) as [b| | |]; cbn [bind] in E; try discriminate.
  all: destruct (tmapM _ _) as [z| | |]; cbn [bind] in E; try discriminate; destruct (update3 _ _ _ _ _ _ _ _ _) as [u1| | |]; cbn [bind] in E; try discriminate.
  all: destruct (booked_solution _ _ _ _ _ _ _) as [s2| | |] eqn:EB; cbn [bind] in E; try discriminate; apply VAL in E; subst s2; eauto 10.
Qed.
Lemma masses_together fuel p t b : full_state_at fuel p t = Ok b -> mass (body1 b) + mass (body2 b) = mtot (orb p).
Proof.
  unfold full_state_at, state_at. intros E. destruct (after _ _ _ _); cbn [bind] in E; try discriminate.
  assert (S0 : forall e, mass (body1 (state_of (orb p) e)) + mass (body2 (state_of (orb p) e)) = mtot (orb p)) by (intros e; unfold state_of; cbn [body1 body2 mass]; ring).
  destruct (Rlt_dec 0 (ecc (orb p))); [destruct (TwoBodyModel.newton _ _ _ _ _); cbn [bind] in E; try discriminate|cbn [bind] in E]; apply ok_inj in E; subst b; cbn [body1 body2 place mass]; apply S0.
Qed.
Lemma mass_account sd fd fuel s dt safe s1 : advance sd fd fuel s dt safe = Ok s1 ->
  time s1 = time s + dt /\ mtot (orb (orbital_elements_acc s1)) = mtot (orb (orbital_elements_acc s)) + (both (s_mass_accreted_on s1) - both (s_mass_accreted_on s)) /\
  (begin_live_binary sd < time s -> mtot (orb (orbital_elements s1)) = mtot (orb (orbital_elements s)) + (both (s_mass_accreted_on s1) - both (s_mass_accreted_on s))) /\
  (time s <= begin_live_binary sd -> orbital_elements s1 = orbital_elements s).
Proof.
  intros E. destruct (booked_any _ _ _ _ _ _ _ E) as (b & t & u & q & Eb & EB). pose proof (masses_together _ _ _ _ Eb) as HM. unfold booked_solution in EB.
  destruct (elements_at (bodies_acc sd b t) (time s)) as [ea| | |] eqn:E1; cbn [bind] in EB; try discriminate. destruct (elements_at (bodies_grv b t) (time s)) as [eg| | |] eqn:E2; cbn [bind] in EB; try discriminate.
  apply ok_inj in EB. subst s1. cbn [time s_mass_accreted_on orbital_elements orbital_elements_acc]. split; [reflexivity|].
  assert (EL : forall c e, elements_at c (time s) = Ok e -> mtot (orb e) = mass (body1 c) + mass (body2 c)) by (intros c e H; rewrite elements_unfold in H; destruct (Rle_dec _ _); [discriminate|]; apply ok_inj in H; subst e; reflexivity).
  apply EL in E1. apply EL in E2. cbn [bodies_acc bodies_grv body1 body2 accreted_body pulled_body mass] in E1, E2. unfold both, two_add, eadd, ediff, escale, ediff_cm. cbn [orb mtot fst snd]. split; [lra|]. split.
  - intros L. destruct (Rlt_dec (begin_live_binary sd) (time s)) as [_|X]; [|lra]. lra.
  - intros L. destruct (Rlt_dec (begin_live_binary sd) (time s)) as [X|_]; [lra|]. destruct (orbital_elements s) as [? ? ? ? ? ? []]. cbn. f_equal; try ring. f_equal; ring.
Qed.
Lemma attempt_account sd fd fuel s dt safe s1 : 0 <= dt -> can_fail sd fd fuel s dt safe = Ok s1 ->
  time s1 = time s + dt /\ mtot (orb (orbital_elements_acc s1)) = mtot (orb (orbital_elements_acc s)) + (both (s_mass_accreted_on s1) - both (s_mass_accreted_on s)) /\
  (begin_live_binary sd < time s -> mtot (orb (orbital_elements s1)) = mtot (orb (orbital_elements s)) + (both (s_mass_accreted_on s1) - both (s_mass_accreted_on s))) /\
  (time s1 <= begin_live_binary sd -> orbital_elements s1 = orbital_elements s).
Proof.
  intros Ht E. destruct (attempts _ _ _ _ _ _ _ E) as [E1|(sa & sb & Ea & Eb & O & A & M & T)].
  - destruct (mass_account _ _ _ _ _ _ _ E1) as (T & A & B & C). split; [exact T|]. split; [exact A|]. split; [exact B|]. intros L. apply C. lra.
  - destruct (mass_account _ _ _ _ _ _ _ Ea) as (T1 & A1 & B1 & C1). destruct (mass_account _ _ _ _ _ _ _ Eb) as (T2 & A2 & B2 & C2).
    split; [lra|]. rewrite O, A, M. unfold both, two_add, vec_mul, eadd, escale in *. cbn [fst snd orb mtot] in *. split; [lra|]. split.
    + intros L. specialize (B1 L). specialize (B2 ltac:(lra)). lra.
    + intros L. rewrite C2, C1 by lra. destruct (orbital_elements s) as [? ? ? ? ? ? []]. cbn. f_equal; try field. f_equal; field.
Qed.

(** Through a run the total mass in the elements of a live binary grows by exactly the mass that is booked as accreted; the
    ledger of element changes by accretion does so at all times; and until [begin_live_binary] the binary's elements are the
    initial ones. *)
Theorem binary_mass_run N d predicate fuel sd fd : setup N d predicate fuel sd fd -> 0 <= recommended_time_step sd -> 0 <= cfl_number sd ->
  (conserve_linear_p sd = true \/ fixed_dt sd = true) -> forall n s s', valid N sd fd s -> steps sd fd fuel n s = Ok s' ->
  let gained := both (s_mass_accreted_on s') - both (s_mass_accreted_on s) in
  mtot (orb (orbital_elements_acc s')) = mtot (orb (orbital_elements_acc s)) + gained /\
  (begin_live_binary sd < time s -> mtot (orb (orbital_elements s')) = mtot (orb (orbital_elements s)) + gained) /\
  (time s' <= begin_live_binary sd -> orbital_elements s' = orbital_elements s).
Proof.
  intros HS Hr Hc HQ n. cbv zeta. enough (G : forall s s', valid N sd fd s -> steps sd fd fuel n s = Ok s' -> time s <= time s' /\
    mtot (orb (orbital_elements_acc s')) = mtot (orb (orbital_elements_acc s)) + (both (s_mass_accreted_on s') - both (s_mass_accreted_on s)) /\
    (begin_live_binary sd < time s -> mtot (orb (orbital_elements s')) = mtot (orb (orbital_elements s)) + (both (s_mass_accreted_on s') - both (s_mass_accreted_on s))) /\
    (time s' <= begin_live_binary sd -> orbital_elements s' = orbital_elements s)) by (intros s s' V E; exact (proj2 (G s s' V E))).
  induction n as [|n IH]; intros s s' V E; cbn [steps] in E.
  - apply ok_inj in E. subst s'. split; [lra|]. split; [lra|]. split; [lra|reflexivity].
  - destruct (next_solution sd fd fuel s) as [s1| | |] eqn:E1; cbn [bind] in E; try discriminate.
    destruct (stepped_next N d predicate fuel sd fd HS s s1 V E1) as (dt & Ed & H). pose proof (chosen_nonneg N d predicate fuel sd fd s dt HS V Hr Hc HQ Ed) as Hd.
    assert (V1 : valid N sd fd s1) by (destruct H as [H|H]; destruct H; assumption). clear H.
    assert (A : exists e, 0 <= e /\ exists safe, can_fail sd fd fuel s e safe = Ok s1).
    { unfold next_solution in E1. fold (chosen_dt fuel sd fd s) in E1. rewrite Ed in E1. cbn [bind] in E1. destruct (can_fail sd fd fuel s dt false) as [sx|x| |] eqn:EC; try discriminate.
      - apply ok_inj in E1. subst sx. exists dt. split; [exact Hd|eauto].
      - exists (dt * (1 / 10)). split; [lra|eauto]. }
    destruct A as (e & He & safe & A). destruct (attempt_account _ _ _ _ _ _ _ He A) as (T & A1 & A2 & A3). destruct (IH s1 s' V1 E) as (T' & B1 & B2 & B3).
    split; [lra|]. split; [lra|]. split.
    + intros L. rewrite (B2 ltac:(lra)), (A2 L). lra.
    + intros L. rewrite (B3 L). apply A3. lra.
Qed.

(** The example run, with the binary live from the start or frozen. *)
Example binary_mass_run_example lin : exists fd s1, steps (ex_sd lin) fd 2 1 (ex_state lin) = Ok s1 /\ orbital_elements s1 = orbital_elements (ex_state lin) /\ mtot (orb (orbital_elements_acc s1)) = 2 * ex_intake.
Proof.
  destruct (ex_run lin) as (fd & s1 & HS & V & E & M & T). exists fd, s1. split; [exact E|].
  destruct (binary_mass_run _ _ _ _ _ _ HS ltac:(cbn; lra) ltac:(cbn; lra) ltac:(right; reflexivity) 1%nat _ _ V E) as (A & _ & C). split; [apply C; rewrite T; cbn; lra|].
  rewrite A, M. unfold both. cbn. lra.
Qed.

(** The same with the binary live from time -1 on. *)
Definition ex_live_sd (lin : bool) : settings := Settings 1 (1 / 2) 1 1 1 1 0 1 0 0 0 1 (1 / 2) (-1) 1 true lin true true 2.
Lemma ex_live_advance lin fd s1 : advance (ex_sd lin) fd 2 (ex_state lin) (1 / 2) false = Ok s1 ->
  exists s2, advance (ex_live_sd lin) fd 2 (ex_state lin) (1 / 2) false = Ok s2 /\ s_mass_accreted_on s2 = s_mass_accreted_on s1.
Proof.
  intros E. unfold advance, advance_u, advance_q in *.
  change (recover_primitive (ex_live_sd lin)) with (recover_primitive (ex_sd lin)). change (sources_u (ex_live_sd lin)) with (sources_u (ex_sd lin)). change (sources_q (ex_live_sd lin)) with (sources_q (ex_sd lin)).
  change (@update3 (ex_live_sd lin)) with (@update3 (ex_sd lin)). change (intercell_flux_u (ex_live_sd lin)) with (intercell_flux_u (ex_sd lin)). change (intercell_flux_q (ex_live_sd lin)) with (intercell_flux_q (ex_sd lin)).
  change (conserve_linear_p (ex_live_sd lin)) with (conserve_linear_p (ex_sd lin)). destruct (conserve_linear_p (ex_sd lin)).
  all: destruct (recover_primitive (ex_sd lin) fd (ex_state lin)) as [p0| | |]; cbn [bind] in *; try discriminate; destruct (full_state_at 2 _ _) as [b| | |]; cbn [bind] in *; try discriminate.
  all: destruct (tmapM _ _) as [z| | |]; cbn [bind] in *; try discriminate; destruct (update3 _ _ _ _ _ _ _ _ _) as [u1| | |]; cbn [bind] in *; try discriminate.
  all: unfold booked_solution in *; change (bodies_acc (ex_live_sd lin)) with (bodies_acc (ex_sd lin)); destruct (elements_at (bodies_acc _ _ _) _) as [ea| | |]; cbn [bind] in *; try discriminate; destruct (elements_at (bodies_grv _ _) _) as [eg| | |]; cbn [bind] in *; try discriminate.
  all: unfold validate in *; destruct (tmapM _ _) as [z2| | |]; cbn [bind] in *; try discriminate; destruct (existsb _ _); [discriminate|]; apply ok_inj in E; subst s1; eexists; (split; [reflexivity|]); reflexivity.
Qed.
Example live_binary_example lin : exists fd s2, steps (ex_live_sd lin) fd 2 1 (ex_state lin) = Ok s2 /\ advance (ex_live_sd lin) fd 2 (ex_state lin) (1 / 2) false = Ok s2 /\
  setup 2 0 ex_none 2 (ex_live_sd lin) fd /\ valid 2 (ex_live_sd lin) fd (ex_state lin) /\ TwoBodyProofs.bound (orb (orbital_elements (ex_state lin))) /\ mtot (orb (orbital_elements s2)) = 1 + 2 * ex_intake.
Proof.
  destruct (ex_run_full lin) as (v & c & a & s1 & HS & V & E & M & T & EA). set (fd := ex_fields (Leaf v) (Leaf c) (Leaf a)) in *. destruct (ex_live_advance lin fd s1 EA) as (s2 & E2 & M2). exists fd, s2.
  assert (HS2 : setup 2 0 ex_none 2 (ex_live_sd lin) fd) by (destruct HS; constructor; assumption). assert (V2 : valid 2 (ex_live_sd lin) fd (ex_state lin)) by exact V.
  assert (ES : steps (ex_live_sd lin) fd 2 1 (ex_state lin) = Ok s2). { unfold steps, next_solution. cbn [ex_live_sd fixed_dt recommended_time_step bind]. unfold can_fail. cbn [ex_live_sd rk_order Z.eqb Pos.eqb]. fold (ex_live_sd lin). rewrite E2. reflexivity. }
  split; [exact ES|]. split; [exact E2|]. split; [exact HS2|]. split; [exact V2|]. split; [unfold TwoBodyProofs.bound; cbn; lra|].
  destruct (binary_mass_run _ _ _ _ _ _ HS2 ltac:(cbn; lra) ltac:(cbn; lra) ltac:(right; reflexivity) 1%nat _ _ V2 ES) as (_ & A & _). rewrite A by (cbn; lra). rewrite M2, M. unfold both. cbn. lra.
Qed.

Print Assumptions live_binary.
Print Assumptions binary_mass_run.
