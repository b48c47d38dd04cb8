(** A concrete run of the binary program, for the examples beside the theorems on runs: one block of 2 x 2 cells, gas of
    density 1 at rest, an equal-mass binary on a circular orbit of separation 1, one step of size 1/2. *)
From Coq Require Import ZArith Reals Lra List Arith Bool Lia.
From Verif Require Import Base TreeModel TreeSpec TreeProofs TreeProofs3 TreeProofs4 BalanceModel BalanceSpec BalanceProofs NdModel NdSpec NdProofs NdProofs2 NdOpsModel NdOpsProofs PlmModel ProlongProofs FluxModel FluxSpec FluxTreeProofs FluxProofs FluxProofs3 FluxProofs4 FluxProofs5
  GuardSpec GuardProofs2 MeshModel MeshSpec MeshProps DimensionalModel StepModel StepSpec StepProofs StepProofs2 StepProofs3 StepProps UniformProofs TwoBodyModel OrbitProofs ElementsProofs HydroModel
  SourceModel SourceProofs SolutionModel SolutionSpec SolutionProofs SolutionProofs2 SolutionProofs3 SolutionProofs4 UniformProps.
Import ListNotations.
Open Scope Z_scope.

Definition ex_sd (lin : bool) : settings := Settings 1 (1 / 2) 1 1 1 1 0 1 0 0 0 1 (1 / 2) 10 1 true lin true true 2.
Definition ex_gas : array v3 := mkarr [2; 2] (fun _ => Ok (V3 1 0 0)).
Definition ex_still : array R := mkarr [2; 2] (fun _ => Ok 0%R).
Definition ex_state (lin : bool) : solution :=
  Solution 0 (if lin then Leaf ex_gas else empty_tree) (if lin then empty_tree else Leaf ex_gas) (0, 0)%R (0, 0)%R (0, 0)%R (0, 0)%R 0 0
    zero_elements zero_elements (elements_of_orbit (Orbit 1 1 1 0)).
Definition ex_fields vt xc dA : fields := Fields vt xc dA (Leaf ex_gas) (Leaf ex_gas) (Leaf ex_still).
Definition ex_none (l : nat) (r : R) : bool := false.

Lemma ex_setup lin : exists v c a, setup 2 0 ex_none 2 (ex_sd lin) (ex_fields (Leaf v) (Leaf c) (Leaf a)).
Proof.
  destruct (mesh_is_regular ex_none 2 0 1 ltac:(lia) ltac:(lia)) as (vt & EV & W & _ & D & HR). specialize (EV 2%nat ltac:(cbn; lia)).
  assert (exists v, vt = Leaf v) as [v ->] by (destruct vt; [eauto|cbn [depth] in D; lia]).
  destruct (mesh_cells 2 1 (Leaf v) ltac:(lia) W ltac:(cbn; lia) HR) as (dA & xc & EA & EC & Sa & Sc & _).
  assert (exists a, dA = Leaf a) as [a ->] by (inversion Sa; eauto). assert (exists c, xc = Leaf c) as [c ->] by (inversion Sc; eauto).
  exists v, c, a. constructor; cbn [ex_sd block_size domain_radius ex_fields vertices cell_areas cell_centers buffer_rate_field initial_conserved_u initial_conserved_q]; auto; try lia; try lra.
  - split; [constructor|]. constructor; [|constructor]. split; [reflexivity|]. intros k _. eexists. reflexivity.
  - assert (G : cell_data 2 (Leaf v) (Leaf ex_gas)) by (split; [constructor|]; constructor; [|constructor]; split; [reflexivity|]; intros k _; eexists; reflexivity). destruct (conserve_linear_p _); exact G.
Qed.

Definition ex_pair : two_body := TwoBody (Body (1 / 2) (1 / 2) 0 0 (1 / 2)) (Body (1 / 2) (- (1 / 2)) 0 0 (- (1 / 2))).
Lemma ex_bodies_fuel lin n : full_state_at (S (S n)) (orbital_elements (ex_state lin)) (time (ex_state lin)) = Ok ex_pair.
Proof.
  cbn [ex_state orbital_elements time]. unfold full_state_at, elements_of_orbit. cbn [after tau orb]. destruct (Rlt_dec 0 0) as [X|_]; [lra|]. bsimp. unfold state_at. cbn [ecc]. destruct (Rlt_dec 0 0) as [X|_]; [lra|]. bsimp.
  unfold state_of, place, omega_of. cbn [ecc ratio sep mtot pomega cmx cmy cmvx cmvy body1 body2 mass px py TwoBodyModel.vx TwoBodyModel.vy]. destruct (Req_EM_T 1 0) as [X|_]; [lra|].
  replace (1 / 1 / 1 / 1)%R with 1%R by field. rewrite sqrt_1. replace (1 * (0 - 0))%R with 0%R by ring. replace (- 0)%R with 0%R by ring. rewrite cos_0, sin_0. replace (1 - 0 * 0)%R with 1%R by ring. rewrite sqrt_1.
  unfold ex_pair. f_equal. f_equal; f_equal; field.
Qed.
Lemma ex_bodies lin : full_state_at 2 (orbital_elements (ex_state lin)) (time (ex_state lin)) = Ok ex_pair.
Proof. exact (ex_bodies_fuel lin 0). Qed.
Lemma ex_bound m1 m2 a b c e : (0 < m1)%R -> (0 < m2)%R -> ((a - c) * (a - c) + (b - e) * (b - e) < 2 * (m1 + m2))%R ->
  exists p, elements_at (TwoBody (Body m1 (1 / 2) 0 a b) (Body m2 (- (1 / 2)) 0 c e)) 0 = Ok p.
Proof.
  intros H1 H2 H. assert (ED : rel_D (TwoBody (Body m1 (1 / 2) 0 a b) (Body m2 (- (1 / 2)) 0 c e)) = 1%R).
  { unfold rel_D, gap. cbn [body1 body2 px py]. apply sqrt_of; lra. }
  apply elements_spec_ok; cbn [body1 body2 mass]; auto; [rewrite ED; lra|]. unfold rel_E, red, gap. rewrite ED. cbn [body1 body2 mass TwoBodyModel.vx TwoBodyModel.vy].
  assert (0 < m1 * m2 / (m1 + m2))%R by (apply Rdiv_lt_0_compat; [apply Rmult_lt_0_compat|]; lra).
  assert ((0 < m1 * m2 / (m1 + m2) * ((m1 + m2) / 1 - ((a - c) * (a - c) + (b - e) * (b - e)) / 2))%R) by (apply Rmult_lt_0_compat; lra). lra.
Qed.

(** What a body takes in from the four cells: two centres lie at distance 1/2, two at distance sqrt(5)/2. *)
Definition ex_intake : R := (exp (- (1 / 8)) + exp (- (5 / 8)))%R.
Lemma ex_intake_small : (0 < ex_intake < 2)%R.
Proof.
  unfold ex_intake. assert (F : forall x, (x < 0)%R -> (0 < exp x < 1)%R) by (intros x Hx; split; [apply exp_pos|rewrite <- exp_0; apply exp_increasing; exact Hx]).
  pose proof (F (- (1 / 8))%R ltac:(lra)). pose proof (F (- (5 / 8))%R ltac:(lra)). lra.
Qed.
Lemma ex_cells : idxs [2; 2] = [[0; 0]; [0; 1]; [1; 0]; [1; 1]].
Proof. reflexivity. Qed.
Lemma ex_center lin i j : cell_center 2 (ex_sd lin) (root_index 2) [i; j] = (IZR i - 1 / 2, IZR j - 1 / 2)%R.
Proof. unfold cell_center, point_in, MeshSpec.place. cbn [ex_sd domain_radius level root_index coords repeat nth pow Z.of_nat Z.mul]. f_equal; field. Qed.

Lemma ex_pow : pow32 (9 / 4) = (27 / 8)%R.
Proof. unfold pow32. rewrite (sqrt_of (9 / 4) (3 / 2)) by lra. lra. Qed.

Lemma ex_booked lin B U I : (forall k, inb [2; 2] k -> U k = V3 1 0 0) ->
  let t := tot_u 2 (ex_sd lin) ex_pair (cell_center 2 (ex_sd lin) (root_index 2)) (fun _ => cell_area 2 (ex_sd lin) (root_index 2)) B U I (1 / 2) in
  mass_accreted_on t = (ex_intake, ex_intake) /\ integrated_force_x_on t = (- (4 / 27), 4 / 27)%R /\ integrated_force_y_on t = (0, 0)%R.
Proof.
  intros HU t. subst t. unfold tot_u, out. cbn [mass_accreted_on integrated_force_x_on integrated_force_y_on]. rewrite ex_cells. cbn [rsum map fold_right].
  rewrite !ex_center. rewrite !HU by (apply idxs_In; rewrite ex_cells; cbn; tauto).
  unfold cell_area. cbn [ex_sd domain_radius level root_index pow]. unfold cell_sink, cell_pull, vec_mul, v3_mul, v3_neg, sink_rate_field, grav_vdot_field. cbn [d0 fst snd ex_pair body1 body2 px py mass ex_sd sink_rate sink_radius softening_radius].
  repeat match goal with |- context [exp ?x] => progress (first [replace x with (- (5 / 8))%R by field | replace x with (- (1 / 8))%R by field]) end.
  repeat match goal with |- context [pow32 ?x] => progress (first [replace x with (9 / 4)%R by field | replace x with (5 / 4)%R by field]) end.
  assert (HP : (pow32 (5 / 4) <> 0)%R) by (unfold pow32; apply Rgt_not_eq, Rmult_lt_0_compat; [lra|apply sqrt_lt_R0; lra]).
  rewrite ex_pow. unfold ex_intake. split; [|split]; f_equal; field; exact HP.
Qed.

Lemma ex_run_full lin : exists v c a s1, let fd := ex_fields (Leaf v) (Leaf c) (Leaf a) in setup 2 0 ex_none 2 (ex_sd lin) fd /\ valid 2 (ex_sd lin) fd (ex_state lin) /\ steps (ex_sd lin) fd 2 1 (ex_state lin) = Ok s1 /\
  s_mass_accreted_on s1 = (ex_intake, ex_intake) /\ time s1 = (1 / 2)%R /\ advance (ex_sd lin) fd 2 (ex_state lin) (1 / 2) false = Ok s1.
Proof.
  destruct (ex_setup lin) as (v & c & a & HS). exists v, c, a. set (fd := ex_fields (Leaf v) (Leaf c) (Leaf a)) in *.
  assert (HC : conserved (ex_sd lin) (ex_state lin) = Leaf ex_gas) by (destruct lin; reflexivity).
  assert (RG : reps ex_gas [2; 2] (fun _ => V3 1 0 0)) by (split; [reflexivity|]; intros; reflexivity).
  assert (HM : on_mesh 2 (ex_sd lin) fd (ex_state lin)).
  { unfold on_mesh. rewrite HC. split; [constructor|]. constructor; [|constructor]. split; [reflexivity|]. intros k _. eexists. reflexivity. }
  assert (HD : densities 2 (conserved (ex_sd lin) (ex_state lin))).
  { rewrite HC. constructor; [|constructor]. intros k u _ E. injection E as <-. cbn. lra. }
  assert (HV : valid 2 (ex_sd lin) fd (ex_state lin)).
  { split; [exact HM|]. split; [exact HD|]. destruct lin; eexists; split; reflexivity. }
  destruct (recovered_cells 2 0 ex_none 2 (ex_sd lin) fd HS (ex_state lin) HM HD) as (p0 & Ep & Dp & Kp).
  pose proof (ex_bodies lin) as Eb.
  destruct (advance_form 2 0 ex_none 2 (ex_sd lin) fd HS (ex_state lin) (1 / 2) false ex_pair p0 HM Ep Dp Eb) as (z & Sz & Dz & Kz & EA).
  assert (exists y, z = Leaf y) as [y ->] by (inversion Sz; eauto).
  assert (RT : forall X (x : X), is_node (Leaf x) (root_index 2) (Leaf x)) by (intros; apply is_node_root; cbn; lia).
  destruct (Kz (root_index 2) y (RT _ y)) as (q & br & ui & B & U & I & F & Nq & Nb & Ni & Rq & Rb & Ri & RF & EF & T).
  assert (HU : forall k, inb [2; 2] k -> U k = V3 1 0 0).
  { intros k Hk. rewrite HC in Nq. pose proof (is_node_unique _ _ _ _ Nq (RT _ ex_gas)) as X. injection X as ->. pose proof (proj2 Rq k Hk) as E1. injection E1 as <-. reflexivity. }
  assert (HB : forall k, inb [2; 2] k -> B k = 0%R).
  { intros k Hk. pose proof (is_node_unique _ _ _ _ Nb (RT _ ex_still)) as X. injection X as ->. pose proof (proj2 Rb k Hk) as E1. injection E1 as <-. reflexivity. }
  destruct (ex_booked lin B U I HU) as (T1 & T2 & T3). cbv zeta in T. rewrite T1, T2, T3 in T. destruct T as (T4 & T5 & T6 & _).
  assert (HX : uniform 2 fd p0 (IPrim 1 0 0)).
  { intros i w k Hi Ew Hk. assert (i = root_index 2) as -> by (destruct Hi as [<-|[]]; reflexivity).
    rewrite HC in Kp. destruct (Kp (root_index 2) ex_gas _ (RT _ ex_gas) RG) as (y' & Ny & Ry). rewrite (leaf_at _ _ _ Ny) in Ew. injection Ew as <-. rewrite (proj2 Ry k Hk). f_equal.
    unfold prim_at. cbn [ex_sd conserve_linear_p d0 d1 d2]. cbv zeta. unfold Rdiv. destruct lin; f_equal; ring. }
  destruct (uniform_update 2 0 ex_none 2 (ex_sd lin) fd HS false ex_pair p0 (conserved (ex_sd lin) (ex_state lin)) (tmap fst (Leaf y)) (1 / 2) (IPrim 1 0 0) Dp HM Dz HX) as (u1 & EU & Du & Ku).
  rewrite EU in EA. cbn [bind] in EA. change (tsum no_totals totals_add (tmap snd (Leaf y))) with (snd y) in EA.
  destruct (ex_bound (1 / 2 + ex_intake) (1 / 2 + ex_intake) 0 (1 / 2) 0 (- (1 / 2))) as [e1 E1]; [pose proof ex_intake_small; lra..|].
  destruct (ex_bound (1 / 2) (1 / 2) (- (8 / 27)) (1 / 2) (8 / 27) (- (1 / 2))) as [e2 E2]; [lra..|].
  assert (EB : exists s1, booked_solution (ex_sd lin) (ex_state lin) ex_pair (snd y) (used (ex_sd lin) u1) (used_q (ex_sd lin) u1) (1 / 2) = Ok s1 /\ s_mass_accreted_on s1 = (ex_intake, ex_intake) /\ time s1 = (1 / 2)%R).
  { unfold booked_solution. unfold bodies_acc, bodies_grv, accreted_body, pulled_body. rewrite T4, T5, T6. cbn [ex_pair body1 body2 mass px py TwoBodyModel.vx TwoBodyModel.vy fst snd ex_sd no_accretion_force ex_state time].
    rewrite E1. bsimp.
    replace (0 + - (4 / 27) / (1 / 2))%R with (- (8 / 27))%R by field. replace (0 + 4 / 27 / (1 / 2))%R with (8 / 27)%R by field. replace (1 / 2 + 0 / (1 / 2))%R with (1 / 2)%R by field. replace (- (1 / 2) + 0 / (1 / 2))%R with (- (1 / 2))%R by field.
    rewrite E2. bsimp. eexists. split; [reflexivity|]. cbn [s_mass_accreted_on time]. unfold two_add, ex_state. cbn [fst snd s_mass_accreted_on]. split; [rewrite !Rplus_0_l; reflexivity|ring]. }
  destruct EB as (s1 & EB & M1 & M2). exists s1. rewrite EB in EA. cbn [bind] in EA. cbv zeta. fold fd.
  split; [exact HS|]. split; [exact HV|]. assert (DN : densities 2 u1).
  { unfold densities. destruct (mesh_facts 2 0 ex_none 2 (ex_sd lin) fd HS) as (W & D & _ & _ & _). destruct (same_shape_wf _ _ W (proj1 Du)) as [Wu Dpu]. apply leaves_nodes; [assumption|cbn in Dpu; lia|]. intros i w Hw k u Hk Eu.
    assert (exists w', u1 = Leaf w') as [w' ->] by (pose proof (proj1 Du) as SS; inversion SS; eauto).
    destruct (Ku (root_index 2)) as (y' & u' & s' & Y & U' & F' & Ny & Nu & Ns & RY & RU & RS & EY); [left; reflexivity|].
    assert (i = root_index 2) as -> by (pose proof (leaf_in _ Wu i w Hw) as [<-|[]]; reflexivity).
    pose proof (is_node_unique _ _ _ _ Hw Ny) as X. injection X as ->. rewrite (proj2 RY k Hk) in Eu. apply ok_inj in Eu. subst u. rewrite EY by assumption.
    rewrite HC in Nu. pose proof (is_node_unique _ _ _ _ Nu (RT _ ex_gas)) as X. injection X as ->. pose proof (proj2 RU k Hk) as X. injection X as <-.
    pose proof (is_node_unique _ _ _ _ Ns (RT _ (fst y))) as X. injection X as ->. pose proof (proj2 RS k Hk) as X. rewrite (proj2 RF k Hk) in X. apply ok_inj in X. rewrite <- X, EF. rewrite HU, HB by assumption.
    unfold mass_source, cell_sink, cell_buffer, v3_mul, v3_neg, v3_sub, sink_rate_field, floor_term. cbn [d0 ex_pair body1 body2 px py ex_sd sink_rate sink_radius density_floor fst snd]. destruct (Rlt_dec 1 0) as [X1|_]; [lra|].
    assert (FE : forall x, (0 <= x)%R -> (exp (- x) <= 1)%R) by (intros x Hx; rewrite <- exp_0; destruct (Rle_lt_or_eq_dec _ _ Hx) as [L|<-]; [left; apply exp_increasing; lra|right; f_equal; ring]).
    generalize (fst (cell_center 2 (ex_sd lin) (root_index 2) k)) (snd (cell_center 2 (ex_sd lin) (root_index 2) k)). intros g h.
    replace (if conserve_linear_p (ex_sd lin) then d0 (v3_mul (v3_mul (V3 1 0 0) (1 / 100)) 0) else 0)%R with 0%R by (destruct lin; cbn; lra).
    match goal with |- context [exp (- ?a)] => pose proof (FE a ltac:(pose proof (Rle_0_sqr (g - 1 / 2)); pose proof (Rle_0_sqr (h - 0)); unfold Rsqr in *; lra)) end.
    match goal with |- (0 <= 1 + (_ + - (1) * (1 * exp (- ?a)) * _ + _ + _))%R => pose proof (FE a ltac:(pose proof (Rle_0_sqr (g - - (1 / 2))); pose proof (Rle_0_sqr (h - 0)); unfold Rsqr in *; lra)) end.
    lra. }
  unfold steps, next_solution. cbn [ex_sd fixed_dt recommended_time_step bind]. unfold can_fail. cbn [ex_sd rk_order Z.eqb Pos.eqb].
  destruct (checked 2 0 ex_none 2 (ex_sd lin) fd HS u1 s1 Du) as [[_ EC]|[X _]]; [|contradiction]. rewrite EC in EA. fold (ex_sd lin). rewrite EA. repeat (split; [first [reflexivity | assumption]|]). reflexivity.
Qed.
Lemma ex_run lin : exists fd s1, setup 2 0 ex_none 2 (ex_sd lin) fd /\ valid 2 (ex_sd lin) fd (ex_state lin) /\ steps (ex_sd lin) fd 2 1 (ex_state lin) = Ok s1 /\
  s_mass_accreted_on s1 = (ex_intake, ex_intake) /\ time s1 = (1 / 2)%R.
Proof. destruct (ex_run_full lin) as (v & c & a & s1 & HS & V & E & M & T & _). exists (ex_fields (Leaf v) (Leaf c) (Leaf a)), s1. auto. Qed.

Lemma ex_held lin fd c : setup 2 0 ex_none 2 (ex_sd lin) fd -> on_mesh 2 (ex_sd lin) fd (ex_state lin) -> held c 2 (conserved (ex_sd lin) (ex_state lin)) (cell_areas fd) = (4 * c (V3 1 0 0))%R.
Proof.
  intros HS HM. unfold on_mesh in HM. replace (conserved (ex_sd lin) (ex_state lin)) with (Leaf ex_gas) in * by (destruct lin; reflexivity). destruct HM as [SM _].
  assert (exists v, vertices fd = Leaf v) as [v EV] by (inversion SM; eauto).
  destruct (shapes 2 0 ex_none 2 (ex_sd lin) fd HS) as (SA & _ & L). assert (RT : forall X (x : X), is_node (Leaf x) (root_index 2) (Leaf x)) by (intros; apply is_node_root; cbn; lia).
  destruct (L (root_index 2) v) as (a & c' & Na & _ & Ra & _); [rewrite EV; apply RT|].
  assert (cell_areas fd = Leaf a) as EA.
  { rewrite EV in SA. inversion SA as [x y H1 H2|]. rewrite <- H2 in Na. pose proof (is_node_unique _ _ _ _ Na (RT _ y)) as X. injection X as ->. reflexivity. }
  rewrite EA. unfold held. rewrite ex_cells. cbn [leaves combine rsum map fold_right fst snd]. unfold reading. cbn [ex_gas aget].
  rewrite !(proj2 Ra) by (apply idxs_In; rewrite ex_cells; cbn; tauto). unfold cell_area. cbn [ex_sd domain_radius level root_index pow]. field.
Qed.

(** Beside uniform_density (UniformProps.v): in the lower left cell, at distance 1/2 from the second body and sqrt(5)/2 from
    the first, the density goes from 1 to 1 - ex_intake / 2. *)
Example uniform_density_example : exists fd s1, advance (ex_sd true) fd 2 (ex_state true) (1 / 2) false = Ok s1 /\ reading d0 (look no_array (conserved_u s1) (root_index 2)) [0; 0] = (1 - ex_intake / 2)%R.
Proof.
  destruct (ex_run_full true) as (v & c & a & s1 & HS & V & _ & _ & _ & EA). exists (ex_fields (Leaf v) (Leaf c) (Leaf a)), s1. split; [exact EA|].
  destruct (uniform_density 2 0 ex_none 2 (ex_sd true) _ (ex_state true) (1 / 2) false s1 (IPrim 1 0 0) HS (proj1 V)) as (b & Eb & H); [cbn; lra| |exact EA|].
  - intros i w k Hi Ew Hk. cbn [ex_sd conserve_linear_p]. destruct Hi as [<-|[]]. change (Ok ex_gas = Ok w) in Ew. injection Ew as <-. cbn. f_equal. unfold iso_conserved. cbn. f_equal; ring.
  - rewrite ex_bodies in Eb. apply ok_inj in Eb. subst b. specialize (H (root_index 2) [0; 0] ltac:(left; reflexivity) ltac:(apply idxs_In; rewrite ex_cells; cbn; tauto)). cbv zeta in H. unfold conserved in H. cbn [ex_sd conserve_linear_p] in H. fold (ex_sd true) in H. rewrite H, ex_center.
    unfold absorbed. cbn [fst snd ex_pair body1 body2 px py ex_sd sink_rate sink_radius HydroModel.sigma density_floor]. destruct (Rlt_dec 1 0) as [X|_]; [lra|].
    replace (reading (fun r => r) (look no_array (buffer_rate_field (ex_fields (Leaf v) (Leaf c) (Leaf a))) (root_index 2)) [0; 0]) with 0%R by reflexivity.
    unfold ex_intake. repeat match goal with |- context [exp ?x] => progress (first [replace x with (- (5 / 8))%R by field | replace x with (- (1 / 8))%R by field]) end. field.
Qed.

Print Assumptions uniform_density.
Print Assumptions uniform_density_stays.
