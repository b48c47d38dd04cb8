(** The run of SolutionExample.v with half the gas, for the examples beside UnitsProps.v. *)
From Coq Require Import ZArith Reals Lra List Arith Bool Lia.
From Verif Require Import Base TreeModel TreeSpec TreeProofs TreeProofs3 TreeProofs4 BalanceModel BalanceSpec BalanceProofs NdModel NdSpec NdProofs NdProofs2 NdOpsModel NdOpsProofs PlmModel ProlongProofs FluxModel FluxSpec FluxTreeProofs FluxProofs FluxProofs3 FluxProofs4 FluxProofs5
  GuardSpec GuardProofs2 MeshModel MeshSpec MeshProps DimensionalModel StepModel StepSpec StepProofs StepProofs2 StepProofs3 StepProps UniformProofs TwoBodyModel OrbitProofs ElementsProofs HydroModel
  SourceModel SourceProofs SolutionModel SolutionSpec SolutionProofs SolutionProofs2 SolutionProofs3 SolutionProofs4 UniformProps SolutionExample UnitsSpec.
Import ListNotations.
Open Scope Z_scope.


Definition hx_gas : array v3 := mkarr [2; 2] (fun _ => Ok (V3 (1 / 2) 0 0)).
Definition hx_state (lin : bool) : solution :=
  Solution 0 (if lin then Leaf hx_gas else empty_tree) (if lin then empty_tree else Leaf hx_gas) (0, 0)%R (0, 0)%R (0, 0)%R (0, 0)%R 0 0
    zero_elements zero_elements (elements_of_orbit (Orbit 1 1 1 0)).
Definition hx_fields vt xc dA : fields := Fields vt xc dA (Leaf hx_gas) (Leaf hx_gas) (Leaf ex_still).
Lemma hx_setup lin v c a : setup 2 0 ex_none 2 (ex_sd lin) (ex_fields (Leaf v) (Leaf c) (Leaf a)) -> setup 2 0 ex_none 2 (ex_sd lin) (hx_fields (Leaf v) (Leaf c) (Leaf a)).
Proof.
  intros HS. destruct HS. constructor; auto.
  assert (G : cell_data 2 (Leaf v) (Leaf hx_gas)) by (split; [constructor|]; constructor; [|constructor]; split; [reflexivity|]; intros k _; eexists; reflexivity). destruct (conserve_linear_p _); exact G.
Qed.

Lemma hx_booked lin B U I : (forall k, inb [2; 2] k -> U k = V3 (1 / 2) 0 0) ->
  let t := tot_u 2 (ex_sd lin) ex_pair (cell_center 2 (ex_sd lin) (root_index 2)) (fun _ => cell_area 2 (ex_sd lin) (root_index 2)) B U I (1 / 2) in
  mass_accreted_on t = (ex_intake / 2, ex_intake / 2)%R /\ integrated_force_x_on t = (- (2 / 27), 2 / 27)%R /\ integrated_force_y_on t = (0, 0)%R.
Proof.
  intros HU t. subst t. unfold tot_u, out. cbn [mass_accreted_on integrated_force_x_on integrated_force_y_on]. rewrite ex_cells. cbn [rsum map fold_right].
  rewrite !ex_center. rewrite !HU by (apply idxs_In; rewrite ex_cells; cbn; tauto).
  unfold cell_area. cbn [ex_sd domain_radius level root_index pow]. unfold cell_sink, cell_pull, vec_mul, v3_mul, v3_neg, sink_rate_field, grav_vdot_field. cbn [d0 fst snd ex_pair body1 body2 px py mass ex_sd sink_rate sink_radius softening_radius].
  repeat match goal with |- context [exp ?x] => progress (first [replace x with (- (5 / 8))%R by field | replace x with (- (1 / 8))%R by field]) end.
  repeat match goal with |- context [pow32 ?x] => progress (first [replace x with (9 / 4)%R by field | replace x with (5 / 4)%R by field]) end.
  assert (HP : (pow32 (5 / 4) <> 0)%R) by (unfold pow32; apply Rgt_not_eq, Rmult_lt_0_compat; [lra|apply sqrt_lt_R0; lra]).
  rewrite ex_pow. unfold ex_intake. split; [|split]; f_equal; field; exact HP.
Qed.

Lemma hx_run lin v c a : setup 2 0 ex_none 2 (ex_sd lin) (ex_fields (Leaf v) (Leaf c) (Leaf a)) -> let fd := hx_fields (Leaf v) (Leaf c) (Leaf a) in
  exists s1, steps (ex_sd lin) fd 2 1 (hx_state lin) = Ok s1 /\ s_mass_accreted_on s1 = (ex_intake / 2, ex_intake / 2)%R /\ time s1 = (1 / 2)%R /\ advance (ex_sd lin) fd 2 (hx_state lin) (1 / 2) false = Ok s1.
Proof.
  intros HS0. apply hx_setup in HS0. rename HS0 into HS. set (fd := hx_fields (Leaf v) (Leaf c) (Leaf a)) in *. intros fd0. subst fd0.
  assert (HC : conserved (ex_sd lin) (hx_state lin) = Leaf hx_gas) by (destruct lin; reflexivity).
  assert (RG : reps hx_gas [2; 2] (fun _ => V3 (1 / 2) 0 0)) by (split; [reflexivity|]; intros; reflexivity).
  assert (HM : on_mesh 2 (ex_sd lin) fd (hx_state lin)).
  { unfold on_mesh. rewrite HC. split; [constructor|]. constructor; [|constructor]. split; [reflexivity|]. intros k _. eexists. reflexivity. }
  assert (HD : densities 2 (conserved (ex_sd lin) (hx_state lin))).
  { rewrite HC. constructor; [|constructor]. intros k u _ E. injection E as <-. cbn. lra. }
  assert (HV : valid 2 (ex_sd lin) fd (hx_state lin)).
  { split; [exact HM|]. split; [exact HD|]. destruct lin; eexists; split; reflexivity. }
  destruct (recovered_cells 2 0 ex_none 2 (ex_sd lin) fd HS (hx_state lin) HM HD) as (p0 & Ep & Dp & Kp).
  pose proof (ex_bodies lin) as Eb. change (full_state_at 2 (orbital_elements (hx_state lin)) (time (hx_state lin)) = Ok ex_pair) in Eb.
  destruct (advance_form 2 0 ex_none 2 (ex_sd lin) fd HS (hx_state lin) (1 / 2) false ex_pair p0 HM Ep Dp Eb) as (z & Sz & Dz & Kz & EA).
  assert (exists y, z = Leaf y) as [y ->] by (inversion Sz; eauto).
  assert (RT : forall X (x : X), is_node (Leaf x) (root_index 2) (Leaf x)) by (intros; apply is_node_root; cbn; lia).
  destruct (Kz (root_index 2) y (RT _ y)) as (q & br & ui & B & U & I & F & Nq & Nb & Ni & Rq & Rb & Ri & RF & EF & T).
  assert (HU : forall k, inb [2; 2] k -> U k = V3 (1 / 2) 0 0).
  { intros k Hk. rewrite HC in Nq. pose proof (is_node_unique _ _ _ _ Nq (RT _ hx_gas)) as X. injection X as ->. pose proof (proj2 Rq k Hk) as E1. injection E1 as <-. reflexivity. }
  assert (HB : forall k, inb [2; 2] k -> B k = 0%R).
  { intros k Hk. pose proof (is_node_unique _ _ _ _ Nb (RT _ ex_still)) as X. injection X as ->. pose proof (proj2 Rb k Hk) as E1. injection E1 as <-. reflexivity. }
  destruct (hx_booked lin B U I HU) as (T1 & T2 & T3). cbv zeta in T. rewrite T1, T2, T3 in T. destruct T as (T4 & T5 & T6 & _).
  assert (HX : uniform 2 fd p0 (IPrim (1 / 2) 0 0)).
  { intros i w k Hi Ew Hk. assert (i = root_index 2) as -> by (destruct Hi as [<-|[]]; reflexivity).
    rewrite HC in Kp. destruct (Kp (root_index 2) hx_gas _ (RT _ hx_gas) RG) as (y' & Ny & Ry). rewrite (leaf_at _ _ _ Ny) in Ew. injection Ew as <-. rewrite (proj2 Ry k Hk). f_equal.
    unfold prim_at. cbn [ex_sd conserve_linear_p d0 d1 d2]. cbv zeta. unfold Rdiv. destruct lin; f_equal; ring. }
  destruct (uniform_update 2 0 ex_none 2 (ex_sd lin) fd HS false ex_pair p0 (conserved (ex_sd lin) (hx_state lin)) (tmap fst (Leaf y)) (1 / 2) (IPrim (1 / 2) 0 0) Dp HM Dz HX) as (u1 & EU & Du & Ku).
  rewrite EU in EA. cbn [bind] in EA. change (tsum no_totals totals_add (tmap snd (Leaf y))) with (snd y) in EA.
  destruct (ex_bound (1 / 2 + ex_intake / 2) (1 / 2 + ex_intake / 2) 0 (1 / 2) 0 (- (1 / 2))) as [e1 E1]; [pose proof ex_intake_small; lra..|].
  destruct (ex_bound (1 / 2) (1 / 2) (- (4 / 27)) (1 / 2) (4 / 27) (- (1 / 2))) as [e2 E2]; [lra..|].
  assert (EB : exists s1, booked_solution (ex_sd lin) (hx_state lin) ex_pair (snd y) (used (ex_sd lin) u1) (used_q (ex_sd lin) u1) (1 / 2) = Ok s1 /\ s_mass_accreted_on s1 = (ex_intake / 2, ex_intake / 2)%R /\ time s1 = (1 / 2)%R).
  { unfold booked_solution. unfold bodies_acc, bodies_grv, accreted_body, pulled_body. rewrite T4, T5, T6. cbn [ex_pair body1 body2 mass px py TwoBodyModel.vx TwoBodyModel.vy fst snd ex_sd no_accretion_force hx_state time].
    rewrite E1. bsimp.
    replace (0 + - (2 / 27) / (1 / 2))%R with (- (4 / 27))%R by field. replace (0 + 2 / 27 / (1 / 2))%R with (4 / 27)%R by field. replace (1 / 2 + 0 / (1 / 2))%R with (1 / 2)%R by field. replace (- (1 / 2) + 0 / (1 / 2))%R with (- (1 / 2))%R by field.
    rewrite E2. bsimp. eexists. split; [reflexivity|]. cbn [s_mass_accreted_on time]. unfold two_add, hx_state. cbn [fst snd s_mass_accreted_on]. split; [rewrite !Rplus_0_l; reflexivity|ring]. }
  destruct EB as (s1 & EB & M1 & M2). exists s1. rewrite EB in EA. cbn [bind] in EA. cbv zeta. fold fd.
  assert (DN : densities 2 u1).
  { unfold densities. destruct (mesh_facts 2 0 ex_none 2 (ex_sd lin) fd HS) as (W & D & _ & _ & _). destruct (same_shape_wf _ _ W (proj1 Du)) as [Wu Dpu]. apply leaves_nodes; [assumption|cbn in Dpu; lia|]. intros i w Hw k u Hk Eu.
    assert (exists w', u1 = Leaf w') as [w' ->] by (pose proof (proj1 Du) as SS; inversion SS; eauto).
    destruct (Ku (root_index 2)) as (y' & u' & s' & Y & U' & F' & Ny & Nu & Ns & RY & RU & RS & EY); [left; reflexivity|].
    assert (i = root_index 2) as -> by (pose proof (leaf_in _ Wu i w Hw) as [<-|[]]; reflexivity).
    pose proof (is_node_unique _ _ _ _ Hw Ny) as X. injection X as ->. rewrite (proj2 RY k Hk) in Eu. apply ok_inj in Eu. subst u. rewrite EY by assumption.
    rewrite HC in Nu. pose proof (is_node_unique _ _ _ _ Nu (RT _ hx_gas)) as X. injection X as ->. pose proof (proj2 RU k Hk) as X. injection X as <-.
    pose proof (is_node_unique _ _ _ _ Ns (RT _ (fst y))) as X. injection X as ->. pose proof (proj2 RS k Hk) as X. rewrite (proj2 RF k Hk) in X. apply ok_inj in X. rewrite <- X, EF. rewrite HU, HB by assumption.
    unfold mass_source, cell_sink, cell_buffer, v3_mul, v3_neg, v3_sub, sink_rate_field, floor_term. cbn [d0 ex_pair body1 body2 px py ex_sd sink_rate sink_radius density_floor fst snd]. destruct (Rlt_dec (1 / 2) 0) as [X1|_]; [lra|].
    assert (FE : forall x, (0 <= x)%R -> (exp (- x) <= 1)%R) by (intros x Hx; rewrite <- exp_0; destruct (Rle_lt_or_eq_dec _ _ Hx) as [L|<-]; [left; apply exp_increasing; lra|right; f_equal; ring]).
    generalize (fst (cell_center 2 (ex_sd lin) (root_index 2) k)) (snd (cell_center 2 (ex_sd lin) (root_index 2) k)). intros g h.
    replace (if conserve_linear_p (ex_sd lin) then d0 (v3_mul (v3_mul (V3 (1 / 2) 0 0) (1 / 100)) 0) else 0)%R with 0%R by (destruct lin; cbn; lra).
    match goal with |- context [exp (- ?a)] => pose proof (FE a ltac:(pose proof (Rle_0_sqr (g - 1 / 2)); pose proof (Rle_0_sqr (h - 0)); unfold Rsqr in *; lra)) end.
    match goal with |- (0 <= 1 / 2 + (_ + - (1 / 2) * (1 * exp (- ?a)) * _ + _ + _))%R => pose proof (FE a ltac:(pose proof (Rle_0_sqr (g - - (1 / 2))); pose proof (Rle_0_sqr (h - 0)); unfold Rsqr in *; lra)) end.
    lra. }
  unfold steps, next_solution. cbn [ex_sd fixed_dt recommended_time_step bind]. unfold can_fail. cbn [ex_sd rk_order Z.eqb Pos.eqb].
  destruct (checked 2 0 ex_none 2 (ex_sd lin) fd HS u1 s1 Du) as [[_ EC]|[X _]]; [|contradiction]. rewrite EC in EA. fold (ex_sd lin). rewrite EA. repeat (split; [first [reflexivity | assumption]|]). reflexivity.
Qed.
