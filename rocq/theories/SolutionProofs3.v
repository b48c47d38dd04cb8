(** Budgets of the sources on the whole mesh; checking densities; one advance. *)
From Coq Require Import ZArith Reals Lra List Arith Bool Lia.
From Verif Require Import Base TreeModel TreeSpec TreeProofs TreeProofs3 TreeProofs4 BalanceModel BalanceSpec BalanceProofs NdModel NdSpec NdProofs NdProofs2 NdOpsModel NdOpsProofs ProlongProofs FluxModel FluxSpec FluxTreeProofs FluxProofs FluxProofs3 FluxProofs4 FluxProofs5
  GuardSpec GuardProofs2 MeshModel MeshSpec MeshProps StepModel StepSpec StepProofs StepProofs2 StepProofs3 StepProps TwoBodyModel HydroModel SourceModel SourceProofs SolutionModel SolutionSpec SolutionProofs SolutionProofs2.
Import ListNotations.
Open Scope Z_scope.

(** A number read off the totals that adds up. *)
Definition additive (g : totals -> R) : Prop := g no_totals = 0%R /\ forall x y, g (totals_add x y) = (g x + g y)%R.
Ltac additivity := split; [cbn; lra|intros [[? ?] [? ?] [? ?] [? ?] [? ?] [? ?] [? ?] [? ?] ? ?] [[? ?] [? ?] [? ?] [? ?] [? ?] [? ?] [? ?] [? ?] ? ?]; cbn; lra].
Definition g_mass (t : totals) : R := (both (mass_accreted_on t) + mass_ejected t)%R.
Definition g_lz (t : totals) : R := (both (angular_momentum_accreted_on t) + both (integrated_torque_on t) + angular_momentum_ejected t)%R.
Lemma g_mass_additive : additive g_mass. Proof. unfold g_mass, both. additivity. Qed.
Lemma g_lz_additive : additive g_lz. Proof. unfold g_lz, both. additivity. Qed.

Section Budgets.
Variables (N : Z) (d : nat) (predicate : nat -> R -> bool) (fuel : nat) (sd : settings) (fd : fields).
Hypothesis HS : setup N d predicate fuel sd fd.
Let vt := vertices fd.
Let dA := cell_areas fd.

Lemma area_leaf i : In i (leaves (indexes 2 vt)) -> exists a, is_node dA i (Leaf a) /\ reps a [N; N] (fun _ => cell_area N sd i).
Proof.
  intros Hi. destruct (mesh_facts N d predicate fuel sd fd HS) as (W & D & _ & _ & _). fold vt in W, D. destruct (in_leaf vt W D i Hi) as [v Hv].
  destruct (shapes N d predicate fuel sd fd HS) as (_ & _ & L). destruct (L i v Hv) as (a & c & Na & _ & Ra & _). eauto.
Qed.

Lemma budget (z : tree (array v3 * totals)) (c : v3 -> R) (g : totals -> R) (e : idx -> R) : additive g -> same_shape vt z ->
  (forall i y, is_node z i (Leaf y) -> exists F, reps (fst y) [N; N] F /\ rsum (fun k => c (F k) * cell_area N sd i)%R (idxs [N; N]) = (- g (snd y) + e i)%R) ->
  held c N (tmap fst z) dA = (- g (tsum no_totals totals_add (tmap snd z)) + rsum e (leaves (indexes 2 vt)))%R.
Proof.
  intros [G0 GA] Sz HZ. destruct (mesh_facts N d predicate fuel sd fd HS) as (W & D & _ & _ & _). fold vt in W, D. destruct (same_shape_wf _ _ W Sz) as [Wz Dz].
  destruct (shapes N d predicate fuel sd fd HS) as (SA & _ & _).
  rewrite (held_by_address c N (tmap fst z) dA vt W D (shape_trans _ _ _ Sz (shape_sym _ _ (tmap_shape fst z))) SA).
  rewrite (tsum_by_address no_totals totals_add g (tmap snd z) vt G0 GA W D (shape_trans _ _ _ Sz (shape_sym _ _ (tmap_shape snd z)))).
  rewrite <- rsum_opp, <- rsum_add. apply rsum_ext_in. intros i Hi. destruct (area_leaf i Hi) as (a & Na & Ra).
  destruct (in_leaf vt W D i Hi) as [v Hv]. destruct (shape_leaf vt z i v W Sz Hv) as [y Hy]. destruct (HZ i y Hy) as (F & RF & E).
  rewrite (look_leaf _ _ _ _ (tmap_leaf fst z i y Wz Hy)), (look_leaf _ _ _ _ (tmap_leaf snd z i y Wz Hy)), (look_leaf _ _ _ _ Na).
  rewrite (block_held_reps c N _ _ _ _ RF Ra). exact E.
Qed.
Lemma source_data (z : tree (array v3 * totals)) : same_shape vt z -> (forall i y, is_node z i (Leaf y) -> exists F, reps (fst y) [N; N] F) -> cell_data N vt (tmap fst z).
Proof.
  intros Sz HZ. destruct (mesh_facts N d predicate fuel sd fd HS) as (W & D & _ & _ & _). fold vt in W, D. destruct (same_shape_wf _ _ W Sz) as [Wz Dz].
  split; [exact (shape_trans _ _ _ Sz (shape_sym _ _ (tmap_shape fst z)))|]. rewrite tmap_leaves. apply Forall_map. apply leaves_nodes; [assumption|lia|].
  intros i y Hi. destruct (HZ i y Hi) as [F RF]. eapply reps_data; exact RF.
Qed.
Lemma booked_zero (z : tree (array v3 * totals)) (g : totals -> R) : additive g -> same_shape vt z -> (forall i y, is_node z i (Leaf y) -> g (snd y) = 0%R) ->
  g (tsum no_totals totals_add (tmap snd z)) = 0%R.
Proof.
  intros [G0 GA] Sz HZ. destruct (mesh_facts N d predicate fuel sd fd HS) as (W & D & _ & _ & _). fold vt in W, D. destruct (same_shape_wf _ _ W Sz) as [Wz Dz].
  rewrite (tsum_by_address no_totals totals_add g (tmap snd z) vt G0 GA W D (shape_trans _ _ _ Sz (shape_sym _ _ (tmap_shape snd z)))).
  rewrite (rsum_ext_in _ (fun _ => 0%R)); [induction (leaves (indexes 2 vt)); cbn [rsum]; lra|]. intros i Hi.
  destruct (in_leaf vt W D i Hi) as [v Hv]. destruct (shape_leaf vt z i v W Sz Hv) as [y Hy].
  rewrite (look_leaf _ _ _ _ (tmap_leaf snd z i y Wz Hy)). exact (HZ i y Hy).
Qed.
Lemma booked_nonneg (z : tree (array v3 * totals)) (g : totals -> R) : additive g -> same_shape vt z -> (forall i y, is_node z i (Leaf y) -> 0 <= g (snd y))%R ->
  (0 <= g (tsum no_totals totals_add (tmap snd z)))%R.
Proof.
  intros [G0 GA] Sz HZ. destruct (mesh_facts N d predicate fuel sd fd HS) as (W & D & _ & _ & _). fold vt in W, D. destruct (same_shape_wf _ _ W Sz) as [Wz Dz].
  rewrite (tsum_by_address no_totals totals_add g (tmap snd z) vt G0 GA W D (shape_trans _ _ _ Sz (shape_sym _ _ (tmap_shape snd z)))).
  apply rsum_nonneg. intros i Hi. destruct (in_leaf vt W D i Hi) as [v Hv]. destruct (shape_leaf vt z i v W Sz Hv) as [y Hy].
  rewrite (look_leaf _ _ _ _ (tmap_leaf snd z i y Wz Hy)). exact (HZ i y Hy).
Qed.

(** The torque of the booked forces. *)
Definition torque_gap1 (b : two_body) (t : totals) : R := (fst (integrated_torque_on t) - (px (body1 b) * fst (integrated_force_y_on t) - py (body1 b) * fst (integrated_force_x_on t)))%R.
Definition torque_gap2 (b : two_body) (t : totals) : R := (snd (integrated_torque_on t) - (px (body2 b) * snd (integrated_force_y_on t) - py (body2 b) * snd (integrated_force_x_on t)))%R.
Definition arm (b : two_body) (t : totals) : Prop :=
  integrated_torque_on t = (px (body1 b) * fst (integrated_force_y_on t) - py (body1 b) * fst (integrated_force_x_on t),
   px (body2 b) * snd (integrated_force_y_on t) - py (body2 b) * snd (integrated_force_x_on t))%R.
Lemma torque_gap1_additive b : additive (torque_gap1 b). Proof. unfold torque_gap1. additivity. Qed.
Lemma torque_gap2_additive b : additive (torque_gap2 b). Proof. unfold torque_gap2. additivity. Qed.
Lemma arms (z : tree (array v3 * totals)) b : same_shape vt z -> (forall i y, is_node z i (Leaf y) -> arm b (snd y)) -> arm b (tsum no_totals totals_add (tmap snd z)).
Proof.
  intros Sz HZ. pose proof (booked_zero z _ (torque_gap1_additive b) Sz) as Z1. pose proof (booked_zero z _ (torque_gap2_additive b) Sz) as Z2.
  assert (G1 : torque_gap1 b (tsum no_totals totals_add (tmap snd z)) = 0%R) by (apply Z1; intros i y Hy; unfold torque_gap1; rewrite (HZ i y Hy); cbn [fst snd]; lra).
  assert (G2 : torque_gap2 b (tsum no_totals totals_add (tmap snd z)) = 0%R) by (apply Z2; intros i y Hy; unfold torque_gap2; rewrite (HZ i y Hy); cbn [fst snd]; lra).
  unfold arm. rewrite (surjective_pairing (integrated_torque_on _)). unfold torque_gap1, torque_gap2 in *. f_equal; lra.
Qed.

(** Everything about the sources that the budgets need, in both schemes. *)
Record sourced (b : two_body) (u0 src : tree (array v3)) (t : totals) (dt : R) : Prop := {
  so_data : cell_data N vt src;
  so_mass : held d0 N src dA = (- g_mass t + (if conserve_linear_p sd then held (fun u => d0 (floor_term sd u)) N u0 dA else 0))%R;
  so_lz : conserve_linear_p sd = false -> held d2 N src dA = (- g_lz t)%R;
  so_arm : arm b t;
  so_sign : densities N u0 -> (0 <= sink_rate sd)%R -> (0 <= dt)%R -> (0 <= fst (mass_accreted_on t) /\ 0 <= snd (mass_accreted_on t))%R
}.
Lemma sourced_q b p0 q0 dt : conserve_linear_p sd = false -> cell_data N vt p0 -> cell_data N vt q0 ->
  exists z, tmapM (sources_q sd fd b p0 q0 dt) (indexes 2 p0) = Ok z /\ sourced b q0 (tmap fst z) (tsum no_totals totals_add (tmap snd z)) dt.
Proof.
  intros HQ Hp Hq. destruct (sources_q_tree N d predicate fuel sd fd HS b p0 q0 dt HQ Hp Hq) as (z & Ez & Sz & K). exists z. split; [exact Ez|]. constructor.
  - apply source_data; [exact Sz|]. intros i y Hy. destruct (K i y Hy) as (a & q & B & P & U & I & _ & _ & _ & _ & RY & _). eauto.
  - rewrite HQ, (budget z d0 g_mass (fun _ => 0%R) g_mass_additive Sz).
    + replace (rsum (fun _ : idx => 0%R) (leaves (indexes 2 vt))) with 0%R; [reflexivity|]. induction (leaves (indexes 2 vt)); cbn [rsum]; lra.
    + intros i y Hy. destruct (K i y Hy) as (a & q & B & P & U & I & _ & _ & _ & _ & RY & T & _). eexists. split; [exact RY|]. rewrite T.
      pose proof (budget_mass_q N sd b (cell_center N sd i) (fun _ => cell_area N sd i) B P U I dt) as Q. cbv beta in Q. rewrite Q. unfold g_mass. lra.
  - intros _. rewrite (budget z d2 g_lz (fun _ => 0%R) g_lz_additive Sz).
    + replace (rsum (fun _ : idx => 0%R) (leaves (indexes 2 vt))) with 0%R; [lra|]. induction (leaves (indexes 2 vt)); cbn [rsum]; lra.
    + intros i y Hy. destruct (K i y Hy) as (a & q & B & P & U & I & _ & _ & _ & _ & RY & T & _). eexists. split; [exact RY|]. rewrite T.
      pose proof (budget_lz_q N sd b (cell_center N sd i) (fun _ => cell_area N sd i) B P U I dt) as Q. cbv beta in Q. rewrite Q. unfold g_lz. lra.
  - apply arms; [exact Sz|]. intros i y Hy. destruct (K i y Hy) as (a & q & B & P & U & I & _ & _ & _ & _ & RY & T & _). rewrite T. apply torque_q.
  - intros HD Hr Ht. assert (C : forall i y, is_node z i (Leaf y) -> (0 <= fst (mass_accreted_on (snd y)) /\ 0 <= snd (mass_accreted_on (snd y)))%R).
    { intros i y Hy. destruct (K i y Hy) as (a & q & B & P & U & I & _ & Nq & _ & RQ & RY & T & _). rewrite T. apply accreted_nonneg_q; [intros k _; eapply cell_area_pos; exact HS| |assumption|assumption].
      intros k Hk. unfold densities in HD. rewrite Forall_forall in HD. destruct (mesh_facts N d predicate fuel sd fd HS) as (W & D & _). refine (HD q (node_leaves q0 i q (proj1 (same_shape_wf _ _ W (proj1 Hq))) Nq) k (U k) Hk (proj2 RQ k Hk)). }
    split; [apply (booked_nonneg z (fun t => fst (mass_accreted_on t)))|apply (booked_nonneg z (fun t => snd (mass_accreted_on t)))]; try additivity; try exact Sz; intros i y Hy; apply (C i y Hy).
Qed.
Lemma sourced_u {A} b (p0 : tree (array A)) u0 dt : conserve_linear_p sd = true -> cell_data N vt p0 -> cell_data N vt u0 ->
  exists z, tmapM (sources_u sd fd b u0 dt) (indexes 2 p0) = Ok z /\ sourced b u0 (tmap fst z) (tsum no_totals totals_add (tmap snd z)) dt.
Proof.
  intros HQ Hp Hq. destruct (sources_u_tree N d predicate fuel sd fd HS b p0 u0 dt HQ Hp Hq) as (z & Ez & Sz & K). exists z. split; [exact Ez|]. constructor.
  - apply source_data; [exact Sz|]. intros i y Hy. destruct (K i y Hy) as (a & q & B & U & I & _ & _ & _ & _ & RY & _). eauto.
  - destruct (mesh_facts N d predicate fuel sd fd HS) as (W & D & _ & _ & _). fold vt in W, D. destruct (shapes N d predicate fuel sd fd HS) as (SA & _ & _).
    rewrite HQ, (budget z d0 g_mass (fun i => block_held (fun u => d0 (floor_term sd u)) N (look no_array u0 i) (look no_array dA i)) g_mass_additive Sz).
    + rewrite (held_by_address (fun u => d0 (floor_term sd u)) N u0 dA vt W D (proj1 Hq) SA). reflexivity.
    + intros i y Hy. destruct (K i y Hy) as (a & q & B & U & I & Na & Nq & Ra & Rq & RY & T & _). eexists. split; [exact RY|]. rewrite T.
      pose proof (budget_mass_u N sd b (cell_center N sd i) (fun _ => cell_area N sd i) B U I dt) as Q. cbv beta in Q. rewrite Q. unfold g_mass, dA.
      rewrite (look_leaf _ _ _ _ Nq), (look_leaf _ _ _ _ Na), (block_held_reps _ N _ _ _ _ Rq Ra). reflexivity.
  - rewrite HQ. discriminate.
  - apply arms; [exact Sz|]. intros i y Hy. destruct (K i y Hy) as (a & q & B & U & I & _ & _ & _ & _ & RY & T & _). rewrite T. apply torque_u.
  - intros HD Hr Ht. assert (C : forall i y, is_node z i (Leaf y) -> (0 <= fst (mass_accreted_on (snd y)) /\ 0 <= snd (mass_accreted_on (snd y)))%R).
    { intros i y Hy. destruct (K i y Hy) as (a & q & B & U & I & _ & Nq & _ & RQ & RY & T & _). rewrite T. apply accreted_nonneg_u; [intros k _; eapply cell_area_pos; exact HS| |assumption|assumption].
      intros k Hk. unfold densities in HD. rewrite Forall_forall in HD. destruct (mesh_facts N d predicate fuel sd fd HS) as (W & D & _). refine (HD q (node_leaves u0 i q (proj1 (same_shape_wf _ _ W (proj1 Hq))) Nq) k (U k) Hk (proj2 RQ k Hk)). }
    split; [apply (booked_nonneg z (fun t => fst (mass_accreted_on t)))|apply (booked_nonneg z (fun t => snd (mass_accreted_on t)))]; try additivity; try exact Sz; intros i y Hy; apply (C i y Hy).
Qed.

(** Checking the densities. *)
Lemma total_orb (F : list Z -> bool) l : total false Init.Datatypes.orb F l = existsb F l.
Proof. induction l as [|x l IH]; [reflexivity|]. cbn [total existsb]. rewrite IH. reflexivity. Qed.
Definition sub_zero (u : v3) : bool := if Rlt_dec (d0 u) 0 then true else false.
Lemma block_checked u i : cell_data N vt u -> In i (leaves (indexes 2 vt)) -> exists b U, is_node u i (Leaf b) /\ reps b [N; N] U /\
  negative_density (cell_centers fd) u i = Ok (existsb (fun k => sub_zero (U k)) (idxs [N; N])).
Proof.
  intros Hu Hi. destruct (mesh_facts N d predicate fuel sd fd HS) as (W & D & _ & _ & _). fold vt in W, D. pose proof (su_size _ _ _ _ _ _ HS) as HN.
  destruct (at_address N d predicate fuel sd fd HS u i Hu Hi) as (b & U & Nb & Rb). exists b, U. split; [exact Nb|]. split; [exact Rb|].
  destruct (in_leaf vt W D i Hi) as [v Hv]. destruct (shapes N d predicate fuel sd fd HS) as (_ & _ & L). destruct (L i v Hv) as (a & c & _ & Nc & _ & Rc).
  unfold negative_density. rewrite (leaf_at _ _ _ Nc), (leaf_at _ _ _ Nb). bsimp. unfold zip2. destruct (binary_reps_gen pair c b _ _ _ Rc Rb) as (z & E & Rz). rewrite E. bsimp.
  apply (map_reps (fun w : R * R * v3 => if Rlt_dec (d0 (snd w)) 0 then true else false)) in Rz. cbn [snd] in Rz. destruct Rz as [S1 S2]. cbn [arr_map ashape] in S1.
  assert (HB : N < two64) by (apply Z.lt_trans with 2147483647; [lia|reflexivity]).
  rewrite (arr_sum_total false Init.Datatypes.orb orb_comm orb_assoc (fun x => eq_refl) _ _ (fun k => sub_zero (U k))); cbn [arr_map ashape]; rewrite ?S1.
  - rewrite total_orb. reflexivity.
  - discriminate.
  - repeat constructor; lia.
  - unfold volume_of. lia.
  - exact S2.
Qed.
Lemma checked u s : cell_data N vt u -> (densities N u /\ validate fd u s = Ok s) \/ (~ densities N u /\ validate fd u s = Throw RuntimeError).
Proof.
  intros Hu. destruct (mesh_facts N d predicate fuel sd fd HS) as (W & D & _ & _ & _). fold vt in W, D. destruct (same_shape_wf _ _ W (proj1 Hu)) as [Wu Du].
  unfold validate. replace (indexes 2 u) with (indexes 2 vt) by (unfold indexes; rewrite (same_shape_indexes vt u _ (proj1 Hu)); reflexivity).
  destruct (tmapM_idx (negative_density (cell_centers fd) u) false vt W ltac:(lia)) as (p & Ep & Sp & Kp).
  { intros i v Hv. destruct (block_checked u i Hu (leaf_in vt W i v Hv)) as (b & U & _ & _ & E). eauto. }
  rewrite Ep. bsimp. destruct (same_shape_wf _ _ W Sp) as [Wp Dp]. destruct (existsb (fun b => b) (leaves p)) eqn:EB.
  - right. split; [|reflexivity]. intros HD. apply existsb_exists in EB. destruct EB as (x & Hx & ->).
    rewrite (leaves_look false p Wp ltac:(lia)) in Hx. apply in_map_iff in Hx. destruct Hx as (i & Ei & Hi). unfold indexes in Hi. rewrite (same_shape_indexes vt p _ Sp) in Hi.
    destruct (block_checked u i Hu Hi) as (b & U & Nb & Rb & E). destruct (in_leaf vt W D i Hi) as [v Hv].
    rewrite (look_leaf false p i _ (Kp i v _ Hv E)) in Ei. apply existsb_exists in Ei. destruct Ei as (k & Hk & E'). apply idxs_In in Hk. unfold sub_zero in E'. destruct (Rlt_dec (d0 (U k)) 0) as [L|L]; [|discriminate].
    unfold densities in HD. rewrite Forall_forall in HD. pose proof (HD b (node_leaves u i b Wu Nb) k (U k) Hk (proj2 Rb k Hk)). lra.
  - left. split; [|reflexivity]. unfold densities. apply leaves_nodes; [assumption|lia|]. intros i b Hb k x Hk Ex. destruct (shape_leaf u vt i b Wu (shape_sym _ _ (proj1 Hu)) Hb) as [v Hv].
    pose proof (leaf_in vt W i v Hv) as Hi. destruct (block_checked u i Hu Hi) as (b' & U & Nb & Rb & E). pose proof (is_node_unique _ i _ _ Hb Nb) as X. injection X as <-.
    rewrite (proj2 Rb k Hk) in Ex. apply ok_inj in Ex. subst x. destruct (Rle_lt_dec 0 (d0 (U k))) as [L|L]; [exact L|exfalso].
    assert (Q : existsb (fun b => b) (leaves p) = true); [|congruence]. apply existsb_exists. exists true. split; [|reflexivity].
    pose proof (Kp i v _ Hv E) as HP. replace (existsb (fun k => sub_zero (U k)) (idxs [N; N])) with true in HP; [exact (node_leaves p i true Wp HP)|].
    symmetry. apply existsb_exists. exists k. split; [apply idxs_In; exact Hk|]. unfold sub_zero. destruct (Rlt_dec (d0 (U k)) 0); [reflexivity|lra].
Qed.

(** *** One advance *)
Definition flux_of (b : two_body) := if conserve_linear_p sd then intercell_flux_u sd b else intercell_flux_q sd b.
Lemma advanced s dt safe s1 : on_mesh N sd fd s -> densities N (conserved sd s) -> advance sd fd fuel s dt safe = Ok s1 ->
  exists b p0 src t, full_state_at fuel (orbital_elements s) (time s) = Ok b /\ cell_data N vt p0 /\ recover_primitive sd fd s = Ok p0 /\ sourced b (conserved sd s) src t dt /\
    update3 sd fd fuel safe (flux_of b) p0 (conserved sd s) src dt = Ok (conserved sd s1) /\ on_mesh N sd fd s1 /\ densities N (conserved sd s1) /\ is_empty (unused sd s1) /\
    booked_solution sd s b t (conserved_u s1) (conserved_q s1) dt = Ok s1.
Proof.
  intros HM HD E. destruct (recovered N d predicate fuel sd fd HS s HM HD) as (p0 & Ep & Dp). fold vt in Dp. unfold advance in E. unfold on_mesh, conserved, unused, flux_of in *. fold vt in HM.
  destruct (conserve_linear_p sd) eqn:HQ.
  - unfold advance_u in E. rewrite Ep in E. cbn [bind] in E. destruct (full_state_at fuel (orbital_elements s) (time s)) as [b| | |] eqn:Eb; cbn [bind] in E; try discriminate.
    destruct (sourced_u b p0 (conserved_u s) dt HQ Dp HM) as (z & Ez & HZ). rewrite Ez in E. cbn [bind] in E.
    destruct (updated N d predicate fuel sd fd HS safe (intercell_flux_u sd b) p0 (conserved_u s) (tmap fst z) dt Dp HM (so_data _ _ _ _ _ HZ)) as (u1 & E1 & D1 & _).
    rewrite E1 in E. cbn [bind] in E. destruct (booked_solution sd s b (tsum no_totals totals_add (tmap snd z)) u1 empty_tree dt) as [sx| | |] eqn:EB; cbn [bind] in E; try discriminate.
    destruct (checked u1 sx D1) as [[C1 C2]|[_ C2]]; rewrite C2 in E; [|discriminate]. apply ok_inj in E. subst sx.
    assert (EU : conserved_u s1 = u1 /\ conserved_q s1 = empty_tree).
    { unfold booked_solution in EB. destruct (elements_at _ _); cbn [bind] in EB; try discriminate. destruct (elements_at _ _); cbn [bind] in EB; try discriminate. apply ok_inj in EB. subst s1. split; reflexivity. }
    destruct EU as [EU EQ]. exists b, p0, (tmap fst z), (tsum no_totals totals_add (tmap snd z)). rewrite EU, EQ. do 7 (split; [first [reflexivity|assumption]|]). split; [eexists; split; reflexivity|]. exact EB.
  - unfold advance_q in E. rewrite Ep in E. cbn [bind] in E. destruct (full_state_at fuel (orbital_elements s) (time s)) as [b| | |] eqn:Eb; cbn [bind] in E; try discriminate.
    destruct (sourced_q b p0 (conserved_q s) dt HQ Dp HM) as (z & Ez & HZ). rewrite Ez in E. cbn [bind] in E.
    destruct (updated N d predicate fuel sd fd HS safe (intercell_flux_q sd b) p0 (conserved_q s) (tmap fst z) dt Dp HM (so_data _ _ _ _ _ HZ)) as (u1 & E1 & D1 & _).
    rewrite E1 in E. cbn [bind] in E. destruct (booked_solution sd s b (tsum no_totals totals_add (tmap snd z)) empty_tree u1 dt) as [sx| | |] eqn:EB; cbn [bind] in E; try discriminate.
    destruct (checked u1 sx D1) as [[C1 C2]|[_ C2]]; rewrite C2 in E; [|discriminate]. apply ok_inj in E. subst sx.
    assert (EU : conserved_q s1 = u1 /\ conserved_u s1 = empty_tree).
    { unfold booked_solution in EB. destruct (elements_at _ _); cbn [bind] in EB; try discriminate. destruct (elements_at _ _); cbn [bind] in EB; try discriminate. apply ok_inj in EB. subst s1. split; reflexivity. }
    destruct EU as [EU EQ]. exists b, p0, (tmap fst z), (tsum no_totals totals_add (tmap snd z)). rewrite EU, EQ. do 7 (split; [first [reflexivity|assumption]|]). split; [eexists; split; reflexivity|]. exact EB.
Qed.
End Budgets.
