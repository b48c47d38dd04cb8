(** Ledgers over one advance, over a Runge-Kutta step and over a run. *)
From Coq Require Import ZArith Reals Lra List Arith Bool Lia.
From Verif Require Import Base TreeModel TreeSpec TreeProofs TreeProofs3 TreeProofs4 BalanceModel BalanceSpec BalanceProofs NdModel NdSpec NdProofs NdProofs2 NdOpsModel NdOpsProofs ProlongProofs FluxModel FluxSpec FluxTreeProofs FluxProofs FluxProofs3 FluxProofs4 FluxProofs5
  GuardSpec GuardProofs2 MeshModel MeshSpec MeshProps StepModel StepSpec StepProofs StepProofs2 StepProofs3 StepProps TwoBodyModel HydroModel SourceModel SourceProofs SolutionModel SolutionSpec SolutionProofs SolutionProofs2 SolutionProofs3.
Import ListNotations.
Open Scope Z_scope.

Lemma axisymmetric_alike sd b a : axisymmetric_cs2 sd = true -> (a <= 1)%nat ->
  edges_alike (fun a l x p g h => d0 (intercell_flux_u sd b a l x p g h)) (domain_radius sd) a.
Proof.
  intros HA Ha l y p g h. unfold intercell_flux_u, v3_add. cbn [d0].
  assert (EC : cs2_at_position sd b (edge a (domain_radius sd) y) = cs2_at_position sd b (edge a (- domain_radius sd) y)).
  { unfold cs2_at_position. rewrite HA. unfold edge. destruct (a =? 0)%nat; cbn [fst snd]; replace (- domain_radius sd * - domain_radius sd)%R with (domain_radius sd * domain_radius sd)%R by ring; reflexivity. }
  rewrite EC. f_equal. unfold viscous_flux. destruct (a =? 0)%nat; reflexivity.
Qed.
Lemma d0_q sd b a l x p g h : d0 (intercell_flux_q sd b a l x p g h) = d0 (intercell_flux_u sd b a l x p g h).
Proof. reflexivity. Qed.
Lemma angmom_alike sd b a : (a <= 1)%nat -> edges_alike (fun a l x p g h => d2 (intercell_flux_q sd b a l x p g h)) (domain_radius sd) a.
Proof.
  intros Ha l y p g h. unfold intercell_flux_q, to_angmom_fluxes, edge. assert (C : a = 0%nat \/ a = 1%nat) by lia.
  destruct C as [->| ->]; cbn [Nat.eqb fst snd andb d2]; (destruct (Req_EM_T (domain_radius sd) (domain_radius sd)) as [_|X]; [|contradiction]); (destruct (Req_EM_T (- domain_radius sd) (- domain_radius sd)) as [_|X]; [|contradiction]);
    destruct (Req_EM_T (domain_radius sd) (- domain_radius sd)); reflexivity.
Qed.

Lemma booked_fields sd s b t u q dt s1 : booked_solution sd s b t u q dt = Ok s1 ->
  time s1 = (time s + dt)%R /\ conserved_u s1 = u /\ conserved_q s1 = q /\ s_mass_accreted_on s1 = two_add (s_mass_accreted_on s) (mass_accreted_on t) /\
  s_angular_momentum_accreted_on s1 = two_add (s_angular_momentum_accreted_on s) (angular_momentum_accreted_on t) /\
  s_integrated_torque_on s1 = two_add (s_integrated_torque_on s) (integrated_torque_on t) /\
  s_mass_ejected s1 = (s_mass_ejected s + mass_ejected t)%R /\ s_angular_momentum_ejected s1 = (s_angular_momentum_ejected s + angular_momentum_ejected t)%R.
Proof.
  unfold booked_solution. destruct (elements_at _ _); cbn [bind]; try discriminate. destruct (elements_at _ _); cbn [bind]; try discriminate.
  intros E. apply ok_inj in E. subst s1. repeat split; reflexivity.
Qed.

Section Run.
Variables (N : Z) (d : nat) (predicate : nat -> R -> bool) (fuel : nat) (sd : settings) (fd : fields).
Hypothesis HS : setup N d predicate fuel sd fd.
Let vt := vertices fd.
Let dA := cell_areas fd.

(** What the floor adds to a state. *)
Definition floor_mass (s : solution) : R := if conserve_linear_p sd then held (fun u => d0 (floor_term sd u)) N (conserved_u s) dA else 0%R.

Lemma held_zero {A} (g : A -> R) (t : tree (array A)) : cell_data N vt t -> (forall i b k x, is_node t i (Leaf b) -> inb [N; N] k -> aget b k = Ok x -> g x = 0%R) -> held g N t dA = 0%R.
Proof.
  intros Ht H. destruct (mesh_facts N d predicate fuel sd fd HS) as (W & D & _ & _ & _). fold vt in W, D. destruct (shapes N d predicate fuel sd fd HS) as (SA & _ & _).
  rewrite (held_by_address g N t dA vt W D (proj1 Ht) SA). rewrite (rsum_ext_in _ (fun _ => 0%R)); [induction (leaves (indexes 2 vt)); cbn [rsum]; lra|]. intros i Hi.
  destruct (at_address N d predicate fuel sd fd HS t i Ht Hi) as (b & F & Nb & Rb). destruct (area_leaf N d predicate fuel sd fd HS i Hi) as (a & Na & Ra). unfold dA.
  rewrite (look_leaf _ _ _ _ Nb), (look_leaf _ _ _ _ Na), (block_held_reps g N _ _ _ _ Rb Ra). rewrite (rsum_ext_in _ (fun _ => 0%R)); [induction (idxs [N; N]); cbn [rsum]; lra|].
  intros k Hk. apply idxs_In in Hk. rewrite (H i b k (F k) Nb Hk (proj2 Rb k Hk)). lra.
Qed.
Lemma held_nonneg {A} (g : A -> R) (t : tree (array A)) : cell_data N vt t -> (forall i b k x, is_node t i (Leaf b) -> inb [N; N] k -> aget b k = Ok x -> (0 <= g x)%R) -> (0 <= held g N t dA)%R.
Proof.
  intros Ht H. destruct (mesh_facts N d predicate fuel sd fd HS) as (W & D & _ & _ & _). fold vt in W, D. destruct (shapes N d predicate fuel sd fd HS) as (SA & _ & _).
  rewrite (held_by_address g N t dA vt W D (proj1 Ht) SA). apply rsum_nonneg. intros i Hi.
  destruct (at_address N d predicate fuel sd fd HS t i Ht Hi) as (b & F & Nb & Rb). destruct (area_leaf N d predicate fuel sd fd HS i Hi) as (a & Na & Ra). unfold dA.
  rewrite (look_leaf _ _ _ _ Nb), (look_leaf _ _ _ _ Na), (block_held_reps g N _ _ _ _ Rb Ra). apply rsum_nonneg.
  intros k Hk. apply idxs_In in Hk. apply Rmult_le_pos; [exact (H i b k (F k) Nb Hk (proj2 Rb k Hk))|]. apply Rlt_le. eapply cell_area_pos; exact HS.
Qed.
Lemma density_at (t : tree (array v3)) i b k x : cell_data N vt t -> densities N t -> is_node t i (Leaf b) -> inb [N; N] k -> aget b k = Ok x -> (0 <= d0 x)%R.
Proof.
  intros Ht HD Hi Hk E. destruct (mesh_facts N d predicate fuel sd fd HS) as (W & D & _ & _ & _). fold vt in W, D. destruct (same_shape_wf _ _ W (proj1 Ht)) as [W1 _].
  unfold densities in HD. rewrite Forall_forall in HD. exact (HD b (node_leaves t i b W1 Hi) k x Hk E).
Qed.
Lemma floor_nonneg s : valid N sd fd s -> (0 <= floor_mass s)%R.
Proof.
  intros (HM & HD & _). unfold floor_mass, on_mesh, conserved in *. destruct (conserve_linear_p sd); [|lra]. apply held_nonneg; [exact HM|]. intros i b k x Hi Hk E.
  pose proof (density_at _ i b k x HM HD Hi Hk E). unfold floor_term, v3_mul. cbn [d0]. destruct (Rlt_dec (d0 x) (density_floor sd)); lra.
Qed.
Lemma floor_zero s : valid N sd fd s -> (conserve_linear_p sd = true -> (density_floor sd <= 0)%R) -> floor_mass s = 0%R.
Proof.
  intros (HM & HD & _) HF. unfold floor_mass, on_mesh, conserved in *. destruct (conserve_linear_p sd); [|lra]. apply held_zero; [exact HM|]. intros i b k x Hi Hk E.
  pose proof (density_at _ i b k x HM HD Hi Hk E). specialize (HF eq_refl). unfold floor_term, v3_mul. cbn [d0]. destruct (Rlt_dec (d0 x) (density_floor sd)); lra.
Qed.

(** *** One advance *)
Lemma advance_ledgers s dt safe s1 : valid N sd fd s -> advance sd fd fuel s dt safe = Ok s1 ->
  valid N sd fd s1 /\ time s1 = (time s + dt)%R /\
  (conserve_linear_p sd = false -> angular_momentum_ledger N fd s1 = angular_momentum_ledger N fd s) /\
  (axisymmetric_cs2 sd = true -> mass_ledger N sd fd s1 = (mass_ledger N sd fd s + floor_mass s)%R) /\
  ((0 <= sink_rate sd)%R -> (0 <= dt)%R -> (fst (s_mass_accreted_on s) <= fst (s_mass_accreted_on s1) /\ snd (s_mass_accreted_on s) <= snd (s_mass_accreted_on s1))%R).
Proof.
  intros (HM & HD & HU) E. destruct (advanced N d predicate fuel sd fd HS s dt safe s1 HM HD E) as (b & p0 & src & t & Eb & Dp & _ & SO & EU & HM1 & HD1 & HU1 & EB).
  destruct (booked_fields _ _ _ _ _ _ _ _ EB) as (F1 & _ & _ & F2 & F3 & F4 & F5 & F6).
  destruct (updated N d predicate fuel sd fd HS safe (flux_of sd b) p0 (conserved sd s) src dt Dp HM (so_data _ _ _ _ _ _ _ _ SO)) as (u1 & EU' & _ & C).
  rewrite EU in EU'. apply ok_inj in EU'. subst u1.
  split; [split; [assumption|split; assumption]|]. split; [exact F1|]. split; [|split].
  - intros HQ. assert (CD : forall s', conserved sd s' = conserved_q s') by (intros s'; unfold conserved; rewrite HQ; reflexivity).
    destruct (C d2 (or_intror eq_refl)) as [_ CA]. unfold flux_of in CA. rewrite HQ in CA. specialize (CA (angmom_alike sd b 0 ltac:(lia)) (angmom_alike sd b 1 ltac:(lia))).
    rewrite !CD in CA. pose proof (so_lz _ _ _ _ _ _ _ _ SO HQ) as SL. unfold g_lz, both in SL. unfold angular_momentum_ledger. rewrite CA, SL, F3, F4, F6. unfold both, two_add. cbn [fst snd]. lra.
  - intros HA. destruct (C d0 (or_introl eq_refl)) as [_ CA].
    assert (A : forall a, (a <= 1)%nat -> edges_alike (fun a l x p g h => d0 (flux_of sd b a l x p g h)) (domain_radius sd) a).
    { intros a Ha l y p g h. unfold flux_of. destruct (conserve_linear_p sd); rewrite ?d0_q; exact (axisymmetric_alike sd b a HA Ha l y p g h). }
    specialize (CA (A 0%nat ltac:(lia)) (A 1%nat ltac:(lia))). pose proof (so_mass _ _ _ _ _ _ _ _ SO) as SM. unfold g_mass, both in SM.
    unfold mass_ledger. rewrite CA, SM, F2, F5. unfold both, two_add, floor_mass, conserved. cbn [fst snd]. fold dA. destruct (conserve_linear_p sd); lra.
  - intros Hr Ht. destruct (so_sign _ _ _ _ _ _ _ _ SO HD Hr Ht) as [A1 A2]. rewrite F2. unfold two_add. cbn [fst snd]. lra.
Qed.

(** *** The mean of two states *)
Lemma tree_mean t u : cell_data N vt t -> cell_data N vt u -> exists m, tree_add (tree_mul t (1 / 2)) (tree_mul u (1 - 1 / 2)) = Ok m /\ cell_data N vt m /\
  (densities N t -> densities N u -> densities N m) /\
  (forall c, c = d0 \/ c = d1 \/ c = d2 -> held c N m dA = ((held c N t dA + held c N u dA) / 2)%R).
Proof.
  intros Ht Hu. destruct (mesh_facts N d predicate fuel sd fd HS) as (W & D & _ & _ & _). fold vt in W, D. destruct (shapes N d predicate fuel sd fd HS) as (SA & _ & _). pose proof (su_size _ _ _ _ _ _ HS) as HN.
  set (t' := tree_mul t (1 / 2)). set (u' := tree_mul u (1 - 1 / 2)). assert (Ht' : cell_data N vt t') by (apply cell_data_map; exact Ht). assert (Hu' : cell_data N vt u') by (apply cell_data_map; exact Hu).
  destruct (same_shape_wf _ _ W (proj1 Ht)) as [Wt Dt]. destruct (same_shape_wf _ _ W (proj1 Hu)) as [Wu Du]. destruct (same_shape_wf _ _ W (proj1 Ht')) as [Wt' Dt'].
  destruct (pair_leaf2 t' u' Wt' ltac:(lia) (shape_trans _ _ _ (shape_sym _ _ (proj1 Ht')) (proj1 Hu'))) as (q & Eq & Sq & Kq).
  set (f := fun z : array v3 * array v3 => NdModel.binary_op v3_add (fst z) (snd z)).
  assert (K : forall i, In i (leaves (indexes 2 vt)) -> exists a b z y A B, is_node t i (Leaf a) /\ is_node u i (Leaf b) /\ reps a [N; N] A /\ reps b [N; N] B /\ is_node q i (Leaf z) /\ f z = Ok y /\
    reps y [N; N] (fun k => v3_add (v3_mul (A k) (1 / 2)) (v3_mul (B k) (1 - 1 / 2)))).
  { intros i Hi. destruct (at_address N d predicate fuel sd fd HS t i Ht Hi) as (a & A & Na & Ra). destruct (at_address N d predicate fuel sd fd HS u i Hu Hi) as (b & B & Nb & Rb).
    pose proof (tmap_leaf (arr_map (fun u => v3_mul u (1 / 2))) t i a Wt Na) as Na'. pose proof (tmap_leaf (arr_map (fun u => v3_mul u (1 - 1 / 2))) u i b Wu Nb) as Nb'.
    pose proof (Kq i _ _ Na' Nb') as Nq. destruct (binary_reps_gen v3_add _ _ _ _ _ (map_reps (fun u => v3_mul u (1 / 2)) _ _ _ Ra) (map_reps (fun u => v3_mul u (1 - 1 / 2)) _ _ _ Rb)) as (y & E & Ry).
    exists a, b, (arr_map (fun u : v3 => v3_mul u (1 / 2)) a, arr_map (fun u : v3 => v3_mul u (1 - 1 / 2)) b), y, A, B. do 5 (split; [eassumption|]). split; [exact E|exact Ry]. }
  assert (SQ : same_shape vt q) by exact (shape_trans _ _ _ (proj1 Ht') Sq).
  destruct (mapped N d predicate fuel sd fd HS f q SQ) as (m & Em & Dm & Km).
  { intros i z Hz. destruct (mesh_leaf N d predicate fuel sd fd HS q i z SQ Hz) as [w Hw]. destruct (K i (leaf_in vt W i w Hw)) as (a & b & z' & y & A & B & _ & _ & _ & _ & Nz & E & Ry).
    pose proof (is_node_unique _ i _ _ Hz Nz) as X. injection X as ->. eauto. }
  exists m. split; [unfold tree_add; rewrite Eq; bsimp; exact Em|]. split; [exact Dm|]. split.
  - intros HD1 HD2. unfold densities. destruct (same_shape_wf _ _ W (proj1 Dm)) as [Wm Dmm]. apply leaves_nodes; [assumption|lia|]. intros i y Hy k x Hk Ex.
    destruct (mesh_leaf N d predicate fuel sd fd HS m i y (proj1 Dm) Hy) as [w Hw]. destruct (K i (leaf_in vt W i w Hw)) as (a & b & z' & y' & A & B & Na & Nb & Ra & Rb & Nz & E & Ry).
    pose proof (is_node_unique _ i _ _ Hy (Km i z' y' Nz E)) as X. injection X as ->. rewrite (proj2 Ry k Hk) in Ex. apply ok_inj in Ex. subst x. unfold v3_add, v3_mul. cbn [d0].
    pose proof (density_at t i a k _ Ht HD1 Na Hk (proj2 Ra k Hk)). pose proof (density_at u i b k _ Hu HD2 Nb Hk (proj2 Rb k Hk)). lra.
  - intros c Hc. rewrite (held_by_address c N m dA vt W D (proj1 Dm) SA), (held_by_address c N t dA vt W D (proj1 Ht) SA), (held_by_address c N u dA vt W D (proj1 Hu) SA).
    unfold Rdiv. rewrite Rmult_comm, <- rsum_add, <- rsum_mul. apply rsum_ext_in. intros i Hi. destruct (K i Hi) as (a & b & z & y & A & B & Na & Nb & Ra & Rb & Nz & E & Ry).
    destruct (area_leaf N d predicate fuel sd fd HS i Hi) as (ar & Nr & Rr). unfold dA. rewrite (look_leaf _ _ _ _ (Km i z y Nz E)), (look_leaf _ _ _ _ Na), (look_leaf _ _ _ _ Nb), (look_leaf _ _ _ _ Nr).
    rewrite (block_held_reps c N _ _ _ _ Ry Rr), (block_held_reps c N _ _ _ _ Ra Rr), (block_held_reps c N _ _ _ _ Rb Rr). rewrite <- rsum_add, <- rsum_mul. apply rsum_ext_in. intros k _.
    destruct Hc as [->|[->| ->]]; unfold v3_add, v3_mul; cbn [d0 d1 d2]; lra.
Qed.
Lemma empty_mean t u : is_empty t -> is_empty u -> exists m, tree_add (tree_mul t (1 / 2)) (tree_mul u (1 - 1 / 2)) = Ok m /\ is_empty m.
Proof.
  intros (a & -> & Sa) (b & -> & Sb). unfold tree_add, tree_mul. cbn [tmap]. unfold pair_trees. cbn [TreeModel.binary_op bind tmapM fst snd].
  unfold NdModel.binary_op. cbn [value bind tmapM fst snd arr_map ashape]. rewrite Sa, Sb. change (seq_eqb [0; 0] [0; 0]) with true. cbn [bind].
  eexists. split; [reflexivity|]. eexists. split; reflexivity.
Qed.
Lemma mean_ledgers s0 s2 s1 : valid N sd fd s0 -> valid N sd fd s2 -> solution_add (solution_mul s0 (1 / 2)) (solution_mul s2 (1 - 1 / 2)) = Ok s1 ->
  valid N sd fd s1 /\ time s1 = ((time s0 + time s2) / 2)%R /\
  (conserve_linear_p sd = false -> angular_momentum_ledger N fd s1 = ((angular_momentum_ledger N fd s0 + angular_momentum_ledger N fd s2) / 2)%R) /\
  mass_ledger N sd fd s1 = ((mass_ledger N sd fd s0 + mass_ledger N sd fd s2) / 2)%R /\
  s_mass_accreted_on s1 = vec_mul (two_add (s_mass_accreted_on s0) (s_mass_accreted_on s2)) (1 / 2).
Proof.
  intros (M0 & D0 & E0) (M2 & D2 & E2). unfold solution_add, solution_mul, valid, on_mesh, angular_momentum_ledger, mass_ledger, conserved, unused in *. cbn [conserved_u conserved_q] in *. fold vt in M0, M2.
  destruct (conserve_linear_p sd) eqn:HQ.
  - destruct (tree_mean _ _ M0 M2) as (m & Em & Dm & Vm & Hm). destruct (empty_mean _ _ E0 E2) as (e & Ee & Ve). rewrite Em, Ee. cbn [bind]. intros E. apply ok_inj in E. subst s1.
    cbn [time conserved_u conserved_q s_mass_accreted_on s_angular_momentum_accreted_on s_integrated_torque_on s_mass_ejected s_angular_momentum_ejected]. fold dA.
    split; [split; [exact Dm|split; [auto|exact Ve]]|]. split; [lra|]. split; [discriminate|]. split; [rewrite (Hm d0 ltac:(auto)); unfold both, two_add, vec_mul; cbn [fst snd]; lra|].
    unfold two_add, vec_mul. cbn [fst snd]. apply (f_equal2 pair); lra.
  - destruct (tree_mean _ _ M0 M2) as (m & Em & Dm & Vm & Hm). destruct (empty_mean _ _ E0 E2) as (e & Ee & Ve). rewrite Ee, Em. cbn [bind]. intros E. apply ok_inj in E. subst s1.
    cbn [time conserved_u conserved_q s_mass_accreted_on s_angular_momentum_accreted_on s_integrated_torque_on s_mass_ejected s_angular_momentum_ejected]. fold dA.
    split; [split; [exact Dm|split; [auto|exact Ve]]|]. split; [lra|]. split; [intros _; rewrite (Hm d2 ltac:(auto)); unfold both, two_add, vec_mul; cbn [fst snd]; lra|].
    split; [rewrite (Hm d0 ltac:(auto)); unfold both, two_add, vec_mul; cbn [fst snd]; lra|].
    unfold two_add, vec_mul. cbn [fst snd]. apply (f_equal2 pair); lra.
Qed.

(** *** A step *)
Definition kept (P : Prop) (a b : R) : Prop := P -> a = b.
Record stepped (s s1 : solution) (dt : R) : Prop := {
  sp_valid : valid N sd fd s1;
  sp_time : time s1 = (time s + dt)%R;
  sp_lz : conserve_linear_p sd = false -> angular_momentum_ledger N fd s1 = angular_momentum_ledger N fd s;
  sp_mass : axisymmetric_cs2 sd = true -> (conserve_linear_p sd = true -> (density_floor sd <= 0)%R) -> mass_ledger N sd fd s1 = mass_ledger N sd fd s;
  sp_floor : axisymmetric_cs2 sd = true -> (mass_ledger N sd fd s <= mass_ledger N sd fd s1)%R;
  sp_sign : (0 <= sink_rate sd)%R -> (0 <= dt)%R -> (fst (s_mass_accreted_on s) <= fst (s_mass_accreted_on s1) /\ snd (s_mass_accreted_on s) <= snd (s_mass_accreted_on s1))%R
}.
Lemma one_advance s dt safe s1 : valid N sd fd s -> advance sd fd fuel s dt safe = Ok s1 -> stepped s s1 dt.
Proof.
  intros V E. destruct (advance_ledgers s dt safe s1 V E) as (V1 & T1 & L1 & M1 & A1). constructor; auto.
  - intros HA HF. rewrite (M1 HA), (floor_zero s V HF). lra.
  - intros HA. rewrite (M1 HA). pose proof (floor_nonneg s V). lra.
Qed.
Lemma attempted s dt safe s1 : valid N sd fd s -> can_fail sd fd fuel s dt safe = Ok s1 -> stepped s s1 dt.
Proof.
  intros V E. unfold can_fail in E. destruct (rk_order sd =? 1) eqn:E1; [eapply one_advance; eassumption|]. destruct (rk_order sd =? 2) eqn:E2; [|discriminate].
  destruct (advance sd fd fuel s dt safe) as [sa| | |] eqn:Ea; cbn [bind] in E; try discriminate. destruct (advance sd fd fuel sa dt safe) as [sb| | |] eqn:Eb; cbn [bind] in E; try discriminate.
  destruct (one_advance s dt safe sa V Ea) as [V1 T1 L1 M1 F1 A1]. destruct (one_advance sa dt safe sb V1 Eb) as [V2 T2 L2 M2 F2 A2].
  destruct (mean_ledgers s sb s1 V V2 E) as (V3 & T3 & L3 & M3 & A3). constructor.
  - exact V3.
  - rewrite T3, T2, T1. lra.
  - intros HQ. rewrite (L3 HQ), (L2 HQ), (L1 HQ). lra.
  - intros HA HF. rewrite M3, (M2 HA HF), (M1 HA HF). lra.
  - intros HA. rewrite M3. specialize (F1 HA). specialize (F2 HA). lra.
  - intros Hr Ht. rewrite A3. unfold vec_mul, two_add. cbn [fst snd]. specialize (A1 Hr Ht). specialize (A2 Hr Ht). lra.
Qed.

(** *** The time step *)
Definition chosen_dt (s : solution) : outcome R := if fixed_dt sd then Ok (recommended_time_step sd) else do m <- maximum_timestep sd fd fuel s; Ok (cfl_number sd * m)%R.
Lemma stepped_next s s1 : valid N sd fd s -> next_solution sd fd fuel s = Ok s1 -> exists dt, chosen_dt s = Ok dt /\ (stepped s s1 dt \/ stepped s s1 (dt * (1 / 10))).
Proof.
  intros V E. unfold next_solution in E. fold (chosen_dt s) in E. destruct (chosen_dt s) as [dt| | |]; cbn [bind] in E; try discriminate. exists dt. split; [reflexivity|].
  destruct (can_fail sd fd fuel s dt false) as [sx|e| |] eqn:EC; try discriminate.
  - apply ok_inj in E. subst sx. left. eapply attempted; eassumption.
  - right. eapply attempted; eassumption.
Qed.
End Run.
