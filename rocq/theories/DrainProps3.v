(** A step of the binary program does not empty a cell in either mode, on every mesh, as long as no signal crosses a fifth of
    a cell (src/subprog_binary.cpp 258-293, src/subprog_binary_scheme.cpp 131-153, 265-320, 471-562, 789-829, 906-945): with
    the linear reconstruction too, and across changes of level. *)
From Coq Require Import ZArith Reals Lra List Arith Bool Lia.
From Verif Require Import Base TreeModel TreeSpec TreeProofs TreeProofs2 TreeProofs3 TreeProofs4 BalanceModel BalanceSpec BalanceProofs
  NdModel NdSpec NdProofs NdProofs2 NdProofs3 NdOpsModel NdOpsProofs PlmModel ProlongModel ProlongProofs FluxModel FluxTreeProofs FluxProofs FluxSpec FluxProofs2 FluxProofs3 FluxProofs4 FluxProofs5
  GuardModel GuardSpec GuardProofs GuardProofs2 MeshModel MeshSpec MeshProofs2 MeshProps StepModel StepSpec StepProofs StepProofs2 StepProofs3 StepProps UniformProofs DrainProofs DrainProofs2 DrainProofs3 DrainProofs4 DrainProofs5
  DimensionalModel TwoBodyModel HydroModel HlleProps SourceModel SourceProofs SolutionModel SolutionSpec SolutionProofs SolutionProofs2 SolutionProofs3 SolutionProofs4 SolutionProofs5 UniformProps SolutionExample SolutionProps LiveProps StopProps DrainProps.
Import ListNotations.
Open Scope Z_scope.

(** *** Statements *)
(** The rate at which a cell can lose gas with the linear reconstruction: the two faces along an axis carry at most 5/2
    times its density. *)
Definition outflow_rate (N : Z) (sd : settings) (fd : fields) (b : two_body) (S : R) (i : idx) (k : list Z) : R :=
  let x := cell_center N sd i k in (5 * S / spacing_at sd (level i) + absorbed sd (body1 b) x + absorbed sd (body2 b) x + buffer_at fd i k)%R.
(** No cell can lose all its gas in a time, and the buffer does not pull it below zero. *)
Definition mild (N : Z) (sd : settings) (fd : fields) (s : solution) (b : two_body) (dt : R) : Prop := exists V C, limited N sd fd s V /\ sounding N sd fd b C /\ (0 <= dt)%R /\
  forall i k, In i (leaves (indexes 2 (vertices fd))) -> inb [N; N] k -> (dt * outflow_rate N sd fd b (V + C) i k <= 1 /\ 0 <= buffer_at fd i k /\ 0 <= initial_at sd fd i k)%R.

(** *** Proofs *)
Lemma plm_mass N d predicate fuel sd fd b safe p0 u0 src dt V C t0 : setup N d predicate fuel sd fd -> (plm_theta sd <= 2)%R -> cell_data N (vertices fd) p0 -> cell_data N (vertices fd) u0 -> cell_data N (vertices fd) src ->
  (forall i v k p, is_node p0 i (Leaf v) -> inb [N; N] k -> aget v k = Ok p -> (0 < HydroModel.sigma p /\ Rabs (HydroModel.vx p) <= V /\ Rabs (HydroModel.vy p) <= V)%R) ->
  sounding N sd fd b C -> (0 <= dt)%R ->
  StepModel.advance prim_add (fun p => prim_mul p (1 / 2)) (plm_slope sd safe) (fun a l x p g h => d0 (flux_of sd b a l x p g h)) fuel (vertices fd) p0 (cell_areas fd) u0 src dt = Ok t0 ->
  forall i w, is_node t0 i (Leaf w) -> exists u s p, is_node u0 i (Leaf u) /\ is_node src i (Leaf s) /\ is_node p0 i (Leaf p) /\ forall k, inb [N; N] k -> exists y q,
    aget w k = Ok y /\ aget p k = Ok q /\ (val u k - dt * (5 * (V + C) / spacing_at sd (level i)) * HydroModel.sigma q + val s k <= y)%R.
Proof.
  intros HS Hth Dp Du Ds HQ [HC HV] Hdt EA. destruct (mesh_facts N d predicate fuel sd fd HS) as (W & D & Bal & HR & Hfu).
  pose proof HS as HS'. destruct HS' as [s1 s2 s3 s4 s5 s6 s7 s8 s9 s10]. set (vt := vertices fd) in *. set (r := domain_radius sd) in *. assert (Hr : r <> 0%R) by lra.
  set (fl := fun a l x p g h => d0 (flux_of sd b a l x p g h)) in *.
  destruct (step_mesh prim_add (fun p => prim_mul p (1 / 2)) (plm_slope sd safe) fl predicate N d r fuel vt (cell_areas fd) p0 u0 src s1 s3 s4 Hr s6 s7 Dp Du Ds) as (fx & fy & EF & M & _ & _ & _).
  unfold StepModel.advance in EA. rewrite EF in EA. cbn [bind] in EA. intros i w Hw.
  destruct (step_cells N _ _ _ _ _ dt t0 M EA i w Hw) as (bx & by_ & a & u & s & Nx & Ny & Ea & Eu & Es & Rw).
  destruct M as [[HN HB] Wu Hdu Bu (Sa & Ss & Sx & Sy) (Fu & Fs & Fa) (Fx & Fy)].
  destruct (same_shape_wf _ _ W (proj1 Dp)) as [Wp Hdp]. destruct (same_shape_wf _ _ Wu Sx) as [Wx Dx]. destruct (same_shape_wf _ _ Wu Sy) as [Wy Dy].
  destruct (same_shape_wf _ _ Wu Ss) as [Ws Dss]. pose proof (same_shape_balanced _ _ Sx Bu) as Bx. pose proof (same_shape_balanced _ _ Sy Bu) as By.
  assert (Sp : same_shape p0 vt) by (apply shape_sym; exact (proj1 Dp)). pose proof (same_shape_balanced vt p0 (proj1 Dp) Bal) as Bp.
  assert (HbP : blocks 2 N p0) by (constructor; [change two64 with 18446744073709551616; lia|assumption|lia|exact (proj2 Dp)]).
  assert (SQ : stable prim_add (fun p => prim_mul p (1 / 2)) N p0 (calm V)) by (split; [apply (mean_limited V)|exact HQ]).
  assert (PL : forall j (n : array R), forall (f : tree (array R)), same_shape u0 f -> is_node f j (Leaf n) -> In j (leaves (indexes 2 vt))).
  { intros j n f Sf Hj. destruct (same_shape_wf _ _ Wu Sf) as [Wf Df]. destruct (shape_leaf f vt j n Wf (shape_sym _ _ (shape_trans _ _ _ (proj1 Du) Sf)) Hj) as [v Hv]. exact (leaf_in _ W j v Hv). }
  assert (HK : (0 <= 2 * r / IZR N)%R) by (apply Rmult_le_pos; [lra|left; apply Rinv_0_lt_compat, IZR_lt; lia]).
  assert (HW : forall j, (2 * r / (IZR N * 2 ^ level j) = 2 * r / IZR N / 2 ^ level j)%R) by (intros j; field; split; [apply IZR_neq; lia|apply pow_nonzero; lra]).
  assert (Sfx : same_shape p0 fx) by exact (shape_trans _ _ _ (shape_trans _ _ _ Sp (proj1 Du)) Sx). assert (Sfy : same_shape p0 fy) by exact (shape_trans _ _ _ (shape_trans _ _ _ Sp (proj1 Du)) Sy).
  assert (FS : forall ax f, (ax < 2)%nat -> f = (if (ax =? 0)%nat then fx else fy) -> Forall (full (upd ax (N + 1) [N; N])) (leaves f) -> exists ga, forall n v, is_node f i (Leaf n) -> is_node p0 i (Leaf v) -> forall k, 0 <= k < N ->
    (forall x, 0 < x < N + 1 -> (val (corrected ax f i) (face ax x k) <= upper sd p0 ga ax V C i (x - 1)%Z k * (2 * r / IZR N / 2 ^ level i))%R) /\
    (forall x, 0 <= x < N -> (- (lower sd p0 ga ax V C i x k * (2 * r / IZR N / 2 ^ level i)) <= val (corrected ax f i) (face ax x k))%R) /\
    forall x, 0 <= x < N -> (upper sd p0 ga ax V C i x k + lower sd p0 ga ax V C i x k <= (V + C) * (5 / 2 * HydroModel.sigma (cell p0 ax i x k)))%R).
  { intros ax f Hax Ef Ff. destruct (face_states2 prim_add (fun p => prim_mul p (1 / 2)) (plm_slope sd safe) fl N r p0 vt fuel fx fy HbP Bp Sp HR ltac:(lia) EF ax f Hax Ef) as (ga & Sga & _ & HF).
    assert (Sf : same_shape p0 f) by (rewrite Ef; destruct (ax =? 0)%nat; assumption).
    assert (HV' : forall j v x k, is_node p0 j (Leaf v) -> 0 <= x <= N -> 0 <= k < N -> (0 < cs2_at_position sd b (face_middle ax r N j x k) <= C * C)%R).
    { intros j v x k Hj Hx Hk. rewrite (face_middle_place ax r N j x k Hax). apply HV; [assumption| |lia|assumption]. destruct (shape_leaf p0 vt j v Wp Sp Hj) as [vv Hvv]. exact (leaf_in _ W j vv Hvv). }
    exists ga. intros n v Hn Hv k Hk.
    destruct (drained sd b safe N p0 ga f ax V C Hax HbP Bp Sf Ff HF SQ HC HV' s2 s5 Hth i n Hn k Hk) as [D1 D2].
    split; [exact D1|]. split; [exact D2|]. intros x Hx. exact (both_faces sd b safe N p0 ga f ax V C Hax HbP Sf HF SQ HC s2 s5 Hth i v x k Hv Hx Hk). }
  assert (IL : In i (leaves (indexes 2 vt))) by (eapply (PL i bx fx Sx Nx)).
  destruct (in_leaf vt W ltac:(lia) i IL) as [vv Hvv]. destruct (shape_leaf vt p0 i vv W (proj1 Dp) Hvv) as [p Hp].
  destruct (shape_leaf vt u0 i vv W (proj1 Du) Hvv) as [u' Hu]. pose proof (leaf_at _ _ _ Hu) as X. rewrite Eu in X. apply ok_inj in X. subst u'.
  destruct (shape_leaf vt src i vv W (proj1 Ds) Hvv) as [s' Hs]. pose proof (leaf_at _ _ _ Hs) as X. rewrite Es in X. apply ok_inj in X. subst s'.
  exists u, s, p. do 3 (split; [assumption|]).
  destruct (data_reps N p ltac:(lia)) as [P RP]. { destruct Dp as [_ F]. rewrite Forall_forall in F. apply F. eapply node_leaves; eassumption. }
  assert (RPa : forall ax, (ax < 2)%nat -> rep2 ax p N N (fun x k => P (face ax x k))).
  { intros ax Hax. split; [rewrite (proj1 RP), (square_face N ax Hax); reflexivity|]. intros x k Hx Hk. apply (proj2 RP). rewrite (square_face N ax Hax). apply inb_face_intro; assumption. }
  intros k Hk. change [N; N] with (face 0 N N) in Hk. destruct (inb_face 0 N N k ltac:(lia) Hk) as (x & y & -> & Hx & Hy).
  eexists. exists (P (face 0 x y)). split; [exact (proj2 Rw _ Hk)|]. split; [exact (proj2 RP _ Hk)|]. cbv beta.
  destruct (FS 0%nat fx ltac:(lia) eq_refl Fx) as [gx GX]. destruct (FS 1%nat fy ltac:(lia) eq_refl Fy) as [gy GY].
  destruct (GX bx p Nx Hp y Hy) as (XU & XL & XB). destruct (GY by_ p Ny Hp x Hx) as (YU & YL & YB).
  specialize (XU (1 + x) ltac:(lia)). specialize (XL x Hx). specialize (XB x Hx). specialize (YU (1 + y) ltac:(lia)). specialize (YL y Hy). specialize (YB y Hy).
  replace (1 + x - 1) with x in XU by lia. replace (1 + y - 1) with y in YU by lia.
  rewrite (cell_is p0 0 i p N _ x y Hp (RPa 0%nat ltac:(lia)) Hx Hy) in XB. rewrite (cell_is p0 1 i p N _ y x Hp (RPa 1%nat ltac:(lia)) Hy Hx) in YB.
  assert (EAr : val a (face 0 x y) = ((2 * r / IZR N / 2 ^ level i) ^ 2)%R).
  { destruct (shapes N d predicate fuel sd fd HS) as (_ & _ & HA). destruct (HA i vv Hvv) as (a' & _ & Na & _ & Ra & _). rewrite (leaf_at _ _ _ Na) in Ea. apply ok_inj in Ea. subst a'. unfold val. rewrite (proj2 Ra _ Hk). unfold cell_area. fold r. rewrite HW. reflexivity. }
  rewrite EAr. unfold spacing_at. rewrite s2. fold r. unfold face in *. cbn [Nat.eqb nth upd] in *.
  assert (HP : (0 < 2 * r / IZR N / 2 ^ level i)%R) by (apply Rmult_lt_0_compat; [apply Rmult_lt_0_compat; [lra|apply Rinv_0_lt_compat, IZR_lt; lia]|apply Rinv_0_lt_compat, pow_lt; lra]).
  set (wd := (2 * r / IZR N / 2 ^ level i)%R) in *. set (sg := HydroModel.sigma (P [x; y])) in *.
  set (x1 := val (corrected 0 fx i) [1 + x; y]) in *. set (x0 := val (corrected 0 fx i) [x; y]) in *. set (y1 := val (corrected 1 fy i) [x; 1 + y]) in *. set (y0 := val (corrected 1 fy i) [x; y]) in *.
  set (ux := upper _ _ _ 0 _ _ _ _ _) in *. set (uy := upper _ _ _ 1 _ _ _ _ _) in *. set (lx := lower _ _ _ 0 _ _ _ _ _) in *. set (ly := lower _ _ _ 1 _ _ _ _ _) in *.
  clearbody wd sg x1 x0 y1 y0 ux uy lx ly. assert (T : (x1 - x0 + (y1 - y0) <= 5 * ((V + C) * sg * wd))%R).
  { assert (T1 : ((ux + lx) * wd <= (V + C) * (5 / 2 * sg) * wd)%R) by (apply Rmult_le_compat_r; lra). assert (T3 : ((uy + ly) * wd <= (V + C) * (5 / 2 * sg) * wd)%R) by (apply Rmult_le_compat_r; lra). lra. }
  assert (T2 : ((x1 - x0 + (y1 - y0)) * dt / wd ^ 2 <= 5 * ((V + C) * sg * wd) * dt / wd ^ 2)%R).
  { apply Rmult_le_compat_r; [left; apply Rinv_0_lt_compat, pow_lt; assumption|]. apply Rmult_le_compat_r; assumption. }
  replace (5 * ((V + C) * sg * wd) * dt / wd ^ 2)%R with (dt * (5 * (V + C) / wd) * sg)%R in T2 by (field; lra). lra.
Qed.

(** One evaluation of the scheme in either mode, on every mesh, in both schemes: each cell keeps at least what it held, less
    its density times the rate. *)
Theorem any_step_density N d predicate fuel sd fd s b dt safe u V C : setup N d predicate fuel sd fd -> (plm_theta sd <= 2)%R -> on_mesh N sd fd s -> limited N sd fd s V -> sounding N sd fd b C -> (0 <= dt)%R ->
  arrives_at sd fd fuel s b dt safe u ->
  forall i k, In i (leaves (indexes 2 (vertices fd))) -> inb [N; N] k ->
  let sigma := reading d0 (look no_array (conserved sd s) i) k in
  (sigma * (1 - dt * outflow_rate N sd fd b (V + C) i k) + dt * buffer_at fd i k * initial_at sd fd i k <= reading d0 (look no_array u i) k)%R.
Proof.
  intros HS Hth HM HL HC Hdt (p0 & z & Ep & Ez & EU). destruct (mesh_facts N d predicate fuel sd fd HS) as (W & D & _ & _ & _). unfold on_mesh in HM.
  destruct (same_shape_wf _ _ W (proj1 HM)) as [Wc Dc].
  assert (HD : densities N (conserved sd s)).
  { unfold densities. apply leaves_nodes; [assumption|lia|]. intros i v Hv k x Hk Ex.
    destruct (shape_leaf _ (vertices fd) i v Wc (shape_sym _ _ (proj1 HM)) Hv) as [w Hw]. destruct (HL i v k x (leaf_in _ W i w Hw) (leaf_at _ _ _ Hv) Hk Ex) as [X _]. lra. }
  destruct (recovered_cells N d predicate fuel sd fd HS s HM HD) as (p1 & Ep1 & Dp & Kp). rewrite Ep in Ep1. apply ok_inj in Ep1. subst p1.
  (* the sources *)
  assert (HZ : same_shape (vertices fd) z /\ cell_data N (vertices fd) (tmap fst z) /\ forall i y, is_node z i (Leaf y) -> exists q br ui B U I F, is_node (conserved sd s) i (Leaf q) /\ is_node (buffer_rate_field fd) i (Leaf br) /\
    is_node (initial_of sd fd) i (Leaf ui) /\ reps q [N; N] U /\ reps br [N; N] B /\ reps ui [N; N] I /\ reps (fst y) [N; N] F /\ forall k, d0 (F k) = mass_source sd b (cell_center N sd i k) (B k) (U k) (I k) dt).
  { unfold step_sources, conserved, initial_of, mass_source in *. destruct (conserve_linear_p sd) eqn:HQ.
    - destruct (sources_u_tree N d predicate fuel sd fd HS b p0 (conserved_u s) dt HQ Dp HM) as (z' & Ez' & Sz & K). rewrite Ez in Ez'. apply ok_inj in Ez'. subst z'. split; [exact Sz|]. split.
      + apply (source_data N d predicate fuel sd fd HS z Sz). intros i y Hy. destruct (K i y Hy) as (a & q & B & U & I & _ & _ & _ & _ & RY & _). eauto.
      + intros i y Hy. destruct (K i y Hy) as (a & q & B & U & I & Na & Nq & Ra & Rq & RY & T & br & ui & Nb & Ni & Rb & Ri). do 7 eexists. do 7 (split; [eassumption|]).
        intros k. unfold cell_u, v3_add, v3_mul, force_to_source_terms_u; cbn [d0]; ring.
    - destruct (sources_q_tree N d predicate fuel sd fd HS b p0 (conserved_q s) dt HQ Dp HM) as (z' & Ez' & Sz & K). rewrite Ez in Ez'. apply ok_inj in Ez'. subst z'. split; [exact Sz|]. split.
      + apply (source_data N d predicate fuel sd fd HS z Sz). intros i y Hy. destruct (K i y Hy) as (a & q & B & P & U & I & _ & _ & _ & _ & RY & _). eauto.
      + intros i y Hy. destruct (K i y Hy) as (a & q & B & P & U & I & Na & Nq & Ra & Rq & RY & T & br & ui & Nb & Ni & Rb & Ri). do 7 eexists. do 7 (split; [eassumption|]).
        intros k. unfold cell_q, cell_geom, v3_add, v3_mul, force_to_source_terms_q, iso_angmom_source; cbn [d0]; ring. }
  destruct HZ as (Sz & Dz & Kz). fold (flux_of sd b) in EU. unfold update3 in EU.
  destruct (StepModel.advance prim_add (fun p => prim_mul p (1 / 2)) (plm_slope sd safe) (fun a l x p g h => d0 (flux_of sd b a l x p g h)) fuel (vertices fd) p0 (cell_areas fd) (tmap (arr_map d0) (conserved sd s)) (tmap (arr_map d0) (tmap fst z)) dt) as [t0| | |] eqn:E0; cbn [bind] in EU; try discriminate.
  match type of EU with bind ?x _ = _ => destruct x as [t1| | |] eqn:E1; cbn [bind] in EU; try discriminate end.
  match type of EU with bind ?x _ = _ => destruct x as [t2| | |] eqn:E2; cbn [bind] in EU; try discriminate end.
  pose proof HS as HS'. destruct HS' as [s1 s2 s3 s4 s5 s6 s7 s8 s9 s10]. assert (Hr : domain_radius sd <> 0%R) by lra.
  assert (DT : forall c t, StepModel.advance prim_add (fun p => prim_mul p (1 / 2)) (plm_slope sd safe) (fun a l x p g h => c (flux_of sd b a l x p g h)) fuel (vertices fd) p0 (cell_areas fd) (tmap (arr_map c) (conserved sd s)) (tmap (arr_map c) (tmap fst z)) dt = Ok t -> cell_data N (vertices fd) t).
  { intros c t Et. destruct (step_conserves prim_add (fun p => prim_mul p (1 / 2)) (plm_slope sd safe) (fun a l x p g h => c (flux_of sd b a l x p g h)) predicate N d (domain_radius sd) fuel (vertices fd) (cell_areas fd) p0 (tmap (arr_map c) (conserved sd s)) (tmap (arr_map c) (tmap fst z)) dt
      s1 s3 s4 Hr s6 s7 Dp (cell_data_map N _ _ c HM) (cell_data_map N _ _ c Dz)) as (_ & _ & _ & _ & t' & _ & _ & _ & A1 & D1 & _). rewrite Et in A1. apply ok_inj in A1. subst t'. exact D1. }
  destruct (joined3 N d predicate fuel sd fd HS t0 t1 t2 (DT _ _ E0) (DT _ _ E1) (DT _ _ E2)) as (u' & EJ & _ & _ & HJ). rewrite EU in EJ. apply ok_inj in EJ. subst u'.
  intros i k Hi Hk. cbv zeta. destruct (HJ i Hi) as (y & a & b' & c & A & B' & C' & Ny & Na & _ & _ & Ra & _ & _ & Ry).
  destruct (plm_mass N d predicate fuel sd fd b safe p0 _ _ dt V C t0 HS Hth Dp (cell_data_map N _ _ d0 HM) (cell_data_map N _ _ d0 Dz)) with (i := i) (w := a) as (cu & cs & cp & Ncu & Ncs & Ncp & HB); [|exact HC|exact Hdt|exact E0|exact Na|].
  { intros j v m p Hj Hm Epm. destruct (same_shape_wf _ _ W (proj1 Dp)) as [Wp Hdp]. destruct (shape_leaf p0 (vertices fd) j v Wp (shape_sym _ _ (proj1 Dp)) Hj) as [w Hw]. pose proof (leaf_in _ W j w Hw) as Hj'.
    destruct (at_address N d predicate fuel sd fd HS _ j HM Hj') as (q & U & Nq & Rq). destruct (Kp j q U Nq Rq) as (v' & Nv & Rv). pose proof (is_node_unique _ j _ _ Hj Nv) as X. injection X as <-.
    rewrite (proj2 Rv m Hm) in Epm. apply ok_inj in Epm. subst p. destruct (HL j q m (U m) Hj' (leaf_at _ _ _ Nq) Hm (proj2 Rq m Hm)) as (L1 & L2 & L3).
    assert (SC : forall g, (Rabs g <= V * d0 (U m) -> Rabs (g / d0 (U m)) <= V)%R).
    { intros g Hg. unfold Rdiv. rewrite Rabs_mult, (Rabs_right (/ d0 (U m))) by (left; apply Rinv_0_lt_compat; assumption). apply Rmult_le_reg_r with (d0 (U m)); [assumption|]. rewrite Rmult_assoc, Rinv_l by lra. lra. }
    apply SC in L2. apply SC in L3. unfold prim_at, momentum_of in *. destruct (conserve_linear_p sd); cbn [HydroModel.sigma HydroModel.vx HydroModel.vy fst snd] in *; [tauto|]. split; [assumption|].
    unfold lin_of, iso_linear_of_angmom in L2, L3. cbn [fst snd d1 d2] in L2, L3. split; [eapply Rle_trans; [|exact L2]|eapply Rle_trans; [|exact L3]]; right; f_equal; unfold Rdiv; ring. }
  destruct (HB k Hk) as (yv & q & Eyv & Eq & IN). clear HB. destruct (same_shape_wf _ _ W Sz) as [Wz Dz'].
  destruct (in_leaf _ W D i Hi) as [v Hv]. destruct (shape_leaf _ z i v W Sz Hv) as [yz Hz].
  destruct (Kz i yz Hz) as (qc & br & ui & B & U & I & F & Nq & Nb & Ni & Rq & Rb & Ri & RF & MS).
  destruct (same_shape_wf _ _ Wz (shape_sym _ _ (tmap_shape fst z))) as [Wfz _].
  pose proof (is_node_unique _ i _ _ Ncu (tmap_leaf (arr_map d0) _ i qc Wc Nq)) as X. injection X as ->.
  pose proof (is_node_unique _ i _ _ Ncs (tmap_leaf (arr_map d0) _ i _ Wfz (tmap_leaf fst z i yz Wz Hz))) as X. injection X as ->.
  destruct (Kp i qc U Nq Rq) as (v' & Nv & Rv). pose proof (is_node_unique _ i _ _ Ncp Nv) as X. injection X as <-. rewrite (proj2 Rv k Hk) in Eq. apply ok_inj in Eq.
  rewrite (proj2 Ra k Hk) in Eyv. apply ok_inj in Eyv. unfold val in IN. rewrite (proj2 (map_reps d0 _ _ _ Rq) k Hk), (proj2 (map_reps d0 _ _ _ RF) k Hk) in IN.
  assert (ES : HydroModel.sigma q = d0 (U k)) by (rewrite <- Eq; unfold prim_at; destruct (conserve_linear_p sd); reflexivity). rewrite ES, (MS k) in IN.
  destruct (HL i qc k (U k) Hi (leaf_at _ _ _ Nq) Hk (proj2 Rq k Hk)) as [L1 _].
  unfold outflow_rate, buffer_at, initial_at. cbv zeta. rewrite (look_leaf _ _ _ _ Ny), (look_leaf _ _ _ _ Nq), (look_leaf _ _ _ _ Nb). fold (initial_of sd fd). rewrite (look_leaf _ _ _ _ Ni). unfold reading.
  rewrite (proj2 Ry k Hk), (proj2 Rq k Hk), (proj2 Rb k Hk), (proj2 Ri k Hk). cbn [d0]. rewrite Eyv. eapply Rle_trans; [|exact IN].
  unfold mass_source, cell_sink, cell_buffer, floor_term, sink_rate_field, absorbed, v3_mul, v3_neg, v3_sub. cbn [d0 fst snd].
  set (e1 := exp _). set (e2 := exp _). set (lr := (5 * (V + C) / spacing_at sd (level i))%R). clearbody e1 e2 lr.
  destruct (conserve_linear_p sd); [destruct (Rlt_dec (d0 (U k)) (density_floor sd))|]; lra.
Qed.

(** No density below zero then. *)
Theorem any_step_keeps N d predicate fuel sd fd s b dt safe u : setup N d predicate fuel sd fd -> (plm_theta sd <= 2)%R -> on_mesh N sd fd s -> mild N sd fd s b dt -> arrives_at sd fd fuel s b dt safe u -> cell_data N (vertices fd) u -> densities N u.
Proof.
  intros HS Hth HM (V & C & HL & HC & Hdt & HG) HA Du. destruct (mesh_facts N d predicate fuel sd fd HS) as (W & D & _ & _ & _). destruct (same_shape_wf _ _ W (proj1 Du)) as [Wu Hu].
  unfold densities. apply leaves_nodes; [assumption|lia|]. intros i v Hv k x Hk Ex. destruct (shape_leaf u (vertices fd) i v Wu (shape_sym _ _ (proj1 Du)) Hv) as [w Hw]. pose proof (leaf_in _ W i w Hw) as Hi.
  pose proof (any_step_density N d predicate fuel sd fd s b dt safe u V C HS Hth HM HL HC Hdt HA i k Hi Hk) as B. cbv zeta in B. rewrite (look_leaf _ _ _ _ Hv) in B. unfold reading at 2 in B. rewrite Ex in B.
  destruct (HG i k Hi Hk) as (G1 & G2 & G3). destruct (at_address N d predicate fuel sd fd HS _ i HM Hi) as (q & U & Nq & Rq). rewrite (look_leaf _ _ _ _ Nq) in B. unfold reading at 1 in B. rewrite (proj2 Rq k Hk) in B.
  destruct (HL i q k (U k) Hi (leaf_at _ _ _ Nq) Hk (proj2 Rq k Hk)) as [L1 _].
  assert (0 <= d0 (U k) * (1 - dt * outflow_rate N sd fd b (V + C) i k))%R by (apply Rmult_le_pos; lra). assert (0 <= dt * buffer_at fd i k * initial_at sd fd i k)%R by (repeat apply Rmult_le_pos; assumption). lra.
Qed.

(** The evaluation is then not rejected for its densities, and it succeeds if the bodies hold together. *)
Theorem any_step_not_rejected N d predicate fuel sd fd s b dt safe : setup N d predicate fuel sd fd -> (plm_theta sd <= 2)%R -> valid N sd fd s -> full_state_at fuel (orbital_elements s) (time s) = Ok b -> mild N sd fd s b dt ->
  match advance sd fd fuel s dt safe with
  | Ok s1 => valid N sd fd s1
  | Throw e => e = InvalidArgument /\ (~ held_together (after_accretion N sd fd s dt b) \/ ~ held_together (after_pull N sd fd s dt b))
  | _ => False
  end.
Proof.
  intros HS Hth V Eb HG. pose proof (advance_outcomes N d predicate fuel sd fd s b dt safe HS V Eb) as O. destruct (advance sd fd fuel s dt safe) as [s1|[]| |]; try contradiction; [tauto|tauto|].
  exfalso. destruct O as (u & A & Du & ND). apply ND. exact (any_step_keeps N d predicate fuel sd fd s b dt safe u HS Hth (proj1 V) HG A Du).
Qed.

(** A first attempt that is mild all through is not rejected for a density below zero, so the step is not repeated with a
    tenth of its length for that reason. *)
Theorem mild_attempt N d predicate fuel sd fd s b dt : setup N d predicate fuel sd fd -> (plm_theta sd <= 2)%R -> valid N sd fd s -> full_state_at fuel (orbital_elements s) (time s) = Ok b -> (rk_order sd = 1 \/ rk_order sd = 2)%Z ->
  mild N sd fd s b dt ->
  (rk_order sd = 2%Z -> forall s1 b1, advance sd fd fuel s dt false = Ok s1 -> full_state_at fuel (orbital_elements s1) (time s1) = Ok b1 -> mild N sd fd s1 b1 dt) ->
  can_fail sd fd fuel s dt false <> Throw RuntimeError.
Proof.
  intros HS Hth V Eb HR HG HG2 O. pose proof (any_step_not_rejected N d predicate fuel sd fd s b dt false HS Hth V Eb HG) as A. unfold can_fail in O.
  destruct HR as [HR|HR]; rewrite HR in O; cbn [Z.eqb Pos.eqb] in O.
  - rewrite O in A. destruct A as [A _]. discriminate.
  - destruct (advance sd fd fuel s dt false) as [s1|e| |] eqn:E1; cbn [bind] in O; try discriminate.
    2:{ injection O as ->. destruct A as [A _]. discriminate. }
    destruct (placing_or_not fuel (orbital_elements s1) (time s1)) as [[b1 Eb1]|X].
    + pose proof (any_step_not_rejected N d predicate fuel sd fd s1 b1 dt false HS Hth A Eb1 (HG2 HR s1 b1 eq_refl Eb1)) as A2.
      destruct (advance sd fd fuel s1 dt false) as [s2|e| |] eqn:E2; cbn [bind] in O; try discriminate.
      * destruct (mean_exists N d predicate fuel sd fd s s2 HS V A2) as [s3 E3]. rewrite E3 in O. discriminate.
      * injection O as ->. destruct A2 as [A2 _]. discriminate.
    + pose proof A as (HM & HD & _). destruct (recovered N d predicate fuel sd fd HS s1 HM HD) as (p0 & Ep & _). unfold advance, advance_u, advance_q in O. rewrite Ep in O. cbn [bind] in O. rewrite X in O. cbn [bind] in O. destruct (conserve_linear_p sd); discriminate.
Qed.

(** A step of first order with bodies that hold together is then the step of full length in normal mode. *)
Theorem mild_step_taken N d predicate fuel sd fd s b dt : setup N d predicate fuel sd fd -> (plm_theta sd <= 2)%R -> valid N sd fd s -> full_state_at fuel (orbital_elements s) (time s) = Ok b -> rk_order sd = 1%Z ->
  (if fixed_dt sd then dt = recommended_time_step sd else exists m, maximum_timestep sd fd fuel s = Ok m /\ dt = (cfl_number sd * m)%R) ->
  mild N sd fd s b dt -> held_together (after_accretion N sd fd s dt b) -> held_together (after_pull N sd fd s dt b) ->
  exists s1, next_solution sd fd fuel s = Ok s1 /\ advance sd fd fuel s dt false = Ok s1 /\ valid N sd fd s1.
Proof.
  intros HS Hth V Eb HR Hdt HG H1 H2. pose proof (any_step_not_rejected N d predicate fuel sd fd s b dt false HS Hth V Eb HG) as A.
  destruct (advance sd fd fuel s dt false) as [s1|e| |] eqn:E1; [|tauto|contradiction..]. exists s1.
  assert (ED : (if fixed_dt sd then Ok (recommended_time_step sd) else do m <- maximum_timestep sd fd fuel s; Ok (cfl_number sd * m)%R) = Ok dt).
  { destruct (fixed_dt sd); [congruence|]. destruct Hdt as (m & -> & ->). reflexivity. }
  unfold next_solution. rewrite ED. cbn [bind]. unfold can_fail. rewrite HR. cbn [Z.eqb Pos.eqb]. rewrite E1. auto.
Qed.

(** The gas with the greedy sinks (StopProps) in normal mode, with a twentieth as the step. *)
Definition patient_sd : settings := Settings 4 (1 / 20) 1 1 1 1 0 1 0 0 0 1 (1 / 2) 10 1 true true true true 2.
Example mild_attempt_example : exists fd, setup 2 0 ex_none 2 patient_sd fd /\ valid 2 patient_sd fd (ex_state true) /\ mild 2 patient_sd fd (ex_state true) ex_pair (1 / 20) /\
  can_fail patient_sd fd 2 (ex_state true) (1 / 20) false <> Throw RuntimeError.
Proof.
  destruct (ex_run_full true) as (v' & c' & a' & s1 & HS1 & V0 & _). set (fd := ex_fields (Leaf v') (Leaf c') (Leaf a')) in *. exists fd.
  assert (HS : setup 2 0 ex_none 2 patient_sd fd) by (destruct HS1; constructor; assumption). assert (V : valid 2 patient_sd fd (ex_state true)) by exact V0.
  assert (HG : mild 2 patient_sd fd (ex_state true) ex_pair (1 / 20)).
  { exists 0%R, 2%R. split; [|split; [|split; [lra|]]].
    - intros i w k u [<-|[]] Ew Hk Eu. cbn in Ew. injection Ew as <-. cbn in Eu. injection Eu as <-. unfold momentum_of. cbn. rewrite Rabs_R0. lra.
    - split; [lra|]. intros ax i x k Hax [<-|[]] Hx Hk. unfold cs2_at_position. cbn [patient_sd axisymmetric_cs2 mach_number domain_radius].
      set (p := face_place ax 1 2 (root_index 2) x k).
      assert (HP : (1 / 4 <= fst p * fst p + snd p * snd p)%R).
      { subst p. unfold face_place, point_in, MeshSpec.place. cbn [root_index level coords nth repeat Z.of_nat Z.mul pow].
        assert (K : forall g, (0 <= g * g)%R) by (intros g; pose proof (Rle_0_sqr g); unfold Rsqr in *; lra).
        assert (K2 : (1 / 4 <= (IZR k - 1 / 2) * (IZR k - 1 / 2))%R) by (assert (k = 0 \/ k = 1) as [-> | ->] by lia; lra).
        destruct (ax =? 0)%nat; cbn [fst snd]; match goal with |- (_ <= ?f * ?f + ?g * ?g)%R => pose proof (K f); pose proof (K g); first [replace g with (IZR k - 1 / 2)%R by field; lra | replace f with (IZR k - 1 / 2)%R by field; lra] end. }
      set (q := (fst p * fst p + snd p * snd p)%R) in *. assert (H2 : (1 / 2 <= sqrt q)%R) by (rewrite <- (ElementsProofs.sqrt_of (1 / 4) (1 / 2)) by lra; apply sqrt_le_1_alt; assumption).
      assert (H3 : (0 < / sqrt q <= 2)%R) by (split; [apply Rinv_0_lt_compat; lra|]; replace 2%R with (/ (1 / 2))%R by field; apply Rinv_le_contravar; lra).
      replace (1 / sqrt q / 1 / 1)%R with (/ sqrt q)%R by (field; lra). lra.
    - intros i k [<-|[]] Hk. assert (HB : buffer_at fd (root_index 2) k = 0%R) by reflexivity. split; [|split; [rewrite HB; lra|]].
      + unfold outflow_rate. rewrite HB. unfold absorbed. cbn [patient_sd sink_rate sink_radius ex_pair body1 body2 px py].
        assert (HE : forall z, (0 <= z -> exp (- (z / (1 * 1) / 2)) <= 1)%R). { intros z Hz. replace (z / (1 * 1) / 2)%R with (z / 2)%R by field. rewrite <- exp_0. destruct (Rle_lt_or_eq_dec 0 z Hz) as [L| <-]; [left; apply exp_increasing; lra|right; f_equal; field]. }
        assert (HQ : forall r t, (0 <= r * r + t * t)%R) by (intros r t; pose proof (Rle_0_sqr r); pose proof (Rle_0_sqr t); unfold Rsqr in *; lra).
        pose proof (HE _ (HQ (fst (cell_center 2 patient_sd (root_index 2) k) - 1 / 2)%R (snd (cell_center 2 patient_sd (root_index 2) k) - 0)%R)) as X1.
        pose proof (HE _ (HQ (fst (cell_center 2 patient_sd (root_index 2) k) - - (1 / 2))%R (snd (cell_center 2 patient_sd (root_index 2) k) - 0)%R)) as X2.
        unfold spacing_at. cbn [patient_sd domain_radius block_size level root_index pow]. lra.
      + unfold initial_at. cbn. lra. }
  split; [exact HS|]. split; [exact V|]. split; [exact HG|].
  apply (mild_attempt 2 0 ex_none 2 patient_sd fd (ex_state true) ex_pair (1 / 20)%R HS ltac:(cbn; lra) V (ex_bodies true)); [left; reflexivity|exact HG|intros X; discriminate X].
Qed.

Print Assumptions any_step_density.
Print Assumptions any_step_keeps.
Print Assumptions any_step_not_rejected.
Print Assumptions mild_attempt.
Print Assumptions mild_step_taken.
