(** A step of the binary program in safe mode does not empty a cell (src/subprog_binary.cpp 258-293,
    src/subprog_binary_scheme.cpp 265-320, 789-829, 906-945): the second attempt of a failed step is not rejected for a
    density below zero as long as the gas does not cross a quarter of a cell. *)
From Coq Require Import ZArith Reals Lra List Arith Bool Lia.
From Verif Require Import Base TreeModel TreeSpec TreeProofs TreeProofs2 TreeProofs3 TreeProofs4 BalanceModel BalanceSpec BalanceProofs
  NdModel NdSpec NdProofs NdProofs2 NdProofs3 NdOpsModel NdOpsProofs PlmModel ProlongModel ProlongProofs FluxModel FluxTreeProofs FluxProofs FluxSpec FluxProofs2 FluxProofs3 FluxProofs4 FluxProofs5
  GuardModel GuardSpec GuardProofs GuardProofs2 MeshModel MeshSpec MeshProofs2 MeshProps StepModel StepSpec StepProofs StepProofs2 StepProofs3 StepProps UniformProofs DrainProofs DrainProofs2 DrainProofs3
  DimensionalModel TwoBodyModel HydroModel HlleProps SourceModel SourceProofs SolutionModel SolutionSpec SolutionProofs SolutionProofs2 SolutionProofs3 SolutionProofs4 SolutionProofs5 UniformProps SolutionExample SolutionProps LiveProps StopProps.
Import ListNotations.
Open Scope Z_scope.

(** *** Statements *)
(** Gas in every cell, nowhere faster than V along either axis. *)
Definition limited (N : Z) (sd : settings) (fd : fields) (s : solution) (V : R) : Prop := forall i v k u, In i (leaves (indexes 2 (vertices fd))) -> at_ (conserved sd s) i = Ok v -> inb [N; N] k -> aget v k = Ok u ->
  (0 < d0 u /\ Rabs (fst (momentum_of sd (cell_center N sd i k) u)) <= V * d0 u /\ Rabs (snd (momentum_of sd (cell_center N sd i k) u)) <= V * d0 u)%R.
(** The speed of sound is positive and at most C in the middle of every face of every cell. *)
Definition sounding (N : Z) (sd : settings) (fd : fields) (b : two_body) (C : R) : Prop := (0 <= C)%R /\ forall a i x k, (a < 2)%nat -> In i (leaves (indexes 2 (vertices fd))) -> 0 <= x <= N -> 0 <= k < N ->
  (0 < cs2_at_position sd b (face_place a (domain_radius sd) N i x k) <= C * C)%R.
(** What a cell started with, and how fast the buffer pulls it back there. *)
Definition initial_at (sd : settings) (fd : fields) (i : idx) (k : list Z) : R := reading d0 (look no_array (if conserve_linear_p sd then initial_conserved_u fd else initial_conserved_q fd) i) k.
Definition buffer_at (fd : fields) (i : idx) (k : list Z) : R := reading (fun r => r) (look no_array (buffer_rate_field fd) i) k.
(** The rate at which a cell can lose gas: through its four faces, to the two bodies and to the buffer. *)
Definition loss_rate (N : Z) (sd : settings) (fd : fields) (b : two_body) (S : R) (i : idx) (k : list Z) : R :=
  let x := cell_center N sd i k in (4 * S / spacing_at sd (level i) + absorbed sd (body1 b) x + absorbed sd (body2 b) x + buffer_at fd i k)%R.
(** No cell can lose all its gas in a time, and the buffer does not pull it below zero. *)
Definition gentle (N : Z) (sd : settings) (fd : fields) (s : solution) (b : two_body) (dt : R) : Prop := exists V C, limited N sd fd s V /\ sounding N sd fd b C /\ (0 <= dt)%R /\
  forall i k, In i (leaves (indexes 2 (vertices fd))) -> inb [N; N] k -> (dt * loss_rate N sd fd b (V + C) i k <= 1 /\ 0 <= buffer_at fd i k /\ 0 <= initial_at sd fd i k)%R.

(** *** Proofs *)
Lemma mean_limited V x y : (0 < HydroModel.sigma x /\ Rabs (HydroModel.vx x) <= V /\ Rabs (HydroModel.vy x) <= V -> 0 < HydroModel.sigma y /\ Rabs (HydroModel.vx y) <= V /\ Rabs (HydroModel.vy y) <= V ->
  let m := prim_mul (prim_add x y) (1 / 2) in 0 < HydroModel.sigma m /\ Rabs (HydroModel.vx m) <= V /\ Rabs (HydroModel.vy m) <= V)%R.
Proof.
  intros (A1 & A2 & A3) (B1 & B2 & B3). unfold prim_mul, prim_add. cbn [HydroModel.sigma HydroModel.vx HydroModel.vy]. split; [lra|].
  assert (M : forall u v, (Rabs u <= V -> Rabs v <= V -> Rabs ((u + v) * (1 / 2)) <= V)%R) by (intros u v; unfold Rabs; repeat destruct (Rcase_abs _); lra). split; apply M; assumption.
Qed.

(** The flux of mass through the faces of every cell. *)
Lemma safe_mass N d predicate fuel sd fd b p0 u0 src dt V C t0 : setup N d predicate fuel sd fd -> cell_data N (vertices fd) p0 -> cell_data N (vertices fd) u0 -> cell_data N (vertices fd) src ->
  (forall i v k p, is_node p0 i (Leaf v) -> inb [N; N] k -> aget v k = Ok p -> (0 < HydroModel.sigma p /\ Rabs (HydroModel.vx p) <= V /\ Rabs (HydroModel.vy p) <= V)%R) ->
  sounding N sd fd b C -> (0 <= dt)%R ->
  StepModel.advance prim_add (fun p => prim_mul p (1 / 2)) (plm_slope sd true) (fun a l x p g h => d0 (flux_of sd b a l x p g h)) fuel (vertices fd) p0 (cell_areas fd) u0 src dt = Ok t0 ->
  forall i w, is_node t0 i (Leaf w) -> exists u s p, is_node u0 i (Leaf u) /\ is_node src i (Leaf s) /\ is_node p0 i (Leaf p) /\ forall k, inb [N; N] k -> exists y q,
    aget w k = Ok y /\ aget p k = Ok q /\ (val u k - dt * (4 * (V + C) / spacing_at sd (level i)) * HydroModel.sigma q + val s k <= y)%R.
Proof.
  intros HS Dp Du Ds HQ [HC HV] Hdt EA. destruct (mesh_facts N d predicate fuel sd fd HS) as (W & D & Bal & HR & Hfu).
  pose proof HS as HS'. destruct HS' as [s1 s2 s3 s4 s5 s6 s7 s8 s9 s10]. set (vt := vertices fd) in *. set (r := domain_radius sd) in *. assert (Hr : r <> 0%R) by lra.
  set (fl := fun a l x p g h => d0 (flux_of sd b a l x p g h)) in *.
  destruct (step_mesh prim_add (fun p => prim_mul p (1 / 2)) (plm_slope sd true) fl predicate N d r fuel vt (cell_areas fd) p0 u0 src s1 s3 s4 Hr s6 s7 Dp Du Ds) as (fx & fy & EF & M & _ & _ & _).
  unfold StepModel.advance in EA. rewrite EF in EA. cbn [bind] in EA. intros i w Hw.
  destruct (step_cells N _ _ _ _ _ dt t0 M EA i w Hw) as (bx & by_ & a & u & s & Nx & Ny & Ea & Eu & Es & Rw).
  destruct M as [[HN HB] Wu Hdu Bu (Sa & Ss & Sx & Sy) (Fu & Fs & Fa) (Fx & Fy)].
  destruct (same_shape_wf _ _ W (proj1 Dp)) as [Wp Hdp]. destruct (same_shape_wf _ _ Wu Sx) as [Wx Dx]. destruct (same_shape_wf _ _ Wu Sy) as [Wy Dy].
  destruct (same_shape_wf _ _ Wu Ss) as [Ws Dss]. pose proof (same_shape_balanced _ _ Sx Bu) as Bx. pose proof (same_shape_balanced _ _ Sy Bu) as By.
  assert (Sp : same_shape p0 vt) by (apply shape_sym; exact (proj1 Dp)). pose proof (same_shape_balanced vt p0 (proj1 Dp) Bal) as Bp.
  assert (HbP : blocks 2 N p0) by (constructor; [change two64 with 18446744073709551616; lia|assumption|lia|exact (proj2 Dp)]).
  set (Q := fun p => (0 < HydroModel.sigma p /\ Rabs (HydroModel.vx p) <= V /\ Rabs (HydroModel.vy p) <= V)%R).
  assert (SQ : stable prim_add (fun p => prim_mul p (1 / 2)) N p0 Q) by (split; [apply (mean_limited V)|exact HQ]).
  assert (HZ : forall x y, x = IPrim 0 0 0 -> y = IPrim 0 0 0 -> prim_mul (prim_add x y) (1 / 2) = IPrim 0 0 0) by (intros x y -> ->; unfold prim_mul, prim_add; cbn [HydroModel.sigma HydroModel.vx HydroModel.vy]; f_equal; ring).
  assert (PL : forall j (n : array R), forall (f : tree (array R)), same_shape u0 f -> is_node f j (Leaf n) -> In j (leaves (indexes 2 vt))).
  { intros j n f Sf Hj. destruct (same_shape_wf _ _ Wu Sf) as [Wf Df]. destruct (shape_leaf f vt j n Wf (shape_sym _ _ (shape_trans _ _ _ (proj1 Du) Sf)) Hj) as [v Hv]. exact (leaf_in _ W j v Hv). }
  assert (HK : (0 <= 2 * r / IZR N)%R) by (apply Rmult_le_pos; [lra|left; apply Rinv_0_lt_compat, IZR_lt; lia]).
  assert (HW : forall j, (2 * r / (IZR N * 2 ^ level j) = 2 * r / IZR N / 2 ^ level j)%R) by (intros j; field; split; [apply IZR_neq; lia|apply pow_nonzero; lra]).
  assert (FS : forall ax f, (ax < 2)%nat -> f = (if (ax =? 0)%nat then fx else fy) -> forall j n, is_node f j (Leaf n) -> exists v E G, is_node p0 j (Leaf v) /\ rep2 ax v N N G /\ sides N p0 ax j E G /\
    forall x k, 0 <= x < N + 1 -> 0 <= k < N -> (- ((V + C) * HydroModel.sigma (E (1 + x)%Z k) * (2 * r / IZR N / 2 ^ level j)) <= val n (face ax x k) <= (V + C) * HydroModel.sigma (E x k) * (2 * r / IZR N / 2 ^ level j))%R).
  { intros ax f Hax Ef j n Hj.
    destruct (face_states prim_add (fun p => prim_mul p (1 / 2)) (plm_slope sd true) fl N r p0 vt fuel fx fy HbP Bp Sp HR ltac:(lia) EF ax f Hax Ef Q (fun g => g = IPrim 0 0 0) HZ SQ ltac:(intros; apply slope_safe) j n Hj)
      as (v & E & G & Nv & RG & SD & QE & HE).
    exists v, E, G. do 3 (split; [assumption|]). intros x k Hx Hk. destruct (HE x k Hx Hk) as (g & g' & h & h' & -> & -> & -> & -> & EV). unfold val. rewrite EV, HW.
    assert (Hj' : In j (leaves (indexes 2 vt))) by (eapply (PL j n f); [rewrite Ef; destruct (ax =? 0)%nat; assumption|exact Hj]).
    destruct (QE x k ltac:(lia) Hk) as (q1 & q2 & q3). destruct (QE (1 + x) k ltac:(lia) Hk) as (q4 & q5 & q6).
    unfold fl. rewrite (face_middle_place ax r N j x k Hax).
    pose proof (safe_flux sd b ax (level j) (face_place ax r N j x k) (E x k) (E (1 + x) k) V C Hax q1 q4 q2 q3 q5 q6 HC (HV ax j x k Hax Hj' ltac:(lia) Hk)) as SF.
    assert (HP : (0 <= 2 * r / IZR N / 2 ^ level j)%R) by (apply Rmult_le_pos; [assumption|left; apply Rinv_0_lt_compat, pow_lt; lra]).
    set (F := d0 _) in *. set (wd := (2 * r / IZR N / 2 ^ level j)%R) in *. clearbody F wd. split; [rewrite Ropp_mult_distr_l|]; apply Rmult_le_compat_r; tauto. }
  assert (IL : In i (leaves (indexes 2 vt))) by (eapply (PL i bx fx Sx Nx)).
  destruct (in_leaf vt W ltac:(lia) i IL) as [vv Hvv]. destruct (shape_leaf vt p0 i vv W (proj1 Dp) Hvv) as [p Hp].
  destruct (shape_leaf vt u0 i vv W (proj1 Du) Hvv) as [u' Hu]. pose proof (leaf_at _ _ _ Hu) as X. rewrite Eu in X. apply ok_inj in X. subst u'.
  destruct (shape_leaf vt src i vv W (proj1 Ds) Hvv) as [s' Hs]. pose proof (leaf_at _ _ _ Hs) as X. rewrite Es in X. apply ok_inj in X. subst s'.
  exists u, s, p. do 3 (split; [assumption|]).
  destruct (data_reps N p ltac:(lia)) as [P RP]. { destruct Dp as [_ F]. rewrite Forall_forall in F. apply F. eapply node_leaves; eassumption. }
  assert (RPa : forall ax, (ax < 2)%nat -> rep2 ax p N N (fun x k => P (face ax x k))).
  { intros ax Hax. split; [rewrite (proj1 RP), (square_face N ax Hax); reflexivity|]. intros x k Hx Hk. apply (proj2 RP). rewrite (square_face N ax Hax). apply inb_face_intro; assumption. }
  intros k Hk. change [N; N] with (face 0 N N) in Hk. destruct (inb_face 0 N N k ltac:(lia) Hk) as (x & y & -> & Hx & Hy).
  eexists. exists (P (face 0 x y)). split; [exact (proj2 Rw _ Hk)|]. split; [exact (proj2 RP _ Hk)|]. cbv beta.
  destruct (corrected_drain p0 N 0 fx HydroModel.sigma (V + C) (2 * r / IZR N) HN HB ltac:(lia) Wx ltac:(lia) Bx Fx (FS 0%nat fx ltac:(lia) eq_refl) i bx p _ Nx Hp (RPa 0%nat ltac:(lia)) y Hy) as [XU XL].
  destruct (corrected_drain p0 N 1 fy HydroModel.sigma (V + C) (2 * r / IZR N) HN HB ltac:(lia) Wy ltac:(lia) By Fy (FS 1%nat fy ltac:(lia) eq_refl) i by_ p _ Ny Hp (RPa 1%nat ltac:(lia)) x Hx) as [YU YL].
  specialize (XU (1 + x) ltac:(lia)). specialize (XL x Hx). specialize (YU (1 + y) ltac:(lia)). specialize (YL y Hy). cbv beta in XU, XL, YU, YL.
  replace (1 + x - 1) with x in XU by lia. replace (1 + y - 1) with y in YU by lia.
  assert (EAr : val a (face 0 x y) = ((2 * r / IZR N / 2 ^ level i) ^ 2)%R).
  { destruct (shapes N d predicate fuel sd fd HS) as (_ & _ & HA). destruct (HA i vv Hvv) as (a' & _ & Na & _ & Ra & _). rewrite (leaf_at _ _ _ Na) in Ea. apply ok_inj in Ea. subst a'. unfold val. rewrite (proj2 Ra _ Hk). unfold cell_area. fold r. rewrite HW. reflexivity. }
  rewrite EAr. unfold spacing_at. rewrite s2. fold r. unfold face in *. cbn [Nat.eqb nth upd] in *.
  assert (HP : (0 < 2 * r / IZR N / 2 ^ level i)%R) by (apply Rmult_lt_0_compat; [apply Rmult_lt_0_compat; [lra|apply Rinv_0_lt_compat, IZR_lt; lia]|apply Rinv_0_lt_compat, pow_lt; lra]).
  set (wd := (2 * r / IZR N / 2 ^ level i)%R) in *. set (sg := HydroModel.sigma (P [x; y])) in *.
  set (x1 := val (corrected 0 fx i) [1 + x; y]) in *. set (x0 := val (corrected 0 fx i) [x; y]) in *. set (y1 := val (corrected 1 fy i) [x; 1 + y]) in *. set (y0 := val (corrected 1 fy i) [x; y]) in *.
  clearbody wd sg x1 x0 y1 y0. assert (T : (x1 - x0 + (y1 - y0) <= 4 * ((V + C) * sg * wd))%R) by lra.
  assert (T2 : ((x1 - x0 + (y1 - y0)) * dt / wd ^ 2 <= 4 * ((V + C) * sg * wd) * dt / wd ^ 2)%R).
  { apply Rmult_le_compat_r; [left; apply Rinv_0_lt_compat, pow_lt; assumption|]. apply Rmult_le_compat_r; assumption. }
  replace (4 * ((V + C) * sg * wd) * dt / wd ^ 2)%R with (dt * (4 * (V + C) / wd) * sg)%R in T2 by (field; lra). lra.
Qed.

(** One evaluation of the scheme in safe mode, on every mesh, in both schemes: each cell keeps at least what it held, less its
    density times the loss rate. *)
Theorem safe_step_density N d predicate fuel sd fd s b dt u V C : setup N d predicate fuel sd fd -> on_mesh N sd fd s -> limited N sd fd s V -> sounding N sd fd b C -> (0 <= dt)%R ->
  arrives_at sd fd fuel s b dt true u ->
  forall i k, In i (leaves (indexes 2 (vertices fd))) -> inb [N; N] k ->
  let sigma := reading d0 (look no_array (conserved sd s) i) k in
  (sigma * (1 - dt * loss_rate N sd fd b (V + C) i k) + dt * buffer_at fd i k * initial_at sd fd i k <= reading d0 (look no_array u i) k)%R.
Proof.
  intros HS HM HL HC Hdt (p0 & z & Ep & Ez & EU). destruct (mesh_facts N d predicate fuel sd fd HS) as (W & D & _ & _ & _). unfold on_mesh in HM.
  destruct (same_shape_wf _ _ W (proj1 HM)) as [Wc Dc].
  assert (HD : densities N (conserved sd s)).
  { unfold densities. apply leaves_nodes; [assumption|lia|]. intros i v Hv k x Hk Ex.
    destruct (shape_leaf _ (vertices fd) i v Wc (shape_sym _ _ (proj1 HM)) Hv) as [w Hw]. destruct (HL i v k x (leaf_in _ W i w Hw) (leaf_at _ _ _ Hv) Hk Ex) as [X _]. lra. }
  destruct (recovered_cells N d predicate fuel sd fd HS s HM HD) as (p1 & Ep1 & Dp & Kp). rewrite Ep in Ep1. apply ok_inj in Ep1. subst p1.
  (* the sources *)
  assert (HZ : same_shape (vertices fd) z /\ cell_data N (vertices fd) (tmap fst z) /\ forall i y, is_node z i (Leaf y) -> exists q br ui B U I F, is_node (conserved sd s) i (Leaf q) /\ is_node (buffer_rate_field fd) i (Leaf br) /\
    is_node (initial_of sd fd) i (Leaf ui) /\ reps q [N; N] U /\ reps br [N; N] B /\ reps ui [N; N] I /\ reps (fst y) [N; N] F /\ forall k, d0 (F k) = mass_source sd b (cell_center N sd i k) (B k) (U k) (I k) dt).
  { unfold step_sources, conserved, initial_of, mass_source in *. destruct (conserve_linear_p sd) eqn:HQ.
    - destruct (sources_u_tree N d predicate fuel sd fd HS b p0 (conserved_u s) dt HQ Dp HM) as (z' & Ez' & Sz & K). rewrite Ez in Ez'. apply ok_inj in Ez'. subst z'. split; [exact Sz|]. split.
      + apply (source_data N d predicate fuel sd fd HS z Sz). intros i y Hy. destruct (K i y Hy) as (a & q & B & U & I & _ & _ & _ & _ & RY & _). eauto.
      + intros i y Hy. destruct (K i y Hy) as (a & q & B & U & I & Na & Nq & Ra & Rq & RY & T & br & ui & Nb & Ni & Rb & Ri). do 7 eexists. do 7 (split; [eassumption|]).
        intros k. unfold cell_u, v3_add, v3_mul, force_to_source_terms_u; cbn [d0]; ring.
    - destruct (sources_q_tree N d predicate fuel sd fd HS b p0 (conserved_q s) dt HQ Dp HM) as (z' & Ez' & Sz & K). rewrite Ez in Ez'. apply ok_inj in Ez'. subst z'. split; [exact Sz|]. split.
      + apply (source_data N d predicate fuel sd fd HS z Sz). intros i y Hy. destruct (K i y Hy) as (a & q & B & P & U & I & _ & _ & _ & _ & RY & _). eauto.
      + intros i y Hy. destruct (K i y Hy) as (a & q & B & P & U & I & Na & Nq & Ra & Rq & RY & T & br & ui & Nb & Ni & Rb & Ri). do 7 eexists. do 7 (split; [eassumption|]).
        intros k. unfold cell_q, cell_geom, v3_add, v3_mul, force_to_source_terms_q, iso_angmom_source; cbn [d0]; ring. }
  destruct HZ as (Sz & Dz & Kz). fold (flux_of sd b) in EU. unfold update3 in EU.
  destruct (StepModel.advance prim_add (fun p => prim_mul p (1 / 2)) (plm_slope sd true) (fun a l x p g h => d0 (flux_of sd b a l x p g h)) fuel (vertices fd) p0 (cell_areas fd) (tmap (arr_map d0) (conserved sd s)) (tmap (arr_map d0) (tmap fst z)) dt) as [t0| | |] eqn:E0; cbn [bind] in EU; try discriminate.
  match type of EU with bind ?x _ = _ => destruct x as [t1| | |] eqn:E1; cbn [bind] in EU; try discriminate end.
  match type of EU with bind ?x _ = _ => destruct x as [t2| | |] eqn:E2; cbn [bind] in EU; try discriminate end.
  pose proof HS as HS'. destruct HS' as [s1 s2 s3 s4 s5 s6 s7 s8 s9 s10]. assert (Hr : domain_radius sd <> 0%R) by lra.
  assert (DT : forall c t, StepModel.advance prim_add (fun p => prim_mul p (1 / 2)) (plm_slope sd true) (fun a l x p g h => c (flux_of sd b a l x p g h)) fuel (vertices fd) p0 (cell_areas fd) (tmap (arr_map c) (conserved sd s)) (tmap (arr_map c) (tmap fst z)) dt = Ok t -> cell_data N (vertices fd) t).
  { intros c t Et. destruct (step_conserves prim_add (fun p => prim_mul p (1 / 2)) (plm_slope sd true) (fun a l x p g h => c (flux_of sd b a l x p g h)) predicate N d (domain_radius sd) fuel (vertices fd) (cell_areas fd) p0 (tmap (arr_map c) (conserved sd s)) (tmap (arr_map c) (tmap fst z)) dt
      s1 s3 s4 Hr s6 s7 Dp (cell_data_map N _ _ c HM) (cell_data_map N _ _ c Dz)) as (_ & _ & _ & _ & t' & _ & _ & _ & A1 & D1 & _). rewrite Et in A1. apply ok_inj in A1. subst t'. exact D1. }
  destruct (joined3 N d predicate fuel sd fd HS t0 t1 t2 (DT _ _ E0) (DT _ _ E1) (DT _ _ E2)) as (u' & EJ & _ & _ & HJ). rewrite EU in EJ. apply ok_inj in EJ. subst u'.
  intros i k Hi Hk. cbv zeta. destruct (HJ i Hi) as (y & a & b' & c & A & B' & C' & Ny & Na & _ & _ & Ra & _ & _ & Ry).
  destruct (safe_mass N d predicate fuel sd fd b p0 _ _ dt V C t0 HS Dp (cell_data_map N _ _ d0 HM) (cell_data_map N _ _ d0 Dz)) with (i := i) (w := a) as (cu & cs & cp & Ncu & Ncs & Ncp & HB); [|exact HC|exact Hdt|exact E0|exact Na|].
  { intros j v m p Hj Hm Epm. destruct (same_shape_wf _ _ W (proj1 Dp)) as [Wp Hdp]. destruct (shape_leaf p0 (vertices fd) j v Wp (shape_sym _ _ (proj1 Dp)) Hj) as [w Hw]. pose proof (leaf_in _ W j w Hw) as Hj'.
    destruct (at_address N d predicate fuel sd fd HS _ j HM Hj') as (q & U & Nq & Rq). destruct (Kp j q U Nq Rq) as (v' & Nv & Rv). pose proof (is_node_unique _ j _ _ Hj Nv) as X. injection X as <-.
    rewrite (proj2 Rv m Hm) in Epm. apply ok_inj in Epm. subst p. destruct (HL j q m (U m) Hj' (leaf_at _ _ _ Nq) Hm (proj2 Rq m Hm)) as (L1 & L2 & L3).
    assert (SC : forall g, (Rabs g <= V * d0 (U m) -> Rabs (g / d0 (U m)) <= V)%R).
    { intros g Hg. unfold Rdiv. rewrite Rabs_mult, (Rabs_right (/ d0 (U m))) by (left; apply Rinv_0_lt_compat; assumption). apply Rmult_le_reg_r with (d0 (U m)); [assumption|]. rewrite Rmult_assoc, Rinv_l by lra. lra. }
    apply SC in L2. apply SC in L3. unfold prim_at, momentum_of in *. destruct (conserve_linear_p sd); cbn [HydroModel.sigma HydroModel.vx HydroModel.vy fst snd] in *; [tauto|]. split; [assumption|].
    unfold lin_of, iso_linear_of_angmom in L2, L3. cbn [fst snd d1 d2] in L2, L3. split; [eapply Rle_trans; [|exact L2]|eapply Rle_trans; [|exact L3]]; right; f_equal; unfold Rdiv; ring. }
  destruct (HB k Hk) as (yv & q & Eyv & Eq & IN). clear HB. destruct (same_shape_wf _ _ W Sz) as [Wz Dz'].
  destruct (in_leaf _ W D i Hi) as [v Hv]. destruct (shape_leaf _ z i v W Sz Hv) as [yz Hz].
  destruct (Kz i yz Hz) as (qc & br & ui & B & U & I & F & Nq & Nb & Ni & Rq & Rb & Ri & RF & MS).
  destruct (same_shape_wf _ _ Wz (shape_sym _ _ (tmap_shape fst z))) as [Wfz _].
  pose proof (is_node_unique _ i _ _ Ncu (tmap_leaf (arr_map d0) _ i qc Wc Nq)) as X. injection X as ->.
  pose proof (is_node_unique _ i _ _ Ncs (tmap_leaf (arr_map d0) _ i _ Wfz (tmap_leaf fst z i yz Wz Hz))) as X. injection X as ->.
  destruct (Kp i qc U Nq Rq) as (v' & Nv & Rv). pose proof (is_node_unique _ i _ _ Ncp Nv) as X. injection X as <-. rewrite (proj2 Rv k Hk) in Eq. apply ok_inj in Eq.
  rewrite (proj2 Ra k Hk) in Eyv. apply ok_inj in Eyv. unfold val in IN. rewrite (proj2 (map_reps d0 _ _ _ Rq) k Hk), (proj2 (map_reps d0 _ _ _ RF) k Hk) in IN.
  assert (ES : HydroModel.sigma q = d0 (U k)) by (rewrite <- Eq; unfold prim_at; destruct (conserve_linear_p sd); reflexivity). rewrite ES, (MS k) in IN.
  destruct (HL i qc k (U k) Hi (leaf_at _ _ _ Nq) Hk (proj2 Rq k Hk)) as [L1 _].
  unfold loss_rate, buffer_at, initial_at. cbv zeta. rewrite (look_leaf _ _ _ _ Ny), (look_leaf _ _ _ _ Nq), (look_leaf _ _ _ _ Nb). fold (initial_of sd fd). rewrite (look_leaf _ _ _ _ Ni). unfold reading.
  rewrite (proj2 Ry k Hk), (proj2 Rq k Hk), (proj2 Rb k Hk), (proj2 Ri k Hk). cbn [d0]. rewrite Eyv. eapply Rle_trans; [|exact IN].
  unfold mass_source, cell_sink, cell_buffer, floor_term, sink_rate_field, absorbed, v3_mul, v3_neg, v3_sub. cbn [d0 fst snd].
  set (e1 := exp _). set (e2 := exp _). set (lr := (4 * (V + C) / spacing_at sd (level i))%R). clearbody e1 e2 lr.
  destruct (conserve_linear_p sd); [destruct (Rlt_dec (d0 (U k)) (density_floor sd))|]; lra.
Qed.

(** No density below zero then, and none at zero if the time is shorter than the loss takes. *)
Theorem safe_step_keeps N d predicate fuel sd fd s b dt u : setup N d predicate fuel sd fd -> on_mesh N sd fd s -> gentle N sd fd s b dt -> arrives_at sd fd fuel s b dt true u -> cell_data N (vertices fd) u -> densities N u.
Proof.
  intros HS HM (V & C & HL & HC & Hdt & HG) HA Du. destruct (mesh_facts N d predicate fuel sd fd HS) as (W & D & _ & _ & _). destruct (same_shape_wf _ _ W (proj1 Du)) as [Wu Hu].
  unfold densities. apply leaves_nodes; [assumption|lia|]. intros i v Hv k x Hk Ex. destruct (shape_leaf u (vertices fd) i v Wu (shape_sym _ _ (proj1 Du)) Hv) as [w Hw]. pose proof (leaf_in _ W i w Hw) as Hi.
  pose proof (safe_step_density N d predicate fuel sd fd s b dt u V C HS HM HL HC Hdt HA i k Hi Hk) as B. cbv zeta in B. rewrite (look_leaf _ _ _ _ Hv) in B. unfold reading at 2 in B. rewrite Ex in B.
  destruct (HG i k Hi Hk) as (G1 & G2 & G3). destruct (at_address N d predicate fuel sd fd HS _ i HM Hi) as (q & U & Nq & Rq). rewrite (look_leaf _ _ _ _ Nq) in B. unfold reading at 1 in B. rewrite (proj2 Rq k Hk) in B.
  destruct (HL i q k (U k) Hi (leaf_at _ _ _ Nq) Hk (proj2 Rq k Hk)) as [L1 _].
  assert (0 <= d0 (U k) * (1 - dt * loss_rate N sd fd b (V + C) i k))%R by (apply Rmult_le_pos; lra). assert (0 <= dt * buffer_at fd i k * initial_at sd fd i k)%R by (repeat apply Rmult_le_pos; assumption). lra.
Qed.

(** The evaluation is then not rejected for its densities, and it succeeds if the bodies hold together. *)
Theorem safe_step_not_rejected N d predicate fuel sd fd s b dt : setup N d predicate fuel sd fd -> valid N sd fd s -> full_state_at fuel (orbital_elements s) (time s) = Ok b -> gentle N sd fd s b dt ->
  match advance sd fd fuel s dt true with
  | Ok s1 => valid N sd fd s1
  | Throw e => e = InvalidArgument /\ (~ held_together (after_accretion N sd fd s dt b) \/ ~ held_together (after_pull N sd fd s dt b))
  | _ => False
  end.
Proof.
  intros HS V Eb HG. pose proof (advance_outcomes N d predicate fuel sd fd s b dt true HS V Eb) as O. destruct (advance sd fd fuel s dt true) as [s1|[]| |]; try contradiction; [tauto|tauto|].
  exfalso. destruct O as (u & A & Du & ND). apply ND. exact (safe_step_keeps N d predicate fuel sd fd s b dt u HS (proj1 V) HG A Du).
Qed.

(** A whole step: whatever happens in the first attempt, the step does not end the run with runtime_error, provided that a
    tenth of the time step is gentle where the second attempt evaluates the scheme. *)
Theorem failed_step_rescued N d predicate fuel sd fd s b dt : setup N d predicate fuel sd fd -> valid N sd fd s -> full_state_at fuel (orbital_elements s) (time s) = Ok b -> (rk_order sd = 1 \/ rk_order sd = 2)%Z ->
  (conserve_linear_p sd = true \/ fixed_dt sd = true) ->
  (if fixed_dt sd then dt = recommended_time_step sd else exists m, maximum_timestep sd fd fuel s = Ok m /\ dt = (cfl_number sd * m)%R) ->
  gentle N sd fd s b (dt / 10) ->
  (rk_order sd = 2%Z -> forall s1 b1, advance sd fd fuel s (dt / 10) true = Ok s1 -> full_state_at fuel (orbital_elements s1) (time s1) = Ok b1 -> gentle N sd fd s1 b1 (dt / 10)) ->
  next_solution sd fd fuel s <> Throw RuntimeError.
Proof.
  intros HS V Eb HR HQ Hdt HG HG2 EN. destruct (step_outcomes N d predicate fuel sd fd s HS V (ex_intro _ b Eb) HR HQ) as (dt' & Hdt' & O). rewrite EN in O.
  assert (dt' = dt) as ->. { destruct (fixed_dt sd); [congruence|]. destruct Hdt as (m & Em & ->). destruct Hdt' as (m' & Em' & ->). congruence. }
  destruct O as (_ & _ & O). pose proof (safe_step_not_rejected N d predicate fuel sd fd s b (dt / 10) HS V Eb HG) as A. unfold can_fail in O.
  destruct HR as [HR|HR]; rewrite HR in O; cbn [Z.eqb Pos.eqb] in O.
  - rewrite O in A. destruct A as [A _]. discriminate.
  - destruct (advance sd fd fuel s (dt / 10) true) as [s1|e| |] eqn:E1; cbn [bind] in O; try discriminate.
    2:{ injection O as ->. destruct A as [A _]. discriminate. }
    destruct (placing_or_not fuel (orbital_elements s1) (time s1)) as [[b1 Eb1]|X].
    + pose proof (safe_step_not_rejected N d predicate fuel sd fd s1 b1 (dt / 10) HS A Eb1 (HG2 HR s1 b1 eq_refl Eb1)) as A2.
      destruct (advance sd fd fuel s1 (dt / 10) true) as [s2|e| |] eqn:E2; cbn [bind] in O; try discriminate.
      * destruct (mean_exists N d predicate fuel sd fd s s2 HS V A2) as [s3 E3]. rewrite E3 in O. discriminate.
      * injection O as ->. destruct A2 as [A2 _]. discriminate.
    + pose proof A as (HM & HD & _). destruct (recovered N d predicate fuel sd fd HS s1 HM HD) as (p0 & Ep & _). unfold advance, advance_u, advance_q in O. rewrite Ep in O. cbn [bind] in O. rewrite X in O. cbn [bind] in O. destruct (conserve_linear_p sd); discriminate.
Qed.

(** The gas with the greedy sinks (StopProps): the step of 1/2 fails, the second attempt takes a twentieth and succeeds. *)
Example failed_step_rescued_example : exists fd, setup 2 0 ex_none 2 greedy_sd fd /\ valid 2 greedy_sd fd (ex_state true) /\ gentle 2 greedy_sd fd (ex_state true) ex_pair (1 / 2 / 10) /\
  next_solution greedy_sd fd 2 (ex_state true) <> Throw RuntimeError.
Proof.
  destruct (ex_setup true) as (v & c & a & HS0). destruct (ex_run_full true) as (v' & c' & a' & s1 & HS1 & V0 & _). set (fd := ex_fields (Leaf v') (Leaf c') (Leaf a')) in *. exists fd.
  assert (HS : setup 2 0 ex_none 2 greedy_sd fd) by (destruct HS1; constructor; assumption). assert (V : valid 2 greedy_sd fd (ex_state true)) by exact V0.
  assert (HG : gentle 2 greedy_sd fd (ex_state true) ex_pair (1 / 2 / 10)).
  { exists 0%R, 2%R. split; [|split; [|split; [lra|]]].
    - intros i w k u [<-|[]] Ew Hk Eu. cbn in Ew. injection Ew as <-. cbn in Eu. injection Eu as <-. unfold momentum_of. cbn. rewrite Rabs_R0. lra.
    - split; [lra|]. intros ax i x k Hax [<-|[]] Hx Hk. unfold cs2_at_position. cbn [greedy_sd axisymmetric_cs2 mach_number domain_radius].
      set (p := face_place ax 1 2 (root_index 2) x k).
      assert (HP : (1 / 4 <= fst p * fst p + snd p * snd p)%R).
      { subst p. unfold face_place, point_in, MeshSpec.place. cbn [root_index level coords nth repeat Z.of_nat Z.mul pow].
        assert (K : forall g, (0 <= g * g)%R) by (intros g; pose proof (Rle_0_sqr g); unfold Rsqr in *; lra).
        assert (K2 : (1 / 4 <= (IZR k - 1 / 2) * (IZR k - 1 / 2))%R) by (assert (k = 0 \/ k = 1) as [-> | ->] by lia; lra).
        destruct (ax =? 0)%nat; cbn [fst snd]; match goal with |- (_ <= ?f * ?f + ?g * ?g)%R => pose proof (K f); pose proof (K g); first [replace g with (IZR k - 1 / 2)%R by field; lra | replace f with (IZR k - 1 / 2)%R by field; lra] end. }
      set (q := (fst p * fst p + snd p * snd p)%R) in *. assert (H2 : (1 / 2 <= sqrt q)%R) by (rewrite <- (ElementsProofs.sqrt_of (1 / 4) (1 / 2)) by lra; apply sqrt_le_1_alt; assumption).
      assert (H3 : (0 < / sqrt q <= 2)%R) by (split; [apply Rinv_0_lt_compat; lra|]; replace 2%R with (/ (1 / 2))%R by field; apply Rinv_le_contravar; lra).
      replace (1 / sqrt q / 1 / 1)%R with (/ sqrt q)%R by (field; lra). lra.
    - intros i k [<-|[]] Hk. assert (HB : buffer_at fd (root_index 2) k = 0%R) by reflexivity. split; [|split; [rewrite HB; lra|]].
      + unfold loss_rate. rewrite HB. unfold absorbed. cbn [greedy_sd sink_rate sink_radius ex_pair body1 body2 px py].
        assert (HE : forall z, (0 <= z -> exp (- (z / (1 * 1) / 2)) <= 1)%R). { intros z Hz. replace (z / (1 * 1) / 2)%R with (z / 2)%R by field. rewrite <- exp_0. destruct (Rle_lt_or_eq_dec 0 z Hz) as [L| <-]; [left; apply exp_increasing; lra|right; f_equal; field]. }
        assert (HQ : forall r t, (0 <= r * r + t * t)%R) by (intros r t; pose proof (Rle_0_sqr r); pose proof (Rle_0_sqr t); unfold Rsqr in *; lra).
        pose proof (HE _ (HQ (fst (cell_center 2 greedy_sd (root_index 2) k) - 1 / 2)%R (snd (cell_center 2 greedy_sd (root_index 2) k) - 0)%R)) as X1.
        pose proof (HE _ (HQ (fst (cell_center 2 greedy_sd (root_index 2) k) - - (1 / 2))%R (snd (cell_center 2 greedy_sd (root_index 2) k) - 0)%R)) as X2.
        unfold spacing_at. cbn [greedy_sd domain_radius block_size level root_index pow]. lra.
      + unfold initial_at. cbn. lra. }
  split; [exact HS|]. split; [exact V|]. split; [exact HG|].
  apply (failed_step_rescued 2 0 ex_none 2 greedy_sd fd (ex_state true) ex_pair (1 / 2)%R HS V (ex_bodies true)); try (left; reflexivity); [reflexivity|exact HG|intros X; discriminate X].
Qed.

Print Assumptions safe_step_density.
Print Assumptions safe_step_keeps.
Print Assumptions safe_step_not_rejected.
Print Assumptions failed_step_rescued.
