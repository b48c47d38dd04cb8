(** A uniform flow on a mesh with blocks of different sizes: faces between coarse and fine blocks do not disturb it. *)
From Coq Require Import ZArith Reals Lra List Arith Bool Lia.
From Verif Require Import Base TreeModel TreeSpec TreeProofs TreeProofs3 TreeProofs4 BalanceModel BalanceSpec BalanceProofs NdModel NdSpec NdProofs NdProofs2 NdOpsModel NdOpsProofs PlmModel ProlongProofs FluxModel FluxSpec FluxTreeProofs FluxProofs FluxProofs3 FluxProofs4 FluxProofs5
  GuardSpec GuardProofs2 MeshModel MeshSpec MeshProps DimensionalModel StepModel StepSpec StepProofs StepProofs2 StepProofs3 StepProps UniformProofs TwoBodyModel HydroModel GeometryProps HlleProps
  SourceModel SourceProofs SolutionModel SolutionSpec SolutionProofs SolutionProofs2 SolutionProofs3 SolutionProofs4.
Import ListNotations.
Open Scope Z_scope.

(** Any step: where all cells hold the same primitive variables, the slope of equal values is one value and the flux
    between equal states does not depend on the position, every cell of the mesh changes by its source and by nothing
    else, whatever the block sizes around it. *)
Theorem free_stream {P} (padd : P -> P -> P) phalf gradient flux predicate N d radius fuel vertices dA (p0 : tree (array P)) u0 src dt (p g : P) (K : nat -> R) :
  1 <= N < 2147483647 -> (d <= 30)%nat -> (4 ^ d < fuel)%nat -> radius <> 0%R ->
  create_vertices fuel predicate N d radius = Ok vertices -> tmapM MeshModel.cell_areas vertices = Ok dA ->
  cell_data N vertices p0 -> cell_data N vertices u0 -> cell_data N vertices src ->
  (forall i v k, In i (leaves (indexes 2 vertices)) -> at_ p0 i = Ok v -> inb [N; N] k -> aget v k = Ok p) ->
  phalf (padd p p) = p -> phalf (padd g g) = g -> (forall l, gradient l p p p = g) -> (forall a l x, (a < 2)%nat -> flux a l x (p, p) (g, g) (g, g) = K a) ->
  exists u1, StepModel.advance padd phalf gradient flux fuel vertices p0 dA u0 src dt = Ok u1 /\ cell_data N vertices u1 /\
    forall i u s, In i (leaves (indexes 2 vertices)) -> at_ u0 i = Ok u -> at_ src i = Ok s -> exists w, at_ u1 i = Ok w /\
      forall k x y, inb [N; N] k -> aget u k = Ok x -> aget s k = Ok y -> aget w k = Ok (x + y)%R.
Proof.
  intros HN Hd Hf Hr EV EA Hp Hu Hs HP Hm Hg HG HF.
  destruct (step_mesh padd phalf gradient flux predicate N d radius fuel vertices dA p0 u0 src HN Hd Hf Hr EV EA Hp Hu Hs) as (fx & fy & EF & M & _ & _ & CU).
  destruct (mesh_is_regular predicate N d radius HN Hd) as (vt & Ev & W & _ & D & _). rewrite (Ev fuel Hf) in EV. injection EV as ->. destruct (same_shape_wf _ _ W (proj1 Hp)) as [Wp Dp].
  destruct (CU (fun q => q = p) (fun q => q = g) K) as [UX UY].
  - intros x y -> ->. exact Hm.
  - intros x y -> ->. exact Hg.
  - intros i v k x Hi Hk E. destruct (shape_leaf p0 vertices i v Wp (shape_sym _ _ (proj1 Hp)) Hi) as [w Hw]. rewrite (HP i v k (leaf_in _ W i w Hw) (leaf_at _ _ _ Hi) Hk) in E. injection E as <-. reflexivity.
  - intros l x y z -> -> ->. apply HG.
  - intros a l x q q' h h' j j' Ha -> -> -> -> -> ->. apply HF, Ha.
  - assert (HI : (IZR N <> 0)%R) by (apply IZR_neq; lia).
    assert (V : forall c (l : nat), (c * (2 * radius / (IZR N * 2 ^ l)) = c * (2 * radius / IZR N) / 2 ^ l)%R).
    { intros c l. field. split; [exact HI|apply pow_nonzero; lra]. }
    destruct (step_uniform N dA u0 src fx fy dt (K 0%nat * (2 * radius / IZR N)) (K 1%nat * (2 * radius / IZR N)) M) as (u1 & E1 & S1 & F1 & C1).
    + intros i b x k Hi Hx Hk. unfold val. rewrite (UX i b x k Hi Hx Hk). apply V.
    + intros i b x k Hi Hx Hk. unfold val. rewrite (UY i b x k Hi Hx Hk). apply V.
    + exists u1. split; [unfold StepModel.advance; rewrite EF; bsimp; exact E1|]. split; [split; [exact (shape_trans _ _ _ (proj1 Hu) S1)|exact F1]|].
      intros i u s Hi Eu Es. destruct (in_leaf _ W ltac:(lia) i Hi) as [v Hv]. destruct (shape_leaf _ u1 i v W (shape_trans _ _ _ (proj1 Hu) S1) Hv) as [w Hw].
      exists w. split; [exact (leaf_at _ _ _ Hw)|]. intros k x y Hk Ex Ey. rewrite (C1 i w u s k Hw Eu Es Hk). unfold val. rewrite Ex, Ey. reflexivity.
Qed.

(** Constant data 3 with flux 5 * p through x faces and 7 * p through y faces, four blocks of 2 x 2 cells, no sources: nothing
    changes. *)
Example free_stream_example : exists vt dA u1, create_vertices 5 (fun _ _ => true) 2 1 1 = Ok vt /\ tmapM MeshModel.cell_areas vt = Ok dA /\
  (let three := tmap (fun _ => mkarr [2; 2] (fun _ => Ok 3%R)) vt in let none := tmap (fun _ => mkarr [2; 2] (fun _ => Ok 0%R)) vt in
   StepModel.advance Rplus (fun x => x / 2)%R (fun _ a b c => c - a)%R (fun a _ _ p _ _ => if (a =? 0)%nat then 5 * fst p else 7 * snd p)%R 5 vt three dA three none (1 / 2) = Ok u1) /\
  forall i, In i (leaves (indexes 2 vt)) -> exists w, at_ u1 i = Ok w /\ forall k, inb [2; 2] k -> aget w k = Ok 3%R.
Proof.
  destruct (mesh_is_regular (fun _ _ => true) 2 1 1 ltac:(lia) ltac:(lia)) as (vt & EV & W & _ & D & HR). specialize (EV 5%nat ltac:(cbn; lia)).
  destruct (mesh_cells 2 1 vt ltac:(lia) W ltac:(lia) HR) as (dA & xc & EA & _).
  assert (CD : forall A (a : array A), ashape a = [2; 2] -> (forall k, exists x, aget a k = Ok x) -> cell_data 2 vt (tmap (fun _ => a) vt)).
  { intros A a S1 S2. split; [apply shape_sym, tmap_shape|]. rewrite tmap_leaves. rewrite Forall_forall. intros b Hb. apply in_map_iff in Hb. destruct Hb as (_ & <- & _). split; [exact S1|]. intros k _. apply S2. }
  assert (AT : forall A (a : array A) i, In i (leaves (indexes 2 vt)) -> at_ (tmap (fun _ => a) vt) i = Ok a).
  { intros A a i Hi. destruct (in_leaf vt W ltac:(lia) i Hi) as [v Hv]. exact (leaf_at _ _ _ (tmap_leaf (fun _ => a) vt i v W Hv)). }
  cbv zeta. set (three := mkarr [2; 2] (fun _ => Ok 3%R)). set (none := mkarr [2; 2] (fun _ => Ok 0%R)).
  destruct (free_stream Rplus (fun x => x / 2)%R (fun _ a b c => c - a)%R (fun a _ _ p _ _ => if (a =? 0)%nat then 5 * fst p else 7 * snd p)%R (fun _ _ => true) 2 1 1 5 vt dA
    (tmap (fun _ => three) vt) (tmap (fun _ => three) vt) (tmap (fun _ => none) vt) (1 / 2) 3%R 0%R (fun a => if (a =? 0)%nat then 15 else 21)%R
    ltac:(lia) ltac:(lia) ltac:(cbn; lia) ltac:(lra) EV EA) as (u1 & E1 & _ & H).
  - apply CD; [reflexivity|]. intros k. eexists. reflexivity.
  - apply CD; [reflexivity|]. intros k. eexists. reflexivity.
  - apply CD; [reflexivity|]. intros k. eexists. reflexivity.
  - intros i v k Hi Ev _. rewrite (AT _ three i Hi) in Ev. injection Ev as <-. reflexivity.
  - lra.
  - lra.
  - intros. lra.
  - intros a l x Ha. cbn [fst snd]. destruct (a =? 0)%nat; lra.
  - exists vt, dA, u1. split; [exact EV|]. split; [exact EA|]. split; [exact E1|]. intros i Hi. destruct (H i three none Hi (AT _ three i Hi) (AT _ none i Hi)) as (w & Ew & Hw). exists w. split; [exact Ew|].
    intros k Hk. rewrite (Hw k 3%R 0%R Hk eq_refl eq_refl). f_equal. lra.
Qed.

(** *** The binary program *)
Lemma hlle_same ap am f u : (ap = am -> f = 0)%R -> hlle_component ap am f f u u = f.
Proof.
  intros H. unfold hlle_component. destruct (Req_dec ap am) as [E|E]; [|field; lra]. rewrite (H E). unfold Rdiv. replace (0 * ap - 0 * am - (u - u) * ap * am)%R with 0%R by ring. ring.
Qed.
Lemma mass_flux_same P cs2 n : d0 (iso_hlle P P cs2 cs2 n) = (iso_velocity_along P n * HydroModel.sigma P)%R.
Proof.
  unfold iso_hlle, hlle3. cbn [d0]. apply hlle_same. cbn [iso_flux d0]. unfold iso_wavespeeds. cbn [fst snd].
  set (v := iso_velocity_along P n). set (c := sqrt cs2). pose proof (sqrt_pos cs2) as Hc. fold c in Hc. intros E. assert (v = 0%R) as ->; [|ring].
  revert E. unfold smax, smin. repeat destruct (Rlt_dec _ _); lra.
Qed.
Lemma slope_same sd safe l p : plm_slope sd safe l p p p = IPrim 0 0 0.
Proof.
  assert (Z : forall y th, (plm_gradient false false false y y y th / spacing_at sd l = 0)%R).
  { intros y th. assert (minabs ((y - y) * th) ((y - y) * 0.5) ((y - y) * th) = 0%R) as M.
    { replace ((y - y) * th)%R with 0%R by ring. replace ((y - y) * 0.5)%R with 0%R by ring. unfold minabs. rewrite Rabs_R0. unfold Rmin. repeat destruct (Rle_dec _ _); lra. }
    unfold plm_gradient. rewrite M. unfold Rdiv. ring. }
  unfold plm_slope. rewrite !Z. reflexivity.
Qed.
Definition axis_velocity (p : iprim) (a : nat) : R := iso_velocity_along p (axis_vector a).
Lemma flux_same sd b a l x p : d0 (flux_of sd b a l x (p, p) (IPrim 0 0 0, IPrim 0 0 0) (IPrim 0 0 0, IPrim 0 0 0)) = (axis_velocity p a * HydroModel.sigma p)%R.
Proof.
  assert (H : d0 (intercell_flux_u sd b a l x (p, p) (IPrim 0 0 0, IPrim 0 0 0) (IPrim 0 0 0, IPrim 0 0 0)) = (axis_velocity p a * HydroModel.sigma p)%R).
  { unfold intercell_flux_u, v3_add. cbn [d0 fst snd].
    replace (prim_add p (prim_mul (prim_mul (IPrim 0 0 0) 0.5) (spacing_at sd l))) with p by (destruct p; unfold prim_add, prim_mul; cbn [HydroModel.sigma HydroModel.vx HydroModel.vy]; f_equal; ring).
    replace (prim_sub p (prim_mul (prim_mul (IPrim 0 0 0) 0.5) (spacing_at sd l))) with p by (destruct p; unfold prim_sub, prim_mul; cbn [HydroModel.sigma HydroModel.vx HydroModel.vy]; f_equal; ring).
    rewrite mass_flux_same. unfold viscous_flux. destruct (a =? 0)%nat; cbn [d0]; unfold axis_velocity; ring. }
  unfold flux_of. destruct (conserve_linear_p sd); [exact H|]. unfold intercell_flux_q, to_angmom_fluxes. cbn [d0]. exact H.
Qed.

Section Uniform.
Variables (N : Z) (d : nat) (predicate : nat -> R -> bool) (fuel : nat) (sd : settings) (fd : fields).
Hypothesis HS : setup N d predicate fuel sd fd.
Let vt := vertices fd.

(** All cells hold the same primitive variables. *)
Definition uniform (p0 : tree (array iprim)) (p : iprim) : Prop := forall i v k, In i (leaves (indexes 2 vt)) -> at_ p0 i = Ok v -> inb [N; N] k -> aget v k = Ok p.

Lemma uniform_update safe b p0 u0 src dt p : cell_data N vt p0 -> cell_data N vt u0 -> cell_data N vt src -> uniform p0 p ->
  exists u1, update3 sd fd fuel safe (flux_of sd b) p0 u0 src dt = Ok u1 /\ cell_data N vt u1 /\
    forall i, In i (leaves (indexes 2 vt)) -> exists y u s Y U F, is_node u1 i (Leaf y) /\ is_node u0 i (Leaf u) /\ is_node src i (Leaf s) /\ reps y [N; N] Y /\ reps u [N; N] U /\ reps s [N; N] F /\
      forall k, inb [N; N] k -> d0 (Y k) = (d0 (U k) + d0 (F k))%R.
Proof.
  intros Hp Hu Hs HU. destruct (mesh_facts N d predicate fuel sd fd HS) as (W & D & _ & _ & _). fold vt in W, D.
  pose proof HS as HS'. destruct HS' as [s1 s2 s3 s4 s5 s6 s7 s8 s9 s10]. fold vt in s6, s7, s8. assert (Hr : domain_radius sd <> 0%R) by lra.
  assert (ST := fun c : v3 -> R => step_conserves prim_add (fun p => prim_mul p (1 / 2)) (plm_slope sd safe) (fun a l x p g h => c (flux_of sd b a l x p g h)) predicate N d (domain_radius sd) fuel vt (cell_areas fd) p0 (tmap (arr_map c) u0) (tmap (arr_map c) src) dt
    s1 s3 s4 Hr s6 s7 Hp (cell_data_map N vt u0 c Hu) (cell_data_map N vt src c Hs)).
  destruct (ST d1) as (_ & _ & _ & _ & t1 & _ & _ & _ & A1 & D1 & _). destruct (ST d2) as (_ & _ & _ & _ & t2 & _ & _ & _ & A2 & D2 & _).
  assert (HH : forall q, prim_mul (prim_add q q) (1 / 2) = q) by (intros []; unfold prim_mul, prim_add; cbn [HydroModel.sigma HydroModel.vx HydroModel.vy]; f_equal; field).
  destruct (free_stream prim_add (fun p => prim_mul p (1 / 2)) (plm_slope sd safe) (fun a l x p g h => d0 (flux_of sd b a l x p g h)) predicate N d (domain_radius sd) fuel vt (cell_areas fd) p0 (tmap (arr_map d0) u0) (tmap (arr_map d0) src) dt
    p (IPrim 0 0 0) (fun a => axis_velocity p a * HydroModel.sigma p)%R s1 s3 s4 Hr s6 s7 Hp (cell_data_map N vt u0 d0 Hu) (cell_data_map N vt src d0 Hs) HU (HH p) (HH _) (fun l => slope_same sd safe l p) (fun a l x _ => flux_same sd b a l x p)) as (t0 & A0 & D0 & C0).
  destruct (joined3 N d predicate fuel sd fd HS t0 t1 t2 D0 D1 D2) as (u1 & EJ & DJ & _ & HJ). exists u1. split.
  { unfold update3. fold vt. rewrite A0. bsimp. rewrite A1. bsimp. rewrite A2. bsimp. exact EJ. }
  split; [exact DJ|]. intros i Hi. destruct (HJ i Hi) as (y & a & b' & c & A & B & C & Ny & Na & _ & _ & Ra & _ & _ & Ry).
  destruct (at_address N d predicate fuel sd fd HS u0 i Hu Hi) as (u & U & Nu & Ru). destruct (at_address N d predicate fuel sd fd HS src i Hs Hi) as (s & F & Ns & Rs).
  exists y, u, s, (fun k => V3 (A k) (B k) (C k)), U, F. do 6 (split; [assumption|]). intros k Hk. cbn [d0].
  destruct (same_shape_wf _ _ W (proj1 Hu)) as [Wu _]. destruct (same_shape_wf _ _ W (proj1 Hs)) as [Ws _].
  destruct (C0 i _ _ Hi (leaf_at _ _ _ (tmap_leaf (arr_map d0) u0 i u Wu Nu)) (leaf_at _ _ _ (tmap_leaf (arr_map d0) src i s Ws Ns))) as (w & Ew & Cw).
  rewrite (leaf_at _ _ _ Na) in Ew. injection Ew as <-. specialize (Cw k (d0 (U k)) (d0 (F k)) Hk).
  rewrite (proj2 (map_reps d0 _ _ _ Ru) k Hk), (proj2 (map_reps d0 _ _ _ Rs) k Hk), (proj2 Ra k Hk) in Cw. apply ok_inj. apply Cw; reflexivity.
Qed.

(** What an advance does, up to the bookkeeping. *)
Definition used (u : tree (array v3)) : tree (array v3) := if conserve_linear_p sd then u else empty_tree.
Definition used_q (u : tree (array v3)) : tree (array v3) := if conserve_linear_p sd then empty_tree else u.
Definition initial_of : tree (array v3) := if conserve_linear_p sd then initial_conserved_u fd else initial_conserved_q fd.
Definition mass_source (b : two_body) (x : R * R) (br : R) (u ui : v3) (dt : R) : R :=
  (d0 (cell_sink sd (body1 b) x u dt) + d0 (cell_sink sd (body2 b) x u dt) + d0 (cell_buffer br u ui dt) + (if conserve_linear_p sd then d0 (floor_term sd u) else 0))%R.
(** The momentum that a cell holds, in either form. *)
Definition momentum_of (x : R * R) (u : v3) : R * R := if conserve_linear_p sd then (d1 u, d2 u) else lin_of u x.
Lemma advance_form_src s dt safe b p0 : on_mesh N sd fd s -> recover_primitive sd fd s = Ok p0 -> cell_data N vt p0 -> full_state_at fuel (orbital_elements s) (time s) = Ok b ->
  exists z, same_shape vt z /\ cell_data N vt (tmap fst z) /\
    (forall i y, is_node z i (Leaf y) -> exists q br ui B U I F, is_node (conserved sd s) i (Leaf q) /\ is_node (buffer_rate_field fd) i (Leaf br) /\ is_node initial_of i (Leaf ui) /\
      reps q [N; N] U /\ reps br [N; N] B /\ reps ui [N; N] I /\ reps (fst y) [N; N] F /\ (forall k, d0 (F k) = mass_source b (cell_center N sd i k) (B k) (U k) (I k) dt) /\
      let t := tot_u N sd b (cell_center N sd i) (fun _ => cell_area N sd i) B U I dt in
      mass_accreted_on (snd y) = mass_accreted_on t /\ integrated_force_x_on (snd y) = integrated_force_x_on t /\ integrated_force_y_on (snd y) = integrated_force_y_on t /\
      let o g c := out N (fun k => g (momentum_of (cell_center N sd i k) (cell_sink sd c (cell_center N sd i k) (U k) dt))) (fun _ => cell_area N sd i) in
      momentum_x_accreted_on (snd y) = (o fst (body1 b), o fst (body2 b)) /\ momentum_y_accreted_on (snd y) = (o snd (body1 b), o snd (body2 b)) /\ mass_ejected (snd y) = mass_ejected t) /\
    tmapM (if conserve_linear_p sd then sources_u sd fd b (conserved_u s) dt else sources_q sd fd b p0 (conserved_q s) dt) (indexes 2 p0) = Ok z /\
    advance sd fd fuel s dt safe = do u1 <- update3 sd fd fuel safe (flux_of sd b) p0 (conserved sd s) (tmap fst z) dt;
      do s1 <- booked_solution sd s b (tsum no_totals totals_add (tmap snd z)) (used u1) (used_q u1) dt; validate fd u1 s1.
Proof.
  intros HM Ep Dp Eb. unfold advance, on_mesh, conserved, used, used_q, initial_of, flux_of, mass_source, momentum_of in *. fold vt in HM. destruct (conserve_linear_p sd) eqn:HQ.
  - destruct (sources_u_tree N d predicate fuel sd fd HS b p0 (conserved_u s) dt HQ Dp HM) as (z & Ez & Sz & K). fold vt in Sz. exists z. split; [exact Sz|]. split; [|split; [|split; [exact Ez|]]].
    + apply (source_data N d predicate fuel sd fd HS z Sz). intros i y Hy. destruct (K i y Hy) as (a & q & B & U & I & _ & _ & _ & _ & RY & _). eauto.
    + intros i y Hy. destruct (K i y Hy) as (a & q & B & U & I & Na & Nq & Ra & Rq & RY & T & br & ui & Nb & Ni & Rb & Ri).
      do 7 eexists. split; [exact Nq|]. split; [exact Nb|]. split; [exact Ni|]. split; [exact Rq|]. split; [exact Rb|]. split; [exact Ri|]. split; [exact RY|].
      split; [intros k; unfold cell_u, v3_add, v3_mul, force_to_source_terms_u; cbn [d0]; ring|]. rewrite T. auto 10.
    + unfold advance_u. rewrite Ep. bsimp. rewrite Eb. bsimp. rewrite Ez. bsimp. reflexivity.
  - destruct (sources_q_tree N d predicate fuel sd fd HS b p0 (conserved_q s) dt HQ Dp HM) as (z & Ez & Sz & K). fold vt in Sz. exists z. split; [exact Sz|]. split; [|split; [|split; [exact Ez|]]].
    + apply (source_data N d predicate fuel sd fd HS z Sz). intros i y Hy. destruct (K i y Hy) as (a & q & B & P & U & I & _ & _ & _ & _ & RY & _). eauto.
    + intros i y Hy. destruct (K i y Hy) as (a & q & B & P & U & I & Na & Nq & Ra & Rq & RY & T & br & ui & Nb & Ni & Rb & Ri).
      do 7 eexists. split; [exact Nq|]. split; [exact Nb|]. split; [exact Ni|]. split; [exact Rq|]. split; [exact Rb|]. split; [exact Ri|]. split; [exact RY|].
      split; [intros k; unfold cell_q, cell_geom, v3_add, v3_mul, force_to_source_terms_q, iso_angmom_source; cbn [d0]; ring|]. rewrite T. auto 10.
    + unfold advance_q. rewrite Ep. bsimp. rewrite Eb. bsimp. rewrite Ez. bsimp. reflexivity.
Qed.
Lemma advance_form s dt safe b p0 : on_mesh N sd fd s -> recover_primitive sd fd s = Ok p0 -> cell_data N vt p0 -> full_state_at fuel (orbital_elements s) (time s) = Ok b ->
  exists z, same_shape vt z /\ cell_data N vt (tmap fst z) /\
    (forall i y, is_node z i (Leaf y) -> exists q br ui B U I F, is_node (conserved sd s) i (Leaf q) /\ is_node (buffer_rate_field fd) i (Leaf br) /\ is_node initial_of i (Leaf ui) /\
      reps q [N; N] U /\ reps br [N; N] B /\ reps ui [N; N] I /\ reps (fst y) [N; N] F /\ (forall k, d0 (F k) = mass_source b (cell_center N sd i k) (B k) (U k) (I k) dt) /\
      let t := tot_u N sd b (cell_center N sd i) (fun _ => cell_area N sd i) B U I dt in
      mass_accreted_on (snd y) = mass_accreted_on t /\ integrated_force_x_on (snd y) = integrated_force_x_on t /\ integrated_force_y_on (snd y) = integrated_force_y_on t /\
      let o g c := out N (fun k => g (momentum_of (cell_center N sd i k) (cell_sink sd c (cell_center N sd i k) (U k) dt))) (fun _ => cell_area N sd i) in
      momentum_x_accreted_on (snd y) = (o fst (body1 b), o fst (body2 b)) /\ momentum_y_accreted_on (snd y) = (o snd (body1 b), o snd (body2 b)) /\ mass_ejected (snd y) = mass_ejected t) /\
    advance sd fd fuel s dt safe = do u1 <- update3 sd fd fuel safe (flux_of sd b) p0 (conserved sd s) (tmap fst z) dt;
      do s1 <- booked_solution sd s b (tsum no_totals totals_add (tmap snd z)) (used u1) (used_q u1) dt; validate fd u1 s1.
Proof.
  intros HM Ep Dp Eb. destruct (advance_form_src s dt safe b p0 HM Ep Dp Eb) as (z & Sz & Dz & Kz & _ & EA). exists z. auto.
Qed.
End Uniform.

(** The rate at which a body's sink takes gas in at a place. *)
Definition absorbed (sd : settings) (b : body) (x : R * R) : R :=
  (sink_rate sd * exp (- (((fst x - px b) * (fst x - px b) + (snd x - py b) * (snd x - py b)) / (sink_radius sd * sink_radius sd) / 2)))%R.

(** In the binary program, on every mesh and in both schemes: gas of one density and one velocity everywhere changes its
    density in each cell by the sinks, the buffer and the floor there, and by nothing else, whatever the sound speed,
    the viscosity and the gravity are. *)
Theorem uniform_density N d predicate fuel sd fd s dt safe s1 (p : iprim) :
  setup N d predicate fuel sd fd -> on_mesh N sd fd s -> (0 < HydroModel.sigma p)%R ->
  (forall i v k, In i (leaves (indexes 2 (vertices fd))) -> at_ (conserved sd s) i = Ok v -> inb [N; N] k ->
    let x := cell_center N sd i k in
    if conserve_linear_p sd then aget v k = Ok (iso_conserved p) else aget v k = Ok (iso_angmom p (fst x) (snd x)) /\ (fst x * fst x + snd x * snd x <> 0)%R) ->
  advance sd fd fuel s dt safe = Ok s1 ->
  exists b, full_state_at fuel (orbital_elements s) (time s) = Ok b /\
    forall i k, In i (leaves (indexes 2 (vertices fd))) -> inb [N; N] k ->
    let x := cell_center N sd i k in
    let initial := reading d0 (look no_array (if conserve_linear_p sd then initial_conserved_u fd else initial_conserved_q fd) i) k in
    let rate := reading (fun r => r) (look no_array (buffer_rate_field fd) i) k in
    reading d0 (look no_array (conserved sd s1) i) k =
      (HydroModel.sigma p * (1 - dt * (absorbed sd (body1 b) x + absorbed sd (body2 b) x)) + dt * rate * (initial - HydroModel.sigma p)
        + (if conserve_linear_p sd then if Rlt_dec (HydroModel.sigma p) (density_floor sd) then HydroModel.sigma p / 100 else 0 else 0))%R.
Proof.
  intros HS HM Hp HU E. destruct (mesh_facts N d predicate fuel sd fd HS) as (W & D & _ & _ & _).
  assert (SG : forall i v k u, In i (leaves (indexes 2 (vertices fd))) -> is_node (conserved sd s) i (Leaf v) -> inb [N; N] k -> aget v k = Ok u -> d0 u = HydroModel.sigma p /\ prim_at sd (cell_center N sd i k) u = p).
  { intros i v k u Hi Hv Hk Eu. specialize (HU i v k Hi (leaf_at _ _ _ Hv) Hk). cbv zeta in HU. unfold prim_at. destruct (conserve_linear_p sd).
    - rewrite Eu in HU. apply ok_inj in HU. subst u. destruct p as [sg a c]. cbn [HydroModel.sigma iso_conserved d0 d1 d2 HydroModel.vx HydroModel.vy] in *. split; [reflexivity|]. f_equal; field; lra.
    - destruct HU as [HU Hr]. rewrite Eu in HU. apply ok_inj in HU. subst u. destruct p as [sg a c]. cbn [HydroModel.sigma iso_angmom d0 d1 d2 HydroModel.vx HydroModel.vy] in *. split; [reflexivity|].
      cbv zeta. f_equal; field; split; lra. }
  assert (HD : densities N (conserved sd s)).
  { unfold densities. destruct (same_shape_wf _ _ W (proj1 HM)) as [Wc Dc]. apply leaves_nodes; [assumption|lia|]. intros i v Hv k u Hk Eu.
    destruct (shape_leaf _ (vertices fd) i v Wc (shape_sym _ _ (proj1 HM)) Hv) as [w Hw]. rewrite (proj1 (SG i v k u (leaf_in _ W i w Hw) Hv Hk Eu)). lra. }
  destruct (recovered_cells N d predicate fuel sd fd HS s HM HD) as (p0 & Ep & Dp & Kp).
  assert (UN : uniform N fd p0 p).
  { intros i v k Hi Ev Hk. destruct (at_address N d predicate fuel sd fd HS _ i HM Hi) as (u & U & Nu & Ru). destruct (Kp i u U Nu Ru) as (y & Ny & Ry). rewrite (leaf_at _ _ _ Ny) in Ev. injection Ev as <-.
    rewrite (proj2 Ry k Hk). f_equal. exact (proj2 (SG i u k (U k) Hi Nu Hk (proj2 Ru k Hk))). }
  destruct (full_state_at fuel (orbital_elements s) (time s)) as [b| | |] eqn:Eb.
  2-4: exfalso; unfold advance, advance_u, advance_q in E; destruct (conserve_linear_p sd); rewrite Ep in E; cbn [bind] in E; rewrite Eb in E; discriminate.
  exists b. split; [reflexivity|]. destruct (advance_form N d predicate fuel sd fd HS s dt safe b p0 HM Ep Dp Eb) as (z & Sz & Dz & Kz & EA). rewrite EA in E. clear EA.
  destruct (uniform_update N d predicate fuel sd fd HS safe b p0 (conserved sd s) (tmap fst z) dt p Dp HM Dz UN) as (u1 & EU & DU & KU). rewrite EU in E. cbn [bind] in E.
  destruct (booked_solution sd s b (tsum no_totals totals_add (tmap snd z)) (used sd u1) (used_q sd u1) dt) as [sx| | |] eqn:EB; cbn [bind] in E; try discriminate.
  destruct (booked_fields _ _ _ _ _ _ _ _ EB) as (_ & F1 & F2 & _).
  destruct (checked N d predicate fuel sd fd HS u1 sx DU) as [[_ C]|[_ C]]; rewrite C in E; [|discriminate]. apply ok_inj in E. subst sx.
  assert (EC : conserved sd s1 = u1) by (unfold conserved, used, used_q in *; destruct (conserve_linear_p sd); assumption). rewrite EC. clear EC C EB F1 F2.
  intros i k Hi Hk. cbv zeta. destruct (KU i Hi) as (y & u & s' & Y & U & F & Ny & Nu & Ns & Ry & Ru & Rs & C).
  destruct (same_shape_wf _ _ W Sz) as [Wz Dz']. destruct (in_leaf _ W D i Hi) as [v Hv]. destruct (shape_leaf _ z i v W Sz Hv) as [yz Hz].
  destruct (Kz i yz Hz) as (q & br & ui & B & U' & I & F' & Nq & Nb & Ni & Rq & Rb & Ri & RF & MS & _).
  pose proof (is_node_unique _ i _ _ Nq Nu) as X. injection X as ->. pose proof (is_node_unique _ i _ _ (tmap_leaf fst z i yz Wz Hz) Ns) as X. injection X as <-.
  pose proof (SG i u k _ Hi Nu Hk (proj2 Rq k Hk)) as [SU _]. pose proof (proj2 Ru k Hk) as E1. rewrite (proj2 Rq k Hk) in E1. apply ok_inj in E1. pose proof (proj2 Rs k Hk) as E2. rewrite (proj2 RF k Hk) in E2. apply ok_inj in E2.
  rewrite (look_leaf _ _ _ _ Ny), (look_leaf _ _ _ _ Nb). unfold initial_of in Ni. rewrite (look_leaf _ _ _ _ Ni). unfold reading. rewrite (proj2 Ry k Hk), (proj2 Rb k Hk), (proj2 Ri k Hk).
  rewrite (C k Hk), <- E1, <- E2, (MS k). unfold mass_source, cell_sink, cell_buffer, floor_term, sink_rate_field, absorbed, v3_mul, v3_neg, v3_sub. cbn [d0 fst snd]. rewrite SU.
  destruct (conserve_linear_p sd); [destruct (Rlt_dec (HydroModel.sigma p) (density_floor sd))|]; field.
Qed.

(** Without sinks, buffer and floor nothing happens to the density. *)
Theorem uniform_density_stays N d predicate fuel sd fd s dt safe s1 (p : iprim) :
  setup N d predicate fuel sd fd -> on_mesh N sd fd s -> (0 < HydroModel.sigma p)%R ->
  (forall i v k, In i (leaves (indexes 2 (vertices fd))) -> at_ (conserved sd s) i = Ok v -> inb [N; N] k ->
    let x := cell_center N sd i k in
    if conserve_linear_p sd then aget v k = Ok (iso_conserved p) else aget v k = Ok (iso_angmom p (fst x) (snd x)) /\ (fst x * fst x + snd x * snd x <> 0)%R) ->
  sink_rate sd = 0%R -> (conserve_linear_p sd = true -> density_floor sd <= HydroModel.sigma p)%R ->
  (forall i k, In i (leaves (indexes 2 (vertices fd))) -> inb [N; N] k -> reading (fun r => r) (look no_array (buffer_rate_field fd) i) k = 0%R) ->
  advance sd fd fuel s dt safe = Ok s1 ->
  forall i k, In i (leaves (indexes 2 (vertices fd))) -> inb [N; N] k -> reading d0 (look no_array (conserved sd s1) i) k = HydroModel.sigma p.
Proof.
  intros HS HM Hp HU Hr Hf Hb E i k Hi Hk. destruct (uniform_density N d predicate fuel sd fd s dt safe s1 p HS HM Hp HU E) as (b & _ & H). specialize (H i k Hi Hk). cbv zeta in H. rewrite H, (Hb i k Hi Hk). unfold absorbed. rewrite Hr.
  destruct (conserve_linear_p sd); [destruct (Rlt_dec (HydroModel.sigma p) (density_floor sd)); [specialize (Hf eq_refl); lra|]|]; ring.
Qed.

Print Assumptions free_stream.
