(** The time step and the diagnostic sums. *)
From Coq Require Import ZArith Reals Lra List Arith Bool Lia.
From Verif Require Import Base TreeModel TreeSpec TreeProofs TreeProofs3 TreeProofs4 BalanceModel BalanceSpec BalanceProofs NdModel NdSpec NdProofs NdProofs2 NdOpsModel NdOpsProofs ProlongProofs FluxModel FluxSpec FluxTreeProofs FluxProofs FluxProofs3 FluxProofs4 FluxProofs5
  GuardSpec GuardProofs2 MeshModel MeshSpec MeshProps StepModel StepSpec StepProofs StepProofs2 StepProofs3 StepProps TwoBodyModel HydroModel SourceModel SourceProofs SolutionModel SolutionSpec SolutionProofs SolutionProofs2 SolutionProofs3 SolutionProofs4.
Import ListNotations.
Open Scope Z_scope.

Definition bstep (F : list Z -> R) (s : R * bool) (i : list Z) : outcome (R * bool) :=
  let '(r, first) := s in do x <- Ok (F i); Ok (if (first || (if Rlt_dec r x then true else false))%bool then (x, false) else (r, false)).
Lemma best_fold (F : list Z -> R) l : forall r f, (f = true -> l <> []) ->
  exists m, foldM (bstep F) (r, f) l = Ok (m, match l with [] => f | _ => false end) /\
    (forall i, In i l -> F i <= m)%R /\ (f = false -> r <= m)%R /\ ((f = false /\ m = r) \/ exists i, In i l /\ m = F i).
Proof.
  induction l as [|i l IH]; intros r f Hf; cbn [foldM].
  - exists r. split; [reflexivity|]. split; [intros i []|]. split; [lra|]. destruct f; [exfalso; apply Hf; reflexivity|left; auto].
  - change (bstep F (r, f) i) with (Ok (if (f || (if Rlt_dec r (F i) then true else false))%bool then (F i, false) else (r, false))). cbn [bind].
    destruct (f || (if Rlt_dec r (F i) then true else false))%bool eqn:E.
    + destruct (IH (F i) false ltac:(discriminate)) as (m & Em & H1 & H2 & H3). exists m. rewrite Em. split; [destruct l; reflexivity|]. specialize (H2 eq_refl). split; [|split].
      * intros j [<-|Hj]; [exact H2|exact (H1 j Hj)].
      * intros ->. cbn in E. destruct (Rlt_dec r (F i)); [lra|discriminate].
      * right. destruct H3 as [[_ ->]|(j & Hj & ->)]; [exists i; split; [left; reflexivity|reflexivity]|exists j; split; [right; exact Hj|reflexivity]].
    + destruct f; [discriminate|]. cbn in E. destruct (Rlt_dec r (F i)) as [|L]; [discriminate|]. destruct (IH r false ltac:(discriminate)) as (m & Em & H1 & H2 & H3). exists m. rewrite Em. split; [destruct l; reflexivity|].
      specialize (H2 eq_refl). split; [|split].
      * intros j [<-|Hj]; [lra|exact (H1 j Hj)].
      * intros _. exact H2.
      * destruct H3 as [[_ ->]|(j & Hj & ->)]; [left; auto|right; exists j; split; [right; exact Hj|reflexivity]].
Qed.
Lemma best_reps N (a : array R) F : 1 <= N < 2147483647 -> reps a [N; N] F ->
  exists m, arr_best (volume_of (ashape a)) (fun a b => if Rlt_dec b a then true else false) 0%R a = Ok m /\ (forall k, inb [N; N] k -> F k <= m)%R /\ exists k, inb [N; N] k /\ m = F k.
Proof.
  intros HN [S1 S2]. assert (HB : N < two64) by (apply Z.lt_trans with 2147483647; [lia|reflexivity]). unfold arr_best, volume_of. rewrite S1, for_each_shape; [|repeat constructor; lia|discriminate|lia].
  assert (I0 : In [0; 0] (idxs [N; N])) by (apply idxs_In; repeat constructor; lia).
  destruct (best_fold F (idxs [N; N]) 0%R true) as (m & Em & H1 & _ & H3); [intros _ X; rewrite X in I0; destruct I0|].
  exists m. split; [|split].
  - match goal with |- bind ?x _ = _ => assert (EX : x = Ok (m, false)) end.
    { replace (Ok (m, false)) with (Ok (m, match idxs [N; N] with [] => true | _ => false end)) by (destruct (idxs [N; N]); [destruct I0|reflexivity]). rewrite <- Em.
      assert (Q : forall l s, (forall i, In i l -> inb [N; N] i) -> foldM (fun (s : R * bool) i => let '(r, first) := s in do x <- aget a i; Ok (if (first || (if Rlt_dec r x then true else false))%bool then (x, false) else (r, false))) s l
        = foldM (bstep F) s l).
      { induction l as [|i l IH]; intros [r f] Hl; [reflexivity|]. cbn [foldM]. rewrite S2 by (apply Hl; left; reflexivity). cbn [bind]. apply IH. intros j Hj. apply Hl. right. exact Hj. }
      apply Q. intros i Hi. apply idxs_In in Hi. exact Hi. }
    rewrite EX. reflexivity.
  - intros k Hk. apply H1, idxs_In, Hk.
  - destruct H3 as [[X _]|(k & Hk & E)]; [discriminate|]. exists k. split; [apply idxs_In, Hk|exact E].
Qed.

Lemma fold_min l : forall x, (fold_left Rmin l x <= x)%R /\ (forall y, In y l -> fold_left Rmin l x <= y)%R /\ (fold_left Rmin l x = x \/ In (fold_left Rmin l x) l).
Proof.
  induction l as [|y l IH]; intros x; cbn [fold_left]; [split; [lra|split; [intros ? []|left; reflexivity]]|].
  destruct (IH (Rmin x y)) as (H1 & H2 & H3). pose proof (Rmin_l x y). pose proof (Rmin_r x y). split; [lra|]. split.
  - intros z [<-|Hz]; [lra|auto].
  - destruct H3 as [E|E]; [|right; right; exact E]. rewrite E. unfold Rmin. destruct (Rle_dec x y); [left; reflexivity|right; left; reflexivity].
Qed.
Lemma tmin_leaves t : wf_tree 2 t -> (forall x, In x (leaves t) -> tmin t <= x)%R /\ In (tmin t) (leaves t).
Proof.
  induction t as [x|cs IH] using tree_ind'; intros W; [cbn; split; [intros y [<-|[]]; lra|left; reflexivity]|].
  apply wf_node_inv in W. destruct W as [L F]. cbn [tmin leaves]. destruct cs as [|c cs]; [cbn in L; discriminate|]. cbn [map].
  assert (K : forall e, In e (c :: cs) -> (forall x, In x (leaves e) -> tmin e <= x)%R /\ In (tmin e) (leaves e)).
  { intros e He. rewrite Forall_forall in IH, F. apply IH; [exact He|apply F; exact He]. }
  destruct (fold_min (map tmin cs) (tmin c)) as (H1 & H2 & H3). split.
  - intros x Hx. apply in_flat_map in Hx. destruct Hx as (e & He & Hx). pose proof (proj1 (K e He) x Hx). destruct He as [<-|He]; [lra|]. specialize (H2 (tmin e) (in_map tmin cs e He)). lra.
  - apply in_flat_map. destruct H3 as [E|E]; [exists c; split; [left; reflexivity|]; rewrite E; apply K; left; reflexivity|].
    apply in_map_iff in E. destruct E as (e & E & He). exists e. split; [right; exact He|]. rewrite <- E. apply K. right. exact He.
Qed.

Section Step.
Variables (N : Z) (d : nat) (predicate : nat -> R -> bool) (fuel : nat) (sd : settings) (fd : fields).
Hypothesis HS : setup N d predicate fuel sd fd.
Let vt := vertices fd.
Let dA := cell_areas fd.

Lemma block_step b p i : cell_data N vt p -> In i (leaves (indexes 2 vt)) -> exists pc P m, is_node p i (Leaf pc) /\ reps pc [N; N] P /\
  block_timestep sd fd b p i = Ok (spacing_at sd (level i) / m)%R /\ (forall k, inb [N; N] k -> iso_max_wavespeed (P k) (cs2_at_position sd b (cell_center N sd i k)) <= m)%R /\
  exists k, inb [N; N] k /\ m = iso_max_wavespeed (P k) (cs2_at_position sd b (cell_center N sd i k)).
Proof.
  intros Hp Hi. destruct (mesh_facts N d predicate fuel sd fd HS) as (W & D & _ & _ & _). fold vt in W, D. pose proof (su_size _ _ _ _ _ _ HS) as HN.
  destruct (at_address N d predicate fuel sd fd HS p i Hp Hi) as (pc & P & Np & Rp). destruct (in_leaf vt W D i Hi) as [v Hv]. destruct (shapes N d predicate fuel sd fd HS) as (_ & _ & L). destruct (L i v Hv) as (a & c & _ & Nc & _ & Rc).
  destruct (binary_reps_gen pair pc c _ _ _ Rp Rc) as (z & E & Rz). apply (map_reps (fun w : iprim * (R * R) => iso_max_wavespeed (fst w) (cs2_at_position sd b (snd w)))) in Rz. cbn [fst snd] in Rz.
  destruct (best_reps N _ _ HN Rz) as (m & Em & H1 & H2). exists pc, P, m. split; [exact Np|]. split; [exact Rp|]. split; [|split; assumption].
  unfold block_timestep. rewrite (leaf_at _ _ _ Nc), (leaf_at _ _ _ Np). bsimp. unfold zip2. rewrite E. bsimp. rewrite Em. reflexivity.
Qed.
Lemma timestep s b : conserve_linear_p sd = true -> valid N sd fd s -> full_state_at fuel (orbital_elements s) (time s) = Ok b ->
  exists m p, maximum_timestep sd fd fuel s = Ok m /\ recover_primitive sd fd s = Ok p /\ cell_data N vt p /\
  (forall i pc k P, In i (leaves (indexes 2 vt)) -> at_ p i = Ok pc -> inb [N; N] k -> aget pc k = Ok P -> (0 < iso_max_wavespeed P (cs2_at_position sd b (cell_center N sd i k)))%R ->
     (m * iso_max_wavespeed P (cs2_at_position sd b (cell_center N sd i k)) <= spacing_at sd (level i))%R) /\
  (exists i pc k P, In i (leaves (indexes 2 vt)) /\ at_ p i = Ok pc /\ inb [N; N] k /\ aget pc k = Ok P /\ m = (spacing_at sd (level i) / iso_max_wavespeed P (cs2_at_position sd b (cell_center N sd i k)))%R).
Proof.
  intros HQ (HM & HD & _) Eb. destruct (recovered N d predicate fuel sd fd HS s HM HD) as (p & Ep & Dp). fold vt in Dp. destruct (mesh_facts N d predicate fuel sd fd HS) as (W & D & _ & _ & _). fold vt in W, D.
  pose proof (su_size _ _ _ _ _ _ HS) as HN. pose proof (su_radius _ _ _ _ _ _ HS) as HR. pose proof (su_block _ _ _ _ _ _ HS) as HB.
  unfold maximum_timestep. rewrite Ep. cbn [bind]. rewrite Eb. cbn [bind].
  assert (SU : same_shape vt (conserved_u s)) by (unfold on_mesh, conserved in HM; rewrite HQ in HM; exact (proj1 HM)).
  replace (indexes 2 (conserved_u s)) with (indexes 2 vt) by (unfold indexes; rewrite (same_shape_indexes vt _ _ SU); reflexivity).
  destruct (tmapM_idx (block_timestep sd fd b p) 0%R vt W ltac:(lia)) as (t & Et & St & Kt).
  { intros i v Hv. destruct (block_step b p i Dp (leaf_in vt W i v Hv)) as (pc & P & m' & _ & _ & EB & _). eauto. }
  rewrite Et. cbn [bind]. destruct (same_shape_wf _ _ W St) as [Wt Dt]. destruct (tmin_leaves t Wt) as [T1 T2].
  exists (tmin t), p. split; [reflexivity|]. split; [reflexivity|]. split; [exact Dp|]. assert (Sp : forall l, (0 < spacing_at sd l)%R).
  { intros l. unfold spacing_at. rewrite HB. apply Rdiv_lt_0_compat; [|apply pow_lt; lra]. apply Rdiv_lt_0_compat; [lra|apply IZR_lt; lia]. }
  split.
  - intros i pc k P Hi Ai Hk Ak Hpos. destruct (block_step b p i Dp Hi) as (pc' & F & mx & Np & Rp & EB & B1 & (k1 & Hk1 & B2)). rewrite (leaf_at _ _ _ Np) in Ai. apply ok_inj in Ai. subst pc'. rewrite (proj2 Rp k Hk) in Ak. apply ok_inj in Ak. subst P.
    destruct (in_leaf vt W D i Hi) as [v Hv]. pose proof (T1 _ (node_leaves t i _ Wt (Kt i v _ Hv EB))) as T. specialize (B1 k Hk). specialize (Sp (level i)).
    set (w := iso_max_wavespeed _ _) in *. assert (0 < mx)%R by lra. apply Rle_trans with (spacing_at sd (level i) / mx * w)%R; [apply Rmult_le_compat_r; lra|].
    unfold Rdiv. rewrite Rmult_assoc. rewrite <- (Rmult_1_r (spacing_at sd (level i))) at 2. apply Rmult_le_compat_l; [lra|]. apply Rmult_le_reg_l with mx; [assumption|]. rewrite <- Rmult_assoc, Rinv_r by lra. lra.
  - rewrite (leaves_look 0%R t Wt ltac:(lia)) in T2. apply in_map_iff in T2. destruct T2 as (i & Ei & Hi). unfold indexes in Hi. rewrite (same_shape_indexes vt t _ St) in Hi. fold (indexes 2 vt) in Hi.
    destruct (block_step b p i Dp Hi) as (pc & F & mx & Np & Rp & EB & B1 & (k1 & Hk1 & B2)). destruct (in_leaf vt W D i Hi) as [v Hv]. rewrite (look_leaf 0%R t i _ (Kt i v _ Hv EB)) in Ei.
    exists i, pc, k1, (F k1). split; [exact Hi|]. split; [exact (leaf_at _ _ _ Np)|]. split; [exact Hk1|]. split; [exact (proj2 Rp k1 Hk1)|]. rewrite <- Ei, B2. reflexivity.
Qed.
Lemma timestep_sign s m : conserve_linear_p sd = true -> valid N sd fd s -> maximum_timestep sd fd fuel s = Ok m -> (0 <= m)%R.
Proof.
  intros HQ V E. destruct (full_state_at fuel (orbital_elements s) (time s)) as [b| | |] eqn:Eb.
  2-4: exfalso; destruct V as (HM & HD & _); destruct (recovered N d predicate fuel sd fd HS s HM HD) as (p & Ep & _); unfold maximum_timestep in E; rewrite Ep in E; cbn [bind] in E; rewrite Eb in E; discriminate.
  destruct (timestep s b HQ V Eb) as (m' & p & E' & _ & _ & _ & (i & pc & k & P & _ & _ & _ & _ & Em)). rewrite E' in E. apply ok_inj in E. subst m'. rewrite Em. unfold Rdiv. apply Rmult_le_pos.
  - pose proof (su_size _ _ _ _ _ _ HS) as HN. pose proof (su_radius _ _ _ _ _ _ HS) as HR. pose proof (su_block _ _ _ _ _ _ HS) as HB. unfold spacing_at. rewrite HB. apply Rlt_le, Rdiv_lt_0_compat; [|apply pow_lt; lra]. apply Rdiv_lt_0_compat; [lra|apply IZR_lt; lia].
  - set (w := iso_max_wavespeed _ _). assert (W0 : (0 <= w)%R).
    { unfold w, iso_max_wavespeed, smax. repeat match goal with |- context [Rlt_dec ?a ?b] => destruct (Rlt_dec a b) end; apply Rabs_pos. }
    destruct (Req_dec w 0) as [->|X]; [rewrite Rinv_0; lra|]. apply Rlt_le, Rinv_0_lt_compat. lra.
Qed.
Lemma timestep_q s : conserve_linear_p sd = false -> valid N sd fd s -> (exists cs, vt = Node cs) ->
  (exists b, full_state_at fuel (orbital_elements s) (time s) = Ok b) -> maximum_timestep sd fd fuel s = Throw BadVariantAccess.
Proof.
  intros HQ (HM & HD & HU) [cs EV] [b Eb]. destruct (recovered N d predicate fuel sd fd HS s HM HD) as (p & Ep & _). unfold maximum_timestep. rewrite Ep. cbn [bind]. rewrite Eb. cbn [bind].
  unfold unused in HU. rewrite HQ in HU. destruct HU as (a & -> & _). unfold indexes. cbn [indexes_from tmapM]. unfold block_timestep at 1.
  destruct (shapes N d predicate fuel sd fd HS) as (_ & SC & _). fold vt in SC. rewrite EV in SC. inversion SC as [|? ds]; subst. reflexivity.
Qed.

(** *** Diagnostic sums *)
Lemma totalled (t : tree (array R)) : cell_data N vt t -> tree_total t = Ok (rsum (fun b => rsum (val b) (idxs [N; N])) (leaves t)).
Proof.
  intros Ht. destruct (mesh_facts N d predicate fuel sd fd HS) as (W & D & _ & _ & _). fold vt in W, D. destruct (same_shape_wf _ _ W (proj1 Ht)) as [W1 D1]. pose proof (su_size _ _ _ _ _ _ HS) as HN.
  unfold tree_total. assert (K : forall i v, is_node t i (Leaf v) -> arr_sum (volume_of (ashape v)) 0%R Rplus v = Ok (rsum (val v) (idxs [N; N]))).
  { intros i v Hi. destruct (data_reps_at N d predicate fuel sd fd HS t i v Ht Hi) as [F RF]. rewrite (rsum_ext_in _ F); [exact (arr_sum_reps N v F HN RF)|]. intros k Hk. apply idxs_In in Hk. unfold val. rewrite (proj2 RF k Hk). reflexivity. }
  destruct (tmapM_at (fun a => arr_sum (volume_of (ashape a)) 0%R Rplus a) 0%R t W1 ltac:(lia)) as (p & Ep & Sp & Kp); [intros i v Hi; rewrite (K i v Hi); eauto|].
  rewrite Ep. bsimp. f_equal. destruct (same_shape_wf _ _ W1 Sp) as [Wp Dp]. rewrite (tsum_hom 0%R Rplus (fun x => x) p eq_refl (fun _ _ => eq_refl)).
  rewrite (leaves_look 0%R p Wp ltac:(lia)), (leaves_look no_array t W1 ltac:(lia)). unfold indexes. rewrite (same_shape_indexes t p _ Sp), !rsum_through. apply rsum_ext_in. intros i Hi.
  destruct (in_leaf t W1 ltac:(lia) i Hi) as [v Hv]. rewrite (look_leaf _ _ _ _ Hv), (look_leaf _ _ _ _ (Kp i v _ Hv (K i v Hv))). reflexivity.
Qed.
Lemma multiplied t : cell_data N vt t -> exists p, tree_times t dA = Ok p /\ cell_data N vt p /\ rsum (fun b => rsum (val b) (idxs [N; N])) (leaves p) = mesh_content N t dA.
Proof.
  intros Ht. destruct (mesh_facts N d predicate fuel sd fd HS) as (W & D & _ & _ & _). fold vt in W, D. destruct (same_shape_wf _ _ W (proj1 Ht)) as [W1 D1]. destruct (shapes N d predicate fuel sd fd HS) as (SA & _ & _). fold vt dA in SA.
  destruct (pair_leaf2 t dA W1 ltac:(lia) (shape_trans _ _ _ (shape_sym _ _ (proj1 Ht)) SA)) as (q & Eq & Sq & Kq).
  assert (K : forall i, In i (leaves (indexes 2 vt)) -> exists b a y B, is_node t i (Leaf b) /\ is_node dA i (Leaf a) /\ reps b [N; N] B /\ reps a [N; N] (fun _ => cell_area N sd i) /\ NdModel.binary_op Rmult b a = Ok y /\ reps y [N; N] (fun k => B k * cell_area N sd i)%R /\ is_node q i (Leaf (b, a))).
  { intros i Hi. destruct (at_address N d predicate fuel sd fd HS t i Ht Hi) as (b & B & Nb & Rb). destruct (area_leaf N d predicate fuel sd fd HS i Hi) as (a & Na & Ra).
    destruct (binary_reps_gen Rmult b a _ _ _ Rb Ra) as (y & E & Ry). exists b, a, y, B. do 6 (split; [assumption|]). exact (Kq i b a Nb Na). }
  assert (SQ : same_shape vt q) by exact (shape_trans _ _ _ (proj1 Ht) Sq).
  destruct (mapped N d predicate fuel sd fd HS (fun z : array R * array R => NdModel.binary_op Rmult (fst z) (snd z)) q SQ) as (p & Ep & Dp & Kp).
  { intros i z Hz. destruct (mesh_leaf N d predicate fuel sd fd HS q i z SQ Hz) as [w Hw]. destruct (K i (leaf_in vt W i w Hw)) as (b & a & y & B & _ & _ & _ & _ & E & Ry & Nq).
    pose proof (is_node_unique _ i _ _ Hz Nq) as X. injection X as ->. cbn [fst snd]. eauto. }
  exists p. split; [unfold tree_times; rewrite Eq; bsimp; exact Ep|]. split; [exact Dp|].
  change (mesh_content N t dA) with (held (fun x => x) N t dA). rewrite (held_by_address (fun x => x) N t dA vt W D (proj1 Ht) SA).
  destruct (same_shape_wf _ _ W (proj1 Dp)) as [Wp Dpp]. rewrite (leaves_look no_array p Wp ltac:(lia)). unfold indexes. rewrite (same_shape_indexes vt p _ (proj1 Dp)), rsum_through. apply rsum_ext_in. intros i Hi.
  destruct (K i Hi) as (b & a & y & B & Nb & Na & Rb & Ra & E & Ry & Nq). rewrite (look_leaf _ _ _ _ Nb), (look_leaf _ _ _ _ Na), (look_leaf _ _ _ _ (Kp i _ y Nq E)), (block_held_reps _ N _ _ _ _ Rb Ra).
  apply rsum_ext_in. intros k Hk. apply idxs_In in Hk. unfold val. rewrite (proj2 Ry k Hk). reflexivity.
Qed.
Lemma mass_of_disk s : on_mesh N sd fd s -> disk_mass sd fd s = Ok (held d0 N (conserved sd s) dA).
Proof.
  intros HM. unfold disk_mass. fold (conserved sd s). destruct (multiplied _ (cell_data_map N vt (conserved sd s) d0 HM)) as (p & Ep & Dp & Hp). fold dA. rewrite Ep. bsimp. rewrite (totalled p Dp), Hp, <- held_content. reflexivity.
Qed.
Lemma angular_momentum_of_disk_q s : conserve_linear_p sd = false -> on_mesh N sd fd s -> disk_angular_momentum sd fd s = Ok (held d2 N (conserved_q s) dA).
Proof.
  intros HQ HM. unfold disk_angular_momentum. unfold on_mesh, conserved in HM. rewrite HQ in *. destruct (multiplied _ (cell_data_map N vt (conserved_q s) d2 HM)) as (p & Ep & Dp & Hp). fold dA. rewrite Ep. bsimp. rewrite (totalled p Dp), Hp, <- held_content. reflexivity.
Qed.
(** In the linear momentum scheme: moments about the origin at the cell centres. *)
Lemma angular_momentum_of_disk_u s : conserve_linear_p sd = true -> on_mesh N sd fd s ->
  disk_angular_momentum sd fd s = Ok (rsum (fun i => rsum (fun k => reading (fun u => iso_angular_momentum u (fst (cell_center N sd i k)) (snd (cell_center N sd i k))) (look no_array (conserved_u s) i) k * cell_area N sd i)%R (idxs [N; N])) (leaves (indexes 2 vt))).
Proof.
  intros HQ HM. unfold disk_angular_momentum. unfold on_mesh, conserved in HM. rewrite HQ in *. set (u := conserved_u s) in *. fold vt in HM. destruct (mesh_facts N d predicate fuel sd fd HS) as (W & D & _ & _ & _). fold vt in W, D. destruct (same_shape_wf _ _ W (proj1 HM)) as [W1 D1].
  destruct (shapes N d predicate fuel sd fd HS) as (SA & SC & L). fold vt dA in SA. fold vt in SC, L.
  destruct (pair_leaf2 u (cell_centers fd) W1 ltac:(lia) (shape_trans _ _ _ (shape_sym _ _ (proj1 HM)) SC)) as (q & Eq & Sq & Kq). rewrite Eq. bsimp.
  set (f := fun z : array v3 * array (R * R) => zip_apply (fun u x => iso_angular_momentum u (fst x) (snd x)) (fst z) (snd z)).
  assert (K : forall i, In i (leaves (indexes 2 vt)) -> exists b c y B, is_node u i (Leaf b) /\ reps b [N; N] B /\ f (b, c) = Ok y /\ reps y [N; N] (fun k => iso_angular_momentum (B k) (fst (cell_center N sd i k)) (snd (cell_center N sd i k))) /\ is_node q i (Leaf (b, c))).
  { intros i Hi. destruct (at_address N d predicate fuel sd fd HS u i HM Hi) as (b & B & Nb & Rb). destruct (in_leaf vt W D i Hi) as [v Hv]. destruct (L i v Hv) as (a & c & _ & Nc & _ & Rc).
    destruct (zip_apply_reps (fun u x => iso_angular_momentum u (fst x) (snd x)) b c _ _ _ Rb Rc) as (y & E & Ry). exists b, c, y, B. do 4 (split; [assumption|]). exact (Kq i b c Nb Nc). }
  assert (SQ : same_shape vt q) by exact (shape_trans _ _ _ (proj1 HM) Sq).
  destruct (mapped N d predicate fuel sd fd HS f q SQ) as (lz & Ez & Dz & Kz).
  { intros i z Hz. destruct (mesh_leaf N d predicate fuel sd fd HS q i z SQ Hz) as [w Hw]. destruct (K i (leaf_in vt W i w Hw)) as (b & c & y & B & _ & _ & E & Ry & Nq).
    pose proof (is_node_unique _ i _ _ Hz Nq) as X. injection X as ->. eauto. }
  rewrite Ez. bsimp. destruct (multiplied lz Dz) as (p & Ep & Dp & Hp). fold dA. rewrite Ep. bsimp. rewrite (totalled p Dp), Hp. f_equal.
  change (mesh_content N lz dA) with (held (fun x => x) N lz dA). rewrite (held_by_address (fun x => x) N lz dA vt W D (proj1 Dz) SA). apply rsum_ext_in. intros i Hi.
  destruct (K i Hi) as (b & c & y & B & Nb & Rb & E & Ry & Nq). destruct (area_leaf N d predicate fuel sd fd HS i Hi) as (a & Na & Ra). fold dA in Na.
  rewrite (look_leaf _ _ _ _ Nb), (look_leaf _ _ _ _ Na), (look_leaf _ _ _ _ (Kz i _ y Nq E)), (block_held_reps _ N _ _ _ _ Ry Ra). apply rsum_ext_in. intros k Hk. apply idxs_In in Hk. unfold reading. rewrite (proj2 Rb k Hk). reflexivity.
Qed.
End Step.
