(** Lemmas: the blocks of a refined mesh are regular, and which blocks are refined. *)
From Coq Require Import ZArith Reals Lra List Arith Bool Lia.
From Verif Require Import Base TreeModel TreeSpec TreeProofs TreeProofs3 TreeProofs4 BalanceModel BalanceSpec BalanceProofs BalanceProofs2
  NdModel NdSpec NdProofs NdOpsModel NdOpsProofs ProlongModel ProlongProofs GuardSpec GuardProofs GuardProofs2 MeshModel MeshSpec MeshProofs.
Import ListNotations.
Open Scope Z_scope.

Section Blocks.
Variable N : Z.
Hypothesis HN : 1 <= N.
Hypothesis HB : N < 2147483647.

Definition vtx (l : nat) (g : list Z) : R * R := (place 1 N l (IZR (nth 0 g 0)), place 1 N l (IZR (nth 1 g 0))).
Definition vblock (q : list nat) (k : list Z) : R * R := vtx (length q) (glob N (of_path 2 q) k).
Definition ablock (a : array (R * R)) : Prop := exists F, reps a [N + 1; N + 1] F.
Definition split4 (a : array (R * R)) : list (array (R * R)) :=
  match refine_locations a with Ok [x; y; z; w] => [x; y; z; w] | _ => [a; a; a; a] end.

Lemma split4_length a : length (split4 a) = 4%nat.
Proof. unfold split4. destruct (refine_locations a) as [[|x [|y [|z [|w [|? ?]]]]]| | |]; reflexivity. Qed.

Lemma bound64 : 4 * N + 4 < two64. Proof. unfold two64. lia. Qed.

Lemma split4_reps a F : reps a [N + 1; N + 1] F -> refine_locations a = Ok (split4 a) /\
  forall k c, nth_error (split4 a) k = Some c ->
    reps c [N + 1; N + 1] (fun q => Pall (Pv loc_add loc_half) (seq 0 2) F (zipw (fun x (b : bool) => if b then N + x else x) q (bits 2 k))).
Proof.
  intros H. pose proof bound64 as HBB. destruct (refine_verts_vec loc_add loc_half 2 N ltac:(lia) a F H) as (cs & E & R).
  unfold split4, refine_locations. rewrite E. change (map (bits 2) (seq 0 (2 ^ 2))) with [bits 2 0; bits 2 1; bits 2 2; bits 2 3] in R.
  assert (L : exists x y z w, cs = [x; y; z; w]).
  { clear -R. repeat match goal with H : Forall2 _ (_ :: _) ?l |- _ => inversion H; subst; clear H | H : Forall2 _ [] ?l |- _ => inversion H; subst; clear H end. eauto. }
  destruct L as (x & y & z & w & ->). split; [reflexivity|]. intros k c Ek.
  inversion R as [|? ? ? ? R0 T0]; subst. inversion T0 as [|? ? ? ? R1 T1]; subst. inversion T1 as [|? ? ? ? R2 T2]; subst. inversion T2 as [|? ? ? ? R3 T3]; subst.
  destruct k as [|[|[|[|k]]]]; cbn [nth_error] in Ek; try (injection Ek as <-; assumption). destruct k; discriminate.
Qed.

Lemma split4_block a : ablock a -> refine_locations a = Ok (split4 a) /\ Forall ablock (split4 a).
Proof.
  intros [F HF]. destruct (split4_reps a F HF) as [E R]. split; [exact E|]. apply Forall_forall. intros c Hc.
  apply In_nth_error in Hc. destruct Hc as [k Hk]. eexists. exact (R k c Hk).
Qed.

Lemma pvhalf k : (IZR (k / 2) + IZR (k / 2 + k mod 2) = IZR k)%R.
Proof. rewrite <- plus_IZR. f_equal. pose proof (Z.div_mod k 2 ltac:(lia)). lia. Qed.

(** The four parts of a regular block are regular. *)
Lemma split4_regular a q k c : path_ok 2 q -> (k < 4)%nat -> reps a [N + 1; N + 1] (vblock q) -> nth_error (split4 a) k = Some c ->
  reps c [N + 1; N + 1] (vblock (q ++ [k])).
Proof.
  intros Hq Hk HR E. destruct (split4_reps a _ HR) as [_ H]. eapply reps_ext; [exact (H k c E)|]. intros i Hi. cbv beta.
  apply inb_length in Hi. destruct i as [|i0 [|i1 [|i2 i]]]; try discriminate.
  unfold vblock at 2. rewrite app_length. cbn [length]. rewrite Nat.add_1_r. rewrite of_path_snoc by assumption.
  rewrite glob_child; [|rewrite of_path_length; reflexivity|rewrite bits_length; reflexivity].
  pose proof (bits_length 2 k) as Lb. destruct (bits 2 k) as [|b0 [|b1 [|b2 bs]]]; try discriminate.
  pose proof (of_path_length 2 q) as Lc. unfold vblock. destruct (of_path 2 q) as [|c0 [|c1 [|c2 cs]]]; try discriminate.
  cbn [zipw]. generalize (if b0 then N + i0 else i0) (if b1 then N + i1 else i1). intros k0 k1. clear - HN.
  unfold Pall. cbn [seq fold_left]. unfold Pv, loc_add, loc_half, vtx, glob, place. cbn [nth upd zipw fst snd]. rewrite !plus_IZR, !mult_IZR. simpl pow.
  assert (HI : IZR N <> 0%R) by (apply not_0_IZR; lia).
  pose proof (pvhalf k0) as Q0. pose proof (pvhalf k1) as Q1. rewrite plus_IZR in Q0, Q1. pose proof (pow_lt 2 (length q) ltac:(lra)).
  rewrite <- Q0, <- Q1. f_equal; field; split; lra.
Qed.

(** All leaves below [p0] are regular. *)
Definition regp (p0 : list nat) (t : tree (array (R * R))) : Prop :=
  forall p v, path_ok 2 p -> node_path p t = Some (Leaf v) -> reps v [N + 1; N + 1] (vblock (p0 ++ p)).

Lemma regp_child p0 cs k c : (k < 4)%nat -> regp p0 (Node cs) -> nth_error cs k = Some c -> regp (p0 ++ [k]) c.
Proof.
  intros Hk H E p v Hp Ep. rewrite <- app_assoc. apply H; [constructor; assumption|]. cbn [node_path app]. rewrite E. exact Ep.
Qed.
Lemma path_ok_snoc q k : path_ok 2 q -> (k < 4)%nat -> path_ok 2 (q ++ [k]).
Proof. intros H1 H2. apply Forall_app. split; [assumption|]. constructor; [exact H2|constructor]. Qed.

Lemma forall2_nth {X Y} (R : X -> Y -> Prop) l m : Forall2 R l m -> forall k y, nth_error m k = Some y -> exists x, nth_error l k = Some x /\ R x y.
Proof. induction 1 as [|x y l m H HF IH]; intros [|k] z E; try discriminate; cbn in *; [injection E as <-; eauto|auto]. Qed.
Lemma forall2_nth_l {X Y} (R : X -> Y -> Prop) l m : Forall2 R l m -> forall k x, nth_error l k = Some x -> exists y, nth_error m k = Some y /\ R x y.
Proof. induction 1 as [|x y l m H HF IH]; intros [|k] z E; try discriminate; cbn in *; [injection E as <-; eauto|auto]. Qed.

Lemma regp_grown t : forall u p0, path_ok 2 p0 -> grown split4 u t -> regp p0 u -> regp p0 t.
Proof.
  induction t as [a|ds IH] using tree_ind'; intros u p0 Hp0 HG HR; inversion HG as [|b ds' HF|cs ds' HF]; subst; auto.
  - intros [|k p] v Hp E; [discriminate|]. cbn [node_path] in E. destruct (nth_error ds k) as [d|] eqn:Ed; [|discriminate].
    destruct (forall2_nth _ _ _ HF k d Ed) as (x & Ex & Gx). rewrite nth_error_map in Ex. destruct (nth_error (split4 b) k) as [c|] eqn:Ec; [|discriminate].
    injection Ex as <-. pose proof (Forall_inv Hp) as Hk. cbv beta in Hk. change (2 ^ 2)%nat with 4%nat in Hk.
    rewrite Forall_forall in IH. change (k :: p) with ([k] ++ p). rewrite app_assoc. apply (IH d (nth_error_In _ _ Ed) (Leaf c) (p0 ++ [k])); auto.
    + apply path_ok_snoc; assumption.
    + intros [|m q] w Hq Ew; [|discriminate]. injection Ew as <-. rewrite app_nil_r. apply (split4_regular b); auto.
      specialize (HR [] b ltac:(constructor) eq_refl). rewrite app_nil_r in HR. exact HR.
    + exact (Forall_inv_tail Hp).
  - intros [|k p] v Hp E; [discriminate|]. cbn [node_path] in E. destruct (nth_error ds k) as [d|] eqn:Ed; [|discriminate].
    destruct (forall2_nth _ _ _ HF k d Ed) as (c & Ec & Gc). pose proof (Forall_inv Hp) as Hk. cbv beta in Hk. change (2 ^ 2)%nat with 4%nat in Hk.
    rewrite Forall_forall in IH. change (k :: p) with ([k] ++ p). rewrite app_assoc. apply (IH d (nth_error_In _ _ Ed) c (p0 ++ [k])); auto.
    + apply path_ok_snoc; assumption.
    + eapply regp_child; eassumption.
    + exact (Forall_inv_tail Hp).
Qed.

Lemma leaf_has_path {A} (t : tree A) : forall v, wf_tree 2 t -> In v (leaves t) -> exists p, path_ok 2 p /\ node_path p t = Some (Leaf v).
Proof.
  induction t as [a|cs IH] using tree_ind'; intros v W Hv; cbn [leaves] in Hv.
  - destruct Hv as [<-|[]]. exists []. split; [constructor|reflexivity].
  - apply in_flat_map in Hv. destruct Hv as (c & Hc & Hv). apply wf_node_inv in W. destruct W as [W1 W2]. rewrite Forall_forall in IH, W2.
    destruct (IH c Hc v (W2 c Hc) Hv) as (p & Hp & Ep). apply In_nth_error in Hc. destruct Hc as [k Hk]. exists (k :: p). split.
    + constructor; [|assumption]. rewrite <- W1. apply nth_error_Some. congruence.
    + cbn [node_path]. rewrite Hk. assumption.
Qed.

Lemma regp_blocks t p0 : wf_tree 2 t -> regp p0 t -> Forall ablock (leaves t).
Proof.
  intros W H. apply Forall_forall. intros v Hv. destruct (leaf_has_path t v W Hv) as (p & Hp & Ep). eexists. exact (H p v Hp Ep).
Qed.

(** ** The root *)
Lemma volume_one : volume [w64 (N + 1)] = N + 1.
Proof. unfold volume. cbn [fold_left]. unfold w64, to_int, two64. rewrite !(Z.mod_small (N + 1)) by lia. rewrite Z.mul_1_l.
  rewrite !(Z.mod_small (N + 1)) by lia. rewrite (Z.mod_small (N + 1 + 2147483648)) by lia. rewrite Z.mod_small by lia. lia. Qed.

Lemma root_regular : reps (root_block N N) [N + 1; N + 1] (vblock []).
Proof.
  split; [unfold root_block, cartesian_product, unit_points, linspace; cbn [ashape]; rewrite volume_one; reflexivity|].
  intros i Hi. apply inb_length in Hi. destruct i as [|i0 [|i1 [|i2 i]]]; try discriminate.
  unfold root_block, cartesian_product, unit_points, linspace. cbn [aget nth hd]. bsimp. f_equal.
  assert (E : w64 (w64 (N + 1) - 1) = N) by (unfold w64, two64; rewrite (Z.mod_small (N + 1)) by lia; rewrite Z.mod_small by lia; lia).
  rewrite E. unfold vblock, vtx, glob, place. cbn [of_path repeat zipw nth length]. rewrite !plus_IZR, !mult_IZR. simpl pow. cbn [Z.of_nat].
  assert (HI : IZR N <> 0%R) by (apply not_0_IZR; lia). f_equal; field; assumption.
Qed.

(** ** Refinement passes *)
Definition rad (a : array (R * R)) : R := match centroid_radius N N a with Ok x => x | _ => 0%R end.
Lemma rad_ok a : ablock a -> centroid_radius N N a = Ok (rad a).
Proof.
  intros (F & R1 & R2). unfold rad, centroid_radius. rewrite !R2; [reflexivity| |].
  - repeat constructor; lia.
  - repeat constructor; lia.
Qed.

Lemma rad_regular a q : path_ok 2 q -> reps a [N + 1; N + 1] (vblock q) -> rad a = block_radius N (addr 2 q).
Proof.
  intros Hq [R1 R2]. unfold rad, centroid_radius. rewrite !R2 by (repeat constructor; lia). bsimp. cbn [bind].
  unfold block_radius, point_in, vblock, vtx, loc_half, loc_add, glob, place, addr. cbn [level coords fst snd].
  pose proof (of_path_length 2 q) as Lc. destruct (of_path 2 q) as [|c0 [|c1 [|c2 cs]]]; try discriminate. cbn [zipw nth]. rewrite !plus_IZR, !mult_IZR.
  assert (HI : IZR N <> 0%R) by (apply not_0_IZR; lia). pose proof (pow_lt 2 (length q) ltac:(lra)).
  f_equal. f_equal; f_equal; field; split; lra.
Qed.

Section Passes.
Variable predicate : nat -> R -> bool.
Definition pass (t : tree (array (R * R))) (i : nat) := bifurcate_if (fun a => predicate i (rad a)) split4 t.
Definition passes (d : nat) : tree (array (R * R)) := fold_left pass (seq 0 d) (Leaf (root_block N N)).

Lemma passes_S d : passes (S d) = pass (passes d) d.
Proof. unfold passes. rewrite seq_S, fold_left_app. reflexivity. Qed.

Lemma passes_facts d : wf_tree 2 (passes d) /\ (depth (passes d) <= d)%nat /\ regp [] (passes d).
Proof.
  induction d as [|d (W & D & R)].
  - split; [constructor|]. split; [cbn; lia|]. intros [|k p] v _ E; [|discriminate]. injection E as <-. exact root_regular.
  - rewrite passes_S. unfold pass. split; [apply wf_bif; [exact split4_length|assumption]|]. split.
    + etransitivity; [apply (depth_bif split4)|lia].
    + eapply regp_grown; [constructor|apply grown_bif|assumption].
Qed.

Lemma passes_ok d : foldM (refine_pass predicate N N) (Leaf (root_block N N)) (seq 0 d) = Ok (passes d).
Proof.
  assert (G : forall n s, foldM (refine_pass predicate N N) (passes s) (seq s n) = Ok (passes (s + n))).
  { induction n as [|n IH]; intros s; [rewrite Nat.add_0_r; reflexivity|]. cbn [seq foldM].
    assert (E : refine_pass predicate N N (passes s) s = Ok (passes (S s))).
    { rewrite passes_S. unfold refine_pass, pass. destruct (passes_facts s) as (W & _ & R). pose proof (regp_blocks _ _ W R) as HP. rewrite Forall_forall in HP.
      apply bif_total.
      - intros x Hx. rewrite rad_ok by auto. reflexivity.
      - intros x Hx _. apply split4_block. auto. }
    rewrite E. bsimp. rewrite IH. f_equal. f_equal. lia. }
  exact (G d 0%nat).
Qed.

(** ** Which blocks are refined *)
Definition wanted (p : list nat) : Prop := forall q r, p = q ++ r -> predicate (length q) (block_radius N (addr 2 q)) = true.

Lemma radius_pos i : (0 <= block_radius N i)%R.
Proof. apply sqrt_pos. Qed.

Lemma bif_node_path t p f q (cs : list (tree (array (R * R)))) : (forall a, length (f a) = 4%nat) -> node_path q (bifurcate_if p f t) = Some (Node cs) ->
  (exists ds, node_path q t = Some (Node ds)) \/ (exists a, node_path q t = Some (Leaf a) /\ p a = true).
Proof.
  intros Hf E. rewrite bif_path in E. destruct (node_path q t) as [[a|ds]|].
  - right. exists a. cbn [bifurcate_if] in E. destruct (p a); [split; reflexivity|discriminate].
  - left. eauto.
  - destruct (rev q) as [|k r]; [discriminate|]. destruct (node_path (rev r) t) as [[a|ds]|]; try discriminate.
    destruct (p a); [|discriminate]. destruct (nth_error (f a) k); discriminate.
Qed.

Lemma passes_refined d : antitone predicate -> forall p, path_ok 2 p ->
  ((exists cs, node_path p (passes d) = Some (Node cs)) <-> (length p < d)%nat /\ wanted p).
Proof.
  intros HA. induction d as [|d IH]; intros p Hp.
  - split; [|lia]. intros (cs & E). destruct p; discriminate.
  - destruct (passes_facts d) as (W & D & R). rewrite passes_S. unfold pass. split.
    + intros (cs & E). apply bif_node_path in E; [|exact split4_length]. destruct E as [H|(a & Ea & Pa)].
      * apply IH in H; [|assumption]. split; [lia|apply H].
      * assert (HL : (length p <= d)%nat) by (apply depth_path in Ea; lia). split; [lia|].
        intros q r Eq. pose proof (R p a Hp Ea) as Ra. cbn [app] in Ra.
        destruct (list_eq_dec Nat.eq_dec r []) as [->|Hr].
        -- rewrite app_nil_r in Eq. subst q. rewrite (rad_regular a p Hp Ra) in Pa. apply (HA _ d); [apply radius_pos|assumption|assumption].
        -- assert (Hq : path_ok 2 q) by (rewrite Eq in Hp; apply Forall_app in Hp; apply Hp).
           assert (HW : exists cs, node_path q (passes d) = Some (Node cs)).
           { rewrite Eq, node_path_app in Ea. destruct (node_path q (passes d)) as [[x|ds]|]; [|eauto|discriminate]. destruct r; [congruence|discriminate]. }
           apply IH in HW; [|assumption]. apply (proj2 HW q []). rewrite app_nil_r. reflexivity.
    + intros [HL HW]. rewrite bif_path.
      assert (C : (exists cs, node_path p (passes d) = Some (Node cs)) \/ (exists a, node_path p (passes d) = Some (Leaf a) /\ length p = d)).
      { destruct (Nat.eq_dec (length p) d) as [Ed|Hd]; [|left; apply IH; [assumption|split; [lia|assumption]]].
        destruct (list_eq_dec Nat.eq_dec p []) as [->|Hne].
        { cbn [length node_path] in *. subst d. right. eexists. split; reflexivity. }
        destruct (path_snoc p Hne) as (q & k & ->). apply Forall_app in Hp. destruct Hp as [Hq Hk]. apply Forall_inv in Hk. rewrite app_length in Ed. cbn [length] in Ed.
        assert (X : exists cs, node_path q (passes d) = Some (Node cs)).
        { apply IH; [assumption|]. split; [lia|]. intros q' r Er. apply (HW q' (r ++ [k])). rewrite Er, app_assoc. reflexivity. }
        destruct X as [cs Eq]. rewrite node_path_app, Eq. cbn [node_path]. pose proof (BalanceProofs.node_path_wf 2 q _ _ W Eq) as Wn. apply wf_node_inv in Wn. destruct Wn as [Wn _].
        destruct (nth_error cs k) as [[a|ds]|] eqn:Ec; [right|left; eauto|].
        - exists a. rewrite app_length. cbn [length]. split; [reflexivity|lia].
        - apply nth_error_None in Ec. lia. }
      destruct C as [(cs & E)|(a & E & Ed)]; rewrite E; cbn [bifurcate_if]; [eauto|].
      rewrite (rad_regular a p Hp (R p a Hp E)). rewrite <- Ed. rewrite (HW p [] ltac:(rewrite app_nil_r; reflexivity)). eexists. reflexivity.
Qed.
End Passes.
End Blocks.
