(** Mesh balancing: termination, result, minimality. *)
From Coq Require Import List Arith Bool Lia.
From Verif Require Import Base TreeModel TreeSpec TreeProofs TreeProofs2 TreeProofs3 TreeProofs4
  BalanceModel BalanceSpec BalanceProofs.
Import ListNotations.
Close Scope Z_scope.
Open Scope nat_scope.

Lemma list_sum_cons a l : list_sum (a :: l) = a + list_sum l.
Proof. reflexivity. Qed.

Section inv.
  Context {A B : Type}.

  Lemma refines_node_path (p : list nat) : forall (t : tree A) (u : tree B) n,
    refines t u -> node_path p t = Some n -> exists n', node_path p u = Some n' /\ refines n n'.
  Proof.
    induction p as [|k p IH]; intros t u n HR Hn.
    - injection Hn as <-. exists u. auto.
    - destruct t as [|cs]; [discriminate|]. inversion HR as [|? ds HF]; subst. cbn [node_path] in *.
      destruct (nth_error cs k) as [c|] eqn:E; [|discriminate].
      assert (HD : exists d, nth_error ds k = Some d /\ refines c d).
      { clear -HF E. revert k E. induction HF as [|c0 d0 cs ds H HF IH]; intros k E; [destruct k; discriminate|].
        destruct k as [|k]; simpl in *; [injection E as ->; eauto|auto]. }
      destruct HD as (d & -> & HR'). eapply IH; eauto.
  Qed.

  Lemma refines_depth (t : tree A) : forall u : tree B, refines t u -> depth t <= depth u.
  Proof.
    induction t as [a|cs IH] using tree_ind'; intros u HR; [simpl; lia|].
    inversion HR as [|? ds HF]; subst. cbn [depth]. apply le_n_S. clear HR.
    induction HF as [|c d cs ds H HF IHF]; [simpl; lia|]. inversion IH; subst.
    cbn [map list_max fold_right]. specialize (IHF H3). pose proof (H2 d H). unfold list_max in IHF. lia.
  Qed.
End inv.

Lemma size_bound {A} D (t : tree A) : wf_tree D t -> size t <= (2 ^ D) ^ depth t.
Proof.
  induction t as [a|cs IH] using tree_ind'; intros Hwf; [simpl; lia|].
  apply wf_node_inv in Hwf. destruct Hwf as [HL HF]. cbn [size depth].
  rewrite Nat.pow_succ_r'. rewrite <- HL at 1.
  assert (H : forall M, Forall (fun c => size c <= M) cs -> list_sum (map size cs) <= length cs * M).
  { clear. intros M. induction 1 as [|c l H _ IHF]; [simpl; lia|]. cbn [map length]. rewrite list_sum_cons. lia. }
  apply H. apply Forall_forall. intros c Hc. rewrite Forall_forall in IH, HF.
  etransitivity; [apply IH; auto|]. apply Nat.pow_le_mono_r; [pose proof (pow2_pos D); lia|].
  pose proof (proj1 (list_max_le (map depth cs) (list_max (map depth cs))) (le_n _)) as HM.
  rewrite Forall_forall in HM. apply HM. apply in_map. exact Hc.
Qed.

Section main.
  Context {A : Type} (refine : A -> list A).
  Hypothesis refine_len : forall a, length (refine a) = 4.

  Lemma grown_refl (t : tree A) : grown refine t t.
  Proof.
    induction t as [a|cs IH] using tree_ind'; constructor.
    induction IH; constructor; auto.
  Qed.

  Lemma Forall2_mapi {X Y} (R : X -> Y -> Prop) (f : nat -> Y -> Y) (l : list X) (m : list Y) :
    Forall2 R l m -> Forall (fun y => forall k x, R x y -> R x (f k y)) m ->
    Forall2 R l (mapi f m).
  Proof.
    unfold mapi. generalize 0 as k. intros k H. revert k.
    induction H; intros k HF; cbn [mapi_from]; constructor; inversion HF; subst; auto.
  Qed.

  Lemma grown_stepI G u : forall t i, grown refine t u -> grown refine t (stepI refine G i u).
  Proof.
    induction u as [a|ds IH] using tree_ind'; intros t i HG; cbn [stepI].
    - inversion HG; subst. destruct (G i); [|constructor]. constructor.
      induction (refine a); constructor; auto. constructor.
    - inversion HG; subst; constructor; apply Forall2_mapi; auto;
        rewrite Forall_forall in *; intros y Hy k x Hx; apply IH; auto.
  Qed.

  Lemma grown_refines (u : tree A) : forall t, grown refine t u -> refines t u.
  Proof.
    induction u as [a|ds IH] using tree_ind'; intros t HG; inversion HG as [| |cs ? HF]; subst; try constructor.
    clear HG. induction HF; constructor; inversion IH; subst; auto.
  Qed.

  (** What one pass does. *)
  Lemma step_facts t : wf_tree 2 t -> depth t <= 30 ->
    exists r, balance_step refine t = Ok r /\ wf_tree 2 r /\ depth r = depth t /\ grown refine t r /\
      ((exists i, In i (leaves (indexes 2 t)) /\ crowded t i) -> size t < size r) /\
      (balanced t -> r = t).
  Proof.
    intros Hwf Hd. eexists. split; [apply balance_step_ok; auto|].
    destruct (over_refined_ok t Hwf Hd) as [_ HF].
    assert (HE : forall p, In p (leaf_paths t) -> In (ext (root_index 2) p) (leaves (indexes 2 t))).
    { intros p Hp. unfold indexes. rewrite leaves_indexes_from. apply in_map. exact Hp. }
    assert (HG : grown refine t (stepI refine (flag t) (root_index 2) t)).
    { apply grown_stepI. apply grown_refl. }
    split; [apply stepI_wf; auto|]. split; [|split; [exact HG|split]].
    - apply Nat.le_antisymm; [|apply refines_depth; apply grown_refines; exact HG].
      apply stepI_depth; auto. intros p Hp Hflag.
      apply HF in Hflag; auto. destruct Hflag as (j & n & Hn & HN & Hdn).
      pose proof (HE p Hp) as Hin. destruct (leaf_index_facts 2 t _ Hwf Hin) as [Hr Hl].
      pose proof (leaf_paths_ok 2 t Hwf) as HO. rewrite Forall_forall in HO.
      rewrite ext_root in * by auto. cbn [level] in Hl.
      destruct (neighbour_in_range _ j Hr) as [Rj Lj]; [cbn [level]; lia|auto|]. cbn [level] in Lj.
      destruct (in_range_addr 2 j Rj) as (q & Hq & HLq & ->). unfold addr in Lj; cbn [level] in Lj.
      rewrite node_at_addr in HN by (auto; lia).
      destruct (node_path q t) as [n'|] eqn:EN; [|discriminate]. injection HN as ->.
      apply depth_path in EN. lia.
    - intros (i & Hi & Hc). unfold indexes in Hi. rewrite leaves_indexes_from in Hi.
      apply in_map_iff in Hi. destruct Hi as (p & <- & Hp).
      apply stepI_size_gt with (p := p); auto. apply HF; auto.
    - intros HB. apply stepI_id. intros p Hp.
      destruct (flag t (ext (root_index 2) p)) eqn:E; auto. exfalso.
      apply HF in E; auto. revert E. apply balanced_iff; auto.
  Qed.

  Lemma check_facts (t : tree A) : wf_tree 2 t -> depth t <= 30 ->
    exists o, over_refined_neighbors t = Ok o /\
      (tany (fun b => b) o = true -> exists i, In i (leaves (indexes 2 t)) /\ crowded t i) /\
      (tany (fun b => b) o = false -> balanced t).
  Proof.
    intros Hwf Hd. destruct (over_refined_ok t Hwf Hd) as [E HF]. eexists. split; [exact E|].
    rewrite tany_leaves, tmap_leaves. split.
    - intros H. apply existsb_exists in H. destruct H as (b & Hb & ->). apply in_map_iff in Hb.
      destruct Hb as (i & Ei & Hi). exists i. split; auto. apply HF; auto.
    - intros H. apply balanced_iff; auto. intros i Hi Hc. apply HF in Hc; auto.
      assert (existsb (fun b => b) (map (flag t) (leaves (indexes 2 t))) = true); [|congruence].
      apply existsb_exists. exists true. split; auto. apply in_map_iff. eauto.
  Qed.

  Lemma Forall2_trans_grown_aux (cs ds es : list (tree A)) :
    Forall (fun e => forall t u, grown refine t u -> grown refine u e -> grown refine t e) es ->
    Forall2 (grown refine) cs ds -> Forall2 (grown refine) ds es -> Forall2 (grown refine) cs es.
  Proof.
    intros HF H1. revert es HF. induction H1; intros es HF H2; inversion H2; subst; constructor.
    - inversion HF; subst; eauto.
    - apply IHForall2; auto. inversion HF; auto.
  Qed.

  Lemma grown_trans (w : tree A) : forall t u, grown refine t u -> grown refine u w -> grown refine t w.
  Proof.
    induction w as [a|es IH] using tree_ind'; intros t u H1 H2.
    - inversion H2; subst. exact H1.
    - inversion H2; subst.
      + inversion H1; subst. exact H2.
      + inversion H1; subst; constructor; eapply Forall2_trans_grown_aux; eauto.
  Qed.

  Lemma ensure_ok fuel : forall t, wf_tree 2 t -> depth t <= 30 -> 4 ^ depth t < fuel + size t ->
    0 < fuel ->
    exists r, ensure_valid_quadtree refine fuel t = Ok r /\ wf_tree 2 r /\ balanced r /\ grown refine t r /\
      depth r = depth t /\ (balanced t -> r = t).
  Proof.
    induction fuel as [|f IH]; intros t Hwf Hd Hf H0; [lia|].
    cbn [ensure_valid_quadtree].
    destruct (step_facts t Hwf Hd) as (r & E & Wr & Dr & Gr & Sr & Br). rewrite E. bsimp.
    destruct (check_facts r Wr) as (o & Eo & HT & HFl); [lia|]. rewrite Eo. bsimp.
    destruct (tany (fun b => b) o) eqn:EA.
    - pose proof (size_bound 2 r Wr) as HB. change (2 ^ 2) with 4 in HB. rewrite Dr in HB.
      destruct (step_facts r Wr) as (r2 & E2 & Wr2 & Dr2 & Gr2 & Sr2 & _); [lia|].
      pose proof (size_bound 2 r2 Wr2) as HB2. change (2 ^ 2) with 4 in HB2. rewrite Dr2, Dr in HB2.
      specialize (Sr2 (HT eq_refl)).
      assert (Hlt : size t < size r).
      { destruct (check_facts t Hwf Hd) as (o' & Eo' & HT' & HFl').
        destruct (tany (fun b => b) o') eqn:EA'; [auto|].
        (* t balanced: r = t is crowded and balanced *)
        exfalso. specialize (HFl' eq_refl). specialize (Br HFl'). subst r.
        destruct (HT eq_refl) as (i & Hi & Hc). revert Hc. apply balanced_iff; auto. }
      destruct (IH r Wr) as (w & Ew & Ww & Bw & Gw & Dw & Iw); try (rewrite Dr; lia); [lia|].
      exists w. split; [exact Ew|]. split; [auto|]. split; [auto|]. split; [eapply grown_trans; eauto|].
      split; [lia|]. intros HBt. specialize (Br HBt). subst r. auto.
    - exists r. split; [reflexivity|]. split; [auto|]. split; [auto|]. split; [auto|]. split; auto.
  Qed.

  (** ** Minimality *)

  Lemma stepI_refines {B} G (t : tree A) : forall i (w : tree B), wf_tree 2 w -> refines t w ->
    (forall p, In p (leaf_paths t) -> G (ext i p) = true -> exists ds, node_path p w = Some (Node ds)) ->
    refines (stepI refine G i t) w.
  Proof.
    induction t as [a|cs IH] using tree_ind'; intros i w Hw HR H; cbn [stepI].
    - destruct (G i) eqn:E; [|constructor].
      destruct (H [] (or_introl eq_refl) E) as [ds Hds]. cbn [node_path] in Hds. injection Hds as ->.
      constructor. apply wf_node_inv in Hw. destruct Hw as [HL _].
      assert (HLL : length (map Leaf (refine a)) = length ds).
      { rewrite map_length, refine_len, HL. reflexivity. }
      revert HLL. generalize (refine a) as l. clear. intros l. revert ds.
      induction l as [|x l IH]; intros [|d ds] HLL; simpl in *; try discriminate; constructor.
      + constructor.
      + apply IH. lia.
    - inversion HR as [|? ds HF]; subst. constructor. apply wf_node_inv in Hw. destruct Hw as [HL HW].
      assert (G1 : forall k c, nth_error cs k = Some c -> forall d, nth_error ds k = Some d ->
        refines (stepI refine G (child_index i k) c) d).
      { intros k c Hk d Hd2. rewrite Forall_forall in IH. apply IH.
        - eapply nth_error_In; eauto.
        - eapply Forall_nth_error; eauto.
        - clear -HF Hk Hd2. revert k Hk Hd2. induction HF; intros [|k] Hk Hd2; simpl in *; try discriminate; eauto.
          congruence.
        - intros p Hp HG. destruct (H (k :: p)) as [es Hes]; auto.
          + apply (leaf_path_child cs k c p Hk); auto.
          + cbn [node_path] in Hes. rewrite Hd2 in Hes. eauto. }
      assert (HLen : length cs = length ds) by (clear -HF; induction HF; simpl; auto).
      clear -G1 HLen. unfold mapi.
      assert (G2 : forall k c, nth_error cs k = Some c -> forall d, nth_error ds k = Some d ->
        refines (stepI refine G (child_index i (0 + k)) c) d) by exact G1.
      clear G1. revert G2. generalize 0 as b. revert ds HLen.
      induction cs as [|c cs IHcs]; intros [|d ds] HLen b G2; simpl in HLen; try discriminate; cbn [mapi_from]; constructor.
      + specialize (G2 0 c eq_refl d eq_refl). rewrite Nat.add_0_r in G2. exact G2.
      + apply IHcs; [lia|]. intros k c' Hc' d' Hd'. specialize (G2 (S k) c' Hc' d' Hd').
        rewrite Nat.add_succ_r in G2. exact G2.
  Qed.

  Lemma step_minimal {B} t (w : tree B) r : wf_tree 2 t -> depth t <= 30 -> wf_tree 2 w -> depth w <= 30 ->
    balanced w -> refines t w -> balance_step refine t = Ok r -> refines r w.
  Proof.
    intros Hwf Hd Hw Hdw HB HR E. rewrite balance_step_ok in E by auto. injection E as <-.
    apply stepI_refines; auto. intros p Hp HG.
    destruct (over_refined_ok t Hwf Hd) as [_ HF].
    assert (Hin : In (ext (root_index 2) p) (leaves (indexes 2 t))).
    { unfold indexes. rewrite leaves_indexes_from. apply in_map. exact Hp. }
    apply HF in HG; auto. destruct HG as (j & n & Hn & HN & Hdn).
    pose proof (leaf_paths_ok 2 t Hwf) as HO. rewrite Forall_forall in HO. specialize (HO p Hp).
    destruct (leaf_index_facts 2 t _ Hwf Hin) as [Hr Hl].
    rewrite ext_root in * by auto. cbn [level] in Hl.
    apply leaf_paths_in in Hp. destruct Hp as [v Hv].
    destruct (refines_node_path p t w _ HR Hv) as (m & Hm & _).
    destruct m as [b|ds]; [|eauto]. exfalso.
    (* the cell is a leaf of w as well, but a neighbour is too deep *)
    assert (Hl31 : level (mkidx (length p) (of_path 2 p)) < 31) by (cbn [level]; lia).
    destruct (neighbour_in_range _ j Hr Hl31 Hn) as [Rj Lj]. cbn [level] in Lj.
    destruct (in_range_addr 2 j Rj) as (q & Hq & HLq & ->).
    rewrite node_at_addr in HN by (auto; lia).
    destruct (node_path q t) as [n'|] eqn:EN; [|discriminate]. injection HN as ->.
    destruct (refines_node_path q t w _ HR EN) as (n2 & Hn2 & HR2).
    pose proof (refines_depth _ _ HR2) as HD2.
    apply (proj1 (balanced_iff w Hw Hdw) HB (mkidx (length p) (of_path 2 p))).
    - apply in_indexes_iff; auto. exists p, b. auto.
    - exists (addr 2 q), n2. split; auto. split; [|lia].
      rewrite node_at_addr by (auto; lia). rewrite Hn2. reflexivity.
  Qed.

  Lemma ensure_minimal {B} (w : tree B) fuel : forall t r, wf_tree 2 t -> depth t <= 30 ->
    wf_tree 2 w -> depth w <= 30 -> balanced w -> refines t w ->
    ensure_valid_quadtree refine fuel t = Ok r -> refines r w.
  Proof.
    induction fuel as [|f IH]; intros t r Hwf Hd Hw Hdw HB HR E; [discriminate|].
    cbn [ensure_valid_quadtree] in E.
    destruct (step_facts t Hwf Hd) as (r1 & E1 & W1 & D1 & _). rewrite E1 in E. revert E. bsimp.
    destruct (check_facts r1 W1) as (o & Eo & _); [lia|]. rewrite Eo. bsimp. intros E.
    assert (HR1 : refines r1 w) by (apply (step_minimal t w r1); auto).
    destruct (tany (fun b => b) o).
    - apply (IH r1 r); auto. lia.
    - injection E as <-. exact HR1.
  Qed.
End main.
