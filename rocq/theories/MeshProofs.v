(** Lemmas: refinement that can fail, and regularity of refined vertex blocks. *)
From Coq Require Import ZArith Reals Lra List Arith Bool Lia.
From Verif Require Import Base TreeModel TreeSpec TreeProofs TreeProofs3 TreeProofs4 BalanceModel BalanceSpec BalanceProofs BalanceProofs2
  NdModel NdSpec NdProofs NdOpsModel NdOpsProofs ProlongModel ProlongProofs GuardSpec GuardProofs GuardProofs2 MeshModel MeshSpec.
Import ListNotations.
Close Scope Z_scope.
Open Scope nat_scope.

Definition bif_list {A} (p : A -> outcome bool) (f : A -> outcome (list A)) : list (tree A) -> outcome (list (tree A)) :=
  fix go l := match l with [] => Ok [] | c :: l' => do d <- bifurcate_ifM p f c; do ds <- go l'; Ok (d :: ds) end.
Lemma bif_node {A} p f (cs : list (tree A)) : bifurcate_ifM p f (Node cs) = do ds <- bif_list p f cs; Ok (Node ds).
Proof. reflexivity. Qed.

Lemma bif_total {A} (p : A -> outcome bool) f (p' : A -> bool) f' t :
  (forall x, In x (leaves t) -> p x = Ok (p' x)) -> (forall x, In x (leaves t) -> p' x = true -> f x = Ok (f' x)) ->
  bifurcate_ifM p f t = Ok (bifurcate_if p' f' t).
Proof.
  induction t as [a|cs IH] using tree_ind'; intros H1 H2.
  - cbn [bifurcate_ifM bifurcate_if]. rewrite H1 by (left; reflexivity). bsimp. destruct (p' a) eqn:E; [|reflexivity].
    rewrite H2 by (auto; left; reflexivity). reflexivity.
  - rewrite bif_node. cbn [bifurcate_if leaves] in *.
    assert (E : bif_list p f cs = Ok (map (bifurcate_if p' f') cs)).
    { induction IH as [|c cs Hc Hcs IHcs]; [reflexivity|]. cbn [bif_list map]. cbn [flat_map] in *.
      rewrite Hc; [|intros x Hx; apply H1; apply in_or_app; left; assumption|intros x Hx; apply H2; apply in_or_app; left; assumption]. bsimp.
      fold (bif_list p f). rewrite IHcs; [reflexivity| |]; intros x Hx; [apply H1|apply H2]; apply in_or_app; right; assumption. }
    rewrite E. reflexivity.
Qed.

Section Total.
Context {A : Type} (P : A -> Prop) (refine : A -> outcome (list A)) (refine' : A -> list A).
Hypothesis HR : forall a, P a -> refine a = Ok (refine' a) /\ Forall P (refine' a).
Hypothesis HL : forall a, length (refine' a) = 4.

Lemma pair_leaves {X} (w : tree X) : forall (t : tree A) p, pair_trees w t = Ok p -> forall z, In z (leaves p) -> In (snd z) (leaves t).
Proof.
  unfold pair_trees. induction w as [x|os IH] using tree_ind'; intros [a|cs] p E z Hz; try discriminate.
  - cbn in E. injection E as <-. cbn [leaves] in *. destruct Hz as [<-|[]]. left. reflexivity.
  - rewrite binary_op_node in E. destruct (bin_list pair os cs) as [ps| | |] eqn:EL; try discriminate. cbn [bind] in E. injection E as <-.
    cbn [leaves] in *. revert cs ps EL Hz. induction IH as [|o os Ho Hos IHos]; intros [|c cs] ps EL Hz; cbn [bin_list] in EL; try discriminate.
    + injection EL as <-. destruct Hz.
    + injection EL as <-. destruct Hz.
    + destruct (TreeModel.binary_op pair o c) as [q| | |] eqn:Eq; try discriminate. cbn [bind] in EL.
      destruct (bin_list pair os cs) as [qs| | |] eqn:Eqs; try discriminate. cbn [bind] in EL. injection EL as <-.
      cbn [flat_map] in *. apply in_or_app. apply in_app_or in Hz. destruct Hz as [Hz|Hz]; [left; eapply Ho; eassumption|right; eapply IHos; eassumption].
Qed.

Lemma grown_leaves t : forall u, grown refine' u t -> Forall P (leaves u) -> Forall P (leaves t).
Proof.
  assert (K : forall a, Forall P (leaves (@Leaf A a)) -> P a) by (intros a H; exact (Forall_inv H)).
  assert (G : forall cs ds, Forall (fun t => forall u, grown refine' u t -> Forall P (leaves u) -> Forall P (leaves t)) ds ->
     Forall2 (grown refine') cs ds -> Forall P (flat_map leaves cs) -> Forall P (flat_map leaves ds)).
  { intros cs ds IH H. induction H as [|c d cs ds Hc Hcs IHcs]; intros HP; [constructor|]. cbn [flat_map] in *.
    apply Forall_app in HP. destruct HP as [H1 H2]. apply Forall_app. split; [exact (Forall_inv IH c Hc H1)|exact (IHcs (Forall_inv_tail IH) H2)]. }
  induction t as [a|ds IH] using tree_ind'; intros u HG HP; inversion HG as [|b ds' HF|cs ds' HF]; subst; auto.
  - cbn [leaves]. apply (G _ _ IH HF). apply K in HP. apply HR in HP. destruct HP as [_ HP].
    clear -HP. induction HP; cbn [map flat_map leaves app]; constructor; auto.
  - cbn [leaves]. apply (G _ _ IH HF HP).
Qed.

Lemma stepM_total t : Forall P (leaves t) -> balance_stepM refine t = balance_step refine' t.
Proof.
  intros HP. unfold balance_stepM, balance_step. destruct (over_refined_neighbors t) as [o| | |]; bsimp; try reflexivity.
  destruct (pair_trees o t) as [p| | |] eqn:E; bsimp; try reflexivity.
  rewrite (bif_total _ _ fst (map_2nd refine')); [bsimp; reflexivity|reflexivity|].
  intros z Hz _. rewrite Forall_forall in HP. destruct (HR (snd z) (HP _ (pair_leaves _ _ _ E z Hz))) as [-> _]. reflexivity.
Qed.

Lemma ensureM_total fuel : forall t, Forall P (leaves t) -> wf_tree 2 t -> depth t <= 30 ->
  ensure_valid_quadtreeM refine fuel t = ensure_valid_quadtree refine' fuel t.
Proof.
  induction fuel as [|f IH]; intros t HP W Hd; [reflexivity|]. cbn [ensure_valid_quadtreeM ensure_valid_quadtree].
  rewrite stepM_total by assumption. destruct (step_facts refine' HL t W Hd) as (r & E & Wr & Dr & Gr & _). rewrite E. bsimp.
  destruct (over_refined_neighbors r) as [o| | |]; bsimp; try reflexivity. destruct (tany (fun b => b) o); [|reflexivity].
  apply IH; auto; [|lia]. exact (grown_leaves r t Gr HP).
Qed.

(** Passes of refinement. *)
Lemma grown_bif (p : A -> bool) t : grown refine' t (bifurcate_if p refine' t).
Proof.
  induction t as [a|cs IH] using tree_ind'; cbn [bifurcate_if].
  - destruct (p a); [|constructor]. constructor. induction (refine' a); constructor; auto. constructor.
  - constructor. induction IH; constructor; auto.
Qed.
Lemma depth_bif (p : A -> bool) t : depth (bifurcate_if p refine' t) <= S (depth t).
Proof.
  induction t as [a|cs IH] using tree_ind'; cbn [bifurcate_if depth].
  - destruct (p a); cbn [depth tree_of]; [|lia]. apply le_n_S. apply list_max_le. apply Forall_forall. intros x Hx. rewrite map_map in Hx.
    apply in_map_iff in Hx. destruct Hx as (? & <- & _). reflexivity.
  - apply le_n_S. apply list_max_le. apply Forall_forall. intros x Hx. rewrite map_map in Hx. apply in_map_iff in Hx. destruct Hx as (c & <- & Hc).
    rewrite Forall_forall in IH. etransitivity; [apply IH; assumption|]. apply le_n_S.
    pose proof (proj1 (list_max_le (map depth cs) _) (le_n _)) as HM. rewrite Forall_forall in HM. apply HM. apply in_map. assumption.
Qed.
Lemma wf_bif (p : A -> bool) t : wf_tree 2 t -> wf_tree 2 (bifurcate_if p refine' t).
Proof.
  induction t as [a|cs IH] using tree_ind'; intros W; cbn [bifurcate_if].
  - destruct (p a); [|constructor]. constructor; [rewrite map_length; apply HL|]. apply Forall_forall. intros x Hx. apply in_map_iff in Hx. destruct Hx as (? & <- & _). constructor.
  - apply wf_node_inv in W. destruct W as [W1 W2]. constructor; [rewrite map_length; assumption|]. rewrite Forall_forall in *.
    intros x Hx. apply in_map_iff in Hx. destruct Hx as (c & <- & Hc). auto.
Qed.
End Total.
