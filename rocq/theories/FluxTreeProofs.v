(** Sums of edge fluxes over a quadtree: what leaves one block enters the next. *)
From Coq Require Import List Arith Bool Lia Reals Lra.
From Verif Require Import Base TreeModel TreeSpec TreeProofs TreeProofs2 TreeProofs3 TreeProofs4
  BalanceModel BalanceSpec BalanceProofs.
Import ListNotations.
Close Scope Z_scope.
Open Scope nat_scope.

Definition Rsum (l : list R) : R := fold_right Rplus 0%R l.

Lemma Rsum_app l m : Rsum (l ++ m) = (Rsum l + Rsum m)%R.
Proof. induction l; simpl; [lra|]. rewrite IHl. lra. Qed.

Lemma quad {A} (cs : list (tree A)) : length cs = 2 ^ 2 -> exists c0 c1 c2 c3, cs = [c0; c1; c2; c3].
Proof.
  intros H. change (2 ^ 2) with 4 in H. destruct cs as [|c0 [|c1 [|c2 [|c3 [|]]]]]; simpl in H; try lia. eauto 6.
Qed.

(** Coordinates of an address of rank two. *)
Lemma two_coords i : in_range 2 i -> exists x y, i = mkidx (level i) [x; y] /\ x < 2 ^ level i /\ y < 2 ^ level i.
Proof.
  intros [HL HF]. destruct i as [l c]; cbn [level coords] in *. destruct c as [|x [|y [|]]]; simpl in HL; try lia.
  inversion HF as [|? ? Hx HF2]; subst. inversion HF2; subst. eauto 6.
Qed.

(** The successor on a ring. *)
Definition wrapS (n x : nat) : nat := if S x =? n then 0 else S x.
Lemma wrapS_double n x : wrapS (2 * n) (x * 2 + 1) = wrapS n x * 2 + 0.
Proof. unfold wrapS. destruct (Nat.eqb_spec (S x) n), (Nat.eqb_spec (S (x * 2 + 1)) (2 * n)); lia. Qed.
Lemma wrapS_even n x : x < n -> wrapS (2 * n) (x * 2 + 0) = x * 2 + 1.
Proof. unfold wrapS. destruct (Nat.eqb_spec (S (x * 2 + 0)) (2 * n)); lia. Qed.

Lemma next_coords a i j x y : a < 2 -> i = mkidx (level i) [x; y] -> x < 2 ^ level i -> y < 2 ^ level i -> level i < 31 ->
  (next_on a i = Ok j <->
   j = mkidx (level i) (if a =? 0 then [wrapS (2 ^ level i) x; y] else [x; wrapS (2 ^ level i) y])).
Proof.
  intros Ha Ei Hx Hy Hl.
  assert (Hi : in_range 2 i). { rewrite Ei. split; [reflexivity|]. cbn [level coords]. constructor; [assumption|]. constructor; [assumption|constructor]. }
  destruct (next_prev 2 a i Hi Ha Hl) as (j' & c & E & R & L & _ & N & C). rewrite E.
  assert (Ej : j' = mkidx (level i) (if a =? 0 then [wrapS (2 ^ level i) x; y] else [x; wrapS (2 ^ level i) y])).
  { destruct j' as [l' c']; cbn [level coords] in *. subst l'. f_equal. rewrite Ei in N. rewrite Ei in C. cbn [coords level] in N, C. rewrite C.
    destruct a as [|[|b]]; [| |lia]; cbn in N; injection N as <-; cbn [set_nth]; rewrite Nat.add_1_r; reflexivity. }
  rewrite Ej. split; [intros Q; injection Q as <-; reflexivity|intros ->; reflexivity].
Qed.

Section Sum.
Context {A : Type} (t : tree A).
Hypothesis Hwf : wf_tree 2 t.
Hypothesis Hd : depth t <= 30.

(** A node of the mesh at an address. *)
Definition is_node (i : idx) (n : tree A) : Prop := in_range 2 i /\ level i <= 31 /\ node_at t i = Ok n.

Lemma is_node_path i n : is_node i n <-> exists p, path_ok 2 p /\ length p <= 31 /\ i = addr 2 p /\ node_path p t = Some n.
Proof.
  split.
  - intros (Hi & Hl & E). destruct (in_range_addr 2 i Hi) as (p & Hp & HL & ->). exists p. rewrite node_at_addr in E by (auto; lia).
    destruct (node_path p t) as [m|]; [|discriminate]. injection E as ->. repeat split; auto; lia.
  - intros (p & Hp & HL & -> & E). split; [apply path_in_range|]. split; [exact HL|]. rewrite node_at_addr by auto. rewrite E. reflexivity.
Qed.

Lemma is_node_facts i n : is_node i n -> wf_tree 2 n /\ level i + depth n <= depth t.
Proof.
  intros H. apply is_node_path in H. destruct H as (p & Hp & HL & -> & E).
  split; [exact (node_path_wf 2 p t n Hwf E)|]. apply depth_path in E. exact E.
Qed.

Lemma is_node_root : is_node (root_index 2) t.
Proof. split; [|split; [simpl; lia|reflexivity]]. split; [reflexivity|]. cbn. repeat constructor; lia. Qed.

Lemma is_node_child i cs k c : is_node i (Node cs) -> nth_error cs k = Some c -> is_node (child_index i k) c.
Proof.
  intros H Hk. pose proof (is_node_facts _ _ H) as [W L]. apply wf_node_inv in W. destruct W as [W1 W2].
  assert (Hk4 : k < 2 ^ 2) by (rewrite <- W1; apply nth_error_Some; congruence).
  apply is_node_path in H. destruct H as (p & Hp & HL & -> & E).
  assert (HO : path_ok 2 (p ++ [k])) by (apply Forall_app; split; [assumption|constructor; [assumption|constructor]]).
  cbn [depth] in L. unfold addr in L; cbn [level] in L.
  rewrite child_addr by assumption. apply is_node_path. exists (p ++ [k]). split; [assumption|]. split; [rewrite app_length; simpl; lia|].
  split; [reflexivity|]. rewrite node_path_app, E. cbn [node_path]. rewrite Hk. reflexivity.
Qed.

Lemma is_node_unique i n m : is_node i n -> is_node i m -> n = m.
Proof. intros (_ & _ & E1) (_ & _ & E2). congruence. Qed.

Variable a : nat.
Hypothesis Ha : a < 2.
Variable per : bool.

(** [j] follows [i] on the axis; without [per] not across the edge of the domain. *)
Definition adj (i j : idx) : Prop :=
  next_on a i = Ok j /\ (per = true \/ nth a (coords j) 0 = S (nth a (coords i) 0)).

Variables lo hi : idx -> R.
Hypothesis Hsame : forall i j v w, is_node i (Leaf v) -> is_node j (Leaf w) -> adj i j -> hi i = lo j.
Hypothesis Hfine : forall i j v cs, is_node i (Leaf v) -> is_node j (Node cs) -> adj i j ->
  exists w0 w1 w2 w3, cs = [Leaf w0; Leaf w1; Leaf w2; Leaf w3] /\
  hi i = if a =? 0 then (lo (child_index j 0) + lo (child_index j 2))%R else (lo (child_index j 0) + lo (child_index j 1))%R.
Hypothesis Hcoarse : forall i j cs w, is_node i (Node cs) -> is_node j (Leaf w) -> adj i j ->
  exists w0 w1 w2 w3, cs = [Leaf w0; Leaf w1; Leaf w2; Leaf w3] /\
  lo j = if a =? 0 then (hi (child_index i 1) + hi (child_index i 3))%R else (hi (child_index i 2) + hi (child_index i 3))%R.

(** The sum of [f] over the leaves of a node that touch its low ([s = false]) or high side. *)
Fixpoint edge (f : idx -> R) (s : bool) (i : idx) (n : tree A) : R :=
  match n with
  | Leaf _ => f i
  | Node cs => Rsum (mapi (fun k c => if Bool.eqb (Nat.testbit k a) s then edge f s (child_index i k) c else 0%R) cs)
  end.

Lemma edge_node f s i c0 c1 c2 c3 : edge f s i (Node [c0; c1; c2; c3]) =
  if a =? 0 then if s then (edge f s (child_index i 1) c1 + edge f s (child_index i 3) c3)%R
                 else (edge f s (child_index i 0) c0 + edge f s (child_index i 2) c2)%R
  else if s then (edge f s (child_index i 2) c2 + edge f s (child_index i 3) c3)%R
       else (edge f s (child_index i 0) c0 + edge f s (child_index i 1) c1)%R.
Proof.
  clear Hsame Hfine Hcoarse. cbn [edge]. unfold mapi. cbn [mapi_from Rsum fold_right].
  destruct a as [|[|x]]; [| |lia]; destruct s; cbn; lra.
Qed.

(** Facing children of consecutive nodes are consecutive. *)
Lemma adj_children i j k k' : in_range 2 i -> level i < 30 -> adj i j ->
  (k, k') = (if a =? 0 then (1, 0) else (2, 0)) \/ (k, k') = (if a =? 0 then (3, 2) else (3, 1)) ->
  adj (child_index i k) (child_index j k').
Proof.
  clear Hsame Hfine Hcoarse. intros Hi Hl [E HP] Hk. destruct (two_coords i Hi) as (x & y & Ei & Hx & Hy).
  apply (next_coords a i j x y Ha Ei Hx Hy) in E; [|lia]. rewrite Ei in HP, Hl, Hx, Hy, E |- *. cbn [level] in Hl, Hx, Hy, E. rewrite E in HP |- *.
  clear Ei E Hi. set (l := level i) in *. clearbody l. clear i j.
  assert (H2 : 2 ^ S l = 2 * 2 ^ l) by apply Nat.pow_succ_r'.
  split.
  - destruct a as [|[|b]]; [| |lia]; cbn [Nat.eqb] in *; destruct Hk as [Hk|Hk]; injection Hk as -> ->;
      unfold child_index; cbn [level coords length bits zipw Nat.odd Nat.even negb Nat.div2 Nat.b2n];
      (rewrite (next_coords _ _ _ _ _ Ha eq_refl); cbn [level]; [|rewrite H2; lia|rewrite H2; lia|lia]); cbn [Nat.eqb]; f_equal; f_equal; rewrite ?H2.
    all: try (symmetry; apply wrapS_double). all: f_equal; symmetry; apply wrapS_double.
  - destruct HP as [HP|HP]; [left; exact HP|]. right.
    destruct a as [|[|b]]; [| |lia]; cbn [Nat.eqb] in *; destruct Hk as [Hk|Hk]; injection Hk as -> ->;
      unfold child_index; cbn [level coords length bits zipw Nat.odd Nat.even negb Nat.div2 Nat.b2n nth] in *; lia.
Qed.

(** Within a node, the low children are followed by the high ones. *)
Lemma adj_siblings i k k' : in_range 2 i -> level i < 30 ->
  (k, k') = (if a =? 0 then (0, 1) else (0, 2)) \/ (k, k') = (if a =? 0 then (2, 3) else (1, 3)) ->
  adj (child_index i k) (child_index i k').
Proof.
  clear Hsame Hfine Hcoarse. intros Hi Hl Hk. destruct (two_coords i Hi) as (x & y & Ei & Hx & Hy).
  rewrite Ei in Hl, Hx, Hy |- *. cbn [level] in Hl, Hx, Hy. set (l := level i) in *. clearbody l. clear i Hi Ei.
  assert (H2 : 2 ^ S l = 2 * 2 ^ l) by apply Nat.pow_succ_r'.
  split.
  - destruct a as [|[|b]]; [| |lia]; cbn [Nat.eqb] in *; destruct Hk as [Hk|Hk]; injection Hk as -> ->;
      unfold child_index; cbn [level coords length bits zipw Nat.odd Nat.even negb Nat.div2 Nat.b2n];
      (rewrite (next_coords _ _ _ _ _ Ha eq_refl); cbn [level]; [|rewrite H2; lia|rewrite H2; lia|lia]); cbn [Nat.eqb]; f_equal; f_equal; rewrite ?H2.
    all: try (symmetry; apply wrapS_even; assumption). all: f_equal; symmetry; apply wrapS_even; assumption.
  - right. destruct a as [|[|b]]; [| |lia]; cbn [Nat.eqb] in *; destruct Hk as [Hk|Hk]; injection Hk as -> ->;
      unfold child_index; cbn [level coords length bits zipw Nat.odd Nat.even negb Nat.div2 Nat.b2n nth] in *; lia.
Qed.

Lemma edge_match (n : tree A) : forall m i j, is_node i n -> is_node j m -> adj i j -> edge hi true i n = edge lo false j m.
Proof.
  induction n as [v|cs IH] using tree_ind'; intros m i j Hn Hm Hij.
  - destruct m as [w|ds].
    + cbn [edge]. eapply Hsame; eauto.
    + destruct (Hfine i j v ds Hn Hm Hij) as (w0 & w1 & w2 & w3 & -> & E). rewrite edge_node. cbn [edge]. rewrite E.
      destruct (a =? 0); reflexivity.
  - destruct m as [w|ds].
    + destruct (Hcoarse i j cs w Hn Hm Hij) as (w0 & w1 & w2 & w3 & -> & E). rewrite edge_node. cbn [edge]. rewrite E.
      destruct (a =? 0); reflexivity.
    + pose proof (is_node_facts _ _ Hn) as [Wn Ln]. pose proof (is_node_facts _ _ Hm) as [Wm Lm].
      apply wf_node_inv in Wn. apply wf_node_inv in Wm.
      destruct (quad cs (proj1 Wn)) as (c0 & c1 & c2 & c3 & ->). destruct (quad ds (proj1 Wm)) as (d0 & d1 & d2 & d3 & ->).
      cbn [depth] in Ln. assert (Hl : level i < 30) by lia.
      rewrite !edge_node. rewrite Forall_forall in IH.
      assert (Q : forall k k' c d, nth_error [c0; c1; c2; c3] k = Some c -> nth_error [d0; d1; d2; d3] k' = Some d ->
        (k, k') = (if a =? 0 then (1, 0) else (2, 0)) \/ (k, k') = (if a =? 0 then (3, 2) else (3, 1)) ->
        edge hi true (child_index i k) c = edge lo false (child_index j k') d).
      { intros k k' c d Hc Hdd Hk. apply (IH c (nth_error_In _ _ Hc) d).
        - eapply is_node_child; eauto.
        - eapply is_node_child; eauto.
        - apply adj_children; auto. apply Hn. }
      destruct (a =? 0).
      * rewrite (Q 1 0 c1 d0 eq_refl eq_refl (or_introl eq_refl)), (Q 3 2 c3 d2 eq_refl eq_refl (or_intror eq_refl)). reflexivity.
      * rewrite (Q 2 0 c2 d0 eq_refl eq_refl (or_introl eq_refl)), (Q 3 1 c3 d1 eq_refl eq_refl (or_intror eq_refl)). reflexivity.
Qed.

(** All the leaves of a node together gain what enters through its sides. *)
Lemma edge_sum (n : tree A) : forall i, is_node i n ->
  Rsum (map (fun l => hi l - lo l)%R (leaves (indexes_from i n))) = (edge hi true i n - edge lo false i n)%R.
Proof.
  induction n as [v|cs IH] using tree_ind'; intros i Hn.
  - cbn [indexes_from leaves map Rsum fold_right edge]. lra.
  - pose proof (is_node_facts _ _ Hn) as [Wn Ln]. apply wf_node_inv in Wn.
    destruct (quad cs (proj1 Wn)) as (c0 & c1 & c2 & c3 & ->). cbn [depth] in Ln. assert (Hl : level i < 30) by lia.
    cbn [indexes_from leaves]. unfold mapi. cbn [mapi_from flat_map]. rewrite app_nil_r, !map_app, !Rsum_app.
    rewrite Forall_forall in IH.
    pose proof (IH c0 ltac:(simpl; auto)) as I0. pose proof (IH c1 ltac:(simpl; auto)) as I1.
    pose proof (IH c2 ltac:(simpl; auto)) as I2. pose proof (IH c3 ltac:(simpl; auto)) as I3.
    pose proof (is_node_child i _ 0 c0 Hn eq_refl) as N0. pose proof (is_node_child i _ 1 c1 Hn eq_refl) as N1.
    pose proof (is_node_child i _ 2 c2 Hn eq_refl) as N2. pose proof (is_node_child i _ 3 c3 Hn eq_refl) as N3.
    rewrite (I0 _ N0), (I1 _ N1), (I2 _ N2), (I3 _ N3). rewrite !edge_node.
    pose proof (fun k k' => adj_siblings i k k' (proj1 Hn) Hl) as Q.
    pose proof edge_match as EM. destruct (a =? 0).
    + rewrite (EM c0 c1 _ _ N0 N1 (Q 0 1 (or_introl eq_refl))), (EM c2 c3 _ _ N2 N3 (Q 2 3 (or_intror eq_refl))). lra.
    + rewrite (EM c0 c2 _ _ N0 N2 (Q 0 2 (or_introl eq_refl))), (EM c1 c3 _ _ N1 N3 (Q 1 3 (or_intror eq_refl))). lra.
Qed.

(** On the whole periodic mesh the sum vanishes. *)
Lemma root_adj : per = true -> adj (root_index 2) (root_index 2).
Proof.
  intros Hp. split; [|left; exact Hp]. rewrite (next_coords _ _ _ 0 0 Ha eq_refl); cbn; try lia. destruct (a =? 0); reflexivity.
Qed.
Lemma periodic_sum : per = true -> Rsum (map (fun l => hi l - lo l)%R (leaves (indexes 2 t))) = 0%R.
Proof.
  intros Hp. unfold indexes. rewrite (edge_sum t _ is_node_root). rewrite (edge_match t t _ _ is_node_root is_node_root (root_adj Hp)). lra.
Qed.
End Sum.
