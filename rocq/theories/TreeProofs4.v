(** Address-level forms of the tree lemmas (paths no longer appear in the statements). *)
From Coq Require Import List Arith Bool Lia Permutation.
From Verif Require Import Base TreeModel TreeSpec TreeProofs TreeProofs2 TreeProofs3.
Import ListNotations.
Close Scope Z_scope.
Open Scope nat_scope.

Definition addr (D : nat) (p : list nat) : idx := mkidx (length p) (of_path D p).

Lemma in_range_addr D i : in_range D i -> exists p, path_ok D p /\ length p = level i /\ i = addr D p.
Proof. intros H. destruct (in_range_path D i H) as (p & H1 & H2 & H3 & _). exists p. auto. Qed.

Lemma addr_inj D p q : path_ok D p -> path_ok D q -> addr D p = addr D q -> p = q.
Proof. intros Hp Hq E. unfold addr in E. injection E as E1 E2. apply (of_path_inj D); auto. Qed.

Lemma at_addr {A} D (t : tree A) p : wf_tree D t -> path_ok D p -> length p <= 31 ->
  forall v, at_ t (addr D p) = Ok v <-> node_path p t = Some (Leaf v).
Proof.
  intros Hwf Hp Hl v. unfold addr. rewrite at_path by auto.
  destruct (node_path p t) as [[]|]; split; intros H; try discriminate; congruence.
Qed.

Lemma covers_addr D p q : path_ok D p -> path_ok D q ->
  (covers (addr D p) (addr D q) <-> exists r, q = p ++ r).
Proof. apply covers_prefix. Qed.

Lemma child_addr D p k : path_ok D p -> k < 2 ^ D -> child_index (addr D p) k = addr D (p ++ [k]).
Proof.
  intros Hp Hk. unfold addr. rewrite <- !ext_root; auto.
  - unfold ext. rewrite fold_left_app. reflexivity.
  - apply Forall_app. split; auto.
Qed.

Lemma parent_addr D p k : path_ok D p -> k < 2 ^ D -> parent_index (addr D (p ++ [k])) = Some (addr D p).
Proof. intros Hp Hk. rewrite <- child_addr by auto. apply parent_child. Qed.

Lemma path_snoc {A} (l : list A) : l <> [] -> exists m a, l = m ++ [a].
Proof. intros H. destruct (exists_last H) as (m & a & E). eauto. Qed.

Lemma node_at_addr {A} D (t : tree A) p : wf_tree D t -> path_ok D p -> length p <= 31 ->
  node_at t (addr D p) = match node_path p t with Some n => Ok n | None => Throw OutOfRange end.
Proof.
  intros. unfold node_at, addr; cbn [level coords].
  rewrite (node_at_path D) by (auto using of_path_length, of_path_bound).
  rewrite path_of_of_path by auto. reflexivity.
Qed.

Lemma insert_spec {A} D (dflt v : A) t i : wf_tree D t -> in_range D i -> level i <= 31 ->
  (forall cs, node_at t i <> Ok (Node cs)) ->
  exists t', insert dflt t i v = Ok t' /\ wf_tree D t' /\
    forall j w, in_range D j -> level j <= 31 ->
      (at_ t' j = Ok w <->
        (j = i /\ w = v) \/
        (~ covers j i /\ at_ t j = Ok w) \/
        (w = dflt /\ ~ covers j i /\ exists p l u, parent_index j = Some p /\ level p < level i /\ covers p i /\
           covers l p /\ in_range D l /\ at_ t l = Ok u)).
Proof.
  intros Hwf Hi Hl Hn. destruct (in_range_addr D i Hi) as (p & Hp & HL & ->).
  unfold addr in Hl; cbn [level] in Hl.
  assert (HI : exists t', ins dflt D v p t = Ok t' /\ wf_tree D t').
  { pose proof (ins_cases D dflt v p t Hwf Hp) as H. rewrite node_at_addr in Hn by auto.
    destruct (node_path p t) as [[]|]; auto. exfalso. eapply Hn. reflexivity. }
  destruct HI as (t' & HI & Hwf'). exists t'. unfold addr at 1. rewrite insert_idx by auto.
  split; [exact HI|]. split; [exact Hwf'|]. intros j w Hj Hlj.
  destruct (in_range_addr D j Hj) as (q & Hq & HLq & ->). unfold addr in Hlj; cbn [level] in Hlj.
  rewrite at_addr by auto. rewrite (ins_node_path D dflt v p t t' q Hwf Hp HI Hq w).
  rewrite at_addr by auto. rewrite covers_addr by auto. split.
  - intros [[-> ->]|[H|(-> & a & q0 & k & k' & r & u & -> & -> & Hne & (s & ->) & Hleaf)]]; auto.
    right; right. split; [reflexivity|].
    apply Forall_app in Hq. destruct Hq as [Hq0 Hk]. inversion Hk; subst.
    assert (Hpo := Hp). apply Forall_app in Hpo. destruct Hpo as [_ Hpo].
    split.
    + intros [r' E]. rewrite <- !app_assoc in E. apply app_inv_head in E. apply app_inv_head in E.
      injection E as E1 E2. congruence.
    + assert (Ha : path_ok D a) by (apply Forall_app in Hq0; tauto).
      exists (addr D (a ++ s)), (addr D a), u.
      split; [apply parent_addr; auto|]. split.
      { unfold addr; cbn [level]. rewrite (app_length (a ++ s)). simpl; lia. }
      split; [apply covers_addr; auto; eauto|].
      split; [apply covers_addr; auto; eauto|]. split; [apply path_in_range|].
      apply at_addr; auto. rewrite !app_length in *. simpl in *. lia.
  - intros [[E ->]|[H|(-> & Hc & pj & l & u & Hpar & Hlt & Hc1 & Hc2 & Hlr & Hleaf)]]; auto.
    { left. split; auto. apply (addr_inj D); auto. }
    right; right. split; [reflexivity|].
    assert (Hq' : q <> []).
    { intros ->. apply Hc. exists p. reflexivity. }
    destruct (path_snoc q Hq') as (q0 & k & ->).
    apply Forall_app in Hq. destruct Hq as [Hq0 Hk]. inversion Hk; subst.
    rewrite parent_addr in Hpar by auto. injection Hpar as <-.
    apply covers_addr in Hc1; auto. destruct Hc1 as [r ->].
    destruct r as [|k' r].
    { exfalso. unfold addr in Hlt; cbn [level] in Hlt. rewrite app_length in Hlt. simpl in Hlt. lia. }
    destruct (in_range_addr D l Hlr) as (a & Ha & HLa & ->).
    apply covers_addr in Hc2; auto. destruct Hc2 as [s ->].
    exists a, (a ++ s), k, k', r, u. repeat split; auto.
    + intros ->. apply Hc. exists r. rewrite <- !app_assoc. reflexivity.
    + exists s. reflexivity.
    + apply at_addr in Hleaf; auto. rewrite !app_length in *. simpl in *. lia.
Qed.

Lemma insert_branch {A} D (dflt v : A) t i cs : wf_tree D t -> in_range D i -> level i <= 31 ->
  node_at t i = Ok (Node cs) -> insert dflt t i v = Throw OutOfRange.
Proof.
  intros Hwf Hi Hl Hn. destruct (in_range_addr D i Hi) as (p & Hp & HL & ->).
  unfold addr in Hl; cbn [level] in Hl. rewrite node_at_addr in Hn by auto.
  pose proof (ins_cases D dflt v p t Hwf Hp) as H. unfold addr. rewrite insert_idx by auto.
  destruct (node_path p t) as [n|]; [|discriminate]. injection Hn as ->. exact H.
Qed.

Lemma in_range_dec D i : in_range D i \/ ~ in_range D i.
Proof.
  unfold in_range. destruct (Nat.eq_dec (length (coords i)) D); [|right; tauto].
  destruct (Forall_dec (fun c => c < 2 ^ level i) (fun c => lt_dec c (2 ^ level i)) (coords i)); tauto.
Qed.

Lemma out_of_range_ops {A} D (dflt v : A) t i : wf_tree D t -> length (coords i) = D -> level i <= 31 ->
  ~ in_range D i -> node_at t i = Throw OutOfRange /\ contains_node t i = Ok false /\
     insert dflt t i v = Throw OutOfRange /\ at_ t i = Throw OutOfRange /\ find t i = Ok None.
Proof.
  intros Hwf HL Hl Hn. assert (HF : ~ Forall (fun x => x < 2 ^ level i) (coords i)).
  { intros HF. apply Hn. split; auto. }
  destruct (node_at_bad D (level i) (coords i) t Hl Hwf HL HF) as [E1 E2].
  assert (EN : node_at t i = Throw OutOfRange) by exact E1.
  split; [exact E1|]. split; [exact E2|]. split; [apply (insert_bad D); auto|].
  unfold find, at_. rewrite EN. auto.
Qed.

Lemma lookup_cases {A} D (t : tree A) i : wf_tree D t -> in_range D i -> level i <= 31 ->
  (exists v, node_at t i = Ok (Leaf v) /\ at_ t i = Ok v /\ find t i = Ok (Some v) /\
             contains t i = Ok true /\ contains_node t i = Ok true) \/
  (exists cs, node_at t i = Ok (Node cs) /\ at_ t i = Throw BadVariantAccess /\
              find t i = Throw BadVariantAccess /\ contains t i = UB /\ contains_node t i = Ok true) \/
  (node_at t i = Throw OutOfRange /\ at_ t i = Throw OutOfRange /\ find t i = Ok None /\
             contains t i = Ok false /\ contains_node t i = Ok false).
Proof.
  intros Hwf Hi Hl. destruct (in_range_addr D i Hi) as (p & Hp & HL & ->).
  assert (Hl' : length p <= 31) by exact Hl.
  pose proof (node_at_addr D t p Hwf Hp Hl') as HN.
  assert (HC : contains_node t (addr D p) = Ok (match node_path p t with Some _ => true | None => false end)).
  { unfold contains_node, addr; cbn [level coords].
    rewrite (contains_node_path D) by (auto using of_path_length, of_path_bound).
    rewrite path_of_of_path by auto. reflexivity. }
  assert (HCC : contains t (addr D p) = match node_path p t with
    | Some (Leaf _) => Ok true | Some (Node _) => UB | None => Ok false end).
  { unfold contains, addr; cbn [level coords].
    rewrite (contains_path D) by (auto using of_path_length, of_path_bound).
    rewrite path_of_of_path by auto. reflexivity. }
  unfold find, at_. rewrite HN, HC, HCC. destruct (node_path p t) as [[a|cs]|]; cbn [bind value].
  - left. exists a. auto.
  - right; left. exists cs. auto.
  - right; right. auto 6.
Qed.

Lemma update_idx {A} D (f : A -> A) (t : tree A) p : wf_tree D t -> path_ok D p -> length p <= 31 ->
  update f t (addr D p) = upd f p t.
Proof.
  intros. unfold update, addr; cbn [level coords].
  rewrite (update_path D) by (auto using of_path_length, of_path_bound).
  rewrite path_of_of_path by auto. reflexivity.
Qed.

Lemma node_path_tmap {A B} (f : A -> B) q : forall t,
  node_path q (tmap f t) = option_map (tmap f) (node_path q t).
Proof.
  induction q as [|k q IH]; intros t; [reflexivity|]. destruct t as [a|cs]; [reflexivity|].
  cbn [tmap node_path]. rewrite nth_error_map. destruct (nth_error cs k); cbn [option_map]; auto.
Qed.

Lemma update_spec {A} D (f : A -> A) t i n : wf_tree D t -> in_range D i -> level i <= 31 ->
  node_at t i = Ok n ->
  exists t', update f t i = Ok t' /\ wf_tree D t' /\
    forall j w, in_range D j -> level j <= 31 ->
      (at_ t' j = Ok w <->
        (covers i j /\ exists u, at_ t j = Ok u /\ w = f u) \/ (~ covers i j /\ at_ t j = Ok w)).
Proof.
  intros Hwf Hi Hl Hn. destruct (in_range_addr D i Hi) as (p & Hp & HL & ->).
  assert (Hl' : length p <= 31) by exact Hl.
  rewrite node_at_addr in Hn by auto. rewrite update_idx by auto.
  pose proof (upd_cases D f p t Hwf Hp) as H.
  destruct (node_path p t) as [n'|] eqn:EN; [|discriminate]. injection Hn as ->.
  destruct H as (t' & E1 & E2 & E3 & E4). exists t'. split; [exact E1|]. split; [exact E2|].
  intros j w Hj Hlj. destruct (in_range_addr D j Hj) as (q & Hq & HLq & ->).
  unfold addr in Hlj; cbn [level] in Hlj. rewrite at_addr, covers_addr by auto.
  assert (DEC : (exists r, q = p ++ r) \/ ~ (exists r, q = p ++ r)).
  { destruct (list_eq_dec Nat.eq_dec (firstn (length p) q) p) as [E|E].
    - left. exists (skipn (length p) q). rewrite <- E at 1. symmetry. apply firstn_skipn.
    - right. intros [r ->]. apply E. rewrite firstn_app, Nat.sub_diag, firstn_all. simpl. apply app_nil_r. }
  destruct DEC as [[r ->]|Hnc].
  - rewrite node_path_app, E3, node_path_tmap.
    assert (HA : forall u, at_ t (addr D (p ++ r)) = Ok u <-> node_path r n = Some (Leaf u)).
    { intros u. rewrite at_addr by auto. rewrite node_path_app, EN. reflexivity. }
    split.
    + intros H. left. split; [eauto|]. destruct (node_path r n) as [[u|]|] eqn:ER; try discriminate.
      cbn [option_map tmap] in H. injection H as <-. exists u. split; auto. apply HA; auto.
    + intros [[_ (u & Hu & ->)]|[H _]]; [|exfalso; eauto].
      apply HA in Hu. rewrite Hu. reflexivity.
  - rewrite at_addr by auto.
    assert (DEC2 : (exists r, p = q ++ r) \/ ~ (exists r, p = q ++ r)).
    { destruct (list_eq_dec Nat.eq_dec (firstn (length q) p) q) as [E|E].
      - left. exists (skipn (length q) p). rewrite <- E at 1. symmetry. apply firstn_skipn.
      - right. intros [r ->]. apply E. rewrite firstn_app, Nat.sub_diag, firstn_all. simpl. apply app_nil_r. }
    destruct DEC2 as [[r ->]|Hnp].
    + (* q is a strict ancestor of p: a branch before and after *)
      assert (Hr : r <> []) by (intros ->; apply Hnc; exists []; rewrite !app_nil_r; reflexivity).
      assert (B : forall u : tree A, (exists m, node_path (q ++ r) u = Some m) -> node_path q u <> Some (Leaf w)).
      { intros u [m Hm] H. rewrite node_path_app, H in Hm. destruct r; [congruence|discriminate]. }
      split.
      * intros H. exfalso. apply (B t'); eauto.
      * intros [[(r' & E) _]|[_ H]].
        -- exfalso. apply Hnc. exists r'. exact E.
        -- exfalso. apply (B t); eauto.
    + rewrite E4 by auto. split; [auto|]. intros [[H _]|[_ H]]; [contradiction|exact H].
Qed.

Lemma update_fail {A} D (f : A -> A) t i : wf_tree D t -> in_range D i -> level i <= 31 ->
  node_at t i = Throw OutOfRange -> update f t i = Throw BadVariantAccess.
Proof.
  intros Hwf Hi Hl Hn. destruct (in_range_addr D i Hi) as (p & Hp & HL & ->).
  assert (Hl' : length p <= 31) by exact Hl.
  rewrite node_at_addr in Hn by auto. rewrite update_idx by auto.
  pose proof (upd_cases D f p t Hwf Hp) as H. destruct (node_path p t); [discriminate|exact H].
Qed.

Lemma list_sum_flat {A} (g : A -> list A) (l : list A) :
  length (flat_map g l) = list_sum (map (fun a => length (g a)) l).
Proof. induction l; simpl; auto. rewrite app_length. congruence. Qed.

Lemma bif_size {A} D (p : A -> bool) f t : (forall a, length (f a) = 2 ^ D) ->
  size (bifurcate_if p f t) = size t + (2 ^ D - 1) * length (filter p (leaves t)).
Proof.
  intros Hf. rewrite !size_leaves, bif_leaves. induction (leaves t) as [|a l IH]; [simpl; lia|].
  cbn [flat_map filter length]. rewrite app_length, IH. pose proof (pow2_pos D).
  destruct (p a); cbn [length]; [rewrite Hf|]; nia.
Qed.

Lemma bif_spec {A} D (p : A -> bool) f t i a : wf_tree D t -> (forall a, length (f a) = 2 ^ D) ->
  in_range D i -> level i < 31 -> at_ t i = Ok a ->
  (p a = false -> at_ (bifurcate_if p f t) i = Ok a) /\
  (p a = true -> forall k b, nth_error (f a) k = Some b ->
     at_ (bifurcate_if p f t) (child_index i k) = Ok b).
Proof.
  intros Hwf Hf Hi Hl Ha. destruct (in_range_addr D i Hi) as (q & Hq & HL & ->).
  assert (Hl' : length q < 31) by exact Hl.
  pose proof (bif_wf D p f t Hf Hwf) as Hwf'.
  apply at_addr in Ha; auto; [|lia]. split.
  - intros Hp. apply at_addr; auto; [lia|]. rewrite bif_path, Ha. cbn [bifurcate_if]. rewrite Hp. reflexivity.
  - intros Hp k b Hb. assert (Hk : k < 2 ^ D) by (rewrite <- (Hf a); apply nth_error_Some; congruence).
    rewrite child_addr by auto. apply at_addr; auto.
    + apply Forall_app. split; auto.
    + rewrite app_length. simpl. lia.
    + rewrite node_path_app, bif_path, Ha. cbn [bifurcate_if]. rewrite Hp.
      cbn [tree_of node_path]. rewrite nth_error_map, Hb. reflexivity.
Qed.
