(** Flux correction: which blocks are corrected, and what the correction does to the edge sums. *)
From Coq Require Import ZArith List Arith Bool Lia Reals Lra.
From Verif Require Import Base TreeModel TreeSpec TreeProofs TreeProofs2 TreeProofs3 TreeProofs4
  BalanceModel BalanceSpec BalanceProofs NdModel NdSpec NdProofs NdProofs2 NdProofs3 NdOpsModel NdOpsProofs
  ProlongModel ProlongProofs ProlongProps FluxModel FluxTreeProofs.
Import ListNotations.
Close Scope Z_scope.
Open Scope nat_scope.

(** ** Which blocks are corrected *)

Lemma contains_compiled_path {A} D l : forall c (t : tree A), l <= 31 -> wf_tree D t ->
  length c = D -> Forall (fun x => x < 2 ^ l) c ->
  contains_compiled_level l c t =
    match node_path (path_of l c) t with
    | Some (Leaf _) => Ok true
    | _ => Ok false
    end.
Proof.
  induction l as [|l IH]; intros c t Hl Hwf HL HF.
  - cbn [contains_compiled_level path_of node_path]. destruct t as [a|cs]; cbn [has_value]; [|reflexivity].
    rewrite any_coord_zero by auto. reflexivity.
  - cbn [contains_compiled_level path_of node_path].
    destruct t as [a|cs]; cbn [has_value]; [reflexivity|].
    apply wf_node_inv in Hwf. destruct Hwf as [Hlen Hall].
    rewrite orthant_ok by lia. bsimp.
    destruct (child_at_ok D cs (map (fun x => negb (x / 2 ^ l =? 0)) c)) as (t' & E & ->); auto.
    { rewrite map_length; auto. }
    bsimp. rewrite advance_ok by (auto; lia). bsimp. cbn [coords]. rewrite E.
    apply IH; try lia.
    + eapply Forall_nth_error; eauto.
    + rewrite map_length; auto.
    + apply mod_forall.
Qed.

Lemma contains_compiled_addr {A} (t : tree A) p : wf_tree 2 t -> path_ok 2 p -> length p <= 31 ->
  contains_compiled t (addr 2 p) = match node_path p t with Some (Leaf _) => Ok true | _ => Ok false end.
Proof.
  intros. unfold contains_compiled, addr; cbn [level coords].
  rewrite (contains_compiled_path 2) by (auto using of_path_length, of_path_bound). rewrite path_of_of_path by auto. reflexivity.
Qed.

(** An ancestor's address. *)
Definition up (d : nat) (i : idx) : idx := mkidx (level i - d) (map (fun c => c / 2 ^ d) (coords i)).

Lemma wrapS_div M m x : 0 < m -> x < M * m -> wrapS (M * m) x / m = x / m \/ wrapS (M * m) x / m = wrapS M (x / m).
Proof.
  intros Hm Hx. assert (HM : x / m < M) by (apply Nat.div_lt_upper_bound; lia).
  pose proof (Nat.div_mod x m ltac:(lia)) as E. pose proof (Nat.mod_upper_bound x m ltac:(lia)) as U.
  unfold wrapS. destruct (Nat.eqb_spec (S x) (M * m)) as [Q|Q].
  - right. rewrite Nat.div_0_l by lia. destruct (Nat.eqb_spec (S (x / m)) M) as [|Q2]; [reflexivity|]. exfalso.
    assert (H : S (x / m) < M) by lia. nia.
  - destruct (Nat.eq_dec (S (x mod m)) m) as [W|W].
    + right. assert (D : S x / m = S (x / m)) by (symmetry; apply (Nat.div_unique _ _ _ 0); nia). rewrite D.
      destruct (Nat.eqb_spec (S (x / m)) M) as [Q2|]; [|reflexivity]. exfalso. apply Q. nia.
    + left. symmetry. apply (Nat.div_unique _ _ _ (S (x mod m))); lia.
Qed.

Lemma up_in_range d i : in_range 2 i -> d <= level i -> in_range 2 (up d i).
Proof.
  intros [HL HF] Hd. split; cbn [up coords level]; [rewrite map_length; assumption|].
  apply Forall_forall. intros c Hc. apply in_map_iff in Hc. destruct Hc as (x & <- & Hx). rewrite Forall_forall in HF.
  apply Nat.div_lt_upper_bound; [pose proof (pow2_pos d); lia|]. rewrite <- Nat.pow_add_r. replace (d + (level i - d)) with (level i) by lia.
  apply HF; assumption.
Qed.

Lemma up_next a d i j : a < 2 -> in_range 2 i -> level i < 31 -> d <= level i -> next_on a i = Ok j ->
  up d j = up d i \/ next_on a (up d i) = Ok (up d j).
Proof.
  intros Ha Hi Hl Hd E. destruct (two_coords i Hi) as (x & y & Ei & Hx & Hy).
  apply (next_coords a i j x y Ha Ei Hx Hy Hl) in E.
  assert (P : 2 ^ level i = 2 ^ (level i - d) * 2 ^ d) by (rewrite <- Nat.pow_add_r; f_equal; lia).
  pose proof (pow2_pos d) as Hm.
  pose proof (up_in_range d i Hi Hd) as [_ HU]. rewrite Ei in HU. cbn [up coords level map] in HU. pose proof (Forall_inv HU) as U1. pose proof (Forall_inv (Forall_inv_tail HU)) as U2. cbv beta in U1, U2.
  rewrite P in E, Hx, Hy.
  assert (N : forall j, next_on a (up d i) = Ok j <-> j = mkidx (level i - d) (if a =? 0 then [wrapS (2 ^ (level i - d)) (x / 2 ^ d); y / 2 ^ d] else [x / 2 ^ d; wrapS (2 ^ (level i - d)) (y / 2 ^ d)])).
  { intros j0. assert (EU : up d i = mkidx (level i - d) [x / 2 ^ d; y / 2 ^ d]) by (rewrite Ei; reflexivity). rewrite EU. apply next_coords; cbn [level]; auto; lia. }
  rewrite N. assert (EI : up d i = mkidx (level i - d) [x / 2 ^ d; y / 2 ^ d]) by (rewrite Ei; reflexivity). rewrite EI, E.
  unfold up; cbn [level coords]. destruct (a =? 0); cbn [map].
  - destruct (wrapS_div (2 ^ (level i - d)) (2 ^ d) x Hm Hx) as [->| ->]; auto.
  - destruct (wrapS_div (2 ^ (level i - d)) (2 ^ d) y Hm Hy) as [->| ->]; auto.
Qed.

Lemma next_neighbour a i j : a < 2 -> in_range 2 i -> level i < 31 -> next_on a i = Ok j -> neighbour i j /\ neighbour j i /\ in_range 2 j /\ level j = level i /\ prev_on a j = Ok i.
Proof.
  intros Ha Hi Hl E. destruct (next_prev 2 a i Hi Ha Hl) as (j' & c & E' & R & L & P & _). rewrite E in E'. injection E' as <-.
  split; [|split; [|split; [|split]]]; auto.
  - apply (neighbour_moves 2); auto. destruct a as [|[|]]; [| |lia]; auto.
  - apply (neighbour_moves 2); auto; [lia|]. destruct a as [|[|]]; [| |lia]; auto.
Qed.

Section Cases.
Context {A : Type} (t : tree A).
Hypothesis Hwf : wf_tree 2 t.
Hypothesis Hd : depth t <= 30.
Hypothesis Hbal : balanced t.

Lemma leaf_in i v : is_node t i (Leaf v) -> In i (leaves (indexes 2 t)).
Proof. intros H. apply (is_node_path t Hwf) in H. destruct H as (p & Hp & HL & -> & E). apply in_indexes_iff; [exact Hwf|]. exists p, v. repeat split; auto. Qed.
Lemma in_leaf i : In i (leaves (indexes 2 t)) -> exists v, is_node t i (Leaf v).
Proof.
  intros H. destruct (leaf_index_facts 2 t i Hwf H) as [_ HL]. apply in_indexes_iff in H; auto. destruct H as (p & v & Hp & -> & E). exists v. apply (is_node_path t Hwf).
  exists p. cbn [level] in HL. repeat split; auto. lia.
Qed.

(** A leaf does not lie below another leaf. *)
Lemma leaf_apart i k v w : is_node t i (Leaf v) -> is_node t k (Leaf w) -> covers k i -> k = i.
Proof.
  intros Hi Hk C. apply (is_node_path t Hwf) in Hi. apply (is_node_path t Hwf) in Hk. destruct Hi as (p & Hp & _ & -> & Ep). destruct Hk as (q & Hq & _ & -> & Eq).
  apply covers_addr in C; auto. destruct C as [r ->]. rewrite node_path_app, Eq in Ep. destruct r; [rewrite app_nil_r; reflexivity|discriminate].
Qed.

(** The neighbouring address of a leaf is a leaf, a branch with four leaves, or lies in a leaf one level coarser. *)
Lemma neighbour_cases i j v : is_node t i (Leaf v) -> neighbour i j -> neighbour j i -> level j = level i -> in_range 2 j ->
  (forall d, d <= level i -> up d j = up d i \/ (neighbour (up d j) (up d i) /\ neighbour (up d i) (up d j))) ->
  (exists w, is_node t j (Leaf w) /\ leave_alone (@contains_compiled) t j = Ok true) \/
  (exists w0 w1 w2 w3, is_node t j (Node [Leaf w0; Leaf w1; Leaf w2; Leaf w3]) /\ leave_alone (@contains_compiled) t j = Ok false) \/
  (exists w, is_node t (up 1 j) (Leaf w) /\ (forall n, ~ is_node t j n) /\ leave_alone (@contains_compiled) t j = Ok true).
Proof.
  intros Hi Hn Hn' HLj Rj HU. pose proof (is_node_facts t Hwf i _ Hi) as [_ HLi]. cbn [depth] in HLi.
  destruct (in_range_addr 2 j Rj) as (q & Hq & HLq & Eq).
  destruct (path_cases 2 q t Hwf Hq) as [[n E]|(p & r & w & -> & Hr & E)].
  - assert (Nj : is_node t j n). { apply (is_node_path t Hwf). exists q. repeat split; auto. lia. }
    destruct n as [w|cs].
    + left. exists w. split; [assumption|]. unfold leave_alone. rewrite Eq, contains_compiled_addr by (auto; lia). rewrite E. reflexivity.
    + right; left.
      assert (D : depth (Node cs) <= 1).
      { destruct (le_lt_dec (depth (Node cs)) 1) as [|Q]; [assumption|]. exfalso.
        apply (proj1 (balanced_iff t Hwf Hd) Hbal i (leaf_in i v Hi)). exists j, (Node cs). split; [assumption|]. split; [apply Nj|assumption]. }
      pose proof (is_node_facts t Hwf j _ Nj) as [W _]. apply wf_node_inv in W. destruct (quad cs (proj1 W)) as (c0 & c1 & c2 & c3 & ->).
      cbn [depth map list_max fold_right] in D.
      assert (L : forall c, depth c = 0 -> wf_tree 2 c -> exists w : A, c = Leaf w) by (intros [w|ds] Q _; [eauto|discriminate]).
      destruct W as [_ W]. pose proof (Forall_inv W) as W0. apply Forall_inv_tail in W. pose proof (Forall_inv W) as W1. apply Forall_inv_tail in W.
      pose proof (Forall_inv W) as W2. apply Forall_inv_tail in W. pose proof (Forall_inv W) as W3.
      destruct (L c0 ltac:(unfold list_max in D; simpl in D; lia) W0) as [w0 ->]. destruct (L c1 ltac:(unfold list_max in D; simpl in D; lia) W1) as [w1 ->].
      destruct (L c2 ltac:(unfold list_max in D; simpl in D; lia) W2) as [w2 ->]. destruct (L c3 ltac:(unfold list_max in D; simpl in D; lia) W3) as [w3 ->].
      exists w0, w1, w2, w3. split; [assumption|]. unfold leave_alone. rewrite Eq, contains_compiled_addr by (auto; lia). rewrite E. bsimp.
      destruct q as [|k q] using rev_ind.
      { (* the neighbour would be the root, and so would the leaf *)
        exfalso. cbn [length] in HLq. assert (level i = 0) by lia. destruct (two_coords i (proj1 Hi)) as (x & y & Ei & Hx & Hy).
        rewrite H in Ei, Hx, Hy. simpl in Hx, Hy. assert (x = 0) by lia. assert (y = 0) by lia. subst x y.
        rewrite Ei in Hi. rewrite Eq in Nj. change (addr 2 []) with (mkidx 0 [0; 0]) in Nj. pose proof (is_node_unique t _ _ _ Nj Hi) as U. discriminate. }
      clear IHq. apply Forall_app in Hq. destruct Hq as [Hq Hk]. apply Forall_inv in Hk. cbv beta in Hk. rewrite app_length in HLq. cbn [length] in HLq.
      assert (EP : parent_index (addr 2 (q ++ [k])) = Some (addr 2 q)).
      { rewrite <- child_addr by assumption. unfold parent_index, child_index, addr; cbn [level coords]. f_equal. f_equal.
        pose proof (of_path_length 2 q) as L2. destruct (of_path 2 q) as [|x [|y [|]]]; simpl in L2; try lia.
        cbn [length bits zipw map]. rewrite !(Nat.mul_comm _ 2).
        assert (DD : forall b z, (2 * z + Nat.b2n b) / 2 = z). { intros b z. symmetry. apply (Nat.div_unique _ _ _ (Nat.b2n b)); [destruct b; simpl; lia|reflexivity]. }
        rewrite !DD. reflexivity. }
      rewrite EP. rewrite contains_compiled_addr by (auto; lia). rewrite node_path_app in E. destruct (node_path q t) as [[x|ds]|]; [|reflexivity|discriminate].
      cbn in E. discriminate.
  - right; right. rewrite app_length in HLq. assert (Hrl : length r <> 0) by (destruct r; simpl; [congruence|lia]).
    apply Forall_app in Hq. destruct Hq as [Hp Hr'].
    assert (Nk : is_node t (addr 2 p) (Leaf w)) by (apply (is_node_path t Hwf); exists p; repeat split; auto; lia).
    assert (EU : up (length r) j = addr 2 p).
    { rewrite Eq. unfold up, addr; cbn [level coords]. rewrite app_length. f_equal; [lia|]. apply map_div_of_path. }
    assert (C : covers (up (length r) i) i).
    { split; cbn [up level coords]; [lia|]. replace (level i - (level i - length r)) with (length r) by lia. reflexivity. }
    destruct (HU (length r) ltac:(lia)) as [EE|[NN _]].
    + exfalso. rewrite EU in EE. rewrite <- EE in C. pose proof (leaf_apart i _ v w Hi Nk C) as X. apply (f_equal level) in X. unfold addr in X; cbn [level] in X. lia.
    + rewrite EU in NN.
      pose proof (Hbal (addr 2 p) (up (length r) i) i (leaf_in _ _ Nk) NN (leaf_in _ _ Hi) C) as B. unfold addr in B; cbn [level] in B.
      assert (L1 : length r = 1) by lia. rewrite L1 in EU. exists w. rewrite EU. split; [assumption|].
      assert (NJ : node_path (p ++ r) t = None). { rewrite node_path_app, E. destruct r; [simpl in L1; lia|reflexivity]. }
      split.
      { intros n Hn2. apply (is_node_path t Hwf) in Hn2. destruct Hn2 as (q2 & Hq2 & _ & E2 & Q2). rewrite Eq in E2. apply addr_inj in E2; auto; [|apply Forall_app; auto]. congruence. }
      unfold leave_alone. rewrite Eq at 1. rewrite contains_compiled_addr by (rewrite ?app_length; try (apply Forall_app); auto; lia). rewrite NJ. bsimp.
      assert (PI : parent_index j = Some (up 1 j)). { unfold parent_index, up. destruct (level j); [lia|]. rewrite Nat.sub_1_r. reflexivity. }
      rewrite PI, EU, contains_compiled_addr by (auto; lia). rewrite E. reflexivity.
Qed.

Lemma next_cases a i j v : a < 2 -> is_node t i (Leaf v) -> next_on a i = Ok j ->
  (exists w, is_node t j (Leaf w) /\ leave_alone (@contains_compiled) t j = Ok true) \/
  (exists w0 w1 w2 w3, is_node t j (Node [Leaf w0; Leaf w1; Leaf w2; Leaf w3]) /\ leave_alone (@contains_compiled) t j = Ok false) \/
  (exists w, is_node t (up 1 j) (Leaf w) /\ (forall n, ~ is_node t j n) /\ leave_alone (@contains_compiled) t j = Ok true).
Proof.
  intros Ha Hi E. pose proof (is_node_facts t Hwf i _ Hi) as [_ HLi]. cbn [depth] in HLi.
  destruct (next_neighbour a i j Ha (proj1 Hi) ltac:(lia) E) as (N1 & N2 & R & L & P).
  apply (neighbour_cases i j v); auto. intros d Hdl.
  destruct (up_next a d i j Ha (proj1 Hi) ltac:(lia) Hdl E) as [Q|Q]; [left; assumption|right].
  destruct (next_neighbour a (up d i) (up d j) Ha (up_in_range d i (proj1 Hi) Hdl) ltac:(cbn [up level]; lia) Q) as (M1 & M2 & _). auto.
Qed.

Lemma prev_cases a i j v : a < 2 -> is_node t i (Leaf v) -> prev_on a i = Ok j ->
  (exists w, is_node t j (Leaf w) /\ leave_alone (@contains_compiled) t j = Ok true) \/
  (exists w0 w1 w2 w3, is_node t j (Node [Leaf w0; Leaf w1; Leaf w2; Leaf w3]) /\ leave_alone (@contains_compiled) t j = Ok false) \/
  (exists w, is_node t (up 1 j) (Leaf w) /\ (forall n, ~ is_node t j n) /\ leave_alone (@contains_compiled) t j = Ok true).
Proof.
  intros Ha Hi E. pose proof (is_node_facts t Hwf i _ Hi) as [_ HLi]. cbn [depth] in HLi.
  destruct (prev_next 2 a i (proj1 Hi) Ha ltac:(lia)) as (j' & c & E' & R & L & P & _). rewrite E in E'. injection E' as <-.
  destruct (next_neighbour a j i Ha R ltac:(lia) P) as (N1 & N2 & _).
  apply (neighbour_cases i j v); auto. intros d Hdl.
  destruct (up_next a d j i Ha R ltac:(lia) ltac:(lia) P) as [Q|Q]; [left; symmetry; assumption|right].
  destruct (next_neighbour a (up d j) (up d i) Ha (up_in_range d j R ltac:(lia)) ltac:(cbn [up level]; lia) Q) as (M1 & M2 & _). auto.
Qed.
End Cases.
