(** Properties C04-C09, C11, C12: trees and tree addresses (src/core_tree.hpp). *)
From Coq Require Import List Arith Bool Lia Permutation.
From Verif Require Import Base TreeModel TreeSpec TreeProofs TreeProofs2 TreeProofs3 TreeProofs4.
Import ListNotations.
Close Scope Z_scope.
Open Scope nat_scope.

(** A quadtree used in the examples: the root is split, and its child number 1 is split again. *)
Definition ex_tree : tree nat :=
  Node [Leaf 10; Node [Leaf 21; Leaf 22; Leaf 23; Leaf 24]; Leaf 30; Leaf 40].
Definition ex_dflt : nat := 0.

Example ex_tree_wf : wf_tree 2 ex_tree.
Proof. repeat constructor. Qed.

(** ** C04: address algebra *)

(** Children of an address: each has the address as its parent, they are distinct and 2^D in
    number, and every address with that parent is one of them. *)
Theorem tree_children_parent : forall i,
  length (child_indexes i) = 2 ^ length (coords i) /\
  NoDup (child_indexes i) /\
  (forall j, In j (child_indexes i) <-> parent_index j = Some i).
Proof.
  intros i. split; [|split].
  - unfold child_indexes. rewrite map_length. apply seq_length.
  - apply child_indexes_nodup.
  - intros j. split; [|apply parent_complete].
    unfold child_indexes. intros H. apply in_map_iff in H. destruct H as (k & <- & _). apply parent_child.
Qed.

Theorem tree_moves_in_range : forall D i, in_range D i ->
  (forall j, In j (child_indexes i) -> in_range D j) /\
  (forall j, parent_index i = Some j -> in_range D j).
Proof.
  intros D i H. split.
  - intros j Hj. unfold child_indexes in Hj. apply in_map_iff in Hj. destruct Hj as (k & <- & _).
    apply child_in_range; auto.
  - intros j Hj. apply (parent_in_range D j i); auto.
Qed.

(** One step forward on an axis, with periodic wrap, then one step back. *)
Theorem tree_next_then_prev : forall D a i, in_range D i -> a < D -> level i < 31 ->
  exists j c, next_on a i = Ok j /\ in_range D j /\ level j = level i /\ prev_on a j = Ok i /\
    nth_error (coords i) a = Some c /\
    coords j = set_nth a (if c + 1 =? 2 ^ level i then 0 else c + 1) (coords i).
Proof. exact next_prev. Qed.

Theorem tree_prev_then_next : forall D a i, in_range D i -> a < D -> level i < 31 ->
  exists j c, prev_on a i = Ok j /\ in_range D j /\ level j = level i /\ next_on a j = Ok i /\
    nth_error (coords i) a = Some c /\
    coords j = set_nth a (if c =? 0 then 2 ^ level i - 1 else c - 1) (coords i).
Proof. exact prev_next. Qed.

(** valid() decides being in range, for every level it is defined on. *)
Theorem tree_valid_decides : forall D i, length (coords i) = D -> level i < 31 ->
  exists b, valid i = Ok b /\ (b = true <-> in_range D i).
Proof. exact valid_spec. Qed.

Theorem tree_index_equality : forall i j,
  (idx_eqb i j = true <-> i = j) /\ idx_neb i j = negb (idx_eqb i j).
Proof. intros; split; [apply idx_eqb_spec|apply idx_neb_spec]. Qed.

Example tree_address_example :
  in_range 2 (mkidx 2 [3; 1]) /\ next_on 0 (mkidx 2 [3; 1]) = Ok (mkidx 2 [0; 1]) /\
  child_indexes (mkidx 2 [3; 1]) =
    [mkidx 3 [6; 2]; mkidx 3 [7; 2]; mkidx 3 [6; 3]; mkidx 3 [7; 3]].
Proof. repeat split; repeat constructor. Qed.

(** ** C05: leaves are found by their own address *)

Theorem tree_leaves_found : forall A D (t : tree A), wf_tree D t -> depth t <= 31 ->
  same_shape (indexes D t) t /\
  Forall (in_range D) (leaves (indexes D t)) /\
  NoDup (leaves (indexes D t)) /\
  Forall2 (fun i v => at_ t i = Ok v) (leaves (indexes D t)) (leaves t) /\
  length (leaves t) = size t.
Proof.
  intros A D t Hwf Hd. split; [apply same_shape_indexes_from|].
  split; [apply indexes_in_range; auto|]. split; [apply indexes_nodup; auto|].
  split; [apply lookup_leaves; auto|]. symmetry. apply size_leaves.
Qed.

Example tree_leaves_example :
  leaves (indexes 2 ex_tree) =
    [mkidx 1 [0; 0]; mkidx 2 [2; 0]; mkidx 2 [3; 0]; mkidx 2 [2; 1]; mkidx 2 [3; 1];
     mkidx 1 [0; 1]; mkidx 1 [1; 1]] /\ depth ex_tree = 2 /\ size ex_tree = 7.
Proof. repeat split. Qed.

(** ** C06: leaves tile the domain *)

Theorem tree_leaves_tile : forall A D (t : tree A) j, wf_tree D t -> in_range D j -> depth t <= level j ->
  exists i, In i (leaves (indexes D t)) /\ covers i j /\
    forall i', In i' (leaves (indexes D t)) -> covers i' j -> i' = i.
Proof. intros; apply tiling_deep; auto. Qed.

Theorem tree_address_is_node_or_below_leaf : forall A D (t : tree A) j,
  wf_tree D t -> in_range D j -> level j <= 31 ->
  (exists n, node_at t j = Ok n) \/
  (node_at t j = Throw OutOfRange /\
   exists i, In i (leaves (indexes D t)) /\ covers i j /\ level i < level j /\
    forall i', In i' (leaves (indexes D t)) -> covers i' j -> i' = i).
Proof. intros; apply tiling_any; auto. Qed.

Example tree_tile_example : in_range 2 (mkidx 3 [5; 2]) /\ depth ex_tree <= 3 /\
  covers (mkidx 2 [2; 1]) (mkidx 3 [5; 2]).
Proof. repeat split; repeat constructor. Qed.

(** ** C07: membership and lookup agree *)

(** For an in-range address exactly one of three cases holds: it names a leaf, a branch, or no node. *)
Theorem tree_membership_agrees : forall A D (t : tree A) i, wf_tree D t -> in_range D i -> level i <= 31 ->
  (exists v, node_at t i = Ok (Leaf v) /\ at_ t i = Ok v /\ find t i = Ok (Some v) /\
             contains t i = Ok true /\ contains_node t i = Ok true) \/
  (exists cs, node_at t i = Ok (Node cs) /\ at_ t i = Throw BadVariantAccess /\
              find t i = Throw BadVariantAccess /\ contains t i = UB /\ contains_node t i = Ok true) \/
  (node_at t i = Throw OutOfRange /\ at_ t i = Throw OutOfRange /\ find t i = Ok None /\
             contains t i = Ok false /\ contains_node t i = Ok false).
Proof. exact @lookup_cases. Qed.

(** Out-of-range addresses name nothing. *)
Theorem tree_out_of_range_rejected : forall A D (dflt v : A) t i,
  wf_tree D t -> length (coords i) = D -> level i <= 31 -> ~ in_range D i ->
  node_at t i = Throw OutOfRange /\ contains_node t i = Ok false /\
  insert dflt t i v = Throw OutOfRange /\ at_ t i = Throw OutOfRange /\ find t i = Ok None.
Proof. exact @out_of_range_ops. Qed.

(** Finding: contains() is undefined exactly for the addresses of branches, for example the root
    address of every branched tree; and find() throws there instead of returning an empty optional. *)
Theorem tree_contains_root_refuted : forall A D (cs : list (tree A)), wf_tree D (Node cs) ->
  contains (Node cs) (root_index D) = UB /\ find (Node cs) (root_index D) = Throw BadVariantAccess.
Proof.
  intros A D cs Hwf. unfold find, at_, node_at, contains, root_index; cbn [level coords node_at_level contains_level].
  assert (E : any_coord (repeat 0 D) = false) by (clear; induction D; auto). rewrite E. auto.
Qed.

Example tree_membership_example :
  contains ex_tree (mkidx 2 [3; 1]) = Ok true /\ contains ex_tree (mkidx 1 [1; 0]) = UB /\
  contains ex_tree (mkidx 2 [0; 1]) = Ok false.
Proof. repeat split. Qed.

(** ** C08: insertion *)

(** Insertion succeeds unless the address names a branch, and the leaves of the new tree are:
    the new one, the old ones that are not above it, and default-valued siblings on the way from
    a leaf that had to be opened. *)
Theorem tree_insert_spec : forall A D (dflt v : A) t i, wf_tree D t -> in_range D i -> level i <= 31 ->
  (forall cs, node_at t i <> Ok (Node cs)) ->
  exists t', insert dflt t i v = Ok t' /\ wf_tree D t' /\
    forall j w, in_range D j -> level j <= 31 ->
      (at_ t' j = Ok w <->
        (j = i /\ w = v) \/
        (~ covers j i /\ at_ t j = Ok w) \/
        (w = dflt /\ ~ covers j i /\ exists p l u, parent_index j = Some p /\ level p < level i /\ covers p i /\
           covers l p /\ in_range D l /\ at_ t l = Ok u)).
Proof. exact @insert_spec. Qed.

Theorem tree_insert_at_branch_throws : forall A D (dflt v : A) t i cs,
  wf_tree D t -> in_range D i -> level i <= 31 ->
  node_at t i = Ok (Node cs) -> insert dflt t i v = Throw OutOfRange.
Proof. exact @insert_branch. Qed.

Example tree_insert_example :
  insert ex_dflt ex_tree (mkidx 2 [1; 2]) 99 =
    Ok (Node [Leaf 10; Node [Leaf 21; Leaf 22; Leaf 23; Leaf 24];
              Node [Leaf 0; Leaf 99; Leaf 0; Leaf 0]; Leaf 40]).
Proof. reflexivity. Qed.

(** ** C09: rebuilding from leaves in any order *)

Theorem tree_rebuilt_in_any_order : forall A (dflt : A) D t l, wf_tree D t -> depth t <= 31 ->
  Permutation l (combine (leaves (indexes D t)) (leaves t)) ->
  foldM (fun u '(i, v) => insert dflt u i v) (Leaf dflt) l = Ok t.
Proof. exact @rebuild_any_order. Qed.

Example tree_rebuild_example :
  foldM (fun u '(i, v) => insert 0 u i v) (Leaf 0)
    (rev (combine (leaves (indexes 2 ex_tree)) (leaves ex_tree))) = Ok ex_tree.
Proof. reflexivity. Qed.

(** ** C11: map and pair *)

Theorem tree_map_laws : forall A B C (f : A -> B) (g : B -> C) (t : tree A),
  same_shape (tmap f t) t /\ leaves (tmap f t) = map f (leaves t) /\
  tmap (fun x => x) t = t /\ tmap g (tmap f t) = tmap (fun x => g (f x)) t.
Proof.
  intros. split; [apply tmap_shape|]. split; [apply tmap_leaves|]. split; [apply tmap_id|apply tmap_comp].
Qed.

Theorem tree_binary_op_same_shape : forall A B C (f : A -> B -> C) t u, same_shape t u ->
  exists r, binary_op f t u = Ok r /\ same_shape r t /\ leaves r = zipw f (leaves t) (leaves u).
Proof. exact @binary_op_ok. Qed.

Theorem tree_binary_op_other_shape_throws : forall A B C D (f : A -> B -> C) t u,
  wf_tree D t -> wf_tree D u -> ~ same_shape t u ->
  binary_op f t u = Throw BadVariantAccess \/ binary_op f t u = Throw InvalidArgument.
Proof. exact @binary_op_fail. Qed.

Theorem tree_any_all_are_over_leaves : forall A (f : A -> bool) t,
  tany f t = existsb f (leaves t) /\ tall f t = forallb f (leaves t).
Proof. intros; split; [apply tany_leaves|apply tall_leaves]. Qed.

(** Pairing a tree with its addresses always succeeds. *)
Theorem tree_pair_indexes_total : forall A D (t : tree A),
  exists r, pair_indexes D t = Ok r /\ leaves r = zipw pair (leaves (indexes D t)) (leaves t).
Proof.
  intros A D t. destruct (binary_op_ok (@pair idx A) (indexes D t) t) as (r & E & _ & L).
  - apply same_shape_indexes_from.
  - exists r. auto.
Qed.

Example tree_pair_example :
  binary_op Nat.add ex_tree (tmap (fun x => 2 * x) ex_tree) = Ok (tmap (fun x => 3 * x) ex_tree) /\
  binary_op Nat.add ex_tree (Leaf 1) = Throw InvalidArgument /\
  binary_op Nat.add (Leaf 1) ex_tree = Throw BadVariantAccess.
Proof. repeat split. Qed.

(** ** C12: update and refinement *)

(** update changes exactly the leaves below the named node (one leaf, if it names a leaf). *)
Theorem tree_update_spec : forall A D (f : A -> A) t i n, wf_tree D t -> in_range D i -> level i <= 31 ->
  node_at t i = Ok n ->
  exists t', update f t i = Ok t' /\ wf_tree D t' /\
    forall j w, in_range D j -> level j <= 31 ->
      (at_ t' j = Ok w <->
        (covers i j /\ exists u, at_ t j = Ok u /\ w = f u) \/ (~ covers i j /\ at_ t j = Ok w)).
Proof. exact @update_spec. Qed.

Theorem tree_update_below_leaf_throws : forall A D (f : A -> A) t i,
  wf_tree D t -> in_range D i -> level i <= 31 ->
  node_at t i = Throw OutOfRange -> update f t i = Throw BadVariantAccess.
Proof. exact @update_fail. Qed.

Theorem tree_refine_spec : forall A D (p : A -> bool) f (t : tree A),
  wf_tree D t -> (forall a, length (f a) = 2 ^ D) ->
  wf_tree D (bifurcate_if p f t) /\
  (forall i a, in_range D i -> level i < 31 -> at_ t i = Ok a ->
     (p a = false -> at_ (bifurcate_if p f t) i = Ok a) /\
     (p a = true -> forall k b, nth_error (f a) k = Some b ->
        at_ (bifurcate_if p f t) (child_index i k) = Ok b)) /\
  leaves (bifurcate_if p f t) = flat_map (fun a => if p a then f a else [a]) (leaves t) /\
  size (bifurcate_if p f t) = size t + (2 ^ D - 1) * length (filter p (leaves t)).
Proof.
  intros A D p f t Hwf Hf. split; [apply bif_wf; auto|]. split; [intros; apply (bif_spec D); auto|].
  split; [apply bif_leaves|apply bif_size; auto].
Qed.

Theorem tree_refine_all_leaves : forall A B (f : A -> list B) t,
  leaves (bifurcate_all f t) = flat_map f (leaves t).
Proof. exact @bif_all_leaves. Qed.

Example tree_refine_example :
  bifurcate_if (fun a => a =? 23) (fun a => [a; a; a + 1; a + 1]) ex_tree =
    Node [Leaf 10; Node [Leaf 21; Leaf 22; Node [Leaf 23; Leaf 23; Leaf 24; Leaf 24]; Leaf 24];
          Leaf 30; Leaf 40] /\
  update S ex_tree (mkidx 1 [1; 0]) =
    Ok (Node [Leaf 10; Node [Leaf 22; Leaf 23; Leaf 24; Leaf 25]; Leaf 30; Leaf 40]).
Proof. repeat split. Qed.

(** C11. The front value is the first leaf. *)
Theorem tree_front_is_first_leaf : forall A D (t : tree A), wf_tree D t -> exists v rest, leaves t = v :: rest /\ front t = Ok v.
Proof.
  intros A D. fix IH 2. intros t H. destruct H as [a|cs HL HF]; [exists a, []; split; reflexivity|].
  destruct cs as [|c cs]; [cbn in HL; pose proof (Nat.pow_nonzero 2 D); lia|].
  assert (HC : wf_tree D c) by (inversion HF; assumption). destruct (IH c HC) as (v & rest & E1 & E2).
  exists v, (rest ++ flat_map leaves cs). cbn [leaves front flat_map]. rewrite E1. split; [reflexivity|exact E2].
Qed.
Example tree_front_example : front ex_tree = Ok 10.
Proof. reflexivity. Qed.

Print Assumptions tree_children_parent.
Print Assumptions tree_moves_in_range.
Print Assumptions tree_next_then_prev.
Print Assumptions tree_prev_then_next.
Print Assumptions tree_valid_decides.
Print Assumptions tree_index_equality.
Print Assumptions tree_leaves_found.
Print Assumptions tree_leaves_tile.
Print Assumptions tree_address_is_node_or_below_leaf.
Print Assumptions tree_membership_agrees.
Print Assumptions tree_out_of_range_rejected.
Print Assumptions tree_contains_root_refuted.
Print Assumptions tree_insert_spec.
Print Assumptions tree_insert_at_branch_throws.
Print Assumptions tree_rebuilt_in_any_order.
Print Assumptions tree_map_laws.
Print Assumptions tree_binary_op_same_shape.
Print Assumptions tree_binary_op_other_shape_throws.
Print Assumptions tree_any_all_are_over_leaves.
Print Assumptions tree_pair_indexes_total.
Print Assumptions tree_update_spec.
Print Assumptions tree_update_below_leaf_throws.
Print Assumptions tree_refine_spec.
Print Assumptions tree_refine_all_leaves.
Print Assumptions tree_front_is_first_leaf.
