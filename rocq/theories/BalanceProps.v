(** C13: mesh balancing (src/mesh_tree_operators.hpp, ensure_valid_quadtree). *)
From Coq Require Import List Arith Bool Lia.
From Verif Require Import Base TreeModel TreeSpec TreeProofs TreeProofs2 TreeProofs3 TreeProofs4
  BalanceModel BalanceSpec BalanceProofs BalanceProofs2.
Import ListNotations.
Close Scope Z_scope.
Open Scope nat_scope.

Lemma ensure_more_fuel {A} (refine : A -> list A) f : forall t r,
  ensure_valid_quadtree refine f t = Ok r -> forall g, f <= g -> ensure_valid_quadtree refine g t = Ok r.
Proof.
  induction f as [|f IH]; intros t r E g Hg; [discriminate|].
  destruct g as [|g]; [lia|]. cbn [ensure_valid_quadtree] in *.
  destruct (balance_step refine t) as [u| | |] eqn:E1; try discriminate. revert E; bsimp.
  destruct (over_refined_neighbors u) as [o| | |]; bsimp; try discriminate.
  destruct (tany (fun b => b) o); auto. intros E. apply (IH u r E). lia.
Qed.

(** Balancing ends on every quadtree of depth at most 30; the result is balanced, comes from the
    given tree by splitting leaves with [refine] and in no other way, and is no deeper. *)
Theorem balance_ends_balanced {A} (refine : A -> list A) (t : tree A) :
  (forall a, length (refine a) = 4) -> wf_tree 2 t -> depth t <= 30 ->
  exists r, (forall fuel, 4 ^ depth t < fuel -> ensure_valid_quadtree refine fuel t = Ok r) /\
    wf_tree 2 r /\ balanced r /\ grown refine t r /\ depth r = depth t.
Proof.
  intros HL Hwf Hd.
  destruct (ensure_ok refine HL (S (4 ^ depth t)) t Hwf Hd) as (r & E & W & B & G & D & _); [lia|lia|].
  exists r. repeat split; auto. intros fuel Hf. apply (ensure_more_fuel refine _ t r E). lia.
Qed.

(** A balanced tree is returned unchanged. *)
Theorem balance_keeps_balanced {A} (refine : A -> list A) (t : tree A) :
  (forall a, length (refine a) = 4) -> wf_tree 2 t -> depth t <= 30 -> balanced t ->
  forall fuel, 0 < fuel -> ensure_valid_quadtree refine fuel t = Ok t.
Proof.
  intros HL Hwf Hd HB fuel Hf. apply (ensure_more_fuel refine 1); [|lia].
  cbn [ensure_valid_quadtree].
  destruct (step_facts refine HL t Hwf Hd) as (r & E & _ & _ & _ & _ & Br).
  rewrite E, (Br HB). bsimp. destruct (check_facts t Hwf Hd) as (o & Eo & HT & _). rewrite Eo. bsimp.
  destruct (tany (fun b => b) o); auto. destruct (HT eq_refl) as (i & Hi & Hc).
  exfalso. revert Hc. apply balanced_iff; auto.
Qed.

(** The result is the coarsest balanced refinement: every balanced refinement of the given tree also
    refines the result, so no leaf is split without need. *)
Theorem balance_minimal {A B} (refine : A -> list A) (t r : tree A) (w : tree B) fuel :
  (forall a, length (refine a) = 4) -> wf_tree 2 t -> depth t <= 30 ->
  ensure_valid_quadtree refine fuel t = Ok r ->
  wf_tree 2 w -> depth w <= 30 -> balanced w -> refines t w -> refines r w.
Proof. intros HL Hwf Hd E Hw Hdw HB HR. exact (ensure_minimal refine HL w fuel t r Hwf Hd Hw Hdw HB HR E). Qed.

(** A mesh refined toward its centre from one side only: three passes are needed, and the leaf values
    (numbers whose quotient by four is the parent) show which leaves were split. *)
Definition split4 (n : nat) : list nat := [4 * n; 4 * n + 1; 4 * n + 2; 4 * n + 3].
Definition lopsided : tree nat :=
  Node [Node [Leaf 20; Leaf 21; Leaf 22; Node [Leaf 92; Leaf 93; Leaf 94; Node [Leaf 380; Leaf 381; Leaf 382; Leaf 383]]];
        Leaf 6; Leaf 7; Leaf 8].
Example balance_example :
  ensure_valid_quadtree split4 2 lopsided = NoFuel /\
  exists r, ensure_valid_quadtree split4 3 lopsided = Ok r /\ size lopsided = 13 /\ depth r = 4 /\
    leaves r = [20; 84; 85; 86; 87; 88; 89; 90; 91; 92; 93; 94; 380; 381; 382; 383; 24; 25; 104; 105; 106; 107;
                27; 28; 116; 117; 118; 119; 30; 31; 32; 33; 34; 35].
Proof.
  split; [vm_compute; reflexivity|]. eexists. split; [vm_compute; reflexivity|]. repeat split; vm_compute; reflexivity.
Qed.

Print Assumptions balance_ends_balanced.
Print Assumptions balance_keeps_balanced.
Print Assumptions balance_minimal.
