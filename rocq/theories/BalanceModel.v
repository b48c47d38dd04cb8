(** Model of src/mesh_tree_operators.hpp: over_refined_neighbors and ensure_valid_quadtree. *)
From Coq Require Import List Arith Bool.
From Verif Require Import Base TreeModel.
Import ListNotations.
Close Scope Z_scope.
Open Scope nat_scope.

(** core_tree.hpp:574-583: map with a function that can fail; leaves are visited in order. *)
Fixpoint tmapM {A B} (f : A -> outcome B) (t : tree A) : outcome (tree B) :=
  match t with
  | Leaf a => do b <- f a; Ok (Leaf b)
  | Node cs =>
      do ds <- (fix go (l : list (tree A)) : outcome (list (tree B)) :=
                  match l with
                  | [] => Ok []
                  | c :: l' => do d <- tmapM f c; do ds <- go l'; Ok (d :: ds)
                  end) cs;
      Ok (Node ds)
  end.

(** mesh_tree_operators.hpp:96-99: one operand of the disjunction. *)
Definition deep_node {A} (t : tree A) (mj : outcome idx) : outcome bool :=
  do j <- mj;
  do b <- contains_node t j;
  if b then do n <- node_at t j; Ok (1 <? depth n) else Ok false.

(** Short-circuit disjunction. *)
Definition orM (a b : outcome bool) : outcome bool := do x <- a; if x then Ok true else b.

(** mesh_tree_operators.hpp:91-101: over_refined_neighbors, for one leaf address. *)
Definition over_refined_at {A} (t : tree A) (i : idx) : outcome bool :=
  orM (deep_node t (next_on 0 i))
 (orM (deep_node t (prev_on 0 i))
 (orM (deep_node t (next_on 1 i))
      (deep_node t (prev_on 1 i)))).
Definition over_refined_neighbors {A} (t : tree A) : outcome (tree bool) :=
  tmapM (over_refined_at t) (indexes 2 t).

Section ensure.
  (** The element type (a block of vertices) and refine_verts<2>, which maps a block to its four
      children; a parameter here, modelled separately (mesh_prolong_restrict.hpp:290-369). *)
  Context {A : Type} (refine : A -> list A).

  (** mesh_tree_operators.hpp:117-128: map_2nd. *)
  Definition map_2nd (z : bool * A) : list (bool * A) := map (fun y => (fst z, y)) (refine (snd z)).

  (** mesh_tree_operators.hpp:133-136: one pass. *)
  Definition balance_step (t : tree A) : outcome (tree A) :=
    do o <- over_refined_neighbors t;
    do p <- pair_trees o t;
    Ok (tmap snd (bifurcate_if fst map_2nd p)).

  (** mesh_tree_operators.hpp:115-139: ensure_valid_quadtree; the recursion depth is the fuel. *)
  Fixpoint ensure_valid_quadtree (fuel : nat) (t : tree A) : outcome (tree A) :=
    match fuel with
    | 0 => NoFuel
    | S f =>
        do r <- balance_step t;
        do o <- over_refined_neighbors r;
        if tany (fun b => b) o then ensure_valid_quadtree f r else Ok r
    end.
End ensure.
