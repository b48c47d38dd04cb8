(** Building the quadtree of vertex blocks: create_vertex_quadtree (src/mesh_tree_operators.hpp), create_vertices
    (src/subprog_binary.cpp), cell centres and cell areas (src/subprog_binary_solver_data.cpp).  Lengths are exact real
    numbers, a location is a pair.  Evaluation to memory (nd::to_shared, shared) is left out; it keeps shape and
    elements (NdProps). *)
From Coq Require Import ZArith Reals List Bool.
From Verif Require Import Base TreeModel BalanceModel NdModel NdOpsModel ProlongModel.
Import ListNotations.
Close Scope Z_scope.
Open Scope nat_scope.

(** Sum of two locations and half of one: src/core_sequence.hpp 402-405, 415-418. *)
Definition loc_add (p q : R * R) : R * R := (fst p + fst q, snd p + snd q)%R.
Definition loc_half (p : R * R) : R * R := (fst p / 2, snd p / 2)%R.
Definition loc_scale (c : R) (p : R * R) : R * R := (fst p * c, snd p * c)%R.

(** bifurcate_if, src/core_tree.hpp 837-845, with functions that can fail. *)
Fixpoint bifurcate_ifM {A} (p : A -> outcome bool) (f : A -> outcome (list A)) (t : tree A) : outcome (tree A) :=
  match t with
  | Leaf a => do b <- p a; if b then do cs <- f a; Ok (tree_of cs) else Ok t
  | Node cs =>
      do ds <- (fix go (l : list (tree A)) : outcome (list (tree A)) :=
                  match l with
                  | [] => Ok []
                  | c :: l' => do d <- bifurcate_ifM p f c; do ds <- go l'; Ok (d :: ds)
                  end) cs;
      Ok (Node ds)
  end.

(** The element at an index of the cartesian product of two arrays, src/core_ndarray.hpp 1676-1686; the shape is made of
    the sizes of the two. *)
Definition cartesian_product {A B} (a : array A) (b : array B) : array (A * B) :=
  mkarr [volume (ashape a); volume (ashape b)]
        (fun i => do x <- aget a [nth 0 i 0%Z]; do y <- aget b [nth 1 i 0%Z]; Ok (x, y)).

(** linspace(-1, 1, n + 1), src/mesh_tree_operators.hpp 170-171. *)
Definition unit_points (n : Z) : array R := linspace Rplus Rminus Rmult Rdiv IZR (-1)%R 1%R (w64 (n + 1)%Z).

(** The block of the root, src/mesh_tree_operators.hpp 172-175. *)
Definition root_block (nx ny : Z) : array (R * R) := cartesian_product (unit_points nx) (unit_points ny).

(** centroid_radius, src/mesh_tree_operators.hpp 164-168. *)
Definition centroid_radius (nx ny : Z) (b : array (R * R)) : outcome R :=
  do p <- aget b [0; 0]%Z;
  do q <- aget b [nx; ny];
  let c := loc_half (loc_add p q) in
  Ok (sqrt (fst c * fst c + snd c * snd c)).

(** refine_verts<2>, src/mesh_prolong_restrict.hpp 311-322. *)
Definition refine_locations : array (R * R) -> outcome (list (array (R * R))) := refine_verts loc_add loc_half (seq 0 2).

(** One pass of the loop, src/mesh_tree_operators.hpp 179-187. *)
Definition refine_pass (predicate : nat -> R -> bool) (nx ny : Z) (t : tree (array (R * R))) (i : nat) : outcome (tree (array (R * R))) :=
  bifurcate_ifM (fun b => do r <- centroid_radius nx ny b; Ok (predicate i r)) refine_locations t.

(** ensure_valid_quadtree, src/mesh_tree_operators.hpp 115-139, with a refinement that can fail; BalanceModel has the
    same text with one that cannot.  The recursion has no bound in the source, hence [fuel]. *)
Definition balance_stepM {A} (refine : A -> outcome (list A)) (t : tree A) : outcome (tree A) :=
  do o <- over_refined_neighbors t;
  do p <- pair_trees o t;
  do r <- bifurcate_ifM (fun z => Ok (fst z)) (fun z => do ys <- refine (snd z); Ok (map (fun y => (fst z, y)) ys)) p;
  Ok (tmap snd r).
Fixpoint ensure_valid_quadtreeM {A} (refine : A -> outcome (list A)) (fuel : nat) (t : tree A) : outcome (tree A) :=
  match fuel with
  | 0 => NoFuel
  | S f =>
      do r <- balance_stepM refine t;
      do o <- over_refined_neighbors r;
      if tany (fun b => b) o then ensure_valid_quadtreeM refine f r else Ok r
  end.

(** create_vertex_quadtree, src/mesh_tree_operators.hpp 158-190. *)
Definition create_vertex_quadtree (fuel : nat) (predicate : nat -> R -> bool) (nx ny : Z) (depth : nat) : outcome (tree (array (R * R))) :=
  do t <- foldM (refine_pass predicate nx ny) (Leaf (root_block nx ny)) (seq 0 depth);
  ensure_valid_quadtreeM refine_locations fuel t.

(** create_vertices, src/subprog_binary.cpp 166-183, without the reading of the options; [predicate] is
    refinement_radius there. *)
Definition create_vertices (fuel : nat) (predicate : nat -> R -> bool) (block_size : Z) (depth : nat) (domain_radius : R)
    : outcome (tree (array (R * R))) :=
  do t <- create_vertex_quadtree fuel predicate block_size block_size depth;
  Ok (tmap (arr_map (loc_scale domain_radius)) t).

(** refinement_radius, src/subprog_binary.cpp 174-177.  std::pow(0, x) is 1 for x = 0, 0 for x > 0 and infinity for
    x < 0; the quotient is then focus_factor, infinity (of the sign of focus_factor; a NaN for zero) and 0. *)
Definition refinement_radius (focus_factor focus_index : R) (level : nat) (r : R) : bool :=
  match level with
  | 0 =>
      if Rlt_dec focus_index 0 then if Rlt_dec r 0 then true else false
      else if Rlt_dec 0 focus_index then if Rlt_dec 0 focus_factor then true else false
      else if Rlt_dec r focus_factor then true else false
  | _ => if Rlt_dec r (focus_factor / Rpower (INR level) focus_index) then true else false
  end.

(** The lambda of cell_centers, src/subprog_binary_solver_data.cpp 22-27. *)
Definition cell_centers (b : array (R * R)) : outcome (array (R * R)) :=
  do m <- midpoint_on_axis loc_add loc_half 0 b; midpoint_on_axis loc_add loc_half 1 m.

(** The lambda of cell_areas, src/subprog_binary_solver_data.cpp 29-34. *)
Definition cell_areas (b : array (R * R)) : outcome (array R) :=
  do d <- difference_on_axis Rminus 0 (arr_map fst b);
  do dx <- midpoint_on_axis Rplus (fun x => x / 2)%R 1 d;
  do e <- difference_on_axis Rminus 1 (arr_map snd b);
  do dy <- midpoint_on_axis Rplus (fun x => x / 2)%R 0 e;
  NdModel.binary_op Rmult dx dy.
