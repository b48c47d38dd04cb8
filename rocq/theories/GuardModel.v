(** Guard zones: retrieving or manufacturing the block at an address (src/mesh_tree_operators.hpp) and
    extending blocks by their neighbours' cells (src/subprog_binary_scheme.cpp).  Evaluation to memory (nd::to_shared)
    is left out; it keeps shape and elements (NdProps). *)
From Coq Require Import ZArith List Bool.
From Verif Require Import Base TreeModel BalanceModel NdModel NdOpsModel ProlongModel.
Import ListNotations.
Close Scope Z_scope.
Open Scope nat_scope.

(** The catch clause of both functions: src/mesh_tree_operators.hpp 248-251, 288-291. *)
Definition rethrow {A} (m : outcome A) : outcome A := match m with Throw _ => Throw InvalidArgument | r => r end.

Section Guard.
Context {A : Type}.
(** Which contains is used: TreeModel.contains (the language standard) or FluxModel.contains_compiled. *)
Variable contains : tree (array A) -> idx -> outcome bool.

(** The common text of get_cell_block and get_vertex_block, src/mesh_tree_operators.hpp 224-252 and 264-292; they differ
    in the three operators, and only the first applies [post].  The recursion has no bound in the source, hence [fuel].
    parent_index of level 0 wraps to level 2^64 - 1 (src/core_tree.hpp 142-145), which is given as [UB]. *)
Fixpoint get_block (refine : array A -> outcome (list (array A))) (combine : list (array A) -> outcome (array A))
    (coarsen : array A -> outcome (array A)) (fuel : nat) (t : tree (array A)) (i : idx)
    (post : array A -> outcome (array A)) : outcome (array A) :=
  match fuel with
  | 0 => NoFuel
  | S f =>
      rethrow
        (do here <- contains t i;
         if here then do b <- at_ t i; post b
         else
           match parent_index i with
           | None => UB
           | Some p =>
               do above <- contains t p;
               if above then
                 do o <- orthant (relative_to_parent i);
                 do b <- at_ t p;
                 do cs <- refine b;
                 do c <- match nth_error cs (to_integral o) with Some c => Ok c | None => UB end;
                 post c
               else
                 do bs <- mapM (fun j => get_block refine combine coarsen f t j (fun b => Ok b)) (child_indexes i);
                 do c <- combine bs;
                 do r <- coarsen c;
                 post r
           end)
  end.

Variables (add : A -> A -> A) (half : A -> A).

(** get_cell_block, src/mesh_tree_operators.hpp 224-252, for rank [D]. *)
Definition get_cell_block (D : nat) : nat -> tree (array A) -> idx -> (array A -> outcome (array A)) -> outcome (array A) :=
  get_block (refine_cells (seq 0 D)) (combine_cells (seq 0 D)) (coarsen_cells add half (seq 0 D)).

(** get_vertex_block, src/mesh_tree_operators.hpp 264-292, for rank [D]. *)
Definition get_vertex_block (D : nat) (fuel : nat) (t : tree (array A)) (i : idx) : outcome (array A) :=
  get_block (refine_verts add half (seq 0 D)) (combine_verts (seq 0 D)) (coarsen_verts (seq 0 D)) fuel t i (fun b => Ok b).

(** The lambda of extend, src/subprog_binary_scheme.cpp 133-142: one block with [guard] layers of cells of its
    neighbours on both sides of an axis. *)
Definition extend_block (fuel : nat) (t : tree (array A)) (axis : nat) (guard : Z) (i : idx) : outcome (array A) :=
  do c <- at_ t i;
  do il <- prev_on axis i;
  do l <- get_cell_block 2 fuel t il (select_final guard axis);
  do ir <- next_on axis i;
  do r <- get_cell_block 2 fuel t ir (select_first guard axis);
  do lc <- concat_on axis c l;
  concat_on axis r lc.

(** extend, src/subprog_binary_scheme.cpp 131-144. *)
Definition extend (fuel : nat) (t : tree (array A)) (axis : nat) (guard : Z) : outcome (tree (array A)) :=
  tmapM (extend_block fuel t axis guard) (indexes 2 t).
End Guard.
