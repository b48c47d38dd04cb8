(** The mesh refinement sandbox (src/subprog_amrsand.cpp): advection of one density over a quadtree of blocks at the
    velocity 1/2 along both axes.  Scalars are of any type with the operations used, so that the model can be computed
    with rational numbers and reasoned about with real ones.  Evaluation to memory (nd::to_shared) is left out; it keeps
    shape and elements (NdProps). *)
From Coq Require Import ZArith Reals List Bool.
From Verif Require Import Base RationalModel TreeModel BalanceModel NdModel NdOpsModel ProlongModel FluxModel GuardModel MeshModel.
Import ListNotations.
Close Scope Z_scope.
Open Scope nat_scope.

Section Amr.
Context {T : Type}.
Variables (add sub mul div : T -> T -> T) (neg half : T -> T) (of_int : Z -> T).

(** The lambda of extend, src/subprog_amrsand.cpp 258-264: the block itself, the last layer of the block before it on
    the axis and the first layer of the block after it. *)
Definition extend_leaf (fuel : nat) (t : tree (array T)) (axis : nat) (i : idx) : outcome (array T) :=
  do c <- get_cell_block (@contains_compiled (array T)) add half 2 fuel t i (fun b => Ok b);
  do il <- prev_on axis i;
  do bl <- get_cell_block (@contains_compiled (array T)) add half 2 fuel t il (fun b => Ok b);
  do l <- select_final 1 axis bl;
  do ir <- next_on axis i;
  do br <- get_cell_block (@contains_compiled (array T)) add half 2 fuel t ir (fun b => Ok b);
  do r <- select_first 1 axis br;
  do lc <- concat_on axis c l;
  concat_on axis r lc.

(** extend, src/subprog_amrsand.cpp 256-265. *)
Definition extend_tree (fuel : nat) (t : tree (array T)) (axis : nat) : outcome (tree (array T)) :=
  tmapM (extend_leaf fuel t axis) (indexes 2 t).

(** area_from_vertices, src/subprog_amrsand.cpp 266-271. *)
Definition area_from_vertices (v : array (T * T)) : outcome (array T) :=
  do d <- difference_on_axis sub 0 (arr_map fst v);
  do dx <- midpoint_on_axis add half 1 d;
  do e <- difference_on_axis sub 1 (arr_map snd v);
  do dy <- midpoint_on_axis add half 0 e;
  NdModel.binary_op mul dx dy.

(** spacing_on_axis, src/subprog_amrsand.cpp 272-278; take(axis) is 252-255. *)
Definition spacing_on_axis (axis : nat) (v : array (T * T)) : outcome (array T) :=
  difference_on_axis sub axis (arr_map (if axis =? 0 then fst else snd) v).

(** flux_from_conserved_density, src/subprog_amrsand.cpp 279-285: the product binds tighter than the pipe. *)
Definition flux_from_conserved_density (axis : nat) (u : array T) : outcome (array T) :=
  select_axis axis 0 1 1 true (arr_map half u).

(** The arithmetic operators between two trees of arrays, src/core_tree.hpp 891-894, with those of arrays below. *)
Definition tree_op (f : T -> T -> T) (t u : tree (array T)) : outcome (tree (array T)) :=
  do p <- pair_trees t u;
  tmapM (fun z => NdModel.binary_op f (fst z) (snd z)) p.

(** The time step, src/subprog_amrsand.cpp 249-250; n is the number of vertices, not of cells, along a side of the
    first block.  The shift is of an int. *)
Definition time_step (v : tree (array (T * T))) : outcome T :=
  do b <- front v;
  let n := Z.max (nth 0 (ashape b) 0%Z) (nth 1 (ashape b) 0%Z) in
  do p <- shl1 (depth v);
  Ok (div (div (of_int 2) (of_int n)) (of_int (Z.of_nat p))).

(** The new densities, src/subprog_amrsand.cpp 287-297. *)
Definition advance_density (fuel : nat) (v : tree (array (T * T))) (u0 : tree (array T)) (dt : T) : outcome (tree (array T)) :=
  do dA <- tmapM area_from_vertices v;
  do dx <- tmapM (spacing_on_axis 0) v;
  do dy <- tmapM (spacing_on_axis 1) v;
  do ex <- extend_tree fuel u0 0;
  do hx <- tmapM (flux_from_conserved_density 0) ex;
  do fx <- tree_op mul hx dy;
  do ey <- extend_tree fuel u0 1;
  do hy <- tmapM (flux_from_conserved_density 1) ey;
  do fy <- tree_op mul hy dx;
  do gx <- tmapM (difference_on_axis sub 0) fx;
  do gy <- tmapM (difference_on_axis sub 1) fy;
  let lx := tmap (arr_map neg) gx in
  let ly := tmap (arr_map neg) gy in
  do l <- tree_op add lx ly;
  do w <- tree_op div (tmap (arr_map (fun x => mul x dt)) l) dA;
  tree_op add u0 w.

(** solution_state_t, src/subprog_amrsand.cpp 58-64. *)
Record solution := mksol { iteration : rat; time : T; vertices : tree (array (T * T)); conserved : tree (array T) }.

(** next_solution, src/subprog_amrsand.cpp 247-305. *)
Definition next_solution (fuel : nat) (s : solution) : outcome solution :=
  do dt <- time_step (vertices s);
  do u1 <- advance_density fuel (vertices s) (conserved s) dt;
  do it <- advance_count (iteration s);
  Ok (mksol it (add (time s) dt) (vertices s) u1).
End Amr.
Arguments mksol {T}.
Arguments iteration {T}.
Arguments time {T}.
Arguments vertices {T}.
Arguments conserved {T}.

(** The sandbox with real numbers. *)
Definition next_real : nat -> solution (T := R) -> outcome (solution (T := R)) :=
  next_solution Rplus Rminus Rmult Rdiv Ropp (fun x => x / 2)%R IZR.

(** The refinement criterion, src/subprog_amrsand.cpp 138; 1.0 / 0 is infinity, which every radius is less than. *)
Definition refine_inside (level : nat) (r : R) : bool :=
  match level with 0 => true | _ => if Rlt_dec r (1 / INR level) then true else false end.

(** The initial density at a point, src/subprog_amrsand.cpp 151. *)
Definition initial_density (p : R * R) : R := exp (- (fst p * fst p + snd p * snd p) / (25 / 1000)).

(** create_solution_state, src/subprog_amrsand.cpp 135-155, without the reading of the options.  [fuel] is that of
    create_vertex_quadtree. *)
Definition create_solution_state (fuel : nat) (block_size : Z) (depth : nat) : outcome (solution (T := R)) :=
  do v <- create_vertex_quadtree fuel refine_inside block_size block_size depth;
  do u <- tmapM (fun b => do c <- cell_centers b; Ok (arr_map initial_density c)) v;
  Ok (mksol (rat_of_int 0) 0%R v u).

(** The loop of run_main, src/subprog_amrsand.cpp 340-346, with simulation_should_continue 226-229.  The loop has no
    bound in the source, hence [n].  The schedule and the files are left out: they do not act on the solution. *)
Fixpoint run_loop (fuel n : nat) (tfinal : R) (s : solution (T := R)) : outcome (solution (T := R)) :=
  if Rlt_dec (time s) tfinal then
    match n with
    | 0 => NoFuel
    | S m => do r <- next_real fuel s; run_loop fuel m tfinal r
    end
  else Ok s.

(** The number of zones that print_run_loop_message reports, src/subprog_amrsand.cpp 199-203: the sizes of the vertex
    blocks. *)
Definition reported_zones {T} (s : solution (T := T)) : Z :=
  fold_right Z.add 0%Z (map (fun b => volume (ashape b)) (leaves (vertices s))).
