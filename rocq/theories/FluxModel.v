(** Flux correction at refinement boundaries and the block update of the binary scheme
    (src/subprog_binary_scheme.cpp).  One component of the conserved variables is followed: the
    arithmetic of the conserved tuples is componentwise.  Doubles are real numbers.  The calls of
    nd::to_shared (evaluation to memory) are left out; evaluation keeps shape and elements (NdProps). *)
From Coq Require Import ZArith Reals List Bool.
From Verif Require Import Base TreeModel BalanceModel NdModel NdOpsModel ProlongModel.
Import ListNotations.
Close Scope Z_scope.
Open Scope nat_scope.

(** arithmetic_binary_tree_t::contains, src/core_tree.hpp 486-493, as the compiled code answers.  At a
    branch address the source shifts by the unsigned value 0 - 1, which is undefined behaviour
    (TreeModel.contains gives [UB]).  x86-64 masks the shift count, so the search goes on into child 0 with a
    level that never is 0 when a leaf is reached, and the answer is false. *)
Fixpoint contains_compiled_level {A} (l : nat) (c : list nat) (t : tree A) : outcome bool :=
  if has_value t then Ok ((l =? 0) && negb (any_coord c))
  else
    match l with
    | 0 => Ok false
    | S l' =>
        do o <- orthant (mkidx l c);
        do t' <- child_at t o;
        do i' <- advance_level (mkidx l c);
        contains_compiled_level l' (coords i') t'
    end.

(** The same, on an address: src/core_tree.hpp 486-493. *)
Definition contains_compiled {A} (t : tree A) (i : idx) : outcome bool :=
  contains_compiled_level (level i) (coords i) t.

Section Correct.
(** Which contains is used: [contains] (the language standard) or [contains_compiled]. *)
Variable contains : forall A, tree A -> idx -> outcome bool.

(** The two tests that open the four correction functions: a leaf at the neighbouring address, or a leaf
    at the parent of that address: src/subprog_binary_scheme.cpp 618-622, 639-643, 660-664, 681-685.
    parent_index of level 0 wraps to level 2^64 - 1 (src/core_tree.hpp 142-145), which is given as [UB]. *)
Definition leave_alone {A} (t : tree A) (j : idx) : outcome bool :=
  do b <- contains A t j;
  if b then Ok true
  else match parent_index j with
       | None => UB
       | Some p => contains A t p
       end.

(** correct_fluxes_xl, src/subprog_binary_scheme.cpp 614-633. *)
Definition correct_fluxes_xl (t : tree (array R)) (i : idx) (fhat : array R) : outcome (array R) :=
  do j <- prev_on 0 i;
  do b <- leave_alone t j;
  if b then Ok fhat
  else
    do nodel <- node_at t j;
    do a0 <- at_ nodel (mkidx 1 [1; 0]);
    do a1 <- at_ nodel (mkidx 1 [1; 1]);
    do c <- concat_on 1 a1 a0;
    do r <- restrict_extrinsic Rplus 1 c;
    do fluxl <- take_final_on_axis 0 r;
    do fluxr <- drop_first_on_axis 0 fhat;
    concat_on 0 fluxr fluxl.

(** correct_fluxes_xr, src/subprog_binary_scheme.cpp 635-654. *)
Definition correct_fluxes_xr (t : tree (array R)) (i : idx) (fhat : array R) : outcome (array R) :=
  do j <- next_on 0 i;
  do b <- leave_alone t j;
  if b then Ok fhat
  else
    do noder <- node_at t j;
    do a0 <- at_ noder (mkidx 1 [0; 0]);
    do a1 <- at_ noder (mkidx 1 [0; 1]);
    do c <- concat_on 1 a1 a0;
    do r <- restrict_extrinsic Rplus 1 c;
    do fluxr <- take_first_on_axis 0 r;
    do fluxl <- drop_final_on_axis 0 fhat;
    concat_on 0 fluxr fluxl.

(** correct_fluxes_yl, src/subprog_binary_scheme.cpp 656-675. *)
Definition correct_fluxes_yl (t : tree (array R)) (i : idx) (fhat : array R) : outcome (array R) :=
  do j <- prev_on 1 i;
  do b <- leave_alone t j;
  if b then Ok fhat
  else
    do nodel <- node_at t j;
    do a0 <- at_ nodel (mkidx 1 [0; 1]);
    do a1 <- at_ nodel (mkidx 1 [1; 1]);
    do c <- concat_on 0 a1 a0;
    do r <- restrict_extrinsic Rplus 0 c;
    do fluxl <- take_final_on_axis 1 r;
    do fluxr <- drop_first_on_axis 1 fhat;
    concat_on 1 fluxr fluxl.

(** correct_fluxes_yr, src/subprog_binary_scheme.cpp 677-696. *)
Definition correct_fluxes_yr (t : tree (array R)) (i : idx) (fhat : array R) : outcome (array R) :=
  do j <- next_on 1 i;
  do b <- leave_alone t j;
  if b then Ok fhat
  else
    do noder <- node_at t j;
    do a0 <- at_ noder (mkidx 1 [0; 0]);
    do a1 <- at_ noder (mkidx 1 [1; 0]);
    do c <- concat_on 0 a1 a0;
    do r <- restrict_extrinsic Rplus 0 c;
    do fluxr <- take_first_on_axis 1 r;
    do fluxl <- drop_final_on_axis 1 fhat;
    concat_on 1 fluxr fluxl.

(** correct_fluxes_x, src/subprog_binary_scheme.cpp 702-710. *)
Definition correct_fluxes_x (fhat_x : tree (array R)) (i : idx) : outcome (array R) :=
  do f <- at_ fhat_x i;
  do f1 <- correct_fluxes_xl fhat_x i f;
  correct_fluxes_xr fhat_x i f1.

(** correct_fluxes_y, src/subprog_binary_scheme.cpp 712-720. *)
Definition correct_fluxes_y (fhat_y : tree (array R)) (i : idx) : outcome (array R) :=
  do f <- at_ fhat_y i;
  do f1 <- correct_fluxes_yl fhat_y i f;
  correct_fluxes_yr fhat_y i f1.

(** block_update_u / block_update_q, src/subprog_binary_scheme.cpp 568-611: u0 - (lx + ly) * dt / dA + s.
    The source term block s (source_terms_u, 345-411) is an input here. *)
Definition block_update (dA u0 src fhat_x fhat_y : tree (array R)) (dt : R) (i : idx) : outcome (array R) :=
  do a <- at_ dA i;
  do u <- at_ u0 i;
  do fx <- at_ fhat_x i;
  do fy <- at_ fhat_y i;
  do lx <- difference_on_axis Rminus 0 fx;
  do ly <- difference_on_axis Rminus 1 fy;
  do s <- at_ src i;
  do l <- NdModel.binary_op Rplus lx ly;
  do q <- NdModel.binary_op Rdiv (arr_map (fun x => (x * dt)%R) l) a;
  do v <- NdModel.binary_op Rminus u q;
  NdModel.binary_op Rplus v s.

(** The part of advance_u / advance_q (src/subprog_binary_scheme.cpp 814-829, 930-945) from the face fluxes to the
    new conserved variables.  tree_launch only decides on which thread the blocks are computed. *)
Definition advance_blocks (dA u0 src fhat_x fhat_y : tree (array R)) (dt : R) : outcome (tree (array R)) :=
  do fxc <- tmapM (correct_fluxes_x fhat_x) (indexes 2 fhat_x);
  do fyc <- tmapM (correct_fluxes_y fhat_y) (indexes 2 fhat_y);
  tmapM (block_update dA u0 src fxc fyc dt) (indexes 2 u0).
End Correct.
