(** The diagnostic fields of the binary program (src/subprog_binary_diagnostics.cpp 48-82).  Doubles are exact real numbers; a quotient
    by zero is nothing the model can go on with: it is UB here. *)
From Coq Require Import ZArith Reals List Bool.
From Verif Require Import Base TreeModel BalanceModel NdModel NdOpsModel FluxModel MeshModel TwoBodyModel HydroModel StepModel SourceModel SolutionModel.
Import ListNotations.
Open Scope R_scope.

(** diagnostic_fields_t, src/subprog_binary.hpp 130-140, without the configuration. *)
Record diagnostics := Diagnostics {
  dg_time : R; dg_vertices : tree (array (R * R)); dg_sigma : tree (array R); dg_radial_velocity : tree (array R); dg_phi_velocity : tree (array R);
  dg_position_of_mass1 : R * R; dg_position_of_mass2 : R * R }.

(** The operators of trees, src/core_tree.hpp 891-894, on trees of arrays, whose operators are lazy (src/core_ndarray.hpp, NdModel.v). *)
Definition tree_op {A B C} (f : A -> B -> C) (t : tree (array A)) (u : tree (array B)) : outcome (tree (array C)) :=
  do p <- pair_trees t u; tmapM (fun z => NdModel.binary_op f (fst z) (snd z)) p.
Definition quotient (x y : R) : outcome R := if Req_EM_T y 0 then UB else Ok (x / y).
Definition arr_div (a b : array R) : outcome (array R) :=
  do z <- NdModel.binary_op pair a b;
  Ok (mkarr (ashape z) (fun k => do w <- aget z k; quotient (fst w) (snd w))).
Definition tree_div (t u : tree (array R)) : outcome (tree (array R)) :=
  do p <- pair_trees t u; tmapM (fun z => arr_div (fst z) (snd z)) p.

(** diagnostic_fields, src/subprog_binary_diagnostics.cpp 48-82; the solver data are those of the configuration. *)
Definition diagnostic_fields (sd : settings) (fd : fields) (fuel : nat) (s : solution) : outcome diagnostics :=
  do b <- full_state_at fuel (orbital_elements s) (time s);
  let xc := tmap (arr_map fst) (cell_centers fd) in
  let yc := tmap (arr_map snd) (cell_centers fd) in
  do p0 <- recover_primitive sd fd s;
  do xx <- tree_op Rmult xc xc;
  do yy <- tree_op Rmult yc yc;
  do r2 <- tree_op Rplus xx yy;
  let rc := tmap (arr_map sqrt) r2 in
  do rhat_x <- tree_div xc rc;
  do rhat_y <- tree_div yc rc;
  do phat_x <- tree_div (tmap (arr_map Ropp) yc) rc;
  do phat_y <- tree_div xc rc;
  let sigma_ := tmap (arr_map sigma) p0 in
  let vx_ := tmap (arr_map HydroModel.vx) p0 in
  let vy_ := tmap (arr_map HydroModel.vy) p0 in
  do a <- tree_op Rmult vx_ rhat_x; do c <- tree_op Rmult vy_ rhat_y; do vr <- tree_op Rplus a c;
  do e <- tree_op Rmult vx_ phat_x; do f <- tree_op Rmult vy_ phat_y; do vp <- tree_op Rplus e f;
  do sigma1 <- tmapM forced sigma_;
  do vr1 <- tmapM forced vr;
  do vp1 <- tmapM forced vp;
  Ok (Diagnostics (time s) (vertices fd) sigma1 vr1 vp1 (px (body1 b), py (body1 b)) (px (body2 b), py (body2 b))).
