(** The face fluxes of the binary scheme and its forward step (src/subprog_binary_scheme.cpp, block_fluxes_u,
    block_fluxes_q, advance_u, advance_q).  One component of the conserved variables is followed: the arithmetic of the
    conserved tuples is componentwise.  Locations and conserved densities are exact real numbers; the primitive variables
    are an arbitrary type with the two operations used to average blocks.  Evaluation to memory (nd::to_shared) is left
    out; it keeps shape and elements (NdProps).  tree_launch only decides on which thread blocks are computed. *)
From Coq Require Import ZArith Reals List Bool.
From Verif Require Import Base TreeModel BalanceModel NdModel NdOpsModel ProlongModel FluxModel GuardModel MeshModel HydroModel.
Import ListNotations.
Close Scope Z_scope.
Open Scope nat_scope.

Section Step.
Context {P : Type}.
(** Sum and half of primitive states (derivable_sequence_t, src/core_sequence.hpp 522-526). *)
Variables (padd : P -> P -> P) (phalf : P -> P).
(** plm_gradient(a, b, c, theta) / spacing on a level, src/subprog_binary_scheme.cpp 150-155, 791-800. *)
Variable gradient : nat -> P -> P -> P -> P.
(** One component of intercell_flux_u / intercell_flux_q, src/subprog_binary_scheme.cpp 266-325: axis, level, position of
    the face, states on both sides, gradients along the axis, gradients across. *)
Variable flux : nat -> nat -> R * R -> P * P -> P * P -> P * P -> R.

(** estimate_gradient(axis), src/subprog_binary_scheme.cpp 791-800 with estimate_plm_difference 149-155. *)
Definition estimate_gradient (axis : nat) (z : idx * array P) : outcome (array P) :=
  do a3 <- zip_adjacent3_on_axis axis (snd z);
  Ok (arr_map (fun w => gradient (level (fst z)) (fst w) (fst (snd w)) (snd (snd w))) a3).

(** pair_indexes().apply(estimate_gradient(axis)), src/subprog_binary_scheme.cpp 807-808. *)
Definition gradients (axis : nat) (p_ext : tree (array P)) : outcome (tree (array P)) :=
  do q <- pair_indexes 2 p_ext; tmapM (estimate_gradient axis) q.

(** nd::zip of four arrays and nd::apply, src/core_ndarray.hpp 1627-1644, 2310-2318. *)
Definition zip_apply4 {A B C D E} (f : A -> B -> C -> D -> E) (a : array A) (b : array B) (c : array C) (d : array D) : outcome (array E) :=
  do cd <- zip2 c d;
  do bcd <- zip2 b cd;
  do z <- zip2 a bcd;
  Ok (arr_map (fun w => f (fst w) (fst (snd w)) (fst (snd (snd w))) (snd (snd (snd w)))) z).

(** The fluxes through the faces across one axis of one block: src/subprog_binary_scheme.cpp 489-507 (block_fluxes_u),
    535-554 (block_fluxes_q).  The other axis is [1 - axis]: faces across x have their midpoints on axis 1 and the
    length dy, faces across y have their midpoints on axis 0 and the length dx. *)
Definition block_flux (axis : nat) (xv : array (R * R)) (p_e g_long g_tran : array P) (l : nat) : outcome (array R) :=
  do len <- difference_on_axis Rminus (1 - axis) (arr_map (if axis =? 0 then snd else fst) xv);
  do xf <- midpoint_on_axis loc_add loc_half (1 - axis) xv;
  do pp <- zip_adjacent2_on_axis axis p_e;
  do gl <- zip_adjacent2_on_axis axis g_long;
  do gt <- zip_adjacent2_on_axis axis g_tran;
  do f <- zip_apply4 (flux axis l) xf pp gl gt;
  NdModel.binary_op Rmult f len.

(** block_fluxes_u / block_fluxes_q, src/subprog_binary_scheme.cpp 471-562, the part that is made for one axis. *)
Definition tree_flux (axis : nat) (vertices : tree (array (R * R))) (p_e g_long g_tran : tree (array P)) (i : idx) : outcome (array R) :=
  do xv <- at_ vertices i;
  do p <- at_ p_e i;
  do gl <- at_ g_long i;
  do gt <- at_ g_tran i;
  block_flux axis xv p gl gt (level i).

(** extend, src/subprog_binary_scheme.cpp 131-144, with the compiled contains (FluxModel). *)
Definition extended (fuel : nat) (t : tree (array P)) (axis : nat) : outcome (tree (array P)) :=
  extend (@contains_compiled (array P)) padd phalf fuel t axis 1.

(** The face fluxes made by advance_u / advance_q from the primitive variables, src/subprog_binary_scheme.cpp 803-820,
    922-939. *)
Definition face_fluxes (fuel : nat) (vertices : tree (array (R * R))) (p0 : tree (array P)) : outcome (tree (array R) * tree (array R)) :=
  do p0_ex <- extended fuel p0 0;
  do p0_ey <- extended fuel p0 1;
  do gx <- gradients 0 p0_ex;
  do gy <- gradients 1 p0_ey;
  do gx_ex <- extended fuel gx 0;
  do gx_ey <- extended fuel gx 1;
  do gy_ex <- extended fuel gy 0;
  do gy_ey <- extended fuel gy 1;
  do fx <- tmapM (tree_flux 0 vertices p0_ex gx_ex gy_ex) (indexes 2 p0);
  do fy <- tmapM (tree_flux 1 vertices p0_ey gy_ey gx_ey) (indexes 2 p0);
  Ok (fx, fy).

(** advance_u / advance_q up to the new conserved variables, src/subprog_binary_scheme.cpp 803-829, 922-945, given the
    primitive variables and the source terms. *)
Definition advance (fuel : nat) (vertices : tree (array (R * R))) (p0 : tree (array P)) (dA u0 src : tree (array R)) (dt : R)
    : outcome (tree (array R)) :=
  do '(fx, fy) <- face_fluxes fuel vertices p0;
  advance_blocks (@contains_compiled) dA u0 src fx fy dt.
End Step.

(** to_angmom_fluxes, src/subprog_binary_scheme.cpp 196-213: the fluxes of mass, radial action and angular momentum made
    from those of mass and momentum; no angular momentum passes the edge of the domain. *)
Definition to_angmom_fluxes (axis : nat) (rd : R) (x : R * R) (f : v3) : v3 :=
  let flux_sr := (fst x * d1 f + snd x * d2 f)%R in
  let flux_lz := (fst x * d2 f - snd x * d1 f)%R in
  let at_edge c := if Req_EM_T c (- rd) then true else if Req_EM_T c rd then true else false in
  let flux_lz := if (axis =? 0) && at_edge (fst x) then 0%R else flux_lz in
  let flux_lz := if (axis =? 1) && at_edge (snd x) then 0%R else flux_lz in
  V3 (d0 f) flux_sr flux_lz.
