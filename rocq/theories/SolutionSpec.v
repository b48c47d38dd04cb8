(** Vocabulary for the budgets of a run of the binary program. *)
From Coq Require Import ZArith Reals List Bool.
From Verif Require Import Base TreeModel TreeSpec BalanceModel NdModel NdSpec FluxSpec MeshModel TwoBodyModel HydroModel StepSpec SourceModel SolutionModel.
Import ListNotations.
Open Scope Z_scope.

(** The number read off the cell at an index. *)
Definition reading {A} (g : A -> R) (a : array A) (k : list Z) : R := match aget a k with Ok x => g x | _ => 0%R end.

(** The sum over all cells of all blocks of a density times the area of the cell. *)
Definition held {A} (g : A -> R) (N : Z) (u : tree (array A)) (dA : tree (array R)) : R :=
  rsum (fun p => rsum (fun k => reading g (fst p) k * reading (fun x => x) (snd p) k)%R (idxs [N; N])) (combine (leaves u) (leaves dA)).

(** The sum over both bodies. *)
Definition both (p : R * R) : R := (fst p + snd p)%R.

(** The solver data of a program that was started with blocks of N x N cells and at most d levels. *)
Record setup (N : Z) (d : nat) (predicate : nat -> R -> bool) (fuel : nat) (sd : settings) (fd : fields) : Prop := mksetup {
  su_size : 1 <= N < 2147483647;
  su_block : block_size sd = N;
  su_levels : (d <= 30)%nat;
  su_fuel : (4 ^ d < fuel)%nat;
  su_radius : (0 < domain_radius sd)%R;
  su_vertices : create_vertices fuel predicate N d (domain_radius sd) = Ok (vertices fd);
  su_areas : tmapM MeshModel.cell_areas (vertices fd) = Ok (cell_areas fd);
  su_centers : tmapM MeshModel.cell_centers (vertices fd) = Ok (cell_centers fd);
  su_buffer : cell_data N (vertices fd) (buffer_rate_field fd);
  su_initial : cell_data N (vertices fd) (if conserve_linear_p sd then initial_conserved_u fd else initial_conserved_q fd)
}.

(** The tree of conserved variables in use. *)
Definition conserved (sd : settings) (s : solution) : tree (array v3) := if conserve_linear_p sd then conserved_u s else conserved_q s.

(** A solution on that mesh, and one without negative densities. *)
Definition on_mesh (N : Z) (sd : settings) (fd : fields) (s : solution) : Prop := cell_data N (vertices fd) (conserved sd s).
Definition densities (N : Z) (t : tree (array v3)) : Prop :=
  Forall (fun b => forall k u, inb [N; N] k -> aget b k = Ok u -> (0 <= d0 u)%R) (leaves t).

(** The other tree of conserved variables, which a program leaves at a single block without cells. *)
Definition unused (sd : settings) (s : solution) : tree (array v3) := if conserve_linear_p sd then conserved_q s else conserved_u s.
Definition is_empty (t : tree (array v3)) : Prop := exists a, t = Leaf a /\ ashape a = [0; 0].

(** A solution a run can be in. *)
Definition valid (N : Z) (sd : settings) (fd : fields) (s : solution) : Prop :=
  on_mesh N sd fd s /\ densities N (conserved sd s) /\ is_empty (unused sd s).

(** Mass in the disk, on the bodies and in the buffer. *)
Definition mass_ledger (N : Z) (sd : settings) (fd : fields) (s : solution) : R :=
  (held d0 N (conserved sd s) (cell_areas fd) + both (s_mass_accreted_on s) + s_mass_ejected s)%R.
(** Angular momentum in the disk (as the angular momentum conserving scheme holds it), accreted, passed on by gravity,
    and in the buffer. *)
Definition angular_momentum_ledger (N : Z) (fd : fields) (s : solution) : R :=
  (held d2 N (conserved_q s) (cell_areas fd) + both (s_angular_momentum_accreted_on s) + both (s_integrated_torque_on s)
     + s_angular_momentum_ejected s)%R.
