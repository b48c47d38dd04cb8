(** The update of the mass in one cell of the binary program, written for a cell whose stencil lies in blocks of one level
    (src/subprog_binary_scheme.cpp 149-153, 265-291, 472-587, 789-829). The blocks, the guard layers and the flux correction are
    in StepModel and SolutionModel; here the cells are a function of two whole numbers, which is what the arrays and
    their guard layers amount to away from a change of level. The sources are left out. *)
From Coq Require Import ZArith Reals.
From Verif Require Import PlmModel DimensionalModel TwoBodyModel HydroModel SourceModel SolutionModel.
Open Scope R_scope.

(** The cell after [n] cells along an axis. *)
Definition along (axis : nat) (c : Z -> Z -> iprim) (i j n : Z) : iprim := if (axis =? 0)%nat then c (i + n)%Z j else c i (j + n)%Z.
(** estimate_plm_difference along an axis, src/subprog_binary_scheme.cpp 149-153 and 794-801. *)
Definition cell_slope (sd : settings) (safe : bool) (l axis : nat) (c : Z -> Z -> iprim) (i j : Z) : iprim :=
  plm_slope sd safe l (along axis c i j (-1)) (c i j) (along axis c i j 1).
(** The middle of the upper face of a cell, the centre of the cell (0, 0) being at [o], src/subprog_binary_scheme.cpp 493-494. *)
Definition upper_face (sd : settings) (l axis : nat) (o : R * R) (i j : Z) : R * R :=
  let h := spacing_at sd l in
  if (axis =? 0)%nat then (fst o + (IZR i + 1 / 2) * h, snd o + IZR j * h) else (fst o + IZR i * h, snd o + (IZR j + 1 / 2) * h).
(** The flux of mass through that face, src/subprog_binary_scheme.cpp 268-291 and 495-512. *)
Definition cell_flux (sd : settings) (b : two_body) (l : nat) (safe : bool) (o : R * R) (c : Z -> Z -> iprim) (axis : nat) (i j : Z) : R :=
  let next f := if (axis =? 0)%nat then f (i + 1)%Z j else f i (j + 1)%Z in
  let long := cell_slope sd safe l axis c in let tran := cell_slope sd safe l (1 - axis) c in
  d0 (intercell_flux_u sd b axis l (upper_face sd l axis o i j) (c i j, next c) (long i j, next long) (tran i j, next tran)).
(** The mass per area of the cell (0, 0) after a time, src/subprog_binary_scheme.cpp 568-587. *)
Definition cell_after (sd : settings) (b : two_body) (l : nat) (safe : bool) (o : R * R) (c : Z -> Z -> iprim) (dt : R) : R :=
  let f := cell_flux sd b l safe o c in let h := spacing_at sd l in
  HydroModel.sigma (c 0%Z 0%Z) - (f 0%nat 0%Z 0%Z - f 0%nat (-1)%Z 0%Z + f 1%nat 0%Z 0%Z - f 1%nat 0%Z (-1)%Z) * h * dt / (h * h).
