(** Parts of the code in double arithmetic.  A double is a real number of the IEEE 754 binary64 format (53 bits, least
    exponent -1074), and every operation is the exact one rounded to nearest, ties to even.  Infinities and overflow are
    left out: where they could matter, the theorems give bounds on the values.  No operations are contracted or reordered. *)
From Coq Require Import ZArith Reals List.
From Flocq Require Import Core.
From Verif Require Import Base.
Import ListNotations.
Open Scope R_scope.

(** The format and the rounding of IEEE 754 binary64. *)
Definition fexp : Z -> Z := FLT_exp (-1074) 53.
Definition double (x : R) : Prop := generic_format radix2 fexp x.
Definition fl (x : R) : R := round radix2 fexp ZnearestE x.

(** model_two_body.hpp:130-145, in double arithmetic; [y] is the value at [x]. *)
Fixpoint newton_fl (fuel : nat) (f g : R -> R) (tol x y : R) : outcome R :=
  match fuel with
  | O => NoFuel
  | S k => if Rlt_dec tol (Rabs y) then let x1 := fl (x - fl (y / g x)) in newton_fl k f g tol x1 (f x1) else Ok x
  end.
(** The default argument of model_two_body.hpp:120, the double next to 1e-10. *)
Definition tolerance : R := fl (/ 10 ^ 10).

Section Libm.
(** std::sin, std::cos and std::sqrt are functions of the C library; sqrt is exact up to rounding by IEEE 754. *)
Variables sinf cosf : R -> R.

(** The closures of model_two_body.hpp:197-198. *)
Definition anomaly_equation (e M E : R) : R := fl (fl (E - fl (e * sinf E)) - M).
Definition anomaly_derivative (e E : R) : R := fl (1 - fl (e * cosf E)).
(** model_two_body.hpp:170-199: the eccentric anomaly, for an eccentricity above zero; the places of the bodies are computed
    from it without further loops. *)
Definition omega_fl (mtot sep : R) : R := if Req_EM_T sep 0 then 0 else fl (sqrt (fl (fl (fl (mtot / sep) / sep) / sep))).
Definition eccentric_anomaly (fuel : nat) (mtot sep e t : R) : outcome R :=
  let M := fl (omega_fl mtot sep * t) in
  newton_fl fuel (anomaly_equation e M) (anomaly_derivative e) tolerance M (anomaly_equation e M M).
End Libm.

(** model_two_body.hpp:213-216 and 484-487. *)
Fixpoint after_fl (fuel : nat) (tau P t : R) : outcome R :=
  match fuel with O => NoFuel | S k => if Rlt_dec t tau then after_fl k tau P (fl (t + P)) else Ok t end.

(** math_interpolation.hpp:86-95 (and subprog_cloud.cpp:450-464, with the factors exchanged).  The sign of a zero is not
    modelled: where it would matter, the least of the absolute values is zero. *)
Definition sgn (x : R) : R := if Rlt_dec x 0 then -1 else 1.
Definition minabs (a b c : R) : R := Rmin (Rmin (Rabs a) (Rabs b)) (Rabs c).
Definition plm_fl (yl y0 yr theta : R) : R :=
  let a := fl (fl (y0 - yl) * theta) in
  let b := fl (fl (yr - yl) * (1 / 2)) in
  let c := fl (fl (yr - y0) * theta) in
  fl (fl (fl (1 / 4 * Rabs (fl (sgn a + sgn b))) * fl (sgn a + sgn c)) * minabs a b c).
(** The values at the faces right and left of a cell in the cloud program (subprog_cloud.cpp:566-568). *)
Definition right_face (y0 g : R) : R := fl (y0 + fl (g * (1 / 2))).
Definition left_face (y0 g : R) : R := fl (y0 - fl (g * (1 / 2))).
(** The same in the binary program, where the slope is divided by the grid spacing first (subprog_binary_scheme.cpp:281-282,
    309-310, 798-799, 914-915). *)
Definition right_face_of (y0 g dx : R) : R := fl (y0 + fl (fl (fl (g / dx) * (1 / 2)) * dx)).
Definition left_face_of (y0 g dx : R) : R := fl (y0 - fl (fl (fl (g / dx) * (1 / 2)) * dx)).
(** The mean of two values in midpoint_on_axis (core_ndarray_ops.hpp:121-128), prolong_verts (mesh_prolong_restrict.hpp:148-159),
    and in restrict_cells with a division by 2 (mesh_prolong_restrict.hpp:124-132), which is exact in the same way. *)
Definition mean_fl (a b : R) : R := fl (fl (a + b) * (1 / 2)).
(** core_ndarray.hpp:2544-2551; the index and the number of points are converted to double. *)
Definition linspace_fl (x0 x1 : R) (count : Z) (i : Z) : R := fl (x0 + fl (fl (fl (x1 - x0) * fl (IZR i)) / fl (IZR (count - 1)))).
