(** Model of math_interpolation.hpp (piecewise linear reconstruction).  Doubles are exact reals; the
    sign bit of a zero, which copysign inspects, is an arbitrary parameter. *)
From Coq Require Import Reals List.
Import ListNotations.
Open Scope R_scope.

(** math_interpolation.hpp:89, [copysign(1.0, x)]; [z] is the sign bit when x is a zero. *)
Definition sgn (z : bool) (x : R) : R :=
  if Rlt_dec x 0 then -1 else if Rlt_dec 0 x then 1 else if z then -1 else 1.

(** math_interpolation.hpp:88. *)
Definition minabs (a b c : R) : R := Rmin (Rmin (Rabs a) (Rabs b)) (Rabs c).

(** math_interpolation.hpp:85-94; [sgn(a)] is evaluated twice on the same double, so one sign bit. *)
Definition plm_gradient (za zb zc : bool) (yl y0 yr theta : R) : R :=
  let a := (y0 - yl) * theta in
  let b := (yr - yl) * 0.5 in
  let c := (yr - y0) * theta in
  0.25 * Rabs (sgn za a + sgn zb b) * (sgn za a + sgn zc c) * minabs a b c.

(** math_interpolation.hpp:104-124, the versions for sequences and tuples: component by component. *)
Fixpoint map3 {A B : Type} (f : A -> A -> A -> B) (l m r : list A) : list B :=
  match l, m, r with x :: l, y :: m, z :: r => f x y z :: map3 f l m r | _, _, _ => [] end.
Definition plm_gradients (za zb zc : bool) (yl y0 yr : list R) (theta : R) : list R :=
  map3 (fun l m r => plm_gradient za zb zc l m r theta) yl y0 yr.
