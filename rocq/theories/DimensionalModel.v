(** Model of core_dimensional.hpp (exponents of dimensional values) and of the direction vectors of
    core_geometric.hpp.  A template instantiation the compiler rejects is [None]. *)
From Coq Require Import List ZArith Reals Lra.
From Verif Require Import Base.
Open Scope Z_scope.

(** Lengths, masses and times: the template arguments C, G, S (core_dimensional.hpp:94). *)
Definition dims : Type := Z * Z * Z.

(** A template argument of type int: anything else is a compile-time error (overflow in a constant
    expression, or a narrowing conversion). *)
Definition as_int (z : Z) : option Z := if in_int z then Some z else None.

(** The usual arithmetic conversions: an int met with an unsigned. *)
Definition to_unsigned (z : Z) : Z := z mod 2 ^ 32.

(** One exponent of core_dimensional.hpp:227-231: [C * N] is an int; [D] is unsigned, so both
    [(C * N) % D] and [C * N / D] are computed in unsigned arithmetic. *)
Definition pow_exponent (C N D : Z) : option Z :=
  match as_int (C * N) with
  | None => None
  | Some p =>
      if D =? 0 then None
      else if (to_unsigned p mod D) =? 0 then as_int (to_unsigned p / D) else None
  end.
(** core_dimensional.hpp:224-235, [pow<N, D>()]. *)
Definition pow_dims (d : dims) (N D : Z) : option dims :=
  let '(C, G, T) := d in
  match pow_exponent C N D, pow_exponent G N D, pow_exponent T N D with
  | Some c, Some g, Some s => Some (c, g, s)
  | _, _, _ => None
  end.
(** core_dimensional.hpp:132-136 and 151-155, products and ratios. *)
Definition mul_dims (d e : dims) : option dims :=
  let '(C, G, T) := d in let '(C1, G1, T1) := e in
  match as_int (C + C1), as_int (G + G1), as_int (T + T1) with Some c, Some g, Some s => Some (c, g, s) | _, _, _ => None end.
Definition div_dims (d e : dims) : option dims :=
  let '(C, G, T) := d in let '(C1, G1, T1) := e in
  match as_int (C - C1), as_int (G - G1), as_int (T - T1) with Some c, Some g, Some s => Some (c, g, s) | _, _, _ => None end.

Open Scope R_scope.
(** core_geometric.hpp:57, 120-122. *)
Record unit_vector := Unit { n1 : R; n2 : R; n3 : R }.

(** core_geometric.hpp:77-83: the parameters shadow the members, which keep the values given in the
    initialiser list; the divisions change only the parameters (for a zero triple they produce NaNs that
    nobody reads). *)
Definition make_unit_vector (a1 a2 a3 : R) : unit_vector := Unit a1 a2 a3.
(** core_geometric.hpp:76, 120-122. *)
Definition default_unit_vector : unit_vector := Unit 1 0 0.
(** core_geometric.hpp:62-74. *)
Definition on_axis (axis : nat) : outcome unit_vector :=
  match axis with
  | 0%nat => Ok (make_unit_vector 1 0 0)
  | 1%nat => Ok (make_unit_vector 0 1 0)
  | 2%nat => Ok (make_unit_vector 0 0 1)
  | _ => Throw InvalidArgument
  end.
(** core_geometric.hpp:86-89. *)
Definition project (n : unit_vector) (v1 v2 v3 : R) : R := v1 * n1 n + v2 * n2 n + v3 * n3 n.
(** core_geometric.hpp:107-116. *)
Definition component (n : unit_vector) (i : nat) : outcome R :=
  match i with 0%nat => Ok (n1 n) | 1%nat => Ok (n2 n) | 2%nat => Ok (n3 n) | _ => Throw InvalidArgument end.
