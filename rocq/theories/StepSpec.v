(** Vocabulary for steps of a whole mesh. *)
From Coq Require Import ZArith Reals List Bool.
From Verif Require Import Base TreeModel TreeSpec NdModel NdSpec FluxSpec.
Import ListNotations.
Open Scope Z_scope.

(** A value of any type in each of the N x N cells of every block of a mesh of the given shape. *)
Definition cell_data {A B} (N : Z) (m : tree B) (t : tree (array A)) : Prop :=
  same_shape m t /\ Forall (fun b => ashape b = [N; N] /\ forall k, inb [N; N] k -> exists x, aget b k = Ok x) (leaves t).

(** The point at [x] along the axis and [y] across it. *)
Definition edge (a : nat) (x y : R) : R * R := if (a =? 0)%nat then (x, y) else (y, x).

(** A flux that does not tell the two edges of the domain apart. *)
Definition edges_alike {P} (flux : nat -> nat -> R * R -> P * P -> P * P -> P * P -> R) (r : R) (a : nat) : Prop :=
  forall l y p g h, flux a l (edge a r y) p g h = flux a l (edge a (- r) y) p g h.
