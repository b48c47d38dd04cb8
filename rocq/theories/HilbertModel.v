(** Model of src/core_tree.hpp: hilbert_index. *)
From Coq Require Import ZArith List Bool.
From Verif Require Import Base TreeModel.
Import ListNotations.
Open Scope Z_scope.

(** core_tree.hpp:1037-1050: the lambda [rot]; the two pointers become a returned pair. *)
Definition rot (n x y rx ry : Z) : outcome (Z * Z) :=
  if ry =? 0 then
    do ' (x', y') <-
      (if rx =? 1 then do a <- chk (n - 1 - x); do b <- chk (n - 1 - y); Ok (a, b) else Ok (x, y));
    Ok (y', x')
  else Ok (x, y).

(** core_tree.hpp:1056-1062: the loop of the lambda [xy2d]. Negative ints are two's complement, as
    [Z.land] assumes. Only fuel 32 is used: an int halves to zero in at most 31 steps. *)
Fixpoint xy2d_loop (fuel : nat) (n s x y d : Z) : outcome Z :=
  if s >? 0 then
    match fuel with
    | O => NoFuel
    | S f =>
        let rx := if Z.land x s >? 0 then 1 else 0 in
        let ry := if Z.land y s >? 0 then 1 else 0 in
        do q <- chk (s * s);
        do t <- chk (q * Z.lxor (3 * rx) ry);
        do d' <- chk (d + t);
        do ' (x', y') <- rot n x y rx ry;
        xy2d_loop f n (s / 2) x' y' d'
    end
  else Ok d.

(** core_tree.hpp:1052-1064: [xy2d]. *)
Definition xy2d (n x y : Z) : outcome Z := xy2d_loop 32 n (n / 2) x y 0.

(** core_tree.hpp:1033-1067: hilbert_index. The size_t arguments are converted to int; a value that
    does not fit is outside the model (UB here, though C++17 only calls it implementation-defined). *)
Definition hilbert_index (i : idx) : outcome Z :=
  match coords i with
  | [cx; cy] =>
      do n <- chk (Z.of_nat (level i));
      do x <- chk (Z.of_nat cx);
      do y <- chk (Z.of_nat cy);
      xy2d n x y
  | _ => UB
  end.
