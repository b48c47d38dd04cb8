(** Model of core_matrix.hpp: fixed-size matrices as lists of rows.  Elements come from an arbitrary
    type with the operations of a ring; [e0] is [ValueType()] and [ValueType(0)], [e1] is [ValueType(1)]. *)
From Coq Require Import List Arith Bool.
Import ListNotations.

Section Matrix.
Context {A : Type} (e0 e1 : A) (add sub mul : A -> A -> A).

Definition matrix := list (list A).

(** core_matrix.hpp:82-90, [operator()] (sizes are template parameters, so indexes are in range). *)
Definition elt (M : matrix) (i j : nat) : A := nth j (nth i M []) e0.

(** The nested loops that fill a result, e.g. core_matrix.hpp:131-137. *)
Definition build (rows cols : nat) (f : nat -> nat -> A) : matrix :=
  map (fun i => map (f i) (seq 0 cols)) (seq 0 rows).

(** core_matrix.hpp:92-108; [neqb] is the element type's [!=]. *)
Definition equal (neqb : A -> A -> bool) (rows cols : nat) (M N : matrix) : bool :=
  negb (existsb (fun i => existsb (fun j => neqb (elt M i j) (elt N i j)) (seq 0 cols)) (seq 0 rows)).
Definition not_equal (neqb : A -> A -> bool) (rows cols : nat) (M N : matrix) : bool :=
  existsb (fun i => existsb (fun j => neqb (elt M i j) (elt N i j)) (seq 0 cols)) (seq 0 rows).

(** core_matrix.hpp:110-113, 126-155. *)
Definition plus (rows cols : nat) (M N : matrix) : matrix := build rows cols (fun i j => add (elt M i j) (elt N i j)).
Definition minus (rows cols : nat) (M N : matrix) : matrix := build rows cols (fun i j => sub (elt M i j) (elt N i j)).
Definition scale (rows cols : nat) (M : matrix) (a : A) : matrix := build rows cols (fun i j => mul (elt M i j) a).

(** core_matrix.hpp:187-196, 210-219, 235-247. *)
Definition zero_matrix (rows cols : nat) : matrix := build rows cols (fun _ _ => e0).
Definition identity_matrix (rank : nat) : matrix := build rank rank (fun i j => if Nat.eqb i j then e1 else e0).
Definition diagonal_matrix (args : list A) : matrix :=
  build (length args) (length args) (fun i j => if Nat.eqb i j then nth i args e0 else e0).

(** core_matrix.hpp:263-275, 291-303. *)
Definition row_vector (v : list A) : matrix := build 1 (length v) (fun _ j => nth j v e0).
Definition column_vector (v : list A) : matrix := build (length v) 1 (fun i _ => nth i v e0).

(** core_matrix.hpp:326-345: [element += M1(i, m) * M2(m, j)] from [result_value_type()]. *)
Definition matrix_product (rows inner cols : nat) (M1 M2 : matrix) : matrix :=
  build rows cols (fun i j => fold_left (fun element m => add element (mul (elt M1 i m) (elt M2 m j))) (seq 0 inner) e0).
End Matrix.
