(** What indexes, shapes and iteration orders are, independently of the model. *)
From Coq Require Import ZArith List Lia Bool.
Import ListNotations.
Open Scope Z_scope.

(** An index is in range of a shape: same rank, every component below the extent. *)
Definition inb (s i : list Z) : Prop := Forall2 (fun d x => 0 <= x < d) s i.

(** Number of elements of a shape, as a mathematical product. *)
Definition prodz (s : list Z) : Z := fold_right Z.mul 1 s.

(** 0, 1, ..., n-1. *)
Definition zrange (n : Z) : list Z := map Z.of_nat (seq 0 (Z.to_nat n)).

(** All in-range indexes with the last axis running fastest. *)
Fixpoint idxs (s : list Z) : list (list Z) :=
  match s with
  | [] => [[]]
  | d :: s' => flat_map (fun x => map (cons x) (idxs s')) (zrange d)
  end.

(** Position of an index in row-major order. *)
Fixpoint lin (s i : list Z) : Z :=
  match s, i with
  | _ :: s', x :: i' => x * prodz s' + lin s' i'
  | _, _ => 0
  end.

(** Every axis is a genuine stride: start below final, positive jump, and no stop leaves
    the range of size_t. *)
Inductive strided : list Z -> list Z -> list Z -> Prop :=
| strided_nil : strided [] [] []
| strided_cons s f j st fi ju :
    0 <= s < f -> 0 < j -> f + j <= 18446744073709551616 ->
    strided st fi ju -> strided (s :: st) (f :: fi) (j :: ju).

(** The stops of one axis: start, start+jump, ... below final. *)
Definition stop (s f j x : Z) : Prop := exists k, 0 <= k /\ x = s + j * k /\ x < f.

(** An index all of whose components are stops. *)
Inductive stops : list Z -> list Z -> list Z -> list Z -> Prop :=
| stops_nil : stops [] [] [] []
| stops_cons s f j x st fi ju i :
    stop s f j x -> stops st fi ju i -> stops (s :: st) (f :: fi) (j :: ju) (x :: i).

(** Strict lexicographic order of indexes of the same rank: row-major memory order. *)
Inductive lexlt : list Z -> list Z -> Prop :=
| lex_here x y a b : x < y -> length a = length b -> lexlt (x :: a) (y :: b)
| lex_there x a b : lexlt a b -> lexlt (x :: a) (x :: b).
