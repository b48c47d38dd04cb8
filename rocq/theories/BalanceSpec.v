(** What a balanced quadtree is. *)
From Coq Require Import List Arith Bool.
From Verif Require Import Base TreeModel TreeSpec.
Import ListNotations.
Close Scope Z_scope.
Open Scope nat_scope.

(** Side neighbours on the same level of a periodic square: one coordinate differs by one. *)
Definition neighbour (i j : idx) : Prop :=
  level j = level i /\
  exists a c, a < 2 /\ nth_error (coords i) a = Some c /\
    (coords j = set_nth a (if c + 1 =? 2 ^ level i then 0 else c + 1) (coords i) \/
     coords j = set_nth a (if c =? 0 then 2 ^ level i - 1 else c - 1) (coords i)).

(** No leaf lying in a side neighbour of a leaf is more than one level finer than it. *)
Definition balanced {A} (t : tree A) : Prop :=
  forall i j l, In i (leaves (indexes 2 t)) -> neighbour i j ->
    In l (leaves (indexes 2 t)) -> covers j l -> level l <= level i + 1.

(** [u] is obtained from [t] by splitting leaves with [refine], any number of times, values included. *)
Inductive grown {A} (refine : A -> list A) : tree A -> tree A -> Prop :=
| gr_keep a : grown refine (Leaf a) (Leaf a)
| gr_split a ds : Forall2 (grown refine) (map Leaf (refine a)) ds -> grown refine (Leaf a) (Node ds)
| gr_node cs ds : Forall2 (grown refine) cs ds -> grown refine (Node cs) (Node ds).
