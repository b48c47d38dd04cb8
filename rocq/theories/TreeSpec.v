(** Specification vocabulary for trees and addresses. *)
From Coq Require Import List Arith Bool.
From Verif Require Import Base TreeModel.
Import ListNotations.
Close Scope Z_scope.
Open Scope nat_scope.

(** Trees of rank D: every branch has exactly 2^D children (guaranteed by the C++ array type). *)
Inductive wf_tree {A} (D : nat) : tree A -> Prop :=
| wf_leaf a : wf_tree D (Leaf a)
| wf_node cs : length cs = 2 ^ D -> Forall (wf_tree D) cs -> wf_tree D (Node cs).

(** In-range addresses of rank D: each coordinate is below 2^level. *)
Definition in_range (D : nat) (i : idx) : Prop :=
  length (coords i) = D /\ Forall (fun c => c < 2 ^ level i) (coords i).

(** [i] covers [j]: ancestor or equal, in terms of geometry: the cell [j] at its finer level lies in the
    cell [i], i.e. dividing the coordinates by the refinement factor gives i's coordinates. *)
Definition covers (i j : idx) : Prop :=
  level i <= level j /\ coords i = map (fun c => c / 2 ^ (level j - level i)) (coords j).

(** Same shape, value types may differ. *)
Inductive same_shape {A B} : tree A -> tree B -> Prop :=
| ss_leaf a b : same_shape (Leaf a) (Leaf b)
| ss_node cs ds : Forall2 same_shape cs ds -> same_shape (Node cs) (Node ds).

(** [u] refines [t]: obtained by subdividing leaves, whatever the values. *)
Inductive refines {A B} : tree A -> tree B -> Prop :=
| rf_leaf a u : refines (Leaf a) u
| rf_node cs ds : Forall2 refines cs ds -> refines (Node cs) (Node ds).
