(** The field a tree of blocks stands for, and averages of it. *)
From Coq Require Import ZArith Reals List Bool.
From Verif Require Import Base TreeModel TreeSpec NdModel NdSpec FluxSpec.
Import ListNotations.
Open Scope Z_scope.

(** The cell (or vertex) [k] of the block with coordinates [c], blocks of [N] cells, counted from the corner of the domain. *)
Definition glob (N : Z) (c : list nat) (k : list Z) : list Z := zipw (fun x y => Z.of_nat x * N + y) c k.

(** The average of F over the 2^s cells per axis that subdivide the cell [g]: averages along the axes, one after the other. *)
Fixpoint box_mean (s : nat) (g : list Z) (F : list Z -> R) : R :=
  match g with
  | [] => F []
  | x :: g' => (rsum (fun o => box_mean s g' (fun r => F ((x * 2 ^ Z.of_nat s + o)%Z :: r))) (zrange (2 ^ Z.of_nat s)%Z) / 2 ^ s)%R
  end.

(** F, given on the cells of level L, is the piecewise constant field with the blocks of [t]: it has a block's cell value
    on all cells of level L within that cell. *)
Definition represents (D : nat) (N : Z) (L : nat) (t : tree (array R)) (F : list Z -> R) : Prop :=
  forall i b, in_range D i -> at_ t i = Ok b ->
  forall k o, inb (repeat N D) k -> inb (repeat (2 ^ Z.of_nat (L - level i)) D) o ->
    aget b k = Ok (F (zipw (fun g y => g * 2 ^ Z.of_nat (L - level i) + y) (glob N (coords i) k) o)).

(** A tree of rank D with blocks of N cells per axis. *)
Record blocks (D : nat) (N : Z) {A} (t : tree (array A)) : Prop := mkblocks {
  b_size : 1 <= N /\ 4 * N + 4 < two64;
  b_wf : wf_tree D t;
  b_depth : (depth t <= 30)%nat;
  b_shape : Forall (fun b => ashape b = repeat N D /\ forall k, inb (repeat N D) k -> exists x, aget b k = Ok x) (leaves t)
}.

(** The addresses for which a block can be made: a leaf, a branch other than the root, or a child of a leaf. *)
Definition served {A} (t : tree A) (i : idx) : Prop :=
  (exists v, node_at t i = Ok (Leaf v)) \/
  (exists cs, node_at t i = Ok (Node cs) /\ (0 < level i)%nat) \/
  (exists p v, parent_index i = Some p /\ node_at t p = Ok (Leaf v)).

(** The cell, counted from the corner of a periodic domain, that cell [k] of block [i] extended by [g] cells on [axis] stands for. *)
Definition guard_cell (N g : Z) (axis : nat) (i : idx) (k : list Z) : list Z :=
  upd axis ((Z.of_nat (nth axis (coords i) 0%nat) * N + (nth axis k 0 - g)) mod (N * 2 ^ Z.of_nat (level i))) (glob N (coords i) k).
