(** Vocabulary for meshes of vertex blocks. *)
From Coq Require Import ZArith Reals List Bool.
From Verif Require Import Base TreeModel TreeSpec NdModel NdSpec FluxSpec.
Import ListNotations.
Open Scope Z_scope.

(** Position number [g] of [N * 2 ^ l] equal steps from [-r] to [r]. *)
Definition place (r : R) (N : Z) (l : nat) (g : R) : R := (- r + g * (2 * r / (IZR N * 2 ^ l)))%R.

(** The point at [u] cell widths from the lower corner of block [i], on the square of half-width [r] centred on the
    origin, blocks having [N] cells a side. *)
Definition point_in (r : R) (N : Z) (i : idx) (u v : R) : R * R :=
  (place r N (level i) (IZR (Z.of_nat (nth 0 (coords i) 0%nat) * N) + u)%R,
   place r N (level i) (IZR (Z.of_nat (nth 1 (coords i) 0%nat) * N) + v)%R).

(** Every leaf holds the vertices of its cells. *)
Definition regular (N : Z) (r : R) (t : tree (array (R * R))) : Prop :=
  forall i b, in_range 2 i -> at_ t i = Ok b ->
    ashape b = [N + 1; N + 1] /\
    forall k m, 0 <= k <= N -> 0 <= m <= N -> aget b [k; m] = Ok (point_in r N i (IZR k) (IZR m)).

(** Distance from the origin to the middle of block [i] of the square of half-width 1. *)
Definition block_radius (N : Z) (i : idx) : R :=
  let p := point_in 1 N i (IZR N / 2) (IZR N / 2) in sqrt (fst p * fst p + snd p * snd p).

(** A criterion that, satisfied at some level, is satisfied at every coarser one. *)
Definition antitone (predicate : nat -> R -> bool) : Prop :=
  forall l m x, (0 <= x)%R -> (l <= m)%nat -> predicate m x = true -> predicate l x = true.

(** Block [i] is coarser than the depth [d] and meets the criterion together with all blocks around it. *)
Definition asked (predicate : nat -> R -> bool) (N : Z) (d : nat) (i : idx) : Prop :=
  in_range 2 i /\ (level i < d)%nat /\ forall j, in_range 2 j -> covers j i -> predicate (level j) (block_radius N j) = true.

(** The area of a mesh: the sum over blocks of the sum over cells. *)
Definition area (N : Z) (t : tree (array R)) : R := rsum (fun a => rsum (val a) (idxs [N; N])) (leaves t).
