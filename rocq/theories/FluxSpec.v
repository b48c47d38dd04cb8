(** What it means that fluxes agree across block faces, and what the content of a mesh is. *)
From Coq Require Import ZArith Reals List Bool.
From Verif Require Import Base TreeModel TreeSpec BalanceSpec NdModel NdSpec.
Import ListNotations.
Open Scope Z_scope.

(** An array of the given shape with a value at every index. *)
Definition full (s : list Z) (a : array R) : Prop :=
  ashape a = s /\ forall i, inb s i -> exists x, aget a i = Ok x.

(** The value at an index. *)
Definition val (a : array R) (i : list Z) : R := match aget a i with Ok x => x | _ => 0%R end.

Fixpoint rsum {I} (F : I -> R) (l : list I) : R := match l with [] => 0%R | i :: l' => (F i + rsum F l')%R end.

(** The sum over the N x N cells of a block of density times area. *)
Definition content (N : Z) (u dA : array R) : R := rsum (fun i => val u i * val dA i)%R (idxs [N; N]).

(** The same over all blocks of a mesh; both trees list their leaves in the same order. *)
Definition mesh_content (N : Z) (u dA : tree (array R)) : R :=
  rsum (fun p => content N (fst p) (snd p)) (combine (leaves u) (leaves dA)).

(** The k-th face in layer x across axis a, as an index into the array of face fluxes. *)
Definition face (a : nat) (x k : Z) : list Z := if (a =? 0)%nat then [x; k] else [k; x].

(** The sum of the N fluxes in layer x. *)
Definition through (N : Z) (a : nat) (x : Z) (f : array R) : R := rsum (fun k => val f (face a x k)) (zrange N).

(** Wherever one block follows another of the same size on axis a, both have the same fluxes on the faces they
    share.  Pairs that meet across the edge of the domain count only when [per]. *)
Definition consistent (N : Z) (a : nat) (per : bool) (t : tree (array R)) : Prop :=
  forall i j f g, In i (leaves (indexes 2 t)) -> In j (leaves (indexes 2 t)) ->
    level j = level i ->
    (forall b, b <> a -> nth b (coords j) 0%nat = nth b (coords i) 0%nat) ->
    (nth a (coords j) 0 = nth a (coords i) 0 + 1 \/
     per = true /\ nth a (coords i) 0 + 1 = 2 ^ level i /\ nth a (coords j) 0 = 0)%nat ->
    at_ t i = Ok f -> at_ t j = Ok g ->
    forall k, 0 <= k < N -> aget f (face a N k) = aget g (face a 0 k).

(** What leaves the domain through its upper edge less what enters through its lower edge on axis a. *)
Definition net_outflow (N : Z) (a : nat) (t : tree (array R)) : R :=
  (rsum (fun p => if (nth a (coords (fst p)) 0 + 1 =? 2 ^ level (fst p))%nat then through N a N (snd p) else 0)
        (combine (leaves (indexes 2 t)) (leaves t)) -
   rsum (fun p => if (nth a (coords (fst p)) 0 =? 0)%nat then through N a 0 (snd p) else 0)
        (combine (leaves (indexes 2 t)) (leaves t)))%R.

(** The two fine fluxes through the k-th coarse face of layer x, when two fine blocks lie side by side along the
    face: [lo] covers the first half of it, [hi] the second. *)
Definition pair_flux (N : Z) (a : nat) (x : Z) (lo hi : array R) (k : Z) : R :=
  let fine m := if m <? N then val lo (face a x m) else val hi (face a x (m - N)) in
  (fine (2 * k)%Z + fine (2 * k + 1)%Z)%R.

(** p and q are the blocks one level finer than i whose coordinate on axis a is x; p touches the first half of
    i's extent on the other axis and q the second half. *)
Definition fine_pair (a : nat) (x : nat) (i p q : idx) : Prop :=
  (level p = S (level i) /\ level q = S (level i) /\ nth a (coords p) 0 = x /\ nth a (coords q) 0 = x /\
   nth (1 - a) (coords p) 0 = 2 * nth (1 - a) (coords i) 0 /\
   nth (1 - a) (coords q) 0 = 2 * nth (1 - a) (coords i) 0 + 1)%nat.
(** They lie just above, or just below, block i; the domain is periodic. *)
Definition above (a : nat) (i p q : idx) : Prop :=
  fine_pair a (2 * ((nth a (coords i) 0 + 1) mod 2 ^ level i))%nat i p q.
Definition beneath (a : nat) (i p q : idx) : Prop :=
  fine_pair a (2 * ((nth a (coords i) 0 + 2 ^ level i - 1) mod 2 ^ level i) + 1)%nat i p q.

(** A usable mesh of one conserved quantity: quadtrees of one shape with blocks of N x N cells and fluxes on the
    faces between them, balanced, of at most 30 levels. *)
Record mesh (N : Z) (dA u0 src fx fy : tree (array R)) : Prop := mkmesh {
  m_size : 1 <= N /\ 2 * N + 2 < two64;
  m_wf : wf_tree 2 u0;
  m_depth : (depth u0 <= 30)%nat;
  m_balanced : balanced u0;
  m_shapes : same_shape u0 dA /\ same_shape u0 src /\ same_shape u0 fx /\ same_shape u0 fy;
  m_cells : Forall (full [N; N]) (leaves u0) /\ Forall (full [N; N]) (leaves src) /\
            Forall (fun a => full [N; N] a /\ forall i, inb [N; N] i -> val a i <> 0%R) (leaves dA);
  m_faces : Forall (full [N + 1; N]) (leaves fx) /\ Forall (full [N; N + 1]) (leaves fy)
}.
