(** Model of src/core_tree.hpp: tree addresses and arithmetic binary trees of any rank D.
    Coordinates and levels are natural numbers: the wrap-around of std::size_t at 2^64 is not
    modelled, but shifts of the int literal 1 outside [0, 31) are undefined behaviour here
    (C++: undefined from 32 on, and 1 << 31 is not a positive int). *)
From Coq Require Import List Arith Bool Lia.
From Verif Require Import Base.
Import ListNotations.
Close Scope Z_scope.
Open Scope nat_scope.

(** ** Small sequence helpers *)

(** core_sequence.hpp:178 and 402-451: elementwise operation on two sequences. *)
Fixpoint zipw {A B C} (f : A -> B -> C) (l : list A) (m : list B) : list C :=
  match l, m with
  | a :: l', b :: m' => f a b :: zipw f l' m'
  | _, _ => []
  end.

(** core_sequence.hpp:129 and 152: replace the n-th element (callers stay in range or get [out_of_range]). *)
Fixpoint set_nth {A} (n : nat) (a : A) (l : list A) : list A :=
  match l, n with
  | [], _ => []
  | _ :: l', 0 => a :: l'
  | x :: l', S n' => x :: set_nth n' a l'
  end.

Section mapi.
  Context {A B : Type} (f : nat -> A -> B).
  (** core_sequence.hpp:178 and 202: map with the position, as [iota().map(..).apply_to(..)] does. *)
  Fixpoint mapi_from (k : nat) (l : list A) : list B :=
    match l with
    | [] => []
    | a :: l' => f k a :: mapi_from (S k) l'
    end.
End mapi.
Definition mapi {A B} (f : nat -> A -> B) (l : list A) : list B := mapi_from f 0 l.

(** core_tree.hpp:929-934: binary_repr<Bits>(value); bit n is (value & (1 << n)), lowest bit first. *)
Fixpoint bits (D k : nat) : list bool :=
  match D with
  | 0 => []
  | S D' => Nat.odd k :: bits D' (Nat.div2 k)
  end.

(** core_tree.hpp:949-956: to_integral: the sum of (1 << e) * bit_e. *)
Fixpoint to_integral (l : list bool) : nat :=
  match l with
  | [] => 0
  | b :: l' => Nat.b2n b + 2 * to_integral l'
  end.

(** The C++ expression [1 << n] on int. *)
Definition shl1 (n : nat) : outcome nat := if n <? 31 then Ok (2 ^ n) else UB.

(** ** Addresses *)

(** core_tree.hpp:216-217: level and coordinates. *)
Record idx : Type := mkidx { level : nat; coords : list nat }.

(** core_tree.hpp:99-102: valid. *)
Definition valid (i : idx) : outcome bool :=
  do n <- shl1 (level i); Ok (forallb (fun c => c <? n) (coords i)).

(** core_tree.hpp:187-190: orthant. For level 0 the shift count wraps around: undefined. *)
Definition orthant (i : idx) : outcome (list bool) :=
  match level i with
  | 0 => UB
  | S l => do n <- shl1 l; Ok (map (fun x => negb (x / n =? 0)) (coords i))
  end.

(** core_tree.hpp:115-118: advance_level. *)
Definition advance_level (i : idx) : outcome idx :=
  match level i with
  | 0 => UB
  | S l =>
      do o <- orthant i;
      do n <- shl1 l;
      Ok (mkidx l (zipw (fun c b => c - Nat.b2n b * n) (coords i) o))
  end.

(** core_tree.hpp:128-131: relative_to_parent. *)
Definition relative_to_parent (i : idx) : idx := mkidx 1 (map (fun c => c mod 2) (coords i)).

(** core_tree.hpp:142-145: parent_index. At level 0 the level wraps to 2^64-1, an address that no
    tree operation accepts (the next shift is undefined); represented by None. *)
Definition parent_index (i : idx) : option idx :=
  match level i with
  | 0 => None
  | S l => Some (mkidx l (map (fun c => c / 2) (coords i)))
  end.

(** core_tree.hpp:156-159: the k-th element of child_indexes, and the whole sequence. *)
Definition child_index (i : idx) (k : nat) : idx :=
  mkidx (S (level i))
        (zipw (fun c b => c * 2 + Nat.b2n b) (coords i) (bits (length (coords i)) k)).
Definition child_indexes (i : idx) : list idx :=
  map (child_index i) (seq 0 (2 ^ length (coords i))).

(** core_tree.hpp:172-175: with_level. *)
Definition with_level (i : idx) (l : nat) : idx := mkidx l (coords i).

(** core_tree.hpp:203-204: next_on and prev_on; [at] throws out_of_range for a bad axis
    (core_sequence.hpp:109-127). The shift is evaluated too. *)
Definition next_on (a : nat) (i : idx) : outcome idx :=
  do n <- shl1 (level i);
  match nth_error (coords i) a with
  | None => Throw OutOfRange
  | Some c => Ok (mkidx (level i) (set_nth a ((c + n + 1) mod n) (coords i)))
  end.
Definition prev_on (a : nat) (i : idx) : outcome idx :=
  do n <- shl1 (level i);
  match nth_error (coords i) a with
  | None => Throw OutOfRange
  | Some c => Ok (mkidx (level i) (set_nth a ((c + n - 1) mod n) (coords i)))
  end.

(** core_tree.hpp:210-211: operator== and operator!=. *)
Fixpoint list_eqb (l m : list nat) : bool :=
  match l, m with
  | [], [] => true
  | a :: l', b :: m' => (a =? b) && list_eqb l' m'
  | _, _ => false
  end.
Definition idx_eqb (i j : idx) : bool := (level i =? level j) && list_eqb (coords i) (coords j).
Definition idx_neb (i j : idx) : bool := negb (level i =? level j) || negb (list_eqb (coords i) (coords j)).

(** core_sequence.hpp:252: any() on coordinates: some coordinate is nonzero. *)
Definition any_coord (c : list nat) : bool := existsb (fun x => negb (x =? 0)) c.

(** ** Trees *)

(** core_tree.hpp:910: a variant of a value or a shared array of 2^Rank children. Shared pointers to
    immutable children are modelled by the values they point to. *)
Inductive tree (A : Type) : Type :=
| Leaf (a : A)
| Node (cs : list (tree A)).
Arguments Leaf {A} a.
Arguments Node {A} cs.

(** core_tree.hpp:288-291: has_value. *)
Definition has_value {A} (t : tree A) : bool := match t with Leaf _ => true | Node _ => false end.

(** core_tree.hpp:302-305: value: std::get<0> of the variant. *)
Definition value {A} (t : tree A) : outcome A :=
  match t with Leaf a => Ok a | Node _ => Throw BadVariantAccess end.

(** core_tree.hpp:316-319: children: std::get<1> of the variant. *)
Definition children {A} (t : tree A) : outcome (list (tree A)) :=
  match t with Leaf _ => Throw BadVariantAccess | Node cs => Ok cs end.

(** core_tree.hpp:246-249: size. *)
Fixpoint size {A} (t : tree A) : nat :=
  match t with
  | Leaf _ => 1
  | Node cs => list_sum (map size cs)
  end.

(** core_tree.hpp:261-264: depth (the running argument d is folded into the recursion). *)
Fixpoint depth {A} (t : tree A) : nat :=
  match t with
  | Leaf _ => 0
  | Node cs => S (list_max (map depth cs))
  end.

(** core_tree.hpp:334-337: child_at(orthant); an index outside the array would be undefined
    (operator[] is unchecked). *)
Definition child_at {A} (t : tree A) (o : list bool) : outcome (tree A) :=
  do cs <- children t;
  match nth_error cs (to_integral o) with
  | Some c => Ok c
  | None => UB
  end.

(** core_tree.hpp:398-413: node_at(index). *)
Fixpoint node_at_level {A} (l : nat) (c : list nat) (t : tree A) : outcome (tree A) :=
  match l with
  | 0 => if any_coord c then Throw OutOfRange else Ok t
  | S l' =>
      if has_value t then Throw OutOfRange
      else
        do o <- orthant (mkidx l c);
        do t' <- child_at t o;
        do i' <- advance_level (mkidx l c);
        node_at_level l' (coords i') t'
  end.
Definition node_at {A} (t : tree A) (i : idx) : outcome (tree A) := node_at_level (level i) (coords i) t.

(** core_tree.hpp:426-437: contains_node. *)
Fixpoint contains_node_level {A} (l : nat) (c : list nat) (t : tree A) : outcome bool :=
  match l with
  | 0 => Ok (negb (any_coord c))
  | S l' =>
      if has_value t then Ok false
      else
        do o <- orthant (mkidx l c);
        do t' <- child_at t o;
        do i' <- advance_level (mkidx l c);
        contains_node_level l' (coords i') t'
  end.
Definition contains_node {A} (t : tree A) (i : idx) : outcome bool :=
  contains_node_level (level i) (coords i) t.

(** core_tree.hpp:450-453: at. *)
Definition at_ {A} (t : tree A) (i : idx) : outcome A := do n <- node_at t i; value n.

(** core_tree.hpp:465-474: find; only out_of_range is caught. *)
Definition find {A} (t : tree A) (i : idx) : outcome (option A) :=
  match at_ t i with
  | Ok a => Ok (Some a)
  | Throw OutOfRange => Ok None
  | Throw e => Throw e
  | UB => UB
  | NoFuel => NoFuel
  end.

(** core_tree.hpp:486-493: contains. On a branch the orthant is computed even when the level is 0. *)
Fixpoint contains_level {A} (l : nat) (c : list nat) (t : tree A) : outcome bool :=
  if has_value t then Ok ((l =? 0) && negb (any_coord c))
  else
    match l with
    | 0 => UB
    | S l' =>
        do o <- orthant (mkidx l c);
        do t' <- child_at t o;
        do i' <- advance_level (mkidx l c);
        contains_level l' (coords i') t'
    end.
Definition contains {A} (t : tree A) (i : idx) : outcome bool := contains_level (level i) (coords i) t.

(** core_tree.hpp:544-558: sink visits the leaves in this order. *)
Fixpoint leaves {A} (t : tree A) : list A :=
  match t with
  | Leaf a => [a]
  | Node cs => flat_map leaves cs
  end.

(** core_tree.hpp:574-583: map. *)
Fixpoint tmap {A B} (f : A -> B) (t : tree A) : tree B :=
  match t with
  | Leaf a => Leaf (f a)
  | Node cs => Node (map (tmap f) cs)
  end.

(** core_tree.hpp:517-528: indexes. *)
Fixpoint indexes_from {A} (i : idx) (t : tree A) : tree idx :=
  match t with
  | Leaf _ => Leaf i
  | Node cs => Node (mapi (fun k c => indexes_from (child_index i k) c) cs)
  end.
Definition root_index (D : nat) : idx := mkidx 0 (repeat 0 D).
Definition indexes {A} (D : nat) (t : tree A) : tree idx := indexes_from (root_index D) t.

(** core_tree.hpp:498-502: any, all, sum (and min, max alike) fold the children's results. *)
Fixpoint tany {A} (f : A -> bool) (t : tree A) : bool :=
  match t with
  | Leaf a => f a
  | Node cs => existsb (tany f) cs
  end.
Fixpoint tall {A} (f : A -> bool) (t : tree A) : bool :=
  match t with
  | Leaf a => f a
  | Node cs => forallb (tall f) cs
  end.

(** core_sequence.hpp:152-158: update of one element of the children array by a function that can throw. *)
Definition update_nth {A} (n : nat) (f : A -> outcome A) (l : list A) : outcome (list A) :=
  match nth_error l n with
  | None => Throw OutOfRange
  | Some a => do b <- f a; Ok (set_nth n b l)
  end.

(** core_tree.hpp:672-683: update; on level 0 the coordinates are ignored and f is mapped over the
    whole subtree. *)
Fixpoint update_level {A} (f : A -> A) (l : nat) (c : list nat) (t : tree A) : outcome (tree A) :=
  match l with
  | 0 => Ok (tmap f t)
  | S l' =>
      do cs <- children t;
      do o <- orthant (mkidx l c);
      do i' <- advance_level (mkidx l c);
      do cs' <- update_nth (to_integral o) (update_level f l' (coords i')) cs;
      Ok (Node cs')
  end.
Definition update {A} (f : A -> A) (t : tree A) (i : idx) : outcome (tree A) :=
  update_level f (level i) (coords i) t.

(** core_tree.hpp:703-721: insert. [dflt] is ValueType(). A leaf on the way is replaced by 2^Rank
    default leaves and the insertion is retried (line 715), which is one unfolding here. *)
Fixpoint insert_level {A} (dflt : A) (v : A) (l : nat) (c : list nat) (t : tree A) : outcome (tree A) :=
  match l with
  | 0 => if any_coord c || negb (has_value t) then Throw OutOfRange else Ok (Leaf v)
  | S l' =>
      let cs := match t with
                | Leaf _ => map (fun _ => Leaf dflt) (seq 0 (2 ^ length c))
                | Node cs => cs
                end in
      do o <- orthant (mkidx l c);
      do i' <- advance_level (mkidx l c);
      do cs' <- update_nth (to_integral o) (insert_level dflt v l' (coords i')) cs;
      Ok (Node cs')
  end.
Definition insert {A} (dflt : A) (t : tree A) (i : idx) (v : A) : outcome (tree A) :=
  insert_level dflt v (level i) (coords i) t.

(** core_tree.hpp:739-756: binary_op. The loop over child numbers indexes both arrays, which have
    equal length. The first failing child decides the exception. *)
Fixpoint binary_op {A B C} (f : A -> B -> C) (t : tree A) (u : tree B) : outcome (tree C) :=
  match t with
  | Leaf a => do b <- value u; Ok (Leaf (f a b))
  | Node cs =>
      match u with
      | Leaf _ => Throw InvalidArgument
      | Node ds =>
          do es <-
            (fix go (cs : list (tree A)) (ds : list (tree B)) : outcome (list (tree C)) :=
               match cs, ds with
               | [], _ => Ok []
               | c :: cs', d :: ds' =>
                   do e <- binary_op f c d; do es <- go cs' ds'; Ok (e :: es)
               | _ :: _, [] => UB
               end) cs ds;
          Ok (Node es)
      end
  end.

(** core_tree.hpp:774-777: pair, and 790-793: pair_indexes. *)
Definition pair_trees {A B} (t : tree A) (u : tree B) : outcome (tree (A * B)) := binary_op pair t u.
Definition pair_indexes {A} (D : nat) (t : tree A) : outcome (tree (idx * A)) :=
  pair_trees (indexes D t) t.

(** core_tree.hpp:1013-1020: tree_of a sequence of values. *)
Definition tree_of {A} (vs : list A) : tree A := Node (map Leaf vs).

(** core_tree.hpp:837-845: bifurcate_if. *)
Fixpoint bifurcate_if {A} (p : A -> bool) (f : A -> list A) (t : tree A) : tree A :=
  match t with
  | Leaf a => if p a then tree_of (f a) else t
  | Node cs => Node (map (bifurcate_if p f) cs)
  end.

(** core_tree.hpp:863-872: bifurcate_all. *)
Fixpoint bifurcate_all {A B} (f : A -> list B) (t : tree A) : tree B :=
  match t with
  | Leaf a => tree_of (f a)
  | Node cs => Node (map (bifurcate_all f) cs)
  end.

(** core_tree.hpp:275-278: front; children().at(0). *)
Fixpoint front {A} (t : tree A) : outcome A :=
  match t with
  | Leaf a => Ok a
  | Node [] => Throw OutOfRange
  | Node (c :: _) => front c
  end.
