(** Model of core_sequence.hpp, [arithmetic_sequence_t<T, Rank>]: a list of length Rank.  Unchecked
    indexing outside the array is undefined.  [derivable_sequence_t] (500-545) only forwards.
    Comparison of doubles is a parameter (no NaN). *)
From Coq Require Import List Arith Bool.
From Verif Require Import Base.
Import ListNotations.

Section Seq.
Context {A : Type}.

(** core_sequence.hpp:108,113 [operator[]]. *)
Definition index (s : list A) (n : nat) : outcome A := match nth_error s n with Some x => Ok x | None => UB end.
(** core_sequence.hpp:109,114. *)
Definition at_ (s : list A) (n : nat) : outcome A := if n <? length s then index s n else Throw OutOfRange.
(** core_sequence.hpp:649-652. *)
Definition iota (rank : nat) : list nat := List.seq 0 rank.
(** core_sequence.hpp:129-135. *)
Definition set (s : list A) (i : nat) (v : A) : outcome (list A) :=
  mapM (fun n => if Nat.eqb i n then Ok v else index s n) (iota (length s)).
(** core_sequence.hpp:152-158. *)
Definition update (s : list A) (i : nat) (f : A -> A) : outcome (list A) :=
  mapM (fun n => if Nat.eqb i n then do x <- index s n; Ok (f x) else index s n) (iota (length s)).
(** core_sequence.hpp:178-181, 435-439. *)
Definition map_ {B} (f : A -> B) (s : list A) : list B := map f s.
(** core_sequence.hpp:202-205. *)
Definition apply_to {B} (fs : list (A -> B)) (s : list A) : outcome (list B) :=
  mapM (fun n => do f <- match nth_error fs n with Some f => Ok f | None => UB end; do x <- index s n; Ok (f x)) (iota (length fs)).
(** core_sequence.hpp:216-225. *)
Definition sum (zero : A) (add : A -> A -> A) (s : list A) : A := fold_left add s zero.
(** core_sequence.hpp:304-307. *)
Definition reverse (s : list A) : outcome (list A) := mapM (fun n => index s (length s - n - 1)) (iota (length s)).
(** core_sequence.hpp:337-338. *)
Definition head (s : list A) : outcome A := at_ s 0.
Definition last (s : list A) : outcome A := at_ s (length s - 1).
(** core_sequence.hpp:349-350; only instantiated for Rank >= 1. *)
Definition init (s : list A) : outcome (list A) := mapM (fun n => index s n) (iota (length s - 1)).
Definition tail (s : list A) : outcome (list A) := mapM (fun n => index s (n + 1)) (iota (length s - 1)).
(** core_sequence.hpp:366-373. *)
Definition concat (s t : list A) : outcome (list A) :=
  mapM (fun n => if n <? length s then index s n else index t (n - length s)) (iota (length s + length t)).
(** core_sequence.hpp:384, 396. *)
Definition append (s : list A) (x : A) : outcome (list A) := concat s [x].
Definition prepend (s : list A) (x : A) : outcome (list A) := concat [x] s.
(** core_sequence.hpp:447-451, 465-469: element by element. *)
Definition binary_op {B C} (f : A -> B -> C) (s : list A) (t : list B) : list C := map (fun p => f (fst p) (snd p)) (combine s t).

(** core_sequence.hpp:268-276, 286-294, std::min and std::max. *)
Context (ltb : A -> A -> bool).
Definition std_min (a b : A) : A := if ltb b a then b else a.
Definition std_max (a b : A) : A := if ltb a b then b else a.
Fixpoint fold_from (f : A -> A -> A) (s : list A) (i : nat) (fuel : nat) (acc : A) : outcome A :=
  match fuel with
  | O => Ok acc
  | S fuel => do x <- index s i; fold_from f s (S i) fuel (f acc x)
  end.
Definition min (s : list A) : outcome A := do x <- index s 0; fold_from std_min s 1 (length s - 1) x.
Definition max (s : list A) : outcome A := do x <- index s 0; fold_from std_max s 1 (length s - 1) x.
End Seq.

(** core_sequence.hpp:235-242, 252-259. *)
Fixpoint all (s : list bool) : bool := match s with [] => true | b :: s => if negb b then false else all s end.
Fixpoint any (s : list bool) : bool := match s with [] => false | b :: s => if b then true else any s end.

(** core_sequence.hpp:320-328; [cols] is [value_type::size()]. *)
Definition transpose {A} (cols : nat) (s : list (list A)) : outcome (list (list A)) :=
  mapM (fun j => mapM (fun i => do row <- index s i; index row j) (iota (length s))) (iota cols).
