(** Array adapters of src/core_ndarray.hpp that act on several axes: freezing a set of axes and
    reducing along an axis. The one-axis adapters (reshape, shift, freeze of one axis, reading at
    a list of indexes) are in NdModel.v. *)
From Coq Require Import ZArith List Bool.
From Verif Require Import Base NdModel.
Import ListNotations.
Open Scope Z_scope.

(** The condition of both loops below: std::find fails, core_ndarray.hpp:2686 and 2706. *)
Definition listed (n : Z) (indexes : list Z) : bool := existsb (Z.eqb n) indexes.

(** The loop of detail::insert_elements, core_ndarray.hpp:2684-2694. [k] is the number of
    components of the result still to be set; reading past the end of either source is undefined. *)
Fixpoint insert_loop (k : nat) (n : Z) (source indexes values : list Z) : outcome (list Z) :=
  match k with
  | O => Ok []
  | S k' =>
      if listed n indexes
      then match values with
           | v :: vs => do r <- insert_loop k' (n + 1) source indexes vs; Ok (v :: r)
           | [] => UB
           end
      else match source with
           | x :: xs => do r <- insert_loop k' (n + 1) xs indexes values; Ok (x :: r)
           | [] => UB
           end
  end.
(** index_t::insert_elements, core_ndarray.hpp:382-385 and 2675-2696. *)
Definition insert_elements (source indexes values : list Z) : outcome (list Z) :=
  insert_loop (length source + length indexes) 0 source indexes values.

(** The loop of detail::remove_elements, core_ndarray.hpp:2704-2710. *)
Fixpoint remove_loop (n : Z) (source indexes : list Z) : list Z :=
  match source with
  | [] => []
  | x :: xs => if listed n indexes then remove_loop (n + 1) xs indexes else x :: remove_loop (n + 1) xs indexes
  end.
(** shape_t and index_t::remove_elements, core_ndarray.hpp:354-357, 388-391 and 2698-2712. The
    result has room for rank minus the number of indexes; with a repeated index the loop writes
    past its end. *)
Definition remove_elements (source indexes : list Z) : outcome (list Z) :=
  let r := remove_loop 0 source indexes in
  if (length r + length indexes =? length source)%nat then Ok r else UB.

(** axis_freezer_t for any number of axes, core_ndarray.hpp:946-990. *)
Definition freeze_axes {A} (axes at_index : list Z) (a : array A) : outcome (array A) :=
  if existsb (fun x => Z.of_nat (length (ashape a)) <=? x) axes then Throw LogicError
  else do s <- remove_elements (ashape a) axes;
       Ok (mkarr s (fun i => do k <- insert_elements i axes at_index; aget a k)).

(** short_sequence_t::range, core_ndarray.hpp:254-262. *)
Definition index_range (rank : nat) : list Z := map Z.of_nat (seq 0 rank).

(** axis_reducer_t, core_ndarray.hpp:996-1037, made by collect(op).along_axis(axis), 2101-2104.
    The operator is any function of a one-dimensional array. *)
Definition collect {A B} (op : array A -> outcome B) (axis : Z) (a : array A) : outcome (array B) :=
  if Z.of_nat (length (ashape a)) <=? axis then Throw LogicError
  else do s <- remove_elements (ashape a) [axis];
       Ok (mkarr s (fun i =>
         do axes <- remove_elements (index_range (length (ashape a))) [axis];
         do f <- freeze_axes axes i a; op f)).

(** nd::zip of two arrays, core_ndarray.hpp:1627-1642, and nd::unzip of an array of pairs,
    1656-1661 with get_through and unzip_array_impl, 2669-2673. *)
Definition zip2 {A B} (a : array A) (b : array B) : outcome (array (A * B)) := binary_op pair a b.
Definition unzip2 {A B} (a : array (A * B)) : array A * array B := (arr_map fst a, arr_map snd a).
