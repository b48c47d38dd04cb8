(** Model of the N-dimensional array core: src/core_ndarray.hpp.
    The rank is the length of the lists (rank zero does not occur in the code: the
    arrays [memory[Rank]] and the index [Rank - 1] need a positive rank).
    [std::size_t] is modelled with explicit reduction modulo 2^64. *)
From Coq Require Import ZArith List Lia Bool.
From Verif Require Import Base.
Import ListNotations.
Open Scope Z_scope.

(** Values of [std::size_t] (64 bits): arithmetic wraps. *)
Definition two64 : Z := 18446744073709551616.
Definition w64 (z : Z) : Z := z mod two64.

(** Narrowing conversion to [int] (32 bits, two's complement). *)
Definition to_int (z : Z) : Z := (z + 2147483648) mod 4294967296 - 2147483648.

(** Unsigned division; a zero divisor is undefined. *)
Definition udiv (a b : Z) : outcome Z := if b =? 0 then UB else Ok (a / b).
Definition umod (a b : Z) : outcome Z := if b =? 0 then UB else Ok (a mod b).

(** Overwrite one position: [s[n] = v] on a short sequence, core_ndarray.hpp:292. *)
Fixpoint upd {A} (n : nat) (v : A) (l : list A) : list A :=
  match l, n with
  | [], _ => []
  | _ :: t, O => v :: t
  | x :: t, S m => x :: upd m v t
  end.

(** short_sequence_t::operator== , core_ndarray.hpp:281. *)
Fixpoint seq_eqb (a b : list Z) : bool :=
  match a, b with
  | x :: a', y :: b' => (x =? y) && seq_eqb a' b'
  | [], [] => true
  | _, _ => false
  end.

(** shape_t::volume, core_ndarray.hpp:328-331. The accumulator has the type of the
    literal 1, so every partial product is narrowed to int; the int is finally
    converted to size_t. *)
Definition volume (s : list Z) : Z :=
  w64 (fold_left (fun acc x => to_int (w64 (w64 acc * x))) s 1).

(** shape_t::contains, core_ndarray.hpp:333-339. *)
Fixpoint shape_contains (s i : list Z) : bool :=
  match s, i with
  | d :: s', x :: i' => if d <=? x then false else shape_contains s' i'
  | _, _ => true
  end.

(** index_t::operator<= , core_ndarray.hpp:399: every component. *)
Fixpoint idx_leb (a b : list Z) : bool :=
  match a, b with
  | x :: a', y :: b' => if x <=? y then idx_leb a' b' else false
  | _, _ => true
  end.

(** shape_t::last_index, core_ndarray.hpp:359-368: despite its name it returns the
    extents themselves (one past the end). *)
Definition last_index (s : list Z) : list Z := s.

(** make_strides_row_major, core_ndarray.hpp:777-792: from the last axis backwards. *)
Fixpoint strides_row_major (s : list Z) : list Z :=
  match s with
  | [] => []
  | _ :: t =>
      match strides_row_major t, t with
      | r :: _, y :: _ => w64 (r * y) :: strides_row_major t
      | _, _ => [1]
      end
  end.

(** memory_strides_t::compute_offset, core_ndarray.hpp:446-455. *)
Definition compute_offset (strides index : list Z) : Z :=
  fold_left (fun acc '(i, s) => w64 (acc + w64 (i * s))) (combine index strides) 0.

(** access_pattern_t, core_ndarray.hpp:468-729 (data members at 725-727). *)
Record access_pattern := mkap { ap_start : list Z; ap_final : list Z; ap_jumps : list Z }.

(** make_access_pattern(shape), core_ndarray.hpp:794-798. *)
Definition make_access_pattern (s : list Z) : access_pattern :=
  mkap (map (fun _ => 0) s) s (map (fun _ => 1) s).

(** access_pattern_t::shape, core_ndarray.hpp:550-559. [jumps] is a long, converted to
    unsigned long by the usual arithmetic conversions. *)
Fixpoint shape_from (st fi ju : list Z) : outcome (list Z) :=
  match st, fi, ju with
  | s :: st', f :: fi', j :: ju' =>
      do q <- udiv (w64 (w64 (f - s) - 1)) (w64 j);
      do r <- shape_from st' fi' ju';
      Ok (w64 (q + 1) :: r)
  | _, _, _ => Ok []
  end.
Definition ap_shape (a : access_pattern) : outcome (list Z) :=
  shape_from (ap_start a) (ap_final a) (ap_jumps a).

(** access_pattern_t::advance, core_ndarray.hpp:586-606, on the reversed lists (the loop
    runs from the last axis to the first). [None] is the branch that sets the index to
    [final]. *)
Fixpoint advance_rev (i st fi ju : list Z) : option (list Z) :=
  match i, st, fi, ju with
  | x :: i', s :: st', f :: fi', j :: ju' =>
      let x' := w64 (x + w64 j) in
      if f <=? x' then
        match i' with
        | [] => None
        | _ => match advance_rev i' st' fi' ju' with
               | Some r => Some (s :: r)
               | None => None
               end
        end
      else Some (x' :: i')
  | _, _, _, _ => None
  end.
Definition advance (a : access_pattern) (i : list Z) : list Z * bool :=
  match advance_rev (rev i) (rev (ap_start a)) (rev (ap_final a)) (rev (ap_jumps a)) with
  | Some r => (rev r, true)
  | None => (ap_final a, false)
  end.

(** access_pattern_t::map_index, core_ndarray.hpp:618-626. *)
Fixpoint map_index_from (st ju i : list Z) : list Z :=
  match st, ju, i with
  | s :: st', j :: ju', x :: i' => w64 (s + w64 (w64 j * x)) :: map_index_from st' ju' i'
  | _, _, _ => []
  end.
Definition map_index (a : access_pattern) (i : list Z) : list Z :=
  map_index_from (ap_start a) (ap_jumps a) i.

(** access_pattern_t::inverse_map_index, core_ndarray.hpp:638-646. *)
Fixpoint inverse_from (st ju i : list Z) : outcome (list Z) :=
  match st, ju, i with
  | s :: st', j :: ju', x :: i' =>
      do q <- udiv (w64 (x - s)) (w64 j);
      do r <- inverse_from st' ju' i';
      Ok (q :: r)
  | _, _, _ => Ok []
  end.
Definition inverse_map_index (a : access_pattern) (i : list Z) : outcome (list Z) :=
  inverse_from (ap_start a) (ap_jumps a) i.

(** access_pattern_t::contains, core_ndarray.hpp:658-661. *)
Definition ap_contains (a : access_pattern) (i : list Z) : outcome bool :=
  do s <- ap_shape a; Ok (shape_contains s i).

(** access_pattern_t::generates, core_ndarray.hpp:677-689. *)
Fixpoint generates_from (st fi ju i : list Z) : outcome bool :=
  match st, fi, ju, i with
  | s :: st', f :: fi', j :: ju', x :: i' =>
      if (x <? s) || (f <=? x) then Ok false
      else
        do m <- umod (w64 (x - s)) (w64 j);
        if m =? 0 then generates_from st' fi' ju' i' else Ok false
  | _, _, _, _ => Ok true
  end.
Definition generates (a : access_pattern) (i : list Z) : outcome bool :=
  generates_from (ap_start a) (ap_final a) (ap_jumps a) i.

(** access_pattern_t::within, core_ndarray.hpp:705-713. The comparisons with zero hold
    for every size_t. *)
Definition within (a : access_pattern) (parent : list Z) : outcome bool :=
  let t1 := map_index a (map (fun _ => 0) (ap_start a)) in
  do s <- ap_shape a;
  let t2 := map_index a (last_index s) in
  Ok (idx_leb t1 (last_index parent) && idx_leb t2 (last_index parent)).

(** A range-for over an access pattern (iterator, core_ndarray.hpp:477-491, begin/end at
    719-720): the loop stops when the current index equals [final]. *)
Fixpoint for_indexes {S} (fuel : nat) (a : access_pattern) (body : list Z -> S -> outcome S)
    (cur : list Z) (s : S) : outcome S :=
  if seq_eqb cur (ap_final a) then Ok s
  else match fuel with
       | O => NoFuel
       | Datatypes.S f => do s' <- body cur s; for_indexes f a body (fst (advance a cur)) s'
       end.
Definition for_each {S} (fuel : nat) (a : access_pattern) (body : list Z -> S -> outcome S) (s : S)
  : outcome S := for_indexes fuel a body (ap_start a) s.

(** The indexes visited by a range-for, in order. *)
Definition visited (fuel : nat) (a : access_pattern) : outcome (list (list Z)) :=
  for_each fuel a (fun i l => Ok (l ++ [i])) [].

(** partition_shape, core_ndarray.hpp:820-834: the n-th of [parts] access patterns. *)
Definition partition_bound (n extent parts : Z) : outcome Z := udiv (w64 (w64 n * extent)) parts.
Definition partition_region (shape : list Z) (parts n : Z) : outcome access_pattern :=
  do lo <- partition_bound n (hd 0 shape) parts;
  do hi <- partition_bound (w64 (n + 1)) (hd 0 shape) parts;
  let p := make_access_pattern shape in
  Ok (mkap (upd 0 lo (ap_start p)) (upd 0 hi (ap_final p)) (ap_jumps p)).

(** buffer_t::operator[], core_ndarray.hpp:1350 and 1363: no range check, so an offset at
    or beyond the size is undefined. *)
Definition buf_read {A} (b : list A) (off : Z) : outcome A :=
  if (0 <=? off) then match nth_error b (Z.to_nat off) with Some v => Ok v | None => UB end else UB.
Definition buf_write {A} (b : list A) (off : Z) (v : A) : outcome (list A) :=
  if (0 <=? off) && (off <? Z.of_nat (length b)) then Ok (upd (Z.to_nat off) v b) else UB.

(** array_t over a provider, core_ndarray.hpp:2368-2490: a shape and an index function. *)
Record array (A : Type) := mkarr { ashape : list Z; aget : list Z -> outcome A }.
Arguments mkarr {A} _ _.
Arguments ashape {A} _.
Arguments aget {A} _ _.

(** shared_provider_t / unique_provider_t, core_ndarray.hpp:1204-1290: memory-backed arrays.
    The constructors throw if the buffer size is not the volume of the shape. *)
Definition make_backed {A} (shape : list Z) (b : list A) : outcome (array A) :=
  if volume shape =? Z.of_nat (length b)
  then Ok (mkarr shape (fun i => buf_read b (compute_offset (strides_row_major shape) i)))
  else Throw LogicError.

(** evaluate_as_unique, core_ndarray.hpp:1419-1432: allocate (value-initialised with [d]),
    then one write per visited index. *)
Definition evaluate_buffer {A} (fuel : nat) (d : A) (a : array A) : outcome (list A) :=
  let st := strides_row_major (ashape a) in
  for_each fuel (make_access_pattern (ashape a))
    (fun i b => do v <- aget a i; buf_write b (compute_offset st i) v)
    (repeat d (Z.to_nat (volume (ashape a)))).
Definition evaluate {A} (fuel : nat) (d : A) (a : array A) : outcome (array A) :=
  do b <- evaluate_buffer fuel d a; make_backed (ashape a) b.

(** reshape, core_ndarray.hpp:1794-1811 with shared_provider_t::reshape, 1230. *)
Definition reshape_backed {A} (new_shape shape : list Z) (b : list A) : outcome (array A) :=
  if volume new_shape =? volume shape then make_backed new_shape b else Throw LogicError.

(** bounds_check, core_ndarray.hpp:1856-1870. *)
Definition bounds_check {A} (a : array A) : array A :=
  mkarr (ashape a) (fun i => if shape_contains (ashape a) i then aget a i else Throw OutOfRange).

(** map, core_ndarray.hpp:2290-2298. *)
Definition arr_map {A B} (f : A -> B) (a : array A) : array B :=
  mkarr (ashape a) (fun i => do x <- aget a i; Ok (f x)).

(** index_array, core_ndarray.hpp:1603-1608. *)
Definition index_array (s : list Z) : array (list Z) := mkarr s (fun i => Ok i).

(** binary_op, core_ndarray.hpp:2337-2351 (and the array operators through bin_op, 2474). *)
Definition binary_op {A B C} (f : A -> B -> C) (a : array A) (b : array B) : outcome (array C) :=
  if seq_eqb (ashape a) (ashape b)
  then Ok (mkarr (ashape a) (fun i => do x <- aget a i; do y <- aget b i; Ok (f x y)))
  else Throw LogicError.

(** zip of two arrays, core_ndarray.hpp:1627-1644. *)
Definition zip2 {A B} (a : array A) (b : array B) : outcome (array (A * B)) := binary_op pair a b.

(** promote of a scalar, core_ndarray.hpp:1760-1771. *)
Definition promote {A} (x : A) (s : list Z) : array A := mkarr s (fun _ => Ok x).

(** remove_elements for one axis, core_ndarray.hpp:2698-2712. *)
Fixpoint remove_axis {A} (n : nat) (l : list A) : list A :=
  match l, n with
  | [], _ => []
  | _ :: t, O => t
  | x :: t, S m => x :: remove_axis m t
  end.

(** insert_elements for one axis, core_ndarray.hpp:2675-2696. *)
Fixpoint insert_axis {A} (n : nat) (v : A) (l : list A) : list A :=
  match n, l with
  | O, _ => v :: l
  | S m, x :: t => x :: insert_axis m v t
  | S _, [] => [v]
  end.

(** axis_selector_t, core_ndarray.hpp:840-896: [select_axis(axis).from(start).to(final)
    .jumping(jumps)], with or without [from_the_end()]. There is no range check. *)
Definition select_axis_pattern (shape : list Z) (axis : nat) (start final jumps : Z) (from_end : bool)
  : access_pattern :=
  let p := make_access_pattern shape in
  mkap (upd axis start (ap_start p))
       (upd axis (if from_end then w64 (nth axis shape 0 - final) else final) (ap_final p))
       (upd axis jumps (ap_jumps p)).
Definition select_axis {A} (axis : nat) (start final jumps : Z) (from_end : bool) (a : array A)
  : outcome (array A) :=
  if (length (ashape a) <=? axis)%nat then Throw LogicError
  else
    let p := select_axis_pattern (ashape a) axis start final jumps from_end in
    do s <- ap_shape p;
    Ok (mkarr s (fun i => aget a (map_index p i))).

(** axis_shifter_t, core_ndarray.hpp:902-940; [delta] is an int. *)
Definition shift_by {A} (axis : nat) (delta : Z) (a : array A) : outcome (array A) :=
  if (length (ashape a) <=? axis)%nat then Throw LogicError
  else if nth axis (ashape a) 0 <=? Z.abs delta then Throw LogicError
  else Ok (mkarr (upd axis (w64 (nth axis (ashape a) 0 - Z.abs delta)) (ashape a))
                 (fun i => aget a (upd axis (w64 (nth axis i 0 - delta)) i))).

(** axis_freezer_t for one axis, core_ndarray.hpp:946-990. *)
Definition freeze_axis {A} (axis : nat) (at_index : Z) (a : array A) : outcome (array A) :=
  if (length (ashape a) <=? axis)%nat then Throw LogicError
  else Ok (mkarr (remove_axis axis (ashape a)) (fun i => aget a (insert_axis axis at_index i))).

(** concatenator_t, core_ndarray.hpp:1041-1089: [array | concat(b).on_axis(axis)]. *)
Definition concat_on {A} (axis : nat) (b a : array A) : outcome (array A) :=
  if (length (ashape a) <=? axis)%nat then Throw LogicError
  else if negb (seq_eqb (remove_axis axis (ashape b)) (remove_axis axis (ashape a)))
  then Throw LogicError
  else
    let n := nth axis (ashape a) 0 in
    Ok (mkarr (upd axis (w64 (n + nth axis (ashape b) 0)) (ashape a))
              (fun i => if n <=? nth axis i 0
                        then aget b (upd axis (w64 (nth axis i 0 - n)) i)
                        else aget a i)).

(** replacer_t, core_ndarray.hpp:1095-1142. *)
Definition replace {A} (region : access_pattern) (r a : array A) : outcome (array A) :=
  do s <- ap_shape region;
  if negb (seq_eqb s (ashape r)) then Throw LogicError
  else Ok (mkarr (ashape a) (fun i =>
         do g <- generates region i;
         if g then do k <- inverse_map_index region i; aget r k else aget a i)).

(** selector_t, core_ndarray.hpp:1148-1177. *)
Definition select {A} (region : access_pattern) (a : array A) : outcome (array A) :=
  do w <- within region (ashape a);
  if negb w then Throw LogicError
  else do s <- ap_shape region; Ok (mkarr s (fun i => aget a (map_index region i))).

(** read_indexes, core_ndarray.hpp:2168-2180. *)
Definition read_indexes {A} (ix : array (list Z)) (a : array A) : array A :=
  mkarr (ashape ix) (fun i => do k <- aget ix i; aget a k).

(** Reductions over all indexes: sum 1881-1899, all 1909-1917, any 1927-1935,
    min 1975-1992, max 2004-2021 and where 2035-2053. [where] is simplified: the code first
    allocates one slot per true element (sum) and then writes the slots in order. *)
Definition arr_sum {A} (fuel : nat) (zero : A) (add : A -> A -> A) (a : array A) : outcome A :=
  for_each fuel (make_access_pattern (ashape a)) (fun i r => do x <- aget a i; Ok (add r x)) zero.
Fixpoint until (fuel : nat) (a : access_pattern) (stop : list Z -> outcome bool) (cur : list Z)
  : outcome bool :=
  if seq_eqb cur (ap_final a) then Ok false
  else match fuel with
       | O => NoFuel
       | Datatypes.S f => do b <- stop cur; if b then Ok true else until f a stop (fst (advance a cur))
       end.
Definition arr_any (fuel : nat) (a : array bool) : outcome bool :=
  let p := make_access_pattern (ashape a) in until fuel p (aget a) (ap_start p).
Definition arr_all (fuel : nat) (a : array bool) : outcome bool :=
  let p := make_access_pattern (ashape a) in
  do b <- until fuel p (fun i => do x <- aget a i; Ok (negb x)) (ap_start p); Ok (negb b).
Definition arr_best {A} (fuel : nat) (better : A -> A -> bool) (d : A) (a : array A) : outcome A :=
  do r <- for_each fuel (make_access_pattern (ashape a))
      (fun i '(r, first) =>
         do x <- aget a i;
         Ok (if first || better x r then (x, false) else (r, false))) (d, true);
  Ok (fst r).
Definition arr_where (fuel : nat) (a : array bool) : outcome (list (list Z)) :=
  for_each fuel (make_access_pattern (ashape a))
    (fun i l => do x <- aget a i; Ok (if x then l ++ [i] else l)) [].
