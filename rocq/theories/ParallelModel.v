(** Model of src/app_parallel.hpp and of the generators of src/core_ndarray.hpp it uses. *)
From Coq Require Import ZArith List Lia Bool.
From Verif Require Import Base NdModel.
Import ListNotations.
Open Scope Z_scope.

(** parallel::detail::factor_once, app_parallel.hpp:185-199. The loop variable [d] and the
    product [d * d] are ints; [%] and [/] truncate toward zero. The loop has no bound of
    its own: the fuel is 46341, the first divisor whose square leaves the range of int. *)
Fixpoint factor_loop (fuel : nat) (d num : Z) : outcome (Z * Z) :=
  match fuel with
  | O => NoFuel
  | S f =>
      if Z.rem num d =? 0 then Ok (d, Z.quot num d)
      else do sq <- chk (d * d);
           if num <? sq then Ok (num, 1) else factor_loop f (d + 1) num
  end.
Definition factor_once (num : Z) : outcome (Z * Z) := factor_loop (Z.to_nat 46341) 2 num.

(** parallel::detail::prime_factors_impl, app_parallel.hpp:201-214 (recursion; running out of
    fuel stands for unbounded recursion). *)
Fixpoint prime_factors_impl (fuel : nat) (result : list Z) (num : Z) : outcome (list Z) :=
  match fuel with
  | O => NoFuel
  | S f =>
      do once <- factor_once num;
      if snd once =? 1 then Ok (result ++ [fst once])
      else do r <- prime_factors_impl f result (fst once);
           prime_factors_impl f r (snd once)
  end.
(** parallel::detail::prime_factors, app_parallel.hpp:216-221. *)
Definition prime_factors (fuel : nat) (num : Z) : outcome (list Z) := prime_factors_impl fuel [] num.

(** make_array_from, core_ndarray.hpp:1505-1516: a rank-one memory-backed array. Simplified:
    the list is the buffer and the offset of index [n] is [n] (stride 1). *)
Definition array_of_list {A} (l : list A) : array A :=
  mkarr [Z.of_nat (length l)] (fun i => buf_read l (hd 0 i)).

(** arange(count), core_ndarray.hpp:2500-2503; [count] is an int. *)
Definition arange1 (count : Z) : array Z := mkarr [w64 count] (fun i => Ok (hd 0 i)).

(** arange(start, final, step), core_ndarray.hpp:2518-2528. [start + index[0] * step] is
    computed in size_t. *)
Definition arange3 (start final step : Z) : outcome (array Z) :=
  if step =? 0 then Throw InvalidArgument
  else do qf <- chk (Z.quot final step); do qs <- chk (Z.quot start step);
       do n <- chk (qf - qs);
       if n <? 0 then Throw InvalidArgument
       else Ok (mkarr [w64 n] (fun i => Ok (w64 (w64 start + w64 (hd 0 i * w64 step))))).

(** divvy, core_ndarray.hpp:2566-2584: the group with the given number. The size is
    [array.size()], that is the volume of the rank-one shape. *)
Definition divvy_group {A} (num_groups : Z) (a : array A) (g : Z) : outcome (array A) :=
  let size := volume (ashape a) in
  do start <- udiv (w64 (w64 (g + 0) * size)) num_groups;
  do final <- udiv (w64 (w64 (g + 1) * size)) num_groups;
  Ok (mkarr [w64 (final - start)] (fun e => aget a [w64 (start + hd 0 e)])).

(** The elements of a rank-one array in the order of a range-for (array_t::iterator,
    core_ndarray.hpp:2386-2402, over the pattern of its shape). *)
Definition elements1 {A} (a : array A) : outcome (list A) :=
  mapM (fun k => aget a [Z.of_nat k]) (seq 0 (Z.to_nat (hd 0 (ashape a)))).

(** The lambda [product] of propose_block_decomposition, app_parallel.hpp:123: accumulate
    with an int accumulator. *)
Definition int_product (l : list Z) : outcome Z := foldM (fun acc x => chk (acc * x)) 1 l.

(** propose_block_decomposition, app_parallel.hpp:119-131. The argument is converted to int
    by the call of prime_factors. *)
Definition propose_block_decomposition (fuel : nat) (rank : nat) (n : Z) : outcome (list Z) :=
  do fs <- prime_factors fuel (to_int n);
  mapM (fun g => do grp <- divvy_group (Z.of_nat rank) (array_of_list fs) (Z.of_nat g);
                 do l <- elements1 grp; int_product l)
       (seq 0 rank).

(** One axis of create_access_pattern_array, app_parallel.hpp:154-166: the start and the size
    of every block. [arange] takes an int. *)
Definition axis_blocks (extent blocks : Z) : outcome (list (Z * Z)) :=
  mapM (fun g => do grp <- divvy_group blocks (arange1 (to_int extent)) (Z.of_nat g);
                 if volume (ashape grp) =? 0 then Throw LogicError
                 else do first <- aget grp [0]; Ok (first, volume (ashape grp)))
       (seq 0 (Z.to_nat blocks)).

(** create_access_pattern_array, app_parallel.hpp:148-179. *)
Fixpoint block_tables (global blocks : list Z) : outcome (list (list (Z * Z))) :=
  match global, blocks with
  | e :: gs, b :: bs => do t <- axis_blocks e b; do r <- block_tables gs bs; Ok (t :: r)
  | _, _ => Ok []
  end.
Fixpoint block_bounds (tables : list (list (Z * Z))) (idx : list Z) : outcome (list Z * list Z) :=
  match tables, idx with
  | t :: ts, x :: xs =>
      do p <- buf_read t x;
      do r <- block_bounds ts xs;
      Ok (fst p :: fst r, w64 (fst p + snd p) :: snd r)
  | _, _ => Ok ([], [])
  end.
Definition create_access_pattern_array (global blocks : list Z) : outcome (array access_pattern) :=
  do tables <- block_tables global blocks;
  Ok (bounds_check (mkarr blocks (fun idx =>
        do b <- block_bounds tables idx;
        Ok (mkap (fst b) (snd b) (map (fun _ => 1) blocks))))).

(** ** evaluate_on<NumThreads>, app_parallel.hpp:75-103 *)

(** The indexes one thread writes, in its order: the loop of [evaluate_partial]. *)
Definition thread_indexes (fuel : nat) (shape : list Z) (threads n : Z) : outcome (list (list Z)) :=
  do region <- partition_region shape threads n; visited fuel region.

(** An execution of threads, each with its own list of steps, in some order: at every moment
    one thread performs its next step. *)
Inductive interleave {A} : list (list A) -> list A -> Prop :=
| il_done ls : Forall (fun l => l = []) ls -> interleave ls []
| il_step l1 x t l2 w : interleave (l1 ++ t :: l2) w -> interleave (l1 ++ (x :: t) :: l2) (x :: w).

(** The memory after the assignments [provider(index) = array(index)] in the given order. *)
Definition run_writes {A} (a : array A) (order : list (list Z)) (b : list A) : outcome (list A) :=
  foldM (fun b i => do v <- aget a i; buf_write b (compute_offset (strides_row_major (ashape a)) i) v) b order.

(** evaluate_on: [order] is the interleaving that happened. *)
Definition evaluate_on {A} (d : A) (a : array A) (order : list (list Z)) : outcome (array A) :=
  do b <- run_writes a order (repeat d (Z.to_nat (volume (ashape a))));
  make_backed (ashape a) b.
