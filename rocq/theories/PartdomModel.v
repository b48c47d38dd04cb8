(** The domain decomposition demonstration, src/subprog_partdom.cpp, with the selection of a part of a
    file, src/app_serialize.hpp 172-181 and src/core_hdf5.hpp 110-127, 397-406, 694-703. Coordinates are
    real numbers. *)
From Coq Require Import ZArith Reals List Bool.
From Verif Require Import Base NdModel NdOpsModel ParallelModel.
Import ListNotations.
Open Scope Z_scope.

(** mara::make_spatial_coordinate(j[0], j[1], j[2]) of three lengths, subprog_partdom.cpp:89. *)
Definition point : Type := R * R * R.
Definition point_of (j : list Z) : point := (IZR (nth 0 j 0), IZR (nth 1 j 0), IZR (nth 2 j 0)).
(** The sum of two coordinates and the half of one, as nd::midpoint_on_axis uses them
    (core_ndarray_ops.hpp:121-129, core_sequence.hpp). *)
Definition plus3 (p q : point) : point := let '(a, b, c) := p in let '(x, y, z) := q in (a + x, b + y, c + z)%R.
Definition half3 (p : point) : point := let '(a, b, c) := p in (a / 2, b / 2, c / 2)%R.

(** One element of vertex_arrays, subprog_partdom.cpp:82-90. *)
Definition vertex_array (reg : access_pattern) : outcome (array point) :=
  let reg := mkap (ap_start reg) (map (fun x => w64 (x + 1)) (ap_final reg)) (ap_jumps reg) in
  do s <- ap_shape reg;
  Ok (arr_map point_of (arr_map (map_index reg) (index_array s))).

(** One element of cell_center_arrays, subprog_partdom.cpp:106-113. *)
Definition cell_center_array (v : array point) : outcome (array point) :=
  do a <- midpoint_on_axis plus3 half3 0 v;
  do b <- midpoint_on_axis plus3 half3 1 a;
  midpoint_on_axis plus3 half3 2 b.

(** array_of_access_patterns, subprog_partdom.cpp:69-71; [n] and [procs] are the int options. *)
Definition patterns (fuel : nat) (n procs : Z) : outcome (array access_pattern) :=
  do blocks <- propose_block_decomposition fuel 3 procs;
  create_access_pattern_array [w64 n; w64 n; w64 n] blocks.
(** cell_center_arrays at a block, subprog_partdom.cpp:105-113. *)
Definition centers_of_block (ps : array access_pattern) (b : list Z) : outcome (array point) :=
  do reg <- aget ps b;
  do v <- vertex_array reg;
  cell_center_array v.

(** h5::hyperslab_t, core_hdf5.hpp:110-127. *)
Record hyperslab := Slab { sl_start : list Z; sl_count : list Z; sl_skips : list Z; sl_block : list Z }.
(** make_hdf5_hyperslab, app_serialize.hpp:172-181. *)
Definition make_hdf5_hyperslab (sel : access_pattern) : outcome hyperslab :=
  do s <- ap_shape sel;
  Ok (Slab (ap_start sel) s (ap_jumps sel) (map (fun _ => 1) (ap_start sel))).
(** hyperslab_t::check_valid, core_hdf5.hpp:112-121. *)
Definition check_valid (rank : nat) (h : hyperslab) : outcome unit :=
  if (length (sl_start h) =? rank)%nat && (length (sl_skips h) =? rank)%nat && (length (sl_count h) =? rank)%nat && (length (sl_block h) =? rank)%nat
  then Ok tt else Throw InvalidArgument.
(** The positions that H5Sselect_hyperslab selects on one axis, in increasing order: [count] runs of
    [block] positions, the starts of the runs [skips] apart. The HDF5 library is trusted to do this. *)
Definition selected_on (start count skips block : Z) : list Z :=
  flat_map (fun k => map (fun b => start + Z.of_nat k * skips + Z.of_nat b) (seq 0 (Z.to_nat block))) (seq 0 (Z.to_nat count)).
(** All selected positions, in the order in which the library goes through them: the last axis runs
    fastest. *)
Fixpoint selected (start count skips block : list Z) : list (list Z) :=
  match start, count, skips, block with
  | s :: st, c :: co, k :: sk, b :: bl => flat_map (fun x => map (cons x) (selected st co sk bl)) (selected_on s c k b)
  | _, _, _, _ => [[]]
  end.

(** A dataset of doubles: a value at every position; new ones hold zeros. *)
Definition dataset := list Z -> R.
Definition new_dataset : dataset := fun _ => 0%R.
(** H5Dwrite to the selected positions from an array in memory: position number k of the selection gets
    element number k of the array; the library refuses a selection of another size (detail::check throws
    invalid_argument). The HDF5 library is trusted to do this. *)
Fixpoint put (d : dataset) (l : list (list Z * R)) : dataset :=
  match l with
  | [] => d
  | (i, v) :: t => put (fun j => if seq_eqb i j then v else d j) t
  end.
Definition write_selection (d : dataset) (positions : list (list Z)) (values : list R) : outcome dataset :=
  if (length positions =? length values)%nat then Ok (put d (combine positions values)) else Throw InvalidArgument.

(** The elements of an array in memory, in the order of its buffer (nd::to_shared, core_ndarray.hpp:1419-1432). *)
Definition memory {A} (fuel : nat) (z : A) (a : array A) : outcome (list A) := evaluate_buffer fuel z a.

(** data.write(... x[0] ..., space.select(make_hdf5_hyperslab(...))), subprog_partdom.cpp:132-135, for
    any block; the program does it for block (0, 0, 0). *)
Definition write_block (fuel : nat) (ps : array access_pattern) (b : list Z) (d : dataset) : outcome dataset :=
  do c <- centers_of_block ps b;
  do m <- memory fuel 0%R (arr_map (fun p : point => fst (fst p)) c);
  do reg <- aget ps b;
  do h <- make_hdf5_hyperslab reg;
  do _ <- check_valid 3 h;
  write_selection d (selected (sl_start h) (sl_count h) (sl_skips h) (sl_block h)) m.

(** main, subprog_partdom.cpp:60-138, without the printing: what is in the dataset at the end. *)
Definition partdom_main (fuel : nat) (n procs : Z) : outcome dataset :=
  do ps <- patterns fuel n procs;
  write_block fuel ps [0; 0; 0] new_dataset.
