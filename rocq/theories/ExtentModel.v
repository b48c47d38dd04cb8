(** Model of the parts of src/core_hdf5.hpp that read, write and resize parts of data sets, of require_dataset with a creation property
    list, and of the time series file of src/subprog_sedov.cpp (C107).

    As in PartdomModel.v, the HDF5 library is modelled by what its documentation says of the calls made, and a failing
    call throws std::invalid_argument (detail::check, core_hdf5.hpp 90-104). Sizes are mathematical integers. *)
From Coq Require Import ZArith List Bool.
From Verif Require Import Base StrModel MapModel NdModel PartdomModel.
Import ListNotations.
Open Scope Z_scope.

Section Extent.
Context {D : Type} (fill : D).

(** A simple Dataspace with its selection, core_hdf5.hpp 279-419; a scalar space has no axes. *)
Inductive selection : Type := SelAll | SelNone | SelSlab (h : hyperslab).
Record space : Type := mksp { sp_dims : list Z; sp_sel : selection }.
(** rank(), size(), extent(): core_hdf5.hpp 347-362. *)
Definition rank (s : space) : nat := length (sp_dims s).
Definition size (s : space) : Z := fold_right Z.mul 1 (sp_dims s).
(** The selected positions, in the order in which the library goes through them. *)
Definition positions (s : space) : list (list Z) :=
  match sp_sel s with
  | SelAll => selected (map (fun _ => 0) (sp_dims s)) (sp_dims s) (map (fun _ => 1) (sp_dims s)) (map (fun _ => 1) (sp_dims s))
  | SelNone => []
  | SelSlab h => selected (sl_start h) (sl_count h) (sl_skips h) (sl_block h)
  end.
(** selection_size(): core_hdf5.hpp 364-367. *)
Definition selection_size (s : space) : Z := Z.of_nat (length (positions s)).
(** select_all(), select_none(): core_hdf5.hpp 385-395. *)
Definition select_all (s : space) : space := mksp (sp_dims s) SelAll.
Definition select_none (s : space) : space := mksp (sp_dims s) SelNone.
(** H5Sselect_hyperslab refuses a stride of zero and blocks that overlap. *)
Fixpoint slab_accepted (count skips block : list Z) : bool :=
  match count, skips, block with
  | c :: co, k :: sk, b :: bl => (0 <? k) && ((c <=? 1) || (b <=? k)) && slab_accepted co sk bl
  | _, _, _ => true
  end.
(** select(hyperslab): core_hdf5.hpp 397-406. *)
Definition select (h : hyperslab) (s : space) : outcome space :=
  do _ <- check_valid (rank s) h;
  if slab_accepted (sl_count h) (sl_skips h) (sl_block h) then Ok (mksp (sp_dims s) (SelSlab h)) else Throw InvalidArgument.

(** A data set of elements of one type; [d_chunk]: the chunk size of its creation property list, None for the default list;
    [d_grows]: whether its maximum extent is unlimited (Dataspace::unlimited, core_hdf5.hpp 308-314). *)
Record dset : Type := mkdset { d_dims : list Z; d_grows : bool; d_chunk : option (list Z); d_data : list Z -> D }.
Fixpoint within (i dims : list Z) : bool :=
  match i, dims with
  | [], [] => true
  | x :: i', n :: dims' => (0 <=? x) && (x <? n) && within i' dims'
  | _, _ => false
  end.
(** get_space(): core_hdf5.hpp 678-681. *)
Definition get_space (d : dset) : space := mksp (d_dims d) SelAll.
(** set_extent(): core_hdf5.hpp 740-754. H5Dset_extent works for chunked data sets within the maximum extent; what is in the old and the new
    extent is kept, what is new holds the fill value. *)
Definition set_extent (dims : list Z) (d : dset) : outcome dset :=
  if negb (length dims =? length (d_dims d))%nat then Throw InvalidArgument
  else match d_chunk d with
       | None => Throw InvalidArgument
       | Some _ =>
           if d_grows d
           then Ok (mkdset dims true (d_chunk d) (fun i => if within i (d_dims d) && within i dims then d_data d i else fill))
           else Throw InvalidArgument
       end.

(** H5Dwrite at the positions, element by element. *)
Fixpoint put_all (f : list Z -> D) (l : list (list Z * D)) : list Z -> D :=
  match l with
  | [] => f
  | (i, v) :: t => put_all (fun j => if seq_eqb i j then v else f j) t
  end.
(** write(value, fspace): core_hdf5.hpp 694-703, for a space got from the data set by get_space and a selection; [values] are the elements of the
    value in memory (all of them are selected there). Another space is left out (UB). *)
Definition write (values : list D) (s : space) (d : dset) : outcome dset :=
  if negb (seq_eqb (sp_dims s) (d_dims d)) then UB
  else if negb (forallb (fun i => within i (d_dims d)) (positions s)) then Throw InvalidArgument
  else if negb (length (positions s) =? length values)%nat then Throw InvalidArgument
  else Ok (mkdset (d_dims d) (d_grows d) (d_chunk d) (put_all (d_data d) (combine (positions s) values))).

(** What a value of the type asked for has room for: prepare() of a number (core_hdf5.hpp 428, 441, 454, 467), of a std::vector (493: as many
    elements as the space has, selected or not), and of an array (app_serialize.hpp 201: the extent of the space). *)
Inductive wanted : Type := WNumber | WVector | WArray (array_rank : nat).
Definition prepared (w : wanted) (s : space) : outcome Z :=
  match w with
  | WNumber => Ok 1
  | WVector => Ok (size s)
  (* shape_t::from_range throws for another rank: core_ndarray.hpp 240-252 *)
  | WArray r => if (r =? rank s)%nat then Ok (size s) else Throw LogicError
  end.
(** read(fspace): core_hdf5.hpp 711-721: the elements of the value in memory. *)
Definition read (w : wanted) (s : space) (d : dset) : outcome (list D) :=
  if negb (seq_eqb (sp_dims s) (d_dims d)) then UB
  else
    do n <- prepared w s;
    if negb (forallb (fun i => within i (d_dims d)) (positions s)) then Throw InvalidArgument
    else if negb (n =? selection_size s) then Throw InvalidArgument
    else Ok (map (d_data d) (positions s)).

(** A group of data sets of one type; other objects are left out. *)
Definition columns : Type := smap dset.
(** open_dataset: core_hdf5.hpp 837-840. *)
Definition open_column (f : columns) (name : str) : outcome dset :=
  match mfind name f with Some d => Ok d | None => Throw InvalidArgument end.
(** Equality of PropertyList, core_hdf5.hpp 167-170. *)
Definition chunk_eqb (a b : option (list Z)) : bool :=
  match a, b with Some x, Some y => seq_eqb x y | None, None => true | _, _ => false end.
(** require_dataset: core_hdf5.hpp 842-861; the new file. The property list of the data set that is there is compared with the default one, not with
    the one given (851). H5Sextent_equal compares the maximum extents too. H5Dcreate refuses to make an extensible data set that is not
    chunked. *)
Definition require_column (f : columns) (name : str) (dims : list Z) (grows : bool) (chunk : option (list Z)) : outcome (columns * dset) :=
  match mfind name f with
  | Some d =>
      if seq_eqb (d_dims d) dims && Bool.eqb (d_grows d) grows && chunk_eqb (d_chunk d) None
      then Ok (f, d) else Throw InvalidArgument
  | None =>
      match chunk with
      | None => if grows then Throw InvalidArgument
                else let d := mkdset dims false None (fun _ => fill) in Ok (mset name d f, d)
      | Some _ => let d := mkdset dims grows chunk (fun _ => fill) in Ok (mset name d f, d)
      end
  end.

(** prepare_filesystem without restart, subprog_sedov.cpp 605-612, subprog_cloud.cpp 898-903: the file with its empty columns. *)
Definition new_series (names : list str) : outcome columns :=
  foldM (fun f n => do r <- require_column f n [0] true (Some [1000]); Ok (fst r)) [] names.
(** write_time_series, subprog_sedov.cpp 518-530; [n] is the number of times it was performed, [row] the map of values by column. *)
Definition write_cell (n : Z) (f : columns) (e : str * D) : outcome columns :=
  do d <- open_column f (fst e);
  do m <- chk (n + 1);
  do d1 <- set_extent [m] d;
  do s <- select (Slab [n] [1] [1] [1]) (get_space d1);
  do d2 <- write [snd e] s d1;
  Ok (mset (fst e) d2 f).
Definition write_time_series (n : Z) (row : smap D) (f : columns) : outcome columns := foldM (write_cell n) f row.

End Extent.
Arguments selection : clear implicits.
