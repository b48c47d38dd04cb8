(** Model of src/app_serialize_tree.hpp: text names of tree addresses, and trees stored leaf by leaf. *)
From Coq Require Import List Arith Bool Ascii ZArith.
From Verif Require Import Base TreeModel StrModel.
Import ListNotations.
Close Scope Z_scope.
Open Scope nat_scope.

(** app_serialize_tree.hpp:79-85: one coordinate field after its separator. *)
Fixpoint format_coords (w : nat) (sep : ascii) (c : list nat) : str :=
  match c with
  | [] => []
  | x :: c' => sep :: dec_padded w x ++ format_coords w "-"%char c'
  end.

(** app_serialize_tree.hpp:73-87: format_tree_index; the shift is evaluated when there is a coordinate. *)
Definition format_tree_index (i : idx) : outcome str :=
  match coords i with
  | [] => Ok (dec (level i))
  | c => do n <- shl1 (level i);
         Ok (dec (level i) ++ format_coords (1 + log10 n) ":"%char c)
  end.

(** app_serialize_tree.hpp:115-119: the loop over the coordinates. *)
Fixpoint read_coords (rank : nat) (s : str) : outcome (list nat) :=
  match rank with
  | 0 => Ok []
  | S r =>
      do z <- stoi (prefix_to (find_char "-"%char s) s);
      do cs <- read_coords r (erase_through (find_char "-"%char s) s);
      Ok (to_size_t z :: cs)
  end.

(** app_serialize_tree.hpp:103-121: read_tree_index<Rank>, Rank > 0. *)
Definition read_tree_index (rank : nat) (s : str) : outcome idx :=
  if negb (count_char "-"%char s =? rank - 1) then Throw InvalidArgument
  else
    do l <- stoi (prefix_to (find_char ":"%char s) s);
    do cs <- read_coords rank (erase_through (find_char ":"%char s) s);
    Ok (mkidx (to_size_t l) cs).

(** A file group: named entries, in the order in which the library lists them. The library keeps
    names unique: writing an existing name is an error or replaces the entry (core_hdf5.hpp:842-888),
    which a lookup of a duplicate name would show; distinctness of names is proved instead. *)
Definition group (A : Type) : Type := list (str * A).

(** app_serialize_tree.hpp:167-174: write_tree: one entry per leaf. *)
Definition write_tree {A} (D : nat) (t : tree A) : outcome (group A) :=
  do p <- pair_indexes D t;
  mapM (fun '(i, v) => do s <- format_tree_index i; Ok (s, v)) (leaves p).

(** app_serialize_tree.hpp:136-143: read_tree, into a tree that the caller default-constructed.
    The code always uses read_tree_index<2>, so it only compiles for rank 2. *)
Definition read_tree {A} (dflt : A) (g : group A) (t : tree A) : outcome (tree A) :=
  foldM (fun u '(s, v) => do i <- read_tree_index 2 s; insert dflt u i v) t g.
