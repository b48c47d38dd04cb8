(** Model of the classes that own something: the wrappers of HDF5 identifiers in src/core_hdf5.hpp, of MPI communicators
    and requests in src/core_mpi.hpp, and the memory buffer of src/core_ndarray.hpp.

    A program is any sequence of constructions, assignments, explicit closings and destructions of objects of one class. An object
    lives in a numbered place. The library is modelled by the identifiers it has open: making or duplicating gives
    a fresh one, closing one that is not open fails and changes nothing. Failing calls of other kinds, and running out of memory,
    are left out. *)
From Coq Require Import List Arith Bool.
From Verif Require Import Base.
Import ListNotations.
Close Scope Z_scope.
Open Scope nat_scope.

(** The member id (core_hdf5.hpp:181,275,417,655), comm (core_mpi.hpp:824), request (267) or memory (core_ndarray.hpp:1382); None for
    -1, MPI_COMM_NULL, MPI_REQUEST_NULL and nullptr. *)
Definition handle : Type := option nat.

(** [places p] is the member of the object at place [p], None if there is no object; [open] the identifiers that the library has open,
    each with the file it belongs to (a number; any number where there are no files); [fresh] the next one; [bad_close] how many
    times something was closed that was not open; [thrown] how many operations ended with an exception (the program is taken
    to catch it and go on). *)
Record state : Type := mkst {
  places : nat -> option handle; open : list (nat * nat); fresh : nat; bad_close : nat; thrown : nat }.

(** The start: no objects, nothing open. *)
Definition start : state := mkst (fun _ => None) [] 0 0 0.

(** Storing a member. *)
Definition put (p : nat) (x : option handle) (s : state) : state :=
  mkst (fun q => if q =? p then x else places s q) (open s) (fresh s) (bad_close s) (thrown s).
Definition handle_at (p : nat) (s : state) : handle := match places s p with Some h => h | None => None end.
Definition is_open (i : nat) (s : state) : bool := existsb (fun e => fst e =? i) (open s).
Definition throw (s : state) : state := mkst (places s) (open s) (fresh s) (bad_close s) (S (thrown s)).

(** A library call that opens something in file [f], its result put in place [p]. *)
Definition acquire (p f : nat) (s : state) : state :=
  put p (Some (Some (fresh s))) (mkst (places s) ((fresh s, f) :: open s) (S (fresh s)) (bad_close s) (thrown s)).
(** H5Pclose, H5Tclose, H5Sclose, H5Fclose, H5Gclose, H5Dclose, MPI_Comm_free, MPI_Request_free, delete[]: true if it succeeds. *)
Definition release (i : nat) (s : state) : bool * state :=
  if is_open i s
  then (true, mkst (places s) (filter (fun e => negb (fst e =? i)) (open s)) (fresh s) (bad_close s) (thrown s))
  else (false, mkst (places s) (open s) (fresh s) (S (bad_close s)) (thrown s)).
(** The file of an identifier. *)
Definition file_of (i : nat) (s : state) : nat := match find (fun e => fst e =? i) (open s) with Some e => snd e | None => 0 end.
(** H5Pcopy, H5Tcopy, H5Scopy, MPI_Comm_dup of the member at [q], the result put in [p]; a negative result (false) if it is not open. *)
Definition duplicate (p q : nat) (s : state) : bool * state :=
  match handle_at q s with
  | Some i => if is_open i s then (true, acquire p (file_of i s) s) else (false, put p (Some None) s)
  | None => (false, put p (Some None) s)
  end.
(** [id = other.id; other.id = -1], in this order, for the objects at [p] and [q], which may be the same. *)
Definition take (p q : nat) (s : state) : state := put q (Some None) (put p (Some (handle_at q s)) s).

(** close() without a reset of the member: core_hdf5.hpp:146-152 (PropertyList), 223-229 (Datatype). *)
Definition close_keep (p : nat) (s : state) : state :=
  match handle_at p s with Some i => snd (release i s) | None => s end.
(** close() with the result checked, no reset: core_hdf5.hpp:339-345 (Dataspace). False: it throws. *)
Definition close_check (p : nat) (s : state) : bool * state :=
  match handle_at p s with Some i => release i s | None => (true, s) end.
(** close() with a reset: core_hdf5.hpp:536-548 (Link), core_mpi.hpp:173-180 (cancel; MPI_Request_free resets the request) and
    435-442. *)
Definition close_reset (p : nat) (s : state) : state :=
  match handle_at p s with Some i => put p (Some None) (snd (release i s)) | None => s end.

(** The classes. Owner stands for File, Group and Dataset, which hold a Link (core_hdf5.hpp:662-993). *)
Inductive class : Type := PropertyList | Datatype | Dataspace | Owner | Communicator | Request | Buffer.

(** What a program can do with objects of one class. *)
Inductive op : Type :=
  | New (p f : nat)          (* an object for something new that the library opens, in file f *)
  | NewFile (p f : nat)      (* h5::File(f, "w") *)
  | Default (p : nat)        (* the default constructor *)
  | Copy (p q : nat)         (* the copy constructor *)
  | Move (p q : nat)         (* construction from an rvalue *)
  | Assign (p q : nat)       (* assignment of an lvalue *)
  | MoveAssign (p q : nat)   (* assignment of an rvalue *)
  | Close (p : nat)          (* close(), or cancel() *)
  | Destroy (p : nat).       (* the destructor *)

(** Whether the class has the operation. PropertyList (core_hdf5.hpp:138-144): no default constructor, and no assignment, since its move
    constructor is declared. Datatype (214-236): an rvalue is assigned by the copy assignment. Dataspace (317-327): no move
    constructor, so that an rvalue is copied. Link and its owners (519-534, 667-676, 785-792, 905-914, 937-966): cannot be copied.
    Communicator (core_mpi.hpp:362-442): has all. Request (118-180): cannot be copied. buffer_t (core_ndarray.hpp:1304-1345): cannot be
    copied, no close. Only File has NewFile (core_hdf5.hpp:941-959). *)
Definition has_op (c : class) (o : op) : bool :=
  match o, c with
  | New _ _, _ | Destroy _, _ | Move _ _, _ => true
  | NewFile _ _, Owner => true
  | NewFile _ _, _ => false
  | Default _, PropertyList => false
  | Default _, _ => true
  | Copy _ _, (PropertyList | Datatype | Dataspace | Communicator) => true
  | Copy _ _, _ => false
  | Assign _ _, (Datatype | Dataspace | Communicator) => true
  | Assign _ _, _ => false
  | MoveAssign _ _, PropertyList => false
  | MoveAssign _ _, _ => true
  | Close _, Buffer => false
  | Close _, _ => true
  end.

(** The places that must hold an object, and the place that must not. *)
Definition needs (o : op) : list nat :=
  match o with
  | New _ _ | NewFile _ _ | Default _ => []
  | Copy _ q | Move _ q => [q]
  | Assign p q | MoveAssign p q => [p; q]
  | Close p | Destroy p => [p]
  end.
Definition makes (o : op) : option nat :=
  match o with New p _ | NewFile p _ | Default p | Copy p _ | Move p _ => Some p | _ => None end.
Definition has_object (p : nat) (s : state) : bool := match places s p with Some _ => true | None => false end.
Definition proper (c : class) (o : op) (s : state) : bool :=
  has_op c o && forallb (fun p => has_object p s) (needs o) &&
  match makes o with Some p => negb (has_object p s) | None => true end.

(** The copy constructors: core_hdf5.hpp:139 and 216, unchecked; 318, checked (no object if it throws); core_mpi.hpp:371-377. *)
Definition do_copy (c : class) (p q : nat) (s : state) : state :=
  match c with
  | Dataspace => let (ok, s') := duplicate p q s in if ok then s' else throw (put p None s)
  | Communicator => match handle_at q s with Some _ => snd (duplicate p q s) | None => put p (Some None) s end
  | _ => snd (duplicate p q s)
  end.

(** Copy assignment: core_hdf5.hpp:231-236 and 322-327: close(), then a checked copy; core_mpi.hpp:407-416. If the copy throws,
    the member keeps its old value. *)
Definition do_assign (c : class) (p q : nat) (s : state) : state :=
  match c with
  | Communicator =>
      let s1 := close_reset p s in
      match handle_at q s1 with Some _ => snd (duplicate p q s1) | None => s1 end
  | Dataspace =>
      let (ok, s1) := close_check p s in
      if ok then let (ok2, s2) := duplicate p q s1 in if ok2 then s2 else throw s1 else throw s1
  | _ =>
      let s1 := close_keep p s in
      let (ok2, s2) := duplicate p q s1 in if ok2 then s2 else throw s1
  end.

(** Move assignment: core_hdf5.hpp:529-534 (Link): the old member is dropped; core_mpi.hpp:160-167, 422-429: close first;
    core_ndarray.hpp:1337-1345: delete[] first, then take. *)
Definition do_move_assign (c : class) (p q : nat) (s : state) : state :=
  match c with
  | Owner => take p q s
  | Communicator | Request => take p q (close_reset p s)
  | Buffer => take p q (close_keep p s)
  | _ => do_assign c p q s
  end.

(** One operation; UB for a program that does not compile or uses an object outside its lifetime, and Throw LogicError for a
    call of std::terminate, when a destructor throws. *)
Definition step (c : class) (o : op) (s : state) : outcome state :=
  if proper c o s then
    match o with
    | New p f => Ok (acquire p f s)
    (* core_hdf5.hpp:951-954: H5Fcreate does not truncate a file that has anything open *)
    | NewFile p f => if existsb (fun e => snd e =? f) (open s) then Ok (throw s) else Ok (acquire p f s)
    (* core_hdf5.hpp:317: a null data space *)
    | Default p => match c with Dataspace => Ok (acquire p 0 s) | _ => Ok (put p (Some None) s) end
    | Copy p q => Ok (do_copy c p q s)
    | Move p q => match c with Dataspace => Ok (do_copy c p q s) | _ => Ok (take p q s) end
    | Assign p q => Ok (do_assign c p q s)
    | MoveAssign p q => Ok (do_move_assign c p q s)
    | Close p =>
        match c with
        | PropertyList | Datatype | Buffer => Ok (close_keep p s)
        | Dataspace => let (ok, s') := close_check p s in Ok (if ok then s' else throw s')
        | Owner | Communicator | Request => Ok (close_reset p s)
        end
    | Destroy p =>
        match c with
        | PropertyList | Datatype | Buffer => Ok (put p None (close_keep p s))
        | Dataspace => let (ok, s') := close_check p s in if ok then Ok (put p None s') else Throw LogicError
        | Owner | Communicator | Request => Ok (put p None (close_reset p s))
        end
    end
  else UB.

(** A program. *)
Fixpoint run (c : class) (prog : list op) (s : state) : outcome state :=
  match prog with
  | [] => Ok s
  | o :: prog' => do s' <- step c o s; run c prog' s'
  end.
