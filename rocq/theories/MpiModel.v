(** Collective operations and typed messages: src/core_mpi.hpp.  Each collective is modelled for all ranks together: the
    list of what the ranks pass in gives the list of what they get back.  The MPI library itself is described by
    [read_at] and [place] at the level of bytes (MPI 3.1, sections 5.5 - 5.8); requests, probing, ordering of messages and
    communicators are not modelled. *)
From Coq Require Import ZArith List Bool.
From Verif Require Import Base.
Import ListNotations.
Open Scope Z_scope.

(** Conversion of an unsigned value to int, modulo 2^32 (implementation-defined in C++17; what gcc and clang do). *)
Definition to_int (z : Z) : Z := (z + 2 ^ 31) mod 2 ^ 32 - 2 ^ 31.

(** std::partial_sum over ints, src/core_mpi.hpp 717 and 797: signed overflow is undefined. *)
Fixpoint partial_sums (acc : Z) (l : list Z) : outcome (list Z) :=
  match l with
  | [] => Ok []
  | c :: l' => do s <- chk (acc + c); do r <- partial_sums s l'; Ok (s :: r)
  end.

Section Mpi.
Context {byte T : Type}.
(** The zero byte; sizeof(T); the bytes of a value and the value of some bytes (std::memcpy, trivially copyable types). *)
Variables (zero : byte) (sz : nat) (enc : T -> list byte) (dec : list byte -> T).
(** [strict]: &v[0] of an empty vector is undefined, as the language has it; otherwise it is a pointer that is not followed. *)
Variable strict : bool.

Definition address_of {A} (v : list A) : outcome unit := if strict then match v with [] => UB | _ => Ok tt end else Ok tt.

(** What MPI reads from a buffer: [n] bytes from [off]. *)
Definition read_at (buf : list byte) (off n : Z) : outcome (list byte) :=
  if (0 <=? off) && (0 <=? n) && (off + n <=? Z.of_nat (length buf)) then Ok (firstn (Z.to_nat n) (skipn (Z.to_nat off) buf)) else UB.
(** What MPI writes to a buffer. *)
Definition place (buf : list byte) (off : Z) (data : list byte) : outcome (list byte) :=
  if (0 <=? off) && (off + Z.of_nat (length data) <=? Z.of_nat (length buf)) then
    Ok (firstn (Z.to_nat off) buf ++ data ++ skipn (Z.to_nat off + length data) buf)
  else UB.

(** std::vector<T>(bytes / sizeof(T)), src/core_mpi.hpp 720, 731, 799 and 810: the number of elements.  A negative int becomes a huge
    unsigned number, for which the constructor throws std::length_error. *)
Definition vector_of (bytes : Z) : outcome nat := if bytes <? 0 then Throw LogicError else Ok (Z.to_nat (bytes / Z.of_nat sz)).

(** The elements in the bytes of a vector. *)
Fixpoint elements (n : nat) (buf : list byte) : list T :=
  match n with 0%nat => [] | S n' => dec (firstn sz buf) :: elements n' (skipn sz buf) end.

(** scatter of one value per rank, src/core_mpi.hpp 671-688: [P] ranks, [values] at the root.  Only the root tests the size. *)
Definition scatter {V} (P : nat) (values : list V) : outcome (list V) :=
  if negb (length values =? P)%nat then Throw InvalidArgument else Ok values.

(** The counts, displacements and bytes that the root of scatter-v sends, src/core_mpi.hpp 708-717. *)
Definition send_counts (values : list (list T)) : list Z := map (fun v => to_int (Z.of_nat (length v) * Z.of_nat sz)) values.
Definition send_displs (counts : list Z) : outcome (list Z) := do r <- partial_sums 0 (removelast counts); Ok (0 :: r).

(** What one rank receives in scatter-v, src/core_mpi.hpp 719-726 and 730-737. *)
Definition receive (sendbuf : list byte) (p : Z * Z) : outcome (list T) :=
  let '(count, displ) := p in
  do n <- vector_of count;
  do _ <- address_of (repeat zero n);
  do data <- read_at sendbuf displ count;
  do buf <- place (repeat zero (n * sz)) 0 data;
  Ok (elements n buf).

(** scatter of a vector per rank (scatter-v), src/core_mpi.hpp 696-740. *)
Definition scatterv (P : nat) (values : list (list T)) : outcome (list (list T)) :=
  if negb (length values =? P)%nat then Throw InvalidArgument
  else
    let counts := send_counts values in
    let sendbuf := flat_map enc (concat values) in
    do displs <- send_displs counts;
    do recvcounts <- scatter P counts;
    do _ <- address_of (concat values);
    mapM (receive sendbuf) (combine recvcounts displs).

(** all_gather of one value per rank, src/core_mpi.hpp 772-779. *)
Definition all_gather {V} (values : list V) : outcome (list V) := Ok values.

(** The copy loop of all-gather-v, src/core_mpi.hpp 805-816: *recv++ past the end is undefined. *)
Fixpoint split_by (counts : list Z) (recv : list T) : outcome (list (list T)) :=
  match counts with
  | [] => Ok []
  | c :: cs =>
      do n <- vector_of c;
      if (n <=? length recv)%nat then do r <- split_by cs (skipn n recv); Ok (firstn n recv :: r) else UB
  end.

(** all_gather of a vector per rank (all-gather-v), src/core_mpi.hpp 790-818: every rank gets the same. *)
Definition all_gatherv (values : list (list T)) : outcome (list (list T)) :=
  do counts <- all_gather (map (fun v => to_int (Z.of_nat (length v) * Z.of_nat sz)) values);
  do sums <- partial_sums 0 counts;
  let displs := 0 :: sums in
  do n <- vector_of (last displs 0);
  do _ <- mapM address_of values;
  do _ <- address_of (repeat zero n);
  do buf <- foldM (fun buf '(v, (c, d)) =>
                     do data <- read_at (flat_map enc v) 0 c;
                     place buf d data)
                  (repeat zero (n * sz)) (combine values (combine counts displs));
  split_by counts (elements n buf).

(** all_to_all, src/core_mpi.hpp 747-763: every rank passes a vector, one value for each rank. *)
Definition all_to_all (values : list (list T)) : outcome (list (list T)) :=
  let P := length values in
  do _ <- mapM (fun v => if negb (length v =? P)%nat then Throw InvalidArgument else Ok tt) values;
  mapM (fun r =>
          do parts <- mapM (fun v => read_at (flat_map enc v) (Z.of_nat (r * sz)) (Z.of_nat sz)) values;
          do buf <- place (repeat zero (P * sz)) 0 (concat parts);
          Ok (elements P buf))
       (seq 0 P).

(** send<T> and recv<T>, src/core_mpi.hpp 610-617 and 638-652: the message is a string of sizeof(T) characters. *)
Definition send_value (v : T) : list byte := enc v.
Definition recv_value (buf : list byte) : outcome T := if negb (length buf =? sz)%nat then Throw LogicError else Ok (dec buf).
End Mpi.
