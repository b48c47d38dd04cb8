(** Messages between two processes: src/core_mpi.hpp, send, recv, isend and irecv.  The MPI library is described by its rules for
    matching messages (MPI 3.1, sections 3.5 and 3.8): the messages from one process to another on one communicator stand in
    a queue in the order sent, and a receive takes the first message of such a queue whose tag fits.  Sends are buffered:
    that a send may wait for its receive, and so deadlock, is not modelled. *)
From Coq Require Import ZArith List Bool Arith.
From Verif Require Import Base.
Import ListNotations.

Section Messages.
Context {byte : Type}.
Variable zero : byte.

(** A tag and the characters. *)
Definition message : Type := Z * list byte.

(** The tag asked for, [None] for any_tag (src/core_mpi.hpp 48). *)
Definition fits (tag : option Z) (m : message) : bool := match tag with None => true | Some t => (fst m =? t)%Z end.
(** The first message of a queue that fits, and the queue without it (MPI 3.1, section 3.5, messages are non-overtaking). *)
Fixpoint first_match (tag : option Z) (q : list message) : option (message * list message) :=
  match q with
  | [] => None
  | m :: q' => if fits tag m then Some (m, q') else match first_match tag q' with Some (x, r) => Some (x, m :: r) | None => None end
  end.

(** A process in the middle of recv, after probe: source and tag asked for and the size of its buffer (src/core_mpi.hpp 535-536). *)
Definition pending : Type := option nat * option Z * nat.
Record world : Type := mk_world { queue : nat -> nat -> list message (* receiver, sender *) ; probed : nat -> option pending }.
Definition start : world := mk_world (fun _ _ => []) (fun _ => None).

Definition upd {A} (f : nat -> A) (i : nat) (a : A) : nat -> A := fun j => if Nat.eqb j i then a else f j.

(** What can happen next.  [pick] is the sender whose message the library chooses when the source is any_source
    (MPI 3.1, example 3.19: the receive after a probe chooses afresh). *)
Inductive action : Type :=
| Send (s d : nat) (tag : Z) (body : list byte)
| Probe (d : nat) (source : option nat) (tag : option Z) (pick : nat)
| Take (d : nat) (pick : nat).
Inductive event : Type :=
| Sent (s d : nat) (tag : Z) (body : list byte)
| Got (d s : nat) (tag : Z) (returned : list byte)
| Truncated (d : nat).

Definition picks (source : option nat) (s : nat) : bool := match source with None => true | Some s' => Nat.eqb s s' end.

(** send is src/core_mpi.hpp 573-576; recv is 533-540, in two parts: probe (503-508) with the allocation of the buffer, filled with
    zeros, then MPI_Recv with the same arguments.  A message that is longer than the buffer is an error that ends the program.
    [None]: the action can not happen now. *)
Definition act (w : world) (a : action) : option (world * list event) :=
  match a with
  | Send s d t b => Some (mk_world (upd (queue w) d (upd (queue w d) s (queue w d s ++ [(t, b)]))) (probed w), [Sent s d t b])
  | Probe d source tag pick =>
      match probed w d with
      | Some _ => None
      | None =>
          if picks source pick then
            match first_match tag (queue w d pick) with
            | Some ((_, b), _) => Some (mk_world (queue w) (upd (probed w) d (Some (source, tag, length b))), [])
            | None => None
            end
          else None
      end
  | Take d pick =>
      match probed w d with
      | None => None
      | Some (source, tag, n) =>
          if picks source pick then
            match first_match tag (queue w d pick) with
            | Some ((t, b), rest) =>
                let w' := mk_world (upd (queue w) d (upd (queue w d) pick rest)) (upd (probed w) d None) in
                if (length b <=? n)%nat then Some (w', [Got d pick t (b ++ repeat zero (n - length b))]) else Some (w', [Truncated d])
            | None => None
            end
          else None
      end
  end.
Fixpoint exec (w : world) (l : list action) : option (world * list event) :=
  match l with
  | [] => Some (w, [])
  | a :: l' => match act w a with
               | None => None
               | Some (w', e) => match exec w' l' with None => None | Some (w'', es) => Some (w'', e ++ es) end
               end
  end.
End Messages.
Arguments world byte : clear implicits.
Arguments action byte : clear implicits.
Arguments event byte : clear implicits.
Arguments message byte : clear implicits.

(** ** Where the characters of a non-blocking message are *)
Section Requests.
Context {byte : Type}.
Variable zero : byte.
(** A std::string of at most [sso] characters keeps them in the object itself (15 in libstdc++, 22 in libc++), a longer one in a
    block on the heap. *)
Variable sso : nat.

Inductive loc : Type := Inline (object : nat) | Block.
Definition loc_eqb (a b : loc) : bool := match a, b with Inline i, Inline j => Nat.eqb i j | Block, Block => true | _, _ => false end.
(** Storage: [None] where no object lives any more. *)
Definition memory : Type := loc -> option (list byte).
Definition set (m : memory) (l : loc) (x : option (list byte)) : memory := fun l' => if loc_eqb l' l then x else m l'.
(** Where a string object of [n] characters has them. *)
Definition data_of (n object : nat) : loc := if (n <=? sso)%nat then Inline object else Block.

(** Moving a string from object [i] to object [i + 1] (src/core_mpi.hpp 564 and 600, and 133 in the move constructor of Request): a
    long string hands over its block; a short one is copied and then made empty by writing a zero at its start. *)
Definition move (n i : nat) (m : memory) : memory :=
  if (n <=? sso)%nat then
    match m (Inline i) with
    | Some b => set (set m (Inline (S i)) (Some b)) (Inline i) (Some (match b with [] => [] | _ :: r => zero :: r end))
    | None => m
    end
  else m.
(** The end of the object that was moved from: the argument or local variable [buf] of isend or irecv (src/core_mpi.hpp 603 and
    568), or a Request. *)
Definition destroy (i : nat) (m : memory) : memory := set m (Inline i) None.

Inductive storage_step : Type := Move (i : nat) | Destroy (i : nat).
Definition step_storage (n : nat) (m : memory) (s : storage_step) : memory := match s with Move i => move n i m | Destroy i => destroy i m end.
(** The first move and end of object are in isend or irecv itself, the others ([moves] many) are those of the Request. *)
Definition storage_steps (moves : nat) : list storage_step := flat_map (fun i => [Move i; Destroy i]) (seq 0 (S moves)).
Definition run_storage (n : nat) (m : memory) (l : list storage_step) : memory := fold_left (step_storage n) l m.

(** The storage when MPI_Isend or MPI_Irecv is called: object 0 is [buf]. *)
Definition posted (b : list byte) : memory := set (fun _ => None) (data_of (length b) 0) (Some b).

(** isend, src/core_mpi.hpp 594-604, then [moves] moves of the Request, then wait (222-225): the library reads the characters at the
    address it was given after [when] of these steps, at the latest in wait.  The result is what is sent. *)
Definition isend (b : list byte) (moves when : nat) : outcome (list byte) :=
  match b with
  | [] => Ok []
  | _ => match run_storage (length b) (posted b) (firstn when (storage_steps moves)) (data_of (length b) 0) with Some x => Ok x | None => UB end
  end.
(** irecv, src/core_mpi.hpp 550-569, when a message [b] has arrived, then moves and get (232-237): the library writes the characters to
    the address it was given.  The result is what get returns. *)
Definition irecv_some (b : list byte) (moves when : nat) : outcome (list byte) :=
  match b with
  | [] => Ok []
  | _ =>
      let n := length b in
      let m := run_storage n (posted (repeat zero n)) (firstn when (storage_steps moves)) in
      match m (data_of n 0) with
      | None => UB
      | Some _ =>
          let m' := run_storage n (set m (data_of n 0) (Some b)) (skipn when (storage_steps moves)) in
          match m' (data_of n (S moves)) with Some x => Ok x | None => UB end
      end
  end.
(** irecv with the answer of iprobe (src/core_mpi.hpp 515-526): with no message yet it gives a null request, for which get returns the
    empty string at once. *)
Definition irecv (arrived : option (list byte)) (moves when : nat) : outcome (list byte) :=
  match arrived with None => Ok [] | Some b => irecv_some b moves when end.
(** get<T>, src/core_mpi.hpp 243-260, as far as the size goes. *)
Definition get_value {T} (size : nat) (dec : list byte -> T) (arrived : option (list byte)) (moves when : nat) : outcome T :=
  if negb (length (match arrived with None => [] | Some b => b end) =? size)%nat then Throw LogicError
  else do b <- irecv arrived moves when; Ok (dec b).
End Requests.
