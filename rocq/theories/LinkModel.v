(** Model of core_linked_list.hpp: list objects (a value and a reference counted pointer to the next
    node), a heap of nodes, and the code's operations on them, including temporaries, copy
    assignment and the iterative destructor.  The class declares a destructor, so it has copy
    operations only (no moves).  Simplified: addresses are never reused; allocation never fails;
    one thread; the call stack is unbounded; [std::make_shared] is one step. *)
From Coq Require Import List Arith Bool Lia.
From Verif Require Import Base.
Import ListNotations.

Section Links.
Context {V : Type} (eqb : V -> V -> bool) (garbage : V).

(** core_linked_list.hpp:380-381, the data members. *)
Record obj := { oval : V; onext : option nat }.

(** A heap node: a list object and the use count of its control block. *)
Record cell := { cobj : obj; ccount : nat }.

(** Addresses are positions; [None] is a freed node. *)
Definition heap := list (option cell).

Fixpoint put (a : nat) (c : option cell) (h : heap) : heap :=
  match h, a with [], _ => [] | _ :: h, O => c :: h | x :: h, S a => x :: put a c h end.

(** Dereferencing a freed node is undefined. *)
Definition get (h : heap) (a : nat) : outcome cell :=
  match nth_error h a with Some (Some c) => Ok c | _ => UB end.

(** Copying a shared_ptr. *)
Definition incr (n : option nat) (h : heap) : outcome heap :=
  match n with
  | None => Ok h
  | Some a => do c <- get h a; Ok (put a (Some {| cobj := cobj c; ccount := S (ccount c) |}) h)
  end.

(** core_linked_list.hpp:92-107, the destructor's loop, [n] being [next_node]; line 98 [unique],
    101-102 the swap, 104 the reset that frees the node, whose own [__next] is now null.  Falling
    out of the loop by [break], [next_node] itself is destroyed. *)
Fixpoint destroy_loop (fuel : nat) (n : option nat) (h : heap) : outcome heap :=
  match n with
  | None => Ok h
  | Some a =>
    match fuel with
    | O => NoFuel
    | S fuel =>
      do c <- get h a;
      match ccount c with
      | O => UB
      | S O => destroy_loop fuel (onext (cobj c)) (put a None h)
      | S k => Ok (put a (Some {| cobj := cobj c; ccount := k |}) h)
      end
    end
  end.
Definition destroy (o : obj) (h : heap) : outcome heap := destroy_loop (length h) (onext o) h.

(** A reference to a list object: a variable or temporary, or the object inside a node. *)
Inductive ref := Obj (o : obj) | Cell (a : nat).
Definition deref (r : ref) (h : heap) : outcome obj :=
  match r with Obj o => Ok o | Cell a => do c <- get h a; Ok (cobj c) end.

(** core_linked_list.hpp:112. *)
Definition empty_list : obj := {| oval := garbage; onext := None |}.

(** Implicit copy constructor. *)
Definition copy (r : ref) (h : heap) : outcome (obj * heap) :=
  do o <- deref r h; do h <- incr (onext o) h; Ok (o, h).

(** Implicit copy assignment [x = r], [x] being the object assigned to: the value, then the pointer
    (copied first, then the old node released, in the order of shared_ptr).  Dropping the last
    reference to a node runs the destructor of the node, which continues like [destroy_loop]. *)
Definition assign (x : obj) (r : ref) (h : heap) : outcome (obj * heap) :=
  do o <- deref r h; do h <- incr (onext o) h; do h <- destroy_loop (length h) (onext x) h; Ok (o, h).

(** core_linked_list.hpp:123-132: the node is a copy of [next]. *)
Definition cons_list (v : V) (r : ref) (h : heap) : outcome (obj * heap) :=
  do '(o, h) <- copy r h; Ok ({| oval := v; onext := Some (length h) |}, h ++ [Some {| cobj := o; ccount := 1 |}]).

(** core_linked_list.hpp:185. *)
Definition is_empty (o : obj) : bool := match onext o with None => true | _ => false end.

(** core_linked_list.hpp:288-295. *)
Definition head (o : obj) : outcome V := if is_empty o then Throw OutOfRange else Ok (oval o).
(** core_linked_list.hpp:305-312: a reference into the node. *)
Definition tail (o : obj) : outcome ref := match onext o with None => Throw OutOfRange | Some a => Ok (Cell a) end.

(** core_linked_list.hpp:221-224. *)
Definition prepend (v : V) (this : ref) (h : heap) : outcome (obj * heap) := cons_list v this h.

(** core_linked_list.hpp:236-239. *)
Fixpoint append_list (fuel : nat) (v : V) (this : ref) (h : heap) : outcome (obj * heap) :=
  match fuel with
  | O => NoFuel
  | S fuel =>
    do o <- deref this h;
    if is_empty o then cons_list v this h
    else
      do t <- tail o;
      do '(t1, h) <- append_list fuel v t h;
      do o <- deref this h; do x <- head o;
      do '(res, h) <- prepend x (Obj t1) h;
      do h <- destroy t1 h; Ok (res, h)
  end.

(** core_linked_list.hpp:252-255. *)
Fixpoint concat_list (fuel : nat) (this other : ref) (h : heap) : outcome (obj * heap) :=
  match fuel with
  | O => NoFuel
  | S fuel =>
    do o <- deref this h;
    if is_empty o then copy other h
    else
      do t <- tail o;
      do '(t1, h) <- concat_list fuel t other h;
      do o <- deref this h; do x <- head o;
      do '(res, h) <- cons_list x (Obj t1) h;
      do h <- destroy t1 h; Ok (res, h)
  end.

(** core_linked_list.hpp:266-277. *)
Fixpoint reverse_loop (fuel : nat) (A B : obj) (h : heap) : outcome (obj * heap) :=
  match fuel with
  | O => NoFuel
  | S fuel =>
    if is_empty A then do h <- destroy A h; Ok (B, h)
    else
      do x <- head A;
      do '(tmp, h) <- prepend x (Obj B) h;
      do '(B, h) <- assign B (Obj tmp) h;
      do h <- destroy tmp h;
      do t <- tail A;
      do '(A, h) <- assign A t h;
      reverse_loop fuel A B h
  end.
Definition reverse_list (fuel : nat) (this : ref) (h : heap) : outcome (obj * heap) :=
  do '(A, h) <- copy this h; reverse_loop fuel A empty_list h.

(** core_linked_list.hpp:141-150 and 163-173: construction from a sequence of values. *)
Fixpoint prepend_all (vs : list V) (result : obj) (h : heap) : outcome (obj * heap) :=
  match vs with
  | [] => Ok (result, h)
  | v :: vs =>
    do '(tmp, h) <- prepend v (Obj result) h;
    do '(result, h) <- assign result (Obj tmp) h;
    do h <- destroy tmp h;
    prepend_all vs result h
  end.
Definition from_values (vs : list V) (h : heap) : outcome (obj * heap) :=
  do '(result, h) <- prepend_all vs empty_list h;
  do '(tmp, h) <- reverse_list (S (length h)) (Obj result) h;
  do '(this, h) <- assign empty_list (Obj tmp) h;
  do h <- destroy tmp h;
  do h <- destroy result h;
  Ok (this, h).

(** core_linked_list.hpp:198-209, with iterators 62-82 (each holds a list). *)
Fixpoint size_loop (fuel n : nat) (it : obj) (h : heap) : outcome (nat * heap) :=
  match fuel with
  | O => NoFuel
  | S fuel =>
    if is_empty it then do h <- destroy it h; Ok (n, h)
    else do t <- tail it; do '(it, h) <- assign it t h; size_loop fuel (S n) it h
  end.
Definition size (fuel : nat) (this : ref) (h : heap) : outcome (nat * heap) :=
  do '(it, h) <- copy this h; size_loop fuel 0 it h.

(** core_linked_list.hpp:350-361. *)
Fixpoint equal (fuel : nat) (this other : ref) (h : heap) : outcome bool :=
  match fuel with
  | O => NoFuel
  | S fuel =>
    do o <- deref this h; do p <- deref other h;
    if negb (is_empty o) && negb (is_empty p) then
      do x <- head o; do y <- head p;
      if eqb x y then do t <- tail o; do u <- tail p; equal fuel t u h else Ok false
    else Ok (is_empty o && is_empty p)
  end.

(** ** Client programs: list variables, and statements using them in arbitrary order. *)

Inductive expr :=
| Empty | Values (vs : list V) | Prepend (v : V) (i : nat) | Append (v : V) (i : nat)
| Concat (i j : nat) | Reverse (i : nat) | CopyOf (i : nat) | TailOf (i : nat).
Inductive stmt :=
| New (e : expr)                (* linked_list_t x = e; *)
| Assign (i : nat) (e : expr)   (* x = e; *)
| Destroy (i : nat)             (* end of the lifetime of x *)
| Head (i : nat) | Size (i : nat) | Equal (i j : nat).
Inductive output := OVal (v : V) | ONat (n : nat) | OBool (b : bool) | OThrow (e : exn) | OBadName.

(** Lvalues ([x], [x.tail()]) are copied or assigned directly, other expressions give a temporary. *)
Definition eval_lvalue (e : expr) (vars : list obj) : option (outcome ref) :=
  match e with
  | CopyOf i => match nth_error vars i with Some o => Some (Ok (Obj o)) | None => None end
  | TailOf i => match nth_error vars i with Some o => Some (tail o) | None => None end
  | _ => None
  end.
Definition eval_prvalue (e : expr) (vars : list obj) (h : heap) : option (outcome (obj * heap)) :=
  let fuel := S (length h) in
  match e with
  | Empty => Some (Ok (empty_list, h))
  | Values vs => Some (from_values vs h)
  | Prepend v i => match nth_error vars i with Some o => Some (prepend v (Obj o) h) | None => None end
  | Append v i => match nth_error vars i with Some o => Some (append_list fuel v (Obj o) h) | None => None end
  | Concat i j =>
    match nth_error vars i, nth_error vars j with
    | Some o, Some p => Some (concat_list fuel (Obj o) (Obj p) h) | _, _ => None end
  | Reverse i => match nth_error vars i with Some o => Some (reverse_list fuel (Obj o) h) | None => None end
  | CopyOf _ | TailOf _ => None
  end.

Definition eval_new (e : expr) (vars : list obj) (h : heap) : option (outcome (obj * heap)) :=
  match eval_lvalue e vars with
  | Some r => Some (do r <- r; copy r h)
  | None => eval_prvalue e vars h
  end.
Definition eval_assign (x : obj) (e : expr) (vars : list obj) (h : heap) : option (outcome (obj * heap)) :=
  match eval_lvalue e vars with
  | Some r => Some (do r <- r; assign x r h)
  | None =>
    match eval_prvalue e vars h with
    | Some m => Some (do '(tmp, h) <- m; do '(x, h) <- assign x (Obj tmp) h; do h <- destroy tmp h; Ok (x, h))
    | None => None
    end
  end.

Definition set_nth {T} (i : nat) (x : T) (l : list T) : list T := firstn i l ++ x :: skipn (S i) l.
Definition del_nth {T} (i : nat) (l : list T) : list T := firstn i l ++ skipn (S i) l.

Record state := { vars : list obj; mem : heap; log : list output }.

(** An exception leaves the variables alone and is caught by the client. *)
Definition settle {T} (s : state) (m : option (outcome T)) (k : T -> outcome state) : outcome state :=
  match m with
  | None => Ok {| vars := vars s; mem := mem s; log := OBadName :: log s |}
  | Some (Throw e) => Ok {| vars := vars s; mem := mem s; log := OThrow e :: log s |}
  | Some m => do x <- m; k x
  end.

Definition exec (s : state) (c : stmt) : outcome state :=
  match c with
  | New e => settle s (eval_new e (vars s) (mem s)) (fun '(o, h) => Ok {| vars := vars s ++ [o]; mem := h; log := log s |})
  | Assign i e =>
    settle s (match nth_error (vars s) i with Some x => eval_assign x e (vars s) (mem s) | None => None end)
      (fun '(o, h) => Ok {| vars := set_nth i o (vars s); mem := h; log := log s |})
  | Destroy i =>
    settle s (match nth_error (vars s) i with Some x => Some (destroy x (mem s)) | None => None end)
      (fun h => Ok {| vars := del_nth i (vars s); mem := h; log := log s |})
  | Head i =>
    settle s (match nth_error (vars s) i with Some x => Some (head x) | None => None end)
      (fun v => Ok {| vars := vars s; mem := mem s; log := OVal v :: log s |})
  | Size i =>
    settle s (match nth_error (vars s) i with Some x => Some (size (S (length (mem s))) (Obj x) (mem s)) | None => None end)
      (fun '(n, h) => Ok {| vars := vars s; mem := h; log := ONat n :: log s |})
  | Equal i j =>
    settle s (match nth_error (vars s) i, nth_error (vars s) j with
              | Some x, Some y => Some (equal (S (length (mem s))) (Obj x) (Obj y) (mem s)) | _, _ => None end)
      (fun b => Ok {| vars := vars s; mem := mem s; log := OBool b :: log s |})
  end.

Definition run (p : list stmt) : outcome state := foldM exec {| vars := []; mem := []; log := [] |} p.
End Links.
Arguments obj : clear implicits.
Arguments cell : clear implicits.
Arguments heap : clear implicits.
Arguments expr : clear implicits.
Arguments stmt : clear implicits.
Arguments output : clear implicits.
Arguments state : clear implicits.
Arguments ref : clear implicits.
