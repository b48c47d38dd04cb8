(** Specification for the linked lists: the same client programs over ordinary immutable lists. *)
From Coq Require Import List Arith Bool.
From Verif Require Import Base LinkModel.
Import ListNotations.

Section Spec.
Context {V : Type} (eqb : V -> V -> bool).

Definition pure_tail (l : list V) : outcome (list V) := match l with [] => Throw OutOfRange | _ :: t => Ok t end.
Definition pure_head (l : list V) : outcome V := match l with [] => Throw OutOfRange | x :: _ => Ok x end.
Fixpoint pure_eq (l m : list V) : bool :=
  match l, m with [], [] => true | x :: l, y :: m => eqb x y && pure_eq l m | _, _ => false end.

(** [None]: a variable that does not exist. *)
Definition pure_eval (e : expr V) (vs : list (list V)) : option (outcome (list V)) :=
  match e with
  | Empty => Some (Ok [])
  | Values l => Some (Ok l)
  | Prepend v i => option_map (fun l => Ok (v :: l)) (nth_error vs i)
  | Append v i => option_map (fun l => Ok (l ++ [v])) (nth_error vs i)
  | Concat i j => match nth_error vs i, nth_error vs j with Some l, Some m => Some (Ok (l ++ m)) | _, _ => None end
  | Reverse i => option_map (fun l => Ok (rev l)) (nth_error vs i)
  | CopyOf i => option_map (fun l => Ok l) (nth_error vs i)
  | TailOf i => option_map pure_tail (nth_error vs i)
  end.

Definition pure_state : Type := list (list V) * list (output V).
Definition pure_settle {T} (s : pure_state) (m : option (outcome T)) (k : T -> pure_state) : pure_state :=
  match m with
  | Some (Ok x) => k x
  | Some (Throw e) => (fst s, OThrow e :: snd s)
  | _ => (fst s, OBadName :: snd s)
  end.
Definition pure_exec (s : pure_state) (c : stmt V) : pure_state :=
  let (vs, lg) := s in
  match c with
  | New e => pure_settle s (pure_eval e vs) (fun l => (vs ++ [l], lg))
  | Assign i e => pure_settle s (match nth_error vs i with Some _ => pure_eval e vs | None => None end) (fun l => (set_nth i l vs, lg))
  | Destroy i => pure_settle s (option_map (fun _ => Ok tt) (nth_error vs i)) (fun _ => (del_nth i vs, lg))
  | Head i => pure_settle s (option_map pure_head (nth_error vs i)) (fun v => (vs, OVal v :: lg))
  | Size i => pure_settle s (option_map (fun l => Ok (length l)) (nth_error vs i)) (fun n => (vs, ONat n :: lg))
  | Equal i j =>
    pure_settle s (match nth_error vs i, nth_error vs j with Some l, Some m => Some (Ok (pure_eq l m)) | _, _ => None end)
      (fun b => (vs, OBool b :: lg))
  end.
Definition pure_run (p : list (stmt V)) : pure_state := fold_left pure_exec p ([], []).

(** What the pointers on the heap spell out, starting from a list object. *)
Inductive spells (h : heap V) : obj V -> list V -> Prop :=
| spells_nil o : onext o = None -> spells h o []
| spells_cons o a c l : onext o = Some a -> nth_error h a = Some (Some c) -> spells h (cobj c) l -> spells h o (oval o :: l).

(** A node can be reached from some variable. *)
Inductive reached (h : heap V) (vs : list (obj V)) : nat -> Prop :=
| reached_var o a : In o vs -> onext o = Some a -> reached h vs a
| reached_next a b c : reached h vs a -> nth_error h a = Some (Some c) -> onext (cobj c) = Some b -> reached h vs b.
End Spec.
