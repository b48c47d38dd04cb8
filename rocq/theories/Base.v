(** Shared vocabulary: outcomes of C++ calls and machine-integer ranges. *)
From Coq Require Import ZArith List Lia Bool.
Import ListNotations.
Open Scope Z_scope.

(** The exception classes thrown by the modelled code (all are std:: classes). *)
Inductive exn : Type :=
| InvalidArgument | OutOfRange | LogicError | BadVariantAccess | RuntimeError.

(** What a C++ call can do: return, throw, or have no defined behaviour.
    [NoFuel] is an artefact of fuelled recursion; theorems show it is not reached
    (or that it stands for a loop that does not end, where this is said). *)
Inductive outcome (A : Type) : Type :=
| Ok (a : A) | Throw (e : exn) | UB | NoFuel.
Arguments Ok {A} a.
Arguments Throw {A} e.
Arguments UB {A}.
Arguments NoFuel {A}.

Definition bind {A B} (m : outcome A) (f : A -> outcome B) : outcome B :=
  match m with
  | Ok a => f a
  | Throw e => Throw e
  | UB => UB
  | NoFuel => NoFuel
  end.

Declare Scope outcome_scope.
Delimit Scope outcome_scope with outcome.
Notation "'do' x <- m ; k" := (bind m (fun x => k))
  (at level 200, x name, m at level 100, k at level 200) : outcome_scope.
Notation "'do' ' p <- m ; k" := (bind m (fun p => k))
  (at level 200, p strict pattern, m at level 100, k at level 200) : outcome_scope.
Open Scope outcome_scope.

Definition int_min : Z := - 2 ^ 31.
Definition int_max : Z := 2 ^ 31 - 1.

(** Range of C++ [int] (32 bits, two's complement). *)
Definition in_int (z : Z) : bool := (int_min <=? z) && (z <=? int_max).

(** Result of signed arithmetic: undefined if it leaves the range of [int]. *)
Definition chk (z : Z) : outcome Z := if in_int z then Ok z else UB.

Lemma chk_ok z : in_int z = true -> chk z = Ok z.
Proof. unfold chk; intros ->; reflexivity. Qed.

Lemma in_int_spec z : in_int z = true <-> -2147483648 <= z <= 2147483647.
Proof.
  unfold in_int; rewrite andb_true_iff, !Z.leb_le.
  change int_min with (-2147483648); change int_max with 2147483647; tauto.
Qed.

Lemma bind_ok_inv {A B} (m : outcome A) (f : A -> outcome B) b :
  bind m f = Ok b -> exists a, m = Ok a /\ f a = Ok b.
Proof. destruct m; simpl; intros H; try discriminate; eauto. Qed.

Lemma bind_Ok {A B} (a : A) (f : A -> outcome B) : bind (Ok a) f = f a.
Proof. reflexivity. Qed.

Ltac bsimp := repeat (rewrite bind_Ok; cbv beta iota).

(** All outcomes of a list of calls, left to right; stops at the first failure. *)
Fixpoint mapM {A B} (f : A -> outcome B) (l : list A) : outcome (list B) :=
  match l with
  | [] => Ok []
  | a :: l' => do b <- f a; do bs <- mapM f l'; Ok (b :: bs)
  end.

Fixpoint foldM {A S} (f : S -> A -> outcome S) (s : S) (l : list A) : outcome S :=
  match l with
  | [] => Ok s
  | a :: l' => do s' <- f s a; foldM f s' l'
  end.
