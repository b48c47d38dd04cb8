(** Specification vocabulary for rational numbers, independent of the model's arithmetic. *)
From Coq Require Import ZArith QArith Bool.
From Verif Require Import Base RationalModel.
Open Scope Z_scope.

Definition int32 z := -2147483648 <= z <= 2147483647.

(** Canonical form with positive denominator, all in [int] range. *)
Definition wf (x : rat) : Prop :=
  int32 (num x) /\ 0 < den x <= 2147483647 /\ (num x <> 0 -> Z.gcd (num x) (den x) = 1).

(** The rational number a representation stands for. *)
Definition toQ (x : rat) : Q := Qmake (num x) (Z.to_pos (den x)).

(** The intermediate int results of +, -, *, / stay in range (and away from INT_MIN, whose
    absolute value is not an int). *)
Definition safe z := -2147483647 <= z <= 2147483647.

Definition safe_add (x y : rat) : Prop :=
  safe (num x * den y) /\ safe (den x * num y) /\
  safe (num x * den y + den x * num y) /\ safe (den x * den y).
Definition safe_sub (x y : rat) : Prop :=
  safe (num x * den y) /\ safe (den x * num y) /\
  safe (num x * den y - den x * num y) /\ safe (den x * den y).
Definition safe_mul (x y : rat) : Prop := safe (num x * num y) /\ safe (den x * den y).
Definition safe_div (x y : rat) : Prop := safe (num x * den y) /\ safe (den x * num y).

(** Outcome of an operation: exact canonical result, or undefined because of overflow. *)
Definition exact_or_overflow (o : outcome rat) (q : Q) (no_overflow : Prop) : Prop :=
  (exists r, o = Ok r /\ wf r /\ (toQ r == q)%Q) \/ (o = UB /\ ~ no_overflow).

