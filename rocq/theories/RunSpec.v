(** What a complete run should write, in terms of the times of its solutions. *)
From Coq Require Import List Arith ZArith Reals.
Import ListNotations.
Open Scope R_scope.

(** [t i] is the time after [i] steps. The output with number [k] of a task with interval [I] is made of the solution
    after [i] steps: the first one is made of the initial solution; each other one is made after the step that follows
    the first time at or beyond [k * I]. *)
Definition at_round (t : nat -> R) (I : R) (k i : nat) : Prop :=
  match i with
  | 0 => k = 0%nat
  | S i' => (0 < k)%nat /\ INR k * I <= t i' /\ forall j, (j < i')%nat -> t j < INR k * I
  end.

(** The time at which the schedule was last asked, for the solution after [i] steps. *)
Definition asked (t : nat -> R) (i : nat) : R := match i with 0 => 0 | S i' => t i' end.

(** [k] is the number of whole intervals in [x]. *)
Definition whole_intervals (I x : R) (k : nat) : Prop := INR k * I <= x < (INR k + 1) * I.

(** A run of [N] steps from time 0, no step longer than the interval [I]. *)
Definition steps_within (t : nat -> R) (I : R) (N : nat) : Prop :=
  0 < I /\ t 0%nat = 0 /\ forall i, (i < N)%nat -> t i <= t (S i) <= t i + I.
