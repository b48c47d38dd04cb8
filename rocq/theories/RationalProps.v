(** Properties C01-C03: rational numbers (src/core_rational.hpp). *)
From Coq Require Import ZArith QArith List Bool.
From Verif Require Import Base RationalModel RationalSpec RationalProofs.
Import ListNotations.
Open Scope Z_scope.

(** C01. Every value a program can get hold of is canonical. *)
Theorem rational_values_canonical : forall x, reachable x -> wf x.
Proof. exact reachable_wf. Qed.

(** C01. On reachable operands each operation returns the exact result in canonical form,
    unless an intermediate int overflows; it never throws and the gcd loop ends. *)
Theorem rational_add_exact : forall x y, reachable x -> reachable y ->
  exact_or_overflow (radd x y) (toQ x + toQ y)%Q (safe_add x y).
Proof. intros; apply radd_total; apply reachable_wf; assumption. Qed.

Theorem rational_sub_exact : forall x y, reachable x -> reachable y ->
  exact_or_overflow (rsub x y) (toQ x - toQ y)%Q (safe_sub x y).
Proof. intros; apply rsub_total; apply reachable_wf; assumption. Qed.

Theorem rational_mul_exact : forall x y, reachable x -> reachable y ->
  exact_or_overflow (rmul x y) (toQ x * toQ y)%Q (safe_mul x y).
Proof. intros; apply rmul_total; apply reachable_wf; assumption. Qed.

Theorem rational_div_exact : forall x y, reachable x -> reachable y -> ~ (toQ y == 0)%Q ->
  exact_or_overflow (rdiv x y) (toQ x / toQ y)%Q (safe_div x y).
Proof. intros; apply rdiv_total; auto using reachable_wf. Qed.

Theorem rational_div_by_zero_throws : forall x y, reachable x -> reachable y ->
  (toQ y == 0)%Q -> in_int (num x * den y) = true -> rdiv x y = Throw InvalidArgument.
Proof. intros; apply rdiv_zero_throws; auto using reachable_wf. Qed.

Theorem rational_make_exact : forall n d, safe n -> safe d -> d <> 0 ->
  exists r, make_rat n d = Ok r /\ wf r /\ num r * d = n * den r.
Proof.
  intros n d Hn Hd H0. destruct (make_rat_correct n d Hn Hd H0) as (r & E & W & V & _). eauto.
Qed.

Theorem rational_make_zero_den_throws : forall n, make_rat n 0 = Throw InvalidArgument.
Proof. exact make_rat_zero. Qed.

(** Non-trivial instance: 5/6 - 1/10 = 11/15, through operands built by the constructor. *)
Example rational_sub_example :
  exists x y r, make_rat 10 12 = Ok x /\ make_rat (-3) (-30) = Ok y /\
    reachable x /\ reachable y /\ safe_sub x y /\ rsub x y = Ok r /\ r = mkrat 11 15.
Proof.
  exists (mkrat 5 6), (mkrat 1 10), (mkrat 11 15).
  repeat split; try reflexivity; try (unfold safe; simpl; discriminate);
    [apply (reach_make 10 12)|apply (reach_make (-3) (-30))]; reflexivity.
Qed.

(** C02. The order comparisons are the mathematical ones. *)
Theorem rational_compare_correct : forall x y, reachable x -> reachable y -> safe_sub x y ->
  exists bl bg ble bge,
    rlt x y = Ok bl /\ rgt x y = Ok bg /\ rle x y = Ok ble /\ rge x y = Ok bge /\
    (bl = true <-> (toQ x < toQ y)%Q) /\ (bg = true <-> (toQ y < toQ x)%Q) /\
    (ble = true <-> (toQ x <= toQ y)%Q) /\ (bge = true <-> (toQ y <= toQ x)%Q).
Proof. intros; apply cmp_correct; auto using reachable_wf. Qed.

(** C02. Equality is equality of values, except that zeros are compared with their denominators. *)
Theorem rational_eq_spec : forall x y, reachable x -> reachable y ->
  (req x y = true <-> ((toQ x == toQ y)%Q /\ (num x = 0 -> den x = den y))).
Proof. intros; apply req_spec; auto using reachable_wf. Qed.

Theorem rational_ne_is_not_eq : forall x y, rne x y = negb (req x y).
Proof. exact rne_negb. Qed.

(** C02, finding: 1/2 - 1/2 is the zero 0/4, which is not == 0 and not == 0/1. *)
Theorem rational_eq_by_value_refuted :
  exists x y, reachable x /\ reachable y /\ rsub x x = Ok y /\
    (toQ y == 0)%Q /\ (toQ y == toQ (rat_of_int 0))%Q /\ req y (rat_of_int 0) = false.
Proof.
  exists (mkrat 1 2), (mkrat 0 4). repeat split; try reflexivity.
  - apply (reach_make 1 2); reflexivity.
  - apply (reach_sub (mkrat 1 2) (mkrat 1 2)); try reflexivity; apply (reach_make 1 2); reflexivity.
Qed.

Example rational_compare_example :
  reachable (mkrat 2 3) /\ reachable (mkrat (-7) 5) /\ safe_sub (mkrat 2 3) (mkrat (-7) 5) /\
  rlt (mkrat 2 3) (mkrat (-7) 5) = Ok false /\ rgt (mkrat 2 3) (mkrat (-7) 5) = Ok true.
Proof.
  repeat split; try reflexivity; try (unfold safe; simpl; discriminate).
  - apply (reach_make 4 6); reflexivity.
  - apply (reach_make 7 (-5)); reflexivity.
Qed.

(** C03. After any mixture of first- and second-order steps the counter is the number of steps
    (as a fraction over one), so reading it as an integer succeeds. The bound is where the
    int product 4(n+1) formed by the averaging overflows. *)
Theorem step_counter_exact : forall steps,
  Z.of_nat (length steps) <= 536870911 ->
  exists i, run_count (rat_of_int 0) steps = Ok i /\
    as_integral i = Ok (Z.of_nat (length steps)).
Proof.
  intros steps H. exists (mkrat (0 + Z.of_nat (length steps)) 1). split.
  - apply run_count_int; [discriminate|exact H].
  - reflexivity.
Qed.

(** C03, starting from a checkpointed counter n. *)
Theorem step_counter_exact_from : forall n steps, 0 <= n ->
  n + Z.of_nat (length steps) <= 536870911 ->
  exists i, run_count (rat_of_int n) steps = Ok i /\
    as_integral i = Ok (n + Z.of_nat (length steps)).
Proof.
  intros n steps H0 H. exists (mkrat (n + Z.of_nat (length steps)) 1). split.
  - apply run_count_int; assumption.
  - reflexivity.
Qed.

(** C03, sharpness: the next second-order step from the bound is undefined behaviour. *)
Theorem step_counter_overflow_refuted :
  step_count RK2 (rat_of_int 536870911) = UB.
Proof. vm_compute. reflexivity. Qed.

Example step_counter_example :
  run_count (rat_of_int 0) [RK2; RK1; RK2; RK2] = Ok (mkrat 4 1).
Proof. reflexivity. Qed.

Print Assumptions rational_values_canonical.
Print Assumptions rational_add_exact.
Print Assumptions rational_sub_exact.
Print Assumptions rational_mul_exact.
Print Assumptions rational_div_exact.
Print Assumptions rational_div_by_zero_throws.
Print Assumptions rational_make_exact.
Print Assumptions rational_make_zero_den_throws.
Print Assumptions rational_compare_correct.
Print Assumptions rational_eq_spec.
Print Assumptions rational_ne_is_not_eq.
Print Assumptions rational_eq_by_value_refuted.
Print Assumptions step_counter_exact.
Print Assumptions step_counter_exact_from.
Print Assumptions step_counter_overflow_refuted.
