(** The rounded operations of the model of double arithmetic are those of IEEE 754, as formalised in Flocq. *)
From Coq Require Import ZArith Reals Lra.
From Flocq Require Import Core IEEE754.BinarySingleNaN IEEE754.Binary IEEE754.Bits.
From Verif Require Import Base DoubleModel DoubleProofs.
Open Scope R_scope.

Lemma b64_format (x : binary64) : double (B2R 53 1024 x).
Proof. exact (generic_format_B2R 53 1024 x). Qed.
(** On finite doubles whose exact result is not too large, the operations of the IEEE 754 standard, as formalised in Flocq, are
    the exact ones followed by [fl]. *)
Theorem ieee_operations (x y : binary64) : is_finite 53 1024 x = true -> is_finite 53 1024 y = true ->
  (Rabs (fl (B2R 53 1024 x + B2R 53 1024 y)) < bp 1024 -> B2R 53 1024 (b64_plus BinarySingleNaN.mode_NE x y) = fl (B2R 53 1024 x + B2R 53 1024 y)) /\
  (Rabs (fl (B2R 53 1024 x - B2R 53 1024 y)) < bp 1024 -> B2R 53 1024 (b64_minus BinarySingleNaN.mode_NE x y) = fl (B2R 53 1024 x - B2R 53 1024 y)) /\
  (Rabs (fl (B2R 53 1024 x * B2R 53 1024 y)) < bp 1024 -> B2R 53 1024 (b64_mult BinarySingleNaN.mode_NE x y) = fl (B2R 53 1024 x * B2R 53 1024 y)) /\
  (B2R 53 1024 y <> 0 -> Rabs (fl (B2R 53 1024 x / B2R 53 1024 y)) < bp 1024 -> B2R 53 1024 (b64_div BinarySingleNaN.mode_NE x y) = fl (B2R 53 1024 x / B2R 53 1024 y)) /\
  B2R 53 1024 (b64_sqrt BinarySingleNaN.mode_NE x) = fl (sqrt (B2R 53 1024 x)).
Proof.
  intros Hx Hy. repeat split.
  - intros L. pose proof (Bplus_correct 53 1024 eq_refl eq_refl binop_nan_pl64 BinarySingleNaN.mode_NE x y Hx Hy) as C. rewrite Rlt_bool_true in C by exact L. apply C.
  - intros L. pose proof (Bminus_correct 53 1024 eq_refl eq_refl binop_nan_pl64 BinarySingleNaN.mode_NE x y Hx Hy) as C. rewrite Rlt_bool_true in C by exact L. apply C.
  - intros L. pose proof (Bmult_correct 53 1024 eq_refl eq_refl binop_nan_pl64 BinarySingleNaN.mode_NE x y) as C. rewrite Rlt_bool_true in C by exact L. apply C.
  - intros N L. pose proof (Bdiv_correct 53 1024 eq_refl eq_refl binop_nan_pl64 BinarySingleNaN.mode_NE x y N) as C. rewrite Rlt_bool_true in C by exact L. apply C.
  - apply (Bsqrt_correct 53 1024 eq_refl eq_refl unop_nan_pl64 BinarySingleNaN.mode_NE x).
Qed.

(** 3 / 8 and 5 / 8, given by their bits, add up to 1 without rounding; 1 / 3 is rounded. *)
Example ieee_operations_example : bits_of_b64 (b64_plus BinarySingleNaN.mode_NE (b64_of_bits 4600427019358961664) (b64_of_bits 4603804719079489536)) = 4607182418800017408%Z /\
  B2R 53 1024 (b64_of_bits 4600427019358961664) = 3 / 8 /\ fl (3 / 8 + 5 / 8) = 1 /\
  bits_of_b64 (b64_div BinarySingleNaN.mode_NE (b64_of_bits 4607182418800017408) (b64_of_bits 4613937818241073152)) = 4599676419421066581%Z.
Proof.
  split; [vm_compute; reflexivity|]. split; [|split; [replace (3 / 8 + 5 / 8) with 1 by field; apply fl_id; exact (double_bpow 0 ltac:(discriminate))|vm_compute; reflexivity]].
  vm_compute. lra.
Qed.
Print Assumptions ieee_operations.
