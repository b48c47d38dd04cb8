(** Comparisons, greatest and least values in double arithmetic with values that are not numbers (NanModel.v). *)
From Coq Require Import ZArith Reals Lra List Bool Lia.
From Flocq Require Import IEEE754.BinarySingleNaN Core.
From Verif Require Import Base TreeModel TreeProofs BalanceModel NanModel.
Import ListNotations.
Open Scope R_scope.

(** The place of a double that is a number, infinities beyond all others. *)
Definition place64 (x : b64) : R := match x with B754_infinity s => if s then - bpow radix2 1024 else bpow radix2 1024 | _ => B2R x end.
Lemma lt64_place x y : is_nan x = false -> is_nan y = false -> (lt64 x y = true <-> place64 x < place64 y).
Proof.
  intros NX NY. pose proof (bpow_gt_0 radix2 1024) as P.
  assert (BD : forall z : b64, - bpow radix2 1024 < B2R z < bpow radix2 1024) by (intros z; apply Rabs_lt_inv, abs_B2R_lt_emax).
  assert (FIN : is_finite x = true -> is_finite y = true -> (lt64 x y = true <-> B2R x < B2R y)).
  { intros FX FY. unfold lt64. rewrite Bcompare_correct by assumption. destruct (Rcompare_spec (B2R x) (B2R y)); split; intros; try discriminate; try reflexivity; lra. }
  pose proof (BD x) as BX. pose proof (BD y) as BY.
  destruct x as [sx|sx| |sx mx ex ox]; [|destruct sx| |]; (destruct y as [sy|sy| |sy my ey oy]; [|destruct sy| |]); try discriminate NX; try discriminate NY;
    try (exact (FIN eq_refl eq_refl)); unfold place64; unfold lt64, Bcompare; cbn [B2SF SpecFloat.SFcompare]; (split; intros H); try discriminate H; try reflexivity; try lra.
Qed.
Lemma lt64_nan_l x y : is_nan x = true -> lt64 x y = false. Proof. destruct x; try discriminate. intros _. destruct y; reflexivity. Qed.
Lemma lt64_nan_r x y : is_nan y = true -> lt64 x y = false. Proof. destruct y; try discriminate. intros _. destruct x; reflexivity. Qed.
Lemma lt64_numbers x y : lt64 x y = true -> is_nan x = false /\ is_nan y = false.
Proof. intros H. split; [destruct (is_nan x) eqn:E|destruct (is_nan y) eqn:E]; try reflexivity; [rewrite lt64_nan_l in H by exact E|rewrite lt64_nan_r in H by exact E]; discriminate. Qed.
Lemma not_lt64 x y : is_nan x = false -> is_nan y = false -> (lt64 x y = false <-> place64 y <= place64 x).
Proof. intros NX NY. pose proof (lt64_place x y NX NY) as H. destruct (lt64 x y); split; intros G; try discriminate; try reflexivity; [exfalso; apply (Rlt_irrefl (place64 x)); destruct H; specialize (H eq_refl); lra|]. apply Rnot_lt_le. intros L. apply H in L. discriminate. Qed.

(** *** A fold that keeps the better value *)
Section Fold.
Variable better : b64 -> b64 -> bool.
Hypothesis better_numbers : forall x y, better x y = true -> is_nan x = false /\ is_nan y = false.
Let pick (m y : b64) : b64 := if better m y then y else m.
Lemma fold_nan : forall l x, is_nan (fold_left pick l x) = is_nan x.
Proof.
  induction l as [|y l IH]; intros x; [reflexivity|]. cbn [fold_left]. rewrite IH. unfold pick. destruct (better x y) eqn:E; [|reflexivity]. apply better_numbers in E as [-> ->]. reflexivity.
Qed.
Lemma fold_skip : forall l x, fold_left pick l x = fold_left pick (filter (fun y => negb (is_nan y)) l) x.
Proof.
  induction l as [|y l IH]; intros x; [reflexivity|]. cbn [fold_left filter]. destruct (is_nan y) eqn:E; cbn [negb fold_left]; [|apply IH]. rewrite <- IH. f_equal. unfold pick. destruct (better x y) eqn:B; [|reflexivity]. apply better_numbers in B as [_ B]. rewrite E in B. discriminate.
Qed.
Lemma fold_in : forall l x, In (fold_left pick l x) (x :: l).
Proof. induction l as [|y l IH]; intros x; [left; reflexivity|]. cbn [fold_left]. destruct (IH (pick x y)) as [H|H]; [|right; right; exact H]. rewrite <- H. unfold pick. destruct (better x y); [right; left; reflexivity|left; reflexivity]. Qed.
Variable val : b64 -> R.
Hypothesis better_val : forall x y, is_nan x = false -> is_nan y = false -> (better x y = true <-> val x < val y).
Lemma fold_best : forall l x, is_nan x = false -> forall y, In y (x :: l) -> is_nan y = false -> val y <= val (fold_left pick l x).
Proof.
  induction l as [|z l IH]; intros x NX y Hy NY; [destruct Hy as [<-|[]]; apply Rle_refl|]. cbn [fold_left].
  assert (PX : is_nan (pick x z) = false /\ val x <= val (pick x z)). { unfold pick. destruct (better x z) eqn:B; [|split; [exact NX|apply Rle_refl]]. pose proof (better_numbers _ _ B) as [_ NZ]. split; [exact NZ|]. apply better_val in B; [lra|assumption..]. }
  destruct PX as [PX LX]. destruct Hy as [<-|[<-|Hy]].
  - eapply Rle_trans; [exact LX|]. apply IH; [exact PX|left; reflexivity|exact PX].
  - apply Rle_trans with (val (pick x z)); [|apply IH; [exact PX|left; reflexivity|exact PX]]. unfold pick. destruct (better x z) eqn:B; [apply Rle_refl|]. apply Rnot_lt_le. intros L. apply better_val in L; [|assumption..]. rewrite L in B. discriminate.
  - apply IH; [exact PX|right; exact Hy|exact NY].
Qed.
End Fold.

Lemma gt_numbers x y : lt64 y x = true -> is_nan x = false /\ is_nan y = false. Proof. intros H. apply lt64_numbers in H. tauto. Qed.
Lemma std_min_fold l x : fold_left std_min l x = fold_left (fun m y => if lt64 y m then y else m) l x. Proof. reflexivity. Qed.

(** *** Arithmetic *)
Lemma nan_add_l x y : is_nan x = true -> is_nan (add64 x y) = true. Proof. destruct x; try discriminate. intros _. destruct y; reflexivity. Qed.
Lemma nan_add_r x y : is_nan y = true -> is_nan (add64 x y) = true. Proof. destruct y; try discriminate. intros _. destruct x; reflexivity. Qed.
Lemma nan_sub_l x y : is_nan x = true -> is_nan (sub64 x y) = true. Proof. destruct x; try discriminate. intros _. destruct y; reflexivity. Qed.
Lemma nan_mul_l x y : is_nan x = true -> is_nan (mul64 x y) = true. Proof. destruct x; try discriminate. intros _. destruct y; reflexivity. Qed.
Lemma nan_mul_r x y : is_nan y = true -> is_nan (mul64 x y) = true. Proof. destruct y; try discriminate. intros _. destruct x; reflexivity. Qed.
Lemma nan_div_l x y : is_nan x = true -> is_nan (div64 x y) = true. Proof. destruct x; try discriminate. intros _. destruct y; reflexivity. Qed.
Lemma nan_div_r x y : is_nan y = true -> is_nan (div64 x y) = true. Proof. destruct y; try discriminate. intros _. destruct x; reflexivity. Qed.
Lemma nan_abs x : is_nan (abs64 x) = is_nan x. Proof. destruct x; reflexivity. Qed.
Lemma nan_max_l x y : is_nan x = true -> is_nan (std_max x y) = true. Proof. intros H. unfold std_max. rewrite lt64_nan_l by exact H. exact H. Qed.
Lemma finite_number (x : b64) : is_finite x = true -> is_nan x = false. Proof. destruct x; try discriminate; reflexivity. Qed.
(** No operation makes a NaN of a finite value that is not zero and a number. *)
Lemma number_div x y : is_finite_strict x = true -> is_nan y = false -> is_nan (div64 x y) = false.
Proof.
  intros FX NY. destruct x as [| | |sx mx ex ox]; try discriminate FX. destruct y as [sy|sy| |sy my ey oy]; try discriminate NY; try reflexivity.
  pose proof (@Bdiv_correct 53 1024 prec_ok emax_ok mode_NE (B754_finite sx mx ex ox) (B754_finite sy my ey oy)) as H. fold div64 in H.
  assert (Z : B2R (B754_finite sy my ey oy : b64) <> 0) by (cbn; apply F2R_neq_0; destruct sy; discriminate). specialize (H Z). destruct (Rlt_bool _ _) in H.
  - destruct H as (_ & H & _). cbn [is_finite] in H. apply finite_number, H.
  - destruct (div64 _ _); try reflexivity. cbn in H. unfold binary_overflow, overflow_to_inf in H. discriminate.
Qed.
Lemma number_mul x y : is_finite_strict x = true -> is_nan y = false -> is_nan (mul64 x y) = false.
Proof.
  intros FX NY. destruct x as [| | |sx mx ex ox]; try discriminate FX. destruct y as [sy|sy| |sy my ey oy]; try discriminate NY; try reflexivity.
  pose proof (@Bmult_correct 53 1024 prec_ok emax_ok mode_NE (B754_finite sx mx ex ox) (B754_finite sy my ey oy)) as H. fold mul64 in H. destruct (Rlt_bool _ _) in H.
  - destruct H as (_ & H & _). cbn [is_finite andb] in H. apply finite_number, H.
  - destruct (mul64 _ _); try reflexivity. cbn in H. discriminate.
Qed.
Lemma number_add x y : is_finite x = true -> is_nan y = false -> is_nan (add64 x y) = false.
Proof.
  intros FX NY. destruct (is_finite y) eqn:FY; [|destruct y; try discriminate FY; try discriminate NY; destruct x; try discriminate FX; reflexivity].
  pose proof (@Bplus_correct 53 1024 prec_ok emax_ok mode_NE x y FX FY) as H. fold add64 in H. destruct (Rlt_bool _ _) in H.
  - destruct H as (_ & H & _). apply finite_number, H.
  - destruct H as [H _]. destruct (add64 x y); try reflexivity. cbn in H. discriminate.
Qed.
