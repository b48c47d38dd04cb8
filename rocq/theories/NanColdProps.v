(** C127, how it begins in terms of density and pressure: negative pressures in the Newtonian explosion program. *)
From Coq Require Import ZArith Reals List Bool Arith Lia Lra.
From Flocq Require Import IEEE754.BinarySingleNaN Core.
From Verif Require Import Base NanModel NanProofs NanProps NanSedovModel NanSedovProps NanClockProps.
Import ListNotations.
Open Scope R_scope.

Lemma one_value : B2R one64 = 1.
Proof. rewrite <- SF2R_B2SF. replace (B2SF one64) with (SpecFloat.S754_finite false 4503599627370496 (-52)) by (vm_compute; reflexivity). cbn [SF2R]. unfold F2R. cbn [Fnum Fexp cond_Zopp]. change 4503599627370496%Z with (Zpower radix2 52). rewrite IZR_Zpower by lia. rewrite <- bpow_plus. reflexivity. Qed.
Lemma gamma_value : is_finite gamma64 = true /\ 1 < B2R gamma64.
Proof.
  assert (F : is_finite gamma64 = true) by (vm_compute; reflexivity). split; [exact F|]. rewrite <- one_value. assert (L : lt64 one64 gamma64 = true) by (vm_compute; reflexivity). unfold lt64 in L. rewrite Bcompare_correct in L by (exact F || (vm_compute; reflexivity)). destruct (Rcompare_spec (B2R one64) (B2R gamma64)); try discriminate; assumption.
Qed.
Lemma negative_sign (x : b64) : is_finite x = true -> B2R x < 0 -> Bsign x = true.
Proof. intros F L. destruct x as [s| | |s m e o]; try discriminate F; [cbn in L; lra|]. destruct s; [reflexivity|]. exfalso. cbn in L. apply (Rlt_irrefl 0). eapply Rlt_trans; [|exact L]. apply F2R_gt_0. reflexivity. Qed.
Lemma positive_sign (x : b64) : is_finite x = true -> 0 < B2R x -> Bsign x = false.
Proof. intros F L. destruct x as [s| | |s m e o]; try discriminate F; [cbn in L; lra|]. destruct s; [|reflexivity]. exfalso. cbn in L. apply (Rlt_irrefl 0). eapply Rlt_trans; [exact L|]. apply F2R_lt_0. reflexivity. Qed.
Lemma overflow_inf (x : b64) s : B2SF x = SpecFloat.S754_infinity s -> x = B754_infinity s. Proof. destruct x; cbn; intros H; try discriminate. congruence. Qed.
Lemma gamma_times p : is_finite p = true -> B2R p < 0 -> mul64 gamma64 p = B754_infinity true \/ is_finite (mul64 gamma64 p) = true /\ B2R (mul64 gamma64 p) <= B2R p.
Proof.
  intros F L. destruct gamma_value as [G1 G2]. pose proof (@Bmult_correct 53 1024 prec_ok emax_ok mode_NE gamma64 p) as H. fold mul64 in H. change (SpecFloat.fexp 53 1024) with (FLT_exp (-1074) 53) in H. destruct (Rlt_bool _ _) in H.
  - right. destruct H as (H1 & H2 & _). rewrite G1, F in H2. split; [exact H2|]. rewrite H1. cbn [round_mode]. rewrite <- (round_self p) at 2. apply round_up. nra.
  - left. rewrite (positive_sign gamma64 G1), (negative_sign p F L) in H by lra. apply overflow_inf. exact H.
Qed.
(** A negative pressure gives a negative squared sound speed, unless the quotient is too small for a double. *)
Lemma cold_sound P : is_finite (w4 P) = true -> is_finite (w0 P) = true -> 0 < B2R (w0 P) -> B2R (w4 P) <= - (B2R (w0 P) * bpow radix2 (-1074)) -> below_zero (sound2 P).
Proof.
  intros FP FD D C. pose proof (bpow_gt_0 radix2 (-1074)) as T. assert (L : B2R (w4 P) < 0) by nra. unfold sound2. set (d := w0 P) in *. set (p := w4 P) in *. destruct (gamma_times p FP L) as [-> |[FQ LQ]].
  - pose proof (positive_sign d FD D) as S. destruct d as [s| | |s m e o]; try discriminate FD; [cbn in D; lra|]. cbn in S. subst s. split; [reflexivity|]. left. reflexivity.
  - set (q := mul64 gamma64 p) in *. assert (Z : B2R d <> 0) by lra. pose proof (@Bdiv_correct 53 1024 prec_ok emax_ok mode_NE q d Z) as H. fold div64 in H. change (SpecFloat.fexp 53 1024) with (FLT_exp (-1074) 53) in H.
    assert (Q : B2R q / B2R d <= - bpow radix2 (-1074)). { apply (Rmult_le_reg_r (B2R d)); [exact D|]. unfold Rdiv. rewrite Rmult_assoc, Rinv_l, Rmult_1_r by exact Z. lra. }
    destruct (Rlt_bool _ _) in H.
    + destruct H as (H1 & H2 & _). rewrite FQ in H2. split; [apply finite_number, H2|]. right. split; [exact H2|]. rewrite H1. cbn [round_mode]. apply Rle_lt_trans with (- bpow radix2 (-1074)); [|lra]. apply round_up in Q. eapply Rle_trans; [exact Q|]. right. apply round_generic; [apply valid_rnd_N|]. apply generic_format_opp, generic_format_FLT_bpow; [exact prec_ok|lia].
    + rewrite (positive_sign d FD D), (negative_sign q FQ) in H by lra. apply overflow_inf in H. rewrite H. split; [reflexivity|]. left. reflexivity.
Qed.
(** So the density and the pressure that are recovered for a shell decide: with a pressure below zero, by no less than 2^-1074 of the
    density, the shell and the next one outside lose their masses in the step. *)
Theorem negative_pressure_is_lost n da dv rc dt u i : (i < n)%nat -> let P := prim5 dv u i in is_finite (w0 P) = true -> is_finite (w4 P) = true -> 0 < B2R (w0 P) -> B2R (w4 P) <= - (B2R (w0 P) * bpow radix2 (-1074)) ->
  lost (step5 n da dv rc dt u) i /\ ((S i < n)%nat -> lost (step5 n da dv rc dt u) (S i)).
Proof. intros Hi P FD FP D C. apply cold_shell_is_lost; [exact Hi|]. apply cold_sound; assumption. Qed.

(** In terms of what a state holds: a shell at rest whose energy density is negative. *)
Definition quarter64 : b64 := div64 one64 (of_int 4).
Lemma quarter_value : B2R quarter64 = / 4.
Proof. rewrite <- SF2R_B2SF. replace (B2SF quarter64) with (SpecFloat.S754_finite false 4503599627370496 (-54)) by (vm_compute; reflexivity). cbn [SF2R]. unfold F2R. cbn [Fnum Fexp cond_Zopp]. change 4503599627370496%Z with (Zpower radix2 52). rewrite IZR_Zpower by lia. rewrite <- bpow_plus. change (52 + -54)%Z with (-2)%Z. cbn. lra. Qed.
Lemma lt64_values (x y : b64) : is_finite x = true -> is_finite y = true -> lt64 x y = true -> B2R x < B2R y.
Proof. intros FX FY L. unfold lt64 in L. rewrite Bcompare_correct in L by assumption. destruct (Rcompare_spec (B2R x) (B2R y)); try discriminate; assumption. Qed.
Lemma factor_value : is_finite (sub64 gamma64 one64) = true /\ / 4 < B2R (sub64 gamma64 one64) < 1.
Proof.
  assert (F : is_finite (sub64 gamma64 one64) = true) by (vm_compute; reflexivity). split; [exact F|]. split; [rewrite <- quarter_value|rewrite <- one_value]; apply lt64_values; try exact F; vm_compute; reflexivity.
Qed.
Lemma rest_pressure E : is_finite E = true -> B2R E <= - bpow radix2 (-1000) -> is_finite (mul64 E (sub64 gamma64 one64)) = true /\ B2R (mul64 E (sub64 gamma64 one64)) <= B2R E / 8.
Proof.
  intros F L. destruct factor_value as [FC [C1 C2]]. set (c := sub64 gamma64 one64) in *. pose proof (bpow_gt_0 radix2 (-1000)) as T. pose proof (@Bmult_correct 53 1024 prec_ok emax_ok mode_NE E c) as H. fold mul64 in H. change (SpecFloat.fexp 53 1024) with (FLT_exp (-1074) 53) in H. cbn [round_mode] in H.
  assert (U : round radix2 (FLT_exp (-1074) 53) ZnearestE (B2R E * B2R c) <= 0). { rewrite <- (round_0 radix2 (FLT_exp (-1074) 53) ZnearestE). apply round_up. nra. }
  assert (W : B2R E <= round radix2 (FLT_exp (-1074) 53) ZnearestE (B2R E * B2R c)). { rewrite <- (round_self E) at 1. apply round_up. nra. }
  rewrite Rlt_bool_true in H. 2: { pose proof (abs_B2R_lt_emax 53 1024 E) as Q. apply Rabs_lt_inv in Q. apply Rabs_lt. lra. }
  destruct H as (H1 & H2 & _). rewrite F, FC in H2. split; [exact H2|]. rewrite H1.
  assert (NZ : B2R E / 4 <> 0) by lra. pose proof (bpow_mag_le radix2 _ NZ) as M1. pose proof (bpow_mag_gt radix2 (B2R E / 4)) as M2. set (k := mag_val radix2 _ (mag radix2 (B2R E / 4))) in *. rewrite Rabs_left in M1, M2 by lra.
  assert (K : (-1002 < k)%Z). { apply (lt_bpow radix2). eapply Rle_lt_trans; [|exact M2]. replace (-1000)%Z with (2 + -1002)%Z in L by reflexivity. rewrite bpow_plus in L. change (bpow radix2 2) with 4 in L. lra. }
  assert (B : round radix2 (FLT_exp (-1074) 53) ZnearestE (B2R E * B2R c) <= - bpow radix2 (k - 1)).
  { replace (- bpow radix2 (k - 1)) with (round radix2 (FLT_exp (-1074) 53) ZnearestE (- bpow radix2 (k - 1))); [apply round_up; nra|]. apply round_generic; [apply valid_rnd_N|]. apply generic_format_opp, generic_format_FLT_bpow; [exact prec_ok|lia]. }
  replace k with (1 + (k - 1))%Z in M2 by lia. rewrite bpow_plus in M2. change (bpow radix2 1) with 2 in M2. lra.
Qed.
Lemma zero_times (x y : b64) : (exists a, x = B754_zero a) -> (exists b, y = B754_zero b) -> exists c, mul64 x y = B754_zero c. Proof. intros [a ->] [b ->]. eexists. reflexivity. Qed.
Lemma zero_plus (x y : b64) : (exists a, x = B754_zero a) -> (exists b, y = B754_zero b) -> exists c, add64 x y = B754_zero c. Proof. intros [a ->] [b ->]. destruct a, b; eexists; reflexivity. Qed.
Lemma half_zero (x : b64) : (exists a, x = B754_zero a) -> exists c, mul64 half64 x = B754_zero c. Proof. intros [a ->]. assert (F : is_finite half64 = true) by (vm_compute; reflexivity). destruct half64; try discriminate F; eexists; reflexivity. Qed.
Lemma zero_over (x d : b64) : (exists a, x = B754_zero a) -> is_finite d = true -> 0 < B2R d -> exists c, div64 x d = B754_zero c. Proof. intros [a ->] F D. destruct d; try discriminate F; [cbn in D; lra|]. eexists. reflexivity. Qed.
Lemma minus_zero (E x : b64) : (exists a, x = B754_zero a) -> is_finite E = true -> B2R E < 0 -> sub64 E x = E. Proof. intros [a ->] F L. destruct E; try discriminate F; [cbn in L; lra|]. reflexivity. Qed.
Lemma rest_recover U : is_finite (w0 U) = true -> 0 < B2R (w0 U) -> is_finite (w4 U) = true -> B2R (w4 U) < 0 -> (exists a, w1 U = B754_zero a) -> (exists a, w2 U = B754_zero a) -> (exists a, w3 U = B754_zero a) -> w0 (recover5 U) = w0 U /\ w4 (recover5 U) = mul64 (w4 U) (sub64 gamma64 one64).
Proof.
  intros FD D FE L Z1 Z2 Z3. unfold recover5. cbv zeta. cbn [w0 w4]. split; [reflexivity|]. rewrite minus_zero; [reflexivity| |exact FE|exact L]. apply zero_over; [|exact FD|exact D]. apply half_zero. repeat apply zero_plus; apply zero_times; assumption.
Qed.
(** A shell at rest with a positive mass density and an energy density that is negative, by 2^-1000 and by 2^-1000 of the mass density or
    more, is not repaired: it and the next shell outside lose their masses in the step. *)
Theorem negative_energy_is_lost n da dv rc dt u i : (i < n)%nat -> let U := map5 (fun x => div64 x (dv i)) (u i) in
  is_finite (w0 U) = true -> 0 < B2R (w0 U) -> (exists a, w1 U = B754_zero a) -> (exists a, w2 U = B754_zero a) -> (exists a, w3 U = B754_zero a) -> is_finite (w4 U) = true -> B2R (w4 U) <= - bpow radix2 (-1000) -> B2R (w4 U) <= - (B2R (w0 U) * bpow radix2 (-1000)) ->
  lost (step5 n da dv rc dt u) i /\ ((S i < n)%nat -> lost (step5 n da dv rc dt u) (S i)).
Proof.
  intros Hi U FD D Z1 Z2 Z3 FE L1 L2. pose proof (bpow_gt_0 radix2 (-1000)) as T. assert (L : B2R (w4 U) < 0) by lra. destruct (rest_recover U FD D FE L Z1 Z2 Z3) as [R0 R4]. destruct (rest_pressure (w4 U) FE L1) as [FP LP].
  apply negative_pressure_is_lost; [exact Hi|..]; unfold prim5; fold U; rewrite ?R0, ?R4; try assumption.
  assert (S : 8 * bpow radix2 (-1074) <= bpow radix2 (-1000)). { change 8 with (bpow radix2 3). rewrite <- bpow_plus. apply bpow_le. lia. } pose proof (bpow_gt_0 radix2 (-1074)) as T'. nra.
Qed.

(** Beside the theorem: the first shell of [ex5] has density 1 and a pressure below -1/4. *)
Example negative_pressure_example : is_finite (w0 (prim5 ones ex5 0)) = true /\ is_finite (w4 (prim5 ones ex5 0)) = true /\ lt64 zero64 (w0 (prim5 ones ex5 0)) = true /\ lt64 (w4 (prim5 ones ex5 0)) (opp64 (div64 one64 (of_int 4))) = true.
Proof. repeat split; vm_compute; reflexivity. Qed.

Print Assumptions negative_pressure_is_lost.
Print Assumptions negative_energy_is_lost.
