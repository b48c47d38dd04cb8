(** Facts about the doubles, from Flocq. *)
From Coq Require Import ZArith Reals Lra Lia List Arith Psatz Classical.
From Flocq Require Import Core Relative Mult_error.
From Verif Require Import Base DoubleModel.
Open Scope R_scope.

Notation bp := (bpow radix2).
#[export] Instance prec_pos : Prec_gt_0 53.
Proof. reflexivity. Qed.
#[export] Instance fexp_valid : Valid_exp fexp.
Proof. unfold fexp. apply FLT_exp_valid. typeclasses eauto. Qed.
#[export] Instance fexp_mono : Monotone_exp fexp.
Proof. unfold fexp. apply FLT_exp_monotone. Qed.

Lemma fl_double x : double (fl x).
Proof. apply generic_format_round; typeclasses eauto. Qed.
Lemma fl_id x : double x -> fl x = x.
Proof. intros H. apply round_generic; [typeclasses eauto|exact H]. Qed.
Lemma fl_le x y : x <= y -> fl x <= fl y.
Proof. apply round_le; typeclasses eauto. Qed.
Lemma fl_le_double x y : double y -> x <= y -> fl x <= y.
Proof. intros H L. rewrite <- (fl_id y H). apply fl_le, L. Qed.
Lemma fl_ge_double x y : double y -> y <= x -> y <= fl x.
Proof. intros H L. rewrite <- (fl_id y H) at 1. apply fl_le, L. Qed.
Lemma fl_opp x : fl (- x) = - fl x.
Proof. apply round_NE_opp. Qed.
Lemma double_opp x : double x -> double (- x).
Proof. apply generic_format_opp. Qed.
Lemma double_mult (m e : Z) : (Z.abs m < 2 ^ 53)%Z -> (-1074 <= e)%Z -> double (IZR m * bp e).
Proof. intros Hm He. apply generic_format_FLT. exists (Float radix2 m e); [reflexivity|exact Hm|exact He]. Qed.
Lemma double_bpow e : (-1074 <= e)%Z -> double (bp e).
Proof. intros H. rewrite <- (Rmult_1_l (bp e)). apply (double_mult 1); [reflexivity|exact H]. Qed.
Lemma double_0 : double 0.
Proof. apply generic_format_0. Qed.
Lemma fl_0 : fl 0 = 0.
Proof. apply fl_id, double_0. Qed.

(** A double that is not small is a multiple of a large power of two. *)
Lemma double_grid x (b : Z) : double x -> (-1022 <= b)%Z -> bp b <= Rabs x -> exists m : Z, x = IZR m * bp (b - 52).
Proof.
  intros H Hb L. unfold double, generic_format in H. set (m := Ztrunc (scaled_mantissa radix2 fexp x)) in *.
  assert (C : (b - 52 <= cexp radix2 fexp x)%Z).
  { unfold cexp, fexp, FLT_exp. pose proof (mag_ge_bpow radix2 x (b + 1)) as G. replace (b + 1 - 1)%Z with b in G by ring. specialize (G L). lia. }
  exists (m * 2 ^ (cexp radix2 fexp x - (b - 52)))%Z. etransitivity; [exact H|]. unfold F2R. cbn [Fnum Fexp]. rewrite mult_IZR, Rmult_assoc. f_equal.
  change 2%Z with (radix_val radix2). rewrite (IZR_Zpower radix2 (cexp radix2 fexp x - (b - 52))) by (clear - C; lia). rewrite <- bpow_plus. f_equal. ring.
Qed.
(** The error of a rounding. *)
Lemma fl_err b x : (-1022 <= b)%Z -> Rabs x <= bp b -> Rabs (fl x - x) <= bp (b - 53).
Proof.
  intros Hb L. pose proof (error_le_half_ulp radix2 fexp (fun z => negb (Z.even z)) x) as E. fold ZnearestE in E. fold (fl x) in E.
  assert (U : ulp radix2 fexp x <= bp (b - 52)).
  { eapply Rle_trans; [apply (ulp_le radix2 fexp x (bp b))|]. - rewrite (Rabs_pos_eq (bp b)) by apply bpow_ge_0. exact L.
    - rewrite ulp_bpow. apply bpow_le. unfold fexp, FLT_exp. lia. }
  replace (bp (b - 53)) with (/ 2 * bp (b - 52)). - lra.
  - replace (b - 52)%Z with (1 + (b - 53))%Z by ring. rewrite bpow_plus. cbn [bpow radix2]. change (Z.pow_pos radix2 1) with 2%Z. lra.
Qed.

Lemma fl_rel x : bp (-1022) <= Rabs x -> Rabs (fl x - x) <= bp (-53) * Rabs x.
Proof.
  intros H. pose proof (relative_error_N_FLT radix2 (-1074) 53 ltac:(reflexivity) (fun z => negb (Z.even z)) x H) as E. change (-53 + 1)%Z with (-52)%Z in E.
  replace (bp (-53)) with (/ 2 * bp (-52)); [exact E|]. change (bp (-53)) with (/ 9007199254740992). change (bp (-52)) with (/ 4503599627370496). lra.
Qed.
(** Every double is a multiple of the least one, and so are sums and differences; small multiples are doubles. *)
Lemma double_least x : double x -> exists m : Z, x = IZR m * bp (-1074).
Proof.
  intros H. unfold double, generic_format in H. set (m := Ztrunc (scaled_mantissa radix2 fexp x)) in *. assert (C : (-1074 <= cexp radix2 fexp x)%Z) by (unfold cexp, fexp, FLT_exp; lia).
  exists (m * 2 ^ (cexp radix2 fexp x - -1074))%Z. etransitivity; [exact H|]. unfold F2R. cbn [Fnum Fexp]. rewrite mult_IZR, Rmult_assoc. f_equal. change 2%Z with (radix_val radix2). rewrite (IZR_Zpower radix2 (cexp radix2 fexp x - -1074)) by (clear - C; lia).
  rewrite <- bpow_plus. f_equal. ring.
Qed.
Lemma small_double m : Rabs (IZR m * bp (-1074)) < bp (-1021) -> double (IZR m * bp (-1074)).
Proof.
  intros H. apply double_mult; [|lia]. rewrite Rabs_mult, <- abs_IZR, (Rabs_pos_eq (bp (-1074))) in H by apply bpow_ge_0. apply lt_IZR. apply Rmult_lt_reg_r with (bp (-1074)); [apply bpow_gt_0|].
  change (IZR (2 ^ 53)) with (bp 53). rewrite <- bpow_plus. exact H.
Qed.
Lemma sub_exact_or_large x y : double x -> double y -> double (x - y) \/ bp (-1021) <= Rabs (x - y).
Proof.
  intros Hx Hy. destruct (double_least x Hx) as [m ->]. destruct (double_least y Hy) as [n ->]. rewrite <- Rmult_minus_distr_r, <- minus_IZR.
  destruct (Rlt_le_dec (Rabs (IZR (m - n) * bp (-1074))) (bp (-1021))) as [H|H]; [left; apply small_double, H|right; exact H].
Qed.
Lemma double_twice x : double x -> double (2 * x).
Proof.
  intros H. unfold double in *. destruct (Req_dec x 0) as [->|N]; [rewrite Rmult_0_r; apply generic_format_0|].
  replace (2 * x) with (x * bp 1) by (change (bp 1) with 2; ring). apply mult_bpow_pos_exact_FLT; [exact H|lia].
Qed.
Lemma fl_half_twice x : double x -> fl (2 * x * (1 / 2)) = x.
Proof. intros H. replace (2 * x * (1 / 2)) with x by field. apply fl_id, H. Qed.
(** The nearest double, found by comparison. *)
Lemma fl_eq x (m e : Z) : (-1074 <= e)%Z -> bp (e + 52) <= x <= bp (e + 53) -> Rabs (x - IZR m * bp e) < bp e / 2 -> bp (e + 52) <= IZR m * bp e <= bp (e + 53) -> fl x = IZR m * bp e.
Proof.
  intros He Hx Hd Hm. set (d := IZR m * bp e) in *. pose proof (bpow_gt_0 radix2 e) as E0. pose proof (bpow_gt_0 radix2 (e + 52)) as B0.
  assert (Dd : double d).
  { destruct (Req_dec d (bp (e + 53))) as [->|N]; [apply double_bpow; lia|]. apply double_mult; [|exact He]. apply Z.abs_lt. split; apply lt_IZR; apply Rmult_lt_reg_r with (bp e); try exact E0; fold d.
    - apply Rlt_trans with 0; [|lra]. change (IZR (- 2 ^ 53)) with (- 9007199254740992). lra.
    - change (IZR (2 ^ 53)) with (bp 53). rewrite <- bpow_plus. replace (53 + e)%Z with (e + 53)%Z by ring. lra. }
  pose proof (round_N_pt radix2 fexp (fun z => negb (Z.even z)) x) as N. change (Rnd_N_pt double x (fl x)) in N. destruct N as [Df N]. specialize (N d Dd). rewrite (Rabs_minus_sym d x) in N.
  assert (F1 : bp (e + 52) <= fl x) by (apply fl_ge_double; [apply double_bpow; lia|lra]).
  destruct (double_grid (fl x) (e + 52) Df ltac:(lia)) as [k Ek]; [rewrite Rabs_pos_eq; lra|]. replace (e + 52 - 52)%Z with e in Ek by ring.
  assert (A : Rabs (fl x - d) < bp e). { replace (fl x - d) with ((fl x - x) + (x - d)) by ring. eapply Rle_lt_trans; [apply Rabs_triang|]. lra. }
  rewrite Ek in *. unfold d in *. rewrite <- Rmult_minus_distr_r, <- minus_IZR, Rabs_mult, <- abs_IZR, (Rabs_pos_eq (bp e)) in A by lra.
  assert (K : IZR (Z.abs (k - m)) < 1) by (apply Rmult_lt_reg_r with (bp e); lra). apply lt_IZR in K. do 2 f_equal. lia.
Qed.
