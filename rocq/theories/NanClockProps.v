(** C129: when the clock of the explosion program gets to the final time, in double arithmetic. *)
From Coq Require Import ZArith Reals List Bool Arith Lia Lra Classical.
From Flocq Require Import IEEE754.BinarySingleNaN Core.
From Verif Require Import Base NanModel NanProofs NanProps NanSedovModel NanSedovProps.
Import ListNotations.
Close Scope Z_scope.
Open Scope nat_scope.

(** The time after k steps of the same length: state.time + dt.value, src/subprog_sedov.cpp 417, with dt of 404-405. *)
Fixpoint clock (dt : b64) (k : nat) (t : b64) : b64 := match k with O => t | S m => clock dt m (add64 t dt) end.
(** The clock stands still short of the final time. *)
Definition stalls (dt tfinal t : b64) : Prop := exists k, (forall j, j <= k -> lt64 (clock dt j t) tfinal = true) /\ clock dt (S k) t = clock dt k t.

Lemma clock_S dt : forall k t, clock dt (S k) t = add64 (clock dt k t) dt. Proof. induction k as [|k IH]; intros t; [reflexivity|]. cbn [clock] in *. apply IH. Qed.
Lemma clock_stuck dt k t : clock dt (S k) t = clock dt k t -> forall j, clock dt (k + j) t = clock dt k t.
Proof. intros E. induction j as [|j IH]; [rewrite Nat.add_0_r; reflexivity|]. replace (k + S j) with (S (k + j)) by lia. rewrite clock_S, IH, <- clock_S. exact E. Qed.
Lemma stalls_step dt tfinal t : lt64 t tfinal = true -> stalls dt tfinal (add64 t dt) -> stalls dt tfinal t.
Proof. intros H (k & A & B). exists (S k). split; [|exact B]. intros [|j] Hj; [exact H|]. apply A. lia. Qed.

(** *** Doubles are multiples of 2^-1074 *)
Open Scope R_scope.
Local Instance prec_inst : Prec_gt_0 53 := prec_ok.
Lemma grid64 (x : b64) : exists z, B2R x = IZR z * bpow radix2 (-1074).
Proof.
  pose proof (generic_format_B2R 53 1024 x) as G. apply (FLT_format_generic radix2 (-1074)%Z 53%Z) in G. destruct G as [f E _ L]. exists (Fnum f * 2 ^ (Fexp f + 1074))%Z. rewrite E. unfold F2R. rewrite mult_IZR, Rmult_assoc. f_equal.
  change (2 ^ (Fexp f + 1074))%Z with (Zpower radix2 (Fexp f + 1074)). rewrite IZR_Zpower by lia. rewrite <- bpow_plus. f_equal. lia.
Qed.
Lemma beyond x : exists n, x < INR n.
Proof. exists (Z.to_nat (up x)). destruct (archimed x) as [A _]. apply Rlt_le_trans with (IZR (up x)); [exact A|]. rewrite INR_IZR_INZ. apply IZR_le. lia. Qed.
Lemma grid_step (x y : b64) : B2R x < B2R y -> B2R x + bpow radix2 (-1074) <= B2R y.
Proof.
  destruct (grid64 x) as [a ->], (grid64 y) as [b ->]. pose proof (bpow_gt_0 radix2 (-1074)) as P. intros H. apply Rmult_lt_reg_r in H; [|exact P]. apply lt_IZR in H. assert (L : (a + 1 <= b)%Z) by lia. apply IZR_le in L. rewrite plus_IZR in L. nra.
Qed.
Lemma add_round t dt : is_finite t = true -> is_finite dt = true -> is_finite (add64 t dt) = true -> B2R (add64 t dt) = round radix2 (FLT_exp (-1074) 53) ZnearestE (B2R t + B2R dt).
Proof.
  intros A B C. pose proof (@Bplus_correct 53 1024 prec_ok emax_ok mode_NE t dt A B) as H. fold add64 in H. destruct (Rlt_bool _ _) in H; [destruct H as [H _]; exact H|]. destruct H as [H _]. destruct (add64 t dt); try discriminate C; cbn in H; discriminate H.
Qed.
Lemma round_self (x : b64) : round radix2 (FLT_exp (-1074) 53) ZnearestE (B2R x) = B2R x. Proof. apply round_generic; [apply valid_rnd_N|]. exact (generic_format_B2R 53 1024 x). Qed.
Lemma round_up (x y : R) : x <= y -> round radix2 (FLT_exp (-1074) 53) ZnearestE x <= round radix2 (FLT_exp (-1074) 53) ZnearestE y.
Proof. apply round_le; [apply FLT_exp_valid; reflexivity|apply valid_rnd_N]. Qed.
Lemma add_same t dt : is_finite t = true -> is_finite dt = true -> is_finite (add64 t dt) = true -> B2R (add64 t dt) = B2R t -> add64 (add64 t dt) dt = add64 t dt.
Proof.
  intros A B C E. set (t' := add64 t dt) in *. 
  destruct (is_finite_strict t') eqn:S.
  - assert (F2 : is_finite (add64 t' dt) = true /\ B2R (add64 t' dt) = B2R t').
    { pose proof (@Bplus_correct 53 1024 prec_ok emax_ok mode_NE t' dt C B) as H. fold add64 in H. change (SpecFloat.fexp 53 1024) with (FLT_exp (-1074) 53) in H. rewrite E in H. cbn [round_mode] in H. pose proof (add_round t dt A B C) as Q. fold t' in Q. rewrite E in Q. rewrite <- Q in H. rewrite Rlt_bool_true in H by apply abs_B2R_lt_emax. destruct H as (H1 & H2 & _). split; [exact H2|]. rewrite H1, E. reflexivity. }
    destruct F2 as [F2 V2]. apply B2R_inj; [|exact S|exact V2]. destruct (add64 t' dt) as [s| | |s m e o]; try discriminate F2; try reflexivity. destruct t' as [| | |s' m' e' o']; try discriminate S. exfalso. cbn in V2. symmetry in V2. apply eq_0_F2R in V2. destruct s'; discriminate V2.
  - assert (Z : B2R t = 0) by (rewrite <- E; destruct t' as [| | |]; try discriminate C; try discriminate S; reflexivity).
    assert (T : exists s, t = B754_zero s). { destruct t as [s| | |s m e o]; try discriminate A; [exists s; reflexivity|]. exfalso. cbn in Z. apply eq_0_F2R in Z. destruct s; discriminate Z. }
    destruct T as [s ->]. assert (D : exists d, dt = B754_zero d).
    { pose proof (add_round _ _ A B C) as Q. fold t' in Q. rewrite E in Q. cbn [B2R] in Q. rewrite Rplus_0_l, round_self in Q. destruct dt as [d| | |d m e o]; try discriminate B; [exists d; reflexivity|]. exfalso. cbn in Q. symmetry in Q. apply eq_0_F2R in Q. destruct d; discriminate Q. }
    destruct D as [d ->]. unfold t'. destruct s, d; reflexivity.
Qed.

(** *** A clock that never gets there stalls *)
Section Never.
Variables (dt tfinal : b64) (s : R).
Hypotheses (dt_finite : is_finite dt = true) (s_unit : s = 1 \/ s = -1) (s_dt : 0 <= s * B2R dt).
Lemma never_stalls : forall (n : nat) t, is_finite t = true -> (forall k, lt64 (clock dt k t) tfinal = true) -> bpow radix2 1024 - s * B2R t <= INR n * bpow radix2 (-1074) -> stalls dt tfinal t.
Proof.
  induction n as [|n IH]; intros t F N M.
  - exfalso. cbn [INR] in M. pose proof (abs_B2R_lt_emax 53 1024 t) as Q. apply Rabs_lt_inv in Q. destruct s_unit as [-> | ->]; lra.
  - pose proof (N 1%nat) as N1. cbn [clock] in N1. destruct (is_finite (add64 t dt)) eqn:F1.
    + pose proof (add_round t dt F dt_finite F1) as Q. assert (L : s * B2R t <= s * B2R (add64 t dt)).
      { rewrite Q. destruct s_unit as [E|E]; rewrite E in *; [assert (H : B2R t <= B2R t + B2R dt) by lra|assert (H : B2R t + B2R dt <= B2R t) by lra]; apply round_up in H; rewrite round_self in H; lra. }
      destruct (Req_dec (B2R (add64 t dt)) (B2R t)) as [E|E].
      * exists 1%nat. split; [intros j _; apply N|]. cbn [clock]. apply add_same; assumption.
      * apply stalls_step; [exact (N 0%nat)|]. apply IH; [exact F1|intros k; exact (N (S k))|]. rewrite S_INR in M.
        assert (G : s * B2R t + bpow radix2 (-1074) <= s * B2R (add64 t dt)); [|lra]. destruct s_unit as [U|U]; rewrite U in *; [pose proof (grid_step t (add64 t dt))|pose proof (grid_step (add64 t dt) t)]; lra.
    + exists 1%nat. split; [intros j _; apply N|]. cbn [clock]. destruct (add64 t dt) as [|b| |]; try discriminate F1; [|rewrite lt64_nan_l in N1 by reflexivity; discriminate]. destruct dt; try discriminate dt_finite; reflexivity.
Qed.
End Never.
Close Scope R_scope.

(** The run loop goes on for ever if and only if the clock comes to a stop short of the final time; for all doubles, infinities and NaN
    included. *)
Theorem clock_never_arrives dt tfinal t : (forall k, lt64 (clock dt k t) tfinal = true) <-> stalls dt tfinal t.
Proof.
  split.
  - intros N. destruct (is_finite dt) eqn:D.
    + destruct (is_finite t) eqn:F.
      * assert (S : exists s, (s = 1 \/ s = -1)%R /\ (0 <= s * B2R dt)%R) by (destruct (Rle_dec 0 (B2R dt)) as [L|L]; [exists 1%R|exists (-1)%R]; split; auto; lra).
        destruct S as (s & S1 & S2). pose proof (bpow_gt_0 radix2 (-1074)) as P. destruct (beyond ((bpow radix2 1024 - s * B2R t) / bpow radix2 (-1074))) as [n Hn].
        apply (never_stalls dt tfinal s D S1 S2 n t F N). apply Rlt_le. apply (Rmult_lt_compat_r _ _ _ P) in Hn. unfold Rdiv in Hn. rewrite Rmult_assoc, Rinv_l, Rmult_1_r in Hn by lra. exact Hn.
      * exists 0. split; [intros j _; apply N|]. cbn [clock]. pose proof (N 0) as N0. cbn [clock] in N0. destruct t as [|b| |]; try discriminate F; [|rewrite lt64_nan_l in N0 by reflexivity; discriminate]. destruct dt; try discriminate D; reflexivity.
    + exists 1. split; [intros j _; apply N|]. cbn [clock]. pose proof (N 1) as N1. cbn [clock] in N1. destruct dt as [|b| |]; try discriminate D; [|rewrite lt64_nan_l in N1 by (apply nan_add_r; reflexivity); discriminate].
      destruct t as [|b'| |]; try reflexivity; destruct b; try reflexivity; destruct b'; try reflexivity; cbn in N1; unfold lt64 in N1; cbn in N1; discriminate N1.
  - intros (k & A & E) j. destruct (Nat.le_gt_cases j k) as [L|L]; [apply A, L|]. replace j with (k + (j - k)) by lia. rewrite (clock_stuck dt k t E). apply A. lia.
Qed.
(** The run of the explosion program ends unless the clock stalls, and the gas has no part in it. *)
Theorem explosion_ends_iff n da dv rc dt tfinal t u : (exists fuel r, loop5 n da dv rc dt tfinal fuel 0 t u = Ok r) <-> ~ stalls dt tfinal t.
Proof.
  assert (A : forall fuel m t u r, loop5 n da dv rc dt tfinal fuel m t u = Ok r -> exists k, lt64 (clock dt k t) tfinal = false).
  { induction fuel as [|f IH]; intros m t0 u0 r E; [discriminate|]. cbn [loop5] in E. destruct (lt64 t0 tfinal) eqn:L; [|exists 0; exact L]. apply IH in E as [k E]. exists (S k). exact E. }
  assert (B : forall k m t u, lt64 (clock dt k t) tfinal = false -> exists fuel r, loop5 n da dv rc dt tfinal fuel m t u = Ok r).
  { induction k as [|k IH]; intros m t0 u0 E; [exists 1; eexists; cbn [loop5]; cbn [clock] in E; rewrite E; reflexivity|]. destruct (lt64 t0 tfinal) eqn:L; [|exists 1; eexists; cbn [loop5]; rewrite L; reflexivity].
    destruct (IH (S m) (add64 t0 dt) (step5 n da dv rc dt u0) E) as (f & r & H). exists (S f), r. cbn [loop5]. rewrite L. exact H. }
  rewrite <- clock_never_arrives. split.
  - intros (f & r & E) N. apply A in E as [k E]. rewrite N in E. discriminate.
  - intros N. apply Classical_Pred_Type.not_all_ex_not in N as [k N]. apply (B k). destruct (lt64 _ _); [exfalso; apply N; reflexivity|reflexivity].
Qed.
(** That every run with a positive time step ends is false of the code: from time 1 with steps of 2^-54, or with a step of zero. *)
Definition fine64 : b64 := div64 one64 (of_int 18014398509481984%Z).
Theorem positive_steps_end_refuted n da dv rc u : lt64 zero64 fine64 = true /\ forall fuel r, loop5 n da dv rc fine64 two64 fuel 0 one64 u <> Ok r.
Proof.
  split; [vm_compute; reflexivity|]. intros fuel r E. assert (X : exists fuel r, loop5 n da dv rc fine64 two64 fuel 0 one64 u = Ok r) by (exists fuel, r; exact E). apply explosion_ends_iff in X. apply X. exists 0. split.
  - intros j Hj. assert (j = 0) as -> by lia. vm_compute. reflexivity.
  - cbn [clock]. apply B2SF_inj. vm_compute. reflexivity.
Qed.

(** Beside the theorems: steps of a half get from 0 to 2; a step that is not a number ends the loop at once. *)
Example arrives_example : ~ stalls half64 two64 zero64 /\ ~ stalls B754_nan two64 zero64 /\ stalls zero64 two64 zero64.
Proof.
  split; [|split].
  - intros H. apply clock_never_arrives with (k := 4) in H. vm_compute in H. discriminate H.
  - intros H. apply clock_never_arrives with (k := 1) in H. vm_compute in H. discriminate H.
  - exists 0. split; [intros j Hj; assert (j = 0) as -> by lia; vm_compute; reflexivity|reflexivity].
Qed.

Print Assumptions clock_never_arrives.
Print Assumptions explosion_ends_iff.
Print Assumptions positive_steps_end_refuted.
