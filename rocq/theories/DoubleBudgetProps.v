(** C104: budgets of mass and energy in double arithmetic. *)
From Coq Require Import ZArith Reals Lra Lia Arith Psatz.
From Flocq Require Import Core.
From Verif Require Import DoubleModel DoubleProofs DoubleGridProofs DoubleGridProps HydroModel DoubleBudgetModel.
Open Scope R_scope.

(** ** Symmetry under change of sign *)
Lemma fmul_opp_l x y : fmul (- x) y = - fmul x y.
Proof. unfold fmul. rewrite <- fl_opp. f_equal. ring. Qed.
Lemma fmul_opp_r x y : fmul x (- y) = - fmul x y.
Proof. unfold fmul. rewrite <- fl_opp. f_equal. ring. Qed.
Lemma fmul_opp_opp x : fmul (- x) (- x) = fmul x x.
Proof. rewrite fmul_opp_l, fmul_opp_r. apply Ropp_involutive. Qed.
Lemma fmul_0_r x : fmul x 0 = 0.
Proof. unfold fmul. rewrite Rmult_0_r. apply fl_0. Qed.
Lemma fmul_0_l x : fmul 0 x = 0.
Proof. unfold fmul. rewrite Rmult_0_l. apply fl_0. Qed.
Lemma fadd_opp x y : fadd (- x) (- y) = - fadd x y.
Proof. unfold fadd. rewrite <- fl_opp. f_equal. ring. Qed.
Lemma fadd_0_r x : double x -> fadd x 0 = x.
Proof. intros D. unfold fadd. rewrite Rplus_0_r. apply fl_id, D. Qed.
Lemma fsub_opp x y : fsub (- x) y = - fadd x y.
Proof. unfold fsub, fadd. rewrite <- fl_opp. f_equal. ring. Qed.
Lemma fadd_opp_l x y : fadd (- x) y = - fsub x y.
Proof. unfold fsub, fadd. rewrite <- fl_opp. f_equal. ring. Qed.
Lemma fsub_diag x : fsub x x = 0.
Proof. unfold fsub. rewrite Rminus_eq_0. apply fl_0. Qed.
Lemma fdiv_opp_l x y : fdiv (- x) y = - fdiv x y.
Proof. unfold fdiv. rewrite <- fl_opp. f_equal. unfold Rdiv. ring. Qed.
Lemma fdiv_0_l y : fdiv 0 y = 0.
Proof. unfold fdiv, Rdiv. rewrite Rmult_0_l. apply fl_0. Qed.
Lemma project_value v1 v2 v3 : project_fl v1 v2 v3 = fmul v1 1.
Proof. unfold project_fl. rewrite !fmul_0_r, (fadd_0_r (fmul v1 1)) by apply fl_double. apply fadd_0_r, fl_double. Qed.
Lemma project_opp v1 v2 v3 : project_fl (- v1) v2 v3 = - project_fl v1 v2 v3.
Proof. rewrite !project_value. apply fmul_opp_l. Qed.
Lemma squared_mirrored P : squared_fl (mirrored P) = squared_fl P.
Proof. unfold squared_fl, mirrored. cbn [u1 u2 u3]. rewrite fmul_opp_l, fmul_opp_r, Ropp_involutive. reflexivity. Qed.

(** The signals of a mirrored state. *)
Definition mirror_of (s s' : signals) : Prop :=
  mass_d s' = mass_d s /\ energy_d s' = energy_d s /\ mass_f s' = - mass_f s /\ energy_f s' = - energy_f s /\ speed_m s' = - speed_p s /\ speed_p s' = - speed_m s.
Lemma euler_mirror g P : mirror_of (euler_signals g P) (euler_signals g (mirrored P)).
Proof.
  unfold mirror_of, euler_signals. cbn [mass_d energy_d mass_f energy_f speed_m speed_p]. rewrite squared_mirrored. cbn [mirrored rho u1 u2 u3 pre]. rewrite project_opp. repeat split; rewrite ?fmul_opp_l, ?fmul_opp_r, ?fadd_opp, ?fsub_opp, ?fadd_opp_l; reflexivity.
Qed.
Lemma srhd_mirror g P : mirror_of (srhd_signals g P) (srhd_signals g (mirrored P)).
Proof.
  unfold mirror_of, srhd_signals. cbn [mass_d energy_d mass_f energy_f speed_m speed_p]. rewrite squared_mirrored. cbn [mirrored rho u1 u2 u3 pre]. rewrite project_opp, fdiv_opp_l.
  rewrite !fmul_opp_opp. repeat split; rewrite ?fmul_opp_l, ?fmul_opp_r, ?fadd_opp, ?fsub_opp, ?fadd_opp_l, ?fdiv_opp_l; reflexivity.
Qed.
Lemma speeds_mirror a b : smin 0 (smin (- b) a) = - smax 0 (smax (- a) b).
Proof. unfold smin, smax. repeat destruct (Rlt_dec _ _); lra. Qed.
Lemma hlle_mirror ap f u : hlle_fl ap (- ap) (- f) f u u = 0.
Proof. unfold hlle_fl. rewrite fsub_diag, !fmul_0_l, fmul_opp_l, fmul_opp_r, fsub_diag. unfold fsub. rewrite Rminus_0_r, fl_0. apply fdiv_0_l. Qed.

(** The reflecting inner boundary lets through exactly nothing, in either system: no rounding is left over.  The speed is
    positive so that the division is defined. *)
Theorem inner_face_closed g P signals_of : signals_of = euler_signals g \/ signals_of = srhd_signals g ->
  0 < plus_speed (signals_of (mirrored P)) (signals_of P) ->
  mass_flux_fl (signals_of (mirrored P)) (signals_of P) = 0 /\ energy_flux_fl (signals_of (mirrored P)) (signals_of P) = 0 /\
  minus_speed (signals_of (mirrored P)) (signals_of P) = - plus_speed (signals_of (mirrored P)) (signals_of P).
Proof.
  intros Hs _. assert (M : mirror_of (signals_of P) (signals_of (mirrored P))) by (destruct Hs as [->| ->]; [apply euler_mirror|apply srhd_mirror]).
  destruct M as (M1 & M2 & M3 & M4 & M5 & M6). unfold mass_flux_fl, energy_flux_fl, plus_speed, minus_speed. rewrite M1, M2, M3, M4, M5, M6, speeds_mirror, !hlle_mirror. auto.
Qed.

(** ** One step *)
Fixpoint sum_to (n : nat) (f : nat -> R) : R := match n with O => 0 | S k => sum_to k f + f k end.
Lemma sum_to_ext n f g : (forall i, (i < n)%nat -> f i = g i) -> sum_to n f = sum_to n g.
Proof. induction n as [|n IH]; intros H; cbn; [reflexivity|]. rewrite IH, H; auto. Qed.
Lemma sum_to_plus n f g : sum_to n (fun i => f i + g i) = sum_to n f + sum_to n g.
Proof. induction n as [|n IH]; cbn; [ring|rewrite IH; ring]. Qed.
Lemma sum_to_scal n f c : sum_to n (fun i => c * f i) = c * sum_to n f.
Proof. induction n as [|n IH]; cbn; [ring|rewrite IH; ring]. Qed.
Lemma sum_to_const n c : sum_to n (fun _ => c) = INR n * c.
Proof. induction n as [|n IH]; cbn [sum_to]; [cbn; ring|rewrite IH, S_INR; ring]. Qed.
Lemma sum_to_abs n f g : (forall i, (i < n)%nat -> Rabs (f i) <= g i) -> Rabs (sum_to n f) <= sum_to n g.
Proof. induction n as [|n IH]; intros H; cbn; [rewrite Rabs_R0; lra|]. eapply Rle_trans; [apply Rabs_triang|]. apply Rplus_le_compat; auto. Qed.
Lemma sum_to_tel n f : sum_to n (fun i => f (S i) - f i) = f n - f 0%nat.
Proof. induction n as [|n IH]; cbn [sum_to]; [ring|rewrite IH; ring]. Qed.
Lemma sum_to_swap n m f : sum_to n (fun i => sum_to m (f i)) = sum_to m (fun j => sum_to n (fun i => f i j)).
Proof. induction n as [|n IH]; cbn [sum_to]; [symmetry; rewrite sum_to_const; ring|]. rewrite IH, <- sum_to_plus. reflexivity. Qed.

(** Adding the rate [l] over the time [dt] to [u]. *)
Lemma update_error u l dt : double u -> Rabs (fadd u (fmul l dt) - (u + l * dt)) <= 5 / 4 * bp (-52) * (Rabs (fadd u (fmul l dt)) + Rabs u) + bp (-1074) /\
  Rabs (l * dt) <= (1 + bp (-51)) * (Rabs (fadd u (fmul l dt)) + Rabs u) + bp (-1074).
Proof.
  intros Du. unfold fadd, fmul. set (p := fl (l * dt)). set (v := fl (u + p)).
  pose proof (fl_any (l * dt)) as E1. fold p in E1. pose proof (fl_sum u p Du (fl_double _)) as E2. fold v in E2.
  assert (B3 : bp (-53) = / 9007199254740992) by reflexivity. assert (B2 : bp (-52) = / 4503599627370496) by reflexivity. assert (B1 : bp (-51) = / 2251799813685248) by reflexivity.
  assert (B4 : bp (-1074) = 2 * bp (-1075)) by (change (-1074)%Z with (1 + -1075)%Z; rewrite bpow_plus; reflexivity). pose proof (bpow_gt_0 radix2 (-1075)) as P.
  rewrite B1, B2, B3, B4 in *. revert E1 E2. generalize (bp (-1075)) P. clear. intros e He. unfold Rabs. repeat destruct (Rcase_abs _); split; lra.
Qed.

(** The masses (or energies) of the shells after a step add up to what they were plus what came through the two outermost
    faces, to within 2^-51 of the sum of both: whatever the fluxes between the shells are, they cancel. *)
Lemma shell_error f da dv dt u i : double (u i) ->
  Rabs (shell_update f da dv dt u i - (u i + (face_term f da (S i) - face_term f da i) * dt)) <= bp (-51) * (Rabs (shell_update f da dv dt u i) + Rabs (u i)) + bp (-1073).
Proof.
  intros Du. unfold shell_update. rewrite fmul_0_l, fadd_0_r by apply fl_double. set (a := face_term f da (S i)). set (b := face_term f da i). set (l := fsub a b).
  destruct (update_error (u i) l dt Du) as [E T].
  assert (L : Rabs (l - (a - b)) <= bp (-53) * Rabs (a - b)) by (unfold l, fsub, Rminus at 1; apply fl_sum; [apply fl_double|apply double_opp, fl_double]).
  assert (LT : Rabs (l * dt - (a - b) * dt) <= bp (-53) * (Rabs (a - b) * Rabs dt)) by (rewrite <- Rmult_minus_distr_r, Rabs_mult, <- Rmult_assoc; apply Rmult_le_compat_r; [apply Rabs_pos|exact L]).
  rewrite Rabs_mult in T.
  assert (LS : Rabs (a - b) * Rabs dt <= (1 + / 1024) * (Rabs l * Rabs dt)).
  { rewrite <- Rmult_assoc. apply Rmult_le_compat_r; [apply Rabs_pos|]. assert (Rabs (a - b) <= Rabs l + Rabs (l - (a - b))) by (replace (a - b) with (l - (l - (a - b))) at 1 by ring; eapply Rle_trans; [apply Rabs_triang|rewrite Rabs_Ropp; lra]). assert (B3 : bp (-53) = / 9007199254740992) by reflexivity. pose proof (Rabs_pos l). rewrite B3 in *. lra. }
  set (v := fadd (u i) (fmul l dt)) in *. replace (v - (u i + (a - b) * dt)) with ((v - (u i + l * dt)) + (l * dt - (a - b) * dt)) by ring. eapply Rle_trans; [apply Rabs_triang|].
  assert (B3 : bp (-53) = / 9007199254740992) by reflexivity. assert (B2 : bp (-52) = / 4503599627370496) by reflexivity. assert (B1 : bp (-51) = / 2251799813685248) by reflexivity.
  assert (B5 : bp (-1073) = 2 * bp (-1074)) by (change (-1073)%Z with (1 + -1074)%Z; rewrite bpow_plus; reflexivity). pose proof (bpow_gt_0 radix2 (-1074)) as P. pose proof (Rabs_pos v). pose proof (Rabs_pos (u i)).
  rewrite B1, B2, B3, B5 in *. lra.
Qed.
Theorem shells_step n f da dv dt u : (forall i, (i < n)%nat -> double (u i)) ->
  Rabs (sum_to n (shell_update f da dv dt u) - sum_to n u - (face_term f da n - face_term f da 0) * dt)
  <= bp (-51) * (sum_to n (fun i => Rabs (shell_update f da dv dt u i)) + sum_to n (fun i => Rabs (u i))) + INR n * bp (-1073).
Proof.
  intros Du. rewrite <- (sum_to_tel n (face_term f da)).
  replace (sum_to n (shell_update f da dv dt u) - sum_to n u - sum_to n (fun i => face_term f da (S i) - face_term f da i) * dt) with (sum_to n (fun i => shell_update f da dv dt u i + (-1 * u i + - dt * (face_term f da (S i) - face_term f da i)))) by (rewrite sum_to_plus, sum_to_plus, !sum_to_scal; ring).
  rewrite <- sum_to_plus, <- sum_to_scal, <- sum_to_const, <- sum_to_plus. apply sum_to_abs. intros i Hi. pose proof (shell_error f da dv dt u i (Du i Hi)) as E. replace (shell_update f da dv dt u i + (-1 * u i + - dt * (face_term f da (S i) - face_term f da i))) with (shell_update f da dv dt u i - (u i + (face_term f da (S i) - face_term f da i) * dt)) by ring. exact E.
Qed.

(** ** A run of the explosion program *)
(** [u k i]: mass (or energy) of shell [i] before step [k]; the fluxes [f k] are any doubles, closed at the innermost face. *)
Definition shells_run (n : nat) (u f : nat -> nat -> R) (da dv : nat -> R) (dt : nat -> R) : Prop :=
  (forall i, (i < n)%nat -> double (u 0%nat i)) /\ (forall k i, (i < n)%nat -> u (S k) i = shell_update (f k) da dv (dt k) (u k) i) /\ (forall k, f k 0%nat = 0).
Lemma run_doubles n u f da dv dt : shells_run n u f da dv dt -> forall k i, (i < n)%nat -> double (u k i).
Proof. intros (D & S & _) [|k] i Hi; [apply D; exact Hi|rewrite (S k i Hi)]. apply fl_double. Qed.

(** While no shell is negative, the total is what it was at first, minus what left through the outermost face, to within 2^-51 of
    the totals before and after in every step. *)
Theorem shells_budget n u f da dv dt : shells_run n u f da dv dt -> (forall k i, (i < n)%nat -> 0 <= u k i) -> forall N,
  Rabs (sum_to n (u N) - sum_to n (u 0%nat) - sum_to N (fun k => dt k * face_term (f k) da n))
  <= sum_to N (fun k => bp (-51) * (sum_to n (u (S k)) + sum_to n (u k)) + INR n * bp (-1073)).
Proof.
  intros H Pos N. induction N as [|N IH]; [cbn; replace (sum_to n (u 0%nat) - sum_to n (u 0%nat) - 0) with 0 by ring; rewrite Rabs_R0; lra|]. cbn [sum_to].
  pose proof (shells_step n (f N) da dv (dt N) (u N) (run_doubles _ _ _ _ _ _ H N)) as S. destruct H as (_ & HS & H0).
  assert (E1 : sum_to n (shell_update (f N) da dv (dt N) (u N)) = sum_to n (u (Datatypes.S N))) by (apply sum_to_ext; intros i Hi; rewrite (HS N i Hi); reflexivity).
  assert (E2 : sum_to n (fun i => Rabs (shell_update (f N) da dv (dt N) (u N) i)) = sum_to n (u (Datatypes.S N))) by (apply sum_to_ext; intros i Hi; rewrite <- (HS N i Hi); apply Rabs_pos_eq, Pos, Hi).
  assert (E3 : sum_to n (fun i => Rabs (u N i)) = sum_to n (u N)) by (apply sum_to_ext; intros i Hi; apply Rabs_pos_eq, Pos, Hi).
  rewrite E1, E2, E3 in S. unfold face_term at 2 in S. rewrite (H0 N), fmul_0_l in S.
  match goal with |- Rabs ?x <= _ => replace x with ((sum_to n (u N) - sum_to n (u 0%nat) - sum_to N (fun k => dt k * face_term (f k) da n)) + (sum_to n (u (Datatypes.S N)) - sum_to n (u N) - (face_term (f N) da n - 0) * dt N)) by ring end.
  eapply Rle_trans; [apply Rabs_triang|]. lra.
Qed.
(** Before anything reaches the outermost face, a billion steps change the total by at most one part in a quarter of a million, and
    each step by at most 2^-48. *)
Theorem shells_conserved n u f da dv dt : shells_run n u f da dv dt -> (forall k i, (i < n)%nat -> 0 <= u k i) ->
  INR n * bp (-1000) <= sum_to n (u 0%nat) -> forall N, (forall k, (k < N)%nat -> f k n = 0) -> INR N <= bp 30 ->
  Rabs (sum_to n (u N) - sum_to n (u 0%nat)) <= INR N * bp (-48) * sum_to n (u 0%nat).
Proof.
  intros H Pos H0. induction N as [|N IH]; intros Hf HN; [cbn; replace (sum_to n (u 0%nat) - sum_to n (u 0%nat)) with 0 by ring; rewrite Rabs_R0; lra|].
  rewrite S_INR in *. assert (B30 : bp 30 = 1073741824) by reflexivity. rewrite B30 in HN. specialize (IH (fun k Hk => Hf k (Nat.lt_lt_succ_r _ _ Hk))). rewrite B30 in IH. specialize (IH ltac:(lra)).
  pose proof (shells_step n (f N) da dv (dt N) (u N) (run_doubles _ _ _ _ _ _ H N)) as S. destruct H as (_ & HS & Hz).
  assert (E1 : sum_to n (shell_update (f N) da dv (dt N) (u N)) = sum_to n (u (Datatypes.S N))) by (apply sum_to_ext; intros i Hi; rewrite (HS N i Hi); reflexivity).
  assert (E2 : sum_to n (fun i => Rabs (shell_update (f N) da dv (dt N) (u N) i)) = sum_to n (u (Datatypes.S N))) by (apply sum_to_ext; intros i Hi; rewrite <- (HS N i Hi); apply Rabs_pos_eq, Pos, Hi).
  assert (E3 : sum_to n (fun i => Rabs (u N i)) = sum_to n (u N)) by (apply sum_to_ext; intros i Hi; apply Rabs_pos_eq, Pos, Hi).
  rewrite E1, E2, E3 in S. unfold face_term in S. rewrite (Hz N), (Hf N) in S by lia. rewrite !fmul_0_l in S.
  set (A := sum_to n (u (Datatypes.S N))) in *. set (B := sum_to n (u N)) in *. set (M := sum_to n (u 0%nat)) in *. replace (A - B - (0 - 0) * dt N) with (A - B) in S by ring.
  assert (B48 : bp (-48) = / 281474976710656) by reflexivity. assert (B51 : bp (-51) = / 2251799813685248) by reflexivity.
  assert (B1073 : INR n * bp (-1073) <= / 9444732965739290427392 * M).
  { replace (bp (-1073)) with (/ 9444732965739290427392 * bp (-1000)) by (change (-1073)%Z with (-73 + -1000)%Z; rewrite bpow_plus; reflexivity). lra. }
  assert (M0 : 0 <= M). { pose proof (pos_INR n). pose proof (bpow_gt_0 radix2 (-1000)). nra. } pose proof (pos_INR N) as PN.
  assert (LB : INR N * / 281474976710656 * M <= / 262144 * M) by (apply Rmult_le_compat_r; lra).
  rewrite B48 in *. rewrite B51 in S. revert S IH LB B1073 M0. generalize (INR n * bp (-1073)). clear. intros e. set (q := INR N * / 281474976710656 * M). replace ((INR N + 1) * / 281474976710656 * M) with (q + / 281474976710656 * M) by (unfold q; ring). unfold Rabs. repeat destruct (Rcase_abs _); intros; lra.
Qed.

(** ** The cloud program *)
(** One step on the two-dimensional grid: the total changes by what comes through the inner and the outer boundary; the error is
    measured by the totals and by the amounts that move in and out of the cells in the step. *)
Definition radial_term (f dar : nat -> nat -> R) (i j : nat) : R := fmul (f i j) (- dar i j).
Definition moved (f g dar daq : nat -> nat -> R) (dt : R) (i j : nat) : R :=
  (Rabs (radial_term f dar (S i) j) + Rabs (radial_term f dar i j) + Rabs (radial_term g daq i (S j)) + Rabs (radial_term g daq i j)) * Rabs dt.
Lemma cell_error f g dar daq dv dt u i j : double (u i j) ->
  Rabs (cell_update f g dar daq dv dt u i j - (u i j + ((radial_term f dar (S i) j - radial_term f dar i j) + (radial_term g daq i (S j) - radial_term g daq i j)) * dt))
  <= bp (-51) * (Rabs (cell_update f g dar daq dv dt u i j) + Rabs (u i j) + 2 * moved f g dar daq dt i j) + bp (-1074).
Proof.
  intros Du. unfold cell_update. cbn zeta. fold (radial_term f dar (S i) j) (radial_term f dar i j) (radial_term g daq i (S j)) (radial_term g daq i j). unfold moved.
  assert (D : forall f dar i j, double (radial_term f dar i j)) by (intros; apply fl_double).
  set (a := radial_term f dar (S i) j). set (b := radial_term f dar i j). set (c := radial_term g daq i (S j)). set (d := radial_term g daq i j).
  rewrite fmul_0_l, fadd_0_r by apply fl_double. set (l := fadd (fsub a b) (fsub c d)). destruct (update_error (u i j) l dt Du) as [E _].
  assert (L1 : Rabs (fsub a b - (a - b)) <= bp (-53) * Rabs (a - b)) by (unfold fsub, Rminus at 1; apply fl_sum; [apply D|apply double_opp, D]).
  assert (L2 : Rabs (fsub c d - (c - d)) <= bp (-53) * Rabs (c - d)) by (unfold fsub, Rminus at 1; apply fl_sum; [apply D|apply double_opp, D]).
  assert (L3 : Rabs (l - (fsub a b + fsub c d)) <= bp (-53) * Rabs (fsub a b + fsub c d)) by (unfold l, fadd; apply fl_sum; apply fl_double).
  assert (L : Rabs (l - ((a - b) + (c - d))) <= bp (-52) * (2 * (Rabs a + Rabs b + Rabs c + Rabs d))).
  { assert (B3 : bp (-53) = / 9007199254740992) by reflexivity. assert (B2 : bp (-52) = / 4503599627370496) by reflexivity. rewrite B2, B3 in *. set (x := fsub a b) in *. set (y := fsub c d) in *. revert L1 L2 L3. generalize l x y. clear. intros l x y L1 L2 L3.
    assert (A1 : Rabs (a - b) <= Rabs a + Rabs b) by (unfold Rminus; eapply Rle_trans; [apply Rabs_triang|rewrite Rabs_Ropp; lra]). assert (A2 : Rabs (c - d) <= Rabs c + Rabs d) by (unfold Rminus; eapply Rle_trans; [apply Rabs_triang|rewrite Rabs_Ropp; lra]).
    assert (A3 : Rabs (x + y) <= 2 * (Rabs (a - b) + Rabs (c - d))).
    { replace (x + y) with ((x - (a - b)) + (y - (c - d)) + ((a - b) + (c - d))) by ring. eapply Rle_trans; [apply Rabs_triang|]. pose proof (Rabs_triang (x - (a - b)) (y - (c - d))). pose proof (Rabs_triang (a - b) (c - d)). pose proof (Rabs_pos (a - b)). pose proof (Rabs_pos (c - d)). lra. }
    replace (l - ((a - b) + (c - d))) with ((l - (x + y)) + ((x - (a - b)) + (y - (c - d)))) by ring. eapply Rle_trans; [apply Rabs_triang|]. pose proof (Rabs_triang (x - (a - b)) (y - (c - d))). pose proof (Rabs_pos a). pose proof (Rabs_pos b). pose proof (Rabs_pos c). pose proof (Rabs_pos d). lra. }
  assert (LT : Rabs (l * dt - ((a - b) + (c - d)) * dt) <= bp (-52) * (2 * ((Rabs a + Rabs b + Rabs c + Rabs d) * Rabs dt))).
  { rewrite <- Rmult_minus_distr_r, Rabs_mult. apply (Rmult_le_compat_r (Rabs dt)) in L; [|apply Rabs_pos]. lra. }
  set (v := fadd (u i j) (fmul l dt)) in *. replace (v - (u i j + ((a - b) + (c - d)) * dt)) with ((v - (u i j + l * dt)) + (l * dt - ((a - b) + (c - d)) * dt)) by ring. eapply Rle_trans; [apply Rabs_triang|]. assert (B2 : bp (-51) = 2 * bp (-52)) by (change (bp (-51)) with (/ 2251799813685248); change (bp (-52)) with (/ 4503599627370496); lra). rewrite B2. pose proof (bpow_gt_0 radix2 (-52)) as P. assert (Z : 0 <= (Rabs a + Rabs b + Rabs c + Rabs d) * Rabs dt) by (pose proof (Rabs_pos a); pose proof (Rabs_pos b); pose proof (Rabs_pos c); pose proof (Rabs_pos d); pose proof (Rabs_pos dt); nra). pose proof (Rabs_pos v). pose proof (Rabs_pos (u i j)). nra.
Qed.
Definition grid_sum (n m : nat) (f : nat -> nat -> R) : R := sum_to n (fun i => sum_to m (f i)).
Lemma grid_sum_plus n m f g : grid_sum n m (fun i j => f i j + g i j) = grid_sum n m f + grid_sum n m g.
Proof. unfold grid_sum. rewrite <- sum_to_plus. apply sum_to_ext. intros i _. apply sum_to_plus. Qed.
Lemma grid_sum_scal n m f c : grid_sum n m (fun i j => c * f i j) = c * grid_sum n m f.
Proof. unfold grid_sum. rewrite <- sum_to_scal. apply sum_to_ext. intros i _. apply sum_to_scal. Qed.
Lemma grid_sum_const n m c : grid_sum n m (fun _ _ => c) = INR n * INR m * c.
Proof. unfold grid_sum. rewrite (sum_to_ext n _ (fun _ => INR m * c)) by (intros; apply sum_to_const). rewrite sum_to_const. ring. Qed.
Lemma grid_sum_abs n m f g : (forall i j, (i < n)%nat -> (j < m)%nat -> Rabs (f i j) <= g i j) -> Rabs (grid_sum n m f) <= grid_sum n m g.
Proof. intros H. apply sum_to_abs. intros i Hi. apply sum_to_abs. auto. Qed.
Theorem cloud_step n m f g dar daq dv dt u : (forall i j, (i < n)%nat -> (j < m)%nat -> double (u i j)) ->
  (forall i, g i 0%nat = 0 /\ g i m = 0) ->
  Rabs (grid_sum n m (cell_update f g dar daq dv dt u) - grid_sum n m u - (sum_to m (radial_term f dar n) - sum_to m (radial_term f dar 0)) * dt)
  <= bp (-51) * (grid_sum n m (fun i j => Rabs (cell_update f g dar daq dv dt u i j)) + grid_sum n m (fun i j => Rabs (u i j)) + 2 * grid_sum n m (moved f g dar daq dt))
     + INR n * INR m * bp (-1074).
Proof.
  intros Du Hg.
  assert (TR : grid_sum n m (fun i j => radial_term f dar (S i) j - radial_term f dar i j) = sum_to m (radial_term f dar n) - sum_to m (radial_term f dar 0)).
  { unfold grid_sum. rewrite sum_to_swap. rewrite (sum_to_ext m _ (fun j => radial_term f dar n j + -1 * radial_term f dar 0 j)); [rewrite sum_to_plus, sum_to_scal; ring|]. intros j _. rewrite (sum_to_tel n (fun i => radial_term f dar i j)). ring. }
  assert (TQ : grid_sum n m (fun i j => radial_term g daq i (S j) - radial_term g daq i j) = 0).
  { unfold grid_sum. rewrite (sum_to_ext n _ (fun _ => 0)); [rewrite sum_to_const; ring|]. intros i _. rewrite (sum_to_tel m (radial_term g daq i)). unfold radial_term. destruct (Hg i) as [-> ->]. rewrite !fmul_0_l. ring. }
  rewrite <- TR.
  replace (grid_sum n m (cell_update f g dar daq dv dt u) - grid_sum n m u - grid_sum n m (fun i j => radial_term f dar (S i) j - radial_term f dar i j) * dt)
    with (grid_sum n m (fun i j => cell_update f g dar daq dv dt u i j + (-1 * u i j + - dt * ((radial_term f dar (S i) j - radial_term f dar i j) + (radial_term g daq i (S j) - radial_term g daq i j)))))
    by (rewrite (grid_sum_plus n m (cell_update f g dar daq dv dt u)), (grid_sum_plus n m (fun i j => -1 * u i j)), !grid_sum_scal, (grid_sum_plus n m (fun i j => radial_term f dar (S i) j - radial_term f dar i j)), TQ; change (fun i j => u i j) with u; ring).
  rewrite <- (grid_sum_scal n m (moved f g dar daq dt)), <- !grid_sum_plus, <- grid_sum_scal, <- grid_sum_const, <- grid_sum_plus. apply grid_sum_abs. intros i j Hi Hj. pose proof (cell_error f g dar daq dv dt u i j (Du i j Hi Hj)) as E.
  match goal with |- Rabs ?x <= _ => match type of E with Rabs ?y <= _ => replace x with y by ring end end. exact E.
Qed.

(** Two shells with a flux of 1 between them and face areas 1, 1, 4: exact numbers. *)
Example shells_example :
  let f j := match j with 1%nat => 1 | _ => 0 end in let da j := match j with 2%nat => 4 | _ => 1 end in let u i := match i with O => 3 | _ => 5 end in
  shell_update f da (fun _ => 1) (1 / 2) u 0 = 5 / 2 /\ shell_update f da (fun _ => 1) (1 / 2) u 1 = 11 / 2.
Proof.
  cbn. unfold shell_update, face_term. rewrite !fmul_0_l. assert (F1 : fmul 1 (- (1)) = -1) by (unfold fmul; replace (1 * - (1)) with (-1) by lra; apply (whole (-1)); reflexivity). rewrite F1.
  assert (Fm : fsub (-1) 0 = -1) by (unfold fsub; rewrite Rminus_0_r; apply (whole (-1)); reflexivity). assert (Fp : fsub 0 (-1) = 1) by (unfold fsub; replace (0 - -1) with 1 by lra; apply (whole 1); reflexivity).
  rewrite Fm, Fp. unfold fadd, fmul. rewrite !Rplus_0_r. rewrite (whole 1) by reflexivity. assert (G : fl (-1) = -1) by (apply (whole (-1)); reflexivity). rewrite G.
  replace (-1 * (1 / 2)) with (- (1 / 2)) by lra. rewrite Rmult_1_l, fl_opp. rewrite (dyadic 1 (-1) (1 / 2)); [|change (bp (-1)) with (/ 2); lra|reflexivity|lia].
  split; [replace (3 + - (1 / 2)) with (5 / 2) by lra; apply (dyadic 5 (-1))|replace (5 + 1 / 2) with (11 / 2) by lra; apply (dyadic 11 (-1))]; try reflexivity; try lia; change (bp (-1)) with (/ 2); lra.
Qed.
(** A gas that moves outwards at 3 with sound speed 2: its own mass flux is 3, the flux through the inner face zero. *)
Example closed_example : let s := euler_signals 2 in let P := Prim 1 3 0 0 2 in
  plus_speed (s (mirrored P)) (s P) = 5 /\ mass_f (s P) = 3 /\ mass_flux_fl (s (mirrored P)) (s P) = 0.
Proof.
  cbn zeta. assert (K : forall z, (Z.abs z < 2 ^ 53)%Z -> fl (IZR z) = IZR z) by apply whole.
  assert (V : project_fl 3 0 0 = 3) by (rewrite project_value; unfold fmul; rewrite Rmult_1_r; apply K; reflexivity).
  assert (C : fsqrt (fdiv (fmul 2 2) 1) = 2) by (unfold fsqrt, fdiv, fmul; replace (2 * 2) with 4 by lra; rewrite (K 4%Z) by reflexivity; replace (4 / 1) with 4 by lra; rewrite (K 4%Z) by reflexivity; replace 4 with (2 * 2) by lra; rewrite sqrt_square by lra; apply K; reflexivity).
  assert (Sp : plus_speed (euler_signals 2 (mirrored (Prim 1 3 0 0 2))) (euler_signals 2 (Prim 1 3 0 0 2)) = 5).
  { destruct (euler_mirror 2 (Prim 1 3 0 0 2)) as (_ & _ & _ & _ & _ & M). unfold plus_speed. rewrite M. cbn [euler_signals speed_m speed_p u1 u2 u3 rho pre]. unfold euler_signals. cbn [speed_m speed_p u1 u2 u3 rho pre]. rewrite V, C. unfold fsub, fadd. replace (3 - 2) with 1 by lra. replace (3 + 2) with 5 by lra. rewrite (K 1%Z), (K 5%Z) by reflexivity. unfold smax. repeat destruct (Rlt_dec _ _); lra. }
  split; [exact Sp|]. split; [unfold euler_signals; cbn [mass_f u1 u2 u3 rho pre]; rewrite V; unfold fmul; rewrite Rmult_1_r; apply K; reflexivity|].
  apply (inner_face_closed 2 (Prim 1 3 0 0 2) (euler_signals 2)); [left; reflexivity|rewrite Sp; lra].
Qed.

Print Assumptions inner_face_closed.
Print Assumptions shells_step.
Print Assumptions shells_budget.
Print Assumptions shells_conserved.
Print Assumptions cloud_step.
