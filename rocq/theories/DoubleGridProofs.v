(** Reconstruction, means and grids in double arithmetic. *)
From Coq Require Import ZArith Reals Lra Lia List Arith Psatz.
From Flocq Require Import Core.
From Verif Require Import Base DoubleModel DoubleProofs.
Open Scope R_scope.

Lemma double_abs x : double x -> double (Rabs x).
Proof. intros H. unfold Rabs. destruct (Rcase_abs x); [apply double_opp, H|exact H]. Qed.
Lemma double_min x y : double x -> double y -> double (Rmin x y).
Proof. intros H K. unfold Rmin. destruct (Rle_dec x y); assumption. Qed.
Lemma double_int m : (Z.abs m < 2 ^ 53)%Z -> double (IZR m).
Proof. intros H. replace (IZR m) with (IZR m * bp 0) by (change (bp 0) with 1; ring). apply double_mult; [exact H|lia]. Qed.
Lemma fl_nonneg x : 0 <= x -> 0 <= fl x.
Proof. intros H. rewrite <- fl_0. apply fl_le, H. Qed.
Lemma fl_nonpos x : x <= 0 -> fl x <= 0.
Proof. intros H. rewrite <- fl_0. apply fl_le, H. Qed.

(** The limited difference is the least of the three differences, with their common sign, or zero. *)
Lemma plm_form yl y0 yr theta :
  let a := fl (fl (y0 - yl) * theta) in let b := fl (fl (yr - yl) * (1 / 2)) in let c := fl (fl (yr - y0) * theta) in
  plm_fl yl y0 yr theta =
    (if Rlt_dec a 0 then if Rlt_dec b 0 then if Rlt_dec c 0 then - minabs a b c else 0 else 0
     else if Rlt_dec b 0 then 0 else if Rlt_dec c 0 then 0 else minabs a b c).
Proof.
  intros a b c. unfold plm_fl. fold a b c. assert (Dm : double (minabs a b c)) by (unfold minabs; repeat apply double_min; apply double_abs, fl_double). set (m := minabs a b c) in *.
  assert (F2 : fl 2 = 2) by (apply fl_id, (double_int 2); reflexivity). assert (Fm2 : fl (- (2)) = - (2)) by (rewrite fl_opp, F2; reflexivity).
  assert (Fh : fl (1 / 2) = 1 / 2). { apply fl_id. replace (1 / 2) with (bp (-1)) by (change (bp (-1)) with (/ 2); lra). apply double_bpow; lia. }
  assert (F1 : fl 1 = 1) by (apply fl_id, (double_int 1); reflexivity). assert (Fm1 : fl (- (1)) = - (1)) by (rewrite fl_opp, F1; reflexivity).
  assert (S2 : forall x, sgn x = -1 \/ sgn x = 1) by (intros x; unfold sgn; destruct (Rlt_dec x 0); auto).
  assert (R : forall x, sgn x = if Rlt_dec x 0 then -1 else 1) by reflexivity.
  rewrite !R. destruct (Rlt_dec a 0), (Rlt_dec b 0), (Rlt_dec c 0);
    repeat match goal with |- context [fl (?x + ?y)] => first
      [ replace (x + y) with 0 by lra; rewrite fl_0 | replace (x + y) with 2 by lra; rewrite F2 | replace (x + y) with (- (2)) by lra; rewrite Fm2 ] end;
    rewrite ?Rabs_R0, ?Rabs_Ropp, ?(Rabs_pos_eq 2) by lra;
    rewrite ?(ltac:(lra) : 1 / 4 * 2 = 1 / 2), ?Fh, ?(ltac:(lra) : 1 / 4 * 0 = 0), ?fl_0, ?Rmult_0_l, ?Rmult_0_r, ?fl_0, ?Rmult_0_l, ?fl_0;
    rewrite ?(ltac:(lra) : 1 / 2 * 2 = 1), ?(ltac:(lra) : 1 / 2 * - (2) = - (1)), ?F1, ?Fm1; try reflexivity.
  - replace (- (1) * m) with (- m) by ring. apply fl_id, double_opp, Dm.
  - rewrite Rmult_1_l. apply fl_id, Dm.
Qed.

Definition slack : R := bp (-48).
Lemma slack_val : slack = / 281474976710656. Proof. reflexivity. Qed.
Lemma bp53 : bp (-53) = / 9007199254740992. Proof. reflexivity. Qed.
Lemma bp1022_pos : 0 < bp (-1022). Proof. apply bpow_gt_0. Qed.
Lemma bp1021 : bp (-1021) = 2 * bp (-1022).
Proof. change (-1021)%Z with (1 + -1022)%Z. rewrite bpow_plus. reflexivity. Qed.
Lemma rel_up x : bp (-1022) <= x -> fl x <= x * (1 + bp (-53)) /\ x * (1 - bp (-53)) <= fl x.
Proof.
  intros H. pose proof bp1022_pos as B0. pose proof (fl_rel x) as R. rewrite Rabs_pos_eq in R by lra. specialize (R H). apply Rabs_le_inv in R. split; lra.
Qed.

Lemma half_step x y theta g : double x -> double y -> 0 < y - x -> 0 <= theta <= 2 - slack -> 0 <= g <= fl (fl (y - x) * theta) -> 0 <= fl (g * (1 / 2)) <= y - x.
Proof.
  intros Dx Dy Hd Ht [G0 G]. split; [apply fl_nonneg; lra|]. rewrite slack_val in Ht.
  destruct (sub_exact_or_large y x Dy Dx) as [E|E].
  - rewrite (fl_id _ E) in G. assert (K : fl ((y - x) * theta) <= 2 * (y - x)) by (apply fl_le_double; [apply double_twice, E|nra]).
    apply fl_le_double; [exact E|]. lra.
  - rewrite Rabs_pos_eq in E by lra. set (d := y - x) in *. rewrite bp1021 in E. pose proof bp1022_pos as B0.
    destruct (rel_up d ltac:(lra)) as [D1 D2]. rewrite bp53 in *. set (t := 2 - / 281474976710656) in *.
    assert (P : fl (fl d * theta) <= fl (fl d * t)) by (apply fl_le; apply Rmult_le_compat_l; [apply fl_nonneg; lra|unfold t in *; lra]).
    destruct (rel_up (fl d * t) ltac:(unfold t; nra)) as [P1 P2]. rewrite bp53 in *. set (G1 := fl (fl d * t)) in *.
    assert (Q : fl (g * (1 / 2)) <= fl (G1 * (1 / 2))) by (apply fl_le; lra).
    destruct (rel_up (G1 * (1 / 2))) as [Q1 _]. { unfold t in *. nra. } rewrite bp53 in Q1. eapply Rle_trans; [exact Q|]. eapply Rle_trans; [exact Q1|].
    clearbody G1. unfold t in *. clear - D1 P1 Hd B0. nra.
Qed.

(** The same with the difference divided by the grid spacing and multiplied again. *)
Lemma half_step_of x y theta g dx : double x -> double y -> 0 < y - x -> 0 <= theta <= 2 - slack ->
  0 <= g <= fl (fl (y - x) * theta) -> (g = 0 \/ bp (-500) <= g) -> bp (-400) <= dx <= bp 400 ->
  0 <= fl (fl (fl (g / dx) * (1 / 2)) * dx) <= y - x.
Proof.
  intros Dx Dy Hd Ht [G0 G] [->|Hg] Hdx.
  { replace (0 / dx) with 0 by (unfold Rdiv; ring). rewrite fl_0, Rmult_0_l, fl_0, Rmult_0_l, fl_0. lra. }
  pose proof (bpow_gt_0 radix2 (-400)) as B4. rewrite slack_val in Ht.
  assert (T1 : bp (-1022) <= bp (-903)) by (apply bpow_le; lia). pose proof bp1022_pos as B0. assert (T2 : bp (-1021) <= bp (-510)) by (apply bpow_le; lia). assert (T3 : bp (-500) = 1024 * bp (-510)) by (change (-500)%Z with (10 + -510)%Z; rewrite bpow_plus; reflexivity).
  assert (T4 : bp (-900) = 8 * bp (-903)) by (change (-900)%Z with (3 + -903)%Z; rewrite bpow_plus; reflexivity). assert (T5 : bp (-900) = bp (-500) * bp (-400)) by (rewrite <- bpow_plus; reflexivity).
  assert (T6 : bp (-1021) = 2 * bp (-1022)) by apply bp1021.
  split; [apply fl_nonneg; apply Rmult_le_pos; [apply fl_nonneg, Rmult_le_pos; [apply fl_nonneg; apply Rmult_le_pos; [lra|left; apply Rinv_0_lt_compat; lra]|lra]|lra]|].
  set (d := y - x) in *. set (t := 2 - / 281474976710656) in *.
  assert (Dl : bp (-1021) <= d).
  { destruct (Rlt_le_dec d (bp (-1021))) as [C|C]; [exfalso|exact C].
    assert (K : fl d <= bp (-1021)) by (apply fl_le_double; [apply double_bpow; lia|lra]). assert (K0 : 0 <= fl d) by (apply fl_nonneg; lra).
    assert (K2 : fl (fl d * theta) <= 2 * bp (-1021)). { apply fl_le_double; [apply double_twice, double_bpow; lia|]. unfold t in *. nra. }
    pose proof (bpow_gt_0 radix2 (-510)). lra. }
  destruct (rel_up d ltac:(lra)) as [D1 D2]. rewrite bp53 in *.
  assert (P : fl (fl d * theta) <= fl (fl d * t)) by (apply fl_le; apply Rmult_le_compat_l; [apply fl_nonneg; lra|unfold t in *; lra]).
  destruct (rel_up (fl d * t) ltac:(unfold t; nra)) as [P1 _]. rewrite bp53 in *.
  assert (I4 : bp (-400) <= / dx). { apply Rmult_le_reg_r with dx; [lra|]. rewrite Rinv_l by lra. apply Rle_trans with (bp (-400) * bp 400); [apply Rmult_le_compat_l; lra|]. rewrite <- bpow_plus. cbn. lra. }
  assert (S0 : bp (-900) <= g / dx). { rewrite T5. unfold Rdiv. apply Rmult_le_compat; try lra; apply bpow_ge_0. }
  destruct (rel_up (g / dx) ltac:(lra)) as [S1 S2]. rewrite bp53 in *. set (s := fl (g / dx)) in *.
  destruct (rel_up (s * (1 / 2)) ltac:(lra)) as [R1 R2]. rewrite bp53 in *. set (r := fl (s * (1 / 2))) in *.
  assert (Gs : g / dx * dx = g) by (field; lra).
  assert (V : r * dx <= g * (1 / 2) * (1 + / 9007199254740992) * (1 + / 9007199254740992)).
  { apply Rle_trans with (g / dx * (1 + / 9007199254740992) * (1 / 2) * (1 + / 9007199254740992) * dx); [apply Rmult_le_compat_r; lra|]. rewrite <- Gs at 2. lra. }
  assert (W : bp (-510) <= r * dx).
  { apply Rle_trans with (g / dx * (1 - / 9007199254740992) * (1 / 2) * (1 - / 9007199254740992) * dx); [|apply Rmult_le_compat_r; lra].
    replace (g / dx * (1 - / 9007199254740992) * (1 / 2) * (1 - / 9007199254740992) * dx) with (g * ((1 - / 9007199254740992) * (1 / 2) * (1 - / 9007199254740992))) by (field; lra). pose proof (bpow_gt_0 radix2 (-510)). nra. }
  destruct (rel_up (r * dx) ltac:(lra)) as [U1 _]. rewrite bp53 in *. eapply Rle_trans; [exact U1|]. set (rd := r * dx) in *. clearbody rd.
  assert (Gd : g <= d * (1 + / 9007199254740992) * t * (1 + / 9007199254740992)).
  { eapply Rle_trans; [exact G|]. eapply Rle_trans; [exact P|]. eapply Rle_trans; [exact P1|]. unfold t in *. clear - D1. nra. }
  unfold t in *. clear - V Gd Hd. nra.
Qed.

(** Values reached by a step of at most the difference. *)
Lemma step_up x y h : double x -> double y -> 0 <= h <= y - x -> x <= fl (x + h) <= y.
Proof. intros Dx Dy H. split; [apply fl_ge_double; [exact Dx|lra]|apply fl_le_double; [exact Dy|lra]]. Qed.
Lemma step_down x y h : double x -> double y -> 0 <= h <= y - x -> x <= fl (y - h) <= y.
Proof. intros Dx Dy H. split; [apply fl_ge_double; [exact Dx|lra]|apply fl_le_double; [exact Dy|lra]]. Qed.

Lemma minabs_le a b c : minabs a b c <= Rabs a /\ minabs a b c <= Rabs c /\ 0 <= minabs a b c.
Proof.
  unfold minabs. pose proof (Rmin_l (Rmin (Rabs a) (Rabs b)) (Rabs c)). pose proof (Rmin_r (Rmin (Rabs a) (Rabs b)) (Rabs c)). pose proof (Rmin_l (Rabs a) (Rabs b)). repeat split; try lra.
  repeat apply Rmin_glb; apply Rabs_pos.
Qed.
(** The limited difference against the one-sided differences. *)
Lemma plm_sides yl y0 yr theta : 0 <= theta -> let g := plm_fl yl y0 yr theta in
  g = 0 \/
  (0 < g /\ yl < y0 < yr /\ g <= fl (fl (y0 - yl) * theta) /\ g <= fl (fl (yr - y0) * theta)) \/
  (g < 0 /\ yr < y0 < yl /\ - g <= fl (fl (yl - y0) * theta) /\ - g <= fl (fl (y0 - yr) * theta)).
Proof.
  intros Ht g. subst g. rewrite plm_form. cbn zeta. set (a := fl (fl (y0 - yl) * theta)). set (b := fl (fl (yr - yl) * (1 / 2))). set (c := fl (fl (yr - y0) * theta)).
  destruct (minabs_le a b c) as (Ma & Mc & M0). set (m := minabs a b c) in *.
  assert (Pos : forall x, 0 < fl (fl x * theta) -> 0 < x). { intros x H. destruct (Rlt_le_dec 0 x) as [K|K]; [exact K|exfalso]. apply fl_nonpos in K. assert (fl x * theta <= 0) as K2 by nra. apply fl_nonpos in K2. lra. }
  assert (Opp : forall x z, fl (fl (x - z) * theta) = - fl (fl (z - x) * theta)). { intros x z. replace (x - z) with (- (z - x)) by ring. rewrite fl_opp, Ropp_mult_distr_l_reverse, fl_opp. reflexivity. }
  destruct (Rlt_dec a 0) as [A|A], (Rlt_dec b 0) as [B|B], (Rlt_dec c 0) as [C|C]; try (left; reflexivity).
  - destruct (Req_dec m 0) as [E|E]; [left; lra|]. right; right. rewrite Rabs_left in Ma, Mc by lra. rewrite (Opp yl y0), (Opp y0 yr). fold a c.
    assert (Pa : 0 < yl - y0) by (apply Pos; rewrite (Opp yl y0); fold a; lra). assert (Pc : 0 < y0 - yr) by (apply Pos; rewrite (Opp y0 yr); fold c; lra). repeat split; lra.
  - destruct (Req_dec m 0) as [E|E]; [left; lra|]. right; left. rewrite Rabs_pos_eq in Ma, Mc by lra. assert (Pa : 0 < y0 - yl) by (apply Pos; fold a; lra). assert (Pc : 0 < yr - y0) by (apply Pos; fold c; lra). repeat split; lra.
Qed.
Lemma fl_half_opp g : fl (- g * (1 / 2)) = - fl (g * (1 / 2)).
Proof. rewrite Ropp_mult_distr_l_reverse. apply fl_opp. Qed.

Lemma faces_between yl y0 yr theta : double yl -> double y0 -> double yr -> 0 <= theta <= 2 - slack ->
  let g := plm_fl yl y0 yr theta in
  Rmin y0 yr <= right_face y0 g <= Rmax y0 yr /\ Rmin yl y0 <= left_face y0 g <= Rmax yl y0.
Proof.
  intros Dl D0 Dr Ht g. unfold right_face, left_face.
  pose proof (Rmin_l y0 yr); pose proof (Rmin_r y0 yr); pose proof (Rmax_l y0 yr); pose proof (Rmax_r y0 yr); pose proof (Rmin_l yl y0); pose proof (Rmin_r yl y0); pose proof (Rmax_l yl y0); pose proof (Rmax_r yl y0).
  pose proof (plm_sides yl y0 yr theta (proj1 Ht)) as PS; cbn zeta in PS; fold g in PS. destruct PS as [E|[(G & Hy & Ga & Gc)|(G & Hy & Ga & Gc)]].
  - rewrite E, Rmult_0_l, fl_0, Rplus_0_r, Rminus_0_r, (fl_id _ D0). lra.
  - pose proof (half_step y0 yr theta g D0 Dr ltac:(lra) Ht ltac:(lra)) as K1. pose proof (half_step yl y0 theta g Dl D0 ltac:(lra) Ht ltac:(lra)) as K2.
    pose proof (step_up y0 yr _ D0 Dr K1). pose proof (step_down yl y0 _ Dl D0 K2). lra.
  - pose proof (half_step yr y0 theta (- g) Dr D0 ltac:(lra) Ht ltac:(lra)) as K1. pose proof (half_step y0 yl theta (- g) D0 Dl ltac:(lra) Ht ltac:(lra)) as K2. rewrite fl_half_opp in K1, K2.
    pose proof (step_down yr y0 _ Dr D0 K1) as S1. pose proof (step_up y0 yl _ D0 Dl K2) as S2. replace (y0 + fl (g * (1 / 2))) with (y0 - - fl (g * (1 / 2))) by ring. replace (y0 - fl (g * (1 / 2))) with (y0 + - fl (g * (1 / 2))) by ring. lra.
Qed.
Lemma faces_of_between yl y0 yr theta dx : double yl -> double y0 -> double yr -> 0 <= theta <= 2 - slack -> bp (-400) <= dx <= bp 400 ->
  let g := plm_fl yl y0 yr theta in g = 0 \/ bp (-500) <= Rabs g ->
  Rmin y0 yr <= right_face_of y0 g dx <= Rmax y0 yr /\ Rmin yl y0 <= left_face_of y0 g dx <= Rmax yl y0.
Proof.
  intros Dl D0 Dr Ht Hdx g Hg. unfold right_face_of, left_face_of.
  pose proof (Rmin_l y0 yr); pose proof (Rmin_r y0 yr); pose proof (Rmax_l y0 yr); pose proof (Rmax_r y0 yr); pose proof (Rmin_l yl y0); pose proof (Rmin_r yl y0); pose proof (Rmax_l yl y0); pose proof (Rmax_r yl y0).
  pose proof (plm_sides yl y0 yr theta (proj1 Ht)) as PS; cbn zeta in PS; fold g in PS. destruct PS as [E|[(G & Hy & Ga & Gc)|(G & Hy & Ga & Gc)]].
  - rewrite E. replace (0 / dx) with 0 by (unfold Rdiv; ring). rewrite fl_0, Rmult_0_l, fl_0, Rmult_0_l, fl_0, Rplus_0_r, Rminus_0_r, (fl_id _ D0). lra.
  - destruct Hg as [Hg|Hg]; [lra|]. rewrite Rabs_pos_eq in Hg by lra.
    pose proof (half_step_of y0 yr theta g dx D0 Dr ltac:(lra) Ht ltac:(lra) (or_intror Hg) Hdx) as K1. pose proof (half_step_of yl y0 theta g dx Dl D0 ltac:(lra) Ht ltac:(lra) (or_intror Hg) Hdx) as K2.
    pose proof (step_up y0 yr _ D0 Dr K1). pose proof (step_down yl y0 _ Dl D0 K2). lra.
  - destruct Hg as [Hg|Hg]; [lra|]. rewrite Rabs_left in Hg by lra.
    pose proof (half_step_of yr y0 theta (- g) dx Dr D0 ltac:(lra) Ht ltac:(lra) (or_intror Hg) Hdx) as K1. pose proof (half_step_of y0 yl theta (- g) dx D0 Dl ltac:(lra) Ht ltac:(lra) (or_intror Hg) Hdx) as K2.
    assert (Fo : fl (fl (fl (- g / dx) * (1 / 2)) * dx) = - fl (fl (fl (g / dx) * (1 / 2)) * dx)). { unfold Rdiv at 1. rewrite Ropp_mult_distr_l_reverse, fl_opp, Ropp_mult_distr_l_reverse, fl_opp, Ropp_mult_distr_l_reverse, fl_opp. reflexivity. }
    rewrite Fo in K1, K2. set (h := fl (fl (fl (g / dx) * (1 / 2)) * dx)) in *.
    pose proof (step_down yr y0 _ Dr D0 K1) as S1. pose proof (step_up y0 yl _ D0 Dl K2) as S2. replace (y0 + h) with (y0 - - h) by ring. replace (y0 - h) with (y0 + - h) by ring. lra.
Qed.

(** Means. *)
Lemma mean_between a b : double a -> double b -> Rmin a b <= mean_fl a b <= Rmax a b.
Proof.
  assert (G : forall a b, double a -> double b -> a <= b -> a <= mean_fl a b <= b).
  { intros x y Dx Dy H. unfold mean_fl. assert (L : 2 * x <= fl (x + y)) by (apply fl_ge_double; [apply double_twice, Dx|lra]). assert (U : fl (x + y) <= 2 * y) by (apply fl_le_double; [apply double_twice, Dy|lra]).
    split; [apply fl_ge_double; [exact Dx|lra]|apply fl_le_double; [exact Dy|lra]]. }
  intros Da Db. unfold Rmin, Rmax. destruct (Rle_dec a b) as [H|H]; [apply G; assumption|]. replace (mean_fl a b) with (mean_fl b a) by (unfold mean_fl; rewrite Rplus_comm; reflexivity). apply G; [assumption|assumption|lra].
Qed.
Lemma mean_same a : double a -> mean_fl a a = a.
Proof. intros D. pose proof (mean_between a a D D) as H. unfold Rmin, Rmax in H. destruct (Rle_dec a a); lra. Qed.

(** Grids. *)
Lemma linspace_first x0 x1 count : double x0 -> linspace_fl x0 x1 count 0 = x0.
Proof.
  intros D. unfold linspace_fl. rewrite fl_0, Rmult_0_r, fl_0. unfold Rdiv. rewrite Rmult_0_l, fl_0, Rplus_0_r. apply fl_id, D.
Qed.
Lemma linspace_mono x0 x1 count i j : x0 <= x1 -> (2 <= count)%Z -> (i <= j)%Z -> linspace_fl x0 x1 count i <= linspace_fl x0 x1 count j.
Proof.
  intros Hx Hc Hij. unfold linspace_fl. apply fl_le, Rplus_le_compat_l, fl_le. unfold Rdiv. apply Rmult_le_compat_r.
  { assert (1 <= fl (IZR (count - 1))). { apply fl_ge_double; [apply (double_int 1); reflexivity|]. apply IZR_le. lia. } left. apply Rinv_0_lt_compat. lra. }
  apply fl_le, Rmult_le_compat_l; [apply fl_nonneg; lra|]. apply fl_le, IZR_le, Hij.
Qed.

(** The error of one operation. *)
Lemma fl_any x : Rabs (fl x - x) <= bp (-53) * Rabs x + bp (-1075).
Proof.
  pose proof (bpow_gt_0 radix2 (-1075)) as E0. pose proof (bpow_gt_0 radix2 (-53)) as U0. destruct (Rlt_le_dec (Rabs x) (bp (-1022))) as [H|H].
  - pose proof (fl_err (-1022) x) as F. assert (Rabs (fl x - x) <= bp (-1075)) by (apply F; lra || lia). pose proof (Rabs_pos x). nra.
  - pose proof (fl_rel x H). lra.
Qed.
Lemma fl_sum x y : double x -> double y -> Rabs (fl (x + y) - (x + y)) <= bp (-53) * Rabs (x + y).
Proof.
  intros Dx Dy. pose proof (bpow_gt_0 radix2 (-53)) as U0. destruct (sub_exact_or_large x (- y) Dx (double_opp _ Dy)) as [E|E].
  - replace (x - - y) with (x + y) in E by ring. rewrite (fl_id _ E). unfold Rminus. rewrite Rplus_opp_r, Rabs_R0. pose proof (Rabs_pos (x + y)). nra.
  - replace (x - - y) with (x + y) in E by ring. apply fl_rel. rewrite bp1021 in E. pose proof bp1022_pos. lra.
Qed.

Lemma count_exact i : (0 <= i <= 2 ^ 53)%Z -> fl (IZR i) = IZR i.
Proof.
  intros H. apply fl_id. destruct (Z.eq_dec i (2 ^ 53)) as [->|N]; [change (IZR (2 ^ 53)) with (bp 53); apply double_bpow; lia|apply double_int; lia].
Qed.

(** The error of a point of a grid. *)
Lemma linspace_error x0 x1 count i : double x0 -> double x1 -> (2 <= count <= 2 ^ 53)%Z -> (0 <= i <= count - 1)%Z ->
  Rabs (linspace_fl x0 x1 count i - (x0 + (x1 - x0) * IZR i / IZR (count - 1))) <= bp (-50) * (Rabs x0 + Rabs x1) + bp (-1073).
Proof.
  intros D0 D1 Hc Hi. unfold linspace_fl. rewrite (count_exact i) by lia. rewrite (count_exact (count - 1)) by lia.
  assert (I0 : 0 <= IZR i) by (apply IZR_le; lia). assert (I1 : IZR i <= IZR (count - 1)) by (apply IZR_le; lia). assert (N1 : 1 <= IZR (count - 1)) by (apply IZR_le; lia).
  set (k := IZR i) in *. set (n := IZR (count - 1)) in *. clearbody k n.
  set (D := x1 - x0). pose proof (fl_sum x1 (- x0) D1 (double_opp _ D0)) as E1. replace (x1 + - x0) with D in E1 by (unfold D; ring).
  set (d := fl D) in *. pose proof (fl_any (d * k)) as E2. set (p := fl (d * k)) in *. pose proof (fl_any (p / n)) as E3. assert (Dq : double (fl (p / n))) by apply fl_double. set (q := fl (p / n)) in *.
  pose proof (fl_sum x0 q D0 Dq) as E4. set (r := fl (x0 + q)) in *.
  assert (A : Rabs D <= Rabs x0 + Rabs x1). { unfold D. replace (x1 - x0) with (x1 + - x0) by ring. eapply Rle_trans; [apply Rabs_triang|]. rewrite Rabs_Ropp. lra. }
  set (w := k / n). assert (W : 0 <= w <= 1). { unfold w, Rdiv. split; [apply Rmult_le_pos; [lra|left; apply Rinv_0_lt_compat; lra]|]. apply Rmult_le_reg_r with n; [lra|]. rewrite Rmult_assoc, Rinv_l by lra. lra. }
  assert (Wn : / n <= 1) by (rewrite <- Rinv_1; apply Rinv_le_contravar; lra). assert (Wp : 0 < / n) by (apply Rinv_0_lt_compat; lra).
  replace (x0 + D * k / n) with (x0 + D * w) by (unfold w, Rdiv; ring).
  set (eta := bp (-1075)) in *. assert (Eta : 0 < eta) by apply bpow_gt_0. assert (E73 : bp (-1073) = 4 * eta) by (change (-1073)%Z with (2 + -1075)%Z; rewrite bpow_plus; reflexivity).
  rewrite E73. clear E73. clearbody eta. change (bp (-50)) with (/ 1125899906842624). rewrite bp53 in *. set (u := / 9007199254740992) in *. assert (U : 0 < u < / 1000000) by (unfold u; lra). assert (U8 : / 1125899906842624 = 8 * u) by (unfold u; lra). rewrite U8. clear U8.
  (* the quotient *)
  assert (Q1 : Rabs (d * w - D * w) <= u * Rabs D). { replace (d * w - D * w) with ((d - D) * w) by ring. rewrite Rabs_mult, (Rabs_pos_eq w) by lra. pose proof (Rabs_pos (d - D)). nra. }
  assert (Ad : Rabs d <= (1 + u) * Rabs D). { replace d with (D + (d - D)) by ring. eapply Rle_trans; [apply Rabs_triang|]. lra. }
  assert (Q2 : Rabs (p / n - d * w) <= u * Rabs d + eta).
  { replace (p / n - d * w) with ((p - d * k) * / n) by (unfold w; field; lra). rewrite Rabs_mult, (Rabs_pos_eq (/ n)) by lra.
    apply Rle_trans with ((u * Rabs (d * k) + eta) * / n); [apply Rmult_le_compat_r; lra|]. rewrite Rmult_plus_distr_r. apply Rplus_le_compat; [|nra].
    rewrite Rabs_mult, (Rabs_pos_eq k) by lra. replace (u * (Rabs d * k) * / n) with (u * Rabs d * w) by (unfold w; field; lra). pose proof (Rabs_pos d). assert (0 <= u * Rabs d) by nra. nra. }
  assert (Q3 : Rabs (p / n) <= (1 + u) * Rabs d + eta). { replace (p / n) with (d * w + (p / n - d * w)) by ring. eapply Rle_trans; [apply Rabs_triang|]. rewrite Rabs_mult, (Rabs_pos_eq w) by lra. pose proof (Rabs_pos d). nra. }
  assert (Q4 : Rabs (q - D * w) <= u * Rabs D + (u * Rabs d + eta) + (u * Rabs (p / n) + eta)).
  { replace (q - D * w) with ((d * w - D * w) + (p / n - d * w) + (q - p / n)) by ring. eapply Rle_trans; [apply Rabs_triang|]. eapply Rle_trans; [apply Rplus_le_compat_r, Rabs_triang|]. lra. }
  assert (V0 : Rabs D * w <= Rabs D) by (pose proof (Rabs_pos D); nra).
  assert (XDw : Rabs (x0 + D * w) <= Rabs x0 + Rabs x1).
  { replace (x0 + D * w) with (x0 * (1 - w) + x1 * w) by (unfold D; ring). eapply Rle_trans; [apply Rabs_triang|]. rewrite !Rabs_mult, (Rabs_pos_eq w), (Rabs_pos_eq (1 - w)) by lra. pose proof (Rabs_pos x0). pose proof (Rabs_pos x1). nra. }
  set (S := Rabs x0 + Rabs x1) in *. pose proof (Rabs_pos D) as PD.
  assert (Q5 : Rabs (q - D * w) <= 4 * u * S + 5 / 2 * eta).
  { eapply Rle_trans; [exact Q4|]. set (aD := Rabs D) in *. set (ad := Rabs d) in *. set (ap := Rabs (p / n)) in *. clearbody aD ad ap S. clear - Ad Q3 A U PD Eta. assert (ad <= 101 / 100 * S) by nra. assert (ap <= 103 / 100 * S + eta) by nra. nra. }
  assert (Q6 : Rabs (x0 + q) <= S + (4 * u * S + 5 / 2 * eta)). { replace (x0 + q) with ((x0 + D * w) + (q - D * w)) by ring. eapply Rle_trans; [apply Rabs_triang|]. lra. }
  replace (r - (x0 + D * w)) with ((r - (x0 + q)) + (q - D * w)) by ring. eapply Rle_trans; [apply Rabs_triang|]. eapply Rle_trans; [apply Rplus_le_compat; [exact E4|exact Q5]|].
  set (aq := Rabs (x0 + q)) in *. clearbody aq S. assert (0 <= S) by lra. clear - Q6 U Eta H.
  assert (X : u * aq <= u * (S + (4 * u * S + 5 / 2 * eta))) by (apply Rmult_le_compat_l; lra). assert (0 <= u * S) by nra. assert (u * (u * S) <= / 1000000 * (u * S)) by (apply Rmult_le_compat_r; lra). assert (u * eta <= / 1000000 * eta) by (apply Rmult_le_compat_r; lra). lra.
Qed.
Lemma linspace_strict x0 x1 count i : double x0 -> double x1 -> x0 < x1 -> (2 <= count <= 2 ^ 53)%Z -> (0 <= i < count - 1)%Z ->
  IZR (count - 1) * (bp (-49) * (Rabs x0 + Rabs x1) + bp (-1072)) < x1 - x0 -> linspace_fl x0 x1 count i < linspace_fl x0 x1 count (i + 1).
Proof.
  intros D0 D1 Hx Hc Hi H. pose proof (linspace_error x0 x1 count i D0 D1 Hc ltac:(lia)) as A. pose proof (linspace_error x0 x1 count (i + 1) D0 D1 Hc ltac:(lia)) as B. rewrite plus_IZR in B.
  assert (N1 : 1 <= IZR (count - 1)) by (apply IZR_le; lia). set (n := IZR (count - 1)) in *. set (S := Rabs x0 + Rabs x1) in *. apply Rabs_le_inv in A, B.
  assert (E1 : bp (-49) = 2 * bp (-50)) by (change (-49)%Z with (1 + -50)%Z; rewrite bpow_plus; reflexivity). assert (E2 : bp (-1072) = 2 * bp (-1073)) by (change (-1072)%Z with (1 + -1073)%Z; rewrite bpow_plus; reflexivity). rewrite E1, E2 in H.
  set (e := bp (-50) * S + bp (-1073)) in *. assert (G : 2 * e < (x1 - x0) / n). { apply Rmult_lt_reg_r with n; [lra|]. replace ((x1 - x0) / n * n) with (x1 - x0) by (field; lra). unfold e. lra. }
  replace (x0 + (x1 - x0) * (IZR i + 1) / n) with (x0 + (x1 - x0) * IZR i / n + (x1 - x0) / n) in B by (field; lra). lra.
Qed.
Lemma linspace_last x0 x1 count : double x1 -> (2 <= count <= 2 ^ 53)%Z -> double (x1 - x0) -> double ((x1 - x0) * IZR (count - 1)) -> linspace_fl x0 x1 count (count - 1) = x1.
Proof.
  intros D1 Hc E1 E2. unfold linspace_fl. rewrite (count_exact (count - 1)) by lia. rewrite (fl_id _ E1), (fl_id _ E2). assert (N1 : 1 <= IZR (count - 1)) by (apply IZR_le; lia).
  replace ((x1 - x0) * IZR (count - 1) / IZR (count - 1)) with (x1 - x0) by (field; lra). rewrite (fl_id _ E1). replace (x0 + (x1 - x0)) with x1 by ring. apply fl_id, D1.
Qed.
