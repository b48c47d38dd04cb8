(** C100: reconstruction at cell faces, means of values and evenly spaced grids, in double arithmetic. *)
From Coq Require Import ZArith Reals Lra Lia List Arith Psatz.
From Flocq Require Import Core.
From Verif Require Import Base DoubleModel DoubleProofs DoubleGridProofs.
Open Scope R_scope.

(** Values of doubles for examples. *)
Lemma dyadic m e x : x = IZR m * bp e -> (Z.abs m < 2 ^ 53)%Z -> (-1074 <= e)%Z -> fl x = x.
Proof. intros -> H K. apply fl_id, double_mult; assumption. Qed.
Lemma whole m : (Z.abs m < 2 ^ 53)%Z -> fl (IZR m) = IZR m.
Proof. intros H. apply fl_id, double_int, H. Qed.

(** The reconstructed values of the cloud program lie between the cell and its neighbour, whatever the three values, for a
    limiter parameter up to 2 - 2^-48. *)
Theorem faces_in_doubles yl y0 yr theta : double yl -> double y0 -> double yr -> 0 <= theta <= 2 - bp (-48) ->
  let g := plm_fl yl y0 yr theta in
  Rmin y0 yr <= right_face y0 g <= Rmax y0 yr /\ Rmin yl y0 <= left_face y0 g <= Rmax yl y0.
Proof. exact (faces_between yl y0 yr theta). Qed.
(** So positive densities and pressures stay positive at the faces. *)
Theorem faces_positive yl y0 yr theta : double yl -> double y0 -> double yr -> 0 <= theta <= 2 - bp (-48) ->
  0 < yl -> 0 < y0 -> 0 < yr -> let g := plm_fl yl y0 yr theta in 0 < right_face y0 g /\ 0 < left_face y0 g.
Proof.
  intros Dl D0 Dr Ht Pl P0 Pr g. destruct (faces_in_doubles yl y0 yr theta Dl D0 Dr Ht) as [[A _] [B _]]. fold g in A, B. split.
  - eapply Rlt_le_trans; [|exact A]. apply Rmin_glb_lt; assumption.
  - eapply Rlt_le_trans; [|exact B]. apply Rmin_glb_lt; assumption.
Qed.
(** The same in the binary program, where the slope is divided by the spacing of the cells and multiplied again, for slopes
    and spacings far from the ends of the range of doubles. *)
Theorem faces_of_in_doubles yl y0 yr theta dx : double yl -> double y0 -> double yr -> 0 <= theta <= 2 - bp (-48) ->
  bp (-400) <= dx <= bp 400 -> let g := plm_fl yl y0 yr theta in g = 0 \/ bp (-500) <= Rabs g ->
  Rmin y0 yr <= right_face_of y0 g dx <= Rmax y0 yr /\ Rmin yl y0 <= left_face_of y0 g dx <= Rmax yl y0.
Proof. exact (faces_of_between yl y0 yr theta dx). Qed.
Theorem faces_of_positive yl y0 yr theta dx : double yl -> double y0 -> double yr -> 0 <= theta <= 2 - bp (-48) ->
  bp (-400) <= dx <= bp 400 -> let g := plm_fl yl y0 yr theta in g = 0 \/ bp (-500) <= Rabs g ->
  0 < yl -> 0 < y0 -> 0 < yr -> 0 < right_face_of y0 g dx /\ 0 < left_face_of y0 g dx.
Proof.
  intros Dl D0 Dr Ht Hx g Hg Pl P0 Pr. destruct (faces_of_in_doubles yl y0 yr theta dx Dl D0 Dr Ht Hx Hg) as [[A _] [B _]]. fold g in A, B. split.
  - eapply Rlt_le_trans; [|exact A]. apply Rmin_glb_lt; assumption.
  - eapply Rlt_le_trans; [|exact B]. apply Rmin_glb_lt; assumption.
Qed.

Example faces_example : plm_fl 1 2 4 (3 / 2) = 3 / 2 /\ right_face 2 (3 / 2) = 11 / 4 /\ left_face 2 (3 / 2) = 5 / 4 /\ right_face_of 2 (3 / 2) (1 / 8) = 11 / 4.
Proof.
  assert (B1 : bp (-1) = / 2) by reflexivity. assert (B2 : bp (-2) = / 4) by reflexivity.
  repeat split.
  - rewrite plm_form. cbn zeta. replace (2 - 1) with 1 by lra. replace (4 - 1) with 3 by lra. replace (4 - 2) with 2 by lra. rewrite !whole by reflexivity.
    replace (1 * (3 / 2)) with (3 / 2) by lra. replace (3 * (1 / 2)) with (3 / 2) by lra. replace (2 * (3 / 2)) with 3 by lra. rewrite (dyadic 3 (-1) (3 / 2)) by (lra || lia || reflexivity). rewrite (whole 3) by reflexivity.
    destruct (Rlt_dec (3 / 2) 0); [lra|]. destruct (Rlt_dec 3 0); [lra|]. unfold minabs. rewrite !Rabs_pos_eq by lra. rewrite (Rmin_left (3 / 2) (3 / 2)) by lra. apply Rmin_left. lra.
  - unfold right_face. replace (3 / 2 * (1 / 2)) with (3 / 4) by lra. rewrite (dyadic 3 (-2) (3 / 4)) by (lra || lia || reflexivity). replace (2 + 3 / 4) with (11 / 4) by lra. apply (dyadic 11 (-2)); (lra || lia || reflexivity).
  - unfold left_face. replace (3 / 2 * (1 / 2)) with (3 / 4) by lra. rewrite (dyadic 3 (-2) (3 / 4)) by (lra || lia || reflexivity). replace (2 - 3 / 4) with (5 / 4) by lra. apply (dyadic 5 (-2)); (lra || lia || reflexivity).
  - unfold right_face_of. replace (3 / 2 / (1 / 8)) with 12 by lra. rewrite (whole 12) by reflexivity. replace (12 * (1 / 2)) with 6 by lra. rewrite (whole 6) by reflexivity. replace (6 * (1 / 8)) with (3 / 4) by lra.
    rewrite (dyadic 3 (-2) (3 / 4)) by (lra || lia || reflexivity). replace (2 + 3 / 4) with (11 / 4) by lra. apply (dyadic 11 (-2)); (lra || lia || reflexivity).
Qed.

(** Not so for the largest parameter in the documented range, 2: three positive densities give an empty face, in both
    programs, so the face value divides by zero in the flux. *)
Theorem face_empty_refuted : exists yl y0 yr, double yl /\ double y0 /\ double yr /\ 0 < yl /\ 0 < y0 /\ 0 < yr /\
  right_face y0 (plm_fl yl y0 yr 2) = 0 /\ right_face_of y0 (plm_fl yl y0 yr 2) (1 / 8) = 0.
Proof.
  exists 10, 1, (bp (-60)). assert (B : bp (-60) = / 1152921504606846976) by reflexivity. assert (D60 : double (bp (-60))) by (apply double_bpow; lia).
  assert (F1 : fl (bp (-60) - 1) = -1).
  { replace (bp (-60) - 1) with (- (1 - bp (-60))) by ring. rewrite fl_opp. rewrite (fl_eq (1 - bp (-60)) 9007199254740992 (-53)).
    - change (bp (-53)) with (/ 9007199254740992). lra.
    - lia.
    - change (bp (-53 + 52)) with (/ 2). change (bp (-53 + 53)) with 1. rewrite B. lra.
    - change (bp (-53)) with (/ 9007199254740992). replace (1 - bp (-60) - 9007199254740992 * / 9007199254740992) with (- bp (-60)) by field. rewrite Rabs_Ropp, Rabs_pos_eq, B by apply bpow_ge_0. lra.
    - change (bp (-53 + 52)) with (/ 2). change (bp (-53 + 53)) with 1. change (bp (-53)) with (/ 9007199254740992). lra. }
  assert (F10 : fl (bp (-60) - 10) = -10).
  { replace (bp (-60) - 10) with (- (10 - bp (-60))) by ring. rewrite fl_opp. rewrite (fl_eq (10 - bp (-60)) 5629499534213120 (-49)).
    - change (bp (-49)) with (/ 562949953421312). lra.
    - lia.
    - change (bp (-49 + 52)) with 8. change (bp (-49 + 53)) with 16. rewrite B. lra.
    - change (bp (-49)) with (/ 562949953421312). replace (10 - bp (-60) - 5629499534213120 * / 562949953421312) with (- bp (-60)) by field. rewrite Rabs_Ropp, Rabs_pos_eq, B by apply bpow_ge_0. lra.
    - change (bp (-49 + 52)) with 8. change (bp (-49 + 53)) with 16. change (bp (-49)) with (/ 562949953421312). lra. }
  assert (G : plm_fl 10 1 (bp (-60)) 2 = -2).
  { rewrite plm_form. cbn zeta. rewrite F1, F10. replace (1 - 10) with (-9) by lra. rewrite (whole (-9)) by reflexivity. replace (-9 * 2) with (-18) by lra. replace (-10 * (1 / 2)) with (-5) by lra. replace (-1 * 2) with (-2) by lra. rewrite !whole by reflexivity.
    destruct (Rlt_dec (-18) 0); [|lra]. destruct (Rlt_dec (-5) 0); [|lra]. destruct (Rlt_dec (-2) 0); [|lra]. unfold minabs. rewrite !Rabs_left by lra. rewrite (Rmin_right (- -18) (- -5)) by lra. rewrite Rmin_right by lra. lra. }
  rewrite G. repeat split; try (apply (double_int 10); reflexivity); try (apply (double_int 1); reflexivity); try assumption; try lra; try apply bpow_gt_0.
  - unfold right_face. replace (-2 * (1 / 2)) with (-1) by lra. rewrite (whole (-1)) by reflexivity. replace (1 + -1) with 0 by lra. apply fl_0.
  - unfold right_face_of. replace (-2 / (1 / 8)) with (-16) by lra. rewrite (whole (-16)) by reflexivity. replace (-16 * (1 / 2)) with (-8) by lra. rewrite (whole (-8)) by reflexivity. replace (-8 * (1 / 8)) with (-1) by lra. rewrite (whole (-1)) by reflexivity. replace (1 + -1) with 0 by lra. apply fl_0.
Qed.

(** A mean of two values lies between them, and the mean of equal values is that value, to the last bit: uniform fields
    survive averaging, and restricting a prolonged block gives it back exactly. *)
Theorem means_in_doubles a b : double a -> double b -> Rmin a b <= mean_fl a b <= Rmax a b /\ mean_fl a a = a /\ mean_fl a b = mean_fl b a.
Proof. intros Da Db. split; [apply mean_between; assumption|]. split; [apply mean_same, Da|]. unfold mean_fl. rewrite Rplus_comm. reflexivity. Qed.
Theorem four_means_in_doubles a : double a -> mean_fl (mean_fl a a) (mean_fl a a) = a.
Proof. intros D. rewrite (mean_same a D). apply mean_same, D. Qed.
(** The mean is rounded: of 1 and the next double it is 1 again, and as a sum of more values it depends on their order. *)
Example mean_rounds : mean_fl 1 (1 + bp (-52)) = 1 /\ mean_fl 3 4 = 7 / 2.
Proof.
  split.
  - unfold mean_fl.
    assert (F : fl (2 + bp (-52)) = 2).
    { unfold fl. apply Rle_antisym.
      - change (bp (-52)) with (/ 4503599627370496).
        unfold round, scaled_mantissa. assert (Cx : cexp radix2 fexp (2 + / 4503599627370496) = (-51)%Z).
        { unfold cexp. rewrite (mag_unique radix2 _ 2); [reflexivity|]. rewrite Rabs_pos_eq by lra. change (bp (2 - 1)) with 2. change (bp 2) with 4. lra. }
        rewrite Cx. change (bp (- -51)) with 2251799813685248. replace ((2 + / 4503599627370496) * 2251799813685248) with (4503599627370496 + / 2) by field.
        assert (Z : ZnearestE (4503599627370496 + / 2) = 4503599627370496%Z).
        { unfold ZnearestE, Znearest. assert (Fl : Zfloor (4503599627370496 + / 2) = 4503599627370496%Z) by (apply Zfloor_imp; rewrite plus_IZR; lra). rewrite Fl.
          rewrite Rcompare_Eq by lra. reflexivity. }
        rewrite Z. unfold F2R. cbn [Fnum Fexp]. change (bp (-51)) with (/ 2251799813685248). lra.
      - change (2 <= fl (2 + bp (-52))). apply fl_ge_double; [apply (double_int 2); reflexivity|]. pose proof (bpow_gt_0 radix2 (-52)). lra. }
    replace (1 + (1 + bp (-52))) with (2 + bp (-52)) by ring. rewrite F. replace (2 * (1 / 2)) with 1 by lra. apply (whole 1). reflexivity.
  - unfold mean_fl. replace (3 + 4) with 7 by lra. rewrite (whole 7) by reflexivity. replace (7 * (1 / 2)) with (7 / 2) by lra. apply (dyadic 7 (-1)); try lia. change (bp (-1)) with (/ 2). lra.
Qed.

(** An evenly spaced grid starts at its first argument exactly, never turns back, and every point is within a few units in the
    last place of its exact one. *)
Theorem grid_in_doubles x0 x1 count : double x0 -> double x1 -> (2 <= count <= 2 ^ 53)%Z ->
  linspace_fl x0 x1 count 0 = x0 /\
  (x0 <= x1 -> forall i j, (0 <= i <= j)%Z -> (j <= count - 1)%Z -> linspace_fl x0 x1 count i <= linspace_fl x0 x1 count j) /\
  (forall i, (0 <= i <= count - 1)%Z ->
     Rabs (linspace_fl x0 x1 count i - (x0 + (x1 - x0) * IZR i / IZR (count - 1))) <= bp (-50) * (Rabs x0 + Rabs x1) + bp (-1073)).
Proof.
  intros D0 D1 Hc. split; [apply linspace_first, D0|]. split.
  - intros Hx i j Hi Hj. apply linspace_mono; [exact Hx|lia|lia].
  - intros i Hi. apply linspace_error; assumption.
Qed.
(** Its cells have a size above zero, unless they are near the spacing of doubles. *)
Theorem grid_cells x0 x1 count i : double x0 -> double x1 -> x0 < x1 -> (2 <= count <= 2 ^ 53)%Z -> (0 <= i < count - 1)%Z ->
  IZR (count - 1) * (bp (-49) * (Rabs x0 + Rabs x1) + bp (-1072)) < x1 - x0 -> linspace_fl x0 x1 count i < linspace_fl x0 x1 count (i + 1).
Proof. exact (linspace_strict x0 x1 count i). Qed.
(** The grids of the mesh blocks (-1 to 1) and of the boilerplate program (0 to 1) end exactly where they should, so that
    neighbouring blocks meet. *)
Theorem block_grid_ends count : (2 <= count <= 2 ^ 52)%Z -> linspace_fl (-1) 1 count (count - 1) = 1 /\ linspace_fl 0 1 count (count - 1) = 1.
Proof.
  intros Hc. split; apply linspace_last; try lia; try (apply (double_int 1); reflexivity).
  - replace (1 - -1) with 2 by lra. apply (double_int 2). reflexivity.
  - replace (1 - -1) with 2 by lra. apply double_twice, double_int. lia.
  - replace (1 - 0) with 1 by lra. apply (double_int 1). reflexivity.
  - replace (1 - 0) with 1 by lra. rewrite Rmult_1_l. apply double_int. lia.
Qed.

(** The double M_PI. *)
Definition m_pi : R := 7074237752028440 * bp (-51).
(** The polar grid of the cloud program does not end at M_PI for every resolution: with 99 zones its last vertex is beyond it. *)
Theorem grid_end_refuted : double m_pi /\ linspace_fl 0 m_pi 100 99 = m_pi + bp (-51).
Proof.
  assert (Dp : double m_pi) by (apply (double_mult 7074237752028440); lia). split; [exact Dp|].
  assert (B51 : bp (-51) = / 2251799813685248) by reflexivity. assert (B44 : bp (-44) = / 17592186044416) by reflexivity.
  unfold linspace_fl. rewrite Rminus_0_r, (fl_id _ Dp). change (100 - 1)%Z with 99%Z. rewrite (whole 99) by reflexivity.
  assert (P : fl (m_pi * 99) = 5471480761334497 * bp (-44)).
  { apply fl_eq; [lia| | |]; unfold m_pi; rewrite ?B51, ?B44; change (bp (-44 + 52)) with 256; change (bp (-44 + 53)) with 512; try lra. apply Rabs_def1; lra. }
  rewrite P. assert (Q : fl (5471480761334497 * bp (-44) / 99) = 7074237752028441 * bp (-51)).
  { apply fl_eq; [lia| | |]; rewrite ?B51, ?B44; change (bp (-51 + 52)) with 2; change (bp (-51 + 53)) with 4; try lra. apply Rabs_def1; lra. }
  rewrite Q, Rplus_0_l. rewrite (dyadic 7074237752028441 (-51)) by (reflexivity || lia). unfold m_pi. lra.
Qed.
Example grid_example : linspace_fl (-1) 1 5 1 = - (1 / 2) /\ linspace_fl (-1) 1 5 2 = 0.
Proof.
  unfold linspace_fl. change (5 - 1)%Z with 4%Z. rewrite !whole by reflexivity. replace (1 - -1) with 2 by lra. rewrite (whole 2) by reflexivity. replace (2 * 1) with 2 by lra. replace (2 * 2) with 4 by lra. rewrite !whole by reflexivity.
  replace (2 / 4) with (1 / 2) by lra. replace (4 / 4) with 1 by lra. rewrite (dyadic 1 (-1) (1 / 2)) by (lia || reflexivity || (change (bp (-1)) with (/ 2); lra)). rewrite (whole 1) by reflexivity.
  replace (-1 + 1 / 2) with (- (1 / 2)) by lra. replace (-1 + 1) with 0 by lra. rewrite fl_opp, fl_0. rewrite (dyadic 1 (-1) (1 / 2)) by (lia || reflexivity || (change (bp (-1)) with (/ 2); lra)). split; reflexivity.
Qed.

Print Assumptions faces_in_doubles.
Print Assumptions faces_positive.
Print Assumptions faces_of_in_doubles.
Print Assumptions faces_of_positive.
Print Assumptions face_empty_refuted.
Print Assumptions means_in_doubles.
Print Assumptions four_means_in_doubles.
Print Assumptions grid_in_doubles.
Print Assumptions grid_cells.
Print Assumptions block_grid_ends.
Print Assumptions grid_end_refuted.
