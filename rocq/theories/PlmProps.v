(** C41: the slope limiter. *)
From Coq Require Import Reals Lra Psatz List.
From Verif Require Import PlmModel.
Import ListNotations.
Open Scope R_scope.

Lemma sgn_pos z x : 0 < x -> sgn z x = 1.
Proof. intros H. unfold sgn. destruct (Rlt_dec x 0); [lra|]. destruct (Rlt_dec 0 x); [reflexivity|lra]. Qed.
Lemma sgn_neg z x : x < 0 -> sgn z x = -1.
Proof. intros H. unfold sgn. destruct (Rlt_dec x 0); [reflexivity|lra]. Qed.

Lemma minabs_bounds a b c : 0 <= minabs a b c /\ minabs a b c <= Rabs a /\ minabs a b c <= Rabs b /\ minabs a b c <= Rabs c.
Proof.
  unfold minabs. pose proof (Rabs_pos a). pose proof (Rabs_pos b). pose proof (Rabs_pos c).
  unfold Rmin. repeat destruct Rle_dec; lra.
Qed.
Lemma minabs_zero a b c : a = 0 \/ b = 0 \/ c = 0 -> minabs a b c = 0.
Proof. intros H. destruct (minabs_bounds a b c) as (H0 & H1 & H2 & H3). destruct H as [->| [->| ->]]; rewrite Rabs_R0 in *; lra. Qed.

(** Independent specification: the minmod function of three slopes. *)
Definition minmod (a b c g : R) : Prop :=
  (0 < a -> 0 < b -> 0 < c -> g = Rmin (Rmin a b) c) /\
  (a < 0 -> b < 0 -> c < 0 -> g = Rmax (Rmax a b) c) /\
  (a * b <= 0 \/ a * c <= 0 \/ b * c <= 0 -> g = 0).

Ltac signs a b c :=
  destruct (total_order_T a 0) as [[Ha|Ha]|Ha]; destruct (total_order_T b 0) as [[Hb|Hb]|Hb]; destruct (total_order_T c 0) as [[Hc|Hc]|Hc].

Lemma limited_is_minmod za zb zc a b c :
  minmod a b c (0.25 * Rabs (sgn za a + sgn zb b) * (sgn za a + sgn zc c) * minabs a b c).
Proof.
  split; [|split].
  - intros. rewrite !sgn_pos by assumption. rewrite Rabs_pos_eq by lra. unfold minabs. rewrite !Rabs_pos_eq by lra. lra.
  - intros. rewrite !sgn_neg by assumption. rewrite (Rabs_left (-1 + -1)) by lra. unfold minabs. rewrite !Rabs_left by lra.
    rewrite <- !Ropp_Rmax. lra.
  - intros H. signs a b c; subst; try (rewrite minabs_zero by tauto; lra);
      repeat (rewrite !(sgn_neg _ _ Ha) || rewrite !(sgn_pos _ _ Ha)); repeat (rewrite !(sgn_neg _ _ Hb) || rewrite !(sgn_pos _ _ Hb));
      repeat (rewrite !(sgn_neg _ _ Hc) || rewrite !(sgn_pos _ _ Hc));
      try (replace (1 + -1) with 0 by lra); try (replace (-1 + 1) with 0 by lra); try rewrite Rabs_R0; try lra;
      exfalso; destruct H as [H|[H|H]]; nra.
Qed.

Section Limiter.
Variables (za zb zc : bool) (yl y0 yr theta : R).
Let g := plm_gradient za zb zc yl y0 yr theta.

Theorem plm_is_minmod : minmod (theta * (y0 - yl)) ((yr - yl) / 2) (theta * (yr - y0)) g.
Proof.
  unfold g, plm_gradient. pose proof (limited_is_minmod za zb zc ((y0 - yl) * theta) ((yr - yl) * 0.5) ((yr - y0) * theta)) as H.
  replace (theta * (y0 - yl)) with ((y0 - yl) * theta) by lra. replace (theta * (yr - y0)) with ((yr - y0) * theta) by lra.
  replace ((yr - yl) / 2) with ((yr - yl) * 0.5) by lra. exact H.
Qed.

Lemma theta_square : (y0 - yl) * (yr - y0) <= 0 -> theta * (y0 - yl) * (theta * (yr - y0)) <= 0.
Proof. intros H. replace (theta * (y0 - yl) * (theta * (yr - y0))) with ((theta * theta) * ((y0 - yl) * (yr - y0))) by lra. pose proof (Rle_0_sqr theta). unfold Rsqr in *. nra. Qed.

(** Zero at a local extremum (or plateau edge), for every theta. *)
Theorem plm_zero_at_extrema : (y0 <= yl /\ y0 <= yr) \/ (yl <= y0 /\ yr <= y0) -> g = 0.
Proof. intros H. destruct plm_is_minmod as (_ & _ & Z). apply Z. right. left. apply theta_square. nra. Qed.

(** Otherwise strictly the sign of the centred difference. *)
Theorem plm_sign : 0 < theta -> (yl < y0 < yr -> 0 < g) /\ (yr < y0 < yl -> g < 0).
Proof.
  intros Ht. destruct plm_is_minmod as (P & N & _). split; intros H.
  - rewrite P by nra. apply Rmin_glb_lt; [apply Rmin_glb_lt|]; nra.
  - rewrite N by nra. apply Rmax_lub_lt; [apply Rmax_lub_lt|]; nra.
Qed.

Theorem plm_bounded :
  Rabs g <= Rabs (theta * (y0 - yl)) /\ Rabs g <= Rabs (theta * (yr - y0)) /\ Rabs g <= Rabs ((yr - yl) / 2).
Proof.
  destruct plm_is_minmod as (P & N & Z).
  set (a := theta * (y0 - yl)) in *. set (c := theta * (yr - y0)) in *. set (b := (yr - yl) / 2) in *. clearbody a b c g.
  pose proof (Rabs_pos a). pose proof (Rabs_pos b). pose proof (Rabs_pos c).
  signs a b c; try (rewrite Z by (first [left; nra | right; left; nra | right; right; nra]); rewrite Rabs_R0; lra).
  - rewrite (N Ha Hb Hc). pose proof (Rmax_l (Rmax a b) c). pose proof (Rmax_r (Rmax a b) c). pose proof (Rmax_l a b). pose proof (Rmax_r a b).
    assert (Rmax (Rmax a b) c < 0) by (apply Rmax_lub_lt; [apply Rmax_lub_lt|]; assumption).
    rewrite !Rabs_left by assumption. lra.
  - rewrite (P Ha Hb Hc). pose proof (Rmin_l (Rmin a b) c). pose proof (Rmin_r (Rmin a b) c). pose proof (Rmin_l a b). pose proof (Rmin_r a b).
    assert (0 < Rmin (Rmin a b) c) by (apply Rmin_glb_lt; [apply Rmin_glb_lt|]; assumption).
    rewrite !Rabs_pos_eq by lra. lra.
Qed.

(** Both face values lie between the cell average and the neighbour's, for theta in [0, 2]
    (and trivially for negative theta, where the slope is zero). *)
Theorem plm_face_values : theta <= 2 ->
  Rmin y0 yr <= y0 + g / 2 <= Rmax y0 yr /\ Rmin yl y0 <= y0 - g / 2 <= Rmax yl y0.
Proof.
  intros Ht. destruct plm_is_minmod as (P & N & Z). destruct plm_bounded as (B1 & B2 & _).
  assert (E : g = 0 \/ (0 < theta /\ yl < y0 < yr /\ 0 <= g) \/ (0 < theta /\ yr < y0 < yl /\ g <= 0)).
  { destruct (Rle_dec theta 0) as [T|T].
    - left. destruct (Rle_dec ((y0 - yl) * (yr - y0)) 0). { apply Z. right; left. apply theta_square. assumption. }
      assert (0 < (y0 - yl) * (yr - y0)) by lra. assert (W : 0 < (y0 - yl) * (yr - yl)) by (pose proof (Rle_0_sqr (y0 - yl)); unfold Rsqr in *; lra). apply Z. left.
      revert W. generalize (y0 - yl) as p, (yr - yl) as q. intros p q W. replace (theta * p * (q / 2)) with (theta * ((p * q) / 2)) by lra. nra.
    - assert (0 < theta) by lra. destruct (Rle_dec ((y0 - yl) * (yr - y0)) 0). { left. apply Z. right; left. apply theta_square. assumption. }
      assert (0 < (y0 - yl) * (yr - y0)) by lra. destruct (Rlt_dec yl y0).
      + right; left. assert (y0 < yr) by (apply Rnot_le_lt; intros Q; nra). destruct plm_sign as [S _]; [assumption|]. specialize (S ltac:(lra)). lra.
      + right; right. assert (y0 <> yl) by (intros Q; rewrite Q in *; lra). assert (y0 < yl) by lra. assert (yr < y0) by (apply Rnot_le_lt; intros Q; nra). destruct plm_sign as [_ S]; [assumption|]. specialize (S ltac:(lra)). lra. }
  unfold Rmin, Rmax. clearbody g. destruct E as [E|[(T & E & G)|(T & E & G)]].
  - rewrite E. repeat destruct Rle_dec; lra.
  - rewrite (Rabs_pos_eq g) in B1, B2 by assumption. rewrite Rabs_pos_eq in B1, B2 by nra. repeat destruct Rle_dec; nra.
  - rewrite (Rabs_left1 g) in B1, B2 by assumption. rewrite Rabs_left1 in B1, B2 by nra. repeat destruct Rle_dec; nra.
Qed.

(** Exact on linear data. *)
Theorem plm_exact_on_linear_data d : 1 <= theta -> yl = y0 - d -> yr = y0 + d -> g = d.
Proof.
  intros Ht El Er. destruct plm_is_minmod as (P & N & Z).
  replace (y0 - yl) with d in * by lra. replace (yr - y0) with d in * by lra. replace ((yr - yl) / 2) with d in * by lra.
  destruct (total_order_T d 0) as [[H|H]|H].
  - rewrite N by nra. rewrite Rmax_left; [rewrite Rmax_right; [lra|nra]|]. rewrite Rmax_right by nra. nra.
  - subst d. apply Z. left. lra.
  - rewrite P by nra. rewrite Rmin_left; [rewrite Rmin_right; [lra|nra]|]. rewrite Rmin_right by nra. nra.
Qed.
End Limiter.

(** The result does not depend on the sign bits of zeros. *)
Lemma minmod_unique a b c g h : minmod a b c g -> minmod a b c h -> g = h.
Proof.
  intros (P & N & Z) (P' & N' & Z').
  signs a b c; try (rewrite P, P' by assumption; reflexivity); try (rewrite N, N' by assumption; reflexivity);
  rewrite Z, Z' by (first [left; nra | right; left; nra | right; right; nra]); reflexivity.
Qed.
Lemma minmod_sym a b c g : minmod a b c g -> minmod c b a g.
Proof.
  intros (P & N & Z). split; [|split]; intros.
  - rewrite P by assumption. rewrite Rmin_comm, <- Rmin_assoc, (Rmin_comm a b), Rmin_assoc, (Rmin_comm c b), (Rmin_comm b c). reflexivity.
  - rewrite N by assumption. unfold Rmax. repeat destruct Rle_dec; lra.
  - apply Z. destruct H as [H|[H|H]]; [right; right|right; left|left]; lra.
Qed.
Lemma minmod_neg a b c g : minmod a b c g -> minmod (- a) (- b) (- c) (- g).
Proof.
  intros (P & N & Z). split; [|split]; intros.
  - rewrite N by lra. unfold Rmax, Rmin. repeat destruct Rle_dec; lra.
  - rewrite P by lra. unfold Rmax, Rmin. repeat destruct Rle_dec; lra.
  - rewrite Z; [lra|]. destruct H as [H|[H|H]]; [left|right;left|right;right]; lra.
Qed.

Theorem plm_negation za zb zc za' zb' zc' yl y0 yr theta :
  plm_gradient za zb zc (- yl) (- y0) (- yr) theta = - plm_gradient za' zb' zc' yl y0 yr theta.
Proof.
  pose proof (minmod_neg _ _ _ _ (plm_is_minmod za' zb' zc' yl y0 yr theta)) as H. eapply minmod_unique; [apply plm_is_minmod|].
  replace (theta * (- y0 - - yl)) with (- (theta * (y0 - yl))) by lra. replace (theta * (- yr - - y0)) with (- (theta * (yr - y0))) by lra.
  replace ((- yr - - yl) / 2) with (- ((yr - yl) / 2)) by lra. exact H.
Qed.
Theorem plm_reversal za zb zc za' zb' zc' yl y0 yr theta :
  plm_gradient za zb zc yr y0 yl theta = - plm_gradient za' zb' zc' yl y0 yr theta.
Proof.
  pose proof (minmod_neg _ _ _ _ (minmod_sym _ _ _ _ (plm_is_minmod za' zb' zc' yl y0 yr theta))) as H. eapply minmod_unique; [apply plm_is_minmod|].
  replace (theta * (y0 - yr)) with (- (theta * (yr - y0))) by lra. replace (theta * (yl - y0)) with (- (theta * (y0 - yl))) by lra.
  replace ((yl - yr) / 2) with (- ((yr - yl) / 2)) by lra. exact H.
Qed.
Theorem plm_shift za zb zc za' zb' zc' yl y0 yr theta k :
  plm_gradient za zb zc (yl + k) (y0 + k) (yr + k) theta = plm_gradient za' zb' zc' yl y0 yr theta.
Proof.
  pose proof (plm_is_minmod za' zb' zc' yl y0 yr theta) as H. eapply minmod_unique; [apply plm_is_minmod|].
  replace (y0 + k - (yl + k)) with (y0 - yl) by lra. replace (yr + k - (y0 + k)) with (yr - y0) by lra.
  replace (yr + k - (yl + k)) with (yr - yl) by lra. exact H.
Qed.

(** The versions for sequences and tuples limit each component by itself. *)
Theorem plm_componentwise za zb zc yl y0 yr theta k :
  length yl = length y0 -> length yr = length y0 ->
  length (plm_gradients za zb zc yl y0 yr theta) = length y0 /\
  ((k < length y0)%nat ->
   nth k (plm_gradients za zb zc yl y0 yr theta) 0 = plm_gradient za zb zc (nth k yl 0) (nth k y0 0) (nth k yr 0) theta).
Proof.
  unfold plm_gradients. revert yl yr k; induction y0 as [|y y0 IH]; intros [|x yl] [|z yr] k H1 H2; simpl in *; try discriminate.
  - split; [reflexivity|intros H; inversion H].
  - injection H1 as H1. injection H2 as H2. destruct k as [|k].
    + split; [f_equal; apply (IH yl yr 0%nat H1 H2)|reflexivity].
    + destruct (IH yl yr k H1 H2) as [E1 E2]. split; [f_equal; assumption|]. intros Hk. apply E2. apply PeanoNat.Nat.succ_lt_mono. assumption.
Qed.

Example plm_example za zb zc :
  plm_gradient za zb zc 0 1 4 1.5 = 1.5 /\ plm_gradient za zb zc 4 1 0 1 = -1 /\ plm_gradient za zb zc 0 1 1 2 = 0.
Proof.
  split; [|split].
  - destruct (plm_is_minmod za zb zc 0 1 4 1.5) as (P & _). rewrite P by lra. unfold Rmin; repeat destruct Rle_dec; lra.
  - destruct (plm_is_minmod za zb zc 4 1 0 1) as (_ & N & _). rewrite N by lra. unfold Rmax; repeat destruct Rle_dec; lra.
  - apply plm_zero_at_extrema. lra.
Qed.

Print Assumptions plm_is_minmod.
Print Assumptions plm_zero_at_extrema.
Print Assumptions plm_sign.
Print Assumptions plm_bounded.
Print Assumptions plm_face_values.
Print Assumptions plm_exact_on_linear_data.
Print Assumptions plm_negation.
Print Assumptions plm_reversal.
Print Assumptions plm_shift.
Print Assumptions plm_componentwise.
