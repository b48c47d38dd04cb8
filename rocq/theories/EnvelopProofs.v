(** Proofs on the expanding envelop of the cloud program. *)
From Coq Require Import Reals Lra Lia.
From Coquelicot Require Import Coquelicot.
From Verif Require Import Base AtmosphereModel AtmosphereProofs.
Open Scope R_scope.

(** *** The secant loop on increasing concave functions, from below *)
Section Secant.
Context (f : R -> outcome R) (g : R -> R) (lo root tol S : R).
Hypothesis (HF : forall x, lo <= x <= root -> f x = Ok (g x)).
Hypothesis (HI : forall x y, lo <= x -> x < y -> y <= root -> g x < g y).
Hypothesis (HC : forall x y z, lo <= x -> x < y -> y < z -> z <= root -> (g z - g y) / (z - y) <= (g y - g x) / (y - x)).
Hypothesis (HR : g root = 0) (HT : 0 < tol) (HS : 0 < S).
Lemma secant_ends n : forall a b, lo <= a -> a < b -> b <= root -> (g b - g a) / (b - a) <= S -> root - b <= INR n * (tol / S) ->
  exists m, secant_loop n f a (g a) b (g b) tol = Ok m /\ b <= m <= root /\ Rabs (g m) <= tol.
Proof.
  induction n as [|n IH]; intros a b La Hab Hb HL HN.
  - assert (b = root) as -> by (cbn in HN; lra). exists root. cbn [secant_loop]. rewrite HR, Rabs_R0. destruct (Rlt_dec tol 0) as [X|_]; [lra|]. repeat split; lra.
  - cbn [secant_loop]. destruct (Rlt_dec tol (Rabs (g b))) as [L|L].
    2:{ exists b. repeat split; lra. }
    assert (B : b < root). { destruct (Rle_lt_or_eq_dec _ _ Hb) as [X|X]; [exact X|]. rewrite X, HR, Rabs_R0 in L. lra. }
    pose proof (HI b root ltac:(lra) B ltac:(lra)) as NB. rewrite HR in NB. rewrite Rabs_left in L by lra. pose proof (HI a b La Hab ltac:(lra)) as AB.
    destruct (Req_EM_T (g b) (g a)) as [X|_]; [lra|].
    set (s := (g b - g a) / (b - a)) in *. assert (Ps : 0 < s) by (apply Rdiv_lt_0_compat; lra).
    set (c := b - g b * (b - a) / (g b - g a)). assert (Ec : c = b + - g b / s) by (unfold c, s; field; lra).
    assert (C1 : tol / S < - g b / s).
    { apply Rlt_le_trans with (- g b / S); [unfold Rdiv; apply Rmult_lt_compat_r; [apply Rinv_0_lt_compat; exact HS|lra]|]. unfold Rdiv. apply Rmult_le_compat_l; [lra|]. apply Rinv_le_contravar; assumption. }
    assert (Pt : 0 < tol / S) by (apply Rdiv_lt_0_compat; assumption).
    assert (C2 : c <= root).
    { pose proof (HC a b root La Hab B ltac:(lra)) as K. fold s in K. rewrite HR in K.
      assert (- g b / s <= root - b); [|lra]. apply Rmult_le_reg_r with s; [exact Ps|]. unfold Rdiv at 1. rewrite Rmult_assoc, Rinv_l, Rmult_1_r by lra.
      apply Rmult_le_reg_r with (/ (root - b)); [apply Rinv_0_lt_compat; lra|]. replace ((root - b) * s * / (root - b)) with s by (field; lra). unfold Rdiv in K. replace (- g b * / (root - b)) with ((0 - g b) * / (root - b)) by ring. exact K. }
    rewrite (HF c) by lra. cbn [bind].
    destruct (IH b c) as (m & E & Hm & Hg); [lra|lra|exact C2| | |exists m; split; [exact E|]; split; [lra|exact Hg]].
    + apply Rle_trans with s; [|exact HL]. apply HC; lra.
    + rewrite S_INR in HN. lra.
Qed.
End Secant.

(** Any answer of the loop is within the tolerance. *)
Lemma secant_loop_within n : forall f a ya b yb tol m, f b = Ok yb -> secant_loop n f a ya b yb tol = Ok m -> exists y, f m = Ok y /\ Rabs y <= tol.
Proof.
  induction n as [|n IH]; intros f a ya b yb tol m Hb; cbn [secant_loop]; destruct (Rlt_dec tol (Rabs yb)) as [L|L]; intros E; try discriminate.
  - injection E as <-. exists yb. split; [exact Hb|lra].
  - destruct (Req_EM_T yb ya); [discriminate|]. destruct (f (b - yb * (b - a) / (yb - ya))) as [y| | |] eqn:F; cbn [bind] in E; try discriminate. exact (IH _ _ _ _ _ _ _ F E).
  - injection E as <-. exists yb. split; [exact Hb|lra].
Qed.
Lemma secant_loop_fuel n : forall f a ya b yb tol m k, secant_loop n f a ya b yb tol = Ok m -> (n <= k)%nat -> secant_loop k f a ya b yb tol = Ok m.
Proof.
  induction n as [|n IH]; intros f a ya b yb tol m k E Hk.
  - destruct k; cbn [secant_loop] in *; destruct (Rlt_dec tol (Rabs yb)); try discriminate; exact E.
  - destruct k as [|k]; [lia|]. cbn [secant_loop] in *. destruct (Rlt_dec tol (Rabs yb)); [|exact E]. destruct (Req_EM_T yb ya); [discriminate|].
    destruct (f (b - yb * (b - a) / (yb - ya))) as [y| | |]; cbn [bind] in *; try discriminate. apply IH; [exact E|lia].
Qed.

(** *** The secant loop where slopes differ by less than a factor of two *)
Section Contract.
Context (f : R -> outcome R) (g : R -> R) (lo hi root tol gmin gmax : R).
Hypothesis (HF : forall x, lo <= x <= hi -> f x = Ok (g x)).
Hypothesis (HG : forall x y, lo <= x <= hi -> lo <= y <= hi -> x <> y -> gmin <= (g y - g x) / (y - x) <= gmax).
Hypothesis (HR : g root = 0) (H1 : lo < root < hi) (HT : 0 < tol) (H0 : 0 < gmin) (H2 : gmax < 2 * gmin).
Let q := gmax / gmin - 1.
Lemma gmin_gmax : gmin <= gmax.
Proof. pose proof (HG lo hi ltac:(lra) ltac:(lra) ltac:(lra)). lra. Qed.
Lemma q_range : 0 <= q < 1.
Proof. pose proof gmin_gmax. unfold q. split; [apply Rle_minus_r; rewrite Rplus_0_l; apply Rle_div_r; lra|]. apply Rlt_minus_l. apply Rlt_div_l; lra. Qed.
Lemma ratio_bound x y : gmin <= x <= gmax -> gmin <= y <= gmax -> Rabs (1 - x / y) <= q.
Proof.
  intros Hx Hy. assert (U : x / y <= gmax / gmin) by (apply Rle_div_l; [lra|]; unfold Rdiv; rewrite Rmult_assoc, (Rmult_comm (/ gmin)), <- Rmult_assoc; apply Rle_div_r; [lra|]; nra).
  assert (L : 2 - gmax / gmin <= x / y).
  { apply Rle_div_r; [lra|]. assert (E : (2 - gmax / gmin) * y = (2 * gmin - gmax) * y / gmin) by (field; lra). rewrite E. apply Rle_div_l; [lra|]. nra. }
  unfold q. apply Rabs_le. lra.
Qed.
(** One step: the new error is the old one times at most q, seen from either of the two points. *)
Lemma step_error a b : lo <= a <= hi -> lo <= b <= hi -> a <> b -> b <> root ->
  let c := b - g b * (b - a) / (g b - g a) in g b <> g a /\ Rabs (c - root) <= q * Rabs (b - root) /\ (a <> root -> Rabs (c - root) <= q * Rabs (a - root)) /\ c <> b.
Proof.
  intros Ha Hb Hab Hbr c. pose proof (HG a b Ha Hb Hab) as S1. pose proof (HG root b ltac:(lra) Hb ltac:(lra)) as S2. rewrite HR, Rminus_0_r in S2.
  set (s1 := (g b - g a) / (b - a)) in *. set (s2 := g b / (b - root)) in *.
  assert (NE : g b - g a <> 0). { intros X. assert (s1 = 0) by (unfold s1; rewrite X; field; lra). lra. }
  assert (E1 : c - root = (b - root) * (1 - s2 / s1)) by (unfold c, s1, s2; field; repeat split; lra).
  assert (GB : g b <> 0). { intros X. assert (s2 = 0) by (unfold s2; rewrite X; field; lra). lra. }
  split; [lra|]. split; [|split].
  - rewrite E1, Rabs_mult, Rmult_comm. apply Rmult_le_compat_r; [apply Rabs_pos|]. apply ratio_bound; assumption.
  - intros Har. pose proof (HG root a ltac:(lra) Ha ltac:(lra)) as S3. rewrite HR, Rminus_0_r in S3. set (s3 := g a / (a - root)) in *.
    assert (E2 : c - root = (a - root) * (1 - s3 / s1)) by (unfold c, s1, s3; field; repeat split; lra).
    rewrite E2, Rabs_mult, Rmult_comm. apply Rmult_le_compat_r; [apply Rabs_pos|]. apply ratio_bound; assumption.
  - intros X. assert (Y : g b * (b - a) / (g b - g a) = 0) by (unfold c in X; lra). apply Rmult_integral in Y. destruct Y as [Y|Y]; [apply Rmult_integral in Y; destruct Y; lra|]. apply Rinv_neq_0_compat in NE. lra.
Qed.
Let delta := Rmin (root - lo) (hi - root).
Lemma near x : Rabs (x - root) <= delta -> lo <= x <= hi.
Proof. intros H. pose proof (Rmin_l (root - lo) (hi - root)). pose proof (Rmin_r (root - lo) (hi - root)). unfold delta in H. apply Rabs_le_between in H. lra. Qed.
Lemma small b : lo <= b <= hi -> Rabs (g b) <= gmax * Rabs (b - root).
Proof.
  intros Hb. destruct (Req_EM_T b root) as [->|N]; [rewrite HR, Rminus_eq_0, !Rabs_R0; lra|]. pose proof (HG root b ltac:(lra) Hb ltac:(lra)) as S. rewrite HR, Rminus_0_r in S.
  replace (g b) with (g b / (b - root) * (b - root)) by (field; lra). rewrite Rabs_mult. apply Rmult_le_compat_r; [apply Rabs_pos|]. rewrite Rabs_right; lra.
Qed.
Lemma secant_contracts n : forall a b, lo <= a <= hi -> a <> b -> Rabs (b - root) <= delta -> gmax * (q ^ n * Rabs (b - root)) <= tol ->
  exists m, secant_loop n f a (g a) b (g b) tol = Ok m /\ lo <= m <= hi /\ Rabs (g m) <= tol.
Proof.
  pose proof gmin_gmax as GG. pose proof q_range as Q. induction n as [|n IH]; intros a b Ha Hab Hb HN; pose proof (near b Hb) as Db; pose proof (small b Db) as Sb; cbn [secant_loop].
  - destruct (Rlt_dec tol (Rabs (g b))) as [L|L]; [cbn in HN; lra|]. exists b. repeat split; lra.
  - destruct (Rlt_dec tol (Rabs (g b))) as [L|L]; [|exists b; repeat split; lra].
    assert (Nb : b <> root) by (intros ->; rewrite HR, Rabs_R0 in L; lra).
    destruct (step_error a b Ha Db Hab Nb) as (N1 & E & _ & N2). destruct (Req_EM_T (g b) (g a)) as [X|_]; [contradiction|]. set (c := b - g b * (b - a) / (g b - g a)) in *.
    assert (Hc : Rabs (c - root) <= delta) by (pose proof (Rabs_pos (b - root)); nra).
    rewrite (HF c (near c Hc)). cbn [bind]. destruct (IH b c) as (m & Em & Hm & Hg); [exact Db|lra|exact Hc| |exists m; auto].
    apply Rle_trans with (gmax * (q ^ n * (q * Rabs (b - root)))); [|cbn [pow] in HN; lra]. apply Rmult_le_compat_l; [lra|]. apply Rmult_le_compat_l; [apply pow_le; lra|exact E].
Qed.
(** From the two ends of the interval. *)
Lemma secant_from_ends : exists n, exists m, secant_loop n f lo (g lo) hi (g hi) tol = Ok m /\ lo <= m <= hi /\ Rabs (g m) <= tol.
Proof.
  pose proof gmin_gmax as GG. pose proof q_range as Q. destruct (Rlt_dec tol (Rabs (g hi))) as [L|L].
  2:{ exists 0%nat, hi. cbn [secant_loop]. destruct (Rlt_dec tol (Rabs (g hi))); [lra|]. repeat split; lra. }
  destruct (step_error lo hi ltac:(lra) ltac:(lra) ltac:(lra) ltac:(lra)) as (N1 & E1 & E2 & N2). specialize (E2 ltac:(lra)). set (c := hi - g hi * (hi - lo) / (g hi - g lo)) in *.
  rewrite (Rabs_right (hi - root)) in E1 by lra. rewrite (Rabs_left (lo - root)) in E2 by lra.
  assert (Hc : Rabs (c - root) <= delta) by (apply Rmin_glb; nra).
  destruct (pow_lt_1_zero q ltac:(rewrite Rabs_right; lra) (tol / (gmax * (Rabs (c - root) + 1)))) as [n Hn].
  { pose proof (Rabs_pos (c - root)). apply Rdiv_lt_0_compat; [exact HT|]. apply Rmult_lt_0_compat; lra. }
  specialize (Hn n (le_n n)). rewrite Rabs_right in Hn by (apply Rle_ge, pow_le; lra).
  destruct (secant_contracts n hi c ltac:(lra) ltac:(lra) Hc) as (m & E & Hm & Hg).
  { pose proof (Rabs_pos (c - root)) as P. assert (0 <= q ^ n) by (apply pow_le; lra). apply Rlt_div_r in Hn; [|apply Rlt_gt, Rmult_lt_0_compat; lra]. assert (0 <= q ^ n * gmax) by nra. nra. }
  exists (S n), m. split; [|auto]. cbn [secant_loop]. destruct (Rlt_dec tol (Rabs (g hi))) as [_|X]; [|lra]. destruct (Req_EM_T (g hi) (g lo)) as [X|_]; [contradiction|]. fold c. rewrite (HF c (near c Hc)). exact E.
Qed.
End Contract.

(** *** The envelop *)
Section Envelop.
Context (e : envelop).
Hypothesis (HU : 0 < u1 e) (HM : 0 < m1 e) (HP : 0 < psi e).
Notation u := (gamma_beta e).
Lemma u_pos m : 0 < u m.
Proof. apply Rmult_lt_0_compat; [exact HU|apply cpow_pos]. Qed.
Lemma root_pos x : 0 < 1 + x * x.
Proof. nra. Qed.
Lemma sqrt_pos_lt x : 0 < sqrt (1 + x * x).
Proof. apply sqrt_lt_R0, root_pos. Qed.
Lemma light_pos : 0 < light_speed.
Proof. unfold light_speed. lra. Qed.
Lemma velocity_pos m : 0 < velocity e m.
Proof. unfold velocity. pose proof light_pos. pose proof (u_pos m). pose proof (sqrt_pos_lt (u m)). apply Rmult_lt_0_compat; [apply Rdiv_lt_0_compat|]; assumption. Qed.
Lemma u_derive m : 0 < m -> is_derive u m (dudm e m).
Proof.
  intros Hm. unfold dudm, gamma_beta, cpow, Rpower. auto_derive; [apply Rdiv_lt_0_compat; assumption|]. unfold Rdiv. generalize (exp (- psi e * ln (m * / m1 e))). intros x. field. split; lra.
Qed.
(** Derivative of the velocity by the mass coordinate. *)
Lemma velocity_derive m : 0 < m -> is_derive (velocity e) m (dudm e m / (sqrt (1 + u m * u m) * (1 + u m * u m)) * light_speed).
Proof.
  intros Hm. pose proof (root_pos (u m)) as P. pose proof (sqrt_pos_lt (u m)) as Q.
  set (h x := x / sqrt (1 + x * x) * light_speed).
  assert (D : is_derive h (u m) (1 / (sqrt (1 + u m * u m) * (1 + u m * u m)) * light_speed)).
  { unfold h. auto_derive; [split; [exact P|split; [lra|exact I]]|]. set (w := sqrt (1 + u m * u m)) in *. assert (W : w * w = 1 + u m * u m) by (unfold w; apply sqrt_sqrt; lra). rewrite <- W. field_simplify_eq; [|lra]. replace (u m ^ 2) with (w * w - 1) by (rewrite W; ring). ring. }
  pose proof (is_derive_comp h u m _ _ D (u_derive m Hm)) as C. replace (dudm e m / (sqrt (1 + u m * u m) * (1 + u m * u m)) * light_speed) with (scal (dudm e m) (1 / (sqrt (1 + u m * u m) * (1 + u m * u m)) * light_speed)); [exact C|].
  unfold scal. cbn. unfold mult. cbn. field. split; lra.
Qed.
(** The function mass_coordinate solves for, and its derivative. *)
Definition lr (r t m : R) : R := log10 r - log10 (radius e m t).
Lemma ln10 : 0 < ln 10.
Proof. rewrite <- ln_1. apply ln_increasing; lra. Qed.
Definition lr' (m : R) : R := psi e / (m * (1 + u m * u m)) / ln 10.
Lemma lr_derive r t m : 0 < t -> 0 < m -> is_derive (lr r t) m (lr' m).
Proof.
  intros Ht Hm. pose proof (velocity_pos m) as V. pose proof (velocity_derive m Hm) as D. pose proof ln10 as L. pose proof (root_pos (u m)) as P. pose proof (sqrt_pos_lt (u m)) as Q. pose proof (u_pos m) as U. pose proof light_pos as LP.
  assert (D2 : is_derive (fun v => log10 r - ln (v * t) / ln 10) (velocity e m) (- / (velocity e m) / ln 10)).
  { auto_derive; [apply Rmult_lt_0_compat; assumption|]. field. repeat split; lra. }
  pose proof (is_derive_comp _ (velocity e) m _ _ D2 D) as C. unfold lr, log10, radius. replace (lr' m) with (scal (dudm e m / (sqrt (1 + u m * u m) * (1 + u m * u m)) * light_speed) (- / velocity e m / ln 10)); [exact C|].
  unfold scal. cbn. unfold mult. cbn. unfold lr', velocity, dudm. field. repeat split; lra.
Qed.
Lemma lr'_pos m : 0 < m -> 0 < lr' m.
Proof. intros Hm. pose proof ln10. pose proof (root_pos (u m)). unfold lr'. apply Rdiv_lt_0_compat; [|assumption]. apply Rdiv_lt_0_compat; [exact HP|]. apply Rmult_lt_0_compat; assumption. Qed.
Hypothesis (HP2 : psi e <= / 2).
Lemma lr'_decreasing x y : 0 < x -> x <= y -> lr' y <= lr' x.
Proof.
  intros Hx Hxy. pose proof ln10 as L. unfold lr'. unfold Rdiv at 1 3. apply Rmult_le_compat_r; [left; apply Rinv_0_lt_compat; exact L|]. unfold Rdiv. apply Rmult_le_compat_l; [lra|].
  apply Rinv_le_contravar; [apply Rmult_lt_0_compat; [exact Hx|apply root_pos]|].
  assert (E : forall m, 0 < m -> m * (1 + u m * u m) = m + u1 e * u1 e * m1 e * exp ((1 - 2 * psi e) * ln (m / m1 e))).
  { intros m Hm. unfold gamma_beta, cpow, Rpower. replace ((1 - 2 * psi e) * ln (m / m1 e)) with (ln (m / m1 e) + (- psi e * ln (m / m1 e) + - psi e * ln (m / m1 e))) by ring. rewrite !exp_plus, exp_ln by (apply Rdiv_lt_0_compat; assumption). field. lra. }
  rewrite !E by lra. apply Rplus_le_compat; [exact Hxy|]. apply Rmult_le_compat_l; [pose proof (Rmult_lt_0_compat _ _ HU HU); nra|].
  assert (G : (1 - 2 * psi e) * ln (x / m1 e) <= (1 - 2 * psi e) * ln (y / m1 e)).
  { apply Rmult_le_compat_l; [lra|]. rewrite !ln_div by lra. destruct (Rle_lt_or_eq_dec _ _ Hxy) as [X|<-]; [pose proof (ln_increasing x y Hx X); lra|lra]. }
  destruct (Rle_lt_or_eq_dec _ _ G) as [X|X]; [left; apply exp_increasing; exact X|right; f_equal; exact X].
Qed.
Lemma lr_slope r t x y : 0 < t -> 0 < x -> x < y -> exists c, x <= c <= y /\ (lr r t y - lr r t x) / (y - x) = lr' c.
Proof.
  intros Ht Hx Hxy. destruct (MVT_gen (lr r t) x y lr') as (c & Hc & E).
  - intros z Hz. rewrite Rmin_left, Rmax_right in Hz by lra. apply lr_derive; lra.
  - intros z Hz. rewrite Rmin_left, Rmax_right in Hz by lra. apply continuity_pt_filterlim. apply (dcont (lr r t)). eexists. apply lr_derive; lra.
  - rewrite Rmin_left, Rmax_right in Hc by lra. exists c. split; [exact Hc|]. rewrite E. field. lra.
Qed.
Lemma lr_increasing r t x y : 0 < t -> 0 < x -> x < y -> lr r t x < lr r t y.
Proof.
  intros Ht Hx Hxy. destruct (lr_slope r t x y Ht Hx Hxy) as (c & Hc & E). pose proof (lr'_pos c ltac:(lra)) as P. rewrite <- E in P.
  assert (Q : 0 < (lr r t y - lr r t x) / (y - x) * (y - x)) by (apply Rmult_lt_0_compat; lra). replace ((lr r t y - lr r t x) / (y - x) * (y - x)) with (lr r t y - lr r t x) in Q by (field; lra). lra.
Qed.
Lemma lr_concave r t x y z : 0 < t -> 0 < x -> x < y -> y < z -> (lr r t z - lr r t y) / (z - y) <= (lr r t y - lr r t x) / (y - x).
Proof.
  intros Ht Hx Hxy Hyz. destruct (lr_slope r t x y Ht Hx Hxy) as (c & Hc & ->). destruct (lr_slope r t y z Ht ltac:(lra) Hyz) as (c' & Hc' & ->). apply lr'_decreasing; lra.
Qed.
End Envelop.
