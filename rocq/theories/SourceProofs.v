(** Source terms of one block, cell by cell. *)
From Coq Require Import ZArith Reals Lra List Arith Bool Lia.
From Verif Require Import Base TreeModel NdModel NdSpec NdProofs NdProofs2 NdOpsModel NdOpsProofs ProlongProofs FluxSpec MeshProps TwoBodyModel HydroModel SourceModel SolutionSpec.
Import ListNotations.
Open Scope Z_scope.

(** Minus the sum over the block of a density times the area. *)
Definition out (N : Z) (F A : list Z -> R) : R := (- rsum (fun k => F k * A k) (idxs [N; N]))%R.

Lemma arr_sum_reps N (a : array R) F : 1 <= N < 2147483647 -> reps a [N; N] F ->
  arr_sum (Z.to_nat (fold_right Z.mul 1%Z (ashape a))) 0%R Rplus a = Ok (rsum F (idxs [N; N])).
Proof.
  intros HN [S1 S2]. change (fold_right Z.mul 1%Z (ashape a)) with (prodz (ashape a)). assert (HB : N < two64) by (apply Z.lt_trans with 2147483647; [lia|reflexivity]).
  rewrite (arr_sum_total 0%R Rplus Rplus_comm (fun x y z => eq_sym (Rplus_assoc x y z)) Rplus_0_l _ a F); rewrite ?S1.
  - reflexivity.
  - discriminate.
  - repeat constructor; lia.
  - lia.
  - exact S2.
Qed.
Lemma booked_reps N a dA F A : 1 <= N < 2147483647 -> reps a [N; N] F -> reps dA [N; N] A -> booked a dA = Ok (out N F A).
Proof.
  intros HN Ha HA. unfold booked. destruct (binary_reps_gen Rmult a dA _ _ _ Ha HA) as (p & E & Rp). rewrite E. bsimp. rewrite (arr_sum_reps N p _ HN Rp). reflexivity.
Qed.
Lemma zip_apply_reps {A B C} (f : A -> B -> C) a b s X Y : reps a s X -> reps b s Y ->
  exists z, zip_apply f a b = Ok z /\ reps z s (fun k => f (X k) (Y k)).
Proof.
  intros Ha Hb. unfold zip_apply, zip2. destruct (binary_reps_gen pair a b _ _ _ Ha Hb) as (p & E & Rp). rewrite E. bsimp. eexists. split; [reflexivity|].
  apply (map_reps (fun w => f (fst w) (snd w))) in Rp. exact Rp.
Qed.

Ltac rep := solve [repeat first [eassumption | apply map_reps]].
Ltac rstep := match goal with
  | |- context [bind (NdModel.binary_op ?f ?x ?y) _] =>
      let z := fresh "z" in let E := fresh "E" in let H := fresh "Rz" in
      edestruct (binary_reps_gen f x y) as (z & E & H); [rep|rep|]; rewrite E; clear E; bsimp
  | |- context [bind (zip_apply ?f ?x ?y) _] =>
      let z := fresh "z" in let E := fresh "E" in let H := fresh "Rz" in
      edestruct (zip_apply_reps f x y) as (z & E & H); [rep|rep|]; rewrite E; clear E; bsimp
  | |- context [bind (booked ?x ?y) _] => erewrite (booked_reps _ x y); [|eassumption|rep|rep]; bsimp
  end.

(** What is added to one cell, part by part. *)
Definition cell_pull (sd : settings) (b : body) (x : R * R) (u : v3) : R * R := vec_mul (grav_vdot_field sd b x) (d0 u).
Definition cell_sink (sd : settings) (b : body) (x : R * R) (u : v3) (dt : R) : v3 := v3_mul (v3_mul (v3_neg u) (sink_rate_field sd b x)) dt.
Definition cell_buffer (br : R) (u ui : v3) (dt : R) : v3 := v3_mul (v3_mul (v3_sub ui u) br) dt.
Definition lz_of (u : v3) (x : R * R) : R := iso_angular_momentum u (fst x) (snd x).
Definition cell_geom (sd : settings) (b : two_body) (x : R * R) (p : iprim) (dt : R) : v3 :=
  v3_mul (v3_mul (iso_angmom_source p (cs2_at_position sd b x)) (1 - exp (- (fst x * fst x + snd x * snd x) / (gst_suppr_radius sd * gst_suppr_radius sd)))) dt.
Definition lin_of (s : v3) (x : R * R) : R * R := let u := iso_linear_of_angmom s (fst x) (snd x) in (d1 u, d2 u).
Definition cell_u (sd : settings) (b : two_body) (x : R * R) (br : R) (u ui : v3) (dt : R) : v3 :=
  v3_add (v3_add (v3_add (v3_add (v3_add
    (v3_mul (force_to_source_terms_u x (cell_pull sd (body1 b) x u)) dt) (v3_mul (force_to_source_terms_u x (cell_pull sd (body2 b) x u)) dt))
    (cell_sink sd (body1 b) x u dt)) (cell_sink sd (body2 b) x u dt)) (cell_buffer br u ui dt)) (floor_term sd u).
Definition cell_q (sd : settings) (b : two_body) (x : R * R) (br : R) (p : iprim) (q qi : v3) (dt : R) : v3 :=
  v3_add (v3_add (v3_add (v3_add (v3_add
    (v3_mul (force_to_source_terms_q x (cell_pull sd (body1 b) x q)) dt) (v3_mul (force_to_source_terms_q x (cell_pull sd (body2 b) x q)) dt))
    (cell_sink sd (body1 b) x q dt)) (cell_sink sd (body2 b) x q dt)) (cell_buffer br q qi dt)) (cell_geom sd b x p dt).

(** What is booked for a block in the linear momentum scheme. *)
Definition tot_u (N : Z) (sd : settings) (b : two_body) (X : list Z -> R * R) (A B : list Z -> R) (U I : list Z -> v3) (dt : R) : totals :=
  let o1 F := out N F A in
  let s1 k := cell_sink sd (body1 b) (X k) (U k) dt in let s2 k := cell_sink sd (body2 b) (X k) (U k) dt in
  let g1 k := cell_pull sd (body1 b) (X k) (U k) in let g2 k := cell_pull sd (body2 b) (X k) (U k) in
  let f k := cell_buffer (B k) (U k) (I k) dt in
  Totals (o1 (fun k => d0 (s1 k)), o1 (fun k => d0 (s2 k))) (o1 (fun k => lz_of (s1 k) (X k)), o1 (fun k => lz_of (s2 k) (X k)))
    (o1 (fun k => lz_of (v3_mul (force_to_source_terms_u (X k) (g1 k)) dt) (X k)), o1 (fun k => lz_of (v3_mul (force_to_source_terms_u (X k) (g2 k)) dt) (X k)))
    (o1 (fun k => d1 (s1 k)), o1 (fun k => d1 (s2 k))) (o1 (fun k => d2 (s1 k)), o1 (fun k => d2 (s2 k)))
    (o1 (fun k => fst (vec_mul (g1 k) dt)), o1 (fun k => fst (vec_mul (g2 k) dt))) (o1 (fun k => snd (vec_mul (g1 k) dt)), o1 (fun k => snd (vec_mul (g2 k) dt)))
    (work (body1 b) (V3 (o1 (fun k => d0 (s1 k))) (o1 (fun k => d1 (s1 k))) (o1 (fun k => d2 (s1 k)))),
     work (body2 b) (V3 (o1 (fun k => d0 (s2 k))) (o1 (fun k => d1 (s2 k))) (o1 (fun k => d2 (s2 k)))))
    (o1 (fun k => d0 (f k))) (o1 (fun k => lz_of (f k) (X k))).
(** What is booked for a block in the angular momentum scheme. *)
Definition tot_q (N : Z) (sd : settings) (b : two_body) (X : list Z -> R * R) (A B : list Z -> R) (U I : list Z -> v3) (dt : R) : totals :=
  let o1 F := out N F A in
  let s1 k := cell_sink sd (body1 b) (X k) (U k) dt in let s2 k := cell_sink sd (body2 b) (X k) (U k) dt in
  let g1 k := cell_pull sd (body1 b) (X k) (U k) in let g2 k := cell_pull sd (body2 b) (X k) (U k) in
  let f k := cell_buffer (B k) (U k) (I k) dt in
  Totals (o1 (fun k => d0 (s1 k)), o1 (fun k => d0 (s2 k))) (o1 (fun k => d2 (s1 k)), o1 (fun k => d2 (s2 k)))
    (o1 (fun k => d2 (v3_mul (force_to_source_terms_q (X k) (g1 k)) dt)), o1 (fun k => d2 (v3_mul (force_to_source_terms_q (X k) (g2 k)) dt)))
    (o1 (fun k => fst (lin_of (s1 k) (X k))), o1 (fun k => fst (lin_of (s2 k) (X k)))) (o1 (fun k => snd (lin_of (s1 k) (X k))), o1 (fun k => snd (lin_of (s2 k) (X k))))
    (o1 (fun k => fst (vec_mul (g1 k) dt)), o1 (fun k => fst (vec_mul (g2 k) dt))) (o1 (fun k => snd (vec_mul (g1 k) dt)), o1 (fun k => snd (vec_mul (g2 k) dt)))
    two_zero
    (o1 (fun k => d0 (f k))) (o1 (fun k => d2 (f k))).

Section Block.
Variables (N : Z) (sd : settings) (b : two_body) (xc : array (R * R)) (dA br : array R) (X : list Z -> R * R) (A B : list Z -> R) (dt : R).
Hypotheses (HN : 1 <= N < 2147483647) (RX : reps xc [N; N] X) (RA : reps dA [N; N] A) (RB : reps br [N; N] B).

Lemma source_u_block u0 ui U I : reps u0 [N; N] U -> reps ui [N; N] I ->
  exists s, source_terms_u sd b xc dA br u0 ui dt = Ok (s, tot_u N sd b X A B U I dt) /\ reps s [N; N] (fun k => cell_u sd b (X k) (B k) (U k) (I k) dt).
Proof.
  intros RU RI. unfold source_terms_u, gravity, sink, buffer, booked2, booked_v3. repeat rstep. eexists. split; [reflexivity|]. assumption.
Qed.
Lemma source_q_block p0 q0 qi P U I : reps p0 [N; N] P -> reps q0 [N; N] U -> reps qi [N; N] I ->
  exists s, source_terms_q sd b xc dA br p0 q0 qi dt = Ok (s, tot_q N sd b X A B U I dt) /\ reps s [N; N] (fun k => cell_q sd b (X k) (B k) (P k) (U k) (I k) dt).
Proof.
  intros RP RU RI. unfold source_terms_q, gravity, sink, buffer, booked2. repeat rstep. eexists. split; [reflexivity|]. assumption.
Qed.
End Block.

(** ** Budgets of a block *)
Section Budget.
Variables (N : Z) (sd : settings) (b : two_body) (X : list Z -> R * R) (A B : list Z -> R) (P : list Z -> iprim) (U I : list Z -> v3) (dt : R).
Let tu := tot_u N sd b X A B U I dt.
Let tq := tot_q N sd b X A B U I dt.
Let su k := cell_u sd b (X k) (B k) (U k) (I k) dt.
Let sq k := cell_q sd b (X k) (B k) (P k) (U k) (I k) dt.
Let amount (F : list Z -> R) : R := rsum (fun k => F k * A k)%R (idxs [N; N]).

Ltac lin := unfold amount, both, su, sq, tu, tq, tot_u, tot_q, out;
  cbn [mass_accreted_on angular_momentum_accreted_on integrated_torque_on momentum_x_accreted_on momentum_y_accreted_on integrated_force_x_on integrated_force_y_on mass_ejected angular_momentum_ejected fst snd];
  generalize (idxs [N; N]); intros l; induction l as [|k l IH]; cbn [rsum]; [lra|];
  match type of IH with ?a = ?b => match goal with |- (?x + ?y = _)%R => change y with a; rewrite IH end end;
  unfold cell_u, cell_q, cell_sink, cell_pull, cell_buffer, cell_geom, lz_of, force_to_source_terms_u, force_to_source_terms_q, iso_angular_momentum, iso_angmom_source, vec_mul, v3_add, v3_sub, v3_mul, v3_neg;
  cbn [d0 d1 d2 fst snd].

Lemma budget_mass_u : amount (fun k => d0 (su k)) = (- (both (mass_accreted_on tu) + mass_ejected tu) + amount (fun k => d0 (floor_term sd (U k))))%R.
Proof. lin. ring. Qed.
Lemma budget_mass_q : amount (fun k => d0 (sq k)) = (- (both (mass_accreted_on tq) + mass_ejected tq))%R.
Proof. lin. ring. Qed.
Lemma budget_lz_u : amount (fun k => lz_of (su k) (X k)) = (- (both (angular_momentum_accreted_on tu) + both (integrated_torque_on tu) + angular_momentum_ejected tu) + amount (fun k => lz_of (floor_term sd (U k)) (X k)))%R.
Proof. lin. ring. Qed.
Lemma budget_lz_q : amount (fun k => d2 (sq k)) = (- (both (angular_momentum_accreted_on tq) + both (integrated_torque_on tq) + angular_momentum_ejected tq))%R.
Proof. lin. ring. Qed.
Lemma budget_px_u : amount (fun k => d1 (su k)) = (- (both (momentum_x_accreted_on tu) + both (integrated_force_x_on tu)) + amount (fun k => d1 (cell_buffer (B k) (U k) (I k) dt)) + amount (fun k => d1 (floor_term sd (U k))))%R.
Proof. lin. ring. Qed.
Lemma budget_py_u : amount (fun k => d2 (su k)) = (- (both (momentum_y_accreted_on tu) + both (integrated_force_y_on tu)) + amount (fun k => d2 (cell_buffer (B k) (U k) (I k) dt)) + amount (fun k => d2 (floor_term sd (U k))))%R.
Proof. lin. ring. Qed.

(** Gravity pulls towards the body, so its torque is that of the whole force acting at the body. *)
Lemma torque_u : integrated_torque_on tu =
  (px (body1 b) * fst (integrated_force_y_on tu) - py (body1 b) * fst (integrated_force_x_on tu),
   px (body2 b) * snd (integrated_force_y_on tu) - py (body2 b) * snd (integrated_force_x_on tu))%R.
Proof.
  unfold tu, tot_u. cbn [integrated_torque_on integrated_force_x_on integrated_force_y_on fst snd]. unfold out. apply (f_equal2 pair);
  (generalize (idxs [N; N]); intros l; induction l as [|k l IH]; cbn [rsum]; [lra|]; rewrite Ropp_plus_distr, IH;
   unfold cell_pull, grav_vdot_field, lz_of, force_to_source_terms_u, iso_angular_momentum, vec_mul, v3_mul, Rdiv; cbn [d0 d1 d2 fst snd]; ring).
Qed.
Lemma torque_q : integrated_torque_on tq =
  (px (body1 b) * fst (integrated_force_y_on tq) - py (body1 b) * fst (integrated_force_x_on tq),
   px (body2 b) * snd (integrated_force_y_on tq) - py (body2 b) * snd (integrated_force_x_on tq))%R.
Proof.
  unfold tq, tot_q. cbn [integrated_torque_on integrated_force_x_on integrated_force_y_on fst snd]. unfold out. apply (f_equal2 pair);
  (generalize (idxs [N; N]); intros l; induction l as [|k l IH]; cbn [rsum]; [lra|]; rewrite Ropp_plus_distr, IH;
   unfold cell_pull, grav_vdot_field, force_to_source_terms_q, vec_mul, v3_mul, Rdiv; cbn [d0 d1 d2 fst snd]; ring).
Qed.

Hypotheses (HA : forall k, inb [N; N] k -> (0 < A k)%R) (HU : forall k, inb [N; N] k -> (0 <= d0 (U k))%R) (HR : (0 <= sink_rate sd)%R) (HT : (0 <= dt)%R).
Lemma out_nonneg b' : (0 <= out N (fun k => d0 (cell_sink sd b' (X k) (U k) dt)) A)%R.
Proof.
  unfold out. assert (Q : forall l, incl l (idxs [N; N]) -> (rsum (fun k => d0 (cell_sink sd b' (X k) (U k) dt) * A k) l <= 0)%R).
  { induction l as [|k l IH]; intros Hl; cbn [rsum]; [lra|]. specialize (IH (fun x Hx => Hl x (or_intror Hx))).
    assert (Hk : inb [N; N] k) by (apply idxs_In, Hl; left; reflexivity). specialize (HA k Hk). specialize (HU k Hk).
    assert (d0 (cell_sink sd b' (X k) (U k) dt) * A k <= 0)%R; [|lra].
    unfold cell_sink, v3_mul, v3_neg, sink_rate_field. cbn [d0]. match goal with |- context [exp ?e] => pose proof (exp_pos e) as HE; set (x := exp e) in * end.
    assert (0 <= d0 (U k) * (sink_rate sd * x) * dt * A k)%R by (repeat apply Rmult_le_pos; lra).
    replace (- d0 (U k) * (sink_rate sd * x) * dt * A k)%R with (- (d0 (U k) * (sink_rate sd * x) * dt * A k))%R by ring. lra. }
  specialize (Q _ (incl_refl _)). lra.
Qed.
Lemma accreted_nonneg_u : (0 <= fst (mass_accreted_on tu))%R /\ (0 <= snd (mass_accreted_on tu))%R.
Proof. split; apply out_nonneg. Qed.
Lemma accreted_nonneg_q : (0 <= fst (mass_accreted_on tq))%R /\ (0 <= snd (mass_accreted_on tq))%R.
Proof. split; apply out_nonneg. Qed.
End Budget.
