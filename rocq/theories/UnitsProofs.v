(** Disks whose densities differ by a factor: every part of a step of the disk program (SourceModel, SolutionModel) and of its start
    (BinarySetupModel) takes the one to the other. *)
From Coq Require Import ZArith Reals List Bool Lia Lra String.
From Verif Require Import Base TreeModel TreeProofs BalanceModel NdModel NdOpsModel ProlongModel FluxModel GuardModel MeshModel PlmModel DimensionalModel TwoBodyModel HydroModel StepModel SourceModel SolutionModel BinarySetupModel RelProofs UnitsSpec.
Import ListNotations.
Open Scope R_scope.


Section Units.
Variable k : R.
Hypothesis Hk : 0 < k.
Notation num := (UnitsSpec.num k).
Notation tup := (UnitsSpec.tup k).
Notation two := (UnitsSpec.two k).
Notation gas := (UnitsSpec.gas k).
Notation floor_of := (UnitsSpec.floor_of k).
Notation fields_in_units := (UnitsSpec.fields_in_units k).
Notation in_units := (UnitsSpec.in_units k).
Notation heavier := (UnitsSpec.heavier k).
Lemma num_add x y u v : num x y -> num u v -> num (x + u) (y + v). Proof. unfold UnitsSpec.num. intros -> ->. ring. Qed.
Lemma num_sub x y u v : num x y -> num u v -> num (x - u) (y - v). Proof. unfold UnitsSpec.num. intros -> ->. ring. Qed.
Lemma num_mul x y c : num x y -> num (x * c) (y * c). Proof. unfold UnitsSpec.num. intros ->. ring. Qed.
Lemma num_opp x y : num x y -> num (- x) (- y). Proof. unfold UnitsSpec.num. intros ->. ring. Qed.
Lemma num_0 : num 0 0. Proof. unfold UnitsSpec.num. ring. Qed.
Lemma quotient a b : a * k / (b * k) = a / b.
Proof. destruct (Req_dec b 0) as [-> |B]; [rewrite Rmult_0_l; unfold Rdiv; rewrite Rinv_0; ring|]. field. lra. Qed.
Lemma below x c : (if Rlt_dec (x * k) (c * k) then true else false) = (if Rlt_dec x c then true else false).
Proof. destruct (Rlt_dec x c) as [L|L], (Rlt_dec (x * k) (c * k)) as [M|M]; try reflexivity; exfalso; [apply M, Rmult_lt_compat_r; lra|apply L, (Rmult_lt_reg_r k); lra]. Qed.
Lemma below0 x : (if Rlt_dec (x * k) 0 then true else false) = (if Rlt_dec x 0 then true else false). Proof. rewrite <- (below x 0). rewrite Rmult_0_l. reflexivity. Qed.

Lemma gas_add p q u v : gas p q -> gas u v -> gas (prim_add p u) (prim_add q v). Proof. unfold UnitsSpec.gas, prim_add. intros -> ->. cbn. f_equal; ring. Qed.
Lemma gas_sub p q u v : gas p q -> gas u v -> gas (prim_sub p u) (prim_sub q v). Proof. unfold UnitsSpec.gas, prim_sub. intros -> ->. cbn. f_equal; ring. Qed.
Lemma gas_mul p q c : gas p q -> gas (prim_mul p c) (prim_mul q c). Proof. unfold UnitsSpec.gas, prim_mul. intros ->. cbn. f_equal; ring. Qed.
Lemma sgn_scale z x : sgn z (x * k) = sgn z x.
Proof.
  unfold sgn. destruct (Rlt_dec x 0) as [L|L], (Rlt_dec (x * k) 0) as [M|M]; try reflexivity.
  - exfalso. apply M. replace 0 with (0 * k) by ring. apply Rmult_lt_compat_r; lra.
  - exfalso. apply L. apply (Rmult_lt_reg_r k); lra.
  - destruct (Rlt_dec 0 x) as [L1|L1], (Rlt_dec 0 (x * k)) as [M1|M1]; try reflexivity; exfalso; [apply M1, Rmult_lt_0_compat; lra|apply L1, (Rmult_lt_reg_r k); lra].
Qed.
Lemma min_scale x y : Rmin (x * k) (y * k) = Rmin x y * k.
Proof. unfold Rmin. destruct (Rle_dec x y) as [L|L], (Rle_dec (x * k) (y * k)) as [M|M]; try reflexivity; exfalso; [apply M, Rmult_le_compat_r; lra|apply L, (Rmult_le_reg_r k); lra]. Qed.
Lemma plm_scale a b c th : plm_gradient false false false (a * k) (b * k) (c * k) th = plm_gradient false false false a b c th * k.
Proof.
  unfold plm_gradient, minabs. cbv zeta. replace ((b * k - a * k) * th) with ((b - a) * th * k) by ring. replace ((c * k - a * k) * 0.5) with ((c - a) * 0.5 * k) by ring. replace ((c * k - b * k) * th) with ((c - b) * th * k) by ring.
  rewrite !sgn_scale, !Rabs_mult, (Rabs_pos_eq k) by lra. rewrite !min_scale. ring.
Qed.
Lemma gas_slope sd f sm l a a' b b' c c' : gas a a' -> gas b b' -> gas c c' -> gas (plm_slope sd sm l a b c) (plm_slope (with_floor sd f) sm l a' b' c').
Proof.
  unfold UnitsSpec.gas, plm_slope. intros -> -> ->. cbn [sigma vx vy with_floor plm_theta]. rewrite plm_scale. change (spacing_at (with_floor sd f) l) with (spacing_at sd l). f_equal. unfold Rdiv. ring.
Qed.
Lemma hlle_scale ap am a b c d : hlle_component ap am (a * k) (b * k) (c * k) (d * k) = hlle_component ap am a b c d * k.
Proof. unfold hlle_component, Rdiv. ring. Qed.
Lemma tup_hlle p p' q q' c d n : gas p p' -> gas q q' -> tup (iso_hlle p q c d n) (iso_hlle p' q' c d n).
Proof.
  unfold UnitsSpec.gas, UnitsSpec.tup. intros -> ->. unfold iso_hlle, hlle3, iso_conserved, iso_flux, iso_pressure, iso_wavespeeds, iso_velocity_along, v3_mul. cbn [sigma vx vy d0 d1 d2 fst snd].
  f_equal; rewrite <- hlle_scale; f_equal; ring.
Qed.
Lemma tup_add u u' v v' : tup u u' -> tup v v' -> tup (v3_add u v) (v3_add u' v'). Proof. unfold UnitsSpec.tup, v3_add, v3_mul. intros -> ->. cbn. f_equal; ring. Qed.
Lemma tup_sub u u' v v' : tup u u' -> tup v v' -> tup (v3_sub u v) (v3_sub u' v'). Proof. unfold UnitsSpec.tup, v3_sub, v3_mul. intros -> ->. cbn. f_equal; ring. Qed.
Lemma tup_mul u u' c : tup u u' -> tup (v3_mul u c) (v3_mul u' c). Proof. unfold UnitsSpec.tup, v3_mul. intros ->. cbn. f_equal; ring. Qed.
Lemma tup_neg u u' : tup u u' -> tup (v3_neg u) (v3_neg u'). Proof. unfold UnitsSpec.tup, v3_neg, v3_mul. intros ->. cbn. f_equal; ring. Qed.
Lemma tup_0 u u' : tup u u' -> num (d0 u) (d0 u'). Proof. intros ->. reflexivity. Qed.
Lemma tup_1 u u' : tup u u' -> num (d1 u) (d1 u'). Proof. intros ->. reflexivity. Qed.
Lemma tup_2 u u' : tup u u' -> num (d2 u) (d2 u'). Proof. intros ->. reflexivity. Qed.
Lemma flux_u sd f b ax l x p p' g g' h h' : prel gas gas p p' -> prel gas gas g g' -> prel gas gas h h' -> tup (intercell_flux_u sd b ax l x p g h) (intercell_flux_u (with_floor sd f) b ax l x p' g' h').
Proof.
  destruct p as [p1 p2], p' as [p1' p2'], g as [g1 g2], g' as [g1' g2'], h as [h1 h2], h' as [h1' h2']. intros [P1 P2] [G1 G2] [H1 H2]. cbn [fst snd] in *. unfold intercell_flux_u. cbv zeta. cbn [fst snd].
  change (spacing_at (with_floor sd f) l) with (spacing_at sd l). change (cs2_at_position (with_floor sd f) b x) with (cs2_at_position sd b x). change (nu_at_position (with_floor sd f)) with (nu_at_position sd).
  pose proof (gas_add _ _ _ _ P1 (gas_mul _ _ (spacing_at sd l) (gas_mul _ _ 0.5 G1))) as A. pose proof (gas_sub _ _ _ _ P2 (gas_mul _ _ (spacing_at sd l) (gas_mul _ _ 0.5 G2))) as B.
  apply tup_add; [apply tup_hlle; assumption|]. rewrite A, B. unfold UnitsSpec.gas in G1, G2, H1, H2. rewrite G1, G2, H1, H2. cbn [sigma]. unfold UnitsSpec.tup, viscous_flux, v3_mul. cbn [fst snd sigma vx vy]. destruct (ax =? 0)%nat; cbn [d0 d1 d2]; f_equal; ring.
Qed.
Lemma flux_q sd f b ax l x p p' g g' h h' : prel gas gas p p' -> prel gas gas g g' -> prel gas gas h h' -> tup (intercell_flux_q sd b ax l x p g h) (intercell_flux_q (with_floor sd f) b ax l x p' g' h').
Proof.
  intros P G H. unfold intercell_flux_q. rewrite (flux_u sd f b ax l x p p' g g' h h' P G H). change (domain_radius (with_floor sd f)) with (domain_radius sd). generalize (intercell_flux_u sd b ax l x p g h). intros F.
  unfold to_angmom_fluxes, UnitsSpec.tup, v3_mul. cbv zeta. cbn [d0 d1 d2]. repeat match goal with |- context [if ?c then 0 else _] => destruct c end; f_equal; ring.
Qed.

Notation cells E := (trel (arel E)).
Lemma rel_join t0 t0' t1 t1' t2 t2' : cells num t0 t0' -> cells num t1 t1' -> cells num t2 t2' -> orel (cells tup) (join3 t0 t1 t2) (join3 t0' t1' t2').
Proof.
  intros H0 H1 H2. unfold join3. rewrite (rel_indexes _ 2 _ _ H0). apply rel_tmapM_eq. intros i. apply (rel_bind (arel num)); [apply rel_at, H0|]. intros a a' A. apply (rel_bind (arel num)); [apply rel_at, H1|]. intros b b' B. apply (rel_bind (arel num)); [apply rel_at, H2|]. intros c c' C.
  apply (rel_bind (arel (prel num num))); [apply rel_zip; assumption|]. intros z z' Z. apply (rel_bind (arel (prel num (prel num num)))); [apply rel_zip; assumption|]. intros w w' W. constructor. eapply rel_map; [|exact W].
  intros [x [y v]] [x' [y' v']] (X & Y & V). cbn in *. unfold UnitsSpec.num in *. subst. reflexivity.
Qed.
Lemma rel_update3 sd fd fd' n sm fl fl' p p' u u' s s' dt : vertices fd' = vertices fd -> cell_areas fd' = cell_areas fd ->
  (forall ax l x p p' g g' h h', prel gas gas p p' -> prel gas gas g g' -> prel gas gas h h' -> tup (fl ax l x p g h) (fl' ax l x p' g' h')) -> cells gas p p' -> cells tup u u' -> cells tup s s' ->
  orel (cells tup) (update3 sd fd n sm fl p u s dt) (update3 (floor_of sd) fd' n sm fl' p' u' s' dt).
Proof.
  intros EV EA HF HP HU HS. unfold update3. rewrite EV, EA.
  assert (ONE : forall (c : v3 -> R), (forall u v, tup u v -> num (c u) (c v)) -> orel (cells num)
    (StepModel.advance prim_add (fun p => prim_mul p (1 / 2)) (plm_slope sd sm) (fun a l x p g h => c (fl a l x p g h)) n (vertices fd) p (cell_areas fd) (tmap (arr_map c) u) (tmap (arr_map c) s) dt)
    (StepModel.advance prim_add (fun p => prim_mul p (1 / 2)) (plm_slope (floor_of sd) sm) (fun a l x p g h => c (fl' a l x p g h)) n (vertices fd) p' (cell_areas fd) (tmap (arr_map c) u') (tmap (arr_map c) s') dt)).
  { intros c Hc. apply (rel_advance gas num).
    - apply gas_add.
    - intros x y G. apply gas_mul, G.
    - intros. apply gas_slope; assumption.
    - intros. apply Hc, HF; assumption.
    - apply num_add.
    - apply num_sub.
    - intros. apply num_mul; assumption.
    - exact HP.
    - apply (rel_tmap (arel tup)); [intros a b G; apply (rel_map tup num); assumption|exact HU].
    - apply (rel_tmap (arel tup)); [intros a b G; apply (rel_map tup num); assumption|exact HS]. }
  apply (rel_bind (cells num)); [apply ONE, tup_0|]. intros t0 t0' T0. apply (rel_bind (cells num)); [apply ONE, tup_1|]. intros t1 t1' T1. apply (rel_bind (cells num)); [apply ONE, tup_2|]. intros t2 t2' T2. apply rel_join; assumption.
Qed.

(** *** Primitive variables *)
Lemma rel_in_task {A B} (E : A -> B -> Prop) m n : orel E m n -> orel E (in_task m) (in_task n). Proof. intros []; constructor; assumption. Qed.
Lemma rel_forced {A B} (E : A -> B -> Prop) a b : arel E a b -> orel (arel E) (forced a) (forced b).
Proof.
  intros H. unfold forced. rewrite (proj1 H). apply (rel_bind eq); [|intros _ _ _; constructor; exact H]. apply (rel_for_each eq); [|reflexivity]. intros i s t <-. apply (rel_bind E); [apply (proj2 H)|]. intros. constructor. reflexivity.
Qed.
Lemma tup_recover u v : tup u v -> orel gas (iso_recover u) (iso_recover v).
Proof.
  unfold UnitsSpec.tup, iso_recover. intros ->. cbv zeta. cbn [v3_mul d0 d1 d2]. pose proof (below0 (d0 u)) as B. destruct (Rlt_dec (d0 u) 0), (Rlt_dec (d0 u * k) 0); try discriminate; [constructor|]. constructor. unfold UnitsSpec.gas. cbn [sigma vx vy]. rewrite !quotient. reflexivity.
Qed.
Lemma tup_recover_q u v x y : tup u v -> orel gas (iso_recover_angmom u x y) (iso_recover_angmom v x y).
Proof.
  unfold UnitsSpec.tup, iso_recover_angmom. intros ->. cbv zeta. cbn [v3_mul d0 d1 d2]. pose proof (below0 (d0 u)) as B. destruct (Rlt_dec (d0 u) 0), (Rlt_dec (d0 u * k) 0); try discriminate; [constructor|]. constructor. unfold UnitsSpec.gas. cbn [sigma vx vy]. rewrite !quotient. reflexivity.
Qed.
Lemma rel_recover sd fd fd' s s' : fields_in_units fd fd' -> in_units s s' -> orel (cells gas) (recover_primitive sd fd s) (recover_primitive (floor_of sd) fd' s').
Proof.
  intros F H. unfold recover_primitive. change (conserve_linear_p (floor_of sd)) with (conserve_linear_p sd). destruct (conserve_linear_p sd).
  - apply (rel_tmapM (arel tup)); [|apply (iu_u _ _ _ H)]. intros a b K. apply rel_in_task, rel_forced. split; [apply (proj1 K)|]. intros i. cbn. apply (rel_bind tup); [apply (proj2 K)|]. apply tup_recover.
  - rewrite (fu_centers _ _ _ F). apply (rel_bind (trel (prel (arel tup) (arel eq)))); [apply rel_pair_trees; [apply (iu_q _ _ _ H)|apply trel_eqs]|]. intros x y K. eapply rel_tmapM; [|exact K]. intros [a c] [b c'] [G1 G2]. cbn [fst snd] in *. apply rel_in_task.
    apply (rel_bind (arel (prel tup eq))); [apply rel_zip; assumption|]. intros z z' Z. apply rel_forced. split; [apply (proj1 Z)|]. intros i. cbn. apply (rel_bind (prel tup eq)); [apply (proj2 Z)|]. intros [u x0] [v x1] [T E]. cbn [fst snd] in *. subst x1. apply tup_recover_q, T.
Qed.

(** *** Sources and accounts *)
Lemma rel_booked a a' dA : arel num a a' -> orel num (booked a dA) (booked a' dA).
Proof.
  intros H. unfold booked. apply (rel_bind (arel num)); [apply (rel_op num eq num); [intros x y c _ G <-; apply num_mul, G|exact H|apply arel_eq]|]. intros p p' P. rewrite (proj1 P). apply (rel_bind num); [apply rel_sum; [apply num_0|apply num_add|exact P]|].
  intros x y G. constructor. apply num_opp, G.
Qed.
Lemma rel_booked2 a a' b b' dA : arel num a a' -> arel num b b' -> orel two (booked2 a b dA) (booked2 a' b' dA).
Proof. intros H G. unfold booked2. apply (rel_bind num); [apply rel_booked, H|]. intros x y X. apply (rel_bind num); [apply rel_booked, G|]. intros u v U. constructor. unfold UnitsSpec.num in *. subst. reflexivity. Qed.
Lemma rel_zip_apply {A A' B B' C C'} (E : A -> A' -> Prop) (F : B -> B' -> Prop) (G : C -> C' -> Prop) f g a a' b b' : (forall x x' y y', E x x' -> F y y' -> G (f x y) (g x' y')) -> arel E a a' -> arel F b b' -> orel (arel G) (zip_apply f a b) (zip_apply g a' b').
Proof. intros H K L. unfold zip_apply. apply (rel_bind (arel (prel E F))); [apply rel_zip; assumption|]. intros z z' Z. constructor. eapply rel_map; [|exact Z]. intros [x y] [x' y'] [X Y]. cbn [fst snd]. apply H; assumption. Qed.
Record booked_in_units (t t' : totals) : Prop := {
  bu_mass : two (mass_accreted_on t) (mass_accreted_on t'); bu_angmom : two (angular_momentum_accreted_on t) (angular_momentum_accreted_on t'); bu_torque : two (integrated_torque_on t) (integrated_torque_on t');
  bu_mass_ej : num (mass_ejected t) (mass_ejected t'); bu_angmom_ej : num (angular_momentum_ejected t) (angular_momentum_ejected t') }.
Lemma two_sum a a' b b' : two a a' -> two b b' -> two (two_add a b) (two_add a' b'). Proof. unfold UnitsSpec.two, two_add, vec_mul. intros -> ->. cbn. f_equal; ring. Qed.
Lemma two_0 : two two_zero two_zero. Proof. unfold UnitsSpec.two, vec_mul, two_zero. cbn. f_equal; ring. Qed.
Lemma booked_add a a' b b' : booked_in_units a a' -> booked_in_units b b' -> booked_in_units (totals_add a b) (totals_add a' b').
Proof. intros [] []. constructor; cbn; first [apply two_sum|apply num_add]; assumption. Qed.
Lemma booked_none : booked_in_units no_totals no_totals. Proof. constructor; cbn; first [apply two_0|apply num_0]. Qed.
Lemma rel_tsum {A B} (E : A -> B -> Prop) z z' f g : E z z' -> (forall x y u v, E x y -> E u v -> E (f x u) (g y v)) -> forall t t', trel E t t' -> E (tsum z f t) (tsum z' g t').
Proof.
  intros Z H. induction t as [a|cs IH] using tree_ind'; intros u K; inversion K as [x y G|cs' ds G]; subst; cbn [tsum]; [exact G|]. clear K. revert z z' Z IH.
  assert (FL : forall l m, Forall2 E l m -> forall z z', E z z' -> E (fold_left f l z) (fold_left g m z')) by (intros l m L; induction L; intros z z' Z; cbn; auto). intros z z' Z IH. apply FL; [|exact Z].
  induction G as [|c d cs ds G _ IG]; cbn [map]; [constructor|]. inversion IH as [|? ? I1 I2]; subst. constructor; [apply I1, G|apply IG, I2].
Qed.
Ltac nums := first [apply tup_0|apply tup_1|apply tup_2].
Lemma rel_gravity sd f b xc u u' : arel tup u u' -> orel (arel two) (gravity sd b xc u) (gravity (with_floor sd f) b xc u').
Proof.
  intros H. unfold gravity. apply (rel_op eq num two); [intros x _ p q <- ->; unfold UnitsSpec.two, vec_mul; cbn; f_equal; ring|apply arel_eq|]. apply (rel_map tup num); [apply tup_0|exact H].
Qed.
Lemma rel_sink sd f b xc u u' dt : arel tup u u' -> orel (arel tup) (sink sd b xc u dt) (sink (with_floor sd f) b xc u' dt).
Proof.
  intros H. unfold sink. apply (rel_bind (arel tup)); [apply (rel_op tup eq tup); [intros x y c _ G <-; apply tup_mul, G| |apply arel_eq]|].
  - apply (rel_map tup tup); [apply tup_neg|exact H].
  - intros z z' Z. constructor. apply (rel_map tup tup); [intros x y G; apply tup_mul, G|exact Z].
Qed.
Lemma rel_buffer ui ui' u u' br dt : arel tup ui ui' -> arel tup u u' -> orel (arel tup) (buffer ui u br dt) (buffer ui' u' br dt).
Proof.
  intros G H. unfold buffer. apply (rel_bind (arel tup)); [apply (rel_op tup tup tup); [apply tup_sub|exact G|exact H]|]. intros d d' D. apply (rel_bind (arel tup)); [apply (rel_op tup eq tup); [intros x y c _ K <-; apply tup_mul, K|exact D|apply arel_eq]|].
  intros z z' Z. constructor. apply (rel_map tup tup); [intros x y K; apply tup_mul, K|exact Z].
Qed.
Lemma tup_floor sd u v : tup u v -> tup (floor_term sd u) (floor_term (floor_of sd) v).
Proof.
  intros H. unfold floor_term. replace (if Rlt_dec (d0 v) (density_floor (floor_of sd)) then 1 else 0) with (if Rlt_dec (d0 u) (density_floor sd) then 1 else 0); [apply tup_mul, tup_mul, H|].
  rewrite H. cbn [v3_mul d0 UnitsSpec.floor_of with_floor density_floor]. pose proof (below (d0 u) (density_floor sd)) as B. destruct (Rlt_dec (d0 u) (density_floor sd)), (Rlt_dec (d0 u * k) (density_floor sd * k)); try discriminate; reflexivity.
Qed.
Lemma tup_force_u x f g : two f g -> tup (force_to_source_terms_u x f) (force_to_source_terms_u x g). Proof. unfold UnitsSpec.two, UnitsSpec.tup, force_to_source_terms_u, v3_mul, vec_mul. intros ->. cbn. f_equal; ring. Qed.
Lemma tup_force_q x f g : two f g -> tup (force_to_source_terms_q x f) (force_to_source_terms_q x g). Proof. unfold UnitsSpec.two, UnitsSpec.tup, force_to_source_terms_q, v3_mul, vec_mul. intros ->. cbn. f_equal; ring. Qed.
Lemma num_lz u v x y : tup u v -> num (iso_angular_momentum u x y) (iso_angular_momentum v x y). Proof. unfold UnitsSpec.tup, UnitsSpec.num, iso_angular_momentum. intros ->. cbn. ring. Qed.
Lemma tup_geom p q c : gas p q -> tup (iso_angmom_source p c) (iso_angmom_source q c). Proof. unfold UnitsSpec.gas, UnitsSpec.tup, iso_angmom_source, iso_pressure, v3_mul. intros ->. cbn. f_equal; ring. Qed.
Lemma lin_of_angmom u v x y : tup u v -> let a := iso_linear_of_angmom u x y in let b := iso_linear_of_angmom v x y in two (d1 a, d2 a) (d1 b, d2 b).
Proof. unfold UnitsSpec.tup, UnitsSpec.two, iso_linear_of_angmom, vec_mul, v3_mul. intros ->. cbn. f_equal; unfold Rdiv; ring. Qed.
(** A value of no further interest. *)
Definition any {A B} (x : A) (y : B) : Prop := True.
Lemma rel_booked_v3 a a' dA : arel tup a a' -> orel tup (booked_v3 a dA) (booked_v3 a' dA).
Proof.
  intros H. unfold booked_v3. apply (rel_bind num); [apply rel_booked, (rel_map tup num); [apply tup_0|exact H]|]. intros x x' X. apply (rel_bind num); [apply rel_booked, (rel_map tup num); [apply tup_1|exact H]|]. intros y y' Y.
  apply (rel_bind num); [apply rel_booked, (rel_map tup num); [apply tup_2|exact H]|]. intros z z' Z. constructor. unfold UnitsSpec.num in *. subst. reflexivity.
Qed.
Ltac num_of H := first [apply (rel_map tup num); [nums|exact H]].
Lemma vec_scaled f f' dt : arel two f f' -> arel two (arr_map (fun w => vec_mul w dt) f) (arr_map (fun w => vec_mul w dt) f').
Proof. intros H. apply (rel_map two two); [|exact H]. intros x y ->. unfold UnitsSpec.two, vec_mul. cbn. f_equal; ring. Qed.
Lemma two_fst (f f' : array (R * R)) : arel two f f' -> arel num (arr_map fst f) (arr_map fst f'). Proof. apply rel_map. intros x y ->. reflexivity. Qed.
Lemma two_snd (f f' : array (R * R)) : arel two f f' -> arel num (arr_map snd f) (arr_map snd f'). Proof. apply rel_map. intros x y ->. reflexivity. Qed.
Lemma rel_source_u sd b xc dA br u u' ui ui' dt : arel tup u u' -> arel tup ui ui' -> orel (prel (arel tup) booked_in_units) (source_terms_u sd b xc dA br u ui dt) (source_terms_u (floor_of sd) b xc dA br u' ui' dt).
Proof.
  intros H G. assert (M : forall a a', arel tup a a' -> arel tup (arr_map (fun u => v3_mul u dt) a) (arr_map (fun u => v3_mul u dt) a')) by (intros a a' K; apply (rel_map tup tup); [intros x y L; apply tup_mul, L|exact K]).
  assert (LZ : forall a a', arel tup a a' -> orel (arel num) (zip_apply (fun u x => iso_angular_momentum u (fst x) (snd x)) a xc) (zip_apply (fun u x => iso_angular_momentum u (fst x) (snd x)) a' xc)) by (intros a a' K; apply (rel_zip_apply tup eq num); [intros x x' y _ L <-; apply num_lz, L|exact K|apply arel_eq]).
  assert (AD : forall a a' b b', arel tup a a' -> arel tup b b' -> orel (arel tup) (NdModel.binary_op v3_add a b) (NdModel.binary_op v3_add a' b')) by (intros; apply (rel_op tup tup tup); [apply tup_add|assumption|assumption]).
  unfold source_terms_u. cbv zeta.
  apply (rel_bind (arel two)); [apply rel_gravity, H|]. intros f1 f1' F1. apply (rel_bind (arel two)); [apply rel_gravity, H|]. intros f2 f2' F2.
  apply (rel_bind (arel tup)); [apply (rel_zip_apply eq two tup); [intros x _ y y' <-; apply tup_force_u|apply arel_eq|exact F1]|]. intros g1 g1' G1. apply (rel_bind (arel tup)); [apply (rel_zip_apply eq two tup); [intros x _ y y' <-; apply tup_force_u|apply arel_eq|exact F2]|]. intros g2 g2' G2.
  apply M in G1. apply M in G2.
  apply (rel_bind (arel tup)); [apply rel_sink, H|]. intros s1 s1' S1. apply (rel_bind (arel tup)); [apply rel_sink, H|]. intros s2 s2' S2. apply (rel_bind (arel tup)); [apply rel_buffer; assumption|]. intros bf bf' BF.
  apply (rel_bind two); [apply rel_booked2; [num_of S1|num_of S2]|]. intros t1 t1' T1.
  apply (rel_bind (arel num)); [apply LZ, S1|]. intros l1 l1' L1. apply (rel_bind (arel num)); [apply LZ, S2|]. intros l2 l2' L2. apply (rel_bind two); [apply rel_booked2; assumption|]. intros t2 t2' T2.
  apply (rel_bind (arel num)); [apply LZ, G1|]. intros q1 q1' Q1. apply (rel_bind (arel num)); [apply LZ, G2|]. intros q2 q2' Q2. apply (rel_bind two); [apply rel_booked2; assumption|]. intros t3 t3' T3.
  apply (rel_bind (arel num)); [apply LZ, BF|]. intros lb lb' LB. apply (rel_bind num); [apply rel_booked, LB|]. intros t4 t4' T4. apply (rel_bind num); [apply rel_booked; num_of BF|]. intros t5 t5' T5.
  apply (rel_bind two); [apply rel_booked2; apply two_fst, vec_scaled; assumption|]. intros t6 t6' T6. apply (rel_bind two); [apply rel_booked2; apply two_snd, vec_scaled; assumption|]. intros t7 t7' T7.
  apply (rel_bind two); [apply rel_booked2; apply (rel_map tup num); first [apply tup_1|assumption]|]. intros t8 t8' T8. apply (rel_bind two); [apply rel_booked2; apply (rel_map tup num); first [apply tup_2|assumption]|]. intros t9 t9' T9.
  apply (rel_bind tup); [apply rel_booked_v3, S1|]. intros du1 du1' D1. apply (rel_bind tup); [apply rel_booked_v3, S2|]. intros du2 du2' D2.
  apply (rel_bind (arel tup)); [apply AD; assumption|]. intros a1 a1' A1. apply (rel_bind (arel tup)); [apply AD; assumption|]. intros a2 a2' A2. apply (rel_bind (arel tup)); [apply AD; assumption|]. intros a3 a3' A3. apply (rel_bind (arel tup)); [apply AD; assumption|]. intros a4 a4' A4.
  apply (rel_bind (arel tup)); [apply AD; [exact A4|apply (rel_map tup tup); [apply tup_floor|exact H]]|]. intros a5 a5' A5. constructor. split; [exact A5|]. constructor; assumption.
Qed.
Lemma rel_source_q sd b xc dA br p p' u u' ui ui' dt : arel gas p p' -> arel tup u u' -> arel tup ui ui' -> orel (prel (arel tup) booked_in_units) (source_terms_q sd b xc dA br p u ui dt) (source_terms_q (floor_of sd) b xc dA br p' u' ui' dt).
Proof.
  intros HP H G. assert (M : forall a a', arel tup a a' -> arel tup (arr_map (fun u => v3_mul u dt) a) (arr_map (fun u => v3_mul u dt) a')) by (intros a a' K; apply (rel_map tup tup); [intros x y L; apply tup_mul, L|exact K]).
  assert (AD : forall a a' b b', arel tup a a' -> arel tup b b' -> orel (arel tup) (NdModel.binary_op v3_add a b) (NdModel.binary_op v3_add a' b')) by (intros; apply (rel_op tup tup tup); [apply tup_add|assumption|assumption]).
  unfold source_terms_q. cbv zeta.
  apply (rel_bind (arel two)); [apply rel_gravity, H|]. intros f1 f1' F1. apply (rel_bind (arel two)); [apply rel_gravity, H|]. intros f2 f2' F2.
  apply (rel_bind (arel tup)); [apply (rel_zip_apply eq two tup); [intros x _ y y' <-; apply tup_force_q|apply arel_eq|exact F1]|]. intros g1 g1' G1. apply (rel_bind (arel tup)); [apply (rel_zip_apply eq two tup); [intros x _ y y' <-; apply tup_force_q|apply arel_eq|exact F2]|]. intros g2 g2' G2.
  apply M in G1. apply M in G2.
  apply (rel_bind (arel tup)); [apply rel_sink, H|]. intros s1 s1' S1. apply (rel_bind (arel tup)); [apply rel_sink, H|]. intros s2 s2' S2. apply (rel_bind (arel tup)); [apply rel_buffer; assumption|]. intros bf bf' BF.
  apply (rel_bind (arel tup)); [apply (rel_zip_apply gas eq tup); [intros x x' y _ L <-; apply tup_mul, tup_mul, tup_geom, L|exact HP|apply arel_eq]|]. intros gm gm' GM.
  apply (rel_bind (arel two)); [apply (rel_zip_apply tup eq two); [intros x x' y _ L <-; apply lin_of_angmom, L|exact S1|apply arel_eq]|]. intros e1 e1' E1. apply (rel_bind (arel two)); [apply (rel_zip_apply tup eq two); [intros x x' y _ L <-; apply lin_of_angmom, L|exact S2|apply arel_eq]|]. intros e2 e2' E2.
  apply (rel_bind two); [apply rel_booked2; apply (rel_map tup num); first [apply tup_0|assumption]|]. intros t1 t1' T1. apply (rel_bind two); [apply rel_booked2; apply (rel_map tup num); first [apply tup_2|assumption]|]. intros t2 t2' T2. apply (rel_bind two); [apply rel_booked2; apply (rel_map tup num); first [apply tup_2|assumption]|]. intros t3 t3' T3.
  apply (rel_bind num); [apply rel_booked, (rel_map tup num); first [apply tup_0|assumption]|]. intros t4 t4' T4. apply (rel_bind num); [apply rel_booked, (rel_map tup num); first [apply tup_2|assumption]|]. intros t5 t5' T5.
  apply (rel_bind two); [apply rel_booked2; apply two_fst, vec_scaled; assumption|]. intros t6 t6' T6. apply (rel_bind two); [apply rel_booked2; apply two_snd, vec_scaled; assumption|]. intros t7 t7' T7.
  apply (rel_bind two); [apply rel_booked2; apply two_fst; assumption|]. intros t8 t8' T8. apply (rel_bind two); [apply rel_booked2; apply two_snd; assumption|]. intros t9 t9' T9.
  apply (rel_bind (arel tup)); [apply AD; assumption|]. intros a1 a1' A1. apply (rel_bind (arel tup)); [apply AD; assumption|]. intros a2 a2' A2. apply (rel_bind (arel tup)); [apply AD; assumption|]. intros a3 a3' A3. apply (rel_bind (arel tup)); [apply AD; assumption|]. intros a4 a4' A4.
  apply (rel_bind (arel tup)); [apply AD; assumption|]. intros a5 a5' A5. constructor. split; [exact A5|]. constructor; assumption.
Qed.

(** *** Steps *)
Lemma eadd_nothing E X : eadd E (escale X 0) = E.
Proof. destruct E as [a b c d e f [g h i j]], X as [a' b' c' d' e' f' [g' h' i' j']]. unfold eadd, escale. cbn. f_equal; [ring..|]. f_equal; ring. Qed.
Lemma rel_booked_solution sd s s' b t t' u u' q q' dt r r' : in_units s s' -> time s <= begin_live_binary sd -> booked_in_units t t' -> cells tup u u' -> cells tup q q' ->
  booked_solution sd s b t u q dt = Ok r -> booked_solution (floor_of sd) s' b t' u' q' dt = Ok r' -> in_units r r' /\ time r = time s + dt.
Proof.
  intros H L T U Q E E'. unfold booked_solution in E, E'. change (begin_live_binary (floor_of sd)) with (begin_live_binary sd) in E'. rewrite (iu_time _ _ _ H) in E'. destruct (Rlt_dec (begin_live_binary sd) (time s)) as [X|_]; [lra|].
  apply bind_ok_inv in E as (e1 & _ & E). apply bind_ok_inv in E as (e2 & _ & E). apply bind_ok_inv in E' as (e1' & _ & E'). apply bind_ok_inv in E' as (e2' & _ & E'). injection E as <-. injection E' as <-. split; [|reflexivity].
  destruct H as [H1 H2 H3 H4 H5 H6 H7 H8 H9], T as [T1 T2 T3 T4 T5]. rewrite !eadd_nothing. constructor; cbn; auto.
  - rewrite H4. apply two_sum; [reflexivity|exact T1].
  - rewrite H5. apply two_sum; [reflexivity|exact T2].
  - rewrite H6. apply two_sum; [reflexivity|exact T3].
  - rewrite H7. apply num_add; [reflexivity|exact T4].
  - rewrite H8. apply num_add; [reflexivity|exact T5].
Qed.
Lemma empty_cells : cells tup (@empty_tree v3) (@empty_tree v3). Proof. constructor. split; [reflexivity|]. intros i. constructor. Qed.
Lemma both_ok {A B} (E : A -> B -> Prop) m n x y : orel E m n -> m = Ok x -> n = Ok y -> E x y. Proof. intros [] HA HB; congruence. Qed.
Lemma validate_same fd u s r : validate fd u s = Ok r -> r = s. Proof. unfold validate. intros E. apply bind_ok_inv in E as (b & _ & E). destruct (existsb _ _); [discriminate|]. injection E as <-. reflexivity. Qed.
Lemma advance_units sd fd fd' n s s' dt sm r r' : fields_in_units fd fd' -> in_units s s' -> time s <= begin_live_binary sd ->
  SolutionModel.advance sd fd n s dt sm = Ok r -> SolutionModel.advance (floor_of sd) fd' n s' dt sm = Ok r' -> in_units r r' /\ time r = time s + dt.
Proof.
  intros F H L E E'. unfold SolutionModel.advance in E, E'. change (conserve_linear_p (floor_of sd)) with (conserve_linear_p sd) in E'. destruct (conserve_linear_p sd).
  - unfold advance_u in E, E'. apply bind_ok_inv in E as (p & P & E). apply bind_ok_inv in E as (b & B & E). apply bind_ok_inv in E as (w & W & E). apply bind_ok_inv in E as (u & U & E). apply bind_ok_inv in E as (z & Z & E). apply validate_same in E. subst z.
    apply bind_ok_inv in E' as (p' & P' & E'). apply bind_ok_inv in E' as (b' & B' & E'). apply bind_ok_inv in E' as (w' & W' & E'). apply bind_ok_inv in E' as (u' & U' & E'). apply bind_ok_inv in E' as (z' & Z' & E'). apply validate_same in E'. subst z'.
    pose proof (both_ok _ _ _ _ _ (rel_recover sd fd fd' s s' F H) P P') as HP. rewrite (iu_orbit _ _ _ H), (iu_time _ _ _ H), B in B'. injection B' as <-.
    assert (HW : trel (prel (arel tup) booked_in_units) w w').
    { refine (both_ok _ _ _ _ _ _ W W'). rewrite (rel_indexes _ 2 _ _ HP). apply rel_tmapM_eq. intros i. unfold sources_u. rewrite (fu_centers _ _ _ F), (fu_areas _ _ _ F), (fu_buffer _ _ _ F). apply rel_bind_eq. intros xc. apply rel_bind_eq. intros dA. apply rel_bind_eq. intros br.
      apply (rel_bind (arel tup)); [apply rel_at, (iu_u _ _ _ H)|]. intros a a' A. apply (rel_bind (arel tup)); [apply rel_at, (fu_u _ _ _ F)|]. intros c c' C. apply rel_source_u; assumption. }
    assert (HU : cells tup u u').
    { refine (both_ok _ _ _ _ _ _ U U'). apply rel_update3; [apply (fu_vertices _ _ _ F)|apply (fu_areas _ _ _ F)|apply flux_u|exact HP|apply (iu_u _ _ _ H)|]. apply (rel_tmap (prel (arel tup) booked_in_units)); [intros x y G; exact (proj1 G)|exact HW]. }
    refine (rel_booked_solution _ _ _ _ _ _ _ _ _ _ _ _ _ H L _ HU empty_cells Z Z'). apply rel_tsum; [apply booked_none|apply booked_add|]. apply (rel_tmap (prel (arel tup) booked_in_units)); [intros x y G; exact (proj2 G)|exact HW].
  - unfold advance_q in E, E'. apply bind_ok_inv in E as (p & P & E). apply bind_ok_inv in E as (b & B & E). apply bind_ok_inv in E as (w & W & E). apply bind_ok_inv in E as (u & U & E). apply bind_ok_inv in E as (z & Z & E). apply validate_same in E. subst z.
    apply bind_ok_inv in E' as (p' & P' & E'). apply bind_ok_inv in E' as (b' & B' & E'). apply bind_ok_inv in E' as (w' & W' & E'). apply bind_ok_inv in E' as (u' & U' & E'). apply bind_ok_inv in E' as (z' & Z' & E'). apply validate_same in E'. subst z'.
    pose proof (both_ok _ _ _ _ _ (rel_recover sd fd fd' s s' F H) P P') as HP. rewrite (iu_orbit _ _ _ H), (iu_time _ _ _ H), B in B'. injection B' as <-.
    assert (HW : trel (prel (arel tup) booked_in_units) w w').
    { refine (both_ok _ _ _ _ _ _ W W'). rewrite (rel_indexes _ 2 _ _ HP). apply rel_tmapM_eq. intros i. unfold sources_q. rewrite (fu_centers _ _ _ F), (fu_areas _ _ _ F), (fu_buffer _ _ _ F). apply rel_bind_eq. intros xc. apply rel_bind_eq. intros dA. apply rel_bind_eq. intros br.
      apply (rel_bind (arel tup)); [apply rel_at, (iu_q _ _ _ H)|]. intros a a' A. apply (rel_bind (arel tup)); [apply rel_at, (fu_q _ _ _ F)|]. intros c c' C. apply (rel_bind (arel gas)); [apply rel_at, HP|]. intros e e' G. apply rel_source_q; assumption. }
    assert (HU : cells tup u u').
    { refine (both_ok _ _ _ _ _ _ U U'). apply rel_update3; [apply (fu_vertices _ _ _ F)|apply (fu_areas _ _ _ F)|apply flux_q|exact HP|apply (iu_q _ _ _ H)|]. apply (rel_tmap (prel (arel tup) booked_in_units)); [intros x y G; exact (proj1 G)|exact HW]. }
    refine (rel_booked_solution _ _ _ _ _ _ _ _ _ _ _ _ _ H L _ empty_cells HU Z Z'). apply rel_tsum; [apply booked_none|apply booked_add|]. apply (rel_tmap (prel (arel tup) booked_in_units)); [intros x y G; exact (proj2 G)|exact HW].
Qed.
Lemma tree_mul_units t t' c : cells tup t t' -> cells tup (tree_mul t c) (tree_mul t' c).
Proof. apply rel_tmap. intros a b H. apply (rel_map tup tup); [intros x y G; apply tup_mul, G|exact H]. Qed.
Lemma tree_add_units t t' u u' : cells tup t t' -> cells tup u u' -> orel (cells tup) (tree_add t u) (tree_add t' u').
Proof. intros H G. unfold tree_add. apply (rel_bind (trel (prel (arel tup) (arel tup)))); [apply rel_pair_trees; assumption|]. intros x y K. eapply rel_tmapM; [|exact K]. intros a b [A B]. apply (rel_op tup tup tup); [apply tup_add|exact A|exact B]. Qed.
Lemma two_scale (a : R * R) c : vec_mul (vec_mul a k) c = vec_mul (vec_mul a c) k. Proof. unfold vec_mul. cbn. f_equal; ring. Qed.
Lemma mul_units s s' c : in_units s s' -> in_units (solution_mul s c) (solution_mul s' c).
Proof.
  intros [H1 H2 H3 H4 H5 H6 H7 H8 H9]. constructor; cbn; try (apply tree_mul_units; assumption); rewrite ?H1, ?H4, ?H5, ?H6, ?H7, ?H8, ?H9; try apply two_scale; try reflexivity; ring.
Qed.
Lemma add_units s s' t t' r r' : in_units s s' -> in_units t t' -> solution_add s t = Ok r -> solution_add s' t' = Ok r' -> in_units r r' /\ time r = time s + time t.
Proof.
  intros [H1 H2 H3 H4 H5 H6 H7 H8 H9] [G1 G2 G3 G4 G5 G6 G7 G8 G9] E E'. unfold solution_add in E, E'. apply bind_ok_inv in E as (u & U & E). apply bind_ok_inv in E as (q & Q & E). injection E as <-. apply bind_ok_inv in E' as (u' & U' & E'). apply bind_ok_inv in E' as (q' & Q' & E'). injection E' as <-.
  split; [|reflexivity]. constructor; cbn; rewrite ?H1, ?H4, ?H5, ?H6, ?H7, ?H8, ?H9, ?G1, ?G4, ?G5, ?G6, ?G7, ?G8, ?G9; try reflexivity; try (apply two_sum; reflexivity); try (apply num_add; reflexivity).
  - exact (both_ok _ _ _ _ _ (tree_add_units _ _ _ _ H2 G2) U U').
  - exact (both_ok _ _ _ _ _ (tree_add_units _ _ _ _ H3 G3) Q Q').
Qed.
Lemma can_fail_units sd fd fd' n s s' dt sm r r' : fields_in_units fd fd' -> in_units s s' -> time s <= begin_live_binary sd -> time r <= begin_live_binary sd ->
  can_fail sd fd n s dt sm = Ok r -> can_fail (floor_of sd) fd' n s' dt sm = Ok r' -> in_units r r'.
Proof.
  intros F H L L' E E'. unfold can_fail in E, E'. change (rk_order (floor_of sd)) with (rk_order sd) in E'. destruct (rk_order sd =? 1)%Z; [apply (advance_units sd fd fd' n s s' dt sm r r' F H L E E')|]. destruct (rk_order sd =? 2)%Z; [|discriminate].
  apply bind_ok_inv in E as (a & E1 & E). apply bind_ok_inv in E as (b & E2 & E). apply bind_ok_inv in E' as (a' & E1' & E'). apply bind_ok_inv in E' as (b' & E2' & E').
  destruct (advance_units sd fd fd' n s s' dt sm a a' F H L E1 E1') as [HA TA].
  assert (TR : time r = time s * (1 / 2) + time b * (1 - 1 / 2)). { unfold solution_add in E. apply bind_ok_inv in E as (u & _ & E). apply bind_ok_inv in E as (q & _ & E). injection E as <-. reflexivity. }
  assert (TB : time b = time a + dt).
  { unfold SolutionModel.advance in E2. destruct (conserve_linear_p sd); [unfold advance_u in E2|unfold advance_q in E2]; apply bind_ok_inv in E2 as (p & _ & E2); apply bind_ok_inv in E2 as (c & _ & E2); apply bind_ok_inv in E2 as (w & _ & E2); apply bind_ok_inv in E2 as (u & _ & E2); apply bind_ok_inv in E2 as (z & Z & E2); apply validate_same in E2; subst z;
      unfold booked_solution in Z; apply bind_ok_inv in Z as (e1 & _ & Z); apply bind_ok_inv in Z as (e2 & _ & Z); injection Z as <-; reflexivity. }
  destruct (advance_units sd fd fd' n a a' dt sm b b' F HA ltac:(lra) E2 E2') as [HB _]. exact (proj1 (add_units _ _ _ _ _ _ (mul_units _ _ _ H) (mul_units _ _ _ HB) E E')).
Qed.
Lemma rel_best {A B} (E : A -> B -> Prop) n f g z z' a b : E z z' -> (forall x y u v, E x y -> E u v -> f x u = g y v) -> arel E a b -> orel E (arr_best n f z a) (arr_best n g z' b).
Proof.
  intros Z H [S G]. unfold arr_best. rewrite S. apply (rel_bind (prel E eq)); [|intros x y [X _]; constructor; exact X]. apply rel_for_each; [|split; [exact Z|reflexivity]]. intros i [s e] [t e'] [K EQ]. cbn [fst snd] in *. subst e'.
  apply (rel_bind E); [apply G|]. intros x y X. constructor. rewrite (H x y s t X K). destruct (e || g y t); split; cbn; auto.
Qed.
Lemma time_step_units sd fd fd' n s s' : fields_in_units fd fd' -> in_units s s' -> maximum_timestep (floor_of sd) fd' n s' = maximum_timestep sd fd n s.
Proof.
  intros F H. symmetry. apply orel_eq_inv. unfold maximum_timestep. apply (rel_bind (cells gas)); [apply rel_recover; assumption|]. intros p p' P. rewrite (iu_orbit _ _ _ H), (iu_time _ _ _ H). apply rel_bind_eq. intros b. rewrite <- (rel_indexes _ 2 _ _ (iu_u _ _ _ H)).
  apply (rel_bind (trel eq)).
  - apply rel_tmapM_eq. intros i. unfold block_timestep. rewrite (fu_centers _ _ _ F). apply rel_bind_eq. intros xc. apply (rel_bind (arel gas)); [apply rel_at, P|]. intros c c' C. apply (rel_bind (arel (prel gas eq))); [apply rel_zip; [exact C|apply arel_eq]|]. intros z z' Z.
    set (w := arr_map (fun w => iso_max_wavespeed (fst w) (cs2_at_position sd b (snd w))) z). change (cs2_at_position (floor_of sd)) with (cs2_at_position sd). set (w' := arr_map (fun w => iso_max_wavespeed (fst w) (cs2_at_position sd b (snd w))) z').
    assert (W : arel eq w w') by (apply (rel_map (prel gas eq) eq); [|exact Z]; intros [x y] [x' y'] [X Y]; cbn [fst snd] in *; rewrite X, Y; reflexivity). rewrite (proj1 W). apply (rel_bind eq); [apply rel_best; [reflexivity|intros x _ u _ <- <-; reflexivity|exact W]|].
    intros x _ <-. constructor. reflexivity.
  - intros t t' T. constructor. assert (X : t = t'); [|rewrite X; reflexivity]. clear -T. revert t' T. induction t as [a|cs IH] using tree_ind'; intros t' T; inversion T as [x y G|cs' ds G]; subst; [reflexivity|]. f_equal. clear T. induction G as [|c d cs ds G _ IG]; [reflexivity|].
    inversion IH as [|? ? I1 I2]; subst. f_equal; [apply I1, G|apply IG, I2].
Qed.

(** *** Totals of the disk *)
Lemma rel_tree_total t t' : cells num t t' -> orel num (tree_total t) (tree_total t').
Proof. intros H. unfold tree_total. apply (rel_bind (trel num)); [|intros x y G; constructor; apply rel_tsum; [apply num_0|apply num_add|exact G]]. apply (rel_tmapM (arel num)); [|exact H]. intros a b G. rewrite (proj1 G). apply rel_sum; [apply num_0|apply num_add|exact G]. Qed.
Lemma rel_tree_times t t' u : cells num t t' -> orel (cells num) (tree_times t u) (tree_times t' u).
Proof. intros H. unfold tree_times. apply (rel_bind (trel (prel (arel num) (arel eq)))); [apply rel_pair_trees; [exact H|apply trel_eqs]|]. intros x y K. eapply rel_tmapM; [|exact K]. intros a b [A B]. apply (rel_op num eq num); [intros p q c _ G <-; apply num_mul, G|exact A|exact B]. Qed.
Lemma rel_disk_mass sd fd fd' s s' : fields_in_units fd fd' -> in_units s s' -> orel num (disk_mass sd fd s) (disk_mass (floor_of sd) fd' s').
Proof.
  intros F H. unfold disk_mass. change (conserve_linear_p (floor_of sd)) with (conserve_linear_p sd). rewrite (fu_areas _ _ _ F). apply (rel_bind (cells num)); [|apply rel_tree_total]. apply rel_tree_times. apply (rel_tmap (arel tup)); [intros a b G; apply (rel_map tup num); [apply tup_0|exact G]|].
  destruct (conserve_linear_p sd); [apply (iu_u _ _ _ H)|apply (iu_q _ _ _ H)].
Qed.
Lemma rel_disk_angmom sd fd fd' s s' : fields_in_units fd fd' -> in_units s s' -> orel num (disk_angular_momentum sd fd s) (disk_angular_momentum (floor_of sd) fd' s').
Proof.
  intros F H. unfold disk_angular_momentum. change (conserve_linear_p (floor_of sd)) with (conserve_linear_p sd). rewrite (fu_areas _ _ _ F), (fu_centers _ _ _ F). destruct (conserve_linear_p sd).
  - apply (rel_bind (trel (prel (arel tup) (arel eq)))); [apply rel_pair_trees; [apply (iu_u _ _ _ H)|apply trel_eqs]|]. intros x y K. apply (rel_bind (cells num)).
    + eapply rel_tmapM; [|exact K]. intros a b [A B]. apply (rel_zip_apply tup eq num); [intros p q c _ G <-; apply num_lz, G|exact A|exact B].
    + intros t t' T. apply (rel_bind (cells num)); [apply rel_tree_times, T|apply rel_tree_total].
  - apply (rel_bind (cells num)); [|apply rel_tree_total]. apply rel_tree_times. apply (rel_tmap (arel tup)); [intros a b G; apply (rel_map tup num); [apply tup_2|exact G]|apply (iu_q _ _ _ H)].
Qed.

(** *** The start *)
Lemma sigma_units o r : disk_sigma (heavier o) r = disk_sigma o r * k.
Proof. unfold disk_sigma, disk_s1, disk_s0. cbn [UnitsSpec.heavier o_disk_mass o_disk_radius o_ambient_density]. cbv zeta. unfold Rdiv. ring. Qed.
Lemma profile_units o p : match disk_profile o p, disk_profile (heavier o) p with Some P, Some Q => gas P Q | None, None => True | _, _ => False end.
Proof.
  unfold disk_profile. cbv zeta. cbn [UnitsSpec.heavier o_softening_radius o_counter_rotate o_mdot].
  assert (DP : disk_dp_dr (heavier o) (sqrt (fst p * fst p + snd p * snd p)) = disk_dp_dr o (sqrt (fst p * fst p + snd p * snd p))).
  { unfold disk_dp_dr. cbv zeta. rewrite sigma_units. cbn [UnitsSpec.heavier o_mach_number o_softening_radius o_disk_radius]. replace (disk_s1 (heavier o)) with (disk_s1 o * k) by (unfold disk_s1, disk_s0; cbn; unfold Rdiv; ring). rewrite quotient. reflexivity. }
  rewrite DP. destruct (Req_EM_T _ 0); [exact I|]. destruct (Rlt_dec _ 0); [exact I|]. rewrite sigma_units. unfold UnitsSpec.gas. cbn [sigma vx vy]. set (r := sqrt (fst p * fst p + snd p * snd p)).
  replace (- (o_mdot o * k) / (disk_sigma o r * k * 2 * PI * r)) with (- o_mdot o / (disk_sigma o r * 2 * PI * r)); [reflexivity|]. rewrite <- (quotient (- o_mdot o)). f_equal; ring.
Qed.
Lemma block_units o xc : arel gas (disk_block o xc) (disk_block (heavier o) xc).
Proof. split; [reflexivity|]. intros i. cbn. apply rel_bind_eq. intros p. pose proof (profile_units o p) as H. destruct (disk_profile o p), (disk_profile (heavier o) p); try contradiction; constructor; exact H. Qed.
Lemma start_units n o : orel in_units (create_solution n o) (create_solution n (heavier o)).
Proof.
  unfold create_solution. change (vertices_of n (heavier o)) with (vertices_of n o). apply rel_bind_eq. intros v. apply (rel_bind (cells tup)).
  - apply rel_tmapM_eq. intros b. apply rel_bind_eq. intros xc. apply rel_forced. apply (rel_map gas tup); [|apply block_units]. intros x y ->. unfold UnitsSpec.tup, iso_conserved, v3_mul. cbn. f_equal; ring.
  - intros u u' U. apply (rel_bind (cells tup)).
    + apply rel_tmapM_eq. intros b. apply rel_bind_eq. intros xc. apply (rel_bind (arel tup)); [|intros a a' A; apply rel_forced, A]. apply (rel_zip_apply eq gas tup); [|apply arel_eq|apply block_units]. intros x _ P Q <- ->. unfold UnitsSpec.tup, iso_angmom, v3_mul. cbn. f_equal; ring.
    + intros q q' Q. cbv zeta. cbn [UnitsSpec.heavier o_conserve_linear_p]. constructor. constructor; cbn [time conserved_u conserved_q s_mass_accreted_on s_angular_momentum_accreted_on s_integrated_torque_on s_mass_ejected s_angular_momentum_ejected orbital_elements].
      * reflexivity.
      * destruct (truth _); [exact U|apply empty_cells].
      * destruct (truth _); [apply empty_cells|exact Q].
      * symmetry. unfold vec_mul, two_zero. cbn. f_equal; ring.
      * symmetry. unfold vec_mul, two_zero. cbn. f_equal; ring.
      * symmetry. unfold vec_mul, two_zero. cbn. f_equal; ring.
      * ring.
      * ring.
      * reflexivity.
Qed.
Lemma trel_eq_inv {A} : forall t u : tree A, trel eq t u -> t = u.
Proof.
  induction t as [a|cs IH] using tree_ind'; intros t' T; inversion T as [x y G|cs' ds G]; subst; [reflexivity|]. f_equal. clear T. induction G as [|c d cs ds G _ IG]; [reflexivity|]. inversion IH as [|? ? I1 I2]; subst. f_equal; [apply I1, G|apply IG, I2].
Qed.
Lemma data_units n o : orel (fun x y => fst y = floor_of (fst x) /\ fields_in_units (snd x) (snd y)) (create_solver_data n o) (create_solver_data n (heavier o)).
Proof.
  unfold create_solver_data. change (vertices_of n (heavier o)) with (vertices_of n o). apply rel_bind_eq. intros v. apply rel_bind_eq. intros xc. apply rel_bind_eq. intros dA. apply rel_bind_eq. intros dx. apply rel_bind_eq. intros dy.
  apply (rel_bind (trel eq)).
  { apply rel_tmapM_eq. intros c. unfold greatest. assert (W : arel eq (arr_map velocity_magnitude (disk_block o c)) (arr_map velocity_magnitude (disk_block (heavier o) c))) by (apply (rel_map gas eq); [|apply block_units]; intros x y ->; reflexivity). rewrite (proj1 W).
    apply rel_best; [reflexivity|intros x _ u _ <- <-; reflexivity|exact W]. }
  intros m m' HM. apply trel_eq_inv in HM as <-. change (buffer_rate (heavier o)) with (buffer_rate o). apply rel_bind_eq. intros br. apply (rel_bind in_units); [apply start_units|]. intros s s' S. cbv zeta. change (o_reconstruct_method (heavier o)) with (o_reconstruct_method o).
  destruct (_ || _)%bool; constructor. cbn [fst snd]. split.
  - unfold UnitsSpec.floor_of, with_floor. cbn. f_equal. ring.
  - constructor; cbn; try reflexivity; [apply (iu_u _ _ _ S)|apply (iu_q _ _ _ S)].
Qed.
End Units.
