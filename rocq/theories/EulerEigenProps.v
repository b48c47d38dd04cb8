(** C50: the characteristic decomposition of the Euler equations, and (C60) the Roe average. *)
From Coq Require Import List Reals Lra Lia Psatz.
From Coquelicot Require Import Coquelicot.
From Verif Require Import Base DimensionalModel MatrixModel HydroModel.
Import ListNotations.
Open Scope R_scope.

Notation mprod := (matrix_product 0 Rplus Rmult 5 5 5).
Notation ident5 := (identity_matrix 0 1 5).

Lemma eigen_facts P g : 0 < rho P -> 0 < pre P -> 1 < g ->
  let E := eigensystem P g in
  0 < ea E /\ ea2 E = ea E * ea E /\ 0 < em E /\ eg E = em E + 1 /\
  eV2 E = eu E * eu E + ev E * ev E + ew E * ew E /\ eH E = (eu E * eu E + ev E * ev E + ew E * ew E) / 2 + ea E * ea E / em E.
Proof.
  intros Hr Hp Hg E. assert (A : 0 < ea2 E) by (unfold E; simpl; unfold euler_sound_speed_squared; apply Rdiv_lt_0_compat; nra).
  assert (S2 : ea2 E = ea E * ea E) by (unfold E at 2 3; simpl; symmetry; apply sqrt_sqrt; left; exact A).
  split; [unfold E; simpl; apply sqrt_lt_R0; exact A|]. split; [exact S2|]. split; [unfold E; simpl; lra|]. split; [unfold E; simpl; ring|].
  split; [reflexivity|]. rewrite <- S2. unfold E. simpl. lra.
Qed.

Ltac entries := cbv [matrix_product identity_matrix diagonal_matrix scale build map seq fold_left nth elt length Nat.eqb
    left_eigenvectors right_eigenvectors flux_jacobian eigenvalues eigenvalue_list].

Section Decomposition.
Variables (P : prim) (g : R).
Hypothesis (Hrho : 0 < rho P) (Hp : 0 < pre P) (Hg : 1 < g).
Let E := eigensystem P g.

Lemma abstract_system (Q : eigen -> Prop) :
  (forall m u v w a, 0 < a -> 0 < m ->
     Q (Eigen (m + 1) m u v w (u * u + v * v + w * w) (a * a) a ((u * u + v * v + w * w) / 2 + a * a / m))) -> Q E.
Proof.
  intros H. destruct (eigen_facts P g Hrho Hp Hg) as (A & B & C & D & F & G). fold E in A, B, C, D, F, G. destruct E as [g' m u v w V2 a2 a HH]. simpl in *.
  subst g' V2 a2 HH. apply H; assumption.
Qed.
Ltac start := pattern E; apply abstract_system; intros m u v w a Ha Hm.
Ltac solve_entries := entries; cbn [eg em eu ev ew eV2 ea2 ea eH]; repeat match goal with |- cons _ _ = cons _ _ => apply (f_equal2 cons) end; try reflexivity; replace 0.5 with (/ 2) by lra; field; lra.

Theorem left_right_inverse : mprod (left_eigenvectors E) (right_eigenvectors E) = ident5 /\ mprod (right_eigenvectors E) (left_eigenvectors E) = ident5.
Proof. start. split; solve_entries. Qed.
Theorem jacobian_times_right : mprod (flux_jacobian E) (right_eigenvectors E) = mprod (right_eigenvectors E) (eigenvalues E).
Proof. start. solve_entries. Qed.
Theorem left_times_jacobian : mprod (left_eigenvectors E) (flux_jacobian E) = mprod (eigenvalues E) (left_eigenvectors E).
Proof. start. solve_entries. Qed.
Theorem jacobian_decomposition : mprod (mprod (right_eigenvectors E) (eigenvalues E)) (left_eigenvectors E) = flux_jacobian E.
Proof. start. solve_entries. Qed.
End Decomposition.

(** The flux along the first axis as a function of the conserved densities. *)
Definition flux_of (g : R) (U : v5) : v5 := euler_flux (euler_recover U g 0) (make_unit_vector 1 0 0) U.
Definition along (U dU : v5) (t : R) : v5 :=
  V5 (c0 U + t * c0 dU) (c1 U + t * c1 dU) (c2 U + t * c2 dU) (c3 U + t * c3 dU) (c4 U + t * c4 dU).
Definition comp (k : nat) (U : v5) : R := match k with 0 => c0 U | 1 => c1 U | 2 => c2 U | 3 => c3 U | _ => c4 U end%nat.
(** A row of a matrix times a vector. *)
Definition row_dot (M : list (list R)) (k : nat) (d : v5) : R :=
  elt 0 M k 0 * c0 d + elt 0 M k 1 * c1 d + elt 0 M k 2 * c2 d + elt 0 M k 3 * c3 d + elt 0 M k 4 * c4 d.

Lemma recover_pressure_no_floor U g : pre (euler_recover U g 0) = (c4 U - 0.5 * (c1 U * c1 U + c2 U * c2 U + c3 U * c3 U) / c0 U) * (g - 1).
Proof. unfold euler_recover. cbn [pre]. destruct (Rlt_dec 0 0); [lra|]. destruct (Rlt_dec _ 0); reflexivity. Qed.

(** The matrix called the flux Jacobian is the derivative of the flux with respect to the conserved densities,
    in every direction. *)
Theorem jacobian_is_derivative U dU g k : 0 < c0 U -> 1 < g -> (k < 5)%nat ->
  derivable_pt_lim (fun t => comp k (flux_of g (along U dU t))) 0 (row_dot (flux_jacobian (eigensystem (euler_recover U g 0) g)) k dU).
Proof.
  intros Hr Hg Hk. apply is_derive_Reals.
  assert (EXT : forall U', comp k (flux_of g U') =
    comp k (flux5 (c1 U' / c0 U' * 1 + c2 U' / c0 U' * 0 + c3 U' / c0 U' * 0) ((c4 U' - 0.5 * (c1 U' * c1 U' + c2 U' * c2 U' + c3 U' * c3 U') / c0 U') * (g - 1)) (make_unit_vector 1 0 0) U')).
  { intros U'. unfold flux_of, euler_flux. rewrite recover_pressure_no_floor. reflexivity. }
  apply (is_derive_ext (fun t => comp k (flux5 (c1 (along U dU t) / c0 (along U dU t) * 1 + c2 (along U dU t) / c0 (along U dU t) * 0 + c3 (along U dU t) / c0 (along U dU t) * 0)
    ((c4 (along U dU t) - 0.5 * (c1 (along U dU t) * c1 (along U dU t) + c2 (along U dU t) * c2 (along U dU t) + c3 (along U dU t) * c3 (along U dU t)) / c0 (along U dU t)) * (g - 1)) (make_unit_vector 1 0 0) (along U dU t)))).
  { intros t. symmetry. apply EXT. }
  assert (EJ : eigensystem (euler_recover U g 0) g = 
     let u := c1 U / c0 U in let v := c2 U / c0 U in let w := c3 U / c0 U in
     let a2 := g * ((c4 U - 0.5 * (c1 U * c1 U + c2 U * c2 U + c3 U * c3 U) / c0 U) * (g - 1)) / c0 U in
     Eigen g (g - 1) u v w (u * u + v * v + w * w) a2 (sqrt a2) (0.5 * (u * u + v * v + w * w) + a2 / (g - 1))).
  { unfold eigensystem, euler_sound_speed_squared. rewrite recover_pressure_no_floor. reflexivity. }
  rewrite EJ. cbv zeta. clear EJ EXT.
  destruct U as [r m1 m2 m3 e], dU as [dr dm1 dm2 dm3 de]. unfold along, flux5, make_unit_vector. cbn [c0 c1 c2 c3 c4 n1 n2 n3] in *.
  replace 0.5 with (/ 2) by lra.
  do 5 (destruct k as [|k]; [cbn [comp c0 c1 c2 c3 c4 row_dot elt nth flux_jacobian eg em eu ev ew eV2 ea2 eH]; auto_derive; [repeat split; lra|]; unfold row_dot; cbn [elt nth flux_jacobian eg em eu ev ew eV2 ea2 eH c0 c1 c2 c3 c4]; try (replace 0.5 with (/ 2) by lra); field; repeat split; lra|]).
  lia.
Qed.

(** C60: the Roe average.  [total_enthalpy] is (energy density plus pressure) over density. *)
Definition total_enthalpy (P : prim) (g : R) : R := (c4 (euler_conserved P g) + pre P) / rho P.
Definition v5sub (A B : v5) : v5 := V5 (c0 A - c0 B) (c1 A - c1 B) (c2 A - c2 B) (c3 A - c3 B) (c4 A - c4 B).

Theorem roe_average_symmetric Pl Pr : 0 < rho Pl -> 0 < rho Pr -> euler_roe_average Pl Pr = euler_roe_average Pr Pl.
Proof.
  intros Hl Hr. pose proof (sqrt_lt_R0 _ Hl). pose proof (sqrt_lt_R0 _ Hr). unfold euler_roe_average. f_equal; field; lra.
Qed.
Theorem roe_average_of_equal_states P : 0 < rho P -> euler_roe_average P P = P.
Proof.
  intros H. pose proof (sqrt_lt_R0 _ H). destruct P as [r a b c p]. unfold euler_roe_average. cbn [rho u1 u2 u3 pre] in *. f_equal; field; lra.
Qed.
Theorem roe_average_between Pl Pr (f : prim -> R) : 0 < rho Pl -> 0 < rho Pr -> In f [rho; u1; u2; u3; pre] ->
  Rmin (f Pl) (f Pr) <= f (euler_roe_average Pr Pl) <= Rmax (f Pl) (f Pr).
Proof.
  intros Hl Hr Hf. pose proof (sqrt_lt_R0 _ Hl) as KL. pose proof (sqrt_lt_R0 _ Hr) as KR.
  assert (E : f (euler_roe_average Pr Pl) = (f Pr * sqrt (rho Pr) + f Pl * sqrt (rho Pl)) / (sqrt (rho Pr) + sqrt (rho Pl))).
  { simpl in Hf. destruct Hf as [<-|[<-|[<-|[<-|[<-|[]]]]]]; reflexivity. }
  rewrite E. clear E Hf. revert KL KR. generalize (sqrt (rho Pl)) (sqrt (rho Pr)) (f Pl) (f Pr). intros k l a b Hk Hl'.
  pose proof (Rmin_l a b). pose proof (Rmin_r a b). pose proof (Rmax_l a b). pose proof (Rmax_r a b).
  split.
  - apply (Rmult_le_reg_r (l + k)); [lra|]. unfold Rdiv. rewrite Rmult_assoc, Rinv_l, Rmult_1_r by lra. nra.
  - apply (Rmult_le_reg_r (l + k)); [lra|]. unfold Rdiv. rewrite Rmult_assoc, Rinv_l, Rmult_1_r by lra. nra.
Qed.

(** The linearisation the comment promises, A(Q) (Ur - Ul) = F(Ur) - F(Ul), holds for mass and momentum; the
    energy row is off by the difference between the enthalpy of the averaged state and the averaged enthalpy. *)
Theorem roe_linearisation_defect Pl Pr g k : 0 < rho Pl -> 0 < rho Pr -> 1 < g -> (k < 5)%nat ->
  let Ul := euler_conserved Pl g in let Ur := euler_conserved Pr g in
  let n := make_unit_vector 1 0 0 in
  let Q := euler_roe_average Pr Pl in
  let H_roe := (total_enthalpy Pr g * sqrt (rho Pr) + total_enthalpy Pl g * sqrt (rho Pl)) / (sqrt (rho Pr) + sqrt (rho Pl)) in
  row_dot (flux_jacobian (eigensystem Q g)) k (v5sub Ur Ul) =
  comp k (v5sub (euler_flux Pr n Ur) (euler_flux Pl n Ul)) +
  (if Nat.eqb k 4 then (total_enthalpy Q g - H_roe) * (sqrt (rho Pl) * sqrt (rho Pr)) * (u1 Pr - u1 Pl) else 0).
Proof.
  intros Hl Hr Hg Hk Ul Ur n Q H_roe.
  assert (DQ : 0 < rho Q).
  { pose proof (roe_average_between Pl Pr rho Hl Hr ltac:(simpl; auto)) as [B _]. fold Q in B. assert (0 < Rmin (rho Pl) (rho Pr)) by (apply Rmin_glb_lt; assumption). lra. }
  assert (HQ : eH (eigensystem Q g) = total_enthalpy Q g).
  { unfold total_enthalpy, euler_conserved, eigensystem, euler_sound_speed_squared, velocity_squared. cbn [eH c4]. replace 0.5 with (/ 2) by lra. field. split; lra. }
  pose proof (sqrt_lt_R0 _ Hl) as KL. pose proof (sqrt_lt_R0 _ Hr) as KR.
  assert (SL : rho Pl = sqrt (rho Pl) * sqrt (rho Pl)) by (symmetry; apply sqrt_sqrt; lra). assert (SR : rho Pr = sqrt (rho Pr) * sqrt (rho Pr)) by (symmetry; apply sqrt_sqrt; lra).
  assert (U1 : u1 Q = (u1 Pr * sqrt (rho Pr) + u1 Pl * sqrt (rho Pl)) / (sqrt (rho Pr) + sqrt (rho Pl))) by reflexivity.
  assert (U2 : u2 Q = (u2 Pr * sqrt (rho Pr) + u2 Pl * sqrt (rho Pl)) / (sqrt (rho Pr) + sqrt (rho Pl))) by reflexivity.
  assert (U3 : u3 Q = (u3 Pr * sqrt (rho Pr) + u3 Pl * sqrt (rho Pl)) / (sqrt (rho Pr) + sqrt (rho Pl))) by reflexivity.
  assert (A2 : ea2 (eigensystem Q g) = (g - 1) * (total_enthalpy Q g - (u1 Q * u1 Q + u2 Q * u2 Q + u3 Q * u3 Q) / 2)).
  { rewrite <- HQ. unfold eigensystem. cbn [eH ea2]. replace 0.5 with (/ 2) by lra. field. lra. }
  unfold row_dot, flux_jacobian. rewrite HQ, A2.
  change (eg (eigensystem Q g)) with g. change (em (eigensystem Q g)) with (g - 1). change (eu (eigensystem Q g)) with (u1 Q).
  change (ev (eigensystem Q g)) with (u2 Q). change (ew (eigensystem Q g)) with (u3 Q). change (eV2 (eigensystem Q g)) with (u1 Q * u1 Q + u2 Q * u2 Q + u3 Q * u3 Q).
  generalize (total_enthalpy Q g). intros HH. rewrite U1, U2, U3. clear U1 U2 U3 HQ A2 DQ. clearbody Q.
  unfold H_roe, total_enthalpy, Ul, Ur, n, v5sub, euler_flux, flux5, euler_conserved, velocity_along, velocity_squared, project, make_unit_vector. cbn [c0 c1 c2 c3 c4 n1 n2 n3].
  clear H_roe Ul Ur n Hl Hr. revert SL SR KL KR. destruct Pl as [rl ul vl wl pl], Pr as [rr ur vr wr pr]. cbn [rho u1 u2 u3 pre].
  generalize (sqrt rl) (sqrt rr). intros kl kr -> -> HL HR. replace 0.5 with (/ 2) by lra.
  do 5 (destruct k as [|k]; [cbn [elt nth comp Nat.eqb c0 c1 c2 c3 c4]; replace 0.5 with (/ 2) by lra; field; repeat split; lra|]).
  lia.
Qed.
(** Hence the promised identity holds whenever the velocities along the axis agree (as in the unit test), and
    fails in general. *)
Theorem roe_linearisation_equal_velocities Pl Pr g k : 0 < rho Pl -> 0 < rho Pr -> 1 < g -> (k < 5)%nat -> u1 Pl = u1 Pr ->
  row_dot (flux_jacobian (eigensystem (euler_roe_average Pr Pl) g)) k (v5sub (euler_conserved Pr g) (euler_conserved Pl g)) =
  comp k (v5sub (euler_flux Pr (make_unit_vector 1 0 0) (euler_conserved Pr g)) (euler_flux Pl (make_unit_vector 1 0 0) (euler_conserved Pl g))).
Proof.
  intros Hl Hr Hg Hk HU. rewrite (roe_linearisation_defect Pl Pr g k Hl Hr Hg Hk), HU. destruct (Nat.eqb k 4); ring.
Qed.
Theorem roe_linearisation_refuted : exists Pl Pr g, 0 < rho Pl /\ 0 < pre Pl /\ 0 < rho Pr /\ 0 < pre Pr /\ 1 < g /\
  row_dot (flux_jacobian (eigensystem (euler_roe_average Pr Pl) g)) 4 (v5sub (euler_conserved Pr g) (euler_conserved Pl g)) <>
  comp 4 (v5sub (euler_flux Pr (make_unit_vector 1 0 0) (euler_conserved Pr g)) (euler_flux Pl (make_unit_vector 1 0 0) (euler_conserved Pl g))).
Proof.
  exists (Prim 1 0 0 0 1), (Prim 1 1 0 0 1), 2. repeat split; try (simpl; lra).
  rewrite (roe_linearisation_defect (Prim 1 0 0 0 1) (Prim 1 1 0 0 1) 2 4) by (simpl; lra || lia).
  match goal with |- ?X + ?d <> ?X => assert (D : d <> 0); [|intros Q; apply D; lra] end.
  unfold total_enthalpy, euler_roe_average, euler_conserved, velocity_squared. cbn [rho u1 u2 u3 pre c4 Nat.eqb]. rewrite sqrt_1. lra.
Qed.

Example eigen_example :
  let P := Prim (5/3) 1 0 2 1 in let E := eigensystem P (5/3) in
  ea E = 1 /\ elt 0 (flux_jacobian E) 1 0 = 2/3 /\ elt 0 (left_eigenvectors E) 0 4 = 1/3 /\ eigenvalue_list E = [0; 1; 1; 1; 2].
Proof.
  assert (A : ea (eigensystem (Prim (5/3) 1 0 2 1) (5/3)) = 1).
  { simpl. unfold euler_sound_speed_squared. simpl. replace (5 / 3 * 1 / (5 / 3)) with 1 by lra. apply sqrt_1. }
  cbv zeta. split; [exact A|]. split; [|split].
  - unfold flux_jacobian. cbn [elt nth eigensystem eg em eu ev ew eV2 ea2 eH]. unfold euler_sound_speed_squared. simpl. lra.
  - unfold left_eigenvectors. cbv [scale build map seq elt nth]. cbn [eigensystem em ea2]. unfold euler_sound_speed_squared. simpl. lra.
  - unfold eigenvalue_list. rewrite A. cbn [eigensystem eu u1]. repeat (apply (f_equal2 cons); [lra|]). reflexivity.
Qed.

Print Assumptions left_right_inverse.
Print Assumptions jacobian_times_right.
Print Assumptions left_times_jacobian.
Print Assumptions jacobian_decomposition.
Print Assumptions jacobian_is_derivative.
Print Assumptions roe_average_symmetric.
Print Assumptions roe_average_of_equal_states.
Print Assumptions roe_average_between.
Print Assumptions roe_linearisation_defect.
Print Assumptions roe_linearisation_equal_velocities.
Print Assumptions roe_linearisation_refuted.
