(** C46 and C47: units of powers; direction vectors. *)
From Coq Require Import List ZArith Reals Lra Lia Psatz.
From Verif Require Import Base DimensionalModel.
Open Scope Z_scope.

Definition is_int (z : Z) : Prop := -2147483648 <= z <= 2147483647.
Lemma as_int_spec z r : as_int z = Some r <-> r = z /\ is_int z.
Proof.
  unfold as_int, is_int. destruct (in_int z) eqn:E.
  - apply in_int_spec in E. split; [intros H; injection H; intros; subst; split; [reflexivity|exact E]|intros [-> _]; reflexivity].
  - split; [discriminate|]. intros [-> H]. apply in_int_spec in H. congruence.
Qed.

(** The exponents of one unit, when the code compiles. *)
Definition right_exponent (C N D r : Z) : Prop := r * D = C * N.

Lemma pow_exponent_ok C N D r : 0 <= D -> pow_exponent C N D = Some r -> (right_exponent C N D r <-> 0 <= C * N).
Proof.
  unfold pow_exponent, right_exponent. intros HD H. destruct (as_int (C * N)) as [p|] eqn:E; [|discriminate].
  apply as_int_spec in E as [-> I]. destruct (Z.eqb_spec D 0); [discriminate|].
  destruct (Z.eqb_spec (to_unsigned (C * N) mod D) 0) as [M|]; [|discriminate]. apply as_int_spec in H as [-> R].
  assert (DIV : to_unsigned (C * N) / D * D = to_unsigned (C * N)) by (pose proof (Z.div_mod (to_unsigned (C * N)) D n); lia).
  rewrite DIV. unfold to_unsigned. unfold is_int in I. split; intros H.
  - rewrite <- H. apply Z.mod_pos_bound. lia.
  - apply Z.mod_small. lia.
Qed.

(** Every power the compiler accepts carries the right units exactly when no exponent of the result is
    meant to be negative. *)
Theorem pow_units_right_iff d N D r : 0 <= D -> pow_dims d N D = Some r ->
  ((right_exponent (fst (fst d)) N D (fst (fst r)) /\ right_exponent (snd (fst d)) N D (snd (fst r)) /\ right_exponent (snd d) N D (snd r)) <->
   (0 <= fst (fst d) * N /\ 0 <= snd (fst d) * N /\ 0 <= snd d * N)).
Proof.
  destruct d as [[C G] T], r as [[c g] s]. intros HD H. unfold pow_dims in H.
  destruct (pow_exponent C N D) as [c'|] eqn:EC; [|discriminate]. destruct (pow_exponent G N D) as [g'|] eqn:EG; [|discriminate].
  destruct (pow_exponent T N D) as [s'|] eqn:ES; [|discriminate]. injection H; intros; subst. simpl.
  rewrite (pow_exponent_ok _ _ _ _ HD EC), (pow_exponent_ok _ _ _ _ HD EG), (pow_exponent_ok _ _ _ _ HD ES). tauto.
Qed.
(** Without negative exponents the check is exact: an integral result that fits is accepted. *)
Theorem pow_accepts_integral_results C N D : 0 < D < 2 ^ 32 -> 0 <= C * N -> is_int (C * N) ->
  (exists r, pow_exponent C N D = Some r) <-> (D | C * N).
Proof.
  intros HD H0 HI. unfold pow_exponent. rewrite (proj2 (as_int_spec (C * N) (C * N)) (conj eq_refl HI)).
  assert (U : to_unsigned (C * N) = C * N) by (unfold to_unsigned, is_int in *; apply Z.mod_small; lia). rewrite U.
  destruct (Z.eqb_spec D 0); [lia|]. destruct (Z.eqb_spec ((C * N) mod D) 0) as [M|M].
  - split; [intros _; apply Z.mod_divide; assumption|]. intros _. exists (C * N / D). apply as_int_spec. split; [reflexivity|]. unfold is_int in *.
    assert (0 <= C * N / D) by (apply Z.div_pos; lia). assert (C * N / D <= C * N) by (apply Z.div_le_upper_bound; nia). lia.
  - split; [intros [r R]; discriminate|]. intros DV. apply Z.mod_divide in DV; [contradiction|assumption].
Qed.
(** With D = 1 (the default) a negative exponent never compiles: velocities have no square. *)
Theorem integer_powers_of_negative_units_rejected C N : C * N < 0 -> pow_exponent C N 1 = None.
Proof.
  intros H. unfold pow_exponent. destruct (as_int (C * N)) as [p|] eqn:E; [|reflexivity]. apply as_int_spec in E as [-> I]. unfold is_int in I.
  destruct (Z.eqb_spec 1 0); [lia|]. rewrite Z.mod_1_r. simpl. rewrite Z.div_1_r.
  destruct (as_int (to_unsigned (C * N))) as [r|] eqn:E; [|reflexivity]. apply as_int_spec in E as [_ J]. unfold is_int, to_unsigned in J.
  assert (C * N mod 2 ^ 32 = C * N + 2 ^ 32) by (symmetry; apply (Z.mod_unique _ _ (-1)); lia). lia.
Qed.
(** The claim fails where negative exponents are halved: the square root of one over an area has length
    exponent 2147483647 instead of -1. *)
Theorem pow_units_refuted : exists d N D r, 0 < D /\ pow_dims d N D = Some r /\ ~ right_exponent (fst (fst d)) N D (fst (fst r)).
Proof. exists (-2, 0, 0), 1, 2, (2147483647, 0, 0). split; [lia|]. split; [vm_compute; reflexivity|]. unfold right_exponent. simpl. lia. Qed.
(** Products and ratios add and subtract exponents, and undo each other. *)
Theorem product_units d e r : mul_dims d e = Some r ->
  fst (fst r) = fst (fst d) + fst (fst e) /\ snd (fst r) = snd (fst d) + snd (fst e) /\ snd r = snd d + snd e.
Proof.
  destruct d as [[C G] T], e as [[C1 G1] T1], r as [[c g] s]. unfold mul_dims. intros H.
  destruct (as_int (C + C1)) as [x|] eqn:E1; [|discriminate]. destruct (as_int (G + G1)) as [y|] eqn:E2; [|discriminate]. destruct (as_int (T + T1)) as [z|] eqn:E3; [|discriminate].
  apply as_int_spec in E1 as [-> _]. apply as_int_spec in E2 as [-> _]. apply as_int_spec in E3 as [-> _]. injection H; intros; subst. simpl. auto.
Qed.
Theorem ratio_undoes_product d e r : is_int (fst (fst d)) /\ is_int (snd (fst d)) /\ is_int (snd d) -> mul_dims d e = Some r -> div_dims r e = Some d.
Proof.
  intros (I1 & I2 & I3) H. apply product_units in H. destruct d as [[C G] T], e as [[C1 G1] T1], r as [[c g] s]. simpl in *. destruct H as (-> & -> & ->).
  unfold div_dims. rewrite !Z.add_simpl_r.
  rewrite (proj2 (as_int_spec C C) (conj eq_refl I1)), (proj2 (as_int_spec G G) (conj eq_refl I2)), (proj2 (as_int_spec T T) (conj eq_refl I3)). reflexivity.
Qed.

Example dims_example :
  pow_dims (4, 2, 0) 3 2 = Some (6, 3, 0) /\ pow_dims (1, 0, -1) 2 1 = None /\ pow_dims (2, 0, -2) 1 2 = Some (1, 0, 2147483647) /\
  pow_dims (3, 0, 0) 1 2 = None /\ mul_dims (1, 0, -1) (0, 1, 0) = Some (1, 1, -1) /\ div_dims (1, 0, 0) (0, 0, 1) = Some (1, 0, -1).
Proof. vm_compute. repeat split; reflexivity. Qed.

Open Scope R_scope.
Definition norm2 (n : unit_vector) : R := n1 n * n1 n + n2 n * n2 n + n3 n * n3 n.

(** A constructed direction is normalised exactly when the components already were. *)
Theorem unit_vector_normalised_iff a b c : norm2 (make_unit_vector a b c) = 1 <-> a * a + b * b + c * c = 1.
Proof. unfold norm2, make_unit_vector. simpl. tauto. Qed.
Theorem unit_vector_normalised_refuted : exists a b c, a * a + b * b + c * c <> 0 /\ norm2 (make_unit_vector a b c) <> 1.
Proof. exists 3, 4, 0. unfold norm2, make_unit_vector. simpl. split; lra. Qed.
(** The directions the programs use: on an axis, they are normalised, mutually orthogonal, and projecting
    picks the component. *)
Theorem axis_vectors_orthonormal i j ni nj : on_axis i = Ok ni -> on_axis j = Ok nj ->
  n1 ni * n1 nj + n2 ni * n2 nj + n3 ni * n3 nj = (if Nat.eqb i j then 1 else 0).
Proof.
  intros Hi Hj. destruct i as [|[|[|i]]], j as [|[|[|j]]]; simpl in *; try discriminate; injection Hi as <-; injection Hj as <-; simpl; ring.
Qed.
Theorem axis_projection i n v : on_axis i = Ok n -> Ok (project n (v 0%nat) (v 1%nat) (v 2%nat)) = Ok (v i) /\ component n i = Ok 1.
Proof.
  intros H. destruct i as [|[|[|i]]]; simpl in *; try discriminate; injection H as <-; unfold project, component; simpl; (split; [f_equal; ring|reflexivity]).
Qed.
Theorem axis_out_of_range i : (3 <= i)%nat -> on_axis i = Throw InvalidArgument /\ forall n, component n i = Throw InvalidArgument.
Proof. intros H. destruct i as [|[|[|i]]]; try lia. split; reflexivity. Qed.
Theorem default_direction : norm2 default_unit_vector = 1 /\ on_axis 0 = Ok default_unit_vector.
Proof. split; [unfold norm2; simpl; ring|reflexivity]. Qed.

Example direction_example : project (make_unit_vector 3 4 0) 1 1 1 = 7 /\ norm2 (make_unit_vector (3/5) (4/5) 0) = 1.
Proof. unfold project, norm2, make_unit_vector. simpl. split; lra. Qed.

Print Assumptions pow_units_right_iff.
Print Assumptions pow_accepts_integral_results.
Print Assumptions integer_powers_of_negative_units_rejected.
Print Assumptions pow_units_refuted.
Print Assumptions product_units.
Print Assumptions ratio_undoes_product.
Print Assumptions unit_vector_normalised_iff.
Print Assumptions unit_vector_normalised_refuted.
Print Assumptions axis_vectors_orthonormal.
Print Assumptions axis_projection.
Print Assumptions axis_out_of_range.
Print Assumptions default_direction.
