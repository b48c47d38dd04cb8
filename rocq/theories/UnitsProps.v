(** C125: the mass of the disk is a matter of units as long as the binary is not live. *)
From Coq Require Import ZArith Reals Lra List Bool Lia String.
From Verif Require Import Base TreeModel BalanceModel NdModel NdOpsModel MeshModel MeshSpec TwoBodyModel HydroModel StepSpec SourceModel SolutionModel SolutionSpec SolutionProofs BinarySetupModel RelProofs UnitsSpec UnitsProofs SolutionExample UnitsExample BinarySetupProps.
Import ListNotations.
Open Scope R_scope.

(** Such a run is a run of the program. *)
Theorem first_attempts_are_steps sd fd fuel : forall n s r, first_attempts sd fd fuel n s r -> steps sd fd fuel n s = Ok r.
Proof.
  intros n s r H. induction H as [s _|n s dt s1 r _ L E _ IH]; [reflexivity|]. cbn [steps]. unfold next_solution. unfold step_length in L. rewrite L. cbn [bind]. rewrite E. exact IH.
Qed.

(** Two disks, the one k times the other at the start, make steps of the same length and stay k times each other: the densities and
    momenta of every cell, the masses, angular momenta and torques booked, and what has left through the buffer; the binary is the
    same. *)
Theorem disk_run_units k sd fd fd' fuel : 0 < k -> fields_in_units k fd fd' ->
  forall n s s' r r', in_units k s s' -> first_attempts sd fd fuel n s r -> first_attempts (floor_of k sd) fd' fuel n s' r' -> in_units k r r'.
Proof.
  intros Hk F n. induction n as [|n IH]; intros s s' r r' H R R'; inversion R as [z L|n0 s0 dt s1 r0 L D E R1]; subst; inversion R' as [z' L'|n0' s0' dt' s1' r0' L' D' E' R1']; subst; [exact H|].
  assert (X : step_length (floor_of k sd) fd' fuel s' = step_length sd fd fuel s) by (unfold step_length; change (fixed_dt (floor_of k sd)) with (fixed_dt sd); change (cfl_number (floor_of k sd)) with (cfl_number sd); rewrite (time_step_units k Hk sd fd fd' fuel s s' F H); reflexivity).
  rewrite X, D in D'. injection D' as <-. refine (IH _ _ _ _ _ R1 R1'). refine (can_fail_units k Hk sd fd fd' fuel s s' dt false s1 s1' F H L _ E E'). inversion R1; assumption.
Qed.

(** The time step the program chooses knows nothing of the factor. *)
Theorem disk_time_step_units k sd fd fd' fuel s s' : 0 < k -> fields_in_units k fd fd' -> in_units k s s' -> maximum_timestep (floor_of k sd) fd' fuel s' = maximum_timestep sd fd fuel s.
Proof. intros Hk F H. apply time_step_units; assumption. Qed.

(** The mass and the angular momentum of the disk, as the time series records them. *)
Theorem disk_totals_units k sd fd fd' s s' : fields_in_units k fd fd' -> in_units k s s' ->
  (forall m, disk_mass sd fd s = Ok m -> disk_mass (floor_of k sd) fd' s' = Ok (m * k)) /\ (forall l, disk_angular_momentum sd fd s = Ok l -> disk_angular_momentum (floor_of k sd) fd' s' = Ok (l * k)).
Proof.
  intros F H. split; intros x E.
  - pose proof (rel_disk_mass k sd fd fd' s s' F H) as X. rewrite E in X. inversion X as [a b G| | |]; subst. rewrite G. reflexivity.
  - pose proof (rel_disk_angmom k sd fd fd' s s' F H) as X. rewrite E in X. inversion X as [a b G| | |]; subst. rewrite G. reflexivity.
Qed.

(** The options: with disk_mass and mdot k times as large the program starts if it did, from a disk k times as heavy. *)
Theorem disk_start_units k n o : 0 < k ->
  (forall sd fd, create_solver_data n o = Ok (sd, fd) -> exists fd', create_solver_data n (heavier k o) = Ok (floor_of k sd, fd') /\ fields_in_units k fd fd') /\
  (forall s, create_solution n o = Ok s -> exists s', create_solution n (heavier k o) = Ok s' /\ in_units k s s').
Proof.
  intros Hk. split.
  - intros sd fd E. pose proof (data_units k Hk n o) as X. rewrite E in X. inversion X as [a [sd' fd'] [G1 G2]| | |]; subst. cbn [fst snd] in *. subst sd'. exists fd'. split; [reflexivity|exact G2].
  - intros s E. pose proof (start_units k Hk n o) as X. rewrite E in X. inversion X as [a b G| | |]; subst. exists b. split; [reflexivity|exact G].
Qed.

(** From the options to the end: what a run with k times the disk mass records is k times what the other run records. *)
Theorem disk_mass_is_a_unit k m o sd fd sd' fd' s s' fuel n r r' : 0 < k -> create_solver_data m o = Ok (sd, fd) -> create_solver_data m (heavier k o) = Ok (sd', fd') -> create_solution m o = Ok s -> create_solution m (heavier k o) = Ok s' ->
  first_attempts sd fd fuel n s r -> first_attempts sd' fd' fuel n s' r' ->
  time r' = time r /\ orbital_elements r' = orbital_elements r /\ s_mass_accreted_on r' = (fst (s_mass_accreted_on r) * k, snd (s_mass_accreted_on r) * k) /\ s_integrated_torque_on r' = (fst (s_integrated_torque_on r) * k, snd (s_integrated_torque_on r) * k) /\
  s_mass_ejected r' = s_mass_ejected r * k /\ (forall x, disk_mass sd fd r = Ok x -> disk_mass sd' fd' r' = Ok (x * k)) /\ (forall x, disk_angular_momentum sd fd r = Ok x -> disk_angular_momentum sd' fd' r' = Ok (x * k)).
Proof.
  intros Hk E1 E1' E2 E2' R R'. destruct (disk_start_units k m o Hk) as [A B]. destruct (A _ _ E1) as (f & EF & F). rewrite EF in E1'. injection E1' as <- <-. destruct (B _ E2) as (z & EZ & Z). rewrite EZ in E2'. injection E2' as <-.
  pose proof (disk_run_units k sd fd f fuel Hk F n s z r r' Z R R') as H. destruct (disk_totals_units k sd fd f r r' F H) as [M J]. destruct H. repeat split; auto.
Qed.

(** Beside disk_run_units: the step of SolutionExample.v with half the gas.  Each body takes in half of ex_intake. *)
Example half_the_gas lin : exists fd fd' r r', fields_in_units (1 / 2) fd fd' /\ in_units (1 / 2) (ex_state lin) (hx_state lin) /\ first_attempts (ex_sd lin) fd 2 1 (ex_state lin) r /\ first_attempts (floor_of (1 / 2) (ex_sd lin)) fd' 2 1 (hx_state lin) r' /\
  s_mass_accreted_on r = (ex_intake, ex_intake) /\ s_mass_accreted_on r' = (ex_intake / 2, ex_intake / 2).
Proof.
  destruct (ex_run_full lin) as (v & c & a & r & HS & _ & _ & M & T & E). destruct (hx_run lin v c a HS) as (r' & _ & M' & T' & E').
  assert (G : arel (tup (1 / 2)) ex_gas hx_gas) by (split; [reflexivity|]; intros i; constructor; unfold tup, v3_mul; cbn; f_equal; field).
  assert (N : trel (arel (tup (1 / 2))) empty_tree empty_tree) by (constructor; split; [reflexivity|]; intros i; constructor).
  assert (SD : floor_of (1 / 2) (ex_sd lin) = ex_sd lin) by (unfold floor_of, with_floor; cbn; unfold ex_sd; f_equal; ring).
  exists (ex_fields (Leaf v) (Leaf c) (Leaf a)), (hx_fields (Leaf v) (Leaf c) (Leaf a)), r, r'. split; [constructor; cbn; try reflexivity; constructor; exact G|]. split; [|split; [|split; [|split; assumption]]].
  - constructor; cbn; try reflexivity; try (destruct lin; [constructor; exact G|exact N]); try (destruct lin; [exact N|constructor; exact G]); try (unfold vec_mul; cbn; f_equal; ring); ring.
  - apply (an_attempt _ _ _ 0%nat _ (1 / 2) r); [cbn; lra|reflexivity|exact E|]. constructor. rewrite T. cbn. lra.
  - rewrite SD. apply (an_attempt _ _ _ 0%nat _ (1 / 2) r'); [cbn; lra|reflexivity|exact E'|]. constructor. rewrite T'. cbn. lra.
Qed.

(** Beside disk_start_units: the default options with a disk a thousand times as heavy, of mass 1. *)
Example heavy_disk_starts fuel : (4 ^ 4 < fuel)%nat -> exists sd fd s s' fd', create_solution fuel default_options = Ok s /\ create_solution fuel (heavier 1000 default_options) = Ok s' /\ create_solver_data fuel (heavier 1000 default_options) = Ok (floor_of 1000 sd, fd') /\
  fields_in_units 1000 fd fd' /\ in_units 1000 s s' /\ o_disk_mass (heavier 1000 default_options) = 1.
Proof.
  intros HF. destruct (default_starts fuel HF) as (sd & fd & s & E1 & E2 & _). destruct (disk_start_units 1000 fuel default_options ltac:(lra)) as [A B]. destruct (A _ _ E1) as (fd' & E1' & F). destruct (B _ E2) as (s' & E2' & H).
  exists sd, fd, s, s', fd'. repeat (split; [assumption|]). cbn. lra.
Qed.

Print Assumptions first_attempts_are_steps.
Print Assumptions disk_run_units.
Print Assumptions disk_time_step_units.
Print Assumptions disk_totals_units.
Print Assumptions disk_start_units.
Print Assumptions disk_mass_is_a_unit.
