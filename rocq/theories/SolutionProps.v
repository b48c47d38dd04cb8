(** Budgets of a run of the binary program: angular momentum, mass, densities, accretion, time; the time step; diagnostics. *)
From Coq Require Import ZArith Reals Lra List Arith Bool Lia.
From Verif Require Import Base TreeModel TreeSpec BalanceModel NdModel NdSpec FluxSpec MeshModel GeometryProps StepSpec TwoBodyModel HydroModel SourceModel SolutionModel SolutionSpec SourceProofs SolutionProofs SolutionProofs2 SolutionProofs3 SolutionProofs4 SolutionProofs5.
From Verif Require Import TreeProofs FluxTreeProofs FluxProofs TreeProofs3 FluxProofs3 FluxProofs4 MeshSpec MeshProps StepProofs StepProofs3 ProlongProofs SolutionExample.
Import ListNotations.
Open Scope Z_scope.

(** Every state of a run is again one a run can be in; in particular no density is ever negative. *)
Theorem run_keeps_valid N d predicate fuel sd fd : setup N d predicate fuel sd fd -> forall n s s', valid N sd fd s -> steps sd fd fuel n s = Ok s' -> valid N sd fd s'.
Proof.
  intros HS n. induction n as [|n IH]; intros s s' V E; cbn [steps] in E; [injection E as <-; exact V|].
  destruct (next_solution sd fd fuel s) as [s1| | |] eqn:E1; cbn [bind] in E; try discriminate.
  destruct (stepped_next N d predicate fuel sd fd HS s s1 V E1) as (dt & _ & [H|H]); destruct H; eapply IH; eassumption.
Qed.

(** One step of 1/2 on a block of 2 x 2 cells with gas of density 1 at rest around an equal-mass circular binary, in both
    schemes (SolutionExample.v): the run exists and each body takes in the same mass. *)
Example run_keeps_valid_example lin : exists fd s1, setup 2 0 ex_none 2 (ex_sd lin) fd /\ steps (ex_sd lin) fd 2 1 (ex_state lin) = Ok s1 /\
  valid 2 (ex_sd lin) fd s1 /\ s_mass_accreted_on s1 = (ex_intake, ex_intake) /\ (0 < ex_intake)%R /\ time s1 = (1 / 2)%R.
Proof.
  destruct (ex_run lin) as (fd & s1 & HS & V & E & M & T). exists fd, s1. pose proof ex_intake_small. repeat (split; [assumption|]). split; [exact (run_keeps_valid _ _ _ _ _ _ HS 1 _ _ V E)|]. split; [exact M|]. split; [lra|exact T].
Qed.

(** In the angular momentum conserving scheme the angular momentum of the disk and that booked as accreted, passed on by
    gravity and taken by the buffer add up to the same number throughout a run: any mesh, either order of time stepping,
    any physical parameters, through failed steps and their repetition. *)
Theorem angular_momentum_run N d predicate fuel sd fd : setup N d predicate fuel sd fd -> conserve_linear_p sd = false -> forall n s s',
  valid N sd fd s -> steps sd fd fuel n s = Ok s' -> angular_momentum_ledger N fd s' = angular_momentum_ledger N fd s.
Proof.
  intros HS HQ n. induction n as [|n IH]; intros s s' V E; cbn [steps] in E; [injection E as <-; reflexivity|].
  destruct (next_solution sd fd fuel s) as [s1| | |] eqn:E1; cbn [bind] in E; try discriminate.
  destruct (stepped_next N d predicate fuel sd fd HS s s1 V E1) as (dt & _ & [H|H]); destruct H as [V1 _ L _ _ _]; rewrite (IH s1 s' V1 E), (L HQ); reflexivity.
Qed.

(** In the example nothing rotates: the total is and stays zero. *)
Example angular_momentum_run_example : exists fd s1, steps (ex_sd false) fd 2 1 (ex_state false) = Ok s1 /\ s_mass_accreted_on s1 = (ex_intake, ex_intake) /\ angular_momentum_ledger 2 fd s1 = 0%R.
Proof.
  destruct (ex_run false) as (fd & s1 & HS & V & E & M & T). exists fd, s1. split; [exact E|]. split; [exact M|]. rewrite (angular_momentum_run _ _ _ _ _ _ HS eq_refl 1 _ _ V E).
  pose proof (ex_held false fd d2 HS (proj1 V)) as H. unfold conserved in H. cbn [ex_sd conserve_linear_p] in H. unfold angular_momentum_ledger. rewrite H. unfold both. cbn. lra.
Qed.

(** The same for mass in either scheme, when the sound speed depends on the radius alone and no density floor is set. *)
Theorem mass_run N d predicate fuel sd fd : setup N d predicate fuel sd fd -> axisymmetric_cs2 sd = true -> (conserve_linear_p sd = true -> (density_floor sd <= 0)%R) -> forall n s s',
  valid N sd fd s -> steps sd fd fuel n s = Ok s' -> mass_ledger N sd fd s' = mass_ledger N sd fd s.
Proof.
  intros HS HA HF n. induction n as [|n IH]; intros s s' V E; cbn [steps] in E; [injection E as <-; reflexivity|].
  destruct (next_solution sd fd fuel s) as [s1| | |] eqn:E1; cbn [bind] in E; try discriminate.
  destruct (stepped_next N d predicate fuel sd fd HS s s1 V E1) as (dt & _ & [H|H]); destruct H as [V1 _ _ M _ _]; rewrite (IH s1 s' V1 E), (M HA HF); reflexivity.
Qed.
(** In the example the disk holds mass 4 at first. *)
Example mass_run_example lin : exists fd s1, steps (ex_sd lin) fd 2 1 (ex_state lin) = Ok s1 /\ mass_ledger 2 (ex_sd lin) fd (ex_state lin) = 4%R /\
  (held d0 2 (conserved (ex_sd lin) s1) (cell_areas fd) + s_mass_ejected s1 = 4 - 2 * ex_intake)%R.
Proof.
  destruct (ex_run lin) as (fd & s1 & HS & V & E & M & T). exists fd, s1. split; [exact E|]. assert (L : mass_ledger 2 (ex_sd lin) fd (ex_state lin) = 4%R).
  { unfold mass_ledger. rewrite (ex_held lin fd d0 HS (proj1 V)). unfold both. cbn. lra. }
  split; [exact L|]. pose proof (mass_run _ _ _ _ _ _ HS eq_refl ltac:(cbn; lra) 1 _ _ V E) as H. rewrite L in H. unfold mass_ledger, both in H. rewrite M in H. cbn [fst snd] in H. lra.
Qed.

(** With a floor the total never falls. *)
Theorem mass_run_floor N d predicate fuel sd fd : setup N d predicate fuel sd fd -> axisymmetric_cs2 sd = true -> forall n s s',
  valid N sd fd s -> steps sd fd fuel n s = Ok s' -> (mass_ledger N sd fd s <= mass_ledger N sd fd s')%R.
Proof.
  intros HS HA n. induction n as [|n IH]; intros s s' V E; cbn [steps] in E; [injection E as <-; lra|].
  destruct (next_solution sd fd fuel s) as [s1| | |] eqn:E1; cbn [bind] in E; try discriminate.
  destruct (stepped_next N d predicate fuel sd fd HS s s1 V E1) as (dt & _ & [H|H]); destruct H as [V1 _ _ _ M _]; specialize (IH s1 s' V1 E); specialize (M HA); lra.
Qed.

(** Each body's booked mass only grows, and time only advances: by n steps of the fixed size at most and a tenth of that
    at least. *)
Lemma chosen_nonneg N d predicate fuel sd fd s dt : setup N d predicate fuel sd fd -> valid N sd fd s -> (0 <= recommended_time_step sd)%R -> (0 <= cfl_number sd)%R ->
  (conserve_linear_p sd = true \/ fixed_dt sd = true) -> chosen_dt fuel sd fd s = Ok dt -> (0 <= dt)%R.
Proof.
  intros HS V Hr Hc HQ E. unfold chosen_dt in E. destruct (fixed_dt sd); [injection E as <-; exact Hr|]. destruct HQ as [HQ|HQ]; [|discriminate].
  destruct (maximum_timestep sd fd fuel s) as [m| | |] eqn:Em; cbn [bind] in E; try discriminate. injection E as <-. apply Rmult_le_pos; [exact Hc|]. exact (timestep_sign N d predicate fuel sd fd HS s m HQ V Em).
Qed.
Theorem accretion_run N d predicate fuel sd fd : setup N d predicate fuel sd fd -> (0 <= sink_rate sd)%R -> (0 <= recommended_time_step sd)%R -> (0 <= cfl_number sd)%R ->
  (conserve_linear_p sd = true \/ fixed_dt sd = true) -> forall n s s', valid N sd fd s -> steps sd fd fuel n s = Ok s' ->
  (fst (s_mass_accreted_on s) <= fst (s_mass_accreted_on s') /\ snd (s_mass_accreted_on s) <= snd (s_mass_accreted_on s') /\ time s <= time s')%R.
Proof.
  intros HS Hk Hr Hc HQ n. induction n as [|n IH]; intros s s' V E; cbn [steps] in E; [injection E as <-; lra|].
  destruct (next_solution sd fd fuel s) as [s1| | |] eqn:E1; cbn [bind] in E; try discriminate.
  destruct (stepped_next N d predicate fuel sd fd HS s s1 V E1) as (dt & Ed & H). pose proof (chosen_nonneg N d predicate fuel sd fd s dt HS V Hr Hc HQ Ed) as Hd.
  destruct H as [H|H]; destruct H as [V1 T _ _ _ A]; specialize (IH s1 s' V1 E); specialize (A Hk ltac:(lra)); lra.
Qed.
Theorem time_run N d predicate fuel sd fd : setup N d predicate fuel sd fd -> fixed_dt sd = true -> (0 <= recommended_time_step sd)%R -> forall n s s', valid N sd fd s -> steps sd fd fuel n s = Ok s' ->
  (INR n * (recommended_time_step sd / 10) <= time s' - time s <= INR n * recommended_time_step sd)%R.
Proof.
  intros HS HF Hr n. induction n as [|n IH]; intros s s' V E; cbn [steps] in E; [injection E as <-; cbn [INR]; lra|].
  destruct (next_solution sd fd fuel s) as [s1| | |] eqn:E1; cbn [bind] in E; try discriminate.
  destruct (stepped_next N d predicate fuel sd fd HS s s1 V E1) as (dt & Ed & H). unfold chosen_dt in Ed. rewrite HF in Ed. injection Ed as <-.
  rewrite S_INR. destruct H as [H|H]; destruct H as [V1 T _ _ _ _]; specialize (IH s1 s' V1 E); lra.
Qed.

Example accretion_run_example lin : exists fd s1, steps (ex_sd lin) fd 2 1 (ex_state lin) = Ok s1 /\ (0 < fst (s_mass_accreted_on s1))%R /\ (1 / 20 <= time s1 - time (ex_state lin) <= 1 / 2)%R.
Proof.
  destruct (ex_run lin) as (fd & s1 & HS & V & E & M & T). exists fd, s1. split; [exact E|]. split; [rewrite M; exact (proj1 ex_intake_small)|].
  pose proof (time_run _ _ _ _ _ _ HS eq_refl ltac:(cbn; lra) 1 _ _ V E) as H. cbn [INR ex_sd recommended_time_step] in H. lra.
Qed.

(** The time step of the linear momentum scheme: in every cell of every block the largest signal speed along the axes,
    times the step, is at most [cfl_number] cell widths, and in some cell exactly that. *)
Theorem timestep_bounds_signals N d predicate fuel sd fd s b : setup N d predicate fuel sd fd -> conserve_linear_p sd = true -> valid N sd fd s ->
  full_state_at fuel (orbital_elements s) (time s) = Ok b -> exists m p, maximum_timestep sd fd fuel s = Ok m /\ recover_primitive sd fd s = Ok p /\
  let speed i k P := (Rmax (Rabs (HydroModel.vx P)) (Rabs (HydroModel.vy P)) + sqrt (cs2_at_position sd b (cell_center N sd i k)))%R in
  let width i := (2 * domain_radius sd / (IZR N * 2 ^ level i))%R in
  (forall i pc k P, In i (leaves (indexes 2 (vertices fd))) -> at_ p i = Ok pc -> inb [N; N] k -> aget pc k = Ok P -> (0 < speed i k P)%R -> (m * speed i k P <= width i)%R) /\
  (exists i pc k P, In i (leaves (indexes 2 (vertices fd))) /\ at_ p i = Ok pc /\ inb [N; N] k /\ aget pc k = Ok P /\ m = (width i / speed i k P)%R).
Proof.
  intros HS HQ V Eb. destruct (timestep N d predicate fuel sd fd HS s b HQ V Eb) as (m & p & Em & Ep & _ & H1 & (i & pc & k & P & A1 & A2 & A3 & A4 & A5)).
  exists m, p. split; [exact Em|]. split; [exact Ep|]. cbv zeta. pose proof (su_block _ _ _ _ _ _ HS) as HB. pose proof (su_size _ _ _ _ _ _ HS) as HN.
  assert (SP : forall l, spacing_at sd l = (2 * domain_radius sd / (IZR N * 2 ^ l))%R).
  { intros l. unfold spacing_at. rewrite HB. field. split; [apply pow_nonzero; lra|]. assert (0 < IZR N)%R by (apply IZR_lt; lia). lra. }
  split.
  - intros i' pc' k' P' B1 B2 B3 B4 B5. rewrite <- max_wavespeed_exact in *. rewrite <- SP. eapply H1; eassumption.
  - exists i, pc, k, P. do 4 (split; [assumption|]). rewrite <- max_wavespeed_exact, <- SP. exact A5.
Qed.

(** In the example the sound speed is the fourth root of 2 in every cell, so the step is the cell width over that. *)
Example timestep_example : exists fd, setup 2 0 ex_none 2 (ex_sd true) fd /\ maximum_timestep (ex_sd true) fd 2 (ex_state true) = Ok (/ sqrt (sqrt 2))%R.
Proof.
  destruct (ex_run true) as (fd & s1 & HS & V & E & M & T). exists fd. split; [exact HS|].
  destruct (timestep_bounds_signals _ _ _ _ _ _ _ _ HS eq_refl V (ex_bodies true)) as (m & p & Em & Ep & _ & (i & pc & k & P & Hi & Hp & Hk & Ek & Hm)). rewrite Em. f_equal. rewrite Hm.
  assert (i = root_index 2) as ->.
  { destruct V as ((SM & _) & _). cbn [ex_state conserved ex_sd conserve_linear_p conserved_u] in SM. assert (exists v, vertices fd = Leaf v) as [v EV] by (inversion SM; eauto). rewrite EV in Hi. destruct Hi as [<-|[]]. reflexivity. }
  assert (P = IPrim 1 0 0) as ->.
  { unfold recover_primitive in Ep. cbn [ex_sd conserve_linear_p ex_state conserved_u tmapM] in Ep. unfold in_task in Ep. rewrite (forced_reps 2 _ (fun _ => IPrim 1 0 0)) in Ep.
    - cbn [bind] in Ep. apply ok_inj in Ep. subst p. cbn in Hp. injection Hp as <-. cbn in Ek. unfold iso_recover in Ek. cbn in Ek. destruct (Rlt_dec 1 0) as [X|_]; [lra|]. injection Ek as <-. f_equal; field.
    - lia.
    - split; [reflexivity|]. intros j _. cbn. unfold iso_recover. cbn. destruct (Rlt_dec 1 0) as [X|_]; [lra|]. f_equal. f_equal; field. }
  assert (exists x y, k = [x; y] /\ (x = 0 \/ x = 1) /\ (y = 0 \/ y = 1)) as (x & y & -> & Hx & Hy).
  { inversion Hk as [|? x ? l2 A1 A2]; subst. inversion A2 as [|? y ? l3 A3 A4]; subst. inversion A4; subst. exists x, y. split; [reflexivity|]. lia. }
  cbn [HydroModel.vx HydroModel.vy]. rewrite Rabs_R0, Rmax_left by lra. unfold cs2_at_position. cbn [ex_sd axisymmetric_cs2 mach_number]. fold (ex_sd true). rewrite ex_center. cbn [fst snd level root_index ex_sd domain_radius pow].
  replace (sqrt ((IZR x - 1 / 2) * (IZR x - 1 / 2) + (IZR y - 1 / 2) * (IZR y - 1 / 2)))%R with (sqrt (/ 2)) by (f_equal; destruct Hx as [-> | ->]; destruct Hy as [-> | ->]; field).
  rewrite sqrt_inv by lra. replace (1 / / sqrt 2 / 1 / 1)%R with (sqrt 2) by (field; pose proof (sqrt_lt_R0 2); lra). field. pose proof (sqrt_lt_R0 2 ltac:(lra)). pose proof (sqrt_lt_R0 _ H). lra.
Qed.

(** The angular momentum conserving scheme has no such step: on every mesh of more than one block the computation ends in
    an exception, so that a run without [fixed_dt] does not get past its first step. *)
Theorem timestep_refuted N d predicate fuel sd fd s : setup N d predicate fuel sd fd -> conserve_linear_p sd = false -> valid N sd fd s -> (exists cs, vertices fd = Node cs) ->
  (exists b, full_state_at fuel (orbital_elements s) (time s) = Ok b) ->
  maximum_timestep sd fd fuel s = Throw BadVariantAccess /\ (fixed_dt sd = false -> forall n s', steps sd fd fuel (S n) s <> Ok s').
Proof.
  intros HS HQ V HN Hb. assert (E : maximum_timestep sd fd fuel s = Throw BadVariantAccess) by (eapply timestep_q; eassumption). split; [exact E|].
  intros HF n s'. cbn [steps]. unfold next_solution. rewrite HF, E. cbn [bind]. discriminate.
Qed.

(** Four blocks: no adaptive step can be taken. *)
Example timestep_refuted_example : exists fd s, setup 2 1 (fun _ _ => true) 5 (ex_sd false) fd /\ valid 2 (ex_sd false) fd s /\ maximum_timestep (ex_sd false) fd 5 s = Throw BadVariantAccess.
Proof.
  destruct (mesh_is_regular (fun _ _ => true) 2 1 1 ltac:(lia) ltac:(lia)) as (vt & EV & W & _ & D & HR). specialize (EV 5%nat ltac:(cbn; lia)).
  destruct (mesh_cells 2 1 vt ltac:(lia) W ltac:(lia) HR) as (dA & xc & EA & EC & Sa & Sc & _).
  assert (CD : forall A (a : array A), ashape a = [2; 2] -> (forall k, exists x, aget a k = Ok x) -> cell_data 2 vt (tmap (fun _ => a) vt)).
  { intros A a S1 S2. split; [apply shape_sym, tmap_shape|]. rewrite tmap_leaves. rewrite Forall_forall. intros b Hb. apply in_map_iff in Hb. destruct Hb as (_ & <- & _). split; [exact S1|]. intros k _. apply S2. }
  set (gas := tmap (fun _ => ex_gas) vt). set (s := Solution 0 empty_tree gas (0, 0)%R (0, 0)%R (0, 0)%R (0, 0)%R 0 0 zero_elements zero_elements (elements_of_orbit (Orbit 1 1 1 0))).
  set (fd := Fields vt xc dA gas gas (tmap (fun _ => ex_still) vt)). exists fd, s.
  assert (HS : setup 2 1 (fun _ _ => true) 5 (ex_sd false) fd).
  { constructor; cbn [ex_sd block_size domain_radius fd vertices cell_areas cell_centers buffer_rate_field initial_conserved_u initial_conserved_q conserve_linear_p]; auto; try lia; try lra; try (apply CD; [reflexivity|]; intros k; eexists; reflexivity). }
  assert (V : valid 2 (ex_sd false) fd s).
  { split; [apply CD; [reflexivity|]; intros k; eexists; reflexivity|]. split; [|eexists; split; reflexivity].
    unfold densities. cbn [ex_sd conserved conserve_linear_p s conserved_q]. unfold gas. rewrite tmap_leaves. rewrite Forall_forall. intros b Hb. apply in_map_iff in Hb. destruct Hb as (_ & <- & _). intros k u _ Eu. injection Eu as <-. cbn. lra. }
  split; [exact HS|]. split; [exact V|]. refine (proj1 (timestep_refuted _ _ _ _ _ _ _ HS eq_refl V _ _)).
  - destruct (proj1 (mesh_refined_where_asked (fun _ _ => true) 2 1 1 vt 5 ltac:(lia) ltac:(lia) ltac:(cbn; lia) ltac:(intros l m x _ _ H; reflexivity) EV) (root_index 2)) as [cs Ec].
    + split; [split; [reflexivity|repeat constructor]|]. split; [cbn; lia|]. reflexivity.
    + exists cs. cbn in Ec. injection Ec as ->. reflexivity.
  - exists ex_pair. exact (ex_bodies_fuel false 3).
Qed.

(** Diagnostic sums: disk_mass is the mass of the ledger, disk_angular_momentum the moment of momentum of all cells. *)
Theorem disk_mass_exact N d predicate fuel sd fd s : setup N d predicate fuel sd fd -> on_mesh N sd fd s -> disk_mass sd fd s = Ok (held d0 N (conserved sd s) (cell_areas fd)).
Proof. intros HS. apply (mass_of_disk N d predicate fuel sd fd HS). Qed.
Theorem disk_angular_momentum_exact N d predicate fuel sd fd s : setup N d predicate fuel sd fd -> on_mesh N sd fd s ->
  (conserve_linear_p sd = false -> disk_angular_momentum sd fd s = Ok (held d2 N (conserved_q s) (cell_areas fd))) /\
  (conserve_linear_p sd = true -> disk_angular_momentum sd fd s = Ok (rsum (fun i => rsum (fun k =>
     reading (fun u => iso_angular_momentum u (fst (cell_center N sd i k)) (snd (cell_center N sd i k))) (look no_array (conserved_u s) i) k * cell_area N sd i)%R (idxs [N; N])) (leaves (indexes 2 (vertices fd))))).
Proof.
  intros HS HM. split; intros HQ; [apply (angular_momentum_of_disk_q N d predicate fuel sd fd HS s HQ HM)|apply (angular_momentum_of_disk_u N d predicate fuel sd fd HS s HQ HM)].
Qed.

Print Assumptions run_keeps_valid.
Print Assumptions angular_momentum_run.
Print Assumptions mass_run.
Print Assumptions mass_run_floor.
Print Assumptions accretion_run.
Print Assumptions time_run.
Print Assumptions timestep_bounds_signals.
Print Assumptions timestep_refuted.
Print Assumptions disk_mass_exact.
Print Assumptions disk_angular_momentum_exact.
