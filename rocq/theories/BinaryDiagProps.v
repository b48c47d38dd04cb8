(** C109: what a diagnostics file of the binary program says about the gas. *)
From Coq Require Import ZArith Reals Lra List Arith Bool Lia.
From Verif Require Import Base TreeModel TreeSpec TreeProofs TreeProofs3 TreeProofs4 BalanceModel BalanceSpec BalanceProofs NdModel NdSpec NdProofs NdProofs2 NdOpsModel NdOpsProofs ProlongProofs FluxModel FluxSpec FluxTreeProofs FluxProofs FluxProofs3 FluxProofs4 FluxProofs5
  GuardSpec GuardProofs2 MeshModel MeshSpec MeshProps StepModel StepSpec StepProofs StepProofs2 StepProofs3 StepProps TwoBodyModel HydroModel SourceModel SourceProofs SolutionModel SolutionSpec SolutionProofs SolutionProofs2 SolutionProofs3 SolutionProofs4 SolutionProofs5 SolutionProps SolutionExample BinaryDiagModel BinaryDiagProofs.
Import ListNotations.
Open Scope Z_scope.

(** The value of a field in a cell. *)
Definition field (t : tree (array R)) (i : idx) (k : list Z) : R := reading (fun x => x) (look no_array t i) k.

(** On every mesh without a cell around the origin and in every state without empty cells, in either scheme: the fields exist; the
    density is the conserved one; density times velocity is the radial and the azimuthal momentum of the gas; the bodies are
    where gravity has them; the density adds up to the mass, and density times radius times azimuthal velocity to the angular momentum,
    that the time series reports. *)
Theorem diagnostic_fields_exact N d predicate fuel sd fd s b kf : setup N d predicate fuel sd fd -> valid N sd fd s -> dense N sd fd s -> centre_clear N sd fd ->
  full_state_at kf (orbital_elements s) (time s) = Ok b -> exists dg, diagnostic_fields sd fd kf s = Ok dg /\
  dg_time dg = time s /\ dg_vertices dg = vertices fd /\ dg_position_of_mass1 dg = (px (body1 b), py (body1 b)) /\ dg_position_of_mass2 dg = (px (body2 b), py (body2 b)) /\
  cell_data N (vertices fd) (dg_sigma dg) /\ cell_data N (vertices fd) (dg_radial_velocity dg) /\ cell_data N (vertices fd) (dg_phi_velocity dg) /\
  (forall i k, In i (leaves (indexes 2 (vertices fd))) -> inb [N; N] k -> (0 < field (dg_sigma dg) i k)%R /\
     field (dg_sigma dg) i k = density_of sd s i k /\
     (field (dg_sigma dg) i k * field (dg_radial_velocity dg) i k)%R = radial_momentum N sd s i k /\
     (field (dg_sigma dg) i k * field (dg_phi_velocity dg) i k)%R = azimuthal_momentum N sd s i k) /\
  disk_mass sd fd s = Ok (held (fun x => x) N (dg_sigma dg) (cell_areas fd)) /\
  disk_angular_momentum sd fd s = Ok (rsum (fun i => rsum (fun k =>
     field (dg_sigma dg) i k * (distance (cell_center N sd i k) * field (dg_phi_velocity dg) i k) * cell_area N sd i)%R (idxs [N; N])) (leaves (indexes 2 (vertices fd)))).
Proof.
  intros HS (HM & HD & HE) DN CC Eb. destruct (fields_found N d predicate fuel sd fd HS s b kf HM HD CC Eb (V3 1 0 0)) as (sg & vr & vp & E & Hs & Hr & Hp). eexists. split; [exact E|].
  cbn [dg_time dg_vertices dg_position_of_mass1 dg_position_of_mass2 dg_sigma dg_radial_velocity dg_phi_velocity]. do 4 (split; [reflexivity|]). split; [exact (proj1 Hs)|]. split; [exact (proj1 Hr)|]. split; [exact (proj1 Hp)|].
  assert (C : forall i k, In i (leaves (indexes 2 (vertices fd))) -> inb [N; N] k -> exists u, aget (look no_array (conserved sd s) i) k = Ok u /\ (0 < d0 u)%R).
  { intros i k Hi Hk. destruct (at_address N d predicate fuel sd fd HS _ i HM Hi) as (v & F & Nv & Rv). exists (F k). assert (Q : aget (look no_array (conserved sd s) i) k = Ok (F k)) by (rewrite (look_leaf _ _ _ _ Nv); exact (proj2 Rv k Hk)).
    split; [exact Q|]. exact (DN i k _ Hi Hk Q). }
  assert (A : forall i k, In i (leaves (indexes 2 (vertices fd))) -> inb [N; N] k -> (0 < field sg i k)%R /\ field sg i k = density_of sd s i k /\
     (field sg i k * field vr i k)%R = radial_momentum N sd s i k /\ (field sg i k * field vp i k)%R = azimuthal_momentum N sd s i k).
  { intros i k Hi Hk. destruct (C i k Hi Hk) as (u & Eu & Pu). unfold field. rewrite (has_reading N fd sg _ (fun x => x) i k Hs Hi Hk), (has_reading N fd vr _ (fun x => x) i k Hr Hi Hk), (has_reading N fd vp _ (fun x => x) i k Hp Hi Hk).
    unfold density_of, radial_momentum, azimuthal_momentum. cbv zeta. unfold reading. rewrite Eu. destruct (prim_from sd u Pu (cell_center N sd i k) (CC i k Hi Hk)) as (P1 & P2 & P3). rewrite P1. split; [exact Pu|]. split; [reflexivity|]. split; [exact P2|exact P3]. }
  split; [exact A|]. split.
  - rewrite (mass_of_disk N d predicate fuel sd fd HS s HM). f_equal. rewrite (held_has N d predicate fuel sd fd HS sg _ Hs). destruct (mesh_facts N d predicate fuel sd fd HS) as (W & D & _ & _ & _). destruct (shapes N d predicate fuel sd fd HS) as (SA & _ & _).
    rewrite (held_by_address d0 N (conserved sd s) _ (vertices fd) W D (proj1 HM) SA). apply rsum_ext_in. intros i Hi. destruct (SolutionProofs3.area_leaf N d predicate fuel sd fd HS i Hi) as (a & Na & Ra). apply rsum_ext_in. intros k Hk. apply idxs_In in Hk.
    destruct (C i k Hi Hk) as (u & Eu & Pu). rewrite (look_leaf _ _ _ _ Na). unfold reading. rewrite Eu, (proj2 Ra k Hk). destruct (prim_from sd u Pu (cell_center N sd i k) (CC i k Hi Hk)) as (P1 & _). rewrite P1. reflexivity.
  - assert (X : forall i k, In i (leaves (indexes 2 (vertices fd))) -> inb [N; N] k -> (field sg i k * (distance (cell_center N sd i k) * field vp i k))%R = (distance (cell_center N sd i k) * azimuthal_momentum N sd s i k)%R).
    { intros i k Hi Hk. rewrite <- (proj2 (proj2 (proj2 (A i k Hi Hk)))). ring. }
    assert (Y : forall i k, In i (leaves (indexes 2 (vertices fd))) -> inb [N; N] k -> (0 < distance (cell_center N sd i k))%R) by (intros i k Hi Hk; apply distance_pos, CC; assumption).
    destruct (conserve_linear_p sd) eqn:EL.
    + rewrite (angular_momentum_of_disk_u N d predicate fuel sd fd HS s EL HM). f_equal. apply rsum_ext_in. intros i Hi. apply rsum_ext_in. intros k Hk. apply idxs_In in Hk. rewrite (X i k Hi Hk). f_equal.
      pose proof (Y i k Hi Hk) as PY. destruct (C i k Hi Hk) as (u & Eu & _). unfold azimuthal_momentum. cbv zeta. rewrite EL. unfold conserved in Eu |- *. rewrite EL in Eu |- *. unfold reading. rewrite Eu. unfold iso_angular_momentum. field. lra.
    + rewrite (angular_momentum_of_disk_q N d predicate fuel sd fd HS s EL HM). f_equal. destruct (mesh_facts N d predicate fuel sd fd HS) as (W & D & _ & _ & _). destruct (shapes N d predicate fuel sd fd HS) as (SA & _ & _).
      unfold on_mesh in HM. assert (EC : conserved sd s = conserved_q s) by (unfold conserved; rewrite EL; reflexivity). rewrite EC in HM.
      rewrite (held_by_address d2 N (conserved_q s) _ (vertices fd) W D (proj1 HM) SA). apply rsum_ext_in. intros i Hi. destruct (SolutionProofs3.area_leaf N d predicate fuel sd fd HS i Hi) as (a & Na & Ra). apply rsum_ext_in. intros k Hk. apply idxs_In in Hk.
      rewrite (X i k Hi Hk), (look_leaf _ _ _ _ Na). pose proof (Y i k Hi Hk) as PY. destruct (C i k Hi Hk) as (u & Eu & _). unfold azimuthal_momentum. cbv zeta. rewrite EL, EC in *. unfold reading. rewrite Eu, (proj2 Ra k Hk). field. lra.
Qed.

(** With an even number of cells a side, or on a refined mesh, no cell lies around the origin. *)
Theorem no_cell_at_origin N d predicate fuel sd fd : setup N d predicate fuel sd fd -> Z.Even N \/ (exists cs, vertices fd = Node cs) -> centre_clear N sd fd.
Proof. intros HS. apply (clear_cases N d predicate fuel sd fd HS). Qed.

(** Four cells, all with density 2 and second and third components 1 and 3: in the cell at (1/2, 1/2) the linear momentum scheme has radial velocity
    sqrt 2 and azimuthal velocity half of that; for the other scheme the same numbers mean half, and one and a half, of sqrt 2. *)
Definition ex_wind : array v3 := mkarr [2; 2] (fun _ => Ok (V3 2 1 3)).
Definition ex_windy (lin : bool) : solution :=
  Solution 0 (if lin then Leaf ex_wind else empty_tree) (if lin then empty_tree else Leaf ex_wind) (0, 0)%R (0, 0)%R (0, 0)%R (0, 0)%R 0 0 zero_elements zero_elements (elements_of_orbit (Orbit 1 1 1 0)).
Example diagnostic_fields_example lin : exists fd dg, setup 2 0 ex_none 2 (ex_sd lin) fd /\ diagnostic_fields (ex_sd lin) fd 2 (ex_windy lin) = Ok dg /\
  dg_position_of_mass1 dg = (1 / 2, 0)%R /\ field (dg_sigma dg) (root_index 2) [1; 1] = 2%R /\
  field (dg_radial_velocity dg) (root_index 2) [1; 1] = (if lin then sqrt 2 else sqrt 2 / 2)%R /\
  field (dg_phi_velocity dg) (root_index 2) [1; 1] = (if lin then sqrt 2 / 2 else 3 * sqrt 2 / 2)%R.
Proof.
  destruct (ex_setup lin) as (v & c & a & HS). set (fd := ex_fields (Leaf v) (Leaf c) (Leaf a)) in *.
  assert (CE : conserved (ex_sd lin) (ex_windy lin) = Leaf ex_wind) by (destruct lin; reflexivity).
  assert (V : valid 2 (ex_sd lin) fd (ex_windy lin)).
  { split; [|split].
    - unfold on_mesh. rewrite CE. split; [constructor|]. constructor; [|constructor]. split; [reflexivity|]. intros k _. eexists. reflexivity.
    - rewrite CE. constructor; [|constructor]. intros k u _ Eu. injection Eu as <-. cbn. lra.
    - destruct lin; eexists; split; reflexivity. }
  assert (DN : dense 2 (ex_sd lin) fd (ex_windy lin)).
  { intros i k u [<-|[]] _ Eu. rewrite CE in Eu. injection Eu as <-. cbn. lra. }
  pose proof (no_cell_at_origin _ _ _ _ _ _ HS (or_introl (ex_intro _ 1 eq_refl))) as CC.
  destruct (diagnostic_fields_exact 2 0 ex_none 2 (ex_sd lin) fd (ex_windy lin) ex_pair 2 HS V DN CC (ex_bodies_fuel lin 0)) as (dg & E & _ & _ & B & _ & _ & _ & _ & F & _).
  exists fd, dg. split; [exact HS|]. split; [exact E|]. split; [exact B|]. destruct (F (root_index 2) [1; 1] ltac:(left; reflexivity) ltac:(repeat constructor; lia)) as (_ & F1 & F2 & F3).
  assert (RD : forall g, reading g (look no_array (conserved (ex_sd lin) (ex_windy lin)) (root_index 2)) [1; 1] = g (V3 2 1 3)) by (intros g; rewrite CE; reflexivity).
  unfold density_of in F1. rewrite RD in F1. cbn [d0] in F1. rewrite F1 in F2, F3. unfold radial_momentum, azimuthal_momentum, distance in F2, F3. cbv zeta in F2, F3. rewrite !RD, ex_center in F2, F3. cbn [d1 d2 fst snd] in F2, F3.
  replace ((1 - 1 / 2) * (1 - 1 / 2) + (1 - 1 / 2) * (1 - 1 / 2))%R with (/ 2)%R in F2, F3 by field. rewrite sqrt_inv in F2, F3 by lra. pose proof (sqrt_lt_R0 2 ltac:(lra)) as S0.
  split; [exact F1|]. assert (DV : forall x, (x / / sqrt 2 = x * sqrt 2)%R) by (intros x; field; lra). rewrite !DV in F2, F3. destruct lin; cbn [ex_sd conserve_linear_p] in F2, F3; split; lra.
Qed.

Print Assumptions diagnostic_fields_exact.
Print Assumptions no_cell_at_origin.
