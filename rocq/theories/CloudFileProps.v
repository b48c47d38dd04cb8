(** C122: the diagnostics file and the time series file of the cloud program (src/subprog_cloud.cpp 769-803, 891-906). *)
From Coq Require Import ZArith Reals List Lia Lra Bool Psatz String.
From Verif Require Import Base StrModel MapModel MapProofs NdModel NdSpec NdProofs NdOpsModel NdOpsProofs NdOpsProofs2 DimensionalModel HydroModel HlleProofs SrhdProps SrhdRecoverProps PlmModel SedovModel Rep1Proofs SedovProofs SedovProps Rep2Proofs CloudModel CloudProofs CloudProofs2 CloudProps CloudSetupProps ShockModel ShockProps
  CloudDiagModel CloudDiagProps ScheduleModel RunModel MainModel Hdf5Model Hdf5Props CloudFileModel.
From Verif Require CheckpointProps SedovDiagModel SedovDiagProps ExtentModel.
Import ListNotations.
Close Scope string_scope.
Open Scope R_scope.

(** The values F i j as the contents of a data set of n rows and m columns, row after row; those of n numbers; and those of one
    number per polar zone. *)
Definition sheet (n m : Z) (F : Z -> Z -> R) : list nat * list (option R) :=
  ([Z.to_nat n; Z.to_nat m], flat_map (fun i => map (fun j => Some (F (Z.of_nat i) (Z.of_nat j))) (seq 0 (Z.to_nat m))) (seq 0 (Z.to_nat n))).
Definition line (n : Z) (F : Z -> R) : list nat * list (option R) := ([Z.to_nat n], map (fun k => Some (F (Z.of_nat k))) (seq 0 (Z.to_nat n))).
Definition per_zone (f : zone -> R) (zs : list zone) : list nat * list (option R) := ([List.length zs], map (fun z => Some (f z)) zs).

Lemma lists_equal {A} : forall l l' : list A, (forall k, nth_error l k = nth_error l' k) -> l = l'.
Proof. induction l as [|x l IH]; intros [|y l'] E; [reflexivity|discriminate (E 0%nat)|discriminate (E 0%nat)|]. pose proof (E 0%nat) as E0. cbn in E0. injection E0 as ->. f_equal. apply IH. intros k. exact (E (S k)). Qed.
Lemma rows_flat {B} (F : Z -> Z -> B) m : (0 < m)%nat -> forall n, map (fun k => F (Z.of_nat k / Z.of_nat m)%Z (Z.of_nat k mod Z.of_nat m)%Z) (seq 0 (n * m)) = flat_map (fun i => map (fun j => F (Z.of_nat i) (Z.of_nat j)) (seq 0 m)) (seq 0 n).
Proof.
  intros Hm. induction n as [|n IH]; [reflexivity|]. replace (S n * m)%nat with (n * m + m)%nat by lia. rewrite (seq_app (n * m) m 0), map_app, IH, ?Nat.add_0_l.
  replace (S n) with (n + 1)%nat by lia. rewrite (seq_app n 1 0), flat_map_app, ?Nat.add_0_l. cbn [seq flat_map Nat.add]. rewrite app_nil_r. f_equal.
  clear IH. apply lists_equal. intros k. destruct (lt_dec k m) as [L|L].
  - rewrite !nth_error_map. rewrite (nth_error_nth' (seq (n * m) m) 0%nat) by (rewrite seq_length; lia). rewrite (nth_error_nth' (seq 0 m) 0%nat) by (rewrite seq_length; lia). rewrite !seq_nth by lia. cbn [option_map]. do 2 f_equal.
    + rewrite Nat2Z.inj_add, Nat2Z.inj_mul. rewrite Z.div_add_l by lia. rewrite ?Nat.add_0_l. rewrite Z.div_small by lia. lia.
    + rewrite Nat2Z.inj_add, Nat2Z.inj_mul. rewrite Z.add_comm, Z.mod_add by lia. rewrite ?Nat.add_0_l. apply Z.mod_small. lia.
  - rewrite (proj2 (nth_error_None _ k)), (proj2 (nth_error_None _ k)); [reflexivity| |]; rewrite map_length, seq_length; lia.
Qed.
Lemma sheet_value a n m F : (1 <= n)%Z -> (1 <= m)%Z -> (n * m <= 2147483647)%Z -> grid2 a n m F -> contents2 a = Ok (sheet n m F).
Proof.
  intros Hn Hm HV [E1 E2]. unfold contents2. rewrite E1. assert (V : volume [n; m] = (n * m)%Z). { rewrite volume_prod; cbn [prodz fold_right]; [lia| |lia]. apply Forall_cons; [lia|]. apply Forall_cons; [lia|apply Forall_nil]. }
  rewrite V. rewrite (SedovDiagProps.mapM_values _ (fun k => F (Z.of_nat k / m)%Z (Z.of_nat k mod m)%Z)).
  - bsimp. unfold sheet. do 2 f_equal. rewrite map_map. replace (Z.to_nat (n * m)) with (Z.to_nat n * Z.to_nat m)%nat by lia. rewrite <- (rows_flat (fun i j => Some (F i j)) (Z.to_nat m) ltac:(lia) (Z.to_nat n)). apply map_ext. intros k. rewrite Z2Nat.id by lia. reflexivity.
  - intros k Hk. apply in_seq in Hk. apply E2; [split; [apply Z.div_pos; lia|apply Z.div_lt_upper_bound; nia]|apply Z.mod_pos_bound; lia].
Qed.
Lemma write_sheet name a n m F g : (1 <= n)%Z -> (1 <= m)%Z -> (n * m <= 2147483647)%Z -> grid2 a n m F -> write_table name a g = write (array_info dbl 2) g name (sheet n m F).
Proof. intros. unfold write_table. rewrite (sheet_value a n m F) by assumption. reflexivity. Qed.
Lemma write_line name a n F g : (1 <= n <= 2147483647)%Z -> rep1 a n F -> SedovDiagModel.write_field name a g = write (array_info dbl 1) g name (line n F).
Proof. intros Hn HA. unfold SedovDiagModel.write_field. rewrite (SedovDiagProps.contents_value a n F Hn HA). reflexivity. Qed.
Lemma write_any name rank v (g : group (option R)) : plain (c_name name) = true -> fresh g (c_name name) ->
  write (array_info dbl rank) g name v = Ok (mset (c_name name) (OData (mkds TDouble (Simple (fst v)) (map EDbl (snd v)))) g).
Proof. intros HP HF. apply write_new; [exact HP|left; exact HF|apply stored_any; exact I]. Qed.
Lemma read_any name rank (g : group (option R)) v : plain (c_name name) = true -> List.length (fst v) = rank -> mfind (c_name name) g = Some (OData (mkds TDouble (Simple (fst v)) (map EDbl (snd v)))) -> read (array_info dbl rank) g name = Ok v.
Proof. intros HP HL HM. apply CheckpointProps.array_old; [exact HP|apply Forall_forall; intros x _; reflexivity|exact HL|exact HM]. Qed.

(** What is in the file. *)
Theorem cloud_file c fuel n m X Q U s P : good_cloud c -> sizes fuel n m -> (2 <= n)%Z -> X 0%Z <> 0 -> on_grid s n m X Q U -> gas_of c n m X Q U P ->
  exists g zs, write_diagnostics c fuel s = Ok g /\ List.length g = 23%nat /\ Z.of_nat (List.length zs) = m /\
    (forall j z, (0 <= j < m)%Z -> nth_error zs (Z.to_nat j) = Some z -> exists i u r l, zone_is c n X Q U P j z i u r l) /\
    let number name v := read (scalar_info dbl) g (lit name) = Ok v in
    let table name F := read (array_info dbl 2) g (lit name) = Ok (sheet n m F) in
    let vertices name k F := read (array_info dbl 1) g (lit name) = Ok (line k F) in
    let zones name f := read (array_info dbl 1) g (lit name) = Ok (per_zone f zs) in
    number "time"%string (Some (time s * (inner_radius c / 29980000000))) /\
    table "gas_pressure"%string (fun i j => pre (P i j) * (cgs_energy c / inner_radius c ^ 3)) /\
    table "mass_density"%string (fun i j => rho (P i j) * (cloud_mass c * (1989 * 10 ^ 30) / inner_radius c ^ 3)) /\
    table "specific_entropy"%string (fun i j => entropy (P i j)) /\
    table "radial_energy_flow"%string (fun i j => srhd_energy_flux (P i j) * zone_area X Q i j * cgs_power c) /\
    table "radial_gamma_beta"%string (fun i j => u1 (P i j)) /\
    vertices "radial_vertices"%string (n + 1)%Z (fun i => X i * inner_radius c) /\ vertices "polar_vertices"%string (m + 1)%Z Q /\
    zones "solid_angle_at_theta"%string solid_angle /\ zones "total_energy_at_theta"%string total_energy /\
    zones "shock_midpoint_radius"%string midpoint_radius /\ zones "shock_upstream_radius"%string upstream_radius /\ zones "shock_pressure_radius"%string pressure_radius /\ zones "shock_luminosity_radius"%string luminosity_radius /\
    zones "postshock_flow_gamma"%string flow_gamma /\ zones "postshock_flow_power"%string flow_power /\
    zones "postshock_flow_power02"%string (fun z => nth 0 (powers z) 0) /\ zones "postshock_flow_power04"%string (fun z => nth 1 (powers z) 0) /\ zones "postshock_flow_power08"%string (fun z => nth 2 (powers z) 0) /\
    zones "postshock_flow_power16"%string (fun z => nth 3 (powers z) 0) /\ zones "postshock_flow_power32"%string (fun z => nth 4 (powers z) 0) /\ zones "postshock_flow_power64"%string (fun z => nth 5 (powers z) 0) /\
    zones "postshock_flow_power_max"%string flow_power_max.
Proof.
  intros HG HS Hn HX HU HP. destruct (proj1 (cloud_diagnostics c fuel n m X Q U s HG HS Hn HX HU) P HP) as (F & EF & (ET & RV & PV & LZ & HZ & SE & GP & MD & GB & EN)).
  pose proof HS as (_ & Hm & HV & _). assert (NM : (n * m <= 2147483647)%Z) by nia. pose proof HU as (_ & R2 & _). rewrite <- PV in R2.
  unfold write_diagnostics. rewrite EF. bsimp. unfold write_fields, write_zones. cbv zeta.
  rewrite write_new with (es := [EDbl (Some (f_time F))]) by (try reflexivity; left; reflexivity). bsimp.
  rewrite (write_sheet _ _ n m _ _ ltac:(lia) Hm NM GP), write_any by reflexivity. bsimp.
  rewrite (write_sheet _ _ n m _ _ ltac:(lia) Hm NM MD), write_any by reflexivity. bsimp.
  rewrite (write_sheet _ _ n m _ _ ltac:(lia) Hm NM SE), write_any by reflexivity. bsimp.
  rewrite (write_sheet _ _ n m _ _ ltac:(lia) Hm NM EN), write_any by reflexivity. bsimp.
  rewrite (write_sheet _ _ n m _ _ ltac:(lia) Hm NM GB), write_any by reflexivity. bsimp.
  rewrite (write_line _ _ (n + 1) _ _ ltac:(nia) RV), write_any by reflexivity. bsimp.
  rewrite (write_line _ _ (m + 1) _ _ ltac:(nia) R2), write_any by reflexivity. bsimp.
  do 15 (rewrite write_any by reflexivity; bsimp).
  eexists. exists (f_zones F). split; [reflexivity|]. split; [reflexivity|]. split; [exact LZ|]. split; [exact HZ|]. cbv zeta.
  split; [rewrite <- ET; reflexivity|]. repeat split; apply read_any; reflexivity.
Qed.
(** With a single shell there is no file. *)
Theorem cloud_file_one_shell c fuel m X Q U s P : good_cloud c -> sizes fuel 1 m -> on_grid s 1 m X Q U -> gas_of c 1 m X Q U P -> write_diagnostics c fuel s = UB.
Proof. intros HG HS HU HP. unfold write_diagnostics. rewrite (cloud_diagnostics_one_shell c fuel m X Q U s P HG HS HU HP). reflexivity. Qed.

(** *** What is not in the file: the direction of the polar momentum *)
Definition mirrored (U : v5) : v5 := V5 (c0 U) (c1 U) (- c2 U) (c3 U) (c4 U).
Definition mirror_gas (P : prim) : prim := Prim (rho P) (u1 P) (- u2 P) (u3 P) (pre P).
Lemma recover_mirrored U g T P : srhd_recover U g T = Ok P -> srhd_recover (mirrored U) g T = Ok (mirror_gas P).
Proof.
  unfold srhd_recover, mirrored. cbn [c0 c1 c2 c3 c4]. replace (c1 U * c1 U + - c2 U * - c2 U + c3 U * c3 U) with (c1 U * c1 U + c2 U * c2 U + c3 U * c3 U) by ring.
  destruct (HydroModel.newton _ _ _ _ _ _) as [[W0 p]|]; [|discriminate]. cbv zeta. set (p' := if Rlt_dec 0 T then _ else p). cbn [rho pre].
  destruct (Rle_dec (c0 U / W0) 0); [discriminate|]. destruct (Rle_dec p' 0); [discriminate|]. intros E. injection E as <-. unfold mirror_gas. cbn [rho u1 u2 u3 pre]. do 2 f_equal. unfold Rdiv. ring.
Qed.
Lemma gas_mirrored c n m X Q U P : gas_of c n m X Q U P -> gas_of c n m X Q (fun i j => mirrored (U i j)) (fun i j => mirror_gas (P i j)).
Proof.
  intros HP i j Hi Hj. destruct (HP i j Hi Hj) as [E G]. split; [|exact G]. rewrite <- (recover_mirrored _ _ _ _ E). f_equal. unfold average_density, mirrored. cbv zeta. cbn [c0 c1 c2 c3 c4]. f_equal. unfold Rdiv. ring.
Qed.
Lemma flux_mirrored P : srhd_energy_flux (mirror_gas P) = srhd_energy_flux P.
Proof. unfold srhd_energy_flux, mirror_gas. cbn [rho u1 u2 u3 pre]. replace (- u2 P * - u2 P) with (u2 P * u2 P) by ring. reflexivity. Qed.
Lemma power_mirrored c X Q P i j : zone_power c X Q (fun i j => mirror_gas (P i j)) i j = zone_power c X Q P i j.
Proof. unfold zone_power. rewrite flux_mirrored. reflexivity. Qed.
Lemma drop_unique n S i i' : steepest_drop n S i -> steepest_drop n S i' -> i = i'.
Proof.
  intros (A1 & A2 & A3) (B1 & B2 & B3). destruct (Z.lt_trichotomy i i') as [L|[E|L]]; [|exact E|].
  - specialize (B3 i ltac:(lia)). specialize (A2 i' B1). lra.
  - specialize (A3 i' ltac:(lia)). specialize (B2 i A1). lra.
Qed.
Lemma climb_unique Y Y' i r r' : (forall k, Y' k = Y k) -> climbs_to Y i r -> climbs_to Y' i r' -> r = r'.
Proof.
  intros EY (A1 & A2 & A3) (B1 & B2 & B3). destruct (Z.lt_trichotomy r r') as [L|[E|L]]; [|exact E|].
  - destruct B3 as [B3|B3]; [lia|]. rewrite !EY in B3. specialize (A2 r' ltac:(lia)). lra.
  - destruct A3 as [A3|A3]; [lia|]. specialize (B2 r ltac:(lia)). rewrite !EY in B2. lra.
Qed.
Lemma plateau_unique n p i u u' : plateau n p i u -> plateau n p i u' -> u = u'.
Proof.
  unfold plateau. cbv zeta. intros [(A1 & A2 & A3 & A4)|(A1 & A2)] [(B1 & B2 & B3 & B4)|(B1 & B2)]; try congruence.
  - destruct (Z.lt_trichotomy u u') as [L|[E|L]]; [|exact E|].
    + specialize (B3 u ltac:(lia)). lra.
    + specialize (A3 u' ltac:(lia)). lra.
  - destruct B2 as [B2|B2]; [lia|]. specialize (B2 u ltac:(lia)). lra.
  - destruct A2 as [A2|A2]; [lia|]. specialize (A2 u' ltac:(lia)). lra.
Qed.
Lemma zone_mirrored c n X Q U P j z z' i u r l i' u' r' l' : zone_is c n X Q U P j z i u r l -> zone_is c n X Q (fun i j => mirrored (U i j)) (fun i j => mirror_gas (P i j)) j z' i' u' r' l' -> z = z'.
Proof.
  intros (I1 & U1 & R1 & L1 & A1 & A2 & A3 & A4 & A5 & A6 & A7 & A8 & A9 & A10) (I2 & U2 & R2 & L2 & B1 & B2 & B3 & B4 & B5 & B6 & B7 & B8 & B9 & B10).
  assert (EI : i = i') by (apply (drop_unique n (fun k => entropy (P k j))); assumption). subst i'. assert (EU : u = u') by (apply (plateau_unique n (fun k => pre (P k j)) i); assumption). subst u'.
  assert (ER : r = r') by (apply (climb_unique (fun k => pre (P k j)) (fun k => pre (P k j)) i); [reflexivity|assumption|assumption]). subst r'.
  assert (EL : l = l') by (apply (climb_unique (fun k => zone_power c X Q P k j) (fun k => zone_power c X Q (fun i j => mirror_gas (P i j)) k j) i); [intros k; apply power_mirrored|assumption|assumption]). subst l'.
  rewrite power_mirrored in B8, B9. rewrite (map_ext _ (fun k => zone_power c X Q P (Z.max 0 (i - k)) j)) in B10 by (intros k; apply power_mirrored).
  cbn [mirrored c4] in B2. unfold mirror_gas in B7. cbn [u1 u2 u3] in B7. replace ((- u2 (P r j)) ^ 2) with (u2 (P r j) ^ 2) in B7 by ring.
  destruct z as [a1 a2 a3 a4 a5 a6 a7 a8 a9 a10], z' as [b1 b2 b3 b4 b5 b6 b7 b8 b9 b10]. cbn [solid_angle total_energy midpoint_radius upstream_radius pressure_radius luminosity_radius flow_gamma flow_power powers flow_power_max] in *. congruence.
Qed.
Theorem cloud_file_mirrored c fuel n m X Q U s s' P : good_cloud c -> sizes fuel n m -> (2 <= n)%Z -> X 0%Z <> 0 -> gas_of c n m X Q U P ->
  on_grid s n m X Q U -> on_grid s' n m X Q (fun i j => mirrored (U i j)) -> time s' = time s -> write_diagnostics c fuel s' = write_diagnostics c fuel s.
Proof.
  intros HG HS Hn HX HP HU HU' HT. destruct (proj1 (cloud_diagnostics c fuel n m X Q U s HG HS Hn HX HU) P HP) as (F & EF & (ET & RV & PV & LZ & HZ & SE & GP & MD & GB & EN)).
  destruct (proj1 (cloud_diagnostics c fuel n m X Q _ s' HG HS Hn HX HU') _ (gas_mirrored _ _ _ _ _ _ _ HP)) as (F' & EF' & (ET' & RV' & PV' & LZ' & HZ' & SE' & GP' & MD' & GB' & EN')).
  assert (EN2 : grid2 (f_radial_energy_flow F') n m (fun i j => srhd_energy_flux (P i j) * zone_area X Q i j * cgs_power c)) by (eapply grid2_ext; [exact EN'|]; intros i j Hi Hj; cbv beta; rewrite flux_mirrored; reflexivity).
  assert (ZZ : f_zones F' = f_zones F).
  { apply lists_equal. intros k. destruct (lt_dec k (Z.to_nat m)) as [L|L].
    - destruct (nth_error (f_zones F) k) as [z|] eqn:Ez; [|apply nth_error_None in Ez; lia]. destruct (nth_error (f_zones F') k) as [z'|] eqn:Ez'; [|apply nth_error_None in Ez'; lia]. f_equal.
      destruct (HZ (Z.of_nat k) z ltac:(lia) ltac:(rewrite Nat2Z.id; exact Ez)) as (i & u & r & l & A). destruct (HZ' (Z.of_nat k) z' ltac:(lia) ltac:(rewrite Nat2Z.id; exact Ez')) as (i' & u' & r' & l' & B).
      symmetry. exact (zone_mirrored _ _ _ _ _ _ _ _ _ _ _ _ _ _ _ _ _ A B).
    - rewrite (proj2 (nth_error_None _ k)), (proj2 (nth_error_None _ k)); [reflexivity|lia|lia]. }
  pose proof HS as (_ & Hm & HV & _). assert (NM : (n * m <= 2147483647)%Z) by nia. assert (N1 : (1 <= n)%Z) by lia. pose proof HU as (_ & R2 & _). pose proof HU' as (_ & R2' & _). rewrite <- PV in R2. rewrite <- PV' in R2'.
  assert (TT : f_time F' = f_time F) by congruence.
  match type of GP with grid2 _ _ _ ?G => change (grid2 (f_gas_pressure F') n m G) in GP' end. match type of MD with grid2 _ _ _ ?G => change (grid2 (f_mass_density F') n m G) in MD' end.
  match type of SE with grid2 _ _ _ ?G => change (grid2 (f_specific_entropy F') n m G) in SE' end. match type of GB with grid2 _ _ _ ?G => change (grid2 (f_radial_gamma_beta F') n m G) in GB' end.
  unfold write_diagnostics. rewrite EF, EF'. cbn [bind]. unfold write_fields. cbv zeta. rewrite ZZ, TT.
  rewrite write_new with (es := [EDbl (Some (f_time F))]) by (try reflexivity; left; reflexivity). bsimp.
  rewrite (write_sheet _ _ n m _ _ N1 Hm NM GP), (write_sheet _ _ n m _ _ N1 Hm NM GP'), write_any by reflexivity. bsimp.
  rewrite (write_sheet _ _ n m _ _ N1 Hm NM MD), (write_sheet _ _ n m _ _ N1 Hm NM MD'), write_any by reflexivity. bsimp.
  rewrite (write_sheet _ _ n m _ _ N1 Hm NM SE), (write_sheet _ _ n m _ _ N1 Hm NM SE'), write_any by reflexivity. bsimp.
  rewrite (write_sheet _ _ n m _ _ N1 Hm NM EN), (write_sheet _ _ n m _ _ N1 Hm NM EN2), write_any by reflexivity. bsimp.
  rewrite (write_sheet _ _ n m _ _ N1 Hm NM GB), (write_sheet _ _ n m _ _ N1 Hm NM GB'), write_any by reflexivity. bsimp.
  rewrite (write_line _ _ (n + 1) _ _ ltac:(nia) RV), (write_line _ _ (n + 1) _ _ ltac:(nia) RV'), write_any by reflexivity. bsimp.
  rewrite (write_line _ _ (m + 1) _ _ ltac:(nia) R2), (write_line _ _ (m + 1) _ _ ltac:(nia) R2'). reflexivity.
Qed.

(** A state that has polar momentum: the opposite state has the same file. *)
Lemma turned_recovered D a b g T d u p : srhd_recover (V5 D a 0 0 b) g T = Ok (Prim d u 0 0 p) -> srhd_recover (V5 D 0 a 0 b) g T = Ok (Prim d 0 u 0 p).
Proof.
  unfold srhd_recover. cbn [c0 c1 c2 c3 c4]. replace (0 * 0 + a * a + 0 * 0) with (a * a + 0 * 0 + 0 * 0) by ring.
  destruct (HydroModel.newton _ _ _ _ _ _) as [[W0 q]|]; [|discriminate]. cbv zeta. set (q' := if Rlt_dec 0 T then _ else q). cbn [rho pre].
  destruct (Rle_dec (D / W0) 0); [discriminate|]. destruct (Rle_dec q' 0); [discriminate|]. intros E. injection E as E1 E2 E3 _ E4. rewrite E1, E2, E3, E4. reflexivity.
Qed.
Definition swirl_P (_ _ : Z) : prim := Prim 1 0 (3 / 4 * (5 / 4 * (5 / 4)) / (5 / 4 * (5 / 4) + 1 / 16)) 0 (1 / 16 * 1).
Definition swirl_U (i j : Z) : v5 := times5 (V5 (1 * (5 / 4)) 0 (1 * (5 / 4) * (3 / 4)) 0 (1 * (5 / 4) * (5 / 4) - 1 * (5 / 4))) (vol demo_X demo_Q i j).
Definition swirl : solution := Solution 1 (vector 5 demo_X) (vector 3 demo_Q) (table 4 2 swirl_U).
Definition counter_swirl : solution := Solution 1 (vector 5 demo_X) (vector 3 demo_Q) (table 4 2 (fun i j => mirrored (swirl_U i j))).
Lemma swirl_gas : gas_of layered 4 2 demo_X demo_Q swirl_U swirl_P.
Proof.
  apply gas_recovered. intros i j Hi Hj. pose proof (demo_vol i j ltac:(lia) Hj) as V. unfold swirl_U. set (v := vol demo_X demo_Q i j) in *.
  match goal with |- srhd_recover (over5 (times5 ?w v) v) _ _ = _ => replace (over5 (times5 w v) v) with w by (unfold over5, times5; cbn [c0 c1 c2 c3 c4]; f_equal; field; lra) end.
  change (temperature_floor layered) with (1 / 16). apply turned_recovered, cold_recovered; lra.
Qed.
Lemma swirl_grid : on_grid swirl 4 2 demo_X demo_Q swirl_U.
Proof. split; [apply (vector_rep 5)|split; [apply (vector_rep 3)|apply table_grid]]. Qed.
Lemma counter_grid : on_grid counter_swirl 4 2 demo_X demo_Q (fun i j => mirrored (swirl_U i j)).
Proof. split; [apply (vector_rep 5)|split; [apply (vector_rep 3)|apply table_grid]]. Qed.
Example cloud_file_example : exists g zs, write_diagnostics layered 20 swirl = Ok g /\ write_diagnostics layered 20 counter_swirl = Ok g /\
  read (array_info dbl 2) g (lit "radial_gamma_beta"%string) = Ok ([4%nat; 2%nat], [Some 0; Some 0; Some 0; Some 0; Some 0; Some 0; Some 0; Some 0]) /\
  read (array_info dbl 1) g (lit "polar_vertices"%string) = Ok ([3%nat], [Some (0 * (PI / 2)); Some (1 * (PI / 2)); Some (2 * (PI / 2))]) /\
  read (array_info dbl 1) g (lit "solid_angle_at_theta"%string) = Ok (per_zone solid_angle zs) /\ List.length zs = 2%nat /\
  aget (conserved swirl) [0%Z; 0%Z] <> aget (conserved counter_swirl) [0%Z; 0%Z].
Proof.
  assert (HS : sizes 20 4 2) by (unfold sizes; lia). assert (HX : demo_X 0 <> 0) by (unfold demo_X; cbn; lra).
  destruct (cloud_file layered 20 4 2 demo_X demo_Q swirl_U swirl swirl_P layered_good HS ltac:(lia) HX swirl_grid swirl_gas) as (g & zs & E & _ & L & _ & R). cbv zeta in R.
  destruct R as (_ & _ & _ & _ & _ & R1 & _ & R2 & R3 & _). exists g, zs. split; [exact E|].
  split; [rewrite <- E; apply (cloud_file_mirrored layered 20 4 2 demo_X demo_Q swirl_U swirl counter_swirl swirl_P layered_good HS ltac:(lia) HX swirl_gas swirl_grid counter_grid); reflexivity|].
  split; [exact R1|]. split; [exact R2|]. split; [exact R3|]. split; [lia|].
  destruct swirl_grid as (_ & _ & (_ & G)). destruct counter_grid as (_ & _ & (_ & G')). rewrite G, G' by lia. intros EE. injection EE as EE. unfold mirrored, swirl_U, times5 in EE. cbn [c0 c1 c2 c3 c4] in EE.
  pose proof (demo_vol 0 0 ltac:(lia) ltac:(lia)) as V. nra.
Qed.

(** *** time_series.h5 *)
Lemma loop_extends {T Sol Cfg} tadd tdue next time_of others cpi cont : forall n (w w' : sstate (T := T) (Sol := Sol) (Cfg := Cfg) * list sout),
  sloop tadd tdue next time_of others cpi cont n w = Ok w' -> exists tail, snd w' = snd w ++ tail.
Proof.
  induction n as [|n IH]; intros w w' E.
  - cbn [sloop] in E. injection E as <-. exists []. rewrite app_nil_r. reflexivity.
  - cbn [sloop] in E. destruct (cont _ _).
    + apply bind_ok_inv in E as (s1 & _ & E). apply bind_ok_inv in E as (r & _ & E). destruct (IH _ _ E) as (tail & ->). cbn [snd]. exists (snd r ++ tail). rewrite app_assoc. reflexivity.
    + injection E as <-. exists []. rewrite app_nil_r. reflexivity.
Qed.
(** Every run that ends has performed write_time_series, as its schedule says, and the file has its columns without a row. *)
Theorem cloud_series_refuted fuel secant c rounds o code : cloud_program fuel secant c rounds = Ok (o, code) -> 
  In (SOther (lit "write_time_series"%string) 0%Z) o /\
  exists f, new_series = Ok f /\ map fst f = [lit "shock_radius"%string; lit "time"%string] /\ forall s, exists f', series_after s o f = Ok f' /\ map fst f' = map fst f /\ forall name d, mfind name f' = Some d -> ExtentModel.d_dims d = [0%Z].
Proof.
  intros E. split.
  - unfold cloud_program in E. apply bind_ok_inv in E as (s0 & _ & E). unfold simple_program in E. apply bind_ok_inv in E as (sc & E1 & E). apply bind_ok_inv in E as (r & E2 & E). apply bind_ok_inv in E as (w & E3 & E).
    destruct (loop_extends _ _ _ _ _ _ _ _ _ _ E3) as (tail & EW). match type of E with (if ?b then _ else _) = _ => destruct b; [discriminate|] end.
    apply bind_ok_inv in E as (s1 & _ & E). apply bind_ok_inv in E as (r2 & _ & E). injection E as <- _. rewrite EW.
    assert (IR : In (SOther (lit "write_time_series"%string) 0%Z) (snd r)); [|apply in_or_app; left; apply in_or_app; left; exact IR].
    vm_compute in E1. injection E1 as <-. vm_compute in E2. injection E2 as <-. right. right. left. reflexivity.
  - assert (EF : exists f, new_series = Ok f) by (eexists; vm_compute; reflexivity). destruct EF as (f & EF). exists f. split; [exact EF|]. split; [vm_compute in EF; injection EF as <-; reflexivity|]. intros s. exists f. split; [|split; [reflexivity|]].
    + clear E. unfold series_after. revert f EF. induction o as [|x o IH]; intros f EF; [reflexivity|]. cbn [foldM].
      assert (EX : (match x with SOther name _ => match str_cmp name (lit "write_time_series"%string) with Eq => write_time_series s f | _ => Ok f end | _ => Ok f end) = Ok f) by (destruct x as [k g|name k]; [reflexivity|]; destruct (str_cmp _ _); reflexivity).
      rewrite EX. cbn [bind]. apply IH. exact EF.
    + vm_compute in EF. injection EF as <-. intros name d. cbn [mfind]. repeat (destruct (str_cmp _ _); try (intros EE; injection EE as <-; reflexivity); try discriminate).
Qed.

Print Assumptions cloud_file.
Print Assumptions cloud_file_one_shell.
Print Assumptions cloud_file_mirrored.
Print Assumptions cloud_series_refuted.
