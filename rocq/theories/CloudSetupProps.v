(** C89, C90: grid, geometry, time step and initial condition of the cloud program (src/subprog_cloud.cpp 260-290, 610-679). *)
From Coq Require Import ZArith Reals List Lia Lra Bool Machin.
From Verif Require Import Base NdModel NdSpec NdProofs NdOpsModel NdOpsProofs2 DimensionalModel HydroModel HlleProofs SrhdProps HlleProps PlmModel SedovModel Rep1Proofs SedovProofs SedovProps SedovGridProps Rep2Proofs CloudModel CloudProofs CloudProofs2 CloudProps.
From Verif Require AtmosphereModel EnvelopProofs EnvelopProps.
Import ListNotations.
Open Scope R_scope.

(** *** Statements *)
(** Evenly spaced in the logarithm of the radius over the decades, and in the polar angle from pole to pole. *)
Definition log_radius (decades : R) (n k : Z) : R := Rpower 10 (decades * IZR k / IZR n).
Definition even_angle (m k : Z) : R := PI * IZR k / IZR m.
(** The number of shells the program makes. *)
Definition shell_count (c : config) (n : Z) : Prop := IZR n <= num_decades c * IZR (nr c) < IZR n + 1.
(** What the program puts into a shell with the centre r (in inner radii): density d (in code units), gamma-beta u. *)
Definition envelop_state (c : config) (secant_fuel : nat) (r : R) (P : prim) : Prop :=
  let e := AtmosphereModel.Envelop (inner_radius c) (5 / 1000 * (1989 * 10 ^ 30)) 4 (10 ^ 26) (1 / 4) (density_index c) in
  exists d u, AtmosphereModel.envelop_density_at e secant_fuel (r * inner_radius c) (jet_delay_time c) = Ok d /\
    AtmosphereModel.gamma_beta_at e secant_fuel (r * inner_radius c) (jet_delay_time c) = Ok u /\
    let k := inner_radius c ^ 3 / (cloud_mass c * (1989 * 10 ^ 30)) in P = Prim (d * k) u 0 0 (d * k / 1000000).

(** *** Proofs *)
Lemma truncate_value x n : (0 <= n)%Z -> IZR n <= x < IZR n + 1 -> truncate x = n.
Proof.
  intros Hn HX. assert (0 <= IZR n) by (apply IZR_le; lia). unfold truncate. destruct (Rle_dec 0 x) as [_|?]; [|lra]. pose proof (Int_part_spec x) as IP.
  assert (A : IZR (Int_part x) < IZR (n + 1)) by (rewrite plus_IZR; lra). assert (B : IZR n < IZR (Int_part x + 1)) by (rewrite plus_IZR; lra). apply lt_IZR in A, B. lia.
Qed.
Lemma chk_small y : (0 <= y <= 2147483647)%Z -> chk y = Ok y.
Proof. intros Hy. apply chk_ok, in_int_spec. lia. Qed.
Lemma initial_spec c k r P : good_cloud c -> initial_p c (make_cloud_envelop_model c) (units_of c) k r = Ok P <-> envelop_state c k r P.
Proof.
  intros G. destruct (units_nonzero c G) as [A B]. cbn [u_length u_mass units_of] in A, B. unfold initial_p, envelop_state, make_cloud_envelop_model, AtmosphereModel.default_envelop, AtmosphereModel.solar_mass. cbv zeta. cbn [AtmosphereModel.envelop_mass AtmosphereModel.u1 AtmosphereModel.m1 AtmosphereModel.psi u_length units_of].
  set (e := AtmosphereModel.Envelop _ _ _ _ _ _). assert (ME : forall d, d / mass_density (units_of c) = d * (inner_radius c ^ 3 / (cloud_mass c * (1989 * 10 ^ 30)))).
  { intros d. unfold mass_density. cbn [u_length u_mass units_of]. assert (0 < 10 ^ 30) by (apply pow_lt; lra). set (z := 10 ^ 30) in *. field. repeat split; try exact A; intros X; try lra; apply B; rewrite X; ring. }
  split.
  - intros E. apply bind_ok_inv in E as (d & E1 & E). apply bind_ok_inv in E as (u & E2 & E). injection E as <-. exists d, u. split; [exact E1|]. split; [exact E2|]. rewrite ME. f_equal. unfold Rdiv. ring.
  - intros (d & u & E1 & E2 & ->). rewrite E1. bsimp. rewrite E2. bsimp. rewrite ME. f_equal. f_equal. unfold Rdiv. ring.
Qed.
Section Start.
Variables (c : config) (fuel : nat) (n : Z).
Hypotheses (G : good_cloud c) (HS : sizes fuel n (nr c)) (HZ : shell_count c n).
Let X := log_radius (num_decades c) n.
Let Q := even_angle (nr c).
Lemma vertices_reps : exists rv qv, evaluate fuel 0 (new_radial_vertices c n) = Ok rv /\ evaluate fuel 0 (new_polar_vertices c) = Ok qv /\ rep1 rv (n + 1) X /\ rep1 qv (nr c + 1) Q.
Proof.
  destruct (sizes_fit _ _ _ HS) as (A & B & C & D & F). pose proof HS as (Hn & Hm & _). destruct (F (n + 1)%Z 1%Z ltac:(lia) ltac:(lia)) as [_ F1]. destruct (F 1%Z (nr c + 1)%Z ltac:(lia) ltac:(lia)) as [_ F2].
  assert (RX : rep1 (new_radial_vertices c n) (n + 1) X).
  { unfold new_radial_vertices. eapply rep1_ext; [apply (map1 (fun y => Rpower 10 y)); unfold linspace; split; [reflexivity|]; intros k Hk; cbn [aget hd]; rewrite w64_small by (unfold two64 in *; lia); replace (n + 1 - 1)%Z with n by lia; reflexivity|].
    intros k Hk. unfold X, log_radius. f_equal. unfold Rdiv. ring. }
  assert (RQ : rep1 (new_polar_vertices c) (nr c + 1) Q).
  { unfold new_polar_vertices, linspace. split; [reflexivity|]. intros k Hk. cbn [aget hd]. rewrite w64_small by (unfold two64 in *; lia). replace (nr c + 1 - 1)%Z with (nr c) by lia. f_equal. unfold Q, even_angle, Rdiv. ring. }
  destruct (evaluate1 fuel 0 _ (n + 1) X ltac:(lia) ltac:(rewrite Z.mul_1_r in F1; exact F1) RX) as (rv & E1 & R1). destruct (evaluate1 fuel 0 _ (nr c + 1) Q ltac:(lia) ltac:(rewrite Z.mul_1_l in F2; exact F2) RQ) as (qv & E2 & R2).
  exists rv, qv. repeat split; try assumption; try apply R1; apply R2.
Qed.
Lemma start_value k s : new_solution c fuel k = Ok s <->
  exists P rv qv u, (forall i, (0 <= i < n)%Z -> envelop_state c k (center_r X i) (P i)) /\ evaluate fuel 0 (new_radial_vertices c n) = Ok rv /\ evaluate fuel 0 (new_polar_vertices c) = Ok qv /\ 
    s = Solution 0 rv qv u /\ new_solution c fuel k = Ok s /\ on_grid s n (nr c) X Q (fun i j => times5 (srhd_conserved (P i) gamma_law_index) (vol X Q i j)).
Proof.
  split; [|intros (P & rv & qv & u & _ & _ & _ & _ & E & _); exact E]. intros E0. pose proof E0 as E. destruct vertices_reps as (rv & qv & E1 & E2 & R1 & R2). destruct (sizes_fit _ _ _ HS) as (A & B & C & D & F). pose proof HS as (Hn & Hm & _). destruct (F n (nr c) ltac:(lia) ltac:(lia)) as [F1 F2].
  unfold new_solution in E. cbv zeta in E. rewrite (reference_units c G) in E. cbn [bind] in E. rewrite (truncate_value _ n ltac:(lia) HZ), chk_small in E by lia. cbn [bind] in E. rewrite chk_small in E by lia. cbn [bind] in E. replace (n + 1 - 1)%Z with n in E by lia.
  rewrite E1 in E. cbn [bind] in E. rewrite chk_small in E by lia. cbn [bind] in E. rewrite E2 in E. cbn [bind] in E.
  destruct (volumes_rep fuel n (nr c) X Q rv qv HS R1 R2) as (dv & E3 & R3). rewrite E3 in E. cbn [bind] in E. destruct (centroids_rep fuel n (nr c) X Q rv qv HS R1 R2) as (cc & E4 & R4). rewrite E4 in E. cbn [bind] in E.
  set (e := make_cloud_envelop_model c) in *. set (f := fun x : R * R => initial_p c e (units_of c) k (fst x)) in *.
  apply bind_ok_inv in E as (w & EW & E). apply bind_ok_inv in E as (u & EU & E). injection E as <-.
  assert (SW : ashape w = [n; nr c] /\ forall i, aget w i = do a <- aget (arr_map (fun P => srhd_conserved P gamma_law_index) (arr_mapM f cc)) i; do b <- aget dv i; Ok (times5 a b)).
  { unfold binary_op in EW. cbn [ashape arr_map arr_mapM] in EW. destruct (seq_eqb _ _) in EW; [|discriminate]. injection EW as <-. split; [apply R4|]. reflexivity. }
  destruct SW as [SW1 SW2]. pose proof (evaluate2_reads fuel zero5 w n (nr c) u ltac:(lia) ltac:(lia) F1 F2 SW1 EU) as V.
  assert (IP : forall i, (0 <= i < n)%Z -> exists P, f (center_r X i, center_q Q 0) = Ok P).
  { intros i Hi. destruct (V i 0%Z Hi ltac:(lia)) as [v Hv]. rewrite SW2 in Hv. apply bind_ok_inv in Hv as (a & Ha & _). cbn [arr_map arr_mapM aget] in Ha. rewrite (proj2 R4 i 0%Z Hi ltac:(lia)) in Ha. cbn [bind] in Ha. destruct (f (center_r X i, center_q Q 0)) as [P| | |] eqn:EF; [exists P; reflexivity|discriminate|discriminate|discriminate]. }
  exists (fun i => match f (center_r X i, center_q Q 0) with Ok P => P | _ => zero_prim end), rv, qv, u.
  assert (IP' : forall i, (0 <= i < n)%Z -> initial_p c e (units_of c) k (center_r X i) = Ok (match f (center_r X i, center_q Q 0) with Ok P => P | _ => zero_prim end)).
  { intros i Hi. destruct (IP i Hi) as [P HP]. rewrite HP. exact HP. }
  split; [intros i Hi; apply initial_spec; [exact G|apply IP', Hi]|]. split; [exact E1|]. split; [exact E2|]. split; [reflexivity|]. split; [exact E0|].
  split; [exact R1|]. split; [exact R2|]. cbn [conserved].
  pose proof (mapM2g f cc n (nr c) _ (fun i _ => match f (center_r X i, center_q Q 0) with Ok P => P | _ => zero_prim end) R4 ltac:(intros i j Hi Hj; exact (IP' i Hi))) as R5.
  destruct (binop2 times5 _ _ n (nr c) _ _ (map2g (fun P => srhd_conserved P gamma_law_index) _ _ _ _ R5) R3) as (w' & EW' & R6). rewrite EW' in EW. injection EW as <-.
  destruct (evaluate2 fuel zero5 w' n (nr c) _ ltac:(lia) ltac:(lia) F1 F2 R6) as (u' & EU' & R7). rewrite EU' in EU. injection EU as <-. exact R7.
Qed.
Lemma start_exists k P : (forall i, (0 <= i < n)%Z -> envelop_state c k (center_r X i) (P i)) -> exists s, new_solution c fuel k = Ok s.
Proof.
  intros HP. destruct vertices_reps as (rv & qv & E1 & E2 & R1 & R2). destruct (sizes_fit _ _ _ HS) as (A & B & C & D & F). pose proof HS as (Hn & Hm & _). destruct (F n (nr c) ltac:(lia) ltac:(lia)) as [F1 F2].
  unfold new_solution. cbv zeta. rewrite (reference_units c G). bsimp. rewrite (truncate_value _ n ltac:(lia) HZ), chk_small by lia. bsimp. rewrite chk_small by lia. bsimp. replace (n + 1 - 1)%Z with n by lia.
  rewrite E1. bsimp. rewrite chk_small by lia. bsimp. rewrite E2. bsimp. destruct (volumes_rep fuel n (nr c) X Q rv qv HS R1 R2) as (dv & E3 & R3). rewrite E3. bsimp. destruct (centroids_rep fuel n (nr c) X Q rv qv HS R1 R2) as (cc & E4 & R4). rewrite E4. bsimp.
  pose proof (mapM2g (fun x : R * R => initial_p c (make_cloud_envelop_model c) (units_of c) k (fst x)) cc n (nr c) _ (fun i _ => P i) R4 ltac:(intros i j Hi Hj; cbn [fst]; apply initial_spec; [exact G|apply HP, Hi])) as R5.
  destruct (binop2 times5 _ _ n (nr c) _ _ (map2g (fun P => srhd_conserved P gamma_law_index) _ _ _ _ R5) R3) as (w' & EW' & R6). rewrite EW'. bsimp. destruct (evaluate2 fuel zero5 w' n (nr c) _ ltac:(lia) ltac:(lia) F1 F2 R6) as (u' & EU' & R7). rewrite EU'. bsimp. eauto.
Qed.
End Start.

(** *** C89: the grid *)
Lemma radius_positive D n k : 0 < log_radius D n k. Proof. apply exp_pos. Qed.
Lemma radius_ratio D n k : log_radius D n (k + 1) = log_radius D n k * Rpower 10 (D / IZR n).
Proof. unfold log_radius. rewrite <- Rpower_plus. f_equal. rewrite plus_IZR. unfold Rdiv. ring. Qed.
Lemma ratio_above_one D n : 0 < D -> (1 <= n)%Z -> 1 < Rpower 10 (D / IZR n).
Proof. intros HD Hn. assert (0 < IZR n) by (apply IZR_lt; lia). pose proof (Rpower_lt 10 0 (D / IZR n) ltac:(lra) ltac:(apply Rdiv_lt_0_compat; lra)) as Q. rewrite Rpower_O in Q by lra. exact Q. Qed.
(** A new run starts at time zero with [n] shells from 1 to 10^decades (in inner radii), each wider than the one inside it by
    the same factor, and [nr] equal polar zones from pole to pole; every cell of a shell holds the envelop's density and
    velocity at the middle of the shell, at a millionth of its rest energy in pressure. *)
Theorem cloud_grid c fuel k n s : good_cloud c -> sizes fuel n (nr c) -> 0 < num_decades c -> shell_count c n -> new_solution c fuel k = Ok s ->
  exists X Q P, time s = 0 /\
    X 0%Z = 1 /\ X n = Rpower 10 (num_decades c) /\ (exists q, 1 < q /\ forall i, X (i + 1)%Z = X i * q) /\
    Q 0%Z = 0 /\ Q (nr c) = PI /\ (forall j, Q (j + 1)%Z - Q j = PI / IZR (nr c)) /\
    (forall i, (0 <= i < n)%Z -> envelop_state c k ((X i + X (i + 1)%Z) / 2) (P i)) /\
    on_grid s n (nr c) X Q (fun i j => times5 (srhd_conserved (P i) (4 / 3)) (2 * PI / 3 * (X (i + 1)%Z ^ 3 - X i ^ 3) * (cos (Q j) - cos (Q (j + 1)%Z)))).
Proof.
  intros G HS HD HZ E. apply (start_value c fuel n G HS HZ k s) in E as (P & rv & qv & u & HP & _ & _ & ES & _ & R). pose proof HS as (Hn & Hm & _). assert (0 < IZR n) by (apply IZR_lt; lia). assert (0 < IZR (nr c)) by (apply IZR_lt; lia).
  exists (log_radius (num_decades c) n), (even_angle (nr c)), P. split; [rewrite ES; reflexivity|].
  split; [unfold log_radius; replace (num_decades c * 0 / IZR n) with 0 by (field; lra); apply Rpower_O; lra|].
  split; [unfold log_radius; f_equal; field; lra|]. split; [eexists; split; [apply (ratio_above_one (num_decades c) n HD Hn)|apply radius_ratio]|].
  split; [unfold even_angle; field; lra|]. split; [unfold even_angle; field; lra|]. split; [intros j; unfold even_angle; rewrite plus_IZR; field; lra|].
  split.
  - intros i Hi. specialize (HP i Hi). unfold center_r in HP. rewrite (Z.add_comm 1 i) in HP. replace ((log_radius (num_decades c) n i + log_radius (num_decades c) n (i + 1)) / 2) with ((log_radius (num_decades c) n i + log_radius (num_decades c) n (i + 1)) * 0.5) by lra. exact HP.
  - destruct R as (R1 & R2 & R3). split; [exact R1|]. split; [exact R2|]. eapply grid2_ext; [exact R3|]. intros i j Hi Hj. unfold gamma_law_index. f_equal. unfold vol. rewrite (Z.add_comm 1 i), (Z.add_comm 1 j). field.
Qed.
Definition spherical (n m : Z) (X Q : Z -> R) : Prop :=
  0 < X 0%Z /\ (forall i, (0 <= i < n)%Z -> X i < X (i + 1)%Z) /\ Q 0%Z = 0 /\ Q m = PI /\ (forall j, (0 <= j < m)%Z -> Q j < Q (j + 1)%Z).
Lemma radii_positive n m X Q : spherical n m X Q -> forall i, (0 <= i <= n)%Z -> 0 < X i.
Proof.
  intros (H0 & HG & _) i Hi. assert (G : forall k : nat, (Z.of_nat k <= n)%Z -> 0 < X (Z.of_nat k)).
  { induction k as [|k IH]; intros Hk; [exact H0|]. specialize (HG (Z.of_nat k) ltac:(lia)). replace (Z.of_nat (S k)) with (Z.of_nat k + 1)%Z by lia. specialize (IH ltac:(lia)). lra. }
  specialize (G (Z.to_nat i)). rewrite Z2Nat.id in G by lia. apply G. lia.
Qed.
Lemma angles_ordered n m X Q : spherical n m X Q -> (0 <= m)%Z -> forall j, (0 <= j <= m)%Z -> 0 <= Q j <= PI.
Proof.
  intros (_ & _ & H0 & HM & HG) Hm j Hj. assert (A : forall k : nat, (Z.of_nat k <= m)%Z -> 0 <= Q (Z.of_nat k)).
  { induction k as [|k IH]; intros Hk; [cbn [Z.of_nat]; lra|]. specialize (HG (Z.of_nat k) ltac:(lia)). replace (Z.of_nat (S k)) with (Z.of_nat k + 1)%Z by lia. specialize (IH ltac:(lia)). lra. }
  assert (B : forall k : nat, (Z.of_nat k <= m)%Z -> Q (m - Z.of_nat k)%Z <= PI).
  { induction k as [|k IH]; intros Hk; [cbn [Z.of_nat]; rewrite Z.sub_0_r; lra|]. specialize (HG (m - Z.of_nat (S k))%Z ltac:(lia)). replace (m - Z.of_nat (S k) + 1)%Z with (m - Z.of_nat k)%Z in HG by lia. specialize (IH ltac:(lia)). lra. }
  specialize (A (Z.to_nat j)). rewrite Z2Nat.id in A by lia. specialize (B (Z.to_nat (m - j))). rewrite Z2Nat.id in B by lia. replace (m - (m - j))%Z with j in B by lia. split; [apply A|apply B]; lia.
Qed.
(** The volumes and the areas the program computes for a grid of shells and zones: positive, and together those of the
    spherical shell and of the spheres. *)
Theorem cloud_geometry fuel n m X Q rv qv : sizes fuel n m -> spherical n m X Q -> rep1 rv (n + 1) X -> rep1 qv (m + 1) Q ->
  exists dv da db V A B, cell_volumes rv qv = Ok dv /\ radial_face_areas rv qv = Ok da /\ polar_face_areas rv qv = Ok db /\ grid2 dv n m V /\ grid2 da (n + 1) m A /\ grid2 db n (m + 1) B /\
    (forall i j, (0 <= i < n)%Z -> (0 <= j < m)%Z -> 0 < V i j) /\ rsum (fun i => rsum (fun j => V i j) m) n = 4 * PI / 3 * (X n ^ 3 - X 0%Z ^ 3) /\
    (forall i j, (0 <= i <= n)%Z -> (0 <= j < m)%Z -> 0 < A i j) /\ (forall i, (0 <= i <= n)%Z -> rsum (fun j => A i j) m = 4 * PI * X i ^ 2) /\
    (forall i, (0 <= i < n)%Z -> B i 0%Z = 0 /\ B i m = 0 /\ forall j, (0 < j < m)%Z -> B i j = PI * (X (i + 1)%Z ^ 2 - X i ^ 2) * sin (Q j) /\ 0 < B i j).
Proof.
  intros HS SP HX HQ. pose proof HS as (Hn & Hm & _). pose proof (radii_positive n m X Q SP) as PX. pose proof (angles_ordered n m X Q SP ltac:(lia)) as PQ. destruct SP as (H0 & HG & Q0 & QM & QG). pose proof PI_RGT_0 as PI0.
  destruct (volumes_rep fuel n m X Q rv qv HS HX HQ) as (dv & E1 & R1). destruct (radial_areas_rep fuel n m X Q rv qv HS HX HQ) as (da & E2 & R2). destruct (polar_areas_rep fuel n m X Q rv qv HS HX HQ) as (db & E3 & R3).
  exists dv, da, db, (vol X Q), (area_r X Q), (area_q X Q). do 6 (split; [assumption|]).
  assert (CD : forall j, (0 <= j < m)%Z -> 0 < cos (Q j) - cos (Q (1 + j)%Z)).
  { intros j Hj. rewrite (Z.add_comm 1 j). pose proof (PQ j ltac:(lia)). pose proof (PQ (j + 1)%Z ltac:(lia)). pose proof (cos_decreasing_1 (Q j) (Q (j + 1)%Z) ltac:(lra) ltac:(lra) ltac:(lra) ltac:(lra) (QG j Hj)). lra. }
  assert (TS : rsum (fun j => cos (Q j) - cos (Q (1 + j)%Z)) m = 2).
  { rewrite (rsum_ext _ (fun j => (- cos (Q (1 + j)%Z)) - (- cos (Q j)))) by (intros; ring). rewrite (rsum_telescope (fun j => - cos (Q j))) by lia. rewrite Q0, QM, cos_0, cos_PI. ring. }
  split.
  { intros i j Hi Hj. unfold vol. specialize (CD j Hj). specialize (HG i Hi). specialize (PX i ltac:(lia)). rewrite (Z.add_comm 1 i). assert (0 < X (i + 1)%Z ^ 3 - X i ^ 3).
    { replace (X (i + 1)%Z ^ 3 - X i ^ 3) with ((X (i + 1)%Z - X i) * (X (i + 1)%Z ^ 2 + X (i + 1)%Z * X i + X i ^ 2)) by ring. apply Rmult_lt_0_compat; nra. }
    assert (0 < (X (i + 1)%Z ^ 3 - X i ^ 3) * (cos (Q j) - cos (Q (1 + j)%Z))) by (apply Rmult_lt_0_compat; assumption). set (z := (X (i + 1)%Z ^ 3 - X i ^ 3) * (cos (Q j) - cos (Q (1 + j)%Z))) in *. assert (0 < z * 2 * PI) by (apply Rmult_lt_0_compat; lra). lra. }
  split.
  { rewrite (rsum_ext _ (fun i => (X (1 + i)%Z ^ 3 - X i ^ 3) * (4 * PI / 3))).
    - rewrite rsum_scale, (rsum_telescope (fun i => X i ^ 3)) by lia. ring.
    - intros i Hi. rewrite (rsum_ext _ (fun j => (cos (Q j) - cos (Q (1 + j)%Z)) * ((X (1 + i)%Z ^ 3 - X i ^ 3) * 2 * PI / 3))) by (intros; unfold vol; field). rewrite rsum_scale, TS. field. }
  split.
  { intros i j Hi Hj. unfold area_r. specialize (CD j Hj). specialize (PX i Hi). assert (0 < X i * X i) by nra. assert (0 < X i * X i * (cos (Q j) - cos (Q (1 + j)%Z))) by (apply Rmult_lt_0_compat; assumption). apply Rmult_lt_0_compat; lra. }
  split.
  { intros i Hi. rewrite (rsum_ext _ (fun j => (cos (Q j) - cos (Q (1 + j)%Z)) * (X i * X i * 2 * PI))) by (intros; unfold area_r; ring). rewrite rsum_scale, TS. ring. }
  intros i Hi. unfold area_q, center_r. rewrite Q0, QM, sin_0, sin_PI. split; [ring|]. split; [ring|]. intros j Hj. replace 0.5 with (/ 2) by lra. rewrite (Z.add_comm 1 i).
  assert (EQ : (X i + X (i + 1)%Z) * / 2 * (X (i + 1)%Z - X i) * sin (Q j) * 2 * PI = PI * (X (i + 1)%Z ^ 2 - X i ^ 2) * sin (Q j)) by field. rewrite EQ. split; [reflexivity|].
  assert (0 < sin (Q j)).
  { apply sin_gt_0; [pose proof (QG (j - 1)%Z ltac:(lia)) as A; pose proof (PQ (j - 1)%Z ltac:(lia)); replace (j - 1 + 1)%Z with j in A by lia; lra|]. pose proof (QG j ltac:(lia)). pose proof (PQ (j + 1)%Z ltac:(lia)). lra. }
  specialize (HG i Hi). specialize (PX i ltac:(lia)). assert (0 < X (i + 1)%Z ^ 2 - X i ^ 2) by nra. apply Rmult_lt_0_compat; [|assumption]. apply Rmult_lt_0_compat; assumption.
Qed.

(** The step is cfl times the width of the innermost shell, and no shell of a grid with a constant ratio is narrower: nothing
    crosses more than cfl of a shell. *)
Theorem cloud_step_radial c fuel n m X Q U s P : sizes fuel n m -> spherical n m X Q -> on_grid s n m X Q U -> (exists q, 1 < q /\ forall i, X (i + 1)%Z = X i * q) -> 0 < cfl c -> gas P ->
  exists dt, time_step c s = Ok dt /\ 0 < dt /\ forall i, (0 <= i < n)%Z ->
    let w := srhd_wavespeeds P (make_unit_vector 1 0 0) (4 / 3) in Rabs (fst w) * dt < cfl c * (X (i + 1)%Z - X i) /\ Rabs (snd w) * dt < cfl c * (X (i + 1)%Z - X i).
Proof.
  intros HS SP HU (q & Hq & HQ) HC [GR GP]. pose proof HS as (Hn & Hm & _). destruct (sizes_fit _ _ _ HS) as (HB & _). pose proof (radii_positive n m X Q SP) as PX. destruct SP as (H0 & HG & _).
  exists (step_of c X). split; [apply (time_step_value c n m X Q s U Hn ltac:(lia) HU)|]. pose proof (HG 0%Z ltac:(lia)) as W0. change (0 + 1)%Z with 1%Z in W0.
  assert (DT : 0 < step_of c X) by (unfold step_of; apply Rmult_lt_0_compat; lra). split; [exact DT|]. intros i Hi. cbv zeta.
  assert (RE : relativistic P (4 / 3)) by (unfold relativistic; lra). pose proof (signal_speeds_below_light P _ _ RE radial_norm) as SB. fold radial.
  assert (MX : X 0%Z <= X i).
  { assert (M : forall k : nat, (Z.of_nat k < n)%Z -> X 0%Z <= X (Z.of_nat k)).
    { induction k as [|k IH]; intros Hk; [right; reflexivity|]. specialize (IH ltac:(lia)). pose proof (HG (Z.of_nat k) ltac:(lia)) as A. replace (Z.of_nat k + 1)%Z with (Z.of_nat (S k)) in A by lia. lra. }
    specialize (M (Z.to_nat i)). rewrite Z2Nat.id in M by lia. apply M. lia. }
  assert (WI : step_of c X <= cfl c * (X (i + 1)%Z - X i)).
  { unfold step_of. apply Rmult_le_compat_l; [lra|]. pose proof (HQ 0%Z) as HQ0. change (0 + 1)%Z with 1%Z in HQ0. rewrite (HQ i), HQ0. nra. }
  destruct (srhd_wavespeeds P radial (4 / 3)) as [a b]. cbn [fst snd]. assert (V : -1 < a < 1 /\ -1 < b < 1) by lra.
  assert (AB : forall x, -1 < x < 1 -> Rabs x * step_of c X < step_of c X) by (intros x Hx; assert (Rabs x < 1) by (apply Rabs_def1; lra); nra).
  pose proof (AB a (proj1 V)). pose proof (AB b (proj2 V)). lra.
Qed.
(** The polar direction: with at least four zones per decade and a whole number of shells the zones at the inner edge are
    no narrower than the innermost shell. *)
Lemma bernoulli x n : -1 <= x -> 1 + INR n * x <= (1 + x) ^ n.
Proof.
  intros Hx. induction n as [|n IH]; [cbn; lra|]. rewrite S_INR. cbn [pow]. assert (0 <= 1 + x) by lra. assert ((1 + x) * (1 + INR n * x) <= (1 + x) * (1 + x) ^ n) by (apply Rmult_le_compat_l; assumption).
  assert (0 <= INR n) by apply pos_INR. nra.
Qed.
Lemma compound a n : 0 < a -> (1 <= n)%nat -> (1 + a / INR n) ^ n <= (1 + a / INR (S n)) ^ (S n).
Proof.
  intros Ha Hn. assert (N : 0 < INR n) by (apply lt_0_INR; lia). rewrite S_INR. set (m := INR n) in *. set (y := 1 + a / m). assert (Y : 1 < y) by (unfold y; assert (0 < a / m) by (apply Rdiv_lt_0_compat; assumption); lra).
  assert (E : 1 + a / (m + 1) = y * (1 + - (a / ((m + 1) * (m + a))))) by (unfold y; field; lra). rewrite E, Rpow_mult_distr.
  assert (B : 1 + INR (S n) * - (a / ((m + 1) * (m + a))) <= (1 + - (a / ((m + 1) * (m + a)))) ^ S n).
  { apply bernoulli. assert (a / ((m + 1) * (m + a)) <= 1); [|lra]. apply Rmult_le_reg_r with ((m + 1) * (m + a)); [apply Rmult_lt_0_compat; lra|]. unfold Rdiv. rewrite Rmult_assoc, Rinv_l by (apply Rgt_not_eq, Rmult_lt_0_compat; lra). nra. }
  rewrite S_INR in B. fold m in B. replace (1 + (m + 1) * - (a / ((m + 1) * (m + a)))) with (/ y) in B by (unfold y; field; lra).
  assert (PY : 0 < y ^ S n) by (apply pow_lt; lra). apply Rle_trans with (y ^ S n * / y); [|apply Rmult_le_compat_l; lra]. cbn [pow]. right. field. lra.
Qed.
Lemma pi_lower : 0.783 < PI / 4.
Proof. pose proof (proj1 (Machin.PI_2_3_7_ineq 0)) as H. unfold tg_alt, Machin.PI_2_3_7_tg, Ratan_seq in H. cbn in H. lra. Qed.
Lemma ten_below m : (4 <= m)%nat -> 10 <= (1 + PI / INR m) ^ m.
Proof.
  intros Hm. pose proof PI_RGT_0. induction m as [|m IH]; [lia|]. destruct (Nat.eq_dec m 3) as [-> |N].
  - pose proof pi_lower as L. replace (PI / INR 4) with (PI / 4) by (cbn; field). assert (1.783 ^ 4 <= (1 + PI / 4) ^ 4) by (apply pow_incr; lra). lra.
  - eapply Rle_trans; [apply IH; lia|]. apply compound; [assumption|lia].
Qed.
Lemma polar_wider m : (4 <= m)%Z -> Rpower 10 (/ IZR m) - 1 <= PI / IZR m.
Proof.
  intros Hm. pose proof (ten_below (Z.to_nat m) ltac:(lia)) as T. rewrite INR_IZR_INZ, Z2Nat.id in T by lia. assert (M : 0 < IZR m) by (apply IZR_lt; lia). pose proof PI_RGT_0. assert (P : 0 < PI / IZR m) by (apply Rdiv_lt_0_compat; assumption).
  rewrite <- Rpower_pow in T by lra. rewrite INR_IZR_INZ, Z2Nat.id in T by lia.
  assert (L : Rpower 10 (/ IZR m) <= Rpower (Rpower (1 + PI / IZR m) (IZR m)) (/ IZR m)) by (apply Rle_Rpower_l; [left; apply Rinv_0_lt_compat, M|lra]).
  rewrite Rpower_mult, Rinv_r, Rpower_1 in L by lra. lra.
Qed.
Theorem cloud_step_polar c fuel k n s P : good_cloud c -> sizes fuel n (nr c) -> 0 < num_decades c -> (4 <= nr c)%Z -> num_decades c * IZR (nr c) = IZR n -> new_solution c fuel k = Ok s -> 0 < cfl c -> gas P ->
  exists X dt U, on_grid s n (nr c) X (even_angle (nr c)) U /\ time_step c s = Ok dt /\ forall i, (0 <= i <= n)%Z ->
    let w := srhd_wavespeeds P (make_unit_vector 0 1 0) (4 / 3) in
    Rabs (fst w) * dt < cfl c * (X i * (PI / IZR (nr c))) /\ Rabs (snd w) * dt < cfl c * (X i * (PI / IZR (nr c))).
Proof.
  intros G HS HD H4 HN E HC [GR GP]. apply (start_value c fuel n G HS ltac:(unfold shell_count; lra) k s) in E as (P0 & rv & qv & u & _ & _ & _ & _ & _ & R).
  pose proof HS as (Hn & Hm & _). destruct (sizes_fit _ _ _ HS) as (HB & _). set (X := log_radius (num_decades c) n) in *. exists X, (step_of c X). eexists. split; [exact R|]. split; [apply (time_step_value c n (nr c) X _ s _ Hn ltac:(lia) R)|].
  intros i Hi. cbv zeta. assert (M : 0 < IZR (nr c)) by (apply IZR_lt; lia). assert (NP : 0 < IZR n) by (apply IZR_lt; lia). pose proof PI_RGT_0.
  assert (DN : num_decades c / IZR n = / IZR (nr c)) by (rewrite <- HN; field; lra).
  assert (X0 : X 0%Z = 1) by (unfold X, log_radius; replace (num_decades c * 0 / IZR n) with 0 by (field; lra); apply Rpower_O; lra).
  assert (X1 : X 1%Z = Rpower 10 (/ IZR (nr c))) by (unfold X, log_radius; f_equal; rewrite <- DN; field; lra).
  assert (XI : 1 <= X i).
  { rewrite <- X0. unfold X, log_radius. apply Rle_Rpower; [lra|]. apply Rmult_le_compat_r; [left; apply Rinv_0_lt_compat, NP|]. apply Rmult_le_compat_l; [lra|]. apply IZR_le. lia. }
  assert (S1 : 1 < X 1%Z) by (rewrite X1, <- DN; apply ratio_above_one; assumption).
  assert (ST : 0 < step_of c X <= cfl c * (X i * (PI / IZR (nr c)))).
  { unfold step_of. rewrite X0. split; [apply Rmult_lt_0_compat; lra|]. apply Rmult_le_compat_l; [lra|]. pose proof (polar_wider (nr c) H4) as PW. rewrite X1. assert (0 < PI / IZR (nr c)) by (apply Rdiv_lt_0_compat; assumption). nra. }
  assert (RE : relativistic P (4 / 3)) by (unfold relativistic; lra). assert (UN : unit_norm (make_unit_vector 0 1 0)) by (unfold unit_norm; simpl; ring). pose proof (signal_speeds_below_light P _ _ RE UN) as SB.
  destruct (srhd_wavespeeds P (make_unit_vector 0 1 0) (4 / 3)) as [a b]. cbn [fst snd]. assert (V : -1 < a < 1 /\ -1 < b < 1) by lra.
  assert (AB : forall x, -1 < x < 1 -> Rabs x * step_of c X < step_of c X) by (intros x Hx; assert (Rabs x < 1) by (apply Rabs_def1; lra); nra).
  pose proof (AB a (proj1 V)). pose proof (AB b (proj2 V)). lra.
Qed.
(** Finding: "nr: number of radial zones, per decade" is an upper bound, missed whenever num_decades * nr is not whole. *)
Theorem cloud_zones_refuted c fuel k n s : good_cloud c -> sizes fuel n (nr c) -> 0 < num_decades c -> shell_count c n -> new_solution c fuel k = Ok s ->
  exists X Q U, on_grid s n (nr c) X Q U /\ IZR n / (ln (X n / X 0%Z) / ln 10) <= IZR (nr c) /\ (num_decades c * IZR (nr c) <> IZR n -> IZR n / (ln (X n / X 0%Z) / ln 10) < IZR (nr c)).
Proof.
  intros G HS HD HZ E. destruct (cloud_grid c fuel k n s G HS HD HZ E) as (X & Q & P & _ & X0 & XN & _ & _ & _ & _ & _ & R). exists X, Q. eexists. split; [exact R|].
  assert (L : ln (X n / X 0%Z) / ln 10 = num_decades c). { rewrite X0, XN. unfold Rdiv. rewrite Rinv_1, Rmult_1_r. unfold Rpower. rewrite ln_exp. pose proof ln10. field. lra. }
  rewrite L. destruct HZ as [A B]. assert (I : 0 < / num_decades c) by (apply Rinv_0_lt_compat, HD). assert (EQ : IZR (nr c) = num_decades c * IZR (nr c) / num_decades c) by (field; lra). unfold Rdiv at 1 2. split.
  - rewrite EQ. apply Rmult_le_compat_r; lra.
  - intros N. rewrite EQ. apply Rmult_lt_compat_r; [exact I|]. destruct A as [A|A]; [exact A|]. exfalso. apply N. symmetry. exact A.
Qed.

(** *** C90: what the items of the cloud do *)
(** Another configuration that differs in cloud_mass, cloud_cutoff and density_index2 at most. *)
Definition same_but_cloud (c c' : config) : Prop := exists M K J, c' =
  Config (nr c) (num_decades c) (inner_radius c) K M (density_index c) J (jet_delay_time c) (jet_total_energy c) (jet_duration c) (jet_gamma_beta c) (jet_opening_angle c) (jet_structure_exp c)
         (cfl c) (rk_order c) (reconstruct_method c) (plm_theta c) (temperature_floor c).
Lemma conserved_scales d u p k : d <> 0 -> k <> 0 -> srhd_conserved (Prim (d * k) u 0 0 (p * k)) (4 / 3) = times5 (srhd_conserved (Prim d u 0 0 p) (4 / 3)) k.
Proof.
  intros Hd Hk. unfold srhd_conserved, specific_enthalpy, enthalpy_density, lorentz_factor, gamma_beta_squared, times5. cbn [rho u1 u2 u3 pre c0 c1 c2 c3 c4]. set (W := sqrt _). f_equal; field; split; assumption.
Qed.
(** They only change the unit of mass: every cell starts with the same mass, momentum and energy in physical units. *)
Theorem cloud_items_only_scale c c' fuel k n s : good_cloud c -> good_cloud c' -> same_but_cloud c c' -> sizes fuel n (nr c) -> shell_count c n -> new_solution c fuel k = Ok s ->
  exists s' U U', new_solution c' fuel k = Ok s' /\ time s' = time s /\ radial_vertices s' = radial_vertices s /\ polar_vertices s' = polar_vertices s /\
    let X := log_radius (num_decades c) n in let Q := even_angle (nr c) in on_grid s n (nr c) X Q U /\ on_grid s' n (nr c) X Q U' /\
    forall i j, (0 <= i < n)%Z -> (0 <= j < nr c)%Z -> times5 (U' i j) (cloud_mass c') = times5 (U i j) (cloud_mass c).
Proof.
  intros G G' (M & K & J & ->) HS HZ E. set (c' := Config _ _ _ _ _ _ _ _ _ _ _ _ _ _ _ _ _ _) in *. apply (start_value c fuel n G HS HZ k s) in E as (P & rv & qv & u & HP & E1 & E2 & ES & _ & R).
  assert (MP : 0 < cloud_mass c) by apply G. assert (MP' : 0 < cloud_mass c') by apply G'. set (f := cloud_mass c / cloud_mass c'). assert (FP : 0 < f) by (apply Rdiv_lt_0_compat; assumption).
  set (P' := fun i => let p := P i in Prim (rho p * f) (HydroModel.u1 p) 0 0 (pre p * f)).
  assert (HP' : forall i, (0 <= i < n)%Z -> envelop_state c' k (center_r (log_radius (num_decades c') n) i) (P' i) /\ (exists d v, P i = Prim d v 0 0 (d / 1000000))).
  { intros i Hi. destruct (HP i Hi) as (d & v & D1 & D2 & DP). split.
    - exists d, v. split; [exact D1|]. split; [exact D2|]. unfold P'. rewrite DP. cbn [rho HydroModel.u1 pre]. cbv zeta. assert (0 < 10 ^ 30) by (apply pow_lt; lra). cbn [inner_radius c' cloud_mass]. change (cloud_mass c') with M in *. set (z := 10 ^ 30) in *. unfold f. cbn [cloud_mass c']. f_equal; field; lra.
    - eexists _, v. exact DP. }
  destruct (start_exists c' fuel n G' HS HZ k P' ltac:(intros i Hi; apply HP', Hi)) as [s' E']. pose proof E' as E0.
  apply (start_value c' fuel n G' HS HZ k s') in E' as (P2 & rv' & qv' & u' & HP2 & E1' & E2' & ES' & _ & R').
  assert (P2E : forall i, (0 <= i < n)%Z -> P2 i = P' i).
  { intros i Hi. destruct (HP2 i Hi) as (d & v & D1 & D2 & ->). destruct (HP' i Hi) as [(d' & v' & D1' & D2' & ->) _]. rewrite D1 in D1'. rewrite D2 in D2'. injection D1' as <-. injection D2' as <-. reflexivity. }
  exists s'. eexists _, _. split; [exact E0|]. split; [rewrite ES, ES'; reflexivity|]. change (new_radial_vertices c' n) with (new_radial_vertices c n) in E1'. change (new_polar_vertices c') with (new_polar_vertices c) in E2'. rewrite E1 in E1'. rewrite E2 in E2'. injection E1' as <-. injection E2' as <-.
  split; [rewrite ES, ES'; reflexivity|]. split; [rewrite ES, ES'; reflexivity|]. cbv zeta. split; [exact R|]. split; [exact R'|]. intros i j Hi Hj. cbv beta. rewrite (P2E i Hi). destruct (HP' i Hi) as [_ (d & v & PE)]. unfold P', gamma_law_index. rewrite PE. cbv zeta. cbn [rho HydroModel.u1 pre].
  change (num_decades c') with (num_decades c). change (nr c') with (nr c). set (V := vol _ _ i j).
  destruct (Req_EM_T d 0) as [-> |D0].
  - replace (0 * f) with 0 by ring. replace (0 / 1000000 * f) with (0 / 1000000) by (unfold Rdiv; ring). unfold srhd_conserved, times5. cbn [rho HydroModel.u1 u2 u3 pre c0 c1 c2 c3 c4]. f_equal; unfold Rdiv; ring.
  - rewrite (conserved_scales d v (d / 1000000) f D0 ltac:(lra)). destruct (srhd_conserved (Prim d v 0 0 (d / 1000000)) (4 / 3)) as [a b e g h]. unfold times5. cbn [c0 c1 c2 c3 c4]. unfold f. f_equal; field; lra.
Qed.
(** Finding: "cloud_mass: cloud mass (in solar masses)" does not set the mass of the cloud. *)
Theorem cloud_mass_refuted c c' fuel k n s : good_cloud c -> good_cloud c' -> same_but_cloud c c' -> sizes fuel n (nr c) -> shell_count c n -> new_solution c fuel k = Ok s ->
  exists s' U U', new_solution c' fuel k = Ok s' /\ on_grid s n (nr c) (log_radius (num_decades c) n) (even_angle (nr c)) U /\ on_grid s' n (nr c) (log_radius (num_decades c) n) (even_angle (nr c)) U' /\
    rsum (fun i => rsum (fun j => c0 (U' i j)) (nr c)) n * (cloud_mass c' * (1989 * 10 ^ 30)) = rsum (fun i => rsum (fun j => c0 (U i j)) (nr c)) n * (cloud_mass c * (1989 * 10 ^ 30)).
Proof.
  intros G G' SB HS HZ E. destruct (cloud_items_only_scale c c' fuel k n s G G' SB HS HZ E) as (s' & U & U' & E' & _ & _ & _ & R & R' & EQ). exists s', U, U'. split; [exact E'|]. split; [exact R|]. split; [exact R'|].
  assert (0 < 10 ^ 30) by (apply pow_lt; lra). set (z := 10 ^ 30) in *. replace (cloud_mass c' * (1989 * z)) with (cloud_mass c' * 1989 * z) by ring. rewrite <- !Rmult_assoc. f_equal. f_equal. rewrite <- !rsum_scale. apply rsum_ext. intros i Hi. rewrite <- !rsum_scale. apply rsum_ext. intros j Hj.
  pose proof (f_equal c0 (EQ i j Hi Hj)) as X. exact X.
Qed.

(** A new run can always be started: the searches for the mass coordinate end. *)
Lemma default_envelop_good c : let e := AtmosphereModel.Envelop (inner_radius c) (5 / 1000 * (1989 * 10 ^ 30)) 4 (10 ^ 26) (1 / 4) (density_index c) in
  0 < AtmosphereModel.u1 e /\ 0 < AtmosphereModel.m1 e /\ 0 < AtmosphereModel.psi e /\ AtmosphereModel.psi e <= / 2 /\ AtmosphereModel.m1 e <= AtmosphereModel.envelop_mass e.
Proof. cbv zeta. cbn [AtmosphereModel.u1 AtmosphereModel.m1 AtmosphereModel.psi AtmosphereModel.envelop_mass]. repeat split; lra. Qed.
Lemma envelop_order c t : 0 < t -> let e := AtmosphereModel.Envelop (inner_radius c) (5 / 1000 * (1989 * 10 ^ 30)) 4 (10 ^ 26) (1 / 4) (density_index c) in
  0 < AtmosphereModel.cloud_outer_boundary e t /\ AtmosphereModel.cloud_outer_boundary e t < AtmosphereModel.envelop_outer_boundary e t.
Proof.
  intros Ht. destruct (default_envelop_good c) as (A & B & C & D & F). cbv zeta in *. set (e := AtmosphereModel.Envelop _ _ _ _ _ _) in *. split; [apply Rmult_lt_0_compat; [apply EnvelopProofs.velocity_pos; exact A|exact Ht]|].
  change (AtmosphereModel.cloud_outer_boundary e t) with (AtmosphereModel.radius e (AtmosphereModel.envelop_mass e) t). unfold AtmosphereModel.envelop_outer_boundary.
  pose proof (EnvelopProofs.lr_increasing e A B C 1 t (AtmosphereModel.m1 e) (AtmosphereModel.envelop_mass e) Ht B ltac:(cbn [e AtmosphereModel.m1 AtmosphereModel.envelop_mass]; lra)) as I.
  unfold EnvelopProofs.lr, AtmosphereModel.log10 in I. pose proof ln10 as L. assert (K : ln (AtmosphereModel.radius e (AtmosphereModel.envelop_mass e) t) < ln (AtmosphereModel.radius e (AtmosphereModel.m1 e) t)).
  { apply Rmult_lt_reg_r with (/ ln 10); [apply Rinv_0_lt_compat; exact L|]. unfold Rdiv in I. lra. }
  apply ln_lt_inv; [apply Rmult_lt_0_compat; [apply EnvelopProofs.velocity_pos; exact A|exact Ht]..|exact K].
Qed.
Lemma shell_density_positive c m t : 0 < m -> 0 < t -> let e := AtmosphereModel.Envelop (inner_radius c) (5 / 1000 * (1989 * 10 ^ 30)) 4 (10 ^ 26) (1 / 4) (density_index c) in 0 < AtmosphereModel.density e m t.
Proof.
  intros Hm Ht. destruct (default_envelop_good c) as (A & B & C & D & F). cbv zeta in *. set (e := AtmosphereModel.Envelop _ _ _ _ _ _) in *. destruct (EnvelopProps.envelop_shells_hold_mass e m t A B C Hm Ht) as (r' & _ & _ & E & R0 & _).
  set (L := EnvelopProps.lorentz _) in *. assert (0 <= L) by apply sqrt_pos. pose proof PI_RGT_0. pose proof (Rabs_pos r'). set (d := AtmosphereModel.density e m t) in *.
  destruct (Rlt_dec 0 d) as [|N]; [assumption|]. exfalso. assert (4 * PI * AtmosphereModel.radius e m t ^ 2 * (L * d) * Rabs r' <= 0); [|lra].
  assert (0 < 4 * PI * AtmosphereModel.radius e m t ^ 2) by (apply Rmult_lt_0_compat; [lra|apply pow_lt, R0]). assert (L * d <= 0) by nra. set (q := 4 * PI * AtmosphereModel.radius e m t ^ 2) in *. assert (q * (L * d) <= 0) by nra. nra.
Qed.
Lemma state_found c r : good_cloud c -> 0 < jet_delay_time c -> exists k0, forall k, (k0 <= k)%nat -> exists P, envelop_state c k r P /\ gas P /\ 0 < HydroModel.u1 P.
Proof.
  intros G HT. destruct (default_envelop_good c) as (A & B & C & D & F). destruct (envelop_order c (jet_delay_time c) HT) as [OR1 OR2]. pose proof (fun m H => shell_density_positive c m (jet_delay_time c) H HT) as DP. cbv zeta in *.
  assert (KP : 0 < inner_radius c ^ 3 / (cloud_mass c * (1989 * 10 ^ 30))).
  { destruct G as ((G1 & _) & _ & G2). apply Rdiv_lt_0_compat; [apply pow_lt, G1|]. apply Rmult_lt_0_compat; [exact G2|]. apply Rmult_lt_0_compat; [lra|apply pow_lt; lra]. }
  unfold envelop_state. cbv zeta. set (kk := inner_radius c ^ 3 / _) in *. set (e := AtmosphereModel.Envelop _ _ _ _ _ _) in *. set (t := jet_delay_time c) in *. set (x := r * inner_radius c).
  assert (FIN : forall k d u, AtmosphereModel.envelop_density_at e k x t = Ok d -> AtmosphereModel.gamma_beta_at e k x t = Ok u -> 0 < d -> 0 < u ->
    exists P, (exists d0 u0, AtmosphereModel.envelop_density_at e k x t = Ok d0 /\ AtmosphereModel.gamma_beta_at e k x t = Ok u0 /\ P = Prim (d0 * kk) u0 0 0 (d0 * kk / 1000000)) /\ gas P /\ 0 < HydroModel.u1 P).
  { intros k d u E1 E2 Hd Hu. assert (0 < d * kk) by (apply Rmult_lt_0_compat; assumption). exists (Prim (d * kk) u 0 0 (d * kk / 1000000)). split; [exists d, u; auto|]. unfold gas. cbn [rho pre HydroModel.u1]. repeat split; lra. }
  assert (UP : forall m, 0 < AtmosphereModel.gamma_beta e m) by (intros m; apply EnvelopProofs.u_pos; exact A).
  destruct (EnvelopProps.mass_coordinate_found e (AtmosphereModel.m1 e) t A B C D HT ltac:(lra)) as (n1 & N1). fold (AtmosphereModel.envelop_outer_boundary e t) in N1.
  destruct (EnvelopProps.mass_coordinate_found e (AtmosphereModel.envelop_mass e) t A B C D HT F) as (n2 & N2). change (AtmosphereModel.radius e (AtmosphereModel.envelop_mass e) t) with (AtmosphereModel.cloud_outer_boundary e t) in N2.
  destruct (Rlt_dec x (AtmosphereModel.cloud_outer_boundary e t)) as [L|L].
  - exists n2. intros k Hk. destruct (N2 k Hk) as (m & Hm & M1 & _).
    apply (FIN k (AtmosphereModel.density e m t * AtmosphereModel.cpow (x / AtmosphereModel.cloud_outer_boundary e t) (- AtmosphereModel.cloud_index e)) (AtmosphereModel.cloud_gamma_beta e)).
    + unfold AtmosphereModel.envelop_density_at. destruct (Rlt_dec x (AtmosphereModel.cloud_outer_boundary e t)) as [_|]; [|contradiction].
      unfold AtmosphereModel.shell_density_at. destruct (Rlt_dec (AtmosphereModel.envelop_outer_boundary e t) (AtmosphereModel.cloud_outer_boundary e t)) as [X|_]; [exfalso; lra|]. rewrite Hm. reflexivity.
    + unfold AtmosphereModel.gamma_beta_at. destruct (Rlt_dec x (AtmosphereModel.cloud_outer_boundary e t)) as [_|]; [reflexivity|contradiction].
    + apply Rmult_lt_0_compat; [apply DP; lra|apply exp_pos].
    + unfold AtmosphereModel.cloud_gamma_beta. pose proof (EnvelopProofs.velocity_pos e A (AtmosphereModel.envelop_mass e)) as V. assert (LS : 0 < AtmosphereModel.light_speed) by (unfold AtmosphereModel.light_speed; lra).
      destruct (EnvelopProps.envelop_shells_hold_mass e (AtmosphereModel.envelop_mass e) 1 A B C ltac:(lra) ltac:(lra)) as (_ & _ & _ & _ & R0 & R1). unfold AtmosphereModel.radius in R0, R1. rewrite !Rmult_1_r in R0, R1. rewrite Rmult_1_r in R1 || idtac.
      set (v := AtmosphereModel.velocity e (AtmosphereModel.envelop_mass e)) in *. assert (BL : 0 < v / AtmosphereModel.light_speed < 1). { split; [apply Rdiv_lt_0_compat; assumption|]. apply Rmult_lt_reg_r with AtmosphereModel.light_speed; [exact LS|]. unfold Rdiv. rewrite Rmult_assoc, Rinv_l by lra. lra. }
      cbv zeta. set (b := v / AtmosphereModel.light_speed) in *. apply Rdiv_lt_0_compat; [lra|]. apply sqrt_lt_R0. nra.
  - destruct (Rlt_dec (AtmosphereModel.envelop_outer_boundary e t) x) as [O|O].
    + exists n1. intros k Hk. destruct (N1 k Hk) as (m & Hm & M1 & _).
      apply (FIN k (AtmosphereModel.density e m t * AtmosphereModel.cpow (x / AtmosphereModel.envelop_outer_boundary e t) (- 2)) (AtmosphereModel.gamma_beta e m)).
      * unfold AtmosphereModel.envelop_density_at. destruct (Rlt_dec x (AtmosphereModel.cloud_outer_boundary e t)) as [|_]; [contradiction|]. unfold AtmosphereModel.shell_density_at. destruct (Rlt_dec (AtmosphereModel.envelop_outer_boundary e t) x) as [_|]; [|contradiction]. rewrite Hm. reflexivity.
      * unfold AtmosphereModel.gamma_beta_at. destruct (Rlt_dec x (AtmosphereModel.cloud_outer_boundary e t)) as [|_]; [contradiction|]. destruct (Rlt_dec (AtmosphereModel.envelop_outer_boundary e t) x) as [_|]; [|contradiction]. rewrite Hm. reflexivity.
      * apply Rmult_lt_0_compat; [apply DP; lra|apply exp_pos].
      * apply UP.
    + destruct (EnvelopProps.shell_at e x t A B C HT F ltac:(lra)) as (M & M1 & M2). destruct (EnvelopProps.mass_coordinate_found e M t A B C D HT ltac:(lra)) as (n3 & N3). rewrite M2 in N3. exists n3. intros k Hk. destruct (N3 k Hk) as (m & Hm & M3 & _).
      apply (FIN k (AtmosphereModel.density e m t) (AtmosphereModel.gamma_beta e m)).
      * unfold AtmosphereModel.envelop_density_at. destruct (Rlt_dec x (AtmosphereModel.cloud_outer_boundary e t)) as [|_]; [contradiction|]. unfold AtmosphereModel.shell_density_at. destruct (Rlt_dec (AtmosphereModel.envelop_outer_boundary e t) x) as [|_]; [contradiction|]. rewrite Hm. reflexivity.
      * unfold AtmosphereModel.gamma_beta_at. destruct (Rlt_dec x (AtmosphereModel.cloud_outer_boundary e t)) as [|_]; [contradiction|]. destruct (Rlt_dec (AtmosphereModel.envelop_outer_boundary e t) x) as [|_]; [contradiction|]. rewrite Hm. reflexivity.
      * apply DP. lra.
      * apply UP.
Qed.
(** The initial condition exists: with enough iterations of the root search the program makes a solution at time 0, and each of its shells holds
    a cold outflowing gas of positive density. *)
Theorem cloud_starts c fuel n : good_cloud c -> 0 < jet_delay_time c -> sizes fuel n (nr c) -> shell_count c n ->
  exists k0, forall k, (k0 <= k)%nat -> exists s P, new_solution c fuel k = Ok s /\ time s = 0 /\
    (forall i, (0 <= i < n)%Z -> envelop_state c k ((log_radius (num_decades c) n i + log_radius (num_decades c) n (i + 1)) / 2) (P i) /\ 0 < rho (P i) /\ pre (P i) = rho (P i) / 1000000 /\ 0 < HydroModel.u1 (P i) /\ HydroModel.u2 (P i) = 0 /\ HydroModel.u3 (P i) = 0) /\
    let X := log_radius (num_decades c) n in let Q := even_angle (nr c) in
    on_grid s n (nr c) X Q (fun i j => times5 (srhd_conserved (P i) (4 / 3)) (2 * PI / 3 * (X (i + 1)%Z ^ 3 - X i ^ 3) * (cos (Q j) - cos (Q (j + 1)%Z)))).
Proof.
  intros G HT HS HZ. set (X := log_radius (num_decades c) n).
  assert (ALL : forall p : nat, exists k0, forall k, (k0 <= k)%nat -> forall i, (0 <= i < Z.of_nat p)%Z -> exists P, envelop_state c k (center_r X i) P /\ gas P /\ 0 < HydroModel.u1 P).
  { induction p as [|p (k1 & IH)]; [exists O; intros; lia|]. destruct (state_found c (center_r X (Z.of_nat p)) G HT) as (k2 & K2). exists (Nat.max k1 k2). intros k Hk i Hi. destruct (Z.eq_dec i (Z.of_nat p)) as [-> |N].
    - destruct (K2 k ltac:(lia)) as (P & HP). exists P. exact HP.
    - apply IH; lia. }
  destruct (ALL (Z.to_nat n)) as (k0 & K0). exists k0. intros k Hk. pose proof HS as (Hn & _). specialize (K0 k Hk). rewrite Z2Nat.id in K0 by lia.
  assert (CH : forall p : nat, (Z.of_nat p <= n)%Z -> exists P, forall i, (0 <= i < Z.of_nat p)%Z -> envelop_state c k (center_r X i) (P i)).
  { induction p as [|p IH]; intros Hp; [exists (fun _ => zero_prim); intros; lia|]. destruct (IH ltac:(lia)) as [P HP]. destruct (K0 (Z.of_nat p) ltac:(lia)) as [p0 [H0 _]]. exists (fun i => if (i =? Z.of_nat p)%Z then p0 else P i). intros i Hi. destruct (Z.eqb_spec i (Z.of_nat p)) as [-> |N]; [exact H0|]. apply HP. lia. }
  destruct (CH (Z.to_nat n) ltac:(lia)) as [P0 HP0]. rewrite Z2Nat.id in HP0 by lia. destruct (start_exists c fuel n G HS HZ k P0 HP0) as [s E].
  pose proof E as ES. apply (start_value c fuel n G HS HZ k s) in ES as (P & rv & qv & u & HP & _ & _ & -> & _ & R). eexists. exists P. split; [exact E|]. split; [reflexivity|]. split.
  - intros i Hi. split.
    { subst X. specialize (HP i Hi). unfold center_r in HP. rewrite (Z.add_comm 1 i) in HP. replace ((log_radius (num_decades c) n i + log_radius (num_decades c) n (i + 1)) / 2) with ((log_radius (num_decades c) n i + log_radius (num_decades c) n (i + 1)) * 0.5) by lra. exact HP. }
    destruct (K0 i Hi) as (P1 & H1 & G1 & V1). pose proof (HP i Hi) as H2. fold X in H2. unfold envelop_state in H1, H2. destruct H1 as (d & w & A1 & A2 & A3), H2 as (d' & w' & B1 & B2 & B3).
    assert (EQ : P i = P1). { rewrite A1 in B1. rewrite A2 in B2. injection B1 as <-; injection B2 as <-. rewrite A3, B3. reflexivity. }
    rewrite EQ. destruct G1 as [G1 _]. cbv zeta in A3. rewrite A3 in G1, V1 |- *. cbn [rho pre HydroModel.u1 HydroModel.u2 HydroModel.u3] in *. repeat split; assumption.
  - cbv zeta. destruct R as (RX & RQ & RU). split; [exact RX|]. split; [exact RQ|]. eapply grid2_ext; [exact RU|]. intros i j Hi Hj. subst X. unfold gamma_law_index. f_equal. unfold vol. rewrite (Z.add_comm 1 i), (Z.add_comm 1 j). field.
Qed.

(** *** Examples *)
Definition small : config := Config 4 1 300000000 30000000000 (1 / 50) 2 6 1 (10 ^ 50) 1 (1 / 8) (1 / 10) 2 (4 / 10) 1 1 1 0.
Definition small_heavy : config := Config 4 1 300000000 40000000000 2 2 7 1 (10 ^ 50) 1 (1 / 8) (1 / 10) 2 (4 / 10) 1 1 1 0.
Definition uneven : config := Config 3 (1 / 2) 300000000 30000000000 (1 / 50) 2 6 1 (10 ^ 50) 1 (1 / 8) (1 / 10) 2 (4 / 10) 1 1 1 0.
Lemma small_good : good_cloud small /\ good_cloud small_heavy /\ good_cloud uneven /\ sizes 30 4 4 /\ sizes 30 1 3 /\ shell_count small 4 /\ shell_count uneven 1.
Proof.
  unfold good_cloud, sizes, shell_count, small, small_heavy, uneven. cbn [inner_radius cloud_cutoff density_index density_index2 cloud_mass num_decades nr]. repeat split; try lra; try lia.
Qed.
(** A start of the program with 4 by 4 zones: the radii grow by the factor 10^(1/4), and the step is the same for two clouds of which one is a hundred times heavier. *)
Example cloud_start_example : exists k s P dt, new_solution small 30 k = Ok s /\ time s = 0 /\ 0 < rho (P 3%Z) /\ envelop_state small k ((log_radius 1 4 3 + log_radius 1 4 4) / 2) (P 3%Z) /\
  time_step small s = Ok dt /\ dt = 4 / 10 * (Rpower 10 (1 / 4) - 1) /\
  exists s' U U', new_solution small_heavy 30 k = Ok s' /\ on_grid s 4 4 (log_radius 1 4) (even_angle 4) U /\ on_grid s' 4 4 (log_radius 1 4) (even_angle 4) U' /\
    rsum (fun i => rsum (fun j => c0 (U' i j)) 4) 4 * 100 = rsum (fun i => rsum (fun j => c0 (U i j)) 4) 4.
Proof.
  destruct small_good as (G1 & G2 & _ & S1 & _ & Z1 & _). destruct (cloud_starts small 30 4 G1 ltac:(cbn; lra) S1 Z1) as [k K]. destruct (K k ltac:(lia)) as (s & P & E & T & HP & RG).
  cbv zeta in RG. change (num_decades small) with 1 in *. change (nr small) with 4%Z in *.
  exists k, s, P, (step_of small (log_radius 1 4)). split; [exact E|]. split; [exact T|]. destruct (HP 3%Z ltac:(lia)) as (P1 & P2 & _). split; [exact P2|]. split; [exact P1|].
  split; [apply (time_step_value small 4 4 (log_radius 1 4) (even_angle 4) s _ ltac:(lia) ltac:(unfold two64; lia) RG)|]. split.
  { unfold step_of, log_radius. replace (1 * 0 / 4) with 0 by field. replace (1 * 1 / 4) with (1 / 4) by field. rewrite Rpower_O by lra. reflexivity. }
  destruct (cloud_mass_refuted small small_heavy 30 k 4 s G1 G2 ltac:(unfold same_but_cloud, small_heavy, small; cbn; eexists _, _, _; reflexivity) S1 Z1 E) as (s' & U & U' & E' & R & R' & M). exists s', U, U'. change (num_decades small) with 1 in *. change (nr small) with 4%Z in *. repeat (split; [assumption|]).
  cbn [cloud_mass small small_heavy] in M. assert (0 < 10 ^ 30) by (apply pow_lt; lra). set (z := 10 ^ 30) in *. set (a := rsum _ _) in *. set (b := rsum (fun i => rsum (fun j => c0 (U i j)) _) _) in *.
  apply Rmult_eq_reg_r with (1 / 50 * (1989 * z)); [lra|]. intros EZ. lra.
Qed.
(** 3 zones per decade asked for over half a decade: the program makes one zone, that is 2 per decade. *)
Example cloud_zones_example : exists k s X Q U, new_solution uneven 30 k = Ok s /\ on_grid s 1 3 X Q U /\ 1 / (ln (X 1%Z / X 0%Z) / ln 10) < 3.
Proof.
  destruct small_good as (_ & _ & G1 & _ & S1 & _ & Z1). destruct (cloud_starts uneven 30 1 G1 ltac:(cbn; lra) S1 Z1) as [k K]. destruct (K k ltac:(lia)) as (s & P & E & _).
  destruct (cloud_zones_refuted uneven 30 k 1 s G1 S1 ltac:(cbn; lra) Z1 E) as (X & Q & U & R & _ & L). exists k, s, X, Q, U. split; [exact E|]. split; [exact R|]. apply L. cbn. lra.
Qed.
(** On the 4 by 4 grid every signal of a gas stays within cfl times the zone, in both directions. *)
Example cloud_step_example : exists k s X dt U, new_solution small 30 k = Ok s /\ on_grid s 4 4 X (even_angle 4) U /\ time_step small s = Ok dt /\ forall i, (0 <= i <= 4)%Z ->
  Rabs (snd (srhd_wavespeeds (Prim 1 3 4 0 1) (make_unit_vector 0 1 0) (4 / 3))) * dt < 4 / 10 * (X i * (PI / 4)).
Proof.
  destruct small_good as (G1 & _ & _ & S1 & _ & Z1 & _). destruct (cloud_starts small 30 4 G1 ltac:(cbn; lra) S1 Z1) as [k K]. destruct (K k ltac:(lia)) as (s & P & E & _).
  destruct (cloud_step_polar small 30 k 4 s (Prim 1 3 4 0 1) G1 S1 ltac:(cbn; lra) ltac:(cbn; lia) ltac:(cbn; lra) E ltac:(cbn; lra) ltac:(split; cbn; lra)) as (X & dt & U & R & T & A). exists k, s, X, dt, U. repeat (split; [assumption|]). intros i Hi. apply (A i Hi).
Qed.
(** Two shells between the radii 1, 2 and 3, two zones between the poles: volumes sum to 4 pi / 3 (27 - 1). *)
Example cloud_geometry_example : exists dv V, cell_volumes (vector 3 demo_X) (vector 3 demo_Q) = Ok dv /\ grid2 dv 2 2 V /\ 0 < V 1%Z 1%Z /\ rsum (fun i => rsum (fun j => V i j) 2) 2 = 104 * PI / 3.
Proof.
  assert (SP : spherical 2 2 demo_X demo_Q). { unfold spherical, demo_X, demo_Q. pose proof PI_RGT_0. repeat split; try (cbn [Z.add Pos.add]; lra); intros k Hk; rewrite ?plus_IZR; try lra. }
  destruct (cloud_geometry 30 2 2 demo_X demo_Q (vector 3 demo_X) (vector 3 demo_Q) ltac:(unfold sizes; lia) SP (vector_rep _ _) (vector_rep _ _)) as (dv & da & db & V & A & B & E & _ & _ & R & _ & _ & PV & SV & _).
  exists dv, V. split; [exact E|]. split; [exact R|]. split; [apply PV; lia|]. rewrite SV. unfold demo_X. cbn [Z.add Pos.add]. field.
Qed.

Print Assumptions cloud_grid.
Print Assumptions cloud_geometry.
Print Assumptions cloud_step_radial.
Print Assumptions cloud_step_polar.
Print Assumptions cloud_zones_refuted.
Print Assumptions cloud_items_only_scale.
Print Assumptions cloud_mass_refuted.
Print Assumptions cloud_starts.
