(** C116: the checkpoints of a complete run of the explosion program and of the cloud program account for mass and energy
    (src/subprog_sedov.cpp 530-646, src/subprog_cloud.cpp 805-937). *)
From Coq Require Import ZArith Reals List Lia Lra Bool String Psatz.
From Verif Require Import Base StrModel NdModel NdSpec DimensionalModel HydroModel SrhdProps ScheduleModel DriftProofs RunModel RunSpec RunProps RunTraceProofs Rep1Proofs Rep2Proofs NdOpsProofs2 SedovModel SedovProofs SedovProps SedovGridProps MainModel.
From Verif Require CloudModel CloudProofs CloudProofs2 CloudProps CloudSetupProps.
Import ListNotations.
Open Scope R_scope.

(** *** Statements *)
(** The checkpoints of a run with the fixed step [dt]: they are numbered 0, 1, ... K, the first is the initial solution,
    and the k-th is the solution after j steps, at the first or the second step from the time k cpi on. *)
Definition checkpoint_step (cpi dt : R) (k j : nat) : Prop := (k = 0%nat -> j = 0%nat) /\ ((0 < k)%nat -> INR k * cpi <= INR j * dt < INR k * cpi + 2 * dt).

(** *** Proofs *)
Section Generic.
Context {Sol Cfg : Type}.
Variables (next : Cfg -> Sol -> outcome Sol) (time_of : Sol -> R) (dfi tsi cpi tf : Cfg -> R) (cfg : Cfg) (s0 : Sol) (dt : R).
Let go := fun c s => if Rlt_dec (time_of s) (tf c) then true else false.
Hypothesis DP : 0 < dt.
Hypotheses (HC : dt <= cpi cfg) (HD : dt <= dfi cfg) (HT : dt <= tsi cfg).
Hypothesis timing : forall sol m, sol 0%nat = s0 -> (forall i, (i < m)%nat -> next cfg (sol i) = Ok (sol (S i))) -> time_of (sol m) = INR m * dt.
Lemma fixed_step_checkpoints rounds o code : (Z.of_nat rounds < 2 ^ 31 - 3)%Z ->
  simple_program 0 Rplus task_due next time_of [(lit "write_diagnostics", dfi); (lit "write_time_series", tsi)] cpi go cfg s0 rounds = Ok (o, code) ->
  code = 0%Z /\ exists N K sol, sol 0%nat = s0 /\ (forall i, (i <= N)%nat -> next cfg (sol i) = Ok (sol (S i))) /\
    tf cfg <= INR N * dt /\ ((0 < N)%nat -> INR N * dt < tf cfg + dt) /\ whole_intervals (cpi cfg) (INR N * dt) K /\
    map fst (scheckpoints o) = map Z.of_nat (seq 0 (S K)) /\
    forall k s, In (Z.of_nat k, s) (scheckpoints o) -> exists j, (j <= S N)%nat /\ s = sol j /\ checkpoint_step (cpi cfg) dt k j.
Proof.
  intros HR E. change task_due with tdueR in E. destruct (program_trace next time_of _ cpi go cfg s0 rounds o code HR E) as (N & sol & HN & S0 & RO & EN).
  pose proof RO as (R1 & R2 & R3 & R4).
  assert (ALL : forall i, (i <= N)%nat -> next cfg (sol i) = Ok (sol (S i))) by (intros i Hi; destruct (Nat.eq_dec i N) as [-> |]; [exact EN|apply R1; lia]).
  assert (TM : forall i, (i <= S N)%nat -> time_of (sol i) = INR i * dt) by (intros i Hi; apply timing; [exact S0|]; intros q Hq; apply ALL; lia).
  assert (SW : forall c, dt <= c -> steps_within (fun i => time_of (sol i)) c N).
  { intros c Hc. split; [lra|]. split; [rewrite TM by lia; simpl; ring|]. intros i Hi. rewrite !TM by lia. rewrite S_INR. lra. }
  destruct (simple_run_outputs next time_of cpi dfi tsi go cfg sol N rounds RO EN (SW _ HC) (SW _ HD) (SW _ HT) HN) as (o' & K & Kd & Ks & rc & E' & W & _ & _ & HRC & HS & _).
  rewrite S0 in E'. rewrite E in E'. injection E' as <- ->. split; [reflexivity|]. exists N, K, sol. split; [exact S0|]. split; [exact ALL|].
  rewrite TM in W by lia. split.
  { unfold go in R3. rewrite TM in R3 by lia. destruct (Rlt_dec _ _) in R3; [discriminate|lra]. }
  split. { intros HN0. specialize (R2 (N - 1)%nat ltac:(lia)). unfold go in R2. rewrite TM in R2 by lia. destruct (Rlt_dec _ _) as [Q|] in R2; [|discriminate]. rewrite minus_INR in Q by lia. simpl in Q. lra. }
  split; [exact W|]. split; [rewrite HS, map_map; apply map_ext; reflexivity|].
  intros j s Hin. rewrite HS in Hin. apply in_map_iff in Hin as (x & EQ & Hx). apply in_seq in Hx. injection EQ as EQ <-. apply Nat2Z.inj in EQ. subst x. pose proof (HRC j ltac:(lia)) as AR.
  assert (RB : (rc j <= N + 1)%nat).
  { destruct (rc j) as [|r]; [lia|]. destruct AR as (_ & A1 & A2). destruct (le_lt_dec r N) as [|G]; [lia|]. exfalso. specialize (A2 N G). cbv beta in A2. rewrite TM in A2 by lia. destruct W as [W1 _]. assert (INR j <= INR K) by (apply le_INR; lia). assert (0 < cpi cfg) by lra. nra. }
  exists (rc j). split; [lia|]. split; [reflexivity|]. split.
  - intros ->. destruct (rc 0%nat) as [|r] eqn:R; [reflexivity|]. destruct AR as (A & _). lia.
  - intros Hj. destruct (rc j) as [|r] eqn:R; [cbn [at_round] in AR; lia|]. destruct AR as (_ & A1 & A2). rewrite TM in A1 by lia. rewrite S_INR. split; [lra|]. destruct r as [|r].
    + exfalso. simpl in A1. assert (1 <= INR j) by (apply (le_INR 1); lia). nra.
    + specialize (A2 r ltac:(lia)). cbv beta in A2. rewrite TM in A2 by lia. rewrite S_INR. lra.
Qed.
End Generic.
Lemma explosion_timing H fuel c z X (s0 : solution) : sizes fuel z -> s_time s0 = 0 -> (exists U, shells s0 z X U) ->
  (forall steps s' U, shells s0 z X U -> run H fuel steps s0 = Ok s' -> s_time s' = s_time s0 + INR steps * (4 / 10 * (X 1%Z - X 0%Z))) ->
  forall sol m, sol 0%nat = s0 -> (forall i, (i < m)%nat -> (fun _ : explosion_config => next_solution H fuel) c (sol i) = Ok (sol (S i))) -> s_time (sol m) = INR m * (4 / 10 * (X 1%Z - X 0%Z)).
Proof.
  intros HS T0 (U & HU) B sol m S0 HN. pose proof (run_prefix H fuel m sol s0 S0 HN) as E. rewrite (B m (sol m) U HU E), T0. ring.
Qed.
Lemma step_positive z X : (1 <= z)%Z -> grid z X -> 0 < 4 / 10 * (X 1%Z - X 0%Z).
Proof. intros Hz (_ & G). specialize (G 0%Z ltac:(lia)). change (0 + 1)%Z with 1%Z in G. lra. Qed.

(** *** C116 *)
(** What a complete run of the explosion program leaves: exit code 0, the last round at the first step from tfinal on, and
    one checkpoint for every whole interval up to then. *)
Definition complete_run (tfinal cpi dt : R) (N K : nat) (numbers : list Z) (code : Z) : Prop :=
  code = 0%Z /\ tfinal <= INR N * dt /\ ((0 < N)%nat -> INR N * dt < tfinal + dt) /\ whole_intervals cpi (INR N * dt) K /\ numbers = map Z.of_nat (seq 0 (S K)).
(** The initial totals. *)
Definition initial_totals (H : hydro) (c : explosion_config) (X : Z -> R) (k : Z) : v5 :=
  let r := (X k + X (k + 1)%Z) / 2 in
  times5 (to_conserved H (Prim (initial_density (explosion_density c) (density_index c) r) 0 0 0 (initial_pressure (explosion_pressure c) (density_index c) r))) ((X (k + 1)%Z ^ 3 - X k ^ 3) / 3).
(** [s] holds, after j steps from the initial totals, what these were less what has left through the outer face. *)
Definition relativistic_account (c : explosion_config) (z : Z) (X : Z -> R) (dt : R) (j : nat) (s : solution) : Prop :=
  exists (Us : nat -> Z -> v5) (Q : nat -> Z -> prim), Us 0%nat = initial_totals srhd_system c X /\ shells s z X (Us j) /\ s_time s = INR j * dt /\
    (forall i k, (i < j)%nat -> (0 <= k < z)%Z -> srhd_recover (density_in X (Us i) k) (4 / 3) 0 = Ok (Q i k) /\ gas (Q i k)) /\
    rsum (fun k => c0 (Us j k)) z = rsum (fun k => c0 (Us 0%nat k)) z - dt * X z ^ 2 * sum_over (fun i => srhd_mass_flux (Q i (z - 1)%Z)) j /\
    rsum (fun k => c4 (Us j k)) z = rsum (fun k => c4 (Us 0%nat k)) z - dt * X z ^ 2 * sum_over (fun i => srhd_energy_flux (Q i (z - 1)%Z)) j.
Theorem explosion_checkpoints_relativistic fuel c z : 1 < outer_radius c -> (1 <= z < 2147483647)%Z -> (Z.to_nat z < fuel)%nat -> IZR z <= ln (outer_radius c) / ln 10 * IZR (nr c) < IZR z + 1 ->
  exists X, grid z X /\ X 0%Z = / sqrt 10 /\ X z = outer_radius c /\ (exists q, 1 < q /\ forall k, X (k + 1)%Z = X k * q) /\
    let dt := 4 / 10 * (X 1%Z - X 0%Z) in dt <= cpi c -> dt <= dfi c -> dt <= tsi c ->
    forall rounds o code, (Z.of_nat rounds < 2 ^ 31 - 3)%Z -> explosion_program srhd_system fuel c rounds = Ok (o, code) ->
    exists N K, complete_run (tfinal c) (cpi c) dt N K (map fst (scheckpoints o)) code /\
      forall k s, In (Z.of_nat k, s) (scheckpoints o) -> exists j, (j <= S N)%nat /\ checkpoint_step (cpi c) dt k j /\ relativistic_account c z X dt j s.
Proof.
  intros H1 Hz Hf HZ. assert (HS : sizes fuel z) by (split; lia). destruct (new_run_grid srhd_system fuel (explosion_density c) (explosion_pressure c) (density_index c) (outer_radius c) (nr c) z H1 Hz Hf HZ) as (s0 & X & E0 & T0 & G & X0 & XZ & Q & SH).
  exists X. split; [exact G|]. split; [exact X0|]. split; [exact XZ|]. split; [exact Q|]. intros dt HC HD HT rounds o code HR E. unfold explosion_program in E. rewrite E0 in E. cbn [bind] in E.
  pose proof (step_positive z X ltac:(lia) G) as DP. fold dt in DP.
  destruct (fixed_step_checkpoints (fun _ => next_solution srhd_system fuel) s_time dfi tsi cpi tfinal c s0 dt DP HC HD HT) with (rounds := rounds) (o := o) (code := code) as (C & N & K & sol & S0 & NX & TF & TU & W & M & A).
  - apply (explosion_timing srhd_system fuel c z X s0 HS T0); [eexists; exact SH|]. intros steps s' U HU R. destruct (explosion_budget_relativistic fuel z X steps s0 s' U HS G HU R) as (Us & P & _ & _ & T & _). exact T.
  - exact HR.
  - exact E.
  - exists N, K. split; [repeat split; try assumption; apply W|]. intros k s Hs. destruct (A k s Hs) as (j & HJ & -> & CS). exists j. split; [exact HJ|]. split; [exact CS|].
    assert (RJ : run srhd_system fuel j s0 = Ok (sol j)) by (apply run_prefix; [exact S0|]; intros i Hi; apply NX; lia).
    destruct (explosion_budget_relativistic fuel z X j s0 (sol j) _ HS G SH RJ) as (Us & P & U0 & SJ & T & _ & REC & BM & BE). exists Us, P. split; [exact U0|]. split; [exact SJ|]. split; [rewrite T, T0; fold dt; ring|]. split; [exact REC|]. rewrite U0. split; [exact BM|exact BE].
Qed.
(** The same for the Newtonian system; the account holds as long as the innermost and the outermost shell hold a gas. *)
Definition newtonian_account (c : explosion_config) (z : Z) (X : Z -> R) (dt : R) (j : nat) (s : solution) : Prop :=
  exists Us : nat -> Z -> v5, Us 0%nat = initial_totals euler_system c X /\ shells s z X (Us j) /\ s_time s = INR j * dt /\
    let last i := density_in X (Us i) (z - 1) in
    ((forall i, (i < j)%nat -> euler_gas (density_in X (Us i) 0) /\ euler_gas (last i)) ->
     rsum (fun k => c0 (Us j k)) z = rsum (fun k => c0 (Us 0%nat k)) z - dt * X z ^ 2 * sum_over (fun i => c1 (last i)) j /\
     rsum (fun k => c4 (Us j k)) z = rsum (fun k => c4 (Us 0%nat k)) z - dt * X z ^ 2 * sum_over (fun i => (c4 (last i) + euler_pressure (last i)) * (c1 (last i) / c0 (last i))) j).
Theorem explosion_checkpoints_newtonian fuel c z : 1 < outer_radius c -> (1 <= z < 2147483647)%Z -> (Z.to_nat z < fuel)%nat -> IZR z <= ln (outer_radius c) / ln 10 * IZR (nr c) < IZR z + 1 ->
  exists X, grid z X /\ X 0%Z = / sqrt 10 /\ X z = outer_radius c /\ (exists q, 1 < q /\ forall k, X (k + 1)%Z = X k * q) /\
    let dt := 4 / 10 * (X 1%Z - X 0%Z) in dt <= cpi c -> dt <= dfi c -> dt <= tsi c ->
    forall rounds o code, (Z.of_nat rounds < 2 ^ 31 - 3)%Z -> explosion_program euler_system fuel c rounds = Ok (o, code) ->
    exists N K, complete_run (tfinal c) (cpi c) dt N K (map fst (scheckpoints o)) code /\
      forall k s, In (Z.of_nat k, s) (scheckpoints o) -> exists j, (j <= S N)%nat /\ checkpoint_step (cpi c) dt k j /\ newtonian_account c z X dt j s.
Proof.
  intros H1 Hz Hf HZ. assert (HS : sizes fuel z) by (split; lia). destruct (new_run_grid euler_system fuel (explosion_density c) (explosion_pressure c) (density_index c) (outer_radius c) (nr c) z H1 Hz Hf HZ) as (s0 & X & E0 & T0 & G & X0 & XZ & Q & SH).
  exists X. split; [exact G|]. split; [exact X0|]. split; [exact XZ|]. split; [exact Q|]. intros dt HC HD HT rounds o code HR E. unfold explosion_program in E. rewrite E0 in E. cbn [bind] in E.
  pose proof (step_positive z X ltac:(lia) G) as DP. fold dt in DP.
  destruct (fixed_step_checkpoints (fun _ => next_solution euler_system fuel) s_time dfi tsi cpi tfinal c s0 dt DP HC HD HT) with (rounds := rounds) (o := o) (code := code) as (C & N & K & sol & S0 & NX & TF & TU & W & M & A).
  - apply (explosion_timing euler_system fuel c z X s0 HS T0); [eexists; exact SH|]. intros steps s' U HU R. destruct (explosion_budget_newtonian fuel z X steps s0 s' U HS G HU R) as (Us & _ & _ & T & _). exact T.
  - exact HR.
  - exact E.
  - exists N, K. split; [repeat split; try assumption; apply W|]. intros k s Hs. destruct (A k s Hs) as (j & HJ & -> & CS). exists j. split; [exact HJ|]. split; [exact CS|].
    assert (RJ : run euler_system fuel j s0 = Ok (sol j)) by (apply run_prefix; [exact S0|]; intros i Hi; apply NX; lia).
    destruct (explosion_budget_newtonian fuel z X j s0 (sol j) _ HS G SH RJ) as (Us & U0 & SJ & T & _ & B). exists Us. split; [exact U0|]. split; [exact SJ|]. split; [rewrite T, T0; fold dt; ring|]. cbv zeta. intros HG. rewrite U0. exact (B HG).
Qed.

(** The cloud program.  [s] holds what the envelop of the initial solution held, and what has crossed the inner and the outer
    faces in j steps. *)
Definition cloud_account (c : CloudModel.config) (fuel secant : nat) (n : Z) (X Q : Z -> R) (dt : R) (j : nat) (s : CloudModel.solution) : Prop :=
  let m := CloudModel.nr c in
  exists (P0 : Z -> prim) (s0 : CloudModel.solution) (Us : nat -> Z -> Z -> v5) (P P' : nat -> Z -> Z -> prim),
    (forall i, (0 <= i < n)%Z -> CloudSetupProps.envelop_state c secant ((X i + X (i + 1)%Z) / 2) (P0 i)) /\
    Us 0%nat = (fun i j => times5 (srhd_conserved (P0 i) (4 / 3)) (2 * PI / 3 * (X (i + 1)%Z ^ 3 - X i ^ 3) * (cos (Q j) - cos (Q (j + 1)%Z)))) /\
    CloudModel.new_solution c fuel secant = Ok s0 /\ CloudProofs2.on_grid s n m X Q (Us j) /\ CloudModel.time s = INR j * dt /\
    (forall k, (k < j)%nat -> CloudProps.gas_of c n m X Q (Us k) (P k)) /\
    (CloudModel.rk_order c = 2%Z -> forall k, (k < j)%nat -> exists sk r V, CloudModel.run c fuel k s0 = Ok sk /\ CloudModel.advance c fuel sk sk dt = Ok r /\ CloudProofs2.on_grid r n m X Q V /\ CloudProps.gas_of c n m X Q V (P' k)) /\
    let t k := INR k * dt in
    let mass_rate k R := CloudProps.entering (fun j => c0 (CloudProps.inner_face c n Q (CloudProps.units_of c) (t k) R j)) m X Q - CloudProps.leaving srhd_mass_flux n m X Q R in
    let energy_rate k R := CloudProps.entering (fun j => c4 (CloudProps.inner_face c n Q (CloudProps.units_of c) (t k) R j)) m X Q - CloudProps.leaving srhd_energy_flux n m X Q R in
    let average k (rate : nat -> (Z -> Z -> prim) -> R) := if (CloudModel.rk_order c =? 1)%Z then rate k (P k) else (rate k (P k) + rate k (P' k)) / 2 in
    rsum (fun i => rsum (fun q => c0 (Us j i q)) m) n = rsum (fun i => rsum (fun q => c0 (Us 0%nat i q)) m) n + dt * sum_over (fun k => average k mass_rate) j /\
    rsum (fun i => rsum (fun q => c4 (Us j i q)) m) n = rsum (fun i => rsum (fun q => c4 (Us 0%nat i q)) m) n + dt * sum_over (fun k => average k energy_rate) j.
Theorem cloud_checkpoints fuel secant c n s0 : let p := physics c in CloudProps.good_cloud p -> CloudProofs.sizes fuel n (CloudModel.nr p) -> CloudProofs.method_ok p (CloudModel.nr p) ->
  0 < CloudModel.num_decades p -> CloudSetupProps.shell_count p n -> 0 < CloudModel.cfl p -> CloudModel.new_solution p fuel secant = Ok s0 ->
  exists X Q, X 0%Z = 1 /\ X n = Rpower 10 (CloudModel.num_decades p) /\ (exists q, 1 < q /\ forall i, X (i + 1)%Z = X i * q) /\
    Q 0%Z = 0 /\ Q (CloudModel.nr p) = PI /\ (forall j, Q (j + 1)%Z - Q j = PI / IZR (CloudModel.nr p)) /\
    let dt := CloudModel.cfl p * (X 1%Z - X 0%Z) in dt <= c_cpi c -> dt <= c_dfi c -> dt <= c_tsi c ->
    forall rounds o code, (Z.of_nat rounds < 2 ^ 31 - 3)%Z -> cloud_program fuel secant c rounds = Ok (o, code) ->
    exists N K, complete_run (c_tfinal c) (c_cpi c) dt N K (map fst (scheckpoints o)) code /\
      forall k s, In (Z.of_nat k, s) (scheckpoints o) -> exists j, (j <= S N)%nat /\ checkpoint_step (c_cpi c) dt k j /\ cloud_account p fuel secant n X Q dt j s.
Proof.
  intros p GC HS HM HD HN HCF E0. destruct (CloudSetupProps.cloud_grid p fuel secant n s0 GC HS HD HN E0) as (X & Q & P0 & T0 & X0 & XN & QX & Q0 & QN & QD & ENV & SH).
  exists X, Q. repeat (split; [assumption|]). intros dt HC HDF HT rounds o code HR E. unfold cloud_program in E. fold p in E. rewrite E0 in E. cbn [bind] in E.
  assert (DP : 0 < dt). { unfold dt. apply Rmult_lt_0_compat; [exact HCF|]. destruct QX as (q & HQ & QE). specialize (QE 0%Z). change (0 + 1)%Z with 1%Z in QE. rewrite QE, X0. lra. }
  destruct (fixed_step_checkpoints (fun c => CloudModel.next_solution (physics c) fuel) CloudModel.time c_dfi c_tsi c_cpi c_tfinal c s0 dt DP HC HDF HT) with (rounds := rounds) (o := o) (code := code) as (C & N & K & sol & S0 & NX & TF & TU & W & M & A).
  - intros sol m S0 HX. pose proof (CloudProps.run_to p fuel m sol s0 S0 HX) as R. destruct (CloudProps.cloud_budget p fuel n (CloudModel.nr p) X Q m s0 (sol m) _ GC HS HM SH R) as (Us & P & P' & _ & _ & B). destruct B as (B & _). destruct (B m (le_n _)) as (sm & RM & _ & TM). rewrite R in RM. injection RM as <-. rewrite TM, T0. fold dt. ring.
  - exact HR.
  - exact E.
  - exists N, K. split; [repeat split; try assumption; apply W|]. intros k s Hs. destruct (A k s Hs) as (j & HJ & -> & CS). exists j. split; [exact HJ|]. split; [exact CS|].
    assert (RJ : CloudModel.run p fuel j s0 = Ok (sol j)) by (apply CloudProps.run_to; [exact S0|]; intros i Hi; apply NX; lia).
    destruct (CloudProps.cloud_budget p fuel n (CloudModel.nr p) X Q j s0 (sol j) _ GC HS HM SH RJ) as (Us & P & P' & U0 & SJ & B). destruct B as (BT & BG & BG' & BM & BE). fold dt in BT, BG', BM, BE.
    exists P0, s0, Us, P, P'. split; [exact ENV|]. split; [exact U0|]. split; [exact E0|]. split; [exact SJ|]. destruct (BT j (le_n _)) as (sj & RM & _ & TM). rewrite RJ in RM. injection RM as <-.
    split; [rewrite TM, T0; ring|]. split; [exact BG|]. split; [exact BG'|]. rewrite U0. cbv zeta in *. rewrite T0 in BM, BE. rewrite BM, BE.
    split; f_equal; f_equal; apply CloudProps.sum_ext; intros i Hi; rewrite !Rplus_0_l; reflexivity.
Qed.

(** A Newtonian run ends whenever its rounds can be counted: no state of the gas stops it. *)
Lemma newtonian_step fuel z X s U : sizes fuel z -> shells s z X U -> exists s' U', next_solution euler_system fuel s = Ok s' /\ shells s' z X U' /\ s_time s' = s_time s + 4 / 10 * (X 1%Z - X 0%Z).
Proof.
  intros [Hn Hf] [HX HU]. destruct (step_value euler_system z X U (fun k => euler_recover (over5 (U k) (volume_of X k)) gamma_law_index 0) fuel s Hn Hf HX HU) as (u & E & RU); [reflexivity|].
  eexists _, _. split; [exact E|]. split; [split; [exact HX|exact RU]|reflexivity].
Qed.
Theorem newtonian_runs_end fuel c z : 1 < outer_radius c -> (1 <= z < 2147483647)%Z -> (Z.to_nat z < fuel)%nat -> IZR z <= ln (outer_radius c) / ln 10 * IZR (nr c) < IZR z + 1 ->
  exists X, grid z X /\ X 0%Z = / sqrt 10 /\ X z = outer_radius c /\ (exists q, 1 < q /\ forall k, X (k + 1)%Z = X k * q) /\
    let dt := 4 / 10 * (X 1%Z - X 0%Z) in dt <= cpi c -> dt <= dfi c -> dt <= tsi c -> tfinal c < 2147483640 * dt ->
    exists rounds, (Z.of_nat rounds < 2 ^ 31 - 3)%Z /\ forall m, (rounds <= m)%nat -> exists o, explosion_program euler_system fuel c m = Ok (o, 0%Z).
Proof.
  intros H1 Hz Hf HZ. assert (HS : sizes fuel z) by (split; lia). destruct (new_run_grid euler_system fuel (explosion_density c) (explosion_pressure c) (density_index c) (outer_radius c) (nr c) z H1 Hz Hf HZ) as (s0 & X & E0 & T0 & G & X0 & XZ & Q & SH).
  exists X. split; [exact G|]. split; [exact X0|]. split; [exact XZ|]. split; [exact Q|].
  set (dt := 4 / 10 * (X 1%Z - X 0%Z)). pose proof (step_positive z X ltac:(lia) G) as DP. fold dt in DP. cbv zeta. intros HC HD HT HB.
  set (sol := fix sol i := match i with O => s0 | S j => match next_solution euler_system fuel (sol j) with Ok x => x | _ => s0 end end).
  assert (SO : forall i, (exists U, shells (sol i) z X U) /\ s_time (sol i) = INR i * dt /\ next_solution euler_system fuel (sol i) = Ok (sol (S i))).
  { induction i as [|i ((U & IU) & IT & IE)].
    - split; [eexists; exact SH|]. split; [cbn [sol]; rewrite T0; simpl; ring|]. destruct (newtonian_step fuel z X s0 _ HS SH) as (s' & _ & E' & _). change (sol 1%nat) with (match next_solution euler_system fuel s0 with Ok x => x | _ => s0 end). rewrite E'. exact E'.
    - destruct (newtonian_step fuel z X (sol i) U HS IU) as (s' & U' & E' & SH' & T'). assert (EE : s' = sol (S i)) by congruence. rewrite EE in SH', T'. split; [exists U'; exact SH'|]. split; [rewrite T', IT, S_INR; fold dt; ring|].
      destruct (newtonian_step fuel z X (sol (S i)) U' HS SH') as (s2 & _ & E2 & _). change (sol (S (S i))) with (match next_solution euler_system fuel (sol (S i)) with Ok x => x | _ => s0 end). rewrite E2. reflexivity. }
  set (N := if Rle_dec (tfinal c) 0 then 0%nat else Z.to_nat (1 - up (- (tfinal c / dt)))).
  assert (DD : tfinal c / dt * dt = tfinal c) by (field; lra).
  assert (NS : tfinal c <= INR N * dt /\ (forall i, (i < N)%nat -> INR i * dt < tfinal c) /\ (Z.of_nat N < 2 ^ 31 - 3)%Z).
  { unfold N. destruct (Rle_dec (tfinal c) 0) as [L|L]; [simpl; split; [lra|split; [intros; lia|lia]]|]. assert (P0 : 0 < tfinal c / dt) by (apply Rdiv_lt_0_compat; lra).
    assert (PB : tfinal c / dt < 2147483640) by (apply (Rmult_lt_reg_r dt); [exact DP|]; rewrite DD; exact HB).
    destruct (archimed (- (tfinal c / dt))) as [A1 A2]. set (u := up (- (tfinal c / dt))) in *.
    assert (UL : IZR (1 - u) < IZR 2147483641) by (rewrite minus_IZR; lra). apply lt_IZR in UL. assert (UG : 0 < IZR (1 - u)) by (rewrite minus_IZR; lra). apply lt_IZR in UG.
    assert (IU : INR (Z.to_nat (1 - u)) = 1 - IZR u) by (rewrite INR_IZR_INZ, Z2Nat.id, minus_IZR by lia; reflexivity). rewrite IU. rewrite Z2Nat.id by lia. split; [rewrite <- DD; apply Rmult_le_compat_r; lra|]. split; [|lia].
    intros i Hi. rewrite <- DD. apply Rmult_lt_compat_r; [exact DP|]. assert (I1 : INR i + 1 <= INR (Z.to_nat (1 - u))) by (rewrite <- S_INR; apply le_INR; lia). rewrite IU in I1. lra. }
  destruct NS as (N1 & N2 & N3). exists N. split; [exact N3|]. intros m Hm.
  set (go := fun (c : explosion_config) s => if Rlt_dec (s_time s) (tfinal c) then true else false).
  assert (TM : forall i, s_time (sol i) = INR i * dt) by (intros i; apply SO).
  assert (RO : run_of (fun _ => next_solution euler_system fuel) go c sol N).
  { split; [intros i _; apply SO|]. split; [|split; [|exact N3]].
    - intros i Hi. unfold go. rewrite TM. specialize (N2 i Hi). destruct (Rlt_dec _ _); [reflexivity|lra].
    - unfold go. rewrite TM. destruct (Rlt_dec _ _); [lra|reflexivity]. }
  assert (SW : forall x, dt <= x -> steps_within (fun i => s_time (sol i)) x N).
  { intros x Hx. split; [lra|]. split; [rewrite TM; simpl; ring|]. intros i Hi. rewrite !TM, S_INR. lra. }
  destruct (simple_run_outputs (fun _ => next_solution euler_system fuel) s_time cpi dfi tsi go c sol N m RO (proj2 (proj2 (SO N))) (SW _ HC) (SW _ HD) (SW _ HT) Hm) as (o & K & Kd & Ks & rc & E & _).
  exists o. unfold explosion_program. rewrite E0. cbn [bind]. change task_due with tdueR. fold go. exact E.
Qed.

(** *** Examples *)
(** Two shells between 10^(-1/2), 10^(1/4) and 10, up to the time 1 with checkpoints every 6/10: the Newtonian run ends after two
    steps with the checkpoints 0 and 1, and checkpoint 1 holds what has not left. *)
Definition two_shells : explosion_config := ExplosionConfig 2 1 (6 / 10) 1 1 10 1 1 0.
Example two_shells_run : exists rounds o X dt, explosion_program euler_system 9 two_shells rounds = Ok (o, 0%Z) /\ map fst (scheckpoints o) = [0; 1]%Z /\ 58 / 100 < dt < 59 / 100 /\
  forall s, In (1%Z, s) (scheckpoints o) -> exists j, (j <= 3)%nat /\ 6 / 10 <= s_time s < 6 / 10 + 2 * dt /\ newtonian_account two_shells 2 X dt j s.
Proof.
  assert (L : ln 10 / ln 10 = 1) by (pose proof ln10; field; lra). assert (HZ : IZR 2 <= ln (outer_radius two_shells) / ln 10 * IZR (nr two_shells) < IZR 2 + 1) by (cbn [outer_radius nr two_shells]; rewrite L; lra).
  assert (SQ : 316 / 100 < sqrt 10 < 317 / 100). { pose proof (sqrt_sqrt 10 ltac:(lra)). pose proof (sqrt_pos 10). split; nra. }
  assert (STEP : forall X : Z -> R, X 0%Z = / sqrt 10 -> X 2%Z = 10 -> (exists q, 1 < q /\ forall k, X (k + 1)%Z = X k * q) -> 58 / 100 < 4 / 10 * (X 1%Z - X 0%Z) < 59 / 100).
  { intros X A B (q & Hq & E). pose proof (E 0%Z) as E1. pose proof (E 1%Z) as E2. change (0 + 1)%Z with 1%Z in E1. change (1 + 1)%Z with 2%Z in E2. rewrite B in E2. assert (M : X 1%Z * X 1%Z = 10 * X 0%Z) by (rewrite E2 at 1; rewrite E1 at 3; rewrite E1; ring).
    assert (X0M : X 0%Z * sqrt 10 = 1) by (rewrite A; field; lra). assert (XB : 315 / 1000 < X 0%Z < 317 / 1000) by (split; nra). assert (0 < X 1%Z) by (rewrite E1; apply Rmult_lt_0_compat; lra). assert (1774 / 1000 < X 1%Z < 1781 / 1000) by (split; nra). lra. }
  destruct (newtonian_runs_end 9 two_shells 2 ltac:(cbn; lra) ltac:(lia) ltac:(lia) HZ) as (X' & _ & A0 & A2 & AQ & END). pose proof (STEP X' A0 A2 AQ) as D'.
  destruct (explosion_checkpoints_newtonian 9 two_shells 2 ltac:(cbn; lra) ltac:(lia) ltac:(lia) HZ) as (X & G & X0 & X2 & XQ & RUN). pose proof (STEP X X0 X2 XQ) as D. cbv zeta in RUN, END. cbn [two_shells cpi dfi tsi tfinal] in RUN, END.
  destruct END as (rounds & HB & END); [lra..|]. destruct (END rounds (le_n _)) as (o & E). set (dt := 4 / 10 * (X 1%Z - X 0%Z)) in *.
  destruct (RUN ltac:(lra) ltac:(lra) ltac:(lra) rounds o 0%Z HB E) as (N & K & (_ & T1 & T2 & W & M) & C). exists rounds, o, X, dt. split; [exact E|].
  assert (N2 : N = 2%nat). { destruct N as [|[|[|N]]]; [simpl in T1; lra|simpl in T1; lra|reflexivity|]. specialize (T2 ltac:(lia)). rewrite !S_INR in T2. pose proof (pos_INR N). nra. }
  assert (K1 : K = 1%nat). { rewrite N2 in W. destruct W as [W1 W2]. destruct K as [|[|K]]; [simpl in *; lra|reflexivity|]. exfalso. rewrite !S_INR in *. pose proof (pos_INR K). simpl in *. lra. }
  rewrite K1 in M. split; [exact M|]. split; [exact D|]. intros s Hs. destruct (C 1%nat s Hs) as (j & HJ & (_ & CJ) & A). exists j. split; [lia|]. specialize (CJ ltac:(lia)). pose proof A as (Us & _ & _ & T & _). rewrite T. simpl in CJ. split; [lra|exact A].
Qed.
Print Assumptions explosion_checkpoints_relativistic.
Print Assumptions explosion_checkpoints_newtonian.
Print Assumptions cloud_checkpoints.
Print Assumptions newtonian_runs_end.
