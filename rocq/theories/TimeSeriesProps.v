(** C113: the time series in the checkpoints of a complete run of the binary program is a closed account. *)
From Coq Require Import ZArith Reals Lra List Arith Bool Lia Sorted.
From Verif Require Import Base TreeModel TreeSpec BalanceModel NdModel NdSpec FluxSpec MeshModel StepSpec TwoBodyModel TwoBodyProofs TwoBodyProps HydroModel SourceModel SolutionModel SolutionSpec
  SolutionProofs SolutionProofs2 SolutionProofs3 SolutionProofs4 SolutionProofs5 SolutionProps SolutionExample LiveProps ScheduleModel DriftProofs RunModel RunSpec RunProps TimeSeriesModel.
Import ListNotations.
Open Scope R_scope.

(** *** Statements *)
(** The mass and the angular momentum a sample accounts for. *)
Definition mass_in (x : sample) : R := x_disk_mass x + (fst (x_mass_accreted_on x) + snd (x_mass_accreted_on x)) + x_mass_ejected x.
Definition angular_momentum_in (x : sample) : R :=
  x_disk_angular_momentum x + (fst (x_angular_momentum_accreted_on x) + snd (x_angular_momentum_accreted_on x))
    + (fst (x_integrated_torque_on x) + snd (x_integrated_torque_on x)) + x_angular_momentum_ejected x.
(** The mass both bodies took in between two samples. *)
Definition taken_in (x y : sample) : R := fst (x_mass_accreted_on y) - fst (x_mass_accreted_on x) + (snd (x_mass_accreted_on y) - snd (x_mass_accreted_on x)).

(** What sample [y] says compared to sample [x] before it: time does not go back, no body loses mass it took in, and the
    mass of the binary grows by what both bodies took in: at once in the elements kept for accretion; in the elements the
    disk feels only once the binary is live, before that they stay what they are. *)
Definition follows (live : R) (x y : sample) : Prop :=
  x_time x <= x_time y /\
  fst (x_mass_accreted_on x) <= fst (x_mass_accreted_on y) /\ snd (x_mass_accreted_on x) <= snd (x_mass_accreted_on y) /\
  mtot (orb (x_orbital_elements_acc y)) - mtot (orb (x_orbital_elements_acc x)) = taken_in x y /\
  (live < x_time x -> mtot (orb (x_orbital_elements y)) - mtot (orb (x_orbital_elements x)) = taken_in x y) /\
  (x_time y <= live -> x_orbital_elements y = x_orbital_elements x).

(** The positions in a sample fit its orbital elements: the bodies balance at the centre of mass, and their distance is
    between periapsis and apoapsis. *)
Definition positions_fit (x : sample) : Prop :=
  let e := x_orbital_elements x in let p := x_position_of_mass1 x in let q := x_position_of_mass2 x in
  fst p + ratio (orb e) * fst q = (1 + ratio (orb e)) * cmx e /\
  snd p + ratio (orb e) * snd q = (1 + ratio (orb e)) * cmy e /\
  sep (orb e) * (1 - ecc (orb e)) <= sqrt ((fst p - fst q) * (fst p - fst q) + (snd p - snd q) * (snd p - snd q)) <= sep (orb e) * (1 + ecc (orb e)).

(** *** One sample *)
Section Samples.
Context (N : Z) (d : nat) (predicate : nat -> R -> bool) (fuel : nat) (sd : settings) (fd : fields).
Context (HS : setup N d predicate fuel sd fd).

Lemma sample_ok s b : valid N sd fd s -> full_state_at fuel (orbital_elements s) (time s) = Ok b -> exists x, sample_of fd fuel sd s = Ok x.
Proof.
  intros (HM & _) Eb. unfold sample_of. rewrite Eb. bsimp. rewrite (disk_mass_exact _ _ _ _ _ _ _ HS HM). bsimp.
  destruct (disk_angular_momentum_exact _ _ _ _ _ _ _ HS HM) as (L1 & L2). destruct (conserve_linear_p sd); [rewrite (L2 eq_refl)|rewrite (L1 eq_refl)]; bsimp; eauto.
Qed.
Lemma sample_parts s x : valid N sd fd s -> sample_of fd fuel sd s = Ok x ->
  x_time x = time s /\ mass_in x = mass_ledger N sd fd s /\ (conserve_linear_p sd = false -> angular_momentum_in x = angular_momentum_ledger N fd s) /\
  x_mass_accreted_on x = s_mass_accreted_on s /\ x_orbital_elements_acc x = orbital_elements_acc s /\ x_orbital_elements x = orbital_elements s.
Proof.
  intros (HM & _) E. unfold sample_of in E. destruct (full_state_at _ _ _) as [b| | |]; cbn [bind] in E; try discriminate.
  rewrite (disk_mass_exact _ _ _ _ _ _ _ HS HM) in E. cbn [bind] in E. destruct (disk_angular_momentum sd fd s) as [l| | |] eqn:EL; cbn [bind] in E; try discriminate. injection E as <-.
  split; [reflexivity|]. split; [unfold mass_in, mass_ledger, both; cbn; ring|]. split; [|auto].
  intros HQ. rewrite (proj1 (disk_angular_momentum_exact _ _ _ _ _ _ _ HS HM) HQ) in EL. injection EL as <-. unfold angular_momentum_in, angular_momentum_ledger, both. cbn. ring.
Qed.
Lemma sample_positions s x : bound (orb (orbital_elements s)) -> sample_of fd fuel sd s = Ok x -> positions_fit x.
Proof.
  intros HB E. unfold sample_of in E. destruct (full_state_at _ _ _) as [b| | |] eqn:Eb; cbn [bind] in E; try discriminate.
  destruct (disk_mass sd fd s); cbn [bind] in E; try discriminate. destruct (disk_angular_momentum sd fd s); cbn [bind] in E; try discriminate. injection E as <-.
  destruct (full_state_conserved _ _ _ _ HB Eb) as (MS & MQ & CX & CY & _ & _ & _ & _ & D). destruct HB as (_ & HM & HQ & _).
  unfold positions_fit. cbv zeta. cbn [x_orbital_elements x_position_of_mass1 x_position_of_mass2 fst snd]. unfold center in CX, CY. rewrite MQ in *.
  assert (H1 : m1 b <> 0) by nra. assert (H2 : m1 b + ratio (orb (orbital_elements s)) * m1 b <> 0) by lra.
  split; [|split; [|exact D]]; [rewrite <- CX|rewrite <- CY]; field; (exact H2 || lra).
Qed.

(** *** Two samples of a run *)
Context (HA : axisymmetric_cs2 sd = true) (HF : conserve_linear_p sd = true -> density_floor sd <= 0) (Hk : 0 <= sink_rate sd)
  (Hr : 0 <= recommended_time_step sd) (Hc : 0 <= cfl_number sd) (HQ : conserve_linear_p sd = true \/ fixed_dt sd = true).

Lemma samples_follow n s s' x y : valid N sd fd s -> steps sd fd fuel n s = Ok s' -> sample_of fd fuel sd s = Ok x -> sample_of fd fuel sd s' = Ok y ->
  follows (begin_live_binary sd) x y /\ mass_in y = mass_in x /\ (conserve_linear_p sd = false -> angular_momentum_in y = angular_momentum_in x).
Proof.
  intros V E Ex Ey. pose proof (run_keeps_valid _ _ _ _ _ _ HS n _ _ V E) as V'.
  destruct (sample_parts _ _ V Ex) as (X1 & X2 & X3 & X4 & X5 & X6). destruct (sample_parts _ _ V' Ey) as (Y1 & Y2 & Y3 & Y4 & Y5 & Y6).
  destruct (accretion_run _ _ _ _ _ _ HS Hk Hr Hc HQ n _ _ V E) as (A1 & A2 & A3). destruct (binary_mass_run _ _ _ _ _ _ HS Hr Hc HQ n _ _ V E) as (B1 & B2 & B3).
  split; [|split].
  - unfold follows, taken_in. rewrite X1, X4, X5, X6, Y1, Y4, Y5, Y6. cbv zeta in *. unfold both in *.
    split; [exact A3|]. split; [exact A1|]. split; [exact A2|]. split; [lra|]. split; [intros L; specialize (B2 L); lra|exact B3].
  - rewrite X2, Y2. exact (mass_run _ _ _ _ _ _ HS HA HF n _ _ V E).
  - intros HL. rewrite (X3 HL), (Y3 HL). exact (angular_momentum_run _ _ _ _ _ _ HS HL n _ _ V E).
Qed.
End Samples.

(** *** Rounds *)
Lemma round_bound (t : nat -> R) I k i n : at_round t I k i -> INR k * I <= t n -> (i <= S n)%nat.
Proof. intros H L. destruct i as [|i]; [lia|]. destruct H as (_ & _ & H). destruct (le_lt_dec i n) as [|X]; [lia|]. specialize (H n X). lra. Qed.
Lemma round_mono (t : nat -> R) I k k' i i' : 0 < I -> at_round t I k i -> at_round t I k' i' -> (k <= k')%nat -> (i <= i')%nat.
Proof.
  intros HI H H' L. destruct i as [|i]; [lia|]. destruct H as (H1 & _ & H2). destruct i' as [|i']; [cbn in H'; lia|]. destruct H' as (_ & H' & _).
  destruct (le_lt_dec (S i) (S i')) as [|X]; [assumption|]. specialize (H2 i' ltac:(lia)). apply le_INR in L. nra.
Qed.
Lemma steps_mono (t : nat -> R) I n : steps_within t I n -> forall i j, (i <= j)%nat -> (j <= n)%nat -> t i <= t j.
Proof. intros (_ & _ & H) i j L. induction L as [|j L IH]; intros Hj; [lra|]. specialize (H j ltac:(lia)). specialize (IH ltac:(lia)). lra. Qed.

Lemma steps_between sd fd fuel (sol : nat -> solution) n : (forall i, (i <= n)%nat -> next_solution sd fd fuel (sol i) = Ok (sol (S i))) ->
  forall k i, (i + k <= S n)%nat -> steps sd fd fuel k (sol i) = Ok (sol (i + k)%nat).
Proof.
  intros H k. induction k as [|k IH]; intros i L; cbn [steps]; [rewrite Nat.add_0_r; reflexivity|].
  rewrite (H i) by lia. cbn [bind]. rewrite (IH (S i)) by lia. f_equal. f_equal. lia.
Qed.
Lemma next_bodies sd fd fuel s s1 : next_solution sd fd fuel s = Ok s1 -> exists b, full_state_at fuel (orbital_elements s) (time s) = Ok b.
Proof.
  unfold next_solution. intros E. destruct (if fixed_dt sd then _ else _) as [dt| | |]; cbn [bind] in E; try discriminate.
  assert (G : forall e safe z, can_fail sd fd fuel s e safe = Ok z -> exists b, full_state_at fuel (orbital_elements s) (time s) = Ok b).
  { intros e safe z F. unfold can_fail in F. destruct (rk_order sd =? 1)%Z; [destruct (booked_any _ _ _ _ _ _ _ F) as (b & _ & _ & _ & Eb & _); eauto|].
    destruct (rk_order sd =? 2)%Z; [|discriminate]. destruct (advance sd fd fuel s e safe) as [sa| | |] eqn:Ea; cbn [bind] in F; try discriminate.
    destruct (booked_any _ _ _ _ _ _ _ Ea) as (b & _ & _ & _ & Eb & _); eauto. }
  destruct (can_fail sd fd fuel s dt false) as [z| | |] eqn:F; try discriminate; [exact (G _ _ _ F)|exact (G _ _ _ E)].
Qed.

(** *** The series of a complete run *)
(** In every checkpoint a complete run writes, every sample was made; all samples of all checkpoints account for the same
    mass, the one of the initial solution, and in the angular momentum conserving scheme for the same angular momentum;
    each sample fits all earlier ones; the positions fit the elements. The last hypothesis: the positions of the bodies
    can be found for the solution after the final step too ([full_state_terminates]). *)
Theorem time_series_accounts N d predicate fuel sd fd {Diag} (cpi dfi tsi : settings -> R) go (diagnose : settings -> solution -> Diag) (sol : nat -> solution) n rounds o code :
  setup N d predicate fuel sd fd -> valid N sd fd (sol 0%nat) ->
  axisymmetric_cs2 sd = true -> (conserve_linear_p sd = true -> density_floor sd <= 0) ->
  0 <= sink_rate sd -> 0 <= recommended_time_step sd -> 0 <= cfl_number sd -> (conserve_linear_p sd = true \/ fixed_dt sd = true) ->
  let next sd s := next_solution sd fd fuel s in let t i := time (sol i) in
  run_of next go sd sol n -> next sd (sol n) = Ok (sol (S n)) ->
  steps_within t (cpi sd) n -> steps_within t (dfi sd) n -> steps_within t (tsi sd) n -> (n <= rounds)%nat ->
  (exists b, full_state_at fuel (orbital_elements (sol (S n))) (time (sol (S n))) = Ok b) ->
  binary_program 0 Rplus tdueR next time cpi dfi tsi go diagnose (sample_of fd fuel) sd (sol 0%nat) rounds = Ok (o, code) ->
  code = 0%Z /\ checkpoints o <> [] /\
  forall c, In c (checkpoints o) -> exists xs, snd c = map Ok xs /\ xs <> [] /\
    Forall (fun x => mass_in x = mass_ledger N sd fd (sol 0%nat) /\ (conserve_linear_p sd = false -> angular_momentum_in x = angular_momentum_ledger N fd (sol 0%nat))) xs /\
    StronglySorted (follows (begin_live_binary sd)) xs /\
    ((forall i, (i <= S n)%nat -> bound (orb (orbital_elements (sol i)))) -> Forall positions_fit xs).
Proof.
  intros HS V HA HF Hk Hr Hc HQ next t HR HL HC HD HT Hle HB E.
  destruct (binary_run_outputs next time cpi dfi tsi go diagnose (sample_of fd fuel) sd sol n rounds HR HL HC HD HT Hle) as (o' & Kc & Kd & rc & rd & rs & m & P & WC & _ & RC & _ & RS & WM & C & _).
  assert (X : Ok (o', 0%Z) = Ok (o, code)) by (rewrite <- P; exact E). injection X as -> <-. clear P E.
  assert (ST : forall i, (i <= n)%nat -> next_solution sd fd fuel (sol i) = Ok (sol (S i))).
  { intros i Hi. destruct (Nat.eq_dec i n) as [->|Hn]; [exact HL|]. apply (proj1 HR). lia. }
  pose proof (steps_between sd fd fuel sol n ST) as SB.
  assert (VA : forall i, (i <= S n)%nat -> valid N sd fd (sol i)) by (intros i Hi; exact (run_keeps_valid _ _ _ _ _ _ HS i _ _ V (SB i 0%nat Hi))).
  assert (SA : forall i, exists x, (i <= S n)%nat -> sample_of fd fuel sd (sol i) = Ok x).
  { intros i. destruct (le_lt_dec i (S n)) as [Hi|Hi].
    - assert (exists b, full_state_at fuel (orbital_elements (sol i)) (time (sol i)) = Ok b) as (b & Eb) by (destruct (Nat.eq_dec i (S n)) as [->|Hn]; [exact HB|exact (next_bodies _ _ _ _ _ (ST i ltac:(lia)))]).
      destruct (sample_ok _ _ _ _ _ _ HS _ _ (VA i Hi) Eb) as (x & Ex). exists x. auto.
    - exists (Sample 0 0 0 0 0 (0, 0) (0, 0) (0, 0) (0, 0) zero_elements zero_elements zero_elements (0, 0) (0, 0)). lia. }
  split; [reflexivity|]. split; [rewrite C; discriminate|]. intros c Hin. rewrite C in Hin. apply in_map_iff in Hin. destruct Hin as (k & <- & Hk'). apply in_seq in Hk'. cbn [snd].
  assert (Hkc : (k <= Kc)%nat) by lia. specialize (RC k Hkc). specialize (WM k Hkc).
  assert (TA : asked t (rc k) <= t n).
  { assert (L : INR k * cpi sd <= t n) by (destruct WC as [W _]; apply le_INR in Hkc; pose proof (proj1 HC); unfold t in *; nra).
    pose proof (round_bound _ _ _ _ n RC L) as B. destruct (rc k) as [|i]; cbn [asked]; [destruct HC as (_ & Z0 & _); fold (t 0%nat) in Z0; rewrite <- Z0; apply (steps_mono t (tsi sd) n HT); lia|].
    apply (steps_mono t (tsi sd) n HT); lia. }
  assert (RJ : forall j, (j <= m k)%nat -> at_round t (tsi sd) j (rs j) /\ (rs j <= S n)%nat).
  { intros j Hj. assert (L : INR j * tsi sd <= t n) by (destruct WM as [W _]; apply le_INR in Hj; pose proof (proj1 HT); fold t in W; nra).
    split; [exact (RS j L)|exact (round_bound _ _ _ _ n (RS j L) L)]. }
  assert (PICK : exists f : nat -> sample, forall j, (j <= m k)%nat -> sample_of fd fuel sd (sol (rs j)) = Ok (f j)).
  { exists (fun j => match sample_of fd fuel sd (sol (rs j)) with Ok x => x | _ => Sample 0 0 0 0 0 (0, 0) (0, 0) (0, 0) (0, 0) zero_elements zero_elements zero_elements (0, 0) (0, 0) end).
    intros j Hj. destruct (SA (rs j)) as (x & Ex). rewrite (Ex (proj2 (RJ j Hj))). reflexivity. }
  destruct PICK as (f & Hf). exists (map f (seq 0 (S (m k)))).
  assert (FL : forall i j, (i <= j)%nat -> (j <= m k)%nat -> follows (begin_live_binary sd) (f i) (f j) /\ mass_in (f j) = mass_in (f i) /\ (conserve_linear_p sd = false -> angular_momentum_in (f j) = angular_momentum_in (f i))).
  { intros i j Hij Hj. destruct (RJ i ltac:(lia)) as (R1 & B1). destruct (RJ j Hj) as (R2 & B2). pose proof (round_mono _ _ _ _ _ _ (proj1 HT) R1 R2 Hij) as M.
    pose proof (SB (rs j - rs i)%nat (rs i) ltac:(lia)) as S1. replace (rs i + (rs j - rs i))%nat with (rs j) in S1 by lia.
    exact (samples_follow _ _ _ _ _ _ HS HA HF Hk Hr Hc HQ _ _ _ _ _ (VA _ B1) S1 (Hf i ltac:(lia)) (Hf j Hj)). }
  split; [rewrite map_map; apply map_ext_in; intros j Hj; apply in_seq in Hj; apply Hf; lia|]. split; [discriminate|]. split; [|split].
  - assert (Z0 : rs 0%nat = 0%nat) by (destruct (RJ 0%nat ltac:(lia)) as (R0 & _); destruct (rs 0%nat) as [|i]; [reflexivity|destruct R0; lia]).
    pose proof (Hf 0%nat ltac:(lia)) as F0. rewrite Z0 in F0. destruct (sample_parts _ _ _ _ _ _ HS _ _ V F0) as (_ & P1 & P2 & _).
    rewrite Forall_forall. intros x Hx. apply in_map_iff in Hx. destruct Hx as (j & <- & Hj). apply in_seq in Hj. destruct (FL 0%nat j ltac:(lia) ltac:(lia)) as (_ & F1 & F2).
    split; [rewrite F1; exact P1|]. intros HL'. rewrite (F2 HL'). exact (P2 HL').
  - assert (G : forall len a, (a + len <= S (m k))%nat -> StronglySorted (follows (begin_live_binary sd)) (map f (seq a len))).
    { intros len. induction len as [|len IH]; intros a Ha; cbn [seq map]; [constructor|]. constructor; [apply IH; lia|].
      rewrite Forall_forall. intros x Hx. apply in_map_iff in Hx. destruct Hx as (j & <- & Hj). apply in_seq in Hj. apply FL; lia. }
    apply G. lia.
  - intros HBd. rewrite Forall_forall. intros x Hx. apply in_map_iff in Hx. destruct Hx as (j & <- & Hj). apply in_seq in Hj. destruct (RJ j ltac:(lia)) as (_ & B).
    exact (sample_positions _ _ _ _ _ (HBd _ B) (Hf j ltac:(lia))).
Qed.

(** The example run: one step of 1/2 in either scheme around an equal-mass binary on a circular orbit. The disk of mass 4
    loses what the bodies take in, and the second sample follows the first. *)
Lemma ex_pair_later lin s1 : orbital_elements s1 = orbital_elements (ex_state lin) -> time s1 = 1 / 2 -> exists b, full_state_at 2 (orbital_elements s1) (time s1) = Ok b.
Proof.
  intros -> ->. cbn [ex_state orbital_elements]. unfold full_state_at, elements_of_orbit. cbn [after tau orb]. destruct (Rlt_dec (1 / 2) 0) as [X|_]; [lra|]. bsimp. unfold state_at. cbn [ecc]. destruct (Rlt_dec 0 0) as [X|_]; [lra|]. bsimp. eauto.
Qed.
Example samples_example lin : exists fd s1 x y, steps (ex_sd lin) fd 2 1 (ex_state lin) = Ok s1 /\
  sample_of fd 2 (ex_sd lin) (ex_state lin) = Ok x /\ sample_of fd 2 (ex_sd lin) s1 = Ok y /\
  x_time x = 0 /\ x_disk_mass x = 4 /\ x_position_of_mass1 x = (1 / 2, 0) /\ x_position_of_mass2 x = (- (1 / 2), 0) /\
  x_time y = 1 / 2 /\ x_disk_mass y + x_mass_ejected y = 4 - 2 * ex_intake /\ 0 < ex_intake /\ x_mass_accreted_on y = (ex_intake, ex_intake) /\
  follows (begin_live_binary (ex_sd lin)) x y /\ positions_fit x /\ positions_fit y.
Proof.
  destruct (ex_run lin) as (fd & s1 & HS & V & E & M & T). pose proof ex_intake_small as HI.
  destruct (binary_mass_run _ _ _ _ _ _ HS ltac:(cbn; lra) ltac:(cbn; lra) ltac:(right; reflexivity) 1%nat _ _ V E) as (_ & _ & C). specialize (C ltac:(rewrite T; cbn; lra)).
  destruct (ex_pair_later lin s1 C T) as (b & Eb). pose proof (run_keeps_valid _ _ _ _ _ _ HS 1%nat _ _ V E) as V1.
  destruct (sample_ok _ _ _ _ _ _ HS _ _ V (ex_bodies lin)) as (x & Ex). destruct (sample_ok _ _ _ _ _ _ HS _ _ V1 Eb) as (y & Ey). exists fd, s1, x, y.
  destruct (samples_follow _ _ _ _ _ _ HS eq_refl ltac:(cbn; lra) ltac:(cbn; lra) ltac:(cbn; lra) ltac:(cbn; lra) ltac:(right; reflexivity) 1%nat _ _ _ _ V E Ex Ey) as (F & MM & _).
  assert (HB : bound (orb (orbital_elements (ex_state lin)))) by (unfold bound; cbn; lra).
  pose proof (sample_positions _ _ _ _ _ HB Ex) as PX.
  assert (PY : positions_fit y) by (eapply sample_positions; [|exact Ey]; rewrite C; exact HB).
  destruct (sample_parts _ _ _ _ _ _ HS _ _ V1 Ey) as (Y1 & _ & _ & Y4 & _).
  assert (X : x_time x = 0 /\ x_disk_mass x = 4 /\ x_position_of_mass1 x = (1 / 2, 0) /\ x_position_of_mass2 x = (- (1 / 2), 0) /\ x_mass_accreted_on x = (0, 0) /\ x_mass_ejected x = 0).
  { unfold sample_of in Ex. rewrite (ex_bodies lin) in Ex. cbn [bind] in Ex. rewrite (disk_mass_exact _ _ _ _ _ _ _ HS (proj1 V)), (ex_held lin fd d0 HS (proj1 V)) in Ex. cbn [bind] in Ex.
    destruct (disk_angular_momentum _ _ _); cbn [bind] in Ex; try discriminate. injection Ex as <-. cbn. repeat split; try reflexivity. ring. }
  destruct X as (X1 & X2 & X3 & X4 & X5 & X6). split; [exact E|]. split; [exact Ex|]. split; [exact Ey|]. do 4 (split; [assumption|]). split; [rewrite Y1; exact T|].
  unfold mass_in in MM. rewrite X2, X5, X6, Y4, M in MM. cbn [fst snd] in MM. split; [lra|]. split; [lra|]. split; [rewrite Y4; exact M|]. auto.
Qed.

(** The program on that set-up, told to stop at once: the first checkpoint holds one sample. *)
Example time_series_example lin : exists fd s1 o c x, 
  binary_program 0 Rplus tdueR (fun sd s => next_solution sd fd 2 s) time (fun _ => 1) (fun _ => 1) (fun _ => 1) (fun _ _ => false) (fun _ _ => tt) (sample_of fd 2) (ex_sd lin) (ex_state lin) 0 = Ok (o, 0%Z) /\
  steps (ex_sd lin) fd 2 1 (ex_state lin) = Ok s1 /\ checkpoints o = [c] /\ snd c = [Ok x] /\ mass_in x = 4 /\ positions_fit x.
Proof.
  destruct (ex_run lin) as (fd & s1 & HS & V & E & M & T). exists fd, s1. set (sol := fun i : nat => match i with O => ex_state lin | _ => s1 end).
  assert (E1 : next_solution (ex_sd lin) fd 2 (ex_state lin) = Ok s1) by (cbn [steps] in E; destruct (next_solution _ _ _ _); cbn [bind] in E; try discriminate; exact E).
  destruct (binary_mass_run _ _ _ _ _ _ HS ltac:(cbn; lra) ltac:(cbn; lra) ltac:(right; reflexivity) 1%nat _ _ V E) as (_ & _ & C). specialize (C ltac:(rewrite T; cbn; lra)).
  assert (SW : steps_within (fun i => time (sol i)) 1 0) by (split; [lra|]; split; [reflexivity|]; intros i Hi; lia).
  assert (HR : run_of (fun sd s => next_solution sd fd 2 s) (fun _ _ => false) (ex_sd lin) sol 0) by (split; [intros i Hi; lia|]; split; [intros i Hi; lia|]; split; [reflexivity|cbn; lia]).
  destruct (binary_run_outputs (fun sd s => next_solution sd fd 2 s) time (fun _ => 1) (fun _ => 1) (fun _ => 1) (fun _ _ => false) (fun _ _ => tt) (sample_of fd 2) (ex_sd lin) sol 0 0 HR E1 SW SW SW (le_n 0))
    as (o & Kc & Kd & rc & rd & rs & m & P & WC & _ & RC & _ & RS & WM & CK & _). exists o.
  destruct (time_series_accounts _ _ _ _ _ _ (fun _ => 1) (fun _ => 1) (fun _ => 1) (fun _ _ => false) (fun _ _ => tt) sol 0 0 o 0 HS V eq_refl ltac:(cbn; lra) ltac:(cbn; lra) ltac:(cbn; lra) ltac:(cbn; lra) ltac:(right; reflexivity) HR E1 SW SW SW (le_n 0) (ex_pair_later lin s1 C T) P)
    as (_ & _ & A).
  assert (Kc = 0%nat) as ->. { destruct WC as [W _]. cbn in W. destruct Kc; [reflexivity|]. rewrite S_INR in W. pose proof (pos_INR Kc). lra. }
  specialize (RC 0%nat (le_n 0)). assert (R0 : rc 0%nat = 0%nat) by (destruct (rc 0%nat); [reflexivity|destruct RC; lia]). specialize (WM 0%nat (le_n 0)). rewrite R0 in WM.
  assert (M0 : m 0%nat = 0%nat). { destruct WM as [W _]. cbn [asked] in W. destruct (m 0%nat); [reflexivity|]. rewrite S_INR in W. pose proof (pos_INR n). lra. }
  cbn [seq map] in CK. rewrite R0, M0 in CK. cbn [seq map] in CK. eexists. destruct (A _ ltac:(rewrite CK; left; reflexivity)) as (xs & Ex & _ & F & _ & PF). cbn [snd] in Ex.
  destruct xs as [|x [|? ?]]; try discriminate. exists x. split; [exact P|]. split; [exact E|]. split; [exact CK|]. split; [exact Ex|].
  apply Forall_inv in F. destruct F as (F & _). split.
  - rewrite F. unfold mass_ledger. cbn [sol]. rewrite (ex_held lin fd d0 HS (proj1 V)). unfold both. cbn. lra.
  - refine (Forall_inv (PF _)). intros i Hi. assert (HB : bound (orb (orbital_elements (ex_state lin)))) by (unfold bound; cbn; lra). destruct i; cbn [sol]; [exact HB|rewrite C; exact HB].
Qed.

Print Assumptions time_series_accounts.
