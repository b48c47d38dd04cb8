(** How a step of the binary program can fail (src/subprog_binary.cpp 258-293, src/subprog_binary_scheme.cpp 725-1028): a
    density below zero in the new data, or a pair of bodies that has come apart; nothing else. *)
From Coq Require Import ZArith Reals Lra List Arith Bool Lia.
From Verif Require Import Base TreeModel TreeSpec TreeProofs TreeProofs3 BalanceModel NdModel NdSpec NdProofs NdProofs2 ProlongProofs FluxSpec FluxTreeProofs FluxProofs FluxProofs3 FluxProofs4 FluxProofs5 MeshModel GuardSpec StepSpec StepProofs StepProofs3 TwoBodyModel TwoBodyProofs KeplerProofs OrbitProofs ElementsProofs TwoBodyProps HydroModel
  SourceModel SourceProofs SolutionModel SolutionSpec SolutionProofs SolutionProofs2 SolutionProofs3 SolutionProofs4 SolutionProofs5 UniformProps SolutionProps SolutionExample LiveProps.
Import ListNotations.
Open Scope R_scope.

(** *** Statements *)
(** Two bodies that hold each other. *)
Definition held_together (c : two_body) : Prop := 0 < m1 c /\ 0 < m2 c /\ 0 < dist c /\ energy (cm_frame c) < 0.
(** The bodies as they would be after taking in gas for a time, and after being pulled by it. *)
Definition after_accretion (N : Z) (sd : settings) (fd : fields) (s : solution) (dt : R) (b : two_body) : two_body :=
  let f c := let m := intake N sd fd s dt c in
    let v (g : R * R -> R) (w : body -> R) := if no_accretion_force sd then w c else (mass c * w c + momentum_intake N sd fd s dt g c) / (mass c + m) in
    Body (mass c + m) (px c) (py c) (v fst TwoBodyModel.vx) (v snd TwoBodyModel.vy) in
  TwoBody (f (body1 b)) (f (body2 b)).
Definition after_pull (N : Z) (sd : settings) (fd : fields) (s : solution) (dt : R) (b : two_body) : two_body :=
  let f c := Body (mass c) (px c) (py c) (TwoBodyModel.vx c + impulse N sd fd s dt fst c / mass c) (TwoBodyModel.vy c + impulse N sd fd s dt snd c / mass c) in
  TwoBody (f (body1 b)) (f (body2 b)).
(** The conserved data that an evaluation of the scheme arrives at, before it is checked. *)
Definition arrives_at (sd : settings) (fd : fields) (fuel : nat) (s : solution) (b : two_body) (dt : R) (safe : bool) (u : tree (array v3)) : Prop :=
  exists p z, recover_primitive sd fd s = Ok p /\ tmapM (step_sources sd fd b p s dt) (indexes 2 p) = Ok z /\
    update3 sd fd fuel safe (if conserve_linear_p sd then intercell_flux_u sd b else intercell_flux_q sd b) p (conserved sd s) (tmap fst z) dt = Ok u.
(** The places of the bodies can be computed. *)
Definition located (fuel : nat) (s : solution) : Prop := exists b, full_state_at fuel (orbital_elements s) (time s) = Ok b.

(** *** Proofs *)
Lemma elements_fail c t : held_together c -> exists p, elements_at c t = Ok p.
Proof. intros (H1 & H2 & HD & HE). destruct (frame_rel c H1 H2) as (FE & _). rewrite FE in HE. apply elements_spec_ok; assumption. Qed.
Lemma elements_two c t : (exists p, elements_at c t = Ok p) \/ (elements_at c t = Throw InvalidArgument /\ ~ held_together c).
Proof.
  assert (X : (exists p, elements_at c t = Ok p) \/ elements_at c t = Throw InvalidArgument) by (rewrite elements_unfold; destruct (Rle_dec _ _); eauto).
  destruct X as [X|X]; [left; exact X|right]. split; [exact X|]. intros H. destruct (elements_fail c t H) as [p E]. rewrite X in E. discriminate.
Qed.

(** One evaluation of the scheme, on every mesh, in both schemes, in safe mode or not, from every valid state in which the
    bodies can be placed: it gives a valid state, or it throws runtime_error, and then the new data has a density below
    zero, or it throws invalid_argument, and then the bodies would come apart.  It never terminates the program, looks up a
    block that is not there, combines blocks of different shapes or reads outside an array. *)
Theorem advance_outcomes N d predicate fuel sd fd s b dt safe : setup N d predicate fuel sd fd -> valid N sd fd s -> full_state_at fuel (orbital_elements s) (time s) = Ok b ->
  match advance sd fd fuel s dt safe with
  | Ok s1 => valid N sd fd s1 /\ arrives_at sd fd fuel s b dt safe (conserved sd s1)
  | Throw RuntimeError => exists u, arrives_at sd fd fuel s b dt safe u /\ cell_data N (vertices fd) u /\ ~ densities N u
  | Throw InvalidArgument => ~ held_together (after_accretion N sd fd s dt b) \/ ~ held_together (after_pull N sd fd s dt b)
  | _ => False
  end.
Proof.
  intros HS V Eb. destruct (advance_totals N d predicate fuel sd fd HS s dt safe b V Eb) as (p0 & z & t & u & Ep & Ez & EU & Du & EA & T1 & T2 & T3 & T4 & T5).
  assert (AR : arrives_at sd fd fuel s b dt safe u) by (exists p0, z; auto).
  assert (BA : bodies_acc sd b t = after_accretion N sd fd s dt b).
  { unfold bodies_acc, accreted_body, after_accretion. rewrite T1, T2, T3. cbn [fst snd]. destruct (no_accretion_force sd); reflexivity. }
  assert (BG : bodies_grv b t = after_pull N sd fd s dt b) by (unfold bodies_grv, pulled_body, after_pull; rewrite T4, T5; reflexivity).
  destruct (advance sd fd fuel s dt safe) as [s1|e| |] eqn:ED.
  - split; [exact (proj1 (advance_ledgers N d predicate fuel sd fd HS s dt safe s1 V ED))|].
    destruct (booked_solution sd s b t (used sd u) (used_q sd u) dt) as [s2| | |] eqn:EB; cbn [bind] in EA; try discriminate.
    destruct (checked N d predicate fuel sd fd HS u s2 Du) as [[_ C]|[_ C]]; rewrite C in EA; [|discriminate]. apply ok_inj in EA. subst s2.
    destruct (booked_fields _ _ _ _ _ _ _ _ EB) as (_ & F1 & F2 & _). replace (conserved sd s1) with u; [exact AR|]. unfold conserved, used, used_q in *. destruct (conserve_linear_p sd); congruence.
  - unfold booked_solution in EA. rewrite BA, BG in EA.
    destruct (elements_two (after_accretion N sd fd s dt b) (time s)) as [[p1 E1]|[E1 H1]]; rewrite E1 in EA; cbn [bind] in EA; [|injection EA as ->; left; exact H1].
    destruct (elements_two (after_pull N sd fd s dt b) (time s)) as [[p2 E2]|[E2 H2]]; rewrite E2 in EA; cbn [bind] in EA; [|injection EA as ->; right; exact H2].
    match type of EA with _ = validate _ _ ?x => destruct (checked N d predicate fuel sd fd HS u x Du) as [[_ C]|[ND C]] end; rewrite C in EA; [discriminate|]. injection EA as ->. exists u. auto.
  - unfold booked_solution in EA. rewrite BA, BG in EA.
    destruct (elements_two (after_accretion N sd fd s dt b) (time s)) as [[p1 E1]|[E1 H1]]; rewrite E1 in EA; cbn [bind] in EA; [|discriminate].
    destruct (elements_two (after_pull N sd fd s dt b) (time s)) as [[p2 E2]|[E2 H2]]; rewrite E2 in EA; cbn [bind] in EA; [|discriminate].
    match type of EA with _ = validate _ _ ?x => destruct (checked N d predicate fuel sd fd HS u x Du) as [[_ C]|[ND C]] end; rewrite C in EA; discriminate.
  - unfold booked_solution in EA. rewrite BA, BG in EA.
    destruct (elements_two (after_accretion N sd fd s dt b) (time s)) as [[p1 E1]|[E1 H1]]; rewrite E1 in EA; cbn [bind] in EA; [|discriminate].
    destruct (elements_two (after_pull N sd fd s dt b) (time s)) as [[p2 E2]|[E2 H2]]; rewrite E2 in EA; cbn [bind] in EA; [|discriminate].
    match type of EA with _ = validate _ _ ?x => destruct (checked N d predicate fuel sd fd HS u x Du) as [[_ C]|[ND C]] end; rewrite C in EA; discriminate.
Qed.

(** Conversely: if the bodies would hold together and the new data has no density below zero, the evaluation succeeds. *)
Theorem advance_succeeds N d predicate fuel sd fd s b dt safe : setup N d predicate fuel sd fd -> valid N sd fd s -> full_state_at fuel (orbital_elements s) (time s) = Ok b ->
  held_together (after_accretion N sd fd s dt b) -> held_together (after_pull N sd fd s dt b) -> (forall u, arrives_at sd fd fuel s b dt safe u -> densities N u) ->
  exists s1, advance sd fd fuel s dt safe = Ok s1.
Proof.
  intros HS V Eb H1 H2 HU. pose proof (advance_outcomes N d predicate fuel sd fd s b dt safe HS V Eb) as O. destruct (advance sd fd fuel s dt safe) as [s1|[]| |]; try contradiction; [eauto| |].
  - destruct O; contradiction.
  - destruct O as (u & A & _ & ND). contradiction (ND (HU u A)).
Qed.

(** *** Steps *)
Definition benign (e : exn) : Prop := e = RuntimeError \/ e = InvalidArgument.
Lemma advance_simple N d predicate fuel sd fd s dt safe : setup N d predicate fuel sd fd -> valid N sd fd s -> located fuel s ->
  match advance sd fd fuel s dt safe with Ok s1 => valid N sd fd s1 | Throw e => benign e | _ => False end.
Proof.
  intros HS V [b Eb]. pose proof (advance_outcomes N d predicate fuel sd fd s b dt safe HS V Eb) as O. destruct (advance sd fd fuel s dt safe) as [s1|[]| |]; try contradiction; unfold benign; tauto.
Qed.
Lemma mean_exists N d predicate fuel sd fd s0 s2 : setup N d predicate fuel sd fd -> valid N sd fd s0 -> valid N sd fd s2 -> exists s1, solution_add (solution_mul s0 (1 / 2)) (solution_mul s2 (1 - 1 / 2)) = Ok s1.
Proof.
  intros HS (M0 & _ & E0) (M2 & _ & E2). unfold solution_add, solution_mul, on_mesh, conserved, unused in *. cbn [conserved_u conserved_q].
  destruct (conserve_linear_p sd); destruct (tree_mean N d predicate fuel sd fd HS _ _ M0 M2) as (m & Em & _); destruct (empty_mean _ _ E0 E2) as (e & Ee & _); rewrite Em, Ee; cbn [bind]; eauto.
Qed.
Lemma after_or_not n a P : forall x, (exists y, after n a P x = Ok y) \/ after n a P x = NoFuel.
Proof. induction n as [|n IH]; intros x; cbn [after]; [right; reflexivity|]. destruct (Rlt_dec x a); [apply IH|left; eauto]. Qed.
Lemma newton_or_not n f g tol : forall x, (exists y, TwoBodyModel.newton n f g tol x = Ok y) \/ TwoBodyModel.newton n f g tol x = NoFuel.
Proof. induction n as [|n IH]; intros x; cbn [TwoBodyModel.newton]; [right; reflexivity|]. destruct (Rlt_dec tol (Rabs (f x))); [apply IH|left; eauto]. Qed.
Lemma placing_or_not fuel p t : (exists b, full_state_at fuel p t = Ok b) \/ full_state_at fuel p t = NoFuel.
Proof.
  unfold full_state_at. destruct (after_or_not fuel (tau p) (orbital_period (orb p)) t) as [[y E]|E]; rewrite E; cbn [bind]; [|right; reflexivity].
  unfold state_at. destruct (Rlt_dec 0 (ecc (orb p))); [|left; cbn [bind]; eexists; reflexivity].
  match goal with |- context [TwoBodyModel.newton ?n ?f ?g ?tol ?x] => destruct (newton_or_not n f g tol x) as [[z E2]|E2]; rewrite E2 end; cbn [bind]; [left; eexists; reflexivity|right; reflexivity].
Qed.
Lemma attempt_outcome N d predicate fuel sd fd s dt safe : setup N d predicate fuel sd fd -> valid N sd fd s -> located fuel s -> (rk_order sd = 1 \/ rk_order sd = 2)%Z ->
  match can_fail sd fd fuel s dt safe with
  | Ok s1 => valid N sd fd s1
  | Throw e => benign e
  | UB => False
  | NoFuel => rk_order sd = 2%Z /\ exists s1, advance sd fd fuel s dt safe = Ok s1 /\ ~ located fuel s1
  end.
Proof.
  intros HS V L R. unfold can_fail. destruct R as [R|R]; rewrite R; cbn [Z.eqb Pos.eqb].
  - pose proof (advance_simple N d predicate fuel sd fd s dt safe HS V L) as O. destruct (advance sd fd fuel s dt safe); tauto.
  - pose proof (advance_simple N d predicate fuel sd fd s dt safe HS V L) as O. destruct (advance sd fd fuel s dt safe) as [s1| | |] eqn:E1; cbn [bind]; try tauto.
    destruct (full_state_at fuel (orbital_elements s1) (time s1)) as [b1| | |] eqn:Eb.
    + pose proof (advance_simple N d predicate fuel sd fd s1 dt safe HS O (ex_intro _ b1 Eb)) as O2. destruct (advance sd fd fuel s1 dt safe) as [s2| | |] eqn:E2; cbn [bind]; try tauto.
      destruct (mean_exists N d predicate fuel sd fd s s2 HS V O2) as [s3 E3]. rewrite E3. exact (proj1 (mean_ledgers N d predicate fuel sd fd HS s s2 s3 V O2 E3)).
    + destruct (placing_or_not fuel (orbital_elements s1) (time s1)) as [[b X]|X]; congruence.
    + destruct (placing_or_not fuel (orbital_elements s1) (time s1)) as [[b X]|X]; congruence.
    + assert (NL : ~ located fuel s1) by (intros [b Hb]; congruence).
      replace (advance sd fd fuel s1 dt safe) with (@NoFuel solution); [cbn [bind]; split; [reflexivity|]; exists s1; auto|].
      pose proof O as (HM & HD & _). destruct (recovered N d predicate fuel sd fd HS s1 HM HD) as (p0 & Ep & _). unfold advance, advance_u, advance_q. rewrite Ep. cbn [bind]. rewrite Eb. cbn [bind]. destruct (conserve_linear_p sd); reflexivity.
Qed.

(** next_solution: the same two exceptions, and only if the first attempt and the one in safe mode with a tenth of the step
    both failed. *)
Theorem step_outcomes N d predicate fuel sd fd s : setup N d predicate fuel sd fd -> valid N sd fd s -> located fuel s -> (rk_order sd = 1 \/ rk_order sd = 2)%Z -> (conserve_linear_p sd = true \/ fixed_dt sd = true) ->
  exists dt, (if fixed_dt sd then dt = recommended_time_step sd else exists m, maximum_timestep sd fd fuel s = Ok m /\ dt = cfl_number sd * m) /\
  match next_solution sd fd fuel s with
  | Ok s1 => valid N sd fd s1
  | Throw e => (e = RuntimeError \/ e = InvalidArgument) /\ (exists e0, can_fail sd fd fuel s dt false = Throw e0) /\ can_fail sd fd fuel s (dt / 10) true = Throw e
  | UB => False
  | NoFuel => rk_order sd = 2%Z /\ exists s1, (advance sd fd fuel s dt false = Ok s1 \/ advance sd fd fuel s (dt / 10) true = Ok s1) /\ ~ located fuel s1
  end.
Proof.
  intros HS V L HR HQ. unfold next_solution.
  assert (ED : exists dt, (if fixed_dt sd then Ok (recommended_time_step sd) else do m <- maximum_timestep sd fd fuel s; Ok (cfl_number sd * m)) = Ok dt /\
    (if fixed_dt sd then dt = recommended_time_step sd else exists m, maximum_timestep sd fd fuel s = Ok m /\ dt = cfl_number sd * m)).
  { destruct (fixed_dt sd); [eauto|]. destruct HQ as [HQ|HQ]; [|discriminate]. destruct L as [b Eb]. destruct (timestep N d predicate fuel sd fd HS s b HQ V Eb) as (m & p & Em & _). rewrite Em. cbn [bind]. eauto. }
  destruct ED as (dt & ED & HD). exists dt. split; [exact HD|]. rewrite ED. cbn [bind]. pose proof (attempt_outcome N d predicate fuel sd fd s dt false HS V L HR) as O1. replace (dt / 10) with (dt * (1 / 10)) by field.
  destruct (can_fail sd fd fuel s dt false) as [s1|e0| |] eqn:E1; try tauto.
  - pose proof (attempt_outcome N d predicate fuel sd fd s (dt * (1 / 10)) true HS V L HR) as O2. destruct (can_fail sd fd fuel s (dt * (1 / 10)) true) as [s2|e| |] eqn:E2; try tauto.
    + split; [exact O2|]. eauto.
    + destruct O2 as (X & s1 & A & B). split; [exact X|]. exists s1. auto.
  - destruct O1 as (X & s1 & A & B). split; [exact X|]. exists s1. auto.
Qed.

(** Whole runs: if the bodies can be placed in every state that comes up, n steps end in a valid state or in one of the two
    exceptions. *)
Theorem run_outcomes N d predicate fuel sd fd : setup N d predicate fuel sd fd -> (rk_order sd = 1 \/ rk_order sd = 2)%Z -> (conserve_linear_p sd = true \/ fixed_dt sd = true) ->
  forall n s, valid N sd fd s -> match steps sd fd fuel n s with
  | Ok s1 => valid N sd fd s1
  | Throw e => e = RuntimeError \/ e = InvalidArgument
  | UB => False
  | NoFuel => exists m s1, (m < n)%nat /\ steps sd fd fuel m s = Ok s1 /\ (~ located fuel s1 \/ exists dt safe s2, advance sd fd fuel s1 dt safe = Ok s2 /\ ~ located fuel s2)
  end.
Proof.
  intros HS HR HQ n. induction n as [|n IH]; intros s V; cbn [steps]; [exact V|].
  destruct (placing_or_not fuel (orbital_elements s) (time s)) as [L|L].
  - destruct (step_outcomes N d predicate fuel sd fd s HS V L HR HQ) as (dt & _ & O). destruct (next_solution sd fd fuel s) as [s1|e| |] eqn:E1; cbn [bind].
    + specialize (IH s1 O). destruct (steps sd fd fuel n s1); try exact IH. destruct IH as (m & s2 & Hm & E2 & X). exists (S m), s2. split; [lia|]. split; [|exact X]. cbn [steps]. rewrite E1. cbn [bind]. exact E2.
    + tauto.
    + exact O.
    + destruct O as (_ & s1 & [A|A] & B); exists 0%nat, s; (split; [lia|]); (split; [reflexivity|]); right; eauto.
  - assert (NL : ~ located fuel s) by (intros [b Hb]; congruence). pose proof V as (HM & HD & _). destruct (recovered N d predicate fuel sd fd HS s HM HD) as (p0 & Ep & _).
    assert (EA : forall dt safe, advance sd fd fuel s dt safe = NoFuel) by (intros dt safe; unfold advance, advance_u, advance_q; rewrite Ep; cbn [bind]; rewrite L; cbn [bind]; destruct (conserve_linear_p sd); reflexivity).
    assert (EN : next_solution sd fd fuel s = NoFuel).
    { unfold next_solution. destruct (fixed_dt sd) eqn:HF; cbn [bind].
      - unfold can_fail. destruct HR as [HR|HR]; rewrite HR; cbn [Z.eqb Pos.eqb]; rewrite EA; reflexivity.
      - unfold maximum_timestep. rewrite Ep. cbn [bind]. rewrite L. reflexivity. }
    rewrite EN. cbn [bind]. exists 0%nat, s. split; [lia|]. split; [reflexivity|]. left. exact NL.
Qed.

(** A binary on a prescribed orbit: bound, no more eccentric than 9/10, not live during the run.  Then there is a number of
    rounds of the loops in full_state_at which is enough for the whole run, and a run of fixed steps ends in a valid state or
    in one of the two exceptions. *)
Theorem prescribed_run p : TwoBodyProofs.bound (orb p) -> ecc (orb p) <= 9 / 10 -> exists rounds, forall N d predicate fuel sd fd, (rounds <= fuel)%nat -> setup N d predicate fuel sd fd ->
  (rk_order sd = 1 \/ rk_order sd = 2)%Z -> fixed_dt sd = true -> 0 <= recommended_time_step sd ->
  forall n s, valid N sd fd s -> orbital_elements s = p -> tau p <= time s -> time s + INR n * recommended_time_step sd <= begin_live_binary sd ->
  match steps sd fd fuel n s with
  | Ok s1 => valid N sd fd s1 /\ orbital_elements s1 = p
  | Throw e => e = RuntimeError \/ e = InvalidArgument
  | _ => False
  end.
Proof.
  intros HB HE. destruct (state_at_terminates (orb p) HB HE) as [n0 H0]. exists (S n0). intros N d predicate fuel sd fd Hf HS HR HF Hr n.
  assert (LOC : forall s, orbital_elements s = p -> tau p <= time s -> located fuel s).
  { intros s Es Ht. unfold located, full_state_at. rewrite Es. destruct fuel as [|fuel]; [lia|]. cbn [after]. destruct (Rlt_dec (time s) (tau p)) as [X|_]; [lra|]. cbn [bind]. destruct (H0 (S fuel) (time s - tau p) ltac:(lia)) as [b Eb]. rewrite Eb. cbn [bind]. eexists. reflexivity. }
  induction n as [|n IH]; intros s V Es Ht HL; cbn [steps]; [auto|]. rewrite S_INR in HL. assert (0 <= INR n) by apply pos_INR. assert (0 <= INR n * recommended_time_step sd) by (apply Rmult_le_pos; assumption).
  destruct (step_outcomes N d predicate fuel sd fd s HS V (LOC s Es Ht) HR (or_intror HF)) as (dt & Hdt & O). rewrite HF in Hdt. subst dt. destruct (next_solution sd fd fuel s) as [s1|e| |] eqn:E1; cbn [bind].
  - assert (A : exists e safe, 0 <= e <= recommended_time_step sd /\ can_fail sd fd fuel s e safe = Ok s1).
    { unfold next_solution in E1. rewrite HF in E1. cbn [bind] in E1. destruct (can_fail sd fd fuel s (recommended_time_step sd) false) as [sx|x| |] eqn:EC; try discriminate.
      - apply ok_inj in E1. subst sx. exists (recommended_time_step sd), false. split; [lra|exact EC].
      - exists (recommended_time_step sd * (1 / 10)), true. split; [lra|exact E1]. }
    destruct A as (e & safe & He & A). destruct (attempt_account _ _ _ _ _ _ _ (proj1 He) A) as (T & _ & _ & A3). apply IH; [exact O| |lra|lra]. rewrite A3 by lra. exact Es.
  - tauto.
  - exact O.
  - destruct O as (_ & s1 & [A|A] & B); apply B; destruct (mass_account _ _ _ _ _ _ _ A) as (T & _ & _ & A3); (apply LOC; [rewrite A3 by lra; exact Es|lra]).
Qed.

(** A pair that would come apart stops the evaluation, whether the binary is live or not. *)
Theorem advance_unbound N d predicate fuel sd fd s b dt safe c : setup N d predicate fuel sd fd -> valid N sd fd s -> full_state_at fuel (orbital_elements s) (time s) = Ok b ->
  c = after_accretion N sd fd s dt b \/ c = after_pull N sd fd s dt b -> 0 < m1 c -> 0 < m2 c -> 0 < dist c -> 0 <= energy (cm_frame c) -> advance sd fd fuel s dt safe = Throw InvalidArgument.
Proof.
  intros HS V Eb Hc H1 H2 HD HE. destruct (advance_totals N d predicate fuel sd fd HS s dt safe b V Eb) as (p0 & z & t & u & Ep & Ez & EU & Du & EA & T1 & T2 & T3 & T4 & T5). rewrite EA.
  assert (BA : bodies_acc sd b t = after_accretion N sd fd s dt b).
  { unfold bodies_acc, accreted_body, after_accretion. rewrite T1, T2, T3. cbn [fst snd]. destruct (no_accretion_force sd); reflexivity. }
  assert (BG : bodies_grv b t = after_pull N sd fd s dt b) by (unfold bodies_grv, pulled_body, after_pull; rewrite T4, T5; reflexivity).
  unfold booked_solution. rewrite BA, BG. pose proof (elements_unbound_throws c (time s) H1 H2 HD HE) as X. destruct Hc as [-> | ->].
  - rewrite X. reflexivity.
  - destruct (elements_two (after_accretion N sd fd s dt b) (time s)) as [[p1 E1]|[E1 _]]; rewrite E1; cbn [bind]; [|reflexivity]. rewrite X. reflexivity.
Qed.

(** The block of the examples with gas of density 1 that turns: at speed 1000 up on the right, down on the left. *)
Definition spin_sd : settings := Settings 1 (1 / 2) 1 1 1 1 0 1 0 0 0 1 (1 / 2) 10 1 true true true false 2.
Definition spin_cell (k : list Z) : v3 := V3 1 0 (if (nth 0 k 0 =? 0)%Z then -1000 else 1000).
Definition spin_gas : array v3 := mkarr [2; 2]%Z (fun k => Ok (spin_cell k)).
Definition spin_state : solution := Solution 0 (Leaf spin_gas) empty_tree (0, 0) (0, 0) (0, 0) (0, 0) 0 0 zero_elements zero_elements (elements_of_orbit (Orbit 1 1 1 0)).

(** The gas is not meant to act on a binary before [begin_live_binary], yet it can stop the run then: here at time 0 with the
    binary live only from time 10 on, in spite of the second attempt and with no density near zero. *)
Theorem frozen_binary_refuted : exists fd, setup 2 0 ex_none 2 spin_sd fd /\ valid 2 spin_sd fd spin_state /\ time spin_state < begin_live_binary spin_sd /\
  TwoBodyProofs.bound (orb (orbital_elements spin_state)) /\ (forall b k u, In b (leaves (conserved spin_sd spin_state)) -> aget b k = Ok u -> d0 u = 1) /\
  forall n, steps spin_sd fd 2 (S n) spin_state = Throw InvalidArgument.
Proof.
  destruct (ex_setup true) as (v & c & a & HS0). set (fd := ex_fields (Leaf v) (Leaf c) (Leaf a)) in *. exists fd.
  assert (HS : setup 2 0 ex_none 2 spin_sd fd) by (destruct HS0; constructor; assumption).
  assert (V : valid 2 spin_sd fd spin_state).
  { split; [|split].
    - split; [constructor|]. constructor; [|constructor]. split; [reflexivity|]. intros k _. eexists. reflexivity.
    - constructor; [|constructor]. intros k u _ E. injection E as <-. cbn. lra.
    - eexists. split; reflexivity. }
  split; [exact HS|]. split; [exact V|]. split; [cbn; lra|]. split; [unfold TwoBodyProofs.bound; cbn; lra|].
  split; [intros b k u [<-|[]] E; injection E as <-; reflexivity|].
  pose proof (ex_bodies true) as Eb. change (full_state_at 2 (orbital_elements spin_state) (time spin_state) = Ok ex_pair) in Eb.
  assert (RD : forall f k, reading f (look no_array (conserved spin_sd spin_state) (root_index 2)) k = f (spin_cell k)) by reflexivity.
  assert (CC : forall i j, cell_center 2 spin_sd (root_index 2) [i; j] = (IZR i - 1 / 2, IZR j - 1 / 2)) by exact (ex_center true).
  set (h := exp (- (1 / 8))). set (l := exp (- (5 / 8))).
  assert (Hh : 7 / 8 < h < 1) by (unfold h; split; [pose proof (exp_ineq1 (- (1 / 8)) ltac:(intro X; lra)); lra|pose proof (exp_increasing (- (1 / 8)) 0 ltac:(lra)) as Y; rewrite exp_0 in Y; exact Y]).
  assert (Hl : 0 < l <= 8 / 13).
  { split; [apply exp_pos|]. unfold l. rewrite exp_Ropp. pose proof (exp_ineq1 (5 / 8) ltac:(intro X; lra)). replace (8 / 13) with (/ (13 / 8)) by field. apply Rinv_le_contravar; lra. }
  assert (ONE : forall f, over_cells 2 fd f = f (root_index 2) [0; 0]%Z + f (root_index 2) [0; 1]%Z + f (root_index 2) [1; 0]%Z + f (root_index 2) [1; 1]%Z).
  { intros f. unfold over_cells. change (leaves (indexes 2 (vertices fd))) with [root_index 2]. rewrite ex_cells. cbn [rsum]. ring. }
  assert (M : forall dt, intake 2 spin_sd fd spin_state dt (body1 ex_pair) = 2 * dt * (h + l) /\ intake 2 spin_sd fd spin_state dt (body2 ex_pair) = 2 * dt * (h + l) /\
    momentum_intake 2 spin_sd fd spin_state dt fst (body1 ex_pair) = 0 /\ momentum_intake 2 spin_sd fd spin_state dt fst (body2 ex_pair) = 0 /\
    momentum_intake 2 spin_sd fd spin_state dt snd (body1 ex_pair) = 2000 * dt * (h - l) /\ momentum_intake 2 spin_sd fd spin_state dt snd (body2 ex_pair) = - (2000 * dt * (h - l))).
  { intros dt. unfold intake, momentum_intake, gas, gas_momentum. rewrite !ONE. rewrite !RD, !CC. unfold spin_cell, momentum_of, absorbed, cell_area. cbn [nth Z.eqb spin_sd conserve_linear_p sink_rate sink_radius domain_radius d0 d1 d2 fst snd ex_pair body1 body2 px py level root_index pow].
    repeat match goal with |- context [exp ?x] => progress (first [replace x with (- (5 / 8)) by field | replace x with (- (1 / 8)) by field]) end. fold h l. repeat split; field. }
  assert (A : forall dt safe, 1 / 20 <= dt <= 1 / 2 -> advance spin_sd fd 2 spin_state dt safe = Throw InvalidArgument).
  { intros dt safe Hdt. destruct (M dt) as (I1 & I2 & X1 & X2 & Y1 & Y2). set (m := 2 * dt * (h + l)) in *. set (q := 2000 * dt * (h - l)) in *.
    assert (Hm : 0 < m < 2) by (unfold m; split; [apply Rmult_lt_0_compat; lra|assert (2 * dt * (h + l) <= 1 * (h + l)) by (apply Rmult_le_compat_r; lra); lra]).
    assert (Hq : 20 < q) by (unfold q; assert (100 * (h - l) <= 2000 * dt * (h - l)) by (apply Rmult_le_compat_r; lra); lra).
    set (w := (1 / 4 + q) / (1 / 2 + m)). assert (Hw : 3 < w).
    { unfold w. apply Rmult_lt_reg_r with (1 / 2 + m); [lra|]. unfold Rdiv at 2. rewrite Rmult_assoc, Rinv_l by lra. lra. }
    assert (EC : after_accretion 2 spin_sd fd spin_state dt ex_pair = TwoBody (Body (1 / 2 + m) (1 / 2) 0 0 w) (Body (1 / 2 + m) (- (1 / 2)) 0 0 (- w))).
    { unfold after_accretion. rewrite I1, I2, X1, X2, Y1, Y2. cbn [spin_sd no_accretion_force ex_pair body1 body2 mass px py TwoBodyModel.vx TwoBodyModel.vy]. unfold w. f_equal; f_equal; field; lra. }
    apply (advance_unbound 2 0 ex_none 2 spin_sd fd spin_state ex_pair dt safe _ HS V Eb (or_introl eq_refl)); rewrite EC.
    - unfold m1. cbn [body1 mass]. lra.
    - unfold m2. cbn [body2 mass]. lra.
    - unfold dist. cbn [body1 body2 px py]. apply sqrt_lt_R0. lra.
    - destruct (frame_rel (TwoBody (Body (1 / 2 + m) (1 / 2) 0 0 w) (Body (1 / 2 + m) (- (1 / 2)) 0 0 (- w)))) as [FE _]; [unfold m1; cbn [body1 mass]; lra|unfold m2; cbn [body2 mass]; lra|]. rewrite FE.
      unfold rel_E, red, rel_D, gap. cbn [body1 body2 mass px py TwoBodyModel.vx TwoBodyModel.vy].
      replace (sqrt _) with 1 by (symmetry; apply sqrt_of; lra).
      match goal with |- 0 <= ?x => replace x with ((1 / 2 + m) * (w * w - (1 / 2 + m))) by (field; lra) end.
      apply Rmult_le_pos; [lra|]. nra. }
  intros n. cbn [steps]. unfold next_solution, can_fail. cbn [spin_sd fixed_dt recommended_time_step rk_order Z.eqb Pos.eqb bind]. fold spin_sd. rewrite (A (1 / 2) false) by lra. rewrite (A (1 / 2 * (1 / 10)) true) by lra. reflexivity.
Qed.

(** Gas of density 1 at rest on the same block with sinks of rate 4: a step of 1/2 takes out more than there is. *)
Definition greedy_sd : settings := Settings 4 (1 / 2) 1 1 1 1 0 1 0 0 0 1 (1 / 2) 10 1 true true true true 2.
Example advance_outcomes_example : exists fd, setup 2 0 ex_none 2 greedy_sd fd /\ valid 2 greedy_sd fd (ex_state true) /\
  advance greedy_sd fd 2 (ex_state true) (1 / 2) false = Throw RuntimeError /\ (exists s1, advance (ex_sd true) fd 2 (ex_state true) (1 / 2) false = Ok s1).
Proof.
  destruct (ex_run_full true) as (v & c & a & s1 & HS0 & V0 & _ & _ & _ & EA). set (fd := ex_fields (Leaf v) (Leaf c) (Leaf a)) in *. exists fd.
  assert (HS : setup 2 0 ex_none 2 greedy_sd fd) by (destruct HS0; constructor; assumption). assert (V : valid 2 greedy_sd fd (ex_state true)) by exact V0.
  split; [exact HS|]. split; [exact V|]. split; [|eauto]. pose proof (ex_bodies true) as Eb.
  set (h := exp (- (1 / 8))). set (l := exp (- (5 / 8))). assert (Hh : 7 / 8 < h) by (unfold h; pose proof (exp_ineq1 (- (1 / 8)) ltac:(intro X; lra)); lra). assert (Hl : 0 < l) by apply exp_pos.
  assert (CC : forall i j, cell_center 2 greedy_sd (root_index 2) [i; j] = (IZR i - 1 / 2, IZR j - 1 / 2)) by exact (ex_center true).
  assert (RD : forall f k, reading f (look no_array (conserved greedy_sd (ex_state true)) (root_index 2)) k = f (V3 1 0 0)) by reflexivity.
  assert (ONE : forall f, over_cells 2 fd f = f (root_index 2) [0; 0]%Z + f (root_index 2) [0; 1]%Z + f (root_index 2) [1; 0]%Z + f (root_index 2) [1; 1]%Z).
  { intros f. unfold over_cells. change (leaves (indexes 2 (vertices fd))) with [root_index 2]. rewrite ex_cells. cbn [rsum]. ring. }
  assert (M : intake 2 greedy_sd fd (ex_state true) (1 / 2) (body1 ex_pair) = 4 * (h + l) /\ intake 2 greedy_sd fd (ex_state true) (1 / 2) (body2 ex_pair) = 4 * (h + l)).
  { unfold intake, gas. rewrite !ONE, !RD, !CC. unfold absorbed, cell_area. cbn [greedy_sd sink_rate sink_radius domain_radius d0 fst snd ex_pair body1 body2 px py level root_index pow].
    repeat match goal with |- context [exp ?x] => progress (first [replace x with (- (5 / 8)) by field | replace x with (- (1 / 8)) by field]) end. fold h l. split; field. }
  assert (G : impulse 2 greedy_sd fd (ex_state true) (1 / 2) fst (body1 ex_pair) = - (4 / 27) /\ impulse 2 greedy_sd fd (ex_state true) (1 / 2) fst (body2 ex_pair) = 4 / 27 /\
    impulse 2 greedy_sd fd (ex_state true) (1 / 2) snd (body1 ex_pair) = 0 /\ impulse 2 greedy_sd fd (ex_state true) (1 / 2) snd (body2 ex_pair) = 0).
  { unfold impulse, gas. cbv zeta. rewrite !ONE, !RD, !CC. unfold cell_area. cbn [greedy_sd softening_radius domain_radius d0 fst snd ex_pair body1 body2 px py mass level root_index pow].
    repeat match goal with |- context [sqrt ?x] => progress (first [replace x with (9 / 4) by field | replace x with (5 / 4) by field]) end. rewrite (sqrt_of (9 / 4) (3 / 2)) by lra.
    assert (sqrt (5 / 4) <> 0) by (pose proof (sqrt_lt_R0 (5 / 4) ltac:(lra)); lra). repeat split; field; assumption. }
  destruct M as [I1 I2]. destruct G as (G1 & G2 & G3 & G4). pose proof (advance_outcomes 2 0 ex_none 2 greedy_sd fd (ex_state true) ex_pair (1 / 2) false HS V Eb) as O.
  destruct (advance greedy_sd fd 2 (ex_state true) (1 / 2) false) as [s2|[]| |] eqn:E; try contradiction; [exfalso|exfalso|reflexivity].
  - destruct O as ((HM & HD & _) & _).
    destruct (uniform_density 2 0 ex_none 2 greedy_sd fd (ex_state true) (1 / 2) false s2 (IPrim 1 0 0) HS (proj1 V) ltac:(cbn; lra)) as (b & Eb' & H); [|exact E|].
    { intros i u k [<-|[]] Eu Hk. cbn in Eu. injection Eu as <-. unfold aget, ex_gas. cbn. apply f_equal. unfold iso_conserved. cbn. f_equal; ring. }
    rewrite Eb in Eb'. apply ok_inj in Eb'. subst b.
    specialize (H (root_index 2) [0; 0]%Z ltac:(left; reflexivity) ltac:(repeat constructor; lia)). cbv zeta in H.
    rewrite CC in H. cbn [greedy_sd conserve_linear_p density_floor HydroModel.sigma fst snd] in H. fold greedy_sd in H. unfold absorbed in H. cbn [greedy_sd sink_rate sink_radius ex_pair body1 body2 px py fst snd] in H.
    destruct (Rlt_dec 1 0) as [X|_]; [lra|].
    repeat match type of H with context [exp ?x] => progress (first [replace x with (- (5 / 8)) in H by field | replace x with (- (1 / 8)) in H by field]) end. fold h l in H. fold greedy_sd in H.
    destruct (at_address 2 0 ex_none 2 greedy_sd fd HS (conserved greedy_sd s2) (root_index 2) HM ltac:(left; reflexivity)) as (w & W & Nw & Rw). rewrite (look_leaf _ _ _ _ Nw) in H.
    assert (K : inb [2; 2]%Z [0; 0]%Z) by (repeat constructor; lia). unfold reading at 1 in H. rewrite (proj2 Rw _ K) in H.
    pose proof (density_at 2 0 ex_none 2 greedy_sd fd HS _ _ w [0; 0]%Z _ HM HD Nw K (proj2 Rw _ K)) as P. rewrite H in P. cbn in P. lra.
  - assert (HT : forall m a b, 0 < m -> 4 * (a * a + b * b) < 4 * m -> held_together (TwoBody (Body m (1 / 2) 0 a b) (Body m (- (1 / 2)) 0 (- a) (- b)))).
    { intros m x y Hm Hx. unfold held_together. assert (D1 : dist (TwoBody (Body m (1 / 2) 0 x y) (Body m (- (1 / 2)) 0 (- x) (- y))) = 1) by (unfold dist; cbn [body1 body2 px py]; apply sqrt_of; lra).
      destruct (frame_rel (TwoBody (Body m (1 / 2) 0 x y) (Body m (- (1 / 2)) 0 (- x) (- y)))) as [FE _]; [exact Hm|exact Hm|]. rewrite FE, D1. unfold m1, m2. cbn [body1 body2 mass]. do 2 (split; [exact Hm|]). split; [lra|].
      unfold rel_E, red, rel_D, gap. cbn [body1 body2 mass px py TwoBodyModel.vx TwoBodyModel.vy]. replace (sqrt _) with 1 by (symmetry; apply sqrt_of; lra).
      match goal with |- ?g < 0 => replace g with (- (m * (m - (x * x + y * y)))) by (field; lra) end. assert (0 < m * (m - (x * x + y * y))) by (apply Rmult_lt_0_compat; lra). lra. }
    destruct O as [O|O]; apply O.
    + unfold after_accretion. rewrite I1, I2. cbn [greedy_sd no_accretion_force ex_pair body1 body2 mass px py TwoBodyModel.vx TwoBodyModel.vy]. pose proof (HT (1 / 2 + 4 * (h + l)) 0 (1 / 2) ltac:(lra) ltac:(lra)) as X. replace (- 0) with 0 in X by ring. exact X.
    + unfold after_pull. rewrite G1, G2, G3, G4. cbn [ex_pair body1 body2 mass px py TwoBodyModel.vx TwoBodyModel.vy]. pose proof (HT (1 / 2) (0 + - (4 / 27) / (1 / 2)) (1 / 2 + 0 / (1 / 2)) ltac:(lra) ltac:(lra)) as X.
      replace (0 + 4 / 27 / (1 / 2)) with (- (0 + - (4 / 27) / (1 / 2))) by field. replace (- (1 / 2) + 0 / (1 / 2)) with (- (1 / 2 + 0 / (1 / 2))) by field. exact X.
Qed.
(** The example run is a run of a prescribed orbit that ends well. *)
Example prescribed_run_example lin : exists fd s1, setup 2 0 ex_none 2 (ex_sd lin) fd /\ valid 2 (ex_sd lin) fd (ex_state lin) /\ located 2 (ex_state lin) /\ steps (ex_sd lin) fd 2 1 (ex_state lin) = Ok s1 /\
  TwoBodyProofs.bound (orb (orbital_elements (ex_state lin))) /\ ecc (orb (orbital_elements (ex_state lin))) <= 9 / 10 /\ time (ex_state lin) + INR 1 * recommended_time_step (ex_sd lin) <= begin_live_binary (ex_sd lin).
Proof.
  destruct (ex_run lin) as (fd & s1 & HS & V & E & _). exists fd, s1. split; [exact HS|]. split; [exact V|]. split; [exists ex_pair; apply ex_bodies|]. split; [exact E|]. cbn. unfold TwoBodyProofs.bound. cbn. lra.
Qed.

Print Assumptions advance_outcomes.
Print Assumptions advance_succeeds.
Print Assumptions step_outcomes.
Print Assumptions run_outcomes.
Print Assumptions prescribed_run.
Print Assumptions advance_unbound.
Print Assumptions frozen_binary_refuted.
