(** Totals over the grid of the cloud program, and its run loop. *)
From Coq Require Import ZArith Reals List Lia Lra Bool.
From Verif Require Import Base NdModel NdSpec NdProofs NdOpsModel NdOpsProofs2 DimensionalModel HydroModel PlmModel PlmProps SedovModel Rep1Proofs SedovProofs SedovProps Rep2Proofs CloudModel CloudProofs.
Import ListNotations.
Open Scope R_scope.

Definition total (c : v5 -> R) (n m : Z) (U : Z -> Z -> v5) : R := rsum (fun i => rsum (fun j => c (U i j)) m) n.
Definition linear (c : v5 -> R) : Prop := (forall A B, c (plus5 A B) = c A + c B) /\ (forall A B, c (minus5 A B) = c A - c B) /\ (forall A k, c (times5 A k) = c A * k).
Lemma total_ext c n m U V : (forall i j, (0 <= i < n)%Z -> (0 <= j < m)%Z -> c (U i j) = c (V i j)) -> total c n m U = total c n m V.
Proof. intros E. apply rsum_ext. intros i Hi. apply rsum_ext. intros j Hj. apply E; assumption. Qed.
Lemma rsum_zero n : rsum (fun _ => 0) n = 0.
Proof. rewrite (rsum_ext _ (fun _ => 0 * 0)) by (intros; ring). rewrite rsum_scale. ring. Qed.

Section Total.
Variables (cfg : config) (n m : Z) (X Q : Z -> R) (ref : unit_system) (t : R) (P : Z -> Z -> prim) (U : Z -> Z -> v5) (dt : R).
Variable c : v5 -> R.
Hypothesis CL : linear c.
Hypothesis CS : forall i j, c (source_of X Q P i j) = 0.
Lemma zero_total : c zero5 = 0.
Proof. destruct CL as (_ & M & _). replace zero5 with (minus5 zero5 zero5) by (unfold minus5, zero5; cbn; f_equal; ring). rewrite M. ring. Qed.
Lemma advance_total : (1 <= n)%Z -> (1 <= m)%Z ->
  total c n m (next_of cfg n m X Q ref t P U dt) = total c n m U + dt * (rsum (fun j => area_r X Q 0 j * c (flux_r cfg n Q ref t P 0 j)) m - rsum (fun j => area_r X Q n j * c (flux_r cfg n Q ref t P n j)) m).
Proof.
  intros Hn Hm. destruct CL as (CP & CM & CT). unfold total. set (G i j := c (flux_r cfg n Q ref t P i j) * area_r X Q i j). set (K i j := c (flux_q cfg m P i j) * area_q X Q i j). set (S i := rsum (G i) m).
  assert (K0 : forall i, K i m = 0 /\ K i 0%Z = 0).
  { intros i. unfold K, flux_q. rewrite Z.eqb_refl, orb_true_r. cbn [Z.eqb orb]. rewrite zero_total. split; ring. }
  assert (E : forall i, (0 <= i < n)%Z -> rsum (fun j => c (next_of cfg n m X Q ref t P U dt i j)) m = rsum (fun j => c (U i j)) m + (S (1 + i)%Z - S i) * (- dt)).
  { intros i Hi. rewrite (rsum_ext _ (fun j => c (U i j) + ((G (1 + i)%Z j - G i j) + (K i (1 + j)%Z - K i j)) * (- dt))).
    - rewrite rsum_plus, rsum_scale, rsum_plus, rsum_minus, (rsum_telescope (K i)) by lia. destruct (K0 i) as [-> ->]. unfold S. ring.
    - intros j Hj. unfold next_of, rate_of. rewrite CP, CT, !CP, !CM, !CT, CS. unfold G, K. ring. }
  rewrite (rsum_ext _ _ n E), rsum_plus, rsum_scale, rsum_telescope by lia. unfold S, G.
  rewrite (rsum_ext (fun j => c (flux_r cfg n Q ref t P n j) * area_r X Q n j) (fun j => area_r X Q n j * c (flux_r cfg n Q ref t P n j))) by (intros; ring).
  rewrite (rsum_ext (fun j => c (flux_r cfg n Q ref t P 0 j) * area_r X Q 0 j) (fun j => area_r X Q 0 j * c (flux_r cfg n Q ref t P 0 j))) by (intros; ring). ring.
Qed.
End Total.

(** The outer face sees two equal states. *)
Lemma gradient_flat theta l x : estimate_gradient theta l x x = 0.
Proof. unfold estimate_gradient, plm_gradient. cbv zeta. rewrite minabs_zero; [ring|]. right. right. ring. Qed.
Lemma outer_flux cfg n Q ref t P j : (1 <= n)%Z -> flux_r cfg n Q ref t P n j = srhd_hlle (P (n - 1)%Z j) (P (n - 1)%Z j) (on_axis 0) gamma_law_index.
Proof.
  intros Hn. unfold flux_r, face_states. set (L := extended cfg n Q ref t P j).
  assert (L0 : L n = P (n - 1)%Z j) by (unfold L, extended; destruct (Z.ltb_spec n 1), (Z.ltb_spec n (n + 1)); try lia; reflexivity).
  assert (L1 : L (1 + n)%Z = P (n - 1)%Z j) by (unfold L, extended; destruct (Z.ltb_spec (1 + n) 1), (Z.ltb_spec (1 + n) (n + 1)); try lia; reflexivity).
  destruct (reconstruct_method cfg =? 1)%Z; [unfold pcm_states; rewrite L0, L1; reflexivity|].
  unfold plm_states, line_gradient. rewrite L0, L1. assert (A : ((1 + n =? 0) || (1 + n =? n + 2 - 1) = true)%Z) by (destruct (Z.eqb_spec (1 + n) 0), (Z.eqb_spec (1 + n) (n + 2 - 1)); try reflexivity; lia).
  assert (B : ((n =? 0) || (n =? n + 2 - 1) = false)%Z) by (destruct (Z.eqb_spec n 0), (Z.eqb_spec n (n + 2 - 1)); try reflexivity; lia). rewrite A, B.
  unfold lift3. rewrite !gradient_flat. f_equal; destruct (P (n - 1)%Z j); unfold prim_plus, prim_minus, prim_times, zero_prim; cbn; f_equal; ring.
Qed.
(** The inner face: the nozzle on the left; on the right the first cell, or its limited extrapolation. *)
Definition inner_state (cfg : config) (n : Z) (Q : Z -> R) (ref : unit_system) (t : R) (P : Z -> Z -> prim) (j : Z) : prim :=
  if (reconstruct_method cfg =? 1)%Z then P 0%Z j
  else prim_minus (P 0%Z j) (prim_times (lift3 (estimate_gradient (plm_theta cfg)) (nozzle cfg Q ref t j) (P 0%Z j) (if (n =? 1)%Z then P 0%Z j else P 1%Z j)) 0.5).
Lemma inner_flux cfg n Q ref t P j : (1 <= n)%Z -> flux_r cfg n Q ref t P 0 j = srhd_hlle (nozzle cfg Q ref t j) (inner_state cfg n Q ref t P j) (on_axis 0) gamma_law_index.
Proof.
  intros Hn. unfold flux_r, face_states, inner_state. set (L := extended cfg n Q ref t P j).
  assert (L0 : L 0%Z = nozzle cfg Q ref t j) by reflexivity.
  assert (L1 : L (1 + 0)%Z = P 0%Z j) by (unfold L, extended; destruct (Z.ltb_spec (1 + 0) 1), (Z.ltb_spec (1 + 0) (n + 1)); try lia; reflexivity).
  assert (L2 : L (1 + (1 + 0))%Z = if (n =? 1)%Z then P 0%Z j else P 1%Z j).
  { unfold L, extended. destruct (Z.ltb_spec (1 + (1 + 0)) 1), (Z.ltb_spec (1 + (1 + 0)) (n + 1)), (Z.eqb_spec n 1); try lia; f_equal; lia. }
  destruct (reconstruct_method cfg =? 1)%Z; [unfold pcm_states; rewrite L0, L1; reflexivity|].
  unfold plm_states, line_gradient. rewrite L0, L1, L2. assert (A : ((1 + 0 =? 0) || (1 + 0 =? n + 2 - 1) = false)%Z) by (destruct (Z.eqb_spec (1 + 0) 0), (Z.eqb_spec (1 + 0) (n + 2 - 1)); try reflexivity; lia). rewrite A.
  cbn [Z.eqb orb]. change (1 + 0 - 1)%Z with 0%Z. rewrite L0. f_equal. destruct (nozzle cfg Q ref t j). unfold prim_plus, prim_times, zero_prim. cbn. f_equal; ring.
Qed.

(** ** One step *)
(** The solution [s] has n times m cells with vertices X, Q and contents U. *)
Definition on_grid (s : solution) (n m : Z) (X Q : Z -> R) (U : Z -> Z -> v5) : Prop :=
  rep1 (radial_vertices s) (n + 1) X /\ rep1 (polar_vertices s) (m + 1) Q /\ grid2 (conserved s) n m U.
Definition recovered (c : config) (n m : Z) (X Q : Z -> R) (U : Z -> Z -> v5) (P : Z -> Z -> prim) : Prop :=
  forall i j, (0 <= i < n)%Z -> (0 <= j < m)%Z -> srhd_recover (over5 (U i j) (vol X Q i j)) gamma_law_index (temperature_floor c) = Ok (P i j).
Definition step_of (c : config) (X : Z -> R) : R := cfl c * (X 1%Z - X 0%Z).

Lemma advance_spec c fuel n m X Q ref app s dt s' U V : sizes fuel n m -> method_ok c m -> make_reference_units c = Ok ref -> on_grid app n m X Q V -> on_grid s n m X Q U -> advance c fuel app s dt = Ok s' ->
  exists P, recovered c n m X Q U P /\ time s' = time s + dt /\ on_grid s' n m X Q (next_of c n m X Q ref (time app) P U dt).
Proof.
  intros HS HM HR (_ & A2 & _) (G1 & G2 & G3) E. destruct (advance_recovers c fuel n m X Q app s dt s' U HS G1 G2 G3 E) as [[P HP] _].
  destruct (advance_value c fuel n m X Q ref (time app) P U dt app s HS HM HR A2 eq_refl G1 G2 G3 HP) as (u & E' & R). rewrite E' in E. injection E as <-. exists P. split; [exact HP|]. split; [reflexivity|]. split; [exact G1|]. split; [exact G2|exact R].
Qed.
Lemma times_rep fuel n m X Q s U k : sizes fuel n m -> on_grid s n m X Q U -> exists s', solution_times fuel s k = Ok s' /\ time s' = time s * k /\ on_grid s' n m X Q (fun i j => times5 (U i j) k).
Proof.
  intros HS (G1 & G2 & G3). destruct (sizes_fit _ _ _ HS) as (_ & _ & _ & _ & F). pose proof HS as (Hn & Hm & _). destruct (F n m ltac:(lia) ltac:(lia)) as [F1 F2].
  unfold solution_times. destruct (evaluate2 fuel zero5 _ n m _ ltac:(lia) ltac:(lia) F1 F2 (map2g (fun x => times5 x k) _ _ _ _ G3)) as (u & E & R). rewrite E. bsimp. eexists. split; [reflexivity|]. split; [reflexivity|]. split; [exact G1|]. split; [exact G2|exact R].
Qed.
Lemma plus_rep fuel n m X Q s U r V : sizes fuel n m -> on_grid s n m X Q U -> on_grid r n m X Q V -> exists s', solution_plus fuel s r = Ok s' /\ time s' = time s + time r /\ on_grid s' n m X Q (fun i j => plus5 (U i j) (V i j)).
Proof.
  intros HS (G1 & G2 & G3) (_ & _ & K3). destruct (sizes_fit _ _ _ HS) as (_ & _ & _ & _ & F). pose proof HS as (Hn & Hm & _). destruct (F n m ltac:(lia) ltac:(lia)) as [F1 F2].
  unfold solution_plus. destruct (binop2 plus5 _ _ _ _ _ _ G3 K3) as (z & E0 & R0). rewrite E0. bsimp. destruct (evaluate2 fuel zero5 z n m _ ltac:(lia) ltac:(lia) F1 F2 R0) as (u & E & R). rewrite E. bsimp.
  eexists. split; [reflexivity|]. split; [reflexivity|]. split; [exact G1|]. split; [exact G2|exact R].
Qed.
Lemma time_step_value c n m X Q s U : (1 <= n)%Z -> (n + 1 < two64)%Z -> on_grid s n m X Q U -> time_step c s = Ok (step_of c X).
Proof.
  intros Hn Hs (G1 & _). unfold time_step, difference. destruct (difference1 Rminus _ (n + 1) _ ltac:(lia) G1) as (d & E & R). rewrite E. bsimp. rewrite (proj2 R 0%Z) by lia. bsimp. f_equal. unfold step_of. change (1 + 0)%Z with 1%Z. field.
Qed.

(** The rate at which the component [c] of the content of the grid changes: what comes in through the inner face
    minus what goes out through the outer face. *)
Definition boundary_rate (cfg : config) (n m : Z) (X Q : Z -> R) (ref : unit_system) (t : R) (P : Z -> Z -> prim) (c : v5 -> R) : R :=
  rsum (fun j => area_r X Q 0 j * c (srhd_hlle (nozzle cfg Q ref t j) (inner_state cfg n Q ref t P j) (on_axis 0) gamma_law_index)) m
  - rsum (fun j => area_r X Q n j * c (srhd_hlle (P (n - 1)%Z j) (P (n - 1)%Z j) (on_axis 0) gamma_law_index)) m.
Lemma advance_rate cfg n m X Q ref t P U dt c : (1 <= n)%Z -> (1 <= m)%Z -> linear c -> (forall i j, c (source_of X Q P i j) = 0) ->
  total c n m (next_of cfg n m X Q ref t P U dt) = total c n m U + dt * boundary_rate cfg n m X Q ref t P c.
Proof.
  intros Hn Hm CL CS. rewrite advance_total by assumption. unfold boundary_rate. f_equal. f_equal. f_equal; apply rsum_ext; intros j Hj; [rewrite inner_flux by exact Hn|rewrite outer_flux by exact Hn]; reflexivity.
Qed.
Definition stage_average (cfg : config) (a b : R) : R := if (rk_order cfg =? 1)%Z then a else (a + b) / 2.
Definition middle (c : config) (fuel : nat) (X : Z -> R) (s r : solution) : Prop := advance c fuel s s (step_of c X) = Ok r.
Lemma step_rate cfg fuel n m X Q ref s s' U : sizes fuel n m -> method_ok cfg m -> make_reference_units cfg = Ok ref -> on_grid s n m X Q U -> next_solution cfg fuel s = Ok s' ->
  exists U' P P', on_grid s' n m X Q U' /\ time s' = time s + step_of cfg X /\ recovered cfg n m X Q U P /\
    (rk_order cfg = 2%Z -> exists r V, middle cfg fuel X s r /\ on_grid r n m X Q V /\ recovered cfg n m X Q V P') /\
    forall c, linear c -> (forall i j, c (source_of X Q P i j) = 0) -> (forall i j, c (source_of X Q P' i j) = 0) ->
      total c n m U' = total c n m U + step_of cfg X * stage_average cfg (boundary_rate cfg n m X Q ref (time s) P c) (boundary_rate cfg n m X Q ref (time s) P' c).
Proof.
  intros HS HM HR HU E. pose proof HS as (Hn & Hm & _). destruct (sizes_fit _ _ _ HS) as (HB & _). unfold next_solution in E. rewrite (time_step_value cfg n m X Q s U Hn ltac:(lia) HU) in E. cbn [bind] in E. unfold stage_average.
  destruct (Z.eqb_spec (rk_order cfg) 1) as [RK|RK].
  - destruct (advance_spec cfg fuel n m X Q ref s s _ s' U U HS HM HR HU HU E) as (P & HP & HT & HG). exists (next_of cfg n m X Q ref (time s) P U (step_of cfg X)), P, P. split; [exact HG|]. split; [exact HT|]. split; [exact HP|]. split; [intros C; lia|].
    intros c CL CS _. apply advance_rate; assumption.
  - destruct (Z.eqb_spec (rk_order cfg) 2) as [RK2|]; [|discriminate]. apply bind_ok_inv in E as (s1 & E1 & E). apply bind_ok_inv in E as (s2 & E2 & E).
    destruct (advance_spec cfg fuel n m X Q ref s s _ s1 U U HS HM HR HU HU E1) as (P & HP & HT1 & HG1). destruct (advance_spec cfg fuel n m X Q ref s s1 _ s2 _ U HS HM HR HU HG1 E2) as (P' & HP' & HT2 & HG2).
    destruct (times_rep fuel n m X Q s U (1 / 2) HS HU) as (a & EA & TA & GA). rewrite EA in E. cbn [bind] in E. destruct (times_rep fuel n m X Q s2 _ (1 - 1 / 2) HS HG2) as (b & EB & TB & GB). rewrite EB in E. cbn [bind] in E.
    destruct (plus_rep fuel n m X Q a _ b _ HS GA GB) as (z & EZ & TZ & GZ). rewrite EZ in E. injection E as <-. eexists. exists P, P'. split; [exact GZ|]. split; [rewrite TZ, TA, TB, HT2, HT1; field|]. split; [exact HP|].
    split; [intros _; exists s1; eexists; split; [exact E1|]; split; [exact HG1|exact HP']|].
    intros c CL CS CS'. pose proof (advance_rate cfg n m X Q ref (time s) P U (step_of cfg X) c Hn Hm CL CS) as A1. set (V := next_of cfg n m X Q ref (time s) P U (step_of cfg X)) in *.
    pose proof (advance_rate cfg n m X Q ref (time s) P' V (step_of cfg X) c Hn Hm CL CS') as A2. set (W := next_of cfg n m X Q ref (time s) P' V (step_of cfg X)) in *. destruct CL as (CP & _ & CT).
    assert (T : total c n m (fun i j => plus5 (times5 (U i j) (1 / 2)) (times5 (W i j) (1 - 1 / 2))) = total c n m U * (1 / 2) + total c n m W * (1 / 2)).
    { unfold total. rewrite <- !rsum_scale, <- rsum_plus. apply rsum_ext. intros i _. rewrite <- !rsum_scale, <- rsum_plus. apply rsum_ext. intros j _. rewrite CP, !CT. field. }
    rewrite T, A2, A1. field.
Qed.
Lemma mass_linear : linear c0. Proof. repeat split. Qed.
Lemma energy_linear : linear c4. Proof. repeat split. Qed.

(** ** Runs *)
Lemma run_rates cfg fuel n m X Q ref : sizes fuel n m -> method_ok cfg m -> make_reference_units cfg = Ok ref -> forall steps s s' U, on_grid s n m X Q U -> run cfg fuel steps s = Ok s' ->
  exists (sq : nat -> solution) (Us : nat -> Z -> Z -> v5) (P P' : nat -> Z -> Z -> prim), sq 0%nat = s /\ sq steps = s' /\ Us 0%nat = U /\
    (forall k, (k <= steps)%nat -> on_grid (sq k) n m X Q (Us k) /\ time (sq k) = time s + INR k * step_of cfg X) /\
    (forall k, (k < steps)%nat -> next_solution cfg fuel (sq k) = Ok (sq (S k)) /\ recovered cfg n m X Q (Us k) (P k) /\
       (rk_order cfg = 2%Z -> exists r V, middle cfg fuel X (sq k) r /\ on_grid r n m X Q V /\ recovered cfg n m X Q V (P' k))) /\
    forall c, linear c -> (forall P r g q, c (srhd_source P g r q) = 0) ->
      total c n m (Us steps) = total c n m U + step_of cfg X * sum_over (fun k => stage_average cfg (boundary_rate cfg n m X Q ref (time (sq k)) (P k) c) (boundary_rate cfg n m X Q ref (time (sq k)) (P' k) c)) steps.
Proof.
  intros HS HM HR steps. induction steps as [|p IH]; intros s s' U HU E.
  - injection E as <-. exists (fun _ => s), (fun _ => U), (fun _ _ _ => zero_prim), (fun _ _ _ => zero_prim). split; [reflexivity|]. split; [reflexivity|]. split; [reflexivity|]. split; [|split].
    + intros k Hk. split; [exact HU|]. replace k with 0%nat by lia. cbn. ring.
    + intros k Hk. lia.
    + intros c _ _. unfold sum_over. cbn. ring.
  - cbn [run] in E. apply bind_ok_inv in E as (s1 & E1 & E2). destruct (step_rate cfg fuel n m X Q ref s s1 U HS HM HR HU E1) as (U1 & P & P' & HU1 & T1 & HP & HP' & B1). destruct (IH s1 s' U1 HU1 E2) as (sq & Us & Q1 & Q2 & S0 & SM & U0 & SH & ST & B).
    exists (fun j => match j with O => s | S i => sq i end), (fun j => match j with O => U | S i => Us i end), (fun j => match j with O => P | S i => Q1 i end), (fun j => match j with O => P' | S i => Q2 i end).
    split; [reflexivity|]. split; [exact SM|]. split; [reflexivity|]. split; [|split].
    + intros [|j] Hj; [split; [exact HU|cbn; ring]|]. destruct (SH j ltac:(lia)) as [A C]. split; [exact A|]. rewrite C, T1, S_INR. ring.
    + intros [|j] Hj; [split; [rewrite S0; exact E1|split; [exact HP|exact HP']]|]. apply ST. lia.
    + intros c CL CS. rewrite (B c CL CS), (B1 c CL) by (intros; apply CS). unfold sum_over. cbn [seq map fold_right]. rewrite <- seq_shift, map_map. ring.
Qed.
