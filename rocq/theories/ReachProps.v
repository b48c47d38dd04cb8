(** C124: what a cell of the explosion program or of the cloud program holds after k steps depends on the cells within k times the
    reach of the scheme, and on nothing else (src/subprog_sedov.cpp 394-421, src/subprog_cloud.cpp 466-579, 676-697). *)
From Coq Require Import ZArith Reals List Lia Lra Bool Psatz.
From Verif Require Import Base NdModel NdSpec NdOpsModel NdOpsProofs2 DimensionalModel HydroModel SrhdProps SrhdRecoverProps SedovModel Rep1Proofs SedovProofs SedovProps SedovGridProps Rep2Proofs.
From Verif Require MainProps.
Import ListNotations.
Open Scope R_scope.

(** *** The explosion program *)
(** Contents that agree in all shells within [d] of shell [i]. *)
Definition near (n : Z) (i d : Z) (U U' : Z -> v5) : Prop := forall x, (0 <= x < n)%Z -> (Z.abs (x - i) <= d)%Z -> U x = U' x.
Lemma next_near H n X U U' P P' i d : (forall x, (0 <= x < n)%Z -> (Z.abs (x - i) <= d + 1)%Z -> P x = P' x) -> near n i d U U' -> near n i d (next_of H n X U P) (next_of H n X U' P').
Proof.
  intros HP HU x Hx Hd. unfold next_of. rewrite (HU x Hx Hd). do 2 f_equal. unfold rate_of. rewrite (HP x Hx) by lia. f_equal.
  assert (F : forall k, (k = x \/ k = 1 + x)%Z -> flux_of H n P k = flux_of H n P' k).
  { intros k Hk. unfold flux_of. destruct (Z.eqb_spec k 0); [rewrite (HP 0%Z) by lia; reflexivity|]. destruct (Z.eqb_spec k n); [rewrite (HP (n - 1)%Z) by lia; reflexivity|]. rewrite (HP (k - 1)%Z), (HP k) by lia. reflexivity. }
  rewrite (F x), (F (1 + x)%Z) by tauto. reflexivity.
Qed.
Lemma step_near H fuel n X s s' r r' U U' i d : sizes fuel n -> shells s n X U -> shells s' n X U' -> near n i (d + 1) U U' -> next_solution H fuel s = Ok r -> next_solution H fuel s' = Ok r' ->
  exists V V', shells r n X V /\ shells r' n X V' /\ near n i d V V'.
Proof.
  intros [Hn Hf] [X1 U1] [X2 U2] HU E E'. destruct (step_recovers H n X U fuel s r Hn Hf X1 U1 E) as [P HP]. destruct (step_recovers H n X U' fuel s' r' Hn Hf X2 U2 E') as [P' HP'].
  destruct (step_value H n X U P fuel s Hn Hf X1 U1 HP) as (u & EV & RV). destruct (step_value H n X U' P' fuel s' Hn Hf X2 U2 HP') as (u' & EV' & RV'). rewrite E in EV. rewrite E' in EV'. injection EV as ->. injection EV' as ->.
  eexists _, _. split; [split; [exact X1|exact RV]|]. split; [split; [exact X2|exact RV']|]. apply next_near.
  - intros x Hx Hd. pose proof (HP x Hx) as A. rewrite (HU x Hx) in A by lia. rewrite (HP' x Hx) in A. injection A as A. auto.
  - intros x Hx Hd. apply HU; [exact Hx|lia].
Qed.
(** Two runs on the same grid, of either system: after k steps the contents of a shell agree if those of the shells within k of it
    agreed at the start. *)
Theorem explosion_reach H fuel n X steps s s' r r' U U' i : sizes fuel n -> (0 <= i < n)%Z -> shells s n X U -> shells s' n X U' ->
  (forall x, (0 <= x < n)%Z -> (Z.abs (x - i) <= Z.of_nat steps)%Z -> U x = U' x) -> run H fuel steps s = Ok r -> run H fuel steps s' = Ok r' ->
  exists V V', shells r n X V /\ shells r' n X V' /\ V i = V' i.
Proof.
  intros HS Hi. assert (G : forall steps d s s' U U', shells s n X U -> shells s' n X U' -> near n i (d + Z.of_nat steps) U U' -> run H fuel steps s = Ok r -> run H fuel steps s' = Ok r' -> exists V V', shells r n X V /\ shells r' n X V' /\ near n i d V V').
  { clear s s' U U' steps. induction steps as [|k IH]; intros d s s' U U' A B N E E'.
    - injection E as <-. injection E' as <-. exists U, U'. split; [exact A|]. split; [exact B|]. intros x Hx Hd. apply N; [exact Hx|lia].
    - cbn [run] in E, E'. apply bind_ok_inv in E as (a & E1 & E2). apply bind_ok_inv in E' as (b & E3 & E4).
      destruct (step_near H fuel n X s s' a b U U' i (d + Z.of_nat k) HS A B ltac:(intros x Hx Hd; apply N; [exact Hx|lia]) E1 E3) as (V & V' & C & D & M). exact (IH d a b V V' C D M E2 E4). }
  intros A B N E E'. destruct (G steps 0%Z s s' U U' A B ltac:(intros x Hx Hd; apply N; [exact Hx|lia]) E E') as (V & V' & C & D & M). exists V, V'. split; [exact C|]. split; [exact D|]. apply M; lia.
Qed.
Lemma new_run_zones H fuel d p a outer_radius nr z : 1 < outer_radius -> (1 <= z < 2147483647)%Z -> IZR z <= ln outer_radius / ln 10 * IZR nr < IZR z + 1 ->
  new_run H fuel d p a outer_radius nr = new_solution H fuel d p a (ln outer_radius / ln 10) z.
Proof.
  intros HR Hz HZ. set (D := ln outer_radius / ln 10) in *. assert (HT : truncate (D * IZR nr) = z).
  { assert (1 <= IZR z) by (apply IZR_le; lia). unfold truncate. destruct (Rle_dec 0 (D * IZR nr)) as [_|?]; [|lra]. pose proof (Int_part_spec (D * IZR nr)) as IP.
    assert (A : IZR (Int_part (D * IZR nr)) < IZR (z + 1)) by (rewrite plus_IZR; lra). assert (B : IZR z < IZR (Int_part (D * IZR nr) + 1)) by (rewrite plus_IZR; lra). apply lt_IZR in A, B. lia. }
  assert (CH : forall y, (0 <= y <= 2147483647)%Z -> chk y = Ok y) by (intros y Hy; apply chk_ok, in_int_spec; lia).
  unfold new_run. fold D. rewrite HT, CH by lia. bsimp. rewrite CH by lia. bsimp. replace (z + 1 - 1)%Z with z by lia. reflexivity.
Qed.
(** A run cannot tell the strength of its explosion in a shell that is more than k shells away from the explosion after k steps. *)
Theorem explosion_unseen H fuel d p d' p' a outer_radius nr z steps s s' r r' : 1 < outer_radius -> (1 <= z < 2147483647)%Z -> (Z.to_nat z < fuel)%nat -> IZR z <= ln outer_radius / ln 10 * IZR nr < IZR z + 1 ->
  new_run H fuel d p a outer_radius nr = Ok s -> new_run H fuel d' p' a outer_radius nr = Ok s' -> run H fuel steps s = Ok r -> run H fuel steps s' = Ok r' ->
  exists X, (exists V, shells r z X V) /\ forall i, (Z.of_nat steps <= i < z)%Z -> 1 <= (X (i - Z.of_nat steps)%Z + X (i - Z.of_nat steps + 1)%Z) / 2 ->
    exists V V', shells r z X V /\ shells r' z X V' /\ V i = V' i.
Proof.
  intros HR Hz Hf HZ E0 E0' E E'. rewrite (new_run_zones _ _ _ _ _ _ _ z HR Hz HZ) in E0. rewrite (new_run_zones _ _ _ _ _ _ _ z HR Hz HZ) in E0'. set (D := ln outer_radius / ln 10) in *.
  assert (HS : sizes fuel z) by (split; lia). destruct (new_solution_value H fuel d p a D z HS ltac:(lia) ltac:(lia)) as (s1 & A1 & _ & S1). destruct (new_solution_value H fuel d' p' a D z HS ltac:(lia) ltac:(lia)) as (s2 & A2 & _ & S2).
  rewrite E0 in A1. rewrite E0' in A2. injection A1 as <-. injection A2 as <-. set (X := fun k => Rpower 10 (- (1 / 2) + (D - - (1 / 2)) * IZR k / IZR z)) in *. exists X.
  assert (HD : 0 < D) by (apply Rdiv_lt_0_compat; [rewrite <- ln_1; apply ln_increasing; lra|apply ln10]). assert (NZ : 0 < IZR z) by (apply IZR_lt; lia).
  assert (IN : forall x y, (x <= y)%Z -> X x <= X y).
  { intros x y L. unfold X. apply Rle_Rpower; [lra|]. apply Rplus_le_compat_l. unfold Rdiv. apply Rmult_le_compat_r; [left; apply Rinv_0_lt_compat; exact NZ|]. apply Rmult_le_compat_l; [lra|]. apply IZR_le. exact L. }
  split.
  - destruct (explosion_reach H fuel z X steps s s r r _ _ 0 HS ltac:(lia) S1 S1 (fun _ _ _ => eq_refl) E E) as (V & _ & A & _). exists V. exact A.
  - intros i Hi H1. apply (explosion_reach H fuel z X steps s s' r r' _ _ i HS ltac:(lia) S1 S2); [|exact E|exact E']. intros x Hx Hd. cbv beta. do 2 f_equal.
    assert (C : ~ center_of X x < 1). { unfold center_of. pose proof (IN (i - Z.of_nat steps)%Z x ltac:(lia)). pose proof (IN (i - Z.of_nat steps + 1)%Z (1 + x)%Z ltac:(lia)). lra. }
    unfold initial_p. destruct (Rlt_dec (center_of X x) 1); [contradiction|]. reflexivity.
Qed.

(** *** The cloud program *)
From Verif Require Import PlmModel CloudModel CloudProofs CloudProofs2 CloudProps.
(** The options that the update of a cell away from the inner boundary depends on. *)
Definition same_scheme (c c' : config) : Prop := cfl c = cfl c' /\ rk_order c = rk_order c' /\ reconstruct_method c = reconstruct_method c' /\ plm_theta c = plm_theta c' /\ temperature_floor c = temperature_floor c'.
(** Contents that agree in all zones within [d] steps, outward or inward, to one pole or the other, of zone (i, j). *)
Definition close (n m i j d : Z) (U U' : Z -> Z -> v5) : Prop := forall x y, (0 <= x < n)%Z -> (0 <= y < m)%Z -> (Z.abs (x - i) + Z.abs (y - j) <= d)%Z -> U x y = U' x y.

Lemma states_local c c' L L' k i : same_scheme c c' -> (reconstruct_method c = 1 \/ reconstruct_method c = 2)%Z -> (0 <= i < k - 1)%Z ->
  (forall x, (i + 1 - reconstruct_method c <= x <= i + reconstruct_method c)%Z -> (0 <= x < k)%Z -> L x = L' x) -> face_states c L k i = face_states c' L' k i.
Proof.
  intros (_ & _ & SR & ST & _) HM Hi HL. unfold face_states. rewrite <- SR, <- ST. destruct HM as [E|E]; rewrite E in *; cbn [Z.eqb Pos.eqb].
  - unfold pcm_states. rewrite (HL i), (HL (1 + i)%Z) by lia. reflexivity.
  - assert (G : forall x, (x = i \/ x = 1 + i)%Z -> line_gradient (plm_theta c) L k x = line_gradient (plm_theta c) L' k x).
    { intros x Hx. unfold line_gradient. destruct (Z.eqb_spec x 0); [reflexivity|]. destruct (Z.eqb_spec x (k - 1)); [reflexivity|]. cbn [orb]. rewrite (HL (x - 1)%Z), (HL x), (HL (1 + x)%Z) by lia. reflexivity. }
    unfold plm_states. rewrite (G i), (G (1 + i)%Z) by tauto. rewrite (HL i), (HL (1 + i)%Z) by lia. reflexivity.
Qed.
Section Local.
Variables (c c' : config) (n m : Z) (X Q : Z -> R) (ref ref' : unit_system) (t t' : R) (P P' : Z -> Z -> prim) (U U' : Z -> Z -> v5) (dt : R).
Hypothesis SS : same_scheme c c'.
Hypothesis HM : (reconstruct_method c = 1 \/ reconstruct_method c = 2)%Z.
Let w := reconstruct_method c.
Lemma next_local i j : (0 <= i < n)%Z -> (0 <= j < m)%Z -> (forall x, (0 <= x < n)%Z -> (Z.abs (x - i) <= w)%Z -> P x j = P' x j) -> (forall y, (0 <= y < m)%Z -> (Z.abs (y - j) <= w)%Z -> P i y = P' i y) ->
  ((i < w)%Z -> nozzle c Q ref t j = nozzle c' Q ref' t' j) -> U i j = U' i j -> CloudProofs.next_of c n m X Q ref t P U dt i j = CloudProofs.next_of c' n m X Q ref' t' P' U' dt i j.
Proof.
  intros Hi Hj HX HQ HN HU. assert (W : (1 <= w <= 2)%Z) by (unfold w; lia).
  assert (FR : forall f, (f = i \/ f = 1 + i)%Z -> flux_r c n Q ref t P f j = flux_r c' n Q ref' t' P' f j).
  { intros f Hf. unfold flux_r. rewrite (states_local c c' (extended c n Q ref t P j) (extended c' n Q ref' t' P' j) (n + 2) f SS HM); [reflexivity|lia|].
    intros x Hx Hk. fold w in Hx. unfold extended. destruct (Z.ltb_spec x 1); [apply HN; lia|]. destruct (Z.ltb_spec x (n + 1)); apply HX; lia. }
  assert (FQ : forall f, (f = j \/ f = 1 + j)%Z -> flux_q c m P i f = flux_q c' m P' i f).
  { intros f Hf. unfold flux_q. destruct (Z.eqb_spec f 0); [reflexivity|]. destruct (Z.eqb_spec f m); [reflexivity|]. cbn [orb]. rewrite (states_local c c' (P i) (P' i) m (f - 1) SS HM); [reflexivity|lia|].
    intros x Hx Hk. fold w in Hx. apply HQ; lia. }
  unfold CloudProofs.next_of, CloudProofs.rate_of. rewrite (FR i), (FR (1 + i)%Z), (FQ j), (FQ (1 + j)%Z) by tauto. unfold source_of. rewrite (HX i) by lia. rewrite HU. reflexivity.
Qed.
End Local.
Lemma method_values c m : method_ok c m -> (reconstruct_method c = 1 \/ reconstruct_method c = 2)%Z. Proof. intros [[H _]|[H _]]; tauto. Qed.
Lemma scheme_method c c' m : same_scheme c c' -> method_ok c m -> method_ok c' m. Proof. intros (_ & _ & S & _). unfold method_ok. rewrite S. tauto. Qed.
(** The two runs have the same inflow, or the zone is too far from it. *)
Definition jet_alike (c c' : config) (s s' : CloudModel.solution) : Prop := c = c' /\ CloudModel.time s = CloudModel.time s'.
Lemma advance_close c c' fuel n m X Q app app' s s' dt r r' U U' V V' i j d : same_scheme c c' -> good_cloud c -> good_cloud c' -> CloudProofs.sizes fuel n m -> method_ok c m -> (0 <= d)%Z ->
  on_grid app n m X Q V -> on_grid app' n m X Q V' -> on_grid s n m X Q U -> on_grid s' n m X Q U' -> ((i - d < reconstruct_method c)%Z -> jet_alike c c' app app') -> close n m i j (d + reconstruct_method c) U U' ->
  CloudModel.advance c fuel app s dt = Ok r -> CloudModel.advance c' fuel app' s' dt = Ok r' -> exists W W', on_grid r n m X Q W /\ on_grid r' n m X Q W' /\ close n m i j d W W'.
Proof.
  intros SS G G' HS HM Hd A A' GU GU' HJ HC E E'. pose proof (method_values c m HM) as MV.
  destruct (advance_spec c fuel n m X Q (units_of c) app s dt r U V HS HM (reference_units c G) A GU E) as (P & HP & _ & GR). destruct (advance_spec c' fuel n m X Q (units_of c') app' s' dt r' U' V' HS (scheme_method c c' m SS HM) (reference_units c' G') A' GU' E') as (P' & HP' & _ & GR').
  eexists _, _. split; [exact GR|]. split; [exact GR'|]. intros x y Hx Hy Hxy.
  assert (PE : forall x y, (0 <= x < n)%Z -> (0 <= y < m)%Z -> (Z.abs (x - i) + Z.abs (y - j) <= d + reconstruct_method c)%Z -> P x y = P' x y).
  { intros a b Ha Hb Hab. pose proof (HP a b Ha Hb) as B. destruct SS as (_ & _ & _ & _ & ST). rewrite (HC a b Ha Hb Hab), ST in B. rewrite (HP' a b Ha Hb) in B. injection B as B. auto. }
  apply next_local; try assumption.
  - intros a Ha Hd'. apply PE; lia.
  - intros b Hb Hd'. apply PE; lia.
  - intros L. destruct (HJ ltac:(lia)) as [<- T]. rewrite T. reflexivity.
  - apply HC; try assumption. lia.
Qed.
Lemma step_close c c' fuel n m X Q s s' r r' U U' i j d : same_scheme c c' -> good_cloud c -> good_cloud c' -> CloudProofs.sizes fuel n m -> method_ok c m -> (0 <= d)%Z -> on_grid s n m X Q U -> on_grid s' n m X Q U' ->
  ((i - d < reconstruct_method c * rk_order c)%Z -> jet_alike c c' s s') -> close n m i j (d + reconstruct_method c * rk_order c) U U' -> CloudModel.next_solution c fuel s = Ok r -> CloudModel.next_solution c' fuel s' = Ok r' ->
  (exists W W', on_grid r n m X Q W /\ on_grid r' n m X Q W' /\ close n m i j d W W') /\ (rk_order c = 1 \/ rk_order c = 2)%Z /\ (jet_alike c c' s s' -> jet_alike c c' r r').
Proof.
  intros SS G G' HS HM Hd GU GU' HJ HC E E'. pose proof HS as (Hn & Hm & _). destruct (CloudProofs.sizes_fit _ _ _ HS) as (HB & _). pose proof SS as (S1 & S2 & S3 & S4 & S5). pose proof (method_values c m HM) as MV.
  assert (JT : jet_alike c c' s s' -> jet_alike c c' r r').
  { intros [<- T]. split; [reflexivity|]. destruct (step_rate c fuel n m X Q (units_of c) s r U HS HM (reference_units c G) GU E) as (_ & _ & _ & _ & T1 & _). destruct (step_rate c fuel n m X Q (units_of c) s' r' U' HS HM (reference_units c G) GU' E') as (_ & _ & _ & _ & T2 & _). rewrite T1, T2, T. reflexivity. }
  unfold CloudModel.next_solution in E, E'. rewrite (time_step_value c n m X Q s U Hn ltac:(lia) GU) in E. rewrite (time_step_value c' n m X Q s' U' Hn ltac:(lia) GU') in E'. cbn [bind] in E, E'. unfold CloudProofs2.step_of in E, E'. rewrite <- S1, <- S2 in E'.
  destruct (Z.eqb_spec (rk_order c) 1) as [RK|RK].
  - rewrite RK, Z.mul_1_r in *. split; [|split; [tauto|exact JT]]. eapply (advance_close c c' fuel n m X Q s s' s s'); eassumption.
  - destruct (Z.eqb_spec (rk_order c) 2) as [RK2|]; [|discriminate]. rewrite RK2 in *. split; [|split; [tauto|exact JT]]. apply bind_ok_inv in E as (a & E1 & E). apply bind_ok_inv in E as (b & E2 & E). apply bind_ok_inv in E' as (a' & E1' & E'). apply bind_ok_inv in E' as (b' & E2' & E').
    destruct (advance_close c c' fuel n m X Q s s' s s' (cfl c * (X 1%Z - X 0%Z)) a a' U U' U U' i j (d + reconstruct_method c) SS G G' HS HM ltac:(lia) GU GU' GU GU') as (WA & WA' & GA & GA' & CA); [intros L; apply HJ; lia|intros x y Hx Hy Hxy; apply HC; try assumption; lia|exact E1|exact E1'|].
    destruct (advance_close c c' fuel n m X Q s s' a a' (cfl c * (X 1%Z - X 0%Z)) b b' WA WA' U U' i j d SS G G' HS HM Hd GU GU' GA GA') as (WB & WB' & GB & GB' & CB); [intros L; apply HJ; lia|exact CA|exact E2|exact E2'|].
    destruct (times_rep fuel n m X Q s U (1 / 2) HS GU) as (h & EH & _ & GH). rewrite EH in E. cbn [bind] in E. destruct (times_rep fuel n m X Q b _ (1 - 1 / 2) HS GB) as (k & EK & _ & GK). rewrite EK in E. cbn [bind] in E.
    destruct (plus_rep fuel n m X Q h _ k _ HS GH GK) as (z & EZ & _ & GZ). rewrite EZ in E. injection E as <-.
    destruct (times_rep fuel n m X Q s' U' (1 / 2) HS GU') as (h' & EH' & _ & GH'). rewrite EH' in E'. cbn [bind] in E'. destruct (times_rep fuel n m X Q b' _ (1 - 1 / 2) HS GB') as (k' & EK' & _ & GK'). rewrite EK' in E'. cbn [bind] in E'.
    destruct (plus_rep fuel n m X Q h' _ k' _ HS GH' GK') as (z' & EZ' & _ & GZ'). rewrite EZ' in E'. injection E' as <-. eexists _, _. split; [exact GZ|]. split; [exact GZ'|]. intros x y Hx Hy Hxy. cbv beta. rewrite (CB x y Hx Hy Hxy), (HC x y Hx Hy) by lia. reflexivity.
Qed.
(** Two runs on the same grid with the same scheme: after k steps the contents of a zone agree if those of the zones within k times
    reconstruct_method times rk_order of it agreed at the start, and either the zone is at least as many shells away from the jet or
    the runs have all options and the time in common. *)
Theorem cloud_reach c c' fuel n m X Q steps s s' r r' U U' i j : same_scheme c c' -> good_cloud c -> good_cloud c' -> CloudProofs.sizes fuel n m -> method_ok c m -> (0 <= i < n)%Z -> (0 <= j < m)%Z ->
  on_grid s n m X Q U -> on_grid s' n m X Q U' -> let reach := (Z.of_nat steps * (reconstruct_method c * rk_order c))%Z in
  (forall x y, (0 <= x < n)%Z -> (0 <= y < m)%Z -> (Z.abs (x - i) + Z.abs (y - j) <= reach)%Z -> U x y = U' x y) -> (reach <= i)%Z \/ (c = c' /\ CloudModel.time s = CloudModel.time s') ->
  CloudModel.run c fuel steps s = Ok r -> CloudModel.run c' fuel steps s' = Ok r' -> exists V V', on_grid r n m X Q V /\ on_grid r' n m X Q V' /\ V i j = V' i j.
Proof.
  intros SS GC GC' HS HM Hi Hj. cbv zeta. set (g := (reconstruct_method c * rk_order c)%Z).
  assert (G : forall steps d s s' U U', (0 <= d)%Z -> on_grid s n m X Q U -> on_grid s' n m X Q U' -> close n m i j (d + Z.of_nat steps * g) U U' -> ((i - d < Z.of_nat steps * g)%Z -> jet_alike c c' s s') -> CloudModel.run c fuel steps s = Ok r -> CloudModel.run c' fuel steps s' = Ok r' ->
    exists V V', on_grid r n m X Q V /\ on_grid r' n m X Q V' /\ close n m i j d V V').
  { clear s s' U U' steps. induction steps as [|k IH]; intros d s s' U U' Hd A B N J E E'.
    - injection E as <-. injection E' as <-. exists U, U'. split; [exact A|]. split; [exact B|]. intros x y Hx Hy Hxy. apply N; try assumption. lia.
    - cbn [CloudModel.run] in E, E'. apply bind_ok_inv in E as (a & E1 & E2). apply bind_ok_inv in E' as (b & E3 & E4).
      assert (RK : (0 <= g)%Z). { pose proof (method_values c m HM). unfold g. assert (rk_order c = 1 \/ rk_order c = 2)%Z as [-> | ->]; [|lia|lia]. unfold CloudModel.next_solution in E1. apply bind_ok_inv in E1 as (? & _ & E1). destruct (Z.eqb_spec (rk_order c) 1); [tauto|]. destruct (Z.eqb_spec (rk_order c) 2); [tauto|discriminate]. }
      destruct (step_close c c' fuel n m X Q s s' a b U U' i j (d + Z.of_nat k * g) SS GC GC' HS HM ltac:(nia) A B) as ((V & V' & C & D & M) & _ & JA); fold g.
      + intros L. apply J. nia.
      + intros x y Hx Hy Hxy. apply N; try assumption. nia.
      + exact E1.
      + exact E3.
      + apply (IH d a b V V' Hd C D M); [|exact E2|exact E4]. intros L. apply JA. apply J. nia. }
  intros A B N J E E'. destruct (G steps 0%Z s s' U U' ltac:(lia) A B) as (V & V' & C & D & M).
  - intros x y Hx Hy Hxy. apply N; try assumption.
  - intros L. destruct J as [J|J]; [lia|exact J].
  - exact E.
  - exact E'.
  - exists V, V'. split; [exact C|]. split; [exact D|]. apply M; lia.
Qed.
(** Configurations that differ in the jet only. *)
Definition same_but_jet (c c' : config) : Prop := exists e b g a x, c' = Config (nr c) (num_decades c) (inner_radius c) (cloud_cutoff c) (cloud_mass c) (CloudModel.density_index c) (density_index2 c)
  (jet_delay_time c) e b g a x (cfl c) (rk_order c) (reconstruct_method c) (plm_theta c) (temperature_floor c).
(** The jet is not felt beyond k times the reach. *)
Theorem cloud_jet_unfelt c c' fuel n m X Q steps s r r' U i j : same_but_jet c c' -> good_cloud c -> CloudProofs.sizes fuel n m -> method_ok c m -> (0 <= i < n)%Z -> (0 <= j < m)%Z -> on_grid s n m X Q U ->
  CloudModel.run c fuel steps s = Ok r -> CloudModel.run c' fuel steps s = Ok r' -> (Z.of_nat steps * (reconstruct_method c * rk_order c) <= i)%Z -> exists V V', on_grid r n m X Q V /\ on_grid r' n m X Q V' /\ V i j = V' i j.
Proof.
  intros HJ G HS HM Hi Hj GU E E' L. assert (SS : same_scheme c c') by (destruct HJ as (e & b & g & a & x & ->); repeat split). assert (G' : good_cloud c') by (destruct HJ as (e & b & g & a & x & ->); exact G).
  exact (cloud_reach c c' fuel n m X Q steps s s r r' U U i j SS G G' HS HM Hi Hj GU GU (fun _ _ _ _ _ => eq_refl) (or_introl L) E E').
Qed.

(** *** Examples *)
Definition three (p : R) : SedovModel.solution := SedovModel.Solution 0 (vector 4 demo_X) (vector 3 (fun k => V5 1 0 0 0 (if (k =? 0)%Z then p else 1))).
(** Three shells, the innermost with energy 1 or 100: the outermost holds the same after one step. *)
Example explosion_reach_example : exists r r' V V', SedovModel.run euler_system 9 1 (three 1) = Ok r /\ SedovModel.run euler_system 9 1 (three 100) = Ok r' /\ shells r 3 demo_X V /\ shells r' 3 demo_X V' /\ V 2%Z = V' 2%Z.
Proof.
  assert (HS : SedovProps.sizes 9 3) by (split; lia). assert (A : forall p, shells (three p) 3 demo_X (fun k => V5 1 0 0 0 (if (k =? 0)%Z then p else 1))) by (intros p; split; apply vector_rep).
  destruct (MainProps.newtonian_step 9 3 demo_X _ _ HS (A 1)) as (r & _ & E & _). destruct (MainProps.newtonian_step 9 3 demo_X _ _ HS (A 100)) as (r' & _ & E' & _).
  assert (R : SedovModel.run euler_system 9 1 (three 1) = Ok r) by (cbn [SedovModel.run]; rewrite E; reflexivity). assert (R' : SedovModel.run euler_system 9 1 (three 100) = Ok r') by (cbn [SedovModel.run]; rewrite E'; reflexivity).
  destruct (explosion_reach euler_system 9 3 demo_X 1 _ _ r r' _ _ 2 HS ltac:(lia) (A 1) (A 100)) as (V & V' & B & C & D).
  - intros x Hx Hd. cbv beta. destruct (Z.eqb_spec x 0) as [-> |]; [|reflexivity]. cbn in Hd. lia.
  - exact R.
  - exact R'.
  - exists r, r', V, V'. repeat (split; [assumption|]). exact D.
Qed.
Definition still_U (i j : Z) : v5 := times5 (srhd_conserved (Prim 1 0 0 0 1) gamma_law_index) (vol demo_X demo_Q i j).
Definition two_shells : CloudModel.solution := CloudModel.Solution 0 (vector 3 demo_X) (vector 3 demo_Q) (table 2 2 still_U).
Definition strong : config := Config 2 1 300000000 30000000000 (1 / 50) 2 6 1 (10 ^ 53) 1 10 (1 / 10) 2 (4 / 10) 1 1 1 0.
Lemma shell_steps c : same_scheme demo c -> good_cloud c -> exists r, CloudModel.run c 12 1 two_shells = Ok r.
Proof.
  intros (S1 & S2 & S3 & S4 & S5) G. assert (HS : CloudProofs.sizes 12 2 2) by (unfold CloudProofs.sizes; lia). assert (HM : method_ok c 2) by (left; rewrite <- S3; cbn; lia).
  assert (HU : on_grid two_shells 2 2 demo_X demo_Q still_U) by (split; [apply vector_rep|split; [apply vector_rep|apply table_grid]]).
  assert (VP : forall i j, (0 <= i < 2)%Z -> (0 <= j < 2)%Z -> 0 < vol demo_X demo_Q i j).
  { intros i j Hi Hj. unfold vol, demo_X, demo_Q. pose proof PI_RGT_0. assert (C : cos (IZR j * (PI / 2)) - cos (IZR (1 + j) * (PI / 2)) = 1).
    { assert (j = 0%Z \/ j = 1%Z) as [-> | ->] by lia; [change (1 + 0)%Z with 1%Z; rewrite Rmult_0_l, Rmult_1_l, cos_0, cos_PI2; ring|]. change (1 + 1)%Z with 2%Z. rewrite Rmult_1_l. replace (2 * (PI / 2)) with PI by field. rewrite cos_PI2, cos_PI. ring. }
    rewrite C. assert (i = 0%Z \/ i = 1%Z) as [-> | ->] by lia; cbn [Z.add Pos.add]; lra. }
  assert (RC : recovered c 2 2 demo_X demo_Q still_U (fun _ _ => Prim 1 0 0 0 1)).
  { intros i j Hi Hj. specialize (VP i j Hi Hj). unfold still_U. set (V := vol demo_X demo_Q i j) in *. rewrite <- S5. replace (over5 (times5 (srhd_conserved (Prim 1 0 0 0 1) gamma_law_index) V) V) with (srhd_conserved (Prim 1 0 0 0 1) gamma_law_index).
    - apply recover_static_exact; cbn [u1 u2 u3 demo temperature_floor]; try lra. unfold relativistic, gamma_law_index. cbn [rho pre]. lra.
    - destruct (srhd_conserved (Prim 1 0 0 0 1) gamma_law_index) as [a b k d e]. unfold over5, times5. cbn [c0 c1 c2 c3 c4]. f_equal; field; lra. }
  destruct (advance_value c 12 2 2 demo_X demo_Q (units_of c) 0 (fun _ _ => Prim 1 0 0 0 1) still_U (CloudProofs2.step_of c demo_X) two_shells two_shells HS HM (reference_units _ G) (proj1 (proj2 HU)) eq_refl (proj1 HU) (proj1 (proj2 HU)) (proj2 (proj2 HU)) RC) as (u & E & _).
  eexists. cbn [CloudModel.run]. unfold CloudModel.next_solution. rewrite (time_step_value c 2 2 demo_X demo_Q two_shells still_U ltac:(lia) ltac:(reflexivity) HU). bsimp. rewrite <- S2. cbn [rk_order demo Z.eqb Pos.eqb]. rewrite E. reflexivity.
Qed.
(** A weak and a strong jet into two shells of gas at rest: the outer shell holds the same after one step. *)
Example cloud_reach_example : exists r r' V V', CloudModel.run demo 12 1 two_shells = Ok r /\ CloudModel.run strong 12 1 two_shells = Ok r' /\ on_grid r 2 2 demo_X demo_Q V /\ on_grid r' 2 2 demo_X demo_Q V' /\ V 1%Z 0%Z = V' 1%Z 0%Z.
Proof.
  assert (SS : same_scheme demo strong) by (repeat split). destruct (shell_steps demo ltac:(repeat split) (proj1 demo_good)) as [r E].
  assert (G : good_cloud strong) by (unfold good_cloud, strong; cbn; lra). destruct (shell_steps strong SS G) as [r' E'].
  destruct (cloud_jet_unfelt demo strong 12 2 2 demo_X demo_Q 1 two_shells r r' still_U 1 0) as (V & V' & A & B & C).
  - do 5 eexists. reflexivity.
  - apply demo_good.
  - unfold CloudProofs.sizes; lia.
  - left. cbn. lia.
  - lia.
  - lia.
  - split; [apply vector_rep|split; [apply vector_rep|apply table_grid]].
  - exact E.
  - exact E'.
  - cbn. lia.
  - exists r, r', V, V'. repeat (split; [assumption|]). exact C.
Qed.
Print Assumptions explosion_reach.
Print Assumptions explosion_unseen.
Print Assumptions cloud_reach.
Print Assumptions cloud_jet_unfelt.
