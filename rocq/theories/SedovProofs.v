(** The time step of the explosion program, cell by cell. *)
From Coq Require Import ZArith Reals List Lia Lra Bool.
From Verif Require Import Base NdModel NdSpec NdProofs NdProofs2 NdProofs3 NdOpsModel NdOpsProofs NdOpsProofs2 HydroModel SedovModel Rep1Proofs.
Import ListNotations.
Open Scope Z_scope.

(** An evaluation that succeeds has read every element. *)
Lemma foldM_reads {A S} (f : S -> A -> outcome S) (G : A -> Prop) : (forall s a s', f s a = Ok s' -> G a) -> forall l s s', foldM f s l = Ok s' -> Forall G l.
Proof.
  intros HG l. induction l as [|a l IH]; intros s s' E; [constructor|]. rewrite foldM_cons in E. apply bind_ok_inv in E as (s1 & E1 & E2). constructor; [exact (HG _ _ _ E1)|exact (IH _ _ E2)].
Qed.
Lemma evaluate1_reads {A} fuel (d : A) a n z : 0 < n < two64 -> ashape a = [n] -> (Z.to_nat n <= fuel)%nat -> evaluate fuel d a = Ok z -> forall k, 0 <= k < n -> exists v, aget a [k] = Ok v.
Proof.
  intros Hn Hs Hf E k Hk. unfold evaluate, evaluate_buffer in E. apply bind_ok_inv in E as (b & E & _). rewrite Hs in E. rewrite for_each_shape in E.
  - assert (F : Forall (fun i => exists v, aget a i = Ok v) (idxs [n])) by (revert E; apply foldM_reads; intros s i s' X; apply bind_ok_inv in X as (v & X & _); eauto).
    rewrite Forall_forall in F. apply F. apply idxs_In. apply inb1. eauto.
  - repeat constructor; lia.
  - discriminate.
  - simpl. replace (n * 1) with n by lia. exact Hf.
Qed.

(** ** One step *)
Section Step.
Variable H : hydro.
Variables (n : Z) (X : Z -> R) (U : Z -> v5) (P : Z -> prim).
(** Volumes, centers, the time step; the flux through face [k]. *)
Definition volume_of (k : Z) : R := shell_volume (X k) (X (1 + k)).
Definition center_of (k : Z) : R := ((X k + X (1 + k)) * 0.5)%R.
Definition step_of : R := (cfl_number * (X 1 - X 0))%R.
Definition flux_of (k : Z) : v5 :=
  if k =? 0 then riemann H (negate_radial_velocity (P 0)) (P 0) else if k =? n then riemann H (P (n - 1)) (P (n - 1)) else riemann H (P (k - 1)) (P k).
Definition rate_of (k : Z) : v5 :=
  plus5 (minus5 (times5 (flux_of (1 + k)) (- (X (1 + k) * X (1 + k)))) (times5 (flux_of k) (- (X k * X k)))) (times5 (source H (P k) (center_of k)) (volume_of k)).
Definition next_of (k : Z) : v5 := plus5 (U k) (times5 (rate_of k) step_of).

Definition extended_of (k : Z) : prim := if k <? 1 then negate_radial_velocity (P 0) else if k <? n + 1 then P (k - 1) else P (n - 1).
Lemma extended_rep fuel (p0 : array prim) : 1 <= n <= 2147483647 -> (Z.to_nat n <= fuel)%nat -> rep1 p0 n P ->
  exists pi pe f, extend_reflecting_inner p0 = Ok pi /\ extend_zero_gradient_outer pi = Ok pe /\ intercell_flux H pe = Ok f /\ rep1 f (n + 1) flux_of.
Proof.
  intros Hn Hf HP. assert (B : n + 2 < two64) by (unfold two64; lia). unfold extend_reflecting_inner, extend_zero_gradient_outer, intercell_flux.
  destruct (first1 p0 n P ltac:(lia) HP) as (xl & E1 & R1). rewrite E1. bsimp. apply (map1 negate_radial_velocity) in R1.
  destruct (concat1 _ p0 1 n _ _ ltac:(lia) ltac:(lia) ltac:(lia) R1 HP) as (pi & E2 & R2). rewrite E2.
  destruct (final1 pi (1 + n) _ ltac:(lia) R2) as (xr & E3 & R3).
  destruct (concat1 pi xr (1 + n) 1 _ _ ltac:(lia) ltac:(lia) ltac:(lia) R2 R3) as (pe & E4 & R4).
  assert (R5 : rep1 pe (n + 2) extended_of).
  { replace (n + 2) with (1 + n + 1) by lia. eapply rep1_ext; [exact R4|]. intros k Hk. cbv beta. unfold extended_of. replace (n + 1) with (1 + n) by lia.
    destruct (Z.ltb_spec k (1 + n)).
    - destruct (Z.ltb_spec k 1); [|reflexivity]. replace k with 0 by lia. reflexivity.
    - destruct (Z.ltb_spec k 1); [lia|]. destruct (Z.ltb_spec (1 + n - 1 + (k - (1 + n))) 1); [lia|]. f_equal. lia. }
  destruct (select1 pe (n + 2) _ 0 1 ltac:(lia) ltac:(lia) ltac:(lia) ltac:(lia) R5) as (l & E5 & RL). destruct (select1 pe (n + 2) _ 1 0 ltac:(lia) ltac:(lia) ltac:(lia) ltac:(lia) R5) as (r & E6 & RR).
  replace (n + 2 - 1 - 0) with (n + 1) in RL by lia. replace (n + 2 - 0 - 1) with (n + 1) in RR by lia. destruct (zip1 l r _ _ _ RL RR) as (z & E7 & RZ).
  exists pi, pe. eexists. split; [reflexivity|]. rewrite E3. bsimp. split; [exact E4|]. rewrite E5, E6. bsimp. rewrite E7. bsimp. split; [reflexivity|].
  eapply rep1_ext; [apply map1; exact RZ|]. intros k Hk. cbv beta. cbn [fst snd]. unfold flux_of, extended_of.
  destruct (Z.eqb_spec k 0) as [->|K0].
  - destruct (Z.ltb_spec (0 + 0) 1); [|lia]. destruct (Z.ltb_spec (1 + 0) 1); [lia|]. destruct (Z.ltb_spec (1 + 0) (n + 1)); [|lia]. reflexivity.
  - destruct (Z.ltb_spec (0 + k) 1); [lia|]. destruct (Z.ltb_spec (1 + k) 1); [lia|]. destruct (Z.ltb_spec (0 + k) (n + 1)); [|lia].
    destruct (Z.eqb_spec k n) as [->|KN].
    + destruct (Z.ltb_spec (1 + n) (n + 1)); [lia|]. reflexivity.
    + destruct (Z.ltb_spec (1 + k) (n + 1)); [|lia]. f_equal; f_equal; lia.
Qed.

Lemma volumes_rep xv : 1 <= n < two64 - 1 -> rep1 xv (n + 1) X -> exists dv, cell_volumes xv = Ok dv /\ rep1 dv n volume_of.
Proof.
  intros Hn HX. unfold cell_volumes. destruct (adjacent1 xv (n + 1) X ltac:(lia) HX) as (z & E & R). rewrite E. bsimp. eexists. split; [reflexivity|]. replace (n + 1 - 1) with n in R by lia. apply map1 with (f := fun w => shell_volume (fst w) (snd w)) in R. exact R.
Qed.

Lemma step_value fuel s : 1 <= n <= 2147483647 -> (Z.to_nat n <= fuel)%nat -> rep1 (s_vertices s) (n + 1) X -> rep1 (s_conserved s) n U ->
  (forall k, 0 <= k < n -> recover H (over5 (U k) (volume_of k)) = Ok (P k)) ->
  exists u, next_solution H fuel s = Ok (Solution (s_time s + step_of) (s_vertices s) u) /\ rep1 u n next_of.
Proof.
  intros Hn Hf HX HU HP. assert (B : n + 2 < two64) by (unfold two64; lia). unfold next_solution, time_step.
  destruct (difference1 Rminus _ (n + 1) _ ltac:(lia) HX) as (d & E1 & R1). rewrite E1. bsimp. rewrite (proj2 R1 0) by lia. bsimp. change (1 + 0) with 1.
  destruct (volumes_rep _ ltac:(lia) HX) as (dv0 & E2 & R2). rewrite E2. bsimp. destruct (evaluate1 fuel 0%R dv0 n _ ltac:(lia) Hf R2) as (dv & E3 & R3). rewrite E3. bsimp.
  destruct (midpoint1 Rplus (fun x => (x * 0.5)%R) _ (n + 1) _ ltac:(lia) HX) as (rc & E4 & R4). unfold cell_centers. rewrite E4. bsimp. replace (n + 1 - 1) with n in R4 by lia.
  destruct (binop1 over5 _ _ _ _ _ HU R3) as (q & E5 & R5). rewrite E5. bsimp.
  destruct (evaluate1 fuel zero_prim _ n _ ltac:(lia) Hf (mapM1 (recover H) q n _ P R5 HP)) as (p0 & E6 & R6). rewrite E6. bsimp.
  destruct (zip1 _ _ _ _ _ R6 R4) as (pr & E7 & R7). rewrite E7. bsimp. apply (map1 (fun w => source H (fst w) (snd w))) in R7.
  destruct (binop1 times5 _ _ _ _ _ R7 R3) as (s0 & E8 & R8). rewrite E8. bsimp.
  destruct (extended_rep fuel p0 Hn Hf R6) as (pi & pe & f & E9 & E10 & E11 & R11). rewrite E9. bsimp. rewrite E10. bsimp. rewrite E11. bsimp.
  destruct (binop1 times5 f (arr_opp (face_areas (s_vertices s))) (n + 1) flux_of _ R11 (map1 Ropp _ _ _ (map1 (fun r => (r * r)%R) _ _ _ HX))) as (fa & E12 & R12). rewrite E12. bsimp.
  destruct (difference1 minus5 _ (n + 1) _ ltac:(lia) R12) as (l0 & E13 & R13). rewrite E13. bsimp. replace (n + 1 - 1) with n in R13 by lia.
  destruct (binop1 plus5 _ _ _ _ _ R13 R8) as (ls & E14 & R14). rewrite E14. bsimp.
  destruct (binop1 plus5 _ _ _ _ _ HU (map1 (fun x => times5 x (cfl_number * (X 1 - X 0))) _ _ _ R14)) as (u1 & E15 & R15). rewrite E15. bsimp.
  destruct (evaluate1 fuel zero5 u1 n _ ltac:(lia) Hf R15) as (u & E16 & R16). rewrite E16. bsimp. exists u. split; [reflexivity|exact R16].
Qed.
End Step.

(** A step that succeeds has recovered a state in every cell. *)
Lemma step_recovers H n X U fuel s s' : 1 <= n <= 2147483647 -> (Z.to_nat n <= fuel)%nat -> rep1 (s_vertices s) (n + 1) X -> rep1 (s_conserved s) n U ->
  next_solution H fuel s = Ok s' -> exists P, forall k, 0 <= k < n -> recover H (over5 (U k) (volume_of X k)) = Ok (P k).
Proof.
  intros Hn Hf HX HU E. assert (B : n + 2 < two64) by (unfold two64; lia). unfold next_solution in E. apply bind_ok_inv in E as (dt & _ & E).
  destruct (volumes_rep n X _ ltac:(lia) HX) as (dv0 & E2 & R2). rewrite E2 in E. cbn [bind] in E. destruct (evaluate1 fuel 0%R dv0 n _ ltac:(lia) Hf R2) as (dv & E3 & R3). rewrite E3 in E. cbn [bind] in E.
  apply bind_ok_inv in E as (rc & _ & E). destruct (binop1 over5 _ _ _ _ _ HU R3) as (q & E5 & R5). rewrite E5 in E. cbn [bind] in E. apply bind_ok_inv in E as (p0 & E & _).
  pose proof (evaluate1_reads fuel zero_prim (arr_mapM (recover H) q) n p0 ltac:(lia) (proj1 R5) Hf E) as V.
  exists (fun k => match recover H (over5 (U k) (volume_of X k)) with Ok p => p | _ => zero_prim end). intros k Hk. destruct (V k Hk) as [v Hv]. cbn [arr_mapM aget] in Hv. rewrite (proj2 R5 k Hk) in Hv. cbn [bind] in Hv. rewrite Hv. reflexivity.
Qed.

(** ** Totals *)
Lemma rsum_plus F G m : rsum (fun k => F k + G k)%R m = (rsum F m + rsum G m)%R.
Proof.
  replace (rsum F m + rsum G m)%R with (rsum F m - rsum (fun k => G k * -1)%R m)%R by (rewrite rsum_scale; ring). rewrite <- rsum_minus. apply rsum_ext. intros k _. ring.
Qed.
Lemma rsum_telescope (F : Z -> R) m : 0 <= m -> rsum (fun k => (F (1 + k)%Z - F k)%R) m = (F m - F 0%Z)%R.
Proof.
  intros Hm. rewrite <- (Z2Nat.id m Hm). induction (Z.to_nat m) as [|j IH]; [unfold rsum, zrange; cbn; ring|]. rewrite Nat2Z.inj_succ. unfold Z.succ. rewrite rsum_S by lia. rewrite IH. replace (1 + Z.of_nat j) with (Z.of_nat j + 1) by lia. ring.
Qed.
Lemma step_total H n X U P (c : v5 -> R) : 1 <= n -> (forall A B, c (plus5 A B) = c A + c B)%R -> (forall A B, c (minus5 A B) = c A - c B)%R -> (forall A k, c (times5 A k) = c A * k)%R ->
  rsum (fun k => c (next_of H n X U P k)) n =
  (rsum (fun k => c (U k)) n + step_of X * (X 0%Z * X 0%Z * c (flux_of H n P 0) - X n * X n * c (flux_of H n P n) + rsum (fun k => c (source H (P k) (center_of X k)) * volume_of X k) n))%R.
Proof.
  intros Hn CP CM CT. set (G k := (c (flux_of H n P k) * (X k * X k))%R).
  assert (E : forall k, 0 <= k < n -> c (next_of H n X U P k) = (c (U k) + ((c (source H (P k) (center_of X k)) * volume_of X k) - (G (1 + k)%Z - G k)) * step_of X)%R).
  { intros k _. unfold next_of, rate_of, G. rewrite CP, CT, CP, CM, !CT. ring. }
  rewrite (rsum_ext _ _ n E), rsum_plus, rsum_scale, rsum_minus, rsum_telescope by lia. unfold G. ring.
Qed.
