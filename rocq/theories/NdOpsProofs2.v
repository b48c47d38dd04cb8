(** Conservation of differences and of the advection step; linspace and arange. *)
From Coq Require Import ZArith Znumtheory List Lia Bool Reals Lra Ring Field.
From Verif Require Import Base NdModel NdSpec NdProofs NdProofs2 NdProofs3 NdOpsModel NdOpsProofs ParallelModel ParallelProofs.
Import ListNotations.
Open Scope Z_scope.

Lemma prodz_upd_le ax m s : Forall (fun d => 0 < d) s -> (ax < length s)%nat -> 0 < m <= nth ax s 0 -> prodz (upd ax m s) <= prodz s.
Proof.
  intros H; revert ax; induction H as [|d s Hd Hs IH]; intros [|ax] HL Hm; simpl in *; try lia.
  - fold (prodz s). apply Z.mul_le_mono_nonneg_r; [apply prodz_nonneg|lia]. eapply Forall_impl; [|exact Hs]. simpl; lia.
  - fold (prodz s). fold (prodz (upd ax m s)). apply Z.mul_le_mono_nonneg_l; [lia|]. apply IH; lia.
Qed.
Lemma pos_upd ax m s : Forall (fun d => 0 < d < two64) s -> 0 < m < two64 -> Forall (fun d => 0 < d < two64) (upd ax m s).
Proof. intros H Hm; revert ax; induction H; intros [|ax]; simpl; constructor; auto. Qed.
Lemma pos_okshape s : Forall (fun d => 0 < d < two64) s -> okshape s.
Proof. apply Forall_impl. intros; lia. Qed.
Lemma upd_nonnil {A} n (v : A) l : l <> [] -> upd n v l <> [].
Proof. destruct l, n; simpl; congruence. Qed.
Lemma prodz_ge ax s : Forall (fun d => 0 < d) s -> (ax < length s)%nat -> nth ax s 0 <= prodz s.
Proof.
  intros H; revert ax; induction H as [|d s Hd Hs IH]; intros [|ax] HL; simpl in *; try lia; fold (prodz s).
  - pose proof (prodz_pos s Hs). nia.
  - specialize (IH ax ltac:(lia)). pose proof (prodz_pos s Hs). nia.
Qed.

Section Group.
Context {A : Type} (zero : A) (add sub : A -> A -> A).
Hypothesis add_comm : forall x y, add x y = add y x.
Hypothesis add_assoc : forall x y z, add x (add y z) = add (add x y) z.
Hypothesis add_0 : forall x, add zero x = x.
Hypothesis sub_add : forall x y, add (sub x y) y = x.

(** The sum of the differences plus the sum of the first slice is the sum of the last. *)
Lemma difference_telescopes fuel ax (a : array A) (F : list Z -> A) :
  (ax < length (ashape a))%nat -> Forall (fun d => 0 < d < two64) (ashape a) -> 1 < nth ax (ashape a) 0 ->
  (Z.to_nat (prodz (ashape a)) <= fuel)%nat ->
  (forall i, inb (ashape a) i -> aget a i = Ok (F i)) ->
  exists r first last sr sf sl,
    difference_on_axis sub ax a = Ok r /\ take_first_on_axis ax a = Ok first /\ take_final_on_axis ax a = Ok last /\
    arr_sum fuel zero add r = Ok sr /\ arr_sum fuel zero add first = Ok sf /\ arr_sum fuel zero add last = Ok sl /\
    sr = sub sl sf.
Proof.
  intros HL HP HN Hf HF. set (n := nth ax (ashape a) 0) in *.
  assert (HO := pos_okshape _ HP). pose proof (okshape_nth ax _ HO HL) as HN'. fold n in HN'.
  assert (HPp : Forall (fun d => 0 < d) (ashape a)) by (eapply Forall_impl; [|exact HP]; simpl; intros; lia).
  assert (HPn : Forall (fun d => 0 <= d) (ashape a)) by (eapply Forall_impl; [|exact HP]; simpl; intros; lia).
  assert (Hne : ashape a <> []) by (destruct (ashape a); [simpl in HL; lia|discriminate]).
  destruct (difference_value sub ax a HO HL ltac:(fold n; lia)) as (r & ER & R1 & R2).
  destruct (select_first_value ax 1 a HO HL ltac:(unfold two64; lia)) as [QF _]. destruct (QF ltac:(fold n; lia)) as (f & EF & F1 & F2).
  destruct (select_final_value ax 1 a HO HL ltac:(unfold two64; lia)) as [QL _]. destruct (QL ltac:(fold n; lia)) as (l & EL & L1 & L2).
  fold n in R1, L1, L2. rewrite Z.sub_0_r in F1. replace (n - (n - 1)) with 1 in L1 by lia.
  assert (fuel_ok : forall m, 0 < m <= n -> (Z.to_nat (prodz (upd ax m (ashape a))) <= fuel)%nat).
  { intros m Hm. etransitivity; [|exact Hf]. apply Z2Nat.inj_le; [| |apply prodz_upd_le; auto; fold n; lia].
    - apply prodz_nonneg. eapply Forall_impl; [|apply (pos_upd ax m _ HP); lia]. simpl; lia.
    - apply prodz_nonneg; assumption. }
  pose proof (arr_sum_total zero add add_comm add_assoc add_0) as TS.
  assert (IN : forall m i, inb (upd ax m (ashape a)) i -> forall x, 0 <= x < n -> inb (ashape a) (upd ax x i)).
  { intros m i Hi x Hx. destruct (inb_upd_inv _ _ _ _ Hi HL) as [_ Q]. apply Q. assumption. }
  exists r, f, l. do 3 eexists. split; [exact ER|]. split; [exact EF|]. split; [exact EL|].
  split; [|split; [|split]].
  - eapply (TS fuel r (fun i => sub (F (upd ax (1 + nth ax i 0) i)) (F i))).
    + rewrite R1. apply upd_nonnil; assumption.
    + rewrite R1. apply pos_upd; [assumption|lia].
    + rewrite R1. apply fuel_ok. lia.
    + intros i Hi. rewrite R2 by assumption. rewrite R1 in Hi. destruct (inb_upd_inv _ _ _ _ Hi HL) as [Hk Q].
      rewrite HF by (eapply IN; [exact Hi|lia]). bsimp. rewrite HF; [reflexivity|]. rewrite <- (upd_nth ax i 0). eapply IN; [exact Hi|lia].
  - eapply (TS fuel f (fun i => F (upd ax 0 i))).
    + rewrite F1. apply upd_nonnil; assumption.
    + rewrite F1. apply pos_upd; [assumption|unfold two64; lia].
    + rewrite F1. apply fuel_ok. lia.
    + intros i Hi. rewrite F2 by assumption. rewrite F1 in Hi. destruct (inb_upd_inv _ _ _ _ Hi HL) as [Hk Q].
      replace (0 + nth ax i 0) with 0 by lia. apply HF. eapply IN; [exact Hi|lia].
  - eapply (TS fuel l (fun i => F (upd ax (n - 1) i))).
    + rewrite L1. apply upd_nonnil; assumption.
    + rewrite L1. apply pos_upd; [assumption|unfold two64; lia].
    + rewrite L1. apply fuel_ok. lia.
    + intros i Hi. rewrite L2 by assumption. rewrite L1 in Hi. destruct (inb_upd_inv _ _ _ _ Hi HL) as [Hk Q].
      replace (n - 1 + nth ax i 0) with (n - 1) by lia. apply HF. eapply IN; [exact Hi|lia].
  - rewrite R1, F1, L1. rewrite (telescope zero add sub add_comm add_assoc add_0 sub_add ax _ (n - 1) F HL ltac:(lia)).
    apply (cancel zero add sub add_comm add_assoc add_0 sub_add _ _ (total zero add (fun i => F (upd ax 0 i)) (idxs (upd ax 1 (ashape a))))).
    rewrite (sub_total zero add sub add_comm add_assoc add_0 sub_add). rewrite sub_add. reflexivity.
Qed.
End Group.

(** ** The advection step, over the reals *)

Lemma inb1 n i : inb [n] i <-> exists k, i = [k] /\ 0 <= k < n.
Proof.
  split.
  - intros H. inversion H; subst. match goal with Q : Forall2 _ [] _ |- _ => inversion Q; subst end. eauto.
  - intros (k & -> & Hk). constructor; [assumption|constructor].
Qed.

Lemma advection_value (dt : R) n (U X : Z -> R) (xv u0 : array R) :
  ashape u0 = [n] -> ashape xv = [n + 1] -> 1 <= n -> n + 2 < two64 ->
  (forall k, 0 <= k < n -> aget u0 [k] = Ok (U k)) -> (forall k, 0 <= k < n + 1 -> aget xv [k] = Ok (X k)) ->
  exists u1, advection_step Rminus Rmult Rdiv dt xv u0 = Ok u1 /\ ashape u1 = [n] /\
    forall k, 0 <= k < n ->
      aget u1 [k] = Ok (U k - (U k - U ((k - 1) mod n)%Z) / (X (k + 1)%Z - X k) * dt)%R.
Proof.
  intros SU SX Hn Hb HU HX. unfold advection_step.
  destruct (difference_value Rminus 0 xv) as (dx & ED & D1 & D2).
  { rewrite SX; constructor; [lia|constructor]. } { rewrite SX; simpl; lia. } { rewrite SX; simpl; lia. }
  rewrite ED. bsimp. rewrite SX in D1. cbn [upd nth] in D1. replace (n + 1 - 1) with n in D1 by lia.
  destruct (extend_periodic_value 0 1 u0) as [QE _].
  { rewrite SU; constructor; [lia|constructor]. } { rewrite SU; simpl; lia. } { unfold two64; lia. } { rewrite SU; cbn [nth]; lia. }
  destruct (QE ltac:(rewrite SU; simpl; lia)) as (ue & EE & E1 & E2). rewrite EE. bsimp. rewrite SU in E1, E2. cbn [upd nth] in E1, E2.
  destruct (select_axis_slice 0 0 (n + 1) true 1 ue) as (fc & EF & F1 & F2).
  { rewrite E1; constructor; [lia|constructor]. } { rewrite E1; simpl; lia. } { lia. } { lia. } { rewrite E1; cbn [nth]. rewrite w64_small; lia. }
  unfold upwind_flux. rewrite EF. bsimp. rewrite E1 in F1. cbn [upd] in F1. rewrite Z.sub_0_r in F1.
  destruct (difference_value Rminus 0 fc) as (df & EDF & G1 & G2).
  { rewrite F1; constructor; [lia|constructor]. } { rewrite F1; simpl; lia. } { rewrite F1; simpl; lia. }
  rewrite EDF. bsimp. rewrite F1 in G1. cbn [upd nth] in G1. replace (n + 1 - 1) with n in G1 by lia.
  unfold binary_op. rewrite G1, D1, seq_eqb_refl. bsimp. unfold arr_map at 1. cbn [ashape]. rewrite SU, seq_eqb_refl.
  eexists; split; [reflexivity|]. cbn [ashape aget arr_map]. split; [reflexivity|]. intros k Hk. unfold arr_map. cbn [aget].
  rewrite HU by assumption. bsimp.
  assert (FC : forall m, 0 <= m < n + 1 -> aget fc [m] = Ok (U ((m - 1) mod n))).
  { intros m Hm. rewrite F2 by (rewrite F1; apply inb1; eauto). cbn [upd nth]. rewrite Z.add_0_l.
    rewrite E2 by (rewrite E1; apply inb1; exists m; split; [reflexivity|lia]). cbn [upd nth].
    apply HU. apply Z.mod_pos_bound. lia. }
  rewrite G2 by (rewrite G1; apply inb1; eauto). cbn [upd nth].
  rewrite FC by lia. bsimp. rewrite FC by lia. bsimp.
  rewrite D2 by (rewrite D1; apply inb1; eauto). cbn [upd nth]. rewrite HX by lia. bsimp. rewrite HX by lia. bsimp.
  replace (1 + k - 1) with k by lia. rewrite (Z.mod_small k) by lia. replace (1 + k) with (k + 1) by lia. reflexivity.
Qed.

Definition rsum (F : Z -> R) (n : Z) : R := total 0%R Rplus F (zrange n).

Lemma zrange_S n : 0 <= n -> zrange (n + 1) = zrange n ++ [n].
Proof.
  intros H. unfold zrange. replace (Z.to_nat (n + 1)) with (S (Z.to_nat n)) by lia. rewrite seq_S, map_app. simpl. rewrite Z2Nat.id by lia. reflexivity.
Qed.
Lemma rsum_S F n : 0 <= n -> rsum F (n + 1) = (rsum F n + F n)%R.
Proof. intros H. unfold rsum. rewrite zrange_S by assumption. rewrite total_app; [simpl; ring| |]; intros; ring. Qed.
Lemma rsum_ext F G n : (forall k, 0 <= k < n -> F k = G k) -> rsum F n = rsum G n.
Proof. intros H. apply total_ext. intros i Hi. apply H. apply zrange_In in Hi. assumption. Qed.
Lemma rsum_minus F G n : rsum (fun k => F k - G k)%R n = (rsum F n - rsum G n)%R.
Proof. unfold rsum. induction (zrange n); simpl; [ring|]. rewrite IHl. ring. Qed.
Lemma rsum_scale F c n : rsum (fun k => F k * c)%R n = (rsum F n * c)%R.
Proof. unfold rsum. induction (zrange n); simpl; [ring|]. rewrite IHl. ring. Qed.

(** A cyclic shift does not change the sum. *)
Lemma rsum_cyclic (U : Z -> R) n : 1 <= n -> rsum (fun k => U ((k - 1) mod n)) n = rsum U n.
Proof.
  intros Hn.
  assert (Q : forall m, Z.of_nat m < n -> rsum (fun k => U ((k - 1) mod n)) (Z.of_nat m + 1) = (rsum U (Z.of_nat m) + U (n - 1)%Z)%R).
  { induction m as [|m IH]; intros Hm.
    - change (Z.of_nat 0) with 0. unfold rsum. change (zrange (0 + 1)) with [0]. change (zrange 0) with (@nil Z).
      cbn [total]. replace ((0 - 1) mod n) with (n - 1); [ring|].
      rewrite <- (Z_mod_plus_full (0 - 1) 1). rewrite Z.mod_small; lia.
    - replace (Z.of_nat (S m)) with (Z.of_nat m + 1) in * by lia. rewrite rsum_S by lia. rewrite IH by lia.
      rewrite (rsum_S U) by lia. replace (Z.of_nat m + 1 - 1) with (Z.of_nat m) by lia. rewrite Z.mod_small by lia. ring. }
  specialize (Q (Z.to_nat (n - 1)) ltac:(lia)). rewrite Z2Nat.id in Q by lia. replace (n - 1 + 1) with n in Q by lia.
  rewrite Q. rewrite <- rsum_S by lia. f_equal. lia.
Qed.

Lemma advection_conserves_value (dt : R) n (U X : Z -> R) : 1 <= n ->
  (forall k, 0 <= k < n -> X (k + 1)%Z <> X k) ->
  rsum (fun k => (U k - (U k - U ((k - 1) mod n)%Z) / (X (k + 1)%Z - X k) * dt) * (X (k + 1)%Z - X k))%R n
  = rsum (fun k => U k * (X (k + 1)%Z - X k))%R n.
Proof.
  intros Hn HX.
  rewrite (rsum_ext _ (fun k => U k * (X (k + 1)%Z - X k) - ((U k - U ((k - 1) mod n)%Z) * dt))%R).
  2:{ intros k Hk. specialize (HX k Hk). field. lra. }
  rewrite rsum_minus, rsum_scale, rsum_minus. rewrite (rsum_cyclic U n Hn). ring.
Qed.

(** ** linspace *)

Lemma linspace_value (x0 x1 : R) n : 2 <= n < two64 ->
  ashape (linspace Rplus Rminus Rmult Rdiv IZR x0 x1 n) = [n] /\
  exists X : Z -> R,
    (forall k, 0 <= k < n -> aget (linspace Rplus Rminus Rmult Rdiv IZR x0 x1 n) [k] = Ok (X k)) /\
    X 0 = x0 /\ X (n - 1) = x1 /\
    (forall k, X (k + 1)%Z - X k = (x1 - x0) / IZR (n - 1))%R.
Proof.
  intros Hn. split; [reflexivity|]. exists (fun k : Z => x0 + (x1 - x0) * IZR k / IZR (n - 1))%R.
  assert (NZ : IZR (n - 1) <> 0%R) by (apply not_0_IZR; lia).
  split; [|split; [|split]].
  - intros k Hk. unfold linspace. cbn [aget hd]. rewrite w64_small by lia. reflexivity.
  - field. assumption.
  - field. assumption.
  - intros k. rewrite plus_IZR. field. assumption.
Qed.

(** ** arange *)

Lemma arange_count a b s : 0 < s -> 0 <= a <= b -> b <= 2147483647 ->
  exists r, arange3 a b s = Ok r /\ ashape r = [b / s - a / s] /\
    forall k, 0 <= k < b / s - a / s -> aget r [k] = Ok (a + s * k).
Proof.
  intros Hs Hab Hb. unfold arange3. destruct (Z.eqb_spec s 0); [lia|].
  rewrite !Z.quot_div_nonneg by lia.
  pose proof (Z.div_le_mono a b s Hs ltac:(lia)). pose proof (Z.div_pos a s ltac:(lia) Hs).
  pose proof (Z.div_le_upper_bound b s 2147483647 Hs ltac:(nia)).
  assert (CH : forall z, 0 <= z <= 2147483647 -> chk z = Ok z) by (intros z Hz; apply chk_ok, in_int_spec; lia).
  rewrite !CH by lia. bsimp. rewrite CH by lia. bsimp. destruct (Z.ltb_spec (b / s - a / s) 0); [lia|].
  rewrite w64_small by (unfold two64; lia).
  eexists; split; [reflexivity|]. split; [reflexivity|]. cbn [aget hd]. intros k Hk. f_equal.
  assert (E : a + s * k < b + s).
  { pose proof (Z.div_mod a s ltac:(lia)). pose proof (Z.div_mod b s ltac:(lia)). pose proof (Z.mod_pos_bound a s Hs). pose proof (Z.mod_pos_bound b s Hs). nia. }
  destruct (Z.le_gt_cases s b).
  - rewrite (w64_small a) by (unfold two64; lia). rewrite (w64_small s) by (unfold two64; lia). rewrite (w64_small (k * s)) by (unfold two64; nia). rewrite w64_small by (unfold two64; nia). lia.
  - rewrite !Z.div_small in Hk by lia. lia.
Qed.

Lemma arange_exact a b s : 0 < s -> 0 <= a <= b ->
  (forall x, (exists k, 0 <= k < b / s - a / s /\ x = a + s * k) <-> (exists k, 0 <= k /\ x = a + s * k /\ x < b))
  <-> b mod s <= a mod s.
Proof.
  intros Hs Hab. pose proof (Z.div_mod a s ltac:(lia)) as DA. pose proof (Z.div_mod b s ltac:(lia)) as DB.
  pose proof (Z.mod_pos_bound a s Hs). pose proof (Z.mod_pos_bound b s Hs).
  pose proof (Z.div_le_mono a b s Hs ltac:(lia)).
  set (qa := a / s) in *; set (qb := b / s) in *; set (ra := a mod s) in *; set (rb := b mod s) in *.
  split.
  - intros HQ. destruct (Z.le_gt_cases rb ra) as [|HG]; [assumption|exfalso].
    destruct (proj2 (HQ (a + s * (qb - qa)))) as (k & Hk & E).
    { exists (qb - qa). split; [lia|]. split; [reflexivity|]. nia. }
    nia.
  - intros HR x. split; intros (k & Hk & E).
    + exists k. split; [lia|]. split; [assumption|]. nia.
    + destruct E as [E HX]. exists k. split; [|assumption]. split; [assumption|]. nia.
Qed.
