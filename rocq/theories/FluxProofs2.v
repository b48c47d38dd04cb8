(** Flux correction on arrays: edge sums before and after, and the sum of a block update. *)
From Coq Require Import ZArith List Arith Bool Lia Reals Lra.
From Verif Require Import Base NdModel NdSpec NdProofs NdProofs2 NdProofs3 NdOpsModel NdOpsProofs
  ProlongModel ProlongProofs ProlongProps FluxModel.
Import ListNotations.
Open Scope Z_scope.

Notation rtotal := (total 0%R Rplus).
Lemma Rcomm x y : (x + y)%R = (y + x)%R. Proof. lra. Qed.
Lemma Rassoc x y z : (x + (y + z))%R = (x + y + z)%R. Proof. lra. Qed.
Lemma Rzero x : (0 + x)%R = x. Proof. lra. Qed.
Lemma Rsubadd x y : (x - y + y)%R = x. Proof. lra. Qed.

Lemma zrange_split n m : 0 <= n -> 0 <= m -> zrange (n + m) = zrange n ++ map (fun k => n + k) (zrange m).
Proof.
  intros Hn Hm. unfold zrange. rewrite Z2Nat.inj_add by assumption. rewrite seq_app, map_app. f_equal.
  rewrite Nat.add_0_l, map_map. rewrite <- (Nat.add_0_r (Z.to_nat n)) at 1.
  generalize 0%nat as k. induction (Z.to_nat m) as [|p IH]; intros k; [reflexivity|]. cbn [seq map].
  rewrite Nat.add_comm, Nat2Z.inj_add, (Z.add_comm (Z.of_nat k)), Z2Nat.id by assumption. f_equal. specialize (IH (S k)). rewrite Nat.add_succ_r, Nat.add_comm in IH. exact IH.
Qed.

(** Sums split along an axis. *)
Lemma split_sum ax s n m (G : list Z -> R) : (ax < length s)%nat -> 0 <= n -> 0 <= m ->
  rtotal G (idxs (upd ax (n + m) s)) = (rtotal G (idxs (upd ax n s)) + rtotal (fun i => G (upd ax (n + nth ax i 0)%Z i)) (idxs (upd ax m s)))%R.
Proof.
  intros HL Hn Hm. revert ax HL G; induction s as [|d s IH]; intros [|ax] HL G; cbn [length] in HL; try lia; cbn [upd idxs].
  - rewrite zrange_split by assumption. rewrite !(total_flat 0%R Rplus Rassoc Rzero), (total_app 0%R Rplus Rassoc Rzero), total_map. f_equal.
    apply total_ext. intros x _. rewrite !total_map. reflexivity.
  - rewrite !(total_flat 0%R Rplus Rassoc Rzero). rewrite <- (total_plus 0%R Rplus Rcomm Rassoc Rzero). apply total_ext. intros x _. rewrite !total_map.
    cbn [upd nth]. apply (IH ax ltac:(lia) (fun t => G (x :: t))).
Qed.

Section Arrays.
Variable N : Z.
Hypothesis HN : 1 <= N.
Hypothesis HB : 2 * N + 2 < two64.
Variable a : nat.
Hypothesis Ha : (a < 2)%nat.
Let b : nat := (1 - a)%nat.
(** The shape of the array of fluxes through the faces across axis a. *)
Let sh : list Z := upd a (N + 1) [N; N].

(** The sum of the face values in layer k. *)
Definition layer (k : Z) (F : list Z -> R) : R := rtotal (fun i => F (upd a k i)) (idxs (upd a 1 [N; N])).

Lemma sh_facts : okshape sh /\ length sh = 2%nat /\ (a < length sh)%nat /\ (b < length sh)%nat /\ nth a sh 0 = N + 1 /\ nth b sh 0 = N /\ a <> b.
Proof.
  unfold sh, b, okshape. destruct a as [|[|x]]; [| |lia]; cbn [upd nth length Nat.sub];
    (split; [constructor; [lia|]; constructor; [lia|constructor]|]); repeat split; lia.
Qed.

(** The values of two blocks side by side on axis b. *)
Definition beside (A0 A1 : list Z -> R) (i : list Z) : R := if nth b i 0 <? N then A0 i else A1 (upd b (nth b i 0 - N) i).

Lemma restricted (a0 a1 : array R) A0 A1 : reps a0 sh A0 -> reps a1 sh A1 ->
  exists r, (do c <- concat_on b a1 a0; restrict_extrinsic Rplus b c) = Ok r /\ reps r sh (Rx Rplus b (beside A0 A1)).
Proof.
  intros R0 R1. destruct sh_facts as (HO & HL & La & Lb & Na & Nb & Hab).
  assert (SB : upd b N sh = sh) by (rewrite <- Nb at 1; apply upd_nth).
  destruct (concat_reps b a0 a1 sh N N A0 A1) as (c & Ec & Rc); auto; try (rewrite SB; assumption); try lia.
  rewrite Ec. bsimp.
  destruct (restrict_extrinsic_reps Rplus b c (upd b (N + N) sh) (beside A0 A1) N) as (r & Er & Rr); auto.
  - apply okshape_upd; [assumption|lia].
  - rewrite upd_length; assumption.
  - rewrite nth_upd by assumption. lia.
  - rewrite nth_upd by assumption. lia.
  - exists r. split; [assumption|]. rewrite upd_upd, SB in Rr. assumption.
Qed.

Lemma inb_length s i : inb s i -> length i = length s.
Proof. induction 1; simpl; congruence. Qed.

Lemma lo_chain (a0 a1 f : array R) A0 A1 F : reps a0 sh A0 -> reps a1 sh A1 -> reps f sh F ->
  exists g, (do c <- concat_on b a1 a0; do r <- restrict_extrinsic Rplus b c; do fl <- take_final_on_axis a r;
             do fr <- drop_first_on_axis a f; concat_on a fr fl) = Ok g /\
    reps g sh (fun i => if nth a i 0 <? 1 then Rx Rplus b (beside A0 A1) (upd a N i) else F i).
Proof.
  intros R0 R1 RF. destruct sh_facts as (HO & HL & La & Lb & Na & Nb & Hab).
  destruct (restricted a0 a1 A0 A1 R0 R1) as (r & Er & Rr). apply bind_ok_inv in Er. destruct Er as (c & Ec & Er). rewrite Ec. bsimp. rewrite Er. bsimp.
  destruct (proj1 (select_final_value a 1 r ltac:(rewrite (proj1 Rr); assumption) ltac:(rewrite (proj1 Rr); assumption) ltac:(unfold two64; lia))) as (fl & El & Sl1 & Sl2).
  { rewrite (proj1 Rr). lia. }
  unfold take_final_on_axis. rewrite El. bsimp.
  unfold drop_first_on_axis.
  destruct (select_unit_reps a 1 0 (N + 1) true f sh F HO La RF) as (fr & Ef & Rf); try lia.
  { rewrite Na, Z.sub_0_r. apply w64_small. lia. }
  rewrite Ef. bsimp.
  destruct Rr as [Rr1 Rr2]. rewrite Rr1, Na in Sl1, Sl2.
  assert (Rl : reps fl (upd a 1 sh) (fun i => Rx Rplus b (beside A0 A1) (upd a N i))).
  { split; [rewrite Sl1; f_equal; lia|]. intros i Hi. assert (E1 : N + 1 - (N + 1 - 1) = 1) by lia. rewrite E1 in Sl1. rewrite Sl2 by (rewrite Sl1; assumption).
    destruct (inb_upd_inv _ _ _ _ Hi La) as [Hk HI]. replace (N + 1 - 1 + nth a i 0) with N by lia. apply Rr2. apply HI. lia. }
  destruct (concat_reps a fl fr sh 1 (N + 1 - 1) _ _ HO La ltac:(lia) ltac:(lia) ltac:(lia) Rl Rf) as (g & Eg & Rg).
  exists g. split; [assumption|]. replace (1 + (N + 1 - 1)) with (N + 1) in Rg by lia. unfold sh in Rg at 1. rewrite upd_upd in Rg. fold sh in Rg.
  eapply reps_ext; [exact Rg|]. intros i Hi. cbv beta. destruct (Z.ltb_spec (nth a i 0) 1) as [|Q]; [reflexivity|].
  assert (HLi : (a < length i)%nat) by (rewrite (inb_length _ _ Hi); assumption).
  rewrite nth_upd by assumption. rewrite upd_upd. replace (1 + (nth a i 0 - 1)) with (nth a i 0) by lia. rewrite upd_nth. reflexivity.
Qed.

Lemma hi_chain (a0 a1 f : array R) A0 A1 F : reps a0 sh A0 -> reps a1 sh A1 -> reps f sh F ->
  exists g, (do c <- concat_on b a1 a0; do r <- restrict_extrinsic Rplus b c; do fr <- take_first_on_axis a r;
             do fl <- drop_final_on_axis a f; concat_on a fr fl) = Ok g /\
    reps g sh (fun i => if nth a i 0 <? N then F i else Rx Rplus b (beside A0 A1) (upd a 0 i)).
Proof.
  intros R0 R1 RF. destruct sh_facts as (HO & HL & La & Lb & Na & Nb & Hab).
  destruct (restricted a0 a1 A0 A1 R0 R1) as (r & Er & Rr). apply bind_ok_inv in Er. destruct Er as (c & Ec & Er). rewrite Ec. bsimp. rewrite Er. bsimp.
  destruct (proj1 (select_first_value a 1 r ltac:(rewrite (proj1 Rr); assumption) ltac:(rewrite (proj1 Rr); assumption) ltac:(unfold two64; lia))) as (fr & El & Sl1 & Sl2).
  { rewrite (proj1 Rr). lia. }
  unfold take_first_on_axis. rewrite El. bsimp.
  unfold drop_final_on_axis.
  destruct (select_unit_reps a 0 1 N true f sh F HO La RF) as (fl & Ef & Rf); try lia.
  { rewrite Na. replace (N + 1 - 1) with N by lia. apply w64_small. lia. }
  rewrite Ef. bsimp.
  destruct Rr as [Rr1 Rr2]. rewrite Rr1, Z.sub_0_r in Sl1. rewrite Z.sub_0_r in Rf.
  assert (Rl : reps fr (upd a 1 sh) (fun i => Rx Rplus b (beside A0 A1) (upd a 0 i))).
  { split; [assumption|]. intros i Hi. rewrite Sl2 by (rewrite Sl1; assumption).
    destruct (inb_upd_inv _ _ _ _ Hi La) as [Hk HI]. replace (0 + nth a i 0) with 0 by lia. apply Rr2. apply HI. lia. }
  destruct (concat_reps a fl fr sh N 1 _ _ HO La ltac:(lia) ltac:(lia) ltac:(lia) Rf Rl) as (g & Eg & Rg).
  exists g. split; [assumption|]. unfold sh in Rg at 1. rewrite upd_upd in Rg. fold sh in Rg.
  eapply reps_ext; [exact Rg|]. intros i Hi. cbv beta. rewrite Z.add_0_l, upd_nth, upd_upd. reflexivity.
Qed.

(** Layer sums of the corrected arrays. *)
Lemma layer_beside k A0 A1 : layer k (Rx Rplus b (beside A0 A1)) = (layer k A0 + layer k A1)%R.
Proof.
  unfold layer. destruct sh_facts as (HO & HL & La & Lb & Na & Nb & Hab).
  set (s := upd a 1 [N; N]). assert (Ls : length s = 2%nat) by (unfold s; rewrite upd_length; reflexivity).
  assert (Lbs : (b < length s)%nat) by (rewrite Ls, <- HL; assumption).
  assert (SB : upd b N s = s). { assert (E : nth b s 0 = N). { unfold s. rewrite nth_upd_other by auto. unfold b. destruct a as [|[|x]]; [| |lia]; reflexivity. } rewrite <- E at 1. apply upd_nth. }
  assert (LEN : forall n i, In i (idxs (upd b n s)) -> length i = 2%nat).
  { intros n i Hi. apply idxs_In in Hi. rewrite (inb_length _ _ Hi), upd_length. assumption. }
  transitivity (rtotal (Rx Rplus b (fun i => beside A0 A1 (upd a k i))) (idxs s)).
  { apply total_ext. intros i Hi. unfold Rx. rewrite !nth_upd_other by auto. rewrite !(upd_comm b a) by auto. reflexivity. }
  rewrite <- SB at 1. rewrite <- (pair_sum 0%R Rplus Rcomm Rassoc Rzero b s N) by (assumption || lia).
  replace (2 * N) with (N + N) by lia. rewrite split_sum by (assumption || lia). rewrite SB. f_equal.
  - apply total_ext. intros i Hi. unfold beside. rewrite nth_upd_other by auto. rewrite <- SB in Hi. apply idxs_In in Hi. destruct (inb_upd_inv _ _ _ _ Hi Lbs) as [Hk _].
    destruct (Z.ltb_spec (nth b i 0) N); [reflexivity|lia].
  - apply total_ext. intros i Hi. rewrite <- SB in Hi. pose proof (LEN _ _ Hi) as Li. unfold beside. rewrite nth_upd_other by auto. rewrite nth_upd by (rewrite Li; unfold b; lia).
    apply idxs_In in Hi. destruct (inb_upd_inv _ _ _ _ Hi Lbs) as [Hk _].
    destruct (Z.ltb_spec (N + nth b i 0) N); [lia|]. replace (N + nth b i 0 - N) with (nth b i 0) by lia.
    rewrite (upd_comm b a) by auto. rewrite upd_upd, upd_nth. reflexivity.
Qed.

Lemma layer_len n i : In i (idxs (upd a n [N; N])) -> (a < length i)%nat.
Proof. intros Hi. apply idxs_In in Hi. rewrite (inb_length _ _ Hi), upd_length. exact Ha. Qed.

Lemma layer_ext k F G : 0 <= k <= N -> (forall i, inb sh i -> nth a i 0 = k -> F i = G i) -> layer k F = layer k G.
Proof.
  intros Hk H. unfold layer. apply total_ext. intros i Hi. pose proof (layer_len _ _ Hi) as Hl. apply idxs_In in Hi.
  apply H; [|apply nth_upd; assumption]. unfold sh. rewrite <- (upd_upd a (N + 1) 1). apply inb_upd; [assumption|lia].
Qed.

Lemma layer_upd k m (F : list Z -> R) : layer k (fun i => F (upd a m i)) = layer m F.
Proof. unfold layer. apply total_ext. intros i Hi. rewrite upd_upd. reflexivity. Qed.

Lemma layer_lo A0 A1 F k : 0 <= k <= N ->
  layer k (fun i => if nth a i 0 <? 1 then Rx Rplus b (beside A0 A1) (upd a N i) else F i) =
  if k =? 0 then (layer N A0 + layer N A1)%R else layer k F.
Proof.
  intros Hk. destruct (Z.eqb_spec k 0) as [->|Hz].
  - transitivity (layer 0 (fun i => Rx Rplus b (beside A0 A1) (upd a N i))).
    + apply layer_ext; [lia|]. intros i _ ->. reflexivity.
    + rewrite layer_upd. apply layer_beside.
  - apply layer_ext; [lia|]. intros i _ ->. destruct (Z.ltb_spec k 1); [lia|reflexivity].
Qed.

Lemma layer_hi A0 A1 F k : 0 <= k <= N ->
  layer k (fun i => if nth a i 0 <? N then F i else Rx Rplus b (beside A0 A1) (upd a 0 i)) =
  if k =? N then (layer 0 A0 + layer 0 A1)%R else layer k F.
Proof.
  intros Hk. destruct (Z.eqb_spec k N) as [->|Hz].
  - transitivity (layer N (fun i => Rx Rplus b (beside A0 A1) (upd a 0 i))).
    + apply layer_ext; [lia|]. intros i _ ->. rewrite Z.ltb_irrefl. reflexivity.
    + rewrite layer_upd. apply layer_beside.
  - apply layer_ext; [lia|]. intros i _ ->. destruct (Z.ltb_spec k N); [reflexivity|lia].
Qed.

(** Differencing the fluxes across the axis: values, and their sum over the block. *)
Lemma difference_reps (f : array R) F : reps f sh F ->
  exists d, difference_on_axis Rminus a f = Ok d /\ reps d [N; N] (fun i => F (upd a (1 + nth a i 0)%Z i) - F i)%R.
Proof.
  intros [F1 F2]. destruct sh_facts as (HO & HL & La & Lb & Na & Nb & Hab).
  destruct (difference_value Rminus a f) as (d & Ed & D1 & D2); rewrite ?F1; auto; [lia|].
  rewrite F1, Na in D1. assert (SH : upd a (N + 1 - 1) sh = [N; N]).
  { unfold sh. rewrite upd_upd. replace (N + 1 - 1) with N by lia. destruct a as [|[|x]]; [| |lia]; reflexivity. }
  rewrite SH in D1. exists d. split; [assumption|]. split; [assumption|]. intros i Hi. rewrite D2 by (rewrite D1; assumption).
  assert (NN : nth a [N; N] 0 = N) by (destruct a as [|[|x]]; [| |lia]; reflexivity).
  pose proof (inb_nth a _ _ Hi Ha) as Hk. rewrite NN in Hk.
  rewrite !F2. reflexivity.
  - unfold sh. rewrite <- (upd_nth a i 0). apply inb_upd; [assumption|lia].
  - unfold sh. apply inb_upd; [assumption|lia].
Qed.

Lemma difference_sum F : rtotal (fun i => F (upd a (1 + nth a i 0)%Z i) - F i)%R (idxs [N; N]) = (layer N F - layer 0 F)%R.
Proof.
  assert (NN : upd a N [N; N] = [N; N]) by (destruct a as [|[|x]]; [| |lia]; reflexivity).
  rewrite <- NN at 1. rewrite (telescope 0%R Rplus Rminus Rcomm Rassoc Rzero Rsubadd a [N; N] N F Ha ltac:(lia)).
  unfold layer. generalize (idxs (upd a 1 [N; N])) as l. induction l as [|i l IH]; cbn [total]; [lra|]. rewrite IH. lra.
Qed.
End Arrays.
