(** Arrays of two axes with total values, and the operators on them (continued from StepProofs2). *)
From Coq Require Import ZArith List Lia Bool.
From Verif Require Import Base NdModel NdSpec NdProofs NdProofs2 NdProofs3 NdOpsModel NdOpsProofs NdOpsProofs2 ProlongModel ProlongProofs FluxSpec MeshModel MeshProps GuardProofs4 StepProofs2 SedovModel Rep1Proofs SedovProofs.
Import ListNotations.
Open Scope Z_scope.

(** Values indexed by row and column, whatever the axis. *)
Definition at2 {A} (a : nat) (F : Z -> Z -> A) : Z -> Z -> A := if (a =? 0)%nat then F else fun x k => F k x.
(** [grid2 b n m F]: n rows, m columns. *)
Definition grid2 {A} (b : array A) (n m : Z) (F : Z -> Z -> A) : Prop := ashape b = [n; m] /\ forall i j, 0 <= i < n -> 0 <= j < m -> aget b [i; j] = Ok (F i j).
Lemma grid_rep2 {A} (b : array A) n m F : grid2 b n m F <-> rep2 0 b n m F. Proof. unfold grid2, rep2. cbn. tauto. Qed.
Lemma grid_rep2_cols {A} (b : array A) n m F : grid2 b n m F <-> rep2 1 b m n (fun j i => F i j).
Proof. unfold grid2, rep2. cbn. split; (intros [H1 H2]; split; [exact H1|]; intros x k Hx Hk; apply H2; assumption). Qed.
Lemma grid2_ext {A} (b : array A) n m F G : grid2 b n m F -> (forall i j, 0 <= i < n -> 0 <= j < m -> F i j = G i j) -> grid2 b n m G.
Proof. intros [H1 H2] E. split; [exact H1|]. intros i j Hi Hj. rewrite <- E by assumption. auto. Qed.
Lemma grid2_same {A} (b : array A) n m F G : grid2 b n m F -> grid2 b n m G -> forall i j, 0 <= i < n -> 0 <= j < m -> F i j = G i j.
Proof. intros [_ H1] [_ H2] i j Hi Hj. specialize (H1 i j Hi Hj). rewrite H2 in H1 by assumption. congruence. Qed.

Lemma binop2 {A B C} (f : A -> B -> C) a b n m F G : grid2 a n m F -> grid2 b n m G -> exists z, binary_op f a b = Ok z /\ grid2 z n m (fun i j => f (F i j) (G i j)).
Proof. rewrite !grid_rep2. intros HA HB. destruct (binop_rep2 f 0 a b n m F G ltac:(lia) HA HB) as (z & E & R). exists z. split; [exact E|apply grid_rep2; exact R]. Qed.
Lemma zip2g {A B} (a : array A) (b : array B) n m F G : grid2 a n m F -> grid2 b n m G -> exists z, zip2 a b = Ok z /\ grid2 z n m (fun i j => (F i j, G i j)).
Proof. apply binop2. Qed.
Lemma map2g {A B} (f : A -> B) a n m F : grid2 a n m F -> grid2 (arr_map f a) n m (fun i j => f (F i j)).
Proof. intros [H1 H2]. split; [exact H1|]. intros i j Hi Hj. cbn [arr_map aget]. rewrite H2 by assumption. reflexivity. Qed.
Lemma mapM2g {A B} (f : A -> outcome B) a n m F G : grid2 a n m F -> (forall i j, 0 <= i < n -> 0 <= j < m -> f (F i j) = Ok (G i j)) -> grid2 (arr_mapM f a) n m G.
Proof. intros [H1 H2] HG. split; [exact H1|]. intros i j Hi Hj. cbn [arr_mapM aget]. rewrite H2 by assumption. bsimp. apply HG; assumption. Qed.
Lemma diff_cols {A} (sub : A -> A -> A) a n m F : 0 <= n < two64 -> 1 <= m < two64 -> grid2 a n m F -> exists z, difference_on_axis sub 1 a = Ok z /\ grid2 z n (m - 1) (fun i j => sub (F i (1 + j)) (F i j)).
Proof. rewrite grid_rep2. intros Hn Hm HA. destruct (difference_rep2 sub 0 a n m F ltac:(lia) Hn Hm HA) as (z & E & R). exists z. split; [exact E|apply grid_rep2; exact R]. Qed.
Lemma diff_rows {A} (sub : A -> A -> A) a n m F : 1 <= n < two64 -> 0 <= m < two64 -> grid2 a n m F -> exists z, difference_on_axis sub 0 a = Ok z /\ grid2 z (n - 1) m (fun i j => sub (F (1 + i) j) (F i j)).
Proof. rewrite grid_rep2_cols. intros Hn Hm HA. destruct (difference_rep2 sub 1 a m n _ ltac:(lia) Hm Hn HA) as (z & E & R). exists z. split; [exact E|apply grid_rep2_cols; exact R]. Qed.
Lemma mid_cols {A} (add : A -> A -> A) half a n m F : 0 <= n < two64 -> 1 <= m < two64 -> grid2 a n m F -> exists z, midpoint_on_axis add half 1 a = Ok z /\ grid2 z n (m - 1) (fun i j => half (add (F i j) (F i (1 + j)))).
Proof. rewrite grid_rep2. intros Hn Hm HA. destruct (midpoint_rep2 add half 0 a n m F ltac:(lia) Hn Hm HA) as (z & E & R). exists z. split; [exact E|apply grid_rep2; exact R]. Qed.
Lemma mid_rows {A} (add : A -> A -> A) half a n m F : 1 <= n < two64 -> 0 <= m < two64 -> grid2 a n m F -> exists z, midpoint_on_axis add half 0 a = Ok z /\ grid2 z (n - 1) m (fun i j => half (add (F i j) (F (1 + i) j))).
Proof. rewrite grid_rep2_cols. intros Hn Hm HA. destruct (midpoint_rep2 add half 1 a m n _ ltac:(lia) Hm Hn HA) as (z & E & R). exists z. split; [exact E|apply grid_rep2_cols; exact R]. Qed.
Lemma prod2 n m : prodz [n; m] = n * m. Proof. cbn. lia. Qed.
Lemma evaluate2 {A} fuel (d : A) a n m F : 0 < n -> 0 < m -> n * m <= 2147483647 -> (Z.to_nat (n * m) <= fuel)%nat -> grid2 a n m F -> exists z, evaluate fuel d a = Ok z /\ grid2 z n m F.
Proof.
  intros Hn Hm Hv Hf [H1 H2]. assert (V : forall i, inb [n; m] i -> exists x k, i = [x; k] /\ 0 <= x < n /\ 0 <= k < m) by (intros i Hi; exact (inb_face 0 n m i ltac:(lia) Hi)).
  destruct (evaluate_spec fuel d a) as (z & E & S & W).
  - rewrite H1. discriminate.
  - rewrite H1. repeat constructor; assumption.
  - rewrite H1, prod2. assumption.
  - rewrite H1, prod2. exact Hf.
  - rewrite H1. intros i Hi. destruct (V i Hi) as (x & k & -> & Hx & Hk). eauto.
  - exists z. split; [exact E|]. split; [congruence|]. intros x k Hx Hk. rewrite W; [apply H2; assumption|]. rewrite H1. apply (inb_face_intro 0); [lia|exact Hx|exact Hk].
Qed.
Lemma evaluate2_reads {A} fuel (d : A) a n m z : 0 < n -> 0 < m -> n * m <= 2147483647 -> (Z.to_nat (n * m) <= fuel)%nat -> ashape a = [n; m] -> evaluate fuel d a = Ok z ->
  forall i j, 0 <= i < n -> 0 <= j < m -> exists v, aget a [i; j] = Ok v.
Proof.
  intros Hn Hm Hv Hf Hs E i j Hi Hj. unfold evaluate, evaluate_buffer in E. apply bind_ok_inv in E as (b & E & _). rewrite Hs in E. rewrite for_each_shape in E.
  - assert (F : Forall (fun i => exists v, aget a i = Ok v) (idxs [n; m])) by (revert E; apply foldM_reads; intros s k s' X; apply bind_ok_inv in X as (v & X & _); eauto).
    rewrite Forall_forall in F. apply F. apply idxs_In. apply (inb_face_intro 0); [lia|exact Hi|exact Hj].
  - repeat constructor; unfold two64; nia.
  - discriminate.
  - rewrite prod2. exact Hf.
Qed.

(** Concatenation, one row or column at either end. *)
Lemma concat_rows {A} (a b : array A) na nb m F G : 0 <= na -> 0 <= nb -> na + nb < two64 -> 0 <= m < two64 -> grid2 a na m F -> grid2 b nb m G ->
  exists c, concat_on 0 b a = Ok c /\ grid2 c (na + nb) m (fun i j => if i <? na then F i j else G (i - na) j).
Proof.
  rewrite !grid_rep2. intros Ha Hb Hs Hm HA HB. apply rep2_reps in HA; [|lia]. apply rep2_reps in HB; [|lia]. destruct (concat_reps 0 a b [na; m] na nb _ _ (ok2 na m ltac:(lia) Hm) ltac:(simpl; lia) Ha Hb Hs HA HB) as (c & E & R).
  exists c. split; [exact E|]. apply grid_rep2. apply (reps_rep2 0) in R; [|lia]. exact R.
Qed.
Lemma concat_cols {A} (a b : array A) n ma mb F G : 0 <= n < two64 -> 0 <= ma -> 0 <= mb -> ma + mb < two64 -> grid2 a n ma F -> grid2 b n mb G ->
  exists c, concat_on 1 b a = Ok c /\ grid2 c n (ma + mb) (fun i j => if j <? ma then F i j else G i (j - ma)).
Proof.
  rewrite !grid_rep2. intros Hn Ha Hb Hs HA HB. apply rep2_reps in HA; [|lia]. apply rep2_reps in HB; [|lia]. destruct (concat_reps 1 a b [n; ma] ma mb _ _ (ok2 n ma Hn ltac:(lia)) ltac:(simpl; lia) Ha Hb Hs HA HB) as (c & E & R).
  exists c. split; [exact E|]. apply grid_rep2. apply (reps_rep2 0) in R; [|lia]. exact R.
Qed.
Lemma final_row {A} (a : array A) n m F : 1 <= n < two64 -> 0 <= m < two64 -> grid2 a n m F -> exists z, select_final 1 0 a = Ok z /\ grid2 z 1 m (fun i j => F (n - 1 + i) j).
Proof.
  rewrite !grid_rep2. intros Hn Hm HA. apply rep2_reps in HA; [|lia]. destruct (select_final_reps 1 0 a (face 0 n m) _ (ok2 n m ltac:(lia) Hm) ltac:(simpl; lia) ltac:(simpl; lia) HA) as (z & E & R).
  exists z. split; [exact E|]. apply grid_rep2. apply (reps_rep2 0) in R; [|lia]. exact R.
Qed.
Lemma first_row {A} (a : array A) n m F : 1 <= n < two64 -> 0 <= m < two64 -> grid2 a n m F -> exists z, select_first 1 0 a = Ok z /\ grid2 z 1 m F.
Proof.
  rewrite !grid_rep2. intros Hn Hm HA. apply rep2_reps in HA; [|lia]. destruct (select_first_reps 1 0 a (face 0 n m) _ (ok2 n m ltac:(lia) Hm) ltac:(simpl; lia) ltac:(simpl; lia) HA) as (z & E & R).
  exists z. split; [exact E|]. apply grid_rep2. apply (reps_rep2 0) in R; [|lia]. exact R.
Qed.
Lemma final_col {A} (a : array A) n m F : 0 <= n < two64 -> 1 <= m < two64 -> grid2 a n m F -> exists z, select_final 1 1 a = Ok z /\ grid2 z n 1 (fun i j => F i (m - 1 + j)).
Proof.
  rewrite !grid_rep2. intros Hn Hm HA. apply rep2_reps in HA; [|lia]. destruct (select_final_reps 1 1 a (face 0 n m) _ (ok2 n m Hn ltac:(lia)) ltac:(simpl; lia) ltac:(simpl; lia) HA) as (z & E & R).
  exists z. split; [exact E|]. apply grid_rep2. apply (reps_rep2 0) in R; [|lia]. exact R.
Qed.
Lemma first_col {A} (a : array A) n m F : 0 <= n < two64 -> 1 <= m < two64 -> grid2 a n m F -> exists z, select_first 1 1 a = Ok z /\ grid2 z n 1 F.
Proof.
  rewrite !grid_rep2. intros Hn Hm HA. apply rep2_reps in HA; [|lia]. destruct (select_first_reps 1 1 a (face 0 n m) _ (ok2 n m Hn ltac:(lia)) ltac:(simpl; lia) ltac:(simpl; lia) HA) as (z & E & R).
  exists z. split; [exact E|]. apply grid_rep2. apply (reps_rep2 0) in R; [|lia]. exact R.
Qed.
(** extend_zeros: note the order of its two concatenations in the model (xl, array, xr). *)
Lemma zeros_cols {A} (times0 : A -> A) a n m F (z0 : A) : (forall x, times0 x = z0) -> 0 <= n < two64 -> 1 <= m -> m + 2 < two64 -> grid2 a n m F ->
  exists z, extend_zeros times0 1 a = Ok z /\ grid2 z n (m + 2) (fun i j => if (j =? 0) || (j =? m + 1) then z0 else F i (j - 1)).
Proof.
  intros HT Hn Hm Hs HA. unfold extend_zeros. destruct (first_col a n m F Hn ltac:(lia) HA) as (xl & E1 & R1). destruct (final_col a n m F Hn ltac:(lia) HA) as (xr & E2 & R2). rewrite E1, E2. bsimp.
  apply (map2g times0) in R1. apply (map2g times0) in R2. destruct (concat_cols _ a n 1 m _ _ Hn ltac:(lia) ltac:(lia) ltac:(lia) R1 HA) as (b & E3 & R3). rewrite E3. bsimp.
  destruct (concat_cols b _ n (1 + m) 1 _ _ Hn ltac:(lia) ltac:(lia) ltac:(lia) R3 R2) as (z & E4 & R4). exists z. split; [exact E4|]. replace (m + 2) with (1 + m + 1) by lia. eapply grid2_ext; [exact R4|].
  intros i j Hi Hj. cbv beta. rewrite !HT. destruct (Z.ltb_spec j (1 + m)), (Z.ltb_spec j 1), (Z.eqb_spec j 0), (Z.eqb_spec j (m + 1)); cbn [orb]; try lia; reflexivity.
Qed.
Lemma zeros_rows {A} (times0 : A -> A) a n m F (z0 : A) : (forall x, times0 x = z0) -> 1 <= n -> n + 2 < two64 -> 0 <= m < two64 -> grid2 a n m F ->
  exists z, extend_zeros times0 0 a = Ok z /\ grid2 z (n + 2) m (fun i j => if (i =? 0) || (i =? n + 1) then z0 else F (i - 1) j).
Proof.
  intros HT Hn Hs Hm HA. unfold extend_zeros. destruct (first_row a n m F ltac:(lia) Hm HA) as (xl & E1 & R1). destruct (final_row a n m F ltac:(lia) Hm HA) as (xr & E2 & R2). rewrite E1, E2. bsimp.
  apply (map2g times0) in R1. apply (map2g times0) in R2. destruct (concat_rows _ a 1 n m _ _ ltac:(lia) ltac:(lia) ltac:(lia) Hm R1 HA) as (b & E3 & R3). rewrite E3. bsimp.
  destruct (concat_rows b _ (1 + n) 1 m _ _ ltac:(lia) ltac:(lia) ltac:(lia) Hm R3 R2) as (z & E4 & R4). exists z. split; [exact E4|]. replace (n + 2) with (1 + n + 1) by lia. eapply grid2_ext; [exact R4|].
  intros i j Hi Hj. cbv beta. rewrite !HT. destruct (Z.ltb_spec i (1 + n)), (Z.ltb_spec i 1), (Z.eqb_spec i 0), (Z.eqb_spec i (n + 1)); cbn [orb]; try lia; reflexivity.
Qed.
(** Slices. *)
Lemma slice_rows {A} (a : array A) n m F s f : 0 <= n < two64 -> 0 <= m < two64 -> 0 <= s -> 0 <= f -> s + f <= n -> grid2 a n m F ->
  exists z, select_axis 0 s f 1 true a = Ok z /\ grid2 z (n - f - s) m (fun i j => F (s + i) j).
Proof. rewrite grid_rep2. intros Hn Hm Hs Hf Hsf HA. destruct (layers_rep2 0 a n m F s f ltac:(lia) Hn Hm Hs Hf Hsf HA) as (z & E & R). exists z. split; [exact E|apply grid_rep2; exact R]. Qed.
Lemma slice_cols {A} (a : array A) n m F s f : 0 <= n < two64 -> 0 <= m < two64 -> 0 <= s -> 0 <= f -> s + f <= m -> grid2 a n m F ->
  exists z, select_axis 1 s f 1 true a = Ok z /\ grid2 z n (m - f - s) (fun i j => F i (s + j)).
Proof. rewrite grid_rep2_cols. intros Hn Hm Hs Hf Hsf HA. destruct (layers_rep2 1 a m n _ s f ltac:(lia) Hm Hn Hs Hf Hsf HA) as (z & E & R). exists z. split; [exact E|apply grid_rep2_cols; exact R]. Qed.
Lemma adjacent2_rows {A} (a : array A) n m F : 1 <= n < two64 -> 0 <= m < two64 -> grid2 a n m F -> exists z, zip_adjacent2_on_axis 0 a = Ok z /\ grid2 z (n - 1) m (fun i j => (F i j, F (1 + i) j)).
Proof. rewrite grid_rep2. intros Hn Hm HA. destruct (adjacent2_rep2 0 a n m F ltac:(lia) Hn Hm HA) as (z & E & R). exists z. split; [exact E|apply grid_rep2; exact R]. Qed.
Lemma adjacent2_cols {A} (a : array A) n m F : 0 <= n < two64 -> 1 <= m < two64 -> grid2 a n m F -> exists z, zip_adjacent2_on_axis 1 a = Ok z /\ grid2 z n (m - 1) (fun i j => (F i j, F i (1 + j))).
Proof. rewrite grid_rep2_cols. intros Hn Hm HA. destruct (adjacent2_rep2 1 a m n _ ltac:(lia) Hm Hn HA) as (z & E & R). exists z. split; [exact E|apply grid_rep2_cols; exact R]. Qed.
Lemma adjacent3_rows {A} (a : array A) n m F : 2 <= n < two64 -> 0 <= m < two64 -> grid2 a n m F -> exists z, zip_adjacent3_on_axis 0 a = Ok z /\ grid2 z (n - 2) m (fun i j => (F i j, (F (1 + i) j, F (2 + i) j))).
Proof. rewrite grid_rep2. intros Hn Hm HA. destruct (adjacent3_rep2 0 a n m F ltac:(lia) Hn Hm HA) as (z & E & R). exists z. split; [exact E|apply grid_rep2; exact R]. Qed.
Lemma adjacent3_cols {A} (a : array A) n m F : 0 <= n < two64 -> 2 <= m < two64 -> grid2 a n m F -> exists z, zip_adjacent3_on_axis 1 a = Ok z /\ grid2 z n (m - 2) (fun i j => (F i j, (F i (1 + j), F i (2 + j)))).
Proof. rewrite grid_rep2_cols. intros Hn Hm HA. destruct (adjacent3_rep2 1 a m n _ ltac:(lia) Hm Hn HA) as (z & E & R). exists z. split; [exact E|apply grid_rep2_cols; exact R]. Qed.
Lemma volume1 n : 0 <= n <= 2147483647 -> volume [n] = n.
Proof. intros H. rewrite volume_value. replace (prodz [n]) with n by (cbn; lia). rewrite to_int_small, w64_small by (unfold two64; lia). reflexivity. Qed.
(** Products of vectors, and a vector as a row. *)
Lemma cartesian2 {A B} (a : array A) (b : array B) n m F G : 0 <= n <= 2147483647 -> 0 <= m <= 2147483647 -> rep1 a n F -> rep1 b m G -> grid2 (cartesian_product a b) n m (fun i j => (F i, G j)).
Proof.
  intros Hn Hm [A1 A2] [B1 B2]. split.
  - cbn [cartesian_product ashape]. rewrite A1, B1, !volume1 by assumption. reflexivity.
  - intros i j Hi Hj. cbn [cartesian_product aget nth]. rewrite A2 by exact Hi. bsimp. rewrite B2 by exact Hj. reflexivity.
Qed.
Lemma row2 {A} fuel (d : A) a m F : 0 < m <= 2147483647 -> (Z.to_nat m <= fuel)%nat -> rep1 a m F ->
  exists b row, evaluate_buffer fuel d a = Ok b /\ reshape_backed [1; m] (ashape a) b = Ok row /\ grid2 row 1 m (fun _ j => F j).
Proof.
  intros Hm Hf HA. destruct (evaluate1 fuel d a m F Hm Hf HA) as (z & E & R). unfold evaluate in E. apply bind_ok_inv in E as (b & EB & E). destruct HA as [S _]. rewrite S in E.
  unfold make_backed in E. rewrite volume1 in E by lia. destruct (Z.eqb_spec m (Z.of_nat (length b))) as [L|]; [|discriminate]. injection E as <-. destruct R as [_ R]. cbn [aget] in R.
  exists b. unfold reshape_backed, make_backed. rewrite EB, S.
  assert (V : volume [1; m] = m) by (rewrite volume_prod; rewrite ?prod2; [lia|repeat constructor; lia|lia]).
  rewrite V, volume1, Z.eqb_refl by lia. destruct (Z.eqb_spec m (Z.of_nat (length b))) as [_|C]; [|contradiction]. eexists. split; [reflexivity|]. split; [reflexivity|]. split; [reflexivity|].
  intros i j Hi Hj. replace i with 0 by lia. pose proof (R j Hj : buf_read b (compute_offset (strides_row_major [m]) [j]) = Ok (F j)) as RJ. change (buf_read b (compute_offset (strides_row_major [1; m]) [0; j]) = Ok (F j)). rewrite <- RJ.
  rewrite (offset_lin [1; m] [0; j]), (offset_lin [m] [j]).
  - reflexivity.
  - apply inb1. eauto.
  - replace (prodz [m]) with m by (cbn; lia). unfold two64. lia.
  - apply (inb_face_intro 0); lia.
  - rewrite prod2. unfold two64. lia.
Qed.
