(** C30-C33, C36, C37: offsets, iteration, strided selections, evaluation, partition, volume. *)
From Coq Require Import ZArith List Lia Bool Sorting.Sorted.
From Verif Require Import Base NdModel NdSpec NdProofs NdProofs2 NdProofs3.
Import ListNotations.
Open Scope Z_scope.

(** ** C30 *)

(** For every shape whose element count fits size_t: distinct offsets, below the count, onto. *)
Theorem row_major_offsets (s : list Z) :
  Forall (fun d => 0 <= d) s -> prodz s < 2 ^ 64 ->
  (forall i j, inb s i -> inb s j ->
     compute_offset (strides_row_major s) i = compute_offset (strides_row_major s) j -> i = j) /\
  (forall i, inb s i -> 0 <= compute_offset (strides_row_major s) i < prodz s) /\
  (forall k, 0 <= k < prodz s -> exists i, inb s i /\ compute_offset (strides_row_major s) i = k).
Proof.
  intros HS HP. change (2 ^ 64) with two64 in HP. split; [|split].
  - intros i j Hi Hj. rewrite !offset_lin by assumption. apply lin_inj; assumption.
  - intros i Hi. rewrite offset_lin by assumption. apply lin_range; assumption.
  - intros k Hk. destruct (lin_surj s k HS Hk) as (i & Hi & E). exists i. rewrite offset_lin by assumption. auto.
Qed.

Example row_major_example :
  compute_offset (strides_row_major [3; 4; 5]) [2; 1; 3] = 48 /\ compute_offset (strides_row_major [3; 4; 5]) [2; 3; 4] = 59 /\ prodz [3; 4; 5] = 60.
Proof. vm_compute. auto. Qed.

(** ** C31 *)

Theorem iteration_visits_each_index_once (s : list Z) (fuel : nat) :
  s <> [] -> Forall (fun d => 0 < d < 2 ^ 64) s -> (Z.to_nat (prodz s) <= fuel)%nat ->
  exists l, visited fuel (make_access_pattern s) = Ok l /\
    (forall i, In i l <-> inb s i) /\ NoDup l /\ Z.of_nat (length l) = prodz s /\
    StronglySorted lexlt l /\
    (prodz s < 2 ^ 64 -> map (compute_offset (strides_row_major s)) l = zrange (prodz s)).
Proof.
  intros Hne HS Hf. change (2 ^ 64) with two64 in *.
  assert (HN : Forall (fun d => 0 <= d) s) by (eapply Forall_impl; [|exact HS]; simpl; lia).
  exists (idxs s). unfold visited. rewrite for_each_shape by assumption. rewrite visited_foldM. simpl app.
  split; [reflexivity|]. split; [intros; apply idxs_In|]. split; [apply idxs_NoDup; assumption|].
  split; [rewrite idxs_length by assumption; apply Z2Nat.id, prodz_nonneg; assumption|].
  split; [apply idxs_sorted|]. intros HP. rewrite <- lin_idxs by assumption. apply map_ext_in.
  intros i Hi. apply offset_lin; [apply idxs_In; assumption|assumption].
Qed.

(** Any computation that folds over the indexes of a shape is the fold over that list. *)
Theorem iteration_is_a_fold {S} (s : list Z) (body : list Z -> S -> outcome S) (fuel : nat) (s0 : S) :
  s <> [] -> Forall (fun d => 0 < d < 2 ^ 64) s -> (Z.to_nat (prodz s) <= fuel)%nat ->
  for_each fuel (make_access_pattern s) body s0 = foldM (fun s i => body i s) s0 (idxs s).
Proof. intros. apply for_each_shape; assumption. Qed.

(** With a zero extent, indexes are visited although none is in range. *)
Theorem iteration_zero_extent_refuted (n : Z) (fuel : nat) : 0 < n < 2 ^ 64 -> (1 <= fuel)%nat ->
  visited fuel (make_access_pattern [n; 0]) <> Ok [] /\ visited fuel (make_access_pattern [0; n]) <> Ok [] /\
  (forall i, ~ inb [n; 0] i) /\ (forall i, ~ inb [0; n] i).
Proof.
  intros Hn Hf. destruct fuel as [|fuel]; [lia|].
  assert (APP : forall f p cur s, s <> [] -> for_indexes f p (fun i (s : list (list Z)) => Ok (s ++ [i])) cur s <> Ok []).
  { clear. induction f as [|f IH]; intros p cur s Hs; cbn [for_indexes]; destruct (seq_eqb cur (ap_final p)); try congruence.
    bsimp. apply IH. destruct s; discriminate. }
  unfold visited, for_each. cbn [make_access_pattern ap_start ap_final map]. split; [|split].
  - cbn [for_indexes ap_final]. rewrite seq_eqb_neq by (intros Q; injection Q; lia). bsimp. apply APP. discriminate.
  - cbn [for_indexes ap_final]. rewrite seq_eqb_neq by (intros Q; injection Q; lia). bsimp. apply APP. discriminate.
  - split; intros i H; inversion H as [|? ? ? ? R Q]; subst; [inversion Q; subst; lia|lia].
Qed.

(** The rank-one empty shape is visited correctly: not at all. *)
Example iteration_example :
  visited 10 (make_access_pattern [2; 3]) = Ok [[0; 0]; [0; 1]; [0; 2]; [1; 0]; [1; 1]; [1; 2]] /\
  visited 10 (make_access_pattern [0]) = Ok [] /\
  visited 10 (make_access_pattern [3; 0]) = Ok [[0; 0]; [1; 0]; [2; 0]] /\
  visited 10 (make_access_pattern [0; 3]) = Ok [[0; 0]; [0; 1]; [0; 2]].
Proof. vm_compute. repeat split; reflexivity. Qed.

(** ** C32 *)

(** Number of stops per axis. *)
Theorem selection_counts (p : access_pattern) : strided (ap_start p) (ap_final p) (ap_jumps p) ->
  exists c, ap_shape p = Ok c /\ length c = length (ap_start p) /\
   forall n s f j, nth_error (ap_start p) n = Some s -> nth_error (ap_final p) n = Some f -> nth_error (ap_jumps p) n = Some j ->
     exists m, nth_error c n = Some m /\ forall k, 0 <= k -> (k < m <-> stop s f j (s + j * k)).
Proof.
  intros H. exists (counts (ap_start p) (ap_final p) (ap_jumps p)). split; [apply shape_from_counts; assumption|].
  split; [apply counts_length; assumption|]. induction H as [|s f j st fi ju H1 H2 H3 HR IH]; intros [|n] s' f' j'; simpl; try discriminate.
  - intros E1 E2 E3. injection E1 as <-; injection E2 as <-; injection E3 as <-. eexists; split; [reflexivity|].
    intros k Hk. rewrite count_lt by lia. split; [intros Q; exists k; auto|].
    intros (k' & _ & _ & Q). assumption.
  - apply IH.
Qed.

Theorem selection_round_trip (p : access_pattern) (c i : list Z) : strided (ap_start p) (ap_final p) (ap_jumps p) ->
  ap_shape p = Ok c -> inb c i -> inverse_map_index p (map_index p i) = Ok i.
Proof.
  intros H E Hi. unfold ap_shape in E. rewrite shape_from_counts in E by assumption. injection E as <-.
  eapply inverse_map; eassumption.
Qed.

Theorem selection_generates (p : access_pattern) (c x : list Z) : strided (ap_start p) (ap_final p) (ap_jumps p) ->
  ap_shape p = Ok c -> length x = length (ap_start p) -> Forall (fun v => 0 <= v < 2 ^ 64) x ->
  exists b, generates p x = Ok b /\ (b = true <-> exists i, inb c i /\ map_index p i = x).
Proof.
  intros H E HL HR. unfold ap_shape in E. rewrite shape_from_counts in E by assumption. injection E as <-.
  destruct (generates_stops _ _ _ x H HL HR) as (b & EB & Hb). exists b. split; [exact EB|]. rewrite Hb.
  rewrite <- points_In by assumption. unfold points. rewrite in_map_iff. split.
  - intros (i & E & Hi). exists i. rewrite idxs_In in Hi. auto.
  - intros (i & Hi & E). exists i. rewrite idxs_In. auto.
Qed.

Theorem selection_within_is_safe (p : access_pattern) (parent c i : list Z) : strided (ap_start p) (ap_final p) (ap_jumps p) ->
  length parent = length (ap_start p) -> within p parent = Ok true -> ap_shape p = Ok c -> inb c i -> inb parent (map_index p i).
Proof.
  intros H HL HW E Hi. unfold ap_shape in E. rewrite shape_from_counts in E by assumption. injection E as <-.
  eapply within_sound; [exact H|exact HL|exact HW|]. apply points_In; [assumption|]. apply in_map, idxs_In. assumption.
Qed.

(** With unit jumps the test is exact; with larger jumps it may reject a selection that fits. *)
Theorem selection_within_exact_for_unit_jumps (p : access_pattern) (parent : list Z) :
  strided (ap_start p) (ap_final p) (ap_jumps p) -> length parent = length (ap_start p) ->
  ap_jumps p = map (fun _ => 1) (ap_start p) ->
  exists b, within p parent = Ok b /\ (b = true <-> forall i, stops (ap_start p) (ap_final p) (ap_jumps p) i -> inb parent i).
Proof. intros; apply within_exact; assumption. Qed.

Theorem selection_within_complete_refuted :
  exists p parent, strided (ap_start p) (ap_final p) (ap_jumps p) /\ within p parent = Ok false /\
    forall i, stops (ap_start p) (ap_final p) (ap_jumps p) i -> inb parent i.
Proof.
  exists (mkap [0] [9] [2]), [9]. split; [repeat constructor; lia|]. split; [vm_compute; reflexivity|].
  cbn [ap_start ap_final ap_jumps]. intros i H. inversion H as [|? ? ? ? ? ? ? ? (k & H1 & H2 & H3) Q]; subst. inversion Q; subst.
  constructor; [lia|constructor].
Qed.

Example selection_example :
  let p := mkap [1; 0] [8; 5] [3; 2] in
  strided (ap_start p) (ap_final p) (ap_jumps p) /\ ap_shape p = Ok [3; 3] /\ map_index p [2; 1] = [7; 2] /\
  inverse_map_index p [7; 2] = Ok [2; 1] /\ generates p [7; 2] = Ok true /\ generates p [6; 2] = Ok false /\ within p [10; 6] = Ok true.
Proof. cbv zeta. split; [repeat constructor; cbn; lia|]. vm_compute. repeat split; reflexivity. Qed.

(** ** C33 *)

Theorem evaluate_preserves_elements {A} (d : A) (a : array A) (fuel : nat) :
  ashape a <> [] -> Forall (fun e => 0 < e) (ashape a) -> prodz (ashape a) <= 2147483647 ->
  (Z.to_nat (prodz (ashape a)) <= fuel)%nat ->
  (forall i, inb (ashape a) i -> exists v, aget a i = Ok v) ->
  exists a', evaluate fuel d a = Ok a' /\ ashape a' = ashape a /\ forall i, inb (ashape a) i -> aget a' i = aget a i.
Proof. apply evaluate_spec. Qed.

(** Beyond the range of int a write leaves the buffer: the first one, for 2^32 elements. *)
Theorem evaluate_large_array_refuted {A} (d x : A) (fuel : nat) : (1 <= fuel)%nat ->
  evaluate fuel d (mkarr [2 ^ 32] (fun _ => Ok x)) = UB.
Proof. intros H. destruct fuel; [lia|]. unfold evaluate, evaluate_buffer. cbn. reflexivity. Qed.

(** A zero extent in rank two also writes outside of the (empty) buffer. *)
Theorem evaluate_empty_array_refuted {A} (d x : A) (n : Z) (fuel : nat) : (1 <= fuel)%nat -> 0 < n < 2 ^ 64 ->
  evaluate fuel d (mkarr [n; 0] (fun _ => Ok x)) = UB.
Proof.
  intros H Hn. destruct fuel; [lia|]. unfold evaluate, evaluate_buffer, for_each. cbn [ashape make_access_pattern ap_start ap_final map for_indexes].
  rewrite seq_eqb_neq by (intros Q; injection Q; lia). cbn [aget]. bsimp.
  assert (V : volume [n; 0] = 0) by (rewrite volume_value; unfold prodz; simpl; rewrite Z.mul_0_r; reflexivity).
  rewrite V. unfold buf_write. change (length (repeat d (Z.to_nat 0))) with 0%nat. change (Z.of_nat 0) with 0.
  generalize (compute_offset (strides_row_major [n; 0]) [0; 0]) as off. intros off.
  destruct (Z.leb_spec 0 off); [|reflexivity]. destruct (Z.ltb_spec off 0); [lia|reflexivity].
Qed.

Example evaluate_example :
  (do a <- evaluate 10 0 (mkarr [2; 3] (fun i => Ok (10 * nth 0 i 0 + nth 1 i 0))); mapM (aget a) (idxs [2; 3])) = Ok [0; 1; 2; 10; 11; 12].
Proof. vm_compute. reflexivity. Qed.

(** ** C36 *)

(** The parts along the first axis: contiguous, in order, from the first to the last row,
    of sizes that differ by at most one. *)
Theorem partition_is_exact_and_even (rows : Z) (rest : list Z) (parts : Z) :
  0 < parts < 2 ^ 64 -> 0 <= rows -> parts * rows < 2 ^ 64 ->
  exists cut : Z -> Z,
    (forall n, 0 <= n < parts -> partition_region (rows :: rest) parts n =
       Ok (mkap (cut n :: map (fun _ => 0) rest) (cut (n + 1) :: rest) (1 :: map (fun _ => 1) rest))) /\
    cut 0 = 0 /\ cut parts = rows /\
    (forall n, rows / parts <= cut (n + 1) - cut n <= rows / parts + 1) /\
    (forall x, 0 <= x < rows -> exists n, 0 <= n < parts /\ cut n <= x < cut (n + 1)) /\
    (forall x n m, cut n <= x < cut (n + 1) -> cut m <= x < cut (m + 1) -> n = m).
Proof.
  intros HP HR HB. change (2 ^ 64) with two64 in *. exists (fun n => bound n rows parts).
  split; [intros; apply partition_region_value; assumption|]. split; [apply bound_0; lia|]. split; [apply bound_P; lia|].
  split; [intros; apply bound_step; lia|]. split; [intros; apply bound_find; lia|]. intros x n m. apply bound_unique; lia.
Qed.

Example partition_example :
  mapM (fun n => partition_region [10; 4] 3 n) [0; 1; 2]
  = Ok [mkap [0; 0] [3; 4] [1; 1]; mkap [3; 0] [6; 4] [1; 1]; mkap [6; 0] [10; 4] [1; 1]].
Proof. vm_compute. reflexivity. Qed.

(** ** C37 *)

Theorem volume_is_the_product (s : list Z) :
  Forall (fun d => 0 <= d) s -> prodz s <= 2147483647 -> volume s = prodz s.
Proof.
  intros H HP. pose proof (prodz_nonneg s H). rewrite volume_value, to_int_small by lia. apply w64_small. unfold two64. lia.
Qed.

(** In general: the product reduced to 32 bits, read as a signed int, then as a size_t. *)
Theorem volume_in_general (s : list Z) :
  volume s = ((prodz s + 2 ^ 31) mod 2 ^ 32 - 2 ^ 31) mod 2 ^ 64.
Proof. apply volume_value. Qed.

Theorem volume_of_large_shape_refuted : volume [65536; 65536] = 0 /\ prodz [65536; 65536] = 2 ^ 32 /\ volume [65536; 32768] = 2 ^ 64 - 2 ^ 31.
Proof. vm_compute. auto. Qed.

Example volume_example : volume [3; 4; 5] = 60 /\ volume [46340; 46341] = 2147441940 /\ volume [] = 1.
Proof. vm_compute. auto. Qed.

Print Assumptions row_major_offsets.
Print Assumptions iteration_visits_each_index_once.
Print Assumptions iteration_is_a_fold.
Print Assumptions iteration_zero_extent_refuted.
Print Assumptions selection_counts.
Print Assumptions selection_round_trip.
Print Assumptions selection_generates.
Print Assumptions selection_within_is_safe.
Print Assumptions selection_within_exact_for_unit_jumps.
Print Assumptions selection_within_complete_refuted.
Print Assumptions evaluate_preserves_elements.
Print Assumptions evaluate_large_array_refuted.
Print Assumptions evaluate_empty_array_refuted.
Print Assumptions partition_is_exact_and_even.
Print Assumptions volume_is_the_product.
Print Assumptions volume_in_general.
Print Assumptions volume_of_large_shape_refuted.
