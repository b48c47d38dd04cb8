(** C96: array adapters: reshape, shift_by, freeze_axis, collect, where and read_indexes, zip. *)
From Coq Require Import ZArith List Bool Lia Sorted.
From Verif Require Import Base NdModel NdSpec NdProofs NdProofs2 NdProofs3 NdOpsProofs ShockModel ReduceProofs ReduceProps NdAdapterModel NdAdapterProofs.
Import ListNotations.
Open Scope Z_scope.

(** An array in memory reshaped to as many elements keeps the sequence of its elements in row-major
    order: two indexes of the same rank in that order have the same element. *)
Theorem reshape_keeps_the_sequence {A} (s s' : list Z) (b : list A) (a : array A) : Forall (fun d => 0 < d) s -> Forall (fun d => 0 < d) s' ->
  prodz s <= 2147483647 -> make_backed s b = Ok a -> prodz s' = prodz s ->
  exists r, reshape_backed s' s b = Ok r /\ ashape r = s' /\
    forall i i', inb s i -> inb s' i' -> lin s i = lin s' i' -> aget r i' = aget a i /\ exists v, aget a i = Ok v.
Proof.
  intros HS HS' HP HB HE. unfold reshape_backed. rewrite (volume_prod s') by (try assumption; lia). rewrite (volume_prod s) by assumption. rewrite HE, Z.eqb_refl.
  unfold make_backed in *. rewrite (volume_prod s HS HP) in HB. rewrite (volume_prod s') by (try assumption; lia). rewrite HE. destruct (Z.eqb_spec (prodz s) (Z.of_nat (length b))) as [EL|]; [|discriminate]. injection HB as <-.
  eexists. split; [reflexivity|]. split; [reflexivity|]. intros i i' Hi Hi' EI. cbn [aget]. rewrite !offset_lin by (try assumption; unfold two64; lia). rewrite <- EI. split; [reflexivity|].
  pose proof (lin_range s i Hi) as LR. unfold buf_read. replace (0 <=? lin s i) with true by (symmetry; apply Z.leb_le; lia).
  destruct (nth_error b (Z.to_nat (lin s i))) as [v|] eqn:E; [exists v; reflexivity|]. apply nth_error_None in E. lia.
Qed.
(** It throws for any other number of elements, as long as both numbers fit an int. *)
Theorem reshape_throws {A} (s s' : list Z) (b : list A) : Forall (fun d => 0 < d) s -> Forall (fun d => 0 < d) s' -> prodz s <= 2147483647 -> prodz s' <= 2147483647 -> prodz s' <> prodz s ->
  reshape_backed s' s b = Throw LogicError.
Proof. intros HS HS' HP HP' HN. unfold reshape_backed. rewrite !volume_prod by assumption. destruct (Z.eqb_spec (prodz s') (prodz s)); [contradiction|reflexivity]. Qed.
(** Not beyond: an array without elements is reshaped to 65536 times 65536 elements. *)
Theorem reshape_large_refuted : exists r : array Z, reshape_backed [65536; 65536] [0] [] = Ok r /\ ashape r = [65536; 65536] /\ aget r [0; 0] = UB.
Proof. eexists. split; [reflexivity|]. split; reflexivity. Qed.

(** Shifting to the left (delta <= 0), as documented: B(i) = A(i - delta), with |delta| fewer elements. *)
Theorem shift_left {A} (ax : nat) (d : Z) (a : array A) : Forall (fun x => 0 <= x < 2 ^ 64) (ashape a) -> (ax < length (ashape a))%nat -> -2147483647 <= d <= 0 -> - d < nth ax (ashape a) 0 ->
  exists r, shift_by ax d a = Ok r /\ ashape r = upd ax (nth ax (ashape a) 0 + d) (ashape a) /\
    forall i, inb (ashape r) i -> aget r i = aget a (upd ax (nth ax i 0 - d) i) /\ inb (ashape a) (upd ax (nth ax i 0 - d) i).
Proof.
  intros HO HA HD HL. pose proof (okshape_nth ax (ashape a) HO HA) as HN. unfold shift_by. replace (length (ashape a) <=? ax)%nat with false by (symmetry; apply Nat.leb_gt; lia).
  destruct (Z.leb_spec (nth ax (ashape a) 0) (Z.abs d)); [lia|]. rewrite w64_small by lia. eexists. split; [reflexivity|]. cbn [ashape aget]. split; [f_equal; lia|].
  replace (nth ax (ashape a) 0 - Z.abs d) with (nth ax (ashape a) 0 + d) by lia. intros i Hi. destruct (inb_upd_inv ax _ _ _ Hi HA) as [HX HB].
  split; [rewrite w64_small by lia; reflexivity|].
  rewrite <- (upd_nth ax (ashape a) 0) at 1. rewrite <- (upd_upd ax (nth ax (ashape a) 0) (nth ax (ashape a) 0 + d) (ashape a)). apply inb_upd; [exact Hi|]. lia.
Qed.
(** Shifting to the right reads before the first element: the first delta elements of the result
    come from an index near 2^64 (in memory: undefined). *)
Theorem shift_right_refuted {A} (b : list A) (d : Z) : 0 < d < Z.of_nat (length b) -> Z.of_nat (length b) <= 2147483647 ->
  exists a r, make_backed [Z.of_nat (length b)] b = Ok a /\ shift_by 0 d a = Ok r /\ ashape r = [Z.of_nat (length b) - d] /\
    (forall k, 0 <= k < d -> aget r [k] = UB) /\ forall k, d <= k < Z.of_nat (length b) -> aget r [k] = aget a [k - d].
Proof.
  intros HD HB. set (n := Z.of_nat (length b)) in *. unfold make_backed. rewrite volume_prod by (cbn; try (repeat constructor); lia). cbn [prodz fold_right]. rewrite Z.mul_1_r, Z.eqb_refl.
  eexists _, _. split; [reflexivity|]. unfold shift_by. cbn [ashape length nth upd]. replace (1 <=? 0)%nat with false by reflexivity. destruct (Z.leb_spec n (Z.abs d)); [lia|].
  split; [reflexivity|]. cbn [ashape aget nth upd]. rewrite w64_small by (unfold two64; lia). split; [f_equal; lia|]. split.
  - intros k Hk. unfold compute_offset. cbn -[Z.mul w64 Z.sub]. unfold buf_read. set (o := w64 _). destruct (0 <=? o) eqn:EO; [|reflexivity]. destruct (nth_error b (Z.to_nat o)) eqn:E; [|reflexivity]. exfalso.
    assert (Z.to_nat o < length b)%nat by (apply nth_error_Some; congruence). subst o. revert EO H0. unfold w64, two64. rewrite Z.mul_1_r. intros EO HL.
    match type of EO with (0 <=? ?x) = true => assert (Q : x = k - d + 18446744073709551616) end; [|rewrite Q in HL; lia].
    rewrite ?Zmod_mod. symmetry. apply (Z.mod_unique _ _ (-1)); lia.
  - intros k Hk. rewrite w64_small by (unfold two64; lia). reflexivity.
Qed.
Theorem shift_throws {A} (ax : nat) (d : Z) (a : array A) : Forall (fun x => 0 <= x < 2 ^ 64) (ashape a) ->
  shift_by ax d a = Throw LogicError <-> (length (ashape a) <= ax)%nat \/ nth ax (ashape a) 0 <= Z.abs d.
Proof.
  intros HO. unfold shift_by. destruct (Nat.leb_spec (length (ashape a)) ax); [split; auto|]. destruct (Z.leb_spec (nth ax (ashape a) 0) (Z.abs d)); [split; auto|]. split; [discriminate|intros [?|?]; lia].
Qed.

(** Freezing one axis: the element without that component is the element of the argument with the
    given component there. *)
Theorem freeze_one_axis {A} (ax : nat) (k : Z) (a : array A) : (ax < length (ashape a))%nat -> 0 <= k < nth ax (ashape a) 0 ->
  exists r, freeze_axis ax k a = Ok r /\ ashape r = remove_axis ax (ashape a) /\
    (forall i, inb (ashape a) i -> nth ax i 0 = k -> inb (ashape r) (remove_axis ax i) /\ aget r (remove_axis ax i) = aget a i) /\
    (forall j, inb (ashape r) j -> exists i, inb (ashape a) i /\ nth ax i 0 = k /\ remove_axis ax i = j).
Proof.
  intros HA HK. unfold freeze_axis. replace (length (ashape a) <=? ax)%nat with false by (symmetry; apply Nat.leb_gt; lia). eexists. split; [reflexivity|]. cbn [ashape aget]. split; [reflexivity|]. split.
  - intros i Hi HN. split; [apply inb_remove, Hi|]. f_equal. rewrite <- HN. apply insert_remove. rewrite <- (inb_length _ _ Hi). exact HA.
  - intros j Hj. exists (insert_axis ax k j). pose proof (inb_length _ _ Hj) as HL. pose proof (remove_axis_length (ashape a) ax HA).
    split; [apply inb_insert; assumption|]. split; [apply nth_insert; lia|apply remove_insert; lia].
Qed.
Theorem freeze_throws {A} (ax : nat) (k : Z) (a : array A) : freeze_axis ax k a = Throw LogicError <-> (length (ashape a) <= ax)%nat.
Proof. unfold freeze_axis. destruct (Nat.leb_spec (length (ashape a)) ax); split; auto; [discriminate|lia]. Qed.

(** Freezing several axes named in increasing order. *)
Theorem freeze_several_axes {A} (axes at_index : list Z) (a : array A) : StronglySorted Z.lt axes -> Forall (fun x => 0 <= x < Z.of_nat (length (ashape a))) axes ->
  inb (along axes (ashape a)) at_index ->
  exists r, freeze_axes axes at_index a = Ok r /\ ashape r = others axes (ashape a) /\
    (forall i, length i = length (ashape a) -> along axes i = at_index -> aget r (others axes i) = aget a i) /\
    (forall j, inb (ashape r) j -> exists i, inb (ashape a) i /\ along axes i = at_index /\ others axes i = j).
Proof.
  intros HS HF HI. unfold freeze_axes.
  replace (existsb (fun x => Z.of_nat (length (ashape a)) <=? x) axes) with false.
  2:{ symmetry. apply not_true_iff_false. rewrite existsb_exists. intros (x & Hx & E). rewrite Forall_forall in HF. pose proof (HF x Hx). apply Z.leb_le in E. lia. }
  rewrite remove_elements_sorted by assumption. bsimp. eexists. split; [reflexivity|]. cbn [ashape aget]. split; [reflexivity|]. split.
  - intros i HL HA. unfold insert_elements. assert (HF' : Forall (fun x => 0 <= x < Z.of_nat (length i)) axes) by (rewrite HL; exact HF).
    pose proof (split_length i 0 axes) as SL. rewrite keep_along in SL by assumption. unfold along in SL. rewrite map_length, remove_others in SL. rewrite SL.
    rewrite <- HA, <- (keep_along i axes) by assumption. rewrite <- remove_others, insert_back. bsimp. reflexivity.
  - intros j Hj. rewrite <- remove_others in Hj. rewrite <- keep_along in HI by assumption. destruct (insert_exists _ (ashape a) 0 axes j at_index Hj HI) as (i & E & Hi & R1 & K1).
    exists i. split; [exact Hi|]. pose proof (inb_length _ _ Hi) as HL. rewrite <- (keep_along i axes), <- remove_others; [auto|assumption|rewrite <- HL; exact HF].
Qed.
(** Named in another order the values go to the wrong axes: freezing axis 1 at 2 and axis 0 at 1
    freezes axis 0 at 2 and axis 1 at 1. *)
Theorem freeze_order_refuted : exists r, freeze_axes [1; 0] [2; 1] (index_array [4; 4; 4]) = Ok r /\ ashape r = [4] /\ aget r [3] = Ok [2; 1; 3].
Proof. eexists. split; [reflexivity|]. split; reflexivity. Qed.
(** Naming an axis twice is undefined. *)
Theorem freeze_twice_refuted {A} (x : Z) (k l : Z) (a : array A) : 0 <= x < Z.of_nat (length (ashape a)) -> freeze_axes [x; x] [k; l] a = UB.
Proof.
  intros Hx. unfold freeze_axes. cbn [existsb]. replace (Z.of_nat (length (ashape a)) <=? x) with false by (symmetry; apply Z.leb_gt; lia). cbn [orb].
  unfold remove_elements. rewrite (proj1 (listed_ext (ashape a) 0 [x; x] [x] ltac:(intros m Hm; unfold listed; cbn [existsb]; destruct (m =? x); reflexivity))).
  replace x with (Z.of_nat (Z.to_nat x)) at 1 by lia. rewrite remove_one. pose proof (remove_axis_length (ashape a) (Z.to_nat x) ltac:(lia)). cbn [length].
  replace (length (remove_axis (Z.to_nat x) (ashape a)) + 2 =? length (ashape a))%nat with false by (symmetry; apply Nat.eqb_neq; lia). reflexivity.
Qed.

(** collect(op).along_axis(ax): every element is op of the row of elements along that axis. *)
Theorem collect_applies_to_rows {A B} (op : array A -> outcome B) (ax : nat) (a : array A) : (ax < length (ashape a))%nat ->
  exists r, collect op (Z.of_nat ax) a = Ok r /\ ashape r = remove_axis ax (ashape a) /\
    forall j, inb (ashape r) j -> exists row, aget r j = op row /\ ashape row = [nth ax (ashape a) 0] /\
      forall i, inb (ashape a) i -> remove_axis ax i = j -> aget row [nth ax i 0] = aget a i.
Proof.
  intros HA. unfold collect. destruct (Z.leb_spec (Z.of_nat (length (ashape a))) (Z.of_nat ax)); [lia|].
  assert (HR : remove_elements (ashape a) [Z.of_nat ax] = Ok (remove_axis ax (ashape a))).
  { rewrite remove_elements_sorted by (repeat constructor; lia). f_equal. rewrite <- remove_others, remove_one. reflexivity. }
  rewrite HR. bsimp. eexists. split; [reflexivity|]. cbn [ashape aget]. split; [reflexivity|]. intros j Hj.
  destruct (rest_axes (length (ashape a)) ax HA) as (l & E & HL & HQ). rewrite E. bsimp. unfold freeze_axes.
  assert (HB : existsb (fun x => Z.of_nat (length (ashape a)) <=? x) l = false).
  { apply not_true_iff_false. rewrite existsb_exists. intros (x & Hx & EX). apply Z.leb_le in EX. unfold remove_elements in E. destruct (_ =? _)%nat; [|discriminate]. injection E as <-.
    pose proof (proj1 (range_In [Z.of_nat ax] (length (ashape a)) 0 x) Hx). lia. }
  rewrite HB. destruct (listed_flip (ashape a) 0 l [Z.of_nat ax]) as [F1 F2]; [intros m Hm; apply HQ; lia|].
  assert (ES : remove_elements (ashape a) l = Ok [nth ax (ashape a) 0]).
  { unfold remove_elements. rewrite F1, keep_one by exact HA. cbn [length]. rewrite HL. replace (1 + (length (ashape a) - 1) =? length (ashape a))%nat with true by (symmetry; apply Nat.eqb_eq; lia). reflexivity. }
  rewrite ES. bsimp. eexists. split; [reflexivity|]. cbn [ashape aget]. split; [reflexivity|]. intros i Hi EI. pose proof (inb_length _ _ Hi) as LI.
  destruct (listed_flip i 0 l [Z.of_nat ax]) as [G1 G2]; [intros m Hm; apply HQ; lia|]. rewrite keep_one in G1 by lia. rewrite remove_one, EI in G2.
  unfold insert_elements. cbn [length]. replace (1 + length l)%nat with (length i) by lia. rewrite <- G1, <- G2, insert_back. bsimp. reflexivity.
Qed.
Theorem collect_throws {A B} (op : array A -> outcome B) (ax : nat) (a : array A) : collect op (Z.of_nat ax) a = Throw LogicError <-> (length (ashape a) <= ax)%nat.
Proof.
  split; intros H.
  - destruct (Nat.le_gt_cases (length (ashape a)) ax) as [L|L]; [exact L|]. destruct (collect_applies_to_rows op ax a L) as (r & E & _). congruence.
  - unfold collect. destruct (Z.leb_spec (Z.of_nat (length (ashape a))) (Z.of_nat ax)); [reflexivity|lia].
Qed.
(** The sums along an axis add up to the sum of the array. *)
Theorem sums_along_an_axis {A} (zero : A) (add : A -> A -> A) : (forall x y, add x y = add y x) -> (forall x y z, add x (add y z) = add (add x y) z) -> (forall x, add zero x = x) ->
  forall (ax : nat) (a : array A) (F : list Z -> A) (f1 f2 f3 : nat), (2 <= length (ashape a))%nat -> (ax < length (ashape a))%nat -> Forall (fun d => 0 < d < 2 ^ 64) (ashape a) ->
  (forall i, inb (ashape a) i -> aget a i = Ok (F i)) -> (Z.to_nat (prodz (ashape a)) <= f1)%nat -> (Z.to_nat (prodz (ashape a)) <= f2)%nat -> (Z.to_nat (prodz (ashape a)) <= f3)%nat ->
  exists r S, collect (arr_sum f1 zero add) (Z.of_nat ax) a = Ok r /\ arr_sum f2 zero add r = Ok S /\ arr_sum f3 zero add a = Ok S.
Proof.
  intros AC AA A0 ax a F f1 f2 f3 HR HA HP HF H1 H2 H3. destruct (collect_applies_to_rows (arr_sum f1 zero add) ax a HA) as (r & E & ES & G). exists r, (total zero add F (idxs (ashape a))).
  split; [exact E|]. pose proof (remove_axis_length (ashape a) ax HA) as RL.
  assert (HN : 0 < nth ax (ashape a) 0 < two64) by (rewrite Forall_forall in HP; apply HP, nth_In; exact HA).
  assert (PR : prodz (ashape a) = nth ax (ashape a) 0 * prodz (remove_axis ax (ashape a))).
  { clear - HA. revert ax HA. induction (ashape a) as [|d s IH]; intros ax HA; cbn [length] in HA; [lia|]. destruct ax as [|ax]; [reflexivity|]. cbn [nth remove_axis]. change (prodz (d :: s)) with (d * prodz s). change (prodz (d :: remove_axis ax s)) with (d * prodz (remove_axis ax s)). rewrite (IH ax) by lia. ring. }
  assert (HPR : Forall (fun d => 0 < d < two64) (remove_axis ax (ashape a))).
  { clear - HP. revert ax. induction (ashape a) as [|d s IH]; intros ax; [destruct ax; constructor|]. inversion HP; subst. destruct ax as [|ax]; cbn; [assumption|]. constructor; [assumption|]. apply IH. assumption. }
  assert (PP : 0 < prodz (remove_axis ax (ashape a))) by (apply prodz_pos; eapply Forall_impl; [|exact HPR]; cbn; intros; lia).
  split.
  - rewrite (arr_sum_total zero add AC AA A0 f2 r (fun j => total zero add (fun k => F (insert_axis ax k j)) (zrange (nth ax (ashape a) 0)))).
    + f_equal. rewrite ES. apply fibres; auto.
    + rewrite ES. intros X. rewrite X in RL. cbn in RL. lia.
    + rewrite ES. exact HPR.
    + rewrite ES. nia.
    + intros j Hj. destruct (G j Hj) as (row & E1 & E2 & E3). rewrite E1. rewrite ES in Hj. pose proof (inb_length _ _ Hj) as LJ.
      rewrite (arr_sum_total zero add AC AA A0 f1 row (fun i => F (insert_axis ax (nth 0 i 0) j))).
      * f_equal. rewrite E2. cbn [idxs]. rewrite (total_flat zero add); auto. apply (NdOpsProofs.total_ext zero add). intros k _. cbn. rewrite AC. apply A0.
      * rewrite E2. discriminate.
      * rewrite E2. constructor; [exact HN|constructor].
      * rewrite E2. cbn [prodz fold_right]. nia.
      * rewrite E2. intros i Hi. inversion Hi as [|? k ? i' Hk Hi']; subst. inversion Hi'; subst. cbn [nth].
        assert (HX : inb (ashape a) (insert_axis ax k j)) by (apply inb_insert; assumption).
        rewrite <- (HF _ HX). rewrite <- (E3 _ HX) by (apply remove_insert; lia). rewrite nth_insert by lia. reflexivity.
  - apply (arr_sum_total zero add AC AA A0); try assumption. intros X. rewrite X in HR. cbn in HR. lia.
Qed.

(** Reading at the indexes that where gives: the elements at which the mask is true, in order. *)
Theorem read_where {A} (fuel : nat) (mask : array bool) (M : list Z -> bool) (a : array A) (F : list Z -> A) : ashape mask <> [] -> Forall (fun d => 0 < d < 2 ^ 64) (ashape mask) -> (Z.to_nat (prodz (ashape mask)) <= fuel)%nat ->
  prodz (ashape mask) <= 2147483647 -> (forall i, inb (ashape mask) i -> aget mask i = Ok (M i)) -> ashape a = ashape mask -> (forall i, inb (ashape a) i -> aget a i = Ok (F i)) ->
  exists w, nd_where fuel mask = Ok w /\ ashape (read_indexes w a) = [Z.of_nat (length (filter M (idxs (ashape mask))))] /\
    forall k, (k < length (filter M (idxs (ashape mask))))%nat -> aget (read_indexes w a) [Z.of_nat k] = Ok (nth k (map F (filter M (idxs (ashape mask)))) (F [])).
Proof.
  intros HN HS HU HP HM HA HF. destruct (where_value fuel mask M (conj HN (conj HS HU)) HP HM) as (w & E & S1 & G). exists w. split; [exact E|]. unfold read_indexes. cbn [ashape aget]. split; [exact S1|].
  intros k Hk. rewrite G by exact Hk. bsimp. rewrite (map_nth F). rewrite HF; [f_equal; f_equal; apply nth_indep; exact Hk|]. rewrite HA.
  assert (I : In (nth k (filter M (idxs (ashape mask))) []) (filter M (idxs (ashape mask)))) by (apply nth_In; exact Hk). apply filter_In in I. apply idxs_In. tauto.
Qed.

(** The components of zipped arrays are the arrays; arrays of different shapes are not zipped. *)
Theorem unzip_zip {A B} (a : array A) (b : array B) : ashape a = ashape b ->
  exists z, zip2 a b = Ok z /\ ashape (fst (unzip2 z)) = ashape a /\ ashape (snd (unzip2 z)) = ashape b /\
    forall i x y, aget a i = Ok x -> aget b i = Ok y -> aget (fst (unzip2 z)) i = Ok x /\ aget (snd (unzip2 z)) i = Ok y.
Proof.
  intros E. unfold zip2, binary_op. rewrite E, seq_eqb_refl. eexists. split; [reflexivity|]. cbn. split; [reflexivity|]. split; [reflexivity|]. intros i x y -> ->. bsimp. auto.
Qed.
Theorem zip_throws {A B} (a : array A) (b : array B) : ashape a <> ashape b -> zip2 a b = Throw LogicError.
Proof. intros H. unfold zip2, binary_op. rewrite seq_eqb_neq by exact H. reflexivity. Qed.

(** bounds_check: inside the shape nothing changes, outside it throws. *)
Theorem bounds_check_correct {A} (a : array A) (i : list Z) : length i = length (ashape a) -> Forall (fun x => 0 <= x) i ->
  ashape (bounds_check a) = ashape a /\ (inb (ashape a) i -> aget (bounds_check a) i = aget a i) /\ (~ inb (ashape a) i -> aget (bounds_check a) i = Throw OutOfRange).
Proof.
  intros HL HI. split; [reflexivity|]. assert (K : shape_contains (ashape a) i = true <-> inb (ashape a) i).
  { revert i HL HI. induction (ashape a) as [|d s IH]; intros [|x i] HL HI; cbn [length] in HL; try discriminate; cbn [shape_contains]; [split; [constructor|reflexivity]|]. inversion HI; subst.
    destruct (Z.leb_spec d x); [split; [discriminate|intros Q; inversion Q; subst; lia]|]. rewrite IH by (try assumption; lia). split; [intros; constructor; [lia|assumption]|intros Q; inversion Q; assumption]. }
  unfold bounds_check. cbn [aget]. destruct (shape_contains (ashape a) i); split; intros H; try reflexivity; exfalso; [apply H, K; reflexivity|apply K in H; discriminate].
Qed.

(** Examples: a 2 x 3 array of the numbers 0 to 5. *)
Definition six : array Z := mkarr [2; 3] (fun i => Ok (lin [2; 3] i)).
Example reshape_example : (do r <- reshape_backed [3; 2] [2; 3] [10; 11; 12; 13; 14; 15]; mapM (aget r) [[0; 1]; [1; 0]; [2; 1]]) = Ok [11; 12; 15].
Proof. reflexivity. Qed.
Example shift_example : (do r <- shift_by 1 (-2) six; do l <- mapM (aget r) [[0; 0]; [1; 0]]; Ok (ashape r, l)) = Ok ([2; 1], [2; 5]).
Proof. reflexivity. Qed.
Example freeze_example : (do r <- freeze_axis 1 2 six; do l <- mapM (aget r) [[0]; [1]]; Ok (ashape r, l)) = Ok ([2], [2; 5]).
Proof. reflexivity. Qed.
Example freeze_several_example : (do r <- freeze_axes [0; 2] [3; 1] (index_array [4; 5; 6]); do l <- aget r [2]; Ok (ashape r, l)) = Ok ([5], [3; 2; 1]).
Proof. reflexivity. Qed.
Example collect_example : (do r <- collect (arr_sum 10 0 Z.add) 0 six; do l <- mapM (aget r) [[0]; [1]; [2]]; do s <- arr_sum 10 0 Z.add r; Ok (ashape r, l, s)) = Ok ([3], [3; 5; 7], 15).
Proof. vm_compute. reflexivity. Qed.
Example read_where_example : (do w <- nd_where 10 (arr_map Z.even six); let r := read_indexes w six in do l <- mapM (aget r) [[0]; [1]; [2]]; Ok (ashape r, l)) = Ok ([3], [0; 2; 4]).
Proof. vm_compute. reflexivity. Qed.
Example zip_example : (do z <- zip2 six (arr_map Z.even six); aget z [1; 1]) = Ok (4, true).
Proof. reflexivity. Qed.
Example bounds_check_example : aget (bounds_check six) [1; 2] = Ok 5 /\ aget (bounds_check six) [1; 3] = Throw OutOfRange.
Proof. split; reflexivity. Qed.

Print Assumptions reshape_keeps_the_sequence.
Print Assumptions reshape_throws.
Print Assumptions reshape_large_refuted.
Print Assumptions shift_left.
Print Assumptions shift_right_refuted.
Print Assumptions shift_throws.
Print Assumptions freeze_one_axis.
Print Assumptions freeze_throws.
Print Assumptions freeze_several_axes.
Print Assumptions freeze_order_refuted.
Print Assumptions freeze_twice_refuted.
Print Assumptions collect_applies_to_rows.
Print Assumptions collect_throws.
Print Assumptions sums_along_an_axis.
Print Assumptions read_where.
Print Assumptions unzip_zip.
Print Assumptions zip_throws.
Print Assumptions bounds_check_correct.
