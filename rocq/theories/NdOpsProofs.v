(** Selecting, concatenating, replacing, differencing. *)
From Coq Require Import ZArith Znumtheory List Lia Bool.
From Verif Require Import Base NdModel NdSpec NdProofs NdProofs2 NdProofs3 NdOpsModel.
Import ListNotations.
Open Scope Z_scope.

(** Two arrays are the same: same shape, same outcome at every in-range index. *)
Definition same {A} (a b : array A) : Prop :=
  ashape a = ashape b /\ forall i, inb (ashape a) i -> aget a i = aget b i.

(** A shape whose extents are values of size_t. *)
Definition okshape (s : list Z) : Prop := Forall (fun d => 0 <= d < two64) s.

Lemma upd_upd {A} n (v w : A) l : upd n v (upd n w l) = upd n v l.
Proof. revert n; induction l; destruct n; simpl; congruence. Qed.
Lemma upd_nth n (l : list Z) d : upd n (nth n l d) l = l.
Proof. revert n; induction l; destruct n; simpl; congruence. Qed.
Lemma nth_upd n (v : Z) l d : (n < length l)%nat -> nth n (upd n v l) d = v.
Proof. revert n; induction l; destruct n; simpl; intros; try lia; auto. apply IHl; lia. Qed.

Lemma inb_upd ax m x s i : inb s i -> 0 <= x < m -> inb (upd ax m s) (upd ax x i).
Proof.
  intros H Hx. revert ax; induction H; intros [|ax]; simpl; constructor; auto. apply IHForall2.
Qed.
Lemma inb_nth ax s i : inb s i -> (ax < length s)%nat -> 0 <= nth ax i 0 < nth ax s 0.
Proof.
  intros H; revert ax; induction H; intros [|ax] HL; simpl in *; try lia. apply IHForall2; lia.
Qed.
Lemma inb_upd_inv ax m s i : inb (upd ax m s) i -> (ax < length s)%nat ->
  0 <= nth ax i 0 < m /\ forall x, 0 <= x < nth ax s 0 -> inb s (upd ax x i).
Proof.
  intros H HL. split.
  - pose proof (inb_nth ax _ _ H). rewrite upd_length in H0. specialize (H0 HL). rewrite nth_upd in H0 by assumption. assumption.
  - intros x Hx. pose proof (inb_upd ax (nth ax s 0) x _ _ H Hx) as Q. rewrite upd_upd, upd_nth in Q. assumption.
Qed.
Lemma okshape_upd ax v s : okshape s -> 0 <= v < two64 -> okshape (upd ax v s).
Proof.
  unfold okshape. intros H Hv; revert ax; induction H; intros [|ax]; simpl; constructor; auto.
Qed.
Lemma okshape_nth ax s : okshape s -> (ax < length s)%nat -> 0 <= nth ax s 0 < two64.
Proof. intros H; revert ax; induction H; intros [|ax] HL; simpl in *; try lia; auto. apply IHForall; lia. Qed.

(** ** Unit-jump patterns *)

Lemma unit_axis s f : 0 <= s <= f -> f < two64 ->
  udiv (w64 (w64 (f - s) - 1)) (w64 1) = Ok (w64 (f - s - 1)) /\ w64 (w64 (f - s - 1) + 1) = f - s.
Proof.
  intros H Hf. unfold udiv. change (w64 1) with 1. change (1 =? 0) with false. cbv iota.
  rewrite (w64_small (f - s)) by lia. rewrite Z.div_1_r. split; [reflexivity|].
  unfold w64. rewrite Zplus_mod_idemp_l. rewrite Z.mod_small; lia.
Qed.

Lemma zeros_shape s : okshape s -> shape_from (map (fun _ => 0) s) s (map (fun _ => 1) s) = Ok s.
Proof.
  induction 1 as [|d s Hd Hs IH]; [reflexivity|]. cbn [map shape_from].
  destruct (unit_axis 0 d ltac:(lia) ltac:(lia)) as [E1 E2]. rewrite E1. bsimp. rewrite IH. bsimp. rewrite E2, Z.sub_0_r. reflexivity.
Qed.

Lemma axis_shape ax sh s f : okshape sh -> (ax < length sh)%nat -> 0 <= s <= f -> f < two64 ->
  shape_from (upd ax s (map (fun _ => 0) sh)) (upd ax f sh) (map (fun _ => 1) sh) = Ok (upd ax (f - s) sh).
Proof.
  intros H; revert ax; induction H as [|d sh Hd Hs IH]; intros [|ax] HL Hsf Hf; simpl in HL; try lia; cbn [map upd shape_from].
  - destruct (unit_axis s f ltac:(lia) ltac:(lia)) as [E1 E2]. rewrite E1. bsimp.
    rewrite zeros_shape by assumption. bsimp. rewrite E2. reflexivity.
  - destruct (unit_axis 0 d ltac:(lia) ltac:(lia)) as [E1 E2]. rewrite E1. bsimp. rewrite IH by (auto; lia). bsimp.
    rewrite E2, Z.sub_0_r. reflexivity.
Qed.

Lemma zeros_map sh i : inb sh i -> okshape sh -> map_index_from (map (fun _ => 0) sh) (map (fun _ => 1) sh) i = i.
Proof.
  induction 1 as [|d x sh i Hx Hi IH]; intros HO; [reflexivity|]. inversion HO; subst. cbn [map map_index_from].
  rewrite IH by assumption. f_equal. change (w64 1) with 1. rewrite (w64_small (1 * x)) by lia. rewrite w64_small; lia.
Qed.

Lemma axis_map ax sh s f i : okshape sh -> (ax < length sh)%nat -> 0 <= s <= f -> f < two64 ->
  inb (upd ax (f - s) sh) i ->
  map_index_from (upd ax s (map (fun _ => 0) sh)) (map (fun _ => 1) sh) i = upd ax (s + nth ax i 0) i.
Proof.
  intros H; revert ax i; induction H as [|d sh Hd Hs IH]; intros [|ax] i HL Hsf Hf Hi; simpl in HL; try lia;
    cbn [upd] in Hi; inversion Hi; subst; cbn [map upd map_index_from nth]; change (w64 1) with 1.
  - rewrite zeros_map by assumption. f_equal. rewrite (w64_small (1 * y)) by lia. rewrite w64_small; lia.
  - rewrite IH by (auto; lia). f_equal. rewrite (w64_small (1 * y)) by lia. rewrite w64_small; lia.
Qed.

Lemma upd_ones ax (sh : list Z) : upd ax 1 (map (fun _ => 1) sh) = map (fun _ => 1) sh.
Proof. revert ax; induction sh; intros [|ax]; simpl; congruence. Qed.

(** A slice of one axis. *)
Definition is_slice {A} (ax : nat) (s f : Z) (a r : array A) : Prop :=
  ashape r = upd ax (f - s) (ashape a) /\
  forall i, inb (ashape r) i -> aget r i = aget a (upd ax (s + nth ax i 0) i).

Lemma select_axis_slice {A} ax s f (from_end : bool) f0 (a : array A) : okshape (ashape a) -> (ax < length (ashape a))%nat ->
  0 <= s <= f -> f < two64 -> (if from_end then w64 (nth ax (ashape a) 0 - f0) else f0) = f ->
  exists r, select_axis ax s f0 1 from_end a = Ok r /\ is_slice ax s f a r.
Proof.
  intros HO HL Hsf Hf EF. unfold select_axis.
  destruct (Nat.leb_spec (length (ashape a)) ax); [lia|].
  unfold ap_shape, select_axis_pattern, map_index. cbn [ap_start ap_final ap_jumps make_access_pattern].
  rewrite upd_ones, EF. rewrite axis_shape by assumption. bsimp. eexists; split; [reflexivity|].
  split; [reflexivity|]. cbn [ashape aget]. intros i Hi. rewrite (axis_map ax _ s f) by assumption. reflexivity.
Qed.

Lemma select_axis_throws {A} ax s f j fe (a : array A) : (length (ashape a) <= ax)%nat -> select_axis ax s f j fe a = Throw LogicError.
Proof. intros H. unfold select_axis. destruct (Nat.leb_spec (length (ashape a)) ax); [reflexivity|lia]. Qed.

(** ** Concatenation *)

Definition is_concat {A} (ax : nat) (b a c : array A) : Prop :=
  ashape c = upd ax (nth ax (ashape a) 0 + nth ax (ashape b) 0) (ashape a) /\
  forall i, inb (ashape c) i ->
    aget c i = if nth ax i 0 <? nth ax (ashape a) 0 then aget a i
               else aget b (upd ax (nth ax i 0 - nth ax (ashape a) 0) i).

Lemma remove_axis_eq ax (u v : list Z) : length u = length v -> (ax < length u)%nat ->
  remove_axis ax u = remove_axis ax v <-> u = upd ax (nth ax u 0) v.
Proof.
  revert ax v; induction u as [|x u IH]; intros [|ax] [|y v] HL Hax; simpl in *; try lia; try discriminate.
  - split; [intros ->; reflexivity|intros E; injection E as ->; reflexivity].
  - injection HL as HL. split.
    + intros E; injection E as -> E. f_equal. apply IH; [assumption|lia|assumption].
    + intros E; injection E as -> E. f_equal. apply IH; [assumption|lia|assumption].
Qed.

Lemma concat_value {A} ax (b a : array A) : okshape (ashape a) -> okshape (ashape b) ->
  length (ashape b) = length (ashape a) -> (ax < length (ashape a))%nat ->
  remove_axis ax (ashape b) = remove_axis ax (ashape a) ->
  nth ax (ashape a) 0 + nth ax (ashape b) 0 < two64 ->
  exists c, concat_on ax b a = Ok c /\ is_concat ax b a c.
Proof.
  intros HA HB HLe HL HR HS. unfold concat_on. destruct (Nat.leb_spec (length (ashape a)) ax); [lia|].
  rewrite HR, seq_eqb_refl. cbn [negb]. pose proof (okshape_nth ax _ HA HL). pose proof (okshape_nth ax _ HB ltac:(lia)).
  eexists; split; [reflexivity|]. split.
  - cbn [ashape]. rewrite w64_small by lia. reflexivity.
  - cbn [ashape aget]. rewrite w64_small by lia. intros i Hi.
    destruct (inb_upd_inv _ _ _ _ Hi HL) as [Hn _].
    rewrite Z.leb_antisym. destruct (Z.ltb_spec (nth ax i 0) (nth ax (ashape a) 0)); cbn [negb]; [reflexivity|].
    rewrite w64_small by lia. reflexivity.
Qed.

Lemma concat_throws {A} ax (b a : array A) : length (ashape b) = length (ashape a) ->
  (exists c, concat_on ax b a = Ok c) /\ (ax < length (ashape a))%nat /\ remove_axis ax (ashape b) = remove_axis ax (ashape a)
  \/ concat_on ax b a = Throw LogicError /\ ~ ((ax < length (ashape a))%nat /\ remove_axis ax (ashape b) = remove_axis ax (ashape a)).
Proof.
  intros _. unfold concat_on. destruct (Nat.leb_spec (length (ashape a)) ax).
  - right; split; [reflexivity|lia].
  - destruct (seq_eqb (remove_axis ax (ashape b)) (remove_axis ax (ashape a))) eqn:E; cbn [negb].
    + left. apply seq_eqb_spec in E. split; [eexists; reflexivity|]. split; [lia|assumption].
    + right; split; [reflexivity|]. intros [_ Q]. rewrite Q, seq_eqb_refl in E. discriminate.
Qed.

(** Both parts of a concatenation can be selected back. *)
Lemma select_concat_first {A} ax (b a c r : array A) : (ax < length (ashape a))%nat ->
  okshape (ashape b) -> length (ashape b) = length (ashape a) ->
  is_concat ax b a c -> is_slice ax 0 (nth ax (ashape a) 0) c r -> same r a.
Proof.
  intros HL HB HLe [C1 C2] [S1 S2]. assert (ES : ashape r = ashape a).
  { rewrite S1, C1, upd_upd, Z.sub_0_r, upd_nth. reflexivity. }
  split; [assumption|]. intros i Hi. rewrite S2 by assumption. rewrite Z.add_0_l, upd_nth. rewrite ES in Hi.
  pose proof (inb_nth ax _ _ Hi HL). pose proof (okshape_nth ax _ HB ltac:(lia)). rewrite C2.
  - destruct (Z.ltb_spec (nth ax i 0) (nth ax (ashape a) 0)); [reflexivity|lia].
  - rewrite C1. rewrite <- (upd_nth ax i 0). apply inb_upd; [assumption|lia].
Qed.

Lemma select_concat_second {A} ax (b a c r : array A) : (ax < length (ashape a))%nat -> okshape (ashape a) ->
  length (ashape b) = length (ashape a) -> remove_axis ax (ashape b) = remove_axis ax (ashape a) ->
  is_concat ax b a c -> is_slice ax (nth ax (ashape a) 0) (nth ax (ashape a) 0 + nth ax (ashape b) 0) c r -> same r b.
Proof.
  intros HL HA HLe HR [C1 C2] [S1 S2].
  assert (EB : ashape b = upd ax (nth ax (ashape b) 0) (ashape a)) by (apply remove_axis_eq; [congruence|lia|assumption]).
  assert (ES : ashape r = ashape b).
  { rewrite S1, C1, upd_upd. rewrite EB at 2. f_equal. lia. }
  pose proof (okshape_nth ax _ HA HL) as HNA.
  split; [assumption|]. intros i Hi. rewrite S2 by assumption. rewrite ES in Hi.
  pose proof (inb_nth ax _ _ Hi ltac:(lia)). rewrite C2.
  - assert (HLi : (ax < length i)%nat) by (rewrite <- (inb_length _ _ Hi); lia).
    rewrite nth_upd by assumption.
    destruct (Z.ltb_spec (nth ax (ashape a) 0 + nth ax i 0) (nth ax (ashape a) 0)); [lia|].
    rewrite upd_upd. replace (nth ax (ashape a) 0 + nth ax i 0 - nth ax (ashape a) 0) with (nth ax i 0) by lia.
    rewrite upd_nth. reflexivity.
  - rewrite C1. replace (upd ax (nth ax (ashape a) 0 + nth ax (ashape b) 0) (ashape a))
      with (upd ax (nth ax (ashape a) 0 + nth ax (ashape b) 0) (ashape b)) by (rewrite EB, upd_upd; rewrite nth_upd by lia; reflexivity).
    apply inb_upd; [assumption|lia].
Qed.

(** An array is the concatenation of its parts. *)
Lemma concat_slices {A} ax k (a l r c : array A) : (ax < length (ashape a))%nat -> okshape (ashape a) ->
  0 <= k <= nth ax (ashape a) 0 ->
  is_slice ax 0 k a l -> is_slice ax k (nth ax (ashape a) 0) a r -> is_concat ax r l c -> same c a.
Proof.
  intros HL HO Hk [L1 L2] [R1 R2] [C1 C2]. rewrite Z.sub_0_r in L1.
  assert (NL : nth ax (ashape l) 0 = k) by (rewrite L1, nth_upd by assumption; reflexivity).
  assert (NR : nth ax (ashape r) 0 = nth ax (ashape a) 0 - k) by (rewrite R1, nth_upd by assumption; reflexivity).
  assert (ES : ashape c = ashape a).
  { rewrite C1, NL, NR, L1, upd_upd. replace (k + (nth ax (ashape a) 0 - k)) with (nth ax (ashape a) 0) by lia. apply upd_nth. }
  split; [assumption|]. intros i Hi. rewrite C2 by assumption. rewrite ES in Hi. rewrite NL.
  pose proof (inb_nth ax _ _ Hi HL).
  assert (HLi : (ax < length i)%nat) by (rewrite <- (inb_length _ _ Hi); lia).
  destruct (Z.ltb_spec (nth ax i 0) k).
  - rewrite L2; [rewrite Z.add_0_l, upd_nth; reflexivity|]. rewrite L1. rewrite <- (upd_nth ax i 0). apply inb_upd; [assumption|lia].
  - rewrite R2.
    + rewrite nth_upd by assumption. rewrite upd_upd. replace (k + (nth ax i 0 - k)) with (nth ax i 0) by lia. rewrite upd_nth. reflexivity.
    + rewrite R1. apply inb_upd; [assumption|lia].
Qed.

(** ** Replacement *)

Lemma replace_value {A} region (r a : array A) : strided_ap region ->
  ashape r = counts (ap_start region) (ap_final region) (ap_jumps region) ->
  length (ap_start region) = length (ashape a) -> okshape (ashape a) ->
  exists c, replace region r a = Ok c /\ ashape c = ashape a /\
   (forall i, inb (ashape r) i -> inb (ashape a) (map_index region i) -> aget c (map_index region i) = aget r i) /\
   (forall i, inb (ashape a) i -> ~ stops (ap_start region) (ap_final region) (ap_jumps region) i -> aget c i = aget a i).
Proof.
  intros HS ER HL HO. unfold replace, ap_shape. rewrite shape_from_counts by exact HS. bsimp. rewrite ER, seq_eqb_refl. cbn [negb].
  assert (RNG : forall i, inb (ashape a) i -> Forall (fun x => 0 <= x < two64) i).
  { intros i Hi. clear -Hi HO. induction Hi; inversion HO; subst; constructor; auto; lia. }
  eexists; split; [reflexivity|]. cbn [ashape aget]. split; [reflexivity|]. split.
  - intros i Hi Hin. unfold generates.
    destruct (generates_stops _ _ _ (map_index region i) HS) as (b & EG & Hb).
    { rewrite HL, (inb_length _ _ Hin). reflexivity. }
    { apply RNG; assumption. }
    rewrite EG. bsimp.
    assert (b = true).
    { apply Hb. apply points_In; [exact HS|]. apply in_map. apply idxs_In. assumption. }
    subst b. unfold inverse_map_index, map_index. rewrite (inverse_map _ _ _ _ HS Hi). bsimp. reflexivity.
  - intros i Hi Hn. unfold generates. destruct (generates_stops _ _ _ i HS) as (b & EG & Hb).
    { rewrite HL, (inb_length _ _ Hi). reflexivity. }
    { apply RNG; assumption. }
    rewrite EG. bsimp. destruct b; [exfalso; apply Hn, Hb; reflexivity|reflexivity].
Qed.

Lemma replace_throws {A} region (r a : array A) : strided_ap region ->
  ashape r <> counts (ap_start region) (ap_final region) (ap_jumps region) -> replace region r a = Throw LogicError.
Proof.
  intros HS HN. unfold replace, ap_shape. rewrite shape_from_counts by exact HS. bsimp.
  rewrite seq_eqb_neq by congruence. reflexivity.
Qed.

(** ** select_first and select_final *)

Lemma axis_map_shape ax sh s f : okshape sh -> (ax < length sh)%nat -> 0 <= s <= f -> f < two64 ->
  map_index_from (upd ax s (map (fun _ => 0) sh)) (map (fun _ => 1) sh) (upd ax (f - s) sh) = upd ax f sh.
Proof.
  assert (Z0 : forall sh, okshape sh -> map_index_from (map (fun _ => 0) sh) (map (fun _ => 1) sh) sh = sh).
  { clear. induction 1 as [|d sh Hd Hs IH]; [reflexivity|]. cbn [map map_index_from]. rewrite IH. f_equal.
    change (w64 1) with 1. rewrite (w64_small (1 * d)) by lia. rewrite w64_small; lia. }
  intros H; revert ax; induction H as [|d sh Hd Hs IH]; intros [|ax] HL Hsf Hf; simpl in HL; try lia;
    cbn [map upd map_index_from]; change (w64 1) with 1.
  - rewrite Z0 by assumption. f_equal. rewrite (w64_small (1 * (f - s))) by lia. rewrite w64_small; lia.
  - rewrite IH by (auto; lia). f_equal. rewrite (w64_small (1 * d)) by lia. rewrite w64_small; lia.
Qed.

Lemma axis_map_zero ax sh s : okshape sh -> 0 <= s < two64 ->
  map_index_from (upd ax s (map (fun _ => 0) sh)) (map (fun _ => 1) sh) (map (fun _ => 0) (upd ax s (map (fun _ => 0) sh)))
  = upd ax s (map (fun _ => 0) sh).
Proof.
  intros H Hs. assert (G : forall st, Forall (fun x => 0 <= x < two64) st -> length st = length sh ->
    map_index_from st (map (fun _ => 1) sh) (map (fun _ => 0) st) = st).
  { clear. revert sh. intros sh st HF; revert sh; induction HF; intros [|d sh] HL; try discriminate; [reflexivity|].
    cbn [map map_index_from]. rewrite IHHF by (simpl in HL; congruence). f_equal. change (w64 1) with 1.
    rewrite (w64_small (1 * 0)) by (unfold two64; lia). rewrite w64_small; lia. }
  apply G; [|rewrite upd_length, map_length; reflexivity].
  clear G. revert ax; induction H; intros [|ax]; simpl; constructor; auto; try (unfold two64; lia).
  apply Forall_forall. intros y Hy. apply in_map_iff in Hy as (? & <- & _). unfold two64; lia.
Qed.

Lemma leb_zeros ax sh v : okshape sh -> (ax < length sh)%nat ->
  idx_leb (upd ax v (map (fun _ => 0) sh)) sh = (v <=? nth ax sh 0).
Proof.
  assert (Z0 : forall sh, okshape sh -> idx_leb (map (fun _ => 0) sh) sh = true).
  { clear; induction 1; simpl; [reflexivity|]. destruct (Z.leb_spec 0 x); [assumption|lia]. }
  intros H; revert ax; induction H as [|d sh Hd Hs IH]; intros [|ax] HL; simpl in *; try lia.
  - destruct (v <=? d); [apply Z0; assumption|reflexivity].
  - destruct (Z.leb_spec 0 d); [|lia]. apply IH; lia.
Qed.
Lemma leb_upd ax sh v : okshape sh -> (ax < length sh)%nat -> idx_leb (upd ax v sh) sh = (v <=? nth ax sh 0).
Proof.
  assert (Z0 : forall sh, idx_leb sh sh = true).
  { clear; induction sh; simpl; [reflexivity|]. rewrite Z.leb_refl. assumption. }
  intros H; revert ax; induction H as [|d sh Hd Hs IH]; intros [|ax] HL; simpl in *; try lia.
  - destruct (v <=? d); [apply Z0|reflexivity].
  - rewrite Z.leb_refl. apply IH; lia.
Qed.

Lemma select_unit {A} ax s f (a : array A) : okshape (ashape a) -> (ax < length (ashape a))%nat ->
  0 <= s <= f -> f < two64 ->
  let p := mkap (upd ax s (map (fun _ => 0) (ashape a))) (upd ax f (ashape a)) (map (fun _ => 1) (ashape a)) in
  (f <= nth ax (ashape a) 0 -> exists r, select p a = Ok r /\ is_slice ax s f a r) /\
  (nth ax (ashape a) 0 < f -> select p a = Throw LogicError).
Proof.
  intros HO HL Hsf Hf p. subst p. unfold select, within, ap_shape, map_index, last_index. cbn [ap_start ap_final ap_jumps].
  rewrite axis_shape by assumption. bsimp.
  rewrite axis_map_zero by (assumption || lia). rewrite axis_map_shape by assumption.
  rewrite leb_zeros, leb_upd by assumption. split; intros Q.
  - destruct (Z.leb_spec s (nth ax (ashape a) 0)); [|lia]. destruct (Z.leb_spec f (nth ax (ashape a) 0)); [|lia]. cbn [andb negb].
    eexists; split; [reflexivity|]. split; [reflexivity|]. cbn [ashape aget]. intros i Hi. rewrite (axis_map ax _ s f) by assumption. reflexivity.
  - destruct (Z.leb_spec f (nth ax (ashape a) 0)); [lia|]. rewrite andb_false_r. reflexivity.
Qed.

Lemma nth_zeros ax (sh : list Z) : nth ax (map (fun _ => 0) sh) 0 = 0.
Proof. revert ax; induction sh; intros [|ax]; simpl; auto. Qed.
Lemma upd_zero ax (sh : list Z) : upd ax 0 (map (fun _ => 0) sh) = map (fun _ => 0) sh.
Proof. revert ax; induction sh; intros [|ax]; simpl; congruence. Qed.

Lemma select_first_value {A} ax g (a : array A) : okshape (ashape a) -> (ax < length (ashape a))%nat -> 0 <= g < two64 ->
  (g <= nth ax (ashape a) 0 -> exists r, select_first g ax a = Ok r /\ is_slice ax 0 g a r) /\
  (nth ax (ashape a) 0 < g -> select_first g ax a = Throw LogicError).
Proof.
  intros HO HL Hg. unfold select_first, last_index. rewrite nth_zeros, Z.add_0_l, w64_small by lia.
  cbn [make_access_pattern ap_jumps].
  pose proof (select_unit ax 0 g a HO HL ltac:(lia) ltac:(lia)) as Q. cbv zeta in Q. rewrite upd_zero in Q. exact Q.
Qed.

Lemma select_final_value {A} ax g (a : array A) : okshape (ashape a) -> (ax < length (ashape a))%nat -> 0 <= g < two64 ->
  (g <= nth ax (ashape a) 0 -> exists r, select_final g ax a = Ok r /\ is_slice ax (nth ax (ashape a) 0 - g) (nth ax (ashape a) 0) a r) /\
  (nth ax (ashape a) 0 < g -> select_final g ax a = Throw LogicError).
Proof.
  intros HO HL Hg. unfold select_final, last_index. cbn [make_access_pattern ap_jumps].
  pose proof (okshape_nth ax _ HO HL) as HN. split; intros Q.
  - rewrite w64_small by lia.
    pose proof (select_unit ax (nth ax (ashape a) 0 - g) (nth ax (ashape a) 0) a HO HL ltac:(lia) ltac:(lia)) as R. cbv zeta in R.
    rewrite upd_nth in R. apply R. lia.
  - (* the start wraps around to a value above the extent *)
    assert (EW : w64 (nth ax (ashape a) 0 - g) = nth ax (ashape a) 0 - g + two64).
    { unfold w64. rewrite <- (Z_mod_plus_full _ 1). rewrite Z.mod_small; lia. }
    unfold select, within, ap_shape, map_index, last_index. cbn [ap_start ap_final ap_jumps].
    assert (SH : exists s, shape_from (upd ax (w64 (nth ax (ashape a) 0 - g)) (map (fun _ => 0) (ashape a))) (ashape a) (map (fun _ => 1) (ashape a)) = Ok s).
    { clear. generalize (w64 (nth ax (ashape a) 0 - g)) as v. generalize (ashape a) as sh. intros sh v. revert ax.
      assert (G : forall st sh, exists s, shape_from st sh (map (fun _ => 1) sh) = Ok s).
      { clear. intros st sh; revert st; induction sh as [|d sh IH]; intros [|x st]; cbn [map shape_from]; try (eexists; reflexivity).
        change (w64 1) with 1. unfold udiv. change (1 =? 0) with false. cbv iota. bsimp.
        destruct (IH st) as [s E]. rewrite E. eexists; reflexivity. }
      intros; apply G. }
    destruct SH as [s ES]. rewrite ES. bsimp. rewrite axis_map_zero by (assumption || apply w64_range).
    rewrite leb_zeros by assumption.
    destruct (Z.leb_spec (w64 (nth ax (ashape a) 0 - g)) (nth ax (ashape a) 0)); [lia|]. reflexivity.
Qed.

(** ** Periodic extension *)

Definition is_periodic {A} (ax : nat) (g : Z) (a r : array A) : Prop :=
  ashape r = upd ax (nth ax (ashape a) 0 + 2 * g) (ashape a) /\
  forall i, inb (ashape r) i -> aget r i = aget a (upd ax ((nth ax i 0 - g) mod nth ax (ashape a) 0) i).

Lemma remove_upd ax (v : Z) l : remove_axis ax (upd ax v l) = remove_axis ax l.
Proof. revert ax; induction l; intros [|ax]; simpl; congruence. Qed.

Lemma extend_periodic_value {A} ax g (a : array A) : okshape (ashape a) -> (ax < length (ashape a))%nat -> 0 <= g < two64 ->
  nth ax (ashape a) 0 + 2 * g < two64 ->
  (g <= nth ax (ashape a) 0 -> exists r, extend_periodic_on_axis ax g a = Ok r /\ is_periodic ax g a r) /\
  (nth ax (ashape a) 0 < g -> extend_periodic_on_axis ax g a = Throw LogicError).
Proof.
  intros HO HL Hg HS. unfold extend_periodic_on_axis.
  destruct (select_first_value ax g a HO HL Hg) as [F1 F2]. destruct (select_final_value ax g a HO HL Hg) as [G1 G2].
  split; intros Q.
  2:{ rewrite F2 by assumption. reflexivity. }
  destruct (F1 Q) as (xl & EL & L1 & L2). destruct (G1 Q) as (xr & ER & R1 & R2). rewrite EL, ER. bsimp.
  set (n := nth ax (ashape a) 0) in *. pose proof (okshape_nth ax _ HO HL) as HN. fold n in HN.
  replace (n - (n - g)) with g in R1 by lia. rewrite Z.sub_0_r in L1.
  assert (NL : nth ax (ashape xl) 0 = g) by (rewrite L1, nth_upd by assumption; reflexivity).
  assert (NR : nth ax (ashape xr) 0 = g) by (rewrite R1, nth_upd by assumption; reflexivity).
  destruct (concat_value ax a xr) as (b & EB & B1 & B2).
  { rewrite R1; apply okshape_upd; [assumption|lia]. } { assumption. } { rewrite R1, upd_length; reflexivity. }
  { rewrite R1, upd_length; assumption. } { rewrite R1, remove_upd; reflexivity. } { rewrite NR; fold n; lia. }
  rewrite EB. bsimp. rewrite NR in B1, B2. fold n in B1. rewrite R1, upd_upd in B1.
  assert (NB : nth ax (ashape b) 0 = g + n) by (rewrite B1, nth_upd by assumption; reflexivity).
  destruct (concat_value ax xl b) as (c & EC & C1 & C2).
  { rewrite B1; apply okshape_upd; [assumption|lia]. } { rewrite L1; apply okshape_upd; [assumption|lia]. } { rewrite L1, B1, !upd_length; reflexivity. }
  { rewrite B1, upd_length; assumption. } { rewrite L1, B1, !remove_upd; reflexivity. } { rewrite NB, NL; lia. }
  exists c. split; [assumption|]. rewrite NB, NL, B1, upd_upd in C1. split; [rewrite C1; fold n; f_equal; lia|].
  intros i Hi. rewrite C2 by assumption. rewrite C1 in Hi. destruct (inb_upd_inv _ _ _ _ Hi HL) as [Hk HX]. fold n in HX.
  assert (HLi : (ax < length i)%nat) by (rewrite <- (inb_length _ _ Hi), upd_length; assumption).
  assert (HIn : forall m x, 0 <= x < m -> inb (upd ax m (ashape a)) (upd ax x i)).
  { intros m x Hx. rewrite <- (upd_upd ax m (g + n + g)). apply inb_upd; assumption. }
  rewrite NB. fold n. destruct (Z.ltb_spec (nth ax i 0) (g + n)).
  - rewrite B2 by (rewrite B1; rewrite <- (upd_nth ax i 0); apply HIn; lia).
    destruct (Z.ltb_spec (nth ax i 0) g).
    + rewrite R2 by (rewrite R1; rewrite <- (upd_nth ax i 0); apply HIn; lia).
      f_equal. f_equal. rewrite <- (Z_mod_plus_full _ 1). rewrite Z.mod_small; lia.
    + f_equal. f_equal. rewrite Z.mod_small; lia.
  - rewrite L2 by (rewrite L1; apply HIn; lia). rewrite nth_upd by assumption. rewrite upd_upd. f_equal. f_equal.
    replace (nth ax i 0 - g) with (nth ax i 0 - (g + n) + 1 * n) by lia. rewrite Z_mod_plus_full, Z.mod_small; lia.
Qed.

(** ** Differences *)

Lemma difference_value {A} (sub : A -> A -> A) ax (a : array A) : okshape (ashape a) -> (ax < length (ashape a))%nat ->
  0 < nth ax (ashape a) 0 ->
  exists r, difference_on_axis sub ax a = Ok r /\ ashape r = upd ax (nth ax (ashape a) 0 - 1) (ashape a) /\
  forall i, inb (ashape r) i ->
    aget r i = do x <- aget a (upd ax (1 + nth ax i 0) i); do y <- aget a i; Ok (sub x y).
Proof.
  intros HO HL HN. pose proof (okshape_nth ax _ HO HL) as HN'. unfold difference_on_axis.
  destruct (select_axis_slice ax 1 (nth ax (ashape a) 0) true 0 a HO HL ltac:(lia) ltac:(lia)) as (r & ER & R1 & R2).
  { rewrite Z.sub_0_r. apply w64_small; lia. }
  destruct (select_axis_slice ax 0 (nth ax (ashape a) 0 - 1) true 1 a HO HL ltac:(lia) ltac:(lia)) as (l & EL & L1 & L2).
  { apply w64_small; lia. }
  rewrite ER, EL. bsimp. unfold binary_op. rewrite R1, L1, Z.sub_0_r, seq_eqb_refl.
  eexists; split; [reflexivity|]. cbn [ashape aget]. split; [reflexivity|]. intros i Hi.
  rewrite R2 by (rewrite R1; assumption). rewrite L2 by (rewrite L1, Z.sub_0_r; assumption).
  rewrite Z.add_0_l, upd_nth. reflexivity.
Qed.

(** Differencing an empty axis does not give an empty array. *)
Lemma difference_empty {A} (sub : A -> A -> A) (a : array A) : ashape a = [0] ->
  exists r, difference_on_axis sub 0 a = Ok r /\ ashape r = [two64 - 1].
Proof.
  intros E. unfold difference_on_axis, select_axis, ap_shape, select_axis_pattern. rewrite E. cbn.
  eexists; split; reflexivity.
Qed.

(** ** Sums in an abelian group *)
Section Sums.
Context {A : Type} (zero : A) (add sub : A -> A -> A).
Hypothesis add_comm : forall x y, add x y = add y x.
Hypothesis add_assoc : forall x y z, add x (add y z) = add (add x y) z.
Hypothesis add_0 : forall x, add zero x = x.
Hypothesis sub_add : forall x y, add (sub x y) y = x.

Fixpoint total {I} (F : I -> A) (l : list I) : A :=
  match l with [] => zero | i :: l' => add (F i) (total F l') end.

Lemma total_app {I} (F : I -> A) l1 l2 : total F (l1 ++ l2) = add (total F l1) (total F l2).
Proof. clear sub sub_add add_comm. induction l1; simpl; [rewrite add_0; reflexivity|]. rewrite IHl1, add_assoc. reflexivity. Qed.
Lemma total_map {I J} (g : J -> I) (F : I -> A) l : total F (map g l) = total (fun j => F (g j)) l.
Proof. clear sub sub_add add_comm add_assoc add_0. induction l; simpl; congruence. Qed.
Lemma total_ext {I} (F G : I -> A) l : (forall i, In i l -> F i = G i) -> total F l = total G l.
Proof.
  clear sub sub_add add_comm add_assoc add_0. induction l; intros H; simpl; [reflexivity|]. rewrite H by (left; reflexivity). rewrite IHl; auto. intros; apply H; right; assumption.
Qed.
Lemma total_flat {I J} (g : J -> list I) (F : I -> A) l : total F (flat_map g l) = total (fun j => total F (g j)) l.
Proof. clear sub sub_add add_comm. induction l; simpl; [reflexivity|]. rewrite total_app, IHl. reflexivity. Qed.
Lemma add_swap a b c d : add (add a b) (add c d) = add (add a c) (add b d).
Proof.
  clear sub sub_add add_0. rewrite <- !add_assoc. f_equal. rewrite !add_assoc. f_equal. apply add_comm.
Qed.
Lemma total_plus {I} (F G : I -> A) l : total (fun i => add (F i) (G i)) l = add (total F l) (total G l).
Proof. clear sub sub_add. induction l; simpl; [rewrite add_0; reflexivity|]. rewrite IHl. apply add_swap. Qed.
Lemma cancel x y z : add x z = add y z -> x = y.
Proof.
  intros E. assert (Q : forall u, add (add u z) (sub zero z) = u).
  { intros u. rewrite <- add_assoc. rewrite (add_comm z), sub_add. rewrite add_comm. apply add_0. }
  rewrite <- (Q x), <- (Q y), E. reflexivity.
Qed.
Lemma sub_total {I} (F G : I -> A) l : add (total (fun i => sub (F i) (G i)) l) (total G l) = total F l.
Proof. rewrite <- total_plus. apply total_ext. intros; apply sub_add. Qed.
Lemma sub_self x : sub x x = zero.
Proof. apply (cancel _ _ x). rewrite sub_add, add_0. reflexivity. Qed.

(** One axis telescopes: the sum over all indexes of the differences is the sum over the
    last slice minus the sum over the first. *)
Lemma telescope1 (G : Z -> A) n : 0 <= n -> total (fun k => sub (G (1 + k)) (G k)) (zrange n) = sub (G n) (G 0).
Proof.
  intros Hn. unfold zrange. rewrite total_map.
  assert (Q : forall m, total (fun j => sub (G (1 + Z.of_nat j)) (G (Z.of_nat j))) (seq 0 m) = sub (G (Z.of_nat m)) (G 0)).
  { induction m as [|m IH]; [simpl; rewrite sub_self; reflexivity|].
    rewrite seq_S, total_app. cbn [total]. rewrite IH. rewrite (add_comm _ zero), add_0.
    replace (1 + Z.of_nat (0 + m)) with (Z.of_nat (S m)) by lia. rewrite Nat.add_0_l.
    apply (cancel _ _ (G 0)). rewrite sub_add, <- add_assoc. rewrite (add_comm (sub (G (Z.of_nat (S m))) _)), add_assoc, sub_add.
    rewrite add_comm. apply sub_add. }
  rewrite Q, Z2Nat.id by lia. reflexivity.
Qed.

Lemma total_swap {I J} (F : I -> J -> A) l m :
  total (fun i => total (fun j => F i j) m) l = total (fun j => total (fun i => F i j) l) m.
Proof.
  clear sub sub_add. induction l as [|i l IH]; cbn [total].
  - induction m; simpl; [reflexivity|]. rewrite add_0. assumption.
  - rewrite IH. symmetry. apply total_plus.
Qed.

Lemma telescope ax s n (G : list Z -> A) : (ax < length s)%nat -> 0 <= n ->
  total (fun i => sub (G (upd ax (1 + nth ax i 0) i)) (G i)) (idxs (upd ax n s))
  = total (fun i => sub (G (upd ax n i)) (G (upd ax 0 i))) (idxs (upd ax 1 s)).
Proof.
  intros HL Hn. revert ax HL G; induction s as [|d s IH]; intros [|ax] HL G; simpl in HL; try lia; cbn [upd idxs].
  - rewrite !total_flat. change (zrange 1) with [0]. cbn [total]. rewrite (add_comm _ zero), add_0.
    rewrite total_map. cbn [upd].
    transitivity (total (fun x => total (fun t => sub (G (1 + x :: t)) (G (x :: t))) (idxs s)) (zrange n)).
    + apply total_ext. intros x _. rewrite total_map. reflexivity.
    + rewrite total_swap. apply total_ext. intros t _. apply (telescope1 (fun k => G (k :: t))). assumption.
  - rewrite !total_flat. apply total_ext. intros x _. rewrite !total_map. cbn [upd nth].
    apply (IH ax ltac:(lia) (fun t => G (x :: t))).
Qed.

Lemma arr_sum_total fuel (a : array A) (F : list Z -> A) : ashape a <> [] -> Forall (fun d => 0 < d < two64) (ashape a) ->
  (Z.to_nat (prodz (ashape a)) <= fuel)%nat -> (forall i, inb (ashape a) i -> aget a i = Ok (F i)) ->
  arr_sum fuel zero add a = Ok (total F (idxs (ashape a))).
Proof.
  intros Hne Hs Hf HF. unfold arr_sum. rewrite for_each_shape by assumption.
  assert (Q : forall l acc, (forall i, In i l -> aget a i = Ok (F i)) ->
    foldM (fun s i => do x <- aget a i; Ok (add s x)) acc l = Ok (add acc (total F l))).
  { induction l as [|i l IH]; intros acc H; cbn [foldM total]; [rewrite add_comm, add_0; reflexivity|].
    rewrite H by (left; reflexivity). bsimp. rewrite IH by (intros; apply H; right; assumption). rewrite add_assoc. reflexivity. }
  rewrite Q, add_0; [reflexivity|]. intros i Hi. apply HF, idxs_In. assumption.
Qed.
End Sums.
