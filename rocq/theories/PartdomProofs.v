(** Lemmas for C97. *)
From Coq Require Import ZArith Reals List Bool Lia Lra Sorted.
From Verif Require Import Base NdModel NdSpec NdProofs NdProofs2 NdProofs3 NdOpsModel NdOpsProofs ProlongProofs MeshProps ParallelModel ParallelProofs ParallelProofs2 PartdomModel.
Import ListNotations.
Open Scope Z_scope.

(** Memory of an evaluated array: its elements in row-major order. *)
Lemma memory_value {A} fuel (d : A) (a : array A) F : ashape a <> [] -> Forall (fun e => 0 < e) (ashape a) -> prodz (ashape a) <= 2147483647 -> (Z.to_nat (prodz (ashape a)) <= fuel)%nat ->
  (forall i, inb (ashape a) i -> aget a i = Ok (F i)) -> evaluate_buffer fuel d a = Ok (map F (idxs (ashape a))).
Proof.
  intros Hne Hpos HP HF HV. unfold evaluate_buffer. pose proof (prodz_pos _ Hpos) as HP0. assert (HPw : prodz (ashape a) < two64) by (unfold two64; lia).
  assert (HN : Forall (fun e => 0 <= e) (ashape a)) by (eapply Forall_impl; [|exact Hpos]; cbn; lia).
  rewrite for_each_shape by (auto using pos_bounded).
  destruct (writes_spec (ashape a) (aget a) (idxs (ashape a)) HPw) with (b := repeat d (Z.to_nat (volume (ashape a)))) as (b' & E & EL & E1 & _).
  - apply Forall_forall. intros i Hi. apply idxs_In. exact Hi.
  - apply Forall_forall. intros i Hi. exists (F i). apply HV, idxs_In, Hi.
  - rewrite repeat_length, volume_prod by assumption. lia.
  - rewrite E. f_equal. rewrite repeat_length, volume_prod in EL by assumption.
    pose proof (idxs_length (ashape a) HN) as IL. apply (nth_ext _ _ d (F [])); [rewrite map_length, IL; exact EL|]. intros k Hk. rewrite map_nth.
    set (i := nth k (idxs (ashape a)) []). assert (Hi : In i (idxs (ashape a))) by (apply nth_In; lia).
    assert (LK : lin (ashape a) i = Z.of_nat k).
    { unfold i. rewrite <- (map_nth (lin (ashape a))). rewrite lin_idxs by exact HN. unfold zrange. rewrite (nth_indep _ _ (Z.of_nat 0)) by (rewrite map_length, seq_length; lia). rewrite map_nth, seq_nth by lia. reflexivity. }
    pose proof (E1 i Hi) as Q. rewrite LK, HV in Q by (apply idxs_In; exact Hi). unfold buf_read in Q. rewrite Nat2Z.id in Q. destruct (Z.leb_spec 0 (Z.of_nat k)); [|lia].
    destruct (nth_error b' k) as [v|] eqn:EN; [|discriminate]. injection Q as ->. apply nth_error_nth. exact EN.
Qed.

(** The selection of a file for an access pattern. *)
Lemma selected_one s c k : 0 <= c -> selected_on s c k 1 = map (fun x => s + x * k) (zrange c).
Proof.
  intros Hc. unfold selected_on, zrange. rewrite map_map. change (Z.to_nat 1) with 1%nat. cbn [seq map].
  induction (seq 0 (Z.to_nat c)) as [|y l IH]; [reflexivity|]. cbn [flat_map map app]. rewrite IH. f_equal. change (Z.of_nat 0) with 0. lia.
Qed.
Lemma map_index_val st fi ju : strided st fi ju -> forall x i, inb (counts st fi ju) (x :: i) -> match st, ju with s :: st', j :: ju' => map_index_from st ju (x :: i) = (s + x * j) :: map_index_from st' ju' i | _, _ => True end.
Proof.
  intros H x i Hi. destruct H as [|s f j st fi ju Hs Hj Hf HS]; [exact I|]. inversion Hi as [|? ? ? ? Hx Hr]; subst. cbn [map_index_from].
  pose proof (proj1 (count_lt s f j x ltac:(lia) Hj ltac:(lia)) ltac:(lia)) as Q.
  rewrite (w64_small j) by (unfold two64; lia). rewrite (w64_small (j * x)) by (unfold two64; nia). rewrite w64_small by (unfold two64; nia). f_equal. lia.
Qed.
Lemma selected_points st fi ju : strided st fi ju -> selected st (counts st fi ju) ju (map (fun _ => 1) st) = points st fi ju.
Proof.
  induction 1 as [|s f j st fi ju Hs Hj Hf HS IH]; [reflexivity|]. cbn [map counts selected]. pose proof (count_pos s f j ltac:(lia) Hj) as CP.
  rewrite selected_one by lia. unfold points in *. cbn [counts idxs]. rewrite flat_map_concat_map, map_map, <- flat_map_concat_map. rewrite IH.
  assert (K : forall l, (forall x, In x l -> 0 <= x < count s f j) ->
    flat_map (fun x => map (cons (s + x * j)) (map (map_index_from st ju) (idxs (counts st fi ju)))) l = map (map_index_from (s :: st) (j :: ju)) (flat_map (fun x => map (cons x) (idxs (counts st fi ju))) l)).
  { induction l as [|x l IHl]; intros HL; [reflexivity|]. cbn [flat_map]. rewrite map_app, IHl by (intros; apply HL; right; assumption). f_equal. rewrite !map_map. apply map_ext_in. intros i Hi.
    symmetry. apply (map_index_val (s :: st) (f :: fi) (j :: ju)); [constructor; assumption|]. cbn [counts]. constructor; [apply HL; left; reflexivity|apply idxs_In, Hi]. }
  apply K. intros x Hx. apply zrange_In. exact Hx.
Qed.
Lemma points_sorted st fi ju : strided st fi ju -> NoDup (points st fi ju).
Proof.
  intros H. unfold points. pose proof (counts_pos st fi ju H) as CP. assert (N : NoDup (idxs (counts st fi ju))) by (apply idxs_NoDup, Forall_pos_nonneg, CP).
  assert (INJ : forall i i', inb (counts st fi ju) i -> inb (counts st fi ju) i' -> map_index_from st ju i = map_index_from st ju i' -> i = i').
  { clear N CP. induction H as [|s f j st fi ju Hs Hj Hf HS IH]; intros i i' Hi Hi' E; [inversion Hi; inversion Hi'; reflexivity|]. cbn [counts] in *. inversion Hi as [|? x ? t Hx Ht]; subst. inversion Hi' as [|? x' ? t' Hx' Ht']; subst.
    rewrite (map_index_val (s :: st) (f :: fi) (j :: ju)) in E by (try (constructor; assumption); exact Hi). rewrite (map_index_val (s :: st) (f :: fi) (j :: ju)) in E by (try (constructor; assumption); exact Hi').
    injection E as E1 E2. assert (x = x') by nia. subst. f_equal. apply IH; assumption. }
  clear CP. assert (Q : forall l, NoDup l -> (forall i, In i l -> inb (counts st fi ju) i) -> NoDup (map (map_index_from st ju) l)).
  { induction l as [|i l IHl]; intros HN HL; [constructor|]. inversion HN; subst. cbn [map]. constructor; [|apply IHl; [assumption|intros; apply HL; right; assumption]].
    intros HI. apply in_map_iff in HI as (i' & E & HI). apply INJ in E; [subst; contradiction|apply HL; right; exact HI|apply HL; left; reflexivity]. }
  apply Q; [exact N|]. intros i Hi. apply idxs_In. exact Hi.
Qed.

Lemma put_out l : forall d j, ~ In j (map fst l) -> put d l j = d j.
Proof.
  induction l as [|[i v] l IH]; intros d j H; cbn [put]; [reflexivity|]. rewrite IH by (intros Q; apply H; right; exact Q). rewrite seq_eqb_neq; [reflexivity|]. intros E. apply H. left. exact E.
Qed.
Lemma put_in l : forall d i v, NoDup (map fst l) -> In (i, v) l -> put d l i = v.
Proof.
  induction l as [|[i v] l IH]; intros d j w HN HI; [destruct HI|]. cbn [map fst put] in *. inversion HN; subst. destruct HI as [E|HI]; [|apply IH; assumption].
  injection E as -> ->. rewrite put_out by assumption. rewrite seq_eqb_refl. reflexivity.
Qed.
Lemma combine_maps {A B C} (f : A -> B) (g : A -> C) l : combine (map f l) (map g l) = map (fun x => (f x, g x)) l.
Proof. induction l as [|x l IH]; [reflexivity|]. cbn. rewrite IH. reflexivity. Qed.

(** Writing an array whose shape is that of an access pattern. *)
Lemma write_region sel (d : dataset) (F : list Z -> R) : strided (ap_start sel) (ap_final sel) (ap_jumps sel) ->
  exists h, make_hdf5_hyperslab sel = Ok h /\ check_valid (length (ap_start sel)) h = Ok tt /\
    selected (sl_start h) (sl_count h) (sl_skips h) (sl_block h) = points (ap_start sel) (ap_final sel) (ap_jumps sel) /\
    exists d', write_selection d (selected (sl_start h) (sl_count h) (sl_skips h) (sl_block h)) (map F (idxs (sl_count h))) = Ok d' /\
      (forall i, inb (sl_count h) i -> d' (map_index sel i) = F i) /\ (forall j, ~ stops (ap_start sel) (ap_final sel) (ap_jumps sel) j -> d' j = d j).
Proof.
  intros H. unfold make_hdf5_hyperslab, ap_shape. rewrite (shape_from_counts _ _ _ H). bsimp. eexists. split; [reflexivity|]. cbn [sl_start sl_count sl_skips sl_block].
  destruct (strided_lengths _ _ _ H) as [L1 L2]. pose proof (counts_length _ _ _ H) as L3.
  split; [unfold check_valid; cbn [sl_start sl_count sl_skips sl_block]; rewrite map_length, L3, L2, <- L1, Nat.eqb_refl; reflexivity|].
  rewrite selected_points by exact H. split; [reflexivity|]. unfold write_selection, points. rewrite !map_length, Nat.eqb_refl. rewrite combine_maps. eexists. split; [reflexivity|].
  assert (N : NoDup (map fst (map (fun x => (map_index_from (ap_start sel) (ap_jumps sel) x, F x)) (idxs (counts (ap_start sel) (ap_final sel) (ap_jumps sel)))))) by (rewrite map_map; apply points_sorted; exact H).
  split.
  - intros i Hi. apply put_in; [exact N|]. apply in_map_iff. exists i. split; [reflexivity|apply idxs_In, Hi].
  - intros j Hj. apply put_out. rewrite map_map. intros Q. apply Hj. apply points_In; [exact H|exact Q].
Qed.

(** One block of the domain: an explicit pattern. *)
Section Block.
Variables (N b0 b1 b2 : Z).
Hypothesis HN : 1 <= N <= 2147483646.
Hypothesis HB : 0 < b0 <= N /\ 0 < b1 <= N /\ 0 < b2 <= N.
Definition box (x0 x1 x2 : Z) : access_pattern :=
  mkap [NdProofs3.bound x0 N b0; NdProofs3.bound x1 N b1; NdProofs3.bound x2 N b2]
       [NdProofs3.bound (x0 + 1) N b0; NdProofs3.bound (x1 + 1) N b1; NdProofs3.bound (x2 + 1) N b2] [1; 1; 1].
Lemma three_sane : Forall2 sane [N; N; N] [b0; b1; b2].
Proof. repeat constructor; unfold two64; nia. Qed.
Lemma box_bounds b x : 0 < b <= N -> 0 <= x < b -> 0 <= NdProofs3.bound x N b /\ NdProofs3.bound x N b < NdProofs3.bound (x + 1) N b /\ NdProofs3.bound (x + 1) N b <= N.
Proof. intros Hb Hx. destruct (bound_range x N b ltac:(lia) ltac:(lia) Hx). pose proof (bound_strict x N b ltac:(lia) ltac:(lia)). lia. Qed.
Lemma three_patterns : exists ps, create_access_pattern_array [N; N; N] [b0; b1; b2] = Ok ps /\ ashape ps = [b0; b1; b2] /\
  forall x0 x1 x2, 0 <= x0 < b0 -> 0 <= x1 < b1 -> 0 <= x2 < b2 -> aget ps [x0; x1; x2] = Ok (box x0 x1 x2).
Proof.
  unfold create_access_pattern_array. destruct (block_tables_spec _ _ three_sane) as [T _]. rewrite T by (repeat constructor; lia). bsimp. eexists. split; [reflexivity|]. split; [reflexivity|].
  intros x0 x1 x2 H0 H1 H2. unfold bounds_check. cbn [aget ashape]. assert (HI : inb [b0; b1; b2] [x0; x1; x2]) by (repeat constructor; lia).
  rewrite (proj2 (shape_contains_spec [b0; b1; b2] [x0; x1; x2] eq_refl ltac:(repeat constructor; lia)) HI).
  rewrite block_bounds_spec by (try exact three_sane; exact HI). bsimp. reflexivity.
Qed.

Variables x0 x1 x2 : Z.
Hypothesis HX : 0 <= x0 < b0 /\ 0 <= x1 < b1 /\ 0 <= x2 < b2.
Let s0 := NdProofs3.bound x0 N b0. Let s1 := NdProofs3.bound x1 N b1. Let s2 := NdProofs3.bound x2 N b2.
Let f0 := NdProofs3.bound (x0 + 1) N b0. Let f1 := NdProofs3.bound (x1 + 1) N b1. Let f2 := NdProofs3.bound (x2 + 1) N b2.
Lemma box_strided : strided (ap_start (box x0 x1 x2)) (ap_final (box x0 x1 x2)) (ap_jumps (box x0 x1 x2)).
Proof.
  destruct HX as (H0 & H1 & H2). destruct HB as (B0 & B1 & B2). pose proof (box_bounds b0 x0 B0 H0). pose proof (box_bounds b1 x1 B1 H1). pose proof (box_bounds b2 x2 B2 H2).
  cbn. repeat constructor; lia.
Qed.
Lemma box_counts : counts (ap_start (box x0 x1 x2)) (ap_final (box x0 x1 x2)) (ap_jumps (box x0 x1 x2)) = [f0 - s0; f1 - s1; f2 - s2].
Proof. cbn. unfold count. rewrite !Z.div_1_r. f_equal; [unfold f0, s0; lia|]. f_equal; [unfold f1, s1; lia|]. f_equal. unfold f2, s2. lia. Qed.
Definition cell_center (i : list Z) : point := (IZR (nth 0 i 0%Z) + / 2, IZR (nth 1 i 0%Z) + / 2, IZR (nth 2 i 0%Z) + / 2)%R.
Lemma three_index n0 n1 n2 i : inb [n0; n1; n2] i -> exists a b c, i = [a; b; c] /\ 0 <= a < n0 /\ 0 <= b < n1 /\ 0 <= c < n2.
Proof. intros H. inversion H as [|? a ? t Ha Ht]; subst. inversion Ht as [|? b ? u Hb Hu]; subst. inversion Hu as [|? c ? v Hc Hv]; subst. inversion Hv; subst. exists a, b, c. auto. Qed.
Lemma box_centers : exists v c, vertex_array (box x0 x1 x2) = Ok v /\ cell_center_array v = Ok c /\ reps c [f0 - s0; f1 - s1; f2 - s2] (fun i => cell_center (map_index (box x0 x1 x2) i)).
Proof.
  destruct HX as (H0 & H1 & H2). destruct HB as (B0 & B1 & B2). pose proof (box_bounds b0 x0 B0 H0) as Q0. pose proof (box_bounds b1 x1 B1 H1) as Q1. pose proof (box_bounds b2 x2 B2 H2) as Q2.
  fold s0 f0 in Q0. fold s1 f1 in Q1. fold s2 f2 in Q2. 
  set (reg := mkap [s0; s1; s2] [f0 + 1; f1 + 1; f2 + 1] [1; 1; 1]).
  assert (SR : strided (ap_start reg) (ap_final reg) (ap_jumps reg)) by (cbn; repeat constructor; lia).
  assert (ER : mkap (ap_start (box x0 x1 x2)) (map (fun x => w64 (x + 1)) (ap_final (box x0 x1 x2))) (ap_jumps (box x0 x1 x2)) = reg).
  { unfold box. cbn [ap_start ap_final ap_jumps map]. fold s0 s1 s2 f0 f1 f2. rewrite !w64_small by (unfold two64; lia). reflexivity. }
  unfold vertex_array. cbv zeta. rewrite ER. unfold ap_shape. rewrite (shape_from_counts _ _ _ SR). bsimp. cbn [reg ap_start ap_final ap_jumps counts]. unfold count. rewrite !Z.div_1_r.
  replace (f0 + 1 - s0 - 1 + 1) with (f0 - s0 + 1) by lia. replace (f1 + 1 - s1 - 1 + 1) with (f1 - s1 + 1) by lia. replace (f2 + 1 - s2 - 1 + 1) with (f2 - s2 + 1) by lia.
  assert (MI : forall r a b c, r = reg \/ r = box x0 x1 x2 -> 0 <= a <= N -> 0 <= b <= N -> 0 <= c <= N -> map_index r [a; b; c] = [s0 + a; s1 + b; s2 + c]).
  { intros r a b c Hr Ha Hb Hc. replace (map_index r [a; b; c]) with (map_index_from [s0; s1; s2] [1; 1; 1] [a; b; c]) by (destruct Hr; subst r; reflexivity). cbn [map_index_from]. change (w64 1) with 1. rewrite !Z.mul_1_l. rewrite !(w64_small a), !(w64_small b), !(w64_small c) by (unfold two64; lia). rewrite !w64_small by (unfold two64; lia). reflexivity. }
  set (V := fun i => point_of (map_index reg i)).
  assert (RV : reps (arr_map point_of (arr_map (map_index reg) (index_array [f0 - s0 + 1; f1 - s1 + 1; f2 - s2 + 1]))) [f0 - s0 + 1; f1 - s1 + 1; f2 - s2 + 1] V) by (split; reflexivity).
  destruct (midpoint_reps plus3 half3 0 _ [f0 - s0 + 1; f1 - s1 + 1; f2 - s2 + 1] V ltac:(repeat constructor; unfold two64; lia) ltac:(cbn; lia) ltac:(cbn; lia) RV) as (m0 & E0 & R0). cbn [upd nth] in R0.
  destruct (midpoint_reps plus3 half3 1 _ [f0 - s0 + 1 - 1; f1 - s1 + 1; f2 - s2 + 1] _ ltac:(repeat constructor; unfold two64; lia) ltac:(cbn; lia) ltac:(cbn; lia) R0) as (m1 & E1 & R1). cbn [upd nth] in R1.
  destruct (midpoint_reps plus3 half3 2 _ [f0 - s0 + 1 - 1; f1 - s1 + 1 - 1; f2 - s2 + 1] _ ltac:(repeat constructor; unfold two64; lia) ltac:(cbn; lia) ltac:(cbn; lia) R1) as (m2 & E2 & R2). cbn [upd nth] in R2. eexists. exists m2. split; [reflexivity|]. split; [unfold cell_center_array; rewrite E0; bsimp; rewrite E1; bsimp; exact E2|].
  replace (f0 - s0 + 1 - 1) with (f0 - s0) in R2 by lia. replace (f1 - s1 + 1 - 1) with (f1 - s1) in R2 by lia. replace (f2 - s2 + 1 - 1) with (f2 - s2) in R2 by lia.
  eapply reps_ext; [exact R2|]. intros i Hi. apply three_index in Hi as (a & b & c & -> & Ha & Hb & Hc). cbv beta. cbn [upd nth]. unfold V.
  rewrite !(MI reg) by (try (left; reflexivity); lia). rewrite (MI (box x0 x1 x2)) by (try (right; reflexivity); lia). unfold point_of, cell_center. cbn [nth plus3 half3]. rewrite !plus_IZR. f_equal; [f_equal|]; lra.
Qed.
End Block.
