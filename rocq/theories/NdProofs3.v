(** Materialising arrays, selections inside a parent, partitions. *)
From Coq Require Import ZArith Znumtheory List Lia Bool Sorting.Sorted Sorting.Permutation.
From Verif Require Import Base NdModel NdSpec NdProofs NdProofs2.
Import ListNotations.
Open Scope Z_scope.

Lemma upd_length {A} n (v : A) l : length (upd n v l) = length l.
Proof. revert n; induction l; destruct n; simpl; congruence. Qed.
Lemma upd_same {A} n (v : A) l : (n < length l)%nat -> nth_error (upd n v l) n = Some v.
Proof. revert n; induction l; destruct n; simpl; intros; try lia; auto. apply IHl; lia. Qed.
Lemma upd_other {A} n m (v : A) l : n <> m -> nth_error (upd n v l) m = nth_error l m.
Proof. revert n m; induction l; destruct n, m; simpl; intros; try lia; auto. Qed.

Lemma buf_write_ok {A} (b : list A) k v :
  0 <= k < Z.of_nat (length b) -> buf_write b k v = Ok (upd (Z.to_nat k) v b).
Proof.
  intros H. unfold buf_write. destruct (Z.leb_spec 0 k); [|lia]. destruct (Z.ltb_spec k (Z.of_nat (length b))); [reflexivity|lia].
Qed.
Lemma buf_read_upd_same {A} (b : list A) k v :
  0 <= k < Z.of_nat (length b) -> buf_read (upd (Z.to_nat k) v b) k = Ok v.
Proof.
  intros H. unfold buf_read. destruct (Z.leb_spec 0 k); [|lia]. rewrite upd_same by lia. reflexivity.
Qed.
Lemma buf_read_upd_other {A} (b : list A) k m v : 0 <= k -> k <> m ->
  buf_read (upd (Z.to_nat k) v b) m = buf_read b m.
Proof.
  intros H Hn. unfold buf_read. destruct (Z.leb_spec 0 m); [|reflexivity]. rewrite upd_other by lia. reflexivity.
Qed.

Lemma idx_eq_dec (i j : list Z) : {i = j} + {i <> j}.
Proof. apply list_eq_dec, Z.eq_dec. Qed.

(** Writing the values of a function at the offsets of a list of in-range indexes. *)
Lemma writes_spec {A} s (F : list Z -> outcome A) W : prodz s < two64 ->
  Forall (inb s) W -> Forall (fun i => exists v, F i = Ok v) W ->
  forall b, Z.of_nat (length b) = prodz s ->
  exists b', foldM (fun b i => do v <- F i; buf_write b (compute_offset (strides_row_major s) i) v) b W = Ok b'
    /\ length b' = length b
    /\ (forall i, In i W -> buf_read b' (lin s i) = F i)
    /\ (forall i, inb s i -> ~ In i W -> buf_read b' (lin s i) = buf_read b (lin s i)).
Proof.
  intros HP. induction W as [|w W IH]; intros HI HF b HB.
  - exists b. repeat split; simpl; auto. intros i [].
  - inversion HI; subst. inversion HF as [|? ? [v Hv] HF']; subst.
    pose proof (lin_range _ _ H1) as HR.
    destruct (IH H2 HF' (upd (Z.to_nat (lin s w)) v b)) as (b' & E & EL & E1 & E2).
    { rewrite upd_length; assumption. }
    exists b'. cbn [foldM]. rewrite Hv. bsimp. rewrite offset_lin by assumption.
    rewrite buf_write_ok by lia. bsimp. split; [exact E|]. split; [rewrite EL; apply upd_length|]. split.
    + intros i [<-|Hi]; [|auto].
      destruct (in_dec idx_eq_dec w W) as [Hin|Hnin]; [auto|].
      rewrite E2 by assumption. rewrite Hv. apply buf_read_upd_same. lia.
    + intros i Hi Hn. rewrite E2; [|assumption|intros Q; apply Hn; right; assumption].
      apply buf_read_upd_other; [lia|]. intros Q. apply Hn. left. eapply lin_inj; eassumption.
Qed.

Lemma pos_bounded s : Forall (fun d => 0 < d) s -> prodz s < two64 -> Forall (fun d => 0 < d < two64) s.
Proof.
  induction 1 as [|d s Hd Hs IH]; intros HP; constructor.
  - pose proof (prodz_pos _ Hs). simpl in HP. nia.
  - apply IH. pose proof (prodz_pos _ Hs). simpl in HP. nia.
Qed.

Lemma evaluate_spec {A} fuel (d : A) (a : array A) :
  ashape a <> [] -> Forall (fun e => 0 < e) (ashape a) -> prodz (ashape a) <= 2147483647 ->
  (Z.to_nat (prodz (ashape a)) <= fuel)%nat ->
  (forall i, inb (ashape a) i -> exists v, aget a i = Ok v) ->
  exists a', evaluate fuel d a = Ok a' /\ ashape a' = ashape a
    /\ forall i, inb (ashape a) i -> aget a' i = aget a i.
Proof.
  intros Hne Hpos HP HF HV. unfold evaluate, evaluate_buffer.
  pose proof (prodz_pos _ Hpos) as HP0.
  assert (HPw : prodz (ashape a) < two64) by (unfold two64; lia).
  rewrite for_each_shape by (auto using pos_bounded).
  destruct (writes_spec (ashape a) (aget a) (idxs (ashape a)) HPw) with (b := repeat d (Z.to_nat (volume (ashape a))))
    as (b' & E & EL & E1 & _).
  - apply Forall_forall. intros i Hi; apply idxs_In; assumption.
  - apply Forall_forall. intros i Hi; apply HV, idxs_In; assumption.
  - rewrite repeat_length, volume_prod by assumption. lia.
  - rewrite E. bsimp. unfold make_backed. rewrite EL, repeat_length.
    rewrite volume_prod by assumption.
    destruct (Z.eqb_spec (prodz (ashape a)) (Z.of_nat (Z.to_nat (prodz (ashape a))))); [|lia].
    eexists; split; [reflexivity|]. split; [reflexivity|]. intros i Hi. simpl.
    rewrite offset_lin by assumption. apply E1, idxs_In; assumption.
Qed.

(** ** within *)

Lemma within_axes st fi ju p : strided st fi ju -> length p = length st ->
  (idx_leb (map_index_from st ju (map (fun _ => 0) st)) p &&
   idx_leb (map_index_from st ju (counts st fi ju)) p = true) <->
  Forall2 Z.le (map_index_from st ju (counts st fi ju)) p.
Proof.
  intros HS HL. rewrite (map_index_zero _ _ _ HS).
  assert (LM : length (map_index_from st ju (counts st fi ju)) = length p).
  { rewrite HL. clear HL p. induction HS; simpl; congruence. }
  rewrite andb_true_iff, !idx_leb_spec by congruence. split; [tauto|]. intros H; split; [|assumption].
  clear LM. revert p HL H. induction HS as [|s f j st fi ju Hs Hj Hf HS IH]; intros p HL H; simpl in H; inversion H; subst; constructor.
  - pose proof (count_pos s f j ltac:(lia) Hj).
    assert (s + j * (count s f j - 1) < f) by (apply count_lt; lia).
    rewrite (w64_small j) in H2 by (unfold two64; lia).
    rewrite (w64_small (j * _)) in H2 by (unfold two64; nia).
    rewrite w64_small in H2 by (unfold two64; nia). nia.
  - apply IH; [simpl in HL; congruence|assumption].
Qed.

Lemma map_count_value s f j : 0 <= s < f -> 0 < j -> f + j <= two64 ->
  w64 (s + w64 (w64 j * count s f j)) = s + j * count s f j /\ f <= s + j * count s f j < f + j.
Proof.
  intros Hs Hj Hf. pose proof (count_pos s f j ltac:(lia) Hj).
  assert (s + j * (count s f j - 1) < f) by (apply count_lt; lia).
  assert (f <= s + j * count s f j).
  { destruct (Z.le_gt_cases f (s + j * count s f j)); [assumption|].
    assert (count s f j < count s f j) by (apply count_lt; lia). lia. }
  rewrite (w64_small j) by (unfold two64 in *; lia).
  rewrite (w64_small (j * _)) by (unfold two64 in *; nia).
  rewrite w64_small by (unfold two64 in *; nia). split; [reflexivity|nia].
Qed.

Lemma within_sound a p i : strided_ap a -> length p = length (ap_start a) ->
  within a p = Ok true -> stops (ap_start a) (ap_final a) (ap_jumps a) i -> inb p i.
Proof.
  unfold strided_ap, within, map_index, last_index, ap_shape. intros HS HL HW.
  rewrite shape_from_counts in HW by assumption. revert HW; bsimp; intros HW.
  assert (HW' := f_equal (fun o => match o with Ok b => b | _ => false end) HW). simpl in HW'.
  apply (within_axes _ _ _ p HS HL) in HW'. clear HW. revert i p HL HW'.
  generalize dependent (ap_start a). generalize dependent (ap_final a). generalize dependent (ap_jumps a).
  intros ju fi st HS. induction HS as [|s f j st fi ju Hs Hj Hf HS IH]; intros i p HL HW HI; inversion HI; subst; simpl in HW; inversion HW; subst; constructor.
  - pose proof (map_count_value s f j Hs Hj Hf) as [E1 E2]. rewrite E1 in *.
    match goal with Q : stop _ _ _ _ |- _ => destruct Q as (k & ? & -> & ?) end. nia.
  - apply IH; auto.
Qed.

(** Without jumps the test is exact. *)
Lemma within_exact a p : strided_ap a -> length p = length (ap_start a) ->
  ap_jumps a = map (fun _ => 1) (ap_start a) ->
  exists b, within a p = Ok b /\
   (b = true <-> forall i, stops (ap_start a) (ap_final a) (ap_jumps a) i -> inb p i).
Proof.
  intros HS HL HJ. unfold within, map_index, last_index, ap_shape.
  rewrite shape_from_counts by assumption. bsimp. eexists; split; [reflexivity|]. split.
  - intros HB i Hi. eapply within_sound; try eassumption.
    unfold within, map_index, last_index, ap_shape. rewrite shape_from_counts by assumption. bsimp. rewrite HB. reflexivity.
  - intros HI. apply (within_axes _ _ _ p HS HL).
    unfold strided_ap in HS. revert p HL HI HJ.
    generalize dependent (ap_start a). generalize dependent (ap_final a). generalize dependent (ap_jumps a).
    intros ju fi st HS. induction HS as [|s f j st fi ju Hs Hj Hf HS IH]; intros [|q p] HL HI HJ; try discriminate; simpl; constructor.
    + pose proof (map_count_value s f j Hs Hj Hf) as [E1 E2]. rewrite E1. injection HJ as -> HJ.
      assert (E : stops (s :: st) (f :: fi) (1 :: ju) (f - 1 :: st)).
      { constructor; [exists (f - 1 - s); lia|]. destruct (points_hd _ _ _ HS) as [t Ht].
        apply points_In; [assumption|]. rewrite Ht; left; reflexivity. }
      apply HI in E. inversion E; subst. lia.
    + injection HJ as -> HJ. apply IH; [simpl in HL; congruence| |assumption].
      intros i Hi. assert (E : stops (s :: st) (f :: fi) (1 :: ju) (s :: i)).
      { constructor; [exists 0; lia|assumption]. }
      apply HI in E. inversion E; assumption.
Qed.

(** ** Partitions *)

Definition bound (n e P : Z) : Z := n * e / P.

Lemma partition_bound_value n e P : 0 < P -> 0 <= n <= P -> 0 <= e -> P * e < two64 -> n < two64 ->
  partition_bound n e P = Ok (bound n e P).
Proof.
  intros HP Hn He HB Hn64. unfold partition_bound, udiv. destruct (Z.eqb_spec P 0); [lia|].
  rewrite (w64_small n) by lia. rewrite w64_small; [reflexivity|]. nia.
Qed.

Lemma bound_0 e P : 0 < P -> bound 0 e P = 0.
Proof. intros; unfold bound; apply Z.div_0_l; lia. Qed.
Lemma bound_P e P : 0 < P -> bound P e P = e.
Proof. intros; unfold bound. rewrite Z.mul_comm. apply Z.div_mul; lia. Qed.
Lemma bound_mono n m e P : 0 < P -> 0 <= e -> n <= m -> bound n e P <= bound m e P.
Proof. intros; unfold bound; apply Z.div_le_mono; nia. Qed.
Lemma bound_step n e P : 0 < P -> 0 <= e -> e / P <= bound (n + 1) e P - bound n e P <= e / P + 1.
Proof.
  intros HP He. unfold bound.
  pose proof (Z.div_mod e P ltac:(lia)). pose proof (Z.mod_pos_bound e P HP).
  pose proof (Z.div_mod (n * e) P ltac:(lia)). pose proof (Z.mod_pos_bound (n * e) P HP).
  pose proof (Z.div_mod ((n + 1) * e) P ltac:(lia)). pose proof (Z.mod_pos_bound ((n + 1) * e) P HP).
  nia.
Qed.
Lemma bound_strict n e P : 0 < P -> P <= e -> bound n e P < bound (n + 1) e P.
Proof.
  intros HP He. pose proof (bound_step n e P HP ltac:(lia)).
  assert (1 <= e / P) by (apply Z.div_le_lower_bound; lia). lia.
Qed.

Lemma bound_find e P x : 0 < P -> 0 <= x < e -> exists n, 0 <= n < P /\ bound n e P <= x < bound (n + 1) e P.
Proof.
  intros HP Hx.
  assert (G : forall k : nat, Z.of_nat k <= P -> x < bound (Z.of_nat k) e P ->
            exists n, 0 <= n < Z.of_nat k /\ bound n e P <= x < bound (n + 1) e P).
  { induction k as [|k IH]; intros Hk Hlt.
    - change (Z.of_nat 0) with 0 in Hlt. rewrite bound_0 in Hlt; lia.
    - destruct (Z.lt_ge_cases x (bound (Z.of_nat k) e P)) as [C|C].
      + destruct (IH ltac:(lia) C) as (n & Hn & Hb). exists n; split; [lia|assumption].
      + exists (Z.of_nat k). replace (Z.of_nat k + 1) with (Z.of_nat (S k)) by lia. lia. }
  destruct (G (Z.to_nat P)) as (n & Hn & Hb).
  - lia.
  - rewrite Z2Nat.id by lia. rewrite bound_P; lia.
  - exists n; split; [lia|assumption].
Qed.

Lemma bound_unique e P x n m : 0 < P -> 0 <= e ->
  bound n e P <= x < bound (n + 1) e P -> bound m e P <= x < bound (m + 1) e P -> n = m.
Proof.
  intros HP He Hn Hm. destruct (Z.lt_trichotomy n m) as [C|[C|C]]; [|assumption|].
  - pose proof (bound_mono (n + 1) m e P HP He ltac:(lia)). lia.
  - pose proof (bound_mono (m + 1) n e P HP He ltac:(lia)). lia.
Qed.

Lemma partition_region_value e s P n : 0 < P < two64 -> 0 <= n < P -> 0 <= e -> P * e < two64 ->
  partition_region (e :: s) P n =
  Ok (mkap (bound n e P :: map (fun _ => 0) s) (bound (n + 1) e P :: s) (1 :: map (fun _ => 1) s)).
Proof.
  intros HP Hn He HB. unfold partition_region. cbn [hd].
  rewrite partition_bound_value by lia. bsimp.
  rewrite w64_small by lia. rewrite partition_bound_value by lia. bsimp. reflexivity.
Qed.

Lemma region_strided e s P n : 0 < P < two64 -> 0 <= n < P -> P <= e -> P * e < two64 -> e < two64 ->
  Forall (fun d => 0 < d < two64) s ->
  strided (bound n e P :: map (fun _ => 0) s) (bound (n + 1) e P :: s) (1 :: map (fun _ => 1) s).
Proof.
  intros HP Hn He HB He64 Hs.
  pose proof (bound_strict n e P ltac:(lia) He). pose proof (bound_mono 0 n e P ltac:(lia) ltac:(lia) ltac:(lia)).
  pose proof (bound_mono (n + 1) P e P ltac:(lia) ltac:(lia) ltac:(lia)).
  rewrite bound_0 in * by lia. rewrite bound_P in * by lia.
  constructor; [lia|lia|unfold two64 in *; lia|]. apply default_strided; assumption.
Qed.

Lemma region_stops e s P n i : Forall (fun d => 0 < d) s ->
  stops (bound n e P :: map (fun _ => 0) s) (bound (n + 1) e P :: s) (1 :: map (fun _ => 1) s) i <->
  exists x t, i = x :: t /\ bound n e P <= x < bound (n + 1) e P /\ inb s t.
Proof.
  intros Hs. split.
  - intros H; inversion H as [|? ? ? ? ? ? ? ? (k & ? & -> & ?) HT]; subst.
    do 2 eexists; split; [reflexivity|]. split; [lia|].
    clear H H1. revert i0 HT. induction Hs as [|d s Hd Hs IH]; intros i0 HT; inversion HT; subst; constructor.
    + match goal with Q : stop _ _ _ _ |- _ => destruct Q as (? & ? & -> & ?) end. lia.
    + apply IH; assumption.
  - intros (x & t & -> & Hx & Ht). constructor; [exists (x - bound n e P); lia|].
    clear Hs. induction Ht; simpl; constructor; auto. exists y; lia.
Qed.
