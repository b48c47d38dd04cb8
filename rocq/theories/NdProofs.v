(** Lemmas about shapes, offsets and iteration. *)
From Coq Require Import ZArith Znumtheory List Lia Bool Sorting.Sorted Sorting.Permutation.
From Verif Require Import Base NdModel NdSpec.
Import ListNotations.
Open Scope Z_scope.

Lemma w64_small z : 0 <= z < two64 -> w64 z = z.
Proof. intros; unfold w64; apply Z.mod_small; assumption. Qed.
Lemma w64_range z : 0 <= w64 z < two64.
Proof. apply Z.mod_pos_bound; reflexivity. Qed.
Lemma to_int_small z : -2147483648 <= z <= 2147483647 -> to_int z = z.
Proof. intros; unfold to_int; rewrite Z.mod_small; lia. Qed.
Lemma to_int_range z : -2147483648 <= to_int z <= 2147483647.
Proof.
  unfold to_int. pose proof (Z.mod_pos_bound (z + 2147483648) 4294967296); lia.
Qed.

Lemma zrange_In n x : In x (zrange n) <-> 0 <= x < n.
Proof.
  unfold zrange; rewrite in_map_iff; split.
  - intros (k & <- & H); apply in_seq in H; lia.
  - intros H; exists (Z.to_nat x); split; [lia|apply in_seq; lia].
Qed.

Lemma zrange_length n : length (zrange n) = Z.to_nat n.
Proof. unfold zrange; rewrite map_length, seq_length; reflexivity. Qed.

Lemma prodz_nonneg s : Forall (fun d => 0 <= d) s -> 0 <= prodz s.
Proof. induction 1; simpl; [lia|nia]. Qed.
Lemma prodz_pos s : Forall (fun d => 0 < d) s -> 0 < prodz s.
Proof. induction 1; simpl; [lia|nia]. Qed.

Lemma inb_length s i : inb s i -> length s = length i.
Proof. induction 1; simpl; congruence. Qed.

Lemma idxs_In s i : In i (idxs s) <-> inb s i.
Proof.
  unfold inb; revert i; induction s as [|d s IH]; simpl; intros i.
  - split; [intros [<-|[]]; constructor|intros H; inversion H; auto].
  - rewrite in_flat_map; split.
    + intros (x & Hx & H). apply in_map_iff in H as (t & <- & Ht).
      constructor; [apply zrange_In; assumption|apply IH; assumption].
    + intros H; inversion H; subst. exists y; split; [apply zrange_In; assumption|].
      apply in_map, IH; assumption.
Qed.

Lemma lin_range s i : inb s i -> 0 <= lin s i < prodz s.
Proof.
  induction 1 as [|d x s i Hx Hi IH]; simpl; [lia|nia].
Qed.

(** Row-major enumeration meets the offsets 0, 1, 2, ... in order. *)
Lemma lin_idxs s : Forall (fun d => 0 <= d) s -> map (lin s) (idxs s) = zrange (prodz s).
Proof.
  induction 1 as [|d s Hd Hs IH]; [reflexivity|].
  pose proof (prodz_nonneg s Hs) as HP. simpl.
  assert (G : forall n a, map (lin (d :: s)) (flat_map (fun x => map (cons x) (idxs s)) (map Z.of_nat (seq a n)))
                     = map Z.of_nat (seq (a * Z.to_nat (prodz s)) (n * Z.to_nat (prodz s)))).
  { induction n as [|n IHn]; intros a; [reflexivity|].
    cbn [seq map flat_map]. rewrite map_app, IHn.
    change (S n * Z.to_nat (prodz s))%nat with (Z.to_nat (prodz s) + n * Z.to_nat (prodz s))%nat.
    rewrite seq_app, map_app. f_equal.
    - transitivity (map (Z.add (Z.of_nat a * prodz s)) (map (lin s) (idxs s))).
      + rewrite !map_map; apply map_ext; reflexivity.
      + rewrite IH. unfold zrange. rewrite map_map.
        transitivity (map Z.of_nat (map (Nat.add (a * Z.to_nat (prodz s))) (seq 0 (Z.to_nat (prodz s))))).
        * rewrite map_map; apply map_ext; intros; nia.
        * f_equal. generalize (Z.to_nat (prodz s)) as m; intros m; clear.
          generalize (a * m)%nat as c; intros c; clear a. revert c.
          assert (Q : forall k b c, map (Nat.add c) (seq b k) = seq (c + b) k).
          { induction k; simpl; intros; auto. rewrite IHk. do 2 f_equal. lia. }
          intros c; rewrite Q; f_equal; lia.
    - do 2 f_equal; lia. }
  unfold zrange at 1. rewrite G. unfold zrange. f_equal. f_equal.
  rewrite Z2Nat.inj_mul; lia.
Qed.

Lemma idxs_length s : Forall (fun d => 0 <= d) s -> length (idxs s) = Z.to_nat (prodz s).
Proof.
  intros H. rewrite <- (map_length (lin s)), lin_idxs by assumption. apply zrange_length.
Qed.

Lemma zrange_NoDup n : NoDup (zrange n).
Proof.
  unfold zrange. apply FinFun.Injective_map_NoDup; [|apply seq_NoDup].
  intros a b; apply Nat2Z.inj.
Qed.

Lemma NoDup_map_inv' {A B} (f : A -> B) l : NoDup (map f l) -> NoDup l.
Proof. apply NoDup_map_inv. Qed.

Lemma idxs_NoDup s : Forall (fun d => 0 <= d) s -> NoDup (idxs s).
Proof.
  intros H. apply (NoDup_map_inv' (lin s)). rewrite lin_idxs by assumption. apply zrange_NoDup.
Qed.

Lemma inb_nonneg s i : inb s i -> Forall (fun d => 0 <= d) s.
Proof. induction 1; constructor; auto; lia. Qed.

Lemma lin_inj s i j : inb s i -> inb s j -> lin s i = lin s j -> i = j.
Proof.
  intros Hi; revert j; induction Hi as [|d x s i Hx Hi IH]; intros j Hj E; inversion Hj; subst; auto.
  simpl in E. pose proof (lin_range _ _ Hi). pose proof (lin_range _ _ H3).
  assert (x = y) by nia. subst. f_equal. apply IH; [assumption|]. nia.
Qed.

Lemma lin_surj s k : Forall (fun d => 0 <= d) s -> 0 <= k < prodz s -> exists i, inb s i /\ lin s i = k.
Proof.
  intros Hs Hk. assert (I : In k (map (lin s) (idxs s))) by (rewrite lin_idxs by assumption; apply zrange_In; assumption).
  apply in_map_iff in I as (i & <- & Hi). exists i; split; [apply idxs_In; assumption|reflexivity].
Qed.

(** ** Strides and offsets *)

Lemma strides_length s : length (strides_row_major s) = length s.
Proof.
  induction s as [|d s IH]; [reflexivity|]. simpl.
  destruct (strides_row_major s) as [|r rs] eqn:E, s as [|y s']; simpl in *; try discriminate; try congruence.
Qed.

Fixpoint true_strides (s : list Z) : list Z :=
  match s with [] => [] | _ :: t => prodz t :: true_strides t end.

Lemma prodz_tail_bound d s : 0 < d -> 0 <= prodz s -> prodz s <= prodz (d :: s).
Proof. simpl; nia. Qed.

(** All partial products from the right fit when the extents are positive and the full
    product fits. *)
Lemma strides_true s :
  Forall (fun d => 0 < d) s -> prodz s < two64 -> strides_row_major s = true_strides s.
Proof.
  induction 1 as [|d s Hd Hs IH]; intros HP; [reflexivity|].
  pose proof (prodz_pos _ Hs) as P0.
  simpl in HP. assert (Hlt : prodz s < two64) by nia. specialize (IH Hlt).
  simpl. rewrite IH. destruct s as [|y s']; [reflexivity|].
  cbn [true_strides]. f_equal. rewrite w64_small.
  - simpl. lia.
  - simpl in *. nia.
Qed.

(** With zero extents strides are still the true products modulo 2^64. *)
Lemma offset_acc l acc :
  0 <= acc -> Forall (fun '(i, s) => 0 <= i * s) l ->
  acc + fold_right (fun '(i, s) t => i * s + t) 0 l < two64 ->
  fold_left (fun acc '(i, s) => w64 (acc + w64 (i * s))) l acc
  = acc + fold_right (fun '(i, s) t => i * s + t) 0 l.
Proof.
  intros Ha Hl; revert acc Ha; induction Hl as [|[i s] l H Hl IH]; simpl; intros acc Ha HB; [lia|].
  assert (0 <= fold_right (fun '(i0, s0) t => i0 * s0 + t) 0 l).
  { clear IH HB. induction Hl as [|[a b] l Hab Hl IH']; simpl; [lia|lia]. }
  rewrite (w64_small (i * s)) by lia. rewrite w64_small by lia.
  rewrite IH; lia.
Qed.

Lemma offset_lin s i :
  inb s i -> prodz s < two64 -> compute_offset (strides_row_major s) i = lin s i.
Proof.
  intros Hi HP.
  assert (Hs : Forall (fun d => 0 < d) s) by (clear HP; induction Hi; constructor; auto; lia).
  rewrite strides_true by assumption. unfold compute_offset.
  assert (E : fold_right (fun '(i, s) t => i * s + t) 0 (combine i (true_strides s)) = lin s i).
  { clear Hs HP. induction Hi; simpl; [reflexivity|]. rewrite IHHi; reflexivity. }
  rewrite offset_acc; rewrite ?E.
  - lia.
  - lia.
  - clear HP E. induction Hi as [|d x s i Hx Hi IH]; simpl; constructor.
    + inversion Hs; subst. pose proof (prodz_pos _ H2). nia.
    + apply IH. inversion Hs; assumption.
  - pose proof (lin_range _ _ Hi). lia.
Qed.

(** ** Volume *)

Lemma volume_acc s acc :
  Forall (fun d => 0 < d) s -> 0 < acc -> acc * prodz s <= 2147483647 ->
  fold_left (fun acc x => to_int (w64 (w64 acc * x))) s acc = acc * prodz s.
Proof.
  intros Hs; revert acc; induction Hs as [|d s Hd Hs IH]; simpl; intros acc Ha HB; [lia|].
  pose proof (prodz_pos _ Hs).
  assert (acc * d <= 2147483647) by nia.
  rewrite (w64_small acc) by (unfold two64; nia).
  rewrite (w64_small (acc * d)) by (unfold two64; nia).
  rewrite to_int_small by nia.
  rewrite IH; nia.
Qed.

Lemma volume_prod s : Forall (fun d => 0 < d) s -> prodz s <= 2147483647 -> volume s = prodz s.
Proof.
  intros Hs HP. unfold volume. rewrite volume_acc by (auto; lia).
  pose proof (prodz_pos _ Hs). rewrite w64_small; unfold two64; lia.
Qed.

(** Congruence modulo 2^32 holds for every shape. *)
Lemma to_int_mod z : (to_int z) mod 4294967296 = z mod 4294967296.
Proof.
  unfold to_int.
  rewrite Zminus_mod, Zmod_mod, <- Zminus_mod. f_equal. lia.
Qed.
Lemma w64_mod z : (w64 z) mod 4294967296 = z mod 4294967296.
Proof.
  unfold w64, two64.
  symmetry. apply Zmod_div_mod; [lia|lia|]. exists 4294967296; reflexivity.
Qed.
Lemma volume_acc_mod s acc :
  (fold_left (fun acc x => to_int (w64 (w64 acc * x))) s acc) mod 4294967296
  = (acc * prodz s) mod 4294967296.
Proof.
  revert acc; induction s as [|d s IH]; simpl; intros acc; [rewrite Z.mul_1_r; reflexivity|].
  rewrite IH. rewrite <- Z.mul_mod_idemp_l, to_int_mod, w64_mod, Z.mul_mod_idemp_l by lia.
  rewrite <- Z.mul_assoc.
  rewrite <- Z.mul_mod_idemp_l, w64_mod, Z.mul_mod_idemp_l by lia. reflexivity.
Qed.

Lemma acc_int s acc :
  -2147483648 <= acc <= 2147483647 ->
  -2147483648 <= fold_left (fun acc x => to_int (w64 (w64 acc * x))) s acc <= 2147483647.
Proof.
  revert acc; induction s; simpl; intros; [lia|]. apply IHs. apply to_int_range.
Qed.

Lemma to_int_unique a z : -2147483648 <= a <= 2147483647 -> a mod 4294967296 = z mod 4294967296 -> a = to_int z.
Proof.
  intros Ha E. rewrite <- (to_int_small a) by assumption. unfold to_int.
  rewrite (Zplus_mod a), E, <- Zplus_mod. reflexivity.
Qed.

Lemma volume_value s : volume s = w64 (to_int (prodz s)).
Proof.
  unfold volume. f_equal. apply to_int_unique.
  - apply acc_int; lia.
  - rewrite volume_acc_mod. f_equal. lia.
Qed.
