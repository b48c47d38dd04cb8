(** Prime factors, groups, block decompositions. *)
From Coq Require Import ZArith Znumtheory List Lia Bool Sorting.Sorted Sorting.Permutation.
From Verif Require Import Base NdModel NdSpec NdProofs NdProofs2 NdProofs3 ParallelModel.
Import ListNotations.
Open Scope Z_scope.

(** ** Factors *)

Definition hard (num : Z) : Prop := prime num /\ 2147395600 <= num.

Lemma no_small_prime num d : 2 <= num -> 0 <= d -> num < d * d ->
  (forall k, 2 <= k < d -> ~ (k | num)) -> prime num.
Proof.
  intros Hn Hd Hsq H. apply prime_alt. split; [lia|]. intros n Hn' Hdiv.
  destruct Hdiv as [m Hm]. assert (0 < m) by nia. assert (m <> 1) by nia.
  destruct (Z.lt_ge_cases n d).
  - apply (H n); [lia|]. exists m; assumption.
  - apply (H m); [nia|]. exists n. rewrite Hm. ring.
Qed.

Lemma smallest_prime num d : 2 <= d -> (d | num) -> (forall k, 2 <= k < d -> ~ (k | num)) -> prime d.
Proof.
  intros Hd Hdiv H. apply prime_alt. split; [lia|]. intros n Hn Hnd.
  apply (H n); [lia|]. eapply Z.divide_trans; eassumption.
Qed.

Lemma rem_divide num d : 2 <= d -> 0 <= num -> (Z.rem num d =? 0) = true <-> (d | num).
Proof.
  intros Hd Hn. rewrite Z.eqb_eq. rewrite Z.rem_mod_nonneg by lia. split.
  - intros E. apply Z.mod_divide; [lia|assumption].
  - intros E. apply Z.mod_divide; [lia|assumption].
Qed.

(** The invariant records that the previous trial square did not exceed [num]. *)
Lemma factor_loop_spec fuel : forall d num, 2 <= d <= 46341 -> 2 <= num <= 2147483647 ->
  (forall k, 2 <= k < d -> ~ (k | num)) -> (d = 2 \/ (d - 1) * (d - 1) <= num) ->
  46341 < d + Z.of_nat fuel ->
  (factor_loop fuel d num = UB /\ hard num) \/
  (~ hard num /\ exists p m, factor_loop fuel d num = Ok (p, m) /\ num = p * m /\ prime p /\ 1 <= m /\
     (forall k, 2 <= k < p -> ~ (k | num))).
Proof.
  induction fuel as [|f IH]; intros d num Hd Hn Hk Hprev Hf; [lia|]. cbn [factor_loop].
  destruct (Z.rem num d =? 0) eqn:E.
  - apply rem_divide in E; [|lia|lia]. right.
    assert (HP : prime d) by (eapply smallest_prime; eauto; lia).
    assert (EQ : num = d * Z.quot num d).
    { rewrite Z.quot_div_nonneg by lia. destruct E as [q Hq]. rewrite Hq. rewrite Z.div_mul by lia. ring. }
    split.
    + intros [HP' HB]. assert (d = num) as Edn; [|lia].
      destruct (prime_divisors num HP' d E) as [X|[X|[X|X]]]; lia.
    + exists d, (Z.quot num d). split; [reflexivity|]. split; [assumption|]. split; [assumption|].
      split; [nia|]. intros k Hk' Hdiv. apply (Hk k); assumption.
  - assert (Hnd : ~ (d | num)).
    { intros Q. apply rem_divide in Q; [congruence|lia|lia]. }
    unfold chk. destruct (in_int (d * d)) eqn:EI.
    + bsimp. apply in_int_spec in EI. destruct (Z.ltb_spec num (d * d)).
      * right. assert (HP : prime num) by (eapply no_small_prime with (d := d); eauto; lia).
        split.
        -- intros [_ HB]. assert (d <= 46340) by nia. nia.
        -- exists num, 1. split; [reflexivity|]. split; [ring|]. split; [assumption|]. split; [lia|].
           intros k Hk' Q. destruct (prime_divisors num HP k Q) as [X|[X|[X|X]]]; lia.
      * apply IH; [nia|assumption| |right; lia|lia]. intros k Hk' Q.
        destruct (Z.eq_dec k d); [subst; contradiction|]. apply (Hk k); [lia|assumption].
    + left. split; [reflexivity|].
      assert (HB : 2147483647 < d * d).
      { destruct (Z.le_gt_cases (d * d) 2147483647); [|assumption].
        rewrite (proj2 (in_int_spec (d * d))) in EI by nia. discriminate. }
      assert (HD : d = 46341) by nia. subst d. split.
      * apply no_small_prime with (d := 46341); [lia|lia|lia|assumption].
      * lia.
Qed.

Lemma factor_once_spec num : 2 <= num <= 2147483647 ->
  (factor_once num = UB /\ hard num) \/
  (~ hard num /\ exists p m, factor_once num = Ok (p, m) /\ num = p * m /\ prime p /\ 1 <= m /\
     (forall k, 2 <= k < p -> ~ (k | num))).
Proof.
  intros Hn. apply factor_loop_spec; try lia.
Qed.

Lemma factor_once_prime p : prime p -> 2 <= p <= 2147483647 -> ~ hard p -> factor_once p = Ok (p, 1).
Proof.
  intros HP Hb Hh. destruct (factor_once_spec p Hb) as [[_ Q]|(_ & q & m & E & Eq & Hq & Hm & _)]; [contradiction|].
  assert (q = p).
  { assert (D : (q | p)) by (exists m; lia). pose proof (prime_ge_2 _ Hq).
    destruct (prime_divisors p HP q D) as [X|[X|[X|X]]]; lia. }
  subst q. assert (m = 1) by nia. subst m. assumption.
Qed.

Definition prodl (l : list Z) : Z := fold_right Z.mul 1 l.
Lemma prodl_app a b : prodl (a ++ b) = prodl a * prodl b.
Proof. unfold prodl; induction a as [|x a IH]; cbn [app fold_right]; [lia|]. rewrite IH. ring. Qed.

Lemma prodl_pos_mem l x : Forall (fun p => 1 <= p) l -> In x l -> (x | prodl l).
Proof.
  unfold prodl; induction 1 as [|p l Hp Hl IH]; simpl; [intros []|]. intros [->|Hin].
  - exists (fold_right Z.mul 1 l). ring.
  - destruct (IH Hin) as [q Hq]. rewrite Hq. exists (p * q). ring.
Qed.

Lemma factors_sound fuel : forall num result, 2 <= num <= 2147483647 -> num < 2 ^ Z.of_nat fuel ->
  (hard num /\ prime_factors_impl fuel result num = UB) \/
  (~ hard num /\ exists l, prime_factors_impl fuel result num = Ok (result ++ l) /\
     Forall prime l /\ prodl l = num /\ StronglySorted Z.le l).
Proof.
  induction fuel as [|f IH]; intros num result Hn Hf; [simpl in Hf; lia|].
  cbn [prime_factors_impl].
  destruct (factor_once_spec num Hn) as [[E Hh]|(Hh & p & m & E & Eq & Hp & Hm & Hmin)]; rewrite E.
  - left; split; [assumption|reflexivity].
  - right; split; [assumption|]. bsimp. cbn [fst snd].
    pose proof (prime_ge_2 _ Hp). destruct (Z.eqb_spec m 1) as [->|Hm1].
    + exists [p]. split; [reflexivity|]. split; [constructor; [assumption|constructor]|]. split; [simpl; lia|]. repeat constructor.
    + assert (Hf2 : num < 2 * 2 ^ Z.of_nat f) by (rewrite Nat2Z.inj_succ, Z.pow_succ_r in Hf by lia; exact Hf).
      assert (Hpb : p * p <= num).
      { destruct (Z.le_gt_cases p m); [nia|]. exfalso. apply (Hmin m); [lia|]. exists p; lia. }
      assert (~ hard p) by (intros [_ Q]; nia).
      assert (~ hard m) by (intros [_ Q]; nia).
      destruct f as [|f']; [simpl in Hf2; nia|].
      assert (E1 : prime_factors_impl (S f') result p = Ok (result ++ [p])).
      { cbn [prime_factors_impl]. rewrite factor_once_prime by (auto; nia). reflexivity. }
      rewrite E1. bsimp.
      destruct (IH m (result ++ [p])) as [[Q _]|(_ & l & El & Hl & Pl & Sl)]; [nia|nia|contradiction|].
      rewrite El. exists (p :: l). rewrite <- app_assoc. split; [reflexivity|].
      split; [constructor; assumption|]. split; [change (prodl (p :: l)) with (p * prodl l); rewrite Pl; lia|].
      constructor; [assumption|]. apply Forall_forall. intros q Hq.
      assert (Hq2 : 2 <= q) by (apply prime_ge_2; rewrite Forall_forall in Hl; auto).
      destruct (Z.le_gt_cases p q); [assumption|]. exfalso. apply (Hmin q); [lia|].
      assert (D : (q | m)).
      { rewrite <- Pl. apply prodl_pos_mem; [|assumption]. revert Hl; apply Forall_impl. intros a Ha. apply prime_ge_2 in Ha; lia. }
      rewrite Eq. apply Z.divide_mul_r. assumption.
Qed.

Lemma factors_one fuel : (0 < fuel)%nat -> prime_factors fuel 1 = Ok [1].
Proof. destruct fuel; [lia|]. intros _. vm_compute. reflexivity. Qed.

Lemma factors_zero fuel : prime_factors fuel 0 = NoFuel.
Proof.
  unfold prime_factors. generalize (@nil Z) as r. induction fuel as [|f IH]; intros r; [reflexivity|].
  cbn [prime_factors_impl]. assert (E : factor_once 0 = Ok (2, 0)) by (vm_compute; reflexivity).
  rewrite E. bsimp. cbn [snd fst]. change (0 =? 1) with false. cbv iota.
  destruct f as [|f']; [reflexivity|].
  assert (E1 : prime_factors_impl (S f') r 2 = Ok (r ++ [2])).
  { cbn [prime_factors_impl]. assert (E2 : factor_once 2 = Ok (2, 1)) by (vm_compute; reflexivity). rewrite E2. reflexivity. }
  rewrite E1. bsimp. apply IH.
Qed.

(** ** Groups *)

Lemma volume_one e : 0 <= e <= 2147483647 -> volume [e] = e.
Proof.
  intros H. rewrite volume_value. simpl. rewrite Z.mul_1_r. rewrite to_int_small by lia.
  apply w64_small; unfold two64; lia.
Qed.

Lemma divvy_group_value {A} P (a : array A) e g : ashape a = [e] -> 0 <= e <= 2147483647 ->
  0 < P < two64 -> 0 <= g < P -> P * e < two64 ->
  exists grp, divvy_group P a g = Ok grp /\ ashape grp = [bound (g + 1) e P - bound g e P] /\
    forall k, 0 <= k < bound (g + 1) e P - bound g e P -> aget grp [k] = aget a [bound g e P + k].
Proof.
  intros Hs He HP Hg HB. unfold divvy_group. rewrite Hs, volume_one by lia. rewrite Z.add_0_r.
  unfold udiv. destruct (Z.eqb_spec P 0); [lia|]. bsimp.
  rewrite (w64_small g) by lia. rewrite (w64_small (g + 1)) by lia.
  rewrite (w64_small (g * e)) by nia. rewrite (w64_small ((g + 1) * e)) by nia.
  fold (bound g e P). fold (bound (g + 1) e P).
  pose proof (bound_mono g (g + 1) e P ltac:(lia) ltac:(lia) ltac:(lia)).
  pose proof (bound_mono 0 g e P ltac:(lia) ltac:(lia) ltac:(lia)).
  pose proof (bound_mono (g + 1) P e P ltac:(lia) ltac:(lia) ltac:(lia)).
  rewrite bound_0 in * by lia. rewrite bound_P in * by lia.
  eexists; split; [reflexivity|]. simpl ashape. split; [rewrite w64_small by (unfold two64; lia); reflexivity|].
  intros k Hk. simpl. rewrite w64_small by (unfold two64; lia). reflexivity.
Qed.

Lemma mapM_all {A B} (f : A -> outcome B) (g : A -> B) l :
  (forall x, In x l -> f x = Ok (g x)) -> mapM f l = Ok (map g l).
Proof.
  induction l as [|x l IH]; intros H; simpl; [reflexivity|].
  rewrite H by (left; reflexivity). bsimp. rewrite IH by (intros; apply H; right; assumption). reflexivity.
Qed.

Definition slice {A} (lo hi : Z) (l : list A) : list A := firstn (Z.to_nat (hi - lo)) (skipn (Z.to_nat lo) l).

Lemma firstn_skipn_nth {A} (l : list A) : forall n lo, (lo + n <= length l)%nat ->
  mapM (fun k => match nth_error l (lo + k) with Some v => Ok v | None => UB end) (seq 0 n) = Ok (firstn n (skipn lo l)).
Proof.
  intros n; revert l. assert (G : forall n a (l : list A) lo, (lo + a + n <= length l)%nat ->
    mapM (fun k => match nth_error l (lo + k) with Some v => Ok v | None => UB end) (seq a n) = Ok (firstn n (skipn (lo + a) l))).
  { clear n; induction n as [|n IH]; intros a l lo H; [reflexivity|].
    cbn [seq mapM]. destruct (nth_error l (lo + a)) as [v|] eqn:E.
    2:{ apply nth_error_None in E. lia. }
    bsimp. rewrite IH by lia. bsimp. f_equal.
    assert (ES : skipn (lo + a) l = v :: skipn (lo + S a) l).
    { clear IH H. replace (lo + S a)%nat with (S (lo + a)) by lia. revert E. generalize (lo + a)%nat as m.
      induction l as [|y l IHl]; intros [|m] E; try discriminate; simpl in E.
      - injection E as ->. reflexivity.
      - cbn [skipn]. rewrite IHl by assumption. reflexivity. }
    rewrite ES. reflexivity. }
  intros l lo H. rewrite G by lia. rewrite Nat.add_0_r. reflexivity.
Qed.

Lemma elements_group {A} P (l : list A) g : Z.of_nat (length l) <= 2147483647 ->
  0 < P < two64 -> 0 <= g < P -> P * Z.of_nat (length l) < two64 ->
  bind (divvy_group P (array_of_list l) g) elements1
  = Ok (slice (bound g (Z.of_nat (length l)) P) (bound (g + 1) (Z.of_nat (length l)) P) l).
Proof.
  intros HL HP Hg HB. set (e := Z.of_nat (length l)) in *.
  destruct (divvy_group_value P (array_of_list l) e g) as (grp & E & ES & EG); try lia; [reflexivity|].
  rewrite E. bsimp. unfold elements1. rewrite ES. cbn [hd].
  pose proof (bound_mono g (g + 1) e P ltac:(lia) ltac:(lia) ltac:(lia)).
  pose proof (bound_mono 0 g e P ltac:(lia) ltac:(lia) ltac:(lia)).
  pose proof (bound_mono (g + 1) P e P ltac:(lia) ltac:(lia) ltac:(lia)).
  rewrite bound_0 in * by lia. rewrite bound_P in * by lia.
  unfold slice. rewrite <- firstn_skipn_nth by lia.
  assert (Q : forall l1, (forall k, In k l1 -> (k < Z.to_nat (bound (g + 1) e P - bound g e P))%nat) ->
    mapM (fun k => aget grp [Z.of_nat k]) l1 =
    mapM (fun k => match nth_error l (Z.to_nat (bound g e P) + k) with Some v => Ok v | None => UB end) l1).
  { induction l1 as [|k l1 IH]; intros Hk; [reflexivity|]. cbn [mapM].
    pose proof (Hk k (or_introl eq_refl)).
    rewrite EG by lia. simpl aget. unfold buf_read. simpl hd. destruct (Z.leb_spec 0 (bound g e P + Z.of_nat k)); [|lia].
    replace (Z.to_nat (bound g e P + Z.of_nat k)) with (Z.to_nat (bound g e P) + k)%nat by lia.
    rewrite IH by (intros; apply Hk; right; assumption). reflexivity. }
  apply Q. intros k Hk. apply in_seq in Hk. lia.
Qed.

Lemma slices_concat {A} (l : list A) P n : 0 < P -> (Z.of_nat n <= P) ->
  concat (map (fun g => slice (bound (Z.of_nat g) (Z.of_nat (length l)) P) (bound (Z.of_nat g + 1) (Z.of_nat (length l)) P) l) (seq 0 n))
  = firstn (Z.to_nat (bound (Z.of_nat n) (Z.of_nat (length l)) P)) l.
Proof.
  intros HP. induction n as [|n IH]; intros Hn.
  - change (Z.of_nat 0) with 0. rewrite bound_0 by lia. reflexivity.
  - rewrite seq_S, map_app, concat_app, IH by lia. simpl. rewrite app_nil_r.
    replace (Z.pos (Pos.of_succ_nat n)) with (Z.of_nat n + 1) by lia.
    set (e := Z.of_nat (length l)).
    pose proof (bound_mono (Z.of_nat n) (Z.of_nat n + 1) e P ltac:(lia) ltac:(lia) ltac:(lia)).
    pose proof (bound_mono 0 (Z.of_nat n) e P ltac:(lia) ltac:(lia) ltac:(lia)).
    rewrite bound_0 in * by lia. unfold slice.
    remember (Z.to_nat (bound (Z.of_nat n) e P)) as a.
    replace (Z.to_nat (bound (Z.of_nat n + 1) e P)) with (a + Z.to_nat (bound (Z.of_nat n + 1) e P - bound (Z.of_nat n) e P))%nat by lia.
    generalize (Z.to_nat (bound (Z.of_nat n + 1) e P - bound (Z.of_nat n) e P)) as k. clear. revert l.
    induction a as [|a IH]; intros l k; [reflexivity|].
    destruct l as [|x l]; simpl; [rewrite firstn_nil; reflexivity|]. rewrite IH. reflexivity.
Qed.

(** Products of positive ints that divide a number in range never overflow. *)
Lemma int_product_value l acc : 1 <= acc -> Forall (fun p => 1 <= p) l -> acc * prodl l <= 2147483647 ->
  foldM (fun acc x => chk (acc * x)) acc l = Ok (acc * prodl l).
Proof.
  unfold prodl. intros Ha Hl; revert acc Ha; induction Hl as [|p l Hp Hl IH]; simpl; intros acc Ha HB; [f_equal; lia|].
  assert (1 <= fold_right Z.mul 1 l) by (clear IH HB; induction Hl; simpl; nia).
  rewrite chk_ok by (apply in_int_spec; nia). bsimp. rewrite IH by nia. f_equal. ring.
Qed.

Lemma prodl_ge1 l : Forall (fun p => 1 <= p) l -> 1 <= prodl l.
Proof. unfold prodl; induction 1; simpl; nia. Qed.

Lemma Forall_slice {A} (Q : A -> Prop) lo hi l : Forall Q l -> Forall Q (slice lo hi l).
Proof.
  intros H. unfold slice. apply Forall_forall. intros x Hx.
  rewrite Forall_forall in H. apply H.
  rewrite <- (firstn_skipn (Z.to_nat lo) l). apply in_or_app; right.
  rewrite <- (firstn_skipn (Z.to_nat (hi - lo)) (skipn (Z.to_nat lo) l)). apply in_or_app; left; assumption.
Qed.

Lemma prodl_concat ls : prodl (concat ls) = prodl (map prodl ls).
Proof. induction ls as [|l ls IH]; [reflexivity|]. cbn [concat map]. rewrite prodl_app, IH. reflexivity. Qed.

Lemma groups_products fs rank : Forall (fun p => 1 <= p) fs -> prodl fs <= 2147483647 ->
  Z.of_nat (length fs) <= 2147483647 -> 0 < Z.of_nat rank -> Z.of_nat rank * Z.of_nat (length fs) < two64 -> Z.of_nat rank < two64 ->
  exists l, mapM (fun g => do grp <- divvy_group (Z.of_nat rank) (array_of_list fs) (Z.of_nat g);
                 do l <- elements1 grp; int_product l) (seq 0 rank) = Ok l /\
    length l = rank /\ prodl l = prodl fs /\ Forall (fun x => 1 <= x) l.
Proof.
  intros Hfs HP HL HR HB HR64. set (e := Z.of_nat (length fs)) in *.
  set (sl := fun g : nat => slice (bound (Z.of_nat g) e (Z.of_nat rank)) (bound (Z.of_nat g + 1) e (Z.of_nat rank)) fs).
  assert (EC : concat (map sl (seq 0 rank)) = fs).
  { unfold sl, e. rewrite slices_concat by lia. rewrite bound_P by lia. rewrite Nat2Z.id. apply firstn_all. }
  assert (Hbound : forall g, In g (seq 0 rank) -> prodl (sl g) <= prodl fs).
  { intros g Hg. assert (D : (prodl (sl g) | prodl fs)).
    { rewrite <- EC, prodl_concat. apply prodl_pos_mem; [|apply in_map, in_map; assumption].
      apply Forall_forall. intros x Hx. apply in_map_iff in Hx as (y & <- & Hy). apply in_map_iff in Hy as (z & <- & Hz).
      apply prodl_ge1. apply Forall_slice; assumption. }
    apply Z.divide_pos_le in D; [assumption|]. pose proof (prodl_ge1 _ Hfs); lia. }
  exists (map prodl (map sl (seq 0 rank))). split; [|split; [|split]].
  - rewrite map_map. apply mapM_all. intros g Hg.
    pose proof (in_seq rank 0 g) as HS. apply HS in Hg as Hg'.
    assert (E := elements_group (Z.of_nat rank) fs (Z.of_nat g) HL ltac:(lia) ltac:(lia) HB).
    destruct (divvy_group (Z.of_nat rank) (array_of_list fs) (Z.of_nat g)) as [grp| | |]; try discriminate E.
    cbn [bind] in *. rewrite E. bsimp. unfold int_product.
    fold e. fold (sl g). rewrite int_product_value.
    + f_equal; lia.
    + lia.
    + apply Forall_slice; assumption.
    + specialize (Hbound g Hg). lia.
  - rewrite !map_length, seq_length. reflexivity.
  - rewrite <- prodl_concat, EC. reflexivity.
  - apply Forall_forall. intros x Hx. apply in_map_iff in Hx as (y & <- & Hy). apply in_map_iff in Hy as (z & <- & Hz).
    apply prodl_ge1, Forall_slice; assumption.
Qed.

Lemma primes_length l : Forall prime l -> 2 ^ Z.of_nat (length l) <= prodl l.
Proof.
  unfold prodl; induction 1 as [|p l Hp Hl IH]; cbn [length fold_right]; [lia|].
  rewrite Nat2Z.inj_succ, Z.pow_succ_r by lia. pose proof (prime_ge_2 _ Hp). nia.
Qed.
