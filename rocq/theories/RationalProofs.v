From Coq Require Import ZArith List Lia Bool Znumtheory QArith.
From Verif Require Import Base RationalModel RationalSpec.
Import ListNotations.
Open Scope Z_scope.

Open Scope Z_scope.

(** ** The binary gcd computes the greatest common divisor *)

Lemma mod2_odd b : b mod 2 <> 0 -> exists k, b = 2 * k + 1.
Proof. intros H. exists (b / 2). pose proof (Z.div_mod b 2). pose proof (Z.mod_pos_bound b 2). lia. Qed.

Lemma mod2_even b : b mod 2 = 0 -> b = 2 * (b / 2).
Proof. intros H. pose proof (Z.div_mod b 2). lia. Qed.

Lemma gcd_2_odd b : b mod 2 <> 0 -> Z.gcd b 2 = 1.
Proof.
  intros H. destruct (mod2_odd _ H) as [k ->].
  rewrite Z.gcd_comm. replace (2 * k + 1) with (1 + k * 2) by lia.
  rewrite Z.gcd_add_mult_diag_r. reflexivity.
Qed.

Lemma gcd_double_odd a b : b mod 2 <> 0 -> Z.gcd (2 * a) b = Z.gcd a b.
Proof.
  intros H. apply Z.gcd_unique.
  - apply Z.gcd_nonneg.
  - apply Z.divide_mul_r, Z.gcd_divide_l.
  - apply Z.gcd_divide_r.
  - intros q Hq1 Hq2. apply Z.gcd_greatest; [|assumption].
    apply Z.gauss with 2; [assumption|].
    assert (Hd : (Z.gcd q 2 | 1)).
    { rewrite <- (gcd_2_odd _ H). apply Z.gcd_greatest.
      - eapply Z.divide_trans; [apply Z.gcd_divide_l|assumption].
      - apply Z.gcd_divide_r. }
    apply Z.divide_1_r_nonneg; [apply Z.gcd_nonneg|assumption].
Qed.

Lemma gcd_half_odd a b : b mod 2 <> 0 -> a mod 2 = 0 -> Z.gcd (a / 2) b = Z.gcd a b.
Proof. intros Hb Ha. rewrite (mod2_even a Ha) at 2. symmetry; apply gcd_double_odd; auto. Qed.

Lemma gcd_sub a b : Z.gcd (a - b) b = Z.gcd a b.
Proof.
  rewrite (Z.gcd_comm _ b), (Z.gcd_comm a b).
  replace (a - b) with (a + (-1) * b) by lia. apply Z.gcd_add_mult_diag_r.
Qed.

Lemma log2_half a : 2 <= a -> Z.log2 (a / 2) = Z.log2 a - 1.
Proof.
  intros H. rewrite <- Z.div2_div, Z.div2_spec, Z.log2_shiftr by lia.
  pose proof (Z.log2_le_mono 2 a H). change (Z.log2 2) with 1 in *. lia.
Qed.

Lemma sub_odd_even a b : a mod 2 <> 0 -> b mod 2 <> 0 -> (a - b) mod 2 = 0.
Proof.
  intros Ha Hb. destruct (mod2_odd _ Ha) as [k ->], (mod2_odd _ Hb) as [l ->].
  replace (2 * k + 1 - (2 * l + 1)) with ((k - l) * 2) by lia. apply Z.mod_mul; lia.
Qed.

Lemma gcd_loop_correct fuel : forall a b,
  0 < a -> 0 < b -> (a mod 2 <> 0 \/ b mod 2 <> 0) ->
  (Z.to_nat (Z.log2 a + Z.log2 b) < fuel)%nat ->
  gcd_loop fuel a b = Ok (Z.gcd a b).
Proof.
  induction fuel as [|f IH]; intros a b Ha Hb Hodd Hf; [lia|].
  simpl. destruct (Z.eqb_spec a b) as [->|Hne].
  { rewrite Z.gcd_diag, Z.abs_eq by lia. reflexivity. }
  pose proof (Z.log2_nonneg a). pose proof (Z.log2_nonneg b).
  destruct (Z.eqb_spec (a mod 2) 0) as [Ea|Oa].
  { assert (2 <= a) by (rewrite (mod2_even a Ea) in *; lia).
    rewrite IH.
    - rewrite gcd_half_odd; auto. tauto.
    - rewrite (mod2_even a Ea) in Ha; lia.
    - lia.
    - right; tauto.
    - pose proof (log2_half a); pose proof (Z.log2_nonneg (a/2)); lia. }
  destruct (Z.eqb_spec (b mod 2) 0) as [Eb|Ob].
  { assert (2 <= b) by (rewrite (mod2_even b Eb) in *; lia).
    rewrite IH.
    - rewrite Z.gcd_comm, gcd_half_odd, Z.gcd_comm; auto.
    - lia.
    - rewrite (mod2_even b Eb) in Hb; lia.
    - left; tauto.
    - pose proof (log2_half b); pose proof (Z.log2_nonneg (b/2)); lia. }
  destruct (Z.ltb_spec b a) as [Hlt|Hge].
  - pose proof (sub_odd_even a b Oa Ob) as Ev.
    pose proof (mod2_even _ Ev) as Ev'.
    assert (H2 : 2 <= a) by lia.
    assert (HL : Z.log2 ((a - b)/2) <= Z.log2 (a / 2)).
    { apply Z.log2_le_mono. apply Z.div_le_mono; lia. }
    pose proof (Z.log2_nonneg ((a - b)/2)). pose proof (log2_half a H2).
    rewrite IH; auto; try lia.
    rewrite gcd_half_odd, gcd_sub; auto.
  - pose proof (sub_odd_even b a Ob Oa) as Ev.
    pose proof (mod2_even _ Ev) as Ev'.
    assert (H2 : 2 <= b) by lia.
    assert (HL : Z.log2 ((b - a)/2) <= Z.log2 (b / 2)).
    { apply Z.log2_le_mono. apply Z.div_le_mono; lia. }
    pose proof (Z.log2_nonneg ((b - a)/2)). pose proof (log2_half b H2).
    rewrite IH; auto; try lia.
    rewrite Z.gcd_comm, gcd_half_odd, gcd_sub, Z.gcd_comm; auto.
Qed.

Lemma gcd_shift_correct fuel : forall a b d,
  0 < a -> 0 < b -> 0 <= d ->
  (Z.to_nat (Z.log2 a + Z.log2 b) < fuel)%nat ->
  exists a1 b1 k, gcd_shift fuel a b d = Ok (a1, b1, d + k) /\ 0 <= k /\
    a = a1 * 2 ^ k /\ b = b1 * 2 ^ k /\ 0 < a1 /\ 0 < b1 /\ (a1 mod 2 <> 0 \/ b1 mod 2 <> 0).
Proof.
  induction fuel as [|f IH]; intros a b d Ha Hb Hd Hf; [lia|].
  simpl. destruct ((a mod 2 =? 0) && (b mod 2 =? 0)) eqn:E.
  - apply andb_true_iff in E. rewrite !Z.eqb_eq in E. destruct E as [Ea Eb].
    pose proof (mod2_even _ Ea) as Ea'. pose proof (mod2_even _ Eb) as Eb'.
    assert (2 <= a) by lia. assert (2 <= b) by lia.
    destruct (IH (a/2) (b/2) (d+1)) as (a1 & b1 & k & Heq & Hk & HA & HB & Hr); try lia.
    { pose proof (log2_half a); pose proof (log2_half b).
      pose proof (Z.log2_nonneg (a/2)); pose proof (Z.log2_nonneg (b/2)).
      pose proof (Z.log2_nonneg a); pose proof (Z.log2_nonneg b). lia. }
    exists a1, b1, (k + 1). rewrite Heq.
    replace (d + (k + 1)) with (d + 1 + k) by lia. split; [reflexivity|].
    rewrite Z.pow_add_r by lia. change (2^1) with 2.
    repeat split; try tauto; lia.
  - exists a, b, 0. rewrite Z.add_0_r. change (2^0) with 1.
    apply andb_false_iff in E. rewrite !Z.eqb_neq in E.
    repeat split; try lia; auto.
Qed.

Lemma gcd_mul_pow a b k : 0 <= k -> Z.gcd (a * 2 ^ k) (b * 2 ^ k) = Z.gcd a b * 2 ^ k.
Proof. intros Hk. apply Z.gcd_mul_mono_r_nonneg. apply Z.pow_nonneg; lia. Qed.

Lemma gcd_pos a b : 0 < a -> 0 < Z.gcd a b.
Proof.
  intros H. pose proof (Z.gcd_nonneg a b).
  destruct (Z.eq_dec (Z.gcd a b) 0) as [E|]; [|lia].
  apply Z.gcd_eq_0_l in E. lia.
Qed.

Lemma gcd_bin_correct a b :
  0 < a <= 2147483647 -> 0 < b <= 2147483647 -> gcd_bin a b = Ok (Z.gcd a b).
Proof.
  intros Ha Hb. unfold gcd_bin, gcd_fuel.
  destruct (gcd_shift_correct (S (S (Z.to_nat (Z.log2 a + Z.log2 b)))) a b 0)
    as (a1 & b1 & k & Heq & Hk & HA & HB & Pa & Pb & Hodd); try lia.
  rewrite Z.add_0_l in Heq.
  rewrite Heq. bsimp.
  rewrite gcd_loop_correct; [|assumption|assumption|assumption|lia]. bsimp.
  assert (Hg : Z.gcd a b = Z.gcd a1 b1 * 2 ^ k) by (rewrite HA, HB; apply gcd_mul_pow; auto).
  assert (Hle : Z.gcd a b <= a).
  { apply Z.divide_pos_le; [lia|]. apply Z.gcd_divide_l. }
  assert (Hg1 : 0 < Z.gcd a1 b1) by (apply gcd_pos; auto).
  assert (0 < 2 ^ k) by (apply Z.pow_pos_nonneg; lia).
  destruct (Z.ltb_spec k 31) as [Hk31|Hk31].
  - rewrite Hg. apply chk_ok, in_int_spec. split; nia.
  - exfalso. assert (2 ^ 31 <= 2 ^ k) by (apply Z.pow_le_mono_r; lia).
    change (2^31) with 2147483648 in *. nia.
Qed.

(** ** Constructor *)

Lemma quot_gcd_facts n d : n <> 0 -> d <> 0 ->
  let g := Z.gcd n d in
  0 < g /\ n = Z.quot n g * g /\ d = Z.quot d g * g /\ Z.gcd (Z.quot n g) (Z.quot d g) = 1.
Proof.
  intros Hn Hd g.
  assert (Hg : 0 < g).
  { unfold g. pose proof (Z.gcd_nonneg n d). destruct (Z.eq_dec (Z.gcd n d) 0) as [E|]; [|lia].
    apply Z.gcd_eq_0_l in E. lia. }
  assert (D1 : (g | n)) by apply Z.gcd_divide_l.
  assert (D2 : (g | d)) by apply Z.gcd_divide_r.
  destruct D1 as [p Hp], D2 as [q Hq].
  assert (E1 : Z.quot n g = p) by (rewrite Hp; apply Z.quot_mul; lia).
  assert (E2 : Z.quot d g = q) by (rewrite Hq; apply Z.quot_mul; lia).
  rewrite E1, E2. repeat split; auto.
  assert (Hgg : g = Z.gcd p q * g).
  { rewrite <- Z.gcd_mul_mono_r_nonneg by lia. rewrite <- Hp, <- Hq. reflexivity. }
  nia.
Qed.

Lemma make_rat_correct n d :
  -2147483647 <= n <= 2147483647 -> -2147483647 <= d <= 2147483647 -> d <> 0 ->
  exists r, make_rat n d = Ok r /\ wf r /\ num r * d = n * den r /\
    (n = 0 -> num r = 0 /\ den r = Z.abs d).
Proof.
  intros Hn Hd Hd0. unfold make_rat.
  destruct (Z.eqb_spec d 0); [contradiction|]. unfold reduce.
  destruct (Z.eqb_spec n 0) as [->|Hn0]; bsimp.
  - destruct (Z.ltb_spec d 0).
    + rewrite (chk_ok (d * -1)) by (apply in_int_spec; lia). simpl.
      eexists; split; [reflexivity|]; unfold wf, int32; simpl. repeat split; try lia.
    + eexists; split; [reflexivity|]; unfold wf, int32; simpl. repeat split; try lia.
  - rewrite (chk_ok (Z.abs n)), (chk_ok (Z.abs d)) by (apply in_int_spec; lia). bsimp.
    rewrite gcd_bin_correct by lia. bsimp.
    rewrite Z.gcd_abs_l, Z.gcd_abs_r.
    destruct (quot_gcd_facts n d Hn0 Hd0) as (Hg & En & Ed & Hc).
    set (g := Z.gcd n d) in *. set (p := Z.quot n g) in *. set (q := Z.quot d g) in *.
    assert (Hp : Z.abs p <= Z.abs n) by nia.
    assert (Hq : Z.abs q <= Z.abs d) by nia.
    assert (q <> 0) by nia. assert (p <> 0) by nia.
    destruct (Z.ltb_spec q 0).
    + rewrite (chk_ok (p * -1)), (chk_ok (q * -1)) by (apply in_int_spec; lia). simpl.
      eexists; split; [reflexivity|]; unfold wf, int32; simpl.
      assert (G : Z.gcd (p * -1) (q * -1) = 1).
      { replace (p * -1) with (- p) by lia. replace (q * -1) with (- q) by lia.
        rewrite Z.gcd_opp_l, Z.gcd_opp_r. exact Hc. }
      repeat split; try lia; try nia.
    + simpl. eexists; split; [reflexivity|]; unfold wf, int32; simpl.
      repeat split; try lia; try nia.
Qed.

Lemma make_rat_zero n : make_rat n 0 = Throw InvalidArgument.
Proof. reflexivity. Qed.

(** Even without the guard, whatever the constructor returns is well formed. *)
Lemma chk_inv z w : chk z = Ok w -> w = z /\ -2147483648 <= z <= 2147483647.
Proof.
  unfold chk. destruct (in_int z) eqn:E; intros H; inversion H; subst.
  split; auto. apply in_int_spec; auto.
Qed.

Lemma make_rat_ok_guard n d r :
  in_int n = true -> in_int d = true ->
  make_rat n d = Ok r -> d <> 0 /\ (n <> 0 -> -2147483647 <= n) /\ -2147483647 <= d.
Proof.
  intros Hn Hd. unfold make_rat. destruct (Z.eqb_spec d 0); [discriminate|].
  apply in_int_spec in Hn. apply in_int_spec in Hd.
  unfold reduce. destruct (Z.eqb_spec n 0) as [->|Hn0].
  - simpl. destruct (Z.ltb_spec d 0).
    + intros H'. apply bind_ok_inv in H'. destruct H' as (d2 & Hd2 & _).
      apply chk_inv in Hd2. lia.
    + intros _. lia.
  - intros H'. apply bind_ok_inv in H'. destruct H' as (nd & Hnd & _).
    apply bind_ok_inv in Hnd. destruct Hnd as (an & Han & Hnd).
    apply bind_ok_inv in Hnd. destruct Hnd as (ad & Had & _).
    apply chk_inv in Han. apply chk_inv in Had. lia.
Qed.

Lemma make_rat_wf n d r :
  in_int n = true -> in_int d = true -> make_rat n d = Ok r -> wf r /\ num r * d = n * den r.
Proof.
  intros Hn Hd H. destruct (make_rat_ok_guard n d r Hn Hd H) as (H0 & Hn' & Hd').
  apply in_int_spec in Hn. apply in_int_spec in Hd.
  assert (G : -2147483647 <= n) by (destruct (Z.eq_dec n 0); [lia|auto]).
  destruct (make_rat_correct n d) as (r' & E & W & V & _); try lia.
  rewrite E in H. inversion H; subst. auto.
Qed.

Lemma reachable_wf x : reachable x -> wf x.
Proof.
  assert (CI : forall z w, chk z = Ok w -> in_int w = true).
  { intros z w H. apply chk_inv in H. apply in_int_spec. lia. }
  induction 1 as [|n Hn|n d r Hn Hd Hm|x r Hx IHx H|x y r Hx IHx Hy IHy H|x y r Hx IHx Hy IHy H|x y r Hx IHx Hy IHy H|x y r Hx IHx Hy IHy H].
  - unfold wf, int32; simpl; repeat split; try lia; try reflexivity.
  - apply in_int_spec in Hn. unfold wf, int32; simpl. repeat split; try lia.
    intros _. apply Z.gcd_1_r.
  - exact (proj1 (make_rat_wf _ _ _ Hn Hd Hm)).
  - unfold rneg in H. apply bind_ok_inv in H. destruct H as (n & Hn & H).
    refine (proj1 (make_rat_wf _ _ _ _ _ H)); eauto.
    destruct IHx as (_ & D & _). apply in_int_spec. lia.
  - unfold radd in H.
    apply bind_ok_inv in H. destruct H as (? & ? & H).
    apply bind_ok_inv in H. destruct H as (? & ? & H).
    apply bind_ok_inv in H. destruct H as (? & ? & H).
    apply bind_ok_inv in H. destruct H as (? & ? & H).
    refine (proj1 (make_rat_wf _ _ _ _ _ H)); eauto.
  - unfold rsub in H.
    apply bind_ok_inv in H. destruct H as (? & ? & H).
    apply bind_ok_inv in H. destruct H as (? & ? & H).
    apply bind_ok_inv in H. destruct H as (? & ? & H).
    apply bind_ok_inv in H. destruct H as (? & ? & H).
    refine (proj1 (make_rat_wf _ _ _ _ _ H)); eauto.
  - unfold rmul in H.
    apply bind_ok_inv in H. destruct H as (? & ? & H).
    apply bind_ok_inv in H. destruct H as (? & ? & H).
    refine (proj1 (make_rat_wf _ _ _ _ _ H)); eauto.
  - unfold rdiv in H.
    apply bind_ok_inv in H. destruct H as (? & ? & H).
    apply bind_ok_inv in H. destruct H as (? & ? & H).
    refine (proj1 (make_rat_wf _ _ _ _ _ H)); eauto.
Qed.

(** ** Arithmetic *)

Lemma safe_chk z : safe z -> chk z = Ok z.
Proof. unfold safe; intros; apply chk_ok, in_int_spec; lia. Qed.

Lemma toQ_eq x n d : 0 < den x -> 0 < d -> num x * d = n * den x -> (toQ x == Qmake n (Z.to_pos d))%Q.
Proof. intros Hx Hd H. unfold Qeq, toQ; simpl. rewrite !Z2Pos.id by lia. exact H. Qed.

Ltac schk := repeat (rewrite safe_chk by assumption; bsimp).

Lemma radd_correct x y : wf x -> wf y -> safe_add x y ->
  exists r, radd x y = Ok r /\ wf r /\ (toQ r == toQ x + toQ y)%Q.
Proof.
  intros (Hx1 & Hx2 & Hx3) (Hy1 & Hy2 & Hy3) (S1 & S2 & S3 & S4).
  unfold radd. schk.
  destruct (make_rat_correct (num x * den y + den x * num y) (den x * den y)) as (r & E & W & V & _);
    unfold safe in *; try lia; try nia.
  exists r. split; [exact E|]. split; [exact W|].
  unfold Qeq, Qplus, toQ; simpl.
  destruct W as (_ & Wd & _). rewrite Pos2Z.inj_mul, !Z2Pos.id by lia. nia.
Qed.

Lemma rsub_correct x y : wf x -> wf y -> safe_sub x y ->
  exists r, rsub x y = Ok r /\ wf r /\ (toQ r == toQ x - toQ y)%Q /\
    num r * (den x * den y) = (num x * den y - den x * num y) * den r.
Proof.
  intros (Hx1 & Hx2 & Hx3) (Hy1 & Hy2 & Hy3) (S1 & S2 & S3 & S4).
  unfold rsub. schk.
  destruct (make_rat_correct (num x * den y - den x * num y) (den x * den y)) as (r & E & W & V & _);
    unfold safe in *; try lia; try nia.
  exists r. split; [exact E|]. split; [exact W|]. split; [|exact V].
  unfold Qeq, Qminus, Qplus, Qopp, toQ; simpl.
  destruct W as (_ & Wd & _). rewrite Pos2Z.inj_mul, !Z2Pos.id by lia. nia.
Qed.

Lemma rmul_correct x y : wf x -> wf y -> safe_mul x y ->
  exists r, rmul x y = Ok r /\ wf r /\ (toQ r == toQ x * toQ y)%Q.
Proof.
  intros (Hx1 & Hx2 & Hx3) (Hy1 & Hy2 & Hy3) (S1 & S2).
  unfold rmul. schk.
  destruct (make_rat_correct (num x * num y) (den x * den y)) as (r & E & W & V & _);
    unfold safe in *; try lia; try nia.
  exists r. split; [exact E|]. split; [exact W|].
  unfold Qeq, Qmult, toQ; simpl.
  destruct W as (_ & Wd & _). rewrite Pos2Z.inj_mul, !Z2Pos.id by lia. nia.
Qed.

Lemma rdiv_correct x y : wf x -> wf y -> safe_div x y -> num y <> 0 ->
  exists r, rdiv x y = Ok r /\ wf r /\ (toQ r == toQ x / toQ y)%Q.
Proof.
  intros (Hx1 & Hx2 & Hx3) (Hy1 & Hy2 & Hy3) (S1 & S2) Hy0.
  unfold rdiv. schk.
  destruct (make_rat_correct (num x * den y) (den x * num y)) as (r & E & W & V & _);
    unfold safe in *; try lia; try nia.
  exists r. split; [exact E|]. split; [exact W|].
  destruct W as (_ & Wd & _).
  unfold Qdiv, Qinv, Qmult, Qeq, toQ; simpl.
  destruct (num y) as [|p|p] eqn:En; simpl; [lia| |];
    rewrite Pos2Z.inj_mul, ?Z2Pos.id by lia.
  - nia.
  - change (Z.neg (Z.to_pos (den y))) with (- Z.pos (Z.to_pos (den y))).
    rewrite Z2Pos.id by lia. change (Z.neg p) with (- Z.pos p) in *. nia.
Qed.

Lemma rdiv_zero x y : wf x -> wf y -> num y = 0 -> safe (num x * den y) ->
  rdiv x y = Throw InvalidArgument.
Proof.
  intros _ _ H S1. unfold rdiv. rewrite safe_chk by auto. simpl.
  rewrite H, Z.mul_0_r. reflexivity.
Qed.

(** ** Comparisons *)

Lemma sub_sign x y r : wf x -> wf y -> wf r ->
  num r * (den x * den y) = (num x * den y - den x * num y) * den r ->
  (num r < 0 <-> num x * den y < num y * den x) /\ (0 < num r <-> num y * den x < num x * den y).
Proof.
  intros (_ & Dx & _) (_ & Dy & _) (_ & Dr & _) H.
  assert (0 < den x * den y) by nia.
  split; split; intros; nia.
Qed.

Lemma Qlt_toQ x y : wf x -> wf y -> ((toQ x < toQ y)%Q <-> num x * den y < num y * den x).
Proof.
  intros (_ & Dx & _) (_ & Dy & _). unfold Qlt, toQ; simpl. rewrite !Z2Pos.id by lia. tauto.
Qed.
Lemma Qle_toQ x y : wf x -> wf y -> ((toQ x <= toQ y)%Q <-> num x * den y <= num y * den x).
Proof.
  intros (_ & Dx & _) (_ & Dy & _). unfold Qle, toQ; simpl. rewrite !Z2Pos.id by lia. tauto.
Qed.
Lemma Qeq_toQ x y : wf x -> wf y -> ((toQ x == toQ y)%Q <-> num x * den y = num y * den x).
Proof.
  intros (_ & Dx & _) (_ & Dy & _). unfold Qeq, toQ; simpl. rewrite !Z2Pos.id by lia. tauto.
Qed.

Lemma cmp_correct x y : wf x -> wf y -> safe_sub x y ->
  exists bl bg ble bge,
    rlt x y = Ok bl /\ rgt x y = Ok bg /\ rle x y = Ok ble /\ rge x y = Ok bge /\
    (bl = true <-> (toQ x < toQ y)%Q) /\ (bg = true <-> (toQ y < toQ x)%Q) /\
    (ble = true <-> (toQ x <= toQ y)%Q) /\ (bge = true <-> (toQ y <= toQ x)%Q).
Proof.
  intros Wx Wy S. destruct (rsub_correct x y Wx Wy S) as (r & E & W & _ & V).
  destruct (sub_sign x y r Wx Wy W V) as (Hn & Hp).
  unfold rlt, rgt, rle, rge. rewrite E. simpl.
  do 4 eexists. do 4 (split; [reflexivity|]).
  rewrite !Qlt_toQ, !Qle_toQ by auto.
  rewrite !Z.ltb_lt, !Z.leb_le. repeat split; intros; lia.
Qed.

Lemma coprime_unique a b c d : 0 < b -> 0 < d -> Z.gcd a b = 1 -> Z.gcd c d = 1 ->
  a * d = c * b -> a = c /\ b = d.
Proof.
  intros Hb Hd G1 G2 E.
  assert (D1 : (b | d)).
  { apply Z.gauss with a; [|rewrite Z.gcd_comm; exact G1]. exists c. lia. }
  assert (D2 : (d | b)).
  { apply Z.gauss with c; [|rewrite Z.gcd_comm; exact G2]. exists a. lia. }
  assert (b = d) by (apply Z.divide_antisym_nonneg; auto; lia). subst. split; [nia|auto].
Qed.

Lemma req_spec x y : wf x -> wf y ->
  (req x y = true <-> ((toQ x == toQ y)%Q /\ (num x = 0 -> den x = den y))).
Proof.
  intros Wx Wy. unfold req. rewrite andb_true_iff, !Z.eqb_eq. rewrite Qeq_toQ by auto.
  destruct Wx as (_ & Dx & Cx), Wy as (_ & Dy & Cy).
  split.
  - intros [-> ->]. auto.
  - intros [E H]. destruct (Z.eq_dec (num x) 0) as [Z0|NZ].
    + assert (num y = 0) by nia. split; [lia|auto].
    + assert (num y <> 0) by nia. apply coprime_unique; auto; lia.
Qed.

Lemma rne_negb x y : rne x y = negb (req x y).
Proof. unfold rne, req. destruct (num x =? num y), (den x =? den y); reflexivity. Qed.

(** ** Step counter *)

Lemma make_1_2 : make_rat 1 2 = Ok (mkrat 1 2).
Proof. reflexivity. Qed.

Lemma int_sub_half : int_sub 1 (mkrat 1 2) = Ok (mkrat 1 2).
Proof. reflexivity. Qed.

Lemma advance_count_int n : safe (n + 1) -> safe n ->
  advance_count (mkrat n 1) = Ok (mkrat (n + 1) 1).
Proof.
  intros Hn Hn'. unfold advance_count, rat_of_int.
  destruct (radd_correct (mkrat n 1) (mkrat 1 1)) as (r & E & W & Q).
  - unfold wf, int32, safe in *; simpl. repeat split; try lia. intros; apply Z.gcd_1_r.
  - unfold wf, int32, safe in *; simpl. repeat split; try lia.
  - unfold safe_add, safe in *; simpl. lia.
  - unfold radd in *. simpl in *. rewrite ?Z.mul_1_r in *.
    rewrite !safe_chk in * by (unfold safe in *; lia). simpl in *.
    rewrite !safe_chk in * by (unfold safe in *; lia). simpl in *.
    unfold make_rat, reduce in *. simpl in *.
    destruct (Z.eqb_spec (n + 1) 0) as [E0|N0].
    + simpl. rewrite E0. reflexivity.
    + rewrite (chk_ok (Z.abs (n + 1))) by (apply in_int_spec; unfold safe in *; lia). simpl.
      rewrite gcd_bin_correct by (unfold safe in *; lia). simpl.
      rewrite Z.gcd_1_r. change (1 ÷ 1) with 1. simpl. rewrite Z.quot_1_r. reflexivity.
Qed.

Lemma halves_add n w0 w2 : 0 <= n <= 536870910 ->
  rmul (mkrat n 1) (mkrat 1 2) = Ok w0 -> rmul (mkrat (n + 2) 1) (mkrat 1 2) = Ok w2 ->
  radd w0 w2 = Ok (mkrat (n + 1) 1).
Proof.
  intros Hn H0 H2.
  destruct (Z.eq_dec n 0) as [->|Hn0].
  { change (rmul (mkrat 0 1) (mkrat 1 2)) with (Ok (mkrat 0 2)) in H0.
    change (rmul (mkrat (0+2) 1) (mkrat 1 2)) with (Ok (mkrat 1 1)) in H2.
    inversion H0; inversion H2; subst. reflexivity. }
  assert (M : forall m, 0 < m <= 1000000002 ->
     rmul (mkrat m 1) (mkrat 1 2) = Ok (if m mod 2 =? 0 then mkrat (m / 2) 1 else mkrat m 2)).
  { intros m Hm.
    unfold rmul. simpl num; simpl den. rewrite Z.mul_1_r.
    rewrite !chk_ok by (apply in_int_spec; lia). bsimp.
    unfold make_rat, reduce.
    replace (1 * 2 =? 0) with false by reflexivity.
    destruct (Z.eqb_spec m 0); [lia|].
    rewrite !chk_ok by (apply in_int_spec; lia). bsimp.
    rewrite gcd_bin_correct by lia. bsimp.
    rewrite (Z.abs_eq m) by lia.
    destruct (Z.eqb_spec (m mod 2) 0) as [E|O].
    - assert (G : Z.gcd m (Z.abs (1 * 2)) = 2).
      { change (Z.abs (1 * 2)) with 2. rewrite (mod2_even m E).
        rewrite Z.gcd_comm, Z.gcd_mul_diag_l by lia. reflexivity. }
      rewrite G. assert (Qm : Z.quot m 2 = m / 2).
      { rewrite (mod2_even m E) at 1. rewrite Z.mul_comm. apply Z.quot_mul. lia. }
      rewrite Qm. reflexivity.
    - change (Z.abs (1*2)) with 2. rewrite gcd_2_odd by auto. rewrite !Z.quot_1_r. reflexivity. }
  rewrite M in H0 by lia. rewrite M in H2 by lia.
  assert (E2 : (n + 2) mod 2 = n mod 2).
  { replace (n + 2) with (n + 1 * 2) by lia. apply Z.mod_add. lia. }
  rewrite E2 in H2.
  destruct (Z.eqb_spec (n mod 2) 0) as [E|O]; inversion H0; inversion H2; subst.
  - pose proof (mod2_even _ E) as En.
    assert (Eh : (n + 2) / 2 = n / 2 + 1).
    { replace (n + 2) with (n + 1 * 2) by lia. apply Z.div_add. lia. }
    unfold radd. simpl num; simpl den. rewrite !Z.mul_1_r, !Z.mul_1_l.
    rewrite !chk_ok by (apply in_int_spec; lia). bsimp.
    rewrite !chk_ok by (apply in_int_spec; lia). bsimp.
    replace (n / 2 + (n + 2) / 2) with (n + 1) by lia.
    unfold make_rat, reduce. simpl (1 =? 0).
    destruct (Z.eqb_spec (n + 1) 0); [lia|].
    rewrite !chk_ok by (apply in_int_spec; lia). bsimp.
    rewrite gcd_bin_correct by lia. bsimp.
    rewrite Z.gcd_1_r, !Z.quot_1_r. reflexivity.
  - unfold radd. simpl num; simpl den.
    rewrite !chk_ok by (apply in_int_spec; lia). bsimp.
    rewrite !chk_ok by (apply in_int_spec; lia). bsimp.
    replace (n * 2 + 2 * (n + 2)) with (4 * (n + 1)) by lia.
    unfold make_rat, reduce. simpl (2 * 2 =? 0).
    destruct (Z.eqb_spec (4 * (n + 1)) 0); [lia|].
    rewrite !chk_ok by (apply in_int_spec; lia). bsimp.
    rewrite gcd_bin_correct by lia. bsimp.
    rewrite (Z.abs_eq (4 * (n + 1))) by lia.
    change (2 * 2) with 4.
    rewrite (Z.gcd_comm _ 4), Z.gcd_mul_diag_l by lia.
    rewrite (Z.mul_comm 4), Z.quot_mul by lia. reflexivity.
Qed.

Lemma rmul_half_ok n : 0 <= n <= 2147483647 -> exists w, rmul (mkrat n 1) (mkrat 1 2) = Ok w.
Proof.
  intros Hn. destruct (rmul_correct (mkrat n 1) (mkrat 1 2)) as (r & E & _).
  - unfold wf, int32; simpl; repeat split; try lia. intros; apply Z.gcd_1_r.
  - unfold wf, int32; simpl; repeat split; try lia.
  - unfold safe_mul, safe; simpl; lia.
  - eauto.
Qed.

Lemma step_count_int o n : 0 <= n <= 536870910 ->
  step_count o (mkrat n 1) = Ok (mkrat (n + 1) 1).
Proof.
  intros Hn. destruct o; unfold step_count.
  - apply advance_count_int; unfold safe; lia.
  - rewrite make_1_2. bsimp.
    rewrite advance_count_int by (unfold safe; lia). bsimp.
    rewrite advance_count_int by (unfold safe; lia). bsimp.
    replace (n + 1 + 1) with (n + 2) by lia.
    destruct (rmul_half_ok n) as (w0 & E0); [lia|].
    destruct (rmul_half_ok (n + 2)) as (w2 & E2); [lia|].
    rewrite E0. bsimp. rewrite int_sub_half. bsimp. rewrite E2. bsimp.
    eapply halves_add; eauto.
Qed.

Lemma run_count_int steps : forall n, 0 <= n -> n + Z.of_nat (length steps) <= 536870911 ->
  run_count (mkrat n 1) steps = Ok (mkrat (n + Z.of_nat (length steps)) 1).
Proof.
  unfold run_count. induction steps as [|o steps IH]; intros n Hn Hb; simpl foldM.
  - simpl. rewrite Z.add_0_r. reflexivity.
  - simpl length in *. rewrite Nat2Z.inj_succ in *.
    rewrite step_count_int by lia. bsimp. rewrite IH by lia.
    replace (n + Z.succ (Z.of_nat (length steps))) with (n + 1 + Z.of_nat (length steps)) by lia.
    reflexivity.
Qed.

(** ** Complete case analysis, without guards *)

Lemma make_rat_total n d : in_int n = true -> in_int d = true -> d <> 0 ->
  make_rat n d = UB /\ ~ (safe n /\ safe d) \/ exists r, make_rat n d = Ok r.
Proof.
  intros Hn Hd H0.
  apply in_int_spec in Hn. apply in_int_spec in Hd.
  destruct (Z.eq_dec n (-2147483648)) as [->|Nn].
  { left. split; [|unfold safe; lia]. unfold make_rat. destruct (Z.eqb_spec d 0); [contradiction|]. reflexivity. }
  destruct (Z.eq_dec d (-2147483648)) as [->|Nd].
  { left. split; [|unfold safe; lia]. unfold make_rat, reduce. simpl (_ =? 0).
    destruct (Z.eqb_spec n 0); [subst; reflexivity|].
    rewrite (chk_ok (Z.abs n)) by (apply in_int_spec; lia). reflexivity. }
  right. destruct (make_rat_correct n d) as (r & E & _); try lia. eauto.
Qed.

Lemma chk_cases z : (chk z = UB /\ ~ safe z) \/ (chk z = Ok z /\ in_int z = true).
Proof.
  unfold chk. destruct (in_int z) eqn:E; [right; auto|left; split; auto].
  intros [H1 H2]. assert (in_int z = true) by (apply in_int_spec; lia). congruence.
Qed.

Lemma radd_total x y : wf x -> wf y ->
  exact_or_overflow (radd x y) (toQ x + toQ y)%Q (safe_add x y).
Proof.
  intros Wx Wy. unfold exact_or_overflow, radd.
  destruct (chk_cases (num x * den y)) as [[-> H]|[-> I1]]; [right; split; [reflexivity|unfold safe_add; tauto]|]. bsimp.
  destruct (chk_cases (den x * num y)) as [[-> H]|[-> I2]]; [right; split; [reflexivity|unfold safe_add; tauto]|]. bsimp.
  destruct (chk_cases (num x * den y + den x * num y)) as [[-> H]|[-> I3]]; [right; split; [reflexivity|unfold safe_add; tauto]|]. bsimp.
  destruct (chk_cases (den x * den y)) as [[-> H]|[-> I4]]; [right; split; [reflexivity|unfold safe_add; tauto]|]. bsimp.
  assert (den x * den y <> 0) by (destruct Wx as (_ & ? & _), Wy as (_ & ? & _); nia).
  destruct (make_rat_total _ _ I3 I4 H) as [[E N]|[r E]]; [right; split; [exact E|unfold safe_add; tauto]|].
  left. exists r. destruct (make_rat_wf _ _ _ I3 I4 E) as [W V].
  split; [exact E|]. split; [exact W|].
  destruct Wx as (_ & Dx & _), Wy as (_ & Dy & _).
  unfold Qeq, Qplus, toQ; simpl.
  destruct W as (_ & Wd & _). rewrite Pos2Z.inj_mul, !Z2Pos.id by lia. nia.
Qed.

Lemma rsub_total x y : wf x -> wf y ->
  exact_or_overflow (rsub x y) (toQ x - toQ y)%Q (safe_sub x y).
Proof.
  intros Wx Wy. unfold exact_or_overflow, rsub.
  destruct (chk_cases (num x * den y)) as [[-> H]|[-> I1]]; [right; split; [reflexivity|unfold safe_sub; tauto]|]. bsimp.
  destruct (chk_cases (den x * num y)) as [[-> H]|[-> I2]]; [right; split; [reflexivity|unfold safe_sub; tauto]|]. bsimp.
  destruct (chk_cases (num x * den y - den x * num y)) as [[-> H]|[-> I3]]; [right; split; [reflexivity|unfold safe_sub; tauto]|]. bsimp.
  destruct (chk_cases (den x * den y)) as [[-> H]|[-> I4]]; [right; split; [reflexivity|unfold safe_sub; tauto]|]. bsimp.
  assert (den x * den y <> 0) by (destruct Wx as (_ & ? & _), Wy as (_ & ? & _); nia).
  destruct (make_rat_total _ _ I3 I4 H) as [[E N]|[r E]]; [right; split; [exact E|unfold safe_sub; tauto]|].
  left. exists r. destruct (make_rat_wf _ _ _ I3 I4 E) as [W V].
  split; [exact E|]. split; [exact W|].
  destruct Wx as (_ & Dx & _), Wy as (_ & Dy & _).
  unfold Qeq, Qminus, Qplus, Qopp, toQ; simpl.
  destruct W as (_ & Wd & _). rewrite Pos2Z.inj_mul, !Z2Pos.id by lia. nia.
Qed.

Lemma rmul_total x y : wf x -> wf y ->
  exact_or_overflow (rmul x y) (toQ x * toQ y)%Q (safe_mul x y).
Proof.
  intros Wx Wy. unfold exact_or_overflow, rmul.
  destruct (chk_cases (num x * num y)) as [[-> H]|[-> I3]]; [right; split; [reflexivity|unfold safe_mul; tauto]|]. bsimp.
  destruct (chk_cases (den x * den y)) as [[-> H]|[-> I4]]; [right; split; [reflexivity|unfold safe_mul; tauto]|]. bsimp.
  assert (den x * den y <> 0) by (destruct Wx as (_ & ? & _), Wy as (_ & ? & _); nia).
  destruct (make_rat_total _ _ I3 I4 H) as [[E N]|[r E]]; [right; split; [exact E|unfold safe_mul; tauto]|].
  left. exists r. destruct (make_rat_wf _ _ _ I3 I4 E) as [W V].
  split; [exact E|]. split; [exact W|].
  destruct Wx as (_ & Dx & _), Wy as (_ & Dy & _).
  unfold Qeq, Qmult, toQ; simpl.
  destruct W as (_ & Wd & _). rewrite Pos2Z.inj_mul, !Z2Pos.id by lia. nia.
Qed.

Lemma rdiv_total x y : wf x -> wf y -> ~ (toQ y == 0)%Q ->
  exact_or_overflow (rdiv x y) (toQ x / toQ y)%Q (safe_div x y).
Proof.
  intros Wx Wy Hy.
  assert (Ny : num y <> 0).
  { intros E. apply Hy. unfold Qeq, toQ; simpl. lia. }
  unfold exact_or_overflow.
  destruct (chk_cases (num x * den y)) as [[E1 H]|[E1 I3]].
  { right. unfold rdiv. rewrite E1. split; [reflexivity|unfold safe_div; tauto]. }
  destruct (chk_cases (den x * num y)) as [[E2 H]|[E2 I4]].
  { right. unfold rdiv. rewrite E1. bsimp. rewrite E2. split; [reflexivity|unfold safe_div; tauto]. }
  assert (D0 : den x * num y <> 0) by (destruct Wx as (_ & ? & _); nia).
  destruct (make_rat_total _ _ I3 I4 D0) as [[E N]|[r E]].
  { right. unfold rdiv. rewrite E1. bsimp. rewrite E2. bsimp. split; [exact E|unfold safe_div; tauto]. }
  left. exists r. destruct (make_rat_wf _ _ _ I3 I4 E) as [W V].
  split; [unfold rdiv; rewrite E1; bsimp; rewrite E2; bsimp; exact E|]. split; [exact W|].
  destruct Wx as (_ & Dx & _), Wy as (_ & Dy & _).
  destruct W as (_ & Wd & _).
  unfold Qdiv, Qinv, Qmult, Qeq, toQ; simpl.
  destruct (num y) as [|p|p] eqn:En; simpl; [lia| |];
    rewrite Pos2Z.inj_mul, ?Z2Pos.id by lia.
  - nia.
  - change (Z.neg (Z.to_pos (den y))) with (- Z.pos (Z.to_pos (den y))).
    rewrite Z2Pos.id by lia. change (Z.neg p) with (- Z.pos p) in *. nia.
Qed.

Lemma rdiv_zero_throws x y : wf x -> wf y -> (toQ y == 0)%Q -> in_int (num x * den y) = true ->
  rdiv x y = Throw InvalidArgument.
Proof.
  intros Wx Wy H I. assert (num y = 0).
  { unfold Qeq, toQ in H; simpl in H. lia. }
  unfold rdiv. rewrite (chk_ok _ I). bsimp. rewrite H0, Z.mul_0_r. reflexivity.
Qed.
