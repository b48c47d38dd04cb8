(** Hilbert index: totality, collisions of the call as written, injectivity of the curve itself. *)
From Coq Require Import ZArith List Bool Lia.
From Verif Require Import Base TreeModel TreeSpec HilbertModel.
Import ListNotations.
Open Scope Z_scope.

Lemma chk_range z : -2147483648 <= z <= 2147483647 -> chk z = Ok z.
Proof. intros H. apply chk_ok. apply in_int_spec. exact H. Qed.

Lemma land_mod x s m : 0 <= m -> 0 <= s < 2 ^ m -> Z.land x s = Z.land (x mod 2 ^ m) s.
Proof.
  intros Hm Hs. rewrite <- Z.land_ones by lia.
  rewrite <- Z.land_assoc, (Z.land_comm (Z.ones m) s), Z.land_ones, (Z.mod_small s) by lia. reflexivity.
Qed.

Definition bitv (b : bool) : Z := if b then 1 else 0.
Lemma dig_val a b : Z.lxor (3 * bitv a) (bitv b) = (if a then if b then 2 else 3 else if b then 1 else 0).
Proof. destruct a, b; reflexivity. Qed.

Definition rotp (n : Z) (p : Z * Z) (a b : bool) : Z * Z :=
  if b then p else if a then (n - 1 - snd p, n - 1 - fst p) else (snd p, fst p).

Definition inI (lo hi : Z) (p : Z * Z) : Prop := lo <= fst p <= hi /\ lo <= snd p <= hi.

Lemma rot_ok n lo hi x y a b : inI lo hi (x, y) -> lo + hi = n - 1 ->
  -2147483648 <= lo -> hi <= 2147483647 ->
  rot n x y (bitv a) (bitv b) = Ok (rotp n (x, y) a b) /\ inI lo hi (rotp n (x, y) a b).
Proof.
  unfold inI, rot, rotp. cbn [fst snd]. intros [H1 H2] HS HL HH. destruct b; cbn [bitv].
  - replace (1 =? 0) with false by reflexivity. split; [reflexivity|cbn [fst snd]; lia].
  - replace (0 =? 0) with true by reflexivity. destruct a; cbn [bitv].
    + replace (1 =? 1) with true by reflexivity. rewrite !chk_range by lia. bsimp.
      split; [reflexivity|cbn [fst snd]; lia].
    + replace (0 =? 1) with false by reflexivity. bsimp. split; [reflexivity|cbn [fst snd]; lia].
Qed.

(** Total: the loop ends and nothing overflows. *)
Lemma loop_total n lo hi : lo + hi = n - 1 -> -2147483648 <= lo -> hi <= 2147483647 ->
  forall fuel s x y d, inI lo hi (x, y) -> 0 <= s < 2 ^ Z.of_nat fuel -> 0 <= d -> d + 4 * (s * s) <= 2147483647 ->
  exists r, xy2d_loop fuel n s x y d = Ok r /\ d <= r <= d + 4 * (s * s).
Proof.
  intros HS HL HH fuel. induction fuel as [|f IH]; intros s x y d HI Hs Hd HB.
  - change (2 ^ Z.of_nat 0) with 1 in Hs. assert (s = 0) by lia. subst s. simpl. exists d. split; [reflexivity|lia].
  - cbn [xy2d_loop]. rewrite Z.gtb_ltb. destruct (Z.ltb_spec 0 s) as [Hp|Hp].
    2:{ exists d. split; [reflexivity|nia]. }
    set (a := Z.land x s >? 0). set (b := Z.land y s >? 0).
    change (if a then 1 else 0) with (bitv a). change (if b then 1 else 0) with (bitv b).
    rewrite (chk_range (s * s)) by nia. bsimp. rewrite dig_val.
    set (g := (if a then if b then 2 else 3 else if b then 1 else 0)).
    assert (Hg : 0 <= g <= 3) by (unfold g; destruct a, b; lia).
    rewrite (chk_range (s * s * g)) by nia. bsimp. rewrite (chk_range (d + s * s * g)) by nia. bsimp.
    destruct (rot_ok n lo hi x y a b HI HS HL HH) as [-> HI']. bsimp.
    destruct (rotp n (x, y) a b) as [x' y'].
    assert (H2 : 2 * (s / 2) <= s) by (apply Z.mul_div_le; lia).
    assert (H3 : 0 <= s / 2) by (apply Z.div_pos; lia).
    rewrite Nat2Z.inj_succ, Z.pow_succ_r in Hs by lia.
    destruct (IH (s / 2) x' y' (d + s * s * g)) as (r & E & Hr); [auto| |nia|nia|].
    { split; [lia|]. apply Z.div_lt_upper_bound; lia. }
    exists r. split; [exact E|]. nia.
Qed.

(** Coordinates that agree modulo a power of two above [s] cannot be told apart. *)
Lemma loop_congr n lo hi m : lo + hi = n - 1 -> -2147483648 <= lo -> hi <= 2147483647 -> 0 <= m ->
  forall fuel s x y x' y' d, inI lo hi (x, y) -> inI lo hi (x', y') -> 0 <= s < 2 ^ m ->
  x mod 2 ^ m = x' mod 2 ^ m -> y mod 2 ^ m = y' mod 2 ^ m ->
  xy2d_loop fuel n s x y d = xy2d_loop fuel n s x' y' d.
Proof.
  intros HS HL HH Hm fuel. induction fuel as [|f IH]; intros s x y x' y' d HI HI' Hs Hx Hy; [reflexivity|].
  cbn [xy2d_loop]. rewrite (land_mod x s m), (land_mod y s m), Hx, Hy, <- !(land_mod _ s m) by lia.
  destruct (s >? 0); [|reflexivity].
  set (a := Z.land x' s >? 0). set (b := Z.land y' s >? 0).
  change (if a then 1 else 0) with (bitv a). change (if b then 1 else 0) with (bitv b).
  destruct (chk (s * s)) as [q| | |]; bsimp; try reflexivity.
  destruct (chk (q * _)) as [t| | |]; bsimp; try reflexivity.
  destruct (chk (d + t)) as [d'| | |]; bsimp; try reflexivity.
  destruct (rot_ok n lo hi x y a b HI HS HL HH) as [-> HJ].
  destruct (rot_ok n lo hi x' y' a b HI' HS HL HH) as [-> HJ']. bsimp.
  assert (HF : forall u v, u mod 2 ^ m = v mod 2 ^ m -> (n - 1 - u) mod 2 ^ m = (n - 1 - v) mod 2 ^ m).
  { intros u v E. rewrite Zminus_mod, E, <- Zminus_mod. reflexivity. }
  assert (HP : fst (rotp n (x, y) a b) mod 2 ^ m = fst (rotp n (x', y') a b) mod 2 ^ m /\
               snd (rotp n (x, y) a b) mod 2 ^ m = snd (rotp n (x', y') a b) mod 2 ^ m).
  { unfold rotp. destruct b, a; cbn [fst snd]; auto. }
  destruct (rotp n (x, y) a b) as [x1 y1], (rotp n (x', y') a b) as [x2 y2]. cbn [fst snd] in HP.
  apply IH; try tauto.
  split; [apply Z.div_pos; lia|]. apply Z.le_lt_trans with s; [apply Z.div_le_upper_bound; lia|lia].
Qed.

Lemma half_lt_pow l : 1 <= l -> l / 2 < 2 ^ (l - 1).
Proof.
  intros Hl. assert (H : l <= 2 ^ (l - 1)).
  { pose proof (Z.pow_gt_lin_r 2 (l - 1)). lia. }
  apply Z.div_lt_upper_bound; lia.
Qed.

(** ** The call as written: translates by half the domain collide *)
Lemma pow_nat_Z l : Z.of_nat (2 ^ l) = 2 ^ Z.of_nat l.
Proof. rewrite Nat2Z.inj_pow. reflexivity. Qed.

Lemma coord_small l c : (l <= 30)%nat -> (c < 2 ^ l)%nat -> 0 <= Z.of_nat c < 2 ^ 30.
Proof.
  intros Hl Hc. split; [lia|]. apply Nat2Z.inj_lt in Hc. rewrite pow_nat_Z in Hc.
  eapply Z.lt_le_trans; [exact Hc|]. apply Z.pow_le_mono_r; lia.
Qed.

Lemma hilbert_total i : in_range 2 i -> (level i <= 30)%nat -> exists d, hilbert_index i = Ok d.
Proof.
  destruct i as [l cs]. intros [HL HF] Hl. cbn [level coords] in *.
  destruct cs as [|cx [|cy [|]]]; try discriminate. inversion HF as [|? ? Hx HF']; subst. inversion HF'; subst.
  unfold hilbert_index. cbn [level coords].
  pose proof (coord_small l cx Hl Hx) as Bx. pose proof (coord_small l cy Hl H1) as By.
  change (2 ^ 30) with 1073741824 in *.
  rewrite !chk_range by lia. bsimp. unfold xy2d.
  assert (Hdiv : 0 <= Z.of_nat l / 2 <= 15).
  { split; [apply Z.div_pos; lia|]. change 15 with (30 / 2). apply Z.div_le_mono; lia. }
  destruct (loop_total (Z.of_nat l) (Z.of_nat l - 1073741824) 1073741823 ltac:(lia) ltac:(lia) ltac:(lia)
    32 (Z.of_nat l / 2) (Z.of_nat cx) (Z.of_nat cy) 0) as (r & E & _).
  - unfold inI. cbn [fst snd]. lia.
  - change (2 ^ Z.of_nat 32) with 4294967296. lia.
  - lia.
  - nia.
  - eauto.
Qed.

Lemma hilbert_collide l cx cy : (1 <= l <= 30)%nat -> (cx < 2 ^ (l - 1))%nat -> (cy < 2 ^ l)%nat ->
  hilbert_index (mkidx l [cx; cy]) = hilbert_index (mkidx l [(cx + 2 ^ (l - 1))%nat; cy]).
Proof.
  intros Hl Hx Hy. unfold hilbert_index. cbn [level coords].
  assert (Hpow : (2 ^ l = 2 ^ (l - 1) + 2 ^ (l - 1))%nat).
  { destruct l as [|l]; [lia|]. rewrite Nat.pow_succ_r', Nat.sub_succ, Nat.sub_0_r. lia. }
  assert (Hl30 : (l <= 30)%nat) by lia.
  assert (Bx : 0 <= Z.of_nat cx < 2 ^ 30) by (apply (coord_small l); lia).
  assert (Bx' : 0 <= Z.of_nat (cx + 2 ^ (l - 1)) < 2 ^ 30) by (apply (coord_small l); lia).
  pose proof (coord_small l cy Hl30 Hy) as By.
  change (2 ^ 30) with 1073741824 in *.
  assert (Bl : 1 <= Z.of_nat l <= 30) by lia.
  rewrite !chk_range by lia. bsimp. unfold xy2d.
  apply (loop_congr (Z.of_nat l) (Z.of_nat l - 1073741824) 1073741823 (Z.of_nat l - 1)).
  1-4: lia.
  1-2: unfold inI; cbn [fst snd]; lia.
  - split; [apply Z.div_pos; lia|]. apply half_lt_pow; lia.
  - rewrite Nat2Z.inj_add, pow_nat_Z. replace (Z.of_nat (l - 1)) with (Z.of_nat l - 1) by lia.
    rewrite <- (Z.mul_1_l (2 ^ (Z.of_nat l - 1))) at 2. rewrite Z.mod_add; [reflexivity|].
    apply Z.pow_nonzero; lia.
  - reflexivity.
Qed.

(** ** The curve itself: [xy2d] on a power-of-two grid *)

(** The curve as a function of the low bits. *)
Fixpoint curve (j : nat) (n : Z) (p : Z * Z) : Z :=
  match j with
  | O => 0
  | S j' =>
      let a := Z.testbit (fst p) (Z.of_nat j') in
      let b := Z.testbit (snd p) (Z.of_nat j') in
      4 ^ Z.of_nat j' * (if a then if b then 2 else 3 else if b then 1 else 0) + curve j' n (rotp n p a b)
  end.

Lemma land_pow2 x j : 0 <= j -> (Z.land x (2 ^ j) >? 0) = Z.testbit x j.
Proof.
  intros Hj. pose proof (Z.pow_pos_nonneg 2 j ltac:(lia) Hj) as Hp.
  destruct (Z.testbit x j) eqn:E.
  - replace (Z.land x (2 ^ j)) with (2 ^ j); [rewrite Z.gtb_ltb; apply Z.ltb_lt; lia|].
    apply Z.bits_inj'. intros k Hk. rewrite Z.land_spec. destruct (Z.eqb_spec j k) as [->|Hne].
    + rewrite E, Z.pow2_bits_true by lia. reflexivity.
    + rewrite Z.pow2_bits_false by lia. rewrite andb_false_r. reflexivity.
  - replace (Z.land x (2 ^ j)) with 0; [reflexivity|].
    apply Z.bits_inj'. intros k Hk. rewrite Z.land_spec, Z.bits_0. destruct (Z.eqb_spec j k) as [->|Hne].
    + rewrite E. reflexivity.
    + rewrite Z.pow2_bits_false by lia. rewrite andb_false_r. reflexivity.
Qed.

Lemma pow4 j : 0 <= j -> 2 ^ j * 2 ^ j = 4 ^ j.
Proof. intros Hj. rewrite <- Z.pow_mul_l. reflexivity. Qed.

Lemma curve_bound n j : forall p, 0 <= curve j n p < 4 ^ Z.of_nat j.
Proof.
  induction j as [|j IH]; intros p; [cbn; lia|].
  cbn [curve]. cbv zeta. rewrite Nat2Z.inj_succ, Z.pow_succ_r by lia.
  match goal with |- context [curve j n ?q] => specialize (IH q) end.
  destruct (Z.testbit (fst p) _), (Z.testbit (snd p) _); lia.
Qed.

Definition half_pow (j : nat) : Z := match j with O => 0 | S j' => 2 ^ Z.of_nat j' end.

Lemma loop_curve n j : forall fuel x y d, 0 < n <= 1073741824 -> (j <= fuel)%nat -> (j <= 15)%nat ->
  inI 0 (n - 1) (x, y) -> 0 <= d -> d + 4 ^ Z.of_nat j <= 2147483647 ->
  xy2d_loop fuel n (half_pow j) x y d = Ok (d + curve j n (x, y)).
Proof.
  induction j as [|j IH]; intros fuel x y d Hn Hf Hj HI Hd HB.
  - destruct fuel; cbn; f_equal; lia.
  - destruct fuel as [|f]; [lia|]. cbn [xy2d_loop half_pow].
    pose proof (Z.pow_pos_nonneg 2 (Z.of_nat j) ltac:(lia) ltac:(lia)) as Hp.
    replace (2 ^ Z.of_nat j >? 0) with true by (symmetry; rewrite Z.gtb_ltb; apply Z.ltb_lt; lia).
    rewrite !land_pow2 by lia. cbn [curve fst snd].
    set (a := Z.testbit x (Z.of_nat j)). set (b := Z.testbit y (Z.of_nat j)).
    change (if a then 1 else 0) with (bitv a). change (if b then 1 else 0) with (bitv b).
    rewrite Nat2Z.inj_succ, Z.pow_succ_r in HB by lia.
    rewrite pow4 by lia.
    assert (Hp4 : 0 < 4 ^ Z.of_nat j) by (apply Z.pow_pos_nonneg; lia).
    rewrite (chk_range (4 ^ Z.of_nat j)) by lia. bsimp. rewrite dig_val.
    set (g := (if a then if b then 2 else 3 else if b then 1 else 0)).
    assert (Hg : 0 <= g <= 3) by (unfold g; destruct a, b; lia).
    rewrite (chk_range (4 ^ Z.of_nat j * g)) by nia. bsimp.
    rewrite (chk_range (d + 4 ^ Z.of_nat j * g)) by nia. bsimp.
    destruct (rot_ok n 0 (n - 1) x y a b HI ltac:(lia) ltac:(lia) ltac:(lia)) as [-> HI']. bsimp.
    destruct (rotp n (x, y) a b) as [x' y'] eqn:ER.
    replace (2 ^ Z.of_nat j / 2) with (half_pow j).
    2:{ destruct j as [|j]; [reflexivity|]. cbn [half_pow]. rewrite Nat2Z.inj_succ, Z.pow_succ_r by lia.
        rewrite Z.mul_comm, Z.div_mul by lia. reflexivity. }
    rewrite IH; auto; try lia; try nia. f_equal. rewrite <- Z.add_assoc. reflexivity.
Qed.

Lemma mod_split x j : 0 <= j -> x mod 2 ^ (j + 1) = x mod 2 ^ j + 2 ^ j * bitv (Z.testbit x j).
Proof.
  intros Hj. rewrite Z.pow_add_r by lia. change (2 ^ 1) with 2.
  rewrite Z.rem_mul_r by (try apply Z.pow_nonzero; lia). f_equal. f_equal.
  rewrite <- Z.shiftr_div_pow2 by lia. rewrite Zmod_odd. rewrite <- Z.bit0_odd, Z.shiftr_spec by lia.
  replace (0 + j) with j by lia. reflexivity.
Qed.

Lemma flip_mod_inj n u v m : 0 < m -> (n - 1 - u) mod m = (n - 1 - v) mod m -> u mod m = v mod m.
Proof.
  intros Hm E. replace u with (n - 1 - (n - 1 - u)) by lia. replace v with (n - 1 - (n - 1 - v)) by lia.
  rewrite (Zminus_mod (n - 1) (n - 1 - u)), E, <- Zminus_mod. reflexivity.
Qed.

Lemma curve_inj n j : forall p q, curve j n p = curve j n q ->
  fst p mod 2 ^ Z.of_nat j = fst q mod 2 ^ Z.of_nat j /\ snd p mod 2 ^ Z.of_nat j = snd q mod 2 ^ Z.of_nat j.
Proof.
  induction j as [|j IH]; intros p q E.
  - change (2 ^ Z.of_nat 0) with 1. rewrite !Z.mod_1_r. auto.
  - cbn [curve] in E. cbv zeta in E. rewrite Nat2Z.inj_succ. unfold Z.succ. rewrite !mod_split by lia.
    set (a := Z.testbit (fst p) (Z.of_nat j)) in *. set (b := Z.testbit (snd p) (Z.of_nat j)) in *.
    set (a' := Z.testbit (fst q) (Z.of_nat j)) in *. set (b' := Z.testbit (snd q) (Z.of_nat j)) in *.
    pose proof (curve_bound n j (rotp n p a b)) as B1. pose proof (curve_bound n j (rotp n q a' b')) as B2.
    assert (Hab : a = a' /\ b = b').
    { clear IH. clearbody a b a' b'. destruct a, b, a', b'; auto; exfalso; nia. }
    destruct Hab as [<- <-]. clear B1 B2. assert (E' : curve j n (rotp n p a b) = curve j n (rotp n q a b)) by lia.
    apply IH in E'. clear E. unfold rotp in E'.
    assert (Hp : 0 < 2 ^ Z.of_nat j) by (apply Z.pow_pos_nonneg; lia).
    clearbody a b. destruct b, a; cbn [fst snd] in E'; destruct E' as [E1 E2];
      repeat match goal with H : (n - 1 - _) mod _ = _ |- _ => apply flip_mod_inj in H; [|exact Hp] end;
      rewrite E1, E2; auto.
Qed.

Lemma xy2d_curve k x y : (k <= 15)%nat -> 0 <= x < 2 ^ Z.of_nat k -> 0 <= y < 2 ^ Z.of_nat k ->
  xy2d (2 ^ Z.of_nat k) x y = Ok (curve k (2 ^ Z.of_nat k) (x, y)).
Proof.
  intros Hk Hx Hy. unfold xy2d.
  replace (2 ^ Z.of_nat k / 2) with (half_pow k).
  2:{ destruct k as [|k]; [reflexivity|]. cbn [half_pow]. rewrite Nat2Z.inj_succ, Z.pow_succ_r by lia.
      rewrite Z.mul_comm, Z.div_mul by lia. reflexivity. }
  assert (B : 2 ^ Z.of_nat k <= 2 ^ 15) by (apply Z.pow_le_mono_r; lia). change (2 ^ 15) with 32768 in B.
  assert (B4 : 4 ^ Z.of_nat k <= 4 ^ 15) by (apply Z.pow_le_mono_r; lia).
  change (4 ^ 15) with 1073741824 in B4.
  rewrite (loop_curve _ k 32); auto; try lia. unfold inI; cbn [fst snd]; lia.
Qed.
