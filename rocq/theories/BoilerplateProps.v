(** C115: the boilerplate program carries its wave around the ring at unit speed (src/subprog_boilerplate.cpp 98-136, 265-287). *)
From Coq Require Import ZArith Reals List Lia Lra Psatz.
From Verif Require Import Base NdModel NdOpsModel NdSpec NdProofs NdOpsProofs NdOpsProofs2 Rep1Proofs ScheduleModel DriftProofs RunModel RunSpec RunProps RunTraceProofs BoilerplateModel.
Import ListNotations.
Open Scope R_scope.

(** *** Statements *)
(** A ring of length 1 in n equal zones that holds the values U. *)
Definition on_ring (s : state) (n : Z) (U : Z -> R) : Prop := rep1 (vertices s) (n + 1) (fun k => IZR k / IZR n) /\ rep1 (solution s) n U.
(** The centre of a zone, the wave that the program starts with, and where it is at a later time if it moves at unit speed. *)
Definition centre (n i : Z) : R := (IZR i + / 2) / IZR n.
Definition wave (t x : R) : R := sin (2 * PI * (x - t)).
(** The part of a zone that the wave moves in a step. *)
Definition courant (n : Z) : R := IZR n / (4 * (IZR n + 1)).
Definition variation (U : Z -> R) (n : Z) : R := rsum (fun k => Rabs (U k - U ((k - 1) mod n)%Z)) n.

(** *** Analysis *)
Lemma abs_range x a : Rabs x <= a -> - a <= x <= a.
Proof. intros H. revert H. unfold Rabs. destruct (Rcase_abs x); lra. Qed.
Lemma cos_lipschitz a c : 0 <= c -> Rabs (cos (a + c) - cos a) <= c.
Proof.
  intros Hc. destruct (Req_dec c 0) as [-> |N]; [rewrite Rplus_0_r, Rminus_diag_eq, Rabs_R0 by reflexivity; lra|].
  destruct (MVT_cor2 cos (fun x => - sin x) a (a + c)) as (x & E & _); [lra|intros; apply derivable_pt_lim_cos|].
  rewrite E. replace (a + c - a) with c by ring. rewrite Rabs_mult, Rabs_Ropp, (Rabs_pos_eq c) by lra. pose proof (SIN_bound x). assert (Rabs (sin x) <= 1) by (apply Rabs_le; lra). nra.
Qed.
Lemma sin_taylor_right a d : 0 <= d -> Rabs (sin (a + d) - sin a - d * cos a) <= d ^ 2 / 2.
Proof.
  intros Hd. destruct (Req_dec d 0) as [-> |N]; [rewrite Rplus_0_r; replace (sin a - sin a - 0 * cos a) with 0 by ring; rewrite Rabs_R0; lra|].
  assert (G : forall e, e = 1 \/ e = -1 -> e * (sin (a + d) - sin a - d * cos a) <= d ^ 2 / 2).
  { intros e He. set (h := fun x => x * x / 2 - e * (sin (a + x) - sin a - x * cos a)).
    destruct (MVT_cor2 h (fun x => x - e * (cos (a + x) - cos a)) 0 d) as (c & E & Hc); [lra| |].
    - intros c _. unfold h. apply (derivable_pt_lim_ext (fun x => (/ 2 * x * x + (- e) * (sin (a + x)) ) + (e * sin a + e * cos a * x))).
      + intros x. field.
      + replace (c - e * (cos (a + c) - cos a)) with ((/ 2 * c * 1 + / 2 * 1 * c + (- e) * (cos (a + c) * (0 + 1))) + (0 + e * cos a * 1)) by field.
        apply derivable_pt_lim_plus; [apply derivable_pt_lim_plus|apply derivable_pt_lim_plus].
        * replace (/ 2 * c * 1 + / 2 * 1 * c) with ((/ 2 * 1) * c + (/ 2 * c) * 1) by ring. apply (derivable_pt_lim_mult (fun x => / 2 * x) (fun x => x)); [apply (derivable_pt_lim_scal (fun x => x)), derivable_pt_lim_id|apply derivable_pt_lim_id].
        * apply (derivable_pt_lim_scal (fun x => sin (a + x))). apply (derivable_pt_lim_comp (fun x => a + x) sin); [apply (derivable_pt_lim_plus (fun _ => a) (fun x => x)); [apply derivable_pt_lim_const|apply derivable_pt_lim_id]|apply derivable_pt_lim_sin].
        * apply (derivable_pt_lim_const (e * sin a)).
        * apply (derivable_pt_lim_scal (fun x => x)), derivable_pt_lim_id.
    - assert (K : 0 <= c - e * (cos (a + c) - cos a)). { pose proof (cos_lipschitz a c ltac:(lra)) as L. apply abs_range in L. destruct He as [-> | ->]; lra. }
      unfold h in E. rewrite Rplus_0_r in E. assert (0 <= (c - e * (cos (a + c) - cos a)) * (d - 0)) by (apply Rmult_le_pos; lra). replace (0 * 0 / 2 - e * (sin a - sin a - 0 * cos a)) with 0 in E by field. simpl. lra. }
  apply Rabs_le. pose proof (G 1 ltac:(lra)). pose proof (G (-1) ltac:(lra)). lra.
Qed.
Lemma sin_taylor a d : Rabs (sin (a + d) - sin a - d * cos a) <= d ^ 2 / 2.
Proof.
  destruct (Rle_dec 0 d) as [H|H]; [apply sin_taylor_right, H|]. pose proof (sin_taylor_right (- a) (- d) ltac:(lra)) as K. replace (- a + - d) with (- (a + d)) in K by ring. rewrite !sin_neg, cos_neg in K. replace ((- d) ^ 2) with (d ^ 2) in K by ring.
  rewrite <- Rabs_Ropp. replace (- (sin (a + d) - sin a - d * cos a)) with (- sin (a + d) - - sin a - - d * cos a) by ring. exact K.
Qed.
(** Between two points a wave is as far from the straight line as its curvature allows. *)
Lemma wave_interpolation t x h c : 0 <= c <= 1 -> Rabs ((1 - c) * wave t x + c * wave t (x - h) - wave (t + c * h) x) <= 2 * PI ^ 2 * (c * (1 - c) * h ^ 2).
Proof.
  intros Hc. unfold wave. set (a := 2 * PI * (x - (t + c * h))). replace (2 * PI * (x - t)) with (a + 2 * PI * c * h) by (unfold a; ring). replace (2 * PI * (x - h - t)) with (a + - (2 * PI * (1 - c) * h)) by (unfold a; ring).
  pose proof (sin_taylor a (2 * PI * c * h)) as A. pose proof (sin_taylor a (- (2 * PI * (1 - c) * h))) as B. apply abs_range in A. apply abs_range in B.
  set (s1 := sin (a + 2 * PI * c * h)) in *. set (s2 := sin (a + - (2 * PI * (1 - c) * h))) in *. set (s := sin a) in *. set (k := cos a) in *. clearbody s1 s2 s k.
  assert (A1 : (1 - c) * - ((2 * PI * c * h) ^ 2 / 2) <= (1 - c) * (s1 - s - 2 * PI * c * h * k) <= (1 - c) * ((2 * PI * c * h) ^ 2 / 2)) by (split; apply Rmult_le_compat_l; lra).
  assert (B1 : c * - ((- (2 * PI * (1 - c) * h)) ^ 2 / 2) <= c * (s2 - s - - (2 * PI * (1 - c) * h) * k) <= c * ((- (2 * PI * (1 - c) * h)) ^ 2 / 2)) by (split; apply Rmult_le_compat_l; lra).
  replace ((1 - c) * s1 + c * s2 - s) with ((1 - c) * (s1 - s - 2 * PI * c * h * k) + c * (s2 - s - - (2 * PI * (1 - c) * h) * k)) by ring.
  replace (2 * PI ^ 2 * (c * (1 - c) * h ^ 2)) with ((1 - c) * ((2 * PI * c * h) ^ 2 / 2) + c * ((- (2 * PI * (1 - c) * h)) ^ 2 / 2)) by field. apply Rabs_le. lra.
Qed.
Lemma wave_turn t x : wave t (x + 1) = wave t x.
Proof. unfold wave. replace (2 * PI * (x + 1 - t)) with (2 * PI * (x - t) + 2 * PI) by ring. apply sin_2PI_r || (rewrite sin_plus, cos_2PI, sin_2PI; ring). Qed.

(** *** A step *)
Lemma step_value fuel s n U : (1 <= n)%Z -> (n + 1 <= 2147483647)%Z -> (Z.to_nat (n + 1) <= fuel)%nat -> (-2147483648 <= iteration s < 2147483647)%Z -> on_ring s n U ->
  exists s', next_solution fuel s = Ok s' /\ on_ring s' n (fun k => (1 - courant n) * U k + courant n * U ((k - 1) mod n)%Z) /\ time s' = time s + / (4 * (IZR n + 1)) /\ iteration s' = (iteration s + 1)%Z.
Proof.
  intros Hn HN Hf HI (HX & HU). unfold next_solution. rewrite (proj1 HX). cbn [nth]. set (dt := 0.25 / IZR (n + 1)).
  assert (NP : 1 <= IZR n) by (apply IZR_le, Hn). assert (DT : dt = / (4 * (IZR n + 1))) by (unfold dt; rewrite plus_IZR; replace 0.25 with (/ 4) by lra; field; lra).
  destruct (advection_value dt n U (fun k => IZR k / IZR n) (vertices s) (solution s) (proj1 HU) (proj1 HX) Hn ltac:(unfold two64; lia) (proj2 HU) (proj2 HX)) as (u1 & E & S1 & G). rewrite E. bsimp.
  rewrite chk_ok by (apply in_int_spec; lia). bsimp. destruct (evaluate1 fuel 0 u1 n _ ltac:(lia) ltac:(lia) (conj S1 G)) as (u & E2 & R2). rewrite E2. bsimp.
  eexists. split; [reflexivity|]. split; [|split; [cbn [time]; rewrite DT; reflexivity|reflexivity]]. split; [exact HX|]. apply (rep1_ext _ _ _ _ R2). intros k Hk. rewrite DT, plus_IZR. unfold courant. field. lra.
Qed.
Lemma courant_range n : (1 <= n)%Z -> 0 < courant n < / 4.
Proof.
  intros Hn. assert (NP : 1 <= IZR n) by (apply IZR_le, Hn). unfold courant. split; [apply Rdiv_lt_0_compat; lra|]. apply (Rmult_lt_reg_r (4 * (IZR n + 1))); [lra|]. unfold Rdiv. rewrite Rmult_assoc, Rinv_l by lra. lra.
Qed.
Lemma between c a b lo hi : 0 <= c <= 1 -> lo <= a <= hi -> lo <= b <= hi -> lo <= (1 - c) * a + c * b <= hi.
Proof. intros. nra. Qed.
Lemma rsum_le F G n : (forall k, (0 <= k < n)%Z -> F k <= G k) -> rsum F n <= rsum G n.
Proof.
  intros H. unfold rsum. assert (K : forall l, (forall k, In k l -> F k <= G k) -> total 0 Rplus F l <= total 0 Rplus G l).
  { induction l as [|x l IH]; intros HL; cbn [total]; [lra|]. apply Rplus_le_compat; [apply HL; left; reflexivity|apply IH; intros; apply HL; right; assumption]. }
  apply K. intros k Hk. apply H. apply zrange_In in Hk. exact Hk.
Qed.
Lemma rsum_plus F G n : rsum (fun k => F k + G k) n = rsum F n + rsum G n.
Proof. unfold rsum. induction (zrange n) as [|x l IH]; cbn [total]; [ring|]. rewrite IH. ring. Qed.
(** From any values on the ring: a step makes no value higher than the highest or lower than the lowest, no more
    variation around the ring, and keeps the total. *)
Theorem ring_step fuel s n U lo hi : (1 <= n)%Z -> (n + 1 <= 2147483647)%Z -> (Z.to_nat (n + 1) <= fuel)%nat -> (-2147483648 <= iteration s < 2147483647)%Z -> on_ring s n U -> (forall k, (0 <= k < n)%Z -> lo <= U k <= hi) ->
  exists s' V, next_solution fuel s = Ok s' /\ on_ring s' n V /\ (forall k, (0 <= k < n)%Z -> lo <= V k <= hi) /\ variation V n <= variation U n /\ rsum V n = rsum U n.
Proof.
  intros Hn HN Hf HI HU HB. destruct (step_value fuel s n U Hn HN Hf HI HU) as (s' & E & R & _). exists s'. eexists. split; [exact E|]. split; [exact R|]. pose proof (courant_range n Hn) as C. set (c := courant n) in *.
  split; [|split].
  - intros k Hk. apply between; [lra|apply HB, Hk|apply HB, Z.mod_pos_bound; lia].
  - unfold variation. set (D := fun k => Rabs (U k - U ((k - 1) mod n)%Z)).
    apply Rle_trans with (rsum (fun k => D k * (1 - c) + D ((k - 1) mod n)%Z * c) n).
    + apply rsum_le. intros k Hk. cbv beta. unfold D. set (a := U k). set (b := U ((k - 1) mod n)%Z). set (d := U (((k - 1) mod n - 1) mod n)%Z).
      replace ((1 - c) * a + c * b - ((1 - c) * b + c * d)) with ((a - b) * (1 - c) + (b - d) * c) by ring. eapply Rle_trans; [apply Rabs_triang|]. rewrite !Rabs_mult, (Rabs_pos_eq (1 - c)), (Rabs_pos_eq c) by lra. lra.
    + rewrite rsum_plus, !rsum_scale, (rsum_cyclic D n Hn). lra.
  - rewrite (rsum_ext _ (fun k => U k * (1 - c) + U ((k - 1) mod n)%Z * c)) by (intros; ring). rewrite rsum_plus, !rsum_scale, (rsum_cyclic U n Hn). ring.
Qed.

(** *** The wave *)
Definition close (n : Z) (t e : R) (U : Z -> R) : Prop := forall i, (0 <= i < n)%Z -> Rabs (U i - wave t (centre n i)) <= e.
Lemma step_close n t e U : (1 <= n)%Z -> close n t e U -> close n (t + / (4 * (IZR n + 1))) (e + 2 * PI ^ 2 * (1 - courant n) / IZR n * / (4 * (IZR n + 1))) (fun k => (1 - courant n) * U k + courant n * U ((k - 1) mod n)%Z).
Proof.
  intros Hn H i Hi. pose proof (courant_range n Hn) as C. assert (NP : 1 <= IZR n) by (apply IZR_le, Hn). set (c := courant n) in *.
  assert (W : wave t (centre n ((i - 1) mod n)%Z) = wave t (centre n i - / IZR n)).
  { destruct (Z.eq_dec i 0) as [-> |N].
    - replace ((0 - 1) mod n)%Z with (n - 1)%Z by (apply (Z.mod_unique_pos _ _ (-1)); lia). rewrite <- (wave_turn t (centre n 0 - _)). f_equal. unfold centre. rewrite minus_IZR. field. lra.
    - rewrite Z.mod_small by lia. f_equal. unfold centre. rewrite minus_IZR. field. lra. }
  assert (CH : / (4 * (IZR n + 1)) = c * / IZR n) by (unfold c, courant; field; lra).
  pose proof (H i Hi) as A. pose proof (H ((i - 1) mod n)%Z (Z.mod_pos_bound (i - 1) n ltac:(lia))) as B. rewrite W in B. pose proof (wave_interpolation t (centre n i) (/ IZR n) c ltac:(lra)) as D. rewrite <- CH in D at 1.
  replace (2 * PI ^ 2 * (1 - c) / IZR n * / (4 * (IZR n + 1))) with (2 * PI ^ 2 * (c * (1 - c) * (/ IZR n) ^ 2)) by (rewrite CH; field; lra).
  apply abs_range in A. apply abs_range in B. apply abs_range in D. apply Rabs_le.
  set (w0 := wave t (centre n i)) in *. set (w1 := wave t (centre n i - / IZR n)) in *. set (w := wave _ (centre n i)) in *. set (u := U i) in *. set (v := U ((i - 1) mod n)%Z) in *. set (q := 2 * PI ^ 2 * _) in *.
  assert ((1 - c) * - e <= (1 - c) * (u - w0) <= (1 - c) * e) by (split; apply Rmult_le_compat_l; lra). assert (c * - e <= c * (v - w1) <= c * e) by (split; apply Rmult_le_compat_l; lra).
  lra.
Qed.
Lemma start_value fuel n : (1 <= n)%Z -> (n + 1 <= 2147483647)%Z -> (Z.to_nat (n + 1) <= fuel)%nat -> exists s, new_solution fuel n = Ok s /\ time s = 0 /\ iteration s = 0%Z /\ on_ring s n (fun i => wave 0 (centre n i)).
Proof.
  intros Hn HN Hf. assert (NP : 1 <= IZR n) by (apply IZR_le, Hn). unfold new_solution. rewrite chk_ok by (apply in_int_spec; lia). bsimp. rewrite (w64_small (n + 1)) by (unfold two64; lia).
  set (xv := linspace Rplus Rminus Rmult Rdiv IZR 0 1 (n + 1)).
  assert (RX : rep1 xv (n + 1) (fun k => IZR k / IZR n)).
  { split; [reflexivity|]. intros k Hk. unfold xv, linspace. cbn [aget hd]. rewrite w64_small by (unfold two64; lia). replace (n + 1 - 1)%Z with n by lia. f_equal. field. lra. }
  destruct (midpoint1 Rplus (fun x => x * 0.5) xv (n + 1) _ ltac:(unfold two64; lia) RX) as (xc & E1 & R1). rewrite E1. bsimp. replace (n + 1 - 1)%Z with n in R1 by lia.
  destruct (evaluate1 fuel 0 xv (n + 1) _ ltac:(lia) Hf RX) as (v & E2 & R2). rewrite E2. bsimp. pose proof (map1 (fun x => sin (2 * PI * x)) _ _ _ R1) as R3.
  destruct (evaluate1 fuel 0 _ n _ ltac:(lia) ltac:(lia) R3) as (u & E3 & R4). rewrite E3. bsimp. eexists. split; [reflexivity|]. split; [reflexivity|]. split; [reflexivity|]. split; [exact R2|]. apply (rep1_ext _ _ _ _ R4).
  intros k Hk. unfold wave, centre. f_equal. rewrite plus_IZR. replace 0.5 with (/ 2) by lra. field. lra.
Qed.
(** Every run of the program with N zones: after k steps the time is k / (4 (N + 1)), and every zone holds the value that
    the wave moving at unit speed has at its centre, up to the time times 2 pi^2 (1 - c) / N. *)
Theorem wave_moves_at_unit_speed fuel n k : (1 <= n)%Z -> (n + 1 <= 2147483647)%Z -> (Z.to_nat (n + 1) <= fuel)%nat -> (Z.of_nat k <= 2147483647)%Z ->
  exists s0 s U, new_solution fuel n = Ok s0 /\ run fuel k s0 = Ok s /\ on_ring s n U /\ time s = INR k / (4 * (IZR n + 1)) /\ iteration s = Z.of_nat k /\
    forall i, (0 <= i < n)%Z -> Rabs (U i - sin (2 * PI * (centre n i - time s))) <= 2 * PI ^ 2 * (1 - courant n) / IZR n * time s /\ -1 <= U i <= 1.
Proof.
  intros Hn HN Hf Hk. destruct (start_value fuel n Hn HN Hf) as (s0 & E0 & T0 & I0 & R0). exists s0. assert (NP : 1 <= IZR n) by (apply IZR_le, Hn). set (b := 2 * PI ^ 2 * (1 - courant n) / IZR n).
  assert (G : forall k s U, (iteration s + Z.of_nat k <= 2147483647)%Z -> (0 <= iteration s)%Z -> on_ring s n U -> close n (time s) (b * time s) U -> (forall i, (0 <= i < n)%Z -> -1 <= U i <= 1) ->
    exists s' V, run fuel k s = Ok s' /\ on_ring s' n V /\ time s' = time s + INR k / (4 * (IZR n + 1)) /\ iteration s' = (iteration s + Z.of_nat k)%Z /\ close n (time s') (b * time s') V /\ (forall i, (0 <= i < n)%Z -> -1 <= V i <= 1)).
  { clear -Hn HN Hf NP. induction k as [|k IH]; intros s U HI H0 HU HC HB.
    - exists s, U. split; [reflexivity|]. split; [exact HU|]. split; [simpl; field; lra|]. split; [lia|]. split; [exact HC|exact HB].
    - cbn [run]. destruct (step_value fuel s n U Hn HN Hf ltac:(lia) HU) as (s1 & E1 & R1 & T1 & I1). rewrite E1. bsimp. pose proof (step_close n _ _ _ Hn HC) as C1. fold b in C1. rewrite <- Rmult_plus_distr_l, <- T1 in C1.
      pose proof (courant_range n Hn) as CR.
      destruct (IH s1 _ ltac:(lia) ltac:(lia) R1 C1) as (s' & V & E & R & T & I & C & B). { intros i Hi. apply between; [lra|apply HB, Hi|apply HB, Z.mod_pos_bound; lia]. }
      exists s', V. split; [exact E|]. split; [exact R|]. split; [rewrite T, T1, S_INR; field; lra|]. split; [lia|]. split; [exact C|exact B]. }
  destruct (G k s0 _ ltac:(lia) ltac:(lia) R0) as (s & V & E & R & T & I & C & B).
  - intros i Hi. rewrite T0. rewrite Rminus_diag_eq, Rabs_R0 by reflexivity. lra.
  - intros i Hi. unfold wave. apply SIN_bound.
  - exists s, V. split; [exact E0|]. split; [exact E|]. split; [exact R|]. split; [rewrite T, T0; lra|]. split; [lia|]. intros i Hi. split; [exact (C i Hi)|exact (B i Hi)].
Qed.
(** The run loop ends, at the first time not below tfinal. *)
Theorem ring_run_ends fuel n tfinal : (1 <= n)%Z -> (n + 1 <= 2147483647)%Z -> (Z.to_nat (n + 1) <= fuel)%nat -> 0 < tfinal -> tfinal * (4 * (IZR n + 1)) <= 2147483647 ->
  exists k s0 s, (Z.of_nat k <= 2147483647)%Z /\ new_solution fuel n = Ok s0 /\ run fuel k s0 = Ok s /\ (forall turns, (k <= turns)%nat -> run_loop fuel turns tfinal s0 = Ok s) /\ tfinal <= time s < tfinal + / (4 * (IZR n + 1)).
Proof.
  intros Hn HN Hf HT HB. assert (NP : 1 <= IZR n) by (apply IZR_le, Hn). set (m := 4 * (IZR n + 1)) in *. assert (MP : 0 < m) by (unfold m; lra).
  destruct (archimed (tfinal * m)) as [A1 A2].
  assert (EX : exists k : nat, INR k - 1 < tfinal * m <= INR k /\ (Z.of_nat k <= 2147483647)%Z /\ (0 < k)%nat).
  { set (u := up (tfinal * m)) in *. assert (PM : 0 < tfinal * m) by (apply Rmult_lt_0_compat; lra). assert (UP : (0 < u)%Z) by (apply lt_IZR; lra).
    destruct (Req_dec (IZR u - tfinal * m) 1) as [Q|Q].
    - exists (Z.to_nat (u - 1)). rewrite INR_IZR_INZ, Z2Nat.id by lia. rewrite minus_IZR. split; [lra|]. assert (2 <= u)%Z. { assert (1 < u)%Z by (apply lt_IZR; lra). lia. } split; [apply le_IZR; rewrite minus_IZR; lra|lia].
    - exists (Z.to_nat u). rewrite INR_IZR_INZ, Z2Nat.id by lia. split; [lra|]. split; [|lia]. assert (u < 2147483648)%Z by (apply lt_IZR; lra). lia. }
  destruct EX as (k & (K1 & K2) & KB & KP).
  assert (TI : forall j s0 s, (Z.of_nat j <= 2147483647)%Z -> new_solution fuel n = Ok s0 -> run fuel j s0 = Ok s -> time s = INR j / m).
  { intros j s0 s Hj E0 E. destruct (wave_moves_at_unit_speed fuel n j Hn HN Hf Hj) as (s0' & s' & U & E0' & E' & _ & T & _). rewrite E0 in E0'. injection E0' as <-. rewrite E in E'. injection E' as <-. exact T. }
  destruct (wave_moves_at_unit_speed fuel n k Hn HN Hf KB) as (s0 & s & U & E0 & E & _ & T & _). fold m in T. exists k, s0, s. split; [exact KB|]. split; [exact E0|]. split; [exact E|]. split.
  - assert (SPLIT : forall a b x, run fuel (a + b) x = do y <- run fuel a x; run fuel b y). { induction a as [|a IH]; intros b x; [reflexivity|]. cbn [Nat.add run]. destruct (next_solution fuel x); cbn [bind]; [apply IH|reflexivity..]. }
    assert (G : forall d j x turns, (j + d = k)%nat -> (d <= turns)%nat -> run fuel j s0 = Ok x -> run_loop fuel turns tfinal x = Ok s).
    { induction d as [|d IH]; intros j x turns Hj Ht EJ.
      - replace j with k in EJ by lia. rewrite E in EJ. injection EJ as <-. destruct turns; cbn [run_loop]; (destruct (Rlt_dec (time s) tfinal) as [L|L]; [|reflexivity]); exfalso; rewrite T in L; apply (Rmult_lt_compat_r m) in L; try exact MP; unfold Rdiv in L; rewrite Rmult_assoc, Rinv_l in L by lra; lra.
      - destruct turns as [|turns]; [lia|]. cbn [run_loop]. pose proof (TI j s0 x ltac:(lia) E0 EJ) as TX. destruct (Rlt_dec (time x) tfinal) as [L|L].
        + pose proof (SPLIT (j + 1)%nat d s0) as S1. replace (j + 1 + d)%nat with k in S1 by lia. rewrite E in S1. symmetry in S1. apply bind_ok_inv in S1 as (y & EY & _). pose proof EY as EY'. rewrite SPLIT, EJ in EY. cbn [bind run] in EY. apply bind_ok_inv in EY as (z & EZ & EQ). injection EQ as <-. rewrite EZ. cbn [bind]. apply (IH (j + 1)%nat z turns); [lia|lia|exact EY'].
        + exfalso. apply L. rewrite TX. apply (Rmult_lt_reg_r m); [exact MP|]. unfold Rdiv. rewrite Rmult_assoc, Rinv_l by lra. assert (INR j <= INR k - 1). { replace (INR k - 1) with (INR (k - 1)) by (rewrite minus_INR by lia; simpl; lra). apply le_INR. lia. } lra. }
    intros turns Ht. apply (G k 0%nat s0 turns); [lia|exact Ht|reflexivity].
  - rewrite T. split.
    + apply (Rmult_le_reg_r m); [exact MP|]. unfold Rdiv. rewrite Rmult_assoc, Rinv_l by lra. lra.
    + apply (Rmult_lt_reg_r m); [exact MP|]. rewrite Rmult_plus_distr_r. unfold Rdiv. rewrite Rmult_assoc, !Rinv_l by lra. lra.
Qed.

(** The files of a run: for every N, tfinal and every interval cpi no shorter than a step, the program ends with exit code
    0 and has written checkpoints 0, 1, ..., as many as whole intervals have passed at the final time. Checkpoint 0 holds
    the initial wave; checkpoint k was made between k intervals and two steps later, and holds the wave of its time. *)
Theorem boilerplate_files fuel cfg : let n := N cfg in let dt := / (4 * (IZR n + 1)) in (1 <= n)%Z -> (n + 1 <= 2147483647)%Z -> (Z.to_nat (n + 1) <= fuel)%nat -> 0 < tfinal cfg -> tfinal cfg * (4 * (IZR n + 1)) <= 2147483640 -> dt <= cpi cfg ->
  exists rounds, forall m, (rounds <= m)%nat -> exists o K last, program fuel cfg m = Ok (o, 0%Z) /\ tfinal cfg <= last < tfinal cfg + dt /\ whole_intervals (cpi cfg) last K /\
    map fst (scheckpoints o) = map Z.of_nat (seq 0 (S K)) /\
    forall k s, In (Z.of_nat k, s) (scheckpoints o) -> (k = 0%nat -> time s = 0) /\ ((0 < k)%nat -> INR k * cpi cfg <= time s < INR k * cpi cfg + 2 * dt) /\
      exists U, on_ring s n U /\ forall i, (0 <= i < n)%Z -> Rabs (U i - sin (2 * PI * (centre n i - time s))) <= 2 * PI ^ 2 * (1 - courant n) / IZR n * time s.
Proof.
  intros n dt Hn HN Hf HT HB HC. assert (NP : 1 <= IZR n) by (apply IZR_le, Hn). assert (DP : 0 < dt) by (unfold dt; apply Rinv_0_lt_compat; lra).
  destruct (ring_run_ends fuel n (tfinal cfg) Hn HN Hf HT ltac:(lra)) as (k & s0 & sk & KB & E0 & EK & L & TK). fold dt in TK.
  assert (KL : (Z.of_nat k <= 2147483641)%Z).
  { destruct (wave_moves_at_unit_speed fuel n k Hn HN Hf KB) as (a & b & U & A0 & A1 & _ & A2 & _). rewrite E0 in A0. injection A0 as <-. rewrite EK in A1. injection A1 as <-. rewrite A2 in TK. fold (dt) in TK. apply le_IZR. rewrite <- INR_IZR_INZ. change (INR k / (4 * (IZR n + 1))) with (INR k * dt) in TK.
    assert (DM : dt * (4 * (IZR n + 1)) = 1) by (unfold dt; field; lra). assert (INR k * dt * (4 * (IZR n + 1)) < (tfinal cfg + dt) * (4 * (IZR n + 1))) by (apply Rmult_lt_compat_r; lra). nra. }
  assert (EX : forall j, exists s, (j <= k + 1)%nat -> run fuel j s0 = Ok s). { intros j. destruct (le_dec j (k + 1)) as [Hj|Hj]; [|exists s0; lia]. destruct (wave_moves_at_unit_speed fuel n j Hn HN Hf ltac:(lia)) as (a & b & U & A0 & A1 & _). rewrite E0 in A0. injection A0 as <-. exists b. auto. }
  set (sol := fun j => match run fuel j s0 with Ok s => s | _ => s0 end).
  assert (SOL : forall j, (j <= k + 1)%nat -> run fuel j s0 = Ok (sol j)) by (intros j Hj; destruct (EX j) as (s & E); specialize (E Hj); unfold sol; rewrite E; reflexivity).
  assert (TIME : forall j, (j <= k + 1)%nat -> time (sol j) = INR j * dt). { intros j Hj. destruct (wave_moves_at_unit_speed fuel n j Hn HN Hf ltac:(lia)) as (a & b & U & A0 & A1 & _ & A2 & _). rewrite E0 in A0. injection A0 as <-. rewrite (SOL j Hj) in A1. injection A1 as <-. exact A2. }
  assert (SPLIT : forall a x, run fuel (S a) x = do y <- run fuel a x; next_solution fuel y). { induction a as [|a IH]; intros x; [cbn [run bind]; destruct (next_solution fuel x); reflexivity|]. change (run fuel (S (S a)) x) with (do y <- next_solution fuel x; run fuel (S a) y). cbn [run]. destruct (next_solution fuel x); cbn [bind]; [apply IH|reflexivity..]. }
  assert (NEXT : forall j, (j <= k)%nat -> next_solution fuel (sol j) = Ok (sol (S j))). { intros j Hj. pose proof (SOL (S j) ltac:(lia)) as A. rewrite SPLIT, (SOL j) in A by lia. exact A. }
  assert (SK : sol k = sk) by (unfold sol; rewrite EK; reflexivity).
  set (go := fun (c : config) (s : state) => if Rlt_dec (time s) (tfinal c) then true else false).
  assert (RO : run_of (fun _ => next_solution fuel) go cfg sol k).
  { split; [intros i Hi; apply NEXT; lia|]. split; [|split; [|lia]].
    - intros i Hi. unfold go. rewrite TIME by lia. destruct (Rlt_dec _ _) as [_|Q]; [reflexivity|]. exfalso. apply Q. rewrite <- SK, TIME in TK by lia. assert (INR i <= INR k - 1). { replace (INR k - 1) with (INR (k - 1)) by (rewrite minus_INR by lia; simpl; lra). apply le_INR. lia. } nra.
    - unfold go. rewrite SK. destruct (Rlt_dec _ _); [lra|reflexivity]. }
  assert (SW : steps_within (fun i => time (sol i)) (cpi cfg) k).
  { split; [lra|]. split; [rewrite TIME by lia; simpl; ring|]. intros i Hi. rewrite !TIME by lia. rewrite S_INR. lra. }
  exists k. intros m Hm.
  destruct (boilerplate_run_outputs (fun _ => next_solution fuel) time cpi go cfg sol k m RO (NEXT k ltac:(lia)) SW Hm) as (o & K & rc & EP & HW & HR & HS).
  exists o, K, (time (sol k)). split.
  { unfold program. fold n. rewrite E0. cbn [bind]. change checkpoint_due with tdueR. fold go. assert (S0 : sol 0%nat = s0) by reflexivity. rewrite <- S0. exact EP. }
  split; [rewrite SK; exact TK|]. split; [exact HW|]. split; [rewrite HS, map_map; apply map_ext; reflexivity|].
  intros j s Hin. rewrite HS in Hin. apply in_map_iff in Hin as (x & EQ & Hx). apply in_seq in Hx. injection EQ as EQ <-. apply Nat2Z.inj in EQ. subst x. pose proof (HR j ltac:(lia)) as AR.
  assert (RB : (rc j <= k + 1)%nat).
  { destruct (rc j) as [|r]; [lia|]. destruct AR as (_ & A1 & A2). destruct (le_lt_dec r k) as [|G]; [lia|]. exfalso. specialize (A2 k G). cbv beta in A2. destruct HW as [W1 _]. assert (INR j <= INR K) by (apply le_INR; lia). assert (0 < cpi cfg) by lra. nra. }
  split; [|split].
  - intros ->. destruct (rc 0%nat) as [|r] eqn:R; [rewrite TIME by lia; simpl; ring|]. destruct AR as (A & _). lia.
  - intros Hj. destruct (rc j) as [|r] eqn:R; [cbn [at_round] in AR; lia|]. destruct AR as (_ & A1 & A2). rewrite TIME in A1 by lia. rewrite TIME by lia. rewrite S_INR. split; [lra|]. destruct r as [|r].
    + exfalso. simpl in A1. assert (1 <= INR j) by (apply (le_INR 1); lia). nra.
    + specialize (A2 r ltac:(lia)). cbv beta in A2. rewrite TIME in A2 by lia. rewrite S_INR. lra.
  - destruct (wave_moves_at_unit_speed fuel n (rc j) Hn HN Hf ltac:(lia)) as (a & b & U & A0 & A1 & A2 & _ & _ & A3). rewrite E0 in A0. injection A0 as <-. rewrite (SOL _ RB) in A1. injection A1 as <-. exists U. split; [exact A2|]. intros i Hi. apply A3, Hi.
Qed.

(** *** Examples *)
(** Two zones hold 1 and -1, and after a step of 1/12 they hold 2/3 and -2/3. *)
Example two_zones : exists s0 s U, new_solution 3 2 = Ok s0 /\ run 3 1 s0 = Ok s /\ on_ring s 2 U /\ time s = / 12 /\ U 0%Z = 2 / 3 /\ U 1%Z = - (2 / 3).
Proof.
  destruct (start_value 3 2 ltac:(lia) ltac:(lia) ltac:(lia)) as (s0 & E0 & T0 & I0 & R0). destruct (step_value 3 s0 2 _ ltac:(lia) ltac:(lia) ltac:(lia) ltac:(lia) R0) as (s & E & R & T & _).
  exists s0, s. eexists. split; [exact E0|]. split; [cbn [run]; rewrite E; reflexivity|]. split; [exact R|]. split; [rewrite T, T0; lra|].
  change ((0 - 1) mod 2)%Z with 1%Z. change ((1 - 1) mod 2)%Z with 0%Z. assert (W0 : wave 0 (centre 2 0) = 1) by (unfold wave, centre; replace (2 * PI * ((0 + / 2) / 2 - 0)) with (PI / 2) by field; apply sin_PI2).
  assert (W1 : wave 0 (centre 2 1) = -1) by (unfold wave, centre; replace (2 * PI * ((1 + / 2) / 2 - 0)) with (3 * (PI / 2)) by field; apply sin_3PI2).
  rewrite W0, W1. unfold courant. lra.
Qed.
(** The default run, N = 256 to tfinal = 1, ends with the wave back in place up to 0.1. *)
Example default_run : exists k s0 s U, new_solution 257 256 = Ok s0 /\ run_loop 257 k 1 s0 = Ok s /\ on_ring s 256 U /\ 1 <= time s < 1 + / 1028 /\ forall i, (0 <= i < 256)%Z -> Rabs (U i - sin (2 * PI * (centre 256 i - time s))) <= 1 / 10.
Proof.
  destruct (ring_run_ends 257 256 1 ltac:(lia) ltac:(lia) ltac:(lia) ltac:(lra) ltac:(lra)) as (k & s0 & s & HK & E0 & E & L & T). destruct (wave_moves_at_unit_speed 257 256 k ltac:(lia) ltac:(lia) ltac:(lia) HK) as (s0' & s' & U & E0' & E' & R & _ & _ & C).
  rewrite E0 in E0'. injection E0' as <-. rewrite E in E'. injection E' as <-. exists k, s0, s, U. split; [exact E0|]. split; [apply L; lia|]. split; [exact R|]. split; [lra|]. intros i Hi. eapply Rle_trans; [apply C, Hi|].
  pose proof (courant_range 256 ltac:(lia)). pose proof PI_RGT_0. pose proof PI_4. assert (PI ^ 2 <= 16) by nra. set (c := courant 256) in *.
  assert (CB : c >= 24 / 100) by (unfold c, courant; lra). assert (X : (1 - c) / 256 * time s <= 76 / 100 / 256 * (1 + / 1028)) by (apply Rmult_le_compat; lra). assert (P0 : 0 <= PI ^ 2) by nra.
  replace (2 * PI ^ 2 * (1 - c) / 256 * time s) with (2 * PI ^ 2 * ((1 - c) / 256 * time s)) by field. assert (Y : 0 <= (1 - c) / 256 * time s) by (apply Rmult_le_pos; lra).
  assert (2 * PI ^ 2 * ((1 - c) / 256 * time s) <= 32 * (76 / 100 / 256 * (1 + / 1028))) by (apply Rmult_le_compat; lra). lra.
Qed.
(** The default run writes checkpoints 0 and 1, the second one when the wave has come round. *)
Example default_files : exists rounds o, program 257 (Config 256 1 1) rounds = Ok (o, 0%Z) /\ map fst (scheckpoints o) = [0; 1]%Z /\ forall s, In (1%Z, s) (scheckpoints o) -> 1 <= time s < 1 + / 514.
Proof.
  destruct (boilerplate_files 257 (Config 256 1 1)) as (r & H); try (cbn [N cpi tfinal]; lia || lra). destruct (H r (le_n _)) as (o & K & last & E & T & (W1 & W2) & M & C). cbn [N cpi tfinal] in *.
  assert (K1 : K = 1%nat). { destruct K as [|[|K]]; [simpl in *; lra|reflexivity|]. exfalso. rewrite !S_INR in *. pose proof (pos_INR K). lra. }
  subst K. exists r, o. split; [exact E|]. split; [exact M|]. intros s Hs. destruct (C 1%nat s Hs) as (_ & Q & _). specialize (Q ltac:(lia)). simpl in Q. lra.
Qed.
Print Assumptions boilerplate_files.
Print Assumptions ring_step.
Print Assumptions wave_moves_at_unit_speed.
Print Assumptions ring_run_ends.
