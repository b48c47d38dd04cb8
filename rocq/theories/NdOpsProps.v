(** C34, C35, C38: selecting, concatenating, replacing, differencing, generating. *)
From Coq Require Import ZArith List Lia Bool Reals Lra.
From Verif Require Import Base NdModel NdSpec NdProofs NdProofs2 NdProofs3 NdOpsModel NdOpsProofs NdOpsProofs2 ParallelModel.
Import ListNotations.
Open Scope Z_scope.

(** ** C34. [same] is: equal shapes and equal outcomes at every in-range index. *)

(** The axis along which two arrays are joined; all other extents agree. *)
Definition joinable {A} (ax : nat) (a b : array A) : Prop :=
  okshape (ashape a) /\ okshape (ashape b) /\ (ax < length (ashape a))%nat /\ length (ashape b) = length (ashape a) /\
  nth ax (ashape a) 0 + nth ax (ashape b) 0 < 2 ^ 64.

Theorem select_of_concat_gives_the_parts {A} (ax : nat) (a b : array A) :
  joinable ax a b -> remove_axis ax (ashape b) = remove_axis ax (ashape a) ->
  let na := nth ax (ashape a) 0 in let nb := nth ax (ashape b) 0 in
  exists c l r, concat_on ax b a = Ok c /\ ashape c = upd ax (na + nb) (ashape a) /\
    select_axis ax 0 na 1 false c = Ok l /\ same l a /\
    select_axis ax na (na + nb) 1 false c = Ok r /\ same r b.
Proof.
  intros (HA & HB & HL & HLe & HS) HR. cbv zeta. change (2 ^ 64) with two64 in HS.
  destruct (concat_value ax b a HA HB HLe HL HR HS) as (c & EC & HC).
  pose proof (okshape_nth ax _ HA HL) as NA. pose proof (okshape_nth ax _ HB ltac:(lia)) as NB.
  assert (OC : okshape (ashape c)) by (rewrite (proj1 HC); apply okshape_upd; [assumption|lia]).
  assert (LC : (ax < length (ashape c))%nat) by (rewrite (proj1 HC), upd_length; assumption).
  destruct (select_axis_slice ax 0 (nth ax (ashape a) 0) false (nth ax (ashape a) 0) c OC LC ltac:(lia) ltac:(lia) eq_refl) as (l & EL & SL).
  destruct (select_axis_slice ax (nth ax (ashape a) 0) (nth ax (ashape a) 0 + nth ax (ashape b) 0) false _ c OC LC ltac:(lia) ltac:(lia) eq_refl) as (r & ER & SR).
  exists c, l, r. split; [assumption|]. split; [apply HC|]. split; [assumption|].
  split; [apply (select_concat_first ax b a c l); assumption|]. split; [assumption|apply (select_concat_second ax b a c r); assumption].
Qed.

Theorem array_is_concat_of_its_parts {A} (ax : nat) (a : array A) (k : Z) :
  okshape (ashape a) -> (ax < length (ashape a))%nat -> 0 <= k <= nth ax (ashape a) 0 ->
  exists l r c, select_axis ax 0 k 1 false a = Ok l /\ select_axis ax k 0 1 true a = Ok r /\
    concat_on ax r l = Ok c /\ same c a.
Proof.
  intros HO HL Hk. pose proof (okshape_nth ax _ HO HL) as HN.
  destruct (select_axis_slice ax 0 k false k a HO HL ltac:(lia) ltac:(lia) eq_refl) as (l & EL & SL).
  destruct (select_axis_slice ax k (nth ax (ashape a) 0) true 0 a HO HL ltac:(lia) ltac:(lia)) as (r & ER & SR).
  { rewrite Z.sub_0_r. apply w64_small; lia. }
  pose proof (proj1 SL) as S1. pose proof (proj1 SR) as S2. rewrite Z.sub_0_r in S1.
  destruct (concat_value ax r l) as (c & EC & HC).
  - rewrite S1. apply okshape_upd; [assumption|lia].
  - rewrite S2. apply okshape_upd; [assumption|lia].
  - rewrite S1, S2, !upd_length. reflexivity.
  - rewrite S1, upd_length. assumption.
  - rewrite S1, S2, !remove_upd. reflexivity.
  - rewrite S1, S2, !nth_upd by assumption. lia.
  - exists l, r, c. split; [assumption|]. split; [assumption|]. split; [assumption|]. eapply (concat_slices ax k a l r c); eassumption.
Qed.

(** Concatenation throws exactly when the axis does not exist or another extent differs. *)
Theorem concat_throws_exactly {A} (ax : nat) (a b : array A) : length (ashape b) = length (ashape a) ->
  (concat_on ax b a = Throw LogicError <->
     ~ ((ax < length (ashape a))%nat /\ remove_axis ax (ashape b) = remove_axis ax (ashape a))) /\
  (concat_on ax b a <> Throw LogicError -> exists c, concat_on ax b a = Ok c).
Proof.
  intros HL. destruct (concat_throws ax b a HL) as [[[c E] [H1 H2]]|[E H]]; rewrite E.
  - split; [split; [discriminate|intros Q; elim Q; auto]|intros _; eauto].
  - split; [split; auto|intros Q; elim Q; reflexivity].
Qed.

(** Replacing: inside the region the replacement, outside the original; the shape is kept. *)
Theorem replace_inside_and_outside {A} (region : access_pattern) (r a : array A) :
  strided (ap_start region) (ap_final region) (ap_jumps region) -> ap_shape region = Ok (ashape r) ->
  length (ap_start region) = length (ashape a) -> okshape (ashape a) ->
  exists c, replace region r a = Ok c /\ ashape c = ashape a /\
   (forall i, inb (ashape r) i -> inb (ashape a) (map_index region i) -> aget c (map_index region i) = aget r i) /\
   (forall i, inb (ashape a) i -> ~ stops (ap_start region) (ap_final region) (ap_jumps region) i -> aget c i = aget a i).
Proof.
  intros HS ER HL HO. apply replace_value; try assumption.
  unfold ap_shape in ER. rewrite shape_from_counts in ER by assumption. congruence.
Qed.
Theorem replace_mismatched_shape_throws {A} (region : access_pattern) (r a : array A) :
  strided (ap_start region) (ap_final region) (ap_jumps region) -> ap_shape region <> Ok (ashape r) ->
  replace region r a = Throw LogicError.
Proof.
  intros HS HN. apply replace_throws; [assumption|]. intros Q. apply HN. unfold ap_shape. rewrite shape_from_counts by assumption. congruence.
Qed.

(** The first and the last [g] entries of an axis, and periodic extension. *)
Theorem select_first_and_final {A} (ax : nat) (g : Z) (a : array A) :
  okshape (ashape a) -> (ax < length (ashape a))%nat -> 0 <= g < 2 ^ 64 ->
  let n := nth ax (ashape a) 0 in
  (g <= n -> exists f l, select_first g ax a = Ok f /\ select_final g ax a = Ok l /\
     ashape f = upd ax g (ashape a) /\ ashape l = upd ax g (ashape a) /\
     (forall i, inb (ashape f) i -> aget f i = aget a i) /\
     (forall i, inb (ashape l) i -> aget l i = aget a (upd ax (n - g + nth ax i 0) i))) /\
  (n < g -> select_first g ax a = Throw LogicError /\ select_final g ax a = Throw LogicError).
Proof.
  intros HO HL Hg. cbv zeta. destruct (select_first_value ax g a HO HL Hg) as [F1 F2]. destruct (select_final_value ax g a HO HL Hg) as [G1 G2].
  split; [|auto]. intros Q. destruct (F1 Q) as (f & EF & FS & FG). destruct (G1 Q) as (l & EL & LS & LG).
  exists f, l. split; [assumption|]. split; [assumption|]. split; [rewrite FS; f_equal; lia|]. split; [rewrite LS; f_equal; lia|].
  split; [|assumption]. intros i Hi. rewrite FG by assumption. rewrite Z.add_0_l, upd_nth. reflexivity.
Qed.

Theorem extend_periodic_reads_modulo {A} (ax : nat) (g : Z) (a : array A) :
  okshape (ashape a) -> (ax < length (ashape a))%nat -> 0 <= g ->
  nth ax (ashape a) 0 + 2 * g < 2 ^ 64 ->
  let n := nth ax (ashape a) 0 in
  (g <= n -> exists r, extend_periodic_on_axis ax g a = Ok r /\ ashape r = upd ax (n + 2 * g) (ashape a) /\
     forall i, inb (ashape r) i -> aget r i = aget a (upd ax ((nth ax i 0 - g) mod n) i)) /\
  (n < g -> extend_periodic_on_axis ax g a = Throw LogicError).
Proof.
  intros HO HL Hg HS. cbv zeta. change (2 ^ 64) with two64 in HS. pose proof (okshape_nth ax _ HO HL).
  apply extend_periodic_value; try assumption. lia.
Qed.

Example concat_example :
  let a := mkarr [2; 2] (fun i => Ok (10 * nth 0 i 0 + nth 1 i 0)) in
  let b := mkarr [2; 1] (fun i => Ok (100 + nth 0 i 0)) in
  (do c <- concat_on 1 b a; mapM (aget c) (idxs (ashape c))) = Ok [0; 1; 100; 10; 11; 101] /\
  concat_on 0 b a = Throw LogicError /\
  (do c <- replace (mkap [0; 1] [2; 2] [1; 1]) b a; mapM (aget c) (idxs (ashape c))) = Ok [0; 100; 10; 101] /\
  (do c <- extend_periodic_on_axis 1 1 a; mapM (aget c) (idxs (ashape c))) = Ok [1; 0; 1; 0; 11; 10; 11; 10].
Proof. vm_compute. repeat split; reflexivity. Qed.

(** ** C35 *)

(** In every abelian group, along every axis of every array: the sum of the differences is
    the sum of the last slice minus the sum of the first. *)
Theorem differences_telescope {A} (zero : A) (add sub : A -> A -> A) :
  (forall x y, add x y = add y x) -> (forall x y z, add x (add y z) = add (add x y) z) ->
  (forall x, add zero x = x) -> (forall x y, add (sub x y) y = x) ->
  forall (fuel ax : nat) (a : array A) (F : list Z -> A),
  (ax < length (ashape a))%nat -> Forall (fun d => 0 < d < 2 ^ 64) (ashape a) -> 1 < nth ax (ashape a) 0 ->
  (Z.to_nat (prodz (ashape a)) <= fuel)%nat -> (forall i, inb (ashape a) i -> aget a i = Ok (F i)) ->
  exists r first last sr sf sl,
    difference_on_axis sub ax a = Ok r /\ take_first_on_axis ax a = Ok first /\ take_final_on_axis ax a = Ok last /\
    arr_sum fuel zero add r = Ok sr /\ arr_sum fuel zero add first = Ok sf /\ arr_sum fuel zero add last = Ok sl /\
    sr = sub sl sf.
Proof. intros H1 H2 H3 H4 fuel ax a F. apply difference_telescopes; assumption. Qed.

Theorem difference_of_empty_axis_refuted {A} (sub : A -> A -> A) (a : array A) : ashape a = [0] ->
  exists r, difference_on_axis sub 0 a = Ok r /\ ashape r = [2 ^ 64 - 1].
Proof. apply difference_empty. Qed.

(** The advection step conserves the total of u dx, whatever the (distinct) vertices, the
    field and the time step, over the reals. *)
Theorem advection_conserves_total (dt : R) (n : Z) (U X : Z -> R) (xv u0 : array R) :
  1 <= n -> n + 2 < 2 ^ 64 -> ashape u0 = [n] -> ashape xv = [n + 1] ->
  (forall k, 0 <= k < n -> aget u0 [k] = Ok (U k)) -> (forall k, 0 <= k <= n -> aget xv [k] = Ok (X k)) ->
  (forall k, 0 <= k < n -> X (k + 1) <> X k) ->
  exists u1 V, advection_step Rminus Rmult Rdiv dt xv u0 = Ok u1 /\ ashape u1 = [n] /\
    (forall k, 0 <= k < n -> aget u1 [k] = Ok (V k)) /\
    (forall k, 0 <= k < n -> V k = (U k - (U k - U ((k - 1) mod n)%Z) / (X (k + 1)%Z - X k) * dt)%R) /\
    fold_right Rplus 0%R (map (fun k => V k * (X (k + 1)%Z - X k))%R (zrange n))
    = fold_right Rplus 0%R (map (fun k => U k * (X (k + 1)%Z - X k))%R (zrange n)).
Proof.
  intros Hn Hb SU SX HU HX HD. change (2 ^ 64) with two64 in Hb.
  destruct (advection_value dt n U X xv u0 SU SX Hn Hb HU) as (u1 & E & S1 & G); [intros; apply HX; lia|].
  exists u1. eexists. split; [exact E|]. split; [exact S1|]. split; [exact G|]. split; [reflexivity|].
  assert (FT : forall (F : Z -> R) l, fold_right Rplus 0%R (map F l) = total 0%R Rplus F l).
  { clear. induction l; simpl; congruence. }
  rewrite !FT. apply (advection_conserves_value dt n U X Hn HD).
Qed.

Example advection_example :
  let xv := mkarr [4] (fun i => Ok (hd 0 i)) in
  let u0 := mkarr [3] (fun i => Ok (nth (Z.to_nat (hd 0 i)) [6; 12; 30] 0)) in
  (do u1 <- advection_step Z.sub Z.mul Z.div 1 xv u0; mapM (fun k => aget u1 [k]) [0; 1; 2]) = Ok [30; 6; 12] /\
  (do d <- difference_on_axis Z.sub 0 u0; arr_sum 10 0 Z.add d) = Ok 24.
Proof. vm_compute. split; reflexivity. Qed.

(** ** C38 *)

Theorem linspace_evenly_spaced (x0 x1 : R) (n : Z) : 2 <= n < 2 ^ 64 ->
  let a := linspace Rplus Rminus Rmult Rdiv IZR x0 x1 n in
  ashape a = [n] /\ exists X : Z -> R,
    (forall k, 0 <= k < n -> aget a [k] = Ok (X k)) /\ X 0 = x0 /\ X (n - 1) = x1 /\
    (forall k, X (k + 1)%Z - X k = (x1 - x0) / IZR (n - 1))%R.
Proof. intros H. apply (linspace_value x0 x1 n H). Qed.

(** arange(start, final, step): its elements are start, start+step, ... below final exactly
    when final mod step <= start mod step. *)
Theorem arange_elements (start final step : Z) : 0 < step -> 0 <= start <= final -> final <= 2147483647 ->
  exists r m, arange3 start final step = Ok r /\ ashape r = [m] /\ 0 <= m /\
    (forall k, 0 <= k < m -> aget r [k] = Ok (start + step * k)) /\
    ((forall x, (exists k, 0 <= k < m /\ aget r [k] = Ok x) <-> (exists k, 0 <= k /\ x = start + step * k /\ x < final))
     <-> final mod step <= start mod step).
Proof.
  intros Hs Ha Hf. destruct (arange_count start final step Hs Ha Hf) as (r & E & S1 & G).
  exists r, (final / step - start / step). split; [assumption|]. split; [assumption|].
  split; [pose proof (Z.div_le_mono start final step Hs ltac:(lia)); lia|]. split; [assumption|].
  rewrite <- arange_exact by assumption. split; intros Q x; rewrite <- (Q x).
  - split; intros (k & Hk & EK); exists k; split; try assumption; rewrite G in * by assumption; congruence.
  - split; intros (k & Hk & EK); exists k; split; try assumption; rewrite G in * by assumption; congruence.
Qed.

Corollary arange_unit_step (start final : Z) : 0 <= start <= final -> final <= 2147483647 ->
  exists r m, arange3 start final 1 = Ok r /\ ashape r = [m] /\
    forall x, (exists k, 0 <= k < m /\ aget r [k] = Ok x) <-> start <= x < final.
Proof.
  intros Ha Hf. destruct (arange_elements start final 1 ltac:(lia) Ha Hf) as (r & m & E & S1 & _ & _ & Q).
  exists r, m. split; [assumption|]. split; [assumption|]. intros x. rewrite (proj2 Q) by (rewrite !Z.mod_1_r; lia).
  split; [intros (k & Hk & -> & HX); lia|]. intros HX. exists (x - start). lia.
Qed.

Theorem arange_all_steps_refuted :
  exists r, arange3 0 10 3 = Ok r /\ ashape r = [3] /\ aget r [2] = Ok 6 /\ 0 + 3 * 3 < 10.
Proof.
  destruct (arange_count 0 10 3 ltac:(lia) ltac:(lia) ltac:(lia)) as (r & E & S1 & G). exists r.
  split; [assumption|]. split; [exact S1|]. split; [apply (G 2); change (10 / 3 - 0 / 3) with 3; lia|lia].
Qed.

Example linspace_example :
  exists X : Z -> R, (forall k, 0 <= k < 5 -> aget (linspace Rplus Rminus Rmult Rdiv IZR 1%R 3%R 5) [k] = Ok (X k)) /\ X 3 = (5 / 2)%R.
Proof. eexists. split; [intros k Hk; unfold linspace; cbn [aget hd]; reflexivity|]. change (w64 (5 - 1)) with 4. cbv beta. lra. Qed.

Print Assumptions select_of_concat_gives_the_parts.
Print Assumptions array_is_concat_of_its_parts.
Print Assumptions concat_throws_exactly.
Print Assumptions replace_inside_and_outside.
Print Assumptions replace_mismatched_shape_throws.
Print Assumptions select_first_and_final.
Print Assumptions extend_periodic_reads_modulo.
Print Assumptions differences_telescope.
Print Assumptions difference_of_empty_axis_refuted.
Print Assumptions advection_conserves_total.
Print Assumptions linspace_evenly_spaced.
Print Assumptions arange_elements.
Print Assumptions arange_unit_step.
Print Assumptions arange_all_steps_refuted.
