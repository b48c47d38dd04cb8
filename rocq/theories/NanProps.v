(** C126: what the disk program does with cells whose density is zero or not a number, in double arithmetic. *)
From Coq Require Import ZArith Reals Lra List Bool Lia.
From Flocq Require Import IEEE754.BinarySingleNaN Core.
From Verif Require Import Base TreeModel TreeProofs BalanceModel NanModel NanProofs.
Import ListNotations.
Open Scope R_scope.

(** A double below zero: minus infinity or a finite negative number. *)
Definition below_zero (x : b64) : Prop := is_nan x = false /\ (x = B754_infinity true \/ is_finite x = true /\ B2R x < 0).
Lemma lt64_zero x : lt64 x zero64 = true <-> below_zero x.
Proof.
  destruct (is_nan x) eqn:N; [rewrite lt64_nan_l by exact N; split; [discriminate|intros [H _]; congruence]|]. rewrite (lt64_place x zero64 N eq_refl). unfold below_zero. change (place64 zero64) with 0. pose proof (bpow_gt_0 radix2 1024) as P.
  destruct x as [s|[|]| |s m e o]; try discriminate N; cbn [place64 is_finite]; split; intros H; try (split; [reflexivity|]); try (destruct H as [_ [H|[H1 H]]]); try discriminate; try lra; auto.
Qed.

(** The check after a step throws if and only if some density is below zero. *)
Theorem rejected_densities t : rejected t = true <-> exists b c, In b (leaves t) /\ In c b /\ below_zero (density c).
Proof.
  unfold rejected. rewrite existsb_exists. split.
  - intros (b & Hb & H). apply existsb_exists in H as (c & Hc & H). exists b, c. split; [exact Hb|]. split; [exact Hc|]. apply lt64_zero, H.
  - intros (b & c & Hb & Hc & H). exists b. split; [exact Hb|]. apply existsb_exists. exists c. split; [exact Hc|]. apply lt64_zero, H.
Qed.
(** It does not see a density that is not a number. *)
Theorem check_of_numbers_refuted : ~ forall t, rejected t = false -> forall b c, In b (leaves t) -> In c b -> is_nan (density c) = false.
Proof.
  intros H. specialize (H (Leaf [Cell B754_nan zero64 zero64 (of_int 1)]) eq_refl _ _ (or_introl eq_refl) (or_introl eq_refl)). discriminate H.
Qed.

(** A cell of density zero or NaN, which the check lets pass, has no signal speed: whatever its momentum, the speed is NaN. *)
Theorem speed_of_empty_cell c : is_nan (density c) = true \/ (exists s, density c = B754_zero s) -> exists w, speed c = Ok w /\ is_nan w = true.
Proof.
  intros H. assert (R : recover c = Ok (div64 (momentum_x c) (density c), div64 (momentum_y c) (density c))) by (unfold recover; destruct H as [H|[s H]]; [rewrite lt64_nan_l by exact H|rewrite H; destruct s]; reflexivity).
  unfold speed. rewrite R. cbn [bind]. eexists. split; [reflexivity|]. unfold fastest. cbv zeta. apply nan_max_l, nan_max_l. rewrite nan_abs. apply nan_sub_l. unfold project64. cbn [fst snd]. apply nan_add_l, nan_add_r.
  destruct H as [H|[s H]]; [apply nan_mul_l, nan_div_r, H|]. rewrite H. destruct (momentum_y c) as [y|y| |y m e o]; reflexivity.
Qed.

(** nd::max of the speeds of a block: NaN if and only if the first one is; else the greatest of those that are numbers, as if the
    others were not there. *)
Theorem greatest_speed x l : is_nan (nd_max (x :: l)) = is_nan x /\
  (is_nan x = false -> nd_max (x :: l) = nd_max (x :: filter (fun y => negb (is_nan y)) l) /\ In (nd_max (x :: l)) (x :: l) /\ forall y, In y (x :: l) -> lt64 (nd_max (x :: l)) y = false).
Proof.
  unfold nd_max. split; [apply (fold_nan lt64 lt64_numbers)|]. intros N. split; [apply (fold_skip lt64 lt64_numbers)|]. split; [apply (fold_in lt64)|]. intros y Hy. destruct (is_nan y) eqn:NY; [apply lt64_nan_r, NY|].
  apply not_lt64; [rewrite (fold_nan lt64 lt64_numbers); exact N|exact NY|]. apply (fold_best lt64 lt64_numbers place64 lt64_place); assumption.
Qed.

(** The least limit of the blocks: NaN if and only if that of the first block is, and the least of all if all are numbers. *)
Fixpoint first_leaf (t : tree b64) : b64 := match t with Leaf x => x | Node cs => match cs with [] => zero64 | c :: _ => first_leaf c end end.
Lemma gt_place x y : is_nan x = false -> is_nan y = false -> (lt64 y x = true <-> - place64 x < - place64 y).
Proof. intros NX NY. rewrite (lt64_place y x NY NX). split; lra. Qed.
Theorem least_limit t : is_nan (tree_min t) = is_nan (first_leaf t) /\ ((forall x, In x (leaves t) -> is_nan x = false) -> forall x, In x (leaves t) -> lt64 x (tree_min t) = false).
Proof.
  split.
  - induction t as [x|cs IH] using tree_ind'; [reflexivity|]. cbn [tree_min first_leaf]. destruct cs as [|c cs]; [reflexivity|]. cbn [map]. rewrite std_min_fold, (fold_nan (fun x y => lt64 y x) gt_numbers). inversion IH; assumption.
  - assert (ST : (forall x, In x (leaves t) -> is_nan x = false) -> is_nan (tree_min t) = false /\ forall x, In x (leaves t) -> place64 (tree_min t) <= place64 x).
    { induction t as [x|cs IH] using tree_ind'; intros N; [split; [apply N; left; reflexivity|intros y [<-|[]]; apply Rle_refl]|]. cbn [tree_min leaves] in *.
      assert (ALL : Forall (fun c => is_nan (tree_min c) = false /\ forall x, In x (leaves c) -> place64 (tree_min c) <= place64 x) cs).
      { rewrite Forall_forall in IH. apply Forall_forall. intros c Hc. apply (IH c Hc). intros x Hx. apply N. apply in_flat_map. exists c. split; assumption. }
      destruct cs as [|c cs]; [split; [reflexivity|intros x []]|]. cbn [map]. rewrite std_min_fold. pose proof (Forall_inv ALL) as [NC _]. split; [rewrite (fold_nan (fun x y => lt64 y x) gt_numbers); exact NC|]. intros x Hx. apply in_flat_map in Hx as (d & Hd & Hx).
      rewrite Forall_forall in ALL. destruct (ALL d Hd) as [ND LD]. apply Rle_trans with (place64 (tree_min d)); [|apply LD, Hx]. apply Ropp_le_cancel. apply (fold_best (fun x y => lt64 y x) gt_numbers (fun x => - place64 x) gt_place); [exact NC| |exact ND]. destruct Hd as [<-|Hd]; [left; reflexivity|right; apply in_map, Hd]. }
    intros N x Hx. destruct (ST N) as [NT LT]. apply not_lt64; [apply N, Hx|exact NT|apply LT, Hx].
Qed.

(** The time step of a mesh: the first cell of the first block decides whether it is a number. *)
Fixpoint first_block (l : nat) (t : tree (list cell)) : nat * list cell := match t with Leaf b => (l, b) | Node cs => match cs with [] => (l, []) | c :: _ => first_block (S l) c end end.
Lemma first_limit f : forall t l x, tmapM f (levelled l t) = Ok x -> snd (first_block l t) <> [] -> f (first_block l t) = Ok (first_leaf x).
Proof.
  induction t as [b|cs IH] using tree_ind'; intros l x E N; cbn [levelled tmapM first_block] in *.
  - apply bind_ok_inv in E as (y & E & X). injection X as <-. exact E.
  - destruct cs as [|c cs]; [contradiction N; reflexivity|]. cbn [map] in E. apply bind_ok_inv in E as (xs & E & X). injection X as <-. apply bind_ok_inv in E as (y & E1 & E). apply bind_ok_inv in E as (ys & _ & E). injection E as <-. cbn [first_leaf]. apply (Forall_inv IH); assumption.
Qed.
Theorem step_is_a_number cfl spacing t dt l c r : (forall l, is_finite_strict (spacing l) = true) -> is_finite_strict cfl = true -> step64 cfl spacing t = Ok dt -> first_block 0 t = (l, c :: r) ->
  exists w, speed c = Ok w /\ is_nan dt = is_nan w.
Proof.
  intros HS HC E F. unfold step64, maximum_timestep in E. apply bind_ok_inv in E as (m & E & X). injection X as <-. apply bind_ok_inv in E as (x & E & X). injection X as <-. apply first_limit in E; rewrite F in *; [|discriminate]. cbn [fst snd] in E. unfold block_limit in E. cbn [mapM] in E.
  apply bind_ok_inv in E as (ws & E & X). apply bind_ok_inv in E as (w & W & E). apply bind_ok_inv in E as (ws' & _ & E). injection E as <-. assert (X' : div64 (spacing l) (nd_max (w :: ws')) = first_leaf x) by congruence. exists w. split; [exact W|].
  assert (DV : forall y, is_nan (div64 (spacing l) y) = is_nan y) by (intros y; destruct (is_nan y) eqn:N; [apply nan_div_r, N|apply number_div; [apply HS|exact N]]). assert (MU : forall y, is_nan (mul64 cfl y) = is_nan y) by (intros y; destruct (is_nan y) eqn:N; [apply nan_mul_r, N|apply number_mul; [exact HC|exact N]]).
  rewrite MU, (proj1 (least_limit x)), <- X', DV. apply (proj1 (greatest_speed w ws')).
Qed.

(** A run whose first cell is empty or holds a NaN ends after the next step, as if the final time had been reached: the loop stops with
    a time that is not a number. *)
Theorem nan_ends_the_run update cfl turn tfinal spacing second time t l c r dt u f n : (forall l, is_finite_strict (spacing l) = true) -> is_finite_strict cfl = true ->
  first_block 0 t = (l, c :: r) -> is_nan (density c) = true \/ (exists s, density c = B754_zero s) -> continues turn tfinal time = true -> step64 cfl spacing t = Ok dt -> update t dt = Ok u ->
  exists time', is_nan time' = true /\ loop64 update cfl turn tfinal spacing second (S (S f)) n (time, t) = Ok (S n, (time', u)).
Proof.
  intros HS HC F H C E U. destruct (step_is_a_number cfl spacing t dt l c r HS HC E F) as (w & W & N). destruct (speed_of_empty_cell c H) as (w' & W' & N'). rewrite W' in W. injection W as <-. rewrite N' in N.
  exists (time_after second time dt). assert (T : is_nan (time_after second time dt) = true) by (unfold time_after; destruct second; [apply nan_add_r, nan_mul_l, nan_add_r, N|apply nan_add_r, N]). split; [exact T|].
  cbn [loop64 fst]. rewrite C. unfold next64. cbn [fst snd]. rewrite E. cbn [bind]. rewrite U. cbn [bind fst]. unfold continues at 1. rewrite lt64_nan_l by (apply nan_div_l, T). reflexivity.
Qed.
(** Elsewhere in its block such a cell goes unnoticed: the limit of the block is that of the other cells. *)
Theorem nan_goes_unnoticed spacing c w r x : speed c = Ok w -> is_nan w = false -> block_limit spacing (c :: r) = Ok x ->
  exists ws, mapM speed r = Ok ws /\ x = div64 spacing (nd_max (w :: filter (fun y => negb (is_nan y)) ws)).
Proof.
  intros W N E. unfold block_limit in E. cbn [mapM] in E. rewrite W in E. cbn [bind] in E. apply bind_ok_inv in E as (ws & E & X). apply bind_ok_inv in E as (ws' & M & E). injection E as <-. exists ws'. split; [exact M|]. rewrite <- (proj1 (proj2 (greatest_speed w ws') N)). congruence.
Qed.
(** For examples: the value of a computation without the proof that it is a double. *)
Definition shown (o : outcome b64) : option SpecFloat.spec_float := match o with Ok x => Some (B2SF x) | _ => None end.
Lemma shown_ok o v : shown o = Some v -> exists x, o = Ok x /\ B2SF x = v.
Proof. destruct o as [x| | |]; try discriminate. intros H. exists x. split; [reflexivity|]. cbn in H. congruence. Qed.
(** The first block of a group of four can hide the limits of the other three: the step then exceeds the limit of a block without any
    such cell. *)
Definition at_rest (v : Z) : cell := Cell (of_int 1) (of_int v) zero64 (of_int 1).
Definition empty_cell : cell := Cell zero64 zero64 zero64 (of_int 1).
Definition hidden : tree (list cell) := Node [Leaf [at_rest 0]; Leaf [at_rest 0]; Leaf [at_rest 0]; Node [Leaf [empty_cell]; Leaf [at_rest 7]; Leaf [at_rest 7]; Leaf [at_rest 7]]].
Theorem limits_respected_refuted : ~ forall spacing t m, (forall l, is_finite_strict (spacing l) = true) -> rejected t = false -> maximum_timestep spacing t = Ok m -> is_nan m = false ->
  forall l b x, In (l, b) (leaves (levelled 0 t)) -> block_limit (spacing l) b = Ok x -> lt64 x m = false.
Proof.
  intros H. assert (E : exists m, maximum_timestep (fun _ => of_int 1) hidden = Ok m /\ B2SF m = B2SF (of_int 1)) by (apply shown_ok; vm_compute; reflexivity).
  assert (B : exists x, block_limit (of_int 1) [at_rest 7] = Ok x /\ B2SF x = B2SF (div64 (of_int 1) (of_int 8))) by (apply shown_ok; vm_compute; reflexivity).
  destruct E as (m & E & EM), B as (x & B & EX). assert (L : lt64 x m = true) by (unfold lt64, Bcompare; rewrite EM, EX; vm_compute; reflexivity).
  rewrite (H (fun _ => of_int 1) hidden m ltac:(intros; vm_compute; reflexivity) ltac:(vm_compute; reflexivity) E (proj2 (lt64_numbers _ _ L)) 2%nat [at_rest 7] x ltac:(cbn; tauto) B) in L. discriminate L.
Qed.

(** Beside nan_ends_the_run: one block of two cells, the first one empty, at time zero, on the way to tfinal = 1; the check has nothing
    against it.  The loop ends after one step; with the two cells exchanged it takes the twelve steps of the other cell. *)
Definition ended (o : outcome (nat * (b64 * tree (list cell)))) : option (nat * SpecFloat.spec_float) := match o with Ok r => Some (fst r, B2SF (fst (snd r))) | _ => None end.
Example empty_first_cell : let run := loop64 (fun t _ => Ok t) half64 (of_int 6) (of_int 1) (fun _ => of_int 1) false 20 0 in
  rejected (Leaf [empty_cell; at_rest 0]) = false /\ ended (run (zero64, Leaf [empty_cell; at_rest 0])) = Some (1%nat, SpecFloat.S754_nan) /\ ended (run (zero64, Leaf [at_rest 0; empty_cell])) = Some (12%nat, B2SF (of_int 6)).
Proof. cbv zeta. split; [vm_compute; reflexivity|]. split; vm_compute; reflexivity. Qed.

Print Assumptions rejected_densities.
Print Assumptions check_of_numbers_refuted.
Print Assumptions speed_of_empty_cell.
Print Assumptions greatest_speed.
Print Assumptions least_limit.
Print Assumptions step_is_a_number.
Print Assumptions nan_ends_the_run.
Print Assumptions nan_goes_unnoticed.
Print Assumptions limits_respected_refuted.
