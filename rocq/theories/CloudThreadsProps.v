(** C114: the cloud program computes the same on any number of threads. *)
From Coq Require Import ZArith Reals List Lia Lra Bool Arith Permutation.
From Verif Require Import Base NdModel NdSpec NdProofs NdProofs2 NdProofs3 NdOpsModel NdOpsProofs2 ParallelModel ParallelProofs ParallelProofs2 ParallelProps HydroModel PlmModel SedovModel Rep1Proofs SedovProofs SedovProps Rep2Proofs
  CloudModel CloudProofs CloudProofs2 CloudProps CloudSetupProps CloudStillProps CloudMassProps CloudThreadsModel.
Import ListNotations.
Open Scope Z_scope.

(** *** Statements *)
(** [w] is an order in which the assignments of [P] threads that evaluate an array of the given shape can happen. *)
Definition an_order (P fuel : nat) (shape : list Z) (w : list (list Z)) : Prop :=
  exists ls, mapM (fun n => thread_indexes fuel shape (Z.of_nat P) (Z.of_nat n)) (seq 0 P) = Ok ls /\ interleave ls w.
(** The shapes of the six arrays that one stage of a step evaluates: centroids, volumes, radial and polar faces,
    primitives, and the new state. *)
Definition stage_shape (n m : Z) (k : nat) : list Z := match k with 2%nat => [n + 1; m] | 3%nat => [n; m + 1] | _ => [n; m] end.
Definition stage_orders (P fuel : nat) (n m : Z) (order : nat -> list (list Z)) : Prop := forall k, an_order P fuel (stage_shape n m k) (order k).
(** What the caller of evaluate_on sees, given what the caller of to_shared would see. *)
Definition on_threads {A} (o : outcome A) : fate A := match o with Throw _ => Ended | r => Returns r end.

(** *** Evaluation *)
Lemma order_perm P fuel e s w : Forall (fun x => 0 < x) (e :: s) -> prodz (e :: s) <= 2147483647 -> (0 < P)%nat -> Z.of_nat P <= e -> (Z.to_nat (prodz (e :: s)) <= fuel)%nat ->
  an_order P fuel (e :: s) w -> NoDup w /\ forall i, In i w <-> inb (e :: s) i.
Proof.
  intros Hp Hv HP HR Hf (ls & E1 & E2).
  destruct (evaluate_on_threads tt (mkarr (e :: s) (fun _ => Ok tt)) e s P fuel ls w eq_refl Hp Hv HP HR Hf ltac:(intros; eexists; reflexivity) E1 E2) as (C & N & _).
  split; [exact N|]. intros i. symmetry. apply C.
Qed.
Lemma writes_outcome {A} s (F : list Z -> outcome A) W : prodz s < two64 -> Forall (inb s) W -> (forall i, In i W -> (exists v, F i = Ok v) \/ exists e, F i = Throw e) ->
  (exists i e, In i W /\ F i = Throw e) -> forall b, Z.of_nat (length b) = prodz s ->
  exists e, foldM (fun b i => do v <- F i; buf_write b (compute_offset (strides_row_major s) i) v) b W = Throw e.
Proof.
  intros HP. induction W as [|w W IH]; intros HI HF (i & e & Hi & He) b Hb; [destruct Hi|]. inversion HI as [|? ? I1 I2]; subst.
  cbn [foldM]. destruct (HF w (or_introl eq_refl)) as [(v & Hv)|(e' & Hv)]; rewrite Hv; bsimp; [|exists e'; reflexivity].
  rewrite offset_lin by assumption. pose proof (lin_range _ _ I1). rewrite buf_write_ok by lia. bsimp. apply IH; auto.
  - intros j Hj. apply HF. right. exact Hj.
  - destruct Hi as [-> |Hi]; [congruence|exists i, e; auto].
  - rewrite upd_length. exact Hb.
Qed.
Lemma same_buffer {A} s (b b' : list A) : Forall (fun d => 0 <= d) s -> Z.of_nat (length b) = prodz s -> length b' = length b -> (forall i, inb s i -> buf_read b (lin s i) = buf_read b' (lin s i)) -> b = b'.
Proof.
  intros HS HL HL' H. assert (G : forall k, nth_error b k = nth_error b' k).
  { intros k. destruct (le_lt_dec (length b) k) as [L|L]; [rewrite (proj2 (nth_error_None b k)), (proj2 (nth_error_None b' k)) by lia; reflexivity|].
    destruct (lin_surj s (Z.of_nat k) HS ltac:(lia)) as (i & Hi & E). specialize (H i Hi). rewrite E in H. unfold buf_read in H. destruct (Z.leb_spec 0 (Z.of_nat k)); [|lia]. rewrite Nat2Z.id in H.
    destruct (nth_error b k), (nth_error b' k); congruence. }
  clear -G. revert b' G. induction b as [|x b IH]; intros [|y b'] G; [reflexivity|specialize (G 0%nat); discriminate..|]. pose proof (G 0%nat) as G0. injection G0 as <-. f_equal. apply IH. intros k. exact (G (S k)).
Qed.

(** Evaluation on threads stands in for evaluation on one thread: every order of the assignments gives the same array; but
    where evaluation on one thread throws, the process ends. No element may be undefined. *)
Theorem evaluate_drop_in {A} (d : A) (a : array A) e s P fuel w :
  ashape a = e :: s -> Forall (fun x => 0 < x) (e :: s) -> prodz (e :: s) <= 2147483647 -> (0 < P)%nat -> Z.of_nat P <= e -> (Z.to_nat (prodz (e :: s)) <= fuel)%nat ->
  (forall i, inb (e :: s) i -> (exists v, aget a i = Ok v) \/ exists x, aget a i = Throw x) ->
  an_order P fuel (e :: s) w -> evaluate_threads d a w = on_threads (evaluate fuel d a).
Proof.
  intros HS Hp Hv HP HR Hf HE HO. destruct (order_perm P fuel e s w Hp Hv HP HR Hf HO) as (N & C).
  pose proof (prodz_pos _ Hp) as P0. assert (P64 : prodz (e :: s) < two64) by (unfold two64; lia).
  assert (SEQ : evaluate fuel d a = do b <- foldM (fun b i => do v <- aget a i; buf_write b (compute_offset (strides_row_major (e :: s)) i) v) (repeat d (Z.to_nat (volume (e :: s)))) (idxs (e :: s)); make_backed (e :: s) b).
  { unfold evaluate, evaluate_buffer. rewrite HS. rewrite for_each_shape; [reflexivity|apply pos_bounded; assumption|discriminate|assumption]. }
  rewrite SEQ. unfold evaluate_threads, run_writes. rewrite HS. set (b0 := repeat d (Z.to_nat (volume (e :: s)))).
  assert (L0 : Z.of_nat (length b0) = prodz (e :: s)) by (unfold b0; rewrite repeat_length, volume_prod by assumption; lia).
  assert (IW : Forall (inb (e :: s)) w) by (apply Forall_forall; intros i Hi; apply C; exact Hi).
  assert (II : Forall (inb (e :: s)) (idxs (e :: s))) by (apply Forall_forall; intros i Hi; apply idxs_In; exact Hi).
  assert (DEC : forall i, {exists v, aget a i = Ok v} + {~ exists v, aget a i = Ok v}) by (intros i; destruct (aget a i) as [y|y| |]; [left; exists y; reflexivity|right; intros (v & Q); discriminate Q..]).
  destruct (Forall_Exists_dec _ DEC (idxs (e :: s))) as [HA|HX].
  - rewrite Forall_forall in HA. assert (HA' : forall i, inb (e :: s) i -> exists v, aget a i = Ok v) by (intros i Hi; apply HA, idxs_In; exact Hi).
    destruct (writes_spec (e :: s) (aget a) w P64 IW ltac:(apply Forall_forall; intros i Hi; apply HA', C; exact Hi) b0 L0) as (b1 & E1 & LL1 & R1 & _).
    destruct (writes_spec (e :: s) (aget a) (idxs (e :: s)) P64 II ltac:(apply Forall_forall; exact HA) b0 L0) as (b2 & E2 & LL2 & R2 & _).
    assert (b1 = b2) as ->. { apply (same_buffer (e :: s)); [eapply Forall_impl; [|exact Hp]; intros ? ?; cbv beta in *; lia|rewrite LL1; exact L0|congruence|]. intros i Hi. rewrite R1 by (apply C; exact Hi). rewrite R2 by (apply idxs_In; exact Hi). reflexivity. }
    rewrite E1, E2. bsimp. unfold make_backed. rewrite LL2, L0, volume_prod by assumption. rewrite Z.eqb_refl. reflexivity.
  - apply Exists_exists in HX. destruct HX as (i & Hi & HX). apply idxs_In in Hi. destruct (HE i Hi) as [HX'|(x & Hx)]; [contradiction|].
    destruct (writes_outcome (e :: s) (aget a) w P64 IW ltac:(intros j Hj; apply HE, C; exact Hj) ltac:(exists i, x; split; [apply C; exact Hi|exact Hx]) b0 L0) as (x1 & E1).
    destruct (writes_outcome (e :: s) (aget a) (idxs (e :: s)) P64 II ltac:(intros j Hj; apply HE, idxs_In; exact Hj) ltac:(exists i, x; split; [apply idxs_In; exact Hi|exact Hx]) b0 L0) as (x2 & E2).
    rewrite E1, E2. reflexivity.
Qed.

(** *** Steps *)
Lemma evaluate_same {A} (d : A) (a a' : array A) n m P fuel w : ashape a = [n; m] -> 0 < n -> 0 < m -> n * m <= 2147483647 -> (0 < P)%nat -> Z.of_nat P <= n -> (Z.to_nat (n * m) <= fuel)%nat ->
  an_order P fuel [n; m] w -> evaluate fuel d a = Ok a' -> evaluate_threads d a w = Returns (Ok a').
Proof.
  intros HS Hn Hm Hv HP HR Hf HO E. assert (PZ : prodz [n; m] = n * m) by (cbn; lia).
  pose proof (evaluate2_reads fuel d a n m a' Hn Hm Hv Hf HS E) as V.
  rewrite (evaluate_drop_in d a n [m] P fuel w HS ltac:(repeat constructor; assumption) ltac:(rewrite PZ; exact Hv) HP HR ltac:(rewrite PZ; exact Hf)); [rewrite E; reflexivity| |exact HO].
  intros i Hi. inversion Hi as [|? x ? t Hx Ht]; subst. inversion Ht as [|? y ? u Hy Hu]; subst. inversion Hu; subst. left. exact (V x y Hx Hy).
Qed.
Lemma binary_shape {A B C} (f : A -> B -> C) a b r : NdModel.binary_op f a b = Ok r -> ashape r = ashape a.
Proof. unfold NdModel.binary_op. destruct (seq_eqb _ _); [|discriminate]. intros E. injection E as <-. reflexivity. Qed.

Section Step.
Context (c : config) (fuel P : nat) (n m : Z) (X Q : Z -> R).
Context (HZ : sizes fuel n m) (HP : (0 < P)%nat) (HR : Z.of_nat P <= n).

(** A stage of a step, whatever the order of the assignments of the threads in its six evaluations. *)
Theorem cloud_stage_on_threads order app s dt s' U : on_grid s n m X Q U -> stage_orders P fuel n m order ->
  advance c fuel app s dt = Ok s' -> advance_threads c fuel order app s dt = Returns (Ok s').
Proof.
  intros (HX & HQ & HU) HO E. destruct (sizes_fit _ _ _ HZ) as (A & B & C & D & F). pose proof HZ as (Hn & Hm & _).
  destruct (F n m ltac:(lia) ltac:(lia)) as [F1 F2]. destruct (F (n + 1) m ltac:(lia) ltac:(lia)) as [F3 F4]. destruct (F n (m + 1) ltac:(lia) ltac:(lia)) as [F5 F6].
  assert (G : forall ex, advance_with c fuel ex app s dt = Ok s' -> advance_with_threads c fuel order ex app s dt = Returns (Ok s')).
  { clear E. intros ex E. unfold advance_with in E. unfold advance_with_threads. cbv zeta in *.
    destruct (centroids_rep fuel n m X Q _ _ HZ HX HQ) as (rc0 & E1 & R1). rewrite E1 in *. cbn [bind call] in *. apply bind_ok_inv in E as (rc & E2 & E).
    rewrite (evaluate_same _ _ _ n m P fuel _ (proj1 R1) ltac:(lia) ltac:(lia) F1 HP HR F2 (HO 0%nat) E2). cbn [fbind call].
    destruct (volumes_rep fuel n m X Q _ _ HZ HX HQ) as (dv0 & E3 & R3). rewrite E3 in *. cbn [bind call] in *. apply bind_ok_inv in E as (dv & E4 & E).
    rewrite (evaluate_same _ _ _ n m P fuel _ (proj1 R3) ltac:(lia) ltac:(lia) F1 HP HR F2 (HO 1%nat) E4). cbn [fbind call].
    destruct (radial_areas_rep fuel n m X Q _ _ HZ HX HQ) as (ar0 & E5 & R5). rewrite E5 in *. cbn [bind call] in *. apply bind_ok_inv in E as (ar & E6 & E).
    rewrite (evaluate_same _ _ _ (n + 1) m P fuel _ (proj1 R5) ltac:(lia) ltac:(lia) F3 HP ltac:(lia) F4 (HO 2%nat) E6). cbn [fbind call].
    destruct (polar_areas_rep fuel n m X Q _ _ HZ HX HQ) as (aq0 & E7 & R7). rewrite E7 in *. cbn [bind call] in *. apply bind_ok_inv in E as (aq & E8 & E).
    rewrite (evaluate_same _ _ _ n (m + 1) P fuel _ (proj1 R7) ltac:(lia) ltac:(lia) F5 HP HR F6 (HO 3%nat) E8). cbn [fbind call].
    apply bind_ok_inv in E as (q & E9 & E). rewrite E9. cbn [call]. apply bind_ok_inv in E as (p0 & E10 & E).
    assert (S9 : ashape q = [n; m]) by (rewrite (binary_shape _ _ _ _ E9); exact (proj1 HU)).
    rewrite (evaluate_same _ (arr_mapM _ q) _ n m P fuel _ S9 ltac:(lia) ltac:(lia) F1 HP HR F2 (HO 4%nat) E10). cbn [fbind call].
    do 12 (let EE := fresh "EE" in apply bind_ok_inv in E as (? & EE & E); rewrite EE; cbn [call]). apply bind_ok_inv in E as (u1 & E11 & E). rewrite E11. cbn [call]. apply bind_ok_inv in E as (u1' & E12 & E).
    assert (S11 : ashape u1 = [n; m]) by (rewrite (binary_shape _ _ _ _ E11); exact (proj1 HU)).
    rewrite (evaluate_same _ _ _ n m P fuel _ S11 ltac:(lia) ltac:(lia) F1 HP HR F2 (HO 5%nat) E12). cbn [fbind call]. rewrite <- E. reflexivity. }
  unfold advance in E. unfold advance_threads. destruct (reconstruct_method c =? 1); [apply G; exact E|]. destruct (reconstruct_method c =? 2); [apply G; exact E|discriminate].
Qed.

(** A zone whose gas cannot be recovered ends the process, in every order; on one thread the step throws. *)
Theorem cloud_failure_ends_process order app s dt U i j e : reconstruct_method c = 1 \/ reconstruct_method c = 2 -> on_grid s n m X Q U -> stage_orders P fuel n m order ->
  0 <= i < n -> 0 <= j < m -> srhd_recover (over5 (U i j) (vol X Q i j)) gamma_law_index (temperature_floor c) = Throw e ->
  advance_threads c fuel order app s dt = Ended /\ exists x, advance c fuel app s dt = Throw x.
Proof.
  intros HM (HX & HQ & HU) HO Hi Hj HE. destruct (sizes_fit _ _ _ HZ) as (A & B & C & D & F). pose proof HZ as (Hn & Hm & _).
  destruct (F n m ltac:(lia) ltac:(lia)) as [F1 F2]. destruct (F (n + 1) m ltac:(lia) ltac:(lia)) as [F3 F4]. destruct (F n (m + 1) ltac:(lia) ltac:(lia)) as [F5 F6].
  assert (G : forall ex, advance_with_threads c fuel order ex app s dt = Ended /\ exists x, advance_with c fuel ex app s dt = Throw x).
  { intros ex. unfold advance_with_threads, advance_with. cbv zeta.
    destruct (centroids_rep fuel n m X Q _ _ HZ HX HQ) as (rc0 & E1 & R1). rewrite E1. cbn [bind call]. destruct (evaluate2 fuel (0%R, 0%R) rc0 n m _ ltac:(lia) ltac:(lia) F1 F2 R1) as (rc & E2 & R2).
    rewrite (evaluate_same _ _ _ n m P fuel _ (proj1 R1) ltac:(lia) ltac:(lia) F1 HP HR F2 (HO 0%nat) E2), E2. cbn [fbind call bind].
    destruct (volumes_rep fuel n m X Q _ _ HZ HX HQ) as (dv0 & E3 & R3). rewrite E3. cbn [bind call]. destruct (evaluate2 fuel 0%R dv0 n m _ ltac:(lia) ltac:(lia) F1 F2 R3) as (dv & E4 & R4).
    rewrite (evaluate_same _ _ _ n m P fuel _ (proj1 R3) ltac:(lia) ltac:(lia) F1 HP HR F2 (HO 1%nat) E4), E4. cbn [fbind call bind].
    destruct (radial_areas_rep fuel n m X Q _ _ HZ HX HQ) as (ar0 & E5 & R5). rewrite E5. cbn [bind call]. destruct (evaluate2 fuel 0%R ar0 (n + 1) m _ ltac:(lia) ltac:(lia) F3 F4 R5) as (ar & E6 & R6).
    rewrite (evaluate_same _ _ _ (n + 1) m P fuel _ (proj1 R5) ltac:(lia) ltac:(lia) F3 HP ltac:(lia) F4 (HO 2%nat) E6), E6. cbn [fbind call bind].
    destruct (polar_areas_rep fuel n m X Q _ _ HZ HX HQ) as (aq0 & E7 & R7). rewrite E7. cbn [bind call]. destruct (evaluate2 fuel 0%R aq0 n (m + 1) _ ltac:(lia) ltac:(lia) F5 F6 R7) as (aq & E8 & R8).
    rewrite (evaluate_same _ _ _ n (m + 1) P fuel _ (proj1 R7) ltac:(lia) ltac:(lia) F5 HP HR F6 (HO 3%nat) E8), E8. cbn [fbind call bind].
    destruct (binop2 over5 _ _ _ _ _ _ HU R4) as (q & E9 & R9). rewrite E9. cbn [bind call].
    set (a := arr_mapM (fun U => srhd_recover U gamma_law_index (temperature_floor c)) q). assert (PZ : prodz [n; m] = n * m) by (cbn; lia).
    assert (EL : forall k, inb [n; m] k -> (exists v, aget a k = Ok v) \/ exists x, aget a k = Throw x).
    { intros k Hk. inversion Hk as [|? x ? t Hx Ht]; subst. inversion Ht as [|? y ? u Hy Hu]; subst. inversion Hu; subst. cbn [a arr_mapM aget]. rewrite (proj2 R9 x y Hx Hy). cbn [bind].
      unfold srhd_recover. destruct (newton _ _ _ _ _ _) as [[? ?]|]; [|right; eauto]. destruct (Rle_dec _ 0); [right; eauto|]. destruct (Rle_dec _ 0); [right; eauto|left; eauto]. }
    assert (TH : exists x, evaluate fuel zero_prim a = Throw x).
    { pose proof (prodz_pos [n; m] ltac:(repeat constructor; lia)) as P0. unfold evaluate, evaluate_buffer. change (ashape a) with (ashape q). rewrite (proj1 R9). rewrite for_each_shape; [|apply pos_bounded; [repeat constructor; lia|unfold two64; lia]|discriminate|rewrite PZ; exact F2].
      destruct (writes_outcome [n; m] (aget a) (idxs [n; m]) ltac:(unfold two64; lia)) with (b := repeat zero_prim (Z.to_nat (volume [n; m]))) as (x & Ex).
      - apply Forall_forall. intros k Hk. apply idxs_In. exact Hk.
      - intros k Hk. apply EL, idxs_In. exact Hk.
      - exists [i; j], e. split; [apply idxs_In; repeat constructor; lia|]. cbn [a arr_mapM aget]. rewrite (proj2 R9 i j Hi Hj). cbn [bind]. exact HE.
      - rewrite repeat_length, volume_prod; [lia|repeat constructor; lia|rewrite PZ; exact F1].
      - exists x. rewrite Ex. reflexivity. }
    destruct TH as (x & TH). rewrite TH. cbn [bind]. split; [|eauto].
    rewrite (evaluate_drop_in zero_prim a n [m] P fuel _ (proj1 R9) ltac:(repeat constructor; lia) ltac:(rewrite PZ; exact F1) HP HR ltac:(rewrite PZ; exact F2) EL (HO 4%nat)), TH. reflexivity. }
  unfold advance_threads, advance. destruct HM as [-> | ->]; cbn [Z.eqb Pos.eqb]; apply G.
Qed.
End Step.

(** *** Runs *)
Lemma next_same c fuel P n m X Q order s s' U : sizes fuel n m -> (0 < P)%nat -> Z.of_nat P <= n -> good_cloud c -> method_ok c m -> on_grid s n m X Q U -> (forall k, stage_orders P fuel n m (order k)) ->
  next_solution c fuel s = Ok s' -> next_solution_threads c fuel order s = Returns (Ok s').
Proof.
  intros HZ HP HR G HM HU HO E. unfold next_solution in E. unfold next_solution_threads. apply bind_ok_inv in E as (dt & ET & E). rewrite ET. cbn [call].
  destruct (rk_order c =? 1); [exact (cloud_stage_on_threads c fuel P n m X Q HZ HP HR _ _ _ _ _ U HU (HO 0%nat) E)|]. destruct (rk_order c =? 2); [|discriminate].
  apply bind_ok_inv in E as (s1 & E1 & E). apply bind_ok_inv in E as (s2 & E2 & E). apply bind_ok_inv in E as (a & EA & E). apply bind_ok_inv in E as (b & EB & E).
  destruct (advance_spec c fuel n m X Q (units_of c) s s dt s1 U U HZ HM (reference_units c G) HU HU E1) as (P1 & _ & _ & HU1).
  rewrite (cloud_stage_on_threads c fuel P n m X Q HZ HP HR _ _ _ _ _ U HU (HO 0%nat) E1). cbn [fbind call]. rewrite (cloud_stage_on_threads c fuel P n m X Q HZ HP HR _ _ _ _ _ _ HU1 (HO 1%nat) E2). cbn [fbind call].
  rewrite EA, EB. cbn [call]. rewrite E. reflexivity.
Qed.

(** A run that goes through on one thread gives the same solution on any number of threads up to the number of radial
    zones, in whatever order their assignments happen in every evaluation of every stage of every step. *)
Theorem cloud_run_on_threads c fuel P n m X Q : sizes fuel n m -> (0 < P)%nat -> Z.of_nat P <= n -> good_cloud c -> method_ok c m ->
  forall steps order s s' U, on_grid s n m X Q U -> (forall i k, stage_orders P fuel n m (order i k)) ->
  CloudModel.run c fuel steps s = Ok s' -> run_threads c fuel order steps s = Returns (Ok s').
Proof.
  intros HZ HP HR G HM steps. induction steps as [|steps IH]; intros order s s' U HU HO E; cbn [CloudModel.run run_threads] in *; [injection E as <-; reflexivity|].
  apply bind_ok_inv in E as (s1 & E1 & E). destruct (step_rate c fuel n m X Q (units_of c) s s1 U HZ HM (reference_units c G) HU E1) as (U1 & _ & _ & HU1 & _).
  rewrite (next_same c fuel P n m X Q _ s s1 U HZ HP HR G HM HU (HO 0%nat) E1). cbn [fbind call]. apply (IH _ s1 s' U1 HU1); [|exact E]. intros i k. apply HO.
Qed.

(** With fewer radial zones than threads (12 by default, configure) two threads assign to a same element in each of the
    evaluations of zones: a data race. *)
Theorem cloud_few_zones_race_refuted (n m : Z) (P : Z) fuel : 1 <= n -> 1 <= m -> n * m <= 2147483647 -> (Z.to_nat (n * m) <= fuel)%nat -> n < P < 2 ^ 32 ->
  exists a b la lb i, 0 <= a < P /\ 0 <= b < P /\ a <> b /\ thread_indexes fuel (stage_shape n m 1) P a = Ok la /\ thread_indexes fuel (stage_shape n m 1) P b = Ok lb /\ In i la /\ In i lb.
Proof.
  intros Hn Hm Hv Hf HP. assert (PZ : prodz [n; m] = n * m) by (cbn; lia).
  destruct (evaluate_on_more_threads_than_rows_races_refuted n m [] P fuel ltac:(repeat constructor; lia) ltac:(rewrite PZ; exact Hv) HP ltac:(rewrite PZ; exact Hf)) as (a & b & la & lb & i & H1 & H2 & H3 & H4 & H5 & H6 & H7 & _).
  exists a, b, la, lb, i. cbn [stage_shape]. auto 10.
Qed.

(** A failure does not reach the caller: with the default scheme there is gas for which the second step throws on one
    thread, and on threads it ends the process, always. *)
Definition failures_reach_caller : Prop := forall c fuel P n m X Q steps order s U e, sizes fuel n m -> (0 < P)%nat -> Z.of_nat P <= n -> good_cloud c -> method_ok c m -> on_grid s n m X Q U ->
  (forall i k, stage_orders P fuel n m (order i k)) -> CloudModel.run c fuel steps s = Throw e -> exists e', run_threads c fuel order steps s = Returns (Throw e').
Lemma orders_exist P fuel n m : sizes fuel n m -> (0 < P)%nat -> Z.of_nat P <= n -> exists order, stage_orders P fuel n m order.
Proof.
  intros HZ HP HR. destruct (sizes_fit _ _ _ HZ) as (A & B & C & D & F). pose proof HZ as (Hn & Hm & _).
  assert (IL : forall (ls : list (list (list Z))), interleave ls (concat ls)).
  { induction ls as [|l ls IH]; [apply il_done; constructor|]. cbn [concat]. induction l as [|x l IL]; [|exact (il_step [] x l ls (l ++ concat ls) IL)].
    cbn [app]. clear -IH. assert (G : forall (ks : list (list (list Z))) w, interleave ks w -> interleave ([] :: ks) w); [|apply G, IH]. intros ks w H. induction H as [ks H|l1 x t l2 w H IH2]; [apply il_done; constructor; auto|]. exact (il_step ([] :: l1) x t l2 w IH2). }
  assert (G : forall a b, n <= a <= n + 1 -> m <= b <= m + 1 -> exists w, an_order P fuel [a; b] w).
  { intros a b Ha Hb. assert (PZ : prodz [a; b] = a * b) by (cbn; lia). destruct (F a b ltac:(lia) ltac:(lia)) as [F1 F2].
    destruct (evaluate_on_threads_terminate a [b] P fuel ltac:(repeat constructor; lia) ltac:(rewrite PZ; exact F1) HP ltac:(lia) ltac:(rewrite PZ; exact F2)) as (ls & E). exists (concat ls), ls. split; [exact E|apply IL]. }
  destruct (G n m) as (w0 & H0); try lia. destruct (G (n + 1) m) as (w1 & H1); try lia. destruct (G n (m + 1)) as (w2 & H2); try lia.
  exists (fun k => match k with 2%nat => w1 | 3%nat => w2 | _ => w0 end). intros [|[|[|[|k]]]]; cbn [stage_shape]; assumption.
Qed.
Lemma empty_zone_throws U V g floor : (c0 U < 0)%R -> (0 < V)%R -> exists e, srhd_recover (over5 U V) g floor = Throw e.
Proof.
  intros HU HV. assert (N : (c0 (over5 U V) < 0)%R) by (unfold over5, Rdiv; cbn [c0]; assert (0 < / V)%R by (apply Rinv_0_lt_compat, HV); nra).
  pose proof (empty_not_recovered (over5 U V) g floor) as H. unfold srhd_recover in *. destruct (newton _ _ _ _ _ _) as [[? ?]|]; [|eauto]. cbv zeta in *. destruct (Rle_dec _ 0); [eauto|]. destruct (Rle_dec _ 0); [eauto|]. exfalso. eapply H; [exact N|reflexivity].
Qed.
(** The gas of C112 that the default scheme sweeps out of a shell: the step after ends the process in every order of
    the threads, where one thread would have thrown an exception. *)
Theorem emptied_shell_ends_process cfg fuel P n m X Q t : good_cloud cfg -> JetProps.good (jet_of cfg) -> sizes fuel n m -> reconstruct_method cfg = 2 -> rk_order cfg = 1 -> (1 <= plm_theta cfg <= 2)%R -> (0 < temperature_floor cfg <= 1)%R ->
  (1 / 1000 <= cfl cfg)%R -> 3 <= n -> 3 <= m -> spherical n m X Q -> (X 2%Z - X 1%Z <= 2 * (X 1%Z - X 0%Z))%R -> (0 < P)%nat -> Z.of_nat P <= n ->
  exists s U e, on_grid s n m X Q U /\ time s = t /\ CloudModel.run cfg fuel 2 s = Throw e /\
    forall order, (forall i k, stage_orders P fuel n m (order i k)) -> run_threads cfg fuel order 2 s = Ended.
Proof.
  intros G J HS RM RK TH FL HC Hn Hm SP GR HP HR. assert (MO : method_ok cfg m) by (right; lia).
  destruct (plm_empties_cell_refuted cfg fuel n m X Q t G J HS RM RK TH FL HC Hn Hm SP GR) as (s & U & Pr & s' & U' & ET & HU & _ & _ & E1 & HU' & NEG & _).
  destruct (empty_zone_throws (U' 1 0) (vol X Q 1 0) gamma_law_index (temperature_floor cfg)) as (e & HE); [apply NEG; lia|rewrite volume_spec; apply (volume_positive n m X Q 1 0 SP); lia|].
  assert (K : forall order, stage_orders P fuel n m order -> advance_threads cfg fuel order s' s' (step_of cfg X) = Ended /\ exists x, advance cfg fuel s' s' (step_of cfg X) = Throw x).
  { intros order HO. apply (cloud_failure_ends_process cfg fuel P n m X Q HS HP HR order s' s' _ U' 1 0 e); try assumption; try lia. }
  destruct (orders_exist P fuel n m HS HP HR) as (o & HO). destruct (K o HO) as [_ (x & EX)].
  assert (T : time_step cfg s' = Ok (step_of cfg X)) by exact (time_step_value cfg n m X Q s' U' ltac:(lia) ltac:(destruct (sizes_fit _ _ _ HS); unfold two64 in *; lia) HU').
  exists s, U, x. split; [exact HU|]. split; [exact ET|]. split.
  - cbn [CloudModel.run]. rewrite E1. cbn [bind]. unfold next_solution. rewrite T. cbn [bind]. rewrite RK. cbn [Z.eqb Pos.eqb]. rewrite EX. reflexivity.
  - intros order HO'. cbn [run_threads]. rewrite (next_same cfg fuel P n m X Q _ s s' U HS HP HR G MO HU (HO' 0%nat) E1). cbn [fbind call]. unfold next_solution_threads. rewrite T. cbn [call]. rewrite RK. cbn [Z.eqb Pos.eqb].
    rewrite (proj1 (K _ (HO' 1%nat 0%nat))). reflexivity.
Qed.
Lemma thirds_spherical : spherical 3 3 demo_X thirds.
Proof. unfold spherical, demo_X, thirds. pose proof PI_RGT_0. repeat split; try (cbn [Z.add Pos.add]; lra); intros k Hk; rewrite ?plus_IZR; try lra. Qed.
Lemma usual_good : good_cloud usual /\ JetProps.good (jet_of usual).
Proof.
  unfold good_cloud, JetProps.good, usual, jet_of. cbn [inner_radius cloud_cutoff density_index density_index2 cloud_mass JetModel.Ej JetModel.G0 JetModel.tj JetModel.qj JetModel.r0 jet_total_energy jet_gamma_beta jet_duration jet_opening_angle].
  assert (0 < 10 ^ 50)%R by (apply pow_lt; lra). repeat split; lra.
Qed.
(** Three shells and three zones with the default settings on two threads. *)
Lemma emptied_shell : exists s U e, on_grid s 3 3 demo_X thirds U /\ time s = 0%R /\ CloudModel.run usual 20 2 s = Throw e /\ forall order, (forall i k, stage_orders 2 20 3 3 (order i k)) -> run_threads usual 20 order 2 s = Ended.
Proof.
  apply emptied_shell_ends_process; try apply usual_good; try reflexivity; try lia; try apply thirds_spherical; try (cbn [plm_theta temperature_floor cfl usual]; lra).
  - unfold sizes. lia.
  - unfold demo_X. cbn [Z.add Pos.add]. lra.
Qed.
Theorem failures_reach_caller_refuted : ~ failures_reach_caller.
Proof.
  intros H. destruct emptied_shell as (s & U & e & HU & _ & E & N). assert (HS : sizes 20 3 3) by (unfold sizes; lia). destruct (orders_exist 2 20 3 3 HS ltac:(lia) ltac:(lia)) as (o & HO).
  destruct (H usual 20%nat 2%nat 3 3 demo_X thirds 2%nat (fun _ _ => o) s U e HS ltac:(lia) ltac:(lia) (proj1 usual_good) ltac:(right; cbn; lia) HU (fun _ _ => HO) E) as (e' & E').
  rewrite (N (fun _ _ => o) (fun _ _ => HO)) in E'. discriminate E'.
Qed.

(** *** Examples *)
(** Two threads on three rows of two, their assignments in turns: the array of one thread; and with an element that
    throws, the process ends where one thread throws. *)
Definition by_turns : list (list Z) := [[1; 0]; [0; 0]; [1; 1]; [2; 0]; [0; 1]; [2; 1]].
Definition sevens : array Z := mkarr [3; 2] (fun i => match i with [a; b] => Ok (7 * a + b) | _ => UB end).
Definition faulty : array Z := mkarr [3; 2] (fun i => match i with [2; 0] => Throw RuntimeError | [a; b] => Ok (7 * a + b) | _ => UB end).
Example by_turns_order : an_order 2 20 [3; 2] by_turns.
Proof.
  eexists. split; [vm_compute; reflexivity|]. unfold by_turns.
  apply (il_step [[[0; 0]; [0; 1]]] [1; 0] [[1; 1]; [2; 0]; [2; 1]] []). cbn [app].
  apply (il_step [] [0; 0] [[0; 1]] [[[1; 1]; [2; 0]; [2; 1]]]). cbn [app].
  apply (il_step [[[0; 1]]] [1; 1] [[2; 0]; [2; 1]] []). cbn [app].
  apply (il_step [[[0; 1]]] [2; 0] [[2; 1]] []). cbn [app].
  apply (il_step [] [0; 1] [] [[[2; 1]]]). cbn [app].
  apply (il_step [[]] [2; 1] [] []). cbn [app]. apply il_done. repeat constructor.
Qed.
Example by_turns_example : match evaluate_threads 0 sevens by_turns, evaluate 20 0 sevens with
  | Returns (Ok a), Ok b => ashape a = [3; 2] /\ mapM (aget a) (idxs [3; 2]) = Ok [0; 1; 7; 8; 14; 15] /\ mapM (aget b) (idxs [3; 2]) = Ok [0; 1; 7; 8; 14; 15]
  | _, _ => False end /\ evaluate_threads 0 faulty by_turns = Ended /\ evaluate 20 0 faulty = Throw RuntimeError.
Proof. vm_compute. repeat split; reflexivity. Qed.
(** The gas at rest of C86 on two threads, in some order, and so in every one. *)
Example cloud_step_on_threads_example : exists s' order, (forall i k, stage_orders 2 12 2 2 (order i k)) /\ CloudModel.run demo 12 1 (Solution 0 (vector 3 demo_X) (vector 3 demo_Q) (table 2 2 (resting 1 1 demo_X demo_Q))) = Ok s' /\
  run_threads demo 12 order 1 (Solution 0 (vector 3 demo_X) (vector 3 demo_Q) (table 2 2 (resting 1 1 demo_X demo_Q))) = Returns (Ok s').
Proof.
  destruct cloud_still_example as (s' & U' & E & _). assert (HS : sizes 12 2 2) by (unfold sizes; lia). destruct (orders_exist 2 12 2 2 HS ltac:(lia) ltac:(lia)) as (o & HO).
  assert (R : CloudModel.run demo 12 1 (Solution 0 (vector 3 demo_X) (vector 3 demo_Q) (table 2 2 (resting 1 1 demo_X demo_Q))) = Ok s') by (cbn [CloudModel.run]; rewrite E; reflexivity).
  exists s', (fun _ _ => o). split; [intros; exact HO|]. split; [exact R|].
  apply (cloud_run_on_threads demo 12 2 2 2 demo_X demo_Q HS ltac:(lia) ltac:(lia) (proj1 demo_good) ltac:(left; split; [reflexivity|lia]) 1 _ _ s' (resting 1 1 demo_X demo_Q)); [|intros; exact HO|exact R].
  split; [apply vector_rep|]. split; [apply vector_rep|]. apply table_grid.
Qed.
(** Two shells on the default twelve threads: shell 0 is assigned by two of them. *)
Example few_zones_example : exists a b la lb i, 0 <= a < 12 /\ 0 <= b < 12 /\ a <> b /\ thread_indexes 20 (stage_shape 2 2 1) 12 a = Ok la /\ thread_indexes 20 (stage_shape 2 2 1) 12 b = Ok lb /\ In i la /\ In i lb.
Proof. apply cloud_few_zones_race_refuted; lia. Qed.
Print Assumptions evaluate_drop_in.
Print Assumptions cloud_stage_on_threads.
Print Assumptions cloud_failure_ends_process.
Print Assumptions cloud_run_on_threads.
Print Assumptions cloud_few_zones_race_refuted.
Print Assumptions emptied_shell_ends_process.
Print Assumptions failures_reach_caller_refuted.
