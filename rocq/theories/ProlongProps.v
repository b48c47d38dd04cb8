(** C39, C40: restriction, prolongation, splitting and recombining blocks. *)
From Coq Require Import ZArith List Lia Bool.
From Verif Require Import Base NdModel NdSpec NdProofs NdProofs2 NdProofs3 NdOpsModel NdOpsProofs NdOpsProofs2 ProlongModel ProlongProofs.
Import ListNotations.
Open Scope Z_scope.

(** The definitions over a list of axes are the written-out versions of the code. *)
Example refine_two_axes {A} (a : array A) :
  refine_cells [0; 1]%nat a =
  (let p := prolong_cells 1 (prolong_cells 0 a) in
   let lower := bisect_side bisect_cells false in let upper := bisect_side bisect_cells true in
   do c0 <- (do x <- lower 0%nat p; do y <- lower 1%nat x; Ok y);
   do cs <- mapM (fun f => f p) [ (fun p => do x <- upper 0%nat p; do y <- lower 1%nat x; Ok y);
                                  (fun p => do x <- lower 0%nat p; do y <- upper 1%nat x; Ok y);
                                  (fun p => do x <- upper 0%nat p; do y <- upper 1%nat x; Ok y)];
   Ok (c0 :: cs)).
Proof. reflexivity. Qed.
Example orthants_three_axes : orthants [0; 1; 2]%nat =
  [[false; false; false]; [true; false; false]; [false; true; false]; [true; true; false];
   [false; false; true]; [true; false; true]; [false; true; true]; [true; true; true]].
Proof. reflexivity. Qed.
Example combine_four {A} (c0 c1 c2 c3 : array A) :
  combine_cells [0; 1]%nat [c0; c1; c2; c3] =
  (do c <- (do c01 <- concat_on 0 c1 c0; do c23 <- (do c23 <- concat_on 0 c3 c2; Ok [c23]); Ok (c01 :: c23));
   do c <- pairwise (join_cells 1) c; match c with [c] => Ok c | _ => Throw LogicError end).
Proof. reflexivity. Qed.

(** The axes of a block of rank D are 0..D-1; every axis has at least one entry, and twice the
    entries fit size_t. *)
Definition block (D : nat) (s : list Z) : Prop := length s = D /\ Forall (fun n => 1 <= n /\ 2 * n + 2 < 2 ^ 64) s.

Lemma block_small D s : block D s -> okshape s /\ small (seq 0 D) s /\ NoDup (seq 0 D).
Proof.
  intros [HL HF]. change (2 ^ 64) with two64 in HF. split; [|split].
  - eapply Forall_impl; [|exact HF]. intros n Hn; cbv beta in *. change (0 <= n < two64). lia.
  - apply Forall_forall. intros ax Hax. apply in_seq in Hax. split; [lia|]. rewrite Forall_forall in HF. apply HF. apply nth_In. lia.
  - apply seq_NoDup.
Qed.

Section Elements.
Context {A : Type} (add : A -> A -> A) (half : A -> A).
Hypothesis half_double : forall x, half (add x x) = x.

Lemma cells_prolong_hyp : forall ax (a : array A) sh F, okshape sh -> (ax < length sh)%nat -> 1 <= nth ax sh 0 -> 2 * nth ax sh 0 < two64 ->
  reps a sh F -> reps (prolong_cells ax a) (upd ax (2 * nth ax sh 0 - 0) sh) (Pc ax F).
Proof. intros. rewrite Z.sub_0_r. apply prolong_cells_reps; assumption. Qed.
Lemma cells_restrict_hyp : forall ax (a : array A) sh F n, okshape sh -> (ax < length sh)%nat -> 1 <= n -> nth ax sh 0 = 2 * n - 0 -> nth ax sh 0 + 2 < two64 ->
  reps a sh F -> exists r, restrict_cells add half ax a = Ok r /\ reps r (upd ax n sh) (Rc add half ax F).
Proof. intros. apply restrict_cells_reps; try assumption. lia. Qed.

(** ** C39 *)

(** Averaging down what was just prolonged, in any number of dimensions. *)
Theorem coarsen_after_prolong_cells (D : nat) (a : array A) (F : list Z -> A) :
  block D (ashape a) -> (forall i, inb (ashape a) i -> aget a i = Ok (F i)) ->
  exists r, coarsen_cells add half (seq 0 D) (prolong_all prolong_cells (seq 0 D) a) = Ok r /\ same r a.
Proof.
  intros HB HF. destruct (block_small _ _ HB) as (HO & HS & HN).
  apply (coarsen_prolong prolong_cells (restrict_cells add half) Pc (Rc add half) 0 (or_introl eq_refl)
          cells_prolong_hyp cells_restrict_hyp _ a (ashape a) F (lawful_cells add half half_double) HO HN HS). split; [reflexivity|assumption].
Qed.
Theorem coarsen_after_prolong_verts (D : nat) (a : array A) (F : list Z -> A) :
  block D (ashape a) -> (forall i, inb (ashape a) i -> aget a i = Ok (F i)) ->
  exists r, coarsen_verts (seq 0 D) (prolong_all (prolong_verts add half) (seq 0 D) a) = Ok r /\ same r a.
Proof.
  intros HB HF. destruct (block_small _ _ HB) as (HO & HS & HN).
  apply (coarsen_prolong (prolong_verts add half) restrict_verts (Pv add half) Rv 1 (or_intror eq_refl)
          (prolong_verts_reps add half) restrict_verts_reps _ a (ashape a) F (lawful_verts add half half_double) HO HN HS). split; [reflexivity|assumption].
Qed.

(** ** C40 *)

(** The 2^D children, combined, are the prolonged block. *)
Theorem combine_after_refine_cells (D : nat) (a : array A) (F : list Z -> A) :
  block D (ashape a) -> (forall i, inb (ashape a) i -> aget a i = Ok (F i)) ->
  exists cs c, refine_cells (seq 0 D) a = Ok cs /\ length cs = (2 ^ D)%nat /\ combine_cells (seq 0 D) cs = Ok c /\
    same c (prolong_all prolong_cells (seq 0 D) a).
Proof.
  clear half_double. intros HB HF. destruct (block_small _ _ HB) as (HO & HS & HN).
  destruct (prolong_all_reps prolong_cells Pc 0 (or_introl eq_refl) cells_prolong_hyp (seq 0 D) a (ashape a) F HO HN HS (conj eq_refl HF)) as [HO' HR'].
  destruct (split_combine bisect_cells join_cells 0 (or_introl eq_refl) bisect_cells_reps join_cells_reps (seq 0 D) _ _ _ HO' HN
     (scale_splittable 0 0 _ _ (or_introl (conj eq_refl eq_refl)) HN HS) HR') as (cs & c & E1 & E2 & RC).
  exists cs, c. split; [exact E1|]. split; [|split; [exact E2|eapply reps_same; eassumption]].
  assert (LM : forall (B C : Type) (f : B -> outcome C) l r, mapM f l = Ok r -> length r = length l).
  { clear. induction l as [|x l IH]; simpl; intros r E; [injection E as <-; reflexivity|].
    apply bind_ok_inv in E as (y & _ & E). apply bind_ok_inv in E as (ys & E & EE). injection EE as <-. simpl. f_equal. apply IH; assumption. }
  rewrite (LM _ _ _ _ _ E1). clear. enough (G : forall D s, length (orthants (seq s D)) = (2 ^ D)%nat) by apply G.
  clear. induction D as [|D IH]; intros s; [reflexivity|].
  cbn [seq orthants]. assert (L2 : forall l : list (list bool), length (flat_map (fun bs => [false :: bs; true :: bs]) l) = (2 * length l)%nat).
  { induction l; simpl in *; lia. }
  rewrite L2, IH. reflexivity.
Qed.

(** For vertices in one and two dimensions; in three, combine_verts always throws. *)
Theorem combine_after_refine_verts (D : nat) (a : array A) (F : list Z -> A) :
  (D <= 2)%nat -> block D (ashape a) -> (forall i, inb (ashape a) i -> aget a i = Ok (F i)) ->
  exists cs c, refine_verts add half (seq 0 D) a = Ok cs /\ combine_verts (seq 0 D) cs = Ok c /\
    same c (prolong_all (prolong_verts add half) (seq 0 D) a).
Proof.
  clear half_double. intros HD HB HF. destruct (block_small _ _ HB) as (HO & HS & HN).
  destruct (prolong_all_reps (prolong_verts add half) (Pv add half) 1 (or_intror eq_refl) (prolong_verts_reps add half) (seq 0 D) a (ashape a) F HO HN HS (conj eq_refl HF)) as [HO' HR'].
  destruct (split_combine bisect_verts join_verts 1 (or_intror eq_refl) bisect_verts_reps join_verts_reps (seq 0 D) _ _ _ HO' HN
     (scale_splittable 1 1 _ _ (or_intror (conj eq_refl eq_refl)) HN HS) HR') as (cs & c & E1 & E2 & RC).
  exists cs, c. split; [exact E1|]. split; [|eapply reps_same; eassumption].
  unfold combine_verts. rewrite seq_length. destruct (Nat.leb_spec D 2); [exact E2|lia].
Qed.
Theorem combine_verts_three_axes_refuted (cs : list (array A)) : combine_verts (seq 0 3) cs = Throw LogicError.
Proof. reflexivity. Qed.

(** So averaging down the recombined children of a block gives the block. *)
Theorem coarsen_after_refine_cells (D : nat) (a : array A) (F : list Z -> A) :
  block D (ashape a) -> (forall i, inb (ashape a) i -> aget a i = Ok (F i)) ->
  exists cs c r, refine_cells (seq 0 D) a = Ok cs /\ combine_cells (seq 0 D) cs = Ok c /\
    coarsen_cells add half (seq 0 D) c = Ok r /\ same r a.
Proof.
  intros HB HF. destruct (block_small _ _ HB) as (HO & HS & HN).
  destruct (prolong_all_reps prolong_cells Pc 0 (or_introl eq_refl) cells_prolong_hyp (seq 0 D) a (ashape a) F HO HN HS (conj eq_refl HF)) as [HO' HR'].
  destruct (split_combine bisect_cells join_cells 0 (or_introl eq_refl) bisect_cells_reps join_cells_reps (seq 0 D) _ _ _ HO' HN
     (scale_splittable 0 0 _ _ (or_introl (conj eq_refl eq_refl)) HN HS) HR') as (cs & c & E1 & E2 & RC).
  destruct (restrict_all_reps (restrict_cells add half) (Rc add half) 0 (or_introl eq_refl) cells_restrict_hyp (seq 0 D) c (ashape a) _ HO HN HS HO' RC) as (r & ER & RR).
  exists cs, c, r. split; [exact E1|]. split; [exact E2|]. split; [exact ER|].
  eapply reps_same; [|split; [reflexivity|exact HF]]. eapply reps_ext; [exact RR|]. intros i Hi.
  apply (Rall_Pall Pc (Rc add half) (lawful_cells add half half_double) (length (ashape a))); [assumption| |symmetry; apply inb_length; assumption].
  eapply Forall_impl; [|exact HS]. simpl. tauto.
Qed.

(** Bisecting along one axis and joining gives the block back; wrong parities, and only they, throw. *)
Theorem bisect_cells_and_join (ax : nat) (a : array A) (F : list Z -> A) :
  okshape (ashape a) -> (ax < length (ashape a))%nat -> (forall i, inb (ashape a) i -> aget a i = Ok (F i)) ->
  (nth ax (ashape a) 0 mod 2 = 0 -> exists l u c, bisect_cells ax a = Ok (l, u) /\ join_cells ax l u = Ok c /\ same c a /\
      nth ax (ashape l) 0 = nth ax (ashape a) 0 / 2 /\ ashape l = ashape u) /\
  (nth ax (ashape a) 0 mod 2 <> 0 -> bisect_cells ax a = Throw InvalidArgument).
Proof.
  clear half_double half add. intros HO HL HF. pose proof (okshape_nth _ _ HO HL) as HN. split; intros Q.
  - assert (EH : nth ax (ashape a) 0 = 2 * (nth ax (ashape a) 0 / 2) + 0) by (pose proof (Z.div_mod (nth ax (ashape a) 0) 2 ltac:(lia)); lia).
    set (h := nth ax (ashape a) 0 / 2) in *. assert (0 <= h) by lia.
    destruct (bisect_cells_reps ax a (ashape a) F h HO HL ltac:(lia) EH (conj eq_refl HF)) as (l & u & E & RL & RU).
    destruct (join_cells_reps ax l u (ashape a) _ _ h HO HL ltac:(lia) ltac:(lia) RL RU) as (c & EC & RC).
    exists l, u, c. split; [assumption|]. split; [assumption|]. rewrite <- EH, upd_nth in RC. split.
    + eapply reps_same; [|split; [reflexivity|exact HF]]. eapply reps_ext; [exact RC|]. intros i Hi. cbv beta.
      destruct (Z.ltb_spec (nth ax i 0) h); [reflexivity|]. assert (ax < length i)%nat by (rewrite <- (inb_length _ _ Hi); assumption).
      rewrite nth_upd by assumption. rewrite upd_upd. replace (h + (nth ax i 0 - h)) with (nth ax i 0) by lia. rewrite upd_nth. reflexivity.
    + rewrite (proj1 RL), (proj1 RU). rewrite nth_upd by assumption. split; [lia|reflexivity].
  - unfold bisect_cells. destruct (Z.eqb_spec (nth ax (ashape a) 0 mod 2) 0); [contradiction|reflexivity].
Qed.
Theorem bisect_verts_and_join (ax : nat) (a : array A) (F : list Z -> A) :
  okshape (ashape a) -> (ax < length (ashape a))%nat -> (forall i, inb (ashape a) i -> aget a i = Ok (F i)) ->
  (nth ax (ashape a) 0 mod 2 <> 0 -> exists l u c, bisect_verts ax a = Ok (l, u) /\ join_verts ax l u = Ok c /\ same c a /\
      nth ax (ashape l) 0 = nth ax (ashape a) 0 / 2 + 1 /\ ashape l = ashape u) /\
  (nth ax (ashape a) 0 mod 2 = 0 -> bisect_verts ax a = Throw InvalidArgument).
Proof.
  clear half_double half add. intros HO HL HF. pose proof (okshape_nth _ _ HO HL) as HN. split; intros Q.
  - assert (EH : nth ax (ashape a) 0 = 2 * (nth ax (ashape a) 0 / 2) + 1).
    { pose proof (Z.div_mod (nth ax (ashape a) 0) 2 ltac:(lia)). pose proof (Z.mod_pos_bound (nth ax (ashape a) 0) 2 ltac:(lia)). lia. }
    set (h := nth ax (ashape a) 0 / 2) in *. assert (0 <= h) by lia.
    destruct (bisect_verts_reps ax a (ashape a) F h HO HL ltac:(lia) EH (conj eq_refl HF)) as (l & u & E & RL & RU).
    destruct (join_verts_reps ax l u (ashape a) _ _ h HO HL ltac:(lia) ltac:(lia) RL RU) as (c & EC & RC).
    exists l, u, c. split; [assumption|]. split; [assumption|]. rewrite <- EH, upd_nth in RC. split.
    + eapply reps_same; [|split; [reflexivity|exact HF]]. eapply reps_ext; [exact RC|]. intros i Hi. cbv beta.
      destruct (Z.ltb_spec (nth ax i 0) h); [reflexivity|]. assert (ax < length i)%nat by (rewrite <- (inb_length _ _ Hi); assumption).
      rewrite nth_upd by assumption. rewrite upd_upd. replace (h + (nth ax i 0 - h)) with (nth ax i 0) by lia. rewrite upd_nth. reflexivity.
    + rewrite (proj1 RL), (proj1 RU). rewrite nth_upd by assumption. split; [lia|reflexivity].
  - unfold bisect_verts. destruct (Z.eqb_spec (nth ax (ashape a) 0 mod 2) 0); [reflexivity|contradiction].
Qed.
End Elements.

(** ** C39, conservation *)

Section Sums.
Context {A : Type} (zero : A) (add : A -> A -> A) (half : A -> A).
Hypothesis add_comm : forall x y, add x y = add y x.
Hypothesis add_assoc : forall x y z, add x (add y z) = add (add x y) z.
Hypothesis add_0 : forall x, add zero x = x.

Lemma pair_sum1 (G : Z -> A) n : 0 <= n -> total zero add G (zrange (2 * n)) = total zero add (fun k => add (G (2 * k)) (G (1 + 2 * k))) (zrange n).
Proof.
  intros Hn. rewrite <- (Z2Nat.id n Hn). generalize (Z.to_nat n) as m. induction m as [|m IH]; [reflexivity|].
  replace (Z.of_nat (S m)) with (Z.of_nat m + 1) by lia. replace (2 * (Z.of_nat m + 1)) with (2 * Z.of_nat m + 1 + 1) by lia.
  rewrite !zrange_S by lia. rewrite !(total_app zero add add_assoc add_0). rewrite IH. cbn [total].
  replace (1 + 2 * Z.of_nat m) with (2 * Z.of_nat m + 1) by lia. rewrite !(add_comm _ zero), !add_0. rewrite <- add_assoc. reflexivity.
Qed.
Lemma pair_sum ax s n (G : list Z -> A) : (ax < length s)%nat -> 0 <= n ->
  total zero add G (idxs (upd ax (2 * n) s)) = total zero add (Rx add ax G) (idxs (upd ax n s)).
Proof.
  intros HL Hn. revert ax HL G; induction s as [|d s IH]; intros [|ax] HL G; cbn [length] in HL; try lia; cbn [upd idxs].
  - rewrite !(total_flat zero add add_assoc add_0).
    transitivity (total zero add (fun x => total zero add (fun t => G (x :: t)) (idxs s)) (zrange (2 * n))).
    + apply total_ext. intros x _. apply total_map.
    + rewrite pair_sum1 by assumption. apply total_ext. intros x _. rewrite total_map. unfold Rx. cbn [upd nth].
      rewrite (total_plus zero add add_comm add_assoc add_0). reflexivity.
  - rewrite !(total_flat zero add add_assoc add_0). apply total_ext. intros x _. rewrite !total_map.
    apply (IH ax ltac:(lia) (fun t => G (x :: t))).
Qed.

(** Summing down conserves the sum over all cells, along any axis of even extent. *)
Theorem restrict_extrinsic_conserves (fuel ax : nat) (a : array A) (F : list Z -> A) (n : Z) :
  (ax < length (ashape a))%nat -> Forall (fun d => 0 < d) (ashape a) -> prodz (ashape a) + 2 < 2 ^ 64 ->
  nth ax (ashape a) 0 = 2 * n -> (Z.to_nat (prodz (ashape a)) <= fuel)%nat ->
  (forall i, inb (ashape a) i -> aget a i = Ok (F i)) ->
  exists r t, restrict_extrinsic add ax a = Ok r /\ ashape r = upd ax n (ashape a) /\
    arr_sum fuel zero add a = Ok t /\ arr_sum fuel zero add r = Ok t.
Proof.
  intros HL HP HB EN Hf HF. change (2 ^ 64) with two64 in HB.
  pose proof (pos_bounded _ HP ltac:(lia)) as HPB. pose proof (pos_okshape _ HPB) as HO.
  pose proof (prodz_ge ax _ HP HL) as HG.
  assert (Hn : 1 <= n). { rewrite Forall_forall in HP. specialize (HP (nth ax (ashape a) 0) (nth_In _ _ HL)). lia. }
  assert (Hne : ashape a <> []) by (destruct (ashape a); [simpl in HL; lia|discriminate]).
  destruct (restrict_extrinsic_reps add ax a (ashape a) F n HO HL Hn EN ltac:(lia) (conj eq_refl HF)) as (r & ER & R1 & R2).
  exists r, (total zero add F (idxs (ashape a))). split; [assumption|]. split; [assumption|]. split.
  - apply arr_sum_total; assumption.
  - rewrite (arr_sum_total zero add add_comm add_assoc add_0 fuel r (Rx add ax F)).
    + rewrite R1. rewrite <- pair_sum by (assumption || lia). rewrite <- EN, upd_nth. reflexivity.
    + rewrite R1. apply upd_nonnil. assumption.
    + rewrite R1. apply pos_upd; [assumption|]. unfold two64 in *. lia.
    + rewrite R1. etransitivity; [|exact Hf]. apply Z2Nat.inj_le; [| |apply prodz_upd_le; auto; lia].
      * apply prodz_nonneg. eapply Forall_impl; [|apply (pos_upd ax n _ HPB); unfold two64 in *; lia]. simpl; lia.
      * apply prodz_nonneg. eapply Forall_impl; [|exact HP]. simpl; lia.
    + rewrite R1. exact R2.
Qed.

(** Averaging down halves the sum (so keeps the mean, as there are half as many cells). *)
Theorem restrict_cells_conserves_mean (fuel ax : nat) (a : array A) (F : list Z -> A) (n : Z) :
  (forall x, add (half x) (half x) = x) ->
  (ax < length (ashape a))%nat -> Forall (fun d => 0 < d) (ashape a) -> prodz (ashape a) + 2 < 2 ^ 64 ->
  nth ax (ashape a) 0 = 2 * n -> (Z.to_nat (prodz (ashape a)) <= fuel)%nat ->
  (forall i, inb (ashape a) i -> aget a i = Ok (F i)) ->
  exists r t u, restrict_cells add half ax a = Ok r /\ ashape r = upd ax n (ashape a) /\
    arr_sum fuel zero add a = Ok t /\ arr_sum fuel zero add r = Ok u /\ add u u = t.
Proof.
  intros HH HL HP HB EN Hf HF. change (2 ^ 64) with two64 in HB.
  pose proof (pos_bounded _ HP ltac:(lia)) as HPB. pose proof (pos_okshape _ HPB) as HO.
  pose proof (prodz_ge ax _ HP HL) as HG.
  assert (Hn : 1 <= n). { rewrite Forall_forall in HP. specialize (HP (nth ax (ashape a) 0) (nth_In _ _ HL)). lia. }
  assert (Hne : ashape a <> []) by (destruct (ashape a); [simpl in HL; lia|discriminate]).
  destruct (restrict_cells_reps add half ax a (ashape a) F n HO HL Hn EN ltac:(lia) (conj eq_refl HF)) as (r & ER & R1 & R2).
  exists r, (total zero add F (idxs (ashape a))), (total zero add (Rc add half ax F) (idxs (ashape r))).
  split; [assumption|]. split; [assumption|]. split; [|split].
  - apply arr_sum_total; assumption.
  - apply arr_sum_total; try assumption.
    + rewrite R1. apply upd_nonnil. assumption.
    + rewrite R1. apply pos_upd; [assumption|]. unfold two64 in *. lia.
    + rewrite R1. etransitivity; [|exact Hf]. apply Z2Nat.inj_le; [| |apply prodz_upd_le; auto; lia].
      * apply prodz_nonneg. eapply Forall_impl; [|apply (pos_upd ax n _ HPB); unfold two64 in *; lia]. simpl; lia.
      * apply prodz_nonneg. eapply Forall_impl; [|exact HP]. simpl; lia.
    + rewrite R1. exact R2.
  - rewrite <- (total_plus zero add add_comm add_assoc add_0). rewrite R1.
    rewrite (total_ext zero add _ (Rx add ax F)); [|intros i _; apply HH].
    rewrite <- pair_sum by (assumption || lia). rewrite <- EN, upd_nth. reflexivity.
Qed.
End Sums.

(** With an odd extent the last cell is dropped. *)
Theorem restrict_extrinsic_odd_extent_refuted :
  let a := mkarr [3] (fun i => Ok (nth (Z.to_nat (hd 0 i)) [1; 2; 4] 0)) in
  arr_sum 10 0 Z.add a = Ok 7 /\ (do r <- restrict_extrinsic Z.add 0 a; arr_sum 10 0 Z.add r) = Ok 3.
Proof. vm_compute. split; reflexivity. Qed.

Example prolong_example :
  let a := mkarr [2; 3] (fun i => Ok (100 * nth 0 i 0 + 10 * nth 1 i 0)) in
  let elements b := mapM (aget b) (idxs (ashape b)) in
  elements (prolong_cells 0 a) = Ok [0; 10; 20; 0; 10; 20; 100; 110; 120; 100; 110; 120] /\
  elements (prolong_verts Z.add (fun x => x / 2) 1 a) = Ok [0; 5; 10; 15; 20; 100; 105; 110; 115; 120] /\
  (do r <- restrict_cells Z.add (fun x => x / 2) 0 a; elements r) = Ok [50; 60; 70] /\
  (do cs <- refine_cells [0; 1]%nat a; do x <- mapM elements cs; Ok (nth 1 x [])) = Ok [100; 100; 110; 100; 100; 110] /\
  bisect_cells 1 a = Throw InvalidArgument.
Proof. vm_compute. repeat split; reflexivity. Qed.

Print Assumptions coarsen_after_prolong_cells.
Print Assumptions coarsen_after_prolong_verts.
Print Assumptions combine_after_refine_cells.
Print Assumptions combine_after_refine_verts.
Print Assumptions combine_verts_three_axes_refuted.
Print Assumptions coarsen_after_refine_cells.
Print Assumptions bisect_cells_and_join.
Print Assumptions bisect_verts_and_join.
Print Assumptions restrict_extrinsic_conserves.
Print Assumptions restrict_cells_conserves_mean.
Print Assumptions restrict_extrinsic_odd_extent_refuted.
