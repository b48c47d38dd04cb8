(** C84: any, all, min, max and where look at every element (src/core_ndarray.hpp 1909-2053). *)
From Coq Require Import ZArith Reals List Bool Lia Lra Sorted.
From Verif Require Import Base NdModel NdSpec NdProofs NdProofs2 NdOpsModel NdOpsProofs ShockModel ReduceProofs.
Import ListNotations.
Open Scope Z_scope.

(** [F] is the content of the array: what reading it gives at every index inside its shape. *)
Definition holds {A} (a : array A) (F : list Z -> A) : Prop := forall i, inb (ashape a) i -> aget a i = Ok (F i).
Definition at_most (fuel : nat) (s : list Z) : Prop := s <> [] /\ Forall (fun d => 0 < d < two64) s /\ (Z.to_nat (prodz s) <= fuel)%nat.

Theorem any_correct fuel a F : at_most fuel (ashape a) -> holds a F ->
  exists b, arr_any fuel a = Ok b /\ (b = true <-> exists i, inb (ashape a) i /\ F i = true).
Proof.
  intros HI HF. exists (existsb F (idxs (ashape a))). split; [apply until_value; assumption|]. rewrite existsb_exists. split; intros (i & H1 & H2); exists i; (split; [apply idxs_In|]; assumption).
Qed.
Theorem all_correct fuel a F : at_most fuel (ashape a) -> holds a F ->
  exists b, arr_all fuel a = Ok b /\ (b = true <-> forall i, inb (ashape a) i -> F i = true).
Proof.
  intros HI HF. exists (negb (existsb (fun i => negb (F i)) (idxs (ashape a)))). split.
  - unfold arr_all. rewrite (until_value fuel (ashape a) _ (fun i => negb (F i)) HI); [reflexivity|]. intros i Hi. rewrite HF by exact Hi. reflexivity.
  - rewrite negb_true_iff, <- not_true_iff_false, existsb_exists. split.
    + intros N i Hi. destruct (F i) eqn:E; [reflexivity|]. exfalso. apply N. exists i. rewrite E. split; [apply idxs_In, Hi|reflexivity].
    + intros H (i & H1 & H2). rewrite H in H2 by (apply idxs_In, H1). discriminate.
Qed.
Lemma less_true x y : less x y = true <-> (x < y)%R. Proof. unfold less. destruct (Rlt_dec x y); split; try congruence; try lra; auto. Qed.
Lemma less_false x y : less x y = false <-> (y <= x)%R. Proof. unfold less. destruct (Rlt_dec x y); split; try congruence; try lra; intros; try (exfalso; lra); auto. Qed.
(** nd::min starts from a value-initialised result and a flag; nd::max likewise. *)
Theorem min_correct fuel a F : at_most fuel (ashape a) -> holds a F ->
  exists i, inb (ashape a) i /\ arr_best fuel less 0%R a = Ok (F i) /\ forall j, inb (ashape a) j -> (F i <= F j)%R.
Proof.
  intros HI HF. destruct (best_value less fuel 0%R a F HI) as (i & H1 & H2 & H3); [intros x y z; rewrite !less_false; lra|intros x y; rewrite less_true, less_false; lra|exact HF|].
  exists i. split; [exact H1|]. split; [exact H2|]. intros j Hj. apply less_false, H3, Hj.
Qed.
Theorem max_correct fuel a F : at_most fuel (ashape a) -> holds a F ->
  exists i, inb (ashape a) i /\ arr_best fuel (fun x r => less r x) 0%R a = Ok (F i) /\ forall j, inb (ashape a) j -> (F j <= F i)%R.
Proof.
  intros HI HF. destruct (best_value (fun x r => less r x) fuel 0%R a F HI) as (i & H1 & H2 & H3); [intros x y z; rewrite !less_false; lra|intros x y; rewrite less_true, less_false; lra|exact HF|].
  exists i. split; [exact H1|]. split; [exact H2|]. intros j Hj. apply less_false, H3, Hj.
Qed.

Lemma sorted_filter {A} (R : A -> A -> Prop) f l : StronglySorted R l -> StronglySorted R (filter f l).
Proof.
  induction 1 as [|x l HS IH HF]; cbn; [constructor|]. destruct (f x); [|exact IH]. constructor; [exact IH|]. apply Forall_forall. intros y Hy. apply filter_In in Hy as [Hy _]. rewrite Forall_forall in HF. apply HF, Hy.
Qed.
Lemma sorted_map_inv {A} (g : A -> Z) l : StronglySorted Z.lt (map g l) -> StronglySorted (fun x y => g x < g y) l.
Proof.
  induction l as [|x l IH]; cbn; intros H; [constructor|]. apply StronglySorted_inv in H as [H1 H2]. constructor; [apply IH, H1|]. rewrite Forall_forall in *. intros y Hy. apply H2, in_map, Hy.
Qed.
Lemma zrange_sorted n : StronglySorted Z.lt (zrange n).
Proof.
  unfold zrange. generalize 0%nat as k. induction (Z.to_nat n) as [|m IH]; intros k; cbn [seq map]; [constructor|]. constructor; [apply IH|]. apply Forall_forall. intros y Hy. apply in_map_iff in Hy as (j & <- & Hj). apply in_seq in Hj. lia.
Qed.
(** The result lists the indexes of the true elements, each once, in row-major order. *)
Theorem where_correct fuel a F : at_most fuel (ashape a) -> prodz (ashape a) <= 2147483647 -> holds a F ->
  exists w l, nd_where fuel a = Ok w /\ ashape w = [Z.of_nat (length l)] /\ (forall k, (k < length l)%nat -> aget w [Z.of_nat k] = Ok (nth k l [])) /\
    (forall i, In i l <-> inb (ashape a) i /\ F i = true) /\ StronglySorted (fun i j => lin (ashape a) i < lin (ashape a) j) l.
Proof.
  intros HI HV HF. destruct (where_value fuel a F HI HV HF) as (w & E & S & G). exists w, (filter F (idxs (ashape a))). split; [exact E|]. split; [exact S|]. split; [exact G|]. split.
  - intros i. rewrite filter_In, idxs_In. reflexivity.
  - apply sorted_filter, sorted_map_inv. rewrite lin_idxs; [apply zrange_sorted|]. destruct HI as (_ & HS & _). eapply Forall_impl; [|exact HS]. cbn. lia.
Qed.
(** Reductions of an array of length 0: the minimum is a value-initialised number. *)
Theorem empty_reductions fuel (a : array bool) (b : array R) : ashape a = [0] -> ashape b = [0] ->
  arr_any fuel a = Ok false /\ arr_all fuel a = Ok true /\ arr_best fuel less 0%R b = Ok 0%R /\ exists w, nd_where fuel a = Ok w /\ ashape w = [0].
Proof.
  intros EA EB. unfold arr_any, arr_all, arr_best, nd_where, arr_sum. cbn [arr_map ashape]. rewrite EA, EB. destruct fuel; cbn; repeat split; eexists; split; reflexivity.
Qed.

Example where_example : (do w <- nd_where 10 (mkarr [2; 3] (fun i => Ok (Z.odd (lin [2; 3] i)))); do l <- mapM (aget w) [[0]; [1]; [2]]; Ok (ashape w, l)) = Ok ([3], [[0; 1]; [1; 0]; [1; 2]]).
Proof. vm_compute. reflexivity. Qed.
Example any_all_example : arr_any 10 (mkarr [2; 3] (fun i => Ok (Z.eqb (lin [2; 3] i) 5))) = Ok true /\ arr_all 10 (mkarr [2; 3] (fun i => Ok (Z.ltb (lin [2; 3] i) 5))) = Ok false.
Proof. split; vm_compute; reflexivity. Qed.
Example min_example : arr_best 10 less 0%R (mkarr [3] (fun i => Ok (IZR (7 - hd 0 i * hd 0 i)))) = Ok 3%R.
Proof.
  destruct (min_correct 10 (mkarr [3] (fun i => Ok (IZR (7 - hd 0 i * hd 0 i)))) (fun i => IZR (7 - hd 0 i * hd 0 i))) as (i & H1 & H2 & H3).
  - split; [discriminate|]. split; [repeat constructor; cbn; unfold two64; lia|cbn; lia].
  - intros j _. reflexivity.
  - rewrite H2. f_equal. specialize (H3 [2] ltac:(repeat constructor; lia)). cbn [hd] in H3. apply le_IZR in H3. inversion H1 as [|d x s i' Hx Hr E1 E2]; subst. inversion Hr; subst. cbn [hd] in *. apply IZR_eq. assert (x = 0 \/ x = 1 \/ x = 2) by lia. lia.
Qed.
Print Assumptions any_correct.
Print Assumptions all_correct.
Print Assumptions min_correct.
Print Assumptions max_correct.
Print Assumptions where_correct.
Print Assumptions empty_reductions.
