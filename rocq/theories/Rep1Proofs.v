(** Arrays of rank 1 with total values, and the operators on them. *)
From Coq Require Import ZArith List Lia Bool.
From Verif Require Import Base NdModel NdSpec NdProofs NdProofs2 NdProofs3 NdOpsModel NdOpsProofs NdOpsProofs2 ProlongModel ProlongProofs MeshProps SedovModel.
Import ListNotations.
Open Scope Z_scope.

Definition rep1 {A} (a : array A) (n : Z) (F : Z -> A) : Prop := ashape a = [n] /\ forall k, 0 <= k < n -> aget a [k] = Ok (F k).
Lemma rep1_reps {A} (a : array A) n F : rep1 a n F -> reps a [n] (fun i => F (hd 0 i)).
Proof. intros [H1 H2]. split; [exact H1|]. intros i Hi. apply inb1 in Hi as (k & -> & Hk). apply H2. exact Hk. Qed.
Lemma reps_rep1 {A} (a : array A) n F : reps a [n] F -> rep1 a n (fun k => F [k]).
Proof. intros [H1 H2]. split; [exact H1|]. intros k Hk. apply H2. apply inb1. eauto. Qed.
Lemma rep1_ext {A} (a : array A) n F G : rep1 a n F -> (forall k, 0 <= k < n -> F k = G k) -> rep1 a n G.
Proof. intros [H1 H2] E. split; [exact H1|]. intros k Hk. rewrite H2, E by exact Hk. reflexivity. Qed.
Lemma rep1_same {A} (a : array A) n F G : rep1 a n F -> rep1 a n G -> forall k, 0 <= k < n -> F k = G k.
Proof. intros [_ H1] [_ H2] k Hk. specialize (H1 k Hk). specialize (H2 k Hk). congruence. Qed.
Lemma ok1 n : 0 <= n < two64 -> okshape [n].
Proof. intros H. repeat constructor; lia. Qed.

Lemma select1 {A} (a : array A) n F s f : 0 <= n < two64 -> 0 <= s -> 0 <= f -> s + f <= n -> rep1 a n F ->
  exists z, select_axis 0 s f 1 true a = Ok z /\ rep1 z (n - f - s) (fun k => F (s + k)).
Proof.
  intros Hn Hs Hf Hsf HR. apply rep1_reps in HR. destruct (select_unit_reps 0 s f (n - f) true a [n] _ (ok1 n Hn) ltac:(simpl; lia) HR) as (z & E & R); [simpl; apply w64_small; lia|lia|simpl; lia|].
  exists z. split; [exact E|]. apply reps_rep1 in R. exact R.
Qed.
Lemma concat1 {A} (a b : array A) na nb F G : 0 <= na -> 0 <= nb -> na + nb < two64 -> rep1 a na F -> rep1 b nb G ->
  exists c, concat_on 0 b a = Ok c /\ rep1 c (na + nb) (fun k => if k <? na then F k else G (k - na)).
Proof.
  intros Ha Hb Hs HA HB. apply rep1_reps in HA. apply rep1_reps in HB. destruct (concat_reps 0 a b [na] na nb _ _ (ok1 na ltac:(lia)) ltac:(simpl; lia) Ha Hb Hs HA HB) as (c & E & R).
  exists c. split; [exact E|]. apply reps_rep1 in R. exact R.
Qed.
Lemma binop1 {A B C} (f : A -> B -> C) a b n F G : rep1 a n F -> rep1 b n G -> exists z, binary_op f a b = Ok z /\ rep1 z n (fun k => f (F k) (G k)).
Proof. intros HA HB. apply rep1_reps in HA. apply rep1_reps in HB. destruct (binary_reps_gen f a b _ _ _ HA HB) as (z & E & R). exists z. split; [exact E|]. apply reps_rep1 in R. exact R. Qed.
Lemma zip1 {A B} (a : array A) (b : array B) n F G : rep1 a n F -> rep1 b n G -> exists z, zip2 a b = Ok z /\ rep1 z n (fun k => (F k, G k)).
Proof. apply binop1. Qed.
Lemma map1 {A B} (f : A -> B) a n F : rep1 a n F -> rep1 (arr_map f a) n (fun k => f (F k)).
Proof. intros [H1 H2]. split; [exact H1|]. intros k Hk. cbn [arr_map aget]. rewrite H2 by exact Hk. reflexivity. Qed.
Lemma mapM1 {A B} (f : A -> outcome B) a n F G : rep1 a n F -> (forall k, 0 <= k < n -> f (F k) = Ok (G k)) -> rep1 (arr_mapM f a) n G.
Proof. intros [H1 H2] HG. split; [exact H1|]. intros k Hk. cbn [arr_mapM aget]. rewrite H2 by exact Hk. bsimp. apply HG. exact Hk. Qed.
Lemma difference1 {A} (sub : A -> A -> A) a n F : 1 <= n < two64 -> rep1 a n F -> exists z, difference_on_axis sub 0 a = Ok z /\ rep1 z (n - 1) (fun k => sub (F (1 + k)) (F k)).
Proof.
  intros Hn HA. apply rep1_reps in HA. destruct (difference_reps_gen sub 0 a [n] _ (ok1 n ltac:(lia)) ltac:(simpl; lia) ltac:(simpl; lia) HA) as (z & E & R). exists z. split; [exact E|]. apply reps_rep1 in R. exact R.
Qed.
Lemma midpoint1 {A} (add : A -> A -> A) half a n F : 1 <= n < two64 -> rep1 a n F -> exists z, midpoint_on_axis add half 0 a = Ok z /\ rep1 z (n - 1) (fun k => half (add (F k) (F (1 + k)))).
Proof.
  intros Hn HA. apply rep1_reps in HA. destruct (midpoint_reps add half 0 a [n] _ (ok1 n ltac:(lia)) ltac:(simpl; lia) ltac:(simpl; lia) HA) as (z & E & R). exists z. split; [exact E|]. apply reps_rep1 in R. exact R.
Qed.
Lemma adjacent1 {A} (a : array A) n F : 1 <= n < two64 -> rep1 a n F -> exists z, zip_adjacent2_on_axis 0 a = Ok z /\ rep1 z (n - 1) (fun k => (F k, F (1 + k))).
Proof.
  intros Hn HA. unfold zip_adjacent2_on_axis. destruct (select1 a n F 0 1 ltac:(lia) ltac:(lia) ltac:(lia) ltac:(lia) HA) as (l & E1 & R1). destruct (select1 a n F 1 0 ltac:(lia) ltac:(lia) ltac:(lia) ltac:(lia) HA) as (r & E2 & R2).
  rewrite E1, E2. bsimp. replace (n - 1 - 0) with (n - 1) in R1 by lia. replace (n - 0 - 1) with (n - 1) in R2 by lia. exact (zip1 l r _ _ _ R1 R2).
Qed.
Lemma evaluate1 {A} fuel (d : A) a n F : 0 < n <= 2147483647 -> (Z.to_nat n <= fuel)%nat -> rep1 a n F -> exists z, evaluate fuel d a = Ok z /\ rep1 z n F.
Proof.
  intros Hn Hf [H1 H2]. destruct (evaluate_spec fuel d a) as (z & E & S & V).
  - rewrite H1. discriminate.
  - rewrite H1. repeat constructor. lia.
  - rewrite H1. simpl. lia.
  - rewrite H1. simpl. replace (n * 1) with n by lia. exact Hf.
  - rewrite H1. intros i Hi. apply inb1 in Hi as (k & -> & Hk). eauto.
  - exists z. split; [exact E|]. split; [congruence|]. intros k Hk. rewrite V; [apply H2; exact Hk|]. rewrite H1. apply inb1. eauto.
Qed.
Lemma first1 {A} (a : array A) n F : 1 <= n < two64 -> rep1 a n F -> exists z, select_first 1 0 a = Ok z /\ rep1 z 1 F.
Proof.
  intros Hn [H1 H2]. destruct (select_first_value 0 1 a) as [V _]; [rewrite H1; apply ok1; lia|rewrite H1; simpl; lia|unfold two64; lia|].
  destruct V as (z & E & S & G); [rewrite H1; simpl; lia|]. rewrite H1 in S. exists z. split; [exact E|]. split; [exact S|]. intros k Hk. rewrite G by (rewrite S; simpl; apply inb1; exists k; split; [reflexivity|lia]). simpl. apply H2. lia.
Qed.
Lemma final1 {A} (a : array A) n F : 1 <= n < two64 -> rep1 a n F -> exists z, select_final 1 0 a = Ok z /\ rep1 z 1 (fun k => F (n - 1 + k)).
Proof.
  intros Hn [H1 H2]. destruct (select_final_value 0 1 a) as [V _]; [rewrite H1; apply ok1; lia|rewrite H1; simpl; lia|unfold two64; lia|].
  destruct V as (z & E & S & G); [rewrite H1; simpl; lia|]. rewrite H1 in S. simpl in S. replace (n - (n - 1)) with 1 in S by lia. exists z. split; [exact E|]. split; [exact S|].
  intros k Hk. rewrite G by (rewrite S; apply inb1; exists k; split; [reflexivity|lia]). rewrite H1. simpl. apply H2. lia.
Qed.
