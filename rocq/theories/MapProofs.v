(** Finite maps: lookup laws and extensionality. *)
From Coq Require Import List Arith Ascii Bool Lia Permutation.
From Verif Require Import Base StrModel MapModel.
Import ListNotations.
Close Scope Z_scope.
Open Scope nat_scope.

Lemma nat_of_ascii_inj x y : nat_of_ascii x = nat_of_ascii y -> x = y.
Proof. intros H. rewrite <- (ascii_nat_embedding x), <- (ascii_nat_embedding y), H. reflexivity. Qed.

Lemma cmp_eq a : forall b, str_cmp a b = Eq <-> a = b.
Proof.
  induction a as [|x a IH]; intros [|y b]; simpl; split; intros H; try discriminate; auto.
  - destruct (nat_of_ascii x ?= nat_of_ascii y) eqn:E; try discriminate.
    apply Nat.compare_eq in E. apply nat_of_ascii_inj in E. apply IH in H. congruence.
  - injection H as -> ->. rewrite Nat.compare_refl. apply IH. reflexivity.
Qed.

Lemma cmp_refl a : str_cmp a a = Eq.
Proof. apply cmp_eq. reflexivity. Qed.

Lemma cmp_sym a : forall b, str_cmp b a = CompOpp (str_cmp a b).
Proof.
  induction a as [|x a IH]; intros [|y b]; simpl; auto.
  rewrite (Nat.compare_antisym (nat_of_ascii x) (nat_of_ascii y)).
  destruct (nat_of_ascii x ?= nat_of_ascii y); simpl; auto.
Qed.

Lemma cmp_lt_trans a : forall b c, str_cmp a b = Lt -> str_cmp b c = Lt -> str_cmp a c = Lt.
Proof.
  induction a as [|x a IH]; intros [|y b] [|z c] H1 H2; simpl in *; try discriminate; auto.
  destruct (nat_of_ascii x ?= nat_of_ascii y) eqn:E1; try discriminate;
  destruct (nat_of_ascii y ?= nat_of_ascii z) eqn:E2; try discriminate;
    rewrite ?Nat.compare_eq_iff, ?Nat.compare_lt_iff in *.
  - rewrite E1, E2, Nat.compare_refl. eauto.
  - replace (nat_of_ascii x ?= nat_of_ascii z) with Lt; auto. symmetry. apply Nat.compare_lt_iff. lia.
  - replace (nat_of_ascii x ?= nat_of_ascii z) with Lt; auto. symmetry. apply Nat.compare_lt_iff. lia.
  - replace (nat_of_ascii x ?= nat_of_ascii z) with Lt; auto. symmetry. apply Nat.compare_lt_iff. lia.
Qed.

Lemma str_dec (a b : str) : {a = b} + {a <> b}.
Proof. apply list_eq_dec. apply ascii_dec. Qed.

Section maps.
  Context {V : Type}.
  Implicit Types m : smap V.

  Lemma mset_lower k v k0 m : str_cmp k0 k = Lt -> Forall (fun e => str_cmp k0 (fst e) = Lt) m ->
    Forall (fun e => str_cmp k0 (fst e) = Lt) (mset k v m).
  Proof.
    intros Hk H. induction H as [|[k' v'] m H HF IH]; cbn [mset]; [repeat constructor; auto|].
    destruct (str_cmp k k'); repeat constructor; auto.
  Qed.

  Lemma mset_sorted k v m : msorted m -> msorted (mset k v m).
  Proof.
    induction 1 as [|k' v' m HF HS IH]; cbn [mset]; [repeat constructor|].
    destruct (str_cmp k k') eqn:E.
    - apply cmp_eq in E. subst k'. constructor; auto.
    - constructor; [|constructor; auto]. constructor; [exact E|].
      eapply Forall_impl; [|exact HF]. intros e He. eapply cmp_lt_trans; eauto.
    - constructor; auto. apply mset_lower; auto. rewrite cmp_sym, E. reflexivity.
  Qed.

  Lemma mfind_low k m : Forall (fun e => str_cmp k (fst e) = Lt) m -> mfind k m = None.
  Proof. intros H. destruct H as [|[k' v'] m H HF]; cbn; auto. cbn in H. rewrite H. reflexivity. Qed.

  Lemma mfind_mset_eq k v m : mfind k (mset k v m) = Some v.
  Proof.
    induction m as [|[k' v'] m IH]; cbn [mset mfind]; [rewrite cmp_refl; reflexivity|].
    destruct (str_cmp k k') eqn:E; cbn [mfind]; rewrite ?cmp_refl, ?E; auto.
  Qed.

  Lemma mfind_mset_neq k k0 v m : msorted m -> k0 <> k -> mfind k0 (mset k v m) = mfind k0 m.
  Proof.
    intros HS Hne. induction HS as [|k' v' m HF HS IH]; cbn [mset mfind].
    - destruct (str_cmp k0 k) eqn:E; auto. apply cmp_eq in E. congruence.
    - destruct (str_cmp k k') eqn:E; cbn [mfind].
      + apply cmp_eq in E. subst k'. destruct (str_cmp k0 k) eqn:E0; auto. apply cmp_eq in E0. congruence.
      + destruct (str_cmp k0 k) eqn:E0; auto.
        * apply cmp_eq in E0. congruence.
        * rewrite (cmp_lt_trans k0 k k'); auto.
      + rewrite IH. reflexivity.
  Qed.

  Lemma mfind_in k v m : msorted m -> (mfind k m = Some v <-> In (k, v) m).
  Proof.
    intros HS. induction HS as [|k' v' m HF HS IH]; cbn [mfind].
    - split; [discriminate|intros []].
    - destruct (str_cmp k k') eqn:E.
      + apply cmp_eq in E. subst k'. split; intros H; [injection H as ->; left; reflexivity|].
        destruct H as [H|H]; [congruence|]. rewrite Forall_forall in HF. apply HF in H. cbn in H.
        rewrite cmp_refl in H. discriminate.
      + split; [discriminate|]. intros [H|H]; [injection H as -> ->; rewrite cmp_refl in E; discriminate|].
        rewrite Forall_forall in HF. apply HF in H. cbn in H. rewrite cmp_sym, H in E. discriminate.
      + rewrite IH. split; intros H; [right; auto|]. destruct H as [H|H]; auto.
        injection H as -> ->. rewrite cmp_refl in E. discriminate.
  Qed.

  Lemma mext m1 : forall m2, msorted m1 -> msorted m2 -> (forall k, mfind k m1 = mfind k m2) -> m1 = m2.
  Proof.
    induction m1 as [|[k1 v1] m1 IH]; intros [|[k2 v2] m2] H1 H2 HE; auto.
    - specialize (HE k2). cbn in HE. rewrite cmp_refl in HE. discriminate.
    - specialize (HE k1). cbn in HE. rewrite cmp_refl in HE. discriminate.
    - inversion H1 as [|? ? ? F1 S1]; inversion H2 as [|? ? ? F2 S2]; subst.
      assert (Hk : str_cmp k1 k2 = Eq).
      { pose proof (HE k1) as E1. pose proof (HE k2) as E2. cbn in E1, E2. rewrite cmp_refl in E1, E2.
        destruct (str_cmp k1 k2) eqn:E; auto; try discriminate.
        rewrite cmp_sym, E in E2. cbn in E2. discriminate. }
      apply cmp_eq in Hk. subst k2.
      assert (v1 = v2) by (specialize (HE k1); cbn in HE; rewrite cmp_refl in HE; congruence). subst v2.
      f_equal. apply IH; auto. intros k. specialize (HE k). cbn in HE.
      destruct (str_cmp k k1) eqn:E; auto.
      + apply cmp_eq in E. subst k. rewrite !mfind_low; auto.
      + rewrite !mfind_low; auto; eapply Forall_impl; try eassumption; intros e He; eapply cmp_lt_trans; eauto.
  Qed.

  Lemma mset_same k v m : msorted m -> mfind k m = Some v -> mset k v m = m.
  Proof.
    intros HS H. apply mext; auto using mset_sorted. intros k0. destruct (str_dec k0 k) as [->|Hne].
    - rewrite mfind_mset_eq. auto.
    - apply mfind_mset_neq; auto.
  Qed.

  Lemma mset_twice k v v' m : msorted m -> mset k v (mset k v' m) = mset k v m.
  Proof.
    intros HS. apply mext; auto using mset_sorted. intros k0. destruct (str_dec k0 k) as [->|Hne].
    - rewrite !mfind_mset_eq. auto.
    - rewrite !mfind_mset_neq; auto using mset_sorted.
  Qed.

  Lemma mset_comm k k' v v' m : msorted m -> k <> k' -> mset k v (mset k' v' m) = mset k' v' (mset k v m).
  Proof.
    intros HS Hne. apply mext; auto using mset_sorted. intros k0.
    destruct (str_dec k0 k) as [->|H1]; [|destruct (str_dec k0 k') as [->|H2]].
    - rewrite mfind_mset_eq, mfind_mset_neq, mfind_mset_eq; auto using mset_sorted.
    - rewrite mfind_mset_eq, mfind_mset_neq, mfind_mset_eq; auto using mset_sorted.
    - rewrite !mfind_mset_neq; auto using mset_sorted.
  Qed.

  Lemma in_mkeys k m : msorted m -> (In k (mkeys m) <-> mfind k m <> None).
  Proof.
    intros HS. unfold mkeys. rewrite in_map_iff. split.
    - intros ([k' v] & E & H). cbn in E. subst k'. apply mfind_in in H; auto. congruence.
    - intros H. destruct (mfind k m) as [v|] eqn:E; [|congruence]. exists (k, v). split; auto. apply mfind_in; auto.
  Qed.

  Lemma mkeys_nodup m : msorted m -> NoDup (mkeys m).
  Proof.
    induction 1 as [|k v m HF HS IH]; cbn; constructor; auto.
    intros H. apply in_map_iff in H. destruct H as ([k' v'] & E & H). cbn in E. subst k'.
    rewrite Forall_forall in HF. apply HF in H. cbn in H. rewrite cmp_refl in H. discriminate.
  Qed.
End maps.

Lemma mfind_map {V W} (f : V -> W) k (m : smap V) :
  mfind k (map (fun e => (fst e, f (snd e))) m) = option_map f (mfind k m).
Proof.
  induction m as [|[k' v'] m IH]; cbn; auto. destruct (str_cmp k k'); auto.
Qed.

Lemma msorted_map {V W} (f : V -> W) (m : smap V) : msorted m -> msorted (map (fun e => (fst e, f (snd e))) m).
Proof.
  induction 1 as [|k v m HF HS IH]; cbn; constructor; auto.
  apply Forall_forall. intros e He. apply in_map_iff in He. destruct He as (e' & <- & He). cbn.
  rewrite Forall_forall in HF. auto.
Qed.

(** Reading entries into an empty map, in any order, gives the map with those entries. *)
Definition mload {V} (l : list (str * V)) : smap V := fold_left (fun m e => mset (fst e) (snd e) m) l [].

Lemma mload_from_sorted {V} (l : list (str * V)) : forall m, msorted m ->
  msorted (fold_left (fun m e => mset (fst e) (snd e) m) l m).
Proof. induction l as [|e l IH]; intros m H; cbn; auto. apply IH. apply mset_sorted. exact H. Qed.

Lemma mload_from_find {V} (l : list (str * V)) : forall m k, msorted m -> NoDup (map fst l) ->
  forall v, mfind k (fold_left (fun m e => mset (fst e) (snd e) m) l m) = Some v <->
    In (k, v) l \/ (~ In k (map fst l) /\ mfind k m = Some v).
Proof.
  induction l as [|[k1 v1] l IH]; intros m k HS HN v; cbn [fold_left map fst snd].
  - simpl. tauto.
  - cbn in HN. inversion HN as [|? ? Hnin HN']; subst. rewrite IH by (auto using mset_sorted).
    destruct (str_dec k k1) as [->|Hne].
    + rewrite mfind_mset_eq. split.
      * intros [H|[_ H]]; [|injection H as ->; left; left; reflexivity].
        exfalso. apply Hnin. apply in_map_iff. exists (k1, v). auto.
      * intros [[H|H]|[H _]]; [injection H as ->; right; auto| |].
        -- exfalso. apply Hnin. apply in_map_iff. exists (k1, v). auto.
        -- exfalso. apply H. left. reflexivity.
    + rewrite mfind_mset_neq by auto. simpl. split.
      * intros [H|[H1 H2]]; auto. right. split; auto. intros [H|H]; [congruence|auto].
      * intros [[H|H]|[H1 H2]]; [congruence|auto|]. right. split; auto.
Qed.

Lemma mload_perm {V} (l : list (str * V)) (m : smap V) : msorted m -> Permutation l m -> mload l = m.
Proof.
  intros HS HP. unfold mload. apply mext; auto; [apply mload_from_sorted; constructor|].
  assert (HN : NoDup (map fst l)).
  { eapply Permutation_NoDup; [apply Permutation_map; symmetry; exact HP|]. apply mkeys_nodup. exact HS. }
  intros k. destruct (mfind k m) as [v|] eqn:E.
  - apply mload_from_find; auto; [constructor|]. left. apply mfind_in in E; auto.
    eapply Permutation_in; [symmetry; exact HP|exact E].
  - destruct (mfind k (fold_left (fun (m : smap V) e => mset (fst e) (snd e) m) l [])) as [v|] eqn:E2; auto. exfalso.
    apply mload_from_find in E2; auto; [|constructor]. destruct E2 as [H|[_ H]]; [|discriminate].
    apply (Permutation_in _ HP) in H. apply mfind_in in H; auto. congruence.
Qed.
