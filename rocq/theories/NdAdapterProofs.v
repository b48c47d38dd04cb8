(** Lemmas for C96. *)
From Coq Require Import ZArith List Bool Lia Sorted.
From Verif Require Import Base NdModel NdSpec NdProofs NdProofs2 NdOpsProofs NdAdapterModel.
Import ListNotations.
Open Scope Z_scope.

(** What an adapter that fixes some axes leaves and takes, by position. *)
Definition others (axes l : list Z) : list Z :=
  map (fun n => nth n l 0) (filter (fun n => negb (existsb (Z.eqb (Z.of_nat n)) axes)) (seq 0 (length l))).
Definition along (axes i : list Z) : list Z := map (fun x => nth (Z.to_nat x) i 0) axes.

Fixpoint keep (n : Z) (l idx : list Z) : list Z :=
  match l with [] => [] | x :: t => if listed n idx then x :: keep (n + 1) t idx else keep (n + 1) t idx end.

Lemma insert_back l : forall n idx, insert_loop (length l) n (remove_loop n l idx) idx (keep n l idx) = Ok l.
Proof.
  induction l as [|x t IH]; intros n idx; cbn [length insert_loop remove_loop keep]; [reflexivity|].
  destruct (listed n idx); rewrite IH; bsimp; reflexivity.
Qed.
Lemma insert_exists (P : Z -> Z -> Prop) s : forall n idx src vals,
  Forall2 P (remove_loop n s idx) src -> Forall2 P (keep n s idx) vals ->
  exists i, insert_loop (length s) n src idx vals = Ok i /\ Forall2 P s i /\ remove_loop n i idx = src /\ keep n i idx = vals.
Proof.
  induction s as [|d s IH]; intros n idx src vals H1 H2; cbn [length insert_loop remove_loop keep] in *.
  - inversion H1; inversion H2; subst. exists []. repeat split; constructor.
  - destruct (listed n idx) eqn:E.
    + inversion H2 as [|? v ? vs Hv Hvs]; subst. destruct (IH _ _ _ _ H1 Hvs) as (i & E1 & F1 & R1 & K1). exists (v :: i). rewrite E1. bsimp.
      split; [reflexivity|]. split; [constructor; assumption|]. cbn [remove_loop keep]. rewrite E, R1, K1. split; reflexivity.
    + inversion H1 as [|? v ? vs Hv Hvs]; subst. destruct (IH _ _ _ _ Hvs H2) as (i & E1 & F1 & R1 & K1). exists (v :: i). rewrite E1. bsimp.
      split; [reflexivity|]. split; [constructor; assumption|]. cbn [remove_loop keep]. rewrite E, R1, K1. split; reflexivity.
Qed.
Lemma split_length l : forall n idx, (length (remove_loop n l idx) + length (keep n l idx) = length l)%nat.
Proof. induction l as [|x t IH]; intros n idx; cbn [remove_loop keep]; [reflexivity|]. specialize (IH (n + 1) idx). destruct (listed n idx); cbn [length]; lia. Qed.

Lemma remove_others_gen l idx : forall k l0, length l0 = k ->
  remove_loop (Z.of_nat k) l idx = map (fun n => nth n (l0 ++ l) 0) (filter (fun n => negb (existsb (Z.eqb (Z.of_nat n)) idx)) (seq k (length l))).
Proof.
  induction l as [|x t IH]; intros k l0 HL; cbn [remove_loop length seq filter map]; [reflexivity|]. unfold listed.
  replace (Z.of_nat k + 1) with (Z.of_nat (S k)) by lia. pose proof (IH (S k) (l0 ++ [x]) ltac:(rewrite app_length; cbn; lia)) as E. rewrite <- app_assoc in E. cbn [app] in E.
  destruct (existsb (Z.eqb (Z.of_nat k)) idx); cbn [negb map]; rewrite E; [reflexivity|]. f_equal. rewrite app_nth2 by lia. rewrite HL, Nat.sub_diag. reflexivity.
Qed.
Lemma remove_others l idx : remove_loop 0 l idx = others idx l.
Proof. exact (remove_others_gen l idx 0%nat [] eq_refl). Qed.

Lemma listed_In n idx : listed n idx = true <-> In n idx.
Proof. unfold listed. rewrite existsb_exists. split; [intros (x & H & E); apply Z.eqb_eq in E; subst; exact H|intros H; exists n; split; [exact H|apply Z.eqb_refl]]. Qed.
Lemma listed_ext l : forall n a b, (forall m, n <= m < n + Z.of_nat (length l) -> listed m a = listed m b) -> remove_loop n l a = remove_loop n l b /\ keep n l a = keep n l b.
Proof.
  induction l as [|x t IH]; intros n a b H; cbn [remove_loop keep length] in *; [split; reflexivity|].
  destruct (IH (n + 1) a b) as [E1 E2]; [intros; apply H; lia|]. rewrite (H n) by lia. rewrite E1, E2. split; reflexivity.
Qed.
Lemma listed_flip l : forall n a b, (forall m, n <= m < n + Z.of_nat (length l) -> listed m a = negb (listed m b)) -> remove_loop n l a = keep n l b /\ keep n l a = remove_loop n l b.
Proof.
  induction l as [|x t IH]; intros n a b H; cbn [remove_loop keep length] in *; [split; reflexivity|].
  destruct (IH (n + 1) a b) as [E1 E2]; [intros; apply H; lia|]. rewrite (H n) by lia. rewrite E1, E2. destruct (listed n b); cbn [negb]; split; reflexivity.
Qed.

Lemma keep_along_gen l : forall n axes, StronglySorted Z.lt axes -> Forall (fun x => n <= x < n + Z.of_nat (length l)) axes ->
  keep n l axes = map (fun x => nth (Z.to_nat (x - n)) l 0) axes.
Proof.
  induction l as [|y t IH]; intros n axes HS HF; cbn [keep length] in *.
  - destruct axes as [|a axes]; [reflexivity|]. inversion HF; subst. lia.
  - destruct axes as [|a axes].
    + cbn [listed existsb map]. rewrite IH; [reflexivity|constructor|constructor].
    + inversion HS as [|? ? HS' HA]; subst. inversion HF as [|? ? Ha HF']; subst. destruct (Z.eq_dec a n) as [->|N].
      * replace (listed n (n :: axes)) with true by (symmetry; apply listed_In; left; reflexivity).
        cbn [map]. replace (Z.to_nat (n - n)) with 0%nat by lia. cbn [nth]. f_equal.
        rewrite (proj2 (listed_ext t (n + 1) (n :: axes) axes ltac:(intros m Hm; unfold listed; cbn [existsb]; destruct (Z.eqb_spec m n); [lia|reflexivity]))).
        rewrite IH; [|exact HS'|].
        -- apply map_ext_in. intros x Hx. rewrite Forall_forall in HA. pose proof (HA x Hx). replace (Z.to_nat (x - n)) with (S (Z.to_nat (x - (n + 1)))) by lia. reflexivity.
        -- rewrite Forall_forall in *. intros x Hx. pose proof (HA x Hx). pose proof (HF' x Hx). lia.
      * assert (L : listed n (a :: axes) = false).
        { destruct (listed n (a :: axes)) eqn:E; [|reflexivity]. apply listed_In in E. destruct E as [E|E]; [lia|]. rewrite Forall_forall in HA. pose proof (HA n E). lia. }
        rewrite L. assert (G : Forall (fun x => n + 1 <= x < n + 1 + Z.of_nat (length t)) (a :: axes)).
        { rewrite Forall_forall in *. intros x [<-|Hx]; [lia|]. pose proof (HA x Hx). pose proof (HF' x Hx). lia. }
        rewrite (IH (n + 1) _ HS G). apply map_ext_in. intros x Hx. rewrite Forall_forall in G. pose proof (G x Hx). replace (Z.to_nat (x - n)) with (S (Z.to_nat (x - (n + 1)))) by lia. reflexivity.
Qed.
Lemma keep_along l axes : StronglySorted Z.lt axes -> Forall (fun x => 0 <= x < Z.of_nat (length l)) axes -> keep 0 l axes = along axes l.
Proof. intros HS HF. rewrite keep_along_gen by (try exact HF; assumption). apply map_ext. intros x. rewrite Z.sub_0_r. reflexivity. Qed.

Lemma remove_elements_sorted axes l : StronglySorted Z.lt axes -> Forall (fun x => 0 <= x < Z.of_nat (length l)) axes -> remove_elements l axes = Ok (others axes l).
Proof.
  intros HS HF. unfold remove_elements. pose proof (split_length l 0 axes) as E. rewrite keep_along in E by assumption. unfold along in E. rewrite map_length in E.
  rewrite <- remove_others. replace (length (remove_loop 0 l axes) + length axes =? length l)%nat with true by (symmetry; apply Nat.eqb_eq; lia). reflexivity.
Qed.

(** One axis. *)
Lemma remove_one_gen l : forall n ax, remove_loop n l [n + Z.of_nat ax] = remove_axis ax l.
Proof.
  induction l as [|x t IH]; intros n ax; cbn [remove_loop]; [destruct ax; reflexivity|]. unfold listed. cbn [existsb]. rewrite orb_false_r. destruct (Z.eqb_spec n (n + Z.of_nat ax)) as [E|E].
  - replace ax with 0%nat by lia. rewrite (proj1 (listed_ext t (n + 1) [n + Z.of_nat 0] [] ltac:(intros m Hm; unfold listed; cbn [existsb]; destruct (Z.eqb_spec m (n + Z.of_nat 0)); [lia|reflexivity]))).
    generalize (n + 1). clear. induction t as [|y t IH]; intros n; cbn [remove_loop]; [reflexivity|]. cbn [listed existsb]. rewrite IH. reflexivity.
  - destruct ax as [|ax]; [lia|]. replace (n + Z.of_nat (S ax)) with (n + 1 + Z.of_nat ax) by lia. rewrite IH. reflexivity.
Qed.
Lemma remove_one l ax : remove_loop 0 l [Z.of_nat ax] = remove_axis ax l.
Proof. exact (remove_one_gen l 0 ax). Qed.
Lemma keep_one l ax : (ax < length l)%nat -> keep 0 l [Z.of_nat ax] = [nth ax l 0].
Proof. intros H. rewrite keep_along; [unfold along; cbn [map]; rewrite Nat2Z.id; reflexivity|constructor; constructor|constructor; [lia|constructor]]. Qed.
Lemma remove_axis_length {A} (l : list A) : forall ax, (ax < length l)%nat -> S (length (remove_axis ax l)) = length l.
Proof. induction l as [|x t IH]; intros ax H; cbn [length] in *; [lia|]. destruct ax; [reflexivity|]. cbn [remove_axis length]. rewrite IH by lia. reflexivity. Qed.
Lemma insert_axis_length {A} (v : A) (l : list A) : forall ax, length (insert_axis ax v l) = S (length l).
Proof. induction l as [|x t IH]; intros ax; destruct ax; cbn; try reflexivity. rewrite IH. reflexivity. Qed.
Lemma remove_insert {A} (v : A) (l : list A) : forall ax, (ax <= length l)%nat -> remove_axis ax (insert_axis ax v l) = l.
Proof. induction l as [|x t IH]; intros ax H; destruct ax; cbn in *; try reflexivity; try lia. rewrite IH by lia. reflexivity. Qed.
Lemma nth_insert (v d : Z) (l : list Z) : forall ax, (ax <= length l)%nat -> nth ax (insert_axis ax v l) d = v.
Proof. induction l as [|x t IH]; intros ax H; destruct ax; cbn in *; try reflexivity; try lia. apply IH. lia. Qed.
Lemma insert_remove (d : Z) (l : list Z) : forall ax, (ax < length l)%nat -> insert_axis ax (nth ax l d) (remove_axis ax l) = l.
Proof. induction l as [|x t IH]; intros ax H; destruct ax; cbn in *; try reflexivity; try lia. rewrite IH by lia. reflexivity. Qed.
Lemma inb_remove s : forall i ax, inb s i -> inb (remove_axis ax s) (remove_axis ax i).
Proof. induction s as [|d s IH]; intros i ax H; inversion H; subst; destruct ax; cbn; try assumption. constructor; [assumption|]. apply IH. assumption. Qed.
Lemma inb_insert s : forall j ax v, (ax < length s)%nat -> 0 <= v < nth ax s 0 -> inb (remove_axis ax s) j -> inb s (insert_axis ax v j).
Proof.
  induction s as [|d s IH]; intros j ax v H Hv HJ; cbn [length] in *; [lia|]. destruct ax as [|ax]; cbn [remove_axis insert_axis nth] in *.
  - constructor; assumption.
  - inversion HJ; subst. cbn. constructor; [assumption|]. apply IH; [lia|assumption|assumption].
Qed.

(** The axes other than one. *)
Lemma range_In idx R : forall n m, In m (remove_loop (Z.of_nat n) (map Z.of_nat (seq n R)) idx) <-> Z.of_nat n <= m < Z.of_nat n + Z.of_nat R /\ listed m idx = false.
Proof.
  induction R as [|R IH]; intros n m; cbn [seq map remove_loop]; [split; [intros []|lia]|]. replace (Z.of_nat n + 1) with (Z.of_nat (S n)) by lia.
  destruct (listed (Z.of_nat n) idx) eqn:E.
  - rewrite IH. split; intros [H1 H2]; split; try assumption; [lia|]. assert (m <> Z.of_nat n) by (intros ->; congruence). lia.
  - cbn [In]. rewrite IH. split.
    + intros [<-|[H1 H2]]; [split; [lia|exact E]|split; [lia|exact H2]].
    + intros [H1 H2]. destruct (Z.eq_dec (Z.of_nat n) m) as [->|N]; [left; reflexivity|right; split; [lia|exact H2]].
Qed.
Lemma rest_axes R ax : (ax < R)%nat -> exists l, remove_elements (index_range R) [Z.of_nat ax] = Ok l /\ length l = (R - 1)%nat /\
  forall m, 0 <= m < Z.of_nat R -> listed m l = negb (listed m [Z.of_nat ax]).
Proof.
  intros H. exists (remove_loop 0 (index_range R) [Z.of_nat ax]). unfold remove_elements.
  assert (L : length (remove_loop 0 (index_range R) [Z.of_nat ax]) = (R - 1)%nat).
  { rewrite remove_one. pose proof (remove_axis_length (index_range R) ax) as Q. unfold index_range in Q |- *. rewrite map_length, seq_length in Q. specialize (Q H). lia. }
  assert (LR : length (index_range R) = R) by (unfold index_range; rewrite map_length, seq_length; reflexivity).
  rewrite L. cbn [length]. replace (R - 1 + 1 =? length (index_range R))%nat with true by (symmetry; apply Nat.eqb_eq; rewrite LR; lia). split; [reflexivity|]. split; [reflexivity|].
  intros m Hm. pose proof (range_In [Z.of_nat ax] R 0 m) as Q. change (Z.of_nat 0) with 0 in Q. fold (index_range R) in Q.
  destruct (listed m (remove_loop 0 (index_range R) [Z.of_nat ax])) eqn:E1.
  - apply listed_In in E1. apply Q in E1. destruct E1 as [_ E1]. rewrite E1. reflexivity.
  - destruct (listed m [Z.of_nat ax]) eqn:E2; [reflexivity|]. assert (K : In m (remove_loop 0 (index_range R) [Z.of_nat ax])) by (apply Q; split; [lia|reflexivity]). apply listed_In in K. congruence.
Qed.

Section Sums.
Context {A : Type} (zero : A) (add : A -> A -> A).
Hypothesis add_comm : forall x y, add x y = add y x.
Hypothesis add_assoc : forall x y z, add x (add y z) = add (add x y) z.
Hypothesis add_0 : forall x, add zero x = x.
Notation tot := (total zero add).
Lemma fibres ax s n (F : list Z -> A) : (ax < length s)%nat -> nth ax s 0 = n ->
  tot (fun j => tot (fun k => F (insert_axis ax k j)) (zrange n)) (idxs (remove_axis ax s)) = tot F (idxs s).
Proof.
  revert ax F. induction s as [|d s IH]; intros ax F H E; cbn [length] in H; [lia|]. destruct ax as [|ax]; cbn [remove_axis insert_axis nth idxs] in *.
  - subst n. rewrite (total_flat zero add); auto. rewrite (total_swap zero add); auto. apply (total_ext zero add). intros x _. rewrite (total_map zero add). reflexivity.
  - rewrite !(total_flat zero add); auto. apply (total_ext zero add). intros x _. rewrite !(total_map zero add). apply (IH ax (fun t => F (x :: t))); [lia|exact E].
Qed.
End Sums.
