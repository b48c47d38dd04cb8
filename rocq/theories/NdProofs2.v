(** Lemmas about access patterns and iteration over them. *)
From Coq Require Import ZArith Znumtheory List Lia Bool Sorting.Sorted Sorting.Permutation.
From Verif Require Import Base NdModel NdSpec NdProofs.
Import ListNotations.
Open Scope Z_scope.

Lemma seq_eqb_spec a b : seq_eqb a b = true <-> a = b.
Proof.
  revert b; induction a as [|x a IH]; destruct b as [|y b]; simpl; try (split; congruence || discriminate).
  rewrite andb_true_iff, Z.eqb_eq, IH. split; [intros []; congruence|intros E; injection E; auto].
Qed.
Lemma seq_eqb_refl a : seq_eqb a a = true.
Proof. apply seq_eqb_spec; reflexivity. Qed.
Lemma seq_eqb_neq a b : a <> b -> seq_eqb a b = false.
Proof. intros H. destruct (seq_eqb a b) eqn:E; auto. apply seq_eqb_spec in E; contradiction. Qed.

Lemma strided_lengths st fi ju : strided st fi ju -> length st = length fi /\ length ju = length fi.
Proof. induction 1; simpl; [auto|]. destruct IHstrided; split; congruence. Qed.

(** Number of stops of one axis. *)
Definition count (s f j : Z) : Z := (f - s - 1) / j + 1.
Fixpoint counts (st fi ju : list Z) : list Z :=
  match st, fi, ju with
  | s :: st', f :: fi', j :: ju' => count s f j :: counts st' fi' ju'
  | _, _, _ => []
  end.

Lemma count_pos s f j : s < f -> 0 < j -> 0 < count s f j.
Proof. intros; unfold count. assert (0 <= (f - s - 1) / j) by (apply Z.div_pos; lia). lia. Qed.

Lemma count_lt s f j k : s < f -> 0 < j -> 0 <= k -> (k < count s f j <-> s + j * k < f).
Proof.
  intros Hs Hj Hk. unfold count. split; intros H.
  - assert (k <= (f - s - 1) / j) by lia.
    pose proof (Z.mul_div_le (f - s - 1) j Hj). nia.
  - assert (k <= (f - s - 1) / j); [|lia]. apply Z.div_le_lower_bound; lia.
Qed.

Lemma count_stop s f j x : s < f -> 0 < j ->
  stop s f j x <-> exists k, 0 <= k < count s f j /\ x = s + j * k.
Proof.
  intros Hs Hj; unfold stop; split.
  - intros (k & Hk & -> & H). exists k; split; [|reflexivity]. split; [lia|]. apply count_lt; auto.
  - intros (k & (H0 & H1) & ->). exists k. repeat split; auto. apply count_lt; auto.
Qed.

Lemma shape_from_counts st fi ju : strided st fi ju -> shape_from st fi ju = Ok (counts st fi ju).
Proof.
  induction 1 as [|s f j st fi ju Hs Hj Hf HS IH]; [reflexivity|].
  simpl. unfold udiv.
  rewrite (w64_small j) by (unfold two64; lia).
  destruct (Z.eqb_spec j 0); [lia|]. bsimp. rewrite IH. bsimp.
  rewrite (w64_small (f - s)) by (unfold two64; lia).
  rewrite (w64_small (f - s - 1)) by (unfold two64; lia).
  rewrite w64_small; [reflexivity|].
  pose proof (count_pos s f j). unfold count in *.
  assert ((f - s - 1) / j <= f - s - 1) by (apply Z.div_le_upper_bound; nia).
  unfold two64; lia.
Qed.

Lemma counts_pos st fi ju : strided st fi ju -> Forall (fun d => 0 < d) (counts st fi ju).
Proof. induction 1; simpl; constructor; auto. apply count_pos; lia. Qed.

Lemma Forall_pos_nonneg l : Forall (fun d => 0 < d) l -> Forall (fun d => 0 <= d) l.
Proof. apply Forall_impl; intros; lia. Qed.

(** ** One step of the iterator, read from the first axis to the last *)

Fixpoint adv (i st fi ju : list Z) : option (list Z) :=
  match i, st, fi, ju with
  | x :: i', s :: st', f :: fi', j :: ju' =>
      match adv i' st' fi' ju' with
      | Some r => Some (x :: r)
      | None => let x' := w64 (x + w64 j) in if f <=? x' then None else Some (x' :: st')
      end
  | _, _, _, _ => None
  end.

Lemma advance_rev_app i st fi ju x s f j :
  length st = length i -> length fi = length i -> length ju = length i ->
  advance_rev (i ++ [x]) (st ++ [s]) (fi ++ [f]) (ju ++ [j]) =
  match advance_rev i st fi ju with
  | Some r => Some (r ++ [x])
  | None => let x' := w64 (x + w64 j) in if f <=? x' then None else Some (st ++ [x'])
  end.
Proof.
  revert st fi ju; induction i as [|y i IH]; intros [|s1 st] [|f1 fi] [|j1 ju] H1 H2 H3; try discriminate.
  - simpl. destruct (f <=? w64 (x + w64 j)); reflexivity.
  - cbn [app advance_rev]. injection H1 as H1. injection H2 as H2. injection H3 as H3.
    cbv zeta. destruct (f1 <=? w64 (y + w64 j1)) eqn:E.
    + assert (Q : forall (T : Type) (u v : T), match i ++ [x] with [] => u | _ :: _ => v end = v)
        by (intros; destruct i; reflexivity).
      rewrite Q. rewrite IH by assumption.
      destruct i as [|z i].
      * destruct st, fi, ju; try discriminate. simpl. destruct (f <=? w64 (x + w64 j)); reflexivity.
      * destruct (advance_rev (z :: i) st fi ju); [reflexivity|]. cbv zeta.
        destruct (f <=? w64 (x + w64 j)); reflexivity.
    + reflexivity.
Qed.

Lemma advance_rev_adv i st fi ju :
  length st = length i -> length fi = length i -> length ju = length i ->
  advance_rev (rev i) (rev st) (rev fi) (rev ju) = option_map (@rev Z) (adv i st fi ju).
Proof.
  revert st fi ju; induction i as [|y i IH]; intros [|s1 st] [|f1 fi] [|j1 ju] H1 H2 H3; try discriminate.
  - reflexivity.
  - cbn [rev adv]. injection H1 as H1. injection H2 as H2. injection H3 as H3.
    rewrite advance_rev_app by (rewrite !rev_length; congruence).
    rewrite IH by assumption. destruct (adv i st fi ju); [reflexivity|].
    cbn [option_map]. cbv zeta. destruct (f1 <=? w64 (y + w64 j1)); reflexivity.
Qed.

Lemma advance_adv a i :
  length (ap_start a) = length i -> length (ap_final a) = length i -> length (ap_jumps a) = length i ->
  fst (advance a i) = match adv i (ap_start a) (ap_final a) (ap_jumps a) with Some r => r | None => ap_final a end.
Proof.
  intros H1 H2 H3. unfold advance. rewrite advance_rev_adv by assumption.
  destruct (adv i _ _ _); simpl; [apply rev_involutive|reflexivity].
Qed.

(** ** Chains of steps *)

Fixpoint chain {A} (next : A -> option A) (l : list A) (e : option A) : Prop :=
  match l with
  | [] => True
  | a :: t => next a = match t with [] => e | b :: _ => Some b end /\ chain next t e
  end.

Lemma chain_app {A} (next : A -> option A) l1 b l2 e :
  chain next l1 (Some b) -> chain next (b :: l2) e -> chain next (l1 ++ b :: l2) e.
Proof.
  induction l1 as [|a t IH]; [auto|]. intros [H1 H2] H. cbn [app chain].
  split; [|apply IH; assumption]. destruct t; exact H1.
Qed.

Lemma chain_map {A B} (g : A -> B) (next : A -> option A) (next' : B -> option B) l e e' :
  (forall a b, next a = Some b -> next' (g a) = Some (g b)) ->
  (forall a, next a = e -> In a l -> match e with Some b => True | None => True end -> (forall t, l = t ++ [a] -> next' (g a) = e')) ->
  chain next l e -> chain next' (map g l) e'.
Proof.
  intros HS. induction l as [|a t IH]; [auto|]. intros HE [H1 H2]. cbn [map chain]. split.
  - destruct t as [|b t].
    + apply HE with (t := []); auto; [left; reflexivity|destruct e; exact I].
    + apply HS; assumption.
  - apply IH; [|assumption]. intros a' Ha' Hin Htr t' Et.
    apply HE with (t := a :: t'); auto; [right; assumption|rewrite Et; reflexivity].
Qed.

Definition points (st fi ju : list Z) : list (list Z) :=
  map (map_index_from st ju) (idxs (counts st fi ju)).

Lemma map_index_zero st fi ju : strided st fi ju ->
  map_index_from st ju (map (fun _ => 0) st) = st.
Proof.
  induction 1 as [|s f j st fi ju Hs Hj Hf HS IH]; [reflexivity|].
  simpl. rewrite IH. f_equal. rewrite Z.mul_0_r. rewrite (w64_small 0) by (unfold two64; lia).
  rewrite w64_small; unfold two64; lia.
Qed.

Lemma idxs_hd s : Forall (fun d => 0 < d) s -> exists t, idxs s = map (fun _ => 0) s :: t.
Proof.
  induction 1 as [|d s Hd Hs [t IH]]; [exists []; reflexivity|].
  simpl. rewrite IH. unfold zrange. destruct (Z.to_nat d) eqn:E; [lia|]. simpl. eexists; reflexivity.
Qed.

Lemma counts_length st fi ju : strided st fi ju -> length (counts st fi ju) = length st.
Proof. induction 1; simpl; congruence. Qed.

Lemma map_const_length {A B C} (c : C) (l : list A) (m : list B) : length l = length m -> map (fun _ => c) l = map (fun _ => c) m.
Proof. revert m; induction l; destruct m; simpl; try discriminate; auto; intros H; f_equal; auto. Qed.

Lemma points_hd st fi ju : strided st fi ju -> exists t, points st fi ju = st :: t.
Proof.
  intros H. destruct (idxs_hd _ (counts_pos _ _ _ H)) as [t Ht]. unfold points. rewrite Ht. simpl.
  rewrite (map_const_length 0 _ st) by (apply counts_length; assumption).
  rewrite (map_index_zero st fi ju H). eexists; reflexivity.
Qed.

Lemma points_chain st fi ju : strided st fi ju ->
  chain (fun i => adv i st fi ju) (points st fi ju) None.
Proof.
  induction 1 as [|s f j st fi ju Hs Hj Hf HS IH].
  - simpl. auto.
  - pose proof (points_hd _ _ _ HS) as [pt Hpt].
    unfold points. cbn [counts idxs].
    assert (G : forall n a, Z.of_nat (a + n) = count s f j ->
      (0 < n)%nat ->
      chain (fun i => adv i (s :: st) (f :: fi) (j :: ju))
        (map (map_index_from (s :: st) (j :: ju))
           (flat_map (fun x => map (cons x) (idxs (counts st fi ju))) (map Z.of_nat (seq a n)))) None).
    { induction n as [|n IHn]; intros a Hn Hpos; [lia|].
      cbn [seq map flat_map]. rewrite map_app.
      assert (Hx : s + j * Z.of_nat a < f) by (apply count_lt; lia).
      assert (E1 : map (map_index_from (s :: st) (j :: ju)) (map (cons (Z.of_nat a)) (idxs (counts st fi ju)))
             = map (cons (s + j * Z.of_nat a)) (points st fi ju)).
      { unfold points. rewrite !map_map. apply map_ext. intros i. cbn [map_index_from].
        rewrite (w64_small j) by (unfold two64; lia).
        rewrite (w64_small (j * _)) by (unfold two64; nia).
        rewrite w64_small by (unfold two64; nia). reflexivity. }
      rewrite E1.
      assert (C : forall e, (if f <=? s + j * Z.of_nat a + j then None else Some (s + j * Z.of_nat a + j :: st)) = e ->
        chain (fun i => adv i (s :: st) (f :: fi) (j :: ju)) (map (cons (s + j * Z.of_nat a)) (points st fi ju)) e).
      { intros e He. apply (chain_map (cons (s + j * Z.of_nat a)) (fun i => adv i st fi ju) _ _ None); [| |assumption].
        - intros u v Huv. simpl in Huv |- *. rewrite Huv. reflexivity.
        - intros u Hu _ _ _ _. simpl in Hu |- *. rewrite Hu.
          rewrite (w64_small j) by (unfold two64; lia).
          rewrite w64_small by (unfold two64; lia). assumption. }
      destruct n as [|n].
      - cbn [seq map flat_map]. rewrite app_nil_r. apply C.
        destruct (Z.leb_spec f (s + j * Z.of_nat a + j)); [reflexivity|].
        exfalso. assert (Z.of_nat a + 1 < count s f j) by (apply count_lt; lia). lia.
      - specialize (IHn (S a) ltac:(lia) ltac:(lia)).
        assert (E2 : exists t2, map (map_index_from (s :: st) (j :: ju))
             (flat_map (fun x => map (cons x) (idxs (counts st fi ju))) (map Z.of_nat (seq (S a) (S n))))
             = (s + j * Z.of_nat a + j :: st) :: t2).
        { cbn [seq map flat_map]. rewrite map_app.
          destruct (idxs_hd _ (counts_pos _ _ _ HS)) as [t Ht]. rewrite Ht. cbn [map app map_index_from].
          rewrite (map_const_length 0 _ st) by (apply counts_length; assumption).
          rewrite (map_index_zero st fi ju HS).
          assert (s + j * Z.of_nat (S a) < f) by (apply count_lt; lia).
          rewrite (w64_small j) by (unfold two64; lia).
          rewrite (w64_small (j * _)) by (unfold two64; nia).
          rewrite w64_small by (unfold two64; nia).
          replace (s + j * Z.of_nat (S a)) with (s + j * Z.of_nat a + j) by nia.
          eexists; reflexivity. }
        destruct E2 as [t2 E2]. rewrite E2 in IHn |- *. apply chain_app; [|assumption].
        apply C. destruct (Z.leb_spec f (s + j * Z.of_nat a + j)); [|reflexivity].
        exfalso. assert (Z.of_nat a + 1 < count s f j) by lia.
        apply count_lt in H0; lia. }
    unfold zrange. apply G.
    + pose proof (count_pos s f j). lia.
    + pose proof (count_pos s f j ltac:(lia) ltac:(lia)). lia.
Qed.

Lemma points_In st fi ju i : strided st fi ju -> In i (points st fi ju) <-> stops st fi ju i.
Proof.
  intros H. unfold points. rewrite in_map_iff. split.
  - intros (k & <- & Hk). apply idxs_In in Hk. revert k Hk.
    induction H as [|s f j st fi ju Hs Hj Hf HS IH]; intros k Hk; inversion Hk; subst; simpl; constructor.
    + apply count_stop; [lia|lia|]. exists y; split; [assumption|].
      assert (s + j * y < f) by (apply count_lt; lia).
      rewrite (w64_small j) by (unfold two64; lia).
      rewrite (w64_small (j * _)) by (unfold two64; nia).
      rewrite w64_small by (unfold two64; nia). reflexivity.
    + apply IH. assumption.
  - intros HS. revert HS H. induction 1 as [|s f j x st fi ju i Hx HS IH]; intros H; inversion H; subst.
    + exists []; split; [reflexivity|]. apply idxs_In; constructor.
    + destruct (IH H9) as (k & Ek & Hk). apply count_stop in Hx; [|lia|lia]. destruct Hx as (c & Hc & ->).
      exists (c :: k); split.
      * simpl. rewrite Ek.
        assert (s + j * c < f) by (apply count_lt; lia).
        rewrite (w64_small j) by (unfold two64; lia).
        rewrite (w64_small (j * _)) by (unfold two64; nia).
        rewrite w64_small by (unfold two64; nia). reflexivity.
      * apply idxs_In. apply idxs_In in Hk. constructor; assumption.
Qed.

Lemma stops_not_final st fi ju i : stops st fi ju i -> i <> [] -> i <> fi.
Proof.
  intros H; destruct H as [|s f j x st fi ju i (k & _ & _ & Hlt) HS]; intros Hn E; [congruence|].
  injection E as E1 E2. lia.
Qed.

Lemma stops_length st fi ju i : stops st fi ju i -> length i = length fi.
Proof. induction 1; simpl; congruence. Qed.

Lemma foldM_cons {A S} (f : S -> A -> outcome S) s a l : foldM f s (a :: l) = bind (f s a) (fun s' => foldM f s' l).
Proof. reflexivity. Qed.

(** A range-for performs its body on a chain of steps, in order. *)
Lemma for_indexes_chain {S} (a : access_pattern) (body : list Z -> S -> outcome S) l :
  length (ap_start a) = length (ap_final a) -> length (ap_jumps a) = length (ap_final a) ->
  chain (fun i => adv i (ap_start a) (ap_final a) (ap_jumps a)) l None ->
  Forall (fun i => length i = length (ap_final a) /\ i <> ap_final a) l ->
  forall fuel s i t, l = i :: t -> (length l <= fuel)%nat ->
  for_indexes fuel a body i s = foldM (fun s i => body i s) s l.
Proof.
  intros HL1 HL2.
  assert (Hfin : forall fuel s, for_indexes fuel a body (ap_final a) s = Ok s).
  { intros fuel s. destruct fuel; simpl; rewrite seq_eqb_refl; reflexivity. }
  intros HC HF. induction l as [|i0 l IH]; intros fuel s i t E Hfuel; [discriminate|].
  injection E as <- <-. destruct HC as [H1 H2]. inversion HF as [|? ? [HF0 HF1] HF2]; subst.
  destruct fuel as [|fuel]; [simpl in Hfuel; lia|]. cbn [for_indexes].
  rewrite seq_eqb_neq by assumption.
  rewrite foldM_cons.
  destruct (body i0 s) as [s'| | |] eqn:EB; cbn [bind]; try reflexivity.
  assert (EA : fst (advance a i0) = match l with [] => ap_final a | b :: _ => b end).
  { rewrite advance_adv by congruence. rewrite H1. destruct l; reflexivity. }
  rewrite EA. destruct l as [|b l].
  - rewrite Hfin. reflexivity.
  - apply IH with (t := l); auto. simpl in *; lia.
Qed.

Definition strided_ap (a : access_pattern) : Prop := strided (ap_start a) (ap_final a) (ap_jumps a).

Lemma for_each_points {S} (a : access_pattern) (body : list Z -> S -> outcome S) fuel s :
  strided_ap a -> ap_final a <> [] ->
  (Z.to_nat (prodz (counts (ap_start a) (ap_final a) (ap_jumps a))) <= fuel)%nat ->
  for_each fuel a body s = foldM (fun s i => body i s) s (points (ap_start a) (ap_final a) (ap_jumps a)).
Proof.
  intros HA Hne HF. destruct (points_hd _ _ _ HA) as [t Ht]. unfold for_each.
  pose proof (strided_lengths _ _ _ HA) as [HL1 HL2].
  eapply for_indexes_chain with (t := t); eauto.
  - apply points_chain; assumption.
  - apply Forall_forall. intros i Hi. apply points_In in Hi; [|assumption].
    pose proof (stops_length _ _ _ _ Hi). split; [assumption|].
    eapply stops_not_final; [eassumption|]. intros ->. destruct (ap_final a); [congruence|discriminate].
  - unfold points. rewrite map_length, idxs_length; [assumption|]. apply Forall_pos_nonneg, counts_pos, HA.
Qed.

(** ** The default pattern of a shape *)

Lemma default_strided s : Forall (fun d => 0 < d < two64) s ->
  strided (map (fun _ => 0) s) s (map (fun _ => 1) s).
Proof. induction 1; simpl; constructor; auto; unfold two64 in *; lia. Qed.

Lemma default_counts s : Forall (fun d => 0 < d) s -> counts (map (fun _ => 0) s) s (map (fun _ => 1) s) = s.
Proof.
  induction 1; simpl; [reflexivity|]. rewrite IHForall. f_equal. unfold count. rewrite Z.div_1_r. lia.
Qed.

Lemma default_map_index s i : inb s i -> Forall (fun d => 0 < d < two64) s ->
  map_index_from (map (fun _ => 0) s) (map (fun _ => 1) s) i = i.
Proof.
  induction 1 as [|d x s i Hx Hi IH]; intros HF; [reflexivity|]. inversion HF; subst. cbn [map map_index_from]. rewrite IH by assumption.
  f_equal. rewrite (w64_small 1) by (unfold two64; lia). rewrite (w64_small (1 * x)) by lia. rewrite w64_small; lia.
Qed.

Lemma default_points s : Forall (fun d => 0 < d < two64) s ->
  points (map (fun _ => 0) s) s (map (fun _ => 1) s) = idxs s.
Proof.
  intros H. unfold points. rewrite default_counts.
  - rewrite <- (map_id (idxs s)) at 2. apply map_ext_in. intros i Hi. apply default_map_index; [apply idxs_In|]; assumption.
  - revert H; apply Forall_impl; intros; lia.
Qed.

Lemma for_each_shape {S} s (body : list Z -> S -> outcome S) fuel s0 :
  Forall (fun d => 0 < d < two64) s -> s <> [] -> (Z.to_nat (prodz s) <= fuel)%nat ->
  for_each fuel (make_access_pattern s) body s0 = foldM (fun s i => body i s) s0 (idxs s).
Proof.
  intros H Hne HF. rewrite for_each_points; simpl.
  - rewrite default_points by assumption. reflexivity.
  - apply default_strided; assumption.
  - assumption.
  - rewrite default_counts; [assumption|]. revert H; apply Forall_impl; intros; lia.
Qed.

(** ** Order of the enumeration *)

Lemma idxs_sorted s : StronglySorted lexlt (idxs s).
Proof.
  induction s as [|d s IH]; simpl; [repeat constructor|].
  assert (L : forall i, In i (idxs s) -> length i = length s).
  { intros i Hi. apply idxs_In in Hi. symmetry. eapply inb_length; eassumption. }
  unfold zrange. generalize 0%nat as a, (Z.to_nat d) as n. intros a n; revert a; induction n as [|n IHn]; intros a; simpl; [constructor|].
  assert (M : forall x l, StronglySorted lexlt l -> StronglySorted lexlt (map (cons x) l)).
  { intros x l; induction 1; simpl; constructor; auto. apply Forall_forall. intros y Hy.
    apply in_map_iff in Hy as (z & <- & Hz). apply lex_there. rewrite Forall_forall in H0. auto. }
  assert (A : forall l1 l2, StronglySorted lexlt l1 -> StronglySorted lexlt l2 ->
             (forall u v, In u l1 -> In v l2 -> lexlt u v) -> StronglySorted lexlt (l1 ++ l2)).
  { intros l1 l2; induction 1; simpl; intros H2 HH; auto. constructor.
    - apply IHStronglySorted; auto.
    - apply Forall_app; split; [assumption|]. apply Forall_forall; auto. }
  apply A; [apply M; assumption|apply IHn|].
  intros u v Hu Hv. apply in_map_iff in Hu as (u' & <- & Hu').
  apply in_flat_map in Hv as (x & Hx & Hv). apply in_map_iff in Hv as (v' & <- & Hv').
  apply in_map_iff in Hx as (k & <- & Hk). apply in_seq in Hk.
  apply lex_here; [lia|]. rewrite (L u'), (L v'); auto.
Qed.

Lemma lexlt_lin s i j : inb s i -> inb s j -> lexlt i j <-> lin s i < lin s j.
Proof.
  intros Hi; revert j; induction Hi as [|d x s i Hx Hi IH]; intros j Hj; inversion Hj; subst.
  - split; [intros H; inversion H|simpl; lia].
  - simpl. pose proof (lin_range _ _ Hi). pose proof (lin_range _ _ H3). split.
    + intros H'; inversion H'; subst; [nia|]. apply IH in H4; [lia|assumption].
    + intros Hlt. destruct (Z.lt_trichotomy x y) as [C|[C|C]].
      * apply lex_here; [assumption|]. rewrite <- (inb_length _ _ Hi), <- (inb_length _ _ H3). reflexivity.
      * subst. apply lex_there. apply IH; [assumption|lia].
      * exfalso. nia.
Qed.

Lemma visited_foldM l acc : foldM (fun (s : list (list Z)) i => Ok (s ++ [i])) acc l = Ok (acc ++ l).
Proof.
  revert acc; induction l as [|i l IH]; intros acc; simpl; [rewrite app_nil_r; reflexivity|].
  rewrite IH, <- app_assoc. reflexivity.
Qed.

(** ** Mapping back *)

Lemma inverse_map st fi ju i : strided st fi ju -> inb (counts st fi ju) i ->
  inverse_from st ju (map_index_from st ju i) = Ok i.
Proof.
  intros H; revert i; induction H as [|s f j st fi ju Hs Hj Hf HS IH]; intros i Hi; inversion Hi; subst; simpl.
  - reflexivity.
  - assert (s + j * y < f) by (apply count_lt; lia).
    rewrite (w64_small j) by (unfold two64; lia).
    rewrite (w64_small (j * _)) by (unfold two64; nia).
    rewrite (w64_small (s + j * _)) by (unfold two64; nia).
    unfold udiv. destruct (Z.eqb_spec j 0); [lia|]. bsimp. rewrite IH by assumption. bsimp.
    replace (s + j * y - s) with (y * j) by ring. rewrite w64_small by (unfold two64; nia).
    rewrite Z.div_mul by lia. reflexivity.
Qed.

Lemma generates_stops st fi ju i : strided st fi ju -> length i = length st -> Forall (fun x => 0 <= x < two64) i ->
  exists b, generates_from st fi ju i = Ok b /\ (b = true <-> stops st fi ju i).
Proof.
  intros H; revert i; induction H as [|s f j st fi ju Hs Hj Hf HS IH]; intros [|x i] HL HR; try discriminate; simpl.
  - exists true; split; [reflexivity|]. split; [constructor|reflexivity].
  - inversion HR as [|? ? HR1 HR2]; subst. injection HL as HL.
    destruct (Z.ltb_spec x s); cbn [orb].
    { exists false; split; [reflexivity|]. split; [discriminate|]. intros Q; inversion Q; subst.
      match goal with Q : stop _ _ _ _ |- _ => destruct Q as (k & ? & ? & ?) end. nia. }
    destruct (Z.leb_spec f x).
    { exists false; split; [reflexivity|]. split; [discriminate|]. intros Q; inversion Q; subst.
      match goal with Q : stop _ _ _ _ |- _ => destruct Q as (k & ? & ? & ?) end. nia. }
    rewrite (w64_small j) by (unfold two64; lia). unfold umod. destruct (Z.eqb_spec j 0); [lia|]. bsimp.
    rewrite w64_small by lia. destruct (Z.eqb_spec ((x - s) mod j) 0) as [E|E].
    + destruct (IH i HL HR2) as (b & -> & Hb). exists b; split; [reflexivity|]. rewrite Hb. split.
      * intros Q. constructor; [|assumption]. exists ((x - s) / j). split; [apply Z.div_pos; lia|].
        split; [|assumption]. pose proof (Z.div_mod (x - s) j ltac:(lia)). lia.
      * intros Q; inversion Q; subst; assumption.
    + exists false; split; [reflexivity|]. split; [discriminate|]. intros Q; inversion Q; subst.
      match goal with Q : stop _ _ _ _ |- _ => destruct Q as (k & ? & -> & ?) end. exfalso; apply E. replace (s + j * k - s) with (k * j) by ring. apply Z.mod_mul; lia.
Qed.

(** ** Selections within a parent *)

Lemma idx_leb_spec a b : length a = length b -> idx_leb a b = true <-> Forall2 Z.le a b.
Proof.
  revert b; induction a as [|x a IH]; destruct b as [|y b]; simpl; intros HL; try discriminate.
  - split; [constructor|reflexivity].
  - injection HL as HL. destruct (Z.leb_spec x y); split; intros Q; try discriminate; try (inversion Q; subst; try lia).
    + constructor; [assumption|]. apply IH; assumption.
    + apply IH; assumption.
Qed.

Lemma shape_contains_spec s i : length s = length i -> Forall (fun x => 0 <= x) i ->
  shape_contains s i = true <-> inb s i.
Proof.
  unfold inb; revert i; induction s as [|d s IH]; destruct i as [|x i]; simpl; intros HL HN; try discriminate.
  - split; [constructor|reflexivity].
  - inversion HN; subst. injection HL as HL. destruct (Z.leb_spec d x); split; intros Q; try discriminate; try (inversion Q; subst; try lia).
    + constructor; [lia|]. apply IH; assumption.
    + apply IH; assumption.
Qed.
