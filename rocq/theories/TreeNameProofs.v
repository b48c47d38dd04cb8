(** Lemmas on the text names of tree addresses. *)
From Coq Require Import List Arith Bool Ascii ZArith Lia Permutation.
From Verif Require Import Base TreeModel TreeSpec TreeProofs TreeProofs2 TreeProofs3 StrModel StrProofs TreeNameModel.
Import ListNotations.
Close Scope Z_scope.
Open Scope nat_scope.

(** The text of the coordinates without the first separator. *)
Fixpoint join_coords (w : nat) (c : list nat) : str :=
  match c with
  | [] => []
  | [x] => dec_padded w x
  | x :: c' => dec_padded w x ++ "-"%char :: join_coords w c'
  end.

Lemma format_join w sep x c : format_coords w sep (x :: c) = sep :: join_coords w (x :: c).
Proof.
  revert sep x. induction c as [|y c IH]; intros sep x.
  - cbn [format_coords join_coords]. rewrite app_nil_r. reflexivity.
  - change (format_coords w sep (x :: y :: c))
      with (sep :: dec_padded w x ++ format_coords w "-"%char (y :: c)).
    rewrite IH. reflexivity.
Qed.

Lemma nat_int_bound x l : x < 2 ^ l -> l <= 30 -> (Z.of_nat x <= int_max)%Z.
Proof.
  intros Hx Hl. assert (2 ^ l <= 2 ^ 30) by (apply Nat.pow_le_mono_r; lia).
  assert (E : Z.of_nat (2 ^ 30) = 1073741824%Z) by (rewrite Nat2Z.inj_pow; reflexivity).
  change int_max with 2147483647%Z. lia.
Qed.

Lemma read_field w x r l : x < 2 ^ l -> l <= 30 ->
  stoi (prefix_to (find_char "-"%char (dec_padded w x ++ "-"%char :: r)) (dec_padded w x ++ "-"%char :: r))
    = Ok (Z.of_nat x) /\
  stoi (prefix_to (find_char "-"%char (dec_padded w x)) (dec_padded w x)) = Ok (Z.of_nat x).
Proof.
  intros Hx Hl. destruct (dec_padded_ok w x) as (E1 & E2 & E3).
  assert (HN := digits_no "-"%char _ eq_refl E1).
  rewrite prefix_app, prefix_none by auto.
  rewrite stoi_digits; rewrite ?E2; auto. eapply nat_int_bound; eauto.
Qed.

Lemma int_small z : (z <= int_max)%Z -> (z < 2 ^ 64)%Z.
Proof. change int_max with 2147483647%Z. change (2 ^ 64)%Z with 18446744073709551616%Z. lia. Qed.

Lemma read_join w l c : Forall (fun x => x < 2 ^ l) c -> l <= 30 -> c <> [] ->
  read_coords (length c) (join_coords w c) = Ok c.
Proof.
  intros HF Hl. induction HF as [|x c Hx HF IH]; intros Hc; [congruence|].
  assert (HS : to_size_t (Z.of_nat x) = x).
  { apply to_size_t_nat. apply int_small. eapply nat_int_bound; eauto. }
  destruct c as [|y c].
  - cbn [length read_coords join_coords]. destruct (read_field w x [] l Hx Hl) as [_ ->]. bsimp.
    rewrite HS. reflexivity.
  - change (join_coords w (x :: y :: c)) with (dec_padded w x ++ "-"%char :: join_coords w (y :: c)).
    change (length (x :: y :: c)) with (S (length (y :: c))). cbn [read_coords].
    destruct (read_field w x (join_coords w (y :: c)) l Hx Hl) as [-> _]. bsimp.
    destruct (dec_padded_ok w x) as (E1 & _ & _).
    rewrite erase_app by (apply digits_no; auto). rewrite IH by discriminate. bsimp.
    rewrite HS. reflexivity.
Qed.

Lemma count_join w c : count_char "-"%char (join_coords w c) = length c - 1.
Proof.
  assert (HP : forall x, count_char "-"%char (dec_padded w x) = 0).
  { intros x. apply count_char_none. apply digits_no; [reflexivity|]. apply dec_padded_ok. }
  induction c as [|x c IH]; [reflexivity|]. destruct c as [|y c].
  - cbn [join_coords]. rewrite HP. reflexivity.
  - change (join_coords w (x :: y :: c)) with (dec_padded w x ++ ("-"%char :: join_coords w (y :: c))).
    rewrite count_char_app, HP.
    change (count_char "-"%char ("-"%char :: join_coords w (y :: c)))
      with (S (count_char "-"%char (join_coords w (y :: c)))). rewrite IH. cbn [length]. lia.
Qed.

Lemma format_shape D i : 0 < D -> in_range D i -> level i <= 30 ->
  exists w, format_tree_index i = Ok (dec (level i) ++ ":"%char :: join_coords w (coords i)).
Proof.
  intros HD [HL HF] Hl. unfold format_tree_index. destruct (coords i) as [|x c] eqn:E.
  - simpl in HL. lia.
  - rewrite shl1_ok by lia. bsimp. rewrite format_join. eauto.
Qed.

Lemma name_roundtrip D i : 0 < D -> in_range D i -> level i <= 30 ->
  exists s, format_tree_index i = Ok s /\ read_tree_index D s = Ok i.
Proof.
  intros HD Hi Hl. destruct (format_shape D i HD Hi Hl) as [w Hw]. eexists. split; [exact Hw|].
  destruct Hi as [HL HF]. destruct (dec_ok (level i)) as (E1 & E2 & E3).
  assert (HC : forall c, is_digit c = false -> Forall (fun a => Ascii.eqb a c = false) (dec (level i))).
  { intros c Hc. apply digits_no; auto. }
  unfold read_tree_index. rewrite count_char_app, count_char_none by (apply HC; reflexivity).
  change (count_char "-"%char (":"%char :: join_coords w (coords i)))
    with (count_char "-"%char (join_coords w (coords i))).
  rewrite count_join, HL, Nat.eqb_refl. cbn [negb].
  rewrite prefix_app, erase_app by (apply HC; reflexivity).
  rewrite stoi_digits; rewrite ?E2; auto.
  2:{ change int_max with 2147483647%Z. lia. }
  bsimp. rewrite <- HL at 1. rewrite (read_join w (level i)); auto.
  2:{ intros E. rewrite E in HL. simpl in HL. lia. }
  bsimp. rewrite to_size_t_nat.
  - destruct i; reflexivity.
  - apply int_small. change int_max with 2147483647%Z. lia.
Qed.

Lemma name_wrong_rank D D' i s : 0 < D -> 0 < D' -> D <> D' -> in_range D i -> level i <= 30 ->
  format_tree_index i = Ok s -> read_tree_index D' s = Throw InvalidArgument.
Proof.
  intros HD HD' Hne Hi Hl Hs. destruct (format_shape D i HD Hi Hl) as [w Hw].
  rewrite Hw in Hs. injection Hs as <-. destruct Hi as [HL HF].
  destruct (dec_ok (level i)) as (E1 & E2 & E3).
  unfold read_tree_index. rewrite count_char_app, count_char_none by (apply digits_no; auto).
  change (count_char "-"%char (":"%char :: join_coords w (coords i)))
    with (count_char "-"%char (join_coords w (coords i))).
  rewrite count_join, HL. destruct (Nat.eqb_spec (0 + (D - 1)) (D' - 1)) as [E|E]; [lia|reflexivity].
Qed.

Lemma mapM_map {A B} (f : A -> outcome B) (g : A -> B) l : (forall a, In a l -> f a = Ok (g a)) ->
  mapM f l = Ok (map g l).
Proof.
  induction l as [|a l IH]; intros H; [reflexivity|]. cbn [mapM map].
  rewrite H by (simpl; auto). bsimp. rewrite IH by (intros; apply H; simpl; auto). bsimp. reflexivity.
Qed.

Definition name_of (i : idx) : str := match format_tree_index i with Ok s => s | _ => [] end.

Lemma combine_zipw {A B} (l : list A) : forall (m : list B), zipw pair l m = combine l m.
Proof. induction l as [|a l IH]; intros [|b m]; simpl; try reflexivity. f_equal; auto. Qed.

Lemma write_tree_ok {A} D (t : tree A) : 0 < D -> wf_tree D t -> depth t <= 30 ->
  write_tree D t = Ok (map (fun '(i, v) => (name_of i, v)) (combine (leaves (indexes D t)) (leaves t))).
Proof.
  intros HD Hwf Hd. unfold write_tree, pair_indexes, pair_trees.
  destruct (binary_op_ok (@pair idx A) (indexes D t) t (same_shape_indexes_from _ _)) as (r & E & _ & L).
  rewrite E. bsimp. rewrite L, combine_zipw. apply mapM_map. intros [i v] Hin.
  assert (Hi : In i (leaves (indexes D t))) by (eapply in_combine_l; eauto).
  pose proof (proj1 (Forall_forall _ _) (indexes_in_range D t Hwf) i Hi) as Hr.
  assert (Hl : level i <= 30).
  { apply in_indexes_iff in Hi; auto. destruct Hi as (p & v' & _ & -> & Hp). apply depth_path in Hp.
    cbn [level]. simpl in Hp. lia. }
  unfold name_of. destruct (format_shape D i HD Hr Hl) as [w ->]. reflexivity.
Qed.

Lemma names_distinct D i j : 0 < D -> in_range D i -> in_range D j -> level i <= 30 -> level j <= 30 ->
  name_of i = name_of j -> i = j.
Proof.
  intros HD Hi Hj Hli Hlj E.
  destruct (name_roundtrip D i HD Hi Hli) as (s & Es & Er).
  destruct (name_roundtrip D j HD Hj Hlj) as (s' & Es' & Er').
  unfold name_of in E. rewrite Es, Es' in E. subst s'. congruence.
Qed.

Lemma read_fold_eq {A} (dflt : A) l : forall u,
  (forall i v, In (i, v) l -> in_range 2 i /\ level i <= 30) ->
  read_tree dflt (map (fun '(i, v) => (name_of i, v)) l) u =
  foldM (fun u '(i, v) => insert dflt u i v) u l.
Proof.
  induction l as [|[i v] l IH]; intros u H; [reflexivity|].
  unfold read_tree in *. cbn [map foldM].
  destruct (H i v) as [Hr Hl]; [simpl; auto|].
  destruct (name_roundtrip 2 i) as (s & Es & Er); auto.
  unfold name_of at 1. rewrite Es, Er. bsimp.
  destruct (insert dflt u i v); cbn [bind]; try reflexivity. apply IH. intros j w Hj; apply (H j w); simpl; auto.
Qed.

Lemma Permutation_map_inv2 {A B} (f : A -> B) l m : Permutation l (map f m) ->
  exists m', l = map f m' /\ Permutation m' m.
Proof. intros H. apply Permutation_map_inv in H. destruct H as (m' & E & P). exists m'. split; auto. symmetry; auto. Qed.

Lemma Forall2_len {A B} {R : A -> B -> Prop} {l m} : Forall2 R l m -> length l = length m.
Proof. induction 1; simpl; auto. Qed.

Lemma write_read_tree {A} (dflt : A) (t : tree A) : wf_tree 2 t -> depth t <= 30 ->
  exists g, write_tree 2 t = Ok g /\ NoDup (map fst g) /\
    forall g', Permutation g' g -> read_tree dflt g' (Leaf dflt) = Ok t.
Proof.
  intros Hwf Hd. eexists. split; [apply write_tree_ok; auto|].
  assert (HR : forall i v, In (i, v) (combine (leaves (indexes 2 t)) (leaves t)) -> in_range 2 i /\ level i <= 30).
  { intros i v Hin. assert (Hi : In i (leaves (indexes 2 t))) by (eapply in_combine_l; eauto).
    split; [exact (proj1 (Forall_forall _ _) (indexes_in_range 2 t Hwf) i Hi)|].
    apply in_indexes_iff in Hi; auto. destruct Hi as (p & v' & _ & -> & Hp). apply depth_path in Hp.
    cbn [level]. simpl in Hp. lia. }
  split.
  - rewrite map_map.
    assert (HN : NoDup (map fst (combine (leaves (indexes 2 t)) (leaves t)))).
    { pose proof (Forall2_len (leaf_list_paths 2 t Hwf)) as HLen. pose proof (indexes_nodup 2 t Hwf) as HN.
      revert HLen HN. clear. generalize (leaves t) as m. generalize (leaves (indexes 2 t)) as l.
      induction l as [|i l IH]; intros m HLen HN; [constructor|]. destruct m as [|v m]; [discriminate|].
      cbn [combine map fst]. inversion HN; subst. constructor; [|apply IH; auto].
      intros Hin. apply in_map_iff in Hin. destruct Hin as ([i' v'] & E & Hin). simpl in E. subst i'.
      apply in_combine_l in Hin. auto. }
    revert HR HN. generalize (combine (leaves (indexes 2 t)) (leaves t)) as l. clear.
    induction l as [|[i v] l IH]; intros HR HN; [constructor|]. cbn [map fst] in *.
    inversion HN; subst. constructor.
    + intros Hin. apply in_map_iff in Hin. destruct Hin as ([j w] & E & Hin). cbn [fst] in E.
      destruct (HR i v) as [Ri Li]; [simpl; auto|]. destruct (HR j w) as [Rj Lj]; [simpl; auto|].
      assert (i = j) by (apply (names_distinct 2); auto). subst j.
      apply H1. apply in_map_iff. exists (i, w). auto.
    + apply IH; auto. intros j w Hj; apply (HR j w); simpl; auto.
  - intros g' HP. apply Permutation_map_inv2 in HP. destruct HP as (l & -> & HP).
    rewrite read_fold_eq.
    + apply (rebuild_any_order dflt 2); auto; lia.
    + intros i v Hin. apply (HR i v). apply (Permutation_in _ HP). exact Hin.
Qed.
