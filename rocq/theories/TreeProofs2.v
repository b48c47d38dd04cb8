(** Lemmas on tree addresses and on insert, update, map, binary_op, bifurcate. *)
From Coq Require Import List Arith Bool Lia Permutation.
From Verif Require Import Base TreeModel TreeSpec TreeProofs.
Import ListNotations.
Close Scope Z_scope.
Open Scope nat_scope.

(** ** Address algebra *)

Lemma b2n_div2 c b : (c * 2 + Nat.b2n b) / 2 = c.
Proof. destruct b; cbn [Nat.b2n]; [|rewrite Nat.add_0_r, Nat.div_mul by lia; reflexivity].
  rewrite Nat.div_add_l by lia. simpl. lia. Qed.

Lemma parent_child i k : parent_index (child_index i k) = Some i.
Proof.
  unfold parent_index, child_index; cbn [level coords]. destruct i as [l c]; cbn [level coords].
  do 2 f_equal. pose proof (bits_length (length c) k) as HL. revert HL.
  generalize (bits (length c) k) as m. induction c as [|x c IH]; intros m HL; [reflexivity|].
  destruct m as [|b m]; [discriminate|]. cbn [zipw map]. f_equal; [apply b2n_div2|].
  apply IH. simpl in HL; lia.
Qed.

Lemma zipw_child_inj : forall c m n, length m = length c -> length n = length c ->
  zipw (fun c b => c * 2 + Nat.b2n b) c m = zipw (fun c b => c * 2 + Nat.b2n b) c n -> m = n.
Proof.
  induction c as [|x c IH]; intros [|b m] [|b' n] H1 H2 E; simpl in *; try discriminate; auto.
  injection E as E1 E2. f_equal; [|apply IH; auto].
  destruct b, b'; cbn [Nat.b2n] in *; auto; lia.
Qed.

Lemma child_index_inj i k k' : k < 2 ^ length (coords i) -> k' < 2 ^ length (coords i) ->
  child_index i k = child_index i k' -> k = k'.
Proof.
  intros Hk Hk' E. unfold child_index in E. injection E as E.
  apply zipw_child_inj in E; [|apply bits_length|apply bits_length].
  rewrite <- (to_integral_bits (length (coords i)) k), <- (to_integral_bits (length (coords i)) k') by auto.
  rewrite E. reflexivity.
Qed.

Lemma child_indexes_nodup i : NoDup (child_indexes i).
Proof.
  unfold child_indexes.
  assert (H : forall k, In k (seq 0 (2 ^ length (coords i))) -> k < 2 ^ length (coords i)).
  { intros k Hk. apply in_seq in Hk. lia. }
  pose proof (seq_NoDup (2 ^ length (coords i)) 0) as HN. revert H HN.
  generalize (seq 0 (2 ^ length (coords i))). induction l as [|k l IH]; intros H HN; [constructor|].
  inversion HN; subst. cbn [map]. constructor.
  - intros Hin. apply in_map_iff in Hin. destruct Hin as (k' & E & Hk').
    apply child_index_inj in E; subst; auto; apply H; simpl; auto.
  - apply IH; auto. intros; apply H; simpl; auto.
Qed.

Lemma mod2_b2n x : x mod 2 = Nat.b2n (Nat.odd x).
Proof.
  rewrite <- Nat.bit0_odd. rewrite Nat.bit0_mod. reflexivity.
Qed.

Lemma parent_complete i j : parent_index j = Some i -> In j (child_indexes i).
Proof.
  destruct j as [[|l] c]; cbn [parent_index level coords]; [discriminate|].
  intros E. assert (E' : mkidx l (map (fun c => c / 2) c) = i) by congruence. clear E. subst i.
  unfold child_indexes; cbn [coords]. rewrite map_length.
  apply in_map_iff. exists (to_integral (map Nat.odd c)). split.
  - unfold child_index; cbn [level coords]. f_equal. rewrite map_length.
    replace (length c) with (length (map Nat.odd c)) by apply map_length.
    rewrite bits_to_integral. induction c as [|x c IH]; [reflexivity|].
    cbn [map zipw]. f_equal; [|apply IH].
    rewrite <- mod2_b2n. rewrite Nat.mul_comm. symmetry. apply Nat.div_mod. lia.
  - apply in_seq. pose proof (to_integral_bound (map Nat.odd c)). rewrite map_length in *. lia.
Qed.

Lemma child_in_range D i k : in_range D i -> in_range D (child_index i k).
Proof.
  intros [HL HF]. unfold in_range, child_index; cbn [level coords]. split.
  - rewrite zipw_length, bits_length. lia.
  - rewrite Nat.pow_succ_r'. generalize (bits (length (coords i)) k). clear HL.
    induction HF as [|x c Hx HF IH]; intros m; [constructor|]. destruct m as [|b m]; [constructor|].
    cbn [zipw]. constructor; [destruct b; cbn [Nat.b2n]; lia|apply IH].
Qed.

Lemma parent_in_range D i j : in_range D j -> parent_index j = Some i -> in_range D i.
Proof.
  destruct j as [[|l] c]; cbn [parent_index level coords]; [discriminate|].
  intros [HL HF] E. assert (E' : mkidx l (map (fun c => c / 2) c) = i) by congruence. clear E. subst i.
  cbn [level coords] in *. split; cbn [level coords].
  - rewrite map_length. exact HL.
  - apply Forall_forall. intros x Hx. apply in_map_iff in Hx. destruct Hx as (y & <- & Hy).
    rewrite Forall_forall in HF. apply Nat.div_lt_upper_bound; [lia|]. rewrite <- Nat.pow_succ_r'. auto.
Qed.

Lemma set_nth_same {A} (a : A) : forall l n, nth_error l n = Some a -> set_nth n a l = l.
Proof.
  induction l as [|x l IH]; intros [|n] E; simpl in *; try discriminate; auto.
  - injection E as ->. reflexivity.
  - f_equal; auto.
Qed.

Lemma set_nth_twice {A} (a b : A) : forall l n, set_nth n a (set_nth n b l) = set_nth n a l.
Proof. induction l as [|x l IH]; intros [|n]; simpl; auto. f_equal; auto. Qed.

Lemma nth_set_eq {A} (a : A) : forall l n, n < length l -> nth_error (set_nth n a l) n = Some a.
Proof. induction l as [|x l IH]; intros [|n] H; simpl in *; try lia; auto. apply IH; lia. Qed.

Lemma nth_set_neq {A} (a : A) : forall l n m, n <> m -> nth_error (set_nth n a l) m = nth_error l m.
Proof. induction l as [|x l IH]; intros [|n] [|m] H; simpl in *; auto; try congruence. Qed.

Lemma len_set_nth {A} (a : A) : forall l n, length (set_nth n a l) = length l.
Proof. induction l as [|x l IH]; intros [|n]; simpl; auto. Qed.

Lemma next_mod c n : 0 < n -> c < n ->
  ((c + n + 1) mod n < n) /\ (((c + n + 1) mod n + n - 1) mod n = c) /\
  (c + n + 1) mod n = (if c + 1 =? n then 0 else c + 1).
Proof.
  intros Hn Hc. assert (E : (c + n + 1) mod n = (if c + 1 =? n then 0 else c + 1)).
  { replace (c + n + 1) with (c + 1 + 1 * n) by lia. rewrite Nat.mod_add by lia.
    destruct (Nat.eqb_spec (c + 1) n) as [<-|H]; [apply Nat.mod_same; lia|apply Nat.mod_small; lia]. }
  rewrite E. destruct (Nat.eqb_spec (c + 1) n) as [H|H]; split; try lia; (split; [|reflexivity]).
  - replace (0 + n - 1) with c by lia. apply Nat.mod_small; lia.
  - replace (c + 1 + n - 1) with (c + 1 * n) by lia. rewrite Nat.mod_add by lia. apply Nat.mod_small; lia.
Qed.

Lemma prev_mod c n : 0 < n -> c < n ->
  ((c + n - 1) mod n < n) /\ (((c + n - 1) mod n + n + 1) mod n = c) /\
  (c + n - 1) mod n = (if c =? 0 then n - 1 else c - 1).
Proof.
  intros Hn Hc. assert (E : (c + n - 1) mod n = (if c =? 0 then n - 1 else c - 1)).
  { destruct (Nat.eqb_spec c 0) as [->|H]; [apply Nat.mod_small; lia|].
    replace (c + n - 1) with (c - 1 + 1 * n) by lia. rewrite Nat.mod_add by lia. apply Nat.mod_small; lia. }
  rewrite E. destruct (Nat.eqb_spec c 0) as [H|H]; split; try lia; (split; [|reflexivity]).
  - replace (n - 1 + n + 1) with (0 + 2 * n) by lia. rewrite Nat.mod_add by lia. subst. apply Nat.mod_small; lia.
  - replace (c - 1 + n + 1) with (c + 1 * n) by lia. rewrite Nat.mod_add by lia. apply Nat.mod_small; lia.
Qed.

Lemma Forall_set_nth {A} (P : A -> Prop) a : forall l n, Forall P l -> P a -> Forall P (set_nth n a l).
Proof.
  induction l as [|x l IH]; intros [|n] HF Ha; simpl; auto; inversion HF; subst; constructor; auto.
Qed.

Lemma next_prev D a i : in_range D i -> a < D -> level i < 31 ->
  exists j c, next_on a i = Ok j /\ in_range D j /\ level j = level i /\ prev_on a j = Ok i /\
    nth_error (coords i) a = Some c /\
    coords j = set_nth a (if c + 1 =? 2 ^ level i then 0 else c + 1) (coords i).
Proof.
  intros [HL HF] Ha Hl. destruct i as [l cs]; cbn [level coords] in *.
  destruct (nth_error cs a) as [c|] eqn:E.
  2:{ apply nth_error_None in E. lia. }
  pose proof (Forall_nth_error _ _ _ _ HF E) as Hc. cbv beta in Hc.
  destruct (next_mod c (2 ^ l)) as (B & R & V); [apply pow2_pos|auto|].
  exists (mkidx l (set_nth a ((c + 2 ^ l + 1) mod 2 ^ l) cs)), c.
  unfold next_on, prev_on; cbn [level coords]. rewrite shl1_ok by auto. bsimp. rewrite E.
  split; [reflexivity|]. split; [|split; [reflexivity|split; [|split; [reflexivity|rewrite V; reflexivity]]]].
  - split; cbn [level coords]; [rewrite len_set_nth; auto|apply Forall_set_nth; auto].
  - rewrite nth_set_eq by lia. rewrite set_nth_twice, R, set_nth_same by auto. reflexivity.
Qed.

Lemma prev_next D a i : in_range D i -> a < D -> level i < 31 ->
  exists j c, prev_on a i = Ok j /\ in_range D j /\ level j = level i /\ next_on a j = Ok i /\
    nth_error (coords i) a = Some c /\
    coords j = set_nth a (if c =? 0 then 2 ^ level i - 1 else c - 1) (coords i).
Proof.
  intros [HL HF] Ha Hl. destruct i as [l cs]; cbn [level coords] in *.
  destruct (nth_error cs a) as [c|] eqn:E.
  2:{ apply nth_error_None in E. lia. }
  pose proof (Forall_nth_error _ _ _ _ HF E) as Hc. cbv beta in Hc.
  destruct (prev_mod c (2 ^ l)) as (B & R & V); [apply pow2_pos|auto|].
  exists (mkidx l (set_nth a ((c + 2 ^ l - 1) mod 2 ^ l) cs)), c.
  unfold next_on, prev_on; cbn [level coords]. rewrite shl1_ok by auto. bsimp. rewrite E.
  split; [reflexivity|]. split; [|split; [reflexivity|split; [|split; [reflexivity|rewrite V; reflexivity]]]].
  - split; cbn [level coords]; [rewrite len_set_nth; auto|apply Forall_set_nth; auto].
  - rewrite nth_set_eq by lia. rewrite set_nth_twice, R, set_nth_same by auto. reflexivity.
Qed.

Lemma valid_spec D i : length (coords i) = D -> level i < 31 ->
  exists b, valid i = Ok b /\ (b = true <-> in_range D i).
Proof.
  intros HL Hl. unfold valid. rewrite shl1_ok by auto. bsimp. eexists. split; [reflexivity|].
  rewrite forallb_forall. unfold in_range. rewrite Forall_forall. split.
  - intros H. split; [auto|]. intros x Hx. apply Nat.ltb_lt. auto.
  - intros [_ H] x Hx. apply Nat.ltb_lt. auto.
Qed.

Lemma list_eqb_spec l : forall m, list_eqb l m = true <-> l = m.
Proof.
  induction l as [|a l IH]; intros [|b m]; simpl; split; try discriminate; auto.
  - rewrite andb_true_iff, Nat.eqb_eq, IH. intros [-> ->]; reflexivity.
  - intros E; injection E as -> ->. rewrite andb_true_iff, Nat.eqb_eq, IH; auto.
Qed.

Lemma idx_eqb_spec i j : idx_eqb i j = true <-> i = j.
Proof.
  unfold idx_eqb. rewrite andb_true_iff, Nat.eqb_eq, list_eqb_spec. destruct i as [l1 c1], j as [l2 c2]; cbn [level coords].
  split; [intros [-> ->]; reflexivity|intros E; injection E; auto].
Qed.

Lemma idx_neb_spec i j : idx_neb i j = negb (idx_eqb i j).
Proof. unfold idx_neb, idx_eqb. rewrite negb_andb. reflexivity. Qed.

(** ** Out of range addresses *)

(** The coordinates left over after descending stay out of range. *)
Lemma advance_any l c : l < 31 -> exists c',
  advance_level (mkidx (S l) c) = Ok (mkidx l c') /\ length c' = length c /\
  (Forall (fun x => x < 2 ^ l) c' <-> Forall (fun x => x < 2 ^ S l) c).
Proof.
  intros Hl. unfold advance_level; cbn [level coords]. rewrite orthant_ok by auto. bsimp.
  rewrite shl1_ok by auto. bsimp. eexists. split; [reflexivity|]. split.
  - rewrite zipw_length, map_length. lia.
  - induction c as [|x c IH]; [split; constructor|]. cbn [map zipw].
    rewrite !Forall_cons_iff, IH. apply and_iff_compat_r.
    rewrite Nat.pow_succ_r'. pose proof (pow2_pos l).
    destruct (Nat.eqb_spec (x / 2 ^ l) 0) as [E|E]; cbn [negb Nat.b2n].
    + apply Nat.div_small_iff in E; lia.
    + assert (~ x < 2 ^ l) by (intro; apply E; apply Nat.div_small; auto). lia.
Qed.

Lemma any_coord_nonzero c : ~ Forall (fun x => x < 2 ^ 0) c -> any_coord c = true.
Proof.
  intros H. destruct (any_coord c) eqn:E; auto. exfalso. apply H. clear H.
  induction c as [|x c IH]; [constructor|]. simpl in E. apply orb_false_iff in E. destruct E as [E1 E2].
  apply negb_false_iff, Nat.eqb_eq in E1. constructor; [simpl; lia|auto].
Qed.

Lemma orthant_total {A} D l c (cs : list (tree A)) : l < 31 -> length c = D -> length cs = 2 ^ D ->
  exists o t', orthant (mkidx (S l) c) = Ok o /\ length o = D /\
    nth_error cs (to_integral o) = Some t' /\ child_at (Node cs) o = Ok t'.
Proof.
  intros Hl HL Hcs. rewrite orthant_ok by auto.
  destruct (child_at_ok D cs (map (fun x => negb (x / 2 ^ l =? 0)) c)) as (t' & E & E'); auto.
  { rewrite map_length; auto. }
  exists (map (fun x => negb (x / 2 ^ l =? 0)) c), t'. rewrite map_length. auto.
Qed.

Lemma node_at_bad {A} D l : forall c (t : tree A), l <= 31 -> wf_tree D t -> length c = D ->
  ~ Forall (fun x => x < 2 ^ l) c ->
  node_at_level l c t = Throw OutOfRange /\ contains_node_level l c t = Ok false.
Proof.
  induction l as [|l IH]; intros c t Hl Hwf HL HF.
  - cbn [node_at_level contains_node_level]. rewrite any_coord_nonzero by auto. auto.
  - cbn [node_at_level contains_node_level].
    destruct t as [a|cs]; cbn [has_value]; [auto|].
    apply wf_node_inv in Hwf. destruct Hwf as [Hlen Hall].
    destruct (orthant_total D l c cs) as (o & t' & E1 & E2 & E3 & E4); auto.
    rewrite E1. bsimp. rewrite E4. bsimp.
    destruct (advance_any l c) as (c' & F1 & F2 & F3); [lia|]. rewrite F1. bsimp. cbn [coords].
    apply IH; try lia.
    + eapply Forall_nth_error; eauto.
    + tauto.
Qed.

Lemma insert_bad {A} D (dflt v : A) l : forall c (t : tree A), l <= 31 -> wf_tree D t -> length c = D ->
  ~ Forall (fun x => x < 2 ^ l) c -> insert_level dflt v l c t = Throw OutOfRange.
Proof.
  induction l as [|l IH]; intros c t Hl Hwf HL HF.
  - cbn [insert_level]. rewrite any_coord_nonzero by auto. reflexivity.
  - cbn [insert_level].
    set (cs := match t with Leaf _ => _ | Node cs => cs end).
    assert (Hcs : length cs = 2 ^ D /\ Forall (wf_tree D) cs).
    { subst cs. destruct t as [a|cs].
      - rewrite map_length, seq_length, HL. split; [reflexivity|].
        apply Forall_forall. intros x Hx. apply in_map_iff in Hx. destruct Hx as (? & <- & _). constructor.
      - apply wf_node_inv in Hwf. exact Hwf. }
    destruct Hcs as [Hlen Hall].
    destruct (orthant_total D l c cs) as (o & t' & E1 & E2 & E3 & E4); auto.
    rewrite E1. bsimp.
    destruct (advance_any l c) as (c' & F1 & F2 & F3); [lia|]. rewrite F1. bsimp. cbn [coords].
    unfold update_nth. rewrite E3. rewrite IH; auto; try lia.
    + eapply Forall_nth_error; eauto.
    + tauto.
Qed.

(** ** Insertion along a path *)

Definition expand {A} (dflt : A) (D : nat) (t : tree A) : list (tree A) :=
  match t with
  | Leaf _ => repeat (Leaf dflt) (2 ^ D)
  | Node cs => cs
  end.

Fixpoint ins {A} (dflt : A) (D : nat) (v : A) (p : list nat) (t : tree A) : outcome (tree A) :=
  match p with
  | [] => match t with Leaf _ => Ok (Leaf v) | Node _ => Throw OutOfRange end
  | k :: p' => do cs <- update_nth k (ins dflt D v p') (expand dflt D t); Ok (Node cs)
  end.

Lemma map_const_repeat {A B} (b : B) (l : list A) : map (fun _ => b) l = repeat b (length l).
Proof. induction l; simpl; congruence. Qed.

Lemma expand_wf {A} (dflt : A) D t : wf_tree D t ->
  length (expand dflt D t) = 2 ^ D /\ Forall (wf_tree D) (expand dflt D t).
Proof.
  intros Hwf. destruct t as [a|cs]; cbn [expand].
  - rewrite repeat_length. split; [reflexivity|]. apply Forall_forall. intros x Hx.
    apply repeat_spec in Hx. subst. constructor.
  - apply wf_node_inv in Hwf. exact Hwf.
Qed.

Lemma insert_path {A} D (dflt v : A) l : forall c (t : tree A), l <= 31 -> wf_tree D t ->
  length c = D -> Forall (fun x => x < 2 ^ l) c ->
  insert_level dflt v l c t = ins dflt D v (path_of l c) t.
Proof.
  induction l as [|l IH]; intros c t Hl Hwf HL HF.
  - cbn [insert_level path_of ins]. rewrite any_coord_zero by auto. destruct t; reflexivity.
  - cbn [insert_level path_of ins].
    replace (match t with Leaf _ => map (fun _ => Leaf dflt) (seq 0 (2 ^ length c)) | Node cs => cs end)
      with (expand dflt D t).
    2:{ destruct t; cbn [expand]; [|reflexivity]. rewrite map_const_repeat, seq_length, HL. reflexivity. }
    destruct (expand_wf dflt D t Hwf) as [Hlen Hall].
    rewrite orthant_ok by lia. bsimp. rewrite advance_ok by (auto; lia). bsimp. cbn [coords].
    unfold update_nth.
    destruct (nth_error (expand dflt D t) _) as [t'|] eqn:E; [|reflexivity].
    rewrite IH; auto; try lia.
    + eapply Forall_nth_error; eauto.
    + rewrite map_length; auto.
    + apply mod_forall.
Qed.

Lemma insert_idx {A} D (dflt v : A) (t : tree A) p : wf_tree D t -> path_ok D p -> length p <= 31 ->
  insert dflt t (mkidx (length p) (of_path D p)) v = ins dflt D v p t.
Proof.
  intros. unfold insert; cbn [level coords].
  rewrite (insert_path D) by (auto using of_path_length, of_path_bound).
  rewrite path_of_of_path by auto. reflexivity.
Qed.

(** Outcome of the insertion. *)
Lemma ins_cases {A} D (dflt v : A) p : forall t, wf_tree D t -> path_ok D p ->
  match node_path p t with
  | Some (Node _) => ins dflt D v p t = Throw OutOfRange
  | _ => exists t', ins dflt D v p t = Ok t' /\ wf_tree D t'
  end.
Proof.
  induction p as [|k p IH]; intros t Hwf Hp.
  - cbn [node_path ins]. destruct t; [|reflexivity]. eexists; split; [reflexivity|constructor].
  - inversion Hp; subst. cbn [ins]. destruct (expand_wf dflt D t Hwf) as [Hlen Hall].
    unfold update_nth. destruct (nth_error (expand dflt D t) k) as [c|] eqn:E.
    2:{ apply nth_error_None in E. lia. }
    pose proof (Forall_nth_error _ _ _ _ Hall E) as Hc.
    specialize (IH c Hc H2).
    assert (HN : node_path (k :: p) t = match t with Leaf _ => None | Node _ => node_path p c end).
    { cbn [node_path]. destruct t as [a|cs]; [reflexivity|]. cbn [expand] in E. rewrite E. reflexivity. }
    rewrite HN.
    assert (HOK : (exists c', ins dflt D v p c = Ok c' /\ wf_tree D c') ->
      exists t', (do cs <- (do b <- ins dflt D v p c; Ok (set_nth k b (expand dflt D t))); Ok (Node cs)) = Ok t' /\ wf_tree D t').
    { intros (c' & Ec & Wc). rewrite Ec. bsimp. eexists. split; [reflexivity|]. constructor.
      - rewrite len_set_nth. exact Hlen.
      - apply Forall_set_nth; auto. }
    destruct t as [a|cs].
    + apply HOK. cbn [expand] in E. apply nth_error_In, repeat_spec in E. subst c.
      destruct (node_path p (Leaf dflt)) as [[]|] eqn:EN; auto. destruct p; discriminate.
    + destruct (node_path p c) as [[]|]; auto. rewrite IH. reflexivity.
Qed.

(** Where the nodes of the result come from. *)
Lemma ins_node_path {A} D (dflt v : A) p : forall t t' q, wf_tree D t -> path_ok D p ->
  ins dflt D v p t = Ok t' -> path_ok D q -> forall w,
  (node_path q t' = Some (Leaf w) <->
     (q = p /\ w = v) \/
     ((~ exists r, p = q ++ r) /\ node_path q t = Some (Leaf w)) \/
     (w = dflt /\ exists a q0 k k' r u, q = q0 ++ [k] /\ p = q0 ++ k' :: r /\ k <> k' /\
        (exists s, q0 = a ++ s) /\ node_path a t = Some (Leaf u))).
Proof.
  induction p as [|k p IH]; intros t t' q Hwf Hp HI Hq w.
  - cbn [ins] in HI. destruct t as [a|cs]; [|discriminate]. injection HI as <-. split.
    + intros H. destruct q as [|k q]; [|discriminate]. cbn [node_path] in H. injection H as <-. auto.
    + intros [[-> ->]|[[H1 H2]|(_ & a' & q0 & k & k' & r & u & _ & E & _)]].
      * reflexivity.
      * destruct q as [|k q]; [|discriminate]. exfalso. apply H1. exists []. reflexivity.
      * destruct q0; discriminate.
  - inversion Hp as [|? ? Hk Hp']; subst. cbn [ins] in HI. destruct (expand_wf dflt D t Hwf) as [Hlen Hall].
    unfold update_nth in HI. destruct (nth_error (expand dflt D t) k) as [c|] eqn:E.
    2:{ discriminate. }
    pose proof (Forall_nth_error _ _ _ _ Hall E) as Hc.
    destruct (ins dflt D v p c) as [c'| | |] eqn:EI; cbn [bind] in HI; try discriminate.
    injection HI as <-.
    destruct q as [|k2 q].
    { cbn [node_path]. split; [discriminate|].
      intros [[H _]|[[H1 _]|(_ & a' & q0 & k3 & k' & r & u & H & _)]]; [discriminate| |destruct q0; discriminate].
      exfalso. apply H1. exists (k :: p). reflexivity. }
    inversion Hq as [|? ? Hk2 Hq']; subst. cbn [node_path].
    assert (Hks : k < length (expand dflt D t)) by (apply nth_error_Some; congruence).
    destruct (Nat.eq_dec k k2) as [->|Hne].
    + rewrite nth_set_eq by auto. rewrite (IH c c' q Hc Hp' EI Hq' w).
      destruct t as [a|cs]; cbn [expand] in *.
      * (* fresh branch *)
        apply nth_error_In, repeat_spec in E. subst c. split.
        -- intros [[-> ->]|[[H1 H2]|(-> & a' & q0 & k3 & k' & r & u & -> & -> & Hn & (s & Hs) & Hl)]].
           ++ auto.
           ++ destruct q as [|k3 q]; [|discriminate]. exfalso. apply H1. exists p. reflexivity.
           ++ right; right. split; [reflexivity|].
              exists [], (k2 :: q0), k3, k', r, a. repeat split; auto. exists (k2 :: q0). reflexivity.
        -- intros [[H ->]|[[H1 H2]|(-> & a' & q0 & k3 & k' & r & u & H1 & H2 & Hn & (s & Hs) & Hl)]].
           ++ injection H as ->. auto.
           ++ discriminate.
           ++ right; right. split; [reflexivity|].
              destruct q0 as [|k4 q0]; cbn [app] in H1, H2.
              { injection H1 as -> ->. injection H2 as -> ->. congruence. }
              injection H1 as <- ->. injection H2 as ->.
              exists [], q0, k3, k', r, dflt. repeat split; auto. exists q0. reflexivity.
      * rewrite E. split.
        -- intros [[-> ->]|[[H1 H2]|(-> & a' & q0 & k3 & k' & r & u & -> & -> & Hn & (s & ->) & Hl)]].
           ++ auto.
           ++ right; left. split; auto. intros [r Hr]. injection Hr as ->. apply H1. exists r. reflexivity.
           ++ right; right. split; [reflexivity|].
              exists (k2 :: a'), (k2 :: a' ++ s), k3, k', r, u. repeat split; auto.
              ** exists s. reflexivity.
              ** cbn [node_path]. rewrite E. exact Hl.
        -- intros [[H ->]|[[H1 H2]|(-> & a' & q0 & k3 & k' & r & u & H1 & H2 & Hn & (s & Hs) & Hl)]].
           ++ injection H as ->. auto.
           ++ right; left. split; auto. intros [r Hr]. apply H1. exists r. cbn [app]. congruence.
           ++ right; right. split; [reflexivity|].
              destruct a' as [|k4 a']; [cbn [node_path] in Hl; discriminate|].
              subst q0. cbn [app] in H1, H2. injection H1 as <- ->. injection H2 as ->.
              cbn [node_path] in Hl. rewrite E in Hl.
              exists a', (a' ++ s), k3, k', r, u. repeat split; auto. exists s; reflexivity.
    + rewrite nth_set_neq by auto.
      destruct t as [a|cs]; cbn [expand] in *.
      * rewrite repeat_length in Hlen.
        assert (E2 : nth_error (repeat (Leaf dflt) (2 ^ D)) k2 = Some (Leaf dflt)).
        { rewrite nth_error_repeat; auto. }
        rewrite E2. split.
        -- intros H. destruct q as [|k3 q]; [|discriminate]. cbn [node_path] in H. injection H as <-.
           right; right. split; [reflexivity|]. exists [], [], k2, k, p, a.
           repeat split; auto. exists []. reflexivity.
        -- intros [[H ->]|[[H1 H2]|(-> & a' & q0 & k3 & k' & r & u & H1 & H2 & Hn & (s & Hs) & Hl)]].
           ++ congruence.
           ++ discriminate.
           ++ destruct q0 as [|k4 q0]; cbn [app] in H1, H2.
              { injection H1 as -> ->. reflexivity. }
              injection H1 as <- ->. injection H2 as -> ->. congruence.
      * split.
        -- intros H. right; left. split; auto. intros [r Hr]. injection Hr as -> ->. congruence.
        -- intros [[H ->]|[[H1 H2]|(-> & a' & q0 & k3 & k' & r & u & H1 & H2 & Hn & (s & Hs) & Hl)]].
           ++ congruence.
           ++ exact H2.
           ++ destruct a' as [|k4 a']; [cbn [node_path] in Hl; discriminate|].
              subst q0. cbn [app] in H1, H2. injection H1 as <- ->. injection H2 as -> ->. congruence.
Qed.
