(** Lemmas: rebuilding a tree from its leaves, update, map, binary_op, bifurcate. *)
From Coq Require Import List Arith Bool Lia Permutation.
From Verif Require Import Base TreeModel TreeSpec TreeProofs TreeProofs2.
Import ListNotations.
Close Scope Z_scope.
Open Scope nat_scope.

Lemma nth_error_ext {A} (l : list A) : forall m, (forall n, nth_error l n = nth_error m n) -> l = m.
Proof.
  induction l as [|a l IH]; intros [|b m] H; auto.
  - specialize (H 0); discriminate.
  - specialize (H 0); discriminate.
  - pose proof (H 0) as H0. injection H0 as ->. f_equal. apply IH. intros n. apply (H (S n)).
Qed.

(** ** Rebuilding *)

(** The tree after the leaves selected by S have been inserted into the default leaf. *)
Fixpoint partial {A} (dflt : A) (S : list nat -> bool) (t : tree A) : tree A :=
  match t with
  | Leaf v => if S [] then Leaf v else Leaf dflt
  | Node cs =>
      if existsb S (leaf_paths t)
      then Node (mapi (fun k c => partial dflt (fun q => S (k :: q)) c) cs)
      else Leaf dflt
  end.

Lemma partial_none {A} (dflt : A) t S : (forall p, In p (leaf_paths t) -> S p = false) ->
  partial dflt S t = Leaf dflt.
Proof.
  intros H. destruct t as [a|cs]; cbn [partial].
  - rewrite H by (simpl; auto). reflexivity.
  - destruct (existsb S (leaf_paths (Node cs))) eqn:E; [|reflexivity].
    apply existsb_exists in E. destruct E as (p & Hp & E). rewrite H in E by auto. discriminate.
Qed.

Lemma mapi_from_ext {A B} (f g : nat -> A -> B) l : forall k,
  (forall n a, nth_error l n = Some a -> f (k + n) a = g (k + n) a) -> mapi_from f k l = mapi_from g k l.
Proof.
  induction l as [|a l IH]; intros k H; [reflexivity|]. cbn [mapi_from]. f_equal.
  - specialize (H 0 a eq_refl). rewrite Nat.add_0_r in H. exact H.
  - apply IH. intros n b Hn. specialize (H (S n) b Hn). rewrite Nat.add_succ_r in H. exact H.
Qed.

Lemma mapi_ext {A B} (f g : nat -> A -> B) l :
  (forall n a, nth_error l n = Some a -> f n a = g n a) -> mapi f l = mapi g l.
Proof. intros H. apply mapi_from_ext. exact H. Qed.

Lemma existsb_ext_in {A} (f g : A -> bool) l : (forall x, In x l -> f x = g x) -> existsb f l = existsb g l.
Proof.
  induction l as [|a l IH]; intros H; [reflexivity|]. cbn [existsb]. rewrite H by (simpl; auto).
  f_equal. apply IH. intros; apply H; simpl; auto.
Qed.

Lemma leaf_path_child {A} (cs : list (tree A)) k c p : nth_error cs k = Some c ->
  (In (k :: p) (leaf_paths (Node cs)) <-> In p (leaf_paths c)).
Proof. intros E. rewrite !leaf_paths_in. cbn [node_path]. rewrite E. reflexivity. Qed.

Lemma partial_ext {A} (dflt : A) t : forall S S', (forall p, In p (leaf_paths t) -> S p = S' p) ->
  partial dflt S t = partial dflt S' t.
Proof.
  induction t as [a|cs IH] using tree_ind'; intros S S' H.
  - cbn [partial]. rewrite H by (simpl; auto). reflexivity.
  - cbn [partial]. rewrite (existsb_ext_in S S') by auto.
    destruct (existsb S' _); [|reflexivity]. f_equal. apply mapi_ext. intros n c Hn.
    rewrite Forall_forall in IH. apply IH; [eapply nth_error_In; eauto|].
    intros p Hp. apply H. apply (leaf_path_child cs n c p Hn). exact Hp.
Qed.

Lemma expand_partial {A} (dflt : A) D S cs : length cs = 2 ^ D ->
  expand dflt D (partial dflt S (Node cs)) = mapi (fun k c => partial dflt (fun q => S (k :: q)) c) cs.
Proof.
  intros HL. cbn [partial]. destruct (existsb S (leaf_paths (Node cs))) eqn:E; cbn [expand]; [reflexivity|].
  rewrite <- HL. clear HL.
  assert (H : forall k c p, nth_error cs k = Some c -> In p (leaf_paths c) -> S (k :: p) = false).
  { intros k c p Hk Hp. destruct (S (k :: p)) eqn:ES; auto. exfalso.
    assert (existsb S (leaf_paths (Node cs)) = true); [|congruence].
    apply existsb_exists. exists (k :: p). split; auto. apply (leaf_path_child cs k c p Hk). exact Hp. }
  clear E. apply nth_error_ext. intros n.
  rewrite nth_error_mapi. destruct (nth_error cs n) as [c|] eqn:En; cbn [option_map].
  - rewrite nth_error_repeat by (apply nth_error_Some; congruence).
    rewrite partial_none; [reflexivity|]. intros p Hp. eapply H; eauto.
  - apply nth_error_None in En. apply nth_error_None. rewrite repeat_length. exact En.
Qed.

Definition path_eqb := list_eqb.

Lemma set_nth_mapi {A B} (f g : nat -> A -> B) l k a b :
  nth_error l k = Some a -> g k a = b -> (forall n c, n <> k -> nth_error l n = Some c -> f n c = g n c) ->
  set_nth k b (mapi f l) = mapi g l.
Proof.
  intros Hk Hb H. apply nth_error_ext. intros n. destruct (Nat.eq_dec k n) as [<-|Hn].
  - rewrite nth_set_eq.
    + rewrite nth_error_mapi, Hk. cbn [option_map]. congruence.
    + unfold mapi. rewrite mapi_from_length. apply nth_error_Some. congruence.
  - rewrite nth_set_neq by auto. rewrite !nth_error_mapi.
    destruct (nth_error l n) eqn:E; cbn [option_map]; [|reflexivity]. rewrite H; auto.
Qed.

Lemma ins_partial {A} (dflt v : A) D p : forall t S, wf_tree D t ->
  node_path p t = Some (Leaf v) ->
  ins dflt D v p (partial dflt S t) = Ok (partial dflt (fun q => S q || path_eqb p q) t).
Proof.
  induction p as [|k p IH]; intros t S Hwf Hp.
  - cbn [node_path] in Hp. injection Hp as ->. cbn [partial ins].
    change (path_eqb [] []) with true. rewrite orb_true_r. destruct (S []); reflexivity.
  - destruct t as [a|cs]; [discriminate|].
    assert (Hin : In (k :: p) (leaf_paths (Node cs))) by (apply leaf_paths_in; eauto).
    cbn [node_path] in Hp. destruct (nth_error cs k) as [c|] eqn:E; [|discriminate].
    apply wf_node_inv in Hwf. destruct Hwf as [HL HF].
    cbn [ins]. rewrite expand_partial by auto. unfold update_nth.
    rewrite nth_error_mapi, E. cbn [option_map].
    rewrite IH; auto; [|eapply Forall_nth_error; eauto]. bsimp. f_equal.
    cbn [partial].
    replace (existsb (fun q => S q || path_eqb (k :: p) q) (leaf_paths (Node cs))) with true.
    2:{ symmetry. apply existsb_exists. exists (k :: p). split; auto.
        apply orb_true_iff. right. apply list_eqb_spec. reflexivity. }
    f_equal. apply set_nth_mapi with (a := c); auto.
    + apply partial_ext. intros q Hq. unfold path_eqb. cbn [list_eqb].
      rewrite Nat.eqb_refl. reflexivity.
    + intros n c' Hn Hc'. apply partial_ext. intros q Hq. unfold path_eqb. cbn [list_eqb].
      apply Nat.eqb_neq in Hn. rewrite Nat.eqb_sym, Hn. rewrite orb_false_r. reflexivity.
Qed.

Lemma leaf_paths_nonempty {A} D (t : tree A) : wf_tree D t -> exists p, In p (leaf_paths t).
Proof.
  induction t as [a|cs IH] using tree_ind'; intros Hwf; [exists []; simpl; auto|].
  apply wf_node_inv in Hwf. destruct Hwf as [HL HF].
  destruct cs as [|c cs]; [simpl in HL; pose proof (pow2_pos D); lia|].
  inversion IH; inversion HF; subst. destruct H1 as [p Hp]; auto.
  exists (0 :: p). apply (leaf_path_child (c :: cs) 0 c p eq_refl). exact Hp.
Qed.

Lemma partial_all {A} (dflt : A) D t : forall S, wf_tree D t ->
  (forall p, In p (leaf_paths t) -> S p = true) -> partial dflt S t = t.
Proof.
  induction t as [a|cs IH] using tree_ind'; intros S Hwf H.
  - cbn [partial]. rewrite H by (simpl; auto). reflexivity.
  - cbn [partial].
    replace (existsb S (leaf_paths (Node cs))) with true.
    2:{ symmetry. apply existsb_exists. destruct (leaf_paths_nonempty D (Node cs) Hwf) as [p Hp]. eauto. }
    f_equal. apply nth_error_ext. intros n. rewrite nth_error_mapi.
    destruct (nth_error cs n) as [c|] eqn:E; cbn [option_map]; [|reflexivity]. f_equal.
    apply wf_node_inv in Hwf. destruct Hwf as [HL HF].
    rewrite Forall_forall in IH. apply IH; [eapply nth_error_In; eauto|eapply Forall_nth_error; eauto|].
    intros p Hp. apply H. apply (leaf_path_child cs n c p E). exact Hp.
Qed.

(** Folding insertions over any list of (path, value) pairs that are leaves of t. *)
Lemma fold_ins_partial {A} (dflt : A) D t : wf_tree D t -> forall l S,
  (forall p v, In (p, v) l -> node_path p t = Some (Leaf v)) ->
  foldM (fun u '(p, v) => ins dflt D v p u) (partial dflt S t) l =
  Ok (partial dflt (fun q => S q || existsb (fun pv => path_eqb (fst pv) q) l) t).
Proof.
  intros Hwf. induction l as [|[p v] l IH]; intros S H.
  - cbn [foldM existsb]. f_equal. apply partial_ext. intros. rewrite orb_false_r. reflexivity.
  - cbn [foldM]. rewrite ins_partial by (auto; apply H; simpl; auto). bsimp. rewrite IH.
    + f_equal. apply partial_ext. intros q Hq. cbn [existsb fst]. rewrite orb_assoc. reflexivity.
    + intros; apply H; simpl; auto.
Qed.

Lemma partial_wf {A} (dflt : A) D t : forall S, wf_tree D t -> wf_tree D (partial dflt S t).
Proof.
  induction t as [a|cs IH] using tree_ind'; intros S Hwf; cbn [partial].
  - destruct (S []); constructor.
  - destruct (existsb _ _); [|constructor]. apply wf_node_inv in Hwf. destruct Hwf as [HL HF]. constructor.
    + unfold mapi. rewrite mapi_from_length. exact HL.
    + apply Forall_forall. intros x Hx. apply In_nth_error in Hx. destruct Hx as [n Hn].
      rewrite nth_error_mapi in Hn. destruct (nth_error cs n) as [c|] eqn:E; [|discriminate].
      cbn [option_map] in Hn. injection Hn as <-.
      rewrite Forall_forall in IH. apply IH; [eapply nth_error_In; eauto|eapply Forall_nth_error; eauto].
Qed.

(** One insertion of the model, on trees that are partially built. *)
Lemma fold_insert_partial {A} (dflt : A) D t : wf_tree D t -> depth t <= 31 -> forall l S,
  (forall i v, In (i, v) l -> exists p, path_ok D p /\ i = mkidx (length p) (of_path D p) /\
     node_path p t = Some (Leaf v)) ->
  exists S', foldM (fun u '(i, v) => insert dflt u i v) (partial dflt S t) l = Ok (partial dflt S' t) /\
    forall p, path_ok D p ->
      (S' p = true <-> S p = true \/ exists v, In (mkidx (length p) (of_path D p), v) l).
Proof.
  intros Hwf Hd. induction l as [|[i v] l IH]; intros S H.
  - cbn [foldM]. exists S. split; [reflexivity|]. intros p Hp. split; auto. intros [|[v []]]; auto.
  - destruct (H i v) as (p & Hp & -> & Hn); [simpl; auto|]. cbn [foldM].
    rewrite (insert_idx D); auto using partial_wf.
    2:{ apply depth_path in Hn. simpl in Hn. lia. }
    rewrite ins_partial by auto. bsimp.
    destruct (IH (fun q => S q || path_eqb p q)) as (S' & E & HS').
    { intros; apply H; simpl; auto. }
    exists S'. split; [exact E|]. intros q Hq. rewrite HS' by auto. rewrite orb_true_iff.
    unfold path_eqb. rewrite list_eqb_spec. split.
    + intros [[H1| ->]|[w Hw]]; auto.
      * right. exists v. simpl; auto.
      * right. exists w. simpl; auto.
    + intros [H1|[w [Hw|Hw]]]; auto.
      * injection Hw as HL HC ->. left; right. apply (of_path_inj D); auto.
      * right. exists w; auto.
Qed.

Lemma combine_Forall2 {A B} (R : A -> B -> Prop) l m : Forall2 R l m ->
  forall a b, In (a, b) (combine l m) -> R a b.
Proof.
  induction 1; intros a b Hin; [destruct Hin|]. destruct Hin as [E|Hin]; [injection E as -> ->; auto|auto].
Qed.

Lemma combine_In_l {A B} (R : A -> B -> Prop) l m : Forall2 R l m ->
  forall a, In a l -> exists b, In (a, b) (combine l m).
Proof.
  induction 1; intros a Hin; [destruct Hin|]. destruct Hin as [->|Hin].
  - exists y. simpl; auto.
  - destruct (IHForall2 a Hin) as [b Hb]. exists b. simpl; auto.
Qed.

Definition leaf_list {A} D (t : tree A) : list (idx * A) := combine (leaves (indexes D t)) (leaves t).

Lemma leaf_list_paths {A} D (t : tree A) : wf_tree D t ->
  Forall2 (fun i v => exists p, path_ok D p /\ i = mkidx (length p) (of_path D p) /\
     node_path p t = Some (Leaf v)) (leaves (indexes D t)) (leaves t).
Proof.
  intros Hwf. unfold indexes. rewrite leaves_indexes_from. apply Forall2_map_l.
  pose proof (leaf_paths_ok D t Hwf) as HO. rewrite Forall_forall in HO.
  eapply Forall2_impl_In; [apply leaf_paths_leaves|]. intros p v Hp _ Hpv. cbv beta in *.
  exists p. rewrite ext_root by auto. auto.
Qed.

Lemma rebuild_any_order {A} (dflt : A) D (t : tree A) l : wf_tree D t -> depth t <= 31 ->
  Permutation l (leaf_list D t) ->
  foldM (fun u '(i, v) => insert dflt u i v) (Leaf dflt) l = Ok t.
Proof.
  intros Hwf Hd HP.
  replace (Leaf dflt) with (partial dflt (fun _ => false) t) by (apply partial_none; auto).
  destruct (fold_insert_partial dflt D t Hwf Hd l (fun _ => false)) as (S' & E & HS).
  { intros i v Hin. apply (Permutation_in _ HP) in Hin.
    apply (combine_Forall2 _ _ _ (leaf_list_paths D t Hwf) i v Hin). }
  rewrite E. f_equal. apply partial_all with (D := D); auto.
  intros p Hp. pose proof (leaf_paths_ok D t Hwf) as HO. rewrite Forall_forall in HO.
  apply HS; auto. right.
  destruct (combine_In_l _ _ _ (leaf_list_paths D t Hwf) (mkidx (length p) (of_path D p))) as [v Hv].
  { unfold indexes. rewrite leaves_indexes_from. apply in_map_iff. exists p. rewrite ext_root by auto. auto. }
  exists v. apply (Permutation_in _ (Permutation_sym HP)). exact Hv.
Qed.

(** Inserting only some of the leaves, with repetitions allowed, never fails. *)

(** ** Update *)

Lemma tmap_wf {A B} D (f : A -> B) t : wf_tree D t -> wf_tree D (tmap f t).
Proof.
  induction t as [a|cs IH] using tree_ind'; intros Hwf; cbn [tmap]; [constructor|].
  apply wf_node_inv in Hwf. destruct Hwf as [HL HF]. constructor; [rewrite map_length; auto|].
  apply Forall_forall. intros x Hx. apply in_map_iff in Hx. destruct Hx as (y & <- & Hy).
  rewrite Forall_forall in *. auto.
Qed.

Fixpoint upd {A} (f : A -> A) (p : list nat) (t : tree A) : outcome (tree A) :=
  match p with
  | [] => Ok (tmap f t)
  | k :: p' =>
      match t with
      | Leaf _ => Throw BadVariantAccess
      | Node cs => do cs' <- update_nth k (upd f p') cs; Ok (Node cs')
      end
  end.

Lemma update_path {A} D (f : A -> A) l : forall c (t : tree A), l <= 31 -> wf_tree D t ->
  length c = D -> Forall (fun x => x < 2 ^ l) c ->
  update_level f l c t = upd f (path_of l c) t.
Proof.
  induction l as [|l IH]; intros c t Hl Hwf HL HF; [reflexivity|].
  cbn [update_level path_of upd]. destruct t as [a|cs]; cbn [children]; [reflexivity|].
  bsimp. apply wf_node_inv in Hwf. destruct Hwf as [Hlen Hall].
  rewrite orthant_ok by lia. bsimp. rewrite advance_ok by (auto; lia). bsimp. cbn [coords].
  unfold update_nth. destruct (nth_error cs _) as [t'|] eqn:E; [|reflexivity].
  rewrite IH; auto; try lia.
  - eapply Forall_nth_error; eauto.
  - rewrite map_length; auto.
  - apply mod_forall.
Qed.

Lemma upd_cases {A} D (f : A -> A) p : forall t, wf_tree D t -> path_ok D p ->
  match node_path p t with
  | Some n => exists t', upd f p t = Ok t' /\ wf_tree D t' /\ node_path p t' = Some (tmap f n) /\
      forall q, path_ok D q -> (~ exists r, p = q ++ r) -> (~ exists r, q = p ++ r) ->
         node_path q t' = node_path q t
  | None => upd f p t = Throw BadVariantAccess
  end.
Proof.
  induction p as [|k p IH]; intros t Hwf Hp.
  - cbn [node_path upd]. eexists. split; [reflexivity|]. split; [|split; [reflexivity|]].
    + apply tmap_wf. exact Hwf.
    + intros q _ _ Hn. exfalso. apply Hn. exists q. reflexivity.
  - inversion Hp as [|? ? Hk Hp']; subst. cbn [node_path upd]. destruct t as [a|cs]; [reflexivity|].
    apply wf_node_inv in Hwf. destruct Hwf as [HL HF]. unfold update_nth.
    destruct (nth_error cs k) as [c|] eqn:E.
    2:{ apply nth_error_None in E. lia. }
    pose proof (Forall_nth_error _ _ _ _ HF E) as Hc. specialize (IH c Hc Hp').
    destruct (node_path p c) as [n|].
    + destruct IH as (c' & E1 & E2 & E3 & E4). rewrite E1. bsimp. eexists. split; [reflexivity|].
      split; [|split].
      * constructor; [rewrite len_set_nth; auto|apply Forall_set_nth; auto].
      * rewrite nth_set_eq by lia. exact E3.
      * intros q Hq H1 H2. destruct q as [|k2 q].
        { exfalso. apply H1. exists (k :: p). reflexivity. }
        inversion Hq; subst. cbn [node_path]. destruct (Nat.eq_dec k k2) as [<-|Hne].
        -- rewrite nth_set_eq by lia. rewrite E. apply E4; auto.
           ++ intros [r Hr]. apply H1. exists r. cbn [app]. congruence.
           ++ intros [r Hr]. apply H2. exists r. cbn [app]. congruence.
        -- rewrite nth_set_neq by auto. reflexivity.
    + rewrite IH. reflexivity.
Qed.

(** ** Map *)

Lemma tmap_id {A} (t : tree A) : tmap (fun x => x) t = t.
Proof.
  induction t as [a|cs IH] using tree_ind'; [reflexivity|]. cbn [tmap]. f_equal.
  induction IH; [reflexivity|]. cbn [map]. congruence.
Qed.

Lemma tmap_comp {A B C} (f : A -> B) (g : B -> C) t : tmap g (tmap f t) = tmap (fun x => g (f x)) t.
Proof.
  induction t as [a|cs IH] using tree_ind'; [reflexivity|]. cbn [tmap]. f_equal. rewrite map_map.
  induction IH; [reflexivity|]. cbn [map]. congruence.
Qed.

Lemma tmap_leaves {A B} (f : A -> B) t : leaves (tmap f t) = map f (leaves t).
Proof.
  induction t as [a|cs IH] using tree_ind'; [reflexivity|]. cbn [tmap leaves].
  induction IH as [|c cs Hc Hcs IHcs]; [reflexivity|]. cbn [map flat_map]. rewrite map_app. congruence.
Qed.

Lemma tmap_shape {A B} (f : A -> B) t : same_shape (tmap f t) t.
Proof.
  induction t as [a|cs IH] using tree_ind'; cbn [tmap]; constructor.
  induction IH; constructor; auto.
Qed.

(** ** binary_op *)

Fixpoint bin_list {A B C} (f : A -> B -> C) (cs : list (tree A)) (ds : list (tree B)) : outcome (list (tree C)) :=
  match cs, ds with
  | [], _ => Ok []
  | c :: cs', d :: ds' => do e <- binary_op f c d; do es <- bin_list f cs' ds'; Ok (e :: es)
  | _ :: _, [] => UB
  end.

Lemma binary_op_node {A B C} (f : A -> B -> C) cs ds :
  binary_op f (Node cs) (Node ds) = do es <- bin_list f cs ds; Ok (Node es).
Proof.
  cbn [binary_op]. f_equal. revert ds.
  induction cs as [|c cs IH]; intros [|d ds]; try reflexivity.
  cbn [bin_list]. destruct (binary_op f c d); cbn [bind]; try reflexivity.
  rewrite IH. reflexivity.
Qed.

Lemma same_shape_leaves_len {A B} (t : tree A) : forall (u : tree B), same_shape t u ->
  length (leaves t) = length (leaves u).
Proof.
  induction t as [a|cs IH] using tree_ind'; intros u H; inversion H as [|? ds HF]; subst; [reflexivity|].
  cbn [leaves]. clear H. induction HF as [|c d cs ds Hcd HF IHF]; [reflexivity|].
  inversion IH; subst. cbn [flat_map]. rewrite !app_length. f_equal; auto.
Qed.

Lemma zipw_app {A B C} (f : A -> B -> C) l1 m1 l2 m2 : length l1 = length m1 ->
  zipw f (l1 ++ l2) (m1 ++ m2) = zipw f l1 m1 ++ zipw f l2 m2.
Proof.
  revert m1. induction l1 as [|a l1 IH]; intros [|b m1] H; simpl in *; try discriminate; auto.
  f_equal. apply IH. lia.
Qed.

Lemma binary_op_ok {A B C} (f : A -> B -> C) t : forall u, same_shape t u ->
  exists r, binary_op f t u = Ok r /\ same_shape r t /\ leaves r = zipw f (leaves t) (leaves u).
Proof.
  induction t as [a|cs IH] using tree_ind'; intros u H; inversion H as [|? ds HF]; subst.
  - eexists. split; [reflexivity|]. split; [constructor|reflexivity].
  - rewrite binary_op_node.
    enough (G : exists es, bin_list f cs ds = Ok es /\ Forall2 same_shape es cs /\
              flat_map leaves es = zipw f (flat_map leaves cs) (flat_map leaves ds)).
    { destruct G as (es & E & S & L). rewrite E. bsimp. eexists. split; [reflexivity|].
      split; [constructor; auto|exact L]. }
    clear H. induction HF as [|c d cs ds Hcd HF IHF].
    + exists []. repeat split; constructor.
    + inversion IH as [|? ? Hc Hcs]; subst. destruct (Hc d Hcd) as (e & E1 & E2 & E3).
      destruct (IHF Hcs) as (es & F1 & F2 & F3).
      exists (e :: es). cbn [bin_list]. rewrite E1. bsimp. rewrite F1. bsimp. split; [reflexivity|].
      split; [constructor; auto|]. cbn [flat_map]. rewrite zipw_app by (apply same_shape_leaves_len; auto).
      congruence.
Qed.

Lemma binary_op_fail {A B C} D (f : A -> B -> C) t : forall u, wf_tree D t -> wf_tree D u ->
  ~ same_shape t u ->
  binary_op f t u = Throw BadVariantAccess \/ binary_op f t u = Throw InvalidArgument.
Proof.
  induction t as [a|cs IH] using tree_ind'; intros u Ht Hu H.
  - destruct u as [b|ds]; [exfalso; apply H; constructor|]. left. reflexivity.
  - destruct u as [b|ds]; [right; reflexivity|]. rewrite binary_op_node.
    apply wf_node_inv in Ht. destruct Ht as [HL HF]. apply wf_node_inv in Hu. destruct Hu as [HL' HF'].
    enough (G : bin_list f cs ds = Throw BadVariantAccess \/ bin_list f cs ds = Throw InvalidArgument).
    { destruct G as [-> | ->]; auto. }
    assert (Hn : ~ Forall2 same_shape cs ds) by (intros HS; apply H; constructor; auto).
    assert (HLL : length cs = length ds) by congruence. clear H HL HL'.
    revert ds HF' Hn HLL. induction cs as [|c cs IHc]; intros ds HF' Hn HLL.
    + destruct ds; [|discriminate]. exfalso. apply Hn. constructor.
    + destruct ds as [|d ds]; [discriminate|].
      inversion IH as [|? ? Hc Hcs]; inversion HF as [|? ? Wc Wcs]; inversion HF' as [|? ? Wd Wds]; subst.
      cbn [bin_list].
      assert (DEC : same_shape c d \/ ~ same_shape c d).
      { clear. revert d. induction c as [a|cs IH] using tree_ind'; intros [b|ds].
        - left; constructor.
        - right; intros H; inversion H.
        - right; intros H; inversion H.
        - assert (Forall2 same_shape cs ds \/ ~ Forall2 same_shape cs ds).
          { revert ds. induction IH as [|c cs Hc Hcs IHcs]; intros [|d ds].
            - left; constructor.
            - right; intros H; inversion H.
            - right; intros H; inversion H.
            - destruct (Hc d); [|right; intros H1; inversion H1; auto].
              destruct (IHcs ds); [left; constructor; auto|right; intros H1; inversion H1; auto]. }
          destruct H; [left; constructor; auto|right; intros H1; inversion H1; auto]. }
      destruct DEC as [HS|HS].
      * destruct (binary_op_ok f c d HS) as (e & E & _). rewrite E. bsimp.
        assert (Hn2 : ~ Forall2 same_shape cs ds) by (intros HS2; apply Hn; constructor; auto).
        assert (HL2 : length cs = length ds) by (simpl in HLL; lia).
        destruct (IHc Hcs Wcs ds Wds Hn2 HL2) as [-> | ->]; auto.
      * destruct (Hc d Wc Wd HS) as [-> | ->]; auto.
Qed.

(** ** bifurcate *)

Lemma flat_map_map_Leaf {A} (l : list A) : flat_map leaves (map Leaf l) = l.
Proof. induction l; simpl; congruence. Qed.

Lemma bif_leaves {A} (p : A -> bool) f t :
  leaves (bifurcate_if p f t) = flat_map (fun a => if p a then f a else [a]) (leaves t).
Proof.
  induction t as [a|cs IH] using tree_ind'; cbn [bifurcate_if].
  - cbn [leaves flat_map]. rewrite app_nil_r. destruct (p a); [|reflexivity].
    cbn [tree_of leaves]. apply flat_map_map_Leaf.
  - cbn [leaves]. induction IH as [|c cs Hc Hcs IHcs]; [reflexivity|].
    cbn [map flat_map]. rewrite flat_map_app. congruence.
Qed.

Lemma bif_all_leaves {A B} (f : A -> list B) t :
  leaves (bifurcate_all f t) = flat_map f (leaves t).
Proof.
  induction t as [a|cs IH] using tree_ind'; cbn [bifurcate_all].
  - cbn [leaves flat_map tree_of]. rewrite app_nil_r. apply flat_map_map_Leaf.
  - cbn [leaves]. induction IH as [|c cs Hc Hcs IHcs]; [reflexivity|].
    cbn [map flat_map]. rewrite flat_map_app. congruence.
Qed.

Lemma bif_wf {A} D (p : A -> bool) f t : (forall a, length (f a) = 2 ^ D) -> wf_tree D t ->
  wf_tree D (bifurcate_if p f t).
Proof.
  intros Hf. induction t as [a|cs IH] using tree_ind'; intros Hwf; cbn [bifurcate_if].
  - destruct (p a); [|constructor]. constructor; [rewrite map_length; auto|].
    apply Forall_forall. intros x Hx. apply in_map_iff in Hx. destruct Hx as (? & <- & _). constructor.
  - apply wf_node_inv in Hwf. destruct Hwf as [HL HF]. constructor; [rewrite map_length; auto|].
    apply Forall_forall. intros x Hx. apply in_map_iff in Hx. destruct Hx as (y & <- & Hy).
    rewrite Forall_forall in *. auto.
Qed.

Lemma bif_path {A} (p : A -> bool) f q : forall t,
  node_path q (bifurcate_if p f t) =
    match node_path q t with
    | Some n => Some (bifurcate_if p f n)
    | None =>
        match rev q with
        | k :: r =>
            match node_path (rev r) t with
            | Some (Leaf a) => if p a then option_map Leaf (nth_error (f a) k) else None
            | _ => None
            end
        | [] => None
        end
    end.
Proof.
  induction q as [|k q IH]; intros t; [reflexivity|].
  destruct t as [a|cs].
  - cbn [bifurcate_if node_path]. destruct q as [|k2 q].
    + cbn [rev app]. cbn [node_path]. destruct (p a); [|reflexivity].
      cbn [tree_of node_path]. rewrite nth_error_map. destruct (nth_error (f a) k); reflexivity.
    + cbn [rev]. rewrite <- app_assoc. cbn [app].
      destruct (rev q ++ [k2; k]) as [|k3 r] eqn:E; [destruct (rev q); discriminate|].
      assert (Hr : exists x r', rev r = x :: r').
      { destruct (rev r) eqn:Er; eauto. apply (f_equal (@rev nat)) in Er. rewrite rev_involutive in Er.
        simpl in Er. subst r. destruct (rev q) as [|? [|]]; discriminate. }
      destruct Hr as (x & r' & ->). cbn [node_path].
      destruct (p a); [|reflexivity]. cbn [tree_of node_path]. rewrite nth_error_map.
      destruct (nth_error (f a) k); reflexivity.
  - cbn [bifurcate_if node_path]. rewrite nth_error_map.
    destruct (nth_error cs k) as [c|] eqn:E; cbn [option_map].
    + rewrite IH. destruct (node_path q c); [reflexivity|]. cbn [rev].
      destruct (rev q) as [|k3 r]; cbn [app].
      * cbn [rev node_path]. destruct q; reflexivity.
      * rewrite rev_app_distr. cbn [rev app node_path]. rewrite E. reflexivity.
    + cbn [rev]. destruct (rev q) as [|k3 r]; cbn [app]; [reflexivity|].
      rewrite rev_app_distr. cbn [rev app node_path]. rewrite E. reflexivity.
Qed.

Lemma tany_leaves {A} (f : A -> bool) t : tany f t = existsb f (leaves t).
Proof.
  induction t as [a|cs IH] using tree_ind'; [cbn; rewrite orb_false_r; reflexivity|].
  cbn [tany leaves]. induction IH as [|c cs Hc Hcs IHcs]; [reflexivity|].
  cbn [existsb flat_map]. rewrite existsb_app. congruence.
Qed.

Lemma tall_leaves {A} (f : A -> bool) t : tall f t = forallb f (leaves t).
Proof.
  induction t as [a|cs IH] using tree_ind'; [cbn; rewrite andb_true_r; reflexivity|].
  cbn [tall leaves]. induction IH as [|c cs Hc Hcs IHcs]; [reflexivity|].
  cbn [forallb flat_map]. rewrite forallb_app. congruence.
Qed.
