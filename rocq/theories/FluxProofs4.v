(** Summing the block updates over the mesh. *)
From Coq Require Import ZArith List Arith Bool Lia Reals Lra.
From Verif Require Import Base TreeModel TreeSpec TreeProofs TreeProofs2 TreeProofs3 TreeProofs4
  BalanceModel BalanceSpec BalanceProofs NdModel NdSpec NdProofs NdProofs2 NdProofs3 NdOpsModel NdOpsProofs
  ProlongModel ProlongProofs ProlongProps FluxModel FluxSpec FluxTreeProofs FluxProofs FluxProofs2 FluxProofs3.
Import ListNotations.
Open Scope Z_scope.

(** ** The edges of a node *)

Definition at_edge (a : nat) (s : bool) (i l : idx) : bool :=
  if s then (nth a (coords l) 0 + 1 =? (nth a (coords i) 0 + 1) * 2 ^ (level l - level i))%nat
  else (nth a (coords l) 0 =? nth a (coords i) 0 * 2 ^ (level l - level i))%nat.
Definition below (a : nat) (i l : idx) : Prop :=
  (level i <= level l /\ nth a (coords i) 0 * 2 ^ (level l - level i) <= nth a (coords l) 0 /\
   nth a (coords l) 0 + 1 <= (nth a (coords i) 0 + 1) * 2 ^ (level l - level i))%nat.

Lemma child_coord a i k : (a < length (coords i))%nat ->
  length (coords (child_index i k)) = length (coords i) /\
  nth a (coords (child_index i k)) 0%nat = (nth a (coords i) 0 * 2 + Nat.b2n (Nat.testbit k a))%nat.
Proof.
  unfold child_index. cbn [coords]. generalize (coords i) as c. intros c. revert a k.
  induction c as [|x c IH]; intros a k Ha; [cbn in Ha; lia|]. cbn [length bits zipw].
  destruct a as [|a].
  - cbn [nth]. split.
    + f_equal. destruct c as [|y c]; [reflexivity|]. apply (IH 0%nat). cbn. lia.
    + reflexivity.
  - cbn [length] in Ha. destruct (IH a (Nat.div2 k) ltac:(lia)) as [E1 E2]. cbn [nth]. split; [f_equal; exact E1|]. rewrite E2.
    reflexivity.
Qed.

Lemma edge_arith x y p b : (p <> 0 -> (x * 2 + Nat.b2n b) * p <= y -> y + 1 <= (x * 2 + Nat.b2n b + 1) * p ->
  x * (2 * p) <= y /\ y + 1 <= (x + 1) * (2 * p) /\
  forall s : bool, (if s then y + 1 =? (x + 1) * (2 * p) else y =? x * (2 * p)) =
    (Bool.eqb b s && (if s then y + 1 =? (x * 2 + Nat.b2n b + 1) * p else y =? (x * 2 + Nat.b2n b) * p))%bool)%nat.
Proof.
  intros Hp H1 H2. destruct b; cbn [Nat.b2n] in *; (split; [nia|]; split; [nia|]); intros [|]; cbn [Bool.eqb andb].
  - f_equal. nia.
  - apply Nat.eqb_neq. nia.
  - apply Nat.eqb_neq. nia.
  - f_equal. nia.
Qed.

Lemma edge_leaves {A} a f s (n : tree A) : forall i, (a < length (coords i))%nat ->
  Forall (below a i) (leaves (indexes_from i n)) /\
  edge a f s i n = Rsum (map (fun l => if at_edge a s i l then f l else 0%R) (leaves (indexes_from i n))).
Proof.
  induction n as [v|cs IH] using tree_ind'; intros i Hi.
  - cbn [indexes_from leaves edge map Rsum fold_right]. split.
    + constructor; [|constructor]. unfold below. rewrite Nat.sub_diag. cbn [Nat.pow]. lia.
    + unfold at_edge. rewrite Nat.sub_diag. cbn [Nat.pow]. rewrite !Nat.mul_1_r, !Nat.eqb_refl. destruct s; unfold Rsum; cbn [fold_right]; lra.
  - cbn [indexes_from leaves edge]. unfold mapi. generalize 0%nat as k0. induction cs as [|c cs IHc]; intros k0; [split; [constructor|reflexivity]|].
    inversion IH as [|? ? IHn IHcs]; subst. specialize (IHc IHcs (S k0)). destruct IHc as [B1 B2].
    cbn [mapi_from flat_map]. destruct (child_coord a i k0 Hi) as [CL CC]. rewrite <- CL in Hi. destruct (IHn (child_index i k0) Hi) as [B3 B4].
    assert (Q : forall l, below a (child_index i k0) l -> below a i l /\
      at_edge a s i l = (Bool.eqb (Nat.testbit k0 a) s && at_edge a s (child_index i k0) l)%bool).
    { intros l (P1 & P2 & P3). change (level (child_index i k0)) with (S (level i)) in *. rewrite CC in P2, P3. unfold below, at_edge. rewrite CC.
      change (level (child_index i k0)) with (S (level i)).
      replace (level l - level i)%nat with (S (level l - S (level i))) by lia. rewrite Nat.pow_succ_r'.
      pose proof (Nat.pow_nonzero 2 (level l - S (level i)) ltac:(lia)) as PZ.
      destruct (edge_arith _ _ _ (Nat.testbit k0 a) PZ P2 P3) as (Q1 & Q2 & Q3). split; [repeat split; [lia|exact Q1|exact Q2]|]. destruct s; [apply (Q3 true)|apply (Q3 false)]. }
    split.
    + apply Forall_app. split; [|exact B1]. eapply Forall_impl; [|exact B3]. intros l Hl. apply (Q l Hl).
    + rewrite map_app, Rsum_app, <- B2. unfold Rsum at 1. cbn [fold_right]. fold (Rsum (mapi_from (fun k c0 => if Bool.eqb (Nat.testbit k a) s then edge a f s (child_index i k) c0 else 0%R) (S k0) cs)).
      f_equal. rewrite Forall_forall in B3. destruct (Bool.eqb (Nat.testbit k0 a) s).
      * rewrite B4. f_equal. apply map_ext_in. intros l Hl. rewrite (proj2 (Q l (B3 l Hl))). reflexivity.
      * transitivity (Rsum (map (fun _ : idx => 0%R) (leaves (indexes_from (child_index i k0) c)))).
        -- generalize (leaves (indexes_from (child_index i k0) c)). induction l as [|l ls IHl]; [reflexivity|]. cbn [map]. unfold Rsum in *. cbn [fold_right]. rewrite <- IHl. lra.
        -- f_equal. apply map_ext_in. intros l Hl. rewrite (proj2 (Q l (B3 l Hl))). reflexivity.
Qed.

(** ** Trees as functions of the leaf addresses *)

Definition lk (t : tree (array R)) (i : idx) : array R := match at_ t i with Ok v => v | _ => mkarr [] (fun _ => UB) end.
Lemma leaves_lk t : wf_tree 2 t -> (depth t <= 31)%nat -> leaves t = map (lk t) (leaves (indexes 2 t)).
Proof.
  intros W D. pose proof (lookup_leaves 2 t W D) as F. induction F as [|i v l m H F IH]; [reflexivity|]. cbn [map]. rewrite IH. f_equal. unfold lk. rewrite H. reflexivity.
Qed.
Lemma lk_at t i : wf_tree 2 t -> (depth t <= 31)%nat -> In i (leaves (indexes 2 t)) -> at_ t i = Ok (lk t i) /\ In (lk t i) (leaves t).
Proof.
  intros W D H. destruct (Forall2_In_l _ _ _ _ (lookup_leaves 2 t W D) H) as (v & Hv & E). unfold lk. rewrite E. auto.
Qed.
Lemma shape_trans {A B C} (t : tree A) : forall (u : tree B) (v : tree C), same_shape t u -> same_shape u v -> same_shape t v.
Proof.
  induction t as [x|cs IH] using tree_ind'; intros u v H1 H2.
  - inversion H1; subst. inversion H2; subst. constructor.
  - inversion H1 as [|? ds F1]; subst. inversion H2 as [|? es F2]; subst. constructor. clear H1 H2. revert es F2 IH.
    induction F1 as [|c d cs ds Hc F1 IHF]; intros es F2 IH; inversion F2; subst; constructor; inversion IH; subst; eauto.
Qed.
Lemma shape_sym {A B} (t : tree A) : forall (u : tree B), same_shape t u -> same_shape u t.
Proof.
  induction t as [x|cs IH] using tree_ind'; intros u H1.
  - inversion H1; subst. constructor.
  - inversion H1 as [|? ds F1]; subst. constructor. clear H1. revert IH.
    induction F1 as [|c d cs ds Hc F1 IHF]; intros IH; constructor; inversion IH; subst; eauto.
Qed.
Lemma indexes_shape {A} (t : tree A) : forall i, same_shape (indexes_from i t) t.
Proof.
  induction t as [x|cs IH] using tree_ind'; intros i; [constructor|]. cbn [indexes_from]. constructor. unfold mapi. generalize 0%nat as k.
  induction cs as [|c cs IHc]; intros k; [constructor|]. inversion IH; subst. cbn [mapi_from]. constructor; auto.
Qed.

(** A tree made from the addresses of another. *)
Lemma built (t : tree (array R)) (g : idx -> array R) : wf_tree 2 t -> (depth t <= 31)%nat ->
  let u := tmap g (indexes 2 t) in
  same_shape t u /\ wf_tree 2 u /\ depth u = depth t /\ indexes 2 u = indexes 2 t /\ leaves u = map g (leaves (indexes 2 t)) /\
  forall i, In i (leaves (indexes 2 t)) -> at_ u i = Ok (g i).
Proof.
  intros W D u. assert (S1 : same_shape t u).
  { apply shape_sym. eapply shape_trans; [apply tmap_shape|]. apply indexes_shape. }
  destruct (same_shape_wf t u W S1) as [W' D']. pose proof (same_shape_indexes t u (root_index 2) S1) as EI. fold (indexes 2 u) in EI. fold (indexes 2 t) in EI.
  assert (LE : leaves u = map g (leaves (indexes 2 t))) by apply tmap_leaves.
  do 5 (split; [assumption|]). intros i Hi. pose proof (lookup_leaves 2 u W' ltac:(lia)) as F. rewrite EI, LE in F.
  clear - F Hi. induction (leaves (indexes 2 t)) as [|j l IH]; [destruct Hi|]. cbn [map] in F. inversion F; subst. destruct Hi as [->|Hi]; auto.
Qed.

Lemma Rsum_total {I} (F : I -> R) l : Rsum (map F l) = rtotal F l.
Proof. induction l as [|x l IH]; [reflexivity|]. cbn [map total]. rewrite <- IH. reflexivity. Qed.
Lemma combine_map {A B C} (f : A -> B) (g : A -> C) l : combine (map f l) (map g l) = map (fun x => (f x, g x)) l.
Proof. induction l; cbn; congruence. Qed.

(** ** One block *)
Lemma binary_reps (f : R -> R -> R) x y s X Y : reps x s X -> reps y s Y ->
  exists z, NdModel.binary_op f x y = Ok z /\ reps z s (fun i => f (X i) (Y i)).
Proof.
  intros [X1 X2] [Y1 Y2]. unfold NdModel.binary_op. rewrite X1, Y1, seq_eqb_refl. eexists. split; [reflexivity|]. split; [reflexivity|].
  intros i Hi. cbn [aget]. rewrite X2, Y2 by assumption. reflexivity.
Qed.

Lemma block_sum N (HN : 1 <= N) (HB : 2 * N + 2 < two64) dA u0 src fx fy dt i a u s x y :
  at_ dA i = Ok a -> at_ u0 i = Ok u -> at_ src i = Ok s -> at_ fx i = Ok x -> at_ fy i = Ok y ->
  full [N; N] a -> full [N; N] u -> full [N; N] s -> full [N + 1; N] x -> full [N; N + 1] y ->
  (forall p, inb [N; N] p -> val a p <> 0%R) ->
  exists v, block_update dA u0 src fx fy dt i = Ok v /\ full [N; N] v /\
    content N v a = (content N u a + content N s a - dt * ((L N 0 N x - L N 0 0 x) + (L N 1 N y - L N 1 0 y)))%R.
Proof.
  intros Ea Eu Es Ex Ey Fa Fu Fs Fx Fy HA. unfold block_update. rewrite Ea, Eu, Ex, Ey. bsimp.
  destruct (difference_reps N HN HB 0 ltac:(lia) x _ (full_reps _ _ Fx)) as (lx & E1 & R1).
  destruct (difference_reps N HN HB 1 ltac:(lia) y _ (full_reps _ _ Fy)) as (ly & E2 & R2).
  rewrite E1, E2, Es. bsimp.
  destruct (binary_reps Rplus _ _ _ _ _ R1 R2) as (l & E3 & R3). rewrite E3. bsimp.
  assert (R4 := R3). destruct R4 as [R4s R4v].
  assert (R5 : reps (arr_map (fun x => (x * dt)%R) l) [N; N] (fun i => ((val x (upd 0 (1 + nth 0 i 0)%Z i) - val x i + (val y (upd 1 (1 + nth 1 i 0)%Z i) - val y i)) * dt)%R)).
  { split; [exact R4s|]. intros p Hp. cbn [arr_map aget]. rewrite R4v by assumption. reflexivity. }
  destruct (binary_reps Rdiv _ _ _ _ _ R5 (full_reps _ _ Fa)) as (q & E6 & R6). rewrite E6. bsimp.
  destruct (binary_reps Rminus _ _ _ _ _ (full_reps _ _ Fu) R6) as (v & E7 & R7). rewrite E7. bsimp.
  destruct (binary_reps Rplus _ _ _ _ _ R7 (full_reps _ _ Fs)) as (w & E8 & R8). exists w. split; [exact E8|].
  pose proof (reps_full _ _ _ R8) as [F8 V8]. split; [exact F8|]. unfold content.
  pose proof (difference_sum N HN 0 ltac:(lia) (val x)) as DX. pose proof (difference_sum N HN 1 ltac:(lia) (val y)) as DY.
  unfold L. rewrite <- DX, <- DY.
  change (@rsum (list Z)) with (@total R 0%R Rplus (list Z)).
  assert (HI : forall p, In p (idxs [N; N]) -> inb [N; N] p) by (intros p; apply idxs_In).
  revert HI. generalize (idxs [N; N]) as ps. induction ps as [|p ps IH]; intros HI; cbn [total]; [lra|].
  rewrite IH by (intros; apply HI; right; assumption). rewrite V8 by (apply HI; left; reflexivity).
  pose proof (HA p (HI p (or_introl eq_refl))). field. assumption.
Qed.
