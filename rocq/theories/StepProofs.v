(** Lemmas: trees made leaf by leaf, and extension of blocks of any element type. *)
From Coq Require Import ZArith Reals Lra List Arith Bool Lia.
From Verif Require Import Base TreeModel TreeSpec TreeProofs TreeProofs2 TreeProofs3 TreeProofs4 BalanceModel BalanceSpec BalanceProofs
  NdModel NdSpec NdProofs NdProofs2 NdProofs3 NdOpsModel NdOpsProofs ProlongModel ProlongProofs FluxModel FluxTreeProofs FluxProofs FluxSpec FluxProofs3 FluxProofs4 FluxProofs5
  GuardModel GuardSpec GuardProofs GuardProofs2 GuardProofs3 GuardProofs4 MeshModel MeshSpec MeshProofs2 MeshProps StepModel.
Import ListNotations.
Open Scope Z_scope.

(** ** Trees made leaf by leaf *)
Lemma node_at_leaf {A} (t : tree A) i v : wf_tree 2 t -> (depth t <= 31)%nat -> in_range 2 i -> at_ t i = Ok v -> is_node t i (Leaf v).
Proof.
  intros W D Hi E. destruct (at_leaf_path t i v W D Hi E) as (p & Hp & -> & Ep). apply (is_node_path t W). exists p.
  repeat split; auto. apply depth_path in Ep. lia.
Qed.
Lemma leaf_at {A} (t : tree A) i v : is_node t i (Leaf v) -> at_ t i = Ok v.
Proof. intros (_ & _ & E). unfold at_. rewrite E. reflexivity. Qed.
Lemma leaf_path {A} (t : tree A) i v : wf_tree 2 t -> is_node t i (Leaf v) -> exists p, path_ok 2 p /\ (length p <= 31)%nat /\ i = addr 2 p /\ node_path p t = Some (Leaf v).
Proof. intros W H. exact (proj1 (is_node_path t W i _) H). Qed.

Lemma tmapM_at {A B} (f : A -> outcome B) (dflt : B) (t : tree A) : wf_tree 2 t -> (depth t <= 31)%nat ->
  (forall i v, is_node t i (Leaf v) -> exists y, f v = Ok y) ->
  exists u, tmapM f t = Ok u /\ same_shape t u /\ forall i v y, is_node t i (Leaf v) -> f v = Ok y -> is_node u i (Leaf y).
Proof.
  intros W D H. exists (tmap (fun x => or_else dflt (f x)) t).
  assert (K : forall x, In x (leaves t) -> exists y, f x = Ok y).
  { intros x Hx. destruct (leaf_has_path t x W Hx) as (p & Hp & Ep). apply (H (addr 2 p)). apply (is_node_path t W). exists p. repeat split; auto. apply depth_path in Ep. lia. }
  split; [apply tmapM_leaves; assumption|]. split; [apply shape_sym, tmap_shape|].
  intros i v y Hi E. apply (is_node_path t W) in Hi. destruct Hi as (p & Hp & HL & -> & Ep). apply is_node_path; [apply tmap_wf; assumption|].
  exists p. repeat split; auto. rewrite node_path_tmap, Ep. cbn [option_map tmap]. rewrite E. reflexivity.
Qed.

Lemma shape_leaf {A B} (t : tree A) (u : tree B) i v : wf_tree 2 t -> same_shape t u -> is_node t i (Leaf v) -> exists w, is_node u i (Leaf w).
Proof.
  intros W SS H. destruct (same_shape_wf t u W SS) as [Wu Du]. pose proof (leaf_in t W i v H) as Hin.
  assert (E : leaves (indexes 2 u) = leaves (indexes 2 t)) by (unfold indexes; rewrite (same_shape_indexes t u _ SS); reflexivity).
  rewrite <- E in Hin. apply in_indexes_iff in Hin; [|assumption]. destruct Hin as (p & w & Hp & Ei & Ep). exists w. apply (is_node_path u Wu). exists p.
  split; [assumption|]. split; [|split; [exact Ei|assumption]]. destruct H as (_ & HL & _). subst i. exact HL.
Qed.

Lemma index_leaf {A} (t : tree A) i v : wf_tree 2 t -> (depth t <= 31)%nat -> is_node t i (Leaf v) -> is_node (indexes 2 t) i (Leaf i).
Proof.
  intros W D H. assert (SS : same_shape t (indexes 2 t)) by apply shape_sym, indexes_shape.
  destruct (same_shape_wf t _ W SS) as [Wu Du]. destruct (shape_leaf t _ i v W SS H) as [w Hw].
  enough (w = i) by (subst; assumption).
  assert (E : indexes 2 (indexes 2 t) = indexes 2 t) by (unfold indexes at 1; rewrite (same_shape_indexes t (indexes 2 t) _ SS); reflexivity).
  pose proof (lookup_leaves 2 (indexes 2 t) Wu ltac:(lia)) as F. rewrite E in F. pose proof (leaf_in t W i v H) as Hin. apply leaf_at in Hw.
  clear - F Hin Hw. set (l := leaves (indexes 2 t)) in *. assert (G : forall l, Forall2 (fun i v => at_ (indexes 2 t) i = Ok v) l l -> In i l -> at_ (indexes 2 t) i = Ok i).
  { clear. induction l as [|x l IH]; intros HF HI; [destruct HI|]. inversion HF; subst. destruct HI as [->|HI]; auto. }
  rewrite (G l F Hin) in Hw. congruence.
Qed.

Lemma pair_leaf {A} (t : tree A) : wf_tree 2 t -> (depth t <= 31)%nat ->
  exists q, pair_indexes 2 t = Ok q /\ same_shape t q /\ forall i v, is_node t i (Leaf v) -> is_node q i (Leaf (i, v)).
Proof.
  intros W D. destruct (binary_op_ok (@pair idx A) (indexes 2 t) t (same_shape_indexes_from t _)) as (q & E & S1 & L).
  exists q. split; [exact E|]. assert (SS : same_shape t q) by (eapply shape_trans; [apply shape_sym, indexes_shape|apply shape_sym; exact S1]).
  split; [assumption|]. intros i v H. destruct (same_shape_wf t q W SS) as [Wq Dq].
  apply node_at_leaf; [assumption|lia|apply H|]. pose proof (lookup_leaves 2 t W D) as F1. pose proof (lookup_leaves 2 q Wq ltac:(lia)) as F2.
  assert (EI : indexes 2 q = indexes 2 t) by (unfold indexes; rewrite (same_shape_indexes t q _ SS); reflexivity).
  rewrite EI, L in F2. pose proof (leaf_in t W i v H) as Hin. apply leaf_at in H. clear -F1 F2 Hin H.
  revert F2 Hin. induction F1 as [|j w l m Hj F1 IH]; intros F2 Hin; [destruct Hin|]. cbn [zipw] in F2. inversion F2; subst. destruct Hin as [->|Hin]; [|auto].
  rewrite Hj in H. injection H as <-. assumption.
Qed.

Lemma tmapM_idx {A B} (f : idx -> outcome B) (dflt : B) (t : tree A) : wf_tree 2 t -> (depth t <= 31)%nat ->
  (forall i v, is_node t i (Leaf v) -> exists y, f i = Ok y) ->
  exists u, tmapM f (indexes 2 t) = Ok u /\ same_shape t u /\ forall i v y, is_node t i (Leaf v) -> f i = Ok y -> is_node u i (Leaf y).
Proof.
  intros W D H. assert (SS : same_shape t (indexes 2 t)) by apply shape_sym, indexes_shape. destruct (same_shape_wf t _ W SS) as [Wu Du].
  destruct (tmapM_at f dflt (indexes 2 t) Wu ltac:(lia)) as (u & E & S1 & K).
  - intros i j Hi. destruct (shape_leaf _ t i j Wu (indexes_shape t _) Hi) as [v Hv]. pose proof (index_leaf t i v W D Hv) as Hii.
    pose proof (is_node_unique _ _ _ _ Hi Hii) as X. injection X as ->. eauto.
  - exists u. split; [assumption|]. split; [eapply shape_trans; eassumption|]. intros i v y Hi Ey. eapply K; [eapply index_leaf; eassumption|assumption].
Qed.

Lemma inb2 n k : inb [n; n] k -> exists x y, k = [x; y] /\ 0 <= x < n /\ 0 <= y < n.
Proof.
  intros Hk. pose proof (inb_length _ _ Hk) as Lk. destruct k as [|x [|y [|z k]]]; try discriminate.
  pose proof (inb_nth 0 _ _ Hk ltac:(cbn; lia)) as K0. pose proof (inb_nth 1 _ _ Hk ltac:(cbn; lia)) as K1. cbn [nth] in K0, K1. eauto 6.
Qed.
Lemma inb2_intro n x y : 0 <= x < n -> 0 <= y < n -> inb [n; n] [x; y].
Proof. intros. repeat constructor; lia. Qed.

(** ** Blocks of any element type *)
Section Generic.
Context {A : Type} (add : A -> A -> A) (half : A -> A) (N : Z) (t : tree (array A)).
Hypothesis Hb : blocks 2 N t.
Hypothesis Hbal : balanced t.
Let W : wf_tree 2 t := b_wf 2 N t Hb.
Let Hd : (depth t <= 30)%nat := b_depth 2 N t Hb.
Let HN : 1 <= N /\ 4 * N + 4 < two64 := b_size 2 N t Hb.

Lemma leaf_reps i v : is_node t i (Leaf v) -> exists F, reps v [N; N] F.
Proof.
  intros H. apply (is_node_path t W) in H. destruct H as (p & _ & _ & _ & E).
  assert (HI : In v (leaves t)).
  { clear -E. revert t E. induction p as [|m p IH]; intros t E; cbn [node_path] in E; [injection E as ->; left; reflexivity|].
    destruct t as [|cs]; [discriminate|]. destruct (nth_error cs m) as [c|] eqn:Ec; [|discriminate].
    cbn [leaves]. apply in_flat_map. exists c. split; [eapply nth_error_In; eassumption|]. apply IH. assumption. }
  pose proof (b_shape 2 N t Hb) as HS. rewrite Forall_forall in HS. destruct (HS v HI) as [S1 S2].
  destruct (S2 [0; 0]) as [x0 _]; [repeat constructor; lia|].
  exists (fun k => match aget v k with Ok x => x | _ => x0 end). split; [exact S1|]. intros k Hk. destruct (S2 k Hk) as [x ->]. reflexivity.
Qed.

Lemma served_any a i j v : (a < 2)%nat -> is_node t i (Leaf v) -> next_on a i = Ok j \/ prev_on a i = Ok j ->
  (exists w, is_node t j (Leaf w)) \/
  (exists w0 w1 w2 w3, is_node t j (Node [Leaf w0; Leaf w1; Leaf w2; Leaf w3])) \/
  (exists w, is_node t (up 1 j) (Leaf w) /\ (forall n, ~ is_node t j n) /\ in_range 2 j /\ (0 < level j <= 31)%nat).
Proof.
  intros Ha Hi Hj. pose proof (is_node_facts t W i _ Hi) as [_ Hli]. cbn [depth] in Hli.
  assert (HR : in_range 2 j /\ level j = level i).
  { destruct Hj as [Hj|Hj].
    - destruct (next_prev 2 a i (proj1 Hi) Ha ltac:(lia)) as (j' & c & E' & R & L' & _). rewrite Hj in E'. injection E' as <-. auto.
    - destruct (prev_next 2 a i (proj1 Hi) Ha ltac:(lia)) as (j' & c & E' & R & L' & _). rewrite Hj in E'. injection E' as <-. auto. }
  destruct HR as [Rj Lj].
  assert (HC := match Hj with or_introl H => next_cases t W Hd Hbal a i j v Ha Hi H | or_intror H => prev_cases t W Hd Hbal a i j v Ha Hi H end).
  destruct HC as [(w & Nj & _)|[(w0 & w1 & w2 & w3 & Nj & _)|(w & Nu & Nn & _)]]; [left; eauto|right; left; eauto 6|right; right].
  exists w. do 3 (split; [assumption|]). split; [|lia]. destruct (level j) as [|l] eqn:El; [|lia]. exfalso.
  assert (E : up 1 j = j).
  { destruct j as [l c]. cbn [level] in El. subst l. unfold up. cbn [level coords]. f_equal. destruct Rj as [_ Rj]. cbn [level coords] in Rj. clear -Rj.
    induction Rj as [|x c Hx Rj IH]; [reflexivity|]. cbn [map]. rewrite IH. f_equal. cbn in Hx. replace x with 0%nat by lia. reflexivity. }
  rewrite E in Nu. exact (Nn _ Nu).
Qed.

(** A property of all cells that averaging two values keeps. *)
Definition stable (Q : A -> Prop) : Prop :=
  (forall x y, Q x -> Q y -> Q (half (add x y))) /\ forall i v k x, is_node t i (Leaf v) -> inb [N; N] k -> aget v k = Ok x -> Q x.
Lemma stable_leaf Q i v F : stable Q -> is_node t i (Leaf v) -> reps v [N; N] F -> forall k, inb [N; N] k -> Q (F k).
Proof. intros [_ H] Hi [_ HF] k Hk. eapply H; [exact Hi|exact Hk|]. apply HF. exact Hk. Qed.

(** Every neighbouring block is made; at a leaf it is that leaf's. *)
Lemma neighbour_any a i j v fuel post : (a < 2)%nat -> is_node t i (Leaf v) -> next_on a i = Ok j \/ prev_on a i = Ok j -> (depth t < fuel)%nat ->
  exists b F, get_cell_block (@contains_compiled (array A)) add half 2 fuel t j post = rethrow (post b) /\ reps b [N; N] F /\
    (forall w, is_node t j (Leaf w) -> b = w) /\ forall Q, stable Q -> forall k, inb [N; N] k -> Q (F k).
Proof.
  intros Ha Hi Hj Hfu. destruct (served_any a i j v Ha Hi Hj) as [(w & Hw)|[(w0 & w1 & w2 & w3 & Hw)|(w & Hw & Hno & Rj & Lj)]].
  - destruct (leaf_reps j w Hw) as [F HF]. exists w, F. split; [|split; [assumption|split; [intros w' Hw'; pose proof (is_node_unique t j _ _ Hw Hw') as X; injection X as ->; reflexivity|intros Q HQ; exact (stable_leaf Q j w F HQ Hw HF)]]].
    apply (is_node_path t W) in Hw. destruct Hw as (p & Hp & HL & -> & E). destruct fuel as [|fuel]; [lia|]. unfold get_cell_block. cbn [get_block].
    rewrite (contains_addr 2 t W) by assumption. rewrite E. bsimp. rewrite (proj2 (at_addr 2 t p W Hp HL w) E). bsimp. reflexivity.
  - pose proof (is_node_facts t W j _ Hw) as [_ Hlj]. cbn [depth map list_max fold_right Nat.max] in Hlj.
    assert (HC : forall k w, nth_error [w0; w1; w2; w3] k = Some w -> is_node t (child_index j k) (Leaf w)).
    { intros k w Ek. apply (is_node_child t W ltac:(lia) j _ k (Leaf w) Hw). change [Leaf w0; Leaf w1; Leaf w2; Leaf w3] with (map Leaf [w0; w1; w2; w3]). rewrite nth_error_map, Ek. reflexivity. }
    destruct (leaf_reps _ _ (HC 0%nat w0 eq_refl)) as [F0 R0]. destruct (leaf_reps _ _ (HC 1%nat w1 eq_refl)) as [F1 R1].
    destruct (leaf_reps _ _ (HC 2%nat w2 eq_refl)) as [F2 R2]. destruct (leaf_reps _ _ (HC 3%nat w3 eq_refl)) as [F3 R3].
    pose (F := fun q : list Z => let x := nth 0 q 0 in let y := nth 1 q 0 in
       if N <=? y then (if N <=? x then F3 [x - N; y - N] else F2 [x; y - N]) else (if N <=? x then F1 [x - N; y] else F0 [x; y])).
    assert (HG : forall b bs G, reps b [N; N] G -> (forall x y, 0 <= x < N -> 0 <= y < N -> G [x; y] = F (zipw (fun x (b : bool) => if b then N + x else x) [x; y] bs)) ->
       reps b (repeat N 2) (fun q => F (zipw (fun x (b : bool) => if b then N + x else x) q bs))).
    { intros b bs G HR HE. eapply reps_ext; [exact HR|]. intros q Hq. pose proof (inb_length _ _ Hq) as Lq. destruct q as [|x [|y [|z q]]]; try discriminate.
      pose proof (inb_nth 0 _ _ Hq ltac:(cbn; lia)) as K0. pose proof (inb_nth 1 _ _ Hq ltac:(cbn; lia)) as K1. cbn [nth] in K0, K1. apply HE; assumption. }
    destruct (combine_cells_vec 2 N ltac:(lia) [w0; w1; w2; w3] F) as (c & EC & RC).
    { change (map (bits 2) (seq 0 (2 ^ 2))) with [[false; false]; [true; false]; [false; true]; [true; true]].
      constructor; [|constructor; [|constructor; [|constructor; [|constructor]]]]; (eapply HG; [eassumption|]); intros x y Hx Hy; cbn [zipw]; unfold F; cbn [nth]; cbv zeta;
        repeat match goal with |- context [N <=? ?z] => destruct (Z.leb_spec N z); try lia end; repeat f_equal; lia. }
    destruct (coarsen_cells_vec add half 2 N ltac:(lia) c F RC) as (r & ER & RR).
    exists r. eexists. split; [|split; [exact RR|split; [intros w Hw'; pose proof (is_node_unique t j _ _ Hw Hw') as X; discriminate X|]]].
    2:{ intros Q HQ k Hk. destruct (inb2 N k Hk) as (x & y & -> & Hx & Hy).
        pose proof (stable_leaf Q _ _ _ HQ (HC 0%nat w0 eq_refl) R0) as Q0. pose proof (stable_leaf Q _ _ _ HQ (HC 1%nat w1 eq_refl) R1) as Q1.
        pose proof (stable_leaf Q _ _ _ HQ (HC 2%nat w2 eq_refl) R2) as Q2. pose proof (stable_leaf Q _ _ _ HQ (HC 3%nat w3 eq_refl) R3) as Q3.
        assert (QF : forall x y, 0 <= x < 2 * N -> 0 <= y < 2 * N -> Q (F [x; y])).
        { intros x' y' Hx' Hy'. unfold F. cbn [nth]. cbv zeta. destruct (Z.leb_spec N y'), (Z.leb_spec N x'); [apply Q3|apply Q2|apply Q1|apply Q0]; apply inb2_intro; lia. }
        unfold Rall. change (seq 0 2) with [0%nat; 1%nat]. cbn [fold_left]. unfold Rc. cbn [nth upd]. apply (proj1 HQ); apply (proj1 HQ); apply QF; lia. }
    destruct fuel as [|[|fuel]]; [lia|lia|]. pose proof Hw as Hw2. apply (is_node_path t W) in Hw2. destruct Hw2 as (p & Hp & HL & Ej & E).
    assert (HL0 : p <> []).
    { intros ->. cbn [node_path] in E. injection E as Et. assert (Hr : j = root_index 2) by (rewrite Ej; reflexivity).
      assert (L0 : level i = 0%nat).
      { pose proof (is_node_facts t W i _ Hi) as [_ Hli]. cbn [depth] in Hli. assert (L' : level j = level i).
        { destruct Hj as [Hj|Hj].
          - destruct (next_prev 2 a i (proj1 Hi) Ha ltac:(lia)) as (j' & c' & E' & _ & L' & _). rewrite Hj in E'. injection E' as <-. auto.
          - destruct (prev_next 2 a i (proj1 Hi) Ha ltac:(lia)) as (j' & c' & E' & _ & L' & _). rewrite Hj in E'. injection E' as <-. auto. }
        rewrite <- L', Hr. reflexivity. }
      destruct (two_coords i (proj1 Hi)) as (x & y & Ei & Bx & By). rewrite L0 in *. cbn in Bx, By. assert (x = 0%nat /\ y = 0%nat) as [-> ->] by lia.
      assert (Eij : i = j) by (rewrite Ei, Hr; reflexivity). rewrite Eij in Hi. pose proof (is_node_unique t j _ _ Hi Hw) as X. discriminate X. }
    destruct (path_snoc p HL0) as (q & k & Eq). assert (Hqk : path_ok 2 q /\ (k < 2 ^ 2)%nat).
    { rewrite Eq in Hp. apply Forall_app in Hp. destruct Hp as [H1 H2]. split; [assumption|exact (Forall_inv H2)]. }
    destruct Hqk as [Hq Hk]. assert (Enq : exists ds, node_path q t = Some (Node ds)).
    { rewrite Eq, node_path_app in E. destruct (node_path q t) as [[x|ds]|]; try discriminate. eauto. }
    destruct Enq as [ds Enq]. assert (Lq : (length q <= 31)%nat) by (rewrite Eq, app_length in HL; cbn in HL; lia).
    unfold get_cell_block. remember (S fuel) as f1. cbn [get_block]. rewrite Ej. rewrite (contains_addr 2 t W) by assumption. rewrite E. bsimp.
    rewrite Eq at 1. rewrite parent_addr by assumption. rewrite (contains_addr 2 t W) by assumption. rewrite Enq. bsimp.
    assert (EM : mapM (fun j0 => get_block (@contains_compiled (array A)) (refine_cells (seq 0 2)) (combine_cells (seq 0 2)) (coarsen_cells add half (seq 0 2)) f1 t j0 (fun b => Ok b))
               (child_indexes (addr 2 p)) = Ok [w0; w1; w2; w3]).
    { rewrite <- Ej. assert (EX : child_indexes j = [child_index j 0; child_index j 1; child_index j 2; child_index j 3]).
      { unfold child_indexes. rewrite (proj1 (proj1 Hw)). reflexivity. }
      rewrite EX. assert (G : forall k w, nth_error [w0; w1; w2; w3] k = Some w ->
        get_block (@contains_compiled (array A)) (refine_cells (seq 0 2)) (combine_cells (seq 0 2)) (coarsen_cells add half (seq 0 2)) f1 t (child_index j k) (fun b => Ok b) = Ok w).
      { intros m w Em. pose proof (HC m w Em) as HX. apply (is_node_path t W) in HX. destruct HX as (p' & Hp' & HL' & E1 & E2). rewrite E1, Heqf1. cbn [get_block].
        rewrite (contains_addr 2 t W) by assumption. rewrite E2. bsimp. rewrite (proj2 (at_addr 2 t p' W Hp' HL' w) E2). reflexivity. }
      cbn [mapM]. rewrite (G 0%nat w0 eq_refl), (G 1%nat w1 eq_refl), (G 2%nat w2 eq_refl), (G 3%nat w3 eq_refl). reflexivity. }
    rewrite EM. bsimp. rewrite EC. bsimp. rewrite ER. bsimp. reflexivity.
  - destruct (leaf_reps _ w Hw) as [F HF]. destruct (in_range_addr 2 j Rj) as (p & Hp & HLp & Ej).
    assert (HL0 : p <> []) by (intros ->; cbn in HLp; lia). destruct (path_snoc p HL0) as (q & k & Eq). assert (Hqk : path_ok 2 q /\ (k < 2 ^ 2)%nat).
    { rewrite Eq in Hp. apply Forall_app in Hp. destruct Hp as [H1 H2]. split; [assumption|exact (Forall_inv H2)]. }
    destruct Hqk as [Hq Hk]. assert (Lq : (length q <= 31)%nat) by (rewrite Eq, app_length in HLp; cbn in HLp; lia).
    assert (Eu : up 1 j = addr 2 q).
    { rewrite Ej, Eq. pose proof (parent_addr 2 q k Hq Hk) as PA. generalize dependent (addr 2 q). generalize (addr 2 (q ++ [k])). intros [l c] r PA. unfold parent_index in PA.
      cbn [level coords] in PA. destruct l as [|l]; [discriminate|]. injection PA as <-. unfold up. cbn [level coords]. f_equal. lia. }
    pose proof Hw as Hwn. rewrite Eu in Hw. apply (is_node_path t W) in Hw. destruct Hw as (q' & Hq' & _ & Ea & Ew). apply addr_inj in Ea; [|assumption|assumption]. subst q'.
    assert (En : node_path p t = None) by (rewrite Eq, node_path_app, Ew; reflexivity).
    destruct (refine_cells_vec 2 N ltac:(lia) w F HF) as (cs & ERf & RF).
    destruct (orthant_rel 2 q k Hq Hk) as (o & EO & EI).
    assert (exists c G, nth_error cs k = Some c /\ reps c [N; N] G /\ forall Q : A -> Prop, (forall k, inb [N; N] k -> Q (F k)) -> forall k, inb [N; N] k -> Q (G k)) as (c & G & Ec & Rc & Gc).
    { clear -RF Hk Hb. change (map (bits 2) (seq 0 (2 ^ 2))) with [bits 2 0; bits 2 1; bits 2 2; bits 2 3] in RF.
      assert (HX : exists bs, nth_error [bits 2 0; bits 2 1; bits 2 2; bits 2 3] k = Some bs).
      { destruct (nth_error [bits 2 0; bits 2 1; bits 2 2; bits 2 3] k) eqn:X; [eauto|]. apply nth_error_None in X. cbn in X, Hk. lia. }
      destruct HX as [bs HX]. destruct (forall2_nth_l _ _ _ RF k bs HX) as (c & Ec & Rc). exists c. eexists. split; [exact Ec|split; [exact Rc|]].
      intros Q HQ q Hq. cbv beta. destruct (inb2 N q Hq) as (x & y & -> & Hx & Hy). unfold Pall. change (seq 0 2) with [0%nat; 1%nat]. cbn [fold_left]. unfold Pc.
      assert (HB : exists b0 b1, bs = [b0; b1]) by (destruct k as [|[|[|[|k]]]]; [..|cbn in Hk; lia]; injection HX as <-; cbn; eauto).
      destruct HB as (b0 & b1 & ->). cbn [zipw nth upd]. apply HQ. apply inb2_intro; destruct b0, b1; (split; [apply Z.div_pos; lia|apply Z.div_lt_upper_bound; lia]). }
    exists c, G. split; [|split; [assumption|split; [intros w' Hw'; exfalso; exact (Hno _ Hw')|intros Q HQ; apply Gc; exact (stable_leaf Q _ _ _ HQ Hwn HF)]]].
    destruct fuel as [|fuel]; [lia|]. unfold get_cell_block. cbn [get_block]. rewrite Ej. rewrite (contains_addr 2 t W) by (auto; lia). rewrite En. bsimp.
    rewrite Eq at 1. rewrite parent_addr by assumption. rewrite (contains_addr 2 t W) by assumption. rewrite Ew. bsimp. rewrite Eq at 1. rewrite EO. bsimp.
    rewrite (proj2 (at_addr 2 t q W Hq Lq w) Ew). bsimp. rewrite ERf. bsimp. rewrite EI, Ec. bsimp. reflexivity.
Qed.
End Generic.
