(** Sums over the mesh by block address; the parts of a step. *)
From Coq Require Import ZArith Reals Lra List Arith Bool Lia.
From Verif Require Import Base TreeModel TreeSpec TreeProofs TreeProofs3 TreeProofs4 BalanceModel BalanceSpec BalanceProofs NdModel NdSpec NdProofs NdProofs2 NdOpsModel NdOpsProofs ProlongProofs FluxModel FluxSpec FluxTreeProofs FluxProofs FluxProofs3 FluxProofs4 FluxProofs5
  GuardSpec GuardProofs2 MeshModel MeshSpec MeshProps StepModel StepSpec StepProofs StepProofs2 StepProofs3 StepProps TwoBodyModel HydroModel SourceModel SourceProofs SolutionModel SolutionSpec SolutionProofs.
Import ListNotations.
Open Scope Z_scope.

(** ** Sums by address *)
Definition look {A} (dflt : A) (t : tree A) (i : idx) : A := match at_ t i with Ok v => v | _ => dflt end.
Lemma leaves_look {A} (dflt : A) t : wf_tree 2 t -> (depth t <= 30)%nat -> leaves t = map (look dflt t) (leaves (indexes 2 t)).
Proof.
  intros W D. pose proof (lookup_leaves 2 t W ltac:(lia)) as F. induction F as [|i v l m H F IH]; [reflexivity|]. cbn [map]. rewrite IH. f_equal. unfold look. rewrite H. reflexivity.
Qed.
Lemma look_leaf {A} (dflt : A) t i v : is_node t i (Leaf v) -> look dflt t i = v.
Proof. intros H. unfold look. rewrite (leaf_at t i v H). reflexivity. Qed.
Lemma rsum_ext_in {I} (F G : I -> R) l : (forall i, In i l -> F i = G i) -> rsum F l = rsum G l.
Proof. induction l as [|i l IH]; intros H; [reflexivity|]. cbn [rsum]. rewrite H, IH; [reflexivity| |left; reflexivity]. intros j Hj. apply H. right. exact Hj. Qed.
Lemma rsum_through {I J} (f : I -> J) (F : J -> R) l : rsum F (map f l) = rsum (fun i => F (f i)) l.
Proof. induction l as [|i l IH]; [reflexivity|]. cbn [map rsum]. rewrite IH. reflexivity. Qed.
Lemma rsum_add {I} (F G : I -> R) l : rsum (fun i => F i + G i)%R l = (rsum F l + rsum G l)%R.
Proof. induction l as [|i l IH]; cbn [rsum]; [lra|]. rewrite IH. lra. Qed.
Lemma rsum_opp {I} (F : I -> R) l : rsum (fun i => - F i)%R l = (- rsum F l)%R.
Proof. induction l as [|i l IH]; cbn [rsum]; [lra|]. rewrite IH. lra. Qed.
Lemma rsum_mul {I} c (F : I -> R) l : rsum (fun i => c * F i)%R l = (c * rsum F l)%R.
Proof. induction l as [|i l IH]; cbn [rsum]; [lra|]. rewrite IH. lra. Qed.
Lemma rsum_nonneg {I} (F : I -> R) l : (forall i, In i l -> 0 <= F i)%R -> (0 <= rsum F l)%R.
Proof. induction l as [|i l IH]; intros H; cbn [rsum]; [lra|]. pose proof (H i (or_introl eq_refl)). assert (0 <= rsum F l)%R by (apply IH; intros j Hj; apply H; right; exact Hj). lra. Qed.

Definition block_held {A} (g : A -> R) (N : Z) (u : array A) (a : array R) : R := rsum (fun k => reading g u k * reading (fun x => x) a k)%R (idxs [N; N]).
Definition no_array {A} : array A := mkarr [] (fun _ => UB).

Lemma held_by_address {A B} g N (u : tree (array A)) dA (m : tree B) : wf_tree 2 m -> (depth m <= 30)%nat -> same_shape m u -> same_shape m dA ->
  held g N u dA = rsum (fun i => block_held g N (look no_array u i) (look no_array dA i)) (leaves (indexes 2 m)).
Proof.
  intros W D S1 S2. destruct (same_shape_wf m u W S1) as [W1 D1]. destruct (same_shape_wf m dA W S2) as [W2 D2]. unfold held.
  rewrite (leaves_look no_array u W1 ltac:(lia)), (leaves_look no_array dA W2 ltac:(lia)).
  unfold indexes. rewrite (same_shape_indexes m u (root_index 2) S1), (same_shape_indexes m dA (root_index 2) S2), combine_map, rsum_through. reflexivity.
Qed.
Lemma tsum_by_address {A B} (zero : A) add (g : A -> R) (t : tree A) (m : tree B) : g zero = 0%R -> (forall x y, g (add x y) = (g x + g y)%R) ->
  wf_tree 2 m -> (depth m <= 30)%nat -> same_shape m t -> g (tsum zero add t) = rsum (fun i => g (look zero t i)) (leaves (indexes 2 m)).
Proof.
  intros Z0 HA W D S1. destruct (same_shape_wf m t W S1) as [W1 D1]. rewrite (tsum_hom zero add g t Z0 HA), (leaves_look zero t W1 ltac:(lia)).
  unfold indexes. rewrite (same_shape_indexes m t (root_index 2) S1), rsum_through. reflexivity.
Qed.
Lemma held_content {A} (c : A -> R) N u dA : held c N u dA = mesh_content N (tmap (arr_map c) u) dA.
Proof.
  unfold held, mesh_content. rewrite tmap_leaves. generalize (leaves u) (leaves dA). induction l as [|b l IH]; intros [|a m]; [reflexivity|reflexivity|reflexivity|].
  cbn [map combine rsum]. rewrite IH. f_equal. unfold content, reading, val, arr_map. cbn [aget fst snd]. apply rsum_ext_in. intros k _.
  destruct (aget b k); cbn [bind]; reflexivity.
Qed.
Lemma block_held_reps {A} (g : A -> R) N u a U F : reps u [N; N] U -> reps a [N; N] F -> block_held g N u a = rsum (fun k => g (U k) * F k)%R (idxs [N; N]).
Proof. intros [_ H1] [_ H2]. apply rsum_ext_in. intros k Hk. apply idxs_In in Hk. unfold reading. rewrite H1, H2 by assumption. reflexivity. Qed.

Lemma tmap_leaf {A B} (f : A -> B) t i v : wf_tree 2 t -> is_node t i (Leaf v) -> is_node (tmap f t) i (Leaf (f v)).
Proof.
  intros W H. apply (is_node_path t W) in H. destruct H as (p & Hp & HL & -> & E). apply (is_node_path _ (tmap_wf 2 f t W)). exists p. rewrite node_path_tmap, E. auto.
Qed.
Lemma cell_data_map {A B C} N (m : tree C) (t : tree (array A)) (c : A -> B) : cell_data N m t -> cell_data N m (tmap (arr_map c) t).
Proof.
  intros [S1 F1]. split; [exact (shape_trans _ _ _ S1 (shape_sym _ _ (tmap_shape _ t)))|]. rewrite tmap_leaves. apply Forall_map. eapply Forall_impl; [|exact F1]. intros b [B1 B2].
  split; [exact B1|]. intros k Hk. destruct (B2 k Hk) as [x E]. cbn [arr_map aget]. rewrite E. cbn [bind]. eauto.
Qed.
Lemma foldM_ok {A B} (f : unit -> A -> outcome B) l : (forall x, In x l -> exists y, f tt x = Ok y) -> foldM (fun (_ : unit) x => do _ <- f tt x; Ok tt) tt l = Ok tt.
Proof.
  induction l as [|x l IH]; intros H; [reflexivity|]. cbn [foldM]. destruct (H x (or_introl eq_refl)) as [y ->]. cbn [bind]. apply IH. intros z Hz. apply H. right. exact Hz.
Qed.
Lemma forced_reps {A} N (a : array A) F : 1 <= N < 2147483647 -> reps a [N; N] F -> forced a = Ok a.
Proof.
  intros HN [S1 S2]. assert (HB : N < two64) by (apply Z.lt_trans with 2147483647; [lia|reflexivity]). unfold forced, volume_of. rewrite S1, for_each_shape.
  - rewrite (foldM_ok (fun _ i => aget a i)); [reflexivity|]. intros i Hi. apply idxs_In in Hi. rewrite S2 by assumption. eauto.
  - repeat constructor; lia.
  - discriminate.
  - lia.
Qed.


Lemma pair_leaf2 {A B} (t : tree A) (u : tree B) : wf_tree 2 t -> (depth t <= 30)%nat -> same_shape t u ->
  exists q, pair_trees t u = Ok q /\ same_shape t q /\ forall i v w, is_node t i (Leaf v) -> is_node u i (Leaf w) -> is_node q i (Leaf (v, w)).
Proof.
  intros W D SU. destruct (binary_op_ok pair t u SU) as (q & E & S1 & L). exists q. split; [exact E|]. apply shape_sym in S1. split; [exact S1|].
  destruct (same_shape_wf t q W S1) as [Wq Dq]. destruct (same_shape_wf t u W SU) as [Wu Du].
  intros i v w Hv Hw. apply node_at_leaf; [assumption|lia|apply Hv|]. pose proof (lookup_leaves 2 t W ltac:(lia)) as F1. pose proof (lookup_leaves 2 u Wu ltac:(lia)) as F3. pose proof (lookup_leaves 2 q Wq ltac:(lia)) as F2.
  assert (EI : indexes 2 q = indexes 2 t) by (unfold indexes; rewrite (same_shape_indexes t q _ S1); reflexivity).
  assert (EJ : indexes 2 u = indexes 2 t) by (unfold indexes; rewrite (same_shape_indexes t u _ SU); reflexivity).
  rewrite EI, L in F2. rewrite EJ in F3. pose proof (leaf_in t W i v Hv) as Hin. apply leaf_at in Hv. apply leaf_at in Hw. clear -F1 F2 F3 Hin Hv Hw.
  revert F2 Hin. revert F3. generalize (leaves u) as m2. induction F1 as [|j x l m Hj F1 IH]; intros m2 F3 F2 Hin; [destruct Hin|]. inversion F3 as [|? y ? m3 Hy F3']; subst. cbn [zipw] in F2. inversion F2; subst. destruct Hin as [->|Hin]; [|eapply IH; eassumption].
  rewrite Hj in Hv. rewrite Hy in Hw. injection Hv as <-. injection Hw as <-. assumption.
Qed.

Section Parts.
Variables (N : Z) (d : nat) (predicate : nat -> R -> bool) (fuel : nat) (sd : settings) (fd : fields).
Hypothesis HS : setup N d predicate fuel sd fd.
Let vt := vertices fd.

Lemma at_address {A} (t : tree (array A)) i : cell_data N vt t -> In i (leaves (indexes 2 vt)) -> exists b F, is_node t i (Leaf b) /\ reps b [N; N] F.
Proof.
  intros H Hi. destruct (mesh_facts N d predicate fuel sd fd HS) as (W & D & _ & _ & _). fold vt in W, D. destruct (in_leaf vt W D i Hi) as [v Hv].
  eapply data_leaf; eassumption.
Qed.
Lemma mapped {A B} (f : A -> outcome (array B)) (t : tree A) : same_shape vt t -> (forall i v, is_node t i (Leaf v) -> exists y F, f v = Ok y /\ reps y [N; N] F) ->
  exists p, tmapM f t = Ok p /\ cell_data N vt p /\ forall i v y, is_node t i (Leaf v) -> f v = Ok y -> is_node p i (Leaf y).
Proof.
  intros ST K. destruct (mesh_facts N d predicate fuel sd fd HS) as (W & D & _ & _ & _). fold vt in W, D. destruct (same_shape_wf _ _ W ST) as [W1 D1].
  destruct (tmapM_at f no_array t W1 ltac:(lia)) as (p & Ep & Sp & Kp); [intros i v Hi; destruct (K i v Hi) as (y & F & E & _); eauto|].
  exists p. split; [exact Ep|]. split; [|exact Kp]. split; [exact (shape_trans _ _ _ ST Sp)|]. destruct (same_shape_wf _ _ W1 Sp) as [W2 D2]. apply leaves_nodes; [assumption|lia|].
  intros i y Hi. destruct (shape_leaf p _ i y W2 (shape_sym _ _ Sp) Hi) as [v Hv]. destruct (K i v Hv) as (y' & F & E & RF).
  pose proof (is_node_unique p i _ _ Hi (Kp i v y' Hv E)) as X. injection X as ->. eapply reps_data; exact RF.
Qed.
Lemma mapped_idx {A B} (f : idx -> outcome (array B)) (t : tree A) : same_shape vt t -> (forall i v, is_node vt i (Leaf v) -> exists y F, f i = Ok y /\ reps y [N; N] F) ->
  exists p, tmapM f (indexes 2 t) = Ok p /\ cell_data N vt p /\ forall i y, In i (leaves (indexes 2 vt)) -> f i = Ok y -> is_node p i (Leaf y).
Proof.
  intros ST K. destruct (mesh_facts N d predicate fuel sd fd HS) as (W & D & _ & _ & _). fold vt in W, D.
  replace (indexes 2 t) with (indexes 2 vt) by (unfold indexes; rewrite (same_shape_indexes vt t _ ST); reflexivity).
  destruct (tmapM_idx f no_array vt W ltac:(lia)) as (p & Ep & Sp & Kp); [intros i v Hi; destruct (K i v Hi) as (y & F & E & _); eauto|].
  exists p. split; [exact Ep|]. split.
  - split; [exact Sp|]. destruct (same_shape_wf _ _ W Sp) as [W2 D2]. apply leaves_nodes; [assumption|lia|].
    intros i y Hi. destruct (shape_leaf p _ i y W2 (shape_sym _ _ Sp) Hi) as [v Hv]. destruct (K i v Hv) as (y' & F & E & RF).
    pose proof (is_node_unique p i _ _ Hi (Kp i v y' Hv E)) as X. injection X as ->. eapply reps_data; exact RF.
  - intros i y Hi E. destruct (in_leaf vt W D i Hi) as [v Hv]. eapply Kp; eassumption.
Qed.
Lemma mesh_leaf {A} (t : tree A) i v : same_shape vt t -> is_node t i (Leaf v) -> exists w, is_node vt i (Leaf w).
Proof.
  intros ST Hi. destruct (mesh_facts N d predicate fuel sd fd HS) as (W & D & _ & _ & _). fold vt in W, D. destruct (same_shape_wf _ _ W ST) as [W1 D1].
  exact (shape_leaf t vt i v W1 (shape_sym _ _ ST) Hi).
Qed.
Lemma data_reps_at {A} (t : tree (array A)) i v : cell_data N vt t -> is_node t i (Leaf v) -> exists F, reps v [N; N] F.
Proof.
  intros H Hi. destruct (mesh_leaf t i v (proj1 H) Hi) as [w Hw]. destruct (data_leaf N d predicate fuel sd fd HS _ i w H Hw) as (v' & F & Hv' & RF).
  pose proof (is_node_unique _ i _ _ Hi Hv') as X. injection X as <-. eauto.
Qed.

(** *** Recovering the primitive variables *)
Definition prim_at (x : R * R) (u : v3) : iprim :=
  if conserve_linear_p sd then IPrim (d0 u) (d1 u / d0 u) (d2 u / d0 u)
  else let s := d0 u in let sr := (d1 u / s)%R in let lz := (d2 u / s)%R in let r2 := (fst x * fst x + snd x * snd x)%R in
    IPrim s ((sr * fst x - lz * snd x) / r2) ((sr * snd x + lz * fst x) / r2).
Lemma recovered_cells s : on_mesh N sd fd s -> densities N (conserved sd s) -> exists p, recover_primitive sd fd s = Ok p /\ cell_data N vt p /\
  forall i v U, is_node (conserved sd s) i (Leaf v) -> reps v [N; N] U -> exists y, is_node p i (Leaf y) /\ reps y [N; N] (fun k => prim_at (cell_center N sd i k) (U k)).
Proof.
  intros HM HD. destruct (mesh_facts N d predicate fuel sd fd HS) as (W & D & _ & _ & _). fold vt in W, D. pose proof (su_size _ _ _ _ _ _ HS) as HN. unfold on_mesh, conserved, recover_primitive, prim_at in *. fold vt in HM.
  destruct (same_shape_wf _ _ W (proj1 HM)) as [W1 D1]. unfold densities in HD. rewrite Forall_forall in HD.
  destruct (conserve_linear_p sd).
  1: assert (C1 : forall i v U, is_node (conserved_u s) i (Leaf v) -> reps v [N; N] U -> let y := mkarr (ashape v) (fun k => do u <- aget v k; iso_recover u) in in_task (forced y) = Ok y /\ reps y [N; N] (fun k => IPrim (d0 (U k)) (d1 (U k) / d0 (U k)) (d2 (U k) / d0 (U k)))).
  1: { intros i v U Hi RU y. assert (RY : reps y [N; N] (fun k => IPrim (d0 (U k)) (d1 (U k) / d0 (U k)) (d2 (U k) / d0 (U k)))).
    { destruct RU as [S1 S2]. split; [exact S1|]. intros k Hk. unfold y. cbn [aget]. rewrite S2 by assumption. bsimp. unfold iso_recover.
      destruct (Rlt_dec (d0 (U k)) 0) as [X|X]; [|reflexivity]. exfalso. pose proof (HD v (node_leaves _ i v W1 Hi) k (U k) Hk (S2 k Hk)). lra. }
    split; [rewrite (forced_reps N _ _ HN RY); reflexivity|exact RY]. }
  - destruct (mapped (fun U : array v3 => in_task (forced (mkarr (ashape U) (fun i => do u <- aget U i; iso_recover u)))) _ (proj1 HM)) as (p & Ep & Dp & Kp); [|exists p; split; [exact Ep|split; [exact Dp|]]].
    + intros i v Hi. destruct (data_reps_at _ i v HM Hi) as [U RU]. destruct (C1 i v U Hi RU) as [E RY]. eauto.
    + intros i v U Hi RU. destruct (C1 i v U Hi RU) as [E RY]. eexists. split; [exact (Kp i v _ Hi E)|exact RY].
  - destruct (shapes N d predicate fuel sd fd HS) as (SA & SC & L). fold vt in SC, L.
    destruct (pair_leaf2 (conserved_q s) (cell_centers fd) W1 ltac:(lia) (shape_trans _ _ _ (shape_sym _ _ (proj1 HM)) SC)) as (q & Eq & Sq & Kq). rewrite Eq. bsimp.
    set (f := fun z : array v3 * array (R * R) => in_task (do QX <- zip2 (fst z) (snd z);
      forced (mkarr (ashape QX) (fun i => do w <- aget QX i; iso_recover_angmom (fst w) (fst (snd w)) (snd (snd w)))))).
    assert (C2 : forall i u U c, is_node (conserved_q s) i (Leaf u) -> reps u [N; N] U -> reps c [N; N] (cell_center N sd i) -> exists y, f (u, c) = Ok y /\ reps y [N; N] (fun k => let s := d0 (U k) in let sr := (d1 (U k) / s)%R in let lz := (d2 (U k) / s)%R in let x := fst (cell_center N sd i k) in let y := snd (cell_center N sd i k) in let r2 := (x * x + y * y)%R in
          IPrim s ((sr * x - lz * y) / r2) ((sr * y + lz * x) / r2))).
    { intros i u U c Hu RU Rc. unfold f. cbn [fst snd]. unfold zip2. destruct (binary_reps_gen pair u c _ _ _ RU Rc) as (qx & E & RQ). rewrite E. bsimp.
      assert (RY : reps (mkarr (ashape qx) (fun i0 => do w0 <- aget qx i0; iso_recover_angmom (fst w0) (fst (snd w0)) (snd (snd w0)))) [N; N] (fun k => let s := d0 (U k) in let sr := (d1 (U k) / s)%R in let lz := (d2 (U k) / s)%R in let x := fst (cell_center N sd i k) in let y := snd (cell_center N sd i k) in let r2 := (x * x + y * y)%R in
          IPrim s ((sr * x - lz * y) / r2) ((sr * y + lz * x) / r2))).
      { split; [exact (proj1 RQ)|]. intros k Hk. cbn [aget]. rewrite (proj2 RQ k Hk). bsimp. cbn [fst snd]. unfold iso_recover_angmom.
        destruct (Rlt_dec (d0 (U k)) 0) as [X|X]; [|reflexivity]. exfalso. pose proof (HD u (node_leaves _ i u W1 Hu) k (U k) Hk (proj2 RU k Hk)). lra. }
      eexists. split; [rewrite (forced_reps N _ _ HN RY); reflexivity|exact RY]. }
    destruct (mapped f q (shape_trans _ _ _ (proj1 HM) Sq)) as (p & Ep & Dp & Kp); [|exists p; split; [exact Ep|split; [exact Dp|]]].
    + intros i v Hi. destruct (mesh_leaf q i v (shape_trans _ _ _ (proj1 HM) Sq) Hi) as [w Hw]. destruct (L i w Hw) as (a & c & _ & Hc & _ & Rc).
      destruct (data_leaf N d predicate fuel sd fd HS _ i w HM Hw) as (u & U & Hu & RU).
      pose proof (is_node_unique _ i _ _ Hi (Kq i u c Hu Hc)) as X. injection X as ->. destruct (C2 i u U c Hu RU Rc) as (y & E & RY). eauto.
    + intros i u U Hu RU. destruct (mesh_leaf _ i u (proj1 HM) Hu) as [w Hw]. destruct (L i w Hw) as (a & c & _ & Hc & _ & Rc).
      destruct (C2 i u U c Hu RU Rc) as (y & E & RY). exists y. split; [exact (Kp i _ y (Kq i u c Hu Hc) E)|exact RY].
Qed.
Lemma recovered s : on_mesh N sd fd s -> densities N (conserved sd s) -> exists p, recover_primitive sd fd s = Ok p /\ cell_data N vt p.
Proof. intros HM HD. destruct (recovered_cells s HM HD) as (p & E & Dp & _). eauto. Qed.

(** *** Putting the three components together *)
Lemma joined3 t0 t1 t2 : cell_data N vt t0 -> cell_data N vt t1 -> cell_data N vt t2 ->
  exists u, join3 t0 t1 t2 = Ok u /\ cell_data N vt u /\ (forall dA, same_shape vt dA ->
    held d0 N u dA = mesh_content N t0 dA /\ held d1 N u dA = mesh_content N t1 dA /\ held d2 N u dA = mesh_content N t2 dA) /\
    forall i, In i (leaves (indexes 2 vt)) -> exists y a b c A B C, is_node u i (Leaf y) /\ is_node t0 i (Leaf a) /\ is_node t1 i (Leaf b) /\ is_node t2 i (Leaf c) /\
      reps a [N; N] A /\ reps b [N; N] B /\ reps c [N; N] C /\ reps y [N; N] (fun k => V3 (A k) (B k) (C k)).
Proof.
  intros H0 H1 H2. destruct (mesh_facts N d predicate fuel sd fd HS) as (W & D & _ & _ & _). fold vt in W, D.
  set (f := fun i => do a <- at_ t0 i; do b <- at_ t1 i; do c <- at_ t2 i; do bc <- zip2 b c; do abc <- zip2 a bc; Ok (arr_map (fun w : R * (R * R) => V3 (fst w) (fst (snd w)) (snd (snd w))) abc)).
  assert (K : forall i, In i (leaves (indexes 2 vt)) -> exists a b c y A B C, is_node t0 i (Leaf a) /\ is_node t1 i (Leaf b) /\ is_node t2 i (Leaf c) /\ reps a [N; N] A /\ reps b [N; N] B /\ reps c [N; N] C /\
    f i = Ok y /\ reps y [N; N] (fun k => V3 (A k) (B k) (C k))).
  { intros i Hi. destruct (at_address t0 i H0 Hi) as (a & A & Na & Ra). destruct (at_address t1 i H1 Hi) as (b & B & Nb & Rb). destruct (at_address t2 i H2 Hi) as (c & C & Nc & Rc).
    destruct (binary_reps_gen pair b c _ _ _ Rb Rc) as (bc & E1 & R1). destruct (binary_reps_gen pair a bc _ _ _ Ra R1) as (abc & E2 & R2).
    exists a, b, c, (arr_map (fun w : R * (R * R) => V3 (fst w) (fst (snd w)) (snd (snd w))) abc), A, B, C. do 6 (split; [assumption|]). split.
    - unfold f. rewrite (leaf_at _ _ _ Na), (leaf_at _ _ _ Nb), (leaf_at _ _ _ Nc). bsimp. unfold zip2. rewrite E1. bsimp. rewrite E2. reflexivity.
    - apply (map_reps (fun w : R * (R * R) => V3 (fst w) (fst (snd w)) (snd (snd w)))) in R2. exact R2. }
  destruct (mapped_idx f t0 (proj1 H0)) as (u & Eu & Du & Ku).
  { intros i v Hv. destruct (K i (leaf_in vt W i v Hv)) as (a & b & c & y & A & B & C & _ & _ & _ & _ & _ & _ & E & RY). eauto. }
  exists u. split; [exact Eu|]. split; [exact Du|]. split.
  2: { intros i Hi. destruct (K i Hi) as (a & b & c & y & A & B & C & Na & Nb & Nc & Ra & Rb & Rc & E & RY). exists y, a, b, c, A, B, C. split; [exact (Ku i y Hi E)|]. do 6 (split; [assumption|]). exact RY. }
  intros dA SdA.
  assert (Q : forall (g : v3 -> R) t, cell_data N vt t -> (forall i, In i (leaves (indexes 2 vt)) -> exists y b Y B, is_node u i (Leaf y) /\ is_node t i (Leaf b) /\ reps y [N; N] Y /\ reps b [N; N] B /\ forall k, g (Y k) = B k) -> held g N u dA = mesh_content N t dA).
  { intros g t Ht HQ. replace (mesh_content N t dA) with (held (fun x => x) N t dA).
    - rewrite (held_by_address g N u dA vt W D (proj1 Du) SdA), (held_by_address (fun x => x) N t dA vt W D (proj1 Ht) SdA). apply rsum_ext_in. intros i Hi.
      destruct (HQ i Hi) as (y & b & Y & B & Ny & Nb & RY & RB & E). rewrite (look_leaf _ _ _ _ Ny), (look_leaf _ _ _ _ Nb). apply rsum_ext_in. intros k Hk. apply idxs_In in Hk. unfold reading at 1 3.
      rewrite (proj2 RY k Hk), (proj2 RB k Hk), E. reflexivity.
    - reflexivity. }
  split; [|split]; (apply Q; [assumption|]); intros i Hi; destruct (K i Hi) as (a & b & c & y & A & B & C & Na & Nb & Nc & Ra & Rb & Rc & E & RY); pose proof (Ku i y Hi E) as Ny.
  - exists y, a, (fun k => V3 (A k) (B k) (C k)), A. split; [exact Ny|]. split; [exact Na|]. split; [exact RY|]. split; [exact Ra|]. reflexivity.
  - exists y, b, (fun k => V3 (A k) (B k) (C k)), B. split; [exact Ny|]. split; [exact Nb|]. split; [exact RY|]. split; [exact Rb|]. reflexivity.
  - exists y, c, (fun k => V3 (A k) (B k) (C k)), C. split; [exact Ny|]. split; [exact Nc|]. split; [exact RY|]. split; [exact Rc|]. reflexivity.
Qed.

(** *** The update of the conserved variables *)
Lemma updated safe flux p0 u0 src dt : cell_data N vt p0 -> cell_data N vt u0 -> cell_data N vt src ->
  exists u1, update3 sd fd fuel safe flux p0 u0 src dt = Ok u1 /\ cell_data N vt u1 /\
  forall c, c = d0 \/ c = d2 -> 
    (exists fx fy fxc fyc, face_fluxes prim_add (fun p => prim_mul p (1 / 2)) (plm_slope sd safe) (fun a l x p g h => c (flux a l x p g h)) fuel vt p0 = Ok (fx, fy) /\
      tmapM (correct_fluxes_x (@contains_compiled) fx) (indexes 2 fx) = Ok fxc /\ tmapM (correct_fluxes_y (@contains_compiled) fy) (indexes 2 fy) = Ok fyc /\
      (held c N u1 (cell_areas fd) = held c N u0 (cell_areas fd) + held c N src (cell_areas fd) - dt * (net_outflow N 0 fxc + net_outflow N 1 fyc))%R) /\
    (edges_alike (fun a l x p g h => c (flux a l x p g h)) (domain_radius sd) 0 -> edges_alike (fun a l x p g h => c (flux a l x p g h)) (domain_radius sd) 1 ->
      (held c N u1 (cell_areas fd) = held c N u0 (cell_areas fd) + held c N src (cell_areas fd))%R).
Proof.
  intros Hp Hu Hs. pose proof HS as HS'. destruct HS' as [s1 s2 s3 s4 s5 s6 s7 s8 s9 s10]. fold vt in s6, s7, s8. assert (Hr : domain_radius sd <> 0%R) by lra.
  assert (ST := fun c : v3 -> R => step_conserves prim_add (fun p => prim_mul p (1 / 2)) (plm_slope sd safe) (fun a l x p g h => c (flux a l x p g h)) predicate N d (domain_radius sd) fuel vt (cell_areas fd) p0 (tmap (arr_map c) u0) (tmap (arr_map c) src) dt
    s1 s3 s4 Hr s6 s7 Hp (cell_data_map N vt u0 c Hu) (cell_data_map N vt src c Hs)).
  assert (SA := fun c : v3 -> R => step_conserves_alike prim_add (fun p => prim_mul p (1 / 2)) (plm_slope sd safe) (fun a l x p g h => c (flux a l x p g h)) predicate N d (domain_radius sd) fuel vt (cell_areas fd) p0 (tmap (arr_map c) u0) (tmap (arr_map c) src) dt
    s1 s3 s4 Hr s6 s7 Hp (cell_data_map N vt u0 c Hu) (cell_data_map N vt src c Hs)).
  destruct (ST d0) as (fx0 & fy0 & fxc0 & fyc0 & t0 & F0 & X0 & Y0 & A0 & D0 & C0). destruct (ST d1) as (fx1 & fy1 & fxc1 & fyc1 & t1 & F1 & X1 & Y1 & A1 & D1 & C1). destruct (ST d2) as (fx2 & fy2 & fxc2 & fyc2 & t2 & F2 & X2 & Y2 & A2 & D2 & C2).
  destruct (joined3 t0 t1 t2 D0 D1 D2) as (u1 & EJ & DJ & HJ & _). exists u1. split.
  { unfold update3. fold vt. rewrite A0. bsimp. rewrite A1. bsimp. rewrite A2. bsimp. exact EJ. }
  split; [exact DJ|]. destruct (shapes N d predicate fuel sd fd HS) as (SdA & _ & _). destruct (HJ (cell_areas fd) SdA) as (J0 & J1 & J2).
  intros c [->| ->]; rewrite !held_content, <- held_content, ?J0, ?J2.
  - split; [exists fx0, fy0, fxc0, fyc0; rewrite C0; auto|]. intros E1 E2. destruct (SA d0 E1 E2) as (t' & A' & C'). rewrite A' in A0. apply ok_inj in A0. subst t'. exact C'.
  - split; [exists fx2, fy2, fxc2, fyc2; rewrite C2; auto|]. intros E1 E2. destruct (SA d2 E1 E2) as (t' & A' & C'). rewrite A' in A2. apply ok_inj in A2. subst t'. exact C'.
Qed.
End Parts.
