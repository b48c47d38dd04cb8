(** Lemmas: one step of the mesh refinement sandbox, cell by cell. *)
From Coq Require Import ZArith Reals Lra Lia List Arith Bool.
From Verif Require Import Base RationalModel TreeModel TreeSpec TreeProofs TreeProofs2 TreeProofs3 TreeProofs4 BalanceModel BalanceSpec BalanceProofs
  NdModel NdSpec NdProofs NdProofs2 NdProofs3 NdOpsModel NdOpsProofs ProlongModel ProlongProofs FluxModel FluxTreeProofs FluxProofs FluxSpec FluxProofs2 FluxProofs3 FluxProofs4 FluxProofs5
  GuardModel GuardSpec GuardProofs GuardProofs2 GuardProofs3 GuardProofs4 MeshModel MeshSpec MeshProofs MeshProps StepModel StepSpec StepProofs StepProofs2 StepProofs3 AmrModel.
Import ListNotations.
Open Scope Z_scope.

(** Values of an array at every leaf of a mesh: [m] along the axis [a] and [n] across it. *)
Definition mesh_field {A B} (a : nat) (m0 : tree B) (t : tree (array A)) (m n : Z) (F : idx -> Z -> Z -> A) : Prop :=
  same_shape m0 t /\ forall i b, is_node t i (Leaf b) -> rep2 a b m n (F i).

Section Lift.
Context {B : Type} (m0 : tree B).
Hypothesis W : wf_tree 2 m0.
Hypothesis D : (depth m0 <= 30)%nat.

Lemma field_tree {A} a (t : tree (array A)) m n F : mesh_field a m0 t m n F -> wf_tree 2 t /\ (depth t <= 30)%nat.
Proof. intros [S _]. destruct (same_shape_wf m0 t W S) as [Wt Dt]. split; [assumption|lia]. Qed.
Lemma field_flip {A} a (t : tree (array A)) m n F : (a < 2)%nat -> mesh_field a m0 t m n F -> mesh_field (1 - a) m0 t n m (fun i x k => F i k x).
Proof. intros Ha [S H]. split; [assumption|]. intros i b Hi. apply rep2_flip; auto. Qed.
Lemma field_ext {A} a (t : tree (array A)) m n F G : mesh_field a m0 t m n F -> (forall i b x k, is_node t i (Leaf b) -> 0 <= x < m -> 0 <= k < n -> F i x k = G i x k) -> mesh_field a m0 t m n G.
Proof. intros [S H] E. split; [assumption|]. intros i b Hi. eapply rep2_ext; [apply H; exact Hi|]. intros. eapply E; eassumption. Qed.

Lemma lift_mapM {A C} (f : array A -> outcome (array C)) a a' (t : tree (array A)) m n m' n' F G : mesh_field a m0 t m n F ->
  (forall i b, is_node t i (Leaf b) -> exists c, f b = Ok c /\ rep2 a' c m' n' (G i)) ->
  exists t', tmapM f t = Ok t' /\ mesh_field a' m0 t' m' n' G.
Proof.
  intros HF H. destruct (field_tree _ _ _ _ _ HF) as [Wt Dt].
  destruct (tmapM_at f (mkarr [] (fun _ => UB)) t Wt ltac:(lia)) as (t' & E & S & K); [intros i v Hi; destruct (H i v Hi) as (c & Ec & _); eauto|].
  exists t'. split; [exact E|]. split; [exact (shape_trans _ _ _ (proj1 HF) S)|]. intros i c Hc. destruct (same_shape_wf t t' Wt S) as [Wt' Dt'].
  destruct (shape_leaf t' t i c Wt' (shape_sym _ _ S) Hc) as [b Hb]. destruct (H i b Hb) as (c' & Ec & R).
  pose proof (is_node_unique t' i _ _ Hc (K i b c' Hb Ec)) as X. injection X as ->. exact R.
Qed.

Lemma lift_map {A C} (f : A -> C) a (t : tree (array A)) m n F : mesh_field a m0 t m n F -> mesh_field a m0 (tmap (arr_map f) t) m n (fun i x k => f (F i x k)).
Proof.
  intros HF. destruct (field_tree _ _ _ _ _ HF) as [Wt Dt].
  assert (S : same_shape t (tmap (arr_map f) t)) by apply shape_sym, tmap_shape. split; [exact (shape_trans _ _ _ (proj1 HF) S)|].
  intros i c Hc. destruct (same_shape_wf t _ Wt S) as [Wt' Dt']. destruct (shape_leaf _ t i c Wt' (shape_sym _ _ S) Hc) as [b Hb].
  assert (Hc' : is_node (tmap (arr_map f) t) i (Leaf (arr_map f b))).
  { apply (is_node_path t Wt) in Hb. destruct Hb as (p & Hp & HL & -> & E). apply (is_node_path _ Wt'). exists p. do 3 (split; [auto|]). rewrite node_path_tmap, E. reflexivity. }
  pose proof (is_node_unique _ i _ _ Hc Hc') as X. injection X as ->. apply map_rep2. apply (proj2 HF). exact Hb.
Qed.

(** Two trees paired. *)
Lemma pair_at {A C} (t : tree A) (u : tree C) : wf_tree 2 t -> (depth t <= 31)%nat -> same_shape t u ->
  exists q, pair_trees t u = Ok q /\ same_shape t q /\ forall i a c, is_node t i (Leaf a) -> is_node u i (Leaf c) -> is_node q i (Leaf (a, c)).
Proof.
  intros Wt Dt S. destruct (binary_op_ok (@pair A C) t u S) as (q & E & S1 & L). apply shape_sym in S1. destruct (same_shape_wf t q Wt S1) as [Wq Dq].
  destruct (same_shape_wf t u Wt S) as [Wu Du].
  exists q. split; [exact E|]. split; [exact S1|]. intros i a c Ha Hc. apply node_at_leaf; [assumption|lia|apply Ha|].
  pose proof (lookup_leaves 2 t Wt Dt) as F1. pose proof (lookup_leaves 2 u Wu ltac:(lia)) as F2. pose proof (lookup_leaves 2 q Wq ltac:(lia)) as F3.
  assert (EQ : indexes 2 q = indexes 2 t) by (unfold indexes; rewrite (same_shape_indexes t q _ S1); reflexivity).
  assert (EU : indexes 2 u = indexes 2 t) by (unfold indexes; rewrite (same_shape_indexes t u _ S); reflexivity).
  rewrite EQ, L in F3. rewrite EU in F2. pose proof (leaf_in t Wt i a Ha) as Hin. apply leaf_at in Ha. apply leaf_at in Hc. clear -F1 F2 F3 Hin Ha Hc.
  revert F2 F3 Hin. generalize (leaves u) as mu. induction F1 as [|j w l m Hj F1 IH]; intros mu F2 F3 Hin; [destruct Hin|]. inversion F2; subst. cbn [zipw] in F3. inversion F3; subst.
  destruct Hin as [->|Hin]; [|eauto]. rewrite Hj in Ha. injection Ha as <-. match goal with H : at_ u i = Ok ?y |- _ => rewrite H in Hc; injection Hc as <- end. assumption.
Qed.

Lemma lift_op {T} (f : T -> T -> T) a t u m n F G : (a < 2)%nat -> mesh_field a m0 t m n F -> mesh_field a m0 u m n G ->
  exists r, tree_op f t u = Ok r /\ mesh_field a m0 r m n (fun i x k => f (F i x k) (G i x k)).
Proof.
  intros Ha HF HG. destruct (field_tree _ _ _ _ _ HF) as [Wt Dt]. assert (S : same_shape t u) by exact (shape_trans _ _ _ (shape_sym _ _ (proj1 HF)) (proj1 HG)).
  destruct (pair_at t u Wt ltac:(lia) S) as (q & E & Sq & K). destruct (same_shape_wf t q Wt Sq) as [Wq Dq].
  assert (Back : forall i z, is_node q i (Leaf z) -> exists b c, is_node t i (Leaf b) /\ is_node u i (Leaf c) /\ z = (b, c)).
  { intros i z Hz. destruct (shape_leaf q t i z Wq (shape_sym _ _ Sq) Hz) as [b Hb]. destruct (shape_leaf t u i b Wt S Hb) as [c Hc].
    exists b, c. do 2 (split; [assumption|]). pose proof (is_node_unique q i _ _ Hz (K i b c Hb Hc)) as X. injection X as ->. reflexivity. }
  unfold tree_op. rewrite E. bsimp.
  destruct (tmapM_at (fun z : array T * array T => NdModel.binary_op f (fst z) (snd z)) (mkarr [] (fun _ => UB)) q Wq ltac:(lia)) as (r & Er & Sr & Kr).
  { intros i z Hz. destruct (Back i z Hz) as (b & c & Hb & Hc & ->). cbn [fst snd]. destruct (binop_rep2 f a b c m n _ _ Ha (proj2 HF i b Hb) (proj2 HG i c Hc)) as (z & Ez & _). eauto. }
  exists r. split; [exact Er|]. split; [exact (shape_trans _ _ _ (proj1 HF) (shape_trans _ _ _ Sq Sr))|].
  intros i z Hz. destruct (same_shape_wf q r Wq Sr) as [Wr Dr]. destruct (shape_leaf r q i z Wr (shape_sym _ _ Sr) Hz) as [w Hw].
  destruct (Back i w Hw) as (b & c & Hb & Hc & ->). destruct (binop_rep2 f a b c m n _ _ Ha (proj2 HF i b Hb) (proj2 HG i c Hc)) as (z' & Ez & Rz).
  pose proof (is_node_unique r i _ _ Hz (Kr i _ z' Hw Ez)) as X. injection X as ->. exact Rz.
Qed.

(** A field for blocks that have one each. *)
Lemma field_of {A} (d : A) a (t : tree (array A)) m n : (a < 2)%nat -> same_shape m0 t -> (forall i b, is_node t i (Leaf b) -> exists F, rep2 a b m n F) -> exists F, mesh_field a m0 t m n F.
Proof.
  intros Ha S H. exists (fun i x k => match at_ t i with Ok b => match aget b (face a x k) with Ok y => y | _ => d end | _ => d end).
  split; [assumption|]. intros i b Hi. destruct (H i b Hi) as [F HF]. eapply rep2_ext; [exact HF|]. intros x k Hx Hk. rewrite (leaf_at t i b Hi). destruct HF as [_ HF]. rewrite HF by assumption. reflexivity.
Qed.
End Lift.

(** ** The extended blocks *)
Section Extend.
Context {T : Type} (add : T -> T -> T) (half : T -> T) (N : Z) (t : tree (array T)).
Hypothesis Hb : blocks 2 N t.
Hypothesis Hbal : balanced t.

Lemma own_block i v fuel : is_node t i (Leaf v) -> (0 < fuel)%nat -> get_cell_block (@contains_compiled (array T)) add half 2 fuel t i (fun b => Ok b) = Ok v.
Proof.
  intros Hi Hf. pose proof (b_wf 2 N t Hb) as W. apply (is_node_path t W) in Hi. destruct Hi as (p & Hp & HL & -> & E). destruct fuel as [|fuel]; [lia|]. unfold get_cell_block. cbn [get_block].
  rewrite (contains_addr 2 t W) by assumption. rewrite E. bsimp. rewrite (proj2 (at_addr 2 t p W Hp HL v) E). bsimp. reflexivity.
Qed.

Lemma extend_leaf_any a i v fuel : (a < 2)%nat -> is_node t i (Leaf v) -> (depth t < fuel)%nat ->
  exists e E G, extend_leaf add half fuel t a i = Ok e /\ rep2 a e (N + 2) N E /\ rep2 a v N N G /\
    (forall x k, 0 <= x < N -> 0 <= k < N -> E (x + 1) k = G x k) /\
    (forall j w H, prev_on a i = Ok j -> is_node t j (Leaf w) -> rep2 a w N N H -> forall k, 0 <= k < N -> E 0 k = H (N - 1) k) /\
    (forall Q, stable add half N t Q -> forall x k, 0 <= x < N + 2 -> 0 <= k < N -> Q (E x k)).
Proof.
  intros Ha Hi Hfu. pose proof (b_wf 2 N t Hb) as W. pose proof (b_depth 2 N t Hb) as Hd. pose proof (b_size 2 N t Hb) as [HN1 HN2].
  pose proof (is_node_facts t W i _ Hi) as [_ Hli]. cbn [depth] in Hli. destruct (leaf_reps N t Hb i v Hi) as [G0 RG].
  destruct (prev_next 2 a i (proj1 Hi) Ha ltac:(lia)) as (jl & cl & El & _). destruct (next_prev 2 a i (proj1 Hi) Ha ltac:(lia)) as (jr & cr & Er & _).
  destruct (neighbour_any add half N t Hb Hbal a i jl v fuel (fun b => Ok b) Ha Hi (or_intror El) Hfu) as (bl & FL & GL & RL & UL & QL).
  destruct (neighbour_any add half N t Hb Hbal a i jr v fuel (fun b => Ok b) Ha Hi (or_introl Er) Hfu) as (br & FR & GR & RR & UR & QR).
  rewrite (square_face N a Ha) in RL, RR, RG. destruct (face_facts a N N Ha) as (L1 & _ & N1 & _ & U1 & _).
  pose proof (ok_face a N N Ha ltac:(lia) ltac:(lia)) as OS.
  destruct (select_final_reps 1 a bl (face a N N) _ OS L1 ltac:(rewrite N1; lia) RL) as (sl & ESL & RSL).
  destruct (select_first_reps 1 a br (face a N N) _ OS L1 ltac:(rewrite N1; lia) RR) as (sr & ESR & RSR).
  rewrite N1 in RSL. pose proof RG as RG'. rewrite <- (U1 N) in RG.
  destruct (concat_reps a sl v (face a N N) 1 N _ _ OS L1 ltac:(lia) ltac:(lia) ltac:(lia) RSL RG) as (lc & ELC & RLC).
  destruct (concat_reps a lc sr (face a N N) (1 + N) 1 _ _ OS L1 ltac:(lia) ltac:(lia) ltac:(lia) RLC RSR) as (e & EE & RE).
  rewrite U1 in RE. apply reps_rep2 in RE; [|assumption]. apply reps_rep2 in RG'; [|assumption]. apply reps_rep2 in RL; [|assumption]. apply reps_rep2 in RR; [|assumption].
  exists e. eexists. eexists. split; [|split; [replace (N + 2) with (1 + N + 1) by lia; exact RE|split; [exact RG'|]]].
  - unfold extend_leaf. rewrite (own_block i v fuel Hi ltac:(lia)). bsimp. rewrite El. bsimp. rewrite GL. cbn [rethrow]. bsimp. rewrite ESL. bsimp. rewrite Er. bsimp. rewrite GR. cbn [rethrow]. bsimp.
    rewrite ESR. bsimp. rewrite ELC. bsimp. exact EE.
  - cbv beta. split; [|split].
    3:{ intros Q HQ x k Hx Hk. specialize (QL Q HQ). specialize (QR Q HQ). rewrite (square_face N a Ha) in QL, QR. destruct (face_facts a x k Ha) as (_ & _ & N2 & _ & U2 & _). rewrite !N2, !U2.
        destruct (Z.ltb_spec x (1 + N)).
        - destruct (Z.ltb_spec x 1); [apply QL; apply inb_face_intro; [assumption|lia|lia]|]. destruct RG' as [_ RG']. destruct HQ as [_ HQ]. eapply HQ; [exact Hi| |apply RG'; [|exact Hk]; lia].
          rewrite (square_face N a Ha). apply inb_face_intro; [assumption|lia|lia].
        - apply QR. apply inb_face_intro; [assumption|lia|lia]. }
    + intros x k Hx Hk. destruct (face_facts a (x + 1) k Ha) as (_ & _ & N2 & _ & U2 & _). rewrite !N2, !U2.
      destruct (Z.ltb_spec (x + 1) (1 + N)); [|lia]. destruct (Z.ltb_spec (x + 1) 1); [lia|]. f_equal. f_equal. lia.
    + intros j w H Ej Hw RH k Hk. destruct (face_facts a 0 k Ha) as (_ & _ & N2 & _ & U2 & _). rewrite !N2, !U2.
      destruct (Z.ltb_spec 0 (1 + N)); [|lia]. destruct (Z.ltb_spec 0 1); [|lia]. rewrite El in Ej. injection Ej as <-. rewrite (UL w Hw) in RL.
      replace (N - 1 + 0) with (N - 1) by lia. exact (rep2_same a w N N _ _ RL RH (N - 1) k ltac:(lia) Hk).
Qed.

Lemma extend_field (d : T) a fuel U : (a < 2)%nat -> (depth t < fuel)%nat -> mesh_field a t t N N U ->
  exists e E, extend_tree add half fuel t a = Ok e /\ mesh_field a t e (N + 2) N E /\
    (forall i v x k, is_node t i (Leaf v) -> 0 <= x < N -> 0 <= k < N -> E i (x + 1) k = U i x k) /\
    (forall i j v w k, is_node t i (Leaf v) -> is_node t j (Leaf w) -> prev_on a i = Ok j -> 0 <= k < N -> E i 0 k = U j (N - 1) k) /\
    (forall Q, stable add half N t Q -> forall i v x k, is_node t i (Leaf v) -> 0 <= x < N + 2 -> 0 <= k < N -> Q (E i x k)).
Proof.
  intros Ha Hfu HU. pose proof (b_wf 2 N t Hb) as W. pose proof (b_depth 2 N t Hb) as Hd.
  destruct (tmapM_idx (extend_leaf add half fuel t a) (mkarr [] (fun _ => UB)) t W ltac:(lia)) as (e & Ee & SS & K).
  { intros i v Hi. destruct (extend_leaf_any a i v fuel Ha Hi Hfu) as (b & _ & _ & Eb & _). eauto. }
  destruct (same_shape_wf t e W SS) as [We De].
  assert (Back : forall i b, is_node e i (Leaf b) -> exists v, is_node t i (Leaf v) /\ extend_leaf add half fuel t a i = Ok b).
  { intros i b Hib. destruct (shape_leaf e t i b We (shape_sym _ _ SS) Hib) as [v Hv]. exists v. split; [assumption|].
    destruct (extend_leaf_any a i v fuel Ha Hv Hfu) as (b' & _ & _ & Eb & _). pose proof (K i v b' Hv Eb) as Hb'.
    pose proof (is_node_unique e i _ _ Hib Hb') as X. injection X as ->. exact Eb. }
  destruct (field_of t d a e (N + 2) N Ha SS) as [E HE].
  { intros i b Hib. destruct (Back i b Hib) as (v & Hv & Eb). destruct (extend_leaf_any a i v fuel Ha Hv Hfu) as (b' & E' & _ & Eb' & R' & _). rewrite Eb in Eb'. injection Eb' as <-. eauto. }
  exists e, E. split; [exact Ee|]. split; [exact HE|].
  assert (Same : forall i v, is_node t i (Leaf v) -> exists E' G, rep2 a v N N G /\ (forall x k, 0 <= x < N + 2 -> 0 <= k < N -> E i x k = E' x k) /\
    (forall x k, 0 <= x < N -> 0 <= k < N -> E' (x + 1) k = G x k) /\
    (forall j w H, prev_on a i = Ok j -> is_node t j (Leaf w) -> rep2 a w N N H -> forall k, 0 <= k < N -> E' 0 k = H (N - 1) k) /\
    (forall Q, stable add half N t Q -> forall x k, 0 <= x < N + 2 -> 0 <= k < N -> Q (E' x k))).
  { intros i v Hi. destruct (extend_leaf_any a i v fuel Ha Hi Hfu) as (b & E' & G & Eb & R1 & R2 & X). exists E', G. split; [assumption|]. split; [|exact X].
    intros x k Hx Hk. exact (rep2_same a b (N + 2) N _ _ (proj2 HE i b (K i v b Hi Eb)) R1 x k Hx Hk). }
  split; [|split].
  - intros i v x k Hi Hx Hk. destruct (Same i v Hi) as (E' & G & RG & S1 & S2 & _). rewrite S1, S2 by lia. exact (rep2_same a v N N _ _ RG (proj2 HU i v Hi) x k Hx Hk).
  - intros i j v w k Hi Hj Hp Hk. destruct (Same i v Hi) as (E' & G & RG & S1 & _ & S3 & _). pose proof (b_size 2 N t Hb). rewrite S1 by lia. exact (S3 j w (U j) Hp Hj (proj2 HU j w Hj) k Hk).
  - intros Q HQ i v x k Hi Hx Hk. destruct (Same i v Hi) as (E' & G & RG & S1 & _ & _ & S4). rewrite S1 by assumption. exact (S4 Q HQ x k Hx Hk).
Qed.
End Extend.
