(** Lemmas: arrays of two axes seen along one of them, extended blocks, and the face fluxes made from them. *)
From Coq Require Import ZArith Reals Lra List Arith Bool Lia.
From Verif Require Import Base TreeModel TreeSpec TreeProofs TreeProofs2 TreeProofs3 TreeProofs4 BalanceModel BalanceSpec BalanceProofs
  NdModel NdSpec NdProofs NdProofs2 NdProofs3 NdOpsModel NdOpsProofs ProlongModel ProlongProofs FluxModel FluxTreeProofs FluxProofs FluxSpec FluxProofs3 FluxProofs4 FluxProofs5
  GuardModel GuardSpec GuardProofs GuardProofs2 GuardProofs3 GuardProofs4 MeshModel MeshSpec MeshProofs2 MeshProps StepModel StepProofs.
Import ListNotations.
Open Scope Z_scope.

(** ** Arrays of two axes seen along one of them *)
Definition rep2 {A} (a : nat) (b : array A) (m n : Z) (F : Z -> Z -> A) : Prop :=
  ashape b = face a m n /\ forall x k, 0 <= x < m -> 0 <= k < n -> aget b (face a x k) = Ok (F x k).
Definition fun2 {A} (a : nat) (F : Z -> Z -> A) (q : list Z) : A := F (nth a q 0) (nth (1 - a) q 0).

Lemma two_axes a : (a < 2)%nat -> a = 0%nat \/ a = 1%nat.
Proof. lia. Qed.
Ltac axes H := destruct (two_axes _ H) as [->| ->].

Lemma inb_face a m n q : (a < 2)%nat -> inb (face a m n) q -> exists x k, q = face a x k /\ 0 <= x < m /\ 0 <= k < n.
Proof.
  intros Ha Hq. pose proof (inb_length _ _ Hq) as Lq. assert (L2 : length q = 2%nat) by (axes Ha; symmetry; exact Lq). destruct q as [|x [|y [|z q]]]; try discriminate.
  pose proof (inb_nth 0 _ _ Hq ltac:(axes Ha; cbn; lia)) as K0. pose proof (inb_nth 1 _ _ Hq ltac:(axes Ha; cbn; lia)) as K1.
  axes Ha; cbn in K0, K1; [exists x, y|exists y, x]; (split; [reflexivity|split; assumption]).
Qed.
Lemma inb_face_intro a m n x k : (a < 2)%nat -> 0 <= x < m -> 0 <= k < n -> inb (face a m n) (face a x k).
Proof. intros Ha H1 H2. axes Ha; repeat constructor; lia. Qed.
Lemma fun2_face {A} a (F : Z -> Z -> A) x k : (a < 2)%nat -> fun2 a F (face a x k) = F x k.
Proof. intros Ha. axes Ha; reflexivity. Qed.
Lemma reps_rep2 {A} a (b : array A) m n F : (a < 2)%nat -> reps b (face a m n) F -> rep2 a b m n (fun x k => F (face a x k)).
Proof. intros Ha [H1 H2]. split; [exact H1|]. intros x k Hx Hk. apply H2. apply inb_face_intro; assumption. Qed.
Lemma rep2_reps {A} a (b : array A) m n F : (a < 2)%nat -> rep2 a b m n F -> reps b (face a m n) (fun2 a F).
Proof. intros Ha [H1 H2]. split; [exact H1|]. intros q Hq. destruct (inb_face a m n q Ha Hq) as (x & k & -> & Hx & Hk). rewrite fun2_face by assumption. auto. Qed.
Lemma rep2_ext {A} a (b : array A) m n F G : rep2 a b m n F -> (forall x k, 0 <= x < m -> 0 <= k < n -> F x k = G x k) -> rep2 a b m n G.
Proof. intros [H1 H2] E. split; [exact H1|]. intros x k Hx Hk. rewrite <- E by assumption. auto. Qed.
Lemma rep2_flip {A} a (b : array A) m n F : (a < 2)%nat -> rep2 a b m n F -> rep2 (1 - a) b n m (fun x k => F k x).
Proof. intros Ha [H1 H2]. axes Ha; (split; [exact H1|]); intros x k Hx Hk; exact (H2 k x Hk Hx). Qed.
Lemma rep2_same {A} a (b : array A) m n F G : rep2 a b m n F -> rep2 a b m n G -> forall x k, 0 <= x < m -> 0 <= k < n -> F x k = G x k.
Proof. intros [_ H1] [_ H2] x k Hx Hk. pose proof (H1 x k Hx Hk) as E. rewrite (H2 x k Hx Hk) in E. congruence. Qed.

Lemma ok_face a m n : (a < 2)%nat -> 0 <= m < two64 -> 0 <= n < two64 -> okshape (face a m n).
Proof. intros Ha H1 H2. axes Ha; apply ok2; assumption. Qed.
Lemma face_facts a x k : (a < 2)%nat -> (a < length (face a x k))%nat /\ (1 - a < length (face a x k))%nat /\ nth a (face a x k) 0 = x /\ nth (1 - a) (face a x k) 0 = k /\
  (forall y, upd a y (face a x k) = face a y k) /\ (forall y, upd (1 - a) y (face a x k) = face a x y).
Proof. intros Ha. axes Ha; cbn; repeat split; try lia. Qed.

Lemma zip_rep2 {A B} a (b : array A) (c : array B) m n F G : (a < 2)%nat -> rep2 a b m n F -> rep2 a c m n G ->
  exists z, zip2 b c = Ok z /\ rep2 a z m n (fun x k => (F x k, G x k)).
Proof.
  intros Ha H1 H2. destruct (binary_reps_gen pair b c _ _ _ (rep2_reps a b m n F Ha H1) (rep2_reps a c m n G Ha H2)) as (z & E & R).
  exists z. split; [exact E|]. apply reps_rep2 in R; [|assumption]. eapply rep2_ext; [exact R|]. intros x k _ _. cbv beta. rewrite !fun2_face by assumption. reflexivity.
Qed.
Lemma binop_rep2 {A B C} (f : A -> B -> C) a (b : array A) (c : array B) m n F G : (a < 2)%nat -> rep2 a b m n F -> rep2 a c m n G ->
  exists z, NdModel.binary_op f b c = Ok z /\ rep2 a z m n (fun x k => f (F x k) (G x k)).
Proof.
  intros Ha H1 H2. destruct (binary_reps_gen f b c _ _ _ (rep2_reps a b m n F Ha H1) (rep2_reps a c m n G Ha H2)) as (z & E & R).
  exists z. split; [exact E|]. apply reps_rep2 in R; [|assumption]. eapply rep2_ext; [exact R|]. intros x k _ _. cbv beta. rewrite !fun2_face by assumption. reflexivity.
Qed.
Lemma map_rep2 {A B} (f : A -> B) a b m n F : rep2 a b m n F -> rep2 a (arr_map f b) m n (fun x k => f (F x k)).
Proof. intros [H1 H2]. split; [exact H1|]. intros x k Hx Hk. cbn [arr_map aget]. rewrite H2 by assumption. reflexivity. Qed.

(** A range of layers. *)
Lemma layers_rep2 {A} a (b : array A) m n F s f : (a < 2)%nat -> 0 <= m < two64 -> 0 <= n < two64 -> 0 <= s -> 0 <= f -> s + f <= m -> rep2 a b m n F ->
  exists z, select_axis a s f 1 true b = Ok z /\ rep2 a z (m - f - s) n (fun x k => F (s + x) k).
Proof.
  intros Ha Hm Hn Hs Hf Hsf HR. apply rep2_reps in HR; [|assumption]. destruct (face_facts a m n Ha) as (L1 & _ & N1 & _ & U1 & _).
  destruct (select_unit_reps a s f (m - f) true b (face a m n) _ (ok_face a m n Ha Hm Hn) L1 HR) as (z & E & R).
  - rewrite N1. apply w64_small. lia.
  - lia.
  - rewrite N1. lia.
  - exists z. split; [exact E|]. rewrite U1 in R. apply reps_rep2 in R; [|assumption]. eapply rep2_ext; [exact R|]. intros x k Hx Hk. cbv beta.
    destruct (face_facts a x k Ha) as (_ & _ & N2 & _ & U2 & _). rewrite N2, U2, fun2_face by assumption. reflexivity.
Qed.

Lemma adjacent2_rep2 {A} a (b : array A) m n F : (a < 2)%nat -> 1 <= m < two64 -> 0 <= n < two64 -> rep2 a b m n F ->
  exists z, zip_adjacent2_on_axis a b = Ok z /\ rep2 a z (m - 1) n (fun x k => (F x k, F (1 + x) k)).
Proof.
  intros Ha Hm Hn HR. unfold zip_adjacent2_on_axis. destruct (layers_rep2 a b m n F 0 1 Ha ltac:(lia) Hn ltac:(lia) ltac:(lia) ltac:(lia) HR) as (l & E1 & R1).
  destruct (layers_rep2 a b m n F 1 0 Ha ltac:(lia) Hn ltac:(lia) ltac:(lia) ltac:(lia) HR) as (r & E2 & R2). rewrite E1, E2. bsimp.
  replace (m - 1 - 0) with (m - 1) in R1 by lia. replace (m - 0 - 1) with (m - 1) in R2 by lia.
  destruct (zip_rep2 a l r _ _ _ _ Ha R1 R2) as (z & E & R). exists z. split; [exact E|]. eapply rep2_ext; [exact R|]. intros; reflexivity.
Qed.
Lemma adjacent3_rep2 {A} a (b : array A) m n F : (a < 2)%nat -> 2 <= m < two64 -> 0 <= n < two64 -> rep2 a b m n F ->
  exists z, zip_adjacent3_on_axis a b = Ok z /\ rep2 a z (m - 2) n (fun x k => (F x k, (F (1 + x) k, F (2 + x) k))).
Proof.
  intros Ha Hm Hn HR. unfold zip_adjacent3_on_axis. destruct (layers_rep2 a b m n F 0 2 Ha ltac:(lia) Hn ltac:(lia) ltac:(lia) ltac:(lia) HR) as (l & E1 & R1).
  destruct (layers_rep2 a b m n F 1 1 Ha ltac:(lia) Hn ltac:(lia) ltac:(lia) ltac:(lia) HR) as (c & E2 & R2).
  destruct (layers_rep2 a b m n F 2 0 Ha ltac:(lia) Hn ltac:(lia) ltac:(lia) ltac:(lia) HR) as (r & E3 & R3). rewrite E1, E2, E3. bsimp.
  replace (m - 2 - 0) with (m - 2) in R1 by lia. replace (m - 1 - 1) with (m - 2) in R2 by lia. replace (m - 0 - 2) with (m - 2) in R3 by lia.
  destruct (zip_rep2 a c r _ _ _ _ Ha R2 R3) as (cr & E4 & R4). rewrite E4. bsimp.
  destruct (zip_rep2 a l cr _ _ _ _ Ha R1 R4) as (z & E & R). exists z. split; [exact E|]. eapply rep2_ext; [exact R|]. intros; reflexivity.
Qed.
Lemma difference_rep2 {A} (sub : A -> A -> A) a (b : array A) m n F : (a < 2)%nat -> 0 <= m < two64 -> 1 <= n < two64 -> rep2 a b m n F ->
  exists z, difference_on_axis sub (1 - a) b = Ok z /\ rep2 a z m (n - 1) (fun x k => sub (F x (1 + k)) (F x k)).
Proof.
  intros Ha Hm Hn HR. apply rep2_reps in HR; [|assumption]. destruct (face_facts a m n Ha) as (_ & L1 & _ & N1 & _ & U1).
  destruct (difference_reps_gen sub (1 - a) b _ _ (ok_face a m n Ha Hm ltac:(lia)) L1 ltac:(rewrite N1; lia) HR) as (z & E & R). exists z. split; [exact E|].
  rewrite N1, U1 in R. apply reps_rep2 in R; [|assumption]. eapply rep2_ext; [exact R|]. intros x k Hx Hk. cbv beta.
  destruct (face_facts a x k Ha) as (_ & _ & _ & N2 & _ & U2). rewrite N2, U2, !fun2_face by assumption. reflexivity.
Qed.
Lemma midpoint_rep2 {A} (add : A -> A -> A) half a (b : array A) m n F : (a < 2)%nat -> 0 <= m < two64 -> 1 <= n < two64 -> rep2 a b m n F ->
  exists z, midpoint_on_axis add half (1 - a) b = Ok z /\ rep2 a z m (n - 1) (fun x k => half (add (F x k) (F x (1 + k)))).
Proof.
  intros Ha Hm Hn HR. apply rep2_reps in HR; [|assumption]. destruct (face_facts a m n Ha) as (_ & L1 & _ & N1 & _ & U1).
  destruct (midpoint_reps add half (1 - a) b _ _ (ok_face a m n Ha Hm ltac:(lia)) L1 ltac:(rewrite N1; lia) HR) as (z & E & R). exists z. split; [exact E|].
  rewrite N1, U1 in R. apply reps_rep2 in R; [|assumption]. eapply rep2_ext; [exact R|]. intros x k Hx Hk. cbv beta.
  destruct (face_facts a x k Ha) as (_ & _ & _ & N2 & _ & U2). rewrite N2, U2, !fun2_face by assumption. reflexivity.
Qed.

(** ** Extended blocks *)
(** Blocks of one tree, with one layer more on both sides along the axis, that agree where a leaf follows a leaf. *)
Definition seamless {A} (N : Z) (a : nat) (e : tree (array A)) : Prop :=
  (forall i b, is_node e i (Leaf b) -> exists E, rep2 a b (N + 2) N E) /\
  forall i j b c, is_node e i (Leaf b) -> is_node e j (Leaf c) -> next_on a i = Ok j -> forall k, 0 <= k < N ->
    aget b (face a N k) = aget c (face a 0 k) /\ aget b (face a (N + 1) k) = aget c (face a 1 k).

Section Extended.
Context {A : Type} (add : A -> A -> A) (half : A -> A) (N : Z) (t : tree (array A)).
Hypothesis Hb : blocks 2 N t.
Hypothesis Hbal : balanced t.

Lemma square_face a : (a < 2)%nat -> [N; N] = face a N N.
Proof. intros Ha. axes Ha; reflexivity. Qed.

Lemma extend_block_any a i v fuel : (a < 2)%nat -> is_node t i (Leaf v) -> (depth t < fuel)%nat ->
  exists e E G, extend_block (@contains_compiled (array A)) add half fuel t a 1 i = Ok e /\ rep2 a e (N + 2) N E /\ rep2 a v N N G /\
    (forall x k, 0 <= x < N -> 0 <= k < N -> E (x + 1) k = G x k) /\
    (forall j w H, next_on a i = Ok j -> is_node t j (Leaf w) -> rep2 a w N N H -> forall k, 0 <= k < N -> E (N + 1) k = H 0 k) /\
    (forall j w H, prev_on a i = Ok j -> is_node t j (Leaf w) -> rep2 a w N N H -> forall k, 0 <= k < N -> E 0 k = H (N - 1) k) /\
    (forall Q, stable add half N t Q -> forall x k, 0 <= x < N + 2 -> 0 <= k < N -> Q (E x k)).
Proof.
  intros Ha Hi Hfu. pose proof (b_wf 2 N t Hb) as W. pose proof (b_depth 2 N t Hb) as Hd. pose proof (b_size 2 N t Hb) as [HN1 HN2].
  pose proof (is_node_facts t W i _ Hi) as [_ Hli]. cbn [depth] in Hli. destruct (leaf_reps N t Hb i v Hi) as [G0 RG].
  destruct (prev_next 2 a i (proj1 Hi) Ha ltac:(lia)) as (jl & cl & El & _). destruct (next_prev 2 a i (proj1 Hi) Ha ltac:(lia)) as (jr & cr & Er & _).
  destruct (neighbour_any add half N t Hb Hbal a i jl v fuel (select_final 1 a) Ha Hi (or_intror El) Hfu) as (bl & FL & GL & RL & UL & QL).
  destruct (neighbour_any add half N t Hb Hbal a i jr v fuel (select_first 1 a) Ha Hi (or_introl Er) Hfu) as (br & FR & GR & RR & UR & QR).
  rewrite (square_face a Ha) in RL, RR, RG. destruct (face_facts a N N Ha) as (L1 & _ & N1 & _ & U1 & _).
  pose proof (ok_face a N N Ha ltac:(lia) ltac:(lia)) as OS.
  destruct (select_final_reps 1 a bl (face a N N) _ OS L1 ltac:(rewrite N1; lia) RL) as (sl & ESL & RSL).
  destruct (select_first_reps 1 a br (face a N N) _ OS L1 ltac:(rewrite N1; lia) RR) as (sr & ESR & RSR).
  rewrite N1 in RSL. pose proof RG as RG'. rewrite <- (U1 N) in RG.
  destruct (concat_reps a sl v (face a N N) 1 N _ _ OS L1 ltac:(lia) ltac:(lia) ltac:(lia) RSL RG) as (lc & ELC & RLC).
  destruct (concat_reps a lc sr (face a N N) (1 + N) 1 _ _ OS L1 ltac:(lia) ltac:(lia) ltac:(lia) RLC RSR) as (e & EE & RE).
  rewrite U1 in RE. apply reps_rep2 in RE; [|assumption]. apply reps_rep2 in RG'; [|assumption]. apply reps_rep2 in RL; [|assumption]. apply reps_rep2 in RR; [|assumption].
  exists e. eexists. eexists. split; [|split; [replace (N + 2) with (1 + N + 1) by lia; exact RE|split; [exact RG'|]]].
  - unfold extend_block. rewrite (leaf_at t i v Hi). bsimp. rewrite El. bsimp. rewrite GL, ESL. cbn [rethrow]. bsimp. rewrite Er. bsimp. rewrite GR, ESR. cbn [rethrow]. bsimp.
    rewrite ELC. bsimp. exact EE.
  - cbv beta. split; [|split; [|split]].
    4:{ intros Q HQ x k Hx Hk. specialize (QL Q HQ). specialize (QR Q HQ). rewrite (square_face a Ha) in QL, QR. destruct (face_facts a x k Ha) as (_ & _ & N2 & _ & U2 & _). rewrite !N2, !U2.
        destruct (Z.ltb_spec x (1 + N)).
        - destruct (Z.ltb_spec x 1); [apply QL; apply inb_face_intro; [assumption|lia|lia]|]. destruct RG' as [_ RG']. destruct HQ as [_ HQ]. eapply HQ; [exact Hi| |apply RG'; [|exact Hk]; lia].
          rewrite (square_face a Ha). apply inb_face_intro; [assumption|lia|lia].
        - apply QR. apply inb_face_intro; [assumption|lia|lia]. }
    + intros x k Hx Hk. destruct (face_facts a (x + 1) k Ha) as (_ & _ & N2 & _ & U2 & _). rewrite !N2, !U2.
      destruct (Z.ltb_spec (x + 1) (1 + N)); [|lia]. destruct (Z.ltb_spec (x + 1) 1); [lia|]. f_equal. f_equal. lia.
    + intros j w H Ej Hw RH k Hk. destruct (face_facts a (N + 1) k Ha) as (_ & _ & N2 & _ & U2 & _). rewrite !N2, !U2.
      destruct (Z.ltb_spec (N + 1) (1 + N)); [lia|]. replace (N + 1 - (1 + N)) with 0 by lia. rewrite Er in Ej. injection Ej as <-. rewrite (UR w Hw) in RR.
      exact (rep2_same a w N N _ _ RR RH 0 k ltac:(lia) Hk).
    + intros j w H Ej Hw RH k Hk. destruct (face_facts a 0 k Ha) as (_ & _ & N2 & _ & U2 & _). rewrite !N2, !U2.
      destruct (Z.ltb_spec 0 (1 + N)); [|lia]. destruct (Z.ltb_spec 0 1); [|lia]. rewrite El in Ej. injection Ej as <-. rewrite (UL w Hw) in RL.
      replace (N - 1 + 0) with (N - 1) by lia. exact (rep2_same a w N N _ _ RL RH (N - 1) k ltac:(lia) Hk).
Qed.

Lemma next_prev_on a i j : in_range 2 i -> (a < 2)%nat -> (level i < 31)%nat -> next_on a i = Ok j -> prev_on a j = Ok i.
Proof. intros Ri Ha Hl E. destruct (next_prev 2 a i Ri Ha Hl) as (j' & c & E' & _ & _ & P & _). rewrite E in E'. injection E' as <-. exact P. Qed.

Lemma extended_ok a fuel : (a < 2)%nat -> (depth t < fuel)%nat ->
  exists e, extend (@contains_compiled (array A)) add half fuel t a 1 = Ok e /\ same_shape t e /\ seamless N a e /\
    forall Q, stable add half N t Q -> forall i b x k y, is_node e i (Leaf b) -> 0 <= x < N + 2 -> 0 <= k < N -> aget b (face a x k) = Ok y -> Q y.
Proof.
  intros Ha Hfu. pose proof (b_wf 2 N t Hb) as W. pose proof (b_depth 2 N t Hb) as Hd.
  pose proof (b_size 2 N t Hb) as [HN1 HN2].
  destruct (tmapM_idx (extend_block (@contains_compiled (array A)) add half fuel t a 1) (mkarr [] (fun _ => UB)) t W ltac:(lia)) as (e & E & SS & K).
  - intros i v Hi. destruct (extend_block_any a i v fuel Ha Hi Hfu) as (b & _ & _ & Eb & _). eauto.
  - exists e. split; [exact E|]. split; [exact SS|]. destruct (same_shape_wf t e W SS) as [We De].
    assert (Back : forall i b, is_node e i (Leaf b) -> exists v, is_node t i (Leaf v) /\ extend_block (@contains_compiled (array A)) add half fuel t a 1 i = Ok b).
    { intros i b Hib. destruct (shape_leaf e t i b We (shape_sym _ _ SS) Hib) as [v Hv]. exists v. split; [assumption|].
      destruct (extend_block_any a i v fuel Ha Hv Hfu) as (b' & _ & _ & Eb & _). pose proof (K i v b' Hv Eb) as Hb'.
      pose proof (is_node_unique e i _ _ Hib Hb') as X. injection X as ->. exact Eb. }
    split; [split|].
    + intros i b Hib. destruct (Back i b Hib) as (v & Hv & Eb). destruct (extend_block_any a i v fuel Ha Hv Hfu) as (b' & E' & _ & Eb' & R' & _).
      rewrite Eb in Eb'. injection Eb' as <-. eauto.
    + intros i j b c Hib Hjc Hn k Hk. destruct (Back i b Hib) as (v & Hv & Eb). destruct (Back j c Hjc) as (w & Hw & Ec).
      destruct (extend_block_any a i v fuel Ha Hv Hfu) as (b' & E1 & G1 & Eb' & [_ R1] & RG1 & O1 & X1 & _ & _). rewrite Eb in Eb'. injection Eb' as <-.
      destruct (extend_block_any a j w fuel Ha Hw Hfu) as (c' & E2 & G2 & Ec' & [_ R2] & RG2 & O2 & _ & Y2 & _). rewrite Ec in Ec'. injection Ec' as <-.
      pose proof (is_node_facts t W i _ Hv) as [_ Hli]. cbn [depth] in Hli.
      pose proof (next_prev_on a i j (proj1 Hv) Ha ltac:(lia) Hn) as Hp.
      rewrite !R1, !R2 by lia. rewrite (X1 j w G2 Hn Hw RG2 k Hk), (Y2 i v G1 Hp Hv RG1 k Hk).
      replace N with (N - 1 + 1) at 1 by lia. rewrite (O1 (N - 1) k) by lia. replace 1 with (0 + 1) at 3 by lia. rewrite (O2 0 k) by lia. auto.
    + intros Q HQ i b x k y Hib Hx Hk Ey. destruct (Back i b Hib) as (v & Hv & Eb).
      destruct (extend_block_any a i v fuel Ha Hv Hfu) as (b' & E1 & G1 & Eb' & [_ R1] & _ & _ & _ & _ & Q1). rewrite Eb in Eb'. injection Eb' as <-.
      rewrite R1 in Ey by assumption. injection Ey as <-. apply Q1; assumption.
Qed.
End Extended.
