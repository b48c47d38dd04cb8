(** Lemmas: the mesh that is one block. Its guard zones are its own cells, from the other side. *)
From Coq Require Import ZArith Reals Lra List Arith Bool Lia.
From Verif Require Import Base TreeModel TreeSpec TreeProofs TreeProofs2 TreeProofs3 TreeProofs4 BalanceModel BalanceSpec BalanceProofs
  NdModel NdSpec NdProofs NdProofs2 NdProofs3 NdOpsModel NdOpsProofs ProlongModel ProlongProofs FluxModel FluxTreeProofs FluxProofs FluxSpec FluxProofs2 FluxProofs3 FluxProofs4 FluxProofs5
  GuardModel GuardSpec GuardProofs GuardProofs2 GuardProofs3 GuardProofs4 MeshModel MeshSpec MeshProofs2 MeshProps StepModel StepSpec StepProofs StepProofs2 StepProofs3 StepProps UniformProofs.
Import ListNotations.
Open Scope Z_scope.

Lemma leaf_root {X} (x : X) : is_node (Leaf x) (root_index 2) (Leaf x).
Proof. apply is_node_root; cbn; lia. Qed.
Lemma one_blocks {A} N (v : array A) a G : (a < 2)%nat -> 1 <= N /\ 4 * N + 4 < two64 -> rep2 a v N N G -> blocks 2 N (Leaf v).
Proof. intros Ha HN HR. constructor; [exact HN|constructor|cbn; lia|]. constructor; [|constructor]. eapply rep2_full; eassumption. Qed.
Lemma one_balanced {A} (x : A) : balanced (Leaf x).
Proof. intros i j l [<-|[]] _ [<-|[]] _. cbn. lia. Qed.
Lemma root_next a : (a < 2)%nat -> next_on a (root_index 2) = Ok (root_index 2) /\ prev_on a (root_index 2) = Ok (root_index 2).
Proof. intros Ha. axes Ha; split; reflexivity. Qed.

(** The guard zones. *)
Lemma one_extended {A} (add : A -> A -> A) half N (v : array A) a G fuel : (a < 2)%nat -> 1 <= N /\ 4 * N + 4 < two64 -> rep2 a v N N G -> (0 < fuel)%nat ->
  exists e, extended add half fuel (Leaf v) a = Ok (Leaf e) /\ rep2 a e (N + 2) N (fun x k => G ((x - 1) mod N) k).
Proof.
  intros Ha HN HR Hf. pose proof (one_blocks N v a G Ha HN HR) as HB. destruct (root_next a Ha) as [X1 X2].
  destruct (extend_block_any add half N (Leaf v) HB (one_balanced v) a (root_index 2) v fuel Ha (leaf_root v) ltac:(cbn; lia)) as (e & E & G' & Ee & RE & RG & O & U1 & U2 & _).
  exists e. unfold extended, extend, indexes. cbn [tmapM indexes_from]. split; [change (indexes_from (root_index 2) (Leaf v)) with (Leaf (A := idx) (root_index 2)); cbn [tmapM]; rewrite Ee; reflexivity|].
  assert (EG : forall x k, 0 <= x < N -> 0 <= k < N -> G' x k = G x k).
  { intros x k Hx Hk. destruct RG as [_ R1]. destruct HR as [_ R2]. pose proof (R1 x k Hx Hk) as Y. rewrite R2 in Y by assumption. congruence. }
  eapply rep2_ext; [exact RE|]. intros x k Hx Hk. cbv beta.
  destruct (Z.eq_dec x 0) as [->|H0]; [|destruct (Z.eq_dec x (N + 1)) as [->|H1]].
  - rewrite (U2 _ v G' X2 (leaf_root v) RG k Hk). rewrite EG by lia. f_equal. replace (0 - 1) with (N - 1 + (-1) * N) by lia. rewrite Z.mod_add by lia. rewrite Z.mod_small by lia. reflexivity.
  - rewrite (U1 _ v G' X1 (leaf_root v) RG k Hk). rewrite EG by lia. f_equal. replace (N + 1 - 1) with N by lia. rewrite Z.mod_same by lia. reflexivity.
  - replace x with (x - 1 + 1) at 1 by lia. rewrite O by lia. rewrite EG by lia. f_equal. rewrite Z.mod_small by lia. reflexivity.
Qed.

Lemma one_gradients {P} (gradient : nat -> P -> P -> P -> P) N a (e : array P) E : (a < 2)%nat -> 1 <= N /\ 4 * N + 4 < two64 -> rep2 a e (N + 2) N E ->
  exists g, gradients gradient a (Leaf e) = Ok (Leaf g) /\ rep2 a g N N (fun x k => gradient 0%nat (E x k) (E (1 + x) k) (E (2 + x) k)).
Proof.
  intros Ha HN RE. unfold gradients.
  destruct (pair_leaf (Leaf e) ltac:(constructor) ltac:(cbn; lia)) as (q & Eq & Sq & Kq). rewrite Eq. bsimp.
  assert (q = Leaf (root_index 2, e)) as ->.
  { inversion Sq as [x y H1 H2|]. pose proof (Kq _ _ (leaf_root e)) as X. rewrite <- H2 in X. pose proof (is_node_unique _ _ _ _ X (leaf_root y)) as Y. congruence. }
  cbn [tmapM]. unfold estimate_gradient. cbn [fst snd].
  destruct (adjacent3_rep2 a e (N + 2) N E Ha ltac:(lia) ltac:(lia) RE) as (z & Ez & Rz). rewrite Ez. bsimp. replace (N + 2 - 2) with N in Rz by lia.
  eexists. split; [reflexivity|]. exact (map_rep2 (fun w => gradient 0%nat (fst w) (fst (snd w)) (snd (snd w))) a z _ _ _ Rz).
Qed.

Lemma rep2_flip {A} a (b : array A) m n F : (a < 2)%nat -> rep2 a b m n F -> rep2 (1 - a) b n m (fun x k => F k x).
Proof. intros Ha [H1 H2]. axes Ha; (split; [exact H1|]; intros x k Hx Hk; exact (H2 k x Hk Hx)). Qed.

(** The fluxes through the faces: at face [x] stand the cells [x - 1] and [x], counted modulo [N]. *)
Definition around (N : Z) {A} (G : Z -> Z -> A) (x k : Z) : A := G ((x - 1) mod N) k.
Definition slope_x {P} (gradient : nat -> P -> P -> P -> P) (N : Z) (G : Z -> Z -> P) (x k : Z) : P := gradient 0%nat (G ((x - 1) mod N) k) (G (x mod N) k) (G ((x + 1) mod N) k).
Definition slope_y {P} (gradient : nat -> P -> P -> P -> P) (N : Z) (G : Z -> Z -> P) (x k : Z) : P := gradient 0%nat (G x ((k - 1) mod N)) (G x (k mod N)) (G x ((k + 1) mod N)).
Definition flip {A} (G : Z -> Z -> A) (x k : Z) : A := G k x.

Lemma one_fluxes {P} (padd : P -> P -> P) (phalf : P -> P) gradient flux N r (v : array P) w fuel G : 1 <= N /\ 4 * N + 4 < two64 ->
  rep2 0 v N N G -> regular N r (Leaf w) -> (0 < fuel)%nat ->
  exists fx fy, face_fluxes padd phalf gradient flux fuel (Leaf w) (Leaf v) = Ok (Leaf fx, Leaf fy) /\
    rep2 0 fx (N + 1) N (face_value flux N r 0 (root_index 2) (around N G) (around N (slope_x gradient N G)) (around N (slope_y gradient N G))) /\
    rep2 1 fy (N + 1) N (face_value flux N r 1 (root_index 2) (around N (flip G)) (around N (flip (slope_y gradient N G))) (around N (flip (slope_x gradient N G)))).
Proof.
  intros HN RG HR Hf. pose proof (rep2_flip 0 v N N G ltac:(lia) RG) as RG'. change (1 - 0)%nat with 1%nat in RG'.
  unfold face_fluxes.
  destruct (one_extended padd phalf N v 0 _ fuel ltac:(lia) HN RG Hf) as (ex & E1 & R1). rewrite E1. bsimp.
  destruct (one_extended padd phalf N v 1 _ fuel ltac:(lia) HN RG' Hf) as (ey & E2 & R2). rewrite E2. bsimp.
  destruct (one_gradients gradient N 0 ex _ ltac:(lia) HN R1) as (gx & E3 & R3). rewrite E3. bsimp.
  destruct (one_gradients gradient N 1 ey _ ltac:(lia) HN R2) as (gy & E4 & R4). rewrite E4. bsimp.
  assert (R3' : rep2 0 gx N N (slope_x gradient N G)).
  { eapply rep2_ext; [exact R3|]. intros x k Hx Hk. unfold slope_x. cbv beta. replace (1 + x - 1) with x by lia. replace (2 + x - 1) with (x + 1) by lia. reflexivity. }
  assert (R4' : rep2 1 gy N N (flip (slope_y gradient N G))).
  { eapply rep2_ext; [exact R4|]. intros x k Hx Hk. unfold slope_y, flip. cbv beta. replace (1 + x - 1) with x by lia. replace (2 + x - 1) with (x + 1) by lia. reflexivity. }
  pose proof (rep2_flip 0 gx N N _ ltac:(lia) R3') as R5. change (1 - 0)%nat with 1%nat in R5.
  pose proof (rep2_flip 1 gy N N _ ltac:(lia) R4') as R6. change (1 - 1)%nat with 0%nat in R6.
  destruct (one_extended padd phalf N gx 0 _ fuel ltac:(lia) HN R3' Hf) as (gxx & F1 & S1). rewrite F1. bsimp.
  destruct (one_extended padd phalf N gx 1 _ fuel ltac:(lia) HN R5 Hf) as (gxy & F2 & S2). rewrite F2. bsimp.
  destruct (one_extended padd phalf N gy 0 _ fuel ltac:(lia) HN R6 Hf) as (gyx & F3 & S3). rewrite F3. bsimp.
  destruct (one_extended padd phalf N gy 1 _ fuel ltac:(lia) HN R4' Hf) as (gyy & F4 & S4). rewrite F4. bsimp.
  change (indexes 2 (Leaf v)) with (Leaf (A := idx) (root_index 2)). cbn [tmapM]. unfold tree_flux.
  assert (AT : forall X (x : X), at_ (Leaf x) (root_index 2) = Ok x) by (intros X x; apply (leaf_at _ _ _ (leaf_root x))). rewrite !AT. bsimp.
  pose proof (vertices_rep2 N r 0 ltac:(lia) (Leaf w) (root_index 2) w HR (leaf_root w)) as V0. pose proof (vertices_rep2 N r 1 ltac:(lia) (Leaf w) (root_index 2) w HR (leaf_root w)) as V1.
  destruct (block_flux_ok flux N r 0 HN ltac:(lia) (root_index 2) w ex gxx gyx _ _ _ V0 R1 S1 S3) as (fx & Ex & Rx). rewrite Ex. bsimp.
  destruct (block_flux_ok flux N r 1 HN ltac:(lia) (root_index 2) w ey gyy gxy _ _ _ V1 R2 S4 S2) as (fy & Ey & Ry). rewrite Ey. bsimp.
  exists fx, fy. split; [reflexivity|]. split; [exact Rx|exact Ry].
Qed.

(** No block is finer than the one block, so no flux is corrected, and the new value of a cell is this. *)
Lemma one_correct N (HN : 1 <= N /\ 4 * N + 4 < two64) a (Ha : (a < 2)%nat) (f : array R) F : rep2 a f (N + 1) N F ->
  exists fc, correct_axis a (Leaf f) = Ok (Leaf fc) /\ rep2 a fc (N + 1) N F.
Proof.
  intros RF. assert (FF : Forall (full (upd a (N + 1) [N; N])) (leaves (Leaf f))).
  { constructor; [|constructor]. destruct RF as [R1 R2]. split; [rewrite R1; axes Ha; reflexivity|]. intros k Hk. assert (Hk' : inb (face a (N + 1) N) k) by (axes Ha; exact Hk).
    destruct (inb_face a _ _ _ Ha Hk') as (x & y & -> & Hx & Hy). rewrite R2 by assumption. eauto. }
  destruct (corrected_tree N ltac:(lia) ltac:(lia) a Ha (Leaf f) ltac:(constructor) ltac:(cbn; lia) (one_balanced f) FF) as (tc & E & S & _ & _ & FC & J).
  destruct (corrected_ok N ltac:(lia) ltac:(lia) a Ha (Leaf f) ltac:(constructor) ltac:(cbn; lia) (one_balanced f) FF (root_index 2) f (leaf_root f)) as (_ & C0 & CI & CL & CH).
  destruct (root_next a Ha) as [X1 X2]. destruct (CL _ X2) as [CL' _]. destruct (CH _ X1) as [CH' _].
  assert (NN : forall cs, ~ is_node (Leaf f) (root_index 2) (Node cs)) by (intros cs X; pose proof (is_node_unique _ _ _ _ X (leaf_root f)); discriminate).
  destruct (CL' NN) as [_ CL2]. destruct (CH' NN) as [_ CH2].
  inversion S as [x y H1 H2|]. subst tc. pose proof (J (root_index 2) ltac:(left; reflexivity)) as Y. rewrite (leaf_at _ _ _ (leaf_root y)) in Y. injection Y as Y.
  exists y. split; [exact E|]. rewrite Y. split; [rewrite (proj1 C0); axes Ha; reflexivity|]. intros p k Hp Hk.
  assert (IB : inb (upd a (N + 1) [N; N]) (face a p k)) by (axes Ha; repeat constructor; lia). assert (NF : nth a (face a p k) 0 = p) by (axes Ha; reflexivity).
  rewrite <- (proj2 RF p k Hp Hk). destruct (Z.eq_dec p 0) as [->|]; [apply CL2; assumption|]. destruct (Z.eq_dec p N) as [->|]; [apply CH2; assumption|]. apply CI; [assumption|rewrite NF; lia].
Qed.

Lemma one_step N dA u0 src fx fy dt AA U S Fx Fy : 1 <= N /\ 4 * N + 4 < two64 -> rep2 0 dA N N AA -> rep2 0 u0 N N U -> rep2 0 src N N S -> rep2 0 fx (N + 1) N Fx -> rep2 1 fy (N + 1) N Fy ->
  exists u1, advance_blocks (@contains_compiled) (Leaf dA) (Leaf u0) (Leaf src) (Leaf fx) (Leaf fy) dt = Ok (Leaf u1) /\
    rep2 0 u1 N N (fun x y => (U x y - (Fx (1 + x)%Z y - Fx x y + (Fy (1 + y)%Z x - Fy y x)) * dt / AA x y + S x y)%R).
Proof.
  intros HN RA RU RS RX RY. destruct (one_correct N HN 0 ltac:(lia) fx Fx RX) as (fxc & EX & CX). destruct (one_correct N HN 1 ltac:(lia) fy Fy RY) as (fyc & EY & CY).
  unfold advance_blocks. unfold correct_axis in EX, EY. cbn [Nat.eqb] in EX, EY. rewrite EX, EY. bsimp. change (indexes 2 (Leaf u0)) with (Leaf (A := idx) (root_index 2)). cbn [tmapM].
  assert (FL : forall (b : array R) a m n F, (a < 2)%nat -> rep2 a b m n F -> full (face a m n) b /\ forall x y, 0 <= x < m -> 0 <= y < n -> val b (face a x y) = F x y).
  { intros b a m n F Ha [R1 R2]. split; [split; [exact R1|]|].
    - intros k Hk. destruct (inb_face a _ _ _ Ha Hk) as (x & y & -> & Hx & Hy). rewrite R2 by assumption. eauto.
    - intros x y Hx Hy. unfold val. rewrite R2 by assumption. reflexivity. }
  destruct (FL _ 0%nat _ _ _ ltac:(lia) RA) as [A1 A2]. destruct (FL _ 0%nat _ _ _ ltac:(lia) RU) as [A3 A4]. destruct (FL _ 0%nat _ _ _ ltac:(lia) RS) as [A5 A6].
  destruct (FL _ 0%nat _ _ _ ltac:(lia) CX) as [A7 A8]. destruct (FL _ 1%nat _ _ _ ltac:(lia) CY) as [A9 A10].
  destruct (block_cell N ltac:(lia) ltac:(lia) (Leaf dA) (Leaf u0) (Leaf src) (Leaf fxc) (Leaf fyc) dt (root_index 2) dA u0 src fxc fyc) as (u1 & E & R);
    try (apply (leaf_at _ _ _ (leaf_root _))); try assumption.
  rewrite E. bsimp. exists u1. split; [reflexivity|]. split; [exact (proj1 R)|]. intros x y Hx Hy. rewrite (proj2 R) by (repeat constructor; lia). f_equal.
  pose proof (A2 x y Hx Hy) as B1. pose proof (A4 x y Hx Hy) as B2. pose proof (A6 x y Hx Hy) as B3.
  pose proof (A8 (1 + x) y ltac:(lia) Hy) as B4. pose proof (A8 x y ltac:(lia) Hy) as B5. pose proof (A10 (1 + y) x ltac:(lia) Hx) as B6. pose proof (A10 y x ltac:(lia) Hx) as B7.
  unfold face in *. cbn [Nat.eqb nth upd] in *. rewrite B1, B2, B3, B4, B5, B6, B7. reflexivity.
Qed.
