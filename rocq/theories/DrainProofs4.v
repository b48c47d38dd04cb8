(** Lemmas: the values and the slopes that meet at every face of a mesh with the linear reconstruction, and the corrected
    flux through every face of a block when only the faces that do not touch a finer block are limited. *)
From Coq Require Import ZArith Reals Lra List Arith Bool Lia.
From Verif Require Import Base TreeModel TreeSpec TreeProofs TreeProofs2 TreeProofs3 TreeProofs4 BalanceModel BalanceSpec BalanceProofs
  NdModel NdSpec NdProofs NdProofs2 NdProofs3 NdOpsModel NdOpsProofs ProlongModel ProlongProofs FluxModel FluxTreeProofs FluxProofs FluxSpec FluxProofs2 FluxProofs3 FluxProofs4 FluxProofs5
  GuardModel GuardSpec GuardProofs GuardProofs2 GuardProofs3 GuardProofs4 MeshModel MeshSpec MeshProofs2 MeshProps StepModel StepSpec StepProofs StepProofs2 StepProofs3 StepProps UniformProofs DrainProofs DrainProofs2.
Import ListNotations.
Open Scope Z_scope.

(** Next to a leaf of the same level the guard zones hold the cells of that leaf. *)
Definition same_sides {A} (N : Z) (t : tree (array A)) (a : nat) (i : idx) (E : Z -> Z -> A) : Prop :=
  (forall j w H, next_on a i = Ok j -> is_node t j (Leaf w) -> rep2 a w N N H -> forall k, 0 <= k < N -> E (N + 1) k = H 0 k) /\
  (forall j w H, prev_on a i = Ok j -> is_node t j (Leaf w) -> rep2 a w N N H -> forall k, 0 <= k < N -> E 0 k = H (N - 1) k).

Lemma extended_both {A} (add : A -> A -> A) half N (t : tree (array A)) : blocks 2 N t -> balanced t -> forall a fuel e, (a < 2)%nat -> (depth t < fuel)%nat -> extend (@contains_compiled (array A)) add half fuel t a 1 = Ok e ->
  forall i b, is_node e i (Leaf b) -> exists v E G, is_node t i (Leaf v) /\ rep2 a b (N + 2) N E /\ rep2 a v N N G /\ sides N t a i E G /\ same_sides N t a i E /\
    (forall Q, stable add half N t Q -> forall x k, 0 <= x < N + 2 -> 0 <= k < N -> Q (E x k)).
Proof.
  intros Hb Hbal a fuel e Ha Hfu Ee i b Hib. pose proof (b_wf 2 N t Hb) as W. pose proof (b_depth 2 N t Hb) as Hd. pose proof (b_size 2 N t Hb) as HN.
  destruct (extended_sides add half N t Hb Hbal a fuel e Ha Hfu Ee i b Hib) as (v & E & G & Nv & RE & RG & SD & SQ).
  exists v, E, G. do 4 (split; [assumption|]). split; [|exact SQ].
  destruct (tmapM_idx (extend_block (@contains_compiled (array A)) add half fuel t a 1) (mkarr [] (fun _ => UB)) t W ltac:(lia)) as (e' & E' & SS & K).
  { intros j v' Hj. destruct (extend_block_any add half N t Hb Hbal a j v' fuel Ha Hj Hfu) as (y & _ & _ & Ey & _). eauto. }
  unfold extend in Ee. rewrite Ee in E'. injection E' as <-.
  destruct (extend_block_any add half N t Hb Hbal a i v fuel Ha Nv Hfu) as (b' & E2 & _ & Eb & RE2 & _ & _ & SN & SP & _).
  pose proof (is_node_unique e i _ _ Hib (K i v b' Nv Eb)) as X. injection X as <-.
  split; intros j w H Hj Hw RH k Hk; rewrite (rep2_same a b _ _ _ _ RE RE2) by lia; [eapply SN|eapply SP]; eassumption.
Qed.

(** The gradients of a block are those of its extended block. *)
Lemma gradients_at {P} (gradient : nat -> P -> P -> P -> P) N a (e g : tree (array P)) : (a < 2)%nat -> 1 <= N /\ 4 * N + 4 < two64 -> wf_tree 2 e -> (depth e <= 30)%nat -> seamless N a e -> gradients gradient a e = Ok g ->
  forall i v b E, is_node g i (Leaf v) -> is_node e i (Leaf b) -> rep2 a b (N + 2) N E -> rep2 a v N N (fun x k => gradient (level i) (E x k) (E (1 + x) k) (E (2 + x) k)).
Proof.
  intros Ha HN W D [HR _] EG i v b E Hv Hb RE. unfold gradients in EG. destruct (pair_leaf e W ltac:(lia)) as (q & Eq & Sq & Kq). rewrite Eq in EG. cbn [bind] in EG.
  destruct (same_shape_wf e q W Sq) as [Wq Dq].
  assert (G : forall i b, is_node e i (Leaf b) -> forall E, rep2 a b (N + 2) N E -> exists y, estimate_gradient gradient a (i, b) = Ok y /\ rep2 a y N N (fun x k => gradient (level i) (E x k) (E (1 + x) k) (E (2 + x) k))).
  { intros i' b' Hi' E' RE'. unfold estimate_gradient. cbn [fst snd].
    destruct (adjacent3_rep2 a b' (N + 2) N E' Ha ltac:(lia) ltac:(lia) RE') as (z & Ez & Rz). rewrite Ez. bsimp. replace (N + 2 - 2) with N in Rz by lia.
    eexists. split; [reflexivity|]. pose proof (map_rep2 (fun w => gradient (level i') (fst w) (fst (snd w)) (snd (snd w))) a z _ _ _ Rz) as M. exact M. }
  assert (BQ : forall i z, is_node q i (Leaf z) -> exists b, is_node e i (Leaf b) /\ z = (i, b)).
  { intros i' z Hi'. destruct (shape_leaf q e i' z Wq (shape_sym _ _ Sq) Hi') as [b' Hb']. exists b'. split; [assumption|].
    pose proof (is_node_unique q i' _ _ Hi' (Kq i' b' Hb')) as X. injection X as ->. reflexivity. }
  destruct (tmapM_at (estimate_gradient gradient a) (mkarr [] (fun _ => UB)) q Wq ltac:(lia)) as (g' & Eg & Sg & Kg).
  { intros i' z Hi'. destruct (BQ i' z Hi') as (b' & Hb' & ->). destruct (HR i' b' Hb') as [E' RE']. destruct (G i' b' Hb' E' RE') as (y & Ey & _). eauto. }
  rewrite EG in Eg. injection Eg as <-. destruct (G i b Hb E RE) as (y & Ey & RY).
  pose proof (is_node_unique g i _ _ Hv (Kg i _ y (Kq i b Hb) Ey)) as X. injection X as ->. exact RY.
Qed.

(** All face fluxes of a mesh: the cell values and the gradients along the axis that meet at every face. *)
Lemma face_states2 {P} (padd : P -> P -> P) (phalf : P -> P) gradient flux N r (p0 : tree (array P)) vt fuel fx fy :
  blocks 2 N p0 -> balanced p0 -> same_shape p0 vt -> regular N r vt -> (depth p0 < fuel)%nat ->
  face_fluxes padd phalf gradient flux fuel vt p0 = Ok (fx, fy) ->
  forall a f, (a < 2)%nat -> f = (if (a =? 0)%nat then fx else fy) -> exists ga, same_shape p0 ga /\ blocks 2 N ga /\
  forall i b, is_node f i (Leaf b) -> exists v E G vg El Gl, is_node p0 i (Leaf v) /\ rep2 a v N N G /\ sides N p0 a i E G /\ same_sides N p0 a i E /\
    is_node ga i (Leaf vg) /\ rep2 a vg N N Gl /\ sides N ga a i El Gl /\ same_sides N ga a i El /\
    (forall x k, 0 <= x < N -> 0 <= k < N -> Gl x k = gradient (level i) (E x k) (E (1 + x) k) (E (2 + x) k)) /\
    (forall Q, stable padd phalf N p0 Q -> forall x k, 0 <= x < N + 2 -> 0 <= k < N -> Q (E x k)) /\
    forall x k, 0 <= x < N + 1 -> 0 <= k < N -> exists h h',
      aget b (face a x k) = Ok (flux a (level i) (face_middle a r N i x k) (E x k, E (1 + x)%Z k) (El x k, El (1 + x)%Z k) (h, h') * (2 * r / (IZR N * 2 ^ level i)))%R.
Proof.
  intros Hb Hbal Sv HR Hfu FF a f Ha Ef. pose proof (b_wf 2 N p0 Hb) as W. pose proof (b_depth 2 N p0 Hb) as Hd. pose proof (b_size 2 N p0 Hb) as HN.
  unfold face_fluxes, extended in FF.
  destruct (extended_ok padd phalf N p0 Hb Hbal 0 fuel ltac:(lia) Hfu) as (ex & E1 & S1 & M1 & V1). rewrite E1 in FF. cbn [bind] in FF.
  destruct (extended_ok padd phalf N p0 Hb Hbal 1 fuel ltac:(lia) Hfu) as (ey & E2 & S2 & M2 & V2). rewrite E2 in FF. cbn [bind] in FF.
  destruct (same_shape_wf p0 ex W S1) as [W1 D1]. destruct (same_shape_wf p0 ey W S2) as [W2 D2].
  destruct (gradients_ok gradient N 0 ex ltac:(lia) HN W1 ltac:(lia) M1) as (gx & E3 & S3 & B3 & V3). rewrite E3 in FF. cbn [bind] in FF.
  destruct (gradients_ok gradient N 1 ey ltac:(lia) HN W2 ltac:(lia) M2) as (gy & E4 & S4 & B4 & V4). rewrite E4 in FF. cbn [bind] in FF.
  assert (T3 : same_shape p0 gx) by exact (shape_trans _ _ _ S1 S3). assert (T4 : same_shape p0 gy) by exact (shape_trans _ _ _ S2 S4).
  destruct (same_shape_wf p0 gx W T3) as [W3 D3]. destruct (same_shape_wf p0 gy W T4) as [W4 D4].
  pose proof (same_shape_balanced p0 gx T3 Hbal) as Bx. pose proof (same_shape_balanced p0 gy T4 Hbal) as By.
  destruct (extended_ok padd phalf N gx B3 Bx 0 fuel ltac:(lia) ltac:(lia)) as (gxx & E5 & S5 & M5 & V5). rewrite E5 in FF. cbn [bind] in FF.
  destruct (extended_ok padd phalf N gx B3 Bx 1 fuel ltac:(lia) ltac:(lia)) as (gxy & E6 & S6 & M6 & V6). rewrite E6 in FF. cbn [bind] in FF.
  destruct (extended_ok padd phalf N gy B4 By 0 fuel ltac:(lia) ltac:(lia)) as (gyx & E7 & S7 & M7 & V7). rewrite E7 in FF. cbn [bind] in FF.
  destruct (extended_ok padd phalf N gy B4 By 1 fuel ltac:(lia) ltac:(lia)) as (gyy & E8 & S8 & M8 & V8). rewrite E8 in FF. cbn [bind] in FF.
  destruct (tree_flux_ok flux N r 0 HN ltac:(lia) p0 vt ex gxx gyx W Hd Sv S1 (shape_trans _ _ _ T3 S5) (shape_trans _ _ _ T4 S7) HR M1 M5 M7) as (fx' & Ex & Sx & Rx & _). rewrite Ex in FF. cbn [bind] in FF.
  destruct (tree_flux_ok flux N r 1 HN ltac:(lia) p0 vt ey gyy gxy W Hd Sv S2 (shape_trans _ _ _ T4 S8) (shape_trans _ _ _ T3 S6) HR M2 M8 M6) as (fy' & Ey & Sy & Ry & _). rewrite Ey in FF. cbn [bind] in FF.
  assert (fx' = fx /\ fy' = fy) as [-> ->] by (split; congruence). clear FF Ex Ey.
  destruct a as [|[|a]]; [| |lia]; cbn [Nat.eqb] in Ef; subst f.
  - exists gx. do 2 (split; [assumption|]). intros i b Hi. destruct (Rx i b Hi) as (p & l & g & Pe & Gl & Gt & Np & Nl & Ng & RP & RL & [_ RT] & [_ RF]).
    destruct (extended_both padd phalf N p0 Hb Hbal 0 fuel ex Ha Hfu E1 i p Np) as (v & E & G & Nv & RE & RG & SD & SS & SQ).
    destruct (extended_both padd phalf N gx B3 Bx 0 fuel gxx Ha ltac:(lia) E5 i l Nl) as (vg & El & Gg & Nvg & REl & RGg & SDg & SSg & _).
    exists v, E, G, vg, El, Gg. do 8 (split; [assumption|]). split; [|split; [intros; apply SQ; assumption|]].
    + intros x k Hx Hk. exact (rep2_same 0 vg _ _ _ _ RGg (gradients_at gradient N 0 ex gx Ha HN W1 ltac:(lia) M1 E3 i vg p E Nvg Np RE) x k Hx Hk).
    + intros x k Hx Hk. exists (Gt x k), (Gt (1 + x) k). rewrite RF by assumption. f_equal. unfold face_value. rewrite (across_width 0) by lia.
      rewrite (rep2_same 0 p _ _ _ _ RE RP x k), (rep2_same 0 p _ _ _ _ RE RP (1 + x) k), (rep2_same 0 l _ _ _ _ REl RL x k), (rep2_same 0 l _ _ _ _ REl RL (1 + x) k) by lia. reflexivity.
  - exists gy. do 2 (split; [assumption|]). intros i b Hi. destruct (Ry i b Hi) as (p & l & g & Pe & Gl & Gt & Np & Nl & Ng & RP & RL & [_ RT] & [_ RF]).
    destruct (extended_both padd phalf N p0 Hb Hbal 1 fuel ey Ha Hfu E2 i p Np) as (v & E & G & Nv & RE & RG & SD & SS & SQ).
    destruct (extended_both padd phalf N gy B4 By 1 fuel gyy Ha ltac:(lia) E8 i l Nl) as (vg & El & Gg & Nvg & REl & RGg & SDg & SSg & _).
    exists v, E, G, vg, El, Gg. do 8 (split; [assumption|]). split; [|split; [intros; apply SQ; assumption|]].
    + intros x k Hx Hk. exact (rep2_same 1 vg _ _ _ _ RGg (gradients_at gradient N 1 ey gy Ha HN W2 ltac:(lia) M2 E4 i vg p E Nvg Np RE) x k Hx Hk).
    + intros x k Hx Hk. exists (Gt x k), (Gt (1 + x) k). rewrite RF by assumption. f_equal. unfold face_value. rewrite (across_width 1) by lia.
      rewrite (rep2_same 1 p _ _ _ _ RE RP x k), (rep2_same 1 p _ _ _ _ RE RP (1 + x) k), (rep2_same 1 l _ _ _ _ REl RL x k), (rep2_same 1 l _ _ _ _ REl RL (1 + x) k) by lia. reflexivity.
Qed.

Section Corrected2.
Context (N : Z) (a : nat) (f : tree (array R)) (U L : idx -> Z -> Z -> R) (K : R).
Hypothesis HN : 1 <= N.
Hypothesis HB : 2 * N + 2 < two64.
Hypothesis Ha : (a < 2)%nat.
Hypothesis W : wf_tree 2 f.
Hypothesis Hd : (depth f <= 30)%nat.
Hypothesis Bal : balanced f.
Hypothesis F : Forall (full (upd a (N + 1) [N; N])) (leaves f).
(** Faces of a block that do not touch a finer block, by the cell of the block behind them. *)
Hypothesis HU : forall i b x k, is_node f i (Leaf b) -> 0 < x < N + 1 -> 0 <= k < N -> (x = N -> forall j cs, next_on a i = Ok j -> ~ is_node f j (Node cs)) -> (val b (face a x k) <= U i (x - 1) k * (K / 2 ^ level i))%R.
Hypothesis HL : forall i b x k, is_node f i (Leaf b) -> 0 <= x < N -> 0 <= k < N -> (x = 0 -> forall j cs, prev_on a i = Ok j -> ~ is_node f j (Node cs)) -> (- (L i x k * (K / 2 ^ level i)) <= val b (face a x k))%R.
(** Faces of a block that touch a coarser block, by the cell of the coarser block behind them. *)
Hypothesis HUc : forall i b c m w k, is_node f i (Leaf b) -> prev_on a i = Ok (child_index c m) -> (m < 4)%nat -> is_node f c (Leaf w) -> 0 <= k < N -> (val b (face a 0 k) <= U c ((offset N m a + (N - 1)) / 2) ((offset N m (1 - a) + k) / 2) * (K / 2 ^ level i))%R.
Hypothesis HLc : forall i b c m w k, is_node f i (Leaf b) -> next_on a i = Ok (child_index c m) -> (m < 4)%nat -> is_node f c (Leaf w) -> 0 <= k < N -> (- (L c ((offset N m a + 0) / 2) ((offset N m (1 - a) + k) / 2) * (K / 2 ^ level i)) <= val b (face a N k))%R.

Lemma corrected_drain2 i b : is_node f i (Leaf b) -> forall k, 0 <= k < N ->
    (forall x, 0 < x < N + 1 -> (val (corrected a f i) (face a x k) <= U i (x - 1)%Z k * (K / 2 ^ level i))%R) /\
    (forall x, 0 <= x < N -> (- (L i x k * (K / 2 ^ level i)) <= val (corrected a f i) (face a x k))%R).
Proof.
  intros Hi k Hk. destruct (corrected_ok N HN HB a Ha f W Hd Bal F i b Hi) as (_ & _ & I & CL & CH).
  pose proof (is_node_facts f W i _ Hi) as [_ Hli]. cbn [depth] in Hli.
  assert (IB : forall x, 0 <= x < N + 1 -> inb (upd a (N + 1) [N; N]) (face a x k)) by (intros x Hx; axes Ha; repeat constructor; lia).
  assert (NF : forall x, nth a (face a x k) 0 = x) by (intros x; axes Ha; reflexivity).
  (* the two fine faces that make up face k, from a node after or before the block *)
  assert (PL : forall j c0 c1 c2 c3 w0 w1 w2 w3, prev_on a i = Ok j -> is_node f j (Node [Leaf w0; Leaf w1; Leaf w2; Leaf w3]) -> (c0, c1, c2, c3) = (w0, w1, w2, w3) ->
     (- (L i 0%Z k * (K / 2 ^ level i)) <= pair_flux N a N (if (a =? 0)%nat then c1 else c2) c3 k)%R).
  { intros j c0 c1 c2 c3 w0 w1 w2 w3 Ej Hj X. injection X as -> -> -> ->.
    destruct (prev_next 2 a i (proj1 Hi) Ha ltac:(lia)) as (j' & c & E' & R & LE & NX & _). rewrite Ej in E'. injection E' as <-.
    pose proof (is_node_facts f W j _ Hj) as [_ Hlj]. cbn [depth map fold_right] in Hlj.
    assert (V : forall m ch w kk, nth_error [Leaf w0; Leaf w1; Leaf w2; Leaf w3] ch = Some (Leaf w) -> (m < 4)%nat -> next_on a (child_index j ch) = Ok (child_index i m) -> Nat.testbit m a = false -> 0 <= kk < N -> (offset N m (1 - a) + kk) / 2 = k ->
       (- (L i 0%Z k * (K / (2 * 2 ^ level i))) <= val w (face a N kk))%R).
    { intros m ch w kk Ech Hm NXc TB Hkk Ek. pose proof (is_node_child f W Hd j _ ch _ Hj Ech) as Nc. pose proof (HLc _ _ i m b kk Nc NXc Hm Hi Hkk) as B. rewrite Ek in B.
      replace ((offset N m a + 0) / 2) with 0 in B by (unfold offset; rewrite TB; reflexivity). cbn [child_index level] in B. rewrite LE in B. cbn [pow] in B. exact B. }
    assert (VL : forall kk, 0 <= kk < N -> kk / 2 = k -> (- (L i 0%Z k * (K / (2 * 2 ^ level i))) <= val (if (a =? 0)%nat then w1 else w2) (face a N kk))%R).
    { intros kk Hkk Ek. apply (V 0%nat (if (a =? 0)%nat then 1 else 2)%nat); [axes Ha; reflexivity|lia| |axes Ha; reflexivity|assumption|axes Ha; exact Ek].
      apply facing; [assumption|apply Hj|lia|exact NX|left; axes Ha; reflexivity]. }
    assert (VH : forall kk, 0 <= kk < N -> (N + kk) / 2 = k -> (- (L i 0%Z k * (K / (2 * 2 ^ level i))) <= val w3 (face a N kk))%R).
    { intros kk Hkk Ek. apply (V (if (a =? 0)%nat then 2 else 1)%nat 3%nat); [reflexivity|axes Ha; cbn; lia| |axes Ha; reflexivity|assumption|axes Ha; exact Ek].
      apply facing; [assumption|apply Hj|lia|exact NX|right; axes Ha; reflexivity]. }
    assert (PW : (K / (2 * 2 ^ level i) = K / 2 ^ level i / 2)%R) by (field; apply pow_nonzero; lra).
    assert (T : forall m, 0 <= m < 2 * N -> m / 2 = k -> (- (L i 0%Z k * (K / 2 ^ level i / 2)) <= (if (m <? N)%Z then val (if (a =? 0)%nat then w1 else w2) (face a N m) else val w3 (face a N (m - N)%Z)))%R).
    { intros m Hm Em. rewrite PW in VL, VH. destruct (Z.ltb_spec m N); [apply VL; lia|apply VH; [lia|]]. replace (N + (m - N)) with m by lia. exact Em. }
    unfold pair_flux. cbv zeta. pose proof (T (2 * k) ltac:(lia) ltac:(rewrite Z.mul_comm; apply Z.div_mul; lia)) as T1.
    pose proof (T (2 * k + 1) ltac:(lia) ltac:(replace (2 * k + 1) with (1 + k * 2) by lia; rewrite Z.div_add by lia; reflexivity)) as T2. lra. }
  assert (PH : forall j w0 w1 w2 w3, next_on a i = Ok j -> is_node f j (Node [Leaf w0; Leaf w1; Leaf w2; Leaf w3]) ->
     (pair_flux N a 0%Z w0 (if (a =? 0)%nat then w2 else w1) k <= U i (N - 1)%Z k * (K / 2 ^ level i))%R).
  { intros j w0 w1 w2 w3 Ej Hj.
    destruct (next_prev 2 a i (proj1 Hi) Ha ltac:(lia)) as (j' & c & E' & R & LE & PX & _). rewrite Ej in E'. injection E' as <-.
    pose proof (is_node_facts f W j _ Hj) as [_ Hlj]. cbn [depth map fold_right] in Hlj.
    assert (V : forall m ch w kk, nth_error [Leaf w0; Leaf w1; Leaf w2; Leaf w3] ch = Some (Leaf w) -> (m < 4)%nat -> next_on a (child_index i m) = Ok (child_index j ch) -> Nat.testbit m a = true -> 0 <= kk < N -> (offset N m (1 - a) + kk) / 2 = k ->
       (val w (face a 0%Z kk) <= U i (N - 1)%Z k * (K / (2 * 2 ^ level i)))%R).
    { intros m ch w kk Ech Hm NXc TB Hkk Ek. pose proof (is_node_child f W Hd j _ ch _ Hj Ech) as Nc.
      assert (PXc : prev_on a (child_index j ch) = Ok (child_index i m)).
      { assert (Ri : in_range 2 (child_index i m)) by (apply (child_in_range 2); apply Hi).
        destruct (next_prev 2 a (child_index i m) Ri Ha ltac:(cbn [child_index level]; lia)) as (j2 & c2 & E2 & _ & _ & P2 & _). rewrite NXc in E2. injection E2 as <-. exact P2. }
      pose proof (HUc _ _ i m b kk Nc PXc Hm Hi Hkk) as B. rewrite Ek in B.
      replace ((offset N m a + (N - 1)) / 2) with (N - 1) in B by (unfold offset; rewrite TB; replace (N + (N - 1)) with (1 + (N - 1) * 2) by lia; rewrite Z.div_add by lia; reflexivity).
      cbn [child_index level] in B. rewrite LE in B. cbn [pow] in B. exact B. }
    assert (VL : forall kk, 0 <= kk < N -> kk / 2 = k -> (val w0 (face a 0%Z kk) <= U i (N - 1)%Z k * (K / (2 * 2 ^ level i)))%R).
    { intros kk Hkk Ek. apply (V (if (a =? 0)%nat then 1 else 2)%nat 0%nat); [reflexivity|axes Ha; cbn; lia| |axes Ha; reflexivity|assumption|axes Ha; exact Ek].
      apply facing; [assumption|apply Hi|lia|exact Ej|left; axes Ha; reflexivity]. }
    assert (VH : forall kk, 0 <= kk < N -> (N + kk) / 2 = k -> (val (if (a =? 0)%nat then w2 else w1) (face a 0%Z kk) <= U i (N - 1)%Z k * (K / (2 * 2 ^ level i)))%R).
    { intros kk Hkk Ek. apply (V 3%nat (if (a =? 0)%nat then 2 else 1)%nat); [axes Ha; reflexivity|lia| |axes Ha; reflexivity|assumption|axes Ha; exact Ek].
      apply facing; [assumption|apply Hi|lia|exact Ej|right; axes Ha; reflexivity]. }
    assert (PW : (K / (2 * 2 ^ level i) = K / 2 ^ level i / 2)%R) by (field; apply pow_nonzero; lra).
    assert (T : forall m, 0 <= m < 2 * N -> m / 2 = k -> ((if (m <? N)%Z then val w0 (face a 0%Z m) else val (if (a =? 0)%nat then w2 else w1) (face a 0%Z (m - N)%Z)) <= U i (N - 1)%Z k * (K / 2 ^ level i / 2))%R).
    { intros m Hm Em. rewrite PW in VL, VH. destruct (Z.ltb_spec m N); [apply VL; lia|apply VH; [lia|]]. replace (N + (m - N)) with m by lia. exact Em. }
    unfold pair_flux. cbv zeta. pose proof (T (2 * k) ltac:(lia) ltac:(rewrite Z.mul_comm; apply Z.div_mul; lia)) as T1.
    pose proof (T (2 * k + 1) ltac:(lia) ltac:(replace (2 * k + 1) with (1 + k * 2) by lia; rewrite Z.div_add by lia; reflexivity)) as T2. lra. }
  split; intros x Hx.
  - destruct (Z.eq_dec x N) as [->|H1].
    + destruct (next_prev 2 a i (proj1 Hi) Ha ltac:(lia)) as (j & c & Ej & R & LE & _). destruct (CH j Ej) as [C1 C2].
      assert (ND : (forall cs, ~ is_node f j (Node cs)) -> (val (corrected a f i) (face a N k) <= U i (N - 1)%Z k * (K / 2 ^ level i))%R).
      { intros HNn. destruct (C1 HNn) as [_ V]. unfold val at 1. rewrite V by (auto; apply IB; lia). apply (HU i b N k Hi); [lia|assumption|]. intros _ j' cs Ej'. rewrite Ej in Ej'. injection Ej' as <-. apply HNn. }
      destruct (lookup_cases 2 f j W R ltac:(lia)) as [(w & X & _)|[(cs & X & _)|(X & _)]].
      * apply ND. intros cs Hcs. destruct Hcs as (_ & _ & Y). rewrite X in Y. discriminate.
      * assert (Nj : is_node f j (Node cs)) by (split; [exact R|split; [lia|exact X]]). destruct (C2 cs Nj) as (w0 & w1 & w2 & w3 & -> & _ & V). rewrite V by assumption. eapply PH; eassumption.
      * apply ND. intros cs Hcs. destruct Hcs as (_ & _ & Y). rewrite X in Y. discriminate.
    + unfold val at 1. rewrite I by (first [apply IB; lia|rewrite NF; lia]). apply (HU i b x k Hi); [lia|assumption|]. intros; lia.
  - destruct (Z.eq_dec x 0) as [->|H1].
    + destruct (prev_next 2 a i (proj1 Hi) Ha ltac:(lia)) as (j & c & Ej & R & LE & _). destruct (CL j Ej) as [C1 C2].
      assert (ND : (forall cs, ~ is_node f j (Node cs)) -> (- (L i 0%Z k * (K / 2 ^ level i)) <= val (corrected a f i) (face a 0 k))%R).
      { intros HNn. destruct (C1 HNn) as [_ V]. unfold val at 1. rewrite V by (auto; apply IB; lia). apply (HL i b 0 k Hi); [lia|assumption|]. intros _ j' cs Ej'. rewrite Ej in Ej'. injection Ej' as <-. apply HNn. }
      destruct (lookup_cases 2 f j W R ltac:(lia)) as [(w & X & _)|[(cs & X & _)|(X & _)]].
      * apply ND. intros cs Hcs. destruct Hcs as (_ & _ & Y). rewrite X in Y. discriminate.
      * assert (Nj : is_node f j (Node cs)) by (split; [exact R|split; [lia|exact X]]). destruct (C2 cs Nj) as (w0 & w1 & w2 & w3 & -> & _ & V). rewrite V by assumption. eapply PL; [eassumption|eassumption|reflexivity].
      * apply ND. intros cs Hcs. destruct Hcs as (_ & _ & Y). rewrite X in Y. discriminate.
    + unfold val at 1. rewrite I by (first [apply IB; lia|rewrite NF; lia]). apply (HL i b x k Hi); [lia|assumption|]. intros; lia.
Qed.
End Corrected2.
