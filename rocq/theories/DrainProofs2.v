(** Lemmas: the states that meet at every face of a mesh, and the corrected flux through every face of a block in terms
    of the cells of that block. *)
From Coq Require Import ZArith Reals Lra List Arith Bool Lia.
From Verif Require Import Base TreeModel TreeSpec TreeProofs TreeProofs2 TreeProofs3 TreeProofs4 BalanceModel BalanceSpec BalanceProofs
  NdModel NdSpec NdProofs NdProofs2 NdProofs3 NdOpsModel NdOpsProofs ProlongModel ProlongProofs FluxModel FluxTreeProofs FluxProofs FluxSpec FluxProofs2 FluxProofs3 FluxProofs4 FluxProofs5
  GuardModel GuardSpec GuardProofs GuardProofs2 GuardProofs3 GuardProofs4 MeshModel MeshSpec MeshProofs2 MeshProps StepModel StepSpec StepProofs StepProofs2 StepProofs3 StepProps UniformProofs DrainProofs.
Import ListNotations.
Open Scope Z_scope.

(** The middle of face (x, k) of a block, numbered along the axis. *)
Definition face_middle (a : nat) (r : R) (N : Z) (i : idx) (x k : Z) : R * R := loc_half (loc_add (vertex a r N i x k) (vertex a r N i x (1 + k))).

(** All face fluxes of a mesh: the cell values that meet at every face, the kind of the gradients there, the middle of the face. *)
Lemma face_states {P} (padd : P -> P -> P) (phalf : P -> P) gradient flux N r (p0 : tree (array P)) vt fuel fx fy :
  blocks 2 N p0 -> balanced p0 -> same_shape p0 vt -> regular N r vt -> (depth p0 < fuel)%nat ->
  face_fluxes padd phalf gradient flux fuel vt p0 = Ok (fx, fy) ->
  forall a f, (a < 2)%nat -> f = (if (a =? 0)%nat then fx else fy) ->
  forall (Q Qg : P -> Prop), (forall x y, Qg x -> Qg y -> Qg (phalf (padd x y))) -> stable padd phalf N p0 Q -> (forall l x y z, Q x -> Q y -> Q z -> Qg (gradient l x y z)) ->
  forall i b, is_node f i (Leaf b) -> exists v E G, is_node p0 i (Leaf v) /\ rep2 a v N N G /\ sides N p0 a i E G /\
    (forall x k, 0 <= x < N + 2 -> 0 <= k < N -> Q (E x k)) /\
    forall x k, 0 <= x < N + 1 -> 0 <= k < N -> exists g g' h h', Qg g /\ Qg g' /\ Qg h /\ Qg h' /\
      aget b (face a x k) = Ok (flux a (level i) (face_middle a r N i x k) (E x k, E (1 + x)%Z k) (g, g') (h, h') * (2 * r / (IZR N * 2 ^ level i)))%R.
Proof.
  intros Hb Hbal Sv HR Hfu FF a f Ha Ef Q Qg HG DQ HP i b Hi. pose proof (b_wf 2 N p0 Hb) as W. pose proof (b_depth 2 N p0 Hb) as Hd. pose proof (b_size 2 N p0 Hb) as HN.
  unfold face_fluxes, extended in FF.
  destruct (extended_ok padd phalf N p0 Hb Hbal 0 fuel ltac:(lia) Hfu) as (ex & E1 & S1 & M1 & V1). rewrite E1 in FF. cbn [bind] in FF.
  destruct (extended_ok padd phalf N p0 Hb Hbal 1 fuel ltac:(lia) Hfu) as (ey & E2 & S2 & M2 & V2). rewrite E2 in FF. cbn [bind] in FF.
  destruct (same_shape_wf p0 ex W S1) as [W1 D1]. destruct (same_shape_wf p0 ey W S2) as [W2 D2].
  destruct (gradients_ok gradient N 0 ex ltac:(lia) HN W1 ltac:(lia) M1) as (gx & E3 & S3 & B3 & V3). rewrite E3 in FF. cbn [bind] in FF.
  destruct (gradients_ok gradient N 1 ey ltac:(lia) HN W2 ltac:(lia) M2) as (gy & E4 & S4 & B4 & V4). rewrite E4 in FF. cbn [bind] in FF.
  assert (T3 : same_shape p0 gx) by exact (shape_trans _ _ _ S1 S3). assert (T4 : same_shape p0 gy) by exact (shape_trans _ _ _ S2 S4).
  destruct (same_shape_wf p0 gx W T3) as [W3 D3]. destruct (same_shape_wf p0 gy W T4) as [W4 D4].
  pose proof (same_shape_balanced p0 gx T3 Hbal) as Bx. pose proof (same_shape_balanced p0 gy T4 Hbal) as By.
  destruct (extended_ok padd phalf N gx B3 Bx 0 fuel ltac:(lia) ltac:(lia)) as (gxx & E5 & S5 & M5 & V5). rewrite E5 in FF. cbn [bind] in FF.
  destruct (extended_ok padd phalf N gx B3 Bx 1 fuel ltac:(lia) ltac:(lia)) as (gxy & E6 & S6 & M6 & V6). rewrite E6 in FF. cbn [bind] in FF.
  destruct (extended_ok padd phalf N gy B4 By 0 fuel ltac:(lia) ltac:(lia)) as (gyx & E7 & S7 & M7 & V7). rewrite E7 in FF. cbn [bind] in FF.
  destruct (extended_ok padd phalf N gy B4 By 1 fuel ltac:(lia) ltac:(lia)) as (gyy & E8 & S8 & M8 & V8). rewrite E8 in FF. cbn [bind] in FF.
  destruct (tree_flux_ok flux N r 0 HN ltac:(lia) p0 vt ex gxx gyx W Hd Sv S1 (shape_trans _ _ _ T3 S5) (shape_trans _ _ _ T4 S7) HR M1 M5 M7) as (fx' & Ex & Sx & Rx & _). rewrite Ex in FF. cbn [bind] in FF.
  destruct (tree_flux_ok flux N r 1 HN ltac:(lia) p0 vt ey gyy gxy W Hd Sv S2 (shape_trans _ _ _ T4 S8) (shape_trans _ _ _ T3 S6) HR M2 M8 M6) as (fy' & Ey & Sy & Ry & _). rewrite Ey in FF. cbn [bind] in FF.
  assert (fx' = fx /\ fy' = fy) as [-> ->] by (split; congruence). clear FF Ex Ey.
  assert (GX : stable padd phalf N gx Qg) by (split; [assumption|exact (V3 Q Qg (V1 Q DQ) HP)]).
  assert (GY : stable padd phalf N gy Qg) by (split; [assumption|exact (V4 Q Qg (V2 Q DQ) HP)]).
  destruct a as [|[|a]]; [| |lia]; cbn [Nat.eqb] in Ef; subst f.
  - destruct (Rx i b Hi) as (p & l & g & Pe & Gl & Gt & Np & Nl & Ng & RP & [_ RL] & [_ RT] & [_ RF]).
    destruct (extended_sides padd phalf N p0 Hb Hbal 0 fuel ex Ha Hfu E1 i p Np) as (v & E & G & Nv & RE & RG & SD & SQ).
    exists v, E, G. do 3 (split; [assumption|]). split; [intros; apply SQ; assumption|]. intros x k Hx Hk. exists (Gl x k), (Gl (1 + x) k), (Gt x k), (Gt (1 + x) k).
    assert (q1 : Qg (Gl x k)) by (eapply (V5 Qg GX); [exact Nl| | |apply RL]; lia). assert (q2 : Qg (Gl (1 + x) k)) by (eapply (V5 Qg GX); [exact Nl| | |apply RL]; lia).
    assert (q3 : Qg (Gt x k)) by (eapply (V7 Qg GY); [exact Ng| | |apply RT]; lia). assert (q4 : Qg (Gt (1 + x) k)) by (eapply (V7 Qg GY); [exact Ng| | |apply RT]; lia).
    do 4 (split; [assumption|]). rewrite RF by assumption. f_equal. unfold face_value. rewrite (across_width 0) by lia.
    rewrite (rep2_same 0 p _ _ _ _ RE RP x k), (rep2_same 0 p _ _ _ _ RE RP (1 + x) k) by lia. reflexivity.
  - destruct (Ry i b Hi) as (p & l & g & Pe & Gl & Gt & Np & Nl & Ng & RP & [_ RL] & [_ RT] & [_ RF]).
    destruct (extended_sides padd phalf N p0 Hb Hbal 1 fuel ey Ha Hfu E2 i p Np) as (v & E & G & Nv & RE & RG & SD & SQ).
    exists v, E, G. do 3 (split; [assumption|]). split; [intros; apply SQ; assumption|]. intros x k Hx Hk. exists (Gl x k), (Gl (1 + x) k), (Gt x k), (Gt (1 + x) k).
    assert (q1 : Qg (Gl x k)) by (eapply (V8 Qg GY); [exact Nl| | |apply RL]; lia). assert (q2 : Qg (Gl (1 + x) k)) by (eapply (V8 Qg GY); [exact Nl| | |apply RL]; lia).
    assert (q3 : Qg (Gt x k)) by (eapply (V6 Qg GX); [exact Ng| | |apply RT]; lia). assert (q4 : Qg (Gt (1 + x) k)) by (eapply (V6 Qg GX); [exact Ng| | |apply RT]; lia).
    do 4 (split; [assumption|]). rewrite RF by assumption. f_equal. unfold face_value. rewrite (across_width 1) by lia.
    rewrite (rep2_same 1 p _ _ _ _ RE RP x k), (rep2_same 1 p _ _ _ _ RE RP (1 + x) k) by lia. reflexivity.
Qed.

(** Facing children. *)
Lemma facing a i j k k' : (a < 2)%nat -> in_range 2 i -> (level i < 30)%nat -> next_on a i = Ok j ->
  (k, k') = (if (a =? 0)%nat then (1, 0) else (2, 0))%nat \/ (k, k') = (if (a =? 0)%nat then (3, 2) else (3, 1))%nat ->
  next_on a (child_index i k) = Ok (child_index j k').
Proof. intros Ha Hi Hl E Hk. apply (adj_children (Leaf tt) ltac:(cbn; lia) a Ha true i j k k' Hi Hl (conj E (or_introl eq_refl)) Hk). Qed.

Section Corrected.
Context {P : Type} (p0 : tree (array P)) (N : Z) (a : nat) (f : tree (array R)) (D : P -> R) (S K : R).
Hypothesis HN : 1 <= N.
Hypothesis HB : 2 * N + 2 < two64.
Hypothesis Ha : (a < 2)%nat.
Hypothesis W : wf_tree 2 f.
Hypothesis Hd : (depth f <= 30)%nat.
Hypothesis Bal : balanced f.
Hypothesis F : Forall (full (upd a (N + 1) [N; N])) (leaves f).
Hypothesis Hf : forall i b, is_node f i (Leaf b) -> exists v E G, is_node p0 i (Leaf v) /\ rep2 a v N N G /\ sides N p0 a i E G /\
  forall x k, 0 <= x < N + 1 -> 0 <= k < N -> (- (S * D (E (1 + x)%Z k) * (K / 2 ^ level i)) <= val b (face a x k) <= S * D (E x k) * (K / 2 ^ level i))%R.

Lemma corrected_drain i b v G : is_node f i (Leaf b) -> is_node p0 i (Leaf v) -> rep2 a v N N G ->
  forall k, 0 <= k < N ->
    (forall x, 0 < x < N + 1 -> (val (corrected a f i) (face a x k) <= S * D (G (x - 1)%Z k) * (K / 2 ^ level i))%R) /\
    (forall x, 0 <= x < N -> (- (S * D (G x k) * (K / 2 ^ level i)) <= val (corrected a f i) (face a x k))%R).
Proof.
  intros Hi Hv RG k Hk. destruct (corrected_ok N HN HB a Ha f W Hd Bal F i b Hi) as (_ & _ & I & CL & CH).
  pose proof (is_node_facts f W i _ Hi) as [_ Hli]. cbn [depth] in Hli.
  assert (IB : forall x, 0 <= x < N + 1 -> inb (upd a (N + 1) [N; N]) (face a x k)) by (intros x Hx; axes Ha; repeat constructor; lia).
  assert (NF : forall x, nth a (face a x k) 0 = x) by (intros x; axes Ha; reflexivity).
  destruct (Hf i b Hi) as (v' & E & G' & Hv' & RG' & (SO & _) & HE). pose proof (is_node_unique p0 i _ _ Hv Hv') as X. injection X as <-.
  pose proof (rep2_same a v N N _ _ RG' RG) as GG.
  assert (UP : forall x, 0 < x < N + 1 -> (val b (face a x k) <= S * D (G (x - 1)%Z k) * (K / 2 ^ level i))%R).
  { intros x Hx. destruct (HE x k ltac:(lia) Hk) as [_ U]. replace (E x k) with (G (x - 1) k) in U; [exact U|]. replace x with (x - 1 + 1) at 2 by lia. rewrite SO by lia. symmetry. apply GG; lia. }
  assert (LO : forall x, 0 <= x < N -> (- (S * D (G x k) * (K / 2 ^ level i)) <= val b (face a x k))%R).
  { intros x Hx. destruct (HE x k ltac:(lia) Hk) as [U _]. replace (E (1 + x) k) with (G x k) in U; [exact U|]. replace (1 + x) with (x + 1) by lia. rewrite SO by lia. symmetry. apply GG; lia. }
  (* the two fine faces that make up face k, from a node after or before the block *)
  assert (PL : forall j c0 c1 c2 c3 w0 w1 w2 w3, prev_on a i = Ok j -> is_node f j (Node [Leaf w0; Leaf w1; Leaf w2; Leaf w3]) -> (c0, c1, c2, c3) = (w0, w1, w2, w3) ->
     (- (S * D (G 0%Z k) * (K / 2 ^ level i)) <= pair_flux N a N (if (a =? 0)%nat then c1 else c2) c3 k)%R).
  { intros j c0 c1 c2 c3 w0 w1 w2 w3 Ej Hj X. injection X as -> -> -> ->.
    destruct (prev_next 2 a i (proj1 Hi) Ha ltac:(lia)) as (j' & c & E' & R & LE & NX & _). rewrite Ej in E'. injection E' as <-.
    pose proof (is_node_facts f W j _ Hj) as [_ Hlj]. cbn [depth map fold_right] in Hlj.
    assert (V : forall m ch w kk, nth_error [Leaf w0; Leaf w1; Leaf w2; Leaf w3] ch = Some (Leaf w) -> (m < 4)%nat -> next_on a (child_index j ch) = Ok (child_index i m) -> Nat.testbit m a = false -> 0 <= kk < N -> (offset N m (1 - a) + kk) / 2 = k ->
       (- (S * D (G 0%Z k) * (K / (2 * 2 ^ level i))) <= val w (face a N kk))%R).
    { intros m ch w kk Ech Hm NXc TB Hkk Ek. pose proof (is_node_child f W Hd j _ ch _ Hj Ech) as Nc. destruct (Hf _ _ Nc) as (vc & Ec & Gc & _ & _ & (_ & _ & SN) & Bc).
      destruct (Bc N kk ltac:(lia) Hkk) as [U _]. replace (1 + N) with (N + 1) in U by lia. rewrite (SN i m v G NXc Hm Hv RG kk Hkk), Ek in U.
      replace ((offset N m a + 0) / 2) with 0 in U by (unfold offset; rewrite TB; reflexivity). cbn [child_index level] in U. rewrite LE in U. cbn [pow] in U. exact U. }
    assert (VL : forall kk, 0 <= kk < N -> kk / 2 = k -> (- (S * D (G 0%Z k) * (K / (2 * 2 ^ level i))) <= val (if (a =? 0)%nat then w1 else w2) (face a N kk))%R).
    { intros kk Hkk Ek. apply (V 0%nat (if (a =? 0)%nat then 1 else 2)%nat); [axes Ha; reflexivity|lia| |axes Ha; reflexivity|assumption|axes Ha; exact Ek].
      apply facing; [assumption|apply Hj|lia|exact NX|left; axes Ha; reflexivity]. }
    assert (VH : forall kk, 0 <= kk < N -> (N + kk) / 2 = k -> (- (S * D (G 0%Z k) * (K / (2 * 2 ^ level i))) <= val w3 (face a N kk))%R).
    { intros kk Hkk Ek. apply (V (if (a =? 0)%nat then 2 else 1)%nat 3%nat); [reflexivity|axes Ha; cbn; lia| |axes Ha; reflexivity|assumption|axes Ha; exact Ek].
      apply facing; [assumption|apply Hj|lia|exact NX|right; axes Ha; reflexivity]. }
    assert (PW : (K / (2 * 2 ^ level i) = K / 2 ^ level i / 2)%R) by (field; apply pow_nonzero; lra).
    assert (T : forall m, 0 <= m < 2 * N -> m / 2 = k -> (- (S * D (G 0%Z k) * (K / 2 ^ level i / 2)) <= (if (m <? N)%Z then val (if (a =? 0)%nat then w1 else w2) (face a N m) else val w3 (face a N (m - N)%Z)))%R).
    { intros m Hm Em. rewrite PW in VL, VH. destruct (Z.ltb_spec m N); [apply VL; lia|apply VH; [lia|]]. replace (N + (m - N)) with m by lia. exact Em. }
    unfold pair_flux. cbv zeta. pose proof (T (2 * k) ltac:(lia) ltac:(rewrite Z.mul_comm; apply Z.div_mul; lia)) as T1.
    pose proof (T (2 * k + 1) ltac:(lia) ltac:(replace (2 * k + 1) with (1 + k * 2) by lia; rewrite Z.div_add by lia; reflexivity)) as T2. lra. }
  assert (PH : forall j w0 w1 w2 w3, next_on a i = Ok j -> is_node f j (Node [Leaf w0; Leaf w1; Leaf w2; Leaf w3]) ->
     (pair_flux N a 0%Z w0 (if (a =? 0)%nat then w2 else w1) k <= S * D (G (N - 1)%Z k) * (K / 2 ^ level i))%R).
  { intros j w0 w1 w2 w3 Ej Hj.
    destruct (next_prev 2 a i (proj1 Hi) Ha ltac:(lia)) as (j' & c & E' & R & LE & PX & _). rewrite Ej in E'. injection E' as <-.
    pose proof (is_node_facts f W j _ Hj) as [_ Hlj]. cbn [depth map fold_right] in Hlj.
    assert (V : forall m ch w kk, nth_error [Leaf w0; Leaf w1; Leaf w2; Leaf w3] ch = Some (Leaf w) -> (m < 4)%nat -> next_on a (child_index i m) = Ok (child_index j ch) -> Nat.testbit m a = true -> 0 <= kk < N -> (offset N m (1 - a) + kk) / 2 = k ->
       (val w (face a 0%Z kk) <= S * D (G (N - 1)%Z k) * (K / (2 * 2 ^ level i)))%R).
    { intros m ch w kk Ech Hm NXc TB Hkk Ek. pose proof (is_node_child f W Hd j _ ch _ Hj Ech) as Nc. destruct (Hf _ _ Nc) as (vc & Ec & Gc & _ & _ & (_ & SP & _) & Bc).
      assert (PXc : prev_on a (child_index j ch) = Ok (child_index i m)).
      { assert (Ri : in_range 2 (child_index i m)) by (apply (child_in_range 2); apply Hi).
        destruct (next_prev 2 a (child_index i m) Ri Ha ltac:(cbn [child_index level]; lia)) as (j2 & c2 & E2 & _ & _ & P2 & _). rewrite NXc in E2. injection E2 as <-. exact P2. }
      destruct (Bc 0 kk ltac:(lia) Hkk) as [_ U]. rewrite (SP i m v G PXc Hm Hv RG kk Hkk), Ek in U.
      replace ((offset N m a + (N - 1)) / 2) with (N - 1) in U by (unfold offset; rewrite TB; replace (N + (N - 1)) with (1 + (N - 1) * 2) by lia; rewrite Z.div_add by lia; reflexivity).
      cbn [child_index level] in U. rewrite LE in U. cbn [pow] in U. exact U. }
    assert (VL : forall kk, 0 <= kk < N -> kk / 2 = k -> (val w0 (face a 0%Z kk) <= S * D (G (N - 1)%Z k) * (K / (2 * 2 ^ level i)))%R).
    { intros kk Hkk Ek. apply (V (if (a =? 0)%nat then 1 else 2)%nat 0%nat); [reflexivity|axes Ha; cbn; lia| |axes Ha; reflexivity|assumption|axes Ha; exact Ek].
      apply facing; [assumption|apply Hi|lia|exact Ej|left; axes Ha; reflexivity]. }
    assert (VH : forall kk, 0 <= kk < N -> (N + kk) / 2 = k -> (val (if (a =? 0)%nat then w2 else w1) (face a 0%Z kk) <= S * D (G (N - 1)%Z k) * (K / (2 * 2 ^ level i)))%R).
    { intros kk Hkk Ek. apply (V 3%nat (if (a =? 0)%nat then 2 else 1)%nat); [axes Ha; reflexivity|lia| |axes Ha; reflexivity|assumption|axes Ha; exact Ek].
      apply facing; [assumption|apply Hi|lia|exact Ej|right; axes Ha; reflexivity]. }
    assert (PW : (K / (2 * 2 ^ level i) = K / 2 ^ level i / 2)%R) by (field; apply pow_nonzero; lra).
    assert (T : forall m, 0 <= m < 2 * N -> m / 2 = k -> ((if (m <? N)%Z then val w0 (face a 0%Z m) else val (if (a =? 0)%nat then w2 else w1) (face a 0%Z (m - N)%Z)) <= S * D (G (N - 1)%Z k) * (K / 2 ^ level i / 2))%R).
    { intros m Hm Em. rewrite PW in VL, VH. destruct (Z.ltb_spec m N); [apply VL; lia|apply VH; [lia|]]. replace (N + (m - N)) with m by lia. exact Em. }
    unfold pair_flux. cbv zeta. pose proof (T (2 * k) ltac:(lia) ltac:(rewrite Z.mul_comm; apply Z.div_mul; lia)) as T1.
    pose proof (T (2 * k + 1) ltac:(lia) ltac:(replace (2 * k + 1) with (1 + k * 2) by lia; rewrite Z.div_add by lia; reflexivity)) as T2. lra. }
  split; intros x Hx.
  - destruct (Z.eq_dec x N) as [->|H1].
    + destruct (next_prev 2 a i (proj1 Hi) Ha ltac:(lia)) as (j & c & Ej & R & LE & _). destruct (CH j Ej) as [C1 C2].
      destruct (lookup_cases 2 f j W R ltac:(lia)) as [(w & X & _)|[(cs & X & _)|(X & _)]].
      * destruct (C1 ltac:(intros cs Hcs; destruct Hcs as (_ & _ & Y); rewrite X in Y; discriminate)) as [_ V]. unfold val at 1. rewrite V by (auto; apply IB; lia). apply (UP N). lia.
      * assert (Nj : is_node f j (Node cs)) by (split; [exact R|split; [lia|exact X]]). destruct (C2 cs Nj) as (w0 & w1 & w2 & w3 & -> & _ & V). rewrite V by assumption. eapply PH; eassumption.
      * destruct (C1 ltac:(intros cs Hcs; destruct Hcs as (_ & _ & Y); rewrite X in Y; discriminate)) as [_ V]. unfold val at 1. rewrite V by (auto; apply IB; lia). apply (UP N). lia.
    + unfold val at 1. rewrite I by (first [apply IB; lia|rewrite NF; lia]). apply (UP x). lia.
  - destruct (Z.eq_dec x 0) as [->|H1].
    + destruct (prev_next 2 a i (proj1 Hi) Ha ltac:(lia)) as (j & c & Ej & R & LE & _). destruct (CL j Ej) as [C1 C2].
      destruct (lookup_cases 2 f j W R ltac:(lia)) as [(w & X & _)|[(cs & X & _)|(X & _)]].
      * destruct (C1 ltac:(intros cs Hcs; destruct Hcs as (_ & _ & Y); rewrite X in Y; discriminate)) as [_ V]. unfold val at 1. rewrite V by (auto; apply IB; lia). apply (LO 0). lia.
      * assert (Nj : is_node f j (Node cs)) by (split; [exact R|split; [lia|exact X]]). destruct (C2 cs Nj) as (w0 & w1 & w2 & w3 & -> & _ & V). rewrite V by assumption. eapply PL; [eassumption|eassumption|reflexivity].
      * destruct (C1 ltac:(intros cs Hcs; destruct Hcs as (_ & _ & Y); rewrite X in Y; discriminate)) as [_ V]. unfold val at 1. rewrite V by (auto; apply IB; lia). apply (LO 0). lia.
    + unfold val at 1. rewrite I by (first [apply IB; lia|rewrite NF; lia]). apply (LO x). lia.
Qed.
End Corrected.
