(** Lemmas: gradients and face fluxes of a mesh, and the agreement of the fluxes where a leaf follows a leaf. *)
From Coq Require Import ZArith Reals Lra List Arith Bool Lia.
From Verif Require Import Base TreeModel TreeSpec TreeProofs TreeProofs2 TreeProofs3 TreeProofs4 BalanceModel BalanceSpec BalanceProofs
  NdModel NdSpec NdProofs NdProofs2 NdProofs3 NdOpsModel NdOpsProofs ProlongModel ProlongProofs FluxModel FluxTreeProofs FluxProofs FluxSpec FluxProofs3 FluxProofs4 FluxProofs5
  GuardModel GuardSpec GuardProofs GuardProofs2 GuardProofs3 GuardProofs4 MeshModel MeshSpec MeshProofs2 MeshProps StepModel StepSpec StepProofs StepProofs2.
Import ListNotations.
Open Scope Z_scope.

Lemma leaves_nodes {A} (t : tree A) (Q : A -> Prop) : wf_tree 2 t -> (depth t <= 31)%nat -> (forall i v, is_node t i (Leaf v) -> Q v) -> Forall Q (leaves t).
Proof.
  intros W D H. apply Forall_forall. intros x Hx. destruct (leaf_has_path t x W Hx) as (p & Hp & Ep). apply (H (addr 2 p)).
  apply (is_node_path t W). exists p. repeat split; auto. apply depth_path in Ep. lia.
Qed.

Lemma ok_inj {A} (x y : A) : Ok x = Ok y -> x = y.
Proof. congruence. Qed.

Lemma rep2_full {A} N (v : array A) a F : (a < 2)%nat -> rep2 a v N N F -> ashape v = repeat N 2 /\ forall k, inb (repeat N 2) k -> exists x, aget v k = Ok x.
Proof.
  intros Ha [H1 H2]. rewrite H1. change (repeat N 2) with [N; N]. rewrite (square_face N a Ha). split; [reflexivity|]. intros q Hq.
  destruct (inb_face a N N q Ha Hq) as (x & k & -> & Hx & Hk). rewrite H2 by assumption. eauto.
Qed.

(** The gradients are full blocks again. *)
Lemma gradients_ok {P} (gradient : nat -> P -> P -> P -> P) N a (e : tree (array P)) : (a < 2)%nat -> 1 <= N /\ 4 * N + 4 < two64 ->
  wf_tree 2 e -> (depth e <= 30)%nat -> seamless N a e -> exists g, gradients gradient a e = Ok g /\ same_shape e g /\ blocks 2 N g /\
    forall Q Q' : P -> Prop, (forall i b x k y, is_node e i (Leaf b) -> 0 <= x < N + 2 -> 0 <= k < N -> aget b (face a x k) = Ok y -> Q y) ->
      (forall l x y z, Q x -> Q y -> Q z -> Q' (gradient l x y z)) -> forall i v k x, is_node g i (Leaf v) -> inb [N; N] k -> aget v k = Ok x -> Q' x.
Proof.
  intros Ha HN W D [HR _]. unfold gradients. destruct (pair_leaf e W ltac:(lia)) as (q & Eq & Sq & Kq). rewrite Eq. bsimp.
  destruct (same_shape_wf e q W Sq) as [Wq Dq].
  assert (G : forall i b, is_node e i (Leaf b) -> exists y F, estimate_gradient gradient a (i, b) = Ok y /\ rep2 a y N N F /\ exists E, rep2 a b (N + 2) N E /\ forall x k, F x k = gradient (level i) (E x k) (E (1 + x) k) (E (2 + x) k)).
  { intros i b Hi. destruct (HR i b Hi) as [E RE]. unfold estimate_gradient. cbn [fst snd].
    destruct (adjacent3_rep2 a b (N + 2) N E Ha ltac:(lia) ltac:(lia) RE) as (z & Ez & Rz). rewrite Ez. bsimp. replace (N + 2 - 2) with N in Rz by lia.
    eexists. eexists. split; [reflexivity|]. split; [eapply map_rep2; exact Rz|]. exists E. split; [exact RE|]. intros x k. reflexivity. }
  assert (BQ : forall i z, is_node q i (Leaf z) -> exists b, is_node e i (Leaf b) /\ z = (i, b)).
  { intros i z Hi. destruct (shape_leaf q e i z Wq (shape_sym _ _ Sq) Hi) as [b Hb]. exists b. split; [assumption|].
    pose proof (is_node_unique q i _ _ Hi (Kq i b Hb)) as X. injection X as ->. reflexivity. }
  destruct (tmapM_at (estimate_gradient gradient a) (mkarr [] (fun _ => UB)) q Wq ltac:(lia)) as (g & Eg & Sg & Kg).
  - intros i z Hi. destruct (BQ i z Hi) as (b & Hb & ->). destruct (G i b Hb) as (y & _ & E & _). eauto.
  - exists g. split; [exact Eg|]. split; [eapply shape_trans; eassumption|]. destruct (same_shape_wf q g Wq Sg) as [Wg Dg].
    split.
    2:{ intros Q Q' HQ HG i v k x Hi Hk Ex. destruct (shape_leaf g q i v Wg (shape_sym _ _ Sg) Hi) as [z Hz]. destruct (BQ i z Hz) as (b & Hb & ->). destruct (G i b Hb) as (y' & F & E & [_ RF] & E' & [_ RE] & FE).
        pose proof (is_node_unique g i _ _ Hi (Kg i _ y' Hz E)) as X. injection X as ->. rewrite (square_face N a Ha) in Hk. destruct (inb_face a N N k Ha Hk) as (x' & k' & -> & Hx & Hk').
        rewrite (RF x' k' Hx Hk') in Ex. injection Ex as <-. rewrite FE. apply HG; (eapply HQ; [exact Hb| | |apply RE]; lia). }
    constructor; [exact HN|assumption|lia|]. apply leaves_nodes; [assumption|lia|]. intros i y Hi.
    destruct (shape_leaf g q i y Wg (shape_sym _ _ Sg) Hi) as [z Hz]. destruct (BQ i z Hz) as (b & Hb & ->). destruct (G i b Hb) as (y' & F & E & R & _).
    pose proof (is_node_unique g i _ _ Hi (Kg i _ y' Hz E)) as X. injection X as ->. eapply rep2_full; eassumption.
Qed.

(** The position of a vertex numbered along the axis. *)
Definition vertex (a : nat) (r : R) (N : Z) (i : idx) (x k : Z) : R * R :=
  if (a =? 0)%nat then point_in r N i (IZR x) (IZR k) else point_in r N i (IZR k) (IZR x).

Lemma vertex_next a r N i j k : (a < 2)%nat -> level j = level i ->
  (forall b, b <> a -> nth b (coords j) 0%nat = nth b (coords i) 0%nat) -> nth a (coords j) 0%nat = (nth a (coords i) 0 + 1)%nat ->
  vertex a r N i N k = vertex a r N j 0 k.
Proof.
  intros Ha HL HO HA. unfold vertex, point_in. rewrite HL.
  axes Ha; cbn [Nat.eqb]; [rewrite (HO 1%nat) by lia|rewrite (HO 0%nat) by lia]; rewrite HA, Nat2Z.inj_add, !mult_IZR, plus_IZR; change (IZR (Z.of_nat 1)) with 1%R; apply (f_equal2 pair); apply (f_equal (place r N (level i))); ring.
Qed.


Lemma place_edges r N l c : 1 <= N -> (c + 1 = 2 ^ l)%nat -> place r N l (IZR (Z.of_nat c * N) + IZR N) = r /\ place r N l (IZR (Z.of_nat 0 * N) + 0) = (- r)%R.
Proof.
  intros HN Hc. unfold place. assert (HI : IZR N <> 0%R) by (apply not_0_IZR; lia). pose proof (pow_lt 2 l ltac:(lra)) as Hp. split.
  - rewrite mult_IZR. assert (E : IZR (Z.of_nat c) = (2 ^ l - 1)%R).
    { replace (Z.of_nat c) with (Z.of_nat (2 ^ l) - 1) by lia. rewrite minus_IZR, <- INR_IZR_INZ, pow_INR. reflexivity. }
    rewrite E. field. split; [lra|assumption].
  - change (Z.of_nat 0 * N) with 0. rewrite Rplus_0_l, Rmult_0_l. ring.
Qed.

Lemma vertex_wrap a r N i j : (a < 2)%nat -> 1 <= N -> level j = level i ->
  (forall b, b <> a -> nth b (coords j) 0%nat = nth b (coords i) 0%nat) -> (nth a (coords i) 0 + 1 = 2 ^ level i)%nat -> nth a (coords j) 0%nat = 0%nat ->
  exists y, forall k, vertex a r N i N k = edge a r (y k) /\ vertex a r N j 0 k = edge a (- r) (y k).
Proof.
  intros Ha HN HL HO H1 H2. destruct (place_edges r N (level i) _ HN H1) as [P1 P2].
  exists (fun k => place r N (level i) (IZR (Z.of_nat (nth (1 - a) (coords i) 0%nat) * N) + IZR k)). intros k. unfold vertex, edge, point_in. rewrite HL.
  axes Ha; [change (0 =? 0)%nat with true|change (1 =? 0)%nat with false]; cbv iota; change (1 - 0)%nat with 1%nat; change (1 - 1)%nat with 0%nat.
  - rewrite (HO 1%nat) by lia. rewrite H2, P1, P2. split; reflexivity.
  - rewrite (HO 0%nat) by lia. rewrite H2, P1, P2. split; reflexivity.
Qed.

Lemma next_on_coords a i j : (a < 2)%nat -> in_range 2 i -> in_range 2 j -> (level i < 31)%nat -> level j = level i ->
  (forall b, b <> a -> nth b (coords j) 0%nat = nth b (coords i) 0%nat) ->
  (nth a (coords j) 0 = nth a (coords i) 0 + 1 \/ nth a (coords i) 0 + 1 = 2 ^ level i /\ nth a (coords j) 0 = 0)%nat -> next_on a i = Ok j.
Proof.
  intros Ha Ri Rj HLi HL HO HA. destruct (two_coords i Ri) as (x & y & Ei & Bx & By). destruct (two_coords j Rj) as (x' & y' & Ej & Bx' & By').
  apply (next_coords a i j x y Ha Ei Bx By HLi).
  assert (Ci : coords i = [x; y]) by (rewrite Ei; reflexivity). assert (Cj : coords j = [x'; y']) by (rewrite Ej; reflexivity).
  rewrite Ci, Cj in HO, HA. rewrite HL in Ej, Bx', By'. rewrite Ej. axes Ha.
  - specialize (HO 1%nat ltac:(lia)). cbn [nth] in HO, HA. unfold wrapS. change (0 =? 0)%nat with true. cbv iota. destruct (Nat.eqb_spec (S x) (2 ^ level i)); repeat f_equal; lia.
  - specialize (HO 0%nat ltac:(lia)). cbn [nth] in HO, HA. unfold wrapS. change (1 =? 0)%nat with false. cbv iota. destruct (Nat.eqb_spec (S y) (2 ^ level i)); repeat f_equal; lia.
Qed.

Section Faces.
Context {P : Type} (flux : nat -> nat -> R * R -> P * P -> P * P -> P * P -> R).
Variables (N : Z) (r : R) (a : nat).
Hypothesis HN : 1 <= N /\ 4 * N + 4 < two64.
Hypothesis Ha : (a < 2)%nat.

Lemma vertices_rep2 vt i xv : regular N r vt -> is_node vt i (Leaf xv) -> rep2 a xv (N + 1) (N + 1) (vertex a r N i).
Proof.
  intros HR Hi. destruct (HR i xv (proj1 Hi) (leaf_at vt i xv Hi)) as [H1 H2]. clear HN. split; [rewrite H1; axes Ha; reflexivity|].
  intros x k Hx Hk. unfold vertex. axes Ha; [change (0 =? 0)%nat with true|change (1 =? 0)%nat with false]; apply H2; lia.
Qed.

Definition face_value (i : idx) (Pe Gl Gt : Z -> Z -> P) (x k : Z) : R :=
  let X := vertex a r N i in
  let c := if (a =? 0)%nat then snd else fst in
  Rmult (flux a (level i) (loc_half (loc_add (X x k) (X x (1 + k)))) (Pe x k, Pe (1 + x) k) (Gl x k, Gl (1 + x) k) (Gt x k, Gt (1 + x) k))
   (Rminus (c (X x (1 + k))) (c (X x k))).

Lemma block_flux_ok i xv p gl gt Pe Gl Gt : rep2 a xv (N + 1) (N + 1) (vertex a r N i) -> rep2 a p (N + 2) N Pe -> rep2 a gl (N + 2) N Gl -> rep2 a gt (N + 2) N Gt ->
  exists f, block_flux flux a xv p gl gt (level i) = Ok f /\ rep2 a f (N + 1) N (face_value i Pe Gl Gt).
Proof.
  intros RX RP RL RT. unfold block_flux.
  destruct (difference_rep2 Rminus a _ (N + 1) (N + 1) _ Ha ltac:(lia) ltac:(lia) (map_rep2 (if (a =? 0)%nat then snd else fst) a xv _ _ _ RX)) as (len & E1 & R1). rewrite E1. bsimp.
  destruct (midpoint_rep2 loc_add loc_half a xv (N + 1) (N + 1) _ Ha ltac:(lia) ltac:(lia) RX) as (xf & E2 & R2). rewrite E2. bsimp.
  destruct (adjacent2_rep2 a p (N + 2) N Pe Ha ltac:(lia) ltac:(lia) RP) as (pp & E3 & R3). rewrite E3. bsimp.
  destruct (adjacent2_rep2 a gl (N + 2) N Gl Ha ltac:(lia) ltac:(lia) RL) as (l2 & E4 & R4). rewrite E4. bsimp.
  destruct (adjacent2_rep2 a gt (N + 2) N Gt Ha ltac:(lia) ltac:(lia) RT) as (t2 & E5 & R5). rewrite E5. bsimp.
  replace (N + 1 - 1) with N in R1, R2 by lia. replace (N + 2 - 1) with (N + 1) in R3, R4, R5 by lia. unfold zip_apply4.
  destruct (zip_rep2 a l2 t2 _ _ _ _ Ha R4 R5) as (z1 & F1 & Q1). rewrite F1. bsimp.
  destruct (zip_rep2 a pp z1 _ _ _ _ Ha R3 Q1) as (z2 & F2 & Q2). rewrite F2. bsimp.
  destruct (zip_rep2 a xf z2 _ _ _ _ Ha R2 Q2) as (z3 & F3 & Q3). rewrite F3. bsimp.
  destruct (binop_rep2 Rmult a _ len (N + 1) N _ _ Ha (map_rep2 (fun w => flux a (level i) (fst w) (fst (snd w)) (fst (snd (snd w))) (snd (snd (snd w)))) a z3 _ _ _ Q3) R1) as (f & E6 & R6).
  exists f. split; [exact E6|]. eapply rep2_ext; [exact R6|]. intros x k _ _. unfold face_value. cbn [fst snd]. reflexivity.
Qed.

Let wraps : Prop := edges_alike flux r a.

Lemma edge_mid x y z : loc_half (loc_add (edge a x y) (edge a x z)) = edge a x ((y + z) / 2).
Proof. unfold edge, loc_half, loc_add. destruct (a =? 0)%nat; cbn [fst snd]; f_equal; field. Qed.
Lemma edge_across x y : (if (a =? 0)%nat then snd else fst) (edge a x y) = y.
Proof. unfold edge. destruct (a =? 0)%nat; reflexivity. Qed.

Lemma tree_flux_ok {B} (t : tree B) vt pe gl gt : wf_tree 2 t -> (depth t <= 30)%nat -> same_shape t vt -> same_shape t pe -> same_shape t gl -> same_shape t gt ->
  regular N r vt -> seamless N a pe -> seamless N a gl -> seamless N a gt ->
  exists f, tmapM (tree_flux flux a vt pe gl gt) (indexes 2 t) = Ok f /\ same_shape t f /\
    (forall i b, is_node f i (Leaf b) -> exists p l g Pe Gl Gt, is_node pe i (Leaf p) /\ is_node gl i (Leaf l) /\ is_node gt i (Leaf g) /\ rep2 a p (N + 2) N Pe /\ rep2 a l (N + 2) N Gl /\ rep2 a g (N + 2) N Gt /\
       rep2 a b (N + 1) N (face_value i Pe Gl Gt)) /\
    forall per, (per = true -> wraps) -> consistent N a per f.
Proof.
  intros W D Sv Sp Sl St HR [P1 P2] [L1 L2] [T1 T2].
  assert (K0 : forall i v, is_node t i (Leaf v) -> exists xv p l g Pe Gl Gt f, is_node vt i (Leaf xv) /\ is_node pe i (Leaf p) /\ is_node gl i (Leaf l) /\ is_node gt i (Leaf g) /\
     rep2 a p (N + 2) N Pe /\ rep2 a l (N + 2) N Gl /\ rep2 a g (N + 2) N Gt /\ tree_flux flux a vt pe gl gt i = Ok f /\ rep2 a f (N + 1) N (face_value i Pe Gl Gt)).
  { intros i v Hi. destruct (shape_leaf t vt i v W Sv Hi) as [xv Hx]. destruct (shape_leaf t pe i v W Sp Hi) as [p Hp].
    destruct (shape_leaf t gl i v W Sl Hi) as [l Hl]. destruct (shape_leaf t gt i v W St Hi) as [g Hg].
    destruct (P1 i p Hp) as [Pe RP]. destruct (L1 i l Hl) as [Gl RL]. destruct (T1 i g Hg) as [Gt RT].
    destruct (block_flux_ok i xv p l g Pe Gl Gt (vertices_rep2 vt i xv HR Hx) RP RL RT) as (f & Ef & Rf).
    exists xv, p, l, g, Pe, Gl, Gt, f. do 7 (split; [assumption|]). split; [|assumption].
    unfold tree_flux. rewrite (leaf_at vt i xv Hx). bsimp. rewrite (leaf_at pe i p Hp). bsimp. rewrite (leaf_at gl i l Hl). bsimp. rewrite (leaf_at gt i g Hg). bsimp. exact Ef. }
  destruct (tmapM_idx (tree_flux flux a vt pe gl gt) (mkarr [] (fun _ => UB)) t W ltac:(lia)) as (f & E & SS & K).
  - intros i v Hi. destruct (K0 i v Hi) as (xv & p & l & g & Pe & Gl & Gt & y & _ & _ & _ & _ & _ & _ & _ & E & _). eauto.
  - exists f. split; [exact E|]. split; [exact SS|]. destruct (same_shape_wf t f W SS) as [Wf Df].
    assert (Back : forall i b, is_node f i (Leaf b) -> exists v, is_node t i (Leaf v) /\ tree_flux flux a vt pe gl gt i = Ok b).
    { intros i b Hib. destruct (shape_leaf f t i b Wf (shape_sym _ _ SS) Hib) as [v Hv]. exists v. split; [assumption|].
      destruct (K0 i v Hv) as (xv & p & l & g & Pe & Gl & Gt & y & _ & _ & _ & _ & _ & _ & _ & E' & _). pose proof (K i v y Hv E') as Hy.
      pose proof (is_node_unique f i _ _ Hib Hy) as X. injection X as ->. exact E'. }
    split.
    + intros i b Hib. destruct (Back i b Hib) as (v & Hv & Eb). destruct (K0 i v Hv) as (xv & p & l & g & Pe & Gl & Gt & y & _ & Hp & Hl & Hg & RP & RL & RT & E' & R').
      rewrite Eb in E'. injection E' as <-. exists p, l, g, Pe, Gl, Gt. do 6 (split; [assumption|]). assumption.
    + intros per Hper i j b c Hi Hj HL HO HA Eb Ec k Hk.
      destruct (in_leaf f Wf ltac:(lia) i Hi) as (b' & Hib). pose proof (leaf_at f i b' Hib) as X. rewrite Eb in X. injection X as <-.
      destruct (in_leaf f Wf ltac:(lia) j Hj) as (c' & Hjc). pose proof (leaf_at f j c' Hjc) as X. rewrite Ec in X. injection X as <-.
      pose proof (is_node_facts f Wf i _ Hib) as [_ Hli]. cbn [depth] in Hli.
      pose proof (next_on_coords a i j Ha (proj1 Hib) (proj1 Hjc) ltac:(lia) HL HO ltac:(destruct HA as [HA|[_ HA]]; [left|right]; exact HA)) as Hn.
      destruct (Back i b Hib) as (v & Hv & Fb). destruct (Back j c Hjc) as (w & Hw & Fc).
      destruct (K0 i v Hv) as (xv & p & l & g & Pe & Gl & Gt & y & _ & Hp & Hl & Hg & [_ RP] & [_ RL] & [_ RT] & E1 & [_ R1]). rewrite Fb in E1. injection E1 as <-.
      destruct (K0 j w Hw) as (xv' & p' & l' & g' & Pe' & Gl' & Gt' & y' & _ & Hp' & Hl' & Hg' & [_ RP'] & [_ RL'] & [_ RT'] & E2 & [_ R2]). rewrite Fc in E2. injection E2 as <-.
      rewrite R1, R2 by lia. f_equal. unfold face_value. rewrite HL.
      destruct (P2 i j p p' Hp Hp' Hn k Hk) as [Q1 Q2]. destruct (L2 i j l l' Hl Hl' Hn k Hk) as [Q3 Q4]. destruct (T2 i j g g' Hg Hg' Hn k Hk) as [Q5 Q6].
      replace (N + 1) with (1 + N) in Q2, Q4, Q6 by lia.
      rewrite RP, RP' in Q1, Q2 by lia. rewrite RL, RL' in Q3, Q4 by lia. rewrite RT, RT' in Q5, Q6 by lia. change (1 + 0) with 1.
      apply ok_inj in Q1, Q2, Q3, Q4, Q5, Q6. rewrite Q1, Q2, Q3, Q4, Q5, Q6. destruct HA as [HA|(HP & H1 & H2)].
      * rewrite !(vertex_next a r N i j) by assumption. reflexivity.
      * destruct (vertex_wrap a r N i j Ha (proj1 HN) HL HO H1 H2) as [y0 Hy]. rewrite !(proj1 (Hy _)), !(proj2 (Hy _)), !edge_mid, !edge_across, (Hper HP). reflexivity.
Qed.
End Faces.

Lemma across_width a r N i x k : (a < 2)%nat -> 1 <= N ->
  Rminus ((if (a =? 0)%nat then snd else fst) (vertex a r N i x (1 + k))) ((if (a =? 0)%nat then snd else fst) (vertex a r N i x k)) = (2 * r / (IZR N * 2 ^ level i))%R.
Proof.
  intros Ha HN. assert (HI : IZR N <> 0%R) by (apply not_0_IZR; lia). pose proof (pow_lt 2 (level i) ltac:(lra)) as Hp. unfold vertex, point_in, place.
  axes Ha; [change (0 =? 0)%nat with true|change (1 =? 0)%nat with false]; cbv iota; cbn [fst snd]; rewrite plus_IZR; field; split; first [assumption|lra].
Qed.

(** All face fluxes of a mesh. *)
Lemma face_fluxes_ok {P} (padd : P -> P -> P) (phalf : P -> P) gradient flux N r (p0 : tree (array P)) vt fuel :
  blocks 2 N p0 -> balanced p0 -> same_shape p0 vt -> regular N r vt -> (depth p0 < fuel)%nat ->
  exists fx fy, face_fluxes padd phalf gradient flux fuel vt p0 = Ok (fx, fy) /\ same_shape p0 fx /\ same_shape p0 fy /\
    Forall (full [N + 1; N]) (leaves fx) /\ Forall (full [N; N + 1]) (leaves fy) /\
    (forall per, (per = true -> edges_alike flux r 0) -> consistent N 0 per fx) /\ (forall per, (per = true -> edges_alike flux r 1) -> consistent N 1 per fy) /\
    forall (Q Qg : P -> Prop) (K : nat -> R), (forall x y, Q x -> Q y -> Q (phalf (padd x y))) -> (forall x y, Qg x -> Qg y -> Qg (phalf (padd x y))) ->
      (forall i v k x, is_node p0 i (Leaf v) -> inb [N; N] k -> aget v k = Ok x -> Q x) -> (forall l x y z, Q x -> Q y -> Q z -> Qg (gradient l x y z)) ->
      (forall a l x p p' g g' h h', (a < 2)%nat -> Q p -> Q p' -> Qg g -> Qg g' -> Qg h -> Qg h' -> flux a l x (p, p') (g, g') (h, h') = K a) ->
      (forall i b x k, is_node fx i (Leaf b) -> 0 <= x < N + 1 -> 0 <= k < N -> aget b (face 0 x k) = Ok (K 0%nat * (2 * r / (IZR N * 2 ^ level i)))%R) /\
      (forall i b x k, is_node fy i (Leaf b) -> 0 <= x < N + 1 -> 0 <= k < N -> aget b (face 1 x k) = Ok (K 1%nat * (2 * r / (IZR N * 2 ^ level i)))%R).
Proof.
  intros Hb Hbal Sv HR Hfu. pose proof (b_wf 2 N p0 Hb) as W. pose proof (b_depth 2 N p0 Hb) as Hd. pose proof (b_size 2 N p0 Hb) as HN.
  unfold face_fluxes, extended.
  destruct (extended_ok padd phalf N p0 Hb Hbal 0 fuel ltac:(lia) Hfu) as (ex & E1 & S1 & M1 & V1). rewrite E1. bsimp.
  destruct (extended_ok padd phalf N p0 Hb Hbal 1 fuel ltac:(lia) Hfu) as (ey & E2 & S2 & M2 & V2). rewrite E2. bsimp.
  destruct (same_shape_wf p0 ex W S1) as [W1 D1]. destruct (same_shape_wf p0 ey W S2) as [W2 D2].
  destruct (gradients_ok gradient N 0 ex ltac:(lia) HN W1 ltac:(lia) M1) as (gx & E3 & S3 & B3 & V3). rewrite E3. bsimp.
  destruct (gradients_ok gradient N 1 ey ltac:(lia) HN W2 ltac:(lia) M2) as (gy & E4 & S4 & B4 & V4). rewrite E4. bsimp.
  assert (T3 : same_shape p0 gx) by exact (shape_trans _ _ _ S1 S3). assert (T4 : same_shape p0 gy) by exact (shape_trans _ _ _ S2 S4).
  destruct (same_shape_wf p0 gx W T3) as [W3 D3]. destruct (same_shape_wf p0 gy W T4) as [W4 D4].
  pose proof (same_shape_balanced p0 gx T3 Hbal) as Bx. pose proof (same_shape_balanced p0 gy T4 Hbal) as By.
  destruct (extended_ok padd phalf N gx B3 Bx 0 fuel ltac:(lia) ltac:(lia)) as (gxx & E5 & S5 & M5 & V5). rewrite E5. bsimp.
  destruct (extended_ok padd phalf N gx B3 Bx 1 fuel ltac:(lia) ltac:(lia)) as (gxy & E6 & S6 & M6 & V6). rewrite E6. bsimp.
  destruct (extended_ok padd phalf N gy B4 By 0 fuel ltac:(lia) ltac:(lia)) as (gyx & E7 & S7 & M7 & V7). rewrite E7. bsimp.
  destruct (extended_ok padd phalf N gy B4 By 1 fuel ltac:(lia) ltac:(lia)) as (gyy & E8 & S8 & M8 & V8). rewrite E8. bsimp.
  destruct (tree_flux_ok flux N r 0 HN ltac:(lia) p0 vt ex gxx gyx W Hd Sv S1 (shape_trans _ _ _ T3 S5) (shape_trans _ _ _ T4 S7) HR M1 M5 M7) as (fx & Ex & Sx & Rx & Cx). rewrite Ex. bsimp.
  destruct (tree_flux_ok flux N r 1 HN ltac:(lia) p0 vt ey gyy gxy W Hd Sv S2 (shape_trans _ _ _ T4 S8) (shape_trans _ _ _ T3 S6) HR M2 M8 M6) as (fy & Ey & Sy & Ry & Cy). rewrite Ey. bsimp.
  exists fx, fy. split; [reflexivity|]. do 2 (split; [assumption|]).
  destruct (same_shape_wf p0 fx W Sx) as [Wx Dx]. destruct (same_shape_wf p0 fy W Sy) as [Wy Dy].
  split; [|split; [|split; [assumption|split; [assumption|]]]].
  - apply leaves_nodes; [assumption|lia|]. intros i b Hi. destruct (Rx i b Hi) as (_ & _ & _ & ? & ? & ? & _ & _ & _ & _ & _ & _ & RF). apply rep2_reps in RF; [|lia]. destruct RF as [F1 F2].
    split; [exact F1|]. intros k Hk. rewrite (F2 k Hk). eauto.
  - apply leaves_nodes; [assumption|lia|]. intros i b Hi. destruct (Ry i b Hi) as (_ & _ & _ & ? & ? & ? & _ & _ & _ & _ & _ & _ & RF). apply rep2_reps in RF; [|lia]. destruct RF as [F1 F2].
    split; [exact F1|]. intros k Hk. rewrite (F2 k Hk). eauto.
  - intros Q Qg K HQ HG HD HP HF.
    assert (DQ : stable padd phalf N p0 Q) by (split; assumption).
    assert (GX : stable padd phalf N gx Qg) by (split; [assumption|exact (V3 Q Qg (V1 Q DQ) HP)]).
    assert (GY : stable padd phalf N gy Qg) by (split; [assumption|exact (V4 Q Qg (V2 Q DQ) HP)]).
    split.
    + intros i b x k Hi Hx Hk. destruct (Rx i b Hi) as (p & l & g & Pe & Gl & Gt & Np & Nl & Ng & [_ RP] & [_ RL] & [_ RT] & [_ RF]). rewrite RF by assumption. f_equal.
      unfold face_value. rewrite (across_width 0) by lia. f_equal. apply HF; [lia|eapply V1|eapply V1|eapply V5|eapply V5|eapply V7|eapply V7]; try exact DQ; try exact GX; try exact GY; try eassumption;
        try (first [apply RP|apply RL|apply RT]; lia); lia.
    + intros i b x k Hi Hx Hk. destruct (Ry i b Hi) as (p & l & g & Pe & Gl & Gt & Np & Nl & Ng & [_ RP] & [_ RL] & [_ RT] & [_ RF]). rewrite RF by assumption. f_equal.
      unfold face_value. rewrite (across_width 1) by lia. f_equal. apply HF; [lia|eapply V2|eapply V2|eapply V8|eapply V8|eapply V6|eapply V6]; try exact DQ; try exact GX; try exact GY; try eassumption;
        try (first [apply RP|apply RL|apply RT]; lia); lia.
Qed.
