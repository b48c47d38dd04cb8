(** The corrected trees and the whole step. *)
From Coq Require Import ZArith List Arith Bool Lia Reals Lra.
From Verif Require Import Base TreeModel TreeSpec TreeProofs TreeProofs2 TreeProofs3 TreeProofs4
  BalanceModel BalanceSpec BalanceProofs NdModel NdSpec NdProofs NdProofs2 NdProofs3 NdOpsModel NdOpsProofs
  ProlongModel ProlongProofs ProlongProps FluxModel FluxSpec FluxTreeProofs FluxProofs FluxProofs2 FluxProofs3 FluxProofs4.
Import ListNotations.
Open Scope Z_scope.

(** Corrected fluxes of the whole mesh on axis a. *)
Definition correct_axis (a : nat) (t : tree (array R)) : outcome (tree (array R)) :=
  tmapM (if (a =? 0)%nat then correct_fluxes_x (@contains_compiled) t else correct_fluxes_y (@contains_compiled) t) (indexes 2 t).
Lemma correct_axis_gen a t : (a < 2)%nat -> correct_axis a t = tmapM (gen_correct a t) (indexes 2 t).
Proof. intros Ha. unfold correct_axis. destruct a as [|[|b]]; [| |lia]; reflexivity. Qed.

Lemma idx_eta p q : level p = level q -> coords p = coords q -> p = q.
Proof. destruct p, q; cbn; congruence. Qed.
Lemma wrapS_mod n x : (0 < n)%nat -> (x < n)%nat -> ((x + 1) mod n = wrapS n x)%nat.
Proof.
  intros Hn Hx. unfold wrapS. rewrite Nat.add_1_r. destruct (Nat.eqb_spec (S x) n) as [->|H]; [apply Nat.mod_same; lia|apply Nat.mod_small; lia].
Qed.
Lemma wrapP_mod n x : (0 < n)%nat -> (x < n)%nat -> wrapS n ((x + n - 1) mod n) = x.
Proof.
  intros Hn Hx. unfold wrapS. destruct x as [|x].
  - rewrite Nat.mod_small by lia. destruct (Nat.eqb_spec (S (0 + n - 1)) n); lia.
  - replace (S x + n - 1)%nat with (x + 1 * n)%nat by lia. rewrite Nat.mod_add, Nat.mod_small by lia. destruct (Nat.eqb_spec (S x) n); lia.
Qed.
Lemma rsum_map {I J} (g : I -> J) (F : J -> R) l : rsum F (map g l) = rtotal (fun x => F (g x)) l.
Proof. induction l as [|x l IH]; [reflexivity|]. cbn [map rsum total]. rewrite IH. reflexivity. Qed.

Section Mesh.
Variable N : Z.
Hypothesis HN : 1 <= N.
Hypothesis HB : 2 * N + 2 < two64.
Variable a : nat.
Hypothesis Ha : (a < 2)%nat.
Variable t : tree (array R).
Hypothesis Hwf : wf_tree 2 t.
Hypothesis Hd : (depth t <= 30)%nat.
Hypothesis Hbal : balanced t.
Let sh : list Z := upd a (N + 1) [N; N].
Hypothesis Hfull : Forall (full sh) (leaves t).

Lemma corrected_tree : exists tc, correct_axis a t = Ok tc /\ same_shape t tc /\ indexes 2 tc = indexes 2 t /\
  leaves tc = map (corrected a t) (leaves (indexes 2 t)) /\ Forall (full sh) (leaves tc) /\
  forall i, In i (leaves (indexes 2 t)) -> at_ tc i = Ok (corrected a t i).
Proof.
  exists (tmap (corrected a t) (indexes 2 t)). rewrite correct_axis_gen by assumption. split.
  - apply tmapM_ok. intros i Hi. destruct (in_leaf t Hwf Hd i Hi) as (v & Hv). apply (corrected_ok N HN HB a Ha t Hwf Hd Hbal Hfull i v Hv).
  - destruct (built t (corrected a t) Hwf ltac:(lia)) as (S1 & W & D & EI & EL & LK). do 3 (split; [assumption|]). split; [|exact LK].
    rewrite EL. apply Forall_forall. intros f Hf. apply in_map_iff in Hf. destruct Hf as (i & <- & Hi).
    destruct (in_leaf t Hwf Hd i Hi) as (v & Hv). apply (corrected_ok N HN HB a Ha t Hwf Hd Hbal Hfull i v Hv).
Qed.

Lemma fine_branch j k p g : in_range 2 j -> (k < 4)%nat -> p = child_index j k -> is_node t p (Leaf g) ->
  exists cs, is_node t j (Node cs) /\ nth_error cs k = Some (Leaf g).
Proof.
  intros Hj Hk -> Hp. destruct (in_range_addr 2 j Hj) as (q & Hq & HLq & ->). rewrite child_addr in Hp by assumption.
  apply (is_node_path t Hwf) in Hp. destruct Hp as (r & Hr & HLr & E & NP).
  apply addr_inj in E; [|apply Forall_app; split; [assumption|constructor; [exact Hk|constructor]]|assumption]. subst r. rewrite node_path_app in NP.
  destruct (node_path q t) as [n|] eqn:Eq; [|discriminate]. destruct n as [x|cs]; [discriminate|]. exists cs. cbn [node_path] in NP.
  destruct (nth_error cs k) as [c|] eqn:Ec; [|discriminate]. injection NP as ->. split; [|reflexivity].
  apply (is_node_path t Hwf). exists q. rewrite app_length in HLr. repeat split; auto. cbn [length] in HLr. lia.
Qed.

Lemma matching_above i p q : In i (leaves (indexes 2 t)) -> In p (leaves (indexes 2 t)) -> In q (leaves (indexes 2 t)) ->
  above a i p q -> forall k, 0 <= k < N ->
  val (corrected a t i) (face a N k) = pair_flux N a 0 (corrected a t p) (corrected a t q) k.
Proof.
  intros Li Lp Lq (L1 & L2 & A1 & A2 & B1 & B2) k Hk.
  destruct (in_leaf t Hwf Hd i Li) as (v & Hi). destruct (in_leaf t Hwf Hd p Lp) as (g & Hp). destruct (in_leaf t Hwf Hd q Lq) as (h & Hq).
  pose proof (is_node_facts t Hwf i _ Hi) as [_ HLi]. pose proof (is_node_facts t Hwf p _ Hp) as [_ HLp]. cbn [depth] in HLi, HLp.
  destruct (next_prev 2 a i (proj1 Hi) Ha ltac:(lia)) as (j & c & Nx & Rj & LEj & Pj & _).
  pose proof (corrected_ok N HN HB a Ha t Hwf Hd Hbal Hfull) as COK.
  destruct (COK i v Hi) as (_ & _ & _ & _ & CH).
  destruct (two_coords i (proj1 Hi)) as (x & y & Ei & Hx & Hy). destruct (two_coords p (proj1 Hp)) as (px & py & Ep & _ & _). destruct (two_coords q (proj1 Hq)) as (qx & qy & Eq & _ & _).
  assert (NI : (nth a (coords i) 0 < 2 ^ level i)%nat) by (rewrite Ei at 1; cbn [coords]; destruct a as [|[|z]]; [| |lia]; cbn [nth]; assumption).
  rewrite wrapS_mod in A1, A2 by lia.
  pose proof (proj1 (next_coords a i j x y Ha Ei Hx Hy ltac:(lia)) Nx) as Ej.
  set (kq := if (a =? 0)%nat then 2%nat else 1%nat).
  assert (EP : p = child_index j 0 /\ q = child_index j kq).
  { rewrite Ei in A1, A2, B1, B2. rewrite Ep in A1, B1. rewrite Eq in A2, B2. unfold kq. rewrite Ej.
    split; apply idx_eta; cbn [level child_index]; try assumption; [rewrite Ep|rewrite Eq].
    all: destruct a as [|[|z]]; [| |lia]; cbn [Nat.eqb nth coords Nat.sub level] in *; cbv [child_index coords level zipw bits length Nat.odd Nat.even Nat.div2 Nat.b2n negb]; change (let (level, _) := i in level) with (level i); f_equal; try lia; f_equal; lia. }
  destruct EP as [EP EQ].
  destruct (fine_branch j 0 p g Rj ltac:(lia) EP Hp) as (cs & Hj & C0).
  destruct (fine_branch j kq q h Rj ltac:(unfold kq; destruct (a =? 0)%nat; lia) EQ Hq) as (cs' & Hj' & CQ).
  pose proof (is_node_unique t _ _ _ Hj Hj') as X. injection X as <-.
  destruct (proj2 (CH j Nx) cs Hj) as (w0 & w1 & w2 & w3 & -> & _ & PF). rewrite (PF k Hk).
  cbn in C0. injection C0 as ->.
  assert (WH : (if (a =? 0)%nat then w2 else w1) = h) by (unfold kq in CQ; destruct (a =? 0)%nat; cbn in CQ; congruence). rewrite WH.
  assert (HL30 : (level i < 30)%nat) by lia.
  assert (Q : forall k k' w r, r = child_index j k' -> (k < 4)%nat -> is_node t r (Leaf w) ->
      (k, k') = (if (a =? 0)%nat then (1, 0)%nat else (2, 0)%nat) \/ (k, k') = (if (a =? 0)%nat then (3, 2)%nat else (3, 1)%nat) ->
      forall m, 0 <= m < N -> val (corrected a t r) (face a 0 m) = val w (face a 0 m)).
  { intros k1 k' w r -> Hk1 Nc Hkk m Hm.
    pose proof (adj_children t Hd a Ha true i j k1 k' (proj1 Hi) HL30 (conj Nx (or_introl eq_refl)) Hkk) as [Nx2 _].
    destruct (COK _ w Nc) as (_ & _ & _ & CL & _).
    pose proof (next_neighbour a (child_index i k1) (child_index j k') Ha (child_in_range _ _ _ (proj1 Hi)) ltac:(cbn [child_index level]; lia) Nx2) as (_ & _ & _ & _ & P2).
    unfold val. rewrite (proj2 (proj1 (CL _ P2) ltac:(intros cs; apply (below_leaf t Hwf i k1 (Node cs) v Hi Hk1)))); [reflexivity|apply (face_inb N a Ha t Hd Hfull); lia|].
    apply (face_nth N a Ha t Hd Hfull). }
  assert (Qp : forall m, 0 <= m < N -> val (corrected a t p) (face a 0 m) = val g (face a 0 m)).
  { apply (Q (if (a =? 0)%nat then 1 else 2)%nat 0%nat g p EP); [destruct (a =? 0)%nat; lia|exact Hp|left; destruct (a =? 0)%nat; reflexivity]. }
  assert (Qq : forall m, 0 <= m < N -> val (corrected a t q) (face a 0 m) = val h (face a 0 m)).
  { apply (Q 3%nat kq h q EQ); [lia|exact Hq|right; unfold kq; destruct (a =? 0)%nat; reflexivity]. }
  unfold pair_flux. destruct (Z.ltb_spec (2 * k) N), (Z.ltb_spec (2 * k + 1) N); rewrite ?Qp, ?Qq by lia; reflexivity.
Qed.

Lemma matching_beneath i p q : In i (leaves (indexes 2 t)) -> In p (leaves (indexes 2 t)) -> In q (leaves (indexes 2 t)) ->
  beneath a i p q -> forall k, 0 <= k < N ->
  val (corrected a t i) (face a 0 k) = pair_flux N a N (corrected a t p) (corrected a t q) k.
Proof.
  intros Li Lp Lq (L1 & L2 & A1 & A2 & B1 & B2) k Hk.
  destruct (in_leaf t Hwf Hd i Li) as (v & Hi). destruct (in_leaf t Hwf Hd p Lp) as (g & Hp). destruct (in_leaf t Hwf Hd q Lq) as (h & Hq).
  pose proof (is_node_facts t Hwf i _ Hi) as [_ HLi]. pose proof (is_node_facts t Hwf p _ Hp) as [_ HLp]. cbn [depth] in HLi, HLp.
  destruct (prev_next 2 a i (proj1 Hi) Ha ltac:(lia)) as (j & c & Pv & Rj & LEj & Nx & _).
  pose proof (corrected_ok N HN HB a Ha t Hwf Hd Hbal Hfull) as COK.
  destruct (COK i v Hi) as (_ & _ & _ & CL & _).
  destruct (two_coords i (proj1 Hi)) as (x & y & Ei & Hx & Hy). destruct (two_coords p (proj1 Hp)) as (px & py & Ep & _ & _). destruct (two_coords q (proj1 Hq)) as (qx & qy & Eq & _ & _).
  destruct (two_coords j Rj) as (jx & jy & Ej & Hjx & Hjy). rewrite LEj in Ej, Hjx, Hjy.
  pose proof (proj1 (next_coords a j i jx jy Ha ltac:(rewrite LEj; exact Ej) ltac:(rewrite LEj; exact Hjx) ltac:(rewrite LEj; exact Hjy) ltac:(lia)) Nx) as Eij. rewrite LEj in Eij.
  assert (WI : forall m u w, (u < m)%nat -> (w < m)%nat -> wrapS m u = wrapS m w -> u = w).
  { intros m u w Hu Hw. unfold wrapS. destruct (Nat.eqb_spec (S u) m), (Nat.eqb_spec (S w) m); lia. }
  assert (PZ : (0 < 2 ^ level i)%nat) by lia.
  set (kp := if (a =? 0)%nat then 1%nat else 2%nat).
  assert (EP : p = child_index j kp /\ q = child_index j 3).
  { rewrite Ei in A1, A2, B1, B2. rewrite Ep in A1, B1. rewrite Eq in A2, B2. unfold kp. rewrite Ei in Eij. cbn [level] in *.
    assert (JA : (if (a =? 0)%nat then jx else jy) = ((nth a [x; y] 0 + 2 ^ level i - 1) mod 2 ^ level i)%nat /\ (if (a =? 0)%nat then jy = y else jx = x)).
    { destruct a as [|[|z]]; [| |lia]; cbn [Nat.eqb nth] in *; injection Eij as E1 E2; (split; [|congruence]).
      - apply (WI (2 ^ level i)%nat); [assumption|apply Nat.mod_upper_bound; lia|]. rewrite wrapP_mod by lia. congruence.
      - apply (WI (2 ^ level i)%nat); [assumption|apply Nat.mod_upper_bound; lia|]. rewrite wrapP_mod by lia. congruence. }
    destruct JA as [JA JB]. cbn [coords level] in A1, A2. rewrite <- JA in A1, A2.
    split; apply idx_eta; cbn [level child_index]; try congruence; [rewrite Ep|rewrite Eq]; rewrite Ej.
    all: clear JA WI; destruct a as [|[|z]]; [| |lia]; cbn [Nat.eqb nth coords Nat.sub level] in *; cbv [child_index coords level zipw bits length Nat.odd Nat.even Nat.div2 Nat.b2n negb]; change (let (level, _) := i in level) with (level i); f_equal; try lia; f_equal; lia. }
  destruct EP as [EP EQ].
  destruct (fine_branch j kp p g Rj ltac:(unfold kp; destruct (a =? 0)%nat; lia) EP Hp) as (cs & Hj & C0).
  destruct (fine_branch j 3 q h Rj ltac:(lia) EQ Hq) as (cs' & Hj' & CQ).
  pose proof (is_node_unique t _ _ _ Hj Hj') as X. injection X as <-.
  destruct (proj2 (CL j Pv) cs Hj) as (w0 & w1 & w2 & w3 & -> & _ & PF). rewrite (PF k Hk).
  cbn in CQ. injection CQ as ->.
  assert (WH : (if (a =? 0)%nat then w1 else w2) = g) by (unfold kp in C0; destruct (a =? 0)%nat; cbn in C0; congruence). rewrite WH.
  assert (HL30 : (level j < 30)%nat) by lia.
  assert (Q : forall k k' w r, r = child_index j k -> (k' < 4)%nat -> is_node t r (Leaf w) ->
      (k, k') = (if (a =? 0)%nat then (1, 0)%nat else (2, 0)%nat) \/ (k, k') = (if (a =? 0)%nat then (3, 2)%nat else (3, 1)%nat) ->
      forall m, 0 <= m < N -> val (corrected a t r) (face a N m) = val w (face a N m)).
  { intros k1 k' w r -> Hk1 Nc Hkk m Hm.
    pose proof (adj_children t Hd a Ha true j i k1 k' Rj HL30 (conj Nx (or_introl eq_refl)) Hkk) as [Nx2 _].
    destruct (COK _ w Nc) as (_ & _ & _ & _ & CH).
    unfold val. rewrite (proj2 (proj1 (CH _ Nx2) ltac:(intros cs; apply (below_leaf t Hwf i k' (Node cs) v Hi Hk1)))); [reflexivity|apply (face_inb N a Ha t Hd Hfull); lia|].
    apply (face_nth N a Ha t Hd Hfull). }
  assert (Qp : forall m, 0 <= m < N -> val (corrected a t p) (face a N m) = val g (face a N m)).
  { apply (Q kp (0)%nat g p EP); [lia|exact Hp|left; unfold kp; destruct (a =? 0)%nat; reflexivity]. }
  assert (Qq : forall m, 0 <= m < N -> val (corrected a t q) (face a N m) = val h (face a N m)).
  { apply (Q 3%nat (if (a =? 0)%nat then 2 else 1)%nat h q EQ); [destruct (a =? 0)%nat; lia|exact Hq|right; destruct (a =? 0)%nat; reflexivity]. }
  unfold pair_flux. destruct (Z.ltb_spec (2 * k) N), (Z.ltb_spec (2 * k + 1) N); rewrite ?Qp, ?Qq by lia; reflexivity.
Qed.

(** What the corrected fluxes carry away from all blocks. *)
Variable per : bool.
Hypothesis Hcons : consistent N a per t.

Lemma outflow tc : correct_axis a t = Ok tc ->
  rtotal (fun i => L N a N (corrected a t i) - L N a 0 (corrected a t i))%R (leaves (indexes 2 t)) = net_outflow N a tc /\
  (per = true -> net_outflow N a tc = 0%R).
Proof.
  intros E. destruct corrected_tree as (tc' & E' & S1 & EI & EL & _). rewrite E in E'. injection E' as <-.
  pose proof (is_node_root t Hd) as HR.
  destruct (sum_hi_lo N HN HB a Ha t Hwf Hd Hbal Hfull per Hcons _ _ HR) as [S2 S3].
  assert (EQ : rtotal (fun i => L N a N (corrected a t i) - L N a 0 (corrected a t i))%R (leaves (indexes 2 t)) = net_outflow N a tc).
  { rewrite <- Rsum_total. unfold indexes at 1. unfold hi, lo in S2. rewrite S2.
    destruct (edge_leaves a (fun i => L N a N (corrected a t i)) true t (root_index 2) Ha) as [_ ->].
    destruct (edge_leaves a (fun i => L N a 0 (corrected a t i)) false t (root_index 2) Ha) as [_ ->].
    unfold net_outflow. rewrite EI, EL.
    pose proof (combine_map (fun i : idx => i) (corrected a t) (leaves (indexes 2 t))) as CM. rewrite map_id in CM. rewrite CM.
    rewrite !Rsum_total. change (indexes_from (root_index 2) t) with (indexes 2 t).
    rewrite !rsum_map. f_equal; apply total_ext; intros i Hi; cbn [fst snd]; unfold at_edge, root_index; cbn [level coords]; rewrite Nat.sub_0_r;
      replace (nth a (repeat 0%nat 2) 0%nat) with 0%nat by (destruct a as [|[|z]]; [| |lia]; reflexivity); cbn [Nat.add Nat.mul]; rewrite ?Nat.add_0_r;
      rewrite (layer_face N a Ha t Hd Hfull per Hcons) by lia; reflexivity. }
  split; [exact EQ|]. intros Hp. rewrite <- EQ, <- Rsum_total. apply S3. exact Hp.
Qed.
End Mesh.

Lemma same_shape_balanced {A B} (t : tree A) (u : tree B) : same_shape t u -> balanced t -> balanced u.
Proof. intros S H. unfold balanced in *. unfold indexes in *. rewrite (same_shape_indexes t u _ S). exact H. Qed.

Lemma step_sum N dA u0 src fx fy dt pa pb : mesh N dA u0 src fx fy -> consistent N 0 pa fx -> consistent N 1 pb fy ->
  exists fxc fyc u1,
    correct_axis 0 fx = Ok fxc /\ correct_axis 1 fy = Ok fyc /\
    advance_blocks (@contains_compiled) dA u0 src fx fy dt = Ok u1 /\
    same_shape u0 u1 /\ Forall (full [N; N]) (leaves u1) /\
    (mesh_content N u1 dA = mesh_content N u0 dA + mesh_content N src dA - dt * (net_outflow N 0 fxc + net_outflow N 1 fyc))%R /\
    (pa = true -> net_outflow N 0 fxc = 0%R) /\ (pb = true -> net_outflow N 1 fyc = 0%R).
Proof.
  intros M Cx Cy. destruct M as [[HN HB] W D Bal (Sa & Ss & Sx & Sy) (Fu & Fs & Fa) (Fx & Fy)].
  destruct (same_shape_wf _ _ W Sa) as [Wa Da]. destruct (same_shape_wf _ _ W Ss) as [Ws Ds]. destruct (same_shape_wf _ _ W Sx) as [Wx Dx]. destruct (same_shape_wf _ _ W Sy) as [Wy Dy].
  assert (Ia : indexes 2 dA = indexes 2 u0) by (apply same_shape_indexes; assumption). assert (Is : indexes 2 src = indexes 2 u0) by (apply same_shape_indexes; assumption).
  assert (Ix : indexes 2 fx = indexes 2 u0) by (apply same_shape_indexes; assumption). assert (Iy : indexes 2 fy = indexes 2 u0) by (apply same_shape_indexes; assumption).
  pose proof (same_shape_balanced _ _ Sx Bal) as Bx. pose proof (same_shape_balanced _ _ Sy Bal) as By.
  destruct (corrected_tree N HN HB 0 ltac:(lia) fx Wx ltac:(lia) Bx Fx) as (fxc & Ex & Sxc & Ixc & Lxc & Fxc & Kx).
  destruct (corrected_tree N HN HB 1 ltac:(lia) fy Wy ltac:(lia) By Fy) as (fyc & Ey & Syc & Iyc & Lyc & Fyc & Ky).
  destruct (outflow N HN HB 0 ltac:(lia) fx Wx ltac:(lia) Bx Fx pa Cx fxc Ex) as [Ox Px].
  destruct (outflow N HN HB 1 ltac:(lia) fy Wy ltac:(lia) By Fy pb Cy fyc Ey) as [Oy Py].
  set (upd1 := fun i => match block_update dA u0 src fxc fyc dt i with Ok v => v | _ => mkarr [] (fun _ => UB) end).
  assert (BU : forall i, In i (leaves (indexes 2 u0)) -> block_update dA u0 src fxc fyc dt i = Ok (upd1 i) /\ full [N; N] (upd1 i) /\
    content N (upd1 i) (lk dA i) = (content N (lk u0 i) (lk dA i) + content N (lk src i) (lk dA i) - dt * ((L N 0 N (corrected 0 fx i) - L N 0 0 (corrected 0 fx i)) + (L N 1 N (corrected 1 fy i) - L N 1 0 (corrected 1 fy i))))%R).
  { intros i Hi. destruct (lk_at u0 i W ltac:(lia) Hi) as [A1 A2]. destruct (lk_at dA i Wa ltac:(lia) ltac:(rewrite Ia; exact Hi)) as [A3 A4].
    destruct (lk_at src i Ws ltac:(lia) ltac:(rewrite Is; exact Hi)) as [A5 A6].
    rewrite Forall_forall in Fu, Fs, Fa, Fxc, Fyc. destruct (Fa _ A4) as [Fa1 Fa2].
    destruct (block_sum N HN HB dA u0 src fxc fyc dt i _ _ _ _ _ A3 A1 A5 (Kx i ltac:(rewrite Ix; exact Hi)) (Ky i ltac:(rewrite Iy; exact Hi))) as (v & EV & FV & SV); auto.
    - apply Fxc. rewrite Lxc. apply in_map. rewrite Ix. exact Hi.
    - apply Fyc. rewrite Lyc. apply in_map. rewrite Iy. exact Hi.
    - unfold upd1. rewrite EV. auto. }
  exists fxc, fyc, (tmap upd1 (indexes 2 u0)). split; [exact Ex|]. split; [exact Ey|].
  destruct (built u0 upd1 W ltac:(lia)) as (S1 & W1 & D1 & I1 & L1 & K1).
  split; [|split; [exact S1|split; [|split; [|split; [exact Px|exact Py]]]]].
  - unfold advance_blocks. unfold correct_axis in Ex, Ey. cbn [Nat.eqb] in Ex, Ey. rewrite Ex, Ey. bsimp. apply tmapM_ok. intros i Hi. apply (BU i Hi).
  - rewrite L1. apply Forall_forall. intros f Hf. apply in_map_iff in Hf. destruct Hf as (i & <- & Hi). apply (BU i Hi).
  - unfold mesh_content. rewrite L1. rewrite (leaves_lk dA Wa ltac:(lia)), (leaves_lk u0 W ltac:(lia)), (leaves_lk src Ws ltac:(lia)). rewrite Ia, Is.
    rewrite !combine_map, !rsum_map. rewrite <- Ox, <- Oy, Ix, Iy. cbn [fst snd].
    assert (HI : forall i, In i (leaves (indexes 2 u0)) -> In i (leaves (indexes 2 u0))) by auto. revert HI.
    generalize (leaves (indexes 2 u0)) at 1 3 4 5 6 7 as ls. induction ls as [|i ls IH]; intros HI; cbn [total]; [lra|].
    rewrite IH by (intros; apply HI; right; assumption). rewrite (proj2 (proj2 (BU i (HI i (or_introl eq_refl))))). lra.
Qed.
