(** The blocks get_cell_block makes. *)
From Coq Require Import ZArith Reals List Arith Bool Lia Lra.
From Verif Require Import Base TreeModel TreeSpec TreeProofs TreeProofs4 BalanceModel NdModel NdSpec NdProofs NdOpsModel NdOpsProofs ProlongModel ProlongProofs ProlongProps
  FluxModel FluxProofs FluxSpec FluxProofs2 GuardModel GuardSpec GuardProofs GuardProofs2.
Import ListNotations.
Open Scope Z_scope.

Lemma served_path {A} D (t : tree A) p : wf_tree D t -> path_ok D p -> (length p <= 31)%nat -> served t (addr D p) ->
  (exists b, node_path p t = Some (Leaf b)) \/ (exists cs, node_path p t = Some (Node cs) /\ p <> []) \/
  (exists q k b, p = q ++ [k] /\ node_path q t = Some (Leaf b)).
Proof.
  intros W Hp HL [(v & E)|[(cs & E & H0)|(j & v & E1 & E2)]].
  - left. rewrite (node_at_addr D) in E by assumption. destruct (node_path p t); [injection E as ->; eauto|discriminate].
  - right; left. rewrite (node_at_addr D) in E by assumption. destruct (node_path p t); [injection E as ->|discriminate].
    exists cs. split; [reflexivity|]. intros ->. cbn [addr level length] in H0. lia.
  - right; right. destruct p as [|x p0]; [discriminate|]. destruct (path_snoc (x :: p0) ltac:(discriminate)) as (q & k & Ep). rewrite Ep in *. clear Ep x p0.
    apply Forall_app in Hp. destruct Hp as [Hq Hk]. apply Forall_inv in Hk. rewrite app_length in HL. cbn [length] in HL.
    rewrite parent_addr in E1 by assumption. injection E1 as <-. rewrite (node_at_addr D) in E2 by (auto; lia).
    destruct (node_path q t) eqn:E; [injection E2 as ->|discriminate]. eauto.
Qed.

Lemma inb_cons_inv n s k : inb (n :: s) k -> exists x k', k = x :: k' /\ 0 <= x < n /\ inb s k'.
Proof. intros H. inversion H as [|? x ? k' H1 H2 E1 E2]. exists x, k'. auto. Qed.

Section Cells.
Context (D : nat) (N : Z) (L : nat) (t : tree (array R)) (F : list Z -> R).
Hypothesis HD : (1 <= D)%nat.
Hypothesis Hb : blocks D N t.
Hypothesis HL : (depth t < L)%nat.
Hypothesis HF : represents D N L t F.

Let G (l : nat) (g : list Z) : R := box_mean (L - l) g F.

Lemma block_value p b k o : path_ok D p -> node_path p t = Some (Leaf b) -> inb (repeat N D) k ->
  inb (repeat (2 ^ Z.of_nat (L - length p)) D) o ->
  aget b k = Ok (F (zipw (fun g y => g * 2 ^ Z.of_nat (L - length p) + y) (glob N (of_path D p) k) o)).
Proof.
  intros Hp E Hk Ho. assert (HPL : (length p <= 30)%nat) by (apply depth_path in E; pose proof (b_depth D N t Hb); lia).
  apply (HF (addr D p) b); [apply path_in_range| |assumption|assumption].
  apply at_addr; [apply (b_wf D N t Hb)|assumption|lia|assumption].
Qed.

Lemma block_cell p b k : node_path p t = Some (Leaf b) -> inb (repeat N D) k -> exists x, aget b k = Ok x.
Proof.
  intros E Hk. assert (HI : In b (leaves t)).
  { clear -E. revert t E. induction p as [|m p IH]; intros t E; cbn [node_path] in E; [injection E as ->; left; reflexivity|].
    destruct t as [|cs]; [discriminate|]. destruct (nth_error cs m) as [c|] eqn:Ec; [|discriminate].
    cbn [leaves]. apply in_flat_map. exists c. split; [eapply nth_error_In; eassumption|]. apply IH. assumption. }
  pose proof (b_shape D N t Hb) as HS. rewrite Forall_forall in HS. apply (HS b HI). assumption.
Qed.
Lemma block_shape p b : node_path p t = Some (Leaf b) -> ashape b = repeat N D.
Proof.
  intros E. assert (HI : In b (leaves t)).
  { clear -E. revert t E. induction p as [|m p IH]; intros t E; cbn [node_path] in E; [injection E as ->; left; reflexivity|].
    destruct t as [|cs]; [discriminate|]. destruct (nth_error cs m) as [c|] eqn:Ec; [|discriminate].
    cbn [leaves]. apply in_flat_map. exists c. split; [eapply nth_error_In; eassumption|]. apply IH. assumption. }
  pose proof (b_shape D N t Hb) as HS. rewrite Forall_forall in HS. apply (HS b HI).
Qed.

Lemma glob_length n c k : length c = length k -> length (glob n c k) = length k.
Proof. intros H. unfold glob. rewrite zipw_length, H. apply Nat.min_id. Qed.

Lemma leaf_mean p b k x : path_ok D p -> node_path p t = Some (Leaf b) -> inb (repeat N D) k -> aget b k = Ok x ->
  box_mean (L - length p) (glob N (of_path D p) k) F = x.
Proof.
  intros Hp E Hk Ex. rewrite (box_mean_ext _ _ F (fun _ => x)); [apply box_mean_const|].
  intros o Ho. rewrite glob_length in Ho by (rewrite of_path_length; symmetry; apply (inb_repeat_length _ _ _ Hk)).
  rewrite (inb_repeat_length _ _ _ Hk) in Ho. pose proof (block_value p b k o Hp E Hk Ho) as Q. rewrite Ex in Q. injection Q as <-. reflexivity.
Qed.

Lemma inb_half : forall d k, inb (repeat (2 * N) d) k -> inb (repeat N d) (map (fun x => x / 2) k).
Proof.
  induction d as [|d IH]; intros k H; cbn [repeat] in *; [inversion H; constructor|].
  apply inb_cons_inv in H. destruct H as (x & k' & -> & Hx & H). cbn [map]. constructor; [|apply IH; assumption].
  split; [apply Z.div_pos; lia|apply Z.div_lt_upper_bound; lia].
Qed.

Lemma fine_mean p b k x : path_ok D p -> node_path p t = Some (Leaf b) -> inb (repeat (2 * N) D) k -> aget b (map (fun x => x / 2) k) = Ok x ->
  box_mean (L - S (length p)) (glob (2 * N) (of_path D p) k) F = x.
Proof.
  intros Hp E Hk Ex. assert (HP : (length p < L)%nat) by (apply depth_path in E; lia). pose proof (inb_half D k Hk) as Hk2.
  rewrite (box_mean_ext _ _ F (fun _ => x)); [apply box_mean_const|].
  intros o Ho. rewrite glob_length in Ho by (rewrite of_path_length; symmetry; apply (inb_repeat_length _ _ _ Hk)). rewrite (inb_repeat_length _ _ _ Hk) in Ho.
  set (m := (L - S (length p))%nat) in *. assert (Em : (L - length p)%nat = S m) by (unfold m; lia).
  assert (E2 : 2 ^ Z.of_nat (S m) = 2 * 2 ^ Z.of_nat m) by (rewrite Nat2Z.inj_succ, Z.pow_succ_r by lia; reflexivity).
  assert (Ho2 : inb (repeat (2 ^ Z.of_nat (S m)) D) (zipw (fun y z => y mod 2 * 2 ^ Z.of_nat m + z) k o)).
  { rewrite E2. clear -Hk Ho. clearbody m. revert k o Hk Ho. induction D as [|d IH]; intros k o Hk Ho; cbn [repeat] in *; [inversion Hk; constructor|].
    apply inb_cons_inv in Hk. destruct Hk as (x & k' & -> & Hx & Hk). apply inb_cons_inv in Ho. destruct Ho as (z & o' & -> & Hz & Ho).
    cbn [zipw]. constructor; [|apply IH; assumption].
    match goal with |- 0 <= ?y mod 2 * _ + _ < _ => pose proof (Z.mod_pos_bound y 2 ltac:(lia)) as HM; revert HM; generalize (y mod 2) end. intros z0 HM.
    assert (z0 = 0 \/ z0 = 1) as [-> | ->] by lia; lia. }
  pose proof (fun o' => block_value p b _ o' Hp E Hk2) as Q. rewrite Em in Q. specialize (Q _ Ho2). rewrite Ex, E2 in Q. apply (f_equal (fun r => match r with Ok y => y | _ => x end)) in Q. cbv beta iota in Q. rewrite Q. apply (f_equal F).
  pose proof (inb_repeat_length _ _ _ Hk) as L1. pose proof (inb_repeat_length _ _ _ Ho) as L2. pose proof (of_path_length D p) as L3.
  revert L1 L2 L3. generalize (of_path D p). generalize (2 ^ Z.of_nat m). intros w c. clear. intros L1 L2 L3. revert c k o L1 L2 L3. unfold glob. induction D as [|d IH]; intros [|u c] [|y k] [|z o] L1 L2 L3; try discriminate; [reflexivity|].
  cbn [zipw map]. f_equal; [|apply IH; simpl in *; lia]. pose proof (Z.div_mod y 2 ltac:(lia)) as Q. nia.
Qed.

Lemma big_half k : inb (repeat (2 * N + 0) D) k -> inb (repeat (2 * N) D) k.
Proof. rewrite Z.add_0_r. auto. Qed.

(** The blocks are made of averages of the field. *)
Lemma cell_block_reps fuel p post : path_ok D p -> (length p <= 31)%nat -> served t (addr D p) -> (depth t < fuel)%nat ->
  exists b, get_cell_block (@contains_compiled (array R)) Rplus (fun x => x / 2)%R D fuel t (addr D p) post = rethrow (post b) /\
    reps b (repeat N D) (fun k => box_mean (L - length p) (glob N (of_path D p) k) F).
Proof.
  intros Hp HPL HS Hfu. destruct Hb as [[HN1 HN2] W Hd HSh].
  destruct (get_block_reps D N 0 t (refine_cells (seq 0 D)) (combine_cells (seq 0 D)) (coarsen_cells Rplus (fun x => x / 2)%R (seq 0 D))
              Pc (Rc Rplus (fun x => x / 2)%R) G HD W Hd) with (fuel := fuel) (p := p) (post := post) as (b & E & RB); try (rewrite ?Z.add_0_r; assumption || lia).
  - rewrite Z.add_0_r. intros b F0 Hr. apply refine_cells_vec; [lia|assumption].
  - rewrite !Z.add_0_r. intros cs F0 H. apply combine_cells_vec; [lia|assumption].
  - rewrite !Z.add_0_r. intros c F0 H. apply coarsen_cells_vec; [lia|assumption].
  - rewrite Z.add_0_r. intros p0 b Hp0 E. split; [apply (block_shape p0); assumption|]. intros k Hk.
    destruct (block_cell p0 b k E Hk) as (x & Ex). rewrite Ex. unfold G. rewrite (leaf_mean p0 b k x); auto.
  - rewrite Z.add_0_r. intros p0 cs k Hp0 E Hk. unfold G. pose proof (inb_repeat_length _ _ _ Hk) as Lk.
    rewrite (Rall_cells_vec D [] k) by assumption. cbn [app].
    replace (L - length p0)%nat with (S (L - S (length p0))) by (apply depth_path in E; lia).
    rewrite box_mean_S. apply box_mean_glob. rewrite of_path_length. congruence.
  - intros p0 b k Hp0 E Hk. apply big_half in Hk. unfold G. pose proof (inb_repeat_length _ _ _ Hk) as Lk.
    rewrite (Pall_cells_vec D [] k) by assumption. cbn [app]. pose proof (inb_half D k Hk) as Hk2.
    destruct (block_cell p0 b _ E Hk2) as (x & Ex). rewrite (fine_mean p0 b k x), (leaf_mean p0 b _ x); auto.
  - destruct (served_path D t p W Hp HPL HS) as [(b & E)|[(cs & E & Hne)|(q & k & b & Ep & E)]].
    + left. exists b. split; [assumption|lia].
    + right; left. exists cs. split; [assumption|]. split; [|assumption]. apply depth_path in E. lia.
    + right; right. exists q, k, b. repeat split; auto. lia.
  - exists b. rewrite Z.add_0_r in RB. split; [exact E|exact RB].
Qed.
End Cells.

(** ** Addresses without a block *)
Lemma contains_compiled_any {A} D l c (t : tree A) : wf_tree D t -> length c = D -> Forall (fun x => (x < 2 ^ l)%nat) c ->
  contains_compiled_level l c t = UB \/
  contains_compiled_level l c t = match node_path (path_of l c) t with Some (Leaf _) => Ok true | _ => Ok false end.
Proof.
  intros W HL HF. destruct (le_lt_dec l 31) as [H|H]; [right; apply (contains_compiled_path D); auto|].
  destruct l as [|l]; [lia|]. destruct t as [a|cs]; [right; reflexivity|]. left. cbn [contains_compiled_level has_value].
  unfold orthant. cbn [level]. unfold shl1. destruct (Nat.ltb_spec l 31); [lia|]. reflexivity.
Qed.

Lemma too_deep {A} D (t : tree (array A)) refine combine coarsen : wf_tree D t ->
  forall fuel p q r v post, path_ok D p -> p = q ++ r -> (2 <= length r)%nat -> node_path q t = Some (Leaf v) ->
  let o := get_block (@contains_compiled (array A)) refine combine coarsen fuel t (addr D p) post in o = NoFuel \/ o = UB.
Proof.
  intros W. cbv zeta. induction fuel as [|fuel IH]; intros p q r v post Hp Ep Hr E; [left; reflexivity|].
  assert (Hc : forall s, path_ok D s -> (exists r', s = q ++ r' /\ r' <> []) -> contains_compiled t (addr D s) = UB \/ contains_compiled t (addr D s) = Ok false).
  { intros s Hs (r' & Es & Hne). unfold contains_compiled, addr. cbn [level coords].
    destruct (contains_compiled_any D (length s) (of_path D s) t W (of_path_length D s) (of_path_bound D s)) as [Q|Q]; [left; assumption|right].
    rewrite Q. rewrite path_of_of_path by assumption. rewrite Es, node_path_app, E. destruct r'; [congruence|reflexivity]. }
  assert (Hrn : r <> []) by (destruct r; [simpl in Hr; lia|discriminate]).
  destruct (path_snoc r Hrn) as (r0 & k & Er). assert (Hr0 : r0 <> []) by (intros ->; rewrite Er in Hr; simpl in Hr; lia).
  assert (Hqk : path_ok D (q ++ r0) /\ (k < 2 ^ D)%nat).
  { rewrite Ep, Er, app_assoc in Hp. apply Forall_app in Hp. destruct Hp as [H1 H2]. split; [assumption|apply Forall_inv in H2; assumption]. }
  destruct Hqk as [Hq0 Hk].
  cbn [get_block]. destruct (Hc p Hp) as [Q|Q]; [eauto|rewrite Q; right; reflexivity|]. rewrite Q. bsimp.
  rewrite Ep, Er, app_assoc. rewrite parent_addr by assumption.
  destruct (Hc (q ++ r0) Hq0) as [Q2|Q2]; [eauto|rewrite Q2; right; reflexivity|]. rewrite Q2. bsimp.
  assert (EX : exists ks, child_indexes (addr D ((q ++ r0) ++ [k])) = addr D (((q ++ r0) ++ [k]) ++ [0%nat]) :: ks).
  { unfold child_indexes. replace (length (coords (addr D ((q ++ r0) ++ [k])))) with D by (unfold addr; cbn [coords]; rewrite of_path_length; reflexivity).
    assert (P2 : (2 ^ D)%nat = S (2 ^ D - 1)) by (pose proof (Nat.pow_nonzero 2 D ltac:(lia)); lia). rewrite P2. cbn [seq map].
    rewrite child_addr; [eexists; reflexivity| |pose proof (Nat.pow_nonzero 2 D ltac:(lia)); lia].
    apply Forall_app; split; [assumption|constructor; [assumption|constructor]]. }
  destruct EX as [ks EX]. rewrite EX. cbn [mapM].
  destruct (IH (((q ++ r0) ++ [k]) ++ [0%nat]) q (r0 ++ [k; 0%nat]) v (fun b => Ok b)) as [Q3|Q3]; auto.
  - apply Forall_app; split; [apply Forall_app; split; [assumption|constructor; [assumption|constructor]]|].
    constructor; [pose proof (Nat.pow_nonzero 2 D ltac:(lia)); lia|constructor].
  - rewrite <- !app_assoc. reflexivity.
  - rewrite app_length. simpl. lia.
  - rewrite Q3. left. reflexivity.
  - rewrite Q3. right. reflexivity.
Qed.
