(** Flux correction and block update over the whole mesh. *)
From Coq Require Import ZArith List Arith Bool Lia Reals Lra.
From Verif Require Import Base TreeModel TreeSpec TreeProofs TreeProofs2 TreeProofs3 TreeProofs4
  BalanceModel BalanceSpec BalanceProofs NdModel NdSpec NdProofs NdProofs2 NdProofs3 NdOpsModel NdOpsProofs
  ProlongModel ProlongProofs ProlongProps FluxModel FluxSpec FluxTreeProofs FluxProofs FluxProofs2.
Import ListNotations.
Open Scope Z_scope.

Lemma rsum_total {I} (F : I -> R) l : rsum F l = rtotal F l.
Proof. induction l; simpl; congruence. Qed.
Lemma full_reps s f : full s f -> reps f s (val f).
Proof. intros [H1 H2]. split; [assumption|]. intros i Hi. destruct (H2 i Hi) as [x Hx]. unfold val. rewrite Hx. reflexivity. Qed.
Lemma reps_full s f F : reps f s F -> full s f /\ forall i, inb s i -> val f i = F i.
Proof. intros [H1 H2]. split; [split; [assumption|eauto]|]. intros i Hi. unfold val. rewrite H2 by assumption. reflexivity. Qed.

Lemma same_shape_indexes {A B} (t : tree A) : forall (u : tree B) i, same_shape t u -> indexes_from i u = indexes_from i t.
Proof.
  induction t as [x|cs IH] using tree_ind'; intros u i H; inversion H; subst; [reflexivity|].
  cbn [indexes_from]. f_equal. unfold mapi. generalize 0%nat as k. clear H. rename H1 into HF. revert IH.
  induction HF as [|c d cs ds Hc HF IHF]; intros IH k; [reflexivity|]. cbn [mapi_from].
  inversion IH; subst. f_equal; auto.
Qed.
Lemma same_shape_wf {A B} (t : tree A) : forall (u : tree B), wf_tree 2 t -> same_shape t u -> wf_tree 2 u /\ depth u = depth t.
Proof.
  induction t as [x|cs IH] using tree_ind'; intros u W H; inversion H; subst; [split; [constructor|reflexivity]|].
  apply wf_node_inv in W. destruct W as [W1 W2].
  assert (Q : length ds = length cs /\ Forall (wf_tree 2) ds /\ map depth ds = map depth cs).
  { clear W1 H. rename H1 into HF. revert IH W2. induction HF as [|c d cs ds Hc HF IHF]; intros IH W2; [repeat split; constructor|].
    inversion IH; subst. inversion W2; subst. destruct (IHF ltac:(assumption) ltac:(assumption)) as (Q1 & Q2 & Q3).
    destruct (H1 d ltac:(assumption) Hc) as [Q4 Q5]. cbn [length map]. rewrite Q1, Q3, Q5. repeat split; auto. }
  destruct Q as (Q1 & Q2 & Q3). split; [constructor; [congruence|assumption]|]. cbn [depth]. rewrite Q3. reflexivity.
Qed.

(** ** One axis *)

Definition gen_lo (a : nat) (t : tree (array R)) (i : idx) (fhat : array R) : outcome (array R) :=
  do j <- prev_on a i;
  do b <- leave_alone (@contains_compiled) t j;
  if b then Ok fhat
  else
    do n <- node_at t j;
    do a0 <- at_ n (mkidx 1 (if (a =? 0)%nat then [1; 0] else [0; 1])%nat);
    do a1 <- at_ n (mkidx 1 [1; 1]%nat);
    do c <- concat_on (1 - a) a1 a0;
    do r <- restrict_extrinsic Rplus (1 - a) c;
    do fl <- take_final_on_axis a r;
    do fr <- drop_first_on_axis a fhat;
    concat_on a fr fl.
Definition gen_hi (a : nat) (t : tree (array R)) (i : idx) (fhat : array R) : outcome (array R) :=
  do j <- next_on a i;
  do b <- leave_alone (@contains_compiled) t j;
  if b then Ok fhat
  else
    do n <- node_at t j;
    do a0 <- at_ n (mkidx 1 [0; 0]%nat);
    do a1 <- at_ n (mkidx 1 (if (a =? 0)%nat then [0; 1] else [1; 0])%nat);
    do c <- concat_on (1 - a) a1 a0;
    do r <- restrict_extrinsic Rplus (1 - a) c;
    do fr <- take_first_on_axis a r;
    do fl <- drop_final_on_axis a fhat;
    concat_on a fr fl.
Definition gen_correct (a : nat) (t : tree (array R)) (i : idx) : outcome (array R) :=
  do f <- at_ t i; do f1 <- gen_lo a t i f; gen_hi a t i f1.

Lemma correct_x_gen : correct_fluxes_x (@contains_compiled) = gen_correct 0. Proof. reflexivity. Qed.
Lemma correct_y_gen : correct_fluxes_y (@contains_compiled) = gen_correct 1. Proof. reflexivity. Qed.

Section Axis.
Variable N : Z.
Hypothesis HN : 1 <= N.
Hypothesis HB : 2 * N + 2 < two64.
Variable a : nat.
Hypothesis Ha : (a < 2)%nat.
Variable t : tree (array R).
Hypothesis Hwf : wf_tree 2 t.
Hypothesis Hd : (depth t <= 30)%nat.
Hypothesis Hbal : balanced t.
Let sh : list Z := upd a (N + 1) [N; N].
Hypothesis Hfull : Forall (full sh) (leaves t).

Definition L (k : Z) (f : array R) : R := layer N a k (val f).

Lemma node_full i f : is_node t i (Leaf f) -> full sh f.
Proof.
  intros H. pose proof (is_node_facts t Hwf i _ H) as [_ HL]. cbn [depth] in HL.
  pose proof (lookup_leaves 2 t Hwf ltac:(lia)) as HF. pose proof (leaf_in t Hwf i f H) as Hin.
  destruct (Forall2_In_l _ _ _ _ HF Hin) as (g & Hg & Eg). destruct H as (_ & _ & E). unfold at_ in Eg. rewrite E in Eg. cbn [bind value] in Eg. injection Eg as ->.
  rewrite Forall_forall in Hfull. auto.
Qed.

Lemma L_reps g F k : 0 <= k <= N -> reps g sh F -> L k g = layer N a k F.
Proof.
  intros Hk HR. apply (layer_ext N a Ha); [assumption|]. intros i Hi _. apply (reps_full _ _ _ HR). exact Hi.
Qed.

Lemma face_inb x k : 0 <= x <= N -> 0 <= k < N -> inb sh (face a x k).
Proof.
  intros Hx Hk. unfold sh, face. destruct a as [|[|z]]; [| |lia]; cbn [Nat.eqb upd]; constructor; try lia; constructor; try lia; constructor.
Qed.
Lemma face_nth x k : nth a (face a x k) 0 = x /\ nth (1 - a) (face a x k) 0 = k.
Proof. unfold face. destruct a as [|[|z]]; [| |lia]; split; reflexivity. Qed.
Lemma face_upd x k y m : upd (1 - a) m (upd a y (face a x k)) = face a y m.
Proof. unfold face. destruct a as [|[|z]]; [| |lia]; reflexivity. Qed.
Lemma beside_face w w' x m : beside N a (val w) (val w') (face a x m) = if m <? N then val w (face a x m) else val w' (face a x (m - N)).
Proof.
  unfold beside. destruct (face_nth x m) as [_ ->]. destruct (m <? N); [reflexivity|]. f_equal. unfold face. destruct a as [|[|z]]; [| |lia]; reflexivity.
Qed.
Lemma face_lo w w' F k : (if nth a (face a 0 k) 0 <? 1 then Rx Rplus (1 - a) (beside N a (val w) (val w')) (upd a N (face a 0 k)) else F (face a 0 k)) = pair_flux N a N w w' k.
Proof.
  destruct (face_nth 0 k) as [-> _]. cbn [Z.ltb Z.compare]. unfold Rx, pair_flux. rewrite !face_upd.
  replace (nth (1 - a) (upd a N (face a 0 k)) 0) with k by (unfold face; destruct a as [|[|z]]; [| |lia]; reflexivity).
  rewrite !beside_face, (Z.add_comm 1). reflexivity.
Qed.
Lemma face_hi w w' F k : (if nth a (face a N k) 0 <? N then F (face a N k) else Rx Rplus (1 - a) (beside N a (val w) (val w')) (upd a 0 (face a N k))) = pair_flux N a 0 w w' k.
Proof.
  destruct (face_nth N k) as [-> _]. rewrite Z.ltb_irrefl. unfold Rx, pair_flux. rewrite !face_upd.
  replace (nth (1 - a) (upd a 0 (face a N k)) 0) with k by (unfold face; destruct a as [|[|z]]; [| |lia]; reflexivity).
  rewrite !beside_face, (Z.add_comm 1). reflexivity.
Qed.

Lemma gen_lo_ok i v f : is_node t i (Leaf v) -> full sh f ->
  exists j g, prev_on a i = Ok j /\ gen_lo a t i f = Ok g /\ full sh g /\
    (forall p, inb sh p -> 0 < nth a p 0 -> aget g p = aget f p) /\
    (forall k, 0 < k <= N -> L k g = L k f) /\
    ((forall cs, ~ is_node t j (Node cs)) -> g = f) /\
    (forall cs, is_node t j (Node cs) -> exists w0 w1 w2 w3, cs = [Leaf w0; Leaf w1; Leaf w2; Leaf w3] /\
       L 0 g = (if (a =? 0)%nat then (L N w1 + L N w3)%R else (L N w2 + L N w3)%R) /\
       forall k, 0 <= k < N -> val g (face a 0 k) = pair_flux N a N (if (a =? 0)%nat then w1 else w2) w3 k).
Proof.
  intros Hi Hf. pose proof (is_node_facts t Hwf i _ Hi) as [_ HLi]. cbn [depth] in HLi.
  destruct (prev_next 2 a i (proj1 Hi) Ha ltac:(lia)) as (j & c & E & R & LE & P & _).
  unfold gen_lo. rewrite E. bsimp.
  destruct (prev_cases t Hwf Hd Hbal a i j v Ha Hi E) as [(w & Hj & LA)|[(w0 & w1 & w2 & w3 & Hj & LA)|(w & Hj & NJ & LA)]]; rewrite LA; bsimp.
  - exists j, f. do 6 (split; [auto|]). intros cs Hcs. pose proof (is_node_unique t _ _ _ Hj Hcs). discriminate.
  - rewrite (proj2 (proj2 Hj)). bsimp.
    pose proof (is_node_child t Hwf Hd j _ 1 (Leaf w1) Hj eq_refl) as N1. pose proof (is_node_child t Hwf Hd j _ 2 (Leaf w2) Hj eq_refl) as N2.
    pose proof (is_node_child t Hwf Hd j _ 3 (Leaf w3) Hj eq_refl) as N3.
    apply node_full in N1. apply node_full in N2. apply node_full in N3.
    set (w := if (a =? 0)%nat then w1 else w2).
    assert (E0 : at_ (Node [Leaf w0; Leaf w1; Leaf w2; Leaf w3]) (mkidx 1 (if (a =? 0)%nat then [1; 0] else [0; 1])%nat) = Ok w) by (unfold w; destruct (a =? 0)%nat; reflexivity).
    assert (E1 : at_ (Node [Leaf w0; Leaf w1; Leaf w2; Leaf w3]) (mkidx 1 [1; 1]%nat) = Ok w3) by reflexivity.
    rewrite E0, E1. bsimp. assert (Nw : full sh w) by (unfold w; destruct (a =? 0)%nat; assumption).
    destruct (lo_chain N HN HB a Ha w w3 f _ _ _ (full_reps _ _ Nw) (full_reps _ _ N3) (full_reps _ _ Hf)) as (g & Eg & Rg).
    exists j, g. split; [reflexivity|]. split; [exact Eg|]. split; [apply (reps_full _ _ _ Rg)|]. split; [|split; [|split]].
    + intros p Hp Hk. rewrite (proj2 Rg) by assumption. destruct (Z.ltb_spec (nth a p 0) 1); [lia|]. symmetry. apply (full_reps _ _ Hf). assumption.
    + intros k Hk. rewrite (L_reps g _ k ltac:(lia) Rg), (layer_lo N HN HB a Ha) by lia. destruct (Z.eqb_spec k 0); [lia|reflexivity].
    + intros Q. exfalso. exact (Q _ Hj).
    + intros cs Hcs. pose proof (is_node_unique t _ _ _ Hj Hcs) as X. injection X as <-. exists w0, w1, w2, w3. split; [reflexivity|].
      split.
      * rewrite (L_reps g _ 0 ltac:(lia) Rg), (layer_lo N HN HB a Ha) by lia. cbn [Z.eqb]. unfold w, L. destruct (a =? 0)%nat; reflexivity.
      * intros k Hk. rewrite (proj2 (reps_full _ _ _ Rg)) by (apply face_inb; lia). apply (face_lo w w3 (val f) k).
  - exists j, f. do 6 (split; [auto|]). intros cs Hcs. exfalso. exact (NJ _ Hcs).
Qed.

Lemma gen_hi_ok i v f : is_node t i (Leaf v) -> full sh f ->
  exists j g, next_on a i = Ok j /\ gen_hi a t i f = Ok g /\ full sh g /\
    (forall p, inb sh p -> nth a p 0 < N -> aget g p = aget f p) /\
    (forall k, 0 <= k < N -> L k g = L k f) /\
    ((forall cs, ~ is_node t j (Node cs)) -> g = f) /\
    (forall cs, is_node t j (Node cs) -> exists w0 w1 w2 w3, cs = [Leaf w0; Leaf w1; Leaf w2; Leaf w3] /\
       L N g = (if (a =? 0)%nat then (L 0 w0 + L 0 w2)%R else (L 0 w0 + L 0 w1)%R) /\
       forall k, 0 <= k < N -> val g (face a N k) = pair_flux N a 0 w0 (if (a =? 0)%nat then w2 else w1) k).
Proof.
  intros Hi Hf. pose proof (is_node_facts t Hwf i _ Hi) as [_ HLi]. cbn [depth] in HLi.
  destruct (next_prev 2 a i (proj1 Hi) Ha ltac:(lia)) as (j & c & E & R & LE & P & _).
  unfold gen_hi. rewrite E. bsimp.
  destruct (next_cases t Hwf Hd Hbal a i j v Ha Hi E) as [(w & Hj & LA)|[(w0 & w1 & w2 & w3 & Hj & LA)|(w & Hj & NJ & LA)]]; rewrite LA; bsimp.
  - exists j, f. do 6 (split; [auto|]). intros cs Hcs. pose proof (is_node_unique t _ _ _ Hj Hcs). discriminate.
  - rewrite (proj2 (proj2 Hj)). bsimp.
    pose proof (is_node_child t Hwf Hd j _ 0 (Leaf w0) Hj eq_refl) as N0. pose proof (is_node_child t Hwf Hd j _ 1 (Leaf w1) Hj eq_refl) as N1.
    pose proof (is_node_child t Hwf Hd j _ 2 (Leaf w2) Hj eq_refl) as N2.
    apply node_full in N0. apply node_full in N1. apply node_full in N2.
    set (w := if (a =? 0)%nat then w2 else w1).
    assert (E0 : at_ (Node [Leaf w0; Leaf w1; Leaf w2; Leaf w3]) (mkidx 1 [0; 0]%nat) = Ok w0) by reflexivity.
    assert (E1 : at_ (Node [Leaf w0; Leaf w1; Leaf w2; Leaf w3]) (mkidx 1 (if (a =? 0)%nat then [0; 1] else [1; 0])%nat) = Ok w) by (unfold w; destruct (a =? 0)%nat; reflexivity).
    rewrite E0, E1. bsimp. assert (Nw : full sh w) by (unfold w; destruct (a =? 0)%nat; assumption).
    destruct (hi_chain N HN HB a Ha w0 w f _ _ _ (full_reps _ _ N0) (full_reps _ _ Nw) (full_reps _ _ Hf)) as (g & Eg & Rg).
    exists j, g. split; [reflexivity|]. split; [exact Eg|]. split; [apply (reps_full _ _ _ Rg)|]. split; [|split; [|split]].
    + intros p Hp Hk. rewrite (proj2 Rg) by assumption. destruct (Z.ltb_spec (nth a p 0) N); [|lia]. symmetry. apply (full_reps _ _ Hf). assumption.
    + intros k Hk. rewrite (L_reps g _ k ltac:(lia) Rg), (layer_hi N HN HB a Ha) by lia. destruct (Z.eqb_spec k N); [lia|reflexivity].
    + intros Q. exfalso. exact (Q _ Hj).
    + intros cs Hcs. pose proof (is_node_unique t _ _ _ Hj Hcs) as X. injection X as <-. exists w0, w1, w2, w3. split; [reflexivity|].
      split.
      * rewrite (L_reps g _ N ltac:(lia) Rg), (layer_hi N HN HB a Ha) by lia. rewrite Z.eqb_refl. unfold w, L. destruct (a =? 0)%nat; reflexivity.
      * intros k Hk. rewrite (proj2 (reps_full _ _ _ Rg)) by (apply face_inb; lia). apply (face_hi w0 w (val f) k).
  - exists j, f. do 6 (split; [auto|]). intros cs Hcs. exfalso. exact (NJ _ Hcs).
Qed.

(** The corrected fluxes of a block. *)
Definition corrected (i : idx) : array R := match gen_correct a t i with Ok g => g | _ => mkarr [] (fun _ => UB) end.

Lemma corrected_ok i f : is_node t i (Leaf f) ->
  gen_correct a t i = Ok (corrected i) /\ full sh (corrected i) /\
  (forall p, inb sh p -> 0 < nth a p 0 < N -> aget (corrected i) p = aget f p) /\
  (forall j, prev_on a i = Ok j ->
     ((forall cs, ~ is_node t j (Node cs)) -> L 0 (corrected i) = L 0 f /\ forall p, inb sh p -> nth a p 0 = 0 -> aget (corrected i) p = aget f p) /\
     (forall cs, is_node t j (Node cs) -> exists w0 w1 w2 w3, cs = [Leaf w0; Leaf w1; Leaf w2; Leaf w3] /\
       L 0 (corrected i) = (if (a =? 0)%nat then (L N w1 + L N w3)%R else (L N w2 + L N w3)%R) /\
       forall k, 0 <= k < N -> val (corrected i) (face a 0 k) = pair_flux N a N (if (a =? 0)%nat then w1 else w2) w3 k)) /\
  (forall j, next_on a i = Ok j ->
     ((forall cs, ~ is_node t j (Node cs)) -> L N (corrected i) = L N f /\ forall p, inb sh p -> nth a p 0 = N -> aget (corrected i) p = aget f p) /\
     (forall cs, is_node t j (Node cs) -> exists w0 w1 w2 w3, cs = [Leaf w0; Leaf w1; Leaf w2; Leaf w3] /\
       L N (corrected i) = (if (a =? 0)%nat then (L 0 w0 + L 0 w2)%R else (L 0 w0 + L 0 w1)%R) /\
       forall k, 0 <= k < N -> val (corrected i) (face a N k) = pair_flux N a 0 w0 (if (a =? 0)%nat then w2 else w1) k)).
Proof.
  intros Hi. pose proof (node_full i f Hi) as Ff.
  destruct (gen_lo_ok i f f Hi Ff) as (jl & g1 & El & G1 & F1 & I1 & K1 & S1 & C1).
  destruct (gen_hi_ok i f g1 Hi F1) as (jr & g2 & Er & G2 & F2 & I2 & K2 & S2 & C2).
  assert (EQ : gen_correct a t i = Ok g2).
  { unfold gen_correct, at_. rewrite (proj2 (proj2 Hi)). cbn [bind value]. rewrite G1. bsimp. exact G2. }
  unfold corrected. rewrite EQ. split; [reflexivity|]. split; [assumption|]. split; [|split].
  - intros p Hp Hk. rewrite I2 by (assumption || lia). apply I1; [assumption|lia].
  - intros j Ej. rewrite El in Ej. injection Ej as <-. split.
    + intros Q. rewrite K2 by lia. rewrite (S1 Q) in *. split; [reflexivity|]. intros p Hp E0. apply I2; [assumption|lia].
    + intros cs Hcs. destruct (C1 cs Hcs) as (w0 & w1 & w2 & w3 & -> & X). exists w0, w1, w2, w3. split; [reflexivity|]. rewrite K2 by lia. split; [exact (proj1 X)|]. intros k Hk. rewrite <- (proj2 X k Hk). unfold val. rewrite I2; [reflexivity|apply face_inb; lia|]. destruct (face_nth 0 k) as [-> _]. lia.
  - intros j Ej. rewrite Er in Ej. injection Ej as <-. split.
    + intros Q. rewrite (S2 Q). split; [apply K1; lia|]. intros p Hp E0. apply I1; [assumption|lia].
    + intros cs Hcs. exact (C2 cs Hcs).
Qed.

Variable per : bool.
Hypothesis Hcons : consistent N a per t.

Lemma layer_face k f : 0 <= k <= N -> L k f = through N a k f.
Proof.
  intros Hk. unfold L, layer. change (through N a k f) with (rtotal (fun k0 => val f (face a k k0)) (zrange N)). unfold face. destruct a as [|[|x]]; [| |lia]; cbn [upd idxs Nat.eqb].
  - change (zrange 1) with [0]. cbn [flat_map]. rewrite app_nil_r.
    generalize (zrange N). induction l as [|x l IH]; [reflexivity|]. cbn [flat_map map app total upd] in *. rewrite IH. reflexivity.
  - change (zrange 1) with [0]. cbn [flat_map map app].
    generalize (zrange N). induction l as [|x l IH]; [reflexivity|]. cbn [flat_map map app total upd] in *. rewrite IH. reflexivity.
Qed.

Lemma same_level i j v w : is_node t i (Leaf v) -> is_node t j (Leaf w) -> adj a per i j -> L N v = L 0 w.
Proof.
  intros Hi Hj [E HP]. rewrite !layer_face by lia. unfold through. change (rtotal (fun k => val v (face a N k)) (zrange N) = rtotal (fun k => val w (face a 0 k)) (zrange N)). apply total_ext. intros k Hk.
  unfold val. rewrite (Hcons i j v w); [reflexivity|exact (leaf_in t Hwf i v Hi)|exact (leaf_in t Hwf j w Hj)| | | | | |].
  all: pose proof (is_node_facts t Hwf i _ Hi) as [_ HLi]; cbn [depth] in HLi; destruct (next_prev 2 a i (proj1 Hi) Ha ltac:(lia)) as (j' & c & E' & R & LE & P & NE & C); rewrite E in E'; injection E' as <-.
  - exact LE.
  - intros b Hb. rewrite C. rewrite (nth_error_nth' (coords i) 0%nat) in NE by (rewrite (proj1 (proj1 Hi)); assumption). destruct (two_coords i (proj1 Hi)) as (x & y & Ei & _ & _).
    rewrite Ei. cbn [coords]. destruct a as [|[|a']]; [| |lia]; cbn [set_nth]; destruct b as [|[|b']]; cbn [nth]; congruence.
  - assert (NA : nth a (coords i) 0%nat = c) by (apply nth_error_nth; exact NE).
    assert (NB : nth a (coords j) 0%nat = if (c + 1 =? 2 ^ level i)%nat then 0%nat else (c + 1)%nat).
    { rewrite C. apply nth_error_nth. apply nth_error_set_nth_eq. rewrite (proj1 (proj1 Hi)). assumption. }
    rewrite NA, NB in *. destruct (Nat.eqb_spec (c + 1) (2 ^ level i)); destruct HP as [HP|HP]; try lia; try (right; repeat split; assumption).
  - unfold at_. rewrite (proj2 (proj2 Hi)). reflexivity.
  - unfold at_. rewrite (proj2 (proj2 Hj)). reflexivity.
  - unfold zrange in Hk. apply in_map_iff in Hk. destruct Hk as (n & <- & Hn). apply in_seq in Hn. lia.
Qed.

Lemma below_leaf i k n v : is_node t i (Leaf v) -> (k < 4)%nat -> ~ is_node t (child_index i k) n.
Proof.
  intros Hi Hk Hc. apply (is_node_path t Hwf) in Hi. destruct Hi as (p & Hp & _ & -> & E).
  rewrite child_addr in Hc by assumption. apply (is_node_path t Hwf) in Hc. destruct Hc as (q & Hq & _ & EQ & E2).
  apply addr_inj in EQ; auto. 2:{ apply Forall_app. split; [assumption|]. constructor; [exact Hk|constructor]. }
  subst q. rewrite node_path_app, E in E2. discriminate.
Qed.

Definition lo (i : idx) : R := L 0 (corrected i).
Definition hi (i : idx) : R := L N (corrected i).

Lemma sum_hi_lo i n : is_node t i n ->
  Rsum (map (fun l => hi l - lo l)%R (leaves (indexes_from i n))) = (edge a hi true i n - edge a lo false i n)%R /\
  (per = true -> Rsum (map (fun l => hi l - lo l)%R (leaves (indexes 2 t))) = 0%R).
Proof.
  assert (H1 : forall i j v w, is_node t i (Leaf v) -> is_node t j (Leaf w) -> adj a per i j -> hi i = lo j).
  { intros i0 j v w Hi Hj Hij. pose proof (same_level i0 j v w Hi Hj Hij) as E. destruct Hij as [Nx _].
    pose proof (is_node_facts t Hwf i0 _ Hi) as [_ HLi]. cbn [depth] in HLi.
    destruct (next_neighbour a i0 j Ha (proj1 Hi) ltac:(lia) Nx) as (_ & _ & _ & _ & P).
    destruct (corrected_ok i0 v Hi) as (_ & _ & _ & _ & CH). destruct (corrected_ok j w Hj) as (_ & _ & _ & CL & _).
    unfold hi, lo. rewrite (proj1 (proj1 (CH j Nx) ltac:(intros cs Hcs; pose proof (is_node_unique t _ _ _ Hj Hcs); discriminate))), (proj1 (proj1 (CL i0 P) ltac:(intros cs Hcs; pose proof (is_node_unique t _ _ _ Hi Hcs); discriminate))). exact E. }
  assert (H2 : forall i j v cs, is_node t i (Leaf v) -> is_node t j (Node cs) -> adj a per i j ->
    exists w0 w1 w2 w3, cs = [Leaf w0; Leaf w1; Leaf w2; Leaf w3] /\
    hi i = if (a =? 0)%nat then (lo (child_index j 0) + lo (child_index j 2))%R else (lo (child_index j 0) + lo (child_index j 1))%R).
  { intros i0 j v cs Hi Hj Hij. pose proof Hij as [Nx _].
    pose proof (is_node_facts t Hwf i0 _ Hi) as [_ HLi]. cbn [depth] in HLi.
    destruct (corrected_ok i0 v Hi) as (_ & _ & _ & _ & CH). destruct (proj2 (CH j Nx) cs Hj) as (w0 & w1 & w2 & w3 & -> & E & _).
    exists w0, w1, w2, w3. split; [reflexivity|]. unfold hi. rewrite E.
    pose proof (is_node_facts t Hwf j _ Hj) as [_ HLj]. pose proof (next_neighbour a i0 j Ha (proj1 Hi) ltac:(lia) Nx) as (_ & _ & _ & LE & _).
    assert (HL30 : (level i0 < 30)%nat). { cbn [depth map list_max fold_right] in HLj. lia. }
    assert (Q : forall k k' w, nth_error [Leaf w0; Leaf w1; Leaf w2; Leaf w3] k' = Some (Leaf w) -> (k < 4)%nat ->
      (k, k') = (if (a =? 0)%nat then (1, 0)%nat else (2, 0)%nat) \/ (k, k') = (if (a =? 0)%nat then (3, 2)%nat else (3, 1)%nat) ->
      lo (child_index j k') = L 0 w).
    { intros k k' w Hw Hk Hkk. pose proof (is_node_child t Hwf Hd j _ k' _ Hj Hw) as Nc.
      pose proof (adj_children t Hd a Ha per i0 j k k' (proj1 Hi) HL30 Hij Hkk) as [Nx2 _].
      destruct (corrected_ok _ w Nc) as (_ & _ & _ & CL & _).
      assert (RI : in_range 2 (child_index i0 k)).
      { apply child_in_range, (proj1 Hi). }
      pose proof (next_neighbour a (child_index i0 k) (child_index j k') Ha RI ltac:(cbn [child_index level]; lia) Nx2) as (_ & _ & _ & _ & P2).
      unfold lo. apply (proj1 (CL _ P2)). intros cs. apply (below_leaf i0 k (Node cs) v Hi Hk). }
    destruct (a =? 0)%nat.
    - rewrite (Q 1%nat 0%nat w0 eq_refl ltac:(lia) (or_introl eq_refl)), (Q 3%nat 2%nat w2 eq_refl ltac:(lia) (or_intror eq_refl)). reflexivity.
    - rewrite (Q 2%nat 0%nat w0 eq_refl ltac:(lia) (or_introl eq_refl)), (Q 3%nat 1%nat w1 eq_refl ltac:(lia) (or_intror eq_refl)). reflexivity. }
  assert (H3 : forall i j cs w, is_node t i (Node cs) -> is_node t j (Leaf w) -> adj a per i j ->
    exists w0 w1 w2 w3, cs = [Leaf w0; Leaf w1; Leaf w2; Leaf w3] /\
    lo j = if (a =? 0)%nat then (hi (child_index i 1) + hi (child_index i 3))%R else (hi (child_index i 2) + hi (child_index i 3))%R).
  { intros i0 j cs w Hi Hj Hij. pose proof Hij as [Nx _].
    pose proof (is_node_facts t Hwf i0 _ Hi) as [_ HLi]. pose proof (is_node_facts t Hwf j _ Hj) as [_ HLj]. cbn [depth] in HLi.
    pose proof (next_neighbour a i0 j Ha (proj1 Hi) ltac:(lia) Nx) as (_ & _ & _ & LE & P).
    destruct (corrected_ok j w Hj) as (_ & _ & _ & CL & _). destruct (proj2 (CL i0 P) cs Hi) as (w0 & w1 & w2 & w3 & -> & E & _).
    exists w0, w1, w2, w3. split; [reflexivity|]. unfold lo. rewrite E.
    assert (HL30 : (level i0 < 30)%nat) by lia.
    assert (Q : forall k k' w', nth_error [Leaf w0; Leaf w1; Leaf w2; Leaf w3] k = Some (Leaf w') -> (k' < 4)%nat ->
      (k, k') = (if (a =? 0)%nat then (1, 0)%nat else (2, 0)%nat) \/ (k, k') = (if (a =? 0)%nat then (3, 2)%nat else (3, 1)%nat) ->
      hi (child_index i0 k) = L N w').
    { intros k k' w' Hw Hk Hkk. pose proof (is_node_child t Hwf Hd i0 _ k _ Hi Hw) as Nc.
      pose proof (adj_children t Hd a Ha per i0 j k k' (proj1 Hi) HL30 Hij Hkk) as [Nx2 _].
      destruct (corrected_ok _ w' Nc) as (_ & _ & _ & _ & CH).
      unfold hi. apply (proj1 (CH _ Nx2)). intros cs. apply (below_leaf j k' (Node cs) w Hj Hk). }
    destruct (a =? 0)%nat.
    - rewrite (Q 1%nat 0%nat w1 eq_refl ltac:(lia) (or_introl eq_refl)), (Q 3%nat 2%nat w3 eq_refl ltac:(lia) (or_intror eq_refl)). reflexivity.
    - rewrite (Q 2%nat 0%nat w2 eq_refl ltac:(lia) (or_introl eq_refl)), (Q 3%nat 1%nat w3 eq_refl ltac:(lia) (or_intror eq_refl)). reflexivity. }
  intros Hn. split.
  - apply (edge_sum t Hwf Hd a Ha per lo hi H1 H2 H3). assumption.
  - apply (periodic_sum t Hwf Hd a Ha per lo hi H1 H2 H3).
Qed.
End Axis.
