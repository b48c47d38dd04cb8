(** Retrieving and manufacturing blocks: lemmas. *)
From Coq Require Import ZArith List Arith Bool Lia.
From Verif Require Import Base TreeModel TreeSpec TreeProofs TreeProofs4 BalanceModel NdModel NdSpec NdProofs NdOpsModel NdOpsProofs ProlongModel ProlongProofs
  FluxModel FluxProofs FluxSpec GuardModel GuardSpec.
Import ListNotations.
Open Scope Z_scope.

(** ** Operations on all axes, as operations on index vectors *)

Lemma orthants_bits D : forall s, orthants (seq s D) = map (bits D) (seq 0 (2 ^ D)).
Proof.
  induction D as [|D IH]; intros s; [reflexivity|]. cbn [seq orthants]. rewrite IH.
  assert (G : forall n m, flat_map (fun bs => [false :: bs; true :: bs]) (map (bits D) (seq m n)) = map (bits (S D)) (seq (2 * m) (2 * n))).
  { induction n as [|n IHn]; intros m; [reflexivity|]. cbn [seq map flat_map app]. rewrite IHn.
    replace (2 * S n)%nat with (S (S (2 * n))) by lia. cbn [seq map].
    assert (E1 : bits (S D) (2 * m) = false :: bits D m).
    { cbn [bits]. rewrite Nat.div2_double. f_equal. rewrite <- Nat.negb_even. rewrite Nat.even_mul. reflexivity. }
    assert (E2 : bits (S D) (S (2 * m)) = true :: bits D m).
    { cbn [bits]. rewrite Nat.div2_succ_double. f_equal. rewrite Nat.odd_succ. rewrite Nat.even_mul. reflexivity. }
    rewrite E1, E2. f_equal. f_equal. f_equal. f_equal. lia. }
  rewrite (G (2 ^ D)%nat 0%nat). reflexivity.
Qed.

Lemma nth_app_at {A} (p : list A) x j d : nth (length p) (p ++ x :: j) d = x.
Proof. rewrite app_nth2 by lia. rewrite Nat.sub_diag. reflexivity. Qed.
Lemma upd_app_at {A} (p : list A) x y j : upd (length p) y (p ++ x :: j) = p ++ y :: j.
Proof. induction p; simpl; [reflexivity|]. f_equal. assumption. Qed.
Lemma app_one {A} (p : list A) x j : p ++ x :: j = (p ++ [x]) ++ j.
Proof. rewrite <- app_assoc. reflexivity. Qed.

Lemma scale_repeat_gen g D : forall (p : list Z) n, scale g (seq (length p) D) (p ++ repeat n D) = p ++ repeat (g n) D.
Proof.
  induction D as [|D IH]; intros p n; [reflexivity|]. cbn [seq repeat]. rewrite scale_cons. rewrite nth_app_at, upd_app_at.
  rewrite app_one. replace (S (length p)) with (length (p ++ [g n])) by (rewrite app_length; simpl; lia). rewrite IH.
  rewrite <- app_one. reflexivity.
Qed.
Lemma scale_repeat g D n : scale g (seq 0 D) (repeat n D) = repeat (g n) D.
Proof. apply (scale_repeat_gen g D [] n). Qed.

Section Vec.
Context {A : Type} (add : A -> A -> A) (half : A -> A).

Lemma shift_vec v N D : forall bs (p j sh : list Z) (F : list Z -> A), length bs = D -> length j = D ->
  (forall a, In a (seq (length p) D) -> nth a sh 0 = 2 * N + v) ->
  shift v (seq (length p) D) bs sh F (p ++ j) = F (p ++ zipw (fun x (b : bool) => if b then N + x else x) j bs).
Proof.
  induction D as [|D IH]; intros bs p j sh F Hb Hj Hs; destruct bs as [|b bs], j as [|x j]; try discriminate; [reflexivity|].
  cbn [seq shift zipw]. rewrite app_one. replace (S (length p)) with (length (p ++ [x])) by (rewrite app_length; simpl; lia).
  rewrite IH; [|simpl in Hb; lia|simpl in Hj; lia|].
  - rewrite <- app_one. rewrite Hs by (left; reflexivity). rewrite nth_app_at, upd_app_at.
    replace ((2 * N + v - v) / 2) with N by (replace (2 * N + v - v) with (N * 2) by lia; rewrite Z.div_mul by lia; reflexivity).
    destruct b; reflexivity.
  - intros a Ha. apply Hs. right. rewrite app_length in Ha. simpl in Ha. rewrite Nat.add_1_r in Ha. exact Ha.
Qed.

Lemma Pall_cells_vec D : forall (p j : list Z) (F : list Z -> A), length j = D ->
  Pall (Pc (A := A)) (seq (length p) D) F (p ++ j) = F (p ++ map (fun x => x / 2) j).
Proof.
  induction D as [|D IH]; intros p j F Hj; destruct j as [|x j]; try discriminate; [reflexivity|].
  cbn [seq map]. change (Pall (Pc (A := A)) (length p :: seq (S (length p)) D) F) with (Pall (Pc (A := A)) (seq (S (length p)) D) (Pc (length p) F)).
  rewrite app_one. replace (S (length p)) with (length (p ++ [x])) by (rewrite app_length; simpl; lia).
  rewrite IH by (simpl in Hj; lia). rewrite <- app_one. unfold Pc. rewrite nth_app_at, upd_app_at. reflexivity.
Qed.

Lemma Rall_verts_vec D : forall (p j : list Z) (F : list Z -> A), length j = D ->
  Rall (Rv (A := A)) (seq (length p) D) F (p ++ j) = F (p ++ map (fun x => 2 * x) j).
Proof.
  induction D as [|D IH]; intros p j F Hj; destruct j as [|x j]; try discriminate; [reflexivity|].
  cbn [seq map]. change (Rall (Rv (A := A)) (length p :: seq (S (length p)) D) F) with (Rall (Rv (A := A)) (seq (S (length p)) D) (Rv (length p) F)).
  rewrite app_one. replace (S (length p)) with (length (p ++ [x])) by (rewrite app_length; simpl; lia).
  rewrite IH by (simpl in Hj; lia). rewrite <- app_one. unfold Rv. rewrite nth_app_at, upd_app_at. reflexivity.
Qed.
End Vec.

Lemma inb_repeat_length N D k : inb (repeat N D) k -> length k = D.
Proof. intros H. apply inb_length in H. rewrite repeat_length in H. congruence. Qed.

(** Coordinates of a child. *)
Lemma glob_child N : forall c bs q, length c = length q -> length bs = length q ->
  glob N (zipw (fun (x : nat) b => (x * 2 + Nat.b2n b)%nat) c bs) q =
  glob (2 * N) c (zipw (fun x (b : bool) => if b then N + x else x) q bs).
Proof.
  induction c as [|x c IH]; intros [|b bs] [|y q] H1 H2; try discriminate; [reflexivity|].
  unfold glob in *. cbn [zipw]. rewrite IH by (simpl in *; lia). f_equal. destruct b; cbn [Nat.b2n]; nia.
Qed.

(** ** The recursion *)
Section Get.
Context {A : Type} (D : nat) (N v : Z) (t : tree (array A)).
Variables (refine : array A -> outcome (list (array A))) (combine : list (array A) -> outcome (array A))
  (coarsen : array A -> outcome (array A)) (P R : nat -> (list Z -> A) -> list Z -> A) (G : nat -> list Z -> A).
Hypothesis HD : (1 <= D)%nat.
Hypothesis Hwf : wf_tree D t.
Hypothesis Hd : (depth t <= 30)%nat.

Let shp : list Z := repeat (N + v) D.
Let big : list Z := repeat (2 * N + v) D.

Hypothesis Hrefine : forall b F, reps b shp F ->
  exists cs, refine b = Ok cs /\
    Forall2 (fun bs c => reps c shp (fun q => Pall P (seq 0 D) F (zipw (fun x (b : bool) => if b then N + x else x) q bs)))
            (map (bits D) (seq 0 (2 ^ D))) cs.
Hypothesis Hcombine : forall cs F,
  Forall2 (fun bs c => reps c shp (fun q => F (zipw (fun x (b : bool) => if b then N + x else x) q bs)))
          (map (bits D) (seq 0 (2 ^ D))) cs ->
  exists c, combine cs = Ok c /\ reps c big F.
Hypothesis Hcoarsen : forall c F, reps c big F -> exists r, coarsen c = Ok r /\ reps r shp (Rall R (seq 0 D) F).

Hypothesis Hleaf : forall p b, path_ok D p -> node_path p t = Some (Leaf b) -> reps b shp (fun k => G (length p) (glob N (of_path D p) k)).
Hypothesis Hnode : forall p cs k, path_ok D p -> node_path p t = Some (Node cs) -> inb shp k ->
  G (length p) (glob N (of_path D p) k) = Rall R (seq 0 D) (fun q => G (S (length p)) (glob (2 * N) (of_path D p) q)) k.
Hypothesis Hfine : forall p b k, path_ok D p -> node_path p t = Some (Leaf b) -> inb big k ->
  G (S (length p)) (glob (2 * N) (of_path D p) k) = Pall P (seq 0 D) (fun q => G (length p) (glob N (of_path D p) q)) k.

Lemma shp_big k bs : 0 <= N -> 0 <= v -> inb shp k -> length bs = D -> inb big (zipw (fun x (b : bool) => if b then N + x else x) k bs).
Proof.
  unfold shp, big. clear. revert k bs. induction D as [|n IH]; intros k bs HN Hv H Hb; cbn [repeat] in *; inversion H; subst; destruct bs as [|b bs]; try discriminate;
    cbn [zipw]; constructor; [destruct b; lia|]. apply IH; auto.
Qed.

Lemma of_path_snoc p k : path_ok D p -> (k < 2 ^ D)%nat ->
  of_path D (p ++ [k]) = zipw (fun (x : nat) b => (x * 2 + Nat.b2n b)%nat) (of_path D p) (bits D k).
Proof.
  clear -D. intros Hp Hk. pose proof (child_addr D p k Hp Hk) as E. unfold addr, child_index in E. cbn [coords level] in E. injection E as E1 E2.
  rewrite of_path_length in E2. congruence.
Qed.

Lemma contains_addr p : path_ok D p -> (length p <= 31)%nat ->
  contains_compiled t (addr D p) = match node_path p t with Some (Leaf _) => Ok true | _ => Ok false end.
Proof.
  clear -Hwf. intros. unfold contains_compiled, addr; cbn [level coords].
  rewrite (contains_compiled_path D) by (auto using of_path_length, of_path_bound). rewrite path_of_of_path by auto. reflexivity.
Qed.

Lemma orthant_rel p k : path_ok D p -> (k < 2 ^ D)%nat ->
  exists o, orthant (relative_to_parent (addr D (p ++ [k]))) = Ok o /\ to_integral o = k.
Proof.
  clear -D. intros Hp Hk. unfold relative_to_parent, orthant. cbn [level coords addr]. rewrite shl1_ok by lia. bsimp.
  eexists. split; [reflexivity|]. rewrite <- (to_integral_bits D k Hk) at 2. f_equal.
  rewrite of_path_snoc by assumption.
  assert (H : length (bits D k) = length (of_path D p)) by (rewrite of_path_length; apply bits_length).
  revert H. generalize (of_path D p) (bits D k). clear. intros c bs H. revert bs H.
  induction c as [|x c IH]; intros [|b bs] H; try discriminate; [reflexivity|]. cbn [zipw map].
  rewrite IH by (simpl in H; lia). f_equal. rewrite Nat.pow_0_r, Nat.div_1_r.
  rewrite (Nat.add_comm (x * 2)), Nat.mod_add by lia. destruct b; reflexivity.
Qed.

Theorem get_block_reps : forall fuel p post, path_ok D p -> 0 <= N -> 0 <= v ->
  (exists b, node_path p t = Some (Leaf b) /\ (1 <= fuel)%nat) \/
  (exists cs, node_path p t = Some (Node cs) /\ (depth (Node cs) < fuel)%nat /\ p <> []) \/
  (exists q k b, p = q ++ [k] /\ node_path q t = Some (Leaf b) /\ (1 <= fuel)%nat) ->
  exists b, get_block (@contains_compiled (array A)) refine combine coarsen fuel t (addr D p) post = rethrow (post b) /\
    reps b shp (fun k => G (length p) (glob N (of_path D p) k)).
Proof.
  induction fuel as [|fuel IH]; intros p post Hp HN Hv HC.
  { destruct HC as [(b & _ & H)|[(cs & _ & H & _)|(q & k & b & _ & _ & H)]]; lia. }
  assert (HPL : forall n, node_path p t = Some n -> (length p <= 30)%nat).
  { intros n E. apply depth_path in E. lia. }
  destruct HC as [(b & E & _)|[(cs & E & HF & Hne)|(q & k & b & Ep & E & _)]].
  - specialize (HPL _ E). exists b. split; [|apply Hleaf; assumption].
    cbn [get_block]. rewrite contains_addr by (auto; lia). rewrite E. bsimp.
    rewrite (proj2 (at_addr D t p Hwf Hp ltac:(lia) b) E). bsimp. reflexivity.
  - specialize (HPL _ E). destruct (path_snoc p Hne) as (q & k & Ep).
    assert (Hqk : path_ok D q /\ (k < 2 ^ D)%nat).
    { rewrite Ep in Hp. apply Forall_app in Hp. destruct Hp as [H1 H2]. inversion H2; subst. split; assumption. }
    destruct Hqk as [Hq Hk].
    assert (Eq : exists ds, node_path q t = Some (Node ds)).
    { rewrite Ep, node_path_app in E. destruct (node_path q t) as [[x|ds]|]; try discriminate. eauto. }
    destruct Eq as [ds Eq].
    assert (W : wf_tree D (Node cs)) by exact (BalanceProofs.node_path_wf D p t _ Hwf E).
    apply wf_node_inv in W. destruct W as [W1 W2].
    pose (F := fun q => G (S (length p)) (glob (2 * N) (of_path D p) q)).
    assert (HB : exists bs, mapM (fun j => get_block (@contains_compiled (array A)) refine combine coarsen fuel t j (fun b => Ok b)) (child_indexes (addr D p)) = Ok bs /\
      Forall2 (fun bits c => reps c shp (fun q => F (zipw (fun x (b : bool) => if b then N + x else x) q bits))) (map (bits D) (seq 0 (2 ^ D))) bs).
    { unfold child_indexes. replace (length (coords (addr D p))) with D by (unfold addr; cbn [coords]; rewrite of_path_length; reflexivity).
      assert (HS : Forall (fun k => (k < 2 ^ D)%nat) (seq 0 (2 ^ D))) by (apply Forall_forall; intros x Hx; apply in_seq in Hx; lia).
      revert HS. generalize (seq 0 (2 ^ D)) as ks. induction ks as [|m ks IHk]; intros HS; [exists []; split; [reflexivity|constructor]|].
      pose proof (Forall_inv HS) as Hm. cbv beta in Hm. destruct (IHk (Forall_inv_tail HS)) as (bs & E1 & E2).
      assert (Hpm : path_ok D (p ++ [m])) by (apply Forall_app; split; [assumption|constructor; [assumption|constructor]]).
      assert (exists c, nth_error cs m = Some c) as [c Ec].
      { destruct (nth_error cs m) as [c|] eqn:X; [eauto|]. apply nth_error_None in X. rewrite W1 in X. exfalso. clear -X Hm. lia. }
      assert (Em : node_path (p ++ [m]) t = Some c) by (rewrite node_path_app, E; cbn [node_path]; rewrite Ec; reflexivity).
      assert (Hdc : (depth c < depth (Node cs))%nat).
      { assert (X : node_path [m] (Node cs) = Some c) by (cbn [node_path]; rewrite Ec; reflexivity).
        apply depth_path in X. cbn [length] in X. lia. }
      destruct (IH (p ++ [m]) (fun b => Ok b) Hpm HN Hv) as (b & Eb & Rb).
      { destruct c as [x|es]; [left; exists x; split; [assumption|lia]|]. right. left. exists es. split; [assumption|]. split; [lia|].
        destruct p; discriminate. }
      exists (b :: bs). cbn [map mapM]. rewrite child_addr by assumption. rewrite Eb. cbn [rethrow]. bsimp. rewrite E1. bsimp. split; [reflexivity|].
      constructor; [|assumption]. eapply reps_ext; [exact Rb|]. intros q' Hq'. cbv beta. unfold F.
      rewrite app_length. cbn [length]. rewrite Nat.add_1_r. f_equal. rewrite of_path_snoc by assumption.
      apply inb_repeat_length in Hq'. apply glob_child; [rewrite of_path_length; congruence|rewrite bits_length; congruence]. }
    destruct HB as (bs & E1 & E2). destruct (Hcombine bs F E2) as (c & EC & RC). destruct (Hcoarsen c F RC) as (r & ER & RR).
    exists r. split.
    + cbn [get_block]. rewrite contains_addr by (auto; lia). rewrite E. bsimp. rewrite Ep at 1. rewrite parent_addr by assumption.
      rewrite contains_addr by (auto; rewrite Ep, app_length in HPL; simpl in HPL; lia). rewrite Eq. bsimp. rewrite E1. bsimp. rewrite EC. bsimp. rewrite ER. bsimp. reflexivity.
    + eapply reps_ext; [exact RR|]. intros k' Hk'. symmetry. unfold F. apply (Hnode p cs); assumption.
  - assert (Hqk : path_ok D q /\ (k < 2 ^ D)%nat).
    { rewrite Ep in Hp. apply Forall_app in Hp. destruct Hp as [H1 H2]. inversion H2; subst. split; assumption. }
    destruct Hqk as [Hq Hk]. assert (Hql : (length q <= 30)%nat) by (apply depth_path in E; lia).
    assert (En : node_path p t = None) by (rewrite Ep, node_path_app, E; reflexivity).
    assert (Hpl : length p = S (length q)) by (rewrite Ep, app_length; simpl; lia).
    destruct (Hrefine b _ (Hleaf q b Hq E)) as (cs & ERf & RF).
    destruct (orthant_rel q k Hq Hk) as (o & EO & EI).
    assert (exists c, nth_error cs k = Some c /\ reps c shp (fun q' => Pall P (seq 0 D) (fun k0 => G (length q) (glob N (of_path D q) k0))
              (zipw (fun x (b : bool) => if b then N + x else x) q' (bits D k)))) as (c & Ec & Rc).
    { clear -RF Hk. assert (X : forall l m n x, Forall2 (fun bs c => reps c shp (fun q0 => Pall P (seq 0 D) (fun k0 => G (length q) (glob N (of_path D q) k0))
              (zipw (fun x (b : bool) => if b then N + x else x) q0 bs))) l m -> nth_error l n = Some x -> exists c, nth_error m n = Some c /\
              reps c shp (fun q0 => Pall P (seq 0 D) (fun k0 => G (length q) (glob N (of_path D q) k0)) (zipw (fun x (b : bool) => if b then N + x else x) q0 x))).
      { induction l as [|a l IHl]; intros m n x HF Hn; [destruct n; discriminate|]. inversion HF; subst. destruct n as [|n]; cbn [nth_error] in *.
        - injection Hn as ->. eauto.
        - eapply IHl; eassumption. }
      eapply X; [exact RF|]. rewrite nth_error_map. rewrite (nth_error_nth' (seq 0 (2 ^ D)) 0%nat) by (rewrite seq_length; assumption).
      rewrite seq_nth by assumption. reflexivity. }
    exists c. split.
    + cbn [get_block]. rewrite contains_addr by (auto; lia). rewrite En. bsimp. rewrite Ep at 1. rewrite parent_addr by assumption.
      rewrite contains_addr by (auto; lia). rewrite E. bsimp. rewrite Ep at 1. rewrite EO. bsimp.
      rewrite (proj2 (at_addr D t q Hwf Hq ltac:(lia) b) E). bsimp. rewrite ERf. bsimp. rewrite EI, Ec. bsimp. reflexivity.
    + eapply reps_ext; [exact Rc|]. intros q' Hq'. cbv beta. rewrite Hpl, Ep. rewrite of_path_snoc by assumption.
      pose proof (inb_repeat_length _ _ _ Hq') as HL.
      rewrite glob_child by (rewrite ?of_path_length, ?bits_length; congruence). symmetry. apply (Hfine q b); [assumption|assumption|].
      apply shp_big; auto. apply bits_length.
Qed.
End Get.
