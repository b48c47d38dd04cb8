(** Averages over the cells within a cell; the operators of get_cell_block and get_vertex_block. *)
From Coq Require Import ZArith Reals List Arith Bool Lia Lra.
From Verif Require Import Base TreeModel TreeSpec TreeProofs TreeProofs4 BalanceModel NdModel NdSpec NdProofs NdOpsModel NdOpsProofs ProlongModel ProlongProofs ProlongProps
  FluxModel FluxProofs FluxSpec FluxProofs2 GuardModel GuardSpec GuardProofs.
Import ListNotations.
Open Scope Z_scope.

(** ** The operators *)
Lemma forall2_impl {A B} (P Q : A -> B -> Prop) : forall l m, (forall x y, In x l -> P x y -> Q x y) -> Forall2 P l m -> Forall2 Q l m.
Proof.
  intros l m H F. induction F as [|x y l m HP F IH]; [constructor|]. constructor; [apply H; [left; reflexivity|assumption]|].
  apply IH. intros; apply H; [right|]; assumption.
Qed.

Lemma nth_repeat_lt {A} (x d : A) n a : (a < n)%nat -> nth a (repeat x n) d = x.
Proof. revert a. induction n; intros [|a] H; cbn [repeat nth]; [lia|lia|reflexivity|apply IHn; lia]. Qed.

Lemma small_repeat N D : 1 <= N -> 2 * N + 2 < two64 -> okshape (repeat N D) /\ small (seq 0 D) (repeat N D) /\ NoDup (seq 0 D).
Proof.
  intros H1 H2. split; [|split].
  - apply Forall_forall. intros x Hx. apply repeat_spec in Hx. subst. change (0 <= N < two64). lia.
  - apply Forall_forall. intros a Ha. apply in_seq in Ha. rewrite repeat_length, nth_repeat_lt by lia. lia.
  - apply seq_NoDup.
Qed.

Section Operators.
Context {A : Type} (add : A -> A -> A) (half : A -> A) (D : nat) (N : Z).
Hypothesis HN : 1 <= N /\ 4 * N + 4 < two64.

Lemma bits_in bs : In bs (map (bits D) (seq 0 (2 ^ D))) -> length bs = D.
Proof. intros H. apply in_map_iff in H. destruct H as (k & <- & _). apply bits_length. Qed.

Lemma refine_cells_vec (b : array A) F : reps b (repeat N D) F ->
  exists cs, refine_cells (seq 0 D) b = Ok cs /\
    Forall2 (fun bs c => reps c (repeat N D) (fun q => Pall (Pc (A := A)) (seq 0 D) F (zipw (fun x (b : bool) => if b then N + x else x) q bs)))
            (map (bits D) (seq 0 (2 ^ D))) cs.
Proof.
  intros Hb. destruct (small_repeat N D ltac:(lia) ltac:(lia)) as (HO & HS & HND).
  destruct (prolong_all_reps prolong_cells Pc 0 (or_introl eq_refl) cells_prolong_hyp (seq 0 D) b _ F HO HND HS Hb) as [HO' HR'].
  destruct (children_reps bisect_cells 0 (or_introl eq_refl) bisect_cells_reps (seq 0 D) _ _ _ HO' HND
     (scale_splittable 0 0 _ _ (or_introl (conj eq_refl eq_refl)) HND HS) HR') as (cs & E & RS).
  exists cs. split; [exact E|]. rewrite orthants_bits in RS. eapply forall2_impl; [|exact RS].
  intros bs c Hin Hc. cbv beta in Hc. apply bits_in in Hin. unfold halved in Hc. rewrite !scale_repeat in Hc.
  replace ((2 * N - 0 - 0) / 2 + 0) with N in Hc by (replace (2 * N - 0 - 0) with (N * 2) by lia; rewrite Z.div_mul by lia; lia).
  eapply reps_ext; [exact Hc|]. intros q Hq. apply inb_repeat_length in Hq. cbv beta.
  rewrite (shift_vec 0 N D bs [] q) by (auto; intros a Ha; apply in_seq in Ha; cbn [length] in Ha; rewrite nth_repeat_lt by lia; lia). reflexivity.
Qed.

Lemma combine_cells_vec (cs : list (array A)) F :
  Forall2 (fun bs c => reps c (repeat N D) (fun q => F (zipw (fun x (b : bool) => if b then N + x else x) q bs))) (map (bits D) (seq 0 (2 ^ D))) cs ->
  exists c, combine_cells (seq 0 D) cs = Ok c /\ reps c (repeat (2 * N) D) F.
Proof.
  intros H. destruct (small_repeat (2 * N) D ltac:(lia) ltac:(lia)) as (HO & HS & HND).
  apply (combine_reps join_cells 0 (or_introl eq_refl) join_cells_reps (seq 0 D) cs _ F HO HND).
  - apply Forall_forall. intros a Ha. apply in_seq in Ha. rewrite repeat_length, nth_repeat_lt by lia. split; [lia|]. exists N. lia.
  - rewrite orthants_bits. eapply forall2_impl; [|exact H]. intros bs c Hin Hc. cbv beta in Hc. apply bits_in in Hin.
    unfold halved. rewrite !scale_repeat.
    replace ((2 * N - 0) / 2 + 0) with N by (replace (2 * N - 0) with (N * 2) by lia; rewrite Z.div_mul by lia; lia).
    eapply reps_ext; [exact Hc|]. intros q Hq. apply inb_repeat_length in Hq. cbv beta.
    rewrite (shift_vec 0 N D bs [] q) by (auto; intros a Ha; apply in_seq in Ha; cbn [length] in Ha; rewrite nth_repeat_lt by lia; lia). reflexivity.
Qed.

Lemma coarsen_cells_vec (c : array A) F : reps c (repeat (2 * N) D) F ->
  exists r, coarsen_cells add half (seq 0 D) c = Ok r /\ reps r (repeat N D) (Rall (Rc add half) (seq 0 D) F).
Proof.
  intros H. destruct (small_repeat N D ltac:(lia) ltac:(lia)) as (HO & HS & HND).
  apply (restrict_all_reps (restrict_cells add half) (Rc add half) 0 (or_introl eq_refl) (cells_restrict_hyp add half) (seq 0 D) c _ F HO HND HS).
  - rewrite scale_repeat. apply Forall_forall. intros x Hx. apply repeat_spec in Hx. subst. change (0 <= 2 * N - 0 < two64). lia.
  - rewrite scale_repeat. rewrite Z.sub_0_r. assumption.
Qed.

Lemma refine_verts_vec (b : array A) F : reps b (repeat (N + 1) D) F ->
  exists cs, refine_verts add half (seq 0 D) b = Ok cs /\
    Forall2 (fun bs c => reps c (repeat (N + 1) D) (fun q => Pall (Pv add half) (seq 0 D) F (zipw (fun x (b : bool) => if b then N + x else x) q bs)))
            (map (bits D) (seq 0 (2 ^ D))) cs.
Proof.
  intros Hb. destruct (small_repeat (N + 1) D ltac:(lia) ltac:(lia)) as (HO & HS & HND).
  destruct (prolong_all_reps (prolong_verts add half) (Pv add half) 1 (or_intror eq_refl) (prolong_verts_reps add half) (seq 0 D) b _ F HO HND HS Hb) as [HO' HR'].
  destruct (children_reps bisect_verts 1 (or_intror eq_refl) bisect_verts_reps (seq 0 D) _ _ _ HO' HND
     (scale_splittable 1 1 _ _ (or_intror (conj eq_refl eq_refl)) HND HS) HR') as (cs & E & RS).
  exists cs. split; [exact E|]. rewrite orthants_bits in RS. eapply forall2_impl; [|exact RS].
  intros bs c Hin Hc. cbv beta in Hc. apply bits_in in Hin. unfold halved in Hc. rewrite !scale_repeat in Hc.
  replace ((2 * (N + 1) - 1 - 1) / 2 + 1) with (N + 1) in Hc by (replace (2 * (N + 1) - 1 - 1) with (N * 2) by lia; rewrite Z.div_mul by lia; lia).
  eapply reps_ext; [exact Hc|]. intros q Hq. apply inb_repeat_length in Hq. cbv beta.
  rewrite (shift_vec 1 N D bs [] q) by (auto; intros a Ha; apply in_seq in Ha; cbn [length] in Ha; rewrite nth_repeat_lt by lia; lia). reflexivity.
Qed.

Lemma combine_verts_vec (cs : list (array A)) F : (D <= 2)%nat ->
  Forall2 (fun bs c => reps c (repeat (N + 1) D) (fun q => F (zipw (fun x (b : bool) => if b then N + x else x) q bs))) (map (bits D) (seq 0 (2 ^ D))) cs ->
  exists c, combine_verts (seq 0 D) cs = Ok c /\ reps c (repeat (2 * N + 1) D) F.
Proof.
  intros HD H. destruct (small_repeat (2 * N + 1) D ltac:(lia) ltac:(lia)) as (HO & HS & HND).
  unfold combine_verts. rewrite seq_length. destruct (Nat.leb_spec D 2); [|lia].
  apply (combine_reps join_verts 1 (or_intror eq_refl) join_verts_reps (seq 0 D) cs _ F HO HND).
  - apply Forall_forall. intros a Ha. apply in_seq in Ha. rewrite repeat_length, nth_repeat_lt by lia. split; [lia|]. exists N. lia.
  - rewrite orthants_bits. eapply forall2_impl; [|exact H]. intros bs c Hin Hc. cbv beta in Hc. apply bits_in in Hin.
    unfold halved. rewrite !scale_repeat.
    replace ((2 * N + 1 - 1) / 2 + 1) with (N + 1) by (replace (2 * N + 1 - 1) with (N * 2) by lia; rewrite Z.div_mul by lia; lia).
    eapply reps_ext; [exact Hc|]. intros q Hq. apply inb_repeat_length in Hq. cbv beta.
    rewrite (shift_vec 1 N D bs [] q) by (auto; intros a Ha; apply in_seq in Ha; cbn [length] in Ha; rewrite nth_repeat_lt by lia; lia). reflexivity.
Qed.

Lemma coarsen_verts_vec (c : array A) F : reps c (repeat (2 * N + 1) D) F ->
  exists r, coarsen_verts (seq 0 D) c = Ok r /\ reps r (repeat (N + 1) D) (Rall Rv (seq 0 D) F).
Proof.
  intros H. destruct (small_repeat (N + 1) D ltac:(lia) ltac:(lia)) as (HO & HS & HND).
  apply (restrict_all_reps restrict_verts Rv 1 (or_intror eq_refl) restrict_verts_reps (seq 0 D) c _ F HO HND HS).
  - rewrite scale_repeat. apply Forall_forall. intros x Hx. apply repeat_spec in Hx. subst. change (0 <= 2 * (N + 1) - 1 < two64). lia.
  - rewrite scale_repeat. replace (2 * (N + 1) - 1) with (2 * N + 1) by lia. assumption.
Qed.
End Operators.

(** ** Averages *)
Lemma rsum_ext {I} (F G : I -> R) l : (forall x, In x l -> F x = G x) -> rsum F l = rsum G l.
Proof. induction l as [|x l IH]; intros H; [reflexivity|]. cbn [rsum]. rewrite H by (left; reflexivity). rewrite IH; [reflexivity|]. intros; apply H; right; assumption. Qed.
Lemma rsum_app {I} (F : I -> R) l m : rsum F (l ++ m) = (rsum F l + rsum F m)%R.
Proof. induction l as [|x l IH]; cbn [rsum app]; [ring|]. rewrite IH. ring. Qed.
Lemma rsum_map {I J} (g : I -> J) (F : J -> R) l : rsum F (map g l) = rsum (fun x => F (g x)) l.
Proof. induction l as [|x l IH]; cbn [rsum map]; [reflexivity|]. rewrite IH. reflexivity. Qed.
Lemma rsum_scale {I} (F : I -> R) c l : rsum (fun x => F x * c)%R l = (rsum F l * c)%R.
Proof. induction l as [|x l IH]; cbn [rsum]; [ring|]. rewrite IH. ring. Qed.
Lemma rsum_plus {I} (F G : I -> R) l : rsum (fun x => F x + G x)%R l = (rsum F l + rsum G l)%R.
Proof. induction l as [|x l IH]; cbn [rsum]; [ring|]. rewrite IH. ring. Qed.
Lemma rsum_const {I} c (l : list I) : rsum (fun _ => c) l = (c * INR (length l))%R.
Proof. induction l as [|x l IH]; [cbn [rsum length]; simpl; ring|]. cbn [rsum]. rewrite IH. cbn [length]. rewrite S_INR. ring. Qed.

Lemma pow2_pos s : (0 < 2 ^ s)%R. Proof. apply pow_lt. lra. Qed.
Lemma zrange_pow_length s : INR (length (zrange (2 ^ Z.of_nat s))) = (2 ^ s)%R.
Proof. rewrite zrange_length. rewrite INR_IZR_INZ, Z2Nat.id by lia. rewrite <- pow_IZR. reflexivity. Qed.

Lemma box_mean_ext s : forall g F G, (forall o, inb (repeat (2 ^ Z.of_nat s) (length g)) o ->
    F (zipw (fun x y => x * 2 ^ Z.of_nat s + y) g o) = G (zipw (fun x y => x * 2 ^ Z.of_nat s + y) g o)) -> box_mean s g F = box_mean s g G.
Proof.
  induction g as [|x g IH]; intros F G H; [apply (H []); constructor|]. cbn [box_mean]. f_equal. apply rsum_ext. intros o Ho. apply zrange_In in Ho.
  apply IH. intros os Hos. apply (H (o :: os)). constructor; assumption.
Qed.
Lemma box_mean_const s c : forall g, box_mean s g (fun _ => c) = c.
Proof.
  induction g as [|x g IH]; [reflexivity|]. cbn [box_mean]. rewrite (rsum_ext _ (fun _ => c)) by (intros; apply IH).
  rewrite rsum_const, zrange_pow_length. field. pose proof (pow2_pos s); lra.
Qed.
Lemma box_mean_scale s c : forall g F, box_mean s g (fun r => F r * c)%R = (box_mean s g F * c)%R.
Proof.
  induction g as [|x g IH]; intros F; [reflexivity|]. cbn [box_mean]. rewrite (rsum_ext _ (fun o => box_mean s g (fun r => F ((x * 2 ^ Z.of_nat s + o)%Z :: r)) * c)%R)
    by (intros; apply (IH (fun r => F (_ :: r)))). rewrite rsum_scale. unfold Rdiv. ring.
Qed.
Lemma box_mean_plus s : forall g F G, box_mean s g (fun r => F r + G r)%R = (box_mean s g F + box_mean s g G)%R.
Proof.
  induction g as [|x g IH]; intros F G; [reflexivity|]. cbn [box_mean]. rewrite (rsum_ext _ (fun o => box_mean s g (fun r => F ((x * 2 ^ Z.of_nat s + o)%Z :: r)) + box_mean s g (fun r => G ((x * 2 ^ Z.of_nat s + o)%Z :: r)))%R)
    by (intros; apply (IH (fun r => F (_ :: r)) (fun r => G (_ :: r)))). rewrite rsum_plus. unfold Rdiv. ring.
Qed.
Lemma box_mean_rsum {I} s (l : list I) : forall g (F : I -> list Z -> R), box_mean s g (fun r => rsum (fun u => F u r) l) = rsum (fun u => box_mean s g (F u)) l.
Proof.
  intros g F. induction l as [|x l IH]; cbn [rsum]; [apply box_mean_const|]. rewrite (box_mean_plus s g (F x) (fun r => rsum (fun u => F u r) l)). rewrite IH. reflexivity.
Qed.

Lemma rsum_double (F : Z -> R) n : 0 <= n -> rsum F (zrange (2 * n)) = rsum (fun o => rsum (fun u => F (o * n + u)) (zrange n)) (zrange 2).
Proof.
  intros Hn. replace (2 * n) with (n + n) by lia. rewrite zrange_split by assumption. rewrite rsum_app, rsum_map.
  change (zrange 2) with [0; 1]. cbn [rsum]. rewrite Rplus_0_r. f_equal; apply rsum_ext; intros; f_equal; lia.
Qed.

(** The average over a cell is the average of the averages over its halves (per axis). *)
Lemma box_mean_S m : forall g F, box_mean (S m) g F = box_mean 1 g (fun r => box_mean m r F).
Proof.
  induction g as [|x g IH]; intros F; [reflexivity|]. cbn [box_mean].
  assert (E2 : 2 ^ Z.of_nat (S m) = 2 * 2 ^ Z.of_nat m) by (rewrite Nat2Z.inj_succ, Z.pow_succ_r by lia; reflexivity).
  rewrite E2. rewrite rsum_double by lia. change (2 ^ Z.of_nat 1) with 2. rewrite (rsum_ext
    (fun o => box_mean 1 g (fun r => (rsum (fun o0 => box_mean m r (fun r0 => F (((x * 2 + o) * 2 ^ Z.of_nat m + o0)%Z :: r0))) (zrange (2 ^ Z.of_nat m)%Z) / 2 ^ m)%R))
    (fun o => rsum (fun u => box_mean (S m) g (fun r => F ((x * (2 * 2 ^ Z.of_nat m) + (o * 2 ^ Z.of_nat m + u))%Z :: r))) (zrange (2 ^ Z.of_nat m)%Z) * / 2 ^ m)%R).
  - rewrite rsum_scale. simpl. field. pose proof (pow2_pos m); lra.
  - intros o _. unfold Rdiv. rewrite (box_mean_scale 1 (/ 2 ^ m)%R g (fun r => rsum (fun o0 => box_mean m r (fun r0 => F (((x * 2 + o) * 2 ^ Z.of_nat m + o0)%Z :: r0))) (zrange (2 ^ Z.of_nat m)))).
    f_equal. rewrite box_mean_rsum. apply rsum_ext. intros u _. rewrite <- IH. apply box_mean_ext. intros o0 _. do 2 f_equal. ring.
Qed.

Lemma Rall_cells_vec D : forall (p j : list Z) (K : list Z -> R), length j = D ->
  Rall (Rc Rplus (fun x => x / 2)%R) (seq (length p) D) K (p ++ j) = box_mean 1 j (fun r => K (p ++ r)).
Proof.
  induction D as [|D IH]; intros p j K Hj; destruct j as [|x j]; try discriminate; [reflexivity|].
  cbn [seq]. change (Rall (Rc Rplus (fun x => x / 2)%R) (length p :: seq (S (length p)) D) K)
    with (Rall (Rc Rplus (fun x => x / 2)%R) (seq (S (length p)) D) (Rc Rplus (fun x => x / 2)%R (length p) K)).
  rewrite (app_one p x j). replace (S (length p)) with (length (p ++ [x])) by (rewrite app_length; simpl; lia).
  rewrite IH by (simpl in Hj; lia). cbn [box_mean]. change (zrange (2 ^ Z.of_nat 1)) with [0; 1]. cbn [rsum].
  rewrite (box_mean_ext 1 j _ (fun r => (K (p ++ (x * 2 ^ Z.of_nat 1 + 0)%Z :: r) + K (p ++ (x * 2 ^ Z.of_nat 1 + 1)%Z :: r)) * / 2)%R).
  - rewrite (box_mean_scale 1 (/ 2)%R j (fun r => K (p ++ (x * 2 ^ Z.of_nat 1 + 0)%Z :: r) + K (p ++ (x * 2 ^ Z.of_nat 1 + 1)%Z :: r))%R).
    rewrite (box_mean_plus 1 j (fun r => K (p ++ (x * 2 ^ Z.of_nat 1 + 0)%Z :: r)) (fun r => K (p ++ (x * 2 ^ Z.of_nat 1 + 1)%Z :: r))). unfold Rdiv. simpl. field.
  - intros o _. unfold Rc. rewrite <- app_one. rewrite nth_app_at, !upd_app_at. change (2 ^ Z.of_nat 1) with 2.
    replace (2 * x) with (x * 2 + 0) by lia. replace (1 + (x * 2 + 0)) with (x * 2 + 1) by lia. reflexivity.
Qed.

Lemma box_mean_glob N : forall c k (K : list Z -> R), length c = length k ->
  box_mean 1 (glob N c k) K = box_mean 1 k (fun r => K (glob (2 * N) c r)).
Proof.
  induction c as [|x c IH]; intros [|y k] K H; try discriminate; [reflexivity|]. unfold glob. cbn [zipw box_mean]. f_equal. apply rsum_ext. intros o _.
  change (zipw (fun (x0 : nat) (y0 : Z) => Z.of_nat x0 * N + y0) c k) with (glob N c k). rewrite IH by (simpl in H; lia). apply box_mean_ext.
  intros q _. cbn [zipw]. unfold glob. do 2 f_equal. change (2 ^ Z.of_nat 1) with 2. ring.
Qed.
