(** Block decompositions and multi-threaded evaluation. *)
From Coq Require Import ZArith Znumtheory List Lia Bool Sorting.Sorted Sorting.Permutation.
From Verif Require Import Base NdModel NdSpec NdProofs NdProofs2 NdProofs3 ParallelModel ParallelProofs.
Import ListNotations.
Open Scope Z_scope.

Lemma mapM_throw {A B} (f : A -> outcome B) e l :
  (forall x, In x l -> (exists b, f x = Ok b) \/ f x = Throw e) ->
  (exists x, In x l /\ f x = Throw e) -> mapM f l = Throw e.
Proof.
  induction l as [|y l IH]; intros HA (x & Hin & Hx); [destruct Hin|].
  cbn [mapM]. destruct (HA y (or_introl eq_refl)) as [[b Hb]|Hb]; rewrite Hb; [|reflexivity].
  bsimp. destruct Hin as [<-|Hin]; [congruence|].
  rewrite IH; [reflexivity|intros; apply HA; right; assumption|exists x; auto].
Qed.

Definition block_pair (e b : Z) (g : nat) : Z * Z :=
  (bound (Z.of_nat g) e b, bound (Z.of_nat g + 1) e b - bound (Z.of_nat g) e b).

Lemma bound_range g e P : 0 < P -> 0 <= e -> 0 <= g < P -> 0 <= bound g e P <= bound (g + 1) e P /\ bound (g + 1) e P <= e.
Proof.
  intros. pose proof (bound_mono g (g + 1) e P ltac:(lia) ltac:(lia) ltac:(lia)).
  pose proof (bound_mono 0 g e P ltac:(lia) ltac:(lia) ltac:(lia)).
  pose proof (bound_mono (g + 1) P e P ltac:(lia) ltac:(lia) ltac:(lia)).
  rewrite bound_0 in * by lia. rewrite bound_P in * by lia. lia.
Qed.

Lemma axis_block_one e b g : 0 <= e <= 2147483647 -> 0 < b < two64 -> b * e < two64 -> (Z.of_nat g < b) ->
  (do grp <- divvy_group b (arange1 (to_int e)) (Z.of_nat g);
   if volume (ashape grp) =? 0 then Throw LogicError
   else do first <- aget grp [0]; Ok (first, volume (ashape grp)))
  = if bound (Z.of_nat g + 1) e b - bound (Z.of_nat g) e b =? 0 then Throw LogicError else Ok (block_pair e b g).
Proof.
  intros He Hb HB Hg. rewrite to_int_small by lia.
  destruct (divvy_group_value b (arange1 e) e (Z.of_nat g)) as (grp & E & ES & EG); try lia.
  { simpl. rewrite w64_small; [reflexivity|unfold two64; lia]. }
  rewrite E. bsimp. rewrite ES.
  pose proof (bound_range (Z.of_nat g) e b ltac:(lia) ltac:(lia) ltac:(lia)).
  rewrite volume_one by lia.
  destruct (Z.eqb_spec (bound (Z.of_nat g + 1) e b - bound (Z.of_nat g) e b) 0); [reflexivity|].
  rewrite EG by lia. cbn [arange1 aget hd]. bsimp. unfold block_pair. f_equal. f_equal. lia.
Qed.

Lemma axis_blocks_ok e b : 0 <= e <= 2147483647 -> 0 < b < two64 -> b * e < two64 -> b <= e ->
  axis_blocks e b = Ok (map (block_pair e b) (seq 0 (Z.to_nat b))).
Proof.
  intros He Hb HB Hle. unfold axis_blocks. apply mapM_all. intros g Hg. apply in_seq in Hg.
  rewrite axis_block_one by lia. pose proof (bound_strict (Z.of_nat g) e b ltac:(lia) Hle).
  destruct (Z.eqb_spec (bound (Z.of_nat g + 1) e b - bound (Z.of_nat g) e b) 0); [lia|reflexivity].
Qed.

Lemma some_empty e b : 0 <= e < b -> exists g, (Z.of_nat g < b) /\ bound (Z.of_nat g + 1) e b = bound (Z.of_nat g) e b.
Proof.
  intros H.
  assert (G : forall n : nat, (Z.of_nat n <= b) ->
     (exists g, (Z.of_nat g < b) /\ bound (Z.of_nat g + 1) e b = bound (Z.of_nat g) e b) \/ Z.of_nat n <= bound (Z.of_nat n) e b).
  { induction n as [|n IH]; intros Hn; [right; change (Z.of_nat 0) with 0; rewrite bound_0; lia|].
    destruct (IH ltac:(lia)) as [?|IH']; [left; assumption|].
    pose proof (bound_range (Z.of_nat n) e b ltac:(lia) ltac:(lia) ltac:(lia)).
    destruct (Z.eq_dec (bound (Z.of_nat n + 1) e b) (bound (Z.of_nat n) e b)).
    - left. exists n; split; [lia|assumption].
    - right. replace (Z.of_nat (S n)) with (Z.of_nat n + 1) by lia. lia. }
  destruct (G (Z.to_nat b) ltac:(lia)) as [?|Q]; [assumption|].
  rewrite Z2Nat.id in Q by lia. rewrite bound_P in Q by lia. lia.
Qed.

Lemma axis_blocks_throw e b : 0 <= e <= 2147483647 -> 0 < b < two64 -> b * e < two64 -> e < b ->
  axis_blocks e b = Throw LogicError.
Proof.
  intros He Hb HB Hlt. unfold axis_blocks. apply mapM_throw.
  - intros g Hg. apply in_seq in Hg. rewrite axis_block_one by lia.
    destruct (_ =? 0); [right; reflexivity|left; eexists; reflexivity].
  - destruct (some_empty e b ltac:(lia)) as (g & Hg & E). exists g. split; [apply in_seq; lia|].
    rewrite axis_block_one by lia. rewrite E, Z.sub_diag. reflexivity.
Qed.

Definition sane (e b : Z) : Prop := 0 <= e <= 2147483647 /\ 0 < b < two64 /\ b * e < two64.

Lemma block_tables_spec global blocks : Forall2 sane global blocks ->
  (Forall2 (fun e b => b <= e) global blocks ->
     block_tables global blocks = Ok (map (fun '(e, b) => map (block_pair e b) (seq 0 (Z.to_nat b))) (combine global blocks)))
  /\ (~ Forall2 (fun e b => b <= e) global blocks -> block_tables global blocks = Throw LogicError).
Proof.
  induction 1 as [|e b gs bs (He & Hb & HB) HS [IH1 IH2]]; cbn [block_tables combine map].
  - split; [reflexivity|]. intros Q; exfalso; apply Q; constructor.
  - split.
    + intros Q; inversion Q; subst. rewrite axis_blocks_ok by assumption. bsimp. rewrite IH1 by assumption. reflexivity.
    + intros Q. destruct (Z.le_gt_cases b e) as [C|C].
      * rewrite axis_blocks_ok by assumption. bsimp. rewrite IH2; [reflexivity|].
        intros R; apply Q; constructor; assumption.
      * rewrite axis_blocks_throw by (assumption || lia). reflexivity.
Qed.

Definition starts (global blocks idx : list Z) : list Z :=
  map (fun '(e, (b, x)) => bound x e b) (combine global (combine blocks idx)).
Definition finals (global blocks idx : list Z) : list Z :=
  map (fun '(e, (b, x)) => bound (x + 1) e b) (combine global (combine blocks idx)).

Lemma block_bounds_spec global blocks idx : Forall2 sane global blocks -> inb blocks idx ->
  block_bounds (map (fun '(e, b) => map (block_pair e b) (seq 0 (Z.to_nat b))) (combine global blocks)) idx
  = Ok (starts global blocks idx, finals global blocks idx).
Proof.
  intros HS; revert idx; induction HS as [|e b gs bs (He & Hb & HB) HS IH]; intros idx Hi; inversion Hi; subst; [reflexivity|].
  cbn [combine map block_bounds]. unfold buf_read. destruct (Z.leb_spec 0 y); [|lia].
  rewrite (nth_error_nth' _ (0, 0)) by (rewrite map_length, seq_length; lia).
  rewrite (nth_indep _ (0, 0) (block_pair e b 0)) by (rewrite map_length, seq_length; lia).
  rewrite map_nth, seq_nth by lia. cbv beta iota. bsimp. rewrite IH by assumption. bsimp.
  unfold starts, finals. cbn [combine map fst snd]. unfold block_pair. cbn [fst snd].
  rewrite Nat.add_0_l, Z2Nat.id by lia.
  pose proof (bound_range y e b ltac:(lia) ltac:(lia) ltac:(lia)).
  rewrite w64_small by (unfold two64; lia).
  replace (bound y e b + (bound (y + 1) e b - bound y e b)) with (bound (y + 1) e b) by lia. reflexivity.
Qed.

(** One coordinate lies in exactly one block of its axis. *)
Lemma block_stops global blocks idx i : Forall2 sane global blocks -> inb blocks idx ->
  stops (starts global blocks idx) (finals global blocks idx) (map (fun _ => 1) blocks) i <->
  Forall2 (fun '(e, (b, x)) c => bound x e b <= c < bound (x + 1) e b) (combine global (combine blocks idx)) i.
Proof.
  intros HS; revert idx i; induction HS as [|e b gs bs (He & Hb & HB) HS IH]; intros idx i Hi; inversion Hi; subst.
  - split; intros Q; inversion Q; constructor.
  - cbn [combine]. unfold starts, finals. cbn [map combine]. fold (starts gs bs l'). fold (finals gs bs l'). split.
    + intros Q; inversion Q as [|? ? ? ? ? ? ? ? (k & ? & -> & ?)]; subst. constructor; [lia|]. apply IH; assumption.
    + intros Q; inversion Q as [|? ? ? ? Hc]; subst. constructor; [exists (y0 - bound y e b); lia|]. apply IH; assumption.
Qed.

Lemma block_exists global blocks i : Forall2 sane global blocks -> inb global i ->
  exists idx, inb blocks idx /\ Forall2 (fun '(e, (b, x)) c => bound x e b <= c < bound (x + 1) e b) (combine global (combine blocks idx)) i.
Proof.
  intros HS; revert i; induction HS as [|e b gs bs (He & Hb & HB) HS IH]; intros i Hi; inversion Hi; subst.
  - exists []; split; constructor.
  - destruct (bound_find e b y ltac:(lia) ltac:(lia)) as (n & Hn & Hy).
    destruct (IH _ H3) as (idx & H1' & H2').
    exists (n :: idx); split; [constructor; assumption|]. cbn [combine]. constructor; assumption.
Qed.

Lemma block_unique global blocks i idx idx' : Forall2 sane global blocks -> inb blocks idx -> inb blocks idx' ->
  Forall2 (fun '(e, (b, x)) c => bound x e b <= c < bound (x + 1) e b) (combine global (combine blocks idx)) i ->
  Forall2 (fun '(e, (b, x)) c => bound x e b <= c < bound (x + 1) e b) (combine global (combine blocks idx')) i ->
  idx = idx'.
Proof.
  intros HS; revert i idx idx'; induction HS as [|e b gs bs (He & Hb & HB) HS IH]; intros i idx idx' Hi Hi' Q Q';
    inversion Hi; inversion Hi'; subst; [reflexivity|].
  cbn [combine] in Q, Q'. inversion Q; inversion Q'; subst.
  match goal with H : _ :: _ = _ :: _ |- _ => injection H as -> -> end.
  f_equal; [eapply bound_unique with (e := e) (P := b); eauto; lia|].
  eapply IH; eauto.
Qed.

Lemma block_in_global global blocks idx i : Forall2 sane global blocks -> inb blocks idx ->
  Forall2 (fun '(e, (b, x)) c => bound x e b <= c < bound (x + 1) e b) (combine global (combine blocks idx)) i -> inb global i.
Proof.
  intros HS; revert i idx; induction HS as [|e b gs bs (He & Hb & HB) HS IH]; intros i idx Hi Q; inversion Hi; subst; inversion Q; subst; constructor.
  - pose proof (bound_range y e b ltac:(lia) ltac:(lia) ltac:(lia)). lia.
  - eapply IH; eauto.
Qed.

(** ** Threads *)

Lemma interleave_perm {A} (ls : list (list A)) w : interleave ls w -> Permutation w (concat ls).
Proof.
  induction 1 as [ls H|l1 x t l2 w H IH].
  - assert (E : concat ls = []) by (induction H as [|l ls' Hl Hls IHl]; simpl; [reflexivity|rewrite Hl; exact IHl]).
    rewrite E. constructor.
  - rewrite concat_app in *. cbn [concat] in *. cbn [app].
    transitivity (x :: concat l1 ++ t ++ concat l2).
    + constructor. exact IH.
    + apply Permutation_middle.
Qed.

Lemma thread_indexes_strided fuel e s P n : 0 < P < two64 -> 0 <= n < P -> 0 < e -> P * e < two64 ->
  Forall (fun d => 0 < d) s -> prodz (e :: s) < two64 -> (Z.to_nat (prodz (e :: s)) <= fuel)%nat ->
  (P <= e \/ s = []) ->
  exists l, thread_indexes fuel (e :: s) P n = Ok l /\ NoDup l /\
    forall i, In i l <-> exists x t, i = x :: t /\ bound n e P <= x < bound (n + 1) e P /\ inb s t.
Proof.
  intros HP Hn He HB Hs HPr HF HC. unfold thread_indexes. rewrite partition_region_value by lia. bsimp.
  pose proof (bound_range n e P ltac:(lia) ltac:(lia) Hn) as HR.
  pose proof (prodz_pos _ Hs) as HP0. simpl in HPr, HF.
  assert (He64 : e < two64) by nia.
  assert (Hs64 : Forall (fun d => 0 < d < two64) s) by (apply pos_bounded; [assumption|nia]).
  destruct (Z.eq_dec (bound n e P) (bound (n + 1) e P)) as [EQ|NE].
  - assert (s = []).
    { destruct HC as [HC|HC]; [|assumption]. pose proof (bound_strict n e P ltac:(lia) HC). lia. }
    subst s. exists []. unfold visited, for_each, for_indexes. cbn [ap_start ap_final map]. rewrite EQ.
    split; [|split; [constructor|]].
    + destruct fuel; cbn [for_indexes ap_final]; rewrite seq_eqb_refl; reflexivity.
    + intros i; split; [intros []|]. intros (x & t & _ & Hx & _). lia.
  - assert (HST : strided (bound n e P :: map (fun _ => 0) s) (bound (n + 1) e P :: s) (1 :: map (fun _ => 1) s)).
    { constructor; [lia|lia|unfold two64 in *; lia|]. apply default_strided; assumption. }
    exists (points (bound n e P :: map (fun _ => 0) s) (bound (n + 1) e P :: s) (1 :: map (fun _ => 1) s)).
    split; [|split].
    + unfold visited. rewrite for_each_points.
      * cbn [ap_start ap_final ap_jumps]. rewrite visited_foldM. reflexivity.
      * exact HST.
      * discriminate.
      * cbn [ap_start ap_final ap_jumps counts]. rewrite default_counts by assumption. cbn [prodz fold_right].
        fold (prodz s). unfold count. rewrite Z.div_1_r. nia.
    + assert (Hcp := Forall_pos_nonneg _ (counts_pos _ _ _ HST)).
      unfold points. pose proof (idxs_NoDup _ Hcp) as ND.
      assert (INJ : forall i j, In i (idxs (counts (bound n e P :: map (fun _ => 0) s) (bound (n + 1) e P :: s) (1 :: map (fun _ => 1) s))) ->
        In j (idxs (counts (bound n e P :: map (fun _ => 0) s) (bound (n + 1) e P :: s) (1 :: map (fun _ => 1) s))) ->
        map_index_from (bound n e P :: map (fun _ => 0) s) (1 :: map (fun _ => 1) s) i =
        map_index_from (bound n e P :: map (fun _ => 0) s) (1 :: map (fun _ => 1) s) j -> i = j).
      { intros i j Hi Hj E. apply idxs_In in Hi, Hj.
        pose proof (inverse_map _ _ _ _ HST Hi) as E1. pose proof (inverse_map _ _ _ _ HST Hj) as E2.
        rewrite E in E1. congruence. }
      revert ND INJ. generalize (idxs (counts (bound n e P :: map (fun _ => 0) s) (bound (n + 1) e P :: s) (1 :: map (fun _ => 1) s))).
      intros l0; induction 1 as [|i l0 Hni ND IH]; intros INJ; cbn [map]; constructor.
      * intros Q. apply in_map_iff in Q as (j & Ej & Hj). apply INJ in Ej; [|right; assumption|left; reflexivity]. subst; contradiction.
      * apply IH. intros; apply INJ; auto; right; assumption.
    + intros i. rewrite points_In by exact HST. apply region_stops. assumption.
Qed.

(** With an empty range of rows a thread still walks one row, if the rank is at least two. *)
Lemma thread_indexes_empty fuel e d s P n : 0 < P < two64 -> 0 <= n < P -> 0 < e -> P * e < two64 ->
  Forall (fun d => 0 < d) (d :: s) -> prodz (e :: d :: s) < two64 -> (Z.to_nat (prodz (d :: s)) <= fuel)%nat ->
  bound n e P = bound (n + 1) e P ->
  thread_indexes fuel (e :: d :: s) P n = Ok (map (cons (bound n e P)) (idxs (d :: s))).
Proof.
  intros HP Hn He HB Hs HPr HF EQ. unfold thread_indexes. rewrite partition_region_value by lia. bsimp.
  pose proof (bound_range n e P ltac:(lia) ltac:(lia) Hn) as HR.
  pose proof (prodz_pos _ Hs) as HP0. cbn [prodz fold_right] in HPr, HP0. fold (prodz s) in *.
  assert (He64 : e < two64) by nia.
  assert (Hs64 : Forall (fun d => 0 < d < two64) (d :: s)) by (apply pos_bounded; [assumption|cbn [prodz fold_right]; fold (prodz s); nia]).
  assert (Hlt : bound n e P < e) by (unfold bound; apply Z.div_lt_upper_bound; nia).
  rewrite <- EQ. set (r := bound n e P) in *.
  assert (HST := default_strided _ Hs64).
  assert (HPT := default_points _ Hs64).
  unfold visited, for_each.
  destruct (points_hd _ _ _ HST) as [t Ht]. rewrite HPT in Ht.
  rewrite for_indexes_chain with (l := map (cons r) (idxs (d :: s))) (t := map (cons r) t).
  - rewrite visited_foldM. reflexivity.
  - cbn [ap_start ap_final length]. rewrite map_length. reflexivity.
  - cbn [ap_jumps ap_final length]. rewrite map_length. reflexivity.
  - cbn [ap_start ap_final ap_jumps].
    apply (chain_map (cons r) (fun i => adv i (map (fun _ => 0) (d :: s)) (d :: s) (map (fun _ => 1) (d :: s))) _ _ None).
    + intros a b E. simpl in E |- *. rewrite E. reflexivity.
    + intros a E _ _ _ _. simpl in E |- *. rewrite E.
      rewrite (w64_small 1) by (unfold two64; lia). rewrite w64_small by (unfold two64 in *; lia).
      destruct (Z.leb_spec r (r + 1)); [reflexivity|lia].
    + rewrite <- HPT. apply points_chain. assumption.
  - cbn [ap_final]. apply Forall_forall. intros i Hi. apply in_map_iff in Hi as (j & <- & Hj).
    apply idxs_In in Hj. split.
    + cbn [length]. rewrite <- (inb_length _ _ Hj). reflexivity.
    + intros E. injection E as E. subst j. inversion Hj; subst. lia.
  - rewrite Ht. reflexivity.
  - rewrite map_length, idxs_length by (apply Forall_pos_nonneg; assumption). assumption.
Qed.

Lemma nth_threads {A} (ls : list (list A)) (f : Z -> outcome (list A)) P :
  mapM (fun n => f (Z.of_nat n)) (seq 0 P) = Ok ls ->
  length ls = P /\ forall n l, nth_error ls n = Some l -> f (Z.of_nat n) = Ok l.
Proof.
  assert (G : forall P a ls, mapM (fun n => f (Z.of_nat n)) (seq a P) = Ok ls ->
     length ls = P /\ forall n l, nth_error ls n = Some l -> f (Z.of_nat (a + n)) = Ok l).
  { clear. induction P as [|P IH]; intros a ls H; cbn [seq mapM] in H.
    - injection H as <-. split; [reflexivity|]. intros [|n] l E; discriminate.
    - destruct (f (Z.of_nat a)) as [l0| | |] eqn:E0; try discriminate. cbn [bind] in H.
      destruct (mapM (fun n => f (Z.of_nat n)) (seq (S a) P)) as [ls'| | |] eqn:E1; try discriminate. cbn [bind] in H.
      injection H as <-. destruct (IH _ _ E1) as [HL HN]. split; [simpl; congruence|].
      intros [|n] l E; simpl in E.
      + injection E as <-. rewrite Nat.add_0_r. assumption.
      + replace (a + S n)%nat with (S a + n)%nat by lia. apply HN; assumption. }
  intros H. destruct (G P 0%nat ls H) as [HL HN]. split; [assumption|]. intros n l E. apply (HN n l E).
Qed.

Lemma evaluate_on_spec {A} (d : A) (a : array A) e s P fuel ls w :
  ashape a = e :: s -> Forall (fun x => 0 < x) (e :: s) -> prodz (e :: s) <= 2147483647 ->
  0 < Z.of_nat P < two64 -> Z.of_nat P * e < two64 -> (Z.of_nat P <= e \/ s = []) ->
  (Z.to_nat (prodz (e :: s)) <= fuel)%nat ->
  (forall i, inb (e :: s) i -> exists v, aget a i = Ok v) ->
  mapM (fun n => thread_indexes fuel (e :: s) (Z.of_nat P) (Z.of_nat n)) (seq 0 P) = Ok ls ->
  interleave ls w ->
  (forall i, inb (e :: s) i <-> In i w) /\ NoDup w /\
  (forall n m ln lm i j, n <> m -> nth_error ls n = Some ln -> nth_error ls m = Some lm -> In i ln -> In j lm ->
     compute_offset (strides_row_major (e :: s)) i <> compute_offset (strides_row_major (e :: s)) j) /\
  exists a', evaluate_on d a w = Ok a' /\ ashape a' = e :: s /\ forall i, inb (e :: s) i -> aget a' i = aget a i.
Proof.
  intros HS Hpos HPr HP HB HC HF HV HT HI.
  assert (Hpe : 0 < e) by (inversion Hpos; assumption).
  assert (Hps : Forall (fun x => 0 < x) s) by (inversion Hpos; assumption).
  assert (HP64 : prodz (e :: s) < two64) by (unfold two64; lia).
  destruct (nth_threads _ _ _ HT) as [HL HN].
  assert (SP : forall n l, nth_error ls n = Some l -> Z.of_nat n < Z.of_nat P /\ NoDup l /\
     forall i, In i l <-> exists x t, i = x :: t /\ bound (Z.of_nat n) e (Z.of_nat P) <= x < bound (Z.of_nat n + 1) e (Z.of_nat P) /\ inb s t).
  { intros n l E. assert (Hn : (n < length ls)%nat) by (apply nth_error_Some; congruence).
    split; [lia|]. pose proof (HN n l E) as E'.
    destruct (thread_indexes_strided fuel e s (Z.of_nat P) (Z.of_nat n)) as (l' & EL & ND & HIn); try assumption; try lia.
    rewrite EL in E'. injection E' as <-. split; assumption. }
  pose proof (interleave_perm _ _ HI) as PM.
  assert (INB : forall n l i, nth_error ls n = Some l -> In i l -> inb (e :: s) i).
  { intros n l i E Hi. destruct (SP n l E) as (Hn & _ & HIn). apply HIn in Hi as (x & t & -> & Hx & Ht).
    pose proof (bound_range (Z.of_nat n) e (Z.of_nat P) ltac:(lia) ltac:(lia) ltac:(lia)).
    constructor; [lia|assumption]. }
  assert (DISJ : forall n m ln lm i, n <> m -> nth_error ls n = Some ln -> nth_error ls m = Some lm -> In i ln -> In i lm -> False).
  { intros n m ln lm i Hnm En Em Hi Hj. destruct (SP n ln En) as (_ & _ & In1). destruct (SP m lm Em) as (_ & _ & In2).
    apply In1 in Hi as (x & t & -> & Hx & _). apply In2 in Hj as (x' & t' & E & Hx' & _). injection E as <- <-.
    apply Hnm. apply Nat2Z.inj. eapply bound_unique with (e := e) (P := Z.of_nat P) (x := x); eauto; lia. }
  assert (COV : forall i, inb (e :: s) i <-> In i w).
  { intros i. split.
    - intros Hi. apply (Permutation_in i (Permutation_sym PM)). apply in_concat.
      inversion Hi as [|d0 x s0 t Hx Ht Ed Ei]; subst i d0 s0.
      destruct (bound_find e (Z.of_nat P) x ltac:(lia) ltac:(lia)) as (n & Hn & Hb).
      destruct (nth_error ls (Z.to_nat n)) as [l|] eqn:E.
      2:{ apply nth_error_None in E. lia. }
      exists l; split; [eapply nth_error_In; eassumption|].
      apply (proj2 (proj2 (SP _ _ E))). rewrite Z2Nat.id by lia. exists x, t; auto.
    - intros Hi. apply (Permutation_in i PM) in Hi. apply in_concat in Hi as (l & Hl & Hi).
      apply In_nth_error in Hl as [n E]. eapply INB; eassumption. }
  assert (NDC : NoDup (concat ls)).
  { assert (Q : forall ls0 : list (list (list Z)), (forall n l, nth_error ls0 n = Some l -> NoDup l) ->
       (forall n m ln lm i, n <> m -> nth_error ls0 n = Some ln -> nth_error ls0 m = Some lm -> In i ln -> In i lm -> False) -> NoDup (concat ls0)).
    { clear. induction ls0 as [|l ls0 IH]; intros H1 H2; cbn [concat]; [constructor|].
      assert (N1 : NoDup l) by (apply (H1 0%nat); reflexivity).
      assert (N2 : NoDup (concat ls0)).
      { apply IH; [intros n l' E; apply (H1 (S n)); exact E|].
        intros n m ln lm i Hnm En Em. apply (H2 (S n) (S m)); auto. }
      assert (N3 : forall i, In i l -> ~ In i (concat ls0)).
      { intros i Hi Q. apply in_concat in Q as (l' & Hl' & Hi'). apply In_nth_error in Hl' as [n E].
        apply (H2 0%nat (S n) l l' i); auto. }
      clear -N1 N2 N3. induction N1 as [|x l Hx N1 IH]; cbn [app]; [assumption|]. constructor.
      - intros Q. apply in_app_or in Q as [Q|Q]; [contradiction|]. apply (N3 x); [left; reflexivity|assumption].
      - apply IH. intros i Hi. apply N3. right; assumption. }
    apply Q; [|assumption]. intros n l E. apply (SP n l E). }
  split; [exact COV|]. split; [apply (Permutation_NoDup (Permutation_sym PM)); assumption|]. split.
  - intros n m ln lm i j Hnm En Em Hi Hj E.
    pose proof (INB n ln i En Hi) as Bi. pose proof (INB m lm j Em Hj) as Bj.
    rewrite !offset_lin in E by assumption.
    assert (i = j) by (eapply lin_inj; eassumption). subst j. exact (DISJ n m ln lm i Hnm En Em Hi Hj).
  - unfold evaluate_on, run_writes. rewrite HS.
    destruct (writes_spec (e :: s) (aget a) w HP64) with (b := repeat d (Z.to_nat (volume (e :: s)))) as (b' & E & EL & E1 & _).
    + apply Forall_forall. intros i Hi. apply COV; assumption.
    + apply Forall_forall. intros i Hi. apply HV, COV; assumption.
    + rewrite repeat_length, volume_prod by assumption. pose proof (prodz_pos _ Hpos). lia.
    + rewrite E. bsimp. unfold make_backed. rewrite EL, repeat_length, volume_prod by assumption.
      pose proof (prodz_pos _ Hpos).
      destruct (Z.eqb_spec (prodz (e :: s)) (Z.of_nat (Z.to_nat (prodz (e :: s))))); [|lia].
      eexists; split; [reflexivity|]. split; [reflexivity|]. intros i Hi. cbn [aget].
      rewrite offset_lin by assumption. apply E1, COV; assumption.
Qed.

(** More threads than rows, rank at least two: two threads write the same element. *)
Lemma evaluate_on_race e d s P fuel : Forall (fun x => 0 < x) (e :: d :: s) -> prodz (e :: d :: s) <= 2147483647 ->
  e < P < two64 -> P * e < two64 -> (Z.to_nat (prodz (e :: d :: s)) <= fuel)%nat ->
  exists n m ln lm i, 0 <= n < P /\ 0 <= m < P /\ n <> m /\
    thread_indexes fuel (e :: d :: s) P n = Ok ln /\ thread_indexes fuel (e :: d :: s) P m = Ok lm /\
    In i ln /\ In i lm /\ inb (e :: d :: s) i.
Proof.
  intros Hpos HPr HP HB HF.
  assert (He : 0 < e) by (inversion Hpos; assumption).
  assert (Hs : Forall (fun x => 0 < x) (d :: s)) by (inversion Hpos; assumption).
  pose proof (prodz_pos _ Hs) as HP0.
  destruct (some_empty e P ltac:(lia)) as (g & Hg & EQ).
  pose proof (bound_range (Z.of_nat g) e P ltac:(lia) ltac:(lia) ltac:(lia)).
  assert (Hlt : bound (Z.of_nat g) e P < e).
  { unfold bound. apply Z.div_lt_upper_bound; nia. }
  destruct (bound_find e P (bound (Z.of_nat g) e P) ltac:(lia) ltac:(lia)) as (m & Hm & Hmb).
  assert (Hne : Z.of_nat g <> m) by (intros Q; rewrite <- Q in Hmb; lia).
  assert (HF' : (Z.to_nat (prodz (d :: s)) <= fuel)%nat).
  { change (prodz (e :: d :: s)) with (e * prodz (d :: s)) in HF. nia. }
  assert (HP64 : prodz (e :: d :: s) < two64) by (unfold two64; lia).
  pose proof (thread_indexes_empty fuel e d s P (Z.of_nat g) ltac:(lia) ltac:(lia) He HB Hs HP64 HF' ltac:(lia)) as T1.
  destruct (idxs_hd _ Hs) as [t Ht].
  assert (Hz : In (map (fun _ => 0) (d :: s)) (idxs (d :: s))) by (rewrite Ht; left; reflexivity).
  assert (STR : exists lm, thread_indexes fuel (e :: d :: s) P m = Ok lm /\
     In (bound (Z.of_nat g) e P :: map (fun _ => 0) (d :: s)) lm).
  { (* the owner of the row *)
    unfold thread_indexes. rewrite partition_region_value by lia. bsimp.
    pose proof (bound_range m e P ltac:(lia) ltac:(lia) Hm).
    assert (Hs64 : Forall (fun d => 0 < d < two64) (d :: s)).
    { apply pos_bounded; [assumption|]. change (prodz (e :: d :: s)) with (e * prodz (d :: s)) in HP64. nia. }
    assert (HST : strided (bound m e P :: map (fun _ => 0) (d :: s)) (bound (m + 1) e P :: d :: s) (1 :: map (fun _ => 1) (d :: s))).
    { constructor; [lia|lia| |apply default_strided; assumption].
      change (prodz (e :: d :: s)) with (e * prodz (d :: s)) in HP64. unfold two64 in *. nia. }
    eexists; split.
    - unfold visited. rewrite for_each_points; [cbn [ap_start ap_final ap_jumps]; rewrite visited_foldM; reflexivity|exact HST|discriminate|].
      change (prodz (e :: d :: s)) with (e * prodz (d :: s)) in HF.
      cbn [ap_start ap_final ap_jumps counts]. change (count (bound m e P) (bound (m + 1) e P) 1 :: counts (map (fun _ => 0) (d :: s)) (d :: s) (map (fun _ => 1) (d :: s)))
        with (count (bound m e P) (bound (m + 1) e P) 1 :: counts (map (fun _ => 0) (d :: s)) (d :: s) (map (fun _ => 1) (d :: s))).
      assert (EC : counts (map (fun _ => 0) (d :: s)) (d :: s) (map (fun _ => 1) (d :: s)) = d :: s) by (apply default_counts; assumption).
      cbn [map counts] in EC |- *. rewrite EC.
      change (prodz (count (bound m e P) (bound (m + 1) e P) 1 :: d :: s)) with (count (bound m e P) (bound (m + 1) e P) 1 * prodz (d :: s)).
      unfold count. rewrite Z.div_1_r. nia.
    - cbn [app]. apply points_In; [exact HST|]. apply region_stops; [assumption|].
      do 2 eexists; split; [reflexivity|]. split; [lia|]. apply idxs_In; assumption. }
  destruct STR as (lm & T2 & Hin).
  exists (Z.of_nat g), m, (map (cons (bound (Z.of_nat g) e P)) (idxs (d :: s))), lm, (bound (Z.of_nat g) e P :: map (fun _ => 0) (d :: s)).
  split; [lia|]. split; [assumption|]. split; [assumption|]. split; [assumption|]. split; [assumption|].
  split; [apply in_map; assumption|]. split; [assumption|].
  constructor; [lia|]. apply idxs_In; assumption.
Qed.
