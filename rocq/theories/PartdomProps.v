(** C97: the domain decomposition demonstration (subprogram partdom) and writing parts of a dataset. *)
From Coq Require Import ZArith Znumtheory Reals List Bool Lia Lra.
From Verif Require Import Base NdModel NdSpec NdProofs NdProofs2 NdProofs3 NdOpsModel NdOpsProofs ProlongProofs MeshProps ParallelModel ParallelProofs ParallelProofs2 ParallelProps PartdomModel PartdomProofs.
Import ListNotations.
Open Scope Z_scope.

(** The selection of a file made from an access pattern holds the positions of the pattern and no others, each once,
    and position number k of the selection is where element number k of an array of that shape belongs. *)
Theorem hyperslab_is_the_pattern (sel : access_pattern) : strided (ap_start sel) (ap_final sel) (ap_jumps sel) ->
  exists h s, make_hdf5_hyperslab sel = Ok h /\ ap_shape sel = Ok s /\ check_valid (length (ap_start sel)) h = Ok tt /\
    let l := selected (sl_start h) (sl_count h) (sl_skips h) (sl_block h) in
    l = map (map_index sel) (idxs s) /\ NoDup l /\ forall i, In i l <-> stops (ap_start sel) (ap_final sel) (ap_jumps sel) i.
Proof.
  intros H. destruct (write_region sel new_dataset (fun _ => 0%R) H) as (h & E & CV & SP & _). exists h, (counts (ap_start sel) (ap_final sel) (ap_jumps sel)).
  split; [exact E|]. split; [apply shape_from_counts, H|]. split; [exact CV|]. cbv zeta. rewrite SP. split; [reflexivity|]. split; [apply points_sorted, H|]. intros i. apply points_In, H.
Qed.
(** Writing an array to that selection: the element at i goes to the position that the pattern maps i to, and
    all other positions keep their values. *)
Theorem writing_to_a_pattern (sel : access_pattern) (a : array R) (F : list Z -> R) (d : dataset) (fuel : nat) : strided (ap_start sel) (ap_final sel) (ap_jumps sel) -> ap_start sel <> [] ->
  ap_shape sel = Ok (ashape a) -> prodz (ashape a) <= 2147483647 -> (Z.to_nat (prodz (ashape a)) <= fuel)%nat -> (forall i, inb (ashape a) i -> aget a i = Ok (F i)) ->
  exists h m d', make_hdf5_hyperslab sel = Ok h /\ memory fuel 0%R a = Ok m /\ write_selection d (selected (sl_start h) (sl_count h) (sl_skips h) (sl_block h)) m = Ok d' /\
    (forall i, inb (ashape a) i -> d' (map_index sel i) = F i) /\ forall j, ~ stops (ap_start sel) (ap_final sel) (ap_jumps sel) j -> d' j = d j.
Proof.
  intros H HN ES HP HU HF. destruct (write_region sel d F H) as (h & E & CV & SP & d' & W & D1 & D2). unfold ap_shape in ES. rewrite (shape_from_counts _ _ _ H) in ES. injection ES as ES.
  assert (EC : sl_count h = ashape a) by (unfold make_hdf5_hyperslab, ap_shape in E; rewrite (shape_from_counts _ _ _ H) in E; cbn [bind] in E; injection E as <-; exact ES).
  exists h, (map F (idxs (ashape a))), d'. split; [exact E|]. rewrite EC in *. split; [|split; [exact W|split; [exact D1|exact D2]]].
  unfold memory. apply memory_value; try assumption.
  - intros X. pose proof (counts_length _ _ _ H) as L. rewrite ES, X in L. destruct (ap_start sel); [congruence|discriminate].
  - rewrite <- ES. apply counts_pos, H.
Qed.

Section Domain.
Variables (fuel : nat) (N procs b0 b1 b2 : Z).
Hypothesis HN : 1 <= N <= 2147483646.
Hypothesis HG : propose_block_decomposition fuel 3 procs = Ok [b0; b1; b2].
Hypothesis HB : 0 < b0 <= N /\ 0 < b1 <= N /\ 0 < b2 <= N.

Lemma domain_patterns : exists ps, patterns fuel N procs = Ok ps /\ ashape ps = [b0; b1; b2] /\
  (forall x0 x1 x2, 0 <= x0 < b0 -> 0 <= x1 < b1 -> 0 <= x2 < b2 -> aget ps [x0; x1; x2] = Ok (box N b0 b1 b2 x0 x1 x2)) /\
  (forall i, inb [N; N; N] i -> exists idx p, inb [b0; b1; b2] idx /\ aget ps idx = Ok p /\ holds p i /\ forall idx' p', inb [b0; b1; b2] idx' -> aget ps idx' = Ok p' -> holds p' i -> idx' = idx) /\
  (forall idx p i, inb [b0; b1; b2] idx -> aget ps idx = Ok p -> holds p i -> inb [N; N; N] i).
Proof.
  unfold patterns. rewrite HG. bsimp. rewrite !w64_small by (unfold two64; lia). destruct (three_patterns N b0 b1 b2 HN HB) as (ps & E & SH & G).
  destruct (domain_decomposition_tiles [N; N; N] [b0; b1; b2]) as (ps' & E' & _ & T1 & T2); [repeat constructor; nia|repeat constructor; lia|]. rewrite E in E'. injection E' as <-.
  exists ps. split; [exact E|]. split; [exact SH|]. split; [exact G|]. split; [exact T1|]. intros idx p i HI EP HH. destruct (T2 idx HI) as (p' & EP' & Q & _). rewrite EP in EP'. injection EP' as <-. apply Q, HH.
Qed.
Lemma block_centers ps idx : (forall x0 x1 x2, 0 <= x0 < b0 -> 0 <= x1 < b1 -> 0 <= x2 < b2 -> aget ps [x0; x1; x2] = Ok (box N b0 b1 b2 x0 x1 x2)) -> inb [b0; b1; b2] idx ->
  exists p c, aget ps idx = Ok p /\ centers_of_block ps idx = Ok c /\ strided (ap_start p) (ap_final p) (ap_jumps p) /\ ap_shape p = Ok (ashape c) /\ length (ap_start p) = 3%nat /\ (prodz (ashape c) <= N * N * N) /\
    forall i, inb (ashape c) i -> aget c i = Ok (cell_center (map_index p i)) /\ holds p (map_index p i).
Proof.
  intros G HI. apply three_index in HI as (x0 & x1 & x2 & -> & H0 & H1 & H2). destruct (box_centers N b0 b1 b2 HN HB x0 x1 x2 ltac:(auto)) as (v & c & E1 & E2 & R1 & R2).
  pose proof (box_strided N b0 b1 b2 HN HB x0 x1 x2 ltac:(auto)) as SB. pose proof (box_counts N b0 b1 b2 x0 x1 x2) as BC.
  exists (box N b0 b1 b2 x0 x1 x2), c. split; [apply G; assumption|]. split; [unfold centers_of_block; rewrite G by assumption; bsimp; rewrite E1; bsimp; exact E2|].
  split; [exact SB|]. split; [unfold ap_shape; rewrite (shape_from_counts _ _ _ SB), BC, R1; reflexivity|]. split; [reflexivity|]. rewrite R1. split.
  - destruct HB as (B0 & B1 & B2). pose proof (box_bounds N HN b0 x0 B0 H0). pose proof (box_bounds N HN b1 x1 B1 H1). pose proof (box_bounds N HN b2 x2 B2 H2). cbn [prodz fold_right]. rewrite Z.mul_1_r.
    set (u := NdProofs3.bound (x0 + 1) N b0 - NdProofs3.bound x0 N b0) in *. set (v' := NdProofs3.bound (x1 + 1) N b1 - NdProofs3.bound x1 N b1) in *. set (w := NdProofs3.bound (x2 + 1) N b2 - NdProofs3.bound x2 N b2) in *.
    assert (0 <= u <= N) by (unfold u; lia). assert (0 <= v' <= N) by (unfold v'; lia). assert (0 <= w <= N) by (unfold w; lia). rewrite <- Z.mul_assoc. apply Z.mul_le_mono_nonneg; [lia|lia|nia|]. apply Z.mul_le_mono_nonneg; lia.
  - intros i Hi. split; [apply R2, Hi|]. unfold holds. apply points_In; [exact SB|]. unfold points, map_index. apply in_map. apply idxs_In. rewrite BC. exact Hi.
Qed.
Lemma center_inj i j : inb [N; N; N] i -> inb [N; N; N] j -> cell_center i = cell_center j -> i = j.
Proof.
  intros Hi Hj E. apply three_index in Hi as (a & b & c & -> & _). apply three_index in Hj as (x & y & z & -> & _). unfold cell_center in E. cbn [nth] in E. injection E as E1 E2 E3.
  assert (a = x) by (apply eq_IZR; lra). assert (b = y) by (apply eq_IZR; lra). assert (c = z) by (apply eq_IZR; lra). congruence.
Qed.

(** The centre of every cell of the domain is in exactly one place of the arrays of cell centres: one block and one
    element of it. *)
Theorem cell_centers_tile_the_domain : exists ps, patterns fuel N procs = Ok ps /\ ashape ps = [b0; b1; b2] /\
  (forall b, inb [b0; b1; b2] b -> exists c, centers_of_block ps b = Ok c /\ forall i, inb (ashape c) i -> exists g, inb [N; N; N] g /\ aget c i = Ok (cell_center g)) /\
  forall g, inb [N; N; N] g -> exists b c i, inb [b0; b1; b2] b /\ centers_of_block ps b = Ok c /\ inb (ashape c) i /\ aget c i = Ok (cell_center g) /\
    forall b' c' i', inb [b0; b1; b2] b' -> centers_of_block ps b' = Ok c' -> inb (ashape c') i' -> aget c' i' = Ok (cell_center g) -> b' = b /\ i' = i.
Proof.
  destruct domain_patterns as (ps & E & SH & G & T1 & T2). exists ps. split; [exact E|]. split; [exact SH|]. split.
  - intros b Hb. destruct (block_centers ps b G Hb) as (p & c & EP & EC & SP & _ & _ & _ & Q). exists c. split; [exact EC|]. intros i Hi. destruct (Q i Hi) as [Q1 Q2]. exists (map_index p i). split; [exact (T2 b p _ Hb EP Q2)|exact Q1].
  - intros g Hg. destruct (T1 g Hg) as (b & p & Hb & EP & HH & U). destruct (block_centers ps b G Hb) as (p' & c & EP' & EC & SP & ES & _ & _ & Q). rewrite EP in EP'. injection EP' as <-.
    unfold holds in HH. apply points_In in HH; [|exact SP]. unfold points in HH. apply in_map_iff in HH as (i & EI & HI). apply idxs_In in HI. unfold ap_shape in ES. rewrite (shape_from_counts _ _ _ SP) in ES. injection ES as ES. rewrite ES in HI.
    exists b, c, i. split; [exact Hb|]. split; [exact EC|]. split; [exact HI|]. destruct (Q i HI) as [Q1 Q2]. unfold map_index in Q1. rewrite EI in Q1. split; [exact Q1|].
    intros b' c' i' Hb' EC' Hi' EA. destruct (block_centers ps b' G Hb') as (p' & c'' & EP' & EC'' & SP' & ES' & _ & _ & Q'). rewrite EC' in EC''. injection EC'' as <-. destruct (Q' i' Hi') as [R1 R2].
    rewrite EA in R1. injection R1 as R1. assert (EM : map_index p' i' = g) by (apply center_inj; [exact (T2 b' p' _ Hb' EP' R2)|exact Hg|unfold cell_center; congruence]).
    rewrite EM in R2. assert (b' = b) by (apply (U b' p'); assumption). subst b'. split; [reflexivity|]. rewrite EP in EP'. injection EP' as <-. rewrite EC in EC'. injection EC' as <-.
    pose proof (points_sorted _ _ _ SP) as ND. unfold points in ND. rewrite ES in ND. assert (INJ : forall l, NoDup (map (map_index_from (ap_start p) (ap_jumps p)) l) -> forall x y, In x l -> In y l -> map_index_from (ap_start p) (ap_jumps p) x = map_index_from (ap_start p) (ap_jumps p) y -> x = y).
    { clear. induction l as [|z l IH]; intros HN x y Hx Hy EXY; [destruct Hx|]. cbn [map] in HN. inversion HN; subst. destruct Hx as [<-|Hx], Hy as [<-|Hy]; [reflexivity| | |apply IH; assumption].
      - exfalso. apply H1. rewrite EXY. apply in_map, Hy.
      - exfalso. apply H1. rewrite <- EXY. apply in_map, Hx. }
    apply (INJ _ ND); [apply idxs_In, Hi'|apply idxs_In, HI|]. rewrite EI. exact EM.
Qed.

(** Every block that is written puts the first coordinates of the centres of its cells at the positions of its cells. *)
Lemma write_one ps p b d : N * N * N <= 2147483647 -> (Z.to_nat (N * N * N) <= fuel)%nat ->
  (forall x0 x1 x2, 0 <= x0 < b0 -> 0 <= x1 < b1 -> 0 <= x2 < b2 -> aget ps [x0; x1; x2] = Ok (box N b0 b1 b2 x0 x1 x2)) -> inb [b0; b1; b2] b -> aget ps b = Ok p ->
  exists d', write_block fuel ps b d = Ok d' /\ (forall g, holds p g -> d' g = (IZR (nth 0%nat g 0%Z) + / 2)%R) /\ forall g, ~ holds p g -> d' g = d g.
Proof.
  intros HP HU G Hb EP. destruct (block_centers ps b G Hb) as (p' & c & EP' & EC & SP & ES & L3 & PZ & Q). rewrite EP in EP'. injection EP' as <-.
  destruct (writing_to_a_pattern p (arr_map (fun q : point => fst (fst q)) c) (fun i => (IZR (nth 0%nat (map_index p i) 0%Z) + / 2)%R) d fuel SP) as (h & m & d' & E1 & E2 & E3 & E4 & E5).
  - intros X. rewrite X in L3. discriminate.
  - exact ES.
  - change (prodz (ashape c) <= 2147483647). lia.
  - change (Z.to_nat (prodz (ashape c)) <= fuel)%nat. clear - HU PZ. generalize dependent (N * N * N). intros z ? ?. lia.
  - cbn [arr_map ashape aget]. intros i Hi. pose proof (proj1 (Q i Hi)) as Q1. unfold point in *. rewrite Q1. bsimp. reflexivity.
  - exists d'. split.
    + unfold write_block. rewrite EC. bsimp. rewrite E2. bsimp. rewrite EP. bsimp. rewrite E1. bsimp. destruct (write_region p d (fun _ => 0%R) SP) as (h' & E1' & CV & _). rewrite E1 in E1'. injection E1' as <-. rewrite L3 in CV. rewrite CV. bsimp. exact E3.
    + cbn [arr_map ashape] in E4. split.
      * intros g Hg. unfold holds in Hg. apply points_In in Hg; [|exact SP]. unfold points in Hg. apply in_map_iff in Hg as (i & EI & HI). apply idxs_In in HI. unfold ap_shape in ES. rewrite (shape_from_counts _ _ _ SP) in ES. injection ES as ES. rewrite ES in HI.
        pose proof (E4 i HI) as K. unfold map_index in K. rewrite EI in K. exact K.
      * intros g Hg. apply E5. exact Hg.
Qed.
(** Writing the blocks in any order, all of them at least once, fills the whole dataset and nothing else. *)
Theorem writing_all_blocks_fills_the_file (d : dataset) (l : list (list Z)) : N * N * N <= 2147483647 -> (Z.to_nat (N * N * N) <= fuel)%nat ->
  Forall (inb [b0; b1; b2]) l -> (forall b, inb [b0; b1; b2] b -> In b l) ->
  exists ps d', patterns fuel N procs = Ok ps /\ foldM (fun d b => write_block fuel ps b d) d l = Ok d' /\
    (forall g, inb [N; N; N] g -> d' g = (IZR (nth 0%nat g 0%Z) + / 2)%R) /\ forall g, ~ inb [N; N; N] g -> d' g = d g.
Proof.
  intros HP HU HL HA. destruct domain_patterns as (ps & E & SH & G & T1 & T2). exists ps.
  assert (K : forall l, Forall (inb [b0; b1; b2]) l -> forall d, exists d', foldM (fun d b => write_block fuel ps b d) d l = Ok d' /\
    (forall g b p, In b l -> aget ps b = Ok p -> holds p g -> d' g = (IZR (nth 0%nat g 0%Z) + / 2)%R) /\ (forall g, (forall b p, In b l -> aget ps b = Ok p -> ~ holds p g) -> d' g = d g)).
  { clear d l HL HA. induction l as [|b l IH]; intros HL d.
    - exists d. split; [reflexivity|]. split; [intros g b p []|reflexivity].
    - inversion HL as [|? ? Hb HL']; subst. destruct (block_centers ps b G Hb) as (p & _ & EP & _). destruct (write_one ps p b d HP HU G Hb EP) as (d1 & W1 & W2 & W3). destruct (IH HL' d1) as (d2 & F1 & F2 & F3).
      exists d2. cbn [foldM]. rewrite W1. bsimp. split; [exact F1|]. split.
      + intros g b' p' [<-|HI] EP' HH; [|eapply F2; eassumption]. rewrite EP in EP'. injection EP' as <-.
        destruct (T1 g (T2 b p g Hb EP HH)) as (bb & pp & Hbb & Ebb & Hhb & U). assert (b = bb) by (apply (U b p); assumption). subst bb. rewrite EP in Ebb. injection Ebb as <-.
        destruct (in_dec (list_eq_dec Z.eq_dec) b l) as [I|I]; [exact (F2 g b p I EP HH)|].
        rewrite F3; [apply W2, HH|]. intros b'' p'' HI'' EP'' HH''. apply I. rewrite <- (U b'' p''); [exact HI''| |exact EP''|exact HH'']. rewrite Forall_forall in HL'. apply HL', HI''.
      + intros g HG'. rewrite F3; [|intros; eapply HG'; [right; eassumption|assumption]]. apply W3. exact (HG' b p (or_introl eq_refl) EP). }
  destruct (K l HL d) as (d' & F1 & F2 & F3). exists d'. split; [exact E|]. split; [exact F1|]. split.
  - intros g Hg. destruct (T1 g Hg) as (b & p & Hb & EP & HH & _). exact (F2 g b p (HA b Hb) EP HH).
  - intros g Hg. apply F3. intros b p HI EP HH. apply Hg. rewrite Forall_forall in HL. exact (T2 b p g (HL b HI) EP HH).
Qed.
(** What the program leaves in the file: the first block, zeros elsewhere. *)
Theorem partdom_file : N * N * N <= 2147483647 -> (Z.to_nat (N * N * N) <= fuel)%nat ->
  exists d, partdom_main fuel N procs = Ok d /\
    forall g, inb [N; N; N] g -> d g = (if (nth 0%nat g 0%Z <? N / b0)%Z && (nth 1%nat g 0%Z <? N / b1)%Z && (nth 2%nat g 0%Z <? N / b2)%Z then IZR (nth 0%nat g 0%Z) + / 2 else 0)%R.
Proof.
  intros HP HU. destruct domain_patterns as (ps & E & SH & G & T1 & T2). assert (H0 : inb [b0; b1; b2] [0; 0; 0]) by (repeat constructor; lia).
  destruct (block_centers ps [0; 0; 0] G H0) as (p & _ & EP & _). destruct (write_one ps p [0; 0; 0] new_dataset HP HU G H0 EP) as (d & W1 & W2 & W3). exists d. unfold partdom_main. rewrite E. bsimp. split; [exact W1|].
  intros g Hg. rewrite G in EP by lia. injection EP as <-. apply three_index in Hg as (x & y & z & -> & Hx & Hy & Hz). cbn [nth].
  assert (HB1 : forall b, 0 < b -> NdProofs3.bound (0 + 1) N b = N / b /\ NdProofs3.bound 0 N b = 0) by (intros b Hb; unfold NdProofs3.bound; rewrite Z.add_0_l, Z.mul_1_l, Z.mul_0_l; split; [reflexivity|apply Z.div_0_l; lia]).
  assert (HO : holds (box N b0 b1 b2 0 0 0) [x; y; z] <-> x < N / b0 /\ y < N / b1 /\ z < N / b2).
  { unfold holds, box. cbn [ap_start ap_final ap_jumps]. destruct (HB1 b0 ltac:(lia)) as [-> ->]. destruct (HB1 b1 ltac:(lia)) as [-> ->]. destruct (HB1 b2 ltac:(lia)) as [-> ->]. split.
    - intros Q. inversion Q as [|? ? ? ? ? ? ? ? (k0 & ? & ? & ?) Q1]; subst. inversion Q1 as [|? ? ? ? ? ? ? ? (k1 & ? & ? & ?) Q2]; subst. inversion Q2 as [|? ? ? ? ? ? ? ? (k2 & ? & ? & ?) Q3]; subst. lia.
    - intros (K0 & K1 & K2). constructor; [exists x; lia|]. constructor; [exists y; lia|]. constructor; [exists z; lia|]. constructor. }
  destruct (Z.ltb_spec x (N / b0)); [|cbn [andb]; rewrite W3; [reflexivity|rewrite HO; lia]]. destruct (Z.ltb_spec y (N / b1)); [|cbn [andb]; rewrite W3; [reflexivity|rewrite HO; lia]]. destruct (Z.ltb_spec z (N / b2)); [|cbn [andb]; rewrite W3; [reflexivity|rewrite HO; lia]].
  cbn [andb]. rewrite W2; [reflexivity|]. apply HO. auto.
Qed.
End Domain.

(** More blocks than cells along an axis: nothing is written. *)
Theorem partdom_throws (fuel : nat) (N procs b0 b1 b2 : Z) : 0 <= N <= 2147483647 -> propose_block_decomposition fuel 3 procs = Ok [b0; b1; b2] ->
  0 < b0 <= 2147483647 -> 0 < b1 <= 2147483647 -> 0 < b2 <= 2147483647 -> N < b0 \/ N < b1 \/ N < b2 -> partdom_main fuel N procs = Throw LogicError.
Proof.
  intros HN HG H0 H1 H2 HL. unfold partdom_main, patterns. rewrite HG. bsimp. rewrite !w64_small by (unfold two64; lia).
  destruct (domain_decomposition_throws [N; N; N] [b0; b1; b2]) as [T _]; [repeat constructor; nia|]. rewrite (proj2 T); [reflexivity|]. cbn [combine]. destruct HL as [?|[?|?]]; [left|right; left|right; right; left]; assumption.
Qed.
(** Every number of processes from 2 on (apart from the largest primes) has a block decomposition with one block each. *)
Theorem partdom_one_block_per_process (fuel : nat) (procs : Z) : 2 <= procs <= 2147483647 -> procs < 2 ^ Z.of_nat fuel -> ~ (prime procs /\ 2147395600 <= procs) ->
  exists b0 b1 b2, propose_block_decomposition fuel 3 procs = Ok [b0; b1; b2] /\ b0 * b1 * b2 = procs /\ 1 <= b0 /\ 1 <= b1 /\ 1 <= b2.
Proof.
  intros H1 H2 H3. destruct (process_grid_uses_every_process fuel 3 procs H1 H2 H3 ltac:(lia) ltac:(lia)) as (g & E & L & P & F).
  destruct g as [|b0 [|b1 [|b2 [|? ?]]]]; try discriminate. inversion F as [|? ? F0 F']; subst. inversion F' as [|? ? F1 F'']; subst. inversion F'' as [|? ? F2 _]; subst. exists b0, b1, b2. split; [exact E|]. cbn [fold_right] in *. repeat split; lia.
Qed.
(** Enough cells are not enough: 64 cells cannot be decomposed for 7 processes. *)
Theorem partdom_enough_cells_refuted : partdom_main 100 4 7 = Throw LogicError /\ 7 < 4 * 4 * 4.
Proof. split; [|lia]. apply (partdom_throws 100 4 7 1 1 7); try lia. reflexivity. Qed.

Example partdom_example : exists d, partdom_main 100 4 6 = Ok d /\ d [3; 1; 0] = (3 + / 2)%R /\ d [3; 1; 1] = 0%R.
Proof.
  destruct (partdom_file 100 4 6 1 2 3 ltac:(lia) eq_refl ltac:(lia) ltac:(lia) ltac:(cbn; lia)) as (d & E & Q). exists d. split; [exact E|]. rewrite !Q by (repeat constructor; lia). cbn. split; reflexivity.
Qed.
Example hyperslab_example : (do h <- make_hdf5_hyperslab (mkap [1; 0] [6; 5] [2; 3]); Ok (selected (sl_start h) (sl_count h) (sl_skips h) (sl_block h))) = Ok [[1; 0]; [1; 3]; [3; 0]; [3; 3]; [5; 0]; [5; 3]].
Proof. reflexivity. Qed.
Example all_blocks_example : exists ps d', patterns 100 4 4 = Ok ps /\ foldM (fun d b => write_block 100 ps b d) new_dataset [[0; 1; 1]; [0; 0; 0]; [0; 0; 1]; [0; 1; 0]] = Ok d' /\ d' [3; 2; 1] = (3 + / 2)%R.
Proof.
  destruct (writing_all_blocks_fills_the_file 100 4 4 1 2 2 ltac:(lia) ltac:(vm_compute; reflexivity) ltac:(lia) new_dataset [[0; 1; 1]; [0; 0; 0]; [0; 0; 1]; [0; 1; 0]] ltac:(lia) ltac:(cbn; lia)) as (ps & d' & E & F & Q & _).
  - repeat constructor; lia.
  - intros b Hb. apply three_index in Hb as (x & y & z & -> & Hx & Hy & Hz). assert (x = 0) by lia. assert (y = 0 \/ y = 1) as [?|?] by lia; assert (z = 0 \/ z = 1) as [?|?] by lia; subst; cbn; auto.
  - exists ps, d'. split; [exact E|]. split; [exact F|]. rewrite Q by (repeat constructor; lia). reflexivity.
Qed.
Print Assumptions hyperslab_is_the_pattern.
Print Assumptions writing_to_a_pattern.
Print Assumptions cell_centers_tile_the_domain.
Print Assumptions writing_all_blocks_fills_the_file.
Print Assumptions partdom_file.
Print Assumptions partdom_throws.
Print Assumptions partdom_one_block_per_process.
Print Assumptions partdom_enough_cells_refuted.
