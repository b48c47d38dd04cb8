(** Every tree of blocks stands for a field; extension of blocks by guard cells. *)
From Coq Require Import ZArith Reals List Arith Bool Lia Lra.
From Verif Require Import Base TreeModel TreeSpec TreeProofs TreeProofs2 TreeProofs4 BalanceModel BalanceSpec BalanceProofs NdModel NdSpec NdProofs NdOpsModel NdOpsProofs ProlongModel ProlongProofs ProlongProps
  FluxModel FluxTreeProofs FluxProofs FluxSpec FluxProofs2 FluxProofs4 GuardModel GuardSpec GuardProofs GuardProofs2 GuardProofs3.
Import ListNotations.
Open Scope Z_scope.

(** ** The field of a tree *)
Fixpoint walk (N : Z) (g : list Z) (p : list nat) (t : tree (array R)) : R :=
  match t, p with
  | Leaf b, _ => val b (map (fun x => (x / 2 ^ Z.of_nat (length p)) mod N) g)
  | Node cs, k :: p' => match nth_error cs k with Some c => walk N g p' c | None => 0%R end
  | Node _, [] => 0%R
  end.

Lemma walk_app N g b : forall q r t, node_path q t = Some (Leaf b) -> walk N g (q ++ r) t = val b (map (fun x => (x / 2 ^ Z.of_nat (length r)) mod N) g).
Proof.
  induction q as [|k q IH]; intros r t E; cbn [node_path app] in *; [injection E as ->; destruct r; reflexivity|].
  destruct t as [|cs]; [discriminate|]. cbn [walk]. destruct (nth_error cs k) as [c|]; [|discriminate]. apply IH. assumption.
Qed.

Definition field (N : Z) (L : nat) (t : tree (array R)) (g : list Z) : R := walk N g (path_of L (map (fun x => Z.to_nat (x / N)) g)) t.

Lemma field_coord (N : Z) (l s c : nat) (k o : Z) : 1 <= N -> 0 <= k < N -> 0 <= o < 2 ^ Z.of_nat s -> (c < 2 ^ l)%nat ->
  let g := (Z.of_nat c * N + k) * 2 ^ Z.of_nat s + o in
  (g / 2 ^ Z.of_nat s) mod N = k /\ (Z.to_nat (g / N) / 2 ^ s)%nat = c /\ (Z.to_nat (g / N) < 2 ^ (l + s))%nat.
Proof.
  intros HN Hk Ho Hc g. assert (H2 : 0 < 2 ^ Z.of_nat s) by (apply Z.pow_pos_nonneg; lia).
  assert (E1 : g / 2 ^ Z.of_nat s = Z.of_nat c * N + k).
  { unfold g. rewrite Z.div_add_l by lia. rewrite (Z.div_small o) by lia. lia. }
  assert (E2 : g / N / 2 ^ Z.of_nat s = Z.of_nat c).
  { rewrite Z.div_div by lia. rewrite Z.mul_comm, <- Z.div_div by lia. rewrite E1. rewrite Z.div_add_l by lia. rewrite (Z.div_small k) by lia. lia. }
  assert (H0 : 0 <= g / N) by (apply Z.div_pos; unfold g; nia).
  assert (P : Z.of_nat (2 ^ s) = 2 ^ Z.of_nat s) by (rewrite Nat2Z.inj_pow; reflexivity).
  split; [rewrite E1; rewrite Z.add_comm, Z.mod_add by lia; apply Z.mod_small; lia|]. split.
  - apply Nat2Z.inj. rewrite Nat2Z.inj_div, Z2Nat.id, P by assumption. exact E2.
  - assert (Q : (Z.to_nat (g / N) / 2 ^ s)%nat = c) by (apply Nat2Z.inj; rewrite Nat2Z.inj_div, Z2Nat.id, P by assumption; exact E2).
    pose proof (Nat.div_mod (Z.to_nat (g / N)) (2 ^ s) ltac:(apply Nat.pow_nonzero; lia)) as DM. rewrite Q in DM.
    pose proof (Nat.mod_upper_bound (Z.to_nat (g / N)) (2 ^ s) ltac:(apply Nat.pow_nonzero; lia)) as MB. rewrite Nat.pow_add_r. nia.
Qed.

Lemma field_vec (N : Z) (l s : nat) : 1 <= N -> forall d c k o, length c = d -> Forall (fun x => (x < 2 ^ l)%nat) c -> inb (repeat N d) k -> inb (repeat (2 ^ Z.of_nat s) d) o ->
  let g := zipw (fun g y => g * 2 ^ Z.of_nat s + y) (glob N c k) o in
  map (fun x => (x / 2 ^ Z.of_nat s) mod N) g = k /\
  map (fun y => (y / 2 ^ s)%nat) (map (fun x => Z.to_nat (x / N)) g) = c /\
  Forall (fun y => (y < 2 ^ (l + s))%nat) (map (fun x => Z.to_nat (x / N)) g).
Proof.
  intros HN. cbv zeta. unfold glob. induction d as [|d IH]; intros c k o Lc Fc Hk Ho; cbn [repeat] in *.
  - destruct c; [|discriminate]. inversion Hk; subst. inversion Ho; subst. cbn. repeat split; constructor.
  - destruct c as [|c0 c]; [discriminate|]. apply inb_cons_inv in Hk. destruct Hk as (k0 & k' & -> & Hk0 & Hk).
    apply inb_cons_inv in Ho. destruct Ho as (o0 & o' & -> & Ho0 & Ho). pose proof (Forall_inv Fc) as F0. apply Forall_inv_tail in Fc.
    destruct (IH c k' o' ltac:(simpl in Lc; lia) Fc Hk Ho) as (I1 & I2 & I3).
    destruct (field_coord N l s c0 k0 o0 HN Hk0 Ho0 F0) as (J1 & J2 & J3). cbn [zipw map]. rewrite I1, I2, J1, J2. repeat split; auto.
Qed.

Lemma field_represents D N L (t : tree (array R)) : blocks D N t -> (depth t <= L)%nat -> represents D N L t (field N L t).
Proof.
  intros [[HN1 HN2] W Hd HSh] HL i b Hi Ea k o Hk Ho.
  destruct (in_range_addr D i Hi) as (q & Hq & Hlq & ->). rewrite <- Hlq in *.
  change (coords (addr D q)) with (of_path D q) in *.
  assert (E : node_path q t = Some (Leaf b) /\ (length q <= 30)%nat).
  { destruct (le_lt_dec (length q) 31) as [H|H].
    - apply at_addr in Ea; auto. split; [assumption|]. apply depth_path in Ea. lia.
    - exfalso. unfold at_, addr in Ea. cbn [level coords] in Ea. destruct (length q) as [|l] eqn:El; [lia|]. revert Ea. destruct t as [a|cs]; cbn; [discriminate|].
      unfold orthant; cbn [level]. unfold shl1. destruct (Nat.ltb_spec l 31); [lia|]. discriminate. }
  destruct E as [E Hq30]. set (s := (L - length q)%nat) in *.
  destruct (field_vec N (length q) s ltac:(lia) D (of_path D q) k o (of_path_length D q) (of_path_bound D q) Hk Ho) as (E1 & E2 & E3).
  set (g := zipw (fun g y => g * 2 ^ Z.of_nat s + y) (glob N (of_path D q) k) o) in *.
  assert (Es : (length q + s = L)%nat) by (unfold s; apply depth_path in E; lia).
  assert (Lg : length (map (fun x => Z.to_nat (x / N)) g) = D).
  { transitivity (length (of_path D q)); [|apply of_path_length]. rewrite <- E2 at 1. rewrite !map_length. reflexivity. }
  rewrite Es in E3.
  assert (exists r, path_of L (map (fun x => Z.to_nat (x / N)) g) = q ++ r) as [r Er].
  { apply (covers_prefix D); [assumption|apply path_of_ok; assumption|]. unfold covers; cbn [level coords]. rewrite path_of_length. split; [lia|].
    rewrite of_path_path_of by assumption. fold s. symmetry. exact E2. }
  unfold field. rewrite Er, (walk_app N g b q r t E). assert (Lr : length r = s).
  { apply (f_equal (@length nat)) in Er. rewrite path_of_length, app_length in Er. lia. }
  rewrite Lr, E1. unfold val. rewrite Forall_forall in HSh.
  assert (HI : In b (leaves t)).
  { clear -E. revert t E. induction q as [|m p IH]; intros t E; cbn [node_path] in E; [injection E as ->; left; reflexivity|].
    destruct t as [|cs]; [discriminate|]. destruct (nth_error cs m) as [c|] eqn:Ec; [|discriminate].
    cbn [leaves]. apply in_flat_map. exists c. split; [eapply nth_error_In; eassumption|]. apply IH. assumption. }
  destruct (proj2 (HSh b HI) k Hk) as [x ->]. reflexivity.
Qed.

(** ** Extension *)
Lemma select_first_reps {A} g ax (a : array A) sh F : okshape sh -> (ax < length sh)%nat -> 0 <= g <= nth ax sh 0 -> reps a sh F ->
  exists r, select_first g ax a = Ok r /\ reps r (upd ax g sh) F.
Proof.
  intros HO HL Hg [R1 R2]. pose proof (okshape_nth ax sh HO HL). destruct (select_first_value ax g a ltac:(rewrite R1; assumption) ltac:(rewrite R1; assumption) ltac:(lia)) as [Q _].
  rewrite R1 in Q. destruct (Q ltac:(lia)) as (r & E & S1 & S2). exists r. split; [assumption|]. rewrite R1, Z.sub_0_r in S1. split; [assumption|].
  intros i Hi. rewrite S2 by (rewrite S1; assumption). rewrite Z.add_0_l, upd_nth. apply R2.
  destruct (inb_upd_inv _ _ _ _ Hi HL) as [Hk Hj]. rewrite <- (upd_nth ax i 0). apply Hj. lia.
Qed.
Lemma select_final_reps {A} g ax (a : array A) sh F : okshape sh -> (ax < length sh)%nat -> 0 <= g <= nth ax sh 0 -> reps a sh F ->
  exists r, select_final g ax a = Ok r /\ reps r (upd ax g sh) (fun i => F (upd ax (nth ax sh 0 - g + nth ax i 0) i)).
Proof.
  intros HO HL Hg [R1 R2]. pose proof (okshape_nth ax sh HO HL). destruct (select_final_value ax g a ltac:(rewrite R1; assumption) ltac:(rewrite R1; assumption) ltac:(lia)) as [Q _].
  rewrite R1 in Q. destruct (Q ltac:(lia)) as (r & E & S1 & S2). exists r. split; [assumption|]. rewrite R1 in S1. replace (nth ax sh 0 - (nth ax sh 0 - g)) with g in S1 by lia. split; [assumption|].
  intros i Hi. rewrite S2 by (rewrite S1; assumption). apply R2.
  destruct (inb_upd_inv _ _ _ _ Hi HL) as [Hk Hj]. apply Hj. lia.
Qed.

Section Extend.
Context (N : Z) (L : nat) (t : tree (array R)) (F : list Z -> R).
Hypothesis Hb : blocks 2 N t.
Hypothesis Hbal : balanced t.
Hypothesis HL : (depth t < L)%nat.
Hypothesis HF : represents 2 N L t F.

Lemma served_neighbour a i j v : (a < 2)%nat -> is_node t i (Leaf v) -> next_on a i = Ok j \/ prev_on a i = Ok j ->
  in_range 2 j /\ level j = level i /\ served t j.
Proof.
  intros Ha Hi Hj. pose proof (b_wf 2 N t Hb) as W. pose proof (b_depth 2 N t Hb) as Hd.
  pose proof (is_node_facts t W i _ Hi) as [_ Hli]. cbn [depth] in Hli.
  assert (HR : in_range 2 j /\ level j = level i).
  { destruct Hj as [Hj|Hj].
    - destruct (next_prev 2 a i (proj1 Hi) Ha ltac:(lia)) as (j' & c & E' & R & L' & _). rewrite Hj in E'. injection E' as <-. auto.
    - destruct (prev_next 2 a i (proj1 Hi) Ha ltac:(lia)) as (j' & c & E' & R & L' & _). rewrite Hj in E'. injection E' as <-. auto. }
  destruct HR as [Rj Lj]. split; [assumption|]. split; [assumption|].
  assert (HC := match Hj with or_introl H => next_cases t W Hd Hbal a i j v Ha Hi H | or_intror H => prev_cases t W Hd Hbal a i j v Ha Hi H end).
  destruct HC as [(w & Nj & _)|[(w0 & w1 & w2 & w3 & Nj & _)|(w & Nu & Nn & _)]].
  - left. exists w. apply Nj.
  - right; left. eexists. split; [apply Nj|]. destruct (Nat.eq_dec (level j) 0) as [E0|]; [|lia]. exfalso.
    assert (forall x, in_range 2 x -> level x = 0%nat -> x = root_index 2).
    { clear. intros [l c] [H1 H2] H. cbn [level coords] in *. subst l. destruct c as [|x [|y [|z c]]]; try discriminate.
      pose proof (Forall_inv H2) as Q1. pose proof (Forall_inv (Forall_inv_tail H2)) as Q2. cbn in Q1, Q2. unfold root_index. cbn. repeat f_equal; lia. }
    assert (E : i = j) by (rewrite (H i), (H j); auto; [apply Hi|lia]). subst j. pose proof (is_node_unique t i _ _ Hi Nj). discriminate.
  - right; right. exists (up 1 j), w. split; [|apply Nu]. unfold parent_index. destruct (level j) as [|l] eqn:El.
    + exfalso. assert (up 1 j = j).
      { destruct j as [l c]. cbn [level] in El. subst l. unfold up. cbn [level coords]. f_equal. destruct Rj as [_ Rj]. cbn [level coords] in Rj. clear -Rj.
        induction Rj as [|x c Hx Rj IH]; [reflexivity|]. cbn [map]. rewrite IH. f_equal. cbn in Hx. replace x with 0%nat by lia. reflexivity. }
      rewrite H in Nu. exact (Nn _ Nu).
    + unfold up. cbn [level coords]. rewrite El. f_equal. f_equal. lia.
Qed.

Lemma neighbour_block a i j v fuel post : (a < 2)%nat -> is_node t i (Leaf v) -> next_on a i = Ok j \/ prev_on a i = Ok j -> (depth t < fuel)%nat ->
  exists b, get_cell_block (@contains_compiled (array R)) Rplus (fun x => x / 2)%R 2 fuel t j post = rethrow (post b) /\
    reps b [N; N] (fun k => box_mean (L - level i) (glob N (coords j) k) F).
Proof.
  intros Ha Hi Hj Hfu. destruct (served_neighbour a i j v Ha Hi Hj) as (Rj & Lj & Sj). pose proof (b_wf 2 N t Hb) as W.
  pose proof (is_node_facts t W i _ Hi) as [_ Hli]. pose proof (b_depth 2 N t Hb) as Hd.
  destruct (in_range_addr 2 j Rj) as (p & Hp & Hlp & ->).
  destruct (cell_block_reps 2 N L t F ltac:(lia) Hb HL HF fuel p post Hp ltac:(lia) Sj Hfu) as (b & E & RB).
  exists b. split; [exact E|]. rewrite <- Lj, <- Hlp. exact RB.
Qed.

Lemma extend_block_reps i v ax g fuel : (ax < 2)%nat -> is_node t i (Leaf v) -> 0 <= g <= N -> (depth t < fuel)%nat ->
  exists e, extend_block (@contains_compiled (array R)) Rplus (fun x => x / 2)%R fuel t ax g i = Ok e /\
    reps e (upd ax (N + 2 * g) [N; N]) (fun k => box_mean (L - level i) (guard_cell N g ax i k) F).
Proof.
  intros Ha Hi Hg Hfu. pose proof (b_wf 2 N t Hb) as W. pose proof (b_depth 2 N t Hb) as Hd. pose proof (b_size 2 N t Hb) as [HN1 HN2].
  pose proof (is_node_facts t W i _ Hi) as [_ Hli]. cbn [depth] in Hli.
  assert (Own : exists p, path_ok 2 p /\ i = addr 2 p /\ node_path p t = Some (Leaf v)).
  { apply (is_node_path t W) in Hi. destruct Hi as (p & Hp & _ & Ei & E). eauto. }
  destruct Own as (p & Hp & Ei & E).
  assert (Lp : length p = level i) by (rewrite Ei; reflexivity).
  assert (RC : reps v [N; N] (fun k => box_mean (L - level i) (glob N (coords i) k) F)).
  { split; [apply (block_shape 2 N t Hb p v E)|]. intros k Hk. destruct (block_cell 2 N t Hb p v k E Hk) as (x & Ex). rewrite Ex. f_equal.
    rewrite <- Lp. replace (coords i) with (of_path 2 p) by (rewrite Ei; reflexivity). symmetry. eapply leaf_mean; eauto. }
  assert (EA : at_ t i = Ok v) by (rewrite Ei; apply at_addr; auto; lia).
  destruct (prev_next 2 ax i (proj1 Hi) Ha ltac:(lia)) as (jl & cl & El & Rl & Ll & _ & Ncl & Cl).
  destruct (next_prev 2 ax i (proj1 Hi) Ha ltac:(lia)) as (jr & cr & Er & Rr & Lr & _ & Ncr & Cr).
  assert (OS : okshape [N; N]) by (constructor; [|constructor; [|constructor]]; change (0 <= N < two64); lia).
  assert (HLs : (ax < length [N; N])%nat) by exact Ha.
  assert (NS : nth ax [N; N] 0 = N) by (destruct ax as [|[|ax]]; [reflexivity|reflexivity|lia]).
  destruct (neighbour_block ax i jl v fuel (select_final g ax) Ha Hi (or_intror El) Hfu) as (bl & GL & RL).
  destruct (neighbour_block ax i jr v fuel (select_first g ax) Ha Hi (or_introl Er) Hfu) as (br & GR & RR).
  destruct (select_final_reps g ax bl [N; N] _ OS HLs ltac:(rewrite NS; lia) RL) as (sl & ESL & RSL).
  destruct (select_first_reps g ax br [N; N] _ OS HLs ltac:(rewrite NS; lia) RR) as (sr & ESR & RSR).
  rewrite NS in RSL.
  assert (RC' : reps v (upd ax N [N; N]) (fun k => box_mean (L - level i) (glob N (coords i) k) F)).
  { replace (upd ax N [N; N]) with [N; N]; [exact RC|]. destruct ax as [|[|ax]]; [reflexivity|reflexivity|lia]. }
  destruct (concat_reps ax sl v [N; N] g N _ _ OS HLs ltac:(lia) ltac:(lia) ltac:(lia) RSL RC') as (lc & ELC & RLC).
  destruct (concat_reps ax lc sr [N; N] (g + N) g _ _ OS HLs ltac:(lia) ltac:(lia) ltac:(lia) RLC RSR) as (e & EE & RE).
  exists e. split.
  - unfold extend_block. rewrite EA. bsimp. rewrite El. bsimp. rewrite GL, ESL. cbn [rethrow]. bsimp. rewrite Er. bsimp. rewrite GR, ESR. cbn [rethrow]. bsimp.
    rewrite ELC. bsimp. exact EE.
  - replace (N + 2 * g) with (g + N + g) by lia. eapply reps_ext; [exact RE|]. intros k Hk. cbv beta.
    destruct (inb_upd_inv _ _ _ _ Hk HLs) as [Hx _]. unfold guard_cell.
    assert (LK : length k = 2%nat) by (apply inb_length in Hk; rewrite NdProofs3.upd_length in Hk; exact Hk).
    destruct (two_coords i (proj1 Hi)) as (x & y & Exy & Bx & By). set (l := level i) in *.
    assert (PW : Z.of_nat (2 ^ l) = 2 ^ Z.of_nat l) by (rewrite Nat2Z.inj_pow; reflexivity).
    assert (P2 : 0 < 2 ^ Z.of_nat l) by (apply Z.pow_pos_nonneg; lia).
    destruct k as [|k0 [|k1 [|k2 k]]]; try discriminate.
    assert (WR : forall (c : nat) z, (c < 2 ^ l)%nat -> - N <= z < 2 * N ->
      (Z.of_nat c * N + z) mod (N * 2 ^ Z.of_nat l) =
      if z <? 0 then Z.of_nat (if (c =? 0)%nat then 2 ^ l - 1 else c - 1) * N + (z + N)
      else if z <? N then Z.of_nat c * N + z else Z.of_nat (if (c + 1 =? 2 ^ l)%nat then 0 else c + 1) * N + (z - N)).
    { clear -PW P2 HN1. intros c z Hc Hz. assert (Hc' : Z.of_nat c < 2 ^ Z.of_nat l) by lia.
      destruct (Z.ltb_spec z 0); [|destruct (Z.ltb_spec z N)].
      - destruct (Nat.eqb_spec c 0) as [->|Hn].
        + symmetry. apply (Z.mod_unique _ _ (-1)); [left; rewrite Nat2Z.inj_sub by lia; nia|rewrite Nat2Z.inj_sub by lia; nia].
        + symmetry. apply (Z.mod_unique _ _ 0); [left; rewrite Nat2Z.inj_sub by lia; nia|rewrite Nat2Z.inj_sub by lia; nia].
      - apply Z.mod_small. nia.
      - destruct (Nat.eqb_spec (c + 1) (2 ^ l)) as [Hn|Hn].
        + symmetry. apply (Z.mod_unique _ _ 1); [left; nia|nia].
        + symmetry. apply (Z.mod_unique _ _ 0); [left; nia|nia]. }
    rewrite Exy in Cl, Cr, Ncl, Ncr |- *. cbn [coords] in *.
    destruct ax as [|[|ax]]; [| |lia]; cbn [nth upd set_nth nth_error] in *; injection Ncl as <-; injection Ncr as <-; rewrite WR by lia; rewrite Cl, Cr; unfold glob; cbn [zipw upd nth].
    + destruct (Z.ltb_spec k0 (g + N)); [destruct (Z.ltb_spec k0 g)|]; destruct (Z.ltb_spec (k0 - g) 0); try lia; try (destruct (Z.ltb_spec (k0 - g) N); try lia);
        cbn [upd nth zipw]; do 2 f_equal; lia.
    + destruct (Z.ltb_spec k1 (g + N)); [destruct (Z.ltb_spec k1 g)|]; destruct (Z.ltb_spec (k1 - g) 0); try lia; try (destruct (Z.ltb_spec (k1 - g) N); try lia);
        cbn [upd nth zipw]; do 3 f_equal; lia.
Qed.
End Extend.
