(** C54: guard-zone filling is consistent. *)
From Coq Require Import ZArith Reals List Arith Bool Lia Lra.
From Verif Require Import Base TreeModel TreeSpec TreeProofs TreeProofs2 TreeProofs4 BalanceModel BalanceSpec BalanceProofs NdModel NdSpec NdProofs NdOpsModel NdOpsProofs ProlongModel ProlongProofs ProlongProps
  FluxModel FluxTreeProofs FluxProofs FluxSpec FluxProofs2 FluxProofs4 GuardModel GuardSpec GuardProofs GuardProofs2 GuardProofs3 GuardProofs4.
Import ListNotations.
Open Scope Z_scope.

(** Every tree of blocks stands for a field on the cells of any level not coarser than its deepest leaf. *)
Theorem blocks_have_field D N L (t : tree (array R)) : blocks D N t -> (depth t <= L)%nat -> exists F, represents D N L t F.
Proof. intros H HL. exists (field N L t). apply field_represents; assumption. Qed.

(** The block made for an address -- a leaf, a branch below the root, or a child of a leaf -- has the standard size, and
    each of its cells holds the average of the field over that cell, whatever the tree holds there. *)
Theorem cell_block_means D N L (t : tree (array R)) F i fuel : (1 <= D)%nat -> blocks D N t -> (depth t < L)%nat -> represents D N L t F ->
  in_range D i -> (level i <= 31)%nat -> served t i -> (depth t < fuel)%nat ->
  exists b, get_cell_block (@contains_compiled (array R)) Rplus (fun x => x / 2)%R D fuel t i (fun b => Ok b) = Ok b /\ ashape b = repeat N D /\
    forall k, inb (repeat N D) k -> aget b k = Ok (box_mean (L - level i) (glob N (coords i) k) F).
Proof.
  intros HD Hb HL HF Hi Hl HS Hfu. destruct (in_range_addr D i Hi) as (p & Hp & Hlp & ->).
  destruct (cell_block_reps D N L t F HD Hb HL HF fuel p (fun b => Ok b) Hp ltac:(lia) HS Hfu) as (b & E & R1 & R2).
  exists b. split; [exact E|]. split; [exact R1|]. intros k Hk. rewrite (R2 k Hk). rewrite Hlp. reflexivity.
Qed.

(** A uniform field stays uniform. *)
Theorem cell_block_uniform D N (t : tree (array R)) c i fuel : (1 <= D)%nat -> blocks D N t ->
  Forall (fun b => forall k, inb (repeat N D) k -> aget b k = Ok c) (leaves t) ->
  in_range D i -> (level i <= 31)%nat -> served t i -> (depth t < fuel)%nat ->
  exists b, get_cell_block (@contains_compiled (array R)) Rplus (fun x => x / 2)%R D fuel t i (fun b => Ok b) = Ok b /\ ashape b = repeat N D /\
    forall k, inb (repeat N D) k -> aget b k = Ok c.
Proof.
  intros HD Hb HU Hi Hl HS Hfu.
  destruct (cell_block_means D N (S (depth t)) t (fun _ => c) i fuel HD Hb ltac:(lia)) as (b & E & R1 & R2); auto.
  - intros j b Hj Ej k o Hk Ho. rewrite Forall_forall in HU. apply HU; [|assumption].
    destruct (in_range_addr D j Hj) as (q & Hq & Hlq & ->). pose proof (b_wf D N t Hb) as W.
    destruct (le_lt_dec (length q) 31) as [H|H].
    + apply at_addr in Ej; auto. clear -Ej. revert t Ej. induction q as [|m q IH]; intros t E; cbn [node_path] in E; [injection E as ->; left; reflexivity|].
      destruct t as [|cs]; [discriminate|]. destruct (nth_error cs m) as [x|] eqn:Ec; [|discriminate].
      cbn [leaves]. apply in_flat_map. exists x. split; [eapply nth_error_In; eassumption|]. apply IH. assumption.
    + exfalso. unfold at_, addr in Ej. cbn [level coords] in Ej. destruct (length q) as [|l] eqn:El; [lia|]. revert Ej. destruct t as [a|cs]; cbn; [discriminate|].
      unfold orthant; cbn [level]. unfold shl1. destruct (Nat.ltb_spec l 31); [lia|]. discriminate.
  - exists b. split; [exact E|]. split; [exact R1|]. intros k Hk. rewrite (R2 k Hk). rewrite box_mean_const. reflexivity.
Qed.

(** ** Addresses for which no block is made *)

(** Two or more levels below a leaf the search never answers: it descends for ever (or into the undefined shift). *)
Theorem cell_block_too_deep (D : nat) (t : tree (array R)) i j v fuel post : wf_tree D t -> in_range D i ->
  in_range D j -> node_at t j = Ok (Leaf v) -> (level j <= 31)%nat -> covers j i -> (level j + 2 <= level i)%nat ->
  let o := get_cell_block (@contains_compiled (array R)) Rplus (fun x => x / 2)%R D fuel t i post in o = NoFuel \/ o = UB.
Proof.
  intros W Hi Hj Ej Hlj HC Hl. destruct (in_range_addr D i Hi) as (p & Hp & Hlp & ->). destruct (in_range_addr D j Hj) as (q & Hq & Hlq & ->).
  apply covers_prefix in HC; auto. destruct HC as [r Er]. rewrite (node_at_addr D) in Ej by (auto; lia).
  destruct (node_path q t) eqn:E; [injection Ej as ->|discriminate].
  apply (too_deep D t _ _ _ W fuel p q r v post Hp Er); [|assumption].
  assert (HX : length p = (length q + length r)%nat) by (rewrite Er; apply app_length).
  change (level (addr D q)) with (length q) in Hl. change (level (addr D p)) with (length p) in Hl. lia.
Qed.

(** With [contains] as the language standard has it, every branch address is undefined behaviour; and so is the root
    of a tree that is not a single leaf, in either reading. *)
Theorem cell_block_branch_refuted (D : nat) (t : tree (array R)) i cs fuel post : wf_tree D t -> in_range D i -> (level i <= 31)%nat ->
  node_at t i = Ok (Node cs) -> get_cell_block (@contains (array R)) Rplus (fun x => x / 2)%R D (S fuel) t i post = UB.
Proof.
  intros W Hi Hl E. unfold get_cell_block. cbn [get_block].
  destruct (lookup_cases D t i W Hi Hl) as [(v & Q & _)|[(cs' & _ & _ & _ & H & _)|Q]].
  - exfalso. rewrite Q in E. discriminate.
  - rewrite H. reflexivity.
  - exfalso. destruct Q as (Q & _). rewrite Q in E. discriminate.
Qed.
Theorem cell_block_root_refuted (D : nat) (cs : list (tree (array R))) fuel post :
  get_cell_block (@contains_compiled (array R)) Rplus (fun x => x / 2)%R D (S fuel) (Node cs) (root_index D) post = UB.
Proof. reflexivity. Qed.

(** ** Extension by guard cells *)

(** On a balanced quadtree every leaf block is extended, and every cell of the extended block, own or guard, holds the
    average of the field over the cell it stands for in the periodic domain. *)
Theorem extend_means N L (t : tree (array R)) F ax g fuel : blocks 2 N t -> balanced t -> (depth t < L)%nat -> represents 2 N L t F ->
  (ax < 2)%nat -> 0 <= g <= N -> (depth t < fuel)%nat ->
  exists u, extend (@contains_compiled (array R)) Rplus (fun x => x / 2)%R fuel t ax g = Ok u /\ same_shape t u /\
    forall i, In i (leaves (indexes 2 t)) -> exists e, at_ u i = Ok e /\ ashape e = upd ax (N + 2 * g) [N; N] /\
      forall k, inb (ashape e) k -> aget e k = Ok (box_mean (L - level i) (guard_cell N g ax i k) F).
Proof.
  intros Hb Hbal HL HF Ha Hg Hfu. pose proof (b_wf 2 N t Hb) as W. pose proof (b_depth 2 N t Hb) as Hd.
  pose (f := extend_block (@contains_compiled (array R)) Rplus (fun x => x / 2)%R fuel t ax g).
  pose (h := fun i => match f i with Ok e => e | _ => mkarr [] (fun _ => UB) end).
  assert (HB : forall i, In i (leaves (indexes 2 t)) -> f i = Ok (h i) /\
    reps (h i) (upd ax (N + 2 * g) [N; N]) (fun k => box_mean (L - level i) (guard_cell N g ax i k) F)).
  { intros i Hi. destruct (in_leaf t W Hd i Hi) as [v Hv]. destruct (extend_block_reps N L t F Hb Hbal HL HF i v ax g fuel Ha Hv Hg Hfu) as (e & E & RE).
    unfold h, f. rewrite E. auto. }
  destruct (built t h W ltac:(lia)) as (B1 & _ & _ & _ & _ & B6).
  exists (tmap h (indexes 2 t)). split; [|split; [exact B1|]].
  - unfold extend. apply tmapM_ok. intros i Hi. apply HB. assumption.
  - intros i Hi. exists (h i). split; [apply B6; assumption|]. destruct (HB i Hi) as (_ & R1 & R2). split; [exact R1|]. intros k Hk. apply R2. rewrite <- R1. assumption.
Qed.

(** ** Vertex blocks *)

(** Vertex [k] of a block of a regular mesh: level [l], [N] cells per block, the domain spanned from [o] by [a] and [b]. *)
Definition vertex (N : Z) (o a b : R * R) (l : nat) (g : list Z) : R * R :=
  let x := (IZR (nth 0 g 0%Z) / (IZR N * 2 ^ l))%R in
  let y := (IZR (nth 1 g 0%Z) / (IZR N * 2 ^ l))%R in
  (fst o + x * fst a + y * fst b, snd o + x * snd a + y * snd b)%R.
Definition vadd (p q : R * R) : R * R := (fst p + fst q, snd p + snd q)%R.
Definition vhalf (p : R * R) : R * R := (fst p / 2, snd p / 2)%R.

Lemma pv_half k : (IZR (k / 2) + IZR (k / 2 + k mod 2) = IZR k)%R.
Proof. rewrite <- plus_IZR. f_equal. pose proof (Z.div_mod k 2 ltac:(lia)). lia. Qed.

(** If the leaves hold the vertices of a regular mesh, so does every block that is made. *)
Theorem vertex_block_regular N (t : tree (array (R * R))) o a b i fuel : 1 <= N -> 4 * N + 4 < two64 -> wf_tree 2 t -> (depth t <= 30)%nat ->
  (forall j v, in_range 2 j -> (level j <= 31)%nat -> node_at t j = Ok (Leaf v) -> ashape v = [N + 1; N + 1] /\
     forall k, inb [N + 1; N + 1] k -> aget v k = Ok (vertex N o a b (level j) (glob N (coords j) k))) ->
  in_range 2 i -> (level i <= 31)%nat -> served t i -> (depth t < fuel)%nat ->
  exists v, get_vertex_block (@contains_compiled (array (R * R))) vadd vhalf 2 fuel t i = Ok v /\ ashape v = [N + 1; N + 1] /\
    forall k, inb [N + 1; N + 1] k -> aget v k = Ok (vertex N o a b (level i) (glob N (coords i) k)).
Proof.
  intros HN1 HN2 W Hd HV Hi Hl HS Hfu. destruct (in_range_addr 2 i Hi) as (p & Hp & Hlp & ->). cbn [addr level] in Hl.
  assert (HI : IZR N <> 0%R) by (apply not_0_IZR; lia).
  destruct (get_block_reps 2 N 1 t (refine_verts vadd vhalf (seq 0 2)) (combine_verts (seq 0 2)) (coarsen_verts (seq 0 2))
              (Pv vadd vhalf) Rv (vertex N o a b) ltac:(lia) W Hd) with (fuel := fuel) (p := p) (post := fun b : array (R * R) => Ok b) as (v & E & RB); auto; try lia.
  - intros v F Hr. apply refine_verts_vec; [lia|assumption].
  - intros cs F H. apply combine_verts_vec; [lia|lia|assumption].
  - intros c F H. apply coarsen_verts_vec; [lia|assumption].
  - intros q v Hq Eq. assert (HLq : (length q <= 30)%nat) by (apply depth_path in Eq; lia).
    destruct (HV (addr 2 q) v) as [V1 V2]; [apply path_in_range|cbn [addr level]; lia| |split; [exact V1|exact V2]].
    rewrite (node_at_addr 2) by (auto; lia). rewrite Eq. reflexivity.
  - intros q cs k Hq Eq Hk. pose proof (inb_repeat_length _ _ _ Hk) as Lk. rewrite (Rall_verts_vec 2 [] k) by assumption. cbn [app].
    pose proof (of_path_length 2 q) as Lc. destruct (of_path 2 q) as [|c0 [|c1 [|c2 c]]]; try discriminate. destruct k as [|k0 [|k1 [|k2 k]]]; try discriminate.
    unfold vertex, glob. cbn [map zipw nth]. rewrite !plus_IZR, !mult_IZR. simpl pow. pose proof (pow_lt 2 (length q) ltac:(lra)). f_equal; field; split; lra.
  - intros q v k Hq Eq Hk. pose proof (inb_repeat_length _ _ _ Hk) as Lk.
    pose proof (of_path_length 2 q) as Lc. destruct (of_path 2 q) as [|c0 [|c1 [|c2 c]]]; try discriminate. destruct k as [|k0 [|k1 [|k2 k]]]; try discriminate.
    unfold Pall. cbn [seq fold_left]. unfold Pv, vadd, vhalf, vertex, glob. cbn [nth upd zipw fst snd]. rewrite !plus_IZR, !mult_IZR. simpl pow.
    pose proof (pv_half k0) as Q0. pose proof (pv_half k1) as Q1. rewrite plus_IZR in Q0, Q1. pose proof (pow_lt 2 (length q) ltac:(lra)).
    rewrite <- Q0, <- Q1. f_equal; field; split; lra.
  - destruct (served_path 2 t p W Hp Hl HS) as [(v & E)|[(cs & E & Hne)|(q & k & v & Ep & E)]].
    + left. exists v. split; [assumption|lia].
    + right; left. exists cs. split; [assumption|]. split; [|assumption]. apply depth_path in E. lia.
    + right; right. exists q, k, v. repeat split; auto. lia.
  - exists v. split; [exact E|]. destruct RB as [R1 R2]. split; [exact R1|]. intros k Hk. apply R2. exact Hk.
Qed.

(** ** Example: a quadtree whose first quadrant is refined, blocks of 2 x 2 cells. *)
Definition ex_block (c : R) : array R := mkarr [2; 2] (fun k => Ok (c + IZR (2 * nth 0 k 0 + nth 1 k 0)%Z)%R).
Definition ex_guard : tree (array R) :=
  Node [Node [Leaf (ex_block 0); Leaf (ex_block 10); Leaf (ex_block 20); Leaf (ex_block 30)];
        Leaf (ex_block 40); Leaf (ex_block 50); Leaf (ex_block 60)].
Definition got (i : idx) (k : list Z) : outcome R :=
  do b <- get_cell_block (@contains_compiled (array R)) Rplus (fun x => x / 2)%R 2 3 ex_guard i (fun b => Ok b); aget b k.

Lemma ex_guard_blocks : blocks 2 2 ex_guard.
Proof.
  constructor; [unfold two64; lia| |cbn; lia|].
  - repeat (constructor; [reflexivity|] || constructor).
  - repeat constructor; eexists; reflexivity.
Qed.

(** The block itself; the averages of four finer blocks; a quarter of a coarser block; nothing two levels below. *)
Example cell_block_example :
  got (mkidx 1 [1; 0]%nat) [1; 0] = Ok (40 + 2)%R /\
  (exists x, got (mkidx 1 [0; 0]%nat) [1; 0] = Ok x /\ x = 11.5%R) /\
  got (mkidx 2 [2; 1]%nat) [1; 0] = Ok (40 + 1)%R /\
  got (mkidx 3 [4; 0]%nat) [0; 0] = NoFuel.
Proof.
  split; [reflexivity|]. split; [|split; reflexivity].
  eexists. split; [reflexivity|]. cbn. lra.
Qed.

(** The last block, extended: its neighbour's guard cell, its own cells, its neighbour's again (around the edge). *)
Definition extended (k : list Z) : outcome R :=
  do u <- extend (@contains_compiled (array R)) Rplus (fun x => x / 2)%R 3 ex_guard 0 1;
  do e <- at_ u (mkidx 1 [1; 1]%nat); aget e k.
Example extend_example : extended [0; 1] = Ok (50 + 3)%R /\ extended [1; 1] = Ok (60 + 1)%R /\ extended [3; 0] = Ok (50 + 0)%R.
Proof. repeat split; vm_compute; reflexivity. Qed.

Print Assumptions cell_block_means.
Print Assumptions extend_means.
Print Assumptions vertex_block_regular.
Print Assumptions cell_block_too_deep.
Print Assumptions cell_block_branch_refuted.
