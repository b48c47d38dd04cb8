(** Lemmas: what stands in the guard zones next to a coarser block, which states meet at every face of a mesh, and the
    corrected flux through every face in terms of the cell behind it. *)
From Coq Require Import ZArith Reals Lra List Arith Bool Lia.
From Verif Require Import Base TreeModel TreeSpec TreeProofs TreeProofs2 TreeProofs3 TreeProofs4 BalanceModel BalanceSpec BalanceProofs
  NdModel NdSpec NdProofs NdProofs2 NdProofs3 NdOpsModel NdOpsProofs ProlongModel ProlongProofs FluxModel FluxTreeProofs FluxProofs FluxSpec FluxProofs2 FluxProofs3 FluxProofs4 FluxProofs5
  GuardModel GuardSpec GuardProofs GuardProofs2 GuardProofs3 GuardProofs4 MeshModel MeshSpec MeshProofs2 MeshProps StepModel StepSpec StepProofs StepProofs2 StepProofs3 StepProps UniformProofs.
Import ListNotations.
Open Scope Z_scope.

(** The bit of a child's number on one axis, as a distance in cells of the child. *)
Definition offset (N : Z) (m a : nat) : Z := if Nat.testbit m a then N else 0.

Section Guards.
Context {A : Type} (add : A -> A -> A) (half : A -> A) (N : Z) (t : tree (array A)).
Hypothesis Hb : blocks 2 N t.
Hypothesis Hbal : balanced t.
Let W : wf_tree 2 t := b_wf 2 N t Hb.
Let Hd : (depth t <= 30)%nat := b_depth 2 N t Hb.
Let HN : 1 <= N /\ 4 * N + 4 < two64 := b_size 2 N t Hb.

(** The block made below a leaf repeats every cell of the leaf's quarter. *)
Lemma child_guard c w F m fuel : is_node t c (Leaf w) -> reps w [N; N] F -> (m < 4)%nat -> (0 < fuel)%nat ->
  exists b G, (forall post, get_cell_block (@contains_compiled (array A)) add half 2 fuel t (child_index c m) post = rethrow (post b)) /\ reps b [N; N] G /\
    forall x y, 0 <= x < N -> 0 <= y < N -> G [x; y] = F [(offset N m 0 + x) / 2; (offset N m 1 + y) / 2].
Proof.
  intros Hc HF Hm Hf. pose proof (is_node_facts t W c _ Hc) as [_ Hl]. cbn [depth] in Hl.
  apply (is_node_path t W) in Hc. destruct Hc as (q & Hq & Lq & -> & Ew). rewrite (child_addr 2 q m Hq Hm).
  assert (Hp : path_ok 2 (q ++ [m])) by (apply Forall_app; split; [exact Hq|constructor; [exact Hm|constructor]]).
  assert (Lp : (length (q ++ [m]) <= 31)%nat) by (rewrite app_length; cbn [length]; change (level (addr 2 q)) with (length q) in Hl; lia).
  assert (En : node_path (q ++ [m]) t = None) by (rewrite node_path_app, Ew; reflexivity).
  destruct (refine_cells_vec 2 N ltac:(lia) w F HF) as (cs & ERf & RF).
  destruct (orthant_rel 2 q m Hq Hm) as (o & EO & EI).
  assert (exists c G, nth_error cs m = Some c /\ reps c [N; N] G /\ forall x y, 0 <= x < N -> 0 <= y < N -> G [x; y] = F [(offset N m 0 + x) / 2; (offset N m 1 + y) / 2]) as (c & G & Ec & Rc & Gc).
  { clear -RF Hm. change (map (bits 2) (seq 0 (2 ^ 2))) with [bits 2 0; bits 2 1; bits 2 2; bits 2 3] in RF.
    assert (HX : exists bs, nth_error [bits 2 0; bits 2 1; bits 2 2; bits 2 3] m = Some bs).
    { destruct (nth_error [bits 2 0; bits 2 1; bits 2 2; bits 2 3] m) eqn:X; [eauto|]. apply nth_error_None in X. cbn in X, Hm. lia. }
    destruct HX as [bs HX]. destruct (forall2_nth_l _ _ _ RF m bs HX) as (c & Ec & Rc). exists c. eexists. split; [exact Ec|split; [exact Rc|]].
    intros x y Hx Hy. cbv beta. unfold Pall. change (seq 0 2) with [0%nat; 1%nat]. cbn [fold_left]. unfold Pc.
    destruct m as [|[|[|[|m]]]]; [..|cbn in Hm; lia]; injection HX as <-; reflexivity. }
  exists c, G. split; [|split; [assumption|exact Gc]]. intros post.
  destruct fuel as [|fuel]; [lia|]. unfold get_cell_block. cbn [get_block]. rewrite (contains_addr 2 t W) by assumption. rewrite En. bsimp.
  rewrite parent_addr by assumption. rewrite (contains_addr 2 t W) by assumption. rewrite Ew. bsimp. rewrite EO. bsimp.
  rewrite (proj2 (at_addr 2 t q W Hq Lq w) Ew). bsimp. rewrite ERf. bsimp. rewrite EI, Ec. bsimp. reflexivity.
Qed.

(** An extended block: its own cells, and next to a coarser block the cells of that block. *)
Definition sides (a : nat) (i : idx) (E G : Z -> Z -> A) : Prop :=
  (forall x k, 0 <= x < N -> 0 <= k < N -> E (x + 1) k = G x k) /\
  (forall c m w H, prev_on a i = Ok (child_index c m) -> (m < 4)%nat -> is_node t c (Leaf w) -> rep2 a w N N H -> forall k, 0 <= k < N ->
    E 0 k = H ((offset N m a + (N - 1)) / 2) ((offset N m (1 - a) + k) / 2)) /\
  (forall c m w H, next_on a i = Ok (child_index c m) -> (m < 4)%nat -> is_node t c (Leaf w) -> rep2 a w N N H -> forall k, 0 <= k < N ->
    E (N + 1) k = H ((offset N m a + 0) / 2) ((offset N m (1 - a) + k) / 2)).

Lemma half_range m a x : 0 <= x < N -> 0 <= (offset N m a + x) / 2 < N.
Proof. intros Hx. unfold offset. destruct (Nat.testbit m a); (split; [apply Z.div_pos; lia|apply Z.div_lt_upper_bound; lia]). Qed.

(** The cells of the guard block, seen along the axis. *)
Lemma child_guard2 a c w H m fuel : (a < 2)%nat -> is_node t c (Leaf w) -> rep2 a w N N H -> (m < 4)%nat -> (0 < fuel)%nat ->
  exists b G, (forall post, get_cell_block (@contains_compiled (array A)) add half 2 fuel t (child_index c m) post = rethrow (post b)) /\ rep2 a b N N G /\
    forall x y, 0 <= x < N -> 0 <= y < N -> G x y = H ((offset N m a + x) / 2) ((offset N m (1 - a) + y) / 2).
Proof.
  intros Ha Hc RH Hm Hf. assert (RW := rep2_reps a w N N H Ha RH). rewrite <- (square_face N a Ha) in RW.
  destruct (child_guard c w _ m fuel Hc RW Hm Hf) as (b & G & EB & RB & GB). rewrite (square_face N a Ha) in RB. apply reps_rep2 in RB; [|assumption].
  exists b. eexists. split; [exact EB|]. split; [exact RB|]. cbv beta. intros x y Hx Hy. axes Ha; unfold face; cbn [Nat.eqb Nat.sub]; rewrite GB by assumption; unfold fun2; cbn [nth Nat.sub]; reflexivity.
Qed.

Lemma extend_sides a i v fuel e : (a < 2)%nat -> is_node t i (Leaf v) -> (depth t < fuel)%nat -> extend_block (@contains_compiled (array A)) add half fuel t a 1 i = Ok e ->
  exists E G, rep2 a e (N + 2) N E /\ rep2 a v N N G /\ sides a i E G /\ (forall Q, stable add half N t Q -> forall x k, 0 <= x < N + 2 -> 0 <= k < N -> Q (E x k)).
Proof.
  intros Ha Hi Hfu EB. destruct (extend_block_any add half N t Hb Hbal a i v fuel Ha Hi Hfu) as (e' & E & G & EB' & RE & RG & O & _ & _ & SQ).
  rewrite EB in EB'. injection EB' as <-. exists E, G. do 2 (split; [assumption|]). split; [|exact SQ]. split; [exact O|].
  assert (Hu : forall A (x y : A), Ok x = Ok y -> x = y) by (intros; congruence).
  pose proof (ok_face a N N Ha ltac:(lia) ltac:(lia)) as OS. destruct (face_facts a N N Ha) as (L1 & _ & N1 & _ & U1 & _).
  pose proof (is_node_facts t W i _ Hi) as [_ Hli]. cbn [depth] in Hli.
  destruct (prev_next 2 a i (proj1 Hi) Ha ltac:(lia)) as (jl & cl & El & _). destruct (next_prev 2 a i (proj1 Hi) Ha ltac:(lia)) as (jr & cr & Er & _).
  destruct (neighbour_any add half N t Hb Hbal a i jl v fuel (select_final 1 a) Ha Hi (or_intror El) Hfu) as (bl & FL & GL & RL & _).
  destruct (neighbour_any add half N t Hb Hbal a i jr v fuel (select_first 1 a) Ha Hi (or_introl Er) Hfu) as (br & FR & GR & RR & _).
  (* general form: whatever blocks the two calls select from *)
  assert (GEN : forall bl br FL FR, get_cell_block (@contains_compiled (array A)) add half 2 fuel t jl (select_final 1 a) = rethrow (select_final 1 a bl) -> reps bl [N; N] FL ->
     get_cell_block (@contains_compiled (array A)) add half 2 fuel t jr (select_first 1 a) = rethrow (select_first 1 a br) -> reps br [N; N] FR ->
     forall k, 0 <= k < N -> E 0 k = FL (face a (N - 1) k) /\ E (N + 1) k = FR (face a 0 k)).
  { clear bl br FL FR GL GR RL RR. intros bl br FL FR GL RL GR RR k Hk.
    rewrite (square_face N a Ha) in RL, RR. assert (RG' := rep2_reps a v N N G Ha RG).
    destruct (select_final_reps 1 a bl (face a N N) _ OS L1 ltac:(rewrite N1; lia) RL) as (sl & ESL & RSL).
    destruct (select_first_reps 1 a br (face a N N) _ OS L1 ltac:(rewrite N1; lia) RR) as (sr & ESR & RSR).
    rewrite N1 in RSL. rewrite <- (U1 N) in RG'.
    destruct (concat_reps a sl v (face a N N) 1 N _ _ OS L1 ltac:(lia) ltac:(lia) ltac:(lia) RSL RG') as (lc & ELC & RLC).
    destruct (concat_reps a lc sr (face a N N) (1 + N) 1 _ _ OS L1 ltac:(lia) ltac:(lia) ltac:(lia) RLC RSR) as (e' & EE & RE').
    assert (e' = e) as ->.
    { unfold extend_block in EB. rewrite (leaf_at t i v Hi) in EB. cbn [bind] in EB. rewrite El in EB. cbn [bind] in EB. rewrite GL, ESL in EB. cbn [rethrow bind] in EB. rewrite Er in EB. cbn [bind] in EB.
      rewrite GR, ESR in EB. cbn [rethrow bind] in EB. rewrite ELC in EB. cbn [bind] in EB. rewrite EE in EB. congruence. }
    rewrite U1 in RE'. apply reps_rep2 in RE'; [|assumption]. replace (1 + N + 1) with (N + 2) in RE' by lia.
    rewrite (rep2_same a e _ _ _ _ RE RE' 0 k ltac:(lia) Hk), (rep2_same a e _ _ _ _ RE RE' (N + 1) k ltac:(lia) Hk). cbv beta.
    destruct (face_facts a 0 k Ha) as (_ & _ & N2 & _ & U2 & _). destruct (face_facts a (N + 1) k Ha) as (_ & _ & N3 & _ & U3 & _). rewrite !N2, !U2, !N3, !U3.
    destruct (Z.ltb_spec 0 (1 + N)); [|lia]. destruct (Z.ltb_spec 0 1); [|lia]. destruct (Z.ltb_spec (N + 1) (1 + N)); [lia|]. split; f_equal; f_equal; lia. }
  split.
  - intros c m w H Ep Hm Hc RH k Hk. rewrite El in Ep. injection Ep as ->. destruct (child_guard2 a c w H m fuel Ha Hc RH Hm ltac:(lia)) as (b & Gb & EBk & RBk & VB).
    assert (RB' := rep2_reps a b N N Gb Ha RBk). rewrite <- (square_face N a Ha) in RB'.
    rewrite (proj1 (GEN b br _ FR (EBk _) RB' GR RR k Hk)), fun2_face by assumption. apply VB; lia.
  - intros c m w H Ep Hm Hc RH k Hk. rewrite Er in Ep. injection Ep as ->. destruct (child_guard2 a c w H m fuel Ha Hc RH Hm ltac:(lia)) as (b & Gb & EBk & RBk & VB).
    assert (RB' := rep2_reps a b N N Gb Ha RBk). rewrite <- (square_face N a Ha) in RB'.
    rewrite (proj2 (GEN bl b FL _ GL RL (EBk _) RB' k Hk)), fun2_face by assumption. apply VB; lia.
Qed.

Lemma extended_sides a fuel e : (a < 2)%nat -> (depth t < fuel)%nat -> extend (@contains_compiled (array A)) add half fuel t a 1 = Ok e ->
  forall i b, is_node e i (Leaf b) -> exists v E G, is_node t i (Leaf v) /\ rep2 a b (N + 2) N E /\ rep2 a v N N G /\ sides a i E G /\
    (forall Q, stable add half N t Q -> forall x k, 0 <= x < N + 2 -> 0 <= k < N -> Q (E x k)).
Proof.
  intros Ha Hfu Ee i b Hib.
  destruct (tmapM_idx (extend_block (@contains_compiled (array A)) add half fuel t a 1) (mkarr [] (fun _ => UB)) t W ltac:(lia)) as (e' & E' & SS & K).
  - intros j v Hj. destruct (extend_block_any add half N t Hb Hbal a j v fuel Ha Hj Hfu) as (y & _ & _ & Ey & _). eauto.
  - unfold extend in Ee. rewrite Ee in E'. injection E' as <-. destruct (same_shape_wf t e W SS) as [We De].
    destruct (shape_leaf e t i b We (shape_sym _ _ SS) Hib) as [v Hv]. destruct (extend_block_any add half N t Hb Hbal a i v fuel Ha Hv Hfu) as (b' & _ & _ & Eb & _).
    pose proof (is_node_unique e i _ _ Hib (K i v b' Hv Eb)) as X. injection X as ->.
    destruct (extend_sides a i v fuel b' Ha Hv Hfu Eb) as (E & G & H). exists v, E, G. split; [exact Hv|]. exact H.
Qed.
End Guards.
