(** The start of the binary program: from the options to a state the theorems about runs apply to. *)
From Coq Require Import ZArith Reals Lra Lia List Arith Bool String.
From Verif Require Import Base RationalModel TreeModel TreeSpec TreeProofs TreeProofs2 TreeProofs3 TreeProofs4 BalanceModel BalanceSpec BalanceProofs
  NdModel NdSpec NdProofs NdProofs2 NdProofs3 NdOpsModel NdOpsProofs ProlongModel ProlongProofs FluxModel FluxTreeProofs FluxProofs FluxSpec FluxProofs2 FluxProofs3 FluxProofs4 FluxProofs5
  MeshModel MeshSpec MeshProofs MeshProofs2 MeshProps PlmModel DimensionalModel TwoBodyModel HydroModel StepModel StepSpec StepProofs StepProofs2 StepProofs3 SourceModel SourceProofs
  SolutionModel SolutionSpec SolutionProofs SolutionProofs2 SolutionProofs5 ReduceProofs ReduceProps ShockModel BinarySetupModel DiskProps.
From Verif Require SolutionProps.
From Verif Require SedovProofs.
Import ListNotations.
Open Scope Z_scope.

(** ** Trees *)
Lemma leaf_node {A} (t : tree A) x : wf_tree 2 t -> (depth t <= 30)%nat -> In x (leaves t) -> exists i, is_node t i (Leaf x).
Proof.
  intros W D Hx. destruct (leaf_has_path t x W Hx) as (p & Hp & Ep). assert (Hi : In (addr 2 p) (leaves (indexes 2 t))) by (apply in_indexes_iff; [exact W|]; exists p, x; repeat split; auto).
  exists (addr 2 p). apply (is_node_path t W). exists p. destruct (leaf_index_facts 2 t _ W Hi) as [_ HL]. cbn [level addr] in HL. repeat split; auto. lia.
Qed.
Lemma some_leaf {A} (t : tree A) : wf_tree 2 t -> exists x, In x (leaves t).
Proof.
  induction t as [x|cs IH] using tree_ind'; intros W; [exists x; left; reflexivity|]. apply wf_node_inv in W. destruct W as [L F]. destruct cs as [|c cs]; [cbn in L; discriminate|].
  rewrite Forall_forall in IH, F. destruct (IH c (or_introl eq_refl) (F c (or_introl eq_refl))) as [x Hx]. exists x. cbn [leaves]. apply in_flat_map. exists c. split; [left; reflexivity|exact Hx].
Qed.
Lemma tree_result {A B} (f : A -> outcome B) (t : tree A) (Q : idx -> B -> Prop) : wf_tree 2 t -> (depth t <= 30)%nat ->
  (forall i b, is_node t i (Leaf b) -> exists y, f b = Ok y /\ Q i y) ->
  exists u, tmapM f t = Ok u /\ same_shape t u /\ forall i y, is_node u i (Leaf y) -> Q i y.
Proof.
  intros W D H. assert (X : exists dflt : B, True).
  { destruct (some_leaf t W) as [x Hx]. destruct (leaf_node t x W D Hx) as [i Hi]. destruct (H i x Hi) as (y & _). exists y. trivial. }
  destruct X as [dflt _]. destruct (tmapM_at f dflt t W ltac:(lia)) as (u & E & S & K); [intros i v Hi; destruct (H i v Hi) as (y & Ey & _); eauto|].
  exists u. split; [exact E|]. split; [exact S|]. intros i y Hy. destruct (same_shape_wf t u W S) as [Wu Du]. destruct (shape_leaf u t i y Wu (shape_sym _ _ S) Hy) as [b Hb].
  destruct (H i b Hb) as (y' & Ey & Hq). pose proof (is_node_unique u i _ _ Hy (K i b y' Hb Ey)) as X. injection X as ->. exact Hq.
Qed.

Section Mesh.
Variables (N : Z) (v : tree (array (R * R))) (r : R).
Hypothesis HN : 1 <= N < 2147483647.
Hypothesis W : wf_tree 2 v.
Hypothesis D : (depth v <= 30)%nat.
Hypothesis Reg : regular N r v.

(** The centre of a cell and the width of the cells of a block. *)
Definition cell_point (i : idx) (k : list Z) : R * R := point_in r N i (IZR (nth 0 k 0) + 1 / 2) (IZR (nth 1 k 0) + 1 / 2).
Definition cell_width (i : idx) : R := (2 * r / (IZR N * 2 ^ level i))%R.

Lemma vertex_reps i b : is_node v i (Leaf b) -> reps b [N + 1; N + 1] (fun k => point_in r N i (IZR (nth 0 k 0)) (IZR (nth 1 k 0))).
Proof.
  intros Hi. destruct (Reg i b (proj1 Hi) (leaf_at v i b Hi)) as [H1 H2]. split; [exact H1|]. intros k Hk. pose proof (inb_length _ _ Hk) as Lk. destruct k as [|k0 [|k1 [|k2 k]]]; try discriminate.
  pose proof (inb_nth 0 _ _ Hk ltac:(cbn; lia)) as K0. pose proof (inb_nth 1 _ _ Hk ltac:(cbn; lia)) as K1. cbn [nth] in K0, K1. cbn [nth]. apply H2; lia.
Qed.
Lemma center_reps i b : is_node v i (Leaf b) -> exists c, MeshModel.cell_centers b = Ok c /\ reps c [N; N] (cell_point i).
Proof. intros Hi. exact (proj2 (block_cells N r i b HN (vertex_reps i b Hi))). Qed.

Lemma spacing_known axis : (axis < 2)%nat -> exists d, min_spacing axis v = Ok d /\
  (forall i, In i (leaves (indexes 2 v)) -> d <= cell_width i)%R /\ exists i, In i (leaves (indexes 2 v)) /\ d = cell_width i.
Proof.
  intros Ha. assert (HT : 2147483647 < two64) by (unfold two64; lia). assert (HI : IZR N <> 0%R) by (apply not_0_IZR; lia).
  destruct (tree_result (fun b => do d <- difference_on_axis Rminus axis (arr_map (if (axis =? 0)%nat then fst else snd) b); least d) v (fun i y => y = cell_width i) W D) as (t & E & S & K).
  { intros i b Hi. pose proof (vertex_reps i b Hi) as HR. pose proof (pow_lt 2 (level i) ltac:(lra)) as Hp.
    destruct (difference_reps_gen Rminus axis (arr_map (if (axis =? 0)%nat then fst else snd) b) [N + 1; N + 1] _ ltac:(apply ok2; lia) ltac:(cbn; lia) ltac:(destruct axis as [|[|axis]]; cbn; lia) (map_reps _ _ _ _ HR)) as (d & E1 & R1).
    rewrite E1. bsimp. assert (SH : exists a b, upd axis (nth axis [N + 1; N + 1] 0 - 1) [N + 1; N + 1] = [a; b] /\ 1 <= a <= N + 1 /\ 1 <= b <= N + 1).
    { destruct axis as [|[|axis]]; [| |lia]; cbn [upd nth]; do 2 eexists; (split; [reflexivity|lia]). }
    destruct SH as (a1 & b1 & ES & Ha1 & Hb1). rewrite ES in R1. destruct R1 as [S1 V1]. exists (cell_width i). split; [|reflexivity]. unfold least.
    destruct (min_correct (volume_of (ashape d)) d (fun _ => cell_width i)) as (j & _ & EJ & _); [| |exact EJ].
    - rewrite S1. split; [discriminate|]. split; [repeat constructor; lia|unfold volume_of; lia].
    - intros k Hk. rewrite S1 in Hk. rewrite V1 by exact Hk. f_equal. pose proof (inb_length _ _ Hk) as Lk. destruct k as [|k0 [|k1 [|k2 k]]]; try discriminate.
      unfold cell_width. destruct axis as [|[|axis]]; [| |lia]; cbn [Nat.eqb nth upd]; unfold point_in, MeshSpec.place; cbn [fst snd]; rewrite plus_IZR; field; split; lra. }
  unfold min_spacing. rewrite E. bsimp. exists (tmin t). split; [reflexivity|]. destruct (same_shape_wf v t W S) as [Wt Dt]. destruct (tmin_leaves t Wt) as [T1 T2].
  assert (EI : indexes 2 t = indexes 2 v) by (unfold indexes; apply same_shape_indexes, S). split.
  - intros i Hi. rewrite <- EI in Hi. destruct (in_leaf t Wt ltac:(lia) i Hi) as (y & Hy). rewrite <- (K i y Hy). apply T1. exact (node_leaves t i y Wt Hy).
  - destruct (leaf_node t (tmin t) Wt ltac:(lia) T2) as [i Hy]. exists i. split; [rewrite <- EI; exact (leaf_in t Wt _ _ Hy)|exact (K _ _ Hy)].
Qed.

(** Every centre is inside the square; none is the origin if the number of cells in a row is even or there is more than one block. *)
Lemma center_inside i b k : (0 < r)%R -> is_node v i (Leaf b) -> inb [N; N] k -> (Rabs (fst (cell_point i k)) <= r /\ Rabs (snd (cell_point i k)) <= r)%R.
Proof.
  intros Hr Hi Hk. pose proof (inb_length _ _ Hk) as Lk. destruct k as [|k0 [|k1 [|k2 k]]]; try discriminate.
  pose proof (inb_nth 0 _ _ Hk ltac:(cbn; lia)) as K0. pose proof (inb_nth 1 _ _ Hk ltac:(cbn; lia)) as K1. cbn [nth] in K0, K1.
  assert (HI : (0 < IZR N)%R) by (apply IZR_lt; lia). pose proof (pow_lt 2 (level i) ltac:(lra)) as Hp. destruct (proj1 Hi) as [Lc Fc].
  assert (G : forall c x, 0 <= c < 2 ^ Z.of_nat (level i) -> 0 <= x < N -> (Rabs (MeshSpec.place r N (level i) (IZR (c * N) + (IZR x + 1 / 2))) <= r)%R).
  { intros c x Hc Hx. assert (EP : IZR (2 ^ Z.of_nat (level i)) = (2 ^ level i)%R) by (rewrite <- pow_IZR; reflexivity).
    assert (B : (0 <= IZR (c * N) + (IZR x + 1 / 2) <= IZR N * 2 ^ level i)%R).
    { assert (0 <= IZR (c * N + x))%R by (apply IZR_le; nia). assert (c * N + x + 1 <= N * 2 ^ Z.of_nat (level i)) as Q by nia. apply IZR_le in Q. rewrite mult_IZR, EP in Q. rewrite !plus_IZR in *. lra. }
    unfold MeshSpec.place. set (g := (IZR (c * N) + (IZR x + 1 / 2))%R) in *. set (m := (IZR N * 2 ^ level i)%R) in *. assert (Hm : (0 < m)%R) by (unfold m; nra).
    replace (- r + g * (2 * r / m))%R with (r * (2 * (g / m) - 1))%R by (field; lra). assert (0 <= g / m <= 1)%R.
    { split; [apply Rmult_le_pos; [lra|left; apply Rinv_0_lt_compat; exact Hm]|]. apply Rmult_le_reg_r with m; [exact Hm|]. unfold Rdiv. rewrite Rmult_assoc, Rinv_l by lra. lra. }
    apply Rabs_le. nra. }
  assert (C : forall a, (a < 2)%nat -> 0 <= Z.of_nat (nth a (coords i) 0%nat) < 2 ^ Z.of_nat (level i)).
  { intros a Ha. split; [lia|]. rewrite Forall_forall in Fc. assert (La : (a < List.length (coords i))%nat) by lia. pose proof (Fc (nth a (coords i) 0%nat) (nth_In _ _ La)) as Q. cbv beta in Q. apply Nat2Z.inj_lt in Q. rewrite Nat2Z.inj_pow in Q. exact Q. }
  unfold cell_point, point_in. cbn [fst snd nth]. split; apply G; auto; apply C; lia.
Qed.
Lemma center_off_origin i b k : (0 < r)%R -> is_node v i (Leaf b) -> inb [N; N] k -> Z.Even N \/ (1 <= level i)%nat -> cell_point i k <> (0, 0)%R.
Proof.
  intros Hr Hi Hk HE X. injection X as X _. pose proof (inb_length _ _ Hk) as Lk. destruct k as [|k0 [|k1 [|k2 k]]]; try discriminate. cbn [nth] in X.
  assert (HI : (0 < IZR N)%R) by (apply IZR_lt; lia). pose proof (pow_lt 2 (level i) ltac:(lra)) as Hp. unfold MeshSpec.place in X. set (c := Z.of_nat (nth 0 (coords i) 0%nat)) in *.
  assert (Y : (2 * (IZR (c * N) + (IZR k0 + 1 / 2)) = IZR N * 2 ^ level i)%R).
  { apply Rmult_eq_reg_r with (r / (IZR N * 2 ^ level i))%R; [|apply Rgt_not_eq, Rdiv_lt_0_compat; [exact Hr|nra]].
    replace (IZR N * 2 ^ level i * (r / (IZR N * 2 ^ level i)))%R with r by (field; lra).
    replace (2 * (IZR (c * N) + (IZR k0 + 1 / 2)) * (r / (IZR N * 2 ^ level i)))%R with ((IZR (c * N) + (IZR k0 + 1 / 2)) * (2 * r / (IZR N * 2 ^ level i)))%R by (field; lra). lra. }
  assert (EP : IZR (2 ^ Z.of_nat (level i)) = (2 ^ level i)%R) by (rewrite <- pow_IZR; reflexivity).
  assert (Q : 2 * (c * N + k0) + 1 = N * 2 ^ Z.of_nat (level i)).
  { apply eq_IZR. rewrite plus_IZR, mult_IZR, plus_IZR, mult_IZR with (m := 2 ^ Z.of_nat (level i)), EP, <- Y. lra. }
  destruct HE as [[h ->]|HL]; [lia|]. destruct (level i) as [|l]; [lia|]. rewrite Nat2Z.inj_succ, Z.pow_succ_r in Q by lia. lia.
Qed.
End Mesh.

Lemma fold_max l : forall x, (x <= fold_left Rmax l x)%R /\ (forall y, In y l -> y <= fold_left Rmax l x)%R /\ (fold_left Rmax l x = x \/ In (fold_left Rmax l x) l).
Proof.
  induction l as [|y l IH]; intros x; cbn [fold_left]; [split; [lra|split; [intros ? []|left; reflexivity]]|].
  destruct (IH (Rmax x y)) as (H1 & H2 & H3). pose proof (Rmax_l x y). pose proof (Rmax_r x y). split; [lra|]. split.
  - intros z [<-|Hz]; [lra|auto].
  - destruct H3 as [E|E]; [|right; right; exact E]. rewrite E. unfold Rmax. destruct (Rle_dec x y); [right; left; reflexivity|left; reflexivity].
Qed.
Lemma tmax_leaves t : wf_tree 2 t -> (forall x, In x (leaves t) -> x <= tmax t)%R /\ In (tmax t) (leaves t).
Proof.
  induction t as [x|cs IH] using tree_ind'; intros W; [cbn; split; [intros y [<-|[]]; lra|left; reflexivity]|].
  apply wf_node_inv in W. destruct W as [L F]. cbn [tmax leaves]. destruct cs as [|c cs]; [cbn in L; discriminate|]. cbn [map].
  assert (K : forall e, In e (c :: cs) -> (forall x, In x (leaves e) -> x <= tmax e)%R /\ In (tmax e) (leaves e)).
  { intros e He. rewrite Forall_forall in IH, F. apply IH; [exact He|apply F; exact He]. }
  destruct (fold_max (map tmax cs) (tmax c)) as (H1 & H2 & H3). split.
  - intros x Hx. apply in_flat_map in Hx. destruct Hx as (e & He & Hx). pose proof (proj1 (K e He) x Hx). destruct He as [<-|He]; [lra|]. specialize (H2 (tmax e) (in_map tmax cs e He)). lra.
  - apply in_flat_map. destruct H3 as [E|E]; [exists c; split; [left; reflexivity|]; rewrite E; apply K; left; reflexivity|].
    apply in_map_iff in E. destruct E as (e & E & He). exists e. split; [right; exact He|]. rewrite <- E. apply K. right. exact He.
Qed.

(** ** Options the program can start from *)
(** No cell centre is the origin: an even number of cells in a row, or a refined centre. *)
Definition centre_is_clear (o : options) : Prop := Z.Even (o_block_size o) \/ (0 < o_focus_factor o /\ 0 <= o_focus_index o)%R /\ 1 <= o_depth o.
Record usable (o : options) : Prop := mkusable {
  us_sound : sound o; us_mach : (1 <= o_mach_number o)%R;
  us_corner : (let X := sqrt 2 * o_domain_radius o / o_disk_radius o in 1 + X * (X - 1) <= o_mach_number o ^ 2)%R;
  us_block : 1 <= o_block_size o < 2147483647; us_depth : 0 <= o_depth o <= 30; us_domain : (0 < o_domain_radius o)%R;
  us_clear : centre_is_clear o }.
Definition levels (o : options) : nat := Z.to_nat (o_depth o).
Definition criterion (o : options) : nat -> R -> bool := refinement_radius (o_focus_factor o) (o_focus_index o).
(** The gas the profile puts at a point. *)
Definition gas (o : options) (p : R * R) : iprim := match disk_profile o p with Some P => P | None => IPrim 0 0 0 end.
Definition speed (P : iprim) : R := sqrt (HydroModel.vx P ^ 2 + HydroModel.vy P ^ 2).

Section Start.
Variables (o : options) (fuel : nat).
Hypothesis U : usable o.
Hypothesis HF : (4 ^ levels o < fuel)%nat.
Let N := o_block_size o.
Let r := o_domain_radius o.
Lemma start_n : 1 <= N < 2147483647. Proof. apply U. Qed.

Definition mesh_facts (v : tree (array (R * R))) : Prop :=
  vertices_of fuel o = Ok v /\ create_vertices fuel (criterion o) N (levels o) r = Ok v /\ wf_tree 2 v /\ balanced v /\ (depth v <= 30)%nat /\ regular N r v /\
  forall i b, is_node v i (Leaf b) -> forall k, inb [N; N] k -> disk_profile o (cell_point N r i k) = Some (gas o (cell_point N r i k)).
Lemma start_mesh : exists v, mesh_facts v.
Proof.
  pose proof start_n as HN. destruct U as [S M C B D P L]. assert (HD : (levels o <= 30)%nat) by (unfold levels; lia).
  destruct (mesh_is_regular (criterion o) N (levels o) r HN HD) as (v & E & W & Bv & Dv & Rv). exists v. specialize (E fuel HF). unfold mesh_facts, vertices_of.
  assert (E1 : w64 (o_block_size o) = N) by (apply w64_small; unfold two64; lia). assert (E2 : Z.to_nat (w64 (o_depth o)) = levels o) by (unfold levels; rewrite w64_small by (unfold two64; lia); reflexivity).
  rewrite E1, E2. split; [exact E|]. split; [exact E|]. split; [exact W|]. split; [exact Bv|]. split; [lia|]. split; [exact Rv|]. intros i b Hi k Hk.
  assert (Dv30 : (depth v <= 30)%nat) by lia. assert (HO : cell_point N r i k <> (0, 0)%R).
  { apply (center_off_origin N v r HN Dv30 Rv i b k P Hi Hk). destruct L as [L|[[L1 L2] L3]]; [left; exact L|right].
    destruct (le_lt_dec 1 (level i)) as [Hl|Hl]; [exact Hl|exfalso]. assert (El : level i = 0%nat) by lia.
    destruct (proj1 (mesh_refined_where_asked (criterion o) N (levels o) r v fuel HN HD HF (refinement_radius_antitone _ _ L2) E) i) as [cs Hcs].
    - split; [exact (proj1 Hi)|]. split; [unfold levels; lia|]. intros j Hj Cj. assert (Lj : level j = 0%nat) by (destruct Cj as [Cj _]; lia). assert (Ej : j = mkidx 0 [0%nat; 0%nat]).
      { destruct j as [l c]. cbn [level] in Lj. subst l. destruct Hj as [Hj1 Hj2]. cbn [coords level] in *. destruct c as [|a [|b' [|c' c]]]; try discriminate. pose proof (Forall_inv Hj2) as X1. pose proof (Forall_inv (Forall_inv_tail Hj2)) as X2. cbn in X1, X2. f_equal. f_equal; [lia|f_equal; lia]. }
      rewrite Ej, root_radius by lia. cbn [level]. unfold criterion. cbn [refinement_radius]. destruct (Rlt_dec (o_focus_index o) 0); [lra|]. destruct (Rlt_dec 0 (o_focus_index o)); [destruct (Rlt_dec 0 (o_focus_factor o)); [reflexivity|lra]|destruct (Rlt_dec 0 (o_focus_factor o)); [reflexivity|lra]].
    - destruct Hi as (_ & _ & Hi). rewrite Hcs in Hi. discriminate. }
  destruct (center_inside N v r HN Dv30 i b k P Hi Hk) as [A1 A2]. pose proof (disk_numbers_square o S M C _ HO A1 A2) as Q. unfold gas. destruct (disk_profile o (cell_point N r i k)); [reflexivity|contradiction].
Qed.

Lemma made_data {B} (v : tree B) (t : tree (array v3)) (F : idx -> list Z -> v3) : wf_tree 2 v -> (depth v <= 30)%nat -> same_shape v t ->
  (forall i y, is_node t i (Leaf y) -> reps y [N; N] (F i)) -> cell_data N v t.
Proof.
  intros W D Sh K. destruct (same_shape_wf v t W Sh) as [Wt Dt]. split; [exact Sh|]. apply Forall_forall. intros b Hb. destruct (leaf_node t b Wt ltac:(lia) Hb) as [i Hi]. exact (reps_data N b _ (K i b Hi)).
Qed.
Lemma gas_reps v i b c : mesh_facts v -> is_node v i (Leaf b) -> reps c [N; N] (cell_point N r i) -> reps (disk_block o c) [N; N] (fun k => gas o (cell_point N r i k)).
Proof. intros (_ & _ & _ & _ & _ & _ & G) Hi [C1 C2]. split; [exact C1|]. intros k Hk. cbn [disk_block aget]. rewrite C2 by exact Hk. bsimp. rewrite (G i b Hi k Hk). reflexivity. Qed.

(** What the first solution holds in a cell. *)
Definition first_u (p : R * R) : v3 := iso_conserved (gas o p).
Definition first_q (p : R * R) : v3 := iso_angmom (gas o p) (fst p) (snd p).
Definition lin : bool := truth (o_conserve_linear_p o).

Lemma start_solution v : mesh_facts v -> exists u q, create_solution fuel o = Ok (Solution 0 (if lin then u else empty_tree) (if lin then empty_tree else q) two_zero two_zero two_zero two_zero 0 0
        zero_elements zero_elements (elements_of_orbit (binary_params o))) /\ same_shape v u /\ same_shape v q /\
  (forall i y, is_node u i (Leaf y) -> reps y [N; N] (fun k => first_u (cell_point N r i k))) /\ (forall i y, is_node q i (Leaf y) -> reps y [N; N] (fun k => first_q (cell_point N r i k))).
Proof.
  intros M. pose proof M as (E & _ & W & _ & D & Rg & _). pose proof start_n as HN. unfold create_solution. rewrite E. bsimp.
  destruct (tree_result (fun b => do xc <- MeshModel.cell_centers b; forced (arr_map iso_conserved (disk_block o xc))) v (fun i y => reps y [N; N] (fun k => first_u (cell_point N r i k))) W D) as (u & Eu & Su & Ku).
  { intros i b Hi. destruct (center_reps N v r HN D Rg i b Hi) as (c & Ec & Rc). rewrite Ec. bsimp. pose proof (map_reps iso_conserved _ _ _ (gas_reps v i b c M Hi Rc)) as R1. rewrite (forced_reps N _ _ HN R1). eexists. split; [reflexivity|exact R1]. }
  rewrite Eu. bsimp.
  destruct (tree_result (fun b => do xc <- MeshModel.cell_centers b; do a <- zip_apply (fun x P => iso_angmom P (fst x) (snd x)) xc (disk_block o xc); forced a) v (fun i y => reps y [N; N] (fun k => first_q (cell_point N r i k))) W D) as (q & Eq & Sq & Kq).
  { intros i b Hi. destruct (center_reps N v r HN D Rg i b Hi) as (c & Ec & Rc). rewrite Ec. bsimp.
    destruct (zip_apply_reps (fun x P => iso_angmom P (fst x) (snd x)) c (disk_block o c) _ _ _ Rc (gas_reps v i b c M Hi Rc)) as (a & Ea & Ra). rewrite Ea. bsimp. rewrite (forced_reps N _ _ HN Ra). eexists. split; [reflexivity|exact Ra]. }
  rewrite Eq. bsimp. exists u, q. split; [reflexivity|]. auto.
Qed.

Lemma greatest_reps a F : reps a [N; N] F -> exists k, inb [N; N] k /\ greatest a = Ok (F k) /\ forall j, inb [N; N] j -> (F j <= F k)%R.
Proof.
  pose proof start_n as HN. intros [S1 V1]. assert (HT : 2147483647 < two64) by (unfold two64; lia). destruct (max_correct (volume_of (ashape a)) a F) as (k & H1 & H2 & H3).
  - rewrite S1. split; [discriminate|]. split; [repeat constructor; lia|unfold volume_of; lia].
  - intros k Hk. rewrite S1 in Hk. apply V1, Hk.
  - rewrite S1 in *. exists k. split; [exact H1|]. split; [|exact H3]. unfold greatest. rewrite S1. exact H2.
Qed.

(** What create_solver_data makes. *)
Lemma start_data v : mesh_facts v -> o_reconstruct_method o = "pcm"%string \/ o_reconstruct_method o = "plm"%string ->
  exists sd fd s w vm, create_solver_data fuel o = Ok (sd, fd) /\ create_solution fuel o = Ok s /\ vertices fd = v /\
    tmapM MeshModel.cell_areas v = Ok (cell_areas fd) /\ tmapM MeshModel.cell_centers v = Ok (cell_centers fd) /\
    (same_shape v (buffer_rate_field fd) /\ forall i y, is_node (buffer_rate_field fd) i (Leaf y) -> reps y [N; N] (fun k => buffer_rate o (cell_point N r i k))) /\
    initial_conserved_u fd = conserved_u s /\ initial_conserved_q fd = conserved_q s /\
    sd = Settings (o_sink_rate o) (w / Rmax 1 vm * o_cfl_number o) (o_softening_radius o)
    (o_source_term_softening o * w) (o_domain_radius o) (o_sink_radius o) (o_density_floor o * o_disk_mass o)
    (o_mach_number o) (o_alpha o) (o_alpha_cutoff_radius o) (o_nu o) (o_plm_theta o) (o_cfl_number o) (o_begin_live_binary o)
    (o_rk_order o) (truth (o_axisymmetric_cs2 o)) lin (truth (o_fixed_dt o)) (truth (o_no_accretion_force o)) N /\
    ((forall i, In i (leaves (indexes 2 v)) -> w <= cell_width N r i)%R /\ exists i, In i (leaves (indexes 2 v)) /\ w = cell_width N r i) /\
    ((forall i b k, is_node v i (Leaf b) -> inb [N; N] k -> speed (gas o (cell_point N r i k)) <= vm)%R /\
     exists i b k, is_node v i (Leaf b) /\ inb [N; N] k /\ vm = speed (gas o (cell_point N r i k))).
Proof.
  intros M HM. pose proof M as (E & _ & W & _ & D & Rg & _). pose proof start_n as HN. unfold create_solver_data. rewrite E. bsimp.
  destruct (tree_result MeshModel.cell_centers v (fun i c => reps c [N; N] (cell_point N r i)) W D (fun i b Hi => center_reps N v r HN D Rg i b Hi)) as (xc & Ex & Sx & Kx). rewrite Ex. bsimp.
  destruct (mesh_cells N r v HN W D Rg) as (dA & xc' & EA & _ & _). rewrite EA. bsimp.
  destruct (spacing_known N v r HN W D Rg 0 ltac:(lia)) as (dx & Edx & X1 & X2). destruct (spacing_known N v r HN W D Rg 1 ltac:(lia)) as (dy & Edy & Y1 & Y2). rewrite Edx. bsimp. rewrite Edy. bsimp.
  destruct (same_shape_wf v xc W Sx) as [Wx Dx].
  assert (Back : forall i c, is_node xc i (Leaf c) -> exists b, is_node v i (Leaf b)) by (intros i c Hc; exact (shape_leaf xc v i c Wx (shape_sym _ _ Sx) Hc)).
  destruct (tree_result (fun c => greatest (arr_map velocity_magnitude (disk_block o c))) xc (fun i y => exists k, inb [N; N] k /\ y = speed (gas o (cell_point N r i k)) /\ forall j, inb [N; N] j -> (speed (gas o (cell_point N r i j)) <= y)%R) Wx ltac:(lia)) as (m & Em & Sm & Km).
  { intros i c Hc. destruct (Back i c Hc) as [b Hb]. destruct (greatest_reps _ _ (map_reps velocity_magnitude _ _ _ (gas_reps v i b c M Hb (Kx i c Hc)))) as (k & K1 & K2 & K3). rewrite K2. eexists. split; [reflexivity|].
    assert (SV : forall P, velocity_magnitude P = speed P) by (intros P; unfold velocity_magnitude, speed; f_equal; ring). exists k. split; [exact K1|]. split; [apply SV|]. intros j Hj. rewrite <- SV. apply K3, Hj. }
  rewrite Em. bsimp.
  destruct (tree_result (fun c => forced (arr_map (buffer_rate o) c)) xc (fun i y => reps y [N; N] (fun k => buffer_rate o (cell_point N r i k))) Wx ltac:(lia)) as (br & Eb & Sb & Kb).
  { intros i c Hc. pose proof (map_reps (buffer_rate o) _ _ _ (Kx i c Hc)) as R1. rewrite (forced_reps N _ _ HN R1). eexists. split; [reflexivity|exact R1]. }
  rewrite Eb. bsimp. destruct (start_solution v M) as (u & q & Es & _). rewrite Es. bsimp.
  assert (HMB : (String.eqb (o_reconstruct_method o) "pcm" || String.eqb (o_reconstruct_method o) "plm")%bool = true) by (destruct HM as [-> | ->]; reflexivity). rewrite HMB.
  assert (HW : w64 (o_block_size o) = N) by (apply w64_small; unfold N in HN; unfold two64; lia). rewrite HW.
  eexists _, _, _, (Rmin dx dy), (tmax m). split; [reflexivity|]. split; [reflexivity|]. cbn [vertices cell_areas cell_centers buffer_rate_field initial_conserved_u initial_conserved_q conserved_u conserved_q].
  split; [reflexivity|]. split; [reflexivity|]. split; [reflexivity|]. split; [split; [exact (shape_trans _ _ _ Sx Sb)|exact Kb]|]. split; [reflexivity|]. split; [reflexivity|]. split; [reflexivity|]. split.
  - split; [intros i Hi; pose proof (Rmin_l dx dy); specialize (X1 i Hi); lra|]. unfold Rmin. destruct (Rle_dec dx dy); assumption.
  - destruct (same_shape_wf xc m Wx Sm) as [Wm Dm]. destruct (tmax_leaves m Wm) as [T1 T2]. split.
    + intros i b k Hb Hk. destruct (shape_leaf v m i b W (shape_trans _ _ _ Sx Sm) Hb) as [y Hy]. destruct (Km i y Hy) as (k' & _ & _ & Q). specialize (T1 y (node_leaves m i y Wm Hy)). specialize (Q k Hk). lra.
    + destruct (leaf_node m _ Wm ltac:(lia) T2) as [i Hi]. destruct (Km i _ Hi) as (k & K1 & K2 & _). destruct (shape_leaf m v i _ Wm (shape_sym _ _ (shape_trans _ _ _ Sx Sm)) Hi) as [b Hb]. exists i, b, k. auto.
Qed.
End Start.

(** ** C94 *)
Theorem binary_starts o fuel : usable o -> o_reconstruct_method o = "pcm"%string \/ o_reconstruct_method o = "plm"%string -> (4 ^ levels o < fuel)%nat ->
  let N := o_block_size o in exists sd fd s,
  create_solver_data fuel o = Ok (sd, fd) /\ create_solution fuel o = Ok s /\ setup N (levels o) (criterion o) fuel sd fd /\ valid N sd fd s /\
  conserved sd s = (if conserve_linear_p sd then initial_conserved_u fd else initial_conserved_q fd) /\
  time s = 0%R /\ both (s_mass_accreted_on s) = 0%R /\ s_mass_ejected s = 0%R /\ both (s_angular_momentum_accreted_on s) = 0%R /\ both (s_integrated_torque_on s) = 0%R /\ s_angular_momentum_ejected s = 0%R /\
  forall i b k, is_node (conserved sd s) i (Leaf b) -> inb [N; N] k ->
    let p := cell_point N (domain_radius sd) i k in exists P, disk_profile o p = Some P /\ (0 < sigma P)%R /\ aget b k = Ok (if conserve_linear_p sd then iso_conserved P else iso_angmom P (fst p) (snd p)).
Proof.
  intros U HM HF N. destruct (start_mesh o fuel U HF) as (v & M). destruct (start_data o fuel U HF v M HM) as (sd & fd & s & w & vm & ED & ES & Ev & EA & EX & [SB KB] & E1 & E2 & Esd & _ & _).
  destruct (start_solution o fuel U v M) as (u & q & Es & Su & Sq & Ku & Kq). rewrite ES in Es. injection Es as ->. pose proof (start_n o U) as HN. destruct M as (Ef & Ec & W & B & D & Rg & G).
  cbn [conserved_u conserved_q] in E1, E2. pose proof U as [S _ _ _ UD UR _].
  assert (EL : conserve_linear_p sd = lin o) by (rewrite Esd; reflexivity). assert (ER : domain_radius sd = o_domain_radius o) by (rewrite Esd; reflexivity).
  set (s := Solution _ _ _ _ _ _ _ _ _ _ _ _) in *. assert (EC : conserved sd s = if lin o then u else q) by (unfold conserved, s; cbn [conserved_u conserved_q]; rewrite EL; destruct (lin o); reflexivity).
  pose proof (made_data o fuel HF v u _ W D Su Ku) as Du. pose proof (made_data o fuel HF v q _ W D Sq Kq) as Dq.
  assert (DC : cell_data N v (conserved sd s)) by (rewrite EC; destruct (lin o); assumption).
  assert (EI : (if conserve_linear_p sd then initial_conserved_u fd else initial_conserved_q fd) = conserved sd s) by (rewrite E1, E2; reflexivity).
  assert (VAL : forall i b k, is_node (conserved sd s) i (Leaf b) -> inb [N; N] k -> exists P, disk_profile o (cell_point N (o_domain_radius o) i k) = Some P /\ (0 < sigma P)%R /\
    aget b k = Ok (if conserve_linear_p sd then iso_conserved P else iso_angmom P (fst (cell_point N (o_domain_radius o) i k)) (snd (cell_point N (o_domain_radius o) i k)))).
  { intros i b k Hi Hk. assert (SC : same_shape v (conserved sd s)) by exact (proj1 DC). destruct (same_shape_wf _ _ W SC) as [Wc Dc]. destruct (shape_leaf _ v i b Wc (shape_sym _ _ SC) Hi) as [c Hc].
    pose proof (G i c Hc k Hk) as EG. eexists. split; [exact EG|]. split.
    - unfold gas. rewrite EG. unfold disk_profile in EG. cbv zeta in EG. destruct (Req_EM_T _ 0) in EG; [discriminate|]. destruct (Rlt_dec _ 0) in EG; [discriminate|]. injection EG as EG. rewrite <- EG. cbn [sigma]. apply sigma_pos, S.
    - rewrite EC in Hi. rewrite EL. destruct (lin o); [exact (proj2 (Ku i b Hi) k Hk)|exact (proj2 (Kq i b Hi) k Hk)]. }
  exists sd, fd, s. split; [exact ED|]. split; [exact ES|]. split.
  { constructor; [exact HN|rewrite Esd; reflexivity|unfold levels; lia|exact HF|rewrite ER; exact UR|rewrite ER, Ev; exact Ec|rewrite Ev; exact EA|rewrite Ev; exact EX| |rewrite Ev, EI; exact DC].
    rewrite Ev. split; [exact SB|]. destruct (same_shape_wf _ _ W SB) as [Wb Db]. apply Forall_forall. intros b Hb. destruct (leaf_node _ b Wb ltac:(lia) Hb) as [i Hi]. exact (reps_data N b _ (KB i b Hi)). }
  split.
  { split; [unfold on_mesh; rewrite Ev; exact DC|]. split.
    - unfold densities. destruct (same_shape_wf _ _ W (proj1 DC)) as [Wc Dc]. apply Forall_forall. intros b Hb k x Hk Ex. destruct (leaf_node _ b Wc ltac:(lia) Hb) as [i Hi]. destruct (VAL i b k Hi Hk) as (P & _ & HP & EP).
      rewrite EP in Ex. injection Ex as <-. destruct (conserve_linear_p sd); cbn [d0 iso_conserved iso_angmom]; lra.
    - unfold is_empty, unused, s. cbn [conserved_u conserved_q]. rewrite EL. destruct (lin o); eexists; split; reflexivity. }
  split; [symmetry; exact EI|]. unfold both, s. cbn [time s_mass_accreted_on s_mass_ejected s_angular_momentum_accreted_on s_integrated_torque_on s_angular_momentum_ejected two_zero fst snd].
  do 6 (split; [lra|]). rewrite ER. exact VAL.
Qed.

(** The step is the width of the smallest cells, over the fastest gas or 1, times the Courant number: no gas crosses more
    than that part of any cell. *)
Theorem binary_first_step o fuel sd fd : usable o -> (4 ^ levels o < fuel)%nat -> create_solver_data fuel o = Ok (sd, fd) -> (0 < o_cfl_number o)%R ->
  let N := o_block_size o in let inside i k := (exists b, is_node (vertices fd) i (Leaf b)) /\ inb [N; N] k in
  let gas_at i k P := disk_profile o (cell_point N (domain_radius sd) i k) = Some P in
  (0 < recommended_time_step sd)%R /\
  (forall i k P, inside i k -> gas_at i k P -> forall j b, is_node (vertices fd) j (Leaf b) -> speed P * recommended_time_step sd <= o_cfl_number o * cell_width N (domain_radius sd) j)%R /\
  exists j i k P, (exists b, is_node (vertices fd) j (Leaf b)) /\ inside i k /\ gas_at i k P /\
    (recommended_time_step sd * Rmax 1 (speed P) = o_cfl_number o * cell_width N (domain_radius sd) j)%R /\ gst_suppr_radius sd = (o_source_term_softening o * cell_width N (domain_radius sd) j)%R.
Proof.
  intros U HF E HC N inside gas_at. destruct (start_mesh o fuel U HF) as (v & M).
  assert (HM : o_reconstruct_method o = "pcm"%string \/ o_reconstruct_method o = "plm"%string).
  { unfold create_solver_data in E. repeat match type of E with context [bind ?m _] => destruct m; [cbn [bind] in E|discriminate E|discriminate E|discriminate E] end.
    destruct (String.eqb (o_reconstruct_method o) "pcm") eqn:E1; [left; apply String.eqb_eq; exact E1|]. destruct (String.eqb (o_reconstruct_method o) "plm") eqn:E2; [right; apply String.eqb_eq; exact E2|discriminate E]. }
  destruct (start_data o fuel U HF v M HM) as (sd' & fd' & s & w & vm & ED & _ & Ev & _ & _ & _ & _ & _ & Esd & [W1 W2] & [V1 V2]). rewrite ED in E. injection E as -> ->.
  destruct M as (_ & _ & W & _ & D & _ & G). pose proof (start_n o U) as HN. destruct U as [S _ _ _ UD UR _]. fold N in W1, W2, V1, V2, G, HN. unfold inside, gas_at. rewrite Ev, Esd. cbn [recommended_time_step domain_radius gst_suppr_radius].
  set (r := o_domain_radius o) in *.
  assert (CW : forall i, (0 < cell_width N r i)%R). { intros i. unfold cell_width. assert (0 < IZR N)%R by (apply IZR_lt; lia). pose proof (pow_lt 2 (level i) ltac:(lra)). apply Rdiv_lt_0_compat; [lra|]. apply Rmult_lt_0_compat; assumption. }
  pose proof (Rmax_l 1 vm) as M1. pose proof (Rmax_r 1 vm) as M2. set (mx := Rmax 1 vm) in *. assert (Hw : (0 < w)%R) by (destruct W2 as (i & _ & ->); apply CW).
  assert (Q : (w / mx * o_cfl_number o * mx = o_cfl_number o * w)%R) by (field; lra). assert (P0 : (0 < w / mx * o_cfl_number o)%R) by (apply Rmult_lt_0_compat; [apply Rdiv_lt_0_compat; lra|lra]).
  split; [exact P0|]. split.
  - intros i k P [[b Hb] Hk] EP j c Hj. specialize (W1 j (leaf_in v W j c Hj)). specialize (V1 i b k Hb Hk). rewrite (G i b Hb k Hk) in EP. injection EP as EP. rewrite EP in V1.
    apply Rle_trans with (o_cfl_number o * w)%R; [|apply Rmult_le_compat_l; lra]. rewrite <- Q, Rmult_comm. apply Rmult_le_compat_l; lra.
  - destruct W2 as (j & Hj & Ew). destruct (in_leaf v W ltac:(lia) j Hj) as [c Hc]. destruct V2 as (i & b & k & Hb & Hk & Evm). exists j, i, k, (gas o (cell_point N r i k)).
    split; [eauto|]. split; [split; [eauto|exact Hk]|]. split; [exact (G i b Hb k Hk)|]. rewrite <- Evm, <- Ew. fold mx. split; [exact Q|reflexivity].
Qed.

(** Another method of reconstruction is refused. *)
Theorem binary_method_refused o fuel : usable o -> (4 ^ levels o < fuel)%nat -> o_reconstruct_method o <> "pcm"%string -> o_reconstruct_method o <> "plm"%string ->
  create_solver_data fuel o = Throw InvalidArgument.
Proof.
  intros U HF H1 H2. set (o' := Options (o_cfl_number o) (o_fixed_dt o) (o_depth o) (o_begin_live_binary o) (o_conserve_linear_p o) (o_block_size o)
    (o_focus_factor o) (o_focus_index o) (o_rk_order o) "pcm" (o_plm_theta o) (o_source_term_softening o) (o_softening_radius o) (o_sink_radius o) (o_sink_rate o) (o_buffer_damping_rate o)
    (o_domain_radius o) (o_disk_radius o) (o_disk_mass o) (o_ambient_density o) (o_density_floor o) (o_separation o) (o_mass_ratio o) (o_eccentricity o) (o_counter_rotate o) (o_mach_number o) (o_axisymmetric_cs2 o)
    (o_no_accretion_force o) (o_alpha_cutoff_radius o) (o_alpha o) (o_nu o) (o_mdot o)).
  assert (U' : usable o') by (destruct U as [[A1 A2 A3 A4 A5] B C D E F G]; constructor; [constructor; assumption|assumption..]).
  destruct (binary_starts o' fuel U' (or_introl eq_refl) HF) as (sd & fd & s & E & _).
  assert (E' : (if String.eqb (o_reconstruct_method o') "pcm" || String.eqb (o_reconstruct_method o') "plm" then create_solver_data fuel o' else Throw InvalidArgument) = Ok (sd, fd)) by exact E. clear E'.
  assert (N1 : String.eqb (o_reconstruct_method o) "pcm" = false) by (apply String.eqb_neq; exact H1). assert (N2 : String.eqb (o_reconstruct_method o) "plm" = false) by (apply String.eqb_neq; exact H2).
  unfold create_solver_data in E |- *. rewrite N1, N2. cbn [orb]. 
  change (vertices_of fuel o') with (vertices_of fuel o) in E. change (create_solution fuel o') with (create_solution fuel o) in E. change (disk_block o') with (disk_block o) in E. change (buffer_rate o') with (buffer_rate o) in E.
  repeat match type of E with context [bind ?m _] => destruct m; [cbn [bind] in E |- *|discriminate E|discriminate E|discriminate E] end. reflexivity.
Qed.

(** An odd number of cells in a row and no refinement: the middle cell is at the origin, where the profile is not a number. *)
Lemma for_each_reads {A} (a : array A) N : ashape a = [N; N] -> 1 <= N < 2147483647 -> (exists b, forced a = Ok b) -> forall k, inb [N; N] k -> exists x, aget a k = Ok x.
Proof.
  intros S1 HN [b E] k Hk. unfold forced, volume_of in E. rewrite S1 in E. assert (HT : 2147483647 < two64) by (unfold two64; lia). rewrite for_each_shape in E; [|repeat constructor; lia|discriminate|lia].
  apply bind_ok_inv in E. destruct E as (x & E & _).
  apply (SedovProofs.foldM_reads _ (fun i => exists x, aget a i = Ok x)) in E; [rewrite Forall_forall in E; apply E, idxs_In, Hk|]. intros s i s' Es. cbv beta in Es. destruct (aget a i); [eauto|discriminate..].
Qed.
Theorem binary_starts_refuted o fuel : sound o -> Z.Odd (o_block_size o) -> 1 <= o_block_size o < 2147483647 -> o_depth o = 0 -> (0 < o_domain_radius o)%R -> (1 < fuel)%nat -> forall s, create_solution fuel o <> Ok s.
Proof.
  intros S [h Hh] HN HD HR HF s E. set (N := o_block_size o) in *. destruct (mesh_is_regular (criterion o) N 0 (o_domain_radius o) HN ltac:(lia)) as (v & Ev & W & _ & Dv & Rg). specialize (Ev fuel HF).
  unfold create_solution, vertices_of in E. rewrite HD in E. change (w64 0) with 0 in E. change (Z.to_nat 0) with 0%nat in E. rewrite w64_small in E by (fold N; unfold two64; lia). fold (criterion o) N in E. rewrite Ev in E. cbn [bind] in E.
  destruct v as [b|cs]; [|cbn in Dv; lia]. assert (Hi : is_node (Leaf b) (root_index 2) (Leaf b)) by (split; [split; [reflexivity|repeat constructor]|split; [cbn; lia|reflexivity]]).
  destruct (center_reps N (Leaf b) (o_domain_radius o) HN ltac:(cbn; lia) Rg (root_index 2) b Hi) as (c & Ec & Rc). cbn [tmapM] in E. rewrite Ec in E. cbn [bind] in E.
  destruct (forced (arr_map iso_conserved (disk_block o c))) as [a| | |] eqn:EF; try discriminate E. clear E.
  assert (IK : inb [N; N] [h; h]) by (repeat constructor; lia). destruct (for_each_reads (arr_map iso_conserved (disk_block o c)) N (proj1 Rc) HN (ex_intro _ _ EF) [h; h] IK) as [x Ex].
  cbn [arr_map disk_block aget] in Ex. rewrite (proj2 Rc _ IK) in Ex. cbn [bind] in Ex.
  assert (EO : cell_point N (o_domain_radius o) (root_index 2) [h; h] = (0, 0)%R).
  { assert (EN : IZR N = (2 * IZR h + 1)%R) by (rewrite Hh, plus_IZR, mult_IZR; reflexivity). assert (0 < IZR N)%R by (apply IZR_lt; lia).
    unfold cell_point, point_in, MeshSpec.place. cbn [root_index level coords repeat nth Z.of_nat Z.mul pow]. rewrite EN in *. f_equal; field; lra. }
  rewrite EO, (proj2 (disk_numbers o (0, 0)%R S) (or_introl eq_refl)) in Ex. discriminate Ex.
Qed.

(** ** The buffer zone *)
Open Scope R_scope.
Lemma tanh_logistic x : 1 + tanh x = 2 / (1 + exp (- 2 * x)).
Proof.
  unfold tanh, sinh, cosh. pose proof (exp_pos x) as H1. pose proof (exp_pos (- x)) as H2. assert (H3 : exp x * exp (- x) = 1) by (rewrite <- exp_plus, Rplus_opp_r; apply exp_0).
  replace (- 2 * x) with (- x + - x) by ring. rewrite exp_plus. set (a := exp x) in *. set (b := exp (- x)) in *. pose proof (Rmult_lt_0_compat _ _ H2 H2).
  apply Rmult_eq_reg_r with ((a + b) * (1 + b * b)); [|nra]. replace ((1 + (a - b) / 2 / ((a + b) / 2)) * ((a + b) * (1 + b * b))) with (2 * a + 2 * (a * b) * b) by (field; lra).
  replace (2 / (1 + b * b) * ((a + b) * (1 + b * b))) with (2 * a + 2 * b) by (field; nra). rewrite H3. ring.
Qed.
(** The rate grows outward, is the configured one on the circle in the square, and twice that is an upper bound. *)
Theorem buffer_rates o : 0 < o_buffer_damping_rate o ->
  (forall p, 0 < buffer_rate o p < 2 * o_buffer_damping_rate o) /\ (forall p, radius p = o_domain_radius o -> buffer_rate o p = o_buffer_damping_rate o) /\
  (forall p q, radius p < radius q -> buffer_rate o p < buffer_rate o q).
Proof.
  intros H. assert (K : forall p, buffer_rate o p = o_buffer_damping_rate o * (2 / (1 + exp (- 2 * (3 * (radius p - o_domain_radius o)))))).
  { intros p. unfold buffer_rate. cbv zeta. fold (radius p). rewrite tanh_logistic. reflexivity. }
  assert (L : forall e f, 0 < e -> e < f -> 2 / (1 + f) < 2 / (1 + e)). { intros e f He Hf. unfold Rdiv. apply Rmult_lt_compat_l; [lra|]. apply Rinv_lt_contravar; [nra|lra]. }
  split; [|split].
  - intros p. rewrite K. set (x := - 2 * _). pose proof (exp_pos x) as Hx. assert (0 < 2 / (1 + exp x)) by (apply Rdiv_lt_0_compat; lra).
    assert (2 / (1 + exp x) < 2). { apply Rmult_lt_reg_r with (1 + exp x); [lra|]. unfold Rdiv. rewrite Rmult_assoc, Rinv_l by lra. lra. } split; [nra|]. rewrite Rmult_comm. apply Rmult_lt_compat_r; assumption.
  - intros p E. rewrite K, E. replace (- 2 * (3 * (o_domain_radius o - o_domain_radius o))) with 0 by ring. rewrite exp_0. field.
  - intros p q Hr. rewrite !K. apply Rmult_lt_compat_l; [exact H|]. apply L; [apply exp_pos|]. apply exp_increasing. lra.
Qed.
(** The option calls itself the maximum rate; the corners of the square are damped faster. *)
Theorem buffer_rates_refuted o : 0 < o_buffer_damping_rate o -> (exists p, Rabs (fst p) < o_domain_radius o /\ Rabs (snd p) < o_domain_radius o) ->
  exists p, Rabs (fst p) < o_domain_radius o /\ Rabs (snd p) < o_domain_radius o /\ o_buffer_damping_rate o < buffer_rate o p.
Proof.
  intros H (q & Hq & _). pose proof (Rabs_pos (fst q)) as H0. set (R := o_domain_radius o) in *. assert (HR : 0 < R) by lra. exists (9 / 10 * R, 9 / 10 * R). cbn [fst snd]. rewrite Rabs_pos_eq by lra.
  split; [lra|]. split; [lra|]. destruct (buffer_rates o H) as (_ & B2 & B3). assert (EZ : radius (R, 0) = R) by (unfold radius; cbn [fst snd]; replace (R * R + 0 * 0) with (R * R) by ring; apply sqrt_square; lra).
  rewrite <- (B2 (R, 0) EZ). apply B3. rewrite EZ. unfold radius. cbn [fst snd]. rewrite <- (sqrt_square R) at 1 by lra. apply sqrt_lt_1; nra.
Qed.
(** The buffer does nothing to the first solution. *)
Theorem buffer_idle_at_start N (a : array v3) (br : array R) F G dt : reps a [N; N] F -> reps br [N; N] G -> exists z, buffer a a br dt = Ok z /\ reps z [N; N] (fun _ => V3 0 0 0).
Proof.
  intros Ha Hb. unfold buffer. destruct (binary_reps_gen v3_sub a a _ _ _ Ha Ha) as (d & Ed & Rd). rewrite Ed. bsimp. destruct (binary_reps_gen v3_mul d br _ _ _ Rd Hb) as (k & Ek & Rk). rewrite Ek. bsimp.
  eexists. split; [reflexivity|]. apply (reps_ext _ _ _ _ (map_reps (fun u => v3_mul u dt) _ _ _ Rk)). intros i _. unfold v3_mul, v3_sub. cbn [d0 d1 d2]. f_equal; ring.
Qed.

(** From the options to the end of a run: the run stays in valid states, and nothing is lost of the mass the disk had at
    first (with a sound speed that depends on the radius only and no density floor; in the angular momentum scheme, of
    the angular momentum, too). *)
Theorem binary_run o fuel sd fd s0 n s : usable o -> (4 ^ levels o < fuel)%nat -> create_solver_data fuel o = Ok (sd, fd) -> create_solution fuel o = Ok s0 -> steps sd fd fuel n s0 = Ok s ->
  let N := o_block_size o in valid N sd fd s /\
  (o_axisymmetric_cs2 o <> 0%Z -> o_density_floor o = 0 -> held d0 N (conserved sd s) (cell_areas fd) + both (s_mass_accreted_on s) + s_mass_ejected s = held d0 N (conserved sd s0) (cell_areas fd)) /\
  (o_conserve_linear_p o = 0%Z -> held d2 N (conserved sd s) (cell_areas fd) + both (s_angular_momentum_accreted_on s) + both (s_integrated_torque_on s) + s_angular_momentum_ejected s = held d2 N (conserved sd s0) (cell_areas fd)) /\
  (0 <= o_sink_rate o -> 0 < o_cfl_number o -> o_conserve_linear_p o <> 0%Z \/ o_fixed_dt o <> 0%Z -> 0 <= time s /\ 0 <= fst (s_mass_accreted_on s) /\ 0 <= snd (s_mass_accreted_on s)).
Proof.
  intros U HF E1 E2 ER N.
  assert (HM : o_reconstruct_method o = "pcm"%string \/ o_reconstruct_method o = "plm"%string).
  { pose proof E1 as E. unfold create_solver_data in E. repeat match type of E with context [bind ?m _] => destruct m; [cbn [bind] in E|discriminate E|discriminate E|discriminate E] end.
    destruct (String.eqb (o_reconstruct_method o) "pcm") eqn:X1; [left; apply String.eqb_eq; exact X1|]. destruct (String.eqb (o_reconstruct_method o) "plm") eqn:X2; [right; apply String.eqb_eq; exact X2|discriminate E]. }
  destruct (binary_starts o fuel U HM HF) as (sd' & fd' & s' & D1 & D2 & HS & V & _ & T0 & L1 & L2 & L3 & L4 & L5 & _). rewrite E1 in D1. injection D1 as <- <-. rewrite E2 in D2. injection D2 as <-. fold N in HS, V.
  destruct (start_mesh o fuel U HF) as (v & M). destruct (start_data o fuel U HF v M HM) as (sd' & fd' & s' & w & vm & ED & ES & _ & _ & _ & _ & _ & _ & Esd & _). rewrite E1 in ED. injection ED as <- <-. rewrite E2 in ES. injection ES as <-. clear M.
  assert (A0 : axisymmetric_cs2 sd = truth (o_axisymmetric_cs2 o)) by (rewrite Esd; reflexivity). assert (F0 : density_floor sd = o_density_floor o * o_disk_mass o) by (rewrite Esd; reflexivity).
  assert (C0 : conserve_linear_p sd = truth (o_conserve_linear_p o)) by (rewrite Esd; reflexivity). assert (K0 : sink_rate sd = o_sink_rate o) by (rewrite Esd; reflexivity). assert (X0 : fixed_dt sd = truth (o_fixed_dt o)) by (rewrite Esd; reflexivity).
  assert (Y0 : cfl_number sd = o_cfl_number o) by (rewrite Esd; reflexivity). clear Esd.
  assert (TR : forall z, z <> 0%Z -> truth z = true) by (intros z Hz; unfold truth; destruct (Z.eqb_spec z 0); [contradiction|reflexivity]).
  split; [exact (SolutionProps.run_keeps_valid N _ _ fuel sd fd HS n s0 s V ER)|]. split; [|split].
  - intros HA H0. pose proof (SolutionProps.mass_run N _ _ fuel sd fd HS ltac:(rewrite A0; apply TR, HA) ltac:(intros _; rewrite F0, H0; lra) n s0 s V ER) as Q. unfold mass_ledger in Q. rewrite L1, L2 in Q. lra.
  - intros HC. assert (CF : conserve_linear_p sd = false) by (rewrite C0, HC; reflexivity). pose proof (SolutionProps.angular_momentum_run N _ _ fuel sd fd HS CF n s0 s V ER) as Q. unfold angular_momentum_ledger in Q. unfold conserved. rewrite CF. rewrite L3, L4, L5 in Q. lra.
  - intros HK HC HX. destruct (binary_first_step o fuel sd fd U HF E1 HC) as [HR _].
    destruct (SolutionProps.accretion_run N _ _ fuel sd fd HS ltac:(rewrite K0; exact HK) ltac:(lra) ltac:(rewrite Y0; lra) ltac:(rewrite C0, X0; destruct HX as [H|H]; [left|right]; apply TR, H) n s0 s V ER) as (Q1 & Q2 & Q3).
    assert (Z1 : s_mass_accreted_on s0 = (0, 0)). { clear - E2. unfold create_solution in E2. repeat match type of E2 with context [bind ?m _] => destruct m; [cbn [bind] in E2|discriminate E2|discriminate E2|discriminate E2] end. injection E2 as <-. reflexivity. }
    rewrite Z1 in Q1, Q2. cbn [fst snd] in Q1, Q2. rewrite T0 in Q3. auto.
Qed.

(** ** The density floor: the option is relative to the mass of the disk, not to the largest density. *)
Theorem density_floor_refuted o fuel sd fd : sound o -> create_solver_data fuel o = Ok (sd, fd) ->
  let largest := disk_sigma o (o_disk_radius o) in (forall r, disk_sigma o r <= largest) /\
  density_floor sd = o_density_floor o * largest * (170618 / 10000 * o_disk_radius o ^ 2 / (1 + o_ambient_density o)).
Proof.
  intros S E largest. split.
  - intros r. unfold largest. rewrite !sigma_split. pose proof (s0_pos o S). apply Rmult_le_compat_l; [lra|]. apply Rplus_le_compat_r. replace (o_disk_radius o / o_disk_radius o) with 1 by (destruct S; field; lra).
    assert (X : - ((r / o_disk_radius o - 1) ^ 2) / 2 <= - ((1 - 1) ^ 2) / 2) by (pose proof (pow2_ge_0 (r / o_disk_radius o - 1)); lra). destruct X as [X|X]; [left; apply exp_increasing; exact X|right; rewrite X; reflexivity].
  - unfold create_solver_data in E. repeat match type of E with context [bind ?m _] => destruct m; [cbn [bind] in E|discriminate E|discriminate E|discriminate E] end.
    destruct (_ || _)%bool in E; [|discriminate E]. injection E as E _. rewrite <- E. cbn [density_floor]. unfold largest. rewrite sigma_split. replace (o_disk_radius o / o_disk_radius o) with 1 by (destruct S; field; lra).
    replace (- ((1 - 1) ^ 2) / 2) with 0 by field. rewrite exp_0. unfold disk_s0. destruct S. field. lra.
Qed.

(** ** Examples *)
Lemma default_sound : sound default_options. Proof. constructor; cbn; lra. Qed.
Example default_usable : usable default_options.
Proof.
  constructor; [exact default_sound|cbn; lra| |cbn; lia|cbn; lia|cbn; lra|left; exists 12%Z; reflexivity]. cbn. assert (0 <= sqrt 2) by apply sqrt_pos. assert (sqrt 2 * sqrt 2 = 2) by (apply sqrt_sqrt; lra). nra.
Qed.
Example default_starts fuel : (4 ^ 4 < fuel)%nat -> exists sd fd s, create_solver_data fuel default_options = Ok (sd, fd) /\ create_solution fuel default_options = Ok s /\
  setup 24 4 (refinement_radius 2 2) fuel sd fd /\ valid 24 sd fd s.
Proof. intros HF. destruct (binary_starts default_options fuel default_usable (or_intror eq_refl) HF) as (sd & fd & s & H1 & H2 & H3 & H4 & _). exists sd, fd, s. auto. Qed.
(** With 25 cells in a row and no refinement the first solution is not a number. *)
Definition odd_options : options :=
  Options (4 / 10) 0 0 1000000 1 25 2 2 2 "plm" (18 / 10) 1 (5 / 100) (5 / 100) 1 10 12 2 (1 / 1000) (1 / 10000) 0 1 1 0 0 10 0 0 0 (1 / 10) 0 0.
Example odd_fails s : create_solution 2 odd_options <> Ok s.
Proof. apply binary_starts_refuted; [constructor; cbn; lra|exists 12%Z; reflexivity|cbn; lia|reflexivity|cbn; lra|lia]. Qed.
Example default_corner : buffer_rate default_options (12, 12) > 10.
Proof.
  destruct (buffer_rates default_options ltac:(cbn; lra)) as (_ & B2 & B3). assert (E : radius (12, 0) = 12) by (unfold radius; cbn [fst snd]; replace (12 * 12 + 0 * 0) with (12 * 12) by ring; apply sqrt_square; lra).
  apply Rlt_gt. pose proof (B2 (12, 0) E) as B. cbn in B. rewrite <- B. apply B3. rewrite E. unfold radius. cbn [fst snd]. rewrite <- (sqrt_square 12) at 1 by lra. apply sqrt_lt_1; lra.
Qed.
Print Assumptions binary_starts.
Print Assumptions binary_first_step.
Print Assumptions binary_run.
Print Assumptions binary_method_refused.
Print Assumptions binary_starts_refuted.
Print Assumptions buffer_rates.
Print Assumptions buffer_rates_refuted.
Print Assumptions buffer_idle_at_start.
Print Assumptions density_floor_refuted.
