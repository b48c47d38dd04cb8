(** Trees of blocks: sums over leaves, and the mesh of a set-up program. *)
From Coq Require Import ZArith Reals Lra List Arith Bool Lia.
From Verif Require Import Base TreeModel TreeSpec TreeProofs TreeProofs3 TreeProofs4 BalanceModel BalanceSpec NdModel NdSpec NdProofs NdOpsModel ProlongProofs FluxModel FluxSpec FluxTreeProofs FluxProofs FluxProofs3 FluxProofs4 FluxProofs5
  GuardSpec GuardProofs2 MeshModel MeshSpec MeshProps StepSpec StepProofs StepProofs2 StepProofs3 TwoBodyModel HydroModel SourceModel SourceProofs SolutionModel SolutionSpec.
Import ListNotations.
Open Scope Z_scope.

(** ** Leaves in pairs *)
Lemma leaf2 {A B} (t : tree A) (u : tree B) (P : A -> B -> Prop) : wf_tree 2 t -> (depth t <= 30)%nat -> same_shape t u ->
  (forall i x y, is_node t i (Leaf x) -> is_node u i (Leaf y) -> P x y) -> Forall2 P (leaves t) (leaves u).
Proof.
  intros W D SS H. destruct (same_shape_wf t u W SS) as [Wu Du].
  assert (Q : forall n m i, is_node t i n -> is_node u i m -> same_shape n m -> Forall2 P (leaves n) (leaves m)).
  { induction n as [x|cs IH] using tree_ind'; intros m i Hn Hm S0; inversion S0; subst.
    - cbn [leaves]. constructor; [|constructor]. eapply H; eassumption.
    - cbn [leaves]. assert (HC : forall k c, nth_error cs k = Some c -> is_node t (child_index i k) c) by (intros k c; apply (is_node_child t W ltac:(lia) i cs k c Hn)).
      assert (HD : forall k c, nth_error ds k = Some c -> is_node u (child_index i k) c) by (intros k c; apply (is_node_child u Wu ltac:(lia) i ds k c Hm)).
      assert (G : forall cs' ds' o, Forall2 same_shape cs' ds' -> Forall (fun n => forall m i, is_node t i n -> is_node u i m -> same_shape n m -> Forall2 P (leaves n) (leaves m)) cs' ->
        (forall k c, nth_error cs' k = Some c -> is_node t (child_index i (o + k)) c) -> (forall k c, nth_error ds' k = Some c -> is_node u (child_index i (o + k)) c) ->
        Forall2 P (flat_map leaves cs') (flat_map leaves ds')).
      { clear. intros cs' ds' o F. revert o. induction F as [|c d cs' ds' Hs F IHF]; intros o HI C1 C2; [constructor|]. cbn [flat_map]. apply Forall2_app.
        - inversion HI; subst. apply (H1 d (child_index i (o + 0))); [apply C1; reflexivity|apply C2; reflexivity|exact Hs].
        - inversion HI; subst. apply (IHF (S o)); [assumption| |]; intros k e Hk; replace (S o + k)%nat with (o + S k)%nat by lia; [apply C1|apply C2]; exact Hk. }
      apply (G cs ds 0%nat); auto. }
  apply (Q t u (root_index 2)); [apply is_node_root; lia|apply is_node_root; lia|exact SS].
Qed.

Lemma rsum_zip {A B} (f : A * B -> R) (g : A -> R) l m : Forall2 (fun x y => f (x, y) = g x) l m -> rsum f (combine l m) = rsum g l.
Proof. induction 1 as [|x y l m E _ IH]; [reflexivity|]. cbn [combine rsum]. rewrite E, IH. reflexivity. Qed.
Lemma rsum_zip2 {A B A' B'} (f : A * B -> R) (g : A' * B' -> R) l m l' m' : length l = length m -> length l' = length m' ->
  Forall2 (fun x y => f x = g y) (combine l m) (combine l' m') -> rsum f (combine l m) = rsum g (combine l' m').
Proof. intros _ _ H. induction H as [|x y p q E _ IH]; [reflexivity|]. cbn [rsum]. rewrite E, IH. reflexivity. Qed.

Lemma tsum_hom {A} (zero : A) add (g : A -> R) (t : tree A) : g zero = 0%R -> (forall x y, g (add x y) = (g x + g y)%R) ->
  g (tsum zero add t) = rsum g (leaves t).
Proof.
  intros Z0 HA. induction t as [x|cs IH] using tree_ind'; [cbn; lra|]. cbn [tsum leaves].
  assert (Q : forall acc, g (fold_left add (map (tsum zero add) cs) acc) = (g acc + rsum g (flat_map leaves cs))%R).
  { induction IH as [|c cs Hc _ IHc]; intros acc; cbn [map fold_left flat_map]; [cbn; lra|]. rewrite IHc, HA, Hc, GuardProofs2.rsum_app. lra. }
  rewrite Q, Z0. lra.
Qed.

Lemma data_reps {A} N (v : array A) : 1 <= N -> ashape v = [N; N] /\ (forall k, inb [N; N] k -> exists x, aget v k = Ok x) -> exists F, reps v [N; N] F.
Proof.
  intros HN [H1 H2]. assert (I0 : inb [N; N] [0; 0]) by (repeat constructor; lia). destruct (H2 _ I0) as [x0 _].
  exists (fun k => match aget v k with Ok x => x | _ => x0 end). split; [exact H1|]. intros k Hk. destruct (H2 k Hk) as [x E]. rewrite E. reflexivity.
Qed.
Lemma reps_data {A} N (v : array A) F : reps v [N; N] F -> ashape v = [N; N] /\ (forall k, inb [N; N] k -> exists x, aget v k = Ok x).
Proof. intros [H1 H2]. split; [exact H1|]. intros k Hk. rewrite H2 by assumption. eauto. Qed.
Lemma path_leaves {A} p : forall (t : tree A) v, node_path p t = Some (Leaf v) -> In v (leaves t).
Proof.
  induction p as [|k p IH]; intros t v E; cbn [node_path] in E; [injection E as ->; left; reflexivity|].
  destruct t as [x|cs]; [discriminate|]. destruct (nth_error cs k) as [c|] eqn:Ek; [|discriminate].
  cbn [leaves]. apply in_flat_map. exists c. split; [eapply nth_error_In; exact Ek|apply IH; exact E].
Qed.
Lemma node_leaves {A} (t : tree A) i v : wf_tree 2 t -> is_node t i (Leaf v) -> In v (leaves t).
Proof. intros W H. destruct (leaf_path t i v W H) as (p & _ & _ & _ & E). exact (path_leaves p t v E). Qed.

(** ** The mesh of a set-up program *)
Section Setup.
Variables (N : Z) (d : nat) (predicate : nat -> R -> bool) (fuel : nat) (sd : settings) (fd : fields).
Hypothesis HS : setup N d predicate fuel sd fd.
Let vt := vertices fd.
Let r := domain_radius sd.
Definition cell_area (i : idx) : R := ((2 * domain_radius sd / (IZR N * 2 ^ level i)) ^ 2)%R.
Definition cell_center (i : idx) (k : list Z) : R * R := point_in (domain_radius sd) N i (IZR (nth 0 k 0) + 1 / 2) (IZR (nth 1 k 0) + 1 / 2).

Lemma mesh_facts : wf_tree 2 vt /\ (depth vt <= 30)%nat /\ balanced vt /\ regular N r vt /\ (depth vt < fuel)%nat.
Proof.
  destruct HS. destruct (mesh_is_regular predicate N d r su_size su_levels) as (t & Et & W & B & D & HR).
  fold r in su_vertices. rewrite (Et fuel su_fuel) in su_vertices. apply ok_inj in su_vertices. unfold vt. rewrite <- su_vertices.
  assert (Hd4 : (d < 4 ^ d)%nat) by (apply Nat.pow_gt_lin_r; lia). split; [exact W|]. split; [lia|]. split; [exact B|]. split; [exact HR|lia].
Qed.
Lemma cell_area_pos i : (0 < cell_area i)%R.
Proof.
  destruct HS. unfold cell_area. apply pow_lt. apply Rdiv_lt_0_compat; [lra|]. apply Rmult_lt_0_compat; [apply IZR_lt; lia|apply pow_lt; lra].
Qed.
Lemma shapes : same_shape vt (cell_areas fd) /\ same_shape vt (cell_centers fd) /\
  forall i v, is_node vt i (Leaf v) -> exists a c, is_node (cell_areas fd) i (Leaf a) /\ is_node (cell_centers fd) i (Leaf c) /\
    reps a [N; N] (fun _ => cell_area i) /\ reps c [N; N] (cell_center i).
Proof.
  destruct mesh_facts as (W & D & B & HR & _). pose proof (su_size N d predicate fuel sd fd HS) as HN.
  destruct (mesh_cells N r vt HN W D HR) as (dA & xc & E1 & E2 & S1 & S2 & H & _).
  pose proof (su_areas _ _ _ _ _ _ HS) as EA. pose proof (su_centers _ _ _ _ _ _ HS) as EC. unfold vt in *. rewrite EA in E1. rewrite EC in E2. apply ok_inj in E1. apply ok_inj in E2. subst dA xc.
  split; [exact S1|]. split; [exact S2|]. intros i v Hi. destruct (H i (proj1 Hi) (ex_intro _ v (leaf_at _ i v Hi))) as (a & c & A1 & A2 & Sa & Sc & V).
  destruct (same_shape_wf _ _ W S1) as [W1 D1]. destruct (same_shape_wf _ _ W S2) as [W2 D2].
  exists a, c. split; [apply node_at_leaf; [assumption|lia|exact (proj1 Hi)|assumption]|]. split; [apply node_at_leaf; [assumption|lia|exact (proj1 Hi)|assumption]|].
  split; (split; [assumption|]); intros k Hk; change [N; N] with (face 0 N N) in Hk; apply inb_face in Hk; try lia; destruct Hk as (x & y & -> & Hx & Hy); [exact (proj1 (V x y Hx Hy))|exact (proj2 (V x y Hx Hy))].
Qed.
Lemma data_leaf {A} (t : tree (array A)) i v : cell_data N vt t -> is_node vt i (Leaf v) -> exists b F, is_node t i (Leaf b) /\ reps b [N; N] F.
Proof.
  intros [S1 F1] Hi. destruct mesh_facts as (W & D & _). destruct (same_shape_wf _ _ W S1) as [W1 D1]. destruct (shape_leaf vt t i v W S1 Hi) as [b Hb].
  rewrite Forall_forall in F1. destruct (data_reps N b) as [F HF]; [pose proof (su_size _ _ _ _ _ _ HS); lia|apply F1; eapply node_leaves; eassumption|]. eauto.
Qed.

(** Sources of every block. *)
Lemma sources_q_tree b p0 q0 dt : conserve_linear_p sd = false -> cell_data N vt p0 -> cell_data N vt q0 ->
  exists z, tmapM (sources_q sd fd b p0 q0 dt) (indexes 2 p0) = Ok z /\ same_shape vt z /\
    forall i y, is_node z i (Leaf y) -> exists a q B P U I, is_node (cell_areas fd) i (Leaf a) /\ is_node q0 i (Leaf q) /\ reps a [N; N] (fun _ => cell_area i) /\ reps q [N; N] U /\
      reps (fst y) [N; N] (fun k => cell_q sd b (cell_center i k) (B k) (P k) (U k) (I k) dt) /\ snd y = tot_q N sd b (cell_center i) (fun _ => cell_area i) B U I dt /\
      exists br ui, is_node (buffer_rate_field fd) i (Leaf br) /\ is_node (initial_conserved_q fd) i (Leaf ui) /\ reps br [N; N] B /\ reps ui [N; N] I.
Proof.
  intros HQ Hp Hq. destruct mesh_facts as (W & D & _). destruct shapes as (S1 & S2 & L). pose proof (su_size _ _ _ _ _ _ HS) as HN.
  pose proof (su_initial _ _ _ _ _ _ HS) as HI. rewrite HQ in HI. pose proof (su_buffer _ _ _ _ _ _ HS) as HB.
  destruct (same_shape_wf _ _ W (proj1 Hp)) as [Wp Dp].
  assert (K : forall i v, is_node p0 i (Leaf v) -> exists y, sources_q sd fd b p0 q0 dt i = Ok y /\ exists a q B P U I, is_node (cell_areas fd) i (Leaf a) /\ is_node q0 i (Leaf q) /\ reps a [N; N] (fun _ => cell_area i) /\ reps q [N; N] U /\
      reps (fst y) [N; N] (fun k => cell_q sd b (cell_center i k) (B k) (P k) (U k) (I k) dt) /\ snd y = tot_q N sd b (cell_center i) (fun _ => cell_area i) B U I dt /\
      exists br ui, is_node (buffer_rate_field fd) i (Leaf br) /\ is_node (initial_conserved_q fd) i (Leaf ui) /\ reps br [N; N] B /\ reps ui [N; N] I).
  { intros i v Hi. destruct (shape_leaf p0 vt i v Wp (shape_sym _ _ (proj1 Hp)) Hi) as [w Hw].
    destruct (L i w Hw) as (a & c & Na & Nc & Ra & Rc). destruct (data_leaf _ i w HB Hw) as (br & B & Nb & Rb). destruct (data_leaf _ i w Hq Hw) as (q & U & Nq & Rq).
    destruct (data_leaf _ i w HI Hw) as (qi & I & Ni & Ri). destruct (data_leaf _ i w Hp Hw) as (p & P & Np & Rp).
    destruct (source_q_block N sd b c a br _ _ _ dt HN Rc Ra Rb p q qi P U I Rp Rq Ri) as (s & Es & Rs).
    eexists. split; [unfold sources_q; rewrite (leaf_at _ _ _ Nc), (leaf_at _ _ _ Na), (leaf_at _ _ _ Nb), (leaf_at _ _ _ Nq), (leaf_at _ _ _ Ni), (leaf_at _ _ _ Np); bsimp; exact Es|].
    exists a, q, B, P, U, I. do 4 (split; [assumption|]). split; [exact Rs|]. split; [reflexivity|]. exists br, qi. auto. }
  destruct (tmapM_idx (sources_q sd fd b p0 q0 dt) (mkarr [] (fun _ => UB), no_totals) p0 Wp ltac:(lia)) as (z & Ez & Sz & Kz).
  { intros i v Hi. destruct (K i v Hi) as (y & E & _). eauto. }
  exists z. split; [exact Ez|]. split; [exact (shape_trans _ _ _ (proj1 Hp) Sz)|]. intros i y Hi.
  destruct (shape_leaf z p0 i y (proj1 (same_shape_wf _ _ Wp Sz)) (shape_sym _ _ Sz) Hi) as [v Hv]. destruct (K i v Hv) as (y' & E & HE).
  pose proof (is_node_unique z i _ _ Hi (Kz i v y' Hv E)) as X. injection X as ->. exact HE.
Qed.
Lemma sources_u_tree {A} b (p0 : tree (array A)) u0 dt : conserve_linear_p sd = true -> cell_data N vt p0 -> cell_data N vt u0 ->
  exists z, tmapM (sources_u sd fd b u0 dt) (indexes 2 p0) = Ok z /\ same_shape vt z /\
    forall i y, is_node z i (Leaf y) -> exists a q B U I, is_node (cell_areas fd) i (Leaf a) /\ is_node u0 i (Leaf q) /\ reps a [N; N] (fun _ => cell_area i) /\ reps q [N; N] U /\
      reps (fst y) [N; N] (fun k => cell_u sd b (cell_center i k) (B k) (U k) (I k) dt) /\ snd y = tot_u N sd b (cell_center i) (fun _ => cell_area i) B U I dt /\
      exists br ui, is_node (buffer_rate_field fd) i (Leaf br) /\ is_node (initial_conserved_u fd) i (Leaf ui) /\ reps br [N; N] B /\ reps ui [N; N] I.
Proof.
  intros HQ Hp Hq. destruct mesh_facts as (W & D & _). destruct shapes as (S1 & S2 & L). pose proof (su_size _ _ _ _ _ _ HS) as HN.
  pose proof (su_initial _ _ _ _ _ _ HS) as HI. rewrite HQ in HI. pose proof (su_buffer _ _ _ _ _ _ HS) as HB.
  destruct (same_shape_wf _ _ W (proj1 Hp)) as [Wp Dp].
  assert (K : forall i v, is_node p0 i (Leaf v) -> exists y, sources_u sd fd b u0 dt i = Ok y /\ exists a q B U I, is_node (cell_areas fd) i (Leaf a) /\ is_node u0 i (Leaf q) /\ reps a [N; N] (fun _ => cell_area i) /\ reps q [N; N] U /\
      reps (fst y) [N; N] (fun k => cell_u sd b (cell_center i k) (B k) (U k) (I k) dt) /\ snd y = tot_u N sd b (cell_center i) (fun _ => cell_area i) B U I dt /\
      exists br ui, is_node (buffer_rate_field fd) i (Leaf br) /\ is_node (initial_conserved_u fd) i (Leaf ui) /\ reps br [N; N] B /\ reps ui [N; N] I).
  { intros i v Hi. destruct (shape_leaf p0 vt i v Wp (shape_sym _ _ (proj1 Hp)) Hi) as [w Hw].
    destruct (L i w Hw) as (a & c & Na & Nc & Ra & Rc). destruct (data_leaf _ i w HB Hw) as (br & B & Nb & Rb). destruct (data_leaf _ i w Hq Hw) as (q & U & Nq & Rq).
    destruct (data_leaf _ i w HI Hw) as (qi & I & Ni & Ri).
    destruct (source_u_block N sd b c a br _ _ _ dt HN Rc Ra Rb q qi U I Rq Ri) as (s & Es & Rs).
    eexists. split; [unfold sources_u; rewrite (leaf_at _ _ _ Nc), (leaf_at _ _ _ Na), (leaf_at _ _ _ Nb), (leaf_at _ _ _ Nq), (leaf_at _ _ _ Ni); bsimp; exact Es|].
    exists a, q, B, U, I. do 4 (split; [assumption|]). split; [exact Rs|]. split; [reflexivity|]. exists br, qi. auto. }
  destruct (tmapM_idx (sources_u sd fd b u0 dt) (mkarr [] (fun _ => UB), no_totals) p0 Wp ltac:(lia)) as (z & Ez & Sz & Kz).
  { intros i v Hi. destruct (K i v Hi) as (y & E & _). eauto. }
  exists z. split; [exact Ez|]. split; [exact (shape_trans _ _ _ (proj1 Hp) Sz)|]. intros i y Hi.
  destruct (shape_leaf z p0 i y (proj1 (same_shape_wf _ _ Wp Sz)) (shape_sym _ _ Sz) Hi) as [v Hv]. destruct (K i v Hv) as (y' & E & HE).
  pose proof (is_node_unique z i _ _ Hi (Kz i v y' Hv E)) as X. injection X as ->. exact HE.
Qed.
End Setup.
