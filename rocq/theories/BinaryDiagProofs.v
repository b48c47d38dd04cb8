(** Proofs for C109: the diagnostic fields, block by block. *)
From Coq Require Import ZArith Reals Lra List Arith Bool Lia.
From Verif Require Import Base TreeModel TreeSpec TreeProofs TreeProofs3 TreeProofs4 BalanceModel BalanceSpec BalanceProofs NdModel NdSpec NdProofs NdProofs2 NdOpsModel NdOpsProofs ProlongProofs FluxModel FluxSpec FluxTreeProofs FluxProofs FluxProofs3 FluxProofs4 FluxProofs5
  GuardSpec GuardProofs2 MeshModel MeshSpec MeshProps StepModel StepSpec StepProofs StepProofs2 StepProofs3 StepProps TwoBodyModel HydroModel SourceModel SourceProofs SolutionModel SolutionSpec SolutionProofs SolutionProofs2 SolutionProofs3 SolutionProofs4 SolutionProofs5 SolutionProps BinaryDiagModel.
Import ListNotations.
Open Scope Z_scope.

Section Diagnostics.
Variables (N : Z) (d : nat) (predicate : nat -> R -> bool) (fuel : nat) (sd : settings) (fd : fields).
Hypothesis HS : setup N d predicate fuel sd fd.
Let vt := vertices fd.
Let dA := cell_areas fd.

(** Every block of the tree holds the values F. *)
Definition has {A} (t : tree (array A)) (F : idx -> list Z -> A) : Prop :=
  cell_data N vt t /\ forall i, In i (leaves (indexes 2 vt)) -> exists b, is_node t i (Leaf b) /\ reps b [N; N] (F i).

Lemma has_ext {A} (t : tree (array A)) F G : has t F -> (forall i k, In i (leaves (indexes 2 vt)) -> inb [N; N] k -> F i k = G i k) -> has t G.
Proof. intros [D H] E. split; [exact D|]. intros i Hi. destruct (H i Hi) as (b & Nb & Rb). exists b. split; [exact Nb|]. eapply reps_ext; [exact Rb|]. intros k Hk. apply E; assumption. Qed.
Lemma has_map {A B} (f : A -> B) t F : has t F -> has (tmap (arr_map f) t) (fun i k => f (F i k)).
Proof.
  intros [D H]. destruct (mesh_facts N d predicate fuel sd fd HS) as (W & Dp & _ & _ & _). fold vt in W, Dp. destruct (same_shape_wf _ _ W (proj1 D)) as [W1 D1].
  split; [apply cell_data_map; exact D|]. intros i Hi. destruct (H i Hi) as (b & Nb & Rb). exists (arr_map f b). split; [apply tmap_leaf; assumption|apply map_reps; exact Rb].
Qed.
(** A binary operation on the blocks, given what it does on one block. *)
Lemma has_binary {A B C} (f : array A * array B -> outcome (array C)) t u F G H : has t F -> has u G ->
  (forall i a b, In i (leaves (indexes 2 vt)) -> reps a [N; N] (F i) -> reps b [N; N] (G i) -> exists c, f (a, b) = Ok c /\ reps c [N; N] (H i)) ->
  exists v, (do p <- pair_trees t u; tmapM f p) = Ok v /\ has v H.
Proof.
  intros [Dt Ht] [Du Hu] K. destruct (mesh_facts N d predicate fuel sd fd HS) as (W & D & _ & _ & _). fold vt in W, D. destruct (same_shape_wf _ _ W (proj1 Dt)) as [W1 D1].
  destruct (pair_leaf2 t u W1 ltac:(lia) (shape_trans _ _ _ (shape_sym _ _ (proj1 Dt)) (proj1 Du))) as (q & Eq & Sq & Kq). rewrite Eq. bsimp.
  assert (SQ : same_shape vt q) by exact (shape_trans _ _ _ (proj1 Dt) Sq).
  assert (L : forall i, In i (leaves (indexes 2 vt)) -> exists a b c, is_node q i (Leaf (a, b)) /\ f (a, b) = Ok c /\ reps c [N; N] (H i)).
  { intros i Hi. destruct (Ht i Hi) as (a & Na & Ra). destruct (Hu i Hi) as (b & Nb & Rb). destruct (K i a b Hi Ra Rb) as (c & E & Rc). exists a, b, c. split; [exact (Kq i a b Na Nb)|]. split; assumption. }
  destruct (mapped N d predicate fuel sd fd HS f q SQ) as (p & Ep & Dp & Kp).
  { intros i z Hz. destruct (mesh_leaf N d predicate fuel sd fd HS q i z SQ Hz) as [w Hw]. destruct (L i (leaf_in vt W i w Hw)) as (a & b & c & Nq & E & Rc).
    pose proof (is_node_unique _ i _ _ Hz Nq) as X. injection X as ->. eauto. }
  exists p. split; [exact Ep|]. split; [exact Dp|]. intros i Hi. destruct (L i Hi) as (a & b & c & Nq & E & Rc). exists c. split; [exact (Kp i _ c Nq E)|exact Rc].
Qed.
Lemma has_op {A B C} (f : A -> B -> C) t u F G : has t F -> has u G -> exists v, tree_op f t u = Ok v /\ has v (fun i k => f (F i k) (G i k)).
Proof.
  intros Ht Hu. unfold tree_op. apply (has_binary _ t u F G); [exact Ht|exact Hu|]. intros i a b _ Ra Rb. cbn [fst snd].
  destruct (binary_reps_gen f a b _ _ _ Ra Rb) as (c & E & Rc). eauto.
Qed.
Lemma has_div t u F G : has t F -> has u G -> (forall i k, In i (leaves (indexes 2 vt)) -> inb [N; N] k -> G i k <> 0%R) -> exists v, tree_div t u = Ok v /\ has v (fun i k => F i k / G i k)%R.
Proof.
  intros Ht Hu NZ. unfold tree_div. apply (has_binary (fun z : array R * array R => arr_div (fst z) (snd z)) t u F G); [exact Ht|exact Hu|]. intros i a b Hi Ra Rb. cbn [fst snd]. unfold arr_div.
  destruct (binary_reps_gen pair a b _ _ _ Ra Rb) as (z & E & Rz). rewrite E. bsimp. eexists. split; [reflexivity|]. split; [exact (proj1 Rz)|]. intros k Hk. cbn [aget]. rewrite (proj2 Rz k Hk). bsimp. cbn [fst snd].
  unfold quotient. destruct (Req_EM_T (G i k) 0) as [X|X]; [destruct (NZ i k Hi Hk X)|reflexivity].
Qed.
Lemma has_forced {A} (t : tree (array A)) F : has t F -> exists v, tmapM forced t = Ok v /\ has v F.
Proof.
  intros [Dt Ht]. destruct (mesh_facts N d predicate fuel sd fd HS) as (W & D & _ & _ & _). fold vt in W, D. destruct (same_shape_wf _ _ W (proj1 Dt)) as [W1 D1]. pose proof (su_size _ _ _ _ _ _ HS) as HN.
  destruct (mapped N d predicate fuel sd fd HS forced t (proj1 Dt)) as (p & Ep & Dp & Kp).
  { intros i v Hv. destruct (data_reps_at N d predicate fuel sd fd HS t i v Dt Hv) as [U RU]. exists v, U. split; [apply (forced_reps N v U HN RU)|exact RU]. }
  exists p. split; [exact Ep|]. split; [exact Dp|]. intros i Hi. destruct (Ht i Hi) as (b & Nb & Rb). exists b. split; [|exact Rb]. apply (Kp i b b Nb). apply (forced_reps N b _ HN Rb).
Qed.
Lemma has_centers : has (cell_centers fd) (cell_center N sd).
Proof.
  destruct (mesh_facts N d predicate fuel sd fd HS) as (W & D & _ & _ & _). fold vt in W, D. destruct (shapes N d predicate fuel sd fd HS) as (_ & SC & L). fold vt in SC, L. destruct (same_shape_wf _ _ W SC) as [W1 D1].
  split.
  - split; [exact SC|]. apply leaves_nodes; [assumption|lia|]. intros i c Hc. destruct (mesh_leaf N d predicate fuel sd fd HS _ i c SC Hc) as [w Hw]. destruct (L i w Hw) as (a & c' & _ & Nc & _ & Rc).
    pose proof (is_node_unique _ i _ _ Hc Nc) as X. injection X as ->. eapply reps_data; exact Rc.
  - intros i Hi. destruct (in_leaf vt W D i Hi) as [v Hv]. destruct (L i v Hv) as (a & c & _ & Nc & _ & Rc). eauto.
Qed.

(** The gas in a cell: density, and radial and azimuthal momentum per area. *)
Definition density_of (s : solution) (i : idx) (k : list Z) : R := reading d0 (look no_array (conserved sd s) i) k.
Definition distance (x : R * R) : R := sqrt (fst x * fst x + snd x * snd x).
Definition radial_momentum (s : solution) (i : idx) (k : list Z) : R :=
  let x := cell_center N sd i k in let u := look no_array (conserved sd s) i in
  if conserve_linear_p sd then ((fst x * reading d1 u k + snd x * reading d2 u k) / distance x)%R else (reading d1 u k / distance x)%R.
Definition azimuthal_momentum (s : solution) (i : idx) (k : list Z) : R :=
  let x := cell_center N sd i k in let u := look no_array (conserved sd s) i in
  if conserve_linear_p sd then ((fst x * reading d2 u k - snd x * reading d1 u k) / distance x)%R else (reading d2 u k / distance x)%R.
(** No cell has its middle at the origin. *)
Definition centre_clear : Prop := forall i k, In i (leaves (indexes 2 vt)) -> inb [N; N] k -> cell_center N sd i k <> (0, 0)%R.

Lemma center_zero i k : inb [N; N] k -> cell_center N sd i k = (0, 0)%R -> level i = 0%nat /\ Z.Odd N.
Proof.
  intros Hk E. pose proof (su_size _ _ _ _ _ _ HS) as HN. pose proof (su_radius _ _ _ _ _ _ HS) as HR. unfold cell_center, point_in, MeshSpec.place in E. injection E as E _.
  set (m := nth 0 k 0) in *. set (c := Z.of_nat (nth 0 (coords i) 0%nat)) in *. set (r := domain_radius sd) in *.
  assert (NP : (0 < IZR N)%R) by (apply IZR_lt; lia). assert (PP : (0 < 2 ^ level i)%R) by (apply pow_lt; lra).
  assert (K : (IZR (2 * c * N + 2 * m + 1) = IZR N * 2 ^ level i)%R).
  { rewrite plus_IZR, plus_IZR, !mult_IZR. rewrite mult_IZR in E. assert (X : ((IZR c * IZR N + (IZR m + 1 / 2)) * (2 * r) = r * (IZR N * 2 ^ level i))%R).
    { apply (Rmult_eq_reg_r (/ (IZR N * 2 ^ level i))); [|apply Rinv_neq_0_compat; nra]. replace (r * (IZR N * 2 ^ level i) * / (IZR N * 2 ^ level i))%R with r by (field; split; lra). unfold Rdiv in E. lra. }
    apply (Rmult_eq_reg_l r); [|lra]. lra. }
  assert (K' : 2 * c * N + 2 * m + 1 = N * 2 ^ Z.of_nat (level i)).
  { apply eq_IZR. rewrite K, mult_IZR. f_equal. rewrite <- pow_IZR. reflexivity. }
  destruct (level i) as [|l].
  - split; [reflexivity|]. exists (c * N + m). change (2 ^ Z.of_nat 0) with 1 in K'. lia.
  - exfalso. rewrite Nat2Z.inj_succ, Z.pow_succ_r in K' by lia. set (P := 2 ^ Z.of_nat l) in *. assert (2 * (c * N + m) + 1 = 2 * (N * P)) by lia. lia.
Qed.
(** So it is, with an even number of cells in a row or a refined mesh. *)
Lemma clear_cases : Z.Even N \/ (exists cs, vt = Node cs) -> centre_clear.
Proof.
  intros H i k Hi Hk E. destruct (center_zero i k Hk E) as [L O]. destruct H as [[x HE]|[cs EV]]; [destruct O; lia|].
  destruct (mesh_facts N d predicate fuel sd fd HS) as (W & D & _ & _ & _). fold vt in W, D. destruct (in_leaf vt W D i Hi) as [v Hv]. apply (is_node_path vt W) in Hv. destruct Hv as (p & Hp & HL & -> & Hv).
  destruct p as [|x p]; [rewrite EV in Hv; discriminate|]. discriminate.
Qed.

Lemma prim_from u : (0 < d0 u)%R -> forall x, x <> (0, 0)%R -> let P := prim_at sd x u in
  sigma P = d0 u /\
  (d0 u * (vx P * (fst x / distance x) + vy P * (snd x / distance x)) = if conserve_linear_p sd then (fst x * d1 u + snd x * d2 u) / distance x else d1 u / distance x)%R /\
  (d0 u * (vx P * (- snd x / distance x) + vy P * (fst x / distance x)) = if conserve_linear_p sd then (fst x * d2 u - snd x * d1 u) / distance x else d2 u / distance x)%R.
Proof.
  intros Hd [x y] Hx. cbv zeta. unfold prim_at. cbn [fst snd]. assert (RP : (0 < x * x + y * y)%R).
  { destruct (Req_dec x 0) as [->|X]; [|nra]. destruct (Req_dec y 0) as [->|Y]; [|nra]. destruct Hx. reflexivity. }
  unfold distance. cbn [fst snd]. set (r := sqrt (x * x + y * y)). assert (R0 : (0 < r)%R) by (apply sqrt_lt_R0; exact RP). assert (R2 : (r * r = x * x + y * y)%R) by (apply sqrt_sqrt; lra).
  clearbody r. destruct (conserve_linear_p sd); cbn [sigma vx vy]; (split; [reflexivity|]); split; field; repeat split; lra.
Qed.

(** No cell of the solution is empty. *)
Definition dense (s : solution) : Prop := forall i k u, In i (leaves (indexes 2 vt)) -> inb [N; N] k -> aget (look no_array (conserved sd s) i) k = Ok u -> (0 < d0 u)%R.

Lemma has_reading {A} (t : tree (array A)) F (g : A -> R) i k : has t F -> In i (leaves (indexes 2 vt)) -> inb [N; N] k -> reading g (look no_array t i) k = g (F i k).
Proof. intros [_ H] Hi Hk. destruct (H i Hi) as (b & Nb & Rb). rewrite (look_leaf _ _ _ _ Nb). unfold reading. rewrite (proj2 Rb k Hk). reflexivity. Qed.
Lemma has_self {A} (t : tree (array A)) (dflt : A) : cell_data N vt t -> has t (fun i k => match aget (look no_array t i) k with Ok x => x | _ => dflt end).
Proof.
  intros D. split; [exact D|]. intros i Hi. destruct (at_address N d predicate fuel sd fd HS t i D Hi) as (b & F & Nb & Rb). exists b. split; [exact Nb|]. rewrite (look_leaf _ _ _ _ Nb). split; [exact (proj1 Rb)|].
  intros k Hk. rewrite (proj2 Rb k Hk). reflexivity.
Qed.
Lemma has_primitive s : on_mesh N sd fd s -> densities N (conserved sd s) -> forall dflt, exists p, recover_primitive sd fd s = Ok p /\
  has p (fun i k => prim_at sd (cell_center N sd i k) (match aget (look no_array (conserved sd s) i) k with Ok x => x | _ => dflt end)).
Proof.
  intros HM HD dflt. destruct (recovered_cells N d predicate fuel sd fd HS s HM HD) as (p & Ep & Dp & Kp). exists p. split; [exact Ep|]. split; [exact Dp|]. intros i Hi.
  destruct (proj2 (has_self _ dflt HM) i Hi) as (b & Nb & Rb). destruct (Kp i b _ Nb Rb) as (y & Ny & Ry). exists y. split; [exact Ny|]. exact Ry.
Qed.
Lemma held_has (t : tree (array R)) F : has t F -> held (fun x => x) N t dA = rsum (fun i => rsum (fun k => F i k * cell_area N sd i)%R (idxs [N; N])) (leaves (indexes 2 vt)).
Proof.
  intros [D H]. destruct (mesh_facts N d predicate fuel sd fd HS) as (W & Dp & _ & _ & _). fold vt in W, Dp. destruct (shapes N d predicate fuel sd fd HS) as (SA & _ & _). fold vt dA in SA.
  rewrite (held_by_address (fun x => x) N t dA vt W Dp (proj1 D) SA). apply rsum_ext_in. intros i Hi. destruct (H i Hi) as (b & Nb & Rb). destruct (area_leaf N d predicate fuel sd fd HS i Hi) as (a & Na & Ra). fold dA in Na.
  rewrite (look_leaf _ _ _ _ Nb), (look_leaf _ _ _ _ Na). exact (block_held_reps (fun x => x) N b a _ _ Rb Ra).
Qed.

Lemma distance_pos x : x <> (0, 0)%R -> (0 < distance x)%R.
Proof.
  intros Hx. destruct x as [x y]. unfold distance. cbn [fst snd]. apply sqrt_lt_R0. destruct (Req_dec x 0) as [->|X]; [|nra]. destruct (Req_dec y 0) as [->|Y]; [|nra]. destruct Hx. reflexivity.
Qed.

Lemma fields_found s b kf : on_mesh N sd fd s -> densities N (conserved sd s) -> centre_clear -> full_state_at kf (orbital_elements s) (time s) = Ok b -> forall dflt,
  let P := fun i k => prim_at sd (cell_center N sd i k) (match aget (look no_array (conserved sd s) i) k with Ok x => x | _ => dflt end) in
  exists sg vr vp, diagnostic_fields sd fd kf s = Ok (Diagnostics (time s) vt sg vr vp (px (body1 b), py (body1 b)) (px (body2 b), py (body2 b))) /\
    has sg (fun i k => sigma (P i k)) /\
    has vr (fun i k => let x := cell_center N sd i k in (vx (P i k) * (fst x / distance x) + vy (P i k) * (snd x / distance x))%R) /\
    has vp (fun i k => let x := cell_center N sd i k in (vx (P i k) * (- snd x / distance x) + vy (P i k) * (fst x / distance x))%R).
Proof.
  intros HM HD CC Eb dflt P. unfold diagnostic_fields. rewrite Eb. bsimp. destruct (has_primitive s HM HD dflt) as (p0 & Ep & Hp). fold P in Hp. rewrite Ep. bsimp.
  pose proof (has_map fst _ _ has_centers) as HX. pose proof (has_map snd _ _ has_centers) as HY. cbv beta in HX, HY.
  set (xc := tmap (arr_map fst) (cell_centers fd)) in *. set (yc := tmap (arr_map snd) (cell_centers fd)) in *.
  destruct (has_op Rmult _ _ _ _ HX HX) as (xx & E & Hxx). rewrite E. bsimp. clear E. destruct (has_op Rmult _ _ _ _ HY HY) as (yy & E & Hyy). rewrite E. bsimp. clear E.
  destruct (has_op Rplus _ _ _ _ Hxx Hyy) as (r2 & E & Hr2). rewrite E. bsimp. clear E. pose proof (has_map sqrt _ _ Hr2) as Hrc. cbv beta in Hrc. set (rc := tmap (arr_map sqrt) r2) in *.
  change (has rc (fun i k => distance (cell_center N sd i k))) in Hrc.
  assert (NZ : forall i k, In i (leaves (indexes 2 vt)) -> inb [N; N] k -> distance (cell_center N sd i k) <> 0%R).
  { intros i k Hi Hk. pose proof (distance_pos _ (CC i k Hi Hk)). lra. }
  destruct (has_div _ _ _ _ HX Hrc NZ) as (rx & Erx & Hrx). rewrite Erx. bsimp. destruct (has_div _ _ _ _ HY Hrc NZ) as (ry & E & Hry). rewrite E. bsimp. clear E.
  destruct (has_div _ _ _ _ (has_map Ropp _ _ HY) Hrc NZ) as (fx & E & Hfx). rewrite E. bsimp. clear E. try (rewrite Erx; bsimp).
  destruct (has_op Rmult _ _ _ _ (has_map vx _ _ Hp) Hrx) as (a & E & Ha). rewrite E. bsimp. clear E. destruct (has_op Rmult _ _ _ _ (has_map vy _ _ Hp) Hry) as (c & E & Hc). rewrite E. bsimp. clear E.
  destruct (has_op Rplus _ _ _ _ Ha Hc) as (vr & E & Hvr). rewrite E. bsimp. clear E.
  destruct (has_op Rmult _ _ _ _ (has_map vx _ _ Hp) Hfx) as (e & E & He). rewrite E. bsimp. clear E. destruct (has_op Rmult _ _ _ _ (has_map vy _ _ Hp) Hrx) as (f & E & Hf). rewrite E. bsimp. clear E.
  destruct (has_op Rplus _ _ _ _ He Hf) as (vp & E & Hvp). rewrite E. bsimp. clear E.
  destruct (has_forced _ _ (has_map sigma _ _ Hp)) as (s1 & E & Hs1). rewrite E. bsimp. clear E. destruct (has_forced _ _ Hvr) as (r1 & E & Hr1). rewrite E. bsimp. clear E. destruct (has_forced _ _ Hvp) as (p1 & E & Hp1). rewrite E. bsimp. clear E.
  exists s1, r1, p1. split; [reflexivity|]. split; [exact Hs1|]. split; [exact Hr1|exact Hp1].
Qed.
End Diagnostics.
