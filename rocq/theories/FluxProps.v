(** Property C53: flux correction at refinement boundaries. *)
From Coq Require Import ZArith List Arith Bool Lia Reals Lra.
From Verif Require Import Base TreeModel TreeSpec TreeProofs TreeProofs4 BalanceModel BalanceSpec NdModel NdSpec NdOpsModel ProlongModel
  FluxModel FluxSpec FluxProofs3 FluxProofs4 FluxProofs5 FluxTreeProofs FluxProofs2.
Import ListNotations.
Open Scope Z_scope.

(** ** What the corrected fluxes are *)

(** Correction succeeds for every block of a balanced mesh.  Afterwards the flux through a face of a coarse block
    is the sum of the fluxes through the two faces of the finer blocks that cover it, on all four sides. *)
Theorem flux_correction_matches : forall N dA u0 src fx fy, mesh N dA u0 src fx fy ->
  exists fxc fyc,
    tmapM (correct_fluxes_x (@contains_compiled) fx) (indexes 2 fx) = Ok fxc /\
    tmapM (correct_fluxes_y (@contains_compiled) fy) (indexes 2 fy) = Ok fyc /\
    forall i p q, In i (leaves (indexes 2 u0)) -> In p (leaves (indexes 2 u0)) -> In q (leaves (indexes 2 u0)) ->
      (forall f g h k, at_ fxc i = Ok f -> at_ fxc p = Ok g -> at_ fxc q = Ok h -> 0 <= k < N ->
         (above 0 i p q -> val f (face 0 N k) = pair_flux N 0 0 g h k) /\
         (beneath 0 i p q -> val f (face 0 0 k) = pair_flux N 0 N g h k)) /\
      (forall f g h k, at_ fyc i = Ok f -> at_ fyc p = Ok g -> at_ fyc q = Ok h -> 0 <= k < N ->
         (above 1 i p q -> val f (face 1 N k) = pair_flux N 1 0 g h k) /\
         (beneath 1 i p q -> val f (face 1 0 k) = pair_flux N 1 N g h k)).
Proof.
  intros N dA u0 src fx fy M. destruct M as [[HN HB] W D Bal (Sa & Ss & Sx & Sy) (Fu & Fs & Fa) (Fx & Fy)].
  destruct (same_shape_wf _ _ W Sx) as [Wx Dx]. destruct (same_shape_wf _ _ W Sy) as [Wy Dy].
  assert (Ix : indexes 2 fx = indexes 2 u0) by (apply same_shape_indexes; assumption). assert (Iy : indexes 2 fy = indexes 2 u0) by (apply same_shape_indexes; assumption).
  pose proof (same_shape_balanced _ _ Sx Bal) as Bx. pose proof (same_shape_balanced _ _ Sy Bal) as By.
  destruct (corrected_tree N HN HB 0 ltac:(lia) fx Wx ltac:(lia) Bx Fx) as (fxc & Ex & Sxc & Ixc & Lxc & Fxc & Kx).
  destruct (corrected_tree N HN HB 1 ltac:(lia) fy Wy ltac:(lia) By Fy) as (fyc & Ey & Syc & Iyc & Lyc & Fyc & Ky).
  exists fxc, fyc. split; [exact Ex|]. split; [exact Ey|]. rewrite Ix in Kx. rewrite Iy in Ky. intros i p q Hi Hp Hq. split.
  - intros f g h k Ef Eg Eh Hk. rewrite Kx in Ef, Eg, Eh by assumption. injection Ef as <-. injection Eg as <-. injection Eh as <-.
    split; intros HA; [apply matching_above|apply matching_beneath]; try assumption; try lia; rewrite Ix; assumption.
  - intros f g h k Ef Eg Eh Hk. rewrite Ky in Ef, Eg, Eh by assumption. injection Ef as <-. injection Eg as <-. injection Eh as <-.
    split; intros HA; [apply matching_above|apply matching_beneath]; try assumption; try lia; rewrite Iy; assumption.
Qed.

(** Faces that are not on the edge of a block keep their flux, and so do edge faces unless the address next to the
    block on that side is subdivided. *)
Theorem flux_correction_elsewhere : forall N a t i f, (a < 2)%nat -> 1 <= N -> 2 * N + 2 < two64 ->
  wf_tree 2 t -> (depth t <= 30)%nat -> balanced t -> Forall (full (upd a (N + 1) [N; N])) (leaves t) ->
  In i (leaves (indexes 2 t)) -> at_ t i = Ok f ->
  exists g, (if (a =? 0)%nat then correct_fluxes_x (@contains_compiled) t i else correct_fluxes_y (@contains_compiled) t i) = Ok g /\
    ashape g = ashape f /\
    forall x k, 0 <= x <= N -> 0 <= k < N ->
      (x = 0 -> forall j cs, prev_on a i = Ok j -> node_at t j <> Ok (Node cs)) ->
      (x = N -> forall j cs, next_on a i = Ok j -> node_at t j <> Ok (Node cs)) ->
      aget g (face a x k) = aget f (face a x k).
Proof.
  intros N a t i f Ha HN HB W D Bal F Li Ef. destruct (FluxProofs.in_leaf t W D i Li) as (v & Hi).
  pose proof (proj2 (proj2 Hi)) as Ev. unfold at_ in Ef. rewrite Ev in Ef. cbn [bind value] in Ef. injection Ef as ->.
  destruct (corrected_ok N HN HB a Ha t W D Bal F i f Hi) as (E & FG & I & CL & CH).
  exists (corrected a t i). split; [destruct a as [|[|z]]; [exact E|exact E|lia]|].
  pose proof (node_full N a Ha t W D F i f Hi) as FF. split; [rewrite (proj1 FG); symmetry; apply (proj1 FF)|].
  intros x k Hx Hk H0 HNx. pose proof (face_inb N a Ha t D F x k Hx Hk) as IB. pose proof (proj1 (face_nth N a Ha t D F x k)) as NF.
  pose proof (is_node_facts t W i _ Hi) as [_ HLi]. cbn [depth] in HLi.
  destruct (Z.eq_dec x 0) as [->|X0]; [|destruct (Z.eq_dec x N) as [->|XN]].
  - destruct (TreeProofs2.prev_next 2 a i (proj1 Hi) Ha ltac:(lia)) as (j & c & P & _).
    apply (proj1 (CL j P)); auto. intros cs Hcs. apply (H0 eq_refl j cs P). apply Hcs.
  - destruct (TreeProofs2.next_prev 2 a i (proj1 Hi) Ha ltac:(lia)) as (j & c & P & _).
    apply (proj1 (CH j P)); auto. intros cs Hcs. apply (HNx eq_refl j cs P). apply Hcs.
  - apply I; [assumption|]. rewrite NF. lia.
Qed.

(** ** Conservation *)

(** When blocks of the same size agree on the fluxes they share inside the domain, one step changes the content of
    the mesh by the source terms and by what crosses the edge of the domain. *)
Theorem flux_correction_conserves : forall N dA u0 src fx fy dt, mesh N dA u0 src fx fy ->
  consistent N 0 false fx -> consistent N 1 false fy ->
  exists fxc fyc u1,
    tmapM (correct_fluxes_x (@contains_compiled) fx) (indexes 2 fx) = Ok fxc /\
    tmapM (correct_fluxes_y (@contains_compiled) fy) (indexes 2 fy) = Ok fyc /\
    advance_blocks (@contains_compiled) dA u0 src fx fy dt = Ok u1 /\
    same_shape u0 u1 /\ Forall (full [N; N]) (leaves u1) /\
    (mesh_content N u1 dA = mesh_content N u0 dA + mesh_content N src dA
       - dt * (net_outflow N 0 fxc + net_outflow N 1 fyc))%R.
Proof.
  intros N dA u0 src fx fy dt M Cx Cy. destruct (step_sum N dA u0 src fx fy dt false false M Cx Cy) as (fxc & fyc & u1 & E1 & E2 & E3 & S1 & F1 & C & _).
  exists fxc, fyc, u1. do 5 (split; [assumption|]). exact C.
Qed.

(** When they agree across the edge of the domain too, only the source terms change the content. *)
Theorem flux_correction_conserves_periodic : forall N dA u0 src fx fy dt, mesh N dA u0 src fx fy ->
  consistent N 0 true fx -> consistent N 1 true fy ->
  exists u1, advance_blocks (@contains_compiled) dA u0 src fx fy dt = Ok u1 /\ same_shape u0 u1 /\
    (mesh_content N u1 dA = mesh_content N u0 dA + mesh_content N src dA)%R.
Proof.
  intros N dA u0 src fx fy dt M Cx Cy. destruct (step_sum N dA u0 src fx fy dt true true M Cx Cy) as (fxc & fyc & u1 & E1 & E2 & E3 & S1 & F1 & C & PX & PY).
  exists u1. split; [exact E3|]. split; [exact S1|]. rewrite C, PX, PY by reflexivity. lra.
Qed.

(** ** The membership test used by the correction *)

(** False of the code as the language defines it: whenever the address next to a block is subdivided, that is in
    every case in which there is something to correct, contains() shifts by a negative amount. *)
Theorem flux_correction_refuted : forall t i f j cs, wf_tree 2 t -> in_range 2 j -> (level j <= 31)%nat ->
  node_at t j = Ok (Node cs) ->
  (prev_on 0 i = Ok j -> correct_fluxes_xl (@TreeModel.contains) t i f = UB) /\
  (next_on 0 i = Ok j -> correct_fluxes_xr (@TreeModel.contains) t i f = UB) /\
  (prev_on 1 i = Ok j -> correct_fluxes_yl (@TreeModel.contains) t i f = UB) /\
  (next_on 1 i = Ok j -> correct_fluxes_yr (@TreeModel.contains) t i f = UB).
Proof.
  intros t i f j cs W R HL E.
  assert (U : leave_alone (@TreeModel.contains) t j = UB).
  { unfold leave_alone. destruct (lookup_cases 2 t j W R HL) as [(v & X & _)|[(cs' & _ & _ & _ & X & _)|(X & _)]].
    - rewrite E in X. discriminate.
    - rewrite X. reflexivity.
    - rewrite E in X. discriminate. }
  unfold correct_fluxes_xl, correct_fluxes_xr, correct_fluxes_yl, correct_fluxes_yr.
  repeat split; intros X; rewrite X; bsimp; rewrite U; reflexivity.
Qed.

(** ** A mesh of three coarse blocks and four fine ones, with 2 x 2 cells each *)

Definition cst (s : list Z) (x : R) : array R := mkarr s (fun _ => Ok x).
Definition ramp (s : list Z) (x : Z) : array R := mkarr s (fun i => Ok (IZR (nth 0 i 0 + x))).
Definition ex_u : tree (array R) :=
  Node [Leaf (cst [2; 2] 1); Leaf (cst [2; 2] 2); Leaf (cst [2; 2] 3);
        Node [Leaf (cst [2; 2] 4); Leaf (cst [2; 2] 5); Leaf (cst [2; 2] 6); Leaf (cst [2; 2] 7)]].
Definition ex_dA : tree (array R) :=
  Node [Leaf (cst [2; 2] 4); Leaf (cst [2; 2] 4); Leaf (cst [2; 2] 4);
        Node [Leaf (cst [2; 2] 1); Leaf (cst [2; 2] 1); Leaf (cst [2; 2] 1); Leaf (cst [2; 2] 1)]].
Definition ex_fx : tree (array R) :=
  Node [Leaf (cst [3; 2] 8); Leaf (cst [3; 2] 8); Leaf (cst [3; 2] 8);
        Node [Leaf (ramp [3; 2] 1); Leaf (ramp [3; 2] 3); Leaf (ramp [3; 2] 1); Leaf (ramp [3; 2] 3)]].
Definition ex_fy : tree (array R) :=
  Node [Leaf (cst [2; 3] 0); Leaf (cst [2; 3] 0); Leaf (cst [2; 3] 0);
        Node [Leaf (cst [2; 3] 9); Leaf (cst [2; 3] 9); Leaf (cst [2; 3] 9); Leaf (cst [2; 3] 9)]].

Lemma cst_full s x : full s (cst s x).
Proof. split; [reflexivity|]. intros i _. exists x. reflexivity. Qed.
Lemma ramp_full s x : full s (ramp s x).
Proof. split; [reflexivity|]. intros i _. eexists. reflexivity. Qed.

Lemma ex_balanced : balanced ex_u.
Proof.
  intros i j l Hi _ Hl _. vm_compute in Hi, Hl.
  repeat match goal with H : _ \/ _ |- _ => destruct H end; try contradiction; subst; cbn [level]; lia.
Qed.

Lemma ex_mesh : mesh 2 ex_dA ex_u ex_u ex_fx ex_fy.
Proof.
  constructor.
  - split; [lia|]. reflexivity.
  - constructor; [reflexivity|]. repeat (apply Forall_cons); try apply Forall_nil; try constructor; try reflexivity. repeat (apply Forall_cons); try apply Forall_nil; constructor.
  - cbn. lia.
  - apply ex_balanced.
  - repeat split; repeat constructor.
  - split; [|split]; cbn [ex_u ex_dA leaves flat_map app]; repeat (apply Forall_cons); try apply Forall_nil; try apply cst_full;
      (split; [apply cst_full|intros i _; cbn; lra]).
  - split; cbn [ex_fx ex_fy leaves flat_map app]; repeat (apply Forall_cons); try apply Forall_nil; first [apply cst_full|apply ramp_full].
Qed.

Lemma ex_consistent : consistent 2 0 false ex_fx /\ consistent 2 1 true ex_fy.
Proof.
  split; intros i j f g Hi Hj HL HB HA Ef Eg k Hk; vm_compute in Hi, Hj;
    pose proof (HB 1%nat) as HB1; pose proof (HB 0%nat) as HB0; clear HB;
    repeat match goal with H : (_ = i) \/ _ |- _ => destruct H | H : (_ = j) \/ _ |- _ => destruct H end; try contradiction; subst; cbn in HL, HB0, HB1, HA; try discriminate HL;
    try lia; try (cbn in Ef, Eg; injection Ef as <-; injection Eg as <-; cbn; first [reflexivity|f_equal; lra]).
Qed.

(** The block at (0, 1) has fine neighbours on both sides on axis 0, the lower ones across the edge of the domain: its
    outer fluxes become 5 + 5 and 1 + 1, the inner one stays. *)
Example flux_correction_example :
  (let at_face i := do g <- correct_fluxes_x (@contains_compiled) ex_fx (mkidx 1 [0; 1]%nat); aget g i in
    at_face [0; 0] = Ok (5 + 5)%R /\ at_face [0; 1] = Ok (5 + 5)%R /\ at_face [1; 0] = Ok 8%R /\
    at_face [2; 0] = Ok (1 + 1)%R /\ at_face [2; 1] = Ok (1 + 1)%R) /\
  above 0 (mkidx 1 [0; 1]%nat) (mkidx 2 [2; 2]%nat) (mkidx 2 [2; 3]%nat) /\
  exists fxc fyc u1,
    tmapM (correct_fluxes_x (@contains_compiled) ex_fx) (indexes 2 ex_fx) = Ok fxc /\
    tmapM (correct_fluxes_y (@contains_compiled) ex_fy) (indexes 2 ex_fy) = Ok fyc /\
    advance_blocks (@contains_compiled) ex_dA ex_u ex_u ex_fx ex_fy (1 / 2) = Ok u1 /\
    (mesh_content 2 u1 ex_dA = 2 * mesh_content 2 ex_u ex_dA - 1 / 2 * (net_outflow 2 0 fxc + net_outflow 2 1 fyc))%R.
Proof.
  split; [|split].
  - repeat split; vm_compute; reflexivity.
  - repeat split.
  - destruct (flux_correction_conserves 2 ex_dA ex_u ex_u ex_fx ex_fy (1 / 2) ex_mesh (proj1 ex_consistent)) as (fxc & fyc & u1 & E1 & E2 & E & _ & _ & C).
    + intros i j f g Hi Hj HL HB HA. apply (proj2 ex_consistent i j f g Hi Hj HL HB). destruct HA as [HA|[HA _]]; [left; exact HA|discriminate].
    + exists fxc, fyc, u1. do 3 (split; [assumption|]). rewrite C. lra.
Qed.

Print Assumptions flux_correction_matches.
Print Assumptions flux_correction_elsewhere.
Print Assumptions flux_correction_conserves.
Print Assumptions flux_correction_conserves_periodic.
Print Assumptions flux_correction_refuted.
