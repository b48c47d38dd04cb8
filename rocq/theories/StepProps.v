(** One step of the scheme on a whole mesh: it completes for every flux and gradient function, and what the mesh holds
    changes only by the sources and by what passes the edge of the domain. *)
From Coq Require Import ZArith Reals Lra List Arith Bool Lia.
From Verif Require Import Base TreeModel TreeSpec TreeProofs TreeProofs3 TreeProofs4 BalanceModel BalanceSpec NdModel NdSpec NdOpsModel FluxModel FluxTreeProofs FluxProofs FluxSpec FluxProofs3 FluxProofs4 FluxProofs5 FluxProps
  GuardModel GuardSpec MeshModel MeshSpec MeshProps StepModel StepSpec StepProofs StepProofs2 StepProofs3.
Import ListNotations.
Open Scope Z_scope.

Lemma step_mesh {P} (padd : P -> P -> P) phalf gradient flux predicate N d radius fuel vertices dA (p0 : tree (array P)) u0 src :
  1 <= N < 2147483647 -> (d <= 30)%nat -> (4 ^ d < fuel)%nat -> radius <> 0%R ->
  create_vertices fuel predicate N d radius = Ok vertices -> tmapM cell_areas vertices = Ok dA ->
  cell_data N vertices p0 -> cell_data N vertices u0 -> cell_data N vertices src ->
  exists fx fy, face_fluxes padd phalf gradient flux fuel vertices p0 = Ok (fx, fy) /\ mesh N dA u0 src fx fy /\
    (forall per, (per = true -> edges_alike flux radius 0) -> consistent N 0 per fx) /\
    (forall per, (per = true -> edges_alike flux radius 1) -> consistent N 1 per fy) /\
    (forall (Q Qg : P -> Prop) (K : nat -> R), (forall x y, Q x -> Q y -> Q (phalf (padd x y))) -> (forall x y, Qg x -> Qg y -> Qg (phalf (padd x y))) ->
      (forall i v k x, is_node p0 i (Leaf v) -> inb [N; N] k -> aget v k = Ok x -> Q x) -> (forall l x y z, Q x -> Q y -> Q z -> Qg (gradient l x y z)) ->
      (forall a l x p p' g g' h h', (a < 2)%nat -> Q p -> Q p' -> Qg g -> Qg g' -> Qg h -> Qg h' -> flux a l x (p, p') (g, g') (h, h') = K a) ->
      (forall i b x k, is_node fx i (Leaf b) -> 0 <= x < N + 1 -> 0 <= k < N -> aget b (face 0 x k) = Ok (K 0%nat * (2 * radius / (IZR N * 2 ^ level i)))%R) /\
      (forall i b x k, is_node fy i (Leaf b) -> 0 <= x < N + 1 -> 0 <= k < N -> aget b (face 1 x k) = Ok (K 1%nat * (2 * radius / (IZR N * 2 ^ level i)))%R)).
Proof.
  intros HN Hd Hf Hr EV EA [Sp Fp] [Su Fu] [Ss Fs]. destruct (mesh_is_regular predicate N d radius HN Hd) as (t & Et & W & B & D & R).
  rewrite (Et fuel Hf) in EV. injection EV as <-. destruct (mesh_cells N radius t HN W ltac:(lia) R) as (dA' & xc & EA' & _ & Sa & _ & HA & _).
  rewrite EA in EA'. injection EA' as <-. destruct (same_shape_wf t p0 W Sp) as [Wp Dp]. destruct (same_shape_wf t u0 W Su) as [Wu Du]. destruct (same_shape_wf t dA W Sa) as [Wa Da].
  assert (HN2 : 1 <= N /\ 4 * N + 4 < two64) by (split; [lia|]; apply Z.lt_trans with (4 * 2147483647 + 4); [lia|reflexivity]).
  assert (Hd4 : (d < 4 ^ d)%nat) by (apply Nat.pow_gt_lin_r; lia).
  assert (Bp : blocks 2 N p0) by (constructor; [exact HN2|assumption|lia|exact Fp]).
  destruct (face_fluxes_ok padd phalf gradient flux N radius p0 t fuel Bp (same_shape_balanced t p0 Sp B) (shape_sym _ _ Sp) R ltac:(lia)) as (fx & fy & EF & Sx & Sy & Fx & Fy & Cx & Cy & CU).
  exists fx, fy. split; [exact EF|]. split; [|split; [assumption|split; assumption]].
  constructor.
  - lia.
  - assumption.
  - lia.
  - exact (same_shape_balanced t u0 Su B).
  - repeat split; (eapply shape_trans; [apply shape_sym; exact Su|]); [exact Sa|exact Ss|exact (shape_trans _ _ _ Sp Sx)|exact (shape_trans _ _ _ Sp Sy)].
  - split; [exact Fu|]. split; [exact Fs|]. apply leaves_nodes; [assumption|lia|]. intros i v Hi.
    destruct (shape_leaf dA t i v Wa (shape_sym _ _ Sa) Hi) as [b Hb].
    destruct (HA i (proj1 Hb) (ex_intro _ b (leaf_at t i b Hb))) as (a & c & E1 & _ & S1 & _ & V). rewrite (leaf_at dA i v Hi) in E1. injection E1 as <-.
    assert (VI : forall k, inb [N; N] k -> aget v k = Ok ((2 * radius / (IZR N * 2 ^ level i)) ^ 2)%R).
    { intros k Hk. change [N; N] with (face 0 N N) in Hk. apply inb_face in Hk; [|lia]. destruct Hk as (x & y & -> & Hx & Hy). exact (proj1 (V x y Hx Hy)). }
    split; [split; [exact S1|]; intros k Hk; rewrite (VI k Hk); eauto|].
    intros k Hk. unfold val. rewrite (VI k Hk). apply pow_nonzero. pose proof (pow_lt 2 (level i) ltac:(lra)) as P2. assert (HI : (0 < IZR N)%R) by (apply IZR_lt; lia).
    unfold Rdiv. apply Rmult_integral_contrapositive. split; [lra|]. apply Rinv_neq_0_compat. apply Rmult_integral_contrapositive. split; lra.
  - split; assumption.
Qed.

(** On every mesh the program can build, with any primitive variables, conserved densities and sources in its cells,
    and whatever the gradient and flux functions are, the step completes and the content of the mesh changes by the
    sources less what passes the edge of the domain. *)
Theorem step_conserves {P} (padd : P -> P -> P) phalf gradient flux predicate N d radius fuel vertices dA (p0 : tree (array P)) u0 src dt :
  1 <= N < 2147483647 -> (d <= 30)%nat -> (4 ^ d < fuel)%nat -> radius <> 0%R ->
  create_vertices fuel predicate N d radius = Ok vertices -> tmapM cell_areas vertices = Ok dA ->
  cell_data N vertices p0 -> cell_data N vertices u0 -> cell_data N vertices src ->
  exists fx fy fxc fyc u1,
    face_fluxes padd phalf gradient flux fuel vertices p0 = Ok (fx, fy) /\
    tmapM (correct_fluxes_x (@contains_compiled) fx) (indexes 2 fx) = Ok fxc /\
    tmapM (correct_fluxes_y (@contains_compiled) fy) (indexes 2 fy) = Ok fyc /\
    advance padd phalf gradient flux fuel vertices p0 dA u0 src dt = Ok u1 /\
    cell_data N vertices u1 /\
    (mesh_content N u1 dA = mesh_content N u0 dA + mesh_content N src dA - dt * (net_outflow N 0 fxc + net_outflow N 1 fyc))%R.
Proof.
  intros HN Hd Hf Hr EV EA Hp Hu Hs.
  destruct (step_mesh padd phalf gradient flux predicate N d radius fuel vertices dA p0 u0 src HN Hd Hf Hr EV EA Hp Hu Hs) as (fx & fy & EF & M & Cx & Cy & _).
  destruct (flux_correction_conserves N dA u0 src fx fy dt M (Cx false ltac:(discriminate)) (Cy false ltac:(discriminate))) as (fxc & fyc & u1 & E1 & E2 & E3 & S1 & F1 & C).
  exists fx, fy, fxc, fyc, u1. split; [exact EF|]. split; [exact E1|]. split; [exact E2|].
  split; [unfold advance; rewrite EF; bsimp; exact E3|]. split; [|exact C]. split; [exact (shape_trans _ _ _ (proj1 Hu) S1)|exact F1].
Qed.

(** When the flux does not tell opposite edges of the domain apart, nothing is lost at all: what leaves on one side
    enters on the other. *)
Theorem step_conserves_alike {P} (padd : P -> P -> P) phalf gradient flux predicate N d radius fuel vertices dA (p0 : tree (array P)) u0 src dt :
  1 <= N < 2147483647 -> (d <= 30)%nat -> (4 ^ d < fuel)%nat -> radius <> 0%R ->
  create_vertices fuel predicate N d radius = Ok vertices -> tmapM cell_areas vertices = Ok dA ->
  cell_data N vertices p0 -> cell_data N vertices u0 -> cell_data N vertices src ->
  edges_alike flux radius 0 -> edges_alike flux radius 1 ->
  exists u1, advance padd phalf gradient flux fuel vertices p0 dA u0 src dt = Ok u1 /\
    (mesh_content N u1 dA = mesh_content N u0 dA + mesh_content N src dA)%R.
Proof.
  intros HN Hd Hf Hr EV EA Hp Hu Hs A0 A1.
  destruct (step_mesh padd phalf gradient flux predicate N d radius fuel vertices dA p0 u0 src HN Hd Hf Hr EV EA Hp Hu Hs) as (fx & fy & EF & M & Cx & Cy & _).
  destruct (flux_correction_conserves_periodic N dA u0 src fx fy dt M (Cx true ltac:(auto)) (Cy true ltac:(auto))) as (u1 & E3 & S1 & C).
  exists u1. split; [unfold advance; rewrite EF; bsimp; exact E3|exact C].
Qed.

(** The angular momentum of the angular momentum conserving scheme, whatever the fluxes of mass and momentum are:
    only the sources change it. *)
Theorem angular_momentum_step {P} (padd : P -> P -> P) phalf gradient (momentum_flux : nat -> nat -> R * R -> P * P -> P * P -> P * P -> HydroModel.v3)
    predicate N d radius fuel vertices dA (p0 : tree (array P)) u0 src dt :
  1 <= N < 2147483647 -> (d <= 30)%nat -> (4 ^ d < fuel)%nat -> radius <> 0%R ->
  create_vertices fuel predicate N d radius = Ok vertices -> tmapM cell_areas vertices = Ok dA ->
  cell_data N vertices p0 -> cell_data N vertices u0 -> cell_data N vertices src ->
  let flux axis l x p g h := HydroModel.d2 (to_angmom_fluxes axis radius x (momentum_flux axis l x p g h)) in
  exists u1, advance padd phalf gradient flux fuel vertices p0 dA u0 src dt = Ok u1 /\
    (mesh_content N u1 dA = mesh_content N u0 dA + mesh_content N src dA)%R.
Proof.
  intros HN Hd Hf Hr EV EA Hp Hu Hs flux.
  apply (step_conserves_alike padd phalf gradient flux predicate N d radius fuel vertices dA p0 u0 src dt HN Hd Hf Hr EV EA Hp Hu Hs).
  - intros l y p g h. unfold flux, to_angmom_fluxes, edge. cbn [Nat.eqb fst snd andb HydroModel.d2]. destruct (Req_EM_T radius radius) as [_|X]; [|contradiction]. destruct (Req_EM_T (- radius) (- radius)) as [_|X]; [|contradiction].
    destruct (Req_EM_T radius (- radius)); reflexivity.
  - intros l y p g h. unfold flux, to_angmom_fluxes, edge. cbn [Nat.eqb fst snd andb HydroModel.d2]. destruct (Req_EM_T radius radius) as [_|X]; [|contradiction]. destruct (Req_EM_T (- radius) (- radius)) as [_|X]; [|contradiction].
    destruct (Req_EM_T radius (- radius)); reflexivity.
Qed.

(** One block of 2 x 2 cells, the density carried along the first axis at speed 1 with the upwind flux. *)
Definition ex_block : array R := mkarr [2; 2] (fun k => Ok (1 + 2 * IZR (nth 0 k 0%Z) + IZR (nth 1 k 0%Z))%R).
Definition ex_src : array R := mkarr [2; 2] (fun _ => Ok 0%R).
Definition ex_flux (axis l : nat) (x p g h : R * R) : R := if (axis =? 0)%nat then fst p else 0%R.
Definition ex_step : outcome (tree (array R)) :=
  do vt <- create_vertices 2 (fun _ _ => false) 2 0 1;
  do dA <- tmapM cell_areas vt;
  advance Rplus (fun x => x / 2)%R (fun _ _ _ _ => 0%R) ex_flux 2 vt (Leaf ex_block) dA (Leaf ex_block) (Leaf ex_src) (1 / 2).

Example step_example : (exists x, (do t <- ex_step; do b <- at_ t (root_index 2); aget b [0; 0]) = Ok x /\ x = 2%R) /\
  exists vt dA u1, create_vertices 2 (fun _ _ => false) 2 0 1 = Ok vt /\ tmapM cell_areas vt = Ok dA /\ ex_step = Ok u1 /\ mesh_content 2 u1 dA = 10%R.
Proof.
  split; [eexists; split; [vm_compute; reflexivity|field]|].
  destruct (mesh_is_regular (fun _ _ => false) 2 0 1 ltac:(lia) ltac:(lia)) as (vt & EV & W & _ & D & HR). specialize (EV 2%nat ltac:(cbn; lia)).
  assert (exists v, vt = Leaf v) as [v ->] by (destruct vt; [eauto|cbn [depth] in D; lia]).
  destruct (mesh_cells 2 1 (Leaf v) ltac:(lia) W ltac:(cbn; lia) HR) as (dA & xc & EA & _ & Sa & _ & V & _).
  assert (CD : forall b : array R, ashape b = [2; 2] -> (forall k, exists x, aget b k = Ok x) -> cell_data 2 (Leaf v) (Leaf b)).
  { intros b S1 S2. split; [constructor|]. constructor; [|constructor]. split; [exact S1|]. intros k _. apply S2. }
  destruct (step_conserves_alike Rplus (fun x => x / 2)%R (fun _ _ _ _ => 0%R) ex_flux (fun _ _ => false) 2 0 1 2 (Leaf v) dA (Leaf ex_block) (Leaf ex_block) (Leaf ex_src) (1 / 2)
    ltac:(lia) ltac:(lia) ltac:(cbn; lia) ltac:(lra) EV EA) as (u1 & E1 & C).
  - apply CD; [reflexivity|]. intros k. eexists. reflexivity.
  - apply CD; [reflexivity|]. intros k. eexists. reflexivity.
  - apply CD; [reflexivity|]. intros k. eexists. reflexivity.
  - intros l y p g h. reflexivity.
  - intros l y p g h. reflexivity.
  - exists (Leaf v), dA, u1. split; [exact EV|]. split; [exact EA|]. split; [unfold ex_step; rewrite EV; bsimp; rewrite EA; bsimp; exact E1|].
    rewrite C. assert (exists a, dA = Leaf a) as [a ->] by (inversion Sa; eauto).
    destruct (V (root_index 2)) as (a' & c & E2 & _ & _ & _ & VA); [split; [reflexivity|repeat constructor]|eexists; reflexivity|].
    change (at_ (Leaf a) (root_index 2)) with (Ok a) in E2. injection E2 as <-.
    unfold mesh_content, content. change (idxs [2; 2]) with [[0; 0]; [0; 1]; [1; 0]; [1; 1]]. cbn [leaves combine rsum fst snd]. unfold val.
    rewrite (proj1 (VA 0 0 ltac:(lia) ltac:(lia))), (proj1 (VA 0 1 ltac:(lia) ltac:(lia))), (proj1 (VA 1 0 ltac:(lia) ltac:(lia))), (proj1 (VA 1 1 ltac:(lia) ltac:(lia))). cbn [ex_block ex_src aget nth]. cbn [root_index level pow]. field.
Qed.

Print Assumptions step_conserves.
Print Assumptions step_conserves_alike.
Print Assumptions angular_momentum_step.
