(** Lemmas: a uniform flow through a mesh with blocks of different sizes. *)
From Coq Require Import ZArith Reals Lra List Arith Bool Lia.
From Verif Require Import Base TreeModel TreeSpec TreeProofs TreeProofs2 TreeProofs3 TreeProofs4 BalanceModel BalanceSpec BalanceProofs
  NdModel NdSpec NdProofs NdProofs2 NdProofs3 NdOpsModel NdOpsProofs ProlongModel ProlongProofs FluxModel FluxTreeProofs FluxProofs FluxSpec FluxProofs2 FluxProofs3 FluxProofs4 FluxProofs5
  MeshModel MeshSpec StepModel StepSpec StepProofs StepProofs2 StepProofs3 StepProps.
Import ListNotations.
Open Scope Z_scope.

(** The new value of one cell. *)
Lemma block_cell N (HN : 1 <= N) (HB : 2 * N + 2 < two64) dA u0 src fx fy dt i a u s x y :
  at_ dA i = Ok a -> at_ u0 i = Ok u -> at_ src i = Ok s -> at_ fx i = Ok x -> at_ fy i = Ok y ->
  full [N; N] a -> full [N; N] u -> full [N; N] s -> full [N + 1; N] x -> full [N; N + 1] y ->
  exists v, block_update dA u0 src fx fy dt i = Ok v /\ reps v [N; N] (fun p =>
    (val u p - (val x (upd 0 (1 + nth 0 p 0)%Z p) - val x p + (val y (upd 1 (1 + nth 1 p 0)%Z p) - val y p)) * dt / val a p + val s p)%R).
Proof.
  intros Ea Eu Es Ex Ey Fa Fu Fs Fx Fy. unfold block_update. rewrite Ea, Eu, Ex, Ey. bsimp.
  destruct (difference_reps N HN HB 0 ltac:(lia) x _ (full_reps _ _ Fx)) as (lx & E1 & R1).
  destruct (difference_reps N HN HB 1 ltac:(lia) y _ (full_reps _ _ Fy)) as (ly & E2 & R2).
  rewrite E1, E2, Es. bsimp.
  destruct (binary_reps Rplus _ _ _ _ _ R1 R2) as (l & E3 & R3). rewrite E3. bsimp.
  assert (R4 := R3). destruct R4 as [R4s R4v].
  assert (R5 : reps (arr_map (fun x => (x * dt)%R) l) [N; N] (fun i => ((val x (upd 0 (1 + nth 0 i 0)%Z i) - val x i + (val y (upd 1 (1 + nth 1 i 0)%Z i) - val y i)) * dt)%R)).
  { split; [exact R4s|]. intros p Hp. cbn [arr_map aget]. rewrite R4v by assumption. reflexivity. }
  destruct (binary_reps Rdiv _ _ _ _ _ R5 (full_reps _ _ Fa)) as (q & E6 & R6). rewrite E6. bsimp.
  destruct (binary_reps Rminus _ _ _ _ _ (full_reps _ _ Fu) R6) as (v & E7 & R7). rewrite E7. bsimp.
  destruct (binary_reps Rplus _ _ _ _ _ R7 (full_reps _ _ Fs)) as (w & E8 & R8). exists w. split; [exact E8|]. exact R8.
Qed.

(** Fluxes in proportion to the size of the face stay so under the correction. *)
Lemma corrected_uniform N (HN : 1 <= N) (HB : 2 * N + 2 < two64) a (Ha : (a < 2)%nat) t (W : wf_tree 2 t) (D : (depth t <= 30)%nat) (Bal : balanced t)
  (F : Forall (full (upd a (N + 1) [N; N])) (leaves t)) (K : R) :
  (forall i b x k, is_node t i (Leaf b) -> 0 <= x < N + 1 -> 0 <= k < N -> val b (face a x k) = (K / 2 ^ level i)%R) ->
  forall i b x k, is_node t i (Leaf b) -> 0 <= x < N + 1 -> 0 <= k < N -> val (corrected a t i) (face a x k) = (K / 2 ^ level i)%R.
Proof.
  intros HK i b x k Hi Hx Hk. destruct (corrected_ok N HN HB a Ha t W D Bal F i b Hi) as (_ & _ & I & CL & CH).
  pose proof (is_node_facts t W i _ Hi) as [_ Hli]. cbn [depth] in Hli.
  assert (IB : inb (upd a (N + 1) [N; N]) (face a x k)) by (axes Ha; repeat constructor; lia).
  assert (NF : nth a (face a x k) 0 = x) by (axes Ha; reflexivity).
  assert (PF : forall x' j cs lo hi, level j = level i -> is_node t j (Node cs) -> (exists m, nth_error cs m = Some (Leaf lo)) -> (exists m, nth_error cs m = Some (Leaf hi)) -> 0 <= x' < N + 1 -> pair_flux N a x' lo hi k = (K / 2 ^ level i)%R).
  { intros x' j cs lo hi Lj Hj [m1 M1] [m2 M2] Hx'. pose proof (is_node_child t W D j cs m1 _ Hj M1) as N1. pose proof (is_node_child t W D j cs m2 _ Hj M2) as N2.
    assert (L1 : forall m, level (child_index j m) = S (level i)) by (intros m; unfold child_index; cbn [level]; lia).
    unfold pair_flux. assert (V : forall m, 0 <= m < 2 * N -> (if m <? N then val lo (face a x' m) else val hi (face a x' (m - N))) = (K / 2 ^ S (level i))%R).
    { intros m Hm. destruct (Z.ltb_spec m N); [rewrite (HK _ _ _ _ N1) by lia|rewrite (HK _ _ _ _ N2) by lia]; rewrite L1; reflexivity. }
    cbv zeta. rewrite !V by lia. cbn [pow]. field. apply pow_nonzero. lra. }
  destruct (Z.eq_dec x 0) as [->|H0].
  - destruct (prev_next 2 a i (proj1 Hi) Ha ltac:(lia)) as (j & c & E & R & LE & _). destruct (CL j E) as [C1 C2].
    destruct (lookup_cases 2 t j W R ltac:(lia)) as [(v & X & _)|[(cs & X & _)|(X & _)]].
    + destruct (C1 ltac:(intros cs Hcs; destruct Hcs as (_ & _ & Y); rewrite X in Y; discriminate)) as [_ V]. unfold val. rewrite V by assumption. apply (HK i b 0 k Hi Hx Hk).
    + assert (Nj : is_node t j (Node cs)) by (split; [exact R|split; [lia|exact X]]). destruct (C2 cs Nj) as (w0 & w1 & w2 & w3 & -> & _ & V). rewrite V by assumption.
      eapply PF; [exact LE|exact Nj| | |lia]; [exists (if (a =? 0)%nat then 1 else 2)%nat; axes Ha; reflexivity|exists 3%nat; reflexivity].
    + destruct (C1 ltac:(intros cs Hcs; destruct Hcs as (_ & _ & Y); rewrite X in Y; discriminate)) as [_ V]. unfold val. rewrite V by assumption. apply (HK i b 0 k Hi Hx Hk).
  - destruct (Z.eq_dec x N) as [->|H1].
    + destruct (next_prev 2 a i (proj1 Hi) Ha ltac:(lia)) as (j & c & E & R & LE & _). destruct (CH j E) as [C1 C2].
      destruct (lookup_cases 2 t j W R ltac:(lia)) as [(v & X & _)|[(cs & X & _)|(X & _)]].
      * destruct (C1 ltac:(intros cs Hcs; destruct Hcs as (_ & _ & Y); rewrite X in Y; discriminate)) as [_ V]. unfold val. rewrite V by assumption. apply (HK i b N k Hi Hx Hk).
      * assert (Nj : is_node t j (Node cs)) by (split; [exact R|split; [lia|exact X]]). destruct (C2 cs Nj) as (w0 & w1 & w2 & w3 & -> & _ & V). rewrite V by assumption.
        eapply PF; [exact LE|exact Nj| | |lia]; [exists 0%nat; reflexivity|exists (if (a =? 0)%nat then 2 else 1)%nat; axes Ha; reflexivity].
      * destruct (C1 ltac:(intros cs Hcs; destruct Hcs as (_ & _ & Y); rewrite X in Y; discriminate)) as [_ V]. unfold val. rewrite V by assumption. apply (HK i b N k Hi Hx Hk).
    + unfold val. rewrite I by (auto; rewrite NF; lia). apply (HK i b x k Hi Hx Hk).
Qed.

(** With such fluxes on both axes, every cell changes by its source alone. *)
Lemma step_uniform N dA u0 src fx fy dt (Kx Ky : R) : mesh N dA u0 src fx fy ->
  (forall i b x k, is_node fx i (Leaf b) -> 0 <= x < N + 1 -> 0 <= k < N -> val b (face 0 x k) = (Kx / 2 ^ level i)%R) ->
  (forall i b x k, is_node fy i (Leaf b) -> 0 <= x < N + 1 -> 0 <= k < N -> val b (face 1 x k) = (Ky / 2 ^ level i)%R) ->
  exists u1, advance_blocks (@contains_compiled) dA u0 src fx fy dt = Ok u1 /\ same_shape u0 u1 /\ Forall (full [N; N]) (leaves u1) /\
    forall i b u s k, is_node u1 i (Leaf b) -> at_ u0 i = Ok u -> at_ src i = Ok s -> inb [N; N] k -> aget b k = Ok (val u k + val s k)%R.
Proof.
  intros M HX HY. destruct M as [[HN HB] W D Bal (Sa & Ss & Sx & Sy) (Fu & Fs & Fa) (Fx & Fy)].
  destruct (same_shape_wf _ _ W Sa) as [Wa Da]. destruct (same_shape_wf _ _ W Ss) as [Ws Ds]. destruct (same_shape_wf _ _ W Sx) as [Wx Dx]. destruct (same_shape_wf _ _ W Sy) as [Wy Dy].
  assert (Ia : indexes 2 dA = indexes 2 u0) by (apply same_shape_indexes; assumption). assert (Is : indexes 2 src = indexes 2 u0) by (apply same_shape_indexes; assumption).
  assert (Ix : indexes 2 fx = indexes 2 u0) by (apply same_shape_indexes; assumption). assert (Iy : indexes 2 fy = indexes 2 u0) by (apply same_shape_indexes; assumption).
  pose proof (same_shape_balanced _ _ Sx Bal) as Bx. pose proof (same_shape_balanced _ _ Sy Bal) as By.
  destruct (corrected_tree N HN HB 0 ltac:(lia) fx Wx ltac:(lia) Bx Fx) as (fxc & Ex & Sxc & Ixc & Lxc & Fxc & Jx).
  destruct (corrected_tree N HN HB 1 ltac:(lia) fy Wy ltac:(lia) By Fy) as (fyc & Ey & Syc & Iyc & Lyc & Fyc & Jy).
  pose proof (corrected_uniform N HN HB 0 ltac:(lia) fx Wx ltac:(lia) Bx Fx Kx HX) as CX.
  pose proof (corrected_uniform N HN HB 1 ltac:(lia) fy Wy ltac:(lia) By Fy Ky HY) as CY.
  set (upd1 := fun i => match block_update dA u0 src fxc fyc dt i with Ok v => v | _ => mkarr [] (fun _ => UB) end).
  assert (BU : forall i, In i (leaves (indexes 2 u0)) -> block_update dA u0 src fxc fyc dt i = Ok (upd1 i) /\ reps (upd1 i) [N; N] (fun p => val (lk u0 i) p + val (lk src i) p)%R).
  { intros i Hi. destruct (lk_at u0 i W ltac:(lia) Hi) as [A1 A2]. destruct (lk_at dA i Wa ltac:(lia) ltac:(rewrite Ia; exact Hi)) as [A3 A4].
    destruct (lk_at src i Ws ltac:(lia) ltac:(rewrite Is; exact Hi)) as [A5 A6].
    rewrite Forall_forall in Fu, Fs, Fa, Fxc, Fyc. destruct (Fa _ A4) as [Fa1 Fa2].
    destruct (in_leaf fx Wx ltac:(lia) i ltac:(rewrite Ix; exact Hi)) as (bx & Nx). destruct (in_leaf fy Wy ltac:(lia) i ltac:(rewrite Iy; exact Hi)) as (by_ & Ny).
    destruct (block_cell N HN HB dA u0 src fxc fyc dt i _ _ _ _ _ A3 A1 A5 (Jx i ltac:(rewrite Ix; exact Hi)) (Jy i ltac:(rewrite Iy; exact Hi))) as (v & EV & RV); auto.
    - apply Fxc. rewrite Lxc. apply in_map. rewrite Ix. exact Hi.
    - apply Fyc. rewrite Lyc. apply in_map. rewrite Iy. exact Hi.
    - unfold upd1. rewrite EV. split; [reflexivity|]. eapply reps_ext; [exact RV|]. intros p Hp. change [N; N] with (face 0 N N) in Hp. apply inb_face in Hp; [|lia].
      destruct Hp as (x & y & -> & Hx & Hy).
      pose proof (CX i bx (1 + x) y Nx ltac:(lia) ltac:(lia)) as X1. pose proof (CX i bx x y Nx ltac:(lia) ltac:(lia)) as X0.
      pose proof (CY i by_ (1 + y) x Ny ltac:(lia) ltac:(lia)) as Y1. pose proof (CY i by_ y x Ny ltac:(lia) ltac:(lia)) as Y0.
      unfold face in *. cbn [Nat.eqb nth upd] in *. rewrite X1, X0, Y1, Y0. unfold Rdiv. ring. }
  exists (tmap upd1 (indexes 2 u0)).
  destruct (built u0 upd1 W ltac:(lia)) as (S1 & W1 & D1 & I1 & L1 & K1).
  split; [|split; [exact S1|split]].
  - unfold advance_blocks. unfold correct_axis in Ex, Ey. cbn [Nat.eqb] in Ex, Ey. rewrite Ex, Ey. bsimp. apply tmapM_ok. intros i Hi. apply (BU i Hi).
  - rewrite L1. apply Forall_forall. intros f Hf. apply in_map_iff in Hf. destruct Hf as (i & <- & Hi). exact (proj1 (reps_full _ _ _ (proj2 (BU i Hi)))).
  - intros i b u s k Hb Eu Es Hk. assert (Hi : In i (leaves (indexes 2 u0))) by (rewrite <- I1; exact (leaf_in _ W1 _ _ Hb)).
    pose proof (K1 i Hi) as E. rewrite (leaf_at _ i b Hb) in E. injection E as ->. destruct (BU i Hi) as [_ [_ V]]. rewrite (V k Hk).
    destruct (lk_at u0 i W ltac:(lia) Hi) as [A1 _]. destruct (lk_at src i Ws ltac:(lia) ltac:(rewrite Is; exact Hi)) as [A5 _].
    rewrite Eu in A1. injection A1 as <-. rewrite Es in A5. injection A5 as <-. reflexivity.
Qed.
