(** Lemmas: with the linear reconstruction no more than 5/2 times the density of a cell stands on its two faces along an
    axis, also where the level changes. *)
From Coq Require Import ZArith Reals Lra List Arith Bool Lia.
From Verif Require Import Base TreeModel TreeSpec TreeProofs TreeProofs2 TreeProofs3 TreeProofs4 BalanceModel BalanceSpec BalanceProofs
  NdModel NdSpec NdProofs NdProofs2 NdProofs3 NdOpsModel NdOpsProofs PlmModel PlmProps ProlongModel ProlongProofs FluxModel FluxTreeProofs FluxProofs FluxSpec FluxProofs2 FluxProofs3 FluxProofs4 FluxProofs5
  GuardModel GuardSpec GuardProofs GuardProofs2 MeshModel MeshSpec MeshProofs2 MeshProps StepModel StepSpec StepProofs StepProofs2 StepProofs3 StepProps UniformProofs DrainModel DrainProofs DrainProofs2 DrainProofs3 DrainProofs4
  DimensionalModel TwoBodyModel HydroModel HlleProps SourceModel SourceProofs SolutionModel SolutionSpec SolutionProofs SolutionProofs2 SolutionProofs3 SolutionProofs4 SolutionProofs5 UniformProps DrainProps DrainProps2.
Import ListNotations.
Open Scope R_scope.

(** *** States of limited speed *)
Definition calm (V : R) (p : iprim) : Prop := 0 < HydroModel.sigma p /\ Rabs (HydroModel.vx p) <= V /\ Rabs (HydroModel.vy p) <= V.
Definition above (h : R) (p g : iprim) : iprim := prim_add p (prim_mul (prim_mul g 0.5) h).
Definition below (h : R) (p g : iprim) : iprim := prim_sub p (prim_mul (prim_mul g 0.5) h).
(** A cell whose two face states are calm. *)
Definition calm_cell (V h : R) (p g : iprim) : Prop := calm V p /\ calm V (above h p g) /\ calm V (below h p g).

Lemma calm_half V h p g : calm_cell V (2 * h) p g -> calm_cell V h p g.
Proof.
  intros (A & B & C). split; [exact A|]. split.
  - pose proof (mean_limited V p (above (2 * h) p g) A B) as M. cbv zeta in M. replace (prim_mul (prim_add p (above (2 * h) p g)) (1 / 2)) with (above h p g) in M; [exact M|].
    unfold above, prim_mul, prim_add. cbn [HydroModel.sigma HydroModel.vx HydroModel.vy]. f_equal; replace 0.5 with (/ 2) by lra; field.
  - pose proof (mean_limited V p (below (2 * h) p g) A C) as M. cbv zeta in M. replace (prim_mul (prim_add p (below (2 * h) p g)) (1 / 2)) with (below h p g) in M; [exact M|].
    unfold below, prim_sub, prim_mul, prim_add. cbn [HydroModel.sigma HydroModel.vx HydroModel.vy]. f_equal; replace 0.5 with (/ 2) by lra; field.
Qed.

Lemma calm_slope sd safe l V x y z : 0 < spacing_at sd l -> plm_theta sd <= 2 -> calm V x -> calm V y -> calm V z -> calm_cell V (spacing_at sd l) y (plm_slope sd safe l x y z).
Proof.
  intros Hh Ht Hx Hy Hz. assert (Hth : (if safe then 0 else plm_theta sd) <= 2) by (destruct safe; lra).
  set (c := fun i (_ : Z) => if (i =? 0)%Z then y else if (i <? 0)%Z then x else z).
  assert (Hp : patch c V) by (intros i j; unfold c; destruct (i =? 0)%Z; [exact Hy|destruct (i <? 0)%Z; [exact Hx|exact Hz]]).
  split; [exact Hy|]. split.
  - destruct (state_above sd l safe c V Hh Hth Hp 0 0 0) as [_ S]. exact S.
  - destruct (state_below sd l safe c V Hh Hth Hp 0 0 0) as [_ S]. exact S.
Qed.

(** The flux of mass between two calm face states. *)
Lemma plm_flux sd b a l x p q g g' h V C : (a < 2)%nat -> calm V (above (spacing_at sd l) p g) -> calm V (below (spacing_at sd l) q g') -> 0 <= C -> 0 < cs2_at_position sd b x <= C * C ->
  - ((V + C) * HydroModel.sigma (below (spacing_at sd l) q g')) <= d0 (flux_of sd b a l x (p, q) (g, g') h) <= (V + C) * HydroModel.sigma (above (spacing_at sd l) p g).
Proof.
  intros Ha (P1 & P2 & P3) (Q1 & Q2 & Q3) HC Hc.
  assert (H : - ((V + C) * HydroModel.sigma (below (spacing_at sd l) q g')) <= d0 (intercell_flux_u sd b a l x (p, q) (g, g') h) <= (V + C) * HydroModel.sigma (above (spacing_at sd l) p g)).
  { unfold intercell_flux_u, v3_add. cbn [d0 fst snd]. fold (above (spacing_at sd l) p g). fold (below (spacing_at sd l) q g').
    replace (d0 (viscous_flux a _ _ _)) with 0 by (unfold viscous_flux; destruct (a =? 0)%nat; reflexivity). rewrite Rplus_0_r.
    assert (SC : sqrt (cs2_at_position sd b x) <= C) by (rewrite <- (sqrt_square C) by assumption; apply sqrt_le_1_alt; lra).
    assert (K : forall w, Rabs (HydroModel.vx w) <= V -> Rabs (HydroModel.vy w) <= V -> Rabs (iso_velocity_along w (axis_vector a)) + sqrt (cs2_at_position sd b x) <= V + C).
    { intros w W1 W2. fold (axis_velocity w a). rewrite (axis_velocity_is w a Ha). destruct (a =? 0)%nat; lra. }
    apply hlle_mass; try lra; apply K; assumption. }
  unfold flux_of. destruct (conserve_linear_p sd); [exact H|]. unfold intercell_flux_q, to_angmom_fluxes. cbn [d0]. exact H.
Qed.

(** *** Cells by address *)
Open Scope Z_scope.
Definition cell (t : tree (array iprim)) (a : nat) (i : idx) (x k : Z) : iprim := match at_ t i with Ok v => match aget v (face a x k) with Ok q => q | _ => IPrim 0 0 0 end | _ => IPrim 0 0 0 end.
Lemma cell_is t a i v N G x k : is_node t i (Leaf v) -> rep2 a v N N G -> 0 <= x < N -> 0 <= k < N -> cell t a i x k = G x k.
Proof. intros Hv [_ HG] Hx Hk. unfold cell. rewrite (leaf_at _ _ _ Hv), HG by assumption. reflexivity. Qed.

Lemma shape_node {A B} (t : tree A) (u : tree B) j w0 w1 w2 w3 : wf_tree 2 t -> (depth t <= 30)%nat -> same_shape t u -> is_node t j (Node [Leaf w0; Leaf w1; Leaf w2; Leaf w3]) -> exists cs, is_node u j (Node cs).
Proof.
  intros W D SS H. destruct (same_shape_wf t u W SS) as [Wu Du]. destruct H as (R & L & E).
  assert (Nt : is_node t j (Node [Leaf w0; Leaf w1; Leaf w2; Leaf w3])) by (split; [exact R|split; [exact L|exact E]]).
  destruct (shape_leaf t u (child_index j 0) w0 W SS (is_node_child t W D j _ 0 _ Nt eq_refl)) as [w Hw].
  destruct (lookup_cases 2 u j Wu R L) as [(v & X & _)|[(cs & X & _)|(X & _)]].
  - assert (Nu : is_node u j (Leaf v)) by (split; [exact R|split; [exact L|exact X]]). destruct (shape_leaf u t j v Wu (shape_sym _ _ SS) Nu) as [v' Hv']. pose proof (is_node_unique t j _ _ Nt Hv') as Y. discriminate.
  - exists cs. split; [exact R|split; [exact L|exact X]].
  - exfalso. apply (is_node_path t W) in Nt. destruct Nt as (p & Hp & HL & -> & _). rewrite (child_addr 2 p 0 Hp ltac:(cbn; lia)) in Hw.
    apply (is_node_path u Wu) in Hw. destruct Hw as (q & Hq & HLq & Eq & Ew).
    assert (Hp0 : path_ok 2 (p ++ [0%nat])) by (apply Forall_app; split; [exact Hp|constructor; [cbn; lia|constructor]]).
    apply (addr_inj 2) in Eq; [|assumption|assumption]. subst q. rewrite node_path_app in Ew. destruct (node_path p u) as [n|] eqn:En; [|discriminate].
    assert (Nu : is_node u (addr 2 p) n) by (apply (is_node_path u Wu); exists p; auto). destruct Nu as (_ & _ & Y). rewrite X in Y. discriminate.
Qed.

Lemma child_of j : in_range 2 j -> (0 < level j)%nat -> exists m, (m < 4)%nat /\ j = child_index (up 1 j) m.
Proof.
  intros R L. assert (PI : parent_index j = Some (up 1 j)). { unfold parent_index, up. destruct (level j); [lia|]. rewrite Nat.sub_1_r. reflexivity. }
  apply parent_complete in PI. unfold child_indexes in PI. apply in_map_iff in PI. destruct PI as (m & E & Hm). apply in_seq in Hm. exists m. split; [|symmetry; exact E].
  replace (length (coords (up 1 j))) with 2%nat in Hm; [cbn in Hm; lia|]. unfold up. cbn [coords]. rewrite map_length. destruct R as [R _]. symmetry. exact R.
Qed.

Lemma half_in N m a x : 0 <= x < N -> 0 <= (offset N m a + x) / 2 < N.
Proof. intros Hx. unfold offset. destruct (Nat.testbit m a); (split; [apply Z.div_pos; lia|apply Z.div_lt_upper_bound; lia]). Qed.

Section Axis.
Variables (sd : settings) (b : two_body) (safe : bool) (N : Z) (p0 ga : tree (array iprim)) (f : tree (array R)) (a : nat) (V C : R).
Let r : R := domain_radius sd.
Hypothesis Ha : (a < 2)%nat.
Hypothesis Hb : blocks 2 N p0.
Hypothesis Bal : balanced p0.
Hypothesis Sf : same_shape p0 f.
Hypothesis Sg : same_shape p0 ga.
Hypothesis Ff : Forall (full (upd a (N + 1) [N; N])) (leaves f).
Hypothesis HF : forall i b', is_node f i (Leaf b') -> exists v E G vg El Gl, is_node p0 i (Leaf v) /\ rep2 a v N N G /\ sides N p0 a i E G /\ same_sides N p0 a i E /\
    is_node ga i (Leaf vg) /\ rep2 a vg N N Gl /\ sides N ga a i El Gl /\ same_sides N ga a i El /\
    (forall x k, 0 <= x < N -> 0 <= k < N -> Gl x k = plm_slope sd safe (level i) (E x k) (E (1 + x) k) (E (2 + x) k)) /\
    (forall Q, stable prim_add (fun p => prim_mul p (1 / 2)) N p0 Q -> forall x k, 0 <= x < N + 2 -> 0 <= k < N -> Q (E x k)) /\
    forall x k, 0 <= x < N + 1 -> 0 <= k < N -> exists h h',
      aget b' (face a x k) = Ok (d0 (flux_of sd b a (level i) (face_middle a r N i x k) (E x k, E (1 + x)%Z k) (El x k, El (1 + x)%Z k) (h, h')) * (2 * r / (IZR N * 2 ^ level i)))%R.
Hypothesis HQ : stable prim_add (fun p => prim_mul p (1 / 2)) N p0 (calm V).
Hypothesis HC : (0 <= C)%R.
Hypothesis HV : forall i v x k, is_node p0 i (Leaf v) -> 0 <= x <= N -> 0 <= k < N -> (0 < cs2_at_position sd b (face_middle a r N i x k) <= C * C)%R.
Hypothesis Hbs : block_size sd = N.
Hypothesis Hr : (0 < r)%R.
Hypothesis Hth : (plm_theta sd <= 2)%R.

Let W : wf_tree 2 p0 := b_wf 2 N p0 Hb.
Let Hd : (depth p0 <= 30)%nat := b_depth 2 N p0 Hb.
Let HN : 1 <= N /\ 4 * N + 4 < two64 := b_size 2 N p0 Hb.

Lemma width_is l : (2 * r / (IZR N * 2 ^ l) = spacing_at sd l)%R.
Proof. unfold spacing_at. rewrite Hbs. fold r. field. split; first [apply pow_nonzero; lra|apply IZR_neq; lia]. Qed.
Lemma width_pos l : (0 < spacing_at sd l)%R.
Proof. unfold spacing_at. rewrite Hbs. fold r. apply Rmult_lt_0_compat; [apply Rmult_lt_0_compat; [lra|apply Rinv_0_lt_compat, IZR_lt; lia]|apply Rinv_0_lt_compat, pow_lt; lra]. Qed.
Lemma width_twice l : (spacing_at sd l = 2 * spacing_at sd (S l))%R.
Proof. unfold spacing_at. cbn [pow]. rewrite Hbs. field. split; first [apply pow_nonzero; lra|apply IZR_neq; lia]. Qed.

Lemma own_calm i v x k : is_node p0 i (Leaf v) -> 0 <= x < N -> 0 <= k < N -> calm_cell V (spacing_at sd (level i)) (cell p0 a i x k) (cell ga a i x k).
Proof.
  intros Hv Hx Hk. destruct (shape_leaf p0 f i v W Sf Hv) as [b' Hb'].
  destruct (HF i b' Hb') as (v' & E & G & vg & El & Gl & Nv & RG & (SO & _) & _ & Nvg & RGl & _ & _ & GE & QE & _).
  rewrite (cell_is p0 a i v' N G x k Nv RG Hx Hk), (cell_is ga a i vg N Gl x k Nvg RGl Hx Hk), (GE x k Hx Hk), <- (SO x k Hx Hk). replace (x + 1) with (1 + x) by lia.
  apply calm_slope; [apply width_pos|exact Hth|apply (QE _ HQ); lia..].
Qed.

(** The pairs that meet at the faces of a block. *)
Lemma block_pairs i b' : is_node f i (Leaf b') -> exists E El v, is_node p0 i (Leaf v) /\
  (forall x k, 0 <= x < N -> 0 <= k < N -> E (x + 1) k = cell p0 a i x k /\ El (x + 1) k = cell ga a i x k) /\
  (forall c m w k, prev_on a i = Ok (child_index c m) -> (m < 4)%nat -> is_node p0 c (Leaf w) -> 0 <= k < N -> let y := (offset N m a + (N - 1)) / 2 in let z := (offset N m (1 - a) + k) / 2 in
    E 0 k = cell p0 a c y z /\ El 0 k = cell ga a c y z /\ calm_cell V (spacing_at sd (level i)) (E 0 k) (El 0 k) /\ spacing_at sd (level c) = (2 * spacing_at sd (level i))%R) /\
  (forall c m w k, next_on a i = Ok (child_index c m) -> (m < 4)%nat -> is_node p0 c (Leaf w) -> 0 <= k < N -> let y := (offset N m a + 0) / 2 in let z := (offset N m (1 - a) + k) / 2 in
    E (N + 1) k = cell p0 a c y z /\ El (N + 1) k = cell ga a c y z /\ calm_cell V (spacing_at sd (level i)) (E (N + 1) k) (El (N + 1) k) /\ spacing_at sd (level c) = (2 * spacing_at sd (level i))%R) /\
  (forall k, 0 <= k < N -> (forall j cs, prev_on a i = Ok j -> ~ is_node f j (Node cs)) -> calm_cell V (spacing_at sd (level i)) (E 0 k) (El 0 k)) /\
  (forall k, 0 <= k < N -> (forall j cs, next_on a i = Ok j -> ~ is_node f j (Node cs)) -> calm_cell V (spacing_at sd (level i)) (E (N + 1) k) (El (N + 1) k)) /\
  (forall x k, 0 <= x < N + 1 -> 0 <= k < N -> calm_cell V (spacing_at sd (level i)) (E x k) (El x k) -> calm_cell V (spacing_at sd (level i)) (E (1 + x) k) (El (1 + x) k) ->
    (- ((V + C) * HydroModel.sigma (below (spacing_at sd (level i)) (E (1 + x)%Z k) (El (1 + x)%Z k)) * spacing_at sd (level i)) <= val b' (face a x k) <= (V + C) * HydroModel.sigma (above (spacing_at sd (level i)) (E x k) (El x k)) * spacing_at sd (level i))%R).
Proof.
  intros Hi. destruct (HF i b' Hi) as (v & E & G & vg & El & Gl & Nv & RG & (SO & SP & SN) & (TN & TP) & Nvg & RGl & (SOg & SPg & SNg) & (TNg & TPg) & GE & QE & FE).
  pose proof (is_node_facts p0 W i _ Nv) as [_ Hli]. cbn [depth] in Hli.
  assert (LC : forall o j c m, (o = true /\ next_on a i = Ok j \/ o = false /\ prev_on a i = Ok j) -> j = child_index c m -> level i = S (level c)).
  { intros o j c m [[_ Hj]|[_ Hj]] ->.
    - destruct (next_prev 2 a i (proj1 Nv) Ha ltac:(lia)) as (j' & c' & E' & _ & L' & _). rewrite Hj in E'. injection E' as <-. cbn [child_index level] in L'. congruence.
    - destruct (prev_next 2 a i (proj1 Nv) Ha ltac:(lia)) as (j' & c' & E' & _ & L' & _). rewrite Hj in E'. injection E' as <-. cbn [child_index level] in L'. congruence. }
  assert (LG : forall c w, is_node p0 c (Leaf w) -> exists H vg' Hg, rep2 a w N N H /\ is_node ga c (Leaf vg') /\ rep2 a vg' N N Hg).
  { intros c w Hc. destruct (shape_leaf p0 f c w W Sf Hc) as [b2 Hb2]. destruct (HF c b2 Hb2) as (v2 & _ & G2 & vg2 & _ & Gl2 & Nv2 & RG2 & _ & _ & Nvg2 & RGl2 & _).
    pose proof (is_node_unique p0 c _ _ Hc Nv2) as X. injection X as ->. eauto 8. }
  assert (PC : forall c m w k, prev_on a i = Ok (child_index c m) -> (m < 4)%nat -> is_node p0 c (Leaf w) -> 0 <= k < N -> let y := (offset N m a + (N - 1)) / 2 in let z := (offset N m (1 - a) + k) / 2 in
    E 0 k = cell p0 a c y z /\ El 0 k = cell ga a c y z /\ calm_cell V (spacing_at sd (level i)) (E 0 k) (El 0 k) /\ spacing_at sd (level c) = (2 * spacing_at sd (level i))%R).
  { intros c m w k Hp Hm Hc Hk y z. destruct (LG c w Hc) as (H & vg' & Hg & RH & Ng & RHg). pose proof (half_in N m a (N - 1) ltac:(lia)) as Y. pose proof (half_in N m (1 - a) k Hk) as Z.
    assert (E1 : E 0 k = cell p0 a c y z) by (rewrite (cell_is p0 a c w N H y z Hc RH Y Z); eapply SP; eassumption).
    assert (E2 : El 0 k = cell ga a c y z) by (rewrite (cell_is ga a c vg' N Hg y z Ng RHg Y Z); eapply SPg; eassumption).
    assert (E3 : spacing_at sd (level c) = (2 * spacing_at sd (level i))%R) by (rewrite (LC false _ c m (or_intror (conj eq_refl Hp)) eq_refl); apply width_twice).
    do 2 (split; [assumption|]). split; [|assumption]. rewrite E1, E2. apply calm_half. rewrite <- E3. apply (own_calm c w); assumption. }
  assert (NC : forall c m w k, next_on a i = Ok (child_index c m) -> (m < 4)%nat -> is_node p0 c (Leaf w) -> 0 <= k < N -> let y := (offset N m a + 0) / 2 in let z := (offset N m (1 - a) + k) / 2 in
    E (N + 1) k = cell p0 a c y z /\ El (N + 1) k = cell ga a c y z /\ calm_cell V (spacing_at sd (level i)) (E (N + 1) k) (El (N + 1) k) /\ spacing_at sd (level c) = (2 * spacing_at sd (level i))%R).
  { intros c m w k Hp Hm Hc Hk y z. destruct (LG c w Hc) as (H & vg' & Hg & RH & Ng & RHg). pose proof (half_in N m a 0 ltac:(lia)) as Y. pose proof (half_in N m (1 - a) k Hk) as Z.
    assert (E1 : E (N + 1) k = cell p0 a c y z) by (rewrite (cell_is p0 a c w N H y z Hc RH Y Z); eapply SN; eassumption).
    assert (E2 : El (N + 1) k = cell ga a c y z) by (rewrite (cell_is ga a c vg' N Hg y z Ng RHg Y Z); eapply SNg; eassumption).
    assert (E3 : spacing_at sd (level c) = (2 * spacing_at sd (level i))%R) by (rewrite (LC true _ c m (or_introl (conj eq_refl Hp)) eq_refl); apply width_twice).
    do 2 (split; [assumption|]). split; [|assumption]. rewrite E1, E2. apply calm_half. rewrite <- E3. apply (own_calm c w); assumption. }
  exists E, El, v. split; [assumption|]. split; [|split; [exact PC|split; [exact NC|split; [|split]]]].
  - intros x k Hx Hk. rewrite (SO x k Hx Hk), (SOg x k Hx Hk), (cell_is p0 a i v N G x k Nv RG Hx Hk), (cell_is ga a i vg N Gl x k Nvg RGl Hx Hk). auto.
  - intros k Hk HNn. destruct (prev_next 2 a i (proj1 Nv) Ha ltac:(lia)) as (j & c0 & Ej & _ & Lj & _).
    destruct (served_any N p0 Hb Bal a i j v Ha Nv (or_intror Ej)) as [(w & Hw)|[(w0 & w1 & w2 & w3 & Hw)|(w & Hw & _ & Rj & Lj')]].
    + destruct (LG j w Hw) as (H & vg' & Hg & RH & Ng & RHg). rewrite (TP j w H Ej Hw RH k Hk), (TPg j vg' Hg Ej Ng RHg k Hk), <- Lj.
      rewrite <- (cell_is p0 a j w N H (N - 1) k Hw RH ltac:(lia) Hk), <- (cell_is ga a j vg' N Hg (N - 1) k Ng RHg ltac:(lia) Hk). apply (own_calm j w); [assumption|lia|assumption].
    + exfalso. destruct (shape_node p0 f j w0 w1 w2 w3 W Hd Sf Hw) as [cs Hcs]. exact (HNn j cs Ej Hcs).
    + destruct (child_of j Rj ltac:(lia)) as (m & Hm & EJ). rewrite EJ in Ej. apply (PC (up 1 j) m w k Ej Hm Hw Hk).
  - intros k Hk HNn. destruct (next_prev 2 a i (proj1 Nv) Ha ltac:(lia)) as (j & c0 & Ej & _ & Lj & _).
    destruct (served_any N p0 Hb Bal a i j v Ha Nv (or_introl Ej)) as [(w & Hw)|[(w0 & w1 & w2 & w3 & Hw)|(w & Hw & _ & Rj & Lj')]].
    + destruct (LG j w Hw) as (H & vg' & Hg & RH & Ng & RHg). rewrite (TN j w H Ej Hw RH k Hk), (TNg j vg' Hg Ej Ng RHg k Hk), <- Lj.
      rewrite <- (cell_is p0 a j w N H 0 k Hw RH ltac:(lia) Hk), <- (cell_is ga a j vg' N Hg 0 k Ng RHg ltac:(lia) Hk). apply (own_calm j w); [assumption|lia|assumption].
    + exfalso. destruct (shape_node p0 f j w0 w1 w2 w3 W Hd Sf Hw) as [cs Hcs]. exact (HNn j cs Ej Hcs).
    + destruct (child_of j Rj ltac:(lia)) as (m & Hm & EJ). rewrite EJ in Ej. apply (NC (up 1 j) m w k Ej Hm Hw Hk).
  - intros x k Hx Hk (_ & A & _) (_ & _ & B). destruct (FE x k Hx Hk) as (h & h' & EV). unfold val. rewrite EV, width_is.
    pose proof (plm_flux sd b a (level i) (face_middle a r N i x k) (E x k) (E (1 + x) k) (El x k) (El (1 + x) k) (h, h') V C Ha A B HC (HV i v x k Nv ltac:(lia) Hk)) as PF.
    pose proof (width_pos (level i)) as HP. set (F := d0 _) in *. clearbody F. split; [rewrite Ropp_mult_distr_l|]; apply Rmult_le_compat_r; lra.
Qed.

(** Half the change of density across a cell, and what can stand on its upper and its lower face. *)
Definition rise (i : idx) (x k : Z) : R := (HydroModel.sigma (cell ga a i x k) * 0.5 * spacing_at sd (level i))%R.
Definition upper (i : idx) (x k : Z) : R := ((V + C) * (HydroModel.sigma (cell p0 a i x k) + Rmax (rise i x k) (rise i x k / 2)))%R.
Definition lower (i : idx) (x k : Z) : R := ((V + C) * (HydroModel.sigma (cell p0 a i x k) - Rmin (rise i x k) (rise i x k / 2)))%R.

Lemma drained i b' : is_node f i (Leaf b') -> forall k, 0 <= k < N ->
    (forall x, 0 < x < N + 1 -> (val (corrected a f i) (face a x k) <= upper i (x - 1)%Z k * (2 * r / IZR N / 2 ^ level i))%R) /\
    (forall x, 0 <= x < N -> (- (lower i x k * (2 * r / IZR N / 2 ^ level i)) <= val (corrected a f i) (face a x k))%R).
Proof.
  assert (HW : forall l, (2 * r / IZR N / 2 ^ l = spacing_at sd l)%R) by (intros l; unfold spacing_at; rewrite Hbs; reflexivity).
  assert (SA : forall h p g, HydroModel.sigma (above h p g) = (HydroModel.sigma p + HydroModel.sigma g * 0.5 * h)%R) by reflexivity.
  assert (SB : forall h p g, HydroModel.sigma (below h p g) = (HydroModel.sigma p - HydroModel.sigma g * 0.5 * h)%R) by reflexivity.
  assert (WP := width_pos). destruct (same_shape_wf p0 f W Sf) as [Wf Df].
  assert (VC : (0 <= V + C)%R \/ forall i v, ~ is_node p0 i (Leaf v)).
  { destruct (Rle_dec 0 (V + C)) as [L|L]; [left; exact L|right]. intros i1 v Hv. destruct (own_calm i1 v 0 0 Hv ltac:(lia) ltac:(lia)) as ((_ & X & _) & _). pose proof (Rabs_pos (HydroModel.vx (cell p0 a i1 0 0))). lra. }
  intros Hi k Hk. destruct VC as [VC|VC].
  2:{ destruct (shape_leaf f p0 i b' Wf (shape_sym _ _ Sf) Hi) as [v Hv]. destruct (VC i v Hv). }
  assert (UPP : forall i x k h, (h = spacing_at sd (level i) \/ spacing_at sd (level i) = 2 * h)%R -> ((V + C) * HydroModel.sigma (above h (cell p0 a i x k) (cell ga a i x k)) <= upper i x k)%R).
  { intros i' x k' h Hh. unfold upper, rise. apply Rmult_le_compat_l; [exact VC|]. rewrite SA. apply Rplus_le_compat_l. destruct Hh as [->|Hh]; [apply Rmax_l|]. eapply Rle_trans; [|apply Rmax_r]. rewrite Hh. lra. }
  assert (LOW : forall i x k h, (h = spacing_at sd (level i) \/ spacing_at sd (level i) = 2 * h)%R -> ((V + C) * HydroModel.sigma (below h (cell p0 a i x k) (cell ga a i x k)) <= lower i x k)%R).
  { intros i' x k' h Hh. unfold lower, rise. apply Rmult_le_compat_l; [exact VC|]. rewrite SB. unfold Rminus. apply Rplus_le_compat_l, Ropp_le_contravar. destruct Hh as [->|Hh]; [apply Rmin_l|]. eapply Rle_trans; [apply Rmin_r|]. rewrite Hh. lra. }
  apply (corrected_drain2 N a f upper lower (2 * r / IZR N) ltac:(lia) ltac:(lia) Ha Wf ltac:(lia) (same_shape_balanced p0 f Sf Bal) Ff) with (b := b'); [..|exact Hi|exact Hk]; clear i b' Hi k Hk.
  - intros i b' x k Hi Hx Hk HNn. destruct (block_pairs i b' Hi) as (E & El & v & Nv & O & _ & _ & _ & GN & FB). rewrite HW.
    destruct (O (x - 1) k ltac:(lia) Hk) as [O1 O2]. replace (x - 1 + 1) with x in O1, O2 by lia.
    assert (A : calm_cell V (spacing_at sd (level i)) (E x k) (El x k)) by (rewrite O1, O2; apply (own_calm i v); [assumption|lia|assumption]).
    assert (B : calm_cell V (spacing_at sd (level i)) (E (1 + x) k) (El (1 + x) k)).
    { destruct (Z.eq_dec x N) as [->|Hn]; [replace (1 + N) with (N + 1) by lia; apply GN; auto|]. replace (1 + x) with (x + 1) by lia. destruct (O x k ltac:(lia) Hk) as [-> ->]. apply (own_calm i v); [assumption|lia|assumption]. }
    destruct (FB x k ltac:(lia) Hk A B) as [_ Y]. eapply Rle_trans; [exact Y|]. apply Rmult_le_compat_r; [left; apply WP|]. rewrite O1, O2. apply UPP. auto.
  - intros i b' x k Hi Hx Hk HNn. destruct (block_pairs i b' Hi) as (E & El & v & Nv & O & _ & _ & GP & _ & FB). rewrite HW.
    destruct (O x k ltac:(lia) Hk) as [O1 O2]. replace (x + 1) with (1 + x) in O1, O2 by lia.
    assert (B : calm_cell V (spacing_at sd (level i)) (E (1 + x) k) (El (1 + x) k)) by (rewrite O1, O2; apply (own_calm i v); [assumption|lia|assumption]).
    assert (A : calm_cell V (spacing_at sd (level i)) (E x k) (El x k)).
    { destruct (Z.eq_dec x 0) as [->|Hn]; [apply GP; auto|]. replace x with (x - 1 + 1) by lia. destruct (O (x - 1) k ltac:(lia) Hk) as [-> ->]. apply (own_calm i v); [assumption|lia|assumption]. }
    destruct (FB x k ltac:(lia) Hk A B) as [Y _]. eapply Rle_trans; [|exact Y]. apply Ropp_le_contravar. apply Rmult_le_compat_r; [left; apply WP|]. rewrite O1, O2. apply LOW. auto.
  - intros i b' c m w k Hi Hp Hm Hc Hk. destruct (shape_leaf f p0 c w Wf (shape_sym _ _ Sf) Hc) as [wp Hwp]. destruct (block_pairs i b' Hi) as (E & El & v & Nv & O & PC & _ & _ & _ & FB). rewrite HW.
    destruct (PC c m wp k Hp Hm Hwp Hk) as (C1 & C2 & A & HS). destruct (O 0 k ltac:(lia) Hk) as [O1 O2].
    assert (B : calm_cell V (spacing_at sd (level i)) (E (1 + 0) k) (El (1 + 0) k)) by (change (1 + 0) with (0 + 1); rewrite O1, O2; apply (own_calm i v); [assumption|lia|assumption]).
    destruct (FB 0 k ltac:(lia) Hk A B) as [_ Y]. eapply Rle_trans; [exact Y|]. apply Rmult_le_compat_r; [left; apply WP|]. rewrite C1, C2. apply UPP. auto.
  - intros i b' c m w k Hi Hp Hm Hc Hk. destruct (shape_leaf f p0 c w Wf (shape_sym _ _ Sf) Hc) as [wp Hwp]. destruct (block_pairs i b' Hi) as (E & El & v & Nv & O & _ & NC & _ & _ & FB). rewrite HW.
    destruct (NC c m wp k Hp Hm Hwp Hk) as (C1 & C2 & B & HS). destruct (O (N - 1) k ltac:(lia) Hk) as [O1 O2]. replace (N - 1 + 1) with N in O1, O2 by lia. replace (N + 1) with (1 + N) in B, C1, C2 by lia.
    assert (A : calm_cell V (spacing_at sd (level i)) (E N k) (El N k)) by (rewrite O1, O2; apply (own_calm i v); [assumption|lia|assumption]).
    destruct (FB N k ltac:(lia) Hk A B) as [Y _]. eapply Rle_trans; [|exact Y]. apply Ropp_le_contravar. apply Rmult_le_compat_r; [left; apply WP|]. rewrite C1, C2. apply LOW. auto.
Qed.

(** What stands on the two faces together. *)
Lemma both_faces i v x k : is_node p0 i (Leaf v) -> 0 <= x < N -> 0 <= k < N -> (upper i x k + lower i x k <= (V + C) * (5 / 2 * HydroModel.sigma (cell p0 a i x k)))%R.
Proof.
  intros Hv Hx Hk. destruct (own_calm i v x k Hv Hx Hk) as ((S0 & X & _) & (SA & _) & (SB & _)). unfold above, below, prim_add, prim_sub, prim_mul in SA, SB. cbn [HydroModel.sigma] in SA, SB. fold (rise i x k) in SA, SB.
  pose proof (Rabs_pos (HydroModel.vx (cell p0 a i x k))). unfold upper, lower. rewrite <- Rmult_plus_distr_l. apply Rmult_le_compat_l; [lra|].
  unfold Rmax, Rmin. destruct (Rle_dec (rise i x k) (rise i x k / 2)); lra.
Qed.
End Axis.
