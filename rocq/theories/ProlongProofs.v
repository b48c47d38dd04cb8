(** Restriction, prolongation, bisection and recombination. *)
From Coq Require Import ZArith Znumtheory List Lia Bool.
From Verif Require Import Base NdModel NdSpec NdProofs NdProofs2 NdProofs3 NdOpsModel NdOpsProofs ProlongModel.
Import ListNotations.
Open Scope Z_scope.

(** An array with a shape and total values. *)
Definition reps {A} (a : array A) (s : list Z) (F : list Z -> A) : Prop :=
  ashape a = s /\ forall i, inb s i -> aget a i = Ok (F i).

Lemma reps_ext {A} (a : array A) s F G : reps a s F -> (forall i, inb s i -> F i = G i) -> reps a s G.
Proof. intros [H1 H2] E. split; [assumption|]. intros i Hi. rewrite H2, E by assumption. reflexivity. Qed.
Lemma reps_same {A} (a b : array A) s F : reps a s F -> reps b s F -> same a b.
Proof. intros [H1 H2] [H3 H4]. split; [congruence|]. intros i Hi. rewrite H1 in Hi. rewrite H2, H4 by assumption. reflexivity. Qed.

Lemma upd_comm {A} a b (v w : A) l : a <> b -> upd a v (upd b w l) = upd b w (upd a v l).
Proof. revert a b; induction l; intros [|x] [|y] H; simpl; try congruence. f_equal. apply IHl. congruence. Qed.
Lemma nth_upd_other a b (v : Z) l d : a <> b -> nth a (upd b v l) d = nth a l d.
Proof. revert a b; induction l; intros [|x] [|y] H; simpl; try congruence. apply IHl. congruence. Qed.

(** ** Selections along one axis with any jump *)

Definition count1 (s f j : Z) : outcome Z := do q <- udiv (w64 (w64 (f - s) - 1)) (w64 j); Ok (w64 (q + 1)).

Lemma axis_shape_j ax sh s f j c : okshape sh -> (ax < length sh)%nat -> count1 s f j = Ok c ->
  shape_from (upd ax s (map (fun _ => 0) sh)) (upd ax f sh) (upd ax j (map (fun _ => 1) sh)) = Ok (upd ax c sh).
Proof.
  intros H; revert ax; induction H as [|d sh Hd Hs IH]; intros [|ax] HL HC; simpl in HL; try lia; cbn [map upd shape_from].
  - unfold count1 in HC. apply bind_ok_inv in HC as (q & EQ & EC). rewrite EQ. bsimp. rewrite zeros_shape by assumption. bsimp. congruence.
  - destruct (unit_axis 0 d ltac:(lia) ltac:(lia)) as [E1 E2]. rewrite E1. bsimp. rewrite IH by (auto; lia). bsimp.
    rewrite E2, Z.sub_0_r. reflexivity.
Qed.

Lemma axis_map_j ax sh s j c i : okshape sh -> (ax < length sh)%nat -> 0 <= s -> 0 <= j -> s + j * c < two64 -> j < two64 ->
  inb (upd ax c sh) i ->
  map_index_from (upd ax s (map (fun _ => 0) sh)) (upd ax j (map (fun _ => 1) sh)) i = upd ax (s + j * nth ax i 0) i.
Proof.
  intros H; revert ax i; induction H as [|d sh Hd Hs IH]; intros [|ax] i HL Hs0 Hj Hc Hj2 Hi; simpl in HL; try lia;
    cbn [upd] in Hi; inversion Hi; subst; cbn [map upd map_index_from nth].
  - rewrite zeros_map by assumption. f_equal. rewrite (w64_small j) by lia. rewrite (w64_small (j * y)) by nia. rewrite w64_small; nia.
  - rewrite IH by (auto; lia). f_equal. change (w64 1) with 1. rewrite (w64_small (1 * y)) by lia. rewrite w64_small; lia.
Qed.

Lemma select_axis_reps {A} ax s f0 f j (fe : bool) c (a : array A) sh F : okshape sh -> (ax < length sh)%nat ->
  reps a sh F -> (if fe then w64 (nth ax sh 0 - f0) else f0) = f -> count1 s f j = Ok c ->
  0 <= s -> 0 <= j -> s + j * c < two64 -> j < two64 -> 0 <= c ->
  (forall k, 0 <= k < c -> s + j * k < nth ax sh 0) ->
  exists r, select_axis ax s f0 j fe a = Ok r /\ reps r (upd ax c sh) (fun i => F (upd ax (s + j * nth ax i 0) i)).
Proof.
  intros HO HL [RS RG] EF HC Hs Hj Hb Hj2 Hc0 HK. unfold select_axis. rewrite RS.
  destruct (Nat.leb_spec (length sh) ax); [lia|].
  unfold ap_shape, select_axis_pattern, map_index. cbn [ap_start ap_final ap_jumps make_access_pattern].
  rewrite EF. rewrite (axis_shape_j ax sh s f j c) by assumption. bsimp. eexists; split; [reflexivity|].
  split; [reflexivity|]. cbn [aget]. intros i Hi. rewrite (axis_map_j ax sh s j c) by assumption.
  destruct (inb_upd_inv _ _ _ _ Hi HL) as [Hk HX]. apply RG. apply HX. split; [nia|]. apply HK. assumption.
Qed.

Lemma count1_unit s f : 0 <= s <= f -> f < two64 -> count1 s f 1 = Ok (f - s).
Proof. intros H1 H2. destruct (unit_axis s f H1 H2) as [E1 E2]. unfold count1. rewrite E1. bsimp. rewrite E2. reflexivity. Qed.
Lemma count1_two s f : 0 <= s < f -> f < two64 -> count1 s f 2 = Ok ((f - s - 1) / 2 + 1).
Proof.
  intros H1 H2. unfold count1, udiv. change (w64 2) with 2. change (2 =? 0) with false. cbv iota. bsimp.
  rewrite (w64_small (f - s)) by lia. rewrite (w64_small (f - s - 1)) by lia. f_equal. apply w64_small.
  pose proof (Z.div_le_upper_bound (f - s - 1) 2 (f - s - 1) ltac:(lia) ltac:(lia)). pose proof (Z.div_pos (f - s - 1) 2 ltac:(lia) ltac:(lia)). lia.
Qed.

(** A unit-jump selection. *)
Lemma select_unit_reps {A} ax s f0 f (fe : bool) (a : array A) sh F : okshape sh -> (ax < length sh)%nat ->
  reps a sh F -> (if fe then w64 (nth ax sh 0 - f0) else f0) = f -> 0 <= s <= f -> f <= nth ax sh 0 ->
  exists r, select_axis ax s f0 1 fe a = Ok r /\ reps r (upd ax (f - s) sh) (fun i => F (upd ax (s + nth ax i 0) i)).
Proof.
  intros HO HL HR EF Hs Hf. pose proof (okshape_nth ax sh HO HL).
  destruct (select_axis_reps ax s f0 f 1 fe (f - s) a sh F) as (r & E & R); auto; try (unfold two64 in *; lia).
  - apply count1_unit; lia.
  - exists r. split; [assumption|]. eapply reps_ext; [exact R|]. intros i _. cbv beta. rewrite Z.mul_1_l. reflexivity.
Qed.

Lemma concat_reps {A} ax (a b : array A) sh na nb F G : okshape sh -> (ax < length sh)%nat -> 0 <= na -> 0 <= nb ->
  na + nb < two64 -> reps a (upd ax na sh) F -> reps b (upd ax nb sh) G ->
  exists c, concat_on ax b a = Ok c /\
    reps c (upd ax (na + nb) sh) (fun i => if nth ax i 0 <? na then F i else G (upd ax (nth ax i 0 - na) i)).
Proof.
  intros HO HL Ha Hb Hn [A1 A2] [B1 B2].
  destruct (concat_value ax b a) as (c & EC & C1 & C2).
  - rewrite A1; apply okshape_upd; [assumption|lia].
  - rewrite B1; apply okshape_upd; [assumption|lia].
  - rewrite A1, B1, !upd_length; reflexivity.
  - rewrite A1, upd_length; assumption.
  - rewrite A1, B1, !remove_upd; reflexivity.
  - rewrite A1, B1, !nth_upd by assumption. lia.
  - exists c. split; [assumption|]. rewrite A1, B1 in *. rewrite !nth_upd in * by assumption. rewrite upd_upd in C1. split; [assumption|].
    intros i Hi. rewrite C2 by (rewrite C1; assumption). destruct (inb_upd_inv _ _ _ _ Hi HL) as [Hk _].
    assert (HX : forall m x, 0 <= x < m -> inb (upd ax m sh) (upd ax x i)).
    { intros m x Hx. rewrite <- (upd_upd ax m (na + nb)). apply inb_upd; assumption. }
    destruct (Z.ltb_spec (nth ax i 0) na).
    + apply A2. rewrite <- (upd_nth ax i 0). apply HX. lia.
    + apply B2. apply HX. lia.
Qed.

Section Ops.
Context {A : Type} (add : A -> A -> A) (half : A -> A).
Hypothesis half_double : forall x, half (add x x) = x.

(** The effect of prolongation and of restriction on values. *)
Definition Pc (ax : nat) (F : list Z -> A) (i : list Z) : A := F (upd ax (nth ax i 0 / 2) i).
Definition Rc (ax : nat) (F : list Z -> A) (i : list Z) : A :=
  half (add (F (upd ax (2 * nth ax i 0) i)) (F (upd ax (1 + 2 * nth ax i 0) i))).
Definition Rx (ax : nat) (F : list Z -> A) (i : list Z) : A :=
  add (F (upd ax (2 * nth ax i 0) i)) (F (upd ax (1 + 2 * nth ax i 0) i)).
Definition Pv (ax : nat) (F : list Z -> A) (i : list Z) : A :=
  half (add (F (upd ax (nth ax i 0 / 2) i)) (F (upd ax (nth ax i 0 / 2 + nth ax i 0 mod 2) i))).
Definition Rv (ax : nat) (F : list Z -> A) (i : list Z) : A := F (upd ax (2 * nth ax i 0) i).

Lemma prolong_cells_reps ax (a : array A) sh F : okshape sh -> (ax < length sh)%nat -> 2 * nth ax sh 0 < two64 ->
  reps a sh F -> reps (prolong_cells ax a) (upd ax (2 * nth ax sh 0) sh) (Pc ax F).
Proof.
  clear half_double. intros HO HL HB [R1 R2]. pose proof (okshape_nth ax sh HO HL). split.
  - unfold prolong_cells, prolong_shape_cells. cbn [ashape]. rewrite R1. rewrite w64_small by lia. f_equal. lia.
  - intros i Hi. destruct (inb_upd_inv _ _ _ _ Hi HL) as [Hk HX]. unfold prolong_cells, bounds_check, coarsen_index_cells. cbn [aget ashape].
    assert (IN : inb sh (upd ax (nth ax i 0 / 2) i)).
    { apply HX. split; [apply Z.div_pos; lia|apply Z.div_lt_upper_bound; lia]. }
    rewrite R1. rewrite (proj2 (shape_contains_spec sh _ (inb_length _ _ IN) ltac:(clear -IN; induction IN; constructor; auto; lia)) IN).
    apply R2. assumption.
Qed.

Lemma prolong_verts_reps ax (a : array A) sh F : okshape sh -> (ax < length sh)%nat -> 1 <= nth ax sh 0 -> 2 * nth ax sh 0 < two64 ->
  reps a sh F -> reps (prolong_verts add half ax a) (upd ax (2 * nth ax sh 0 - 1) sh) (Pv ax F).
Proof.
  clear half_double. intros HO HL H1 HB [R1 R2]. pose proof (okshape_nth ax sh HO HL). split.
  - unfold prolong_verts, prolong_shape_verts. cbn [ashape]. rewrite R1. rewrite (w64_small (_ * 2)) by lia. rewrite w64_small by lia. f_equal. lia.
  - intros i Hi. destruct (inb_upd_inv _ _ _ _ Hi HL) as [Hk HX]. unfold prolong_verts, coarsen_index_lower, coarsen_index_upper. cbn [aget].
    assert (E : (if nth ax i 0 mod 2 =? 0 then 0 else 1) = nth ax i 0 mod 2).
    { pose proof (Z.mod_pos_bound (nth ax i 0) 2 ltac:(lia)). destruct (Z.eqb_spec (nth ax i 0 mod 2) 0); lia. }
    rewrite E. pose proof (Z.div_mod (nth ax i 0) 2 ltac:(lia)). pose proof (Z.mod_pos_bound (nth ax i 0) 2 ltac:(lia)).
    rewrite R2 by (apply HX; lia). bsimp. rewrite R2 by (apply HX; lia). bsimp. reflexivity.
Qed.

Lemma restrict_verts_reps ax (a : array A) sh F n : okshape sh -> (ax < length sh)%nat -> 1 <= n -> nth ax sh 0 = 2 * n - 1 ->
  nth ax sh 0 + 2 < two64 ->
  reps a sh F -> exists r, restrict_verts ax a = Ok r /\ reps r (upd ax n sh) (Rv ax F).
Proof.
  clear half_double half add. intros HO HL Hn E HB HR.
  destruct (select_axis_reps ax 0 0 (2 * n - 1) 2 true n a sh F) as (r & ER & R); auto; try (unfold two64 in *; lia).
  - rewrite E, Z.sub_0_r. apply w64_small. lia.
  - rewrite count1_two by lia. f_equal. replace (2 * n - 1 - 0 - 1) with ((n - 1) * 2) by lia. rewrite Z.div_mul; lia.
  - exists r. split; [exact ER|]. exact R.
Qed.

Lemma restrict_halves ax (a : array A) sh F n : okshape sh -> (ax < length sh)%nat -> 1 <= n -> nth ax sh 0 = 2 * n ->
  nth ax sh 0 + 2 < two64 -> reps a sh F ->
  exists h0 h1, select_axis ax 0 1 2 true a = Ok h0 /\ select_axis ax 1 0 2 true a = Ok h1 /\
    reps h0 (upd ax n sh) (fun i => F (upd ax (2 * nth ax i 0) i)) /\
    reps h1 (upd ax n sh) (fun i => F (upd ax (1 + 2 * nth ax i 0) i)).
Proof.
  clear half_double half add. intros HO HL Hn E HB HR.
  destruct (select_axis_reps ax 0 1 (2 * n - 1) 2 true n a sh F) as (h0 & E0 & R0); auto; try (unfold two64 in *; lia).
  { rewrite E. apply w64_small. lia. }
  { rewrite count1_two by lia. f_equal. replace (2 * n - 1 - 0 - 1) with ((n - 1) * 2) by lia. rewrite Z.div_mul; lia. }
  destruct (select_axis_reps ax 1 0 (2 * n) 2 true n a sh F) as (h1 & E1 & R1); auto; try (unfold two64 in *; lia).
  { rewrite E, Z.sub_0_r. apply w64_small. lia. }
  { rewrite count1_two by lia. f_equal. replace (2 * n - 1 - 1) with ((n - 1) * 2) by lia. rewrite Z.div_mul; lia. }
  exists h0, h1. auto.
Qed.

Lemma restrict_extrinsic_reps ax (a : array A) sh F n : okshape sh -> (ax < length sh)%nat -> 1 <= n -> nth ax sh 0 = 2 * n ->
  nth ax sh 0 + 2 < two64 -> reps a sh F ->
  exists r, restrict_extrinsic add ax a = Ok r /\ reps r (upd ax n sh) (Rx ax F).
Proof.
  clear half_double half. intros HO HL Hn E HB HR.
  destruct (restrict_halves ax a sh F n HO HL Hn E HB HR) as (h0 & h1 & E0 & E1 & [S0 G0] & [S1 G1]).
  unfold restrict_extrinsic. rewrite E0, E1. bsimp. unfold binary_op. rewrite S0, S1, seq_eqb_refl.
  eexists; split; [reflexivity|]. split; [reflexivity|]. cbn [aget]. intros i Hi. rewrite G0, G1 by assumption. reflexivity.
Qed.

Lemma restrict_cells_reps ax (a : array A) sh F n : okshape sh -> (ax < length sh)%nat -> 1 <= n -> nth ax sh 0 = 2 * n ->
  nth ax sh 0 + 2 < two64 -> reps a sh F ->
  exists r, restrict_cells add half ax a = Ok r /\ reps r (upd ax n sh) (Rc ax F).
Proof.
  clear half_double. intros HO HL Hn E HB HR.
  destruct (restrict_halves ax a sh F n HO HL Hn E HB HR) as (h0 & h1 & E0 & E1 & [S0 G0] & [S1 G1]).
  unfold restrict_cells. rewrite E0, E1. bsimp. unfold binary_op. rewrite S0, S1, seq_eqb_refl. bsimp.
  eexists; split; [reflexivity|]. split; [reflexivity|]. cbn [aget arr_map]. intros i Hi. rewrite G0, G1 by assumption. reflexivity.
Qed.

(** ** Laws of the value transformations, on indexes of the right rank *)

Definition feq (r : nat) (F G : list Z -> A) : Prop := forall i, length i = r -> F i = G i.

Lemma feq_refl r F : feq r F F. Proof. intros i _; reflexivity. Qed.
Lemma feq_trans r F G H : feq r F G -> feq r G H -> feq r F H.
Proof. intros H1 H2 i Hi. rewrite H1, H2 by assumption. reflexivity. Qed.

Definition lawful (P R : nat -> (list Z -> A) -> list Z -> A) : Prop :=
  (forall r ax F G, feq r F G -> feq r (P ax F) (P ax G)) /\
  (forall r ax F G, feq r F G -> feq r (R ax F) (R ax G)) /\
  (forall r a b F, a <> b -> feq r (R a (P b F)) (P b (R a F))) /\
  (forall r ax F, (ax < r)%nat -> feq r (R ax (P ax F)) F).

Lemma lawful_cells : lawful Pc Rc.
Proof.
  split; [|split; [|split]].
  - intros r ax F G H i Hi. unfold Pc. apply H. rewrite upd_length. assumption.
  - intros r ax F G H i Hi. unfold Rc. rewrite !H by (rewrite upd_length; assumption). reflexivity.
  - intros r a b F Hab i Hi. unfold Rc, Pc. rewrite !nth_upd_other by congruence. rewrite !(upd_comm a b) by assumption. reflexivity.
  - intros r ax F Hax i Hi. unfold Rc, Pc. rewrite !nth_upd by lia. rewrite !upd_upd.
    replace (1 + 2 * nth ax i 0) with (1 + nth ax i 0 * 2) by lia. rewrite Z.div_add by lia. change (1 / 2) with 0. rewrite Z.add_0_l.
    rewrite (Z.mul_comm 2), Z.div_mul by lia. rewrite upd_nth. apply half_double.
Qed.
Lemma lawful_verts : lawful Pv Rv.
Proof.
  split; [|split; [|split]].
  - intros r ax F G H i Hi. unfold Pv. rewrite !H by (rewrite upd_length; assumption). reflexivity.
  - intros r ax F G H i Hi. unfold Rv. apply H. rewrite upd_length. assumption.
  - intros r a b F Hab i Hi. unfold Rv, Pv. rewrite !nth_upd_other by congruence. rewrite !(upd_comm a b) by assumption. reflexivity.
  - intros r ax F Hax i Hi. unfold Rv, Pv. rewrite !nth_upd by lia. rewrite !upd_upd.
    rewrite (Z.mul_comm 2), Z.div_mul, Z.mod_mul by lia. rewrite Z.add_0_r, upd_nth. apply half_double.
Qed.

Section Lawful.
Context (P R : nat -> (list Z -> A) -> list Z -> A) (HPR : lawful P R).
Definition Pall (axes : list nat) (F : list Z -> A) : list Z -> A := fold_left (fun F ax => P ax F) axes F.
Definition Rall (axes : list nat) (F : list Z -> A) : list Z -> A := fold_left (fun F ax => R ax F) axes F.

Lemma Pall_feq r axes F G : feq r F G -> feq r (Pall axes F) (Pall axes G).
Proof. revert F G; induction axes; intros F G H; simpl; [assumption|]. apply IHaxes. apply (proj1 HPR). assumption. Qed.
Lemma Rall_feq r axes F G : feq r F G -> feq r (Rall axes F) (Rall axes G).
Proof. revert F G; induction axes; intros F G H; simpl; [assumption|]. apply IHaxes. apply (proj1 (proj2 HPR)). assumption. Qed.
Lemma R_Pall r a axes F : ~ In a axes -> feq r (R a (Pall axes F)) (Pall axes (R a F)).
Proof.
  destruct HPR as (H1 & H2 & H3 & H4).
  revert F; induction axes as [|b axes IH]; intros F Hn; simpl; [apply feq_refl|].
  eapply feq_trans; [apply IH; intros Q; apply Hn; right; assumption|]. apply Pall_feq. apply H3. intros ->. apply Hn. left; reflexivity.
Qed.
Lemma Rall_Pall r axes F : NoDup axes -> Forall (fun ax => (ax < r)%nat) axes -> feq r (Rall axes (Pall axes F)) F.
Proof.
  destruct HPR as (H1 & H2 & H3 & H4).
  intros HN HF. induction HF as [|a axes Ha HF IH]; [apply feq_refl|]. inversion HN; subst. simpl.
  eapply feq_trans; [|apply IH; assumption]. apply Rall_feq. eapply feq_trans; [apply R_Pall; assumption|].
  apply Pall_feq. apply H4. assumption.
Qed.
End Lawful.

(** Shapes: all listed axes scaled by [g]. *)
Definition scale (g : Z -> Z) (axes : list nat) (s : list Z) : list Z := fold_left (fun s ax => upd ax (g (nth ax s 0)) s) axes s.

Lemma scale_cons g ax axes s : scale g (ax :: axes) s = scale g axes (upd ax (g (nth ax s 0)) s).
Proof. reflexivity. Qed.
Lemma scale_length g axes s : length (scale g axes s) = length s.
Proof. clear. revert s; induction axes; intros s; simpl; [reflexivity|]. rewrite IHaxes, upd_length. reflexivity. Qed.
Lemma scale_upd g a v axes s : ~ In a axes -> scale g axes (upd a v s) = upd a v (scale g axes s).
Proof.
  clear. revert s; induction axes as [|b axes IH]; intros s Hn; simpl; [reflexivity|].
  assert (a <> b) by (intros ->; apply Hn; left; reflexivity).
  rewrite nth_upd_other by congruence. rewrite (upd_comm b a) by congruence. apply IH. intros Q; apply Hn; right; assumption.
Qed.
Lemma scale_nth_other g a axes s : ~ In a axes -> nth a (scale g axes s) 0 = nth a s 0.
Proof.
  clear. revert s; induction axes as [|b axes IH]; intros s Hn; simpl; [reflexivity|].
  rewrite IH by (intros Q; apply Hn; right; assumption). apply nth_upd_other. intros ->; apply Hn; left; reflexivity.
Qed.
Lemma nth_upd_cases ax b (v : Z) l d : nth ax (upd b v l) d = nth ax l d \/ (ax = b /\ nth ax (upd b v l) d = v).
Proof.
  clear. destruct (Nat.eq_dec ax b) as [->|]; [|left; apply nth_upd_other; assumption].
  destruct (Nat.lt_ge_cases b (length l)); [right; split; [reflexivity|apply nth_upd; assumption]|].
  left. rewrite !nth_overflow; [reflexivity|lia|rewrite upd_length; lia].
Qed.

(** Prolonging along several axes. [prolong] doubles ([v]=0) or doubles minus one ([v]=1). *)
Section Several.
Context (prolong : nat -> array A -> array A) (restrict : nat -> array A -> outcome (array A))
        (P R : nat -> (list Z -> A) -> list Z -> A) (v : Z).
Hypothesis Hv : v = 0 \/ v = 1.
Hypothesis HP : forall ax a sh F, okshape sh -> (ax < length sh)%nat -> 1 <= nth ax sh 0 -> 2 * nth ax sh 0 < two64 ->
  reps a sh F -> reps (prolong ax a) (upd ax (2 * nth ax sh 0 - v) sh) (P ax F).
Hypothesis HR : forall ax a sh F n, okshape sh -> (ax < length sh)%nat -> 1 <= n -> nth ax sh 0 = 2 * n - v -> nth ax sh 0 + 2 < two64 ->
  reps a sh F -> exists r, restrict ax a = Ok r /\ reps r (upd ax n sh) (R ax F).

Definition small (axes : list nat) (s : list Z) : Prop :=
  Forall (fun ax => (ax < length s)%nat /\ 1 <= nth ax s 0 /\ 2 * nth ax s 0 + 2 < two64) axes.

Lemma small_upd a x axes s : ~ In a axes -> small axes s -> small axes (upd a x s).
Proof.
  clear. intros Hn HS. apply Forall_forall. intros b Hb. unfold small in HS. rewrite Forall_forall in HS. specialize (HS b Hb).
  rewrite upd_length. rewrite nth_upd_other; [assumption|]. intros ->. contradiction.
Qed.

Lemma prolong_all_reps axes : forall (a : array A) sh F, okshape sh -> NoDup axes -> small axes sh -> reps a sh F ->
  okshape (scale (fun n => 2 * n - v) axes sh) /\
  reps (prolong_all prolong axes a) (scale (fun n => 2 * n - v) axes sh) (Pall P axes F).
Proof.
  clear HR restrict R half_double. induction axes as [|ax axes IH]; intros a sh F HO HN HS HRp; [split; assumption|].
  inversion HN; subst. inversion HS as [|? ? (H1' & H2' & H3') HS']; subst. rewrite scale_cons.
  change (prolong_all prolong (ax :: axes) a) with (prolong_all prolong axes (prolong ax a)).
  change (Pall P (ax :: axes) F) with (Pall P axes (P ax F)). cbv beta. apply IH.
  - apply okshape_upd; [assumption|]. destruct Hv; lia.
  - assumption.
  - apply small_upd; assumption.
  - apply HP; try assumption. lia.
Qed.

Lemma restrict_all_reps axes : forall (a : array A) sh F, okshape sh -> NoDup axes -> small axes sh ->
  okshape (scale (fun n => 2 * n - v) axes sh) ->
  reps a (scale (fun n => 2 * n - v) axes sh) F ->
  exists r, foldM (fun a ax => restrict ax a) a axes = Ok r /\ reps r sh (Rall R axes F).
Proof.
  clear HP prolong P half_double. induction axes as [|ax axes IH]; intros a sh F HO HN HS HO' HRp; [exists a; split; [reflexivity|assumption]|].
  inversion HN; subst. inversion HS as [|? ? (H1' & H2' & H3') HS']; subst. rewrite scale_cons in HO', HRp. cbv beta in HO', HRp.
  rewrite scale_upd in HO', HRp by assumption. cbn [foldM].
  destruct (HR ax a _ F (nth ax sh 0) HO') as (r & ER & RR).
  - rewrite upd_length, scale_length. assumption.
  - assumption.
  - rewrite nth_upd by (rewrite scale_length; assumption). reflexivity.
  - rewrite nth_upd by (rewrite scale_length; assumption). lia.
  - assumption.
  - rewrite ER. bsimp. rewrite upd_upd in RR. rewrite <- scale_upd, upd_nth in RR by assumption.
    apply IH; try assumption.
    rewrite <- (upd_nth ax (scale _ axes sh) 0), <- (upd_upd ax _ (2 * nth ax sh 0 - v)). apply okshape_upd; [assumption|].
    rewrite scale_nth_other by assumption. lia.
Qed.

Lemma coarsen_prolong axes (a : array A) sh F : lawful P R -> okshape sh -> NoDup axes -> small axes sh -> reps a sh F ->
  exists r, foldM (fun a ax => restrict ax a) (prolong_all prolong axes a) axes = Ok r /\ same r a.
Proof.
  clear half_double. intros HL HO HN HS HRp. destruct (prolong_all_reps axes a sh F HO HN HS HRp) as [HO' HR'].
  destruct (restrict_all_reps axes _ sh _ HO HN HS HO' HR') as (r & ER & RR). exists r. split; [assumption|].
  eapply reps_same; [|exact HRp]. eapply reps_ext; [exact RR|]. intros i Hi.
  apply (Rall_Pall P R HL (length sh)); [assumption| |symmetry; apply inb_length; assumption].
  eapply Forall_impl; [|exact HS]. simpl. tauto.
Qed.
End Several.

(** ** Bisecting and combining *)
Section Bisect.
Context (bisect : nat -> array A -> outcome (array A * array A)) (join : nat -> array A -> array A -> outcome (array A)) (v : Z).
Hypothesis Hv : v = 0 \/ v = 1.
(** A block of extent 2h+v has halves of extent h+v, starting at 0 and at h. *)
Hypothesis HB : forall ax a sh F h, okshape sh -> (ax < length sh)%nat -> 0 <= h -> nth ax sh 0 = 2 * h + v -> reps a sh F ->
  exists l u, bisect ax a = Ok (l, u) /\ reps l (upd ax (h + v) sh) F /\
    reps u (upd ax (h + v) sh) (fun i => F (upd ax (h + nth ax i 0) i)).
Hypothesis HJ : forall ax l u sh F G h, okshape sh -> (ax < length sh)%nat -> 0 <= h -> 2 * h + v < two64 ->
  reps l (upd ax (h + v) sh) F -> reps u (upd ax (h + v) sh) G ->
  exists c, join ax l u = Ok c /\ reps c (upd ax (2 * h + v) sh) (fun i => if nth ax i 0 <? h then F i else G (upd ax (nth ax i 0 - h) i)).

Definition halved (axes : list nat) (s : list Z) : list Z := scale (fun n => (n - v) / 2 + v) axes s.
Fixpoint shift (axes : list nat) (bs : list bool) (s : list Z) (F : list Z -> A) : list Z -> A :=
  match axes, bs with
  | ax :: axes', b :: bs' =>
      shift axes' bs' s (fun i => F (if b then upd ax ((nth ax s 0 - v) / 2 + nth ax i 0) i else i))
  | _, _ => F
  end.
Definition splittable (axes : list nat) (s : list Z) : Prop :=
  Forall (fun ax => (ax < length s)%nat /\ exists h, 0 <= h /\ nth ax s 0 = 2 * h + v) axes.

Lemma splittable_upd a x axes s : ~ In a axes -> splittable axes s -> splittable axes (upd a x s).
Proof.
  clear. intros Hn HS. apply Forall_forall. intros b Hb. unfold splittable in HS. rewrite Forall_forall in HS. specialize (HS b Hb).
  rewrite upd_length. rewrite nth_upd_other; [assumption|]. intros ->. contradiction.
Qed.
Lemma halfv h : 0 <= h -> (2 * h + v - v) / 2 = h.
Proof. clear. intros. replace (2 * h + v - v) with (h * 2) by lia. apply Z.div_mul. lia. Qed.

Lemma shift_upd_shape a x axes bs s F : ~ In a axes -> shift axes bs (upd a x s) F = shift axes bs s F.
Proof.
  clear. revert bs F; induction axes as [|b axes IH]; intros [|c bs] F Hn; simpl; try reflexivity.
  rewrite nth_upd_other by (intros ->; apply Hn; left; reflexivity). apply IH. intros Q; apply Hn; right; assumption.
Qed.

Lemma bisect_all_reps axes : forall bs (a : array A) sh F, okshape sh -> NoDup axes -> splittable axes sh -> length bs = length axes ->
  reps a sh F -> exists r, bisect_all bisect axes bs a = Ok r /\ reps r (halved axes sh) (shift axes bs sh F).
Proof.
  clear HJ join half_double. induction axes as [|ax axes IH]; intros [|b bs] a sh F HO HN HS HLb HRp; try discriminate;
    [exists a; split; [reflexivity|assumption]|].
  inversion HN; subst. inversion HS as [|? ? (HL' & h & Hh & Eh) HS']; subst. cbn [bisect_all].
  destruct (HB ax a sh F h HO HL' Hh Eh HRp) as (l & u & EB & RL & RU).
  unfold bisect_side. rewrite EB. bsimp. cbn [fst snd].
  pose proof (okshape_nth ax sh HO HL') as HN'.
  assert (HO2 : okshape (upd ax (h + v) sh)) by (apply okshape_upd; [assumption|destruct Hv; lia]).
  assert (RB : reps (if b then u else l) (upd ax (h + v) sh) (fun i => F (if b then upd ax (h + nth ax i 0) i else i))).
  { destruct b; [exact RU|exact RL]. }
  destruct (IH bs _ _ _ HO2 ltac:(assumption) (splittable_upd ax _ axes sh ltac:(assumption) HS') ltac:(simpl in HLb; congruence) RB) as (r & ER & RR).
  exists r. split; [exact ER|]. unfold halved in *. rewrite scale_cons. cbv beta. rewrite Eh, halfv by assumption. cbn [shift].
  rewrite shift_upd_shape in RR by assumption. rewrite Eh, halfv by assumption. exact RR.
Qed.

(** [shift] only changes the listed components, before F is applied. *)
Lemma shift_upd axes bs s F a x i : ~ In a axes -> shift axes bs s F (upd a x i) = shift axes bs s (fun j => F (upd a x j)) i.
Proof.
  clear. revert bs F i; induction axes as [|b axes IH]; intros [|c bs] F i Hn; simpl; try reflexivity.
  rewrite IH by (intros Q; apply Hn; right; assumption).
  assert (b <> a) by (intros ->; apply Hn; left; reflexivity).
  clear IH. revert i. assert (G : forall F1 F2, (forall j, F1 j = F2 j) -> forall i, shift axes bs s F1 i = shift axes bs s F2 i).
  { clear. revert bs; induction axes as [|b axes IH]; intros [|c bs] F1 F2 H i; simpl; auto. }
  apply G. intros j. destruct c; [|reflexivity]. rewrite nth_upd_other by assumption. rewrite upd_comm by congruence. reflexivity.
Qed.
Lemma shift_ext axes bs s F1 F2 i r : (forall j, length j = r -> F1 j = F2 j) -> length i = r -> shift axes bs s F1 i = shift axes bs s F2 i.
Proof.
  clear. revert bs F1 F2 i; induction axes as [|b axes IH]; intros [|c bs] F1 F2 i H HL; simpl; auto.
  apply IH; [|assumption]. intros j Hj. apply H. destruct c; [rewrite upd_length|]; assumption.
Qed.

(** Joining neighbours removes the first axis. *)
Lemma join_children ax axes bs sh F (cl cu : array A) : okshape sh -> ~ In ax axes -> (ax < length sh)%nat ->
  (exists h, 0 <= h /\ nth ax sh 0 = 2 * h + v) -> okshape (halved axes sh) ->
  reps cl (halved (ax :: axes) sh) (shift (ax :: axes) (false :: bs) sh F) ->
  reps cu (halved (ax :: axes) sh) (shift (ax :: axes) (true :: bs) sh F) ->
  exists c, join ax cl cu = Ok c /\ reps c (halved axes sh) (shift axes bs sh F).
Proof.
  clear HB bisect half_double. intros HO Hn HL (h & Hh & Eh) HO' RL RU.
  pose proof (okshape_nth ax sh HO HL) as HN'.
  unfold halved in RL, RU. rewrite scale_cons in RL, RU. cbv beta in RL, RU. rewrite Eh, halfv in RL, RU by assumption. rewrite scale_upd in RL, RU by assumption.
  fold (halved axes sh) in RL, RU.
  assert (HL2 : (ax < length (halved axes sh))%nat) by (unfold halved; rewrite scale_length; assumption).
  destruct (HJ ax cl cu (halved axes sh) _ _ h HO' HL2 Hh ltac:(lia) RL RU) as (c & EC & RC).
  exists c. split; [assumption|]. rewrite <- Eh in RC.
  assert (EN : nth ax (halved axes sh) 0 = nth ax sh 0) by (unfold halved; apply scale_nth_other; assumption).
  rewrite <- EN, upd_nth in RC. eapply reps_ext; [exact RC|]. intros i Hi. simpl.
  assert (HLi : (ax < length i)%nat) by (rewrite <- (inb_length _ _ Hi); assumption).
  destruct (Z.ltb_spec (nth ax i 0) h); [reflexivity|].
  rewrite Eh, halfv by assumption. rewrite shift_upd by assumption.
  (* both shifted components of [ax] cancel *)
  assert (G : forall bs' axes' F' (i' : list Z), ~ In ax axes' -> nth ax i' 0 = nth ax i 0 ->
     shift axes' bs' sh (fun j => F' (upd ax (h + nth ax (upd ax (nth ax i 0 - h) j) 0) (upd ax (nth ax i 0 - h) j))) i'
     = shift axes' bs' sh F' i').
  { clear -HLi Hh. 
    (* by induction, keeping the component *)
    assert (Q : forall axes' bs' (F1 F2 : list Z -> A) i', ~ In ax axes' -> (ax < length i')%nat ->
        (forall j, (ax < length j)%nat -> nth ax j 0 = nth ax i' 0 -> F1 j = F2 j) -> shift axes' bs' sh F1 i' = shift axes' bs' sh F2 i').
    { clear. induction axes' as [|b axes' IH]; intros [|c bs'] F1 F2 i' Hn HL H; simpl; auto.
      apply IH; [intros Q; apply Hn; right; assumption|assumption|].
      assert (ax <> b) by (intros ->; apply Hn; left; reflexivity).
      intros j Hj Ej. apply H; destruct c; try rewrite upd_length; try rewrite nth_upd_other by assumption; assumption. }
    intros bs' axes' F' i' Hn Ei. destruct (Nat.lt_ge_cases ax (length i')) as [HL|HL].
    - apply Q; [assumption|assumption|]. intros j Hj Ej. rewrite nth_upd by assumption. rewrite upd_upd.
      f_equal. rewrite Z.add_sub_assoc. replace (h + nth ax i 0 - h) with (nth ax i 0) by lia. rewrite <- Ei, <- Ej. apply upd_nth.
    - assert (U : forall (x : Z) l, (length l <= ax)%nat -> upd ax x l = l).
      { clear. revert ax. intros ax x l; revert ax; induction l; intros [|ax] H; simpl in *; try reflexivity; try lia. f_equal. apply IHl. lia. }
      apply (shift_ext axes' bs' sh _ _ i' (length i')); [|reflexivity]. intros j Hj. rewrite (U _ j) by lia. rewrite (U _ j) by lia. reflexivity. }
  apply (G bs axes F i); [assumption|reflexivity].
Qed.

Lemma orthants_length axes : Forall (fun bs => length bs = length axes) (orthants axes).
Proof.
  clear. induction axes as [|ax axes IH]; simpl; [repeat constructor|]. apply Forall_flat_map. eapply Forall_impl; [|exact IH].
  intros bs H. repeat constructor; simpl; congruence.
Qed.

Lemma halved_ok axes s : okshape s -> NoDup axes -> splittable axes s -> okshape (halved axes s).
Proof.
  clear HB HJ half_double bisect join. revert s; induction axes as [|ax axes IH]; intros s HO HN HS; [assumption|]. inversion HN; subst. inversion HS as [|? ? (HL & h & Hh & Eh) HS']; subst.
  unfold halved. rewrite scale_cons. cbv beta. apply IH; [|assumption|apply splittable_upd; assumption].
  apply okshape_upd; [assumption|]. pose proof (okshape_nth ax s HO HL). rewrite Eh, halfv by assumption. destruct Hv; lia.
Qed.

Lemma combine_reps axes : forall cs sh F, okshape sh -> NoDup axes -> splittable axes sh ->
  Forall2 (fun bs c => reps c (halved axes sh) (shift axes bs sh F)) (orthants axes) cs ->
  exists c, combine_pieces join axes cs = Ok c /\ reps c sh F.
Proof.
  induction axes as [|ax axes IH]; intros cs sh F HO HN HS HF.
  - simpl in HF. inversion HF as [|? ? ? ? R Q]; subst. inversion Q; subst. eexists; split; [reflexivity|assumption].
  - inversion HN; subst. inversion HS as [|? ? (HL & HH) HS']; subst. cbn [combine_pieces].
    assert (HO' := halved_ok axes sh HO ltac:(assumption) HS').
    assert (PW : exists r, pairwise (join ax) cs = Ok r /\ Forall2 (fun bs c => reps c (halved axes sh) (shift axes bs sh F)) (orthants axes) r).
    { simpl orthants in HF. clear IH HS. revert cs HF. generalize (orthants axes) as os. induction os as [|bs os IHo]; intros cs HF.
      - inversion HF; subst. exists []. split; [reflexivity|constructor].
      - simpl in HF. inversion HF as [|? cl ? cs1 RL Q1]; subst. inversion Q1 as [|? cu ? cs2 RU Q2]; subst.
        destruct (join_children ax axes bs sh F cl cu) as (c & EC & RC); try assumption.
        destruct (IHo cs2 Q2) as (r & ER & RR). exists (c :: r). cbn [pairwise]. rewrite EC. bsimp. rewrite ER. bsimp.
        split; [reflexivity|]. constructor; assumption. }
    destruct PW as (r & ER & RR). rewrite ER. bsimp. apply IH; assumption.
Qed.

Lemma children_reps axes (a : array A) sh F : okshape sh -> NoDup axes -> splittable axes sh -> reps a sh F ->
  exists cs, mapM (fun bs => bisect_all bisect axes bs a) (orthants axes) = Ok cs /\
    Forall2 (fun bs c => reps c (halved axes sh) (shift axes bs sh F)) (orthants axes) cs.
Proof.
  clear HJ half_double. intros HO HN HS HR. pose proof (orthants_length axes) as HL. revert HL. generalize (orthants axes) as os.
  induction os as [|bs os IH]; intros HL; [exists []; split; [reflexivity|constructor]|]. inversion HL; subst.
  destruct (bisect_all_reps axes bs a sh F HO HN HS ltac:(assumption) HR) as (c & EC & RC). destruct (IH ltac:(assumption)) as (cs & ES & RS).
  exists (c :: cs). cbn [mapM]. rewrite EC. bsimp. rewrite ES. bsimp. split; [reflexivity|]. constructor; assumption.
Qed.

Lemma split_combine axes (a : array A) sh F : okshape sh -> NoDup axes -> splittable axes sh -> reps a sh F ->
  exists cs c, mapM (fun bs => bisect_all bisect axes bs a) (orthants axes) = Ok cs /\ combine_pieces join axes cs = Ok c /\ reps c sh F.
Proof.
  intros HO HN HS HR. destruct (children_reps axes a sh F HO HN HS HR) as (cs & ES & RS).
  destruct (combine_reps axes cs sh F HO HN HS RS) as (c & EC & RC). eauto.
Qed.
End Bisect.

(** ** Instances *)

Lemma bisect_cells_reps ax (a : array A) sh F h : okshape sh -> (ax < length sh)%nat -> 0 <= h -> nth ax sh 0 = 2 * h + 0 -> reps a sh F ->
  exists l u, bisect_cells ax a = Ok (l, u) /\ reps l (upd ax (h + 0) sh) F /\
    reps u (upd ax (h + 0) sh) (fun i => F (upd ax (h + nth ax i 0) i)).
Proof.
  clear half_double half add. intros HO HL Hh Eh HR. pose proof (okshape_nth ax sh HO HL). unfold bisect_cells. rewrite (proj1 HR), Eh.
  replace (2 * h + 0) with (h * 2) by lia. rewrite Z.mod_mul, Z.div_mul by lia. cbn [Z.eqb negb].
  destruct (select_unit_reps ax 0 h h false a sh F HO HL HR eq_refl ltac:(lia) ltac:(lia)) as (l & EL & RL).
  destruct (select_unit_reps ax h 0 (nth ax sh 0) true a sh F HO HL HR) as (u & EU & RU).
  { rewrite Z.sub_0_r. apply w64_small. lia. } { lia. } { lia. }
  rewrite EL, EU. bsimp. exists l, u. split; [reflexivity|].
  replace (nth ax sh 0 - h) with (h + 0) in RU by lia. replace (h - 0) with (h + 0) in RL by lia. split; [|exact RU].
  eapply reps_ext; [exact RL|]. intros i _. cbv beta. rewrite Z.add_0_l, upd_nth. reflexivity.
Qed.

Lemma bisect_verts_reps ax (a : array A) sh F h : okshape sh -> (ax < length sh)%nat -> 0 <= h -> nth ax sh 0 = 2 * h + 1 -> reps a sh F ->
  exists l u, bisect_verts ax a = Ok (l, u) /\ reps l (upd ax (h + 1) sh) F /\
    reps u (upd ax (h + 1) sh) (fun i => F (upd ax (h + nth ax i 0) i)).
Proof.
  clear half_double half add. intros HO HL Hh Eh HR. pose proof (okshape_nth ax sh HO HL). unfold bisect_verts. rewrite (proj1 HR), Eh.
  replace (2 * h + 1) with (1 + h * 2) by lia. rewrite Z.mod_add, Z.div_add by lia. change (1 mod 2 =? 0) with false. change (1 / 2) with 0. cbv iota.
  rewrite w64_small by lia.
  destruct (select_unit_reps ax 0 (0 + h + 1) (h + 1) false a sh F HO HL HR ltac:(cbv iota; lia) ltac:(lia) ltac:(lia)) as (l & EL & RL).
  destruct (select_unit_reps ax (0 + h) 0 (nth ax sh 0) true a sh F HO HL HR) as (u & EU & RU).
  { rewrite Z.sub_0_r. apply w64_small. lia. } { lia. } { lia. }
  rewrite EL, EU. bsimp. exists l, u. split; [reflexivity|].
  replace (nth ax sh 0 - (0 + h)) with (h + 1) in RU by lia. rewrite Z.sub_0_r in RL. split; [|exact RU].
  eapply reps_ext; [exact RL|]. intros i _. cbv beta. rewrite Z.add_0_l, upd_nth. reflexivity.
Qed.

Lemma join_cells_reps ax (l u : array A) sh F G h : okshape sh -> (ax < length sh)%nat -> 0 <= h -> 2 * h + 0 < two64 ->
  reps l (upd ax (h + 0) sh) F -> reps u (upd ax (h + 0) sh) G ->
  exists c, join_cells ax l u = Ok c /\ reps c (upd ax (2 * h + 0) sh) (fun i => if nth ax i 0 <? h then F i else G (upd ax (nth ax i 0 - h) i)).
Proof.
  clear half_double half add. intros HO HL Hh Hb RL RU. rewrite Z.add_0_r in *.
  destruct (concat_reps ax l u sh h h F G HO HL Hh Hh ltac:(lia) RL RU) as (c & EC & RC). exists c. split; [assumption|].
  replace (2 * h) with (h + h) by lia. assumption.
Qed.

Lemma join_verts_reps ax (l u : array A) sh F G h : okshape sh -> (ax < length sh)%nat -> 0 <= h -> 2 * h + 1 < two64 ->
  reps l (upd ax (h + 1) sh) F -> reps u (upd ax (h + 1) sh) G ->
  exists c, join_verts ax l u = Ok c /\ reps c (upd ax (2 * h + 1) sh) (fun i => if nth ax i 0 <? h then F i else G (upd ax (nth ax i 0 - h) i)).
Proof.
  clear half_double half add. intros HO HL Hh Hb RL RU. unfold join_verts.
  assert (HO' : okshape (upd ax (h + 1) sh)) by (apply okshape_upd; [assumption|lia]).
  assert (HL' : (ax < length (upd ax (h + 1)%Z sh))%nat) by (rewrite upd_length; assumption).
  destruct (select_unit_reps ax 0 1 h true l _ F HO' HL' RL) as (d & ED & RD).
  { rewrite nth_upd by assumption. rewrite w64_small; lia. } { lia. } { rewrite nth_upd by assumption. lia. }
  rewrite ED. bsimp. rewrite upd_upd, Z.sub_0_r in RD.
  destruct (concat_reps ax d u sh h (h + 1) _ G HO HL Hh ltac:(lia) ltac:(lia) RD RU) as (c & EC & RC). exists c. split; [assumption|].
  replace (2 * h + 1) with (h + (h + 1)) by lia. eapply reps_ext; [exact RC|]. intros i _. cbv beta. rewrite Z.add_0_l, upd_nth. reflexivity.
Qed.

(** Scaled shapes are splittable. *)
Lemma scale_splittable w v axes s : (w = 0 /\ v = 0 \/ w = 1 /\ v = 1) -> NoDup axes -> small axes s ->
  splittable v axes (scale (fun n => 2 * n - w) axes s).
Proof.
  clear. intros Hw HN HS. apply Forall_forall. intros ax Hax. rewrite scale_length. unfold small in HS. rewrite Forall_forall in HS.
  destruct (HS ax Hax) as (H1 & H2 & H3). split; [assumption|].
  assert (E : nth ax (scale (fun n => 2 * n - w) axes s) 0 = 2 * nth ax s 0 - w).
  { clear -Hax HN H1. revert s H1. induction axes as [|b axes IH]; [contradiction|]. intros s H1. inversion HN; subst. rewrite scale_cons. cbv beta.
    destruct Hax as [->|Hax].
    - rewrite scale_nth_other by assumption. rewrite nth_upd by assumption. reflexivity.
    - assert (ax <> b) by (intros ->; contradiction). rewrite IH; [rewrite nth_upd_other by assumption; reflexivity|assumption|assumption|rewrite upd_length; assumption]. }
  destruct Hw as [[-> ->]|[-> ->]]; [exists (nth ax s 0)|exists (nth ax s 0 - 1)]; lia.
Qed.
End Ops.
