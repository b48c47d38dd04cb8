(** C107: writing and resizing parts of data sets, and the time series file. *)
From Coq Require Import ZArith List Bool Lia Sorted Ascii String Reals Lra.
From Verif Require Import Base StrModel MapModel MapProofs NdModel NdProofs2 ScheduleModel DriftProofs RunModel RunSpec RunProofs RunProps
  PartdomModel ExtentModel.
Import ListNotations.
Open Scope Z_scope.
Close Scope string_scope.

(** Specification: the positions of a selection, one coordinate at a time: [count] blocks, [skips] apart. *)
Fixpoint in_slab (start count skips block i : list Z) : Prop :=
  match start, count, skips, block, i with
  | [], [], [], [], [] => True
  | s :: st, c :: co, k :: sk, b :: bl, x :: i' =>
      (exists j m, 0 <= j < c /\ 0 <= m < b /\ x = s + j * k + m) /\ in_slab st co sk bl i'
  | _, _, _, _, _ => False
  end.
(** Row-major order. *)
Fixpoint lexlt (i j : list Z) : Prop :=
  match i, j with
  | x :: i', y :: j' => x < y \/ (x = y /\ lexlt i' j')
  | _, _ => False
  end.
Definition inside (i dims : list Z) : Prop := Forall2 (fun x n => 0 <= x < n) i dims.

Lemma within_inside i : forall dims, within i dims = true <-> inside i dims.
Proof.
  unfold inside. induction i as [|x i IH]; intros [|n dims]; cbn [within].
  - split; [constructor|reflexivity].
  - split; [discriminate|intros H; inversion H].
  - split; [discriminate|intros H; inversion H].
  - rewrite !andb_true_iff, IH, Z.leb_le, Z.ltb_lt. split.
    + intros [[H1 H2] H3]. constructor; auto.
    + intros H. inversion H; subst. tauto.
Qed.

Lemma lexlt_irrefl i : ~ lexlt i i.
Proof. induction i as [|x i IH]; cbn; [tauto|]. intros [H|[_ H]]; [lia|auto]. Qed.

Lemma sorted_nodup l : StronglySorted lexlt l -> NoDup l.
Proof.
  induction 1 as [|a l H IH HF]; constructor; auto. intros Hin. rewrite Forall_forall in HF. apply (lexlt_irrefl a). auto.
Qed.

Lemma sorted_app {A} (R : A -> A -> Prop) l1 l2 : StronglySorted R l1 -> StronglySorted R l2 ->
  (forall x y, In x l1 -> In y l2 -> R x y) -> StronglySorted R (l1 ++ l2).
Proof.
  induction 1 as [|a l1 H IH HF]; intros H2 HR; cbn; auto. constructor.
  - apply IH; auto. intros x y Hx Hy. apply HR; auto. right. exact Hx.
  - rewrite Forall_forall in *. intros x Hx. apply in_app_iff in Hx. destruct Hx as [Hx|Hx]; auto. apply HR; auto. left. reflexivity.
Qed.
Lemma sorted_flat {A B} (R : A -> A -> Prop) (f : B -> list A) l (Q : B -> B -> Prop) : StronglySorted Q l ->
  (forall b, In b l -> StronglySorted R (f b)) -> (forall b b' x y, In b l -> In b' l -> Q b b' -> In x (f b) -> In y (f b') -> R x y) ->
  StronglySorted R (flat_map f l).
Proof.
  induction 1 as [|a l H IH HF]; intros H1 H2; cbn; [constructor|]. apply sorted_app.
  - apply H1. left. reflexivity.
  - apply IH; [intros b Hb; apply H1; right; exact Hb|]. intros b b' x y Hb Hb'. apply H2; right; assumption.
  - intros x y Hx Hy. apply in_flat_map in Hy. destruct Hy as (b & Hb & Hy). rewrite Forall_forall in HF.
    apply (H2 a b x y); auto; [left; reflexivity|right; exact Hb].
Qed.
Lemma sorted_map {A B} (R : A -> A -> Prop) (Q : B -> B -> Prop) (f : B -> A) l : StronglySorted Q l ->
  (forall b b', Q b b' -> R (f b) (f b')) -> StronglySorted R (map f l).
Proof.
  induction 1 as [|a l H IH HF]; intros HR; cbn; constructor; auto. rewrite Forall_forall in *. intros x Hx. apply in_map_iff in Hx.
  destruct Hx as (b & <- & Hb). auto.
Qed.
Lemma seq_sorted n : forall a, StronglySorted lt (seq a n).
Proof. induction n as [|n IH]; intros a; cbn; constructor; auto. rewrite Forall_forall. intros x Hx. apply in_seq in Hx. lia. Qed.

Lemma selected_on_in s c k b x : In x (selected_on s c k b) <-> exists j m, 0 <= j < c /\ 0 <= m < b /\ x = s + j * k + m.
Proof.
  unfold selected_on. rewrite in_flat_map. split.
  - intros (j & Hj & Hx). apply in_map_iff in Hx. destruct Hx as (m & <- & Hm). apply in_seq in Hj, Hm.
    exists (Z.of_nat j), (Z.of_nat m). lia.
  - intros (j & m & Hj & Hm & ->). exists (Z.to_nat j). split; [apply in_seq; lia|]. apply in_map_iff. exists (Z.to_nat m).
    split; [rewrite !Z2Nat.id by lia; reflexivity|]. apply in_seq. lia.
Qed.
Lemma selected_on_sorted s c k b : 0 < k -> c <= 1 \/ b <= k -> StronglySorted Z.lt (selected_on s c k b).
Proof.
  intros Hk Hb. unfold selected_on. apply sorted_flat with (Q := lt).
  - apply seq_sorted.
  - intros j _. apply sorted_map with (Q := lt); [apply seq_sorted|]. intros; lia.
  - intros j j' x y Hj Hj' Hlt Hx Hy. apply in_map_iff in Hx, Hy. destruct Hx as (m & <- & Hm). destruct Hy as (m' & <- & Hm').
    apply in_seq in Hj, Hj', Hm, Hm'. nia.
Qed.
Lemma selected_on_length s c k b : Datatypes.length (selected_on s c k b) = (Z.to_nat c * Z.to_nat b)%nat.
Proof.
  unfold selected_on. generalize 0%nat at 2. induction (Z.to_nat c) as [|n IH]; intros a; cbn; [reflexivity|].
  rewrite app_length, map_length, seq_length, IH. reflexivity.
Qed.

Lemma selected_in st : forall co sk bl i, Datatypes.length co = Datatypes.length st -> Datatypes.length sk = Datatypes.length st ->
  Datatypes.length bl = Datatypes.length st -> (In i (selected st co sk bl) <-> in_slab st co sk bl i).
Proof.
  induction st as [|s st IH]; intros [|c co] [|k sk] [|b bl] i H1 H2 H3; try discriminate.
  - cbn. destruct i; split; try tauto; intros [H|[]]; discriminate H.
  - cbn [selected in_slab]. rewrite in_flat_map. destruct i as [|x i].
    + split; [|tauto]. intros (y & _ & Hy). apply in_map_iff in Hy. destruct Hy as (z & Hz & _). discriminate Hz.
    + rewrite <- selected_on_in, <- IH by (cbn in *; congruence). split.
      * intros (y & Hy & Hx). apply in_map_iff in Hx. destruct Hx as (z & E & Hz). injection E as -> ->. auto.
      * intros [Hx Hi]. exists x. split; [exact Hx|]. apply in_map. exact Hi.
Qed.
Lemma selected_sorted st : forall co sk bl, slab_accepted co sk bl = true -> StronglySorted lexlt (selected st co sk bl).
Proof.
  induction st as [|s st IH]; intros co sk bl HA; [cbn; repeat constructor|].
  destruct co as [|c co]; [cbn; repeat constructor|]. destruct sk as [|k sk]; [cbn; repeat constructor|].
  destruct bl as [|b bl]; [cbn; repeat constructor|]. cbn [slab_accepted] in HA. cbn [selected].
  apply andb_prop in HA. destruct HA as [HA HA2]. apply andb_prop in HA. destruct HA as [Hk Hb]. apply Z.ltb_lt in Hk.
  apply orb_prop in Hb. assert (Hcb : c <= 1 \/ b <= k) by (destruct Hb as [Hb|Hb]; apply Z.leb_le in Hb; auto).
  apply sorted_flat with (Q := Z.lt).
  - apply selected_on_sorted; auto.
  - intros x _. apply sorted_map with (Q := lexlt); [apply IH; exact HA2|]. intros i j Hij. cbn. auto.
  - intros x x' i j _ _ Hlt Hi Hj. apply in_map_iff in Hi, Hj. destruct Hi as (i' & <- & _). destruct Hj as (j' & <- & _). cbn. auto.
Qed.

Lemma select_ok h s s' : select h s = Ok s' ->
  s' = mksp (sp_dims s) (SelSlab h) /\ slab_accepted (sl_count h) (sl_skips h) (sl_block h) = true /\
  Datatypes.length (sl_start h) = rank s /\ Datatypes.length (sl_count h) = rank s /\
  Datatypes.length (sl_skips h) = rank s /\ Datatypes.length (sl_block h) = rank s.
Proof.
  unfold select, check_valid. intros H.
  destruct (((Datatypes.length (sl_start h) =? rank s)%nat && (Datatypes.length (sl_skips h) =? rank s)%nat &&
    (Datatypes.length (sl_count h) =? rank s)%nat && (Datatypes.length (sl_block h) =? rank s)%nat)) eqn:E; [|discriminate H].
  cbn [bind] in H. destruct (slab_accepted _ _ _) eqn:EA; [|discriminate H]. injection H as <-.
  apply andb_prop in E. destruct E as [E E4]. apply andb_prop in E. destruct E as [E E3]. apply andb_prop in E. destruct E as [E1 E2].
  apply Nat.eqb_eq in E1, E2, E3, E4. split; [reflexivity|]. auto.
Qed.

(** The positions of a space are the selected ones, in row-major order; nothing is selected twice. *)
Theorem selection_correct : forall (h : hyperslab) (s s' : space), select h s = Ok s' ->
  sp_dims s' = sp_dims s /\ StronglySorted lexlt (positions s') /\
  (forall i, In i (positions s') <-> in_slab (sl_start h) (sl_count h) (sl_skips h) (sl_block h) i).
Proof.
  intros h s s' H. apply select_ok in H. destruct H as (-> & HA & H1 & H2 & H3 & H4). split; [reflexivity|].
  split; [apply selected_sorted; exact HA|]. intros i. apply selected_in; congruence.
Qed.

Lemma all_accepted dims : slab_accepted dims (map (fun _ => 1) dims) (map (fun _ => 1) dims) = true.
Proof. induction dims as [|n dims IH]; cbn; [reflexivity|]. rewrite IH. rewrite orb_true_r. reflexivity. Qed.
Lemma all_inside dims : forall i, In i (positions (mksp dims SelAll)) <-> inside i dims.
Proof.
  unfold positions, inside. cbn [sp_sel sp_dims]. intros i. rewrite selected_in by (rewrite ?map_length; reflexivity).
  revert i. induction dims as [|n dims IH]; intros [|x i]; cbn; try tauto.
  - split; [constructor|auto].
  - split; [tauto|intros H; inversion H].
  - split; [tauto|intros H; inversion H].
  - rewrite IH. split.
    + intros ((j & m & Hj & Hm & ->) & H). constructor; [lia|exact H].
    + intros H. inversion H; subst. split; [|assumption]. exists x, 0. lia.
Qed.
Lemma all_sorted dims : StronglySorted lexlt (positions (mksp dims SelAll)).
Proof. apply selected_sorted. apply all_accepted. Qed.

Lemma flat_map_const_length {A B} (f : A -> list B) n l : (forall a, In a l -> Datatypes.length (f a) = n) ->
  Datatypes.length (flat_map f l) = (Datatypes.length l * n)%nat.
Proof.
  induction l as [|a l IH]; intros H; cbn; [reflexivity|]. rewrite app_length, IH, (H a); auto; [left; reflexivity|].
  intros b Hb. apply H. right. exact Hb.
Qed.
Lemma all_length dims : Forall (fun n => 0 <= n) dims -> Z.of_nat (Datatypes.length (positions (mksp dims SelAll))) = size (mksp dims SelAll).
Proof.
  unfold positions, size. cbn [sp_sel sp_dims]. induction 1 as [|n dims Hn HF IH]; [reflexivity|]. cbn [map selected fold_right].
  rewrite (flat_map_const_length _ (Datatypes.length (selected (map (fun _ => 0) dims) dims (map (fun _ => 1) dims) (map (fun _ => 1) dims)))).
  - rewrite Nat2Z.inj_mul, IH, selected_on_length. change (Z.to_nat 1) with 1%nat. rewrite Nat.mul_1_r, Z2Nat.id by exact Hn. reflexivity.
  - intros a _. apply map_length.
Qed.

Section Extent.
Context {D : Type} (fill : D).
Local Notation dset := (@ExtentModel.dset D).
Local Notation columns := (@ExtentModel.columns D).

Lemma put_all_out l : forall (f : list Z -> D) j, ~ In j (map fst l) -> put_all f l j = f j.
Proof.
  induction l as [|[i v] l IH]; intros f j H; cbn [put_all]; [reflexivity|].
  rewrite IH by (intros Q; apply H; right; exact Q). rewrite seq_eqb_neq; [reflexivity|]. intros E. apply H. left. exact E.
Qed.
Lemma put_all_in l : forall (f : list Z -> D) i v, NoDup (map fst l) -> In (i, v) l -> put_all f l i = v.
Proof.
  induction l as [|[i' v'] l IH]; intros f i v HN HI; [destruct HI|]. inversion HN; subst. cbn [put_all]. destruct HI as [E|HI].
  - injection E as -> ->. rewrite put_all_out by assumption. rewrite seq_eqb_refl. reflexivity.
  - apply IH; auto.
Qed.
Lemma combine_fst {A B} (l : list A) : forall (m : list B), Datatypes.length l = Datatypes.length m -> map fst (combine l m) = l.
Proof. induction l as [|a l IH]; intros [|b m] H; cbn in *; try discriminate; auto. f_equal. apply IH. congruence. Qed.
Lemma combine_nth_error {A B} (l : list A) : forall (m : list B) k a b, nth_error l k = Some a -> nth_error m k = Some b -> In (a, b) (combine l m).
Proof.
  induction l as [|x l IH]; intros [|y m] [|k] a b H1 H2; cbn in *; try discriminate.
  - injection H1 as ->. injection H2 as ->. auto.
  - right. eauto.
Qed.

Lemma write_ok (values : list D) s d d' : write values s d = Ok d' ->
  sp_dims s = d_dims d /\ (forall i, In i (positions s) -> inside i (d_dims d)) /\ Datatypes.length (positions s) = Datatypes.length values /\
  d' = mkdset (d_dims d) (d_grows d) (d_chunk d) (put_all (d_data d) (combine (positions s) values)).
Proof.
  unfold write. destruct (seq_eqb (sp_dims s) (d_dims d)) eqn:E; [|discriminate]. cbn [negb].
  destruct (forallb _ _) eqn:EF; [|discriminate]. cbn [negb].
  destruct (Datatypes.length (positions s) =? Datatypes.length values)%nat eqn:EL; [|discriminate]. cbn [negb].
  intros H. injection H as <-. apply seq_eqb_spec in E. apply Nat.eqb_eq in EL. split; [exact E|]. split; [|auto].
  intros i Hi. rewrite forallb_forall in EF. apply within_inside. auto.
Qed.

(** A write to a selection succeeds exactly if the selection lies in the data set and is as large as the value; it gives element
    number [k] of the selection the value number [k], and changes nothing else. *)
Theorem write_changes_selection : forall (h : hyperslab) (s : space) (values : list D) (d : dset), select h (get_space d) = Ok s ->
  (((forall i, In i (positions s) -> inside i (d_dims d)) /\ Datatypes.length values = Datatypes.length (positions s)) <->
   exists d', write values s d = Ok d') /\
  forall d', write values s d = Ok d' ->
    d_dims d' = d_dims d /\
    (forall k i, nth_error (positions s) k = Some i -> nth_error values k = Some (d_data d' i)) /\
    (forall i, ~ In i (positions s) -> d_data d' i = d_data d i).
Proof.
  intros h s values d HS. destruct (selection_correct h _ _ HS) as (HD & HSo & _). split.
  - split.
    + intros [HI HL]. eexists. unfold write. rewrite HD. cbn [get_space sp_dims]. rewrite seq_eqb_refl. cbn [negb].
      assert (HF : forallb (fun i => within i (d_dims d)) (positions s) = true)
        by (apply forallb_forall; intros i Hi; apply within_inside; auto).
      rewrite HF. cbn [negb]. rewrite (proj2 (Nat.eqb_eq _ _) (eq_sym HL)). reflexivity.
    + intros (d' & H). apply write_ok in H. destruct H as (_ & HI & HL & _). auto.
  - intros d' H. apply write_ok in H. destruct H as (_ & HI & HL & ->). cbn [d_dims d_data].
    pose proof (combine_fst (positions s) values HL) as HC. split; [reflexivity|]. split.
    + intros k i Hk. destruct (nth_error values k) as [v|] eqn:Ev.
      * f_equal. symmetry. apply put_all_in; [rewrite HC; apply sorted_nodup; exact HSo|]. eapply combine_nth_error; eauto.
      * exfalso. apply nth_error_None in Ev. assert (k < Datatypes.length (positions s))%nat by (apply nth_error_Some; congruence). lia.
    + intros i Hi. apply put_all_out. rewrite HC. exact Hi.
Qed.

(** Writes to selections that do not overlap can be made in any order. *)
Theorem disjoint_writes_commute : forall (h1 h2 : hyperslab) (s1 s2 : space) (v1 v2 : list D) (d d1 d12 d2 d21 : dset),
  select h1 (get_space d) = Ok s1 -> select h2 (get_space d) = Ok s2 ->
  (forall i, ~ (In i (positions s1) /\ In i (positions s2))) ->
  write v1 s1 d = Ok d1 -> write v2 s2 d1 = Ok d12 -> write v2 s2 d = Ok d2 -> write v1 s1 d2 = Ok d21 ->
  d_dims d12 = d_dims d21 /\ forall i, d_data d12 i = d_data d21 i.
Proof.
  intros h1 h2 s1 s2 v1 v2 d d1 d12 d2 d21 HS1 HS2 HX W1 W12 W2 W21.
  destruct (selection_correct h1 _ _ HS1) as (_ & HO1 & _). destruct (selection_correct h2 _ _ HS2) as (_ & HO2 & _).
  apply write_ok in W1, W12, W2, W21. destruct W1 as (_ & _ & L1 & ->). destruct W12 as (_ & _ & _ & ->).
  destruct W2 as (_ & _ & L2 & ->). destruct W21 as (_ & _ & _ & ->). cbn [d_dims d_data]. split; [reflexivity|]. intros i.
  pose proof (combine_fst (positions s1) v1 L1) as C1. pose proof (combine_fst (positions s2) v2 L2) as C2.
  pose proof (sorted_nodup _ HO1) as N1. pose proof (sorted_nodup _ HO2) as N2.
  destruct (in_dec (list_eq_dec Z.eq_dec) i (positions s1)) as [I1|I1].
  - rewrite put_all_out by (rewrite C2; intros I2; exact (HX i (conj I1 I2))).
    destruct (In_nth_error _ _ I1) as (k & Hk). destruct (nth_error v1 k) as [v|] eqn:Ev.
    + pose proof (combine_nth_error _ _ _ _ _ Hk Ev) as HI. rewrite !(put_all_in _ _ i v); auto; rewrite C1; exact N1.
    + apply nth_error_None in Ev. assert (k < Datatypes.length (positions s1))%nat by (apply nth_error_Some; congruence). lia.
  - rewrite (put_all_out (combine (positions s1) v1)) with (j := i) by (rewrite C1; exact I1).
    destruct (in_dec (list_eq_dec Z.eq_dec) i (positions s2)) as [I2|I2].
    + destruct (In_nth_error _ _ I2) as (k & Hk). destruct (nth_error v2 k) as [v|] eqn:Ev.
      * pose proof (combine_nth_error _ _ _ _ _ Hk Ev) as HI. rewrite !(put_all_in _ _ i v); auto; rewrite C2; exact N2.
      * apply nth_error_None in Ev. assert (k < Datatypes.length (positions s2))%nat by (apply nth_error_Some; congruence). lia.
    + rewrite !put_all_out; auto; rewrite ?C1, ?C2; auto.
Qed.

(** Reading all of a data set gives its elements in row-major order. *)
Theorem read_all_correct : forall (d : dset), Forall (fun n => 0 <= n) (d_dims d) ->
  read WVector (get_space d) d = Ok (map (d_data d) (positions (get_space d))) /\
  read (WArray (Datatypes.length (d_dims d))) (get_space d) d = Ok (map (d_data d) (positions (get_space d))) /\
  StronglySorted lexlt (positions (get_space d)) /\ (forall i, In i (positions (get_space d)) <-> inside i (d_dims d)).
Proof.
  intros d HF. split; [|split; [|split; [apply all_sorted|apply all_inside]]].
  all: unfold read; cbn [get_space sp_dims]; rewrite seq_eqb_refl; cbn [negb prepared rank sp_dims]; rewrite ?Nat.eqb_refl; cbn [bind].
  all: assert (HB : forallb (fun i => within i (d_dims d)) (positions (mksp (d_dims d) SelAll)) = true)
    by (apply forallb_forall; intros i Hi; apply within_inside; apply all_inside; exact Hi).
  all: unfold get_space; rewrite HB; cbn [negb]; unfold selection_size; rewrite all_length by exact HF; rewrite Z.eqb_refl; reflexivity.
Qed.

(** A vector or array cannot be read from a selection that leaves anything out: the room made for it is that of the whole
    data set. *)
Theorem partial_read_refuted : forall (h : hyperslab) (s : space) (d : dset) (i : list Z) (w : wanted),
  Forall (fun n => 0 <= n) (d_dims d) -> select h (get_space d) = Ok s -> inside i (d_dims d) -> ~ In i (positions s) ->
  w <> WNumber -> exists e, read w s d = Throw e.
Proof.
  intros h s d i w HF HS HI HN HW. destruct (selection_correct h _ _ HS) as (HD & HSo & _).
  unfold read. rewrite HD. cbn [get_space sp_dims]. rewrite seq_eqb_refl. cbn [negb].
  assert (HP : (exists e, prepared w s = Throw e) \/ prepared w s = Ok (size s)).
  { destruct w as [| |r]; [contradiction|right; reflexivity|]. cbn. destruct (r =? rank s)%nat; [right; reflexivity|left; eauto]. }
  destruct HP as [(e & ->)| ->]; [exists e; reflexivity|]. cbn [bind].
  destruct (forallb (fun i => within i (d_dims d)) (positions s)) eqn:EF; [|eexists; reflexivity]. cbn [negb].
  assert (HSZ : (size s =? selection_size s) = false).
  { apply Z.eqb_neq. intros E. apply HN.
    assert (HA : incl (positions (get_space d)) (positions s)).
    { apply NoDup_length_incl; [apply sorted_nodup; exact HSo| |].
      - apply Nat2Z.inj_le. unfold get_space at 1. rewrite all_length by exact HF. unfold selection_size in E.
        change (size (mksp (d_dims d) SelAll)) with (size (get_space d)). unfold size in *. cbn [get_space sp_dims] in *. rewrite <- HD. lia.
      - intros j Hj. rewrite forallb_forall in EF. apply all_inside. apply within_inside. auto. }
    apply HA. apply all_inside. exact HI. }
  rewrite HSZ. eexists; reflexivity.
Qed.

(** One number can be written to and read from a selection of one element. *)
Theorem number_read_back : forall (h : hyperslab) (s : space) (d d' : dset) (v : D),
  select h (get_space d) = Ok s -> write [v] s d = Ok d' -> read WNumber s d' = Ok [v].
Proof.
  intros h s d d' v HS HW. destruct (write_changes_selection h s [v] d HS) as [_ HC]. destruct (HC d' HW) as (HD & HV & _).
  apply write_ok in HW. destruct HW as (E & HI & HL & _). unfold read. rewrite E, HD, seq_eqb_refl. cbn [negb prepared bind].
  assert (HB : forallb (fun i => within i (d_dims d)) (positions s) = true) by (apply forallb_forall; intros i Hi; apply within_inside; auto).
  rewrite HB. cbn [negb]. unfold selection_size. rewrite HL. cbn [Datatypes.length Z.of_nat Z.eqb negb].
  destruct (positions s) as [|i [|j l]]; try discriminate HL. cbn [map]. specialize (HV 0%nat i eq_refl). cbn in HV. injection HV as ->. reflexivity.
Qed.

(** Resizing keeps what is in both extents and fills the rest; it works for data sets made to grow and no others. *)
Theorem set_extent_keeps : forall (dims : list Z) (d : dset),
  (Datatypes.length dims = Datatypes.length (d_dims d) -> d_grows d = true -> d_chunk d <> None ->
   exists d', set_extent fill dims d = Ok d' /\ d_dims d' = dims /\ d_grows d' = true /\ d_chunk d' = d_chunk d /\
     (forall i, inside i (d_dims d) -> inside i dims -> d_data d' i = d_data d i) /\
     (forall i, ~ inside i (d_dims d) -> d_data d' i = fill)) /\
  ((Datatypes.length dims <> Datatypes.length (d_dims d) \/ d_grows d = false \/ d_chunk d = None) ->
   set_extent fill dims d = Throw InvalidArgument).
Proof.
  intros dims d. unfold set_extent. split.
  - intros HL HG HC. rewrite (proj2 (Nat.eqb_eq _ _) HL). cbn [negb]. destruct (d_chunk d) as [c|] eqn:E; [|contradiction]. rewrite HG.
    eexists. split; [reflexivity|]. cbn [d_dims d_grows d_chunk d_data]. repeat split; auto.
    + intros i H1 H2. apply within_inside in H1, H2. rewrite H1, H2. reflexivity.
    + intros i H. destruct (within i (d_dims d)) eqn:Ei; [|reflexivity]. apply within_inside in Ei. contradiction.
  - intros H. destruct (Datatypes.length dims =? Datatypes.length (d_dims d))%nat eqn:E; [|reflexivity]. cbn [negb]. apply Nat.eqb_eq in E.
    destruct (d_chunk d); [|reflexivity]. destruct (d_grows d); [|reflexivity]. exfalso. destruct H as [H|[H|H]]; congruence.
Qed.

(** A data set made with a chunk size is refused when it is asked for again with the same arguments. *)
Theorem chunked_required_twice_refuted : forall (f f' : columns) (name : str) (dims c : list Z) (grows : bool) (d : dset),
  mfind name f = None -> require_column fill f name dims grows (Some c) = Ok (f', d) ->
  require_column fill f' name dims grows (Some c) = Throw InvalidArgument.
Proof.
  intros f f' name dims c grows d HN H. unfold require_column in H. rewrite HN in H. injection H as <- <-.
  unfold require_column. rewrite mfind_mset_eq. cbn [d_dims d_grows d_chunk chunk_eqb]. rewrite andb_false_r. reflexivity.
Qed.
(** One that is not chunked is returned, whatever chunk size is asked for. *)
Theorem chunk_size_ignored_refuted : forall (f f' : columns) (name : str) (dims : list Z) (c : option (list Z)) (d : dset),
  mfind name f = None -> require_column fill f name dims false None = Ok (f', d) ->
  require_column fill f' name dims false c = Ok (f', d) /\ d_chunk d = None.
Proof.
  intros f f' name dims c d HN H. unfold require_column in H. rewrite HN in H. injection H as <- <-.
  unfold require_column. rewrite mfind_mset_eq. cbn [d_dims d_grows d_chunk chunk_eqb]. rewrite seq_eqb_refl. auto.
Qed.

(** The contents of a column as a list. *)
Definition column (d : dset) (l : list D) : Prop :=
  d_dims d = [Z.of_nat (Datatypes.length l)] /\ d_grows d = true /\ d_chunk d = Some [1000] /\
  (forall k, (k < Datatypes.length l)%nat -> Some (d_data d [Z.of_nat k]) = nth_error l k).
(** What one more value, written as number [n], makes of it. *)
Definition extended (n : nat) (l : list D) (v : D) : list D := firstn n l ++ repeat fill (n - Datatypes.length l) ++ [v].

Lemma extended_length n l v : Datatypes.length (extended n l v) = S n.
Proof. unfold extended. rewrite !app_length, firstn_length, repeat_length. cbn. lia. Qed.
Lemma extended_last n l v : nth_error (extended n l v) n = Some v.
Proof.
  unfold extended. rewrite app_assoc, nth_error_app2; rewrite app_length, firstn_length, repeat_length; [|lia].
  replace (n - (Nat.min n (Datatypes.length l) + (n - Datatypes.length l)))%nat with 0%nat by lia. reflexivity.
Qed.
Lemma nth_error_firstn {A} (l : list A) : forall n k, (k < n)%nat -> nth_error (firstn n l) k = nth_error l k.
Proof. induction l as [|a l IH]; intros [|n] [|k] H; cbn; auto; try lia. apply IH. lia. Qed.
Lemma extended_old n l v k : (k < n)%nat -> (k < Datatypes.length l)%nat -> nth_error (extended n l v) k = nth_error l k.
Proof.
  intros H1 H2. unfold extended. rewrite nth_error_app1 by (rewrite firstn_length; lia). apply nth_error_firstn. exact H1.
Qed.
Lemma extended_gap n l v k : (Datatypes.length l <= k < n)%nat -> nth_error (extended n l v) k = Some fill.
Proof.
  intros H. unfold extended. rewrite nth_error_app2; rewrite firstn_length; [|lia].
  rewrite nth_error_app1 by (rewrite repeat_length; lia). apply nth_error_repeat. lia.
Qed.

Lemma write_cell_ok n f name v d l : Z.of_nat n + 1 <= int_max -> mfind name f = Some d -> column d l ->
  exists d', write_cell fill (Z.of_nat n) f (name, v) = Ok (mset name d' f) /\ column d' (extended n l v).
Proof.
  intros Hn Hf (Hd & Hg & Hc & Hv). unfold write_cell. cbn [fst snd]. unfold open_column. rewrite Hf. cbn [bind].
  rewrite chk_ok by (unfold in_int, int_min, int_max in *; apply andb_true_intro; split; apply Z.leb_le; lia). cbn [bind].
  destruct (set_extent_keeps [Z.of_nat n + 1] d) as [HS _].
  destruct HS as (d1 & E1 & D1 & G1 & C1 & K1 & F1); [rewrite Hd; reflexivity|exact Hg|rewrite Hc; discriminate|].
  rewrite E1. cbn [bind]. unfold select, check_valid, rank. cbn [get_space sp_dims]. rewrite D1. cbn [sl_start sl_count sl_skips sl_block Datatypes.length Nat.eqb andb bind slab_accepted].
  change (0 <? 1) with true. change (1 <=? 1) with true. cbn [andb orb bind].
  set (s := mksp [Z.of_nat n + 1] (SelSlab (Slab [Z.of_nat n] [1] [1] [1]))).
  assert (HP : positions s = [[Z.of_nat n]]).
  { unfold positions, s. cbn [sp_sel sl_start sl_count sl_skips sl_block selected]. unfold selected_on. change (seq 0 (Z.to_nat 1)) with [0%nat].
    cbn [flat_map map app]. do 2 f_equal. lia. }
  unfold write. change (sp_dims s) with [Z.of_nat n + 1]. rewrite D1, seq_eqb_refl, HP. cbn [negb forallb within].
  rewrite (proj2 (Z.leb_le 0 (Z.of_nat n))) by lia. rewrite (proj2 (Z.ltb_lt (Z.of_nat n) (Z.of_nat n + 1))) by lia.
  cbn [andb negb Datatypes.length Nat.eqb bind combine put_all].
  eexists. split; [reflexivity|]. unfold column. cbn [d_dims d_grows d_chunk d_data]. rewrite extended_length.
  split; [f_equal; lia|]. split; [exact G1|]. split; [rewrite C1; exact Hc|]. intros k Hk.
  destruct (Nat.eq_dec k n) as [->|Hkn].
  - rewrite seq_eqb_refl, extended_last. reflexivity.
  - rewrite seq_eqb_neq by (intros E; injection E as E; lia).
    assert (In1 : inside [Z.of_nat k] [Z.of_nat n + 1]) by (repeat constructor; lia).
    destruct (Nat.lt_ge_cases k (Datatypes.length l)) as [Hl|Hl].
    + rewrite K1 by (rewrite ?Hd; auto; repeat constructor; lia). rewrite extended_old by lia. apply Hv. exact Hl.
    + rewrite F1 by (rewrite Hd; intros HI; inversion HI; subst; lia). rewrite extended_gap by lia. reflexivity.
Qed.

(** A file of columns and the lists they hold. *)
Definition series (f : columns) (names : list str) (L : str -> list D) : Prop :=
  msorted f /\ forall c, In c names -> exists d, mfind c f = Some d /\ column d (L c).

Lemma write_row_ok n row : Z.of_nat n + 1 <= int_max -> forall f names L, NoDup (map fst row) -> incl (map fst row) names -> series f names L ->
  exists f', write_time_series fill (Z.of_nat n) row f = Ok f' /\
    series f' names (fun c => match find (fun e => if str_dec (fst e) c then true else false) row with Some e => extended n (L c) (snd e) | None => L c end).
Proof.
  intros Hn. unfold write_time_series. induction row as [|[c v] row IH]; intros f names L HN HI HS; cbn [foldM].
  - exists f. split; [reflexivity|]. exact HS.
  - inversion HN; subst. destruct HS as [Hs HS]. destruct (HS c) as (d & Hf & Hd); [apply HI; left; reflexivity|].
    destruct (write_cell_ok n f c v d (L c) Hn Hf Hd) as (d' & E & Hd'). rewrite E. cbn [bind].
    destruct (IH (mset c d' f) names (fun c' => if str_dec c c' then extended n (L c) v else L c')) as (f' & E' & HS'); auto.
    { intros x Hx. apply HI. right. exact Hx. }
    { split; [apply mset_sorted; exact Hs|]. intros c' Hc'. destruct (str_dec c c') as [<-|Hne].
      - exists d'. split; [apply mfind_mset_eq|exact Hd'].
      - destruct (HS c' Hc') as (d0 & Hf0 & Hd0). exists d0. split; [|exact Hd0]. rewrite mfind_mset_neq; auto. }
    exists f'. split; [exact E'|]. destruct HS' as [Hs' HS']. split; [exact Hs'|]. intros c' Hc'.
    destruct (HS' c' Hc') as (d0 & Hf0 & Hd0). exists d0. split; [exact Hf0|]. cbn [find fst]. destruct (str_dec c c') as [<-|Hne].
    + assert (EN : find (fun e : str * D => if str_dec (fst e) c then true else false) row = None).
      { destruct (find _ row) as [e|] eqn:EF; [|reflexivity]. apply find_some in EF. destruct EF as [Hin Hc2].
        destruct (str_dec (fst e) c) as [Ec|]; [|discriminate Hc2]. exfalso. apply H1. rewrite <- Ec. apply in_map. exact Hin. }
      rewrite EN in Hd0. exact Hd0.
    + exact Hd0.
Qed.

(** The value of a column in a row. *)
Definition value_in (row : smap D) (c : str) (v : D) : Prop := In (c, v) row.

Lemma find_value row c v : NoDup (map fst row) -> In (c, v) row -> find (fun e : str * D => if str_dec (fst e) c then true else false) row = Some (c, v).
Proof.
  induction row as [|[c0 v0] row IH]; intros HN HI; [destruct HI|]. inversion HN; subst. cbn [find fst]. destruct HI as [E|HI].
  - injection E as -> ->. destruct (str_dec c c); [reflexivity|contradiction].
  - destruct (str_dec c0 c) as [->|]; [|auto]. exfalso. apply H1. change c with (fst (c, v)). apply in_map. exact HI.
Qed.

(** Rows numbered [n], [n + 1], ... written to a file whose columns have at least [n] rows: the first [n] rows stay, the new rows follow,
    and nothing else is left. *)
Theorem rows_written : forall (rows : list (smap D)) (n : nat) (f : columns) (names : list str) (L : str -> list D),
  (forall row, In row rows -> NoDup (map fst row) /\ forall c, In c (map fst row) <-> In c names) ->
  Z.of_nat (n + Datatypes.length rows) <= int_max -> rows <> [] ->
  series f names L -> (forall c, In c names -> (n <= Datatypes.length (L c))%nat) ->
  exists f', foldM (fun f e => write_time_series fill (Z.of_nat (fst e)) (snd e) f) f (combine (seq n (Datatypes.length rows)) rows) = Ok f' /\
    forall c, In c names -> exists d, mfind c f' = Some d /\ d_dims d = [Z.of_nat (n + Datatypes.length rows)] /\
      (forall k, (k < n)%nat -> nth_error (L c) k = Some (d_data d [Z.of_nat k])) /\
      (forall k row, nth_error rows k = Some row -> value_in row c (d_data d [Z.of_nat (n + k)])).
Proof.
  intros rows n f names L HR Hn Hne HS HL.
  assert (G : forall rows n f L, (forall row, In row rows -> NoDup (map fst row) /\ forall c, In c (map fst row) <-> In c names) ->
    Z.of_nat (n + Datatypes.length rows) <= int_max -> series f names L -> (forall c, In c names -> (n <= Datatypes.length (L c))%nat) ->
    exists f' L', foldM (fun f e => write_time_series fill (Z.of_nat (fst e)) (snd e) f) f (combine (seq n (Datatypes.length rows)) rows) = Ok f' /\
      series f' names L' /\ forall c, In c names -> 
        (rows <> [] -> Datatypes.length (L' c) = (n + Datatypes.length rows)%nat) /\
        (forall k, (k < n)%nat -> nth_error (L' c) k = nth_error (L c) k) /\
        (forall k row, nth_error rows k = Some row -> exists v, nth_error (L' c) (n + k) = Some v /\ In (c, v) row)).
  { clear. induction rows as [|row rows IH]; intros n f L HR Hn HS HL; cbn [Datatypes.length seq combine foldM].
    - exists f, L. split; [reflexivity|]. split; [exact HS|]. intros c Hc. split; [congruence|]. split; [auto|]. intros [|k] row; discriminate.
    - destruct (HR row) as [HN HC]; [left; reflexivity|]. cbn [Datatypes.length] in Hn.
      destruct (write_row_ok n row ltac:(lia) f names L HN) as (f1 & E1 & HS1); [intros c Hc; apply HC; exact Hc|exact HS|].
      cbn [fst snd]. rewrite E1. cbn [bind]. set (L1 := fun c => match find (fun e : str * D => if str_dec (fst e) c then true else false) row with Some e => extended n (L c) (snd e) | None => L c end) in *.
      assert (HV : forall c, In c names -> exists v, In (c, v) row /\ L1 c = extended n (L c) v).
      { intros c Hc. apply HC in Hc. apply in_map_iff in Hc. destruct Hc as ([c' v] & E & Hin). cbn in E. subst c'. exists v. split; [exact Hin|].
        unfold L1. rewrite (find_value row c v HN Hin). reflexivity. }
      destruct (IH (S n) f1 L1) as (f2 & L2 & E2 & HS2 & H2); [intros r Hr; apply HR; right; exact Hr|lia|exact HS1| |].
      { intros c Hc. destruct (HV c Hc) as (v & _ & ->). rewrite extended_length. lia. }
      exists f2, L2. split; [exact E2|]. split; [exact HS2|]. intros c Hc. destruct (H2 c Hc) as (A1 & A2 & A3). destruct (HV c Hc) as (v & Hin & EL).
      assert (Hlast : nth_error (L2 c) n = Some v) by (rewrite A2 by lia; rewrite EL; apply extended_last).
      split; [|split].
      + intros _. destruct rows as [|r rows].
        * cbn in E2. injection E2 as <-. cbn. destruct HS2 as [_ HS2]. destruct (HS2 c Hc) as (d & Hd & (D2 & _)).
          destruct HS1 as [_ HS1]. destruct (HS1 c Hc) as (d' & Hd' & (D1 & _)). rewrite Hd in Hd'. injection Hd' as <-.
          rewrite D1 in D2. injection D2 as D2. rewrite EL, extended_length in D2. lia.
        * rewrite A1 by discriminate. cbn [Datatypes.length]. lia.
      + intros k Hk. rewrite A2 by lia. rewrite EL. apply extended_old; [exact Hk|]. specialize (HL c Hc). lia.
      + intros [|k] r Hr.
        * cbn in Hr. injection Hr as <-. exists v. rewrite Nat.add_0_r. auto.
        * cbn in Hr. destruct (A3 k r Hr) as (v' & Hv' & Hin'). exists v'. replace (n + S k)%nat with (S n + k)%nat by lia. auto. }
  destruct (G rows n f L HR Hn HS HL) as (f' & L' & E & [_ HS'] & H'). exists f'. split; [exact E|]. intros c Hc.
  destruct (HS' c Hc) as (d & Hd & (HD & _ & _ & HV)). destruct (H' c Hc) as (A1 & A2 & A3). exists d. split; [exact Hd|].
  split; [rewrite HD, (A1 Hne); reflexivity|]. specialize (HL c Hc). split.
  - intros k Hk. rewrite <- A2 by exact Hk. rewrite HV; [reflexivity|]. rewrite (A1 Hne). lia.
  - intros k row Hr. destruct (A3 k row Hr) as (v & Hv & Hin). unfold value_in.
    rewrite <- HV in Hv; [injection Hv as ->; exact Hin|]. apply nth_error_Some. congruence.
Qed.

Lemma new_series_ok names : NoDup names -> exists f, new_series fill names = Ok f /\ series f names (fun _ => []).
Proof.
  unfold new_series. intros HN.
  assert (G : forall names done f, NoDup names -> (forall c, In c names -> ~ In c done) -> series f done (fun _ => []) ->
    (forall c, mfind c f <> None -> In c done) ->
    exists f', foldM (fun f n => do r <- require_column fill f n [0] true (Some [1000]); Ok (fst r)) f names = Ok f' /\ series f' (names ++ done) (fun _ => [])).
  { clear. induction names as [|n names IH]; intros done f HN HX HS HD; cbn [foldM app].
    - exists f. auto.
    - inversion HN; subst. assert (EN : mfind n f = None).
      { destruct (mfind n f) eqn:E; [|reflexivity]. exfalso. apply (HX n); [left; reflexivity|]. apply HD. congruence. }
      unfold require_column at 1. rewrite EN. cbn [bind fst].
      destruct HS as [Hs HS].
      destruct (IH (n :: done) (mset n (mkdset [0] true (Some [1000]) (fun _ => fill)) f)) as (f' & E & HS'); auto.
      + intros c Hc [<-|Hd]; [contradiction|]. apply (HX c); [right; exact Hc|exact Hd].
      + split; [apply mset_sorted; exact Hs|]. intros c Hc. destruct (str_dec c n) as [->|Hcn].
        * eexists. split; [apply mfind_mset_eq|]. unfold column. cbn. repeat split. intros k Hk. lia.
        * destruct Hc as [<-|Hc]; [contradiction|]. rewrite mfind_mset_neq by auto. apply HS. exact Hc.
      + intros c Hc. destruct (str_dec c n) as [->|Hcn]; [left; reflexivity|]. right. rewrite mfind_mset_neq in Hc by auto. apply HD. exact Hc.
      + exists f'. split; [exact E|]. destruct HS' as [Hs' HS']. split; [exact Hs'|]. intros c Hc. apply HS'.
        apply in_app_iff. cbn in Hc. destruct Hc as [<-|Hc]; [right; left; reflexivity|]. apply in_app_iff in Hc. destruct Hc; [left|right; right]; auto. }
  destruct (G names [] []) as (f & E & HS); auto.
  - split; [constructor|]. intros c Hc. destruct Hc.
  - intros c Hc. apply Hc. reflexivity.
  - rewrite app_nil_r in HS. eauto.
Qed.

(** The file of a run: after the rows numbered 0, 1, ... every column has as many elements as there were rows, and element
    number [k] is the value of row number [k]. *)
Theorem series_of_a_run : forall (rows : list (smap D)) (names : list str),
  NoDup names -> (forall row, In row rows -> NoDup (map fst row) /\ forall c, In c (map fst row) <-> In c names) ->
  Z.of_nat (Datatypes.length rows) <= int_max -> rows <> [] ->
  exists f0 f, new_series fill names = Ok f0 /\
    foldM (fun f e => write_time_series fill (Z.of_nat (fst e)) (snd e) f) f0 (combine (seq 0 (Datatypes.length rows)) rows) = Ok f /\
    forall c, In c names -> exists d, mfind c f = Some d /\ d_dims d = [Z.of_nat (Datatypes.length rows)] /\
      (forall k row, nth_error rows k = Some row -> value_in row c (d_data d [Z.of_nat k])).
Proof.
  intros rows names HN HR Hn Hne. destruct (new_series_ok names HN) as (f0 & E0 & HS0).
  destruct (rows_written rows 0 f0 names (fun _ => []) HR) as (f & E & H); auto; try (intros; apply Nat.le_0_l).
  exists f0, f. split; [exact E0|]. split; [exact E|]. intros c Hc. destruct (H c Hc) as (d & Hd & HD & _ & HV). exists d. auto.
Qed.

(** A row that skips numbers leaves elements that were never written: they hold the fill value. *)
Theorem skipped_rows_are_filled : forall (f : columns) (d : dset) (name : str) (l : list D) (n : nat) (v : D),
  mfind name f = Some d -> column d l -> (Datatypes.length l <= n)%nat -> Z.of_nat n + 1 <= int_max ->
  exists d', write_time_series fill (Z.of_nat n) [(name, v)] f = Ok (mset name d' f) /\ column d' (l ++ repeat fill (n - Datatypes.length l) ++ [v]).
Proof.
  intros f d name l n v Hf Hd Hl Hn. destruct (write_cell_ok n f name v d l Hn Hf Hd) as (d' & E & H). exists d'.
  unfold write_time_series. cbn [foldM]. rewrite E. split; [reflexivity|]. unfold extended in H. rewrite firstn_all2 in H by exact Hl. exact H.
Qed.
End Extent.

Lemma intervals_below (t : nat -> R) (I : R) (N k : nat) : steps_within t I N -> whole_intervals I (t N) k -> (k <= N)%nat.
Proof.
  intros (HI & H0 & HS) [HK _].
  assert (HB : forall i, (i <= N)%nat -> (t i <= INR i * I)%R).
  { induction i as [|i IH]; intros Hi; [rewrite H0; cbn; lra|]. specialize (HS i ltac:(lia)). specialize (IH ltac:(lia)). rewrite S_INR. lra. }
  specialize (HB N (le_n N)). apply INR_le. nra.
Qed.

(** A complete run of the sedov program: the time series file has one row for each whole interval, and the first row; row number [k] holds the values
    computed for output number [k]. *)
Theorem sedov_run_series : forall {D Sol Cfg : Type} (fill : D) (next_solution : Cfg -> Sol -> outcome Sol) (time_of : Sol -> R)
  (cpi dfi tsi : Cfg -> R) (should_continue : Cfg -> Sol -> bool) (cfg : Cfg) (sol : nat -> Sol) (N n : nat)
  (names : list str) (row : nat -> smap D),
  let t i := time_of (sol i) in
  run_of next_solution should_continue cfg sol N -> next_solution cfg (sol N) = Ok (sol (S N)) ->
  steps_within t (cpi cfg) N -> steps_within t (dfi cfg) N -> steps_within t (tsi cfg) N -> (N <= n)%nat ->
  NoDup names -> (forall k, NoDup (map fst (row k)) /\ forall c, In c (map fst (row k)) <-> In c names) ->
  exists o Ks f0 f,
    simple_program 0%R Rplus tdueR next_solution time_of [(lit "write_diagnostics", dfi); (lit "write_time_series", tsi)] cpi
      should_continue cfg (sol 0%nat) n = Ok (o, 0) /\
    whole_intervals (tsi cfg) (t N) Ks /\ new_series fill names = Ok f0 /\
    foldM (fun f k => write_time_series fill k (row (Z.to_nat k)) f) f0 (snumbers "write_time_series" o) = Ok f /\
    forall c, In c names -> exists d, mfind c f = Some d /\ d_dims d = [Z.of_nat (S Ks)] /\
      forall k, (k <= Ks)%nat -> value_in (row k) c (d_data d [Z.of_nat k]).
Proof.
  intros D Sol Cfg fill next_solution time_of cpi dfi tsi should_continue cfg sol N n names row t HR Hl Hc Hd Ht Hle HN Hrow.
  destruct (simple_run_outputs next_solution time_of cpi dfi tsi should_continue cfg sol N n HR Hl Hc Hd Ht Hle)
    as (o & Kc & Kd & Ks & rc & E & _ & _ & HK & _ & _ & _ & HS).
  pose proof (intervals_below t (tsi cfg) N Ks Ht HK) as HKN. destruct HR as (_ & _ & _ & HNb).
  destruct (series_of_a_run fill (map row (seq 0 (S Ks))) names HN) as (f0 & f & E0 & Ef & Hf).
  - intros r Hr. apply in_map_iff in Hr. destruct Hr as (k & <- & _). apply Hrow.
  - rewrite map_length, seq_length. unfold int_max. lia.
  - discriminate.
  - exists o, Ks, f0, f. split; [exact E|]. split; [exact HK|]. split; [exact E0|]. split.
    + rewrite HS. rewrite map_length, seq_length in Ef. rewrite <- Ef. generalize (seq 0 (S Ks)) as l. intros l. revert f0 E0 Ef.
      clear. intros f0 _ _. revert f0. induction l as [|k l IH]; intros f0; cbn [map combine foldM]; [reflexivity|].
      cbn [fst snd]. rewrite Nat2Z.id. destruct (write_time_series fill (Z.of_nat k) (row k) f0); cbn [bind]; auto.
    + intros c Hc'. destruct (Hf c Hc') as (d & Hfd & HD & HV). rewrite map_length, seq_length in HD. exists d. split; [exact Hfd|].
      split; [exact HD|]. intros k Hk. apply HV. rewrite nth_error_map. replace (nth_error (seq 0 (S Ks)) k) with (Some k); [reflexivity|].
      symmetry. rewrite (nth_error_nth' _ 0%nat) by (rewrite seq_length; lia). rewrite seq_nth by lia. reflexivity.
Qed.

(** ** Examples *)
Definition blank (dims : list Z) (grows : bool) : dset := mkdset dims grows (Some [1000]) (fun _ => 0).
Definition contents (r : outcome (dset (D := Z))) : outcome (list Z) := do d <- r; read WVector (get_space d) d.

(* two rows and two pairs of columns of a data set of 4 by 5 *)
Example pairs_written : contents (let d := blank [4; 5] false in
    do s <- select (Slab [1; 0] [2; 2] [2; 3] [1; 2]) (get_space d); write [1; 2; 3; 4; 5; 6; 7; 8] s d)
  = Ok [0; 0; 0; 0; 0;  1; 2; 0; 3; 4;  0; 0; 0; 0; 0;  5; 6; 0; 7; 8].
Proof. reflexivity. Qed.
Example overlapping_blocks : select (Slab [0] [2] [1] [2]) (mksp [5] SelAll) = Throw InvalidArgument.
Proof. reflexivity. Qed.
Example outside_refused : (let d := blank [4] false in do s <- select (Slab [3] [2] [1] [1]) (get_space d); write [7; 8] s d)
  = Throw InvalidArgument.
Proof. reflexivity. Qed.
(* three of ten numbers can be written, but not read *)
Example three_of_ten :
  (let d := blank [10] false in do s <- select (Slab [2] [3] [1] [1]) (get_space d); do d' <- write [7; 8; 9] s d;
   do l <- contents (Ok d'); Ok (l, read WVector s d', read (WArray 1) s d'))
  = Ok ([0; 0; 7; 8; 9; 0; 0; 0; 0; 0], Throw InvalidArgument, Throw InvalidArgument).
Proof. reflexivity. Qed.
Example grown_and_cut : contents (let d := blank [3] true in
    do s <- select (Slab [0] [3] [1] [1]) (get_space d); do d1 <- write [1; 2; 3] s d;
    do d2 <- set_extent 0 [2] d1; set_extent 0 [4] d2)
  = Ok [1; 2; 0; 0].
Proof. reflexivity. Qed.
Definition name_t : str := lit "time".
Definition name_r : str := lit "shock_radius".
Definition two_columns (r : outcome (columns (D := Z))) : outcome (list Z * list Z) :=
  do f <- r; do d <- open_column f name_t; do e <- open_column f name_r;
  do l <- read WVector (get_space d) d; do m <- read WVector (get_space e) e; Ok (l, m).
(* four rows, then a resumed run that starts again with row 2 *)
Example resumed_series : two_columns (
    do f <- new_series 0 [name_t; name_r];
    foldM (fun f e => write_time_series 0 (fst e) [(name_r, fst (snd e)); (name_t, snd (snd e))] f) f
      [(0, (10, 1)); (1, (20, 2)); (2, (30, 3)); (3, (40, 4)); (2, (31, 5))])
  = Ok ([1; 2; 5], [10; 20; 31]).
Proof. vm_compute. reflexivity. Qed.
Example asked_twice : (do f <- new_series 0 [name_t]; require_column 0 f name_t [0] true (Some [1000])) = Throw InvalidArgument.
Proof. reflexivity. Qed.

Print Assumptions selection_correct.
Print Assumptions write_changes_selection.
Print Assumptions disjoint_writes_commute.
Print Assumptions read_all_correct.
Print Assumptions partial_read_refuted.
Print Assumptions number_read_back.
Print Assumptions set_extent_keeps.
Print Assumptions chunked_required_twice_refuted.
Print Assumptions chunk_size_ignored_refuted.
Print Assumptions rows_written.
Print Assumptions series_of_a_run.
Print Assumptions skipped_rows_are_filled.
Print Assumptions sedov_run_series.
