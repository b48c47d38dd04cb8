(** Lemmas on whole checkpoint files: names of the leaves of a tree, and trees through a file. *)
From Coq Require Import List Arith Ascii String Bool ZArith Lia Permutation.
From Verif Require Import Base StrModel StrProofs MapModel MapProofs TreeModel TreeSpec TreeProofs TreeProofs2 TreeProofs3 ConfigModel ScheduleModel TreeNameModel TreeNameProofs Hdf5Model Hdf5Props CheckpointModel.
Import ListNotations.
Close Scope Z_scope.
Close Scope string_scope.
Open Scope nat_scope.

Lemma pow2_div10 n k : n < 2 ^ S k -> n / 10 < 2 ^ k.
Proof. intros H. apply Nat.div_lt_upper_bound; [lia|]. cbn [Nat.pow] in H. lia. Qed.
Lemma dec_fuel_length f : forall n k, n < 2 ^ k -> List.length (dec_fuel f n) <= S k.
Proof.
  induction f as [|f IH]; intros n k H; [cbn; lia|]. cbn [dec_fuel]. destruct (Nat.ltb_spec n 10) as [L|L]; [cbn; lia|].
  destruct k as [|k]; [cbn in H; lia|]. rewrite app_length. cbn [List.length]. specialize (IH (n / 10) k (pow2_div10 n k H)). lia.
Qed.
Lemma log10_fuel_bound f : forall n k, n < 2 ^ k -> log10_fuel f n <= k.
Proof.
  induction f as [|f IH]; intros n k H; [cbn; lia|]. cbn [log10_fuel]. destruct (Nat.ltb_spec n 10) as [L|L]; [lia|].
  destruct k as [|k]; [cbn in H; lia|]. specialize (IH (n / 10) k (pow2_div10 n k H)). lia.
Qed.
Lemma dec_padded_length w n k : n < 2 ^ k -> List.length (dec_padded w n) <= w + S k.
Proof. intros H. unfold dec_padded. rewrite app_length, repeat_length. pose proof (dec_fuel_length (S n) n k H). unfold dec. lia. Qed.

(** The characters of the names. *)
Definition name_char (a : ascii) : Prop := is_digit a = true \/ a = ":"%char \/ a = "-"%char.
Lemma name_char_plain s : Forall name_char s -> s <> [] -> plain s = true /\ c_name s = s.
Proof.
  intros H HN. split.
  - unfold plain. destruct s as [|a s]; [congruence|]. cbn [andb].
    assert (E : existsb (Ascii.eqb "/"%char) (a :: s) = false).
    { destruct (existsb (Ascii.eqb "/"%char) (a :: s)) eqn:E; [|reflexivity]. apply existsb_exists in E. destruct E as (c & I & Q). apply Ascii.eqb_eq in Q. subst c.
      rewrite Forall_forall in H. destruct (H _ I) as [D|[D|D]]; [vm_compute in D; discriminate D|discriminate D|discriminate D]. }
    rewrite E. cbn [negb andb]. destruct (list_eq_dec ascii_dec (a :: s) ["."%char]) as [Q|Q]; [|reflexivity]. injection Q as -> ->.
    apply Forall_inv in H. destruct H as [D|[D|D]]; [vm_compute in D; discriminate D|discriminate D|discriminate D].
  - clear HN. induction H as [|a s Ha H IH]; [reflexivity|]. cbn [c_name]. destruct (Ascii.eqb a zero) eqn:E; [|rewrite IH; reflexivity].
    apply Ascii.eqb_eq in E. subst a. destruct Ha as [D|[D|D]]; [vm_compute in D; discriminate D|discriminate D|discriminate D].
Qed.
Lemma digits_name s : all_digits s -> Forall name_char s.
Proof. apply Forall_impl. intros a H. left. exact H. Qed.

Lemma tree_name_good i : in_range 2 i -> level i <= 30 -> good_name (name_of i).
Proof.
  intros [HL HF] Hl. destruct i as [l c]. cbn [level coords] in *. destruct c as [|x [|y [|]]]; try discriminate HL. clear HL.
  pose proof (Forall_inv HF) as Hx. apply Forall_inv_tail in HF. pose proof (Forall_inv HF) as Hy. cbn beta in Hx, Hy.
  assert (E : name_of (mkidx l [x; y]) = dec l ++ ":"%char :: dec_padded (1 + log10 (2 ^ l)) x ++ "-"%char :: dec_padded (1 + log10 (2 ^ l)) y).
  { unfold name_of, format_tree_index. cbn [coords level]. rewrite shl1_ok by lia. bsimp. cbn [format_coords]. rewrite app_nil_r. reflexivity. }
  rewrite E. clear E. set (w := 1 + log10 (2 ^ l)).
  assert (HW : w <= S (S l)). { unfold w, log10. enough (log10_fuel (2 ^ l) (2 ^ l) <= S l) by lia. apply log10_fuel_bound. cbn [Nat.pow]. pose proof (Nat.pow_nonzero 2 l). lia. }
  destruct (dec_ok l) as (D1 & _ & D3). destruct (dec_padded_ok w x) as (X1 & _ & _). destruct (dec_padded_ok w y) as (Y1 & _ & _).
  assert (HC : Forall name_char (dec l ++ ":"%char :: dec_padded w x ++ "-"%char :: dec_padded w y)).
  { apply Forall_app. split; [apply digits_name; assumption|]. constructor; [right; left; reflexivity|]. apply Forall_app. split; [apply digits_name; assumption|]. constructor; [right; right; reflexivity|apply digits_name; assumption]. }
  destruct (name_char_plain _ HC) as [P1 P2]; [destruct (dec l); [congruence|discriminate]|].
  split; [exact P1|]. split; [exact P2|]. rewrite app_length. cbn [List.length]. rewrite app_length. cbn [List.length].
  pose proof (dec_padded_length w x l Hx). pose proof (dec_padded_length w y l Hy). pose proof (dec_fuel_length (S l) l l (Nat.pow_gt_lin_r 2 l ltac:(lia))) as HD. unfold dec in *. lia.
Qed.

Section trees.
Context {D : Type} {T : Type} (f : Hdf5Model.fixed (D := D) T).
Hypothesis typed : not_string (f_type f).
Hypothesis all_exact : forall v, exact f v.

Definition leaf_ds (v : block T) : obj D := OData (mkds (f_type f) (Simple (fst v)) (map (f_put f) (snd v))).

Lemma leaf_written (g : Hdf5Model.group D) k (v : block T) : good_name k -> fresh g k -> write (array_info f 2) g k v = Ok (mset k (leaf_ds v) g).
Proof.
  intros (P1 & P2 & P3) HF. pose proof (write_new (array_info f 2) g k v (map (f_put f) (snd v))) as W. rewrite P2 in W. apply W; [exact P1|left; exact HF|]. apply stored_any. exact typed.
Qed.
Lemma leaf_read (g : Hdf5Model.group D) k (v : block T) : good_name k -> List.length (fst v) = 2 -> mfind k g = Some (leaf_ds v) -> read (array_info f 2) g k = Ok v.
Proof.
  intros (P1 & P2 & P3) HL HM. unfold read, open_dataset. rewrite P2, P1, HM. unfold leaf_ds. cbn [negb]. bsimp. unfold dataset_read. cbn [ds_type ds_space ds_data array_info i_prepare]. rewrite HL. cbn [Nat.eqb]. bsimp.
  unfold check_compatible. cbn [array_info i_type ds_type i_space fst]. rewrite dtype_eqb_refl. bsimp. rewrite Nat.eqb_refl. cbn [array_info i_final i_fill fst snd ds_data]. rewrite map_exact; [destruct v; reflexivity|]. apply Forall_forall. intros x _. apply all_exact.
Qed.

Lemma leaves_written l : forall g : Hdf5Model.group D, msorted g -> (forall i v, In (i, v) l -> in_range 2 i /\ level i <= 30) -> NoDup (map (fun e => name_of (fst e)) l) ->
  (forall k, In k (map (fun e => name_of (fst e)) l) -> mfind k g = None) ->
  exists g', foldM (fun g e => do n <- format_tree_index (fst e); write (array_info f 2) g n (snd e)) g l = Ok g' /\ msorted g' /\
    (forall i v, In (i, v) l -> mfind (name_of i) g' = Some (leaf_ds v)) /\ (forall k, ~ In k (map (fun e => name_of (fst e)) l) -> mfind k g' = mfind k g).
Proof.
  induction l as [|[i v] l IH]; intros g HG HR HN HK.
  - exists g. split; [reflexivity|]. split; [assumption|]. split; [intros i v []|auto].
  - destruct (HR i v (or_introl eq_refl)) as [R L]. cbn [map fst] in HN, HK. apply NoDup_cons_iff in HN. destruct HN as [HN1 HN2].
    destruct (format_shape 2 i ltac:(lia) R L) as [w EF]. assert (EN : format_tree_index i = Ok (name_of i)) by (unfold name_of; rewrite EF; reflexivity).
    pose proof (leaf_written g (name_of i) v (tree_name_good i R L) (HK _ (or_introl eq_refl))) as E.
    destruct (IH (mset (name_of i) (leaf_ds v) g)) as (g' & E1 & E2 & E3 & E4).
    + apply mset_sorted. assumption.
    + intros j u Hj. apply (HR j u). right. exact Hj.
    + assumption.
    + intros k Hk. rewrite mfind_mset_neq; [apply HK; right; exact Hk|assumption|intros ->; contradiction].
    + exists g'. cbn [foldM fst snd]. rewrite EN. bsimp. rewrite E. bsimp. split; [exact E1|]. split; [exact E2|]. split.
      * intros j u [Q|Q]; [|apply E3; exact Q]. injection Q as <- <-. rewrite (E4 _ HN1). apply mfind_mset_eq.
      * intros k Hk. cbn [map fst In] in Hk. rewrite E4 by tauto. apply mfind_mset_neq; [assumption|intros ->; tauto].
Qed.

Lemma leaves_read (g : Hdf5Model.group D) l : forall u, (forall i v, In (i, v) l -> in_range 2 i /\ level i <= 30 /\ List.length (fst v) = 2 /\ mfind (name_of i) g = Some (leaf_ds v)) ->
  read_tree_file f g (map (fun e => name_of (fst e)) l) u = foldM (fun u '(i, v) => insert no_block u i v) u l.
Proof.
  induction l as [|[i v] l IH]; intros u H; [reflexivity|]. destruct (H i v (or_introl eq_refl)) as (R & L & HV & HM).
  pose proof (tree_name_good i R L) as HG. unfold read_tree_file in *. cbn [map foldM fst]. rewrite link_name_ok by apply HG. bsimp. rewrite (leaf_read g _ v HG HV HM). bsimp.
  destruct (name_roundtrip 2 i) as (s & Es & Er); [lia|exact R|exact L|]. unfold name_of at 1. rewrite Es, Er. bsimp.
  destruct (insert no_block u i v); cbn [bind]; try reflexivity. apply IH. intros j w Hj. apply H. right. exact Hj.
Qed.

(** A tree of arrays of rank two, written to an empty group, is read back whatever order the library lists the names in. *)
Lemma tree_through_file (t : tree (block T)) : wf_tree 2 t -> depth t <= 30 -> Forall (fun v => List.length (fst v) = 2) (leaves t) ->
  exists h, write_tree_file f [] t = Ok h /\ msorted h /\ List.length h = List.length (leaves t) /\
    forall links, Permutation links (mkeys h) -> read_tree_file f h links (Leaf no_block) = Ok t.
Proof.
  intros Hwf Hd HS. set (l := combine (leaves (indexes 2 t)) (leaves t)).
  destruct (write_read_tree (no_block (T := T)) t Hwf Hd) as (g0 & W0 & N0 & _). rewrite write_tree_ok in W0; [|lia|assumption|assumption]. injection W0 as <-. fold l in N0.
  assert (EK : map fst (map (fun '(i, v) => (name_of i, v)) l) = map (fun e => name_of (fst e)) l) by (rewrite map_map; apply map_ext; intros [i v]; reflexivity). rewrite EK in N0.
  assert (HR : forall i v, In (i, v) l -> in_range 2 i /\ level i <= 30).
  { intros i v Hin. assert (Hi : In i (leaves (indexes 2 t))) by (eapply in_combine_l; eauto).
    split; [exact (proj1 (Forall_forall _ _) (indexes_in_range 2 t Hwf) i Hi)|].
    apply in_indexes_iff in Hi; auto. destruct Hi as (p & v' & _ & -> & Hp). apply depth_path in Hp. cbn [level]. simpl in Hp. lia. }
  destruct (leaves_written l [] ms_nil HR N0) as (h & E1 & E2 & E3 & E4); [reflexivity|].
  assert (HP : Permutation (mkeys h) (map (fun e => name_of (fst e)) l)).
  { apply NoDup_Permutation; [apply mkeys_nodup; assumption|exact N0|]. intros k. rewrite in_mkeys by assumption. split; intros H.
    - destruct (in_dec str_dec k (map (fun e => name_of (fst e)) l)) as [I|I]; [exact I|]. exfalso. apply H. rewrite (E4 k I). reflexivity.
    - apply in_map_iff in H. destruct H as ([i v] & <- & Hin). cbn [fst]. rewrite (E3 i v Hin). discriminate. }
  exists h. split; [|split; [exact E2|split]].
  - unfold write_tree_file, pair_indexes, pair_trees. destruct (binary_op_ok (@pair idx (block T)) (indexes 2 t) t (same_shape_indexes_from _ _)) as (r & E & _ & L).
    rewrite E. bsimp. rewrite L, combine_zipw. exact E1.
  - apply Permutation_length in HP. unfold mkeys in HP. rewrite !map_length in HP. rewrite HP. unfold l. rewrite combine_length, (Forall2_len (leaf_list_paths 2 t Hwf)). apply Nat.min_id.
  - intros links HL. assert (HPL : Permutation links (map (fun e => name_of (fst e)) l)) by (transitivity (mkeys h); assumption).
    destruct (Permutation_map_inv2 _ _ _ HPL) as (l' & -> & HL'). rewrite (leaves_read h l').
    + apply (rebuild_any_order no_block 2); [assumption|lia|exact HL'].
    + intros i v Hin. apply (Permutation_in _ HL') in Hin. destruct (HR i v Hin) as [R L]. split; [exact R|]. split; [exact L|]. split; [|apply E3; exact Hin].
      unfold l in Hin. apply in_combine_r in Hin. rewrite Forall_forall in HS. apply HS. exact Hin.
Qed.
End trees.

(** Values of the types of the program are read as they were written. *)
Section types.
Context {D : Type} (dz : D).
Lemma pair_exact {T} (f : Hdf5Model.fixed (D := D) T) v : (forall x, exact f x) -> exact (fixed_pair f) v.
Proof. intros H. destruct v as [a b]. unfold exact. cbn [fixed_pair f_get f_put fst snd]. rewrite !H. reflexivity. Qed.
Lemma triple_exact v : exact (fixed_triple dz) v.
Proof. destruct v as [[a b] c]. reflexivity. Qed.
Lemma full_exact v : exact (fixed_full dz) v.
Proof. destruct v as [? ? ? ? ? ? []]. reflexivity. Qed.
Lemma sample_exact v : exact (fixed_sample dz) v.
Proof. destruct v as [? ? ? ? ? [? ?] [? ?] [? ?] [? ?] [? ? ? ? ? ? []] [? ? ? ? ? ? []] [? ? ? ? ? ? []] [? ?] [? ?]]. reflexivity. Qed.
End types.
