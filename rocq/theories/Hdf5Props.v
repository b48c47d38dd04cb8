(** C56: strings, numbers, arrays, configurations and schedules through a file. *)
From Coq Require Import List Arith Ascii String Bool ZArith Lia Permutation.
From Verif Require Import Base StrModel MapModel MapProofs ConfigModel ScheduleModel Hdf5Model.
Import ListNotations.
Close Scope Z_scope.
Close Scope string_scope.
Open Scope nat_scope.

(** A name that the group can hold as it is: not empty, no slash, not ".", no null character, and short enough to be listed. *)
Definition good_name (k : str) : Prop := plain k = true /\ c_name k = k /\ List.length k <= 1023.
(** No object of that name. *)
Definition fresh {D} (g : group D) (k : str) : Prop := mfind k g = None.
(** Every other object is as before. *)
Definition others_kept {D} (k : str) (g g' : group D) : Prop := forall j, j <> k -> mfind j g' = mfind j g.

Section Props.
Context {D : Type}.

(** Induction over data types with the members of compounds. *)
Lemma dtype_rect2 (P : dtype -> Prop) : P TInt -> P TULong -> P TDouble -> (forall n, P (TStr n)) -> (forall t n, P t -> P (TArr t n)) ->
  (forall l, Forall (fun e => P (snd e)) l -> P (TComp l)) -> forall t, P t.
Proof.
  intros H1 H2 H3 H4 H5 H6. fix IH 1. intros [| | |n|t n|l]; [exact H1|exact H2|exact H3|apply H4|apply H5, IH|]. apply H6. induction l as [|[k t] l IHl]; constructor; [apply IH|exact IHl].
Qed.
Lemma dtype_eqb_refl t : dtype_eqb t t = true.
Proof.
  induction t using dtype_rect2; cbn; rewrite ?Nat.eqb_refl; auto; [rewrite IHt; reflexivity|].
  induction H as [|[k t] l Ht H IH]; [reflexivity|]. cbn [snd] in Ht. rewrite cmp_refl, Ht, IH. reflexivity.
Qed.
Lemma dtype_eqb_eq a : forall b, dtype_eqb a b = true -> a = b.
Proof.
  induction a using dtype_rect2; intros [] E; cbn in E; try discriminate; auto.
  - apply Nat.eqb_eq in E. congruence.
  - apply andb_prop in E. destruct E as [E1 E2]. apply IHa in E1. apply Nat.eqb_eq in E2. congruence.
  - f_equal. revert members E. induction H as [|[k t] l Ht H IH]; intros [|[j u] m] E; try discriminate; [reflexivity|].
    apply andb_prop in E. destruct E as [E E3]. apply andb_prop in E. destruct E as [E1 E2]. destruct (str_cmp k j) eqn:EC; try discriminate. apply cmp_eq in EC. apply Ht in E2. cbn [snd] in E2. apply IH in E3. congruence.
Qed.
Lemma dspace_eqb_refl s : dspace_eqb s s = true.
Proof. destruct s; cbn; auto. destruct (list_eq_dec _ _ _); auto. Qed.

(** What is read after writing [v] is [v']. *)
Definition reads_as {T} (I : info (D := D) T) (v v' : T) : Prop :=
  let w := i_writable I v in
  exists es p, stored (i_type I w) (i_elems I w) = Ok es /\ i_prepare I (i_type I w) (i_space I w) = Ok p /\
    i_type I p = i_type I w /\ npoints (i_space I p) = npoints (i_space I w) /\ i_final I (i_fill I p es) = v'.

Definition ds_of {T} (I : info (D := D) T) (v : T) (es : list (elem D)) : dataset D := mkds (i_type I (i_writable I v)) (i_space I (i_writable I v)) es.

Lemma write_new {T} (I : info (D := D) T) g name v es : plain (c_name name) = true ->
  (fresh g (c_name name) \/ exists d, mfind (c_name name) g = Some (OData d) /\ ds_type d = i_type I (i_writable I v) /\ ds_space d = i_space I (i_writable I v)) ->
  stored (i_type I (i_writable I v)) (i_elems I (i_writable I v)) = Ok es ->
  write I g name v = Ok (mset (c_name name) (OData (ds_of I v es)) g).
Proof.
  intros HP HF HS. unfold write, require_dataset, create_dataset. rewrite HP. cbn [negb].
  destruct HF as [HF|(d & HF & E1 & E2)].
  - unfold fresh in HF. rewrite HF. bsimp. unfold dataset_write, check_compatible. cbn [ds_type ds_space]. rewrite dtype_eqb_refl. bsimp. rewrite Nat.eqb_refl, HS. reflexivity.
  - rewrite HF, E1, E2, dtype_eqb_refl, dspace_eqb_refl. cbn [andb]. bsimp. unfold dataset_write, check_compatible. rewrite E1, E2, dtype_eqb_refl. bsimp. rewrite Nat.eqb_refl, HS. reflexivity.
Qed.

Lemma read_written {T} (I : info (D := D) T) g name v v' es : plain (c_name name) = true ->
  stored (i_type I (i_writable I v)) (i_elems I (i_writable I v)) = Ok es -> reads_as I v v' ->
  mfind (c_name name) g = Some (OData (ds_of I v es)) -> read I g name = Ok v'.
Proof.
  intros HP HS (es' & p & S1 & S2 & S3 & S4 & S5) HM. rewrite HS in S1. injection S1 as <-.
  unfold read, open_dataset. rewrite HP, HM. cbn [negb]. bsimp. unfold dataset_read, ds_of. cbn [ds_type ds_space ds_data]. rewrite S2. bsimp.
  unfold check_compatible. cbn [ds_type]. rewrite S3, dtype_eqb_refl. bsimp. rewrite S4, Nat.eqb_refl, S5. reflexivity.
Qed.

Lemma write_then_read {T} (I : info (D := D) T) g name v v' : msorted g -> plain (c_name name) = true ->
  (fresh g (c_name name) \/ exists d, mfind (c_name name) g = Some (OData d) /\ ds_type d = i_type I (i_writable I v) /\ ds_space d = i_space I (i_writable I v)) ->
  reads_as I v v' ->
  exists g', write I g name v = Ok g' /\ read I g' name = Ok v' /\ others_kept (c_name name) g g'.
Proof.
  intros HG HP HF HR. pose proof HR as (es & p & S1 & _). exists (mset (c_name name) (OData (ds_of I v es)) g).
  split; [apply write_new; assumption|]. split; [eapply read_written; eauto; apply mfind_mset_eq|].
  intros j Hj. apply mfind_mset_neq; assumption.
Qed.

(** ** Strings *)
Lemma string_type_eq s : string_type s = TStr (Nat.max 1 (List.length s)).
Proof. unfold string_type, str_with_size, c_s1. destruct (Nat.eqb_spec (Nat.max 1 (List.length s)) 0); [lia|reflexivity]. Qed.

Lemma string_stored s : s <> [] -> stored (D := D) (string_type s) [EStr s] = Ok [EStr s].
Proof.
  intros HN. rewrite string_type_eq. destruct s as [|a s]; [congruence|]. unfold stored. cbn [mapM].
  replace (Nat.max 1 (List.length (a :: s))) with (List.length (a :: s)) by (simpl; lia). rewrite Nat.leb_refl, firstn_all. reflexivity.
Qed.
Lemma string_reads s : s <> [] -> reads_as (string_info (D := D)) s s.
Proof.
  intros HN. exists [EStr s], (repeat zero (str_size (string_type s))). cbn [i_writable i_elems i_type i_prepare i_space i_fill i_final string_info].
  split; [apply string_stored; assumption|]. split; [reflexivity|]. split; [|split; reflexivity].
  rewrite !string_type_eq. cbn [str_size]. rewrite repeat_length. f_equal. lia.
Qed.
Lemma empty_reads : reads_as (string_info (D := D)) [] [zero].
Proof. exists [EStr [zero]], [zero]. repeat split; reflexivity. Qed.

Theorem string_round_trip (g : group D) name s : msorted g -> plain (c_name name) = true -> fresh g (c_name name) -> s <> [] ->
  exists g', write string_info g name s = Ok g' /\ read string_info g' name = Ok s /\ others_kept (c_name name) g g'.
Proof. intros HG HP HF HN. apply write_then_read; auto using string_reads. Qed.

(** The empty string comes back as one null character. *)
Theorem empty_string_refuted (g : group D) name : msorted g -> plain (c_name name) = true -> fresh g (c_name name) ->
  exists g', write string_info g name [] = Ok g' /\ read string_info g' name = Ok [zero].
Proof. intros HG HP HF. destruct (write_then_read string_info g name [] [zero] HG HP (or_introl HF) empty_reads) as (g' & E1 & E2 & _). eauto. Qed.

(** Writing again under the same name needs a string of the same length (the empty string counting as one character). *)
Theorem string_rewrite (g g1 : group D) name s0 s : msorted g -> plain (c_name name) = true -> fresh g (c_name name) -> s <> [] ->
  write string_info g name s0 = Ok g1 ->
  if Nat.max 1 (List.length s0) =? List.length s
  then exists g2, write string_info g1 name s = Ok g2 /\ read string_info g2 name = Ok s
  else write string_info g1 name s = Throw InvalidArgument.
Proof.
  intros HG HP HF HN E. assert (HS : exists es, stored (D := D) (string_type s0) [EStr s0] = Ok es).
  { destruct s0; [eexists; reflexivity|]. eexists. apply string_stored. discriminate. }
  destruct HS as (es & HS). rewrite (write_new string_info g name s0 es HP (or_introl HF) HS) in E. injection E as <-.
  assert (HL : List.length s = Nat.max 1 (List.length s)) by (destruct s; [congruence|simpl; lia]).
  destruct (Nat.eqb_spec (Nat.max 1 (List.length s0)) (List.length s)) as [EL|EL].
  - destruct (write_then_read string_info (mset (c_name name) (OData (ds_of string_info s0 es)) g) name s s) as (g2 & E1 & E2 & _).
    + apply mset_sorted. assumption.
    + assumption.
    + right. exists (ds_of string_info s0 es). rewrite mfind_mset_eq. split; [reflexivity|]. split; [|reflexivity].
      cbn [ds_of ds_type i_type i_writable string_info]. rewrite !string_type_eq. congruence.
    + apply string_reads. assumption.
    + eauto.
  - unfold write, require_dataset. rewrite HP, mfind_mset_eq. cbn [negb ds_of ds_type ds_space i_type i_writable string_info]. rewrite !string_type_eq. cbn [dtype_eqb].
    destruct (Nat.eqb_spec (Nat.max 1 (List.length s0)) (Nat.max 1 (List.length s))); [lia|reflexivity].
Qed.

(** ** Numbers, vectors and arrays *)
Definition exact {T} (f : fixed (D := D) T) (v : T) : Prop := f_get f (f_put f v) = v.
Lemma int_exact z : exact fixed_int z. Proof. reflexivity. Qed.
Lemma ulong_exact z : exact fixed_ulong z. Proof. reflexivity. Qed.
Lemma double_exact (dz : D) d : exact (fixed_double dz) d. Proof. reflexivity. Qed.
Lemma map_exact {T} (f : fixed (D := D) T) l : Forall (exact f) l -> map (f_get f) (map (f_put f) l) = l.
Proof. induction 1 as [|x l Hx H IH]; [reflexivity|]. cbn [map]. rewrite Hx, IH. reflexivity. Qed.
Lemma array_exact {T} (f : fixed (D := D) T) n l : Forall (exact f) l -> exact (fixed_array f n) l.
Proof. intros H. unfold exact. cbn [fixed_array f_get f_put]. apply map_exact. assumption. Qed.

(** Types that are not strings are stored as they are. *)
Definition not_string (t : dtype) : Prop := match t with TStr _ => False | _ => True end.
Lemma stored_any t (es : list (elem D)) : not_string t -> stored t es = Ok es.
Proof. destruct t; intros H; try reflexivity. destruct H. Qed.

Theorem number_round_trip {T} (f : fixed (D := D) T) g name v : msorted g -> plain (c_name name) = true -> fresh g (c_name name) -> not_string (f_type f) -> exact f v ->
  exists g', write (scalar_info f) g name v = Ok g' /\ read (scalar_info f) g' name = Ok v /\ others_kept (c_name name) g g'.
Proof.
  intros HG HP HF HT HE. apply write_then_read; auto. exists [f_put f v], (f_default f).
  split; [apply stored_any; assumption|]. split; [reflexivity|]. split; [reflexivity|]. split; [reflexivity|exact HE].
Qed.
Theorem vector_round_trip {T} (f : fixed (D := D) T) g name v : msorted g -> plain (c_name name) = true -> fresh g (c_name name) -> not_string (f_type f) -> Forall (exact f) v ->
  exists g', write (vector_info f) g name v = Ok g' /\ read (vector_info f) g' name = Ok v /\ others_kept (c_name name) g g'.
Proof.
  intros HG HP HF HT HE. apply write_then_read; auto. exists (map (f_put f) v), (repeat (f_default f) (List.length v)).
  split; [apply stored_any; assumption|]. cbn [vector_info i_prepare i_space i_type i_fill i_final i_writable npoints fold_right]. rewrite Nat.mul_1_r, repeat_length.
  split; [reflexivity|]. split; [reflexivity|]. split; [lia|apply map_exact; assumption].
Qed.
Theorem list_round_trip {T L} (f : fixed (D := D) T) (to_vector : L -> list T) (of_vector : list T -> L) g name v :
  msorted g -> plain (c_name name) = true -> fresh g (c_name name) -> not_string (f_type f) -> Forall (exact f) (to_vector v) -> of_vector (to_vector v) = v ->
  exists g', write (list_info f to_vector of_vector) g name v = Ok g' /\ read (list_info f to_vector of_vector) g' name = Ok v /\ others_kept (c_name name) g g'.
Proof.
  intros HG HP HF HT HE HL. apply write_then_read; auto. exists (map (f_put f) (to_vector v)), (repeat (f_default f) (List.length (to_vector v))).
  split; [apply stored_any; assumption|]. cbn [list_info i_prepare i_space i_type i_fill i_final i_writable npoints fold_right]. rewrite Nat.mul_1_r, repeat_length.
  split; [reflexivity|]. split; [reflexivity|]. split; [lia|]. rewrite map_exact by assumption. exact HL.
Qed.
Theorem array_round_trip {T} (f : fixed (D := D) T) rank g name (v : list nat * list T) :
  msorted g -> plain (c_name name) = true -> fresh g (c_name name) -> not_string (f_type f) -> Forall (exact f) (snd v) -> List.length (fst v) = rank ->
  exists g', write (array_info f rank) g name v = Ok g' /\ read (array_info f rank) g' name = Ok v /\ others_kept (c_name name) g g'.
Proof.
  intros HG HP HF HT HE HL. apply write_then_read; auto. exists (map (f_put f) (snd v)), (fst v, repeat (f_default f) (npoints (Simple (fst v)))).
  split; [apply stored_any; assumption|]. cbn [array_info i_prepare i_space i_type i_fill i_final i_writable fst snd]. rewrite HL, Nat.eqb_refl.
  split; [reflexivity|]. split; [reflexivity|]. split; [reflexivity|]. rewrite map_exact by assumption. destruct v; reflexivity.
Qed.

(** Reading as another type is refused. *)
Theorem read_other_type_refused {T} (f : fixed (D := D) T) g name d : plain (c_name name) = true -> mfind (c_name name) g = Some (OData d) ->
  ds_type d <> f_type f -> read (scalar_info f) g name = Throw InvalidArgument.
Proof.
  intros HP HM HT. unfold read, open_dataset. rewrite HP, HM. cbn [negb]. bsimp. unfold dataset_read. cbn [scalar_info i_prepare]. bsimp.
  unfold check_compatible. cbn [scalar_info i_type]. destruct (dtype_eqb (f_type f) (ds_type d)) eqn:E; [apply dtype_eqb_eq in E; congruence|reflexivity].
Qed.

(** ** Configurations *)

(** What a value is after the round trip. *)
Definition settled (v : cval D) : cval D := match v with CStr [] => CStr [zero] | v => v end.

Lemma cval_stored (dz : D) v : exists es, stored (i_type (cval_info dz) (i_writable (cval_info dz) v)) (i_elems (cval_info dz) (i_writable (cval_info dz) v)) = Ok es.
Proof.
  destruct v as [z|d|s]; cbn [cval_info i_type i_writable i_elems]; [eexists; reflexivity|eexists; reflexivity|].
  destruct s as [|a s]; [eexists; reflexivity|]. eexists. apply string_stored. discriminate.
Qed.
Lemma cval_reads (dz : D) v : reads_as (cval_info dz) v (settled v).
Proof.
  destruct v as [z|d|s].
  - exists [EInt z], (CInt 0%Z). repeat split; reflexivity.
  - exists [EDbl d], (CDbl dz). repeat split; reflexivity.
  - destruct s as [|a s].
    + exists [EStr [zero]], (CStr [zero]). repeat split; reflexivity.
    + exists [EStr (a :: s)], (CStr (repeat zero (List.length (a :: s)))). cbn [cval_info i_writable i_type i_elems i_prepare i_space i_fill i_final].
      split; [apply string_stored; discriminate|]. rewrite !string_type_eq, repeat_length. split; [reflexivity|]. split; [reflexivity|]. split; reflexivity.
Qed.

Definition cds (dz : D) (v : cval D) (o : obj D) : Prop := exists es, stored (i_type (cval_info dz) (i_writable (cval_info dz) v)) (i_elems (cval_info dz) (i_writable (cval_info dz) v)) = Ok es /\ o = OData (ds_of (cval_info dz) v es).

Lemma config_written (dz : D) (m : smap (cval D)) : forall g, msorted g -> NoDup (mkeys m) -> Forall (fun e => good_name (fst e)) m -> (forall k, In k (mkeys m) -> mfind k g = None) ->
  exists g', write_config_file dz g m = Ok g' /\ msorted g' /\
    (forall k v, In (k, v) m -> exists o, mfind k g' = Some o /\ cds dz v o) /\ (forall k, ~ In k (mkeys m) -> mfind k g' = mfind k g).
Proof.
  induction m as [|[k v] m IH]; intros g HG HN HF HK.
  - exists g. split; [reflexivity|]. split; [assumption|]. split; [intros k v []|auto].
  - pose proof (Forall_inv HF) as (P1 & P2 & P3). apply Forall_inv_tail in HF. cbn [mkeys map fst] in HN, HK. pose proof (NoDup_cons_iff k (mkeys m)) as NC. apply NC in HN. destruct HN as [HN1 HN2]. cbn [fst] in P1, P2, P3.
    destruct (cval_stored dz v) as (es & HS).
    assert (E : write (cval_info dz) g k v = Ok (mset k (OData (ds_of (cval_info dz) v es)) g)).
    { pose proof (write_new (cval_info dz) g k v es) as W. rewrite P2 in W. apply W; auto. left. apply HK. left. reflexivity. }
    destruct (IH (mset k (OData (ds_of (cval_info dz) v es)) g)) as (g' & E1 & E2 & E3 & E4); auto using mset_sorted.
    { intros j Hj. rewrite mfind_mset_neq; [apply HK; right; assumption|assumption|intros ->; contradiction]. }
    exists g'. split; [unfold write_config_file in *; cbn [foldM fst snd]; rewrite E; bsimp; exact E1|]. split; [assumption|]. split.
    + intros j w [Q|Q]; [|eauto]. injection Q as <- <-. exists (OData (ds_of (cval_info dz) v es)). split; [rewrite (E4 k HN1); apply mfind_mset_eq|exists es; auto].
    + intros j Hj. change (~ (k = j \/ In j (mkeys m))) in Hj. rewrite E4 by tauto. apply mfind_mset_neq; [assumption|intros ->; tauto].
Qed.

Lemma link_name_ok n : List.length n <= 1023 -> link_name n = Ok n.
Proof. intros H. unfold link_name. destruct (Nat.ltb_spec 1024 (List.length n)); [lia|]. rewrite firstn_all2 by lia. reflexivity. Qed.

Lemma config_read (dz : D) g (m : smap (cval D)) : forall acc, Forall (fun e => good_name (fst e)) m -> (forall k v, In (k, v) m -> exists o, mfind k g = Some o /\ cds dz v o) ->
  foldM (fun m link => do n <- link_name link; match read (cval_info dz) g n with Ok v => Ok (mset n v m) | Throw _ => Ok m | UB => UB | NoFuel => NoFuel end) acc (map fst m)
  = Ok (fold_left (fun m e => mset (fst e) (snd e) m) (map (fun e => (fst e, settled (snd e))) m) acc).
Proof.
  induction m as [|[k v] m IH]; intros acc HF HK; [reflexivity|]. pose proof (Forall_inv HF) as (P1 & P2 & P3). apply Forall_inv_tail in HF. cbn [fst] in P1, P2, P3.
  cbn [map foldM fst snd fold_left]. rewrite link_name_ok by assumption. bsimp.
  destruct (HK k v (or_introl eq_refl)) as (o & HM & es & HS & ->).
  rewrite (read_written (cval_info dz) g k v (settled v) es); [|rewrite P2; assumption|assumption|apply cval_reads|rewrite P2; assumption].
  bsimp. apply IH; [assumption|]. intros j w Hj. apply HK. right. assumption.
Qed.

(** A configuration written to an empty group and read back, in whatever order the library lists the names, is the same, except that
    empty strings have become strings of one null character. *)
Theorem config_through_file (dz : D) (m : smap (cval D)) : msorted m -> Forall (fun e => good_name (fst e)) m ->
  exists g, write_config_file dz [] m = Ok g /\ Permutation (mkeys g) (mkeys m) /\
    forall links, Permutation links (mkeys g) -> read_config_file dz g links = Ok (map (fun e => (fst e, settled (snd e))) m).
Proof.
  intros HM HF. destruct (config_written dz m [] (ms_nil) (mkeys_nodup m HM) HF) as (g & E1 & E2 & E3 & E4); [reflexivity|].
  assert (HP : Permutation (mkeys g) (mkeys m)).
  { apply NoDup_Permutation; auto using mkeys_nodup. intros k. rewrite !in_mkeys by assumption. split; intros H.
    - destruct (in_dec str_dec k (mkeys m)) as [I|I]; [apply in_mkeys; assumption|]. exfalso. apply H. rewrite (E4 k I). reflexivity.
    - destruct (mfind k m) as [v|] eqn:E; [|congruence]. apply mfind_in in E; [|assumption]. destruct (E3 k v E) as (o & Q & _). congruence. }
  exists g. split; [assumption|]. split; [assumption|]. intros links HL.
  assert (HPL : Permutation links (map fst m)) by (transitivity (mkeys g); assumption).
  destruct (Permutation_map_inv fst m HPL) as (m' & -> & HM'). apply Permutation_sym in HM'.
  unfold read_config_file. rewrite (config_read dz g m').
  - f_equal. apply (mload_perm (map (fun e => (fst e, settled (snd e))) m') (map (fun e => (fst e, settled (snd e))) m)).
    + apply (msorted_map settled m). assumption.
    + apply Permutation_map. assumption.
  - apply Forall_forall. intros e He. rewrite Forall_forall in HF. apply HF. apply (Permutation_in _ HM'). assumption.
  - intros k v Hk. apply E3. apply (Permutation_in _ HM'). assumption.
Qed.
Corollary config_through_file_same (dz : D) (m : smap (cval D)) : msorted m -> Forall (fun e => good_name (fst e)) m -> (forall k, mfind k m <> Some (CStr [])) ->
  exists g, write_config_file dz [] m = Ok g /\ forall links, Permutation links (mkeys g) -> read_config_file dz g links = Ok m.
Proof.
  intros HM HF HE. destruct (config_through_file dz m HM HF) as (g & E1 & _ & E2). exists g. split; [assumption|]. intros links HL. rewrite (E2 links HL). f_equal.
  transitivity (map (fun e : str * cval D => e) m); [|apply map_id]. apply map_ext_in. intros [k v] Hk. apply mfind_in in Hk; [|assumption].
  destruct v as [z|d|[|a s]]; try reflexivity. exfalso. apply (HE k). assumption.
Qed.

(** A parameter whose name has exactly 1024 characters is written but silently lost when reading. *)
Theorem config_name_1024_refuted (dz : D) (k : str) v : plain k = true -> c_name k = k -> List.length k = 1024 ->
  plain (firstn 1023 k) = true -> c_name (firstn 1023 k) = firstn 1023 k ->
  exists g, write_config_file dz [] [(k, v)] = Ok g /\ mkeys g = [k] /\ read_config_file dz g [k] = Ok [].
Proof.
  intros HP HC HL HP' HC'. destruct (cval_stored dz v) as (es & HS). exists (mset k (OData (ds_of (cval_info dz) v es)) []).
  split; [|split; [reflexivity|]].
  - unfold write_config_file. cbn [foldM fst snd]. pose proof (write_new (cval_info dz) [] k v es) as W. rewrite HC in W. rewrite W; auto. left. reflexivity.
  - unfold read_config_file. cbn [foldM]. unfold link_name. rewrite HL. change (1024 <? 1024) with false. cbn iota. bsimp.
    unfold read, open_dataset. rewrite HC', HP'. cbn [negb mset mfind]. destruct (str_cmp (firstn 1023 k) k) eqn:E.
    + apply cmp_eq in E. apply (f_equal (@List.length ascii)) in E. rewrite firstn_length, HL in E. lia.
    + reflexivity.
    + reflexivity.
Qed.

(** ** Schedules *)
Definition unmarked (t : task D) : task D := mktask (t_name t) (t_count t) (t_last t) false.

Lemma task_names_good : good_name (lit "name"%string) /\ good_name (lit "num_times_performed"%string) /\ good_name (lit "last_performed"%string).
Proof. repeat split; try reflexivity; cbn [lit list_ascii_of_string List.length]; lia. Qed.

Lemma task_written (dz : D) (g : group D) k t : msorted g -> good_name k -> fresh g k ->
  exists h, write_task dz g (k, t) = Ok (mset k (OGroup h) g) /\ 
    read (scalar_info fixed_int) h (lit "num_times_performed"%string) = Ok (t_count t) /\ read (scalar_info (fixed_double dz)) h (lit "last_performed"%string) = Ok (t_last t).
Proof.
  intros HG (P1 & P2 & P3) HF. unfold write_task, require_group. cbn [fst snd]. rewrite P2, P1. cbn [negb]. unfold fresh in HF. rewrite HF. bsimp.
  assert (HS : exists es, stored (D := D) (string_type (t_name t)) [EStr (t_name t)] = Ok es).
  { destruct (t_name t); [eexists; reflexivity|]. eexists. apply string_stored. discriminate. }
  destruct HS as (es & HS). rewrite (write_new string_info [] (lit "name"%string) (t_name t) es eq_refl (or_introl eq_refl) HS). bsimp.
  rewrite (write_new (scalar_info fixed_int) _ (lit "num_times_performed"%string) (t_count t) [EInt (t_count t)]); [|reflexivity|left; reflexivity|reflexivity]. bsimp.
  rewrite (write_new (scalar_info (fixed_double dz)) _ (lit "last_performed"%string) (t_last t) [EDbl (t_last t)]); [|reflexivity|left; reflexivity|reflexivity]. bsimp.
  eexists. split; [reflexivity|]. split; reflexivity.
Qed.

Definition tobj (dz : D) (t : task D) (o : obj D) : Prop := exists h, o = OGroup h /\
  read (scalar_info fixed_int) h (lit "num_times_performed"%string) = Ok (t_count t) /\ read (scalar_info (fixed_double dz)) h (lit "last_performed"%string) = Ok (t_last t).

Lemma schedule_written (dz : D) (m : schedule D) : forall g, msorted g -> NoDup (mkeys m) -> Forall (fun e => good_name (fst e)) m -> (forall k, In k (mkeys m) -> mfind k g = None) ->
  exists g', write_schedule_file dz g m = Ok g' /\ msorted g' /\
    (forall k v, In (k, v) m -> exists o, mfind k g' = Some o /\ tobj dz v o) /\ (forall k, ~ In k (mkeys m) -> mfind k g' = mfind k g).
Proof.
  induction m as [|[k v] m IH]; intros g HG HN HF HK.
  - exists g. split; [reflexivity|]. split; [assumption|]. split; [intros k v []|auto].
  - pose proof (Forall_inv HF) as PG. apply Forall_inv_tail in HF. cbn [mkeys map fst] in HN, HK, PG. pose proof (NoDup_cons_iff k (mkeys m)) as NC. apply NC in HN. destruct HN as [HN1 HN2].
    destruct (task_written dz g k v HG PG (HK k (or_introl eq_refl))) as (h & E & R1 & R2).
    destruct (IH (mset k (OGroup h) g)) as (g' & E1 & E2 & E3 & E4); auto using mset_sorted.
    { intros j Hj. rewrite mfind_mset_neq; [apply HK; right; assumption|assumption|intros ->; contradiction]. }
    exists g'. split; [unfold write_schedule_file in *; cbn [foldM]; rewrite E; bsimp; exact E1|]. split; [assumption|]. split.
    + intros j w [Q|Q]; [|eauto]. injection Q as <- <-. exists (OGroup h). split; [rewrite (E4 k HN1); apply mfind_mset_eq|exists h; auto].
    + intros j Hj. change (~ (k = j \/ In j (mkeys m))) in Hj. rewrite E4 by tauto. apply mfind_mset_neq; [assumption|intros ->; tauto].
Qed.

Lemma schedule_read (dz : D) g (m : schedule D) : forall acc, Forall (fun e => good_name (fst e)) m -> Forall (fun e => t_name (snd e) = fst e) m -> (forall k v, In (k, v) m -> exists o, mfind k g = Some o /\ tobj dz v o) ->
  foldM (fun s link => do n <- link_name link; do t <- read_task dz g n; Ok (sinsert t s)) acc (map fst m)
  = Ok (fold_left (fun m e => mset (fst e) (snd e) m) (map (fun e => (fst e, unmarked (snd e))) m) acc).
Proof.
  induction m as [|[k v] m IH]; intros acc HF HT HK; [reflexivity|]. pose proof (Forall_inv HF) as (P1 & P2 & P3). apply Forall_inv_tail in HF. cbn [fst] in P1, P2, P3.
  pose proof (Forall_inv HT) as HN. apply Forall_inv_tail in HT. cbn [fst snd] in HN.
  cbn [map foldM fst snd fold_left]. rewrite link_name_ok by assumption. bsimp.
  destruct (HK k v (or_introl eq_refl)) as (o & HM & h & -> & R1 & R2). unfold read_task at 1, open_group. rewrite P2, P1, HM. cbn [negb]. bsimp. rewrite R1. bsimp. rewrite R2. bsimp.
  unfold sinsert at 1. cbn [t_name]. replace (unmarked v) with (mktask k (t_count v) (t_last v) false) by (unfold unmarked; rewrite HN; reflexivity). apply IH; [assumption|assumption|]. intros j w Hj. apply HK. right. assumption.
Qed.

(** A schedule read back has the same tasks with the same counts and times, none of them marked as due. *)
Theorem schedule_through_file (dz : D) (m : schedule D) : msorted m -> Forall (fun e => good_name (fst e)) m -> Forall (fun e => t_name (snd e) = fst e) m ->
  exists g, write_schedule_file dz [] m = Ok g /\ Permutation (mkeys g) (mkeys m) /\
    forall links, Permutation links (mkeys g) -> read_schedule_file dz g links = Ok (map (fun e => (fst e, unmarked (snd e))) m).
Proof.
  intros HM HF HT. destruct (schedule_written dz m [] (ms_nil) (mkeys_nodup m HM) HF) as (g & E1 & E2 & E3 & E4); [reflexivity|].
  assert (HP : Permutation (mkeys g) (mkeys m)).
  { apply NoDup_Permutation; auto using mkeys_nodup. intros k. rewrite !in_mkeys by assumption. split; intros H.
    - destruct (in_dec str_dec k (mkeys m)) as [I|I]; [apply in_mkeys; assumption|]. exfalso. apply H. rewrite (E4 k I). reflexivity.
    - destruct (mfind k m) as [v|] eqn:E; [|congruence]. apply mfind_in in E; [|assumption]. destruct (E3 k v E) as (o & Q & _). congruence. }
  exists g. split; [assumption|]. split; [assumption|]. intros links HL.
  assert (HPL : Permutation links (map fst m)) by (transitivity (mkeys g); assumption).
  destruct (Permutation_map_inv fst m HPL) as (m' & -> & HM'). apply Permutation_sym in HM'.
  unfold read_schedule_file. rewrite (schedule_read dz g m').
  - f_equal. apply (mload_perm (map (fun e => (fst e, unmarked (snd e))) m') (map (fun e => (fst e, unmarked (snd e))) m)).
    + apply (msorted_map unmarked m). assumption.
    + apply Permutation_map. assumption.
  - apply Forall_forall. intros e He. rewrite Forall_forall in HF. apply HF. apply (Permutation_in _ HM'). assumption.
  - apply Forall_forall. intros e He. rewrite Forall_forall in HT. apply HT. apply (Permutation_in _ HM'). assumption.
  - intros k v Hk. apply E3. apply (Permutation_in _ HM'). assumption.
Qed.
End Props.

(** ** Example: a configuration with an empty option, and a schedule of one task. *)
Definition ex_cfg : smap (cval Z) := [(lit "cfl"%string, CDbl 4%Z); (lit "outdir"%string, CStr (lit "data"%string)); (lit "restart"%string, CStr [])].
Example file_example :
  (do g <- write_config_file 0%Z [] ex_cfg; read_config_file 0%Z g (rev (mkeys g)))
    = Ok [(lit "cfl"%string, CDbl 4%Z); (lit "outdir"%string, CStr (lit "data"%string)); (lit "restart"%string, CStr [zero])] /\
  (do g <- write_config_file 0%Z [] ex_cfg; write string_info g (lit "outdir"%string) (lit "other"%string)) = Throw InvalidArgument /\
  (do g <- write_schedule_file 0%Z [] [(lit "a"%string, mktask (lit "a"%string) 3%Z 7%Z true)]; read_schedule_file 0%Z g (mkeys g))
    = Ok [(lit "a"%string, mktask (lit "a"%string) 3%Z 7%Z false)] /\
  (do g <- write (array_info (fixed_double 0%Z) 2) [] (lit "u"%string) ([2; 1], [5; 6]%Z); read (array_info (fixed_double 0%Z) 2) g (lit "u"%string)) = Ok ([2; 1], [5; 6]%Z).
Proof. repeat split; vm_compute; reflexivity. Qed.

Print Assumptions string_round_trip.
Print Assumptions string_rewrite.
Print Assumptions config_through_file.
Print Assumptions config_name_1024_refuted.
Print Assumptions schedule_through_file.
Print Assumptions array_round_trip.
