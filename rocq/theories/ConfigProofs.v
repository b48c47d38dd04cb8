(** Configurations and command lines. *)
From Coq Require Import List Arith Ascii Bool ZArith Lia Permutation.
From Verif Require Import Base StrModel MapModel MapProofs ConfigModel.
Import ListNotations.
Close Scope Z_scope.
Open Scope nat_scope.

Section config.
  Context {D : Type} (stod : str -> outcome D).
  Notation cval := (cval D).
  Notation config := (config D).
  Implicit Types c : config.

  (** Exactly the template's keys, with the template's types. *)
  Record cok (c : config) : Prop := {
    ck_sp : msorted (c_params c);
    ck_st : msorted (c_template c);
    ck_ty : forall k, option_map cidx (mfind k (c_params c)) = option_map cidx (mfind k (c_template c))
  }.

  Lemma cok_create t : msorted t -> cok (tcreate t).
  Proof. intros H. split; auto. Qed.

  Lemma cset_spec k v c c' : cok c -> cset k v c = Ok c' ->
    cok c' /\ c_template c' = c_template c /\ c_params c' = mset k v (c_params c).
  Proof.
    intros [HP HT HY] H. unfold cset in H. destruct (mfind k (c_template c)) as [t|] eqn:E; [|discriminate].
    destruct (cidx v =? cidx t) eqn:EI; [|discriminate]. injection H as <-. cbn. split; auto. split; auto; cbn.
    - apply mset_sorted. exact HP.
    - intros k0. destruct (str_dec k0 k) as [->|Hne].
      + rewrite mfind_mset_eq, E. cbn. f_equal. apply Nat.eqb_eq. exact EI.
      + rewrite mfind_mset_neq by auto. apply HY.
  Qed.

  Lemma cset_ok_iff k v c : (exists c', cset k v c = Ok c') <-> exists t, mfind k (c_template c) = Some t /\ cidx v = cidx t.
  Proof.
    unfold cset. destruct (mfind k (c_template c)) as [t|].
    - destruct (cidx v =? cidx t) eqn:EI.
      + split; eauto. intros _. exists t. split; auto. apply Nat.eqb_eq. exact EI.
      + split; [intros [? H]; discriminate|]. intros (t' & H & HI). assert (t' = t) by congruence. subst.
        rewrite (proj2 (Nat.eqb_eq _ _) HI) in EI. discriminate.
    - split; [intros [? H]; discriminate|]. intros (t' & H & _). discriminate.
  Qed.

  Lemma cconvert_idx t s v : cconvert stod t s = Ok v -> cidx v = cidx t.
  Proof.
    destruct t; cbn.
    - destruct (stoi s); cbn; intros H; try discriminate. injection H as <-. reflexivity.
    - destruct (stod s); cbn; intros H; try discriminate. injection H as <-. reflexivity.
    - intros H. injection H as <-. reflexivity.
  Qed.

  Lemma cset_str_eq k s c : cset_str stod k s c =
    match mfind k (c_template c) with
    | None => Throw InvalidArgument
    | Some t => do v <- cconvert stod t s; Ok (mkcfg (mset k v (c_params c)) (c_template c))
    end.
  Proof.
    unfold cset_str. destruct (mfind k (c_template c)) as [t|] eqn:E; auto.
    destruct (cconvert stod t s) as [v| | |] eqn:EC; auto. bsimp. unfold cset. rewrite E.
    rewrite (proj2 (Nat.eqb_eq _ _) (cconvert_idx _ _ _ EC)). reflexivity.
  Qed.

  Lemma cset_str_spec k s c c' : cok c -> cset_str stod k s c = Ok c' ->
    cok c' /\ c_template c' = c_template c /\
    exists t v, mfind k (c_template c) = Some t /\ cconvert stod t s = Ok v /\ c_params c' = mset k v (c_params c).
  Proof.
    intros HC H. unfold cset_str in H. destruct (mfind k (c_template c)) as [t|] eqn:E; [|discriminate].
    destruct (cconvert stod t s) as [v| | |] eqn:EC; try discriminate. revert H; bsimp; intros H.
    destruct (cset_spec k v c c' HC H) as (H1 & H2 & H3). split; auto. split; auto. exists t, v. auto.
  Qed.

  (** A whole update. *)
  Lemma cupdate_spec m : forall c c', cok c -> NoDup (mkeys m) -> cupdate m c = Ok c' ->
    cok c' /\ c_template c' = c_template c /\
    (forall k v, In (k, v) m -> mfind k (c_params c') = Some v) /\
    (forall k, ~ In k (mkeys m) -> mfind k (c_params c') = mfind k (c_params c)).
  Proof.
    clear stod.
    induction m as [|[k v] m IH]; intros c c' HC HN H; cbn [cupdate foldM fst snd] in H.
    - injection H as <-. split; auto. split; auto. split; [intros k v []|auto].
    - destruct (cset k v c) as [c1| | |] eqn:E; try discriminate. revert H; bsimp; intros H.
      destruct (cset_spec k v c c1 HC E) as (C1 & T1 & P1). inversion HN as [|? ? Hnin HN']; subst.
      destruct (IH c1 c' C1 HN' H) as (C2 & T2 & P2 & P3). split; auto. split; [congruence|]. split.
      + intros k0 v0 [X|X]; auto. injection X as <- <-. rewrite (P3 k Hnin), P1, mfind_mset_eq. reflexivity.
      + intros k0 Hk. cbn in Hk. rewrite P3 by tauto. rewrite P1. apply mfind_mset_neq; [apply (ck_sp _ HC)|].
        intros ->. tauto.
  Qed.

  Lemma cupdate_ok_iff m : forall c, NoDup (mkeys m) ->
    (exists c', cupdate m c = Ok c') <-> forall k v, In (k, v) m -> exists t, mfind k (c_template c) = Some t /\ cidx v = cidx t.
  Proof.
    induction m as [|[k v] m IH]; intros c HN.
    - split; [intros _ k v []|]. intros _. exists c. reflexivity.
    - inversion HN as [|? ? Hnin HN']; subst. cbn [cupdate foldM fst snd]. split.
      + intros [c' H]. destruct (cset k v c) as [c1| | |] eqn:E; try discriminate. revert H; bsimp; intros H.
        assert (T1 : c_template c1 = c_template c).
        { unfold cset in E. destruct (mfind k (c_template c)) as [t|]; [|discriminate].
          destruct (cidx v =? cidx t); [|discriminate]. injection E as <-. reflexivity. }
        intros k0 v0 [X|X].
        * injection X as <- <-. apply cset_ok_iff. eauto.
        * rewrite <- T1. apply (IH c1 HN'); eauto.
      + intros H. destruct (proj2 (cset_ok_iff k v c) (H k v (or_introl eq_refl))) as [c1 E]. rewrite E. bsimp.
        apply (IH c1 HN'). intros k0 v0 X.
        assert (T1 : c_template c1 = c_template c).
        { unfold cset in E. destruct (mfind k (c_template c)) as [t|]; [|discriminate].
          destruct (cidx v =? cidx t); [|discriminate]. injection E as <-. reflexivity. }
        rewrite T1. apply H. right. exact X.
  Qed.

  Lemma cset_str_tmpl k s c c' : cset_str stod k s c = Ok c' -> c_template c' = c_template c.
  Proof.
    rewrite cset_str_eq. destruct (mfind k (c_template c)) as [t|]; [|discriminate].
    destruct (cconvert stod t s); try discriminate. bsimp. intros H. injection H as <-. reflexivity.
  Qed.

  Lemma cupdate_str_spec m : forall c c', cok c -> NoDup (mkeys m) -> cupdate_str stod m c = Ok c' ->
    cok c' /\ c_template c' = c_template c /\
    (forall k s, In (k, s) m -> exists t v, mfind k (c_template c) = Some t /\ cconvert stod t s = Ok v /\ mfind k (c_params c') = Some v) /\
    (forall k, ~ In k (mkeys m) -> mfind k (c_params c') = mfind k (c_params c)).
  Proof.
    induction m as [|[k s] m IH]; intros c c' HC HN H; cbn [cupdate_str foldM fst snd] in H.
    - injection H as <-. split; auto. split; auto. split; [intros k v []|auto].
    - destruct (cset_str stod k s c) as [c1| | |] eqn:E; try discriminate. revert H; bsimp; intros H.
      destruct (cset_str_spec k s c c1 HC E) as (C1 & T1 & t & v & F & CV & P1). inversion HN as [|? ? Hnin HN']; subst.
      destruct (IH c1 c' C1 HN' H) as (C2 & T2 & P2 & P3). split; auto. split; [congruence|]. split.
      + intros k0 s0 [X|X].
        * injection X as <- <-. exists t, v. split; auto. split; auto. rewrite (P3 k Hnin), P1, mfind_mset_eq. reflexivity.
        * rewrite <- T1. apply P2. exact X.
      + intros k0 Hk. cbn in Hk. rewrite P3 by tauto. rewrite P1. apply mfind_mset_neq; [apply (ck_sp _ HC)|].
        intros ->. tauto.
  Qed.

  (** ** Sequences of updates *)

  Inductive cop : Type := OSet (k : str) (v : cval) | OSetStr (k : str) (s : str).
  Definition run_op (c : config) (o : cop) : outcome config :=
    match o with OSet k v => cset k v c | OSetStr k s => cset_str stod k s c end.
  (** A call on an lvalue that throws leaves the configuration as it was. *)
  Definition apply_op (c : config) (o : cop) : config := match run_op c o with Ok c' => c' | _ => c end.

  (** What one update assigns to key [k], given the template: nothing if it names another key, or is not acceptable. *)
  Definition assigned (t : smap cval) (k : str) (o : cop) : option cval :=
    match o with
    | OSet k' v => if str_dec k' k then match mfind k t with Some d => if cidx v =? cidx d then Some v else None | None => None end else None
    | OSetStr k' s =>
        if str_dec k' k then
          match mfind k t with Some d => match cconvert stod d s with Ok v => Some v | _ => None end | None => None end
        else None
    end.

  (** The last value assigned, or the default. *)
  Fixpoint last_assigned (t : smap cval) (k : str) (ops : list cop) (d : option cval) : option cval :=
    match ops with
    | [] => d
    | o :: ops' => last_assigned t k ops' (match assigned t k o with Some v => Some v | None => d end)
    end.

  Lemma apply_op_spec c o : cok c -> cok (apply_op c o) /\ c_template (apply_op c o) = c_template c /\
    forall k, mfind k (c_params (apply_op c o)) =
      match assigned (c_template c) k o with Some v => Some v | None => mfind k (c_params c) end.
  Proof.
    intros HC. unfold apply_op. destruct (run_op c o) as [c'| | |] eqn:E.
    - destruct o as [k v|k s]; cbn [run_op assigned] in *.
      + destruct (cset_spec k v c c' HC E) as (H1 & H2 & H3). split; auto. split; auto. intros k0. rewrite H3.
        unfold cset in E. destruct (str_dec k k0) as [<-|Hne].
        * rewrite mfind_mset_eq. destruct (mfind k (c_template c)) as [t|]; [|discriminate].
          destruct (cidx v =? cidx t); [auto|discriminate].
        * apply mfind_mset_neq; auto. apply (ck_sp _ HC).
      + destruct (cset_str_spec k s c c' HC E) as (H1 & H2 & t & v & F & CV & H3). split; auto. split; auto. intros k0. rewrite H3.
        destruct (str_dec k k0) as [<-|Hne].
        * rewrite mfind_mset_eq, F, CV. reflexivity.
        * apply mfind_mset_neq; auto. apply (ck_sp _ HC).
    - split; auto. split; auto. intros k0. destruct o as [k v|k s]; cbn [run_op assigned] in *;
        destruct (str_dec k k0) as [<-|Hne]; auto.
      + unfold cset in E. destruct (mfind k (c_template c)) as [t|]; auto. destruct (cidx v =? cidx t); [discriminate|auto].
      + rewrite cset_str_eq in E. destruct (mfind k (c_template c)) as [t|]; auto. destruct (cconvert stod t s); auto. discriminate.
    - split; auto. split; auto. intros k0. destruct o as [k v|k s]; cbn [run_op assigned] in *;
        destruct (str_dec k k0) as [<-|Hne]; auto.
      + unfold cset in E. destruct (mfind k (c_template c)) as [t|]; auto. destruct (cidx v =? cidx t); [discriminate|auto].
      + rewrite cset_str_eq in E. destruct (mfind k (c_template c)) as [t|]; auto. destruct (cconvert stod t s); auto. discriminate.
    - split; auto. split; auto. intros k0. destruct o as [k v|k s]; cbn [run_op assigned] in *;
        destruct (str_dec k k0) as [<-|Hne]; auto.
      + unfold cset in E. destruct (mfind k (c_template c)) as [t|]; auto. destruct (cidx v =? cidx t); [discriminate|auto].
      + rewrite cset_str_eq in E. destruct (mfind k (c_template c)) as [t|]; auto. destruct (cconvert stod t s); auto. discriminate.
  Qed.

  Lemma apply_ops_spec ops : forall c, cok c -> cok (fold_left apply_op ops c) /\
    c_template (fold_left apply_op ops c) = c_template c /\
    forall k, mfind k (c_params (fold_left apply_op ops c)) = last_assigned (c_template c) k ops (mfind k (c_params c)).
  Proof.
    induction ops as [|o ops IH]; intros c HC; cbn [fold_left last_assigned]; [auto|].
    destruct (apply_op_spec c o HC) as (H1 & H2 & H3). destruct (IH _ H1) as (H4 & H5 & H6).
    split; auto. split; [congruence|]. intros k. rewrite H6, H2, H3. reflexivity.
  Qed.

  (** ** The run configuration *)
  Lemma read_config_sorted l : msorted (read_config (D := D) l).
  Proof.
    unfold read_config. assert (G : forall m, msorted m -> msorted (fold_left
      (fun (m : smap cval) (e : str * option cval) => match snd e with Some v => mset (fst e) v m | None => m end) l m)).
    { induction l as [|[k [v|]] l IH]; intros m Hm; cbn; auto. apply IH. apply mset_sorted. exact Hm. }
    apply G. constructor.
  Qed.

  Lemma read_config_find l : NoDup (map fst l) -> forall k v,
    mfind k (read_config (D := D) l) = Some v <-> In (k, Some v) l.
  Proof.
    intros HN k v. unfold read_config.
    assert (G : forall l (m : smap cval), NoDup (map fst l) -> msorted m -> (forall k0, In k0 (map fst l) -> mfind k0 m = None) ->
      mfind k (fold_left (fun (m : smap cval) (e : str * option cval) => match snd e with Some v => mset (fst e) v m | None => m end) l m) = Some v
      <-> In (k, Some v) l \/ mfind k m = Some v).
    { clear. induction l as [|[k1 o1] l IH]; intros m HN HS HF; cbn [fold_left fst snd].
      - cbn. tauto.
      - inversion HN as [|? ? Hnin HN']; subst. destruct o1 as [v1|].
        + rewrite IH; auto.
          * cbn [In]. destruct (str_dec k k1) as [->|Hne].
            { rewrite mfind_mset_eq, (HF k1 (or_introl eq_refl)). split.
              - intros [H|H]; auto. left. left. congruence.
              - intros [[H|H]|H]; auto; [right; congruence|discriminate]. }
            { rewrite mfind_mset_neq by auto. split; [tauto|]. intros [[H|H]|H]; auto. congruence. }
          * apply mset_sorted. exact HS.
          * intros k0 Hk0. rewrite mfind_mset_neq; auto. { apply HF. right. exact Hk0. } { intros ->. auto. }
        + rewrite IH; auto.
          * cbn [In]. split; [tauto|]. intros [[H|H]|H]; auto. congruence.
          * intros k0 Hk0. apply HF. right. exact Hk0. }
    rewrite G; auto; [|constructor]. cbn. split; [intros [H|H]; [auto|discriminate]|auto].
  Qed.
End config.

(** ** Command lines *)

Lemma find_char_spec c s i : find_char c s = Some i ->
  s = firstn i s ++ c :: skipn (S i) s /\ ~ In c (firstn i s).
Proof.
  revert i. induction s as [|a s IH]; intros i H; [discriminate|]. cbn [find_char] in H.
  destruct (Ascii.eqb a c) eqn:E.
  - injection H as <-. apply Ascii.eqb_eq in E. subst a. split; auto.
  - destruct (find_char c s) as [j|]; [|discriminate]. cbn in H. injection H as <-.
    destruct (IH j eq_refl) as [H1 H2]. split.
    + cbn [firstn skipn app]. f_equal. exact H1.
    + cbn [firstn]. intros [X|X]; [|auto]. subst a. rewrite Ascii.eqb_refl in E. discriminate.
Qed.

Lemma find_char_none c s : find_char c s = None <-> ~ In c s.
Proof.
  induction s as [|a s IH]; cbn; [tauto|]. destruct (Ascii.eqb a c) eqn:E.
  - apply Ascii.eqb_eq in E. subst a. split; [discriminate|tauto].
  - apply Ascii.eqb_neq in E. destruct (find_char c s); cbn.
    + split; [discriminate|]. intros H. exfalso. assert (X : Some n = None) by (apply IH; tauto). discriminate.
    + split; auto. intros _ [H|H]; auto. apply IH in H; auto.
Qed.

Lemma find_char_app c s r : ~ In c s -> find_char c (s ++ c :: r) = Some (length s).
Proof.
  induction s as [|a s IH]; cbn; intros H.
  - rewrite Ascii.eqb_refl. reflexivity.
  - destruct (Ascii.eqb a c) eqn:E; [apply Ascii.eqb_eq in E; subst; tauto|]. rewrite IH by tauto. reflexivity.
Qed.

Lemma split_unique {A} (c : A) s1 s2 r1 r2 : ~ In c s1 -> ~ In c s2 -> s1 ++ c :: r1 = s2 ++ c :: r2 -> s1 = s2 /\ r1 = r2.
Proof.
  revert s2. induction s1 as [|a s1 IH]; intros [|b s2] H1 H2 H; cbn in *; inversion H; subst.
  - auto.
  - tauto.
  - tauto.
  - destruct (IH s2) as [-> ->]; tauto.
Qed.

(** The key=value pair of an argument. *)
Definition arg_pair (a : str) : option (str * str) :=
  match find_char "="%char a with Some i => Some (firstn i a, skipn (S i) a) | None => None end.
Definition arg_pairs (argv : list str) : list (str * str) :=
  flat_map (fun a => match arg_pair a with Some p => [p] | None => [] end) argv.

Lemma arg_pair_spec a k v : arg_pair a = Some (k, v) <-> a = k ++ "="%char :: v /\ ~ In "="%char k.
Proof.
  unfold arg_pair. split.
  - destruct (find_char "="%char a) as [i|] eqn:E; [|discriminate]. intros H. injection H as <- <-.
    apply find_char_spec. exact E.
  - intros [-> H]. rewrite find_char_app by auto.
    assert (E1 : firstn (length k) (k ++ "="%char :: v) = k).
    { rewrite firstn_app, Nat.sub_diag, firstn_all. cbn. apply app_nil_r. }
    assert (E2 : skipn (S (length k)) (k ++ "="%char :: v) = v).
    { rewrite skipn_app. replace (S (length k) - length k) with 1 by lia. rewrite skipn_all2 by lia. reflexivity. }
    rewrite E1, E2. reflexivity.
Qed.

Lemma argv_step_pair m a : argv_step m a =
  match arg_pair a with
  | None => Ok m
  | Some (k, v) => match mfind k m with Some _ => Throw InvalidArgument | None => Ok (mset k v m) end
  end.
Proof. unfold argv_step, arg_pair. destruct (find_char "="%char a); reflexivity. Qed.

Lemma argv_pairs argv : forall m, foldM argv_step m argv =
  foldM (fun m e => match mfind (fst e) m with Some _ => Throw InvalidArgument | None => Ok (mset (fst e) (snd e) m) end) m (arg_pairs argv).
Proof.
  induction argv as [|a argv IH]; intros m; [reflexivity|]. cbn [foldM arg_pairs flat_map]. rewrite argv_step_pair.
  destruct (arg_pair a) as [[k v]|]; cbn [app foldM fst snd].
  - destruct (mfind k m); [reflexivity|]. bsimp. apply IH.
  - bsimp. apply IH.
Qed.

Lemma pairs_fold (l : list (str * str)) : forall m, msorted m ->
  (exists r, foldM (fun m e => match mfind (fst e) m with Some _ => Throw InvalidArgument | None => Ok (mset (fst e) (snd e) m) end) m l = Ok r /\
     NoDup (map fst l) /\ (forall k, In k (map fst l) -> mfind k m = None) /\
     r = fold_left (fun m e => mset (fst e) (snd e) m) l m) \/
  (foldM (fun m e => match mfind (fst e) m with Some _ => Throw InvalidArgument | None => Ok (mset (fst e) (snd e) m) end) m l = Throw InvalidArgument /\
     ~ (NoDup (map fst l) /\ forall k, In k (map fst l) -> mfind k m = None)).
Proof.
  induction l as [|[k v] l IH]; intros m HS; cbn [foldM fst snd map fold_left].
  - left. exists m. split; auto. split; [constructor|]. split; [intros k []|auto].
  - destruct (mfind k m) as [x|] eqn:E.
    + right. split; auto. intros [_ H]. specialize (H k (or_introl eq_refl)). congruence.
    + bsimp. destruct (IH (mset k v m) (mset_sorted _ _ _ HS)) as [(r & H1 & H2 & H3 & H4)|[H1 H2]].
      * left. exists r. split; auto.
        assert (Hk : ~ In k (map fst l)) by (intros X; specialize (H3 k X); rewrite mfind_mset_eq in H3; discriminate).
        split; [constructor; auto|]. split; auto. intros k0 [<-|X]; auto.
        rewrite <- (H3 k0 X). symmetry. apply mfind_mset_neq; auto. intros ->. auto.
      * right. split; auto. intros [HN HF]. inversion HN; subst. apply H2. split; auto. intros k0 X.
        rewrite mfind_mset_neq; [apply HF; right; exact X|exact HS|]. intros ->. auto.
Qed.
