(** C106: what is opened is closed exactly once. *)
From Coq Require Import List Arith Bool Lia.
From Verif Require Import Base HandleModel.
Import ListNotations.
Close Scope Z_scope.
Open Scope nat_scope.

(** The object at place [p] holds identifier [i]. *)
Definition holds (s : state) (p i : nat) : Prop := places s p = Some (Some i).

(** What is open is held by exactly one object, and what an object holds is open. *)
Record owned (s : state) : Prop := {
  ow_open : forall p i, holds s p i -> exists f, In (i, f) (open s);
  ow_held : forall i f, In (i, f) (open s) -> exists p, holds s p i;
  ow_once : forall p q i, holds s p i -> holds s q i -> p = q;
  ow_nodup : NoDup (map fst (open s));
  ow_fresh : forall i f, In (i, f) (open s) -> i < fresh s }.

(** Uses that the classes get right. A PropertyList, Datatype or Dataspace is not closed by hand; a Datatype or Dataspace is not
    assigned to itself, and a Datatype is not assigned from an empty one; a File, Group or Dataset is assigned only while it
    is empty. Everything else is allowed. *)
Definition careful (c : class) (o : op) (s : state) : Prop :=
  match o, c with
  | Close _, (PropertyList | Datatype | Dataspace) => False
  | (Assign p q | MoveAssign p q), Datatype => p <> q /\ exists i, holds s q i
  | (Assign p q | MoveAssign p q), Dataspace => p <> q
  | MoveAssign p _, Owner => forall i, ~ holds s p i
  | _, _ => True
  end.
Fixpoint well_formed (c : class) (prog : list op) (s : state) : Prop :=
  match prog with
  | [] => True
  | o :: prog' => proper c o s = true /\ careful c o s /\ forall s', step c o s = Ok s' -> well_formed c prog' s'
  end.

Definition same (s s' : state) : Prop := (forall p, places s p = places s' p) /\ open s = open s' /\ fresh s = fresh s'.
Lemma owned_ext s s' : same s s' -> owned s -> owned s'.
Proof.
  intros (HP & HO & HF) [H1 H2 H3 H4 H5]. unfold holds in *. split; unfold holds.
  - intros p i H. rewrite <- HO. apply (H1 p). rewrite HP. exact H.
  - intros i f H. rewrite <- HO in H. destruct (H2 i f H) as (p & Hp). exists p. rewrite <- HP. exact Hp.
  - intros p q i H H'. rewrite <- HP in H, H'. eauto.
  - rewrite <- HO. exact H4.
  - intros i f H. rewrite <- HO in H. rewrite <- HF. eauto.
Qed.

(** Owned but for the member of [p], which does not count. *)
Definition but (p : nat) (s : state) : Prop := owned (put p (Some None) s).

Lemma put_eq p x s : places (put p x s) p = x.
Proof. cbn. rewrite Nat.eqb_refl. reflexivity. Qed.
Lemma put_neq p q x s : q <> p -> places (put p x s) q = places s q.
Proof. intros H. cbn. apply Nat.eqb_neq in H. rewrite H. reflexivity. Qed.
Lemma holds_put p x s q i : holds (put p x s) q i <-> (q = p /\ x = Some (Some i)) \/ (q <> p /\ holds s q i).
Proof.
  unfold holds. destruct (Nat.eq_dec q p) as [->|H].
  - rewrite put_eq. intuition congruence.
  - rewrite put_neq by exact H. intuition congruence.
Qed.
Lemma handle_holds p s i : handle_at p s = Some i <-> holds s p i.
Proof.
  unfold handle_at, holds. destruct (places s p) as [h|]; split; intros H; try discriminate H.
  - rewrite H. reflexivity.
  - injection H as ->. reflexivity.
Qed.

Lemma but_empty p s : owned s -> handle_at p s = None -> but p s.
Proof.
  intros [H1 H2 H3 H4 H5] HE. split; cbn [put open fresh]; auto.
  - intros q i H. apply holds_put in H. destruct H as [[_ H]|[_ H]]; [discriminate|eauto].
  - intros i f H. destruct (H2 i f H) as (q & Hq). exists q. apply holds_put. right. split; [|exact Hq].
    intros ->. apply handle_holds in Hq. congruence.
  - intros q r i H H'. apply holds_put in H, H'. destruct H as [[_ H]|[_ H]]; [discriminate|].
    destruct H' as [[_ H']|[_ H']]; [discriminate|eauto].
Qed.

Lemma but_put p x s : (forall i, x <> Some (Some i)) -> but p s -> owned (put p x s).
Proof.
  intros Hx [H1 H2 H3 H4 H5]. cbn [put open fresh] in *. split; cbn [put open fresh]; auto.
  - intros q i H. apply holds_put in H. destruct H as [[_ H]|[Hn H]]; [destruct (Hx i H)|]. apply (H1 q). apply holds_put. auto.
  - intros i f H. destruct (H2 i f H) as (q & Hq). apply holds_put in Hq. destruct Hq as [[_ Hq]|Hq]; [discriminate|].
    exists q. apply holds_put. auto.
  - intros q r i H H'. apply holds_put in H, H'. destruct H as [[_ H]|[Hn H]]; [destruct (Hx i H)|].
    destruct H' as [[_ H']|[Hn' H']]; [destruct (Hx i H')|]. apply (H3 q r i); apply holds_put; auto.
Qed.

Lemma but_acquire p f s : but p s -> owned (acquire p f s).
Proof.
  intros [H1 H2 H3 H4 H5]. cbn [put open fresh] in *. unfold acquire.
  assert (Hnew : forall q, ~ (q <> p /\ holds s q (fresh s))).
  { intros q Hq. destruct (H1 q (fresh s)) as (g & Hg); [apply holds_put; auto|]. apply H5 in Hg. lia. }
  split; cbn [put open fresh].
  - intros q i H. apply holds_put in H. destruct H as [[-> H]|[Hn H]].
    + injection H as <-. exists f. left. reflexivity.
    + destruct (H1 q i) as (g & Hg); [apply holds_put; auto|]. exists g. right. exact Hg.
  - intros i g [H|H].
    + injection H as <- <-. exists p. apply holds_put. auto.
    + destruct (H2 i g H) as (q & Hq). apply holds_put in Hq. destruct Hq as [[_ Hq]|Hq]; [discriminate|].
      exists q. apply holds_put. right. exact Hq.
  - intros q r i H H'. apply holds_put in H, H'. cbn [places] in *.
    destruct H as [[-> H]|[Hn H]]; destruct H' as [[-> H']|[Hn' H']]; auto.
    + injection H as <-. destruct (Hnew r). auto.
    + injection H' as <-. destruct (Hnew q). auto.
    + apply (H3 q r i); apply holds_put; auto.
  - cbn [map fst]. constructor; [|exact H4]. intros H. apply in_map_iff in H. destruct H as ([i g] & E & H). cbn in E. subst i.
    apply H5 in H. lia.
  - intros i g [H|H]; [injection H as <- <-; lia|]. apply H5 in H. lia.
Qed.

Lemma but_take p q s : but p s -> has_object q s = true -> owned (take p q s).
Proof.
  intros HB HQ. unfold take. destruct (Nat.eq_dec p q) as [->|Hne].
  - eapply owned_ext; [|exact HB]. split; [|auto]. intros r. destruct (Nat.eq_dec r q) as [->|Hr]; [rewrite !put_eq; reflexivity|].
    rewrite !put_neq by exact Hr. reflexivity.
  - destruct (handle_at q s) as [j|] eqn:E.
    + destruct HB as [H1 H2 H3 H4 H5]. cbn [put open fresh] in *. apply handle_holds in E.
      split; cbn [put open fresh]; auto.
      * intros r i H. apply holds_put in H. destruct H as [[_ H]|[Hr H]]; [discriminate|]. apply holds_put in H.
        destruct H as [[-> H]|[Hr' H]].
        -- injection H as <-. apply (H1 q). apply holds_put. auto.
        -- apply (H1 r). apply holds_put. auto.
      * intros i f H. destruct (H2 i f H) as (r & Hr). apply holds_put in Hr. destruct Hr as [[_ Hr]|[Hn Hr]]; [discriminate|].
        destruct (Nat.eq_dec r q) as [->|Hrq].
        -- exists p. apply holds_put. right. split; [exact Hne|]. apply holds_put. left. split; auto.
           assert (Hij : Some (Some j) = Some (Some i)) by (rewrite <- E; exact Hr). exact Hij.
        -- exists r. apply holds_put. right. split; [exact Hrq|]. apply holds_put. auto.
      * intros r r' i H H'. apply holds_put in H, H'. destruct H as [[_ H]|[Hr H]]; [discriminate|].
        destruct H' as [[_ H']|[Hr' H']]; [discriminate|]. apply holds_put in H, H'.
        destruct H as [[-> H]|[Hp H]]; destruct H' as [[-> H']|[Hp' H']]; auto.
        -- injection H as <-. exfalso. apply Hr'. apply (H3 r' q j); apply holds_put; auto.
        -- injection H' as <-. exfalso. apply Hr. apply (H3 r q j); apply holds_put; auto.
        -- apply (H3 r r' i); apply holds_put; auto.
    + eapply owned_ext; [|exact HB]. split; [|auto]. intros r. destruct (Nat.eq_dec r q) as [->|Hr].
      * rewrite put_eq. rewrite put_neq by auto. unfold handle_at in E. unfold has_object in HQ. destruct (places s q) as [h|]; [rewrite E; reflexivity|discriminate HQ].
      * rewrite (put_neq q r) by exact Hr. destruct (Nat.eq_dec r p) as [->|Hp]; [rewrite !put_eq; reflexivity|].
        rewrite !put_neq by exact Hp. reflexivity.
Qed.

Lemma is_open_iff i s : is_open i s = true <-> exists f, In (i, f) (open s).
Proof.
  unfold is_open. rewrite existsb_exists. split.
  - intros ([j f] & H & E). cbn in E. apply Nat.eqb_eq in E. subst j. eauto.
  - intros (f & H). exists (i, f). split; auto. cbn. apply Nat.eqb_refl.
Qed.

Lemma nodup_filter (g : nat * nat -> bool) l : NoDup (map fst l) -> NoDup (map fst (filter g l)).
Proof.
  induction l as [|e l IH]; cbn; auto. intros H. inversion H; subst. destruct (g e); cbn; auto. constructor; auto.
  intros Hin. apply H2. apply in_map_iff in Hin. destruct Hin as (x & E & Hx). apply filter_In in Hx. apply in_map_iff. exists x. tauto.
Qed.

(** Closing what an object holds. *)
Lemma release_but p i s : owned s -> holds s p i ->
  exists s', release i s = (true, s') /\ but p s' /\ (forall q, places s' q = places s q) /\
    bad_close s' = bad_close s /\ thrown s' = thrown s.
Proof.
  intros [H1 H2 H3 H4 H5] HH. unfold release. assert (E : is_open i s = true) by (apply is_open_iff; eauto). rewrite E.
  eexists. split; [reflexivity|]. split; [|cbn; auto]. split; cbn [put open fresh].
  - intros q j H. apply holds_put in H. destruct H as [[_ H]|[Hn H]]; [discriminate|]. unfold holds in H. cbn [places] in H.
    destruct (H1 q j H) as (f & Hf). exists f. apply filter_In. split; [exact Hf|]. cbn. apply negb_true_iff. apply Nat.eqb_neq.
    intros ->. apply Hn. apply (H3 q p i); auto.
  - intros j f H. apply filter_In in H. destruct H as [H HE]. cbn in HE. apply negb_true_iff in HE. apply Nat.eqb_neq in HE.
    destruct (H2 j f H) as (q & Hq). exists q. apply holds_put. right. split; [|exact Hq]. intros ->.
    assert (Hij : Some (Some i) = Some (Some j)) by (rewrite <- HH; exact Hq). injection Hij as <-. congruence.
  - intros q r j H H'. apply holds_put in H, H'. destruct H as [[_ H]|[Hn H]]; [discriminate|].
    destruct H' as [[_ H']|[Hn' H']]; [discriminate|]. unfold holds in *. cbn [places] in *. eauto.
  - apply nodup_filter. exact H4.
  - intros j f H. apply filter_In in H. destruct H as [H _]. eauto.
Qed.

Lemma close_keep_but p s : owned s -> but p (close_keep p s) /\ (forall q, places (close_keep p s) q = places s q) /\
  bad_close (close_keep p s) = bad_close s /\ thrown (close_keep p s) = thrown s.
Proof.
  intros HO. unfold close_keep. destruct (handle_at p s) as [i|] eqn:E.
  - apply handle_holds in E. destruct (release_but p i s HO E) as (s' & -> & H). exact H.
  - split; auto. apply but_empty; auto.
Qed.
Lemma close_check_but p s : owned s -> exists s', close_check p s = (true, s') /\ but p s' /\ (forall q, places s' q = places s q) /\
  bad_close s' = bad_close s /\ thrown s' = thrown s.
Proof.
  intros HO. unfold close_check. destruct (handle_at p s) as [i|] eqn:E.
  - apply handle_holds in E. apply (release_but p i s HO E).
  - exists s. split; auto. split; auto. apply but_empty; auto.
Qed.
Lemma close_reset_ok p s : owned s -> let s' := close_reset p s in
  owned s' /\ (handle_at p s' = None) /\ (has_object p s = true -> has_object p s' = true) /\ (forall q, q <> p -> places s' q = places s q) /\
  bad_close s' = bad_close s /\ thrown s' = thrown s.
Proof.
  intros HO. cbv zeta. unfold close_reset. destruct (handle_at p s) as [i|] eqn:E.
  - apply handle_holds in E. destruct (release_but p i s HO E) as (s' & -> & HB & HP & HC & HT). cbn [snd].
    split; [apply but_put; [discriminate|exact HB]|]. unfold handle_at, has_object. rewrite put_eq. split; auto. split; auto.
    split; [intros q Hq; rewrite put_neq by exact Hq; apply HP|]. auto.
  - split; auto.
Qed.

(** Nothing null among the data spaces. *)
Definition sane (c : class) (s : state) : Prop := c = Dataspace -> forall p, places s p <> Some None.
Definition good (c : class) (s : state) : Prop := owned s /\ sane c s /\ bad_close s = 0.

Lemma acquire_places p f s q : places (acquire p f s) q = if q =? p then Some (Some (fresh s)) else places s q.
Proof. reflexivity. Qed.

Lemma duplicate_ok p q s i : but p s -> p <> q -> holds s q i ->
  exists f, duplicate p q s = (true, acquire p f s) /\ owned (acquire p f s).
Proof.
  intros HB Hne HH. unfold duplicate. assert (E : handle_at q s = Some i) by (apply handle_holds; exact HH). rewrite E.
  assert (HO : is_open i s = true).
  { apply is_open_iff. destruct HB as [H1 _ _ _ _]. cbn in H1. apply (H1 q). apply holds_put. auto. }
  rewrite HO. eexists. split; [reflexivity|]. apply but_acquire. exact HB.
Qed.

Lemma new_place c p s : good c s -> negb (has_object p s) = true -> but p s.
Proof.
  intros (HO & _) HN. apply but_empty; auto. unfold has_object, handle_at in *. destruct (places s p); [discriminate|reflexivity].
Qed.
Lemma object_handle c q s : c = Dataspace -> sane c s -> has_object q s = true -> exists i, holds s q i.
Proof.
  intros E HS HQ. specialize (HS E q). unfold has_object in HQ. unfold holds. destruct (places s q) as [[i|]|]; [eauto|destruct (HS eq_refl)|discriminate HQ].
Qed.

(** One operation: it ends without std::terminate, nothing is closed that is not open, and ownership is kept. Only the creation of
    a file can throw. *)
Lemma step_good c o s : good c s -> proper c o s = true -> careful c o s ->
  exists s', step c o s = Ok s' /\ good c s' /\
    (thrown s' = thrown s \/ exists p f, o = NewFile p f /\ exists i, In (i, f) (open s)).
Proof.
  intros HG HP HC. unfold step. rewrite HP. pose proof HG as (HO & HS & HB).
  unfold proper in HP. apply andb_prop in HP. destruct HP as [HP HM]. apply andb_prop in HP. destruct HP as [HH HN].
  assert (HA : forall p f s0, but p s0 -> bad_close s0 = 0 -> thrown s0 = thrown s -> sane c s0 -> good c (acquire p f s0) /\ thrown (acquire p f s0) = thrown s).
  { intros p f s0 H H' Ht HS0. split; [|exact Ht]. split; [apply but_acquire; exact H|]. split; [|exact H'].
    intros E q. rewrite acquire_places. destruct (q =? p); [discriminate|]. apply HS0. exact E. }
  assert (HX : forall p x s0, (forall i, x <> Some (Some i)) -> but p s0 -> bad_close s0 = 0 -> thrown s0 = thrown s -> sane c s0 ->
    (c = Dataspace -> x = None) -> good c (put p x s0) /\ thrown (put p x s0) = thrown s).
  { intros p x s0 Hx H H' Ht HS0 HD. split; [|exact Ht]. split; [apply but_put; auto|]. split; [|exact H'].
    intros E q. destruct (Nat.eq_dec q p) as [->|Hq]; [rewrite put_eq, (HD E); discriminate|]. rewrite put_neq by exact Hq. apply HS0. exact E. }
  assert (HT : forall p q s0, but p s0 -> has_object q s0 = true -> bad_close s0 = 0 -> thrown s0 = thrown s -> c <> Dataspace ->
    good c (take p q s0) /\ thrown (take p q s0) = thrown s).
  { intros p q s0 H Hq H' Ht HD. split; [|exact Ht]. split; [apply but_take; auto|]. split; [|exact H']. intros E. contradiction. }
  assert (Hsane : forall s0, (forall q, places s0 q = places s q) -> sane c s0).
  { intros s0 H E q. rewrite H. apply HS. exact E. }
  assert (Hcopy : forall p q, negb (has_object p s) = true -> has_object q s = true ->
    exists s', Ok (do_copy c p q s) = Ok s' /\ good c s' /\ thrown s' = thrown s).
  { intros p q Hp Hq. pose proof (new_place c p s HG Hp) as Hbut.
    assert (Hne : p <> q) by (intros ->; rewrite Hq in Hp; discriminate).
    eexists. split; [reflexivity|]. unfold do_copy.
    destruct (handle_at q s) as [i|] eqn:E.
    - pose proof (proj1 (handle_holds q s i) E) as Hi. destruct (duplicate_ok p q s i Hbut Hne Hi) as (f & -> & _). cbn [snd].
      destruct c; auto.
    - assert (Hd : duplicate p q s = (false, put p (Some None) s)) by (unfold duplicate; rewrite E; reflexivity). rewrite Hd. cbn [snd].
      destruct c; try (apply HX; auto; intros; discriminate).
      destruct (object_handle Dataspace q s eq_refl HS Hq) as (i & Hi). apply handle_holds in Hi. congruence. }
  assert (Hassign : forall p q, (c = Datatype \/ c = Dataspace \/ c = Communicator) -> has_object p s = true -> has_object q s = true ->
    (c = Datatype -> p <> q /\ exists i, holds s q i) -> (c = Dataspace -> p <> q) ->
    exists s', Ok (do_assign c p q s) = Ok s' /\ good c s' /\ thrown s' = thrown s).
  { intros p q Hcl Hp Hq Hty Hsp. eexists. split; [reflexivity|]. destruct Hcl as [-> | [-> | -> ] ]; cbn [do_assign].
    - destruct (Hty eq_refl) as (Hne & i & Hi). destruct (close_keep_but p s HO) as (Hbut & Hpl & Hbc & Hth).
      destruct (duplicate_ok p q (close_keep p s) i Hbut Hne) as (f & -> & _); [unfold holds; rewrite Hpl; exact Hi|].
      apply HA; try congruence; apply Hsane; exact Hpl.
    - pose proof (Hsp eq_refl) as Hne. destruct (object_handle Dataspace q s eq_refl HS Hq) as (i & Hi).
      destruct (close_check_but p s HO) as (s1 & -> & Hbut & Hpl & Hbc & Hth).
      destruct (duplicate_ok p q s1 i Hbut Hne) as (f & -> & _); [unfold holds; rewrite Hpl; exact Hi|].
      apply HA; try congruence; apply Hsane; exact Hpl.
    - destruct (close_reset_ok p s HO) as (HO1 & Hn1 & _ & Hpl & Hbc & Hth).
      destruct (handle_at q (close_reset p s)) as [i|] eqn:E.
      + assert (Hne : p <> q) by (intros ->; congruence). apply handle_holds in E.
        destruct (duplicate_ok p q (close_reset p s) i (but_empty p _ HO1 Hn1) Hne E) as (f & -> & _). cbn [snd].
        apply HA; try congruence; try (apply but_empty; auto); intros E'; discriminate E'.
      + split; [|congruence]. split; auto. split; [intros E'; discriminate E'|congruence]. }
  destruct o as [p f|p f|p|p q|p q|p q|p q|p|p]; cbn [makes needs forallb] in HM, HN; rewrite ?andb_true_r in HN.
  - (* New *) eexists. split; [reflexivity|]. destruct (HA p f s) as [G1 G2]; auto. apply (new_place c); auto.
  - (* NewFile *) destruct (existsb (fun e => snd e =? f) (open s)) eqn:EX.
    + eexists. split; [reflexivity|]. split.
      * split; [eapply owned_ext; [|exact HO]; split; [reflexivity|split; reflexivity]|]. split; [exact HS|exact HB].
      * right. exists p, f. split; auto. apply existsb_exists in EX. destruct EX as ([i g] & Hin & Eg). cbn in Eg. apply Nat.eqb_eq in Eg.
        subst g. exists i. exact Hin.
    + eexists. split; [reflexivity|]. destruct (HA p f s) as [G1 G2]; auto. apply (new_place c); auto.
  - (* Default *) pose proof (new_place c p s HG HM) as Hbut.
    destruct c; eexists; (split; [reflexivity|]);
      try (destruct (HX p (Some None) s) as [G1 G2]; auto; intros; discriminate).
    destruct (HA p 0 s) as [G1 G2]; auto.
  - (* Copy *) destruct (Hcopy p q HM HN) as (s' & E & G & T). eauto.
  - (* Move *) pose proof (new_place c p s HG HM) as Hbut. destruct c;
      try (eexists; split; [reflexivity|]; destruct (HT p q s) as [G1 G2]; auto; discriminate).
    destruct (Hcopy p q HM HN) as (s' & E & G & T). eauto.
  - (* Assign *) apply andb_prop in HN. destruct HN as [Hp Hq].
    assert (Hcl : c = Datatype \/ c = Dataspace \/ c = Communicator) by (destruct c; cbn in HH; try discriminate HH; auto).
    destruct (Hassign p q) as (s' & E & G & T); auto; [intros ->; exact HC|intros ->; exact HC|]. eauto.
  - (* MoveAssign *) apply andb_prop in HN. destruct HN as [Hp Hq]. destruct c; cbn in HH; try discriminate HH; cbn [do_move_assign].
    + destruct (Hassign p q) as (s' & E & G & T); auto; [discriminate|]. cbn [do_assign] in *. eauto.
    + destruct (Hassign p q) as (s' & E & G & T); auto; [discriminate|]. cbn [do_assign] in *. eauto.
    + eexists. split; [reflexivity|]. destruct (HT p q s) as [G1 G2]; auto; [|discriminate]. apply but_empty; auto.
      destruct (handle_at p s) as [i|] eqn:E; auto. apply handle_holds in E. destruct (HC i E).
    + eexists. split; [reflexivity|]. destruct (close_reset_ok p s HO) as (HO1 & Hn1 & Hp1 & Hpl & Hbc & Hth).
      destruct (HT p q (close_reset p s)) as [G1 G2]; auto; try congruence; [apply but_empty; auto|].
      destruct (Nat.eq_dec q p) as [->|Hqp]; [auto|]. unfold has_object. rewrite Hpl by exact Hqp. exact Hq.
    + eexists. split; [reflexivity|]. destruct (close_reset_ok p s HO) as (HO1 & Hn1 & Hp1 & Hpl & Hbc & Hth).
      destruct (HT p q (close_reset p s)) as [G1 G2]; auto; try congruence; [apply but_empty; auto|].
      destruct (Nat.eq_dec q p) as [->|Hqp]; [auto|]. unfold has_object. rewrite Hpl by exact Hqp. exact Hq.
    + eexists. split; [reflexivity|]. destruct (close_keep_but p s HO) as (Hbut & Hpl & Hbc & Hth).
      destruct (HT p q (close_keep p s)) as [G1 G2]; auto; try congruence. unfold has_object. rewrite Hpl. exact Hq.
  - (* Close *) destruct c; cbn in HC, HH; try contradiction; try discriminate HH; eexists; (split; [reflexivity|]);
      destruct (close_reset_ok p s HO) as (HO1 & _ & _ & _ & Hbc & Hth);
      (split; [|left; exact Hth]); (split; [exact HO1|split; [intros E; discriminate E|congruence]]).
  - (* Destroy *) destruct c.
    1,2,7: eexists; (split; [reflexivity|]); destruct (close_keep_but p s HO) as (Hbut & Hpl & Hbc & Hth);
      destruct (HX p None (close_keep p s)) as [G1 G2]; auto; try congruence; try (intros; discriminate).
    + destruct (close_check_but p s HO) as (s1 & -> & Hbut & Hpl & Hbc & Hth). eexists. split; [reflexivity|].
      destruct (HX p None s1) as [G1 G2]; auto; try congruence; intros; discriminate.
    + eexists. split; [reflexivity|]. destruct (close_reset_ok p s HO) as (HO1 & Hn1 & _ & _ & Hbc & Hth).
      destruct (HX p None (close_reset p s)) as [G1 G2]; auto; try congruence; try (intros; discriminate); apply but_empty; auto.
    + eexists. split; [reflexivity|]. destruct (close_reset_ok p s HO) as (HO1 & Hn1 & _ & _ & Hbc & Hth).
      destruct (HX p None (close_reset p s)) as [G1 G2]; auto; try congruence; try (intros; discriminate); apply but_empty; auto.
    + eexists. split; [reflexivity|]. destruct (close_reset_ok p s HO) as (HO1 & Hn1 & _ & _ & Hbc & Hth).
      destruct (HX p None (close_reset p s)) as [G1 G2]; auto; try congruence; try (intros; discriminate); apply but_empty; auto.
Qed.

Lemma start_good c : good c start.
Proof.
  split; [|split; [intros _ p; discriminate|reflexivity]]. split; cbn; try (intros; contradiction).
  - intros p i H. discriminate H.
  - intros p q i H. discriminate H.
  - constructor.
Qed.

Lemma run_good c prog : forall s, good c s -> well_formed c prog s ->
  exists s', run c prog s = Ok s' /\ good c s' /\ (c <> Owner -> thrown s' = thrown s).
Proof.
  induction prog as [|o prog IH]; intros s HG HW; cbn [run].
  - exists s. auto.
  - destruct HW as (HP & HC & HW). destruct (step_good c o s HG HP HC) as (s1 & E & HG1 & HT). rewrite E. cbn [bind].
    destruct (IH s1 HG1 (HW s1 E)) as (s2 & E2 & HG2 & HT2). exists s2. split; [exact E2|]. split; [exact HG2|].
    intros Hc. rewrite (HT2 Hc). destruct HT as [HT|(p & f & -> & _)]; [exact HT|].
    exfalso. unfold proper in HP. destruct c; cbn in HP; try discriminate HP. contradiction.
Qed.

(** Whatever a careful program does, it runs to its end, nothing is closed that is not open, what is open is held by exactly one
    object, and when no object is left nothing is open. *)
Theorem handles_owned : forall (c : class) (prog : list op), well_formed c prog start ->
  exists s, run c prog start = Ok s /\ owned s /\ bad_close s = 0 /\ (c <> Owner -> thrown s = 0) /\
    ((forall p, places s p = None) -> open s = []).
Proof.
  intros c prog HW. destruct (run_good c prog start (start_good c) HW) as (s & E & (HO & _ & HB) & HT).
  exists s. split; [exact E|]. split; [exact HO|]. split; [exact HB|]. split; [exact HT|].
  intros HE. destruct (open s) as [|[i f] l] eqn:Eo; [reflexivity|].
  destruct (ow_held s HO i f) as (p & Hp); [rewrite Eo; left; reflexivity|]. unfold holds in Hp. rewrite HE in Hp. discriminate Hp.
Qed.

(** Communicators, requests and buffers can be used in any way that compiles. *)
Lemma free_well_formed c prog : (c = Communicator \/ c = Request \/ c = Buffer) -> forall s, good c s ->
  run c prog s <> UB -> well_formed c prog s.
Proof.
  intros Hc. induction prog as [|o prog IH]; intros s HG HR; cbn [well_formed]; [exact I|]. cbn [run] in HR.
  assert (HP : proper c o s = true).
  { destruct (proper c o s) eqn:E; [reflexivity|]. exfalso. apply HR. unfold step. rewrite E. reflexivity. }
  assert (HC : careful c o s) by (destruct Hc as [-> | [-> | -> ] ]; destruct o; exact I).
  split; [exact HP|]. split; [exact HC|]. intros s' E. rewrite E in HR. cbn [bind] in HR. apply IH; [|exact HR].
  destruct (step_good c o s HG HP HC) as (s1 & E1 & HG1 & _). rewrite E in E1. injection E1 as ->. exact HG1.
Qed.
Theorem communicators_requests_buffers_owned : forall (c : class) (prog : list op),
  c = Communicator \/ c = Request \/ c = Buffer -> run c prog start <> UB ->
  exists s, run c prog start = Ok s /\ owned s /\ bad_close s = 0 /\ thrown s = 0 /\
    ((forall p, places s p = None) -> open s = []).
Proof.
  intros c prog Hc HR. destruct (handles_owned c prog) as (s & E & HO & HB & HT & HE).
  - apply free_well_formed; auto. apply start_good.
  - exists s. repeat split; try apply HO; auto. apply HT. destruct Hc as [-> | [-> | -> ] ]; discriminate.
Qed.

(** After a careful program, a file can be created exactly when no object that belongs to it is left. *)
Theorem file_created_again : forall (prog : list op) (s : state) (p f : nat),
  well_formed Owner prog start -> run Owner prog start = Ok s -> places s p = None ->
  exists s', step Owner (NewFile p f) s = Ok s' /\
    (thrown s' = thrown s /\ (exists i, holds s' p i /\ In (i, f) (open s')) <->
     forall q i, holds s q i -> ~ In (i, f) (open s)).
Proof.
  intros prog s p f HW HR HP. destruct (run_good Owner prog start (start_good Owner) HW) as (s0 & E & HG & _).
  rewrite HR in E. injection E as <-. destruct HG as (HO & HS & HB).
  unfold step. assert (Hpr : proper Owner (NewFile p f) s = true) by (unfold proper, has_object; cbn; rewrite HP; reflexivity).
  rewrite Hpr. destruct (existsb (fun e => snd e =? f) (open s)) eqn:EX; eexists; (split; [reflexivity|]).
  - split.
    + intros (HT & _). cbn in HT. lia.
    + intros H. exfalso. apply existsb_exists in EX. destruct EX as ([i g] & Hin & Eg). cbn in Eg. apply Nat.eqb_eq in Eg. subst g.
      destruct (ow_held s HO i f Hin) as (q & Hq). exact (H q i Hq Hin).
  - split; [|intros _].
    + intros _ q i Hq Hin. assert (existsb (fun e => snd e =? f) (open s) = true); [|congruence].
      apply existsb_exists. exists (i, f). split; [exact Hin|]. apply Nat.eqb_refl.
    + split; [reflexivity|]. exists (fresh s). split; [unfold holds; rewrite acquire_places, Nat.eqb_refl; reflexivity|].
      left. reflexivity.
Qed.

(** An id that no File, Group or Dataset holds stays open whatever the program does from then on. *)
Definition stranded (i : nat) (s : state) : Prop :=
  (exists f, In (i, f) (open s)) /\ (forall p, ~ holds s p i) /\ i < fresh s.
Lemma stranded_put i p x s : x <> Some (Some i) -> stranded i s -> stranded i (put p x s).
Proof.
  intros Hx (H1 & H2 & H3). split; [exact H1|]. split; [|exact H3]. intros q H. apply holds_put in H.
  destruct H as [[_ H]|[_ H]]; [contradiction|]. exact (H2 q H).
Qed.
Lemma stranded_acquire i p f s : stranded i s -> stranded i (acquire p f s).
Proof.
  intros ((g & H1) & H2 & H3). unfold acquire. apply stranded_put; [intros H; injection H as H; lia|].
  split; [exists g; right; exact H1|]. split; [exact H2|]. cbn. lia.
Qed.
Lemma stranded_close i p s : stranded i s -> stranded i (close_reset p s).
Proof.
  intros ((g & H1) & H2 & H3). unfold close_reset. destruct (handle_at p s) as [j|] eqn:E; [|split; eauto].
  apply stranded_put; [discriminate|]. apply handle_holds in E. assert (Hij : i <> j) by (intros ->; exact (H2 p E)).
  unfold release. destruct (is_open j s); cbn [snd]; (split; [|split; [exact H2|exact H3]]); exists g; cbn; auto.
  apply filter_In. split; [exact H1|]. cbn. apply negb_true_iff. apply Nat.eqb_neq. exact Hij.
Qed.
Lemma stranded_take i p q s : stranded i s -> stranded i (take p q s).
Proof.
  intros H. unfold take. apply stranded_put; [discriminate|]. apply stranded_put; [|exact H]. intros E. injection E as E.
  apply handle_holds in E. destruct H as (_ & H2 & _). exact (H2 q E).
Qed.
Lemma stranded_step i o s s' : stranded i s -> step Owner o s = Ok s' -> stranded i s'.
Proof.
  intros H E. unfold step in E. destruct (proper Owner o s) eqn:P; [|discriminate E].
  destruct o; cbn in P; try discriminate P.
  - injection E as <-. apply stranded_acquire. exact H.
  - destruct (existsb _ _); injection E as <-; [exact H|apply stranded_acquire; exact H].
  - injection E as <-. apply stranded_put; [discriminate|exact H].
  - injection E as <-. apply stranded_take. exact H.
  - injection E as <-. apply stranded_take. exact H.
  - injection E as <-. apply stranded_close. exact H.
  - injection E as <-. apply stranded_put; [discriminate|]. apply stranded_close. exact H.
Qed.

(** Assigning to a File, Group or Dataset that is not empty leaves what it held open to the end of the run: no later operation on
    any object closes it, and its file cannot be created again. *)
Theorem assigned_owner_leaks : forall (prog rest : list op) (s s' s'' : state) (p q i f : nat),
  well_formed Owner prog start -> run Owner prog start = Ok s -> holds s p i -> In (i, f) (open s) -> p <> q ->
  step Owner (MoveAssign p q) s = Ok s' -> run Owner rest s' = Ok s'' ->
  In (i, f) (open s'') /\ (forall r, ~ holds s'' r i) /\
  (forall r, places s'' r = None -> exists s3, step Owner (NewFile r f) s'' = Ok s3 /\ thrown s3 = S (thrown s'')).
Proof.
  intros prog rest s s' s'' p q i f HW HR HH HI Hpq HS HR2.
  destruct (run_good Owner prog start (start_good Owner) HW) as (s0 & E & (HO & _) & _). rewrite HR in E. injection E as <-.
  assert (H1 : stranded i s' /\ open s' = open s).
  { unfold step in HS. destruct (proper Owner (MoveAssign p q) s); [|discriminate HS]. injection HS as <-. split; [|reflexivity].
    split; [exists f; exact HI|]. split; [|apply (ow_fresh s HO i f HI)]. intros r Hr. unfold do_move_assign, take in Hr. apply holds_put in Hr.
    destruct Hr as [[_ Hr]|[Hrq Hr]]; [discriminate Hr|]. apply holds_put in Hr. destruct Hr as [[-> Hr]|[Hrp Hr]].
    - injection Hr as Hr. apply handle_holds in Hr. apply Hpq. apply (ow_once s HO p q i); auto.
    - apply Hrp. apply (ow_once s HO r p i); auto. }
  destruct H1 as [H1 Ho].
  assert (HF : forall t, stranded i t -> In (i, f) (open t) -> forall l t', run Owner l t = Ok t' -> stranded i t' /\ In (i, f) (open t')).
  { intros t HT HF l. revert t HT HF. induction l as [|o l IH]; intros t HT HF t' E; cbn [run] in E.
    - injection E as <-. auto.
    - destruct (step Owner o t) as [t1| | |] eqn:E1; try discriminate E. cbn [bind] in E. apply (IH t1); auto.
      + apply (stranded_step i o t); auto.
      + unfold step in E1. destruct (proper Owner o t) eqn:P; [|discriminate E1].
        assert (HC : forall r, In (i, f) (open (close_reset r t))).
        { intros r. unfold close_reset. destruct (handle_at r t) as [j|] eqn:Ej; [|exact HF]. cbn. apply handle_holds in Ej.
          assert (Hij : i <> j) by (intros ->; destruct HT as (_ & HT & _); exact (HT r Ej)).
          unfold release. destruct (is_open j t); cbn [snd open]; [|exact HF]. apply filter_In. split; [exact HF|]. cbn.
          apply negb_true_iff. apply Nat.eqb_neq. exact Hij. }
        destruct o; cbn in P; try discriminate P; try (injection E1 as <-; cbn; auto; fail).
        destruct (existsb _ _); injection E1 as <-; cbn; auto. }
  destruct (HF s' H1 ltac:(rewrite Ho; exact HI) rest s'' HR2) as [(_ & HN & _) Hin].
  split; [exact Hin|]. split; [exact HN|]. intros r Hr. exists (throw s''). split; [|reflexivity]. unfold step.
  assert (Hpr : proper Owner (NewFile r f) s'' = true) by (unfold proper, has_object; cbn; rewrite Hr; reflexivity). rewrite Hpr.
  assert (EX : existsb (fun e => snd e =? f) (open s'') = true); [|rewrite EX; reflexivity].
  apply existsb_exists. exists (i, f). split; [exact Hin|]. apply Nat.eqb_refl.
Qed.

(** What is left of a run, for the examples: what is open, how often something was closed that was not open, and how many
    operations threw. *)
Definition left_over (r : outcome state) : option (list (nat * nat) * nat * nat) :=
  match r with Ok s => Some (open s, bad_close s, thrown s) | _ => None end.

(** A file opened in place of another: [f = File("b", "w")] over a File of "a". When both objects are gone, "a" is still open, and
    creating it again throws. *)
Theorem files_closed_refuted : exists prog, run Owner prog start <> UB /\
  left_over (run Owner prog start) = Some ([(0, 1)], 0, 0) /\
  left_over (run Owner (prog ++ [NewFile 0 1]) start) = Some ([(0, 1)], 0, 1) /\
  forall s p, run Owner prog start = Ok s -> places s p = None.
Proof.
  exists [NewFile 0 1; NewFile 1 2; MoveAssign 0 1; Destroy 1; Destroy 0]. cbv.
  repeat split; try discriminate; intros s p E; injection E as <-; cbn. destruct p as [|[|p]]; reflexivity.
Qed.

(** close() followed by the destructor closes twice; for a Dataspace the destructor throws, and the program is terminated. *)
Theorem close_by_hand_refuted :
  left_over (run PropertyList [New 0 0; Close 0; Destroy 0] start) = Some ([], 1, 0) /\
  left_over (run Datatype [New 0 0; Close 0; Destroy 0] start) = Some ([], 1, 0) /\
  run Dataspace [New 0 0; Close 0; Destroy 0] start = Throw LogicError.
Proof. repeat split; reflexivity. Qed.

(** Assigning a Datatype or Dataspace to itself throws, and its destructor then closes twice or terminates the program; a Communicator
    or buffer_t assigned to itself is left empty. *)
Theorem self_assignment_refuted :
  left_over (run Datatype [New 0 0; Assign 0 0; Destroy 0] start) = Some ([], 1, 1) /\
  left_over (run Dataspace [New 0 0; Assign 0 0] start) = Some ([], 0, 1) /\
  run Dataspace [New 0 0; Assign 0 0; Destroy 0] start = Throw LogicError /\
  (exists s, run Communicator [New 0 0; Assign 0 0] start = Ok s /\ places s 0 = Some None) /\
  (exists s, run Buffer [New 0 0; MoveAssign 0 0] start = Ok s /\ places s 0 = Some None).
Proof. repeat split; try reflexivity; eexists; split; reflexivity. Qed.

(** Assigning an empty Datatype throws and leaves the closed id in the target, which is then closed again. *)
Theorem empty_assignment_refuted :
  left_over (run Datatype [New 0 0; Default 1; Assign 0 1; Destroy 0; Destroy 1] start) = Some ([], 1, 1).
Proof. reflexivity. Qed.

Lemma well_formed_cons c o prog s s' : step c o s = Ok s' -> careful c o s -> well_formed c prog s' -> well_formed c (o :: prog) s.
Proof.
  intros E HC HW. split; [|split; [exact HC|]].
  - unfold step in E. destruct (proper c o s); [reflexivity|discriminate E].
  - intros t Et. rewrite E in Et. injection Et as <-. exact HW.
Qed.

(** A careful program: a communicator copied, assigned and moved, and a file reopened after its group is gone. *)
Example well_formed_file : well_formed Owner
  [NewFile 0 1; New 1 1; Move 2 1; NewFile 3 1; Destroy 2; Destroy 1; Close 0; NewFile 3 1; MoveAssign 0 3] start.
Proof.
  repeat (eapply well_formed_cons; [cbv; reflexivity|first [exact I | intros i H; discriminate H]|]). exact I.
Qed.
(* the creation of file 1 while its group is there throws; afterwards it succeeds *)
Example file_reopened : left_over (run Owner
  [NewFile 0 1; New 1 1; Move 2 1; NewFile 3 1; Destroy 2; Destroy 1; Close 0; NewFile 3 1; MoveAssign 0 3] start)
  = Some ([(2, 1)], 0, 1).
Proof. reflexivity. Qed.
Example communicators : left_over (run Communicator
  [New 0 0; Default 1; Copy 2 0; Assign 1 2; MoveAssign 2 0; Close 1; Assign 1 1; Destroy 0; Copy 0 2; Destroy 1] start)
  = Some ([(3, 0); (0, 0)], 0, 0).
Proof. reflexivity. Qed.
Example datatypes : left_over (run Datatype
  [New 0 0; Default 1; Copy 2 0; Assign 1 2; MoveAssign 2 0; Move 3 1; Destroy 0; Destroy 1; Destroy 2; Destroy 3] start)
  = Some ([], 0, 0).
Proof. reflexivity. Qed.

Print Assumptions handles_owned.
Print Assumptions communicators_requests_buffers_owned.
Print Assumptions file_created_again.
Print Assumptions assigned_owner_leaks.
Print Assumptions files_closed_refuted.
