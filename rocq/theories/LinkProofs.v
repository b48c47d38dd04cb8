(** Lemmas about the linked list heap. *)
From Coq Require Import List Arith Bool Lia.
From Verif Require Import Base LinkModel.
Import ListNotations.

Section Links.
Context {V : Type}.
Notation obj := (obj V).
Notation heap := (heap V).
Implicit Types (h : heap) (o : obj).

(** ** Counting references *)
Definition one (n : option nat) (a : nat) : nat := match n with Some b => if Nat.eqb b a then 1 else 0 | None => 0 end.
Definition pts (c : option (cell V)) (a : nat) : nat := match c with Some c => one (onext (cobj c)) a | None => 0 end.
Fixpoint rc (h : heap) (a : nat) : nat := match h with [] => 0 | c :: h => pts c a + rc h a end.

Definition live h a : Prop := exists c, nth_error h a = Some (Some c).

(** Every live node's count is the number of pointers to it: from live nodes, and [f] from outside. *)
Definition inv h (f : nat -> nat) : Prop := forall a,
  match nth_error h a with
  | Some (Some c) => ccount c = rc h a + f a /\ 1 <= ccount c /\ (forall b, onext (cobj c) = Some b -> b < a)
  | _ => rc h a + f a = 0
  end.

Lemma inv_ext h f g : (forall a, f a = g a) -> inv h f -> inv h g.
Proof. intros E H a. specialize (H a). rewrite E in H. exact H. Qed.

Lemma one_self a : one (Some a) a = 1.
Proof. simpl. rewrite Nat.eqb_refl. reflexivity. Qed.
Lemma one_other a b : a <> b -> one (Some a) b = 0.
Proof. intros H. simpl. destruct (Nat.eqb_spec a b); [contradiction|reflexivity]. Qed.

Lemma put_length h a c : length (put a c h) = length h.
Proof. revert a; induction h; intros [|a']; simpl; auto. Qed.
Lemma put_same h a c : a < length h -> nth_error (put a c h) a = Some c.
Proof. revert a; induction h; intros [|a'] H; simpl in *; try lia; [reflexivity|]. apply IHh. lia. Qed.
Lemma put_other h a b c : a <> b -> nth_error (put a c h) b = nth_error h b.
Proof. revert a b; induction h as [|x h IH]; intros [|a] [|b] H; simpl; try lia; try reflexivity. apply IH. lia. Qed.
Lemma put_rc h a c old b : nth_error h a = Some old -> rc (put a c h) b + pts old b = rc h b + pts c b.
Proof.
  revert a; induction h as [|x h IH]; intros [|a] H; simpl in *; try discriminate.
  - injection H as ->. lia.
  - specialize (IH a H). lia.
Qed.
Lemma rc_app h c b : rc (h ++ [c]) b = rc h b + pts c b.
Proof. induction h as [|x h IH]; simpl; [lia|rewrite IH; lia]. Qed.
Lemma rc_ge h a c b : nth_error h a = Some (Some c) -> onext (cobj c) = Some b -> 1 <= rc h b.
Proof.
  revert a; induction h as [|x h IH]; intros [|a] H E; simpl in *; try discriminate.
  - injection H as ->. simpl. rewrite E. rewrite one_self. lia.
  - specialize (IH a H E). lia.
Qed.
Lemma rc_pos h b : 1 <= rc h b -> exists a c, nth_error h a = Some (Some c) /\ onext (cobj c) = Some b.
Proof.
  induction h as [|x h IH]; simpl; [lia|]. intros H. destruct x as [c|]; simpl in H.
  - destruct (onext (cobj c)) as [b'|] eqn:E; simpl in H.
    + destruct (Nat.eqb_spec b' b).
      * subst. exists 0, c. split; [reflexivity|assumption].
      * destruct IH as (a & c' & H1 & H2); [lia|]. exists (S a), c'. split; assumption.
    + destruct IH as (a & c' & H1 & H2); [lia|]. exists (S a), c'. split; assumption.
  - destruct IH as (a & c' & H1 & H2); [lia|]. exists (S a), c'. split; assumption.
Qed.

Lemma nth_error_lt {T} (l : list T) a x : nth_error l a = Some x -> a < length l.
Proof. intros H. apply nth_error_Some. rewrite H. discriminate. Qed.

(** Pointed-to nodes are live. *)
Lemma inv_root h f a : inv h f -> 1 <= f a -> live h a.
Proof. intros H F. specialize (H a). destruct (nth_error h a) as [[c|]|] eqn:E; [exists c; exact E|lia|lia]. Qed.
Lemma inv_next h f a c b : inv h f -> nth_error h a = Some (Some c) -> onext (cobj c) = Some b -> live h b /\ b < a.
Proof.
  intros H E N. split.
  - pose proof (rc_ge _ _ _ _ E N) as G. specialize (H b). destruct (nth_error h b) as [[c'|]|] eqn:E'; [exists c'; assumption|lia|lia].
  - specialize (H a). rewrite E in H. apply H. assumption.
Qed.
Lemma live_get h a : live h a -> exists c, get h a = Ok c /\ nth_error h a = Some (Some c).
Proof. intros [c E]. exists c. unfold get. rewrite E. split; reflexivity. Qed.

(** ** What a list object denotes *)
Inductive reads h : obj -> list V -> Prop :=
| reads_nil o : onext o = None -> reads h o []
| reads_cons o a c l : onext o = Some a -> nth_error h a = Some (Some c) -> reads h (cobj c) l -> reads h o (oval o :: l).

Lemma reads_fun h o l m : reads h o l -> reads h o m -> l = m.
Proof.
  intros H; revert m; induction H as [o E|o a c l E N H IH]; intros m M; inversion M; subst; try congruence.
  f_equal. apply IH. assert (c0 = c) by congruence. subst; assumption.
Qed.

(** Nodes kept alive by outside pointers. *)
Inductive reach h (f : nat -> nat) : nat -> Prop :=
| reach_root a : 1 <= f a -> reach h f a
| reach_next a b c : reach h f a -> nth_error h a = Some (Some c) -> onext (cobj c) = Some b -> reach h f b.

Definition held h f (n : option nat) : Prop := match n with None => True | Some a => reach h f a end.

Lemma reach_live h f a : inv h f -> reach h f a -> live h a.
Proof. intros H R. destruct R; [eapply inv_root; eassumption|]. eapply inv_next; eassumption. Qed.

(** No leaks: every live node is reachable from outside. *)
Lemma live_reach h f a : inv h f -> live h a -> reach h f a.
Proof.
  intros H. remember (length h - a) as n eqn:En. revert a En. induction n as [n IH] using lt_wf_ind. intros a En L.
  destruct L as [c E]. pose proof (nth_error_lt _ _ _ E). pose proof (H a) as Ha. rewrite E in Ha. destruct Ha as (C & P & _).
  destruct (Nat.eq_dec (f a) 0) as [Z|Z].
  - destruct (rc_pos h a) as (b & c' & E' & N); [lia|]. pose proof (inv_next _ _ _ _ _ H E' N) as [_ L]. pose proof (nth_error_lt _ _ _ E').
    apply (reach_next h f b a c'); [|assumption|assumption]. apply (IH (length h - b)); [lia|reflexivity|exists c'; assumption].
  - apply reach_root. lia.
Qed.

Lemma held_reads h f o : inv h f -> held h f (onext o) -> exists l, reads h o l /\ length l <= length h.
Proof.
  intros H Hd.
  assert (G : forall n o, (match onext o with None => True | Some a => a < n /\ live h a end) -> exists l, reads h o l /\ length l <= n).
  { clear o Hd. induction n as [|n IH]; intros o Ho; destruct (onext o) as [a|] eqn:E.
    - lia.
    - exists []. split; [constructor; assumption|simpl; lia].
    - destruct Ho as [L [c Ec]]. destruct (IH (cobj c)) as (l & R & B).
      + destruct (onext (cobj c)) as [b|] eqn:N; [|exact I]. destruct (inv_next _ _ _ _ _ H Ec N). split; [lia|assumption].
      + exists (oval o :: l). split; [econstructor; eassumption|simpl; lia].
    - exists []. split; [constructor; assumption|simpl; lia]. }
  apply G. destruct (onext o) as [a|]; [|exact I]. pose proof (reach_live _ _ _ H Hd) as L. split; [|assumption].
  destruct L as [c E]. eapply nth_error_lt; eassumption.
Qed.

(** ** Frames *)
Definition agree h h' : Prop := length h <= length h' /\
  forall a c', a < length h -> nth_error h' a = Some (Some c') -> exists c, nth_error h a = Some (Some c) /\ cobj c = cobj c'.

Lemma agree_refl h : agree h h.
Proof. split; [lia|]. intros a c _ E. exists c. split; [assumption|reflexivity]. Qed.
Lemma agree_trans h1 h2 h3 : agree h1 h2 -> agree h2 h3 -> agree h1 h3.
Proof.
  intros [L1 H1] [L2 H2]. split; [lia|]. intros a c3 La E3. destruct (H2 a c3) as (c2 & E2 & C2); [lia|assumption|].
  destruct (H1 a c2 La E2) as (c1 & E1 & C1). exists c1. split; [assumption|congruence].
Qed.

Lemma reach_agree h h' f f' a : agree h h' -> inv h' f' -> (forall a, 1 <= f a -> 1 <= f' a) -> reach h f a -> reach h' f' a.
Proof.
  intros [_ HA] HI' HF R. induction R as [a Ha|a b c R IH E N]; [apply reach_root; auto|].
  destruct (reach_live _ _ _ HI' IH) as [c' E']. destruct (HA a c') as (c0 & E0 & C0); [eapply nth_error_lt; eassumption|assumption|].
  apply (reach_next h' f' a b c'); [assumption|assumption|]. rewrite <- C0. congruence.
Qed.
Lemma held_agree h h' f f' n : agree h h' -> inv h' f' -> (forall a, 1 <= f a -> 1 <= f' a) -> held h f n -> held h' f' n.
Proof. destruct n; simpl; [apply reach_agree|trivial]. Qed.
Lemma reads_agree h h' f f' o l : agree h h' -> inv h' f' -> (forall a, 1 <= f a -> 1 <= f' a) ->
  held h f (onext o) -> reads h o l -> reads h' o l.
Proof.
  intros HA HI' HF Hd R. induction R as [o E|o a c l E N R IH]; [constructor; assumption|].
  rewrite E in Hd. pose proof (reach_agree _ _ _ _ _ HA HI' HF Hd) as Rc. destruct (reach_live _ _ _ HI' Rc) as [c' E'].
  destruct HA as [LA HA']. destruct (HA' a c') as (c0 & E0 & C0); [eapply nth_error_lt; eassumption|assumption|].
  assert (c0 = c) by congruence. subst c0. eapply reads_cons; [eassumption|eassumption|]. rewrite <- C0. apply IH.
  destruct (onext (cobj c)) as [b|] eqn:Nb; [|exact I]. simpl. eapply reach_next; eassumption.
Qed.

(** ** Primitive steps *)
Definition plus1 (n : option nat) (f : nat -> nat) : nat -> nat := fun a => one n a + f a.
Lemma plus1_ge n f a : 1 <= f a -> 1 <= plus1 n f a.
Proof. unfold plus1. lia. Qed.

Lemma inv_swap h m n f : inv h (plus1 m (plus1 n f)) -> inv h (plus1 n (plus1 m f)).
Proof. apply inv_ext. intros a. unfold plus1. lia. Qed.

Lemma incr_spec h f n : inv h f -> held h f n -> exists h', incr n h = Ok h' /\ inv h' (plus1 n f) /\ agree h h' /\ length h' = length h.
Proof.
  intros H Hd. destruct n as [a|]; cbn [incr].
  - destruct (reach_live _ _ _ H Hd) as [c E]. unfold get. rewrite E. bsimp.
    set (c' := {| cobj := cobj c; ccount := S (ccount c) |}). eexists; split; [reflexivity|].
    assert (RC : forall b, rc (put a (Some c') h) b = rc h b) by (intros b; pose proof (put_rc h a (Some c') _ b E) as P; simpl in P; lia).
    pose proof (nth_error_lt _ _ _ E) as La. split; [|split].
    + intros b. rewrite RC. unfold plus1. destruct (Nat.eq_dec a b) as [->|Nab].
      * rewrite put_same by assumption. rewrite one_self. specialize (H b). rewrite E in H. simpl. destruct H as (H1 & H2 & H3). repeat split; [lia|lia|assumption].
      * rewrite put_other by assumption. rewrite one_other by assumption. specialize (H b). exact H.
    + split; [rewrite put_length; lia|]. intros b cb Lb Eb. destruct (Nat.eq_dec a b) as [->|Nab].
      * rewrite put_same in Eb by assumption. injection Eb as <-. exists c. split; [assumption|reflexivity].
      * rewrite put_other in Eb by assumption. exists cb. split; [assumption|reflexivity].
    + apply put_length.
  - exists h. split; [reflexivity|]. split; [eapply inv_ext; [|exact H]; reflexivity|]. split; [apply agree_refl|reflexivity].
Qed.

Lemma destroy_loop_spec fuel : forall h f n, inv h (plus1 n f) -> (match n with Some a => a < fuel | None => True end) ->
  exists h', destroy_loop fuel n h = Ok h' /\ inv h' f /\ agree h h' /\ length h' = length h.
Proof.
  induction fuel as [|fuel IH]; intros h f [a|] H Hf; cbn [destroy_loop]; try lia;
    try (exists h; split; [reflexivity|]; split; [eapply inv_ext; [|exact H]; reflexivity|]; split; [apply agree_refl|reflexivity]).
  assert (L : live h a) by (eapply inv_root; [exact H|]; unfold plus1; rewrite one_self; lia).
  destruct L as [c E]. unfold get. rewrite E. bsimp. pose proof (H a) as Ha. rewrite E in Ha. destruct Ha as (C & P & D).
  unfold plus1 in C. rewrite one_self in C. pose proof (nth_error_lt _ _ _ E) as La.
  destruct (ccount c) as [|[|k]] eqn:EC; [lia| |].
  - destruct (IH (put a None h) f (onext (cobj c))) as (h' & E' & I' & A' & L').
    + intros b. pose proof (put_rc h a None _ b E) as PR. simpl in PR. unfold plus1. destruct (Nat.eq_dec a b) as [->|Nab].
      * rewrite put_same by assumption. destruct (onext (cobj c)) as [b'|] eqn:N; simpl in *; [|lia].
        specialize (D b' eq_refl). destruct (Nat.eqb_spec b' b); lia.
      * rewrite put_other by assumption. specialize (H b). unfold plus1 in H. rewrite one_other in H by assumption.
        destruct (nth_error h b) as [[cb|]|]; [destruct H as (H1 & H2 & H3); repeat split; [lia|lia|assumption]|lia|lia].
    + destruct (onext (cobj c)) as [b|] eqn:N; [|exact I]. specialize (D b eq_refl). lia.
    + exists h'. split; [assumption|]. split; [assumption|]. split; [|rewrite L'; apply put_length].
      eapply agree_trans; [|exact A']. split; [rewrite put_length; lia|]. intros b cb Lb Eb. destruct (Nat.eq_dec a b) as [->|Nab].
      * rewrite put_same in Eb by assumption. discriminate Eb.
      * rewrite put_other in Eb by assumption. exists cb. split; [assumption|reflexivity].
  - set (c' := {| cobj := cobj c; ccount := S k |}). eexists; split; [reflexivity|].
    assert (RC : forall b, rc (put a (Some c') h) b = rc h b) by (intros b; pose proof (put_rc h a (Some c') _ b E) as Q; simpl in Q; lia).
    split; [|split].
    + intros b. rewrite RC. destruct (Nat.eq_dec a b) as [->|Nab].
      * rewrite put_same by assumption. simpl. repeat split; [lia|lia|assumption].
      * rewrite put_other by assumption. specialize (H b). unfold plus1 in H. rewrite one_other in H by assumption. exact H.
    + split; [rewrite put_length; lia|]. intros b cb Lb Eb. destruct (Nat.eq_dec a b) as [->|Nab].
      * rewrite put_same in Eb by assumption. injection Eb as <-. exists c. split; [assumption|reflexivity].
      * rewrite put_other in Eb by assumption. exists cb. split; [assumption|reflexivity].
    + apply put_length.
Qed.
Lemma destroy_spec h f n : inv h (plus1 n f) ->
  exists h', destroy_loop (length h) n h = Ok h' /\ inv h' f /\ agree h h' /\ length h' = length h.
Proof.
  intros H. apply destroy_loop_spec; [assumption|]. destruct n as [a|]; [|exact I].
  destruct (inv_root h _ a H) as [c E]; [unfold plus1; rewrite one_self; lia|]. eapply nth_error_lt; eassumption.
Qed.

Lemma alloc_spec h f o : inv h (plus1 (onext o) f) ->
  let h' := h ++ [Some {| cobj := o; ccount := 1 |}] in inv h' (plus1 (Some (length h)) f) /\ agree h h' /\ nth_error h' (length h) = Some (Some {| cobj := o; ccount := 1 |}).
Proof.
  intros H h'. assert (EL : nth_error h' (length h) = Some (Some {| cobj := o; ccount := 1 |})).
  { unfold h'. rewrite nth_error_app2 by lia. rewrite Nat.sub_diag. reflexivity. }
  split; [|split; [|assumption]].
  - intros a. assert (RC : rc h' a = rc h a + one (onext o) a) by (unfold h'; rewrite rc_app; reflexivity). rewrite RC. unfold plus1 in *. destruct (Nat.lt_trichotomy a (length h)) as [L|[->|L]].
    + unfold h'. rewrite nth_error_app1 by assumption. rewrite one_other by lia. specialize (H a).
      destruct (nth_error h a) as [[c|]|]; [destruct H as (H1 & H2 & H3); repeat split; [lia|lia|assumption]|lia|lia].
    + rewrite EL. rewrite one_self. simpl ccount. simpl cobj. pose proof (H (length h)) as HL.
      assert (EN : nth_error h (length h) = None) by (apply nth_error_None; lia). rewrite EN in HL. repeat split; [lia|lia|].
      intros b Nb. assert (live h b). { eapply inv_root; [exact H|]. rewrite Nb, one_self. lia. }
      destruct H0 as [c Ec]. eapply nth_error_lt; eassumption.
    + assert (EN : nth_error h' a = None) by (apply nth_error_None; unfold h'; rewrite app_length; simpl; lia). rewrite EN. rewrite one_other by lia.
      specialize (H a). assert (EN' : nth_error h a = None) by (apply nth_error_None; lia). rewrite EN' in H. lia.
  - split; [unfold h'; rewrite app_length; lia|]. intros a c L E. unfold h' in E. rewrite nth_error_app1 in E by assumption. exists c. split; [assumption|reflexivity].
Qed.

(** ** References held from outside *)
Definition denotes h f (r : ref V) (l : list V) : Prop :=
  match r with
  | Obj o => held h f (onext o) /\ reads h o l
  | Cell a => exists c, reach h f a /\ nth_error h a = Some (Some c) /\ reads h (cobj c) l
  end.
Lemma denotes_deref h f r l : denotes h f r l -> exists o, deref r h = Ok o /\ held h f (onext o) /\ reads h o l.
Proof.
  destruct r as [o|a]; simpl.
  - intros [H R]. exists o. auto.
  - intros (c & R & E & D). unfold get. rewrite E. bsimp. exists (cobj c). split; [reflexivity|]. split; [|assumption].
    destruct (onext (cobj c)) eqn:N; [|exact I]. simpl. eapply reach_next; eassumption.
Qed.
Lemma denotes_agree h h' f f' r l : agree h h' -> inv h' f' -> (forall a, 1 <= f a -> 1 <= f' a) -> denotes h f r l -> denotes h' f' r l.
Proof.
  intros HA HI' HF. destruct r as [o|a]; simpl.
  - intros [H R]. split; [eapply held_agree; eassumption|eapply reads_agree; eassumption].
  - intros (c & R & E & D). pose proof (reach_agree _ _ _ _ _ HA HI' HF R) as R'. destruct (reach_live _ _ _ HI' R') as [c' E'].
    exists c'. split; [assumption|]. split; [assumption|]. destruct HA as [LA HA']. destruct (HA' a c') as (c0 & E0 & C0); [eapply nth_error_lt; eassumption|assumption|].
    assert (c0 = c) by congruence. subst c0. rewrite <- C0. eapply (reads_agree h h' f f'); try eassumption; [split; assumption|].
    destruct (onext (cobj c)) eqn:N; [|exact I]. simpl. eapply reach_next; eassumption.
Qed.
Lemma denotes_root h f o l : reads h o l -> denotes h (plus1 (onext o) f) (Obj o) l.
Proof.
  intros R. split; [|assumption]. destruct (onext o) as [a|]; [|exact I]. apply reach_root. unfold plus1. rewrite one_self. lia.
Qed.

(** Result of an operation that yields a new list object owned by the caller. *)
Definition yields h f (m : outcome (obj * heap)) (l : list V) : Prop :=
  exists o h', m = Ok (o, h') /\ inv h' (plus1 (onext o) f) /\ agree h h' /\ reads h' o l.

Lemma copy_spec h f r l : inv h f -> denotes h f r l ->
  exists o h', copy r h = Ok (o, h') /\ deref r h = Ok o /\ inv h' (plus1 (onext o) f) /\ agree h h' /\ reads h' o l /\ length h' = length h.
Proof.
  intros HI HD. destruct (denotes_deref _ _ _ _ HD) as (o & E & Hd & R). unfold copy. rewrite E. bsimp.
  destruct (incr_spec _ _ _ HI Hd) as (h' & E' & I' & A' & L'). rewrite E'. bsimp. exists o, h'. split; [reflexivity|]. split; [reflexivity|]. split; [assumption|]. split; [assumption|]. split; [|assumption].
  eapply (reads_agree h h'); try eassumption. apply plus1_ge.
Qed.

Lemma cons_spec h f v r l : inv h f -> denotes h f r l ->
  exists o h', cons_list v r h = Ok (o, h') /\ inv h' (plus1 (onext o) f) /\ agree h h' /\ reads h' o (v :: l) /\ oval o = v /\ length h' = S (length h).
Proof.
  intros HI HD. destruct (copy_spec _ _ _ _ HI HD) as (o & h1 & E & _ & I1 & A1 & R1 & L1). unfold cons_list. rewrite E. bsimp.
  destruct (alloc_spec _ _ _ I1) as (I2 & A2 & E2). eexists; eexists; split; [reflexivity|]. cbn [onext oval].
  split; [assumption|]. split; [eapply agree_trans; eassumption|]. split; [|split; [reflexivity|rewrite app_length; simpl; lia]].
  apply (reads_cons _ {| oval := v; onext := Some (length h1) |} (length h1) _ l eq_refl E2). simpl.
  (* the new node's contents: reachable in the new heap *)
  assert (HD1 : denotes h1 (plus1 (onext o) f) (Obj o) l) by (apply denotes_root; assumption).
  destruct R1 as [o N|o a c l N Ec R1]; [constructor; assumption|].
  assert (K : reads (h1 ++ [Some {| cobj := o; ccount := 1 |}]) o (oval o :: l)); [|exact K].
  clear - Ec R1 N. assert (G : forall h1 x o l, reads h1 o l -> reads (h1 ++ x) o l).
  { clear. intros h1 x o l R. induction R as [o N|o a c l N E R IH]; [constructor; assumption|].
    econstructor; [eassumption| |eassumption]. rewrite nth_error_app1; [assumption|eapply nth_error_lt; eassumption]. }
  apply G. econstructor; eassumption.
Qed.


(** An object that is itself one of the outside pointers keeps its contents. *)
Lemma owned_reads h h' f' o l : agree h h' -> inv h' f' -> (forall a, onext o = Some a -> 1 <= f' a) -> reads h o l -> reads h' o l.
Proof.
  intros HA HI HO R. eapply (reads_agree h h' (one (onext o)) f'); try eassumption.
  - intros a Ha. destruct (onext o) as [b|]; simpl in Ha; [|lia]. destruct (Nat.eqb_spec b a); [subst; apply HO; reflexivity|lia].
  - destruct (onext o) as [b|]; [|exact I]. apply reach_root. rewrite one_self. lia.
Qed.
Ltac own := intros ?a ?N; unfold plus1; rewrite ?N, ?one_self; lia.

(** Assignment from a reference that stays valid; the object assigned to is owned by the caller. *)
Lemma assign_spec h f x r l : inv h (plus1 (onext x) f) -> denotes h (plus1 (onext x) f) r l ->
  exists o h', assign x r h = Ok (o, h') /\ inv h' (plus1 (onext o) f) /\ agree h h' /\ reads h' o l /\ length h' = length h.
Proof.
  intros HI HD. destruct (denotes_deref _ _ _ _ HD) as (o & E & Hd & R). unfold assign. rewrite E. bsimp.
  destruct (incr_spec _ _ _ HI Hd) as (h1 & E1 & I1 & A1 & L1). rewrite E1. bsimp.
  destruct (destroy_spec h1 (plus1 (onext o) f) (onext x)) as (h2 & E2 & I2 & A2 & L2).
  { eapply inv_ext; [|exact I1]. intros a. unfold plus1. lia. }
  rewrite E2. bsimp. exists o, h2. split; [reflexivity|]. split; [assumption|]. split; [eapply agree_trans; eassumption|]. split; [|lia].
  assert (R1 : reads h1 o l) by (eapply owned_reads; [exact A1|exact I1|own|exact R]).
  eapply owned_reads; [exact A2|exact I2|own|exact R1].
Qed.

Lemma drop_spec h f n o l : inv h (plus1 n (plus1 (onext o) f)) -> reads h o l ->
  exists h', destroy_loop (length h) n h = Ok h' /\ inv h' (plus1 (onext o) f) /\ agree h h' /\ reads h' o l /\ length h' = length h.
Proof.
  intros HI R. destruct (destroy_spec _ _ _ HI) as (h' & E & I' & A' & L'). exists h'. split; [assumption|]. split; [assumption|]. split; [assumption|]. split; [|assumption].
  eapply owned_reads; [exact A'|exact I'|own|exact R].
Qed.

Lemma reads_empty h o l : reads h o l -> is_empty o = match l with [] => true | _ => false end.
Proof. intros R. destruct R as [o N|o a c l N E R]; unfold is_empty; rewrite N; reflexivity. Qed.
Lemma reads_head h o x l : reads h o (x :: l) -> head o = Ok x.
Proof. intros R. inversion R as [|? a c ? N E R1 E1 E2]; subst. unfold head, is_empty. rewrite N. reflexivity. Qed.
Lemma reads_tail h f o x l : held h f (onext o) -> reads h o (x :: l) -> exists a, tail o = Ok (Cell a) /\ denotes h f (Cell a) l.
Proof.
  intros Hd R. inversion R as [|? a c ? N E R' E1 E2]; subst. exists a. unfold tail. rewrite N. split; [reflexivity|]. rewrite N in Hd. exists c. auto.
Qed.

Lemma append_spec fuel : forall h f v this l, inv h f -> denotes h f this l -> length l < fuel -> yields h f (append_list fuel v this h) (l ++ [v]).
Proof.
  induction fuel as [|fuel IH]; intros h f v this l HI HD Hf; [lia|]. cbn [append_list].
  destruct (denotes_deref _ _ _ _ HD) as (o & E & Hd & R). rewrite E. bsimp. rewrite (reads_empty _ _ _ R). destruct l as [|x l].
  - destruct (cons_spec h f v this [] HI HD) as (r & h' & E' & I' & A' & R' & _). exists r, h'. auto.
  - destruct (reads_tail _ _ _ _ _ Hd R) as (a & Et & Dt). rewrite Et. bsimp. simpl in Hf.
    destruct (IH h f v (Cell a) l HI Dt ltac:(lia)) as (t1 & h1 & E1 & I1 & A1 & R1). rewrite E1. bsimp.
    pose proof (denotes_agree _ _ _ _ _ _ A1 I1 (plus1_ge _ f) HD) as HD1. destruct (denotes_deref _ _ _ _ HD1) as (o1 & Eo1 & _ & Ro1).
    rewrite Eo1. bsimp. rewrite (reads_head _ _ _ _ Ro1). bsimp. unfold prepend.
    destruct (cons_spec h1 (plus1 (onext t1) f) x (Obj t1) _ I1 (denotes_root _ f _ _ R1)) as (res & h2 & E2 & I2 & A2 & R2 & _). rewrite E2. bsimp.
    unfold destroy. destruct (drop_spec h2 f (onext t1) res _ (inv_swap _ _ _ _ I2) R2) as (h3 & E3 & I3 & A3 & R3 & _). rewrite E3. bsimp.
    exists res, h3. split; [reflexivity|]. split; [assumption|]. split; [|assumption]. eapply agree_trans; [exact A1|]. eapply agree_trans; eassumption.
Qed.

Lemma concat_spec fuel : forall h f this other l m, inv h f -> denotes h f this l -> denotes h f other m -> length l < fuel ->
  yields h f (concat_list fuel this other h) (l ++ m).
Proof.
  induction fuel as [|fuel IH]; intros h f this other l m HI HD HM Hf; [lia|]. cbn [concat_list].
  destruct (denotes_deref _ _ _ _ HD) as (o & E & Hd & R). rewrite E. bsimp. rewrite (reads_empty _ _ _ R). destruct l as [|x l].
  - destruct (copy_spec h f other m HI HM) as (r & h' & E' & _ & I' & A' & R' & _). exists r, h'. auto.
  - destruct (reads_tail _ _ _ _ _ Hd R) as (a & Et & Dt). rewrite Et. bsimp. simpl in Hf.
    destruct (IH h f (Cell a) other l m HI Dt HM ltac:(lia)) as (t1 & h1 & E1 & I1 & A1 & R1). rewrite E1. bsimp.
    pose proof (denotes_agree _ _ _ _ _ _ A1 I1 (plus1_ge _ f) HD) as HD1. destruct (denotes_deref _ _ _ _ HD1) as (o1 & Eo1 & _ & Ro1).
    rewrite Eo1. bsimp. rewrite (reads_head _ _ _ _ Ro1). bsimp.
    destruct (cons_spec h1 (plus1 (onext t1) f) x (Obj t1) _ I1 (denotes_root _ f _ _ R1)) as (res & h2 & E2 & I2 & A2 & R2 & _). rewrite E2. bsimp.
    unfold destroy. destruct (drop_spec h2 f (onext t1) res _ (inv_swap _ _ _ _ I2) R2) as (h3 & E3 & I3 & A3 & R3 & _). rewrite E3. bsimp.
    exists res, h3. split; [reflexivity|]. split; [assumption|]. split; [|assumption]. eapply agree_trans; [exact A1|]. eapply agree_trans; eassumption.
Qed.

(** result = result.prepend(x), with the temporary *)
Lemma push_spec h f x B l : inv h (plus1 (onext B) f) -> reads h B l ->
  exists B' h', (do '(tmp, h) <- prepend x (Obj B) h; do '(B, h) <- assign B (Obj tmp) h; do h <- destroy tmp h; Ok (B, h)) = Ok (B', h') /\
    inv h' (plus1 (onext B') f) /\ agree h h' /\ reads h' B' (x :: l) /\ length h' = S (length h).
Proof.
  intros HI R. unfold prepend. destruct (cons_spec h _ x (Obj B) _ HI (denotes_root _ f _ _ R)) as (tmp & h1 & E1 & I1 & A1 & R1 & _ & L1). rewrite E1. bsimp.
  destruct (assign_spec h1 (plus1 (onext tmp) f) B (Obj tmp) (x :: l)) as (B' & h2 & E2 & I2 & A2 & R2 & L2).
  { eapply inv_ext; [|exact I1]. intros; unfold plus1; lia. }
  { split; [|assumption]. destruct (onext tmp) as [a|] eqn:N; [|exact I]. apply reach_root. unfold plus1. rewrite ?one_self. lia. }
  rewrite E2. bsimp. unfold destroy.
  destruct (drop_spec h2 f (onext tmp) B' _ (inv_swap _ _ _ _ I2) R2) as (h3 & E3 & I3 & A3 & R3 & L3). rewrite E3. bsimp.
  exists B', h3. split; [reflexivity|]. split; [assumption|]. split; [eapply agree_trans; [exact A1|]; eapply agree_trans; eassumption|]. split; [assumption|lia].
Qed.

(** it = it.tail() *)
Lemma advance_spec h f A x l : inv h (plus1 (onext A) f) -> reads h A (x :: l) ->
  exists A' h', (do t <- tail A; assign A t h) = Ok (A', h') /\ inv h' (plus1 (onext A') f) /\ agree h h' /\ reads h' A' l /\ length h' = length h.
Proof.
  intros HI R. pose proof (denotes_root _ f _ _ R) as [Hd _]. destruct (reads_tail _ _ _ _ _ Hd R) as (a & Et & Dt). rewrite Et. bsimp.
  apply assign_spec; assumption.
Qed.

Lemma reverse_loop_spec fuel : forall h f A B l m, inv h (plus1 (onext A) (plus1 (onext B) f)) -> reads h A l -> reads h B m -> length l < fuel ->
  yields h f (reverse_loop fuel A B h) (rev l ++ m).
Proof.
  induction fuel as [|fuel IH]; intros h f A B l m HI RA RB Hf; [lia|]. cbn [reverse_loop]. rewrite (reads_empty _ _ _ RA). destruct l as [|x l].
  - unfold destroy. destruct (drop_spec h f (onext A) B m HI RB) as (h1 & E1 & I1 & A1 & R1 & _). rewrite E1. bsimp. exists B, h1. auto.
  - rewrite (reads_head _ _ _ _ RA). bsimp. simpl in Hf.
    destruct (push_spec h (plus1 (onext A) f) x B m) as (B' & h1 & E1 & I1 & A1 & R1 & _); [eapply inv_ext; [|exact HI]; intros; unfold plus1; lia|assumption|].
    destruct (prepend x (Obj B) h) as [[tmp h0]| | |]; try discriminate E1. bsimp. rewrite bind_Ok in E1.
    destruct (assign B (Obj tmp) h0) as [[B0 h00]| | |]; try discriminate E1. bsimp. rewrite bind_Ok in E1.
    destruct (destroy tmp h00) as [h000| | |]; try discriminate E1. bsimp. rewrite bind_Ok in E1. injection E1 as -> ->.
    assert (RA1 : reads h1 A (x :: l)) by (eapply owned_reads; [exact A1|exact I1|own|exact RA]).
    destruct (advance_spec h1 (plus1 (onext B') f) A x l) as (A' & h2 & E2 & I2 & A2 & R2 & _); [eapply inv_ext; [|exact I1]; intros; unfold plus1; lia|assumption|].
    destruct (tail A) as [t| | |]; try discriminate E2. bsimp. rewrite bind_Ok in E2. rewrite E2. bsimp.
    assert (RB2 : reads h2 B' (x :: m)) by (eapply owned_reads; [exact A2|exact I2|own|exact R1]).
    destruct (IH h2 f A' B' l (x :: m) I2 R2 RB2 ltac:(lia)) as (o & h3 & E3 & I3 & A3 & R3). exists o, h3. split; [assumption|]. split; [assumption|].
    split; [eapply agree_trans; [exact A1|]; eapply agree_trans; eassumption|]. simpl. rewrite <- app_assoc. exact R3.
Qed.
Lemma reverse_spec g fuel h f this l : inv h f -> denotes h f this l -> length l < fuel -> yields h f (reverse_list g fuel this h) (rev l).
Proof.
  intros HI HD Hf. unfold reverse_list. destruct (copy_spec h f this l HI HD) as (A & h1 & E1 & _ & I1 & A1 & R1 & _). rewrite E1. bsimp.
  destruct (reverse_loop_spec fuel h1 f A (empty_list g) l []) as (o & h2 & E2 & I2 & A2 & R2); try assumption.
  - constructor. reflexivity.
  - exists o, h2. split; [assumption|]. split; [assumption|]. split; [eapply agree_trans; eassumption|]. rewrite app_nil_r in R2. assumption.
Qed.

Lemma prepend_all_spec vs : forall h f B l, inv h (plus1 (onext B) f) -> reads h B l -> yields h f (prepend_all vs B h) (rev vs ++ l).
Proof.
  induction vs as [|v vs IH]; intros h f B l HI R; cbn [prepend_all].
  - exists B, h. split; [reflexivity|]. split; [assumption|]. split; [apply agree_refl|assumption].
  - destruct (push_spec h f v B l HI R) as (B' & h1 & E1 & I1 & A1 & R1 & _).
    destruct (prepend v (Obj B) h) as [[tmp h0]| | |]; try discriminate E1. bsimp. rewrite bind_Ok in E1.
    destruct (assign B (Obj tmp) h0) as [[B0 h00]| | |]; try discriminate E1. bsimp. rewrite bind_Ok in E1.
    destruct (destroy tmp h00) as [h000| | |]; try discriminate E1. bsimp. rewrite bind_Ok in E1. injection E1 as -> ->.
    destruct (IH h1 f B' (v :: l) I1 R1) as (o & h2 & E2 & I2 & A2 & R2). exists o, h2. split; [assumption|]. split; [assumption|].
    split; [eapply agree_trans; eassumption|]. simpl. rewrite <- app_assoc. exact R2.
Qed.
Lemma reads_bound h f o l : inv h f -> held h f (onext o) -> reads h o l -> length l <= length h.
Proof. intros HI Hd R. destruct (held_reads _ _ _ HI Hd) as (m & Rm & B). rewrite (reads_fun _ _ _ _ R Rm). assumption. Qed.

Lemma from_values_spec g vs h f : inv h f -> yields h f (from_values g vs h) vs.
Proof.
  intros HI. unfold from_values. destruct (prepend_all_spec vs h f (empty_list g) []) as (r & h1 & E1 & I1 & A1 & R1).
  { eapply inv_ext; [|exact HI]. intros; unfold plus1; simpl; lia. }
  { constructor. reflexivity. }
  rewrite E1. bsimp. rewrite app_nil_r in R1.
  pose proof (denotes_root _ f _ _ R1) as D1. pose proof (reads_bound _ _ _ _ I1 (proj1 D1) R1) as B1.
  destruct (reverse_spec g (S (length h1)) h1 _ (Obj r) (rev vs) I1 D1 ltac:(lia)) as (tmp & h2 & E2 & I2 & A2 & R2). rewrite E2. bsimp. rewrite rev_involutive in R2.
  destruct (assign_spec h2 (plus1 (onext tmp) (plus1 (onext r) f)) (empty_list g) (Obj tmp) vs) as (this & h3 & E3 & I3 & A3 & R3 & _).
  { eapply inv_ext; [|exact I2]. intros; unfold plus1; simpl; lia. }
  { split; [|assumption]. destruct (onext tmp) as [a|] eqn:N; [|exact I]. apply reach_root. unfold plus1. rewrite ?one_self. lia. }
  rewrite E3. bsimp. unfold destroy.
  destruct (drop_spec h3 (plus1 (onext r) f) (onext tmp) this vs (inv_swap _ _ _ _ I3) R3) as (h4 & E4 & I4 & A4 & R4 & _). rewrite E4. bsimp.
  destruct (drop_spec h4 f (onext r) this vs (inv_swap _ _ _ _ I4) R4) as (h5 & E5 & I5 & A5 & R5 & _). rewrite E5. bsimp.
  exists this, h5. split; [reflexivity|]. split; [assumption|]. split; [|assumption].
  repeat (eapply agree_trans; [eassumption|]). apply agree_refl.
Qed.

Lemma size_loop_spec fuel : forall n h f it l, inv h (plus1 (onext it) f) -> reads h it l -> length l < fuel ->
  exists h', size_loop fuel n it h = Ok (n + length l, h') /\ inv h' f /\ agree h h'.
Proof.
  induction fuel as [|fuel IH]; intros n h f it l HI R Hf; [lia|]. cbn [size_loop]. rewrite (reads_empty _ _ _ R). destruct l as [|x l].
  - unfold destroy. destruct (destroy_spec h f (onext it) HI) as (h1 & E1 & I1 & A1 & _). rewrite E1. bsimp. exists h1. rewrite Nat.add_0_r. auto.
  - destruct (advance_spec h f it x l HI R) as (it' & h1 & E1 & I1 & A1 & R1 & _).
    destruct (tail it) as [t| | |]; try discriminate E1. bsimp. rewrite bind_Ok in E1. rewrite E1. bsimp. simpl in Hf.
    destruct (IH (S n) h1 f it' l I1 R1 ltac:(lia)) as (h2 & E2 & I2 & A2). exists h2. rewrite E2. split; [f_equal; f_equal; simpl; lia|]. split; [assumption|eapply agree_trans; eassumption].
Qed.
Lemma size_spec fuel h f this l : inv h f -> denotes h f this l -> length l < fuel ->
  exists h', size fuel this h = Ok (length l, h') /\ inv h' f /\ agree h h'.
Proof.
  intros HI HD Hf. unfold size. destruct (copy_spec h f this l HI HD) as (A & h1 & E1 & _ & I1 & A1 & R1 & _). rewrite E1. bsimp.
  destruct (size_loop_spec fuel 0 h1 f A l I1 R1 Hf) as (h2 & E2 & I2 & A2). exists h2. split; [assumption|]. split; [assumption|eapply agree_trans; eassumption].
Qed.
Lemma equal_spec eqb fuel : forall h f this other l m, denotes h f this l -> denotes h f other m -> length l < fuel ->
  equal eqb fuel this other h = Ok ((fix go l m := match l, m with [], [] => true | x :: l, y :: m => eqb x y && go l m | _, _ => false end) l m).
Proof.
  induction fuel as [|fuel IH]; intros h f this other l m HD HM Hf; [lia|]. cbn [equal].
  destruct (denotes_deref _ _ _ _ HD) as (o & E & Hd & R). destruct (denotes_deref _ _ _ _ HM) as (p & Ep & Hp & Rp). rewrite E. bsimp. rewrite Ep. bsimp.
  rewrite (reads_empty _ _ _ R), (reads_empty _ _ _ Rp). destruct l as [|x l], m as [|y m]; try reflexivity. cbn [negb andb].
  rewrite (reads_head _ _ _ _ R), (reads_head _ _ _ _ Rp). bsimp. destruct (eqb x y); [|reflexivity].
  destruct (reads_tail _ _ _ _ _ Hd R) as (a & Et & Dt). destruct (reads_tail _ _ _ _ _ Hp Rp) as (b & Eu & Du). rewrite Et. bsimp. rewrite Eu. bsimp.
  simpl in Hf. rewrite (IH h f (Cell a) (Cell b) l m Dt Du ltac:(lia)). reflexivity.
Qed.
End Links.
