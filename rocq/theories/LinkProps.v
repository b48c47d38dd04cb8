(** C43: linked lists are persistent, observe the list algebra, and neither leak nor double free. *)
From Coq Require Import List Arith Bool Lia.
From Verif Require Import Base LinkModel LinkSpec LinkProofs.
Import ListNotations.

Section Links.
Context {V : Type} (eqb : V -> V -> bool) (garbage : V).

Lemma reads_spells (h : heap V) o l : reads h o l <-> spells h o l.
Proof. split; intros R; induction R; econstructor; eassumption. Qed.

Fixpoint vroots (vs : list (obj V)) (a : nat) : nat := match vs with [] => 0 | o :: vs => one (onext o) a + vroots vs a end.

Lemma vroots_app vs ws a : vroots (vs ++ ws) a = vroots vs a + vroots ws a.
Proof. induction vs as [|o vs IH]; simpl; [reflexivity|rewrite IH; lia]. Qed.
Lemma split_at {T} i (l : list T) x : nth_error l i = Some x -> l = firstn i l ++ x :: skipn (S i) l.
Proof. revert i; induction l as [|y l IH]; intros [|i] E; simpl in *; try discriminate; [congruence|]. f_equal. apply IH. assumption. Qed.
Lemma vroots_at i vs x a : nth_error vs i = Some x -> vroots vs a = one (onext x) a + vroots (del_nth i vs) a.
Proof.
  intros E. rewrite (split_at _ _ _ E) at 1. unfold del_nth. rewrite !vroots_app. cbn [vroots]. lia.
Qed.
Lemma vroots_set i vs o a : vroots (set_nth i o vs) a = one (onext o) a + vroots (del_nth i vs) a.
Proof. unfold set_nth, del_nth. rewrite !vroots_app. cbn [vroots]. lia. Qed.
Lemma vroots_In o vs a : In o vs -> onext o = Some a -> 1 <= vroots vs a.
Proof. induction vs as [|p vs IH]; simpl; [tauto|]. intros [->|H] N; [rewrite N, one_self; lia|]. specialize (IH H N). lia. Qed.
Lemma vroots_pos vs a : 1 <= vroots vs a -> exists o, In o vs /\ onext o = Some a.
Proof.
  induction vs as [|p vs IH]; simpl; [lia|]. intros H. destruct (onext p) as [b|] eqn:N; simpl in H.
  - destruct (Nat.eqb_spec b a).
    + subst. exists p. auto.
    + destruct IH as (o & I & E); [lia|]. exists o. auto.
  - destruct IH as (o & I & E); [lia|]. exists o. auto.
Qed.

Lemma Forall2_nth {A B} (P : A -> B -> Prop) l m i : Forall2 P l m ->
  match nth_error l i, nth_error m i with Some x, Some y => P x y | None, None => True | _, _ => False end.
Proof. intros F; revert i; induction F as [|x y l m H F IH]; intros [|i]; cbn [nth_error]; [exact I|exact I|exact H|apply IH]. Qed.
Lemma Forall2_length {A B} (P : A -> B -> Prop) l m : Forall2 P l m -> length l = length m.
Proof. intros F; induction F; simpl; congruence. Qed.
Lemma Forall2_firstn {A B} (P : A -> B -> Prop) l m i : Forall2 P l m -> Forall2 P (firstn i l) (firstn i m).
Proof. intros F; revert i; induction F; intros [|i]; simpl; constructor; auto. Qed.
Lemma Forall2_skipn {A B} (P : A -> B -> Prop) l m i : Forall2 P l m -> Forall2 P (skipn i l) (skipn i m).
Proof. intros F; revert i; induction F; intros [|i]; simpl; auto. Qed.
Lemma Forall2_set {A B} (P : A -> B -> Prop) l m i x y : Forall2 P l m -> P x y -> Forall2 P (set_nth i x l) (set_nth i y m).
Proof. intros F H. apply Forall2_app; [apply Forall2_firstn; assumption|]. constructor; [assumption|apply Forall2_skipn; assumption]. Qed.
Lemma Forall2_del {A B} (P : A -> B -> Prop) l m i : Forall2 P l m -> Forall2 P (del_nth i l) (del_nth i m).
Proof. intros F. apply Forall2_app; [apply Forall2_firstn|apply Forall2_skipn]; assumption. Qed.
Lemma del_In {T} i (l : list T) x : In x (del_nth i l) -> In x l.
Proof.
  unfold del_nth. rewrite in_app_iff. intros [H|H].
  - rewrite <- (firstn_skipn i l). apply in_or_app. left; assumption.
  - rewrite <- (firstn_skipn (S i) l). apply in_or_app. right; assumption.
Qed.

(** The variables and the heap represent the lists [vs]. *)
Definition represents (vars : list (obj V)) (h : heap V) (vs : list (list V)) : Prop :=
  inv h (vroots vars) /\ Forall2 (reads h) vars vs.

Lemma frame (h h' : heap V) f' vars vs : agree h h' -> inv h' f' -> (forall o a, In o vars -> onext o = Some a -> 1 <= f' a) ->
  Forall2 (reads h) vars vs -> Forall2 (reads h') vars vs.
Proof.
  intros A I' K F. induction F as [|o l vars vs R F IH]; constructor.
  - eapply owned_reads; [exact A|exact I'| |exact R]. intros a N. apply (K o a); [left; reflexivity|assumption].
  - apply IH. intros p a Ip. apply K. right; assumption.
Qed.

Lemma var_denotes vars h vs i : represents vars h vs ->
  match nth_error vars i, nth_error vs i with
  | Some o, Some l => denotes h (vroots vars) (Obj o) l /\ length l < S (length h)
  | None, None => True | _, _ => False end.
Proof.
  intros [HI HF]. pose proof (Forall2_nth _ _ _ i HF) as H. destruct (nth_error vars i) as [o|] eqn:E, (nth_error vs i) as [l|]; try contradiction; [|exact I].
  assert (Hd : held h (vroots vars) (onext o)).
  { destruct (onext o) as [a|] eqn:N; [|exact I]. apply reach_root. apply (vroots_In o); [eapply nth_error_In; eassumption|assumption]. }
  split; [split; assumption|]. pose proof (reads_bound _ _ _ _ HI Hd H). lia.
Qed.

Definition lvalue (e : expr V) : bool := match e with CopyOf _ | TailOf _ => true | _ => false end.

Lemma lvalue_spec e vars h vs : represents vars h vs -> lvalue e = true ->
  match pure_eval e vs with
  | None => eval_lvalue e vars = None
  | Some (Ok l) => exists r, eval_lvalue e vars = Some (Ok r) /\ denotes h (vroots vars) r l
  | Some m => exists x, m = Throw x /\ eval_lvalue e vars = Some (Throw x)
  end.
Proof.
  intros HR. destruct e; intros E; try discriminate E; simpl; pose proof (var_denotes _ _ _ i HR) as H;
    destruct (nth_error vars i) as [o|] eqn:Eo, (nth_error vs i) as [l|] eqn:El; try contradiction; simpl; try reflexivity; destruct H as [[Hd R] _].
  - exists (Obj o). split; [reflexivity|split; assumption].
  - destruct l as [|x l]; simpl.
    + exists OutOfRange. split; [reflexivity|]. unfold tail. inversion R as [? N|]; subst. rewrite N. reflexivity.
    + destruct (reads_tail _ _ _ _ _ Hd R) as (a & Et & Dt). exists (Cell a). rewrite Et. split; [reflexivity|assumption].
Qed.
Lemma prvalue_spec e vars h vs : represents vars h vs -> lvalue e = false ->
  eval_lvalue e vars = None /\
  match pure_eval e vs with
  | None => eval_prvalue garbage e vars h = None
  | Some (Ok l) => exists m, eval_prvalue garbage e vars h = Some m /\ yields h (vroots vars) m l
  | Some _ => False
  end.
Proof.
  intros HR E. pose proof (proj1 HR) as HI. destruct e; try discriminate E; (split; [reflexivity|]); cbn [eval_prvalue pure_eval].
  - eexists; split; [reflexivity|]. exists (empty_list garbage), h. split; [reflexivity|]. split; [eapply inv_ext; [|exact HI]; reflexivity|]. split; [apply agree_refl|constructor; reflexivity].
  - eexists; split; [reflexivity|]. apply from_values_spec. assumption.
  - pose proof (var_denotes _ _ _ i HR) as H. destruct (nth_error vars i) as [o|], (nth_error vs i) as [l|]; try contradiction; cbn [option_map]; [|reflexivity]. destruct H as [D B].
    eexists; split; [reflexivity|]. destruct (cons_spec h _ v (Obj o) l HI D) as (r & h' & E' & I' & A' & R' & _). exists r, h'. auto.
  - pose proof (var_denotes _ _ _ i HR) as H. destruct (nth_error vars i) as [o|], (nth_error vs i) as [l|]; try contradiction; cbn [option_map]; [|reflexivity]. destruct H as [D B].
    eexists; split; [reflexivity|]. apply append_spec; assumption.
  - pose proof (var_denotes _ _ _ i HR) as H. pose proof (var_denotes _ _ _ j HR) as H'.
    destruct (nth_error vars i) as [o|], (nth_error vs i) as [l|]; try contradiction; cbn [option_map]; [|reflexivity].
    destruct (nth_error vars j) as [p|], (nth_error vs j) as [m|]; try contradiction; cbn [option_map]; [|reflexivity].
    eexists; split; [reflexivity|]. apply concat_spec; tauto.
  - pose proof (var_denotes _ _ _ i HR) as H. destruct (nth_error vars i) as [o|], (nth_error vs i) as [l|]; try contradiction; cbn [option_map]; [|reflexivity]. destruct H as [D B].
    eexists; split; [reflexivity|]. apply reverse_spec; assumption.
Qed.


Lemma lvalue_prvalue e vars h : lvalue e = true -> eval_lvalue e vars = None -> eval_prvalue garbage e vars h = None.
Proof. destruct e; intros E; try discriminate E; reflexivity. Qed.

Lemma new_spec e vars h vs : represents vars h vs ->
  match pure_eval e vs with
  | None => eval_new garbage e vars h = None
  | Some (Ok l) => exists m, eval_new garbage e vars h = Some m /\ yields h (vroots vars) m l
  | Some m => exists x, m = Throw x /\ eval_new garbage e vars h = Some (Throw x)
  end.
Proof.
  intros HR. unfold eval_new. destruct (lvalue e) eqn:L.
  - pose proof (lvalue_spec e vars h vs HR L) as H. destruct (pure_eval e vs) as [m|].
    + destruct m as [l|x| |].
      * destruct H as (r & E & D). rewrite E. eexists; split; [reflexivity|]. bsimp.
        destruct (copy_spec h _ r l (proj1 HR) D) as (o & h' & E' & _ & I' & A' & R' & _). exists o, h'. auto.
      * destruct H as (y & Ey & E). rewrite E. exists y. split; [assumption|reflexivity].
      * destruct H as (y & Ey & E). discriminate Ey.
      * destruct H as (y & Ey & E). discriminate Ey.
    + rewrite H. apply lvalue_prvalue; assumption.
  - destruct (prvalue_spec e vars h vs HR L) as [E H]. rewrite E. destruct (pure_eval e vs) as [[l|x| |]|]; try contradiction; assumption.
Qed.

Lemma assign_var e vars h vs i x : represents vars h vs -> nth_error vars i = Some x ->
  match pure_eval e vs with
  | None => eval_assign garbage x e vars h = None
  | Some (Ok l) => exists o h', eval_assign garbage x e vars h = Some (Ok (o, h')) /\ inv h' (plus1 (onext o) (vroots (del_nth i vars))) /\ agree h h' /\ reads h' o l
  | Some m => exists y, m = Throw y /\ eval_assign garbage x e vars h = Some (Throw y)
  end.
Proof.
  intros HR Ex. set (f := vroots (del_nth i vars)).
  assert (EF : forall a, vroots vars a = plus1 (onext x) f a) by (intros a; apply vroots_at; assumption).
  assert (HI : inv h (plus1 (onext x) f)) by (eapply inv_ext; [exact EF|exact (proj1 HR)]).
  unfold eval_assign. destruct (lvalue e) eqn:L.
  - pose proof (lvalue_spec e vars h vs HR L) as H. destruct (pure_eval e vs) as [m|].
    + destruct m as [l|y| |].
      * destruct H as (r & E & D). rewrite E. bsimp.
        assert (D' : denotes h (plus1 (onext x) f) r l).
        { eapply (denotes_agree h h); [apply agree_refl|exact HI| |exact D]. intros a. rewrite EF. trivial. }
        destruct (assign_spec h f x r l HI D') as (o & h' & E' & I' & A' & R' & _). exists o, h'. rewrite E'. auto.
      * destruct H as (y' & Ey & E). rewrite E. exists y'. split; [assumption|reflexivity].
      * destruct H as (y & Ey & E). discriminate Ey.
      * destruct H as (y & Ey & E). discriminate Ey.
    + rewrite H. rewrite lvalue_prvalue by assumption. reflexivity.
  - destruct (prvalue_spec e vars h vs HR L) as [E H]. rewrite E. destruct (pure_eval e vs) as [[l|y| |]|]; try contradiction; [|rewrite H; reflexivity].
    destruct H as (m & Em & tmp & h1 & E1 & I1 & A1 & R1). rewrite Em, E1. bsimp.
    destruct (assign_spec h1 (plus1 (onext tmp) f) x (Obj tmp) l) as (o & h2 & E2 & I2 & A2 & R2 & _).
    { eapply inv_ext; [|exact I1]. intros a. unfold plus1. rewrite EF. unfold plus1. lia. }
    { split; [|assumption]. destruct (onext tmp) as [a|] eqn:N; [|exact I]. apply reach_root. unfold plus1. rewrite one_self. lia. }
    rewrite E2. bsimp. unfold destroy. destruct (drop_spec h2 f (onext tmp) o l (inv_swap _ _ _ _ I2) R2) as (h3 & E3 & I3 & A3 & R3 & _). rewrite E3. bsimp.
    exists o, h3. split; [reflexivity|]. split; [assumption|]. split; [|assumption]. eapply agree_trans; [exact A1|]. eapply agree_trans; eassumption.
Qed.

Definition sim (s : state V) (S : list (list V) * list (output V)) : Prop := represents (vars s) (mem s) (fst S) /\ log s = snd S.

Lemma settle_bad {T} s (k : T -> outcome (state V)) : settle s None k = Ok {| vars := vars s; mem := mem s; log := OBadName :: log s |}.
Proof. reflexivity. Qed.

Lemma exec_spec s S c : sim s S -> exists s', exec eqb garbage s c = Ok s' /\ sim s' (pure_exec eqb S c).
Proof.
  destruct S as [vs lg]. intros [HR HL]. cbn [fst snd] in HR, HL. pose proof HR as [HI HF].
  assert (BAD : exists s', settle s (None : option (outcome unit)) (fun _ => Ok s) = Ok s' /\ sim s' (vs, OBadName :: lg)).
  { eexists; split; [reflexivity|]. split; [assumption|]. simpl. congruence. }
  destruct c as [e|i e|i|i|i|i j]; cbn [exec pure_exec].
  - pose proof (new_spec e _ _ _ HR) as H. destruct (pure_eval e vs) as [m|].
    + destruct m as [l|y| |].
      * destruct H as (m & E & o & h' & E' & I' & A' & R'). rewrite E, E'. cbn [settle bind pure_settle]. eexists; split; [reflexivity|]. split; [|exact HL].
        cbn [vars mem fst]. split.
        -- eapply inv_ext; [|exact I']. intros a. rewrite vroots_app. simpl. unfold plus1. lia.
        -- apply Forall2_app; [|constructor; [assumption|constructor]]. eapply frame; [exact A'|exact I'| |exact HF].
           intros p a Ip N. apply plus1_ge. eapply vroots_In; eassumption.
      * destruct H as (y' & Ey & E). rewrite E. injection Ey as <-. cbn [settle pure_settle]. eexists; split; [reflexivity|]. split; [assumption|]. simpl. congruence.
      * destruct H as (y & Ey & E). discriminate Ey.
      * destruct H as (y & Ey & E). discriminate Ey.
    + rewrite H. cbn [settle pure_settle]. eexists; split; [reflexivity|]. split; [assumption|]. simpl. congruence.
  - pose proof (var_denotes _ _ _ i HR) as Hi. destruct (nth_error (vars s) i) as [x|] eqn:Ex, (nth_error vs i) as [lx|]; try contradiction.
    + pose proof (assign_var e _ _ _ i x HR Ex) as H. destruct (pure_eval e vs) as [m|].
      * destruct m as [l|y| |].
        -- destruct H as (o & h' & E & I' & A' & R'). rewrite E. cbn [settle bind pure_settle]. eexists; split; [reflexivity|]. split; [|exact HL].
           cbn [vars mem fst].
           assert (I'' : inv h' (vroots (set_nth i o (vars s)))) by (eapply inv_ext; [|exact I']; intros a; rewrite vroots_set; reflexivity).
           split; [assumption|]. unfold set_nth.
           assert (F' : Forall2 (reads h') (del_nth i (vars s)) (del_nth i vs)).
           { eapply frame; [exact A'|exact I'| |apply Forall2_del; exact HF]. intros p a Ip N. apply plus1_ge. eapply vroots_In; eassumption. }
           unfold del_nth in F'. assert (LL : length (vars s) = length vs) by (clear - HF; induction HF; simpl; congruence).
           apply Forall2_app_inv_l in F' as (m1 & m2 & F1 & F2 & EM).
           assert (length m1 = length (firstn i vs)). { rewrite <- (Forall2_length _ _ _ F1), !firstn_length. lia. }
           assert (m1 = firstn i vs /\ m2 = skipn (S i) vs) as [-> ->].
           { clear - EM H. revert H EM. generalize (firstn i vs) as u, (skipn (S i) vs) as w. induction m1 as [|x m1 IH]; intros [|y u] w H EM; simpl in *; try discriminate; [auto|].
             injection EM as -> EM. destruct (IH u w) as [-> ->]; auto. }
           apply Forall2_app; [assumption|]. constructor; assumption.
        -- destruct H as (y' & Ey & E). rewrite E. injection Ey as <-. cbn [settle pure_settle]. eexists; split; [reflexivity|]. split; [assumption|]. simpl. congruence.
        -- destruct H as (y & Ey & E). discriminate Ey.
        -- destruct H as (y & Ey & E). discriminate Ey.
      * rewrite H. cbn [settle pure_settle]. eexists; split; [reflexivity|]. split; [assumption|]. simpl. congruence.
    + cbn [settle pure_settle]. eexists; split; [reflexivity|]. split; [assumption|]. simpl. congruence.
  - pose proof (var_denotes _ _ _ i HR) as Hi. destruct (nth_error (vars s) i) as [x|] eqn:Ex, (nth_error vs i) as [lx|]; try contradiction; cbn [option_map pure_settle].
    + unfold destroy. destruct (destroy_spec (mem s) (vroots (del_nth i (vars s))) (onext x)) as (h' & E & I' & A' & _).
      { eapply inv_ext; [|exact HI]. intros a. apply vroots_at. assumption. }
      rewrite E. cbn [settle bind]. eexists; split; [reflexivity|]. split; [|exact HL]. cbn [vars mem fst]. split; [assumption|].
      eapply frame; [exact A'|exact I'| |apply Forall2_del; exact HF]. intros p a Ip N. eapply vroots_In; eassumption.
    + cbn [settle]. eexists; split; [reflexivity|]. split; [assumption|]. simpl. congruence.
  - pose proof (var_denotes _ _ _ i HR) as Hi. destruct (nth_error (vars s) i) as [x|] eqn:Ex, (nth_error vs i) as [lx|]; try contradiction; cbn [option_map].
    + destruct Hi as [[Hd R] _]. destruct lx as [|v lx]; cbn [pure_head pure_settle].
      * unfold head. rewrite (reads_empty _ _ _ R). cbn [settle]. eexists; split; [reflexivity|]. split; [assumption|]. simpl. congruence.
      * rewrite (reads_head _ _ _ _ R). cbn [settle bind]. eexists; split; [reflexivity|]. split; [assumption|]. simpl. congruence.
    + cbn [settle pure_settle]. eexists; split; [reflexivity|]. split; [assumption|]. simpl. congruence.
  - pose proof (var_denotes _ _ _ i HR) as Hi. destruct (nth_error (vars s) i) as [x|] eqn:Ex, (nth_error vs i) as [lx|]; try contradiction; cbn [option_map].
    + destruct Hi as [D B]. destruct (size_spec (Datatypes.S (length (mem s))) _ _ _ _ HI D B) as (h' & E & I' & A'). rewrite E. cbn [settle bind pure_settle].
      eexists; split; [reflexivity|]. split; [|simpl; congruence]. cbn [vars mem fst]. split; [assumption|].
      eapply frame; [exact A'|exact I'| |exact HF]. intros p a Ip N. eapply vroots_In; eassumption.
    + cbn [settle pure_settle]. eexists; split; [reflexivity|]. split; [assumption|]. simpl. congruence.
  - pose proof (var_denotes _ _ _ i HR) as Hi. pose proof (var_denotes _ _ _ j HR) as Hj.
    destruct (nth_error (vars s) i) as [x|] eqn:Ex, (nth_error vs i) as [lx|]; try contradiction.
    + destruct (nth_error (vars s) j) as [y|] eqn:Ey, (nth_error vs j) as [ly|]; try contradiction.
      * rewrite (equal_spec eqb _ _ _ _ _ _ _ (proj1 Hi) (proj1 Hj) (proj2 Hi)). cbn [settle bind pure_settle].
        eexists; split; [reflexivity|]. split; [assumption|]. cbn [log snd]. rewrite HL. f_equal.
      * cbn [settle pure_settle]. eexists; split; [reflexivity|]. split; [assumption|]. simpl. congruence.
    + cbn [settle pure_settle]. eexists; split; [reflexivity|]. split; [assumption|]. simpl. congruence.
Qed.

Lemma run_spec p : forall s S, sim s S -> exists s', foldM (exec eqb garbage) s p = Ok s' /\ sim s' (fold_left (pure_exec eqb) p S).
Proof.
  induction p as [|c p IH]; intros s S HS; simpl.
  - exists s. auto.
  - destruct (exec_spec s S c HS) as (s1 & E & H1). rewrite E. bsimp. apply IH. assumption.
Qed.

Lemma reach_reached h vs a : reach h (vroots vs) a <-> reached h vs a.
Proof.
  split; intros R; induction R.
  - destruct (vroots_pos _ _ H) as (o & Io & N). eapply reached_var; eassumption.
  - eapply reached_next; eassumption.
  - apply reach_root. eapply vroots_In; eassumption.
  - eapply reach_next; eassumption.
Qed.

(** ** C43 *)

(** Every client program runs without undefined behaviour (no dangling access, no double free), the
    outputs are those of the same program over pure lists, every variable spells out the pure list
    throughout (so no operation ever disturbs another list), and a node is allocated and not yet
    freed exactly when some variable reaches it. *)
Theorem linked_lists_refine_pure_lists (p : list (stmt V)) :
  exists s, run eqb garbage p = Ok s /\
    let (vs, lg) := pure_run eqb p in
    log s = lg /\ Forall2 (spells (mem s)) (vars s) vs /\
    forall a, (exists c, nth_error (mem s) a = Some (Some c)) <-> reached (mem s) (vars s) a.
Proof.
  destruct (run_spec p {| vars := []; mem := []; log := [] |} ([], [])) as (s & E & [[HI HF] HL]).
  - split; [|reflexivity]. split; [|constructor]. intros a. simpl. destruct a; reflexivity.
  - exists s. split; [exact E|]. unfold pure_run. destruct (fold_left (pure_exec eqb) p ([], [])) as [vs lg]. cbn [fst snd] in *.
    split; [assumption|]. split.
    + clear - HF. induction HF; constructor; [apply reads_spells|]; assumption.
    + intros a. rewrite <- reach_reached. split; [apply live_reach; assumption|]. intros R. destruct (reach_live _ _ _ HI R) as [c Ec]. exists c. assumption.
Qed.

(** In particular, once all lists are gone nothing is left allocated. *)
Theorem linked_lists_do_not_leak (p : list (stmt V)) s :
  run eqb garbage p = Ok s -> vars s = [] -> Forall (fun c => c = None) (mem s).
Proof.
  intros E Z. destruct (linked_lists_refine_pure_lists p) as (s' & E' & H). rewrite E in E'. injection E' as <-.
  destruct (pure_run eqb p) as [vs lg]. destruct H as (_ & _ & H). rewrite Z in H.
  apply Forall_forall. intros [c|] Hc; [|reflexivity]. exfalso. apply In_nth_error in Hc as [a Ea].
  assert (R : reached (mem s) [] a) by (apply H; exists c; assumption). clear - R. induction R; [contradiction|assumption].
Qed.
End Links.

(** Equality of lists: whenever element equality decides equality. *)
Theorem pure_equality_is_equality {V} (eqb : V -> V -> bool) :
  (forall x y, eqb x y = true <-> x = y) -> forall l m, pure_eq eqb l m = true <-> l = m.
Proof.
  intros H l; induction l as [|x l IH]; intros [|y m]; simpl; split; intros E; try discriminate; try reflexivity.
  - apply andb_prop in E as [E1 E2]. apply H in E1. apply IH in E2. congruence.
  - injection E as -> ->. rewrite (proj2 (H y y) eq_refl). simpl. apply IH. reflexivity.
Qed.

(** Sharing, assignment to a list from its own tail, destruction in arbitrary order. *)
Example linked_list_example :
  let p := [New (Values [1; 2; 3]); New (Prepend 9 0); New (TailOf 1); Assign 1 (TailOf 1); Assign 1 (TailOf 1); New (Concat 1 0);
            Destroy 0; Assign 2 (Reverse 2); Head 2; Size 2; Equal 0 1; New (Append 7 1); Assign 0 Empty; Head 0; Assign 0 (TailOf 0)] in
  let final := run Nat.eqb 0 p in
  pure_run Nat.eqb p = ([[]; [1; 2; 3]; [3; 2; 1; 3; 2]; [1; 2; 3; 7]], [OThrow OutOfRange; OThrow OutOfRange; OBool false; ONat 5; OVal 3]) /\
  (exists s, final = Ok s /\ log s = [OThrow OutOfRange; OThrow OutOfRange; OBool false; ONat 5; OVal 3] /\ length (filter (fun c => match c with Some _ => true | None => false end) (mem s)) = 12) /\
  (exists s, run Nat.eqb 0 (p ++ [Destroy 1; Destroy 2; Destroy 0; Destroy 0]) = Ok s /\ vars s = [] /\ forallb (fun c => match c with Some _ => false | None => true end) (mem s) = true).
Proof. vm_compute. split; [reflexivity|]. split; eexists; split; try reflexivity; split; reflexivity. Qed.

Print Assumptions linked_lists_refine_pure_lists.
Print Assumptions linked_lists_do_not_leak.
Print Assumptions pure_equality_is_equality.
