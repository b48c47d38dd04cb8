(** Schedules: marking, running, saving. *)
From Coq Require Import List Arith Ascii String Bool ZArith Lia Permutation.
From Verif Require Import Base StrModel MapModel MapProofs ScheduleModel.
Import ListNotations.
Close Scope Z_scope.
Open Scope nat_scope.

Section sched.
  Context {T : Type} (tzero : T) (tadd : T -> T -> T) (tdue : T -> T -> T -> bool).
  Implicit Types s : schedule T.

  Definition registered (n : str) s : Prop := mfind n s <> None.

  Lemma sat_ok n s t : mfind n s = Some t -> sat n s = Ok t.
  Proof. unfold sat. intros ->. reflexivity. Qed.

  (** The interval listed for a name. *)
  Fixpoint listed (k : str) (l : list (str * T)) : option T :=
    match l with
    | [] => None
    | (n, i) :: l' => if str_dec k n then Some i else listed k l'
    end.

  Lemma listed_none k l : ~ In k (map fst l) -> listed k l = None.
  Proof.
    induction l as [|[n i] l IH]; cbn; auto. intros H. destruct (str_dec k n) as [->|]; [tauto|]. apply IH. tauto.
  Qed.

  Lemma listed_in k i l : NoDup (map fst l) -> In (k, i) l -> listed k l = Some i.
  Proof.
    induction l as [|[n j] l IH]; cbn; [tauto|]. intros HN [H|H]; inversion HN; subst.
    - injection H as -> ->. destruct (str_dec k k); congruence.
    - destruct (str_dec k n) as [->|]; auto. exfalso. apply H2. apply in_map_iff. exists (n, i). auto.
  Qed.

  Definition marked (time : T) (l : list (str * T)) (k : str) (t : task T) : task T :=
    match listed k l with
    | Some i => if tdue time (t_last t) i then mktask (t_name t) (t_count t) (tadd (t_last t) i) true else t
    | None => t
    end.

  Lemma mark_tasks_spec cur time l : forall next, msorted cur -> msorted next -> NoDup (map fst l) ->
    (forall n, In n (map fst l) -> registered n cur) ->
    (forall n, In n (map fst l) -> mfind n next = mfind n cur) ->
    exists r, mark_tasks tadd tdue cur time l next = Ok r /\ msorted r /\
      forall k, mfind k r = option_map (marked time l k) (mfind k next).
  Proof.
    induction l as [|[n i] l IH]; intros next HC HS HN HR HE; cbn [mark_tasks].
    - exists next. split; auto. split; auto. intros k. destruct (mfind k next); reflexivity.
    - cbn [map fst] in *. inversion HN as [|? ? Hnin HN']; subst.
      pose proof (HR n (or_introl eq_refl)) as Hr. pose proof (HE n (or_introl eq_refl)) as He.
      unfold registered in Hr. destruct (mfind n cur) as [t|] eqn:Et; [|congruence].
      unfold last_performed. rewrite (sat_ok n cur t Et). bsimp.
      assert (G : forall next', msorted next' -> (forall m, In m (map fst l) -> mfind m next' = mfind m next) ->
        exists r, mark_tasks tadd tdue cur time l next' = Ok r /\ msorted r /\
          forall k, mfind k r = option_map (marked time l k) (mfind k next')).
      { intros next' HS' HE'. apply IH; auto; intros m Hm; [apply HR; right; auto|].
        rewrite HE' by auto. apply HE. right. auto. }
      assert (Hk : forall k t', k <> n -> marked time ((n, i) :: l) k t' = marked time l k t').
      { intros k t' Hne. unfold marked. cbn [listed]. destruct (str_dec k n); [congruence|reflexivity]. }
      destruct (tdue time (t_last t) i) eqn:ED.
      + unfold mark_as_due. rewrite (sat_ok n next t He). bsimp.
        match goal with |- context [mset n ?x next] => set (t' := x) end.
        destruct (G (mset n t' next)) as (r & Er & Sr & Fr); [apply mset_sorted; auto| |].
        { intros m Hm. apply mfind_mset_neq; auto. intros ->. auto. }
        exists r. split; auto. split; auto. intros k. rewrite Fr. destruct (str_dec k n) as [->|Hne].
        * rewrite mfind_mset_eq, He. cbn [option_map]. f_equal. unfold marked. cbn [listed].
          rewrite (listed_none n l Hnin). destruct (str_dec n n); [|congruence]. rewrite ED. reflexivity.
        * rewrite mfind_mset_neq by auto. destruct (mfind k next); cbn [option_map]; rewrite ?Hk; auto.
      + bsimp. destruct (G next) as (r & Er & Sr & Fr); auto.
        exists r. split; auto. split; auto. intros k. rewrite Fr. destruct (str_dec k n) as [->|Hne].
        * rewrite He. cbn [option_map]. f_equal. unfold marked. cbn [listed].
          rewrite (listed_none n l Hnin). destruct (str_dec n n); [|congruence]. rewrite ED. reflexivity.
        * destruct (mfind k next); cbn [option_map]; rewrite ?Hk; auto.
  Qed.

  Lemma mark_tasks_in_spec s time l : msorted s -> NoDup (map fst l) ->
    (forall n, In n (map fst l) -> registered n s) ->
    exists r, mark_tasks_in tadd tdue s time l = Ok r /\ msorted r /\
      forall k, mfind k r = option_map (marked time l k) (mfind k s).
  Proof. intros HS HN HR. apply mark_tasks_spec; auto. Qed.

  Definition completed (t : task T) : task T := mktask (t_name t) (t_count t + 1)%Z (t_last t) false.

  Lemma mark_as_completed_inv n s r : mark_as_completed n s = Ok r ->
    exists t, mfind n s = Some t /\ r = mset n (completed t) s.
  Proof.
    unfold mark_as_completed, sat. destruct (mfind n s) as [t|] eqn:E; [|discriminate]. bsimp. intros H.
    exists t. split; auto. unfold chk in H. destruct (in_int (t_count t + 1)); [|discriminate].
    revert H; bsimp. intros H. injection H as <-. reflexivity.
  Qed.

  (** Saving and loading. *)
  Lemma read_write_schedule s l : msorted s -> Forall (fun e => t_name (snd e) = fst e) s ->
    Permutation l (write_schedule s) ->
    read_schedule l = map (fun e => (fst e, mktask (t_name (snd e)) (t_count (snd e)) (t_last (snd e)) false)) s.
  Proof.
    intros HS HK HP. unfold read_schedule, sinsert.
    set (g := fun e : str * (str * Z * T) => (fst e, let '(_, c, t) := snd e in mktask (fst e) c t false)).
    assert (E : forall l s0, fold_left (fun s e => let '(_, c, t) := snd e in
        mset (t_name (mktask (fst e) c t false)) (mktask (fst e) c t false) s) l s0 =
      fold_left (fun m e => mset (fst e) (snd e) m) (map g l) s0).
    { clear. induction l as [|[k [[nm c] t]] l IH]; intros s0; cbn; auto. }
    rewrite E. apply (mload_perm (map g l)).
    - apply (msorted_map (fun t => mktask (t_name t) (t_count t) (t_last t) false)). exact HS.
    - rewrite HP. unfold write_schedule. rewrite map_map.
      assert (E2 : map (fun x : str * task T => g (fst x, (t_name (snd x), t_count (snd x), t_last (snd x)))) s =
        map (fun e => (fst e, mktask (t_name (snd e)) (t_count (snd e)) (t_last (snd e)) false)) s).
      { apply map_ext_in. intros [k t] Hin. rewrite Forall_forall in HK. apply HK in Hin. cbn in *. rewrite Hin. reflexivity. }
      rewrite E2. apply Permutation_refl.
  Qed.
End sched.

Section run.
  Context {T State : Type} (sched : State -> schedule T).

  Definition due_in (s : schedule T) (n : str) : bool := match mfind n s with Some t => t_due t | None => false end.

  Lemma run_scheduled_fold state tasks : forall next,
    (forall n f, In (n, f) tasks -> registered n (sched state)) ->
    run_scheduled sched state tasks next =
      foldM (fun w e => snd e w) next (filter (fun e => due_in (sched state) (fst e)) tasks).
  Proof.
    induction tasks as [|[n f] tasks IH]; intros next HR; [reflexivity|]. cbn [run_scheduled filter fst].
    pose proof (HR n f (or_introl eq_refl)) as Hr. unfold registered in Hr. unfold is_due, due_in.
    destruct (mfind n (sched state)) as [t|] eqn:E; [|congruence]. rewrite (sat_ok n _ t E). bsimp.
    assert (HR' : forall n f, In (n, f) tasks -> registered n (sched state)) by (intros; eapply HR; right; eauto).
    destruct (t_due t); cbn [foldM snd].
    - destruct (f next); cbn [bind]; auto.
    - bsimp. apply IH; auto.
  Qed.

  Lemma run_scheduled_unregistered state n f l2 : forall l1 next,
    (forall m g, In (m, g) l1 -> registered m (sched state)) ->
    mfind n (sched state) = None ->
    run_scheduled sched state (l1 ++ (n, f) :: l2) next =
      do _ <- run_scheduled sched state l1 next; Throw OutOfRange.
  Proof.
    induction l1 as [|[m g] l1 IH]; intros next HR Hn; cbn [app run_scheduled].
    - unfold is_due, sat. rewrite Hn. reflexivity.
    - pose proof (HR m g (or_introl eq_refl)) as Hr. unfold registered in Hr. unfold is_due.
      destruct (mfind m (sched state)) as [t|] eqn:E; [|congruence]. rewrite (sat_ok m _ t E). bsimp.
      assert (HR' : forall n f, In (n, f) l1 -> registered n (sched state)) by (intros; eapply HR; right; eauto).
      destruct (t_due t); [|bsimp; apply IH; auto].
      destruct (g next); cbn [bind]; auto.
  Qed.

  (** Tasks that mark themselves as completed and change nothing else in the schedule. *)
  Definition self_completing (e : str * (State -> outcome State)) : Prop :=
    forall w w', snd e w = Ok w' -> mark_as_completed (fst e) (sched w) = Ok (sched w').

  Lemma fold_completed l : Forall self_completing l -> NoDup (map fst l) -> forall w w',
    msorted (sched w) -> foldM (fun w e => snd e w) w l = Ok w' ->
    msorted (sched w') /\ (forall n, In n (map fst l) -> registered n (sched w)) /\
    forall k, mfind k (sched w') =
      if in_dec str_dec k (map fst l) then option_map completed (mfind k (sched w)) else mfind k (sched w).
  Proof.
    induction l as [|e l IH]; intros HF HN w w' HS H; cbn [foldM] in H.
    - injection H as <-. split; auto. split; [intros n []|]. intros k. reflexivity.
    - inversion HF as [|? ? He HF']; inversion HN as [|? ? Hnin HN']; subst.
      destruct (snd e w) as [w1| | |] eqn:E1; try discriminate. revert H; bsimp; intros H.
      apply He in E1 as HM. apply mark_as_completed_inv in HM. destruct HM as (t & Et & ES).
      assert (HS1 : msorted (sched w1)) by (rewrite ES; apply mset_sorted; auto).
      destruct (IH HF' HN' w1 w' HS1 H) as (S' & R' & F'). split; auto. split.
      + intros n [<-|Hn]; [unfold registered; congruence|]. specialize (R' n Hn). unfold registered in *.
        rewrite ES in R'. destruct (str_dec n (fst e)) as [->|Hne]; [congruence|]. rewrite mfind_mset_neq in R'; auto.
      + intros k. rewrite F'. cbn [map]. destruct (in_dec str_dec k (map fst l)) as [Hin|Hout].
        * destruct (in_dec str_dec k (fst e :: map fst l)) as [_|Hx]; [|exfalso; apply Hx; right; auto].
          rewrite ES, mfind_mset_neq; auto. intros ->. auto.
        * destruct (in_dec str_dec k (fst e :: map fst l)) as [Hx|Hx].
          -- destruct Hx as [<-|Hx]; [|tauto]. rewrite ES, mfind_mset_eq, Et. reflexivity.
          -- rewrite ES, mfind_mset_neq; auto. intros ->. apply Hx. left. reflexivity.
  Qed.
End run.
