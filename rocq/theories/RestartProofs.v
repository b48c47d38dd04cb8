(** Restarting from checkpoints. *)
From Coq Require Import List Arith Ascii String Bool ZArith Lia Permutation.
From Verif Require Import Base StrModel MapModel MapProofs ScheduleModel ScheduleProofs.
Import ListNotations.
Close Scope Z_scope.
Open Scope nat_scope.

Lemma bind_Throw {A B} e (f : A -> outcome B) : bind (Throw e) f = Throw e.
Proof. reflexivity. Qed.

(** Two calls with related results. *)
Definition rel_out {A B} (R : A -> B -> Prop) (x : outcome A) (y : outcome B) : Prop :=
  match x, y with
  | Ok a, Ok b => R a b
  | Throw e, Throw e' => e = e'
  | UB, UB => True
  | NoFuel, NoFuel => True
  | _, _ => False
  end.

Lemma rel_bind {A B C D} (R : A -> B -> Prop) (Q : C -> D -> Prop) x y f g :
  rel_out R x y -> (forall a b, R a b -> rel_out Q (f a) (g b)) -> rel_out Q (bind x f) (bind y g).
Proof. destruct x, y; cbn; intros H HF; try tauto; auto. Qed.

Lemma rel_same {A C D} (Q : C -> D -> Prop) (x : outcome A) f g :
  (forall a, rel_out Q (f a) (g a)) -> rel_out Q (bind x f) (bind x g).
Proof. destruct x; cbn; auto. Qed.

Lemma filter_sub {A} (f : A -> bool) (P : A -> Prop) l : Forall P l -> Forall P (filter f l).
Proof. induction 1; cbn; auto. destruct (f x); auto. Qed.
Lemma filter_nodup {A B} (f : A -> bool) (g : A -> B) l : NoDup (map g l) -> NoDup (map g (filter f l)).
Proof.
  induction l as [|a l IH]; cbn; auto. intros H. inversion H; subst. destruct (f a); cbn; auto. constructor; auto.
  intros Hin. apply H2. apply in_map_iff in Hin. destruct Hin as (x & E & Hx). apply filter_In in Hx.
  apply in_map_iff. exists x. tauto.
Qed.

Lemma foldM_app {A S} (f : S -> A -> outcome S) l1 : forall l2 s,
  foldM f s (l1 ++ l2) = do s' <- foldM f s l1; foldM f s' l2.
Proof. induction l1 as [|a l1 IH]; intros l2 s; cbn; auto. destruct (f s a); cbn; auto. Qed.

Section binary.
  Context {T : Type} (tzero : T) (tadd : T -> T -> T) (tdue : T -> T -> T -> bool).
  Context {Sol Cfg Sample Diag : Type}.
  Context (next_solution : Cfg -> Sol -> outcome Sol) (time_of : Sol -> T).
  Context (cpi dfi tsi : Cfg -> T) (should_continue : Cfg -> Sol -> bool).
  Context (diagnose : Cfg -> Sol -> Diag) (sample : Cfg -> Sol -> Sample).

  Notation bstate := (@bstate T Sol Cfg Sample).
  Notation bworld := (@bworld T Sol Cfg Sample Diag).
  Notation bout := (@bout T Sol Cfg Sample Diag).
  Notation t_diagnostics := (t_diagnostics (T := T) (Sample := Sample) diagnose).
  Notation t_series := (t_series (T := T) (Diag := Diag) sample).
  Notation t_checkpoint := (@t_checkpoint T Sol Cfg Sample Diag).
  Notation brun_tasks := (brun_tasks (T := T) diagnose sample).
  Notation bnext := (bnext (Sample := Sample) (Diag := Diag) tadd tdue next_solution time_of cpi dfi tsi).
  Notation bloop := (bloop tadd tdue next_solution time_of cpi dfi tsi should_continue diagnose sample).
  Notation binary_main := (binary_main tzero tadd tdue next_solution time_of cpi dfi tsi should_continue diagnose sample).

  Definition names : list str := [n_dia; n_tsr; n_chk].
  Lemma names_nodup : NoDup names.
  Proof. repeat constructor; cbn; intuition discriminate. Qed.

  (** The schedule of a binary run: exactly the three tasks, each under its own name. *)
  Record bsched_ok (s : schedule T) : Prop := {
    bs_sorted : msorted s;
    bs_dom : forall k, registered k s <-> In k names;
    bs_name : forall k t, mfind k s = Some t -> t_name t = k
  }.

  Lemma bsched_same s s' (g : str -> task T -> task T) : bsched_ok s -> msorted s' ->
    (forall k t, t_name (g k t) = t_name t) ->
    (forall k, mfind k s' = option_map (g k) (mfind k s)) -> bsched_ok s'.
  Proof.
    intros [HS HD HN] HS' HG HF. split; auto.
    - intros k. rewrite <- HD. unfold registered. rewrite HF. destruct (mfind k s); cbn; intuition congruence.
    - intros k t H. rewrite HF in H. destruct (mfind k s) as [t0|] eqn:E; [|discriminate]. cbn in H.
      assert (Et : g k t0 = t) by congruence. subst t. rewrite HG. eauto.
  Qed.

  Lemma bschedule_ok s : bschedule tzero tadd = Ok s -> bsched_ok s.
  Proof.
    intros H. unfold bschedule, create_and_mark_as_due, mark_as_due, sat, screate in H. vm_compute in H.
    assert (E : forall x y : schedule T, Ok x = Ok y -> x = y) by (intros x y Hxy; congruence).
    apply E in H. subst s. split.
    - repeat constructor.
    - intros k. unfold registered. split.
      + intros Hk. match type of Hk with mfind k ?m <> None => destruct (mfind k m) as [t|] eqn:Em; [|congruence];
          apply mfind_in in Em; [|repeat constructor] end.
        destruct Em as [Em|[Em|[Em|[]]]]; injection Em as <- _; vm_compute; auto.
      + intros Hk. destruct Hk as [<-|[<-|[<-|[]]]]; vm_compute; discriminate.
    - intros k t Hk. apply mfind_in in Hk; [|repeat constructor].
      destruct Hk as [Em|[Em|[Em|[]]]]; injection Em as <- <-; reflexivity.
  Qed.

  Lemma complete_sched (s : bstate) n (s' : bstate) : complete_task_in s n = Ok s' ->
    mark_as_completed n (b_sched s) = Ok (b_sched s') /\ b_sol s' = b_sol s /\ b_series s' = b_series s /\ b_cfg s' = b_cfg s.
  Proof.
    unfold complete_task_in. destruct (mark_as_completed n (b_sched s)); try discriminate. bsimp.
    intros H. injection H as <-. auto.
  Qed.

  Notation sch := (fun w : bworld => b_sched (fst w)).
  Definition tasks : list (str * (bworld -> outcome bworld)) := [(n_dia, t_diagnostics); (n_tsr, t_series); (n_chk, t_checkpoint)].

  Lemma tasks_completing : Forall (self_completing sch) tasks.
  Proof.
    repeat constructor; intros [s o] w' H; cbn [fst snd] in *.
    - unfold ScheduleModel.t_diagnostics in H. destruct (num_times_performed n_dia (b_sched s)); try discriminate. revert H; bsimp.
      destruct (complete_task_in s n_dia) as [s'| | |] eqn:E; try discriminate. bsimp. intros H. injection H as <-.
      apply complete_sched in E. cbn [fst]. tauto.
    - unfold ScheduleModel.t_series in H. destruct (complete_task_in _ n_tsr) as [s'| | |] eqn:E; try discriminate.
      revert H; bsimp. intros H. injection H as <-. apply complete_sched in E. cbn [fst b_sched] in *. tauto.
    - unfold ScheduleModel.t_checkpoint in H. destruct (num_times_performed n_chk (b_sched s)); try discriminate. revert H; bsimp.
      destruct (complete_task_in s n_chk) as [s'| | |] eqn:E; try discriminate. bsimp. intros H. injection H as <-.
      apply complete_sched in E. cbn [fst]. tauto.
  Qed.

  Definition due_tasks (s : schedule T) := filter (fun e => due_in s (fst e)) tasks.

  Lemma brun_fold w : bsched_ok (b_sched (fst w)) -> brun_tasks w = foldM (fun w e => snd e w) w (due_tasks (b_sched (fst w))).
  Proof.
    intros HB. unfold ScheduleModel.brun_tasks, run_scheduled_tasks. apply (run_scheduled_fold sch w tasks w).
    intros n f Hin. apply (bs_dom _ HB). destruct Hin as [E|[E|[E|[]]]]; injection E as <- _; cbn; auto.
  Qed.

  Definition none_due (s : schedule T) : Prop := forall k t, mfind k s = Some t -> t_due t = false.

  Lemma diag_out s o w : t_diagnostics (s, o) = Ok w -> exists c, snd w = o ++ [OutDiagnostics c (diagnose (b_cfg s) (b_sol s))].
  Proof.
    unfold ScheduleModel.t_diagnostics. destruct (num_times_performed n_dia (b_sched s)) as [c| | |]; try discriminate. bsimp.
    destruct (complete_task_in s n_dia) as [s'| | |]; try discriminate. bsimp. intros H. injection H as <-. eexists. reflexivity.
  Qed.
  Lemma series_out s o w : t_series (s, o) = Ok w -> snd w = o.
  Proof.
    unfold ScheduleModel.t_series. destruct (complete_task_in _ n_tsr) as [s'| | |]; try discriminate. bsimp.
    intros H. injection H as <-. reflexivity.
  Qed.
  Lemma chk_out s o w : t_checkpoint (s, o) = Ok w -> exists c, num_times_performed n_chk (b_sched s) = Ok c /\
    snd w = o ++ [OutCheckpoint c (bwrite (fst w))].
  Proof.
    unfold ScheduleModel.t_checkpoint. destruct (num_times_performed n_chk (b_sched s)) as [c| | |]; try discriminate. bsimp.
    destruct (complete_task_in s n_chk) as [s'| | |]; try discriminate. bsimp. intros H. injection H as <-. eexists. split; reflexivity.
  Qed.

  Definition is_chk (x : bout) : bool := match x with OutCheckpoint _ _ => true | _ => false end.

  (** What run_tasks leaves behind. *)
  Lemma brun_facts s o s' o' : bsched_ok (b_sched s) -> brun_tasks (s, o) = Ok (s', o') ->
    bsched_ok (b_sched s') /\ none_due (b_sched s') /\
    exists d, (forall x, In x d -> is_chk x = false) /\
      (o' = o ++ d \/ exists c, o' = o ++ d ++ [OutCheckpoint c (bwrite s')]).
  Proof.
    intros HB H. rewrite brun_fold in H by exact HB. cbn [fst] in H.
    destruct (fold_completed sch (due_tasks (b_sched s))) with (w := (s, o)) (w' := (s', o')) as (S' & _ & F'); auto.
    { apply filter_sub. apply tasks_completing. }
    { apply filter_nodup. apply names_nodup. }
    { apply (bs_sorted _ HB). }
    cbn [fst] in S', F'.
    split; [|split].
    - apply (bsched_same (b_sched s) (b_sched s')
        (fun k t => if in_dec str_dec k (map fst (due_tasks (b_sched s))) then completed t else t)); auto.
      + intros k t. destruct (in_dec _ _ _); reflexivity.
      + intros k. rewrite F'. destruct (in_dec _ _ _); destruct (mfind k (b_sched s)); reflexivity.
    - intros k t Hk. rewrite F' in Hk. destruct (in_dec str_dec k _) as [Hin|Hout].
      + destruct (mfind k (b_sched s)); [|discriminate]. cbn in Hk. injection Hk as <-. reflexivity.
      + destruct (t_due t) eqn:ED; auto. exfalso. apply Hout.
        assert (Hn : In k names) by (apply (bs_dom _ HB); unfold registered; congruence).
        assert (Hd : due_in (b_sched s) k = true) by (unfold due_in; rewrite Hk; exact ED).
        unfold due_tasks. apply in_map_iff.
        destruct Hn as [<-|[<-|[<-|[]]]]; eexists (_, _); (split; [reflexivity|]); apply filter_In; (split; [|exact Hd]);
          cbn; eauto.
    - unfold due_tasks, tasks in H. cbn [filter fst] in H.
      assert (G : forall w, foldM (fun w e => snd e w) (s, o)
          ((if due_in (b_sched s) n_dia then [(n_dia, t_diagnostics)] else []) ++
           (if due_in (b_sched s) n_tsr then [(n_tsr, t_series)] else [])) = Ok w ->
          exists d, (forall x, In x d -> is_chk x = false) /\ snd w = o ++ d).
      { intros w Hw. destruct (due_in (b_sched s) n_dia), (due_in (b_sched s) n_tsr); cbn [app foldM snd] in Hw.
        - destruct (t_diagnostics (s, o)) as [[s1 o1]| | |] eqn:E1; try discriminate. revert Hw; bsimp; intros Hw.
          destruct (t_series (s1, o1)) as [[s2 o2]| | |] eqn:E2; try discriminate. revert Hw; bsimp; intros Hw.
          injection Hw as <-. apply diag_out in E1. apply series_out in E2. cbn in *. destruct E1 as [c ->]. subst o2.
          eexists. split; [|reflexivity]. intros x [<-|[]]. reflexivity.
        - destruct (t_diagnostics (s, o)) as [[s1 o1]| | |] eqn:E1; try discriminate. revert Hw; bsimp; intros Hw.
          injection Hw as <-. apply diag_out in E1. cbn in *. destruct E1 as [c ->].
          eexists. split; [|reflexivity]. intros x [<-|[]]. reflexivity.
        - destruct (t_series (s, o)) as [[s2 o2]| | |] eqn:E2; try discriminate. revert Hw; bsimp; intros Hw.
          injection Hw as <-. apply series_out in E2. cbn in *. subst o2.
          exists []. split; [intros x []|]. rewrite app_nil_r. reflexivity.
        - injection Hw as <-. exists []. split; [intros x []|]. cbn. rewrite app_nil_r. reflexivity. }
      destruct (due_in (b_sched s) n_chk) eqn:EC.
      + replace (if due_in (b_sched s) n_dia then _ else _) with
          (((if due_in (b_sched s) n_dia then [(n_dia, t_diagnostics)] else []) ++
           (if due_in (b_sched s) n_tsr then [(n_tsr, t_series)] else [])) ++ [(n_chk, t_checkpoint)]) in H
          by (destruct (due_in (b_sched s) n_dia), (due_in (b_sched s) n_tsr); reflexivity).
        rewrite foldM_app in H.
        match type of H with bind ?x _ = _ => destruct x as [[s1 o1]| | |] eqn:E1 end; try discriminate.
        destruct (G _ eq_refl) as (d & Hd & Ho). cbn in Ho. subst o1.
        rewrite bind_Ok in H. cbn [foldM snd] in H. destruct (t_checkpoint (s1, o ++ d)) as [[s2 o2]| | |] eqn:E2; try discriminate.
        revert H; bsimp; intros H. injection H as <- <-. apply chk_out in E2. destruct E2 as (c & _ & E2). cbn in E2.
        exists d. split; auto. right. exists c. rewrite E2, app_assoc. reflexivity.
      + replace (if due_in (b_sched s) n_dia then _ else _) with
          ((if due_in (b_sched s) n_dia then [(n_dia, t_diagnostics)] else []) ++
           (if due_in (b_sched s) n_tsr then [(n_tsr, t_series)] else [])) in H
          by (destruct (due_in (b_sched s) n_dia), (due_in (b_sched s) n_tsr); reflexivity).
        destruct (G _ H) as (d & Hd & Ho). exists d. split; auto.
  Qed.

  Lemma none_due_noop s o : bsched_ok (b_sched s) -> none_due (b_sched s) -> brun_tasks (s, o) = Ok (s, o).
  Proof.
    intros HB HN. rewrite brun_fold by exact HB. unfold due_tasks. cbn [fst].
    replace (filter _ tasks) with (@nil (str * (bworld -> outcome bworld))); [reflexivity|].
    symmetry. assert (HD : forall k, due_in (b_sched s) k = false).
    { intros k. unfold due_in. destruct (mfind k (b_sched s)) eqn:E; eauto. }
    unfold tasks. cbn [filter fst]. rewrite !HD. reflexivity.
  Qed.

  (** A state whose tasks are done survives saving and loading. *)
  Lemma bread_bwrite (s : bstate) l (cfg : Cfg) : bsched_ok (b_sched s) -> none_due (b_sched s) -> Permutation l (f_sched (bwrite s)) ->
    bread (bwrite s) l cfg = mkb (b_sol s) (b_sched s) (b_series s) cfg.
  Proof.
    intros HB HN HP. unfold bread. cbn [bwrite f_sol f_series]. rewrite rev_involutive.
    rewrite (read_write_schedule (b_sched s) l); auto.
    - f_equal. rewrite <- (map_id (b_sched s)) at 2. apply map_ext_in. intros [k t] Hin. cbn.
      apply mfind_in in Hin; [|apply (bs_sorted _ HB)]. apply HN in Hin. destruct t; cbn in *; subst; reflexivity.
    - apply (bs_sorted _ HB).
    - apply Forall_forall. intros [k t] Hin. cbn. apply mfind_in in Hin; [|apply (bs_sorted _ HB)]. apply (bs_name _ HB). exact Hin.
  Qed.

  Lemma bnext_ok s o s' o' : bsched_ok (b_sched s) -> bnext (s, o) = Ok (s', o') ->
    bsched_ok (b_sched s') /\ b_cfg s' = b_cfg s /\ o' = o.
  Proof.
    intros HB H. unfold ScheduleModel.bnext in H. destruct (next_solution (b_cfg s) (b_sol s)); try discriminate. revert H; bsimp.
    destruct (mark_tasks_in_spec tzero tadd tdue (b_sched s) (time_of (b_sol s))
      [(n_chk, cpi (b_cfg s)); (n_dia, dfi (b_cfg s)); (n_tsr, tsi (b_cfg s))]) as (r & Er & Sr & Fr).
    - apply (bs_sorted _ HB).
    - cbn. repeat constructor; cbn; intuition discriminate.
    - intros n Hn. apply (bs_dom _ HB). cbn in *. tauto.
    - rewrite Er. bsimp. intros H. injection H as <- <-. cbn [b_sched b_cfg]. split; auto.
      eapply bsched_same; [exact HB|exact Sr| |exact Fr]. intros k t. unfold marked.
      destruct (listed k _); auto. destruct (tdue _ _ _); auto.
  Qed.

  Lemma task_cfg s o s' o' : bsched_ok (b_sched s) -> brun_tasks (s, o) = Ok (s', o') -> b_cfg s' = b_cfg s.
  Proof.
    intros HB H. rewrite brun_fold in H by exact HB. cbn [fst] in H.
    assert (G : forall l, (forall e, In e l -> In e tasks) -> forall w w', foldM (fun w e => snd e w) w l = Ok w' ->
      b_cfg (fst w') = b_cfg (fst w)).
    { clear. induction l as [|e l IH]; intros HI w w' H; cbn [foldM] in H; [injection H as <-; reflexivity|].
      destruct (snd e w) as [w1| | |] eqn:E; try discriminate. revert H; bsimp; intros H.
      rewrite (IH (fun x Hx => HI x (or_intror Hx)) w1 w' H). clear H.
      destruct w as [s o]. destruct (HI e (or_introl eq_refl)) as [<-|[<-|[<-|[]]]]; cbn [snd] in E.
      - unfold ScheduleModel.t_diagnostics in E. destruct (num_times_performed _ _); try discriminate. revert E; bsimp.
        destruct (complete_task_in s n_dia) eqn:E2; try discriminate. bsimp. intros E. injection E as <-.
        apply complete_sched in E2. cbn. tauto.
      - unfold ScheduleModel.t_series in E. destruct (complete_task_in _ n_tsr) eqn:E2; try discriminate. revert E; bsimp.
        intros E. injection E as <-. apply complete_sched in E2. cbn in *. tauto.
      - unfold ScheduleModel.t_checkpoint in E. destruct (num_times_performed _ _); try discriminate. revert E; bsimp.
        destruct (complete_task_in s n_chk) eqn:E2; try discriminate. bsimp. intros E. injection E as <-.
        apply complete_sched in E2. cbn. tauto. }
    apply (G _ (fun e He => proj1 (proj1 (filter_In _ _ _) He)) _ _ H).
  Qed.

  (** ** The resumed run follows the original one *)

  Definition rc (cfg' : Cfg) (s : bstate) : bstate := mkb (b_sol s) (b_sched s) (b_series s) cfg'.
  Definition rco (cfg' : Cfg) (x : bout) : bout :=
    match x with
    | OutCheckpoint n f => OutCheckpoint n (mkbf (f_sol f) (f_sched f) (f_series f) cfg')
    | OutDiagnostics n d => OutDiagnostics n d
    end.

  (** The two configurations give the same run (they may differ in the name of the restart file). *)
  Definition agree (cfg cfg' : Cfg) : Prop :=
    (forall s, next_solution cfg' s = next_solution cfg s) /\ cpi cfg' = cpi cfg /\ dfi cfg' = dfi cfg /\ tsi cfg' = tsi cfg /\
    (forall s, should_continue cfg' s = should_continue cfg s) /\ (forall s, diagnose cfg' s = diagnose cfg s) /\
    (forall s, sample cfg' s = sample cfg s).

  (** Same state and same outputs since the checkpoint, but for the recorded configuration. *)
  Definition follows (cfg' : Cfg) (o0 : list bout) (w w2 : bworld) : Prop :=
    fst w2 = rc cfg' (fst w) /\ exists d, snd w = o0 ++ d /\ snd w2 = map (rco cfg') d.

  Section sim.
    Context (cfg cfg' : Cfg) (HA : agree cfg cfg') (o0 : list bout).
    Definition Rw (w w2 : bworld) : Prop := b_cfg (fst w) = cfg /\ follows cfg' o0 w w2.

    Lemma Rw_intro s s2 o o2 d : b_cfg s = cfg -> s2 = rc cfg' s -> o = o0 ++ d -> o2 = map (rco cfg') d -> Rw (s, o) (s2, o2).
    Proof. intros H1 H2 H3 H4. split; [auto|]. split; [auto|]. exists d. auto. Qed.

    Lemma rel_complete s n (Hc : b_cfg s = cfg) :
      rel_out (fun a b => b = rc cfg' a /\ b_cfg a = cfg) (complete_task_in s n) (complete_task_in (rc cfg' s) n).
    Proof.
      unfold complete_task_in. cbn [rc b_sched b_sol b_series b_cfg]. apply rel_same. intros sc. cbn. auto.
    Qed.

    Lemma sim_diag w w2 : Rw w w2 -> rel_out Rw (t_diagnostics w) (t_diagnostics w2).
    Proof.
      destruct w as [s o], w2 as [s2 o2]. intros [Hc [Hs (d & Ho & Ho2)]]. cbn [fst snd] in *. subst s2.
      unfold ScheduleModel.t_diagnostics. cbn [rc b_sched]. apply rel_same. intros c.
      eapply rel_bind; [apply rel_complete; exact Hc|]. intros a b [-> Ha]. cbn [rel_out].
      apply (Rw_intro _ _ _ _ (d ++ [OutDiagnostics c (diagnose (b_cfg s) (b_sol s))])); auto.
      - rewrite Ho, app_assoc. reflexivity.
      - rewrite Ho2, map_app. cbn. destruct HA as (_ & _ & _ & _ & _ & HD & _). rewrite HD, Hc. reflexivity.
    Qed.

    Lemma sim_series w w2 : Rw w w2 -> rel_out Rw (t_series w) (t_series w2).
    Proof.
      destruct w as [s o], w2 as [s2 o2]. intros [Hc [Hs (d & Ho & Ho2)]]. cbn [fst snd] in *. subst s2.
      unfold ScheduleModel.t_series. cbn [rc b_sched b_sol b_series b_cfg].
      destruct HA as (_ & _ & _ & _ & _ & _ & HS). rewrite HS, <- Hc.
      change (mkb (b_sol s) (b_sched s) (sample (b_cfg s) (b_sol s) :: b_series s) cfg') with
        (rc cfg' (mkb (b_sol s) (b_sched s) (sample (b_cfg s) (b_sol s) :: b_series s) (b_cfg s))).
      eapply rel_bind; [apply rel_complete; exact Hc|]. intros a b [-> Ha]. cbn [rel_out].
      apply (Rw_intro _ _ _ _ d); auto.
    Qed.

    Lemma sim_chk w w2 : Rw w w2 -> rel_out Rw (t_checkpoint w) (t_checkpoint w2).
    Proof.
      destruct w as [s o], w2 as [s2 o2]. intros [Hc [Hs (d & Ho & Ho2)]]. cbn [fst snd] in *. subst s2.
      unfold ScheduleModel.t_checkpoint. cbn [rc b_sched]. apply rel_same. intros c.
      eapply rel_bind; [apply rel_complete; exact Hc|]. intros a b [-> Ha]. cbn [rel_out].
      apply (Rw_intro _ _ _ _ (d ++ [OutCheckpoint c (bwrite a)])); auto.
      - rewrite Ho, app_assoc. reflexivity.
      - rewrite Ho2, map_app. reflexivity.
    Qed.

    Lemma sim_run w w2 : Rw w w2 -> rel_out Rw (brun_tasks w) (brun_tasks w2).
    Proof.
      intros HR. unfold ScheduleModel.brun_tasks, run_scheduled_tasks.
      assert (ES : b_sched (fst w2) = b_sched (fst w)) by (destruct HR as [_ [-> _]]; reflexivity).
      assert (G : forall n f l v v2, (forall a b, Rw a b -> rel_out Rw (f a) (f b)) ->
        (forall a b, Rw a b -> rel_out Rw (run_scheduled sch w l a) (run_scheduled sch w2 l b)) -> Rw v v2 ->
        rel_out Rw (run_scheduled sch w ((n, f) :: l) v) (run_scheduled sch w2 ((n, f) :: l) v2)).
      { intros n f l v v2 Hf Hl Hv. cbn [run_scheduled]. rewrite ES. apply rel_same. intros b.
        eapply rel_bind; [|exact Hl]. destruct b; [apply Hf; exact Hv|exact Hv]. }
      apply G; [apply sim_diag| |exact HR]. intros a b Hab.
      apply G; [apply sim_series| |exact Hab]. clear a b Hab. intros a b Hab.
      apply G; [apply sim_chk| |exact Hab]. clear a b Hab. intros a b Hab. exact Hab.
    Qed.

    Lemma sim_next w w2 : Rw w w2 -> rel_out Rw (bnext w) (bnext w2).
    Proof.
      destruct w as [s o], w2 as [s2 o2]. intros [Hc [Hs (d & Ho & Ho2)]]. cbn [fst snd] in *. subst s2.
      unfold ScheduleModel.bnext. cbn [rc b_sched b_sol b_series b_cfg].
      destruct HA as (HN & Hcp & Hdf & Hts & _). rewrite HN, Hcp, Hdf, Hts, Hc. apply rel_same. intros sol.
      apply rel_same. intros sc. cbn [rel_out]. apply (Rw_intro _ _ _ _ d); auto.
    Qed.

    Lemma sim_loop n : forall w w2, Rw w w2 -> rel_out Rw (bloop n w) (bloop n w2).
    Proof.
      induction n as [|n IH]; intros w w2 HR; [exact HR|]. cbn [ScheduleModel.bloop].
      assert (ES : should_continue (b_cfg (fst w2)) (b_sol (fst w2)) = should_continue (b_cfg (fst w)) (b_sol (fst w))).
      { destruct HR as [Hc [-> _]]. cbn. destruct HA as (_ & _ & _ & _ & HS & _). rewrite HS, Hc. reflexivity. }
      rewrite ES. destruct (should_continue (b_cfg (fst w)) (b_sol (fst w))); [|exact HR].
      eapply rel_bind; [apply sim_next; exact HR|]. intros a b Hab. eapply rel_bind; [apply sim_run; exact Hab|].
      intros a' b' Hab'. apply IH. exact Hab'.
    Qed.
  End sim.

  Lemma bloop_add m k : forall w, bloop (m + k) w = do w' <- bloop m w; bloop k w'.
  Proof.
    induction m as [|m IH]; intros w; [reflexivity|]. cbn [Nat.add ScheduleModel.bloop].
    destruct (should_continue (b_cfg (fst w)) (b_sol (fst w))) eqn:E.
    - destruct (bnext w) as [w1| | |]; try reflexivity. bsimp. destruct (brun_tasks w1) as [w2| | |]; try reflexivity. bsimp. apply IH.
    - bsimp. destruct k; cbn [ScheduleModel.bloop]; rewrite ?E; reflexivity.
  Qed.

  (** Every checkpoint in the outputs was the last output of some round. *)
  Definition good (w : bworld) : Prop := bsched_ok (b_sched (fst w)) /\ none_due (b_sched (fst w)).

  Lemma loop_checkpoints cfg n : forall w w' c f, good w -> b_cfg (fst w) = cfg -> bloop n w = Ok w' ->
    In (OutCheckpoint c f) (snd w') -> In (OutCheckpoint c f) (snd w) \/
    exists m wm pre, m <= n /\ bloop m w = Ok wm /\ good wm /\ b_cfg (fst wm) = cfg /\
      snd wm = pre ++ [OutCheckpoint c f] /\ f = bwrite (fst wm).
  Proof.
    induction n as [|n IH]; intros w w' c f HG Hc HL Hin; cbn [ScheduleModel.bloop] in HL.
    - injection HL as <-. auto.
    - destruct (should_continue (b_cfg (fst w)) (b_sol (fst w))) eqn:ES; [|injection HL as <-; auto].
      destruct (bnext w) as [[s1 o1]| | |] eqn:E1; try discriminate. revert HL; bsimp; intros HL.
      destruct (brun_tasks (s1, o1)) as [[s2 o2]| | |] eqn:E2; try discriminate. revert HL; bsimp; intros HL.
      destruct w as [s o]. destruct HG as [HG1 HG2]. cbn [fst] in *.
      destruct (bnext_ok s o s1 o1 HG1 E1) as (B1 & C1 & ->).
      destruct (brun_facts s1 o s2 o2 B1 E2) as (B2 & N2 & d & Hd & Ho).
      pose proof (task_cfg s1 o s2 o2 B1 E2) as C2.
      destruct (IH (s2, o2) w' c f) as [H|(m & wm & pre & Hm & HLm & HGm & Hcm & Hsm & Hfm)]; auto.
      + split; auto.
      + cbn. congruence.
      + cbn [snd] in H |- *.
        assert (HX : In (OutCheckpoint c f) o \/ exists pre, o2 = pre ++ [OutCheckpoint c f] /\ f = bwrite s2).
        { destruct Ho as [-> | (c' & ->)].
          - apply in_app_iff in H. destruct H as [H|H]; auto. apply Hd in H. discriminate.
          - rewrite !in_app_iff in H. destruct H as [H|[H|[H|[]]]]; auto.
            + apply Hd in H. discriminate.
            + injection H as -> <-. right. exists (o ++ d). rewrite <- app_assoc. auto. }
        destruct HX as [HX|(pre & HX1 & HX2)]; auto. right.
        exists 1, (s2, o2), pre. split; [lia|]. cbn [ScheduleModel.bloop fst snd]. rewrite ES, E1. bsimp. rewrite E2. bsimp.
        split; auto. split; [split; auto|]. split; [congruence|]. auto.
      + right. exists (S m), wm, pre. split; [lia|]. cbn [ScheduleModel.bloop fst]. rewrite ES, E1. bsimp. rewrite E2. bsimp. auto.
  Qed.

  Lemma main_checkpoint cfg sol n w c f : binary_main cfg sol n = Ok w -> In (OutCheckpoint c f) (snd w) ->
    exists m wm pre, m <= n /\ binary_main cfg sol m = Ok wm /\ good wm /\ b_cfg (fst wm) = cfg /\
      snd wm = pre ++ [OutCheckpoint c f] /\ f = bwrite (fst wm).
  Proof.
    unfold ScheduleModel.binary_main. destruct (bschedule tzero tadd) as [sc| | |] eqn:ES; try discriminate. bsimp.
    apply bschedule_ok in ES.
    destruct (brun_tasks (mkb sol sc [] cfg, [])) as [[s1 o1]| | |] eqn:E1; try discriminate. bsimp. intros HL Hin.
    change (bsched_ok (b_sched (mkb (Sample:=Sample) sol sc [] cfg))) in ES. destruct (brun_facts _ _ _ _ ES E1) as (B1 & N1 & d & Hd & Ho). pose proof (task_cfg _ _ _ _ ES E1) as C1. cbn in C1.
    assert (EM : forall m, (do sc <- Ok sc; do w <- brun_tasks (mkb (Sample:=Sample) sol sc [] cfg, []); bloop m w) = bloop m (s1, o1)).
    { intros m. bsimp. rewrite E1. reflexivity. }
    destruct (loop_checkpoints cfg n (s1, o1) w c f) as [H|(m & wm & pre & H1 & H2 & H3)]; auto.
    - split; auto.
    - cbn [snd] in H. destruct Ho as [-> | (c' & ->)]; cbn [app] in H.
      + apply Hd in H. discriminate.
      + rewrite in_app_iff in H. destruct H as [H|[H|[]]]; [apply Hd in H; discriminate|]. injection H as -> <-.
        exists 0, (s1, ([] ++ d) ++ [OutCheckpoint c (bwrite s1)]), ([] ++ d). split; [lia|]. rewrite EM, <- app_assoc.
        cbn [ScheduleModel.bloop snd fst app]. split; auto. split; [split; auto|]. auto.
    - exists m, wm, pre. rewrite EM. tauto.
  Qed.

  Lemma restart_continues cfg sol n w c f cfg' l : binary_main cfg sol n = Ok w -> In (OutCheckpoint c f) (snd w) ->
    agree cfg cfg' -> Permutation l (f_sched f) ->
    exists m wm pre, m <= n /\ binary_main cfg sol m = Ok wm /\ snd wm = pre ++ [OutCheckpoint c f] /\
      bread f l cfg' = rc cfg' (fst wm) /\
      brun_tasks (bread f l cfg', []) = Ok (bread f l cfg', []) /\
      forall k, rel_out (follows cfg' (snd wm)) (binary_main cfg sol (m + k)) (bloop k (bread f l cfg', [])).
  Proof.
    intros HM Hin HA HP. destruct (main_checkpoint cfg sol n w c f HM Hin) as (m & wm & pre & Hm & HMm & [HG1 HG2] & Hc & Hs & Hf).
    exists m, wm, pre. split; auto. split; auto. split; auto.
    assert (ER : bread f l cfg' = rc cfg' (fst wm)).
    { subst f. apply bread_bwrite; auto. }
    split; auto. rewrite ER. split; [apply none_due_noop; auto|]. intros k.
    assert (EM : binary_main cfg sol (m + k) = bloop k wm).
    { unfold ScheduleModel.binary_main in *. destruct (bschedule tzero tadd) as [sc| | |]; try discriminate. revert HMm; bsimp.
      destruct (brun_tasks (mkb sol sc [] cfg, [])) as [w1| | |]; try discriminate. bsimp. intros HMm.
      rewrite bloop_add, HMm. reflexivity. }
    rewrite EM.
    assert (HR : Rw cfg cfg' (snd wm) wm (rc cfg' (fst wm), [])).
    { split; [exact Hc|]. split; [reflexivity|]. exists []. rewrite app_nil_r. auto. }
    pose proof (sim_loop cfg cfg' HA (snd wm) k wm _ HR) as HL. clear -HL.
    destruct (bloop k wm), (bloop k (rc cfg' (fst wm), [])); cbn in *; auto. destruct HL as [_ HL]. exact HL.
  Qed.
End binary.
