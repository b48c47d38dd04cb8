(** Restarting the simple subprograms. *)
From Coq Require Import List Arith Ascii String Bool ZArith Lia Permutation.
From Verif Require Import Base StrModel MapModel MapProofs ScheduleModel ScheduleProofs.
Import ListNotations.
Close Scope Z_scope.
Open Scope nat_scope.

Section simple.
  Context {T : Type} (tadd : T -> T -> T) (tdue : T -> T -> T -> bool).
  Context {Sol Cfg : Type} (next_solution : Cfg -> Sol -> outcome Sol) (time_of : Sol -> T).
  Context (others : list (str * (Cfg -> T))) (cpi : Cfg -> T) (should_continue : Cfg -> Sol -> bool).
  Notation chkn := (lit "write_checkpoint").
  Context (Hother : ~ In chkn (map fst others)).

  Notation sstate := (@sstate T Sol Cfg).
  Notation sout := (@sout T Sol Cfg).
  Notation srun_tasks := (srun_tasks (T := T) (Sol := Sol) others).
  Notation snext := (snext tadd tdue next_solution time_of others cpi).
  Notation sloop := (sloop tadd tdue next_solution time_of others cpi should_continue).

  (** The numbers of the checkpoints among the outputs. *)
  Definition chk_numbers (o : list sout) : list Z :=
    flat_map (fun x => match x with SCheckpoint n _ => [n] | SOther _ _ => [] end) o.
  Lemma chk_numbers_app a b : chk_numbers (a ++ b) = chk_numbers a ++ chk_numbers b.
  Proof. apply flat_map_app. Qed.

  Lemma num_spec n (s : schedule T) c : num_times_performed n s = Ok c <-> exists t, mfind n s = Some t /\ t_count t = c.
  Proof.
    unfold num_times_performed, sat. destruct (mfind n s) as [t|]; bsimp.
    - split; [intros H; exists t; split; congruence|]. intros (t' & H & <-). congruence.
    - split; [discriminate|]. intros (t' & H & _). discriminate.
  Qed.

  Definition cnt (k : str) (s : schedule T) (c : Z) : Prop := msorted s /\ num_times_performed k s = Ok c.

  Lemma mark_tasks_count l : forall cur time next r k c, mark_tasks tadd tdue cur time l next = Ok r ->
    cnt k next c -> cnt k r c.
  Proof.
    induction l as [|[n i] l IH]; intros cur time next r k c H HC; cbn [mark_tasks] in H.
    - injection H as <-. exact HC.
    - destruct (last_performed n cur); try discriminate. revert H; bsimp; intros H.
      destruct (tdue time a i).
      + unfold mark_as_due, sat in H. destruct (mfind n next) as [t|] eqn:E; try discriminate. revert H; bsimp; intros H.
        apply (IH _ _ _ _ k c H). destruct HC as [HS HC]. split; [apply mset_sorted; auto|].
        apply num_spec in HC. destruct HC as (t' & F & C). apply num_spec.
        destruct (str_dec k n) as [->|Hne].
        * rewrite mfind_mset_eq. eexists. split; [reflexivity|]. cbn. congruence.
        * rewrite mfind_mset_neq by auto. eauto.
      + revert H; bsimp; intros H. apply (IH _ _ _ _ k c H HC).
  Qed.

  Lemma snext_count s s' c : snext s = Ok s' -> cnt chkn (s_sched s) c -> cnt chkn (s_sched s') c.
  Proof.
    unfold ScheduleModel.snext. destruct (next_solution (s_cfg s) (s_sol s)); try discriminate. bsimp.
    destruct (mark_tasks_in tadd tdue _ _ _) as [sc| | |] eqn:E; try discriminate. bsimp. intros H HC. injection H as <-.
    cbn. eapply mark_tasks_count; eauto.
  Qed.

  Lemma complete_count n (s r : schedule T) k c : mark_as_completed n s = Ok r -> cnt k s c ->
    cnt k r (if str_dec k n then c + 1 else c)%Z.
  Proof.
    intros H [HS HC]. apply mark_as_completed_inv in H. destruct H as (t & F & ->). split; [apply mset_sorted; auto|]. apply num_spec in HC. destruct HC as (t' & F' & C).
    apply num_spec. destruct (str_dec k n) as [->|Hne].
    - rewrite mfind_mset_eq. eexists. split; [reflexivity|]. cbn. assert (t = t') by congruence. subst. reflexivity.
    - rewrite mfind_mset_neq by auto. eauto.
  Qed.

  Lemma others_count (s : sstate) l : (forall e, In e l -> fst e <> chkn) -> forall w w' c,
    foldM (fun w (e : str * (Cfg -> T)) => stask s (fst e) (SOther (fst e)) w) w l = Ok w' ->
    cnt chkn (fst w) c ->
    cnt chkn (fst w') c /\ exists d, snd w' = snd w ++ d /\ chk_numbers d = [].
  Proof.
    induction l as [|e l IH]; intros HN w w' c H HC; cbn [foldM] in H.
    - injection H as <-. split; auto. exists []. rewrite app_nil_r. auto.
    - destruct (stask s (fst e) (SOther (fst e)) w) as [w1| | |] eqn:E; try discriminate. revert H; bsimp; intros H.
      unfold stask in E. destruct (is_due (fst e) (s_sched s)) as [b| | |]; try discriminate. revert E; bsimp; intros E.
      destruct b.
      + destruct (num_times_performed (fst e) (s_sched s)) as [ce| | |]; try discriminate. revert E; bsimp; intros E.
        destruct (mark_as_completed (fst e) (fst w)) as [sc| | |] eqn:EM; try discriminate. revert E; bsimp; intros E.
        injection E as <-. destruct (IH (fun x Hx => HN x (or_intror Hx)) _ _ c H) as (H1 & d & Hd & Hk).
        * cbn [fst]. pose proof (complete_count _ _ _ chkn c EM HC) as HX.
          destruct (str_dec chkn (fst e)) as [X|]; auto. exfalso. apply (HN e (or_introl eq_refl)). auto.
        * split; auto. cbn [snd] in Hd. exists ([SOther (fst e) ce] ++ d). rewrite app_assoc. split; auto.
      + injection E as <-. apply (IH (fun x Hx => HN x (or_intror Hx)) _ _ c H HC).
  Qed.

  Lemma srun_count s s' o c : srun_tasks s = Ok (s', o) -> cnt chkn (s_sched s) c ->
    exists k, chk_numbers o = map (fun i => (c + Z.of_nat i)%Z) (seq 0 k) /\
      cnt chkn (s_sched s') (c + Z.of_nat k)%Z.
  Proof.
    unfold ScheduleModel.srun_tasks. intros H [HSo HC].
    destruct (stask s chkn (fun c => SCheckpoint c (swrite s)) (s_sched s, [])) as [w1| | |] eqn:E1; try discriminate.
    revert H; bsimp; intros H.
    match type of H with bind ?x _ = _ => destruct x as [w2| | |] eqn:E2 end; try discriminate. revert H; bsimp; intros H.
    injection H as <- <-. cbn [s_sched].
    assert (HN : forall e, In e others -> fst e <> chkn).
    { intros e He X. apply Hother. rewrite <- X. apply in_map. exact He. }
    unfold stask in E1. unfold num_times_performed in HC. unfold is_due in E1.
    destruct (sat chkn (s_sched s)) as [t| | |] eqn:ES; try discriminate. revert E1 HC; bsimp; intros E1 HC. injection HC as <-.
    assert (HC : num_times_performed chkn (s_sched s) = Ok (t_count t)) by (unfold num_times_performed; rewrite ES; reflexivity).
    destruct (t_due t).
    - rewrite HC in E1. revert E1; bsimp; intros E1. cbn [fst snd] in E1.
      destruct (mark_as_completed chkn (s_sched s)) as [sc| | |] eqn:EM; try discriminate. revert E1; bsimp; intros E1.
      injection E1 as <-. pose proof (complete_count _ _ _ chkn _ EM (conj HSo HC)) as HX.
      destruct (str_dec chkn chkn) as [_|X]; [|congruence].
      destruct (others_count s others HN _ _ _ E2 HX) as (H1 & d & Hd & Hk).
      exists 1. split.
      + rewrite Hd. cbn [snd app]. change (chk_numbers (SCheckpoint (t_count t) (swrite s) :: d)) with ([t_count t] ++ chk_numbers d).
        rewrite Hk. cbn. f_equal. lia.
      + exact H1.
    - injection E1 as <-. destruct (others_count s others HN _ _ _ E2 (conj HSo HC)) as (H1 & d & Hd & Hk).
      exists 0. split.
      + rewrite Hd. cbn [snd app]. rewrite Hk. reflexivity.
      + rewrite Z.add_0_r. exact H1.
  Qed.

  Lemma seq_shift_map k1 k2 c : map (fun i => (c + Z.of_nat i)%Z) (seq 0 (k1 + k2)) =
    map (fun i => (c + Z.of_nat i)%Z) (seq 0 k1) ++ map (fun i => (c + Z.of_nat k1 + Z.of_nat i)%Z) (seq 0 k2).
  Proof.
    rewrite seq_app, map_app. f_equal. cbn [Nat.add].
    assert (G : forall k2 a, map (fun i => (c + Z.of_nat i)%Z) (seq (k1 + a) k2) =
      map (fun i => (c + Z.of_nat k1 + Z.of_nat i)%Z) (seq a k2)).
    { clear. induction k2 as [|k2 IH]; intros a; cbn; auto. f_equal; [lia|].
      replace (S (k1 + a)) with (k1 + S a) by lia. apply IH. }
    rewrite <- (G k2 0), Nat.add_0_r. reflexivity.
  Qed.

  (** Checkpoints are numbered consecutively from the count at the start. *)
  Lemma sloop_numbers n : forall s o s' o' c, sloop n (s, o) = Ok (s', o') -> cnt chkn (s_sched s) c ->
    exists d k, o' = o ++ d /\ chk_numbers d = map (fun i => (c + Z.of_nat i)%Z) (seq 0 k) /\
      cnt chkn (s_sched s') (c + Z.of_nat k)%Z.
  Proof.
    induction n as [|n IH]; intros s o s' o' c H HC; cbn [ScheduleModel.sloop] in H.
    - injection H as <- <-. exists [], 0. rewrite app_nil_r, Z.add_0_r. auto.
    - cbn [fst snd] in H. destruct (should_continue (s_cfg s) (s_sol s)).
      + destruct (snext s) as [s1| | |] eqn:E1; try discriminate. revert H; bsimp; intros H.
        destruct (srun_tasks s1) as [[s2 o2]| | |] eqn:E2; try discriminate. revert H; bsimp; intros H. cbn [fst snd] in H.
        pose proof (snext_count _ _ _ E1 HC) as C1. destruct (srun_count _ _ _ _ E2 C1) as (k1 & N1 & C2).
        destruct (IH _ _ _ _ _ H C2) as (d & k2 & -> & N2 & C3). exists (o2 ++ d), (k1 + k2).
        rewrite app_assoc. split; auto. split.
        * rewrite chk_numbers_app, N1, N2, seq_shift_map. reflexivity.
        * replace (c + Z.of_nat (k1 + k2))%Z with (c + Z.of_nat k1 + Z.of_nat k2)%Z by lia. exact C3.
      + injection H as <- <-. exists [], 0. rewrite app_nil_r, Z.add_0_r. auto.
  Qed.

  (** The state read back. *)
  Lemma sread_find (s : sstate) l cfg : msorted (s_sched s) -> Forall (fun e => t_name (snd e) = fst e) (s_sched s) ->
    Permutation l (sf_sched (swrite s)) -> forall k,
    mfind k (s_sched (sread (swrite s) l cfg)) =
      option_map (fun t => mktask (t_name t) (t_count t) (t_last t) false) (mfind k (s_sched s)).
  Proof.
    intros HS HN HP k. unfold sread. cbn [s_sched]. rewrite (read_write_schedule (s_sched s) l HS HN HP).
    apply (mfind_map (fun t => mktask (t_name t) (t_count t) (t_last t) false)).
  Qed.

  (** Nothing is due after reading, so nothing is run. *)
  Lemma sread_noop (s : sstate) l cfg : msorted (s_sched s) -> Forall (fun e => t_name (snd e) = fst e) (s_sched s) ->
    (forall n, In n (chkn :: map fst others) -> registered n (s_sched s)) ->
    Permutation l (sf_sched (swrite s)) ->
    srun_tasks (sread (swrite s) l cfg) = Ok (sread (swrite s) l cfg, []).
  Proof.
    intros HS HN HR HP. set (r := sread (swrite s) l cfg).
    assert (HD : forall n mk w, registered n (s_sched s) -> stask r n mk w = Ok w).
    { intros n mk w Hn. unfold stask, is_due, sat. unfold r. rewrite (sread_find s l cfg HS HN HP).
      unfold registered in Hn. destruct (mfind n (s_sched s)); [|congruence]. reflexivity. }
    unfold ScheduleModel.srun_tasks. rewrite HD by (apply HR; left; reflexivity). bsimp.
    assert (HF : forall ls w, (forall e, In e ls -> In e others) ->
      foldM (fun w (e : str * (Cfg -> T)) => stask r (fst e) (SOther (fst e)) w) w ls = Ok w).
    { induction ls as [|e ls IH]; intros w HI; [reflexivity|]. cbn [foldM].
      rewrite HD by (apply HR; right; apply in_map; apply HI; left; reflexivity). bsimp. apply IH. intros x Hx. apply HI. right. auto. }
    rewrite HF by auto. bsimp. unfold r, sread. reflexivity.
  Qed.

  (** A checkpoint written by run_tasks holds the state before the tasks were marked as completed. *)
  Lemma srun_written s s' o c f : srun_tasks s = Ok (s', o) -> In (SCheckpoint c f) o ->
    f = swrite s /\ num_times_performed chkn (s_sched s) = Ok c.
  Proof.
    unfold ScheduleModel.srun_tasks. intros H Hin.
    destruct (stask s chkn (fun c => SCheckpoint c (swrite s)) (s_sched s, [])) as [w1| | |] eqn:E1; try discriminate.
    revert H; bsimp; intros H.
    match type of H with bind ?x _ = _ => destruct x as [w2| | |] eqn:E2 end; try discriminate. revert H; bsimp; intros H.
    injection H as <- <-.
    assert (G : forall l w w', foldM (fun w (e : str * (Cfg -> T)) => stask s (fst e) (SOther (fst e)) w) w l = Ok w' ->
      In (SCheckpoint c f) (snd w') -> In (SCheckpoint c f) (snd w)).
    { clear. induction l as [|e l IH]; intros w w' H Hin; cbn [foldM] in H; [injection H as <-; auto|].
      destruct (stask s (fst e) (SOther (fst e)) w) as [w1| | |] eqn:E; try discriminate. revert H; bsimp; intros H.
      apply (IH _ _ H) in Hin. unfold stask in E. destruct (is_due (fst e) (s_sched s)) as [[|]| | |]; try discriminate.
      - revert E; bsimp. destruct (num_times_performed (fst e) (s_sched s)); try discriminate. bsimp.
        destruct (mark_as_completed (fst e) (fst w)); try discriminate. bsimp. intros E. injection E as <-. cbn [snd] in Hin.
        apply in_app_iff in Hin. destruct Hin as [Hin|[Hin|[]]]; auto. discriminate.
      - revert E; bsimp. intros E. injection E as <-. exact Hin. }
    apply (G _ _ _ E2) in Hin. unfold stask in E1.
    destruct (is_due chkn (s_sched s)) as [[|]| | |]; try discriminate.
    - revert E1; bsimp. destruct (num_times_performed chkn (s_sched s)) as [c'| | |] eqn:EN; try discriminate. bsimp.
      destruct (mark_as_completed _ _); try discriminate. bsimp. intros E. injection E as <-. cbn [snd app] in Hin.
      destruct Hin as [Hin|[]]. injection Hin as <- <-. auto.
    - revert E1; bsimp. intros E. injection E as <-. destruct Hin.
  Qed.
End simple.
