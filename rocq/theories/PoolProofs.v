(** Thread pool: invariants, progress, stopping. *)
From Coq Require Import List Arith Bool Lia Permutation.
From Verif Require Import Base TreeModel PoolModel.
Import ListNotations.
Close Scope Z_scope.
Open Scope nat_scope.

Lemma split_worker {A} (ws : list A) k w : nth_error ws k = Some w ->
  exists l1 l2, ws = l1 ++ w :: l2 /\ length l1 = k /\ forall w', set_nth k w' ws = l1 ++ w' :: l2.
Proof.
  revert k. induction ws as [|x ws IH]; intros [|k] H; try discriminate.
  - injection H as ->. exists [], ws. auto.
  - simpl in H. destruct (IH k H) as (l1 & l2 & -> & HL & HS). exists (x :: l1), l2.
    split; [reflexivity|]. split; [simpl; lia|]. intros w'. simpl. rewrite HS. reflexivity.
Qed.

Lemma set_nth_other {A} (a : A) l : forall n k, k <> n -> nth_error (set_nth n a l) k = nth_error l k.
Proof. induction l; intros [|n] [|k] H; simpl; auto; congruence. Qed.

(** Tasks being run, and tasks taken but not completed. *)
Definition in_run (w : wstate) : list nat := match w with WRunning n => [n] | _ => [] end.
Definition held (w : wstate) : list nat := match w with WRunning n | WFinishing n => [n] | _ => [] end.
Definition active (w : wstate) : Prop := match w with WTop | WRunning _ | WFinishing _ => True | _ => False end.

Lemma flat_mid {A C} (f : A -> list C) l1 a l2 :
  Permutation (flat_map f (l1 ++ a :: l2)) (f a ++ flat_map f (l1 ++ l2)).
Proof.
  rewrite !flat_map_app. cbn [flat_map]. rewrite !app_assoc. apply Permutation_app_tail. apply Permutation_app_comm.
Qed.

Lemma erase_tag_in n l : In n l -> exists r, erase_tag n l = Some r /\ Permutation l (n :: r).
Proof.
  induction l as [|m l IH]; intros H; [destruct H|]. cbn [erase_tag].
  destruct (Nat.eqb_spec m n) as [->|Hne]; [exists l; auto|].
  destruct H as [H|H]; [congruence|]. destruct (IH H) as (r & -> & HP). exists (m :: r). split; auto.
  rewrite HP. apply perm_swap.
Qed.

Record inv {B} (body : nat -> B) (s : pool B) : Prop := {
  i_fifo : started s ++ pending s = seq 0 (enqueued s);
  i_done : Permutation (started s) (map fst (promises s) ++ flat_map in_run (workers s));
  i_held : Permutation (running s) (flat_map held (workers s));
  i_val : Forall (fun p => snd p = body (fst p)) (promises s);
  i_ub : ub s = false;
  i_idle : caller s = CIdle -> stop s = true -> Forall (fun w => w = WExited) (workers s);
  i_stop : caller s <> CIdle -> stop s = true;
  i_lock : In WChecked (workers s) -> pending s = [];
  i_act : pending s = [] \/ workers s = [] \/ (exists w, In w (workers s) /\ active w) \/ In WExited (workers s);
  i_exit : In WExited (workers s) -> stop s = true;
  i_late : late s = false -> In WExited (workers s) -> pending s = []
}.

Lemma notify_one_split ws ws' : notify_one ws ws' ->
  ws' = ws \/ exists l1 l2, ws = l1 ++ WBlocked :: l2 /\ ws' = l1 ++ WTop :: l2.
Proof.
  intros [(k & Hk & ->)|[_ ->]]; auto. right. destruct (split_worker ws k _ Hk) as (l1 & l2 & -> & _ & HS).
  exists l1, l2. auto.
Qed.

Lemma flat_swap {C} (f : wstate -> list C) l1 l2 a b : f a = f b ->
  flat_map f (l1 ++ a :: l2) = flat_map f (l1 ++ b :: l2).
Proof. intros E. rewrite !flat_map_app. cbn [flat_map]. rewrite E. reflexivity. Qed.

Lemma notify_all_flat {C} (f : wstate -> list C) ws : f WBlocked = f WTop ->
  flat_map f (notify_all ws) = flat_map f ws.
Proof. intros E. unfold notify_all. induction ws as [|[] ws IH]; cbn; rewrite ?IH, ?E; reflexivity. Qed.

Lemma in_mid {A} (x a : A) l1 l2 : In x (l1 ++ a :: l2) <-> x = a \/ In x (l1 ++ l2).
Proof. rewrite !in_app_iff. simpl. intuition congruence. Qed.

Ltac mid := repeat (rewrite in_mid in * || rewrite in_app_iff in *).

Lemma init_inv {B} (body : nat -> B) n : inv body (init n).
Proof.
  assert (HR : forall w, In w (repeat WTop n) -> w = WTop) by (intros w H; apply repeat_spec in H; exact H).
  assert (HF : forall (f : wstate -> list nat), f WTop = [] -> flat_map f (repeat WTop n) = []).
  { clear. intros f E. induction n; cbn; rewrite ?E; auto. }
  split; cbn; auto; try (rewrite HF; auto; fail); try discriminate; try congruence.
  intros H. apply HR in H. discriminate.
Qed.

Lemma step_inv {B} (body : nat -> B) l s s' : inv body s -> step body l s s' -> inv body s'.
Proof.
  intros I H. destruct I as [I1 I2 I3 I4 I5 I6 I7 I8 I9 I10 I11].
  destruct H as [s ws Hm Hn|s k Hk Hm Hs Hp|s k Hk|s k Hk Hm Hs Hp|s k n r Hk Hm Hp|s k n Hk|s k n Hk Hm|s k Hk
                |s Hc Hs|s Hc|s Hc Hw|s n Hc Hs];
    try (destruct (split_worker _ _ _ Hk) as (l1 & l2 & EW & _ & HS));
    unfold set_worker in *; unfold mutex_free in *;
    cbn [stop pending running workers caller enqueued started promises late ub] in *;
    rewrite ?HS.
  - (* enqueue *)
    apply notify_one_split in Hn as HN.
    split; cbn [stop pending running workers caller enqueued started promises late ub]; auto.
    + rewrite app_assoc, I1, seq_S. reflexivity.
    + destruct HN as [->|(l1 & l2 & E & ->)]; auto. rewrite E in I2. rewrite (flat_swap in_run _ _ WTop WBlocked); auto.
    + destruct HN as [->|(l1 & l2 & E & ->)]; auto. rewrite E in I3. rewrite (flat_swap held _ _ WTop WBlocked); auto.
    + intros Hc Hs. specialize (I6 Hc Hs). destruct HN as [->|(l1 & l2 & E & ->)]; auto.
      rewrite E in I6. rewrite Forall_app in I6. destruct I6 as [_ I6]. inversion I6; discriminate.
    + intros Hin. exfalso. destruct HN as [->|(l1 & l2 & E & ->)]; auto.
      apply Hm. rewrite E. mid. intuition discriminate.
    + right. destruct Hn as [(k & Hk & ->)|[Hb ->]].
      * right. left. destruct (split_worker _ _ _ Hk) as (l1 & l2 & _ & _ & ->). exists WTop. split; [mid; auto|exact I].
      * destruct (workers s) as [|w ws]; auto. right.
        destruct w; try (left; eexists; split; [left; reflexivity|exact I]).
        -- exfalso. apply Hm. left. reflexivity.
        -- exfalso. apply Hb. left. reflexivity.
        -- right. left. reflexivity.
    + intros Hin. apply I10. destruct HN as [->|(l1 & l2 & E & ->)]; auto.
      rewrite E. mid. intuition discriminate.
    + intros HL Hin. exfalso. apply orb_false_iff in HL. destruct HL as [_ HL].
      rewrite I10 in HL; [discriminate|]. destruct HN as [->|(l1 & l2 & E & ->)]; auto.
      rewrite E. mid. intuition discriminate.
  - (* check *)
    rewrite EW in *. split; cbn [stop pending running workers caller enqueued started promises late ub]; auto.
    + rewrite (flat_swap in_run _ _ WChecked WTop); auto.
    + rewrite (flat_swap held _ _ WChecked WTop); auto.
    + congruence.
    + intros Hin. apply I10. mid. intuition discriminate.
  - (* sleep *)
    rewrite EW in *. split; cbn [stop pending running workers caller enqueued started promises late ub]; auto.
    + rewrite (flat_swap in_run _ _ WBlocked WChecked); auto.
    + rewrite (flat_swap held _ _ WBlocked WChecked); auto.
    + intros Hc Hs. specialize (I6 Hc Hs). rewrite Forall_app in I6. destruct I6 as [_ I6]. inversion I6; discriminate.
    + intros Hin. apply I8. mid. auto.
    + left. apply I8. mid. auto.
    + intros Hin. apply I10. mid. intuition discriminate.
    + intros HL Hin. apply I8. mid. auto.
  - (* exit *)
    rewrite EW in *. split; cbn [stop pending running workers caller enqueued started promises late ub]; auto.
    + rewrite (flat_swap in_run _ _ WExited WTop); auto.
    + rewrite (flat_swap held _ _ WExited WTop); auto.
    + intros Hc _. specialize (I6 Hc Hs). rewrite Forall_app in *. destruct I6 as [Ha Hb]. split; auto.
      inversion Hb; subst; constructor; auto.
  - (* take *)
    rewrite EW in *. split; cbn [stop pending running workers caller enqueued started promises late ub]; auto.
    + rewrite <- app_assoc. cbn [app]. rewrite <- Hp. exact I1.
    + rewrite I2, (flat_mid in_run l1 WTop), (flat_mid in_run l1 (WRunning n)). cbn [in_run app].
      rewrite <- app_assoc. apply Permutation_app_head. apply Permutation_sym, Permutation_cons_append.
    + rewrite I3, (flat_mid held l1 WTop), (flat_mid held l1 (WRunning n)). cbn [held app].
      apply Permutation_sym, Permutation_cons_append.
    + intros Hc Hs. specialize (I6 Hc Hs). rewrite Forall_app in I6. destruct I6 as [_ I6]. inversion I6; discriminate.
    + intros Hin. exfalso. apply Hm. mid. intuition discriminate.
    + right. right. left. exists (WRunning n). split; [mid; auto|exact I].
    + intros Hin. apply I10. mid. intuition discriminate.
    + intros HL Hin. rewrite I11 in Hp; [discriminate|auto|]. mid. intuition discriminate.
  - (* run *)
    rewrite EW in *. split; cbn [stop pending running workers caller enqueued started promises late ub]; auto.
    + rewrite I2, map_app, (flat_mid in_run l1 (WRunning n)), (flat_mid in_run l1 (WFinishing n)). cbn [in_run app map fst].
      rewrite <- app_assoc. reflexivity.
    + rewrite (flat_swap held _ _ (WFinishing n) (WRunning n)); auto.
    + apply Forall_app. split; auto.
    + intros Hc Hs. specialize (I6 Hc Hs). rewrite Forall_app in I6. destruct I6 as [_ I6]. inversion I6; discriminate.
    + intros Hin. apply I8. mid. intuition discriminate.
    + right. right. left. exists (WFinishing n). split; [mid; auto|exact I].
    + intros Hin. apply I10. mid. intuition discriminate.
    + intros HL Hin. apply I11; auto. mid. intuition discriminate.
  - (* complete *)
    rewrite EW in *. rewrite (flat_mid held l1 (WFinishing n)) in I3. cbn [held app] in I3.
    destruct (erase_tag_in n (running s)) as (r & Er & HP).
    { eapply Permutation_in; [symmetry; exact I3|left; reflexivity]. }
    rewrite Er. split; cbn [stop pending running workers caller enqueued started promises late ub]; auto.
    + rewrite (flat_swap in_run _ _ WTop (WFinishing n)); auto.
    + rewrite (flat_mid held l1 WTop). cbn [held app]. rewrite HP in I3. apply Permutation_cons_inv in I3. exact I3.
    + rewrite I5. reflexivity.
    + intros Hc Hs. specialize (I6 Hc Hs). rewrite Forall_app in I6. destruct I6 as [_ I6]. inversion I6; discriminate.
    + intros Hin. apply I8. mid. intuition discriminate.
    + right. right. left. exists WTop. split; [mid; auto|exact I].
    + intros Hin. apply I10. mid. intuition discriminate.
    + intros HL Hin. apply I11; auto. mid. intuition discriminate.
  - (* spurious *)
    rewrite EW in *. split; cbn [stop pending running workers caller enqueued started promises late ub]; auto.
    + rewrite (flat_swap in_run _ _ WTop WBlocked); auto.
    + rewrite (flat_swap held _ _ WTop WBlocked); auto.
    + intros Hc Hs. specialize (I6 Hc Hs). rewrite Forall_app in I6. destruct I6 as [_ I6]. inversion I6; discriminate.
    + intros Hin. apply I8. mid. intuition discriminate.
    + right. right. left. exists WTop. split; [mid; auto|exact I].
    + intros Hin. apply I10. mid. intuition discriminate.
    + intros HL Hin. apply I11; auto. mid. intuition discriminate.
  - (* stop *)
    split; cbn [stop pending running workers caller enqueued started promises late ub]; auto. discriminate.
  - (* notify *)
    assert (Hin : forall w, w <> WTop -> w <> WBlocked -> In w (notify_all (workers s)) -> In w (workers s)).
    { intros w H1 H2 H. apply in_map_iff in H. destruct H as (w' & E & H). destruct w'; cbn in E; subst; auto; congruence. }
    split; cbn [stop pending running workers caller enqueued started promises late ub]; auto.
    + rewrite notify_all_flat; auto.
    + rewrite notify_all_flat; auto.
    + discriminate.
    + intros _. apply I7. congruence.
    + intros H. apply I8. apply Hin; auto; discriminate.
    + destruct I9 as [I9|[I9|[(w & Hw & Ha)|I9]]]; auto.
      * right. left. rewrite I9. reflexivity.
      * right. right. left. exists (wake w). split; [apply in_map; exact Hw|destruct w; cbn in *; tauto].
      * right. right. right. change WExited with (wake WExited). apply in_map. exact I9.
    + intros H. apply I10. apply Hin; auto; discriminate.
    + intros HL H. apply I11; auto. apply Hin; auto; discriminate.
  - (* join *)
    split; cbn [stop pending running workers caller enqueued started promises late ub]; auto; try congruence.
    intros _ _. apply Forall_forall. exact Hw.
  - (* restart *)
    specialize (I6 Hc Hs).
    assert (HF : forall f : wstate -> list nat, f WTop = [] -> flat_map f (repeat WTop n) = []).
    { clear. intros f E. induction n; cbn; rewrite ?E; auto. }
    assert (HE : forall f : wstate -> list nat, f WExited = [] -> flat_map f (workers s) = []).
    { intros f E. clear -I6 E. induction I6 as [|w ws -> _ IH]; cbn; rewrite ?E; auto. }
    assert (HR : forall w, In w (repeat WTop n) -> w = WTop) by (intros w H; apply repeat_spec in H; exact H).
    split; cbn [stop pending running workers caller enqueued started promises late ub]; auto; try discriminate; try congruence;
      try (intros H; apply HR in H; discriminate); try (intros _ H; apply HR in H; discriminate).
    + rewrite HF by reflexivity. rewrite HE in I2 by reflexivity. exact I2.
    + rewrite HF by reflexivity. rewrite HE in I3 by reflexivity. exact I3.
    + destruct n; [auto|]. right. right. left. exists WTop. split; [left; reflexivity|exact I].
Qed.

Lemma exec_inv {B} (body : nat -> B) ls s s' : inv body s -> exec body ls s s' -> inv body s'.
Proof. intros I H. revert I. induction H; eauto using step_inv. Qed.

Lemma reachable_inv {B} (body : nat -> B) s : reachable body s -> inv body s.
Proof. intros (n & ls & H). eapply exec_inv; [apply init_inv|exact H]. Qed.

Lemma exec_app {B} (body : nat -> B) l1 : forall l2 s1 s2 s3,
  exec body l1 s1 s2 -> exec body l2 s2 s3 -> exec body (l1 ++ l2) s1 s3.
Proof. induction l1; intros l2 s1 s2 s3 H1 H2; inversion H1; subst; auto. econstructor; eauto. Qed.

Lemma reachable_exec {B} (body : nat -> B) ls s s' : reachable body s -> exec body ls s s' -> reachable body s'.
Proof. intros (n & l0 & H) H'. exists n, (l0 ++ ls). eapply exec_app; eauto. Qed.

(** ** Progress *)

(** Moves of the workers, and the return of the joins; no new tasks, no new requests. *)
Definition internal (l : label) : bool := match l with LWorker _ | LSpurious _ | LJoin => true | _ => false end.
Definition spurious (l : label) : bool := match l with LSpurious _ => true | _ => false end.

Definition wt (w : wstate) : nat :=
  match w with WTop => 2 | WChecked => 1 | WBlocked => 0 | WRunning _ => 4 | WFinishing _ => 3 | WExited => 0 end.
Definition work {B} (s : pool B) : nat :=
  3 * length (pending s) + list_sum (map wt (workers s)) + match caller s with CJoin => 1 | _ => 0 end.

Lemma sum_mid l1 a l2 : list_sum (map wt (l1 ++ a :: l2)) = wt a + list_sum (map wt (l1 ++ l2)).
Proof. rewrite !map_app, !list_sum_app. cbn [map]. change (list_sum (wt a :: map wt l2)) with (wt a + list_sum (map wt l2)). lia. Qed.

Lemma step_work {B} (body : nat -> B) l s s' : step body l s s' -> internal l = true ->
  if spurious l then work s' = work s + 2 else work s' < work s.
Proof.
  intros H HI. destruct H; try discriminate; cbn [spurious];
    try (match goal with Hk : nth_error _ _ = Some _ |- _ =>
      destruct (split_worker _ _ _ Hk) as (l1 & l2 & EW & _ & HS) end);
    unfold work, set_worker; cbn [pending workers caller]; rewrite ?HS, ?EW, ?sum_mid; cbn [wt]; try lia.
  - rewrite H1. cbn [length]. lia.
  - rewrite H. lia.
Qed.

Lemma exec_work {B} (body : nat -> B) ls s s' : exec body ls s s' -> forallb internal ls = true ->
  length ls + work s' <= work s + 3 * length (filter spurious ls).
Proof.
  induction 1 as [|l ls s s1 s2 H HE IH]; intros HF; [simpl; lia|].
  cbn [forallb] in HF. apply andb_true_iff in HF. destruct HF as [H1 H2]. specialize (IH H2).
  pose proof (step_work body l s s1 H H1) as HW. cbn [filter length]. destruct (spurious l); cbn [length]; lia.
Qed.

(** A state in which no worker can move without being woken. *)
Definition quiet {B} (body : nat -> B) (s : pool B) : Prop := forall k s', ~ step body (LWorker k) s s'.

Lemma quiet_workers {B} (body : nat -> B) s : quiet body s ->
  Forall (fun w => w = WBlocked \/ w = WExited) (workers s).
Proof.
  intros Q.
  assert (HC : ~ In WChecked (workers s)).
  { intros H. apply In_nth_error in H. destruct H as [k Hk]. eapply Q. apply (s_sleep body s k Hk). }
  apply Forall_forall. intros w Hw. apply In_nth_error in Hw as Hk. destruct Hk as [k Hk]. destruct w; auto; exfalso.
  - destruct (pending s) as [|n r] eqn:EP.
    + destruct (stop s) eqn:ES.
      * eapply Q. apply (s_exit body s k); auto.
      * eapply Q. apply (s_check body s k); auto.
    + eapply Q. eapply (s_take body s k n r); auto.
  - auto.
  - eapply Q. apply (s_run body s k n Hk).
  - eapply Q. apply (s_complete body s k n); auto.
Qed.

Lemma forall_flat_nil {A C} (f : A -> list C) ws : Forall (fun w => f w = []) ws -> flat_map f ws = [].
Proof. induction 1 as [|w ws E _ IH]; cbn; rewrite ?E, ?IH; auto. Qed.

Lemma quiet_done {B} (body : nat -> B) s : inv body s -> quiet body s -> stop s = false -> workers s <> [] ->
  pending s = [] /\ running s = [] /\ Permutation (map fst (promises s)) (seq 0 (enqueued s)).
Proof.
  intros I Q Hs Hw. apply quiet_workers in Q. destruct I as [I1 I2 I3 I4 I5 I6 I7 I8 I9 I10 I11].
  assert (HB : Forall (fun w => w = WBlocked) (workers s)).
  { rewrite Forall_forall in *. intros w H. destruct (Q w H) as [->| ->]; auto.
    specialize (I10 H). congruence. }
  assert (EP : pending s = []).
  { destruct I9 as [I9|[I9|[(w & H & Ha)|I9]]]; auto; try congruence.
    - rewrite Forall_forall in HB. rewrite (HB w H) in Ha. destruct Ha.
    - rewrite Forall_forall in HB. apply HB in I9. discriminate. }
  assert (E1 : flat_map in_run (workers s) = []).
  { apply forall_flat_nil. eapply Forall_impl; [|exact HB]. intros w ->. reflexivity. }
  assert (E2 : flat_map held (workers s) = []).
  { apply forall_flat_nil. eapply Forall_impl; [|exact HB]. intros w ->. reflexivity. }
  rewrite EP, app_nil_r in I1. rewrite E1, app_nil_r in I2. rewrite E2 in I3.
  split; auto. split; [apply Permutation_nil; symmetry; exact I3|]. rewrite <- I1, <- I2. reflexivity.
Qed.

(** ** Stopping *)

Lemma all_exited_done {B} (body : nat -> B) s : inv body s -> late s = false -> workers s <> [] ->
  (forall w, In w (workers s) -> w = WExited) ->
  pending s = [] /\ running s = [] /\ Permutation (map fst (promises s)) (seq 0 (enqueued s)).
Proof.
  intros I HL Hw HE. destruct I as [I1 I2 I3 I4 I5 I6 I7 I8 I9 I10 I11].
  assert (EP : pending s = []).
  { apply I11; auto. destruct (workers s) as [|w ws]; [congruence|]. left. apply HE. left. reflexivity. }
  assert (E1 : flat_map in_run (workers s) = []).
  { apply forall_flat_nil. apply Forall_forall. intros w H. rewrite (HE w H). reflexivity. }
  assert (E2 : flat_map held (workers s) = []).
  { apply forall_flat_nil. apply Forall_forall. intros w H. rewrite (HE w H). reflexivity. }
  rewrite EP, app_nil_r in I1. rewrite E1, app_nil_r in I2. rewrite E2 in I3.
  split; auto. split; [apply Permutation_nil; symmetry; exact I3|]. rewrite <- I1, <- I2. reflexivity.
Qed.

(** No worker asleep or about to sleep, and stopping: stays so. *)
Definition awake {B} (s : pool B) : Prop :=
  stop s = true /\ ~ In WBlocked (workers s) /\ ~ In WChecked (workers s).

Lemma step_awake {B} (body : nat -> B) l s s' : awake s -> step body l s s' -> internal l = true -> awake s'.
Proof.
  intros (A1 & A2 & A3) H HI. destruct H; try discriminate; try congruence;
    try (match goal with Hk : nth_error _ _ = Some _ |- _ =>
      destruct (split_worker _ _ _ Hk) as (l1 & l2 & EW & _ & HS) end);
    unfold awake, set_worker; cbn [stop pending workers caller]; rewrite ?HS, ?EW in *;
    (split; [auto|]); mid; try (intuition (congruence || discriminate)).
Qed.

Lemma exec_awake {B} (body : nat -> B) ls s s' : awake s -> exec body ls s s' -> forallb internal ls = true -> awake s'.
Proof.
  intros A H. revert A. induction H; intros A HF; auto. cbn [forallb] in HF. apply andb_true_iff in HF.
  destruct HF. eauto using step_awake.
Qed.

Lemma awake_notify {B} (body : nat -> B) s s' : inv body s -> caller s = CNotify -> ~ In WChecked (workers s) ->
  step body LNotify s s' -> awake s' /\ caller s' = CJoin.
Proof.
  intros I Hc HC H. inversion H; subst. split; [|reflexivity]. split; [|split]; cbn [stop workers].
  - apply (i_stop _ _ I). congruence.
  - intros Hin. apply in_map_iff in Hin. destruct Hin as (w & E & _). destruct w; discriminate.
  - intros Hin. apply in_map_iff in Hin. destruct Hin as (w & E & Hw). destruct w; try discriminate. auto.
Qed.

Lemma exec_caller {B} (body : nat -> B) ls s s' : exec body ls s s' -> forallb internal ls = true ->
  caller s = CJoin -> caller s' = CJoin \/ caller s' = CIdle.
Proof.
  intros H. induction H as [|l ls s s1 s2 H HE IH]; intros HF Hc; auto.
  cbn [forallb] in HF. apply andb_true_iff in HF. destruct HF as [H1 H2].
  assert (G : forall s3 s4, exec body ls s3 s4 -> forallb internal ls = true -> caller s3 = CIdle -> caller s4 = CIdle).
  { clear. intros s3 s4 H. induction H as [|l ls s s1 s2 H HE IH]; intros HF Hc; auto.
    cbn [forallb] in HF. apply andb_true_iff in HF. destruct HF as [H1 H2]. apply IH; auto.
    destruct H; try discriminate; auto. }
  assert (Hd : caller s1 = CJoin \/ caller s1 = CIdle) by (destruct H; try discriminate; auto).
  destruct Hd as [Hd|Hd]; eauto.
Qed.

(** A worker that went to sleep after the notification stays asleep and is never joined. *)
Lemma asleep_forever {B} (body : nat -> B) k ls s s' : exec body ls s s' -> forallb internal ls = true ->
  forallb (fun l => negb (spurious l)) ls = true ->
  caller s = CJoin -> nth_error (workers s) k = Some WBlocked ->
  caller s' = CJoin /\ nth_error (workers s') k = Some WBlocked.
Proof.
  intros H. induction H as [|l ls s s1 s2 H HE IH]; intros HF HS Hc Hk; auto.
  cbn [forallb] in HF, HS. apply andb_true_iff in HF, HS. destruct HF as [H1 H2], HS as [H3 H4].
  apply IH; auto; destruct H; try discriminate; auto; cbn [workers set_worker];
    try (exfalso; apply nth_error_In in Hk;
         match goal with HE' : forall w, In w _ -> _ |- _ => apply HE' in Hk; discriminate end);
    match goal with H0 : nth_error _ ?k0 = Some _ |- nth_error (set_nth ?k0 _ _) k = _ =>
      destruct (Nat.eq_dec k k0) as [->|Hne]; [congruence|] end;
    rewrite set_nth_other by auto; exact Hk.
Qed.

(** ** Futures *)
Lemma future_get_ok {B} (body : nat -> B) s n : inv body s -> In n (map fst (promises s)) ->
  future_get s n = Ok (body n).
Proof.
  intros I H. pose proof (i_val _ _ I) as HV. unfold future_get.
  destruct (List.find (fun p => fst p =? n) (promises s)) as [[m b]|] eqn:E.
  - apply find_some in E. destruct E as [E1 E2]. apply Nat.eqb_eq in E2. cbn in E2. subst m.
    rewrite Forall_forall in HV. apply HV in E1. cbn in *. rewrite E1. reflexivity.
  - apply in_map_iff in H. destruct H as ([m b] & E1 & Hin). cbn in E1. subst m.
    eapply find_none in E; [|exact Hin]. cbn in E. rewrite Nat.eqb_refl in E. discriminate.
Qed.
