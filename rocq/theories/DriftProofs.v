(** Recurring tasks with exact times. *)
From Coq Require Import List Arith Ascii String Bool ZArith Lia Permutation Reals Lra.
From Verif Require Import Base StrModel MapModel MapProofs ScheduleModel ScheduleProofs.
Import ListNotations.
Open Scope R_scope.

(** app_schedule.hpp:190 on exact times. *)
Definition tdueR (time last interval : R) : bool := if Rle_dec interval (time - last) then true else false.

Section drift.
  Context (sc mk : nat -> schedule R) (tm : nat -> R) (l : list (str * R)) (k : str) (I L0 : R).
  (** [sc n] is the schedule before check [n], made at time [tm n]; [mk n] the one after the check. *)
  Context (Hsorted : forall n, msorted (sc n)) (Hnames : NoDup (map fst l)) (Hreg : forall n m, In m (map fst l) -> registered m (sc n)).
  Context (Hmark : forall n, mark_tasks_in Rplus tdueR (sc n) (tm n) l = Ok (mk n)).
  (** Running tasks between two checks does not change the last-performed time. *)
  Context (Hkeep : forall n, last_performed k (sc (S n)) = last_performed k (mk n)).
  Context (Hk : In (k, I) l) (Hstart : last_performed k (sc 0%nat) = Ok L0).

  Lemma last_spec (s : schedule R) v : last_performed k s = Ok v <-> exists t, mfind k s = Some t /\ t_last t = v.
  Proof.
    unfold last_performed, sat. destruct (mfind k s) as [t|]; bsimp.
    - split; [intros H; exists t; split; congruence|]. intros (t' & H & <-). congruence.
    - split; [discriminate|]. intros (t' & H & _). discriminate.
  Qed.

  Lemma check_step n v : last_performed k (sc n) = Ok v ->
    last_performed k (mk n) = Ok (if tdueR (tm n) v I then v + I else v) /\
    (is_due k (sc n) = Ok false -> is_due k (mk n) = Ok (tdueR (tm n) v I)).
  Proof.
    intros H. apply last_spec in H. destruct H as (t & F & E).
    destruct (mark_tasks_in_spec 0 Rplus tdueR (sc n) (tm n) l (Hsorted n) Hnames (Hreg n)) as (r & Er & _ & Fr).
    rewrite Hmark in Er. assert (r = mk n) by congruence. subst r.
    specialize (Fr k). rewrite F in Fr. cbn [option_map] in Fr. unfold marked in Fr.
    rewrite (listed_in (T := R) 0 Rplus tdueR k I l Hnames Hk), E in Fr. split.
    - apply last_spec. destruct (tdueR (tm n) v I); eexists; (split; [exact Fr|]); cbn; congruence.
    - unfold is_due, sat. rewrite F, Fr. bsimp. intros HD. destruct (tdueR (tm n) v I); cbn; auto.
  Qed.

  Lemma drift_multiple n : exists j, (j <= n)%nat /\ last_performed k (sc n) = Ok (L0 + INR j * I).
  Proof.
    induction n as [|n (j & Hj & E)].
    - exists 0%nat. split; [lia|]. rewrite Hstart. cbn. f_equal. lra.
    - destruct (check_step n _ E) as [E' _]. rewrite Hkeep, E'.
      destruct (tdueR (tm n) _ I); [exists (S j)|exists j]; (split; [lia|]); auto. f_equal. rewrite S_INR. lra.
  Qed.

  Context (HI : 0 < I) (Ht0 : L0 <= tm 0%nat < L0 + 2 * I).
  Context (Hstep : forall n, tm n <= tm (S n) <= tm n + I).

  Lemma drift_bracket n : exists j, (j <= S n)%nat /\ last_performed k (mk n) = Ok (L0 + INR j * I) /\
    L0 + INR j * I <= tm n < L0 + (INR j + 1) * I.
  Proof.
    induction n as [|n (j & Hj & E & B)].
    - destruct (check_step 0 _ Hstart) as [E _]. rewrite E. unfold tdueR.
      destruct (Rle_dec I (tm 0%nat - L0)) as [H|H]; [exists 1%nat|exists 0%nat]; cbn [INR]; (split; [lia|]); split;
        try (f_equal; lra); lra.
    - rewrite <- Hkeep in E. destruct (check_step (S n) _ E) as [E' _]. rewrite E'. unfold tdueR. pose proof (Hstep n).
      destruct (Rle_dec I (tm (S n) - (L0 + INR j * I))) as [H'|H']; [exists (S j)|exists j]; (split; [lia|]); split; auto.
      + f_equal. rewrite S_INR. lra.
      + rewrite S_INR. lra.
      + lra.
  Qed.

  Lemma mult_unique j1 j2 t : L0 + INR j1 * I <= t < L0 + (INR j1 + 1) * I -> L0 + INR j2 * I <= t < L0 + (INR j2 + 1) * I -> j1 = j2.
  Proof.
    intros H1 H2. destruct (lt_eq_lt_dec j1 j2) as [[H|H]|H]; auto; exfalso.
    - assert (INR j1 + 1 <= INR j2) by (rewrite <- S_INR; apply le_INR; lia). nra.
    - assert (INR j2 + 1 <= INR j1) by (rewrite <- S_INR; apply le_INR; lia). nra.
  Qed.

  Lemma drift_due n : is_due k (sc (S n)) = Ok false ->
    exists b, is_due k (mk (S n)) = Ok b /\
      (b = true <-> exists j, tm n < L0 + INR j * I <= tm (S n)).
  Proof.
    intros HD. destruct (drift_bracket n) as (j & Hj & E & B). rewrite <- Hkeep in E.
    destruct (check_step (S n) _ E) as [_ D]. specialize (D HD). eexists. split; [exact D|]. unfold tdueR. pose proof (Hstep n).
    destruct (Rle_dec I (tm (S n) - (L0 + INR j * I))) as [H'|H']; split; try discriminate; auto.
    - intros _. exists (S j). rewrite S_INR. lra.
    - intros (i & Hi). exfalso. destruct (le_lt_dec i j) as [Hle|Hlt].
      + assert (INR i <= INR j) by (apply le_INR; lia). nra.
      + assert (INR j + 1 <= INR i) by (rewrite <- S_INR; apply le_INR; lia). nra.
  Qed.
End drift.
