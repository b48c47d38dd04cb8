(** Whole runs of the simple programs. *)
From Coq Require Import List Arith Ascii String Bool ZArith Lia Reals Lra.
From Verif Require Import Base StrModel MapModel MapProofs ScheduleModel DriftProofs RunModel RunSpec RunProofs.
Import ListNotations.
Close Scope Z_scope.
Close Scope R_scope.
Open Scope nat_scope.

Section simple.
  Context {Sol Cfg : Type} (next_solution : Cfg -> Sol -> outcome Sol) (time_of : Sol -> R).
  Context (cpi : Cfg -> R) (should_continue : Cfg -> Sol -> bool).
  Context (cfg : Cfg) (sol : nat -> Sol) (N : nat).
  Notation t := (fun i => time_of (sol i)).
  Notation sstate := (@sstate R Sol Cfg).
  Notation sout := (@sout R Sol Cfg).
  Notation chkn := (lit "write_checkpoint").

  (** For any tasks, given what one round does. *)
  Section rounds.
    Context (others : list (str * (Cfg -> R))) (s : nat -> sstate) (outs : nat -> list sout).
    Notation snext := (snext Rplus tdueR next_solution time_of others cpi).
    Context (Hst : forall i, s_cfg (s i) = cfg /\ s_sol (s i) = sol i).
    Context (Hround : forall i, i <= N -> next_solution cfg (sol i) = Ok (sol (S i)) ->
      (do s1 <- snext (s i); srun_tasks others s1) = Ok (s (S i), outs (S i))).
    Context (Hinit : (do sc <- sschedule 0%R Rplus (chkn :: map fst others); srun_tasks others (mks (sol 0) sc cfg)) = Ok (s 0, outs 0)).
    Fixpoint souts (i : nat) : list sout := match i with 0 => outs 0 | S j => souts j ++ outs (S j) end.
    Context (Hnext : forall i, i <= N -> next_solution cfg (sol i) = Ok (sol (S i))).
    Context (Hgo : forall i, i < N -> should_continue cfg (sol i) = true) (Hstop : should_continue cfg (sol N) = false).

    Lemma sloop_run : forall n i, i <= N -> N <= i + n ->
      sloop Rplus tdueR next_solution time_of others cpi should_continue n (s i, souts i) = Ok (s N, souts N).
    Proof.
      induction n as [|n IH]; intros i Hi Hn.
      - replace i with N by lia. reflexivity.
      - cbn [sloop fst snd]. destruct (Hst i) as [-> ->]. destruct (Nat.eq_dec i N) as [->|Hne].
        + rewrite Hstop. reflexivity.
        + rewrite Hgo by lia. pose proof (Hround i Hi (Hnext i Hi)) as R.
          destruct (snext (s i)) as [s1| | |]; try discriminate R. revert R; bsimp. intros ->. bsimp. cbn [fst snd].
          apply (IH (S i)); lia.
    Qed.
    Lemma sprogram_run n : N <= n ->
      simple_program 0%R Rplus tdueR next_solution time_of others cpi should_continue cfg (sol 0) n = Ok (souts (S N), 0%Z).
    Proof.
      intros Hn. unfold simple_program. destruct (sschedule _ _ _) as [sc| | |]; try discriminate Hinit.
      revert Hinit; bsimp. intros ->. bsimp. change (outs 0) with (souts 0). rewrite (sloop_run n 0) by lia. bsimp. cbn [fst snd].
      destruct (Hst N) as [-> ->]. rewrite Hstop. pose proof (Hround N (le_n N) (Hnext N (le_n N))) as R.
      destruct (snext (s N)) as [s1| | |]; try discriminate R. revert R; bsimp. intros ->. reflexivity.
    Qed.
  End rounds.

  Context (Hint : (Z.of_nat N < 2 ^ 31 - 3)%Z).
  Notation diag := (lit "write_diagnostics").
  Notation tser := (lit "write_time_series").
  Definition new (I : R) (i : nat) : bool := match i with 0 => true | S j => negb (K t I (S j) =? K t I j) end.

  Lemma dec_eq (n : str) I i : steps_within t I N -> i <= N ->
    Z.of_nat (S (K t I i)) = Z.of_nat (K t I (S i)) \/ negb (K t I (S i) =? K t I i) = false.
  Proof.
    intros H Hi. pose proof (K_le t I N H i Hi). destruct (K t I (S i) =? K t I i) eqn:E; [right; reflexivity|].
    left. apply Nat.eqb_neq in E. lia.
  Qed.

  (** The boilerplate program: checkpoints only. *)
  Section boilerplate.
    Context (Hc : steps_within t (cpi cfg) N).
    Definition b1 (i : nat) : sstate := mks (sol i) [(chkn, tk chkn (cpi cfg) (K t (cpi cfg) i) false)] cfg.
    (** The state whose checkpoint is written in round [i]. *)
    Definition b1m (i : nat) : sstate :=
      mks (sol i) [(chkn, match i with 0 => mktask chkn 0 (0 + 0)%R true | S j => mkd chkn (cpi cfg) (K t (cpi cfg) j) (K t (cpi cfg) i) end)] cfg.
    Definition b1outs (i : nat) : list sout :=
      if new (cpi cfg) i then [SCheckpoint (Z.of_nat (K t (cpi cfg) i)) (swrite (b1m i))] else [].

    Lemma b1round i : i <= N -> next_solution cfg (sol i) = Ok (sol (S i)) ->
      (do s1 <- snext Rplus tdueR next_solution time_of [] cpi (b1 i); srun_tasks [] s1) = Ok (b1 (S i), b1outs (S i)).
    Proof.
      intros Hi Hn. unfold snext.
      change (s_cfg (b1 i)) with cfg. change (s_sol (b1 i)) with (sol i).
      change (s_sched (b1 i)) with [(chkn, tk chkn (cpi cfg) (K t (cpi cfg) i) false)]. rewrite Hn. bsimp.
      assert (E : mark_tasks_in Rplus tdueR [(chkn, tk chkn (cpi cfg) (K t (cpi cfg) i) false)] (time_of (sol i))
          ((chkn, cpi cfg) :: map (fun e : str * (Cfg -> R) => (fst e, snd e cfg)) []) =
        Ok [(chkn, mkd chkn (cpi cfg) (K t (cpi cfg) i) (K t (cpi cfg) (S i)))]).
      { rewrite <- (mark_one time_of sol N) by auto.
        generalize (K t (cpi cfg) i). intros k. generalize (time_of (sol i)), (cpi cfg). intros x ib.
        lazy -[tdueR Rplus Rmult INR Z.of_nat]. destruct (tdueR x (INR k * ib)%R ib); lazy -[tdueR Rplus Rmult INR Z.of_nat]; reflexivity. }
      rewrite E. bsimp.
      pose proof (chk_count time_of sol N Hint (cpi cfg) i Hc ltac:(lia)) as HC.
      pose proof (done_mkd time_of sol N chkn (cpi cfg) i Hc Hi) as HD.
      pose proof (dec_eq chkn (cpi cfg) i Hc Hi) as HE.
      unfold b1outs, b1, b1m, new. rewrite <- HD. destruct HE as [HE|HE]; [rewrite <- HE|rewrite HE]; revert HC; 
        unfold mkd, done; [generalize (negb (K t (cpi cfg) (S i) =? K t (cpi cfg) i)); intros b|rewrite HE];
        generalize (Z.of_nat (S (K t (cpi cfg) i))), (INR (K t (cpi cfg) (S i)) * cpi cfg)%R; intros c l HC.
      - destruct b; lazy -[chk Z.add]; rewrite ?HC; reflexivity.
      - lazy -[chk Z.add]. reflexivity.
    Qed.

    Lemma b1init : (do sc <- sschedule 0%R Rplus [chkn]; srun_tasks [] (mks (sol 0) sc cfg)) = Ok (b1 0, b1outs 0).
    Proof.
      unfold b1outs, b1, b1m, tk, new. rewrite (K_0 t (cpi cfg) N Hc). cbn [INR]. rewrite Rmult_0_l.
      transitivity (Ok (mks (sol 0) [(chkn, mktask chkn 1 (0 + 0)%R false)] cfg,
        [SCheckpoint 0 (swrite (mks (sol 0) [(chkn, mktask chkn 0 (0 + 0)%R true)] cfg))])).
      - lazy -[Rplus]. reflexivity.
      - rewrite Rplus_0_l. reflexivity.
    Qed.
  End boilerplate.

  (** The sedov and cloud programs: checkpoints, diagnostics and the time series. *)
  Section three.
    Context (dfi tsi : Cfg -> R).
    Context (Hc : steps_within t (cpi cfg) N) (Hd : steps_within t (dfi cfg) N) (Hts : steps_within t (tsi cfg) N).
    Definition two : list (str * (Cfg -> R)) := [(diag, dfi); (tser, tsi)].
    Definition Z3 (c d a : task R) : schedule R := [(chkn, c); (diag, d); (tser, a)].
    Definition b3 (i : nat) : sstate :=
      mks (sol i) (Z3 (tk chkn (cpi cfg) (K t (cpi cfg) i) false) (tk diag (dfi cfg) (K t (dfi cfg) i) false)
        (tk tser (tsi cfg) (K t (tsi cfg) i) false)) cfg.
    Definition pre (n : str) (I : R) (i : nat) : task R :=
      match i with 0 => mktask n 0 (0 + 0)%R true | S j => mkd n I (K t I j) (K t I i) end.
    Definition b3m (i : nat) : sstate :=
      mks (sol i) (Z3 (pre chkn (cpi cfg) i) (pre diag (dfi cfg) i) (pre tser (tsi cfg) i)) cfg.
    Definition b3outs (i : nat) : list sout :=
      (if new (cpi cfg) i then [SCheckpoint (Z.of_nat (K t (cpi cfg) i)) (swrite (b3m i))] else []) ++
      (if new (dfi cfg) i then [SOther diag (Z.of_nat (K t (dfi cfg) i))] else []) ++
      (if new (tsi cfg) i then [SOther tser (Z.of_nat (K t (tsi cfg) i))] else []).

    Lemma mark3s i : i <= N ->
      mark_tasks_in Rplus tdueR (s_sched (b3 i)) (time_of (sol i))
        ((chkn, cpi cfg) :: map (fun e : str * (Cfg -> R) => (fst e, snd e cfg)) two) =
      Ok (Z3 (pre chkn (cpi cfg) (S i)) (pre diag (dfi cfg) (S i)) (pre tser (tsi cfg) (S i))).
    Proof.
      intros Hi. unfold pre. rewrite <- !(mark_one time_of sol N) by auto. cbn [two map fst snd b3 s_sched].
      generalize (K t (tsi cfg) i), (K t (cpi cfg) i), (K t (dfi cfg) i). intros ka kb kd.
      generalize (time_of (sol i)), (tsi cfg), (cpi cfg), (dfi cfg). intros x ia ib id.
      lazy -[tdueR Rplus Rmult INR Z.of_nat].
      destruct (tdueR x (INR kb * ib)%R ib); lazy -[tdueR Rplus Rmult INR Z.of_nat];
      destruct (tdueR x (INR kd * id)%R id); lazy -[tdueR Rplus Rmult INR Z.of_nat];
      destruct (tdueR x (INR ka * ia)%R ia); lazy -[tdueR Rplus Rmult INR Z.of_nat]; reflexivity.
    Qed.

    Lemma srun3 (x : Sol) ca la ba cb lb bb cd ld bd :
      chk (ca + 1) = Ok (ca + 1)%Z -> chk (cb + 1) = Ok (cb + 1)%Z -> chk (cd + 1) = Ok (cd + 1)%Z ->
      let a := mktask tser ca la ba in let c := mktask chkn cb lb bb in let d := mktask diag cd ld bd in
      let s := mks x (Z3 c d a) cfg in
      srun_tasks two s =
      Ok (mks x (Z3 (done c) (done d) (done a)) cfg,
        (if bb then [SCheckpoint cb (swrite s)] else []) ++ (if bd then [SOther diag cd] else []) ++ (if ba then [SOther tser ca] else [])).
    Proof.
      intros Ha Hb Hd'. cbv zeta. unfold done, two.
      destruct ba, bb, bd; cbn [t_due t_name t_count t_last];
        lazy -[chk Z.add]; rewrite ?Hb; lazy -[chk Z.add]; rewrite ?Hd'; lazy -[chk Z.add]; rewrite ?Ha; lazy -[chk Z.add]; reflexivity.
    Qed.

    Lemma b3round i : i <= N -> next_solution cfg (sol i) = Ok (sol (S i)) ->
      (do s1 <- snext Rplus tdueR next_solution time_of two cpi (b3 i); srun_tasks two s1) = Ok (b3 (S i), b3outs (S i)).
    Proof.
      intros Hi Hn. unfold snext. change (s_cfg (b3 i)) with cfg. change (s_sol (b3 i)) with (sol i). rewrite Hn. bsimp.
      rewrite mark3s by exact Hi. bsimp. unfold pre, mkd. rewrite srun3 by (apply (chk_count time_of sol N); auto; lia). cbv zeta.
      pose proof (dec_eq chkn (cpi cfg) i Hc Hi) as HE1. pose proof (dec_eq chkn (dfi cfg) i Hd Hi) as HE2.
      pose proof (dec_eq chkn (tsi cfg) i Hts Hi) as HE3.
      f_equal. f_equal.
      - unfold b3. f_equal. f_equal; apply (done_mkd time_of sol N); auto.
      - unfold b3outs, b3m, pre, mkd, new. f_equal; [|f_equal].
        + destruct HE1 as [<-|HE]; [|rewrite HE]; reflexivity.
        + destruct HE2 as [<-|HE]; [|rewrite HE]; reflexivity.
        + destruct HE3 as [<-|HE]; [|rewrite HE]; reflexivity.
    Qed.

    Lemma b3init : (do sc <- sschedule 0%R Rplus (chkn :: map fst two); srun_tasks two (mks (sol 0) sc cfg)) = Ok (b3 0, b3outs 0).
    Proof.
      assert (E : sschedule 0%R Rplus (chkn :: map fst two) = Ok (Z3 (mktask chkn 0 (0 + 0)%R true) (mktask diag 0 (0 + 0)%R true)
        (mktask tser 0 (0 + 0)%R true))) by (lazy -[Rplus]; reflexivity).
      rewrite E. bsimp. rewrite srun3 by (vm_compute; reflexivity). cbv zeta. f_equal. f_equal.
      - unfold b3, tk. rewrite (K_0 t (tsi cfg) N Hts), (K_0 t (cpi cfg) N Hc), (K_0 t (dfi cfg) N Hd).
        unfold done. cbn [t_due t_name t_count t_last INR]. rewrite !Rmult_0_l, Rplus_0_l. reflexivity.
      - unfold b3outs, new. rewrite (K_0 t (tsi cfg) N Hts), (K_0 t (cpi cfg) N Hc), (K_0 t (dfi cfg) N Hd). reflexivity.
    Qed.
  End three.

  (** The outputs of one kind. *)
  Definition scps (o : list sout) : list (Z * Sol) :=
    flat_map (fun x => match x with SCheckpoint n f => [(n, sf_sol f)] | _ => [] end) o.
  Definition soths (name : str) (o : list sout) : list Z :=
    flat_map (fun x => match x with SOther m n => if str_dec m name then [n] else [] | _ => [] end) o.

  Lemma gather_outs {A} (f : list sout -> list A) (g : nat -> A) outs I :
    (forall a b, f (a ++ b) = f a ++ f b) -> (forall i, f (outs i) = if new I i then [g i] else []) ->
    forall i, f (souts outs i) = gather t I g i.
  Proof.
    intros Hf Hg. induction i as [|i IH]; cbn [souts gather].
    - rewrite Hg. reflexivity.
    - rewrite Hf, IH, Hg. unfold new. destruct (K t I (S i) =? K t I i); cbn [negb]; [apply app_nil_r|reflexivity].
  Qed.
End simple.
