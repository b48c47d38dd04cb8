(** Whole runs. *)
From Coq Require Import List Arith Ascii String Bool ZArith Lia Reals Lra.
From Verif Require Import Base StrModel MapModel ScheduleModel DriftProofs RunModel RunSpec.
Import ListNotations.
Close Scope Z_scope.
Close Scope R_scope.
Open Scope nat_scope.

(** The number of whole intervals. *)
Definition kmul (I x : R) : nat := Z.to_nat (Int_part (x / I)).

Lemma kmul_spec I x : (0 < I)%R -> (0 <= x)%R -> whole_intervals I x (kmul I x).
Proof.
  intros HI Hx. unfold whole_intervals, kmul. pose proof (base_Int_part (x / I)) as [B1 B2].
  assert (Hq : (0 <= x / I)%R) by (apply Rmult_le_pos; [lra|]; left; apply Rinv_0_lt_compat; lra).
  assert (Hz : (0 <= Int_part (x / I))%Z).
  { assert (-1 < Int_part (x / I))%Z; [|lia]. apply lt_IZR. lra. }
  rewrite INR_IZR_INZ, Z2Nat.id by exact Hz.
  assert (E : (x = x / I * I)%R) by (field; lra). split.
  - rewrite E at 2. apply Rmult_le_compat_r; lra.
  - rewrite E at 1. apply Rmult_lt_compat_r; lra.
Qed.

Lemma whole_unique I x a b : (0 < I)%R -> whole_intervals I x a -> whole_intervals I x b -> a = b.
Proof.
  intros HI H1 H2. unfold whole_intervals in *. destruct (lt_eq_lt_dec a b) as [[H|H]|H]; auto; exfalso.
  - assert (INR a + 1 <= INR b)%R by (rewrite <- S_INR; apply le_INR; lia). nra.
  - assert (INR b + 1 <= INR a)%R by (rewrite <- S_INR; apply le_INR; lia). nra.
Qed.

Lemma kmul_ge I x k : (0 < I)%R -> (0 <= x)%R -> k <= kmul I x <-> (INR k * I <= x)%R.
Proof.
  intros HI Hx. destruct (kmul_spec I x HI Hx) as [A B]. split; intros H.
  - apply le_INR in H. nra.
  - destruct (le_lt_dec k (kmul I x)) as [|H']; auto. exfalso.
    assert (INR (kmul I x) + 1 <= INR k)%R by (rewrite <- S_INR; apply le_INR; lia). nra.
Qed.

Section rounds.
  Context (t : nat -> R) (I : R) (N : nat) (HS : steps_within t I N).
  Notation u := (asked t).
  Definition K (i : nat) : nat := kmul I (u i).

  Lemma t_pos i : i <= N -> (0 <= t i)%R.
  Proof.
    destruct HS as (HI & H0 & H). induction i as [|i IH]; intros Hi; [lra|]. assert (0 <= t i)%R by (apply IH; lia).
    specialize (H i ltac:(lia)). lra.
  Qed.
  Lemma u_pos i : i <= S N -> (0 <= u i)%R.
  Proof. destruct i; cbn; intros Hi; [lra|]. apply t_pos. lia. Qed.
  Lemma u_step i : i <= N -> (u i <= u (S i) <= u i + I)%R.
  Proof.
    destruct HS as (HI & H0 & H). intros Hi. destruct i as [|i]; cbn [asked].
    - rewrite H0. lra.
    - apply H. lia.
  Qed.

  Lemma K_spec i : i <= S N -> whole_intervals I (u i) (K i).
  Proof. intros Hi. apply kmul_spec; [apply HS|apply u_pos; auto]. Qed.
  Lemma K_0 : K 0 = 0.
  Proof.
    destruct HS as (HI & _). apply (whole_unique I (u 0)); auto; [apply K_spec; lia|].
    unfold whole_intervals. cbn [INR asked]. lra.
  Qed.

  (** One check. *)
  Lemma K_step i : i <= N -> K (S i) = if tdueR (t i) (INR (K i) * I) I then S (K i) else K i.
  Proof.
    intros Hi. destruct (K_spec i ltac:(lia)) as [A B]. pose proof (u_step i Hi) as [C D].
    assert (HI : (0 < I)%R) by apply HS.
    apply (whole_unique I (u (S i))); [exact HI|apply K_spec; lia|]. unfold tdueR, whole_intervals. cbn [asked] in *.
    destruct (Rle_dec I (t i - INR (K i) * I)) as [H|H]; rewrite ?S_INR; lra.
  Qed.
  Lemma K_le i : i <= N -> K i <= K (S i) <= S (K i).
  Proof. intros Hi. rewrite K_step by exact Hi. destruct (tdueR _ _ _); lia. Qed.
  Lemma K_mono i j : i <= j -> j <= S N -> K i <= K j.
  Proof.
    intros H. induction H as [|j H IH]; intros Hj; [lia|]. pose proof (K_le j ltac:(lia)). specialize (IH ltac:(lia)). lia.
  Qed.
  Lemma K_bound i : i <= S N -> K i <= i.
  Proof. induction i as [|i IH]; intros Hi; [rewrite K_0; lia|]. pose proof (K_le i ltac:(lia)). specialize (IH ltac:(lia)). lia. Qed.

  Lemma at_round_K k i : i <= S N -> at_round t I k i <-> k <= K i /\ forall j, j < i -> K j < k.
  Proof.
    intros Hi. assert (HI : (0 < I)%R) by apply HS. destruct i as [|i]; cbn [at_round].
    - rewrite K_0. split; [intros ->|intros [H _]]; [split; intros; lia|lia].
    - unfold K at 1. rewrite (kmul_ge I (u (S i)) k HI) by (apply u_pos; auto). cbn [asked]. split.
      + intros (H1 & H2 & H3). split; auto. intros j Hj. destruct j as [|j]; [rewrite K_0; lia|].
        destruct (le_lt_dec k (K (S j))) as [H|H]; auto. exfalso.
        unfold K in H. rewrite (kmul_ge I (u (S j)) k HI) in H by (apply u_pos; lia). cbn [asked] in H.
        specialize (H3 j ltac:(lia)). lra.
      + intros (H1 & H2). split; [|split; auto].
        * specialize (H2 0 ltac:(lia)). lia.
        * intros j Hj. specialize (H2 (S j) ltac:(lia)). destruct (Rlt_le_dec (t j) (INR k * I)) as [|H]; auto. exfalso.
          change (t j) with (u (S j)) in H. rewrite <- (kmul_ge I (u (S j)) k HI) in H by (apply u_pos; lia).
          fold (K (S j)) in H. lia.
  Qed.

  (** The round of output [k]. *)
  Fixpoint search (k fuel i : nat) : nat :=
    match fuel with 0 => i | S f => if k <=? K i then i else search k f (S i) end.
  Definition rnd (k : nat) : nat := search k (S N) 0.

  Lemma search_spec k : forall fuel i, k <= K (i + fuel) -> (forall j, j < i -> K j < k) ->
    search k fuel i <= i + fuel /\ k <= K (search k fuel i) /\ forall j, j < search k fuel i -> K j < k.
  Proof.
    induction fuel as [|f IH]; intros i H1 H2; cbn [search].
    - rewrite Nat.add_0_r in *. auto.
    - destruct (k <=? K i) eqn:E.
      + apply Nat.leb_le in E. split; [lia|]. auto.
      + apply Nat.leb_gt in E. destruct (IH (S i)) as (A & B & C).
        * replace (S i + f) with (i + S f) by lia. exact H1.
        * intros j Hj. destruct (Nat.eq_dec j i) as [->|]; auto. apply H2. lia.
        * split; [lia|auto].
  Qed.

  Lemma rnd_spec k : k <= K (S N) -> rnd k <= S N /\ at_round t I k (rnd k) /\ k = K (rnd k).
  Proof.
    intros Hk. destruct (search_spec k (S N) 0 Hk) as (A & B & C); [intros; lia|]. fold (rnd k) in *. rewrite Nat.add_0_l in A.
    split; auto. split.
    - apply at_round_K; auto.
    - destruct (rnd k) as [|i] eqn:E; [rewrite K_0 in *; lia|]. specialize (C i ltac:(lia)). pose proof (K_le i ltac:(lia)). lia.
  Qed.

  Lemma rnd_unique k i : i <= S N -> k <= K i -> (forall j, j < i -> K j < k) -> rnd k = i.
  Proof.
    intros Hi H1 H2. destruct (search_spec k (S N) 0) as (A & B & C); [|intros; lia|].
    { pose proof (K_mono i (S N) Hi ltac:(lia)). cbn. lia. }
    fold (rnd k) in *. destruct (lt_eq_lt_dec (rnd k) i) as [[H|H]|H]; auto; exfalso.
    - specialize (H2 _ H). lia.
    - specialize (C _ H). lia.
  Qed.

  (** What is gathered over the rounds. *)
  Definition gather {A} (f : nat -> A) : nat -> list A :=
    fix g (i : nat) : list A :=
      match i with 0 => [f 0] | S i' => if K (S i') =? K i' then g i' else g i' ++ [f (S i')] end.
  Lemma gather_rounds {A} (f : nat -> A) i : i <= S N -> gather f i = map (fun k => f (rnd k)) (seq 0 (S (K i))).
  Proof.
    induction i as [|i IH]; intros Hi.
    - cbn [gather]. rewrite K_0. cbn [seq map]. rewrite (rnd_unique 0 0); auto; intros; lia.
    - cbn [gather]. specialize (IH ltac:(lia)). pose proof (K_le i ltac:(lia)) as H.
      destruct (K (S i) =? K i) eqn:E.
      + apply Nat.eqb_eq in E. rewrite E. exact IH.
      + apply Nat.eqb_neq in E. assert (E' : K (S i) = S (K i)) by lia. rewrite E', IH.
        rewrite (seq_S (S (K i)) 0), map_app. cbn [map Nat.add]. f_equal. f_equal. f_equal.
        symmetry. apply rnd_unique; auto; [lia|]. intros j Hj. pose proof (K_mono j i ltac:(lia) ltac:(lia)). lia.
  Qed.
End rounds.

(** ** The binary program *)
Section binary.
  Context {Sol Cfg Sample Diag : Type} (next_solution : Cfg -> Sol -> outcome Sol) (time_of : Sol -> R).
  Context (cpi dfi tsi : Cfg -> R) (should_continue : Cfg -> Sol -> bool).
  Context (diagnose : Cfg -> Sol -> Diag) (sample : Cfg -> Sol -> Sample).
  Context (cfg : Cfg) (sol : nat -> Sol) (N : nat).
  Notation t := (fun i => time_of (sol i)).
  Notation bstate := (@bstate R Sol Cfg Sample).
  Notation bout := (@bout R Sol Cfg Sample Diag).
  Notation brun_tasks := (brun_tasks (T := R) diagnose sample).
  Notation bnext := (bnext Rplus tdueR next_solution time_of cpi dfi tsi).
  Notation bloop := (bloop Rplus tdueR next_solution time_of cpi dfi tsi should_continue diagnose sample).
  Context (Hc : steps_within t (cpi cfg) N) (Hd : steps_within t (dfi cfg) N) (Hts : steps_within t (tsi cfg) N).
  Context (Hint : (Z.of_nat N < 2 ^ 31 - 3)%Z).
  Notation Kc := (K t (cpi cfg)).
  Notation Kd := (K t (dfi cfg)).
  Notation Ks := (K t (tsi cfg)).

  (** The schedule, in the order of the names. *)
  Definition S3 (a c d : task R) : schedule R := [(n_tsr, a); (n_chk, c); (n_dia, d)].
  Definition tk (n : str) (I : R) (k : nat) (b : bool) : task R := mktask n (Z.of_nat (S k)) (INR k * I)%R b.
  (** After marking: due if the count of whole intervals changed. *)
  Definition mkd (n : str) (I : R) (k k' : nat) : task R :=
    mktask n (Z.of_nat (S k)) (INR k' * I)%R (negb (k' =? k)).

  Lemma mark_one n I i : steps_within t I N -> i <= N ->
    (if tdueR (time_of (sol i)) (INR (K t I i) * I) I
     then mktask n (Z.of_nat (S (K t I i))) (INR (K t I i) * I + I)%R true
     else tk n I (K t I i) false) = mkd n I (K t I i) (K t I (S i)).
  Proof.
    intros H Hi. unfold mkd, tk. rewrite (K_step t I N H i Hi). destruct (tdueR _ _ _).
    - rewrite S_INR. replace (S (K t I i) =? K t I i) with false by (symmetry; apply Nat.eqb_neq; lia).
      cbn [negb]. f_equal. ring.
    - rewrite Nat.eqb_refl. reflexivity.
  Qed.

  Lemma mark3 i a b c : i <= N ->
    a = Ks i -> b = Kc i -> c = Kd i ->
    mark_tasks_in Rplus tdueR (S3 (tk n_tsr (tsi cfg) a false) (tk n_chk (cpi cfg) b false) (tk n_dia (dfi cfg) c false))
      (time_of (sol i)) [(n_chk, cpi cfg); (n_dia, dfi cfg); (n_tsr, tsi cfg)] =
    Ok (S3 (mkd n_tsr (tsi cfg) (Ks i) (Ks (S i))) (mkd n_chk (cpi cfg) (Kc i) (Kc (S i))) (mkd n_dia (dfi cfg) (Kd i) (Kd (S i)))).
  Proof.
    intros Hi -> -> ->. rewrite <- !mark_one by auto.
    generalize (K t (tsi cfg) i), (K t (cpi cfg) i), (K t (dfi cfg) i). intros ka kb kd.
    generalize (time_of (sol i)), (tsi cfg), (cpi cfg), (dfi cfg). intros x ia ib id.
    lazy -[tdueR Rplus Rmult INR Z.of_nat].
    destruct (tdueR x (INR kb * ib)%R ib);
      lazy -[tdueR Rplus Rmult INR Z.of_nat];
    destruct (tdueR x (INR kd * id)%R id);
      lazy -[tdueR Rplus Rmult INR Z.of_nat];
    destruct (tdueR x (INR ka * ia)%R ia);
      lazy -[tdueR Rplus Rmult INR Z.of_nat]; reflexivity.
  Qed.

  Definition done (x : task R) : task R := if t_due x then mktask (t_name x) (t_count x + 1)%Z (t_last x) false else x.

  Lemma brun3 (s : Sol) (ser : list Sample) (o : list bout) ca la ba cb lb bb cd ld bd :
    chk (ca + 1) = Ok (ca + 1)%Z -> chk (cb + 1) = Ok (cb + 1)%Z -> chk (cd + 1) = Ok (cd + 1)%Z ->
    let a := mktask n_tsr ca la ba in let c := mktask n_chk cb lb bb in let d := mktask n_dia cd ld bd in
    let ser' := if ba then sample cfg s :: ser else ser in
    let s' := mkb s (S3 (done a) (done c) (done d)) ser' cfg in
    brun_tasks (mkb s (S3 a c d) ser cfg, o) =
    Ok (s', o ++ (if bd then [OutDiagnostics cd (diagnose cfg s)] else []) ++ (if bb then [OutCheckpoint cb (bwrite s')] else [])).
  Proof.
    intros Ha Hb Hd'. cbv zeta. unfold done.
    destruct ba, bb, bd; cbn [t_due t_name t_count t_last];
      lazy -[chk Z.add app bwrite];
      rewrite ?Ha, ?Hb, ?Hd'; lazy -[chk Z.add app bwrite];
      rewrite ?Ha, ?Hb, ?Hd'; lazy -[chk Z.add app bwrite];
      rewrite ?Ha, ?Hb, ?Hd'; lazy -[chk Z.add app bwrite];
      rewrite <- ?app_assoc, ?app_nil_l, ?app_nil_r; reflexivity.
  Qed.

  Definition smp (i : nat) : Sample := sample cfg (sol i).
  Definition ser (i : nat) : list Sample := rev (gather t (tsi cfg) smp i).
  Definition st (i : nat) : bstate :=
    mkb (sol i) (S3 (tk n_tsr (tsi cfg) (Ks i) false) (tk n_chk (cpi cfg) (Kc i) false) (tk n_dia (dfi cfg) (Kd i) false))
      (ser i) cfg.
  (** What is written in round [i]. *)
  Definition newc (i : nat) : bool := match i with 0 => true | S j => negb (Kc (S j) =? Kc j) end.
  Definition newd (i : nat) : bool := match i with 0 => true | S j => negb (Kd (S j) =? Kd j) end.
  Definition outs (i : nat) : list bout :=
    (if newd i then [OutDiagnostics (Z.of_nat (Kd i)) (diagnose cfg (sol i))] else []) ++
    (if newc i then [OutCheckpoint (Z.of_nat (Kc i)) (bwrite (st i))] else []).
  Fixpoint all_outs (i : nat) : list bout := match i with 0 => outs 0 | S j => all_outs j ++ outs (S j) end.

  Lemma chk_count I i : steps_within t I N -> i <= S N -> chk (Z.of_nat (S (K t I i)) + 1) = Ok (Z.of_nat (S (K t I i)) + 1)%Z.
  Proof.
    intros H Hi. pose proof (K_bound t I N H i Hi). unfold chk, in_int.
    destruct (andb _ _) eqn:E; auto. exfalso. apply andb_false_iff in E. rewrite !Z.leb_gt in E. unfold int_min, int_max in E. lia.
  Qed.

  Lemma done_mkd n I i : steps_within t I N -> i <= N -> done (mkd n I (K t I i) (K t I (S i))) = tk n I (K t I (S i)) false.
  Proof.
    intros H Hi. pose proof (K_le t I N H i Hi). unfold done, mkd, tk. cbn [t_due t_name t_count t_last].
    destruct (K t I (S i) =? K t I i) eqn:E; cbn [negb].
    - apply Nat.eqb_eq in E. rewrite E. reflexivity.
    - apply Nat.eqb_neq in E. f_equal. lia.
  Qed.

  Lemma round i o : i <= N -> next_solution cfg (sol i) = Ok (sol (S i)) ->
    (do w <- bnext (st i, o); brun_tasks w) = Ok (st (S i), o ++ outs (S i)).
  Proof.
    intros Hi Hn. unfold ScheduleModel.bnext, st. cbn [b_cfg b_sol b_sched b_series]. rewrite Hn. bsimp.
    rewrite (mark3 i _ _ _ Hi eq_refl eq_refl eq_refl). bsimp. unfold mkd at 1 2 3.
    rewrite brun3 by (apply chk_count; auto; lia). cbv zeta.
    fold (mkd n_tsr (tsi cfg) (Ks i) (Ks (S i))). fold (mkd n_chk (cpi cfg) (Kc i) (Kc (S i))). fold (mkd n_dia (dfi cfg) (Kd i) (Kd (S i))).
    rewrite !done_mkd by auto.
    assert (Es : (if negb (Ks (S i) =? Ks i) then sample cfg (sol (S i)) :: ser i else ser i) = ser (S i)).
    { unfold ser. cbn [gather]. destruct (Ks (S i) =? Ks i); cbn [negb]; [reflexivity|].
      rewrite rev_app_distr. reflexivity. }
    rewrite Es. fold (st (S i)). f_equal. f_equal. unfold outs, newc, newd. f_equal.
    pose proof (K_le t (cpi cfg) N Hc i Hi). pose proof (K_le t (dfi cfg) N Hd i Hi). f_equal.
    - destruct (Kd (S i) =? Kd i) eqn:E; cbn [negb]; [reflexivity|]. apply Nat.eqb_neq in E.
      replace (Kd (S i)) with (S (Kd i)) by lia. reflexivity.
    - destruct (Kc (S i) =? Kc i) eqn:E; cbn [negb]; [reflexivity|]. apply Nat.eqb_neq in E.
      replace (Kc (S i)) with (S (Kc i)) at 1 by lia. reflexivity.
  Qed.

  Lemma start : (do sc <- bschedule 0%R Rplus; brun_tasks (mkb (sol 0) sc [] cfg, [])) = Ok (st 0, all_outs 0).
  Proof.
    assert (E : bschedule 0%R Rplus = Ok (S3 (mktask n_tsr 0 (0 + 0)%R true) (mktask n_chk 0 (0 + 0)%R true) (mktask n_dia 0 (0 + 0)%R true)))
      by (lazy -[Rplus]; reflexivity).
    rewrite E. bsimp. rewrite brun3 by (vm_compute; reflexivity). cbv zeta. f_equal.
    assert (Es : st 0 = mkb (sol 0) (S3 (done (mktask n_tsr 0 (0 + 0)%R true)) (done (mktask n_chk 0 (0 + 0)%R true))
        (done (mktask n_dia 0 (0 + 0)%R true))) [sample cfg (sol 0)] cfg).
    { unfold st, tk. rewrite (K_0 t (tsi cfg) N Hts), (K_0 t (cpi cfg) N Hc), (K_0 t (dfi cfg) N Hd).
      unfold done. cbn [t_due t_name t_count t_last]. cbn [INR]. rewrite !Rmult_0_l, Rplus_0_l. reflexivity. }
    rewrite <- Es. cbn [all_outs]. unfold outs, newc, newd. rewrite (K_0 t (cpi cfg) N Hc), (K_0 t (dfi cfg) N Hd). reflexivity.
  Qed.

  Context (Hnext : forall i, i < N -> next_solution cfg (sol i) = Ok (sol (S i))).
  Context (Hgo : forall i, i < N -> should_continue cfg (sol i) = true) (Hstop : should_continue cfg (sol N) = false).

  Lemma loop_run : forall n i, i <= N -> N <= i + n -> bloop n (st i, all_outs i) = Ok (st N, all_outs N).
  Proof.
    induction n as [|n IH]; intros i Hi Hn.
    - replace i with N by lia. reflexivity.
    - cbn [ScheduleModel.bloop fst]. change (b_cfg (st i)) with cfg. change (b_sol (st i)) with (sol i).
      destruct (Nat.eq_dec i N) as [->|Hne].
      + rewrite Hstop. reflexivity.
      + rewrite Hgo by lia. pose proof (round i (all_outs i) Hi (Hnext i ltac:(lia))) as R.
        destruct (bnext (st i, all_outs i)) as [w1| | |]; try discriminate R. revert R; bsimp. intros ->. bsimp.
        apply (IH (S i)); lia.
  Qed.

  Lemma main_run n : N <= n ->
    binary_main 0%R Rplus tdueR next_solution time_of cpi dfi tsi should_continue diagnose sample cfg (sol 0) n = Ok (st N, all_outs N).
  Proof.
    intros Hn. unfold binary_main. pose proof start as R. destruct (bschedule 0%R Rplus) as [sc| | |]; try discriminate R.
    revert R; bsimp. intros ->. bsimp. apply loop_run; lia.
  Qed.

  Lemma program_run n : N <= n -> next_solution cfg (sol N) = Ok (sol (S N)) ->
    binary_program 0%R Rplus tdueR next_solution time_of cpi dfi tsi should_continue diagnose sample cfg (sol 0) n
      = Ok (all_outs (S N), 0%Z).
  Proof.
    intros Hn Hlast. unfold binary_program. rewrite main_run by exact Hn. bsimp. cbn [fst].
    change (b_cfg (st N)) with cfg. change (b_sol (st N)) with (sol N). rewrite Hstop.
    pose proof (round N (all_outs N) (le_n N) Hlast) as R.
    destruct (bnext (st N, all_outs N)) as [w1| | |]; try discriminate R. revert R; bsimp. intros ->. bsimp. reflexivity.
  Qed.

  Lemma program_fails n e : N <= n -> next_solution cfg (sol N) = Throw e ->
    binary_program 0%R Rplus tdueR next_solution time_of cpi dfi tsi should_continue diagnose sample cfg (sol 0) n = Throw e.
  Proof.
    intros Hn Hlast. unfold binary_program. rewrite main_run by exact Hn. bsimp. cbn [fst].
    change (b_cfg (st N)) with cfg. change (b_sol (st N)) with (sol N). rewrite Hstop.
    unfold ScheduleModel.bnext. cbn [st b_cfg b_sol]. rewrite Hlast. reflexivity.
  Qed.

  Lemma needs_fuel n : n < N ->
    binary_program 0%R Rplus tdueR next_solution time_of cpi dfi tsi should_continue diagnose sample cfg (sol 0) n = NoFuel.
  Proof.
    intros Hn. unfold binary_program, binary_main. pose proof start as R. destruct (bschedule 0%R Rplus) as [sc| | |]; try discriminate R.
    revert R; bsimp. intros ->. bsimp.
    assert (G : forall m i, i + m < N -> exists o, bloop m (st i, all_outs i) = Ok (st (i + m), o)).
    { induction m as [|m IH]; intros i Hi; [rewrite Nat.add_0_r; eexists; reflexivity|].
      cbn [ScheduleModel.bloop fst]. change (b_cfg (st i)) with cfg. change (b_sol (st i)) with (sol i).
      rewrite Hgo by lia. pose proof (round i (all_outs i) ltac:(lia) (Hnext i ltac:(lia))) as R.
      destruct (bnext (st i, all_outs i)) as [w1| | |]; try discriminate R. revert R; bsimp. intros ->. bsimp.
      destruct (IH (S i) ltac:(lia)) as (o & Ho). exists o. rewrite <- Nat.add_succ_comm. exact Ho. }
    destruct (G n 0 Hn) as (o & ->). bsimp. cbn [fst Nat.add].
    change (b_cfg (st n)) with cfg. change (b_sol (st n)) with (sol n). rewrite Hgo by lia. reflexivity.
  Qed.

  (** The outputs of one kind. *)
  Definition cps (o : list bout) : list (Z * Sol * list Sample) :=
    flat_map (fun x => match x with OutCheckpoint n f => [(n, f_sol f, f_series f)] | _ => [] end) o.
  Definition dgs (o : list bout) : list (Z * Diag) :=
    flat_map (fun x => match x with OutDiagnostics n d => [(n, d)] | _ => [] end) o.

  Lemma cps_all i : cps (all_outs i) = gather t (cpi cfg) (fun i => (Z.of_nat (Kc i), sol i, gather t (tsi cfg) smp i)) i.
  Proof.
    assert (E : forall i, cps (outs i) = if newc i then [(Z.of_nat (Kc i), sol i, gather t (tsi cfg) smp i)] else []).
    { intros j. unfold outs, cps. rewrite flat_map_app. replace (flat_map _ (if newd j then _ else _)) with (@nil (Z * Sol * list Sample))
        by (destruct (newd j); reflexivity).
      destruct (newc j); [|reflexivity]. cbn [flat_map app bwrite f_sol f_series st b_sol b_series]. unfold ser. rewrite rev_involutive. reflexivity. }
    induction i as [|i IH]; cbn [all_outs gather].
    - rewrite E. reflexivity.
    - unfold cps in *. rewrite flat_map_app, IH, E. unfold newc. destruct (Kc (S i) =? Kc i); cbn [negb]; [apply app_nil_r|reflexivity].
  Qed.
  Lemma dgs_all i : dgs (all_outs i) = gather t (dfi cfg) (fun i => (Z.of_nat (Kd i), diagnose cfg (sol i))) i.
  Proof.
    assert (E : forall i, dgs (outs i) = if newd i then [(Z.of_nat (Kd i), diagnose cfg (sol i))] else []).
    { intros j. unfold outs, dgs. rewrite flat_map_app. replace (flat_map _ (if newc j then _ else _)) with (@nil (Z * Diag))
        by (destruct (newc j); reflexivity).
      destruct (newd j); reflexivity. }
    induction i as [|i IH]; cbn [all_outs gather].
    - rewrite E. reflexivity.
    - unfold dgs in *. rewrite flat_map_app, IH, E. unfold newd. destruct (Kd (S i) =? Kd i); cbn [negb]; [apply app_nil_r|reflexivity].
  Qed.
End binary.
