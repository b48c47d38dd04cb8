(** Proofs about killed and resumed runs. *)
From Coq Require Import Ascii String Bool ZArith Lia Permutation Arith List.
From Verif Require Import Base StrModel MapModel MapProofs ScheduleModel ScheduleProofs RestartProofs FsModel KillModel.
Import ListNotations.
Close Scope Z_scope.
Open Scope nat_scope.

(** Closes the goals in which a call that has to succeed does not. *)
Ltac bad_in H := match type of H with
  | Throw _ = Ok _ => discriminate H | UB = Ok _ => discriminate H | NoFuel = Ok _ => discriminate H
  | bind (Throw _) _ = Ok _ => discriminate H | bind UB _ = Ok _ => discriminate H | bind NoFuel _ = Ok _ => discriminate H
  end.
Ltac bad := try match goal with
  | H : _ |- _ => bad_in H
  | |- _ -> _ => let H := fresh in intros H; bad_in H
  | |- _ -> _ -> _ => let H := fresh in intros _ H; bad_in H
  end.

Section kill.
  Context {T : Type} (tzero : T) (tadd : T -> T -> T) (tdue : T -> T -> T -> bool).
  Context {Sol Cfg Sample Diag : Type} (next_solution : Cfg -> Sol -> outcome Sol) (time_of : Sol -> T).
  Context (cpi dfi tsi : Cfg -> T) (should_continue : Cfg -> Sol -> bool).
  Context (diagnose : Cfg -> Sol -> Diag) (sample : Cfg -> Sol -> Sample).
  Context (cfg : Cfg) (sol : Sol).
  Notation bout := (@bout T Sol Cfg Sample Diag).
  Notation bfile := (@bfile T Sol Cfg Sample).
  Notation bstate := (@bstate T Sol Cfg Sample).
  Notation bworld := (@bworld T Sol Cfg Sample Diag).
  Notation directory := (@directory T Sol Cfg Sample Diag).
  Notation start := (@start T Sol Cfg Sample).
  Notation brun_tasks := (brun_tasks (T := T) diagnose sample).
  Notation bnext := (bnext (Sample := Sample) (Diag := Diag) tadd tdue next_solution time_of cpi dfi tsi).
  Notation bloop := (bloop tadd tdue next_solution time_of cpi dfi tsi should_continue diagnose sample).
  Notation main := (binary_main tzero tadd tdue next_solution time_of cpi dfi tsi should_continue diagnose sample cfg sol).
  Notation rounds := (rounds tzero tadd tdue next_solution time_of cpi dfi tsi should_continue diagnose sample cfg sol).
  Notation program := (program tzero tadd tdue next_solution time_of cpi dfi tsi should_continue diagnose sample cfg sol).
  Notation killed := (killed tzero tadd tdue next_solution time_of cpi dfi tsi should_continue diagnose sample cfg sol).
  Notation agree := (agree next_solution cpi dfi tsi should_continue diagnose sample).
  Notation good := (@good T Sol Cfg Sample Diag).
  Notation rc := (@rc T Sol Cfg Sample).
  Notation rco := (@rco T Sol Cfg Sample Diag).
  Notation go s := (should_continue (b_cfg s) (b_sol s)).

  Lemma rounds_fresh m : rounds Fresh m = main m.
  Proof. unfold KillModel.rounds, create_state, binary_main. destruct (bschedule tzero tadd); reflexivity. Qed.

  Lemma loop_good n : forall w w', good w -> b_cfg (fst w) = cfg -> bloop n w = Ok w' ->
    good w' /\ b_cfg (fst w') = cfg /\ exists d, snd w' = snd w ++ d.
  Proof.
    induction n as [|n IH]; intros w w' HG Hc HL; cbn [ScheduleModel.bloop] in HL.
    - injection HL as <-. split; auto. split; auto. exists []. rewrite app_nil_r. reflexivity.
    - destruct (go (fst w)) eqn:ES; [|injection HL as <-; split; auto; split; auto; exists []; rewrite app_nil_r; reflexivity].
      destruct (bnext w) as [[s1 o1]| | |] eqn:E1; bad. revert HL; bsimp; intros HL.
      destruct (brun_tasks (s1, o1)) as [[s2 o2]| | |] eqn:E2; bad. revert HL; bsimp; intros HL.
      destruct w as [s o]. destruct HG as [HG1 HG2]. cbn [fst snd] in *.
      destruct (bnext_ok tzero tadd tdue next_solution time_of cpi dfi tsi s o s1 o1 HG1 E1) as (B1 & C1 & ->).
      destruct (brun_facts tzero tadd tdue diagnose sample s1 o s2 o2 B1 E2) as (B2 & N2 & d & Hd & Ho).
      pose proof (task_cfg diagnose sample s1 o s2 o2 B1 E2) as C2.
      destruct (IH (s2, o2) w') as (G & C & e & E); auto.
      { split; auto. }
      { cbn. congruence. }
      split; auto. split; auto. cbn [snd] in E. destruct Ho as [-> | (c & ->)]; rewrite E, <- !app_assoc; eauto.
  Qed.

  Definition main_begin : outcome bworld := do sc <- bschedule tzero tadd; brun_tasks (mkb sol sc [] cfg, []).
  Lemma main_eq m : main m = do w <- main_begin; bloop m w.
  Proof. unfold binary_main, main_begin. destruct (bschedule tzero tadd); reflexivity. Qed.

  Lemma begin_good w : main_begin = Ok w -> good w /\ b_cfg (fst w) = cfg /\
    exists d, (forall x, In x d -> is_chk x = false) /\ (snd w = d \/ exists c, snd w = d ++ [OutCheckpoint c (bwrite (fst w))]).
  Proof.
    unfold main_begin. destruct (bschedule tzero tadd) as [sc| | |] eqn:ES; bad. bsimp. intros H.
    apply (bschedule_ok tzero tadd) in ES. destruct w as [s1 o1].
    change (bsched_ok (b_sched (mkb (Sample:=Sample) sol sc [] cfg))) in ES.
    destruct (brun_facts tzero tadd tdue diagnose sample _ _ _ _ ES H) as (B1 & N1 & d & Hd & Ho).
    pose proof (task_cfg diagnose sample _ _ _ _ ES H) as C1. cbn in C1.
    split; [split; auto|]. split; [exact C1|]. exists d. split; auto.
  Qed.

  Lemma main_good m w : main m = Ok w -> good w /\ b_cfg (fst w) = cfg.
  Proof.
    rewrite main_eq. destruct main_begin as [w0| | |] eqn:E; bad. bsimp. intros H.
    destruct (begin_good w0 E) as (G & C & _). destruct (loop_good m w0 w G C H) as (G' & C' & _). auto.
  Qed.
  Lemma main_add m k w : main m = Ok w -> main (m + k) = bloop k w.
  Proof. rewrite !main_eq. destruct main_begin as [w0| | |]; bad. bsimp. intros H. rewrite bloop_add, H. reflexivity. Qed.
  Lemma main_mono m k w w' : main m = Ok w -> main (m + k) = Ok w' -> exists d, snd w' = snd w ++ d.
  Proof.
    intros H. rewrite (main_add m k w H). intros H'. destruct (main_good m w H) as [G C].
    destruct (loop_good k w w' G C H') as (_ & _ & E). exact E.
  Qed.
  Lemma loop_stop k w : go (fst w) = false -> bloop k w = Ok w.
  Proof. intros H. destruct k; cbn [ScheduleModel.bloop]; rewrite ?H; reflexivity. Qed.
  Lemma main_stop m k w : main m = Ok w -> go (fst w) = false -> main (m + k) = Ok w.
  Proof. intros H Hs. rewrite (main_add m k w H). apply loop_stop. exact Hs. Qed.
  Lemma main_end a b wa wb : main a = Ok wa -> go (fst wa) = false -> main b = Ok wb -> go (fst wb) = false -> wa = wb.
  Proof.
    intros Ha Ga Hb Gb. destruct (le_lt_dec a b) as [L|L].
    - pose proof (main_stop a (b - a) wa Ha Ga) as E. replace (a + (b - a)) with b in E by lia. congruence.
    - pose proof (main_stop b (a - b) wb Hb Gb) as E. replace (b + (a - b)) with a in E by lia. congruence.
  Qed.

  (** The checkpoint at a place of the outputs is the last output of a round. *)
  Lemma split_at {A} (x : A) l : forall o r B, l ++ x :: B = o ++ r -> length o <= length l -> exists e, l = o ++ e /\ r = e ++ x :: B.
  Proof.
    induction l as [|y l IH]; intros o r B E L.
    - destruct o; [|cbn in L; lia]. exists []. cbn in *. auto.
    - destruct o as [|z o]; [exists (y :: l); auto|]. cbn [app] in E. injection E as -> E. cbn [length] in L.
      destruct (IH o r B E ltac:(lia)) as (e & -> & ->). exists e. auto.
  Qed.
  Lemma split_in {A} (x : A) l : forall o r B, l ++ x :: B = o ++ r -> length l < length o -> exists e, o = l ++ x :: e /\ B = e ++ r.
  Proof.
    induction l as [|y l IH]; intros o r B E L.
    - destruct o as [|z o]; [cbn in L; lia|]. cbn in E. injection E as -> ->. exists o. auto.
    - destruct o as [|z o]; [cbn in L; lia|]. cbn [app] in E. injection E as -> E. cbn [length] in L.
      destruct (IH o r B E ltac:(lia)) as (e & -> & ->). exists e. auto.
  Qed.

  Lemma at_the_end o d o2 s2 A c f (e : list bout) : (forall x : bout, In x d -> is_chk x = false) ->
    (o2 = o ++ d \/ exists c' : Z, o2 = o ++ d ++ [OutCheckpoint c' (bwrite s2)]) ->
    o2 = A ++ OutCheckpoint c f :: e -> length o <= length A -> o2 = A ++ [OutCheckpoint c f] /\ f = bwrite s2.
  Proof.
    intros Hd Ho HA HL. destruct Ho as [Ho|(c' & Ho)].
    - rewrite HA in Ho. destruct (split_at _ _ _ _ _ Ho HL) as (e' & -> & Ed).
      assert (X : In (OutCheckpoint c f) d) by (rewrite Ed; apply in_app_iff; right; left; reflexivity).
      apply Hd in X. discriminate.
    - rewrite HA in Ho. destruct (split_at _ _ _ _ _ Ho HL) as (e' & -> & Ed).
      destruct (le_lt_dec (length d) (length e')) as [L|L].
      + symmetry in Ed. destruct (split_at _ _ _ _ _ Ed L) as (e2 & -> & E2).
        destruct e2 as [|z e2]; cbn [app] in E2.
        * injection E2 as -> <- <-. rewrite app_nil_r in HA. rewrite HA, app_nil_r. auto.
        * injection E2 as _ E2. destruct e2; discriminate.
      + symmetry in Ed. destruct (split_in _ _ _ _ _ Ed L) as (e2 & -> & E2).
        assert (X : In (OutCheckpoint c f) (e' ++ OutCheckpoint c f :: e2)) by (apply in_app_iff; right; left; reflexivity).
        apply Hd in X. discriminate.
  Qed.

  Lemma loop_at n : forall w w' A c f B, good w -> b_cfg (fst w) = cfg -> bloop n w = Ok w' ->
    snd w' = A ++ OutCheckpoint c f :: B -> length (snd w) <= length A ->
    exists m wm, bloop m w = Ok wm /\ snd wm = A ++ [OutCheckpoint c f] /\ f = bwrite (fst wm).
  Proof.
    induction n as [|n IH]; intros w w' A c f B HG Hc HL HA HN; cbn [ScheduleModel.bloop] in HL.
    - injection HL as <-. rewrite HA, app_length in HN. cbn in HN. lia.
    - destruct (go (fst w)) eqn:ES; [|injection HL as <-; rewrite HA, app_length in HN; cbn in HN; lia].
      destruct (bnext w) as [[s1 o1]| | |] eqn:E1; bad. revert HL; bsimp; intros HL.
      destruct (brun_tasks (s1, o1)) as [[s2 o2]| | |] eqn:E2; bad. revert HL; bsimp; intros HL.
      destruct w as [s o]. destruct HG as [HG1 HG2]. cbn [fst snd] in *.
      destruct (bnext_ok tzero tadd tdue next_solution time_of cpi dfi tsi s o s1 o1 HG1 E1) as (B1 & C1 & ->).
      destruct (brun_facts tzero tadd tdue diagnose sample s1 o s2 o2 B1 E2) as (B2 & N2 & d & Hd & Ho).
      pose proof (task_cfg diagnose sample s1 o s2 o2 B1 E2) as C2.
      assert (G2 : good (s2, o2)) by (split; auto).
      assert (C2' : b_cfg (fst (s2, o2)) = cfg) by (cbn; congruence).
      assert (EL : forall m, bloop (S m) (s, o) = bloop m (s2, o2)).
      { intros m. cbn [ScheduleModel.bloop fst]. rewrite ES, E1. bsimp. rewrite E2. reflexivity. }
      destruct (le_lt_dec (length o2) (length A)) as [L|L].
      + destruct (IH (s2, o2) w' A c f B G2 C2' HL HA L) as (m & wm & H1 & H2 & H3). exists (S m), wm. rewrite EL. auto.
      + destruct (loop_good n (s2, o2) w' G2 C2' HL) as (_ & _ & e & He). rewrite HA in He. cbn [snd] in He.
        destruct (split_in _ _ _ _ _ He L) as (e2 & E & _).
        destruct (at_the_end o d o2 s2 A c f e2 Hd Ho E HN) as [F1 F2].
        exists 1, (s2, o2). rewrite EL. cbn [ScheduleModel.bloop fst snd]. auto.
  Qed.
  Lemma main_at n w' A c f B : main n = Ok w' -> snd w' = A ++ OutCheckpoint c f :: B ->
    exists m wm, main m = Ok wm /\ snd wm = A ++ [OutCheckpoint c f] /\ f = bwrite (fst wm).
  Proof.
    intros HM HA. rewrite main_eq in HM. destruct main_begin as [w0| | |] eqn:E0; bad. revert HM; bsimp; intros HM.
    destruct (begin_good w0 E0) as (G & C & d & Hd & Ho).
    assert (EM : forall m, main m = bloop m w0) by (intros m; rewrite main_eq, E0; reflexivity).
    destruct (le_lt_dec (length (snd w0)) (length A)) as [L|L].
    - destruct (loop_at n w0 w' A c f B G C HM HA L) as (m & wm & H1 & H2 & H3). exists m, wm. rewrite EM. auto.
    - destruct (loop_good n w0 w' G C HM) as (_ & _ & e & He). rewrite HA in He.
      destruct (split_in _ _ _ _ _ He L) as (e2 & E & _).
      destruct (at_the_end [] d (snd w0) (fst w0) A c f e2 Hd Ho E) as [F1 F2]; [cbn; lia|].
      exists 0, w0. rewrite EM. cbn [ScheduleModel.bloop]. auto.
  Qed.

  (** ** Where a resumed run stands in the original one *)
  Definition place (st : start) (P : list bout) : Prop :=
    (st = Fresh /\ P = []) \/
    exists f l c m sm, st = From f l c /\ agree cfg c /\ main m = Ok (sm, P) /\ bread f l c = rc c sm.

  Notation norm := (map (rco cfg)).
  Lemma rco_rco c c' x : rco c (rco c' x) = rco c x.
  Proof. destruct x; reflexivity. Qed.
  Lemma norm_rco c o : norm (map (rco c) o) = norm o.
  Proof. rewrite map_map. apply map_ext. intros x. apply rco_rco. Qed.

  Lemma from_sim f l c m sm P : agree cfg c -> main m = Ok (sm, P) -> bread f l c = rc c sm ->
    forall k, rel_out (Rw cfg c P) (main (m + k)) (rounds (From f l c) k).
  Proof.
    intros HA HM HB k. destruct (main_good m _ HM) as [[G1 G2] C]. cbn [fst] in *.
    unfold KillModel.rounds, create_state. bsimp. rewrite HB.
    rewrite (none_due_noop diagnose sample (rc c sm) []) by auto. bsimp.
    rewrite (main_add m k _ HM).
    apply (sim_loop tadd tdue next_solution time_of cpi dfi tsi should_continue diagnose sample cfg c HA P k (sm, P) (rc c sm, [])).
    split; [exact C|]. split; [reflexivity|]. exists []. cbn. rewrite app_nil_r. auto.
  Qed.

  Lemma place_rounds st P k s o : place st P -> rounds st k = Ok (s, o) ->
    exists m D s', main m = Ok (s', P ++ D) /\ norm o = norm D /\ b_sol s = b_sol s' /\ go s = go s'.
  Proof.
    intros [[-> ->]|(f & l & c & m & sm & -> & HA & HM & HB)] H.
    - rewrite rounds_fresh in H. exists k, o, s. auto.
    - pose proof (from_sim f l c m sm P HA HM HB k) as R. rewrite H in R.
      destruct (main (m + k)) as [[s1 o1]| | |] eqn:E; try contradiction. destruct R as [C [F (d & D1 & D2)]]. cbn [fst snd] in *.
      subst s o1 o. exists (m + k), d, s1. split; auto. split; [apply norm_rco|]. split; [reflexivity|].
      cbn. destruct HA as (_ & _ & _ & _ & HS & _). rewrite HS, C. reflexivity.
  Qed.

  (** The uninterrupted run. *)
  Context (N : nat) (O : list bout) (HO : program Fresh N = Ok (O, 0%Z)).

  Lemma main_N : exists s o s2 d, main N = Ok (s, o) /\ go s = false /\ O = o ++ d /\
    (do w1 <- bnext (s, o); brun_tasks w1) = Ok (s2, O) /\
    exists d1, (forall x, In x d1 -> is_chk x = false) /\ (d = d1 \/ exists c f, d = d1 ++ [OutCheckpoint c f]).
  Proof.
    unfold KillModel.program in HO. rewrite rounds_fresh in HO. destruct (main N) as [[s o]| | |] eqn:E; bad.
    revert HO; bsimp; intros H. cbn [fst] in H. destruct (go s) eqn:G; [discriminate|].
    destruct (bnext (s, o)) as [[s1 o1]| | |] eqn:E1; bad. revert H; bsimp; intros H.
    destruct (brun_tasks (s1, o1)) as [[s2 o2]| | |] eqn:E2; bad. revert H; bsimp; intros H. injection H as <-.
    destruct (main_good N _ E) as [[G1 G2] C]. cbn [fst] in *.
    destruct (bnext_ok tzero tadd tdue next_solution time_of cpi dfi tsi s o s1 o1 G1 E1) as (B1 & C1 & ->).
    destruct (brun_facts tzero tadd tdue diagnose sample s1 o s2 o2 B1 E2) as (B2 & N2 & d & Hd & Ho).
    destruct Ho as [-> | (c & ->)].
    - exists s, o, s2, d. split; auto. split; auto. split; auto. split; [rewrite E1; bsimp; exact E2|]. exists d. auto.
    - exists s, o, s2, (d ++ [OutCheckpoint c (bwrite s2)]). split; auto. split; auto. split; auto. split; [rewrite E1; bsimp; exact E2|].
      exists d. split; auto. right. eauto.
  Qed.

  Lemma main_prefix m s o : main m = Ok (s, o) -> exists D, O = o ++ D.
  Proof.
    intros H. destruct main_N as (sN & oN & s2 & d & HN & GN & -> & _). destruct (le_lt_dec m N) as [L|L].
    - replace N with (m + (N - m)) in HN by lia. destruct (main_mono m (N - m) _ _ H HN) as (e & E). cbn [snd] in E. subst oN.
      exists (e ++ d). rewrite app_assoc. reflexivity.
    - pose proof (main_stop N (m - N) _ HN GN) as E. replace (N + (m - N)) with m in E by lia. rewrite E in H. injection H as <- <-.
      exists d. reflexivity.
  Qed.

  (** A resumed run that comes to its end writes what the original one wrote after its place. *)
  Lemma place_program st P n o : place st P -> program st n = Ok (o, 0%Z) -> exists D, O = P ++ D /\ norm o = norm D.
  Proof.
    intros [[-> ->]|(f & l & c & m & sm & -> & HA & HM & HB)] H.
    - exists O. split; [reflexivity|]. f_equal.
      assert (E : forall a b oa ob, program Fresh a = Ok (oa, 0%Z) -> program Fresh b = Ok (ob, 0%Z) -> oa = ob).
      { intros a b oa ob. unfold KillModel.program. rewrite !rounds_fresh.
        destruct (main a) as [wa| | |] eqn:Ea; bad. destruct (main b) as [wb| | |] eqn:Eb; bad. bsimp.
        destruct (go (fst wa)) eqn:Ga; bad. destruct (go (fst wb)) eqn:Gb; bad.
        rewrite (main_end a b wa wb Ea Ga Eb Gb). intros X Y. congruence. }
      apply (E n N); auto.
    - pose proof (from_sim f l c m sm P HA HM HB n) as R. unfold KillModel.program in H.
      destruct (rounds (From f l c) n) as [[s' o']| | |] eqn:ER; bad. revert H; bsimp; intros H. cbn [fst] in H.
      destruct (main (m + n)) as [[s1 o1]| | |] eqn:EM; try contradiction.
      assert (GE : go s' = go s1).
      { destruct R as [C [F _]]. cbn [fst] in *. subst s'. cbn. destruct HA as (_ & _ & _ & _ & HS & _). rewrite HS, C. reflexivity. }
      destruct (go s') eqn:G; [discriminate|]. symmetry in GE.
      destruct main_N as (sN & oN & s2 & d & HN & GN & _ & HL & _).
      pose proof (main_end _ _ _ _ EM GE HN GN) as EW. injection EW as -> ->.
      destruct (bnext (s', o')) as [w1| | |] eqn:E1; bad. revert H; bsimp; intros H.
      destruct (brun_tasks w1) as [w2| | |] eqn:E2; bad. revert H; bsimp; intros H. injection H as <-.
      pose proof (sim_next tadd tdue next_solution time_of cpi dfi tsi should_continue diagnose sample cfg c HA P _ _ R) as R1.
      rewrite E1 in R1. destruct (bnext (sN, oN)) as [v1| | |]; try contradiction. revert HL; bsimp; intros HL. cbn [rel_out] in R1.
      pose proof (sim_run next_solution cpi dfi tsi should_continue diagnose sample cfg c HA P _ _ R1) as R2.
      rewrite E2, HL in R2. destruct R2 as [_ [_ (e & D1 & D2)]]. cbn [snd] in *. exists e. split; auto. rewrite D2. apply norm_rco.
  Qed.

  (** It does come to its end. *)
  Lemma place_ends st P : place st P -> exists o, program st N = Ok (o, 0%Z).
  Proof.
    intros [[-> ->]|(f & l & c & m & sm & -> & HA & HM & HB)]; [eauto|].
    pose proof (from_sim f l c m sm P HA HM HB N) as R.
    destruct main_N as (sN & oN & s2 & d & HN & GN & _ & HL & _).
    assert (EM : main (m + N) = Ok (sN, oN)) by (rewrite Nat.add_comm; apply main_stop; assumption).
    rewrite EM in R. unfold KillModel.program. destruct (rounds (From f l c) N) as [[s' o']| | |]; try contradiction. bsimp.
    assert (GE : go s' = false).
    { destruct R as [C [F _]]. cbn [fst] in *. subst s'. cbn. destruct HA as (_ & _ & _ & _ & HS & _). rewrite HS, <- C. exact GN. }
    cbn [fst]. rewrite GE.
    pose proof (sim_next tadd tdue next_solution time_of cpi dfi tsi should_continue diagnose sample cfg c HA P _ _ R) as R1.
    destruct (bnext (sN, oN)) as [v1| | |]; bad. revert HL; bsimp; intros HL.
    destruct (bnext (s', o')) as [w1| | |]; try contradiction. bsimp. cbn [rel_out] in R1.
    pose proof (sim_run next_solution cpi dfi tsi should_continue diagnose sample cfg c HA P _ _ R1) as R2.
    rewrite HL in R2. destruct (brun_tasks w1) as [w2| | |]; try contradiction. bsimp. eauto.
  Qed.

  (** The next start after a kill. *)
  Lemma norm_app_inv (a : list bout) : forall b D, norm (a ++ b) = norm D -> exists D1 D2, D = D1 ++ D2 /\ norm a = norm D1 /\ norm b = norm D2.
  Proof.
    induction a as [|x a IH]; intros b D E; [exists [], D; auto|]. destruct D as [|y D]; [discriminate|]. cbn [app map] in E.
    injection E as E1 E2. destruct (IH b D E2) as (D1 & D2 & -> & H1 & H2). exists (y :: D1), D2. cbn [map]. split; auto. split; auto. congruence.
  Qed.
  Lemma norm_chk c f (y : bout) : rco cfg (OutCheckpoint c f) = rco cfg y ->
    exists f0, y = OutCheckpoint c f0 /\ f_sol f = f_sol f0 /\ f_sched f = f_sched f0 /\ f_series f = f_series f0.
  Proof. destruct y as [c0 f0|]; cbn; [|discriminate]. intros E. injection E as -> E1 E2 E3. exists f0. auto. Qed.

  Lemma killed_place st P done next : place st P -> killed st done next ->
    exists D1 D2, O = P ++ D1 ++ D2 /\ norm done = norm D1 /\
      match next with None => True | Some x => exists y r, D2 = y :: r /\ rco cfg x = rco cfg y end.
  Proof.
    intros HP HK.
    assert (G : forall rest D, being next rest -> O = P ++ D -> norm (done ++ rest) = norm D \/ (exists e D', D = D' ++ e /\ norm (done ++ rest) = norm D') ->
      exists D1 D2, O = P ++ D1 ++ D2 /\ norm done = norm D1 /\
      match next with None => True | Some x => exists y r, D2 = y :: r /\ rco cfg x = rco cfg y end).
    { intros rest D HB HD HE.
      assert (HE' : exists e D', D = D' ++ e /\ norm (done ++ rest) = norm D').
      { destruct HE as [HE|HE]; auto. exists [], D. rewrite app_nil_r. auto. }
      destruct HE' as (e & D' & -> & HE'). destruct (norm_app_inv _ _ _ HE') as (D1 & D2 & -> & H1 & H2).
      exists D1, (D2 ++ e). rewrite <- app_assoc in HD. split; auto. split; auto. destruct next as [x|]; auto.
      destruct rest as [|x' rest]; [discriminate|]. cbn in HB. injection HB as ->. destruct D2 as [|y D2]; [discriminate|].
      cbn [map] in H2. injection H2 as H2 _. exists y, (D2 ++ e). auto. }
    destruct HK as [(m & s & rest & HR & HB)|(n & x & rest & HR & HB)].
    - destruct (place_rounds st P m s _ HP HR) as (m' & D & s' & HM & HN & _). destruct (main_prefix _ _ _ HM) as (e & He).
      apply (G rest (D ++ e) HB); [rewrite app_assoc; exact He|]. right. eauto.
    - destruct (place_program st P n _ HP HR) as (D & HD & HN). apply (G (x :: rest) D HB HD). auto.
  Qed.

  Lemma killed_from st P done next pre n f post l c : place st P -> killed st done next ->
    done = pre ++ OutCheckpoint n f :: post -> Permutation l (f_sched f) -> agree cfg c ->
    exists D1 D2 y, O = P ++ (D1 ++ [y]) ++ D2 /\ norm pre = norm D1 /\ rco cfg (OutCheckpoint n f) = rco cfg y /\
      place (From f l c) (P ++ D1 ++ [y]) /\ exists D3 D4, D2 = D3 ++ D4 /\ norm post = norm D3 /\
        match next with None => True | Some x => exists y r, D4 = y :: r /\ rco cfg x = rco cfg y end.
  Proof.
    intros HP HK HD HL HA.
    destruct (killed_place st P done next HP HK) as (E1 & E2 & EO & EN & EX).
    rewrite HD in EN. destruct (norm_app_inv _ _ _ EN) as (D1 & D2 & -> & H1 & H2).
    destruct D2 as [|y D3]; [discriminate|]. cbn [map] in H2. injection H2 as HY H3.
    change (rco cfg (OutCheckpoint n f) = rco cfg y) in HY.
    exists D1, (D3 ++ E2), y. split; [rewrite EO, <- !app_assoc; reflexivity|]. split; auto. split; auto.
    split; [|exists D3, E2; auto]. right.
    destruct (norm_chk _ _ _ HY) as (f0 & -> & F1 & F2 & F3).
    (* the checkpoint is an output of the loop *)
    assert (HM : exists k w' B, main k = Ok w' /\ snd w' = (P ++ D1) ++ OutCheckpoint n f0 :: B).
    { destruct main_N as (sN & oN & s2 & d & HN & GN & HOd & HLs & d1 & Hd1 & Hd).
      assert (HOO : O = (P ++ D1) ++ OutCheckpoint n f0 :: D3 ++ E2) by (rewrite EO, <- !app_assoc; reflexivity).
      destruct (le_lt_dec (length oN) (length (P ++ D1))) as [L|L].
      2: { rewrite HOd in HOO. symmetry in HOO. destruct (split_in _ _ _ _ _ HOO L) as (e & E & _). exists N, (sN, oN), e. auto. }
      (* beyond the loop: it would be the last output of all *)
      rewrite HOd in HOO. symmetry in HOO. destruct (split_at _ _ _ _ _ HOO L) as (e & Ee & Ed).
      assert (HX : D3 ++ E2 = []).
      { destruct Hd as [-> | (c' & f' & ->)].
        - exfalso. assert (X : In (OutCheckpoint n f0) d1) by (rewrite Ed; apply in_app_iff; right; left; reflexivity).
          apply Hd1 in X. discriminate.
        - destruct (le_lt_dec (length d1) (length e)) as [L1|L1].
          + symmetry in Ed. destruct (split_at _ _ _ _ _ Ed L1) as (e2 & -> & E2'). destruct e2 as [|z e2]; cbn [app] in E2'.
            * injection E2' as _ _ <-. reflexivity.
            * injection E2' as _ E2'. destruct e2; discriminate.
          + symmetry in Ed. destruct (split_in _ _ _ _ _ Ed L1) as (e2 & -> & E2').
            exfalso. assert (X : In (OutCheckpoint n f0) (e ++ OutCheckpoint n f0 :: e2)) by (apply in_app_iff; right; left; reflexivity).
            apply Hd1 in X. discriminate. }
      apply app_eq_nil in HX. destruct HX as [-> ->].
      destruct HK as [(m & s & rest & HR & HB)|(k & x & rest & HR & HB)].
      - destruct (place_rounds st P m s _ HP HR) as (m' & D & s' & HM & HNN & _).
        rewrite HD in HNN. rewrite <- app_assoc in HNN. destruct (norm_app_inv _ _ _ HNN) as (X1 & X2 & -> & Y1 & Y2).
        destruct X2 as [|z X2]; [discriminate|]. destruct (main_prefix _ _ _ HM) as (e3 & He3).
        assert (Q : (P ++ D1) ++ OutCheckpoint n f0 :: [] = (P ++ X1) ++ z :: X2 ++ e3).
        { transitivity O; [rewrite EO, <- !app_assoc; reflexivity|]. rewrite He3, <- !app_assoc. reflexivity. }
        assert (LL : length (P ++ D1) = length (P ++ X1)).
        { rewrite !app_length. f_equal. rewrite <- (map_length (rco cfg) D1), <- (map_length (rco cfg) X1). congruence. }
        destruct (split_at _ _ _ _ _ Q ltac:(lia)) as (e4 & Q1 & Q2).
        assert (e4 = []) by (destruct e4; auto; rewrite Q1, app_length in LL; cbn in LL; lia). subst e4. cbn [app] in Q2.
        injection Q2 as -> Q2. exists m', (s', P ++ X1 ++ OutCheckpoint n f0 :: X2), X2. split; auto. cbn [snd].
        rewrite app_nil_r in Q1. rewrite Q1, <- !app_assoc. reflexivity.
      - destruct (place_program st P k _ HP HR) as (D & HDD & HNN).
        assert (D = D1 ++ [OutCheckpoint n f0]).
        { apply (app_inv_head P). rewrite <- HDD, EO, app_nil_r. reflexivity. }
        subst D. exfalso. apply (f_equal (@length _)) in HNN. rewrite HD in HNN. rewrite !map_length, !app_length in HNN. cbn [length] in HNN.
        apply (f_equal (@length _)) in H1. rewrite !map_length in H1.
        rewrite ?app_length in HNN. cbn [length] in HNN. lia. }
    destruct HM as (k & w' & B & HM & HB).
    destruct (main_at k w' (P ++ D1) n f0 B HM HB) as (m & [sm om] & M1 & M2 & M3). cbn [fst snd] in *.
    exists f, l, c, m, sm. split; auto. split; auto. split; [rewrite M1, M2, <- app_assoc; reflexivity|].
    destruct (main_good m _ M1) as [[G1 G2] C]. cbn [fst] in *.
    transitivity (bread f0 l c).
    { unfold bread. rewrite F1, F3. reflexivity. }
    rewrite M3. apply bread_bwrite; auto. rewrite <- M3, <- F2. exact HL.
  Qed.

  (** ** Directories *)
  Lemma same_name_iff a b : same_name a b = true <-> a = b.
  Proof.
    unfold same_name. destruct (str_cmp a b) eqn:E.
    - apply cmp_eq in E. tauto.
    - split; [discriminate|]. intros ->. rewrite cmp_refl in E. discriminate.
    - split; [discriminate|]. intros ->. rewrite cmp_refl in E. discriminate.
  Qed.

  Definition named (name : str) (x : bout) : bool := same_name (file_name x) name.
  (** The last file written under a name. *)
  Definition last_named (name : str) (o : list bout) : option bout := find (named name) (rev o).

  Lemma write_all_app (d : directory) (a b : list bout) : write_all d (a ++ b) = write_all (write_all d a) b.
  Proof. apply fold_left_app. Qed.
  Lemma write_all_name o : forall (d : directory) name,
    write_all d o name = match last_named name o with Some x => Some (Whole x) | None => d name end.
  Proof.
    induction o as [|x o IH] using rev_ind; intros d name; [reflexivity|].
    rewrite write_all_app. unfold last_named. rewrite rev_app_distr. cbn [rev app find write_all fold_left].
    unfold store. unfold named at 1. destruct (same_name (file_name x) name); [reflexivity|]. apply IH.
  Qed.

  (** Contents that differ at most in the recorded configuration. *)
  Definition alike (a b : option (content (T := T) (Sol := Sol) (Cfg := Cfg) (Sample := Sample) (Diag := Diag))) : Prop :=
    match a, b with
    | None, None => True
    | Some (Whole x), Some (Whole y) => rco cfg x = rco cfg y
    | _, _ => False
    end.

  Lemma named_rco name (x y : bout) : rco cfg x = rco cfg y -> named name x = named name y.
  Proof. destruct x as [k f|k x], y as [k' f'|k' y]; cbn; intros E; try discriminate E; injection E as -> E; reflexivity. Qed.
  Lemma last_named_rco name (a b : list bout) : norm a = norm b ->
    match last_named name a, last_named name b with None, None => True | Some x, Some y => rco cfg x = rco cfg y | _, _ => False end.
  Proof.
    intros E. unfold last_named.
    assert (E' : norm (rev a) = norm (rev b)) by (rewrite !map_rev, E; reflexivity). revert E'. generalize (rev a), (rev b). clear a b E.
    induction l as [|x l IH]; intros [|y l'] E; try discriminate E; cbn [find]; [exact I|]. cbn [map] in E. injection E as E1 E2.
    change (rco cfg x = rco cfg y) in E1. rewrite (named_rco name x y E1). destruct (named name y); [exact E1|exact (IH l' E2)].
  Qed.
  Lemma last_named_none name o : last_named name o = None <-> forall x, In x o -> named name x = false.
  Proof.
    unfold last_named. split.
    - intros H x Hx. apply (find_none _ _ H). apply in_rev in Hx. exact Hx.
    - intros H. destruct (find (named name) (rev o)) as [x|] eqn:E; auto. apply find_some in E. destruct E as [E1 E2].
      rewrite H in E2; [discriminate|]. apply in_rev. exact E1.
  Qed.
  Lemma last_named_app name a b : last_named name (a ++ b) = match last_named name b with Some x => Some x | None => last_named name a end.
  Proof.
    unfold last_named. rewrite rev_app_distr. generalize (rev b). induction l as [|x l IH]; cbn [app find]; auto.
    destruct (named name x); auto.
  Qed.
  Lemma norm_none name (a b : list bout) : norm a = norm b -> last_named name b = None -> last_named name a = None.
  Proof. intros E H. pose proof (last_named_rco name a b E) as X. rewrite H in X. destruct (last_named name a); auto. contradiction. Qed.

  (** The directory agrees with the original run on all names that will not be written any more. *)
  Definition inv (st : start) (d : directory) : Prop :=
    exists P D, place st P /\ O = P ++ D /\
      forall name, last_named name D = None -> alike (d name) (write_all (empty : directory) P name).

  Lemma inv_fresh : inv Fresh empty.
  Proof. exists [], O. split; [left; auto|]. split; [reflexivity|]. intros name _. exact I. Qed.

  Lemma left_by_name (d : directory) done next name :
    match next with None => True | Some x => named name x = false end -> left_by d done next name = write_all d done name.
  Proof. destruct next as [x|]; cbn [left_by]; auto. unfold store, named. intros ->. reflexivity. Qed.

  Lemma inv_same st d done next : inv st d -> killed st done next -> inv st (left_by d done next).
  Proof.
    intros (P & D & HP & HD & HI) HK. destruct (killed_place st P done next HP HK) as (D1 & D2 & EO & EN & EX).
    assert (D = D1 ++ D2) by (apply (app_inv_head P); congruence). subst D.
    exists P, (D1 ++ D2). split; auto. split; auto. intros name HN.
    pose proof HN as HN'. rewrite last_named_app in HN'. destruct (last_named name D2) eqn:L2; [discriminate|].
    rewrite left_by_name.
    - rewrite write_all_name, (norm_none name done D1 EN HN'). apply HI. exact HN.
    - destruct next as [x|]; auto. destruct EX as (y & r & -> & E). rewrite (named_rco name x y E).
      apply (proj1 (last_named_none name _) L2). left. reflexivity.
  Qed.

  Lemma inv_from st d done next pre n f post l c : inv st d -> killed st done next ->
    done = pre ++ OutCheckpoint n f :: post -> Permutation l (f_sched f) -> agree cfg c ->
    inv (From f l c) (left_by d done next).
  Proof.
    intros (P & D & HP & HD & HI) HK Hdone HL HA.
    destruct (killed_from st P done next pre n f post l c HP HK Hdone HL HA) as (D1 & D2 & y & EO & E1 & EY & HPL & D3 & D4 & E2 & E3 & EX).
    assert (D = (D1 ++ [y]) ++ D2) by (apply (app_inv_head P); congruence). subst D.
    exists (P ++ D1 ++ [y]), D2. split; auto. split; [rewrite EO, <- !app_assoc; reflexivity|]. intros name HN.
    pose proof HN as HN'. rewrite E2, last_named_app in HN'. destruct (last_named name D4) eqn:L4; [discriminate|].
    rewrite left_by_name.
    2: { destruct next as [x|]; auto. destruct EX as (z & r & -> & E). rewrite (named_rco name x z E).
         apply (proj1 (last_named_none name _) L4). left. reflexivity. }
    rewrite Hdone. change (OutCheckpoint n f :: post) with ([OutCheckpoint n f] ++ post). rewrite app_assoc.
    rewrite !write_all_name, !last_named_app. rewrite (norm_none name post D3 E3 HN').
    assert (EE : norm (pre ++ [OutCheckpoint n f]) = norm (D1 ++ [y])) by (rewrite !map_app, E1; cbn [map]; rewrite EY; reflexivity).
    pose proof (last_named_rco name _ _ EE) as X. rewrite !last_named_app in X.
    pose proof (HI name) as HI'. rewrite last_named_app, HN, last_named_app in HI'. rewrite write_all_name in HI'.
    cbn [app] in *. destruct (last_named name [OutCheckpoint n f]) as [a|]; destruct (last_named name [y]) as [b|]; cbn [alike]; auto; try contradiction.
    - destruct (last_named name D1); [|contradiction]. exact X.
    - destruct (last_named name pre); [exact X|contradiction].
    - destruct (last_named name pre), (last_named name D1); try contradiction; [exact X|]. apply HI'. reflexivity.
  Qed.

  Lemma inv_ends st d : inv st d -> exists o, program st N = Ok (o, 0%Z) /\
    forall name, alike (write_all d o name) (write_all (empty : directory) O name).
  Proof.
    intros (P & D & HP & HD & HI). destruct (place_ends st P HP) as (o & Ho). exists o. split; auto. intros name.
    destruct (place_program st P N o HP Ho) as (D' & ED & EN). assert (D' = D) by (apply (app_inv_head P); congruence). subst D'.
    pose proof (last_named_rco name o D EN) as X. rewrite HD.
    rewrite write_all_name. rewrite write_all_app, (write_all_name D). specialize (HI name).
    destruct (last_named name o), (last_named name D); try contradiction; [exact X|]. apply HI. reflexivity.
  Qed.
End kill.
