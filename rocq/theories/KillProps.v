(** C108: runs that are killed and resumed. *)
From Coq Require Import Ascii String Bool ZArith Lia Permutation Arith List.
From Verif Require Import Base StrModel MapModel ScheduleModel RestartProofs FsModel RunModel KillModel KillProofs.
Import ListNotations.
Close Scope Z_scope.
Open Scope nat_scope.

(** Two files that differ at most in the configuration they record. *)
Definition same_file {T Sol Cfg Sample Diag} (x y : @bout T Sol Cfg Sample Diag) : Prop :=
  match x, y with
  | OutCheckpoint n f, OutCheckpoint n' f' => n = n' /\ f_sol f = f_sol f' /\ f_sched f = f_sched f' /\ f_series f = f_series f'
  | OutDiagnostics n d, OutDiagnostics n' d' => n = n' /\ d = d'
  | _, _ => False
  end.
(** The same names, with whole files of the same contents. *)
Definition same_directory {T Sol Cfg Sample Diag} (d d' : @directory T Sol Cfg Sample Diag) : Prop :=
  forall name, match d name, d' name with
               | None, None => True
               | Some (Whole x), Some (Whole y) => same_file x y
               | _, _ => False
               end.

Section binary.
Context {T : Type} (tzero : T) (tadd : T -> T -> T) (tdue : T -> T -> T -> bool).
Context {Sol Cfg Sample Diag : Type} (next_solution : Cfg -> Sol -> outcome Sol) (time_of : Sol -> T).
Context (cpi dfi tsi : Cfg -> T) (should_continue : Cfg -> Sol -> bool).
Context (diagnose : Cfg -> Sol -> Diag) (sample : Cfg -> Sol -> Sample).
Context (cfg : Cfg) (sol : Sol).
Notation program := (program tzero tadd tdue next_solution time_of cpi dfi tsi should_continue diagnose sample cfg sol).
Notation killed := (killed tzero tadd tdue next_solution time_of cpi dfi tsi should_continue diagnose sample cfg sol).
Notation agree := (agree next_solution cpi dfi tsi should_continue diagnose sample cfg).
Notation start := (@start T Sol Cfg Sample).

(** Any number of processes, each killed: the directory they leave, and how the next process is started. The first one is started anew in
    an empty directory. [choice d done st st']: after a process started from [st] has written [done], leaving the directory [d], the next
    one is started from [st']. *)
Inductive after_kills (choice : @directory T Sol Cfg Sample Diag -> list bout -> start -> start -> Prop)
  : start -> @directory T Sol Cfg Sample Diag -> Prop :=
| at_first : after_kills choice Fresh empty
| once_more st d done next st' : after_kills choice st d -> killed st done next -> choice (left_by d done next) done st st' ->
    after_kills choice st' (left_by d done next).

(** The next process is started from the last checkpoint that the killed one has completed, if it has completed one, and otherwise
    in the way the killed one was. The file may be iterated in any order, and the configuration may differ from the original one in what does
    not affect the run (such as the name of the restart file). *)
Definition last_checkpoint (d : @directory T Sol Cfg Sample Diag) (done : list (@bout T Sol Cfg Sample Diag)) (st st' : start) : Prop :=
  match st' with
  | From f l c =>
      (exists pre n post, done = pre ++ OutCheckpoint n f :: post /\ (forall n' f', ~ In (OutCheckpoint n' f') post) /\
         Permutation l (f_sched f) /\ agree c) \/
      (st' = st /\ forall n' f', ~ In (OutCheckpoint n' f') done)
  | Fresh => st = Fresh /\ forall n' f', ~ In (OutCheckpoint n' f') done
  end.
(** The next process is started from any whole checkpoint in the directory. *)
Definition any_checkpoint (d : @directory T Sol Cfg Sample Diag) (done : list (@bout T Sol Cfg Sample Diag)) (st st' : start) : Prop :=
  exists f l c, st' = From f l c /\ (exists name n, d name = Some (Whole (OutCheckpoint n f))) /\ Permutation l (f_sched f) /\ agree c.

(** However often and wherever the run is killed: resumed each time from the last checkpoint written, it comes to its end as the
    run without a kill does, and the directory then holds the same files. *)
Theorem killed_and_resumed n O st d :
  binary_program tzero tadd tdue next_solution time_of cpi dfi tsi should_continue diagnose sample cfg sol n = Ok (O, 0%Z) ->
  after_kills last_checkpoint st d ->
  exists o, program st n = Ok (o, 0%Z) /\ same_directory (write_all d o) (write_all empty O).
Proof.
  intros HO' HA.
  assert (HO : program Fresh n = Ok (O, 0%Z)).
  { unfold KillModel.program. rewrite (rounds_fresh tzero tadd tdue next_solution time_of cpi dfi tsi should_continue diagnose sample cfg sol n).
    exact HO'. }
  assert (HI : inv tzero tadd tdue next_solution time_of cpi dfi tsi should_continue diagnose sample cfg sol O st d).
  { induction HA as [|st d done next st' HA IH HK HC].
    - apply inv_fresh.
    - unfold last_checkpoint in HC. destruct st' as [|f l c].
      + destruct HC as [-> _]. eapply inv_same; eauto.
      + destruct HC as [(pre & k & post & E & _ & HL & HAg)|[-> _]]; [eapply inv_from; eauto|eapply inv_same; eauto]. }
  destruct (inv_ends tzero tadd tdue next_solution time_of cpi dfi tsi should_continue diagnose sample cfg sol n O HO st d HI) as (o & Ho & HD).
  exists o. split; [exact Ho|]. intros name. specialize (HD name). unfold alike in HD.
  destruct (write_all d o name) as [[x|]|], (write_all empty O name) as [[y|]|]; try contradiction; auto.
  destruct x as [k f|k x], y as [k' f'|k' y]; cbn in *; try discriminate; injection HD; intros; subst; auto.
Qed.

(** The claim for any choice of checkpoint. *)
Definition resumed_anywhere : Prop :=
  forall n O st d,
  binary_program tzero tadd tdue next_solution time_of cpi dfi tsi should_continue diagnose sample cfg sol n = Ok (O, 0%Z) ->
  after_kills any_checkpoint st d ->
  exists o, program st n = Ok (o, 0%Z) /\ same_directory (write_all d o) (write_all empty O).
End binary.

(** A run of six unit steps with checkpoints every 2 and diagnostics every 3 (times in nat). *)
Definition ex_rounds := rounds 0 Nat.add (fun t l i => i <=? t - l) (fun _ s => Ok (S s)) (fun s => s) (fun _ : unit => 2) (fun _ => 3)
    (fun _ => 1) (fun _ s => s <? 6) (fun _ s => s) (fun _ s => s) tt 0.
Definition ex_program := program 0 Nat.add (fun t l i => i <=? t - l) (fun _ s => Ok (S s)) (fun s => s) (fun _ : unit => 2) (fun _ => 3)
    (fun _ => 1) (fun _ s => s <? 6) (fun _ s => s) (fun _ s => s) tt 0.
Definition outs {A B} (x : outcome (A * list B)) : list B := match x with Ok (_, o) => o | _ => [] end.
Definition ex_files (o : list (@bout nat nat unit nat nat)) :=
  map (fun x => match x with OutCheckpoint n f => (0, n, f_sol f) | OutDiagnostics n d => (1, n, d) end) o.
Definition no_file : @bfile nat nat unit nat := mkbf 0 [] [] tt.
Definition checkpoint_in (k : nat) (o : list (@bout nat nat unit nat nat)) : @bfile nat nat unit nat :=
  match nth_error o k with Some (OutCheckpoint _ f) => f | _ => no_file end.

Example killed_example :
  match ex_program Fresh 6 with Ok (o, code) => ex_files o = [(1, 0%Z, 0); (0, 0%Z, 0); (0, 1%Z, 3); (1, 1%Z, 4); (0, 2%Z, 5); (1, 2%Z, 7); (0, 3%Z, 7)] /\ code = 0%Z | _ => False end /\
  (* killed in round 4 while diagnostics 1 is written; resumed from checkpoint 1 *)
  let f := checkpoint_in 2 (outs (ex_rounds Fresh 4)) in
  match ex_program (From f (f_sched f) tt) 6 with Ok (o, code) => ex_files o = [(1, 1%Z, 4); (0, 2%Z, 5); (1, 2%Z, 7); (0, 3%Z, 7)] /\ code = 0%Z | _ => False end.
Proof. vm_compute. auto. Qed.

(** Resumed from an earlier checkpoint, killed in the middle of a file that was whole before, then resumed from a later checkpoint: the file
    stays torn. *)
Theorem resumed_anywhere_refuted :
  ~ (forall (next_solution : unit -> nat -> outcome nat) (time_of : nat -> nat) (cpi dfi tsi : unit -> nat) should_continue diagnose sample,
     resumed_anywhere (Sample := nat) (Diag := nat) 0 Nat.add (fun t l i => i <=? t - l) next_solution time_of cpi dfi tsi should_continue diagnose sample tt 0).
Proof.
  intros H.
  set (o1 := outs (ex_rounds Fresh 5)). set (f0 := checkpoint_in 1 o1). set (f2 := checkpoint_in 4 o1).
  set (o2 := outs (ex_rounds (From f0 (f_sched f0) tt) 4)).
  set (done2 := firstn 1 o2). set (x2 := nth 1 o2 (OutDiagnostics 0%Z 0)).
  set (d1 := left_by (empty (T := nat)) o1 None). set (d2 := left_by d1 done2 (Some x2)).
  assert (HX : forall c : unit, agree (fun _ s => Ok (S s)) (fun _ : unit => 2) (fun _ => 3) (fun _ => 1) (fun _ s => s <? 6) (fun (_ : unit) (s : nat) => s) (fun (_ : unit) (s : nat) => s) tt c)
    by (intros []; repeat split; auto).
  destruct (H (fun _ s => Ok (S s)) (fun s => s) (fun _ => 2) (fun _ => 3) (fun _ => 1) (fun _ s => s <? 6) (fun _ s => s) (fun _ s => s)
    6 (match ex_program Fresh 6 with Ok (o, _) => o | _ => [] end) (From f2 (f_sched f2) tt) d2) as (o & Ho & HD).
  - vm_compute. reflexivity.
  - apply once_more with (st := From f0 (f_sched f0) tt).
    + apply once_more with (st := Fresh).
      * apply at_first.
      * left. exists 5. eexists. exists []. rewrite app_nil_r. split; [vm_compute; reflexivity|exact I].
      * exists f0, (f_sched f0), tt. split; [reflexivity|]. split; [|split; [apply Permutation_refl|apply HX]].
        exists (lit "chkpt.0000.h5"), 0%Z. vm_compute. reflexivity.
    + left. exists 4. eexists. exists (skipn 1 o2). split; [vm_compute; reflexivity|vm_compute; reflexivity].
    + exists f2, (f_sched f2), tt. split; [reflexivity|]. split; [|split; [apply Permutation_refl|apply HX]].
      exists (lit "chkpt.0002.h5"), 2%Z. vm_compute. reflexivity.
  - assert (E : o = match ex_program (From f2 (f_sched f2) tt) 6 with Ok (o, _) => o | _ => [] end).
    { unfold ex_program. rewrite Ho. reflexivity. }
    specialize (HD (lit "diagnostics.0001.h5")). rewrite E in HD. vm_compute in HD. exact HD.
Qed.

(** ** The boilerplate and cloud programs *)

(** The last checkpoint written with a number: the solution it holds. *)
Definition kept {T Sol Cfg} (k : Z) (o : list (@sout T Sol Cfg)) : option Sol :=
  fold_left (fun r x => match x with SCheckpoint n f => if (n =? k)%Z then Some (sf_sol f) else r | _ => r end) o None.
(** The claim: killed after a checkpoint was written and resumed from it, the checkpoints in the directory are in the end those of the
    run without a kill. *)
Definition simple_resumes {T} (tzero : T) tadd tdue {Sol Cfg} next_solution time_of (others : list (str * (Cfg -> T))) cpi should_continue cfg (sol : Sol) : Prop :=
  forall n O pre c f post o,
  simple_program tzero tadd tdue next_solution time_of others cpi should_continue cfg sol n = Ok (O, 0%Z) ->
  O = pre ++ SCheckpoint c f :: post ->
  simple_resumed tadd tdue next_solution time_of others cpi should_continue f (sf_sched f) cfg n = Ok (o, 0%Z) ->
  forall k, kept k (pre ++ SCheckpoint c f :: o) = kept k O.
(** Killed after checkpoint 0, which holds the first state: the resumed run writes checkpoint 0 again, with a later state. *)
Theorem simple_resumes_refuted :
  ~ simple_resumes 0 Nat.add (fun t l i => i <=? t - l) (fun (_ : unit) s => Ok (S s)) (fun s => s) [] (fun _ => 2) (fun _ s => s <? 6) tt 0 /\
  ~ simple_resumes 0 Nat.add (fun t l i => i <=? t - l) (fun (_ : unit) s => Ok (S s)) (fun s => s)
      [(lit "write_diagnostics", fun _ => 3); (lit "write_time_series", fun _ => 1)] (fun _ => 2) (fun _ s => s <? 6) tt 0.
Proof.
  assert (W : forall others : list (str * (unit -> nat)), others = [] \/ others = [(lit "write_diagnostics", fun _ => 3); (lit "write_time_series", fun _ => 1)] ->
    ~ simple_resumes 0 Nat.add (fun t l i => i <=? t - l) (fun (_ : unit) s => Ok (S s)) (fun s => s) others (fun _ => 2) (fun _ s => s <? 6) tt 0).
  { intros others [-> | ->] H; unfold simple_resumes in H; specialize (H 6);
    match type of H with forall O pre c f post o, ?p = _ -> _ -> _ =>
      let r := eval vm_compute in p in
      match r with Ok (?x :: ?rest, _) =>
        match x with SCheckpoint _ ?f => specialize (H (x :: rest) [] 0%Z f rest) end end end;
    match type of H with forall o, _ -> _ -> ?p = _ -> _ =>
      let r := eval vm_compute in p in match r with Ok (?y, _) => specialize (H y) end end;
    specialize (H ltac:(vm_compute; reflexivity) eq_refl ltac:(vm_compute; reflexivity) 0%Z); vm_compute in H; discriminate H. }
  split; apply W; auto.
Qed.

Print Assumptions killed_and_resumed.
Print Assumptions resumed_anywhere_refuted.
Print Assumptions simple_resumes_refuted.
