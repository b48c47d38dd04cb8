(** C129, the relativistic explosion: its clock and its run loop in double arithmetic. *)
From Coq Require Import ZArith List Bool Arith Lia Classical.
From Flocq Require Import IEEE754.BinarySingleNaN.
From Verif Require Import Base NanModel NanProofs NanProps NanSedovModel NanSedovProps NanSrhdModel NanSrhdProps NanClockProps.
Import ListNotations.
Close Scope Z_scope.
Open Scope nat_scope.

Section Relativistic.
Variable square : b64 -> b64.
Variables (gm temperature_floor : b64) (n : nat) (dv : nat -> b64) (dt : b64) (update : (nat -> w5) -> list w5 -> nat -> w5).
Lemma rstep_cases u : (exists v, rstep square gm temperature_floor n dv update u = Ok v) \/ rstep square gm temperature_floor n dv update u = Throw InvalidArgument.
Proof.
  unfold rstep. assert (M : forall l, (exists p, mapM (fun i => srecover square gm temperature_floor (map5 (fun x => div64 x (dv i)) (u i))) l = Ok p) \/ mapM (fun i => srecover square gm temperature_floor (map5 (fun x => div64 x (dv i)) (u i))) l = Throw InvalidArgument).
  { induction l as [|i l IH]; [left; exists []; reflexivity|]. cbn [mapM]. destruct (srecover_cases square gm temperature_floor (map5 (fun x => div64 x (dv i)) (u i))) as [[P ->]| ->]; [|right; reflexivity]. cbn [bind]. destruct IH as [[p ->]| ->]; [left; eexists; reflexivity|right; reflexivity]. }
  destruct (M (seq 0 n)) as [[p ->]| ->]; [left; eexists; reflexivity|right; reflexivity].
Qed.
(** The run loop gets to the final time or ends with an exception, unless the clock stalls... *)
Theorem relativistic_run_ends tfinal t u : ~ stalls dt tfinal t -> exists fuel, (exists r, rloop square gm temperature_floor n dv dt update tfinal fuel 0 t u = Ok r) \/ rloop square gm temperature_floor n dv dt update tfinal fuel 0 t u = Throw InvalidArgument.
Proof.
  intros H. rewrite <- clock_never_arrives in H. apply not_all_ex_not in H as [k H]. assert (E : lt64 (clock dt k t) tfinal = false) by (destruct (lt64 _ _); [exfalso; apply H; reflexivity|reflexivity]). clear H. generalize 0. revert t u E.
  induction k as [|k IH]; intros t u E m; [exists 1; left; eexists; cbn [rloop]; cbn [clock] in E; rewrite E; reflexivity|].
  destruct (lt64 t tfinal) eqn:L; [|exists 1; left; eexists; cbn [rloop]; rewrite L; reflexivity].
  destruct (rstep_cases u) as [[v V]|V]; [|exists 1; right; cbn [rloop]; rewrite L, V; reflexivity].
  destruct (IH (add64 t dt) v E (S m)) as [f F]. exists (S f). cbn [rloop]. rewrite L, V. exact F.
Qed.
(** ... and a loop that gets there has a clock that does not. *)
Theorem relativistic_run_arrives tfinal fuel m t u r : rloop square gm temperature_floor n dv dt update tfinal fuel m t u = Ok r -> ~ stalls dt tfinal t /\ snd (fst r) = clock dt (fst (fst r) - m) t /\ lt64 (snd (fst r)) tfinal = false.
Proof.
  intros E. assert (Q : m <= fst (fst r) /\ snd (fst r) = clock dt (fst (fst r) - m) t /\ lt64 (snd (fst r)) tfinal = false).
  { revert m t u r E. induction fuel as [|f IH]; intros m t u r E; [discriminate|]. cbn [rloop] in E. destruct (lt64 t tfinal) eqn:L.
    - apply bind_ok_inv in E as (v & _ & E). apply IH in E as (A & B & C). split; [lia|]. split; [|exact C]. rewrite B. replace (fst (fst r) - m) with (S (fst (fst r) - S m)) by lia. reflexivity.
    - assert (r = (m, t, u)) as -> by congruence. cbn [fst snd]. rewrite Nat.sub_diag. split; [lia|]. split; [reflexivity|exact L]. }
  destruct Q as (_ & A & B). split; [|split; assumption]. intros S. rewrite <- clock_never_arrives in S. rewrite A, S in B. discriminate.
Qed.
End Relativistic.

(** Beside the theorems: four steps of a half to the final time 2, and a gas that is spoilt on the way. *)
Example relativistic_example : (exists r, rloop own_square gamma64 zero64 2 ones half64 keep two64 10 0 zero64 gas = Ok r /\ fst (fst r) = 4) /\ rloop own_square gamma64 zero64 2 ones half64 spoil two64 10 0 zero64 gas = Throw InvalidArgument /\ ~ stalls half64 two64 zero64.
Proof.
  destruct run_ends_example as (A & _ & _ & B). destruct arrives_example as (C & _). split; [|split; [exact B|exact C]]. destruct (rloop own_square gamma64 zero64 2 ones half64 keep two64 10 0 zero64 gas) as [r| | |]; try discriminate A. exists r. split; [reflexivity|]. apply Nat.eqb_eq, A.
Qed.

Print Assumptions relativistic_run_ends.
Print Assumptions relativistic_run_arrives.
