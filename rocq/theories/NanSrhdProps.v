(** C128: values that are not numbers and the relativistic recover_primitive. *)
From Coq Require Import ZArith Reals List Bool Arith Lia.
From Flocq Require Import IEEE754.BinarySingleNaN.
From Verif Require Import Base NanModel NanProofs NanProps NanSedovModel NanSedovProps NanSrhdModel.
Import ListNotations.
Close Scope Z_scope.
Open Scope nat_scope.

(** A state of which some component is not a number. *)
Definition spoilt (U : w5) : Prop := is_nan (w0 U) = true \/ is_nan (w1 U) = true \/ is_nan (w2 U) = true \/ is_nan (w3 U) = true \/ is_nan (w4 U) = true.
Definition above_zero (x : b64) : Prop := lt64 zero64 x = true.
Lemma not_le64 x : le64 x zero64 = false -> is_nan x = true \/ above_zero x.
Proof. unfold above_zero, le64, lt64. destruct x as [s|[|]| |[|] m e o]; cbn; intros H; try discriminate; auto. Qed.

Section Recover.
Variable square : b64 -> b64.
Hypothesis square_nan : forall x, is_nan x = true -> is_nan (square x) = true.
Variables (gm temperature_floor : b64).
Lemma pass_nan D tau SS p : is_nan D = true \/ is_nan tau = true \/ is_nan SS = true -> is_nan (snd (fst (pass64 square gm D tau SS p))) = true.
Proof.
  intros H. unfold pass64. cbv zeta. cbn [fst snd]. apply nan_sub_l, nan_mul_l, nan_mul_r, nan_div_r, nan_mul_r.
  assert (V : is_nan (std_min (div64 SS (square (add64 (add64 tau D) p))) (sub64 one64 tiny64)) = true).
  { assert (Q : is_nan (div64 SS (square (add64 (add64 tau D) p))) = true). { destruct H as [H|[H|H]]; [apply nan_div_r, square_nan, nan_add_l, nan_add_r, H|apply nan_div_r, square_nan, nan_add_l, nan_add_l, H|apply nan_div_l, H]. }
    unfold std_min. rewrite lt64_nan_r by exact Q. exact Q. }
  set (v2 := std_min _ _) in *. assert (Q : is_nan (div64 one64 (sub64 one64 v2)) = true) by (apply nan_div_r, nan_sub_r, V). destruct (div64 one64 (sub64 one64 v2)); try discriminate Q. reflexivity.
Qed.
Lemma newton_nan D tau SS : is_nan D = true \/ is_nan tau = true \/ is_nan SS = true -> forall fuel p, newton64 square gm fuel D tau SS p = None.
Proof.
  intros H. induction fuel as [|k IH]; intros p; [reflexivity|]. cbn [newton64]. pose proof (pass_nan D tau SS p H) as F. destruct (pass64 square gm D tau SS p) as [[W f] p']. cbn [fst snd] in F. rewrite lt64_nan_l by (rewrite nan_abs; exact F). apply IH.
Qed.
Lemma pass_density D tau SS p : is_nan (div64 D (fst (fst (pass64 square gm D tau SS p)))) = true -> is_nan (snd (fst (pass64 square gm D tau SS p))) = true.
Proof. unfold pass64. cbv zeta. cbn [fst snd]. intros X. apply nan_sub_l, nan_mul_l, nan_mul_l, X. Qed.
Lemma newton_found : forall fuel D tau SS p W p', newton64 square gm fuel D tau SS p = Some (W, p') -> is_nan W = false /\ is_nan (div64 D W) = false.
Proof.
  induction fuel as [|k IH]; intros D tau SS p W p' E; [discriminate|]. cbn [newton64] in E. destruct (pass64 square gm D tau SS p) as [[W1 f] p1] eqn:P. destruct (lt64 (abs64 f) tiny64) eqn:L; [|exact (IH _ _ _ _ _ _ E)].
  assert (W1 = W) as -> by congruence. clear E. apply lt64_numbers in L as [L _]. rewrite nan_abs in L.
  assert (N : is_nan (div64 D W) = false). { destruct (is_nan (div64 D W)) eqn:X; [|reflexivity]. pose proof (pass_density D tau SS p) as Q. rewrite P in Q. cbn [fst snd] in Q. specialize (Q X). rewrite L in Q. discriminate Q. }
  split; [|exact N]. destruct (is_nan W) eqn:X; [|reflexivity]. rewrite (nan_div_r _ _ X) in N. discriminate N.
Qed.

(** A state that holds a NaN is never taken for a gas. *)
Theorem nan_state_rejected U : spoilt U -> srecover square gm temperature_floor U = Throw InvalidArgument.
Proof.
  intros H. unfold srecover. cbv zeta. rewrite newton_nan; [reflexivity|]. destruct H as [H|[H|[H|[H|H]]]]; [left; exact H| | | |right; left; exact H]; right; right; [apply nan_add_l, nan_add_l, nan_mul_l, H|apply nan_add_l, nan_add_r, nan_mul_l, H|apply nan_add_r, nan_mul_l, H].
Qed.
(** What is returned has a density above zero, a number, and a pressure that is above zero or not a number. *)
Theorem recovered_gas U P : srecover square gm temperature_floor U = Ok P -> ~ spoilt U /\ above_zero (w0 P) /\ (is_nan (w4 P) = true \/ above_zero (w4 P)).
Proof.
  intros E. split; [intros H; rewrite (nan_state_rejected U H) in E; discriminate|]. unfold srecover in E. cbv zeta in E. destruct (newton64 _ _ _ _ _ _ _) as [[W p0]|] eqn:N; [|discriminate]. apply newton_found in N as [_ N]. cbn [w0 w4] in E.
  destruct (le64 (div64 (w0 U) W) zero64) eqn:A; [discriminate|]. match type of E with context [le64 ?x zero64] => destruct (le64 x zero64) eqn:B end; [discriminate|]. destruct (is_nan W); [discriminate|]. assert (Q : forall (x y : w5), Ok x = Ok y -> x = y) by congruence. apply Q in E. subst P. cbn [w0 w4]. split; [|apply not_le64, B]. destruct (not_le64 _ A) as [X|X]; [congruence|exact X].
Qed.
(** The last check, for a Lorentz factor that is not a number, never finds one. *)
Theorem lorentz_check_is_idle fuel D tau SS p W p' : newton64 square gm fuel D tau SS p = Some (W, p') -> is_nan W = false.
Proof. intros E. apply newton_found in E. tauto. Qed.

(** *** The explosion program *)
Variables (n : nat) (dv : nat -> b64) (dt : b64) (update : (nat -> w5) -> list w5 -> nat -> w5).
Lemma srecover_cases U : (exists P, srecover square gm temperature_floor U = Ok P) \/ srecover square gm temperature_floor U = Throw InvalidArgument.
Proof.
  unfold srecover. cbv zeta. destruct (newton64 _ _ _ _ _ _ _) as [[W p]|]; [|right; reflexivity]. destruct (le64 _ _); [right; reflexivity|]. destruct (le64 _ _); [right; reflexivity|]. destruct (is_nan W); [right; reflexivity|]. left. eexists. reflexivity.
Qed.
Lemma mapM_rejects {A} (g : A -> w5) l x : In x l -> spoilt (g x) -> mapM (fun i => srecover square gm temperature_floor (g i)) l = Throw InvalidArgument.
Proof.
  induction l as [|y l IH]; intros Hx H; [destruct Hx|]. cbn [mapM]. destruct Hx as [-> |Hx]; [rewrite (nan_state_rejected _ H); reflexivity|]. destruct (srecover_cases (g y)) as [[P ->]| ->]; [|reflexivity]. cbn [bind]. rewrite (IH Hx H). reflexivity.
Qed.
(** A shell that holds a NaN ends the run in the next step, whatever the rest of the step would do... *)
Theorem spoilt_shell_ends_the_run u i : i < n -> spoilt (u i) -> rstep square gm temperature_floor n dv update u = Throw InvalidArgument.
Proof.
  intros Hi H. unfold rstep. rewrite (mapM_rejects (fun i => map5 (fun x => div64 x (dv i)) (u i)) (seq 0 n) i); [reflexivity|apply in_seq; lia|]. unfold spoilt in *. cbn [map5 w0 w1 w2 w3 w4]. destruct H as [H|[H|[H|[H|H]]]]; apply (nan_div_l _ (dv i)) in H; tauto.
Qed.
(** ... so in a run loop that gets to its end no state but the last holds one... *)
Theorem finished_run_is_clean tfinal : forall fuel m time u m' time' u', rloop square gm temperature_floor n dv dt update tfinal fuel m time u = Ok (m', time', u') ->
  m <= m' /\ rsteps square gm temperature_floor n dv update (m' - m) u = Ok u' /\ forall k, m + k < m' -> exists v, rsteps square gm temperature_floor n dv update k u = Ok v /\ forall i, i < n -> ~ spoilt (v i).
Proof.
  induction fuel as [|f IH]; intros m time u m' time' u' E; [discriminate|]. cbn [rloop] in E. destruct (lt64 time tfinal).
  - apply bind_ok_inv in E as (v & Ev & E). destruct (IH _ _ _ _ _ _ E) as (A & B & C). split; [lia|]. split.
    + replace (m' - m) with (S (m' - S m)) by lia. cbn [rsteps]. rewrite Ev. exact B.
    + intros [|k] Hk; [exists u; split; [reflexivity|]; intros i Hi H; rewrite (spoilt_shell_ends_the_run u i Hi H) in Ev; discriminate|]. cbn [rsteps]. rewrite Ev. cbn [bind]. apply C. lia.
  - assert (X : m' = m /\ u' = u) by (split; congruence). destruct X as [-> ->]. rewrite Nat.sub_diag. split; [lia|]. split; [reflexivity|]. intros k Hk. lia.
Qed.
(** ... and if the program returns, not even the last: it makes one more step after the loop. *)
Theorem returned_program_is_clean tfinal fuel time u m' time' u' : rmain square gm temperature_floor n dv dt update tfinal fuel time u = Ok (m', time', u') ->
  rsteps square gm temperature_floor n dv update m' u = Ok u' /\ forall k, k <= m' -> exists v, rsteps square gm temperature_floor n dv update k u = Ok v /\ forall i, i < n -> ~ spoilt (v i).
Proof.
  intros E. unfold rmain in E. apply bind_ok_inv in E as (r & L & E). apply bind_ok_inv in E as (v & V & E). assert (r = (m', time', u')) as -> by congruence. cbn [snd] in V.
  apply finished_run_is_clean in L as (_ & B & C). rewrite Nat.sub_0_r in B. split; [exact B|]. intros k Hk. destruct (Nat.eq_dec k m') as [-> |Hn]; [|apply C; lia]. exists u'. split; [exact B|]. intros i Hi H. rewrite (spoilt_shell_ends_the_run u' i Hi H) in V. discriminate.
Qed.
End Recover.

(** Not every state that is returned consists of numbers: the check for the pressure is written with [<=], false for a NaN.  Density 2^-16,
    momentum 1 and an energy that cancels the rest mass: the residual is below the tolerance in the first pass, where the slope is 0 / 0.
    A floor for the temperature does not help, std::max(NaN, x) being NaN. *)
Definition own_square (x : b64) : b64 := mul64 x x.
Definition small64 : b64 := div64 one64 (of_int 65536%Z).
Definition no_energy : w5 := W5 small64 one64 zero64 zero64 (opp64 small64).
Definition all5 (f : b64 -> bool) (U : w5) : bool := f (w0 U) && f (w1 U) && f (w2 U) && f (w3 U) && f (w4 U).
Definition accepted (test : w5 -> bool) (o : outcome w5) : bool := match o with Ok P => test P | _ => false end.
Lemma accepted_ok test o : accepted test o = true -> exists P, o = Ok P /\ test P = true. Proof. destruct o as [P| | |]; try discriminate. intros H. exists P. split; [reflexivity|exact H]. Qed.
Theorem recovered_numbers_refuted : all5 (@is_finite 53 1024) no_energy = true /\ forall floor, In floor [zero64; small64] -> exists P, srecover own_square gamma64 floor no_energy = Ok P /\ is_nan (w1 P) && is_nan (w2 P) && is_nan (w3 P) && is_nan (w4 P) = true.
Proof.
  split; [vm_compute; reflexivity|]. intros floor [<-|[<-|[]]]; apply (accepted_ok (fun P => is_nan (w1 P) && is_nan (w2 P) && is_nan (w3 P) && is_nan (w4 P))); vm_compute; reflexivity.
Qed.
(** Nor is an infinite momentum rejected: the squared velocity is cut off at 1 - 1e-10. *)
Theorem infinite_momentum_refuted : exists P, srecover own_square gamma64 zero64 (W5 one64 (B754_infinity false) zero64 zero64 (of_int 300000%Z)) = Ok P /\ negb (is_finite (w1 P)) && is_finite (w0 P) && is_finite (w4 P) = true.
Proof. apply (accepted_ok (fun P => negb (is_finite (w1 P)) && is_finite (w0 P) && is_finite (w4 P))). vm_compute. reflexivity. Qed.

(** Beside the theorems: a gas is recovered; with a NaN for its momentum it is rejected; [own_square] meets the hypothesis. *)
Example recovered_example : (forall x, is_nan x = true -> is_nan (own_square x) = true) /\ accepted (all5 (@is_finite 53 1024)) (srecover own_square gamma64 zero64 (W5 one64 one64 zero64 zero64 two64)) = true /\
  srecover own_square gamma64 zero64 (W5 one64 B754_nan zero64 zero64 two64) = Throw InvalidArgument.
Proof.
  assert (S : forall x, is_nan x = true -> is_nan (own_square x) = true) by (intros x H; apply nan_mul_l, H). split; [exact S|]. split; [vm_compute; reflexivity|]. apply (nan_state_rejected _ S). right. left. reflexivity.
Qed.
(** A run of two shells with an update that keeps the gas takes four steps; one with an update that spoils it ends in the second. *)
Definition gas (i : nat) : w5 := W5 one64 one64 zero64 zero64 two64.
Definition keep (u : nat -> w5) (p : list w5) : nat -> w5 := u.
Definition spoil (u : nat -> w5) (p : list w5) (i : nat) : w5 := if i =? 1 then W5 B754_nan one64 zero64 zero64 two64 else u i.
Example run_ends_example : match rloop own_square gamma64 zero64 2 ones half64 keep two64 10 0 zero64 gas with Ok r => fst (fst r) =? 4 | _ => false end = true /\ match rmain own_square gamma64 zero64 2 ones half64 keep two64 10 zero64 gas with Ok r => fst (fst r) =? 4 | _ => false end = true /\
  match rsteps own_square gamma64 zero64 2 ones spoil 1 gas with Ok _ => true | _ => false end = true /\ rloop own_square gamma64 zero64 2 ones half64 spoil two64 10 0 zero64 gas = Throw InvalidArgument.
Proof. split; [vm_compute; reflexivity|]. split; [vm_compute; reflexivity|]. split; vm_compute; reflexivity. Qed.

Print Assumptions nan_state_rejected.
Print Assumptions recovered_gas.
Print Assumptions lorentz_check_is_idle.
Print Assumptions spoilt_shell_ends_the_run.
Print Assumptions finished_run_is_clean.
Print Assumptions returned_program_is_clean.
Print Assumptions recovered_numbers_refuted.
Print Assumptions infinite_momentum_refuted.
