(** C26-C29: prime factors, process grids, domain decomposition, multi-threaded evaluation. *)
From Coq Require Import ZArith Znumtheory List Lia Bool Permutation Sorting.Sorted.
From Verif Require Import Base NdModel NdSpec NdProofs NdProofs2 NdProofs3 ParallelModel ParallelProofs ParallelProofs2.
Import ListNotations.
Open Scope Z_scope.

(** ** C26 *)

(** Every int of at least 2 except the primes from 2147395600 = 46340^2 on is factored into
    primes, in ascending order, with that product. *)
Theorem prime_factors_correct (fuel : nat) (num : Z) :
  2 <= num <= 2147483647 -> num < 2 ^ Z.of_nat fuel -> ~ (prime num /\ 2147395600 <= num) ->
  exists l, prime_factors fuel num = Ok l /\ Forall prime l /\ fold_right Z.mul 1 l = num /\ StronglySorted Z.le l.
Proof.
  intros H1 H2 H3. destruct (factors_sound fuel num [] H1 H2) as [[Q _]|[_ (l & E & L1 & L2 & L3)]]; [contradiction|].
  exists l. auto.
Qed.

(** The trial square overflows exactly for those primes. *)
Theorem prime_factors_undefined (fuel : nat) (num : Z) :
  2 <= num <= 2147483647 -> num < 2 ^ Z.of_nat fuel ->
  (prime_factors fuel num = UB <-> prime num /\ 2147395600 <= num).
Proof.
  intros H1 H2. destruct (factors_sound fuel num [] H1 H2) as [[Q E]|[Q (l & E & _)]]; unfold prime_factors; rewrite E.
  - split; [intros _; exact Q|reflexivity].
  - split; [discriminate|intros R; contradiction].
Qed.

(** So the statement for every number of at least 2 is false. *)
Lemma no_factor (fuel : nat) (num : Z) : factor_once num = UB -> forall l, prime_factors fuel num <> Ok l.
Proof. intros E l. destruct fuel; unfold prime_factors; cbn [prime_factors_impl]; [discriminate|]. rewrite E. discriminate. Qed.
Lemma no_factor_mersenne : factor_once 2147483647 = UB.
Proof. vm_compute. reflexivity. Qed.
Theorem prime_factors_every_number_refuted :
  ~ (forall num, 2 <= num <= 2147483647 -> exists fuel l, prime_factors fuel num = Ok l).
Proof.
  intros H. destruct (H 2147483647 ltac:(lia)) as (fuel & l & E). exact (no_factor fuel _ no_factor_mersenne l E).
Qed.

(** For 0 the recursion does not end, whatever the number of steps allowed. *)
Theorem prime_factors_of_zero_diverges (fuel : nat) : prime_factors fuel 0 = NoFuel.
Proof. apply factors_zero. Qed.

(** 1 is given the factor list [1], which is not a list of primes. *)
Theorem prime_factors_of_one (fuel : nat) : (0 < fuel)%nat -> prime_factors fuel 1 = Ok [1].
Proof. apply factors_one. Qed.

Example prime_factors_example :
  prime_factors 32 360 = Ok [2; 2; 2; 3; 3; 5] /\ prime_factors 32 97 = Ok [97] /\
  prime_factors 32 2147395600 = Ok [2; 2; 2; 2; 5; 5; 7; 7; 331; 331] /\ prime_factors 32 2147483629 = UB.
Proof. vm_compute. repeat split; reflexivity. Qed.

(** ** C27 *)

Theorem process_grid_uses_every_process (fuel rank : nat) (n : Z) :
  2 <= n <= 2147483647 -> n < 2 ^ Z.of_nat fuel -> ~ (prime n /\ 2147395600 <= n) ->
  (0 < rank)%nat -> Z.of_nat rank < 2 ^ 32 ->
  exists grid, propose_block_decomposition fuel rank n = Ok grid /\ length grid = rank /\
    fold_right Z.mul 1 grid = n /\ Forall (fun b => 1 <= b) grid.
Proof.
  intros H1 H2 H3 HR HB. destruct (prime_factors_correct fuel n H1 H2 H3) as (fs & E & F1 & F2 & _).
  unfold propose_block_decomposition. rewrite to_int_small by lia. rewrite E. bsimp.
  pose proof (primes_length fs F1) as PL. change (fold_right Z.mul 1 fs) with (prodl fs) in F2. rewrite F2 in PL.
  assert (LN : Z.of_nat (length fs) < 32).
  { destruct (Z.le_gt_cases 32 (Z.of_nat (length fs))) as [Q|]; [|assumption].
    pose proof (Z.pow_le_mono_r 2 32 _ ltac:(lia) Q). change (2 ^ 32) with 4294967296 in *. lia. }
  destruct (groups_products fs rank) as (l & EL & L1 & L2 & L3).
  - eapply Forall_impl; [|exact F1]. intros p Hp. destruct Hp; lia.
  - lia.
  - lia.
  - lia.
  - change (2 ^ 32) with 4294967296 in HB. unfold two64. nia.
  - change (2 ^ 32) with 4294967296 in HB. unfold two64. lia.
  - exists l. rewrite F2 in L2. change (fold_right Z.mul 1 l) with (prodl l). split; [exact EL|]. rewrite L2. auto.
Qed.

(** A single process also gets a grid of ones. *)
Example process_grid_example :
  propose_block_decomposition 32 2 12 = Ok [2; 6] /\ propose_block_decomposition 32 3 360 = Ok [4; 6; 15] /\
  propose_block_decomposition 32 2 7 = Ok [1; 7] /\ propose_block_decomposition 32 3 1 = Ok [1; 1; 1].
Proof. vm_compute. repeat split; reflexivity. Qed.

(** ** C28 *)

(** A block holds an index: every component is between the start and the final of the block. *)
Definition holds (p : access_pattern) (i : list Z) : Prop := stops (ap_start p) (ap_final p) (ap_jumps p) i.

Theorem domain_decomposition_tiles (global blocks : list Z) :
  Forall2 (fun e b => 0 <= e <= 2147483647 /\ 0 < b /\ b * e < 2 ^ 64) global blocks ->
  Forall2 (fun e b => b <= e) global blocks ->
  exists ps, create_access_pattern_array global blocks = Ok ps /\ ashape ps = blocks /\
    (forall i, inb global i ->
       exists idx p, inb blocks idx /\ aget ps idx = Ok p /\ holds p i /\
         forall idx' p', inb blocks idx' -> aget ps idx' = Ok p' -> holds p' i -> idx' = idx) /\
    (forall idx, inb blocks idx -> exists p, aget ps idx = Ok p /\
       (forall i, holds p i -> inb global i) /\
       Forall2 (fun '(e, b) '(s, f) => e / b <= f - s <= e / b + 1) (combine global blocks) (combine (ap_start p) (ap_final p))).
Proof.
  intros HS HB.
  assert (HS' : Forall2 sane global blocks).
  { clear -HS HB. induction HS as [|e b g bs (H1 & H2 & H3) HR IH]; [constructor|]. inversion HB; subst. constructor; [|apply IH; assumption].
    change (2 ^ 64) with two64 in H3. split; [assumption|]. split; [|assumption]. split; [assumption|]. unfold two64. lia. }
  destruct (block_tables_spec global blocks HS') as [T _]. specialize (T HB).
  unfold create_access_pattern_array. rewrite T. bsimp. eexists; split; [reflexivity|]. split; [reflexivity|].
  assert (GET : forall idx, inb blocks idx ->
    aget (bounds_check (mkarr blocks (fun idx => do b <- block_bounds (map (fun '(e, b) => map (block_pair e b) (seq 0 (Z.to_nat b))) (combine global blocks)) idx;
        Ok (mkap (fst b) (snd b) (map (fun _ => 1) blocks))))) idx
    = Ok (mkap (starts global blocks idx) (finals global blocks idx) (map (fun _ => 1) blocks))).
  { intros idx Hi. unfold bounds_check. cbn [aget ashape].
    rewrite (proj2 (shape_contains_spec blocks idx (inb_length _ _ Hi) ltac:(clear -Hi; induction Hi; constructor; auto; lia)) Hi).
    rewrite block_bounds_spec by assumption. reflexivity. }
  split.
  - intros i Hi. destruct (block_exists global blocks i HS' Hi) as (idx & Hx & Q).
    exists idx. eexists. split; [assumption|]. split; [apply GET; assumption|]. split.
    + unfold holds. cbn [ap_start ap_final ap_jumps]. apply block_stops; assumption.
    + intros idx' p' Hx' E' Hh. rewrite GET in E' by assumption. injection E' as <-. unfold holds in Hh. cbn [ap_start ap_final ap_jumps] in Hh.
      apply block_stops in Hh; [|assumption|assumption]. eapply block_unique; eassumption.
  - intros idx Hx. eexists. split; [apply GET; assumption|]. cbn [ap_start ap_final]. split.
    + intros i Hh. unfold holds in Hh. cbn [ap_start ap_final ap_jumps] in Hh. apply block_stops in Hh; [|assumption|assumption].
      eapply block_in_global; eassumption.
    + clear -HS' Hx. revert idx Hx. induction HS' as [|e b g bs (H1 & H2 & H3) HR IH]; intros idx Hx; inversion Hx; subst; [constructor|].
      cbn [combine]. unfold starts, finals. cbn [combine map]. constructor; [|apply IH; assumption].
      apply bound_step; lia.
Qed.

(** It throws exactly when some axis has more blocks than cells. *)
Theorem domain_decomposition_throws (global blocks : list Z) :
  Forall2 (fun e b => 0 <= e <= 2147483647 /\ 0 < b < 2 ^ 64 /\ b * e < 2 ^ 64) global blocks ->
  (create_access_pattern_array global blocks = Throw LogicError <-> Exists (fun '(e, b) => e < b) (combine global blocks)) /\
  (create_access_pattern_array global blocks <> Throw LogicError -> exists ps, create_access_pattern_array global blocks = Ok ps).
Proof.
  intros HS. assert (HS' : Forall2 sane global blocks).
  { clear -HS. induction HS as [|e b g bs (H1 & H2 & H3) HR IH]; constructor; [|assumption]. change (2 ^ 64) with two64 in *. split; [assumption|]. split; assumption. }
  destruct (block_tables_spec global blocks HS') as [T1 T2].
  assert (DEC : Forall2 (fun e b => b <= e) global blocks \/ Exists (fun '(e, b) => e < b) (combine global blocks)).
  { clear -HS'. induction HS' as [|e b g bs H HR IH]; [left; constructor|]. cbn [combine].
    destruct (Z.le_gt_cases b e); [|right; left; lia]. destruct IH; [left; constructor; assumption|right; right; assumption]. }
  assert (EX : Exists (fun '(e, b) => e < b) (combine global blocks) -> ~ Forall2 (fun e b => b <= e) global blocks).
  { clear. intros HE HF. induction HF; [inversion HE|]. cbn [combine] in HE. inversion HE; subst; [lia|]. apply IHHF; assumption. }
  unfold create_access_pattern_array. destruct DEC as [D|D].
  - rewrite T1 by assumption. bsimp. split; [split; [discriminate|intros Q; elim (EX Q D)]|intros _; eexists; reflexivity].
  - rewrite T2 by (apply EX; assumption). split; [split; [intros _; assumption|reflexivity]|intros Q; elim Q; reflexivity].
Qed.

(** A grid with zero blocks on an axis is accepted, and then there is no block. *)
Theorem domain_decomposition_zero_blocks_refuted :
  exists ps, create_access_pattern_array [4; 4] [2; 0] = Ok ps /\ ashape ps = [2; 0] /\
    inb [4; 4] [1; 1] /\ forall idx, ~ inb (ashape ps) idx.
Proof.
  eexists; split; [reflexivity|]. split; [reflexivity|]. split; [repeat constructor; lia|].
  intros idx H. inversion H as [|? ? ? ? _ Q]; subst. inversion Q; subst. lia.
Qed.

Example domain_decomposition_example :
  (do ps <- create_access_pattern_array [10; 7] [3; 2]; aget ps [1; 1]) = Ok (mkap [3; 3] [6; 7] [1; 1]) /\
  create_access_pattern_array [2; 7] [3; 2] = Throw LogicError.
Proof. vm_compute. split; reflexivity. Qed.

(** ** C29 *)

(** Any interleaving of the threads writes every element once, no element is shared by two
    threads, and the result has the elements of the lazy array. *)
Theorem evaluate_on_threads {A} (d : A) (a : array A) (rows : Z) (rest : list Z) (P fuel : nat) ls w :
  ashape a = rows :: rest -> Forall (fun x => 0 < x) (rows :: rest) -> prodz (rows :: rest) <= 2147483647 ->
  (0 < P)%nat -> Z.of_nat P <= rows -> (Z.to_nat (prodz (rows :: rest)) <= fuel)%nat ->
  (forall i, inb (ashape a) i -> exists v, aget a i = Ok v) ->
  mapM (fun n => thread_indexes fuel (ashape a) (Z.of_nat P) (Z.of_nat n)) (seq 0 P) = Ok ls ->
  interleave ls w ->
  (forall i, inb (ashape a) i <-> In i w) /\ NoDup w /\
  (forall n m ln lm i j, n <> m -> nth_error ls n = Some ln -> nth_error ls m = Some lm -> In i ln -> In j lm ->
     compute_offset (strides_row_major (ashape a)) i <> compute_offset (strides_row_major (ashape a)) j) /\
  exists a', evaluate_on d a w = Ok a' /\ ashape a' = ashape a /\ forall i, inb (ashape a) i -> aget a' i = aget a i.
Proof.
  intros E HP HV H0 HR Hf HG HL HI. rewrite E in *.
  assert (rows <= 2147483647).
  { inversion HP as [|? ? H1 H2]; subst. pose proof (prodz_pos rest H2). simpl in HV. fold (prodz rest) in HV. nia. }
  eapply (evaluate_on_spec d a rows rest P fuel ls w); eauto; unfold two64; nia.
Qed.

(** The threads always have such lists of steps: each thread's loop ends. *)
Theorem evaluate_on_threads_terminate (rows : Z) (rest : list Z) (P fuel : nat) :
  Forall (fun x => 0 < x) (rows :: rest) -> prodz (rows :: rest) <= 2147483647 ->
  (0 < P)%nat -> Z.of_nat P <= rows -> (Z.to_nat (prodz (rows :: rest)) <= fuel)%nat ->
  exists ls, mapM (fun n => thread_indexes fuel (rows :: rest) (Z.of_nat P) (Z.of_nat n)) (seq 0 P) = Ok ls.
Proof.
  intros HP HV H0 HR Hf.
  assert (rows <= 2147483647).
  { inversion HP as [|? ? H1 H2]; subst. pose proof (prodz_pos rest H2). simpl in HV. fold (prodz rest) in HV. nia. }
  assert (Q : forall n, In n (seq 0 P) -> exists l, thread_indexes fuel (rows :: rest) (Z.of_nat P) (Z.of_nat n) = Ok l).
  { intros n Hn. apply in_seq in Hn. inversion HP as [|? ? H1 H2]; subst.
    destruct (thread_indexes_strided fuel rows rest (Z.of_nat P) (Z.of_nat n)) as (l & E & _); try eassumption; unfold two64; try lia; try nia; eauto. }
  revert Q. generalize (seq 0 P) as l. induction l as [|n l IH]; intros Q; [exists []; reflexivity|].
  destruct (Q n (or_introl eq_refl)) as [x E]. destruct IH as [xs EX]; [intros; apply Q; right; assumption|].
  exists (x :: xs). simpl. rewrite E. bsimp. rewrite EX. reflexivity.
Qed.

(** With more threads than rows, in rank two or more, two threads always write a same element. *)
Theorem evaluate_on_more_threads_than_rows_races_refuted (rows cols : Z) (rest : list Z) (P : Z) (fuel : nat) :
  Forall (fun x => 0 < x) (rows :: cols :: rest) -> prodz (rows :: cols :: rest) <= 2147483647 ->
  rows < P < 2 ^ 32 -> (Z.to_nat (prodz (rows :: cols :: rest)) <= fuel)%nat ->
  exists n m ln lm i, 0 <= n < P /\ 0 <= m < P /\ n <> m /\
    thread_indexes fuel (rows :: cols :: rest) P n = Ok ln /\ thread_indexes fuel (rows :: cols :: rest) P m = Ok lm /\
    In i ln /\ In i lm /\ inb (rows :: cols :: rest) i.
Proof.
  intros HP HV HR Hf.
  assert (rows <= 2147483647).
  { inversion HP as [|? ? H1 H2]; subst. pose proof (prodz_pos (cols :: rest) H2). change (rows * prodz (cols :: rest) <= 2147483647) in HV. nia. }
  inversion HP; subst. change (2 ^ 32) with 4294967296 in HR.
  apply evaluate_on_race; auto; unfold two64; try lia; try nia.
Qed.

Example evaluate_on_example :
  mapM (fun n => thread_indexes 100 [3; 2] 2 (Z.of_nat n)) (seq 0 2)
    = Ok [[[0; 0]; [0; 1]]; [[1; 0]; [1; 1]; [2; 0]; [2; 1]]] /\
  (* two rows, three threads: rows 0 is written by threads 0 and 1 *)
  mapM (fun n => thread_indexes 100 [2; 2] 3 (Z.of_nat n)) (seq 0 3)
    = Ok [[[0; 0]; [0; 1]]; [[0; 0]; [0; 1]]; [[1; 0]; [1; 1]]].
Proof. vm_compute. split; reflexivity. Qed.

Print Assumptions prime_factors_correct.
Print Assumptions prime_factors_undefined.
Print Assumptions prime_factors_every_number_refuted.
Print Assumptions process_grid_uses_every_process.
Print Assumptions domain_decomposition_tiles.
Print Assumptions domain_decomposition_throws.
Print Assumptions domain_decomposition_zero_blocks_refuted.
Print Assumptions evaluate_on_threads.
Print Assumptions evaluate_on_threads_terminate.
Print Assumptions evaluate_on_more_threads_than_rows_races_refuted.
