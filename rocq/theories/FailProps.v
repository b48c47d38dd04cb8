(** C111: what becomes of a function that throws on another thread. *)
From Coq Require Import List Arith Bool Permutation Lia.
From Verif Require Import Base TreeModel TreeProofs BalanceModel BalanceProofs PoolModel PoolProofs PoolProps FailModel.
Import ListNotations.
Close Scope Z_scope.
Open Scope nat_scope.

(** The tasks return or throw. *)
Definition well_behaved {B} (body : nat -> outcome B) : Prop := forall n, (exists b, body n = Ok b) \/ (exists e, body n = Throw e).

Section fail.
Context {B : Type} (body : nat -> outcome B) (dflt : B).
Notation fstep := (fstep body dflt). Notation fexec := (fexec body dflt). Notation value := (value_of body dflt).

Lemma fexec_ended ls q q' : fexec ls q q' -> p_ended q = true -> ls = [] /\ q' = q.
Proof. intros H. destruct H as [q|l ls q q1 q2 H HE]; [auto|]. intros E. destruct H; discriminate E. Qed.
Lemma fexec_pool ls q q' : fexec ls q q' -> p_ended q = false ->
  exists ls', exec value ls' (p_pool q) (p_pool q') /\ (if p_ended q' then exists k, ls = ls' ++ [LWorker k] else ls = ls').
Proof.
  induction 1 as [q|l ls q q1 q2 H HE IH]; intros E; [exists []; split; [constructor|rewrite E; reflexivity]|].
  destruct H as [l s s' H K|k n e s H K].
  - destruct (IH eq_refl) as (ls' & E1 & E2). exists (l :: ls'). cbn [p_pool] in *. split; [econstructor; eassumption|]. destruct (p_ended q2); [destruct E2 as (k & ->); exists k; reflexivity|congruence].
  - destruct (fexec_ended _ _ _ HE eq_refl) as [-> ->]. exists []. cbn [p_pool p_ended]. split; [constructor|exists k; reflexivity].
Qed.
Lemma freachable_inv q : freachable body dflt q -> inv value (p_pool q).
Proof. intros (n & ls & H). destruct (fexec_pool _ _ _ H eq_refl) as (ls' & E & _). apply reachable_inv. exists n, ls'. exact E. Qed.

Lemma step_promises l s s' : step value l s s' -> (forall k n, l = LWorker k -> nth_error (workers s) k = Some (WRunning n) -> exists b, body n = Ok b) ->
  (forall n b, In (n, b) (promises s) -> body n = Ok b) -> forall n b, In (n, b) (promises s') -> body n = Ok b.
Proof.
  intros H K I. destruct H; try (cbn [promises set_worker]; exact I).
  intros m b Hm. cbn [promises] in Hm. apply in_app_iff in Hm. destruct Hm as [Hm|[Q|[]]]; [apply I; exact Hm|]. injection Q as <- <-. destruct (K k n eq_refl H) as (b & E). unfold value_of. rewrite E. reflexivity.
Qed.
Lemma fexec_promises ls q q' : fexec ls q q' -> (forall n b, In (n, b) (promises (p_pool q)) -> body n = Ok b) -> forall n b, In (n, b) (promises (p_pool q')) -> body n = Ok b.
Proof. induction 1 as [q|l ls q q1 q2 H HE IH]; intros I; [exact I|]. apply IH. destruct H as [l s s' H K|k n e s H K]; cbn [p_pool] in *; [exact (step_promises l s s' H K I)|exact I]. Qed.

(** While all tasks return, the pool is that of C15, C16 and C17. *)
Theorem pool_without_failures ls s q : (forall n, exists b, body n = Ok b) -> (fexec ls (mkproc s false) q <-> exists s', q = mkproc s' false /\ exec value ls s s').
Proof.
  intros HB. split.
  - intros H. destruct (fexec_pool _ _ _ H eq_refl) as (ls' & E1 & E2). exists (p_pool q). cbn [p_pool] in E1.
    assert (HE : p_ended q = false).
    { clear E1 E2. remember (mkproc s false) as q0 eqn:E0. assert (E : p_ended q0 = false) by (rewrite E0; reflexivity). clear E0. induction H as [q|l ls q q1 q2 H HE IH]; [exact E|]. apply IH. destruct H as [|k n e s' H K]; [reflexivity|].
      destruct (HB n) as (b & Q). congruence. }
    rewrite HE in E2. subst ls'. split; [destruct q; cbn in *; subst; reflexivity|exact E1].
  - intros (s' & -> & H). induction H as [s|l ls s s1 s2 H HE IH]; [constructor|]. econstructor; [|exact IH]. apply f_goes_on; [exact H|]. intros k n _ _. apply HB.
Qed.

(** A failed task leaves nothing behind in its future: neither a value nor an exception. *)
Theorem failed_task_never_answers q n e : freachable body dflt q -> body n = Throw e -> future_get (p_pool q) n = NoFuel.
Proof.
  intros (w & ls & H) E. unfold future_get. destruct (List.find (fun p => fst p =? n) (promises (p_pool q))) as [[m b]|] eqn:F; [|reflexivity].
  apply find_some in F. destruct F as [F1 F2]. cbn [fst] in F2. apply Nat.eqb_eq in F2. subst m. apply (fexec_promises _ _ _ H) in F1; [congruence|]. intros m b' []. 
Qed.

(** If one of the tasks in the queue throws, the pool ends the process: after boundedly many moves, in every order of them. *)
Theorem failed_task_ends_the_process q q' ls n e : well_behaved body -> freachable body dflt q -> p_ended q = false -> stop (p_pool q) = false -> workers (p_pool q) <> [] ->
  n < enqueued (p_pool q) -> body n = Throw e -> fexec ls q q' -> forallb internal ls = true ->
  length ls <= S (work (p_pool q) + 3 * length (filter spurious ls)) /\ (fquiet body dflt q' -> p_ended q' = true).
Proof.
  intros WB HR HE Hs Hw Hn Hb HX HI. destruct (fexec_pool _ _ _ HX HE) as (ls' & E1 & E2).
  assert (HI' : forallb internal ls' = true). { destruct (p_ended q'); [|subst; exact HI]. destruct E2 as (k & ->). rewrite forallb_app in HI. apply andb_prop in HI. apply HI. }
  pose proof HR as (w & l0 & H0). destruct (fexec_pool _ _ _ H0 eq_refl) as (l0' & E0 & _). cbn [p_pool] in E0. assert (RE : reachable value (p_pool q)) by (exists w, l0'; exact E0).
  destruct (pool_runs_all_tasks value _ _ ls' RE Hs Hw E1 HI') as [L Q]. split.
  - destruct (p_ended q'); [destruct E2 as (k & ->)|subst ls'; lia]. rewrite filter_app, !app_length. cbn [filter spurious length]. lia.
  - intros FQ. destruct (p_ended q') eqn:EE; [reflexivity|]. exfalso.
    assert (QQ : quiet value (p_pool q')).
    { intros k s' ST. destruct q' as [s d]. cbn [p_ended p_pool] in *. subst d. destruct (nth_error (workers s) k) as [wk|] eqn:EK.
      - destruct wk as [| | |m|m|].
        4:{ destruct (WB m) as [[b Hm]|[e' Hm]].
          - apply (FQ k (mkproc s' false)). apply f_goes_on; [exact ST|]. intros k' m' EL EN. injection EL as <-. rewrite EK in EN. injection EN as <-. eauto.
          - apply (FQ k (mkproc s true)). eapply f_terminates; eassumption. }
        all: apply (FQ k (mkproc s' false)); apply f_goes_on; [exact ST|]; intros k' m' EL EN; injection EL as <-; congruence.
      - apply (FQ k (mkproc s' false)); apply f_goes_on; [exact ST|]; intros k' m' EL EN; injection EL as <-; congruence. }
    destruct (Q QQ) as (_ & _ & _ & P).
    assert (IN : In n (map fst (promises (p_pool q')))). { apply (Permutation_in n (Permutation_sym P)). apply in_seq. lia. }
    apply in_map_iff in IN. destruct IN as ([m b] & <- & IN). apply (fexec_promises _ _ _ HX) in IN; [cbn [fst] in Hb; congruence|]. apply (fexec_promises _ _ _ H0). intros ? ? [].
Qed.
End fail.

(** ** The maps over a tree *)

(** The leaf at which a failing map stops: all leaves before it return. *)
Definition first_failure {A B} (f : A -> outcome B) (t : tree A) (e : exn) : Prop :=
  exists l1 v l2, leaves t = l1 ++ v :: l2 /\ f v = Throw e /\ forall u, In u l1 -> exists b, f u = Ok b.

Lemma leaf_by_leaf {A B} (f : A -> outcome B) t : match tmapM f t with
  | Ok r => Forall2 (fun v b => f v = Ok b) (leaves t) (leaves r)
  | Throw e => first_failure f t e
  | _ => True end.
Proof.
  induction t as [a|cs IH] using tree_ind'.
  - cbn [tmapM]. destruct (f a) as [b|e| |] eqn:E; cbn [bind]; try exact I.
    + cbn [leaves]. constructor; [exact E|constructor].
    + exists [], a, []. split; [reflexivity|]. split; [exact E|]. intros u [].
  - rewrite tmapM_node.
    assert (H : match mapM_tree f cs with
      | Ok rs => Forall2 (fun v b => f v = Ok b) (flat_map leaves cs) (flat_map leaves rs)
      | Throw e => exists l1 v l2, flat_map leaves cs = l1 ++ v :: l2 /\ f v = Throw e /\ forall u, In u l1 -> exists b, f u = Ok b
      | _ => True end).
    { induction IH as [|c cs Hc HF IHF]; [constructor|]. cbn [mapM_tree flat_map]. destruct (tmapM f c) as [d|e| |] eqn:E; cbn [bind]; try exact I.
      - destruct (mapM_tree f cs) as [ds|e| |] eqn:E2; cbn [bind]; try exact I.
        + cbn [flat_map]. apply Forall2_app; assumption.
        + destruct IHF as (l1 & v & l2 & E3 & E4 & E5). exists (leaves c ++ l1), v, l2. split; [rewrite E3, app_assoc; reflexivity|]. split; [exact E4|].
          intros u Hu. apply in_app_iff in Hu. destruct Hu as [Hu|Hu]; [|apply E5; exact Hu]. clear -Hc Hu. induction Hc as [|x y l m Hx Hc IH]; [destruct Hu|]. destruct Hu as [<-|Hu]; eauto.
      - destruct Hc as (l1 & v & l2 & E3 & E4 & E5). exists l1, v, (l2 ++ flat_map leaves cs). split; [rewrite E3, <- app_assoc; reflexivity|]. split; assumption. }
    destruct (mapM_tree f cs); cbn [bind]; exact H.
Qed.

(** On one thread, and with std::async, the caller gets the exception of the first leaf that fails. *)
Theorem async_map_throws {A B} (f : A -> outcome B) (t : tree A) : async_map f t = tmapM f t /\ forall e, tmapM f t = Throw e -> first_failure f t e.
Proof.
  split.
  - unfold async_map. induction t as [a|cs IH] using tree_ind'; [reflexivity|]. cbn [tmap]. rewrite !tmapM_node. f_equal.
    induction IH as [|c cs Hc HF IHF]; [reflexivity|]. cbn [map mapM_tree]. rewrite Hc. destruct (tmapM f c); cbn [bind]; try reflexivity. rewrite IHF. reflexivity.
  - intros e E. pose proof (leaf_by_leaf f t) as H. rewrite E in H. exact H.
Qed.

Lemma jobs_leaves {A B} (body : nat -> outcome B) (f : A -> outcome B) ids : forall t, jobs_of body f ids t -> Forall2 (fun n v => body n = f v) (leaves ids) (leaves t).
Proof.
  induction ids as [n|ids IH] using tree_ind'; intros t H; inversion H as [? v Hv|? cs HF]; subst; [constructor; [exact Hv|constructor]|].
  cbn [leaves]. revert cs HF H. induction IH as [|i ids Hi HI IHI]; intros cs HF H; inversion HF as [|? c ? cs' HJ HF']; subst; [constructor|]. cbn [flat_map]. apply Forall2_app; [apply Hi; exact HJ|]. apply IHI; [exact HF'|]. constructor. exact HF'.
Qed.
Lemma forall2_mem {A B} (R : A -> B -> Prop) l m : Forall2 R l m -> forall b, In b m -> exists a, In a l /\ R a b.
Proof. induction 1 as [|x y l m Hx H IH]; intros b Hb; [destruct Hb|]; destruct Hb as [Hb|Hb]; [subst; exists x; simpl; auto|destruct (IH b Hb) as (a & Ha & Hr); exists a; simpl; auto]. Qed.

Lemma collect_safe_fail {A B} (body : nat -> outcome B) dflt (f : A -> outcome B) q ids : freachable body dflt q -> forall t, jobs_of body f ids t ->
  match tmapM (future_get (p_pool q)) ids with Ok r => tmapM f t = Ok r | Throw _ => False | UB => False | NoFuel => True end.
Proof.
  intros HR. assert (HG : forall n, match future_get (p_pool q) n with Ok b => body n = Ok b | NoFuel => True | _ => False end).
  { intros n. destruct HR as (w & ls & H). unfold future_get. destruct (List.find _ _) as [[m b]|] eqn:F; [|exact I]. apply find_some in F. destruct F as [F1 F2]. cbn [fst snd] in *. apply Nat.eqb_eq in F2. subst m.
    apply (fexec_promises body dflt _ _ _ H) in F1; [exact F1|]. intros ? ? []. }
  induction ids as [n|ids IH] using tree_ind'; intros t HJ; inversion HJ as [? v Hv|? cs HF]; subst.
  - cbn [tmapM]. specialize (HG n). destruct (future_get (p_pool q) n); cbn [bind]; try contradiction; [|exact I]. rewrite <- Hv, HG. reflexivity.
  - rewrite !tmapM_node.
    assert (K : match mapM_tree (future_get (p_pool q)) ids with Ok rs => mapM_tree f cs = Ok rs | Throw _ => False | UB => False | NoFuel => True end).
    { clear HJ. revert cs HF. induction IH as [|i ids Hi HI IHI]; intros cs HF; inversion HF as [|? c ? cs' Hc HF']; subst; [reflexivity|]. cbn [mapM_tree]. specialize (Hi c Hc). specialize (IHI cs' HF').
      destruct (tmapM (future_get (p_pool q)) i); cbn [bind]; try contradiction; [|exact I]. rewrite Hi. cbn [bind]. destruct (mapM_tree (future_get (p_pool q)) ids); cbn [bind]; try contradiction; [|exact I]. rewrite IHI. reflexivity. }
    destruct (mapM_tree (future_get (p_pool q)) ids); cbn [bind]; try contradiction; [|exact I]. rewrite K. reflexivity.
Qed.

(** On the pool, the caller gets what the map on one thread gives, or nothing: never an exception. *)
Theorem pool_map_answers {A B} (body : nat -> outcome B) dflt (f : A -> outcome B) q ids t : freachable body dflt q -> jobs_of body f ids t ->
  (exists r, collect q ids = Ok r /\ tmapM f t = Ok r) \/ collect q ids = NoFuel.
Proof.
  intros HR HJ. unfold collect. destruct (p_ended q); [right; reflexivity|]. pose proof (collect_safe_fail body dflt f q ids HR t HJ) as H. destruct (tmapM (future_get (p_pool q)) ids); try contradiction; [left; eauto|right; reflexivity].
Qed.

(** So wherever the map on one thread throws, the map on the pool does not: no state of the process has an answer for the caller, and every course of events ends the process. *)
Theorem pool_map_throws_refuted {A B} (body : nat -> outcome B) dflt (f : A -> outcome B) q ids t e : well_behaved body -> freachable body dflt q -> p_ended q = false ->
  stop (p_pool q) = false -> workers (p_pool q) <> [] -> jobs_of body f ids t -> (forall n, In n (leaves ids) -> n < enqueued (p_pool q)) -> tmapM f t = Throw e ->
  forall ls q', fexec body dflt ls q q' -> forallb internal ls = true -> collect q' ids = NoFuel /\ (fquiet body dflt q' -> p_ended q' = true).
Proof.
  intros WB HR HE Hs Hw HJ HN HT ls q' HX HI. split.
  - assert (HR' : freachable body dflt q'). { destruct HR as (w & l0 & H0). exists w, (l0 ++ ls). clear -H0 HX. induction H0; [exact HX|]. cbn. econstructor; [eassumption|]. apply IHfexec. exact HX. }
    destruct (pool_map_answers body dflt f q' ids t HR' HJ) as [(r & _ & E)|E]; [congruence|exact E].
  - pose proof (leaf_by_leaf f t) as HL. rewrite HT in HL. destruct HL as (l1 & v & l2 & E1 & E2 & _).
    destruct (forall2_mem _ _ _ (jobs_leaves body f ids t HJ) v) as (n & Hn & En); [rewrite E1; apply in_elt|].
    destruct (failed_task_ends_the_process body dflt q q' ls n e WB HR HE Hs Hw (HN n Hn) ltac:(congruence) HX HI) as [_ Q]. exact Q.
Qed.

(** A tree of three leaves whose second fails: one thread gives the exception; one worker runs the first leaf, and then the process is over. *)
Definition ex_f (n : nat) : outcome nat := if n =? 5 then Throw RuntimeError else Ok (10 * n).
Definition ex_t : tree nat := Node [Leaf 4; Leaf 5; Leaf 6; Leaf 7].
Definition ex_body (n : nat) : outcome nat := ex_f (4 + n).
Example pool_map_example : tmapM ex_f ex_t = Throw RuntimeError /\ async_map ex_f ex_t = Throw RuntimeError /\ jobs_of ex_body ex_f (number 0 ex_t) ex_t /\
  exists q, fexec ex_body 0 [LEnqueue; LEnqueue; LEnqueue; LEnqueue; LWorker 0; LWorker 0; LWorker 0; LWorker 0; LWorker 0] (mkproc (init 1) false) q /\
    promises (p_pool q) = [(0, 40)] /\ pending (p_pool q) = [2; 3] /\ p_ended q = true.
Proof.
  split; [reflexivity|]. split; [reflexivity|]. split; [constructor; repeat constructor|].
  assert (HN : forall ws ws' : list wstate, ws' = ws -> ~ In WBlocked ws -> notify_one ws ws') by (right; auto).
  assert (HM : forall s : pool nat, workers s = [WTop] \/ workers s = [WFinishing 0] -> mutex_free s) by (intros s [E|E]; unfold mutex_free; rewrite E; intros [H|[]]; discriminate H).
  assert (HK : forall l (s : pool nat), (forall n, nth_error (workers s) 0 = Some (WRunning n) -> n = 0) -> (forall k, l = LWorker k -> k = 0) ->
     forall k n, l = LWorker k -> nth_error (workers s) k = Some (WRunning n) -> exists b, ex_body n = Ok b).
  { intros l s H1 H2 k n E F. rewrite (H2 k E) in F. rewrite (H1 n F). eexists. reflexivity. }
  eexists. split; [|split; [|split]].
  - do 4 (eapply fe_cons; [apply f_goes_on; [apply s_enqueue; [apply HM; left; reflexivity|apply HN; [reflexivity|intros [H|[]]; discriminate H]]|apply HK; [intros n H; discriminate H|intros k H; discriminate H]]|]; cbn).
    eapply fe_cons; [apply f_goes_on; [eapply s_take; [reflexivity|apply HM; left; reflexivity|reflexivity]|apply HK; [intros n H; discriminate H|intros k H; injection H; auto]]|]. cbn.
    eapply fe_cons; [apply f_goes_on; [eapply s_run; reflexivity|apply HK; [intros n H; injection H; auto|intros k H; injection H; auto]]|]. cbn.
    eapply fe_cons; [apply f_goes_on; [eapply s_complete; [reflexivity|apply HM; right; reflexivity]|apply HK; [intros n H; discriminate H|intros k H; injection H; auto]]|]. cbn.
    eapply fe_cons; [apply f_goes_on; [eapply s_take; [reflexivity|apply HM; left; reflexivity|reflexivity]|apply HK; [intros n H; discriminate H|intros k H; injection H; auto]]|]. cbn.
    eapply fe_cons; [eapply f_terminates; reflexivity|]. apply fe_nil.
  - reflexivity.
  - reflexivity.
  - reflexivity.
Qed.
Print Assumptions pool_without_failures.
Print Assumptions failed_task_never_answers.
Print Assumptions failed_task_ends_the_process.
Print Assumptions async_map_throws.
Print Assumptions pool_map_answers.
Print Assumptions pool_map_throws_refuted.
