(** C103: messages between processes. *)
From Coq Require Import ZArith List Bool Arith Lia.
From Verif Require Import Base MessageModel.
Import ListNotations.
Local Open Scope nat_scope.

Section Props.
Context {byte : Type}.
Variable zero : byte.

(** What was sent from [s] to [d] with tag [t], and what recv returned to [d] of that, in order. *)
Definition sent_to (s d : nat) (t : Z) (tr : list (event byte)) : list (list byte) :=
  flat_map (fun e => match e with Sent s' d' t' b => if Nat.eqb s' s && Nat.eqb d' d && (t' =? t)%Z then [b] else [] | _ => [] end) tr.
Definition received_from (s d : nat) (t : Z) (tr : list (event byte)) : list (list byte) :=
  flat_map (fun e => match e with Got d' s' t' b => if Nat.eqb s' s && Nat.eqb d' d && (t' =? t)%Z then [b] else [] | _ => [] end) tr.
(** Not received yet. *)
Definition waiting (s d : nat) (t : Z) (w : world byte) : list (list byte) := map snd (filter (fun m => fst m =? t)%Z (queue w d s)).

(** Every receive names its source, or all messages to that process have one length. *)
Definition safe (l : list (action byte)) : Prop :=
  forall d tag pick, In (Probe d None tag pick) l -> exists n, forall s t b, In (Send s d t b) l -> length b = n.

(** *** Proofs *)
Lemma upd_same {A} (f : nat -> A) i a : upd f i a i = a.
Proof. unfold upd. rewrite Nat.eqb_refl. reflexivity. Qed.
Lemma upd_other {A} (f : nat -> A) i j a : j <> i -> upd f i a j = f j.
Proof. intros H. unfold upd. destruct (Nat.eqb_spec j i); [contradiction|reflexivity]. Qed.
Lemma first_match_app tag (q q' : list (message byte)) m r : first_match tag q = Some (m, r) -> first_match tag (q ++ q') = Some (m, r ++ q').
Proof.
  revert m r; induction q as [|x q IH]; intros m r H; cbn in *; [discriminate|]. destruct (fits tag x); [injection H as <- <-; reflexivity|]. destruct (first_match tag q) as [[y s]|]; [|discriminate]. injection H as <- <-. rewrite (IH _ _ eq_refl). reflexivity.
Qed.
Lemma first_match_in tag (q : list (message byte)) m r : first_match tag q = Some (m, r) -> In m q /\ fits tag m = true /\ (forall x, In x r -> In x q).
Proof.
  revert m r; induction q as [|x q IH]; intros m r H; cbn in H; [discriminate|]. destruct (fits tag x) eqn:E; [injection H as <- <-; repeat split; [left; reflexivity|exact E|right; assumption]|]. destruct (first_match tag q) as [[y s]|]; [|discriminate]. injection H as <- <-. destruct (IH _ _ eq_refl) as (A & B & C). repeat split; [right; exact A|exact B|]. intros z [->|Hz]; [left; reflexivity|right; apply C; exact Hz].
Qed.
(** Taking the first that fits takes the first of its own tag. *)
Lemma first_match_filter tag (q : list (message byte)) t b r : first_match tag q = Some ((t, b), r) ->
  filter (fun m => fst m =? t)%Z q = (t, b) :: filter (fun m => fst m =? t)%Z r.
Proof.
  revert r; induction q as [|x q IH]; intros r H; cbn in H; [discriminate|]. destruct (fits tag x) eqn:E; [injection H as -> <-; cbn; rewrite Z.eqb_refl; reflexivity|].
  destruct (first_match tag q) as [[y s]|] eqn:F; [|discriminate]. injection H as -> <-. cbn. rewrite (IH _ eq_refl).
  destruct (Z.eqb_spec (fst x) t) as [X|X]; [|reflexivity]. exfalso. apply first_match_in in F as (_ & G & _). destruct tag as [u|]; cbn in E, G; [|discriminate]. apply Z.eqb_eq in G. apply Z.eqb_neq in E. cbn in G. congruence.
Qed.
Lemma first_match_filter_other tag (q : list (message byte)) t b r u : first_match tag q = Some ((t, b), r) -> u <> t ->
  filter (fun m => fst m =? u)%Z q = filter (fun m => fst m =? u)%Z r.
Proof.
  revert r; induction q as [|x q IH]; intros r H N; cbn in H; [discriminate|]. destruct (fits tag x) eqn:E.
  - injection H as -> <-. cbn. destruct (Z.eqb_spec t u); [congruence|reflexivity].
  - destruct (first_match tag q) as [[y s]|] eqn:F; [|discriminate]. injection H as -> <-. cbn. rewrite (IH _ eq_refl N). reflexivity.
Qed.
Lemma first_match_some tag (q : list (message byte)) m : In m q -> fits tag m = true -> exists x r, first_match tag q = Some (x, r).
Proof.
  induction q as [|x q IH]; intros [] F; cbn.
  - subst x. rewrite F. eauto.
  - destruct (fits tag x); [eauto|]. destruct (IH H F) as (y & r & ->). eauto.
Qed.

Section Inv.
Variable acts : list (action byte).
Hypothesis Safe : safe acts.

Record inv (w : world byte) (hist : list (event byte)) : Prop := mk_inv {
  i_eq : forall s d t, sent_to s d t hist = received_from s d t hist ++ waiting s d t w;
  i_ok : forall d, ~ In (Truncated d) hist;
  i_from : forall d s t b, In (t, b) (queue w d s) -> In (Send s d t b) acts;
  i_pr : forall d src tag n, probed w d = Some (src, tag, n) ->
    (exists pick t b r, picks src pick = true /\ first_match tag (queue w d pick) = Some ((t, b), r) /\ length b = n) /\
    (src = None -> forall s t b, In (Send s d t b) acts -> length b = n) }.

Lemma inv_start : inv start [].
Proof. split; cbn; auto; try contradiction. intros; discriminate. Qed.

(** What a Take finds. *)
Lemma taken w hist d src tag n pick t b r : inv w hist -> probed w d = Some (src, tag, n) -> picks src pick = true ->
  first_match tag (queue w d pick) = Some ((t, b), r) -> length b = n.
Proof.
  intros I P K M. destruct (i_pr _ _ I _ _ _ _ P) as [(p & t' & b' & r' & K' & M' & L) A]. destruct src as [s|].
  - cbn in K, K'. apply Nat.eqb_eq in K, K'. subst p pick. rewrite M in M'. injection M' as <- <- <-. exact L.
  - apply (A eq_refl pick t). apply (i_from _ _ I). eapply first_match_in in M. tauto.
Qed.

Lemma inv_act w hist a w' e : In a acts -> inv w hist -> act zero w a = Some (w', e) -> inv w' (hist ++ e).
Proof.
  intros Ia I H. destruct a as [s d t b|d src tag pick|d pick]; cbn [act] in H.
  - injection H as <- <-. split.
    + intros s0 d0 t0. unfold sent_to, received_from, waiting. rewrite !flat_map_app. cbn [flat_map queue]. rewrite !app_nil_r. pose proof (i_eq _ _ I s0 d0 t0) as Q. unfold sent_to, received_from, waiting in Q. rewrite Q.
      destruct (Nat.eqb_spec d d0) as [->|Nd].
      * rewrite upd_same. destruct (Nat.eqb_spec s s0) as [->|Ns].
        -- rewrite upd_same, filter_app, map_app, <- app_assoc. cbn. destruct (Z.eqb_spec t t0); reflexivity.
        -- rewrite upd_other by congruence. cbn. rewrite app_nil_r. reflexivity.
      * rewrite upd_other by congruence. rewrite andb_false_r. cbn. rewrite app_nil_r. reflexivity.
    + intros d0 Hin. apply in_app_or in Hin as [Hin|[Hin|[]]]; [exact (i_ok _ _ I _ Hin)|discriminate].
    + intros d0 s0 t0 b0. cbn [queue]. destruct (Nat.eq_dec d0 d) as [->|Nd]; [rewrite upd_same|rewrite upd_other by assumption; apply (i_from _ _ I)]. destruct (Nat.eq_dec s0 s) as [->|Ns]; [rewrite upd_same|rewrite upd_other by assumption; apply (i_from _ _ I)]. intros Hin. apply in_app_or in Hin as [Hin|[Hin|[]]]; [exact (i_from _ _ I _ _ _ _ Hin)|injection Hin as <- <-; exact Ia].
    + intros d0 src tag n P. cbn in P. destruct (i_pr _ _ I _ _ _ _ P) as [(p & t' & b' & r' & K & M & L) A]. split; [|exact A]. cbn [queue].
      destruct (Nat.eq_dec d0 d) as [->|Nd]; [rewrite upd_same|rewrite upd_other by assumption; exists p, t', b', r'; auto]. destruct (Nat.eq_dec p s) as [->|Ns].
      * exists s, t', b', (r' ++ [(t, b)]). rewrite upd_same. split; [exact K|]. split; [apply first_match_app; exact M|exact L].
      * exists p, t', b', r'. rewrite upd_other by assumption. auto.
  - destruct (probed w d) eqn:P; [discriminate|]. destruct (picks src pick) eqn:K; [|discriminate]. destruct (first_match tag (queue w d pick)) as [[[t b] r]|] eqn:M; [|discriminate]. injection H as <- <-. rewrite app_nil_r. split; [exact (i_eq _ _ I)|exact (i_ok _ _ I)|exact (i_from _ _ I)|].
    intros d0 src0 tag0 n P0. cbn in P0. cbn [queue]. destruct (Nat.eq_dec d0 d) as [->|Nd]; [rewrite upd_same in P0|rewrite upd_other in P0 by assumption; exact (i_pr _ _ I _ _ _ _ P0)]. injection P0 as <- <- <-. split; [exists pick, t, b, r; auto|].
    intros -> s t0 b0 Hin. destruct (Safe _ _ _ Ia) as [n Hn]. rewrite (Hn _ _ _ Hin). symmetry. apply (Hn pick t). apply (i_from _ _ I). apply first_match_in in M. tauto.
  - destruct (probed w d) as [[[src tag] n]|] eqn:P; [|discriminate]. destruct (picks src pick) eqn:K; [|discriminate]. destruct (first_match tag (queue w d pick)) as [[[t b] r]|] eqn:M; [|discriminate].
    pose proof (taken _ _ _ _ _ _ _ _ _ _ I P K M) as L. rewrite (proj2 (Nat.leb_le (length b) n)) in H by lia. injection H as <- <-. rewrite L, Nat.sub_diag. cbn [repeat]. rewrite app_nil_r. split.
    + intros s0 d0 t0. unfold sent_to, received_from, waiting. rewrite !flat_map_app. cbn [flat_map queue]. rewrite !app_nil_r. pose proof (i_eq _ _ I s0 d0 t0) as Q. unfold sent_to, received_from, waiting in Q. rewrite Q, <- app_assoc. f_equal.
      destruct (Nat.eqb_spec d d0) as [->|Nd]; [|rewrite upd_other by congruence; rewrite andb_false_r; reflexivity]. rewrite upd_same. destruct (Nat.eqb_spec pick s0) as [->|Ns]; [|rewrite upd_other by congruence; reflexivity]. rewrite upd_same. cbn [andb]. destruct (Z.eqb_spec t t0) as [->|Nt].
      * rewrite (first_match_filter _ _ _ _ _ M). reflexivity.
      * rewrite (first_match_filter_other _ _ _ _ _ t0 M) by congruence. reflexivity.
    + intros d0 Hin. apply in_app_or in Hin as [Hin|[Hin|[]]]; [exact (i_ok _ _ I _ Hin)|discriminate].
    + intros d0 s0 t0 b0. cbn [queue]. destruct (Nat.eq_dec d0 d) as [->|Nd]; [rewrite upd_same|rewrite upd_other by assumption; apply (i_from _ _ I)]. destruct (Nat.eq_dec s0 pick) as [->|Ns]; [rewrite upd_same|rewrite upd_other by assumption; apply (i_from _ _ I)]. intros Hin. apply (i_from _ _ I). apply first_match_in in M as (_ & _ & Sub). apply Sub, Hin.
    + intros d0 src0 tag0 n0 P0. cbn in P0. cbn [queue]. destruct (Nat.eq_dec d0 d) as [->|Nd]; [rewrite upd_same in P0; discriminate|]. rewrite upd_other in P0 by assumption. rewrite upd_other by assumption. exact (i_pr _ _ I _ _ _ _ P0).
Qed.
Lemma inv_exec l : (forall a, In a l -> In a acts) -> forall w hist w' es, inv w hist -> exec zero w l = Some (w', es) -> inv w' (hist ++ es).
Proof.
  induction l as [|a l IH]; intros Sub w hist w' es I H; cbn in H; [injection H as <- <-; rewrite app_nil_r; exact I|].
  destruct (act zero w a) as [[w1 e]|] eqn:A; [|discriminate]. destruct (exec zero w1 l) as [[w2 es']|] eqn:E; [|discriminate]. injection H as <- <-. rewrite app_assoc. eapply IH; [intros; apply Sub; right; assumption| |exact E]. eapply inv_act; [|exact I|exact A]. apply Sub. left. reflexivity.
Qed.
End Inv.

(** *** Theorems *)

(** In every execution, whatever the processes do and in whatever order: between any two processes, the messages of one tag are
    received once each, whole and in the order they were sent, and what has not been received is waiting; no receive is
    truncated. *)
Theorem messages_arrive acts w tr : safe acts -> exec zero start acts = Some (w, tr) ->
  (forall d, ~ In (Truncated d) tr) /\ forall s d t, sent_to s d t tr = received_from s d t tr ++ waiting s d t w.
Proof.
  intros S E. pose proof (inv_exec acts S acts (fun _ h => h) start [] w tr (inv_start acts) E) as I. split; [apply (i_ok _ _ _ I)|apply (i_eq _ _ _ I)].
Qed.
(** No receive hangs when there is something to receive: one can begin as soon as a fitting message waits, and once begun it can
    always be completed. *)
Theorem receives_complete acts w tr d : safe acts -> exec zero start acts = Some (w, tr) ->
  (probed w d = None -> forall s t, waiting s d t w <> [] -> exists w', act zero w (Probe d (Some s) (Some t) s) = Some (w', [])) /\
  (probed w d <> None -> exists pick w' t b, act zero w (Take d pick) = Some (w', [Got d pick t b])).
Proof.
  intros S E. pose proof (inv_exec acts S acts (fun _ h => h) start [] w tr (inv_start acts) E) as I. split.
  - intros P s t W. cbn [act]. rewrite P. cbn [picks]. rewrite Nat.eqb_refl. unfold waiting in W. destruct (filter (fun m => fst m =? t)%Z (queue w d s)) as [|m q] eqn:F; [contradiction|].
    assert (Hin : In m (filter (fun m => fst m =? t)%Z (queue w d s))) by (rewrite F; left; reflexivity). apply filter_In in Hin as [Hin Ht]. destruct (first_match_some (Some t) _ m Hin Ht) as ([t' b] & r & ->). eauto.
  - intros P. destruct (probed w d) as [[[src tag] n]|] eqn:Pd; [|contradiction]. destruct (i_pr _ _ _ I _ _ _ _ Pd) as [(p & t & b & r & K & M & L) _]. cbn [act]. exists p. rewrite Pd, K, M, (proj2 (Nat.leb_le (length b) n)) by lia. eauto.
Qed.

End Props.

(** With any_source and messages of different lengths neither holds: the receive that follows the probe may choose another
    message, which is then padded with zeros to a string that nobody sent, or truncated.  Characters are numbers here. *)
Theorem any_source_refuted : exists acts1 acts2 w1 w2 tr1 tr2,
  exec 0 start acts1 = Some (w1, tr1) /\ In (Got 0 2 7 [9; 0]) tr1 /\ (forall s d t, ~ In [9; 0] (sent_to s d t tr1)) /\
  exec 0 start acts2 = Some (w2, tr2) /\ In (Truncated 0) tr2 /\
  forall a, In a (acts1 ++ acts2) -> match a with Probe _ src tag _ => src = None /\ tag = Some 7%Z | Send _ _ t b => t = 7%Z /\ (b = [9] \/ b = [5; 6]) | _ => True end.
Proof.
  exists [Send 1 0 7 [5; 6]; Send 2 0 7 [9]; Probe 0 None (Some 7%Z) 1; Take 0 2], [Send 1 0 7 [5; 6]; Send 2 0 7 [9]; Probe 0 None (Some 7%Z) 2; Take 0 1].
  do 2 eexists. exists [Sent 1 0 7 [5; 6]; Sent 2 0 7 [9]; Got 0 2 7 [9; 0]], [Sent 1 0 7 [5; 6]; Sent 2 0 7 [9]; Truncated 0].
  split; [reflexivity|]. split; [cbn; auto|]. split.
  { intros s d t. unfold sent_to. cbn [flat_map]. rewrite app_nil_r. intros H. apply in_app_or in H as [H|H].
    - destruct (Nat.eqb 1 s && Nat.eqb 0 d && (7 =? t)%Z); [destruct H as [H|[]]; discriminate|exact H].
    - destruct (Nat.eqb 2 s && Nat.eqb 0 d && (7 =? t)%Z); [destruct H as [H|[]]; discriminate|exact H]. }
  split; [reflexivity|]. split; [cbn; auto|]. cbn. intros a H. repeat (destruct H as [<-|H]; [auto|]). contradiction.
Qed.

(** Two processes send to process 0 with two tags; it asks for one tag first and then for anything of process 1. *)
Example messages_example :
  match exec 0 start [Send 1 0 7 [5; 6]; Send 1 0 8 [3]; Probe 0 (Some 1) (Some 8%Z) 1; Send 2 0 8 [4; 4]; Take 0 1; Send 1 0 7 [1]; Probe 0 (Some 1) None 1; Take 0 1] with
  | Some (w, tr) => received_from 1 0 8 tr = [[3]] /\ received_from 1 0 7 tr = [[5; 6]] /\ waiting 1 0 7 w = [[1]] /\ waiting 2 0 8 w = [[4; 4]]
  | None => False
  end.
Proof. cbn. auto. Qed.

(** ** Requests *)
Section Requests.
Context {byte : Type}.
Variable zero : byte.
Variable sso : nat.

Lemma long_block n (b : list byte) l : (sso < n)%nat -> forall m, m Block = Some b -> run_storage zero sso n m l Block = Some b.
Proof.
  intros L. induction l as [|s l IH]; intros m H; cbn; [exact H|]. apply IH. destruct s as [i|i]; cbn; [unfold move; rewrite (proj2 (Nat.leb_gt n sso)) by lia; exact H|exact H].
Qed.
Lemma short_chain n (b : list byte) : (n <= sso)%nat -> forall k i m, m (Inline i) = Some b ->
  run_storage zero sso n m (flat_map (fun i => [Move i; Destroy i]) (seq i k)) (Inline (i + k)) = Some b.
Proof.
  intros L. induction k as [|k IH]; intros i m H; cbn [seq flat_map].
  - cbn. rewrite Nat.add_0_r. exact H.
  - cbn [app]. unfold run_storage. cbn [fold_left]. fold (run_storage zero sso n). rewrite <- Nat.add_succ_comm. apply IH. cbn [step_storage]. unfold destroy, move. rewrite (proj2 (Nat.leb_le n sso) L), H. unfold set. cbn [loc_eqb].
    destruct (Nat.eqb_spec (S i) i); [lia|]. rewrite Nat.eqb_refl. reflexivity.
Qed.
(** Once destroyed, object 0 does not come back. *)
Lemma short_gone n k : forall i (m : memory), (0 < i)%nat -> m (Inline 0) = None -> forall j, run_storage (byte := byte) zero sso n m (firstn j (flat_map (fun i => [Move i; Destroy i]) (seq i k))) (Inline 0) = None.
Proof.
  induction k as [|k IH]; intros i m Hi H j; [rewrite firstn_nil; exact H|]. cbn [seq flat_map app].
  assert (M : move zero sso n i m (Inline 0) = None).
  { unfold move. destruct (n <=? sso); [|exact H]. destruct (m (Inline i)); [|exact H]. unfold set. cbn [loc_eqb]. destruct (Nat.eqb_spec 0 i); [lia|exact H]. }
  assert (D : destroy i (move zero sso n i m) (Inline 0) = None).
  { unfold destroy, set. cbn [loc_eqb]. destruct (Nat.eqb 0 i); [reflexivity|exact M]. }
  destruct j as [|[|j]]; [exact H|exact M|]. unfold run_storage. cbn [firstn fold_left step_storage]. apply (IH (S i)); [lia|exact D].
Qed.

(** A message longer than what a string keeps in itself is sent and received whole, however often the request is moved and
    whenever the library transfers it. *)
Theorem long_requests (b : list byte) moves when : (sso < length b)%nat ->
  isend zero sso b moves when = Ok b /\ irecv zero sso (Some b) moves when = Ok b.
Proof.
  intros L. assert (G : forall i, data_of sso (length b) i = Block) by (intros i; unfold data_of; rewrite (proj2 (Nat.leb_gt (length b) sso)) by lia; reflexivity). destruct b as [|c b]; [cbn in L; lia|]. set (B := c :: b) in *. split.
  - unfold isend. fold B. change (match B with [] => Ok [] | _ :: _ => match run_storage zero sso (length B) (posted sso B) (firstn when (storage_steps moves)) (data_of sso (length B) 0) with Some x => Ok x | None => UB end end = Ok B). unfold B at 1. rewrite G. rewrite (long_block _ B); [reflexivity|exact L|]. unfold posted. rewrite G. reflexivity.
  - unfold irecv, irecv_some. unfold B at 1. cbn zeta. rewrite !G. rewrite (long_block _ (repeat zero (length B))); [|exact L|unfold posted; rewrite repeat_length, G; reflexivity]. rewrite (long_block _ B); [reflexivity|exact L|reflexivity].
Qed.

(** A shorter message, such as any int or double, is moved to another place while the library holds its address.  It is
    right only if the library transfers it before MPI_Isend or MPI_Irecv returns; right after that a send reads a string with
    its first character overwritten and a receive is lost, and later both use storage that is gone. *)
Theorem short_requests_refuted (b : list byte) moves when c r : b = c :: r -> (length b <= sso)%nat ->
  isend zero sso b moves when = match when with O => Ok b | S O => Ok (zero :: r) | _ => UB end /\
  irecv zero sso (Some b) moves when = match when with O => Ok b | S O => Ok (repeat zero (length b)) | _ => UB end.
Proof.
  intros -> L. set (B := c :: r) in *. assert (G : forall i, data_of sso (length B) i = Inline i) by (intros i; unfold data_of; rewrite (proj2 (Nat.leb_le (length B) sso)) by lia; reflexivity).
  assert (P : forall x : list byte, length x = length B -> posted sso x = set (fun _ => None) (Inline 0) (Some x)) by (intros x Hx; unfold posted; rewrite Hx, G; reflexivity).
  assert (Lb : (length B <=? sso)%nat = true) by (apply Nat.leb_le; exact L).
  assert (Gone : forall x : list byte, length x = length B -> forall w, run_storage zero sso (length B) (posted sso x) (firstn (S (S w)) (storage_steps moves)) (Inline 0) = None).
  { intros x Hx w. unfold storage_steps. cbn [seq flat_map app firstn]. unfold run_storage. cbn [fold_left step_storage]. apply (short_gone (length B) moves 1); [lia|reflexivity]. }
  split.
  - unfold isend. unfold B at 1. cbn iota. rewrite G. destruct when as [|[|w]].
    + rewrite P by reflexivity. reflexivity.
    + rewrite P by reflexivity. unfold storage_steps. cbn [seq flat_map app firstn]. unfold run_storage. cbn [fold_left step_storage]. unfold move. rewrite Lb. reflexivity.
    + rewrite Gone by reflexivity. reflexivity.
  - unfold irecv, irecv_some. unfold B at 1. cbn iota zeta. rewrite !G. destruct when as [|[|w]].
    + rewrite P by apply repeat_length. cbn [firstn]. unfold run_storage at 1. cbn [fold_left]. change (set (fun _ : loc => None) (Inline 0) (Some (repeat zero (length B))) (Inline 0)) with (Some (repeat zero (length B))). cbn iota. cbn [skipn]. unfold storage_steps. change (Inline (S moves)) with (Inline (0 + S moves)). rewrite (short_chain (length B) B L (S moves) 0) by reflexivity. reflexivity.
    + rewrite P by apply repeat_length. unfold storage_steps. cbn [seq flat_map app firstn skipn]. unfold run_storage at 1. cbn [fold_left step_storage].
      set (m1 := move zero sso (length B) 0 (set (fun _ => None) (Inline 0) (Some (repeat zero (length B))))).
      assert (M0 : m1 (Inline 0) = Some (zero :: repeat zero (length r))) by (unfold m1, move; rewrite Lb; reflexivity). assert (M1 : m1 (Inline 1) = Some (repeat zero (length B))) by (unfold m1, move; rewrite Lb; reflexivity).
      rewrite M0. pose proof (short_chain (length B) (repeat zero (length B)) L moves 1 (destroy 0 (set m1 (Inline 0) (Some B)))) as Q. unfold run_storage in *. cbn [fold_left step_storage Nat.add] in *. fold m1; rewrite Q; [reflexivity|]. unfold destroy, set. cbn. exact M1.
    + rewrite Gone by apply repeat_length. reflexivity.
Qed.

(** irecv does not wait for a message that has not arrived: the request it gives is complete, with an empty message, and as a
    value of some type it throws. *)
Theorem early_irecv_refuted {T} size (dec : list byte -> T) moves when : (0 < size)%nat ->
  irecv zero sso None moves when = Ok [] /\ get_value zero sso size dec None moves when = Throw LogicError.
Proof. intros H. split; [reflexivity|]. unfold get_value. destruct size; [lia|reflexivity]. Qed.
(** The typed get returns the value that was sent or throws for a message of another size, for long messages. *)
Theorem typed_requests {T} (enc : T -> list byte) (dec : list byte -> T) v size moves when : (forall x, dec (enc x) = x) -> (sso < length (enc v))%nat ->
  get_value zero sso size dec (Some (enc v)) moves when = if (length (enc v) =? size)%nat then Ok v else Throw LogicError.
Proof.
  intros E L. unfold get_value. destruct (length (enc v) =? size)%nat; [|reflexivity]. cbn [negb]. rewrite (proj2 (long_requests (enc v) moves when L)). cbn [bind]. rewrite E. reflexivity.
Qed.
End Requests.

Example requests_example : isend 0 15 (repeat 7 16) 2 5 = Ok (repeat 7 16) /\ isend 0 15 (repeat 7 8) 0 0 = Ok (repeat 7 8) /\ isend 0 15 (repeat 7 8) 0 2 = UB /\ irecv 0 15 (Some (repeat 7 8)) 0 1 = Ok (repeat 0 8).
Proof. repeat split. Qed.

Print Assumptions messages_arrive.
Print Assumptions receives_complete.
Print Assumptions any_source_refuted.
Print Assumptions long_requests.
Print Assumptions short_requests_refuted.
Print Assumptions early_irecv_refuted.
Print Assumptions typed_requests.
