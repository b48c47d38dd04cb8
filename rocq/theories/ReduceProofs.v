(** Lemmas for C84. *)
From Coq Require Import ZArith Reals List Bool Lia Lra.
From Verif Require Import Base NdModel NdSpec NdProofs NdProofs2 NdOpsModel NdOpsProofs ShockModel.
Import ListNotations.
Open Scope Z_scope.

Definition iterable (fuel : nat) (s : list Z) : Prop := s <> [] /\ Forall (fun d => 0 < d < two64) s /\ (Z.to_nat (prodz s) <= fuel)%nat.

(** any, all *)
Lemma stays_true a stop fuel : forall cur B, for_indexes fuel a (fun i b => do x <- stop i; Ok (b || x)) cur true = Ok B -> B = true.
Proof.
  induction fuel as [|f IH]; intros cur B E; cbn [for_indexes] in E; destruct (seq_eqb cur (ap_final a)); try congruence.
  apply bind_ok_inv in E as (b & E1 & E2). apply bind_ok_inv in E1 as (x & _ & E1). injection E1 as <-. exact (IH _ _ E2).
Qed.
Lemma until_any a stop fuel : forall cur B, for_indexes fuel a (fun i b => do x <- stop i; Ok (b || x)) cur false = Ok B -> until fuel a stop cur = Ok B.
Proof.
  induction fuel as [|f IH]; intros cur B E; cbn [for_indexes until] in *; destruct (seq_eqb cur (ap_final a)); try congruence.
  apply bind_ok_inv in E as (b & E1 & E2). apply bind_ok_inv in E1 as (x & EX & E1). injection E1 as <-. rewrite EX. bsimp. destruct x; [apply stays_true in E2; subst; reflexivity|apply IH; exact E2].
Qed.
Lemma fold_any (stop : list Z -> outcome bool) F : forall l acc, (forall i, In i l -> stop i = Ok (F i)) -> foldM (fun s i => do x <- stop i; Ok (s || x)) acc l = Ok (acc || existsb F l).
Proof.
  induction l as [|i l IH]; intros acc H; cbn [foldM existsb]; [rewrite orb_false_r; reflexivity|]. rewrite H by (left; reflexivity). bsimp. rewrite IH by (intros; apply H; right; assumption). rewrite orb_assoc. reflexivity.
Qed.
Lemma until_value fuel s stop F : iterable fuel s -> (forall i, inb s i -> stop i = Ok (F i)) -> until fuel (make_access_pattern s) stop (ap_start (make_access_pattern s)) = Ok (existsb F (idxs s)).
Proof.
  intros (Hne & Hs & Hf) HF. apply until_any. change (for_each fuel (make_access_pattern s) (fun i b => do x <- stop i; Ok (b || x)) false = Ok (existsb F (idxs s))).
  rewrite for_each_shape by assumption. rewrite (fold_any stop F); [reflexivity|]. intros i Hi. apply HF, idxs_In, Hi.
Qed.

(** min, max *)
Lemma best_fold {A} (better : A -> A -> bool) (a : array A) F : (forall x y z, better x y = false -> better y z = false -> better x z = false) -> (forall x y, better x y = true -> better y x = false) ->
  forall l r, (forall i, In i l -> aget a i = Ok (F i)) -> exists m,
    foldM (fun s i => let '(r, first) := s in do x <- aget a i; Ok (if first || better x r then (x, false) else (r, false))) (r, false) l = Ok (m, false) /\
    (m = r \/ exists i, In i l /\ m = F i) /\ better r m = false /\ forall i, In i l -> better (F i) m = false.
Proof.
  intros HT HA. assert (HI : forall x, better x x = false) by (intros x; destruct (better x x) eqn:E; [rewrite (HA _ _ E) in E; discriminate|reflexivity]).
  induction l as [|i l IH]; intros r H.
  - exists r. split; [reflexivity|]. split; [left; reflexivity|]. split; [apply HI|]. intros i [].
  - cbn [foldM]. rewrite H by (left; reflexivity). bsimp. cbn [orb]. destruct (better (F i) r) eqn:EB.
    + destruct (IH (F i)) as (m & E & HM & B1 & B2); [intros; apply H; right; assumption|]. exists m. split; [exact E|]. split; [|split].
      * right. destruct HM as [->|(j & Hj & ->)]; [exists i; split; [left|]; reflexivity|exists j; split; [right; exact Hj|reflexivity]].
      * apply (HT _ (F i)); [apply HA, EB|exact B1].
      * intros j [<-|Hj]; [exact B1|apply B2, Hj].
    + destruct (IH r) as (m & E & HM & B1 & B2); [intros; apply H; right; assumption|]. exists m. split; [exact E|]. split; [|split].
      * destruct HM as [->|(j & Hj & ->)]; [left; reflexivity|right; exists j; split; [right; exact Hj|reflexivity]].
      * exact B1.
      * intros j [<-|Hj]; [apply (HT _ r); assumption|apply B2, Hj].
Qed.
Lemma best_value {A} (better : A -> A -> bool) fuel d (a : array A) F : iterable fuel (ashape a) ->
  (forall x y z, better x y = false -> better y z = false -> better x z = false) -> (forall x y, better x y = true -> better y x = false) ->
  (forall i, inb (ashape a) i -> aget a i = Ok (F i)) -> exists i, inb (ashape a) i /\ arr_best fuel better d a = Ok (F i) /\ forall j, inb (ashape a) j -> better (F j) (F i) = false.
Proof.
  intros (Hne & Hs & Hf) HT HA HF. assert (HI : forall x, better x x = false) by (intros x; destruct (better x x) eqn:E; [rewrite (HA _ _ E) in E; discriminate|reflexivity]).
  unfold arr_best. rewrite for_each_shape by assumption.
  assert (NE : exists i l, idxs (ashape a) = i :: l).
  { destruct (idxs (ashape a)) as [|i l] eqn:E; [|eexists _, _; reflexivity]. exfalso. assert (K : inb (ashape a) (map (fun _ => 0) (ashape a))).
    { clear - Hs. induction (ashape a) as [|d s IH]; [constructor|]. inversion Hs; subst. constructor; [lia|]. apply IH. assumption. } apply idxs_In in K. rewrite E in K. destruct K. }
  destruct NE as (i & l & E). assert (HL : forall j, In j (i :: l) -> aget a j = Ok (F j)) by (intros j Hj; apply HF, idxs_In; rewrite E; exact Hj).
  rewrite E. cbn [foldM]. rewrite HL by (left; reflexivity). bsimp. cbn [orb].
  destruct (best_fold better a F HT HA l (F i) ltac:(intros j Hj; apply HL; right; exact Hj)) as (m & EF & HM & B1 & B2).
  assert (W : exists j, In j (i :: l) /\ m = F j) by (destruct HM as [->|(j & Hj & ->)]; [exists i; split; [left|]; reflexivity|exists j; split; [right; exact Hj|reflexivity]]).
  destruct W as (j & Hj & EM). exists j. split; [apply idxs_In; rewrite E; exact Hj|]. split.
  - rewrite EF. bsimp. cbn [fst]. rewrite EM. reflexivity.
  - intros k Hk. rewrite <- EM. apply idxs_In in Hk. rewrite E in Hk. destruct Hk as [<-|Hk]; [exact B1|apply B2, Hk].
Qed.

(** where *)
Lemma upd_middle {A} (l r : list A) x v : upd (length l) v (l ++ x :: r) = l ++ v :: r.
Proof. induction l as [|y l IH]; [reflexivity|]. cbn [length app upd]. rewrite IH. reflexivity. Qed.
Lemma where_fold (a : array bool) F z : forall l done m, (forall i, In i l -> aget a i = Ok (F i)) -> Z.of_nat (length done + length (filter F l)) < two64 -> m = length (filter F l) ->
  foldM (fun s i => let '(n, b) := s in do x <- aget a i; if x : bool then do b' <- buf_write b n i; Ok (w64 (n + 1), b') else Ok (n, b)) (Z.of_nat (length done), done ++ repeat z m) l
  = Ok (Z.of_nat (length (done ++ filter F l)), done ++ filter F l).
Proof.
  induction l as [|i l IH]; intros done m H HB ->; [cbn; rewrite app_nil_r; reflexivity|]. cbn [foldM filter]. rewrite H by (left; reflexivity). bsimp. cbn [filter] in HB. destruct (F i) eqn:EF.
  - cbn [length repeat] in *. unfold buf_write. rewrite app_length. cbn [length]. rewrite repeat_length.
    destruct (Z.leb_spec 0 (Z.of_nat (length done))); [|lia]. destruct (Z.ltb_spec (Z.of_nat (length done)) (Z.of_nat (length done + S (length (filter F l))))); [|lia]. cbn [andb bind].
    rewrite Nat2Z.id, upd_middle. rewrite w64_small by (unfold two64 in *; lia). replace (Z.of_nat (length done) + 1) with (Z.of_nat (length (done ++ [i]))) by (rewrite app_length; cbn [length]; lia).
    replace (done ++ i :: repeat z (length (filter F l))) with ((done ++ [i]) ++ repeat z (length (filter F l))) by (rewrite <- app_assoc; reflexivity).
    rewrite IH; [rewrite <- app_assoc; reflexivity|intros; apply H; right; assumption|rewrite app_length; cbn [length]; lia|reflexivity].
  - apply IH; [intros; apply H; right; assumption|exact HB|reflexivity].
Qed.
Lemma count_fold (a : array bool) F : forall l acc, (forall i, In i l -> aget a i = Ok (F i)) -> 0 <= acc -> acc + Z.of_nat (length l) < two64 ->
  foldM (fun s i => do x <- aget (arr_map Z.b2z a) i; Ok (w64 (s + x))) acc l = Ok (acc + Z.of_nat (length (filter F l))).
Proof.
  induction l as [|i l IH]; intros acc H HA HB; [cbn; f_equal; lia|]. cbn [foldM filter length] in *. cbn [arr_map aget]. rewrite H by (left; reflexivity). bsimp.
  destruct (F i); cbn [Z.b2z length]; rewrite w64_small by lia; (rewrite IH; [f_equal; lia|intros; apply H; right; assumption|lia|lia]).
Qed.
Lemma length_idxs s : Forall (fun d => 0 < d < two64) s -> Z.of_nat (length (idxs s)) = prodz s.
Proof.
  intros HS. assert (H : Forall (fun d => 0 <= d) s) by (eapply Forall_impl; [|exact HS]; cbn; lia). pose proof (lin_idxs s H) as L. apply (f_equal (@length Z)) in L. rewrite map_length in L. rewrite L.
  unfold zrange. rewrite map_length, seq_length. apply Z2Nat.id. clear L. induction H; cbn; [lia|]. inversion HS; subst. apply Z.mul_nonneg_nonneg; [assumption|]. apply IHForall. assumption.
Qed.
Lemma where_value fuel (a : array bool) F : iterable fuel (ashape a) -> prodz (ashape a) <= 2147483647 -> (forall i, inb (ashape a) i -> aget a i = Ok (F i)) ->
  exists w, nd_where fuel a = Ok w /\ ashape w = [Z.of_nat (length (filter F (idxs (ashape a))))] /\
    forall k, (k < length (filter F (idxs (ashape a))))%nat -> aget w [Z.of_nat k] = Ok (nth k (filter F (idxs (ashape a))) []).
Proof.
  intros (Hne & Hs & Hf) HV HF. assert (HI : forall i, In i (idxs (ashape a)) -> aget a i = Ok (F i)) by (intros i Hi; apply HF, idxs_In, Hi).
  pose proof (length_idxs _ Hs) as LN. assert (LE : (length (filter F (idxs (ashape a))) <= length (idxs (ashape a)))%nat).
  { clear. induction (idxs (ashape a)) as [|i l IH]; cbn; [lia|]. destruct (F i); cbn; lia. }
  unfold nd_where, arr_sum. cbn [arr_map ashape]. rewrite for_each_shape by assumption. rewrite (count_fold a F) by (try assumption; unfold two64; lia). bsimp. rewrite Z.add_0_l.
  rewrite for_each_shape by assumption. rewrite Nat2Z.id.
  pose proof (where_fold a F (map (fun _ => 0) (ashape a)) (idxs (ashape a)) [] _ HI ltac:(cbn [length]; unfold two64; lia) eq_refl) as W. cbn [length app Z.of_nat] in W.
  match goal with |- context [foldM ?f ?s ?l] => replace (foldM f s l) with (Ok (Z.of_nat (length (filter F (idxs (ashape a)))), filter F (idxs (ashape a)))) by (symmetry; exact W) end.
  bsimp. cbn [snd]. unfold make_backed. rewrite volume_value.
  match goal with |- context [if ?c then _ else _] => assert (EC : c = true) end.
  { apply Z.eqb_eq. cbn [prodz fold_right]. rewrite Z.mul_1_r, to_int_small by lia. apply w64_small. unfold two64. lia. }
  rewrite EC. eexists. split; [reflexivity|]. split; [reflexivity|]. intros k Hk. cbn [aget]. unfold strides_row_major, compute_offset. cbn. rewrite Z.mul_1_r, !(w64_small (Z.of_nat k)) by (unfold two64 in *; lia). unfold buf_read. destruct (Z.leb_spec 0 (Z.of_nat k)); [|lia]. rewrite Nat2Z.id.
  rewrite (nth_error_nth' _ [] Hk). reflexivity.
Qed.
