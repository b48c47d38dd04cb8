(** C45: fixed-length sequences. *)
From Coq Require Import List Arith Bool Lia.
From Verif Require Import Base SequenceModel.
Import ListNotations.

(** Reading every entry of an index range: the workhorse. *)
Lemma mapM_iota {A} (f : nat -> outcome A) n (l : list A) : length l = n ->
  (forall k x, nth_error l k = Some x -> f k = Ok x) -> mapM f (iota n) = Ok l.
Proof.
  unfold iota. intros <- H. assert (G : forall (l : list A) off, (forall k x, nth_error l k = Some x -> f (off + k) = Ok x) -> mapM f (List.seq off (length l)) = Ok l).
  { clear. induction l as [|y l IH]; intros off H; [reflexivity|]. cbn [length List.seq mapM].
    rewrite <- (Nat.add_0_r off) at 1. rewrite (H 0 y eq_refl). bsimp. rewrite IH; [bsimp; reflexivity|].
    intros k x E. replace (S off + k) with (off + S k) by lia. apply H. assumption. }
  apply (G l 0). intros k x. simpl. apply H.
Qed.
Lemma index_ok {A} (s : list A) n x : nth_error s n = Some x -> index s n = Ok x.
Proof. intros E. unfold index. rewrite E. reflexivity. Qed.
Lemma nth_error_firstn_lt {A} (s : list A) k n : k < n -> nth_error (firstn n s) k = nth_error s k.
Proof. revert k n; induction s; intros [|k] [|n] H; simpl; try lia; try reflexivity. apply IHs. lia. Qed.

Section Seq.
Context {A : Type}.
Implicit Types s t : list A.

(** Indexing with [at]: the element, or out_of_range. *)
Theorem at_in_range_or_throws s n :
  (forall x, nth_error s n = Some x -> at_ s n = Ok x) /\ (length s <= n -> at_ s n = Throw OutOfRange).
Proof.
  unfold at_. split.
  - intros x E. assert (n < length s) by (apply nth_error_Some; rewrite E; discriminate). destruct (Nat.ltb_spec n (length s)); [apply index_ok; assumption|lia].
  - intros H. destruct (Nat.ltb_spec n (length s)); [lia|reflexivity].
Qed.

(** [set] and [update] change the one element; an index out of range changes nothing (and does not throw). *)
Theorem update_changes_one s i f : exists t, update s i f = Ok t /\ length t = length s /\
  (forall k x, nth_error s k = Some x -> nth_error t k = Some (if Nat.eqb k i then f x else x)).
Proof.
  set (t := map (fun p => if Nat.eqb (fst p) i then f (snd p) else snd p) (combine (List.seq 0 (length s)) s)).
  assert (N : forall k, nth_error t k = option_map (fun x => if Nat.eqb k i then f x else x) (nth_error s k)).
  { intros k. unfold t. rewrite nth_error_map.
    assert (G : forall (l : list A) off k, nth_error (combine (List.seq off (length l)) l) k = option_map (fun x => (off + k, x)) (nth_error l k)).
    { clear. induction l as [|y l IH]; intros off [|k]; simpl; try reflexivity; [rewrite Nat.add_0_r; reflexivity|]. rewrite IH. destruct (nth_error l k); [|reflexivity]. simpl. repeat f_equal. lia. }
    rewrite G. destruct (nth_error s k); reflexivity. }
  exists t. assert (L : length t = length s) by (unfold t; rewrite map_length, combine_length, seq_length; lia). split; [|split; [assumption|]].
  - unfold update. apply mapM_iota; [assumption|]. intros k x. rewrite N. destruct (nth_error s k) as [y|] eqn:E; [|discriminate]. simpl. intros Q. rewrite (index_ok _ _ _ E).
    rewrite (Nat.eqb_sym i k). destruct (Nat.eqb k i); bsimp; congruence.
  - intros k x E. rewrite N, E. reflexivity.
Qed.
Theorem set_changes_one s i v : exists t, set s i v = Ok t /\ length t = length s /\
  (forall k x, nth_error s k = Some x -> nth_error t k = Some (if Nat.eqb k i then v else x)).
Proof.
  destruct (update_changes_one s i (fun _ => v)) as (t & E & L & N). exists t. split; [|split; [assumption|]].
  - unfold set. apply mapM_iota; [assumption|]. intros k x E'.
    assert (Hk : k < length s) by (rewrite <- L; apply nth_error_Some; rewrite E'; discriminate).
    apply nth_error_Some in Hk. destruct (nth_error s k) as [y|] eqn:Ey; [|contradiction].
    specialize (N k y Ey). rewrite E' in N. injection N as ->. rewrite (Nat.eqb_sym i k). destruct (Nat.eqb k i); [reflexivity|apply index_ok; assumption].
  - assumption.
Qed.
Theorem set_out_of_range_is_silent s i v : length s <= i -> set s i v = Ok s.
Proof.
  intros H. unfold set. apply mapM_iota; [reflexivity|]. intros k x E. assert (k < length s) by (apply nth_error_Some; rewrite E; discriminate).
  destruct (Nat.eqb_spec i k); [lia|apply index_ok; assumption].
Qed.

(** [reverse] is list reversal, hence an involution. *)
Lemma nth_error_rev s k : k < length s -> nth_error (rev s) k = nth_error s (length s - k - 1).
Proof.
  revert k; induction s as [|x s IH]; simpl length; intros k H; [lia|]. simpl rev. destruct (Nat.eq_dec k (length s)) as [->|N].
  - rewrite nth_error_app2 by (rewrite rev_length; lia). rewrite rev_length, Nat.sub_diag. replace (S (length s) - length s - 1) with 0 by lia. reflexivity.
  - rewrite nth_error_app1 by (rewrite rev_length; lia). rewrite IH by lia. replace (S (length s) - k - 1) with (S (length s - k - 1)) by lia. reflexivity.
Qed.
Theorem reverse_is_rev s : reverse s = Ok (rev s).
Proof.
  unfold reverse. apply mapM_iota; [apply rev_length|]. intros k x E.
  assert (k < length s) by (rewrite <- rev_length; apply nth_error_Some; rewrite E; discriminate). rewrite nth_error_rev in E by assumption. apply index_ok; assumption.
Qed.
Theorem reverse_involutive s : (do t <- reverse s; reverse t) = Ok s.
Proof. rewrite reverse_is_rev. bsimp. rewrite reverse_is_rev, rev_involutive. reflexivity. Qed.

(** The list laws. *)
Theorem concat_is_app s t : concat s t = Ok (s ++ t).
Proof.
  unfold concat. apply mapM_iota; [apply app_length|]. intros k x E. destruct (Nat.ltb_spec k (length s)).
  - rewrite nth_error_app1 in E by assumption. apply index_ok; assumption.
  - rewrite nth_error_app2 in E by assumption. apply index_ok; assumption.
Qed.
Theorem append_prepend_laws s x : append s x = Ok (s ++ [x]) /\ prepend s x = Ok (x :: s).
Proof. split; apply concat_is_app. Qed.
Theorem head_tail_laws s x : head (x :: s) = Ok x /\ tail (x :: s) = Ok s.
Proof.
  split; [reflexivity|]. unfold tail. simpl length. rewrite Nat.sub_succ, Nat.sub_0_r. apply mapM_iota; [reflexivity|]. intros k y E. apply index_ok. rewrite Nat.add_1_r. exact E.
Qed.
Theorem init_last_laws s x : init (s ++ [x]) = Ok s /\ last (s ++ [x]) = Ok x.
Proof.
  unfold init, last. rewrite app_length. simpl length. replace (length s + 1 - 1) with (length s) by lia. split.
  - apply mapM_iota; [reflexivity|]. intros k y E. apply index_ok. rewrite nth_error_app1; [assumption|]. apply nth_error_Some. rewrite E. discriminate.
  - apply at_in_range_or_throws. rewrite nth_error_app2 by lia. rewrite Nat.sub_diag. reflexivity.
Qed.

(** Mapping and applying functions work element by element. *)
Theorem map_elementwise {B} (f : A -> B) s k : nth_error (map_ f s) k = option_map f (nth_error s k).
Proof. apply nth_error_map. Qed.
Theorem apply_to_elementwise {B} (fs : list (A -> B)) s : length fs = length s ->
  exists u : list B, apply_to fs s = Ok u /\ length u = length s /\ forall k f x, nth_error fs k = Some f -> nth_error s k = Some x -> nth_error u k = Some (f x).
Proof.
  intros L. exists (map (fun p => fst p (snd p)) (combine fs s)).
  assert (N : forall k, nth_error (map (fun p => fst p (snd p)) (combine fs s)) k = match nth_error fs k, nth_error s k with Some f, Some x => Some (f x) | _, _ => None end).
  { clear L. revert s; induction fs as [|f fs IH]; intros s [|k]; destruct s as [|x s]; simpl; try reflexivity.
    - destruct (nth_error fs k); reflexivity.
    - apply IH. }
  split; [|split].
  - unfold apply_to. apply mapM_iota; [rewrite map_length, combine_length; lia|]. intros k x. rewrite N. unfold index.
    destruct (nth_error fs k) as [f|]; [|discriminate]. destruct (nth_error s k) as [y|]; [|discriminate]. intros E. injection E as <-. reflexivity.
  - rewrite map_length, combine_length; lia.
  - intros k f x Ef Ex. rewrite N, Ef, Ex. reflexivity.
Qed.
Theorem binary_op_elementwise {B C} (f : A -> B -> C) s (t : list B) k :
  nth_error (binary_op f s t) k = match nth_error s k, nth_error t k with Some x, Some y => Some (f x y) | _, _ => None end.
Proof.
  unfold binary_op. revert t k; induction s as [|x s IH]; intros [|y t] [|k]; simpl; try reflexivity.
  - destruct (nth_error s k); reflexivity.
  - apply IH.
Qed.

(** [sum] is the left fold; over a commutative monoid the order is immaterial. *)
Theorem sum_is_fold zero add s : (forall x y, add x y = add y x) -> (forall x y z, add x (add y z) = add (add x y) z) -> (forall x, add zero x = x) ->
  sum zero add s = fold_right add zero s.
Proof. intros C As Z. unfold sum. apply fold_symmetric; [intros; apply As|]. intros. apply C. Qed.
End Seq.

Theorem all_any_are_folds s : (all s = true <-> Forall (fun b => b = true) s) /\ (any s = true <-> Exists (fun b => b = true) s).
Proof.
  split.
  - induction s as [|[|] s IH]; simpl; split; intros H; try (constructor; fail); try discriminate.
    + constructor; [reflexivity|apply IH; assumption].
    + apply IH. inversion H; assumption.
    + inversion H; discriminate.
  - induction s as [|[|] s IH]; simpl; split; intros H; try discriminate; try (inversion H; fail); try reflexivity.
    + constructor; reflexivity.
    + apply Exists_cons_tl. apply IH. assumption.
    + apply IH. inversion H; [discriminate|assumption].
Qed.

(** [min] and [max] over a total order (here given by a boolean strict order). *)
Section Order.
Context {A : Type} (ltb : A -> A -> bool) (le : A -> A -> Prop).
Hypothesis le_refl : forall x, le x x.
Hypothesis le_trans : forall x y z, le x y -> le y z -> le x z.
Hypothesis ltb_le : forall x y, if ltb x y then le x y else le y x.

Lemma fold_min_spec (s : list A) : forall fuel i acc, i + fuel = length s ->
  exists m, fold_from (std_min ltb) s i fuel acc = Ok m /\ le m acc /\ (forall k x, i <= k -> nth_error s k = Some x -> le m x) /\
    (m = acc \/ exists k, nth_error s k = Some m).
Proof.
  induction fuel as [|fuel IH]; intros i acc L; cbn [fold_from].
  - exists acc. split; [reflexivity|]. split; [apply le_refl|]. split; [|left; reflexivity]. intros k x K E. assert (k < length s) by (apply nth_error_Some; rewrite E; discriminate). lia.
  - assert (Hi : i < length s) by lia. apply nth_error_Some in Hi. destruct (nth_error s i) as [y|] eqn:Ey; [|contradiction]. rewrite (index_ok _ _ _ Ey). bsimp.
    destruct (IH (S i) (std_min ltb acc y)) as (m & E & L1 & L2 & L3); [lia|]. exists m. split; [assumption|].
    assert (MA : le (std_min ltb acc y) acc /\ le (std_min ltb acc y) y).
    { unfold std_min. pose proof (ltb_le y acc) as Q. destruct (ltb y acc); split; auto. }
    destruct MA as [MA MY]. split; [eapply le_trans; eassumption|]. split.
    + intros k x K E'. destruct (Nat.eq_dec k i) as [->|]; [|apply (L2 k); [lia|assumption]].
      assert (x = y) by congruence. subst x. eapply le_trans; eassumption.
    + destruct L3 as [->|L3]; [|right; assumption]. unfold std_min. destruct (ltb y acc); [right; exists i; assumption|left; reflexivity].
Qed.
Lemma fold_max_spec (s : list A) : forall fuel i acc, i + fuel = length s ->
  exists m, fold_from (std_max ltb) s i fuel acc = Ok m /\ le acc m /\ (forall k x, i <= k -> nth_error s k = Some x -> le x m) /\
    (m = acc \/ exists k, nth_error s k = Some m).
Proof.
  induction fuel as [|fuel IH]; intros i acc L; cbn [fold_from].
  - exists acc. split; [reflexivity|]. split; [apply le_refl|]. split; [|left; reflexivity]. intros k x K E. assert (k < length s) by (apply nth_error_Some; rewrite E; discriminate). lia.
  - assert (Hi : i < length s) by lia. apply nth_error_Some in Hi. destruct (nth_error s i) as [y|] eqn:Ey; [|contradiction]. rewrite (index_ok _ _ _ Ey). bsimp.
    destruct (IH (S i) (std_max ltb acc y)) as (m & E & L1 & L2 & L3); [lia|]. exists m. split; [assumption|].
    assert (MA : le acc (std_max ltb acc y) /\ le y (std_max ltb acc y)).
    { unfold std_max. pose proof (ltb_le acc y) as Q. destruct (ltb acc y); split; auto. }
    destruct MA as [MA MY]. split; [eapply le_trans; eassumption|]. split.
    + intros k x K E'. destruct (Nat.eq_dec k i) as [->|]; [|apply (L2 k); [lia|assumption]].
      assert (x = y) by congruence. subst x. eapply le_trans; eassumption.
    + destruct L3 as [->|L3]; [|right; assumption]. unfold std_max. destruct (ltb acc y); [right; exists i; assumption|left; reflexivity].
Qed.
Theorem min_max_are_bounds (s : list A) : s <> [] ->
  exists m M, min ltb s = Ok m /\ max ltb s = Ok M /\ In m s /\ In M s /\ forall x, In x s -> le m x /\ le x M.
Proof.
  intros Hne. destruct s as [|y s]; [contradiction|]. unfold min, max. change (index (y :: s) 0) with (@Ok A y). bsimp.
  destruct (fold_min_spec (y :: s) (length (y :: s) - 1) 1 y) as (m & E & L1 & L2 & L3); [simpl; lia|].
  destruct (fold_max_spec (y :: s) (length (y :: s) - 1) 1 y) as (M & E' & L1' & L2' & L3'); [simpl; lia|].
  exists m, M. split; [assumption|]. split; [assumption|]. split; [|split].
  - destruct L3 as [->|[k Ek]]; [left; reflexivity|eapply nth_error_In; eassumption].
  - destruct L3' as [->|[k Ek]]; [left; reflexivity|eapply nth_error_In; eassumption].
  - intros x Hx. apply In_nth_error in Hx as [k Ek]. destruct k as [|k].
    + simpl in Ek. injection Ek as <-. split; assumption.
    + split; [apply (L2 (S k))|apply (L2' (S k))]; try lia; assumption.
Qed.
End Order.

(** Transposing twice. *)
Theorem transpose_involutive {A} (cols : nat) (s : list (list A)) : s <> [] -> Forall (fun row => length row = cols) s ->
  exists t, transpose cols s = Ok t /\ length t = cols /\ Forall (fun row => length row = length s) t /\ transpose (length s) t = Ok s /\
    forall i j row x, nth_error s i = Some row -> nth_error row j = Some x -> exists row', nth_error t j = Some row' /\ nth_error row' i = Some x.
Proof.
  intros _ HF. assert (HR : forall i row, nth_error s i = Some row -> length row = cols).
  { intros i row E. rewrite Forall_forall in HF. apply HF. eapply nth_error_In; eassumption. }
  set (col := fun j => flat_map (fun row => match nth_error row j with Some x => [x] | None => [] end) s).
  assert (HC : forall j, j < cols -> length (col j) = length s /\ forall i, nth_error (col j) i = match nth_error s i with Some row => nth_error row j | None => None end).
  { intros j Hj. unfold col. clear - HF Hj. induction HF as [|row s HL HF [IH1 IH2]]; simpl.
    - split; [reflexivity|]. intros [|i]; reflexivity.
    - assert (Hj' : j < length row) by lia. apply nth_error_Some in Hj'. destruct (nth_error row j) as [x|] eqn:Ex; [|contradiction]. split; [simpl; rewrite IH1; reflexivity|].
      intros [|i]; simpl; [symmetry; assumption|apply IH2]. }
  set (t := map col (List.seq 0 cols)).
  assert (Nt : forall j, nth_error t j = if j <? cols then Some (col j) else None).
  { intros j. unfold t. rewrite nth_error_map. destruct (Nat.ltb_spec j cols) as [L|L].
    - rewrite (nth_error_nth' _ 0) by (rewrite seq_length; assumption). rewrite seq_nth by assumption. reflexivity.
    - replace (nth_error (List.seq 0 cols) j) with (@None nat); [reflexivity|]. symmetry. apply nth_error_None. rewrite seq_length. assumption. }
  exists t. assert (Lt : length t = cols) by (unfold t; rewrite map_length, seq_length; reflexivity).
  split; [|split; [assumption|split; [|split]]].
  - unfold transpose. apply mapM_iota; [assumption|]. intros j c. rewrite Nt. destruct (Nat.ltb_spec j cols) as [L|L]; [|discriminate]. intros E. injection E as <-.
    destruct (HC j L) as [C1 C2]. apply mapM_iota; [assumption|]. intros i x. rewrite C2. destruct (nth_error s i) as [row|] eqn:Er; [|discriminate]. intros Ex.
    rewrite (index_ok _ _ _ Er). bsimp. apply index_ok; assumption.
  - apply Forall_forall. intros c Hc. unfold t in Hc. apply in_map_iff in Hc as (j & <- & Hj). apply in_seq in Hj. apply HC. lia.
  - unfold transpose. apply mapM_iota; [reflexivity|]. intros i row Er. rewrite Lt. apply mapM_iota; [eapply HR; eassumption|]. intros j x Ex.
    assert (L : j < cols) by (rewrite <- (HR i row Er); apply nth_error_Some; rewrite Ex; discriminate).
    assert (Et : nth_error t j = Some (col j)) by (rewrite Nt; destruct (Nat.ltb_spec j cols); [reflexivity|lia]).
    rewrite (index_ok _ _ _ Et). bsimp. apply index_ok. destruct (HC j L) as [_ C2]. rewrite C2, Er. assumption.
  - intros i j row x Er Ex. assert (L : j < cols) by (rewrite <- (HR i row Er); apply nth_error_Some; rewrite Ex; discriminate).
    exists (col j). split; [rewrite Nt; destruct (Nat.ltb_spec j cols); [reflexivity|lia]|]. destruct (HC j L) as [_ C2]. rewrite C2, Er. assumption.
Qed.

Example sequence_example :
  update [1; 2; 3] 1 (fun x => 10 * x) = Ok [1; 20; 3] /\ set [1; 2; 3] 5 9 = Ok [1; 2; 3] /\ at_ [1; 2; 3] 3 = Throw OutOfRange /\
  transpose 3 [[1; 2; 3]; [4; 5; 6]] = Ok [[1; 4]; [2; 5]; [3; 6]] /\ min Nat.ltb [3; 1; 2] = Ok 1 /\ max Nat.ltb [3; 1; 2] = Ok 3 /\
  reverse [1; 2; 3] = Ok [3; 2; 1] /\ concat [1] [2; 3] = Ok [1; 2; 3] /\ init [1; 2; 3] = Ok [1; 2].
Proof. vm_compute. repeat split; reflexivity. Qed.

Print Assumptions at_in_range_or_throws.
Print Assumptions update_changes_one.
Print Assumptions set_changes_one.
Print Assumptions set_out_of_range_is_silent.
Print Assumptions reverse_is_rev.
Print Assumptions reverse_involutive.
Print Assumptions concat_is_app.
Print Assumptions append_prepend_laws.
Print Assumptions head_tail_laws.
Print Assumptions init_last_laws.
Print Assumptions map_elementwise.
Print Assumptions apply_to_elementwise.
Print Assumptions binary_op_elementwise.
Print Assumptions sum_is_fold.
Print Assumptions all_any_are_folds.
Print Assumptions min_max_are_bounds.
Print Assumptions transpose_involutive.
