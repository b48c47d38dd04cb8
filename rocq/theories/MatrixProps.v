(** C44: fixed-size matrices. *)
From Coq Require Import List Arith Bool Lia ZArith.
From Verif Require Import MatrixModel.
Import ListNotations.

Section Ring.
Context {A : Type} (e0 e1 : A) (add sub mul : A -> A -> A).
Hypothesis add_comm : forall x y, add x y = add y x.
Hypothesis add_assoc : forall x y z, add x (add y z) = add (add x y) z.
Hypothesis add_0 : forall x, add e0 x = x.
Hypothesis mul_assoc : forall x y z, mul x (mul y z) = mul (mul x y) z.
Hypothesis mul_1_l : forall x, mul e1 x = x.
Hypothesis mul_1_r : forall x, mul x e1 = x.
Hypothesis mul_0_l : forall x, mul e0 x = e0.
Hypothesis mul_0_r : forall x, mul x e0 = e0.
Hypothesis distr_l : forall x y z, mul x (add y z) = add (mul x y) (mul x z).
Hypothesis distr_r : forall x y z, mul (add x y) z = add (mul x z) (mul y z).

Notation elt := (elt e0).
Notation build := build.
Notation prod := (matrix_product e0 add mul).
Notation plus := (plus e0 add).

(** A matrix of the given size. *)
Definition sized (r c : nat) (M : list (list A)) : Prop := length M = r /\ Forall (fun row => length row = c) M.

Lemma build_sized r c (f : nat -> nat -> A) : sized r c (build r c f).
Proof.
  split; [unfold build; rewrite map_length, seq_length; reflexivity|]. apply Forall_forall. intros row H. unfold build in H.
  apply in_map_iff in H as (i & <- & _). rewrite map_length, seq_length. reflexivity.
Qed.
Lemma elt_build r c (f : nat -> nat -> A) i j : i < r -> j < c -> elt (build r c f) i j = f i j.
Proof.
  intros Hi Hj. unfold elt, build. rewrite (nth_indep _ [] (map (f 0) (seq 0 c))) by (rewrite map_length, seq_length; assumption).
  rewrite (map_nth (fun i => map (f i) (seq 0 c))), seq_nth by assumption.
  rewrite (nth_indep _ e0 (f (0 + i) 0)) by (rewrite map_length, seq_length; assumption). rewrite map_nth, seq_nth by assumption. reflexivity.
Qed.
(** Two matrices of the same size with the same elements are the same. *)
Lemma sized_ext r c M N : sized r c M -> sized r c N -> (forall i j, i < r -> j < c -> elt M i j = elt N i j) -> M = N.
Proof.
  intros [LM FM] [LN FN] H. apply (nth_ext _ _ [] []); [congruence|]. intros i Hi. rewrite LM in Hi.
  rewrite Forall_forall in FM, FN. assert (LMi : length (nth i M []) = c) by (apply FM, nth_In; lia). assert (LNi : length (nth i N []) = c) by (apply FN, nth_In; lia).
  apply (nth_ext _ _ e0 e0); [congruence|]. intros j Hj. apply H; [assumption|congruence].
Qed.

Lemma elt_plus r c M N i j : i < r -> j < c -> elt (plus r c M N) i j = add (elt M i j) (elt N i j).
Proof. clear - r. apply elt_build. Qed.

Fixpoint big (f : nat -> A) (n : nat) : A := match n with O => e0 | S n => add (big f n) (f n) end.
Lemma fold_big f n : fold_left (fun e m => add e (f m)) (seq 0 n) e0 = big f n.
Proof. clear - n. induction n as [|n IH]; [reflexivity|]. rewrite seq_S, fold_left_app. simpl. rewrite IH. reflexivity. Qed.
Lemma big_ext f g n : (forall m, m < n -> f m = g m) -> big f n = big g n.
Proof. intros H. induction n as [|n IH]; [reflexivity|]. simpl. rewrite IH, H by auto. reflexivity. Qed.
Lemma big_zero n : big (fun _ => e0) n = e0.
Proof. induction n as [|n IH]; simpl; [reflexivity|]. rewrite IH. apply add_0. Qed.
Lemma big_add f g n : big (fun m => add (f m) (g m)) n = add (big f n) (big g n).
Proof.
  induction n as [|n IH]; simpl; [symmetry; apply add_0|]. rewrite IH.
  rewrite <- !add_assoc. f_equal. rewrite !add_assoc. f_equal. apply add_comm.
Qed.
Lemma big_mul_l x f n : mul x (big f n) = big (fun m => mul x (f m)) n.
Proof. induction n as [|n IH]; simpl; [apply mul_0_r|]. rewrite distr_l, IH. reflexivity. Qed.
Lemma big_mul_r x f n : mul (big f n) x = big (fun m => mul (f m) x) n.
Proof. induction n as [|n IH]; simpl; [apply mul_0_l|]. rewrite distr_r, IH. reflexivity. Qed.
Lemma big_swap f n k : big (fun i => big (fun j => f i j) k) n = big (fun j => big (fun i => f i j) n) k.
Proof.
  induction n as [|n IH]; simpl; [symmetry; apply big_zero|]. rewrite IH, big_add. reflexivity.
Qed.
Lemma big_one f n k : k < n -> big (fun m => if Nat.eqb k m then f m else e0) n = f k.
Proof.
  induction n as [|n IH]; intros H; [lia|]. simpl. destruct (Nat.eq_dec k n) as [->|N].
  - rewrite Nat.eqb_refl. rewrite (big_ext _ (fun _ => e0)), big_zero; [apply add_0|]. intros m Hm. destruct (Nat.eqb_spec n m); [lia|reflexivity].
  - rewrite IH by lia. destruct (Nat.eqb_spec k n); [contradiction|]. rewrite add_comm. apply add_0.
Qed.

(** The product's elements are the sums of products. *)
Theorem product_elements r m c M N i j : i < r -> j < c ->
  sized r c (prod r m c M N) /\ elt (prod r m c M N) i j = big (fun k => mul (elt M i k) (elt N k j)) m.
Proof.
  clear - r. intros Hi Hj. split; [apply build_sized|]. unfold matrix_product. rewrite elt_build by assumption. apply (fold_big (fun k => mul (elt M i k) (elt N k j))).
Qed.
Ltac entries := eapply sized_ext; [apply build_sized|apply build_sized|intros i j Hi Hj].

Theorem product_associative r m n c M N P : prod r n c (prod r m n M N) P = prod r m c M (prod m n c N P).
Proof.
  entries. fold (prod r n c (prod r m n M N) P). fold (prod r m c M (prod m n c N P)).
  rewrite !(fun H1 H2 M N => proj2 (product_elements r _ c M N i j H1 H2)) by assumption.
  rewrite (big_ext _ (fun k => big (fun l => mul (mul (elt M i l) (elt N l k)) (elt P k j)) m)).
  2:{ intros k Hk. rewrite (proj2 (product_elements r m n M N i k Hi Hk)). apply big_mul_r. }
  rewrite big_swap. apply big_ext. intros l Hl. rewrite (proj2 (product_elements m n c N P l j Hl Hj)). rewrite big_mul_l.
  apply big_ext. intros k _. symmetry. apply mul_assoc.
Qed.
Theorem product_distributes_left r m c M N P : prod r m c M (plus m c N P) = plus r c (prod r m c M N) (prod r m c M P).
Proof.
  entries. rewrite elt_plus by assumption. 
  rewrite !(fun H1 H2 M N => proj2 (product_elements r _ c M N i j H1 H2)) by assumption. rewrite <- big_add. apply big_ext. intros k Hk.
  rewrite elt_plus by assumption. apply distr_l.
Qed.
Theorem product_distributes_right r m c M N P : prod r m c (plus r m M N) P = plus r c (prod r m c M P) (prod r m c N P).
Proof.
  entries. rewrite elt_plus by assumption.
  rewrite !(fun H1 H2 M N => proj2 (product_elements r _ c M N i j H1 H2)) by assumption. rewrite <- big_add. apply big_ext. intros k Hk.
  rewrite elt_plus by assumption. apply distr_r.
Qed.
Theorem identity_is_unit r c M : sized r c M -> prod r r c (identity_matrix e0 e1 r) M = M /\ prod r c c M (identity_matrix e0 e1 c) = M.
Proof.
  intros HM. split.
  - eapply sized_ext; [apply build_sized|exact HM|intros i j Hi Hj]. fold (prod r r c (identity_matrix e0 e1 r) M). rewrite (proj2 (product_elements r r c _ _ i j Hi Hj)).
    rewrite (big_ext _ (fun k => if Nat.eqb i k then elt M k j else e0)); [apply (big_one (fun k => elt M k j)); assumption|].
    intros k Hk. unfold identity_matrix. rewrite elt_build by assumption. destruct (Nat.eqb i k); [apply mul_1_l|apply mul_0_l].
  - eapply sized_ext; [apply build_sized|exact HM|intros i j Hi Hj]. fold (prod r c c M (identity_matrix e0 e1 c)). rewrite (proj2 (product_elements r c c _ _ i j Hi Hj)).
    rewrite (big_ext _ (fun k => if Nat.eqb j k then elt M i k else e0)); [apply (big_one (fun k => elt M i k)); assumption|].
    intros k Hk. unfold identity_matrix. rewrite elt_build by assumption. rewrite Nat.eqb_sym. destruct (Nat.eqb j k); [apply mul_1_r|apply mul_0_r].
Qed.
Theorem sums_form_a_monoid r c M N P : sized r c M ->
  plus r c M (plus r c N P) = plus r c (plus r c M N) P /\ plus r c M N = plus r c N M /\ plus r c (zero_matrix e0 r c) M = M.
Proof.
  clear - add_comm add_assoc add_0. intros HM. split; [|split].
  - entries. rewrite !elt_plus by assumption. apply add_assoc.
  - entries. rewrite !elt_plus by assumption. apply add_comm.
  - eapply sized_ext; [apply build_sized|exact HM|intros i j Hi Hj]. rewrite elt_plus by assumption. unfold zero_matrix. rewrite elt_build by assumption. apply add_0.
Qed.
Theorem diagonal_products v w : length v = length w ->
  prod (length v) (length v) (length v) (diagonal_matrix e0 v) (diagonal_matrix e0 w) =
  diagonal_matrix e0 (map (fun p => mul (fst p) (snd p)) (combine v w)).
Proof.
  intros L. assert (LC : length (map (fun p => mul (fst p) (snd p)) (combine v w)) = length v) by (rewrite map_length, combine_length; lia).
  unfold diagonal_matrix at 3. rewrite LC. entries. rewrite elt_build by assumption.
  fold (prod (length v) (length v) (length v) (diagonal_matrix e0 v) (diagonal_matrix e0 w)). rewrite (proj2 (product_elements _ _ _ _ _ i j Hi Hj)).
  rewrite (big_ext _ (fun k => if Nat.eqb i k then mul (nth k v e0) (elt (diagonal_matrix e0 w) k j) else e0)).
  - rewrite (big_one (fun k => mul (nth k v e0) (elt (diagonal_matrix e0 w) k j))) by assumption. unfold diagonal_matrix. rewrite elt_build by lia.
    destruct (Nat.eqb i j); [|apply mul_0_r].
    pose (g := fun p : A * A => mul (fst p) (snd p)). change (mul (nth i v e0) (nth i w e0) = nth i (map g (combine v w)) e0).
    rewrite (nth_indep (map g (combine v w)) e0 (g (e0, e0))) by (change (i < length (map g (combine v w))) in |- *; fold g in LC; lia).
    rewrite (map_nth g), combine_nth by assumption. reflexivity.
  - intros k Hk. unfold diagonal_matrix at 1. rewrite elt_build by assumption. destruct (Nat.eqb_spec i k); [subst; reflexivity|apply mul_0_l].
Qed.

(** A column vector times a matrix, and a row vector, as products of matrices. *)
Theorem vector_products (M : list (list A)) (v : list A) (r : nat) :
  (forall i, i < r -> elt (prod r (length v) 1 M (column_vector e0 v)) i 0 = big (fun k => mul (elt M i k) (nth k v e0)) (length v)) /\
  (forall j, j < r -> elt (prod 1 (length v) r (row_vector e0 v) M) 0 j = big (fun k => mul (nth k v e0) (elt M k j)) (length v)).
Proof.
  clear - r. split.
  - intros i Hi. rewrite (proj2 (product_elements r _ 1 M _ i 0 Hi ltac:(lia))). apply big_ext. intros k Hk. unfold column_vector. rewrite elt_build by lia. reflexivity.
  - intros j Hj. rewrite (proj2 (product_elements 1 _ r _ M 0 j ltac:(lia) Hj)). apply big_ext. intros k Hk. unfold row_vector. rewrite elt_build by lia. reflexivity.
Qed.

Theorem matrix_equality (neqb : A -> A -> bool) r c M N : (forall x y, neqb x y = false <-> x = y) -> sized r c M -> sized r c N ->
  (equal e0 neqb r c M N = true <-> M = N) /\ not_equal e0 neqb r c M N = negb (equal e0 neqb r c M N).
Proof.
  clear - r. intros HE HM HN. split; [|unfold equal, not_equal; rewrite negb_involutive; reflexivity].
  unfold equal. rewrite negb_true_iff. split.
  - intros E. eapply sized_ext; [exact HM|exact HN|]. intros i j Hi Hj. apply HE. destruct (neqb (elt M i j) (elt N i j)) eqn:Q; [|reflexivity]. rewrite <- E. symmetry.
    apply existsb_exists. exists i. split; [apply in_seq; lia|]. apply existsb_exists. exists j. split; [apply in_seq; lia|assumption].
  - intros <-. destruct (existsb _ (seq 0 r)) eqn:Q; [|reflexivity]. apply existsb_exists in Q as (i & _ & Q). apply existsb_exists in Q as (j & _ & Q).
    rewrite (proj2 (HE _ _) eq_refl) in Q. discriminate Q.
Qed.
End Ring.

Example matrix_example :
  let M := [[1; 2; 3]; [4; 5; 6]]%Z in let N := [[1; 0]; [0; 2]; [7; 1]]%Z in
  matrix_product 0%Z Z.add Z.mul 2 3 2 M N = [[22; 7]; [46; 16]]%Z /\
  matrix_product 0%Z Z.add Z.mul 2 3 1 M (column_vector 0%Z [1; 1; 1]%Z) = [[6]; [15]]%Z /\
  equal 0%Z (fun x y => negb (Z.eqb x y)) 2 3 M M = true /\ not_equal 0%Z (fun x y => negb (Z.eqb x y)) 2 3 M [[1; 2; 3]; [4; 5; 7]]%Z = true.
Proof. vm_compute. repeat split; reflexivity. Qed.

Print Assumptions product_elements.
Print Assumptions product_associative.
Print Assumptions product_distributes_left.
Print Assumptions product_distributes_right.
Print Assumptions identity_is_unit.
Print Assumptions sums_form_a_monoid.
Print Assumptions diagonal_products.
Print Assumptions vector_products.
Print Assumptions matrix_equality.
