(** Pairs of computations that go alike: relations on outcomes, arrays and trees that the operations of the arrays (NdModel,
    NdOpsModel, ProlongModel), the trees (TreeModel, BalanceModel), guard zones, fluxes and steps (GuardModel, FluxModel, StepModel)
    carry along. *)
From Coq Require Import ZArith Reals List Bool Lia Lra.
From Verif Require Import Base TreeModel TreeProofs BalanceModel NdModel NdOpsModel ProlongModel FluxModel GuardModel MeshModel HydroModel StepModel.
Import ListNotations.
Close Scope Z_scope.
Open Scope nat_scope.

Inductive orel {A B} (E : A -> B -> Prop) : outcome A -> outcome B -> Prop :=
| orel_ok x y : E x y -> orel E (Ok x) (Ok y)
| orel_throw e : orel E (Throw e) (Throw e)
| orel_ub : orel E UB UB
| orel_nofuel : orel E NoFuel NoFuel.
Definition arel {A B} (E : A -> B -> Prop) (a : array A) (b : array B) : Prop := ashape a = ashape b /\ forall i, orel E (aget a i) (aget b i).
Inductive trel {A B} (E : A -> B -> Prop) : tree A -> tree B -> Prop :=
| trel_leaf x y : E x y -> trel E (Leaf x) (Leaf y)
| trel_node cs ds : Forall2 (trel E) cs ds -> trel E (Node cs) (Node ds).
Definition prel {A B C D} (E : A -> B -> Prop) (F : C -> D -> Prop) (x : A * C) (y : B * D) : Prop := E (fst x) (fst y) /\ F (snd x) (snd y).

Lemma orel_eq {A} (m : outcome A) : orel eq m m. Proof. destruct m; constructor; reflexivity. Qed.
Lemma arel_eq {A} (a : array A) : arel eq a a. Proof. split; [reflexivity|]. intros i. apply orel_eq. Qed.
Lemma trel_refl {A} (E : A -> A -> Prop) : (forall x, E x x) -> forall t, trel E t t.
Proof. intros HE t. induction t as [a|cs IH] using tree_ind'; constructor; [apply HE|]. induction IH; constructor; assumption. Qed.
Lemma trel_eqs {A} (t : tree (array A)) : trel (arel eq) t t. Proof. apply trel_refl, arel_eq. Qed.
Lemma orel_weaken {A B} (E F : A -> B -> Prop) m n : (forall x y, E x y -> F x y) -> orel E m n -> orel F m n. Proof. intros H [x y G|e| |]; constructor; auto. Qed.
Lemma orel_eq_inv {A} (m n : outcome A) : orel eq m n -> m = n. Proof. intros []; subst; reflexivity. Qed.
Lemma rel_bind {A B C D} (E : A -> B -> Prop) (F : C -> D -> Prop) m n f g : orel E m n -> (forall x y, E x y -> orel F (f x) (g y)) -> orel F (bind m f) (bind n g).
Proof. intros [x y H|e| |] G; cbn [bind]; [apply G; exact H|constructor|constructor|constructor]. Qed.
Lemma rel_bind_eq {A C D} (F : C -> D -> Prop) (m : outcome A) f g : (forall x, orel F (f x) (g x)) -> orel F (bind m f) (bind m g).
Proof. intros H. apply (rel_bind eq); [apply orel_eq|]. intros x _ <-. apply H. Qed.

(** *** Arrays *)
Section Arrays.
Context {A B C D : Type} (E : A -> B -> Prop) (F : C -> D -> Prop).
Lemma rel_map f g a b : (forall x y, E x y -> F (f x) (g y)) -> arel E a b -> arel F (arr_map f a) (arr_map g b).
Proof. intros H [S G]. split; [exact S|]. intros i. cbn. apply (rel_bind E); [apply G|]. intros x y K. constructor. apply H, K. Qed.
Lemma rel_op {X Y} (T : X -> Y -> Prop) f g a b c d : (forall x y u v, E x y -> F u v -> T (f x u) (g y v)) -> arel E a b -> arel F c d -> orel (arel T) (NdModel.binary_op f a c) (NdModel.binary_op g b d).
Proof.
  intros H [S G] [S' G']. unfold NdModel.binary_op. rewrite S, S'. destruct (seq_eqb _ _); constructor. split; [reflexivity|]. intros i. cbn. apply (rel_bind E); [apply G|]. intros x y K. apply (rel_bind F); [apply G'|].
  intros u v K'. constructor. apply H; assumption.
Qed.
Lemma rel_zip a b c d : arel E a b -> arel F c d -> orel (arel (prel E F)) (zip2 a c) (zip2 b d).
Proof. intros H G. assert (K : orel (arel (prel E F)) (NdModel.binary_op pair a c) (NdModel.binary_op pair b d)); [|exact K].
  destruct H as [S G0]. destruct G as [S' G']. unfold NdModel.binary_op. rewrite S, S'. destruct (seq_eqb _ _); constructor. split; [reflexivity|]. intros i. cbn. apply (rel_bind E); [apply G0|]. intros x y K. apply (rel_bind F); [apply G'|].
  intros u v K'. constructor. split; assumption. Qed.
Lemma rel_select_axis ax s f j e a b : arel E a b -> orel (arel E) (select_axis ax s f j e a) (select_axis ax s f j e b).
Proof. intros [S G]. unfold select_axis. rewrite S. destruct (_ <=? _); [constructor|]. apply rel_bind_eq. intros x. constructor. split; [reflexivity|]. intros i. cbn. apply G. Qed.
Lemma rel_select r a b : arel E a b -> orel (arel E) (select r a) (select r b).
Proof. intros [S G]. unfold select. rewrite S. apply rel_bind_eq. intros [|]; [|constructor]. cbn [negb]. apply rel_bind_eq. intros x. constructor. split; [reflexivity|]. intros i. cbn. apply G. Qed.
Lemma rel_select_first n ax a b : arel E a b -> orel (arel E) (select_first n ax a) (select_first n ax b).
Proof. intros H. unfold select_first. rewrite (proj1 H). apply rel_select, H. Qed.
Lemma rel_select_final n ax a b : arel E a b -> orel (arel E) (select_final n ax a) (select_final n ax b).
Proof. intros H. unfold select_final. rewrite (proj1 H). apply rel_select, H. Qed.
Lemma rel_concat ax a b a' b' : arel E a b -> arel E a' b' -> orel (arel E) (concat_on ax a a') (concat_on ax b b').
Proof.
  intros [S G] [S' G']. unfold concat_on. rewrite S, S'. destruct (_ <=? _); [constructor|]. destruct (negb _); constructor. split; [reflexivity|]. intros i. cbn. destruct (_ <=? _)%Z; [apply G|apply G'].
Qed.
Lemma rel_adjacent2 ax a b : arel E a b -> orel (arel (prel E E)) (zip_adjacent2_on_axis ax a) (zip_adjacent2_on_axis ax b).
Proof.
  intros H. unfold zip_adjacent2_on_axis. apply (rel_bind (arel E)); [apply rel_select_axis, H|]. intros l l' L. apply (rel_bind (arel E)); [apply rel_select_axis, H|]. intros r r' R.
  destruct L as [S G0]. destruct R as [S' G']. unfold zip2, NdModel.binary_op. rewrite S, S'. destruct (seq_eqb _ _); constructor. split; [reflexivity|]. intros i. cbn. apply (rel_bind E); [apply G0|]. intros x y K. apply (rel_bind E); [apply G'|].
  intros u v K'. constructor. split; assumption.
Qed.
End Arrays.
Section Loops.
Lemma rel_for_indexes {S T} (E : S -> T -> Prop) p f g : (forall i s t, E s t -> orel E (f i s) (g i t)) -> forall n cur s t, E s t -> orel E (for_indexes n p f cur s) (for_indexes n p g cur t).
Proof.
  intros H. induction n as [|n IH]; intros cur s t K; cbn [for_indexes]; (destruct (seq_eqb _ _); [constructor; exact K|]); [constructor|]. apply (rel_bind E); [apply H, K|]. intros x y L. apply IH, L.
Qed.
Lemma rel_for_each {S T} (E : S -> T -> Prop) n p f g s t : (forall i s t, E s t -> orel E (f i s) (g i t)) -> E s t -> orel E (for_each n p f s) (for_each n p g t).
Proof. intros H K. apply rel_for_indexes; assumption. Qed.
Lemma rel_sum {A B} (E : A -> B -> Prop) n z z' f g a b : E z z' -> (forall x y u v, E x y -> E u v -> E (f x u) (g y v)) -> arel E a b -> orel E (arr_sum n z f a) (arr_sum n z' g b).
Proof.
  intros Z H [S G]. unfold arr_sum. rewrite S. apply rel_for_each; [|exact Z]. intros i s t K. apply (rel_bind E); [apply G|]. intros x y L. constructor. apply H; assumption.
Qed.
Lemma rel_mapM {A B C D} (E : A -> B -> Prop) (F : C -> D -> Prop) f g l m : (forall x y, E x y -> orel F (f x) (g y)) -> Forall2 E l m -> orel (Forall2 F) (mapM f l) (mapM g m).
Proof.
  intros H K. induction K as [|x y l m K _ IH]; cbn [mapM]; [constructor; constructor|]. apply (rel_bind F); [apply H, K|]. intros u v L. apply (rel_bind (Forall2 F)); [exact IH|]. intros us vs M. constructor. constructor; assumption.
Qed.
Lemma rel_mapM_eq {A C D} (F : C -> D -> Prop) f g (l : list A) : (forall x, orel F (f x) (g x)) -> orel (Forall2 F) (mapM f l) (mapM g l).
Proof. intros H. apply (rel_mapM eq); [intros x _ <-; apply H|]. induction l; constructor; auto. Qed.
Lemma rel_foldM {A S T} (E : S -> T -> Prop) f g (l : list A) : (forall x s t, E s t -> orel E (f s x) (g t x)) -> forall s t, E s t -> orel E (foldM f s l) (foldM g t l).
Proof. intros H. induction l as [|x l IH]; intros s t K; cbn [foldM]; [constructor; exact K|]. apply (rel_bind E); [apply H, K|]. intros u v L. apply IH, L. Qed.
Lemma rel_nth {A B} (E : A -> B -> Prop) l m n : Forall2 E l m -> match nth_error l n, nth_error m n with Some x, Some y => E x y | None, None => True | _, _ => False end.
Proof. intros H. revert n. induction H as [|x y l m K _ IH]; intros [|n]; cbn; auto. apply IH. Qed.
End Loops.

(** *** Trees *)
Section Trees.
Context {A B : Type} (E : A -> B -> Prop).
Lemma rel_tmap {C D} (F : C -> D -> Prop) f g : (forall x y, E x y -> F (f x) (g y)) -> forall t u, trel E t u -> trel F (tmap f t) (tmap g u).
Proof.
  intros H. induction t as [a|cs IH] using tree_ind'; intros u K; inversion K as [x y G|cs' ds G]; subst; cbn [tmap]; [constructor; apply H, G|]. constructor. clear K. induction G as [|c d cs ds G _ IG]; cbn [map]; [constructor|].
  inversion IH; subst. constructor; [auto|]. apply IG. assumption.
Qed.
Lemma rel_tmapM {C D} (F : C -> D -> Prop) f g : (forall x y, E x y -> orel F (f x) (g y)) -> forall t u, trel E t u -> orel (trel F) (tmapM f t) (tmapM g u).
Proof.
  intros H. induction t as [a|cs IH] using tree_ind'; intros u K; inversion K as [x y G|cs' ds G]; subst; cbn [tmapM].
  - apply (rel_bind F); [apply H, G|]. intros x z L. constructor. constructor. exact L.
  - clear K. eapply (rel_bind (Forall2 (trel F))); [|intros x y L; constructor; constructor; exact L].
    induction G as [|c d cs ds G _ IG]; [constructor; constructor|]. inversion IH as [|? ? I1 I2]; subst. apply (rel_bind (trel F)); [apply I1, G|]. intros x y L. apply (rel_bind (Forall2 (trel F))); [apply IG, I2|].
    intros xs ys M. constructor. constructor; assumption.
Qed.
Lemma rel_indexes_from : forall t u i, trel E t u -> indexes_from i t = indexes_from i u.
Proof.
  induction t as [a|cs IH] using tree_ind'; intros u i K; inversion K as [x y G|cs' ds G]; subst; cbn [indexes_from]; [reflexivity|]. f_equal. unfold mapi. generalize 0 as k. clear K.
  induction G as [|c d cs ds G _ IG]; intros k; [reflexivity|]. inversion IH as [|? ? I1 I2]; subst. cbn [mapi_from]. rewrite (I1 d _ G). f_equal. apply IG, I2.
Qed.
Lemma rel_indexes n t u : trel E t u -> indexes n t = indexes n u. Proof. intros H. apply rel_indexes_from, H. Qed.
Lemma rel_has_value t u : trel E t u -> has_value t = has_value u. Proof. intros []; reflexivity. Qed.
Lemma rel_child t u o : trel E t u -> orel (trel E) (child_at t o) (child_at u o).
Proof. intros [x y G|cs ds G]; cbn; [constructor|]. pose proof (rel_nth _ _ _ (to_integral o) G) as K. destruct (nth_error cs _), (nth_error ds _); try contradiction; constructor; exact K. Qed.
Lemma rel_node_level l : forall c t u, trel E t u -> orel (trel E) (node_at_level l c t) (node_at_level l c u).
Proof.
  induction l as [|l IH]; intros c t u H; cbn [node_at_level]; [destruct (any_coord c); constructor; exact H|]. rewrite (rel_has_value t u H). destruct (has_value u); [constructor|].
  apply rel_bind_eq. intros o. apply (rel_bind (trel E)); [apply rel_child, H|]. intros x y K. apply rel_bind_eq. intros i. apply IH, K.
Qed.
Lemma rel_node t u i : trel E t u -> orel (trel E) (node_at t i) (node_at u i). Proof. apply rel_node_level. Qed.
Lemma rel_at t u i : trel E t u -> orel E (at_ t i) (at_ u i).
Proof. intros H. unfold at_. apply (rel_bind (trel E)); [apply rel_node, H|]. intros x y [a b K|cs ds K]; constructor. exact K. Qed.
Lemma rel_contains_level l : forall c t u, trel E t u -> contains_compiled_level l c t = contains_compiled_level l c u.
Proof.
  induction l as [|l IH]; intros c t u H; cbn [contains_compiled_level]; rewrite (rel_has_value t u H); (destruct (has_value u); [reflexivity|]); [reflexivity|].
  apply orel_eq_inv. apply rel_bind_eq. intros o. apply (rel_bind (trel E)); [apply rel_child, H|]. intros x y K. apply rel_bind_eq. intros i. rewrite (IH _ x y K). apply orel_eq.
Qed.
Lemma rel_contains t u i : trel E t u -> contains_compiled t i = contains_compiled u i. Proof. apply rel_contains_level. Qed.
Lemma rel_leaves : forall t u, trel E t u -> Forall2 E (leaves t) (leaves u).
Proof.
  induction t as [a|cs IH] using tree_ind'; intros u K; inversion K as [x y G|cs' ds G]; subst; cbn [leaves]; [constructor; [exact G|constructor]|]. clear K.
  induction G as [|c d cs ds G _ IG]; cbn [flat_map]; [constructor|]. inversion IH as [|? ? I1 I2]; subst. apply Forall2_app; [apply I1, G|apply IG, I2].
Qed.
End Trees.
Lemma rel_pair_trees {A B C D} (E : A -> B -> Prop) (F : C -> D -> Prop) : forall t u v w, trel E t u -> trel F v w -> orel (trel (prel E F)) (pair_trees t v) (pair_trees u w).
Proof.
  unfold pair_trees. induction t as [a|cs IH] using tree_ind'; intros u v w K L; inversion K as [x y G|cs' ds G]; subst; cbn [TreeModel.binary_op].
  - destruct L as [x' y' L|]; cbn; [|constructor]. constructor. constructor. split; assumption.
  - destruct L as [x' y' L|es fs L]; [constructor|]. clear K. eapply (rel_bind (Forall2 (trel (prel E F)))); [|intros x y M; constructor; constructor; exact M].
    revert es fs L. induction G as [|c d cs ds G _ IG]; intros es fs L; [destruct L; constructor; constructor|]. inversion IH as [|? ? I1 I2]; subst. destruct L as [|e f es fs L0 L]; [constructor|].
    apply (rel_bind (trel (prel E F))); [apply I1; assumption|]. intros x y M. apply (rel_bind (Forall2 (trel (prel E F)))); [apply (IG I2); exact L|]. intros xs ys N. constructor. constructor; assumption.
Qed.
Lemma rel_pair_indexes {A B} (E : A -> B -> Prop) n t u : trel E t u -> orel (trel (prel eq E)) (pair_indexes n t) (pair_indexes n u).
Proof. intros H. unfold pair_indexes. rewrite (rel_indexes E n t u H). apply rel_pair_trees; [apply trel_refl; reflexivity|exact H]. Qed.
Lemma rel_tmapM_eq {A C D} (F : C -> D -> Prop) f g (t : tree A) : (forall x, orel F (f x) (g x)) -> orel (trel F) (tmapM f t) (tmapM g t).
Proof. intros H. apply (rel_tmapM eq); [intros x _ <-; apply H|]. apply trel_refl. reflexivity. Qed.

(** *** Blocks and their neighbours *)
Section Blocks.
Context {A B : Type} (E : A -> B -> Prop) (add : A -> A -> A) (add' : B -> B -> B) (half : A -> A) (half' : B -> B).
Hypothesis Hadd : forall x y u v, E x y -> E u v -> E (add x u) (add' y v).
Hypothesis Hhalf : forall x y, E x y -> E (half x) (half' y).
Notation arr := (arel E).
Lemma rel_restrict_cells ax a b : arr a b -> orel arr (restrict_cells add half ax a) (restrict_cells add' half' ax b).
Proof.
  intros H. unfold restrict_cells. apply (rel_bind arr); [apply rel_select_axis, H|]. intros x y K. apply (rel_bind arr); [apply rel_select_axis, H|]. intros u v L. apply (rel_bind arr); [apply (rel_op E E E); assumption|]. intros p q M. constructor. apply (rel_map E E); assumption.
Qed.
Lemma rel_restrict_extrinsic ax a b : arr a b -> orel arr (restrict_extrinsic add ax a) (restrict_extrinsic add' ax b).
Proof. intros H. unfold restrict_extrinsic. apply (rel_bind arr); [apply rel_select_axis, H|]. intros x y K. apply (rel_bind arr); [apply rel_select_axis, H|]. intros u v L. apply (rel_op E E E); assumption. Qed.
Lemma rel_coarsen axes a b : arr a b -> orel arr (coarsen_cells add half axes a) (coarsen_cells add' half' axes b).
Proof. intros H. unfold coarsen_cells. apply (rel_foldM arr); [|exact H]. intros x s t K. apply rel_restrict_cells, K. Qed.
Lemma rel_prolong_cells ax a b : arr a b -> arr (prolong_cells ax a) (prolong_cells ax b).
Proof. intros [S G]. unfold prolong_cells. split; [cbn; rewrite S; reflexivity|]. intros i. cbn. rewrite S. destruct (shape_contains _ _); [apply G|constructor]. Qed.
Lemma rel_prolong_all axes : forall a b, arr a b -> arr (prolong_all prolong_cells axes a) (prolong_all prolong_cells axes b).
Proof. unfold prolong_all. induction axes as [|x axes IH]; intros a b H; cbn [fold_left]; [exact H|]. apply IH, rel_prolong_cells, H. Qed.
Lemma rel_bisect ax a b : arr a b -> orel (prel arr arr) (bisect_cells ax a) (bisect_cells ax b).
Proof.
  intros H. unfold bisect_cells. rewrite (proj1 H). destruct (negb _); [constructor|]. apply (rel_bind arr); [apply rel_select_axis, H|]. intros x y K. apply (rel_bind arr); [apply rel_select_axis, H|]. intros u v L. constructor. split; assumption.
Qed.
Lemma rel_bisect_all axes : forall bs a b, arr a b -> orel arr (bisect_all bisect_cells axes bs a) (bisect_all bisect_cells axes bs b).
Proof.
  induction axes as [|x axes IH]; intros [|s bs] a b H; cbn [bisect_all]; try (constructor; exact H). unfold bisect_side. eapply (rel_bind arr); [|intros u v L; apply IH, L]. apply (rel_bind (prel arr arr)); [apply rel_bisect, H|].
  intros u v [L M]. constructor. destruct s; assumption.
Qed.
Lemma rel_refine axes a b : arr a b -> orel (Forall2 arr) (refine_cells axes a) (refine_cells axes b).
Proof. intros H. unfold refine_cells. apply rel_mapM_eq. intros bs. apply rel_bisect_all, rel_prolong_all, H. Qed.
Lemma rel_pairwise ax : forall n l m, length l <= n -> Forall2 arr l m -> orel (Forall2 arr) (pairwise (join_cells ax) l) (pairwise (join_cells ax) m).
Proof.
  induction n as [|n IH]; intros l m Hn K; [destruct K; [constructor; constructor|cbn in Hn; lia]|]. destruct K as [|x y l m K K1]; [constructor; constructor|]. destruct K1 as [|u v l m K1 K2]; cbn [pairwise]; [constructor; constructor|].
  apply (rel_bind arr); [apply rel_concat; assumption|]. intros p q L. apply (rel_bind (Forall2 arr)); [apply IH; [cbn in Hn; lia|exact K2]|]. intros ps qs M. constructor. constructor; assumption.
Qed.
Lemma rel_combine axes : forall l m, Forall2 arr l m -> orel arr (combine_cells axes l) (combine_cells axes m).
Proof.
  unfold combine_cells. induction axes as [|x axes IH]; intros l m K; cbn [combine_pieces].
  - destruct K as [|a b l m K K1]; [constructor|]. destruct K1; constructor. exact K.
  - apply (rel_bind (Forall2 arr)); [apply (rel_pairwise x (length l)); [lia|exact K]|]. intros u v L. apply IH, L.
Qed.
Lemma rel_rethrow {C D} (F : C -> D -> Prop) m n : orel F m n -> orel F (rethrow m) (rethrow n). Proof. intros []; constructor; assumption. Qed.
Lemma rel_get_block n : forall t u i post post', trel arr t u -> (forall a b, arr a b -> orel arr (post a) (post' b)) ->
  orel arr (get_cell_block contains_compiled add half 2 n t i post) (get_cell_block contains_compiled add' half' 2 n u i post').
Proof.
  unfold get_cell_block. induction n as [|n IH]; intros t u i post post' H HP; cbn [get_block]; [constructor|]. apply rel_rethrow. rewrite (rel_contains arr t u i H). apply rel_bind_eq. intros [|].
  - apply (rel_bind arr); [apply rel_at, H|]. exact HP.
  - destruct (parent_index i) as [p|]; [|constructor]. rewrite (rel_contains arr t u p H). apply rel_bind_eq. intros [|].
    + apply rel_bind_eq. intros o. apply (rel_bind arr); [apply rel_at, H|]. intros x y K. apply (rel_bind (Forall2 arr)); [apply rel_refine, K|]. intros cs ds L.
      apply (rel_bind arr); [|exact HP]. pose proof (rel_nth _ _ _ (to_integral o) L) as M. destruct (nth_error cs _), (nth_error ds _); try contradiction; constructor; exact M.
    + apply (rel_bind (Forall2 arr)); [apply rel_mapM_eq; intros j; apply IH; [exact H|intros a b K; constructor; exact K]|]. intros cs ds L. apply (rel_bind arr); [apply rel_combine, L|]. intros x y K. apply (rel_bind arr); [apply rel_coarsen, K|]. exact HP.
Qed.
Lemma rel_extended n t u ax : trel arr t u -> orel (trel arr) (extended add half n t ax) (extended add' half' n u ax).
Proof.
  intros H. unfold extended, extend. rewrite (rel_indexes arr 2 t u H). apply rel_tmapM_eq. intros i. unfold extend_block. apply (rel_bind arr); [apply rel_at, H|]. intros c c' K. apply rel_bind_eq. intros il.
  apply (rel_bind arr); [apply rel_get_block; [exact H|intros; apply rel_select_final; assumption]|]. intros l l' L. apply rel_bind_eq. intros ir.
  apply (rel_bind arr); [apply rel_get_block; [exact H|intros; apply rel_select_first; assumption]|]. intros r r' M. apply (rel_bind arr); [apply rel_concat; assumption|]. intros x y N. apply rel_concat; assumption.
Qed.
End Blocks.

(** *** Fluxes, their correction and the new contents of a block, one number per cell *)
Section Step.
Context {P P' : Type} (E : P -> P' -> Prop) (N : R -> R -> Prop).
Variables (add : P -> P -> P) (add' : P' -> P' -> P') (half : P -> P) (half' : P' -> P').
Variables (grad : nat -> P -> P -> P -> P) (grad' : nat -> P' -> P' -> P' -> P').
Variables (flux : nat -> nat -> R * R -> P * P -> P * P -> P * P -> R) (flux' : nat -> nat -> R * R -> P' * P' -> P' * P' -> P' * P' -> R).
Hypothesis Hadd : forall x y u v, E x y -> E u v -> E (add x u) (add' y v).
Hypothesis Hhalf : forall x y, E x y -> E (half x) (half' y).
Hypothesis Hgrad : forall l x y u v s t, E x y -> E u v -> E s t -> E (grad l x u s) (grad' l y v t).
Hypothesis Hflux : forall ax l x p p' g g' h h', prel E E p p' -> prel E E g g' -> prel E E h h' -> N (flux ax l x p g h) (flux' ax l x p' g' h').
Hypothesis Nadd : forall x y u v, N x y -> N u v -> N (x + u)%R (y + v)%R.
Hypothesis Nsub : forall x y u v, N x y -> N u v -> N (x - u)%R (y - v)%R.
Hypothesis Nmul : forall x y k, N x y -> N (x * k)%R (y * k)%R.
Lemma rel_gradients ax t u : trel (arel E) t u -> orel (trel (arel E)) (gradients grad ax t) (gradients grad' ax u).
Proof.
  intros H. unfold gradients. apply (rel_bind (trel (prel eq (arel E)))); [apply rel_pair_indexes, H|]. intros x y K. apply (rel_tmapM (prel eq (arel E))); [|exact K]. intros [i a] [j b] [I1 I2]. cbn in I1, I2. subst j. unfold estimate_gradient. cbn [fst snd].
  apply (rel_bind (arel (prel E (prel E E)))).
  - unfold zip_adjacent3_on_axis. apply (rel_bind (arel E)); [apply rel_select_axis, I2|]. intros l l' L. apply (rel_bind (arel E)); [apply rel_select_axis, I2|]. intros c c' C. apply (rel_bind (arel E)); [apply rel_select_axis, I2|]. intros r r' R0.
    apply (rel_bind (arel (prel E E))); [apply rel_zip; assumption|]. intros z z' Z0. apply rel_zip; assumption.
  - intros p q M. constructor. apply (rel_map _ _ _ _ _ _ (fun w w' HW => Hgrad (level i) _ _ _ _ _ _ (proj1 HW) (proj1 (proj2 HW)) (proj2 (proj2 HW))) M).
Qed.
Lemma rel_block_flux ax xv p p' g g' h h' l : arel E p p' -> arel E g g' -> arel E h h' -> orel (arel N) (block_flux flux ax xv p g h l) (block_flux flux' ax xv p' g' h' l).
Proof.
  intros H G K. unfold block_flux. apply rel_bind_eq. intros len. apply rel_bind_eq. intros xf. apply (rel_bind (arel (prel E E))); [apply rel_adjacent2, H|]. intros pp pp' A1. apply (rel_bind (arel (prel E E))); [apply rel_adjacent2, G|]. intros gl gl' A2.
  apply (rel_bind (arel (prel E E))); [apply rel_adjacent2, K|]. intros gt gt' A3. apply (rel_bind (arel N)); [|intros f f' A4; apply (rel_op N eq N); [intros x y u _ L <-; apply Nmul, L|exact A4|apply arel_eq]].
  unfold zip_apply4. apply (rel_bind (arel (prel (prel E E) (prel E E)))); [apply rel_zip; assumption|]. intros cd cd' B1. apply (rel_bind (arel (prel (prel E E) (prel (prel E E) (prel E E))))); [apply rel_zip; assumption|]. intros bcd bcd' B2.
  apply (rel_bind (arel (prel eq (prel (prel E E) (prel (prel E E) (prel E E)))))); [apply rel_zip; [apply arel_eq|exact B2]|]. intros z z' B3. constructor. eapply rel_map; [|exact B3]. intros w w' (W1 & W2 & W3 & W4). cbv beta. rewrite W1. apply Hflux; assumption.
Qed.
Lemma rel_face_fluxes n v p p' : trel (arel E) p p' -> orel (prel (trel (arel N)) (trel (arel N))) (face_fluxes add half grad flux n v p) (face_fluxes add' half' grad' flux' n v p').
Proof.
  intros H. set (T := trel (arel E)). assert (X : forall t u ax, T t u -> orel T (extended add half n t ax) (extended add' half' n u ax)) by (intros; apply (rel_extended E); assumption).
  unfold face_fluxes. apply (rel_bind T); [apply X, H|]. intros a1 b1 H1. apply (rel_bind T); [apply X, H|]. intros a2 b2 H2. apply (rel_bind T); [apply rel_gradients, H1|]. intros a3 b3 H3. apply (rel_bind T); [apply rel_gradients, H2|]. intros a4 b4 H4.
  apply (rel_bind T); [apply X, H3|]. intros a5 b5 H5. apply (rel_bind T); [apply X, H3|]. intros a6 b6 H6. apply (rel_bind T); [apply X, H4|]. intros a7 b7 H7. apply (rel_bind T); [apply X, H4|]. intros a8 b8 H8.
  rewrite (rel_indexes (arel E) 2 p p' H).
  assert (F : forall ax q q' g g' h h' i, T q q' -> T g g' -> T h h' -> orel (arel N) (tree_flux flux ax v q g h i) (tree_flux flux' ax v q' g' h' i)).
  { intros ax q q' g g' h h' i Q G K. unfold tree_flux. apply rel_bind_eq. intros xv. apply (rel_bind (arel E)); [apply rel_at, Q|]. intros x1 y1 L1. apply (rel_bind (arel E)); [apply rel_at, G|]. intros x2 y2 L2. apply (rel_bind (arel E)); [apply rel_at, K|]. intros x3 y3 L3. apply rel_block_flux; assumption. }
  apply (rel_bind (trel (arel N))); [apply rel_tmapM_eq; intros i; apply F; assumption|]. intros fx fx' HX. apply (rel_bind (trel (arel N))); [apply rel_tmapM_eq; intros i; apply F; assumption|]. intros fy fy' HY. constructor. split; assumption.
Qed.
Notation num := (arel N).
Lemma rel_difference ax a b : num a b -> orel num (difference_on_axis Rminus ax a) (difference_on_axis Rminus ax b).
Proof. intros H. unfold difference_on_axis. apply (rel_bind num); [apply rel_select_axis, H|]. intros x y K. apply (rel_bind num); [apply rel_select_axis, H|]. intros u v L. apply (rel_op N N N); assumption. Qed.
Lemma rel_leave t u j : trel num t u -> leave_alone (@contains_compiled) t j = leave_alone (@contains_compiled) u j.
Proof. intros H. unfold leave_alone. rewrite (rel_contains num t u j H). destruct (parent_index j) as [p|]; [rewrite (rel_contains num t u p H)|]; reflexivity. Qed.
Ltac corrected := intros H K; unfold correct_fluxes_xl, correct_fluxes_xr, correct_fluxes_yl, correct_fluxes_yr; apply rel_bind_eq; intros j; rewrite (rel_leave _ _ j H); apply rel_bind_eq; intros [|]; [constructor; exact K|];
  apply (rel_bind (trel num)); [apply rel_node, H|]; intros ? ? H1; apply (rel_bind num); [apply rel_at, H1|]; intros ? ? H2; apply (rel_bind num); [apply rel_at, H1|]; intros ? ? H3; apply (rel_bind num); [apply rel_concat; assumption|]; intros ? ? H4;
  apply (rel_bind num); [apply rel_restrict_extrinsic; assumption|]; intros ? ? H5; apply (rel_bind num); [first [apply rel_select_final, H5|apply rel_select_first, H5]|]; intros ? ? H6; apply (rel_bind num); [apply rel_select_axis, K|]; intros ? ? H7; apply rel_concat; assumption.
Lemma rel_xl t u i a b : trel num t u -> num a b -> orel num (correct_fluxes_xl (@contains_compiled) t i a) (correct_fluxes_xl (@contains_compiled) u i b). Proof. corrected. Qed.
Lemma rel_xr t u i a b : trel num t u -> num a b -> orel num (correct_fluxes_xr (@contains_compiled) t i a) (correct_fluxes_xr (@contains_compiled) u i b). Proof. corrected. Qed.
Lemma rel_yl t u i a b : trel num t u -> num a b -> orel num (correct_fluxes_yl (@contains_compiled) t i a) (correct_fluxes_yl (@contains_compiled) u i b). Proof. corrected. Qed.
Lemma rel_yr t u i a b : trel num t u -> num a b -> orel num (correct_fluxes_yr (@contains_compiled) t i a) (correct_fluxes_yr (@contains_compiled) u i b). Proof. corrected. Qed.
Lemma rel_blocks dA u0 u0' s s' fx fx' fy fy' dt : trel num u0 u0' -> trel num s s' -> trel num fx fx' -> trel num fy fy' -> orel (trel num) (advance_blocks (@contains_compiled) dA u0 s fx fy dt) (advance_blocks (@contains_compiled) dA u0' s' fx' fy' dt).
Proof.
  intros HU HS HX HY. unfold advance_blocks. rewrite (rel_indexes _ 2 _ _ HX), (rel_indexes _ 2 _ _ HY), (rel_indexes _ 2 _ _ HU).
  apply (rel_bind (trel num)). { apply rel_tmapM_eq. intros i. unfold correct_fluxes_x. apply (rel_bind num); [apply rel_at, HX|]. intros a b H. apply (rel_bind num); [apply rel_xl; assumption|]. intros c d K. apply rel_xr; assumption. }
  intros fxc fxc' CX. apply (rel_bind (trel num)). { apply rel_tmapM_eq. intros i. unfold correct_fluxes_y. apply (rel_bind num); [apply rel_at, HY|]. intros a b H. apply (rel_bind num); [apply rel_yl; assumption|]. intros c d K. apply rel_yr; assumption. }
  intros fyc fyc' CY. apply rel_tmapM_eq. intros i. unfold block_update. apply rel_bind_eq. intros a. apply (rel_bind num); [apply rel_at, HU|]. intros u u' U0. apply (rel_bind num); [apply rel_at, CX|]. intros x x' X0. apply (rel_bind num); [apply rel_at, CY|]. intros y y' Y0.
  apply (rel_bind num); [apply rel_difference, X0|]. intros lx lx' LX. apply (rel_bind num); [apply rel_difference, Y0|]. intros ly ly' LY. apply (rel_bind num); [apply rel_at, HS|]. intros w w' W0. apply (rel_bind num); [apply (rel_op N N N); assumption|]. intros l l' L0.
  apply (rel_bind num); [apply (rel_op N eq N); [intros p q r _ M <-; apply Nmul, M| |apply arel_eq]|].
  { apply (rel_map N N); [intros p q M; apply Nmul, M|exact L0]. }
  intros q q' Q0. apply (rel_bind num); [apply (rel_op N N N); assumption|]. intros v v' V0. apply (rel_op N N N); assumption.
Qed.
(** The step of StepModel takes related states to related contents. *)
Lemma rel_advance n v p p' dA u0 u0' s s' dt : trel (arel E) p p' -> trel num u0 u0' -> trel num s s' ->
  orel (trel num) (StepModel.advance add half grad flux n v p dA u0 s dt) (StepModel.advance add' half' grad' flux' n v p' dA u0' s' dt).
Proof. intros H HU HS. unfold StepModel.advance. apply (rel_bind (prel (trel num) (trel num))); [apply rel_face_fluxes, H|]. intros [fx fy] [fx' fy'] [HX HY]. apply rel_blocks; assumption. Qed.
End Step.
