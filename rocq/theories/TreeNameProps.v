(** Properties C10 and C09 (file form): text names of tree addresses (src/app_serialize_tree.hpp). *)
From Coq Require Import List Arith Bool Ascii String Permutation ZArith Lia.
From Verif Require Import Base TreeModel TreeSpec StrModel TreeNameModel TreeProofs TreeNameProofs.
Import ListNotations.
Close Scope Z_scope.
Open Scope nat_scope.

(** C10. Parsing the printed name gives the address back. *)
Theorem tree_name_roundtrip : forall D i, 0 < D -> in_range D i -> level i <= 30 ->
  exists s, format_tree_index i = Ok s /\ read_tree_index D s = Ok i.
Proof. exact name_roundtrip. Qed.

(** C10. Hence two different addresses never share a name. *)
Theorem tree_name_injective : forall D i j s, 0 < D -> in_range D i -> in_range D j ->
  level i <= 30 -> level j <= 30 ->
  format_tree_index i = Ok s -> format_tree_index j = Ok s -> i = j.
Proof.
  intros D i j s HD Hi Hj Hli Hlj E1 E2. apply (names_distinct D); auto.
  unfold name_of. rewrite E1, E2. reflexivity.
Qed.

(** C10. A name of another rank is rejected. *)
Theorem tree_name_wrong_rank_rejected : forall D D' i s, 0 < D -> 0 < D' -> D <> D' ->
  in_range D i -> level i <= 30 ->
  format_tree_index i = Ok s -> read_tree_index D' s = Throw InvalidArgument.
Proof. exact name_wrong_rank. Qed.

(** C10. The fields are as wide as the largest coordinate of the level needs, so all names of one
    level have one length. *)
Lemma dec_length f : forall g n, n < f -> n <= g -> List.length (dec_fuel f n) = S (log10_fuel g n).
Proof.
  induction f as [|f IH]; intros g n Hf Hg; [lia|]. cbn [dec_fuel]. destruct g as [|g].
  - assert (n = 0) by lia. subst n. reflexivity.
  - cbn [log10_fuel]. destruct (Nat.ltb_spec n 10); [reflexivity|]. rewrite app_length. cbn [List.length].
    assert (n / 10 < n) by (apply Nat.div_lt; lia). rewrite (IH g) by lia. lia.
Qed.
Lemma log10_mono f : forall g x y, x <= y -> x <= f -> y <= g -> log10_fuel f x <= log10_fuel g y.
Proof.
  induction f as [|f IH]; intros g x y H Hf Hg; cbn [log10_fuel]; [lia|]. destruct (Nat.ltb_spec x 10); [lia|].
  destruct g as [|g]; [lia|]. cbn [log10_fuel]. destruct (Nat.ltb_spec y 10); [lia|]. apply le_n_S.
  assert (x / 10 < x) by (apply Nat.div_lt; lia). assert (y / 10 < y) by (apply Nat.div_lt; lia).
  apply IH; try lia. apply Nat.div_le_mono; lia.
Qed.
Lemma padded_length w n : List.length (dec n) <= w -> List.length (dec_padded w n) = w.
Proof. intros H. unfold dec_padded. rewrite app_length, repeat_length. lia. Qed.
Lemma format_coords_length w : forall c sep, Forall (fun x => List.length (dec x) <= w) c -> List.length (format_coords w sep c) = List.length c * S w.
Proof.
  induction c as [|x c IH]; intros sep H; [reflexivity|]. inversion H as [|y l H1 H2]. subst. cbn [format_coords List.length].
  rewrite app_length, padded_length, IH by assumption. lia.
Qed.
Theorem tree_name_fixed_width : forall D i s, 0 < D -> in_range D i -> level i <= 30 ->
  format_tree_index i = Ok s -> List.length s = List.length (dec (level i)) + D * (1 + List.length (dec (2 ^ level i))).
Proof.
  intros D i s HD [HL HF] Hl HS. unfold format_tree_index in HS. destruct (coords i) as [|x c] eqn:EC; [cbn in HL; lia|].
  rewrite shl1_ok in HS by lia. cbn [bind] in HS. rewrite <- EC in HL, HF, HS. assert (HS' : dec (level i) ++ format_coords (1 + log10 (2 ^ level i)) ":"%char (coords i) = s) by congruence.
  assert (W : List.length (dec (2 ^ level i)) = 1 + log10 (2 ^ level i)) by (apply dec_length; lia).
  rewrite <- HS', app_length, format_coords_length, HL, W; [reflexivity|].
  eapply Forall_impl; [|exact HF]. intros y Hy. cbv beta in Hy. unfold dec. rewrite (dec_length (S y) y) by lia. apply le_n_S. unfold log10. apply log10_mono; lia.
Qed.

(** C10, limit: from level 31 on the field width shifts out of the range of int. *)
Theorem tree_name_level_limit : forall i, coords i <> [] -> 31 <= level i -> format_tree_index i = UB.
Proof.
  intros i Hc Hl. unfold format_tree_index. destruct (coords i); [congruence|].
  unfold shl1. apply Nat.ltb_ge in Hl. rewrite Hl. reflexivity.
Qed.

(** C09. A quadtree written to a file and read back is the same tree, whatever order the file lists
    its entries in; and its entries have different names. *)
Theorem tree_file_roundtrip : forall A (dflt : A) (t : tree A), wf_tree 2 t -> depth t <= 30 ->
  exists g, write_tree 2 t = Ok g /\ NoDup (map fst g) /\
    forall g', Permutation g' g -> read_tree dflt g' (Leaf dflt) = Ok t.
Proof. exact @write_read_tree. Qed.

Example tree_name_example :
  format_tree_index (mkidx 4 [3; 12]) = Ok (list_ascii_of_string "4:03-12") /\
  read_tree_index 2 (list_ascii_of_string "4:03-12") = Ok (mkidx 4 [3; 12]) /\
  in_range 2 (mkidx 4 [3; 12]).
Proof. repeat split; repeat constructor. Qed.

Print Assumptions tree_name_roundtrip.
Print Assumptions tree_name_injective.
Print Assumptions tree_name_wrong_rank_rejected.
Print Assumptions tree_name_level_limit.
Print Assumptions tree_file_roundtrip.
Print Assumptions tree_name_fixed_width.
