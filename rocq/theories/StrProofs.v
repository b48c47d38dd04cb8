(** Lemmas on strings, decimal printing and parsing. *)
From Coq Require Import List Arith Bool Ascii ZArith Lia.
From Verif Require Import Base StrModel.
Import ListNotations.
Close Scope Z_scope.
Open Scope nat_scope.

Lemma str_eqb_spec s : forall r, str_eqb s r = true <-> s = r.
Proof.
  induction s as [|a s IH]; intros [|b r]; simpl; split; intros H; try discriminate; auto.
  - apply andb_true_iff in H. destruct H as [H1 H2]. apply Ascii.eqb_eq in H1. apply IH in H2. congruence.
  - injection H as -> ->. apply andb_true_iff. split; [apply Ascii.eqb_refl|apply IH; auto].
Qed.

Definition all_digits (s : str) : Prop := Forall (fun a => is_digit a = true) s.

Lemma digit_char_nat d : d < 10 -> nat_of_ascii (digit_char d) = 48 + d.
Proof. intros H. unfold digit_char. apply nat_ascii_embedding. lia. Qed.

Lemma digit_char_ok d : d < 10 -> is_digit (digit_char d) = true /\ digit_val (digit_char d) = d.
Proof.
  intros H. unfold is_digit, digit_val. rewrite digit_char_nat by auto. split; [|lia].
  apply andb_true_iff. split; apply Nat.leb_le; lia.
Qed.

Lemma digits_val_snoc s a : digits_val (s ++ [a]) = 10 * digits_val s + digit_val a.
Proof. unfold digits_val. rewrite fold_left_app. reflexivity. Qed.

Lemma dec_fuel_ok f : forall n, n < f -> all_digits (dec_fuel f n) /\ digits_val (dec_fuel f n) = n /\ dec_fuel f n <> [].
Proof.
  induction f as [|f IH]; intros n Hn; [lia|]. cbn [dec_fuel].
  destruct (Nat.ltb_spec n 10) as [H|H].
  - destruct (digit_char_ok n H) as [E1 E2]. split; [constructor; auto|]. split; [|discriminate].
    unfold digits_val. cbn [fold_left]. rewrite E2. lia.
  - assert (n / 10 < f) by (apply Nat.div_lt_upper_bound; lia).
    destruct (IH (n / 10) H0) as (E1 & E2 & E3).
    assert (Hm : n mod 10 < 10) by (apply Nat.mod_upper_bound; lia).
    destruct (digit_char_ok _ Hm) as [F1 F2]. split; [|split].
    + apply Forall_app. split; auto.
    + rewrite digits_val_snoc, E2, F2. symmetry. apply Nat.div_mod. lia.
    + destruct (dec_fuel f (n / 10)); discriminate.
Qed.

Lemma dec_ok n : all_digits (dec n) /\ digits_val (dec n) = n /\ dec n <> [].
Proof. apply dec_fuel_ok. lia. Qed.

Lemma dec_padded_ok w n : all_digits (dec_padded w n) /\ digits_val (dec_padded w n) = n /\ dec_padded w n <> [].
Proof.
  destruct (dec_ok n) as (E1 & E2 & E3). unfold dec_padded. split; [|split].
  - apply Forall_app. split; auto. apply Forall_forall. intros a Ha. apply repeat_spec in Ha. subst. reflexivity.
  - unfold digits_val. rewrite fold_left_app.
    assert (H : forall k, fold_left (fun n a => 10 * n + digit_val a) (repeat (digit_char 0) k) 0 = 0).
    { induction k; auto. }
    rewrite H. exact E2.
  - destruct (repeat _ _); [exact E3|discriminate].
Qed.

Lemma digit_not a c : is_digit a = true -> is_digit c = false -> Ascii.eqb a c = false.
Proof. intros H1 H2. destruct (Ascii.eqb_spec a c); congruence. Qed.

Lemma find_char_app c s r : Forall (fun a => Ascii.eqb a c = false) s ->
  find_char c (s ++ c :: r) = Some (length s).
Proof.
  induction 1 as [|a s Ha HF IH]; simpl.
  - rewrite Ascii.eqb_refl. reflexivity.
  - rewrite Ha, IH. reflexivity.
Qed.

Lemma find_char_none c s : Forall (fun a => Ascii.eqb a c = false) s -> find_char c s = None.
Proof. induction 1 as [|a s Ha HF IH]; simpl; [reflexivity|]. rewrite Ha, IH. reflexivity. Qed.

Lemma digits_no c s : is_digit c = false -> all_digits s -> Forall (fun a => Ascii.eqb a c = false) s.
Proof. intros Hc. apply Forall_impl. intros a Ha. apply digit_not; auto. Qed.

Lemma prefix_app c s r : Forall (fun a => Ascii.eqb a c = false) s ->
  prefix_to (find_char c (s ++ c :: r)) (s ++ c :: r) = s.
Proof.
  intros H. rewrite find_char_app by auto. cbn [prefix_to].
  rewrite firstn_app, firstn_all, Nat.sub_diag. simpl. apply app_nil_r.
Qed.

Lemma erase_app c s r : Forall (fun a => Ascii.eqb a c = false) s ->
  erase_through (find_char c (s ++ c :: r)) (s ++ c :: r) = r.
Proof.
  intros H. rewrite find_char_app by auto. cbn [erase_through].
  clear H. induction s as [|a s IH]; [reflexivity|]. exact IH.
Qed.

Lemma prefix_none c s : Forall (fun a => Ascii.eqb a c = false) s ->
  prefix_to (find_char c s) s = s.
Proof. intros H. rewrite find_char_none by auto. reflexivity. Qed.

Lemma take_digits_all s : all_digits s -> take_digits s = s.
Proof. induction 1 as [|a s Ha HF IH]; simpl; [reflexivity|]. rewrite Ha, IH. reflexivity. Qed.

Lemma digit_not_space a : is_digit a = true -> is_space a = false.
Proof.
  unfold is_digit, is_space. rewrite andb_true_iff, !Nat.leb_le. intros [H1 H2].
  apply orb_false_iff. split; [apply Nat.eqb_neq; lia|].
  apply andb_false_iff. right. apply Nat.leb_gt. lia.
Qed.

Lemma stoi_digits s : all_digits s -> s <> [] -> (Z.of_nat (digits_val s) <= int_max)%Z ->
  stoi s = Ok (Z.of_nat (digits_val s)).
Proof.
  intros HD HN HB. destruct s as [|a s]; [congruence|]. inversion HD as [|? ? Ha HD']; subst.
  unfold stoi. cbn [drop_spaces]. rewrite digit_not_space by auto.
  rewrite (digit_not a "-"%char), (digit_not a "+"%char) by (auto; reflexivity).
  rewrite take_digits_all by auto.
  replace (in_int (Z.of_nat (digits_val (a :: s)))) with true; [reflexivity|].
  symmetry. apply in_int_spec. change int_max with 2147483647%Z in HB. lia.
Qed.

Lemma to_size_t_nat n : (Z.of_nat n < 2 ^ 64)%Z -> to_size_t (Z.of_nat n) = n.
Proof. intros H. unfold to_size_t. rewrite Z.mod_small by lia. apply Nat2Z.id. Qed.

Lemma count_char_app c s r : count_char c (s ++ r) = count_char c s + count_char c r.
Proof. unfold count_char. rewrite filter_app, app_length. reflexivity. Qed.

Lemma count_char_none c s : Forall (fun a => Ascii.eqb a c = false) s -> count_char c s = 0.
Proof.
  unfold count_char. induction 1 as [|a s Ha HF IH]; [reflexivity|]. cbn [filter]. rewrite Ha. exact IH.
Qed.
