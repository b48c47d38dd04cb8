(** Paths and numbered file names. *)
From Coq Require Import List Arith Ascii Bool ZArith Lia.
From Verif Require Import Base StrModel StrProofs MapModel ConfigProofs FsModel.
Import ListNotations.
Close Scope Z_scope.
Open Scope nat_scope.

Notation slash := "/"%char.
Notation dot := "."%char.

Lemma split_loop_ok f : forall s acc, length s < f ->
  exists l, split_loop f s acc = Ok (acc ++ l) /\ l <> [] /\ Forall (fun p => ~ In slash p) l /\
    skipn 1 (fold_left (fun res part => res ++ slash :: part) l []) = s.
Proof.
  assert (FL : forall l (a : str), fold_left (fun res part => res ++ slash :: part) l a =
    a ++ fold_left (fun res part => res ++ slash :: part) l []).
  { induction l as [|p l IH]; intros a; cbn [fold_left]; [symmetry; apply app_nil_r|].
    rewrite IH, (IH ([] ++ _)). rewrite <- app_assoc. reflexivity. }
  induction f as [|f IH]; intros s acc Hl; [lia|]. cbn [split_loop].
  destruct (find_char slash s) as [i|] eqn:E.
  - apply find_char_spec in E. destruct E as [E1 E2].
    assert (Hlen : length (skipn (S i) s) < f).
    { rewrite E1 in Hl. rewrite app_length in Hl. cbn [length] in Hl. lia. }
    destruct (IH (skipn (S i) s) (acc ++ [firstn i s]) Hlen) as (l & H1 & H2 & H3 & H4).
    exists (firstn i s :: l). rewrite H1, <- app_assoc. split; auto. split; [discriminate|]. split; auto.
    cbn [fold_left app]. rewrite FL. cbn [app skipn].
    destruct l as [|p l]; [congruence|]. cbn [fold_left app] in H4 |- *. rewrite FL in H4 |- *. cbn [app skipn] in H4 |- *.
    rewrite H4. symmetry. exact E1.
  - apply find_char_none in E. exists [s]. split; auto. split; [discriminate|]. split; auto.
Qed.

Lemma split_ok s : exists l, split s = Ok l /\ l <> [] /\ Forall (fun p => ~ In slash p) l /\ join l = s.
Proof.
  destruct (split_loop_ok (S (length s)) s []) as (l & H1 & H2 & H3 & H4); [lia|].
  exists l. split; auto. split; auto. split; auto. unfold join.
  cbv zeta. revert H4. match goal with |- _ -> match ?x with _ => _ end = _ => destruct x end; auto.
Qed.

Fixpoint joined (l : list str) : str :=
  match l with [] => [] | [p] => p | p :: l' => p ++ slash :: joined l' end.

Lemma join_joined l : join l = joined l.
Proof.
  assert (FL : forall l (a : str), fold_left (fun res part => res ++ slash :: part) l a =
    a ++ match l with [] => [] | _ => slash :: joined l end).
  { induction l0 as [|p l0 IH]; intros a; cbn [fold_left]; [symmetry; apply app_nil_r|].
    rewrite IH. destruct l0; cbn [joined]; [rewrite app_nil_r; reflexivity|]. rewrite <- app_assoc. reflexivity. }
  unfold join. rewrite FL. destruct l; reflexivity.
Qed.

Lemma joined_inj l1 : forall l2, l1 <> [] -> l2 <> [] -> Forall (fun p => ~ In slash p) l1 -> Forall (fun p => ~ In slash p) l2 ->
  joined l1 = joined l2 -> l1 = l2.
Proof.
  induction l1 as [|p l1 IH]; intros [|q l2] N1 N2 F1 F2 H; try congruence.
  inversion F1 as [|? ? P1 F1']; inversion F2 as [|? ? P2 F2']; subst.
  destruct l1 as [|p' l1], l2 as [|q' l2].
  - cbn in H. congruence.
  - exfalso. apply P1. change (joined [p]) with p in H. rewrite H. cbn [joined]. apply in_app_iff. right. left. reflexivity.
  - exfalso. apply P2. change (joined [q]) with q in H. rewrite <- H. cbn [joined]. apply in_app_iff. right. left. reflexivity.
  - change (joined (p :: p' :: l1)) with (p ++ slash :: joined (p' :: l1)) in H.
    change (joined (q :: q' :: l2)) with (q ++ slash :: joined (q' :: l2)) in H.
    apply split_unique in H; auto. destruct H as [-> H]. f_equal. apply IH; auto; discriminate.
Qed.

Lemma split_join l : l <> [] -> Forall (fun p => ~ In slash p) l -> split (join l) = Ok l.
Proof.
  intros HN HF. destruct (split_ok (join l)) as (l' & H1 & H2 & H3 & H4). rewrite H1. f_equal.
  rewrite !join_joined in H4. apply joined_inj in H4; auto.
Qed.

(** ** rfind *)
Lemma rfind_none c s : ~ In c s -> rfind_char c s = None.
Proof.
  induction s as [|a s IH]; cbn; auto. intros H. rewrite IH by tauto.
  destruct (Ascii.eqb a c) eqn:E; auto. apply Ascii.eqb_eq in E. subst. tauto.
Qed.
Lemma rfind_app c s r : ~ In c r -> rfind_char c (s ++ c :: r) = Some (length s).
Proof.
  intros H. induction s as [|a s IH]; cbn.
  - rewrite rfind_none by auto. rewrite Ascii.eqb_refl. reflexivity.
  - rewrite IH. reflexivity.
Qed.

Lemma parent_spec d n : ~ In slash n -> parent (d ++ slash :: n) = d.
Proof.
  intros H. unfold parent. rewrite rfind_app by auto. cbn [prefix_to].
  rewrite firstn_app, Nat.sub_diag, firstn_all. cbn. apply app_nil_r.
Qed.
Lemma parent_noslash n : ~ In slash n -> parent n = n.
Proof. intros H. unfold parent. rewrite rfind_none by auto. reflexivity. Qed.

Lemma extension_spec b e : ~ In dot e -> extension (b ++ dot :: e) = dot :: e.
Proof.
  intros H. unfold extension. rewrite rfind_app by auto. rewrite skipn_app, skipn_all, Nat.sub_diag. reflexivity.
Qed.
Lemma extension_none s : ~ In dot s -> extension s = [].
Proof. intros H. unfold extension. rewrite rfind_none by auto. reflexivity. Qed.

(** ** require_dir *)
Lemma require_calls l : forall p, require_dir_calls p l = map (fun i => p ++ slash :: joined (firstn (S i) l)) (seq 0 (length l)).
Proof.
  induction l as [|d l IH]; intros p; cbn [require_dir_calls length seq map]; auto. f_equal.
  rewrite IH, <- seq_shift, map_map. apply map_ext_in. intros i Hi. apply in_seq in Hi.
  cbn [firstn]. destruct l as [|d' l]; [cbn in Hi; lia|]. cbn [firstn joined]. rewrite <- app_assoc. reflexivity.
Qed.

(** ** Numbered files *)
Lemma digits_val_bound s : all_digits s -> digits_val s < 10 ^ length s.
Proof.
  induction s as [|a s IH] using rev_ind; intros H; [cbn; lia|]. apply Forall_app in H. destruct H as [H1 H2].
  rewrite digits_val_snoc, app_length. cbn [length]. rewrite (Nat.add_1_r (length s)). cbn [Nat.pow]. specialize (IH H1).
  inversion H2 as [|? ? Ha _]; subst. unfold is_digit in Ha. apply andb_true_iff in Ha. destruct Ha as [Ha Hb].
  apply Nat.leb_le in Ha, Hb. unfold digit_val. lia.
Qed.

Lemma digits_val_cons a s : digits_val (a :: s) = digit_val a * 10 ^ length s + digits_val s.
Proof.
  induction s as [|b s IH] using rev_ind; [cbn; lia|].
  change (a :: s ++ [b]) with ((a :: s) ++ [b]). rewrite !digits_val_snoc, IH, app_length. cbn [length].
  rewrite (Nat.add_1_r (length s)). cbn [Nat.pow]. lia.
Qed.

Lemma digits_cmp s : forall r x y, all_digits s -> all_digits r -> length s = length r -> digits_val s < digits_val r ->
  str_cmp (s ++ x) (r ++ y) = Lt.
Proof.
  induction s as [|a s IH]; intros [|b r] x y Hs Hr HL HV; try discriminate; [cbn in HV; lia|].
  inversion Hs as [|? ? Ha Hs']; inversion Hr as [|? ? Hb Hr']; subst. injection HL as HL.
  rewrite !digits_val_cons, HL in HV. pose proof (digits_val_bound s Hs') as B1. pose proof (digits_val_bound r Hr') as B2.
  rewrite HL in B1. cbn [app str_cmp].
  unfold is_digit in Ha, Hb. apply andb_true_iff in Ha, Hb. destruct Ha as [A1 A2], Hb as [C1 C2].
  apply Nat.leb_le in A1, A2, C1, C2. unfold digit_val in HV.
  destruct (Nat.compare_spec (nat_of_ascii a) (nat_of_ascii b)) as [E|E|E]; auto.
  - apply IH; auto. rewrite E in HV. lia.
  - exfalso. set (p := 10 ^ length r) in *.
    assert ((nat_of_ascii b - 48 + 1) * p <= (nat_of_ascii a - 48) * p) by (apply Nat.mul_le_mono_r; lia). lia.
Qed.

Lemma dec_fuel_len f : forall n k, n < 10 ^ S k -> length (dec_fuel f n) <= S k.
Proof.
  induction f as [|f IH]; intros n k Hn; cbn [dec_fuel]; [cbn; lia|].
  destruct (Nat.ltb_spec n 10) as [H|H]; [cbn; lia|]. rewrite app_length. cbn [length].
  destruct k as [|k]; [cbn in Hn; lia|].
  assert (n / 10 < 10 ^ S k) by (apply Nat.div_lt_upper_bound; [lia|]; exact Hn).
  specialize (IH _ _ H0). lia.
Qed.

Lemma fmt04d_len n : n < 10 ^ 4 -> length (fmt04d n) = 4.
Proof.
  intros H. unfold fmt04d, dec_padded. rewrite app_length, repeat_length.
  assert (length (dec n) <= 4) by (apply dec_fuel_len; exact H). lia.
Qed.

Lemma cmp_common p : forall a b, str_cmp (p ++ a) (p ++ b) = str_cmp a b.
Proof. induction p as [|c p IH]; intros a b; cbn; auto. rewrite Nat.compare_refl. apply IH. Qed.

Lemma fmt_nodot n : ~ In dot (fmt04d n).
Proof.
  destruct (dec_padded_ok 4 n) as (H & _). intros X. unfold all_digits in H. rewrite Forall_forall in H.
  apply H in X. discriminate.
Qed.

Lemma firstn_short {A} (l : list A) n : length l <= n -> firstn n l = l.
Proof. intros H. apply firstn_all2. exact H. Qed.

Lemma numbered_inj p n1 n2 e : length (create_numbered_filename p n1 e) < 1023 -> length (create_numbered_filename p n2 e) < 1023 ->
  create_numbered_filename p n1 e = create_numbered_filename p n2 e -> n1 = n2.
Proof.
  unfold create_numbered_filename. intros L1 L2 H. rewrite firstn_length in L1, L2. rewrite !firstn_short in H by lia.
  apply app_inv_head in H. injection H as H. apply split_unique in H; try apply fmt_nodot. destruct H as [H _].
  destruct (dec_padded_ok 4 n1) as (_ & V1 & _), (dec_padded_ok 4 n2) as (_ & V2 & _).
  unfold fmt04d in H. congruence.
Qed.

Lemma firstn_cmp n : forall a b, str_cmp a b = Lt -> length a <= n -> length b <= n -> str_cmp (firstn n a) (firstn n b) = Lt.
Proof. intros a b H H1 H2. rewrite !firstn_short by auto. exact H. Qed.

Lemma numbered_order p n1 n2 e : n1 < n2 -> n2 < 10 ^ 4 -> length p + 6 + length e <= 1023 ->
  str_cmp (create_numbered_filename p n1 e) (create_numbered_filename p n2 e) = Lt.
Proof.
  intros H12 H2 HL. assert (H1 : n1 < 10 ^ 4) by lia.
  pose proof (fmt04d_len n1 H1) as E1. pose proof (fmt04d_len n2 H2) as E2.
  unfold create_numbered_filename.
  apply firstn_cmp; [|rewrite app_length; cbn [length]; rewrite app_length; cbn [length]; lia..].
  rewrite cmp_common. change (dot :: fmt04d n1 ++ dot :: e) with ([dot] ++ fmt04d n1 ++ dot :: e).
  change (dot :: fmt04d n2 ++ dot :: e) with ([dot] ++ fmt04d n2 ++ dot :: e). rewrite cmp_common.
  destruct (dec_padded_ok 4 n1) as (D1 & V1 & _), (dec_padded_ok 4 n2) as (D2 & V2 & _).
  apply digits_cmp; auto; [congruence|]. unfold fmt04d. rewrite V1, V2. exact H12.
Qed.
