(** C55: gather and scatter of variable-length data are inverse. *)
From Coq Require Import ZArith List Arith Bool Lia.
From Verif Require Import Base MpiModel.
Import ListNotations.
Open Scope Z_scope.

(** Items in all pieces, and bytes. *)
Definition items {T} (values : list (list T)) : Z := fold_right (fun v s => Z.of_nat (length v) + s) 0 values.
(** The displacement of rank [r]: the bytes of the pieces of the ranks before it. *)
Definition displacement {T} (sz : nat) (values : list (list T)) (r : nat) : Z := items (firstn r values) * Z.of_nat sz.

Lemma items_nonneg {T} (vs : list (list T)) : 0 <= items vs.
Proof. induction vs; cbn [items fold_right] in *; unfold items in *; lia. Qed.
Lemma items_app {T} (a b : list (list T)) : items (a ++ b) = items a + items b.
Proof. induction a as [|x a IH]; unfold items in *; cbn [app fold_right] in *; lia. Qed.
Lemma items_concat {T} (vs : list (list T)) : items vs = Z.of_nat (length (concat vs)).
Proof. induction vs as [|x a IH]; [reflexivity|]. unfold items in *. cbn [fold_right concat]. rewrite app_length. lia. Qed.
Lemma to_int_small z : 0 <= z <= int_max -> to_int z = z.
Proof. unfold int_max, to_int. intros H. rewrite Z.mod_small; lia. Qed.

Section Props.
Context {byte T : Type} (zero : byte) (sz : nat) (enc : T -> list byte) (dec : list byte -> T).
Hypothesis Hsz : (1 <= sz)%nat.
Hypothesis enc_length : forall x, length (enc x) = sz.
Hypothesis dec_enc : forall x, dec (enc x) = x.

Let cnt (v : list T) : Z := to_int (Z.of_nat (length v) * Z.of_nat sz).

Lemma flat_length v : length (flat_map enc v) = (length v * sz)%nat.
Proof. clear Hsz dec_enc. induction v as [|x v IH]; [reflexivity|]. cbn [flat_map length]. rewrite app_length, enc_length, IH. lia. Qed.

Lemma elements_enc v : forall rest, elements sz dec (length v) (flat_map enc v ++ rest) = v.
Proof.
  clear Hsz. induction v as [|x v IH]; intros rest; [reflexivity|]. cbn [length elements flat_map]. rewrite <- app_assoc.
  rewrite firstn_app, skipn_app, enc_length, Nat.sub_diag, firstn_O, skipn_O, app_nil_r.
  rewrite (firstn_all2 (enc x)), (skipn_all2 (enc x)) by (rewrite enc_length; lia). cbn [app]. rewrite dec_enc, IH. reflexivity.
Qed.

Lemma vector_of_items n : vector_of sz (Z.of_nat n * Z.of_nat sz) = Ok n.
Proof.
  clear -Hsz. unfold vector_of. destruct (Z.ltb_spec (Z.of_nat n * Z.of_nat sz) 0); [lia|]. rewrite Z.div_mul by lia. rewrite Nat2Z.id. reflexivity.
Qed.

Lemma address_loose {A} (v : list A) : address_of false v = Ok tt. Proof. reflexivity. Qed.

Lemma read_at_piece a b c n : n = length b -> read_at (byte := byte) (a ++ b ++ c) (Z.of_nat (length a)) (Z.of_nat n) = Ok b.
Proof.
  clear. intros ->. unfold read_at. rewrite !app_length.
  destruct (Z.leb_spec 0 (Z.of_nat (length a))); [|lia]. destruct (Z.leb_spec 0 (Z.of_nat (length b))); [|lia].
  destruct (Z.leb_spec (Z.of_nat (length a) + Z.of_nat (length b)) (Z.of_nat (length a + (length b + length c)))); [|lia]. cbn [andb].
  rewrite !Nat2Z.id. rewrite skipn_app, skipn_all, Nat.sub_diag, skipn_O. cbn [app]. rewrite firstn_app, firstn_all, Nat.sub_diag, firstn_O, app_nil_r. reflexivity.
Qed.
Lemma place_piece a (b c d : list byte) : length b = length c -> place (a ++ c ++ d) (Z.of_nat (length a)) b = Ok (a ++ b ++ d).
Proof.
  clear. intros E. unfold place. rewrite !app_length.
  destruct (Z.leb_spec 0 (Z.of_nat (length a))); [|lia].
  destruct (Z.leb_spec (Z.of_nat (length a) + Z.of_nat (length b)) (Z.of_nat (length a + (length c + length d)))); [|lia]. cbn [andb].
  rewrite !Nat2Z.id. rewrite firstn_app, firstn_all, Nat.sub_diag, firstn_O, app_nil_r. f_equal. f_equal. f_equal.
  rewrite skipn_app. rewrite skipn_all2 by lia. cbn [app]. replace (length a + length b - length a)%nat with (length c) by lia.
  rewrite skipn_app, skipn_all, Nat.sub_diag, skipn_O. reflexivity.
Qed.

(** ** Scatter *)
Lemma scatter_loop values : values <> [] -> forall pre, items (pre ++ values) * Z.of_nat sz <= int_max ->
  exists r, partial_sums (items pre * Z.of_nat sz) (removelast (map cnt values)) = Ok r /\
    length (items pre * Z.of_nat sz :: r) = length values /\
    (forall k, (k < length values)%nat -> nth k (items pre * Z.of_nat sz :: r) 0 = (items pre + items (firstn k values)) * Z.of_nat sz) /\
    mapM (receive zero sz dec false (flat_map enc (concat (pre ++ values)))) (combine (map cnt values) (items pre * Z.of_nat sz :: r)) = Ok values.
Proof.
  induction values as [|v values IH]; intros Hne pre Hmax; [congruence|]. clear Hne.
  assert (Hv : 0 <= Z.of_nat (length v) * Z.of_nat sz <= int_max).
  { rewrite items_app in Hmax. unfold items at 2 in Hmax. cbn [fold_right] in Hmax. fold (items values) in Hmax. pose proof (items_nonneg pre). pose proof (items_nonneg values). nia. }
  assert (Ec : cnt v = Z.of_nat (length v) * Z.of_nat sz) by (apply to_int_small; assumption).
  assert (RV : receive zero sz dec false (flat_map enc (concat (pre ++ v :: values))) (cnt v, items pre * Z.of_nat sz) = Ok v).
  { unfold receive. rewrite Ec, vector_of_items. bsimp. rewrite address_loose. bsimp.
    rewrite concat_app, flat_map_app. cbn [concat]. rewrite flat_map_app.
    replace (items pre * Z.of_nat sz) with (Z.of_nat (length (flat_map enc (concat pre)))) by (rewrite flat_length, items_concat; lia).
    replace (Z.of_nat (length v) * Z.of_nat sz) with (Z.of_nat (length v * sz)) by lia.
    rewrite read_at_piece by (rewrite flat_length; reflexivity). bsimp.
    pose proof (place_piece [] (flat_map enc v) (repeat zero (length v * sz)) [] ltac:(rewrite flat_length, repeat_length; reflexivity)) as Q.
    cbn [app length] in Q. rewrite !app_nil_r in Q. change (Z.of_nat 0) with 0 in Q. rewrite Q. bsimp.
    rewrite <- (app_nil_r (flat_map enc v)). rewrite elements_enc. reflexivity. }
  destruct values as [|w values].
  - exists []. cbn [map removelast partial_sums combine mapM length]. split; [reflexivity|]. split; [reflexivity|]. split.
    + intros k Hk. replace k with 0%nat by (cbn [length] in Hk; lia). cbn [nth firstn]. change (items (@nil (list T))) with 0. lia.
    + rewrite RV. reflexivity.
  - assert (EI : items (pre ++ [v]) = items pre + Z.of_nat (length v)).
    { rewrite items_app. unfold items at 2. cbn [fold_right]. lia. }
    destruct (IH ltac:(discriminate) (pre ++ [v])) as (r & E1 & E2 & E3 & E4); [rewrite <- app_assoc; exact Hmax|].
    rewrite <- app_assoc in E4. cbn [app] in E4. rewrite EI in *.
    replace ((items pre + Z.of_nat (length v)) * Z.of_nat sz) with (items pre * Z.of_nat sz + cnt v) in * by (rewrite Ec; lia).
    exists ((items pre * Z.of_nat sz + cnt v) :: r). split; [|split; [|split]].
    + change (removelast (map cnt (v :: w :: values))) with (cnt v :: removelast (map cnt (w :: values))). cbn [partial_sums].
      rewrite chk_ok.
      * bsimp. rewrite E1. reflexivity.
      * apply in_int_spec. rewrite Ec. rewrite items_app in Hmax. unfold items at 2 in Hmax. cbn [fold_right] in Hmax.
        pose proof (items_nonneg pre). pose proof (items_nonneg values) as Q. unfold items in Q. unfold int_max in Hmax. nia.
    + cbn [length] in *. lia.
    + intros [|k] Hk; [cbn [nth firstn]; change (items (@nil (list T))) with 0; lia|]. change (nth (S k) ?l 0) with (nth k (tl l) 0). cbn [tl].
      specialize (E3 k ltac:(cbn [length] in *; lia)). rewrite E3. cbn [firstn]. unfold items. cbn [fold_right]. lia.
    + change (combine (map cnt (v :: w :: values)) (items pre * Z.of_nat sz :: items pre * Z.of_nat sz + cnt v :: r))
        with ((cnt v, items pre * Z.of_nat sz) :: combine (map cnt (w :: values)) (items pre * Z.of_nat sz + cnt v :: r)).
      cbn [mapM]. rewrite RV. bsimp. rewrite E4. reflexivity.
Qed.

(** Every rank receives its piece. *)
Theorem scatterv_delivers P values : (1 <= P)%nat -> length values = P -> items values * Z.of_nat sz <= int_max ->
  scatterv zero sz enc dec false P values = Ok values.
Proof.
  intros HP HL HM. unfold scatterv, scatter. rewrite HL, Nat.eqb_refl. cbn [negb].
  destruct (scatter_loop values ltac:(intros ->; simpl in HL; lia) [] HM) as (r & E1 & E2 & E3 & E4).
  unfold send_displs, send_counts. fold cnt. change (items [] * Z.of_nat sz) with 0 in *. rewrite E1. bsimp.
  rewrite map_length, HL, Nat.eqb_refl. cbn [negb]. bsimp. rewrite address_loose. bsimp. exact E4.
Qed.

(** The displacements are the running totals of the counts. *)
Theorem displacements_are_totals (values : list (list T)) : values <> [] -> items values * Z.of_nat sz <= int_max ->
  exists ds, send_displs (send_counts sz values) = Ok ds /\ length ds = length values /\
    forall r, (r < length values)%nat -> nth r ds 0 = displacement sz values r.
Proof.
  intros HN HM. destruct (scatter_loop values HN [] HM) as (r & E1 & E2 & E3 & E4). exists (0 :: r).
  unfold send_displs, send_counts. fold cnt. change (items [] * Z.of_nat sz) with 0 in *. rewrite E1. split; [reflexivity|]. split; [exact E2|].
  intros k Hk. rewrite (E3 k Hk). reflexivity.
Qed.

Theorem scatterv_wrong_count strict P values : length values <> P -> scatterv zero sz enc dec strict P values = Throw InvalidArgument.
Proof. clear. intros H. unfold scatterv. destruct (Nat.eqb_spec (length values) P); [contradiction|reflexivity]. Qed.

(** ** All-gather *)
Lemma sums_ok (values : list (list T)) : forall acc, 0 <= acc -> acc + items values * Z.of_nat sz <= int_max ->
  exists r, partial_sums acc (map cnt values) = Ok r /\ last (acc :: r) 0 = acc + items values * Z.of_nat sz.
Proof.
  clear -Hsz. induction values as [|v values IH]; intros acc H0 HM.
  - exists []. split; [reflexivity|]. cbn [last]. unfold items. cbn [fold_right]. lia.
  - assert (Ei : items (v :: values) = Z.of_nat (length v) + items values) by reflexivity. pose proof (items_nonneg values).
    assert (Ec : cnt v = Z.of_nat (length v) * Z.of_nat sz) by (apply to_int_small; nia).
    destruct (IH (acc + cnt v)) as (r & E1 & E2); [lia|rewrite Ec; nia|].
    exists (acc + cnt v :: r). cbn [map partial_sums]. rewrite chk_ok by (apply in_int_spec; rewrite Ec; unfold int_max in HM; nia). bsimp. rewrite E1. split; [reflexivity|].
    change (last (acc :: acc + cnt v :: r) 0) with (last (acc + cnt v :: r) 0). rewrite E2, Ei, Ec. lia.
Qed.

Lemma gather_loop values : forall pre acc, acc = items pre * Z.of_nat sz -> items (pre ++ values) * Z.of_nat sz <= int_max ->
  forall r, partial_sums acc (map cnt values) = Ok r ->
  foldM (fun buf '(v, (c, d)) => do data <- read_at (flat_map enc v) 0 c; place buf d data)
        (flat_map enc (concat pre) ++ repeat zero (length (concat values) * sz)) (combine values (combine (map cnt values) (acc :: r)))
  = Ok (flat_map enc (concat (pre ++ values))).
Proof.
  induction values as [|v values IH]; intros pre acc Ea HM r E.
  - cbn [combine foldM concat length]. rewrite app_nil_r. cbn [Nat.mul repeat]. rewrite app_nil_r. reflexivity.
  - assert (Hv : 0 <= Z.of_nat (length v) * Z.of_nat sz <= int_max).
    { rewrite items_app in HM. unfold items at 2 in HM. cbn [fold_right] in HM. fold (items values) in HM. pose proof (items_nonneg pre). pose proof (items_nonneg values). nia. }
    assert (Ec : cnt v = Z.of_nat (length v) * Z.of_nat sz) by (apply to_int_small; assumption).
    cbn [map partial_sums] in E. apply bind_ok_inv in E. destruct E as (s & Es & E). apply bind_ok_inv in E. destruct E as (r' & Er & E). injection E as <-.
    assert (Hs : s = acc + cnt v) by (unfold chk in Es; destruct (in_int (acc + cnt v)); [injection Es as <-; reflexivity|discriminate]). subst s.
    cbn [map]. change (combine (cnt v :: map cnt values) (acc :: acc + cnt v :: r')) with ((cnt v, acc) :: combine (map cnt values) (acc + cnt v :: r')).
    cbn [combine foldM]. rewrite Ec at 1.
    replace (Z.of_nat (length v) * Z.of_nat sz) with (Z.of_nat (length v * sz)) by lia.
    pose proof (read_at_piece [] (flat_map enc v) [] (length v * sz) ltac:(rewrite flat_length; reflexivity)) as Q. cbn [app length] in Q. rewrite app_nil_r in Q. change (Z.of_nat 0) with 0 in Q. rewrite Q. bsimp.
    replace acc with (Z.of_nat (length (flat_map enc (concat pre)))) at 1 by (rewrite flat_length, Ea, items_concat; lia).
    cbn [concat]. rewrite app_length, Nat.mul_add_distr_r, repeat_app.
    rewrite place_piece by (rewrite flat_length, repeat_length; reflexivity). bsimp.
    rewrite app_assoc. rewrite <- flat_map_app. replace (concat pre ++ v) with (concat (pre ++ [v])) by (rewrite concat_app; cbn [concat]; rewrite app_nil_r; reflexivity).
    rewrite (IH (pre ++ [v]) (acc + cnt v)); [rewrite <- app_assoc; reflexivity| |rewrite <- app_assoc; exact HM|exact Er].
    rewrite Ea, Ec, items_app. unfold items at 3. cbn [fold_right]. lia.
Qed.

Lemma split_concat (values : list (list T)) : forall n, items values * Z.of_nat sz <= int_max -> split_by sz (map cnt values) (concat values ++ n) = Ok values.
Proof.
  clear -Hsz. induction values as [|v values IH]; intros n HM; [reflexivity|].
  assert (Ei : items (v :: values) = Z.of_nat (length v) + items values) by reflexivity. pose proof (items_nonneg values).
  assert (Ec : cnt v = Z.of_nat (length v) * Z.of_nat sz) by (apply to_int_small; nia).
  cbn [map split_by concat]. rewrite Ec, vector_of_items. bsimp. rewrite <- app_assoc, app_length. destruct (Nat.leb_spec (length v) (length v + length (concat values ++ n))); [|lia].
  rewrite skipn_app, skipn_all, Nat.sub_diag, skipn_O. cbn [app]. rewrite IH by nia. bsimp. rewrite firstn_app, firstn_all, Nat.sub_diag, firstn_O, app_nil_r. reflexivity.
Qed.

(** Every rank gets all pieces, in the order of the ranks. *)
Theorem all_gatherv_collects values : items values * Z.of_nat sz <= int_max -> all_gatherv zero sz enc dec false values = Ok values.
Proof.
  intros HM. unfold all_gatherv, all_gather. fold cnt. bsimp. pose proof (items_nonneg values) as H0.
  destruct (sums_ok values 0 ltac:(lia) ltac:(lia)) as (r & E1 & E2). rewrite E1. bsimp. rewrite E2, Z.add_0_l.
  rewrite items_concat at 1. rewrite vector_of_items. bsimp.
  assert (EM : mapM (address_of (A := T) false) values = Ok (map (fun _ => tt) values)).
  { clear. induction values as [|v values IH]; [reflexivity|]. cbn [mapM map]. rewrite address_loose. bsimp. rewrite IH. reflexivity. }
  rewrite EM. bsimp. rewrite address_loose. bsimp.
  pose proof (gather_loop values [] 0 eq_refl HM r E1) as Q. cbn [concat flat_map app] in Q. rewrite Q. bsimp.
  rewrite <- (app_nil_r (flat_map enc (concat values))). rewrite elements_enc. rewrite <- (app_nil_r (concat values)). apply split_concat. assumption.
Qed.

(** Gathering what was scattered. *)
Theorem gather_after_scatter P values : (1 <= P)%nat -> length values = P -> items values * Z.of_nat sz <= int_max ->
  (do ps <- scatterv zero sz enc dec false P values; all_gatherv zero sz enc dec false ps) = Ok values.
Proof. intros HP HL HM. rewrite scatterv_delivers by assumption. bsimp. apply all_gatherv_collects. assumption. Qed.

(** ** Limits *)

(** More than 2^31 - 1 bytes in total: the running totals overflow. *)
Theorem all_gatherv_overflow_refuted strict (values : list (list T)) : Forall (fun v => Z.of_nat (length v) * Z.of_nat sz <= int_max) values ->
  int_max < items values * Z.of_nat sz -> all_gatherv zero sz enc dec strict values = UB.
Proof.
  clear -Hsz cnt. intros HF HM. unfold all_gatherv, all_gather. fold cnt. bsimp.
  assert (G : forall vs acc, Forall (fun v => Z.of_nat (length v) * Z.of_nat sz <= int_max) vs -> 0 <= acc <= int_max -> int_max < acc + items vs * Z.of_nat sz -> partial_sums acc (map cnt vs) = UB).
  { clear -Hsz cnt. induction vs as [|v vs IH]; intros acc HF Ha HM; [unfold items in HM; cbn [fold_right] in HM; lia|].
    pose proof (Forall_inv HF) as Hv. apply Forall_inv_tail in HF. cbv beta in Hv. assert (Ei : items (v :: vs) = Z.of_nat (length v) + items vs) by reflexivity.
    assert (Ec : cnt v = Z.of_nat (length v) * Z.of_nat sz) by (apply to_int_small; lia).
    cbn [map partial_sums]. rewrite Ec. unfold chk. destruct (in_int (acc + Z.of_nat (length v) * Z.of_nat sz)) eqn:EI; [|reflexivity].
    apply in_int_spec in EI. bsimp. rewrite IH; [reflexivity|assumption|unfold int_max; lia|rewrite Ei in HM; lia]. }
  rewrite (G values 0); [reflexivity|assumption|unfold int_max; lia|lia].
Qed.

(** By the language rules an empty piece is undefined behaviour on either side: &v[0] of an empty vector. *)
Theorem scatterv_empty_refuted P values : (1 <= P)%nat -> length values = P -> items values * Z.of_nat sz <= int_max -> In [] values ->
  scatterv zero sz enc dec true P values = UB.
Proof.
  intros HP HL HM HI. unfold scatterv, scatter. rewrite HL, Nat.eqb_refl. cbn [negb].
  destruct (scatter_loop values ltac:(intros ->; simpl in HL; lia) [] HM) as (r & E1 & E2 & _ & E4).
  unfold send_displs, send_counts. fold cnt. change (items [] * Z.of_nat sz) with 0 in *. rewrite E1. bsimp.
  rewrite map_length, HL, Nat.eqb_refl. cbn [negb]. bsimp. unfold address_of at 1. destruct (concat values) eqn:EC; [reflexivity|]. bsimp.
  rewrite <- EC in *. clear EC t l E1.
  cbn [app] in E4. revert E2 E4. generalize (0 :: r) as ds. generalize (flat_map enc (concat values)) as buf. intros buf ds. clear -HI Hsz. revert ds.
  induction values as [|v values IH]; intros ds E2 E4; [destruct HI|]. destruct ds as [|d ds]; [discriminate|].
  cbn [map combine mapM] in *. apply bind_ok_inv in E4. destruct E4 as (v' & Ev & E4). apply bind_ok_inv in E4. destruct E4 as (vs' & Evs & E4). injection E4 as -> ->.
  destruct v as [|x v].
  - replace (cnt []) with 0 by reflexivity. unfold receive, vector_of. cbn [Z.ltb Z.compare]. rewrite Z.div_0_l by lia. reflexivity.
  - destruct HI as [HI|HI]; [discriminate|].
    assert (Ev' : receive zero sz dec true buf (cnt (x :: v), d) = Ok (x :: v) \/ receive zero sz dec true buf (cnt (x :: v), d) = UB).
    { unfold receive in *. apply bind_ok_inv in Ev. destruct Ev as (n & En & Ev). rewrite En. bsimp. unfold address_of at 1. destruct (repeat zero n); [right; reflexivity|left; exact Ev]. }
    destruct Ev' as [Q|Q]; rewrite Q; [|reflexivity]. bsimp. rewrite (IH HI ds); [reflexivity|simpl in *; lia|assumption].
Qed.
Theorem all_gatherv_empty_refuted values : items values * Z.of_nat sz <= int_max -> In [] values ->
  all_gatherv zero sz enc dec true values = UB.
Proof.
  intros HM HI. unfold all_gatherv, all_gather. fold cnt. bsimp.
  destruct (sums_ok values 0 ltac:(lia) ltac:(lia)) as (r & E1 & E2). rewrite E1. bsimp. rewrite E2, Z.add_0_l.
  rewrite items_concat at 1. rewrite vector_of_items. bsimp.
  assert (EM : mapM (address_of (A := T) true) values = UB).
  { clear -HI. induction values as [|v values IH]; [destruct HI|]. cbn [mapM]. destruct v as [|x v]; [reflexivity|]. destruct HI as [HI|HI]; [discriminate|].
    change (address_of true (x :: v)) with (@Ok unit tt). bsimp. rewrite IH by assumption. reflexivity. }
  rewrite EM. reflexivity.
Qed.

(** ** All-to-all, and typed messages *)

(** Rank [i] gets, at index [j], what rank [j] passed at index [i]. *)
Theorem all_to_all_transposes values : Forall (fun v => length v = length values) values ->
  exists res, all_to_all zero sz enc dec values = Ok res /\ length res = length values /\
    forall i j v x, nth_error values j = Some v -> nth_error v i = Some x ->
      exists r, nth_error res i = Some r /\ length r = length values /\ nth_error r j = Some x.
Proof.
  intros HF. unfold all_to_all.
  assert (E0 : mapM (fun v : list T => if negb (length v =? length values)%nat then Throw InvalidArgument else Ok tt) values = Ok (map (fun _ => tt) values)).
  { revert HF. generalize (length values) as P. induction values as [|v vs IH]; intros P HF; [reflexivity|]. cbn [mapM map]. rewrite (Forall_inv HF), Nat.eqb_refl. cbn [negb]. bsimp.
    rewrite (IH P); [reflexivity|]. apply Forall_inv_tail in HF. exact HF. }
  rewrite E0. bsimp. clear E0. set (P := length values) in *.
  assert (RD : forall r v x, nth_error v r = Some x -> read_at (flat_map enc v) (Z.of_nat (r * sz)) (Z.of_nat sz) = Ok (enc x)).
  { intros r v x E. destruct (nth_error_split v r E) as (a & b & -> & Ea). rewrite flat_map_app. cbn [flat_map].
    replace (r * sz)%nat with (length (flat_map enc a)) by (rewrite flat_length, Ea; reflexivity). apply read_at_piece. rewrite enc_length. reflexivity. }
  assert (EX : forall r, (r < P)%nat -> exists xs, length xs = P /\ (forall j v x, nth_error values j = Some v -> nth_error v r = Some x -> nth_error xs j = Some x) /\
    (do parts <- mapM (fun v => read_at (flat_map enc v) (Z.of_nat (r * sz)) (Z.of_nat sz)) values; do buf <- place (repeat zero (P * sz)) 0 (concat parts); Ok (elements sz dec P buf)) = Ok xs).
  { intros r Hr. assert (EP : exists xs, length xs = length values /\ (forall j v x, nth_error values j = Some v -> nth_error v r = Some x -> nth_error xs j = Some x) /\
      mapM (fun v => read_at (flat_map enc v) (Z.of_nat (r * sz)) (Z.of_nat sz)) values = Ok (map enc xs)).
    { clearbody P. clear -HF Hr RD. induction values as [|v vs IH]; [exists []; split; [reflexivity|]; split; [intros [|j]; discriminate|reflexivity]|].
      pose proof (Forall_inv HF) as Hv. cbv beta in Hv. destruct (IH (Forall_inv_tail HF)) as (xs & I1 & I2 & I3).
      destruct (nth_error v r) as [x|] eqn:Ex; [|apply nth_error_None in Ex; lia].
      exists (x :: xs). cbn [length mapM map]. rewrite (RD r v x Ex). bsimp. rewrite I3. split; [lia|]. split; [|reflexivity].
      intros [|j] w y Hj Hy; cbn [nth_error] in *; [injection Hj as <-; congruence|eauto]. }
    destruct EP as (xs & X1 & X2 & X3). exists xs. split; [exact X1|]. split; [exact X2|]. rewrite X3. bsimp. rewrite <- flat_map_concat_map.
    pose proof (place_piece [] (flat_map enc xs) (repeat zero (P * sz)) [] ltac:(rewrite flat_length, repeat_length, X1; reflexivity)) as Q.
    cbn [app length] in Q. rewrite !app_nil_r in Q. change (Z.of_nat 0) with 0 in Q. rewrite Q. bsimp.
    rewrite <- (app_nil_r (flat_map enc xs)). replace P with (length xs) by exact X1. rewrite elements_enc. reflexivity. }
  assert (EM : forall ks, Forall (fun k => (k < P)%nat) ks -> exists res, mapM (fun r => do parts <- mapM (fun v => read_at (flat_map enc v) (Z.of_nat (r * sz)) (Z.of_nat sz)) values;
      do buf <- place (repeat zero (P * sz)) 0 (concat parts); Ok (elements sz dec P buf)) ks = Ok res /\
      length res = length ks /\ forall n k, nth_error ks n = Some k -> exists xs, nth_error res n = Some xs /\ length xs = P /\
        forall j v x, nth_error values j = Some v -> nth_error v k = Some x -> nth_error xs j = Some x).
  { clear -EX. induction ks as [|k ks IH]; intros HK; [exists []; repeat split; intros [|n]; discriminate|].
    destruct (EX k (Forall_inv HK)) as (xs & X1 & X2 & X3). destruct (IH (Forall_inv_tail HK)) as (res & R1 & R2 & R3).
    exists (xs :: res). cbn [mapM]. rewrite X3. bsimp. rewrite R1. bsimp. split; [reflexivity|]. split; [simpl; lia|].
    intros [|n] m Hn; cbn [nth_error] in *; [injection Hn as <-; eauto|eauto]. }
  destruct (EM (seq 0 P)) as (res & R1 & R2 & R3); [apply Forall_forall; intros k Hk; apply in_seq in Hk; lia|].
  exists res. split; [exact R1|]. split; [rewrite R2; apply seq_length|]. intros i j v x Hj Hx.
  assert (Hi : (i < P)%nat).
  { rewrite Forall_forall in HF. pose proof (HF v (nth_error_In _ _ Hj)) as Q. rewrite <- Q. apply nth_error_Some. congruence. }
  destruct (R3 i i) as (xs & Y1 & Y2 & Y3); [rewrite (nth_error_nth' _ 0%nat) by (rewrite seq_length; assumption); rewrite seq_nth by assumption; reflexivity|].
  exists xs. repeat split; eauto.
Qed.

(** Only vectors with one value per rank are accepted. *)
Theorem all_to_all_wrong_count values v : In v values -> length v <> length values -> all_to_all zero sz enc dec values = Throw InvalidArgument.
Proof.
  clear. intros HI HN. unfold all_to_all. assert (E : mapM (fun v : list T => if negb (length v =? length values)%nat then Throw InvalidArgument else Ok tt) values = Throw InvalidArgument).
  { revert HI HN. generalize (length values) as P. induction values as [|w vs IH]; intros P HI HN; [destruct HI|]. cbn [mapM].
    destruct (Nat.eqb_spec (length w) P); cbn [negb]; [|reflexivity]. destruct HI as [->|HI]; [contradiction|]. bsimp. rewrite IH by assumption. reflexivity. }
  rewrite E. reflexivity.
Qed.

(** A value sent is the value received; a message of another size is refused. *)
Theorem typed_message v : recv_value sz dec (send_value enc v) = Ok v.
Proof. unfold recv_value, send_value. rewrite enc_length, Nat.eqb_refl. cbn [negb]. rewrite dec_enc. reflexivity. Qed.
Theorem typed_message_wrong_size buf : length buf <> sz -> recv_value (T := T) sz dec buf = Throw LogicError.
Proof. clear. intros H. unfold recv_value. destruct (Nat.eqb_spec (length buf) sz); [contradiction|reflexivity]. Qed.
End Props.

(** ** Example: two-byte numbers on three ranks, one with nothing. *)
Definition enc2 (x : nat * nat) : list nat := [fst x; snd x].
Definition dec2 (l : list nat) : nat * nat := match l with [a; b] => (a, b) | _ => (0, 0)%nat end.
Definition ex_pieces : list (list (nat * nat)) := [[(1, 2); (3, 4)]; []; [(5, 6)]]%nat.
Example gather_example :
  scatterv 0%nat 2 enc2 dec2 false 3 ex_pieces = Ok ex_pieces /\
  all_gatherv 0%nat 2 enc2 dec2 false ex_pieces = Ok ex_pieces /\
  send_displs (send_counts 2 ex_pieces) = Ok [0; 4; 4] /\
  all_gatherv 0%nat 2 enc2 dec2 true ex_pieces = UB /\
  scatterv 0%nat 2 enc2 dec2 false 2 ex_pieces = Throw InvalidArgument /\
  all_to_all 0%nat 2 enc2 dec2 [[(1, 2); (3, 4)]; [(5, 6); (7, 8)]]%nat = Ok [[(1, 2); (5, 6)]; [(3, 4); (7, 8)]]%nat.
Proof. repeat split; vm_compute; reflexivity. Qed.

Print Assumptions gather_after_scatter.
Print Assumptions displacements_are_totals.
Print Assumptions all_gatherv_overflow_refuted.
Print Assumptions scatterv_empty_refuted.
Print Assumptions all_to_all_transposes.
