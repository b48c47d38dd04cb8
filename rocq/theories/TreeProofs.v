From Coq Require Import List Arith Bool Lia.
From Coq Require Import Permutation.
From Verif Require Import Base TreeModel TreeSpec.
Import ListNotations.
Close Scope Z_scope.
Open Scope nat_scope.

(** ** Induction principles *)

Section tree_ind_sec.
  Context {A : Type} (P : tree A -> Prop).
  Hypothesis HL : forall a, P (Leaf a).
  Hypothesis HN : forall cs, Forall P cs -> P (Node cs).
  Fixpoint tree_ind' (t : tree A) : P t :=
    match t with
    | Leaf a => HL a
    | Node cs =>
        HN cs ((fix go (cs : list (tree A)) : Forall P cs :=
                  match cs with
                  | [] => Forall_nil P
                  | c :: cs' => Forall_cons c (tree_ind' c) (go cs')
                  end) cs)
    end.
End tree_ind_sec.

Lemma wf_node_inv {A} D (cs : list (tree A)) :
  wf_tree D (Node cs) -> length cs = 2 ^ D /\ Forall (wf_tree D) cs.
Proof. intros H; inversion H; auto. Qed.

(** ** List helpers *)

Lemma zipw_length {A B C} (f : A -> B -> C) l : forall m,
  length (zipw f l m) = Nat.min (length l) (length m).
Proof. induction l; destruct m; simpl; auto. Qed.

Lemma nth_error_mapi_from {A B} (f : nat -> A -> B) l : forall k n,
  nth_error (mapi_from f k l) n = option_map (f (k + n)) (nth_error l n).
Proof.
  induction l as [|a l IH]; intros k n; destruct n; simpl; auto.
  - rewrite Nat.add_0_r. reflexivity.
  - rewrite IH. f_equal. f_equal. lia.
Qed.

Lemma nth_error_mapi {A B} (f : nat -> A -> B) l n :
  nth_error (mapi f l) n = option_map (f n) (nth_error l n).
Proof. apply nth_error_mapi_from. Qed.

Lemma mapi_from_length {A B} (f : nat -> A -> B) l : forall k, length (mapi_from f k l) = length l.
Proof. induction l; simpl; auto. Qed.

Lemma set_nth_length {A} n (a : A) l : length (set_nth n a l) = length l.
Proof. revert n; induction l; destruct n; simpl; auto. Qed.

Lemma nth_error_set_nth_eq {A} n (a : A) l : n < length l -> nth_error (set_nth n a l) n = Some a.
Proof. revert n; induction l; destruct n; simpl; intros; try lia; auto. apply IHl; lia. Qed.

Lemma nth_error_set_nth_ne {A} n m (a : A) l : n <> m -> nth_error (set_nth n a l) m = nth_error l m.
Proof. revert n m; induction l; destruct n, m; simpl; intros; try congruence; auto. Qed.

Lemma set_nth_id {A} n (a : A) l : nth_error l n = Some a -> set_nth n a l = l.
Proof. revert n; induction l; destruct n; simpl; intros; try discriminate; [congruence|f_equal; auto]. Qed.

Lemma set_nth_set_nth {A} n (a b : A) l : set_nth n a (set_nth n b l) = set_nth n a l.
Proof. revert n; induction l; destruct n; simpl; auto. f_equal; auto. Qed.

(** ** Bits *)

Lemma bits_length D : forall k, length (bits D k) = D.
Proof. induction D; simpl; auto. Qed.

Lemma to_integral_bits D : forall k, k < 2 ^ D -> to_integral (bits D k) = k.
Proof.
  induction D as [|D IH]; intros k Hk.
  - simpl in *. lia.
  - cbn [bits to_integral]. rewrite Nat.pow_succ_r' in Hk.
    pose proof (Nat.div2_odd k). rewrite IH.
    + unfold Nat.b2n in *. destruct (Nat.odd k); lia.
    + unfold Nat.b2n in *. destruct (Nat.odd k); lia.
Qed.

Lemma bits_to_integral l : bits (length l) (to_integral l) = l.
Proof.
  induction l as [|b l IH]; [reflexivity|].
  cbn [length to_integral bits]. f_equal.
  - rewrite Nat.odd_add_mul_2. destruct b; reflexivity.
  - assert (Nat.div2 (Nat.b2n b + 2 * to_integral l) = to_integral l) as ->.
    { rewrite Nat.div2_div. destruct b; cbn [Nat.b2n].
      - symmetry. apply Nat.div_unique with 1; lia.
      - symmetry. apply Nat.div_unique with 0; lia. }
    exact IH.
Qed.

Lemma to_integral_bound l : to_integral l < 2 ^ length l.
Proof.
  induction l as [|b l IH]; cbn [to_integral length].
  - simpl; lia.
  - rewrite Nat.pow_succ_r'. destruct b; cbn [Nat.b2n]; lia.
Qed.

Lemma pow2_pos n : 0 < 2 ^ n.
Proof. pose proof (Nat.pow_nonzero 2 n). lia. Qed.

(** ** Paths *)

(** A path lists child numbers from the root down. *)
Definition path_ok (D : nat) (p : list nat) : Prop := Forall (fun k => k < 2 ^ D) p.

Fixpoint path_of (l : nat) (c : list nat) : list nat :=
  match l with
  | 0 => []
  | S l' => to_integral (map (fun x => negb (x / 2 ^ l' =? 0)) c)
            :: path_of l' (map (fun x => x mod 2 ^ l') c)
  end.

Fixpoint of_path (D : nat) (p : list nat) : list nat :=
  match p with
  | [] => repeat 0 D
  | k :: p' => zipw (fun b y => Nat.b2n b * 2 ^ length p' + y) (bits D k) (of_path D p')
  end.

Fixpoint node_path {A} (p : list nat) (t : tree A) : option (tree A) :=
  match p with
  | [] => Some t
  | k :: p' =>
      match t with
      | Leaf _ => None
      | Node cs => match nth_error cs k with Some c => node_path p' c | None => None end
      end
  end.

Lemma path_of_length l : forall c, length (path_of l c) = l.
Proof. induction l; simpl; auto. Qed.

Lemma path_of_ok l : forall D c, length c = D -> path_ok D (path_of l c).
Proof.
  induction l; intros D c H; simpl; constructor.
  - rewrite <- H, <- (map_length (fun x => negb (x / 2 ^ l =? 0)) c). apply to_integral_bound.
  - apply IHl. rewrite map_length. exact H.
Qed.

Lemma of_path_length D p : length (of_path D p) = D.
Proof.
  induction p as [|k p IH]; simpl.
  - apply repeat_length.
  - rewrite zipw_length, bits_length, IH. apply Nat.min_id.
Qed.

Lemma Forall_zipw {A B C} (P : C -> Prop) (Q : B -> Prop) (f : A -> B -> C) l : forall m,
  Forall Q m -> (forall a b, Q b -> P (f a b)) -> Forall P (zipw f l m).
Proof.
  induction l; intros m Hm Hf; destruct m; simpl; constructor; inversion Hm; subst; auto.
Qed.

Lemma of_path_bound D p : Forall (fun c => c < 2 ^ length p) (of_path D p).
Proof.
  induction p as [|k p IH]; simpl length.
  - simpl. apply Forall_forall. intros x Hx. apply repeat_spec in Hx. subst; simpl; lia.
  - cbn [of_path]. eapply Forall_zipw; [exact IH|]. intros b y Hy. cbv beta in *.
    rewrite Nat.pow_succ_r'. destruct b; cbn [Nat.b2n]; lia.
Qed.

Lemma div_mod_digit b y n : y < n -> (Nat.b2n b * n + y) / n = Nat.b2n b /\ (Nat.b2n b * n + y) mod n = y.
Proof.
  intros H. split.
  - rewrite Nat.div_add_l by lia. rewrite Nat.div_small by lia. lia.
  - rewrite Nat.add_comm, Nat.mod_add by lia. apply Nat.mod_small; lia.
Qed.

Lemma zip_top n l : forall m, length l = length m -> Forall (fun c => c < n) m ->
  map (fun x => negb (x / n =? 0)) (zipw (fun b y => Nat.b2n b * n + y) l m) = l /\
  map (fun x => x mod n) (zipw (fun b y => Nat.b2n b * n + y) l m) = m.
Proof.
  induction l as [|b l IH]; intros m HL HF; destruct m as [|y m]; simpl in *; try discriminate; auto.
  inversion HF; subst. destruct (IH m) as [E1 E2]; auto.
  destruct (div_mod_digit b y n H1) as [D1 D2].
  rewrite E1, E2, D1, D2. destruct b; auto.
Qed.

Lemma path_of_of_path D p : path_ok D p -> path_of (length p) (of_path D p) = p.
Proof.
  induction p as [|k p IH]; intros H; [reflexivity|].
  inversion H; subst. cbn [length path_of of_path].
  destruct (zip_top (2 ^ length p) (bits D k) (of_path D p)) as [E1 E2].
  - rewrite bits_length, of_path_length; reflexivity.
  - apply of_path_bound.
  - rewrite E1, E2, to_integral_bits, IH; auto.
Qed.

Lemma top_digit l x : x < 2 ^ S l ->
  Nat.b2n (negb (x / 2 ^ l =? 0)) = x / 2 ^ l /\
  Nat.b2n (negb (x / 2 ^ l =? 0)) * 2 ^ l + x mod 2 ^ l = x.
Proof.
  intros H. rewrite Nat.pow_succ_r' in H. pose proof (pow2_pos l).
  pose proof (Nat.div_mod x (2 ^ l)).
  assert (x / 2 ^ l < 2) by (apply Nat.div_lt_upper_bound; lia).
  destruct (Nat.eqb_spec (x / 2 ^ l) 0) as [E|E]; cbn [negb Nat.b2n].
  - split; lia.
  - assert (x / 2 ^ l = 1) by lia. split; lia.
Qed.

Lemma of_path_path_of l : forall D c, length c = D -> Forall (fun x => x < 2 ^ l) c ->
  of_path D (path_of l c) = c.
Proof.
  induction l as [|l IH]; intros D c HL HF.
  - simpl. subst. simpl in HF. induction c as [|x c IHc]; [reflexivity|].
    inversion HF; subst. simpl. f_equal; [lia|auto].
  - cbn [path_of of_path]. rewrite path_of_length.
    rewrite IH.
    2:{ rewrite map_length. exact HL. }
    2:{ apply Forall_forall. intros x Hx. apply in_map_iff in Hx. destruct Hx as (y & <- & _).
        apply Nat.mod_upper_bound. apply Nat.pow_nonzero. lia. }
    replace D with (length (map (fun x => negb (x / 2 ^ l =? 0)) c)) by (rewrite map_length; exact HL).
    rewrite bits_to_integral. clear HL IH D.
    induction c as [|x c IHc]; [reflexivity|]. inversion HF; subst. cbn [map zipw].
    f_equal; [apply top_digit; auto|auto].
Qed.

(** ** Model operations in terms of paths *)

Lemma shl1_ok n : n < 31 -> shl1 n = Ok (2 ^ n).
Proof. unfold shl1. intros H. apply Nat.ltb_lt in H. rewrite H. reflexivity. Qed.

Lemma orthant_ok l c : l < 31 ->
  orthant (mkidx (S l) c) = Ok (map (fun x => negb (x / 2 ^ l =? 0)) c).
Proof. intros H. unfold orthant; cbn [level coords]. rewrite shl1_ok by auto. reflexivity. Qed.

Lemma advance_ok l c : l < 31 -> Forall (fun x => x < 2 ^ S l) c ->
  advance_level (mkidx (S l) c) = Ok (mkidx l (map (fun x => x mod 2 ^ l) c)).
Proof.
  intros H HF. unfold advance_level; cbn [level coords]. rewrite orthant_ok by auto. bsimp.
  rewrite shl1_ok by auto. bsimp. do 2 f_equal.
  induction c as [|x c IH]; [reflexivity|]. inversion HF; subst. cbn [map zipw]. f_equal; auto.
  destruct (top_digit l x) as [_ E]; auto.
  rewrite <- E at 1. pose proof (pow2_pos l). lia.
Qed.

Lemma mod_forall l c : Forall (fun x => x < 2 ^ l) (map (fun x => x mod 2 ^ l) c).
Proof.
  apply Forall_forall. intros x Hx. apply in_map_iff in Hx. destruct Hx as (y & <- & _).
  apply Nat.mod_upper_bound. apply Nat.pow_nonzero. lia.
Qed.

Lemma any_coord_zero c : Forall (fun x => x < 2 ^ 0) c -> any_coord c = false.
Proof.
  induction 1 as [|x c Hx HF IH]; [reflexivity|]. simpl in *. assert (x = 0) by lia. subst; auto.
Qed.

Lemma child_at_ok {A} D (cs : list (tree A)) o : length cs = 2 ^ D -> length o = D ->
  exists c, nth_error cs (to_integral o) = Some c /\ child_at (Node cs) o = Ok c.
Proof.
  intros HL Ho. unfold child_at; cbn [children]. bsimp.
  destruct (nth_error cs (to_integral o)) eqn:E; eauto.
  apply nth_error_None in E. pose proof (to_integral_bound o). rewrite Ho in *. lia.
Qed.

Lemma Forall_nth_error {A} (P : A -> Prop) l n x : Forall P l -> nth_error l n = Some x -> P x.
Proof. intros HF E. rewrite Forall_forall in HF. apply HF. eapply nth_error_In; eauto. Qed.

Lemma node_at_path {A} D l : forall c (t : tree A), l <= 31 -> wf_tree D t ->
  length c = D -> Forall (fun x => x < 2 ^ l) c ->
  node_at_level l c t =
    match node_path (path_of l c) t with Some n => Ok n | None => Throw OutOfRange end.
Proof.
  induction l as [|l IH]; intros c t Hl Hwf HL HF.
  - cbn [node_at_level]. rewrite any_coord_zero by auto. reflexivity.
  - cbn [node_at_level path_of node_path].
    destruct t as [a|cs]; cbn [has_value]; [reflexivity|].
    apply wf_node_inv in Hwf. destruct Hwf as [Hlen Hall].
    rewrite orthant_ok by lia. bsimp.
    destruct (child_at_ok D cs (map (fun x => negb (x / 2 ^ l =? 0)) c)) as (t' & E & ->); auto.
    { rewrite map_length; auto. }
    bsimp. rewrite advance_ok by (auto; lia). bsimp. cbn [coords]. rewrite E.
    apply IH; try lia.
    + eapply Forall_nth_error; eauto.
    + rewrite map_length; auto.
    + apply mod_forall.
Qed.

Lemma contains_node_path {A} D l : forall c (t : tree A), l <= 31 -> wf_tree D t ->
  length c = D -> Forall (fun x => x < 2 ^ l) c ->
  contains_node_level l c t =
    Ok (match node_path (path_of l c) t with Some _ => true | None => false end).
Proof.
  induction l as [|l IH]; intros c t Hl Hwf HL HF.
  - cbn [contains_node_level]. rewrite any_coord_zero by auto. reflexivity.
  - cbn [contains_node_level path_of node_path].
    destruct t as [a|cs]; cbn [has_value]; [reflexivity|].
    apply wf_node_inv in Hwf. destruct Hwf as [Hlen Hall].
    rewrite orthant_ok by lia. bsimp.
    destruct (child_at_ok D cs (map (fun x => negb (x / 2 ^ l =? 0)) c)) as (t' & E & ->); auto.
    { rewrite map_length; auto. }
    bsimp. rewrite advance_ok by (auto; lia). bsimp. cbn [coords]. rewrite E.
    apply IH; try lia.
    + eapply Forall_nth_error; eauto.
    + rewrite map_length; auto.
    + apply mod_forall.
Qed.

(** contains is defined unless the address stops at a branch. *)
Lemma contains_path {A} D l : forall c (t : tree A), l <= 31 -> wf_tree D t ->
  length c = D -> Forall (fun x => x < 2 ^ l) c ->
  contains_level l c t =
    match node_path (path_of l c) t with
    | Some (Leaf _) => Ok true
    | Some (Node _) => UB
    | None => Ok false
    end.
Proof.
  induction l as [|l IH]; intros c t Hl Hwf HL HF.
  - cbn [contains_level path_of node_path]. destruct t as [a|cs]; cbn [has_value]; [|reflexivity].
    rewrite any_coord_zero by auto. reflexivity.
  - cbn [contains_level path_of node_path].
    destruct t as [a|cs]; cbn [has_value]; [reflexivity|].
    apply wf_node_inv in Hwf. destruct Hwf as [Hlen Hall].
    rewrite orthant_ok by lia. bsimp.
    destruct (child_at_ok D cs (map (fun x => negb (x / 2 ^ l =? 0)) c)) as (t' & E & ->); auto.
    { rewrite map_length; auto. }
    bsimp. rewrite advance_ok by (auto; lia). bsimp. cbn [coords]. rewrite E.
    apply IH; try lia.
    + eapply Forall_nth_error; eauto.
    + rewrite map_length; auto.
    + apply mod_forall.
Qed.

(** ** Leaf paths *)

Fixpoint leaf_paths {A} (t : tree A) : list (list nat) :=
  match t with
  | Leaf _ => [[]]
  | Node cs => concat (mapi (fun k c => map (cons k) (leaf_paths c)) cs)
  end.

Definition ext (i : idx) (p : list nat) : idx := fold_left child_index p i.

Lemma ext_coords_gen p : forall i D, length (coords i) = D -> path_ok D p ->
  level (ext i p) = level i + length p /\
  coords (ext i p) = zipw (fun x y => x * 2 ^ length p + y) (coords i) (of_path D p).
Proof.
  induction p as [|k p IH]; intros i D HD Hp.
  - cbn [ext fold_left length of_path]. split; [lia|].
    subst D. generalize (coords i). clear. induction l; [reflexivity|]. cbn [length repeat zipw].
    f_equal; [simpl; lia|auto].
  - cbn [ext fold_left]. inversion Hp; subst.
    destruct (IH (child_index i k) (length (coords i))) as [E1 E2]; auto.
    { unfold child_index; cbn [coords]. rewrite zipw_length, bits_length. apply Nat.min_id. }
    unfold ext in *. split.
    + rewrite E1. unfold child_index; cbn [level]. simpl length; lia.
    + rewrite E2. unfold child_index; cbn [coords length of_path].
      rewrite Nat.pow_succ_r'.
      generalize (of_path (length (coords i)) p) as l.
      generalize (bits (length (coords i)) k) as m. generalize (coords i) as n. clear.
      induction n as [|x n IHn]; intros m l; [reflexivity|].
      destruct m as [|b m]; [destruct l; reflexivity|]. destruct l as [|y l]; [reflexivity|].
      cbn [zipw]. f_equal; [|apply IHn]. destruct b; cbn [Nat.b2n]; nia.
Qed.

Lemma ext_root D p : path_ok D p -> ext (root_index D) p = mkidx (length p) (of_path D p).
Proof.
  intros H. destruct (ext_coords_gen p (root_index D) D) as [E1 E2]; auto.
  { cbn [root_index coords]. apply repeat_length. }
  destruct (ext (root_index D) p) as [l c]. cbn [level coords root_index] in *. subst.
  f_equal.
  pose proof (of_path_length D p) as HL.
  revert HL. generalize (of_path D p) as y. generalize (2 ^ length p) as n. clear.
  intros n. induction D as [|D IH]; intros [|y l] HL; simpl in *; try discriminate; auto.
  f_equal. apply IH. lia.
Qed.


Lemma leaves_indexes_from {A} (t : tree A) : forall i,
  leaves (indexes_from i t) = map (ext i) (leaf_paths t).
Proof.
  induction t as [a|cs IH] using tree_ind'; intros i; [reflexivity|].
  cbn [indexes_from leaves leaf_paths]. unfold mapi. generalize 0 as k.
  induction IH as [|c cs Hc Hcs IHcs]; intros k; [reflexivity|].
  cbn [mapi_from flat_map concat]. rewrite map_app, IHcs, Hc, map_map. f_equal.
Qed.

Lemma leaf_paths_in {A} (t : tree A) : forall p,
  In p (leaf_paths t) <-> exists v, node_path p t = Some (Leaf v).
Proof.
  induction t as [a|cs IH] using tree_ind'; intros p.
  - cbn [leaf_paths In]. split.
    + intros [<-|[]]. exists a. reflexivity.
    + intros [v Hv]. destruct p; [auto|discriminate].
  - cbn [leaf_paths]. rewrite in_concat. split.
    + intros (l & Hl & Hp). apply In_nth_error in Hl. destruct Hl as [n Hn].
      rewrite nth_error_mapi in Hn. destruct (nth_error cs n) as [c|] eqn:E; [|discriminate].
      cbn [option_map] in Hn. inversion Hn; subst. apply in_map_iff in Hp.
      destruct Hp as (q & <- & Hq). cbn [node_path]. rewrite E.
      rewrite Forall_forall in IH. apply (IH c (nth_error_In _ _ E)). exact Hq.
    + intros [v Hv]. destruct p as [|k p]; [discriminate|]. cbn [node_path] in Hv.
      destruct (nth_error cs k) as [c|] eqn:E; [|discriminate].
      exists (map (cons k) (leaf_paths c)). split.
      * apply nth_error_In with k. rewrite nth_error_mapi, E. reflexivity.
      * apply in_map. rewrite Forall_forall in IH. apply (IH c (nth_error_In _ _ E)). eauto.
Qed.

Lemma leaf_paths_ok {A} D (t : tree A) : wf_tree D t -> Forall (path_ok D) (leaf_paths t).
Proof.
  intros Hwf. apply Forall_forall. intros p Hp. apply leaf_paths_in in Hp. destruct Hp as [v Hv].
  revert t Hwf v Hv. induction p as [|k p IH]; intros t Hwf v Hv; [constructor|].
  destruct t as [a|cs]; [discriminate|]. cbn [node_path] in Hv.
  destruct (nth_error cs k) as [c|] eqn:E; [|discriminate].
  apply wf_node_inv in Hwf. destruct Hwf as [HL HF]. constructor.
  - rewrite <- HL. apply nth_error_Some. congruence.
  - eapply IH; eauto. eapply Forall_nth_error; eauto.
Qed.

Lemma NoDup_app_disj {A} (l m : list A) :
  NoDup l -> NoDup m -> (forall x, In x l -> In x m -> False) -> NoDup (l ++ m).
Proof.
  induction 1 as [|x l Hx Hl IH]; intros Hm HD; [exact Hm|].
  cbn [app]. constructor.
  - rewrite in_app_iff. intros [H|H]; [auto|]. eapply HD; [left; reflexivity|exact H].
  - apply IH; auto. intros y Hy1 Hy2. eapply HD; [right; eauto|eauto].
Qed.

Lemma leaf_paths_nodup {A} (t : tree A) : NoDup (leaf_paths t).
Proof.
  induction t as [a|cs IH] using tree_ind'.
  - cbn [leaf_paths]. constructor; [intros []|constructor].
  - cbn [leaf_paths]. unfold mapi. generalize 0 as k.
    induction IH as [|c cs Hc Hcs IHcs]; intros k; [constructor|].
    cbn [mapi_from concat]. apply NoDup_app_disj.
    + apply FinFun.Injective_map_NoDup; [|exact Hc]. intros x y H; inversion H; auto.
    + apply IHcs.
    + intros p Hp1 Hp2. apply in_map_iff in Hp1. destruct Hp1 as (q & <- & _).
      apply in_concat in Hp2. destruct Hp2 as (l & Hl & Hp2).
      apply In_nth_error in Hl. destruct Hl as [n Hn]. rewrite nth_error_mapi_from in Hn.
      destruct (nth_error cs n) as [c'|]; [|discriminate]. inversion Hn; subst.
      apply in_map_iff in Hp2. destruct Hp2 as (q' & E & _). inversion E. lia.
Qed.

Lemma leaf_paths_leaves {A} (t : tree A) :
  Forall2 (fun p v => node_path p t = Some (Leaf v)) (leaf_paths t) (leaves t).
Proof.
  induction t as [a|cs IH] using tree_ind'.
  - constructor; [reflexivity|constructor].
  - cbn [leaf_paths leaves]. unfold mapi.
    enough (G : forall pre, Forall2 (fun p v => node_path p (Node (pre ++ cs)) = Some (Leaf v))
              (concat (mapi_from (fun k c => map (cons k) (leaf_paths c)) (length pre) cs))
              (flat_map leaves cs)) by (apply (G [])).
    induction IH as [|c cs Hc Hcs IHcs]; intros pre; [constructor|].
    cbn [mapi_from concat flat_map]. apply Forall2_app.
    + clear IHcs. induction Hc as [|p v ps vs Hpv Hr IHr]; constructor; [|exact IHr].
      cbn [node_path]. rewrite nth_error_app2 by lia. rewrite Nat.sub_diag. exact Hpv.
    + specialize (IHcs (pre ++ [c])). rewrite app_length in IHcs. cbn [length] in IHcs.
      rewrite Nat.add_1_r in IHcs. rewrite <- app_assoc in IHcs. exact IHcs.
Qed.

Lemma size_leaves {A} (t : tree A) : size t = length (leaves t).
Proof.
  induction t as [a|cs IH] using tree_ind'; [reflexivity|].
  cbn [size leaves]. induction IH as [|c cs Hc Hcs IHcs]; [reflexivity|].
  cbn [map list_sum fold_right flat_map]. rewrite app_length. unfold list_sum in IHcs.
  rewrite <- IHcs, Hc. reflexivity.
Qed.

Lemma depth_path {A} (t : tree A) : forall p n, node_path p t = Some n -> length p + depth n <= depth t.
Proof.
  induction t as [a|cs IH] using tree_ind'; intros p n Hp.
  - destruct p; [|discriminate]. inversion Hp; subst. simpl; lia.
  - destruct p as [|k p]; [inversion Hp; subst; simpl; lia|].
    cbn [node_path] in Hp. destruct (nth_error cs k) as [c|] eqn:E; [|discriminate].
    pose proof (nth_error_In _ _ E) as HI.
    rewrite Forall_forall in IH. pose proof (IH c HI p n Hp).
    cbn [depth length].
    assert (depth c <= list_max (map depth cs)).
    { pose proof (proj1 (list_max_le (map depth cs) (list_max (map depth cs))) (le_n _)) as HF.
      rewrite Forall_forall in HF. apply HF. apply in_map. exact HI. }
    lia.
Qed.

Lemma same_shape_indexes_from {A} (t : tree A) : forall i, same_shape (indexes_from i t) t.
Proof.
  induction t as [a|cs IH] using tree_ind'; intros i; [constructor|].
  cbn [indexes_from]. constructor. unfold mapi. generalize 0 as k.
  induction IH as [|c cs Hc Hcs IHcs]; intros k; constructor; auto.
Qed.

(** ** Addresses and paths *)

Lemma in_range_path D i : in_range D i ->
  exists p, path_ok D p /\ length p = level i /\ i = mkidx (length p) (of_path D p) /\
    p = path_of (level i) (coords i).
Proof.
  intros [HL HF]. exists (path_of (level i) (coords i)).
  split; [apply path_of_ok; auto|]. rewrite path_of_length. split; [reflexivity|]. split; [|reflexivity].
  rewrite of_path_path_of by auto. destruct i; reflexivity.
Qed.

Lemma path_in_range D p : in_range D (mkidx (length p) (of_path D p)).
Proof. split; cbn [level coords]; [apply of_path_length|apply of_path_bound]. Qed.

Lemma of_path_inj D p q : path_ok D p -> path_ok D q -> length p = length q ->
  of_path D p = of_path D q -> p = q.
Proof.
  intros Hp Hq HL HE. rewrite <- (path_of_of_path D p), <- (path_of_of_path D q) by auto.
  rewrite HL, HE. reflexivity.
Qed.

Lemma at_path {A} D (t : tree A) p : wf_tree D t -> path_ok D p -> length p <= 31 ->
  at_ t (mkidx (length p) (of_path D p)) =
    match node_path p t with
    | Some (Leaf v) => Ok v
    | Some (Node _) => Throw BadVariantAccess
    | None => Throw OutOfRange
    end.
Proof.
  intros Hwf Hp HL. unfold at_, node_at; cbn [level coords].
  rewrite (node_at_path D) by (auto using of_path_length, of_path_bound).
  rewrite path_of_of_path by auto. destruct (node_path p t) as [[]|]; reflexivity.
Qed.

Lemma Forall2_map_l {A B C} (R : B -> C -> Prop) (f : A -> B) l m :
  Forall2 (fun a c => R (f a) c) l m -> Forall2 R (map f l) m.
Proof. induction 1; constructor; auto. Qed.

Lemma Forall2_impl_In {A B} (R S : A -> B -> Prop) l m :
  Forall2 R l m -> (forall a b, In a l -> In b m -> R a b -> S a b) -> Forall2 S l m.
Proof.
  induction 1; intros H1; constructor; [apply H1; simpl; auto|].
  apply IHForall2. intros; apply H1; simpl; auto.
Qed.

Lemma Forall2_In_l {A B} (R : A -> B -> Prop) l m a : Forall2 R l m -> In a l -> exists b, In b m /\ R a b.
Proof.
  induction 1; intros []; subst; [exists y; simpl; auto|].
  destruct IHForall2 as (b & ? & ?); auto. exists b; simpl; auto.
Qed.

Lemma lookup_leaves {A} D (t : tree A) : wf_tree D t -> depth t <= 31 ->
  Forall2 (fun i v => at_ t i = Ok v) (leaves (indexes D t)) (leaves t).
Proof.
  intros Hwf Hd. unfold indexes. rewrite leaves_indexes_from. apply Forall2_map_l.
  eapply Forall2_impl_In; [apply leaf_paths_leaves|]. intros p v Hp _ Hpv. cbv beta in *.
  pose proof (leaf_paths_ok D t Hwf) as HO. rewrite Forall_forall in HO.
  rewrite ext_root by auto. rewrite at_path; auto.
  - rewrite Hpv. reflexivity.
  - apply depth_path in Hpv. simpl in Hpv. lia.
Qed.

Lemma indexes_in_range {A} D (t : tree A) : wf_tree D t ->
  Forall (in_range D) (leaves (indexes D t)).
Proof.
  intros Hwf. unfold indexes. rewrite leaves_indexes_from. apply Forall_forall.
  intros i Hi. apply in_map_iff in Hi. destruct Hi as (p & <- & Hp).
  pose proof (leaf_paths_ok D t Hwf) as HO. rewrite Forall_forall in HO.
  rewrite ext_root by auto. apply path_in_range.
Qed.

Lemma indexes_nodup {A} D (t : tree A) : wf_tree D t -> NoDup (leaves (indexes D t)).
Proof.
  intros Hwf. unfold indexes. rewrite leaves_indexes_from.
  pose proof (leaf_paths_ok D t Hwf) as HO. rewrite Forall_forall in HO.
  pose proof (leaf_paths_nodup t) as HN.
  revert HO HN. generalize (leaf_paths t). induction l as [|p l IH]; intros HO HN; [constructor|].
  inversion HN; subst. cbn [map]. constructor.
  - intros Hi. apply in_map_iff in Hi. destruct Hi as (q & E & Hq).
    rewrite !ext_root in E by (apply HO; simpl; auto). inversion E.
    assert (q = p) by (apply (of_path_inj D); try (apply HO; simpl; auto); auto). subst. auto.
  - apply IH; auto. intros; apply HO; simpl; auto.
Qed.

(** ** Covering *)

Lemma map_div_of_path D p q : map (fun c => c / 2 ^ length q) (of_path D (p ++ q)) = of_path D p.
Proof.
  induction p as [|k p IH]; cbn [app of_path].
  - pose proof (of_path_bound D q) as HB. pose proof (of_path_length D q) as HL.
    revert HB HL. generalize (of_path D q). intros l. revert D.
    induction l as [|x l IHl]; intros D HB HL; destruct D; simpl in HL; try discriminate; [reflexivity|].
    inversion HB; subst. cbn [map repeat]. f_equal; [apply Nat.div_small; auto|auto].
  - rewrite <- IH, app_length, Nat.pow_add_r.
    generalize (bits D k). pose proof (pow2_pos (length q)) as HP.
    generalize (of_path D (p ++ q)) as l.
    induction l as [|x l IHl]; intros m; destruct m as [|b m]; cbn [zipw map]; try reflexivity.
    f_equal; [|apply IHl].
    rewrite Nat.mul_assoc, Nat.div_add_l by lia. reflexivity.
Qed.

Lemma covers_prefix D p q : path_ok D p -> path_ok D q ->
  (covers (mkidx (length p) (of_path D p)) (mkidx (length q) (of_path D q)) <-> exists r, q = p ++ r).
Proof.
  intros Hp Hq. unfold covers; cbn [level coords]. split.
  - intros [HL HE]. exists (skipn (length p) q).
    rewrite <- (firstn_skipn (length p) q) at 1. f_equal.
    apply (of_path_inj D); auto.
    + unfold path_ok in *. rewrite Forall_forall in *. intros x Hx. apply Hq.
      rewrite <- (firstn_skipn (length p) q). apply in_or_app. auto.
    + apply firstn_length_le. exact HL.
    + rewrite HE. rewrite <- (map_div_of_path D (firstn (length p) q) (skipn (length p) q)).
      rewrite firstn_skipn. rewrite skipn_length. reflexivity.
  - intros [r ->]. rewrite app_length. split; [lia|].
    replace (length p + length r - length p) with (length r) by lia.
    symmetry. apply map_div_of_path.
Qed.

Lemma node_path_app {A} p : forall q (t : tree A),
  node_path (p ++ q) t = match node_path p t with Some n => node_path q n | None => None end.
Proof.
  induction p as [|k p IH]; intros q t; [reflexivity|].
  cbn [app node_path]. destruct t as [|cs]; [reflexivity|]. destruct (nth_error cs k); auto.
Qed.

(** A path names a node, or passes strictly through a leaf. *)
Lemma path_cases {A} D q : forall (t : tree A), wf_tree D t -> path_ok D q ->
  (exists n, node_path q t = Some n) \/
  (exists p r v, q = p ++ r /\ r <> [] /\ node_path p t = Some (Leaf v)).
Proof.
  induction q as [|k q IH]; intros t Hwf Hq; [left; eexists; reflexivity|].
  inversion Hq; subst. destruct t as [a|cs].
  - right. exists [], (k :: q), a. split; [reflexivity|]. split; [discriminate|reflexivity].
  - apply wf_node_inv in Hwf. destruct Hwf as [HL HF]. cbn [node_path].
    destruct (nth_error cs k) as [c|] eqn:E.
    + destruct (IH c) as [[n Hn]|(p & r & v & -> & Hr & Hp)]; auto.
      * eapply Forall_nth_error; eauto.
      * left; eauto.
      * right. exists (k :: p), r, v. split; [reflexivity|]. split; [exact Hr|].
        cbn [node_path]. rewrite E. exact Hp.
    + apply nth_error_None in E. lia.
Qed.

Lemma leaf_prefix_unique {A} (t : tree A) p1 p2 r1 r2 v1 v2 :
  p1 ++ r1 = p2 ++ r2 -> node_path p1 t = Some (Leaf v1) -> node_path p2 t = Some (Leaf v2) -> p1 = p2.
Proof.
  revert t p2. induction p1 as [|k p1 IH]; intros t p2 HE H1 H2.
  - destruct p2 as [|k2 p2]; [reflexivity|]. inversion H1; subst. discriminate.
  - destruct p2 as [|k2 p2].
    + inversion H2; subst. discriminate.
    + cbn [app] in HE. inversion HE; subst. f_equal.
      destruct t as [|cs]; [discriminate|]. cbn [node_path] in *.
      destruct (nth_error cs k2); [|discriminate]. eapply IH; eauto.
Qed.

Lemma in_indexes_iff {A} D (t : tree A) i : wf_tree D t ->
  (In i (leaves (indexes D t)) <->
   exists p v, path_ok D p /\ i = mkidx (length p) (of_path D p) /\ node_path p t = Some (Leaf v)).
Proof.
  intros Hwf. unfold indexes. rewrite leaves_indexes_from, in_map_iff.
  pose proof (leaf_paths_ok D t Hwf) as HO. rewrite Forall_forall in HO. split.
  - intros (p & <- & Hp). pose proof (HO p Hp). apply leaf_paths_in in Hp. destruct Hp as [v Hv].
    exists p, v. rewrite ext_root by auto. auto.
  - intros (p & v & Hp & -> & Hv). exists p. rewrite ext_root by auto. split; [reflexivity|].
    apply leaf_paths_in. eauto.
Qed.

Lemma tiling_deep {A} D (t : tree A) j : wf_tree D t -> in_range D j -> depth t <= level j ->
  exists i, In i (leaves (indexes D t)) /\ covers i j /\
    forall i', In i' (leaves (indexes D t)) -> covers i' j -> i' = i.
Proof.
  intros Hwf Hj Hd. destruct (in_range_path D j Hj) as (q & Hq & HL & -> & _). cbn [level] in *.
  assert (HE : exists p r v, q = p ++ r /\ node_path p t = Some (Leaf v)).
  { destruct (path_cases D q t Hwf Hq) as [[n Hn]|(p & r & v & E & _ & Hp)].
    - destruct n as [v|cs].
      + exists q, [], v. rewrite app_nil_r. auto.
      + exfalso. apply depth_path in Hn. cbn [depth] in Hn. lia.
    - exists p, r, v. auto. }
  destruct HE as (p & r & v & E & Hp).
  assert (Hpo : path_ok D p).
  { subst q. unfold path_ok in *. rewrite Forall_app in Hq. tauto. }
  exists (mkidx (length p) (of_path D p)). split; [|split].
  - apply in_indexes_iff; auto. exists p, v. auto.
  - apply covers_prefix; auto. exists r. exact E.
  - intros i' Hi' Hc. apply in_indexes_iff in Hi'; auto.
    destruct Hi' as (p' & v' & Hp' & -> & Hv'). apply covers_prefix in Hc; auto.
    destruct Hc as [r' E']. assert (p' = p) as ->; [|reflexivity].
    apply (leaf_prefix_unique t p' p r' r v' v); auto. congruence.
Qed.

Lemma tiling_any {A} D (t : tree A) j : wf_tree D t -> in_range D j -> level j <= 31 ->
  (exists n, node_at t j = Ok n) \/
  (node_at t j = Throw OutOfRange /\
   exists i, In i (leaves (indexes D t)) /\ covers i j /\ level i < level j /\
    forall i', In i' (leaves (indexes D t)) -> covers i' j -> i' = i).
Proof.
  intros Hwf Hj Hl. destruct (in_range_path D j Hj) as (q & Hq & HL & -> & _). cbn [level] in *.
  unfold node_at; cbn [level coords].
  rewrite (node_at_path D) by (auto using of_path_length, of_path_bound).
  rewrite path_of_of_path by auto.
  destruct (path_cases D q t Hwf Hq) as [[n Hn]|(p & r & v & E & Hr & Hp)].
  - left. rewrite Hn. eauto.
  - right.
    assert (Hpo : path_ok D p).
    { subst q. unfold path_ok in *. rewrite Forall_app in Hq. tauto. }
    split.
    { rewrite E, node_path_app, Hp. destruct r; [contradiction|reflexivity]. }
    exists (mkidx (length p) (of_path D p)). split; [|split; [|split]].
    + apply in_indexes_iff; auto. exists p, v. auto.
    + apply covers_prefix; auto. exists r. exact E.
    + cbn [level]. rewrite E, app_length. destruct r; [contradiction|simpl; lia].
    + intros i' Hi' Hc. apply in_indexes_iff in Hi'; auto.
      destruct Hi' as (p' & v' & Hp' & -> & Hv'). apply covers_prefix in Hc; auto.
      destruct Hc as [r' E']. assert (p' = p) as ->; [|reflexivity].
      apply (leaf_prefix_unique t p' p r' r v' v); auto. congruence.
Qed.
