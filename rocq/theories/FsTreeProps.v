(** C101: removing directory trees, and the tests for files and directories. *)
From Coq Require Import List Arith Bool ZArith Lia Permutation.
From Verif Require Import Base FsTreeModel.
Import ListNotations.
Close Scope Z_scope.
Open Scope nat_scope.

(** A tree without links in which the entries of every directory have different names. *)
Fixpoint plain (t : node) : Prop :=
  match t with
  | Other _ => True
  | Link _ _ => False
  | Dir es => NoDup (map fst es) /\ (fix all (l : list (name * node)) : Prop := match l with [] => True | e :: l' => plain (snd e) /\ all l' end) es
  end.
Fixpoint depth (t : node) : nat :=
  match t with Dir es => S ((fix most (l : list (name * node)) : nat := match l with [] => 0 | e :: l' => Nat.max (depth (snd e)) (most l') end) es) | _ => 0 end.

Lemma plain_dir es : plain (Dir es) <-> NoDup (map fst es) /\ forall e, In e es -> plain (snd e).
Proof.
  cbn. assert (A : forall l, (fix all (l : list (name * node)) : Prop := match l with [] => True | e :: l' => plain (snd e) /\ all l' end) l <-> forall e, In e l -> plain (snd e)).
  { induction l as [|a l IH]; cbn; [split; intros; [contradiction|exact I]|]. rewrite IH. split; [intros [H K] e [<-|E]; auto|intros H; split; auto]. }
  rewrite A. reflexivity.
Qed.
Lemma depth_in es e : In e es -> depth (snd e) < depth (Dir es).
Proof.
  intros H. cbn. apply le_n_S. induction es as [|a l IH]; [contradiction|]. destruct H as [->|H]; cbn; [lia|]. specialize (IH H). lia.
Qed.
Lemma depth_tail e es : depth (Dir es) <= depth (Dir (e :: es)).
Proof. cbn. lia. Qed.

Lemma at_app t p q : at_path t (p ++ q) = match at_path t p with Some c => at_path c q | None => None end.
Proof. revert t. induction p as [|n p IH]; intros t; cbn; [reflexivity|]. destruct t; try reflexivity. destruct (entry entries n); [apply IH|reflexivity]. Qed.
Lemma entry_cons m c es n : entry ((m, c) :: es) n = if m =? n then Some c else entry es n.
Proof. unfold entry. cbn. destruct (m =? n); reflexivity. Qed.

(** Resolution of a path without links. *)
Lemma walk_plain b root follow cur rest t : at_path root (cur ++ rest) = Some t -> (follow = true -> match t with Link _ _ => False | _ => True end) ->
  walk b root follow cur rest = Some (cur ++ rest).
Proof.
  intros H K. revert cur H. induction rest as [|n rest IH]; intros cur H; [rewrite app_nil_r; destruct b; reflexivity|].
  assert (E : cur ++ n :: rest = (cur ++ [n]) ++ rest) by (rewrite <- app_assoc; reflexivity).
  assert (S : exists c, at_path root (cur ++ [n]) = Some c /\ at_path c rest = Some t). { rewrite E, at_app in H. destruct (at_path root (cur ++ [n])) as [c|]; [|discriminate]. exists c. auto. }
  destruct S as (c & S1 & S2). rewrite E in *. specialize (IH _ H).
  assert (W : walk b root follow cur (n :: rest) = match c with Link absolute target => if negb follow && (length rest =? 0) then Some (cur ++ [n]) else match b with O => None | S b' => walk b' root follow (if absolute then [] else cur) (target ++ rest) end | _ => walk b root follow (cur ++ [n]) rest end).
  { destruct b; cbn; rewrite S1; reflexivity. }
  rewrite W. destruct c as [k|a tg|es]; [exact IH| |exact IH]. destruct rest as [|m rest]; [|discriminate S2]. cbn in S2. injection S2 as <-. cbn. destruct follow; [destruct (K eq_refl)|]. cbn. rewrite <- E. reflexivity.
Qed.
Lemma resolve_plain root follow p t : at_path root p = Some t -> (follow = true -> match t with Link _ _ => False | _ => True end) -> resolve root follow p = Some p.
Proof. intros H K. exact (walk_plain 40 root follow [] p t H K). Qed.

(** What deleting leaves. *)
Lemma entry_filter es n m : entry (filter (fun e => negb (fst e =? n)) es) m = if m =? n then None else entry es m.
Proof.
  induction es as [|[a c] es IH]; cbn; [destruct (m =? n); reflexivity|]. destruct (a =? n) eqn:E; cbn.
  - rewrite IH. apply Nat.eqb_eq in E as ->. rewrite entry_cons. destruct (m =? n) eqn:F; [reflexivity|]. rewrite Nat.eqb_sym, F. reflexivity.
  - rewrite !entry_cons, IH. destruct (a =? m) eqn:F; [|reflexivity]. apply Nat.eqb_eq in F as ->. rewrite E. reflexivity.
Qed.
Lemma entry_map es n g m : entry (map (fun e => if fst e =? n then (fst e, g (snd e)) else e) es) m = match entry es m with Some c => Some (if m =? n then g c else c) | None => None end.
Proof.
  induction es as [|[a c] es IH]; cbn [map]; [reflexivity|]. cbn [fst snd]. destruct (a =? n) eqn:E; rewrite !entry_cons, IH; destruct (a =? m) eqn:F; try reflexivity; apply Nat.eqb_eq in F as ->; rewrite E; reflexivity.
Qed.
Lemma del_cons es n m p : del (Dir es) (n :: m :: p) = Dir (map (fun e => if fst e =? n then (fst e, del (snd e) (m :: p)) else e) es).
Proof. reflexivity. Qed.
(** The path [p] is a part of the path [q]. *)
Definition under (p q : path) : Prop := exists r, q = p ++ r.

Lemma at_del_under p : forall root r, p <> [] -> at_path (del root p) (p ++ r) = None.
Proof.
  induction p as [|n p IH]; intros root r H; [congruence|]. destruct root as [k|a t|es]; try reflexivity. destruct p as [|m p].
  - cbn. rewrite entry_filter, Nat.eqb_refl. reflexivity.
  - rewrite del_cons. cbn [app at_path]. rewrite (entry_map es n (fun c => del c (m :: p))), Nat.eqb_refl. destruct (entry es n) as [c|]; [|reflexivity]. apply IH. discriminate.
Qed.
Lemma at_del_apart p : forall root q, ~ under p q -> ~ under q p -> at_path (del root p) q = at_path root q.
Proof.
  induction p as [|n p IH]; intros root q H K; [destruct H; exists q; reflexivity|]. destruct root as [k|a t|es]; try reflexivity. destruct q as [|m q]; [destruct K; exists (n :: p); reflexivity|].
  destruct (Nat.eq_dec m n) as [->|N].
  - destruct p as [|m p]; [destruct H; exists q; reflexivity|]. rewrite del_cons. cbn [at_path]. rewrite (entry_map es n (fun c => del c (m :: p))), Nat.eqb_refl. destruct (entry es n) as [c|]; [|reflexivity]. apply IH.
    + intros [r E]. apply H. exists r. rewrite E. reflexivity.
    + intros [r E]. apply K. exists r. rewrite E. reflexivity.
  - assert (Nb : (m =? n) = false) by (apply Nat.eqb_neq; exact N). destruct p as [|m' p]; [cbn; rewrite entry_filter, Nb; reflexivity|]. rewrite del_cons. cbn [at_path]. rewrite (entry_map es n (fun c => del c (m' :: p))), Nb. destruct (entry es m); reflexivity.
Qed.
(** A directory above loses nothing else. *)
Lemma at_del_above p : forall root q es, q <> p -> under q p -> at_path root q = Some (Dir es) -> exists es', at_path (del root p) q = Some (Dir es') /\
  forall m, q ++ [m] <> p -> In m (map fst es) -> In m (map fst es').
Proof.
  induction p as [|n p IH]; intros root q es N U A. { destruct U as [r E]. destruct q; [congruence|discriminate]. }
  destruct root as [k|a t|rs]; [exists es; split; [exact A|auto]|exists es; split; [exact A|auto]|]. destruct q as [|m q].
  - cbn in A. injection A as ->. destruct p as [|m p]; eexists; (split; [reflexivity|]); intros x Hx I.
    + apply in_map_iff in I as (e & <- & Ie). apply in_map, filter_In. split; [exact Ie|]. apply negb_true_iff, Nat.eqb_neq. intros E. apply Hx. cbn. f_equal. exact E.
    + apply in_map_iff in I as (e & <- & Ie). rewrite map_map. apply in_map_iff. exists e. split; [|exact Ie]. match goal with |- context [if ?b then _ else _] => destruct b end; reflexivity.
  - destruct U as [r E]. cbn in E. injection E as <- E. destruct p as [|m' p]; [destruct q; [congruence|discriminate E]|]. rewrite del_cons. cbn [at_path] in *. rewrite (entry_map rs n (fun c => del c (m' :: p))), Nat.eqb_refl.
    destruct (entry rs n) as [c|]; [|discriminate A]. destruct (IH c q es) as (es' & E1 & E2); [congruence|exists r; exact E|exact A|]. exists es'. split; [exact E1|]. intros x Hx. apply E2. intros F. apply Hx. cbn. rewrite F. reflexivity.
Qed.
Lemma at_del_parent p n : forall root es, at_path root p = Some (Dir es) -> at_path (del root (p ++ [n])) p = Some (Dir (filter (fun e => negb (fst e =? n)) es)).
Proof.
  induction p as [|m p IH]; intros root es A; [cbn in A; injection A as ->; reflexivity|]. destruct root as [k|a t|rs]; try discriminate A. cbn [app]. cbn [at_path] in A. destruct (entry rs m) as [c|] eqn:E; [|discriminate A].
  assert (Q : del (Dir rs) (m :: p ++ [n]) = Dir (map (fun e => if fst e =? m then (fst e, del (snd e) (p ++ [n])) else e) rs)) by (destruct p; reflexivity). rewrite Q. cbn [at_path]. rewrite (entry_map rs m (fun c => del c (p ++ [n]))), Nat.eqb_refl, E. apply IH, A.
Qed.
Lemma del_parent p n : forall root, p <> [] -> del (del root (p ++ [n])) p = del root p.
Proof.
  induction p as [|m p IH]; intros root H; [congruence|]. destruct root as [k|a t|rs]; try reflexivity. cbn [app].
  assert (Q : del (Dir rs) (m :: p ++ [n]) = Dir (map (fun e => if fst e =? m then (fst e, del (snd e) (p ++ [n])) else e) rs)) by (destruct p; reflexivity). rewrite Q. destruct p as [|m' p].
  - cbn. f_equal. induction rs as [|[a c] rs IHr]; cbn; [reflexivity|]. destruct (a =? m) eqn:E; cbn; rewrite E; cbn; [apply IHr; reflexivity|f_equal; apply IHr; reflexivity].
  - rewrite !del_cons. f_equal. rewrite map_map. apply map_ext. intros [a c]. cbn [fst snd]. destruct (a =? m) eqn:E; cbn [fst snd]; rewrite E; [|reflexivity]. f_equal. apply IH. discriminate.
Qed.

Definition remove_loop (f : nat) (p : path) : list name -> node -> outcome (Z * node) :=
  fix loop (ns : list name) (root : node) : outcome (Z * node) :=
    match ns with
    | [] => Ok (0%Z, root)
    | n :: ns' =>
        do r <- match stat root (p ++ [n]) with None => Ok ((-1)%Z, root) | Some (Dir _) => remove_recurse f root (p ++ [n]) | Some _ => Ok (unlink root (p ++ [n])) end;
        if (fst r =? 0)%Z then loop ns' (snd r) else Ok r
    end.
Lemma remove_unfold f root p : remove_recurse (S f) root p =
  match opendir root p with None => Ok ((-1)%Z, root) | Some ns => do r <- remove_loop f p ns root; Ok (if (fst r =? 0)%Z then rmdir (snd r) p else r) end.
Proof. reflexivity. Qed.

Lemma remove_tree f : forall root p es, p <> [] -> at_path root p = Some (Dir es) -> plain (Dir es) -> depth (Dir es) <= f -> remove_recurse f root p = Ok (0%Z, del root p).
Proof.
  induction f as [|f IH]; intros root p es Hp A P D; [cbn in D; lia|]. rewrite remove_unfold. unfold opendir. rewrite (resolve_plain root true p _ A) by (intros; exact I). rewrite A.
  assert (L : forall es' r, at_path r p = Some (Dir es') -> plain (Dir es') -> depth (Dir es') <= S f -> del r p = del root p -> exists r', remove_loop f p (map fst es') r = Ok (0%Z, r') /\ at_path r' p = Some (Dir []) /\ del r' p = del root p).
  { induction es' as [|[n c] es' IHl]; intros r A' P' D' E'; [exists r; auto|].
    assert (P1 := P'). rewrite plain_dir in P1. destruct P1 as [N1 P1]. cbn [map fst] in N1. inversion N1 as [|? ? N2 N3]; subst.
    assert (An : at_path r (p ++ [n]) = Some c). { rewrite at_app, A'. cbn. rewrite entry_cons, Nat.eqb_refl. reflexivity. }
    assert (Pc : plain c) by (apply (P1 (n, c)); left; reflexivity).
    assert (F : filter (fun e : nat * node => negb (fst e =? n)) ((n, c) :: es') = es').
    { cbn. rewrite Nat.eqb_refl. cbn. clear - N2. induction es' as [|[a d] l IHl]; cbn; [reflexivity|]. destruct (a =? n) eqn:E; [apply Nat.eqb_eq in E as ->; destruct N2; left; reflexivity|]. cbn. f_equal. apply IHl. intros H. apply N2. right. exact H. }
    assert (St : stat r (p ++ [n]) = Some c). { unfold stat. rewrite (resolve_plain r true _ _ An); [exact An|]. intros _. destruct c; try exact I. destruct Pc. }
    assert (Res : (match c with Dir _ => remove_recurse f r (p ++ [n]) | _ => Ok (unlink r (p ++ [n])) end) = Ok (0%Z, del r (p ++ [n]))).
    { destruct c as [k|a t|cs]; [|destruct Pc|].
      - unfold unlink. rewrite (resolve_plain r false _ _ An) by discriminate. rewrite An. reflexivity.
      - apply (IH r (p ++ [n]) cs); [destruct p; discriminate|exact An|exact Pc|]. pose proof (depth_in ((n, Dir cs) :: es') (n, Dir cs) (or_introl eq_refl)) as Dd. cbn [snd] in Dd. lia. }
    pose proof (at_del_parent p n r _ A') as A2. rewrite F in A2.
    destruct (IHl (del r (p ++ [n])) A2) as (r' & R1 & R2 & R3).
    - rewrite plain_dir. split; [exact N3|]. intros e He. apply P1. right. exact He.
    - pose proof (depth_tail (n, c) es'). lia.
    - rewrite (del_parent p n r Hp). exact E'.
    - exists r'. split; [|auto]. cbn [map fst remove_loop]. rewrite St. replace (match c with Other _ => Ok (unlink r (p ++ [n])) | Link _ _ => Ok (unlink r (p ++ [n])) | Dir _ => remove_recurse f r (p ++ [n]) end) with (Ok (0%Z, del r (p ++ [n]))) by (destruct c; symmetry; exact Res).
      cbn [bind fst snd]. exact R1. }
  destruct (L es root A P D eq_refl) as (r' & R1 & R2 & R3). rewrite R1. cbn [bind fst snd]. rewrite Z.eqb_refl. unfold rmdir. rewrite (resolve_plain r' false p _ R2) by discriminate.
  destruct p as [|n p]; [congruence|]. rewrite R2, R3. reflexivity.
Qed.

(** remove_recurse on a directory whose tree has no links: it returns 0, nothing is left at or under the path, what is elsewhere is
    as before, and the directories above keep their other entries. *)
Theorem removes_exactly_the_tree root p es fuel : p <> [] -> at_path root p = Some (Dir es) -> plain (Dir es) -> depth (Dir es) <= fuel ->
  exists root', remove_recurse fuel root p = Ok (0%Z, root') /\
    (forall q, under p q -> at_path root' q = None) /\
    (forall q, ~ under p q -> ~ under q p -> at_path root' q = at_path root q) /\
    (forall q qs, q <> p -> under q p -> at_path root q = Some (Dir qs) -> exists qs', at_path root' q = Some (Dir qs') /\ forall m, q ++ [m] <> p -> In m (map fst qs) -> In m (map fst qs')).
Proof.
  intros Hp A P D. exists (del root p). split; [exact (remove_tree fuel root p es Hp A P D)|]. split; [|split].
  - intros q [r ->]. apply at_del_under, Hp.
  - intros q H K. apply at_del_apart; assumption.
  - intros q qs N U Q. eapply at_del_above; eassumption.
Qed.
(** On anything that is not a directory it fails and changes nothing. *)
Theorem remove_not_a_directory root p fuel : (forall es, stat root p <> Some (Dir es)) -> 0 < fuel -> remove_recurse fuel root p = Ok ((-1)%Z, root).
Proof.
  intros H F. destruct fuel as [|f]; [lia|]. rewrite remove_unfold. unfold opendir. unfold stat in H. destruct (resolve root true p) as [q|]; [|reflexivity]. destruct (at_path root q) as [[k|a t|es]|] eqn:E; try reflexivity. destruct (H es eq_refl).
Qed.

(** With links it is another matter: a link to a directory elsewhere has the contents of that directory removed, and the call
    fails with the tree still there. *)
Theorem remove_through_link_refuted : exists root root', at_path root [2; 1] = Some (Other Regular) /\ at_path root [1] = Some (Dir [(1, Link true [2])]) /\
  remove_recurse 10 root [1] = Ok ((-1)%Z, root') /\ at_path root' [2; 1] = None /\ at_path root' [1] = Some (Dir [(1, Link true [2])]).
Proof.
  exists (Dir [(1, Dir [(1, Link true [2])]); (2, Dir [(1, Other Regular)])]). eexists. repeat split; vm_compute; reflexivity.
Qed.
(** And whether a tree with a link to one of its own files goes depends on the order in which the directory is listed. *)
Theorem remove_order_refuted : exists es es' root', Permutation es es' /\
  remove_recurse 10 (Dir [(1, Dir es)]) [1] = Ok (0%Z, Dir []) /\ remove_recurse 10 (Dir [(1, Dir es')]) [1] = Ok ((-1)%Z, root') /\ at_path root' [1; 2] <> None.
Proof.
  exists [(2, Link false [1]); (1, Other Regular)], [(1, Other Regular); (2, Link false [1])]. eexists. split; [apply perm_swap|]. repeat split; vm_compute; try reflexivity. discriminate.
Qed.
(** A link to the directory itself does not make it run for ever: the links that may be followed run out. *)
Example remove_link_cycle : remove_recurse 60 (Dir [(1, Dir [(1, Link true [1])])]) [1] = Ok ((-1)%Z, Dir [(1, Dir [(1, Link true [1])])]).
Proof. vm_compute. reflexivity. Qed.
Example remove_example : remove_recurse 3 (Dir [(1, Dir [(1, Other Regular); (2, Dir [(5, Other Fifo)])]); (2, Link true [1; 1])]) [1] = Ok (0%Z, Dir [(2, Link true [1; 1])]).
Proof. vm_compute. reflexivity. Qed.

(** remove_file removes one file or link, or an empty directory, and nothing else. *)
Theorem remove_file_correct root p t : p <> [] -> at_path root p = Some t ->
  match t with
  | Dir (_ :: _) => remove_file root p = ((-1)%Z, root)
  | _ => exists root', remove_file root p = (0%Z, root') /\ (forall q, under p q -> at_path root' q = None) /\ (forall q, ~ under p q -> ~ under q p -> at_path root' q = at_path root q)
  end.
Proof.
  intros Hp A. assert (R : resolve root false p = Some p) by (apply (resolve_plain root false p t A); discriminate).
  assert (G : exists root', (0%Z, del root p) = (0%Z, root') /\ (forall q, under p q -> at_path root' q = None) /\ (forall q, ~ under p q -> ~ under q p -> at_path root' q = at_path root q)).
  { exists (del root p). split; [reflexivity|]. split; [intros q [r ->]; apply at_del_under, Hp|intros q H K; apply at_del_apart; assumption]. }
  unfold remove_file. rewrite R, A. destruct t as [k|a tg|[|e es]].
  - unfold unlink. rewrite R, A. exact G.
  - unfold unlink. rewrite R, A. exact G.
  - unfold rmdir. rewrite R. destruct p; [congruence|]. rewrite A. exact G.
  - unfold rmdir. rewrite R. destruct p; [congruence|]. rewrite A. reflexivity.
Qed.

(** listdir gives the names of the entries that are not hidden, in the order of the directory, and throws on anything else. *)
Theorem listdir_correct hidden root p :
  (forall es, stat root p = Some (Dir es) -> exists ns, listdir hidden root p = Ok ns /\ forall n, In n ns <-> In n (map fst es) /\ hidden n = false) /\
  ((forall es, stat root p <> Some (Dir es)) -> listdir hidden root p = Throw InvalidArgument).
Proof.
  unfold listdir, opendir, stat. destruct (resolve root true p) as [q|]; [|split; [discriminate|reflexivity]]. split.
  - intros es ->. eexists. split; [reflexivity|]. intros n. rewrite filter_In, negb_true_iff. reflexivity.
  - intros H. destruct (at_path root q) as [[k|a t|es]|]; try reflexivity. destruct (H es eq_refl).
Qed.
Example listdir_example : listdir (fun n => n =? 7) (Dir [(1, Dir [(3, Other Regular); (7, Dir []); (2, Link true [])])]) [1] = Ok [3; 2].
Proof. reflexivity. Qed.

(** isfile and isdir tell regular files, directories, pipes and character devices apart. *)
Theorem isfile_isdir_correct root p :
  (forall t, stat root p = Some t -> t <> Other Socket -> t <> Other Block -> (forall a tg, t <> Link a tg) ->
     (isfile root p = true <-> t = Other Regular) /\ (isdir root p = true <-> exists es, t = Dir es)) /\
  (stat root p = None -> isfile root p = false /\ isdir root p = false).
Proof.
  unfold isfile, isdir. split.
  - intros t -> N1 N2 N3. destruct t as [[]|a tg|es]; try congruence; (try (destruct (N3 a tg eq_refl))); split; split; intros H; try discriminate H; try reflexivity; try (destruct H; discriminate); eauto.
  - intros ->. auto.
Qed.
(** But a socket is a file and a directory, and a disk is a directory. *)
Theorem isfile_isdir_refuted : exists root p q, stat root p = Some (Other Socket) /\ isfile root p = true /\ isdir root p = true /\ stat root q = Some (Other Block) /\ isdir root q = true.
Proof. exists (Dir [(1, Other Socket); (2, Other Block)]), [1], [2]. repeat split; reflexivity. Qed.
(** The result of stat is never a link, so the last condition above always holds. *)
Theorem stat_not_a_link root p t : (forall a tg, root <> Link a tg) -> stat root p = Some t -> forall a tg, t <> Link a tg.
Proof.
  intros Hr H a tg ->. unfold stat, resolve in H.
  assert (W : forall b cur rest q, (forall a' tg', at_path root cur <> Some (Link a' tg')) -> walk b root true cur rest = Some q -> forall a' tg', at_path root q <> Some (Link a' tg')).
  { induction b as [|b IHb]; intros cur rest; revert cur; induction rest as [|n rest IHr]; intros cur q Hc E.
    - injection E as <-. exact Hc.
    - cbn in E. destruct (at_path root (cur ++ [n])) as [[k|a' tg'|es]|] eqn:F; try discriminate E; apply (IHr (cur ++ [n]) q); try (rewrite F; congruence); exact E.
    - injection E as <-. exact Hc.
    - cbn in E. destruct (at_path root (cur ++ [n])) as [[k|a' tg'|es]|] eqn:F; try discriminate E; try (apply (IHr (cur ++ [n]) q); [rewrite F; congruence|exact E]).
      apply (IHb (if a' then [] else cur) (tg' ++ rest) q); [|exact E]. destruct a'; [cbn; intros x y Q; injection Q; apply Hr|exact Hc]. }
  destruct (walk 40 root true [] p) as [q|] eqn:E; [|discriminate H]. apply (W 40 [] p q) with (a' := a) (tg' := tg) in E; [contradiction|]. cbn. intros x y Q. injection Q. apply Hr.
Qed.

(** Creating directories. *)
Lemma entry_app es es' m : entry (es ++ es') m = match entry es m with Some c => Some c | None => entry es' m end.
Proof. induction es as [|[a c] es IH]; cbn [app]; [reflexivity|]. rewrite !entry_cons. destruct (a =? m); [reflexivity|exact IH]. Qed.
Lemma entry_none es m : entry es m = None -> ~ In m (map fst es).
Proof. induction es as [|[a c] es IH]; cbn; [auto|]. rewrite entry_cons. destruct (a =? m) eqn:E; [discriminate|]. intros H [->|K]; [rewrite Nat.eqb_refl in E; discriminate|exact (IH H K)]. Qed.
Lemma at_add p n : forall root es, at_path root p = Some (Dir es) -> entry es n = None ->
  at_path (add root (p ++ [n])) (p ++ [n]) = Some (Dir []) /\
  (forall q c, at_path root q = Some c -> match c with Dir cs => exists cs', at_path (add root (p ++ [n])) q = Some (Dir cs') /\ (forall m, In m (map fst cs') <-> In m (map fst cs) \/ q ++ [m] = p ++ [n]) | _ => at_path (add root (p ++ [n])) q = Some c end).
Proof.
  induction p as [|m p IH]; intros root es A N.
  - cbn in A. injection A as ->. cbn [app add at_path]. rewrite entry_app, N, entry_cons, Nat.eqb_refl. split; [reflexivity|]. intros [|m q] c H.
    + cbn in H. injection H as <-. exists (es ++ [(n, Dir [])]). split; [reflexivity|]. intros m. rewrite map_app, in_app_iff. cbn. split; [intros [K|[<-|[]]]; auto|intros [K|K]; [auto|injection K as ->; auto]].
    + cbn [at_path] in *. rewrite entry_app. destruct (entry es m) as [d|] eqn:E; [|discriminate H]. destruct c as [k|a t|cs]; try exact H. exists cs. split; [exact H|]. intros x. split; [auto|]. intros [K|K]; [exact K|exfalso]. destruct q; [|destruct q; discriminate K]. cbn in K. discriminate K.
  - destruct root as [k|a t|rs]; try discriminate A. cbn [at_path] in A. destruct (entry rs m) as [c0|] eqn:E; [|discriminate A]. destruct (IH c0 es A N) as [I1 I2].
    assert (Q : add (Dir rs) (m :: p ++ [n]) = Dir (map (fun e => if fst e =? m then (fst e, add (snd e) (p ++ [n])) else e) rs)) by (destruct p; reflexivity). cbn [app]. rewrite Q. split.
    + cbn [at_path]. rewrite (entry_map rs m (fun c => add c (p ++ [n]))), Nat.eqb_refl, E. exact I1.
    + intros [|x q] c H.
      * cbn in H. injection H as <-. eexists. split; [reflexivity|]. intros x. rewrite map_map.
        match goal with |- context [map ?f rs] => replace (map f rs) with (map fst rs) by (apply map_ext; intros [a d]; cbn; destruct (a =? m); reflexivity) end.
        split; [auto|]. intros [K|K]; [exact K|]. cbn in K. injection K as -> K. destruct p; discriminate K.
      * cbn [at_path] in *. rewrite (entry_map rs m (fun c => add c (p ++ [n]))). destruct (entry rs x) as [d|] eqn:F; [|discriminate H]. destruct (x =? m) eqn:G.
        -- apply Nat.eqb_eq in G as ->. rewrite E in F. injection F as ->. specialize (I2 q c H). destruct c as [k|a t|cs]; try exact I2. destruct I2 as (cs' & J1 & J2). exists cs'. split; [exact J1|]. intros y. rewrite J2. split; (intros [K|K]; [left; exact K|right]); [cbn; rewrite K; reflexivity|cbn in K; injection K as K; exact K].
        -- destruct c as [k|a t|cs]; try exact H. exists cs. split; [exact H|]. intros y. split; [auto|]. intros [K|K]; [exact K|]. cbn in K. injection K as -> K. rewrite Nat.eqb_refl in G. discriminate G.
Qed.
(** What is kept of a tree to which directories are added: files and links are the same, directories keep their entries. *)
Definition kept (root root' : node) : Prop :=
  forall q c, at_path root q = Some c -> match c with Dir cs => exists cs', at_path root' q = Some (Dir cs') /\ incl (map fst cs) (map fst cs') | _ => at_path root' q = Some c end.
Lemma kept_refl root : kept root root.
Proof. intros q c H. destruct c; try exact H. exists entries. split; [exact H|apply incl_refl]. Qed.
Lemma kept_trans a b c : kept a b -> kept b c -> kept a c.
Proof.
  intros H K q x A. specialize (H q x A). destruct x as [k|l t|cs]; [exact (K _ _ H)|exact (K _ _ H)|]. destruct H as (cs1 & H1 & H2). destruct (K _ _ H1) as (cs2 & K1 & K2). exists cs2. split; [exact K1|]. eapply incl_tran; eassumption.
Qed.

Lemma mkdir_at root p n es : at_path root p = Some (Dir es) ->
  mkdir root (p ++ [n]) = match entry es n with None => (0%Z, add root (p ++ [n])) | Some _ => ((-1)%Z, root) end.
Proof.
  intros A. unfold mkdir. rewrite removelast_last, last_last. rewrite (resolve_plain root true p _ A) by (intros; exact I). rewrite A. destruct (p ++ [n]) eqn:E; [destruct p; discriminate E|reflexivity].
Qed.

(** require_dir on a path along which there is nothing but directories, if anything: afterwards all of it is there, and what was
    there before is kept. *)
Theorem require_dir_correct dirs : forall root cwd es, at_path root cwd = Some (Dir es) ->
  (forall q r c, dirs = q ++ r -> at_path root (cwd ++ q) = Some c -> exists cs, c = Dir cs) ->
  (exists cs, at_path (require_dir_in root cwd dirs) (cwd ++ dirs) = Some (Dir cs)) /\ kept root (require_dir_in root cwd dirs).
Proof.
  induction dirs as [|d ds IH]; intros root cwd es A H; [cbn; rewrite app_nil_r; split; [eauto|apply kept_refl]|].
  cbn [require_dir_in]. rewrite (mkdir_at root cwd d es A). replace (cwd ++ d :: ds) with ((cwd ++ [d]) ++ ds) by (rewrite <- app_assoc; reflexivity).
  assert (Ad : at_path root (cwd ++ [d]) = entry es d). { rewrite at_app, A. cbn. destruct (entry es d); reflexivity. }
  destruct (entry es d) as [c|] eqn:E; cbn [snd].
  - destruct (H [d] ds c eq_refl Ad) as [cs ->]. apply (IH root (cwd ++ [d]) cs); [exact Ad|]. intros q r c -> K. apply (H (d :: q) r c); [reflexivity|]. rewrite <- app_assoc in K. exact K.
  - destruct (at_add cwd d root es A E) as [N1 N2]. destruct (IH (add root (cwd ++ [d])) (cwd ++ [d]) [] N1) as [I1 I2].
    + intros q r c _ K. rewrite at_app, N1 in K. destruct q as [|x q]; cbn in K; [injection K as <-; eauto|discriminate K].
    + split; [exact I1|]. eapply kept_trans; [|exact I2]. intros q c K. specialize (N2 q c K). destruct c as [k|a t|cs]; try exact N2. destruct N2 as (cs' & J1 & J2). exists cs'. split; [exact J1|]. intros m Hm. apply J2. left. exact Hm.
Qed.
Example require_dir_example : require_dir_in (Dir [(1, Dir [(5, Other Regular)])]) [1] [2; 3] = Dir [(1, Dir [(5, Other Regular); (2, Dir [(3, Dir [])])])].
Proof. reflexivity. Qed.
(** With a file in the way it does nothing, and does not say so. *)
Theorem require_dir_blocked_refuted : exists root cwd dirs, require_dir_in root cwd dirs = root /\ stat root (cwd ++ dirs) = None.
Proof. exists (Dir [(1, Other Regular)]), [], [1; 2]. split; reflexivity. Qed.

Print Assumptions removes_exactly_the_tree.
Print Assumptions remove_not_a_directory.
Print Assumptions remove_through_link_refuted.
Print Assumptions remove_order_refuted.
Print Assumptions remove_file_correct.
Print Assumptions listdir_correct.
Print Assumptions isfile_isdir_correct.
Print Assumptions isfile_isdir_refuted.
Print Assumptions stat_not_a_link.
Print Assumptions require_dir_correct.
Print Assumptions require_dir_blocked_refuted.
