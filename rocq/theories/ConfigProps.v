(** C22, C23, C57: configurations and command lines. *)
From Coq Require Import List Arith Ascii String Bool ZArith Lia Permutation.
From Verif Require Import Base StrModel StrProofs MapModel MapProofs ScheduleModel ConfigModel ConfigProofs.
Import ListNotations.
Close Scope Z_scope.
Close Scope string_scope.
Open Scope nat_scope.

(** ** C22 *)

(** After any sequence of updates (failing ones leave the configuration alone): the template's keys with the template's
    types, and every key has the last acceptable value assigned to it, or the default. *)
Theorem config_after_updates {D} (stod : str -> outcome D) (t : smap (cval D)) (ops : list (cop (D := D))) :
  msorted t ->
  let c := fold_left (apply_op stod) ops (tcreate t) in
  mkeys (c_params c) = mkeys t /\
  (forall k, option_map cidx (mfind k (c_params c)) = option_map cidx (mfind k t)) /\
  forall k, mfind k (c_params c) = last_assigned stod t k ops (mfind k t).
Proof.
  intros HS c. destruct (apply_ops_spec stod ops (tcreate t) (cok_create t HS)) as (HC & HT & HV).
  fold c in HC, HT, HV. cbn in HT, HV. destruct HC as [H1 H2 H3]. rewrite HT in *. split; [|split]; auto.
  assert (G : forall m1 m2 : smap (cval D), msorted m1 -> msorted m2 ->
    (forall k, option_map cidx (mfind k m1) = option_map cidx (mfind k m2)) -> mkeys m1 = mkeys m2).
  { clear. intros m1 m2 S1 S2 HE. unfold mkeys.
    assert (X : map (fun e => (fst e, cidx (snd e))) m1 = map (fun e => (fst e, cidx (snd e))) m2).
    { apply mext; try (apply msorted_map; assumption). intros k. rewrite !(mfind_map cidx). apply HE. }
    apply (f_equal (map fst)) in X. rewrite !map_map in X. exact X. }
  apply G; auto.
Qed.

(** An update succeeds exactly if it names a key of the template and has (or converts to) its type; a typed one that
    fails throws invalid_argument. *)
Theorem config_update_accepted {D} (stod : str -> outcome D) (c : config D) o :
  let key := match o with OSet k _ | OSetStr k _ => k end in
  ((exists c', run_op stod c o = Ok c') <->
    exists d, mfind key (c_template c) = Some d /\
      match o with OSet _ v => cidx v = cidx d | OSetStr _ s => exists v, cconvert stod d s = Ok v end) /\
  (mfind key (c_template c) = None -> run_op stod c o = Throw InvalidArgument) /\
  (forall v d, o = OSet key v -> mfind key (c_template c) = Some d -> cidx v <> cidx d -> run_op stod c o = Throw InvalidArgument).
Proof.
  intros key. subst key. destruct o as [k v|k s]; cbn [run_op]; (split; [|split]).
  - apply cset_ok_iff.
  - unfold cset. intros ->. reflexivity.
  - intros v0 d E F H. injection E as <-. unfold cset. rewrite F. apply Nat.eqb_neq in H. rewrite H. reflexivity.
  - rewrite cset_str_eq. destruct (mfind k (c_template c)) as [d|].
    + destruct (cconvert stod d s) as [v| | |] eqn:E; bsimp; split;
        try (intros [c' H]; discriminate H);
        try (intros (d' & F & v' & H); assert (d' = d) by congruence; subst; congruence); eauto.
    + split; [intros [c' H]; discriminate|]. intros (d & F & _). discriminate.
  - rewrite cset_str_eq. intros ->. reflexivity.
  - intros v0 d E. discriminate.
Qed.

(** Reading with the template's type always succeeds and gives that value; another type, or an unknown key, throws. *)
Theorem config_get {D} (stod : str -> outcome D) (t : smap (cval D)) (ops : list (cop (D := D))) i k :
  msorted t ->
  cget i k (fold_left (apply_op stod) ops (tcreate t)) =
    match mfind k t with
    | None => Throw InvalidArgument
    | Some d => if cidx d =? i
                then match last_assigned stod t k ops (Some d) with Some v => Ok v | None => UB end
                else Throw BadVariantAccess
    end.
Proof.
  intros HS. destruct (apply_ops_spec stod ops (tcreate t) (cok_create t HS)) as (HC & HT & HV).
  unfold cget. cbn in HT, HV. rewrite HT, HV. destruct (mfind k t) as [d|] eqn:E; auto.
  pose proof (ck_ty _ HC k) as HY. rewrite HT, HV, E in HY. cbn [option_map] in HY.
  destruct (last_assigned stod t k ops (Some d)) as [v|]; [|discriminate]. cbn in HY.
  assert (HI : cidx v = cidx d) by congruence. rewrite HI. reflexivity.
Qed.

Lemma last_assigned_some {D} (stod : str -> outcome D) t k ops : forall d : cval D, exists v, last_assigned stod t k ops (Some d) = Some v.
Proof. induction ops as [|o ops IH]; intros d; cbn; [eauto|]. destruct (assigned stod t k o); apply IH. Qed.

(** update with a map: succeeds exactly if all entries are acceptable, and then sets exactly those. *)
Theorem config_update {D} (m : smap (cval D)) (c : config D) :
  cok c -> msorted m ->
  ((exists c', cupdate m c = Ok c') <-> forall k v, In (k, v) m -> exists d, mfind k (c_template c) = Some d /\ cidx v = cidx d) /\
  forall c', cupdate m c = Ok c' -> forall k, mfind k (c_params c') =
    match mfind k m with Some v => Some v | None => mfind k (c_params c) end.
Proof.
  intros HC HS. pose proof (mkeys_nodup m HS) as HN. split; [apply cupdate_ok_iff; exact HN|].
  intros c' H k. destruct (cupdate_spec m c c' HC HN H) as (_ & _ & H1 & H2). destruct (mfind k m) as [v|] eqn:E.
  - apply H1. apply mfind_in; auto.
  - apply H2. rewrite in_mkeys by auto. congruence.
Qed.

(** The text of an integer: an optional sign and the decimal digits. *)
Definition int_text (z : Z) : str := if (z <? 0)%Z then "-"%char :: dec (Z.to_nat (- z)) else dec (Z.to_nat z).

Lemma stoi_int_text z : (int_min <= z <= int_max)%Z -> stoi (int_text z) = Ok z.
Proof.
  intros H. unfold int_text. destruct (Z.ltb_spec z 0) as [L|L].
  - destruct (dec_ok (Z.to_nat (- z))) as (HD & HV & HN).
    transitivity (match take_digits (dec (Z.to_nat (- z))) with
      | [] => Throw InvalidArgument
      | ds => let w := (- Z.of_nat (digits_val ds))%Z in if in_int w then Ok w else Throw OutOfRange end); [reflexivity|].
    rewrite take_digits_all by exact HD.
    destruct (dec (Z.to_nat (- z))) as [|a s] eqn:E; [congruence|]. rewrite HV. cbv zeta.
    replace (- Z.of_nat (Z.to_nat (- z)))%Z with z by lia.
    replace (in_int z) with true; [reflexivity|]. symmetry. apply in_int_spec.
    change int_max with 2147483647%Z in H. change int_min with (-2147483648)%Z in H. lia.
  - destruct (dec_ok (Z.to_nat z)) as (HD & HV & HN). rewrite stoi_digits; auto; rewrite HV; [f_equal; lia|lia].
Qed.

(** What a text given for a parameter becomes: a string parameter takes it letter for letter, an int parameter takes
    the number it writes, a double parameter what std::stod makes of it; reading gives that back, and nothing else moves. *)
Theorem config_text_meaning {D} (stod : str -> outcome D) (t : smap (cval D)) (ops : list (cop (D := D))) k d :
  msorted t -> mfind k t = Some d ->
  let c := fold_left (apply_op stod) ops (tcreate t) in
  let reads s v := exists c', cset_str stod k s c = Ok c' /\ cget (cidx v) k c' = Ok v /\
                     forall k', k' <> k -> mfind k' (c_params c') = mfind k' (c_params c) in
  match d with
  | CStr _ => forall s, reads s (CStr s)
  | CInt _ => forall z, (int_min <= z <= int_max)%Z -> reads (int_text z) (CInt z)
  | CDbl _ => forall s x, stod s = Ok x -> reads s (CDbl x)
  end.
Proof.
  intros HS HK c reads. destruct (apply_ops_spec stod ops (tcreate t) (cok_create t HS)) as (HC & HT & _).
  fold c in HC, HT. cbn [tcreate c_template] in HT. pose proof (ck_sp _ HC) as HP.
  assert (G : forall s v, cconvert stod d s = Ok v -> cidx v = cidx d -> reads s v).
  { intros s v HV HI. exists (mkcfg (mset k v (c_params c)) (c_template c)).
    unfold cset_str, cset, cget. cbn [c_params c_template]. rewrite HT, HK, HV. bsimp.
    rewrite HI, Nat.eqb_refl, mfind_mset_eq, HI, Nat.eqb_refl. split; [|split]; auto.
    intros k' N. apply mfind_mset_neq; auto. }
  destruct d as [z0|x0|s0].
  - intros z Hz. apply G; [|reflexivity]. cbn [cconvert]. rewrite stoi_int_text by exact Hz. reflexivity.
  - intros s x Hx. apply G; [|reflexivity]. cbn [cconvert]. rewrite Hx. reflexivity.
  - intros s. apply G; reflexivity.
Qed.

Example config_text_example :
  let t := titem (lit "n") (CInt (D := Z) 4) (titem (lit "outdir") (CStr (lit "data")) []) in
  (do c <- cset_str (fun _ => Throw InvalidArgument) (lit "outdir") (lit "a b=c") (tcreate t); cget 2 (lit "outdir") c)
    = Ok (CStr (lit "a b=c")) /\
  (do c <- cset_str (fun _ => Throw InvalidArgument) (lit "n") (lit "-205") (tcreate t); cget 0 (lit "n") c) = Ok (CInt (-205)) /\
  int_text (-205) = lit "-205".
Proof. vm_compute. auto. Qed.

Example config_example :
  let t := titem (lit "depth") (CInt 4) (titem (lit "tfinal") (CDbl 1) (titem (lit "outdir") (CStr (lit "data")) [])) in
  let ops := [OSetStr (lit "depth") (lit "12x"); OSet (lit "depth") (CDbl 3); OSetStr (lit "nope") (lit "1");
              OSetStr (lit "outdir") []; OSetStr (lit "depth") (lit "x")] in
  let c := fold_left (apply_op (fun _ => Throw InvalidArgument)) ops (tcreate t) in
  cget 0 (lit "depth") c = Ok (CInt 12) /\ cget 2 (lit "outdir") c = Ok (CStr []) /\
  cget 0 (lit "tfinal") c = Throw BadVariantAccess /\ cget 0 (lit "nope") c = Throw InvalidArgument /\
  cget 1 (lit "tfinal") c = Ok (CDbl 1).
Proof. vm_compute. auto. Qed.

(** ** C23 *)

(** The pairs: one for each argument of the form key=value, cut at the first equals sign. *)
Theorem argv_pairs_cut_at_first (a k v : str) :
  arg_pair a = Some (k, v) <-> a = k ++ "="%char :: v /\ ~ In "="%char k.
Proof. apply arg_pair_spec. Qed.

Theorem argv_map (argv : list str) :
  let is_pair k v := exists a, In a argv /\ a = k ++ "="%char :: v /\ ~ In "="%char k in
  (NoDup (map fst (arg_pairs argv)) -> exists m, argv_to_string_map argv = Ok m /\ msorted m /\
     forall k v, mfind k m = Some v <-> is_pair k v) /\
  (~ NoDup (map fst (arg_pairs argv)) -> argv_to_string_map argv = Throw InvalidArgument).
Proof.
  intros is_pair. unfold argv_to_string_map. rewrite argv_pairs.
  assert (IP : forall k v, In (k, v) (arg_pairs argv) <-> is_pair k v).
  { intros k v. unfold arg_pairs. rewrite in_flat_map. unfold is_pair. split; intros (a & Ha & H); exists a; split; auto.
    - apply arg_pair_spec. destruct (arg_pair a) as [p|]; [|destruct H]. destruct H as [->|[]]. reflexivity.
    - apply arg_pair_spec in H. rewrite H. left. reflexivity. }
  destruct (pairs_fold (arg_pairs argv) [] ms_nil) as [(r & H1 & H2 & _ & H4)|[H1 H2]]; split.
  - intros _. exists r. split; auto. subst r. split; [apply mload_from_sorted; constructor|].
    intros k v. rewrite mload_from_find by (auto; constructor). rewrite IP. cbn. split; [intros [H|[_ H]]; [auto|discriminate]|auto].
  - tauto.
  - intros HN. exfalso. apply H2. split; auto.
  - intros _. exact H1.
Qed.

(** The order of the arguments does not matter. *)
Theorem argv_order_irrelevant (argv argv' : list str) :
  Permutation argv argv' -> argv_to_string_map argv = argv_to_string_map argv'.
Proof.
  intros HP. unfold argv_to_string_map. rewrite !argv_pairs.
  assert (HP' : Permutation (arg_pairs argv) (arg_pairs argv')) by (apply Permutation_flat_map; exact HP).
  destruct (pairs_fold (arg_pairs argv) [] ms_nil) as [(r & H1 & H2 & _ & H4)|[H1 H2]];
    destruct (pairs_fold (arg_pairs argv') [] ms_nil) as [(r' & H1' & H2' & _ & H4')|[H1' H2']]; rewrite H1, H1'; auto.
  - f_equal. subst r r'. apply mext; try (apply mload_from_sorted; constructor). intros k.
    match goal with |- mfind k ?a = mfind k ?b => destruct (mfind k a) as [v|] eqn:E; destruct (mfind k b) as [v'|] eqn:E' end;
      rewrite ?mload_from_find in E by (auto; constructor); rewrite ?mload_from_find in E' by (auto; constructor); auto; cbn in *.
    + destruct E as [E|[_ E]]; [|discriminate]. destruct E' as [E'|[_ E']]; [|discriminate].
      apply (Permutation_in _ HP') in E. f_equal.
      clear -E E' H2'. induction (arg_pairs argv') as [|[a b] l IH]; [destruct E|]. inversion H2'; subst.
      destruct E as [E|E], E' as [E'|E'].
      * congruence.
      * exfalso. apply H1. injection E as -> ->. apply (in_map fst) in E'. exact E'.
      * exfalso. apply H1. injection E' as -> ->. apply (in_map fst) in E. exact E.
      * auto.
    + exfalso. destruct E as [E|[_ E]]; [|discriminate]. apply (Permutation_in _ HP') in E.
      assert (X : mfind k (fold_left (fun m e => mset (fst e) (snd e) m) (arg_pairs argv') []) = Some v)
        by (apply mload_from_find; auto; constructor). congruence.
    + exfalso. destruct E' as [E'|[_ E']]; [|discriminate]. apply (Permutation_in _ (Permutation_sym HP')) in E'.
      assert (X : mfind k (fold_left (fun m e => mset (fst e) (snd e) m) (arg_pairs argv) []) = Some v')
        by (apply mload_from_find; auto; constructor). congruence.
  - exfalso. apply H2'. split; auto. apply (Permutation_map fst) in HP'. apply (Permutation_NoDup HP' H2).
  - exfalso. apply H2. split; auto. apply (Permutation_map fst) in HP'. apply (Permutation_NoDup (Permutation_sym HP') H2').
Qed.

Example argv_example :
  argv_to_string_map [lit "mara"; lit "b=1=2"; lit "a="; lit "-v"; lit "=x"] =
    Ok [([], lit "x"); (lit "a", []); (lit "b", lit "1=2")] /\
  argv_to_string_map [lit "a=1"; lit "b=2"; lit "a=1"] = Throw InvalidArgument.
Proof. vm_compute. auto. Qed.

(** ** C57: precedence of command line, restart file and defaults *)

(** When restarting, every option has the value of the command line if given there, else that of the restart file if it
    could be read from it, else the template's default. *)
Theorem run_config_precedence {D} (stod : str -> outcome D) (t : smap (cval D)) (file : list (str * option (cval D))) args c :
  msorted t -> NoDup (map fst file) -> msorted args -> mfind (lit "restart") args <> None ->
  create_run_config stod t file args = Ok c ->
  mkeys (c_template c) = mkeys t /\
  forall k, mfind k (c_params c) =
    match mfind k args, mfind k t with
    | Some s, Some d => match cconvert stod d s with Ok v => Some v | _ => None end
    | Some s, None => None
    | None, d => match List.find (fun e => if str_dec (fst e) k then true else false) file with Some (_, Some v) => Some v | _ => d end
    end.
Proof.
  intros HT HF HA HR H. unfold create_run_config in H. change ["r";"e";"s";"t";"a";"r";"t"]%char with (lit "restart") in H.
  destruct (mfind (lit "restart") args) as [x|]; [|congruence].
  destruct (cupdate (read_config file) (tcreate t)) as [c1| | |] eqn:E1; try discriminate. revert H; bsimp; intros H.
  pose proof (mkeys_nodup _ (read_config_sorted file)) as NF.
  destruct (cupdate_spec _ _ _ (cok_create t HT) NF E1) as (C1 & T1 & _ & _).
  pose proof (proj2 (config_update (read_config file) (tcreate t) (cok_create t HT) (read_config_sorted file)) c1 E1) as V1.
  destruct (cupdate_str_spec stod _ _ _ C1 (mkeys_nodup _ HA) H) as (C2 & T2 & P2 & P3). cbn in T1.
  split; [congruence|]. intros k. destruct (mfind k args) as [s|] eqn:EA.
  - apply mfind_in in EA; auto. destruct (P2 k s EA) as (d & v & F & CV & PV). rewrite T1 in F. rewrite F, CV. exact PV.
  - rewrite P3 by (rewrite in_mkeys by auto; congruence). rewrite V1. cbn [tcreate c_params].
    assert (FS : mfind k (read_config file) =
      match List.find (fun e => if str_dec (fst e) k then true else false) file with Some (_, Some v) => Some v | _ => None end).
    { destruct (List.find _ file) as [[k' [v|]]|] eqn:EF.
      - apply List.find_some in EF. destruct EF as [EF1 EF2]. cbn in EF2. destruct (str_dec k' k) as [->|]; [|discriminate].
        apply read_config_find; auto.
      - apply List.find_some in EF. destruct EF as [EF1 EF2]. cbn in EF2. destruct (str_dec k' k) as [->|]; [|discriminate].
        destruct (mfind k (read_config file)) as [v|] eqn:EM; auto. apply read_config_find in EM; auto. exfalso.
        clear -HF EF1 EM. induction file as [|[a b] l IH]; [destruct EM|]. inversion HF; subst. destruct EM as [EM|EM], EF1 as [EF1|EF1].
        + congruence.
        + apply H1. injection EM as -> ->. apply (in_map fst) in EF1. exact EF1.
        + apply H1. injection EF1 as -> ->. apply (in_map fst) in EM. exact EM.
        + auto.
      - destruct (mfind k (read_config file)) as [v|] eqn:EM; auto. apply read_config_find in EM; auto. exfalso.
        apply (List.find_none _ _ EF) in EM. cbn in EM. destruct (str_dec k k); congruence. }
    rewrite FS. destruct (List.find _ file) as [[k' [v|]]|]; reflexivity.
Qed.

(** A configuration read back from its own file is the same configuration. *)
Theorem config_file_roundtrip {D} (t : smap (cval D)) (c : config D) l :
  msorted t -> cok c -> c_template c = t -> Permutation l (map (fun e => (fst e, Some (snd e))) (write_config c)) ->
  cupdate (read_config l) (tcreate t) = Ok c.
Proof.
  intros HT HC HE HP. destruct HC as [SP ST TY].
  assert (NL : NoDup (map fst l)).
  { apply (Permutation_map fst) in HP. rewrite map_map in HP. apply (Permutation_NoDup (Permutation_sym HP)).
    apply (mkeys_nodup _ SP). }
  assert (RC : read_config l = c_params c).
  { apply mext; auto using read_config_sorted. intros k.
    destruct (mfind k (read_config l)) as [v|] eqn:E; symmetry.
    - apply read_config_find in E; auto. apply (Permutation_in _ HP) in E. apply in_map_iff in E.
      destruct E as ([k' v'] & E & Hin). cbn in E. injection E as -> ->. apply mfind_in; auto.
    - destruct (mfind k (c_params c)) as [v|] eqn:E'; auto. exfalso. apply mfind_in in E'; auto.
      assert (X : mfind k (read_config l) = Some v).
      { apply read_config_find; auto. apply (Permutation_in _ (Permutation_sym HP)). apply in_map_iff. exists (k, v). auto. }
      congruence. }
  rewrite RC. destruct (config_update (c_params c) (tcreate t) (cok_create t HT) SP) as [HX HV].
  destruct (proj2 HX) as [c' Ec'].
  - intros k v Hin. apply mfind_in in Hin; auto. specialize (TY k). rewrite Hin, HE in TY. cbn [tcreate c_template].
    destruct (mfind k t) as [d|]; [|discriminate]. exists d. split; auto. cbn in TY. congruence.
  - rewrite Ec'. f_equal. destruct (cupdate_spec _ _ _ (cok_create t HT) (mkeys_nodup _ SP) Ec') as ([SP' _ _] & T' & _ & _).
    specialize (HV c' Ec'). clear RC Ec' HX HP. destruct c as [p t0], c' as [p' t']. cbn in *. subst t0 t'. f_equal. apply mext; auto. intros k. rewrite HV.
    destruct (mfind k p) as [v|] eqn:E; auto. specialize (TY k). rewrite E in TY. destruct (mfind k t); [discriminate|reflexivity].
Qed.

Example run_config_example :
  let t := titem (lit "depth") (CInt 4) (titem (lit "restart") (CStr []) (titem (lit "tfinal") (CInt 1) [])) in
  match create_run_config (fun _ => Throw InvalidArgument : outcome unit) t
    [(lit "depth", Some (CInt 7)); (lit "tfinal", Some (CInt 9)); (lit "restart", None)]
    [(lit "restart", lit "chkpt.0001.h5"); (lit "tfinal", lit "20")] with
  | Ok c => c_params c = [(lit "depth", CInt 7); (lit "restart", CStr (lit "chkpt.0001.h5")); (lit "tfinal", CInt 20)]
  | _ => False
  end.
Proof. vm_compute. reflexivity. Qed.

Print Assumptions config_after_updates.
Print Assumptions config_text_meaning.
Print Assumptions config_get.
Print Assumptions config_update.
Print Assumptions argv_map.
Print Assumptions argv_order_irrelevant.
Print Assumptions run_config_precedence.
Print Assumptions config_file_roundtrip.
