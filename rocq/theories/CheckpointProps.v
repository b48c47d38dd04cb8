(** C110: whole checkpoint and diagnostics files. *)
From Coq Require Import List Arith Ascii String Bool ZArith Lia Permutation.
From Verif Require Import Base StrModel StrProofs MapModel MapProofs TreeModel TreeSpec ConfigModel ScheduleModel ScheduleProofs TreeNameModel Hdf5Model Hdf5Props CheckpointModel CheckpointProofs.
Import ListNotations.
Close Scope Z_scope.
Close Scope string_scope.
Open Scope nat_scope.

Section Props.
Context {D : Type} (dz : D).
Notation group := (Hdf5Model.group D).
Notation bstate := (@bstate D (@bsolution D) (smap (cval D)) (@sample D)).

(** The library lists every name of a group once, in any order. *)
Definition lists (order : group -> list str) : Prop := forall h, Permutation (order h) (mkeys h).
(** Trees the program can hold: four children per node, at most 30 levels, arrays of rank two. *)
Definition storable_tree {T} (t : tree (block T)) : Prop := wf_tree 2 t /\ depth t <= 30 /\ Forall (fun v => List.length (fst v) = 2) (leaves t).
(** Schedules and configurations whose names the file can hold. *)
Definition storable_schedule (s : schedule D) : Prop := msorted s /\ Forall (fun e => good_name (fst e)) s /\ Forall (fun e => t_name (snd e) = fst e) s.
Definition storable_config (c : smap (cval D)) : Prop := msorted c /\ Forall (fun e => good_name (fst e)) c.
(** What the schedule and the configuration are in the file. *)
Definition schedule_kept (s : schedule D) : schedule D := map (fun e => (fst e, unmarked (snd e))) s.
Definition config_kept (c : smap (cval D)) : smap (cval D) := map (fun e => (fst e, settled (snd e))) c.

Lemma kept_schedule s : storable_schedule s -> exists k, write_schedule_file dz [] s = Ok k /\ forall order, lists order -> read_schedule_file dz k (order k) = Ok (schedule_kept s).
Proof. intros (H1 & H2 & H3). destruct (schedule_through_file dz s H1 H2 H3) as (k & E & _ & R). exists k. split; [exact E|]. intros order HO. apply R. apply HO. Qed.
Lemma kept_config c : storable_config c -> exists k, write_config_file dz [] c = Ok k /\ forall order, lists order -> read_config_file dz k (order k) = Ok (config_kept c).
Proof. intros (H1 & H2). destruct (config_through_file dz c H1 H2) as (k & E & _ & R). exists k. split; [exact E|]. intros order HO. apply R. apply HO. Qed.
Lemma kept_tree {T} (f : Hdf5Model.fixed (D := D) T) t : not_string (f_type f) -> (forall v, exact f v) -> storable_tree t ->
  exists h, write_tree_file f [] t = Ok h /\ List.length h = List.length (leaves t) /\ forall order, lists order -> read_tree_file f h (order h) (Leaf no_block) = Ok t.
Proof. intros HT HE (H1 & H2 & H3). destruct (tree_through_file f HT HE t H1 H2 H3) as (h & E & _ & L & R). exists h. split; [exact E|]. split; [exact L|]. intros order HO. apply R. apply HO. Qed.

Lemma group_new (g : group) name (F : group -> outcome group) h : plain (c_name name) = true -> fresh g (c_name name) -> F [] = Ok h -> in_group g name F = Ok (mset (c_name name) (OGroup h) g).
Proof. intros HP HF E. unfold in_group, require_group. rewrite HP. unfold fresh in HF. rewrite HF. cbn [negb]. bsimp. rewrite E. bsimp. reflexivity. Qed.
Lemma put_new {T} (f : Hdf5Model.fixed (D := D) T) (g : group) name v : plain (c_name name) = true -> fresh g (c_name name) -> not_string (f_type f) ->
  put f name v g = Ok (mset (c_name name) (OData (mkds (f_type f) Scalar [f_put f v])) g).
Proof. intros HP HF HT. apply write_new; [exact HP|left; exact HF|apply stored_any; exact HT]. Qed.
Lemma get_put {T} (f : Hdf5Model.fixed (D := D) T) (g : group) name v : plain (c_name name) = true -> exact f v -> mfind (c_name name) g = Some (OData (mkds (f_type f) Scalar [f_put f v])) ->
  get f g name = Ok v.
Proof.
  intros HP HE HM. unfold get, read, open_dataset. rewrite HP, HM. cbn [negb]. bsimp. unfold dataset_read. cbn [scalar_info i_prepare ds_type ds_space ds_data]. bsimp. unfold check_compatible. cbn [scalar_info i_type ds_type].
  rewrite dtype_eqb_refl. bsimp. cbn [i_space npoints ds_space]. rewrite Nat.eqb_refl. cbn [scalar_info i_final i_fill ds_data]. f_equal. exact HE.
Qed.
Lemma open_new (g : group) name h : plain (c_name name) = true -> mfind (c_name name) g = Some (OGroup h) -> open_group g name = Ok h.
Proof. intros HP HM. unfold open_group. rewrite HP, HM. reflexivity. Qed.
Lemma require_old (g : group) name h : plain (c_name name) = true -> mfind (c_name name) g = Some (OGroup h) -> require_group g name = Ok h.
Proof. intros HP HM. unfold require_group. rewrite HP, HM. reflexivity. Qed.

Ltac wput := rewrite put_new; [|reflexivity|reflexivity|exact I]; bsimp.
Ltac wgroup E := erewrite group_new; [|reflexivity|reflexivity|exact E]; bsimp.
Ltac rget L := erewrite get_put; [|reflexivity|exact L|reflexivity]; bsimp.
Ltac rgroup := erewrite open_new; [|reflexivity|reflexivity]; bsimp.

Lemma solution_through_file (s : @bsolution D) : storable_tree (s_conserved_u s) -> storable_tree (s_conserved_q s) ->
  exists h, write_solution dz s [] = Ok h /\ List.length h = 13 /\ forall order, lists order -> read_solution dz order h = Ok s.
Proof.
  intros HU HQ. destruct (kept_tree (fixed_triple dz) _ I (triple_exact dz) HU) as (hu & EU & _ & RU). destruct (kept_tree (fixed_triple dz) _ I (triple_exact dz) HQ) as (hq & EQ & _ & RQ).
  pose proof (pair_exact (fixed_double dz)) as PD. eexists. split; [|split].
  - unfold write_solution. wput. wput. wgroup EU. wgroup EQ. do 8 wput. apply put_new; [reflexivity|reflexivity|exact I].
  - reflexivity.
  - intros order HO. unfold read_solution.
    rget (double_exact dz (s_time s)). rget (pair_exact (D := D) fixed_int (s_iteration s) int_exact).
    rgroup. rewrite (RU order HO). bsimp. rgroup. rewrite (RQ order HO). bsimp.
    rget (PD (s_mass_accreted_on s) (double_exact dz)). rget (double_exact dz (s_angular_momentum_ejected s)). rget (PD (s_integrated_torque_on s) (double_exact dz)). rget (PD (s_work_done_on s) (double_exact dz)).
    rget (double_exact dz (s_mass_ejected s)). rget (PD (s_angular_momentum_accreted_on s) (double_exact dz)).
    rget (full_exact dz (s_orbital_elements_acc s)). rget (full_exact dz (s_orbital_elements_grav s)). rget (full_exact dz (s_orbital_elements s)). destruct s; reflexivity.
Qed.

(** A binary checkpoint: the file has exactly the four entries; read back, in whatever order the library lists the groups, the state is the one written, with no task
    marked as due, and the configuration the one written, up to empty strings; the samples are in the file oldest first. *)
Theorem binary_checkpoint_through_file (st : bstate) : storable_tree (s_conserved_u (b_sol st)) -> storable_tree (s_conserved_q (b_sol st)) ->
  storable_schedule (b_sched st) -> storable_config (b_cfg st) ->
  exists g, write_state dz [] st = Ok g /\ mkeys g = [lit "run_config"%string; lit "schedule"%string; lit "solution"%string; lit "time_series"%string] /\
    mfind (lit "time_series"%string) g = Some (OData (mkds (f_type (fixed_sample dz)) (Simple [List.length (b_series st)]) (map (f_put (fixed_sample dz)) (rev (b_series st))))) /\
    forall order, lists order ->
      (forall c, read_state dz order g c = Ok (mkb (b_sol st) (schedule_kept (b_sched st)) (b_series st) c)) /\
      stored_config dz order g = Ok (config_kept (b_cfg st)).
Proof.
  intros HU HQ HS HC. destruct (solution_through_file _ HU HQ) as (h & EH & _ & RH). destruct (kept_schedule _ HS) as (k & EK & RK). destruct (kept_config _ HC) as (c & EC & RC).
  assert (NT : not_string (f_type (fixed_sample dz))) by exact I.
  assert (WL : forall g : group, fresh g (lit "time_series"%string) -> write (list_info (fixed_sample dz) (fun l => l) (fun l => l)) g (lit "time_series"%string) (rev (b_series st)) =
    Ok (mset (lit "time_series"%string) (OData (mkds (f_type (fixed_sample dz)) (Simple [List.length (b_series st)]) (map (f_put (fixed_sample dz)) (rev (b_series st))))) g)).
  { intros g HF. rewrite (write_new _ g (lit "time_series"%string) _ (map (f_put (fixed_sample dz)) (rev (b_series st))) eq_refl (or_introl HF)); [|apply stored_any; exact NT].
    unfold ds_of. cbn [list_info i_type i_space i_writable]. rewrite rev_length. reflexivity. }
  eexists. split; [|split; [|split]].
  - unfold write_state. wgroup EH. wgroup EK. rewrite WL by reflexivity. bsimp. erewrite group_new; [reflexivity|reflexivity|reflexivity|exact EC].
  - reflexivity.
  - reflexivity.
  - intros order HO. split.
    + intros cfg. unfold read_state. erewrite require_old; [|reflexivity|reflexivity]. bsimp. rewrite (RH order HO). bsimp.
      erewrite (read_written _ _ _ (rev (b_series st)) (rev (b_series st)) (map (f_put (fixed_sample dz)) (rev (b_series st)))); [|reflexivity|apply stored_any; exact NT| |].
      * bsimp. rgroup. rewrite (RK order HO). bsimp. rewrite rev_involutive. reflexivity.
      * exists (map (f_put (fixed_sample dz)) (rev (b_series st))), (repeat (f_default (fixed_sample dz)) (List.length (rev (b_series st)))).
        split; [apply stored_any; exact NT|]. cbn [list_info i_prepare i_space i_type i_fill i_final i_writable npoints fold_right]. rewrite Nat.mul_1_r, repeat_length.
        split; [reflexivity|]. split; [reflexivity|]. split; [lia|]. apply map_exact. apply Forall_forall. intros x _. apply sample_exact.
      * unfold ds_of. cbn [list_info i_type i_space i_writable]. rewrite rev_length. reflexivity.
    + unfold stored_config. rgroup. apply RC. exact HO.
Qed.

(** Nothing is made up: if a checkpoint can be read, then every entry of the state was in the file. *)
Theorem binary_checkpoint_complete order (g : group) c (st : bstate) : read_state dz order g c = Ok st ->
  exists h, mfind (lit "solution"%string) g = Some (OGroup h) /\ mfind (lit "schedule"%string) g <> None /\ mfind (lit "time_series"%string) g <> None /\
    Forall (fun n => mfind (lit n) h <> None)
      ["time"; "iteration"; "conserved_u"; "conserved_q"; "mass_accreted_on"; "angular_momentum_accreted_on"; "integrated_torque_on"; "work_done_on"; "mass_ejected"; "angular_momentum_ejected";
       "orbital_elements_acc"; "orbital_elements_grav"; "orbital_elements"]%string.
Proof.
  assert (HG : forall T (f : Hdf5Model.fixed (D := D) T) (h : group) n v, plain (c_name n) = true -> get f h n = Ok v -> mfind (c_name n) h <> None).
  { intros T f h n v HP E. unfold get, read, open_dataset in E. rewrite HP in E. cbn [negb] in E. destruct (mfind (c_name n) h); [discriminate|discriminate E]. }
  assert (HO : forall (h : group) n v, plain (c_name n) = true -> open_group h n = Ok v -> mfind (c_name n) h <> None).
  { intros h n v HP E. unfold open_group in E. rewrite HP in E. cbn [negb] in E. destruct (mfind (c_name n) h); [discriminate|discriminate E]. }
  intros E. unfold read_state in E.
  apply bind_ok_inv in E. destruct E as (h & E1 & E). apply bind_ok_inv in E. destruct E as (s & E2 & E). apply bind_ok_inv in E. destruct E as (l & E3 & E). apply bind_ok_inv in E. destruct E as (k & E4 & E).
  unfold read_solution in E2. repeat (apply bind_ok_inv in E2; destruct E2 as (? & ? & E2)).
  exists h. split.
  - unfold require_group in E1. change (negb (plain (c_name (lit "solution"%string)))) with false in E1. cbn iota in E1. change (c_name (lit "solution"%string)) with (lit "solution"%string) in E1.
    destruct (mfind (lit "solution"%string) g) as [[l'|d]|]; [injection E1 as ->; reflexivity|discriminate E1|]. injection E1 as <-. discriminate H.
  - split; [apply (HO g (lit "schedule"%string) _ eq_refl E4)|]. split.
    + unfold read, open_dataset in E3. change (negb (plain (c_name (lit "time_series"%string)))) with false in E3. cbn iota in E3. change (c_name (lit "time_series"%string)) with (lit "time_series"%string) in E3.
      destruct (mfind (lit "time_series"%string) g); [discriminate|discriminate E3].
    + repeat (constructor; [cbv beta; match goal with
        | H : get ?f h (lit ?n) = Ok _ |- mfind (lit ?n) h <> None => exact (HG _ f h (lit n) _ eq_refl H)
        | H : open_group h (lit ?n) = Ok _ |- mfind (lit ?n) h <> None => exact (HO h (lit n) _ eq_refl H)
        end|]). constructor.
Qed.

(** A diagnostics file: everything but the configuration is read back; the configuration is that of the reader. *)
Theorem diagnostics_through_file (s : @bdiag D) : storable_config (g_config s) -> storable_tree (g_vertices s) -> storable_tree (g_sigma s) -> storable_tree (g_radial_velocity s) -> storable_tree (g_phi_velocity s) ->
  exists g, write_diagnostics dz [] s = Ok g /\ List.length g = 8 /\ forall order, lists order ->
    (forall c, read_diagnostics dz order g c = Ok (mkbdiag c (g_time s) (g_vertices s) (g_sigma s) (g_radial_velocity s) (g_phi_velocity s) (g_position_of_mass1 s) (g_position_of_mass2 s))) /\
    stored_config dz order g = Ok (config_kept (g_config s)).
Proof.
  intros HC H1 H2 H3 H4. destruct (kept_config _ HC) as (c & EC & RC). pose proof (double_exact dz) as XD. pose proof (fun v => pair_exact (fixed_double dz) v XD) as XP.
  destruct (kept_tree (fixed_pair (fixed_double dz)) _ I XP H1) as (h1 & E1 & _ & R1). destruct (kept_tree (fixed_double dz) _ I XD H2) as (h2 & E2 & _ & R2).
  destruct (kept_tree (fixed_double dz) _ I XD H3) as (h3 & E3 & _ & R3). destruct (kept_tree (fixed_double dz) _ I XD H4) as (h4 & E4 & _ & R4).
  eexists. split; [|split].
  - unfold write_diagnostics. wgroup EC. wput. wgroup E1. wgroup E2. wgroup E3. wgroup E4. wput. apply put_new; [reflexivity|reflexivity|exact I].
  - reflexivity.
  - intros order HO. split.
    + intros cfg. unfold read_diagnostics. rget (XD (g_time s)). rgroup. rewrite (R1 order HO). bsimp. rgroup. rewrite (R2 order HO). bsimp. rgroup. rewrite (R3 order HO). bsimp. rgroup. rewrite (R4 order HO). bsimp.
      rget (XP (g_position_of_mass1 s)). rget (XP (g_position_of_mass2 s)). reflexivity.
    + unfold stored_config. rgroup. apply RC. exact HO.
Qed.

(** The other programs: the solution, the schedule and the configuration, under the name [config] of its group. *)
Lemma simple_through_file {S} (W : S -> group -> outcome group) (Rd : group -> outcome S) config st :
  In config ["config"; "run_config"]%string -> (exists h, W (s_sol st) [] = Ok h /\ Rd h = Ok (s_sol st)) -> storable_schedule (s_sched st) -> storable_config (s_cfg st) ->
  exists g, write_simple dz W (lit config) [] st = Ok g /\ forall order, lists order ->
    read_simple dz order Rd (lit config) g = Ok (mks (s_sol st) (schedule_kept (s_sched st)) (config_kept (s_cfg st))).
Proof.
  intros HN (h & EH & RH) HS HC. destruct (kept_schedule _ HS) as (k & EK & RK). destruct (kept_config _ HC) as (c & EC & RC).
  destruct HN as [<- | [<- | []]].
  all: eexists; split; [unfold write_simple; wgroup EH; wgroup EK; erewrite group_new; [reflexivity|reflexivity|reflexivity|exact EC]|].
  all: intros order HO; unfold read_simple; rgroup; rewrite (RC order HO); bsimp; rgroup; rewrite RH; bsimp; rgroup; rewrite (RK order HO); bsimp; reflexivity.
Qed.
Lemma array_new {T} (f : Hdf5Model.fixed (D := D) T) rank (g : group) name (v : block T) : plain (c_name name) = true -> fresh g (c_name name) -> not_string (f_type f) ->
  write (array_info f rank) g name v = Ok (mset (c_name name) (OData (mkds (f_type f) (Simple (fst v)) (map (f_put f) (snd v)))) g).
Proof. intros HP HF HT. apply write_new; [exact HP|left; exact HF|apply stored_any; exact HT]. Qed.
Lemma array_old {T} (f : Hdf5Model.fixed (D := D) T) rank (g : group) name (v : block T) : plain (c_name name) = true -> Forall (exact f) (snd v) -> List.length (fst v) = rank ->
  mfind (c_name name) g = Some (OData (mkds (f_type f) (Simple (fst v)) (map (f_put f) (snd v)))) -> read (array_info f rank) g name = Ok v.
Proof.
  intros HP HE HL HM. unfold read, open_dataset. rewrite HP, HM. cbn [negb]. bsimp. unfold dataset_read. cbn [ds_type ds_space ds_data array_info i_prepare]. rewrite HL, Nat.eqb_refl. bsimp.
  unfold check_compatible. cbn [array_info i_type ds_type i_space fst]. rewrite dtype_eqb_refl. bsimp. rewrite Nat.eqb_refl. cbn [array_info i_final i_fill fst snd ds_data]. rewrite map_exact by exact HE. destruct v; reflexivity.
Qed.
Ltac warr := rewrite array_new; [|reflexivity|reflexivity|exact I]; bsimp.
Ltac rarr L H := erewrite array_old; [|reflexivity|exact L|exact H|reflexivity]; bsimp.
Lemma all_doubles (l : list D) : Forall (exact (fixed_double dz)) l.
Proof. apply Forall_forall. intros x _. apply double_exact. Qed.

Theorem cloud_checkpoint_through_file st : List.length (fst (k_radial (s_sol st))) = 1 -> List.length (fst (k_polar (s_sol st))) = 1 -> List.length (fst (k_conserved (s_sol st))) = 2 ->
  storable_schedule (s_sched st) -> storable_config (s_cfg st) ->
  exists g, write_simple dz (write_cloud dz) (lit "config"%string) [] st = Ok g /\ forall order, lists order ->
    read_simple dz order (read_cloud dz) (lit "config"%string) g = Ok (mks (s_sol st) (schedule_kept (s_sched st)) (config_kept (s_cfg st))).
Proof.
  intros H1 H2 H3 HS HC. apply simple_through_file; [left; reflexivity| |exact HS|exact HC]. eexists. split.
  - unfold write_cloud. wput. wput. warr. warr. apply array_new; [reflexivity|reflexivity|exact I].
  - unfold read_cloud. rget (double_exact dz (k_time (s_sol st))). rget (pair_exact (D := D) fixed_int (k_iteration (s_sol st)) int_exact).
    rarr (all_doubles (snd (k_radial (s_sol st)))) H1. rarr (all_doubles (snd (k_polar (s_sol st)))) H2.
    assert (HF : Forall (exact (fixed_array (fixed_double dz) 5)) (snd (k_conserved (s_sol st)))) by (apply Forall_forall; intros x _; apply array_exact; apply all_doubles).
    rarr HF H3. destruct (s_sol st); reflexivity.
Qed.
Theorem boilerplate_checkpoint_through_file st : List.length (fst (p_vertices (s_sol st))) = 1 -> List.length (fst (p_solution (s_sol st))) = 1 ->
  storable_schedule (s_sched st) -> storable_config (s_cfg st) ->
  exists g, write_simple dz (write_plain dz) (lit "run_config"%string) [] st = Ok g /\ forall order, lists order ->
    read_simple dz order (read_plain dz) (lit "run_config"%string) g = Ok (mks (s_sol st) (schedule_kept (s_sched st)) (config_kept (s_cfg st))).
Proof.
  intros H1 H2 HS HC. apply simple_through_file; [right; left; reflexivity| |exact HS|exact HC]. eexists. split.
  - unfold write_plain. wput. wput. warr. apply array_new; [reflexivity|reflexivity|exact I].
  - unfold read_plain. rget (double_exact dz (p_time (s_sol st))). rget (int_exact (D := D) (p_iteration (s_sol st))).
    rarr (all_doubles (snd (p_vertices (s_sol st)))) H1. rarr (all_doubles (snd (p_solution (s_sol st)))) H2. destruct (s_sol st); reflexivity.
Qed.
(** The sedov program writes the configuration to "config" (subprog_sedov.cpp:492) and reads "run_config" (476): no checkpoint of it can be restarted. *)
Theorem sedov_checkpoint_refuted {S} (W : S -> group -> outcome group) (Rd : group -> outcome S) st g order : write_simple dz W (lit "config"%string) [] st = Ok g ->
  read_simple dz order Rd (lit "run_config"%string) g = Throw InvalidArgument.
Proof.
  intros E. unfold write_simple in E. apply bind_ok_inv in E. destruct E as (g1 & E1 & E). apply bind_ok_inv in E. destruct E as (g2 & E2 & E3).
  unfold in_group in *. apply bind_ok_inv in E1. destruct E1 as (a1 & _ & E1). apply bind_ok_inv in E1. destruct E1 as (b1 & _ & E1). injection E1 as <-.
  apply bind_ok_inv in E2. destruct E2 as (a2 & _ & E2). apply bind_ok_inv in E2. destruct E2 as (b2 & _ & E2). injection E2 as <-.
  apply bind_ok_inv in E3. destruct E3 as (a3 & _ & E3). apply bind_ok_inv in E3. destruct E3 as (b3 & _ & E3). injection E3 as <-. reflexivity.
Qed.

(** The file of the model of killed and resumed runs (ScheduleModel.v, C20 and C108) is the file on disk: reading either gives the same state. *)
Theorem binary_file_agrees (st : bstate) l : storable_tree (s_conserved_u (b_sol st)) -> storable_tree (s_conserved_q (b_sol st)) ->
  storable_schedule (b_sched st) -> storable_config (b_cfg st) -> Permutation l (f_sched (bwrite st)) ->
  exists g, write_state dz [] st = Ok g /\ forall order c, lists order -> read_state dz order g c = Ok (bread (bwrite st) l c).
Proof.
  intros HU HQ HS HC HL. destruct (binary_checkpoint_through_file st HU HQ HS HC) as (g & E & _ & _ & R). exists g. split; [exact E|]. intros order c HO. destruct (R order HO) as [R1 _]. rewrite (R1 c). f_equal.
  unfold bread, bwrite in *. cbn [f_sol f_series f_sched] in *. rewrite rev_involutive. f_equal. symmetry. destruct HS as (H1 & _ & H3). unfold schedule_kept, unmarked. apply (read_write_schedule (b_sched st) l); [exact H1|exact H3|exact HL].
Qed.
End Props.

(** A state with a refined tree, two samples and a due task. *)
Definition ex_orbit (n : Z) : @full_orbital Z := mkfull n (n + 1)%Z 2%Z 3%Z 4%Z 5%Z (mkorb 6%Z 7%Z 8%Z 9%Z).
Definition ex_block (n : Z) : block (@triple Z) := ([1; 2], [(n, 1, 2)%Z; (n, 3, 4)%Z]).
Definition ex_tree (n : Z) : tree (block (@triple Z)) := Node [Leaf (ex_block n); Leaf (ex_block 10%Z); Node [Leaf (ex_block 11%Z); Leaf (ex_block 12%Z); Leaf (ex_block 13%Z); Leaf (ex_block 14%Z)]; Leaf (ex_block 15%Z)].
Definition ex_sample (t : Z) : @sample Z := mksample t 1%Z 2%Z 3%Z 4%Z (5, 6)%Z (7, 8)%Z (9, 10)%Z (11, 12)%Z (ex_orbit 0%Z) (ex_orbit 1%Z) (ex_orbit 2%Z) (13, 14)%Z (15, 16)%Z.
Definition ex_solution : @bsolution Z := mkbsol 3%Z (7, 2)%Z (ex_tree 1%Z) (ex_tree 2%Z) (1, 2)%Z (3, 4)%Z (5, 6)%Z (7, 8)%Z 9%Z 10%Z (ex_orbit 3%Z) (ex_orbit 4%Z) (ex_orbit 5%Z).
Definition ex_state : @bstate Z (@bsolution Z) (smap (cval Z)) (@sample Z) :=
  mkb ex_solution [(lit "write_checkpoint"%string, mktask (lit "write_checkpoint"%string) 4%Z 2%Z true)] [ex_sample 2%Z; ex_sample 1%Z] ex_cfg.
(** Every group listed from the last name to the first. *)
Example binary_checkpoint_example :
  (do g <- write_state 0%Z [] ex_state; read_state 0%Z (fun h => rev (mkeys h)) g []) =
    Ok (mkb ex_solution [(lit "write_checkpoint"%string, mktask (lit "write_checkpoint"%string) 4%Z 2%Z false)] [ex_sample 2%Z; ex_sample 1%Z] []) /\
  (do g <- write_state 0%Z [] ex_state; do h <- open_group g (lit "solution"%string); do k <- open_group h (lit "conserved_u"%string); Ok (mkeys k)) =
    Ok (map lit ["1:0-0"; "1:1-0"; "1:1-1"; "2:0-2"; "2:0-3"; "2:1-2"; "2:1-3"]%string) /\
  storable_tree (ex_tree 1%Z).
Proof.
  split; [vm_compute; reflexivity|]. split; [vm_compute; reflexivity|]. split; [|split].
  - repeat (constructor; [reflexivity|]; repeat constructor).
  - vm_compute. lia.
  - repeat constructor.
Qed.
Print Assumptions binary_checkpoint_through_file.
Print Assumptions binary_checkpoint_complete.
Print Assumptions diagnostics_through_file.
Print Assumptions cloud_checkpoint_through_file.
Print Assumptions boilerplate_checkpoint_through_file.
Print Assumptions sedov_checkpoint_refuted.
Print Assumptions binary_file_agrees.
