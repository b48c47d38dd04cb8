(** Model of src/subprog_binary_io.cpp and of the checkpoint functions of src/subprog_cloud.cpp and src/subprog_boilerplate.cpp: whole
    checkpoint and diagnostics files, on the model of the HDF5 wrapper in Hdf5Model.v.  Doubles are an arbitrary type.  A group is listed by the
    library in some order of its own, [order]. *)
From Coq Require Import List Arith Ascii String Bool ZArith.
From Verif Require Import Base StrModel MapModel TreeModel ConfigModel ScheduleModel TreeNameModel Hdf5Model.
Import ListNotations.
Close Scope Z_scope.
Open Scope nat_scope.

Section checkpoint.
Context {D : Type} (dz : D).
Notation group := (Hdf5Model.group D).
Notation fixed := (Hdf5Model.fixed (D := D)).
Notation info := (Hdf5Model.info (D := D)).
Notation dbl := (fixed_double dz).

(** hdf5_type_info<arithmetic_sequence_t> of two elements, and <rational_number_t>, app_serialize.hpp 239-250, 273-284. *)
Definition fixed_pair {T} (f : fixed T) : fixed (T * T) :=
  mkfixed (f_default f, f_default f) (TArr (f_type f) 2) (fun v => EArr [f_put f (fst v); f_put f (snd v)])
    (fun e => match e with EArr [a; b] => (f_get f a, f_get f b) | _ => (f_default f, f_default f) end).
(** hdf5_type_info<conserved_per_area_t> and <conserved_angmom_per_area_t>, subprog_binary_io.cpp 8-38: three doubles in the order in which std::tuple
    holds them, which the language leaves open; here that of the components. *)
Definition triple : Type := (D * D * D)%type.
Definition fixed_triple : fixed triple :=
  mkfixed (dz, dz, dz) (TArr TDouble 3) (fun v => let '(a, b, c) := v in EArr [EDbl a; EDbl b; EDbl c])
    (fun e => match e with EArr [a; b; c] => (f_get dbl a, f_get dbl b, f_get dbl c) | _ => (dz, dz, dz) end).

(** orbital_elements_t, model_two_body.hpp 43-49 (default members, which reading overwrites, are all [dz] here), and its compound type, subprog_binary_io.cpp 42-62. *)
Record orbital : Type := mkorb { o_separation : D; o_total_mass : D; o_mass_ratio : D; o_eccentricity : D }.
Definition fixed_orbital : fixed orbital :=
  let d := mkorb dz dz dz dz in
  mkfixed d (TComp [(lit "separation", TDouble); (lit "total_mass", TDouble); (lit "mass_ratio", TDouble); (lit "eccentricity", TDouble)])
    (fun v => ECmp [EDbl (o_separation v); EDbl (o_total_mass v); EDbl (o_mass_ratio v); EDbl (o_eccentricity v)])
    (fun e => match e with ECmp [a; b; c; q] => mkorb (f_get dbl a) (f_get dbl b) (f_get dbl c) (f_get dbl q) | _ => d end).
(** full_orbital_elements_t, model_two_body.hpp 53-66, and its compound type, subprog_binary_io.cpp 67-90. *)
Record full_orbital : Type := mkfull { o_pomega : D; o_tau : D; o_x : D; o_y : D; o_vx : D; o_vy : D; o_elements : orbital }.
Definition fixed_full : fixed full_orbital :=
  let d := mkfull dz dz dz dz dz dz (f_default fixed_orbital) in
  mkfixed d (TComp [(lit "pomega", TDouble); (lit "tau", TDouble); (lit "cm_position_x", TDouble); (lit "cm_position_y", TDouble);
                    (lit "cm_velocity_x", TDouble); (lit "cm_velocity_y", TDouble); (lit "elements", f_type fixed_orbital)])
    (fun v => ECmp [EDbl (o_pomega v); EDbl (o_tau v); EDbl (o_x v); EDbl (o_y v); EDbl (o_vx v); EDbl (o_vy v); f_put fixed_orbital (o_elements v)])
    (fun e => match e with
              | ECmp [a; b; c; q; r; s; t] => mkfull (f_get dbl a) (f_get dbl b) (f_get dbl c) (f_get dbl q) (f_get dbl r) (f_get dbl s) (f_get fixed_orbital t)
              | _ => d end).
(** time_series_sample_t, subprog_binary.hpp 144-162, and its compound type, subprog_binary_io.cpp 95-125. *)
Record sample : Type := mksample {
  m_time : D; m_disk_mass : D; m_disk_angular_momentum : D; m_mass_ejected : D; m_angular_momentum_ejected : D;
  m_mass_accreted_on : D * D; m_angular_momentum_accreted_on : D * D; m_integrated_torque_on : D * D; m_work_done_on : D * D;
  m_orbital_elements_acc : full_orbital; m_orbital_elements_grav : full_orbital; m_orbital_elements : full_orbital;
  m_position_of_mass1 : D * D; m_position_of_mass2 : D * D }.
Definition fixed_sample : fixed sample :=
  let p := fixed_pair dbl in let o := fixed_full in
  let d := mksample dz dz dz dz dz (f_default p) (f_default p) (f_default p) (f_default p) (f_default o) (f_default o) (f_default o) (f_default p) (f_default p) in
  mkfixed d
    (TComp [(lit "time", TDouble); (lit "disk_mass", TDouble); (lit "disk_angular_momentum", TDouble);
            (lit "mass_accreted_on", f_type p); (lit "angular_momentum_accreted_on", f_type p); (lit "integrated_torque_on", f_type p); (lit "work_done_on", f_type p);
            (lit "mass_ejected", TDouble); (lit "angular_momentum_ejected", TDouble);
            (lit "orbital_elements_acc", f_type o); (lit "orbital_elements_grav", f_type o); (lit "orbital_elements", f_type o);
            (lit "position_of_mass1", f_type p); (lit "position_of_mass2", f_type p)])
    (fun v => ECmp [EDbl (m_time v); EDbl (m_disk_mass v); EDbl (m_disk_angular_momentum v);
            f_put p (m_mass_accreted_on v); f_put p (m_angular_momentum_accreted_on v); f_put p (m_integrated_torque_on v); f_put p (m_work_done_on v);
            EDbl (m_mass_ejected v); EDbl (m_angular_momentum_ejected v);
            f_put o (m_orbital_elements_acc v); f_put o (m_orbital_elements_grav v); f_put o (m_orbital_elements v);
            f_put p (m_position_of_mass1 v); f_put p (m_position_of_mass2 v)])
    (fun e => match e with
              | ECmp [t; dm; dl; ma; la; it; wd; me; le; oa; og; oe; p1; p2] =>
                  mksample (f_get dbl t) (f_get dbl dm) (f_get dbl dl) (f_get dbl me) (f_get dbl le) (f_get p ma) (f_get p la) (f_get p it) (f_get p wd)
                           (f_get o oa) (f_get o og) (f_get o oe) (f_get p p1) (f_get p p2)
              | _ => d end).

(** A tree of arrays of rank two with elements of type T: each array by its shape and its elements. *)
Definition block (T : Type) : Type := (list nat * list T)%type.
(** The tree a default-constructed object holds: one array of shape (0, 0). *)
Definition no_block {T} : block T := ([0; 0], []).
(** write_tree, app_serialize_tree.hpp 167-180: one data set per leaf. *)
Definition write_tree_file {T} (f : fixed T) (g : group) (t : tree (block T)) : outcome group :=
  do p <- pair_indexes 2 t;
  foldM (fun g e => do n <- format_tree_index (fst e); write (array_info f 2) g n (snd e)) g (leaves p).
(** read_tree, app_serialize_tree.hpp 135-149. *)
Definition read_tree_file {T} (f : fixed T) (g : group) (links : list str) (t : tree (block T)) : outcome (tree (block T)) :=
  foldM (fun t link =>
           do n <- link_name link;
           do v <- read (array_info f 2) g n;
           do i <- read_tree_index 2 n;
           insert no_block t i v) t links.

(** mara::write(group, name, value) for a value that is written into a group of its own: require_group(name), then [f]. *)
Definition in_group (g : group) (name : str) (f : group -> outcome group) : outcome group :=
  do h <- require_group g name;
  do h' <- f h;
  Ok (mset (c_name name) (OGroup h') g).
(** mara::write(group, name, value) for other values, app_serialize.hpp 128-133. *)
Definition put {T} (f : fixed T) (name : str) (v : T) (g : group) : outcome group := write (scalar_info f) g name v.
Definition get {T} (f : fixed T) (g : group) (name : str) : outcome T := read (scalar_info f) g name.

(** solution_t, subprog_binary.hpp 107-127. *)
Record bsolution : Type := mkbsol {
  s_time : D; s_iteration : Z * Z; s_conserved_u : tree (block triple); s_conserved_q : tree (block triple);
  s_mass_accreted_on : D * D; s_angular_momentum_accreted_on : D * D; s_integrated_torque_on : D * D; s_work_done_on : D * D;
  s_mass_ejected : D; s_angular_momentum_ejected : D;
  s_orbital_elements_acc : full_orbital; s_orbital_elements_grav : full_orbital; s_orbital_elements : full_orbital }.

(** mara::write<solution_t>, subprog_binary_io.cpp 130-148. *)
Definition write_solution (s : bsolution) (g : group) : outcome group :=
  do g <- put dbl (lit "time") (s_time s) g;
  do g <- put (fixed_pair fixed_int) (lit "iteration") (s_iteration s) g;
  do g <- in_group g (lit "conserved_u") (fun h => write_tree_file fixed_triple h (s_conserved_u s));
  do g <- in_group g (lit "conserved_q") (fun h => write_tree_file fixed_triple h (s_conserved_q s));
  do g <- put (fixed_pair dbl) (lit "mass_accreted_on") (s_mass_accreted_on s) g;
  do g <- put dbl (lit "angular_momentum_ejected") (s_angular_momentum_ejected s) g;
  do g <- put (fixed_pair dbl) (lit "integrated_torque_on") (s_integrated_torque_on s) g;
  do g <- put (fixed_pair dbl) (lit "work_done_on") (s_work_done_on s) g;
  do g <- put dbl (lit "mass_ejected") (s_mass_ejected s) g;
  do g <- put (fixed_pair dbl) (lit "angular_momentum_accreted_on") (s_angular_momentum_accreted_on s) g;
  do g <- put fixed_full (lit "orbital_elements_acc") (s_orbital_elements_acc s) g;
  do g <- put fixed_full (lit "orbital_elements_grav") (s_orbital_elements_grav s) g;
  put fixed_full (lit "orbital_elements") (s_orbital_elements s) g.

(** The program state, ScheduleModel.v, with the solution and samples of the program. *)
Notation bstate := (@bstate D bsolution (smap (cval D)) sample).
(** mara::write<state_t>(group, "/", state), subprog_binary_io.cpp 150-158: require_group("/") opens the root. *)
Definition write_state (g : group) (s : bstate) : outcome group :=
  do g <- in_group g (lit "solution") (write_solution (b_sol s));
  do g <- in_group g (lit "schedule") (fun h => write_schedule_file dz h (b_sched s));
  do g <- write (list_info fixed_sample (fun l => l) (fun l => l)) g (lit "time_series") (rev (b_series s));
  in_group g (lit "run_config") (fun h => write_config_file dz h (b_cfg s)).

Section reading.
Variable order : group -> list str.
(** mara::read<solution_t>, subprog_binary_io.cpp 174-191, into a default-constructed solution. *)
Definition read_solution (g : group) : outcome bsolution :=
  do t <- get dbl g (lit "time");
  do i <- get (fixed_pair fixed_int) g (lit "iteration");
  do hu <- open_group g (lit "conserved_u"); do u <- read_tree_file fixed_triple hu (order hu) (Leaf no_block);
  do hq <- open_group g (lit "conserved_q"); do q <- read_tree_file fixed_triple hq (order hq) (Leaf no_block);
  do ma <- get (fixed_pair dbl) g (lit "mass_accreted_on");
  do le <- get dbl g (lit "angular_momentum_ejected");
  do it <- get (fixed_pair dbl) g (lit "integrated_torque_on");
  do wd <- get (fixed_pair dbl) g (lit "work_done_on");
  do me <- get dbl g (lit "mass_ejected");
  do la <- get (fixed_pair dbl) g (lit "angular_momentum_accreted_on");
  do oa <- get fixed_full g (lit "orbital_elements_acc");
  do og <- get fixed_full g (lit "orbital_elements_grav");
  do oe <- get fixed_full g (lit "orbital_elements");
  Ok (mkbsol t i u q ma la it wd me le oa og oe).
(** mara::read<state_t>(group, "/"), subprog_binary_io.cpp 193-201, and .with(run_config), subprog_binary.cpp 251. *)
Definition read_state (g : group) (c : smap (cval D)) : outcome bstate :=
  do h <- require_group g (lit "solution"); do s <- read_solution h;
  do l <- read (list_info fixed_sample (fun l => l) (fun l => l)) g (lit "time_series");
  do k <- open_group g (lit "schedule"); do sc <- read_schedule_file dz k (order k);
  Ok (mkb s sc (rev l) c).
(** The configuration in the file, subprog_binary.cpp 155-164. *)
Definition stored_config (g : group) : outcome (smap (cval D)) :=
  do h <- open_group g (lit "run_config"); read_config_file dz h (order h).
End reading.

(** diagnostic_fields_t, subprog_binary.hpp 130-140. *)
Record bdiag : Type := mkbdiag {
  g_config : smap (cval D); g_time : D; g_vertices : tree (block (D * D)); g_sigma : tree (block D); g_radial_velocity : tree (block D); g_phi_velocity : tree (block D);
  g_position_of_mass1 : D * D; g_position_of_mass2 : D * D }.
(** mara::write<diagnostic_fields_t>, subprog_binary_io.cpp 160-172. *)
Definition write_diagnostics (g : group) (s : bdiag) : outcome group :=
  do g <- in_group g (lit "run_config") (fun h => write_config_file dz h (g_config s));
  do g <- put dbl (lit "time") (g_time s) g;
  do g <- in_group g (lit "vertices") (fun h => write_tree_file (fixed_pair dbl) h (g_vertices s));
  do g <- in_group g (lit "sigma") (fun h => write_tree_file dbl h (g_sigma s));
  do g <- in_group g (lit "radial_velocity") (fun h => write_tree_file dbl h (g_radial_velocity s));
  do g <- in_group g (lit "phi_velocity") (fun h => write_tree_file dbl h (g_phi_velocity s));
  do g <- put (fixed_pair dbl) (lit "position_of_mass1") (g_position_of_mass1 s) g;
  put (fixed_pair dbl) (lit "position_of_mass2") (g_position_of_mass2 s) g.
(** mara::read<diagnostic_fields_t>, subprog_binary_io.cpp 203-215: the configuration is not read, and stays [c]. *)
Definition read_diagnostics (order : group -> list str) (g : group) (c : smap (cval D)) : outcome bdiag :=
  do t <- get dbl g (lit "time");
  do h1 <- open_group g (lit "vertices"); do v <- read_tree_file (fixed_pair dbl) h1 (order h1) (Leaf no_block);
  do h2 <- open_group g (lit "sigma"); do s <- read_tree_file dbl h2 (order h2) (Leaf no_block);
  do h3 <- open_group g (lit "radial_velocity"); do r <- read_tree_file dbl h3 (order h3) (Leaf no_block);
  do h4 <- open_group g (lit "phi_velocity"); do p <- read_tree_file dbl h4 (order h4) (Leaf no_block);
  do p1 <- get (fixed_pair dbl) g (lit "position_of_mass1");
  do p2 <- get (fixed_pair dbl) g (lit "position_of_mass2");
  Ok (mkbdiag c t v s r p p1 p2).

(** The solution of the cloud program, subprog_cloud.cpp 104-111; the conserved quantities are sequences of five numbers. *)
Record csolution : Type := mkcsol { k_time : D; k_iteration : Z * Z; k_radial : block D; k_polar : block D; k_conserved : block (list D) }.
(** write_solution and read_solution, subprog_cloud.cpp 590-608. *)
Definition write_cloud (s : csolution) (g : group) : outcome group :=
  do g <- put dbl (lit "time") (k_time s) g;
  do g <- put (fixed_pair fixed_int) (lit "iteration") (k_iteration s) g;
  do g <- write (array_info dbl 1) g (lit "radial_vertices") (k_radial s);
  do g <- write (array_info dbl 1) g (lit "polar_vertices") (k_polar s);
  write (array_info (fixed_array dbl 5) 2) g (lit "conserved") (k_conserved s).
Definition read_cloud (g : group) : outcome csolution :=
  do t <- get dbl g (lit "time");
  do i <- get (fixed_pair fixed_int) g (lit "iteration");
  do r <- read (array_info dbl 1) g (lit "radial_vertices");
  do q <- read (array_info dbl 1) g (lit "polar_vertices");
  do u <- read (array_info (fixed_array dbl 5) 2) g (lit "conserved");
  Ok (mkcsol t i r q u).
(** The solution of the boilerplate program, subprog_boilerplate.cpp 58-64, 81-98. *)
Record psolution : Type := mkpsol { p_time : D; p_iteration : Z; p_vertices : block D; p_solution : block D }.
Definition write_plain (s : psolution) (g : group) : outcome group :=
  do g <- put dbl (lit "time") (p_time s) g;
  do g <- put fixed_int (lit "iteration") (p_iteration s) g;
  do g <- write (array_info dbl 1) g (lit "vertices") (p_vertices s);
  write (array_info dbl 1) g (lit "solution") (p_solution s).
Definition read_plain (g : group) : outcome psolution :=
  do t <- get dbl g (lit "time");
  do i <- get fixed_int g (lit "iteration");
  do v <- read (array_info dbl 1) g (lit "vertices");
  do u <- read (array_info dbl 1) g (lit "solution");
  Ok (mkpsol t i v u).
(** write_checkpoint, subprog_cloud.cpp 758-768 ([config] is "config") and subprog_boilerplate.cpp 201-210 ("run_config"). *)
Definition write_simple {S} (write_sol : S -> group -> outcome group) (config : str) (g : group) (s : @sstate D S (smap (cval D))) : outcome group :=
  do g <- in_group g (lit "solution") (write_sol (s_sol s));
  do g <- in_group g (lit "schedule") (fun h => write_schedule_file dz h (s_sched s));
  in_group g config (fun h => write_config_file dz h (s_cfg s)).
(** create_solution and create_schedule on restart, subprog_cloud.cpp 668-674, 711-718, subprog_boilerplate.cpp 113-120, 150-156; the configuration is read from
    the group [config], subprog_cloud.cpp 743-752, subprog_boilerplate.cpp 179-188. *)
Definition read_simple {S} (order : group -> list str) (read_sol : group -> outcome S) (config : str) (g : group) : outcome (@sstate D S (smap (cval D))) :=
  do hc <- open_group g config; do c <- read_config_file dz hc (order hc);
  do h <- open_group g (lit "solution"); do s <- read_sol h;
  do k <- open_group g (lit "schedule"); do sc <- read_schedule_file dz k (order k);
  Ok (mks s sc c).
End checkpoint.
