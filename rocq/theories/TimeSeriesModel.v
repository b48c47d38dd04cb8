(** Model of the samples of the time series of the binary program, with the physics of SolutionModel.v. *)
From Coq Require Import Reals.
From Verif Require Import Base TwoBodyModel HydroModel SourceModel SolutionModel.
Open Scope R_scope.

(** time_series_sample_t, src/subprog_binary.hpp 144-161. The prefix x_ keeps the names apart from those of solution_t. *)
Record sample : Type := Sample {
  x_time : R;
  x_disk_mass : R;
  x_disk_angular_momentum : R;
  x_mass_ejected : R;
  x_angular_momentum_ejected : R;
  x_mass_accreted_on : R * R;
  x_angular_momentum_accreted_on : R * R;
  x_integrated_torque_on : R * R;
  x_work_done_on : R * R;
  x_orbital_elements_acc : elements;
  x_orbital_elements_grav : elements;
  x_orbital_elements : elements;
  x_position_of_mass1 : R * R;
  x_position_of_mass2 : R * R
}.

(** record_time_series, src/subprog_binary.cpp 358-375: the sample it makes of a solution. What it does with it, put it in
    front of the series (377), is in ScheduleModel.v. *)
Definition sample_of (fd : fields) (fuel : nat) (sd : settings) (s : solution) : outcome sample :=
  do b <- full_state_at fuel (orbital_elements s) (time s);
  do m <- disk_mass sd fd s;
  do l <- disk_angular_momentum sd fd s;
  Ok (Sample (time s) m l (s_mass_ejected s) (s_angular_momentum_ejected s) (s_mass_accreted_on s)
        (s_angular_momentum_accreted_on s) (s_integrated_torque_on s) (s_work_done_on s)
        (orbital_elements_acc s) (orbital_elements_grav s) (orbital_elements s)
        (px (body1 b), py (body1 b)) (px (body2 b), py (body2 b))).
