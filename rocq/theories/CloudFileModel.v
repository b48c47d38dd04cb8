(** The files of the cloud program other than its checkpoints: write_diagnostics, src/subprog_cloud.cpp 769-799, on the files of
    Hdf5Model, and time_series.h5 (801-803 and 891-906), on the extensible data sets of ExtentModel.  Doubles are real numbers. *)
From Coq Require Import ZArith Reals List String.
From Verif Require Import Base StrModel MapModel NdModel NdOpsModel HydroModel SedovModel CloudModel CloudDiagModel ScheduleModel Hdf5Model MainModel.
From Verif Require SedovDiagModel ExtentModel.
Import ListNotations.
Open Scope Z_scope.

(** A double in a file. *)
Definition dbl := SedovDiagModel.dbl.
(** The shape and the elements of an array of rank two, in the order of its buffer: the strides are those of
    make_strides_row_major, src/core_ndarray.hpp 777-792, so the element at the position k has the index k / n1, k % n1. *)
Definition contents2 (a : array R) : outcome (list nat * list (option R)) :=
  match ashape a with
  | [n0; n1] =>
      do l <- mapM (fun k => aget a [Z.of_nat k / n1; Z.of_nat k mod n1]) (seq 0 (Z.to_nat (volume (ashape a))));
      Ok ([Z.to_nat n0; Z.to_nat n1], map Some l)
  | _ => UB
  end.
(** file.write(name, array), for a table over the cells, for vertices, and for an array over the polar zones, whose entries are
    the fields f of the records (see CloudDiagModel). *)
Definition write_table (name : str) (a : array R) (g : group (option R)) : outcome (group (option R)) :=
  do v <- contents2 a; write (array_info dbl 2) g name v.
Definition write_zones (name : str) (f : zone -> R) (zs : list zone) (g : group (option R)) : outcome (group (option R)) :=
  write (array_info dbl 1) g name ([List.length zs], map (fun z => Some (f z)) zs).
(** write_diagnostics, src/subprog_cloud.cpp 769-799, into the new file. *)
Definition write_fields (d : fields) : outcome (group (option R)) :=
  let zs := f_zones d in
  do g <- write (scalar_info dbl) [] (lit "time"%string) (Some (f_time d));
  do g <- write_table (lit "gas_pressure"%string) (f_gas_pressure d) g;
  do g <- write_table (lit "mass_density"%string) (f_mass_density d) g;
  do g <- write_table (lit "specific_entropy"%string) (f_specific_entropy d) g;
  do g <- write_table (lit "radial_energy_flow"%string) (f_radial_energy_flow d) g;
  do g <- write_table (lit "radial_gamma_beta"%string) (f_radial_gamma_beta d) g;
  do g <- SedovDiagModel.write_field (lit "radial_vertices"%string) (f_radial_vertices d) g;
  do g <- SedovDiagModel.write_field (lit "polar_vertices"%string) (f_polar_vertices d) g;
  do g <- write_zones (lit "solid_angle_at_theta"%string) solid_angle zs g;
  do g <- write_zones (lit "total_energy_at_theta"%string) total_energy zs g;
  do g <- write_zones (lit "shock_midpoint_radius"%string) midpoint_radius zs g;
  do g <- write_zones (lit "shock_upstream_radius"%string) upstream_radius zs g;
  do g <- write_zones (lit "shock_pressure_radius"%string) pressure_radius zs g;
  do g <- write_zones (lit "shock_luminosity_radius"%string) luminosity_radius zs g;
  do g <- write_zones (lit "postshock_flow_gamma"%string) flow_gamma zs g;
  do g <- write_zones (lit "postshock_flow_power"%string) flow_power zs g;
  do g <- write_zones (lit "postshock_flow_power02"%string) (fun z => nth 0 (powers z) 0%R) zs g;
  do g <- write_zones (lit "postshock_flow_power04"%string) (fun z => nth 1 (powers z) 0%R) zs g;
  do g <- write_zones (lit "postshock_flow_power08"%string) (fun z => nth 2 (powers z) 0%R) zs g;
  do g <- write_zones (lit "postshock_flow_power16"%string) (fun z => nth 3 (powers z) 0%R) zs g;
  do g <- write_zones (lit "postshock_flow_power32"%string) (fun z => nth 4 (powers z) 0%R) zs g;
  do g <- write_zones (lit "postshock_flow_power64"%string) (fun z => nth 5 (powers z) 0%R) zs g;
  write_zones (lit "postshock_flow_power_max"%string) flow_power_max zs g.
Definition write_diagnostics (c : config) (fuel : nat) (s : solution) : outcome (group (option R)) :=
  do d <- make_diagnostic_fields c fuel s; write_fields d.

(** time_series.h5.  prepare_filesystem without restart, src/subprog_cloud.cpp 898-905: two columns without rows (and the
    configuration, left out). *)
Definition new_series : outcome (ExtentModel.columns (D := R)) := ExtentModel.new_series 0%R [lit "time"%string; lit "shock_radius"%string].
(** write_time_series, src/subprog_cloud.cpp 801-803: its body is empty. *)
Definition write_time_series (s : solution) (f : ExtentModel.columns (D := R)) : outcome (ExtentModel.columns (D := R)) := Ok f.
(** What the outputs of a run do to the file; the state that run_tasks (844-848) hands to write_time_series is of no use to it. *)
Definition series_after (s : solution) (o : list (sout (T := R) (Sol := solution) (Cfg := cloud_config))) (f : ExtentModel.columns (D := R)) : outcome (ExtentModel.columns (D := R)) :=
  foldM (fun f x => match x with SOther name _ => match str_cmp name (lit "write_time_series"%string) with Eq => write_time_series s f | _ => Ok f end | _ => Ok f end) f o.
