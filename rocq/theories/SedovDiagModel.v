(** The diagnostics file of the explosion program, src/subprog_sedov.cpp 135-143, 253-270 and 497-515, on the arrays of NdModel
    and the files of Hdf5Model.  Doubles are real numbers; the values of a division by zero (NaN or infinity) are None. *)
From Coq Require Import ZArith Reals List String.
From Verif Require Import Base StrModel MapModel NdModel NdOpsModel HydroModel SedovModel ShockModel ScheduleModel Hdf5Model.
Import ListNotations.
Open Scope Z_scope.

(** diagnostic_fields_t, src/subprog_sedov.cpp 135-143. *)
Record fields := Fields { f_density : array R; f_pressure : array R; f_entropy : array R; f_gamma_beta : array R; f_coordinates : array R; f_series : time_series }.

Section Diagnostics.
Variable H : hydro.
(** solve_for_shock_velocity of the system, src/subprog_sedov.cpp 96-114. *)
Variable velocity : prim -> prim -> option R.
Variable fuel : nat.

(** make_diagnostic_fields, src/subprog_sedov.cpp 253-270.  [primitive] is not evaluated there but each time anew by the four
    arrays made of it; here it is evaluated once.  radial_velocity_or_gamma_beta (76-84) is the first component of either. *)
Definition make_diagnostic_fields (s : solution) : outcome fields :=
  do primitive <- primitives H fuel s;
  do se <- evaluate fuel 0%R (arr_map (specific_entropy gamma_law_index) primitive);
  do gp <- evaluate fuel 0%R (arr_map pre primitive);
  do md <- evaluate fuel 0%R (arr_map rho primitive);
  do gb <- evaluate fuel 0%R (arr_map u1 primitive);
  do c <- cell_centers (s_vertices s);
  do rc <- evaluate fuel 0%R c;
  do ts <- compute_time_series_data H velocity fuel s;
  Ok (Fields md gp se gb rc ts).

(** A double in a file. *)
Definition dbl := fixed_double (D := option R) None.
(** The shape and the elements of an array of rank one, in the order of its buffer. *)
Definition contents (a : array R) : outcome (list nat * list (option R)) :=
  let n := volume (ashape a) in
  do l <- mapM (fun k => aget a [Z.of_nat k]) (seq 0 (Z.to_nat n));
  Ok ([Z.to_nat n], map Some l).
(** The map that compute_time_series_data returns, src/subprog_sedov.cpp 304-312, in the order of the map. *)
Definition series_items (t : time_series) : list (str * option R) :=
  fold_right (fun e m => mset (fst e) (snd e) m) [] [(lit "time"%string, Some (ts_time t)); (lit "shock_radius"%string, Some (shock_radius t)); (lit "shock_radius_upstream"%string, Some (radius_upstream t));
               (lit "shock_radius_downstream"%string, Some (radius_downstream t)); (lit "shock_radius_interpolated"%string, radius_interpolated t); (lit "shock_velocity"%string, shock_velocity t)].
(** file.write(name, array). *)
Definition write_field (name : str) (a : array R) (g : group (option R)) : outcome (group (option R)) :=
  do v <- contents a; write (array_info dbl 1) g name v.
(** write_diagnostics, src/subprog_sedov.cpp 497-515, into the new file. *)
Definition write_diagnostics (s : solution) : outcome (group (option R)) :=
  do d <- make_diagnostic_fields s;
  do g <- write_field (lit "gas_pressure"%string) (f_pressure d) [];
  do g <- write_field (lit "mass_density"%string) (f_density d) g;
  do g <- write_field (lit "specific_entropy"%string) (f_entropy d) g;
  do g <- write_field (lit "radial_gamma_beta"%string) (f_gamma_beta d) g;
  do g <- write_field (lit "radial_coordinates"%string) (f_coordinates d) g;
  foldM (fun g e => write (scalar_info dbl) g (fst e) (snd e)) g (series_items (f_series d)).
End Diagnostics.
