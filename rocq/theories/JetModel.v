(** The jet nozzle of the cloud program, src/model_jet_nozzle.hpp.  Doubles are real numbers. *)
From Coq Require Import Reals Lra.
Open Scope R_scope.

(** std::pow of a non-negative number to a positive power. *)
Definition pow0 (x y : R) : R := if Rlt_dec 0 x then Rpower x y else 0.

(** struct jet_nozzle_model, src/model_jet_nozzle.hpp 55-128; the constant is light_speed_cgs, 57.  The field [as] is
    called [structure_exponent] here. *)
Record jet := Jet { Ej : R; G0 : R; tj : R; qj : R; structure_exponent : R; r0 : R }.
Definition light_speed_cgs : R := 30000000000.
(** The default values, src/model_jet_nozzle.hpp 122-127. *)
Definition default_jet : jet := Jet 1 2 1 (1 / 10) 2 1.
(** density_at_base, src/model_jet_nozzle.hpp 117-120. *)
Definition density_at_base (j : jet) : R := Ej j / (2 * PI * (G0 j * r0 j * qj j) ^ 2 * tj j * light_speed_cgs ^ 3).
(** luminosity_per_steradian, src/model_jet_nozzle.hpp 75-82. *)
Definition luminosity_per_steradian (j : jet) (q t : R) : R :=
  density_at_base j * G0 j ^ 2 * r0 j ^ 2 * light_speed_cgs ^ 3 * exp (- pow0 (q / qj j) (structure_exponent j)) * exp (- t / tj j).
(** gamma_beta, src/model_jet_nozzle.hpp 97-102. *)
Definition gamma_beta (j : jet) (q t : R) : R :=
  G0 j * exp (- (1 / 2) * pow0 (q / qj j) (structure_exponent j)) * exp (- (1 / 2) * t / tj j).
