(** The atmosphere models of the cloud program, src/model_atmosphere.hpp.  Doubles are real numbers. *)
From Coq Require Import Reals Lra.
From Verif Require Import Base.
Open Scope R_scope.

(** std::pow with a non-integral exponent.  The model is the power of positive numbers; for others it is not used (the
    theorems ask for positive radii and masses, and [log_ratio] stops where the double result would not be a number). *)
Definition cpow (x y : R) : R := Rpower x y.
(** std::log10. *)
Definition log10 (x : R) : R := ln x / ln 10.

(** struct power_law_atmosphere_model, src/model_atmosphere.hpp 91-135. *)
Record atmosphere := Atmosphere { f0 : R; r0 : R; rc : R; n1 : R; n2 : R }.
(** The default values, src/model_atmosphere.hpp 130-134. *)
Definition default_atmosphere : atmosphere := Atmosphere 1 1 100 2 6.
(** with_coefficient ... with_outer_index, src/model_atmosphere.hpp 93-97. *)
Definition with_coefficient (a : atmosphere) (x : R) : atmosphere := Atmosphere x (r0 a) (rc a) (n1 a) (n2 a).
Definition with_inner_radius (a : atmosphere) (x : R) : atmosphere := Atmosphere (f0 a) x (rc a) (n1 a) (n2 a).
Definition with_cutoff_radius (a : atmosphere) (x : R) : atmosphere := Atmosphere (f0 a) (r0 a) x (n1 a) (n2 a).
Definition with_inner_index (a : atmosphere) (x : R) : atmosphere := Atmosphere (f0 a) (r0 a) (rc a) x (n2 a).
Definition with_outer_index (a : atmosphere) (x : R) : atmosphere := Atmosphere (f0 a) (r0 a) (rc a) (n1 a) x.

(** density_at, src/model_atmosphere.hpp 124-127.  The recursive call is at the cutoff radius, where the first branch is
    taken. *)
Definition density_inside (a : atmosphere) (r : R) : R := f0 a * cpow (r / r0 a) (- n1 a).
Definition density_at (a : atmosphere) (r : R) : R :=
  if Rle_dec r (rc a) then density_inside a r else density_inside a (rc a) * cpow (r / rc a) (- n2 a).
(** mass_within_cutoff, src/model_atmosphere.hpp 103-108. *)
Definition mass_within_cutoff (a : atmosphere) : R :=
  if Req_EM_T (n1 a) 3 then 4 * PI * (density_at a (rc a) * rc a ^ 3 * ln (rc a / r0 a))
  else 4 * PI * (density_at a (rc a) * rc a ^ 3 - density_at a (r0 a) * r0 a ^ 3) / (3 - n1 a).
(** mass_beyond_cutoff, src/model_atmosphere.hpp 110-117. *)
Definition mass_beyond_cutoff (a : atmosphere) : outcome R :=
  if Rle_dec (n2 a) 3 then Throw InvalidArgument else Ok (4 * PI * density_at a (rc a) * rc a ^ 3 / (n2 a - 3)).
(** total_mass, src/model_atmosphere.hpp 119-122. *)
Definition total_mass (a : atmosphere) : outcome R := do m <- mass_beyond_cutoff a; Ok (mass_within_cutoff a + m).
(** with_total_mass, src/model_atmosphere.hpp 98-101. *)
Definition with_total_mass (a : atmosphere) (m : R) : outcome atmosphere := do t <- total_mass a; Ok (with_coefficient a (m / t)).

(** detail::solve_secant, src/model_atmosphere.hpp 57-78, after the two starting values have been evaluated.  Where the two
    values agree the quotient is not a number: no result here. *)
Fixpoint secant_loop (fuel : nat) (f : R -> outcome R) (x1 y1 x2 y2 tolerance : R) : outcome R :=
  if Rlt_dec tolerance (Rabs y2) then
    match fuel with
    | O => NoFuel
    | S n =>
      if Req_EM_T y2 y1 then UB else
      let x_next := x2 - y2 * (x2 - x1) / (y2 - y1) in
      do y_next <- f x_next;
      secant_loop n f x2 y2 x_next y_next tolerance
    end
  else Ok x2.
Definition solve_secant (fuel : nat) (f : R -> outcome R) (guess1 guess2 tolerance : R) : outcome R :=
  do y1 <- f guess1; do y2 <- f guess2; secant_loop fuel f guess1 y1 guess2 y2 tolerance.

(** struct cloud_and_envelop_model, src/model_atmosphere.hpp 155-281; the constants solar_mass and light_speed
    (273-274) are 1.989e33 and 2.998e10. *)
Record envelop := Envelop { inner_radius : R; envelop_mass : R; u1 : R; m1 : R; psi : R; cloud_index : R }.
Definition light_speed : R := 29980000000.
Definition solar_mass : R := 1989 * 10 ^ 30.
(** The default values, src/model_atmosphere.hpp 275-280. *)
Definition default_envelop : envelop := Envelop (3 * 10 ^ 8) (5 / 1000 * solar_mass) 4 (10 ^ 26) (1 / 4) 2.

Section Envelop.
Context (e : envelop).
(** gamma_beta, src/model_atmosphere.hpp 167-170. *)
Definition gamma_beta (m : R) : R := u1 e * cpow (m / m1 e) (- psi e).
(** velocity, src/model_atmosphere.hpp 172-176. *)
Definition velocity (m : R) : R := let u := gamma_beta m in u / sqrt (1 + u * u) * light_speed.
(** dudm, src/model_atmosphere.hpp 178-181. *)
Definition dudm (m : R) : R := - psi e / m * gamma_beta m.
(** radius, src/model_atmosphere.hpp 183-186. *)
Definition radius (m t : R) : R := velocity m * t.
(** density, src/model_atmosphere.hpp 188-193. *)
Definition density (m t : R) : R :=
  let gamma_squared := 1 + gamma_beta m ^ 2 in
  let beta := velocity m / light_speed in
  gamma_squared * beta / (4 * PI * radius m t ^ 3) / Rabs (dudm m).
(** cloud_gamma_beta, cloud_velocity, cloud_outer_boundary, envelop_outer_boundary, src/model_atmosphere.hpp 195-214. *)
Definition cloud_gamma_beta : R := let beta := velocity (envelop_mass e) / light_speed in beta / sqrt (1 - beta * beta).
Definition cloud_velocity : R := velocity (envelop_mass e).
Definition cloud_outer_boundary (t : R) : R := cloud_velocity * t.
Definition envelop_outer_boundary (t : R) : R := radius (m1 e) t.
(** The function whose root mass_coordinate looks for, src/model_atmosphere.hpp 218; not a number for m <= 0. *)
Definition log_ratio (r t m : R) : outcome R := if Rlt_dec 0 m then Ok (log10 r - log10 (radius m t)) else UB.
(** mass_coordinate, src/model_atmosphere.hpp 216-220; the tolerance is 1e-10. *)
Definition mass_coordinate (fuel : nat) (r t : R) : outcome R := solve_secant fuel (log_ratio r t) (m1 e) (m1 e * 2) (/ 10 ^ 10).
(** density_at, power_law_cloud, src/model_atmosphere.hpp 222-239.  power_law_cloud calls density_at at the boundary of the
    cloud, and density_at beyond the envelop calls itself at the outer boundary; neither call takes those branches again as
    long as the envelop reaches beyond the cloud (m1 <= envelop_mass; otherwise the two call each other without end, which
    this model does not show). *)
Definition shell_density_at (fuel : nat) (r t : R) : outcome R :=
  if Rlt_dec (envelop_outer_boundary t) r
  then do m <- mass_coordinate fuel (envelop_outer_boundary t) t; Ok (density m t * cpow (r / envelop_outer_boundary t) (- 2))
  else do m <- mass_coordinate fuel r t; Ok (density m t).
Definition envelop_density_at (fuel : nat) (r t : R) : outcome R :=
  if Rlt_dec r (cloud_outer_boundary t)
  then do d <- shell_density_at fuel (cloud_outer_boundary t) t; Ok (d * cpow (r / cloud_outer_boundary t) (- cloud_index e))
  else shell_density_at fuel r t.
(** gamma_beta_at, velocity_at, src/model_atmosphere.hpp 241-256. *)
Definition gamma_beta_at (fuel : nat) (r t : R) : outcome R :=
  if Rlt_dec r (cloud_outer_boundary t) then Ok cloud_gamma_beta
  else if Rlt_dec (envelop_outer_boundary t) r then do m <- mass_coordinate fuel (envelop_outer_boundary t) t; Ok (gamma_beta m)
  else do m <- mass_coordinate fuel r t; Ok (gamma_beta m).
Definition velocity_at (fuel : nat) (r t : R) : outcome R :=
  do u <- gamma_beta_at fuel r t; Ok (u / sqrt (1 + u * u) * light_speed).
(** cloud_mass, total_mass, src/model_atmosphere.hpp 257-270. *)
Definition cloud_mass (fuel : nat) (t : R) : outcome R :=
  let rc := cloud_outer_boundary t in
  do d <- envelop_density_at fuel rc t;
  if Req_EM_T (cloud_index e) 3 then Ok (4 * PI * (d * rc ^ 3 * ln (rc / inner_radius e)))
  else do d0 <- envelop_density_at fuel (inner_radius e) t;
       Ok (4 * PI * (d * rc ^ 3 - d0 * inner_radius e ^ 3) / (3 - cloud_index e)).
End Envelop.
