(** Model of model_two_body.hpp: orbital elements and states of a binary.
    Doubles are exact real numbers.  Loops that test a floating-point condition carry fuel. *)
From Coq Require Import Reals.
From Verif Require Import Base.
Open Scope R_scope.

(** model_two_body.hpp:43-49. *)
Record orbit := Orbit { sep : R; mtot : R; ratio : R; ecc : R }.
(** model_two_body.hpp:53-66. *)
Record elements := Elements { pomega : R; tau : R; cmx : R; cmy : R; cmvx : R; cmvy : R; orb : orbit }.
(** model_two_body.hpp:70-77. *)
Record body := Body { mass : R; px : R; py : R; vx : R; vy : R }.
(** model_two_body.hpp:81-85. *)
Record two_body := TwoBody { body1 : body; body2 : body }.

(** model_two_body.hpp:130-145: the loop stops as soon as |y| <= tolerance. *)
Fixpoint newton (fuel : nat) (f g : R -> R) (tol x : R) : outcome R :=
  match fuel with
  | O => NoFuel
  | S k => if Rlt_dec tol (Rabs (f x)) then newton k f g tol (x - f x / g x) else Ok x
  end.
(** model_two_body.hpp:150-157. *)
Fixpoint wrap (fuel : nat) (x0 x1 x : R) : outcome R :=
  match fuel with
  | O => NoFuel
  | S k => if Rlt_dec x x0 then wrap k x0 x1 (x + (x1 - x0)) else if Rlt_dec x1 x then wrap k x0 x1 (x - (x1 - x0)) else Ok x
  end.
(** model_two_body.hpp:159-162. *)
Definition clamp (x0 x1 x : R) : R := Rmin (Rmax x x0) x1.

(** The angular frequency of model_two_body.hpp:173. *)
Definition omega_of (o : orbit) : R := if Req_EM_T (sep o) 0 then 0 else sqrt (mtot o / sep o / sep o / sep o).
(** The closure of model_two_body.hpp:176-192; [E] is the eccentric anomaly. *)
Definition state_of (o : orbit) (E : R) : two_body :=
  let e := ecc o in let q := ratio o in let a := sep o in let w := omega_of o in let mu := q / (1 + q) in
  let x := - a * mu * (e - cos E) in
  let y := a * mu * (0 + sin E) * sqrt (1 - e * e) in
  let u := - a * mu * w / (1 - e * cos E) * sin E in
  let v := a * mu * w / (1 - e * cos E) * cos E * sqrt (1 - e * e) in
  TwoBody (Body (mtot o * (1 - mu)) x y u v) (Body (mtot o * mu) (- x / q) (- y / q) (- u / q) (- v / q)).
(** Kepler's equation and its derivative (model_two_body.hpp:197-198). *)
Definition kepler (e M E : R) : R := E - e * sin E - M.
Definition kepler' (e E : R) : R := 1 - e * cos E.
(** model_two_body.hpp:168-209. *)
Definition state_at (fuel : nat) (o : orbit) (t : R) : outcome two_body :=
  if Rlt_dec 0 (ecc o) then
    let M := omega_of o * t in
    do E <- newton fuel (kepler (ecc o) M) (kepler' (ecc o)) 1e-10 M; Ok (state_of o E)
  else Ok (state_of o (omega_of o * t)).

(** model_two_body.hpp:415-420. *)
Definition orbital_period (o : orbit) : R := 2 * PI / sqrt (mtot o / sep o / sep o / sep o).
(** The loop of model_two_body.hpp:213-216 and 484-487. *)
Fixpoint after (fuel : nat) (tau P t : R) : outcome R :=
  match fuel with O => NoFuel | S k => if Rlt_dec t tau then after k tau P (t + P) else Ok t end.
(** The rotation and translation of model_two_body.hpp:219-267, for one body. *)
Definition place (p : elements) (b : body) : body :=
  let c := cos (- pomega p) in let s := sin (- pomega p) in
  Body (mass b) (px b * c + py b * s + cmx p) (- px b * s + py b * c + cmy p) (vx b * c + vy b * s + cmvx p) (- vx b * s + vy b * c + cmvy p).
(** model_two_body.hpp:211-268. *)
Definition full_state_at (fuel : nat) (p : elements) (t : R) : outcome two_body :=
  do t' <- after fuel (tau p) (orbital_period (orb p)) t;
  do s <- state_at fuel (orb p) (t' - tau p);
  Ok (TwoBody (place p (body1 s)) (place p (body2 s))).

(** model_two_body.hpp:274-282 and 284-289. *)
Definition zero_elements : elements := Elements 0 0 0 0 0 0 (Orbit 0 0 0 0).
Definition elements_of_orbit (o : orbit) : elements := Elements 0 0 0 0 0 0 o.

(** std::atan2 (C++ standard library, used at model_two_body.hpp:371 and 380). *)
Definition atan2 (y x : R) : R :=
  if Rlt_dec 0 x then atan (y / x)
  else if Rlt_dec x 0 then (if Rle_dec 0 y then atan (y / x) + PI else atan (y / x) - PI)
  else if Rlt_dec 0 y then PI / 2 else if Rlt_dec y 0 then - (PI / 2) else 0.

(** model_two_body.hpp:295-402.  The check of the last lines comes after the arithmetic; its NaNs are not
    observable. *)
Definition elements_at (s : two_body) (t : R) : outcome elements :=
  let c1 := body1 s in let c2 := body2 s in
  let M1 := mass c1 in let M2 := mass c2 in let M := M1 + M2 in let q := M2 / M1 in
  let x_cm := (px c1 * mass c1 + px c2 * mass c2) / M in
  let y_cm := (py c1 * mass c1 + py c2 * mass c2) / M in
  let vx_cm := (vx c1 * mass c1 + vx c2 * mass c2) / M in
  let vy_cm := (vy c1 * mass c1 + vy c2 * mass c2) / M in
  let x1 := px c1 - x_cm in let y1 := py c1 - y_cm in let x2 := px c2 - x_cm in let y2 := py c2 - y_cm in
  let r1 := sqrt (x1 * x1 + y1 * y1) in let r2 := sqrt (x2 * x2 + y2 * y2) in
  let vx1 := vx c1 - vx_cm in let vy1 := vy c1 - vy_cm in let vx2 := vx c2 - vx_cm in let vy2 := vy c2 - vy_cm in
  let vf1 := - vx1 * y1 / r1 + vy1 * x1 / r1 in
  let vf2 := - vx2 * y2 / r2 + vy2 * x2 / r2 in
  let v1 := sqrt (vx1 * vx1 + vy1 * vy1) in
  let E1 := 0.5 * M1 * (vx1 * vx1 + vy1 * vy1) in
  let E2 := 0.5 * M2 * (vx2 * vx2 + vy2 * vy2) in
  let L1 := M1 * r1 * vf1 in let L2 := M2 * r2 * vf2 in
  let D := r1 + r2 in let L := L1 + L2 in let E := E1 + E2 - M1 * M2 / D in
  let a := -0.5 * M1 * M2 / E in
  let b := sqrt (-0.5 * L * L / E * (M1 + M2) / (M1 * M2)) in
  let e := sqrt (clamp 0 1 (1 - b * b / a / a)) in
  let omega := sqrt (M / a / a / a) in
  let a1 := a * q / (1 + q) in let b1 := b * q / (1 + q) in
  let cn := if Req_EM_T e 0 then x1 / r1 else (1 - r1 / a1) / e in
  let cf := a1 / r1 * (cn - e) in
  let sn := if Req_EM_T e 0 then y1 / r1 else (vx1 * x1 + vy1 * y1) / (e * v1 * r1) * sqrt (1 - e * e * cn * cn) in
  let sf := b1 / r1 * sn in
  let cE := (e + cf) / (1 + e * cf) in
  let sE := sqrt (1 - e * e) * sf / (1 + e * cf) in
  let EE := atan2 sE cE in let MM := EE - e * sE in let tau := t - MM / omega in
  let ax := (cn - e) * x1 + sn * sqrt (1 - e * e) * y1 in
  let ay := (cn - e) * y1 - sn * sqrt (1 - e * e) * x1 in
  if Rle_dec 0 E then Throw InvalidArgument
  else Ok (Elements (atan2 ay ax) tau x_cm y_cm vx_cm vy_cm (Orbit a M q e)).

(** model_two_body.hpp:404-413. *)
Definition orbital_energy (o : orbit) : R :=
  let M1 := mtot o / (1 + ratio o) in let M2 := mtot o - M1 in -0.5 * M1 * M2 / sep o.
(** model_two_body.hpp:422-434. *)
Definition orbital_angular_momentum (o : orbit) : R :=
  let M1 := mtot o / (1 + ratio o) in let M2 := mtot o - M1 in let mu := M1 * M2 / mtot o in
  let b2 := sep o * sep o * (1 - ecc o * ecc o) in
  sqrt (-2.0 * orbital_energy o * b2 * mu).
(** model_two_body.hpp:449-452. *)
Definition separation (s : two_body) : R :=
  sqrt ((px (body1 s) - px (body2 s)) ^ 2 + (py (body1 s) - py (body2 s)) ^ 2).
(** model_two_body.hpp:436-442. *)
Definition total_energy (s : two_body) : R :=
  0.5 * mass (body1 s) * (vx (body1 s) * vx (body1 s) + vy (body1 s) * vy (body1 s))
  + 0.5 * mass (body2 s) * (vx (body2 s) * vx (body2 s) + vy (body2 s) * vy (body2 s))
  + - mass (body1 s) * mass (body2 s) / separation s.
(** model_two_body.hpp:444-447. *)
Definition total_mass (s : two_body) : R := mass (body1 s) + mass (body2 s).
(** model_two_body.hpp:454-478. *)
Definition delta_a_over_a (s2 s1 : two_body) : R :=
  let E := total_energy s1 in
  let M1 := mass (body1 s1) in let M2 := mass (body2 s1) in
  let dM1 := mass (body1 s2) - mass (body1 s1) in let dM2 := mass (body2 s2) - mass (body2 s1) in
  let ax1 := vx (body1 s2) - vx (body1 s1) in let ay1 := vy (body1 s2) - vy (body1 s1) in
  let ax2 := vx (body2 s2) - vx (body2 s1) in let ay2 := vy (body2 s2) - vy (body2 s1) in
  let vx1 := vx (body1 s1) in let vy1 := vy (body1 s1) in let vx2 := vx (body2 s1) in let vy2 := vy (body2 s1) in
  let T1 := 0.5 * M1 * (vx1 * vx1 + vy1 * vy1) in let T2 := 0.5 * M2 * (vx2 * vx2 + vy2 * vy2) in
  let dT1 := M1 * (ax1 * vx1 + ay1 * vy1) in let dT2 := M2 * (ax2 * vx2 + ay2 * vy2) in
  (T2 * dM1 / M1 + T1 * dM2 / M2) / E - (dT1 + dT2) / E.
(** model_two_body.hpp:480-490. *)
Definition mean_anomaly (fuel : nat) (p : elements) (t : R) : outcome R :=
  let P := orbital_period (orb p) in
  do t' <- after fuel (tau p) P t; Ok (2 * PI / P * t').

(** The closure of model_two_body.hpp:494-506. *)
Definition nearest (delta period : R) : R :=
  let a := delta in let b := delta + period in let c := delta - period in
  if Rlt_dec (Rabs a) (Rmin (Rabs b) (Rabs c)) then a else if Rlt_dec (Rabs b) (Rabs c) then b else c.
(** model_two_body.hpp:549-565. *)
Definition esub (a b : elements) : elements :=
  Elements (pomega a - pomega b) (tau a - tau b) (cmx a - cmx b) (cmy a - cmy b) (cmvx a - cmvx b) (cmvy a - cmvy b)
    (Orbit (sep (orb a) - sep (orb b)) (mtot (orb a) - mtot (orb b)) (ratio (orb a) - ratio (orb b)) (ecc (orb a) - ecc (orb b))).
(** model_two_body.hpp:531-547. *)
Definition eadd (a b : elements) : elements :=
  Elements (pomega a + pomega b) (tau a + tau b) (cmx a + cmx b) (cmy a + cmy b) (cmvx a + cmvx b) (cmvy a + cmvy b)
    (Orbit (sep (orb a) + sep (orb b)) (mtot (orb a) + mtot (orb b)) (ratio (orb a) + ratio (orb b)) (ecc (orb a) + ecc (orb b))).
(** model_two_body.hpp:567-583. *)
Definition escale (a : elements) (k : R) : elements :=
  Elements (pomega a * k) (tau a * k) (cmx a * k) (cmy a * k) (cmvx a * k) (cmvy a * k)
    (Orbit (sep (orb a) * k) (mtot (orb a) * k) (ratio (orb a) * k) (ecc (orb a) * k)).
(** model_two_body.hpp:492-521. *)
Definition ediff (a b : elements) : elements :=
  Elements (nearest (pomega b - pomega a) (2 * PI)) (nearest (tau b - tau a) (orbital_period (orb b)))
    (cmx b - cmx a) (cmy b - cmy a) (cmvx b - cmvx a) (cmvy b - cmvy a)
    (Orbit (sep (orb b) - sep (orb a)) (mtot (orb b) - mtot (orb a)) (ratio (orb b) - ratio (orb a)) (ecc (orb b) - ecc (orb a))).
(** model_two_body.hpp:523-529. *)
Definition ediff_cm (a : elements) (dt : R) : elements :=
  Elements 0 0 (cmvx a * dt) (cmvy a * dt) 0 0 (Orbit 0 0 0 0).
