(** A step of the explosion program for the Newtonian equations in IEEE 754 double arithmetic, with infinities and values that are not
    numbers (see NanModel.v).  The state is the conserved quantities of the shells 0 .. n - 1; the areas, volumes, centres and the time
    step are doubles computed from the vertices, which do not change: they are inputs here. *)
From Coq Require Import ZArith List Bool Arith.
From Flocq Require Import IEEE754.BinarySingleNaN.
From Verif Require Import Base NanModel.
Import ListNotations.
Close Scope Z_scope.
Open Scope nat_scope.

(** Five doubles: conserved quantities, their fluxes, or density, velocities and pressure (src/physics_euler.hpp 60-92). *)
Record w5 : Set := W5 { w0 : b64; w1 : b64; w2 : b64; w3 : b64; w4 : b64 }.
Definition map5 (f : b64 -> b64) (a : w5) : w5 := W5 (f (w0 a)) (f (w1 a)) (f (w2 a)) (f (w3 a)) (f (w4 a)).
Definition zip5 (f : b64 -> b64 -> b64) (a b : w5) : w5 := W5 (f (w0 a) (w0 b)) (f (w1 a) (w1 b)) (f (w2 a) (w2 b)) (f (w3 a) (w3 b)) (f (w4 a) (w4 b)).
Definition opp64 : b64 -> b64 := @Bopp 53 1024.
Definition one64 : b64 := of_int 1%Z.
Definition two64 : b64 := of_int 2%Z.
(** src/subprog_sedov.cpp 48. *)
Definition gamma64 : b64 := div64 (of_int 4%Z) (of_int 3%Z).

(** recover_primitive, src/physics_euler.hpp 555-575, with the temperature floor 0.0 of src/subprog_sedov.cpp 401, for which the branch is
    never taken. *)
Definition recover5 (U : w5) : w5 :=
  let d := w0 U in
  let p2 := add64 (add64 (mul64 (w1 U) (w1 U)) (mul64 (w2 U) (w2 U))) (mul64 (w3 U) (w3 U)) in
  W5 d (div64 (w1 U) d) (div64 (w2 U) d) (div64 (w3 U) d) (mul64 (sub64 (w4 U) (div64 (mul64 half64 p2) d)) (sub64 gamma64 one64)).
(** to_conserved_density, src/physics_euler.hpp 209-220, with velocity_squared, 160-164. *)
Definition conserved5 (P : w5) : w5 :=
  let d := w0 P in
  let v2 := add64 (add64 (mul64 (w1 P) (w1 P)) (mul64 (w2 P) (w2 P))) (mul64 (w3 P) (w3 P)) in
  W5 d (mul64 d (w1 P)) (mul64 d (w2 P)) (mul64 d (w3 P)) (add64 (mul64 (mul64 half64 d) v2) (div64 (w4 P) (sub64 gamma64 one64))).
(** velocity_along on_axis_1, src/physics_euler.hpp 177-181 and src/core_geometric.hpp 62, 85-89. *)
Definition along5 (P : w5) : b64 := add64 (add64 (mul64 (w1 P) one64) (mul64 (w2 P) zero64)) (mul64 (w3 P) zero64).
(** flux, src/physics_euler.hpp 252-263. *)
Definition flux5 (P U : w5) : w5 :=
  let v := along5 P in
  let p := w4 P in
  W5 (mul64 v (w0 U)) (add64 (mul64 v (w1 U)) (mul64 p one64)) (add64 (mul64 v (w2 U)) (mul64 p zero64)) (add64 (mul64 v (w3 U)) (mul64 p zero64)) (add64 (mul64 v (w4 U)) (mul64 p v)).
(** sound_speed_squared and wavespeeds, src/physics_euler.hpp 193-196, 276-284. *)
Definition sound2 (P : w5) : b64 := div64 (mul64 gamma64 (w4 P)) (w0 P).
Definition minus_wave (P : w5) : b64 := sub64 (along5 P) (sqrt64 (sound2 P)).
Definition plus_wave (P : w5) : b64 := add64 (along5 P) (sqrt64 (sound2 P)).
(** riemann_hlle, src/physics_euler.hpp 614-631. *)
Definition hlle5 (Pl Pr : w5) : w5 :=
  let Ul := conserved5 Pl in let Ur := conserved5 Pr in
  let Fl := flux5 Pl Ul in let Fr := flux5 Pr Ur in
  let ap := std_max zero64 (std_max (plus_wave Pl) (plus_wave Pr)) in
  let am := std_min zero64 (std_min (minus_wave Pl) (minus_wave Pr)) in
  map5 (fun x => div64 x (sub64 ap am))
    (zip5 sub64 (zip5 sub64 (map5 (fun x => mul64 x ap) Fl) (map5 (fun x => mul64 x am) Fr)) (map5 (fun x => mul64 (mul64 x ap) am) (zip5 sub64 Ul Ur))).
(** spherical_geometry_source_terms_radial, src/physics_euler.hpp 328-337. *)
Definition source5 (P : w5) (r : b64) : w5 :=
  W5 zero64 (div64 (add64 (mul64 two64 (w4 P)) (mul64 (mul64 (w0 P) (w2 P)) (w2 P))) r) zero64 zero64 zero64.
(** negate_radial_velocity, src/subprog_sedov.cpp 91-94. *)
Definition mirror5 (P : w5) : w5 := W5 (w0 P) (opp64 (w1 P)) (w2 P) (w3 P) (w4 P).

Section Step.
Variables (n : nat) (da dv rc : nat -> b64) (dt : b64).
(** p0, src/subprog_sedov.cpp 411. *)
Definition prim5 (u : nat -> w5) (i : nat) : w5 := recover5 (map5 (fun x => div64 x (dv i)) (u i)).
(** The states left and right of face i, 0 <= i <= n: extend_bc and intercell_flux, src/subprog_sedov.cpp 217-250, 402. *)
Definition left5 (u : nat -> w5) (i : nat) : w5 := match i with O => mirror5 (prim5 u 0) | S j => prim5 u j end.
Definition right5 (u : nat -> w5) (i : nat) : w5 := if i =? n then prim5 u (n - 1) else prim5 u i.
Definition face5 (u : nat -> w5) (i : nat) : w5 := map5 (fun x => mul64 x (opp64 (da i))) (hlle5 (left5 u i) (right5 u i)).
(** u1, src/subprog_sedov.cpp 410-414. *)
Definition step5 (u : nat -> w5) (i : nat) : w5 :=
  let l0 := zip5 sub64 (face5 u (S i)) (face5 u i) in
  let s0 := map5 (fun x => mul64 x (dv i)) (source5 (prim5 u i) (rc i)) in
  zip5 add64 (u i) (map5 (fun x => mul64 x dt) (zip5 add64 l0 s0)).
Fixpoint steps5 (k : nat) (u : nat -> w5) : nat -> w5 := match k with O => u | S m => steps5 m (step5 u) end.
(** The run loop, src/subprog_sedov.cpp 552-557, 638-642, with the time of 417: number of steps, time and gas at its end. *)
Fixpoint loop5 (tfinal : b64) (fuel m : nat) (time : b64) (u : nat -> w5) : outcome (nat * b64 * (nat -> w5)) :=
  match fuel with
  | O => NoFuel
  | S f => if lt64 time tfinal then loop5 tfinal f (S m) (add64 time dt) (step5 u) else Ok (m, time, u)
  end.
End Step.
