(** Fluxes and updates of mass and energy in double arithmetic (the format and rounding of DoubleModel.v). *)
From Coq Require Import Reals.
From Flocq Require Import Core.
From Verif Require Import DoubleModel HydroModel.
Open Scope R_scope.

(** The operations of IEEE 754. *)
Definition fadd (x y : R) : R := fl (x + y).
Definition fsub (x y : R) : R := fl (x - y).
Definition fmul (x y : R) : R := fl (x * y).
Definition fdiv (x y : R) : R := fl (x / y).
Definition fsqrt (x : R) : R := fl (sqrt x).

(** core_geometric.hpp:86-89 for the unit vector (1, 0, 0). *)
Definition project_fl (v1 v2 v3 : R) : R := fadd (fadd (fmul v1 1) (fmul v2 0)) (fmul v3 0).
(** physics_euler.hpp:156-160, physics_srhd.hpp:151-155. *)
Definition squared_fl (P : prim) : R := fadd (fadd (fmul (u1 P) (u1 P)) (fmul (u2 P) (u2 P))) (fmul (u3 P) (u3 P)).

(** Mass density, energy density, mass flux, energy flux and the two speeds, as far as the mass and the energy need them. *)
Record signals := mk_signals { mass_d : R; energy_d : R; mass_f : R; energy_f : R; speed_m : R; speed_p : R }.

(** physics_euler.hpp:190-193, 209-220, 252-263 and 276-284. *)
Definition euler_signals (g : R) (P : prim) : signals :=
  let v := project_fl (u1 P) (u2 P) (u3 P) in
  let p := pre P in
  let d := rho P in
  let e := fadd (fmul (fmul (1 / 2) d) (squared_fl P)) (fdiv p (fsub g 1)) in
  let cs := fsqrt (fdiv (fmul g p) d) in
  mk_signals d e (fmul v d) (fadd (fmul v e) (fmul p v)) (fsub v cs) (fadd v cs).

(** physics_srhd.hpp:109-112, 123-126, 151-155, 165-168, 181-185, 197-200, 213-227, 259-270 and 283-296. *)
Definition srhd_signals (g : R) (P : prim) : signals :=
  let uu := squared_fl P in
  let w := fsqrt (fadd 1 uu) in
  let v := fdiv (project_fl (u1 P) (u2 P) (u3 P)) w in
  let p := pre P in
  let hd := fadd (rho P) (fmul p (fadd 1 (fdiv 1 (fsub g 1)))) in
  let h := fdiv hd (rho P) in
  let d := fmul (rho P) w in
  let e := fsub (fsub (fmul (fmul d h) w) p) d in
  let c2 := fdiv (fmul g p) hd in
  let vv := fdiv uu (fadd 1 uu) in
  let v2 := fmul v v in
  let k0 := fsqrt (fmul (fmul c2 (fsub 1 vv)) (fsub (fsub 1 (fmul vv c2)) (fmul v2 (fsub 1 c2)))) in
  let q := fsub 1 (fmul vv c2) in
  let s := fmul v (fsub 1 c2) in
  mk_signals d e (fmul v d) (fadd (fmul v e) (fmul p v)) (fdiv (fsub s k0) q) (fdiv (fadd s k0) q).

(** physics_euler.hpp:627-630 and physics_srhd.hpp:479-482. *)
Definition plus_speed (l r : signals) : R := smax 0 (smax (speed_p l) (speed_p r)).
Definition minus_speed (l r : signals) : R := smin 0 (smin (speed_m l) (speed_m r)).
Definition hlle_fl (ap am fl fr ul ur : R) : R := fdiv (fsub (fsub (fmul fl ap) (fmul fr am)) (fmul (fmul (fsub ul ur) ap) am)) (fsub ap am).
Definition mass_flux_fl (l r : signals) : R := hlle_fl (plus_speed l r) (minus_speed l r) (mass_f l) (mass_f r) (mass_d l) (mass_d r).
Definition energy_flux_fl (l r : signals) : R := hlle_fl (plus_speed l r) (minus_speed l r) (energy_f l) (energy_f r) (energy_d l) (energy_d r).

(** subprog_sedov.cpp:86-94: the ghost zone inside the first shell. *)
Definition mirrored (P : prim) : prim := Prim (rho P) (- u1 P) (u2 P) (u3 P) (pre P).

(** subprog_sedov.cpp:412-414, the mass or energy of shell [i]: [f j] is the flux and [da j] the area of face [j].  The source
    term of mass and energy is zero. *)
Definition face_term (f da : nat -> R) (j : nat) : R := fmul (f j) (- da j).
Definition shell_update (f da dv : nat -> R) (dt : R) (u : nat -> R) (i : nat) : R :=
  fadd (u i) (fmul (fadd (fsub (face_term f da (S i)) (face_term f da i)) (fmul 0 (dv i))) dt).

(** subprog_cloud.cpp:540-542 and 572-574, the mass or energy of cell [i], [j]: radial faces [f], polar faces [g]. *)
Definition cell_update (f g dar daq : nat -> nat -> R) (dv : nat -> nat -> R) (dt : R) (u : nat -> nat -> R) (i j : nat) : R :=
  let lr := fsub (fmul (f (S i) j) (- dar (S i) j)) (fmul (f i j) (- dar i j)) in
  let lq := fsub (fmul (g i (S j)) (- daq i (S j))) (fmul (g i j) (- daq i j)) in
  fadd (u i j) (fmul (fadd (fadd lr lq) (fmul 0 (dv i j))) dt).
