(** Model of the hydrodynamic systems: physics_euler.hpp, physics_iso2d.hpp and physics_srhd.hpp.
    Doubles are exact real numbers.  Division by zero and square roots of negative numbers are outside the
    premises of every theorem about these definitions. *)
From Coq Require Import List Reals Lra.
From Verif Require Import Base DimensionalModel MatrixModel.
Import ListNotations.
Open Scope R_scope.

(** A sequence of five numbers: conserved densities, fluxes (physics_euler.hpp:43-45, physics_srhd.hpp:46-48). *)
Record v5 := V5 { c0 : R; c1 : R; c2 : R; c3 : R; c4 : R }.
(** A tuple of three numbers (physics_iso2d.hpp:56-92). *)
Record v3 := V3 { d0 : R; d1 : R; d2 : R }.

(** std::max and std::min. *)
Definition smax (a b : R) : R := if Rlt_dec a b then b else a.
Definition smin (a b : R) : R := if Rlt_dec b a then b else a.

(** One component of [(Fl * ap - Fr * am - (Ul - Ur) * ap * am) / (ap - am)], the last line of all three
    solvers (physics_euler.hpp:630, physics_iso2d.hpp:505, physics_srhd.hpp:482). *)
Definition hlle_component (ap am fl fr ul ur : R) : R := (fl * ap - fr * am - (ul - ur) * ap * am) / (ap - am).
Definition hlle5 (ap am : R) (Fl Fr Ul Ur : v5) : v5 :=
  V5 (hlle_component ap am (c0 Fl) (c0 Fr) (c0 Ul) (c0 Ur)) (hlle_component ap am (c1 Fl) (c1 Fr) (c1 Ul) (c1 Ur))
     (hlle_component ap am (c2 Fl) (c2 Fr) (c2 Ul) (c2 Ur)) (hlle_component ap am (c3 Fl) (c3 Fr) (c3 Ul) (c3 Ur))
     (hlle_component ap am (c4 Fl) (c4 Fr) (c4 Ul) (c4 Ur)).
Definition hlle3 (ap am : R) (Fl Fr Ul Ur : v3) : v3 :=
  V3 (hlle_component ap am (d0 Fl) (d0 Fr) (d0 Ul) (d0 Ur)) (hlle_component ap am (d1 Fl) (d1 Fr) (d1 Ul) (d1 Ur))
     (hlle_component ap am (d2 Fl) (d2 Fr) (d2 Ul) (d2 Ur)).

(** A primitive state of the Euler equations (physics_euler.hpp:74-87) or, with four-velocities, of the
    relativistic ones (physics_srhd.hpp:66-80). *)
Record prim := Prim { rho : R; u1 : R; u2 : R; u3 : R; pre : R }.

(** physics_euler.hpp:156-160. *)
Definition velocity_squared (P : prim) : R := u1 P * u1 P + u2 P * u2 P + u3 P * u3 P.
(** physics_euler.hpp:173-177. *)
Definition velocity_along (P : prim) (n : unit_vector) : R := project n (u1 P) (u2 P) (u3 P).
(** physics_euler.hpp:190-193. *)
Definition euler_sound_speed_squared (P : prim) (g : R) : R := g * pre P / rho P.
(** physics_euler.hpp:209-220. *)
Definition euler_conserved (P : prim) (g : R) : v5 :=
  let d := rho P in
  V5 d (d * u1 P) (d * u2 P) (d * u3 P) (0.5 * d * velocity_squared P + pre P / (g - 1)).
(** physics_euler.hpp:252-263. *)
Definition flux5 (v p : R) (n : unit_vector) (U : v5) : v5 :=
  V5 (v * c0 U) (v * c1 U + p * n1 n) (v * c2 U + p * n2 n) (v * c3 U + p * n3 n) (v * c4 U + p * v).
Definition euler_flux (P : prim) (n : unit_vector) (U : v5) : v5 := flux5 (velocity_along P n) (pre P) n U.
(** physics_euler.hpp:276-284: the minus and the plus speed. *)
Definition euler_wavespeeds (P : prim) (n : unit_vector) (g : R) : R * R :=
  let cs := sqrt (euler_sound_speed_squared P g) in let vn := velocity_along P n in (vn - cs, vn + cs).
(** physics_euler.hpp:555-575. *)
Definition euler_recover (U : v5) (g temperature_floor : R) : prim :=
  let p_squared := c1 U * c1 U + c2 U * c2 U + c3 U * c3 U in
  let d := c0 U in
  let p4 := (c4 U - 0.5 * p_squared / d) * (g - 1) in
  let p4' := if Rlt_dec p4 0 then (if Rlt_dec 0 temperature_floor then temperature_floor * d else p4) else p4 in
  Prim d (c1 U / d) (c2 U / d) (c3 U / d) p4'.
(** physics_euler.hpp:592-599. *)
Definition euler_roe_average (Pr Pl : prim) : prim :=
  let kr := sqrt (rho Pr) in let kl := sqrt (rho Pl) in
  let avg (f : prim -> R) := (f Pr * kr + f Pl * kl) / (kr + kl) in
  Prim (avg rho) (avg u1) (avg u2) (avg u3) (avg pre).
(** physics_euler.hpp:614-631. *)
Definition euler_hlle (Pl Pr : prim) (n : unit_vector) (g : R) : v5 :=
  let Ul := euler_conserved Pl g in let Ur := euler_conserved Pr g in
  let Al := euler_wavespeeds Pl n g in let Ar := euler_wavespeeds Pr n g in
  let Fl := euler_flux Pl n Ul in let Fr := euler_flux Pr n Ur in
  let ap := smax 0 (smax (snd Al) (snd Ar)) in
  let am := smin 0 (smin (fst Al) (fst Ar)) in
  hlle5 ap am Fl Fr Ul Ur.

(** physics_euler.hpp:298-318, [cotq] is the cotangent of the polar angle. *)
Definition euler_source (P : prim) (r cotq : R) : v5 :=
  let vr := u1 P in let vq := u2 P in let vp := u3 P in let pg := pre P in let d := rho P in
  V5 0 ((2.0 * pg + d * (vq * vq + vp * vp)) / r) ((cotq * pg + d * (vp * vp * cotq - vr * vq)) / r)
     (- vp * d * (vr + vq * cotq) / r) 0.
(** physics_euler.hpp:328-337. *)
Definition euler_source_radial (P : prim) (r : R) : v5 :=
  let vq := u2 P in let pg := pre P in let d := rho P in V5 0 ((2.0 * pg + d * vq * vq) / r) 0 0 0.

(** The constructor of physics_euler.hpp:352-366. *)
Record eigen := Eigen { eg : R; em : R; eu : R; ev : R; ew : R; eV2 : R; ea2 : R; ea : R; eH : R }.
Definition eigensystem (P : prim) (g : R) : eigen :=
  let m := g - 1 in
  let V2 := u1 P * u1 P + u2 P * u2 P + u3 P * u3 P in
  let a2 := euler_sound_speed_squared P g in
  Eigen g m (u1 P) (u2 P) (u3 P) V2 a2 (sqrt a2) (0.5 * V2 + a2 / m).
(** physics_euler.hpp:382-391. *)
Definition flux_jacobian (E : eigen) : matrix :=
  let g := eg E in let m := em E in let u := eu E in let v := ev E in let w := ew E in let V2 := eV2 E in let a2 := ea2 E in let H := eH E in
  let u2 := u * u in
  [[0;                      1;             0;            0;            0];
   [m * H - u2 - a2;        (3 - g) * u;   - m * v;      - m * w;      m];
   [- u * v;                v;             u;            0;            0];
   [- u * w;                w;             0;            u;            0];
   [u * (0.5 * m * V2 - H); H - m * u2;    - m * u * v;  - m * u * w;  g * u]].
(** physics_euler.hpp:401-404. *)
Definition eigenvalue_list (E : eigen) : list R := [eu E - ea E; eu E; eu E; eu E; eu E + ea E].
Definition eigenvalues (E : eigen) : matrix := diagonal_matrix 0 (eigenvalue_list E).
(** physics_euler.hpp:415-424. *)
Definition right_eigenvectors (E : eigen) : matrix :=
  let u := eu E in let v := ev E in let w := ew E in let V2 := eV2 E in let a := ea E in let H := eH E in
  [[1;         1;        0; 0; 1];
   [u - a;     u;        0; 0; u + a];
   [v;         v;        1; 0; v];
   [w;         w;        0; 1; w];
   [H - u * a; 0.5 * V2; v; w; H + u * a]].
(** physics_euler.hpp:435-444. *)
Definition left_eigenvectors (E : eigen) : matrix :=
  let m := em E in let u := eu E in let v := ev E in let w := ew E in let a := ea E in let a2 := ea2 E in let H := eH E in
  scale 0 Rmult 5 5
  [[H + (a / m) * (u - a);      - (u + a / m); - v;        - w;        1];
   [- 2 * H + (4 / m) * a2;     2 * u;         2 * v;      2 * w;      - 2];
   [- 2 * v * a2 / m;           0;             2 * a2 / m; 0;          0];
   [- 2 * w * a2 / m;           0;             0;          2 * a2 / m; 0];
   [H - (a / m) * (u + a);      - (u - a / m); - v;        - w;        1]] (m / 2 / a2).

(** A primitive state of the isothermal equations (physics_iso2d.hpp:163-165). *)
Record iprim := IPrim { sigma : R; vx : R; vy : R }.
(** physics_iso2d.hpp:219-223. *)
Definition iso_velocity_along (P : iprim) (n : unit_vector) : R := project n (vx P) (vy P) 0.
(** physics_iso2d.hpp:236-239. *)
Definition iso_pressure (P : iprim) (cs2 : R) : R := sigma P * cs2.
(** physics_iso2d.hpp:249-258. *)
Definition iso_conserved (P : iprim) : v3 := V3 (sigma P) (sigma P * vx P) (sigma P * vy P).
(** physics_iso2d.hpp:263-272. *)
Definition iso_angmom (P : iprim) (x y : R) : v3 :=
  V3 (sigma P) (sigma P * (x * vx P + y * vy P)) (sigma P * (x * vy P - y * vx P)).
(** physics_iso2d.hpp:277-285. *)
Definition iso_angmom_source (P : iprim) (cs2 : R) : v3 :=
  let Ek := 0.5 * sigma P * (vx P * vx P + vy P * vy P) in V3 0 ((Ek + iso_pressure P cs2) * 2.0) 0.
(** physics_iso2d.hpp:299-307. *)
Definition iso_flux (P : iprim) (n : unit_vector) (cs2 : R) : v3 :=
  let v := iso_velocity_along P n in let p := iso_pressure P cs2 in
  V3 (v * sigma P) (v * sigma P * vx P + p * n1 n) (v * sigma P * vy P + p * n2 n).
(** physics_iso2d.hpp:320-328. *)
Definition iso_wavespeeds (P : iprim) (n : unit_vector) (cs2 : R) : R * R :=
  let cs := sqrt cs2 in let vn := iso_velocity_along P n in (vn - cs, vn + cs).
(** physics_iso2d.hpp:330-337. *)
Definition iso_max_wavespeed (P : iprim) (cs2 : R) : R :=
  let ax := iso_wavespeeds P (make_unit_vector 1 0 0) cs2 in
  let ay := iso_wavespeeds P (make_unit_vector 0 1 0) cs2 in
  smax (smax (Rabs (fst ax)) (Rabs (snd ax))) (smax (Rabs (fst ay)) (Rabs (snd ay))).
(** physics_iso2d.hpp:351-362. *)
Definition iso_recover (U : v3) : outcome iprim :=
  let s := d0 U in if Rlt_dec s 0 then Throw InvalidArgument else Ok (IPrim s (d1 U / s) (d2 U / s)).
(** physics_iso2d.hpp:376-390. *)
Definition iso_recover_angmom (Q : v3) (x y : R) : outcome iprim :=
  let s := d0 Q in let sr := d1 Q / s in let lz := d2 Q / s in let r2 := x * x + y * y in
  if Rlt_dec s 0 then Throw InvalidArgument
  else Ok (IPrim s ((sr * x - lz * y) / r2) ((sr * y + lz * x) / r2)).
(** physics_iso2d.hpp:404-414. *)
Definition iso_linear_of_angmom (Q : v3) (x y : R) : v3 :=
  let r2 := x * x + y * y in V3 (d0 Q) ((d1 Q * x - d2 Q * y) / r2) ((d1 Q * y + d2 Q * x) / r2).
(** physics_iso2d.hpp:436-442. *)
Definition iso_angmom_flux (F : v3) (x y : R) : v3 := V3 (d0 F) (x * d1 F + y * d2 F) (x * d2 F - y * d1 F).
(** physics_iso2d.hpp:444-447. *)
Definition iso_angular_momentum (U : v3) (x y : R) : R := x * d2 U - y * d1 U.
(** physics_iso2d.hpp:464-471. *)
Definition iso_roe_average (Pr Pl : iprim) : iprim :=
  let kr := sqrt (sigma Pr) in let kl := sqrt (sigma Pl) in
  let avg (f : iprim -> R) := (f Pr * kr + f Pl * kl) / (kr + kl) in
  IPrim (avg sigma) (avg vx) (avg vy).
(** physics_iso2d.hpp:488-506. *)
Definition iso_hlle (Pl Pr : iprim) (cs2l cs2r : R) (n : unit_vector) : v3 :=
  let Ul := iso_conserved Pl in let Ur := iso_conserved Pr in
  let Al := iso_wavespeeds Pl n cs2l in let Ar := iso_wavespeeds Pr n cs2r in
  let Fl := iso_flux Pl n cs2l in let Fr := iso_flux Pr n cs2r in
  let ap := smax 0 (smax (snd Al) (snd Ar)) in
  let am := smin 0 (smin (fst Al) (fst Ar)) in
  hlle3 ap am Fl Fr Ul Ur.

(** The variables of an HLLC calculation (physics_iso2d.hpp:522-546) that the results depend on. *)
Record hllc := Hllc { h_n : unit_vector; h_Pl : iprim; h_Pr : iprim; h_ul : R; h_ur : R; h_al : R; h_ar : R; h_sl : R; h_sr : R; h_sstar : R }.
(** physics_iso2d.hpp:610-687. *)
Definition hllc_variables (Pl Pr : iprim) (cs2l cs2r : R) (n : unit_vector) : hllc :=
  let ul := iso_velocity_along Pl n in let ur := iso_velocity_along Pr n in
  let sigma_l := sigma Pl in let sigma_r := sigma Pr in let sigma_bar := 0.5 * (sigma_l + sigma_r) in
  let al := sqrt cs2l in let ar := sqrt cs2r in let a_bar := 0.5 * (al + ar) in
  let press_l := sigma_l * cs2l in let press_r := sigma_r * cs2r in
  let ppvrs := 0.5 * (press_l + press_r) - 0.5 * (ur - ul) * sigma_bar * a_bar in
  let pstar := smax 0 ppvrs in
  let ql := smax 1 (sqrt (pstar / press_l)) in let qr := smax 1 (sqrt (pstar / press_r)) in
  let sl := ul - al * ql in let sr := ur + ar * qr in
  let den := sigma_l * (sl - ul) - sigma_r * (sr - ur) in
  let sstar := (press_r - press_l + ul * sigma_l * (sl - ul) - ur * sigma_r * (sr - ur)) / den in
  Hllc n Pl Pr ul ur al ar sl sr sstar.
(** physics_iso2d.hpp:554-572: the left star state; the right one has the same form ([s] is the outer speed;
    [v_perp] is the velocity minus its part along the normal, 619-625). *)
Definition star_state (P : iprim) (n : unit_vector) (u s sstar : R) : v3 :=
  let k := sigma P * (s - u) / (s - sstar) in
  V3 k (k * (sstar * n1 n + (vx P - n1 n * u))) (k * (sstar * n2 n + (vy P - n2 n * u))).
Definition h_Ul (h : hllc) := iso_conserved (h_Pl h).
Definition h_Ur (h : hllc) := iso_conserved (h_Pr h).
(** physics_iso2d.hpp:551-552. *)
Definition h_Fl (h : hllc) := iso_flux (h_Pl h) (h_n h) (h_al h * h_al h).
Definition h_Fr (h : hllc) := iso_flux (h_Pr h) (h_n h) (h_ar h * h_ar h).
Definition h_Ul_star (h : hllc) := star_state (h_Pl h) (h_n h) (h_ul h) (h_sl h) (h_sstar h).
Definition h_Ur_star (h : hllc) := star_state (h_Pr h) (h_n h) (h_ur h) (h_sr h) (h_sstar h).
(** [F + (Ustar - U) * s]. *)
Definition star_flux (F Us U : v3) (s : R) : v3 :=
  V3 (d0 F + (d0 Us - d0 U) * s) (d1 F + (d1 Us - d1 U) * s) (d2 F + (d2 Us - d2 U) * s).
(** physics_iso2d.hpp:574-583. *)
Definition rleb (a b : R) : bool := if Rle_dec a b then true else false.
Definition hllc_flux (h : hllc) : outcome v3 :=
  if rleb 0 (h_sl h) then Ok (h_Fl h)
  else if andb (rleb (h_sl h) 0) (rleb 0 (h_sstar h)) then Ok (star_flux (h_Fl h) (h_Ul_star h) (h_Ul h) (h_sl h))
  else if andb (rleb (h_sstar h) 0) (rleb 0 (h_sr h)) then Ok (star_flux (h_Fr h) (h_Ur_star h) (h_Ur h) (h_sr h))
  else if rleb (h_sr h) 0 then Ok (h_Fr h)
  else Throw InvalidArgument.
(** physics_iso2d.hpp:585-592: [interface_conserved_state]. *)
Definition hllc_state (h : hllc) : outcome v3 :=
  if rleb 0 (h_sl h) then Ok (h_Ul h)
  else if andb (rleb (h_sl h) 0) (rleb 0 (h_sstar h)) then Ok (h_Ul_star h)
  else if andb (rleb (h_sstar h) 0) (rleb 0 (h_sr h)) then Ok (h_Ur_star h)
  else if rleb (h_sr h) 0 then Ok (h_Ur h)
  else Throw InvalidArgument.
(** physics_iso2d.hpp:704-712, [riemann_hllc]. *)
Definition iso_hllc (Pl Pr : iprim) (cs2l cs2r : R) (n : unit_vector) : outcome v3 := hllc_flux (hllc_variables Pl Pr cs2l cs2r n).

(** physics_srhd.hpp:111-129: enthalpy density and specific enthalpy. *)
Definition enthalpy_density (P : prim) (g : R) : R := rho P + pre P * (1 + 1 / (g - 1)).
Definition specific_enthalpy (P : prim) (g : R) : R := enthalpy_density P g / rho P.
(** physics_srhd.hpp:151-155, 165-168. *)
Definition gamma_beta_squared (P : prim) : R := u1 P * u1 P + u2 P * u2 P + u3 P * u3 P.
Definition lorentz_factor (P : prim) : R := sqrt (1 + gamma_beta_squared P).
(** physics_srhd.hpp:181-185. *)
Definition beta_along (P : prim) (n : unit_vector) : R := project n (u1 P) (u2 P) (u3 P) / lorentz_factor P.
(** physics_srhd.hpp:197-200. *)
Definition srhd_sound_speed_squared (P : prim) (g : R) : R := g * pre P / enthalpy_density P g.
(** physics_srhd.hpp:213-227. *)
Definition srhd_conserved (P : prim) (g : R) : v5 :=
  let W := lorentz_factor P in let h := specific_enthalpy P g in let D := rho P * W in let p := pre P in
  V5 D (D * u1 P * h) (D * u2 P * h) (D * u3 P * h) (D * h * W - p - D).
(** physics_srhd.hpp:259-270. *)
Definition srhd_flux (P : prim) (n : unit_vector) (U : v5) : v5 := flux5 (beta_along P n) (pre P) n U.
(** physics_srhd.hpp:283-295. *)
Definition srhd_wavespeeds (P : prim) (n : unit_vector) (g : R) : R * R :=
  let c2 := srhd_sound_speed_squared P g in
  let vn := beta_along P n in
  let uu := gamma_beta_squared P in
  let vv := uu / (1 + uu) in
  let v2 := vn * vn in
  let k0 := sqrt (c2 * (1 - vv) * (1 - vv * c2 - v2 * (1 - c2))) in
  ((vn * (1 - c2) - k0) / (1 - vv * c2), (vn * (1 - c2) + k0) / (1 - vv * c2)).
(** physics_srhd.hpp:466-483. *)
Definition srhd_hlle (Pl Pr : prim) (n : unit_vector) (g : R) : v5 :=
  let Ul := srhd_conserved Pl g in let Ur := srhd_conserved Pr g in
  let Al := srhd_wavespeeds Pl n g in let Ar := srhd_wavespeeds Pr n g in
  let Fl := srhd_flux Pl n Ul in let Fr := srhd_flux Pr n Ur in
  let ap := smax 0 (smax (snd Al) (snd Ar)) in
  let am := smin 0 (smin (fst Al) (fst Ar)) in
  hlle5 ap am Fl Fr Ul Ur.

(** physics_srhd.hpp:306-326 and 337-346. *)
Definition srhd_source (P : prim) (g r cotq : R) : v5 :=
  let ur := u1 P in let uq := u2 P in let up := u3 P in let pg := pre P in let H := enthalpy_density P g in
  V5 0 ((2.0 * pg + H * (uq * uq + up * up)) / r) ((cotq * pg + H * (up * up * cotq - ur * uq)) / r)
     (- up * H * (ur + uq * cotq) / r) 0.
Definition srhd_source_radial (P : prim) (g r : R) : v5 :=
  let uq := u2 P in let pg := pre P in let H := enthalpy_density P g in V5 0 ((2.0 * pg + H * uq * uq) / r) 0 0 0.

(** One pass of the loop of physics_srhd.hpp:394-415: the velocity, Lorentz factor and residual at [p], and the
    next pressure. *)
Definition newton_residual (D tau SS g p : R) : R * R * R :=
  let v2 := smin (SS / (tau + D + p) ^ 2) (1 - 1e-10) in
  let W2 := 1 / (1 - v2) in
  let W := sqrt W2 in
  let e := (tau + D * (1 - W) + p * (1 - W2)) / (D * W) in
  let d := D / W in
  let h := 1 + e + p / d in
  let cs2 := g * p / (d * h) in
  let f := d * e * (g - 1) - p in
  (W, f, v2 * cs2 - 1).
Fixpoint newton (fuel : nat) (D tau SS g p : R) : option (R * R) :=
  match fuel with
  | O => None
  | S k =>
      let '(W, f, g') := newton_residual D tau SS g p in
      let p' := p - f / g' in
      if Rlt_dec (Rabs f) 1e-10 then Some (W, p') else newton k D tau SS g p'
  end.
(** physics_srhd.hpp:364-451.  The test for a NaN Lorentz factor cannot fire on real numbers. *)
Definition srhd_recover (U : v5) (g temperature_floor : R) : outcome prim :=
  let D := c0 U in let tau := c4 U in let SS := c1 U * c1 U + c2 U * c2 U + c3 U * c3 U in
  match newton 50 D tau SS g 0 with
  | None => Throw InvalidArgument
  | Some (W0, p) =>
      let p := if Rlt_dec 0 temperature_floor then smax p (temperature_floor * D / W0) else p in
      let P := Prim (D / W0) (W0 * c1 U / (tau + D + p)) (W0 * c2 U / (tau + D + p)) (W0 * c3 U / (tau + D + p)) p in
      if Rle_dec (rho P) 0 then Throw InvalidArgument
      else if Rle_dec (pre P) 0 then Throw InvalidArgument
      else Ok P
  end.
