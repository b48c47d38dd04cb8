(** Model of math_polynomial.hpp over exact reals.  A floating point operation outside its domain
    (NaN or infinity in the code) makes the whole result [None]. *)
From Coq Require Import Reals.
Open Scope R_scope.

Definition obind {A B} (m : option A) (k : A -> option B) : option B := match m with Some x => k x | None => None end.
Notation "'let!' x := m 'in' k" := (obind m (fun x => k)) (at level 200, x name, m at level 100, k at level 200).

(** Division, std::sqrt, std::acos and std::pow(x, 1. / 3) of IEEE arithmetic where defined. *)
Definition fdiv (x y : R) : option R := if Req_EM_T y 0 then None else Some (x / y).
Definition fsqrt (x : R) : option R := if Rlt_dec x 0 then None else Some (sqrt x).
Definition facos (x : R) : option R := if Rlt_dec x (-1) then None else if Rlt_dec 1 x then None else Some (acos x).
Definition fcbrt (x : R) : option R := if Rlt_dec x 0 then None else if Rlt_dec 0 x then Some (Rpower x (1 / 3)) else Some 0.

(** math_polynomial.hpp:84,85,104, [(s >= 0.0) ? std::pow(s, 1. / 3) : -std::pow(-s, 1. / 3)]. *)
Definition signed_cbrt (s : R) : option R :=
  if Rle_dec 0 s then fcbrt s else let! t := fcbrt (- s) in Some (- t).

(** math_polynomial.hpp:39-43. *)
Record cubic_roots_t := { c_x1 : R; c_x2 : R; c_x3 : R; num_roots : nat }.

(** math_polynomial.hpp:70-111. *)
Definition cubic_roots (c3 c2 c1 c0 : R) : option cubic_roots_t :=
  let! a2 := fdiv c2 c3 in
  let! a1 := fdiv c1 c3 in
  let! a0 := fdiv c0 c3 in
  let q := a1 / 3 - a2 * a2 / 9 in
  let r := (a1 * a2 - 3 * a0) / 6 - a2 * a2 * a2 / 27 in
  let delta := q * q * q + r * r in
  if Rlt_dec 0 delta then
    let! sd := fsqrt delta in
    let! s1 := signed_cbrt (r + sd) in
    let! s2 := signed_cbrt (r - sd) in
    Some {| c_x1 := (s1 + s2) - a2 / 3; c_x2 := -0.5 * (s1 + s2) - a2 / 3; c_x3 := -0.5 * (s1 + s2) - a2 / 3; num_roots := 1 |}
  else if Rlt_dec delta 0 then
    let! d := fsqrt (- q * q * q) in
    let! e := fdiv r d in
    let! ac := facos e in
    let theta := ac / 3 in
    let costh := cos theta in
    let sinth := sin theta in
    let! sq := fsqrt (- q) in
    let! s3 := fsqrt 3 in
    Some {| c_x1 := 2 * sq * costh - a2 / 3;
            c_x2 := - sq * costh - a2 / 3 - s3 * sq * sinth;
            c_x3 := - sq * costh - a2 / 3 + s3 * sq * sinth; num_roots := 3 |}
  else
    let! s := signed_cbrt r in
    Some {| c_x1 := 2 * s - a2 / 3; c_x2 := - s - a2 / 3; c_x3 := - s - a2 / 3; num_roots := 3 |}.

(** math_polynomial.hpp:45-50. *)
Record quartic_roots_t := { q_x1 : R; q_x2 : R; q_x3 : R; q_x4 : R; pair_1_is_real : bool; pair_2_is_real : bool }.

(** math_polynomial.hpp:128-189. *)
Definition quartic_roots (d4 d3 d2 d1 d0 : R) : option quartic_roots_t :=
  let! a3 := fdiv d3 d4 in
  let! a2 := fdiv d2 d4 in
  let! a1 := fdiv d1 d4 in
  let! a0 := fdiv d0 d4 in
  let au2 := - a2 in
  let au1 := a1 * a3 - 4 * a0 in
  let au0 := 4 * a0 * a2 - a1 * a1 - a0 * a3 * a3 in
  let! cubic := cubic_roots 1 au2 au1 au0 in
  let u1 := if Nat.eqb (num_roots cubic) 1 then c_x1 cubic else Rmax (c_x1 cubic) (c_x3 cubic) in
  let R2 := 0.25 * a3 * a3 + u1 - a2 in
  let! R := (if Rlt_dec 0 R2 then fsqrt R2 else Some 0) in
  let! DE := (if Req_EM_T R 0
    then let f := 0.75 * a3 * a3 - 2 * a2 in
         let! s := fsqrt (u1 * u1 - 4 * a0) in
         let g := 2 * s in Some (f + g, f - g)
    else let f := 0.75 * a3 * a3 - R2 - 2 * a2 in
         let! g := fdiv (0.25 * (4 * a3 * a2 - 8 * a1 - a3 * a3 * a3)) R in Some (f + g, f - g)) in
  let (D2, E2) := DE in
  let! p1 := (if Rle_dec 0 D2
    then let! D := fsqrt D2 in Some (-0.25 * a3 + 0.5 * R - 0.5 * D, -0.25 * a3 + 0.5 * R + 0.5 * D, true)
    else Some (-0.25 * a3 + 0.5 * R, -0.25 * a3 + 0.5 * R, false)) in
  let! p2 := (if Rle_dec 0 E2
    then let! E := fsqrt E2 in Some (-0.25 * a3 - 0.5 * R - 0.5 * E, -0.25 * a3 - 0.5 * R + 0.5 * E, true)
    else Some (-0.25 * a3 - 0.5 * R, -0.25 * a3 + 0.5 * R, false)) in
  Some {| q_x1 := fst (fst p1); q_x2 := snd (fst p1); pair_1_is_real := snd p1;
          q_x3 := fst (fst p2); q_x4 := snd (fst p2); pair_2_is_real := snd p2 |}.

(** math_polynomial.hpp:206-215. *)
Definition parabola_vertex (x1 x2 x3 y1 y2 y3 : R) : option (R * R) :=
  let d := (x1 - x2) * (x1 - x3) * (x2 - x3) in
  let! A := fdiv (x3 * (y2 - y1) + x2 * (y1 - y3) + x1 * (y3 - y2)) d in
  let! B := fdiv (x3 * x3 * (y1 - y2) + x2 * x2 * (y3 - y1) + x1 * x1 * (y2 - y3)) d in
  let! C := fdiv (x2 * x3 * (x2 - x3) * y1 + x3 * x1 * (x3 - x1) * y2 + x1 * x2 * (x1 - x2) * y3) d in
  let! x := fdiv (- B) (2 * A) in
  let! y := fdiv (B * B) (4 * A) in
  Some (x, C - y).
