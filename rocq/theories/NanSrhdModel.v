(** The relativistic recover_primitive in IEEE 754 double arithmetic, with infinities and values that are not numbers (see NanModel.v), and
    the steps of the explosion program that call it. *)
From Coq Require Import ZArith List Bool Arith.
From Flocq Require Import IEEE754.BinarySingleNaN.
From Verif Require Import Base NanModel NanSedovModel.
Import ListNotations.
Close Scope Z_scope.
Open Scope nat_scope.

(** The order [<=] of C++, false for a NaN. *)
Definition le64 (x y : b64) : bool := match Bcompare x y with Some Lt | Some Eq => true | _ => false end.
(** 1e-10: error_tolerance and the distance of the greatest squared velocity from one, src/physics_srhd.hpp 370, 396. *)
Definition tiny64 : b64 := div64 one64 (of_int 10000000000%Z).

Section Recover.
(** std::pow(x, 2), src/physics_srhd.hpp 396, of the C library. *)
Variable square : b64 -> b64.
Variables (gm temperature_floor : b64).
(** One pass of the loop, src/physics_srhd.hpp 396-406: W, f and the new pressure. *)
Definition pass64 (D tau SS p : b64) : b64 * b64 * b64 :=
  let v2 := std_min (div64 SS (square (add64 (add64 tau D) p))) (sub64 one64 tiny64) in
  let W2 := div64 one64 (sub64 one64 v2) in
  let W := sqrt64 W2 in
  let e := div64 (add64 (add64 tau (mul64 D (sub64 one64 W))) (mul64 p (sub64 one64 W2))) (mul64 D W) in
  let d := div64 D W in
  let h := add64 (add64 one64 e) (div64 p d) in
  let cs2 := div64 (mul64 gm p) (mul64 d h) in
  let f := sub64 (mul64 (mul64 d e) (sub64 gm one64)) p in
  let g := sub64 (mul64 v2 cs2) one64 in
  (W, f, sub64 p (div64 f g)).
(** The loop, src/physics_srhd.hpp 394-415; nothing if it is left with solution_found false. *)
Fixpoint newton64 (fuel : nat) (D tau SS p : b64) : option (b64 * b64) :=
  match fuel with
  | O => None
  | S k => let '(W, f, p') := pass64 D tau SS p in if lt64 (abs64 f) tiny64 then Some (W, p') else newton64 k D tau SS p'
  end.
(** src/physics_srhd.hpp 364-451. *)
Definition srecover (U : w5) : outcome w5 :=
  let D := w0 U in let tau := w4 U in
  let SS := add64 (add64 (mul64 (w1 U) (w1 U)) (mul64 (w2 U) (w2 U))) (mul64 (w3 U) (w3 U)) in
  match newton64 50 D tau SS zero64 with
  | None => Throw InvalidArgument
  | Some (W0, p0) =>
      let p := if lt64 zero64 temperature_floor then std_max p0 (div64 (mul64 temperature_floor D) W0) else p0 in
      let E := add64 (add64 tau D) p in
      let P := W5 (div64 D W0) (div64 (mul64 W0 (w1 U)) E) (div64 (mul64 W0 (w2 U)) E) (div64 (mul64 W0 (w3 U)) E) p in
      if le64 (w0 P) zero64 then Throw InvalidArgument
      else if le64 (w4 P) zero64 then Throw InvalidArgument
      else if is_nan W0 then Throw InvalidArgument
      else Ok P
  end.

(** A step of the explosion program with the relativistic equations, src/subprog_sedov.cpp 394-421: the primitives of all shells (411)
    come first; [update] is the new gas made of the old one and the primitives (412-414), whatever it is. *)
Variables (n : nat) (dv : nat -> b64) (dt : b64) (update : (nat -> w5) -> list w5 -> nat -> w5).
Definition rstep (u : nat -> w5) : outcome (nat -> w5) := do p <- mapM (fun i => srecover (map5 (fun x => div64 x (dv i)) (u i))) (seq 0 n); Ok (update u p).
Fixpoint rsteps (k : nat) (u : nat -> w5) : outcome (nat -> w5) := match k with O => Ok u | S m => do v <- rstep u; rsteps m v end.
(** The run loop, src/subprog_sedov.cpp 552-557, 638-642; the exception is not caught. *)
Fixpoint rloop (tfinal : b64) (fuel m : nat) (time : b64) (u : nat -> w5) : outcome (nat * b64 * (nat -> w5)) :=
  match fuel with
  | O => NoFuel
  | S f => if lt64 time tfinal then do v <- rstep u; rloop tfinal f (S m) (add64 time dt) v else Ok (m, time, u)
  end.
(** run_tasks_on_next once more after the loop, src/subprog_sedov.cpp 644, its state dropped: the state at the end of the loop is kept here. *)
Definition rmain (tfinal : b64) (fuel : nat) (time : b64) (u : nat -> w5) : outcome (nat * b64 * (nat -> w5)) := do r <- rloop tfinal fuel 0 time u; do v <- rstep (snd r); Ok r.
End Recover.
