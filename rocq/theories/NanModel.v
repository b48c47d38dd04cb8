(** The checks and the time step of the disk program in IEEE 754 double arithmetic, with infinities and values that are not numbers
    (Flocq's BinarySingleNaN: binary64 without the payloads of NaNs).  The compiler is not told to assume that there are none
    (Makefile 25).  The scheme with conserve_linear_p is modelled here. *)
From Coq Require Import ZArith List Bool.
From Flocq Require Import IEEE754.BinarySingleNaN Core.
From Verif Require Import Base TreeModel BalanceModel.
Import ListNotations.

Definition b64 : Set := binary_float 53 1024.
Definition prec_ok : Prec_gt_0 53 := eq_refl.
Definition emax_ok : Prec_lt_emax 53 1024 := eq_refl.
(** Sum, difference, product, quotient and root, rounded to nearest even; the order [<] of C++, false for a NaN. *)
Definition add64 : b64 -> b64 -> b64 := @Bplus 53 1024 prec_ok emax_ok mode_NE.
Definition sub64 : b64 -> b64 -> b64 := @Bminus 53 1024 prec_ok emax_ok mode_NE.
Definition mul64 : b64 -> b64 -> b64 := @Bmult 53 1024 prec_ok emax_ok mode_NE.
Definition div64 : b64 -> b64 -> b64 := @Bdiv 53 1024 prec_ok emax_ok mode_NE.
Definition sqrt64 : b64 -> b64 := @Bsqrt 53 1024 prec_ok emax_ok mode_NE.
Definition abs64 : b64 -> b64 := @Babs 53 1024.
Definition lt64 (x y : b64) : bool := match Bcompare x y with Some Lt => true | _ => false end.
Definition of_int (n : Z) : b64 := binary_normalize 53 1024 prec_ok emax_ok mode_NE n 0 false.
Definition zero64 : b64 := B754_zero false.
(** std::min and std::max of the C++ library: the first argument unless the comparison holds. *)
Definition std_min (a b : b64) : b64 := if lt64 b a then b else a.
Definition std_max (a b : b64) : b64 := if lt64 a b then b else a.

(** A cell: its conserved_u (src/physics_iso2d.hpp 64-68) and the square of the speed of sound at its centre, cs2_at_position
    (src/subprog_binary_scheme.cpp 160-175), whatever it is. *)
Record cell : Set := Cell { density : b64; momentum_x : b64; momentum_y : b64; cs2 : b64 }.

(** validate_u, src/subprog_binary_scheme.cpp 726-755: does it throw? *)
Definition rejected (t : tree (list cell)) : bool := existsb (existsb (fun c => lt64 (density c) zero64)) (leaves t).

(** recover_primitive, src/physics_iso2d.hpp 351-362: the velocities.  (In the thread pool the exception ends the process, SolutionModel.v.) *)
Definition recover (c : cell) : outcome (b64 * b64) :=
  if lt64 (density c) zero64 then Throw InvalidArgument else Ok (div64 (momentum_x c) (density c), div64 (momentum_y c) (density c)).
(** unit_vector_t::project, src/core_geometric.hpp 85-89, in velocity_along, src/physics_iso2d.hpp 218-222. *)
Definition project64 (n1 n2 n3 : b64) (v : b64 * b64) : b64 := add64 (add64 (mul64 (fst v) n1) (mul64 (snd v) n2)) (mul64 zero64 n3).
(** max_wavespeed and wavespeeds, src/physics_iso2d.hpp 320-337. *)
Definition fastest (v : b64 * b64) (c2 : b64) : b64 :=
  let cs := sqrt64 c2 in
  let ax := project64 (of_int 1) zero64 zero64 v in
  let ay := project64 zero64 (of_int 1) zero64 v in
  let vx := std_max (abs64 (sub64 ax cs)) (abs64 (add64 ax cs)) in
  let vy := std_max (abs64 (sub64 ay cs)) (abs64 (add64 ay cs)) in
  std_max vx vy.
Definition speed (c : cell) : outcome b64 := do v <- recover c; Ok (fastest v (cs2 c)).
(** nd::max, src/core_ndarray.hpp 1998-2014. *)
Definition nd_max (l : list b64) : b64 := match l with [] => zero64 | x :: r => fold_left (fun m y => if lt64 m y then y else m) r x end.
(** tree_t::min and arithmetic_sequence_t::min, src/core_tree.hpp 500 and src/core_sequence.hpp 268-276. *)
Fixpoint tree_min (t : tree b64) : b64 :=
  match t with Leaf x => x | Node cs => match map tree_min cs with [] => zero64 | x :: r => fold_left std_min r x end end.
(** maximum_timestep, src/subprog_binary_scheme.cpp 1107-1126; [spacing l] is spacing_at_root / (1 << l). *)
Definition block_limit (spacing : b64) (cs : list cell) : outcome b64 := do w <- mapM speed cs; Ok (div64 spacing (nd_max w)).
Fixpoint levelled {A} (l : nat) (t : tree A) : tree (nat * A) := match t with Leaf a => Leaf (l, a) | Node ts => Node (map (levelled (S l)) ts) end.
Definition maximum_timestep (spacing : nat -> b64) (t : tree (list cell)) : outcome b64 := do x <- tmapM (fun b => block_limit (spacing (fst b)) (snd b)) (levelled 0 t); Ok (tree_min x).
(** The time step of next_solution without fixed_dt, src/subprog_binary.cpp 281-283, and the time after the step: 1st and 2nd order,
    src/subprog_binary.cpp 264-277 with src/subprog_binary_scheme.cpp 890 and 1033-1060. *)
Definition step64 (cfl : b64) (spacing : nat -> b64) (t : tree (list cell)) : outcome b64 := do m <- maximum_timestep spacing t; Ok (mul64 cfl m).
Definition half64 : b64 := div64 (of_int 1) (of_int 2).
Definition time_after (second : bool) (time dt : b64) : b64 :=
  if second then add64 (mul64 time half64) (mul64 (add64 (add64 time dt) dt) half64) else add64 time dt.
(** simulation_should_continue, src/subprog_binary.cpp 317-320; [turn] is 2 * M_PI. *)
Definition continues (turn tfinal time : b64) : bool := lt64 (div64 time turn) tfinal.
(** The loop of main, src/subprog_binary.cpp 428-432, as far as time and gas are concerned; [update] is the new gas, whatever the scheme
    makes of the old one.  The number of steps is counted. *)
Section Loop.
Variable update : tree (list cell) -> b64 -> outcome (tree (list cell)).
Variables (cfl turn tfinal : b64) (spacing : nat -> b64) (second : bool).
Definition next64 (s : b64 * tree (list cell)) : outcome (b64 * tree (list cell)) :=
  do dt <- step64 cfl spacing (snd s); do u <- update (snd s) dt; Ok (time_after second (fst s) dt, u).
Fixpoint loop64 (fuel n : nat) (s : b64 * tree (list cell)) : outcome (nat * (b64 * tree (list cell))) :=
  match fuel with
  | O => NoFuel
  | S f => if continues turn tfinal (fst s) then do s1 <- next64 s; loop64 f (S n) s1 else Ok (n, s)
  end.
End Loop.
