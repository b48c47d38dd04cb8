(** Model of src/core_ndarray_ops.hpp and of the advection step of
    src/subprog_boilerplate.cpp, on the arrays of NdModel. *)
From Coq Require Import ZArith List Lia Bool.
From Verif Require Import Base NdModel.
Import ListNotations.
Open Scope Z_scope.

Section Ops.
Context {A : Type}.

(** select_first, core_ndarray_ops.hpp:73-85. *)
Definition select_first (count : Z) (axis : nat) (a : array A) : outcome (array A) :=
  let shape := ashape a in
  let start := map (fun _ => 0) shape in
  let final := upd axis (w64 (nth axis start 0 + count)) (last_index shape) in
  select (mkap start final (ap_jumps (make_access_pattern shape))) a.

(** select_final, core_ndarray_ops.hpp:87-99. *)
Definition select_final (count : Z) (axis : nat) (a : array A) : outcome (array A) :=
  let shape := ashape a in
  let final := last_index shape in
  let start := upd axis (w64 (nth axis final 0 - count)) (map (fun _ => 0) shape) in
  select (mkap start final (ap_jumps (make_access_pattern shape))) a.

(** take_first_on_axis 101-104, take_final_on_axis 106-109. *)
Definition take_first_on_axis (axis : nat) := select_first 1 axis.
Definition take_final_on_axis (axis : nat) := select_final 1 axis.

(** drop_first_on_axis 111-114, drop_final_on_axis 116-119. *)
Definition drop_first_on_axis (axis : nat) (a : array A) := select_axis axis 1 0 1 true a.
Definition drop_final_on_axis (axis : nat) (a : array A) := select_axis axis 0 1 1 true a.

(** difference_on_axis, core_ndarray_ops.hpp:131-139. *)
Definition difference_on_axis (sub : A -> A -> A) (axis : nat) (a : array A) : outcome (array A) :=
  do r <- select_axis axis 1 0 1 true a;
  do l <- select_axis axis 0 1 1 true a;
  binary_op sub r l.

(** midpoint_on_axis, core_ndarray_ops.hpp:121-129: [half] is multiplication by 0.5. *)
Definition midpoint_on_axis (add : A -> A -> A) (half : A -> A) (axis : nat) (a : array A) : outcome (array A) :=
  do l <- select_axis axis 0 1 1 true a;
  do r <- select_axis axis 1 0 1 true a;
  do s <- binary_op add l r;
  Ok (arr_map half s).

(** zip_adjacent2_on_axis 141-149; zip_adjacent3_on_axis 151-160. *)
Definition zip_adjacent2_on_axis (axis : nat) (a : array A) : outcome (array (A * A)) :=
  do l <- select_axis axis 0 1 1 true a;
  do r <- select_axis axis 1 0 1 true a;
  zip2 l r.
Definition zip_adjacent3_on_axis (axis : nat) (a : array A) : outcome (array (A * (A * A))) :=
  do l <- select_axis axis 0 2 1 true a;
  do c <- select_axis axis 1 1 1 true a;
  do r <- select_axis axis 2 0 1 true a;
  do cr <- zip2 c r; zip2 l cr.

(** extend_periodic_on_axis, core_ndarray_ops.hpp:162-170. *)
Definition extend_periodic_on_axis (axis : nat) (guard : Z) (a : array A) : outcome (array A) :=
  do xl <- select_first guard axis a;
  do xr <- select_final guard axis a;
  do b <- concat_on axis a xr;
  concat_on axis xl b.

(** extend_zero_gradient, core_ndarray_ops.hpp:172-180. *)
Definition extend_zero_gradient (axis : nat) (a : array A) : outcome (array A) :=
  do xl <- select_first 1 axis a;
  do xr <- select_final 1 axis a;
  do b <- concat_on axis a xl;
  concat_on axis xr b.

(** extend_zeros, core_ndarray_ops.hpp:182-190: [times0] is multiplication by 0. *)
Definition extend_zeros (times0 : A -> A) (axis : nat) (a : array A) : outcome (array A) :=
  do xl <- select_first 1 axis a;
  do xr <- select_final 1 axis a;
  do b <- concat_on axis a (arr_map times0 xl);
  concat_on axis (arr_map times0 xr) b.
End Ops.

(** intercell_flux_on_axis and next_solution of subprog_boilerplate.cpp:66-72 and 121-136, in
    exact arithmetic given by the operations; the new values before [shared()]. *)
Section Advection.
Context {A : Type} (sub mul div : A -> A -> A) (dt : A).
Definition upwind_flux (ue : array A) : outcome (array A) := select_axis 0 0 1 1 true ue.
Definition advection_step (xv u0 : array A) : outcome (array A) :=
  do dx <- difference_on_axis sub 0 xv;
  do ue <- extend_periodic_on_axis 0 1 u0;
  do fc <- upwind_flux ue;
  do df <- difference_on_axis sub 0 fc;
  do lc <- binary_op div df dx;
  binary_op sub u0 (arr_map (fun x => mul x dt) lc).
End Advection.

(** linspace, core_ndarray.hpp:2543-2550. [inj] converts the counters to double. *)
Definition linspace {A} (add sub mul div : A -> A -> A) (inj : Z -> A) (x0 x1 : A) (count : Z) : array A :=
  mkarr [count] (fun i => Ok (add x0 (div (mul (sub x1 x0) (inj (hd 0 i))) (inj (w64 (count - 1)))))).
