(** Model of src/mesh_prolong_restrict.hpp on the arrays of NdModel. The element type and its
    operations are parameters: [half] stands for [* 0.5] and for [/ 2].

    The code has hand-written versions for one, two and three axes; here they are one
    definition over the list of axes [0; ...; D-1]. ProlongProps shows that the definitions
    unfold to the written-out expressions. *)
From Coq Require Import ZArith List Lia Bool.
From Verif Require Import Base NdModel NdOpsModel.
Import ListNotations.
Open Scope Z_scope.

Section Prolong.
Context {A : Type} (add : A -> A -> A) (half : A -> A).

(** prolong_shape_verts 75-79, prolong_shape_cells 82-86. *)
Definition prolong_shape_verts (shape : list Z) (axis : nat) : list Z :=
  upd axis (w64 (w64 (nth axis shape 0 * 2) - 1)) shape.
Definition prolong_shape_cells (shape : list Z) (axis : nat) : list Z :=
  upd axis (w64 (nth axis shape 0 * 2)) shape.

(** coarsen_index_lower 89-94, coarsen_index_upper 97-102, coarsen_index_cells 105-110. *)
Definition coarsen_index_lower (fi : list Z) (axis : nat) : list Z := upd axis (nth axis fi 0 / 2) fi.
Definition coarsen_index_upper (fi : list Z) (axis : nat) : list Z :=
  upd axis (nth axis fi 0 / 2 + (if nth axis fi 0 mod 2 =? 0 then 0 else 1)) fi.
Definition coarsen_index_cells (fi : list Z) (axis : nat) : list Z := upd axis (nth axis fi 0 / 2) fi.

(** restrict_verts, mesh_prolong_restrict.hpp:116-122. *)
Definition restrict_verts (axis : nat) (a : array A) : outcome (array A) := select_axis axis 0 0 2 true a.

(** restrict_cells 124-132. *)
Definition restrict_cells (axis : nat) (a : array A) : outcome (array A) :=
  do h0 <- select_axis axis 0 1 2 true a;
  do h1 <- select_axis axis 1 0 2 true a;
  do s <- binary_op add h0 h1;
  Ok (arr_map half s).

(** restrict_extrinsic 134-142. *)
Definition restrict_extrinsic (axis : nat) (a : array A) : outcome (array A) :=
  do h0 <- select_axis axis 0 1 2 true a;
  do h1 <- select_axis axis 1 0 2 true a;
  binary_op add h0 h1.

(** prolong_verts 148-159, prolong_cells 161-196 (the piecewise linear branch is commented
    out in the code). *)
Definition prolong_verts (axis : nat) (a : array A) : array A :=
  mkarr (prolong_shape_verts (ashape a) axis)
        (fun i => do x <- aget a (coarsen_index_lower i axis);
                  do y <- aget a (coarsen_index_upper i axis);
                  Ok (half (add x y))).
Definition prolong_cells (axis : nat) (a : array A) : array A :=
  let c := bounds_check a in
  mkarr (prolong_shape_cells (ashape a) axis) (fun i => aget c (coarsen_index_cells i axis)).

(** bisect_verts 202-214, bisect_cells 216-228: both halves. *)
Definition bisect_verts (axis : nat) (a : array A) : outcome (array A * array A) :=
  let n := nth axis (ashape a) 0 in
  if n mod 2 =? 0 then Throw InvalidArgument
  else do h0 <- select_axis axis 0 (w64 (n / 2 + 1)) 1 false a;
       do h1 <- select_axis axis (n / 2) 0 1 true a;
       Ok (h0, h1).
Definition bisect_cells (axis : nat) (a : array A) : outcome (array A * array A) :=
  let n := nth axis (ashape a) 0 in
  if negb (n mod 2 =? 0) then Throw InvalidArgument
  else do h0 <- select_axis axis 0 (n / 2) 1 false a;
       do h1 <- select_axis axis (n / 2) 0 1 true a;
       Ok (h0, h1).

(** bisect_verts_lower/upper 230-231, bisect_cells_lower/upper 232-233. *)
Definition bisect_side (bisect : nat -> array A -> outcome (array A * array A)) (upper : bool) (axis : nat) (a : array A)
  : outcome (array A) :=
  do p <- bisect axis a; Ok (if upper then snd p else fst p).

(** combine_verts 239-256 (two pieces 239-243, four 245-251; eight throw logic_error). *)
Definition join_verts (axis : nat) (a b : array A) : outcome (array A) :=
  do d <- select_axis axis 0 1 1 true a; concat_on axis b d.

(** combine_cells 262-283 (two, four and eight pieces). *)
Definition join_cells (axis : nat) (a b : array A) : outcome (array A) := concat_on axis b a.

(** Neighbouring pieces are joined along the first axis, the results along the next, ... *)
Fixpoint pairwise (join : array A -> array A -> outcome (array A)) (l : list (array A)) : outcome (list (array A)) :=
  match l with
  | a :: b :: l' => do c <- join a b; do r <- pairwise join l'; Ok (c :: r)
  | _ => Ok []
  end.
Fixpoint combine_pieces (join : nat -> array A -> array A -> outcome (array A)) (axes : list nat) (l : list (array A))
  : outcome (array A) :=
  match axes with
  | [] => match l with [a] => Ok a | _ => Throw LogicError end
  | ax :: axes' => do r <- pairwise (join ax) l; combine_pieces join axes' r
  end.
Definition combine_verts (axes : list nat) (l : list (array A)) : outcome (array A) :=
  if (length axes <=? 2)%nat then combine_pieces join_verts axes l else Throw LogicError.
Definition combine_cells (axes : list nat) (l : list (array A)) : outcome (array A) := combine_pieces join_cells axes l.

(** The orthants of a block, the first axis fastest: the order of the lists in refine_verts
    and refine_cells, 290-369. *)
Fixpoint orthants (axes : list nat) : list (list bool) :=
  match axes with
  | [] => [[]]
  | _ :: axes' => flat_map (fun bs => [false :: bs; true :: bs]) (orthants axes')
  end.
Fixpoint bisect_all (bisect : nat -> array A -> outcome (array A * array A)) (axes : list nat) (bs : list bool) (a : array A)
  : outcome (array A) :=
  match axes, bs with
  | ax :: axes', b :: bs' => do h <- bisect_side bisect b ax a; bisect_all bisect axes' bs' h
  | _, _ => Ok a
  end.
Definition prolong_all (prolong : nat -> array A -> array A) (axes : list nat) (a : array A) : array A :=
  fold_left (fun a ax => prolong ax a) axes a.

(** refine_verts 289-298, 311-322, 337-352 and refine_cells 300-309, 324-335, 354-369. *)
Definition refine_verts (axes : list nat) (a : array A) : outcome (list (array A)) :=
  mapM (fun bs => bisect_all bisect_verts axes bs (prolong_all prolong_verts axes a)) (orthants axes).
Definition refine_cells (axes : list nat) (a : array A) : outcome (list (array A)) :=
  mapM (fun bs => bisect_all bisect_cells axes bs (prolong_all prolong_cells axes a)) (orthants axes).

(** coarsen_verts 375-377, coarsen_cells 379-381. *)
Definition coarsen_verts (axes : list nat) (a : array A) : outcome (array A) := foldM (fun a ax => restrict_verts ax a) a axes.
Definition coarsen_cells (axes : list nat) (a : array A) : outcome (array A) := foldM (fun a ax => restrict_cells ax a) a axes.
End Prolong.
