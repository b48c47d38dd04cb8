(** Model of src/core_rational.hpp. *)
From Coq Require Import ZArith List Lia Bool.
From Verif Require Import Base.
Import ListNotations.
Open Scope Z_scope.

(** core_rational.hpp:224-225: the two data members [num] and [den]. *)
Record rat : Type := mkrat { num : Z; den : Z }.

(** core_rational.hpp:204-213: first loop of [gcd], dividing out common factors of two.
    Returns (a, b, d). Fuelled; fuel is proved sufficient. *)
Fixpoint gcd_shift (fuel : nat) (a b d : Z) : outcome (Z * Z * Z) :=
  match fuel with
  | O => NoFuel
  | S f =>
      if (a mod 2 =? 0) && (b mod 2 =? 0)
      then gcd_shift f (a / 2) (b / 2) (d + 1)
      else Ok (a, b, d)
  end.

(** core_rational.hpp:214-220: second loop of [gcd]. *)
Fixpoint gcd_loop (fuel : nat) (a b : Z) : outcome Z :=
  match fuel with
  | O => NoFuel
  | S f =>
      if a =? b then Ok a
      else if a mod 2 =? 0 then gcd_loop f (a / 2) b
      else if b mod 2 =? 0 then gcd_loop f a (b / 2)
      else if b <? a then gcd_loop f ((a - b) / 2) b
      else gcd_loop f a ((b - a) / 2)
  end.

(** Number of loop rounds that suffices for operands a, b (the C++ has no bound). *)
Definition gcd_fuel (a b : Z) : nat := S (S (Z.to_nat (Z.log2 a + Z.log2 b))).

(** core_rational.hpp:204-222: [gcd]. The shift [1 << d] is undefined for d >= 31.
    The operands are unsigned; the product is converted back to int. *)
Definition gcd_bin (a b : Z) : outcome Z :=
  do '(a1, b1, d) <- gcd_shift (gcd_fuel a b) a b 0;
  do g <- gcd_loop (gcd_fuel a1 b1) a1 b1;
  if d <? 31 then chk (g * 2 ^ d) else UB.

(** core_rational.hpp:184-197: [reduce]. [std::abs(INT_MIN)] and negating INT_MIN are undefined. *)
Definition reduce (n d : Z) : outcome rat :=
  do nd <-
    (if n =? 0 then Ok (n, d)
     else
       do an <- chk (Z.abs n);
       do ad <- chk (Z.abs d);
       do g <- gcd_bin an ad;
       Ok (Z.quot n g, Z.quot d g));
  let '(n1, d1) := nd in
  if d1 <? 0 then
    do n2 <- chk (n1 * -1);
    do d2 <- chk (d1 * -1);
    Ok (mkrat n2 d2)
  else Ok (mkrat n1 d1).

(** core_rational.hpp:57-66: two-argument constructor. *)
Definition make_rat (n d : Z) : outcome rat :=
  if d =? 0 then Throw InvalidArgument else reduce n d.

(** core_rational.hpp:56: one-argument constructor; also the conversions at 72, 84, 96, 107. *)
Definition rat_of_int (n : Z) : rat := mkrat n 1.

(** core_rational.hpp:69: unary minus. *)
Definition rneg (x : rat) : outcome rat :=
  do n <- chk (- num x); make_rat n (den x).

(** core_rational.hpp:73-80: operator+. Every product and the sum are int arithmetic. *)
Definition radd (x y : rat) : outcome rat :=
  do ad <- chk (num x * den y);
  do bc <- chk (den x * num y);
  do n <- chk (ad + bc);
  do d <- chk (den x * den y);
  make_rat n d.

(** core_rational.hpp:85-92: operator-. *)
Definition rsub (x y : rat) : outcome rat :=
  do ad <- chk (num x * den y);
  do bc <- chk (den x * num y);
  do n <- chk (ad - bc);
  do d <- chk (den x * den y);
  make_rat n d.

(** core_rational.hpp:97-104: operator*. *)
Definition rmul (x y : rat) : outcome rat :=
  do n <- chk (num x * num y);
  do d <- chk (den x * den y);
  make_rat n d.

(** core_rational.hpp:108-115: operator/. *)
Definition rdiv (x y : rat) : outcome rat :=
  do n <- chk (num x * den y);
  do d <- chk (den x * num y);
  make_rat n d.

(** core_rational.hpp:118-121 and 124-127: operator==, operator!=. *)
Definition req (x y : rat) : bool := (num x =? num y) && (den x =? den y).
Definition rne (x y : rat) : bool := negb (num x =? num y) || negb (den x =? den y).

(** core_rational.hpp:130-151: the four order comparisons look at the numerator of the difference. *)
Definition rlt (x y : rat) : outcome bool := do z <- rsub x y; Ok (num z <? 0).
Definition rgt (x y : rat) : outcome bool := do z <- rsub x y; Ok (0 <? num z).
Definition rle (x y : rat) : outcome bool := do z <- rsub x y; Ok (num z <=? 0).
Definition rge (x y : rat) : outcome bool := do z <- rsub x y; Ok (0 <=? num z).

(** core_rational.hpp:153-156: is_integral. *)
Definition is_integral (x : rat) : bool := (den x =? 1) || (num x =? 0).

(** core_rational.hpp:158-169: as_integral. *)
Definition as_integral (x : rat) : outcome Z :=
  if is_integral x then Ok (num x) else Throw LogicError.

(** core_rational.hpp:250: int - rational is [-b + a]. *)
Definition int_sub (a : Z) (b : rat) : outcome rat :=
  do nb <- rneg b; radd nb (rat_of_int a).

(** One time step's effect on the step counter.
    subprog_binary_scheme.cpp:891 and 1007, subprog_cloud.cpp:546 and 578: [iteration + 1]. *)
Definition advance_count (i : rat) : outcome rat := radd i (rat_of_int 1).

(** subprog_binary.cpp:264-277 and subprog_cloud.cpp:683-695: the two RK orders;
    subprog_binary_scheme.cpp:1033-1069: solution sums and multiples act on the counter
    by rational + and *. *)
Inductive rk_order := RK1 | RK2.

Definition step_count (o : rk_order) (i0 : rat) : outcome rat :=
  match o with
  | RK1 => advance_count i0
  | RK2 =>
      do b0 <- make_rat 1 2;
      do i1 <- advance_count i0;
      do i2 <- advance_count i1;
      do w0 <- rmul i0 b0;
      do b1 <- int_sub 1 b0;
      do w2 <- rmul i2 b1;
      radd w0 w2
  end.

(** A run: the counter after a list of steps. *)
Definition run_count (i0 : rat) (steps : list rk_order) : outcome rat :=
  foldM (fun i o => step_count o i) i0 steps.

(** Values a program can get hold of through the public interface (ints being in range). *)
Inductive reachable : rat -> Prop :=
| reach_default : reachable (mkrat 0 1)
| reach_int n : in_int n = true -> reachable (rat_of_int n)
| reach_make n d r : in_int n = true -> in_int d = true -> make_rat n d = Ok r -> reachable r
| reach_neg x r : reachable x -> rneg x = Ok r -> reachable r
| reach_add x y r : reachable x -> reachable y -> radd x y = Ok r -> reachable r
| reach_sub x y r : reachable x -> reachable y -> rsub x y = Ok r -> reachable r
| reach_mul x y r : reachable x -> reachable y -> rmul x y = Ok r -> reachable r
| reach_div x y r : reachable x -> reachable y -> rdiv x y = Ok r -> reachable r.
