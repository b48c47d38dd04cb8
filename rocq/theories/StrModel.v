(** Model of the std::string operations that the modelled code uses. Strings are lists of characters. *)
From Coq Require Import List Arith Bool Ascii ZArith Lia.
From Verif Require Import Base.
Import ListNotations.
Close Scope Z_scope.
Open Scope nat_scope.

Definition str : Type := list ascii.

(** std::string::operator==. *)
Fixpoint str_eqb (s r : str) : bool :=
  match s, r with
  | [], [] => true
  | a :: s', b :: r' => Ascii.eqb a b && str_eqb s' r'
  | _, _ => false
  end.

(** std::string::find(char, pos): npos is None. *)
Fixpoint find_char (c : ascii) (s : str) : option nat :=
  match s with
  | [] => None
  | a :: s' => if Ascii.eqb a c then Some 0 else option_map S (find_char c s')
  end.

(** std::string::rfind(char). *)
Fixpoint rfind_char (c : ascii) (s : str) : option nat :=
  match s with
  | [] => None
  | a :: s' =>
      match rfind_char c s' with
      | Some n => Some (S n)
      | None => if Ascii.eqb a c then Some 0 else None
      end
  end.

(** substr(0, n), where n may be npos. *)
Definition prefix_to (n : option nat) (s : str) : str :=
  match n with None => s | Some k => firstn k s end.

(** erase(0, n + 1), where n may be npos (then n + 1 wraps to 0 and nothing is erased). *)
Definition erase_through (n : option nat) (s : str) : str :=
  match n with None => s | Some k => skipn (S k) s end.

(** std::count(begin, end, c). *)
Definition count_char (c : ascii) (s : str) : nat := length (filter (fun a => Ascii.eqb a c) s).

(** Decimal digits. *)
Definition digit_char (d : nat) : ascii := ascii_of_nat (48 + d).
Definition is_digit (a : ascii) : bool := (48 <=? nat_of_ascii a) && (nat_of_ascii a <=? 57).
Definition digit_val (a : ascii) : nat := nat_of_ascii a - 48.

(** operator<< of an unsigned integer: decimal, no leading zeros. The fuel S n is always enough. *)
Fixpoint dec_fuel (fuel n : nat) : str :=
  match fuel with
  | 0 => []
  | S f => if n <? 10 then [digit_char n] else dec_fuel f (n / 10) ++ [digit_char (n mod 10)]
  end.
Definition dec (n : nat) : str := dec_fuel (S n) n.

(** std::setfill('0') << std::setw(w) << n. *)
Definition dec_padded (w n : nat) : str :=
  let s := dec n in repeat (digit_char 0) (w - length s) ++ s.

(** floor(log10(n)), as std::log10 followed by conversion to int gives it; rounding of std::log10 is
    not modelled (its arguments here are powers of two, and 1 is the only one that is a power of ten). *)
Fixpoint log10_fuel (fuel n : nat) : nat :=
  match fuel with
  | 0 => 0
  | S f => if n <? 10 then 0 else S (log10_fuel f (n / 10))
  end.
Definition log10 (n : nat) : nat := log10_fuel n n.

(** isspace in the C locale. *)
Definition is_space (a : ascii) : bool :=
  let n := nat_of_ascii a in (n =? 32) || ((9 <=? n) && (n <=? 13)).

Fixpoint drop_spaces (s : str) : str :=
  match s with
  | a :: s' => if is_space a then drop_spaces s' else s
  | [] => []
  end.

Fixpoint take_digits (s : str) : str :=
  match s with
  | a :: s' => if is_digit a then a :: take_digits s' else []
  | [] => []
  end.

Definition digits_val (s : str) : nat := fold_left (fun n a => 10 * n + digit_val a) s 0.

(** std::stoi (strtol base 10): skips white space, optional sign, digits; what follows is ignored.
    No digits: invalid_argument; outside int: out_of_range. *)
Definition stoi (s : str) : outcome Z :=
  let s1 := drop_spaces s in
  let '(neg, s2) := match s1 with
                    | a :: r => if Ascii.eqb a "-"%char then (true, r)
                                else if Ascii.eqb a "+"%char then (false, r) else (false, s1)
                    | [] => (false, s1)
                    end in
  match take_digits s2 with
  | [] => Throw InvalidArgument
  | ds =>
      let z := Z.of_nat (digits_val ds) in
      let z := if neg then Z.opp z else z in
      if in_int z then Ok z else Throw OutOfRange
  end.

(** Conversion of an int to std::size_t. *)
Definition to_size_t (z : Z) : nat := Z.to_nat (z mod 2 ^ 64)%Z.
