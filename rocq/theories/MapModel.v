(** Finite maps with string keys: the model of std::map<std::string, V>, also used for HDF5 groups.
    A map is the list of its entries in increasing key order, which is also its iteration order. *)
From Coq Require Import List Arith Ascii Bool.
From Verif Require Import Base StrModel.
Import ListNotations.
Close Scope Z_scope.
Open Scope nat_scope.

(** std::string operator< : lexicographic by unsigned character value. *)
Fixpoint str_cmp (a b : str) : comparison :=
  match a, b with
  | [], [] => Eq
  | [], _ => Lt
  | _, [] => Gt
  | x :: a', y :: b' =>
      match nat_of_ascii x ?= nat_of_ascii y with Eq => str_cmp a' b' | c => c end
  end.

Definition smap (V : Type) : Type := list (str * V).

(** std::map::find / at / count. *)
Fixpoint mfind {V} (k : str) (m : smap V) : option V :=
  match m with
  | [] => None
  | (k', v) :: m' => match str_cmp k k' with Lt => None | Eq => Some v | Gt => mfind k m' end
  end.

(** std::map::operator[] followed by assignment: replace the value, or insert in key order. *)
Fixpoint mset {V} (k : str) (v : V) (m : smap V) : smap V :=
  match m with
  | [] => [(k, v)]
  | (k', v') :: m' =>
      match str_cmp k k' with
      | Lt => (k, v) :: (k', v') :: m'
      | Eq => (k, v) :: m'
      | Gt => (k', v') :: mset k v m'
      end
  end.

(** The keys, in iteration order. *)
Definition mkeys {V} (m : smap V) : list str := map fst m.

(** Entries are in strictly increasing key order (a class invariant of std::map). *)
Inductive msorted {V} : smap V -> Prop :=
| ms_nil : msorted []
| ms_cons k v m : Forall (fun e => str_cmp k (fst e) = Lt) m -> msorted m -> msorted ((k, v) :: m).
