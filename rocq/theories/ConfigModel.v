(** Model of src/app_config.hpp, of the configuration part of src/app_serialize.hpp and of create_run_config. *)
From Coq Require Import List Arith Ascii Bool ZArith.
From Verif Require Import Base StrModel MapModel.
Import ListNotations.
Close Scope Z_scope.
Open Scope nat_scope.

Section config.
  (** Doubles, and std::stod; it may throw. *)
  Context {D : Type} (stod : str -> outcome D).

  (** app_config.hpp:41: config_parameter_t, and std::variant::index. *)
  Inductive cval : Type := CInt (z : Z) | CDbl (d : D) | CStr (s : str).
  Definition cidx (v : cval) : nat := match v with CInt _ => 0 | CDbl _ => 1 | CStr _ => 2 end.

  (** app_config.hpp:62-148: config_t. *)
  Record config : Type := mkcfg { c_params : smap cval; c_template : smap cval }.

  (** app_config.hpp:76-83: get, returning the variant's alternative of type [i]
      (std::get throws bad_variant_access; parameters.at throws out_of_range). *)
  Definition cget (i : nat) (k : str) (c : config) : outcome cval :=
    match mfind k (c_template c) with
    | None => Throw InvalidArgument
    | Some _ =>
        match mfind k (c_params c) with
        | None => Throw OutOfRange
        | Some v => if cidx v =? i then Ok v else Throw BadVariantAccess
        end
    end.

  (** app_config.hpp:123-141: set(key, config_parameter_t). *)
  Definition cset (k : str) (v : cval) (c : config) : outcome config :=
    match mfind k (c_template c) with
    | None => Throw InvalidArgument
    | Some t => if cidx v =? cidx t then Ok (mkcfg (mset k v (c_params c)) (c_template c)) else Throw InvalidArgument
    end.

  (** app_config.hpp:103-121: set(key, string), converting to the type of the template's value. *)
  Definition cconvert (t : cval) (s : str) : outcome cval :=
    match t with
    | CInt _ => do z <- stoi s; Ok (CInt z)
    | CDbl _ => do d <- stod s; Ok (CDbl d)
    | CStr _ => Ok (CStr s)
    end.
  Definition cset_str (k : str) (s : str) (c : config) : outcome config :=
    match mfind k (c_template c) with
    | None => Throw InvalidArgument
    | Some t => do v <- cconvert t s; cset k v c
    end.

  (** app_config.hpp:85-101: update, with a map of values or of strings. *)
  Definition cupdate (m : smap cval) (c : config) : outcome config := foldM (fun c e => cset (fst e) (snd e) c) c m.
  Definition cupdate_str (m : smap str) (c : config) : outcome config := foldM (fun c e => cset_str (fst e) (snd e) c) c m.

  (** app_config.hpp:151-190: config_template_t: item and create. *)
  Definition titem (k : str) (v : cval) (t : smap cval) : smap cval := mset k v t.
  Definition tcreate (t : smap cval) : config := mkcfg t t.

  (** app_serialize.hpp:100-106: write_config; the group then has one dataset per parameter. *)
  Definition write_config (c : config) : smap cval := c_params c.

  (** app_serialize.hpp:108-123: read_config; [l] is the group in iteration order, entries that cannot be read
      ([None]) are reported and skipped. *)
  Definition read_config (l : list (str * option cval)) : smap cval :=
    fold_left (fun m e => match snd e with Some v => mset (fst e) v m | None => m end) l [].

  (** subprog_binary.cpp:155-164: create_run_config; [file] is the group "run_config" of the restart file (the other
      subprograms do the same with their own group). *)
  Definition create_run_config (t : smap cval) (file : list (str * option cval)) (args : smap str) : outcome config :=
    match mfind ["r";"e";"s";"t";"a";"r";"t"]%char args with
    | Some _ => do c <- cupdate (read_config file) (tcreate t); cupdate_str args c
    | None => cupdate_str args (tcreate t)
    end.
End config.
Arguments cval : clear implicits.
Arguments config : clear implicits.

(** app_config.hpp:230-241: one argument. *)
Definition argv_step (items : smap str) (arg : str) : outcome (smap str) :=
  match find_char "="%char arg with
  | None => Ok items
  | Some i =>
      let key := firstn i arg in
      let val := skipn (S i) arg in
      match mfind key items with
      | Some _ => Throw InvalidArgument
      | None => Ok (mset key val items)
      end
  end.
(** app_config.hpp:223-245: argv_to_string_map. *)
Definition argv_to_string_map (argv : list str) : outcome (smap str) := foldM argv_step [] argv.
