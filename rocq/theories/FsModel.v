(** Model of the path functions of src/app_filesystem.hpp and of create_numbered_filename. *)
From Coq Require Import List Arith Ascii Bool ZArith.
From Verif Require Import Base StrModel.
Import ListNotations.
Close Scope Z_scope.
Open Scope nat_scope.

(** app_filesystem.hpp:89-107: split; the loop removes at least one character per round, so the fuel
    |path| + 1 given by [split] is enough (the loop then ends by its break). *)
Fixpoint split_loop (fuel : nat) (remaining : str) (dirs : list str) : outcome (list str) :=
  match fuel with
  | 0 => NoFuel
  | S f =>
      match find_char "/"%char remaining with
      | None => Ok (dirs ++ [remaining])
      | Some slash => split_loop f (skipn (S slash) remaining) (dirs ++ [firstn slash remaining])
      end
  end.
Definition split (path : str) : outcome (list str) := split_loop (S (length path)) path [].

(** app_filesystem.hpp:109-118: join. *)
Definition join (parts : list str) : str :=
  let res := fold_left (fun res part => res ++ "/"%char :: part) parts [] in
  match res with [] => res | _ => skipn 1 res end.

(** app_filesystem.hpp:120-129: extension. *)
Definition extension (path : str) : str :=
  match rfind_char "."%char path with Some dot => skipn dot path | None => [] end.

(** app_filesystem.hpp:131-135: parent. *)
Definition parent (path : str) : str := prefix_to (rfind_char "/"%char path) path.

(** app_filesystem.hpp:137-146: the arguments of the mkdir calls of require_dir, in order. *)
Fixpoint require_dir_calls (partial : str) (dirs : list str) : list str :=
  match dirs with
  | [] => []
  | d :: ds => let p := partial ++ "/"%char :: d in p :: require_dir_calls p ds
  end.
Definition require_dir (path : str) : outcome (list str) :=
  do dirs <- split path; Ok (require_dir_calls ["."%char] dirs).

(** printf("%04d"), for nonnegative numbers. *)
Definition fmt04d (n : nat) : str := dec_padded 4 n.

(** app_serialize.hpp:183-188: create_numbered_filename; snprintf keeps at most 1023 characters. Counts are
    nonnegative at all call sites. *)
Definition create_numbered_filename (prefix : str) (count : nat) (ext : str) : str :=
  firstn 1023 (prefix ++ "."%char :: fmt04d count ++ "."%char :: ext).
