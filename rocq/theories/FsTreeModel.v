(** The functions of src/app_filesystem.hpp that look at the file system: listdir, remove_file, remove_recurse, isfile, isdir,
    and a model of the system calls behind them. *)
From Coq Require Import List Arith Bool ZArith.
From Verif Require Import Base.
Import ListNotations.
Close Scope Z_scope.
Open Scope nat_scope.

(** Names are numbers; [hidden] says which start with a dot.  The entries "." and ".." are not among the entries of a
    directory: listdir and remove_recurse skip them. *)
Definition name := nat.
Definition path := list name.

(** The types of files other than directories and links (sys/stat.h). *)
Inductive kind := Regular | Socket | Block | Character | Fifo.
(** A link is absolute or relative to its directory. *)
Inductive node := Other (k : kind) | Link (absolute : bool) (target : path) | Dir (entries : list (name * node)).

(** What is at a path without following links. *)
Definition entry (es : list (name * node)) (n : name) : option node :=
  match find (fun e => fst e =? n) es with Some e => Some (snd e) | None => None end.
Fixpoint at_path (t : node) (p : path) : option node :=
  match p with
  | [] => Some t
  | n :: p' => match t with Dir es => match entry es n with Some c => at_path c p' | None => None end | _ => None end
  end.

(** Path resolution: [budget] links are followed (40 on Linux), the last component is followed if [follow]. *)
Fixpoint walk (budget : nat) (root : node) (follow : bool) : path -> path -> option path :=
  fix go (cur rest : path) :=
    match rest with
    | [] => Some cur
    | n :: rest' =>
        match at_path root (cur ++ [n]) with
        | None => None
        | Some (Link absolute target) =>
            if negb follow && (length rest' =? 0) then Some (cur ++ [n])
            else match budget with O => None | S b => walk b root follow (if absolute then [] else cur) (target ++ rest') end
        | Some _ => go (cur ++ [n]) rest'
        end
    end.
Definition resolve (root : node) (follow : bool) (p : path) : option path := walk 40 root follow [] p.

(** Removing what is at a path. *)
Fixpoint del (t : node) (p : path) : node :=
  match t with
  | Dir es =>
      match p with
      | [] => t
      | [n] => Dir (filter (fun e => negb (fst e =? n)) es)
      | n :: p' => Dir (map (fun e => if fst e =? n then (fst e, del (snd e) p') else e) es)
      end
  | _ => t
  end.

(** The system calls.  Permissions, mount points and busy directories are left out: a call fails only when the tree does not
    allow it.  opendir takes a snapshot of the entries, which readdir returns in the order of the list. *)
Definition opendir (root : node) (p : path) : option (list name) :=
  match resolve root true p with
  | Some q => match at_path root q with Some (Dir es) => Some (map fst es) | _ => None end
  | None => None
  end.
Definition stat (root : node) (p : path) : option node :=
  match resolve root true p with Some q => at_path root q | None => None end.
Definition unlink (root : node) (p : path) : Z * node :=
  match resolve root false p with
  | Some q => match at_path root q with Some (Other _) | Some (Link _ _) => (0%Z, del root q) | _ => ((-1)%Z, root) end
  | None => ((-1)%Z, root)
  end.
Definition rmdir (root : node) (p : path) : Z * node :=
  match resolve root false p with
  | Some (n :: q) => match at_path root (n :: q) with Some (Dir []) => (0%Z, del root (n :: q)) | _ => ((-1)%Z, root) end
  | _ => ((-1)%Z, root)
  end.

(** The type bits of st_mode (sys/stat.h); stat follows links, so they do not occur in its result. *)
Definition type_bits (t : node) : Z :=
  match t with
  | Other Fifo => 4096 | Other Character => 8192 | Dir _ => 16384 | Other Block => 24576 | Other Regular => 32768 | Link _ _ => 40960
  | Other Socket => 49152
  end%Z.
Definition S_IFREG : Z := 32768%Z.
Definition S_IFDIR : Z := 16384%Z.
(** app_filesystem.hpp:211-220. *)
Definition isfile (root : node) (p : path) : bool :=
  match stat root p with Some t => negb (Z.land (type_bits t) S_IFREG =? 0)%Z | None => false end.
(** app_filesystem.hpp:222-231. *)
Definition isdir (root : node) (p : path) : bool :=
  match stat root p with Some t => negb (Z.land (type_bits t) S_IFDIR =? 0)%Z | None => false end.

(** app_filesystem.hpp:67-87. *)
Definition listdir (hidden : name -> bool) (root : node) (p : path) : outcome (list name) :=
  match opendir root p with Some ns => Ok (filter (fun n => negb (hidden n)) ns) | None => Throw InvalidArgument end.
(** app_filesystem.hpp:148-151: std::remove unlinks files and removes empty directories. *)
Definition remove_file (root : node) (p : path) : Z * node :=
  match resolve root false p with
  | Some q => match at_path root q with Some (Dir _) => rmdir root p | _ => unlink root p end
  | None => ((-1)%Z, root)
  end.
(** app_filesystem.hpp:153-209; S_ISDIR compares the type bits. *)
Fixpoint remove_recurse (fuel : nat) (root : node) (p : path) : outcome (Z * node) :=
  match fuel with
  | O => NoFuel
  | S f =>
      match opendir root p with
      | None => Ok ((-1)%Z, root)
      | Some ns =>
          do r <- (fix loop (ns : list name) (root : node) : outcome (Z * node) :=
                     match ns with
                     | [] => Ok (0%Z, root)
                     | n :: ns' =>
                         do r <- match stat root (p ++ [n]) with
                                 | None => Ok ((-1)%Z, root)
                                 | Some (Dir _) => remove_recurse f root (p ++ [n])
                                 | Some _ => Ok (unlink root (p ++ [n]))
                                 end;
                         if (fst r =? 0)%Z then loop ns' (snd r) else Ok r
                     end) ns root;
          Ok (if (fst r =? 0)%Z then rmdir (snd r) p else r)
      end
  end.

(** mkdir: a new empty directory where there is nothing yet, in a directory that exists. *)
Fixpoint add (t : node) (p : path) : node :=
  match t with
  | Dir es =>
      match p with
      | [] => t
      | [n] => Dir (es ++ [(n, Dir [])])
      | n :: p' => Dir (map (fun e => if fst e =? n then (fst e, add (snd e) p') else e) es)
      end
  | _ => t
  end.
Definition mkdir (root : node) (p : path) : Z * node :=
  match resolve root true (removelast p) with
  | Some q =>
      match p, at_path root q with
      | _ :: _, Some (Dir es) => match entry es (last p 0) with None => (0%Z, add root (q ++ [last p 0])) | Some _ => ((-1)%Z, root) end
      | _, _ => ((-1)%Z, root)
      end
  | None => ((-1)%Z, root)
  end.
(** app_filesystem.hpp:137-146: require_dir in the working directory [cwd], for a path without empty parts and without "." and
    ".."; the results of mkdir are not looked at. *)
Fixpoint require_dir_in (root : node) (partial dirs : path) : node :=
  match dirs with
  | [] => root
  | d :: ds => let p := partial ++ [d] in require_dir_in (snd (mkdir root p)) p ds
  end.
