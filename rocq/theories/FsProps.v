(** C24, C25, C58, C59: paths and numbered file names. *)
From Coq Require Import List Arith Ascii String Bool ZArith Lia.
From Verif Require Import Base StrModel MapModel ScheduleModel FsModel FsProofs.
Import ListNotations.
Close Scope Z_scope.
Close Scope string_scope.
Open Scope nat_scope.

(** ** C24 *)

(** Splitting always succeeds, gives slash-free parts, and joining them gives the path back. *)
Theorem path_join_split (path : str) :
  exists parts, split path = Ok parts /\ Forall (fun p => ~ In "/"%char p) parts /\ join parts = path.
Proof. destruct (split_ok path) as (l & H1 & _ & H3 & H4). eauto. Qed.

(** Splitting the join of slash-free parts (at least one; they may be empty) gives the parts back. *)
Theorem path_split_join (parts : list str) :
  parts <> [] -> Forall (fun p => ~ In "/"%char p) parts -> split (join parts) = Ok parts.
Proof. apply split_join. Qed.

(** The empty list of parts is the only exception. *)
Example path_split_example :
  split (lit "/data//run.1/") = Ok [[]; lit "data"; []; lit "run.1"; []] /\ split (join []) = Ok [[]].
Proof. vm_compute. auto. Qed.

(** ** C25 *)

Theorem path_parent (dir name : str) : ~ In "/"%char name -> parent (dir ++ "/"%char :: name) = dir.
Proof. apply parent_spec. Qed.

(** Without a slash, the "parent" is the name itself. *)
Theorem path_parent_without_slash (name : str) : ~ In "/"%char name -> parent name = name.
Proof. apply parent_noslash. Qed.

(** The part from the last dot on, wherever that dot is. *)
Theorem path_extension (stem ext : str) : ~ In "."%char ext -> extension (stem ++ "."%char :: ext) = "."%char :: ext.
Proof. apply extension_spec. Qed.
Theorem path_no_dot_no_extension (path : str) : ~ In "."%char path -> extension path = [].
Proof. apply extension_none. Qed.

(** A name without a dot in a directory with one: the "extension" contains a slash. *)
Theorem path_extension_refuted :
  ~ (forall dir name, ~ In "/"%char name -> ~ In "."%char name -> extension (dir ++ "/"%char :: name) = []).
Proof.
  intros H. specialize (H (lit "run.1") (lit "chkpt")).
  assert (E : extension (lit "run.1" ++ "/"%char :: lit "chkpt") = lit ".1/chkpt") by (vm_compute; reflexivity).
  rewrite E in H. assert (X : lit ".1/chkpt" = []); [|discriminate]. apply H; vm_compute; intuition discriminate.
Qed.

Example path_example :
  parent (lit "a/b/c.h5") = lit "a/b" /\ extension (lit "a/b/c.old.h5") = lit ".h5" /\ parent (lit "/c") = [] /\
  extension (lit "./c") = lit "./c".
Proof. vm_compute. auto. Qed.

(** ** C58: numbered output files *)

(** Different numbers, different files (names shorter than the 1023 characters the buffer holds). *)
Theorem numbered_files_distinct (prefix ext : str) n1 n2 :
  List.length (create_numbered_filename prefix n1 ext) < 1023 -> List.length (create_numbered_filename prefix n2 ext) < 1023 ->
  create_numbered_filename prefix n1 ext = create_numbered_filename prefix n2 ext -> n1 = n2.
Proof. apply numbered_inj. Qed.

(** Up to 9999, sorting the files by name sorts them by number. *)
Theorem numbered_files_sort (prefix ext : str) n1 n2 :
  n1 < n2 -> n2 < 10 ^ 4 -> List.length prefix + 6 + List.length ext <= 1023 ->
  str_cmp (create_numbered_filename prefix n1 ext) (create_numbered_filename prefix n2 ext) = Lt.
Proof. apply numbered_order. Qed.

(** From 10000 on it does not. *)
Theorem numbered_files_sort_refuted :
  ~ (forall n1 n2, n1 < n2 -> str_cmp (create_numbered_filename (lit "chkpt") n1 (lit "h5")) (create_numbered_filename (lit "chkpt") n2 (lit "h5")) = Lt).
Proof.
  intros H. specialize (H (Nat.pred (10 ^ 4)) (10 ^ 4)).
  assert (X : Nat.pred (10 ^ 4) < 10 ^ 4) by (apply Nat.lt_pred_l; intros E; cbn in E; discriminate).
  specialize (H X). vm_compute in H. discriminate.
Qed.

Example numbered_files_example :
  create_numbered_filename (lit "chkpt") 7 (lit "h5") = lit "chkpt.0007.h5" /\
  create_numbered_filename (lit "diag") 1234 (lit "h5") = lit "diag.1234.h5".
Proof. vm_compute. auto. Qed.

(** ** C59: require_dir *)

(** For a path with parts p1/.../pn: it calls mkdir on ./p1, ./p1/p2, ... in this order, ending with ./ followed by the path. *)
Theorem require_dir_creates_ancestors (path : str) :
  exists parts, split path = Ok parts /\
    require_dir path = Ok (map (fun i => "."%char :: "/"%char :: join (firstn (S i) parts)) (seq 0 (List.length parts))) /\
    join (firstn (List.length parts) parts) = path.
Proof.
  destruct (split_ok path) as (l & H1 & H2 & H3 & H4). exists l. split; auto. split.
  - unfold require_dir. rewrite H1. bsimp. f_equal. rewrite require_calls. apply map_ext. intros i. rewrite join_joined. reflexivity.
  - rewrite firstn_all. exact H4.
Qed.

(** An absolute path is therefore created below the current directory. *)
Theorem require_dir_absolute_refuted :
  ~ (forall path, exists calls, require_dir path = Ok calls /\ (hd_error path = Some "/"%char -> In path calls)).
Proof.
  intros H. destruct (H (lit "/tmp/out")) as (calls & E & HI). vm_compute in E. injection E as <-.
  specialize (HI eq_refl). vm_compute in HI. intuition discriminate.
Qed.

Example require_dir_example :
  require_dir (lit "data/run") = Ok [lit "./data"; lit "./data/run"] /\
  require_dir (lit "/tmp/out") = Ok [lit "./"; lit ".//tmp"; lit ".//tmp/out"].
Proof. vm_compute. auto. Qed.

Print Assumptions path_join_split.
Print Assumptions path_split_join.
Print Assumptions path_parent.
Print Assumptions path_extension.
Print Assumptions path_extension_refuted.
Print Assumptions numbered_files_distinct.
Print Assumptions numbered_files_sort.
Print Assumptions numbered_files_sort_refuted.
Print Assumptions require_dir_creates_ancestors.
Print Assumptions require_dir_absolute_refuted.
