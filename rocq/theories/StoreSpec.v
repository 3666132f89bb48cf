(** What a commit is meant to do, in terms of directories and files. *)
From Verif Require Import Base StoreModel.

(** The contents of a file of a directory. *)
Definition holds (d : dir) (n : N) (c : file) : Prop := exists a b, d = a ++ (n, c) :: b /\ ~ In n (map fst a).
Definition lacks (d : dir) (n : N) : Prop := ~ In n (map fst d).
(** The directory with the next commit number in the file for it, otherwise the same. *)
Definition numbered (d new : dir) (k : file) : Prop :=
  holds new commit_num k /\ (forall n c, n <> commit_num -> (holds new n c <-> holds d n c)) /\
  ((lacks d commit_num /\ k = 1) \/ (exists j, holds d commit_num j /\ k = j + 1)).
(** The active directory is completely the old or completely the new one, or both wait next to it. *)
Definition whole (old new : dir) (w : world) : Prop :=
  w_active w = Some old \/ w_active w = Some new \/ (w_active w = None /\ w_prev w = Some old /\ w_tmp w = Some new).
(** Every installed file is the old or the new one. *)
Definition each_whole (w0 w : world) : Prop := forall i, w_final w i = w_final w0 i \/ (w_ftmp w0 i <> None /\ w_final w i = w_ftmp w0 i).
(** Nothing was installed or loaded. *)
Definition untouched (w0 w : world) : Prop := (forall i, w_final w i = w_final w0 i) /\ w_loaded w = w_loaded w0.
(** Everything prepared is installed. *)
Definition installed (nohome : bool) (w0 w : world) : Prop :=
  forall i c, In i final_files -> w_ftmp w0 i = Some c -> ~ (nohome = true /\ i = homedirs_file) -> w_final w i = Some c.
(** The commit reports failure. *)
Definition failed (r : outcome) : Prop := forall k, r <> Committed k.
(** At most one system call fails. *)
Definition one_failure (o : nat -> sysret) : Prop := forall a b, o a <> SOk -> o b <> SOk -> a = b.
(** Directories can be renamed within the store. *)
Definition one_filesystem (o : nat -> sysret) : Prop := forall n, o n <> SXdev.
