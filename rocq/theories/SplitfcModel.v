(** Model of the splitting of the file contexts into those of the system and the template for home directories:
    libsemanage/src/semanage_store.c:1484-1549. Failures of opening, writing and closing files are left out. *)
From Verif Require Import Base ContextModel RestoreModel HomedirModel.

(** PATH_MAX, the size of the buffer: libsemanage/src/semanage_store.c:1489. *)
Definition PATH_MAX : nat := Z.to_nat 4096.
(** libsemanage/src/semanage_store.c:1515-1517: whether a piece belongs to the template. *)
Definition for_template (buf : list N) : bool :=
  is_prefix HOME_DIR buf || is_prefix HOME_ROOT buf
  || match strstr ROLE buf with Some _ => true | None => false end || match strstr USER buf with Some _ => true | None => false end.
(** libsemanage/src/semanage_store.c:1514-1532: the loop; what is written to file_contexts and to homedir_template. *)
Fixpoint split_loop (ps : list (list N)) : list N * list N :=
  match ps with
  | [] => ([], [])
  | p :: r => let buf := cstr p in
              let (fc, hd) := split_loop r in
              if for_template buf then (fc, buf ++ hd) else (buf ++ fc, hd)
  end.
(** libsemanage/src/semanage_store.c:1485-1549 (semanage_split_fc). *)
Definition split_fc (file : list N) : list N * list N := split_loop (pieces (length file) (PATH_MAX - 1) file).
