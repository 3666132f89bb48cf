(** Model of the commit of a policy store: semanage_store.c, with every system call as a step that may fail, and every state in
    between as a point at which the machine may stop. What a finished call has done is durable; directories are flat. *)
From Verif Require Import Base.

(** A file is its contents; an empty file and the number 0 are the same. A directory is a list of names and files. *)
Definition file : Type := N.
Definition dir : Type := list (N * file).
(** semanage_store.h:33-36 (enum semanage_store_defs): the three directories of a store. *)
Inductive place := Active | Previous | Tmp.
(** The directories of the store, the installed files (/etc/selinux/NAME), those prepared for installation
    (semanage_final_path(SEMANAGE_FINAL_TMP, ...)) and the policy in the kernel. *)
Record world := mkW { w_active : option dir; w_prev : option dir; w_tmp : option dir; w_final : N -> option file; w_ftmp : N -> option file; w_loaded : option file }.
(** Reading a directory. *)
Definition get (p : place) (w : world) : option dir := match p with Active => w_active w | Previous => w_prev w | Tmp => w_tmp w end.
(** Changing a directory. *)
Definition set (p : place) (d : option dir) (w : world) : world :=
  match p with
  | Active => mkW d (w_prev w) (w_tmp w) (w_final w) (w_ftmp w) (w_loaded w)
  | Previous => mkW (w_active w) d (w_tmp w) (w_final w) (w_ftmp w) (w_loaded w)
  | Tmp => mkW (w_active w) (w_prev w) d (w_final w) (w_ftmp w) (w_loaded w)
  end.
(** Installing a file. *)
Definition set_final (i : N) (c : file) (w : world) : world :=
  mkW (w_active w) (w_prev w) (w_tmp w) (fun j => if j =? i then Some c else w_final w j) (w_ftmp w) (w_loaded w).
(** Loading the policy. *)
Definition set_loaded (c : option file) (w : world) : world := mkW (w_active w) (w_prev w) (w_tmp w) (w_final w) (w_ftmp w) c.
(** Creating or replacing a file of a directory. *)
Fixpoint put_file (n : N) (c : file) (d : dir) : dir :=
  match d with
  | [] => [(n, c)]
  | (m, x) :: d' => if m =? n then (n, c) :: d' else (m, x) :: put_file n c d'
  end.
(** Removing a file of a directory. *)
Definition del_file (n : N) (d : dir) : dir := filter (fun p => negb (fst p =? n)) d.
(** Reading a file of a directory. *)
Fixpoint read_file (n : N) (d : dir) : option file :=
  match d with [] => None | (m, x) :: d' => if m =? n then Some x else read_file n d' end.
(** semanage_store.h:53 (SEMANAGE_COMMIT_NUM_FILE), as a name. *)
Definition commit_num : N := 0.
(** semanage_store.h:86 (SEMANAGE_KERNEL). *)
Definition kernel_file : N := 7.
(** semanage_store.h:78-90: the files installed, semanage_store.c:1629. *)
Definition final_files : list N := [1; 2; 3; 4; 5; 6; 7; 8; 9].
(** semanage_store.h:81 (SEMANAGE_FC_HOMEDIRS). *)
Definition homedirs_file : N := 3.

(** What a system call reports: success, an error, or EXDEV. *)
Inductive sysret := SOk | SFail | SXdev.
(** The number of calls made, the world, and the worlds passed through. *)
Record st := mkSt { s_n : nat; s_w : world; s_log : list world }.
(** Programs. *)
Definition M (A : Type) : Type := st -> A * st.
(** The program that does nothing. *)
Definition ret {A} (a : A) : M A := fun s => (a, s).
(** One program after the other. *)
Definition bind {A B} (c : M A) (k : A -> M B) : M B := fun s => let (a, s1) := c s in k a s1.
Notation "'do' x <- c ; k" := (bind c (fun x => k)) (at level 200, x name, c at level 100, k at level 200).
Notation "c ;; k" := (bind c (fun _ => k)) (at level 100, right associativity).

Section Store.
Context (o : nat -> sysret).
(** A system call without effect on the files. *)
Definition ask : M sysret := fun s => (o (s_n s), mkSt (S (s_n s)) (s_w s) (s_log s)).
(** Likewise, success or not. *)
Definition sys : M bool := do r <- ask; ret (match r with SOk => true | _ => false end).
(** A change of the files. *)
Definition upd (f : world -> world) : M unit := fun s => (tt, mkSt (s_n s) (f (s_w s)) (f (s_w s) :: s_log s)).
(** Looking at the files. *)
Definition look {A} (f : world -> A) : M A := fun s => (f (s_w s), s).

(** semanage_store.c:839-863: removing the entries of a directory. *)
Fixpoint remove_loop (p : place) (names : list N) : M bool :=
  match names with
  | [] => ret true
  | n :: l =>
      do a <- sys;
      if negb a then ret false
      else do b <- sys;
           if negb b then ret false
           else upd (fun w => set p (option_map (del_file n) (get p w)) w) ;; remove_loop p l
  end.
(** semanage_store.c:828-870 (semanage_remove_directory). *)
Definition remove_directory (p : place) : M bool :=
  do a <- sys;
  do d <- look (get p);
  match d with
  | None => ret false
  | Some l =>
      if negb a then ret false
      else do ok <- remove_loop p (map fst l);
           if negb ok then ret false
           else do b <- sys; if b then upd (set p None) ;; ret true else ret false
  end.
(** semanage_store.c:785-818: copying the entries of a directory; semanage_copy_file (673-732) writes a temporary file first, which
    is not modelled, and renames it. *)
Fixpoint copy_loop (q : place) (l : dir) : M bool :=
  match l with
  | [] => ret true
  | (n, c) :: l' =>
      do a <- sys;
      if negb a then ret false
      else do b <- sys;
           if negb b then ret false
           else upd (fun w => set q (option_map (put_file n c) (get q w)) w) ;; copy_loop q l'
  end.
(** semanage_store.c:760-826 (semanage_copy_dir_flags with flag 1). *)
Definition copy_dir (p q : place) : M bool :=
  do a <- sys;
  do d <- look (get p);
  match d with
  | None => ret false
  | Some l =>
      if negb a then ret false
      else do e <- look (get q);
           do ok <- (match e with Some _ => ret true | None => do b <- sys; if b then upd (set q (Some [])) ;; ret true else ret false end);
           if negb ok then ret false else copy_loop q l
  end.
(** rename(2) of a directory: the target must be missing or empty. *)
Definition do_rename (p q : place) : M sysret :=
  do r <- ask;
  match r with
  | SOk =>
      do d <- look (get p);
      do e <- look (get q);
      match d, e with
      | Some c, None | Some c, Some [] => upd (fun w => set p None (set q (Some c) w)) ;; ret SOk
      | _, _ => ret SFail
      end
  | r => ret r
  end.
(** semanage_store.c:734-748 (semanage_rename). *)
Definition sem_rename (p q : place) : M bool :=
  do r <- do_rename p q;
  match r with
  | SOk => ret true
  | SFail => ret false
  | SXdev => do ok <- copy_dir p q; if ok then remove_directory p else ret false
  end.
(** semanage_store.c:1629-1660: the files; one whose stat fails is skipped. [nohome]: conf->disable_genhomedircon. *)
Fixpoint install_loop (nohome : bool) (l : list N) : M bool :=
  match l with
  | [] => ret true
  | i :: l' =>
      do a <- sys;
      do src <- look (fun w => w_ftmp w i);
      match src with
      | None => install_loop nohome l'
      | Some c =>
          if negb a then install_loop nohome l'
          else if nohome && (i =? homedirs_file) then install_loop nohome l'
          else
            do b <- sys;
            if negb b then ret false
            else do k <- sys;
                 if negb k then ret false else upd (set_final i c) ;; install_loop nohome l'
      end
  end.
(** semanage_store.c:1616-1697 (semanage_install_final_tmp). [reload]: a reload is wanted and this is the store in use
    (1663-1687, whose stat calls are not modelled). *)
Definition install_final_tmp (nohome reload : bool) : M bool :=
  do a <- install_loop nohome final_files;
  if negb a then ret false
  else if negb reload then ret true
  else do b <- sys; if b then upd (fun w => set_loaded (w_final w kernel_file) w) ;; ret true else ret false.
(** How a commit ends. *)
Inductive outcome :=
| Committed (serial : N)
| Refused  (* before the active directory was touched *)
| Kept  (* the new directory could not be moved *)
| Undone (rolled_back : bool)  (* the installation failed *)
| Stuck  (* the active directory could not be moved back *)
| Backup_left.  (* everything is done, the backup could not be removed *)
(** semanage_store.c:1703-1829 (semanage_commit_sandbox); [save]: conf->save_previous. Every outcome but the first is the result -1. *)
Definition commit_sandbox (nohome reload save : bool) : M outcome :=
  do a <- sys;
  do t <- look (get Tmp);
  if negb a then ret Refused
  else
    let serial := match t with Some d => match read_file commit_num d with Some c => c | None => 0 end | None => 0 end + 1 in
    let write c := upd (fun w => set Tmp (option_map (put_file commit_num c) (get Tmp w)) w) in
    do b <- sys;
    match t with
    | None => ret Refused
    | Some _ =>
        if negb b then ret Refused
        else write 0 ;;
             do c <- sys;
             if negb c then ret Refused
             else write serial ;;
                  do d <- sys;
                  do e <- (if d then sys else ret false);
                  do f <- (if e then sys else ret false);
                  do g <- (if f then sys else ret false);
                  if negb g then ret Refused
                  else
                    do h <- sys;
                    do old <- look (get Previous);
                    do cleared <- (if negb h then ret false else match old with Some _ => remove_directory Previous | None => ret true end);
                    if negb cleared then ret Refused
                    else
                      do r1 <- sem_rename Active Previous;
                      if negb r1 then ret Refused
                      else
                        do r2 <- sem_rename Tmp Active;
                        if negb r2 then
                          do r3 <- sem_rename Previous Active; ret (if r3 then Kept else Stuck)
                        else
                          do ins <- install_final_tmp nohome reload;
                          if negb ins then
                            do r4 <- sem_rename Active Tmp;
                            if negb r4 then ret Stuck
                            else do r5 <- sem_rename Previous Active;
                                 if negb r5 then ret Stuck
                                 else do again <- install_final_tmp nohome reload; ret (Undone again)
                          else if save then ret (Committed serial)
                          else do gone <- remove_directory Previous; ret (if gone then Committed serial else Backup_left)
    end.
(** semanage_store.c:532-557 (semanage_create_store): a missing active directory is made; other files of the store are not modelled. *)
Definition create_store : M bool :=
  do d <- look (get Active);
  match d with
  | Some _ => ret true
  | None => do a <- sys; if a then upd (set Active (Some [])) ;; ret true else ret false
  end.
(** semanage_store.c:935-973 (semanage_make_sandbox). *)
Definition make_sandbox : M bool :=
  do a <- sys;
  do d <- look (get Tmp);
  do cleared <- (match d with Some _ => if a then remove_directory Tmp else ret false | None => ret true end);
  if negb cleared then ret false
  else do b <- sys;
       if negb b then remove_directory Tmp ;; ret false
       else upd (set Tmp (Some [])) ;;
            do c <- copy_dir Active Tmp;
            if c then ret true else remove_directory Tmp ;; ret false.
End Store.
(** Running a program from a world: the result, the world and the worlds passed through, the first one included. *)
Definition exec {A} (c : M A) (w : world) : A * world * list world :=
  let (a, s) := c (mkSt 0 w [w]) in (a, s_w s, s_log s).
