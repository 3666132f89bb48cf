(** Model of the labelling of one file by selinux_restorecon (libselinux/src/selinux_restorecon.c) with its table of
    associations between inodes and contexts, and of libselinux/src/is_customizable_type.c. Memory does not run out. *)
From Verif Require Import Base MlsModel ContextModel LoginModel LabtextModel.
From Coq Require Import ZArith.
Open Scope N_scope.

(** ** The table of associations *)

(** libselinux/src/selinux_restorecon.c:420-425 (file_spec_t). *)
Record fspec := mkFS { fs_ino : N; fs_con : list N; fs_file : list N }.
(** libselinux/src/selinux_restorecon.c:427, 445-449: the buckets, each with its chain; not yet allocated is all empty. *)
Definition ftable := N -> list fspec.
(** libselinux/src/selinux_restorecon.c:445-449: the empty table. *)
Definition no_specs : ftable := fun _ => [].
(** libselinux/src/selinux_restorecon.c:451, ino_t having 64 bits. *)
Definition ino_hash (ino : N) : N := (ino + ino / 2 ^ 16) mod 2 ^ 64 mod 2 ^ 16.
(** What filespec_add returns and the message about a conflict (the file, the one before, the context used). *)
Record reply := mkRep { rp_rc : Z; rp_msg : option (list N * list N * list N) }.
(** libselinux/src/selinux_restorecon.c:452-505: the loop along a chain and the insertion. [lstat] gives the inode of a path. *)
Fixpoint chain_add (lstat : list N -> option N) (conflicterror : bool) (ino : N) (con file : list N) (l : list fspec) : list fspec * reply :=
  match l with
  | [] => ([mkFS ino con file], mkRep 0 None)
  | f :: r =>
      if ino =? fs_ino f
      then if match lstat (fs_file f) with None => true | Some i => negb (i =? ino) end
           then (mkFS ino con file :: r, mkRep 1 None)
           else if str_eqb (fs_con f) con
           then (l, mkRep 1 None)
           else (mkFS ino (fs_con f) file :: r, mkRep (if conflicterror then -1 else 1) (Some (file, fs_file f, fs_con f)))
      else if fs_ino f <? ino then (mkFS ino con file :: l, mkRep 0 None)
      else let (r', p) := chain_add lstat conflicterror ino con file r in (f :: r', p)
  end.
(** libselinux/src/selinux_restorecon.c:436-521 (filespec_add). *)
Definition filespec_add (lstat : list N -> option N) (conflicterror : bool) (ino : N) (con file : list N) (T : ftable) : ftable * reply :=
  let h := ino_hash ino in
  let (l, p) := chain_add lstat conflicterror ino con file (T h) in
  (fun k => if k =? h then l else T k, p).

(** ** Customizable types *)

(** libselinux/src/is_customizable_type.c:33-35, 49-51: the pieces fgets gives, the buffer having [n] + 1 bytes. *)
Fixpoint pieces (fuel n : nat) (file : list N) : list (list N) :=
  match file with
  | [] => []
  | _ => match fuel with O => [] | S k => let (p, r) := fgets n file in p :: pieces k n r end
  end.
(** libselinux/src/is_customizable_type.c:52-53: a piece as C string without its last character; the store for an empty string
    is before the buffer ([RUB]). *)
Definition chop (p : list N) : res (list N) := match cstr p with [] => RUB | s => ROk (removelast s) end.
(** libselinux/src/is_customizable_type.c:49-65: the second pass. *)
Fixpoint chop_all (ps : list (list N)) : res (list (list N)) :=
  match ps with
  | [] => ROk []
  | p :: r => match chop p, chop_all r with ROk s, ROk l => ROk (s :: l) | _, _ => RUB end
  end.
(** libselinux/src/is_customizable_type.c:15-73 (customizable_init); [page] is the page size, [None] as file: it cannot be
    opened. [ROk None]: there is no list. The limit of UINT_MAX lines is left out. *)
Definition customizable_init (page : nat) (file : option (list N)) : res (option (list (list N))) :=
  match file with
  | None => ROk None
  | Some f =>
      match pieces (List.length f) (page - 1) f with
      | [] => ROk None
      | ps => match chop_all ps with ROk l => ROk (Some l) | RErr => RErr | RUB => RUB end
      end
  end.
(** libselinux/src/is_customizable_type.c:75-105 (is_context_customizable), the list being read. *)
Definition is_context_customizable (types : option (list (list N))) (scontext : list N) : Z :=
  match types with
  | None => -1
  | Some l =>
      match context_new scontext with
      | None => -1
      | Some c =>
          match x_type c with
          | None => -1
          | Some t => if existsb (fun s => str_eqb s t) l then 1 else 0
          end
      end
  end%Z.

(** ** One file *)

(** libselinux/src/selinux_restorecon.c:611-632: a component that differs is set; strcmp of NULL is [RUB], a refused component
    [RErr]. The result is the context and whether it was changed. *)
Definition carry (k : comp) (new : ctx) (st : ctx * bool) : res (ctx * bool) :=
  match ctx_get (fst st) k, ctx_get new k with
  | Some a, Some b =>
      if str_eqb a b then ROk st
      else match ctx_set (fst st) k (Some b) with Some c => ROk (c, true) | None => RErr end
  | _, _ => RUB
  end.
(** libselinux/src/selinux_restorecon.c:592-648 (compare_portions); [ROk None] is success with newtypecon NULL. *)
Definition compare_portions (curcon newcon : list N) (set_user_role : bool) : res (option (list N)) :=
  match context_new curcon, context_new newcon with
  | Some c, Some n =>
      match carry CType n (c, false) with
      | ROk st1 =>
          match (if set_user_role then match carry CUser n st1 with ROk st2 => carry CRole n st2 | e => e end else ROk st1) with
          | ROk (c', true) => match context_str c' with ROk s => ROk (Some s) | RErr => RErr | RUB => RUB end
          | ROk (_, false) => ROk None
          | RErr => RErr
          | RUB => RUB
          end
      | RErr => RErr
      | RUB => RUB
      end
  | _, _ => RErr
  end.

(** libselinux/src/selinux_restorecon.c:73-91 (struct rest_flags): the flags that matter here. *)
Record rflags := mkRF { f_add_assoc : bool; f_conflicterror : bool; f_set_specctx : bool; f_set_user_role : bool; f_nochange : bool }.
(** Answer of selabel_lookup_raw: a context, ENOENT, another error. *)
Inductive lookup_res := LkCon (c : list N) | LkNone | LkErr.
(** Answer of lgetfilecon_raw: a context, ENODATA, another error. *)
Inductive cur_res := CurCon (c : list N) | CurNone | CurErr.
(** What is observed: success, the context the file was set to, the message about a conflict. *)
Record outcome := mkOut { o_ok : bool; o_set : option (list N); o_msg : option (list N * list N * list N) }.
(** libselinux/src/selinux_restorecon.c:731-771: the comparison of the contexts and the change; lsetfilecon succeeds. *)
Definition relabel (custom : option (list (list N))) (F : rflags) (cur : cur_res) (newcon : list N) : res (bool * option (list N)) :=
  let set c := ROk (true, if f_nochange F then None else Some c) in
  match cur with
  | CurErr => ROk (false, None)
  | CurNone => set newcon
  | CurCon curcon =>
      if str_eqb curcon newcon then ROk (true, None)
      else if f_set_specctx F then set newcon
      else if (0 <? is_context_customizable custom curcon)%Z then ROk (true, None)
      else match compare_portions curcon newcon (f_set_user_role F) with
           | ROk (Some c) => set c
           | ROk None => ROk (true, None)
           | RErr => ROk (false, None)
           | RUB => RUB
           end
  end.
(** libselinux/src/selinux_restorecon.c:652-804 (restorecon_sb) without an alternative root, progress and other messages. *)
Definition restorecon_sb (lstat : list N -> option N) (custom : option (list (list N))) (F : rflags) (ino : N) (path : list N)
    (lk : lookup_res) (cur : cur_res) (T : ftable) : res (ftable * outcome) :=
  match lk with
  | LkNone => ROk (T, mkOut true None None)
  | LkErr => ROk (T, mkOut false None None)
  | LkCon newcon =>
      let (T', p) := if f_add_assoc F then filespec_add lstat (f_conflicterror F) ino newcon path T else (T, mkRep 0 None) in
      if (rp_rc p <? 0)%Z then ROk (T', mkOut false None (rp_msg p))
      else if (0 <? rp_rc p)%Z then ROk (T', mkOut true None (rp_msg p))
      else match relabel custom F cur newcon with
           | ROk (ok, s) => ROk (T', mkOut ok s (rp_msg p))
           | RErr => RErr
           | RUB => RUB
           end
  end.
(** A file of a tree walk: its device, its inode number there, its path, and the answer of the lookup for the path. *)
Record wfile := mkWF { w_dev : N; w_ino : N; w_path : list N; w_lk : lookup_res }.
(** A tree walk (libselinux/src/selinux_restorecon.c:927-1047, 1208) calls restorecon_sb for one file after the other, here by
    one thread, without stopping at errors and without changes by others. [W] gives the contexts of the files of a device. *)
Fixpoint walk (lstat : list N -> option N) (custom : option (list (list N))) (F : rflags) (fs : list wfile)
    (T : ftable) (W : N -> N -> cur_res) : res ((N -> N -> cur_res) * list outcome) :=
  match fs with
  | [] => ROk (W, [])
  | f :: r =>
      match restorecon_sb lstat custom F (w_ino f) (w_path f) (w_lk f) (W (w_dev f) (w_ino f)) T with
      | ROk (T', o) =>
          let W' := match o_set o with
                    | Some c => fun d i => if (d =? w_dev f) && (i =? w_ino f) then CurCon c else W d i
                    | None => W
                    end in
          match walk lstat custom F r T' W' with ROk (W2, os) => ROk (W2, o :: os) | RErr => RErr | RUB => RUB end
      | RErr => RErr
      | RUB => RUB
      end
  end.
