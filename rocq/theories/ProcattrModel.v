(** Model of the attributes of a thread and their cache (libselinux/src/procattr.c) and of the translation of contexts and its cache
    (libselinux/src/setrans_client.c), for one thread. Texts are C strings. Allocation failures are left out. *)
From Verif Require Import Base MlsModel ContextModel.

(** libselinux/src/procattr.c:282-287: the attributes that can be set. *)
Inductive attr := Current | Exec | Fscreate | Sockcreate | Keycreate.
(** The attributes of libselinux/src/procattr.c:282-287 compared. *)
Definition attr_eqb (a b : attr) : bool :=
  match a, b with
  | Current, Current | Exec, Exec | Fscreate, Fscreate | Sockcreate, Sockcreate | Keycreate, Keycreate => true
  | _, _ => false
  end.
(** libselinux/src/procattr.c:14-23: a remembered value, UNSET, NULL or a text. *)
Inductive prev := Unset | Prev (c : option (list N)).
(** A write of an attribute (libselinux/src/procattr.c:217-226): which, what was written ([None]: nothing, to clear it) and whether it succeeded. *)
Record kwrite := mkWr { wr_attr : attr; wr_text : option (list N); wr_ok : bool }.
(** The thread: what libselinux/src/procattr.c:19-23 and libselinux/src/setrans_client.c:29-32 remember (the last text asked for and its translation), the attribute files
    of the kernel and, for the statements only, the writes to them, newest first. *)
Record thread := mkTh { th_prev : attr -> prev; th_t2r : option (list N * list N); th_r2t : option (list N * list N);
  th_file : attr -> list N; th_log : list kwrite }.
(** A variable of libselinux/src/procattr.c:19-23 (or a file) assigned. *)
Definition upd {T} (f : attr -> T) (a : attr) (v : T) : attr -> T := fun b => if attr_eqb a b then v else f b.
(** Which way to translate: libselinux/src/setrans_client.c:196-245. *)
Inductive way := RawOf | TransOf.

Section Proc.
(** The kernel's answer to a write at a time: refused, or the new content of the file. *)
Context (kernel : nat -> attr -> option (list N) -> option (list N)).
(** Whether a file can be opened for reading and read. *)
Context (readable : nat -> attr -> bool).
(** libselinux/src/setrans_client.c:196-245 (raw_to_trans_context, trans_to_raw_context): the answer of the daemon, [None]: any failure. *)
Context (daemon : nat -> way -> list N -> option (list N)).
(** libselinux/src/setrans_client.c:301-308 (has_setrans). *)
Context (has_setrans : bool).
(** selinux_page_size. *)
Context (page : nat).

(** libselinux/src/setrans_client.c:310-348 (selinux_trans_to_raw_context) and 351-389 (selinux_raw_to_trans_context), of a text that is not
    NULL: the cache after the call, and the answer. *)
Definition translate (n : nat) (w : way) (cache : option (list N * list N)) (s : list N) : option (list N * list N) * list N :=
  if negb has_setrans then (cache, s)
  else let miss := let a := match daemon n w s with Some a => a | None => s end in (Some (s, a), a) in
       match cache with
       | Some (q, a) => if str_eqb q s then (cache, a) else miss
       | None => miss
       end.
(** libselinux/src/setrans_client.c:310-348 (selinux_trans_to_raw_context) with the thread, of any argument ([None]: NULL). *)
Definition to_raw (n : nat) (t : thread) (s : option (list N)) : thread * option (list N) :=
  match s with
  | None => (t, None)
  | Some s => let (c, a) := translate n RawOf (th_t2r t) s in (mkTh (th_prev t) c (th_r2t t) (th_file t) (th_log t), Some a)
  end.
(** libselinux/src/setrans_client.c:351-389 (selinux_raw_to_trans_context) with the thread. *)
Definition to_trans (n : nat) (t : thread) (s : option (list N)) : thread * option (list N) :=
  match s with
  | None => (t, None)
  | Some s => let (c, a) := translate n TransOf (th_r2t t) s in (mkTh (th_prev t) (th_t2r t) c (th_file t) (th_log t), Some a)
  end.
(** libselinux/src/procattr.c:121-176 (getprocattrcon_raw) of the thread itself. [None]: -1. A read that is interrupted is repeated there. *)
Definition get_raw (n : nat) (t : thread) (a : attr) : option (option (list N)) :=
  match th_prev t a with
  | Prev (Some c) => Some (Some c)
  | _ => if readable n a then Some (match firstn (page - 1) (th_file t a) with [] => None | b => Some (cstr b) end) else None
  end.
(** libselinux/src/procattr.c:194-240 (setprocattrcon_raw): whether it succeeds. *)
Definition set_raw (n : nat) (t : thread) (a : attr) (c : option (list N)) : thread * bool :=
  let same := match c, th_prev t a with
              | None, Prev None => true
              | Some c, Prev (Some p) => str_eqb c p
              | _, _ => false
              end in
  if same then (t, true)
  else match kernel n a c with
       | None => (mkTh (th_prev t) (th_t2r t) (th_r2t t) (th_file t) (mkWr a c false :: th_log t), false)
       | Some f => (mkTh (upd (th_prev t) a (Prev c)) (th_t2r t) (th_r2t t) (upd (th_file t) a f) (mkWr a c true :: th_log t), true)
       end.

(** The calls: get*con_raw, set*con_raw, get*con, set*con (libselinux/src/procattr.c:258-287), and the two translations. *)
Inductive call := GetRaw (a : attr) | SetRaw (a : attr) (c : option (list N)) | Get (a : attr) | Set_ (a : attr) (c : option (list N))
  | ToRaw (s : option (list N)) | ToTrans (s : option (list N)).
(** What they return: -1, 0, or 0 with a context (libselinux/src/procattr.c:258-280). *)
Inductive answer := Fails | Done | Text (c : option (list N)).
(** The calls as above; libselinux/src/procattr.c:178-192 (getprocattrcon) and 242-256 (setprocattrcon) for those that translate. *)
Definition perform (n : nat) (t : thread) (o : call) : thread * answer :=
  match o with
  | GetRaw a => (t, match get_raw n t a with Some c => Text c | None => Fails end)
  | SetRaw a c => let (t, ok) := set_raw n t a c in (t, if ok then Done else Fails)
  | Get a => match get_raw n t a with
             | None => (t, Fails)
             | Some c => let (t, c) := to_trans n t c in (t, Text c)
             end
  | Set_ a c => let (t, r) := to_raw n t c in let (t, ok) := set_raw n t a r in (t, if ok then Done else Fails)
  | ToRaw s => let (t, r) := to_raw n t s in (t, Text r)
  | ToTrans s => let (t, r) := to_trans n t s in (t, Text r)
  end.
(** A run of the thread (any program using libselinux/src/procattr.c:258-287): the calls one after another, and what they answered, newest first. *)
Fixpoint run (n : nat) (t : thread) (h : list (call * answer)) (os : list call) : nat * thread * list (call * answer) :=
  match os with
  | [] => (n, t, h)
  | o :: os' => let (t', r) := perform n t o in run (S n) t' ((o, r) :: h) os'
  end.
(** libselinux/src/procattr.c:19-23: a new thread, whatever its attributes are. *)
Definition new_thread (files : attr -> list N) : thread := mkTh (fun _ => Unset) None None files [].
End Proc.
