(** Model of libselinux/src/sestatus.c with the parts of avc.c and avc_internal.c it drives, as a reader that makes one
    load from the shared page at a time, interleaved with the kernel. *)
From Verif Require Import Base.

(** libselinux/src/sestatus.c:22-30 (struct selinux_status_t) without version and sequence: the published fields. *)
Record snap := mkSn { s_enf : N; s_load : N; s_deny : N }.
(** libselinux/include/linux/selinux_netlink.h:29-45: the two messages. *)
Inductive msg := MEnf (b : N) | MLoad (n : N).

(** The kernel's side (not in the repository): the page follows the sequence-lock protocol described at
    libselinux/src/sestatus.c:52-63. [k_cnt] counts the increments of the sequence (the field holds it modulo 2^32), [k_cur]
    is the content of the page, [k_new] an update being written, [k_hist] the completed updates with the count after each,
    newest first, [k_mode] the mode read through the file "enforce", [k_msgs] the netlink messages not yet received. *)
Record kern := mkKn { k_cnt : N; k_cur : snap; k_new : option snap; k_hist : list (N * snap); k_mode : N; k_msgs : list msg }.
(** The sequence field of the page (libselinux/src/sestatus.c:25). *)
Definition seq_field (k : kern) : N := k_cnt k mod 4294967296.

(** The fields an update writes. *)
Inductive field := FEnf | FLoad | FDeny.
(** What the kernel does: change the mode (and notify), begin an update, write one field, end the update; load a policy
    (notify only). Not in the repository. *)
Inductive kact := KMode (b : N) | KBegin (s : snap) | KWrite (f : field) | KEnd | KNote (n : N).
(** Equality of published values. *)
Definition snap_eqb (a b : snap) : bool := (s_enf a =? s_enf b) && (s_load a =? s_load b) && (s_deny a =? s_deny b).
(** One step of the kernel, if possible (protocol of libselinux/src/sestatus.c:52-63: the sequence is odd while the page is
    being updated). *)
Definition kstep (k : kern) (a : kact) : option kern :=
  match a with
  | KMode b => Some (mkKn (k_cnt k) (k_cur k) (k_new k) (k_hist k) b (k_msgs k ++ [MEnf b]))
  | KNote n => Some (mkKn (k_cnt k) (k_cur k) (k_new k) (k_hist k) (k_mode k) (k_msgs k ++ [MLoad n]))
  | KBegin s =>
      match k_new k with
      | Some _ => None
      | None => Some (mkKn (k_cnt k + 1) (k_cur k) (Some s) (k_hist k) (k_mode k) (k_msgs k))
      end
  | KWrite f =>
      match k_new k with
      | None => None
      | Some s =>
          let c := k_cur k in
          let c' := match f with
                    | FEnf => mkSn (s_enf s) (s_load c) (s_deny c)
                    | FLoad => mkSn (s_enf c) (s_load s) (s_deny c)
                    | FDeny => mkSn (s_enf c) (s_load c) (s_deny s)
                    end in
          Some (mkKn (k_cnt k) c' (k_new k) (k_hist k) (k_mode k) (k_msgs k))
      end
  | KEnd =>
      match k_new k with
      | None => None
      | Some s =>
          if snap_eqb (k_cur k) s
          then Some (mkKn (k_cnt k + 1) (k_cur k) None ((k_cnt k + 1, s) :: k_hist k) (k_mode k) (k_msgs k))
          else None
      end
  end.

(** libselinux/src/sestatus.c:39-48 (static variables): NULL, MAP_FAILED, or the mapped page. *)
Inductive smode := SNull | SFail | SPage.
(** The static variables of libselinux/src/sestatus.c:39-46 and avc_enforcing, avc_setenforce
    (libselinux/src/avc_internal.c:52, avc.c); [l_resets] records the calls of avc_ss_reset. avc_enforcing is an int: its
    32-bit pattern. *)
Record lib := mkLib {
  l_status : smode; l_enf : N; l_set : bool; l_seq : N; l_load : N; l_fseq : N; l_fenf : N; l_fload : N; l_resets : list N }.

(** What outside code answers: mapping the page, opening the netlink socket, receiving, the reset callbacks of the cache,
    the setenforce and policyload callbacks of the application. *)
Record oracle := mkO { o_map : bool; o_sock : bool; o_recv : bool; o_reset1 : bool; o_cb1 : bool; o_reset2 : bool; o_cb2 : bool }.

(** libselinux/src/avc_internal.c:56-75 (avc_process_setenforce): new state and rc >= 0. [reset], [cb]: results of
    avc_ss_reset and of the callback. *)
Definition process_setenforce (l : lib) (e : N) (reset cb : bool) : lib * bool :=
  if l_set l then (l, cb)
  else
    let l1 := mkLib (l_status l) e (l_set l) (l_seq l) (l_load l) (l_fseq l) (l_fenf l) (l_fload l)
                    (if e =? 0 then l_resets l else 0 :: l_resets l) in
    if negb (e =? 0) && negb reset then (l1, false) else (l1, cb).
(** libselinux/src/avc_internal.c:78-96 (avc_process_policyload). *)
Definition process_policyload (l : lib) (p : N) (reset cb : bool) : lib * bool :=
  let l1 := mkLib (l_status l) (l_enf l) (l_set l) (l_seq l) (l_load l) (l_fseq l) (l_fenf l) (l_fload l) (p :: l_resets l) in
  if reset then (l1, cb) else (l1, false).

(** Setting one static variable (libselinux/src/sestatus.c:40-41). *)
Definition set_seq (l : lib) (s : N) : lib := mkLib (l_status l) (l_enf l) (l_set l) s (l_load l) (l_fseq l) (l_fenf l) (l_fload l) (l_resets l).
(** As above. *)
Definition set_load (l : lib) (p : N) : lib := mkLib (l_status l) (l_enf l) (l_set l) (l_seq l) p (l_fseq l) (l_fenf l) (l_fload l) (l_resets l).
(** As above. *)
Definition set_status (l : lib) (m : smode) : lib := mkLib m (l_enf l) (l_set l) (l_seq l) (l_load l) (l_fseq l) (l_fenf l) (l_fload l) (l_resets l).

(** The calls: selinux_status_open, avc_open (with AVC_OPT_SETENFORCE or without), selinux_status_updated,
    selinux_status_getenforce, selinux_status_policyload, selinux_status_deny_unknown, selinux_status_close, and the start
    of avc_has_perm_noaudit up to the use of avc_enforcing (libselinux/src/avc.c:761-763, 812). *)
Inductive op := OpOpen (fallback : bool) | OpAvcOpen (force : option bool) | OpUpdated | OpGetEnforce | OpPolicyload | OpDenyUnknown | OpClose | OpCheck.
(** Results: -1; a value; the value of a system call not modelled here; the mode a permission check uses; an access through
    MAP_FAILED. *)
Inductive res := RErr | RInt (n : N) | RSys | RMode (n : N) | RUB.

(** The field read between two reads of the sequence, and by whom (libselinux/src/sestatus.c:170-175, 206-211, 239-244,
    310-315). *)
Inductive what := WEnf | WLoad | WDeny | WOpen.
(** Where the reader is: nothing running; before a load of the sequence, of the field, of the sequence again (with the
    sequence and the value read); the same for selinux_status_updated (for a check or not). *)
Inductive act :=
| Idle (r : res)
| Seq1 (w : what) | Val (w : what) (s : N) | Seq2 (w : what) (s x : N)
| USeq1 (chk : bool) | UEnf (chk : bool) (s : N) | ULoad (chk : bool) (s e : N) | USeq2 (chk : bool) (s e p : N).

(** Is the sequence odd (libselinux/src/sestatus.c:76, 120). *)
Definition odd (s : N) : bool := N.testbit s 0.

(** What a permission check does after selinux_status_updated, whose result it ignores (libselinux/src/avc.c:762, 812). *)
Definition updated_end (chk : bool) (l : lib) (r : res) : lib * act := (l, Idle (if chk then match r with RUB => RUB | _ => RMode (l_enf l) end else r)).
(** libselinux/src/sestatus.c:133-143 (after the loop). *)
Definition updated_finish (chk : bool) (l : lib) (s e p : N) (o : oracle) : lib * act :=
  let (l1, ok1) := if negb (l_enf l =? e) then process_setenforce l e (o_reset1 o) (o_cb1 o) else (l, true) in
  if negb ok1 then updated_end chk l1 RErr
  else
    let (l2, ok2) := if negb (l_load l1 =? p) then let (l', ok) := process_policyload l1 p (o_reset2 o) (o_cb2 o) in (if ok then set_load l' p else l', ok)
                     else (l1, true) in
    if negb ok2 then updated_end chk l2 RErr
    else updated_end chk (set_seq l2 s) (RInt 1).

(** libselinux/src/sestatus.c:250-264 (the fallback callbacks) within the processing of one netlink message
    (libselinux/src/avc_internal.c:200-242); results are ignored by the caller (line 265). *)
Definition fallback_msg (o : oracle) (l : lib) (m : msg) : lib :=
  match m with
  | MEnf b =>
      let e := if b =? 0 then 0 else 1 in
      let (l1, ok) := process_setenforce l e (o_reset1 o) true in
      if ok then mkLib (l_status l1) (l_enf l1) (l_set l1) (l_seq l1) (l_load l1) (wrap32 (l_fseq l1 + 2)) e (l_fload l1) (l_resets l1) else l1
  | MLoad n =>
      let (l1, ok) := process_policyload l n (o_reset2 o) true in
      if ok then mkLib (l_status l1) (l_enf l1) (l_set l1) (l_seq l1) (l_load l1) (wrap32 (l_fseq l1 + 2)) (l_fenf l1) n (l_resets l1) else l1
  end.
(** libselinux/src/avc_internal.c:244-268 (avc_netlink_check_nb): all pending messages, then no more or an error. *)
Definition check_nb (o : oracle) (l : lib) (ms : list msg) : lib * bool := (fold_left (fallback_msg o) ms l, o_recv o).

(** The kernel after its messages were received (libselinux/src/avc_internal.c:244-268). *)
Definition drained (k : kern) : kern := mkKn (k_cnt k) (k_cur k) (k_new k) (k_hist k) (k_mode k) [].

(** selinux_status_open from the mapping on (libselinux/src/sestatus.c:278-352). The loop at 310-315 assigns
    last_policyload in every round; here it is assigned after the last one. The netlink thread is not modelled
    (avc_using_threads is 0). *)
Definition status_open (k : kern) (l : lib) (fallback : bool) (o : oracle) : lib * act :=
  match l_status l with
  | SFail => (l, Idle (RInt 1))
  | SPage => (l, Idle (RInt 0))
  | SNull =>
      if o_map o then (set_seq (set_status l SPage) 4294967295, Seq1 WOpen)
      else if fallback && o_sock o then
        (mkLib SFail (l_enf l) (l_set l) 4294967295 (l_load l) 0 (if k_mode k =? 0 then 0 else 1) 0 (l_resets l), Idle (RInt 1))
      else (l, Idle RErr)
  end.

(** A socket receives only what is sent after it was opened (libselinux/src/sestatus.c:328-330). *)
Definition opened (k : kern) (l l' : lib) : kern := match l_status l, l_status l' with SNull, SFail => drained k | _, _ => k end.

(** The beginning of a call, up to its first load from the page or to its end. The kernel changes only by giving its
    messages. *)
Definition call (k : kern) (l : lib) (c : op) (o : oracle) : kern * lib * act :=
  match c with
  | OpOpen fb => let (l', a) := status_open k l fb o in (opened k l l', l', a)
  | OpAvcOpen force =>
      (* libselinux/src/avc.c:205-223, 226-242: the rest of avc_init_internal is modelled in AvcModel; avc_open is called
         while the cache is not running, security_getenforce succeeds *)
      let m := match force with Some b => if b then 1 else 0 | None => if k_mode k =? 0 then 0 else 1 end in
      let l0 := mkLib (l_status l) m (match force with Some _ => true | None => false end) (l_seq l) (l_load l) (l_fseq l) (l_fenf l) (l_fload l) (l_resets l) in
      let (l', a) := status_open k l0 false o in (k, l', a)
  | OpUpdated | OpCheck =>
      (* libselinux/src/sestatus.c:97-122 *)
      let chk := match c with OpCheck => true | _ => false end in
      match l_status l with
      | SNull => let (l', a) := updated_end chk l RErr in (k, l', a)
      | SPage => (k, l, USeq1 chk)
      | SFail =>
          let (l1, ok) := check_nb o l (k_msgs k) in
          let (l', a) :=
            if negb ok then updated_end chk l1 RErr
            else
              let l2 := if odd (l_seq l1) then set_seq l1 (l_fseq l1) else l1 in
              if l_seq l2 =? l_fseq l2 then updated_end chk l2 (RInt 0) else updated_end chk l2 RUB in
          (drained k, l', a)
      end
  | OpGetEnforce =>
      (* libselinux/src/sestatus.c:152-178 *)
      match l_status l with
      | SNull => (k, l, Idle RErr)
      | SPage => (k, l, Seq1 WEnf)
      | SFail => let (l1, ok) := check_nb o l (k_msgs k) in (drained k, l1, Idle (if ok then RInt (l_fenf l1) else RErr))
      end
  | OpPolicyload =>
      (* libselinux/src/sestatus.c:190-214 *)
      match l_status l with
      | SNull => (k, l, Idle RErr)
      | SPage => (k, l, Seq1 WLoad)
      | SFail => let (l1, ok) := check_nb o l (k_msgs k) in (drained k, l1, Idle (if ok then RInt (l_fload l1) else RErr))
      end
  | OpDenyUnknown =>
      (* libselinux/src/sestatus.c:223-247 *)
      match l_status l with
      | SNull => (k, l, Idle RErr)
      | SPage => (k, l, Seq1 WDeny)
      | SFail => (k, l, Idle RSys)
      end
  | OpClose =>
      (* libselinux/src/sestatus.c:364-392 *)
      match l_status l with
      | SNull => (k, l, Idle (RInt 0))
      | SFail => (k, set_status l SNull, Idle (RInt 0))
      | SPage => (k, set_seq (set_status l SNull) 4294967295, Idle (RInt 0))
      end
  end.

(** The end of a read (libselinux/src/sestatus.c:177, 213, 246, 311-321). *)
Definition read_end (w : what) (l : lib) (x : N) : lib * act :=
  match w with
  | WEnf | WDeny => (l, Idle (RInt (if x =? 0 then 0 else 1)))
  | WLoad => (l, Idle (RInt x))
  | WOpen => (set_load l x, Idle (RInt 0))
  end.
(** The field read (libselinux/src/sestatus.c:173, 209, 242, 313). *)
Definition field_of (w : what) (s : snap) : N := match w with WEnf => s_enf s | WLoad | WOpen => s_load s | WDeny => s_deny s end.

(** One load from the page and what follows up to the next one. A load of the sequence that gives an odd value is repeated
    (libselinux/src/sestatus.c:61-80, read_sequence). Nothing if no call is running. *)
Definition load (k : kern) (l : lib) (a : act) (o : oracle) : option (lib * act) :=
  match a with
  | Idle _ => None
  | Seq1 w => let v := seq_field k in Some (l, if odd v then a else Val w v)
  | Val w s => Some (l, Seq2 w s (field_of w (k_cur k)))
  | Seq2 w s x =>
      let v := seq_field k in
      if odd v then Some (l, a) else if v =? s then Some (read_end w l x) else Some (l, Seq1 w)
  | USeq1 chk =>
      (* libselinux/src/sestatus.c:110-124 *)
      let v := seq_field k in
      if odd v then Some (l, a)
      else
        let l1 := if odd (l_seq l) then set_seq l v else l in
        if l_seq l1 =? v then Some (updated_end chk l1 (RInt 0)) else Some (l1, UEnf chk v)
  | UEnf chk s => Some (l, ULoad chk s (s_enf (k_cur k)))
  | ULoad chk s e => Some (l, USeq2 chk s e (s_load (k_cur k)))
  | USeq2 chk s e p =>
      (* libselinux/src/sestatus.c:127-132 *)
      let v := seq_field k in
      if odd v then Some (l, a) else if v =? s then Some (updated_finish chk l v e p o) else Some (l, UEnf chk v)
  end.

(** The whole: kernel, library, reader. *)
Record sys := mkSys { y_k : kern; y_l : lib; y_a : act }.
(** The scheduler's choices: a step of the kernel, the beginning of a call (if none is running), a load. *)
Inductive label := LKern (a : kact) | LCall (c : op) (o : oracle) | LLoad (o : oracle).
(** One step of the whole. *)
Definition sstep (y : sys) (b : label) : option sys :=
  match b with
  | LKern a => match kstep (y_k y) a with Some k => Some (mkSys k (y_l y) (y_a y)) | None => None end
  | LCall c o =>
      match y_a y with
      | Idle _ => let '(k, l, a) := call (y_k y) (y_l y) c o in Some (mkSys k l a)
      | _ => None
      end
  | LLoad o => match load (y_k y) (y_l y) (y_a y) o with Some (l, a) => Some (mkSys (y_k y) l a) | None => None end
  end.
(** A schedule. *)
Fixpoint sexec (y : sys) (l : list label) : option sys :=
  match l with
  | [] => Some y
  | b :: l' => match sstep y b with Some y' => sexec y' l' | None => None end
  end.
