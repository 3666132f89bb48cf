(** Model of the userspace access vector cache (libselinux/src/avc.c, avc_internal.c). Nodes are numbered
    and live in a heap; a slot is the list of the node numbers of its chain. SIDs are pointers, modelled by
    numbers with 0 for NULL. Locks, statistics and log text are not modelled. *)
From Verif Require Import Base AvtabModel.

(** struct av_decision, libselinux/include/selinux/selinux.h:139-146. *)
Record avdec := mkAD { ad_allowed : N; ad_decided : N; ad_auditallow : N; ad_auditdeny : N; ad_seqno : N; ad_flags : N }.
(** struct avc_entry, libselinux/src/avc.c:19-26. *)
Record aentry := mkAE { ae_s : N; ae_t : N; ae_c : N; ae_avd : avdec; ae_create : N; ae_used : bool }.
(** The cache and the variables used with it: heap of nodes, slots, avc_node_freelist, lru_hint, active_nodes,
    latest_notif (avc.c:33-38, 55-56), avc_enforcing and avc_setenforce (avc_internal.c:51-52). *)
Record cache := mkCache {
  ca_heap : N -> aentry;
  ca_slots : list (list N);
  ca_free : list N;
  ca_hint : N;
  ca_active : N;
  ca_notif : N;
  ca_enforcing : bool;
  ca_fixed : bool
}.

(** libselinux/src/avc.c:16. *)
Definition AVC_CACHE_SLOTS : nat := 512.

(** libselinux/src/avc.c:61-66 (avc_hash). The 64-bit wrap of the shift does not reach the low nine bits. *)
Definition avc_hash (s t c : N) : N := N.land (N.lxor (N.lxor s (N.shiftl t 2)) c) 511.

(** memset(ae, 0, sizeof), libselinux/src/avc.c:341-344. *)
Definition cleared : aentry := mkAE 0 0 0 (mkAD 0 0 0 0 0 0) 0 false.

(** Assignment to one node of the heap. *)
Definition upd (h : N -> aentry) (i : N) (e : aentry) : N -> aentry := fun j => if j =? i then e else h j.
(** ae.used = v. *)
Definition set_used (e : aentry) (v : bool) : aentry := mkAE (ae_s e) (ae_t e) (ae_c e) (ae_avd e) (ae_create e) v.
(** Assignment of ae.avd. *)
Definition set_avd (e : aentry) (d : avdec) : aentry := mkAE (ae_s e) (ae_t e) (ae_c e) d (ae_create e) (ae_used e).
(** Assignment of ae.create_sid. *)
Definition set_create (e : aentry) (sid : N) : aentry := mkAE (ae_s e) (ae_t e) (ae_c e) (ae_avd e) sid (ae_used e).
(** Assignment of avd.allowed. *)
Definition set_allowed (d : avdec) (v : N) : avdec :=
  mkAD v (ad_decided d) (ad_auditallow d) (ad_auditdeny d) (ad_seqno d) (ad_flags d).

(** Replacing the heap, slots and free list. *)
Definition set_heap (C : cache) h := mkCache h (ca_slots C) (ca_free C) (ca_hint C) (ca_active C) (ca_notif C) (ca_enforcing C) (ca_fixed C).

(** libselinux/src/avc.c:311-323 (walk of one chain: the used flags are cleared until an unused node). *)
Fixpoint scan_chain (h : N -> aentry) (l : list N) : (N -> aentry) * option N :=
  match l with
  | [] => (h, None)
  | i :: r => if negb (ae_used (h i)) then (h, Some i) else scan_chain (upd h i (set_used (h i) false)) r
  end.

(** libselinux/src/avc.c:311-325 (slots from [hv] on, [n] of them, wrapping around). *)
Fixpoint scan_slots (n : nat) (h : N -> aentry) (slots : list (list N)) (hv : N) : (N -> aentry) * option (N * N) :=
  match n with
  | O => (h, None)
  | S n' =>
      match scan_chain h (nth (N.to_nat hv) slots []) with
      | (h', Some i) => (h', Some (hv, i))
      | (h', None) => scan_slots n' h' slots (N.land (hv + 1) 511)
      end
  end.

(** prev->next = cur->next, libselinux/src/avc.c:333-336. *)
Fixpoint unlink (i : N) (l : list N) : list N :=
  match l with [] => [] | j :: r => if j =? i then r else j :: unlink i r end.

(** libselinux/src/avc.c:303-339 (avc_reclaim_node: two passes). *)
Definition avc_reclaim_node (C : cache) : cache * option N :=
  match scan_slots AVC_CACHE_SLOTS (ca_heap C) (ca_slots C) (ca_hint C) with
  | (h, Some (hv, i)) =>
      (mkCache h (set_nth (N.to_nat hv) (unlink i (nth (N.to_nat hv) (ca_slots C) [])) (ca_slots C)) (ca_free C) hv
               (ca_active C) (ca_notif C) (ca_enforcing C) (ca_fixed C), Some i)
  | (h, None) =>
      match scan_slots AVC_CACHE_SLOTS h (ca_slots C) (ca_hint C) with
      | (h', Some (hv, i)) =>
          (mkCache h' (set_nth (N.to_nat hv) (unlink i (nth (N.to_nat hv) (ca_slots C) [])) (ca_slots C)) (ca_free C) hv
                   (ca_active C) (ca_notif C) (ca_enforcing C) (ca_fixed C), Some i)
      | (h', None) => (set_heap C h', None)
      end
  end.

(** libselinux/src/avc.c:346-377 (avc_claim_node; avc_cleanup, 497-499, does nothing). *)
Definition avc_claim_node (C : cache) (s t c : N) : cache * option N :=
  let r :=
    match ca_free C with
    | i :: rest => (mkCache (ca_heap C) (ca_slots C) rest (ca_hint C) (wrap32 (ca_active C + 1)) (ca_notif C)
                            (ca_enforcing C) (ca_fixed C), Some i)
    | [] => avc_reclaim_node C
    end in
  match r with
  | (C', None) => (C', None)
  | (C', Some i) =>
      let hv := N.to_nat (avc_hash s t c) in
      (mkCache (upd (ca_heap C') i (mkAE s t c (mkAD 0 0 0 0 0 0) 0 true))
               (set_nth hv (i :: nth hv (ca_slots C') []) (ca_slots C')) (ca_free C') (ca_hint C') (ca_active C')
               (ca_notif C') (ca_enforcing C') (ca_fixed C'), Some i)
  end.

(** The entry is for this source, target and class. *)
Definition is_for (e : aentry) (s t c : N) : bool := (ae_s e =? s) && (ae_t e =? t) && (ae_c e =? c).

(** libselinux/src/avc.c:389-394 (walk of a chain). *)
Definition search_chain (h : N -> aentry) (l : list N) (s t c : N) : option N := find (fun i => is_for (h i) s t c) l.

(** libselinux/src/avc.c:379-410 (avc_search_node: a hit is marked used). *)
Definition avc_search_node (C : cache) (s t c : N) : cache * option N :=
  match search_chain (ca_heap C) (nth (N.to_nat (avc_hash s t c)) (ca_slots C) []) s t c with
  | Some i => (set_heap C (upd (ca_heap C) i (set_used (ca_heap C i) true)), Some i)
  | None => (C, None)
  end.

(** (decided & requested) == requested. *)
Definition decides (d : avdec) (req : N) : bool := N.land (ad_decided d) req =? req.

(** libselinux/src/avc.c:427-448 (avc_lookup). *)
Definition avc_lookup (C : cache) (s t c req : N) : cache * option N :=
  match avc_search_node C s t c with
  | (C', Some i) => if decides (ae_avd (ca_heap C' i)) req then (C', Some i) else (C', None)
  | r => r
  end.

(** Result of a permission check or insertion: 0, or -1 with EACCES, EAGAIN, ENOMEM, or the server's error. *)
Inductive hres := H0 | HEacces | HEagain | HEnomem | HErr.

(** libselinux/src/avc.c:469-495 (avc_insert). *)
Definition avc_insert (C : cache) (s t c : N) (d : avdec) : cache * (hres + N) :=
  if ad_seqno d <? ca_notif C then (C, inl HEagain)
  else
    match avc_claim_node C s t c with
    | (C', None) => (C', inl HEnomem)
    | (C', Some i) => (set_heap C' (upd (ca_heap C') i (set_avd (ca_heap C' i) d)), inr i)
    end.

(** What security_compute_av_flags_raw answers: a decision, EINVAL or another error. *)
Inductive answer := AnsAvd (d : avdec) | AnsEinval | AnsErr.

(** Finding the entry for a check, libselinux/src/avc.c:768-804: through the caller's reference [ref], the
    cache or the server. The last component tells whether the server was asked. *)
Definition find_entry (C : cache) (s t c req : N) (ref : option N) (ans : answer) :
    cache * (hres + N) * bool :=
  let by_ref :=
    match ref with
    | Some i => if is_for (ca_heap C i) s t c && decides (ae_avd (ca_heap C i)) req then Some i else None
    | None => None
    end in
  match by_ref with
  | Some i => (set_heap C (upd (ca_heap C) i (set_used (ca_heap C i) true)), inr i, false)
  | None =>
      match avc_lookup C s t c req with
      | (C1, Some i) => (C1, inr i, false)
      | (C1, None) =>
          match ans with
          | AnsEinval => (C1, inl (if ca_enforcing C1 then HErr else H0), true)
          | AnsErr => (C1, inl HErr, true)
          | AnsAvd d => let (C2, r) := avc_insert C1 s t c d in (C2, r, true)
          end
      end
  end.

(** libselinux/src/avc.c:737-744 (avd_init; decided is left alone, 0 here). *)
Definition avd_init (C : cache) : avdec := mkAD 0 0 0 4294967295 (ca_notif C) 0.

(** libselinux/src/avc.c:746-824 (avc_has_perm_noaudit): new cache, result, new value of the reference, *avd,
    and whether the server was asked. selinux_status_updated is an operation of its own. *)
Definition avc_has_perm_noaudit (C : cache) (s t c req : N) (ref : option N) (ans : answer) :
    cache * hres * option N * avdec * bool :=
  match find_entry C s t c req ref ans with
  | (C1, inl r, asked) => (C1, r, ref, avd_init C, asked)
  | (C1, inr i, asked) =>
      let d := ae_avd (ca_heap C1 i) in
      let denied := N.ldiff req (ad_allowed d) in
      if (req =? 0) || negb (denied =? 0) then
        if negb (ca_enforcing C1) || negb (N.land (ad_flags d) 1 =? 0) then
          (set_heap C1 (upd (ca_heap C1) i (set_avd (ca_heap C1 i) (set_allowed d (N.lor (ad_allowed d) req)))), H0, Some i, d, asked)
        else (C1, HEacces, Some i, d, asked)
      else (C1, H0, Some i, d, asked)
  end.

(** libselinux/src/avc.c:694-732 (avc_audit: the permissions reported, [None] for no message; whether they are
    reported as denied; the permissive flag printed with a denial). *)
Definition avc_audit (req : N) (d : avdec) (result : hres) : option (N * bool * bool) :=
  let failed := match result with H0 => false | _ => true end in
  let denied := N.ldiff req (ad_allowed d) in
  let '(audited, denied) :=
    if negb (denied =? 0) then (N.land denied (ad_auditdeny d), denied)
    else if (req =? 0) || failed then (req, req)
    else (N.land req (ad_auditallow d), 0) in
  if audited =? 0 then None else Some (audited, negb (denied =? 0) || (req =? 0), negb failed).

(** libselinux/src/avc.c:841-888 (avc_compute_create); [sid] is the answer of security_compute_create_raw
    turned into a SID, [None] for an error. *)
Definition avc_compute_create (C : cache) (s t c : N) (ans : answer) (sid : option N) :
    cache * option N * bool * bool :=
  let '(C1, r, asked) :=
    match avc_lookup C s t c 0 with
    | (C1, Some i) => (C1, Some i, false)
    | (C1, None) =>
        match ans with
        | AnsAvd d => match avc_insert C1 s t c d with (C2, inr i) => (C2, Some i, true) | (C2, inl _) => (C2, None, true) end
        | _ => (C1, None, true)
        end
    end in
  match r with
  | None => (C1, None, asked, false)
  | Some i =>
      let e := ca_heap C1 i in
      if ae_create e =? 0 then
        match sid with
        | None => (C1, None, asked, true)
        | Some v => (set_heap C1 (upd (ca_heap C1) i (set_create e v)), Some v, asked, true)
        end
      else (C1, Some (ae_create e), asked, false)
  end.

(** Kinds of update events (AVC_CALLBACK_*, libselinux/include/selinux/avc.h:364-371). *)
Inductive aevent := EvGrant | EvTryRevoke | EvRevoke | EvAaOn | EvAaOff | EvAdOn | EvAdOff.

(** libselinux/src/avc.c:946-969 (avc_update_node). *)
Definition update_avd (ev : aevent) (d : avdec) (p : N) : avdec :=
  match ev with
  | EvGrant => set_allowed d (N.lor (ad_allowed d) p)
  | EvTryRevoke | EvRevoke => set_allowed d (N.ldiff (ad_allowed d) p)
  | EvAaOn => mkAD (ad_allowed d) (ad_decided d) (N.lor (ad_auditallow d) p) (ad_auditdeny d) (ad_seqno d) (ad_flags d)
  | EvAaOff => mkAD (ad_allowed d) (ad_decided d) (N.ldiff (ad_auditallow d) p) (ad_auditdeny d) (ad_seqno d) (ad_flags d)
  | EvAdOn => mkAD (ad_allowed d) (ad_decided d) (ad_auditallow d) (N.lor (ad_auditdeny d) p) (ad_seqno d) (ad_flags d)
  | EvAdOff => mkAD (ad_allowed d) (ad_decided d) (ad_auditallow d) (N.ldiff (ad_auditdeny d) p) (ad_seqno d) (ad_flags d)
  end.

(** libselinux/src/avc.c:941-944 (avc_sidcmp). *)
Definition avc_sidcmp (x y : N) : bool := (x =? y) || (x =? 0) || (y =? 0).

(** One step of the loop of libselinux/src/avc.c:981-989. *)
Definition update_if (ev : aevent) (s t c p : N) (h : N -> aentry) (i : N) : N -> aentry :=
  if avc_sidcmp s (ae_s (h i)) && avc_sidcmp t (ae_t (h i)) && (c =? ae_c (h i))
  then upd h i (set_avd (h i) (update_avd ev (ae_avd (h i)) p)) else h.

(** libselinux/src/avc.c:972-1003 (avc_update_cache). *)
Definition avc_update_cache (C : cache) (ev : aevent) (s t c p : N) : cache :=
  if (s =? 0) || (t =? 0) then set_heap C (fold_left (update_if ev s t c p) (concat (ca_slots C)) (ca_heap C))
  else
    match avc_search_node C s t c with
    | (C', Some i) => set_heap C' (upd (ca_heap C') i (set_avd (ca_heap C' i) (update_avd ev (ae_avd (ca_heap C' i)) p)))
    | (C', None) => C'
    end.

(** latest_notif = max, libselinux/src/avc.c:1053-1056. *)
Definition bump (C : cache) (seq : N) : cache :=
  mkCache (ca_heap C) (ca_slots C) (ca_free C) (ca_hint C) (ca_active C)
          (if ca_notif C <? seq then seq else ca_notif C) (ca_enforcing C) (ca_fixed C).

(** libselinux/src/avc.c:1010-1060 (avc_control). [retained] is what the callbacks report for a
    try-revoke. *)
Definition avc_control (C : cache) (ev : aevent) (s t c p seq retained : N) : cache :=
  let p' := match ev with EvTryRevoke => N.ldiff p retained | _ => p end in
  bump (avc_update_cache C ev s t c p') seq.

(** libselinux/src/avc.c:514-526 (avc_reset: all nodes are cleared and moved to the free list). *)
Definition avc_reset (C : cache) : cache :=
  mkCache (fun i => if existsb (N.eqb i) (concat (ca_slots C)) then cleared else ca_heap C i)
          (repeat [] AVC_CACHE_SLOTS) (rev (concat (ca_slots C)) ++ ca_free C) 0
          (wrap32 (ca_active C + 4294967296 - N.of_nat (length (concat (ca_slots C)))))
          (ca_notif C) (ca_enforcing C) (ca_fixed C).

(** libselinux/src/avc.c:1123-1135 (avc_ss_reset). *)
Definition avc_ss_reset (C : cache) (seq : N) : cache := bump (avc_reset C) seq.

(** libselinux/src/avc_internal.c:56-75 (avc_process_setenforce). *)
Definition avc_process_setenforce (C : cache) (b : bool) : cache :=
  if ca_fixed C then C
  else
    let C' := mkCache (ca_heap C) (ca_slots C) (ca_free C) (ca_hint C) (ca_active C) (ca_notif C) b (ca_fixed C) in
    if b then avc_ss_reset C' 0 else C'.

(** libselinux/src/avc_internal.c:78-97 (avc_process_policyload). *)
Definition avc_process_policyload (C : cache) (seq : N) : cache := avc_ss_reset C seq.

(** libselinux/src/avc.c:146-222 (avc_init_internal): [k] nodes could be allocated (up to
    AVC_CACHE_MAXNODES), the mode is given by the option or read from the kernel. *)
Definition avc_init (k : nat) (enforcing fixed : bool) : cache :=
  mkCache (fun _ => cleared) (repeat [] AVC_CACHE_SLOTS) (map N.of_nat (rev (seq 0 k))) 0 0 0 enforcing fixed.

(** One operation on the cache. Callers keep references to entries; a check may go through one. *)
Inductive aop :=
| OCheck (s t c req : N) (ref : option N) (ans : answer)
| OCreate (s t c : N) (ans : answer) (sid : option N)
| OControl (ev : aevent) (s t c p seq retained : N)
| OLoad (seq : N)
| OEnforce (b : bool)
| OReset.

(** The cache and the references held by callers. *)
Record asys := mkS { s_cache : cache; s_refs : N -> option N }.

(** What an operation shows: the result of a check, a computed SID, and whether the server was asked. *)
Inductive aout := OutCheck (r : hres) (d : avdec) (asked : bool) | OutCreate (sid : option N) (asked asked_create : bool) | OutNone.

(** Running one operation (libselinux/src/avc.c entry points). *)
Definition astep (S : asys) (o : aop) : asys * aout :=
  let C := s_cache S in
  match o with
  | OCheck s t c req ref ans =>
      let '(C', r, ref', d, asked) :=
        avc_has_perm_noaudit C s t c req (match ref with Some k => s_refs S k | None => None end) ans in
      (mkS C' (match ref with Some k => fun j => if j =? k then ref' else s_refs S j | None => s_refs S end), OutCheck r d asked)
  | OCreate s t c ans sid =>
      let '(C', v, asked, asked2) := avc_compute_create C s t c ans sid in (mkS C' (s_refs S), OutCreate v asked asked2)
  | OControl ev s t c p seq retained => (mkS (avc_control C ev s t c p seq retained) (s_refs S), OutNone)
  | OLoad seq => (mkS (avc_process_policyload C seq) (s_refs S), OutNone)
  | OEnforce b => (mkS (avc_process_setenforce C b) (s_refs S), OutNone)
  | OReset => (mkS (avc_reset C) (s_refs S), OutNone)
  end.

(** Running a history; the trace lists each operation with what it showed, newest first. *)
Fixpoint arun (S : asys) (tr : list (aop * aout)) (l : list aop) : asys * list (aop * aout) :=
  match l with
  | [] => (S, tr)
  | o :: l' => let (S', out) := astep S o in arun S' ((o, out) :: tr) l'
  end.
