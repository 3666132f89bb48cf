(** Model of the labelling of objects without persistent labels: the object context lists of libsepol/src/services.c
    (ports, nodes, interfaces, Infiniband objects, file systems) and the genfs lists built by libsepol/src/policydb.c. *)
From Verif Require Import Base EbitmapModel MlsModel ContextModel AvtabModel SidtabModel.

(** ocontext_t (libsepol/include/sepol/policydb/policydb.h:343-386): what is matched, the contexts and the SIDs
    cached for them (0: none yet). [oc_v] is v.sclass or v.behavior. *)
Record ocon (K : Type) := mkOC { oc_key : K; oc_v : N; oc_c0 : context; oc_c1 : context; oc_s0 : N; oc_s1 : N }.
Arguments mkOC {K}. Arguments oc_key {K}. Arguments oc_v {K}. Arguments oc_c0 {K}. Arguments oc_c1 {K}. Arguments oc_s0 {K}. Arguments oc_s1 {K}.

(** libsepol/src/flask.h:11 (an initial SID). *)
Definition SECINITSID_FS : N := 4.
(** libsepol/src/flask.h:12 (an initial SID). *)
Definition SECINITSID_FILE : N := 5.
(** libsepol/src/flask.h:16 (an initial SID). *)
Definition SECINITSID_PORT : N := 9.
(** libsepol/src/flask.h:17 (an initial SID). *)
Definition SECINITSID_NETIF : N := 10.
(** libsepol/src/flask.h:18 (an initial SID). *)
Definition SECINITSID_NETMSG : N := 11.
(** libsepol/src/flask.h:19 (an initial SID). *)
Definition SECINITSID_NODE : N := 12.

(** Filling in the first cached SID: entry, table, success (libsepol/src/services.c:1896-1900, 1939-1943 and alike). The call
    clears its result first (libsepol/src/sidtab.c:197), so a failed request leaves 0 in the entry. *)
Definition fill0 {K} (c : ocon K) (tab : sidtab) (mem : bool) : res (ocon K * sidtab * bool) :=
  match context_to_sid tab (oc_c0 c) mem with
  | ROk (tab', (TOk, sid)) => ROk (mkOC (oc_key c) (oc_v c) (oc_c0 c) (oc_c1 c) sid (oc_s1 c), tab', true)
  | ROk (tab', (_, _)) => ROk (mkOC (oc_key c) (oc_v c) (oc_c0 c) (oc_c1 c) 0 (oc_s1 c), tab', false)
  | RErr => RErr
  | RUB => RUB
  end.
(** The same for the second context (libsepol/src/services.c:1901-1905). *)
Definition fill1 {K} (c : ocon K) (tab : sidtab) (mem : bool) : res (ocon K * sidtab * bool) :=
  match context_to_sid tab (oc_c1 c) mem with
  | ROk (tab', (TOk, sid)) => ROk (mkOC (oc_key c) (oc_v c) (oc_c0 c) (oc_c1 c) (oc_s0 c) sid, tab', true)
  | ROk (tab', (_, _)) => ROk (mkOC (oc_key c) (oc_v c) (oc_c0 c) (oc_c1 c) (oc_s0 c) 0, tab', false)
  | RErr => RErr
  | RUB => RUB
  end.

(** libsepol/src/services.c:1938-1945 and alike (one SID of an entry). *)
Definition entry_sid {K} (c : ocon K) (tab : sidtab) (mem : bool) : res (ocon K * sidtab * option N) :=
  if oc_s0 c =? 0 then
    match fill0 c tab mem with
    | ROk (c', tab', true) => ROk (c', tab', Some (oc_s0 c'))
    | ROk (c', tab', false) => ROk (c', tab', None)
    | RErr => RErr | RUB => RUB
    end
  else ROk (c, tab, Some (oc_s0 c)).

(** libsepol/src/services.c:1895-1908, 2050-2063 (both SIDs of an entry; [mem0], [mem1]: luck of the two allocations). *)
Definition entry_sids {K} (c : ocon K) (tab : sidtab) (mem0 mem1 : bool) : res (ocon K * sidtab * option (N * N)) :=
  if (oc_s0 c =? 0) || (oc_s1 c =? 0) then
    match fill0 c tab mem0 with
    | ROk (c', tab', true) =>
        match fill1 c' tab' mem1 with
        | ROk (c'', tab'', true) => ROk (c'', tab'', Some (oc_s0 c'', oc_s1 c''))
        | ROk (c'', tab'', false) => ROk (c'', tab'', None)
        | RErr => RErr | RUB => RUB
        end
    | ROk (c', tab', false) => ROk (c', tab', None)
    | RErr => RErr | RUB => RUB
    end
  else ROk (c, tab, Some (oc_s0 c, oc_s1 c)).

(** The walk to the first matching entry followed by [f] on it; [None]: no entry matches
    (the while loops of libsepol/src/services.c:1887-1892 and alike, 2277-2282, 2308-2313). *)
Fixpoint at_first {K A} (m : ocon K -> bool) (f : ocon K -> res (ocon K * sidtab * A)) (l : list (ocon K))
  : option (res (list (ocon K) * sidtab * A)) :=
  match l with
  | [] => None
  | c :: r =>
      if m c then Some (match f c with ROk (c', tab', a) => ROk (c' :: r, tab', a) | RErr => RErr | RUB => RUB end)
      else match at_first m f r with
           | Some (ROk (r', tab', a)) => Some (ROk (c :: r', tab', a))
           | Some RErr => Some RErr
           | Some RUB => Some RUB
           | None => None
           end
  end.

(** Lookup of one SID with a default (libsepol/src/services.c:1922-1952, 1958-1988, 1995-2026, 2093-2155). *)
Definition one_sid {K} (m : ocon K -> bool) (dflt : N) (l : list (ocon K)) (tab : sidtab) (mem : bool)
  : res (list (ocon K) * sidtab * option N) :=
  match at_first m (fun c => entry_sid c tab mem) l with Some r => r | None => ROk (l, tab, Some dflt) end.
(** Lookup of two SIDs with defaults (libsepol/src/services.c:1880-1916, 2035-2071). *)
Definition two_sids {K} (m : ocon K -> bool) (d0 d1 : N) (l : list (ocon K)) (tab : sidtab) (mem0 mem1 : bool)
  : res (list (ocon K) * sidtab * option (N * N)) :=
  match at_first m (fun c => entry_sids c tab mem0 mem1) l with Some r => r | None => ROk (l, tab, Some (d0, d1)) end.

(** libsepol/src/services.c:2005-2006 (ports: protocol, low, high). *)
Definition match_port (proto port : N) (c : ocon (N * N * N)) : bool :=
  let '(p, lo, hi) := oc_key c in (p =? proto) && (lo <=? port) && (port <=? hi).
(** libsepol/src/services.c:1930-1932 (pkeys: subnet prefix, low, high). *)
Definition match_pkey (subnet pkey : N) (c : ocon (N * N * N)) : bool :=
  let '(s, lo, hi) := oc_key c in (lo <=? pkey) && (pkey <=? hi) && (subnet =? s).
(** libsepol/src/services.c:1967-1968 (device name, port). *)
Definition match_endport (dev : list N) (port : N) (c : ocon (list N * N)) : bool :=
  let '(d, p) := oc_key c in (p =? port) && str_eqb dev d.
(** libsepol/src/services.c:1889, 2044, 2310 (names). *)
Definition match_name (name : list N) (c : ocon (list N)) : bool := str_eqb name (oc_key c).
(** libsepol/src/services.c:2113 (IPv4: address, mask). *)
Definition match_node (addr : N) (c : ocon (N * N)) : bool :=
  let '(a, m) := oc_key c in a =? N.land addr m.
(** libsepol/src/services.c:2073-2085 (match_ipv6_addrmask: four words). *)
Definition match_node6 (addr : N * N * N * N) (c : ocon ((N * N * N * N) * (N * N * N * N))) : bool :=
  let '(i0, i1, i2, i3) := addr in
  let '((a0, a1, a2, a3), (m0, m1, m2, m3)) := oc_key c in
  (a0 =? N.land i0 m0) && (a1 =? N.land i1 m1) && (a2 =? N.land i2 m2) && (a3 =? N.land i3 m3).

(** strcmp on names without NUL bytes as a three-way comparison of unsigned bytes. *)
Fixpoint strcmp (a b : list N) : comparison :=
  match a, b with
  | [], [] => Eq
  | [], _ => Lt
  | _, [] => Gt
  | x :: a', y :: b' => match N.compare x y with Eq => strcmp a' b' | c => c end
  end.

(** strncmp (name, path, strlen (name)) == 0: [name] is a prefix of [path]. *)
Fixpoint is_prefix (name path : list N) : bool :=
  match name, path with
  | [], _ => true
  | x :: n, y :: p => (x =? y) && is_prefix n p
  | _ :: _, [] => false
  end.

(** genfs_t (libsepol/include/sepol/policydb/policydb.h:388-392). *)
Record genfs := mkG { g_fstype : list N; g_head : list (ocon (list N)) }.

(** libsepol/src/policydb.c:3214-3233 (place of a new entry; [None]: "dup genfs entry"). *)
Fixpoint genfs_insert (new : ocon (list N)) (l : list (ocon (list N))) : option (list (ocon (list N))) :=
  match l with
  | [] => Some [new]
  | c :: r =>
      if str_eqb (oc_key new) (oc_key c) && ((oc_v c =? 0) || (oc_v new =? 0) || (oc_v new =? oc_v c)) then None
      else if (length (oc_key c) <? length (oc_key new))%nat then Some (new :: l)
      else option_map (cons c) (genfs_insert new r)
  end.
(** libsepol/src/policydb.c:3195-3236 (entries of one file system type). *)
Fixpoint genfs_entries (l : list (list N * N * context)) (acc : list (ocon (list N))) : option (list (ocon (list N))) :=
  match l with
  | [] => Some acc
  | (nm, cls, c) :: r =>
      match genfs_insert (mkOC nm cls c c 0 0) acc with Some acc' => genfs_entries r acc' | None => None end
  end.
(** libsepol/src/policydb.c:3174-3190 (place of a new file system type; [None]: "dup genfs fstype"). *)
Fixpoint fstype_insert (new : genfs) (l : list genfs) : option (list genfs) :=
  match l with
  | [] => Some [new]
  | g :: r =>
      match strcmp (g_fstype new) (g_fstype g) with
      | Eq => None
      | Lt => Some (new :: l)
      | Gt => option_map (cons g) (fstype_insert new r)
      end
  end.
(** libsepol/src/policydb.c:3144-3249 (genfs_read after the bytes are decoded; str_read gives names without NUL). The
    code inserts the type before its entries are read, which gives the same list. *)
Fixpoint genfs_read (l : list (list N * list (list N * N * context))) (acc : list genfs) : option (list genfs) :=
  match l with
  | [] => Some acc
  | (fs, es) :: r =>
      match genfs_entries es [] with
      | None => None
      | Some h => match fstype_insert (mkG fs h) acc with Some acc' => genfs_read r acc' | None => None end
      end
  end.

(** libsepol/src/services.c:2278-2280 (condition on one entry). *)
Definition match_genfs (path : list N) (sclass : N) (c : ocon (list N)) : bool :=
  ((oc_v c =? 0) || (sclass =? oc_v c)) && is_prefix (oc_key c) path.

(** libsepol/src/services.c:2265-2275 (search for the type: stops at the first one not smaller) and 2255-2300
    (sepol_genfs_sid); the SID is a result even when the code is an error: [inl] success, [inr] error with the SID
    stored, if any. *)
Fixpoint genfs_sid (l : list genfs) (tab : sidtab) (mem : bool) (fstype path : list N) (sclass : N)
  : res (list genfs * sidtab * (N + option N)) :=
  match l with
  | [] => ROk ([], tab, inr (Some SECINITSID_UNLABELED))
  | g :: r =>
      match strcmp fstype (g_fstype g) with
      | Lt => ROk (l, tab, inr (Some SECINITSID_UNLABELED))
      | Eq =>
          match at_first (match_genfs path sclass) (fun c => entry_sid c tab mem) (g_head g) with
          | None => ROk (l, tab, inr (Some SECINITSID_UNLABELED))
          | Some (ROk (h, tab', Some sid)) => ROk (mkG (g_fstype g) h :: r, tab', inl sid)
          | Some (ROk (h, tab', None)) => ROk (mkG (g_fstype g) h :: r, tab', inr None)
          | Some RErr => RErr
          | Some RUB => RUB
          end
      | Gt =>
          match genfs_sid r tab mem fstype path sclass with
          | ROk (r', tab', a) => ROk (g :: r', tab', a)
          | RErr => RErr
          | RUB => RUB
          end
      end
  end.

(** libsepol/include/sepol/policydb/services.h:238. *)
Definition FS_USE_GENFS : N := 4.
(** libsepol/include/sepol/policydb/services.h:239. *)
Definition FS_USE_NONE : N := 5.

(** The object contexts of a policy. *)
Record olists := mkOL {
  ol_port : list (ocon (N * N * N)); ol_pkey : list (ocon (N * N * N)); ol_endport : list (ocon (list N * N));
  ol_netif : list (ocon (list N)); ol_fs : list (ocon (list N)); ol_node : list (ocon (N * N));
  ol_node6 : list (ocon ((N * N * N * N) * (N * N * N * N))); ol_fsuse : list (ocon (list N)); ol_genfs : list genfs;
  ol_dir : N }.

(** The requests. *)
Inductive oreq :=
| QPort (proto port : N) | QPkey (subnet pkey : N) | QEndport (dev : list N) (port : N)
| QNode (addr : N) | QNode6 (addr : N * N * N * N) | QNetif (name : list N) | QFs (name : list N)
| QGenfs (fstype path : list N) (cls : N) | QFsUse (fstype : list N) | QContext (c : context).

(** Answers: one SID, two SIDs, a file system behaviour with a SID, an error (-ENOMEM), "no entry" (-ENOENT; the SID
    is the unlabeled one). *)
Inductive oans := AOne (sid : N) | ATwo (s0 s1 : N) | AUse (behavior : N) (sid : option N) | AErr | ANoent (sid : N).

(** One answer from an optional SID. *)
Definition aone (o : option N) : oans := match o with Some s => AOne s | None => AErr end.
(** Two SIDs. *)
Definition atwo (o : option (N * N)) : oans := match o with Some (a, b) => ATwo a b | None => AErr end.

(** libsepol/src/services.c:2302-2337 (sepol_fs_use); every error of the genfs lookup turns into "none". *)
Definition fs_use (o : olists) (tab : sidtab) (mem : bool) (fstype : list N) : res (olists * sidtab * oans) :=
  match at_first (match_name fstype) (fun c => match entry_sid c tab mem with ROk (c', t', x) => ROk (c', t', (oc_v c, x)) | RErr => RErr | RUB => RUB end) (ol_fsuse o) with
  | Some (ROk (l, tab', (b, x))) =>
      ROk (mkOL (ol_port o) (ol_pkey o) (ol_endport o) (ol_netif o) (ol_fs o) (ol_node o) (ol_node6 o) l (ol_genfs o) (ol_dir o), tab',
           match x with Some sid => AUse b (Some sid) | None => AErr end)
  | Some RErr => RErr
  | Some RUB => RUB
  | None =>
      match genfs_sid (ol_genfs o) tab mem fstype [47] (ol_dir o) with
      | ROk (g, tab', a) =>
          ROk (mkOL (ol_port o) (ol_pkey o) (ol_endport o) (ol_netif o) (ol_fs o) (ol_node o) (ol_node6 o) (ol_fsuse o) g (ol_dir o), tab',
               match a with inl sid => AUse FS_USE_GENFS (Some sid) | inr x => AUse FS_USE_NONE x end)
      | RErr => RErr
      | RUB => RUB
      end
  end.

(** One request against the lists and the table (the entry points of libsepol/src/services.c:1880-2337); [mem0],
    [mem1]: luck of the allocations of a new SID. *)
Definition oask (o : olists) (tab : sidtab) (mem0 mem1 : bool) (q : oreq) : res (olists * sidtab * oans) :=
  match q with
  | QPort proto port =>
      match one_sid (match_port proto port) SECINITSID_PORT (ol_port o) tab mem0 with
      | ROk (l, t, a) => ROk (mkOL l (ol_pkey o) (ol_endport o) (ol_netif o) (ol_fs o) (ol_node o) (ol_node6 o) (ol_fsuse o) (ol_genfs o) (ol_dir o), t, aone a)
      | RErr => RErr | RUB => RUB end
  | QPkey subnet pkey =>
      match one_sid (match_pkey subnet pkey) SECINITSID_UNLABELED (ol_pkey o) tab mem0 with
      | ROk (l, t, a) => ROk (mkOL (ol_port o) l (ol_endport o) (ol_netif o) (ol_fs o) (ol_node o) (ol_node6 o) (ol_fsuse o) (ol_genfs o) (ol_dir o), t, aone a)
      | RErr => RErr | RUB => RUB end
  | QEndport dev port =>
      match one_sid (match_endport dev port) SECINITSID_UNLABELED (ol_endport o) tab mem0 with
      | ROk (l, t, a) => ROk (mkOL (ol_port o) (ol_pkey o) l (ol_netif o) (ol_fs o) (ol_node o) (ol_node6 o) (ol_fsuse o) (ol_genfs o) (ol_dir o), t, aone a)
      | RErr => RErr | RUB => RUB end
  | QNode addr =>
      match one_sid (match_node addr) SECINITSID_NODE (ol_node o) tab mem0 with
      | ROk (l, t, a) => ROk (mkOL (ol_port o) (ol_pkey o) (ol_endport o) (ol_netif o) (ol_fs o) l (ol_node6 o) (ol_fsuse o) (ol_genfs o) (ol_dir o), t, aone a)
      | RErr => RErr | RUB => RUB end
  | QNode6 addr =>
      match one_sid (match_node6 addr) SECINITSID_NODE (ol_node6 o) tab mem0 with
      | ROk (l, t, a) => ROk (mkOL (ol_port o) (ol_pkey o) (ol_endport o) (ol_netif o) (ol_fs o) (ol_node o) l (ol_fsuse o) (ol_genfs o) (ol_dir o), t, aone a)
      | RErr => RErr | RUB => RUB end
  | QNetif name =>
      match two_sids (match_name name) SECINITSID_NETIF SECINITSID_NETMSG (ol_netif o) tab mem0 mem1 with
      | ROk (l, t, a) => ROk (mkOL (ol_port o) (ol_pkey o) (ol_endport o) l (ol_fs o) (ol_node o) (ol_node6 o) (ol_fsuse o) (ol_genfs o) (ol_dir o), t, atwo a)
      | RErr => RErr | RUB => RUB end
  | QFs name =>
      match two_sids (match_name name) SECINITSID_FS SECINITSID_FILE (ol_fs o) tab mem0 mem1 with
      | ROk (l, t, a) => ROk (mkOL (ol_port o) (ol_pkey o) (ol_endport o) (ol_netif o) l (ol_node o) (ol_node6 o) (ol_fsuse o) (ol_genfs o) (ol_dir o), t, atwo a)
      | RErr => RErr | RUB => RUB end
  | QGenfs fstype path cls =>
      match genfs_sid (ol_genfs o) tab mem0 fstype path cls with
      | ROk (g, t, a) => ROk (mkOL (ol_port o) (ol_pkey o) (ol_endport o) (ol_netif o) (ol_fs o) (ol_node o) (ol_node6 o) (ol_fsuse o) g (ol_dir o), t,
          match a with inl sid => AOne sid | inr (Some sid) => ANoent sid | inr None => AErr end)
      | RErr => RErr | RUB => RUB end
  | QFsUse fstype => fs_use o tab mem0 fstype
  | QContext c =>
      match context_to_sid tab c mem0 with
      | ROk (t, (TOk, sid)) => ROk (o, t, AOne sid)
      | ROk (t, (_, _)) => ROk (o, t, AErr)
      | RErr => RErr | RUB => RUB end
  end.

(** A history of requests with the luck of the allocations; the trace is newest first. *)
Fixpoint orun (o : olists) (tab : sidtab) (tr : list (oreq * bool * bool * oans)) (l : list (oreq * bool * bool))
  : res (olists * sidtab * list (oreq * bool * bool * oans)) :=
  match l with
  | [] => ROk (o, tab, tr)
  | (q, m0, m1) :: r =>
      match oask o tab m0 m1 q with
      | ROk (o', tab', a) => orun o' tab' ((q, m0, m1, a) :: tr) r
      | RErr => RErr
      | RUB => RUB
      end
  end.
