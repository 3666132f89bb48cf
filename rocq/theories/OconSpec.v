(** Specification vocabulary for the labels of objects without labels of their own. *)
From Verif Require Import Base MlsModel ContextModel SidtabModel OconModel.

(** What a policy says, in the order in which it says it: what is labelled, and the context(s). *)
Record opolicy := mkOP {
  op_port : list ((N * N * N) * context);                 (* protocol, lowest and highest port *)
  op_pkey : list ((N * N * N) * context);                 (* subnet prefix, lowest and highest key *)
  op_endport : list ((list N * N) * context);             (* device, port *)
  op_netif : list (list N * (context * context));         (* interface: its context, that of messages *)
  op_fs : list (list N * (context * context));            (* device: file system context, that of files *)
  op_node : list ((N * N) * context);                     (* IPv4 address and mask *)
  op_node6 : list (((N * N * N * N) * (N * N * N * N)) * context);
  op_fsuse : list (list N * (N * context));               (* file system type: behaviour, context *)
  op_genfs : list (list N * list (list N * N * context)); (* file system type: path prefix, class or 0, context *)
  op_dir : N }.                                           (* the class of directories *)

(** The policy in memory before any request: nothing cached. *)
Definition fresh (p : opolicy) (g : list genfs) : olists :=
  mkOL (map (fun e => mkOC (fst e) 0 (snd e) (snd e) 0 0) (op_port p))
       (map (fun e => mkOC (fst e) 0 (snd e) (snd e) 0 0) (op_pkey p))
       (map (fun e => mkOC (fst e) 0 (snd e) (snd e) 0 0) (op_endport p))
       (map (fun e => mkOC (fst e) 0 (fst (snd e)) (snd (snd e)) 0 0) (op_netif p))
       (map (fun e => mkOC (fst e) 0 (fst (snd e)) (snd (snd e)) 0 0) (op_fs p))
       (map (fun e => mkOC (fst e) 0 (snd e) (snd e) 0 0) (op_node p))
       (map (fun e => mkOC (fst e) 0 (snd e) (snd e) 0 0) (op_node6 p))
       (map (fun e => mkOC (fst e) (fst (snd e)) (snd (snd e)) (snd (snd e)) 0 0) (op_fsuse p))
       g (op_dir p).

(** The SID stands for the context, and asking for the context gives the SID without changing anything. *)
Definition sid_for (tab : sidtab) (c : context) (sid : N) : Prop :=
  sidtab_search tab sid = Some c /\ forall mem, context_to_sid tab c mem = ROk (tab, (TOk, sid)).

(** A new SID could not be made: no memory, no numbers left, or the table is being replaced. *)
Definition no_room (tab : sidtab) (m0 m1 : bool) : Prop :=
  m0 = false \/ m1 = false \/ st_next tab = 4294967295 \/ st_shut tab = true.

(** The first entry of the list that is hit. *)
Definition first_hit {K D : Type} (hit : K -> Prop) (l : list (K * D)) (d : D) : Prop :=
  exists pre k post, l = pre ++ (k, d) :: post /\ hit k /\ forall k' d', In (k', d') pre -> ~ hit k'.
(** No entry is hit. *)
Definition no_hit {K D : Type} (hit : K -> Prop) (l : list (K * D)) : Prop := forall k d, In (k, d) l -> ~ hit k.

(** A request for one label is answered rightly. *)
Definition one_right {K : Type} (hit : K -> Prop) (l : list (K * context)) (dflt : N) (tab : sidtab) (m0 m1 : bool) (a : oans) : Prop :=
  (exists c, first_hit hit l c /\ ((exists sid, a = AOne sid /\ sid_for tab c sid) \/ (a = AErr /\ no_room tab m0 m1))) \/
  (no_hit hit l /\ a = AOne dflt).
(** A request for two labels is answered rightly. *)
Definition two_right {K : Type} (hit : K -> Prop) (l : list (K * (context * context))) (d0 d1 : N) (tab : sidtab) (m0 m1 : bool) (a : oans) : Prop :=
  (exists c0 c1, first_hit hit l (c0, c1) /\
     ((exists s0 s1, a = ATwo s0 s1 /\ sid_for tab c0 s0 /\ sid_for tab c1 s1) \/ (a = AErr /\ no_room tab m0 m1))) \/
  (no_hit hit l /\ a = ATwo d0 d1).

(** What hits: ranges with protocol or subnet, equal names, masked addresses. *)
Definition in_range (x v : N) (k : N * N * N) : Prop := match k with (x', lo, hi) => x' = x /\ lo <= v /\ v <= hi end.
Definition masked (addr : N) (k : N * N) : Prop := fst k = N.land addr (snd k).
Definition masked6 (i : N * N * N * N) (k : (N * N * N * N) * (N * N * N * N)) : Prop :=
  match i, k with (i0, i1, i2, i3), ((a0, a1, a2, a3), (m0, m1, m2, m3)) =>
    a0 = N.land i0 m0 /\ a1 = N.land i1 m1 /\ a2 = N.land i2 m2 /\ a3 = N.land i3 m3 end.

(** The genfs entry applies to a path: its name is how the path begins, and its class, if it has one, is the right
    one. *)
Definition applies (path : list N) (cls : N) (e : list N * N * context) : Prop :=
  match e with (nm, k, _) => (exists rest, path = nm ++ rest) /\ (k = 0 \/ k = cls) end.
(** The entry of the file system type with the longest name among those that apply. *)
Definition best (g : list (list N * list (list N * N * context))) (fs path : list N) (cls : N) (e : list N * N * context) : Prop :=
  exists es, In (fs, es) g /\ In e es /\ applies path cls e /\
    forall e', In e' es -> applies path cls e' -> (length (fst (fst e')) <= length (fst (fst e)))%nat.
(** No entry of the file system type applies. *)
Definition none_applies (g : list (list N * list (list N * N * context))) (fs path : list N) (cls : N) : Prop :=
  forall es e, In (fs, es) g -> In e es -> ~ applies path cls e.

(** Two entries clash: same name, and a class in common (no class means every class). *)
Definition clash (e e' : list N * N * context) : Prop :=
  fst (fst e) = fst (fst e') /\ (snd (fst e) = 0 \/ snd (fst e') = 0 \/ snd (fst e) = snd (fst e')).
(** A genfs section without contradictions. *)
Definition consistent (g : list (list N * list (list N * N * context))) : Prop :=
  NoDup (map fst g) /\ forall fs es, In (fs, es) g -> ForallOrdPairs (fun e e' => ~ clash e e') es.

(** The right answer to each request about an object (initial SIDs: libsepol/src/flask.h). *)
Definition object_right (p : opolicy) (tab : sidtab) (x : oreq * bool * bool * oans) : Prop :=
  match x with (q, m0, m1, a) =>
    match q with
    | QPort proto port => one_right (in_range proto port) (op_port p) 9 tab m0 m1 a
    | QPkey subnet pkey => one_right (in_range subnet pkey) (op_pkey p) 3 tab m0 m1 a
    | QEndport dev port => one_right (fun k => k = (dev, port)) (op_endport p) 3 tab m0 m1 a
    | QNode addr => one_right (masked addr) (op_node p) 12 tab m0 m1 a
    | QNode6 addr => one_right (masked6 addr) (op_node6 p) 12 tab m0 m1 a
    | QNetif name => two_right (fun k => k = name) (op_netif p) 10 11 tab m0 m1 a
    | QFs name => two_right (fun k => k = name) (op_fs p) 4 5 tab m0 m1 a
    | _ => True
    end
  end.

(** The right answer to each request about a file system. *)
Definition file_right (p : opolicy) (tab : sidtab) (x : oreq * bool * bool * oans) : Prop :=
  match x with (q, m0, m1, a) =>
    match q with
    | QGenfs fs path cls =>
        (exists e, best (op_genfs p) fs path cls e /\
           ((exists sid, a = AOne sid /\ sid_for tab (snd e) sid) \/ (a = AErr /\ no_room tab m0 m1))) \/
        (none_applies (op_genfs p) fs path cls /\ a = ANoent 3)
    | QFsUse fs =>
        (exists b c, first_hit (fun k => k = fs) (op_fsuse p) (b, c) /\
           ((exists sid, a = AUse b (Some sid) /\ sid_for tab c sid) \/ (a = AErr /\ no_room tab m0 m1))) \/
        (no_hit (fun k => k = fs) (op_fsuse p) /\
           ((exists e, best (op_genfs p) fs [47] (op_dir p) e /\
               ((exists sid, a = AUse 4 (Some sid) /\ sid_for tab (snd e) sid) \/ (a = AUse 5 None /\ no_room tab m0 m1))) \/
            (none_applies (op_genfs p) fs [47] (op_dir p) /\ a = AUse 5 (Some 3))))
    | _ => True
    end
  end.
