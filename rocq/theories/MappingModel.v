(** Model of the class and permission tables of libselinux: discovery of the classes of the loaded policy
    (src/stringrep.c), the mapping set by an object manager (src/mapping.c), the query to the kernel
    (src/compute_av.c) and selinux_check_access (src/checkAccess.c). Strings are lists of non-zero bytes. *)
From Verif Require Import Base MlsModel AvcModel.

(** One class as the kernel shows it under selinuxfs class/NAME: its index and its permissions by number
    ([None] where no permission has the number). Read by libselinux/src/stringrep.c:84-152. *)
Record kclass := mkKC { kc_name : list N; kc_value : N; kc_perms : list (option (list N)) }.

(** struct selinux_mapping, libselinux/src/mapping.c:20-24: value and the first num_perms entries of perms. *)
Record mentry := mkME { me_value : N; me_perms : list N }.

(** Library state: discover_class_cache (libselinux/src/stringrep.c:22-30, a node holds what was read for the
    class) and current_mapping with its size (libselinux/src/mapping.c:26-27, [] for no mapping). *)
Record mstate := mkMS { ms_cache : list kclass; ms_map : list mentry }.

(** libselinux/src/stringrep.c:32-39 (get_class_cache_entry_name). *)
Definition entry_name (l : list kclass) (s : list N) : option kclass := find (fun n => str_eqb s (kc_name n)) l.
(** libselinux/src/stringrep.c:41-48 (get_class_cache_entry_value). *)
Definition entry_value (l : list kclass) (c : N) : option kclass := find (fun n => c =? kc_value n) l.

(** libselinux/src/stringrep.c:50-171 (discover_class); [K] is what selinuxfs shows, [ok] tells whether
    selinuxfs is mounted and allocations and reads succeed. *)
Definition discover_class (K : list kclass) (ok : bool) (s : list N) : option kclass :=
  if negb ok then None
  else if existsb (fun c => c =? 47) s then None
  else find (fun n => str_eqb s (kc_name n)) K.

(** libselinux/src/mapping.c:124-137 (unmap_class). *)
Definition unmap_class (m : list mentry) (tclass : N) : N :=
  match nth_error m (N.to_nat tclass) with
  | Some e => me_value e
  | None => match m with [] => tclass | _ => 0 end
  end.

(** libselinux/src/mapping.c:146-150 (loop of unmap_perm, [i] the index of the first of [ps]). *)
Fixpoint unmap_loop (i : N) (ps : list N) (tperm kperm : N) : N :=
  match ps with
  | [] => kperm
  | p :: ps' =>
      if negb (N.land tperm (N.shiftl 1 i) =? 0)
      then unmap_loop (i + 1) ps' (N.ldiff tperm (N.shiftl 1 i)) (N.lor kperm p)
      else unmap_loop (i + 1) ps' tperm kperm
  end.

(** libselinux/src/mapping.c:139-161 (unmap_perm). *)
Definition unmap_perm (m : list mentry) (tclass tperm : N) : N :=
  match nth_error m (N.to_nat tclass) with
  | Some e => unmap_loop 0 (me_perms e) tperm 0
  | None => match m with [] => tperm | _ => 0 end
  end.

(** libselinux/src/mapping.c:172-174 (loop of map_class). *)
Fixpoint map_class_loop (i : N) (m : list mentry) (kclass : N) : option N :=
  match m with
  | [] => None
  | e :: m' => if me_value e =? kclass then Some i else map_class_loop (i + 1) m' kclass
  end.

(** libselinux/src/mapping.c:167-183 (map_class). *)
Definition map_class (m : list mentry) (kclass : N) : N :=
  match map_class_loop 0 m kclass with
  | Some i => i
  | None => match m with [] => kclass | _ => 0 end
  end.

(** libselinux/src/mapping.c:192-196 (loop of map_perm). *)
Fixpoint map_perm_loop (i : N) (ps : list N) (kperm tperm : N) : N :=
  match ps with
  | [] => tperm
  | p :: ps' =>
      if negb (N.land kperm p =? 0)
      then map_perm_loop (i + 1) ps' (N.ldiff kperm p) (N.lor tperm (N.shiftl 1 i))
      else map_perm_loop (i + 1) ps' kperm tperm
  end.

(** libselinux/src/mapping.c:185-206 (map_perm). *)
Definition map_perm (m : list mentry) (tclass kperm : N) : N :=
  match nth_error m (N.to_nat tclass) with
  | Some e => map_perm_loop 0 (me_perms e) kperm 0
  | None => kperm
  end.

(** One loop of libselinux/src/mapping.c:217-243: bit i is set when the kernel vector [v] meets perms[i], or
    the permission is unknown and [unknown] holds. *)
Fixpoint vector_loop (i : N) (ps : list N) (v : N) (unknown : bool) (result : N) : N :=
  match ps with
  | [] => result
  | p :: ps' =>
      let r := if negb (N.land v p =? 0) then N.lor result (N.shiftl 1 i)
               else if unknown && (p =? 0) then N.lor result (N.shiftl 1 i) else result in
      vector_loop (i + 1) ps' v unknown r
  end.

(** libselinux/src/mapping.c:250-251 (bits from num_perms to 31). *)
Fixpoint beyond (n : nat) (i result : N) : N :=
  match n with O => result | S n' => beyond n' (i + 1) (N.lor result (N.shiftl 1 i)) end.

(** libselinux/src/mapping.c:208-254 (map_decision); [deny] is security_deny_unknown() other than 0. *)
Definition map_decision (m : list mentry) (tclass : N) (deny : bool) (d : avdec) : avdec :=
  match nth_error m (N.to_nat tclass) with
  | None => d
  | Some e =>
      let ps := me_perms e in
      mkAD (vector_loop 0 ps (ad_allowed d) (negb deny) 0)
           (vector_loop 0 ps (ad_decided d) (negb deny) 0)
           (vector_loop 0 ps (ad_auditallow d) false 0)
           (beyond (32 - length ps) (N.of_nat (length ps)) (vector_loop 0 ps (ad_auditdeny d) deny 0))
           (ad_seqno d) (ad_flags d)
  end.

(** libselinux/src/stringrep.c:196-211 (string_to_security_class): new state and class, 0 for an error. *)
Definition string_to_class (K : list kclass) (ok : bool) (S : mstate) (s : list N) : mstate * N :=
  match entry_name (ms_cache S) s with
  | Some n => (S, map_class (ms_map S) (kc_value n))
  | None =>
      match discover_class K ok s with
      | None => (S, 0)
      | Some n => (mkMS (n :: ms_cache S) (ms_map S), map_class (ms_map S) (kc_value n))
      end
  end.

(** libselinux/src/stringrep.c:242-244 (search of the permission array, which ends at the first gap). *)
Fixpoint perm_index (i : N) (ps : list (option (list N))) (s : list N) : option N :=
  match ps with
  | Some p :: ps' => if str_eqb p s then Some i else perm_index (i + 1) ps' s
  | _ => None
  end.

(** libselinux/src/stringrep.c:234-249 (string_to_av_perm): 0 for an error. *)
Definition string_to_perm (S : mstate) (tclass : N) (s : list N) : N :=
  match entry_value (ms_cache S) (unmap_class (ms_map S) tclass) with
  | None => 0
  | Some n =>
      match perm_index 0 (kc_perms n) s with
      | Some i => map_perm (ms_map S) tclass (N.shiftl 1 i)
      | None => 0
      end
  end.

(** libselinux/src/mapping.c:82-100 (permissions of one class; an empty name leaves 0). [None]: rejected. *)
Fixpoint set_perms (S : mstate) (value : N) (reject : bool) (ps : list (list N)) : option (list N) :=
  match ps with
  | [] => Some []
  | [] :: ps' => option_map (cons 0) (set_perms S value reject ps')
  | p :: ps' =>
      let v := string_to_perm S value p in
      if (v =? 0) && reject then None else option_map (cons v) (set_perms S value reject ps')
  end.

(** libselinux/src/mapping.c:64-102 (the class records, one by one; the mapping is not in force yet). *)
Fixpoint set_classes (K : list kclass) (ok : bool) (S : mstate) (reject : bool) (t : list (list N * list (list N))) :
    mstate * option (list mentry) :=
  match t with
  | [] => (S, Some [])
  | (cname, ps) :: t' =>
      let (S1, v) := string_to_class K ok S cname in
      if v =? 0 then
        if reject then (S1, None)
        else let (S2, r) := set_classes K ok S1 reject t' in (S2, option_map (cons (mkME 0 [])) r)
      else
        match set_perms S1 v reject ps with
        | None => (S1, None)
        | Some l => let (S2, r) := set_classes K ok S1 reject t' in (S2, option_map (cons (mkME v l)) r)
        end
  end.

(** Outcome of selinux_set_mapping; reading or writing past the 32 permissions is undefined. *)
Inductive sres := S0 | SErr | SUB.

(** libselinux/src/mapping.c:33-118 (selinux_set_mapping); [reset_ok] tells whether avc_reset and calloc
    succeed. A table of more than 32 permissions, or one whose class count wraps to 16 bits, is undefined. *)
Definition set_mapping (K : list kclass) (ok reset_ok reject : bool) (S : mstate)
    (t : option (list (list N * list (list N)))) : mstate * sres :=
  let S0' := mkMS (ms_cache S) [] in
  if negb reset_ok then (S0', SErr)
  else
    match t with
    | None => (S0', SErr)
    | Some t =>
        if (65535 <=? N.of_nat (length t)) || existsb (fun e => Nat.ltb 32 (length (snd e))) t then (S0', SUB)
        else
          match set_classes K ok S0' reject t with
          | (S1, None) => (mkMS (ms_cache S1) [], SErr)
          | (S1, Some l) => (mkMS (ms_cache S1) (mkME 0 [] :: l), S0)
          end
    end.

(** libselinux/src/stringrep.c:173-193 (selinux_flush_class_cache, called by avc_process_policyload,
    src/avc_internal.c:93). *)
Definition flush_class_cache (S : mstate) : mstate := mkMS [] (ms_map S).

(** libselinux/src/compute_av.c:13-85 (security_compute_av_flags_raw): [ks] is the kernel's answer for a kernel
    class and kernel permissions (the contexts are fixed). Parsing of the answer is not modelled. *)
Definition compute_av_flags (S : mstate) (deny : bool) (ks : N -> N -> answer) (tclass req : N) : answer :=
  let k := unmap_class (ms_map S) tclass in
  match ks k (unmap_perm (ms_map S) tclass req) with
  | AnsAvd d => AnsAvd (if k =? 0 then d else map_decision (ms_map S) tclass deny d)
  | a => a
  end.

(** libselinux/src/checkAccess.c:23-68 (selinux_check_access) up to the query of the cache: what is asked of
    avc_has_perm, or the result without asking. [scon], [tcon]: the SIDs, [None] when none could be made. *)
Inductive caccess := CaResult (ok : bool) | CaCheck (s t c av : N).
(** libselinux/src/checkAccess.c:23-68. *)
Definition check_access (K : list kclass) (ok enabled deny : bool) (S : mstate) (scon tcon : option N)
    (cname pname : list N) : mstate * caccess :=
  if negb enabled then (S, CaResult true)
  else
    match scon, tcon with
    | Some s, Some t =>
        let (S1, c) := string_to_class K ok S cname in
        if c =? 0 then (S1, CaResult (negb deny))
        else
          let av := string_to_perm S1 c pname in
          if av =? 0 then (S1, CaResult (negb deny)) else (S1, CaCheck s t c av)
    | _, _ => (S, CaResult false)
    end.

(** One operation: a class name lookup, a permission lookup, installing a mapping, and a noticed policy load
    (which changes what selinuxfs shows and flushes the cache). *)
Inductive mop :=
| MClass (ok : bool) (s : list N)
| MSet (ok reset_ok reject : bool) (t : option (list (list N * list (list N))))
| MLoad (K : list kclass).

(** libselinux/src/stringrep.c, mapping.c: running one operation on the kernel's classes and the library
    state. *)
Definition mstep (x : list kclass * mstate) (o : mop) : list kclass * mstate :=
  match o with
  | MClass ok s => (fst x, fst (string_to_class (fst x) ok (snd x) s))
  | MSet ok r rej t => (fst x, fst (set_mapping (fst x) ok r rej (snd x) t))
  | MLoad K => (K, flush_class_cache (snd x))
  end.

(** Running a history. *)
Definition mrun (x : list kclass * mstate) (l : list mop) : list kclass * mstate := fold_left mstep l x.
(** Initial values, libselinux/src/stringrep.c:30, mapping.c:26-27. *)
Definition ms0 : mstate := mkMS [] [].
