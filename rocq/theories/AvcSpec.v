(** Specification of the userspace access vector cache. *)
From Coq Require Import Permutation.
From Verif Require Import Base AvtabModel AvcModel.

(** The SIDs given to checks are not NULL. *)
Definition op_ok (o : aop) : Prop :=
  match o with
  | OCheck s t _ req _ _ => s <> 0 /\ t <> 0 /\ req < 4294967296
  | OCreate s t _ _ _ => s <> 0 /\ t <> 0
  | _ => True
  end.

(** Every answer of the server decides all permissions (what the kernel does). *)
Definition full_answer (o : aop) : Prop :=
  match o with
  | OCheck _ _ _ _ _ (AnsAvd d) | OCreate _ _ _ (AnsAvd d) _ => ad_decided d = 4294967295
  | _ => True
  end.

(** Not a grant or revocation pushed by the security server. *)
Definition no_control (o : aop) : Prop := match o with OControl _ _ _ _ _ _ _ => False | _ => True end.

(** The answer an operation fetched for (s, t, c) and stored. *)
Definition stored_answer (s t c : N) (x : aop * aout) : option avdec :=
  match x with
  | (OCheck s' t' c' _ _ (AnsAvd d), OutCheck r _ true) =>
      if (s' =? s) && (t' =? t) && (c' =? c)
      then match r with HEagain | HEnomem => None | _ => Some d end else None
  | (OCreate s' t' c' (AnsAvd d) _, OutCreate _ true true) =>
      if (s' =? s) && (t' =? t) && (c' =? c) then Some d else None
  | _ => None
  end.

(** The operation empties the cache ([fixed]: the mode was fixed by the caller at initialisation). *)
Definition is_reset (fixed : bool) (o : aop) : bool :=
  match o with OReset | OLoad _ => true | OEnforce true => negb fixed | _ => false end.

(** An update event concerns (s, t, c). *)
Definition concerns (s' t' c' s t c : N) : bool :=
  ((s' =? s) || (s' =? 0)) && ((t' =? t) || (t' =? 0)) && (c' =? c).

(** The permissions an update event removes or adds (a try-revoke spares the retained ones). *)
Definition ev_perms (ev : aevent) (p retained : N) : N :=
  match ev with EvTryRevoke => N.ldiff p retained | _ => p end.

(** The newest answer for (s, t, c) since the last reset (traces are newest first). *)
Fixpoint last_answer (fixed : bool) (s t c : N) (tr : list (aop * aout)) : option avdec :=
  match tr with
  | [] => None
  | x :: tr' =>
      match stored_answer s t c x with
      | Some d => Some d
      | None => if is_reset fixed (fst x) then None else last_answer fixed s t c tr'
      end
  end.

(** What an update event with these permissions does to a decision: granting adds to the allowed permissions,
    revoking removes from them, the audit events do the same to the two audit sets; the rest stays. *)
Definition after_event (ev : aevent) (d : avdec) (p : N) : avdec :=
  mkAD (match ev with EvGrant => N.lor (ad_allowed d) p | EvRevoke | EvTryRevoke => N.ldiff (ad_allowed d) p | _ => ad_allowed d end)
       (ad_decided d)
       (match ev with EvAaOn => N.lor (ad_auditallow d) p | EvAaOff => N.ldiff (ad_auditallow d) p | _ => ad_auditallow d end)
       (match ev with EvAdOn => N.lor (ad_auditdeny d) p | EvAdOff => N.ldiff (ad_auditdeny d) p | _ => ad_auditdeny d end)
       (ad_seqno d) (ad_flags d).

(** The newest answer with the update events that came after it applied. *)
Fixpoint view (fixed : bool) (s t c : N) (tr : list (aop * aout)) : option avdec :=
  match tr with
  | [] => None
  | x :: tr' =>
      match stored_answer s t c x with
      | Some d => Some d
      | None =>
          if is_reset fixed (fst x) then None
          else
            match fst x with
            | OControl ev s' t' c' p _ ret =>
                if concerns s' t' c' s t c
                then option_map (fun d => after_event ev d (ev_perms ev p ret)) (view fixed s t c tr')
                else view fixed s t c tr'
            | _ => view fixed s t c tr'
            end
      end
  end.

(** All answers for (s, t, c) since the last reset. *)
Fixpoint answers (fixed : bool) (s t c : N) (tr : list (aop * aout)) : list avdec :=
  match tr with
  | [] => []
  | x :: tr' =>
      (match stored_answer s t c x with Some d => [d] | None => [] end) ++
      (if is_reset fixed (fst x) then [] else answers fixed s t c tr')
  end.

(** All permissions granted by events for (s, t, c) since the last reset. *)
Fixpoint grants (fixed : bool) (s t c : N) (tr : list (aop * aout)) : N :=
  match tr with
  | [] => 0
  | x :: tr' =>
      if is_reset fixed (fst x) then 0
      else
        match fst x with
        | OControl EvGrant s' t' c' p _ _ =>
            N.lor (if concerns s' t' c' s t c then p else 0) (grants fixed s t c tr')
        | _ => grants fixed s t c tr'
        end
  end.

(** The largest sequence number notified so far. *)
Fixpoint notified (tr : list (aop * aout)) : N :=
  match tr with
  | [] => 0
  | x :: tr' => match fst x with OControl _ _ _ _ _ seq _ | OLoad seq => N.max seq (notified tr') | _ => notified tr' end
  end.

(** The mode after a history: what the last mode change said, unless the caller fixed it. *)
Fixpoint mode (start fixed : bool) (tr : list (aop * aout)) : bool :=
  match tr with
  | [] => start
  | x :: tr' => match fst x with OEnforce b => if fixed then start else b | _ => mode start fixed tr' end
  end.

(** The server was asked since the last reset for the SID of a new object and said [v]. *)
Fixpoint created (fixed : bool) (s t c v : N) (tr : list (aop * aout)) : Prop :=
  match tr with
  | [] => False
  | x :: tr' =>
      match x with
      | (OCreate s' t' c' _ (Some v'), OutCreate _ _ true) => s' = s /\ t' = t /\ c' = c /\ v' = v
      | _ => False
      end \/ (is_reset fixed (fst x) = false /\ created fixed s t c v tr')
  end.

(** The decision lets the request through: all permissions allowed, or a permissive domain. *)
Definition lets (d : avdec) (req : N) : Prop :=
  N.testbit (ad_flags d) 0 = true \/ (req <> 0 /\ forall b, N.testbit req b = true -> N.testbit (ad_allowed d) b = true).

(** Structure of the cache over the nodes [pool]: the nodes of the slots and of the free list are exactly the
    pool, each once; a cached entry is in the slot of its hash; the active count is exact; the hint is a slot. *)
Definition sound (pool : list N) (C : cache) : Prop :=
  length (ca_slots C) = 512%nat /\
  NoDup (concat (ca_slots C) ++ ca_free C) /\
  Permutation (concat (ca_slots C) ++ ca_free C) pool /\
  (forall k i, In i (nth k (ca_slots C) []) ->
     let e := ca_heap C i in k = N.to_nat (avc_hash (ae_s e) (ae_t e) (ae_c e)) /\ ae_s e <> 0 /\ ae_t e <> 0) /\
  (forall i, In i (ca_free C) -> ca_heap C i = cleared) /\
  ca_hint C < 512 /\
  ca_active C = N.of_nat (length (concat (ca_slots C))).

(** What an audit message says: [(perms, true)] denied, [(perms, false)] granted. *)
Definition message (m : option (N * bool * bool)) : option (N * bool) := option_map fst m.
