(** Model of the userspace SID table (libselinux/src/avc_sidtab.c). A SID is a pointer to the table node;
    nodes are never moved or freed before the table is destroyed, so a SID is modelled by the node's unique
    id (1, 2, ...; 0 is NULL). Context strings are lists of non-zero bytes; strcmp is list equality. *)
From Verif Require Import Base MlsModel AvtabModel.

(** struct sidtab_node, libselinux/src/avc_sidtab.h:13-16, and struct sidtab, 21-24. *)
Record usidtab := mkUS { us_slots : list (list (list N * N)); us_nel : N }.

(** libselinux/src/avc_sidtab.c:17-27 (sidtab_hash; [h] is the running value, djb2 with exclusive or). *)
Fixpoint hash_from (h : N) (s : list N) : N :=
  match s with [] => h | c :: r => hash_from (wrap32 (N.lxor (wrap32 (wrap32 (N.shiftl h 5) + h)) c)) r end.
(** libselinux/src/avc_sidtab.c:26 (reduction to a bucket). *)
Definition sidtab_hash (s : list N) : N := N.land (hash_from 5381 s) 127.

(** libselinux/src/avc_sidtab.c:29-45 (sidtab_init). *)
Definition sidtab_init : usidtab := mkUS (repeat [] 128) 0.

(** libselinux/src/avc_sidtab.c:47-73 (sidtab_insert; [mem] tells whether the allocations succeed). *)
Definition sidtab_insert (T : usidtab) (ctx : list N) (mem : bool) : usidtab * option N :=
  if 4294967294 <=? us_nel T then (T, None)
  else if mem then
    let hv := N.to_nat (sidtab_hash ctx) in
    let id := us_nel T + 1 in
    (mkUS (set_nth hv ((ctx, id) :: nth hv (us_slots T) []) (us_slots T)) id, Some id)
  else (T, None).

(** libselinux/src/avc_sidtab.c:75-92 (sidtab_context_lookup). *)
Definition sidtab_context_lookup (T : usidtab) (ctx : list N) : option N :=
  option_map snd (find (fun e => str_eqb (fst e) ctx) (nth (N.to_nat (sidtab_hash ctx)) (us_slots T) [])).

(** libselinux/src/avc_sidtab.c:94-117 (sidtab_context_to_sid). *)
Definition sidtab_context_to_sid (T : usidtab) (ctx : list N) (mem : bool) : usidtab * option N :=
  match sidtab_context_lookup T ctx with
  | Some id => (T, Some id)
  | None => sidtab_insert T ctx mem
  end.

(** sid->ctx, libselinux/src/avc.c:96-105 (avc_sid_to_context_raw): the string in the node with this id. *)
Definition sid_to_context (T : usidtab) (sid : N) : option (list N) :=
  option_map fst (find (fun e => snd e =? sid) (concat (us_slots T))).

(** A history of requests for SIDs, each with the luck of its allocations; the trace lists each context with
    the SID returned, newest first. *)
Fixpoint urun (T : usidtab) (tr : list (list N * option N)) (l : list (list N * bool)) : usidtab * list (list N * option N) :=
  match l with
  | [] => (T, tr)
  | (ctx, mem) :: l' => let (T', r) := sidtab_context_to_sid T ctx mem in urun T' ((ctx, r) :: tr) l'
  end.
