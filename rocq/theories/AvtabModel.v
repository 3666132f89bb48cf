(** Model of libsepol/src/avtab.c (the in-memory access vector table) and
    libsepol/include/sepol/policydb/avtab.h. Allocation failures are not modelled (the -ENOMEM result
    modelled is the one for a table without slots). *)
From Verif Require Import Base.

(** libsepol/include/sepol/policydb/avtab.h:50-70 (avtab_key_t and the AVTAB_* flags). *)
Record akey := mkK { k_src : N; k_tgt : N; k_cls : N; k_spec : N }.
(** libsepol/include/sepol/policydb/avtab.h:54. *)
Definition AVTAB_ALLOWED : N := 1.
(** libsepol/include/sepol/policydb/avtab.h:55. *)
Definition AVTAB_AUDITALLOW : N := 2.
(** libsepol/include/sepol/policydb/avtab.h:56. *)
Definition AVTAB_AUDITDENY : N := 4.
(** libsepol/include/sepol/policydb/avtab.h:58. *)
Definition AVTAB_AV : N := 7.
(** libsepol/include/sepol/policydb/avtab.h:59. *)
Definition AVTAB_TRANSITION : N := 16.
(** libsepol/include/sepol/policydb/avtab.h:60. *)
Definition AVTAB_MEMBER : N := 32.
(** libsepol/include/sepol/policydb/avtab.h:61. *)
Definition AVTAB_CHANGE : N := 64.
(** libsepol/include/sepol/policydb/avtab.h:62. *)
Definition AVTAB_TYPE : N := 112.
(** libsepol/include/sepol/policydb/avtab.h:63. *)
Definition AVTAB_XPERMS_ALLOWED : N := 256.
(** libsepol/include/sepol/policydb/avtab.h:64. *)
Definition AVTAB_XPERMS_AUDITALLOW : N := 512.
(** libsepol/include/sepol/policydb/avtab.h:65. *)
Definition AVTAB_XPERMS_DONTAUDIT : N := 1024.
(** libsepol/include/sepol/policydb/avtab.h:67. *)
Definition AVTAB_XPERMS : N := 1792.
(** libsepol/include/sepol/policydb/avtab.h:69. *)
Definition AVTAB_ENABLED : N := 32768.

(** libsepol/include/sepol/policydb/avtab.h:73-82 (avtab_extended_perms_t). *)
Record xperms := mkX { x_spec : N; x_driver : N; x_perms : list N }.

(** libsepol/include/sepol/policydb/avtab.h:84-87 (avtab_datum_t). *)
Record adatum := mkD { d_data : N; d_xperms : option xperms }.

(** libsepol/include/sepol/policydb/avtab.h:91-99 (struct avtab_node); [next] is the rest of the
    chain. The parser-only and write-only fields are omitted. *)
Record anode := mkNode { n_key : akey; n_datum : adatum }.

(** libsepol/include/sepol/policydb/avtab.h:101-106 (avtab_t); [None] is a NULL htable. *)
Record avtab := mkA { a_htable : option (list (list anode)); a_nel : N; a_nslot : N; a_mask : N }.

(** 32-bit rotation to the left, as written in the mix macro (libsepol/src/avtab.c:70,73). *)
Definition rotl32 (v r : N) : N := N.lor (wrap32 (N.shiftl v r)) (N.shiftr v (32 - r)).

(** libsepol/src/avtab.c:67-75 (the mix macro). *)
Definition mix (hash input : N) : N :=
  let v := wrap32 (input * 3432918353) in
  let v := rotl32 v 15 in
  let v := wrap32 (v * 461845907) in
  let hash := N.lxor hash v in
  let hash := rotl32 hash 13 in
  wrap32 (hash * 5 + 3864292196).

(** libsepol/src/avtab.c:55-90 (avtab_hash). *)
Definition avtab_hash (k : akey) (mask : N) : N :=
  let h := mix (mix (mix 0 (k_cls k)) (k_tgt k)) (k_src k) in
  let h := N.lxor h (N.shiftr h 16) in
  let h := wrap32 (h * 2246822507) in
  let h := N.lxor h (N.shiftr h 13) in
  let h := wrap32 (h * 3266489909) in
  let h := N.lxor h (N.shiftr h 16) in
  N.land h mask.

(** libsepol/src/avtab.c:140-141: the specified bits without the enabled flags (uint16_t). *)
Definition spec_bits (s : N) : N := N.land s 32767.

(** libsepol/src/avtab.c:149-151 (equality of source, target and class). *)
Definition same3 (k k' : akey) : bool :=
  (k_src k =? k_src k') && (k_tgt k =? k_tgt k') && (k_cls k =? k_cls k').

(** libsepol/src/avtab.c:158-166 (the three conditions that end a chain walk). *)
Definition before3 (k k' : akey) : bool :=
  (k_src k <? k_src k') ||
  ((k_src k =? k_src k') && (k_tgt k <? k_tgt k')) ||
  ((k_src k =? k_src k') && (k_tgt k =? k_tgt k') && (k_cls k <? k_cls k')).

(** libsepol/src/avtab.c:149-152: the chain node matches key and specifier. *)
Definition hit (sp : N) (k : akey) (n : anode) : bool :=
  same3 k (n_key n) && negb (N.land sp (k_spec (n_key n)) =? 0).

(** libsepol/src/avtab.c:92-134 (the contents of the node made by avtab_insert_node): for an
    extended permission key a NULL xperms becomes a zeroed structure. *)
Definition new_node (k : akey) (d : adatum) : anode :=
  if negb (N.land (k_spec k) AVTAB_XPERMS =? 0) then
    mkNode k (mkD (d_data d)
                  (Some (match d_xperms d with Some x => x | None => mkX 0 0 (repeat 0 8) end)))
  else mkNode k d.

(** libsepol/src/avtab.c:147-167 (the walk of avtab_insert) with [uniq = true]; 191-207
    (avtab_insert_nonunique) with [uniq = false]. [None] is SEPOL_EEXIST. *)
Fixpoint chain_insert (uniq : bool) (sp : N) (k : akey) (n : anode) (c : list anode)
  : option (list anode) :=
  match c with
  | [] => Some [n]
  | cur :: t =>
      if hit sp k cur then
        if uniq && (N.land sp AVTAB_XPERMS =? 0) then None else Some (n :: cur :: t)
      else if before3 k (n_key cur) then Some (n :: cur :: t)
      else match chain_insert uniq sp k n t with
           | None => None
           | Some t' => Some (cur :: t')
           end
  end.

(** Replace element [i] of a list (htable[hvalue] = ...). *)
Fixpoint set_nth {A} (i : nat) (v : A) (l : list A) : list A :=
  match l, i with
  | [], _ => []
  | _ :: t, O => v :: t
  | x :: t, S i' => x :: set_nth i' v t
  end.

(** Result of avtab_insert (libsepol/include/sepol/errcodes.h). *)
Inductive ins_result := InsOk (h : avtab) | InsExists | InsNoMem.

(** libsepol/src/avtab.c:136-174 (avtab_insert) and 180-211 (avtab_insert_nonunique, where NULL is
    [InsNoMem]). *)
Definition avtab_insert_gen (uniq : bool) (h : avtab) (k : akey) (d : adatum) : ins_result :=
  match a_htable h with
  | None => InsNoMem
  | Some ht =>
      let hv := N.to_nat (avtab_hash k (a_mask h)) in
      match chain_insert uniq (spec_bits (k_spec k)) k (new_node k d) (nth hv ht []) with
      | None => InsExists
      | Some c => InsOk (mkA (Some (set_nth hv c ht)) (wrap32 (a_nel h + 1)) (a_nslot h) (a_mask h))
      end
  end.
(** libsepol/src/avtab.c:136-174 (avtab_insert). *)
Definition avtab_insert := avtab_insert_gen true.
(** libsepol/src/avtab.c:180-211 (avtab_insert_nonunique). *)
Definition avtab_insert_nonunique := avtab_insert_gen false.

(** libsepol/src/avtab.c:224-240 (the walk of avtab_search), 259-275 (avtab_search_node) and 287-303
    (avtab_search_node_next): the chain from the first matching node on; [] is NULL. *)
Fixpoint chain_find (sp : N) (k : akey) (c : list anode) : list anode :=
  match c with
  | [] => []
  | cur :: t =>
      if hit sp k cur then cur :: t
      else if before3 k (n_key cur) then []
      else chain_find sp k t
  end.

(** libsepol/src/avtab.c:248-277 (avtab_search_node). The node is returned with the chain after it. *)
Definition avtab_search_node (h : avtab) (k : akey) : list anode :=
  match a_htable h with
  | None => []
  | Some ht =>
      chain_find (spec_bits (k_spec k)) k (nth (N.to_nat (avtab_hash k (a_mask h))) ht [])
  end.

(** libsepol/src/avtab.c:213-243 (avtab_search). *)
Definition avtab_search (h : avtab) (k : akey) : option adatum :=
  match avtab_search_node h k with [] => None | n :: _ => Some (n_datum n) end.

(** libsepol/src/avtab.c:279-305 (avtab_search_node_next). *)
Definition avtab_search_node_next (at_node : list anode) (specified : N) : list anode :=
  match at_node with
  | [] => []
  | n :: t => chain_find (spec_bits specified) (n_key n) t
  end.

(** The usual caller loop "for (node = avtab_search_node(h, key); node; node =
    avtab_search_node_next(node, key->specified))", for example libsepol/src/services.c:943-951. The
    fuel is the length of the chain, which the walk strictly consumes. *)
Fixpoint node_loop (fuel : nat) (at_node : list anode) (specified : N) : list anode :=
  match fuel with
  | O => []
  | S f =>
      match at_node with
      | [] => []
      | n :: _ => n :: node_loop f (avtab_search_node_next at_node specified) specified
      end
  end.
(** The nodes seen by that loop. *)
Definition avtab_nodes_for (h : avtab) (k : akey) : list anode :=
  let c := avtab_search_node h k in node_loop (length c) c (k_spec k).

(** libsepol/src/avtab.c:333-354 (avtab_map with a callback that always returns 0): the entries in
    the order visited. *)
Definition avtab_map_list (h : avtab) : list anode :=
  match a_htable h with None => [] | Some ht => concat ht end.

(** libsepol/src/avtab.c:356-361 (avtab_init; nslot and mask are not assigned there). *)
Definition avtab_init : avtab := mkA None 0 0 0.

(** libsepol/src/avtab.c:373-376 (the shift loop of avtab_alloc): number of bits of [work]. *)
Definition bit_count (work : N) : N := N.size work.

(** libsepol/src/avtab.c:363-392 (avtab_alloc). *)
Definition avtab_alloc (h : avtab) (nrules : N) : avtab :=
  if nrules =? 0 then mkA (a_htable h) 0 0 0
  else
    let shift := bit_count nrules in
    let shift := if 2 <? shift then shift - 2 else shift in
    let nslot := N.shiftl 1 shift in
    let nslot := if 1048576 <? nslot then 1048576 else nslot in
    mkA (Some (repeat [] (N.to_nat nslot))) 0 nslot (nslot - 1).
