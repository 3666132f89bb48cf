(** Model of the expansion of access vector rules and type rules into the tables of a policy (libsepol/src/expand.c). A
    table is the list of its nodes in the order in which avtab_search_node and avtab_search_node_next meet those of one
    key, newest first (that this is how avtab.c orders them is C12_newest_first). Allocation failures are not modelled,
    nor are the messages. Neverallow rules are copied, not expanded (expand_neverallow = 0). *)
From Verif Require Import Base EbitmapModel AvtabModel AssertModel TypesetModel.

(** A node (avtab_node) with its parse_context: None is NULL, [Some (c, true)] the true list of conditional c, [Some (c,
    false)] its false list. The list of a branch (cond_av_list_t) is modelled as the nodes that have it as parse_context,
    since libsepol/src/expand.c:1671-1683 sets both together. *)
Record xnode := mkXN { xn : anode; xn_ctx : option (N * bool) }.

(** libsepol/include/sepol/policydb/policydb.h:269-303 (avrule_t); perms is the list of class and data. *)
Record avrule := mkAR { ar_spec : N; ar_flags : N; ar_st : typeset; ar_tt : typeset; ar_perms : list (N * N); ar_x : option xperms }.
(** libsepol/include/sepol/policydb/conditional.h:78-104 (cond_node_t): the conditional of the output policy that
    cond_node_search returns for it (see C14), the tunable flag and the two lists of rules. *)
Record xcond := mkXC { xc_id : N; xc_tunable : bool; xc_true : list avrule; xc_false : list avrule }.
(** libsepol/include/sepol/policydb/policydb.h:449-480 (avrule_decl_t): the enabled declaration of a block. *)
Record xdecl := mkXDecl { xd_rules : list avrule; xd_conds : list xcond }.

(** The tables te_avtab and te_cond_avtab and the copied neverallow rules. *)
Record xstate := mkXS { xs_te : list xnode; xs_cte : list xnode; xs_na : list narule }.
(** EXPAND_RULE_SUCCESS, EXPAND_RULE_CONFLICT, EXPAND_RULE_ERROR (libsepol/src/expand.c:1699-1701), undefined behaviour and
    a failed assert. *)
Inductive xres := XOk (s : xstate) | XConflict | XError | XUB | XAbort.
(** Sequencing: "if (retval != EXPAND_RULE_SUCCESS) return retval". *)
Definition xbind (r : xres) (f : xstate -> xres) : xres := match r with XOk s => f s | x => x end.
(** A loop with that check. *)
Fixpoint xloop {A} (f : A -> xstate -> xres) (l : list A) (s : xstate) : xres :=
  match l with [] => XOk s | a :: l' => xbind (f a s) (xloop f l') end.
(** The set operations' results as results of a rule. *)
Definition xset (r : sres) (f : ebitmap -> xres) : xres :=
  match r with SOk e => f e | SErr => XError | SUB => XUB | SAbort => XAbort end.

(** The first node with a property, what is before it and what is after it. *)
Fixpoint split_at (p : xnode -> bool) (l : list xnode) : option (list xnode * xnode * list xnode) :=
  match l with
  | [] => None
  | n :: t => if p n then Some ([], n, t) else match split_at p t with Some (a, m, b) => Some (n :: a, m, b) | None => None end
  end.
(** libsepol/src/avtab.c:248-314: the node is met when searching for the key. *)
Definition met (k : akey) (n : xnode) : bool := hit (spec_bits (k_spec k)) k (xn n).
(** Equality of two parse contexts (pointers). *)
Definition ctx_eqb (a b : option (N * bool)) : bool :=
  match a, b with
  | None, None => true
  | Some (i, x), Some (j, y) => (i =? j) && Bool.eqb x y
  | _, _ => false
  end.
(** libsepol/src/expand.c:1640-1644. *)
Definition x_same (x : xperms) (n : xnode) : bool :=
  match d_xperms (n_datum (xn n)) with Some y => (x_spec y =? x_spec x) && (x_driver y =? x_driver x) | None => false end.

(** libsepol/src/expand.c:1621-1691 (find_avtab_node): the node with what is before and after it in the table. [ctx] is
    cond (None: NULL). *)
Definition find_avtab_node (l : list xnode) (k : akey) (ctx : option (N * bool)) (x : option xperms) : list xnode * xnode * list xnode :=
  let first :=
    if negb (N.land (k_spec k) AVTAB_XPERMS =? 0) then
      match x with None => None | Some x => split_at (fun n => met k n && x_same x n) l end
    else split_at (met k) l in
  let node :=
    match ctx, first with
    | Some _, Some (a, n, b) =>
        if ctx_eqb (xn_ctx n) ctx then first
        else match split_at (fun m => met k m && ctx_eqb (xn_ctx m) ctx) b with
             | Some (a', m, b') => Some (a ++ n :: a', m, b')
             | None => None
             end
    | _, _ => first
    end in
  match node with
  | Some z => z
  | None => ([], mkXN (new_node k (mkD (if k_spec k =? AVTAB_AUDITDENY then 4294967295 else 0) None)) ctx, l)
  end.

(** libsepol/src/expand.c:1693-1697 (avrule_to_avtab_spec). *)
Definition avrule_to_avtab_spec (s : N) : N := if s =? 8 then AVTAB_AUDITDENY else s.
(** libsepol/src/expand.c:1778-1782, 1864-1868: setting or clearing AVTAB_ENABLED. *)
Definition set_enabled (en : bool) (n : xnode) : xnode :=
  let k := n_key (xn n) in
  mkXN (mkNode (mkK (k_src k) (k_tgt k) (k_cls k) (if en then N.lor (k_spec k) AVTAB_ENABLED else N.land (k_spec k) 32767)) (n_datum (xn n))) (xn_ctx n).
(** Replacing the datum of a node. *)
Definition set_datum (d : adatum) (n : xnode) : xnode := mkXN (mkNode (n_key (xn n)) d) (xn_ctx n).

(** The destination table: te_avtab without a conditional, else te_cond_avtab (libsepol/src/expand.c:2093-2103, 2801-2806). *)
Definition dest (ctx : option (N * bool)) (s : xstate) : list xnode := match ctx with None => xs_te s | Some _ => xs_cte s end.
(** As above. *)
Definition set_dest (ctx : option (N * bool)) (l : list xnode) (s : xstate) : xstate :=
  match ctx with None => mkXS l (xs_cte s) (xs_na s) | Some _ => mkXS (xs_te s) l (xs_na s) end.
(** libsepol/src/expand.c:2093-2103: the other branch. *)
Definition other_ctx (ctx : option (N * bool)) : option (N * bool) := match ctx with None => None | Some (i, b) => Some (i, negb b) end.

(** libsepol/src/expand.c:1703-1798 (expand_terule_helper): the loop over the classes; a duplicate in the same scope ends
    it. The type map is NULL only in expand_rule. *)
Fixpoint expand_terule (typemap : option (list N)) (spec : N) (ctx : option (N * bool)) (en : bool) (i j : N)
    (perms : list (N * N)) (s : xstate) : xres :=
  match perms with
  | [] => XOk s
  | (c, d) :: rest =>
      match (match typemap with None => Some d | Some m => if d =? 0 then None else nth_error m (N.to_nat (d - 1)) end) with
      | None => XUB
      | Some d' =>
          let k := mkK (i + 1) (j + 1) c (avrule_to_avtab_spec spec) in
          let found :=
            match split_at (met k) (xs_te s) with
            | Some (_, n, _) => Some (true, n)
            | None =>
                match split_at (met k) (xs_cte s) with
                | Some (_, n, _) => if ctx_eqb (xn_ctx n) (other_ctx ctx) then None else Some (false, n)
                | None => None
                end
            end in
          match found with
          | Some (uncond, n) =>
              if (d_data (n_datum (xn n)) =? d') &&
                 ((uncond && match ctx with None => true | _ => false end) || ctx_eqb (xn_ctx n) ctx)
              then XOk s else XConflict
          | None =>
              let '(a, n, b) := find_avtab_node (dest ctx s) k ctx None in
              let n := set_enabled en n in
              expand_terule typemap spec ctx en i j rest
                (set_dest ctx (a ++ set_datum (mkD d' (d_xperms (n_datum (xn n)))) n :: b) s)
          end
      end
  end.

(** libsepol/src/expand.c:1801-1835 (allocate_xperms); [None]: -1. The arrays have eight words. *)
Definition allocate_xperms (d : adatum) (x : xperms) : option adatum :=
  let old := match d_xperms d with Some y => y | None => mkX 0 0 (repeat 0 8) end in
  if (x_spec x =? 1) || (x_spec x =? 2) || (x_spec x =? 3) then
    Some (mkD (d_data d) (Some (mkX (x_spec x) (x_driver x) (map (fun p => N.lor (fst p) (snd p)) (combine (x_perms old) (x_perms x))))))
  else None.

(** libsepol/src/expand.c:1870-1903: the change of the datum. *)
Definition apply_rule (spec data : N) (x : option xperms) (d : adatum) : option (option adatum) :=
  if (spec =? 1) || (spec =? 2) || (spec =? 128) then Some (Some (mkD (N.lor (d_data d) data) (d_xperms d)))
  else if spec =? 8 then Some (Some (mkD (N.ldiff (d_data d) data) (d_xperms d)))
  else if spec =? 4 then Some (Some (mkD (N.land (d_data d) data) (d_xperms d)))
  else if (spec =? 256) || (spec =? 512) || (spec =? 1024) || (spec =? 2048) then
    match x with None => None | Some x => Some (allocate_xperms d x) end
  else Some None.

(** libsepol/src/expand.c:1838-1907 (expand_avrule_helper); [dd]: handle->disable_dontaudit. *)
Definition expand_avrule (dd : bool) (spec : N) (ctx : option (N * bool)) (en : bool) (i j : N)
    (perms : list (N * N)) (x : option xperms) (s : xstate) : xres :=
  if negb (N.land spec (N.lor 8 1024) =? 0) && dd then XOk s
  else
    xloop (fun cd s =>
      let k := mkK (i + 1) (j + 1) (fst cd) (avrule_to_avtab_spec spec) in
      let '(a, n, b) := find_avtab_node (dest ctx s) k ctx x in
      let n := set_enabled en n in
      match apply_rule spec (snd cd) x (n_datum (xn n)) with
      | None => XUB
      | Some None => XError
      | Some (Some d) => XOk (set_dest ctx (a ++ set_datum d n :: b) s)
      end) perms s.

(** libsepol/src/expand.c:1920-1934 and 1936-1950: one pair of types. *)
Definition expand_pair (dd : bool) (typemap : option (list N)) (r : avrule) (ctx : option (N * bool)) (en : bool) (i j : N) (s : xstate) : xres :=
  if negb (N.land (ar_spec r) (N.lor 143 3840) =? 0) then expand_avrule dd (ar_spec r) ctx en i j (ar_perms r) (ar_x r) s
  else if N.land (ar_spec r) 112 =? 0 then XError
  else expand_terule typemap (ar_spec r) ctx en i j (ar_perms r) s.

(** libsepol/src/expand.c:1909-1955 (expand_rule_helper). *)
Definition expand_rule_helper (dd : bool) (typemap : option (list N)) (r : avrule) (ctx : option (N * bool)) (en : bool)
    (stypes ttypes : ebitmap) (s : xstate) : xres :=
  xloop (fun i s =>
    xbind (if N.testbit (ar_flags r) 0 then expand_pair dd typemap r ctx en i i s else XOk s)
      (xloop (fun j => expand_pair dd typemap r ctx en i j) (bits ttypes))) (bits stypes) s.

(** libsepol/src/expand.c:1964-2000 (convert_and_expand_rule) with do_neverallow = 0. *)
Definition convert_and_expand_rule (ts : list (option tinfo)) (typemap : list N) (dd : bool) (r : avrule)
    (ctx : option (N * bool)) (en : bool) (s : xstate) : xres :=
  if negb (N.land (ar_spec r) 128 =? 0) then XOk s
  else if negb (N.land (ar_spec r) 2048 =? 0) then XOk s
  else
    let always := negb (N.land (ar_spec r) 112 =? 0) || N.testbit (ar_flags r) 0 in
    xset (expand_convert_type_set ts typemap (ar_st r) always) (fun stypes =>
    xset (expand_convert_type_set ts typemap (ar_tt r) always) (fun ttypes =>
    expand_rule_helper dd (Some typemap) r ctx en stypes ttypes s)).

(** libsepol/src/expand.c:2002-2022 (cond_avrule_list_copy). *)
Definition cond_avrule_list_copy (ts : list (option tinfo)) (typemap : list N) (dd : bool) (l : list avrule)
    (ctx : option (N * bool)) (en : bool) (s : xstate) : xres :=
  xloop (fun r => convert_and_expand_rule ts typemap dd r ctx en) l s.

(** libsepol/src/expand.c:2049-2108 (cond_node_copy): last conditional first. [st c]: the state of conditional c is not
    zero. Finding or creating the conditional of the output policy (normalisation, mapping of booleans, cond_node_search)
    is part of C14 and C15, not of this model. *)
Definition cond_node_copy (ts : list (option tinfo)) (typemap : list N) (dd : bool) (st : N -> bool) (l : list xcond) (s : xstate) : xres :=
  xloop (fun c s =>
    if xc_tunable c then XOk s
    else
      xbind (cond_avrule_list_copy ts typemap dd (xc_true c) (Some (xc_id c, true)) (st (xc_id c)) s)
        (cond_avrule_list_copy ts typemap dd (xc_false c) (Some (xc_id c, false)) (negb (st (xc_id c)))))
    (rev l) s.

(** libsepol/src/expand.c:2638-2737 (copy_neverallow); [inr]: the result -1. *)
Definition copy_neverallow (ts : list (option tinfo)) (typemap : list N) (r : avrule) : sres * sres :=
  (expand_convert_type_set ts typemap (ar_st r) true, expand_convert_type_set ts typemap (ar_tt r) true).
(** libsepol/src/expand.c:2784-2799: one unconditional rule; a neverallow rule that cannot be copied is only reported.
    A class 0 fails the assert at line 2680. *)
Definition expand_unconditional (ts : list (option tinfo)) (typemap : list N) (dd : bool) (r : avrule) (s : xstate) : xres :=
  if negb (N.land (ar_spec r) (N.lor 128 2048) =? 0) then
    match copy_neverallow ts typemap r with
    | (SOk a, SOk b) =>
        if existsb (fun cd => fst cd =? 0) (ar_perms r) then XAbort
        else XOk (mkXS (xs_te s) (xs_cte s)
                   (mkNA (ar_spec r) (ar_flags r) a b (ar_perms r) (match ar_x r with Some x => x | None => mkX 0 0 [] end) :: xs_na s))
    | (SUB, _) => XUB
    | (SAbort, _) => XAbort
    | (SErr, _) => XOk s
    | (_, SUB) => XUB
    | (_, SAbort) => XAbort
    | (_, SErr) => XOk s
    end
  else convert_and_expand_rule ts typemap dd r None false s.

(** libsepol/src/expand.c:2745-2829 (copy_and_expand_avrule_block): the rules and conditionals of each enabled block.
    Role rules, filename and range transitions are left out. *)
Definition expand_blocks (ts : list (option tinfo)) (typemap : list N) (dd : bool) (st : N -> bool) (blocks : list xdecl) : xres :=
  xloop (fun d s => xbind (xloop (expand_unconditional ts typemap dd) (xd_rules d) s) (cond_node_copy ts typemap dd st (xd_conds d)))
    blocks (mkXS [] [] []).
