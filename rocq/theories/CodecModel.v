(** Model of the binary policy format: the writers of libsepol/src/write.c and the readers of libsepol/src/policydb.c, avtab.c and
    conditional.c. Files are memory (PF_USE_MEMORY): next_entry fails exactly if too few bytes are left. Allocation failures and
    failing writes are not modelled. [None] is an error return. *)
From Verif Require Import Base EbitmapModel MlsModel AvtabModel TypesetModel CondModel ServicesModel.

(** policydb.h: policy_type == POLICY_KERN, policy_type == POLICY_BASE, policyvers, target_platform == SEPOL_TARGET_SELINUX. *)
Record pvers := mkPV { pv_kern : bool; pv_base : bool; pv_vers : N; pv_selinux : bool }.
(** libsepol/src/services.c:1733-1762 (next_entry of a word, with le32_to_cpu). *)
Definition get32 : list N -> option (N * list N) := le_dec 4.
(** cpu_to_le32 and put_entry of a word (libsepol/src/services.c:1690-1731). *)
Definition put32 (x : N) : list N := le_enc 4 x.
(** "rc = ...(fp); if (rc < 0) return -1". *)
Definition rbind {A B} (r : option (A * list N)) (k : A -> list N -> option B) : option B :=
  match r with Some (x, bs) => k x bs | None => None end.
Notation "'get' x , b <- e ; k" := (rbind e (fun x b => k)) (at level 200, x name, b name, e at level 100, k at level 200).
(** The loops "for (i = 0; i < nel; i++)" of the readers. *)
Fixpoint read_n {A} (r : list N -> option (A * list N)) (n : nat) (bs : list N) : option (list A * list N) :=
  match n with
  | O => Some ([], bs)
  | S m => get x, b1 <- r bs; get l, b2 <- read_n r m b1; Some (x :: l, b2)
  end.
(** The number of rounds: to keep the model executable it is capped by the number of bytes left plus one, which gives the same short
    read as the uncapped one as every element takes at least a byte. *)
Definition rounds (n : N) (bs : list N) : nat := N.to_nat (N.min n (N.of_nat (length bs) + 1)).
(** A counted list. *)
Definition read_list {A} (r : list N -> option (A * list N)) (bs : list N) : option (list A * list N) :=
  get n, b1 <- get32 bs; read_n r (rounds n b1) b1.
(** Writing the elements. *)
Definition write_all_of {A} (w : A -> list N) (l : list A) : list N := concat (map w l).
(** Writing a counted list. *)
Definition write_list {A} (w : A -> list N) (l : list A) : list N := put32 (N.of_nat (length l)) ++ write_all_of w l.
(** Several words. *)
Definition write_words : list N -> list N := write_all_of put32.

(** libsepol/src/write.c:692-706 (role_set_write). *)
Definition role_set_write (x : roleset) : list N := ebitmap_write (rs_roles x) ++ put32 (rs_flags x).
(** libsepol/src/policydb.c:1836-1849 (role_set_read). *)
Definition role_set_read (bs : list N) : option (roleset * list N) :=
  get e, b1 <- ebitmap_read bs; get f, b2 <- get32 b1; Some (mkRS e f, b2).
(** libsepol/src/write.c:708-724 (type_set_write). *)
Definition type_set_write (x : typeset) : list N := ebitmap_write (ts_types x) ++ ebitmap_write (ts_neg x) ++ put32 (ts_flags x).
(** libsepol/src/policydb.c:1851-1867 (type_set_read). *)
Definition type_set_read (bs : list N) : option (typeset * list N) :=
  get e, b1 <- ebitmap_read bs; get n, b2 <- ebitmap_read b1; get f, b3 <- get32 b2; Some (mkTS e n f, b3).
(** libsepol/src/write.c:411-424 (mls_write_level). *)
Definition mls_write_level (l : level) : list N := put32 (l_sens l) ++ ebitmap_write (l_cat l).
(** libsepol/src/policydb.c:3255-3279 (mls_read_level). *)
Definition mls_read_level (bs : list N) : option (level * list N) :=
  get s, b1 <- get32 bs; get c, b2 <- ebitmap_read b1; Some (mkL s c, b2).
(** libsepol/src/write.c:431-456 (mls_write_range_helper). *)
Definition mls_write_range_helper (r : mrange) : list N :=
  if mls_level_eq (r_high r) (r_low r) then put32 1 ++ put32 (l_sens (r_low r)) ++ ebitmap_write (l_cat (r_low r))
  else put32 2 ++ put32 (l_sens (r_low r)) ++ put32 (l_sens (r_high r)) ++ ebitmap_write (l_cat (r_low r)) ++ ebitmap_write (l_cat (r_high r)).
(** libsepol/src/policydb.c:1873-1924 (mls_read_range_helper). With no items the word read last, the count, is the sensitivity. *)
Definition mls_read_range_helper (bs : list N) : option (mrange * list N) :=
  get items, b1 <- get32 bs;
  if 2 <? items then None
  else
    get s0, b2 <- (if items =? 0 then Some (items, b1) else get32 b1);
    get s1, b3 <- (if items =? 2 then get32 b2 else Some (s0, b2));
    get c0, b4 <- ebitmap_read b3;
    get c1, b5 <- (if 1 <? items then ebitmap_read b4 else Some (ebitmap_cpy c0, b4));
    Some (mkR (mkL s0 c0) (mkL s1 c1), b5).
(** libsepol/include/sepol/policydb/mls_types.h (mls_semantic_level_t): the categories are ranges, first to last of the list. *)
Record slevel := mkSL { sl_sens : N; sl_cat : list (N * N) }.
(** libsepol/src/write.c:362-390 (mls_write_semantic_level_helper). *)
Definition mls_write_semantic_level (l : slevel) : list N :=
  put32 (sl_sens l) ++ put32 (N.of_nat (length (sl_cat l))) ++ write_all_of (fun c => put32 (fst c) ++ put32 (snd c)) (sl_cat l).
(** Two words. *)
Definition get_pair (bs : list N) : option ((N * N) * list N) := get a, b1 <- get32 bs; get b, b2 <- get32 b1; Some ((a, b), b2).
(** libsepol/src/policydb.c:1930-1972 (mls_read_semantic_level_helper): every category is put in front of the list. *)
Definition mls_read_semantic_level (bs : list N) : option (slevel * list N) :=
  get s, b1 <- get32 bs;
  get n, b2 <- get32 b1;
  get l, b3 <- read_n get_pair (rounds n b2) b2;
  Some (mkSL s (rev l), b3).
(** libsepol/src/write.c:393-405 (mls_write_semantic_range_helper). *)
Definition mls_write_semantic_range (r : slevel * slevel) : list N := mls_write_semantic_level (fst r) ++ mls_write_semantic_level (snd r).
(** libsepol/src/policydb.c:1978-1990 (mls_read_semantic_range_helper). *)
Definition mls_read_semantic_range (bs : list N) : option ((slevel * slevel) * list N) :=
  get l, b1 <- mls_read_semantic_level bs; get h, b2 <- mls_read_semantic_level b1; Some ((l, h), b2).
(** The condition in write.c:914-917 and policydb.c:2055-2058: contexts have a range (POLICYDB_VERSION_MLS, MOD_POLICYDB_VERSION_MLS). *)
Definition has_mls_range (v : pvers) : bool := (pv_kern v && (19 <=? pv_vers v)) || (pv_base v && (5 <=? pv_vers v)).
(** libsepol/src/write.c:900-921 (context_write). *)
Definition context_write (v : pvers) (c : context) : list N :=
  put32 (c_user c) ++ put32 (c_role c) ++ put32 (c_type c) ++ (if has_mls_range v then mls_write_range_helper (c_range c) else []).
(** The range of a zeroed context. *)
Definition no_range : mrange := mkR (mkL 0 (mkE [] 0)) (mkL 0 (mkE [] 0)).
(** libsepol/src/policydb.c:2041-2073 (context_read_and_validate); policydb_context_isvalid is context_is_valid. *)
Definition context_read_and_validate (p : policy) (v : pvers) (bs : list N) : option (context * list N) :=
  get u, b1 <- get32 bs;
  get r, b2 <- get32 b1;
  get t, b3 <- get32 b2;
  get rg, b4 <- (if has_mls_range v then mls_read_range_helper b3 else Some (no_range, b3));
  let c := MlsModel.mkC u r t rg in
  if context_is_valid p c then Some (c, b4) else None.

(** libsepol/include/sepol/policydb/constraint.h:32-67 (constraint_expr_t) with type_names. *)
Record cexprt := mkCT { ct_expr : cexpr; ct_types : typeset }.
(** libsepol/include/sepol/policydb/constraint.h:69-73 (constraint_node_t). *)
Record cnode_t := mkCNT { cnt_perms : N; cnt_expr : list cexprt }.
(** libsepol/src/constraint.c:27-38 (constraint_expr_init): no names. *)
Definition no_types : typeset := mkTS (mkE [] 0) (mkE [] 0) 0.
(** libsepol/include/sepol/policydb/constraint.h:44. *)
Definition CEXPR_XTARGET : N := 16.
(** write.c:1018-1022 and policydb.c:2236-2242: the names are followed by a type set (POLICYDB_VERSION_CONSTRAINT_NAMES). *)
Definition has_type_names (v : pvers) : bool := negb (pv_kern v) || (29 <=? pv_vers v).
(** libsepol/src/write.c:1002-1028: one part of an expression. *)
Definition write_cexpr (v : pvers) (xt : bool) (e : cexprt) : option (list N) :=
  let x := ct_expr e in
  let head := put32 (ce_type x) ++ put32 (ce_attr x) ++ put32 (ce_op x) in
  if ce_type x =? CEXPR_NAMES then
    if negb xt && negb (N.land (ce_attr x) CEXPR_XTARGET =? 0) then None
    else Some (head ++ ebitmap_write (ce_names x) ++ (if has_type_names v then type_set_write (ct_types e) else []))
  else Some head.
(** The loop over the parts. *)
Fixpoint write_cexprs (v : pvers) (xt : bool) (l : list cexprt) : option (list N) :=
  match l with
  | [] => Some []
  | e :: l' => match write_cexpr v xt e, write_cexprs v xt l' with Some a, Some b => Some (a ++ b) | _, _ => None end
  end.
(** libsepol/src/write.c:984-1033 (write_cons_helper). *)
Fixpoint write_cons_helper (v : pvers) (xt : bool) (l : list cnode_t) : option (list N) :=
  match l with
  | [] => Some []
  | c :: l' =>
      match write_cexprs v xt (cnt_expr c), write_cons_helper v xt l' with
      | Some a, Some b => Some (put32 (cnt_perms c) ++ put32 (N.of_nat (length (cnt_expr c))) ++ a ++ b)
      | _, _ => None
      end
  end.
(** libsepol/src/policydb.c:2190-2248: the parts of one expression, with the depth of the stack. *)
Fixpoint read_cexprs (v : pvers) (xt : bool) (n : nat) (depth : Z) (bs : list N) : option ((list cexprt * Z) * list N) :=
  match n with
  | O => Some (([], depth), bs)
  | S m =>
      get ty, b1 <- get32 bs;
      get attr, b2 <- get32 b1;
      get op, b3 <- get32 b2;
      let plain := mkCT (mkCE ty attr op (mkE [] 0)) no_types in
      let next e d b := get r, b' <- read_cexprs v xt m d b; Some ((e :: fst r, snd r), b') in
      if ty =? CEXPR_NOT then if (depth <? 0)%Z then None else next plain depth b3
      else if (ty =? CEXPR_AND) || (ty =? CEXPR_OR) then if (depth <? 1)%Z then None else next plain (depth - 1)%Z b3
      else if ty =? CEXPR_ATTR then if (depth =? 4)%Z then None else next plain (depth + 1)%Z b3
      else if ty =? CEXPR_NAMES then
        if negb xt && negb (N.land attr CEXPR_XTARGET =? 0) then None
        else if (depth =? 4)%Z then None
        else get names, b4 <- ebitmap_read b3;
             get tn, b5 <- (if has_type_names v then type_set_read b4 else Some (no_types, b4));
             next (mkCT (mkCE ty attr op names) tn) (depth + 1)%Z b5
      else None
  end.
(** libsepol/src/policydb.c:2174-2252: one constraint. *)
Definition read_cons (v : pvers) (xt : bool) (bs : list N) : option (cnode_t * list N) :=
  get perms, b1 <- get32 bs;
  get n, b2 <- get32 b1;
  get r, b3 <- read_cexprs v xt (rounds n b2) (-1)%Z b2;
  if (snd r =? 0)%Z then Some (mkCNT perms (fst r), b3) else None.
(** libsepol/src/policydb.c:2162-2255 (read_cons_helper); the number of constraints was read before. *)
Definition read_cons_helper (v : pvers) (xt : bool) (ncons : N) (bs : list N) : option (list cnode_t * list N) :=
  read_n (read_cons v xt) (rounds ncons bs) bs.

(** libsepol/src/write.c:820-850 (cond_write_node, the state and the expression). *)
Definition cond_write_expr (s : N) (l : list tok) : list N :=
  put32 s ++ write_list (fun t => put32 (t_type t) ++ put32 (t_bool t)) l.
(** libsepol/src/conditional.c:733-745 (expr_isvalid); [nb]: p_bools.nprim. *)
Definition expr_isvalid (nb : N) (t : tok) : bool := negb (t_type t =? 0) && (t_type t <=? 7) && (t_bool t <=? nb).
(** libsepol/src/conditional.c:768-784: one part of the expression. *)
Definition cond_read_tok (nb : N) (bs : list N) : option (tok * list N) :=
  get a, b1 <- get32 bs; get b, b2 <- get32 b1; if expr_isvalid nb (mkT a b) then Some (mkT a b, b2) else None.
(** libsepol/src/conditional.c:747-792 (cond_read_node, the state and the expression). *)
Definition cond_read_expr (nb : N) (bs : list N) : option ((N * list tok) * list N) :=
  get s, b1 <- get32 bs; get l, b2 <- read_list (cond_read_tok nb) b1; Some ((s, l), b2).

(** policydb.h (role_trans_t). *)
Record role_trans := mkRT { rt_role : N; rt_type : N; rt_class : N; rt_new : N }.
(** write.c:519-520 and policydb.c:2523-2524 (POLICYDB_VERSION_ROLETRANS). *)
Definition new_roletr (v : pvers) : bool := pv_kern v && (26 <=? pv_vers v).
(** libsepol/src/write.c:512-555 (role_trans_write); [proc]: p->process_class. *)
Definition role_trans_write (v : pvers) (proc : N) (l : list role_trans) : list N :=
  let keep := filter (fun t => new_roletr v || (rt_class t =? proc)) l in
  write_list (fun t => put32 (rt_role t) ++ put32 (rt_type t) ++ put32 (rt_new t) ++ (if new_roletr v then put32 (rt_class t) else [])) keep.
(** libsepol/src/policydb.c:2516-2557 (role_trans_read). *)
Definition role_trans_read (v : pvers) (proc : N) (bs : list N) : option (list role_trans * list N) :=
  read_list (fun b => get r, b1 <- get32 b; get t, b2 <- get32 b1; get n, b3 <- get32 b2;
             get c, b4 <- (if new_roletr v then get32 b3 else Some (proc, b3)); Some (mkRT r t c n, b4)) bs.
(** libsepol/src/write.c:557-578 (role_allow_write). *)
Definition role_allow_write (l : list (N * N)) : list N := write_list (fun p => put32 (fst p) ++ put32 (snd p)) l.
(** libsepol/src/policydb.c:2559-2589 (role_allow_read). *)
Definition role_allow_read (bs : list N) : option (list (N * N) * list N) := read_list get_pair bs.

(** libsepol/include/sepol/policydb/avtab.h:68. *)
Definition AVTAB_ENABLED_OLD : N := 2147483648.
(** libsepol/src/avtab.c:421-432 (spec_order). *)
Definition spec_order : list N := [1; 4; 2; 16; 64; 32; 256; 512; 1024].
(** libsepol/src/write.c:237-284 (avtab_write_item, the new format). *)
Definition avtab_write_item (v : pvers) (conditional : bool) (n : anode) : option (list N) :=
  let k := n_key n in
  let xp := negb (N.land (k_spec k) AVTAB_XPERMS =? 0) in
  let head := le_enc 2 (k_src k) ++ le_enc 2 (k_tgt k) ++ le_enc 2 (k_cls k) ++ le_enc 2 (k_spec k) in
  let cond_ok := (pv_kern v && (34 <=? pv_vers v)) || (negb (pv_kern v) && (22 <=? pv_vers v)) in
  if (pv_vers v <? 30) && xp then None
  else if negb cond_ok && xp && conditional then None
  else if negb (pv_selinux v) && xp then None
  else if xp then
    match d_xperms (n_datum n) with
    | None => None
    | Some x => Some (head ++ le_enc 1 (x_spec x) ++ le_enc 1 (x_driver x) ++ write_words (x_perms x))
    end
  else Some (head ++ put32 (d_data (n_datum n))).
(** The loops over the table (libsepol/src/write.c:324-334). *)
Fixpoint write_items (v : pvers) (l : list anode) : option (list N) :=
  match l with
  | [] => Some []
  | n :: l' => match avtab_write_item v false n, write_items v l' with Some a, Some b => Some (a ++ b) | _, _ => None end
  end.
(** libsepol/src/write.c:287-355 (avtab_write) for the new format; for the old one the table is expanded first, which is not
    modelled. *)
Definition avtab_write (v : pvers) (a : avtab) : option (list N) :=
  match write_items v (avtab_map_list a) with Some b => Some (put32 (a_nel a) ++ b) | None => None end.

Section Items.
Context {S : Type} (insertf : S -> akey -> adatum -> option S).
(** libsepol/src/avtab.c:508-522: the data of an old style entry, in the order of the specifiers. *)
Fixpoint old_items (key : N -> akey) (enabled val : N) (order words : list N) (s : S) : option S :=
  match order with
  | [] => match words with [] => Some s | _ => None end
  | o :: order' =>
      if negb (N.land val o =? 0) then
        match words with
        | [] => None
        | w :: words' => match insertf s (key (N.lor o enabled)) (mkD w None) with None => None | Some s' => old_items key enabled val order' words' s' end
        end
      else old_items key enabled val order' words s
  end.
(** libsepol/src/avtab.c:434-582 (avtab_read_item). *)
Definition avtab_read_item (vers : N) (s : S) (bs : list N) : option (S * list N) :=
  if vers <? 20 then
    get items2, b1 <- get32 bs;
    if (items2 <? 5) || (8 <? items2) then None
    else
      get ws, b2 <- read_n get32 (N.to_nat items2) b1;
      match ws with
      | src :: tgt :: cls :: val :: words =>
          if negb (src <? 65536) || negb (tgt <? 65536) || negb (cls <? 65536) then None
          else
            let enabled := if negb (N.land val AVTAB_ENABLED_OLD =? 0) then AVTAB_ENABLED else 0 in
            let av := negb (N.land val AVTAB_AV =? 0) in
            let ty := negb (N.land val AVTAB_TYPE =? 0) in
            if negb (av || ty) then None
            else if av && ty then None
            else match old_items (mkK src tgt cls) enabled val spec_order words s with Some s' => Some (s', b2) | None => None end
      | _ => None
      end
  else
    get src, b1 <- le_dec 2 bs;
    get tgt, b2 <- le_dec 2 b1;
    get cls, b3 <- le_dec 2 b2;
    get spec, b4 <- le_dec 2 b3;
    let k := mkK src tgt cls spec in
    let xp := negb (N.land spec AVTAB_XPERMS =? 0) in
    if negb (N.ldiff spec 34679 =? 0) then None
    else if negb (popcount (N.ldiff spec AVTAB_ENABLED) =? 1) then None
    else if (vers <? 30) && xp then None
    else if xp then
      get sp, b5 <- le_dec 1 b4;
      get dr, b6 <- le_dec 1 b5;
      get ps, b7 <- read_n get32 8 b6;
      match insertf s k (mkD 0 (Some (mkX sp dr ps))) with Some s' => Some (s', b7) | None => None end
    else
      get d, b5 <- get32 b4;
      match insertf s k (mkD d None) with Some s' => Some (s', b5) | None => None end.
(** libsepol/src/avtab.c:614-624: the loop of avtab_read. *)
Fixpoint read_items (vers : N) (n : nat) (s : S) (bs : list N) : option (S * list N) :=
  match n with
  | O => Some (s, bs)
  | Datatypes.S m => get s1, b1 <- avtab_read_item vers s bs; read_items vers m s1 b1
  end.
End Items.
(** libsepol/src/avtab.c:584-588 (avtab_insertf). *)
Definition avtab_insertf (a : avtab) (k : akey) (d : adatum) : option avtab := match avtab_insert a k d with InsOk a' => Some a' | _ => None end.
(** libsepol/src/avtab.c:590-631 (avtab_read). *)
Definition avtab_read (vers : N) (bs : list N) : option (avtab * list N) :=
  get nel, b1 <- get32 bs;
  if (nel =? 0) || (nel =? 4294967295) || (N.of_nat (length b1) <? nel * 12) then None
  else read_items avtab_insertf vers (N.to_nat nel) (avtab_alloc avtab_init nel) b1.
