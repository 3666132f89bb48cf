(** Model of libsepol/src/assertion.c (neverallow checking). Allocation failures are not modelled. Messages are
    not modelled, only their number. *)
From Verif Require Import Base EbitmapModel AvtabModel.

(** libsepol/include/sepol/policydb/avtab.h:57, policydb.h:276 (AVRULE_NEVERALLOW). *)
Definition NEVERALLOW : N := 128.
(** libsepol/include/sepol/policydb/avtab.h:66, policydb.h:285 (AVRULE_XPERMS_NEVERALLOW). *)
Definition XNEVERALLOW : N := 2048.
(** libsepol/include/sepol/policydb/policydb.h:289. *)
Definition RULE_SELF : N := 1.
(** libsepol/include/sepol/policydb/policydb.h:290. *)
Definition RULE_NOTSELF : N := 2.
(** libsepol/include/sepol/policydb/policydb.h:260, avtab.h:75. *)
Definition IOCTLFUNCTION : N := 1.
(** libsepol/include/sepol/policydb/policydb.h:261, avtab.h:76. *)
Definition IOCTLDRIVER : N := 2.
(** libsepol/include/sepol/policydb/policydb.h:262, avtab.h:77. *)
Definition NLMSG : N := 3.

(** The parts of policydb_t used here (libsepol/include/sepol/policydb/policydb.h): te_avtab, te_cond_avtab, the
    conditional rule lists (each node pointer replaced by the node; NULL pointers do not occur),
    attr_type_map (by type value) and type_attr_map (by type value minus one). *)
Record apolicy := mkAP {
  ap_te : avtab; ap_cte : avtab; ap_conds : list (list anode * list anode);
  ap_attr : N -> ebitmap; ap_tattr : N -> ebitmap }.

(** libsepol/include/sepol/policydb/policydb.h:269-302 (avrule_t), 248-252 (class_perm_node_t as a list of class and
    permissions); the extended permissions have the layout of those in the table. *)
Record narule := mkNA { na_spec : N; na_flags : N; na_s : ebitmap; na_t : ebitmap; na_perms : list (N * N); na_x : xperms }.

(** libsepol/include/sepol/policydb/ebitmap.h (ebitmap_for_each_positive_bit): the bits visited; the loop always ends
    on well-formed maps (C04). *)
Definition bits (e : ebitmap) : list N := match positive_bits e with Some l => l | None => [] end.

(** libsepol/src/assertion.c:74-82 (match_any_class_permissions). *)
Definition match_perms (l : list (N * N)) (cls data : N) : bool :=
  existsb (fun cp => (fst cp =? cls) && negb (N.land (snd cp) data =? 0)) l.

(** libsepol/include/sepol/policydb/policydb.h:254 (xperm_test). *)
Definition xperm_test (x : N) (p : list N) : bool := N.testbit (nth (N.to_nat (N.shiftr x 5)) p 0) (N.land x 31).

(** libsepol/src/assertion.c:84-92 (extended_permissions_and), on EXTENDED_PERMS_LEN = 8 words. *)
Definition xperms_and (p q : list N) : bool :=
  existsb (fun i => negb (N.land (nth i p 0) (nth i q 0) =? 0)) (seq 0 8).

(** libsepol/src/assertion.c:94-117 (check_extended_permissions). *)
Definition check_xperms (na x : xperms) : bool :=
  if (x_spec na =? IOCTLFUNCTION) && (x_spec x =? IOCTLFUNCTION) then
    (x_driver na =? x_driver x) && xperms_and (x_perms na) (x_perms x)
  else if (x_spec na =? IOCTLFUNCTION) && (x_spec x =? IOCTLDRIVER) then xperm_test (x_driver na) (x_perms x)
  else if (x_spec na =? IOCTLDRIVER) && (x_spec x =? IOCTLFUNCTION) then xperm_test (x_driver x) (x_perms na)
  else if (x_spec na =? IOCTLDRIVER) && (x_spec x =? IOCTLDRIVER) then xperms_and (x_perms na) (x_perms x)
  else if (x_spec na =? NLMSG) && (x_spec x =? NLMSG) then
    (x_driver na =? x_driver x) && xperms_and (x_perms na) (x_perms x)
  else false.

(** libsepol/src/assertion.c:155-160 (match_node_key). *)
Definition match_node_key (n : anode) (s t c : N) : bool :=
  (k_src (n_key n) =? s) && (k_tgt (n_key n) =? t) && (k_cls (n_key n) =? c).

(** libsepol/src/assertion.c:191-194, 237-240, 279-282, 485-488, 516-519, 543-546: the kinds of extended permissions looked at. *)
Definition known_kind (x : xperms) : bool :=
  (x_spec x =? IOCTLFUNCTION) || (x_spec x =? IOCTLDRIVER) || (x_spec x =? NLMSG).

(** The extended permissions of a node, if of a known kind. A NULL pointer, which avtab_insert_node never stores in
    such a node (C12), is not dereferenced here. *)
Definition node_x (n : anode) : option xperms :=
  match d_xperms (n_datum n) with Some x => if known_kind x then Some x else None | None => None end.

(** libsepol/src/assertion.c:498-523 and 525-550: one branch of a conditional in
    check_assertion_extended_permissions_avtab: base permission found, extended permission found, violation (the
    early return). *)
Fixpoint branch_check (r : narule) (s t c : N) (l : list anode) : bool * bool * bool :=
  match l with
  | [] => (false, false, false)
  | n :: l' =>
      let '(base, xp, bad) := branch_check r s t c l' in
      if negb (match_node_key n s t c) then (base, xp, bad)
      else if negb (N.land (k_spec (n_key n)) AVTAB_ALLOWED =? 0) && match_perms (na_perms r) (k_cls (n_key n)) (d_data (n_datum n))
      then (true, xp, bad)
      else if N.land (k_spec (n_key n)) AVTAB_XPERMS_ALLOWED =? 0 then (base, xp, bad)
      else match node_x n with
           | None => (base, xp, bad)
           | Some x => (base, true, check_xperms (na_x r) x || bad)
           end
  end.

(** libsepol/src/assertion.c:494-556: one conditional: violation, extended permissions found in both branches,
    conflict. *)
Definition cond_check (r : narule) (conditional : bool) (s t c : N) (cl : list anode * list anode) : bool * bool * bool :=
  let '(tb, tx, t_bad) := branch_check r s t c (fst cl) in
  let '(fb, fx, f_bad) := branch_check r s t c (snd cl) in
  (t_bad || f_bad, tx && fx, negb (tx && fx) && (conditional && ((tb && negb tx) || (fb && negb fx)))).

(** libsepol/src/assertion.c:479-557: one pair of attributes (types) of the two types: violation, extended
    permissions found, conflict. *)
Definition pair_check (P : apolicy) (r : narule) (conditional : bool) (c i j : N) : bool * bool * bool :=
  let xs := flat_map (fun n => match node_x n with Some x => [x] | None => [] end)
              (avtab_nodes_for (ap_te P) (mkK (i + 1) (j + 1) c AVTAB_XPERMS_ALLOWED)) in
  let cs := map (cond_check r conditional (i + 1) (j + 1) c) (ap_conds P) in
  (existsb (check_xperms (na_x r)) xs || existsb (fun x => fst (fst x)) cs,
   match xs with [] => false | _ => true end || existsb (fun x => snd (fst x)) cs,
   existsb snd cs).

(** The pairs visited by the two nested loops over positive bits. *)
Definition pairs (a b : ebitmap) : list (N * N) := list_prod (bits a) (bits b).

(** libsepol/src/assertion.c:458-561 (check_assertion_extended_permissions_avtab); the early return is the first
    disjunct. *)
Definition xcheck_avtab (P : apolicy) (r : narule) (conditional : bool) (c i j : N) : bool :=
  let ps := map (fun ij => pair_check P r conditional c (fst ij) (snd ij)) (pairs (ap_tattr P i) (ap_tattr P j)) in
  existsb (fun x => fst (fst x)) ps ||
  ((negb conditional && negb (existsb (fun x => snd (fst x)) ps)) || existsb snd ps).

(** libsepol/src/assertion.c:356-362 and 594-602: source and target types of the rule that the table entry is
    about. *)
Definition src_matches (P : apolicy) (r : narule) (k : akey) : ebitmap := ebitmap_and (na_s r) (ap_attr P (k_src k)).
(** libsepol/src/assertion.c:364-389, 604-630. *)
Definition tgt_matches (P : apolicy) (r : narule) (k : akey) : ebitmap :=
  if negb (N.land (na_flags r) RULE_NOTSELF =? 0) then
    if ebitmap_is_empty (na_t r) then ebitmap_cpy (ap_attr P (k_tgt k)) else ebitmap_and (na_t r) (ap_attr P (k_tgt k))
  else
    let m := ebitmap_and (na_t r) (ap_attr P (k_tgt k)) in
    if negb (N.land (na_flags r) RULE_SELF =? 0) then
      let self := ebitmap_and (src_matches P r k) (ap_attr P (k_tgt k)) in
      if negb (ebitmap_is_empty self) then ebitmap_union m self else m
    else m.

(** libsepol/src/assertion.c:404-407, 639-642: the pair is skipped. *)
Definition skipped (r : narule) (i j : N) : bool :=
  (negb (N.land (na_flags r) RULE_SELF =? 0) && negb (i =? j)) ||
  (negb (N.land (na_flags r) RULE_NOTSELF =? 0) && (i =? j)).

(** libsepol/src/assertion.c:579-658 (check_assertion_extended_permissions). *)
Definition xcheck (P : apolicy) (r : narule) (k : akey) (conditional : bool) : bool :=
  let s := src_matches P r k in
  let t := tgt_matches P r k in
  if ebitmap_is_empty s then false
  else if ebitmap_is_empty t then false
  else existsb (fun ij => negb (skipped r (fst ij) (snd ij)) && xcheck_avtab P r conditional (k_cls k) (fst ij) (snd ij)) (pairs s t).

(** libsepol/src/assertion.c:660-713 (check_assertion_notself_match). *)
Definition notself_match (P : apolicy) (r : narule) (k : akey) : bool :=
  let s := ebitmap_and (na_s r) (ap_attr P (k_src k)) in
  let t := if ebitmap_is_empty (na_t r) then ebitmap_cpy (ap_attr P (k_tgt k)) else ebitmap_and (na_t r) (ap_attr P (k_tgt k)) in
  let ns := ebitmap_cardinality s in
  let nt := ebitmap_cardinality t in
  if (ns =? 0) || (nt =? 0) then false
  else if (ns =? 1) && (nt =? 1) then negb (ebitmap_cardinality (ebitmap_and s t) =? 1)
  else true.

(** libsepol/src/assertion.c:715-739 (check_assertion_self_match). *)
Definition self_match (P : apolicy) (r : narule) (k : akey) : bool :=
  ebitmap_match_any (ebitmap_and (na_s r) (ap_attr P (k_src k))) (ap_attr P (k_tgt k)).

(** libsepol/src/assertion.c:741-792 (check_assertion_avtab_match). *)
Definition avtab_match (P : apolicy) (r : narule) (conditional : bool) (n : anode) : bool :=
  let k := n_key n in
  if N.land (k_spec k) AVTAB_ALLOWED =? 0 then false
  else if negb (match_perms (na_perms r) (k_cls k) (d_data (n_datum n))) then false
  else if negb (ebitmap_match_any (na_s r) (ap_attr P (k_src k))) then false
  else
    let targets :=
      if negb (N.land (na_flags r) RULE_NOTSELF =? 0) then notself_match P r k
      else if ebitmap_match_any (na_t r) (ap_attr P (k_tgt k)) then true
      else if na_flags r =? RULE_SELF then self_match P r k
      else false in
    if negb targets then false
    else if na_spec r =? XNEVERALLOW then xcheck P r k conditional
    else true.

(** libsepol/src/assertion.c:794-813 (check_assertion): the callback's 1 ends the traversal. *)
Definition check_assertion (P : apolicy) (r : narule) : bool :=
  existsb (avtab_match P r false) (avtab_map_list (ap_te P)) || existsb (avtab_match P r true) (avtab_map_list (ap_cte P)).

(** libsepol/src/assertion.c:220-260 and 262-302: one branch of a conditional in
    report_assertion_extended_permissions: base permission found (whatever the kind of rule), extended permission
    found, number of violations. *)
Fixpoint branch_report (r : narule) (s t c : N) (l : list anode) : bool * bool * N :=
  match l with
  | [] => (false, false, 0)
  | n :: l' =>
      let '(base, xp, bad) := branch_report r s t c l' in
      if negb (match_node_key n s t c) then (base, xp, bad)
      else if match_perms (na_perms r) (k_cls (n_key n)) (d_data (n_datum n)) then (true, xp, bad)
      else if N.land (k_spec (n_key n)) AVTAB_XPERMS_ALLOWED =? 0 then (base, xp, bad)
      else match node_x n with
           | None => (base, xp, bad)
           | Some x => (base, true, if check_xperms (na_x r) x then bad + 1 else bad)
           end
  end.

(** libsepol/src/assertion.c:216-308: one conditional: number of violations, extended permissions found in both
    branches, conflict. *)
Definition cond_report (r : narule) (conditional : bool) (s t c : N) (cl : list anode * list anode) : N * bool * bool :=
  let '(tb, tx, t_bad) := branch_report r s t c (fst cl) in
  let '(fb, fx, f_bad) := branch_report r s t c (snd cl) in
  (t_bad + f_bad, tx && fx, negb (tx && fx) && (conditional && ((tb && negb tx) || (fb && negb fx)))).

(** libsepol/src/assertion.c:186-309: one pair of attributes. *)
Definition pair_report (P : apolicy) (r : narule) (conditional : bool) (c i j : N) : N * bool * bool :=
  let xs := flat_map (fun n => match node_x n with Some x => [x] | None => [] end)
              (avtab_nodes_for (ap_te P) (mkK (i + 1) (j + 1) c AVTAB_XPERMS_ALLOWED)) in
  let cs := map (cond_report r conditional (i + 1) (j + 1) c) (ap_conds P) in
  (fold_right N.add 0 (map (fun x => if check_xperms (na_x r) x then 1 else 0) xs) + fold_right N.add 0 (map (fun x => fst (fst x)) cs),
   match xs with [] => false | _ => true end || existsb (fun x => snd (fst x)) cs,
   existsb snd cs).

(** libsepol/src/assertion.c:163-329 (report_assertion_extended_permissions): the number of errors. *)
Definition xreport (P : apolicy) (r : narule) (conditional : bool) (c i j : N) : N :=
  let ps := map (fun ij => pair_report P r conditional c (fst ij) (snd ij)) (pairs (ap_tattr P i) (ap_tattr P j)) in
  fold_right N.add 0 (map (fun x => fst (fst x)) ps) +
  (if (negb (existsb (fun x => snd (fst x)) ps) && negb conditional) || existsb snd ps then 1 else 0).

(** libsepol/src/assertion.c:331-426 (report_assertion_avtab_matches): the errors added by one entry. *)
Definition report_matches (P : apolicy) (r : narule) (conditional : bool) (n : anode) : N :=
  let k := n_key n in
  if N.land (k_spec k) AVTAB_ALLOWED =? 0 then 0
  else if negb (match_perms (na_perms r) (k_cls k) (d_data (n_datum n))) then 0
  else
    let s := src_matches P r k in
    if ebitmap_is_empty s then 0
    else
      let t := tgt_matches P r k in
      if ebitmap_is_empty t then 0
      else fold_right N.add 0 (map (fun cp =>
             if negb (fst cp =? k_cls k) || (N.land (snd cp) (d_data (n_datum n)) =? 0) then 0
             else fold_right N.add 0 (map (fun ij =>
                    if skipped r (fst ij) (snd ij) then 0
                    else if na_spec r =? XNEVERALLOW then xreport P r conditional (k_cls k) (fst ij) (snd ij)
                    else 1) (pairs s t))) (na_perms r)).

(** libsepol/src/assertion.c:428-452 (report_assertion_failures) before the result is stored in an int. The count is
    an unsigned long, unbounded here. *)
Definition report_errors (P : apolicy) (r : narule) : N :=
  fold_right N.add 0 (map (report_matches P r false) (avtab_map_list (ap_te P))) +
  fold_right N.add 0 (map (report_matches P r true) (avtab_map_list (ap_cte P))).

(** The value of an unsigned long returned as an int, as the compilers in use convert it. *)
Definition as_int (v : N) : Z := let w := Z.of_N (wrap32 v) in (if w <? 2147483648 then w else w - 4294967296)%Z.

(** libsepol/src/assertion.c:815-844 (check_assertions): [true] is the result 0. The sum, an unsigned long, is
    unbounded here. *)
Fixpoint check_assertions (P : apolicy) (l : list narule) (errors : Z) : bool :=
  match l with
  | [] => (errors =? 0)%Z
  | r :: l' =>
      if N.land (na_spec r) (N.lor NEVERALLOW XNEVERALLOW) =? 0 then check_assertions P l' errors
      else if check_assertion P r then
        let rc := as_int (report_errors P r) in
        if (rc <? 0)%Z then false else check_assertions P l' (errors + rc)%Z
      else check_assertions P l' errors
  end.
