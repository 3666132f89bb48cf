(** * CIL deny rules (libsepol/cil/src/cil_deny.c, cil_find.c)

    A deny rule is carried out on the tree of the policy: every allow rule that overlaps it is replaced by rules that grant what
    is left. Reading and resolving the policy come before, the binary policy after; both are outside the model. *)
From Coq Require Import NArith List Bool.
From Verif Require Import Base.
Import ListNotations.
Local Open Scope N_scope.

(** ** Types *)
(** cil_internal.h (struct cil_typeattribute): [a_id] is the address of the record, [a_scope] the symbol table it is in (0 that
    of the root), [a_types] the bitmap of its types. Bitmaps are numbers here; that the operations of ebitmap.c are those of
    numbers is the subject of C04 to C06. *)
Record attr := mkAttr { a_id : N; a_scope : N; a_types : N }.
(** What src and tgt of a rule can point to (cil_resolve_ast.c:270-310, 330-370): a type, known by its value, an attribute,
    or one of the three special types of the database. *)
Inductive datum := DType (v : N) | DAttr (a : attr) | DSelf | DNotself | DOther.
(** struct cil_db: the number of types, the block each type is declared in, the attributes, the number the next attribute is
    named after (num_types_and_attrs), the identifiers of the policy that have the form of such a name (symbol table and
    number), and the next free address. *)
Record db := mkDb { d_types : N; d_scope : N -> N; d_attrs : list attr; d_next : N; d_taken : list (N * N); d_fresh : N }.

(** The outcome of a step: an error code, or undefined behaviour. *)
Inductive out (A : Type) := Good (a : A) | Fails | Undefined.
Arguments Good {A} a.
Arguments Fails {A}.
Arguments Undefined {A}.
(** Plumbing for the model: the checks of rc after every call. *)
Definition andthen {A B} (x : out A) (f : A -> out B) : out B :=
  match x with Good a => f a | Fails => Fails | Undefined => Undefined end.
Notation "'do!' p <- x ; y" := (andthen x (fun p => y)) (at level 200, p pattern, x at level 100, y at level 200).

(** cil_symtab.h:46-47 (FLAVOR) and the bitmap of an attribute or the single bit of a type, as used throughout; the special types
    have no node, so that FLAVOR follows a null pointer. *)
Definition bits (d : datum) : out N :=
  match d with DType v => Good (N.setbit 0 v) | DAttr a => Good (a_types a) | _ => Undefined end.
(** Comparison of datums by address. *)
Definition same (d1 d2 : datum) : bool :=
  match d1, d2 with
  | DType v, DType w => v =? w
  | DAttr a, DAttr b => a_id a =? a_id b
  | DSelf, DSelf | DNotself, DNotself | DOther, DOther => true
  | _, _ => false
  end.

(** ** Class permissions *)
(** cil_internal.h (struct cil_classperms, cil_classperms_set): permissions of a class; permissions of a class map, each with the
    class permissions mapped to it; a named set. Classes and permissions are known by address. A null list is the empty one:
    cil_classperms_list_copy, _and and _andnot destroy the lists they leave empty. *)
Inductive cp := CClass (c : N) (ps : list N) | CMap (m : N) (ms : list (N * list cp)) | CSet (n : N) (l : list cp).

(** cil_deny.c:129-173 (cil_perm_match, cil_class_perm_match) for one item of the list. *)
Fixpoint class_perm_match (c p : N) (x : cp) : bool :=
  match x with
  | CClass c' ps => (c' =? c) && existsb (fun q => q =? p) ps
  | CMap _ ms => existsb (fun m => existsb (class_perm_match c p) (snd m)) ms
  | CSet _ l => existsb (class_perm_match c p) l
  end.
(** cil_deny.c:142-173. *)
Definition class_perm_in (c p : N) (l : list cp) : bool := existsb (class_perm_match c p) l.
(** cil_deny.c:175-221 (cil_classperms_match_any, cil_classperms_list_match_any) for one item of the first list. *)
Fixpoint match_any (l2 : list cp) (x : cp) : bool :=
  match x with
  | CClass c ps => existsb (fun p => class_perm_in c p l2) ps
  | CMap _ ms => existsb (fun m => existsb (match_any l2) (snd m)) ms
  | CSet _ l => existsb (match_any l2) l
  end.
(** cil_deny.c:223-269 (cil_classperms_match_all, cil_classperms_list_match_all) for one item of the first list. *)
Fixpoint match_all (l2 : list cp) (x : cp) : bool :=
  match x with
  | CClass c ps => forallb (fun p => class_perm_in c p l2) ps
  | CMap _ ms => forallb (fun m => forallb (match_all l2) (snd m)) ms
  | CSet _ l => forallb (match_all l2) l
  end.
(** cil_deny.c:320-402 (cil_classperms_and, _map_and, _set_and): what one item appends to the result. The permissions of a map
    that are kept whole go into one new item; its place among the others is not kept. *)
Fixpoint cp_and (l2 : list cp) (x : cp) : list cp :=
  match x with
  | CClass c ps =>
      if match_all l2 x then [x]
      else match filter (fun p => class_perm_in c p l2) ps with [] => [] | q => [CClass c q] end
  | CMap m ms =>
      (match filter (fun y => forallb (match_all l2) (snd y)) ms with [] => [] | q => [CMap m q] end) ++
      flat_map (fun y => if forallb (match_all l2) (snd y) then [] else flat_map (cp_and l2) (snd y)) ms
  | CSet n l => if forallb (match_all l2) l then [x] else flat_map (cp_and l2) l
  end.
(** cil_deny.c:404-441 (cil_classperms_list_and). *)
Definition list_and (l1 l2 : list cp) : list cp := if forallb (match_all l2) l1 then l1 else flat_map (cp_and l2) l1.
(** cil_deny.c:444-526 (cil_classperms_andnot, _map_andnot, _set_andnot). *)
Fixpoint cp_andnot (l2 : list cp) (x : cp) : list cp :=
  match x with
  | CClass c ps =>
      if negb (match_any l2 x) then [x]
      else match filter (fun p => negb (class_perm_in c p l2)) ps with [] => [] | q => [CClass c q] end
  | CMap m ms =>
      (match filter (fun y => negb (existsb (match_any l2) (snd y))) ms with [] => [] | q => [CMap m q] end) ++
      flat_map (fun y => if existsb (match_any l2) (snd y) then flat_map (cp_andnot l2) (snd y) else []) ms
  | CSet n l => if existsb (match_any l2) l then flat_map (cp_andnot l2) l else [x]
  end.
(** cil_deny.c:528-565 (cil_classperms_list_andnot). *)
Definition list_andnot (l1 l2 : list cp) : list cp := if existsb (match_any l2) l1 then flat_map (cp_andnot l2) l1 else l1.

(** ** Sets of types *)
(** cil_deny.c:567-578 (cil_datum_cardinality). *)
Definition cardinality (d : option datum) : out N :=
  match d with
  | None => Good 0
  | Some (DType _) => Good 1
  | Some (DAttr a) => Good (popcount (a_types a))
  | Some _ => Undefined
  end.
(** cil_deny.c:581-616 (cil_datum_not): the types below [max] that are not in [d]. *)
Definition datum_not (max : N) (d : datum) : out N := do! e <- bits d; Good (N.ldiff (N.ones max) e).
(** cil_deny.c:619-670 (cil_datums_and): the four cases. *)
Definition datums_and (d1 d2 : datum) : out N :=
  match d1, d2 with
  | DType v, DType w => Good (if v =? w then N.setbit 0 v else 0)
  | DAttr a, DType w => Good (if N.testbit (a_types a) w then N.setbit 0 w else 0)
  | DType v, DAttr b => Good (if N.testbit (a_types b) v then N.setbit 0 v else 0)
  | DAttr a, DAttr b => Good (N.land (a_types a) (a_types b))
  | _, _ => Undefined
  end.
(** cil_deny.c:673-725 (cil_datums_andnot). *)
Definition datums_andnot (d1 d2 : datum) : out N :=
  match d1, d2 with
  | DType v, DType w => Good (if v =? w then 0 else N.setbit 0 v)
  | DAttr a, DType w => Good (N.clearbit (a_types a) w)
  | DType v, DAttr b => Good (if N.testbit (a_types b) v then 0 else N.setbit 0 v)
  | DAttr a, DAttr b => Good (N.ldiff (a_types a) (a_types b))
  | _, _ => Undefined
  end.
(** The symbol table a datum is in (d->symtab); the special types are in none. *)
Definition scope_of (D : db) (d : datum) : N := match d with DType v => d_scope D v | DAttr a => a_scope a | _ => 0 end.
(** cil_deny.c:872-883 (cil_check_attribute_in_symtab) over one symbol table: the last attribute with these types. The order of
    the hash table is that of the list. *)
Definition in_symtab (D : db) (sc types : N) : option attr :=
  fold_left (fun r a => if (a_scope a =? sc) && (a_types a =? types) then Some a else r) (d_attrs D) None.
(** cil_deny.c:885-912 (cil_check_for_previously_defined_attribute). *)
Definition previously_defined (D : db) (types : N) (d : datum) : option attr :=
  let sc := scope_of D d in
  match (if sc =? 0 then None else in_symtab D sc types) with
  | Some a => Some a
  | None => in_symtab D 0 types
  end.
(** cil_deny.c:809-865 (cil_create_and_insert_attribute_and_set), beside the node of [d]. If the name is in use, the record is
    destroyed at 856-858 together with the bitmap, which the caller frees again (965, 1025, 1085). The expression kept for
    printing and the flag whether the attribute is kept in the binary policy are left out. *)
Definition insert_attribute (D : db) (d : datum) (types : N) : out (db * datum) :=
  let sc := scope_of D d in
  if existsb (fun t => (fst t =? sc) && (snd t =? d_next D)) (d_taken D) then Undefined
  else
    let a := mkAttr (d_fresh D) sc types in
    Good (mkDb (d_types D) (d_scope D) (d_attrs D ++ [a]) (d_next D + 1) (d_taken D) (d_fresh D + 1), DAttr a).
(** cil_deny.c:936-962, 996-1022, 1056-1082: the common end of the three functions below. val_to_type[i] is the type with
    value [i]. *)
Definition make_datum (D : db) (d : datum) (types : N) : out (db * option datum) :=
  if types =? 0 then Good (D, None)
  else if popcount types =? 1 then Good (D, Some (DType (N.log2 types)))
  else match previously_defined D types d with
       | Some a => Good (D, Some (DAttr a))
       | None => do! (D', d') <- insert_attribute D d types; Good (D', Some d')
       end.
(** cil_deny.c:914-968 (cil_create_attribute_all_and_not_d). *)
Definition all_and_not (D : db) (d : option datum) : out (db * option datum) :=
  match d with
  | None => Fails
  | Some d => do! e <- datum_not (d_types D) d; make_datum D d e
  end.
(** cil_deny.c:970-1028 (cil_create_attribute_d1_and_not_d2). *)
Definition and_not (D : db) (d1 d2 : option datum) : out (db * option datum) :=
  match d2, d1 with
  | None, _ => Good (D, d1)
  | _, None => Good (D, None)
  | Some e2, Some e1 => if same e1 e2 then Good (D, None) else do! e <- datums_andnot e1 e2; make_datum D e1 e
  end.
(** cil_deny.c:1030-1088 (cil_create_attribute_d1_and_d2). *)
Definition and_both (D : db) (d1 d2 : option datum) : out (db * option datum) :=
  match d1, d2 with
  | Some e1, Some e2 => if same e1 e2 then Good (D, d1) else do! e <- datums_and e1 e2; make_datum D e1 e
  | _, _ => Good (D, None)
  end.

(** ** Rules *)
(** cil_internal.h: rule_kind. *)
Inductive kind := Allowed | Auditallow | Dontaudit | Neverallow.
(** cil_internal.h (struct cil_avrule). The permissions of a rule with extended permissions are of no concern. *)
Record avrule := mkRule { r_kind : kind; r_ext : bool; r_src : datum; r_tgt : datum; r_perms : list cp }.
(** cil_internal.h (struct cil_deny_rule). *)
Record deny := mkDeny { y_src : datum; y_tgt : datum; y_perms : list cp }.
(** cil_deny.c:1090-1118 (cil_create_avrule, cil_create_and_add_avrule): the rule added, if any. *)
Definition add_rule (s t : option datum) (p : list cp) : list avrule :=
  match s, t with Some s, Some t => [mkRule Allowed false s t p] | _, _ => [] end.
(** cil_deny.c:1151-1154, 1181-1184, 1288-1290: a rule for the other types of the source, if there are two. *)
Definition add_other (s : option datum) (p : list cp) : out (list avrule) :=
  do! n <- cardinality s; Good (if 1 <? n then add_rule s (Some DOther) p else []).
(** cil_deny.c:1120-1208 (cil_remove_permissions_from_special_rule): the rules added. *)
Definition special_rule (D : db) (s1 t1 s2 t2 : datum) (p4 : list cp) (s3 s4 : option datum) : out (db * list avrule) :=
  if same t1 DNotself then
    if same t2 DOther then
      do! (D, t) <- all_and_not D (Some s2);
      Good (D, add_rule s4 t p4)
    else
      do! (D, s5) <- and_not D s4 (Some t2);
      do! (D, s6) <- and_both D s4 (Some t2);
      do! (D, ta) <- all_and_not D (Some t2);
      do! (D, tb) <- and_not D ta s4;
      do! o <- add_other s5 p4;
      Good (D, add_rule s6 ta p4 ++ add_rule s5 tb p4 ++ o)
  else if same t1 DOther then
    let first := add_rule s3 s4 p4 in
    if same t2 DNotself then Good (D, first)
    else if same t2 DOther then Good (D, first ++ add_rule s4 s3 p4)
    else
      do! (D, s5) <- and_not D s4 (Some t2);
      do! (D, s6) <- and_both D s4 (Some t2);
      do! (D, tc) <- and_not D (Some s1) (Some t2);
      do! (D, td) <- and_not D s3 (Some t2);
      do! o <- add_other s5 p4;
      Good (D, first ++ add_rule s6 tc p4 ++ add_rule s5 td p4 ++ o)
  else
    do! (D, s8) <- and_both D s4 (Some t1);
    let first := add_rule s8 (Some DSelf) p4 in
    if same t2 DNotself then Good (D, first)
    else
      do! (D, t) <- and_not D (Some t1) (Some s2);
      Good (D, first ++ add_rule s4 t p4).
(** cil_deny.c:1210-1305 (cil_remove_permissions_from_rule): the rules that replace [r]. *)
Definition remove_permissions (D : db) (r : avrule) (y : deny) : out (db * list avrule) :=
  let s1 := r_src r in let t1 := r_tgt r in let p1 := r_perms r in
  let s2 := y_src y in let t2 := y_tgt y in let p2 := y_perms y in
  let p3 := list_andnot p1 p2 in
  let l0 := match p3 with [] => [] | _ => add_rule (Some s1) (Some t1) p3 end in
  let p4 := list_and p1 p2 in
  match p4 with
  | [] => Fails
  | _ =>
      do! (D, s3) <- and_not D (Some s1) (Some s2);
      let l1 := l0 ++ add_rule s3 (Some t1) p4 in
      if (same t1 DSelf && same t2 DSelf) || (same t1 DNotself && same t2 DNotself) then Good (D, l1)
      else
        do! (D, s4) <- and_both D (Some s1) (Some s2);
        if same t1 DNotself || same t1 DOther || same t2 DNotself || same t2 DOther then
          do! (D, l2) <- special_rule D s1 t1 s2 t2 p4 s3 s4; Good (D, l1 ++ l2)
        else if same t1 DSelf && negb (same t2 DSelf) then
          do! (D, s5) <- and_not D s4 (Some t2);
          Good (D, l1 ++ add_rule s5 (Some DSelf) p4)
        else if negb (same t1 DSelf) && same t2 DSelf then
          do! (D, s7) <- and_not D s4 (Some t1);
          do! (D, s8) <- and_both D s4 (Some t1);
          do! (D, t8) <- and_not D (Some t1) s4;
          do! o <- add_other s8 p4;
          Good (D, l1 ++ add_rule s7 (Some t1) p4 ++ add_rule s8 t8 p4 ++ o)
        else
          do! (D, t3) <- and_not D (Some t1) (Some t2);
          Good (D, l1 ++ add_rule s4 t3 p4)
  end.

(** ** Overlap *)
(** cil_find.c:46-80 (cil_type_match_any). *)
Definition type_match_any (d1 d2 : datum) : out bool :=
  match d1, d2 with
  | DType v, DType w => Good (v =? w)
  | DAttr a, DType w => Good (N.testbit (a_types a) w)
  | DType v, DAttr b => Good (N.testbit (a_types b) v)
  | DAttr a, DAttr b => Good ((a_id a =? a_id b) || negb (N.land (a_types a) (a_types b) =? 0))
  | _, _ => Undefined
  end.
(** The positive bits of a bitmap (ebitmap_for_each_positive_bit). *)
Definition positives (e : N) : list N := filter (N.testbit e) (map N.of_nat (seq 0 (N.to_nat (N.size e)))).
(** cil_find.c:120-146 (cil_self_match_any); cil_type_matches (82-118) is the intersection. *)
Definition self_match_any (s1 s2 t2 : datum) : out bool :=
  match s1 with
  | DAttr a =>
      do! m <- datums_and s2 t2;
      Good (if m =? 0 then false else negb (N.land m (a_types a) =? 0))
  | _ => type_match_any s1 t2
  end.
(** cil_find.c:148-205 (cil_notself_match_any). *)
Definition notself_match_any (s1 s2 t2 : datum) : out bool :=
  match s1, t2 with
  | DType v, DType w => Good (negb (v =? w))
  | DType v, DAttr b => Good (existsb (fun t => negb (t =? v)) (positives (a_types b)))
  | DAttr _, DType w =>
      do! m <- datums_and s1 s2;
      Good (if m =? 0 then false else existsb (fun s => negb (s =? w)) (positives m))
  | DAttr _, DAttr b =>
      do! m <- datums_and s1 s2;
      Good (if m =? 0 then false else existsb (fun s => existsb (fun t => negb (s =? t)) (positives (a_types b))) (positives m))
  | _, _ => Undefined
  end.
(** cil_find.c:207-257 (cil_other_match_any). *)
Definition other_match_any (s1 s2 t2 : datum) : out bool :=
  match s1 with
  | DAttr _ =>
      do! sm <- datums_and s1 s2;
      if sm =? 0 then Good false
      else
        do! tm <- datums_and s1 t2;
        Good (if tm =? 0 then false else existsb (fun s => existsb (fun t => negb (s =? t)) (positives tm)) (positives sm))
  | DType _ => Good false
  | _ => Undefined
  end.
(** cil_find.c:263-272 (cil_notself_other_match_any). *)
Definition notself_other_match_any (s2 : datum) : out bool :=
  match s2 with DAttr a => Good (1 <? popcount (a_types a)) | DType _ => Good false | _ => Undefined end.
(** cil_find.c:274-290 (cil_classperms_match_any), 292-319 (__cil_classperms_list_match_any) for one item. *)
Fixpoint find_class_any (c : N) (ps : list N) (y : cp) : bool :=
  match y with
  | CClass c' qs => (c =? c') && existsb (fun p => existsb (fun q => p =? q) qs) ps
  | CMap _ ms => existsb (fun m => existsb (find_class_any c ps) (snd m)) ms
  | CSet _ l => existsb (find_class_any c ps) l
  end.
(** cil_find.c:321-348 (cil_classperms_list_match_any) for one item of the first list. *)
Fixpoint find_perms_any (l2 : list cp) (x : cp) : bool :=
  match x with
  | CClass c ps => existsb (find_class_any c ps) l2
  | CMap _ ms => existsb (fun m => existsb (find_perms_any l2) (snd m)) ms
  | CSet _ l => existsb (find_perms_any l2) l
  end.
(** cil_find.c:433-480: whether sources and targets overlap; [s1], [t1] are of the allow rule. *)
Definition types_overlap (s1 t1 s2 t2 : datum) : out bool :=
  do! b <- type_match_any s1 s2;
  if negb b then Good false
  else match t1, t2 with
       | DSelf, DSelf => Good true
       | DSelf, DNotself | DSelf, DOther => Good false
       | DSelf, _ => self_match_any s1 s2 t2
       | DNotself, DSelf => Good false
       | DNotself, DNotself => Good true
       | DNotself, DOther => notself_other_match_any s2
       | DNotself, _ => notself_match_any s1 s2 t2
       | DOther, DSelf => Good false
       | DOther, DNotself => notself_other_match_any s1
       | DOther, DOther => Good true
       | DOther, _ => other_match_any s1 s2 t2
       | _, DSelf => self_match_any s2 s1 t1
       | _, DNotself => notself_match_any s2 s1 t1
       | _, DOther => other_match_any s2 s1 t1
       | _, _ => type_match_any t1 t2
       end.
(** cil_find.c:423-503 (cil_find_matching_avrule) with the rule made at cil_deny.c:1312-1316. *)
Definition rule_matches (r : avrule) (y : deny) : out bool :=
  match r_kind r, r_ext r with
  | Allowed, false =>
      do! b <- types_overlap (r_src r) (r_tgt r) (y_src y) (y_tgt y);
      Good (if b then existsb (find_perms_any (y_perms y)) (r_perms r) else false)
  | _, _ => Good false
  end.

(** ** The tree *)
(** The nodes that matter: rules, deny rules, other statements, and nodes with children; [skip]: an abstract block or a macro. *)
Inductive node := NRule (r : avrule) | NDeny (y : deny) | NOther (n : N) | NBox (id : N) (skip : bool) (l : list node).
(** cil_deny.c:1321-1347 (cil_process_deny_rule) with cil_find.c:505-545: the walk. The code finds all matching rules first and
    then replaces one after the other; new rules are put behind the one they replace. *)
Fixpoint deny_node (y : deny) (D : db) (x : node) : out (db * list node) :=
  match x with
  | NRule r =>
      do! b <- rule_matches r y;
      if b then do! (D', l) <- remove_permissions D r y; Good (D', map NRule l) else Good (D, [x])
  | NBox id skip l =>
      if skip then Good (D, [x])
      else
        do! (D', l') <- (fix go (D : db) (l : list node) : out (db * list node) :=
          match l with
          | [] => Good (D, [])
          | z :: l' => do! (D1, a) <- deny_node y D z; do! (D2, b) <- go D1 l'; Good (D2, a ++ b)
          end) D l;
        Good (D', [NBox id skip l'])
  | _ => Good (D, [x])
  end.
(** The same for the children of a node. *)
Fixpoint deny_tree (y : deny) (D : db) (l : list node) : out (db * list node) :=
  match l with
  | [] => Good (D, [])
  | z :: l' => do! (D1, a) <- deny_node y D z; do! (D2, b) <- deny_tree y D1 l'; Good (D2, a ++ b)
  end.
(** cil_deny.c:1367-1382 (__cil_find_deny_rules) for one node. *)
Fixpoint node_denies (x : node) : list deny :=
  match x with
  | NDeny y => [y]
  | NBox _ skip l => if skip then [] else flat_map node_denies l
  | _ => []
  end.
(** cil_deny.c:1360: the deny rules that were carried out are removed from the tree, here all at the end. *)
Fixpoint drop_denies (x : node) : list node :=
  match x with
  | NDeny _ => []
  | NBox id false l => [NBox id false (flat_map drop_denies l)]
  | _ => [x]
  end.
(** cil_deny.c:1349-1365 (cil_process_deny_rules). *)
Fixpoint process_rules (D : db) (l : list node) (ys : list deny) : out (db * list node) :=
  match ys with
  | [] => Good (D, l)
  | y :: ys' => do! (D', l') <- deny_tree y D l; process_rules D' l' ys'
  end.
(** cil_deny.c:1384-1420 (cil_process_deny_rules_in_ast). *)
Definition process (D : db) (l : list node) : out (db * list node) :=
  do! (D', l') <- process_rules D l (flat_map node_denies l); Good (D', flat_map drop_denies l').
