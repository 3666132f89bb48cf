(** Model of the expansion of type sets and role sets (libsepol/src/expand.c). Allocation failures are not modelled;
    ebitmap_set_bit still fails for numbers that are too large. *)
From Verif Require Import Base EbitmapModel AssertModel.

(** The parts of type_datum_t used (libsepol/include/sepol/policydb/policydb.h:180-193): flavor == TYPE_ATTRIB, the flag
    TYPE_FLAGS_EXPAND_ATTR_TRUE and types. *)
Record tinfo := mkTI { ti_attr : bool; ti_expand : bool; ti_types : ebitmap }.
(** libsepol/include/sepol/policydb/policydb.h:86-92 (type_set_t). *)
Record typeset := mkTS { ts_types : ebitmap; ts_neg : ebitmap; ts_flags : N }.
(** libsepol/include/sepol/policydb/policydb.h:89-90. *)
Definition TYPE_STAR : N := 1.
(** libsepol/include/sepol/policydb/policydb.h:90. *)
Definition TYPE_COMP : N := 2.

(** Outcomes: a set, the result -1, an access outside an array or through NULL, a failed assert. *)
Inductive sres := SOk (e : ebitmap) | SErr | SUB | SAbort.
(** Sequencing (each "if (...) goto/return"). *)
Definition sbind (r : sres) (f : ebitmap -> sres) : sres := match r with SOk e => f e | x => x end.
(** ebitmap_set_bit with its error result. *)
Definition sset (e : ebitmap) (i : N) (v : bool) : sres := match ebitmap_set_bit e i v with Some e' => SOk e' | None => SErr end.
(** A loop over numbers that updates a set. *)
Fixpoint sloop (f : ebitmap -> N -> sres) (l : list N) (e : ebitmap) : sres :=
  match l with [] => SOk e | i :: l' => sbind (f e i) (sloop f l') end.
(** The numbers 0 .. n-1 of the loops "for (i = 0; i < nprim; i++)". *)
Definition upto (n : nat) : list N := map N.of_nat (seq 0 n).

(** libsepol/src/expand.c:59-72 (map_ebitmap); the map is an array. *)
Definition map_ebitmap (src : ebitmap) (map : list N) : sres :=
  sloop (fun e i =>
    match nth_error map (N.to_nat i) with
    | None => SUB
    | Some v => if v =? 0 then SOk e else sset e (v - 1) true
    end) (bits src) ebitmap_init.

(** p->type_val_to_struct[i]->flavor == TYPE_ATTRIB for a non-NULL element, i < nprim (libsepol/src/expand.c:2593-2594,
    2609-2610). *)
Definition is_attr (ts : list (option tinfo)) (i : N) : bool :=
  match nth_error ts (N.to_nat i) with Some (Some ti) => ti_attr ti | _ => false end.

(** libsepol/src/expand.c:2547-2573: the loop over set->types. *)
Definition gather (ts : list (option tinfo)) (expand : bool) (e : ebitmap) (i : N) : sres :=
  match nth_error ts (N.to_nat i) with
  | None => SErr
  | Some None => SErr
  | Some (Some ti) => if ti_attr ti && (expand || ti_expand ti) then SOk (ebitmap_union e (ti_types ti)) else sset e i true
  end.
(** libsepol/src/expand.c:2577-2590: the loop over set->negset (no check of the index). *)
Definition gather_neg (ts : list (option tinfo)) (e : ebitmap) (i : N) : sres :=
  match nth_error ts (N.to_nat i) with
  | None => SUB
  | Some (Some ti) => if ti_attr ti then SOk (ebitmap_union e (ti_types ti)) else sset e i true
  | Some None => sset e i true
  end.

(** libsepol/src/expand.c:2533-2636 (type_set_expand); the array has p_types.nprim elements. *)
Definition type_set_expand (ts : list (option tinfo)) (set : typeset) (always : bool) : sres :=
  let expand := always || negb (ebitmap_is_empty (ts_neg set)) || negb (ts_flags set =? 0) in
  sbind (sloop (gather ts expand) (bits (ts_types set)) ebitmap_init) (fun types =>
  sbind (sloop (gather_neg ts) (bits (ts_neg set)) ebitmap_init) (fun neg =>
  if negb (N.land (ts_flags set) TYPE_STAR =? 0) then
    sloop (fun t i => if ebitmap_get_bit neg i then SOk t else if is_attr ts i then SOk t else sset t i true)
      (upto (length ts)) ebitmap_init
  else
    sbind (sloop (fun t i => if ebitmap_get_bit neg i then SOk t else sset t i true) (bits types) ebitmap_init) (fun t =>
    if negb (N.land (ts_flags set) TYPE_COMP =? 0) then
      sloop (fun t i =>
        if is_attr ts i then (if ebitmap_get_bit t i then SAbort else SOk t)
        else if ebitmap_get_bit t i then sset t i false else sset t i true)
        (upto (length ts)) t
    else SOk t))).

(** libsepol/src/expand.c:2393-2415 (expand_convert_type_set). *)
Definition expand_convert_type_set (ts : list (option tinfo)) (typemap : list N) (set : typeset) (always : bool) : sres :=
  sbind (map_ebitmap (ts_types set) typemap) (fun tt =>
  sbind (map_ebitmap (ts_neg set) typemap) (fun tn =>
  type_set_expand ts (mkTS tt tn (ts_flags set)) always)).

(** The parts of role_datum_t used (policydb.h:131-141): flavor == ROLE_ATTRIB and roles. *)
Record rinfo := mkRI { ri_attr : bool; ri_roles : ebitmap }.
(** libsepol/include/sepol/policydb/policydb.h:94-99 (role_set_t; ROLE_STAR = 1, ROLE_COMP = 2). *)
Record roleset := mkRS { rs_roles : ebitmap; rs_flags : N }.

(** libsepol/src/expand.c:2475-2490: the loop over x->roles in the base policy. *)
Definition gather_role (rs : list (option rinfo)) (e : ebitmap) (i : N) : sres :=
  match nth_error rs (N.to_nat i) with
  | None => SUB
  | Some None => SAbort
  | Some (Some ri) => if ri_attr ri then SOk (ebitmap_union e (ri_roles ri)) else sset e i true
  end.

(** libsepol/src/expand.c:2455-2524 (role_set_expand): [nprim] roles of the output, [maps] the roles of the base policy
    and the role map, if given. *)
Definition role_set_expand (nprim : nat) (maps : option (list (option rinfo) * list N)) (x : roleset) : sres :=
  if negb (N.land (rs_flags x) 1 =? 0) then sloop (fun r i => sset r i true) (upto nprim) ebitmap_init
  else
    sbind (match maps with
           | Some (rs, rolemap) => sbind (sloop (gather_role rs) (bits (rs_roles x)) ebitmap_init) (fun e => map_ebitmap e rolemap)
           | None => SOk (ebitmap_cpy (rs_roles x))
           end) (fun mapped =>
    sbind (sloop (fun r i => sset r i true) (bits mapped) ebitmap_init) (fun r =>
    if negb (N.land (rs_flags x) 2 =? 0) then
      sloop (fun r i => if ebitmap_get_bit r i then sset r i false else sset r i true) (upto nprim) r
    else SOk r)).
