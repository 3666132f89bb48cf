(** Model of libsepol/src/hierarchy.c (bounds of types, roles and users). Allocation failures are not modelled;
    messages are not modelled, only whether there are any. *)
From Verif Require Import Base EbitmapModel AvtabModel AssertModel.

(** Conversion to the uint16_t fields of an avtab key (libsepol/include/sepol/policydb/avtab.h:50-55). *)
Definition u16 (x : N) : N := x mod 65536.

(** libsepol/src/hierarchy.c:67, 87: the walk of avtab_search (libsepol/src/avtab.c:224-240) and the update of the
    datum found. *)
Fixpoint chain_or (sp : N) (k : akey) (v : N) (c : list anode) : list anode :=
  match c with
  | [] => []
  | cur :: t =>
      if hit sp k cur then mkNode (n_key cur) (mkD (N.lor (d_data (n_datum cur)) v) (d_xperms (n_datum cur))) :: t
      else if before3 k (n_key cur) then cur :: t
      else cur :: chain_or sp k v t
  end.
(** libsepol/src/hierarchy.c:67, 87 (dup->data |= v, for dup = avtab_search(h, k)). *)
Definition avtab_or (h : avtab) (k : akey) (v : N) : avtab :=
  match a_htable h with
  | None => h
  | Some ht =>
      let hv := N.to_nat (avtab_hash k (a_mask h)) in
      mkA (Some (set_nth hv (chain_or (spec_bits (k_spec k)) k v (nth hv ht [])) ht)) (a_nel h) (a_nslot h) (a_mask h)
  end.

(** libsepol/src/hierarchy.c:61-68, 79-88 with bounds_insert_helper (42-53); [None]: an error from avtab_insert. *)
Definition b_put (h : avtab) (k : akey) (data : N) : option avtab :=
  match avtab_search h k with
  | None => match avtab_insert h k (mkD data None) with InsOk h' => Some h' | _ => None end
  | Some _ => Some (avtab_or h k data)
  end.

(** libsepol/src/hierarchy.c:56-95 (bounds_insert_rule); [both] is (global, other) when not NULL. *)
Definition bounds_insert_rule (av : avtab) (both : option (avtab * avtab)) (k : akey) (data : N) : option (avtab * option (avtab * avtab)) :=
  match b_put av k data with
  | None => None
  | Some av' =>
      match both with
      | None => Some (av', None)
      | Some (gl, other) =>
          match avtab_search other k with
          | None => Some (av', both)
          | Some d =>
              let v := N.land (d_data d) data in
              if v =? 0 then Some (av', both)
              else match b_put gl k v with None => None | Some gl' => Some (av', Some (gl', other)) end
          end
      end
  end.

(** libsepol/src/hierarchy.c:114-119: the loop over the targets. *)
Fixpoint expand_targets (av : avtab) (both : option (avtab * avtab)) (parent cls data : N) (ts : list N) : option (avtab * option (avtab * avtab)) :=
  match ts with
  | [] => Some (av, both)
  | i :: ts' =>
      match bounds_insert_rule av both (mkK (u16 parent) (u16 (i + 1)) (u16 cls) AVTAB_ALLOWED) data with
      | None => None
      | Some (av', both') => expand_targets av' both' parent cls data ts'
      end
  end.

(** libsepol/src/hierarchy.c:97-124 (bounds_expand_rule), for the key and datum of a node. *)
Definition bounds_expand_rule (P : apolicy) (av : avtab) (both : option (avtab * avtab)) (parent : N) (n : anode) : option (avtab * option (avtab * avtab)) :=
  if ebitmap_get_bit (ap_attr P (k_src (n_key n))) (parent - 1) then
    expand_targets av both parent (k_cls (n_key n)) (d_data (n_datum n)) (bits (ap_attr P (k_tgt (n_key n))))
  else Some (av, both).

(** libsepol/src/hierarchy.c:126-143 (bounds_expand_cond_rules): every rule, whatever its kind. *)
Fixpoint bounds_expand_cond_rules (P : apolicy) (l : list anode) (av : avtab) (both : option (avtab * avtab)) (parent : N) : option (avtab * option (avtab * avtab)) :=
  match l with
  | [] => Some (av, both)
  | n :: l' =>
      match bounds_expand_rule P av both parent n with
      | None => None
      | Some (av', both') => bounds_expand_cond_rules P l' av' both' parent
      end
  end.

(** libsepol/src/hierarchy.c:152-163 (bounds_expand_rule_callback) under avtab_map: allow rules only. *)
Fixpoint expand_te (P : apolicy) (l : list anode) (gl : avtab) (parent : N) : option avtab :=
  match l with
  | [] => Some gl
  | n :: l' =>
      if N.land (k_spec (n_key n)) AVTAB_ALLOWED =? 0 then expand_te P l' gl parent
      else match bounds_expand_rule P gl None parent n with
           | None => None
           | Some (gl', _) => expand_te P l' gl' parent
           end
  end.

(** libsepol/src/hierarchy.c:165-170 (struct bounds_cond_info). *)
Record cinfo := mkCI { ci_true : avtab; ci_false : avtab; ci_rules : list anode * list anode }.

(** libsepol/src/hierarchy.c:205-233: the loop over the conditionals; [acc] is *cond_info. An empty list is a NULL
    pointer. *)
Fixpoint expand_conds (P : apolicy) (cs : list (list anode * list anode)) (gl : avtab) (acc : list cinfo) (parent : N) : option (avtab * list cinfo) :=
  match cs with
  | [] => Some (gl, acc)
  | (tl, fl) :: cs' =>
      let t0 := match tl with [] => avtab_init | _ => avtab_alloc avtab_init 1024 end in
      match bounds_expand_cond_rules P tl t0 None parent with
      | None => None
      | Some (tav, _) =>
          let f0 := match fl with [] => avtab_init | _ => avtab_alloc avtab_init 1024 end in
          match bounds_expand_cond_rules P fl f0 (Some (gl, tav)) parent with
          | Some (fav, Some (gl', _)) => expand_conds P cs' gl' (mkCI tav fav (tl, fl) :: acc) parent
          | _ => None
          end
      end
  end.

(** libsepol/src/hierarchy.c:185-245 (bounds_expand_parent_rules). *)
Definition bounds_expand_parent_rules (P : apolicy) (parent : N) : option (avtab * list cinfo) :=
  match expand_te P (avtab_map_list (ap_te P)) (avtab_alloc avtab_init 1024) parent with
  | None => None
  | Some gl => expand_conds P (ap_conds P) gl [] parent
  end.

(** libsepol/src/hierarchy.c:247-260 (bounds_not_covered). *)
Definition bounds_not_covered (gl : option avtab) (cur : avtab) (k : akey) (data : N) : N :=
  let data := match avtab_search cur k with Some d => N.ldiff data (d_data d) | None => data end in
  match gl with
  | Some g => if data =? 0 then data else match avtab_search g k with Some d => N.ldiff data (d_data d) | None => data end
  | None => data
  end.

(** libsepol/src/hierarchy.c:281-320 (bounds_check_rule): the number of errors found. [bof i] is the bounds field of
    type_val_to_struct[i], 0 if that is NULL. *)
Definition bounds_check_rule (P : apolicy) (bof : N -> N) (gl : option avtab) (cur : avtab) (child parent : N) (n : anode) : N :=
  if ebitmap_get_bit (ap_attr P (k_src (n_key n))) (child - 1) then
    fold_right N.add 0 (map (fun i =>
      let t := if bof i =? 0 then i + 1 else bof i in
      if bounds_not_covered gl cur (mkK (u16 parent) (u16 t) (u16 (k_cls (n_key n))) AVTAB_ALLOWED) (d_data (n_datum n)) =? 0 then 0 else 1)
      (bits (ap_attr P (k_tgt (n_key n)))))
  else 0.

(** libsepol/src/hierarchy.c:322-346 (bounds_check_cond_rules) and 358-369 (bounds_check_rule_callback) under
    avtab_map: the errors of all allow rules of a list. *)
Definition check_list (P : apolicy) (bof : N -> N) (gl : option avtab) (cur : avtab) (child parent : N) (l : list anode) : N :=
  fold_right N.add 0 (map (fun n =>
    if N.land (k_spec (n_key n)) AVTAB_ALLOWED =? 0 then 0 else bounds_check_rule P bof gl cur child parent n) l).

(** libsepol/src/hierarchy.c:371-411 (bounds_check_child_rules). *)
Definition bounds_check_child_rules (P : apolicy) (bof : N -> N) (gl : avtab) (ci : list cinfo) (child parent : N) : N :=
  check_list P bof None gl child parent (avtab_map_list (ap_te P)) +
  fold_right N.add 0 (map (fun c =>
    check_list P bof (Some gl) (ci_true c) child parent (fst (ci_rules c)) +
    check_list P bof (Some gl) (ci_false c) child parent (snd (ci_rules c))) ci).

(** libsepol/src/hierarchy.c:413-431 (bounds_check_type). *)
Definition bounds_check_type (P : apolicy) (bof : N -> N) (child parent : N) : option N :=
  match bounds_expand_parent_rules P parent with
  | None => None
  | Some (gl, ci) => Some (bounds_check_child_rules P bof gl ci child parent)
  end.

(** An entry of p_types, p_roles or p_users (libsepol/include/sepol/policydb/policydb.h: type_datum_t, role_datum_t,
    user_datum_t): its key, s.value and bounds. *)
Record hentry := mkHE { h_key : list N; h_val : N; h_bounds : N }.
(** A symbol table in the order hashtab_map visits it, the names by value minus one (p_type_val_to_name) and the
    entry (by position) that type_val_to_struct[i] points to. *)
Record htab := mkHT { ht_list : list hentry; ht_name : N -> list N; ht_struct : N -> option nat }.

(** The bounds field of the struct with index [i], 0 when there is none (used in hierarchy.c:300-302). *)
Definition bounds_of (T : htab) (i : N) : N :=
  match ht_struct T i with None => 0 | Some j => match nth_error (ht_list T) j with Some e => h_bounds e | None => 0 end end.

(** libsepol/src/hierarchy.c:469-510 (bounds_check_type_callback, bounds_check_types): errors found, [None] for an
    error code. *)
Fixpoint check_types (P : apolicy) (bof : N -> N) (l : list hentry) : option N :=
  match l with
  | [] => Some 0
  | e :: l' =>
      if h_bounds e =? 0 then check_types P bof l'
      else match bounds_check_type P bof (h_val e) (h_bounds e) with
           | None => None
           | Some k => match check_types P bof l' with Some m => Some (k + m) | None => None end
           end
  end.

(** libsepol/src/hierarchy.c:515-553 (bounds_check_role_callback, bounds_check_roles) and 558-596 (users): whether
    there are no errors. [sets j] is the set of entry number [j] (types of a role, roles of a user). *)
Definition check_sets (T : htab) (sets : nat -> ebitmap) : bool :=
  forallb (fun je => let '(j, e) := je in
    if h_bounds e =? 0 then true
    else match ht_struct T (h_bounds e - 1) with
         | None => true
         | Some jp => ebitmap_contains (sets jp) (sets j)
         end) (combine (seq 0 (length (ht_list T))) (ht_list T)).

(** strrchr(s, '.'): the part before the last dot (libsepol/src/hierarchy.c:612, 621). *)
Fixpoint before_last_dot (s : list N) : option (list N) :=
  match s with
  | [] => None
  | c :: s' => match before_last_dot s' with
               | Some p => Some (c :: p)
               | None => if c =? 46 then Some [] else None
               end
  end.
(** Comparison of names by hashtab_search (strcmp). *)
Fixpoint name_eqb (a b : list N) : bool :=
  match a, b with [], [] => true | x :: a', y :: b' => (x =? y) && name_eqb a' b' | _, _ => false end.

(** libsepol/src/hierarchy.c:598-638 (hierarchy_add_type/role/user_callback): the entry afterwards, and whether it is an
    orphan. hashtab_search is a search by name (C22). *)
Definition add_bounds (T : htab) (e : hentry) : hentry * bool :=
  if h_bounds e =? 0 then
    match before_last_dot (ht_name T (h_val e - 1)) with
    | None => (e, false)
    | Some pn =>
        match find (fun x => name_eqb (h_key x) pn) (ht_list T) with
        | None => (e, true)
        | Some x => (mkHE (h_key e) (h_val e) (h_val x), false)
        end
    end
  else (e, false).
(** libsepol/src/hierarchy.c:653, 656, 659 (hashtab_map over one of the tables): keys and values do not change. *)
Definition add_all (T : htab) : htab * bool :=
  (mkHT (map (fun e => fst (add_bounds T e)) (ht_list T)) (ht_name T) (ht_struct T),
   existsb (fun e => snd (add_bounds T e)) (ht_list T)).

(** Result of hierarchy_check_constraints: success, SEPOL_ERR for violations, another error. *)
Inductive hres := HOk | HViolation | HError.

(** libsepol/src/hierarchy.c:672-701 (hierarchy_check_constraints) with hierarchy_add_bounds (644-670). *)
Definition hierarchy_check (P : apolicy) (types roles users : htab) (rsets usets : nat -> ebitmap) : hres :=
  let '(U, ou) := add_all users in
  let '(R, oR) := add_all roles in
  let '(T, ot) := add_all types in
  if ou || oR || ot then HViolation
  else
    let vu := check_sets U usets in
    let vr := check_sets R rsets in
    match check_types P (bounds_of T) (ht_list T) with
    | None => HError
    | Some k => if vu && vr && (k =? 0) then HOk else HViolation
    end.
