(** Model of libsepol/src/optimize.c (removal of rules covered by others). Allocation failures are not modelled. A read
    outside an array or through a NULL type is the outcome [None]. *)
From Verif Require Import Base EbitmapModel AvtabModel AssertModel.

(** libsepol/include/sepol/policydb/conditional.h (cond_av_list_t): the pointer to a node of te_cond_avtab, as its
    address and its contents; a node is in one list only. *)
Definition cnode := (N * anode)%type.
(** libsepol/include/sepol/policydb/conditional.h (cond_node_t): identity of the expression, the two rule lists. *)
Record ocond := mkOC { oc_id : N; oc_true : list cnode; oc_false : list cnode }.

(** The parts of policydb_t used here (libsepol/include/sepol/policydb/policydb.h): policy_type (is POLICY_KERN),
    policyvers, type_val_to_struct (NULL, or whether the flavor is TYPE_ATTRIB), type_attr_map, attr_type_map (indexed from
    0), te_avtab, the chains of te_cond_avtab (addresses; the contents are in the lists) with its number of elements,
    cond_list. *)
Record opolicy := mkOP {
  op_kern : bool; op_vers : N; op_types : list (option bool); op_tattr : N -> ebitmap; op_attr : N -> ebitmap;
  op_te : avtab; op_cte : list (list N); op_cnel : N; op_conds : list ocond }.

(** libsepol/src/optimize.c:77-93 (type_vec_contains): one round per unit of fuel; [e - s] shrinks in every round. *)
Fixpoint vec_loop (fuel : nat) (v : list N) (ty : N) (s e : nat) : bool :=
  match fuel with
  | O => false
  | S f =>
      if (s =? e)%nat then false
      else
        let mid := ((s + e) / 2)%nat in
        let x := nth mid v 0 in
        if x =? ty then true else if x <? ty then vec_loop f v ty (mid + 1) e else vec_loop f v ty s mid
  end.
(** libsepol/src/optimize.c:77-93. *)
Definition vec_contains (v : list N) (ty : N) : bool := vec_loop (S (length v)) v ty 0 (length v).

(** The flavor test (libsepol/src/optimize.c:108-109, 122). *)
Definition attr_at (P : opolicy) (i : N) : bool := match nth_error (op_types P) (N.to_nat i) with Some (Some true) => true | _ => false end.
(** libsepol/src/optimize.c:96-141 (build_type_map): the vector of element [i]. *)
Definition type_vec (P : opolicy) (i : N) : list N :=
  match nth_error (op_types P) (N.to_nat i) with
  | Some (Some false) => bits (op_tattr P i)
  | Some (Some true) =>
      filter (fun k => attr_at P k && ebitmap_contains (op_attr P k) (op_attr P i)) (map N.of_nat (seq 0 (length (op_types P))))
  | _ => []
  end.
(** type_map[value - 1] (libsepol/src/optimize.c:216-217, 225, 229). *)
Definition vec_of (P : opolicy) (v : N) : option (list N) :=
  if (1 <=? v) && (v <=? N.of_nat (length (op_types P))) then Some (type_vec P (v - 1)) else None.

(** libsepol/src/optimize.c:151-162 (process_xperms). *)
Definition process_xperms (p1 p2 : list N) : list N * bool :=
  let p := map (fun i => N.ldiff (nth i p1 0) (nth i p2 0)) (seq 0 8) in (p, forallb (fun w => w =? 0) p).

(** libsepol/src/optimize.c:164-201 (process_avtab_datum): the new first datum and the result. A NULL xperms, which
    avtab_insert_node never stores in such a node (C12), is not dereferenced here. *)
Definition process_datum (spec : N) (d1 d2 : adatum) : adatum * bool :=
  if negb (N.land spec AVTAB_AUDITDENY =? 0) then
    let v := N.lor (d_data d1) (N.ldiff 4294967295 (d_data d2)) in (mkD v (d_xperms d1), v =? 4294967295)
  else if negb (N.land spec AVTAB_AV =? 0) then
    let v := N.ldiff (d_data d1) (d_data d2) in (mkD v (d_xperms d1), v =? 0)
  else if negb (N.land spec AVTAB_XPERMS =? 0) then
    match d_xperms d1, d_xperms d2 with
    | Some x1, Some x2 =>
        let shrink := let '(p, r) := process_xperms (x_perms x1) (x_perms x2) in (mkD (d_data d1) (Some (mkX (x_spec x1) (x_driver x1) p)), r) in
        if x_spec x1 =? IOCTLFUNCTION then
          if x_spec x2 =? IOCTLFUNCTION then if x_driver x1 =? x_driver x2 then shrink else (d1, false)
          else if x_spec x2 =? IOCTLDRIVER then (d1, xperm_test (x_driver x1) (x_perms x2))
          else (d1, false)
        else if x_spec x1 =? IOCTLDRIVER then
          if x_spec x2 =? IOCTLFUNCTION then (d1, false)
          else if x_spec x2 =? IOCTLDRIVER then shrink
          else (d1, false)
        else if (x_spec x1 =? NLMSG) && (x_spec x2 =? NLMSG) then if x_driver x1 =? x_driver x2 then shrink else (d1, false)
        else (d1, false)
    | _, _ => (d1, false)
    end
  else (d1, false).

(** libsepol/src/optimize.c:225-244: the two loops as one over the pairs; key fields are uint16_t. *)
Fixpoint cover_loop (tab : avtab) (not_cond : bool) (k : akey) (ps : list (N * N)) (d1 : adatum) : adatum * bool :=
  match ps with
  | [] => (d1, false)
  | (st, tg) :: ps' =>
      if not_cond && (k_src k - 1 =? st) && (k_tgt k - 1 =? tg) then cover_loop tab not_cond k ps' d1
      else match avtab_search tab (mkK ((st + 1) mod 65536) ((tg + 1) mod 65536) (k_cls k) (k_spec k)) with
           | None => cover_loop tab not_cond k ps' d1
           | Some d2 =>
               let '(d1', r) := process_datum (k_spec k) d1 d2 in
               if r then (d1', true) else cover_loop tab not_cond k ps' d1'
           end
  end.

(** libsepol/src/optimize.c:204-246 (is_avrule_redundant): the entry as changed, and the result. *)
Definition is_avrule_redundant (P : opolicy) (tab : avtab) (e : anode) (not_cond : bool) : option (anode * bool) :=
  if N.land (k_spec (n_key e)) (N.lor AVTAB_AV AVTAB_XPERMS) =? 0 then Some (e, false)
  else match vec_of P (k_src (n_key e)), vec_of P (k_tgt (n_key e)) with
       | Some vs, Some vt =>
           let '(d, r) := cover_loop tab not_cond (n_key e) (list_prod vs vt) (n_datum e) in Some (mkNode (n_key e) d, r)
       | _, _ => None
       end.

(** libsepol/src/optimize.c:248-251 (is_type_attr). *)
Definition is_type_attr (P : opolicy) (v : N) : option bool :=
  if v =? 0 then None else match nth_error (op_types P) (N.to_nat (v - 1)) with Some o => o | None => None end.
(** libsepol/src/optimize.c:253-259 (is_avrule_with_attr). *)
Definition is_avrule_with_attr (P : opolicy) (e : anode) : option bool :=
  match is_type_attr P (k_src (n_key e)) with
  | None => None
  | Some true => Some true
  | Some false => is_type_attr P (k_tgt (n_key e))
  end.

(** libsepol/src/optimize.c:276-295: the loop over the list. *)
Fixpoint cond_cover (vs vt : list N) (k : akey) (l : list cnode) (d1 : adatum) : adatum * bool :=
  match l with
  | [] => (d1, false)
  | (_, e2) :: l' =>
      let k2 := n_key e2 in
      if negb (k_spec k =? k_spec k2) || negb (k_cls k =? k_cls k2) then cond_cover vs vt k l' d1
      else if (k_src k =? k_src k2) && (k_tgt k =? k_tgt k2) then cond_cover vs vt k l' d1
      else if negb (vec_contains vs (k_src k2 - 1)) then cond_cover vs vt k l' d1
      else if negb (vec_contains vt (k_tgt k2 - 1)) then cond_cover vs vt k l' d1
      else let '(d1', r) := process_datum (k_spec k) d1 (n_datum e2) in
           if r then (d1', true) else cond_cover vs vt k l' d1'
  end.

(** libsepol/src/optimize.c:262-298 (is_cond_rule_redundant). Value 0, whose index would wrap around, is outside the
    arrays. *)
Definition is_cond_rule_redundant (P : opolicy) (e : anode) (l : list cnode) : option (anode * bool) :=
  if N.land (k_spec (n_key e)) (N.lor AVTAB_AV AVTAB_XPERMS) =? 0 then Some (e, false)
  else match vec_of P (k_src (n_key e)), vec_of P (k_tgt (n_key e)) with
       | Some vs, Some vt => let '(d, r) := cond_cover vs vt (n_key e) l (n_datum e) in Some (mkNode (n_key e) d, r)
       | _, _ => None
       end.

(** The table with chain [i] replaced; [nel] as given. *)
Definition set_chain (t : avtab) (i : nat) (c : list anode) (nel : N) : avtab :=
  mkA (match a_htable t with Some ht => Some (set_nth i c ht) | None => None end) nel (a_nslot t) (a_mask t).

(** libsepol/src/optimize.c:308-323: one chain; the table searched is the one with this chain as changed so far. *)
Fixpoint opt_chain (P : opolicy) (t : avtab) (i : nat) (nel : N) (done todo : list anode) : option avtab :=
  match todo with
  | [] => Some (set_chain t i done nel)
  | e :: rest =>
      match is_avrule_redundant P (set_chain t i (done ++ e :: rest) nel) e true with
      | None => None
      | Some (_, true) => opt_chain P t i (wrap32 (nel + 4294967295)) done rest
      | Some (e', false) => opt_chain P t i nel (done ++ [e']) rest
      end
  end.
(** libsepol/src/optimize.c:306-324: the remaining chains. *)
Fixpoint opt_chains (P : opolicy) (t : avtab) (is : list nat) : option avtab :=
  match is with
  | [] => Some t
  | i :: is' =>
      match opt_chain P t i (a_nel t) [] (match a_htable t with Some ht => nth i ht [] | None => [] end) with
      | None => None
      | Some t' => opt_chains P t' is'
      end
  end.
(** libsepol/src/optimize.c:300-325 (optimize_avtab); a NULL htable has no slots. *)
Definition optimize_avtab (P : opolicy) : option avtab :=
  opt_chains P (op_te P) (seq 0 (match a_htable (op_te P) with Some ht => length ht | None => O end)).

(** libsepol/src/optimize.c:340-353: the rules without attributes, in order, and the others, reversed. *)
Fixpoint split_list (P : opolicy) (l plain pcov : list cnode) : option (list cnode * list cnode) :=
  match l with
  | [] => Some (plain, pcov)
  | e :: l' =>
      match is_avrule_with_attr P (snd e) with
      | None => None
      | Some true => split_list P l' plain (e :: pcov)
      | Some false => split_list P l' (plain ++ [e]) pcov
      end
  end.

(** libsepol/src/optimize.c:365-366: covered by an unconditional rule, or by a rule of the list. *)
Definition cond_redundant (P : opolicy) (te : avtab) (e : cnode) (cov : anode -> list cnode) : option (cnode * bool) :=
  match is_avrule_redundant P te (snd e) false with
  | None => None
  | Some (e1, true) => Some ((fst e, e1), true)
  | Some (e1, false) =>
      match is_cond_rule_redundant P e1 (cov e1) with
      | None => None
      | Some (e2, r) => Some ((fst e, e2), r)
      end
  end.

(** libsepol/src/optimize.c:355-375 before the first potentially covering rule: rules kept, addresses deleted. *)
Fixpoint walk_plain (P : opolicy) (te : avtab) (pcov done todo : list cnode) (del : list N) : option (list cnode * list N) :=
  match todo with
  | [] => Some (done, del)
  | e :: rest =>
      match cond_redundant P te e (fun _ => pcov) with
      | None => None
      | Some (_, true) => walk_plain P te pcov done rest (fst e :: del)
      | Some (e', false) => walk_plain P te pcov (done ++ [e']) rest del
      end
  end.
(** libsepol/src/optimize.c:355-375 from the first potentially covering rule on: the covering rules are those kept so
    far, the current one, and those still to come. *)
Fixpoint walk_pcov (P : opolicy) (te : avtab) (done todo : list cnode) (del : list N) : option (list cnode * list N) :=
  match todo with
  | [] => Some (done, del)
  | e :: rest =>
      match cond_redundant P te e (fun e1 => done ++ (fst e, e1) :: rest) with
      | None => None
      | Some (_, true) => walk_pcov P te done rest (fst e :: del)
      | Some (e', false) => walk_pcov P te (done ++ [e']) rest del
      end
  end.
(** libsepol/src/optimize.c:328-376 (optimize_cond_av_list). *)
Definition optimize_cond_av_list (P : opolicy) (te : avtab) (l : list cnode) (del : list N) : option (list cnode * list N) :=
  match split_list P l [] [] with
  | None => None
  | Some (plain, pcov) =>
      match walk_plain P te pcov [] plain del with
      | None => None
      | Some (plain', del1) =>
          match walk_pcov P te [] pcov del1 with
          | None => None
          | Some (pcov', del2) => Some (plain' ++ pcov', del2)
          end
      end
  end.

(** libsepol/src/optimize.c:387-402: the conditionals; one with two empty lists is dropped. *)
Fixpoint opt_conds (P : opolicy) (te : avtab) (cs : list ocond) (del : list N) : option (list ocond * list N) :=
  match cs with
  | [] => Some ([], del)
  | c :: cs' =>
      match optimize_cond_av_list P te (oc_true c) del with
      | None => None
      | Some (t, del1) =>
          match optimize_cond_av_list P te (oc_false c) del1 with
          | None => None
          | Some (f, del2) =>
              match opt_conds P te cs' del2 with
              | None => None
              | Some (r, del3) =>
                  Some (match t, f with [], [] => r | _, _ => mkOC (oc_id c) t f :: r end, del3)
              end
          end
      end
  end.

(** libsepol/src/optimize.c:416-427: is the node in the delete list; if so, take it out there. *)
Fixpoint take (a : N) (del : list N) : option (list N) :=
  match del with
  | [] => None
  | x :: d => if x =? a then Some d else match take a d with Some d' => Some (x :: d') | None => None end
  end.
(** libsepol/src/optimize.c:413-439: one chain of te_cond_avtab. *)
Fixpoint sweep (c del : list N) (nel : N) : list N * list N * N :=
  match c with
  | [] => ([], del, nel)
  | a :: c' =>
      match take a del with
      | Some del' => sweep c' del' (wrap32 (nel + 4294967295))
      | None => let '(r, d, n) := sweep c' del nel in (a :: r, d, n)
      end
  end.
(** libsepol/src/optimize.c:404-442. *)
Fixpoint sweep_all (cs : list (list N)) (del : list N) (nel : N) : list (list N) * N :=
  match cs with
  | [] => ([], nel)
  | c :: cs' => let '(c', del', nel') := sweep c del nel in let '(r, n) := sweep_all cs' del' nel' in (c' :: r, n)
  end.

(** Result of policydb_optimize: failure, undefined behaviour, or the changed policy. *)
Inductive opt_res := OFail | OUB | OOk (P : opolicy).

(** libsepol/src/optimize.c:445-472 (policydb_optimize), 378-443 (optimize_cond_avtab). POLICYDB_VERSION_AVTAB is 20,
    POLICYDB_VERSION_PERMISSIVE is 23 (libsepol/include/sepol/policydb/policydb.h:747-750). *)
Definition policydb_optimize (P : opolicy) : opt_res :=
  if negb (op_kern P) then OFail
  else if (20 <=? op_vers P) && (op_vers P <=? 23) then OFail
  else match optimize_avtab P with
       | None => OUB
       | Some te =>
           match opt_conds P te (op_conds P) [] with
           | None => OUB
           | Some (cs, del) =>
               let '(cte, nel) := sweep_all (op_cte P) del (op_cnel P) in
               OOk (mkOP (op_kern P) (op_vers P) (op_types P) (op_tattr P) (op_attr P) te cte nel cs)
           end
       end.
