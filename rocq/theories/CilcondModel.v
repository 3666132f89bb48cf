(** Model of the conditions of CIL: how a tunableif is decided while names are resolved
    (libsepol/cil/src/cil_resolve_ast.c), and how a booleanif becomes a conditional node of the policy
    (libsepol/cil/src/cil_binary.c).  The checks of the syntax and the resolving of names are those of
    CilexprModel; the conditional nodes of the policy are those of CondModel.
    The statements in a block are a list: for tunableif the statements as copied, for booleanif the rules
    they give, each of which is taken to be added (the checks of the access vector table are not modelled).
    The option preserve_tunables, which makes every tunableif a booleanif, is not modelled. *)
From Verif Require Import Base AvtabModel CondModel CilexprModel.

(** The lists after the condition of a tunableif or booleanif: "(true ...)" is [Some true], "(false ...)"
    is [Some false], any other list is [None]; and the statements in it. *)
Definition block (S : Type) : Type := (option bool * list S)%type.

(** The syntax tables of libsepol/cil/src/cil_build_ast.c:2926-2932 and 2994-3000: one or two lists follow
    the condition; then libsepol/cil/src/cil_verify.c:366-398 (cil_verify_conditional_blocks). *)
Definition verify_blocks {S} (bl : list (block S)) : bool :=
  match bl with
  | [(Some _, _)] => true
  | [(Some a, _); (Some b, _)] => if a then negb b else b
  | _ => false
  end.

(** libsepol/cil/src/cil_resolve_ast.c:3260-3273 (__cil_evaluate_tunable_expr_helper) and 3275-3305
    (__cil_evaluate_tunable_expr, the list case); [tv] is tun->value of a symbol.  A uint16_t that is only
    ever 0 or 1 is a bool. *)
Fixpoint tunable_item (tv : N -> bool) (i : item) {struct i} : bool :=
  match i with
  | IDatum x => tv x
  | IList l =>
      let fix any (l : list item) : bool :=
        match l with [] => false | x :: l' => if tunable_item tv x then true else any l' end in
      match l with
      | [] => false
      | IOp k :: rest =>
          let v1 := match rest with i1 :: _ => tunable_item tv i1 | [] => false end in
          let v2 := match rest with _ :: i2 :: _ => tunable_item tv i2 | _ => false end in
          match k with
          | KNot => negb v1
          | KAnd => v1 && v2
          | KOr => v1 || v2
          | KXor => xorb v1 v2
          | KEq => Bool.eqb v1 v2
          | KNeq => negb (Bool.eqb v1 v2)
          | _ => false
          end
      | _ => any l
      end
  | _ => false
  end.

(** libsepol/cil/src/cil_resolve_ast.c:3319-3337: the loop-free search of the first two children for the
    block of one flavor; the later one wins. *)
Definition pick_two {S} (fl : bool) (bl : list (block S)) : list S :=
  let is b := match fst b with Some x => Bool.eqb x fl | None => false end in
  match bl with
  | [] => []
  | [b1] => if is b1 then snd b1 else []
  | b1 :: b2 :: _ => if is b2 then snd b2 else if is b1 then snd b1 else []
  end.

(** libsepol/cil/src/cil_build_ast.c:2991-3039 (cil_gen_tunif) followed by cil_resolve_ast.c:3307-3363
    (cil_resolve_tunif): the statements copied to the parent of the tunableif. *)
Definition tunableif {S} (tb : table) (tv : N -> bool) (t : tree) (bl : list (block S)) : option (list S) :=
  match gen_expr FTunable t with
  | None => None
  | Some s =>
      if verify_blocks bl then
        match resolve_expr tb s with
        | None => None
        | Some e => Some (if tunable_item tv (IList e) then pick_two true bl else pick_two false bl)
        end
      else None
  end.

(** The switch of libsepol/cil/src/cil_binary.c:2307-2329. *)
Definition cond_op (k : keyword) : option N :=
  match k with
  | KNot => Some COND_NOT
  | KOr => Some COND_OR
  | KAnd => Some COND_AND
  | KXor => Some COND_XOR
  | KEq => Some COND_EQ
  | KNeq => Some COND_NEQ
  | _ => None
  end.

(** hashtab_search(pdb->p_bools.table, key) at libsepol/cil/src/cil_binary.c:2259 and s.value: policy
    booleans are numbered from 1 in the order of the CIL booleans (cil_binary.c:775-802, cil_bool_to_policydb). *)
Definition bool_value (tb : table) (x : N) : option N :=
  match tb x with Some (DLeaf v) => Some (v + 1) | _ => None end.

(** libsepol/cil/src/cil_binary.c:2254-2283 (__cil_cond_item_to_sepol_expr) and 2285-2384
    (__cil_cond_expr_to_sepol_expr_helper, the list case). *)
Fixpoint cond_item (tb : table) (i : item) {struct i} : option (list tok) :=
  match i with
  | IDatum x => match bool_value tb x with None => None | Some v => Some [mkT COND_BOOL v] end
  | IList l =>
      let fix join (acc : list tok) (l : list item) : option (list tok) :=
        match l with
        | [] => Some acc
        | x :: l' =>
            match cond_item tb x with
            | None => None
            | Some h2 => join (acc ++ h2 ++ [mkT COND_OR 0]) l'
            end
        end in
      match l with
      | [] => None
      | IOp k :: rest =>
          match cond_op k with
          | None => None
          | Some o =>
              match rest with
              | [] => None
              | i1 :: rest' =>
                  match cond_item tb i1 with
                  | None => None
                  | Some h1 =>
                      match k with
                      | KNot => Some (h1 ++ [mkT o 0])
                      | _ =>
                          match rest' with
                          | [] => None
                          | i2 :: _ =>
                              match cond_item tb i2 with
                              | None => None
                              | Some h2 => Some (h1 ++ h2 ++ [mkT o 0])
                              end
                          end
                      end
                  end
              end
          end
      | x :: l' => match cond_item tb x with None => None | Some h1 => join h1 l' end
      end
  | _ => None
  end.

(** libsepol/cil/src/cil_binary.c:2403-2438: the loop of __cil_validate_cond_expr, with depth. *)
Fixpoint validate_from (depth : Z) (e : list tok) : bool :=
  match e with
  | [] => (depth =? 0)%Z
  | t :: e' =>
      if t_type t =? COND_BOOL then
        if (depth =? COND_EXPR_MAXDEPTH - 1)%Z then false else validate_from (depth + 1) e'
      else if t_type t =? COND_NOT then
        if (depth <? 0)%Z then false else validate_from depth e'
      else if (t_type t =? COND_OR) || (t_type t =? COND_AND) || (t_type t =? COND_XOR)
              || (t_type t =? COND_EQ) || (t_type t =? COND_NEQ) then
        if (depth <? 1)%Z then false else validate_from (depth - 1) e'
      else false
  end.

(** The condition of a booleanif, from its parse tree to the checked expression of the policy:
    libsepol/cil/src/cil_build_ast.c:2947-2950, cil_resolve_ast.c:3242-3256 (cil_resolve_boolif) and
    cil_binary.c:2468-2477. *)
Definition condition_expr (tb : table) (t : tree) : option (list tok) :=
  match gen_expr FBool t with
  | None => None
  | Some s =>
      match resolve_expr tb s with
      | None => None
      | Some e =>
          match cond_item tb (IList e) with
          | None => None
          | Some l => if validate_from (-1) l then Some l else None
          end
      end
  end.

(** libsepol/cil/src/cil_binary.c:2507-2516: the loop over the children for the block of one flavor. *)
Definition pick_last {S} (fl : bool) (bl : list (block S)) : list S :=
  fold_left (fun acc b => match fst b with
                          | Some x => if Bool.eqb x fl then snd b else acc
                          | None => acc
                          end) bl [].

(** libsepol/cil/src/cil_binary.c:2446-2630 (cil_booleanif_to_policydb): [bs] is pdb->bool_val_to_struct, [l]
    is pdb->cond_list.  During the normalising, true_list is a mark and false_list NULL, so that an exchange
    of the two is seen. *)
Definition booleanif {W} (tb : table) (bs : bools) (t : tree) (bl : list (block W))
    (l : list (cnode (list W) unit)) : option (list (cnode (list W) unit)) :=
  if verify_blocks bl then
    match condition_expr tb t with
    | None => None
    | Some e =>
        match cond_normalize_expr bs (mkC 0%Z e true false tt tt 0 [] 0 0) with
        | Some (bs', tmp, 0%Z) =>
            let swapped := c_false tmp in
            match cond_node_search bs' [] tt l
                    (mkC (c_state tmp) (c_expr tmp) [] [] tt tt (c_nbools tmp) (c_ids tmp) (c_pre tmp) (c_flags tmp)) with
            | None => None
            | Some (l', i) =>
                match nth_error l' i with
                | None => None
                | Some nc =>
                    let tn := if swapped then pick_last false bl else pick_last true bl in
                    let fn := if swapped then pick_last true bl else pick_last false bl in
                    Some (set_nth i
                      (mkC (c_state nc) (c_expr nc) (c_true nc ++ tn) (c_false nc ++ fn) tt tt
                           (c_nbools nc) (c_ids nc) (c_pre nc) (c_flags nc)) l')
                end
            end
        | _ => None
        end
    end
  else None.

(** libsepol/cil/src/cil_binary.c:4184-4186 (__cil_node_to_policydb, reached from the walk over the statements): every booleanif in turn. *)
Fixpoint booleanifs {W} (tb : table) (bs : bools) (cs : list (tree * list (block W)))
    (l : list (cnode (list W) unit)) : option (list (cnode (list W) unit)) :=
  match cs with
  | [] => Some l
  | (t, bl) :: cs' => match booleanif tb bs t bl l with None => None | Some l' => booleanifs tb bs cs' l' end
  end.
