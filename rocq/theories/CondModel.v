(** Model of libsepol/src/conditional.c (conditional expressions and conditional rules), of the
    conditional-expression check of libsepol/src/policydb_validate.c, and of the part of
    libsepol/src/expand.c that copies a conditional node into the expanded policy.
    Undefined behaviour (a NULL or out of bounds access, a read of an indeterminate value) is [None].
    Allocation failures are not modelled. *)
From Verif Require Import Base AvtabModel.

(** libsepol/include/sepol/policydb/conditional.h:47-61 (cond_expr_t); the list is the [next] chain. *)
Record tok := mkT { t_type : N; t_bool : N }.
(** libsepol/include/sepol/policydb/conditional.h:48. *)
Definition COND_BOOL : N := 1.
(** libsepol/include/sepol/policydb/conditional.h:49. *)
Definition COND_NOT : N := 2.
(** libsepol/include/sepol/policydb/conditional.h:50. *)
Definition COND_OR : N := 3.
(** libsepol/include/sepol/policydb/conditional.h:51. *)
Definition COND_AND : N := 4.
(** libsepol/include/sepol/policydb/conditional.h:52. *)
Definition COND_XOR : N := 5.
(** libsepol/include/sepol/policydb/conditional.h:53. *)
Definition COND_EQ : N := 6.
(** libsepol/include/sepol/policydb/conditional.h:54. *)
Definition COND_NEQ : N := 7.
(** libsepol/include/sepol/policydb/conditional.h:33. *)
Definition COND_EXPR_MAXDEPTH : Z := 10%Z.
(** libsepol/include/sepol/policydb/conditional.h:41. *)
Definition COND_MAX_BOOLS : N := 5.

(** libsepol/include/sepol/policydb/policydb.h (bool_val_to_struct and cond_bool_datum_t.state): entry
    [i] is the state of the boolean with value [i+1]; [None] is a NULL pointer. *)
Definition bools := list (option Z).

(** The lvalue p->bool_val_to_struct[v - 1]->state read at libsepol/src/conditional.c:226. *)
Definition bool_state (bs : bools) (v : N) : option Z :=
  if (v =? 0) || (N.of_nat (length bs) <? v) then None
  else match nth_error bs (N.to_nat (v - 1)) with Some (Some s) => Some s | _ => None end.

(** The assignment p->bool_val_to_struct[v - 1]->state = s (libsepol/src/conditional.c:416-420). *)
Definition set_bool (bs : bools) (v : N) (s : Z) : option bools :=
  match bool_state bs v with
  | None => None
  | Some _ => Some (set_nth (N.to_nat (v - 1)) (Some s) bs)
  end.

(** Reading s[i] of the local array of libsepol/src/conditional.c:215; an unset element is
    indeterminate. *)
Definition rd (s : list (option Z)) (i : Z) : option Z :=
  if (i <? 0)%Z then None
  else match nth_error s (Z.to_nat i) with Some (Some v) => Some v | _ => None end.

(** Writing s[i]. *)
Definition wr (s : list (option Z)) (i : Z) (v : Z) : option (list (option Z)) :=
  if (i <? 0)%Z || (Z.of_nat (length s) <=? i)%Z then None
  else Some (set_nth (Z.to_nat i) (Some v) s).

(** C's int result of a comparison or of "!". *)
Definition b2z (b : bool) : Z := if b then 1%Z else 0%Z.

(** What one iteration of the loop of cond_evaluate_expr does: go on with the array and sp, or
    return. *)
Inductive estep := ENext (s : list (option Z)) (sp : Z) | ERet (r : Z).

(** libsepol/src/conditional.c:233-262: the binary operators, on the popped operand values. *)
Definition cond_binop (ty : N) (a b : Z) : option Z :=
  if ty =? COND_OR then Some (Z.lor a b)
  else if ty =? COND_AND then Some (Z.land a b)
  else if ty =? COND_XOR then Some (Z.lxor a b)
  else if ty =? COND_EQ then Some (b2z (a =? b)%Z)
  else if ty =? COND_NEQ then Some (b2z (negb (a =? b)%Z))
  else None.

(** libsepol/src/conditional.c:221-265 (one iteration of the loop). *)
Definition eval_step (bs : bools) (s : list (option Z)) (sp : Z) (t : tok) : option estep :=
  if t_type t =? COND_BOOL then
    if (sp =? COND_EXPR_MAXDEPTH - 1)%Z then Some (ERet (-1)%Z)
    else match bool_state bs (t_bool t) with
         | None => None
         | Some v => match wr s (sp + 1) v with
                     | None => None
                     | Some s' => Some (ENext s' (sp + 1)%Z)
                     end
         end
  else if t_type t =? COND_NOT then
    if (sp <? 0)%Z then Some (ERet (-1)%Z)
    else match rd s sp with
         | None => None
         | Some v => match wr s sp (b2z (v =? 0)%Z) with
                     | None => None
                     | Some s' => Some (ENext s' sp)
                     end
         end
  else if (COND_OR <=? t_type t) && (t_type t <=? COND_NEQ) then
    if (sp <? 1)%Z then Some (ERet (-1)%Z)
    else match rd s (sp - 1), rd s sp with
         | Some a, Some b =>
             match cond_binop (t_type t) a b with
             | None => None
             | Some v => match wr s (sp - 1) v with
                         | None => None
                         | Some s' => Some (ENext s' (sp - 1)%Z)
                         end
             end
         | _, _ => None
         end
  else Some (ERet (-1)%Z).

(** libsepol/src/conditional.c:220-267 (the loop and the final return of s[0]). *)
Fixpoint eval_loop (bs : bools) (s : list (option Z)) (sp : Z) (e : list tok) : option Z :=
  match e with
  | [] => rd s 0
  | t :: e' =>
      match eval_step bs s sp t with
      | None => None
      | Some (ERet r) => Some r
      | Some (ENext s' sp') => eval_loop bs s' sp' e'
      end
  end.

(** libsepol/src/conditional.c:211-268 (cond_evaluate_expr). *)
Definition cond_evaluate_expr (bs : bools) (e : list tok) : option Z :=
  eval_loop bs (Some (-1)%Z :: repeat None 9) (-1)%Z e.

(** libsepol/src/policydb_validate.c:1129-1160 (the loop of validate_cond_expr); [okb] is
    validate_value for booleans, [depth] the C variable. Also checkpolicy/policy_define.c:4056-4105
    (without the tunable bookkeeping) and libsepol/cil/src/cil_binary.c:2405-2436, which do not look at
    [t_bool] of operators. *)
Fixpoint validate_loop (okb : N -> bool) (depth : Z) (e : list tok) : bool :=
  match e with
  | [] => (depth =? 0)%Z
  | t :: e' =>
      if t_type t =? COND_BOOL then
        if negb (okb (t_bool t)) then false
        else if (COND_EXPR_MAXDEPTH - 1 <=? depth)%Z then false
        else validate_loop okb (depth + 1)%Z e'
      else if t_type t =? COND_NOT then
        if (depth <? 0)%Z then false
        else if negb (t_bool t =? 0) then false
        else validate_loop okb depth e'
      else if (COND_OR <=? t_type t) && (t_type t <=? COND_NEQ) then
        if (depth <? 1)%Z then false
        else if negb (t_bool t =? 0) then false
        else validate_loop okb (depth - 1)%Z e'
      else false
  end.

(** libsepol/src/policydb_validate.c:1122-1168 (validate_cond_expr; [true] is success). *)
Definition validate_cond_expr (okb : N -> bool) (e : list tok) : bool :=
  match e with [] => false | _ => validate_loop okb (-1)%Z e end.

(** libsepol/include/sepol/policydb/conditional.h:80-97 (cond_node_t, without next). The rule lists are
    kept abstract: [R] for the kernel lists (true_list / false_list), [V] for the module lists
    (avtrue_list / avfalse_list). [c_ids] holds the first min(nbools, 5) entries of bool_ids. *)
Record cnode (R V : Type) := mkC {
  c_state : Z; c_expr : list tok; c_true : R; c_false : R; c_avtrue : V; c_avfalse : V;
  c_nbools : N; c_ids : list N; c_pre : N; c_flags : N }.
Arguments mkC {R V} _ _ _ _ _ _ _ _ _ _.
Arguments c_state {R V} _. Arguments c_expr {R V} _. Arguments c_true {R V} _. Arguments c_false {R V} _.
Arguments c_avtrue {R V} _. Arguments c_avfalse {R V} _. Arguments c_nbools {R V} _.
Arguments c_ids {R V} _. Arguments c_pre {R V} _. Arguments c_flags {R V} _.

(** libsepol/src/conditional.c:62-76 (bool_present); the array is [ids]. *)
Definition bool_present (target : N) (ids : list N) (num : N) : bool :=
  if COND_MAX_BOOLS <? num then false else existsb (N.eqb target) (firstn (N.to_nat num) ids).

(** libsepol/src/conditional.c:78-93 (same_bools). *)
Definition same_bools {R V} (a b : cnode R V) : bool :=
  if negb (c_nbools a =? c_nbools b) then false
  else forallb (fun i => bool_present i (c_ids b) (c_nbools a)) (firstn (N.to_nat (c_nbools a)) (c_ids a)).

(** libsepol/src/conditional.c:119-133 (the comparison of long expressions). *)
Fixpoint same_tokens (a b : list tok) : bool :=
  match a, b with
  | [], [] => true
  | x :: a', y :: b' =>
      if negb (t_type x =? t_type y) then false
      else if (t_type x =? COND_BOOL) && negb (t_bool x =? t_bool y) then false
      else same_tokens a' b'
  | _, _ => false
  end.

(** libsepol/src/conditional.c:98-135 (cond_expr_equal, non-NULL arguments). *)
Definition cond_expr_equal {R V} (a b : cnode R V) : bool :=
  if negb (c_nbools a =? c_nbools b) then false
  else if (c_nbools a <=? COND_MAX_BOOLS) && (c_nbools b <=? COND_MAX_BOOLS) then
    if negb (same_bools a b) then false else c_pre a =? c_pre b
  else same_tokens (c_expr a) (c_expr b).

(** libsepol/src/conditional.c:142-168 (cond_node_create of a copy); [r], [v] are the NULL lists. *)
Definition cond_node_create {R V} (bs : bools) (r : R) (v : V) (n : cnode R V) : option (cnode R V) :=
  match cond_evaluate_expr bs (c_expr n) with
  | None => None
  | Some st => Some (mkC st (c_expr n) r r v v (c_nbools n) (c_ids n) (c_pre n) (c_flags n))
  end.

(** libsepol/src/conditional.c:175-190 (cond_node_find): the index of the node found in the haystack. *)
Fixpoint cond_find_from {R V} (needle : cnode R V) (l : list (cnode R V)) (i : nat) : option nat :=
  match l with
  | [] => None
  | c :: l' => if cond_expr_equal needle c then Some i else cond_find_from needle l' (S i)
  end.

(** libsepol/src/conditional.c:193-204 (cond_node_search): the new list and the index of the result. *)
Definition cond_node_search {R V} (bs : bools) (r : R) (v : V) (l : list (cnode R V)) (cn : cnode R V)
  : option (list (cnode R V) * nat) :=
  match cond_find_from cn l 0 with
  | Some i => Some (l, i)
  | None => match cond_node_create bs r v cn with
            | None => None
            | Some c => Some (c :: l, O)
            end
  end.

(** libsepol/src/conditional.c:357-382: look at the last element; strip an outer negation. [None] is an
    expression that is a lone "!" (error) or an empty one (undefined; never built). *)
Definition strip_not (e : list tok) : option (list tok * bool) :=
  match rev e with
  | [] => None
  | t :: r =>
      if t_type t =? COND_NOT then
        match r with [] => None | _ => Some (rev r, true) end
      else Some (e, false)
  end.

(** libsepol/src/conditional.c:384-402: collect the booleans. *)
Fixpoint collect (e : list tok) (ids : list N) (n : N) : list N * N :=
  match e with
  | [] => (ids, n)
  | t :: e' =>
      if t_type t =? COND_BOOL then
        if bool_present (t_bool t) ids n then collect e' ids n
        else if n <? COND_MAX_BOOLS then collect e' (ids ++ [t_bool t]) (n + 1)
        else collect e' ids (n + 1)
      else collect e' ids n
  end.

(** libsepol/src/conditional.c:416-420: set every boolean of the expression from the bits of [test],
    starting with bit [j]. *)
Fixpoint set_all (ids : list N) (j : N) (test : N) (bs : bools) : option bools :=
  match ids with
  | [] => Some bs
  | v :: ids' =>
      match set_bool bs v (b2z (N.testbit test j)) with
      | None => None
      | Some bs' => set_all ids' (j + 1) test bs'
      end
  end.

(** libsepol/src/conditional.c:412-430: the loop over [n] values of test starting at [test]. The result
    is the booleans and either the accumulated table or the error. *)
Fixpoint table_loop (n : nat) (test : N) (ids : list N) (e : list tok) (bs : bools) (pre : N)
  : option (bools * option N) :=
  match n with
  | O => Some (bs, Some pre)
  | S n' =>
      match set_all ids 0 test bs with
      | None => None
      | Some bs' =>
          match cond_evaluate_expr bs' e with
          | None => None
          | Some k =>
              if (k =? -1)%Z then Some (bs', None)
              else table_loop n' (test + 1) ids e bs'
                     (if (k =? 0)%Z then pre else N.lor pre (N.shiftl 1 test))
          end
      end
  end.

(** libsepol/src/conditional.c:406-410: save the values. *)
Fixpoint save_all (ids : list N) (bs : bools) : option (list Z) :=
  match ids with
  | [] => Some []
  | v :: ids' =>
      match bool_state bs v, save_all ids' bs with
      | Some s, Some l => Some (s :: l)
      | _, _ => None
      end
  end.

(** libsepol/src/conditional.c:432-435: restore the values. *)
Fixpoint restore_all (ids : list N) (vals : list Z) (bs : bools) : option bools :=
  match ids, vals with
  | v :: ids', s :: vals' =>
      match set_bool bs v s with None => None | Some bs' => restore_all ids' vals' bs' end
  | _, _ => Some bs
  end.

(** libsepol/src/conditional.c:344-438 (cond_normalize_expr). The result is the booleans, the node and
    the return code (0 or -1); on -1 the node returned is only meaningful up to the failing step, and the
    booleans keep the values of the failing test. *)
Definition cond_normalize_expr {R V} (bs : bools) (cn : cnode R V)
  : option (bools * cnode R V * Z) :=
  match c_expr cn with
  | [] => None
  | _ =>
      match strip_not (c_expr cn) with
      | None => Some (bs, cn, (-1)%Z)
      | Some (e, swap) =>
          let (ids, n) := collect e [] 0 in
          let node pre :=
            mkC (c_state cn) e
                (if swap then c_false cn else c_true cn) (if swap then c_true cn else c_false cn)
                (if swap then c_avfalse cn else c_avtrue cn) (if swap then c_avtrue cn else c_avfalse cn)
                n ids pre (c_flags cn) in
          if n <=? COND_MAX_BOOLS then
            match save_all ids bs with
            | None => None
            | Some vals =>
                match table_loop (N.to_nat (N.shiftl 1 n)) 0 ids e bs 0 with
                | None => None
                | Some (bs', None) => Some (bs', node 0, (-1)%Z)
                | Some (bs', Some pre) =>
                    match restore_all ids vals bs' with
                    | None => None
                    | Some bs'' => Some (bs'', node pre, 0%Z)
                    end
                end
            end
          else Some (bs, node 0, 0%Z)
      end
  end.

(** libsepol/src/expand.c:2024-2037 (cond_node_map_bools without the normalisation): every boolean is
    renumbered through boolmap; operators have boolean 0. [None]: an index outside the map. *)
Definition map_bool (boolmap : list N) (v : N) : option N :=
  if v =? 0 then Some 0 else nth_error boolmap (N.to_nat (v - 1)).
(** libsepol/src/expand.c:2029-2034. *)
Fixpoint map_expr (boolmap : list N) (e : list tok) : option (list tok) :=
  match e with
  | [] => Some []
  | t :: e' =>
      match map_bool boolmap (t_bool t), map_expr boolmap e' with
      | Some v, Some l => Some (mkT (t_type t) v :: l)
      | _, _ => None
      end
  end.

(** libsepol/src/expand.c:2050-2112 (cond_node_copy of one node that is not tunable): normalise the
    module's node, make a temporary copy, renumber and normalise the copy, find or create the node of the
    output policy, and append the module node's rules to its lists. [conv] stands for the expansion of
    the rules (convert_and_expand_rule), the kernel lists are lists. The result is the new cond_list. *)
Definition cond_node_copy {V W : Type} (conv : V -> list W) (base out : bools) (boolmap : list N) (nov : V)
    (l : list (cnode (list W) V)) (cn : cnode (list W) V) : option (list (cnode (list W) V)) :=
  match cond_normalize_expr base cn with
  | Some (base', cn', 0%Z) =>
      match cond_node_create base' [] nov cn' with
      | None => None
      | Some tmp =>
          match map_expr boolmap (c_expr tmp) with
          | None => None
          | Some e' =>
              match cond_normalize_expr out
                      (mkC (c_state tmp) e' (c_true tmp) (c_false tmp) (c_avtrue tmp) (c_avfalse tmp)
                           (c_nbools tmp) (c_ids tmp) (c_pre tmp) (c_flags tmp)) with
              | Some (out', tmp', 0%Z) =>
                  match cond_node_search out' [] nov l tmp' with
                  | None => None
                  | Some (l', i) =>
                      match nth_error l' i with
                      | None => None
                      | Some nc =>
                          Some (set_nth i
                            (mkC (c_state nc) (c_expr nc) (c_true nc ++ conv (c_avtrue cn'))
                                 (c_false nc ++ conv (c_avfalse cn')) (c_avtrue nc) (c_avfalse nc)
                                 (c_nbools nc) (c_ids nc) (c_pre nc) (c_flags nc)) l')
                      end
                  end
              | _ => None
              end
          end
      end
  | _ => None
  end.

(** libsepol/src/conditional.c:31-49 (cond_optimize): [done] is the list from top up to p. *)
Fixpoint cond_optimize_loop (is_type : anode -> bool) (done rest : list anode) : list anode :=
  match rest with
  | [] => done
  | cur :: rest' =>
      match done with
      | [] => cond_optimize_loop is_type [cur] rest'
      | _ => if is_type cur then cond_optimize_loop is_type (cur :: done) rest'
             else cond_optimize_loop is_type (done ++ [cur]) rest'
      end
  end.
(** libsepol/src/conditional.c:31-49 (cond_optimize). *)
Definition cond_optimize (l : list anode) : list anode :=
  cond_optimize_loop (fun n => negb (N.land (k_spec (n_key n)) AVTAB_TYPE =? 0)) [] l.

(** A pointer to a node of the conditional table: slot and position in the chain. *)
Definition nptr := (nat * nat)%type.

(** The node's key.specified with the enabled flag set or cleared (libsepol/src/conditional.c:322-333). *)
Definition with_enabled (on : bool) (n : anode) : anode :=
  let k := n_key n in
  mkNode (mkK (k_src k) (k_tgt k) (k_cls k)
              (if on then N.lor (k_spec k) AVTAB_ENABLED else N.ldiff (k_spec k) AVTAB_ENABLED))
         (n_datum n).

(** Apply [f] to element [i]. *)
Definition upd_nth {A} (i : nat) (f : A -> A) (l : list A) : list A :=
  match nth_error l i with Some x => set_nth i (f x) l | None => l end.

(** cur->node->key.specified |= / &= ... through the pointer. *)
Definition upd_node (p : nptr) (f : anode -> anode) (ht : list (list anode)) : list (list anode) :=
  upd_nth (fst p) (upd_nth (snd p) f) ht.

(** A conditional whose rule lists are lists of pointers into the conditional table. *)
Definition knode := cnode (list nptr) unit.

(** libsepol/src/conditional.c:320-335: switch a list of rules on or off. *)
Definition switch_all (on : bool) (ps : list nptr) (ht : list (list anode)) : list (list anode) :=
  fold_left (fun h p => upd_node p (with_enabled on) h) ps ht.

(** libsepol/src/conditional.c:309-338 (evaluate_cond_node). *)
Definition evaluate_cond_node (bs : bools) (ht : list (list anode)) (n : knode)
  : option (list (list anode) * knode) :=
  match cond_evaluate_expr bs (c_expr n) with
  | None => None
  | Some st =>
      if (st =? c_state n)%Z then Some (ht, n)
      else
        let ht := switch_all (negb (st <=? 0)%Z) (c_true n) ht in
        let ht := switch_all (st =? 0)%Z (c_false n) ht in
        Some (ht, mkC st (c_expr n) (c_true n) (c_false n) (c_avtrue n) (c_avfalse n)
                      (c_nbools n) (c_ids n) (c_pre n) (c_flags n))
  end.

(** libsepol/src/conditional.c:440-451 (evaluate_conds). *)
Fixpoint evaluate_conds (bs : bools) (ht : list (list anode)) (l : list knode)
  : option (list (list anode) * list knode) :=
  match l with
  | [] => Some (ht, [])
  | n :: l' =>
      match evaluate_cond_node bs ht n with
      | None => None
      | Some (ht', n') =>
          match evaluate_conds bs ht' l' with
          | None => None
          | Some (ht'', l'') => Some (ht'', n' :: l'')
          end
      end
  end.

(** libsepol/src/booleans.c:14-104 (sepol_bool_set): [v] is the value of the boolean found by name ([0]:
    no such boolean). A refused request changes nothing. *)
Definition sepol_bool_set (bs : bools) (ht : list (list anode)) (l : list knode) (v : N) (value : Z)
  : option (bools * list (list anode) * list knode) :=
  match bool_state bs v with
  | None => Some (bs, ht, l)
  | Some _ =>
      if negb ((value =? 0)%Z || (value =? 1)%Z) then Some (bs, ht, l)
      else match set_bool bs v value with
           | None => None
           | Some bs' =>
               match evaluate_conds bs' ht l with
               | None => None
               | Some (ht', l') => Some (bs', ht', l')
               end
           end
  end.

(** Accumulated access vectors (struct sepol_av_decision, libsepol/include/sepol/policydb/flask_types.h
    and sepol/policydb/services.h); [decided] and [seqno] are not computed from rules. *)
Record avd := mkAvd { v_allowed : N; v_auditallow : N; v_auditdeny : N }.

(** libsepol/src/conditional.c:870-885: one node of the conditional table. *)
Definition cond_add (d : avd) (n : anode) : avd :=
  let s := k_spec (n_key n) in
  let has f := N.land s (N.lor f AVTAB_ENABLED) =? N.lor f AVTAB_ENABLED in
  mkAvd (if has AVTAB_ALLOWED then N.lor (v_allowed d) (d_data (n_datum n)) else v_allowed d)
        (if has AVTAB_AUDITALLOW then N.lor (v_auditallow d) (d_data (n_datum n)) else v_auditallow d)
        (if has AVTAB_AUDITDENY then N.land (v_auditdeny d) (d_data (n_datum n)) else v_auditdeny d).

(** libsepol/src/conditional.c:861-888 (cond_compute_av). *)
Definition cond_compute_av (ctab : avtab) (k : akey) (d : avd) : avd :=
  fold_left cond_add (avtab_nodes_for ctab k) d.
