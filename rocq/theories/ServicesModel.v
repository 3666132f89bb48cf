(** Model of the access decision in libsepol/src/services.c: constraint evaluation,
    context_struct_compute_av, type_attribute_bounds_av and validate-transition. The text buffers built to
    explain a decision are not modelled, except for the release loop of the error path, which reads
    uninitialised memory. *)
From Verif Require Import Base EbitmapModel MlsModel AvtabModel CondModel.

(** libsepol/include/sepol/policydb/constraint.h:32-67 (constraint_expr_t; type_names is used only for the
    explanation text). *)
Record cexpr := mkCE { ce_type : N; ce_attr : N; ce_op : N; ce_names : ebitmap }.

(** libsepol/include/sepol/policydb/constraint.h:32-35. *)
Definition CEXPR_NOT : N := 1.
(** libsepol/include/sepol/policydb/constraint.h:33. *)
Definition CEXPR_AND : N := 2.
(** libsepol/include/sepol/policydb/constraint.h:34. *)
Definition CEXPR_OR : N := 3.
(** libsepol/include/sepol/policydb/constraint.h:35. *)
Definition CEXPR_ATTR : N := 4.
(** libsepol/include/sepol/policydb/constraint.h:36. *)
Definition CEXPR_NAMES : N := 5.
(** libsepol/include/sepol/policydb/constraint.h:27 (CEXPR_MAXDEPTH). *)
Definition CEXPR_MAXDEPTH : nat := 5.

(** libsepol/include/sepol/policydb/constraint.h:69-73 (constraint_node_t without next). *)
Record cnstr := mkCN { cn_perms : N; cn_expr : list cexpr }.

(** The parts of policydb_t used by the decision (libsepol/include/sepol/policydb/policydb.h). Arrays
    indexed by value - 1 are functions of the value; [sv_dom] is the dominates set of a role
    (role_val_to_struct, [None] when the entry is missing), [sv_bounds] the bounds field of a type, 0 when
    it has none. *)
Record spolicy := mkSP {
  sv_te : avtab;
  sv_cond : avtab;
  sv_attr : N -> ebitmap;
  sv_nclasses : N;
  sv_cons : N -> list cnstr;
  sv_vtrans : N -> list cnstr;
  sv_dom : N -> option ebitmap;
  sv_role_allow : list (N * N);
  sv_process : N;
  sv_trans_dyntrans : N;
  sv_bounds : N -> N
}.

(** Outcome of one operand: a value, a malformed operand ("BUG(); goto out" or the operand switch falling
    out), or undefined behaviour (NULL role). *)
Inductive leaf_res := LVal (b : bool) | LBad | LUB.

(** val - 1 on a uint32_t. *)
Definition pred32 (v : N) : N := wrap32 (v + 4294967295).

(** libsepol/src/services.c:594-621 (mls_ops: the operators on two levels). *)
Definition mls_op (op : N) (l1 l2 : level) : leaf_res :=
  if op =? 1 then LVal (mls_level_eq l1 l2)
  else if op =? 2 then LVal (negb (mls_level_eq l1 l2))
  else if op =? 3 then LVal (mls_level_dom l1 l2)
  else if op =? 4 then LVal (mls_level_dom l2 l1)
  else if op =? 5 then LVal (mls_level_incomp l2 l1)
  else LBad.

(** libsepol/src/services.c:627-639 (== and != on two values). *)
Definition val_op (op : N) (v1 v2 : N) : leaf_res :=
  if op =? 1 then LVal (v1 =? v2)
  else if op =? 2 then LVal (negb (v1 =? v2))
  else LBad.

(** libsepol/src/services.c:526-551 (roles: the three dominance operators read the role structures). *)
Definition role_op (P : spolicy) (op : N) (v1 v2 : N) : leaf_res :=
  if op =? 3 then
    match sv_dom P v1 with Some d => LVal (ebitmap_get_bit d (pred32 v2)) | None => LUB end
  else if op =? 4 then
    match sv_dom P v2 with Some d => LVal (ebitmap_get_bit d (pred32 v1)) | None => LUB end
  else if op =? 5 then
    match sv_dom P v1 with
    | None => LUB
    | Some d1 =>
        if ebitmap_get_bit d1 (pred32 v2) then LVal false
        else match sv_dom P v2 with
             | None => LUB
             | Some d2 => LVal (negb (ebitmap_get_bit d2 (pred32 v1)))
             end
    end
  else val_op op v1 v2.

(** libsepol/src/services.c:507-640 (CEXPR_ATTR). *)
Definition attr_leaf (P : spolicy) (s t : context) (e : cexpr) : leaf_res :=
  let a := ce_attr e in
  let lo c := r_low (c_range c) in let hi c := r_high (c_range c) in
  if a =? 1 then val_op (ce_op e) (c_user s) (c_user t)
  else if a =? 4 then val_op (ce_op e) (c_type s) (c_type t)
  else if a =? 2 then role_op P (ce_op e) (c_role s) (c_role t)
  else if a =? 32 then mls_op (ce_op e) (lo s) (lo t)
  else if a =? 64 then mls_op (ce_op e) (lo s) (hi t)
  else if a =? 128 then mls_op (ce_op e) (hi s) (lo t)
  else if a =? 256 then mls_op (ce_op e) (hi s) (hi t)
  else if a =? 512 then mls_op (ce_op e) (lo s) (hi s)
  else if a =? 1024 then mls_op (ce_op e) (lo t) (hi t)
  else LBad.

(** A bit of a flag word is set (e->attr & FLAG). *)
Definition flag (a f : N) : bool := negb (N.land a f =? 0).

(** libsepol/src/services.c:641-692 (CEXPR_NAMES); [x] is xcontext, [None] for NULL. *)
Definition names_leaf (s t : context) (x : option context) (e : cexpr) : leaf_res :=
  let a := ce_attr e in
  let c := if flag a 8 then Some t else if flag a 16 then x else Some s in
  match c with
  | None => LBad
  | Some c =>
      let v := if flag a 1 then Some (c_user c) else if flag a 2 then Some (c_role c)
               else if flag a 4 then Some (c_type c) else None in
      match v with
      | None => LBad
      | Some v =>
          if ce_op e =? 1 then LVal (ebitmap_get_bit (ce_names e) (pred32 v))
          else if ce_op e =? 2 then LVal (negb (ebitmap_get_bit (ce_names e) (pred32 v)))
          else LBad
      end
  end.

(** Outcome of constraint_expr_eval_reason: rc = 0 or 1, a negative rc, undefined behaviour. *)
Inductive ceval := CVal (b : bool) | CNeg | CUB.

(** libsepol/src/services.c:825-838 (out: the buffers are released up to the first NULL entry; the array
    comes from reallocarray without initialisation, so unless no expression was processed the loop reads
    uninitialised entries). [first] tells that expr_counter is 0. *)
Definition leave (first : bool) (rc : ceval) : ceval := if first then rc else CUB.

(** libsepol/src/services.c:436-697 (the loop over the expression) and 813-815 (rc = s[0]). The stack s of
    CEXPR_MAXDEPTH ints with index sp is a list, top first; the code's tests on sp keep every access inside
    the array, an empty stack at the end leaves s[0] = 0. *)
Fixpoint ceval_loop (P : spolicy) (s t : context) (x : option context) (l : list cexpr) (first : bool)
    (st : list bool) : ceval :=
  match l with
  | [] => CVal (last st false)
  | e :: l' =>
      if ce_type e =? CEXPR_NOT then
        match st with
        | [] => leave first CNeg
        | a :: r => ceval_loop P s t x l' false (negb a :: r)
        end
      else if ce_type e =? CEXPR_AND then
        match st with
        | b :: a :: r => ceval_loop P s t x l' false ((a && b) :: r)
        | _ => leave first CNeg
        end
      else if ce_type e =? CEXPR_OR then
        match st with
        | b :: a :: r => ceval_loop P s t x l' false ((a || b) :: r)
        | _ => leave first CNeg
        end
      else if (ce_type e =? CEXPR_ATTR) || (ce_type e =? CEXPR_NAMES) then
        if Nat.eqb (length st) CEXPR_MAXDEPTH then leave first (CVal false)
        else
          match (if ce_type e =? CEXPR_ATTR then attr_leaf P s t e else names_leaf s t x e) with
          | LVal b => ceval_loop P s t x l' false (b :: st)
          | LBad => leave first (CVal false)
          | LUB => CUB
          end
      else leave first (CVal false)
  end.

(** libsepol/src/services.c:386-839 (constraint_expr_eval_reason). *)
Definition constraint_expr_eval (P : spolicy) (s t : context) (x : option context) (l : list cexpr) : ceval :=
  ceval_loop P s t x l true [].

(** libsepol/src/services.c:978-988 (the constraint loop: "!rc" keeps the permissions for any non-zero rc,
    also a negative one). [None] is undefined behaviour. *)
Fixpoint constrain (P : spolicy) (s t : context) (l : list cnstr) (allowed : N) : option N :=
  match l with
  | [] => Some allowed
  | c :: l' =>
      if negb (N.land (cn_perms c) allowed =? 0) then
        match constraint_expr_eval P s t None (cn_expr c) with
        | CUB => None
        | CVal false => constrain P s t l' (N.ldiff allowed (cn_perms c))
        | _ => constrain P s t l' allowed
        end
      else constrain P s t l' allowed
  end.

(** libsepol/src/services.c:952-960 (one node of the unconditional table). *)
Definition te_add (d : avd) (n : anode) : avd :=
  let s := k_spec (n_key n) in
  if s =? AVTAB_ALLOWED then mkAvd (N.lor (v_allowed d) (d_data (n_datum n))) (v_auditallow d) (v_auditdeny d)
  else if s =? AVTAB_AUDITALLOW then
    mkAvd (v_allowed d) (N.lor (v_auditallow d) (d_data (n_datum n))) (v_auditdeny d)
  else if s =? AVTAB_AUDITDENY then
    mkAvd (v_allowed d) (v_auditallow d) (N.land (v_auditdeny d) (d_data (n_datum n)))
  else d.

(** libsepol/src/services.c:946-964 (one pair of attributes; the key fields are uint16_t). *)
Definition te_pair (P : spolicy) (cls i j : N) (d : avd) : avd :=
  let k := mkK ((i + 1) mod 65536) ((j + 1) mod 65536) (cls mod 65536) AVTAB_AV in
  cond_compute_av (sv_cond P) k (fold_left te_add (avtab_nodes_for (sv_te P) k) d).

(** libsepol/src/services.c:930-967 (the double loop over the attribute maps). [None] when the iteration of
    a bitmap does not end. *)
Definition te_compute (P : spolicy) (st tt cls : N) : option avd :=
  match positive_bits (sv_attr P st), positive_bits (sv_attr P tt) with
  | Some ls, Some lt =>
      Some (fold_left (fun d i => fold_left (fun d j => te_pair P cls i j d) lt d) ls (mkAvd 0 0 4294967295))
  | _, _ => None
  end.

(** Result of context_struct_compute_av: -EINVAL, success with the vectors and the reason bits, undefined
    behaviour, or no result within the given nesting of bounds. *)
Inductive av_res := AvEinval | AvOk (d : avd) (reason : N) | AvUB | AvLoop.

(** requested & ~allowed is non-zero. *)
Definition lacks (requested allowed : N) : bool := negb (N.ldiff requested allowed =? 0).

(** libsepol/src/services.c:1001-1013 (role change on process transitions). *)
Definition role_check (P : spolicy) (s t : context) (cls allowed : N) : N :=
  if (cls =? sv_process P) && negb (N.land allowed (sv_trans_dyntrans P) =? 0) && negb (c_role s =? c_role t)
     && negb (existsb (fun ra => (c_role s =? fst ra) && (c_role t =? snd ra)) (sv_role_allow P))
  then N.ldiff allowed (sv_trans_dyntrans P) else allowed.

(** A context with another type (memcpy and assignment of the type, libsepol/src/services.c:872-879). *)
Definition with_type (c : context) (ty : N) : context := MlsModel.mkC (c_user c) (c_role c) ty (c_range c).

(** libsepol/src/services.c:907-1027 (context_struct_compute_av) with 851-901 (type_attribute_bounds_av)
    inlined at its end. The recursion is the one of the C code; [fuel] bounds its depth. *)
Fixpoint compute_av (fuel : nat) (P : spolicy) (s t : context) (cls requested : N) : av_res :=
  match fuel with
  | O => AvLoop
  | S f =>
      if (cls =? 0) || (sv_nclasses P <? cls) then AvEinval
      else
        match te_compute P (c_type s) (c_type t) cls with
        | None => AvLoop
        | Some d =>
            let a0 := v_allowed d in
            let reason := if lacks requested a0 then 1 else 0 in
            let requested := N.land requested a0 in
            match constrain P s t (sv_cons P cls) a0 with
            | None => AvUB
            | Some a1 =>
                let reason := if lacks requested a1 then N.lor reason 2 else reason in
                let requested := N.land requested a1 in
                let a2 := role_check P s t cls a1 in
                let reason := if lacks requested a2 then N.lor reason 4 else reason in
                let requested := N.land requested a2 in
                let bs := sv_bounds P (c_type s) in
                if bs =? 0 then AvOk (mkAvd a2 (v_auditallow d) (v_auditdeny d)) reason
                else
                  let bt := sv_bounds P (c_type t) in
                  let t' := if bt =? 0 then t else with_type t bt in
                  match compute_av f P (with_type s bs) t' cls requested with
                  | AvOk lo _ =>
                      let masked := N.ldiff a2 (v_allowed lo) in
                      AvOk (mkAvd (N.ldiff a2 masked) (v_auditallow d) (v_auditdeny d))
                           (if masked =? 0 then reason else N.lor reason 8)
                  | AvEinval =>
                      (* the return value is ignored and lo_avd is all zero *)
                      AvOk (mkAvd (N.ldiff a2 a2) (v_auditallow d) (v_auditdeny d))
                           (if a2 =? 0 then reason else N.lor reason 8)
                  | r => r
                  end
            end
        end
  end.

(** Result of sepol_validate_transition_reason_buffer. *)
Inductive vt_res := VtOk | VtEperm | VtEinval | VtUB.

(** libsepol/src/services.c:1078-1086 (the loop over the validatetrans rules). *)
Fixpoint vtrans_loop (P : spolicy) (o n t : context) (l : list cnstr) : vt_res :=
  match l with
  | [] => VtOk
  | c :: l' =>
      match constraint_expr_eval P o n (Some t) (cn_expr c) with
      | CUB => VtUB
      | CVal false => VtEperm
      | _ => vtrans_loop P o n t l'
      end
  end.

(** libsepol/src/services.c:1033-1089 (sepol_validate_transition_reason_buffer on contexts; looking the
    SIDs up is modelled elsewhere). *)
Definition validate_transition (P : spolicy) (o n t : context) (cls : N) : vt_res :=
  if (cls =? 0) || (sv_nclasses P <? cls) then VtEinval else vtrans_loop P o n t (sv_vtrans P cls).

(** libsepol/src/policydb.c:2191-2250 (read_cons_helper: the depth test made while reading one
    expression); depth -1 is [0] here. *)
Fixpoint read_cons_depth (xt : bool) (l : list cexpr) (depth : nat) : bool :=
  match l with
  | [] => Nat.eqb depth 1
  | e :: l' =>
      if ce_type e =? CEXPR_NOT then
        if Nat.ltb depth 1 then false else read_cons_depth xt l' depth
      else if (ce_type e =? CEXPR_AND) || (ce_type e =? CEXPR_OR) then
        if Nat.ltb depth 2 then false else read_cons_depth xt l' (pred depth)
      else if ce_type e =? CEXPR_ATTR then
        if Nat.eqb depth CEXPR_MAXDEPTH then false else read_cons_depth xt l' (S depth)
      else if ce_type e =? CEXPR_NAMES then
        if negb xt && flag (ce_attr e) 16 then false
        else if Nat.eqb depth CEXPR_MAXDEPTH then false else read_cons_depth xt l' (S depth)
      else false
  end.

(** libsepol/src/policydb_validate.c:261-346 (validate_constraint_nodes: operators and attributes of an
    operand; the checks of names and type sets against the symbol tables are not modelled). *)
Definition validate_leaf (xt : bool) (e : cexpr) : bool :=
  let a := ce_attr e in
  if ce_type e =? CEXPR_NAMES then
    negb (flag a 16 && negb xt) &&
    ((ce_op e =? 1) || (ce_op e =? 2)) &&
    existsb (N.eqb a) [1; 9; 17; 2; 10; 18; 4; 12; 20]
  else
    ebitmap_is_empty (ce_names e) &&
    ((ce_op e =? 1) || (ce_op e =? 2) ||
     (((ce_op e =? 3) || (ce_op e =? 4) || (ce_op e =? 5)) && negb (flag a 1 || flag a 4))) &&
    existsb (N.eqb a) [1; 2; 4; 32; 64; 128; 256; 512; 1024].

(** libsepol/src/policydb_validate.c:258-371 (validate_constraint_nodes on one expression); depth -1 is
    [0] here. *)
Fixpoint validate_cexprs (xt : bool) (l : list cexpr) (depth : nat) : bool :=
  match l with
  | [] => Nat.eqb depth 1
  | e :: l' =>
      if (ce_type e =? CEXPR_NAMES) || (ce_type e =? CEXPR_ATTR) then
        if Nat.leb CEXPR_MAXDEPTH depth then false
        else validate_leaf xt e && validate_cexprs xt l' (S depth)
      else
        (if ce_type e =? CEXPR_NOT then negb (Nat.ltb depth 1)
         else if (ce_type e =? CEXPR_AND) || (ce_type e =? CEXPR_OR) then negb (Nat.ltb depth 2)
         else false) &&
        ((ce_op e =? 0) && (ce_attr e =? 0) && ebitmap_is_empty (ce_names e)) &&
        validate_cexprs xt l' (if ce_type e =? CEXPR_NOT then depth else pred depth)
  end.

(** libsepol/src/policydb_validate.c:255-256 (an empty expression is refused). *)
Definition validate_cexpr (xt : bool) (l : list cexpr) : bool :=
  match l with [] => false | _ => validate_cexprs xt l 0 end.
