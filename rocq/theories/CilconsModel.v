(** Model of CIL constraint statements (constrain, mlsconstrain, validatetrans, mlsvalidatetrans): from the parse
    tree of an expression (CilparseModel) to the constraint records of the policy (ServicesModel).  Failures to
    allocate are not modelled; neither is the field type_names, which only serves to explain decisions. *)
From Coq Require Import String Ascii.
From Verif Require Import Base EbitmapModel ServicesModel CilparseModel.
Local Open Scope N_scope.
Local Open Scope list_scope.

(** The bytes of a string literal of the C code. *)
Definition lit (s : string) : list N := map N_of_ascii (list_ascii_of_string s).

(** The operators of libsepol/cil/src/cil_build_ast.c:2740-2751. *)
Inductive cop := ONot | OAnd | OOr | OEq | ONeq | ODom | ODomby | OIncomp.

(** The operands of libsepol/cil/src/cil_build_ast.c:2753-2771 (CIL_CONS_U1 and so on). *)
Inductive operand := U1 | U2 | U3 | R1 | R2 | R3 | T1 | T2 | T3 | L1 | L2 | H1 | H2.

(** libsepol/cil/src/cil_build_ast.c:2740-2751 (__cil_get_constraint_operator_flavor), [None] for CIL_NONE; the
    strings are libsepol/cil/src/cil.c:249-256.  The C code compares pointers of interned strings. *)
Definition operator_flavor (s : list N) : option cop :=
  if same_str s (lit "and") then Some OAnd
  else if same_str s (lit "or") then Some OOr
  else if same_str s (lit "not") then Some ONot
  else if same_str s (lit "eq") then Some OEq
  else if same_str s (lit "neq") then Some ONeq
  else if same_str s (lit "dom") then Some ODom
  else if same_str s (lit "domby") then Some ODomby
  else if same_str s (lit "incomp") then Some OIncomp
  else None.

(** libsepol/cil/src/cil_build_ast.c:2753-2771 (__cil_get_constraint_operand_flavor) for a string, [None] for
    CIL_STRING; the strings are libsepol/cil/src/cil.c:236-248. *)
Definition operand_flavor (s : list N) : option operand :=
  if same_str s (lit "t1") then Some T1
  else if same_str s (lit "t2") then Some T2
  else if same_str s (lit "t3") then Some T3
  else if same_str s (lit "r1") then Some R1
  else if same_str s (lit "r2") then Some R2
  else if same_str s (lit "r3") then Some R3
  else if same_str s (lit "u1") then Some U1
  else if same_str s (lit "u2") then Some U2
  else if same_str s (lit "u3") then Some U3
  else if same_str s (lit "l1") then Some L1
  else if same_str s (lit "l2") then Some L2
  else if same_str s (lit "h1") then Some H1
  else if same_str s (lit "h2") then Some H2
  else None.

(** The flavor of the right operand (libsepol/cil/src/cil_build_ast.c:2781): a name, a list, an operand. *)
Inductive rflavor := RfString | RfList | RfOperand (o : operand).

(** libsepol/cil/src/cil_build_ast.c:2755 and 2770: a node without data is a list. *)
Definition right_flavor (t : ptree) : rflavor :=
  match t with
  | PName s => match operand_flavor s with Some o => RfOperand o | None => RfString end
  | PList _ => RfList
  end.

(** libsepol/cil/src/cil_verify.c:253-315 (cil_verify_constraint_leaf_expr_syntax); [vt] tells that expr_flavor is
    CIL_VALIDATETRANS or CIL_MLSVALIDATETRANS. *)
Definition verify_leaf (l : operand) (r : rflavor) (op : cop) (vt : bool) : bool :=
  match r with
  | RfString | RfList =>
      match l with
      | L1 | L2 | H1 | H2 => false
      | U3 | R3 | T3 => vt
      | _ => true
      end
  | RfOperand U1 | RfOperand R1 | RfOperand T1 => false
  | RfOperand U3 | RfOperand R3 | RfOperand T3 => false
  | RfOperand U2 =>
      match op with OEq | ONeq => match l with U1 => true | _ => false end | _ => false end
  | RfOperand R2 => match l with R1 => true | _ => false end
  | RfOperand T2 =>
      match op with OEq | ONeq => match l with T1 => true | _ => false end | _ => false end
  | RfOperand L2 => match l with L1 | H1 => true | _ => false end
  | RfOperand H2 => match l with L1 | L2 | H1 => true | _ => false end
  | RfOperand H1 => match l with L1 => true | _ => false end
  | RfOperand L1 => true
  end.

(** CIL_USER, CIL_ROLE, CIL_TYPE, CIL_LEVEL: leaf_expr_flavor of libsepol/cil/src/cil_build_ast.c:2783-2806. *)
Inductive lkind := LUser | LRole | LType | LLevel.

(** libsepol/cil/src/cil_build_ast.c:2783-2806. *)
Definition leaf_flavor (l : operand) : lkind :=
  match l with
  | U1 | U2 | U3 => LUser
  | R1 | R2 | R3 => LRole
  | T1 | T2 | T3 => LType
  | L1 | L2 | H1 | H2 => LLevel
  end.

(** The third item of a leaf list (libsepol/cil/src/cil_build_ast.c:2819-2831, and after resolution
    libsepol/cil/src/cil_resolve_ast.c:3186-3233): names or resolved symbols, one or a list, or an operand. *)
Inductive ritem (A : Type) := RiOne (a : A) | RiList (l : list A) | RiOperand (o : operand).
Arguments RiOne {A} _. Arguments RiList {A} _. Arguments RiOperand {A} _.

(** The lists built by libsepol/cil/src/cil_build_ast.c:2838-2900 (struct cil_list with an operator first). *)
Inductive cilexp (A : Type) :=
| XLeaf (op : cop) (k : lkind) (l : operand) (r : ritem A)
| XNot (a : cilexp A)
| XBin (op : cop) (a b : cilexp A).
Arguments XLeaf {A} _ _ _ _. Arguments XNot {A} _. Arguments XBin {A} _ _ _.

(** libsepol/cil/src/cil_build_ast.c:59-84 (cil_fill_list): every child must be a string.  With no child at all
    __cil_verify_syntax fails, because its first entry is not CIL_SYN_END. *)
Fixpoint fill_list (c : list ptree) : option (list (list N)) :=
  match c with
  | [] => None
  | [PName s] => Some [s]
  | PName s :: c' => match fill_list c' with Some l => Some (s :: l) | None => None end
  | PList _ :: _ => None
  end.

(** libsepol/cil/src/cil_build_ast.c:2773-2836 (__cil_fill_constraint_leaf_expr); the left operand is a string by
    cil_verify_constraint_expr_syntax. *)
Definition fill_leaf (vt : bool) (op : cop) (left : list N) (right : ptree) : option (cilexp (list N)) :=
  match operand_flavor left with
  | None => None
  | Some l =>
      if verify_leaf l (right_flavor right) op vt then
        match right with
        | PName s =>
            match operand_flavor s with
            | Some o => Some (XLeaf op (leaf_flavor l) l (RiOperand o))
            | None => Some (XLeaf op (leaf_flavor l) l (RiOne s))
            end
        | PList c =>
            match fill_list c with
            | Some names => Some (XLeaf op (leaf_flavor l) l (RiList names))
            | None => None
            end
        end
      else None
  end.

(** CIL_SYN_STRING and CIL_SYN_LIST of __cil_verify_syntax (libsepol/cil/src/cil_verify.c:153-159): a node with data, a
    node with children. *)
Definition is_string (t : ptree) : bool := match t with PName _ => true | PList _ => false end.
(** libsepol/cil/src/cil_verify.c:156. *)
Definition is_list (t : ptree) : bool := match t with PList (_ :: _) => true | _ => false end.

(** libsepol/cil/src/cil_build_ast.c:2838-2900 (__cil_fill_constraint_expr) on the children of a list, with the
    tests of libsepol/cil/src/cil_verify.c:317-364 (cil_verify_constraint_expr_syntax): the shape of each operator's
    operands, where CIL_SYN_LIST means a list with children. *)
Fixpoint fill_constraint (vt : bool) (t : ptree) {struct t} : option (cilexp (list N)) :=
  match t with
  | PList (PName w :: c) =>
      match operator_flavor w with
      | None => None
      | Some ONot =>
          match c with
          | [a] =>
              if is_list a then
                match fill_constraint vt a with Some x => Some (XNot x) | None => None end
              else None
          | _ => None
          end
      | Some OAnd =>
          match c with
          | [a; b] =>
              if is_list a && is_list b then
                match fill_constraint vt a, fill_constraint vt b with
                | Some x, Some y => Some (XBin OAnd x y)
                | _, _ => None
                end
              else None
          | _ => None
          end
      | Some OOr =>
          match c with
          | [a; b] =>
              if is_list a && is_list b then
                match fill_constraint vt a, fill_constraint vt b with
                | Some x, Some y => Some (XBin OOr x y)
                | _, _ => None
                end
              else None
          | _ => None
          end
      | Some OEq =>
          match c with
          | [PName l; r] => if is_string r || is_list r then fill_leaf vt OEq l r else None
          | _ => None
          end
      | Some ONeq =>
          match c with
          | [PName l; r] => if is_string r || is_list r then fill_leaf vt ONeq l r else None
          | _ => None
          end
      | Some op =>
          match c with
          | [PName l; r] => if is_string r then fill_leaf vt op l r else None
          | _ => None
          end
      end
  | _ => None
  end.

(** What the rest of the compiler knows: [n_lookup] is cil_resolve_name for users, roles and types (aliases already
    replaced), [n_values] gives the policy values of the users, roles or types a symbol stands for, i.e.
    __cil_expand_user and so on (libsepol/cil/src/cil_binary.c:156-274) followed by __cil_get_sepol_user_datum and
    so on; [None] when one of them fails. *)
Record names_env := mkNE {
  n_lookup : lkind -> list N -> option N;
  n_values : lkind -> N -> option (list N)
}.

(** cil_resolve_name on every name of a list (libsepol/cil/src/cil_resolve_ast.c:3186-3233). *)
Fixpoint lookup_all (E : names_env) (k : lkind) (l : list (list N)) : option (list N) :=
  match l with
  | [] => Some []
  | s :: l' =>
      match n_lookup E k s, lookup_all E k l' with
      | Some d, Some r => Some (d :: r)
      | _, _ => None
      end
  end.

(** libsepol/cil/src/cil_resolve_ast.c:3152-3239 (cil_resolve_expr) on a constraint expression. *)
Fixpoint resolve_constraint (E : names_env) (x : cilexp (list N)) : option (cilexp N) :=
  match x with
  | XLeaf op k l (RiOperand o) => Some (XLeaf op k l (RiOperand o))
  | XLeaf op k l (RiOne s) =>
      match n_lookup E k s with Some d => Some (XLeaf op k l (RiOne d)) | None => None end
  | XLeaf op k l (RiList s) =>
      match lookup_all E k s with Some d => Some (XLeaf op k l (RiList d)) | None => None end
  | XNot a => match resolve_constraint E a with Some b => Some (XNot b) | None => None end
  | XBin op a b =>
      match resolve_constraint E a, resolve_constraint E b with
      | Some c, Some d => Some (XBin op c d)
      | _, _ => None
      end
  end.

(** ebitmap_set_bit(&expr->names, value - 1, 1) for each value (libsepol/cil/src/cil_binary.c:2771-2783, 2795-2807 and
    2838-2850). *)
Fixpoint set_values (e : ebitmap) (l : list N) : option ebitmap :=
  match l with
  | [] => Some e
  | v :: l' => match ebitmap_set_bit e (pred32 v) true with Some e' => set_values e' l' | None => None end
  end.

(** libsepol/cil/src/cil_binary.c:2756-2855 (__cil_constrain_expr_datum_to_sepol_expr). *)
Definition datum_to_sepol (E : names_env) (k : lkind) (e : ebitmap) (d : N) : option ebitmap :=
  match k with
  | LLevel => None
  | _ => match n_values E k d with Some l => set_values e l | None => None end
  end.

(** The loop of libsepol/cil/src/cil_binary.c:2931-2936. *)
Fixpoint data_to_sepol (E : names_env) (k : lkind) (e : ebitmap) (l : list N) : option ebitmap :=
  match l with
  | [] => Some e
  | d :: l' => match datum_to_sepol E k e d with Some e' => data_to_sepol E k e' l' | None => None end
  end.

(** The switch on the left operand (libsepol/cil/src/cil_binary.c:2866-2919): expr->attr.  The comparisons with
    r_operand read r_item->data whatever it is; only the right operands l2 and h1 equal the constants. *)
Definition leaf_attr (l : operand) (r : ritem N) : option N :=
  match l with
  | U1 => Some 1
  | U2 => Some (N.lor 1 8)
  | U3 => Some (N.lor 1 16)
  | R1 => Some 2
  | R2 => Some (N.lor 2 8)
  | R3 => Some (N.lor 2 16)
  | T1 => Some 4
  | T2 => Some (N.lor 4 8)
  | T3 => Some (N.lor 4 16)
  | L1 =>
      match r with
      | RiOperand L2 => Some 32
      | RiOperand H1 => Some 512
      | _ => Some 64
      end
  | L2 => Some 1024
  | H1 => match r with RiOperand L2 => Some 128 | _ => Some 256 end
  | H2 => None
  end.

(** libsepol/cil/src/cil_binary.c:2974-3000: op->op. *)
Definition op_code (op : cop) : N :=
  match op with OEq => 1 | ONeq => 2 | ODom => 3 | ODomby => 4 | OIncomp => 5 | _ => 0 end.

(** libsepol/cil/src/cil_binary.c:2857-2948 (__cil_constrain_expr_leaf_to_sepol_expr). *)
Definition leaf_to_sepol (E : names_env) (op : cop) (k : lkind) (l : operand) (r : ritem N) : option cexpr :=
  match leaf_attr l r with
  | None => None
  | Some a =>
      match r with
      | RiOperand _ => Some (mkCE CEXPR_ATTR a (op_code op) ebitmap_init)
      | RiOne d =>
          match datum_to_sepol E k ebitmap_init d with
          | Some e => Some (mkCE CEXPR_NAMES a (op_code op) e)
          | None => None
          end
      | RiList ds =>
          match data_to_sepol E k ebitmap_init ds with
          | Some e => Some (mkCE CEXPR_NAMES a (op_code op) e)
          | None => None
          end
      end
  end.

(** libsepol/cil/src/cil_binary.c:2950-3043 (__cil_constrain_expr_to_sepol_expr_helper; the linked list is returned
    as a list). *)
Fixpoint to_sepol (E : names_env) (x : cilexp N) : option (list cexpr) :=
  match x with
  | XLeaf op k l r => match leaf_to_sepol E op k l r with Some e => Some [e] | None => None end
  | XNot a =>
      match to_sepol E a with
      | Some la => Some (la ++ [mkCE CEXPR_NOT 0 0 ebitmap_init])
      | None => None
      end
  | XBin op a b =>
      match to_sepol E a, to_sepol E b with
      | Some la, Some lb =>
          Some (la ++ lb ++ [mkCE (match op with OAnd => CEXPR_AND | _ => CEXPR_OR end) 0 0 ebitmap_init])
      | _, _ => None
      end
  end.

(** libsepol/cil/src/cil_binary.c:3060-3102 (__cil_validate_constrain_expr); [depth] is one more than the C variable. *)
Fixpoint validate_constrain (l : list cexpr) (depth : nat) : bool :=
  match l with
  | [] => Nat.eqb depth 1
  | e :: l' =>
      if ce_type e =? CEXPR_NOT then if Nat.ltb depth 1 then false else validate_constrain l' depth
      else if (ce_type e =? CEXPR_AND) || (ce_type e =? CEXPR_OR) then
        if Nat.ltb depth 2 then false else validate_constrain l' (pred depth)
      else if (ce_type e =? CEXPR_ATTR) || (ce_type e =? CEXPR_NAMES) then
        if Nat.eqb depth CEXPR_MAXDEPTH then false else validate_constrain l' (S depth)
      else false
  end.

(** Class permissions of a statement: a class with the values of its permissions, or a permission of a class map or a
    class permission set, which stand for lists of class permissions (libsepol/cil/src/cil_binary.c:3153-3190; the two
    loops over a map's permissions and over a set are one case here). *)
Inductive classperm := CpClass (cls : N) (perms : list N) | CpMany (l : list classperm).

(** libsepol/cil/src/cil_binary.c:1303-1351 (__cil_perms_to_datum), for permissions given by their values. *)
Definition perms_to_datum (l : list N) : N := fold_left (fun d v => N.lor d (N.shiftl 1 (v - 1))) l 0.

(** class_datum_t.constraints and class_datum_t.validatetrans of each class. *)
Record ctables := mkCT { ct_cons : N -> list cnstr; ct_vtrans : N -> list cnstr }.

(** The head of a class's list is replaced. *)
Definition push (f : N -> list cnstr) (cls : N) (c : cnstr) : N -> list cnstr :=
  fun k => if k =? cls then c :: f k else f k.

(** libsepol/cil/src/cil_binary.c:3104-3151 (cil_constrain_to_policydb_helper). *)
Definition constrain_helper (E : names_env) (T : ctables) (cls : N) (perms : list N) (x : cilexp N) : option ctables :=
  let p := perms_to_datum perms in
  if p =? 0 then Some T
  else
    match to_sepol E x with
    | None => None
    | Some l =>
        if validate_constrain l 0 then Some (mkCT (push (ct_cons T) cls (mkCN p l)) (ct_vtrans T)) else None
    end.

(** libsepol/cil/src/cil_binary.c:3153-3190 (cil_constrain_expand). *)
Fixpoint constrain_expand (E : names_env) (x : cilexp N) (T : ctables) (c : classperm) {struct c} : option ctables :=
  match c with
  | CpClass cls perms => constrain_helper E T cls perms x
  | CpMany l =>
      (fix go (l : list classperm) (T : ctables) : option ctables :=
         match l with
         | [] => Some T
         | c :: l' => match constrain_expand E x T c with Some T' => go l' T' | None => None end
         end) l T
  end.

(** The loop of libsepol/cil/src/cil_binary.c:3221-3240 (cil_validatetrans_to_policydb); the expression is translated
    for each class, and not passed to __cil_validate_constrain_expr. *)
Fixpoint validatetrans_loop (E : names_env) (x : cilexp N) (classes : list N) (T : ctables) : option ctables :=
  match classes with
  | [] => Some T
  | cls :: classes' =>
      match to_sepol E x with
      | None => None
      | Some l => validatetrans_loop E x classes' (mkCT (ct_cons T) (push (ct_vtrans T) cls (mkCN 0 l)))
      end
  end.

(** A statement: [Constrain mls cps e] for constrain and mlsconstrain, [Validate mls classes e] for validatetrans and
    mlsvalidatetrans with the classes its class or class map stands for. *)
Inductive cstmt (A : Type) := Constrain (mls : bool) (c : list classperm) (e : A) | Validate (mls : bool) (classes : list N) (e : A).
Arguments Constrain {A} _ _ _. Arguments Validate {A} _ _ _.

(** libsepol/cil/src/cil_build_ast.c:2902-2922 (cil_gen_constraint_expr: the expression is a list with children). *)
Definition gen_stmt (s : cstmt ptree) : option (cstmt (cilexp (list N))) :=
  match s with
  | Constrain mls c e => match fill_constraint false e with Some x => Some (Constrain mls c x) | None => None end
  | Validate mls c e => match fill_constraint true e with Some x => Some (Validate mls c x) | None => None end
  end.

(** libsepol/cil/src/cil_resolve_ast.c (cil_resolve_constrain, cil_resolve_validatetrans), the expression only. *)
Definition resolve_stmt (E : names_env) (s : cstmt (cilexp (list N))) : option (cstmt (cilexp N)) :=
  match s with
  | Constrain mls c e => match resolve_constraint E e with Some x => Some (Constrain mls c x) | None => None end
  | Validate mls c e => match resolve_constraint E e with Some x => Some (Validate mls c x) | None => None end
  end.

(** libsepol/cil/src/cil_binary.c:4149-4164: one statement, in a policy with ([pm]) or without MLS. *)
Definition binary_stmt (E : names_env) (pm : bool) (T : ctables) (s : cstmt (cilexp N)) : option ctables :=
  match s with
  | Constrain mls c e => if mls && negb pm then Some T else constrain_expand E e T (CpMany c)
  | Validate mls c e => if mls && negb pm then Some T else validatetrans_loop E e c T
  end.

(** One pass over all statements, in order, stopping at the first error. *)
Fixpoint pass {A B : Type} (f : A -> option B) (l : list A) : option (list B) :=
  match l with
  | [] => Some []
  | a :: l' => match f a, pass f l' with Some b, Some r => Some (b :: r) | _, _ => None end
  end.

(** The pass of libsepol/cil/src/cil_binary.c over the statements. *)
Fixpoint binary_all (E : names_env) (pm : bool) (l : list (cstmt (cilexp N))) (T : ctables) : option ctables :=
  match l with
  | [] => Some T
  | s :: l' => match binary_stmt E pm T s with Some T' => binary_all E pm l' T' | None => None end
  end.

(** The three passes: building the tree (libsepol/cil/src/cil_build_ast.c), resolving names
    (libsepol/cil/src/cil_resolve_ast.c), making the policy (libsepol/cil/src/cil_binary.c). *)
Definition compile_constraints (E : names_env) (pm : bool) (l : list (cstmt ptree)) : option ctables :=
  match pass gen_stmt l with
  | None => None
  | Some l1 =>
      match pass (resolve_stmt E) l1 with
      | None => None
      | Some l2 => binary_all E pm l2 (mkCT (fun _ => []) (fun _ => []))
      end
  end.
