(** Model of writing the constraints of a kernel policy as CIL text (libsepol/src/kernel_to_cil.c), of the step from the
    parse tree of a constraint statement to CilconsModel, and of the constraint expressions a policy module is expanded to
    (libsepol/src/expand.c). Texts are lists of bytes. Failures to allocate or to write are not modelled. *)
From Coq Require Import String.
From Verif Require Import Base EbitmapModel MlsModel AssertModel TypesetModel ServicesModel CilparseModel CilexprModel KcilModel CilctxModel CilconsModel.
Local Open Scope N_scope.
Local Open Scope list_scope.

(** constraint_expr_t (libsepol/include/sepol/policydb/constraint.h:32-64) with type_names->types; the other parts of
    type_names are not written. *)
Record kexpr := mkKX { kx : cexpr; kx_types : ebitmap }.
(** constraint_node_t (libsepol/include/sepol/policydb/constraint.h:66-70). *)
Record kcons := mkKN { kn_perms : N; kn_expr : list kexpr }.
(** class_datum_t (libsepol/include/sepol/policydb/policydb.h:117-130) as far as it is read: the name, permissions.nprim, the
    name of each permission (of the class or its common), the two lists. *)
Record kclass := mkKC { kc_name : list N; kc_nperms : N; kc_perm : N -> option (list N); kc_cons : list kcons; kc_vtrans : list kcons }.
(** The tables p_type_val_to_name and so on, type_val_to_struct and class_val_to_struct of the policy. *)
Record kpol := mkKP {
  kp_users : list (option (list N)); kp_roles : list (option (list N)); kp_types : list (option (list N));
  kp_tinfo : list (option tinfo); kp_classes : list (option kclass) }.

(** The outcome of a writer: a value, an error, a read outside a table. *)
Inductive wres (A : Type) := WVal (a : A) | WErr | WWild.
Arguments WVal {A} _. Arguments WErr {A}. Arguments WWild {A}.

(** libsepol/src/kernel_to_common.c:314-330 (ebitmap_to_strs): the loop over the positive bits. *)
Fixpoint to_strs (tab : list (option (list N))) (l : list N) : option (list (list N)) :=
  match l with
  | [] => Some []
  | i :: l' =>
      match nth_error tab (N.to_nat i), to_strs tab l' with
      | Some (Some n), Some r => Some (n :: r)
      | Some None, Some r => Some r
      | _, _ => None
      end
  end.

(** Insertion of a string before the first that is not smaller. *)
Fixpoint str_insert (x : list N) (l : list (list N)) : list (list N) :=
  match l with
  | [] => [x]
  | y :: l' => match strcmp x y with Gt => y :: str_insert x l' | _ => x :: l end
  end.
(** libsepol/src/kernel_to_common.c:205-218 (strs_cmp, strs_sort). strcmp is 0 only on equal strings, so the result of
    qsort is determined; it is computed by insertion here. *)
Definition strs_sort (l : list (list N)) : list (list N) := fold_right str_insert [] l.

(** The strings with one space between them (the loop of libsepol/src/kernel_to_common.c:258-271). *)
Fixpoint join (l : list (list N)) : list N :=
  match l with
  | [] => []
  | [x] => x
  | x :: l' => x ++ 32 :: join l'
  end.
(** libsepol/src/kernel_to_common.c:238-278 (strs_to_str): [None] is NULL, for no string at all. *)
Definition strs_to_str (l : list (list N)) : option (list N) := match l with [] => None | _ => Some (join l) end.

(** libsepol/src/kernel_to_common.c:332-358 (ebitmap_to_str with sort); the inner option is NULL. *)
Definition ebitmap_to_str (e : ebitmap) (tab : list (option (list N))) : option (option (list N)) :=
  match to_strs tab (bits e) with None => None | Some l => Some (strs_to_str (strs_sort l)) end.

(** libsepol/src/kernel_to_cil.c:142-150: the word for the operator. *)
Definition rel_str (op : N) : option (list N) :=
  if op =? 1 then Some (lit "eq")
  else if op =? 2 then Some (lit "neq")
  else if op =? 3 then Some (lit "dom")
  else if op =? 4 then Some (lit "domby")
  else if op =? 5 then Some (lit "incomp")
  else None.

(** libsepol/src/kernel_to_cil.c:152-171: attr1 and attr2. *)
Definition attr_strs (a : N) : option (list N * list N) :=
  if a =? 1 then Some (lit "u1", lit "u2")
  else if a =? N.lor 1 8 then Some (lit "u2", [])
  else if a =? N.lor 1 16 then Some (lit "u3", [])
  else if a =? 2 then Some (lit "r1", lit "r2")
  else if a =? N.lor 2 8 then Some (lit "r2", [])
  else if a =? N.lor 2 16 then Some (lit "r3", [])
  else if a =? 4 then Some (lit "t1", lit "t2")
  else if a =? N.lor 4 8 then Some (lit "t2", [])
  else if a =? N.lor 4 16 then Some (lit "t3", [])
  else if a =? 32 then Some (lit "l1", lit "l2")
  else if a =? 64 then Some (lit "l1", lit "h2")
  else if a =? 128 then Some (lit "h1", lit "l2")
  else if a =? 256 then Some (lit "h1", lit "h2")
  else if a =? 512 then Some (lit "l1", lit "h1")
  else if a =? 1024 then Some (lit "l2", lit "h2")
  else None.

(** libsepol/src/kernel_to_cil.c:180-199: names, NULL as [Some None]; attributes without user, role and type bit
    give NULL. *)
Definition names_str (K : kpol) (x : kexpr) : option (option (list N)) :=
  let a := ce_attr (kx x) in
  if negb (N.land a 4 =? 0) then ebitmap_to_str (kx_types x) (kp_types K)
  else if negb (N.land a 1 =? 0) then ebitmap_to_str (ce_names (kx x)) (kp_users K)
  else if negb (N.land a 2 =? 0) then ebitmap_to_str (ce_names (kx x)) (kp_roles K)
  else Some None.

(** libsepol/src/kernel_to_cil.c:138-206: one CEXPR_ATTR or CEXPR_NAMES. *)
Definition leaf_str (K : kpol) (x : kexpr) : wres (list N) :=
  match rel_str (ce_op (kx x)) with
  | None => WErr
  | Some op =>
      match attr_strs (ce_attr (kx x)) with
      | None => WErr
      | Some (a1, a2) =>
          if ce_type (kx x) =? CEXPR_ATTR then WVal (40 :: op ++ 32 :: a1 ++ 32 :: a2 ++ [41])
          else
            match names_str K x with
            | None => WWild
            | Some nm =>
                let names := match nm with Some n => n | None => lit "NO_IDENTIFIER" end in
                if existsb (N.eqb 32) names
                then WVal (40 :: op ++ 32 :: a1 ++ 32 :: 40 :: names ++ [41; 41])
                else WVal (40 :: op ++ 32 :: a1 ++ 32 :: names ++ [41])
            end
      end
  end.

(** libsepol/src/kernel_to_cil.c:122-273 (constraint_expr_to_str), with the stack of strings, last one first, and
    *use_mls. *)
Fixpoint expr_to_str (K : kpol) (stack : list (list N)) (mls : bool) (l : list kexpr) : wres (list N * bool) :=
  match l with
  | [] => match stack with [s] => WVal (s, mls) | _ => WErr end
  | x :: l' =>
      let ty := ce_type (kx x) in
      if (ty =? CEXPR_ATTR) || (ty =? CEXPR_NAMES) then
        match leaf_str K x with
        | WVal s => expr_to_str K (s :: stack) (mls || (32 <=? ce_attr (kx x))) l'
        | WErr => WErr
        | WWild => WWild
        end
      else if ty =? CEXPR_NOT then
        match stack with
        | v1 :: st => expr_to_str K ((40 :: lit "not" ++ 32 :: v1 ++ [41]) :: st) mls l'
        | [] => WErr
        end
      else if (ty =? CEXPR_AND) || (ty =? CEXPR_OR) then
        match stack with
        | v2 :: v1 :: st =>
            expr_to_str K ((40 :: (if ty =? CEXPR_AND then lit "and" else lit "or") ++ 32 :: v1 ++ 32 :: v2 ++ [41]) :: st) mls l'
        | _ => WErr
        end
      else WErr
  end.

(** libsepol/src/util.c:85-133 (sepol_av_to_string): the names of the permissions in the vector, each after a space; here
    the list of names. *)
Definition av_names (c : kclass) (av : N) : list (list N) :=
  flat_map (fun i => if N.testbit av i then match kc_perm c (i + 1) with Some n => [n] | None => [] end else [])
    (map N.of_nat (seq 0 (N.to_nat (kc_nperms c)))).

(** A line for one of the two lists: mls and the text. *)
Definition line : Type := (bool * list N)%type.

(** libsepol/src/kernel_to_cil.c:275-332 (class_constraint_rules_to_strs). *)
Fixpoint class_cons_strs (K : kpol) (c : kclass) (l : list kcons) : wres (list line) :=
  match l with
  | [] => WVal []
  | n :: l' =>
      if kn_perms n =? 0 then class_cons_strs K c l'
      else
        match expr_to_str K [] false (kn_expr n) with
        | WVal (e, mls) =>
            match av_names c (kn_perms n) with
            | [] => WErr
            | ps =>
                match class_cons_strs K c l' with
                | WVal r =>
                    WVal ((mls, 40 :: (if mls then lit "mlsconstrain" else lit "constrain") ++
                                32 :: 40 :: kc_name c ++ 32 :: 40 :: join ps ++ 41 :: 41 :: 32 :: e ++ [41]) :: r)
                | x => x
                end
            end
        | WErr => WErr
        | WWild => WWild
        end
  end.

(** libsepol/src/kernel_to_cil.c:334-371 (class_validatetrans_rules_to_strs). *)
Fixpoint class_vtrans_strs (K : kpol) (c : kclass) (l : list kcons) : wres (list line) :=
  match l with
  | [] => WVal []
  | n :: l' =>
      match expr_to_str K [] false (kn_expr n) with
      | WVal (e, mls) =>
          match class_vtrans_strs K c l' with
          | WVal r =>
              WVal ((mls, 40 :: (if mls then lit "mlsvalidatetrans" else lit "validatetrans") ++
                          32 :: kc_name c ++ 32 :: e ++ [41]) :: r)
          | x => x
          end
      | WErr => WErr
      | WWild => WWild
      end
  end.

(** The loop of libsepol/src/kernel_to_cil.c:380-389 and 406-415 over the classes. *)
Fixpoint all_strs (f : kclass -> wres (list line)) (l : list (option kclass)) : wres (list line) :=
  match l with
  | [] => WVal []
  | None :: l' => all_strs f l'
  | Some c :: l' =>
      match f c with
      | WVal a => match all_strs f l' with WVal b => WVal (a ++ b) | x => x end
      | x => x
      end
  end.

(** libsepol/src/kernel_to_common.c:280-290 (strs_write_each). *)
Definition write_each (l : list (list N)) : list N := flat_map (fun s => s ++ [10]) l.

(** The lines of one of the two lists. *)
Definition chosen (mls : bool) (l : list line) : list (list N) := map snd (filter (fun x => Bool.eqb (fst x) mls) l).

(** libsepol/src/kernel_to_cil.c:373-422 (constraint_rules_to_strs, validatetrans_rules_to_strs), called at 3282 and 3287,
    and the writing at 3317-3318 and 3407-3408: the mls statements, and, after other statements, the rest. *)
Definition write_constraints (K : kpol) : wres (list N * list N) :=
  match all_strs (fun c => class_cons_strs K c (kc_cons c)) (kp_classes K) with
  | WVal cs =>
      match all_strs (fun c => class_vtrans_strs K c (kc_vtrans c)) (kp_classes K) with
      | WVal vs =>
          let part m := write_each (strs_sort (chosen m cs)) ++ write_each (strs_sort (chosen m vs)) in
          WVal (part true, part false)
      | WErr => WErr
      | WWild => WWild
      end
  | WErr => WErr
  | WWild => WWild
  end.

(** What the compiler knows of classes: for a name the value of the class, its permissions (and those of its common) by
    name, their number and order. *)
Definition cclasses : Type := list N -> option (N * table * N * list N).

(** One statement: libsepol/cil/src/cil_build_ast.c:3905-3950 (cil_gen_constrain, with cil_fill_classperms_list 805-843
    and cil_fill_classperms 745-776), 3962-4000 (cil_gen_validatetrans), and the resolution of class and permissions
    (cil_resolve_ast.c:71-140). [None] is an error, [Some None] another statement. Named class permission sets and
    class maps, which the writer never writes, are not modelled: an error here. Permissions are numbered from 0 by the
    compiler and from 1 in the policy. *)
Definition read_stmt (fuel : nat) (code : list N -> N) (cl : cclasses) (t : ptree) : option (option (cstmt ptree)) :=
  match t with
  | PList (PName w :: c) =>
      if same_str w (lit "constrain") || same_str w (lit "mlsconstrain") then
        match c with
        | [PList [PName k; ps]; e] =>
            if CilconsModel.is_list ps && CilconsModel.is_list e then
              match cl k with
              | None => None
              | Some (v, tb, mx, order) =>
                  match perm_set fuel tb mx order (intern code ps) with
                  | Fine l => Some (Some (Constrain (same_str w (lit "mlsconstrain")) [CpClass v (map (N.add 1) l)] e))
                  | _ => None
                  end
              end
            else None
        | _ => None
        end
      else if same_str w (lit "validatetrans") || same_str w (lit "mlsvalidatetrans") then
        match c with
        | [PName k; e] =>
            if CilconsModel.is_list e then
              match cl k with
              | None => None
              | Some (v, _, _, _) => Some (Some (Validate (same_str w (lit "mlsvalidatetrans")) [v] e))
              end
            else None
        | _ => None
        end
      else Some None
  | _ => Some None
  end.

(** The statements about constraints among all statements. *)
Fixpoint read_stmts (fuel : nat) (code : list N -> N) (cl : cclasses) (l : list ptree) : option (list (cstmt ptree)) :=
  match l with
  | [] => Some []
  | t :: l' =>
      match read_stmt fuel code cl t, read_stmts fuel code cl l' with
      | Some (Some s), Some r => Some (s :: r)
      | Some None, Some r => Some r
      | _, _ => None
      end
  end.

(** The constraints of a text: libsepol/cil/src/cil.c:542-568 (cil_add_file, the parser) and 570-660 (cil_compile). *)
Definition compile_text (fuel : nat) (code : list N -> N) (cl : cclasses) (E : names_env) (pm : bool) (s : list N) : option ctables :=
  match cil_parser s with
  | Parsed f => match read_stmts fuel code cl f with Some l => compile_constraints E pm l | None => None end
  | _ => None
  end.

(** libsepol/src/expand.c:338-366 (constraint_node_clone): a CEXPR_NAMES about types, from the type set of the module. *)
Definition clone_names (ts : list (option tinfo)) (typemap : list N) (attr op : N) (set : typeset) : option kexpr :=
  match map_ebitmap (ts_types set) typemap, expand_convert_type_set ts typemap set true with
  | SOk tn, SOk n => Some (mkKX (mkCE CEXPR_NAMES attr op n) tn)
  | _, _ => None
  end.
