(** Linking of modules: scope tables and optional blocks. *)
From Verif Require Import Base MlsModel ContextModel.

(** ** Scope tables *)

(** Numbers of the symbol tables (libsepol/include/sepol/policydb/policydb.h, the SYM numbers). *)
Definition SYM_CLASSES : N := 1.
(** policydb.h (SYM_ROLES). *)
Definition SYM_ROLES : N := 2.
(** policydb.h (SYM_USERS). *)
Definition SYM_USERS : N := 4.

(** libsepol/include/sepol/policydb/policydb.h (scope_datum_t): declared or only required, and the
    blocks; [sc_attr]: the role in the symbol table is an attribute (role_datum_t.flavor). *)
Record scope := mkScope { sc_decl : bool; sc_ids : list N; sc_attr : bool }.

(** policydb.c:1777-1782: the last two entries change places. *)
Definition swap_last (l : list N) : list N :=
  match rev l with x :: y :: t => rev (y :: x :: t) | _ => l end.

(** libsepol/src/policydb.c:1681-1786 (symtab_insert): the scope entry of the symbol afterwards and the
    value returned. [decl]: SCOPE_DECL, otherwise SCOPE_REQ; [attr]: the new datum is a role attribute.
    Out of memory is not modelled. *)
Definition scope_insert (kind : N) (s : option scope) (attr decl : bool) (id : N) : option scope * Z :=
  match s with
  | None => (Some (mkScope decl [id] attr), 0%Z)
  | Some s0 =>
      if sc_decl s0 && decl && negb ((kind =? SYM_ROLES) || (kind =? SYM_USERS)) then (s, (-2)%Z)
      else if sc_decl s0 && decl && (kind =? SYM_ROLES) && negb (negb (sc_attr s0) && negb attr) then (s, (-2)%Z)
      else
        let d := sc_decl s0 || decl in
        if existsb (N.eqb id) (sc_ids s0) then (Some (mkScope d (sc_ids s0) (sc_attr s0)), 1%Z)
        else
          let ids := sc_ids s0 ++ [id] in
          if d && negb decl then
            if Nat.ltb (length ids) 2 then (Some (mkScope d ids (sc_attr s0)), (-1)%Z)
            else (Some (mkScope d (swap_last ids) (sc_attr s0)), 1%Z)
          else (Some (mkScope d ids (sc_attr s0)), 1%Z)
  end.

(** A symbol: its table and its name. *)
Definition symbol : Type := N * N.
(** A declaration or requirement of a symbol in a block (checkpolicy/module_compiler.c:191-208
    declare_symbol, 716-734 require_symbol). *)
Record event := mkE { e_sym : symbol; e_attr : bool; e_decl : bool; e_block : N }.
(** Equality of symbols. Simplification: hashtab_search on names as comparison of numbers. *)
Definition sym_eqb (a b : symbol) : bool := (fst a =? fst b) && (snd a =? snd b).
(** The scope tables (policydb_t.scope), as a function. *)
Definition table : Type := symbol -> option scope.
(** hashtab_insert as used in policydb.c:1722-1727. *)
Definition table_set (t : table) (k : symbol) (s : option scope) : table :=
  fun x => if sym_eqb x k then s else t x.
(** checkpolicy/module_compiler.c:147-178 (create_symbol): a negative value ends the compilation. *)
Definition compile_event (t : table) (e : event) : option table :=
  let (s, rc) := scope_insert (fst (e_sym e)) (t (e_sym e)) (e_attr e) (e_decl e) (e_block e) in
  if (rc <? 0)%Z then None else Some (table_set t (e_sym e) s).
(** The declarations and requirements of a module in the order of its source. *)
Fixpoint compile (t : table) (l : list event) : option table :=
  match l with
  | [] => Some t
  | e :: r => match compile_event t e with Some t' => compile t' r | None => None end
  end.

(** libsepol/src/link.c:1771-1857 (scope_copy_callback): the base entry afterwards, or failure.
    [map]: module->avdecl_map. *)
Definition scope_copy (kind : N) (map : N -> N) (base module : option scope) : option (option scope) :=
  match module with
  | None => Some base
  | Some m =>
      let b := match base with Some b => b | None => mkScope false [] (sc_attr m) end in
      let ids := List.map map (sc_ids m) in
      if negb (sc_decl b) && sc_decl m then Some (Some (mkScope true ids (sc_attr b)))
      else if sc_decl b && negb (sc_decl m) then Some (Some b)
      else if negb (sc_decl b) && negb (sc_decl m) then Some (Some (mkScope false (sc_ids b ++ ids) (sc_attr b)))
      else if negb ((kind =? SYM_ROLES) || (kind =? SYM_USERS)) then None
      else Some (Some (mkScope true (sc_ids b ++ ids) (sc_attr b)))
  end.
(** libsepol/src/link.c:1885-1892, 2523-2531: the entry of a symbol after linking all modules. The
    entries of different symbols do not depend on each other. *)
Fixpoint link_scope (kind : N) (base : option scope) (mods : list ((N -> N) * option scope)) : option (option scope) :=
  match mods with
  | [] => Some base
  | (f, m) :: t => match scope_copy kind f base m with Some b => link_scope kind b t | None => None end
  end.

(** libsepol/src/avrule_block.c:155-191 (is_id_enabled): [en] is the enabled flag of a block number,
    false if there is no such block. *)
Definition id_enabled (t : table) (en : N -> bool) (k : symbol) : bool :=
  match t k with
  | None => false
  | Some s =>
      if negb (sc_decl s) then false
      else match sc_ids s with
           | [] => false
           | x :: l => if (fst k =? SYM_ROLES) || (fst k =? SYM_USERS) then existsb en (x :: l) else en (last l x)
           end
  end.

(** ** Optional blocks *)

(** libsepol/include/sepol/policydb/avrule_block.h (avrule_decl_t): number, required symbols other than
    classes in the order of the tables, and the permissions required of each class from class 0 on
    (required.class_perms_map). *)
Record decl := mkD { d_id : N; d_symbols : list symbol; d_classes : list (list N) }.
(** avrule_block.h (avrule_block_t): flags and branch_list. *)
Record block := mkB { b_optional : bool; b_branches : list decl }.
(** libsepol/src/link.c:76-80 (missing_requirement_t). *)
Record missing := mkMiss { x_type : N; x_value : N; x_perm : N }.
(** What is_decl_requires_met returns: 1, 0 with what it wrote to [req] (nothing if [None]), or a
    failed assertion. Returning -1 needs a class without scope entry that is enabled: impossible. *)
Inductive met := Met | Unmet (m : option missing) | Aborts.

(** libsepol/src/link.c:1945-1966: the loop over required symbols. *)
Fixpoint symbols_met (t : table) (en : N -> bool) (l : list symbol) : met :=
  match l with
  | [] => Met
  | k :: r => if id_enabled t en k then symbols_met t en r else Unmet (Some (mkMiss (fst k) (snd k + 1) 0))
  end.
(** libsepol/src/link.c:1983-2008: the permissions of a class. The name of the permission is found by
    its value in the class or its common ([known]), otherwise an assertion fails; a permission found
    by name exists. *)
Definition perms_met (known : N -> N -> bool) (c : N) (perms : list N) : met :=
  if forallb (known c) perms then Met else Aborts.
(** libsepol/src/link.c:1967-2009: the loop over the classes. *)
Fixpoint classes_met (t : table) (known : N -> N -> bool) (en : N -> bool) (c : N) (l : list (list N)) : met :=
  match l with
  | [] => Met
  | perms :: r =>
      if negb (id_enabled t en (SYM_CLASSES, c)) then Unmet None
      else match perms_met known c perms with Met => classes_met t known en (c + 1) r | x => x end
  end.
(** libsepol/src/link.c:1927-2013 (is_decl_requires_met). *)
Definition requires_met (t : table) (known : N -> N -> bool) (en : N -> bool) (d : decl) : met :=
  match symbols_met t en (d_symbols d) with
  | Met => classes_met t known en 0 (d_classes d)
  | x => x
  end.

(** Results of linking: success, missing requirement (SEPOL_EREQ), other error, undefined behaviour
    or abort, and a loop that did not end within the fuel. *)
Inductive lres (A : Type) := LOk (a : A) | LEreq (m : missing) | LErr | LUB | LFuel.
Arguments LOk {A}. Arguments LEreq {A}. Arguments LErr {A}. Arguments LUB {A}. Arguments LFuel {A}.

(** Assignment to a flag, decl->enabled. *)
Definition set_flag (en : N -> bool) (i : N) (v : bool) : N -> bool := fun x => if x =? i then v else en x.

(** libsepol/src/link.c:2144-2156: step 1, all first branches are enabled. The flags of all other
    branches are cleared. *)
Fixpoint enable_first (l : list block) (en : N -> bool) : option ((N -> bool) * list (option N)) :=
  match l with
  | [] => Some (en, [])
  | b :: r =>
      match b_branches b with
      | [] => None
      | d :: others =>
          let en1 := fold_left (fun e x => set_flag e (d_id x) false) others (set_flag en (d_id d) true) in
          match enable_first r en1 with Some (en2, p) => Some (en2, Some (d_id d) :: p) | None => None end
      end
  end.

(** State of the loop: flags, block->enabled of each block, what [req] holds (None: never written),
    changed. *)
Record loop := mkLp { l_en : N -> bool; l_ptr : list (option N); l_req : option missing; l_changed : bool }.

(** libsepol/src/link.c:2161-2189: one pass over the blocks. print_missing_requirements reads [req]. *)
Fixpoint pass (t : table) (known : N -> N -> bool) (bl : list block) (ptr : list (option N))
         (en : N -> bool) (req : option missing) (changed : bool) : lres loop :=
  match bl, ptr with
  | b :: bt, p :: pt =>
      let continue (p' : option N) en' req' changed' :=
        match pass t known bt pt en' req' changed' with
        | LOk s => LOk (mkLp (l_en s) (p' :: l_ptr s) (l_req s) (l_changed s))
        | r => r
        end in
      match p with
      | None => continue None en req changed
      | Some _ =>
          match b_branches b with
          | [] => LUB
          | d :: _ =>
              match requires_met t known en d with
              | Met => continue p en req changed
              | Aborts => LUB
              | Unmet m =>
                  let req' := match m with Some _ => m | None => req end in
                  if negb (b_optional b) then match req' with Some x => LEreq x | None => LUB end
                  else continue None (set_flag en (d_id d) false) req' true
              end
          end
      end
  | _, _ => LOk (mkLp en [] req changed)
  end.
(** libsepol/src/link.c:2159-2191: the passes until nothing changes. *)
Fixpoint passes (fuel : nat) (t : table) (known : N -> N -> bool) (bl : list block) (ptr : list (option N))
         (en : N -> bool) (req : option missing) : lres loop :=
  match fuel with
  | O => LFuel
  | S f =>
      match pass t known bl ptr en req false with
      | LOk s => if l_changed s then passes f t known bl (l_ptr s) (l_en s) (l_req s) else LOk s
      | r => r
      end
  end.

(** libsepol/src/link.c:2201-2208: the else branches. *)
Fixpoint enable_else (bl : list block) (ptr : list (option N)) (en : N -> bool) : (N -> bool) * list (option N) :=
  match bl, ptr with
  | b :: bt, p :: pt =>
      match p with
      | Some _ => let (e, q) := enable_else bt pt en in (e, p :: q)
      | None =>
          match b_branches b with
          | _ :: d :: _ => let (e, q) := enable_else bt pt (set_flag en (d_id d) true) in (e, Some (d_id d) :: q)
          | _ => let (e, q) := enable_else bt pt en in (e, None :: q)
          end
      end
  | _, _ => (en, [])
  end.
(** link.c:2201: the first block is skipped. *)
Definition enable_elses (bl : list block) (ptr : list (option N)) (en : N -> bool) : (N -> bool) * list (option N) :=
  match bl, ptr with
  | _ :: bt, p :: pt => let (e, q) := enable_else bt pt en in (e, p :: q)
  | _, _ => (en, ptr)
  end.

(** libsepol/src/link.c:2132-2214 (enable_avrules): flags and enabled branches. [en0]: the flags before. *)
Definition enable_avrules (t : table) (known : N -> N -> bool) (bl : list block) (en0 : N -> bool) : lres ((N -> bool) * list (option N)) :=
  match enable_first bl en0 with
  | None => LErr
  | Some (en, ptr) =>
      match passes (S (S (length bl))) t known bl ptr en None with
      | LOk s => LOk (enable_elses bl (l_ptr s) (l_en s))
      | LEreq m => LEreq m | LErr => LErr | LUB => LUB | LFuel => LFuel
      end
  end.

(** Simplification of libsepol/src/link.c:2470-2585 (link_modules): [t] holds the scope entries after
    the base and the modules have been compiled and linked without an error. *)
Definition linked_table (base : list event) (mods : list ((N -> N) * list event)) (t : table) : Prop :=
  exists t0 cs, compile (fun _ => None) base = Some t0 /\
    Forall2 (fun m c => compile (fun _ => None) (snd m) = Some c) mods cs /\
    forall k, link_scope (fst k) (t0 k) (map (fun p => (fst (fst p), snd p k)) (combine mods cs)) = Some (t k).
