(** Model of set expressions and conditions of CIL: how the parse tree of an expression is checked and
    turned into a list (libsepol/cil/src/cil_build_ast.c, cil_verify.c), how its names are resolved
    (cil_resolve_ast.c), how attributes, category sets and extended permission sets are evaluated
    (cil_post.c), and how the conditions of tunableif and booleanif are evaluated and translated
    (cil_resolve_ast.c, cil_binary.c).
    Names are interned strings, so they are numbers here and the keywords are a type of their own; a name
    is looked up in one flat table of declarations (blocks and macros are not modelled).  One table holds
    the symbols of one flavor, because an expression only refers to symbols of its own flavor.
    Log messages and allocation failures are not modelled. *)
From Verif Require Import Base EbitmapModel.

(** The keywords compared with at libsepol/cil/src/cil_build_ast.c:2640-2652. *)
Inductive keyword := KAnd | KOr | KNot | KEq | KNeq | KXor | KAll | KRange.

(** libsepol/cil/src/cil_tree.h (struct cil_tree_node), as far as an expression uses it: a string
    (data set, no children), or a list of nodes; "()" has neither data nor children. *)
Inductive tree := TName (n : N) | TKey (k : keyword) | TList (l : list tree).

(** libsepol/cil/src/cil_flavor.h: the flavors of an expression. *)
Inductive flavor := FType | FRole | FUser | FPerm | FCat | FPermx | FBool | FTunable.

(** libsepol/cil/src/cil_list.h (struct cil_list_item): a resolved symbol, a string, an operator or a
    list. *)
Inductive item := IDatum (d : N) | IStr (n : N) | IOp (k : keyword) | IList (l : list item).

(** Outcome of a function: success, an error code, undefined behaviour (a NULL or wild access), or
    fuel exhausted (unbounded recursion in C). *)
Inductive out (A : Type) := Fine (a : A) | Bad | Crash | Deep.
Arguments Fine {A} _. Arguments Bad {A}. Arguments Crash {A}. Arguments Deep {A}.

(** Sequencing of C statements with "if (rc != SEPOL_OK) goto exit". *)
Definition thn {A B} (o : out A) (f : A -> out B) : out B :=
  match o with Fine a => f a | Bad => Bad | Crash => Crash | Deep => Deep end.

(** libsepol/cil/src/cil_build_ast.c:2640-2652 (__cil_get_expr_operator_flavor): [None] is CIL_NONE; the
    data of a list is NULL. *)
Definition operator_of (t : tree) : option keyword :=
  match t with TKey k => Some k | TName _ => None | TList _ => None end.

(** The tests "data != NULL && cl_head == NULL" of libsepol/cil/src/cil_verify.c:153 and 165. *)
Definition is_string (t : tree) : bool :=
  match t with TName _ => true | TKey _ => true | TList _ => false end.
(** The tests "data == NULL && cl_head != NULL" of libsepol/cil/src/cil_verify.c:156 and 163. *)
Definition is_list (t : tree) : bool :=
  match t with TList (_ :: _) => true | _ => false end.

(** The entries CIL_SYN_ of the tables of libsepol/cil/src/cil_verify.c:192-197 and 200-236: a string, a
    string or a list, any number of strings and lists, the end. *)
Inductive syn := YString | YEither | YMany | YEnd.

(** libsepol/cil/src/cil_verify.c:147-187 (__cil_verify_syntax). *)
Fixpoint verify_syntax (s : list syn) (c : list tree) {struct s} : bool :=
  match s, c with
  | YEnd :: _, [] => true
  | YMany :: s', [] => false
  | YMany :: s', _ :: _ =>
      forallb (fun t => is_list t || is_string t) c &&
      match s' with YEnd :: _ => true | _ => false end
  | YString :: s', t :: c' => is_string t && verify_syntax s' c'
  | YEither :: s', t :: c' => (is_string t || is_list t) && verify_syntax s' c'
  | _, _ => false
  end.

(** libsepol/cil/src/cil_verify.c:189-251 (cil_verify_expr_syntax). *)
Definition verify_expr_syntax (c : list tree) (op : option keyword) (f : flavor) : bool :=
  match op with
  | Some KNot => verify_syntax [YString; YEither; YEnd] c
  | Some KAnd | Some KOr | Some KXor => verify_syntax [YString; YEither; YEither; YEnd] c
  | Some KEq | Some KNeq =>
      match f with
      | FBool | FTunable => verify_syntax [YString; YEither; YEither; YEnd] c
      | _ => false
      end
  | Some KAll =>
      match f with
      | FBool | FTunable => false
      | _ => verify_syntax [YString; YEnd] c
      end
  | Some KRange =>
      match f with
      | FCat | FPermx => verify_syntax [YString; YString; YString; YEnd] c
      | _ => false
      end
  | None => verify_syntax [YMany; YEnd] c
  end.

(** libsepol/cil/src/cil_build_ast.c:2691-2717 (__cil_fill_expr) on one node; the inner function is
    __cil_fill_expr_helper (2661-2689) on the children of a list.  For "()" the C code appends a string
    that is NULL; every list reaching this point has passed verify_syntax, which refuses "()", so the
    case is given as [None] (an error) here. *)
Fixpoint fill_expr (f : flavor) (t : tree) {struct t} : option item :=
  match t with
  | TName n => Some (IStr n)
  | TKey _ => None
  | TList [] => None
  | TList (h :: c) =>
      if verify_expr_syntax (h :: c) (operator_of h) f then
        let fix fill_all (l : list tree) : option (list item) :=
          match l with
          | [] => Some []
          | x :: l' =>
              match fill_expr f x with
              | None => None
              | Some i => match fill_all l' with None => None | Some r => Some (i :: r) end
              end
          end in
        match operator_of h with
        | Some k => match fill_all c with None => None | Some r => Some (IList (IOp k :: r)) end
        | None => match fill_all (h :: c) with None => None | Some r => Some (IList r) end
        end
      else None
  end.

(** libsepol/cil/src/cil_build_ast.c:2720-2738 (cil_gen_expr): a string gives a list of one item, a list
    its own items. *)
Definition gen_expr (f : flavor) (t : tree) : option (list item) :=
  match fill_expr f t with
  | None => None
  | Some (IList l) => Some l
  | Some i => Some [i]
  end.

(** The declarations of one flavor: a plain symbol with its value (the number given by the counting pass of
    libsepol/cil/src/cil_post.c:430-640), an alias and its actual symbol, an attribute, a category set. *)
Inductive decl := DLeaf (value : N) | DAlias (actual : N) | DAttr | DSet.

(** The symbol table of the flavor (libsepol/cil/src/cil_symtab.c). *)
Definition table := N -> option decl.

(** libsepol/cil/src/cil_resolve_ast.c:4262-4287 (cil_resolve_name): aliases are replaced by their actual
    symbol.  Looking the name up in enclosing blocks is not modelled. *)
Definition resolve_name (tb : table) (n : N) : option N :=
  match tb n with
  | None => None
  | Some (DAlias m) => Some m
  | Some _ => Some n
  end.

(** Is the symbol a category set (NODE(datum)->flavor == CIL_CATSET). *)
Definition is_catset (tb : table) (d : N) : bool :=
  match tb d with Some DSet => true | _ => false end.

(** libsepol/cil/src/cil_resolve_ast.c:3152-3241 (cil_resolve_expr): [op] is the local variable of that
    name.  Anonymous category sets, which only macro arguments make, are not modelled.  Extended permission
    expressions are not resolved. *)
Fixpoint resolve_item (tb : table) (range : bool) (i : item) {struct i} : option item :=
  match i with
  | IStr n =>
      match resolve_name tb n with
      | None => None
      | Some d => if is_catset tb d && range then None else Some (IDatum d)
      end
  | IList l =>
      let fix res_all (r : bool) (l : list item) : option (list item) :=
        match l with
        | [] => Some []
        | x :: l' =>
            match resolve_item tb r x with
            | None => None
            | Some y =>
                match res_all (match x with IOp KRange => true | IOp _ => false | _ => r end) l' with
                | None => None
                | Some ys => Some (y :: ys)
                end
            end
        end in
      match res_all false l with None => None | Some ys => Some (IList ys) end
  | _ => Some i
  end.

(** cil_resolve_expr on the list of an expression (libsepol/cil/src/cil_resolve_ast.c:3186-3235). *)
Definition resolve_expr (tb : table) (l : list item) : option (list item) :=
  match resolve_item tb false (IList l) with
  | Some (IList ys) => Some ys
  | _ => None
  end.

(** ** Evaluation of sets (libsepol/cil/src/cil_post.c) *)

(** What the evaluation reads: the symbol table, the expressions of each attribute (attr->expr_list) or the
    one expression of a category set (cats->datum_expr), the number of symbols (db->num_types, ...), the
    values of the categories in category order (db->catorder), and for extended permissions the number
    strtol(s, &end, 0) gives for a string ([None]: *end is not the end of the string). *)
Record db := mkDb {
  d_table : table;
  d_exprs : N -> list (list item);
  d_max : N;
  d_order : list N;
  d_number : N -> option Z }.

(** The evaluation results kept in the symbols: attr->types (roles, users) with NULL as [None]; for a
    category set the values in the list that replaces cats->datum_expr, with [None] while cats->evaluated is
    false. *)
Record st := mkSt { s_attr : N -> option ebitmap; s_set : N -> option (list N) }.

(** Assignment to attr->types. *)
Definition put_attr (s : st) (a : N) (v : option ebitmap) : st :=
  mkSt (fun x => if x =? a then v else s_attr s x) (s_set s).
(** Assignment to cats->datum_expr and cats->evaluated. *)
Definition put_set (s : st) (a : N) (v : list N) : st :=
  mkSt (s_attr s) (fun x => if x =? a then Some v else s_set s x).

(** The value of a plain symbol; reading it from a symbol of another kind is a wild access. *)
Definition value_of (d : db) (x : N) : option N :=
  match d_table d x with Some (DLeaf v) => Some v | _ => None end.

(** ebitmap_set_bit on an initialised bitmap, as libsepol/cil/src/cil_post.c uses it. *)
Definition set_one (e : ebitmap) (v : N) : out ebitmap :=
  match ebitmap_set_bit e v true with Some e' => Fine e' | None => Bad end.

(** libsepol/cil/src/cil_post.c:1004-1025 (__cil_permx_str_to_int). *)
Definition permx_str_to_int (d : db) (n : N) : out N :=
  match d_number d n with
  | None => Bad
  | Some v => if ((v <? 0) || (65535 <? v))%Z then Bad else Fine (Z.to_N v)
  end.

(** ebitmap_init_range as called at libsepol/cil/src/cil_post.c:1222, 1253 and 1331. *)
Definition range_bm (mn mx : N) : out ebitmap :=
  match ebitmap_init_range mn mx with
  | RangeOk e => Fine e
  | RangeEINVAL => Bad
  | RangeEOVERFLOW => Bad
  | RangeLoop => Deep
  end.

(** libsepol/cil/src/cil_post.c:1191-1232 (__cil_cat_expr_range_to_bitmap_helper). *)
Definition cat_range (d : db) (i1 i2 : item) : out ebitmap :=
  match i1, i2 with
  | IDatum x, IDatum y =>
      if is_catset (d_table d) x || is_catset (d_table d) y then Bad
      else match value_of d x, value_of d y with
           | Some v, Some w => if w <? v then Bad else range_bm v w
           | _, _ => Crash
           end
  | _, _ => Crash
  end.

(** libsepol/cil/src/cil_post.c:1234-1263 (__cil_permissionx_expr_range_to_bitmap_helper). *)
Definition permx_range (d : db) (i1 i2 : item) : out ebitmap :=
  match i1, i2 with
  | IStr x, IStr y =>
      thn (permx_str_to_int d x) (fun v => thn (permx_str_to_int d y) (fun w => range_bm v w))
  | _, _ => Crash
  end.

(** libsepol/cil/src/cil_post.c:1390-1409 (the loop of __cil_expr_to_bitmap over a plain list). *)
Fixpoint union_items (ev : item -> st -> out (ebitmap * st)) (l : list item) (acc : ebitmap) (s : st)
  : out (ebitmap * st) :=
  match l with
  | [] => Fine (acc, s)
  | i :: l' => thn (ev i s) (fun r => union_items ev l' (ebitmap_or acc (fst r)) (snd r))
  end.

(** libsepol/cil/src/cil_post.c:1308-1417 (__cil_expr_to_bitmap), with [ev] for
    __cil_expr_to_bitmap_helper and the result united with *out. *)
Definition expr_bm (ev : item -> st -> out (ebitmap * st)) (d : db) (f : flavor) (l : list item)
    (res : ebitmap) (s : st) : out (ebitmap * st) :=
  match l with
  | [] => Fine (res, s)
  | IOp op :: rest =>
      thn (match op with
           | KAll => thn (range_bm 0 (wrap32 (d_max d + 4294967295))) (fun e => Fine (e, s))
           | KRange =>
               match f, rest with
               | FCat, i1 :: i2 :: _ => thn (cat_range d i1 i2) (fun e => Fine (e, s))
               | FPermx, i1 :: i2 :: _ => thn (permx_range d i1 i2) (fun e => Fine (e, s))
               | FCat, _ => Crash
               | FPermx, _ => Crash
               | _, _ => Bad
               end
           | KNot =>
               match rest with
               | [] => Crash
               | i1 :: _ =>
                   thn (ev i1 s) (fun r =>
                     match ebitmap_not (fst r) (d_max d) with
                     | Some e => Fine (e, snd r)
                     | None => Deep
                     end)
               end
           | _ =>
               match rest with
               | [] => Crash
               | i1 :: rest' =>
                   thn (ev i1 s) (fun r1 =>
                     match rest' with
                     | [] => Crash
                     | i2 :: _ =>
                         thn (ev i2 (snd r1)) (fun r2 =>
                           match op with
                           | KOr => Fine (ebitmap_or (fst r1) (fst r2), snd r2)
                           | KAnd => Fine (ebitmap_and (fst r1) (fst r2), snd r2)
                           | KXor => Fine (ebitmap_xor (fst r1) (fst r2), snd r2)
                           | _ => Bad
                           end)
                     end)
               end
           end)
          (fun r => Fine (ebitmap_union res (fst r), snd r))
  | _ =>
      thn (union_items ev l ebitmap_init s) (fun r => Fine (ebitmap_union res (fst r), snd r))
  end.

(** libsepol/cil/src/cil_post.c:1420-1449 (__cil_expr_list_to_bitmap): [res] is *out, which for an
    attribute is attr->types itself, so each union is seen through the symbol at once. *)
Fixpoint expr_list_bm (ev : item -> st -> out (ebitmap * st)) (d : db) (f : flavor) (a : N)
    (ls : list (list item)) (s : st) : out st :=
  match ls with
  | [] => Fine s
  | l :: ls' =>
      thn (expr_bm ev d f l ebitmap_init s) (fun r =>
        match s_attr (snd r) a with
        | None => Crash
        | Some cur => expr_list_bm ev d f a ls' (put_attr (snd r) a (Some (ebitmap_union cur (fst r))))
        end)
  end.

(** libsepol/cil/src/cil_post.c:881-894, 932-945 and 973-986 (__evaluate_type_expression,
    __evaluate_user_expression, __evaluate_role_expression): attr->types is made non-NULL, and empty, before
    the expressions are evaluated. *)
Definition evaluate_attr (ev : item -> st -> out (ebitmap * st)) (d : db) (f : flavor) (a : N) (s : st) : out st :=
  expr_list_bm ev d f a (d_exprs d a) (put_attr s a (Some ebitmap_init)).

(** libsepol/cil/src/cil_post.c:143-167 (cil_verify_is_list for CIL_CAT). *)
Definition plain_cats (d : db) (l : list item) : bool :=
  forallb (fun i => match i with
                    | IList _ => false
                    | IOp _ => false
                    | IDatum x => negb (is_catset (d_table d) x)
                    | IStr _ => true
                    end) l.

(** libsepol/cil/src/cil_post.c:1103-1145 (__evaluate_cat_expression). *)
Definition evaluate_set (ev : item -> st -> out (ebitmap * st)) (d : db) (a : N) (s : st) : out st :=
  match s_set s a with
  | Some _ => Fine s
  | None =>
      let e := concat (d_exprs d a) in
      if plain_cats d e then Fine s
      else thn (expr_bm ev d FCat e ebitmap_init s) (fun r =>
             Fine (put_set (snd r) a (filter (fun v => ebitmap_get_bit (fst r) v) (d_order d))))
  end.

(** Setting the bits of the values in a list (the loop of libsepol/cil/src/cil_post.c:1161-1168). *)
Fixpoint set_values (e : ebitmap) (l : list N) : out ebitmap :=
  match l with [] => Fine e | v :: l' => thn (set_one e v) (fun e' => set_values e' l') end.

(** The values of the items of a plain category list (libsepol/cil/src/cil_post.c:1161-1162). *)
Fixpoint item_values (d : db) (l : list item) : out (list N) :=
  match l with
  | [] => Fine []
  | IDatum x :: l' =>
      match value_of d x with
      | None => Crash
      | Some v => thn (item_values d l') (fun r => Fine (v :: r))
      end
  | _ :: _ => Crash
  end.

(** The categories of a set after evaluation: its list (libsepol/cil/src/cil_post.c:1161, and every later
    reader of cats->datum_expr, e.g. cil_binary.c:3031-3060). *)
Definition set_list (d : db) (a : N) (s : st) : out (list N) :=
  match s_set s a with
  | Some l => Fine l
  | None => item_values d (concat (d_exprs d a))
  end.

(** libsepol/cil/src/cil_post.c:896-930, 947-971, 988-1001+ (__cil_type_to_bitmap, __cil_user_to_bitmap,
    __cil_role_to_bitmap), 1061-1074 (__cil_perm_to_bitmap) and 1147-1189 (__cil_cat_to_bitmap). *)
Definition datum_bm (ev : item -> st -> out (ebitmap * st)) (d : db) (f : flavor) (x : N) (s : st)
  : out (ebitmap * st) :=
  match d_table d x with
  | None => Crash
  | Some (DLeaf v) => thn (set_one ebitmap_init v) (fun e => Fine (e, s))
  | Some (DAlias m) =>
      match value_of d m with
      | None => Crash
      | Some v => thn (set_one ebitmap_init v) (fun e => Fine (e, s))
      end
  | Some DAttr =>
      thn (match s_attr s x with Some _ => Fine s | None => evaluate_attr ev d f x s end) (fun s' =>
        match s_attr s' x with
        | None => Crash
        | Some e => Fine (ebitmap_union ebitmap_init e, s')
        end)
  | Some DSet =>
      thn (evaluate_set ev d x s) (fun s' =>
        thn (set_list d x s') (fun l => thn (set_values ebitmap_init l) (fun e => Fine (e, s'))))
  end.

(** libsepol/cil/src/cil_post.c:1265-1306 (__cil_expr_to_bitmap_helper).  [fuel] bounds the recursion; [Deep]
    when it runs out. *)
Fixpoint item_bm (fuel : nat) (d : db) (f : flavor) (i : item) (s : st) {struct fuel} : out (ebitmap * st) :=
  match fuel with
  | O => Deep
  | S fuel' =>
      match i with
      | IDatum x =>
          match f with FPermx => Bad | _ => datum_bm (item_bm fuel' d f) d f x s end
      | IList l => expr_bm (item_bm fuel' d f) d f l ebitmap_init s
      | IStr n =>
          match f with
          | FPermx => thn (permx_str_to_int d n) (fun v =>
                        thn (set_one ebitmap_init v) (fun e => Fine (e, s)))
          | _ => Bad
          end
      | IOp _ => match f with FPermx => Crash | _ => Bad end
      end
  end.

(** libsepol/cil/src/cil_post.c:1532-1600 (__cil_post_db_attr_helper) and 1877-1890 (the case of
    category sets of __cil_post_db_cat_helper): the visit of the declaration of [a]. *)
Definition visit (fuel : nat) (d : db) (f : flavor) (a : N) (s : st) : out st :=
  match d_table d a with
  | Some DAttr => match s_attr s a with Some _ => Fine s | None => evaluate_attr (item_bm fuel d f) d f a s end
  | Some DSet => evaluate_set (item_bm fuel d f) d a s
  | _ => Fine s
  end.

(** The walks of libsepol/cil/src/cil_post.c over the tree of declarations, in tree order. *)
Fixpoint visit_all (fuel : nat) (d : db) (f : flavor) (l : list N) (s : st) : out st :=
  match l with
  | [] => Fine s
  | a :: l' => thn (visit fuel d f a s) (fun s' => visit_all fuel d f l' s')
  end.

(** The state before evaluation: every attr->types is NULL, no category set is evaluated
    (libsepol/cil/src/cil.c, cil_typeattribute_init and cil_cats_init). *)
Definition st0 : st := mkSt (fun _ => None) (fun _ => None).

(** libsepol/cil/src/cil_post.c:987-1002 (__evaluate_permissionx_expression). *)
Definition evaluate_permx (fuel : nat) (d : db) (l : list item) : out ebitmap :=
  thn (expr_bm (item_bm fuel d FPermx) d FPermx l ebitmap_init st0) (fun r => Fine (fst r)).

(** libsepol/cil/src/cil_post.c:2060-2094 (__evaluate_perm_expression): [perms] are the values of the
    permissions of the class and then of its common, in table order; a plain list is kept as it is. *)
Definition evaluate_perms (fuel : nat) (d : db) (l : list item) : out (list N) :=
  if forallb (fun i => match i with IList _ => false | IOp _ => false | _ => true end) l then item_values d l
  else thn (expr_bm (item_bm fuel d FPerm) d FPerm l ebitmap_init st0) (fun r =>
         Fine (filter (fun v => ebitmap_get_bit (fst r) v) (d_order d))).

(** ** The check for attributes and category sets that refer to themselves (libsepol/cil/src/cil_verify.c) *)

(** libsepol/cil/src/cil_verify.c:423-445 (__verify_no_self_reference_in_expr), with [ck] for one item; also
    the loop of the walk over the declarations. *)
Fixpoint check_items {A} (ck : A -> out unit) (l : list A) : out unit :=
  match l with
  | [] => Fine tt
  | i :: l' => thn (ck i) (fun _ => check_items ck l')
  end.

(** Is the symbol an attribute or a category set (libsepol/cil/src/cil_verify.c:461-489). *)
Definition has_expr (tb : table) (x : N) : bool :=
  match tb x with Some DAttr => true | Some DSet => true | _ => false end.

(** libsepol/cil/src/cil_verify.c:423-495 (__verify_no_self_reference_in_expr and
    cil_verify_no_self_reference) on one item; [stack] holds the symbols being looked at.  The stack test
    precedes the test of the flavor, as in C.  attr->expr_list is a list of lists. *)
Fixpoint check_item (fuel : nat) (d : db) (stack : list N) (i : item) {struct fuel} : out unit :=
  match fuel with
  | O => Deep
  | S fuel' =>
      match i with
      | IDatum x =>
          if existsb (N.eqb x) stack then Bad
          else if has_expr (d_table d) x
               then check_items (fun l => check_items (check_item fuel' d (x :: stack)) l) (d_exprs d x)
               else Fine tt
      | IList l => check_items (check_item fuel' d stack) l
      | _ => Fine tt
      end
  end.

(** libsepol/cil/src/cil_verify.c:1985-2026 (__cil_pre_verify_helper) on the attributes and category sets. *)
Definition check_all (fuel : nat) (d : db) (ids : list N) : out unit :=
  check_items (fun a => check_item fuel d [] (IDatum a)) ids.

(** libsepol/cil/src/cil_resolve_ast.c:3307-3340 (cil_resolve_userattributeset; the same for types and roles) and
    libsepol/cil/src/cil_build_ast.c:3640-3670 (cil_gen_catset): one statement giving an expression to an
    attribute or category set.  All expressions are built before any is resolved in C; both kinds of failure
    end the compilation, so the order does not show.  That the expression of a category set must be a list, not a
    single name, is not modelled. *)
Fixpoint read_all (f : flavor) (tb : table) (l : list (N * tree)) : option (list (N * list item)) :=
  match l with
  | [] => Some []
  | (n, t) :: l' =>
      match gen_expr f t with
      | None => None
      | Some e =>
          match resolve_name tb n with
          | None => None
          | Some a =>
              if has_expr tb a then
                match resolve_expr tb e with
                | None => None
                | Some e' => match read_all f tb l' with None => None | Some r => Some ((a, e') :: r) end
                end
              else None
          end
      end
  end.

(** attr->expr_list (and cats->datum_expr) after resolution: the expressions in statement order. *)
Definition exprs_of (r : list (N * list item)) (a : N) : list (list item) :=
  map snd (filter (fun p => fst p =? a) r).

(** The passes a set statement goes through, in the order of libsepol/cil/src/cil.c:570-610 (cil_compile) and
    libsepol/cil/src/cil_post.c:2547-2560 (cil_post_process):
    building, resolving, the self-reference check, evaluation.  [ids] are the attributes and category sets in
    tree order. *)
Definition compile_sets (fuel : nat) (f : flavor) (tb : table) (mx : N) (order : list N) (ids : list N)
    (stmts : list (N * tree)) : out (db * st) :=
  match read_all f tb stmts with
  | None => Bad
  | Some r =>
      let d := mkDb tb (exprs_of r) mx order (fun _ => None) in
      thn (check_all fuel d ids) (fun _ => thn (visit_all fuel d f ids st0) (fun s => Fine (d, s)))
  end.

(** The permissions an expression gives for one class: libsepol/cil/src/cil_build_ast.c:2720-2738
    (cil_gen_expr), cil_resolve_ast.c:71-115 (__cil_resolve_perms: strings are looked up, operators and lists
    copied, as [resolve_expr] does on a table without aliases and category sets) and cil_post.c:2059-2094.
    [tb] holds the permissions of the class and its common, [mx] is class->num_perms. *)
Definition perm_set (fuel : nat) (tb : table) (mx : N) (order : list N) (t : tree) : out (list N) :=
  match gen_expr FPerm t with
  | None => Bad
  | Some e =>
      match resolve_expr tb e with
      | None => Bad
      | Some e' => evaluate_perms fuel (mkDb tb (fun _ => []) mx order (fun _ => None)) e'
      end
  end.

(** The numbers of an extended permission expression: libsepol/cil/src/cil_build_ast.c:2184-2227
    (cil_gen_permissionx) and cil_post.c:1025-1041 (__evaluate_permissionx_expression, whose maximum is
    0x10000); the strings are not resolved. *)
Definition permx_set (fuel : nat) (number : N -> option Z) (t : tree) : out ebitmap :=
  match gen_expr FPermx t with
  | None => Bad
  | Some e => evaluate_permx fuel (mkDb (fun _ => None) (fun _ => []) 65536 [] number) e
  end.
