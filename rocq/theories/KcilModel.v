(** Model of writing the conditionals of a kernel policy as CIL text (libsepol/src/kernel_to_cil.c), and of the step
    from the parse tree of a booleanif statement (CilparseModel) to the trees of CilexprModel and CilcondModel.
    Texts are lists of bytes. Failures to allocate or to write are not modelled. *)
From Verif Require Import Base CondModel CilparseModel CilexprModel CilcondModel.

(** The result of cond_expr_to_str: a string, an error, or a read outside p_bool_val_to_name. *)
Inductive kres := KStr (s : list N) | KErr | KWild.

(** pdb->p_bool_val_to_name[curr->boolean - 1] (libsepol/src/kernel_to_cil.c:47). *)
Definition bool_name (names : list (list N)) (v : N) : option (list N) :=
  if v =? 0 then None else nth_error names (N.to_nat (v - 1)).

(** "not", "or", "and", "xor", "eq", "neq" (libsepol/src/kernel_to_cil.c:56-61; also libsepol/cil/src/cil.c:249-253 and 276). *)
Definition w_not : list N := [110; 111; 116].
(** "or" (libsepol/src/kernel_to_cil.c:57). *)
Definition w_or : list N := [111; 114].
(** "and" (libsepol/src/kernel_to_cil.c:58). *)
Definition w_and : list N := [97; 110; 100].
(** "xor" (libsepol/src/kernel_to_cil.c:59). *)
Definition w_xor : list N := [120; 111; 114].
(** "eq" (libsepol/src/kernel_to_cil.c:60). *)
Definition w_eq : list N := [101; 113].
(** "neq" (libsepol/src/kernel_to_cil.c:61). *)
Definition w_neq : list N := [110; 101; 113].

(** The switch of libsepol/src/kernel_to_cil.c:55-66: the word and num_params = 2. *)
Definition op_word (ty : N) : option (list N * bool) :=
  if ty =? COND_NOT then Some (w_not, false)
  else if ty =? COND_OR then Some (w_or, true)
  else if ty =? COND_AND then Some (w_and, true)
  else if ty =? COND_XOR then Some (w_xor, true)
  else if ty =? COND_EQ then Some (w_eq, true)
  else if ty =? COND_NEQ then Some (w_neq, true)
  else None.

(** libsepol/src/kernel_to_cil.c:32-118 (cond_expr_to_str), with the stack of strings, last one first. *)
Fixpoint cond_to_str (names : list (list N)) (stack : list (list N)) (e : list tok) : kres :=
  match e with
  | [] => match stack with [s] => KStr s | _ => KErr end
  | t :: e' =>
      if t_type t =? COND_BOOL then
        match bool_name names (t_bool t) with
        | None => KWild
        | Some n => cond_to_str names (n :: stack) e'
        end
      else
        match op_word (t_type t) with
        | None => KErr
        | Some (w, true) =>
            match stack with
            | v2 :: v1 :: st => cond_to_str names ((40 :: w ++ 32 :: v1 ++ 32 :: v2 ++ [41]) :: st) e'
            | _ => KErr
            end
        | Some (w, false) =>
            match stack with
            | v1 :: st => cond_to_str names ((40 :: w ++ 32 :: v1 ++ [41]) :: st) e'
            | [] => KErr
            end
        end
  end.

(** "booleanif" (libsepol/src/kernel_to_cil.c:2190). *)
Definition w_booleanif : list N := [98; 111; 111; 108; 101; 97; 110; 105; 102].
(** "true" (libsepol/src/kernel_to_cil.c:2194; cil.c:257). *)
Definition w_true : list N := [116; 114; 117; 101].
(** "false" (libsepol/src/kernel_to_cil.c:2204; cil.c:258). *)
Definition w_false : list N := [102; 97; 108; 115; 101].
(** sepol_indent with 1 (libsepol/src/kernel_to_common.c:26-31). *)
Definition indent1 : list N := [32; 32; 32; 32].

(** libsepol/src/kernel_to_cil.c:2192-2200 and 2202-2210: the block of a list of rules that is not NULL; [rules] is
    what write_cond_av_list_to_cil writes. *)
Definition block_text (w : list N) (rules : option (list N)) : list N :=
  match rules with
  | None => []
  | Some r => indent1 ++ 40 :: w ++ 10 :: r ++ indent1 ++ [41; 10]
  end.

(** libsepol/src/kernel_to_cil.c:2186-2212: one conditional, given its expression as a string. *)
Definition node_text (expr : list N) (t f : option (list N)) : list N :=
  40 :: w_booleanif ++ 32 :: expr ++ 10 :: block_text w_true t ++ block_text w_false f ++ [41; 10].

(** "all" (libsepol/cil/src/cil.c:277). *)
Definition w_all : list N := [97; 108; 108].
(** "range" (libsepol/cil/src/cil.c:278). *)
Definition w_range : list N := [114; 97; 110; 103; 101].

(** The comparisons of libsepol/cil/src/cil_build_ast.c:2640-2652, on the strings. *)
Definition keyword_of (w : list N) : option keyword :=
  if same_str w w_and then Some KAnd
  else if same_str w w_or then Some KOr
  else if same_str w w_not then Some KNot
  else if same_str w w_eq then Some KEq
  else if same_str w w_neq then Some KNeq
  else if same_str w w_xor then Some KXor
  else if same_str w w_all then Some KAll
  else if same_str w w_range then Some KRange
  else None.

(** The tree of an expression with strings as the string pool (libsepol/cil/src/cil_strpool.c) sees them; [code] is
    the pool: the address of a string. *)
Fixpoint intern (code : list N -> N) (t : ptree) : tree :=
  match t with
  | PName w => match keyword_of w with Some k => TKey k | None => TName (code w) end
  | PList l => TList (map (intern code) l)
  end.

(** One list after the condition (libsepol/cil/src/cil_verify.c:371-393): its first word and its statements. A list
    whose first member is a list has no first word; "()" and a string are no list for the syntax check
    (libsepol/cil/src/cil_build_ast.c:2929-2930). *)
Definition block_of (t : ptree) : option (block ptree) :=
  match t with
  | PName _ => None
  | PList [] => None
  | PList (PName w :: r) =>
      Some (if same_str w w_true then Some true else if same_str w w_false then Some false else None, r)
  | PList (PList _ :: r) => Some (None, r)
  end.

(** All lists after the condition. *)
Fixpoint blocks_of (l : list ptree) : option (list (block ptree)) :=
  match l with
  | [] => Some []
  | t :: l' =>
      match block_of t, blocks_of l' with
      | Some b, Some bs => Some (b :: bs)
      | _, _ => None
      end
  end.

(** libsepol/cil/src/cil_build_ast.c:2924-2979 (cil_gen_boolif), the parts of the parse tree: "booleanif", the
    condition and the blocks. *)
Definition read_booleanif (code : list N -> N) (t : ptree) : option (tree * list (block ptree)) :=
  match t with
  | PList (PName w :: c :: l) =>
      if same_str w w_booleanif then
        match blocks_of l with Some bl => Some (intern code c, bl) | None => None end
      else None
  | _ => None
  end.
