(** * The order of classes, SIDs, categories and sensitivities in CIL (cil_resolve_ast.c, cil_verify.c)

    Every statement (classorder, sidorder, categoryorder, sensitivityorder) lists some of the symbols; the compiler makes one
    list of all of them. Symbols are numbers here, standing for the addresses of their records; names have been resolved. *)
From Coq Require Import NArith List Bool.
Import ListNotations.
Local Open Scope N_scope.

(** Comparison of addresses in a list: cil_list.c (cil_list_contains), and whether the flag [ordered] of a record is set, where
    the list is that of the records with the flag. *)
Definition within (x : N) (l : list N) : bool := existsb (fun y => x =? y) l.
(** cil_resolve_ast.c:1188-1234 (__cil_ordered_item_insert, __cil_ordered_list_insert) with cil_list.c (cil_list_insert): the
    items are put one behind the other after [pre]; an item with the flag stops it, those before it stay in the list. The four
    kinds of records are treated alike. *)
Fixpoint list_insert (flags pre xs : list N) : bool * list N * list N :=
  match xs with
  | [] => (true, flags, pre)
  | x :: xs' => if within x flags then (false, flags, pre) else list_insert (x :: flags) (pre ++ [x]) xs'
  end.
(** cil_resolve_ast.c:1244-1250: the inner loop, the place of [x] in the rest of the old list. *)
Fixpoint find_in (x : N) (post : list N) : option (list N * list N) :=
  match post with
  | [] => None
  | y :: post' => if x =? y then Some ([], post') else match find_in x post' with Some (b, a) => Some (y :: b, a) | None => None end
  end.
(** cil_resolve_ast.c:1236-1311 (__cil_ordered_find_next_match, __cil_ordered_lists_merge): [pre] is the old list up to oprev,
    [post] from ocurr on, [sk] the new items from nfirst to before ncurr, [n] those from ncurr on. The result has whether the
    list was merged, the flags and the list. *)
Fixpoint merge_loop (flags pre post sk n : list N) : bool * list N * list N :=
  match n with
  | [] => (match sk with [] => true | _ => false end, flags, pre ++ post)
  | x :: n' =>
      match post with
      | [] => list_insert flags pre n
      | _ =>
          match find_in x post with
          | Some (b, a) =>
              match list_insert flags (pre ++ b) sk with
              | (true, flags', pre') => merge_loop flags' (pre' ++ [x]) a [] n'
              | (false, flags', pre') => (false, flags', pre' ++ x :: a)
              end
          | None => merge_loop flags pre post (sk ++ [x]) n'
          end
      end
  end.
(** cil_resolve_ast.c:1255-1271. *)
Definition merge (flags old new : list N) : bool * list N * list N :=
  match new with
  | [] => (true, flags, old)
  | _ => match old with [] => list_insert flags [] new | _ => merge_loop flags [] old [] new end
  end.
(** cil_resolve_ast.c:1364-1377: one round over the statements, each with its flag [merged]; gives also the number of those
    that wait and whether one was merged. *)
Fixpoint round (flags comp : list N) (stmts : list (bool * list N)) : list N * list N * list (bool * list N) * N * bool :=
  match stmts with
  | [] => (flags, comp, [], 0, false)
  | (m, s) :: stmts' =>
      if m then
        match round flags comp stmts' with (f, c, r, w, ch) => (f, c, (m, s) :: r, w, ch) end
      else
        match merge flags comp s with
        | (true, f1, c1) => match round f1 c1 stmts' with (f, c, r, w, _) => (f, c, (true, s) :: r, w, true) end
        | (false, f1, c1) => match round f1 c1 stmts' with (f, c, r, w, ch) => (f, c, (false, s) :: r, w + 1, ch) end
        end
  end.
(** Outcomes; [Endless] is not one of the code: the bound on the number of rounds was too small. *)
Inductive outcome (A : Type) := Made (a : A) | Refused | Endless.
Arguments Made {A} a.
Arguments Refused {A}.
Arguments Endless {A}.
(** cil_resolve_ast.c:1361-1388: the rounds. *)
Fixpoint rounds (fuel : nat) (flags comp : list N) (stmts : list (bool * list N)) : outcome (list N * list N) :=
  match fuel with
  | O => Endless
  | S fuel' =>
      match round flags comp stmts with
      | (f, c, stmts', w, ch) => if w =? 0 then Made (f, c) else if ch then rounds fuel' f c stmts' else Refused
      end
  end.

(** ** The check *)
(** cil_verify.c:542-546, 568: the items of a statement with the ones before and behind. *)
Fixpoint triples (prev : option N) (s : list N) : list (option N * N * option N) :=
  match s with [] => [] | x :: s' => (prev, x, hd_error s') :: triples (Some x) s' end.
(** Comparison of two neighbours, which may be absent (cil_verify.c:548-549, 553-554). *)
Definition alike (a b : option N) : bool :=
  match a, b with Some x, Some y => x =? y | None, None => true | _, _ => false end.
(** The variables cprev, ccurr with what follows it, found_prev, found_next, change. *)
Record vst := mkV { v_prev : option N; v_rest : list N; v_fp : bool; v_fn : bool; v_change : bool }.
(** cil_verify.c:547-567: one item of a statement. With nothing left the function has returned. *)
Definition scan_item (v : vst) (t : option N * N * option N) : vst :=
  match v_rest v with
  | [] => v
  | c :: rest =>
      match t with
      | (op, oc, on) =>
          if c =? oc then
            let np := negb (v_fp v) && alike (v_prev v) op in
            let nn := negb (v_fn v) && alike (hd_error rest) on in
            let fp := v_fp v || np in
            let fn := v_fn v || nn in
            let ch := v_change v || np || nn in
            if fp && fn then mkV (Some c) rest false false ch else mkV (v_prev v) (c :: rest) fp fn ch
          else v
      end
  end.
(** cil_verify.c:534-592: the loop; [rc] is whether no error was found. *)
Fixpoint verify_loop (fuel : nat) (ts : list (option N * N * option N)) (v : vst) (rc : bool) : outcome bool :=
  match fuel with
  | O => Endless
  | S fuel' =>
      match v_rest v with
      | [] => Made rc
      | _ =>
          let v' := fold_left scan_item ts (mkV (v_prev v) (v_rest v) (v_fp v) (v_fn v) false) in
          match v_rest v' with
          | [] => Made rc
          | c :: rest => if v_change v' then verify_loop fuel' ts v' rc else verify_loop fuel' ts (mkV (Some c) rest false false false) false
          end
      end
  end.
(** cil_verify.c:524-595 (cil_verify_completed_ordered_list). *)
Definition verify (complete : list N) (stmts : list (list N)) : outcome bool :=
  verify_loop (3 * length complete + 1) (flat_map (triples None) stmts) (mkV None complete false false false) true.

(** ** The rest *)
(** cil_resolve_ast.c:1313-1347 (insert_unordered), over all the items of the unordered statements. *)
Fixpoint insert_unordered (flags merged items : list N) : outcome (list N * list N) :=
  match items with
  | [] => Made (flags, merged)
  | x :: items' =>
      if within x merged then insert_unordered flags merged items'
      else match list_insert flags merged [x] with
           | (true, f, m) => insert_unordered f m items'
           | (false, _, _) => Refused
           end
  end.
(** cil_resolve_ast.c:1349-1408 (__cil_ordered_lists_merge_all) with the flags as they are after reading or after
    cil_reset_ast.c:14-18, 40, 246, 251, 460, and cil_verify.c:600-647 (__cil_verify_ordered) for the declared symbols. *)
Definition resolve_order (declared : list N) (ordered unordered : list (list N)) : outcome (list N) :=
  match rounds (S (length ordered)) [] [] (map (fun s => (false, s)) ordered) with
  | Made (f, c) =>
      match verify c ordered with
      | Made true =>
          match insert_unordered f c (concat unordered) with
          | Made (f', c') => if forallb (fun x => within x f') declared then Made c' else Refused
          | Refused => Refused
          | Endless => Endless
          end
      | Made false => Refused
      | Refused => Refused
      | Endless => Endless
      end
  | Refused => Refused
  | Endless => Endless
  end.
(** cil_resolve_ast.c:1465-1477 (cil_set_cat_values): the value of a category is its place. *)
Fixpoint value_from (v : N) (l : list N) (x : N) : option N :=
  match l with [] => None | y :: l' => if x =? y then Some v else value_from (v + 1) l' x end.
