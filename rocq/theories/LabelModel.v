(** Model of the file label backend: libselinux/src/label_file.c and label_file.h (specifications, the tree, lookup, path
    cleaning and substitution). Strings are lists of bytes without NUL. Allocation failures are not modelled, nor are the
    messages and statistics (any_matches), nor binary (mmap) files. The regular-expression engine is a parameter. *)
From Verif Require Import Base MlsModel.

(** The character '/'. *)
Definition slash : N := 47.
(** strcmp (its sign). *)
Fixpoint scmp (a b : list N) : comparison :=
  match a, b with
  | [], [] => Eq
  | [], _ => Lt
  | _, [] => Gt
  | x :: a', y :: b' => match x ?= y with Eq => scmp a' b' | r => r end
  end.
(** strncmp (its sign). *)
Definition sncmp (n : nat) (a b : list N) : comparison := scmp (firstn n a) (firstn n b).
(** strchr(s, '/'): the text before the first slash, and the rest beginning with it. *)
Fixpoint break_slash (s : list N) : option (list N * list N) :=
  match s with
  | [] => None
  | c :: t => if c =? slash then Some ([], s) else match break_slash t with Some (a, q) => Some (c :: a, q) | None => None end
  end.

(** One specification as read (label_file.h:794-870, process_line): regular expression, file kind (0 any; label_file.h:44-52),
    context, input number and line number. *)
Record spec := mkSpec { sp_regex : list N; sp_kind : N; sp_ctx : list N; sp_in : N; sp_line : N }.
(** The string "<<none>>". *)
Definition none_ctx : list N := [60;60;110;111;110;101;62;62].

(** The meta characters of label_file.h:239-252: . ^ $ ? * + | [ ( { ] ) and right brace. *)
Definition is_meta (c : N) : bool := existsb (N.eqb c) [46; 94; 36; 63; 42; 43; 124; 91; 40; 123; 93; 41; 125].
(** What may follow a backslash (label_file.h:258-275): the meta characters and - _ and comma. *)
Definition is_curated (c : N) : bool := is_meta c || existsb (N.eqb c) [45; 95; 44].
(** The backslash. *)
Definition bslash : N := 92.

(** label_file.h:233-287 (regex_has_meta_chars): result and prefix length. *)
Fixpoint regex_has_meta_chars (r : list N) : bool * N :=
  match r with
  | [] => (false, 0)
  | c :: t =>
      if is_meta c then (true, 0)
      else if c =? bslash then
        match t with
        | e :: t' => if is_curated e then let (b, n) := regex_has_meta_chars t' in (b, n + 1) else (true, 0)
        | [] => (true, 0)
        end
      else let (b, n) := regex_has_meta_chars t in (b, n + 1)
  end.
(** label_file.h:289-358 (regex_simplify): the simplified text, or result 0. *)
Fixpoint regex_simplify (r : list N) : option (list N) :=
  match r with
  | [] => Some []
  | c :: t =>
      if is_meta c then None
      else if c =? bslash then
        match t with
        | e :: t' => if is_curated e then match regex_simplify t' with Some s => Some (e :: s) | None => None end else None
        | [] => None
        end
      else match regex_simplify t with Some s => Some (c :: s) | None => None end
  end.

(** label_file.h:86-123 (struct regex_spec, struct literal_spec). *)
Record rspec := mkR { rs_spec : spec; rs_plen : N }.
(** As above. *)
Record lspec := mkL { ls_match : list N; ls_spec : spec; ls_plen : N }.
(** label_file.h:134-164 (struct spec_node); a child is kept with its stem. *)
Inductive node := Node (lits : list lspec) (regs : list rspec) (children : list (list N * node)).
(** The fields. *)
Definition n_lits (n : node) : list lspec := match n with Node l _ _ => l end.
(** As above. *)
Definition n_regs (n : node) : list rspec := match n with Node _ r _ => r end.
(** As above. *)
Definition n_children (n : node) : list (list N * node) := match n with Node _ _ c => c end.
(** A new node (label_file.h:589-593). *)
Definition empty_node : node := Node [] [] [].

(** SPEC_NODE_MAX_DEPTH (label_file.h:131). *)
Definition max_depth : nat := 3.
(** label_file.h:542-606: the stems under which an expression is put; [p] becomes shorter in every round, so that the fuel
    of [regex_stems] suffices. *)
Fixpoint regex_stems_loop (fuel depth : nat) (p : list N) : list (list N) :=
  match fuel, depth with
  | S f, S d =>
      match break_slash (tl p) with
      | None => []
      | Some ([], q) => regex_stems_loop f (S d) q
      | Some (seg, q) =>
          match regex_simplify seg with
          | None => []
          | Some stem => if 65535 <=? N.of_nat (length stem) then [] else stem :: regex_stems_loop f d q
          end
      end
  | _, _ => []
  end.
(** As above. *)
Definition regex_stems (r : list N) : list (list N) := regex_stems_loop (length r) max_depth r.
(** label_file.h:669-730: the stems under which a literal is put. *)
Fixpoint literal_stems_loop (fuel depth : nat) (p : list N) : list (list N) :=
  match fuel, depth with
  | S f, S d =>
      match p with
      | c :: t =>
          if negb (c =? slash) then []
          else match break_slash t with
               | None => []
               | Some ([], q) => literal_stems_loop f (S d) q
               | Some (seg, q) => seg :: literal_stems_loop f d q
               end
      | [] => []
      end
  | _, _ => []
  end.
(** As above. *)
Definition literal_stems (l : list N) : list (list N) := literal_stems_loop (length l) max_depth l.

(** label_file.h:571-596, 694-727: the child with this stem, or a new last one, changed by [g]. *)
Fixpoint update_child (s : list N) (g : node -> node) (cs : list (list N * node)) : list (list N * node) :=
  match cs with
  | [] => [(s, g empty_node)]
  | (t, c) :: r => if str_eqb t s then (t, g c) :: r else (t, c) :: update_child s g r
  end.
(** Going down along the stems (label_file.h:542-606, 669-730) and changing the node reached. *)
Fixpoint update_at (path : list (list N)) (f : node -> node) (n : node) : node :=
  match path with
  | [] => f n
  | s :: p => Node (n_lits n) (n_regs n) (update_child s (update_at p f) (n_children n))
  end.
(** label_file.h:608-631. *)
Definition add_reg (r : rspec) (n : node) : node := Node (n_lits n) (n_regs n ++ [r]) (n_children n).
(** label_file.h:732-757. *)
Definition add_lit (l : lspec) (n : node) : node := Node (n_lits n ++ [l]) (n_regs n) (n_children n).

(** Results of insert_spec: 0 with the new tree (and whether the specification was kept), -1, a failed assert. *)
Inductive ires := IOk (n : node) (kept : bool) | IErr | IAbort.
(** label_file.h:565-570 and 687-692: the option SELABEL_OPT_SUBSET, given as the text after its slash, is compared with
    the first stem; for literals over the length of the stem only. *)
Definition subset_skips (meta : bool) (prefix : option (list N)) (stems : list (list N)) : bool :=
  match prefix, stems with
  | Some p, st :: _ =>
      if meta then negb (str_eqb p st) else match sncmp (length st) p st with Eq => false | _ => true end
  | _, _ => false
  end.
(** label_file.h:510-777 (insert_spec) without validation; the number of specifications stays below 2^64. *)
Definition insert_spec (prefix : option (list N)) (s : spec) (root : node) : ires :=
  let (meta, plen) := regex_has_meta_chars (sp_regex s) in
  if 65535 <=? plen then IAbort
  else if meta then
    let st := regex_stems (sp_regex s) in
    if subset_skips true prefix st then IOk root false
    else IOk (update_at st (add_reg (mkR s plen)) root) true
  else
    match regex_simplify (sp_regex s) with
    | None => IErr
    | Some lit =>
        let st := literal_stems lit in
        if subset_skips false prefix st then IOk root false
        else if plen =? N.of_nat (length lit) then IOk (update_at st (add_lit (mkL lit s plen)) root) true
        else IAbort
    end.
(** The specifications of all input, in order; the number of those kept (data->num_specs). *)
Fixpoint insert_all (prefix : option (list N)) (l : list spec) (root : node) (num : N) : option (node * N) :=
  match l with
  | [] => Some (root, num)
  | s :: l' =>
      match insert_spec prefix s root with
      | IOk root' kept => insert_all prefix l' root' (if kept then num + 1 else num)
      | _ => None
      end
  end.

(** label_file.h:360-372 (compare_literal_spec). *)
Definition compare_literal_spec (a b : lspec) : comparison :=
  match scmp (ls_match a) (ls_match b) with
  | Eq => sp_kind (ls_spec b) ?= sp_kind (ls_spec a)
  | r => r
  end.
(** Insertion of a child into a sorted list (qsort with compare_spec_node, label_file.h:374-384: the stems are distinct, so
    the result of sorting does not depend on the algorithm). *)
Fixpoint insert_child (c : list N * node) (l : list (list N * node)) : list (list N * node) :=
  match l with
  | [] => [c]
  | d :: l' => match scmp (fst c) (fst d) with Gt => d :: insert_child c l' | _ => c :: l end
  end.
(** As above. *)
Fixpoint sort_children (l : list (list N * node)) : list (list N * node) :=
  match l with [] => [] | c :: l' => insert_child c (sort_children l') end.
(** label_file.c:78-103 (sort_spec_node). [qsort] sorts literal specifications by compare_literal_spec in whatever way. The
    asserts are not modelled. *)
Fixpoint sort_spec_node (qsort : list lspec -> list lspec) (n : node) : node :=
  match n with
  | Node l r cs => Node (qsort l) r (sort_children (map (fun p => (fst p, sort_spec_node qsort (snd p))) cs))
  end.

(** label_file.c:112-143: two neighbouring literal specifications. *)
Definition lit_dup (a b : lspec) : bool :=
  str_eqb (ls_match a) (ls_match b) &&
  ((sp_kind (ls_spec a) =? 0) || (sp_kind (ls_spec b) =? 0) || (sp_kind (ls_spec a) =? sp_kind (ls_spec b))).
(** As above. *)
Fixpoint lits_nodup (l : list lspec) : bool :=
  match l with
  | a :: ((b :: _) as l') => negb (lit_dup a b) && lits_nodup l'
  | _ => true
  end.
(** label_file.c:145-181: two regular-expression specifications. *)
Definition reg_dup (a b : rspec) : bool :=
  (rs_plen a =? rs_plen b) && str_eqb (sp_regex (rs_spec a)) (sp_regex (rs_spec b)) &&
  ((sp_kind (rs_spec a) =? 0) || (sp_kind (rs_spec b) =? 0) || (sp_kind (rs_spec a) =? sp_kind (rs_spec b))).
(** As above. *)
Fixpoint regs_nodup (l : list rspec) : bool :=
  match l with [] => true | a :: l' => forallb (fun b => negb (reg_dup a b)) l' && regs_nodup l' end.
(** label_file.c:108-192 (nodups_spec_node): true for result 0. *)
Fixpoint nodups_spec_node (n : node) : bool :=
  match n with Node l r cs => lits_nodup l && regs_nodup r && forallb (fun p => nodups_spec_node (snd p)) cs end.

(** label_file.c:194-211 (process_text_file): the lines of a file with specifications, numbered from 1; the other lines are
    comments or empty. *)
Definition file_specs (inputno : N) (lines : list (option (list N * N * list N))) : list spec :=
  concat (map (fun p => match snd p with Some (r, k, c) => [mkSpec r k c inputno (wrap32 (N.of_nat (fst p)))] | None => [] end)
    (combine (seq 1 (length lines)) lines)).
(** The opened database (struct saved_data, label_file.h:174-197): tree, number of specifications, substitutions. *)
Record data := mkData { d_root : node; d_num : N; d_subs : list (list N * list N); d_dist : list (list N * list N) }.
(** label_file.c:1394-1506 (init) after the options; [validating] without the checks of expressions and contexts. A missing
    optional file has no lines. *)
Definition init (qsort : list lspec -> list lspec) (prefix : option (list N)) (validating baseonly : bool)
    (subs dist : list (list N * list N)) (base homedirs local : list (option (list N * N * list N))) : option data :=
  match insert_all prefix (file_specs 0 base) empty_node 0 with
  | None => None
  | Some (t0, n0) =>
      let t1 := if validating then sort_spec_node qsort t0 else t0 in
      if validating && negb (nodups_spec_node t1) then None
      else
        match (if baseonly then Some (t1, n0)
               else match insert_all prefix (file_specs 1 homedirs) t1 n0 with
                    | None => None
                    | Some (t2, n2) => insert_all prefix (file_specs 2 local) t2 n2
                    end) with
        | None => None
        | Some (t3, n3) =>
            Some (mkData (if negb validating || negb baseonly then sort_spec_node qsort t3 else t3) n3 subs dist)
        end
  end.

(** The comparison used by search_literal_spec (label_file.c:1546-1549). *)
Definition lit_cmp (partial : bool) (key : list N) (l : lspec) : comparison :=
  if partial then sncmp (length key) (ls_match l) key else scmp (ls_match l) key.
(** label_file.c:1553-1563: going back to the first. *)
Fixpoint lit_back (A : list lspec) (partial : bool) (key : list N) (m : nat) : nat :=
  match m with
  | O => O
  | S m' =>
      match nth_error A m' with
      | Some l => match lit_cmp partial key l with Eq => lit_back A partial key m' | _ => m end
      | None => m
      end
  end.
(** label_file.c:1543-1577: the loop; the interval becomes smaller in every round. *)
Fixpoint lit_loop (fuel : nat) (A : list lspec) (partial : bool) (key : list N) (lower upper : nat) : option nat :=
  match fuel with
  | O => None
  | S f =>
      if (lower <=? upper)%nat then
        let m := (lower + (upper - lower) / 2)%nat in
        match nth_error A m with
        | None => None
        | Some l =>
            match lit_cmp partial key l with
            | Eq => Some (lit_back A partial key m)
            | Lt => lit_loop f A partial key (m + 1) upper
            | Gt => if (m =? 0)%nat then None else lit_loop f A partial key lower (m - 1)
            end
        end
      else None
  end.
(** label_file.c:1533-1579 (search_literal_spec). *)
Definition search_literal_spec (A : list lspec) (partial : bool) (key : list N) : option nat :=
  match A with [] => None | _ => lit_loop (S (length A)) A partial key 0 (length A - 1) end.

(** label_file.c:1778-1797: the loop over the sorted children. *)
Fixpoint child_loop (fuel : nat) (A : list (list N * node)) (key : list N) (lower upper : nat) : option node :=
  match fuel with
  | O => None
  | S f =>
      if (lower <=? upper)%nat then
        let m := (lower + (upper - lower) / 2)%nat in
        match nth_error A m with
        | None => None
        | Some (stem, c) =>
            match sncmp (length key) stem key with
            | Eq => if (length stem =? length key)%nat then Some c else if (m =? 0)%nat then None else child_loop f A key lower (m - 1)
            | Lt => child_loop f A key (m + 1) upper
            | Gt => if (m =? 0)%nat then None else child_loop f A key lower (m - 1)
            end
        end
      else None
  end.
(** label_file.c:1769-1799 (search_child_node). *)
Definition search_child_node (A : list (list N * node)) (key : list N) : option node :=
  match A with [] => None | _ => child_loop (S (length A)) A key 0 (length A - 1) end.

(** label_file.c:1801-1833 (lookup_find_deepest_node): the node with its ancestors (the parent pointers), deepest first. *)
Fixpoint deepest_loop (fuel : nat) (p : list N) (n : node) (above : list node) : list node :=
  match fuel with
  | O => n :: above
  | S f =>
      match p with
      | c :: t =>
          if negb (c =? slash) then n :: above
          else match break_slash t with
               | None => n :: above
               | Some ([], _) => n :: above
               | Some (seg, q) =>
                   match search_child_node (n_children n) seg with
                   | None => n :: above
                   | Some child => deepest_loop f q child (n :: above)
                   end
               end
      | [] => n :: above
      end
  end.
(** As above. *)
Definition lookup_find_deepest_node (root : node) (key : list N) : list node := deepest_loop (length key) key root [].

(** label_file.h:55-62 (struct lookup_result). *)
Record found := mkF { f_spec : spec; f_plen : N; f_meta : bool }.
(** What compiling and matching an anchored expression gives: REGEX_MATCH, REGEX_MATCH_PARTIAL, REGEX_NO_MATCH, an error
    of matching, an expression that does not compile (label_file.c:1686-1753). *)
Inductive rx := RxMatch | RxPartial | RxNo | RxError | RxBad.
(** An engine: expression, key, partial. *)
Definition engine := list N -> list N -> bool -> rx.

(** Applicability by file kind (label_file.c:1628, 1683). *)
Definition kind_ok (kind k : N) : bool := (kind =? 0) || (k =? 0) || (k =? kind).
(** Result of looking through the literals of a node: NULL, a result at once, or the results so far (label_file.c:1623-1671). *)
Inductive lres := LFail | LRet (f : found) | LGo (acc : list found).
(** label_file.c:1625-1670: the loop from the first literal found on. *)
Fixpoint lit_scan (partial find_all : bool) (key : list N) (kind : N) (l : list lspec) (acc : list found) : lres :=
  match l with
  | [] => LGo acc
  | s :: l' =>
      match lit_cmp partial key s with
      | Eq =>
          if kind_ok kind (sp_kind (ls_spec s)) then
            if str_eqb (sp_ctx (ls_spec s)) none_ctx then LFail
            else let r := mkF (ls_spec s) (ls_plen s) false in
                 if find_all then lit_scan partial find_all key kind l' (acc ++ [r]) else LRet r
          else lit_scan partial find_all key kind l' acc
      | _ => LGo acc
      end
  end.
(** label_file.c:1679-1681: the expression is older than the match found below. *)
Definition older (s c : spec) : bool := (sp_in s <? sp_in c) || ((sp_in s =? sp_in c) && (sp_line s <? sp_line c)).
(** Result of looking through the expressions of a node: NULL, or the match found so far and the results so far. *)
Inductive gres := GFail | GGo (child : option found) (acc : list found).
(** label_file.c:1673-1753: the loop, last expression first ([l] is the reversed array). *)
Fixpoint reg_scan (E : engine) (partial find_all : bool) (key : list N) (kind : N) (l : list rspec)
    (child : option found) (acc : list found) : gres :=
  match l with
  | [] => GGo child acc
  | s :: l' =>
      if match child with Some c => older (rs_spec s) (f_spec c) | None => false end then GGo child acc
      else if negb (kind_ok kind (sp_kind (rs_spec s))) then reg_scan E partial find_all key kind l' child acc
      else
        let hit :=
          if str_eqb (sp_ctx (rs_spec s)) none_ctx then GFail
          else let r := mkF (rs_spec s) (rs_plen s) true in
               if find_all then reg_scan E partial find_all key kind l' child (acc ++ [r]) else GGo (Some r) acc in
        match E (sp_regex (rs_spec s)) key partial with
        | RxBad => GFail
        | RxMatch => hit
        | RxPartial => if partial then hit else GFail
        | RxNo => reg_scan E partial find_all key kind l' child acc
        | RxError => GFail
        end
  end.
(** label_file.c:1621-1757: the nodes, each followed by its parent. *)
Fixpoint regs_up (E : engine) (partial find_all : bool) (key : list N) (kind : N) (chain : list node)
    (child : option found) (acc : list found) : gres :=
  match chain with
  | [] => GGo child acc
  | n :: up =>
      match reg_scan E partial find_all key kind (rev (n_regs n)) child acc with
      | GFail => GFail
      | GGo child' acc' => regs_up E partial find_all key kind up child' acc'
      end
  end.
(** label_file.c:1607-1767 (lookup_check_node): the results; none is NULL. *)
Definition lookup_check_node (E : engine) (chain : list node) (key : list N) (kind : N) (partial find_all : bool) : list found :=
  let lits := match chain with n :: _ => n_lits n | [] => [] end in
  let start :=
    match search_literal_spec lits partial key with
    | None => LGo []
    | Some i => lit_scan partial find_all key kind (skipn i lits) []
    end in
  match start with
  | LFail => []
  | LRet r => [r]
  | LGo acc =>
      match regs_up E partial find_all key kind chain None acc with
      | GFail => []
      | GGo (Some c) _ => [c]
      | GGo None acc' => acc'
      end
  end.

(** strstr(s, "//"): the text before it and the rest beginning with it. *)
Fixpoint strstr_slashes (s : list N) : option (list N * list N) :=
  match s with
  | c :: ((d :: _) as t) =>
      if (c =? slash) && (d =? slash) then Some ([], s)
      else match strstr_slashes t with Some (a, b) => Some (c :: a, b) | None => None end
  | _ => None
  end.
(** label_file.c:1893-1906: the loop; the rest becomes shorter in every round. *)
Fixpoint clean_loop (fuel : nat) (prev : list N) : list N :=
  match fuel with
  | O => prev
  | S f => match strstr_slashes prev with None => prev | Some (a, b) => a ++ clean_loop f (tl b) end
  end.
(** label_file.c:1893-1929: without duplicate slashes and without a final one; the empty key is refused. *)
Definition clean_key (key : list N) : option (list N) :=
  let k := clean_loop (length key) key in
  match k with
  | [] => None
  | _ => Some (if (1 <? N.of_nat (length k)) && (last k 0 =? slash) then removelast k else k)
  end.

(** label_file.c:1231-1261 (selabel_apply_subs): [src] is NUL-terminated. *)
Fixpoint selabel_apply_subs (subs : list (list N * list N)) (src : list N) : option (list N) :=
  match subs with
  | [] => None
  | (s, d) :: subs' =>
      match sncmp (length s) src s with
      | Eq =>
          let next := nth (length s) src 0 in
          if (next =? slash) || (next =? 0) then
            let len := if (next =? slash) && str_eqb d [slash] then S (length s) else length s in
            Some (d ++ skipn len src)
          else selabel_apply_subs subs' src
      | _ => selabel_apply_subs subs' src
      end
  end.
(** label_file.c:1373-1389 (selabel_sub_key). *)
Definition selabel_sub_key (D : data) (key : list N) : option (list N) :=
  match selabel_apply_subs (d_subs D) key with
  | Some p => match selabel_apply_subs (d_dist D) p with Some d => Some d | None => Some p end
  | None => selabel_apply_subs (d_dist D) key
  end.

(** label_file.c:1835-1857 (mode_to_file_kind), S_IFMT = 0170000. *)
Definition mode_to_file_kind (mode : N) : N :=
  let t := N.land mode 61440 in
  if t =? 24576 then 3 else if t =? 8192 then 2 else if t =? 16384 then 1 else if t =? 4096 then 5
  else if t =? 40960 then 6 else if t =? 49152 then 4 else if t =? 32768 then 7 else 0.

(** label_file.c:1862-1939 (lookup_all): the results; none is NULL. *)
Definition lookup_all (E : engine) (D : data) (key : list N) (mode : N) (partial find_all : bool) : list found :=
  if d_num D =? 0 then []
  else match clean_key key with
       | None => []
       | Some k =>
           let k' := match selabel_sub_key D k with Some s => s | None => k end in
           lookup_check_node E (lookup_find_deepest_node (d_root D) k') k' (mode_to_file_kind mode) partial find_all
       end.
(** label_file.c:2032-2042 (lookup), 1941-1947 (lookup_common). *)
Definition lookup (E : engine) (D : data) (key : list N) (mode : N) : option found := hd_error (lookup_all E D key mode false false).
(** label_file.c:2044-2049 (partial_match). *)
Definition partial_match (E : engine) (D : data) (key : list N) : bool :=
  match lookup_all E D key 0 true false with [] => false | _ => true end.

(** label_file.c:2079-2092: the loop over the aliases; an exact match ends it. *)
Fixpoint best_loop (E : engine) (D : data) (mode : N) (aliases : list (list N)) (best : option found) (plen : N) : option found :=
  match aliases with
  | [] => best
  | a :: l =>
      match lookup E D a mode with
      | Some r =>
          if negb (f_meta r) then Some r
          else if plen <? f_plen r then best_loop E D mode l (Some r) (f_plen r) else best_loop E D mode l best plen
      | None => best_loop E D mode l best plen
      end
  end.
(** label_file.c:2051-2107 (lookup_best_match). *)
Definition lookup_best_match (E : engine) (D : data) (key : list N) (aliases : list (list N)) (mode : N) : option found :=
  match aliases with
  | [] => lookup E D key mode
  | _ =>
      match lookup E D key mode with
      | Some r => if negb (f_meta r) then Some r else best_loop E D mode aliases (Some r) (f_plen r)
      | None => best_loop E D mode aliases None 0
      end
  end.
