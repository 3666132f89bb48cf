(** Model of the sorting of file contexts, libsemanage/src/semanage_store.c:2248-2834. Allocation
    failures are not modelled; lengths do not overflow; texts have no NUL byte (strndup would stop
    there). *)
From Verif Require Import Base MlsModel ContextModel LoginModel.

(** libsemanage/src/semanage_store.h (semanage_file_context_node_t); path_len, type_len and
    context_len are the lengths of the fields. *)
Record fnode := mkFN { f_path : list N; f_type : option (list N); f_ctx : list N;
                       f_eff : N; f_meta : Z }.

(** libsemanage/src/semanage_store.c:2303-2340 (semanage_fc_compare). *)
Definition fc_compare (a b : fnode) : Z :=
  let am := (0 <=? f_meta a)%Z in
  let bm := (0 <=? f_meta b)%Z in
  let at_ := match f_type a with Some _ => true | None => false end in
  let bt := match f_type b with Some _ => true | None => false end in
  if am && negb bm then (-1)%Z
  else if bm && negb am then 1%Z
  else if (f_meta a <? f_meta b)%Z then (-1)%Z
  else if (f_meta b <? f_meta a)%Z then 1%Z
  else if f_eff a <? f_eff b then (-1)%Z
  else if f_eff b <? f_eff a then 1%Z
  else if negb at_ && bt then (-1)%Z
  else if negb bt && at_ then 1%Z
  else 0%Z.

(** libsemanage/src/semanage_store.c:2346-2385 (semanage_fc_merge). *)
Fixpoint fc_merge (left : list fnode) : list fnode -> list fnode :=
  fix go (right : list fnode) : list fnode :=
    match left, right with
    | [], _ => right
    | _, [] => left
    | a :: left', b :: right' =>
        if (fc_compare a b =? 1)%Z then b :: go right' else a :: fc_merge left' right
    end.

(** libsemanage/src/semanage_store.c:2414-2429: one pass merging buckets two by two. *)
Fixpoint merge_pass (buckets : list (list fnode)) : list (list fnode) :=
  match buckets with
  | a :: b :: rest => fc_merge a b :: merge_pass rest
  | other => other
  end.

(** libsemanage/src/semanage_store.c:2400-2431 (semanage_fc_merge_sort): passes until one bucket is
    left; [None] when the fuel runs out. *)
Fixpoint merge_sort (fuel : nat) (buckets : list (list fnode)) : option (list fnode) :=
  match buckets with
  | [] => Some []
  | [b] => Some b
  | _ => match fuel with O => None | S f => merge_sort f (merge_pass buckets) end
  end.

(** libsemanage/src/semanage_store.c:2451-2460: . ^ $ ? * + | [ ( { *)
Definition is_metachar (c : N) : bool :=
  (c =? 46) || (c =? 94) || (c =? 36) || (c =? 63) || (c =? 42) || (c =? 43) || (c =? 124)
  || (c =? 91) || (c =? 40) || (c =? 123).

(** libsemanage/src/semanage_store.c:2439-2473 (semanage_fc_find_meta). After a backslash the next
    character is skipped without looking whether it is the terminating NUL: a path ending in an
    unpaired backslash makes the loop read past its end ([None]). *)
Fixpoint find_meta (path : list N) (c escape_chars : Z) : option Z :=
  match path with
  | [] => Some (-1)%Z
  | x :: t =>
      if is_metachar x then Some (c - escape_chars)%Z
      else if x =? 92 then
        match t with
        | [] => None
        | _ :: t' => find_meta t' (c + 2)%Z (escape_chars + 1)%Z
        end
      else find_meta t (c + 1)%Z escape_chars
  end.

(** libsemanage/src/semanage_store.c:2612-2629: the number of escape characters. *)
Fixpoint count_escapes (path : list N) (just_saw_escape : bool) : N :=
  match path with
  | [] => 0
  | x :: t =>
      if x =? 92 then
        if just_saw_escape then count_escapes t false else 1 + count_escapes t true
      else count_escapes t false
  end.

(** Outcome for one line: left out, an entry, or a read out of bounds. *)
Inductive pline := PSkip | PNode (n : fnode) | PUB.

(** libsemanage/src/semanage_store.c:2717-2722: the derived fields of a node. *)
Definition make_node (path : list N) (type : option (list N)) (ctx : list N) : pline :=
  match find_meta path 0 0 with
  | None => PUB
  | Some m => PNode (mkFN path type ctx (N.of_nat (length path) - count_escapes path false) m)
  end.

(** libsemanage/src/semanage_store.c:2576-2726: one line, including its terminator. *)
Definition parse_fc_line (line : list N) : pline :=
  if (length line <=? 1)%nat then PSkip
  else
    let '(_, r) := span isspace line in
    match r with
    | [] => PSkip
    | c :: _ =>
        if c =? 35 then PSkip
        else
          let '(path, r1) := span (fun c => negb (isspace c)) r in
          let '(_, r2) := span isspace r1 in
          match r2 with
          | [] => PSkip
          | c2 :: _ =>
              if c2 =? 45 then
                if (length r2 <=? 2)%nat then PSkip
                else
                  let '(_, r3) := span isspace (skipn 2 r2) in
                  match r3 with
                  | [] => PSkip
                  | _ =>
                      let '(ctx, _) := span (fun c => negb (isspace c)) r3 in
                      make_node path (Some (firstn 2 r2)) ctx
                  end
              else
                let '(ctx, _) := span (fun c => negb (isspace c)) r2 in
                make_node path None ctx
          end
    end.

(** libsemanage/src/semanage_store.c:2476-2492 (semanage_strnchr): the text up to and including the
    character, and the text after it. *)
Fixpoint cut (c : N) (s : list N) : option (list N * list N) :=
  match s with
  | [] => None
  | x :: t =>
      if x =? c then Some ([x], t)
      else match cut c t with Some (a, r) => Some (x :: a, r) | None => None end
  end.

(** libsemanage/src/semanage_store.c:2498-2514 (semanage_get_line_end): the line ends at the next
    newline, else the next carriage return, else the next byte equal to (char)EOF. *)
Definition get_line (s : list N) : option (list N * list N) :=
  match cut 10 s with
  | Some x => Some x
  | None => match cut 13 s with Some x => Some x | None => cut 255 s end
  end.

(** libsemanage/src/semanage_store.c:2563-2729: the list of nodes; [fuel] is at least the length.
    What follows the last line end is left out. *)
Fixpoint parse_fc (fuel : nat) (s : list N) : res (list fnode) :=
  match fuel with
  | O => RErr
  | S f =>
      match get_line s with
      | None => ROk []
      | Some (line, rest) =>
          match parse_fc_line line with
          | PUB => RUB
          | PSkip => parse_fc f rest
          | PNode n =>
              match parse_fc f rest with
              | ROk l => ROk (n :: l)
              | other => other
              end
          end
      end
  end.

(** libsemanage/src/semanage_store.c:2798-2818: the output for one node. *)
Definition print_node (n : fnode) : list N :=
  f_path n ++ [9] ++ (match f_type n with Some t => t ++ [9] | None => [] end) ++ f_ctx n ++ [10].

(** libsemanage/src/semanage_store.c:2523-2834 (semanage_fc_sort): the sorted buffer with its final
    NUL. *)
Definition fc_sort (buf : list N) : res (list N) :=
  match buf with
  | [] => RErr
  | _ =>
      match parse_fc (S (length buf)) buf with
      | ROk nodes =>
          match merge_sort (length nodes) (match nodes with [] => [[]] | _ => map (fun n => [n]) nodes end) with
          | None => RErr
          | Some sorted => ROk (flat_map print_node sorted ++ [0])
          end
      | RErr => RErr
      | RUB => RUB
      end
  end.
