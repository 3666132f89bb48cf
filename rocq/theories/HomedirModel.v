(** Model of the writing of file contexts for home directories from a template: libsemanage/src/genhomedircon.c, with the text
    replacement of libsemanage/src/utilities.c. Texts are C strings: lists of bytes other than 0. Allocation and write failures are left
    out, and so is the making of the list of users and of home roots (their records are given). *)
From Verif Require Import Base MlsModel ContextModel LoginModel.

(** libsemanage/src/utilities.c:58-68 (semanage_is_prefix). *)
Fixpoint is_prefix (w s : list N) : bool :=
  match w, s with
  | [], _ => true
  | x :: w', y :: s' => (x =? y) && is_prefix w' s'
  | _ :: _, [] => false
  end.
(** strstr: the text before the first occurrence of [w] and the text behind it. *)
Fixpoint strstr (w s : list N) : option (list N * list N) :=
  if is_prefix w s then Some ([], skipn (length w) s)
  else match s with
       | [] => None
       | c :: t => match strstr w t with Some (a, b) => Some (c :: a, b) | None => None end
       end.
(** size_t. *)
Definition SIZE : N := 2 ^ 64.
(** libsemanage/src/utilities.c:247-251: the occurrences, counted up to the limit (0: none). [None]: the fuel ran out. *)
Fixpoint count_loop (fuel : nat) (w s : list N) (lim count : N) : option N :=
  match fuel with
  | O => None
  | S fuel' =>
    match strstr w s with
    | None => Some count
    | Some (_, b) => let count := count + 1 in
                     if negb (lim =? 0) && (lim <=? count) then Some count else count_loop fuel' w b lim count
    end
  end.
(** memcpy of a piece behind what was written, into a buffer of [cap] bytes; [None]: beyond its end. *)
Definition write_piece (cap : N) (out piece : list N) : option (list N) :=
  if N.of_nat (length out) + N.of_nat (length piece) <=? cap then Some (out ++ piece) else None.
(** libsemanage/src/utilities.c:264-281: filling the result. [RErr]: the fuel ran out. *)
Fixpoint fill_loop (fuel : nat) (w r s : list N) (count cap : N) (out : list N) : res (list N * list N) :=
  match fuel with
  | O => RErr
  | S fuel' =>
    match strstr w s with
    | None => ROk (out, s)
    | Some (a, b) =>
      match write_piece cap out a with
      | None => RUB
      | Some out1 =>
        match write_piece cap out1 r with
        | None => RUB
        | Some out2 => if count - 1 =? 0 then ROk (out2, b) else fill_loop fuel' w r b (count - 1) cap out2
        end
      end
    end
  end.
(** libsemanage/src/utilities.c:233-287 (semanage_str_replace). [RErr]: NULL; [RUB]: a write outside of the buffer, or the assertion at
    the end fails. *)
Definition str_replace (w r s : list N) (lim : N) : res (list N) :=
  let slen := N.of_nat (length w) in
  let rlen := N.of_nat (length r) in
  if slen =? 0 then RErr
  else match count_loop (S (length s)) w s lim 0 with
       | None => RUB
       | Some count =>
         if count =? 0 then ROk s
         else let cap := (N.of_nat (length s) + 1 + count * ((SIZE + rlen - slen) mod SIZE)) mod SIZE in
              match fill_loop (S (length s)) w r s count cap [] with
              | ROk (out, rest) =>
                if N.of_nat (length out) + N.of_nat (length rest) + 1 =? cap then ROk (out ++ rest) else RUB
              | _ => RUB
              end
       end.

(** libsemanage/src/genhomedircon.c:97-108 (struct user_entry): the members used in writing. *)
Record user_entry := mkUE { ue_name : list N; ue_uid : list N; ue_sename : list N; ue_prefix : list N; ue_home : list N;
  ue_level : list N; ue_role : option (list N) }.
(** libsemanage/src/genhomedircon.c:534-550 (replace_all), of the pairs in order. *)
Fixpoint replace_all (s : list N) (repl : list (list N * list N)) : res (list N) :=
  match repl with
  | [] => ROk s
  | (w, r) :: t => match str_replace w r s 0 with ROk s' => replace_all s' t | RErr => RErr | RUB => RUB end
  end.
(** libsemanage/src/genhomedircon.c:552-575 (extract_context): the last field of the line and what is behind it. *)
Definition extract_context (line : list N) : option (list N) :=
  let (blanks, body) := span isspace (rev line) in
  match body with
  | [] | [_] => None
  | _ => let (field, _) := span (fun c => negb (isspace c)) body in Some (rev field ++ rev blanks)
  end.

Section Write.
Context (valid : crec -> bool).
Context (mls : bool).
(** libsemanage/src/genhomedircon.c:577-595 (check_line): [valid] is sepol_context_check with the policy. *)
Definition check_line (line : list N) : bool :=
  match extract_context line with
  | None => false
  | Some c => match sepol_context_from_string c with ROk (Some r) => valid r | ROk None => true | _ => false end
  end.
(** libsemanage/src/genhomedircon.c:628-686: one line of the template. [ROk None]: nothing is written. *)
Definition write_line (repl : list (list N * list N)) (u : user_entry) (tpl : list N) : res (option (list N)) :=
  match replace_all tpl repl with
  | RErr => RErr
  | RUB => RUB
  | ROk line =>
    match extract_context line with
    | None => RErr
    | Some old =>
      if str_eqb old none_str then ROk (if check_line line then Some line else None)
      else match sepol_context_from_string old with
           | RErr => RErr
           | RUB => RUB
           | ROk None => RUB
           | ROk (Some c) =>
             let c := mkCR (ue_sename u) (match ue_role u with Some r => r | None => cr_role c end) (cr_type c)
                           (if mls then Some (ue_level u) else cr_mls c) in
             match str_replace old (sepol_context_to_string c) line 1 with
             | ROk line' => ROk (if check_line line' then Some line' else None)
             | RErr => RErr
             | RUB => RUB
             end
           end
    end
  end.
(** libsemanage/src/genhomedircon.c:620-700 (write_contexts): the text written to the file, if nothing fails. *)
Fixpoint write_contexts (tpl : list (list N)) (repl : list (list N * list N)) (u : user_entry) : res (list N) :=
  match tpl with
  | [] => ROk []
  | t :: r => match write_line repl u t with
              | ROk o => match write_contexts r repl u with
                         | ROk rest => ROk (match o with Some line => line ++ [10] ++ rest | None => rest end)
                         | e => e
                         end
              | RErr => RErr
              | RUB => RUB
              end
  end.
(** libsemanage/src/genhomedircon.c:597-618 (write_replacements). *)
Fixpoint write_replacements (tpl : list (list N)) (repl : list (list N * list N)) : res (list N) :=
  match tpl with
  | [] => ROk []
  | t :: r => match replace_all t repl with
              | ROk line => match write_replacements r repl with
                            | ROk rest => ROk (if check_line line then line ++ [10] ++ rest else rest)
                            | e => e
                            end
              | RErr => RErr
              | RUB => RUB
              end
  end.
(** libsemanage/src/genhomedircon.c:77 (TEMPLATE_HOME_ROOT). *)
Definition HOME_ROOT : list N := [72; 79; 77; 69; 95; 82; 79; 79; 84].
(** libsemanage/src/genhomedircon.c:78 (TEMPLATE_HOME_DIR). *)
Definition HOME_DIR : list N := [72; 79; 77; 69; 95; 68; 73; 82].
(** libsemanage/src/genhomedircon.c:80 (TEMPLATE_USER). *)
Definition USER : list N := [85; 83; 69; 82].
(** libsemanage/src/genhomedircon.c:81 (TEMPLATE_ROLE). *)
Definition ROLE : list N := [82; 79; 76; 69].
(** libsemanage/src/genhomedircon.c:83 (TEMPLATE_USERNAME). *)
Definition USERNAME : list N := [37; 123; 85; 83; 69; 82; 78; 65; 77; 69; 125].
(** libsemanage/src/genhomedircon.c:84 (TEMPLATE_USERID). *)
Definition USERID : list N := [37; 123; 85; 83; 69; 82; 73; 68; 125].
(** libsemanage/src/utilities.c:217-231 (semanage_rtrim) with a newline: cut at the last one. *)
Definition rtrim_newline (s : list N) : list N :=
  let (_, body) := span (fun c => negb (c =? 10)) (rev s) in match body with [] => s | _ :: b => rev b end.
(** libsemanage/src/utilities.c:308-330 (semanage_slurp_file_filter), for genhomedircon.c:519-532 (make_template). *)
Definition make_template (file : list N) (pred : list N -> bool) : list (list N) := map rtrim_newline (filter pred (getlines file)).
(** libsemanage/src/genhomedircon.c:490-497 (USERNAME_CONTEXT_PRED). *)
Definition username_pred (s : list N) : bool :=
  match strstr USERNAME s with Some _ => true | None => match strstr USERID s with Some _ => true | None => false end end.
(** libsemanage/src/genhomedircon.c:499-505 (USER_CONTEXT_PRED). *)
Definition user_pred (s : list N) : bool := if username_pred s then false else match strstr USER s with Some _ => true | None => false end.
(** libsemanage/src/genhomedircon.c:702-720 (write_home_dir_context), without the comment line, on the lines of HOME_DIR_PRED (484). *)
Definition write_home_dir (file : list N) (u : user_entry) : res (list N) :=
  write_contexts (make_template file (is_prefix HOME_DIR)) [(HOME_DIR, ue_home u); (ROLE, ue_prefix u)] u.
(** libsemanage/src/genhomedircon.c:722-731 (write_home_root_context), on the lines of HOME_ROOT_PRED (479). *)
Definition write_home_root (file : list N) (dir : list N) : res (list N) :=
  write_replacements (make_template file (is_prefix HOME_ROOT)) [(HOME_ROOT, dir)].
(** libsemanage/src/genhomedircon.c:733-745 (write_username_context). *)
Definition write_username (file : list N) (u : user_entry) : res (list N) :=
  write_contexts (make_template file username_pred) [(USERNAME, ue_name u); (USERID, ue_uid u); (ROLE, ue_prefix u)] u.
(** libsemanage/src/genhomedircon.c:747-757 (write_user_context). *)
Definition write_user (file : list N) (u : user_entry) : res (list N) :=
  write_contexts (make_template file user_pred) [(USER, ue_name u); (ROLE, ue_prefix u)] u.
End Write.
