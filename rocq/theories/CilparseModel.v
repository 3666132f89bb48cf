(** Model of reading CIL text: the lexer (libsepol/cil/src/cil_lexer.l) and the parser
    (libsepol/cil/src/cil_parser.c).  A text is a list of bytes.  Line numbers, which only appear in messages,
    and the pool of strings are not modelled: two equal strings are the same string. *)
From Verif Require Import Base.

(** libsepol/cil/src/cil_lexer.h:35-43: the types of tokens, with the value of those that are looked at. The
    quotes of a QSTRING, which libsepol/cil/src/cil_parser.c:133-136 and 257-259 take away, are left out here. *)
Inductive token :=
| OPAREN | CPAREN | SYMBOL (w : list N) | QSTRING (w : list N) | COMMENT | HLL_LINEMARK | NEWLINE | UNKNOWN.

(** libsepol/cil/src/cil_lexer.l:46 (digit). *)
Definition digit (c : N) : bool := (48 <=? c) && (c <=? 57).
(** libsepol/cil/src/cil_lexer.l:47 (alpha). *)
Definition alpha (c : N) : bool := ((97 <=? c) && (c <=? 122)) || ((65 <=? c) && (c <=? 90)).
(** libsepol/cil/src/cil_lexer.l:48 (spec_char), in the order of that line. *)
Definition spec_char (c : N) : bool :=
  existsb (N.eqb c)
    [91; 93; 46; 64; 61; 47; 42; 45; 95; 36; 37; 43; 45; 33; 124; 38; 94; 58; 126; 96; 35; 123; 125; 39; 60; 62; 63; 44].
(** One character of a symbol (libsepol/cil/src/cil_lexer.l:49). *)
Definition symbol_char (c : N) : bool := digit c || alpha c || spec_char c.

(** The longest symbol at the start of the text (libsepol/cil/src/cil_lexer.l:49) and what follows it. *)
Fixpoint symbol_run (s : list N) : list N * list N :=
  match s with
  | c :: s' => if symbol_char c then let (w, r) := symbol_run s' in (c :: w, r) else ([], s)
  | [] => ([], [])
  end.

(** After an opening quote: the string up to the closing one, if the pattern of
    libsepol/cil/src/cil_lexer.l:52 matches (no newline and no NUL before the closing quote). *)
Fixpoint qstring_run (s : list N) : option (list N * list N) :=
  match s with
  | [] => None
  | c :: s' =>
      if c =? 34 then Some ([], s')
      else if (c =? 10) || (c =? 0) then None
      else match qstring_run s' with None => None | Some (w, r) => Some (c :: w, r) end
  end.

(** One match of the rules of libsepol/cil/src/cil_lexer.l:58-67 (the longest match, the first rule if
    there are two): the token, if the rule returns one, and what follows.  [bol]: the text starts a line
    for flex, that is, it is the start of the buffer or follows a newline character (not a carriage
    return). *)
Definition lex_one (bol : bool) (c : N) (s : list N) : option token * list N :=
  if (c =? 10) || (c =? 13) then (Some NEWLINE, s)
  else if c =? 59 then
    match s with
    | 59 :: 42 :: s' => if bol then (Some HLL_LINEMARK, s') else (Some COMMENT, s)
    | _ => (Some COMMENT, s)
    end
  else if c =? 40 then (Some OPAREN, s)
  else if c =? 41 then (Some CPAREN, s)
  else if symbol_char c then let (w, r) := symbol_run s in (Some (SYMBOL (c :: w)), r)
  else if (c =? 32) || (c =? 9) then (None, s)
  else if c =? 34 then
    match qstring_run s with
    | Some (w, r) => (Some (QSTRING w), r)
    | None => (Some UNKNOWN, s)
    end
  else (Some UNKNOWN, s).

(** All tokens of a text: calls of cil_lexer_next (libsepol/cil/src/cil_lexer.l:89-96) until END_OF_FILE,
    which is the end of the list.  Every match takes at least one byte, so the length of the text is fuel
    enough. *)
Fixpoint lex (fuel : nat) (bol : bool) (s : list N) : list token :=
  match fuel, s with
  | O, _ => []
  | _, [] => []
  | S fuel', c :: s' =>
      let (t, r) := lex_one bol c s' in
      let bol' := c =? 10 in
      match t with
      | Some t => t :: lex fuel' bol' r
      | None => lex fuel' bol' r
      end
  end.

(** libsepol/cil/src/cil_tree.h: a node of the parse tree, with data or with children. *)
Inductive ptree := PName (w : list N) | PList (l : list ptree).

(** The nodes from cil_parser's variable current up to the node of the file: the children of each so far, in
    reverse.  (The C code enters a node into its parent's children when it is made, this model when it is left;
    in between no other child is entered.) *)
Definition frames : Type := list (list ptree).

(** create_node and insert_node (libsepol/cil/src/cil_parser.c:76-94) for a node with data. *)
Definition add_child (t : ptree) (f : frames) : frames :=
  match f with [] => [] | l :: f' => (t :: l) :: f' end.

(** "current = current->parent" (libsepol/cil/src/cil_parser.c:114 and 253); [None]: current is the node
    of the file, whose parent is outside the file. *)
Definition leave (f : frames) : option frames :=
  match f with
  | l :: l' :: f' => Some ((PList (rev l) :: l') :: f')
  | _ => None
  end.

(** CIL_PARSER_MAX_EXPR_DEPTH (libsepol/cil/src/cil_parser.c:45). *)
Definition MAX_DEPTH : N := 4096.

(** "<src_info>", "lms", "lmx", "lme" (libsepol/cil/src/cil.c:399-403). *)
Definition SRC_INFO : list N := [60; 115; 114; 99; 95; 105; 110; 102; 111; 62].
(** "lms" (libsepol/cil/src/cil.c:401). *)
Definition LMS : list N := [108; 109; 115].
(** "lmx" (libsepol/cil/src/cil.c:402). *)
Definition LMX : list N := [108; 109; 120].
(** "lme" (libsepol/cil/src/cil.c:403). *)
Definition LME : list N := [108; 109; 101].

(** Comparison of two strings of the pool. *)
Fixpoint same_str (a b : list N) : bool :=
  match a, b with
  | [], [] => true
  | x :: a', y :: b' => (x =? y) && same_str a' b'
  | _, _ => false
  end.

(** What the loop of cil_parser carries: paren_count, the number of open line marks, the frames. *)
Record pstate := mkP { p_paren : N; p_marks : N; p_frames : frames }.

(** Result: the children of the node of the file, an error, or a step outside the tree. *)
Inductive presult := Parsed (f : list ptree) | Refused | Wild.

(** libsepol/cil/src/cil_parser.c:96-165 (add_hll_linemark), given the tokens after HLL_LINEMARK: the new state
    and the remaining tokens, [None] for an error, [Some None] for a step outside the tree. *)
Definition linemark (st : pstate) (ts : list token) : option (option (pstate * list token)) :=
  match ts with
  | SYMBOL k :: ts1 =>
      if same_str k LME then
        if p_marks st =? 0 then None
        else
          match leave (p_frames st) with
          | None => Some None
          | Some f =>
              match ts1 with
              | NEWLINE :: ts2 => Some (Some (mkP (p_paren st) (p_marks st - 1) f, ts2))
              | _ => None
              end
          end
      else if same_str k LMS || same_str k LMX then
        if MAX_DEPTH <? p_marks st + 1 then None
        else
          match ts1 with
          | SYMBOL n :: SYMBOL p :: NEWLINE :: ts2 | SYMBOL n :: QSTRING p :: NEWLINE :: ts2 =>
              Some (Some (mkP (p_paren st) (p_marks st + 1)
                              (rev [PName SRC_INFO; PName k; PName n; PName p] :: p_frames st), ts2))
          | _ => None
          end
      else None
  | _ => None
  end.

(** libsepol/cil/src/cil_parser.c:272-275: after COMMENT, tokens are taken up to a NEWLINE or the end. *)
Fixpoint skip_comment (ts : list token) : list token :=
  match ts with
  | [] => []
  | NEWLINE :: ts' => ts'
  | _ :: ts' => skip_comment ts'
  end.

(** The loop of cil_parser (libsepol/cil/src/cil_parser.c:235-301).  The number of tokens is fuel enough. *)
Fixpoint parse_loop (fuel : nat) (st : pstate) (ts : list token) : presult :=
  match fuel with
  | O => Wild
  | S fuel' =>
      match ts with
      | [] =>
          if 0 <? p_paren st then Refused
          else if 0 <? p_marks st then Refused
          else match p_frames st with [l] => Parsed (rev l) | _ => Wild end
      | HLL_LINEMARK :: ts' =>
          match linemark st ts' with
          | None => Refused
          | Some None => Wild
          | Some (Some (st', ts2)) => parse_loop fuel' st' ts2
          end
      | OPAREN :: ts' =>
          if MAX_DEPTH <? p_paren st + 1 then Refused
          else parse_loop fuel' (mkP (p_paren st + 1) (p_marks st) ([] :: p_frames st)) ts'
      | CPAREN :: ts' =>
          if p_paren st =? 0 then Refused
          else
            match leave (p_frames st) with
            | None => Wild
            | Some f => parse_loop fuel' (mkP (p_paren st - 1) (p_marks st) f) ts'
            end
      | QSTRING w :: ts' | SYMBOL w :: ts' =>
          if p_paren st =? 0 then Refused
          else parse_loop fuel' (mkP (p_paren st) (p_marks st) (add_child (PName w) (p_frames st))) ts'
      | NEWLINE :: ts' => parse_loop fuel' st ts'
      | COMMENT :: ts' => parse_loop fuel' st (skip_comment ts')
      | UNKNOWN :: _ => Refused
      end
  end.

(** libsepol/cil/src/cil_parser.c:214-318 (cil_parser) on a list of tokens: the children the node of the file
    gets after the four of add_cil_path (191-211). *)
Definition parse_tokens (ts : list token) : presult :=
  parse_loop (S (length ts)) (mkP 0 0 [[]]) ts.

(** cil_parser on a text. *)
Definition cil_parser (s : list N) : presult := parse_tokens (lex (length s) true s).
