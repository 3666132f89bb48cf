(** What writing the contexts of home directories means. *)
From Verif Require Import Base ContextModel.
From Coq Require Import String Ascii.
Open Scope string_scope.
Open Scope list_scope.
Open Scope N_scope.

(** A text does not occur; its first occurrence. *)
Definition nowhere (w s : list N) : Prop := forall a b, s <> a ++ w ++ b.
Definition first_at (w s a b : list N) : Prop := s = a ++ w ++ b /\ forall a' b', s = a' ++ w ++ b' -> (List.length a <= List.length a')%nat.
(** [s'] is [s] with the occurrences of [w], from the left and not overlapping, replaced by [r]: all of them, or at most so many. *)
Inductive replaced (w r : list N) : option nat -> list N -> list N -> Prop :=
| rep_nowhere k s : nowhere w s -> replaced w r k s s
| rep_enough s : replaced w r (Some O) s s
| rep_all s a b b' : first_at w s a b -> replaced w r None b b' -> replaced w r None s (a ++ r ++ b')
| rep_some k s a b b' : first_at w s a b -> replaced w r (Some k) b b' -> replaced w r (Some (S k)) s (a ++ r ++ b').
Definition limit (lim : N) : option nat := if lim =? 0 then None else Some (N.to_nat lim).
(** Texts that fit into memory with their 0. *)
Definition short (s : list N) : Prop := N.of_nat (List.length s) + 1 < 2 ^ 64.
(** Several replacements, each in the result of those before. *)
Inductive in_turn : list (list N * list N) -> list N -> list N -> Prop :=
| turn_nil s : in_turn [] s s
| turn_cons w r t s s' s'' : w <> [] -> short s -> replaced w r None s s' -> short s' -> in_turn t s' s'' -> in_turn ((w, r) :: t) s s''.

Definition blank (c : N) : Prop := c = 32 \/ 9 <= c <= 13.
Definition no_blank (s : list N) : Prop := Forall (fun c => ~ blank c) s.
Definition ends_blank (s : list N) : Prop := exists a c, s = a ++ [c] /\ blank c.
(** A context written out. *)
Definition context_of (u r t : list N) (m : option (list N)) : list N :=
  u ++ 58 :: r ++ 58 :: t ++ match m with None => [] | Some m => 58 :: m end.
Definition no_colon (s : list N) : Prop := ~ In 58 s.
(** A line: some text ending in a blank, and a context behind it that does not occur before. *)
Definition labelled (line head u r t : list N) (m : option (list N)) : Prop :=
  line = head ++ context_of u r t m /\ ends_blank head /\ no_blank (context_of u r t m)
  /\ no_colon u /\ no_colon r /\ no_colon t /\ first_at (context_of u r t m) line head [].
(** What becomes of a line of the template, given the replacements and the user of policy, the level and the role (if any) to be put in:
    the text written. *)
Definition the_role (given : option (list N)) (r : list N) : list N := match given with Some x => x | None => r end.
Definition the_range (mls : bool) (level : list N) (m : option (list N)) : option (list N) := if mls then Some level else m.
Inductive line_written (valid : crec -> bool) (mls : bool) (sename level : list N) (given : option (list N)) (repl : list (list N * list N))
  : list N -> list N -> Prop :=
| lw_none tpl head : in_turn repl tpl (head ++ none_str) -> ends_blank head ->
    line_written valid mls sename level given repl tpl (head ++ none_str ++ [10])
| lw_context tpl line head u r t m new : in_turn repl tpl line -> short line -> labelled line head u r t m ->
    new = context_of sename (the_role given r) t (the_range mls level m) -> no_blank new -> no_colon sename -> no_colon (the_role given r) ->
    short (head ++ new) -> valid (mkCR sename (the_role given r) t (the_range mls level m)) = true ->
    line_written valid mls sename level given repl tpl (head ++ new ++ [10])
| lw_invalid tpl line head u r t m new : in_turn repl tpl line -> short line -> labelled line head u r t m ->
    new = context_of sename (the_role given r) t (the_range mls level m) -> no_blank new -> no_colon sename -> no_colon (the_role given r) ->
    short (head ++ new) -> valid (mkCR sename (the_role given r) t (the_range mls level m)) = false ->
    line_written valid mls sename level given repl tpl [].
(** A last field that is neither a context nor <<none>>. *)
Definition malformed (field : list N) : Prop := field <> [] /\ no_blank field /\ field <> none_str /\ forall u r t, field <> u ++ 58 :: r ++ 58 :: t.
(** A line kept by write_home_root: its context is taken as it is. *)
Inductive root_written (valid : crec -> bool) (repl : list (list N * list N)) : list N -> list N -> Prop :=
| rw_none tpl head : in_turn repl tpl (head ++ none_str) -> ends_blank head -> root_written valid repl tpl (head ++ none_str ++ [10])
| rw_context tpl line head u r t m : in_turn repl tpl line -> labelled line head u r t m -> valid (mkCR u r t m) = true ->
    root_written valid repl tpl (line ++ [10])
| rw_invalid tpl line head u r t m : in_turn repl tpl line -> labelled line head u r t m -> valid (mkCR u r t m) = false ->
    root_written valid repl tpl []
| rw_malformed tpl head field : in_turn repl tpl (head ++ field) -> ends_blank head -> malformed field -> root_written valid repl tpl [].
(** A file of lines; those lines of it that are of a kind, in order. *)
Definition file_of (lines : list (list N)) : list N := List.concat (map (fun l => l ++ [10]) lines).
Inductive those (P : list N -> Prop) : list (list N) -> list (list N) -> Prop :=
| those_nil : those P [] []
| those_yes l ls tpl : P l -> those P ls tpl -> those P (l :: ls) (l :: tpl)
| those_no l ls tpl : ~ P l -> those P ls tpl -> those P (l :: ls) tpl.
Definition begins (w s : list N) : Prop := exists b, s = w ++ b.
Definition occurs (w s : list N) : Prop := exists a b, s = a ++ w ++ b.
Definition one_line (s : list N) : Prop := ~ In 10 s.
(** The words of the template, in letters. *)
Definition letters (s : string) : list N := map N_of_ascii (list_ascii_of_string s).
Definition home_root : list N := letters "HOME_ROOT".
Definition home_dir : list N := letters "HOME_DIR".
Definition user_word : list N := letters "USER".
Definition role_word : list N := letters "ROLE".
Definition username_word : list N := letters "%{USERNAME}".
Definition userid_word : list N := letters "%{USERID}".
