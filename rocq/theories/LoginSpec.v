(** Specification of the login mapping and of the login context list, independent of the model's
    functions. Texts are lists of bytes. *)
From Verif Require Import Base.

(** Blank characters: space, tab, newline, vertical tab, form feed, carriage return. *)
Definition blank (c : N) : Prop := c = 32 \/ c = 9 \/ c = 10 \/ c = 11 \/ c = 12 \/ c = 13.

(** Text without blanks / without colons / without newlines / without NULs. *)
Definition no_blank (s : list N) : Prop := Forall (fun c => ~ blank c) s.
Definition no_colon (s : list N) : Prop := ~ In 58 s.
Definition no_newline (s : list N) : Prop := ~ In 10 s.
Definition no_nul (s : list N) : Prop := ~ In 0 s.

(** The text is empty or starts with a blank. *)
Definition stops (s : list N) : Prop :=
  match s with [] => True | c :: _ => blank c end.

(** The lines of a file: every line but the last ends with its only newline, and the last is not
    empty. *)
Inductive lines_of : list N -> list (list N) -> Prop :=
| lines_nil : lines_of [] []
| lines_last l : l <> [] -> no_newline l -> lines_of l [l]
| lines_cons l file ls :
    no_newline l -> lines_of file ls -> lines_of (l ++ 10 :: file) ((l ++ [10]) :: ls).

(** The C string at the start of a buffer. *)
Definition text_of (buffer s : list N) : Prop :=
  no_nul s /\ (buffer = s \/ exists r, buffer = s ++ 0 :: r).

(** The line (a C string) maps [login] to [se] with [level]:
      blanks login ":" se [":" level] blanks-or-end.
    Without MLS what follows a second colon is ignored; then and only then blanks may occur in
    the SELinux user. The login must not start with a blank or '#'. *)
Definition maps (mls : bool) (line login se : list N) (level : option (list N)) : Prop :=
  exists ws rest,
    line = ws ++ login ++ 58 :: rest /\ Forall blank ws /\ no_colon login /\
    match login with [] => True | c :: _ => ~ blank c /\ c <> 35 end /\ se <> [] /\
    ((no_colon rest /\ level = None /\ no_blank se /\ exists after, rest = se ++ after /\ stops after)
     \/ (exists after, rest = se ++ 58 :: after /\ no_colon se /\
         if mls
         then exists lv tail, level = Some lv /\ after = lv ++ tail /\ no_blank lv /\ lv <> [] /\ stops tail
         else level = None)).

(** The buffer read as a line has such a mapping. *)
Definition entry (mls : bool) (buffer login se : list N) (level : option (list N)) : Prop :=
  exists line, text_of buffer line /\ maps mls line login se level.

(** [l] is the first element of [ls] with a property. *)
Definition first_such {A} (P : A -> Prop) (ls : list A) (l : A) : Prop :=
  exists before after, ls = before ++ l :: after /\ P l /\ forall x, In x before -> ~ P x.

(** The text "__default__". *)
Definition dflt : list N := [95;95;100;101;102;97;117;108;116;95;95].

(** A line for the login; for a group the login is in ('%' and the group's name); for everyone. *)
Definition for_login (mls : bool) (name : list N) (b : list N) : Prop :=
  exists se lv, entry mls b name se lv.
Definition for_group (mls : bool) (in_group : list N -> Prop) (b : list N) : Prop :=
  exists g se lv, entry mls b (37 :: g) se lv /\ in_group g.
Definition for_all_users (mls : bool) (b : list N) : Prop :=
  exists se lv, entry mls b dflt se lv.

(** What a file of these lines assigns to the login [name]. *)
Definition assigned (mls : bool) (in_group : list N -> Prop) (ls : list (list N)) (name se : list N)
    (lv : option (list N)) : Prop :=
  (exists b, first_such (for_login mls name) ls b /\ entry mls b name se lv)
  \/ ((forall b, In b ls -> ~ for_login mls name b) /\
      exists b g, first_such (for_group mls in_group) ls b /\ entry mls b (37 :: g) se lv)
  \/ ((forall b, In b ls -> ~ for_login mls name b) /\
      (forall b, In b ls -> ~ for_group mls in_group b) /\
      exists b, first_such (for_all_users mls) ls b /\ entry mls b dflt se lv).

(** Nothing is assigned: no line for the login, a group of it, or everyone. *)
Definition unassigned (mls : bool) (in_group : list N -> Prop) (ls : list (list N)) (name : list N) : Prop :=
  forall b, In b ls -> ~ for_login mls name b /\ ~ for_group mls in_group b /\ ~ for_all_users mls b.

(** A line of a per-user file for a service (the text before the first colons). *)
Definition serves (sv : list N) (b : list N) : Prop :=
  exists line rest, text_of b line /\ line = sv ++ 58 :: rest.

(** The line that counts for a service: the first for the service if any, otherwise the last one
    for "*". A line for "*" is never taken as one for the service. *)
Definition chosen (service : option (list N)) (ls : list (list N)) (b : list N) : Prop :=
  (exists sv, service = Some sv /\ first_such (fun x => serves sv x /\ ~ serves [42] x) ls b)
  \/ ((forall sv, service = Some sv -> forall x, In x ls -> serves sv x -> serves [42] x) /\
      first_such (serves [42]) (rev ls) b).

(** The SELinux user and level a chosen line gives: the text between the first two colons and the
    text after them without the final newline. *)
Definition gives (b se lv : list N) : Prop :=
  exists line head tail, text_of b line /\ line = head ++ 58 :: se ++ 58 :: tail /\
    no_colon head /\ no_colon se /\ (tail = lv ++ [10] \/ (tail = lv /\ ~ exists t, tail = t ++ [10])).

(** Login mappings as libsemanage keeps them, with names that can be written in the file. *)
Record mapping := mkMap { m_login : list N; m_se : list N; m_level : option (list N) }.
Definition writable (m : mapping) : Prop :=
  (match m_login m with [] => False | c :: _ => ~ blank c /\ c <> 35 end) /\
  no_colon (m_login m) /\ no_newline (m_login m) /\ no_nul (m_login m) /\
  m_se m <> [] /\ no_colon (m_se m) /\ no_blank (m_se m) /\ no_nul (m_se m) /\
  match m_level m with None => True | Some l => l <> [] /\ no_blank l /\ no_nul l end.

(** ** Login contexts *)

(** The blank-separated words of a text, in order. *)
Inductive words : list N -> list (list N) -> Prop :=
| words_none s : Forall blank s -> words s []
| words_some ws w s l :
    Forall blank ws -> w <> [] -> no_blank w -> stops s -> words s l ->
    words (ws ++ w ++ s) (w :: l).

(** A line of a context file: its first word is "role:type", possibly followed by ":" and more;
    after a blank other than the final newline come the partial contexts. *)
Definition lists_for (role type buffer : list N) (partials : list (list N)) : Prop :=
  exists line ws extra b rest,
    text_of buffer line /\ Forall blank ws /\ no_blank extra /\ blank b /\ b <> 10 /\
    (line = ws ++ role ++ 58 :: type ++ extra ++ b :: rest) /\
    (extra = [] \/ exists e, extra = 58 :: e) /\
    words rest partials.

(** The context made of a partial context "role:type[:...]", the user and the level. A partial
    context must have one to four colons; when nothing follows its only colon the context has no
    type. *)
Definition colon_count (s : list N) : nat := count_occ N.eq_dec s 58.
Definition level_part (level : option (list N)) : list N :=
  match level with None => [] | Some l => 58 :: l end.
Definition candidate (user : list N) (level : option (list N)) (p c : list N) : Prop :=
  (1 <= colon_count p <= 4)%nat /\
  exists r t, no_colon r /\ no_colon t /\
    ((p = r ++ [58] /\ t = [] /\ c = user ++ 58 :: r ++ level_part level)
     \/ (t <> [] /\ p = r ++ 58 :: t /\ c = user ++ 58 :: r ++ 58 :: t ++ level_part level)
     \/ (exists x, p = r ++ 58 :: t ++ 58 :: x /\
         c = user ++ 58 :: r ++ 58 :: t ++ level_part level)).

(** The contexts of a list of partial contexts, in order. *)
Inductive candidates (user : list N) (level : option (list N)) : list (list N) -> list (list N) -> Prop :=
| cands_nil : candidates user level [] []
| cands_some p ps c cs :
    candidate user level p c -> candidates user level ps cs -> candidates user level (p :: ps) (c :: cs)
| cands_skip p ps cs :
    (forall c, ~ candidate user level p c) -> candidates user level ps cs ->
    candidates user level (p :: ps) cs.

(** What a file offers: the contexts of its first line for the role and type; nothing without such
    a line or without the file. *)
Definition offers (file : option (list N)) (user role type : list N) (level : option (list N))
    (cs : list (list N)) : Prop :=
  match file with
  | None => cs = []
  | Some f =>
      exists ls, lines_of f ls /\
        ((exists b ps, first_such (fun x => exists q, lists_for role type x q) ls b /\
            lists_for role type b ps /\ candidates user level ps cs)
         \/ ((forall b q, In b ls -> ~ lists_for role type b q) /\ cs = []))
  end.

(** [l] has the elements of [cs] with the property, each once, in order of first occurrence. *)
Definition firsts_of (ok : list N -> Prop) (cs l : list (list N)) : Prop :=
  NoDup l /\ (forall c, In c l <-> In c cs /\ ok c) /\
  forall x y, (exists l1 l2 l3, l = l1 ++ x :: l2 ++ y :: l3) ->
              exists c1 c2, cs = c1 ++ x :: c2 /\ ~ In y c1.

(** A calling context: user, role, type and maybe a level. *)
Definition calling (con role type : list N) (level : option (list N)) : Prop :=
  exists u, no_colon u /\ no_colon role /\ no_colon type /\ no_blank u /\ no_blank role /\ no_blank type /\
    type <> [] /\ con = u ++ 58 :: role ++ 58 :: type ++ level_part level /\
    (colon_count con <= 5)%nat /\
    match level with
    | None => True
    | Some l => l <> [] /\ ~ In 9 l /\ ~ In 10 l /\ ~ In 13 l
    end.

(** The failsafe context of a file: the user and the first line, up to a NUL and 254 bytes. A file
    that is empty or starts with a NUL has none. *)
Definition failsafe_is (file : option (list N)) (user c : list N) : Prop :=
  exists f line rest, file = Some f /\ f = line ++ rest /\ no_newline line /\ no_nul line /\
    (length line <= 254)%nat /\
    (line <> [] \/ exists r, rest = 10 :: r) /\
    (rest = [] \/ (length line = 254)%nat \/ exists e r, rest = e :: r /\ (e = 10 \/ e = 0)) /\
    c = user ++ 58 :: line.

(** SELinux user names: no colons and no blanks. *)
Definition plain (s : list N) : Prop := no_colon s /\ no_blank s.

(** A well formed context string: two to five colons, no tab, newline or carriage return, and
    spaces only after the third colon. *)
Definition well_formed (c : list N) : Prop :=
  (2 <= colon_count c <= 5)%nat /\ ~ In 9 c /\ ~ In 10 c /\ ~ In 13 c /\
  forall a b, c = a ++ 32 :: b -> (3 <= colon_count a)%nat.

(** The second component of a context string. *)
Definition has_role (c role : list N) : Prop :=
  well_formed c /\ exists u t, c = u ++ 58 :: role ++ 58 :: t /\ no_colon u /\ no_colon role.
