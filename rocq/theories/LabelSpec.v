(** What the file label lookup is meant to do, written without the functions of the model (only its data types are used). *)
From Verif Require Import Base LabelModel.
From Coq Require Import Permutation Sorted.

(** ** Literal expressions *)
(** . ^ $ ? * + | [ ( { ] ) and right brace; 45, 95 and 44 are - _ and comma. *)
Definition metas : list N := [46; 94; 36; 63; 42; 43; 124; 91; 40; 123; 93; 41; 125].
Definition escapables : list N := metas ++ [45; 95; 44].
(** The expression denotes just this text. *)
Inductive Lit : list N -> list N -> Prop :=
| Lit_nil : Lit [] []
| Lit_char c r t : ~ In c metas -> c <> 92 -> Lit r t -> Lit (c :: r) (c :: t)
| Lit_esc e r t : In e escapables -> Lit r t -> Lit (92 :: e :: r) (e :: t).
Definition literal (r : list N) : Prop := exists t, Lit r t.

(** ** Which specification applies *)
Definition kinds_meet (kind k : N) : Prop := kind = 0 \/ k = 0 \/ k = kind.
Definition lit_applies (key : list N) (kind : N) (s : spec) : Prop := kinds_meet kind (sp_kind s) /\ Lit (sp_regex s) key.
Definition reg_applies (E : engine) (key : list N) (kind : N) (s : spec) : Prop :=
  kinds_meet kind (sp_kind s) /\ ~ literal (sp_regex s) /\ E (sp_regex s) key false = RxMatch.
(** The kind asked for with a file mode (the type bits of st_mode): directory 1, character device 2, block device 3,
    socket 4, pipe 5, link 6, file 7, otherwise 0 for any. *)
Definition mode_kind (mode : N) : N :=
  match find (fun p => fst p =? (mode / 2 ^ 12) mod 16) [(4, 1); (2, 2); (6, 3); (12, 4); (1, 5); (10, 6); (8, 7)] with
  | Some p => snd p
  | None => 0
  end.
(** The label of a specification; <<none>> means no label. *)
Definition label (s : spec) : option spec := if list_eq_dec N.eq_dec (sp_ctx s) [60;60;110;111;110;101;62;62] then None else Some s.

(** The flat reading of a list of specifications: a literal one for the path comes first, one for the kind of the file
    before one for all kinds; otherwise the last expression that matches. *)
Inductive Flat (E : engine) (l : list spec) (key : list N) (kind : N) : option spec -> Prop :=
| Flat_lit s : In s l -> lit_applies key kind s -> (forall s', In s' l -> lit_applies key kind s' -> sp_kind s' <= sp_kind s) ->
    Flat E l key kind (label s)
| Flat_reg l1 s l2 : (forall s', In s' l -> ~ lit_applies key kind s') -> l = l1 ++ s :: l2 -> reg_applies E key kind s ->
    (forall s', In s' l2 -> ~ reg_applies E key kind s') -> Flat E l key kind (label s)
| Flat_none : (forall s', In s' l -> ~ lit_applies key kind s') -> (forall s', In s' l -> ~ reg_applies E key kind s') ->
    Flat E l key kind None.

(** The leading literal components of an expression. *)
Inductive Leads : list N -> list (list N) -> Prop :=
| Leads_nil r : Leads r []
| Leads_skip c r ts : Leads (47 :: r) ts -> Leads (c :: 47 :: r) ts
| Leads_cons c seg t r ts : seg <> [] -> ~ In 47 seg -> Lit seg t -> Leads (47 :: r) ts -> Leads (c :: seg ++ 47 :: r) (t :: ts).
(** The key lies below the directory with these components. *)
Definition below (ts : list (list N)) (key : list N) : Prop := ts = [] \/ exists rest, key = concat (map (cons 47) ts) ++ 47 :: rest.
(** The expression matches the key only if the key lies below the leading literal components of the expression; false, for
    instance, for /foo/?bar and for /a/b|/c. *)
Definition honest (E : engine) (r key : list N) : Prop := forall ts, Leads r ts -> E r key false = RxMatch -> below ts key.
(** The engine can tell. *)
Definition decided (E : engine) (r key : list N) : Prop := E r key false = RxMatch \/ E r key false = RxNo.
(** Only the last expression that matches may say <<none>>. *)
Definition none_last (E : engine) (l : list spec) (key : list N) (kind : N) : Prop :=
  forall l1 s l2, l = l1 ++ s :: l2 -> reg_applies E key kind s -> label s = None -> forall s', In s' l2 -> ~ reg_applies E key kind s'.

(** A result that is really there: in the list, for the kind, with a label, and it matches (for a partial lookup: the key is
    the beginning of a text it matches, as far as the engine says). *)
Record Real (E : engine) (l : list spec) (key : list N) (kind : N) (partial : bool) (f : found) : Prop := {
  real_in : In (f_spec f) l;
  real_kind : kinds_meet kind (sp_kind (f_spec f));
  real_label : label (f_spec f) = Some (f_spec f);
  real_lit : f_meta f = false -> exists t, Lit (sp_regex (f_spec f)) t /\ (if partial then exists r, t = key ++ r else t = key);
  real_reg : f_meta f = true -> ~ literal (sp_regex (f_spec f)) /\
    (E (sp_regex (f_spec f)) key partial = RxMatch \/ (partial = true /\ E (sp_regex (f_spec f)) key partial = RxPartial)) }.
(** The length of the longest beginning of an expression that denotes just a text. *)
Definition fixed_prefix (r : list N) (n : N) : Prop :=
  (exists pre t rest, r = pre ++ rest /\ Lit pre t /\ n = N.of_nat (length t)) /\
  (forall pre t rest, r = pre ++ rest -> Lit pre t -> N.of_nat (length t) <= n).
(** Two kinds some file can have both of. *)
Definition kinds_overlap (a b : N) : Prop := a = 0 \/ b = 0 \/ a = b.

(** ** Paths *)
(** The text between slashes. *)
Fixpoint split (s : list N) : list (list N) :=
  match s with
  | [] => [[]]
  | c :: t => if c =? 47 then [] :: split t else match split t with w :: ws => (c :: w) :: ws | [] => [[c]] end
  end.
Definition components (s : list N) : list (list N) := filter (fun w => match w with [] => false | _ => true end) (split s).
Fixpoint join (ws : list (list N)) : list N :=
  match ws with
  | [] => []
  | [w] => w
  | w :: ws' => w ++ 47 :: join ws'
  end.
Definition absolute (s : list N) : bool := match s with c :: _ => c =? 47 | [] => false end.
(** One slash between components, none at the end. *)
Definition canon (s : list N) : list N := (if absolute s then [47] else []) ++ join (components s).
Definition canonical (s : list N) : Prop := canon s = s.

(** An alias covers a path: it is the path, or a leading part of it that ends at a slash. *)
Definition covers (src key : list N) : Prop := exists rest, key = src ++ rest /\ (rest = [] \/ exists r, rest = 47 :: r).
(** The path behind the first alias that covers the key. *)
Inductive Substituted : list (list N * list N) -> list N -> list N -> Prop :=
| Sub_here src dst l key rest : key = src ++ rest -> (rest = [] \/ exists r, rest = 47 :: r) ->
    Substituted ((src, dst) :: l) key (if list_eq_dec N.eq_dec dst [47] then 47 :: tl rest else dst ++ rest)
| Sub_later src dst l key res : ~ covers src key -> Substituted l key res -> Substituted ((src, dst) :: l) key res.
Definition uncovered (l : list (list N * list N)) (key : list N) : Prop := forall src dst, In (src, dst) l -> ~ covers src key.
(** The path looked up for a (canonical) path: local aliases, then those of the distribution. *)
Inductive Effective (subs dist : list (list N * list N)) (key : list N) : list N -> Prop :=
| Eff_none : uncovered subs key -> uncovered dist key -> Effective subs dist key key
| Eff_local k : Substituted subs key k -> uncovered dist k -> Effective subs dist key k
| Eff_both k k' : Substituted subs key k -> Substituted dist k k' -> Effective subs dist key k'
| Eff_dist k : uncovered subs key -> Substituted dist key k -> Effective subs dist key k.

(** ** The input *)
(** The specifications of a file in order. *)
Fixpoint numbered (inputno line : N) (lines : list (option (list N * N * list N))) : list spec :=
  match lines with
  | [] => []
  | Some (r, k, c) :: l => mkSpec r k c inputno line :: numbered inputno (line + 1) l
  | None :: l => numbered inputno (line + 1) l
  end.
Definition all_specs (baseonly : bool) (base homedirs local : list (option (list N * N * list N))) : list spec :=
  numbered 0 1 base ++ if baseonly then [] else numbered 1 1 homedirs ++ numbered 2 1 local.
(** A file with fewer than 2^32 lines. *)
Definition short {A} (l : list A) : Prop := N.of_nat (length l) < 2 ^ 32.
(** Sorting as qsort does it with the comparison of the library: by text, then kinds in descending order. *)
Inductive txt_le : list N -> list N -> Prop :=
| txt_nil b : txt_le [] b
| txt_lt x y a b : x < y -> txt_le (x :: a) (y :: b)
| txt_eq x a b : txt_le a b -> txt_le (x :: a) (x :: b).
Definition lit_le (a b : lspec) : Prop :=
  txt_le (ls_match a) (ls_match b) /\ (ls_match a = ls_match b -> sp_kind (ls_spec b) <= sp_kind (ls_spec a)).
Definition sorts (qsort : list lspec -> list lspec) : Prop := forall l, Permutation l (qsort l) /\ StronglySorted lit_le (qsort l).
(** The key is in the part of the tree asked for with SELABEL_OPT_SUBSET (one component). *)
Definition in_subset (prefix : option (list N)) (key : list N) : Prop :=
  match prefix with None => True | Some p => ~ In 47 p /\ (key = 47 :: p \/ exists r, key = 47 :: p ++ 47 :: r) end.

(** ** Best match *)
(** What each path gives. *)
Definition exact_hit (r : option found) : Prop := exists f, r = Some f /\ f_meta f = false.
(** The result wanted: the first exact hit among key and aliases, or else a hit with the longest fixed prefix, the earliest
    such. *)
Inductive Best : list (option found) -> option found -> Prop :=
| Best_exact l1 f l2 : (forall r, In r l1 -> ~ exact_hit r) -> f_meta f = false -> Best (l1 ++ Some f :: l2) (Some f)
| Best_prefix l1 f l2 : (forall r, In r (l1 ++ Some f :: l2) -> ~ exact_hit r) ->
    (forall g, In (Some g) l1 -> f_plen g < f_plen f) -> (forall g, In (Some g) l2 -> f_plen g <= f_plen f) ->
    Best (l1 ++ Some f :: l2) (Some f)
| Best_none l : (forall r, In r l -> r = None) -> Best l None.

(** Paths are C strings. *)
Definition no_nul (s : list N) : Prop := ~ In 0 s.

(** A node of the tree and the components leading to it. *)
Inductive Reach : node -> list (list N) -> node -> Prop :=
| Reach_here n : Reach n [] n
| Reach_child n s c p m : In (s, c) (n_children n) -> Reach c p m -> Reach n (s :: p) m.
