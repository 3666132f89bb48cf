(** Specification of CIL constraint statements: how an expression is written, and when it holds of the contexts. *)
From Coq Require Import String Ascii.
From Verif Require Import Base MlsModel MlsSpec ServicesModel ServicesSpec CilparseModel CilconsModel.
Local Open Scope N_scope.
Local Open Scope list_scope.

(** The characters of a word. *)
Fixpoint chars (s : string) : list N :=
  match s with EmptyString => [] | String c s' => N_of_ascii c :: chars s' end.

(** What an operand of an expression names: the user, role or type of one of the contexts, or the low or high level
    of one of them. *)
Inductive oper := Attr (w : who) (k : what) | Low (w : who) | High (w : who).

(** Expressions: two operands compared, an operand compared with names, and connectives. *)
Inductive formula :=
| Compare (r : rel) (a b : oper)
| Among (r : rel) (a : oper) (names : list (list N))
| Not (f : formula) | And (f g : formula) | Or (f g : formula).

(** The words for operands: u, r, t, l or h and 1 for the source, 2 for the target; u3, r3, t3 for the third context. *)
Definition digit_of (w : who) : string := match w with WSrc => "1" | WTgt => "2" | WThird => "3" end.
Inductive spelled : list N -> oper -> Prop :=
| Sp_user w : spelled (chars (append "u" (digit_of w))) (Attr w KUser)
| Sp_role w : spelled (chars (append "r" (digit_of w))) (Attr w KRole)
| Sp_type w : spelled (chars (append "t" (digit_of w))) (Attr w KType)
| Sp_low w : w <> WThird -> spelled (chars (append "l" (digit_of w))) (Low w)
| Sp_high w : w <> WThird -> spelled (chars (append "h" (digit_of w))) (High w).

(** The words for relations. *)
Definition rel_word (r : rel) : list N :=
  chars (match r with REq => "eq" | RNeq => "neq" | RDom => "dom" | RDomby => "domby" | RIncomp => "incomp" end).

(** How expressions are written. *)
Inductive written : ptree -> formula -> Prop :=
| Wr_compare r sa sb a b : spelled sa a -> spelled sb b ->
    written (PList [PName (rel_word r); PName sa; PName sb]) (Compare r a b)
| Wr_name r sa a n : spelled sa a -> (forall b, ~ spelled n b) ->
    written (PList [PName (rel_word r); PName sa; PName n]) (Among r a [n])
| Wr_names r sa a ns : spelled sa a -> r = REq \/ r = RNeq -> ns <> [] ->
    written (PList [PName (rel_word r); PName sa; PList (map PName ns)]) (Among r a ns)
| Wr_not t f : written t f -> written (PList [PName (chars "not"); t]) (Not f)
| Wr_and t f u g : written t f -> written u g -> written (PList [PName (chars "and"); t; u]) (And f g)
| Wr_or t f u g : written t f -> written u g -> written (PList [PName (chars "or"); t; u]) (Or f g).

(** The documented restrictions: users and types of source and target are compared for being the same, roles in all
    ways, six pairs of levels in all ways; names are compared with for being the same; and the third context exists only
    in a statement about transitions ([vt]). *)
Definition legal_compare (r : rel) (a b : oper) : Prop :=
  (exists k, a = Attr WSrc k /\ b = Attr WTgt k /\ (k = KRole \/ r = REq \/ r = RNeq)) \/
  In (a, b) [(Low WSrc, Low WTgt); (Low WSrc, High WTgt); (High WSrc, Low WTgt); (High WSrc, High WTgt);
             (Low WSrc, High WSrc); (Low WTgt, High WTgt)].
Fixpoint legal (vt : bool) (f : formula) : Prop :=
  match f with
  | Compare r a b => legal_compare r a b
  | Among r a _ => (exists w k, a = Attr w k /\ (w = WThird -> vt = true)) /\ (r = REq \/ r = RNeq)
  | Not f => legal vt f
  | And f g | Or f g => legal vt f /\ legal vt g
  end.

(** What the compiler takes: also any relation to a name, and l1 on the right side of anything but h2. *)
Fixpoint taken (vt : bool) (f : formula) : Prop :=
  match f with
  | Compare r a b => legal_compare r a b \/ (b = Low WSrc /\ a <> High WTgt)
  | Among r a _ => exists w k, a = Attr w k /\ (w = WThird -> vt = true)
  | Not f => taken vt f
  | And f g | Or f g => taken vt f /\ taken vt g
  end.

(** The values a name stands for. *)
Definition kind (k : what) : lkind := match k with KUser => LUser | KRole => LRole | KType => LType end.
Definition stands_for (E : names_env) (k : what) (n : list N) (v : N) : Prop :=
  exists d l, n_lookup E (kind k) n = Some d /\ n_values E (kind k) d = Some l /\ In v l.
(** All names are known. *)
Fixpoint known (E : names_env) (f : formula) : Prop :=
  match f with
  | Compare _ _ _ => True
  | Among _ a ns => forall w k n, a = Attr w k -> In n ns ->
      exists d, n_lookup E (kind k) n = Some d /\ n_values E (kind k) d <> None
  | Not f => known E f
  | And f g | Or f g => known E f /\ known E g
  end.

(** The values of the compiler's tables are positive 32-bit numbers that fit into a bitmap. *)
Definition env_ok (E : names_env) : Prop :=
  forall k d l v, n_values E k d = Some l -> In v l -> 1 <= v <= 4294967232.

(** The context meant. *)
Definition the (w : who) (s t : context) (x : option context) : option context :=
  match w with WSrc => Some s | WTgt => Some t | WThird => x end.

(** The relations between two users, roles, types or levels. *)
Definition roles_related (P : spolicy) (r : rel) (a b : N) : Prop :=
  match r with
  | REq => a = b | RNeq => a <> b
  | RDom => role_dom P a b | RDomby => role_dom P b a | RIncomp => ~ role_dom P a b /\ ~ role_dom P b a
  end.
Definition levels_related (r : rel) (a b : level) : Prop :=
  match r with
  | REq => level_same a b | RNeq => ~ level_same a b
  | RDom => level_le b a | RDomby => level_le a b | RIncomp => ~ level_le a b /\ ~ level_le b a
  end.
Definition same_or_not (r : rel) (A : Prop) : Prop :=
  match r with REq => A | RNeq => ~ A | _ => False end.

(** The level an operand means. *)
Inductive level_of (s t : context) (x : option context) : oper -> level -> Prop :=
| Lv_low w c : the w s t x = Some c -> level_of s t x (Low w) (r_low (c_range c))
| Lv_high w c : the w s t x = Some c -> level_of s t x (High w) (r_high (c_range c)).

(** When an expression holds of the source, the target and the third context. *)
Fixpoint holds (E : names_env) (P : spolicy) (s t : context) (x : option context) (f : formula) : Prop :=
  match f with
  | Compare r (Attr w KUser) (Attr w' KUser) =>
      exists c d, the w s t x = Some c /\ the w' s t x = Some d /\ same_or_not r (c_user c = c_user d)
  | Compare r (Attr w KType) (Attr w' KType) =>
      exists c d, the w s t x = Some c /\ the w' s t x = Some d /\ same_or_not r (c_type c = c_type d)
  | Compare r (Attr w KRole) (Attr w' KRole) =>
      exists c d, the w s t x = Some c /\ the w' s t x = Some d /\ roles_related P r (c_role c) (c_role d)
  | Compare r a b => exists l m, level_of s t x a l /\ level_of s t x b m /\ levels_related r l m
  | Among r (Attr w k) ns =>
      exists c, the w s t x = Some c /\ same_or_not r (exists n, In n ns /\ stands_for E k n (attr_of k c))
  | Among _ _ _ => False
  | Not f => ~ holds E P s t x f
  | And f g => holds E P s t x f /\ holds E P s t x g
  | Or f g => holds E P s t x f \/ holds E P s t x g
  end.

(** The stack cells an expression needs when it is evaluated operand by operand. *)
Fixpoint cells (f : formula) : nat :=
  match f with
  | Compare _ _ _ | Among _ _ _ => 1
  | Not f => cells f
  | And f g | Or f g => Nat.max (cells f) (S (cells g))
  end%nat.

(** The class permissions of a statement mention permission number [p] of a class. *)
Inductive mentions (cls p : N) : classperm -> Prop :=
| Me_class perms : In (p + 1) perms -> mentions cls p (CpClass cls perms)
| Me_many c l : In c l -> mentions cls p c -> mentions cls p (CpMany l).

(** Permission values run from 1 to 32. *)
Inductive perms_ok : classperm -> Prop :=
| Pf_class cls perms : (forall v, In v perms -> 1 <= v <= 32) -> perms_ok (CpClass cls perms)
| Pf_many l : (forall c, In c l -> perms_ok c) -> perms_ok (CpMany l).

(** A statement counts in a policy without MLS only when it is not an mls statement. *)
Definition in_effect (mls pm : bool) : Prop := mls = true -> pm = true.

(** All statements are within the documented language; those about transitions also within five cells. *)
Definition all_legal (l : list (cstmt ptree)) : Prop :=
  forall st, In st l ->
    match st with
    | Constrain _ c e => (forall f, written e f -> legal false f) /\ perms_ok (CpMany c)
    | Validate _ _ e => forall f, written e f -> legal true f /\ (cells f <= 5)%nat
    end.

(** All constraints in effect on permission [p] of the class hold. *)
Definition constraints_hold (E : names_env) (pm : bool) (P : spolicy) (l : list (cstmt ptree)) (s t : context) (cls p : N) : Prop :=
  forall mls c e, In (Constrain mls c e) l -> in_effect mls pm -> mentions cls p (CpMany c) ->
  exists f, written e f /\ holds E P s t None f.

(** All transition rules in effect for the class hold. *)
Definition transitions_hold (E : names_env) (pm : bool) (P : spolicy) (l : list (cstmt ptree)) (o n t : context) (cls : N) : Prop :=
  forall mls c e, In (Validate mls c e) l -> in_effect mls pm -> In cls c ->
  exists f, written e f /\ holds E P o n (Some t) f.
