(** What writing the constraints of a policy as CIL and compiling them again should give. *)
From Coq Require Import String.
From Verif Require Import Base EbitmapModel EbitmapSpec MlsModel MlsSpec TypesetModel ServicesModel ServicesSpec CilparseModel CilparseSpec
  CilexprModel KcilSpec CilconsModel CilconsSpec KconsModel.
Local Open Scope N_scope.
Local Open Scope list_scope.

(** The names of users, roles or types. *)
Definition names_of (K : kpol) (k : what) : list (option (list N)) :=
  match k with KUser => kp_users K | KRole => kp_roles K | KType => kp_types K end.
(** [n] is the name of the user, role, or type or attribute numbered [v] (from 1). *)
Definition called (K : kpol) (k : what) (v : N) (n : list N) : Prop :=
  1 <= v /\ nth_error (names_of K k) (N.to_nat (v - 1)) = Some (Some n).
(** The user, role or type numbered [v] is what number [i] stands for: itself, or a member of an attribute. *)
Definition stands (K : kpol) (k : what) (i v : N) : Prop :=
  match k with
  | KType => exists t, nth_error (kp_tinfo K) (N.to_nat (i - 1)) = Some (Some t) /\
               if ti_attr t then member (ti_types t) (v - 1) else v = i
  | _ => v = i
  end.

(** The set that names the values of an elementary condition. *)
Definition named_set (x : kexpr) (k : what) : ebitmap := match k with KType => kx_types x | _ => ce_names (kx x) end.

(** An elementary condition can be written: every number in its set has a readable name, there is one, and if there is
    only one, it is not the word for an operand; and what the names stand for are the values of the condition. *)
Definition nameable (K : kpol) (x : kexpr) : Prop :=
  forall w k eq set, leaf_code (kx x) (FNames w k eq set) ->
    valid (named_set x k) /\
    (exists i, member (named_set x k) i) /\
    (forall i, member (named_set x k) i -> exists n, called K k (i + 1) n /\ n <> [] /\ Forall word_char n /\
       ((forall j, member (named_set x k) j -> j = i) -> forall o, ~ spelled n o)) /\
    (forall v, 1 <= v -> (member set (v - 1) <-> exists i, member (named_set x k) i /\ stands K k (i + 1) v)).

(** The nesting of a formula. *)
Fixpoint nesting (f : cform) : nat :=
  match f with
  | CLeaf (FNames _ _ _ _) => 2
  | CLeaf _ => 1
  | CNot a => S (nesting a)
  | CAnd a b | COr a b => S (Nat.max (nesting a) (nesting b))
  end.
(** The formula compares levels. *)
Fixpoint uses_levels (f : cform) : Prop :=
  match f with
  | CLeaf (FLevels _ _) => True
  | CLeaf _ => False
  | CNot a => uses_levels a
  | CAnd a b | COr a b => uses_levels a \/ uses_levels b
  end.

(** A rule that can be written, in a policy with ([pm]) or without MLS: its expression is that of a formula within five
    cells; [third] tells whether the third context may be mentioned. *)
Definition writable (K : kpol) (third pm : bool) (n : kcons) : Prop :=
  exists f, cwrites (map kx (kn_expr n)) f /\ (cdepth f <= 5)%nat /\ (nesting f < 4094)%nat /\ sets_ok f /\
    (third = false -> no_third f) /\ (uses_levels f -> pm = true) /\ Forall (nameable K) (kn_expr n).

(** The permissions of a rule have names. *)
Definition perms_named (c : kclass) (n : kcons) : Prop :=
  forall p, N.testbit (kn_perms n) p = true -> p < kc_nperms c /\ kc_perm c (p + 1) <> None.

(** A class that can be written. *)
Definition class_writable (K : kpol) (pm : bool) (c : kclass) : Prop :=
  kc_name c <> [] /\ Forall word_char (kc_name c) /\
  (forall n, In n (kc_cons c) -> writable K false pm n /\ perms_named c n) /\
  (forall n, In n (kc_vtrans c) -> writable K true pm n).

(** The class numbered [cls] of the policy. *)
Definition the_class (K : kpol) (cls : N) (c : kclass) : Prop :=
  1 <= cls /\ nth_error (kp_classes K) (N.to_nat (cls - 1)) = Some (Some c).

(** The new policy declares the classes and permissions: class [cls] of the old policy is [cls'] of the new, and
    permission [p] of it (from 0) is [p'] of the new class. *)
Definition class_now (cl : cclasses) (c : kclass) (cls' : N) (tb : table) : Prop := exists mx order, cl (kc_name c) = Some (cls', tb, mx, order).
Definition perm_now (code : list N -> N) (tb : table) (c : kclass) (p p' : N) : Prop :=
  p < kc_nperms c /\ exists q, kc_perm c (p + 1) = Some q /\ plain_name q /\ tb (code q) = Some (DLeaf p').
Definition classes_declared (K : kpol) (code : list N -> N) (cl : cclasses) : Prop :=
  (forall cls c, the_class K cls c -> exists cls' tb, class_now cl c cls' tb /\
     (forall p, p < kc_nperms c -> kc_perm c (p + 1) <> None -> exists p', perm_now code tb c p p' /\ p' < 32) /\
     (forall p q r, perm_now code tb c p r -> perm_now code tb c q r -> p = q)) /\
  (forall i j c d r tb tb', the_class K i c -> the_class K j d -> class_now cl c r tb -> class_now cl d r tb' -> i = j).

(** [R k v v']: the user, role or type numbered [v] in the old policy is the one numbered [v'] in the new. *)
Definition one_to_one (R : what -> N -> N -> Prop) : Prop :=
  forall k v v' w w', R k v v' -> R k w w' -> 1 <= v /\ 1 <= v' /\ (v = w <-> v' = w').
(** The new policy declares the names, and they stand for the same. *)
Definition names_declared (K : kpol) (E : names_env) (R : what -> N -> N -> Prop) : Prop :=
  forall k i n, called K k i n ->
    (exists d, n_lookup E (CilconsSpec.kind k) n = Some d /\ n_values E (CilconsSpec.kind k) d <> None) /\
    forall v v', R k v v' -> (stands_for E k n v' <-> stands K k i v).

(** The same context in the two policies; levels are numbered alike. *)
Definition same_context (R : what -> N -> N -> Prop) (c c' : context) : Prop :=
  R KUser (c_user c) (c_user c') /\ R KRole (c_role c) (c_role c') /\ R KType (c_type c) (c_type c') /\ c_range c' = c_range c.
(** Roles dominate each other alike. *)
Definition same_dominance (R : what -> N -> N -> Prop) (P P' : spolicy) : Prop :=
  forall r r' q q', R KRole r r' -> R KRole q q' -> (role_dom P r q <-> role_dom P' r' q').

(** The rules without the field type_names, as the access decision sees them. *)
Definition seen (n : kcons) : cnstr := mkCN (kn_perms n) (map kx (kn_expr n)).
(** [P] is the policy that is written. *)
Definition policy_is (K : kpol) (P : spolicy) : Prop :=
  forall cls c, the_class K cls c -> sv_cons P cls = map seen (kc_cons c) /\ sv_vtrans P cls = map seen (kc_vtrans c).

(** Other statements, between the two parts. *)
Definition other_statements (mid : list N) (f : list ptree) : Prop :=
  CilparseSpec.written 0 mid f /\ ~ In 59 mid /\ ~ In 13 mid /\
  forall c t, In (PList (PName c :: t)) f ->
    ~ In c [chars "constrain"; chars "mlsconstrain"; chars "validatetrans"; chars "mlsvalidatetrans"].

(** The constraints of [P] and [P'] decide alike: on corresponding contexts, the constraints of a class let the same
    permissions pass, and the transition rules let the same transitions pass. *)
Definition same_decisions (K : kpol) (R : what -> N -> N -> Prop) (code : list N -> N) (cl : cclasses) (P P' : spolicy) : Prop :=
  forall cls c cls' tb, the_class K cls c -> class_now cl c cls' tb ->
    (forall s s' t t' p p', same_context R s s' -> same_context R t t' -> ctx_ok s' -> ctx_ok t' -> perm_now code tb c p p' ->
       (cons_allow P s t cls p <-> cons_allow P' s' t' cls' p')) /\
    (forall o o' n n' t t', same_context R o o' -> same_context R n n' -> same_context R t t' -> ctx_ok o' -> ctx_ok n' -> ctx_ok t' ->
       ((forall r, In r (sv_vtrans P cls) -> satisfied P o n (Some t) r) <-> (forall r, In r (sv_vtrans P' cls') -> satisfied P' o' n' (Some t') r))).
