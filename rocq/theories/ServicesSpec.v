(** Specification of access decisions: constraint formulas and what it means for a permission to be
    granted. *)
From Verif Require Import Base EbitmapModel EbitmapSpec MlsModel MlsSpec AvtabModel CondModel ServicesModel.

(** Whose attribute: the source, the target or the third context of a transition. *)
Inductive who := WSrc | WTgt | WThird.
(** Which attribute. *)
Inductive what := KUser | KRole | KType.
(** Comparison operators. *)
Inductive rel := REq | RNeq | RDom | RDomby | RIncomp.
(** The pairs of levels that can be compared. *)
Inductive lpair := L1L2 | L1H2 | H1L2 | H1H2 | L1H1 | L2H2.

(** Elementary conditions and formulas. *)
Inductive leaf :=
| FUsers (eq : bool) | FTypes (eq : bool)
| FRoles (r : rel) | FLevels (p : lpair) (r : rel)
| FNames (w : who) (k : what) (eq : bool) (set : ebitmap).
Inductive cform := CLeaf (f : leaf) | CNot (a : cform) | CAnd (a b : cform) | COr (a b : cform).

(** The attribute of a context. *)
Definition attr_of (k : what) (c : context) : N :=
  match k with KUser => c_user c | KRole => c_role c | KType => c_type c end.

(** The two levels compared. *)
Definition lpair_of (p : lpair) (s t : context) : level * level :=
  match p with
  | L1L2 => (r_low (c_range s), r_low (c_range t))
  | L1H2 => (r_low (c_range s), r_high (c_range t))
  | H1L2 => (r_high (c_range s), r_low (c_range t))
  | H1H2 => (r_high (c_range s), r_high (c_range t))
  | L1H1 => (r_low (c_range s), r_high (c_range s))
  | L2H2 => (r_low (c_range t), r_high (c_range t))
  end.

(** Role [r] dominates role [q] in the policy. *)
Definition role_dom (P : spolicy) (r q : N) : Prop := exists d, sv_dom P r = Some d /\ member d (q - 1).

(** Equality or inequality. *)
Definition eq_or_not (eq : bool) (A : Prop) : Prop := if eq then A else ~ A.

(** When an elementary condition holds. *)
Definition leaf_holds (P : spolicy) (s t : context) (x : option context) (f : leaf) : Prop :=
  match f with
  | FUsers eq => eq_or_not eq (c_user s = c_user t)
  | FTypes eq => eq_or_not eq (c_type s = c_type t)
  | FRoles r =>
      match r with
      | REq => c_role s = c_role t
      | RNeq => c_role s <> c_role t
      | RDom => role_dom P (c_role s) (c_role t)
      | RDomby => role_dom P (c_role t) (c_role s)
      | RIncomp => ~ role_dom P (c_role s) (c_role t) /\ ~ role_dom P (c_role t) (c_role s)
      end
  | FLevels p r =>
      let (l1, l2) := lpair_of p s t in
      match r with
      | REq => level_same l1 l2
      | RNeq => ~ level_same l1 l2
      | RDom => level_le l2 l1
      | RDomby => level_le l1 l2
      | RIncomp => ~ level_le l1 l2 /\ ~ level_le l2 l1
      end
  | FNames w k eq set =>
      exists c, match w with WSrc => Some s | WTgt => Some t | WThird => x end = Some c /\
        eq_or_not eq (member set (attr_of k c - 1))
  end.

(** When a formula holds. *)
Fixpoint cholds (P : spolicy) (s t : context) (x : option context) (f : cform) : Prop :=
  match f with
  | CLeaf l => leaf_holds P s t x l
  | CNot a => ~ cholds P s t x a
  | CAnd a b => cholds P s t x a /\ cholds P s t x b
  | COr a b => cholds P s t x a \/ cholds P s t x b
  end.

(** How elementary conditions are written: kind of record, attribute word, operator code, name set. *)
Definition eq_code (eq : bool) : N := if eq then 1 else 2.
Definition rel_code (r : rel) : N :=
  match r with REq => 1 | RNeq => 2 | RDom => 3 | RDomby => 4 | RIncomp => 5 end.
Definition lpair_code (p : lpair) : N :=
  match p with L1L2 => 32 | L1H2 => 64 | H1L2 => 128 | H1H2 => 256 | L1H1 => 512 | L2H2 => 1024 end.
Definition what_code (k : what) : N := match k with KUser => 1 | KRole => 2 | KType => 4 end.
Definition who_code (w : who) : N := match w with WSrc => 0 | WTgt => 8 | WThird => 16 end.
Inductive leaf_code : cexpr -> leaf -> Prop :=
| LC_users eq nm : leaf_code (mkCE 4 1 (eq_code eq) nm) (FUsers eq)
| LC_types eq nm : leaf_code (mkCE 4 4 (eq_code eq) nm) (FTypes eq)
| LC_roles r nm : leaf_code (mkCE 4 2 (rel_code r) nm) (FRoles r)
| LC_levels p r nm : leaf_code (mkCE 4 (lpair_code p) (rel_code r) nm) (FLevels p r)
| LC_names w k eq nm : leaf_code (mkCE 5 (what_code k + who_code w) (eq_code eq) nm) (FNames w k eq nm).

(** [cwrites l f]: the list is the reverse Polish writing of the formula. *)
Inductive cwrites : list cexpr -> cform -> Prop :=
| CW_leaf e f : leaf_code e f -> cwrites [e] (CLeaf f)
| CW_not l a e : cwrites l a -> ce_type e = 1 -> cwrites (l ++ [e]) (CNot a)
| CW_and l a m b e : cwrites l a -> cwrites m b -> ce_type e = 2 -> cwrites (l ++ m ++ [e]) (CAnd a b)
| CW_or l a m b e : cwrites l a -> cwrites m b -> ce_type e = 3 -> cwrites (l ++ m ++ [e]) (COr a b).

(** Stack cells needed. *)
Fixpoint cdepth (f : cform) : nat :=
  match f with
  | CLeaf _ => 1
  | CNot a => cdepth a
  | CAnd a b | COr a b => Nat.max (cdepth a) (S (cdepth b))
  end%nat.

(** The formula never speaks of the third context. *)
Fixpoint no_third (f : cform) : Prop :=
  match f with
  | CLeaf (FNames WThird _ _ _) => False
  | CLeaf _ => True
  | CNot a => no_third a
  | CAnd a b | COr a b => no_third a /\ no_third b
  end.

(** The formula's name sets are canonical bitmaps. *)
Fixpoint sets_ok (f : cform) : Prop :=
  match f with
  | CLeaf (FNames _ _ _ set) => valid set
  | CLeaf _ => True
  | CNot a => sets_ok a
  | CAnd a b | COr a b => sets_ok a /\ sets_ok b
  end.

(** A context with 32-bit non-zero values and canonical category sets. *)
Definition ctx_ok (c : context) : Prop :=
  1 <= c_user c < 4294967296 /\ 1 <= c_role c < 4294967296 /\ 1 <= c_type c < 4294967296 /\
  valid_mrange (c_range c).

(** The roles of the contexts exist in the policy. *)
Definition role_known (P : spolicy) (c : context) : Prop := exists d, sv_dom P (c_role c) = Some d /\ valid d.

(** A constraint list the policy reader and validator accept: each expression is a written formula within
    five cells; [third] tells whether the third context may be mentioned. *)
Definition cons_wf (third : bool) (l : list cnstr) : Prop :=
  Forall (fun c => exists f, cwrites (cn_expr c) f /\ (cdepth f <= 5)%nat /\ sets_ok f /\
                             (third = false -> no_third f)) l.

(** The constraint is satisfied by the contexts. *)
Definition satisfied (P : spolicy) (s t : context) (x : option context) (c : cnstr) : Prop :=
  forall f, cwrites (cn_expr c) f -> cholds P s t x f.

(** The rules of the policy for a pair of types and a class, with bit [sp] of the rule kind: an
    unconditional rule of exactly that kind or an enabled conditional rule of that kind, written for a type
    or attribute of the source and one of the target. *)
Definition rule_for (P : spolicy) (st tt cls sp : N) (n : anode) : Prop :=
  (exists i j, member (sv_attr P st) i /\ member (sv_attr P tt) j /\
     k_src (n_key n) = i + 1 /\ k_tgt (n_key n) = j + 1) /\
  k_cls (n_key n) = cls /\
  ((In n (avtab_map_list (sv_te P)) /\ k_spec (n_key n) = 2 ^ sp) \/
   (In n (avtab_map_list (sv_cond P)) /\ N.testbit (k_spec (n_key n)) sp = true /\
    N.testbit (k_spec (n_key n)) 15 = true)).

(** Some allow rule grants permission [p]. *)
Definition te_allows (P : spolicy) (st tt cls p : N) : Prop :=
  exists n, rule_for P st tt cls 0 n /\ N.testbit (d_data (n_datum n)) p = true.

(** No violated constraint mentions [p]. *)
Definition cons_allow (P : spolicy) (s t : context) (cls p : N) : Prop :=
  forall c, In c (sv_cons P cls) -> N.testbit (cn_perms c) p = true -> satisfied P s t None c.

(** A process transition that changes the role needs a role allow rule. *)
Definition role_allows (P : spolicy) (s t : context) (cls p : N) : Prop :=
  cls = sv_process P -> N.testbit (sv_trans_dyntrans P) p = true -> c_role s <> c_role t ->
  In (c_role s, c_role t) (sv_role_allow P).

(** Everything but the bounds. *)
Definition locally (P : spolicy) (s t : context) (cls p : N) : Prop :=
  te_allows P (c_type s) (c_type t) cls p /\ cons_allow P s t cls p /\ role_allows P s t cls p.

(** The pair of contexts checked for the bounds of [s]: its bounding type, and the bounding type of the
    target if there is one. *)
Definition parent_src (P : spolicy) (s : context) : context := MlsModel.mkC (c_user s) (c_role s) (sv_bounds P (c_type s)) (c_range s).
Definition parent_tgt (P : spolicy) (t : context) : context :=
  if sv_bounds P (c_type t) =? 0 then t
  else MlsModel.mkC (c_user t) (c_role t) (sv_bounds P (c_type t)) (c_range t).

(** The permission is granted: locally, and to the bounding pair when the source type is bounded. *)
Inductive granted (P : spolicy) (cls p : N) : context -> context -> Prop :=
| G_free s t : locally P s t cls p -> sv_bounds P (c_type s) = 0 -> granted P cls p s t
| G_bound s t : locally P s t cls p -> sv_bounds P (c_type s) <> 0 ->
    granted P cls p (parent_src P s) (parent_tgt P t) -> granted P cls p s t.

(** A policy as read and validated: well-formed tables, canonical attribute maps, well-formed constraints,
    bounds are 32-bit type values, types and classes have 16-bit numbers. *)
Definition spolicy_ok (wf : avtab -> Prop) (P : spolicy) : Prop :=
  wf (sv_te P) /\ wf (sv_cond P) /\ (forall ty, valid (sv_attr P ty)) /\
  (forall ty i, member (sv_attr P ty) i -> i < 65535) /\ sv_nclasses P < 65536 /\
  (forall cls, cons_wf false (sv_cons P cls)) /\ (forall cls, cons_wf true (sv_vtrans P cls)) /\
  (forall ty, sv_bounds P ty < 4294967296).

(** Bounds are acyclic: some measure decreases from a type to its bound. *)
Definition ranked (P : spolicy) (rank : N -> nat) : Prop :=
  forall ty, sv_bounds P ty <> 0 -> (rank (sv_bounds P ty) < rank ty)%nat.

(** Going up the bounds [n] times. *)
Fixpoint up (P : spolicy) (n : nat) (s t : context) : context * context :=
  match n with
  | O => (s, t)
  | S n' => let (s', t') := up P n' s t in (parent_src P s', parent_tgt P t')
  end.

(** Why permissions are missing: a requested permission has no allow rule. *)
Definition why_te (P : spolicy) (s t : context) (cls req : N) : Prop :=
  exists p, N.testbit req p = true /\ ~ te_allows P (c_type s) (c_type t) cls p.
(** A requested permission that has a rule is removed by a constraint. *)
Definition why_cons (P : spolicy) (s t : context) (cls req : N) : Prop :=
  exists p, N.testbit req p = true /\ te_allows P (c_type s) (c_type t) cls p /\ ~ cons_allow P s t cls p.
(** A requested permission that passes rules and constraints is removed for want of a role allow rule. *)
Definition why_role (P : spolicy) (s t : context) (cls req : N) : Prop :=
  exists p, N.testbit req p = true /\ te_allows P (c_type s) (c_type t) cls p /\ cons_allow P s t cls p /\
    ~ role_allows P s t cls p.
(** A permission, requested or not, that passes all this is removed by the bounds. *)
Definition why_bounds (P : spolicy) (s t : context) (cls : N) : Prop :=
  exists p, locally P s t cls p /\ ~ granted P cls p s t.
