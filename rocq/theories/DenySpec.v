(** * What CIL allow and deny rules mean *)
From Coq Require Import NArith List Bool.
From Verif Require Import DenyModel.
Import ListNotations.
Local Open Scope N_scope.

(** Class permissions name a permission of a class: directly, through a permission of a class map, or through a named set. *)
Inductive Names (c p : N) : list cp -> Prop :=
| Names_class l ps : In (CClass c ps) l -> In p ps -> Names c p l
| Names_map l m ms x l' : In (CMap m ms) l -> In (x, l') ms -> Names c p l' -> Names c p l
| Names_set l n l' : In (CSet n l') l -> Names c p l' -> Names c p l.

(** The types a name stands for. *)
Definition of_type (d : datum) (v : N) : Prop :=
  match d with DType w => v = w | DAttr a => N.testbit (a_types a) v = true | _ => False end.
(** The pairs of types of a rule, in a policy where there are [n] types. *)
Definition pairs (n : N) (src tgt : datum) (s t : N) : Prop :=
  of_type src s /\
  match tgt with
  | DSelf => t = s
  | DNotself => t <> s /\ t < n
  | DOther => of_type src t /\ t <> s
  | _ => of_type tgt t
  end.
(** An access, and what grants or denies it. *)
Record access := mkAcc { x_src : N; x_tgt : N; x_class : N; x_perm : N }.
Definition grants (n : N) (r : avrule) (x : access) : Prop :=
  r_kind r = Allowed /\ r_ext r = false /\ pairs n (r_src r) (r_tgt r) (x_src x) (x_tgt x) /\ Names (x_class x) (x_perm x) (r_perms r).
Definition denies (n : N) (y : deny) (x : access) : Prop :=
  pairs n (y_src y) (y_tgt y) (x_src x) (x_tgt x) /\ Names (x_class x) (x_perm x) (y_perms y).

(** Where a statement is: the nodes above it, each with whether it is an abstract block or a macro. *)
Inductive Holds : list (N * bool) -> list node -> node -> Prop :=
| Holds_here l x : In x l -> Holds [] l x
| Holds_in l id skip l' path x : In (NBox id skip l') l -> Holds path l' x -> Holds ((id, skip) :: path) l x.
(** In force: not inside an abstract block or a macro. *)
Definition live (path : list (N * bool)) : Prop := Forall (fun b => snd b = false) path.
(** The accesses granted at a place of the policy, and those some deny rule in force names. *)
Definition granted (n : N) (path : list (N * bool)) (l : list node) (x : access) : Prop :=
  exists r, Holds path l (NRule r) /\ grants n r x.
Definition denied (n : N) (l : list node) (x : access) : Prop :=
  exists path y, live path /\ Holds path l (NDeny y) /\ denies n y x.

(** Policies as they are when deny rules are carried out: types have values below their number; an attribute is an entry of the
    database, no two entries have one address; sources are types or attributes. *)
Definition attr_ok (D : db) (a : attr) : Prop := In a (d_attrs D).
Definition datum_ok (D : db) (d : datum) : Prop :=
  match d with DType v => v < d_types D | DAttr a => attr_ok D a | _ => False end.
Definition target_ok (D : db) (d : datum) : Prop := datum_ok D d \/ d = DSelf \/ d = DNotself \/ d = DOther.
Definition db_ok (D : db) : Prop :=
  NoDup (map a_id (d_attrs D)) /\ Forall (fun a => a_id a < d_fresh D /\ forall v, N.testbit (a_types a) v = true -> v < d_types D) (d_attrs D).
Definition rule_ok (D : db) (r : avrule) : Prop := r_kind r = Allowed -> r_ext r = false -> datum_ok D (r_src r) /\ target_ok D (r_tgt r).
Definition deny_ok (D : db) (y : deny) : Prop := datum_ok D (y_src y) /\ target_ok D (y_tgt y).
Definition policy_ok (D : db) (l : list node) : Prop :=
  db_ok D /\ forall path x, live path -> Holds path l x ->
    match x with NRule r => rule_ok D r | NDeny y => deny_ok D y | _ => True end.
(** No identifier of the policy is one the attributes made here will be called by. *)
Definition names_free (D : db) : Prop := forall sc k, In (sc, k) (d_taken D) -> k < d_next D.
