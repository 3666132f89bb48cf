(** What the record databases are meant to do, in terms of lists of records in the order of insertion. *)
From Verif Require Import Base DbModel.
From Coq Require Import Sorted Permutation.

Section Spec.
Context {R K : Type} (key : R -> K).

(** The newest record with the key, between what came before and after it; or there is none. *)
Definition newest (l : list R) (k : K) (a : list R) (x : R) (b : list R) : Prop :=
  l = a ++ x :: b /\ key x = k /\ forall y, In y b -> key y <> k.
Definition absent (l : list R) (k : K) : Prop := forall y, In y l -> key y <> k.
(** The records handed to a handler: in order, until it reports something else than 0; a negative report is a failure. *)
Inductive Visits (fn : R -> Z) : list R -> bool -> list R -> Prop :=
| V_nil : Visits fn [] false []
| V_go r l f s : fn r = 0%Z -> Visits fn l f s -> Visits fn (r :: l) f (r :: s)
| V_stop r l : (0 < fn r)%Z -> Visits fn (r :: l) false [r]
| V_fail r l : (fn r < 0)%Z -> Visits fn (r :: l) true [r].

(** One call on a collection: the collection afterwards and the answer. *)
Inductive Step (l : list R) : dop R K -> list R -> dresp R -> Prop :=
| S_add r : Step l (OAdd true true r) (l ++ [r]) RDone
| S_add_mem m c r : m = false \/ c = false -> Step l (OAdd m c r) l RFail
| S_set k r a x b : newest l k a x b -> Step l (OSet true k r) (a ++ r :: b) RDone
| S_set_absent c k r : absent l k -> Step l (OSet c k r) l RFail
| S_modify m k r a x b : newest l k a x b -> Step l (OModify m true k r) (a ++ r :: b) RDone
| S_modify_new k r : absent l k -> Step l (OModify true true k r) (l ++ [r]) RDone
| S_modify_mem m c k r : absent l k -> m = false \/ c = false -> Step l (OModify m c k r) l RFail
| S_del k a x b : newest l k a x b -> Step l (ODel k) (a ++ b) RDone
| S_del_absent k : absent l k -> Step l (ODel k) l RDone
| S_clear : Step l OClear [] RDone
| S_query k a x b : newest l k a x b -> Step l (OQuery true k) l (RRec x)
| S_query_mem k : Step l (OQuery false k) l RFail
| S_query_absent c k : absent l k -> Step l (OQuery c k) l RFail
| S_exists k a x b : newest l k a x b -> Step l (OExists k) l (RBool true)
| S_exists_absent k : absent l k -> Step l (OExists k) l (RBool false)
| S_count : Step l OCount l (RNum (N.of_nat (length l)))
| S_iterate fn f s : Visits fn l f s -> Step l (OIterate fn) l (RSeen f s)
| S_list m c : (l <> [] -> m = true) -> (forall i, (i < length l)%nat -> c i = true) -> Step l (OList m c) l (RArr l)
| S_list_mem m c : (l <> [] /\ m = false) \/ (exists i, (i < length l)%nat /\ c i = false) -> Step l (OList m c) l RFail.
Inductive Steps : list R -> list (dop R K) -> list R -> list (dresp R) -> Prop :=
| Steps_nil l : Steps l [] l []
| Steps_cons l o l1 x ops l2 xs : Step l o l1 x -> Steps l1 ops l2 xs -> Steps l (o :: ops) l2 (x :: xs).

(** The calls that concern a key. *)
Definition touches (k : K) (o : dop R K) : Prop :=
  match o with
  | OAdd _ _ r => key r = k
  | OSet _ k' r | OModify _ _ k' r => k' = k \/ key r = k
  | ODel k' => k' = k
  | OClear => True
  | _ => False
  end.
(** No allocation fails while a record is replaced. *)
Definition copies (o : dop R K) : Prop := match o with OSet c _ _ | OModify _ c _ _ => c = true | _ => True end.
(** Records are stored under their own key. *)
Definition own_key (o : dop R K) : Prop := match o with OSet _ k r | OModify _ _ k r => key r = k | _ => True end.
(** Records are not added next to others with their key. *)
Definition no_add (o : dop R K) : Prop := match o with OAdd _ _ _ => False | _ => True end.
(** Every record stored satisfies [P]. *)
Definition stores (P : R -> Prop) (o : dop R K) : Prop := match o with OAdd _ _ r | OSet _ _ r | OModify _ _ _ r => P r | _ => True end.
End Spec.
(** Nothing was read yet. *)
Definition unloaded {R} (db : llist R) : Prop := (serial db < 0)%Z.
(** The records a database lists. *)
Definition shows {R} (db : llist R) (l : list R) : Prop := llist_list true (fun _ => true) db = DOk l.

(** ** The joined user database *)
(** The record a table has for a name. *)
Definition base_of (l : list ubase) (n : list N) (b : ubase) : Prop := In b l /\ ub_name b = n.
Definition extra_of (l : list uextra) (n : list N) (e : uextra) : Prop := In e l /\ ue_name e = n.
Definition no_base (l : list ubase) (n : list N) : Prop := forall b, In b l -> ub_name b <> n.
Definition no_extra (l : list uextra) (n : list N) : Prop := forall e, In e l -> ue_name e <> n.
(** A user combines both halves; a missing half is blank, with the prefix "user". *)
Definition combined (l1 : list ubase) (l2 : list uextra) (u : user) : Prop :=
  (base_of l1 (u_name u) (u_base u) \/ (no_base l1 (u_name u) /\ u_base u = mkUb (u_name u) None None [])) /\
  (extra_of l2 (u_name u) (u_extra u) \/ (no_extra l2 (u_name u) /\ u_extra u = mkUe (u_name u) [117; 115; 101; 114])) /\
  ((exists b, base_of l1 (u_name u) b) \/ (exists e, extra_of l2 (u_name u) e)).
(** The join of two tables: one user for every name in either. *)
Record Joined (l1 : list ubase) (l2 : list uextra) (us : list user) : Prop := {
  jo_once : NoDup (map u_name us);
  jo_all : forall n, In n (map u_name us) <-> In n (map ub_name l1) \/ In n (map ue_name l2);
  jo_halves : forall u, In u us -> combined l1 l2 u }.
(** A user whose parts carry its name. *)
Definition coherent (u : user) : Prop := ub_name (u_base u) = u_name u /\ ue_name (u_extra u) = u_name u.
(** The order of texts, and sorting by name. *)
Inductive text_le : list N -> list N -> Prop :=
| text_nil b : text_le [] b
| text_lt x y a b : x < y -> text_le (x :: a) (y :: b)
| text_eq x a b : text_le a b -> text_le (x :: a) (x :: b).
Definition sorts_by {A} (name : A -> list N) (f : list A -> list A) : Prop :=
  forall l, Permutation l (f l) /\ StronglySorted (fun a b => text_le (name a) (name b)) (f l).
