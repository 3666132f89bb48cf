(** What bounds mean. *)
From Verif Require Import Base EbitmapModel EbitmapSpec AvtabModel AssertModel AssertSpec HierModel.

(** With these rules in force, source type [s] may do [p] of class [c] to target type [t] (types numbered from 0). *)
Definition allowed (P : apolicy) (force : list anode) (s t c p : N) : Prop := exists n, In n force /\ covers P n s t c p.

(** The target type the parent is compared on: the target's own bound if it has one. *)
Definition bound_target (bof : N -> N) (t : N) : N := if bof t =? 0 then t else bof t - 1.

(** With one branch of every conditional in force, however chosen, the child may do nothing that the parent may not. *)
Definition type_within (P : apolicy) (bof : N -> N) (child parent : N) : Prop :=
  forall choice, length choice = length (ap_conds P) -> forall t c p,
    allowed P (in_force P choice) (child - 1) t c p -> allowed P (in_force P choice) (parent - 1) (bound_target bof t) c p.

(** All conditional rules of the type [parent] are allow rules. *)
Definition allow_only (P : apolicy) (parent : N) : Prop :=
  forall tl fl n, In (tl, fl) (ap_conds P) -> In n tl \/ In n fl -> member (ap_attr P (k_src (n_key n))) (parent - 1) -> N.testbit (k_spec (n_key n)) 0 = true.

(** Numbers of types and classes fit in 16 bits; type numbers in keys and bounds begin at 1. *)
Definition small_types (P : apolicy) (bof : N -> N) : Prop :=
  (forall v t, member (ap_attr P v) t -> t < 65535) /\ (forall t, bof t < 65536) /\
  (forall n, In n (avtab_map_list (ap_te P)) -> k_cls (n_key n) < 65536) /\
  (forall tl fl n, In (tl, fl) (ap_conds P) -> In n tl \/ In n fl -> k_cls (n_key n) < 65536).

(** ** Hierarchies by name *)

(** [p] is the name of the parent of [n]: all before the last dot. *)
Definition parent_name (n p : list N) : Prop := exists q, n = p ++ 46 :: q /\ ~ In 46 q.

(** The bound an entry has in the end: the declared one, or else that of the entry named by the part before the last
    dot, or else none. [None]: such an entry does not exist. *)
Inductive final_bound (T : htab) (e : hentry) : option N -> Prop :=
| fb_declared : h_bounds e <> 0 -> final_bound T e (Some (h_bounds e))
| fb_root : h_bounds e = 0 -> ~ In 46 (ht_name T (h_val e - 1)) -> final_bound T e (Some 0)
| fb_parent x : h_bounds e = 0 -> In x (ht_list T) -> parent_name (ht_name T (h_val e - 1)) (h_key x) -> final_bound T e (Some (h_val x))
| fb_orphan p : h_bounds e = 0 -> parent_name (ht_name T (h_val e - 1)) p -> (forall x, In x (ht_list T) -> h_key x <> p) -> final_bound T e None.

(** The bound of the structure number [i]. *)
Definition struct_bound (T : htab) (i b : N) : Prop :=
  match ht_struct T i with
  | None => b = 0
  | Some j => match nth_error (ht_list T) j with None => b = 0 | Some e => final_bound T e (Some b) end
  end.

(** Sets of bounded entries are subsets of the sets of their bounds. *)
Definition sets_within (T : htab) (sets : nat -> ebitmap) : Prop :=
  forall j jp e b, nth_error (ht_list T) j = Some e -> final_bound T e (Some b) -> b <> 0 -> ht_struct T (b - 1) = Some jp ->
    forall x, member (sets j) x -> member (sets jp) x.

(** No entry lacks a parent. *)
Definition no_orphan (T : htab) : Prop := forall e, In e (ht_list T) -> ~ final_bound T e None.
(** Each name only once. *)
Definition unique_names (T : htab) : Prop := NoDup (map h_key (ht_list T)).
