(** * What an order made of several statements has to be *)
From Coq Require Import NArith List.
Import ListNotations.

(** The items of [s], in their sequence, among those of [l]. *)
Inductive Among : list N -> list N -> Prop :=
| Among_nil l : Among [] l
| Among_take x s l : Among s l -> Among (x :: s) (x :: l)
| Among_skip x s l : Among s l -> Among s (x :: l).
(** An order agrees with the statements: each symbol is in it once, exactly the symbols listed are in it, and every statement
    has its items in the sequence of the order. *)
Definition agrees (l : list N) (stmts : list (list N)) : Prop :=
  NoDup l /\ (forall x, In x l <-> exists s, In s stmts /\ In x s) /\ Forall (fun s => Among s l) stmts.
(** Neighbours in a list. *)
Definition next_to (a b : N) (l : list N) : Prop := exists l1 l2, l = l1 ++ a :: b :: l2.
(** A run of neighbours. *)
Definition run_of (s l : list N) : Prop := exists l1 l2, l = l1 ++ s ++ l2.
(** The items of [l] that are not in [before], each where it is first. *)
Inductive Firsts : list N -> list N -> list N -> Prop :=
| Firsts_nil before : Firsts before [] []
| Firsts_old before x l r : In x before -> Firsts before l r -> Firsts before (x :: l) r
| Firsts_new before x l r : ~ In x before -> Firsts (x :: before) l r -> Firsts before (x :: l) (x :: r).
