(** What a role attribute contains. *)
From Verif Require Import Base.

(** Role [j] is in attribute [i], directly or through other attributes; bit j of [R i]: [j] was put into [i]. *)
Inductive within (attr : N -> bool) (R : N -> N) : N -> N -> Prop :=
| within_direct : forall i j, N.testbit (R i) j = true -> attr j = false -> within attr R i j
| within_via : forall i k j, N.testbit (R i) k = true -> attr k = true -> within attr R k j -> within attr R i j.

(** No attribute is in itself, directly or through others: they can be ranked. *)
Definition ranked (attr : N -> bool) (R : N -> N) (rank : N -> nat) : Prop :=
  forall i k, attr i = true -> attr k = true -> N.testbit (R i) k = true -> (rank k < rank i)%nat.
