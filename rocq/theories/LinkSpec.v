(** What linking should do. Uses only the records of the model. *)
From Verif Require Import Base LinkModel.

(** ** Symbols *)

(** The source of a base or module: its declarations and requirements in order. *)
Definition source : Type := list event.
Definition declares (h : source) (k : symbol) (b : N) : Prop := exists a, In (mkE k a true b) h.
Definition requires (h : source) (k : symbol) (b : N) : Prop := exists a, In (mkE k a false b) h.

(** The linked policy: the base and modules whose blocks get new numbers. *)
Definition linked_declares (base : source) (mods : list ((N -> N) * source)) (k : symbol) (b : N) : Prop :=
  declares base k b \/ exists f h c, In (f, h) mods /\ declares h k c /\ b = f c.

(** No block declares the symbol after it required it. *)
Definition orderly (k : symbol) (h : source) : Prop :=
  forall h1 h2 a b, h = h1 ++ mkE k a true b :: h2 -> ~ requires h1 k b.
(** If the symbol is declared here, then every block that requires it declares it, too. *)
Definition own_blocks_only (k : symbol) (h : source) : Prop :=
  forall b c, declares h k b -> requires h k c -> declares h k c.

(** The sources on which presence means what it should; tables 2 and 4 are roles and users. *)
Definition tidy (k : symbol) (h : source) : Prop :=
  (fst k = 2 \/ fst k = 4 -> own_blocks_only k h) /\ (fst k <> 2 -> fst k <> 4 -> orderly k h).

(** ** Optional blocks *)

(** The symbols a branch needs: those required, and the classes up to the highest one required
    (classes are declared in the base, before anything else, with the lowest numbers). *)
Definition needs (d : decl) (k : symbol) : Prop :=
  In k (d_symbols d) \/ exists c, (c < length (d_classes d))%nat /\ k = (1, N.of_nat c).

(** The first branch of a block. *)
Definition main (b : block) (d : decl) : Prop := exists r, b_branches b = d :: r.

(** A set of blocks such that each need of their first branches is declared by one of them. *)
Definition self_supporting (declared : symbol -> N -> Prop) (bl : list block) (S : N -> Prop) : Prop :=
  forall i, S i -> exists b d, In b bl /\ main b d /\ d_id d = i /\
    forall k, needs d k -> exists j, declared k j /\ S j.
(** The largest such set. *)
Definition sustained (declared : symbol -> N -> Prop) (bl : list block) (i : N) : Prop :=
  exists S, self_supporting declared bl S /\ S i.
