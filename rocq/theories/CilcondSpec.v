(** What conditions of CIL mean, stated on the parse tree as the user wrote it. *)
From Verif Require Import Base CondModel CondSpec CilexprModel CilexprSpec CilcondModel.

(** Is the condition [t] true, when the boolean or tunable named [n] is [env n].  A list without operator is
    true when one of its members is. *)
Fixpoint condition (env : N -> bool) (t : tree) : bool :=
  match t with
  | TName n => env n
  | TKey _ => false
  | TList [TKey KNot; a] => negb (condition env a)
  | TList [TKey KAnd; a; b] => condition env a && condition env b
  | TList [TKey KOr; a; b] => condition env a || condition env b
  | TList [TKey KXor; a; b] => xorb (condition env a) (condition env b)
  | TList [TKey KEq; a; b] => Bool.eqb (condition env a) (condition env b)
  | TList [TKey KNeq; a; b] => negb (Bool.eqb (condition env a) (condition env b))
  | TList l => existsb (condition env) l
  end.

(** How many intermediate results are held at once when the condition is worked out left to right. *)
Fixpoint depth (t : tree) : nat :=
  match t with
  | TList [TKey _; a] => depth a
  | TList [TKey _; a; b] => Nat.max (depth a) (S (depth b))
  | TList l =>
      match map depth l with
      | [] => O
      | d :: ds => fold_left (fun acc x => Nat.max acc (S x)) ds d
      end
  | _ => 1
  end.

(** Booleans and tunables: every declared name is a plain symbol. *)
Definition plain_table (tb : table) : Prop := forall n, tb n = None \/ exists v, tb n = Some (DLeaf v).

(** The policy has a boolean of its own for every declared one. *)
Definition booleans_ok (tb : table) (bs : bools) : Prop :=
  plain_table tb /\ bools_ok bs /\ (forall n v, tb n = Some (DLeaf v) -> v < N.of_nat (length bs)) /\
  forall n m v, tb n = Some (DLeaf v) -> tb m = Some (DLeaf v) -> n = m.

(** The number of a boolean in the policy. *)
Definition number (tb : table) (n : N) : N := match tb n with Some (DLeaf v) => v + 1 | _ => 0 end.

(** One block, "(true ...)" or "(false ...)", or one of each in any order. *)
Inductive blocks_ok {S} : list (block S) -> Prop :=
| one_block b x : blocks_ok [(Some b, x)]
| two_blocks b x y : blocks_ok [(Some b, x); (Some (negb b), y)].

(** The statements in the block for [b]. *)
Definition statements {S} (b : bool) (bl : list (block S)) (s : S) : Prop :=
  exists x, In (Some b, x) bl /\ In s x.

(** A condition that is accepted. *)
Definition condition_ok (f : flavor) (tb : table) (t : tree) : Prop :=
  shape f t = true /\ forall n, In n (names t) -> tb n <> None.

(** Two conditions that mention the same symbols mention them in the same order of first appearance. *)
Definition same_first_order (t u : tree) : Prop :=
  (forall n, In n (names t) <-> In n (names u)) -> first_occ [] (names t) = first_occ [] (names u).

(** A booleanif that is accepted: the condition is, it needs no more than ten intermediate results, and the
    blocks are right. *)
Definition bif_ok {W} (tb : table) (p : tree * list (block W)) : Prop :=
  condition_ok FBool tb (fst p) /\ (depth (fst p) <= 10)%nat /\ blocks_ok (snd p).
