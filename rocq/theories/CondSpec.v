(** Specification for conditionals: boolean formulas, their truth and their reverse Polish writing. *)
From Coq Require Import Permutation.
From Verif Require Import Base AvtabModel CondModel.

(** A boolean formula; variables are booleans of the policy (numbered from 1). *)
Inductive bexp :=
| BVar (v : N) | BNot (a : bexp)
| BOr (a b : bexp) | BAnd (a b : bexp) | BXor (a b : bexp) | BEq (a b : bexp) | BNeq (a b : bexp).

(** The usual truth value under an assignment. *)
Fixpoint truth (asg : N -> bool) (e : bexp) : bool :=
  match e with
  | BVar v => asg v
  | BNot a => negb (truth asg a)
  | BOr a b => truth asg a || truth asg b
  | BAnd a b => truth asg a && truth asg b
  | BXor a b => xorb (truth asg a) (truth asg b)
  | BEq a b => Bool.eqb (truth asg a) (truth asg b)
  | BNeq a b => negb (Bool.eqb (truth asg a) (truth asg b))
  end.

(** [writes l e]: the token list [l] is the reverse Polish writing of [e] (the boolean field of an
    operator token is free). *)
Inductive writes : list tok -> bexp -> Prop :=
| W_var v : writes [mkT 1 v] (BVar v)
| W_not l a x : writes l a -> writes (l ++ [mkT 2 x]) (BNot a)
| W_or l a m b x : writes l a -> writes m b -> writes (l ++ m ++ [mkT 3 x]) (BOr a b)
| W_and l a m b x : writes l a -> writes m b -> writes (l ++ m ++ [mkT 4 x]) (BAnd a b)
| W_xor l a m b x : writes l a -> writes m b -> writes (l ++ m ++ [mkT 5 x]) (BXor a b)
| W_eq l a m b x : writes l a -> writes m b -> writes (l ++ m ++ [mkT 6 x]) (BEq a b)
| W_neq l a m b x : writes l a -> writes m b -> writes (l ++ m ++ [mkT 7 x]) (BNeq a b).

(** The number of stack cells needed to evaluate the formula left to right. *)
Fixpoint cells (e : bexp) : nat :=
  match e with
  | BVar _ => 1
  | BNot a => cells a
  | BOr a b | BAnd a b | BXor a b | BEq a b | BNeq a b => Nat.max (cells a) (S (cells b))
  end%nat.

(** The booleans mentioned. *)
Fixpoint vars (e : bexp) : list N :=
  match e with
  | BVar v => [v]
  | BNot a => vars a
  | BOr a b | BAnd a b | BXor a b | BEq a b | BNeq a b => vars a ++ vars b
  end.

(** A policy's booleans: every slot is filled with 0 or 1 (what cond_read_bool and sepol_bool_set
    accept). *)
Definition bools_ok (bs : bools) : Prop := Forall (fun b => b = Some 0%Z \/ b = Some 1%Z) bs.

(** The assignment a policy's booleans stand for. *)
Definition asg_of (bs : bools) (v : N) : bool :=
  match nth_error bs (N.to_nat (v - 1)) with Some (Some 1%Z) => negb (v =? 0) | _ => false end.

(** The boolean exists in the policy. *)
Definition var_ok (bs : bools) (v : N) : Prop := 1 <= v <= N.of_nat (length bs).

(** Every boolean used by the tokens exists. *)
Definition toks_ok (bs : bools) (l : list tok) : Prop :=
  forall t, In t l -> t_type t = 1 -> var_ok bs (t_bool t).

(** [several l es]: the list is the writing of the formulas [es] one after the other, each started with
    the results of the previous ones still stacked, within ten cells. *)
Definition several (l : list tok) (es : list bexp) : Prop :=
  (exists ls, l = concat ls /\ Forall2 writes ls es) /\
  forall i e, nth_error es i = Some e -> (i + cells e <= 10)%nat.

(** The boolean written in a conditional's result: which of two rule lists is in force. *)
Definition in_force {A} (b : bool) (t f : A) : A := if b then t else f.

(** Pointers of a conditional table that point at an existing node. *)
Definition ptr_ok (ht : list (list anode)) (p : nptr) : Prop :=
  exists c n, nth_error ht (fst p) = Some c /\ nth_error c (snd p) = Some n.

(** The node pointed at. *)
Definition node_at (ht : list (list anode)) (p : nptr) : option anode :=
  match nth_error ht (fst p) with Some c => nth_error c (snd p) | None => None end.

(** The rule is switched on. *)
Definition rule_on (n : anode) : bool := N.testbit (k_spec (n_key n)) 15.

(** All pointers of a conditional list of a policy. *)
Definition all_ptrs (l : list knode) : list nptr := flat_map (fun c => c_true c ++ c_false c) l.

(** Every conditional of the list holds a written formula over the policy's booleans, within ten cells,
    its rule pointers are good and no rule belongs to two lists. *)
Definition conds_ok (bs : bools) (ht : list (list anode)) (l : list knode) : Prop :=
  Forall (fun c => toks_ok bs (c_expr c) /\ exists e, writes (c_expr c) e /\ (cells e <= 10)%nat) l /\
  Forall (ptr_ok ht) (all_ptrs l) /\ NoDup (all_ptrs l).

(** The rules in force are those the formulas select: every rule of a true list is on exactly when the
    formula holds, every rule of a false list exactly when it does not. *)
Definition rules_follow (bs : bools) (ht : list (list anode)) (l : list knode) : Prop :=
  forall c e, In c l -> writes (c_expr c) e ->
    (forall p n, In p (c_true c) -> node_at ht p = Some n -> rule_on n = truth (asg_of bs) e) /\
    (forall p n, In p (c_false c) -> node_at ht p = Some n -> rule_on n = negb (truth (asg_of bs) e)).

(** A history of boolean changes; a step is (boolean, value). *)
Fixpoint set_history (h : list (N * Z)) (bs : bools) (ht : list (list anode)) (l : list knode)
  : option (bools * list (list anode) * list knode) :=
  match h with
  | [] => Some (bs, ht, l)
  | (v, x) :: h' =>
      match sepol_bool_set bs ht l v x with
      | None => None
      | Some (bs', ht', l') => set_history h' bs' ht' l'
      end
  end.

(** The stored states agree with the rules: what expansion leaves behind. *)
Definition states_follow (bs : bools) (ht : list (list anode)) (l : list knode) : Prop :=
  forall c, In c l ->
    (c_state c = 1%Z /\ (forall p n, In p (c_true c) -> node_at ht p = Some n -> rule_on n = true) /\
                        (forall p n, In p (c_false c) -> node_at ht p = Some n -> rule_on n = false)) \/
    (c_state c = 0%Z /\ (forall p n, In p (c_true c) -> node_at ht p = Some n -> rule_on n = false) /\
                        (forall p n, In p (c_false c) -> node_at ht p = Some n -> rule_on n = true)) \/
    c_state c <> 0%Z /\ c_state c <> 1%Z.

(** Assignments reached by a history: the last valid value set for each existing boolean. *)
Definition assigned (h : list (N * Z)) (bs : bools) (v : N) : bool :=
  match find (fun s => (fst s =? v) && ((snd s =? 0)%Z || (snd s =? 1)%Z)) (rev h) with
  | Some s => match v, nth_error bs (N.to_nat (v - 1)) with
              | Npos _, Some (Some _) => (snd s =? 1)%Z
              | _, _ => asg_of bs v
              end
  | None => asg_of bs v
  end.

(** The elements of a list, each kept at its first occurrence. *)
Fixpoint first_occ (seen l : list N) : list N :=
  match l with
  | [] => []
  | v :: r => if existsb (N.eqb v) seen then first_occ seen r else v :: first_occ (v :: seen) r
  end.

(** Two formulas that mention the same booleans mention them in the same order of first appearance. *)
Definition same_order (e e' : bexp) : Prop :=
  (forall v, In v (vars e) <-> In v (vars e')) -> first_occ [] (vars e) = first_occ [] (vars e').

(** Two outer negations. *)
Definition double_not (e : bexp) : Prop := exists a, e = BNot (BNot a).

(** A source conditional for the expander: its formula and its two rule lists. *)
Record scond (V : Type) := mkSC { sc_toks : list tok; sc_true : V; sc_false : V }.
Arguments mkSC {V} _ _ _. Arguments sc_toks {V} _. Arguments sc_true {V} _. Arguments sc_false {V} _.

(** The node handed to the expander for a source conditional. *)
Definition node_of {V W : Type} (c : scond V) : cnode (list W) V :=
  mkC 0%Z (sc_toks c) [] [] (sc_true c) (sc_false c) 0 [] 0 0.

(** Expanding the conditionals one after the other into an output policy. *)
Fixpoint copy_all {V W : Type} (conv : V -> list W) (base out : bools) (boolmap : list N) (nov : V)
    (cs : list (scond V)) (l : list (cnode (list W) V)) : option (list (cnode (list W) V)) :=
  match cs with
  | [] => Some l
  | c :: cs' =>
      match cond_node_copy conv base out boolmap nov l (node_of c) with
      | None => None
      | Some l' => copy_all conv base out boolmap nov cs' l'
      end
  end.

(** The rule [w] is in force in an expanded policy under an assignment. *)
Definition out_in_force {V W} (l : list (cnode (list W) V)) (asg : N -> bool) (w : W) : Prop :=
  exists c e, In c l /\ writes (c_expr c) e /\ In w (in_force (truth asg e) (c_true c) (c_false c)).

(** The rule [w] is in force in the source conditionals, when source boolean [v] has the value of output
    boolean number [boolmap v]. *)
Definition src_in_force {V W} (conv : V -> list W) (boolmap : list N) (cs : list (scond V))
    (asg : N -> bool) (w : W) : Prop :=
  exists c e, In c cs /\ writes (sc_toks c) e /\
    In w (conv (in_force (truth (fun v => asg (nth (N.to_nat (v - 1)) boolmap 0)) e) (sc_true c) (sc_false c))).

(** The renumbering is one to one, onto booleans of the output policy, and covers the base policy's. *)
Definition map_ok (base out : bools) (boolmap : list N) : Prop :=
  length boolmap = length base /\ NoDup boolmap /\ Forall (var_ok out) boolmap.
