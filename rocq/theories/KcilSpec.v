(** What writing a conditional as CIL and reading it back should give. *)
From Verif Require Import Base CondModel CondSpec CilparseModel CilparseSpec CilexprModel CilcondModel CilcondSpec KcilModel.

(** The words an expression treats specially. *)
Definition reserved (w : list N) : Prop :=
  In w [[97;110;100]; [111;114]; [110;111;116]; [101;113]; [110;101;113]; [120;111;114]; [97;108;108]; [114;97;110;103;101]].

(** A name CIL can read as one symbol that is not special. *)
Definition plain_name (w : list N) : Prop := w <> [] /\ Forall word_char w /\ ~ reserved w.

(** The nesting of a formula. *)
Fixpoint height (e : bexp) : nat :=
  match e with
  | BVar _ => 0
  | BNot a => S (height a)
  | BOr a b | BAnd a b | BXor a b | BEq a b | BNeq a b => S (Nat.max (height a) (height b))
  end.

(** The name of the boolean numbered [v] (from 1). *)
Definition named (names : list (list N)) (v : N) (w : list N) : Prop := 1 <= v /\ nth_error names (N.to_nat (v - 1)) = Some w.

(** The booleans of the formula have readable names, and these are declared in the CIL policy. *)
Definition declared_bools (code : list N -> N) (tb : table) (names : list (list N)) (e : bexp) : Prop :=
  forall v, In v (vars e) -> exists w n, named names v w /\ plain_name w /\ tb (code w) = Some (DLeaf n).

(** [l'] is [l] with the booleans numbered as in the new policy: the same names at the same places. *)
Definition same_expression (code : list N -> N) (tb : table) (names : list (list N)) (l l' : list tok) : Prop :=
  Forall2 (fun x y => t_type y = t_type x /\
     (t_type x = 1 -> exists w n, named names (t_bool x) w /\ tb (code w) = Some (DLeaf n) /\ t_bool y = n + 1) /\
     (t_type x <> 1 -> t_bool y = 0)) l l'.

(** The rules of a branch: the text, lines without semicolon and carriage return, and what it says. *)
Definition rules_ok (r : option (list N * list ptree)) : Prop :=
  match r with None => True | Some (s, f) => written 2 s f /\ ~ In 59 s /\ ~ In 13 s end.

Definition text_of (r : option (list N * list ptree)) : option (list N) := option_map fst r.

(** The blocks expected. *)
Definition branches (t f : option (list N * list ptree)) : list (block ptree) :=
  match t with Some (_, x) => [(Some true, x)] | None => [] end ++
  match f with Some (_, x) => [(Some false, x)] | None => [] end.
