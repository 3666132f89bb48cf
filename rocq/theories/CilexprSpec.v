(** What CIL set expressions mean, stated on the parse tree as the user wrote it.
    Symbols have numbers ("values") from 0 to [mx - 1]; a set is the values it contains. *)
From Coq Require Import Relations.
From Verif Require Import Base EbitmapModel CilexprModel.

(** [holds env place mx t v]: is [v] in the set written [t], when the set named [n] is [env n] and the
    position of the name [n] in a range is [place n]. *)
Fixpoint holds (env : N -> N -> bool) (place : N -> option N) (mx : N) (t : tree) (v : N) : bool :=
  match t with
  | TName n => env n v
  | TKey _ => false
  | TList [TKey KAll] => v <? mx
  | TList [TKey KNot; a] => (v <? mx) && negb (holds env place mx a v)
  | TList [TKey KAnd; a; b] => holds env place mx a v && holds env place mx b v
  | TList [TKey KOr; a; b] => holds env place mx a v || holds env place mx b v
  | TList [TKey KXor; a; b] => xorb (holds env place mx a v) (holds env place mx b v)
  | TList [TKey KRange; TName a; TName b] =>
      match place a, place b with
      | Some x, Some y => (x <=? v) && (v <=? y)
      | _, _ => false
      end
  | TList l => existsb (fun x => holds env place mx x v) l
  end.

(** The expressions CIL allows for a flavor: an operator comes first in a list and has its own number of
    operands; a list without operator is not empty; ranges are for categories and extended permissions. *)
Fixpoint shape (f : flavor) (t : tree) : bool :=
  match t with
  | TName _ => true
  | TKey _ => false
  | TList [TKey KAll] => match f with FBool | FTunable => false | _ => true end
  | TList [TKey KNot; a] => shape f a
  | TList [TKey KAnd; a; b] => shape f a && shape f b
  | TList [TKey KOr; a; b] => shape f a && shape f b
  | TList [TKey KXor; a; b] => shape f a && shape f b
  | TList [TKey KEq; a; b] =>
      match f with FBool | FTunable => true | _ => false end && shape f a && shape f b
  | TList [TKey KNeq; a; b] =>
      match f with FBool | FTunable => true | _ => false end && shape f a && shape f b
  | TList [TKey KRange; TName a; TName b] => match f with FCat | FPermx => true | _ => false end
  | TList [] => false
  | TList l => forallb (shape f) l
  end.

(** The names in an expression. *)
Fixpoint names (t : tree) : list N :=
  match t with TName n => [n] | TKey _ => [] | TList l => flat_map names l end.

(** Every range goes upwards, between two places that exist. *)
Fixpoint ordered (place : N -> option N) (t : tree) : bool :=
  match t with
  | TList [TKey KRange; TName a; TName b] =>
      match place a, place b with Some x, Some y => x <=? y | _, _ => false end
  | TList l => forallb (ordered place) l
  | _ => true
  end.

(** Does "(all)" occur. *)
Fixpoint uses_all (t : tree) : bool :=
  match t with
  | TKey KAll => true
  | TList l => existsb uses_all l
  | _ => false
  end.

(** The place of a declared name: the value of a plain symbol or of the symbol an alias stands for. *)
Definition place (tb : table) (n : N) : option N :=
  match tb n with
  | Some (DLeaf v) => Some v
  | Some (DAlias m) => match tb m with Some (DLeaf v) => Some v | _ => None end
  | _ => None
  end.

(** Attributes and category sets. *)
Definition defined_by_expr (tb : table) (n : N) : Prop := tb n = Some DAttr \/ tb n = Some DSet.

(** What the declarations have to be: values below [mx], which is an int; an alias stands for a plain symbol. *)
Definition table_ok (tb : table) (mx : N) : Prop :=
  mx < 2147483648 /\
  (forall n v, tb n = Some (DLeaf v) -> v < mx) /\
  (forall n m, tb n = Some (DAlias m) -> exists v, tb m = Some (DLeaf v)).

(** Types, roles and users have attributes, categories have category sets, each with one expression; the
    category order lists every category. *)
Definition kinds_ok (f : flavor) (tb : table) (mx : N) (order : list N) (stmts : list (N * tree)) : Prop :=
  match f with
  | FType | FRole | FUser => forall n, tb n <> Some DSet
  | FCat => (forall n, tb n <> Some DAttr) /\ NoDup (map fst stmts) /\ (forall v, v < mx -> In v order)
  | _ => False
  end.

(** The assignment [S] of a set to every name agrees with the declarations and the statements: a plain
    symbol is the set of itself, an alias is its actual symbol, and an attribute contains exactly what some
    statement for it puts there. *)
Definition solution (tb : table) (mx : N) (stmts : list (N * tree)) (S : N -> N -> bool) : Prop :=
  forall n v,
    match tb n with
    | Some (DLeaf x) => S n v = (v =? x)
    | Some (DAlias m) => S n v = S m v
    | Some _ => S n v = true <-> exists t, In (n, t) stmts /\ holds S (place tb) mx t v = true
    | None => True
    end.

(** [a] is defined using [b]. *)
Definition uses (stmts : list (N * tree)) (a b : N) : Prop :=
  exists t, In (a, t) stmts /\ In b (names t).

(** What a policy has to satisfy to be accepted. *)
Definition acceptable (f : flavor) (tb : table) (mx : N) (stmts : list (N * tree)) : Prop :=
  (forall n t, In (n, t) stmts ->
     defined_by_expr tb n /\ shape f t = true /\ (forall x, In x (names t) -> tb x <> None) /\
     ordered (place tb) t = true /\ (mx = 0 -> uses_all t = false)) /\
  (forall a, ~ clos_trans N (uses stmts) a a).

(** What the compiler has found to be in the attribute or category set [a]. *)
Definition contains (d : db) (s : st) (a v : N) : Prop :=
  match d_table d a with
  | Some DAttr => exists e, s_attr s a = Some e /\ ebitmap_get_bit e v = true
  | Some DSet => exists l, set_list d a s = Fine l /\ In v l
  | _ => False
  end.

(** The attributes and category sets, each listed. *)
Definition lists (tb : table) (ids : list N) : Prop := forall a, defined_by_expr tb a <-> In a ids.

(** Permissions: a table without attributes, whose listing names every permission. *)
Definition perms_ok (tb : table) (mx : N) (order : list N) : Prop :=
  table_ok tb mx /\ (forall n, tb n = None \/ exists v, tb n = Some (DLeaf v)) /\ (forall v, v < mx -> In v order).

(** A permission expression a class accepts. *)
Definition perms_acceptable (tb : table) (mx : N) (t : tree) : Prop :=
  shape FPerm t = true /\ (forall n, In n (names t) -> tb n <> None) /\ (mx = 0 -> uses_all t = false).

(** A plain symbol is the set of itself. *)
Definition itself (place : N -> option N) (n v : N) : bool :=
  match place n with Some x => v =? x | None => false end.

(** The 16-bit number a string stands for. *)
Definition number16 (number : N -> option Z) (n : N) : option N :=
  match number n with
  | Some z => if ((0 <=? z) && (z <=? 65535))%Z then Some (Z.to_N z) else None
  | None => None
  end.

(** An extended permission expression that is accepted. *)
Definition permx_acceptable (number : N -> option Z) (t : tree) : Prop :=
  shape FPermx t = true /\ (forall n, In n (names t) -> number16 number n <> None) /\
  ordered (number16 number) t = true.
