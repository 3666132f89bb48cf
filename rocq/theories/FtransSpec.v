(** Specification of file name transitions: a policy has a set of rules (source type, target type, class, name, new type). *)
From Verif Require Import Base EbitmapModel EbitmapSpec FtransModel.

(** "When a process of type [f_src] makes an object of class and under a parent as given by [f_key], with that name, the object gets
    type [f_new]." *)
Record rule := mkRule { f_src : N; f_key : fkey; f_new : N }.

(** Rules whose names and numbers can be handled: names have no NUL (they are C strings), types and classes are words, the bit of a source type (one less than the type) is one a
    bitmap can store. *)
Definition plain_name (s : list N) : Prop := Forall (fun c => 1 <= c < 256) s.
Definition rule_ok (r : rule) : Prop :=
  1 <= f_src r <= 4294967232 /\ f_new r < 4294967296 /\ fk_ttype (f_key r) < 4294967296 /\ fk_tclass (f_key r) < 4294967296 /\
  plain_name (fk_name (f_key r)).
(** Two rules for the same situation that give different types. *)
Definition conflict (a b : rule) : Prop := f_src a = f_src b /\ f_key a = f_key b /\ f_new a <> f_new b.
Definition consistent (l : list rule) : Prop := forall a b, In a l -> In b l -> ~ conflict a b.

(** A table has a rule. *)
Definition has (t : ftable) (r : rule) : Prop :=
  exists d e, ft_search t (f_key r) = Some d /\ In (e, f_new r) d /\ 1 <= f_src r /\ member e (f_src r - 1).
(** A table is a table of these rules. *)
Definition table_of (t : ftable) (l : list rule) : Prop := forall r, has t r <-> In r l.

(** Inserting rules one after the other; what each insertion answers. *)
Fixpoint insert_all (t : ftable) (l : list rule) : ftable * list fres :=
  match l with
  | [] => (t, [])
  | r :: l' => let (t1, a) := filetrans_insert t (f_src r) (f_key r) (f_new r) in let (t2, as_) := insert_all t1 l' in (t2, a :: as_)
  end.
(** What it should answer, [seen] being the rules inserted before. *)
Definition rule_eq_dec (a b : rule) : {a = b} + {a <> b}.
Proof. repeat decide equality. Defined.
Fixpoint answers (seen l : list rule) : list fres :=
  match l with
  | [] => []
  | r :: l' => (if in_dec rule_eq_dec r seen then FExists (f_new r) else FAdded) :: answers (r :: seen) l'
  end.

(** Rules that both formats can hold: as above, with a name that is not empty and no longer than a word can say, and a new type that fits in a bitmap. *)
Definition storable (r : rule) : Prop :=
  rule_ok r /\ fk_name (f_key r) <> [] /\ N.of_nat (length (fk_name (f_key r))) < 4294967296 /\ f_new r < 4294967232.

(** The rules that a source rule with sets of types (and possibly "self") stands for. *)
Definition asked (r : frule) (x : rule) : Prop :=
  1 <= f_src x /\ member (fr_stypes r) (f_src x - 1) /\ fk_tclass (f_key x) = fr_tclass r /\ fk_name (f_key x) = fr_name r /\ f_new x = fr_otype r /\
  ((1 <= fk_ttype (f_key x) /\ member (fr_ttypes r) (fk_ttype (f_key x) - 1)) \/ (fr_self r = true /\ fk_ttype (f_key x) = f_src x)).
Definition asked_by (l : list frule) (x : rule) : Prop := exists r, In r l /\ asked r x.

(** A table without conflicts. *)
Definition one_answer (t : ftable) : Prop := forall a b, has t a -> has t b -> ~ conflict a b.
(** The counter of a table tells the number of its rules (modulo 2^32). *)
Definition counted (t : ftable) : Prop := exists l, NoDup l /\ table_of t l /\ ft_count t = N.of_nat (length l) mod 4294967296.
(** The sets of the source rules are well-formed bitmaps. *)
Definition sets_ok (l : list frule) : Prop := Forall (fun r => valid (fr_stypes r) /\ valid (fr_ttypes r)) l.
