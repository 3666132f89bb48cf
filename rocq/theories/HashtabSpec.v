(** Specification of a hash table: an association list without repeated keys. *)
From Verif Require Import Base HashtabModel.

Section Spec.
Context {K V : Type} (eqb : K -> K -> bool).

(** The entry of a key. *)
Definition assoc (l : list (K * V)) (k : K) : option V := option_map snd (find (fun e => eqb k (fst e)) l).

(** What each operation should do to the entries present and what it should return. *)
Definition ref_step (l : list (K * V)) (o : hop) : list (K * V) * hout :=
  match o with
  | HInsert k v _ memory =>
      if N.of_nat (length l) =? 4294967295 then (l, HRes HNomem)
      else match assoc l k with
           | Some _ => (l, HRes HEexist)
           | None => if memory then ((k, v) :: l, HRes HOk) else (l, HRes HNomem)
           end
  | HRemove k =>
      match assoc l k with
      | Some _ => (filter (fun e => negb (eqb k (fst e))) l, HRes HOk)
      | None => (l, HRes HEnoent)
      end
  | HSearch k => (l, HFound (assoc l k))
  end.

(** A history. *)
Fixpoint ref_run (l : list (K * V)) (ops : list hop) : list (K * V) * list hout :=
  match ops with
  | [] => (l, [])
  | o :: ops' => let (l1, x) := ref_step l o in let (l2, xs) := ref_run l1 ops' in (l2, x :: xs)
  end.
End Spec.

(** A comparison that orders the keys. *)
Definition total_order {K} (cmp : K -> K -> comparison) : Prop :=
  (forall a b, cmp a b = Eq <-> a = b) /\
  (forall a b, cmp a b = Gt <-> cmp b a = Lt) /\
  (forall a b c, cmp a b = Lt -> cmp b c = Lt -> cmp a c = Lt).
