(** What the module store promises, said over the history of successful operations alone. *)
From Verif Require Import Base ModstoreModel.
From Coq Require Import Sorted Permutation.

(** ^[a-zA-Z](\.?[a-zA-Z0-9_-])*$ and ^[a-zA-Z0-9][a-zA-Z0-9_-]*$, as documented. *)
Definition letter (c : N) : Prop := 65 <= c <= 90 \/ 97 <= c <= 122.
Definition figure (c : N) : Prop := 48 <= c <= 57.
Definition word_char (c : N) : Prop := letter c \/ figure c \/ c = 95 \/ c = 45.
Inductive name_tail : list N -> Prop :=
| tail_nil : name_tail []
| tail_plain c r : word_char c -> name_tail r -> name_tail (c :: r)
| tail_dot c r : word_char c -> name_tail r -> name_tail (46 :: c :: r).
Definition good_name (s : list N) : Prop := exists c r, s = c :: r /\ letter c /\ name_tail r.
Definition good_ext (s : list N) : Prop := exists c r, s = c :: r /\ (letter c \/ figure c) /\ Forall word_char r.
Definition good_prio (p : N) : Prop := 1 <= p <= 999.
Definition good_status (e : Z) : Prop := (e = 1 \/ e = 0 \/ e = -1)%Z.

(** Equality of texts, decided. *)
Definition text_dec (a b : list N) : {a = b} + {a <> b} := list_eq_dec N.eq_dec a b.
(** The module of a name at a priority: extension and data of the last installation there, unless it was removed since.
    Histories are written with the latest operation first. *)
Fixpoint held (h : list mop) (p : N) (n : list N) : option (list N * list N) :=
  match h with
  | [] => None
  | MInstall q m ext _ data :: r => if N.eq_dec q p then (if text_dec m n then Some (ext, data) else held r p n) else held r p n
  | MRemove q m :: r => if N.eq_dec q p then (if text_dec m n then None else held r p n) else held r p n
  | _ :: r => held r p n
  end.
(** Some priority has a module of this name. *)
Definition present (h : list mop) (n : list N) : Prop := exists p, held h p n <> None.
(** The highest priority that has the name. *)
Definition top (h : list mop) (n : list N) (p : N) : Prop := held h p n <> None /\ forall q, held h q n <> None -> q <= p.
(** The name is disabled: the status given last, by an installation or otherwise, was 0; -1 changes nothing; removing the last module
    of a name forgets its status. *)
Fixpoint shut (h : list mop) (n : list N) : Prop :=
  match h with
  | [] => False
  | MInstall _ m _ e _ :: r => (m = n /\ (e = 0%Z \/ (e = (-1)%Z /\ shut r n))) \/ (m <> n /\ shut r n)
  | MEnable _ m e :: r => (m = n /\ (e = 0%Z \/ (e = (-1)%Z /\ shut r n))) \/ (m <> n /\ shut r n)
  | MRemove _ m :: r => shut r n /\ (m = n -> present h n)
  | _ :: r => shut r n
  end.

(** "cil" in any mixture of cases. *)
Definition says_cil (ext : list N) : Prop :=
  exists c i l, ext = [c; i; l] /\ (c = 99 \/ c = 67) /\ (i = 105 \/ i = 73) /\ (l = 108 \/ l = 76).
(** The text in CIL that a module stands for: itself, or what the compiler of its language makes of it. *)
Definition means (compile : list N -> list N -> option (list N)) (m : list N * list N) (c : list N) : Prop :=
  (says_cil (fst m) /\ c = snd m) \/ (~ says_cil (fst m) /\ compile (fst m) (snd m) = Some c).

(** The operations that must succeed after a history (extraction apart). *)
Definition accepted (compile : list N -> list N -> option (list N)) (h : list mop) (o : mop) : Prop :=
  match o with
  | MInstall p n ext e _ => good_prio p /\ good_name n /\ good_ext ext /\ good_status e
  | MRemove p n => held h p n <> None
  | MEnable p n e => good_status e /\ ((p = 0 /\ present h n) \/ held h p n <> None)
  | MRebuild _ _ => forall n p m, top h n p -> ~ shut h n -> held h p n = Some m -> exists c, means compile m c
  | MExtract _ _ _ _ => True
  end.
(** No operation threw away a source after compiling it (the option remove-hll is off). *)
Definition keeps_source (h : list mop) : Prop :=
  Forall (fun o => match o with MRebuild rm _ => rm = false | MExtract rm _ _ _ => rm = false | _ => True end) h.

(** The order of strcmp, strictly: at the first difference the byte is less, or the text ends. *)
Definition text_before (a b : list N) : Prop :=
  exists s, (exists c r, a = s /\ b = s ++ c :: r) \/ (exists x y u v, a = s ++ x :: u /\ b = s ++ y :: v /\ x < y).

(** What goes into a rebuilt policy: each enabled name once, by its module of highest priority, in the order of the names. *)
Definition loads (compile : list N -> list N -> option (list N)) (h : list mop) (l : list (list N * list N)) : Prop :=
  (forall n c, In (n, c) l <-> exists p m, top h n p /\ ~ shut h n /\ held h p n = Some m /\ means compile m c)
  /\ StronglySorted text_before (map fst l).

(** What is asked of the sorting functions: a rearrangement, with the directory names of priorities in the order of strverscmp, and the
    modules in the order of their names. *)
Definition three_figures (s : list N) : Prop := length s = 3%nat /\ Forall figure s.
Definition sorts_versions (vsort : list (list N) -> list (list N)) : Prop :=
  (forall l, Permutation (vsort l) l)
  /\ forall l, Forall three_figures l -> StronglySorted (fun a b => vers 0 a b <> Gt) (vsort l).
Definition sorts_names (nsort : list minfo -> list minfo) : Prop :=
  forall l, Permutation (nsort l) l /\ StronglySorted (fun a b => scmp (i_name a) (i_name b) <> Gt) (nsort l).
