(** What the decision to rebuild should depend on. Uses only the records of the model. *)
From Verif Require Import Base ChecksumModel ShaSpec.
From Coq Require Import Sorted Permutation.

(** Alphabetical order of names, byte by byte. *)
Inductive before : list N -> list N -> Prop :=
| before_end x b : before [] (x :: b)
| before_here x y a b : x < y -> before (x :: a) (y :: b)
| before_later x a b : before a b -> before (x :: a) (x :: b).

(** The language is CIL, in any case. *)
Definition same_letter (x y : N) : Prop := x = y \/ (65 <= x <= 90 /\ y = x + 32).
Definition cil_language (m : module) : Prop := Forall2 same_letter (m_lang m) [99; 105; 108].

(** The CIL text of a module that a build uses: the CIL file of a module in CIL, and of any module
    if there is one and it may be used; otherwise the output of the compiler. *)
Inductive cil_text (ignore_cache : bool) (m : module) : list N -> Prop :=
| text_cil c : cil_language m -> m_cil m = Some c -> cil_text ignore_cache m c
| text_cached c : ignore_cache = false -> m_cil m = Some c -> cil_text ignore_cache m c
| text_compiled c : ~ cil_language m -> (ignore_cache = true \/ m_cil m = None) -> m_output m = Some c ->
    cil_text ignore_cache m c.

(** The CIL texts of all modules, in the order of the names. *)
Definition texts (ignore_cache : bool) (mods : list module) (t : list (list N)) : Prop :=
  exists s, Permutation mods s /\ StronglySorted (fun a b => before (m_name a) (m_name b)) s /\
    Forall2 (cil_text ignore_cache) s t.

(** Options that make the same policy: the first two are flags. *)
Definition same_options (o o' : options) : Prop :=
  (o_dontaudit o = 0%Z <-> o_dontaudit o' = 0%Z) /\ (o_tunables o = 0%Z <-> o_tunables o' = 0%Z) /\
  o_platform o = o_platform o' /\ o_policyvers o = o_policyvers o'.

Definition is_int (z : Z) : Prop := (-2147483648 <= z <= 2147483647)%Z.
(** Modules and options as they can exist: one module for each name, sizes that fit. *)
Definition possible (o : options) (ignore_cache : bool) (mods : list module) : Prop :=
  is_int (o_platform o) /\ is_int (o_policyvers o) /\ NoDup (map m_name mods) /\
  (forall m c, In m mods -> cil_text ignore_cache m c -> Forall byte c) /\
  (forall t, texts ignore_cache mods t -> N.of_nat (length (concat t)) + 8 * N.of_nat (length mods) < 2 ^ 60).

(** Every module has a text that is looked at: none is both in CIL and without usable CIL file. *)
Definition looked_at (ignore_cache : bool) (mods : list module) : Prop :=
  forall m, In m mods -> cil_language m -> ignore_cache = false /\ m_cil m <> None.

(** Two different messages with one digest. *)
Definition collision : Prop := exists a b d, a <> b /\ sha256_of a d /\ sha256_of b d.
