(** Specification vocabulary for context strings. *)
From Verif Require Import Base EbitmapModel EbitmapSpec MlsModel MlsSpec ContextModel.

(** The text of a C string held in a byte buffer: what comes before the first NUL. *)
Fixpoint c_string (s : list N) : list N :=
  match s with [] => [] | 0 :: _ => [] | c :: t => c :: c_string t end.

(** A name usable as a context component: no ':' and no NUL. *)
Definition plain (nm : list N) : Prop := ~ In 58 nm /\ ~ In 0 nm.

(** User, role and type tables agree with the value-to-name arrays and names are plain. *)
Definition idents_ok (p : policy) : Prop :=
  (forall v nm, p_user_name p v = Some nm -> plain nm /\ p_user_find p nm = Some v) /\
  (forall v nm, p_role_name p v = Some nm -> plain nm /\ p_role_find p nm = Some v) /\
  (forall v nm, p_type_name p v = Some nm -> plain nm /\ p_type_find p nm = Some (v, false)) /\
  (forall v nm, p_sens_name p v = Some nm -> ~ In 0 nm) /\
  (forall v nm, p_cat_name p v = Some nm -> ~ In 0 nm).

(** All components of the context have names. *)
Definition context_named (p : policy) (c : context) : Prop :=
  p_user_name p (c_user c) <> None /\ p_role_name p (c_role c) <> None /\
  p_type_name p (c_type c) <> None /\
  (p_mls p = true -> level_named p (r_low (c_range c)) /\ level_named p (r_high (c_range c))).

(** The text of a context. *)
Definition context_text (u r t : list N) (m : option (list N)) : list N :=
  u ++ 58 :: r ++ 58 :: t ++ match m with None => [] | Some m => 58 :: m end.

(** Number of colons in a string. *)
Definition colons (s : list N) : N := N.of_nat (length (filter (fun c => c =? 58) s)).

(** Characters that context_t refuses in user, role and type. *)
Definition word_text (s : list N) : Prop :=
  forall c, In c s -> c <> 58 /\ c <> 32 /\ c <> 9 /\ c <> 10 /\ c <> 13.

(** Characters that context_t refuses in a range. *)
Definition range_text (s : list N) : Prop := forall c, In c s -> c <> 9 /\ c <> 10 /\ c <> 13.

(** Components reachable through context_new and the setters. *)
Inductive ctx_reachable : ctx -> Prop :=
| cr_new s c : context_new s = Some c -> ctx_reachable c
| cr_set c k v c' : ctx_reachable c -> ctx_set c k v = Some c' -> ctx_reachable c'.
