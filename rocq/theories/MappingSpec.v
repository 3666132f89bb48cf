(** Specification of class and permission numbers as an object manager sees them. *)
From Verif Require Import Base MlsModel AvcModel MappingModel.

(** A table of classes the kernel can show: distinct names without '/', distinct non-zero numbers, at most 32
    permissions per class, numbered without gaps, with distinct non-empty names. *)
Definition class_ok (k : kclass) : Prop :=
  kc_value k <> 0 /\ kc_value k < 65536 /\ ~ In 47 (kc_name k) /\
  exists l, kc_perms k = map Some l /\ NoDup l /\ ~ In [] l /\ (length l <= 32)%nat.
(** See above. *)
Definition kernel_ok (K : list kclass) : Prop :=
  NoDup (map kc_name K) /\ NoDup (map kc_value K) /\ Forall class_ok K.

(** Every policy loaded in a history is such a table. *)
Definition loads_ok (l : list mop) : Prop := Forall (fun o => match o with MLoad K => kernel_ok K | _ => True end) l.

(** The class with this name. *)
Definition class_named (K : list kclass) (c : list N) (k : kclass) : Prop := In k K /\ kc_name k = c.
(** Permission [p] is number [b] of class [k]. *)
Definition perm_numbered (k : kclass) (p : list N) (b : nat) : Prop := nth_error (kc_perms k) b = Some (Some p).
(** Class [k] has no permission [p]. *)
Definition perm_unknown (k : kclass) (p : list N) : Prop := ~ In (Some p) (kc_perms k).

(** Whether a policy vector has the permission named [p] of class [k]; [dflt] for an unknown one. *)
Inductive has_named (k : kclass) (v : N) (dflt : bool) (p : list N) : bool -> Prop :=
| hn_known b : perm_numbered k p b -> has_named k v dflt p (N.testbit v (N.of_nat b))
| hn_unknown : perm_unknown k p -> has_named k v dflt p dflt.
