(** What it means that a policy violates a neverallow rule. *)
From Verif Require Import Base EbitmapModel EbitmapSpec AvtabModel AssertModel.

(** The types a neverallow rule speaks about ([self]: the target may also be the source itself; [notself]: it must
    not be, and no target types at all means all of them). Types are numbered from 0. *)
Definition says_self (r : narule) : Prop := N.testbit (na_flags r) 0 = true.
Definition says_notself (r : narule) : Prop := N.testbit (na_flags r) 1 = true.
Definition in_scope (r : narule) (s t : N) : Prop :=
  member (na_s r) s /\
  ((~ says_notself r /\ (member (na_t r) t \/ (says_self r /\ t = s))) \/
   (says_notself r /\ t <> s /\ (member (na_t r) t \/ forall x, ~ member (na_t r) x))).

(** The rule names the permission of the class. *)
Definition names (r : narule) (c p : N) : Prop := exists m, In (c, m) (na_perms r) /\ N.testbit m p = true.

(** The allow rule covers the types, the class and the permission. *)
Definition covers (P : apolicy) (n : anode) (s t c p : N) : Prop :=
  N.testbit (k_spec (n_key n)) 0 = true /\ k_cls (n_key n) = c /\
  member (ap_attr P (k_src (n_key n))) s /\ member (ap_attr P (k_tgt (n_key n))) t /\ N.testbit (d_data (n_datum n)) p = true.

(** All rules of the policy: unconditional ones, then conditional ones. *)
Definition all_rules (P : apolicy) : list anode := avtab_map_list (ap_te P) ++ avtab_map_list (ap_cte P).

(** Some allow rule grants what the neverallow rule forbids. *)
Definition violated (P : apolicy) (r : narule) : Prop :=
  exists n s t c p, In n (all_rules P) /\ in_scope r s t /\ names r c p /\ covers P n s t c p.

(** The ways in which the rule is violated, by position: rule of the policy, class entry of the neverallow rule,
    source and target type. *)
Definition violation_at (P : apolicy) (r : narule) (x : nat * nat * N * N) : Prop :=
  match x with (a, b, s, t) =>
    exists n c m p, nth_error (all_rules P) a = Some n /\ nth_error (na_perms r) b = Some (c, m) /\ in_scope r s t /\
      N.testbit m p = true /\ covers P n s t c p end.
(** There are fewer than 2^31 of them. *)
Definition few_violations (P : apolicy) (r : narule) : Prop :=
  exists l, N.of_nat (length l) < 2147483648 /\ forall x, violation_at P r x -> In x l.

(** An ordinary neverallow rule; one about extended permissions. *)
Definition ordinary (r : narule) : Prop := na_spec r = 128.
Definition extended (r : narule) : Prop := na_spec r = 2048.
(** The flags make sense: not both. *)
Definition one_flag (r : narule) : Prop := na_flags r = 0 \/ na_flags r = 1 \/ na_flags r = 2.
(** A rule with [self] names no other target. *)
Definition self_alone (r : narule) : Prop := says_self r -> forall x, ~ member (na_t r) x.

(** Well-formed sets. *)
Definition sets_ok (P : apolicy) : Prop := forall v, valid (ap_attr P v) /\ valid (ap_tattr P v).
Definition rule_ok (r : narule) : Prop := valid (na_s r) /\ valid (na_t r).

(** ** Extended permissions *)

(** The commands of a set of extended permissions: kind (ioctl or netlink), and command number. *)
Inductive xkind := KIoctl | KNlmsg.
Definition xbit (p : list N) (b : N) : Prop := b < 256 /\ N.testbit (nth (N.to_nat (b / 32)) p 0) (b mod 32) = true.
Definition in_x (x : xperms) (k : xkind) (cmd : N) : Prop :=
  (x_spec x = 1 /\ k = KIoctl /\ cmd / 256 = x_driver x /\ xbit (x_perms x) (cmd mod 256)) \/
  (x_spec x = 2 /\ k = KIoctl /\ xbit (x_perms x) (cmd / 256)) \/
  (x_spec x = 3 /\ k = KNlmsg /\ cmd / 256 = x_driver x /\ xbit (x_perms x) (cmd mod 256)).

(** The rules in force: the unconditional ones and one branch of each conditional. *)
Fixpoint chosen (cs : list (list anode * list anode)) (choice : list bool) : list anode :=
  match cs, choice with
  | (t, f) :: cs', b :: ch' => (if b then t else f) ++ chosen cs' ch'
  | _, _ => []
  end.
Definition in_force (P : apolicy) (choice : list bool) : list anode := avtab_map_list (ap_te P) ++ chosen (ap_conds P) choice.

(** An allowxperm rule for the types and the class, directly or through their attributes. *)
Definition xrule (P : apolicy) (n : anode) (s t c : N) (x : xperms) : Prop :=
  N.testbit (k_spec (n_key n)) 8 = true /\ k_cls (n_key n) = c /\
  member (ap_attr P (k_src (n_key n))) s /\ member (ap_attr P (k_tgt (n_key n))) t /\
  d_xperms (n_datum n) = Some x /\ (x_spec x = 1 \/ x_spec x = 2 \/ x_spec x = 3).

(** With these rules in force, a process may do what the neverallow rule forbids: it has the permission, and either
    no allowxperm rule restricts it or one of them contains a forbidden command. *)
Definition xviolated_by (P : apolicy) (force : list anode) (r : narule) : Prop :=
  exists n s t c p, In n force /\ in_scope r s t /\ names r c p /\ covers P n s t c p /\
    ((forall n' x, In n' force -> ~ xrule P n' s t c x) \/
     exists n' x k cmd, In n' force /\ xrule P n' s t c x /\ in_x x k cmd /\ in_x (na_x r) k cmd).

(** The two maps between types and attributes say the same. *)
Definition maps_agree (P : apolicy) : Prop := forall v s, 1 <= v -> (member (ap_attr P v) s <-> member (ap_tattr P s) (v - 1)).
(** The conditional rules are in the conditional table. *)
Definition conds_listed (P : apolicy) : Prop :=
  forall t f n, In (t, f) (ap_conds P) -> In n t \/ In n f -> In n (avtab_map_list (ap_cte P)).
(** Rules are about types numbered from 1; allowxperm rules grant nothing by themselves. *)
Definition entries_ok (P : apolicy) : Prop :=
  forall n, In n (all_rules P) -> 1 <= k_src (n_key n) /\ 1 <= k_tgt (n_key n) /\
    (N.testbit (k_spec (n_key n)) 8 = true -> N.testbit (k_spec (n_key n)) 0 = false /\ d_data (n_datum n) = 0).
(** A set of extended permissions as the compiler makes it: 8 words of 32 bits, not all of them empty. *)
Definition xset_ok (x : xperms) : Prop :=
  (forall w, In w (x_perms x) -> w < 4294967296) /\ x_driver x < 256 /\ exists b, xbit (x_perms x) b.
(** No conditional rules. *)
Definition unconditional (P : apolicy) : Prop := ap_conds P = [] /\ avtab_map_list (ap_cte P) = [].
