(** What the rules of a kernel policy do, independent of which rules do it. *)
From Coq Require Import Permutation.
From Verif Require Import Base EbitmapModel EbitmapSpec AvtabModel OptModel MlsModel ServicesModel.

(** Type [s] (numbered from 0) is one that rules for value [v] (a type or an attribute, numbered from 1) are about. *)
Definition about (P : opolicy) (s v : N) : Prop := 1 <= v /\ member (op_tattr P s) (v - 1).
(** The rule is about source [s], target [t], class [c]. *)
Definition concerns (P : opolicy) (n : anode) (s t c : N) : Prop := about P s (k_src (n_key n)) /\ about P t (k_tgt (n_key n)) /\ k_cls (n_key n) = c.

(** The commands of extended permissions: ioctl commands (driver and function, one byte each) and netlink messages. *)
Inductive xcmd := Ioctl (driver func : N) | Nlmsg (high low : N).
(** Bit [b] of a 256-bit map. *)
Definition mbit (p : list N) (b : N) : Prop := b < 256 /\ N.testbit (nth (N.to_nat (b / 32)) p 0) (b mod 32) = true.
Definition commands (x : xperms) (c : xcmd) : Prop :=
  match c with
  | Ioctl d f => (d < 256 /\ f < 256) /\ ((x_spec x = 1 /\ x_driver x = d /\ mbit (x_perms x) f) \/ (x_spec x = 2 /\ mbit (x_perms x) d))
  | Nlmsg h l => x_spec x = 3 /\ x_driver x = h /\ mbit (x_perms x) l
  end.

(** What a rule can do: allow a permission; have it audited when granted; not have its denial audited; the three kinds
    (8 allow, 9 auditallow, 10 dontaudit) of rules about a command; restrict the commands at all; give a type (4
    transition, 5 member, 6 change). *)
Inductive effect :=
| Allow (b : N) | AuditAllow (b : N) | Quiet (b : N)
| Command (kind : N) (c : xcmd) | Restricts (kind : N) | Gives (kind v : N).
Definition does (n : anode) (e : effect) : Prop :=
  let sp := k_spec (n_key n) in let d := n_datum n in
  match e with
  | Allow b => N.testbit sp 0 = true /\ N.testbit (d_data d) b = true
  | AuditAllow b => N.testbit sp 1 = true /\ N.testbit (d_data d) b = true
  | Quiet b => N.testbit sp 2 = true /\ b < 32 /\ N.testbit (d_data d) b = false
  | Command k c => 8 <= k <= 10 /\ N.testbit sp k = true /\ exists x, d_xperms d = Some x /\ commands x c
  | Restricts k => 8 <= k <= 10 /\ N.testbit sp k = true /\ exists x, d_xperms d = Some x /\ (x_spec x = 1 \/ x_spec x = 2 \/ x_spec x = 3)
  | Gives k v => 4 <= k <= 6 /\ N.testbit sp k = true /\ d_data d = v
  end.
(** Some rule of the list does it. *)
Definition effective (P : opolicy) (rules : list anode) (s t c : N) (e : effect) : Prop := exists n, In n rules /\ concerns P n s t c /\ does n e.

(** The rules in force when the conditionals have the given values. *)
Definition in_force (P : opolicy) (value : N -> bool) : list anode :=
  avtab_map_list (op_te P) ++ flat_map (fun c => map snd (if value (oc_id c) then oc_true c else oc_false c)) (op_conds P).

(** A type, not an attribute. *)
Definition real (P : opolicy) (s : N) : Prop := nth_error (op_types P) (N.to_nat s) = Some (Some false).
Definition attribute (P : opolicy) (s : N) : Prop := nth_error (op_types P) (N.to_nat s) = Some (Some true).

(** All conditional rules, with their addresses. *)
Definition cond_nodes (P : opolicy) : list cnode := flat_map (fun c => oc_true c ++ oc_false c) (op_conds P).
(** A value used in a rule names an existing type or attribute. *)
Definition exists_at (P : opolicy) (v : N) : Prop := 1 <= v /\ exists b, nth_error (op_types P) (N.to_nat (v - 1)) = Some (Some b).
(** A policy as read or expanded: fewer than 65536 types, canonical sets; a type's map has, besides itself, only
    attributes; the two maps say the same; rules have one kind each and are about existing types; every node of the
    conditional table is in one list, once. *)
Definition opolicy_ok (wf : avtab -> Prop) (P : opolicy) : Prop :=
  N.of_nat (length (op_types P)) < 65536 /\
  (forall i, valid (op_tattr P i) /\ valid (op_attr P i)) /\
  (forall t i, real P t -> member (op_tattr P t) i -> i = t \/ (attribute P i /\ member (op_attr P i) t)) /\
  (forall t a, real P t -> attribute P a -> member (op_attr P a) t -> member (op_tattr P t) a) /\
  wf (op_te P) /\
  (forall n, In n (avtab_map_list (op_te P)) -> exists_at P (k_src (n_key n)) /\ exists_at P (k_tgt (n_key n)) /\ exists i, i < 15 /\ k_spec (n_key n) = 2 ^ i) /\
  (forall a n, In (a, n) (cond_nodes P) -> exists_at P (k_src (n_key n)) /\ exists_at P (k_tgt (n_key n)) /\ exists i, i < 15 /\ (k_spec (n_key n) = 2 ^ i \/ k_spec (n_key n) = 2 ^ i + 32768)) /\
  NoDup (map fst (cond_nodes P)) /\ Permutation (concat (op_cte P)) (map fst (cond_nodes P)).

(** The version is one that can be optimised. *)
Definition supported (P : opolicy) : Prop := op_kern P = true /\ (op_vers P < 20 \/ 23 < op_vers P).

(** The conditional table as a decision reads it: the chains of addresses with the contents of the nodes. *)
Definition content (P : opolicy) (a : N) : list anode := map snd (filter (fun x => fst x =? a) (cond_nodes P)).
Definition cond_table (P : opolicy) (nslot mask : N) : avtab :=
  mkA (match op_cte P with [] => None | _ => Some (map (flat_map (content P)) (op_cte P)) end) (op_cnel P) nslot mask.

(** A policy as used for decisions, with other rule tables. *)
Definition with_tables (sp : spolicy) (te cond : avtab) : spolicy :=
  mkSP te cond (sv_attr sp) (sv_nclasses sp) (sv_cons sp) (sv_vtrans sp) (sv_dom sp) (sv_role_allow sp) (sv_process sp) (sv_trans_dyntrans sp) (sv_bounds sp).
(** It has the rules of [P]. *)
Definition uses (sp : spolicy) (P : opolicy) (nslot mask : N) : Prop :=
  sv_te sp = op_te P /\ sv_cond sp = cond_table P nslot mask /\ forall ty, 1 <= ty -> sv_attr sp ty = op_tattr P (ty - 1).
(** The value of a type (as in a context). *)
Definition typed (P : opolicy) (ty : N) : Prop := 1 <= ty /\ real P (ty - 1).

(** A type transition, member or change rule. *)
Definition type_rule (n : anode) : bool := N.testbit (k_spec (n_key n)) 4 || N.testbit (k_spec (n_key n)) 5 || N.testbit (k_spec (n_key n)) 6.
