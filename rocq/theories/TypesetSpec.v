(** What type sets and role sets mean. *)
From Verif Require Import Base EbitmapModel EbitmapSpec TypesetModel.

(** Identifier [i] stands for an attribute. *)
Definition attribute (ts : list (option tinfo)) (i : N) : Prop := exists ti, nth_error ts (N.to_nat i) = Some (Some ti) /\ ti_attr ti = true.
(** The name [i] stands for type [t]: itself, or a member of the attribute. *)
Definition stands_for (ts : list (option tinfo)) (i t : N) : Prop :=
  (i = t /\ ~ attribute ts i) \/ (exists ti, nth_error ts (N.to_nat i) = Some (Some ti) /\ ti_attr ti = true /\ member (ti_types ti) t).
(** A list of names contains type [t]. *)
Definition names (ts : list (option tinfo)) (e : ebitmap) (t : N) : Prop := exists i, member e i /\ stands_for ts i t.

(** The types a type set means: with "*" all types but the excluded ones; else the named ones but the excluded ones, and
    with "~" all types but these. *)
Definition ts_meaning (ts : list (option tinfo)) (pos neg : N -> Prop) (flags t : N) : Prop :=
  if N.testbit flags 0 then (N.to_nat t < length ts)%nat /\ ~ attribute ts t /\ ~ neg t
  else if N.testbit flags 1 then (N.to_nat t < length ts)%nat /\ ~ attribute ts t /\ ~ (pos t /\ ~ neg t)
  else pos t /\ ~ neg t.

(** Attributes contain types of the policy only. *)
Definition attributes_ok (ts : list (option tinfo)) : Prop :=
  N.of_nat (length ts) < 4294967232 /\
  forall i ti, nth_error ts i = Some (Some ti) -> ti_attr ti = true ->
    valid (ti_types ti) /\ forall t, member (ti_types ti) t -> (N.to_nat t < length ts)%nat /\ ~ attribute ts t.
(** The names in a set exist. *)
Definition names_exist (ts : list (option tinfo)) (e : ebitmap) : Prop :=
  valid e /\ forall i, member e i -> exists ti, nth_error ts (N.to_nat i) = Some (Some ti).
(** The set is well-formed for the policy. *)
Definition set_ok (ts : list (option tinfo)) (s : typeset) : Prop := names_exist ts (ts_types s) /\ names_exist ts (ts_neg s).

(** The names after translation by a map (0: the name is dropped). *)
Definition mapped (m : list N) (e : ebitmap) (j : N) : Prop := exists i v, member e i /\ nth_error m (N.to_nat i) = Some v /\ v = j + 1.
(** Every name of the set has a place in the map, and what it is mapped to is a name of the policy. *)
Definition map_ok (ts : list (option tinfo)) (m : list N) (e : ebitmap) : Prop :=
  valid e /\ forall i, member e i -> exists v, nth_error m (N.to_nat i) = Some v /\
    (v <> 0 -> exists ti, nth_error ts (N.to_nat (v - 1)) = Some (Some ti)).

(** The roles a role set means, [pos]: the named ones. *)
Definition rs_meaning (nprim : nat) (pos : N -> Prop) (flags r : N) : Prop :=
  if N.testbit flags 0 then (N.to_nat r < nprim)%nat
  else if N.testbit flags 1 then (N.to_nat r < nprim)%nat /\ ~ pos r
  else pos r.
(** The base role [i] stands for the base role [j]: itself, or a member of the role attribute. *)
Definition role_stands_for (rs : list (option rinfo)) (i j : N) : Prop :=
  exists ri, nth_error rs (N.to_nat i) = Some (Some ri) /\ (if ri_attr ri then member (ri_roles ri) j else i = j).
(** The named roles: given directly, or through attributes and the role map. *)
Definition named_roles (maps : option (list (option rinfo) * list N)) (e : ebitmap) (r : N) : Prop :=
  match maps with
  | None => member e r
  | Some (rs, m) => exists i j, member e i /\ role_stands_for rs i j /\ nth_error m (N.to_nat j) = Some (r + 1)
  end.
(** The roles named exist, role attributes have members with a place in the map, and the output roles are in range. *)
Definition roles_ok (nprim : nat) (maps : option (list (option rinfo) * list N)) (e : ebitmap) : Prop :=
  valid e /\ N.of_nat nprim < 4294967232 /\
  match maps with
  | None => forall r, member e r -> (N.to_nat r < nprim)%nat
  | Some (rs, m) =>
      (length rs <= length m)%nat /\ N.of_nat (length rs) < 4294967232 /\ Forall (fun v => (N.to_nat v <= nprim)%nat) m /\
      (forall i, member e i -> exists ri, nth_error rs (N.to_nat i) = Some (Some ri)) /\
      (forall i ri, nth_error rs i = Some (Some ri) -> ri_attr ri = true -> valid (ri_roles ri) /\ forall j, member (ri_roles ri) j -> (N.to_nat j < length m)%nat)
  end.
