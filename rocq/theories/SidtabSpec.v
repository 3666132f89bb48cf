(** Specification vocabulary for SID tables and policy loading. *)
From Verif Require Import Base EbitmapModel EbitmapSpec MlsModel MlsSpec ContextModel SidtabModel.

(** Initial SIDs are real ones: not 0, and not the largest number. *)
Definition real_sid (sid : N) : Prop := 1 <= sid /\ sid < 4294967295.
Definition sane_op (o : top) : Prop := match o with TInsert sid _ _ => real_sid sid | TToSid _ _ => True end.

(** The operations recorded in a trace gave this SID to this context. *)
Definition assigned (tr : list (top * tout)) (sid : N) (c : context) : Prop :=
  (exists m, In (TInsert sid c m, (TOk, sid)) tr) \/ (exists m, In (TToSid c m, (TOk, sid)) tr).

(** No explicit insertion of the context is recorded. *)
Definition not_inserted (tr : list (top * tout)) (c : context) : Prop :=
  forall sid m r, ~ In (TInsert sid c m, r) tr.

(** The level that the names of [l] under the old policy denote under the new one. *)
Definition level_renamed (oldp newp : policy) (l l' : level) : Prop :=
  (exists nm ld, p_sens_name oldp (l_sens l) = Some nm /\ p_level_find newp nm = Some ld /\ l_sens l' = l_sens ld) /\
  valid_level l' /\
  (forall b, member (l_cat l) b -> exists nm v, p_cat_name oldp (b + 1) = Some nm /\ p_cat_find newp nm = Some v) /\
  (forall b', member (l_cat l') b' <->
     exists b nm v, member (l_cat l) b /\ p_cat_name oldp (b + 1) = Some nm /\ p_cat_find newp nm = Some v /\ b' = v - 1).

(** The context that the names of [c] under the old policy denote under the new one. *)
Definition renamed (oldp newp : policy) (c c' : context) : Prop :=
  (exists nm, p_user_name oldp (c_user c) = Some nm /\ p_user_find newp nm = Some (c_user c')) /\
  (exists nm, p_role_name oldp (c_role c) = Some nm /\ p_role_find newp nm = Some (c_role c')) /\
  (exists nm a, p_type_name oldp (c_type c) = Some nm /\ p_type_find newp nm = Some (c_type c', a)) /\
  (if p_mls oldp
   then level_renamed oldp newp (r_low (c_range c)) (r_low (c_range c')) /\
        level_renamed oldp newp (r_high (c_range c)) (r_high (c_range c'))
   else c_range c' = c_range c).

(** Every value in the context has a name under the policy. *)
Definition context_named (p : policy) (c : context) : Prop :=
  p_user_name p (c_user c) <> None /\ p_role_name p (c_role c) <> None /\ p_type_name p (c_type c) <> None /\
  (p_mls p = true -> level_named p (r_low (c_range c)) /\ level_named p (r_high (c_range c))).

(** Category values a policy gives out are between 1 and 2^32-64. *)
Definition cats_small (p : policy) : Prop :=
  forall nm v, p_cat_find p nm = Some v -> 1 <= v /\ v <= 4294967232.

(** What the table holds. *)
Definition holds (s : sidtab) (sid : N) (c : context) : Prop :=
  exists t, st_table s = Some t /\ In (sid, c) (concat t).

(** A SID table as the table functions build it: every entry sits in its chain in increasing order, below the
    next SID to be given out. *)
Definition well_built (s : sidtab) : Prop :=
  exists t, st_table s = Some t /\ length t = 128%nat /\
    (forall i, Sorted.StronglySorted N.lt (map fst (nth i t []))) /\
    (forall i sid c, In (sid, c) (nth i t []) -> sid_hash sid = i) /\
    (forall sid c, In (sid, c) (concat t) -> 1 <= sid /\ sid < st_next s) /\
    1 <= st_next s /\ st_next s <= 4294967295.
