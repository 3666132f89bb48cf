(** Specification vocabulary for MLS levels, ranges and contexts. *)
From Verif Require Import Base EbitmapModel EbitmapSpec MlsModel.

(** The category sets are canonical bitmaps (every bitmap built by the library is, C02). *)
Definition valid_level (l : level) : Prop := valid (l_cat l).
Definition valid_mrange (r : mrange) : Prop := valid_level (r_low r) /\ valid_level (r_high r).

(** Dominance order: [l1] is dominated by [l2]. *)
Definition level_le (l1 l2 : level) : Prop :=
  l_sens l1 <= l_sens l2 /\ forall b, member (l_cat l1) b -> member (l_cat l2) b.

(** Same sensitivity and same categories. *)
Definition level_same (l1 l2 : level) : Prop :=
  l_sens l1 = l_sens l2 /\ forall b, member (l_cat l1) b <-> member (l_cat l2) b.

(** A range whose high level dominates its low level. *)
Definition range_ordered (r : mrange) : Prop := level_le (r_low r) (r_high r).

(** A level the policy permits: existing sensitivity, every category associated with it. *)
Definition level_permitted (p : policy) (l : level) : Prop :=
  1 <= l_sens l /\ l_sens l <= p_nlevels p /\
  exists nm ld, p_sens_name p (l_sens l) = Some nm /\ p_level_find p nm = Some ld /\
    forall b, member (l_cat l) b -> b <= p_ncats p /\ member (l_cat ld) b.

(** The policy's own bitmaps are canonical. *)
Definition policy_canonical (p : policy) : Prop :=
  (forall k ld, p_level_find p k = Some ld -> valid_level ld) /\
  (forall u roles rng, p_user_struct p u = Some (roles, rng) -> valid roles /\ valid_mrange rng) /\
  (forall r types, p_role_struct p r = Some types -> valid types).

(** What it means for a context to be authorised by a policy. *)
Definition context_authorised (p : policy) (c : context) : Prop :=
  (1 <= c_role c /\ c_role c <= p_nroles p) /\
  (1 <= c_user c /\ c_user c <= p_nusers p) /\
  (1 <= c_type c /\ c_type c <= p_ntypes p) /\
  (c_role c <> 1 ->
     (exists types, p_role_struct p (c_role c) = Some types /\ member types (c_type c - 1)) /\
     (exists roles rng, p_user_struct p (c_user c) = Some (roles, rng) /\ member roles (c_role c - 1))) /\
  (p_mls p = true ->
     range_ordered (c_range c) /\
     level_permitted p (r_low (c_range c)) /\ level_permitted p (r_high (c_range c)) /\
     (c_role c <> 1 ->
        exists roles rng, p_user_struct p (c_user c) = Some (roles, rng) /\
          level_le (r_low rng) (r_low (c_range c)) /\ level_le (r_high (c_range c)) (r_high rng))).

(** Names that can appear in an MLS string: none of ':' '-' ',' '.'. *)
Definition clean (nm : list N) : bool :=
  forallb (fun c => negb (c =? 58) && negb (c =? 45) && negb (c =? 44) && negb (c =? 46)) nm.

(** The value-to-name arrays and the symbol tables agree, and names are clean. *)
Definition names_ok (p : policy) : Prop :=
  (forall v nm, p_sens_name p v = Some nm ->
     clean nm = true /\ exists ld, p_level_find p nm = Some ld /\ l_sens ld = v) /\
  (forall v nm, p_cat_name p v = Some nm ->
     clean nm = true /\ p_cat_find p nm = Some v /\ 1 <= v /\ v < 4294967232).

(** Every sensitivity and category of the level has a name. *)
Definition level_named (p : policy) (l : level) : Prop :=
  p_sens_name p (l_sens l) <> None /\ forall b, member (l_cat l) b -> p_cat_name p (b + 1) <> None.

(** No category set in which a member at the end of a 64-bit word is followed by an absent word and
    then by further members. *)
Definition no_word_gap (e : ebitmap) : Prop :=
  forall b c, member e b -> b mod 64 = 63 -> member e c -> b < c ->
  exists d, member e d /\ b < d /\ d <= b + 64.
