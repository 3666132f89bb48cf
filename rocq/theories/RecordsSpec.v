(** Which records can be written to the text files. Uses only the records of the model. *)
From Verif Require Import Base ContextModel RecordsModel.

Definition white (c : N) : Prop := c = 32 \/ (9 <= c /\ c <= 13).
(** No NUL and no white space, not empty. *)
Definition graphic (w : list N) : Prop := Forall (fun c => c <> 0 /\ ~ white c) w.
Definition word (w : list N) : Prop := w <> [] /\ graphic w.
(** Part of a line: no NUL, no newline, not empty, no leading white space; spaces inside are possible. *)
Definition phrase (w : list N) : Prop := Forall (fun c => c <> 0 /\ c <> 10) w /\ exists c t, w = c :: t /\ ~ white c.
(** The record would be taken for a comment. *)
Definition hash (w : list N) : Prop := exists t, w = 35 :: t.

(** A context whose fields can be told apart. *)
Definition context_ok (c : crec) : Prop :=
  graphic (cr_user c) /\ graphic (cr_role c) /\ graphic (cr_type c) /\
  ~ In 58 (cr_user c) /\ ~ In 58 (cr_role c) /\ ~ In 58 (cr_type c) /\
  match cr_mls c with Some m => graphic m | None => True end.

Definition seuser_ok (r : seuser) : Prop :=
  phrase (se_name r) /\ ~ In 58 (se_name r) /\ ~ hash (se_name r) /\ phrase (se_sename r) /\ ~ In 58 (se_sename r) /\
  match se_mls r with Some m => word m | None => True end.
Definition bool_ok (r : boolrec) : Prop :=
  word (bo_name r) /\ ~ In 61 (bo_name r) /\ ~ hash (bo_name r) /\ (bo_value r = 0%Z \/ bo_value r = 1%Z).
Definition userx_ok (r : userx) : Prop := word (ux_name r) /\ phrase (ux_prefix r) /\ ~ In 59 (ux_prefix r).
(** The context would be taken for the second half of a range. *)
Definition dash (w : list N) : Prop := exists t, w = 45 :: t.
(** A port number or range in the range of a non-negative int. *)
Definition port_ok (r : portrec) : Prop :=
  po_proto r < 4 /\ (0 <= po_low r < 2 ^ 31)%Z /\ (0 <= po_high r < 2 ^ 31)%Z /\ context_ok (po_con r) /\
  (po_low r = po_high r -> ~ dash (cr_user (po_con r))).
Definition iface_ok (r : ifacerec) : Prop := word (if_name r) /\ context_ok (if_con r) /\ context_ok (if_msg r).
Definition fcontext_ok (r : fcrec) : Prop :=
  word (fc_expr r) /\ ~ hash (fc_expr r) /\ fc_type r < 8 /\ match fc_con r with Some c => context_ok c | None => True end.
(** Roles: different names (or a single empty name); level and range both set or both unset. *)
Definition user_ok (r : userrec) : Prop :=
  word (us_name r) /\
  (us_roles r = [[]] \/
   (us_roles r <> [] /\ NoDup (us_roles r) /\ Forall (fun x => word x /\ ~ In 59 x /\ ~ In 125 x) (us_roles r))) /\
  match us_level r, us_range r with
  | None, None => True
  | Some l, Some g => word l /\ phrase g /\ ~ In 59 g
  | _, _ => False
  end.
