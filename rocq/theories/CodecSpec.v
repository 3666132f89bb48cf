(** What it means for a format to keep its objects, and which objects each format can hold. *)
From Coq Require Import Permutation.
From Verif Require Import Base EbitmapModel EbitmapSpec MlsModel AvtabModel TypesetModel CondModel ServicesModel CodecModel.

Definition word (x : N) : Prop := x < 4294967296.
Definition half (x : N) : Prop := x < 65536.
Definition octet (x : N) : Prop := x < 256.
Definition short {A} (l : list A) : Prop := N.of_nat (length l) < 4294967296.

(** Every such object can be written, and reading it back, whatever follows, yields the same object and leaves what follows. *)
Definition keeps {A} (w : A -> option (list N)) (r : list N -> option (A * list N)) (ok : A -> Prop) : Prop :=
  forall x, ok x -> exists bs, w x = Some bs /\ Forall octet bs /\ forall rest, r (bs ++ rest) = Some (x, rest).
(** Whatever the bytes, what is read is such an object, and a beginning of the bytes was used for it. *)
Definition only {A} (r : list N -> option (A * list N)) (ok : A -> Prop) : Prop :=
  forall bs x rest, Forall octet bs -> r bs = Some (x, rest) -> ok x /\ exists used, bs = used ++ rest.

Definition role_set_ok (x : roleset) : Prop := valid (rs_roles x) /\ word (rs_flags x).
Definition type_set_ok (x : typeset) : Prop := valid (ts_types x) /\ valid (ts_neg x) /\ word (ts_flags x).
Definition level_ok (l : level) : Prop := word (l_sens l) /\ valid (l_cat l).
Definition range_ok (r : mrange) : Prop := level_ok (r_low r) /\ level_ok (r_high r).
Definition slevel_ok (l : slevel) : Prop := word (sl_sens l) /\ short (sl_cat l) /\ Forall (fun c => word (fst c) /\ word (snd c)) (sl_cat l).
(** Contexts of version 19 policies (5 for base modules) and later have a range; earlier ones have none. *)
Definition ranges_stored (v : pvers) : Prop := (pv_kern v = true /\ 19 <= pv_vers v) \/ (pv_base v = true /\ 5 <= pv_vers v).
Definition context_ok (p : policy) (v : pvers) (c : context) : Prop :=
  word (c_user c) /\ word (c_role c) /\ word (c_type c) /\ context_is_valid p c = true /\
  (ranges_stored v -> range_ok (c_range c)) /\ (~ ranges_stored v -> c_range c = mkR (mkL 0 (mkE [] 0)) (mkL 0 (mkE [] 0))).

(** Constraint expressions are trees: comparisons, and "not", "and", "or" above them. *)
Inductive ctree := Leaf (e : cexprt) | Not1 (e : cexprt) (t : ctree) | Both (e : cexprt) (a b : ctree).
Fixpoint postfix (t : ctree) : list cexprt :=
  match t with Leaf e => [e] | Not1 e t => postfix t ++ [e] | Both e a b => postfix a ++ postfix b ++ [e] end.
(** The number of values that must be held at once to evaluate it. *)
Fixpoint need (t : ctree) : N := match t with Leaf _ => 1 | Not1 _ t => need t | Both _ a b => N.max (need a) (1 + need b) end.
Definition names_stored (v : pvers) : Prop := pv_kern v = false \/ 29 <= pv_vers v.
Definition part_words (e : cexprt) : Prop := word (ce_attr (ct_expr e)) /\ word (ce_op (ct_expr e)).
Definition no_names (e : cexprt) : Prop := ce_names (ct_expr e) = mkE [] 0 /\ ct_types e = mkTS (mkE [] 0) (mkE [] 0) 0.
(** A comparison of two attributes (4) or with names (5); a third context may occur in names only where allowed. *)
Definition leaf_ok (v : pvers) (xt : bool) (e : cexprt) : Prop :=
  part_words e /\
  ((ce_type (ct_expr e) = 4 /\ no_names e) \/
   (ce_type (ct_expr e) = 5 /\ valid (ce_names (ct_expr e)) /\ (xt = true \/ N.testbit (ce_attr (ct_expr e)) 4 = false) /\
    (names_stored v -> type_set_ok (ct_types e)) /\ (~ names_stored v -> ct_types e = mkTS (mkE [] 0) (mkE [] 0) 0))).
Fixpoint tree_ok (v : pvers) (xt : bool) (t : ctree) : Prop :=
  match t with
  | Leaf e => leaf_ok v xt e
  | Not1 e t => part_words e /\ no_names e /\ ce_type (ct_expr e) = 1 /\ tree_ok v xt t
  | Both e a b => part_words e /\ no_names e /\ (ce_type (ct_expr e) = 2 \/ ce_type (ct_expr e) = 3) /\ tree_ok v xt a /\ tree_ok v xt b
  end.
Definition cons_ok (v : pvers) (xt : bool) (c : cnode_t) : Prop :=
  word (cnt_perms c) /\ short (cnt_expr c) /\ exists t, cnt_expr c = postfix t /\ tree_ok v xt t /\ need t <= 5.

(** Parts of conditional expressions: seven kinds, and booleans of the policy. *)
Definition tok_ok (nb : N) (t : tok) : Prop := 1 <= t_type t <= 7 /\ word (t_bool t) /\ t_bool t <= nb.
Definition cond_ok (nb : N) (x : N * list tok) : Prop := word (fst x) /\ short (snd x) /\ Forall (tok_ok nb) (snd x).

(** Role transitions have a class of their own from version 26 on. *)
Definition classes_stored (v : pvers) : Prop := pv_kern v = true /\ 26 <= pv_vers v.
Definition role_trans_ok (v : pvers) (proc : N) (t : role_trans) : Prop :=
  word (rt_role t) /\ word (rt_type t) /\ word (rt_new t) /\ (classes_stored v -> word (rt_class t)) /\ (~ classes_stored v -> rt_class t = proc).

(** Rules: one of nine kinds, perhaps marked enabled. *)
Definition kinds : list N := [1; 2; 4; 16; 32; 64; 256; 512; 1024].
Definition extended (s : N) : Prop := In (s mod 32768) [256; 512; 1024].
Definition key_ok (k : akey) : Prop := half (k_src k) /\ half (k_tgt k) /\ half (k_cls k) /\ In (k_spec k mod 32768) kinds /\ k_spec k < 65536.
Definition datum_ok (vers s : N) (d : adatum) : Prop :=
  (extended s /\ 30 <= vers /\ d_data d = 0 /\ exists x, d_xperms d = Some x /\ octet (x_spec x) /\ octet (x_driver x) /\ length (x_perms x) = 8%nat /\ Forall word (x_perms x)) \/
  (~ extended s /\ d_xperms d = None /\ word (d_data d)).
Definition rule_ok (vers : N) (n : anode) : Prop := key_ok (n_key n) /\ datum_ok vers (k_spec (n_key n)) (n_datum n).
(** No two rules with the same key and kind, extended permissions apart. *)
Definition plain_keys (l : list anode) : list (N * N * N * N) :=
  map (fun n => (k_src (n_key n), k_tgt (n_key n), k_cls (n_key n), k_spec (n_key n) mod 32768))
      (filter (fun n => k_spec (n_key n) mod 32768 <? 256) l).
Definition table_ok (vers : N) (a : avtab) : Prop :=
  Forall (rule_ok vers) (avtab_map_list a) /\ NoDup (plain_keys (avtab_map_list a)) /\
  a_nel a = N.of_nat (length (avtab_map_list a)) /\ 0 < a_nel a < 4294967295.
