(** What the rules of a policy source say, and what its expanded tables say. *)
From Verif Require Import Base EbitmapModel EbitmapSpec AvtabModel AssertModel TypesetModel TypesetSpec ExpandModel.

(** ** The source *)
(** Type [t] is in the set, read through the type map. *)
Definition in_set (ts : list (option tinfo)) (m : list N) (s : typeset) (t : N) : Prop :=
  ts_meaning ts (fun x => exists j, mapped m (ts_types s) j /\ stands_for ts j x) (fun x => exists j, mapped m (ts_neg s) j /\ stands_for ts j x) (ts_flags s) t.
(** The rule speaks about source [s] and target [t] ("self": the source itself). *)
Definition rule_pair (ts : list (option tinfo)) (m : list N) (r : avrule) (s t : N) : Prop :=
  in_set ts m (ar_st r) s /\ (in_set ts m (ar_tt r) t \/ (N.testbit (ar_flags r) 0 = true /\ t = s)).
(** Where a rule stands: outside conditionals, or in a branch of a conditional (that is not a tunable). *)
Definition rule_in (blocks : list xdecl) (scope : option (N * bool)) (r : avrule) : Prop :=
  match scope with
  | None => exists d, In d blocks /\ In r (xd_rules d)
  | Some (c, b) => exists d k, In d blocks /\ In k (xd_conds d) /\ xc_tunable k = false /\ xc_id k = c /\ In r (if b then xc_true k else xc_false k)
  end.
(** A rule of kind [sp] of the given scope says something about permission [b] of class [c] for the two types. *)
Definition says (ts : list (option tinfo)) (m : list N) (blocks : list xdecl) (scope : option (N * bool)) (sp s t c : N) (good : N -> Prop) : Prop :=
  exists r d, rule_in blocks scope r /\ ar_spec r = sp /\ In (c, d) (ar_perms r) /\ good d /\ rule_pair ts m r s t.
(** The same for extended permissions. *)
Definition says_x (ts : list (option tinfo)) (m : list N) (blocks : list xdecl) (scope : option (N * bool)) (sp s t c : N) (good : xperms -> Prop) : Prop :=
  exists r d x, rule_in blocks scope r /\ ar_spec r = sp /\ In (c, d) (ar_perms r) /\ ar_x r = Some x /\ good x /\ rule_pair ts m r s t.

(** ** The tables *)
(** The nodes of a scope. *)
Definition node_in (S : xstate) (scope : option (N * bool)) (n : xnode) : Prop :=
  In n (match scope with None => xs_te S | Some _ => xs_cte S end) /\ xn_ctx n = scope.
(** The kind of a node: its specifier without the enabled flag. *)
Definition kind (n : xnode) : N := N.land (k_spec (n_key (xn n))) 32767.
(** A node for two types, given directly or as attributes. *)
Definition node_pair (ts : list (option tinfo)) (n : xnode) (s t : N) : Prop :=
  exists i j, k_src (n_key (xn n)) = i + 1 /\ k_tgt (n_key (xn n)) = j + 1 /\ stands_for ts i s /\ stands_for ts j t.
(** The tables have a node of the kind for the types and the class whose datum is as asked. *)
Definition holds (ts : list (option tinfo)) (S : xstate) (scope : option (N * bool)) (sp s t c : N) (good : adatum -> Prop) : Prop :=
  exists n, node_in S scope n /\ kind n = sp /\ k_cls (n_key (xn n)) = c /\ node_pair ts n s t /\ good (n_datum (xn n)).
(** Bit [b] of a 256-bit permission map. *)
Definition xbit (l : list N) (b : N) : Prop := N.testbit (nth (N.to_nat (b / 32)) l 0) (b mod 32) = true.

(** ** Well-formed sources *)
(** The sets name types that exist after translation. *)
Definition sets_good (ts : list (option tinfo)) (m : list N) (s : typeset) : Prop := map_ok ts m (ts_types s) /\ map_ok ts m (ts_neg s).
(** A rule as the compiler makes it. *)
Definition rule_good (ts : list (option tinfo)) (m : list N) (r : avrule) : Prop :=
  sets_good ts m (ar_st r) /\ sets_good ts m (ar_tt r) /\
  In (ar_spec r) [1; 2; 4; 8; 16; 32; 64; 128; 256; 512; 1024; 2048] /\
  (In (ar_spec r) [256; 512; 1024; 2048] -> exists x, ar_x r = Some x /\ In (x_spec x) [1; 2; 3] /\ length (x_perms x) = 8%nat) /\
  (In (ar_spec r) [16; 32; 64] -> forall c d, In (c, d) (ar_perms r) -> d <> 0 /\ (N.to_nat d <= length m)%nat) /\
  (In (ar_spec r) [128; 2048] -> forall c d, In (c, d) (ar_perms r) -> c <> 0).
(** All rules of the source are. *)
Definition source_good (ts : list (option tinfo)) (m : list N) (blocks : list xdecl) : Prop :=
  attributes_ok ts /\ forall scope r, rule_in blocks scope r -> rule_good ts m r.
(** No two conditionals of the source have the same expression. *)
Definition conds_once (blocks : list xdecl) : Prop :=
  NoDup (map xc_id (filter (fun c => negb (xc_tunable c)) (flat_map xd_conds blocks))).
