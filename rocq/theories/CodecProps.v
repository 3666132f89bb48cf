(** The binary policy format keeps what is written (C43). *)
From Coq Require Import Permutation.
From Verif Require Import Base EbitmapModel EbitmapSpec MlsModel AvtabModel AvtabSpec TypesetModel CondModel ServicesModel CodecModel CodecSpec CodecProofs AvtabProofs CodecTableProofs MlsDemo CodecDemo.

(** Sets of roles and types: what is written is read back, whatever follows; and whatever is read, from any bytes, is a set that is kept. *)
Theorem C43_sets : keeps (fun x => Some (role_set_write x)) role_set_read role_set_ok /\ only role_set_read role_set_ok /\
  keeps (fun x => Some (type_set_write x)) type_set_read type_set_ok /\ only type_set_read type_set_ok.
Proof. exact (conj (rt_keeps _ _ _ role_set_rt) (conj role_set_only (conj (rt_keeps _ _ _ type_set_rt) type_set_only))). Qed.
Print Assumptions C43_sets.
Example C43_sets_case : role_set_ok (mkRS bits 1) /\ type_set_ok (mkTS bits (mkE [] 0) 2).
Proof.
  split; [apply (role_set_only (role_set_write (mkRS bits 1)) _ []); [apply octets|]; vm_compute; reflexivity
         |apply (type_set_only (type_set_write (mkTS bits (mkE [] 0) 2)) _ []); [apply octets|]; vm_compute; reflexivity].
Qed.

(** Levels and ranges; a range of one level is stored as one level. *)
Theorem C43_ranges : keeps (fun x => Some (mls_write_level x)) mls_read_level level_ok /\ only mls_read_level level_ok /\
  keeps (fun x => Some (mls_write_range_helper x)) mls_read_range_helper range_ok /\ only mls_read_range_helper range_ok.
Proof. exact (conj (rt_keeps _ _ _ level_rt) (conj level_only (conj (rt_keeps _ _ _ range_rt) range_only))). Qed.
Print Assumptions C43_ranges.
Definition range1 : mrange := mkR (mkL 1 (mkE [] 0)) (mkL 2 bits).
Example C43_ranges_case : range_ok range1 /\ range_ok (mkR (mkL 2 bits) (mkL 2 bits)) /\ length (mls_write_range_helper (mkR (mkL 2 bits) (mkL 2 bits))) = 44%nat.
Proof.
  split; [apply (range_only (mls_write_range_helper range1) _ []); [apply octets|]; vm_compute; reflexivity|].
  split; [apply (range_only (mls_write_range_helper (mkR (mkL 2 bits) (mkL 2 bits))) _ []); [apply octets|]; vm_compute; reflexivity|]. reflexivity.
Qed.

(** Contexts: those valid in the policy are kept, and only such are read. *)
Theorem C43_contexts : forall p v, keeps (fun x => Some (context_write v x)) (context_read_and_validate p v) (context_ok p v) /\
  only (context_read_and_validate p v) (context_ok p v).
Proof. intros p v. exact (conj (rt_keeps _ _ _ (context_rt p v)) (context_only p v)). Qed.
Print Assumptions C43_contexts.
Definition ctx1 : context := MlsModel.mkC 1 2 3 (mkR (mkL 1 (mkE [] 0)) (mkL 2 bits)).
Example C43_contexts_case : context_ok demo v33 ctx1.
Proof. apply (context_only demo v33 (context_write v33 ctx1) _ []); [apply octets|]; vm_compute; reflexivity. Qed.

(** Levels and ranges of modules: sensitivity and categories are kept, but the categories come back in the opposite order. *)
Theorem C43_semantic : (forall l rest, slevel_ok l -> Forall octet (mls_write_semantic_level l) /\
    mls_read_semantic_level (mls_write_semantic_level l ++ rest) = Some (mkSL (sl_sens l) (rev (sl_cat l)), rest)) /\
  (forall l h rest, slevel_ok l -> slevel_ok h -> mls_read_semantic_range (mls_write_semantic_range (l, h) ++ rest) =
    Some ((mkSL (sl_sens l) (rev (sl_cat l)), mkSL (sl_sens h) (rev (sl_cat h))), rest)) /\
  only mls_read_semantic_level slevel_ok.
Proof.
  split; [|split; [|exact slevel_only]].
  - intros l rest OK. destruct (slevel_trip l OK) as (O & _ & R). auto.
  - intros l h rest O1 O2. destruct (slevel_trip l O1) as (_ & _ & R1). destruct (slevel_trip h O2) as (_ & _ & R2). unfold mls_read_semantic_range, mls_write_semantic_range. cbn [fst snd].
    rewrite <- app_assoc, R1. cbn [rbind]. rewrite R2. reflexivity.
Qed.
Print Assumptions C43_semantic.
Example C43_semantic_case : slevel_ok (mkSL 3 [(1, 4); (7, 7)]).
Proof. split; [reflexivity|]. split; [reflexivity|]. repeat constructor. Qed.
Theorem C43_refuted_semantic : ~ keeps (fun x => Some (mls_write_semantic_level x)) mls_read_semantic_level slevel_ok.
Proof.
  intros K. destruct (K (mkSL 3 [(1, 4); (7, 7)]) C43_semantic_case) as (bs & E & _ & R). injection E as <-. specialize (R []). vm_compute in R. discriminate.
Qed.
Print Assumptions C43_refuted_semantic.

(** Constraints: every list of constraints whose expressions are trees that need no more than five values at once is kept; and whatever
    is read, from any bytes, is such a list, so that evaluating it never over- or underruns the stack. *)
Theorem C43_constraints : forall v xt,
  (forall l, Forall (cons_ok v xt) l -> exists bs, write_cons_helper v xt l = Some bs /\ Forall octet bs /\
     forall rest, read_cons_helper v xt (N.of_nat (length l)) (bs ++ rest) = Some (l, rest)) /\
  (forall n, only (read_cons_helper v xt n) (Forall (cons_ok v xt))).
Proof.
  intros v xt. split.
  - intros l F. destruct (cons_list_trip v xt l F) as (bs & E & O & L & R). exists bs. split; [exact E|]. split; [exact O|]. intros rest. unfold read_cons_helper.
    rewrite rounds_ok by (rewrite app_length; lia). apply R.
  - intros n bs l rest O E. destruct (read_n_only _ _ (cons_only v xt) _ _ _ _ O E) as [[F _] U]. split; assumption.
Qed.
Print Assumptions C43_constraints.
Example C43_constraints_case : Forall (cons_ok v33 false) [cons1; mkCNT 1 [cmp 1 1]].
Proof.
  assert (E : exists bs, write_cons_helper v33 false [cons1; mkCNT 1 [cmp 1 1]] = Some bs /\ forallb byte_ok bs = true /\ read_cons_helper v33 false 2 bs = Some ([cons1; mkCNT 1 [cmp 1 1]], [])).
  { eexists. split; [vm_compute; reflexivity|]. split; vm_compute; reflexivity. }
  destruct E as (bs & _ & O & R). apply octets in O. exact (proj1 (proj2 (C43_constraints v33 false) 2 bs _ _ O R)).
Qed.
(** Not kept: a constraint without expression (written, but refused when read), and, before version 29, the types that the names stand for. *)
Theorem C43_refuted_constraints :
  (exists bs, write_cons_helper v33 false [mkCNT 1 []] = Some bs /\ read_cons_helper v33 false 1 bs = None) /\
  (exists bs, write_cons_helper v28 false [mkCNT 1 [named 4]] = Some bs /\
     read_cons_helper v28 false 1 bs = Some ([mkCNT 1 [mkCT (ct_expr (named 4)) no_types]], [])).
Proof. split; eexists; split; vm_compute; reflexivity. Qed.
Print Assumptions C43_refuted_constraints.

(** Conditional expressions with their state. *)
Theorem C43_conditions : forall nb, keeps (fun x => Some (cond_write_expr (fst x) (snd x))) (cond_read_expr nb) (cond_ok nb) /\ only (cond_read_expr nb) (cond_ok nb).
Proof. intros nb. exact (conj (rt_keeps _ _ _ (cond_rt nb)) (cond_only nb)). Qed.
Print Assumptions C43_conditions.
Example C43_conditions_case : cond_ok 3 (1, [mkT 1 2; mkT 1 3; mkT 3 0; mkT 2 0]).
Proof. split; [reflexivity|]. split; [reflexivity|]. repeat constructor; vm_compute; congruence. Qed.

(** Role transitions and role allow rules. *)
Theorem C43_roles : (forall v proc, keeps (fun x => Some (role_trans_write v proc x)) (role_trans_read v proc) (fun l => short l /\ Forall (role_trans_ok v proc) l) /\
    only (role_trans_read v proc) (fun l => short l /\ Forall (role_trans_ok v proc) l)) /\
  keeps (fun x => Some (role_allow_write x)) role_allow_read (fun l => short l /\ Forall (fun p => word (fst p) /\ word (snd p)) l) /\
  only role_allow_read (fun l => short l /\ Forall (fun p => word (fst p) /\ word (snd p)) l).
Proof.
  split; [intros v proc; exact (conj (rt_keeps _ _ _ (role_trans_rt v proc)) (role_trans_only v proc))|]. exact (conj (rt_keeps _ _ _ role_allow_rt) role_allow_only).
Qed.
Print Assumptions C43_roles.
Example C43_roles_case : Forall (role_trans_ok v33 2) [mkRT 1 5 2 3; mkRT 1 5 7 4] /\ Forall (role_trans_ok v25 2) [mkRT 1 5 2 3].
Proof.
  split.
  - apply (proj1 (proj2 (proj1 C43_roles v33 2) (role_trans_write v33 2 [mkRT 1 5 2 3; mkRT 1 5 7 4]) _ [] ltac:(apply octets; vm_compute; reflexivity) ltac:(vm_compute; reflexivity))).
  - apply (proj1 (proj2 (proj1 C43_roles v25 2) (role_trans_write v25 2 [mkRT 1 5 2 3]) _ [] ltac:(apply octets; vm_compute; reflexivity) ltac:(vm_compute; reflexivity))).
Qed.
(** Before version 26 role transitions for other classes are dropped without an error. *)
Theorem C43_refuted_roles : role_trans_read v25 2 (role_trans_write v25 2 [mkRT 1 5 2 3; mkRT 1 5 7 4]) = Some ([mkRT 1 5 2 3], []).
Proof. vm_compute. reflexivity. Qed.
Print Assumptions C43_refuted_roles.

(** The table of access rules: after any history of insertions, if its rules can be stored, it is written and read back with the same rules,
    the same count and the same answer to every lookup of a rule; the nodes for a key (several only for extended permissions) come back in
    the opposite order. *)
Theorem C43_table : forall v h n, let a := run h (avtab_alloc avtab_init n) in n <> 0 -> pv_selinux v = true -> 20 <= pv_vers v -> table_ok (pv_vers v) a ->
  exists bs, avtab_write v a = Some bs /\ Forall octet bs /\ forall rest, exists a', avtab_read (pv_vers v) (bs ++ rest) = Some (a', rest) /\
    Permutation (avtab_map_list a') (avtab_map_list a) /\ a_nel a' = a_nel a /\
    (forall k, one_spec (k_spec k) -> is_xperm_key k = false -> avtab_search a' k = avtab_search a k) /\
    (forall k, one_spec (k_spec k) -> avtab_nodes_for a' k = rev (avtab_nodes_for a k)).
Proof.
  intros v h n a NZ SEL V OK. destruct (alloc_spec avtab_init n NZ) as (W0 & H0 & M0). destruct (run_spec h _ [] W0 H0) as (W & _ & _); [rewrite M0; constructor|].
  destruct (table_trip v a W SEL V OK) as (bs & E & O & R). exists bs. split; [exact E|]. split; [exact O|]. intros rest. destruct (R rest) as (a' & R1 & _ & R2). exists a'. split; [exact R1|exact R2].
Qed.
Print Assumptions C43_table.
Example C43_table_case : table_ok 33 table1 /\ length (avtab_map_list table1) = 5%nat.
Proof. split; [exact table1_ok|reflexivity]. Qed.
(** Whatever is read, from any bytes, is such a table, and reading and writing it again gives the same answers. *)
Theorem C43_table_read : forall v bs a rest, Forall octet bs -> pv_selinux v = true -> 20 <= pv_vers v -> avtab_read (pv_vers v) bs = Some (a, rest) ->
  table_ok (pv_vers v) a /\ (exists used, bs = used ++ rest) /\
  exists bs', avtab_write v a = Some bs' /\ exists a', avtab_read (pv_vers v) (bs' ++ rest) = Some (a', rest) /\ Permutation (avtab_map_list a') (avtab_map_list a) /\
    (forall k, one_spec (k_spec k) -> is_xperm_key k = false -> avtab_search a' k = avtab_search a k).
Proof.
  intros v bs a rest O SEL V E. destruct (table_only _ V bs a rest O E) as [[W OK] U]. split; [exact OK|]. split; [exact U|].
  destruct (table_trip v a W SEL V OK) as (bs' & E' & _ & R). exists bs'. split; [exact E'|]. destruct (R rest) as (a' & R1 & _ & P & _ & S & _). exists a'. auto.
Qed.
Print Assumptions C43_table_read.
Example C43_table_read_case : avtab_write v33 table1 = Some bytes1 /\ Forall octet bytes1 /\ avtab_read 33 bytes1 = Some (table2, []) /\ a_nel table2 = 5.
Proof. split; [exact bytes1_eq|]. split; [apply octets; vm_compute; reflexivity|]. split; [exact table2_eq|reflexivity]. Qed.
(** Not kept: the empty table, which is written but refused when read; and the order of extended permission rules with one key. *)
Theorem C43_refuted_table : (exists bs, avtab_write v33 (avtab_alloc avtab_init 4) = Some bs /\ avtab_read 33 bs = None) /\
  (exists bs a, avtab_write v33 table1 = Some bs /\ avtab_read 33 bs = Some (a, []) /\ avtab_nodes_for a (mkK 1 2 3 256) <> avtab_nodes_for table1 (mkK 1 2 3 256)).
Proof.
  split; [exists (put32 0); split; [vm_compute; reflexivity|vm_compute; reflexivity]|]. exists bytes1, table2. split; [exact bytes1_eq|]. split; [exact table2_eq|]. vm_compute. discriminate.
Qed.
Print Assumptions C43_refuted_table.
(** The checks of later formats are missing for the format before version 20: such a policy, which cannot have extended permission rules,
    may bring some into the table. *)
Theorem C43_refuted_old : exists bs a, avtab_read 15 bs = Some (a, []) /\ ~ Forall (rule_ok 15) (avtab_map_list a) /\
  avtab_search a (mkK 1 2 3 256) = Some (mkD 9 (Some (mkX 0 0 [0; 0; 0; 0; 0; 0; 0; 0]))).
Proof.
  exists old1, table3. split; [exact table3_eq|]. split; [|vm_compute; reflexivity]. intros F. rewrite Forall_forall in F.
  destruct (F (mkNode (mkK 1 2 3 256) (mkD 9 (Some (mkX 0 0 [0; 0; 0; 0; 0; 0; 0; 0]))))) as [_ D]; [vm_compute; tauto|].
  destruct D as [(_ & V & _)|(_ & X & _)]; [revert V; vm_compute; intros V; apply V; reflexivity|discriminate X].
Qed.
Print Assumptions C43_refuted_old.
