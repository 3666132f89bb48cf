(** Property theorems: policy optimisation. *)
From Coq Require Import Permutation Sorted.
From Verif Require Import Base EbitmapModel EbitmapSpec EbitmapProofs MlsModel MlsDemo AvtabModel AvtabSpec AvtabProofs CondModel ServicesModel ServicesSpec ServicesProofs ServicesDemo OptModel OptSpec OptProofs OptDecProofs.

(** Optimising a policy of a supported version neither fails nor reads outside its tables, and gives a well-formed policy. *)
Theorem C19_optimises : forall P, opolicy_ok wf P -> supported P -> exists P', policydb_optimize P = OOk P' /\ opolicy_ok wf P'.
Proof. intros P OK S. destruct (optimize_ok P OK S) as (P' & d & E & O). exists P'. split; [exact E|exact (result_ok P OK P' d O)]. Qed.
Print Assumptions C19_optimises.

(** What the rules in force do is the same before and after, for all types, classes, permissions, commands and new types,
    whatever the values of the conditional expressions. *)
Theorem C19_same_rules : forall P P', opolicy_ok wf P -> supported P -> policydb_optimize P = OOk P' ->
  forall value s t c e, real P s -> real P t -> (effective P' (in_force P' value) s t c e <-> effective P (in_force P value) s t c e).
Proof.
  intros P P' OK S E value s t c e Rs Rt. destruct (optimize_ok P OK S) as (Q & d & E' & O). rewrite E in E'. injection E' as <-. exact (in_force_same P P' d O value s t c e Rs Rt).
Qed.
Print Assumptions C19_same_rules.

(** Type transition, member and change rules are all kept as they are. *)
Theorem C19_type_rules_kept : forall P P', opolicy_ok wf P -> supported P -> policydb_optimize P = OOk P' ->
  forall value, Permutation (filter type_rule (in_force P' value)) (filter type_rule (in_force P value)).
Proof.
  intros P P' OK S E value. destruct (optimize_ok P OK S) as (Q & d & E' & O). rewrite E in E'. injection E' as <-. exact (type_rules_kept P P' d value OK O).
Qed.
Print Assumptions C19_type_rules_kept.

(** Types, attributes and maps are untouched; the counts of the two tables stay right; every remaining conditional is one
    of the old ones and still has rules. *)
Theorem C19_tables : forall P P', opolicy_ok wf P -> supported P -> policydb_optimize P = OOk P' ->
  (op_types P' = op_types P /\ op_tattr P' = op_tattr P /\ op_attr P' = op_attr P /\ op_vers P' = op_vers P) /\
  (a_nel (op_te P) = N.of_nat (length (avtab_map_list (op_te P))) -> a_nel (op_te P) < 4294967296 -> a_nel (op_te P') = N.of_nat (length (avtab_map_list (op_te P')))) /\
  (op_cnel P = N.of_nat (length (concat (op_cte P))) -> op_cnel P < 4294967296 -> op_cnel P' = N.of_nat (length (concat (op_cte P')))) /\
  (forall c', In c' (op_conds P') -> (exists c, In c (op_conds P) /\ oc_id c' = oc_id c) /\ (oc_true c' <> [] \/ oc_false c' <> [])).
Proof.
  intros P P' OK S E. destruct (optimize_ok P OK S) as (Q & d & E' & O). rewrite E in E'. injection E' as <-. destruct (o_same _ _ _ O) as (E1 & E2 & E3 & E4 & E5).
  split; [auto|]. split; [exact (o_nel _ _ _ O)|]. split; [exact (o_cnel _ _ _ O)|exact (o_ids _ _ _ O)].
Qed.
Print Assumptions C19_tables.

(** Every access decision, with its audit vectors and reasons, is the same with the old and the new tables. *)
Theorem C19_same_decisions : forall P P' sp nslot mask, opolicy_ok wf P -> supported P -> policydb_optimize P = OOk P' ->
  spolicy_ok wf sp -> uses sp P nslot mask -> (forall ty, sv_bounds sp ty <> 0 -> typed P (sv_bounds sp ty)) ->
  forall fuel s t cls req, typed P (c_type s) -> typed P (c_type t) ->
  compute_av fuel (with_tables sp (op_te P') (cond_table P' nslot mask)) s t cls req = compute_av fuel sp s t cls req.
Proof.
  intros P P' sp nslot mask OK S E. destruct (optimize_ok P OK S) as (Q & d & E' & O). rewrite E in E'. injection E' as <-. exact (same_av_ok P P' d sp nslot mask OK O).
Qed.
Print Assumptions C19_same_decisions.

(** A policy that is not a kernel policy, or of a version that keeps attributes away from the kernel, is refused. *)
Theorem C19_refuses : forall P, ~ supported P -> policydb_optimize P = OFail.
Proof.
  intros P H. unfold policydb_optimize. destruct (op_kern P) eqn:K; cbn [negb]; [|reflexivity]. destruct ((20 <=? op_vers P) && (op_vers P <=? 23)) eqn:V; [reflexivity|]. destruct H. split; [exact K|lia].
Qed.
Print Assumptions C19_refuses.

(** ** A small policy *)
(** Demo data, models no code: types 1, 2, 3 and attribute 4 of types 1 and 2, as in [sd]. *)
Definition dop_tattr (i : N) : ebitmap := sv_attr sd (i + 1).
(** As above. *)
Definition dop_attr (i : N) : ebitmap := if i =? 0 then demo_set [0] else if i =? 1 then demo_set [1] else if i =? 2 then demo_set [2] else if i =? 3 then demo_set [0; 1] else ebitmap_init.
(** Demo data, models no code: an extended permission rule. *)
Definition dopx (k d w : N) : adatum := mkD 0 (Some (mkX k d [w; 0; 0; 0; 0; 0; 0; 0])).
(** Demo data, models no code: rules for the attribute that cover others wholly or in part; one type transition. *)
Definition dop_ops : list avop :=
  [OpIns true (mkK 4 3 1 1) (mkD 3 None); OpIns true (mkK 1 3 1 1) (mkD 7 None); OpIns true (mkK 2 3 1 1) (mkD 1 None);
   OpIns true (mkK 4 3 1 256) (dopx 2 0 6); OpIns true (mkK 1 3 1 256) (dopx 1 1 255); OpIns true (mkK 2 3 1 256) (dopx 2 0 14); OpIns true (mkK 1 3 1 16) (mkD 2 None)].
(** As above. *)
Definition dop_te : avtab := run dop_ops (avtab_alloc avtab_init 8).
(** Demo data, models no code: two conditionals. *)
Definition dop_conds : list ocond :=
  [mkOC 9 [(100, mkNode (mkK 4 3 1 32769) (mkD 16 None)); (101, mkNode (mkK 1 3 1 32769) (mkD 16 None)); (102, mkNode (mkK 2 3 1 32769) (mkD 3 None))]
          [(103, mkNode (mkK 1 3 1 1) (mkD 33 None))];
   mkOC 10 [(104, mkNode (mkK 1 3 1 32769) (mkD 1 None))] []].
(** Demo data, models no code. *)
Definition dop : opolicy := mkOP true 33 [Some false; Some false; Some false; Some true] dop_tattr dop_attr dop_te [[101; 103; 104; 102; 100]] 5 dop_conds.
(** Demo data, models no code: [sd] with these tables. *)
Definition dsp : spolicy := with_tables sd dop_te (cond_table dop 1 0).

Ltac vset := first [apply valid_init|apply valid_check; vm_compute; reflexivity].
Lemma dop_attr_valid i : valid (dop_attr i).
Proof. unfold dop_attr. repeat (destruct (_ =? _); [vset|]). vset. Qed.
Lemma dop_attr_in a t : member (dop_attr a) t <-> (a = 0 /\ t = 0) \/ (a = 1 /\ t = 1) \/ (a = 2 /\ t = 2) \/ (a = 3 /\ (t = 0 \/ t = 1)).
Proof.
  unfold dop_attr. destruct (N.eqb_spec a 0) as [->|N1]; [rewrite (demo_in _ [0]) by first [vset|vm_compute; reflexivity]; cbn [In]; lia|].
  destruct (N.eqb_spec a 1) as [->|N2]; [rewrite (demo_in _ [1]) by first [vset|vm_compute; reflexivity]; cbn [In]; lia|].
  destruct (N.eqb_spec a 2) as [->|N3]; [rewrite (demo_in _ [2]) by first [vset|vm_compute; reflexivity]; cbn [In]; lia|].
  destruct (N.eqb_spec a 3) as [->|N4]; [rewrite (demo_in _ [0; 1]) by first [vset|vm_compute; reflexivity]; cbn [In]; lia|].
  rewrite init_in. cbn [In]. lia.
Qed.
Lemma dop_tattr_in t a : member (dop_tattr t) a <-> (t = 0 /\ (a = 0 \/ a = 3)) \/ (t = 1 /\ (a = 1 \/ a = 3)) \/ (t = 2 /\ a = 2).
Proof.
  unfold dop_tattr, sd. cbn [sv_attr]. destruct (N.eqb_spec (t + 1) 1) as [E|N1]; [rewrite (demo_in _ [0; 3]) by first [vset|vm_compute; reflexivity]; cbn [In]; lia|].
  destruct (N.eqb_spec (t + 1) 2) as [E|N2]; [rewrite (demo_in _ [1; 3]) by first [vset|vm_compute; reflexivity]; cbn [In]; lia|].
  destruct (N.eqb_spec (t + 1) 3) as [E|N3]; [rewrite (demo_in _ [2]) by first [vset|vm_compute; reflexivity]; cbn [In]; lia|].
  rewrite init_in. cbn [In]. lia.
Qed.
Lemma dop_kind t b : nth_error (op_types dop) (N.to_nat t) = Some (Some b) <-> (b = false /\ t < 3) \/ (b = true /\ t = 3).
Proof.
  assert (H : t = 0 \/ t = 1 \/ t = 2 \/ t = 3 \/ (4 <= N.to_nat t)%nat) by lia. destruct H as [-> |[-> |[-> |[-> |H]]]].
  1-4: cbn; split; [intros [= <-]; lia|intros [[-> H]|[-> H]]; first [reflexivity|lia]].
  rewrite (proj2 (nth_error_None (op_types dop) (N.to_nat t)) H). split; [discriminate|lia].
Qed.
Lemma dop_ok : opolicy_ok wf dop.
Proof.
  assert (W : wf dop_te) by (apply run_wf; discriminate). split; [reflexivity|]. split; [intros i; split; [apply sd_attr_valid|apply dop_attr_valid]|]. split.
  { intros t i R M. apply dop_kind in R. apply dop_tattr_in in M. unfold OptSpec.attribute. rewrite dop_kind. change (op_attr dop i) with (dop_attr i). rewrite dop_attr_in. lia. }
  split. { intros t a R A M. apply dop_kind in R. apply dop_kind in A. apply dop_attr_in in M. apply dop_tattr_in. lia. }
  split; [exact W|]. assert (EX : forall v, 1 <= v <= 4 -> exists_at dop v).
  { intros v B. split; [lia|]. destruct (N.eq_dec v 4) as [->|]; [exists true|exists false]; apply dop_kind; lia. }
  assert (ND : forall n, (1 <=? k_src (n_key n)) && (k_src (n_key n) <=? 4) && (1 <=? k_tgt (n_key n)) && (k_tgt (n_key n) <=? 4) = true -> exists_at dop (k_src (n_key n)) /\ exists_at dop (k_tgt (n_key n))) by (intros n H; split; apply EX; lia).
  split; [|split; [|split]].
  - intros n H. assert (F : forallb (fun n => ((1 <=? k_src (n_key n)) && (k_src (n_key n) <=? 4) && (1 <=? k_tgt (n_key n)) && (k_tgt (n_key n) <=? 4)) && ((k_spec (n_key n) =? 1) || (k_spec (n_key n) =? 16) || (k_spec (n_key n) =? 256))) (avtab_map_list (op_te dop)) = true) by (vm_compute; reflexivity).
    rewrite forallb_forall in F. specialize (F n H). apply andb_prop in F as [F1 F2]. destruct (ND n F1) as [X1 X2]. split; [exact X1|]. split; [exact X2|].
    assert (K : k_spec (n_key n) = 2 ^ 0 \/ k_spec (n_key n) = 2 ^ 4 \/ k_spec (n_key n) = 2 ^ 8) by (change (2 ^ 0) with 1; change (2 ^ 4) with 16; change (2 ^ 8) with 256; lia). destruct K as [K|[K|K]]; [exists 0|exists 4|exists 8]; (split; [lia|exact K]).
  - intros a n H. assert (F : forallb (fun x => ((1 <=? k_src (n_key (snd x))) && (k_src (n_key (snd x)) <=? 4) && (1 <=? k_tgt (n_key (snd x))) && (k_tgt (n_key (snd x)) <=? 4)) && ((k_spec (n_key (snd x)) =? 1) || (k_spec (n_key (snd x)) =? 32769))) (cond_nodes dop) = true) by (vm_compute; reflexivity).
    rewrite forallb_forall in F. specialize (F (a, n) H). cbn [snd] in F. apply andb_prop in F as [F1 F2]. destruct (ND n F1) as [X1 X2]. split; [exact X1|]. split; [exact X2|]. exists 0. split; [lia|]. change (2 ^ 0) with 1. lia.
  - cbn. repeat constructor; cbn; intuition discriminate.
  - change (concat (op_cte dop)) with [101; 103; 104; 102; 100]. change (map fst (cond_nodes dop)) with [100; 101; 102; 103; 104].
    apply NoDup_Permutation; [repeat constructor; cbn; intuition discriminate|repeat constructor; cbn; intuition discriminate|]. intros x. cbn [In]. tauto.
Qed.
Lemma dop_supported : supported dop.
Proof. split; [reflexivity|right; reflexivity]. Qed.
Lemma dop_table : wf (cond_table dop 1 0).
Proof.
  split; [reflexivity|]. intros i c H. destruct i as [|[|i]]; [|discriminate|discriminate]. change (Some c = Some (flat_map (content dop) [101; 103; 104; 102; 100])) in H || idtac. injection H as <-.
  split; [|cbn; repeat constructor].
  assert (E : flat_map (content dop) [101; 103; 104; 102; 100] = [mkNode (mkK 1 3 1 32769) (mkD 16 None); mkNode (mkK 1 3 1 1) (mkD 33 None); mkNode (mkK 1 3 1 32769) (mkD 1 None); mkNode (mkK 2 3 1 32769) (mkD 3 None); mkNode (mkK 4 3 1 32769) (mkD 16 None)]) by (vm_compute; reflexivity).
  match goal with |- StronglySorted le3 ?l => change l with (flat_map (content dop) [101; 103; 104; 102; 100] ++ []) end.
  rewrite E. cbn [app]. repeat constructor; vm_compute; intuition congruence.
Qed.

(** Beside the theorems: rules are removed (2 3 allow), reduced (1 3 allow keeps only 4) or kept; the second conditional
    disappears. *)
Example C19_case : opolicy_ok wf dop /\ supported dop /\
  match policydb_optimize dop with
  | OOk P' =>
      filter (fun n => k_spec (n_key n) =? 1) (avtab_map_list (op_te P')) = [mkNode (mkK 4 3 1 1) (mkD 3 None); mkNode (mkK 1 3 1 1) (mkD 4 None)] /\
      op_conds P' = [mkOC 9 [(100, mkNode (mkK 4 3 1 32769) (mkD 16 None))] [(103, mkNode (mkK 1 3 1 1) (mkD 32 None))]] /\ op_cte P' = [[103; 100]] /\ op_cnel P' = 2
  | _ => False
  end.
Proof. split; [exact dop_ok|]. split; [exact dop_supported|]. vm_compute. auto. Qed.

(** Beside [C19_same_decisions]: the hypotheses hold, and the decision is not trivial (type 1 is bounded by type 2). *)
Example C19_decision_case : spolicy_ok wf dsp /\ uses dsp dop 1 0 /\ (forall ty, sv_bounds dsp ty <> 0 -> typed dop (sv_bounds dsp ty)) /\ typed dop 1 /\ typed dop 3 /\
  compute_av 3 dsp (sd_ctx 1 1 1) (sd_ctx 1 1 3) 1 31 = AvOk (mkAvd 19 0 4294967295) 9.
Proof.
  split; [|split; [|split; [|split; [|split]]]].
  - destruct sd_ok as (_ & _ & R). split; [exact (run_wf dop_ops 8 ltac:(discriminate))|]. split; [exact dop_table|exact R].
  - split; [reflexivity|]. split; [reflexivity|]. intros ty B. change (op_tattr dop (ty - 1)) with (sv_attr sd (ty - 1 + 1)). rewrite N.sub_add by lia. reflexivity.
  - intros ty. cbn [dsp with_tables sv_bounds sd]. destruct (ty =? 1); [|congruence]. intros _. split; [lia|]. apply dop_kind. lia.
  - split; [lia|]. apply dop_kind. lia.
  - split; [lia|]. apply dop_kind. lia.
  - vm_compute. reflexivity.
Qed.
