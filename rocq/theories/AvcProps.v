(** Property theorems for the userspace access vector cache (C27, C28, C29, C51, C52). *)
From Coq Require Import Permutation.
From Verif Require Import Base AvtabModel AvcModel AvcSpec AvcProofs.

(** C27. Whatever the server answers (partial vectors included): an enforcing check that succeeds is backed by
    an answer fetched for this triple since the last reset, which marked the domain permissive or granted
    every requested permission not granted by an event meanwhile. *)
Theorem C27_backed_by_an_answer : forall k start fixed l S tr s t c req ref ans S' d asked,
  N.of_nat k < 4294967296 -> Forall op_ok l -> arun (asys0 k start fixed) [] l = (S, tr) ->
  let o := OCheck s t c req ref ans in
  op_ok o -> mode start fixed tr = true -> astep S o = (S', OutCheck H0 d asked) ->
  exists d0, In d0 (answers fixed s t c ((o, OutCheck H0 d asked) :: tr)) /\
    (N.testbit (ad_flags d0) 0 = true \/
     (req <> 0 /\ forall b, N.testbit req b = true ->
        N.testbit (ad_allowed d0) b = true \/ N.testbit (grants fixed s t c tr) b = true)).
Proof.
  intros k start fixed l S tr s t c req ref ans S' d asked HK HO E o Ho M A.
  destruct (reach k start fixed l S tr HK HO E) as [I _].
  assert (HP : N.of_nat (length (pool_of k)) < 4294967296) by (rewrite pool_length; exact HK).
  exact (check_general (pool_of k) start fixed tr S S' s t c req ref ans H0 d asked HP Ho I A M eq_refl).
Qed.
Print Assumptions C27_backed_by_an_answer.

(** C27. When every answer decides all permissions (as the kernel's do), an enforcing check that is decided
    agrees with the newest answer, updated by the events since. *)
Theorem C27_newest_answer_decides_partial : forall k start fixed l S tr s t c req ref ans S' r d asked,
  N.of_nat k < 4294967296 -> Forall op_ok l -> Forall full_answer l -> arun (asys0 k start fixed) [] l = (S, tr) ->
  let o := OCheck s t c req ref ans in
  op_ok o -> full_answer o -> mode start fixed tr = true -> astep S o = (S', OutCheck r d asked) -> r = H0 \/ r = HEacces ->
  exists d0, view fixed s t c ((o, OutCheck r d asked) :: tr) = Some d0 /\ (r = H0 <-> lets d0 req).
Proof.
  intros k start fixed l S tr s t c req ref ans S' r d asked HK HO HF E o Ho Hf M A R.
  destruct (reach k start fixed l S tr HK HO E) as [I _]. pose proof (reach_full k start fixed l S tr HK HO HF E) as V.
  assert (HP : N.of_nat (length (pool_of k)) < 4294967296) by (rewrite pool_length; exact HK).
  exact (check_full (pool_of k) start fixed tr S S' s t c req ref ans r d asked HP Ho I A Hf V M R).
Qed.
Print Assumptions C27_newest_answer_decides_partial.

(** C27. Without events, it is the newest answer itself. *)
Theorem C27_newest_answer_partial : forall k start fixed l S tr s t c req ref ans S' d asked,
  N.of_nat k < 4294967296 -> Forall op_ok l -> Forall full_answer l -> Forall no_control l -> arun (asys0 k start fixed) [] l = (S, tr) ->
  let o := OCheck s t c req ref ans in
  op_ok o -> full_answer o -> mode start fixed tr = true -> astep S o = (S', OutCheck H0 d asked) ->
  exists d0, last_answer fixed s t c ((o, OutCheck H0 d asked) :: tr) = Some d0 /\ lets d0 req.
Proof.
  intros k start fixed l S tr s t c req ref ans S' d asked HK HO HF HN E o Ho Hf M A.
  destruct (C27_newest_answer_decides_partial k start fixed l S tr s t c req ref ans S' H0 d asked HK HO HF E Ho Hf M A (or_introl eq_refl)) as (d0 & V & L).
  exists d0. split; [|apply L; reflexivity]. rewrite <- V. symmetry. apply view_last. constructor; [exact I|].
  destruct (arun_trace _ _ _ _ _ E) as (new & -> & M1). rewrite app_nil_r. rewrite Forall_forall in *. intros x Hx. apply HN.
  apply in_rev. rewrite <- M1. apply in_map. exact Hx.
Qed.
Print Assumptions C27_newest_answer_partial.

(** C27. The other outcomes: an error is the server's, an outdated answer, or a cache without nodes; and only
    the enforcing mode denies. *)
Theorem C27_other_results : forall k start fixed l S tr s t c req ref ans S' r d asked,
  N.of_nat k < 4294967296 -> Forall op_ok l -> arun (asys0 k start fixed) [] l = (S, tr) ->
  let o := OCheck s t c req ref ans in
  op_ok o -> astep S o = (S', OutCheck r d asked) ->
  match r with
  | H0 => True
  | HEacces => mode start fixed tr = true
  | HEagain => asked = true /\ exists d1, ans = AnsAvd d1 /\ ad_seqno d1 < notified tr
  | HEnomem => k = 0%nat
  | HErr => asked = true /\ (ans = AnsErr \/ (ans = AnsEinval /\ mode start fixed tr = true))
  end.
Proof.
  intros k start fixed l S tr s t c req ref ans S' r d asked HK HO E o Ho A.
  destruct (reach k start fixed l S tr HK HO E) as [I _].
  assert (HP : N.of_nat (length (pool_of k)) < 4294967296) by (rewrite pool_length; exact HK).
  destruct (check_entry (pool_of k) start fixed tr S S' s t c req ref ans r d asked HP Ho I A)
    as [(Q1 & Q2 & Q3 & Q4 & Q5 & Q6)|(i & _ & _ & _ & _ & _ & _ & _ & Q & _)].
  - destruct r; [exact Logic.I|destruct (Q3 eq_refl)|auto| |auto].
    pose proof (pool_length k) as L. rewrite (Q5 eq_refl) in L. symmetry. exact L.
  - cbv zeta in Q. rewrite Q. destruct (_ || _) eqn:B; [exact Logic.I|].
    destruct (mode start fixed tr); [reflexivity|]. cbn [negb orb] in B. rewrite orb_true_r in B. discriminate.
Qed.
Print Assumptions C27_other_results.

(** Two nodes: three triples compete, one is evicted and asked for again with another answer. *)
Definition av (a : N) : avdec := mkAD a 4294967295 0 4294967295 1 0.
Definition demo_ops : list aop :=
  [OCheck 1 2 3 3 (Some 0) (AnsAvd (av 3)); OCheck 1 2 4 1 None (AnsAvd (av 0)); OCheck 1 2 5 1 None (AnsAvd (av 1));
   OCheck 1 2 3 3 (Some 0) (AnsAvd (av 1)); OControl EvGrant 1 0 4 1 2 0].
Example C27_case : Forall op_ok demo_ops /\ Forall full_answer demo_ops /\
  map (fun x => match snd x with OutCheck r _ a => Some (r, a) | _ => None end) (snd (arun (asys0 2 true false) [] demo_ops)) =
  [None; Some (HEacces, true); Some (H0, true); Some (HEacces, true); Some (H0, true)] /\
  view false 1 2 3 (snd (arun (asys0 2 true false) [] demo_ops)) = Some (av 1).
Proof.
  split; [repeat constructor; cbn; lia|]. split; [repeat constructor|]. split; vm_compute; reflexivity.
Qed.

(** C27. With answers that leave permissions undecided the newest answer need not decide: the caller's
    reference still names the node of an older answer. *)
Definition part_ops : list aop :=
  [OCheck 1 2 3 1 (Some 0) (AnsAvd (mkAD 1 1 0 0 1 0)); OCheck 1 2 3 2 None (AnsAvd (mkAD 2 3 0 0 1 0))].
Theorem C27_undecided_refuted : exists S tr S' d,
  Forall op_ok part_ops /\ arun (asys0 4 true false) [] part_ops = (S, tr) /\ mode true false tr = true /\
  astep S (OCheck 1 2 3 1 (Some 0) AnsErr) = (S', OutCheck H0 d false) /\
  last_answer false 1 2 3 tr = Some (mkAD 2 3 0 0 1 0) /\ ~ lets (mkAD 2 3 0 0 1 0) 1.
Proof.
  exists (fst (arun (asys0 4 true false) [] part_ops)), (snd (arun (asys0 4 true false) [] part_ops)).
  exists (fst (astep (fst (arun (asys0 4 true false) [] part_ops)) (OCheck 1 2 3 1 (Some 0) AnsErr))), (mkAD 1 1 0 0 1 0).
  split; [repeat constructor; cbn; lia|]. split; [destruct (arun _ _ _); reflexivity|]. split; [vm_compute; reflexivity|].
  split; [|split; [vm_compute; reflexivity|]].
  - rewrite (surjective_pairing (astep _ _)) at 1. f_equal.
  - intros [H|[_ H]]; [vm_compute in H; discriminate|]. specialize (H 0 eq_refl). vm_compute in H. discriminate.
Qed.
Print Assumptions C27_undecided_refuted.

(** C28. After a revocation, an enforcing check of a revoked permission succeeds only on an answer fetched
    afterwards and not older than the revocation, on a later grant event, or for a permissive domain. *)
Theorem C28_revoked_partial : forall k start fixed l1 l2 S tr s t c req ref ans S' d asked ev s' t' c' p seq ret b,
  N.of_nat k < 4294967296 -> let ctl := OControl ev s' t' c' p seq ret in
  Forall op_ok (l1 ++ ctl :: l2) -> Forall full_answer (l1 ++ ctl :: l2) ->
  arun (asys0 k start fixed) [] (l1 ++ ctl :: l2) = (S, tr) ->
  (ev = EvRevoke \/ ev = EvTryRevoke) -> concerns s' t' c' s t c = true -> N.testbit (ev_perms ev p ret) b = true ->
  let o := OCheck s t c req ref ans in
  op_ok o -> full_answer o -> mode start fixed tr = true -> N.testbit req b = true -> astep S o = (S', OutCheck H0 d asked) ->
  exists newer older, (o, OutCheck H0 d asked) :: tr = newer ++ (ctl, OutNone) :: older /\ length newer = Datatypes.S (length l2) /\
    ((exists x d1, In x newer /\ stored_answer s t c x = Some d1 /\ seq <= ad_seqno d1) \/
     (exists x s1 t1 c1 p1 q1 r1, In x newer /\ fst x = OControl EvGrant s1 t1 c1 p1 q1 r1 /\ concerns s1 t1 c1 s t c = true /\
        N.testbit p1 b = true) \/
     (exists d1, In d1 (answers fixed s t c ((o, OutCheck H0 d asked) :: tr)) /\ N.testbit (ad_flags d1) 0 = true)).
Proof.
  intros k start fixed l1 l2 S tr s t c req ref ans S' d asked ev s' t' c' p seq ret b HK ctl HO HF E Hev Hc Hb o Ho Hf M Hq A.
  assert (HO2 : Forall op_ok ((l1 ++ ctl :: l2) ++ [o])) by (apply Forall_app; auto).
  assert (E2 : arun (asys0 k start fixed) [] ((l1 ++ ctl :: l2) ++ [o]) = (S', (o, OutCheck H0 d asked) :: tr)).
  { rewrite arun_app, E. cbn [arun]. fold o in A. rewrite A. reflexivity. }
  destruct (reach _ _ _ _ _ _ HK HO2 E2) as [_ SQ].
  destruct (C27_newest_answer_decides_partial k start fixed _ S tr s t c req ref ans S' H0 d asked HK HO HF E Ho Hf M A (or_introl eq_refl)) as (d0 & V & L).
  rewrite arun_app in E. destruct (arun (asys0 k start fixed) [] l1) as [S1 tr1] eqn:R1. cbn [arun astep ctl] in E.
  destruct (arun_trace _ _ _ _ _ E) as (new & Et & Mn).
  exists ((o, OutCheck H0 d asked) :: new), tr1. fold ctl in Et. split; [rewrite Et; reflexivity|].
  split; [cbn [length]; f_equal; rewrite <- (map_length fst), Mn; apply rev_length|].
  destruct (proj1 L eq_refl) as [Fl|[_ AL]].
  - right. right. destruct (view_answers _ _ _ _ _ _ V) as (d1 & H1 & H2). exists d1. split; [exact H1|congruence].
  - specialize (AL b Hq). rewrite Et in V.
    change ((OCheck s t c req ref ans, OutCheck H0 d asked) :: new ++ (ctl, OutNone) :: tr1) with
      (((o, OutCheck H0 d asked) :: new) ++ (ctl, OutNone) :: tr1) in V.
    destruct (view_revoked fixed s t c b ev s' t' c' p seq ret OutNone tr1 Hev Hc Hb _ _ V AL)
      as [(n1 & x & n2 & d1 & En & ST)|G]; [left|right; left; exact G].
    exists x, d1. split; [rewrite En; apply in_app_iff; right; left; reflexivity|]. split; [exact ST|].
    assert (Q : notified (n2 ++ (ctl, OutNone) :: tr1) <= ad_seqno d1).
    { eapply (SQ n1 x); [|exact ST]. rewrite Et. change ((o, OutCheck H0 d asked) :: new ++ (ctl, OutNone) :: tr1) with
        (((o, OutCheck H0 d asked) :: new) ++ (ctl, OutNone) :: tr1). rewrite En, <- app_assoc. reflexivity. }
    pose proof (notified_app n2 (ctl, OutNone) tr1) as Q2. cbn [notified fst ctl] in Q2. lia.
Qed.
Print Assumptions C28_revoked_partial.

(** C28. Whatever the answers: after a policy load or reset to a sequence number, only answers not older count. *)
Theorem C28_answers_not_outdated : forall k start fixed l S tr newer x older s t c d1,
  N.of_nat k < 4294967296 -> Forall op_ok l -> arun (asys0 k start fixed) [] l = (S, tr) ->
  tr = newer ++ x :: older -> stored_answer s t c x = Some d1 -> notified older <= ad_seqno d1.
Proof.
  intros k start fixed l S tr newer x older s t c d1 HK HO E. destruct (reach k start fixed l S tr HK HO E) as [_ Q]. apply Q.
Qed.
Print Assumptions C28_answers_not_outdated.

(** Permission 1 (of 3) revoked with number 7; the old answer (number 1) is refused, number 7 is accepted. *)
Definition revoke_ops : list aop :=
  [OCheck 1 2 3 3 (Some 0) (AnsAvd (av 3))] ++ OControl EvRevoke 1 0 3 1 7 0 ::
  [OCheck 1 2 3 1 (Some 0) AnsErr; OCheck 1 2 3 2 None AnsErr; OCheck 2 2 3 1 None (AnsAvd (av 3)); OReset;
   OCheck 1 2 3 1 (Some 0) (AnsAvd (av 3))].
Example C28_case : Forall op_ok revoke_ops /\ Forall full_answer revoke_ops /\ concerns 1 0 3 1 2 3 = true /\
  map (fun x => match snd x with OutCheck r _ a => Some (r, a) | _ => None end) (snd (arun (asys0 4 true false) [] revoke_ops)) =
  [Some (HEagain, true); None; Some (HEagain, true); Some (H0, false); Some (HEacces, false); None; Some (H0, true)] /\
  snd (astep (fst (arun (asys0 4 true false) [] revoke_ops)) (OCheck 1 2 3 1 None (AnsAvd (mkAD 3 4294967295 0 0 7 0)))) =
  OutCheck H0 (mkAD 3 4294967295 0 0 7 0) true.
Proof.
  split; [repeat constructor; cbn; lia|]. split; [repeat constructor|]. split; [reflexivity|]. split; vm_compute; reflexivity.
Qed.

(** C28. With undecided answers the triple occupies two nodes and the revocation reaches one of them. *)
Definition dup_ops : list aop := part_ops ++ [OControl EvRevoke 1 2 3 3 7 0].
Theorem C28_undecided_refuted : exists S tr S' d, Forall op_ok dup_ops /\ arun (asys0 4 true false) [] dup_ops = (S, tr) /\
  astep S (OCheck 1 2 3 1 (Some 0) AnsErr) = (S', OutCheck H0 d false).
Proof.
  exists (fst (arun (asys0 4 true false) [] dup_ops)), (snd (arun (asys0 4 true false) [] dup_ops)).
  exists (fst (astep (fst (arun (asys0 4 true false) [] dup_ops)) (OCheck 1 2 3 1 (Some 0) AnsErr))), (mkAD 1 1 0 0 1 0).
  split; [repeat constructor; cbn; lia|]. split; [destruct (arun _ _ _); reflexivity|].
  rewrite (surjective_pairing (astep _ _)) at 1. f_equal.
Qed.
Print Assumptions C28_undecided_refuted.

(** C29. After any history the nodes of the slots and the free list are the nodes allocated at the start,
    each once, every entry is in the slot of its hash and the active count is exact. *)
Theorem C29_structure : forall k start fixed l S tr, N.of_nat k < 4294967296 -> Forall op_ok l ->
  arun (asys0 k start fixed) [] l = (S, tr) ->
  sound (pool_of k) (s_cache S) /\ (length (concat (ca_slots (s_cache S))) + length (ca_free (s_cache S)) = k)%nat.
Proof.
  intros k start fixed l S tr HK HO E. destruct (reach k start fixed l S tr HK HO E) as [(SD & _) _]. split; [exact SD|].
  destruct SD as (_ & _ & PE & _). apply Permutation_length in PE. rewrite app_length, pool_length in PE. exact PE.
Qed.
Print Assumptions C29_structure.

(** C29. Claiming a node succeeds when there is one, takes a free node first, otherwise replaces exactly one
    entry, and leaves all other entries as they are (up to their recently-used flags). *)
Theorem C29_insert : forall pool C s t c d, sound pool C -> N.of_nat (length pool) < 4294967296 -> pool <> [] -> s <> 0 -> t <> 0 ->
  ca_notif C <= ad_seqno d ->
  exists C' i, avc_insert C s t c d = (C', inr i) /\ sound pool C' /\ ca_heap C' i = mkAE s t c d 0 true /\
    (forall j, In j (concat (ca_slots C')) <-> j = i \/ (In j (concat (ca_slots C)) /\ j <> i)) /\
    (forall j, j <> i -> ae_s (ca_heap C' j) = ae_s (ca_heap C j) /\ ae_t (ca_heap C' j) = ae_t (ca_heap C j) /\
       ae_c (ca_heap C' j) = ae_c (ca_heap C j) /\ ae_avd (ca_heap C' j) = ae_avd (ca_heap C j) /\
       ae_create (ca_heap C' j) = ae_create (ca_heap C j)) /\
    (ca_free C <> [] -> ~ In i (concat (ca_slots C))).
Proof.
  intros pool C s t c d SD HP NE Hs Ht Hn. pose proof (insert_spec pool C s t c d SD HP Hs Ht) as H.
  destruct (avc_insert C s t c d) as [C' [r|i]].
  - exfalso. destruct r; try contradiction; [destruct H; lia|destruct H; contradiction].
  - destruct H as (_ & S1 & (T1 & T2 & _ & T4) & E). exists C', i. split; [reflexivity|]. split; [exact S1|]. split; [exact E|]. split; [exact T1|].
    split.
    + intros j Hj. destruct (T2 j Hj) as (E1 & E2 & E3 & E4 & E5). auto 6.
    + intros F. destruct (ca_free C) as [|q rest] eqn:EF; [contradiction|]. destruct T4 as [-> _]. intros Q.
      eapply (not_both pool C q SD Q). rewrite EF. left. reflexivity.
Qed.
Print Assumptions C29_insert.

(** C29. In a full cache the entry replaced has not been used since the flags were last swept, when there is
    such an entry. *)
Theorem C29_replaces_unused : forall pool C s t c, sound pool C -> ca_free C = [] ->
  (exists j, In j (concat (ca_slots C)) /\ ae_used (ca_heap C j) = false) ->
  exists C' i, avc_claim_node C s t c = (C', Some i) /\ ae_used (ca_heap C i) = false.
Proof. exact claim_unused. Qed.
Print Assumptions C29_replaces_unused.

(** The demo history leaves both of two nodes in use, none free; a third triple replaced one. *)
Example C29_case : Forall op_ok demo_ops /\
  let C := s_cache (fst (arun (asys0 2 true false) [] demo_ops)) in
  ca_active C = 2 /\ ca_free C = [] /\ length (concat (ca_slots C)) = 2%nat /\
  map (fun i => (ae_c (ca_heap C i), ae_used (ca_heap C i))) (concat (ca_slots C)) = [(3, true); (5, false)].
Proof. split; [repeat constructor; cbn; lia|]. vm_compute. repeat split. Qed.

(** C51. If some requested permission is not allowed by the decision, the message says denied and lists exactly
    the requested permissions that are neither allowed nor dontaudited (no message if there is none). *)
Theorem C51_denied_message : forall req d r b0, N.testbit req b0 = true -> N.testbit (ad_allowed d) b0 = false ->
  exists perms, message (avc_audit req d r) = (if perms =? 0 then None else Some (perms, true)) /\
    forall b, N.testbit perms b = true <->
      N.testbit req b = true /\ N.testbit (ad_allowed d) b = false /\ N.testbit (ad_auditdeny d) b = true.
Proof.
  intros req d r b0 H1 H2. unfold message, avc_audit.
  destruct (N.eqb_spec (N.ldiff req (ad_allowed d)) 0) as [Z|Z]; cbn [negb].
  { apply N.eqb_eq in Z. rewrite (proj1 (granted_bits _ _) Z b0 H1) in H2. discriminate. }
  exists (N.land (N.ldiff req (ad_allowed d)) (ad_auditdeny d)). split.
  - rewrite (proj2 (N.eqb_neq _ _) Z). destruct (_ =? 0); reflexivity.
  - intro b. rewrite N.land_spec, N.ldiff_spec. destruct (N.testbit req b), (N.testbit (ad_allowed d) b), (N.testbit (ad_auditdeny d) b); cbn; intuition discriminate.
Qed.
Print Assumptions C51_denied_message.

(** C51. If all requested permissions are allowed and the check succeeded, the message says granted and lists
    exactly the requested permissions marked auditallow (no message if there is none). *)
Theorem C51_granted_message : forall req d, (forall b, N.testbit req b = true -> N.testbit (ad_allowed d) b = true) ->
  exists perms, message (avc_audit req d H0) = (if perms =? 0 then None else Some (perms, false)) /\
    forall b, N.testbit perms b = true <-> N.testbit req b = true /\ N.testbit (ad_auditallow d) b = true.
Proof.
  intros req d H. apply granted_bits in H. unfold message, avc_audit. rewrite H. cbn [negb orb]. rewrite orb_false_r.
  exists (N.land req (ad_auditallow d)). split.
  - destruct (N.eqb_spec req 0) as [->|Rz]; [reflexivity|]. rewrite N.eqb_refl. cbn [negb orb]. destruct (N.land req (ad_auditallow d) =? 0); reflexivity.
  - intro b. rewrite N.land_spec, andb_true_iff. reflexivity.
Qed.
Print Assumptions C51_granted_message.

(** C51. The decision a decided check audits with is the newest answer (updated by events): the same audit
    vectors, and in enforcing mode for a domain that is not permissive the same permissions. *)
Theorem C51_audits_newest_answer_partial : forall k start fixed l S tr s t c req ref ans S' r d asked,
  N.of_nat k < 4294967296 -> Forall op_ok l -> Forall full_answer l -> arun (asys0 k start fixed) [] l = (S, tr) ->
  let o := OCheck s t c req ref ans in
  op_ok o -> full_answer o -> mode start fixed tr = true -> astep S o = (S', OutCheck r d asked) -> r = H0 \/ r = HEacces ->
  exists d0, view fixed s t c ((o, OutCheck r d asked) :: tr) = Some d0 /\
    ad_auditallow d = ad_auditallow d0 /\ ad_auditdeny d = ad_auditdeny d0 /\
    (N.testbit (ad_flags d0) 0 = false -> ad_allowed d = ad_allowed d0).
Proof.
  intros k start fixed l S tr s t c req ref ans S' r d asked HK HO HF E o Ho Hf M A R.
  destruct (reach k start fixed l S tr HK HO E) as [I _]. pose proof (reach_full k start fixed l S tr HK HO HF E) as V.
  assert (HP : N.of_nat (length (pool_of k)) < 4294967296) by (rewrite pool_length; exact HK).
  exact (check_audit (pool_of k) start fixed tr S S' s t c req ref ans r d asked HP Ho I A Hf V M R).
Qed.
Print Assumptions C51_audits_newest_answer_partial.

(** Requests of 7 against allowed 1, dontaudit of 2; and of 3 all granted with auditallow of 2; and of 0. *)
Example C51_case : message (avc_audit 7 (mkAD 1 4294967295 0 4294967293 1 0) HEacces) = Some (4, true) /\
  message (avc_audit 3 (mkAD 1 4294967295 0 4294967293 1 0) HEacces) = None /\
  message (avc_audit 3 (mkAD 3 4294967295 2 4294967295 1 0) H0) = Some (2, false) /\
  message (avc_audit 0 (mkAD 3 4294967295 2 4294967295 1 0) HEacces) = None.
Proof. repeat split. Qed.

(** C52. The SID for a new object returned by the cache was given by the server for this triple since the last
    reset. *)
Theorem C52_create_sid : forall k start fixed l S tr s t c ans sid S' v a1 a2,
  N.of_nat k < 4294967296 -> Forall op_ok l -> arun (asys0 k start fixed) [] l = (S, tr) ->
  let o := OCreate s t c ans sid in
  op_ok o -> astep S o = (S', OutCreate (Some v) a1 a2) ->
  created fixed s t c v ((o, OutCreate (Some v) a1 a2) :: tr).
Proof.
  intros k start fixed l S tr s t c ans sid S' v a1 a2 HK HO E o Ho A.
  destruct (reach k start fixed l S tr HK HO E) as [I _].
  assert (HP : N.of_nat (length (pool_of k)) < 4294967296) by (rewrite pool_length; exact HK).
  exact (create_backed (pool_of k) start fixed tr S S' s t c ans sid v a1 a2 HP Ho I A).
Qed.
Print Assumptions C52_create_sid.

(** The second request is served from the cache, the third (after a policy load) is asked again. *)
Example C52_case :
  map snd (snd (arun (asys0 2 true false) [] [OCreate 1 2 3 (AnsAvd (av 1)) (Some 9); OCreate 1 2 3 AnsErr None; OLoad 1;
    OCreate 1 2 3 (AnsAvd (av 1)) (Some 8)])) =
  [OutCreate (Some 8) true true; OutNone; OutCreate (Some 9) false false; OutCreate (Some 9) true true].
Proof. vm_compute. reflexivity. Qed.
