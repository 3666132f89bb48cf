(** Property theorems for access decisions (C16, C17, C18, C49, C50). *)
From Verif Require Import Base EbitmapModel EbitmapSpec EbitmapProofs MlsModel MlsSpec MlsDemo
  AvtabModel AvtabSpec AvtabProofs CondModel ServicesModel ServicesSpec ServicesProofs ServicesDemo.

(** C16. The decision: a permission is allowed exactly when granted; audit vectors are the union and the
    intersection of the matching rules. *)
Theorem C16_decision : forall P rank fuel s t cls req, spolicy_ok wf P -> ranked P rank ->
  (rank (c_type s) < fuel)%nat -> ctx_ok s -> ctx_ok t -> role_known P s -> role_known P t ->
  1 <= cls <= sv_nclasses P ->
  exists d reason, compute_av fuel P s t cls req = AvOk d reason /\ forall p,
    (N.testbit (v_allowed d) p = true <-> granted P cls p s t) /\
    (N.testbit (v_auditallow d) p = true <->
       exists n, rule_for P (c_type s) (c_type t) cls 1 n /\ N.testbit (d_data (n_datum n)) p = true) /\
    (N.testbit (v_auditdeny d) p = true <->
       p < 32 /\ forall n, rule_for P (c_type s) (c_type t) cls 2 n -> N.testbit (d_data (n_datum n)) p = true).
Proof.
  intros P rank fuel s t cls req OK RK HF Hs Ht Rs Rt Hc.
  destruct (compute_av_ok P OK rank RK fuel s t cls req HF Hs Ht Rs Rt Hc) as (d & r & E & H & _).
  exists d, r. split; [exact E|exact H].
Qed.
Print Assumptions C16_decision.

(** C16. A class outside the policy is refused. *)
Theorem C16_unknown_class : forall P fuel s t cls req, cls = 0 \/ sv_nclasses P < cls ->
  compute_av (S fuel) P s t cls req = AvEinval.
Proof.
  intros P fuel s t cls req H. cbn [compute_av]. destruct ((cls =? 0) || (sv_nclasses P <? cls)) eqn:E; [reflexivity|lia].
Qed.
Print Assumptions C16_unknown_class.

(** The policy [sd]: the request of all six permissions by type 1 (bounded by 2, different users) on type 3.
    Attribute rule 0, 1; own rule 2, 3; conditional rule 4 (5 is disabled); the constraint takes 1 and the
    bounds take 3. *)
Example C16_case : spolicy_ok wf sd /\ ranked sd (fun ty => if ty =? 1 then 1%nat else 0%nat) /\
  ctx_ok (sd_ctx 1 1 1) /\ ctx_ok (sd_ctx 2 2 3) /\ role_known sd (sd_ctx 1 1 1) /\ role_known sd (sd_ctx 2 2 3) /\
  compute_av 3 sd (sd_ctx 1 1 1) (sd_ctx 2 2 3) 1 63 = AvOk (mkAvd 21 1 4294967294) 11 /\
  compute_av 3 sd (sd_ctx 1 1 2) (sd_ctx 1 2 2) 2 7 = AvOk (mkAvd 7 0 4294967295) 0 /\
  compute_av 3 sd (sd_ctx 1 2 2) (sd_ctx 1 1 2) 2 7 = AvOk (mkAvd 4 0 4294967295) 4.
Proof.
  split; [exact sd_ok|]. split; [exact sd_ranked|]. split; [apply sd_ctx_ok; lia|]. split; [apply sd_ctx_ok; lia|].
  split; [apply sd_role; lia|]. split; [apply sd_role; lia|]. split; [vm_compute; reflexivity|]. split; vm_compute; reflexivity.
Qed.

(** C17. Evaluating the writing of a formula gives its truth value. *)
Theorem C17_truth_value : forall P s t x l f, cwrites l f -> (cdepth f <= 5)%nat -> sets_ok f ->
  (x = None -> no_third f) -> ctx_ok s -> ctx_ok t -> (forall c, x = Some c -> ctx_ok c) ->
  role_known P s -> role_known P t ->
  exists b, constraint_expr_eval P s t x l = CVal b /\ (b = true <-> cholds P s t x f).
Proof. intros P s t x l f W D V T Hs Ht Hx Rs Rt. exact (constraint_eval_ok P s t x Hs Ht Hx Rs Rt l f W D V T). Qed.
Print Assumptions C17_truth_value.

(** C17. What is accepted when a policy is validated are exactly the writings of formulas within five cells,
    without stray fields, and mentioning a third context only where there is one. *)
Theorem C17_validated_iff_written : forall xt l, validate_cexpr xt l = true <->
  (exists f, cwrites l f /\ (cdepth f <= 5)%nat /\ (xt = false -> no_third f)) /\
  Forall (fun e => (ce_type e <> 5 -> ebitmap_is_empty (ce_names e) = true) /\
                   (ce_type e < 4 -> ce_op e = 0 /\ ce_attr e = 0)) l.
Proof. exact validate_cexpr_iff. Qed.
Print Assumptions C17_validated_iff_written.

(** C17. A list is the writing of at most one formula. *)
Theorem C17_unique_reading : forall l f g, cwrites l f -> cwrites l g -> f = g.
Proof. exact cwrites_unique. Qed.
Print Assumptions C17_unique_reading.

(** C17, the part about malformed expressions that holds: for expressions the policy reader accepts, no
    evaluation ends with the negative value that the callers treat as "satisfied". Missing: see below. *)
Theorem C17_fail_closed_partial : forall P s t x xt l, read_cons_depth xt l 0 = true ->
  constraint_expr_eval P s t x l <> CNeg.
Proof. intros P s t x xt l H. exact (read_no_neg P s t x xt l true [] 0%nat eq_refl H). Qed.
Print Assumptions C17_fail_closed_partial.

(** C17 refuted for arbitrary expressions: the policy [sd] with a constraint on every permission of class 1
    whose expression is a lone "not" grants the permissions all the same, and a validatetrans rule of that
    kind lets every transition pass. *)
Definition sd_bad : spolicy :=
  mkSP (sv_te sd) (sv_cond sd) (sv_attr sd) 2 (fun _ => [mkCN 4294967295 [mkCE 1 0 0 ebitmap_init]])
       (fun _ => [mkCN 0 [mkCE 1 0 0 ebitmap_init]]) (sv_dom sd) (sv_role_allow sd) 2 3 (sv_bounds sd).
Theorem C17_fail_closed_refuted : exists P l, (forall f, ~ cwrites l f) /\
  (forall c, In c (sv_cons P 1) -> cn_expr c = l /\ cn_perms c = 4294967295) /\ sv_cons P 1 <> [] /\
  (forall c, In c (sv_vtrans P 1) -> cn_expr c = l) /\ sv_vtrans P 1 <> [] /\
  constraint_expr_eval P (sd_ctx 1 1 2) (sd_ctx 2 2 3) None l = CNeg /\
  compute_av 3 P (sd_ctx 1 1 2) (sd_ctx 2 2 3) 1 7 = AvOk (mkAvd 23 0 4294967295) 0 /\
  validate_transition P (sd_ctx 1 1 2) (sd_ctx 2 2 3) (sd_ctx 1 1 1) 1 = VtOk.
Proof.
  exists sd_bad, [mkCE 1 0 0 ebitmap_init].
  split. { intros f W. pose proof (cwrites_cssem _ _ W [] []) as E. cbn in E. discriminate. }
  split. { intros c [<-|[]]. split; reflexivity. } split; [discriminate|].
  split. { intros c [<-|[]]. reflexivity. } split; [discriminate|].
  split; [vm_compute; reflexivity|]. split; vm_compute; reflexivity.
Qed.
Print Assumptions C17_fail_closed_refuted.

(** C17. Two more ways in which malformed lists do not simply evaluate to "not satisfied": left-over operands
    make the first one decide, and an error after the first element releases uninitialised pointers. *)
Theorem C17_malformed_refuted : exists P s t l1 l2,
  (forall f, ~ cwrites l1 f) /\ constraint_expr_eval P s t None l1 = CVal true /\
  (forall f, ~ cwrites l2 f) /\ constraint_expr_eval P s t None l2 = CUB.
Proof.
  exists sd, (sd_ctx 1 1 1), (sd_ctx 1 2 2), [mkCE 4 1 1 ebitmap_init; mkCE 4 4 1 ebitmap_init],
    [mkCE 4 1 1 ebitmap_init; mkCE 2 0 0 ebitmap_init].
  split. { intros f W. pose proof (cwrites_cssem _ _ W [] []) as E. cbn in E. discriminate. }
  split; [vm_compute; reflexivity|].
  split. { intros f W. pose proof (cwrites_cssem _ _ W [] []) as E. cbn in E. discriminate. }
  vm_compute; reflexivity.
Qed.
Print Assumptions C17_malformed_refuted.

Example C17_case : cwrites sd_expr sd_form /\ (cdepth sd_form <= 5)%nat /\ sets_ok sd_form /\ no_third sd_form /\
  validate_cexpr false sd_expr = true /\ read_cons_depth false sd_expr 0 = true /\
  validate_cexpr true sd_vexpr = true /\ validate_cexpr false sd_vexpr = false /\
  constraint_expr_eval sd (sd_ctx 1 1 1) (sd_ctx 2 1 3) None sd_expr = CVal true /\
  constraint_expr_eval sd (sd_ctx 1 1 1) (sd_ctx 2 2 3) None sd_expr = CVal false.
Proof.
  split; [exact sd_expr_writes|]. split; [cbn; lia|]. split; [apply sd_sets|]. split; [split; exact I|].
  repeat (split; [vm_compute; reflexivity|]). vm_compute; reflexivity.
Qed.

(** C18. At every level of nesting, what a type bounded that many times may do is also in the decision of
    the bounding pair; the computation ends for every acyclic bounds relation. *)
Theorem C18_bounded : forall P rank n s t cls req req', spolicy_ok wf P -> ranked P rank ->
  ctx_ok s -> ctx_ok t -> role_known P s -> role_known P t -> 1 <= cls <= sv_nclasses P ->
  (forall m, (m < n)%nat -> sv_bounds P (c_type (fst (up P m s t))) <> 0) ->
  exists f d r f' d' r', compute_av f P s t cls req = AvOk d r /\
    compute_av f' P (fst (up P n s t)) (snd (up P n s t)) cls req' = AvOk d' r' /\
    forall p, N.testbit (v_allowed d) p = true -> N.testbit (v_allowed d') p = true.
Proof.
  intros P rank n s t cls req req' OK RK Hs Ht Rs Rt Hc HB.
  assert (U : forall m, (forall k, (k < m)%nat -> sv_bounds P (c_type (fst (up P k s t))) <> 0) ->
    ctx_ok (fst (up P m s t)) /\ ctx_ok (snd (up P m s t)) /\ role_known P (fst (up P m s t)) /\ role_known P (snd (up P m s t))).
  { induction m as [|m IH]; intros H; [cbn; auto|].
    destruct (IH (fun k L => H k (Nat.lt_lt_succ_r _ _ L))) as (H1 & H2 & H3 & H4). specialize (H m (Nat.lt_succ_diag_r m)).
    cbn [up]. destruct (up P m s t) as [s' t']. cbn [fst snd] in *. unfold parent_src, parent_tgt.
    split; [apply ctx_ok_parent; assumption|].
    destruct (N.eqb_spec (sv_bounds P (c_type t')) 0); [auto|].
    split; [apply ctx_ok_parent; assumption|]. split; [exact H3|exact H4]. }
  destruct (U n HB) as (Hs' & Ht' & Rs' & Rt').
  destruct (compute_av_ok P OK rank RK (S (rank (c_type s))) s t cls req ltac:(lia) Hs Ht Rs Rt Hc) as (d & r & E & H & _).
  destruct (compute_av_ok P OK rank RK (S (rank (c_type (fst (up P n s t))))) _ _ cls req' (Nat.lt_succ_diag_r _) Hs' Ht' Rs' Rt' Hc) as (d' & r' & E' & H' & _).
  exists (S (rank (c_type s))), d, r, (S (rank (c_type (fst (up P n s t))))), d', r'.
  split; [exact E|]. split; [exact E'|]. intros p Hp. apply H', granted_up; [apply H; exact Hp|exact HB].
Qed.
Print Assumptions C18_bounded.

(** C18. More nesting allowance never changes a result: the decision does not depend on the fuel. *)
Theorem C18_fuel_irrelevant : forall P f g s t cls req r r', compute_av f P s t cls req = r -> r <> AvLoop ->
  compute_av g P s t cls req = r' -> r' <> AvLoop -> r = r'.
Proof.
  intros P. induction f as [|f IH]; intros g s t cls req r r' E N E' N'; [cbn in E; congruence|].
  destruct g as [|g]; [cbn in E'; congruence|]. cbn [compute_av] in E, E'.
  destruct ((cls =? 0) || (sv_nclasses P <? cls)); [congruence|].
  destruct (te_compute P (c_type s) (c_type t) cls) as [d|]; [|congruence].
  destruct (constrain P s t (sv_cons P cls) (v_allowed d)) as [a1|]; [|congruence].
  destruct (sv_bounds P (c_type s) =? 0); [congruence|].
  remember (compute_av f P _ _ cls _) as q eqn:Q. remember (compute_av g P _ _ cls _) as q' eqn:Q'.
  assert (q <> AvLoop) by (destruct q; congruence). assert (q' <> AvLoop) by (destruct q'; congruence).
  symmetry in Q, Q'. rewrite (IH _ _ _ _ _ q q' Q H Q' H0) in E. congruence.
Qed.
Print Assumptions C18_fuel_irrelevant.

(** C18. Acyclicity is needed: with a cycle of bounds, which policy validation does not reject, the
    computation recurses for ever. *)
Theorem C18_cycle_never_ends : forall P (C : N -> Prop), spolicy_ok wf P ->
  (forall ty, C ty -> sv_bounds P ty <> 0 /\ C (sv_bounds P ty)) ->
  forall fuel s t cls req, C (c_type s) -> ctx_ok s -> ctx_ok t -> role_known P s -> role_known P t ->
  1 <= cls <= sv_nclasses P -> compute_av fuel P s t cls req = AvLoop.
Proof. intros P C OK HC fuel s t cls req. apply (cycle_loops P OK C HC). Qed.
Print Assumptions C18_cycle_never_ends.

(** C18. Only the bounds of the source type mask: a permission on a bounded target type is granted to an
    unbounded source although the source may not use it on the bounding target type. *)
Definition sd_tgt : spolicy :=
  mkSP (sv_te sd) (sv_cond sd) (sv_attr sd) 2 (sv_cons sd) (sv_vtrans sd) (sv_dom sd) (sv_role_allow sd) 2 3
       (fun ty => if ty =? 3 then 1 else 0).
Theorem C18_target_only_not_masked : exists P s t,
  sv_bounds P (c_type s) = 0 /\ sv_bounds P (c_type t) <> 0 /\
  compute_av 3 P s t 1 63 = AvOk (mkAvd 23 0 4294967295) 1 /\
  compute_av 3 P s (parent_tgt P t) 1 63 = AvOk (mkAvd 0 0 4294967295) 1.
Proof.
  exists sd_tgt, (sd_ctx 1 1 2), (sd_ctx 1 2 3). split; [reflexivity|]. split; [discriminate|].
  split; vm_compute; reflexivity.
Qed.
Print Assumptions C18_target_only_not_masked.

Example C18_case : sv_bounds sd (c_type (sd_ctx 1 1 1)) <> 0 /\ up sd 1 (sd_ctx 1 1 1) (sd_ctx 1 1 3) = (sd_ctx 1 1 2, sd_ctx 1 1 3) /\
  compute_av 2 sd (sd_ctx 1 1 1) (sd_ctx 1 1 3) 1 63 = AvOk (mkAvd 23 1 4294967294) 9 /\
  compute_av 1 sd (sd_ctx 1 1 2) (sd_ctx 1 1 3) 1 63 = AvOk (mkAvd 23 0 4294967295) 1.
Proof. split; [discriminate|]. split; [reflexivity|]. split; vm_compute; reflexivity. Qed.

(** C49. The reason bits tell exactly why: 1 = no rule, 2 = constraint, 4 = role change, 8 = bounds. *)
Theorem C49_reasons : forall P rank fuel s t cls req d reason, spolicy_ok wf P -> ranked P rank ->
  (rank (c_type s) < fuel)%nat -> ctx_ok s -> ctx_ok t -> role_known P s -> role_known P t ->
  1 <= cls <= sv_nclasses P -> compute_av fuel P s t cls req = AvOk d reason ->
  reason < 16 /\
  (N.testbit reason 0 = true <-> why_te P s t cls req) /\ (N.testbit reason 1 = true <-> why_cons P s t cls req) /\
  (N.testbit reason 2 = true <-> why_role P s t cls req) /\ (N.testbit reason 3 = true <-> why_bounds P s t cls).
Proof.
  intros P rank fuel s t cls req d reason OK RK HF Hs Ht Rs Rt Hc E.
  destruct (compute_av_ok P OK rank RK fuel s t cls req HF Hs Ht Rs Rt Hc) as (d' & r' & E' & _ & R).
  assert (r' = reason) by congruence. subst r'. exact R.
Qed.
Print Assumptions C49_reasons.

(** C49. A request is fully allowed only if no reason other than bounds is given, and a denied request
    always has a reason. *)
Theorem C49_denied_has_reason : forall P rank fuel s t cls req d reason, spolicy_ok wf P -> ranked P rank ->
  (rank (c_type s) < fuel)%nat -> ctx_ok s -> ctx_ok t -> role_known P s -> role_known P t ->
  1 <= cls <= sv_nclasses P -> compute_av fuel P s t cls req = AvOk d reason ->
  N.land req (v_allowed d) <> req -> reason <> 0.
Proof.
  intros P rank fuel s t cls req d reason OK RK HF Hs Ht Rs Rt Hc E HN Z.
  destruct (C49_reasons P rank fuel s t cls req d reason OK RK HF Hs Ht Rs Rt Hc E) as (_ & R0 & R1 & R2 & R3).
  destruct (C16_decision P rank fuel s t cls req OK RK HF Hs Ht Rs Rt Hc) as (d' & r' & E' & HD).
  assert (d' = d) by congruence. subst d'. rewrite Z, N.bits_0 in R0, R1, R2, R3.
  apply HN, N.bits_inj. intro p. rewrite N.land_spec. destruct (N.testbit req p) eqn:Ep; [|reflexivity]. cbn [andb].
  destruct (N.testbit (v_allowed d) p) eqn:Ea; [reflexivity|]. exfalso.
  (* classical-free: decide each stage through the decision of the same computation *)
  destruct (te_compute_ok P OK (c_type s) (c_type t) cls ltac:(lia)) as (d0 & _ & HT).
  pose proof OK as (_ & _ & _ & _ & _ & CW & _).
  destruct (constrain_ok P s t Hs Ht Rs Rt (sv_cons P cls) (v_allowed d0) (CW cls)) as (a1 & _ & H1).
  assert (T : te_allows P (c_type s) (c_type t) cls p).
  { apply HT. destruct (N.testbit (v_allowed d0) p) eqn:E0; [reflexivity|]. exfalso.
    assert (false = true) by (apply R0; exists p; split; [exact Ep|]; rewrite <- (proj1 (HT p)); congruence). discriminate. }
  assert (CA : cons_allow P s t cls p).
  { destruct (N.testbit a1 p) eqn:E1; [apply H1 in E1; exact (proj2 E1)|]. exfalso.
    assert (false = true); [|discriminate]. apply R1. exists p. split; [exact Ep|]. split; [exact T|]. intros C.
    rewrite <- not_true_iff_false, H1 in E1. apply E1. split; [apply HT; exact T|exact C]. }
  assert (RA : role_allows P s t cls p).
  { destruct (N.testbit (role_check P s t cls a1) p) eqn:E2; [apply role_check_ok in E2; exact (proj2 E2)|]. exfalso.
    assert (false = true); [|discriminate]. apply R2. exists p. split; [exact Ep|]. split; [exact T|]. split; [exact CA|]. intros C.
    rewrite <- not_true_iff_false, role_check_ok, H1 in E2. apply E2. split; [split; [apply HT; exact T|exact CA]|exact C]. }
  assert (false = true); [|discriminate]. apply R3. exists p. split; [split; [exact T|split; [exact CA|exact RA]]|].
  rewrite <- (proj1 (HD p)). congruence.
Qed.
Print Assumptions C49_denied_has_reason.

(** All four reasons occur ([C16_case] shows 1, 2, 8 together and 4 alone). *)
Example C49_case : compute_av 3 sd (sd_ctx 1 1 1) (sd_ctx 2 2 3) 1 63 = AvOk (mkAvd 21 1 4294967294) 11 /\
  compute_av 3 sd (sd_ctx 1 2 2) (sd_ctx 1 1 2) 2 7 = AvOk (mkAvd 4 0 4294967295) 4.
Proof. split; vm_compute; reflexivity. Qed.

(** C50. A relabelling is accepted exactly when every validatetrans rule of the class holds of the old
    context, the new context and the context of the process. *)
Theorem C50_validate_transition : forall P o n t cls, spolicy_ok wf P ->
  ctx_ok o -> ctx_ok n -> ctx_ok t -> role_known P o -> role_known P n -> 1 <= cls <= sv_nclasses P ->
  (validate_transition P o n t cls = VtOk <-> forall c, In c (sv_vtrans P cls) -> satisfied P o n (Some t) c) /\
  (validate_transition P o n t cls = VtEperm <-> exists c, In c (sv_vtrans P cls) /\ ~ satisfied P o n (Some t) c).
Proof.
  intros P o n t cls OK Ho Hn Ht Ro Rn Hc. pose proof OK as (_ & _ & _ & _ & _ & _ & VW & _).
  unfold validate_transition. destruct ((cls =? 0) || (sv_nclasses P <? cls)) eqn:E; [lia|].
  destruct (vtrans_ok P o n t Ho Hn Ht Ro Rn (sv_vtrans P cls) (VW cls)) as [[-> H]|[-> (c & I & H)]].
  - split; split; auto; [discriminate|]. intros (c & I & N). destruct (N (H c I)).
  - split; split; auto; [discriminate| |]; [|eauto]. intros A. destruct (H (A c I)).
Qed.
Print Assumptions C50_validate_transition.

(** C50. Unknown classes are an error, not a grant. *)
Theorem C50_unknown_class : forall P o n t cls, cls = 0 \/ sv_nclasses P < cls ->
  validate_transition P o n t cls = VtEinval.
Proof.
  intros P o n t cls H. unfold validate_transition. destruct ((cls =? 0) || (sv_nclasses P <? cls)) eqn:E; [reflexivity|lia].
Qed.
Print Assumptions C50_unknown_class.

Example C50_case : validate_transition sd (sd_ctx 1 1 1) (sd_ctx 1 2 3) (sd_ctx 1 1 3) 1 = VtOk /\
  validate_transition sd (sd_ctx 1 1 1) (sd_ctx 1 2 3) (sd_ctx 1 1 2) 1 = VtEperm /\
  satisfied sd (sd_ctx 1 1 1) (sd_ctx 1 2 3) (Some (sd_ctx 1 1 3)) (mkCN 0 sd_vexpr).
Proof.
  split; [vm_compute; reflexivity|]. split; [vm_compute; reflexivity|].
  intros f W. rewrite (cwrites_unique _ _ _ W sd_vexpr_writes). split; [reflexivity|].
  exists (sd_ctx 1 1 3). split; [reflexivity|]. cbn. apply get_bit_member; [apply valid_check; reflexivity|reflexivity].
Qed.
