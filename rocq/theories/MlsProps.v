(** Property theorems for MLS levels, ranges and context validity (C07-C10, C44). *)
From Verif Require Import Base EbitmapModel EbitmapSpec EbitmapProofs MlsModel MlsSpec MlsProofs
  ContextModel ContextSpec MlsDemo.

(** C07. Dominance is: sensitivity at least as high and categories a superset. *)
Theorem C07_dom : forall l1 l2, valid_level l1 -> valid_level l2 ->
  (mls_level_dom l1 l2 = true <-> level_le l2 l1).
Proof. exact dom_spec. Qed.
Print Assumptions C07_dom.

(** C07. Equality of levels. *)
Theorem C07_eq : forall l1 l2, valid_level l1 -> valid_level l2 ->
  (mls_level_eq l1 l2 = true <-> level_same l1 l2).
Proof. exact eq_spec. Qed.
Print Assumptions C07_eq.

(** C07. The reported relation is a partial order whose equality is [mls_level_eq]. *)
Theorem C07_partial_order : forall l1 l2 l3, valid_level l1 -> valid_level l2 -> valid_level l3 ->
  mls_level_dom l1 l1 = true /\
  (mls_level_dom l1 l2 = true -> mls_level_dom l2 l3 = true -> mls_level_dom l1 l3 = true) /\
  (mls_level_dom l1 l2 = true -> mls_level_dom l2 l1 = true -> mls_level_eq l1 l2 = true).
Proof.
  intros l1 l2 l3 V1 V2 V3. rewrite (dom_spec l1 l1 V1 V1), (dom_spec l1 l2 V1 V2), (dom_spec l2 l3 V2 V3),
    (dom_spec l1 l3 V1 V3), (dom_spec l2 l1 V2 V1), (eq_spec l1 l2 V1 V2).
  split; [apply level_le_refl|]. split; [intros; eapply level_le_trans; eassumption|].
  intros; apply level_le_antisym; assumption.
Qed.
Print Assumptions C07_partial_order.

(** C07. Incomparability and betweenness. *)
Theorem C07_incomp_between : forall l1 l2 l3, valid_level l1 -> valid_level l2 -> valid_level l3 ->
  (mls_level_incomp l1 l2 = true <-> ~ level_le l1 l2 /\ ~ level_le l2 l1) /\
  (mls_level_between l1 l2 l3 = true <-> level_le l2 l1 /\ level_le l1 l3).
Proof.
  intros l1 l2 l3 V1 V2 V3. unfold mls_level_incomp, mls_level_between. split.
  - rewrite andb_true_iff, !negb_true_iff, <- !not_true_iff_false, (dom_spec l1 l2 V1 V2), (dom_spec l2 l1 V2 V1).
    tauto.
  - rewrite andb_true_iff, (dom_spec l1 l2 V1 V2), (dom_spec l3 l1 V3 V1). reflexivity.
Qed.
Print Assumptions C07_incomp_between.

(** C07. Range containment is the product of the two level orders. *)
Theorem C07_range_contains : forall r1 r2, valid_mrange r1 -> valid_mrange r2 ->
  (mls_range_contains r1 r2 = true <->
   level_le (r_low r1) (r_low r2) /\ level_le (r_high r2) (r_high r1)).
Proof. exact contains_range_spec. Qed.
Print Assumptions C07_range_contains.

Example C07_case :
  let a := mkL 1 demo_gap in let b := mkL 2 demo_all in let c := mkL 1 demo_good in
  mls_level_dom b a = true /\ mls_level_dom a b = false /\ mls_level_incomp a c = true /\
  mls_level_between a (mkL 1 ebitmap_init) b = true /\ valid_level a /\ valid_level b /\ valid_level c.
Proof.
  repeat (split; [vm_compute; reflexivity|]).
  split; [apply demo_gap_valid|]. split; [apply demo_all_valid|apply demo_good_valid].
Qed.

(** C08. A computed common range is well formed; its sensitivities are exactly the common ones and
    its categories the common ones of the respective bounds. *)
Theorem C08_glblub_some : forall r1 r2 r,
  valid_mrange r1 -> valid_mrange r2 -> range_ordered r1 -> range_ordered r2 ->
  mls_range_glblub r1 r2 = Some r ->
  valid_mrange r /\ range_ordered r /\
  (forall s, (l_sens (r_low r) <= s /\ s <= l_sens (r_high r)) <->
             (l_sens (r_low r1) <= s /\ s <= l_sens (r_high r1)) /\
             (l_sens (r_low r2) <= s /\ s <= l_sens (r_high r2))) /\
  (forall b, member (l_cat (r_low r)) b <-> member (l_cat (r_low r1)) b /\ member (l_cat (r_low r2)) b) /\
  (forall b, member (l_cat (r_high r)) b <-> member (l_cat (r_high r1)) b /\ member (l_cat (r_high r2)) b).
Proof. exact glblub_some. Qed.
Print Assumptions C08_glblub_some.

(** C08. It is refused exactly when no sensitivity is common. *)
Theorem C08_glblub_none : forall r1 r2, range_ordered r1 -> range_ordered r2 ->
  (mls_range_glblub r1 r2 = None <->
   forall s, ~ ((l_sens (r_low r1) <= s /\ s <= l_sens (r_high r1)) /\
                (l_sens (r_low r2) <= s /\ s <= l_sens (r_high r2)))).
Proof.
  intros r1 r2 [O1 _] [O2 _]. rewrite glblub_none. split.
  - intros H s. lia.
  - intros H. specialize (H (N.max (l_sens (r_low r1)) (l_sens (r_low r2)))). lia.
Qed.
Print Assumptions C08_glblub_none.

(** C08. The operation is symmetric on canonical inputs. *)
Theorem C08_glblub_sym : forall r1 r2, valid_mrange r1 -> valid_mrange r2 ->
  mls_range_glblub r1 r2 = mls_range_glblub r2 r1.
Proof.
  intros r1 r2 [A1 B1] [A2 B2]. unfold mls_range_glblub. rewrite orb_comm.
  destruct (_ || _); [reflexivity|]. f_equal. f_equal; f_equal; try lia; apply valid_ext; try (apply and_spec; assumption).
  - intro b. destruct (and_spec _ _ A1 A2) as [_ ->]. destruct (and_spec _ _ A2 A1) as [_ ->]. apply andb_comm.
  - intro b. destruct (and_spec _ _ B1 B2) as [_ ->]. destruct (and_spec _ _ B2 B1) as [_ ->]. apply andb_comm.
Qed.
Print Assumptions C08_glblub_sym.

Example C08_case : exists r,
  mls_range_glblub (mkR (mkL 1 ebitmap_init) (mkL 2 demo_all)) (mkR (mkL 2 demo_gap) (mkL 4 demo_gap)) = Some r
  /\ l_sens (r_low r) = 2 /\ l_sens (r_high r) = 2 /\ l_cat (r_high r) = demo_gap.
Proof. eexists. split; [vm_compute; reflexivity|]. repeat split; vm_compute; reflexivity. Qed.

(** C09 (partial). Printing then parsing gives back the range, provided no category set has a member
    at the end of a 64-bit word followed by an absent word and more members. What is missing is that
    last case, in which the claim is false (next theorem). *)
Theorem C09_roundtrip_partial : forall p r,
  names_ok p -> p_mls p = true -> valid_mrange r ->
  level_named p (r_low r) -> level_named p (r_high r) ->
  no_word_gap (l_cat (r_low r)) -> no_word_gap (l_cat (r_high r)) ->
  exists s, mls_to_string p r = Some s /\ mls_context_to_sid p s = Some r.
Proof. exact mls_roundtrip. Qed.
Print Assumptions C09_roundtrip_partial.

Example C09_case :
  let r := mkR (mkL 1 ebitmap_init) (mkL 2 demo_good) in
  names_ok demo /\ p_mls demo = true /\ valid_mrange r /\ level_named demo (r_low r) /\
  level_named demo (r_high r) /\ no_word_gap (l_cat (r_low r)) /\ no_word_gap (l_cat (r_high r)) /\
  exists s, mls_to_string demo r = Some s /\ length s = 43%nat.
Proof.
  split; [exact demo_names_ok|]. split; [reflexivity|]. split; [split; [apply valid_init|apply demo_good_valid]|].
  split. { apply demo_named; cbn [r_low l_cat l_sens]; try lia; [apply valid_init|]. intros b H. apply init_in in H. destruct H. }
  split. { apply demo_named; cbn [r_high l_cat l_sens]; try lia; [apply demo_good_valid|].
           intros b H. apply demo_good_in in H. cbn [In] in H. lia. }
  split. { intros b c H. apply init_in in H. destruct H. }
  split; [exact demo_good_nogap|]. eexists. split; vm_compute; reflexivity.
Qed.

(** C09 (refuted in general). There are policies and permitted ranges whose printed form parses to a
    different range: the set {62, 63, 128} prints as the interval 62..128. *)
Theorem C09_roundtrip_refuted : exists p r s r',
  names_ok p /\ p_mls p = true /\ valid_mrange r /\ range_ordered r /\
  level_permitted p (r_low r) /\ level_permitted p (r_high r) /\
  mls_to_string p r = Some s /\ mls_context_to_sid p s = Some r' /\ mls_range_eq r r' = false.
Proof.
  exists demo, (mkR (mkL 1 demo_gap) (mkL 1 demo_gap)). eexists _, _.
  split; [exact demo_names_ok|]. split; [reflexivity|]. split; [split; apply demo_gap_valid|].
  split; [apply level_le_refl|].
  assert (P : level_permitted demo (mkL 1 demo_gap)).
  { split; [cbn; lia|]. split; [cbn; lia|]. eexists _, _. split; [reflexivity|]. split; [reflexivity|].
    intros b H. cbn [l_cat] in *. apply demo_gap_in in H. cbn [In] in H. split; [cbn; lia|].
    apply (get_bit_member _ _ demo_all_valid). decompose [or] H; subst; try contradiction; vm_compute; reflexivity. }
  split; [exact P|]. split; [exact P|]. split; [vm_compute; reflexivity|]. split; vm_compute; reflexivity.
Qed.
Print Assumptions C09_roundtrip_refuted.

(** C09 (parser strictness refuted). Text after a '-' that follows the second level's categories is
    silently ignored, so a string that denotes no range is accepted. *)
Theorem C09_trailing_text_refuted : exists p lvl junk r,
  names_ok p /\ p_mls p = true /\ mls_context_to_sid p lvl = Some r /\ junk <> [] /\
  mls_context_to_sid p (lvl ++ ch_dash :: junk) = Some r.
Proof.
  exists demo, ([115; 128; 129; 45; 115; 128; 130; 58; 99; 128; 129]), [120; 120]. eexists.
  split; [exact demo_names_ok|]. split; [reflexivity|]. split; [vm_compute; reflexivity|].
  split; [discriminate|]. vm_compute. reflexivity.
Qed.
Print Assumptions C09_trailing_text_refuted.

(** C10. A context is accepted exactly when the policy authorises it. *)
Theorem C10_context_validity : forall p c, policy_canonical p -> valid_mrange (c_range c) ->
  (context_is_valid p c = true <-> context_authorised p c).
Proof. exact context_is_valid_spec. Qed.
Print Assumptions C10_context_validity.

Example C10_case :
  policy_canonical demo /\ valid_mrange (mkR (mkL 1 ebitmap_init) (mkL 2 demo_good)) /\
  context_is_valid demo (mkC 1 2 3 (mkR (mkL 1 ebitmap_init) (mkL 2 demo_good))) = true /\
  context_is_valid demo (mkC 1 2 2 (mkR (mkL 1 ebitmap_init) (mkL 2 demo_good))) = false /\
  context_is_valid demo (mkC 1 1 2 (mkR (mkL 1 ebitmap_init) (mkL 2 demo_good))) = true /\
  context_is_valid demo (mkC 1 2 3 (mkR (mkL 2 demo_good) (mkL 1 ebitmap_init))) = false.
Proof.
  split; [exact demo_canonical|]. split; [split; [apply valid_init|apply demo_good_valid]|].
  repeat split; vm_compute; reflexivity.
Qed.

(** C44. The buffer size computed for a printed range is exactly the number of characters written,
    for every policy and range (so the printer never writes outside its buffer). *)
Theorem C44_mls_length : forall p r,
  mls_compute_context_len p r = omap (fun s => N.of_nat (length s)) (mls_sid_to_context p r).
Proof. exact context_len_spec. Qed.
Print Assumptions C44_mls_length.

Example C44_case :
  mls_compute_context_len demo (mkR (mkL 1 demo_gap) (mkL 2 demo_good)) = Some 52.
Proof. vm_compute. reflexivity. Qed.

(** C45. The range computed for a user reachable from another context lies inside the user's
    authorised range, never exceeds the clearance of the source context, and is well formed. *)
Theorem C45_user_range : forall fl fh ul uh ud r,
  valid_level fl -> valid_level fh -> valid_level ul -> valid_level uh -> valid_level ud ->
  level_le fl fh -> level_le ul ud -> level_le ud uh ->
  mls_setup_user_range fl fh ul uh ud = Some r ->
  level_le ul (r_low r) /\ level_le (r_high r) uh /\ level_le (r_high r) fh /\ range_ordered r.
Proof. exact setup_user_range_spec. Qed.
Print Assumptions C45_user_range.

Example C45_case : exists r,
  mls_setup_user_range (mkL 1 ebitmap_init) (mkL 1 demo_all) (mkL 1 ebitmap_init) (mkL 2 demo_good) (mkL 2 ebitmap_init)
  = None /\
  mls_setup_user_range (mkL 1 ebitmap_init) (mkL 2 demo_all) (mkL 1 ebitmap_init) (mkL 2 demo_good) (mkL 1 demo_good)
  = Some r /\ r = mkR (mkL 1 demo_good) (mkL 2 demo_good).
Proof. eexists. repeat split; vm_compute; reflexivity. Qed.
