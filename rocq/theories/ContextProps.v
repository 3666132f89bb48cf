(** Property theorems for context strings (C24) and the context_t type (C37), and the buffer size
    part of C44. *)
From Verif Require Import Base EbitmapModel EbitmapSpec EbitmapProofs MlsModel MlsSpec MlsProofs
  ContextModel ContextSpec ContextProofs MlsDemo.

(** C24 (partial: needs the no-gap condition of C09 on the categories). A valid context printed and
    parsed again is the same context, whether or not the terminating NUL is counted. *)
Theorem C24_string_roundtrip_partial : forall p c,
  context_is_valid p c = true -> idents_ok p -> names_ok p -> context_named p c ->
  (if p_mls p then valid_mrange (c_range c) /\
      no_word_gap (l_cat (r_low (c_range c))) /\ no_word_gap (l_cat (r_high (c_range c)))
   else c_range c = empty_range) ->
  exists s, context_to_string p c = Some s /\ context_from_string p s = ROk c /\
            context_from_string p (s ++ [0]) = ROk c.
Proof.
  intros p c Hv Hi Hn Hc Hm. destruct (p_mls p) eqn:E.
  - destruct Hm as (V & G1 & G2). destruct (proj2 (proj2 (proj2 Hc)) E) as [N5 N6].
    destruct (mls_roundtrip p (c_range c) Hn E V N5 N6 G1 G2) as (m & M1 & M2).
    apply (roundtrip_string p c m Hv Hi Hc). rewrite E. auto.
  - apply (roundtrip_string p c [] Hv Hi Hc). rewrite E. exact Hm.
Qed.
Print Assumptions C24_string_roundtrip_partial.

(** C24 (partial, same condition). The same through context records. *)
Theorem C24_record_roundtrip_partial : forall p c,
  context_is_valid p c = true -> idents_ok p -> names_ok p -> context_named p c ->
  (if p_mls p then valid_mrange (c_range c) /\
      no_word_gap (l_cat (r_low (c_range c))) /\ no_word_gap (l_cat (r_high (c_range c)))
   else c_range c = empty_range) ->
  exists rc, context_to_record p c = Some rc /\ context_from_record p (Some rc) = ROk c.
Proof.
  intros p c Hv Hi Hn Hc Hm. destruct (p_mls p) eqn:E.
  - destruct Hm as (V & G1 & G2). destruct (proj2 (proj2 (proj2 Hc)) E) as [N5 N6].
    destruct (mls_roundtrip p (c_range c) Hn E V N5 N6 G1 G2) as (m & M1 & M2).
    destruct (roundtrip_record p c m Hv Hi Hc) as (rc & R1 & R2 & _);
      [rewrite E; auto|exists rc; auto].
  - destruct (roundtrip_record p c [] Hv Hi Hc) as (rc & R1 & R2 & _); [rewrite E; exact Hm|exists rc; auto].
Qed.
Print Assumptions C24_record_roundtrip_partial.

Example C24_case :
  let c := mkC 1 2 3 (mkR (mkL 1 ebitmap_init) (mkL 2 demo_good)) in
  context_is_valid demo c = true /\ idents_ok demo /\ names_ok demo /\ context_named demo c /\
  valid_mrange (c_range c) /\ no_word_gap (l_cat (r_low (c_range c))) /\
  no_word_gap (l_cat (r_high (c_range c))) /\
  exists s, context_to_string demo c = Some s /\ length s = 55%nat.
Proof.
  split; [vm_compute; reflexivity|]. split; [exact demo_idents_ok|]. split; [exact demo_names_ok|].
  split. { split; [discriminate|]. split; [discriminate|]. split; [discriminate|]. intros _. split.
    - apply demo_named; cbn [c_range r_low l_cat l_sens]; try lia; [apply valid_init|]. intros b H. apply init_in in H. destruct H.
    - apply demo_named; cbn [c_range r_high l_cat l_sens]; try lia; [apply demo_good_valid|].
      intros b H. apply demo_good_in in H. cbn [In] in H. lia. }
  split; [split; [apply valid_init|apply demo_good_valid]|].
  split. { intros b x H. apply init_in in H. destruct H. }
  split; [exact demo_good_nogap|]. eexists. split; vm_compute; reflexivity.
Qed.

(** C24. Whatever is accepted has the form user:role:type[:range], names existing entries, and the
    context returned is the one named and is authorised by the policy. *)
Theorem C24_accepted_sound : forall p s c,
  policy_canonical p -> (forall nm v, p_cat_find p nm = Some v -> v < 4294967296) ->
  context_from_string p s = ROk c ->
  exists u r t m, c_string s = context_text u r t m /\ ~ In 58 u /\ ~ In 58 r /\ ~ In 58 t /\
  p_user_find p u = Some (c_user c) /\ p_role_find p r = Some (c_role c) /\
  p_type_find p t = Some (c_type c, false) /\
  (if p_mls p then exists m', m = Some m' /\ mls_context_to_sid p m' = Some (c_range c) else m = None) /\
  context_authorised p c.
Proof. intros p s c. rewrite <- cstr_eq. apply from_string_inv. Qed.
Print Assumptions C24_accepted_sound.

(** C24. Records and strings: a record whose first three fields contain no ':' survives the trip
    through its string, and every string parsed into a record is that record's string. *)
Theorem C24_record_string : forall rc s,
  (~ In 58 (cr_user rc) -> ~ In 58 (cr_role rc) -> ~ In 58 (cr_type rc) ->
     sepol_context_from_string (sepol_context_to_string rc) = ROk (Some rc)) /\
  (sepol_context_from_string s = ROk (Some rc) -> sepol_context_to_string rc = s).
Proof.
  intros rc s. split.
  - intros H1 H2 H3. rewrite rec_to_text, rec_from_text by assumption. destruct rc; reflexivity.
  - intros H. apply rec_from_inv in H as [-> _]. apply rec_to_text.
Qed.
Print Assumptions C24_record_string.

(** C24 (refuted: not every string is rejected or accepted). The string "<<none>>" makes
    context_from_string read through a NULL record; it is the only string that does. *)
Theorem C24_none_string_refuted : forall p,
  (exists s, context_from_string p s = RUB) /\
  (forall s, context_from_string p s = RUB -> c_string s = [60;60;110;111;110;101;62;62]).
Proof.
  intros p. split.
  - exists none_str. apply from_string_ub. split; [discriminate|reflexivity].
  - intros s H. rewrite <- cstr_eq. apply from_string_ub in H. apply H.
Qed.
Print Assumptions C24_none_string_refuted.

(** C44. The buffer of context_to_string is exactly large enough, NUL included. *)
Theorem C44_context_length : forall p c,
  context_to_string_len p c = omap (fun s => N.of_nat (length s) + 1) (context_to_string p c).
Proof. exact to_string_len. Qed.
Print Assumptions C44_context_length.

(** C37 (partial). A string accepted by context_new is returned unchanged by context_str, unless it
    ends in ':' and has at most three colons. Missing: that case, which is false (next theorem). *)
Theorem C37_roundtrip_partial : forall s c,
  context_new s = Some c -> 4 <= colons s \/ last s 0 <> 58 -> context_str c = ROk s.
Proof. exact new_str. Qed.
Print Assumptions C37_roundtrip_partial.

(** C37 (refuted in general). "a:b:c:" is accepted and comes back as "a:b:c". *)
Theorem C37_roundtrip_refuted : exists s c s',
  context_new s = Some c /\ context_str c = ROk s' /\ s' <> s.
Proof.
  exists [97;58;98;58;99;58]. eexists _, _. split; [vm_compute; reflexivity|].
  split; [vm_compute; reflexivity|]. discriminate.
Qed.
Print Assumptions C37_roundtrip_refuted.

(** C37. Setters and getters form a record: a successful set is what the next get returns and
    leaves the other components alone; it fails exactly on the forbidden characters. *)
Theorem C37_set_get : forall c k v,
  (forall c', ctx_set c k v = Some c' ->
     ctx_get c' k = v /\ forall k', k' <> k -> ctx_get c' k' = ctx_get c k') /\
  (ctx_set c k v = None <->
   exists s x, v = Some s /\ In x s /\
     (x = 9 \/ x = 10 \/ x = 13 \/ (k <> CRange /\ (x = 58 \/ x = 32)))).
Proof.
  intros c k v. split.
  - intros c' H. unfold ctx_set in H. destruct (match v with None => true | Some s => _ end); [|discriminate].
    injection H as <-. destruct k; (split; [reflexivity|]); intros k' Hk; destruct k'; try congruence; reflexivity.
  - unfold ctx_set. destruct v as [s|].
    + destruct (comp_ok _ s) eqn:E.
      * split; [discriminate|]. intros (s0 & x & [= <-] & Hx & H). unfold comp_ok in E.
        rewrite forallb_forall in E. apply E in Hx. clear -Hx H. exfalso. destruct k; cbn in Hx; intuition subst; try discriminate; congruence.
      * split; [intros _|reflexivity]. unfold comp_ok in E.
        assert (Hex : exists x, In x s /\ negb ((x =? 9) || (x =? 10) || (x =? 13) ||
                          (((x =? 58) || (x =? 32)) && negb (match k with CRange => true | _ => false end))) = false).
        { clear -E. induction s as [|x s IH]; [discriminate|]. cbn [forallb] in E.
          apply andb_false_iff in E as [E|E]; [exists x; split; [left; reflexivity|exact E]|].
          destruct (IH E) as (y & Hy & H). exists y. split; [right; exact Hy|exact H]. }
        destruct Hex as (x & Hx & H). exists s, x. split; [reflexivity|]. split; [exact Hx|].
        apply negb_false_iff in H. apply orb_prop in H as [H|H]; [lia|].
        apply andb_prop in H as [H1 H2]. right. right. right. split; [|lia]. intros ->. discriminate.
    + split; [discriminate|]. intros (s & x & E & _). discriminate.
Qed.
Print Assumptions C37_set_get.

(** C37 (partial). Any context reached by context_new and setter calls whose user, role and type are
    set, whose last component is not empty and whose range has at most two colons, prints to a
    string that parses back to the same components. Missing: NULL or empty components and ranges
    with three or more colons, where it is false. *)
Theorem C37_reparse_partial : forall c u r t,
  ctx_reachable c -> x_user c = Some u -> x_role c = Some r -> x_type c = Some t ->
  match x_range c with None => t <> [] | Some m => m <> [] /\ colons m <= 2 end ->
  exists s, context_str c = ROk s /\ context_new s = Some c.
Proof.
  intros c u r t Hr Eu Er Et Hm. apply reachable_inv in Hr. destruct c as [cu cr ct cm].
  cbn [x_user x_role x_type x_range] in *. subst. apply reparse; assumption.
Qed.
Print Assumptions C37_reparse_partial.

(** C37 (refuted). Removing the user and printing the context reads through a NULL pointer. *)
Theorem C37_user_unset_refuted : exists c, ctx_reachable c /\ context_str c = RUB.
Proof.
  eexists. split.
  - eapply (cr_set _ CUser None); [eapply (cr_new [97;58;98;58;99]); reflexivity|reflexivity].
  - reflexivity.
Qed.
Print Assumptions C37_user_unset_refuted.

Example C37_case :
  (* "u:r:t:s0:c1-s1:c2" *)
  let s := [117;58;114;58;116;58;115;48;58;99;49;45;115;49;58;99;50] in
  exists c c' , context_new s = Some c /\ colons s = 5 /\ context_str c = ROk s /\
    ctx_set c CType (Some [120]) = Some c' /\
    context_str c' = ROk [117;58;114;58;120;58;115;48;58;99;49;45;115;49;58;99;50] /\
    ctx_set c CType (Some [58]) = None.
Proof. eexists _, _. repeat split; vm_compute; reflexivity. Qed.
