(** Property theorems: the expanded tables say what the rules of the source say (C57). *)
From Verif Require Import Base EbitmapModel EbitmapSpec EbitmapProofs MlsDemo AvtabModel AssertModel AssertProofs TypesetModel TypesetSpec TypesetProofs TypesetProps ExpandModel ExpandSpec ExpandProofs.

(** Demo data, models no code: the types of TypesetProps, kept by the type map. *)
Definition idm : list N := [1; 2; 3; 4; 5; 6].
(** Demo data, models no code: a set of names without exclusions. *)
Definition ns (l : list N) : typeset := mkTS (demo_set l) ebitmap_init 0.
(** Demo data, models no code: extended permissions. *)
Definition xp (drv w : N) : xperms := mkX 1 drv [w; 0; 0; 0; 0; 0; 0; 0].
(** Demo data, models no code: attribute 2 and type 5 may do 1 and 2 to type 3 of class 7; with "self" 4 to themselves
    (no attribute left); a dontaudit rule, an ioctl rule, a type transition, a neverallow rule; conditional 1 with both
    branches; a tunable. *)
Definition dblocks : list xdecl :=
  [mkXDecl [mkAR 1 0 (ns [2; 5]) (ns [3]) [(7, 6)] None; mkAR 1 1 (ns [2]) (ns []) [(7, 16); (8, 1)] None;
            mkAR 8 0 (ns [5]) (mkTS ebitmap_init (demo_set [4]) 1) [(7, 4)] None; mkAR 256 0 (ns [5]) (ns [3]) [(7, 2)] (Some (xp 3 9));
            mkAR 16 0 (ns [2]) (ns [3]) [(9, 6)] None; mkAR 128 1 (ns [5]) (ns []) [(7, 1)] None]
           [mkXC 1 false [mkAR 1 0 (ns [5]) (ns [5]) [(7, 32)] None; mkAR 16 0 (ns [5]) (ns [3]) [(9, 6)] None]
                         [mkAR 16 0 (ns [5]) (ns [3]) [(9, 4)] None; mkAR 256 0 (ns [5]) (ns [3]) [(7, 2)] (Some (xp 3 16))];
            mkXC 2 true [mkAR 1 0 (ns [0]) (ns [1]) [(7, 64)] None] []];
   mkXDecl [mkAR 1 0 (ns [5]) (ns [3]) [(7, 64)] None; mkAR 256 0 (ns [5]) (ns [3]) [(7, 2)] (Some (xp 3 4))] [mkXC 3 false [] [mkAR 2 0 (ns [0]) (ns [0]) [(7, 1)] None]]].

(** Well-formedness of the demo data. *)
Lemma dmap_ok e l : valid e -> positive_bits e = Some l -> Forall (fun i => (N.to_nat i < 6)%nat) l -> map_ok dts idm e.
Proof.
  intros V E F. split; [exact V|]. intros i Hi. apply (demo_in e l V E) in Hi. rewrite Forall_forall in F. specialize (F i Hi). unfold dts, idm.
  destruct (N.to_nat i) as [|[|[|[|[|[|?]]]]]]; try (eexists; split; [reflexivity|]; intros _; eexists; reflexivity). lia.
Qed.
Definition allrules (blocks : list xdecl) : list avrule :=
  flat_map (fun d => xd_rules d ++ flat_map (fun k => xc_true k ++ xc_false k) (xd_conds d)) blocks.
Lemma allrules_in blocks scope r : rule_in blocks scope r -> In r (allrules blocks).
Proof.
  unfold rule_in, allrules. rewrite in_flat_map. destruct scope as [[c b]|].
  - intros (d & k & Hd & Hk & _ & _ & Hr). exists d. split; [exact Hd|]. apply in_or_app. right. apply in_flat_map. exists k. split; [exact Hk|]. apply in_or_app. destruct b; auto.
  - intros (d & Hd & Hr). exists d. split; [exact Hd|]. apply in_or_app. left. exact Hr.
Qed.
Lemma good_intro bl : Forall (rule_good dts idm) (allrules bl) -> source_good dts idm bl.
Proof. intros F. split; [apply dts_ok|]. intros scope r Hr. rewrite Forall_forall in F. apply F. exact (allrules_in bl scope r Hr). Qed.
Ltac dsource := apply good_intro;
  repeat (constructor; [
    split; [split; (eapply dmap_ok; [dset|vm_compute; reflexivity|repeat (constructor; [vm_compute; lia|]); constructor])|];
    split; [split; (eapply dmap_ok; [dset|vm_compute; reflexivity|repeat (constructor; [vm_compute; lia|]); constructor])|];
    split; [cbn; auto 20|]; split; [cbn [ar_spec ar_x In]; intros Q; first [exfalso; lia|eexists; split; [reflexivity|]; split; [cbn; auto|reflexivity]]|];
    split; [cbn [ar_spec ar_perms In]; intros Q c d Hcd; first [exfalso; lia|repeat (destruct Hcd as [Hcd|Hcd]; [injection Hcd as <- <-; cbn; lia|]); destruct Hcd]|
            cbn [ar_spec ar_perms In]; intros Q c d Hcd; first [exfalso; lia|repeat (destruct Hcd as [Hcd|Hcd]; [injection Hcd as <- <-; lia|]); destruct Hcd]]|]); constructor.
Lemma dblocks_good : source_good dts idm dblocks.
Proof. unfold dblocks. dsource. Qed.
Lemma dblocks_once : conds_once dblocks.
Proof. unfold conds_once. cbn. repeat constructor; cbn; lia. Qed.
Definition dst (c : N) : bool := c =? 1.
Definition dresult : xstate := match expand_blocks dts idm false dst dblocks with XOk z => z | _ => mkXS [] [] [] end.
Lemma dresult_ok : expand_blocks dts idm false dst dblocks = XOk dresult.
Proof. vm_compute. reflexivity. Qed.

(** The demo source meets the hypotheses of the theorems below; there are 16 nodes, the first rule left attribute 2 as it
    is, two ioctl rules were merged, the false branch of conditional 1 is disabled. *)
Example C57_case : source_good dts idm dblocks /\ conds_once dblocks /\ expand_blocks dts idm false dst dblocks = XOk dresult /\
  length (xs_te dresult) = 11%nat /\ length (xs_cte dresult) = 5%nat /\ length (xs_na dresult) = 1%nat /\
  In (mkXN (mkNode (mkK 3 4 7 1) (mkD 6 None)) None) (xs_te dresult) /\
  In (mkXN (mkNode (mkK 6 4 7 256) (mkD 0 (Some (xp 3 13)))) None) (xs_te dresult) /\
  In (mkXN (mkNode (mkK 6 4 9 16) (mkD 4 None)) (Some (1, false))) (xs_cte dresult).
Proof. split; [apply dblocks_good|]. split; [apply dblocks_once|]. split; [apply dresult_ok|]. vm_compute. auto 30. Qed.

(** C57. Allow and auditallow rules: a table entry (for the types themselves or attributes standing for them) gives the
    permission in the scope exactly if a rule of the source there names it. Scopes: unconditional, or a branch of a
    conditional. No condition on repeated conditionals. *)
Theorem C57_allow_exact : forall ts m dd st blocks S scope sp s t c b, source_good ts m blocks -> expand_blocks ts m dd st blocks = XOk S ->
  sp = 1 \/ sp = 2 ->
  (holds ts S scope sp s t c (fun d => N.testbit (d_data d) b = true) <-> says ts m blocks scope sp s t c (fun d => N.testbit d b = true)).
Proof.
  intros ts m dd st blocks S scope sp s t c b SG E SP. pose proof (final ts m dd st blocks SG) as R. rewrite E in R.
  rewrite (holds_fact ts S scope sp s t c (PSet b)).
  assert (X : (exists i j, fact (PSet b) sp i j c scope S /\ stands_for ts i s /\ stands_for ts j t) <->
              exists i j, C_all ts m dd (groups blocks) scope (PSet b) sp i j c /\ stands_for ts i s /\ stands_for ts j t).
  { split; intros (i & j & H & H1); exists i, j; (split; [|exact H1]); apply (re_fact _ _ _ _ _ _ R (PSet b) sp i j c scope); try exact H; cbn [pay_kind In]; try exact SP; lia. }
  rewrite X, (C_says ts m dd blocks SG). unfold says. split.
  - intros (r & d & RI & AS & SK & E1 & Hd & [G1 G2] & RP). exists r, d. auto.
  - intros (r & d & RI & E1 & Hd & G & RP). exists r, d. split; [exact RI|]. rewrite E1. split; [unfold av_spec; cbn [In]; lia|]. destruct SP as [-> | ->]; (split; [reflexivity|]; split; [reflexivity|]; split; [exact Hd|]; split; [split; [reflexivity|exact G]|exact RP]).
Qed.
Print Assumptions C57_allow_exact.

Example C57_allow_exact_case : says dts idm dblocks None 1 1 1 7 (fun d => N.testbit d 4 = true) /\ holds dts dresult None 1 1 1 7 (fun d => N.testbit (d_data d) 4 = true).
Proof.
  assert (H : says dts idm dblocks None 1 1 1 7 (fun d => N.testbit d 4 = true)).
  { exists (mkAR 1 1 (ns [2]) (ns []) [(7, 16); (8, 1)] None), 16. split; [eexists; split; [left; reflexivity|right; left; reflexivity]|]. split; [reflexivity|]. split; [left; reflexivity|]. split; [reflexivity|].
    split; [|right; auto]. unfold in_set, ts_meaning. cbn [ar_st ns ts_flags N.testbit ts_types ts_neg]. split.
    - exists 2. split; [exists 2, 3; split; [apply (demo_in _ [2]); [dset|vm_compute; reflexivity|left; reflexivity]|auto]|]. right. eexists. split; [reflexivity|]. split; [reflexivity|]. cbn [ti_types]. apply (demo_in _ [0; 1]); [dset|vm_compute; reflexivity|cbn; auto].
    - intros (j & (i & v & Hi & _) & _). apply init_out in Hi. exact Hi. }
  split; [exact H|]. apply (C57_allow_exact _ _ _ _ _ _ _ _ _ _ _ _ dblocks_good dresult_ok); auto.
Qed.

(** C57. Dontaudit rules (and the old auditdeny rules, which list what is to be audited): an entry suppresses the audit
    of a permission exactly if a dontaudit rule names it, unless they are disabled, or an auditdeny rule leaves it out. *)
Theorem C57_dontaudit_exact : forall ts m dd st blocks S scope s t c b, source_good ts m blocks -> expand_blocks ts m dd st blocks = XOk S -> b < 32 ->
  (holds ts S scope 4 s t c (fun d => N.testbit (d_data d) b = false) <->
   (dd = false /\ says ts m blocks scope 8 s t c (fun d => N.testbit d b = true)) \/ says ts m blocks scope 4 s t c (fun d => N.testbit d b = false)).
Proof.
  intros ts m dd st blocks S scope s t c b SG E B. pose proof (final ts m dd st blocks SG) as R. rewrite E in R.
  rewrite (holds_fact ts S scope 4 s t c (PClr b)).
  assert (X : (exists i j, fact (PClr b) 4 i j c scope S /\ stands_for ts i s /\ stands_for ts j t) <->
              exists i j, C_all ts m dd (groups blocks) scope (PClr b) 4 i j c /\ stands_for ts i s /\ stands_for ts j t).
  { split; intros (i & j & H & H1); exists i, j; (split; [|exact H1]); apply (re_fact _ _ _ _ _ _ R (PClr b) 4 i j c scope); try exact H; cbn [pay_kind In]; try lia; auto. }
  rewrite X, (C_says ts m dd blocks SG). unfold says. split.
  - intros (r & d & RI & AS & SK & E1 & Hd & [[G1 G2]|[G1 G2]] & RP).
    + left. split; [unfold skipped_audit in SK; rewrite G1 in SK; destruct dd; [discriminate|reflexivity]|]. exists r, d. auto 10.
    + right. exists r, d. auto 10.
  - intros [(-> & r & d & RI & E1 & Hd & G & RP)|(r & d & RI & E1 & Hd & G & RP)]; exists r, d; (split; [exact RI|]); rewrite E1; (split; [unfold av_spec; cbn [In]; lia|]);
      (split; [reflexivity|]); (split; [reflexivity|]); (split; [exact Hd|]); (split; [cbn [gives]; auto|exact RP]).
Qed.
Print Assumptions C57_dontaudit_exact.

Example C57_dontaudit_case : In (mkXN (mkNode (mkK 6 1 7 4) (mkD 4294967291 None)) None) (xs_te dresult) /\
  match expand_blocks dts idm true dst dblocks with XOk z => forallb (fun n => negb (kind n =? 4)) (xs_te z) = true | _ => False end.
Proof. vm_compute. auto 30. Qed.

(** C57. Extended permission rules: command numbers are given for a driver exactly if a rule names them, outside
    conditionals always, inside them if no conditional expression occurs twice in the source. *)
Theorem C57_xperms_exact_partial : forall ts m dd st blocks S scope sp s t c xs drv b, source_good ts m blocks -> expand_blocks ts m dd st blocks = XOk S ->
  In sp [256; 512; 1024] -> scope = None \/ conds_once blocks ->
  (holds ts S scope sp s t c (fun d => exists y, d_xperms d = Some y /\ x_spec y = xs /\ x_driver y = drv /\ xbit (x_perms y) b) <->
   ~ (sp = 1024 /\ dd = true) /\ says_x ts m blocks scope sp s t c (fun x => x_spec x = xs /\ x_driver x = drv /\ xbit (x_perms x) b)).
Proof.
  intros ts m dd st blocks S scope sp s t c xs drv b SG E SP SC. pose proof (final ts m dd st blocks SG) as R. rewrite E in R.
  rewrite (holds_fact ts S scope sp s t c (PX xs drv b)).
  assert (X : (exists i j, fact (PX xs drv b) sp i j c scope S /\ stands_for ts i s /\ stands_for ts j t) <->
              exists i j, C_all ts m dd (groups blocks) scope (PX xs drv b) sp i j c /\ stands_for ts i s /\ stands_for ts j t).
  { split; intros (i & j & H & H1); exists i, j; (split; [|exact H1]); apply (re_fact _ _ _ _ _ _ R (PX xs drv b) sp i j c scope); try exact H; cbn [pay_kind]; try exact SP;
      (intros _; destruct SC as [SC|SC]; [left; exact SC|right; apply once_nodup; exact SC]). }
  rewrite X, (C_says ts m dd blocks SG). unfold says_x.
  assert (SS : forall z, In z [256; 512; 1024] -> av_spec z /\ avrule_to_avtab_spec z = z /\ (skipped_audit dd z = false <-> ~ (z = 1024 /\ dd = true))).
  { intros z Hz. cbn [In] in Hz. unfold av_spec, skipped_audit. destruct Hz as [<-|[<-|[<-|[]]]]; (split; [cbn [In]; lia|]); (split; [reflexivity|]); destruct dd; vm_compute; intuition discriminate. }
  destruct (SS sp SP) as (A1 & A2 & A3). split.
  - intros (r & d & RI & AS & SK & E1 & Hd & (G1 & y & G2 & G3) & RP). rewrite G1 in SK. split; [apply A3; exact SK|]. exists r, d, y. auto 10.
  - intros (ND & r & d & y & RI & E1 & Hd & EY & G & RP). exists r, d. rewrite E1. split; [exact RI|]. split; [exact A1|]. split; [apply A3; exact ND|]. split; [symmetry; exact A2|]. split; [exact Hd|]. split; [|exact RP].
    split; [reflexivity|]. exists y. auto.
Qed.
Print Assumptions C57_xperms_exact_partial.

(** C57. Every entry is where its scope says, and an entry of a branch carries the enabled flag exactly if the
    conditional's state selects the branch. *)
Theorem C57_enabled : forall ts m dd st blocks S, source_good ts m blocks -> expand_blocks ts m dd st blocks = XOk S ->
  (forall n, In n (xs_te S) -> xn_ctx n = None) /\ (forall n, In n (xs_cte S) -> exists c b, xn_ctx n = Some (c, b) /\ exists r, rule_in blocks (Some (c, b)) r \/ exists d k, In d blocks /\ In k (xd_conds d) /\ xc_id k = c) /\
  forall n, In n (xs_te S) \/ In n (xs_cte S) -> (N.testbit (k_spec (n_key (xn n))) 15 = true <-> exists c b, xn_ctx n = Some (c, b) /\ st c = b).
Proof.
  intros ts m dd st blocks S SG E. pose proof (final ts m dd st blocks SG) as R. rewrite E in R. destruct R as [[I1 I2] _ EN SC _ _ _ _]. unfold tab_ok in *. rewrite Forall_forall in I1, I2.
  split; [intros n Hn; apply I1; exact Hn|]. split.
  - intros n Hn. destruct (SC n Hn) as ([c b] & E1 & HI). exists c, b. split; [exact E1|]. exists (mkAR 0 0 (ns []) (ns []) [] None). right.
    unfold conds_of in HI. apply in_flat_map in HI as ([ctx rs] & Hg & HI). cbn [fst] in HI. destruct ctx as [cb|]; [|destruct HI]. destruct HI as [->|[]].
    unfold groups in Hg. apply in_flat_map in Hg as (d & Hd & [Hg|Hg]); [discriminate|]. apply in_flat_map in Hg as (k & Hk & Hg). apply in_rev in Hk. destruct (xc_tunable k); [destruct Hg|].
    exists d, k. destruct Hg as [Hg|[Hg|[]]]; injection Hg as <- <- <-; auto.
  - intros n Hn. rewrite (EN n Hn). unfold en_of. destruct (xn_ctx n) as [[c b]|]; split.
    + intros H. exists c, b. split; [reflexivity|]. destruct b; [exact H|apply negb_true_iff; exact H].
    + intros (c' & b' & [= -> ->] & H). destruct b'; [exact H|rewrite H; reflexivity].
    + discriminate.
    + intros (c & b & X & _). discriminate.
Qed.
Print Assumptions C57_enabled.

(** C57. Type rules (transition, member, change): every entry comes from a rule of the source in that scope; the type is
    the rule's, translated. *)
Theorem C57_type_rules_sound : forall ts m dd st blocks S scope sp s t c d, source_good ts m blocks -> expand_blocks ts m dd st blocks = XOk S ->
  In sp [16; 32; 64] -> holds ts S scope sp s t c (fun x => d_data x = d) ->
  says ts m blocks scope sp s t c (fun d0 => d0 <> 0 /\ nth_error m (N.to_nat (d0 - 1)) = Some d).
Proof.
  intros ts m dd st blocks S scope sp s t c d SG E TS H. pose proof (final ts m dd st blocks SG) as R. rewrite E in R.
  apply holds_tfact in H as (i & j & H & S1 & S2). apply (re_sound _ _ _ _ _ _ R) in H; [|exact TS]. apply (T_says ts m blocks SG). exists i, j. auto.
Qed.
Print Assumptions C57_type_rules_sound.

(** C57. One type per situation: two entries for the same types and class have the same scope and the same type, or are
    in opposite branches of one conditional. If no conditional expression occurs twice in the source. *)
Theorem C57_type_rules_unique_partial : forall ts m dd st blocks S sp s t c sc1 d1 sc2 d2, source_good ts m blocks -> expand_blocks ts m dd st blocks = XOk S ->
  conds_once blocks -> In sp [16; 32; 64] -> holds ts S sc1 sp s t c (fun x => d_data x = d1) -> holds ts S sc2 sp s t c (fun x => d_data x = d2) ->
  (sc1 = sc2 /\ d1 = d2) \/ exists k b, sc1 = Some (k, b) /\ sc2 = Some (k, negb b).
Proof.
  intros ts m dd st blocks S sp s t c sc1 d1 sc2 d2 SG E CO TS H1 H2. pose proof (final ts m dd st blocks SG) as R. rewrite E in R.
  apply holds_tfact in H1 as (i & j & H1 & S1 & S2). apply holds_tfact in H2 as (i' & j' & H2 & S1' & S2').
  destruct (T_types ts m blocks SG _ _ _ _ _ _ (re_sound _ _ _ _ _ _ R _ _ _ _ _ _ TS H1)) as [A1 A2]. destruct (T_types ts m blocks SG _ _ _ _ _ _ (re_sound _ _ _ _ _ _ R _ _ _ _ _ _ TS H2)) as [A1' A2'].
  apply (stands_self ts i s A1) in S1. apply (stands_self ts j t A2) in S2. apply (stands_self ts i' s A1') in S1'. apply (stands_self ts j' t A2') in S2'. subst i i' j j'.
  destruct (re_uniq _ _ _ _ _ _ R (once_nodup blocks CO) sp s t c sc1 d1 sc2 d2 TS H1 H2) as [X|[N1 X]]; [auto|]. right. destruct sc2 as [[k b]|]; cbn [other_ctx] in X; [|congruence].
  exists k, (negb b). split; [exact X|]. rewrite negb_involutive. reflexivity.
Qed.
Print Assumptions C57_type_rules_unique_partial.

(** C57. Type rules for one class are in the tables, if no conditional expression occurs twice in the source. (For rules
    with several classes this is false, see below.) *)
Theorem C57_type_rules_kept_partial : forall ts m dd st blocks S scope s t c d0 d r, source_good ts m blocks -> expand_blocks ts m dd st blocks = XOk S ->
  conds_once blocks -> rule_in blocks scope r -> In (ar_spec r) [16; 32; 64] -> ar_perms r = [(c, d0)] -> nth_error m (N.to_nat (d0 - 1)) = Some d -> rule_pair ts m r s t ->
  holds ts S scope (ar_spec r) s t c (fun x => d_data x = d).
Proof.
  intros ts m dd st blocks S scope s t c d0 d r SG E CO RI TS EP ED RP. pose proof (final ts m dd st blocks SG) as R. rewrite E in R. pose proof SG as [AO RG]. destruct (RG scope r RI) as (G1 & G2 & _ & _ & TG & _).
  apply (pairs_mean ts m AO r s t G1 G2) in RP as (i & j & D & S1 & S2). apply holds_tfact. exists i, j. split; [|auto].
  apply (re_comp _ _ _ _ _ _ R (once_nodup blocks CO)); [exact TS|]. apply groups_in in RI as (rs & Hg & Hr). exists rs, r. split; [exact Hg|]. split; [exact Hr|]. split; [exact TS|]. split; [reflexivity|]. split; [exact D|].
  exists d0. split; [exact EP|]. split; [|exact ED]. apply (TG TS c d0). rewrite EP. left. reflexivity.
Qed.
Print Assumptions C57_type_rules_kept_partial.

Example C57_type_rules_case : rule_in dblocks (Some (1, false)) (mkAR 16 0 (ns [5]) (ns [3]) [(9, 4)] None) /\ rule_pair dts idm (mkAR 16 0 (ns [5]) (ns [3]) [(9, 4)] None) 5 3 /\
  holds dts dresult (Some (1, false)) 16 5 3 9 (fun x => d_data x = 4).
Proof.
  assert (RI : rule_in dblocks (Some (1, false)) (mkAR 16 0 (ns [5]) (ns [3]) [(9, 4)] None)).
  { eexists. eexists. split; [left; reflexivity|]. split; [left; reflexivity|]. split; [reflexivity|]. split; [reflexivity|]. left. reflexivity. }
  assert (RP : rule_pair dts idm (mkAR 16 0 (ns [5]) (ns [3]) [(9, 4)] None) 5 3).
  { split; [|left]; (unfold in_set, ts_meaning; cbn [ar_st ar_tt ns ts_flags N.testbit ts_types ts_neg]; split; [|intros (j & (i & v & Hi & _) & _); apply init_out in Hi; exact Hi]).
    - exists 5. split; [exists 5, 6; split; [apply (demo_in _ [5]); [dset|vm_compute; reflexivity|left; reflexivity]|auto]|]. left. rewrite dattr. lia.
    - exists 3. split; [exists 3, 4; split; [apply (demo_in _ [3]); [dset|vm_compute; reflexivity|left; reflexivity]|auto]|]. left. rewrite dattr. lia. }
  split; [exact RI|]. split; [exact RP|]. exact (C57_type_rules_kept_partial _ _ _ _ _ _ _ 5 3 9 4 4 _ dblocks_good dresult_ok dblocks_once RI (or_introl eq_refl) eq_refl eq_refl RP).
Qed.

(** C57. The only other outcome is a reported conflict, and it is real: two type rules of the source for the same types
    and class, not in opposite branches, with different types or different scopes. *)
Theorem C57_conflict_real : forall ts m dd st blocks, source_good ts m blocks ->
  match expand_blocks ts m dd st blocks with
  | XOk _ => True
  | XConflict => exists sp s t c sc1 d1 sc2 d2, In sp [16; 32; 64] /\
      says ts m blocks sc1 sp s t c (fun d0 => d0 <> 0 /\ nth_error m (N.to_nat (d0 - 1)) = Some d1) /\
      says ts m blocks sc2 sp s t c (fun d0 => d0 <> 0 /\ nth_error m (N.to_nat (d0 - 1)) = Some d2) /\
      (d1 <> d2 \/ sc1 <> sc2) /\ (forall k b, ~ (sc1 = Some (k, b) /\ sc2 = Some (k, negb b)))
  | _ => False
  end.
Proof.
  intros ts m dd st blocks SG. pose proof (final ts m dd st blocks SG) as R. destruct (expand_blocks ts m dd st blocks); auto.
  destruct R as (sp & i & j & c & sc1 & sc2 & d1 & d2 & TS & T1 & T2 & OC & DF). destruct (T_types ts m blocks SG _ _ _ _ _ _ T1) as [A1 A2].
  assert (SI : stands_for ts i i) by (left; auto). assert (SJ : stands_for ts j j) by (left; auto).
  exists sp, i, j, c, sc1, d1, sc2, d2. split; [exact TS|]. split; [apply (T_says ts m blocks SG); exists i, j; auto|]. split; [apply (T_says ts m blocks SG); exists i, j; auto|]. split; [exact DF|].
  intros k b [E1 E2]. subst sc1 sc2. destruct OC as [OC|OC]; [discriminate|]. apply OC. cbn [other_ctx]. rewrite negb_involutive. reflexivity.
Qed.
Print Assumptions C57_conflict_real.

(** A transition to type 4 beside one to type 6. *)
Example C57_conflict_case : let bl := [mkXDecl [mkAR 16 0 (ns [2]) (ns [3]) [(9, 6)] None; mkAR 16 0 (ns [1]) (ns [3]) [(9, 4)] None] []] in
  source_good dts idm bl /\ expand_blocks dts idm false dst bl = XConflict.
Proof. split; [dsource|vm_compute; reflexivity]. Qed.

(** C57. Conversely, rules of one class that disagree are found: with two different types for the same situation in one
    scope the expansion does not succeed. *)
Theorem C57_conflict_found_partial : forall ts m dd st blocks scope s t c r1 r2 d1 d2 e1 e2, source_good ts m blocks -> conds_once blocks ->
  rule_in blocks scope r1 -> rule_in blocks scope r2 -> In (ar_spec r1) [16; 32; 64] -> ar_spec r2 = ar_spec r1 ->
  ar_perms r1 = [(c, e1)] -> ar_perms r2 = [(c, e2)] -> nth_error m (N.to_nat (e1 - 1)) = Some d1 -> nth_error m (N.to_nat (e2 - 1)) = Some d2 ->
  rule_pair ts m r1 s t -> rule_pair ts m r2 s t -> d1 <> d2 -> expand_blocks ts m dd st blocks = XConflict.
Proof.
  intros ts m dd st blocks scope s t c r1 r2 d1 d2 e1 e2 SG CO I1 I2 TS ES P1 P2 N1 N2 Q1 Q2 ND. pose proof (C57_conflict_real ts m dd st blocks SG) as R.
  destruct (expand_blocks ts m dd st blocks) as [z| | | |] eqn:E; try contradiction; [|reflexivity]. exfalso.
  pose proof (C57_type_rules_kept_partial _ _ _ _ _ _ _ s t c e1 d1 r1 SG E CO I1 TS P1 N1 Q1) as H1.
  assert (TS2 : In (ar_spec r2) [16; 32; 64]) by (rewrite ES; exact TS). pose proof (C57_type_rules_kept_partial _ _ _ _ _ _ _ s t c e2 d2 r2 SG E CO I2 TS2 P2 N2 Q2) as H2. rewrite ES in H2.
  destruct (C57_type_rules_unique_partial _ _ _ _ _ _ _ _ _ _ _ _ _ _ SG E CO TS H1 H2) as [[_ X]|(k & b & X1 & X2)]; [exact (ND X)|]. rewrite X1 in X2. injection X2 as X2. destruct b; discriminate.
Qed.
Print Assumptions C57_conflict_found_partial.

(** C57. Neverallow rules outside conditionals are copied, in order, newest first, with exactly the types they name. *)
Theorem C57_neverallow_copied : forall ts m dd st blocks S, source_good ts m blocks -> expand_blocks ts m dd st blocks = XOk S ->
  Forall2 (fun r n => na_spec n = ar_spec r /\ na_flags n = ar_flags r /\ na_perms n = ar_perms r /\ (forall x, ar_x r = Some x -> na_x n = x) /\
                      (forall t, member (na_s n) t <-> in_set ts m (ar_st r) t) /\ (forall t, member (na_t n) t <-> in_set ts m (ar_tt r) t))
    (rev (filter (fun r => (ar_spec r =? 128) || (ar_spec r =? 2048)) (flat_map xd_rules blocks))) (xs_na S).
Proof.
  intros ts m dd st blocks S SG E. pose proof (final ts m dd st blocks SG) as R. rewrite E in R. rewrite (re_na _ _ _ _ _ _ R). pose proof SG as [AO RG].
  assert (EN : nas ts m (groups blocks) = map (na_copy ts m) (filter (fun r => (ar_spec r =? 128) || (ar_spec r =? 2048)) (flat_map xd_rules blocks))).
  { unfold nas, groups. clear. induction blocks as [|d l IH]; [reflexivity|]. cbn [flat_map]. rewrite flat_map_app, IH, filter_app, map_app. f_equal. cbn [flat_map fst snd].
    match goal with |- ?a ++ ?b = _ => assert (Z : b = []) end.
    { induction (rev (xd_conds d)) as [|k x IHx]; [reflexivity|]. cbn [flat_map]. destruct (xc_tunable k); exact IHx. }
    rewrite Z, app_nil_r. induction (xd_rules d) as [|r x IHx]; [reflexivity|]. cbn [flat_map filter]. unfold na_of at 1. destruct ((ar_spec r =? 128) || (ar_spec r =? 2048)); cbn [app map]; rewrite IHx; reflexivity. }
  rewrite EN, <- map_rev. 
  assert (G : forall r, In r (rev (filter (fun r => (ar_spec r =? 128) || (ar_spec r =? 2048)) (flat_map xd_rules blocks))) -> sets_good ts m (ar_st r) /\ sets_good ts m (ar_tt r)).
  { intros r Hr. apply in_rev in Hr. apply filter_In in Hr as [Hr _]. apply in_flat_map in Hr as (d & Hd & Hr). destruct (RG None r) as (G1 & G2 & _); [exists d; auto|auto]. }
  assert (MEM : forall t, sets_good ts m t -> forall x, member (conv ts m t true) x <-> in_set ts m t x).
  { intros t SGt x. destruct (conv_ok ts m AO t true SGt) as (_ & _ & H). rewrite <- H. split.
    - intros M. exists x. split; [exact M|]. left. split; [reflexivity|]. exact (conv_types ts m AO t SGt x M).
    - intros (i & M & SF). rewrite (stands_self ts i x (conv_types ts m AO t SGt i M) SF) in M. exact M. }
  revert G. generalize (rev (filter (fun r => (ar_spec r =? 128) || (ar_spec r =? 2048)) (flat_map xd_rules blocks))) as l. induction l as [|r l IH]; intros G; [constructor|]. cbn [map]. constructor.
  - destruct (G r (or_introl eq_refl)) as [G1 G2]. cbn [na_copy na_spec na_flags na_perms na_x na_s na_t]. split; [reflexivity|]. split; [reflexivity|]. split; [reflexivity|].
    split; [intros x ->; reflexivity|]. split; apply MEM; assumption.
  - apply IH. intros r' Hr. apply G. right. exact Hr.
Qed.
Print Assumptions C57_neverallow_copied.

(** C57 does not hold for type rules with several classes: a class for which the rule is already there ends the loop, and
    the classes after it are dropped without a word. *)
Theorem C57_classes_dropped_refuted : exists ts m st blocks S r s t c d0, source_good ts m blocks /\ conds_once blocks /\ expand_blocks ts m false st blocks = XOk S /\
  rule_in blocks None r /\ ar_spec r = 16 /\ In (c, d0) (ar_perms r) /\ rule_pair ts m r s t /\ forall d, ~ holds ts S None 16 s t c (fun x => d_data x = d).
Proof.
  pose (r := mkAR 16 0 (ns [5]) (ns [3]) [(9, 6); (10, 6)] None). set (bl := [mkXDecl [mkAR 16 0 (ns [5]) (ns [3]) [(9, 6)] None; r] []]).
  exists dts, idm, dst, bl, (mkXS [mkXN (mkNode (mkK 6 4 9 16) (mkD 6 None)) None] [] []), r, 5, 3, 10, 6.
  split; [unfold bl, r; dsource|]. split; [constructor|]. split; [vm_compute; reflexivity|]. split; [eexists; split; [left; reflexivity|right; left; reflexivity]|]. split; [reflexivity|]. split; [right; left; reflexivity|]. split.
  - split; [|left]; (unfold in_set, ts_meaning; cbn [r ar_st ar_tt ns ts_flags N.testbit ts_types ts_neg]; split; [|intros (j & (i & v & Hi & _) & _); apply init_out in Hi; exact Hi]).
    + exists 5. split; [exists 5, 6; split; [apply (demo_in _ [5]); [dset|vm_compute; reflexivity|left; reflexivity]|auto]|]. left. rewrite dattr. lia.
    + exists 3. split; [exists 3, 4; split; [apply (demo_in _ [3]); [dset|vm_compute; reflexivity|left; reflexivity]|auto]|]. left. rewrite dattr. lia.
  - intros d (n & [[<-|[]] _] & _ & C & _). discriminate.
Qed.
Print Assumptions C57_classes_dropped_refuted.

(** C57 does not hold for extended permissions when a conditional expression occurs twice: commands of driver 2 appear as
    commands of driver 1. *)
Theorem C57_xperms_merged_refuted : exists ts m st blocks S b, source_good ts m blocks /\ expand_blocks ts m false st blocks = XOk S /\
  holds ts S (Some (1, true)) 256 5 3 7 (fun d => exists y, d_xperms d = Some y /\ x_spec y = 1 /\ x_driver y = 1 /\ xbit (x_perms y) b) /\
  forall r, rule_in blocks (Some (1, true)) r -> forall x, ar_x r = Some x -> x_driver x = 1 -> ~ xbit (x_perms x) b.
Proof.
  set (r d w := mkAR 256 0 (ns [5]) (ns [3]) [(7, 2)] (Some (xp d w))).
  set (bl := [mkXDecl [] [mkXC 1 false [r 1 1] []; mkXC 2 false [r 1 2] []; mkXC 1 false [r 2 4] []]]).
  exists dts, idm, dst, bl. eexists. exists 2. split; [unfold bl, r; dsource|]. split; [vm_compute; reflexivity|]. split.
  - eexists. split; [split; [right; left; reflexivity|reflexivity]|]. split; [reflexivity|]. split; [reflexivity|]. split.
    + exists 5, 3. split; [reflexivity|]. split; [reflexivity|]. split; left; (split; [reflexivity|]); rewrite dattr; lia.
    + eexists. split; [reflexivity|]. split; [reflexivity|]. split; [reflexivity|]. vm_compute. reflexivity.
  - intros r0 (d & k & [<-|[]] & Hk & _ & E & Hr) x Ex Dx. cbn [xd_conds] in Hk. destruct Hk as [<-|[<-|[<-|[]]]]; cbn [xc_id xc_true] in *; [|discriminate|].
    + destruct Hr as [<-|[]]. cbn [r ar_x] in Ex. injection Ex as <-. vm_compute. discriminate.
    + destruct Hr as [<-|[]]. cbn [r ar_x] in Ex. injection Ex as <-. discriminate Dx.
Qed.
Print Assumptions C57_xperms_merged_refuted.

(** C57 does not hold for type rules when a conditional expression occurs twice: a rule is overwritten by one with a
    different type and no conflict is reported. *)
Theorem C57_overwritten_refuted : exists ts m st blocks S r1 r2 s t, source_good ts m blocks /\ expand_blocks ts m false st blocks = XOk S /\
  rule_in blocks (Some (1, true)) r1 /\ rule_in blocks (Some (1, true)) r2 /\ ar_spec r1 = 16 /\ ar_spec r2 = 16 /\ ar_perms r1 = [(9, 6)] /\ ar_perms r2 = [(9, 4)] /\
  rule_pair ts m r1 s t /\ rule_pair ts m r2 s t /\ forall d, holds ts S (Some (1, true)) 16 s t 9 (fun x => d_data x = d) -> d = 4.
Proof.
  set (r d := mkAR 16 0 (ns [5]) (ns [3]) [(9, d)] None).
  assert (RP : forall d, rule_pair dts idm (r d) 5 3).
  { intros d. split; [|left]; (unfold in_set, ts_meaning; cbn [r ar_st ar_tt ns ts_flags N.testbit ts_types ts_neg]; split; [|intros (j & (i & v & Hi & _) & _); apply init_out in Hi; exact Hi]).
    - exists 5. split; [exists 5, 6; split; [apply (demo_in _ [5]); [dset|vm_compute; reflexivity|left; reflexivity]|auto]|]. left. rewrite dattr. lia.
    - exists 3. split; [exists 3, 4; split; [apply (demo_in _ [3]); [dset|vm_compute; reflexivity|left; reflexivity]|auto]|]. left. rewrite dattr. lia. }
  set (bl := [mkXDecl [] [mkXC 1 false [r 4] []; mkXC 1 false [r 6] [r 2]]]).
  exists dts, idm, dst, bl. eexists. exists (r 6), (r 4), 5, 3. split; [unfold bl, r; dsource|]. split; [vm_compute; reflexivity|].
  split; [eexists; eexists; split; [left; reflexivity|]; split; [right; left; reflexivity|]; split; [reflexivity|]; split; [reflexivity|left; reflexivity]|].
  split; [eexists; eexists; split; [left; reflexivity|]; split; [left; reflexivity|]; split; [reflexivity|]; split; [reflexivity|left; reflexivity]|].
  split; [reflexivity|]. split; [reflexivity|]. split; [reflexivity|]. split; [reflexivity|]. split; [apply RP|]. split; [apply RP|].
  intros d (n & [Hn Hc] & _ & _ & _ & D). cbn [xs_cte] in Hn. repeat (destruct Hn as [<-|Hn]; [first [discriminate Hc|symmetry; exact D]|]). destruct Hn.
Qed.
Print Assumptions C57_overwritten_refuted.

(** A neverallow rule naming a type the output policy does not have is dropped and the expansion succeeds. *)
Theorem C57_neverallow_dropped_refuted : exists ts m st blocks S, attributes_ok ts /\ expand_blocks ts m false st blocks = XOk S /\ xs_na S = [] /\
  exists d r, In d blocks /\ In r (xd_rules d) /\ ar_spec r = 128.
Proof.
  set (r := mkAR 128 0 (ns [5]) (ns [3]) [(7, 1)] None). exists dts, [1; 2; 3; 4; 5; 9], dst, [mkXDecl [r] []]. eexists. split; [apply dts_ok|]. split; [vm_compute; reflexivity|]. split; [reflexivity|].
  eexists. exists r. split; [left; reflexivity|]. split; [left; reflexivity|reflexivity].
Qed.
Print Assumptions C57_neverallow_dropped_refuted.
