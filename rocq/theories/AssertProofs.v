(** Proofs about neverallow checking. *)
From Verif Require Import Base EbitmapModel EbitmapSpec EbitmapProofs AvtabModel AvtabSpec AvtabProofs AssertModel AssertSpec.
From Coq Require Import Sorted.

(** ** Sets *)
Lemma bits_in e b : valid e -> (In b (bits e) <-> member e b).
Proof. intros V. destruct (positive_bits_correct e V) as (l & E & _ & H). unfold bits. rewrite E. apply H. Qed.
Lemma bits_nodup e : valid e -> NoDup (bits e).
Proof. intros V. destruct (positive_bits_correct e V) as (l & E & S & _). unfold bits. rewrite E. apply sorted_NoDup. exact S. Qed.
Lemma bits_card e : valid e -> N.of_nat (length (bits e)) = ebitmap_cardinality e.
Proof. intros V. symmetry. apply card_list; [exact V|apply bits_nodup; exact V|]. intros b. apply bits_in. exact V. Qed.

Lemma and_valid a b : valid a -> valid b -> valid (ebitmap_and a b).
Proof. intros A B. apply and_spec; assumption. Qed.
Lemma and_in a b x : valid a -> valid b -> (member (ebitmap_and a b) x <-> member a x /\ member b x).
Proof.
  intros A B. destruct (and_spec a b A B) as [V H]. rewrite <- (nget_member _ _ V), H, andb_true_iff, !nget_member; [reflexivity|assumption..].
Qed.
Lemma union_valid a b : valid a -> valid b -> valid (ebitmap_union a b).
Proof. intros A B. unfold ebitmap_union. destruct (or_spec a b A B) as [V H]. destruct (ebitmap_or a b). exact V. Qed.
Lemma union_in a b x : valid a -> valid b -> (member (ebitmap_union a b) x <-> member a x \/ member b x).
Proof.
  intros A B. pose proof (union_valid a b A B) as V. destruct (or_spec a b A B) as [_ H]. rewrite <- (nget_member _ _ V).
  unfold ebitmap_union. cbn [e_nodes]. rewrite H, orb_true_iff, !nget_member; [reflexivity|assumption..].
Qed.
Lemma empty_in e : valid e -> (ebitmap_is_empty e = true <-> forall x, ~ member e x).
Proof.
  intros V. rewrite empty_spec by exact V. split; intros H x.
  - rewrite <- nget_member by exact V. rewrite H. discriminate.
  - specialize (H x). rewrite <- nget_member in H by exact V. destruct (nget (e_nodes e) x); [destruct H; reflexivity|reflexivity].
Qed.
Lemma any_in a b : valid a -> valid b -> (ebitmap_match_any a b = true <-> exists x, member a x /\ member b x).
Proof.
  intros A B. rewrite match_any_spec by assumption. split; intros (x & H1 & H2); exists x; [rewrite <- !nget_member by assumption; auto|].
  rewrite !nget_member by assumption. auto.
Qed.

Lemma nz_bits a b : negb (N.land a b =? 0) = true <-> exists p, N.testbit a p = true /\ N.testbit b p = true.
Proof.
  rewrite negb_true_iff, N.eqb_neq. split.
  - intros H. destruct (nonzero_bit _ H) as (p & Hp). rewrite N.land_spec in Hp. apply andb_prop in Hp. exists p. exact Hp.
  - intros (p & H1 & H2) E. apply (f_equal (fun v => N.testbit v p)) in E. rewrite N.land_spec, H1, H2, N.bits_0 in E. discriminate.
Qed.
Lemma nz_flag a k : negb (N.land a (2 ^ k) =? 0) = N.testbit a k.
Proof. replace (2 ^ k) with (N.shiftl 1 k) by (rewrite N.shiftl_1_l; reflexivity). apply land_bit_nz. Qed.
Lemma self_bit a : negb (N.land a RULE_SELF =? 0) = N.testbit a 0.
Proof. exact (nz_flag a 0). Qed.
Lemma notself_bit a : negb (N.land a RULE_NOTSELF =? 0) = N.testbit a 1.
Proof. exact (nz_flag a 1). Qed.
Lemma allowed_bit a : (N.land a AVTAB_ALLOWED =? 0) = negb (N.testbit a 0).
Proof. rewrite <- (nz_flag a 0), negb_involutive. reflexivity. Qed.
Lemma xallowed_bit a : (N.land a AVTAB_XPERMS_ALLOWED =? 0) = negb (N.testbit a 8).
Proof. rewrite <- (nz_flag a 8), negb_involutive. reflexivity. Qed.

Lemma match_perms_spec l cls data : match_perms l cls data = true <-> exists m p, In (cls, m) l /\ N.testbit m p = true /\ N.testbit data p = true.
Proof.
  unfold match_perms. rewrite existsb_exists. split.
  - intros ((c, m) & Hi & H). cbn [fst snd] in H. apply andb_prop in H as [H1 H2]. apply N.eqb_eq in H1. subst c. apply nz_bits in H2 as (p & H2). exists m, p. auto.
  - intros (m & p & Hi & H). exists (cls, m). split; [exact Hi|]. cbn [fst snd]. rewrite N.eqb_refl. apply nz_bits. exists p. exact H.
Qed.

Lemma sum_zero {A} (f : A -> N) l : fold_right N.add 0 (map f l) = 0 <-> forall x, In x l -> f x = 0.
Proof.
  induction l as [|a l IH]; cbn [map fold_right]; [split; [intros _ x []|reflexivity]|]. split.
  - intros H x [<-|Hx]; [lia|]. apply IH; [lia|exact Hx].
  - intros H. rewrite (H a (or_introl eq_refl)). apply IH. intros x Hx. apply H. right. exact Hx.
Qed.

Lemma two_lists (l1 l2 l3 : list N) : NoDup l1 -> NoDup l2 -> NoDup l3 -> (forall x, In x l3 <-> In x l1 /\ In x l2) ->
  ((if (N.of_nat (length l1) =? 0) || (N.of_nat (length l2) =? 0) then false
    else if (N.of_nat (length l1) =? 1) && (N.of_nat (length l2) =? 1) then negb (N.of_nat (length l3) =? 1) else true) = true <->
   exists i j, In i l1 /\ In j l2 /\ i <> j).
Proof.
  assert (Z : forall (x : N) l, (N.of_nat (length (x :: l)) =? 0) = false) by (intros; apply N.eqb_neq; cbn [length]; lia).
  assert (T : forall (x y : N) l, (N.of_nat (length (x :: y :: l)) =? 1) = false) by (intros; apply N.eqb_neq; cbn [length]; lia).
  intros N1 N2 N3 E.
  destruct l1 as [|a [|a' l]]; [split; [discriminate|intros (i & j & [] & _)]|..];
    (destruct l2 as [|b [|b' l']]; [rewrite orb_true_r; split; [discriminate|intros (i & j & _ & [] & _)]|..]); rewrite ?Z, ?T; cbn [orb andb].
  - change (N.of_nat (length [a]) =? 1) with true. change (N.of_nat (length [b]) =? 1) with true. cbn [andb]. rewrite negb_true_iff, N.eqb_neq. split.
    + intros H. exists a, b. split; [left; reflexivity|]. split; [left; reflexivity|]. intros <-. apply H. clear H.
      assert (HI : In a l3) by (apply E; split; left; reflexivity). destruct l3 as [|x [|y m]]; [destruct HI|reflexivity|exfalso].
      inversion N3 as [|? ? N4 _]; subst. apply N4. left. destruct (proj1 (E x) (or_introl eq_refl)) as [[<-|[]] _].
      destruct (proj1 (E y) (or_intror (or_introl eq_refl))) as [[<-|[]] _]. reflexivity.
    + intros (i & j & [<-|[]] & [<-|[]] & H) L. apply H. destruct l3 as [|x m]; [discriminate|].
      destruct (proj1 (E x) (or_introl eq_refl)) as [[<-|[]] [<-|[]]]. reflexivity.
  - rewrite andb_false_r. split; [intros _|reflexivity].
    destruct (N.eq_dec a b) as [->|Hab]; [exists b, b'|exists a, b]; (split; [left; reflexivity|]).
    + split; [right; left; reflexivity|]. intros <-. inversion N2 as [|? ? N4 _]; subst. apply N4. left. reflexivity.
    + split; [left; reflexivity|exact Hab].
  - split; [intros _|reflexivity]. destruct (N.eq_dec a b) as [->|Hab]; [exists a', b|exists a, b].
    + split; [right; left; reflexivity|]. split; [left; reflexivity|]. intros ->. inversion N1 as [|? ? N4 _]; subst. apply N4. left. reflexivity.
    + split; [left; reflexivity|]. split; [left; reflexivity|exact Hab].
  - split; [intros _|reflexivity]. destruct (N.eq_dec a b) as [->|Hab]; [exists a', b|exists a, b].
    + split; [right; left; reflexivity|]. split; [left; reflexivity|]. intros ->. inversion N1 as [|? ? N4 _]; subst. apply N4. left. reflexivity.
    + split; [left; reflexivity|]. split; [left; reflexivity|exact Hab].
Qed.

(** ** Pairs of types looked at *)
(** What the nested loops look at: the scope, but with [self] only equal types. *)
Definition checked (r : narule) (s t : N) : Prop := in_scope r s t /\ (says_self r -> t = s).

Section Rule.
Context (P : apolicy) (HP : sets_ok P) (r : narule) (HR : rule_ok r) (HF : one_flag r).

Lemma src_valid k : valid (src_matches P r k).
Proof. apply and_valid; [apply HR|apply HP]. Qed.
Lemma src_in k x : member (src_matches P r k) x <-> member (na_s r) x /\ member (ap_attr P (k_src k)) x.
Proof. apply and_in; [apply HR|apply HP]. Qed.
Lemma tgt_valid k : valid (tgt_matches P r k).
Proof.
  destruct HR as [_ V]. pose proof (proj1 (HP (k_tgt k))) as W. unfold tgt_matches. destruct (negb (N.land (na_flags r) RULE_NOTSELF =? 0)).
  - destruct (ebitmap_is_empty (na_t r)); [rewrite cpy_id; exact W|apply and_valid; assumption].
  - destruct (negb (N.land (na_flags r) RULE_SELF =? 0)); [|apply and_valid; assumption]. cbv zeta.
    destruct (negb (ebitmap_is_empty _)); [|apply and_valid; assumption]. apply union_valid; apply and_valid; try assumption. apply src_valid.
Qed.
Lemma tgt_in k x : member (tgt_matches P r k) x <->
  member (ap_attr P (k_tgt k)) x /\
  ((~ says_notself r /\ (member (na_t r) x \/ (says_self r /\ member (src_matches P r k) x))) \/
   (says_notself r /\ (member (na_t r) x \/ forall y, ~ member (na_t r) y))).
Proof.
  destruct HR as [_ V]. pose proof (proj1 (HP (k_tgt k))) as W. unfold tgt_matches, says_self, says_notself. rewrite notself_bit, self_bit.
  destruct (N.testbit (na_flags r) 1) eqn:E1.
  - destruct (ebitmap_is_empty (na_t r)) eqn:Em.
    + rewrite cpy_id. pose proof (proj1 (empty_in _ V) Em) as Em'. split; [intros H; split; [exact H|right; split; [reflexivity|right; exact Em']]|tauto].
    + rewrite and_in by assumption. split; [intros [H1 H2]; split; [exact H2|right; auto]|].
      intros [H1 [[H2 _]|[_ [H2|H2]]]]; [congruence|auto|]. apply (proj2 (empty_in _ V)) in H2. congruence.
  - destruct (N.testbit (na_flags r) 0) eqn:E0; cbv zeta.
    + destruct (ebitmap_is_empty (ebitmap_and (src_matches P r k) (ap_attr P (k_tgt k)))) eqn:Em; cbn [negb].
      * pose proof (proj1 (empty_in _ (and_valid _ _ (src_valid k) W)) Em) as Hn. rewrite and_in by assumption. split.
        -- intros [H1 H2]. split; [exact H2|]. left. split; [congruence|auto].
        -- intros [H1 [[_ [H2|[_ H2]]]|[H2 _]]]; [auto| |congruence]. exfalso. apply (Hn x). apply and_in; [apply src_valid|exact W|auto].
      * rewrite union_in by (apply and_valid; first [assumption|apply src_valid]). rewrite (and_in _ _ x V W), (and_in _ _ x (src_valid k) W). split.
        -- intros [[H1 H2]|[H1 H2]]; (split; [exact H2|]); left; (split; [congruence|]); auto.
        -- intros [H1 [[_ [H2|[_ H2]]]|[H2 _]]]; [auto|auto|congruence].
    + rewrite and_in by assumption. split.
      * intros [H1 H2]. split; [exact H2|]. left. split; [congruence|auto].
      * intros [H1 [[_ [H2|[H2 _]]]|[H2 _]]]; [auto|congruence|congruence].
Qed.

Lemma flags_excl : says_self r -> says_notself r -> False.
Proof. unfold says_self, says_notself. destruct HF as [F|[F|F]]; rewrite F; cbn; intros; discriminate. Qed.

Lemma skipped_spec i j : skipped r i j = false <-> (says_self r -> i = j) /\ (says_notself r -> i <> j).
Proof.
  unfold skipped, says_self, says_notself. rewrite notself_bit, self_bit, orb_false_iff, !andb_false_iff, negb_false_iff, N.eqb_eq, N.eqb_neq.
  destruct (N.testbit (na_flags r) 0), (N.testbit (na_flags r) 1); intuition congruence.
Qed.

Lemma pairs_spec k i j : In (i, j) (pairs (src_matches P r k) (tgt_matches P r k)) /\ skipped r i j = false <->
  member (ap_attr P (k_src k)) i /\ member (ap_attr P (k_tgt k)) j /\ checked r i j.
Proof.
  unfold pairs. rewrite in_prod_iff, !bits_in by (first [apply src_valid|apply tgt_valid]). rewrite src_in, tgt_in, src_in, skipped_spec. unfold checked, in_scope.
  pose proof flags_excl as X. split.
  - intros ([[H1 H2] [H3 H4]] & S1 & S2). split; [exact H2|]. split; [exact H3|]. split; [|intros Hs; symmetry; auto]. split; [exact H1|].
    destruct H4 as [[N1 [H4|[Hs [H5 H6]]]]|[N1 H4]].
    + left. auto.
    + left. split; [exact N1|]. right. split; [exact Hs|symmetry; auto].
    + right. split; [exact N1|]. split; [intros E; apply (S2 N1); auto|exact H4].
  - intros (H2 & H3 & (H1 & H4) & Hs). split.
    + split; [auto|]. split; [exact H3|]. destruct H4 as [[N1 [H4|[S1 H4]]]|(N1 & N2 & H4)]; [left; auto| |right; auto].
      subst j. left. split; [exact N1|]. right. auto.
    + split; [intros S1; symmetry; auto|]. intros N1 E. subst j. destruct H4 as [[N2 _]|(_ & N2 & _)]; [contradiction|congruence].
Qed.

Lemma checked_scope : self_alone r -> forall s t, checked r s t <-> in_scope r s t.
Proof.
  intros A s t. unfold checked. split; [tauto|]. intros H. split; [exact H|]. intros S. destruct H as [_ [[_ [H|[_ H]]]|(N1 & _)]]; [destruct (A S t H)|exact H|].
  destruct (flags_excl S N1).
Qed.

(** A rule of the policy that violates the neverallow rule, as far as checked. *)
Definition bad_entry (n : anode) : Prop := exists s t c p, checked r s t /\ names r c p /\ covers P n s t c p.

Lemma bad_matches conditional n : ordinary r -> (report_matches P r conditional n <> 0 <-> bad_entry n).
Proof.
  intros O. unfold report_matches. rewrite allowed_bit. split.
  - destruct (N.testbit (k_spec (n_key n)) 0) eqn:Ea; cbn [negb]; [|congruence].
    destruct (match_perms (na_perms r) (k_cls (n_key n)) (d_data (n_datum n))) eqn:Em; cbn [negb]; [|congruence].
    destruct (ebitmap_is_empty (src_matches P r (n_key n))); [congruence|]. destruct (ebitmap_is_empty (tgt_matches P r (n_key n))); [congruence|].
    intros H. destruct (Exists_dec (fun cp => exists ij, In ij (pairs (src_matches P r (n_key n)) (tgt_matches P r (n_key n))) /\
      skipped r (fst ij) (snd ij) = false /\ (fst cp =? k_cls (n_key n)) && negb (N.land (snd cp) (d_data (n_datum n)) =? 0) = true) (na_perms r)) as [X|X].
    + intros [c m]. destruct ((fst (c, m) =? k_cls (n_key n)) && negb (N.land (snd (c, m)) (d_data (n_datum n)) =? 0)) eqn:Q.
      * destruct (Exists_dec (fun ij => skipped r (fst ij) (snd ij) = false) (pairs (src_matches P r (n_key n)) (tgt_matches P r (n_key n)))) as [Y|Y].
        -- intros x. destruct (skipped r (fst x) (snd x)); [right; discriminate|left; reflexivity].
        -- left. apply Exists_exists in Y as (ij & H1 & H2). exists ij. auto.
        -- right. intros (ij & H1 & H2 & _). apply Y. apply Exists_exists. exists ij. auto.
      * right. intros (ij & _ & _ & E). discriminate.
    + apply Exists_exists in X as ((c, m) & Hc & (i, j) & Hij & Hs & Q). cbn [fst snd] in *. apply andb_prop in Q as [Q1 Q2]. apply N.eqb_eq in Q1.
      apply nz_bits in Q2 as (p & Q2 & Q3). destruct (proj1 (pairs_spec (n_key n) i j) (conj Hij Hs)) as (M1 & M2 & C).
      exists i, j, c, p. split; [exact C|]. split; [exists m; auto|]. split; [exact Ea|]. auto.
    + exfalso. apply H. apply sum_zero. intros [c m] Hc. cbn [fst snd].
      destruct (negb (c =? k_cls (n_key n)) || (N.land m (d_data (n_datum n)) =? 0)) eqn:Q; [reflexivity|].
      apply sum_zero. intros ij Hij. destruct (skipped r (fst ij) (snd ij)) eqn:Hs; [reflexivity|]. exfalso. apply X.
      apply Exists_exists. exists (c, m). split; [exact Hc|]. exists ij. split; [exact Hij|]. split; [exact Hs|]. cbn [fst snd].
      apply orb_false_iff in Q as [Q1 Q2]. apply negb_false_iff in Q1. rewrite Q1, Q2. reflexivity.
  - intros (s & t & c & p & C & (m & Hm & Hp) & Ea & Ec & M1 & M2 & Hd). rewrite Ea. cbn [negb].
    assert (Em : match_perms (na_perms r) (k_cls (n_key n)) (d_data (n_datum n)) = true) by (apply match_perms_spec; exists m, p; rewrite Ec; auto).
    rewrite Em. cbn [negb]. destruct (proj2 (pairs_spec (n_key n) s t) (conj M1 (conj M2 C))) as [Hi Hs].
    pose proof Hi as Hj. unfold pairs in Hj. rewrite in_prod_iff, !bits_in in Hj by (first [apply src_valid|apply tgt_valid]). destruct Hj as [J1 J2].
    destruct (ebitmap_is_empty (src_matches P r (n_key n))) eqn:E1; [destruct (proj1 (empty_in _ (src_valid _)) E1 _ J1)|].
    destruct (ebitmap_is_empty (tgt_matches P r (n_key n))) eqn:E2; [destruct (proj1 (empty_in _ (tgt_valid _)) E2 _ J2)|].
    intros Z. rewrite sum_zero in Z. specialize (Z (c, m) Hm). cbn [fst snd] in Z. rewrite <- Ec, N.eqb_refl in Z. cbn [negb orb] in Z.
    assert (Q : (N.land m (d_data (n_datum n)) =? 0) = false). { apply negb_true_iff. apply nz_bits. exists p. auto. }
    rewrite Q in Z. rewrite sum_zero in Z. specialize (Z (s, t) Hi). cbn [fst snd] in Z. rewrite Hs, O in Z. discriminate.
Qed.

Lemma notself_spec k : says_notself r -> (notself_match P r k = true <-> exists i j, member (ap_attr P (k_src k)) i /\ member (ap_attr P (k_tgt k)) j /\ checked r i j).
Proof.
  intros NS. assert (ET : tgt_matches P r k = if ebitmap_is_empty (na_t r) then ebitmap_cpy (ap_attr P (k_tgt k)) else ebitmap_and (na_t r) (ap_attr P (k_tgt k))).
  { unfold tgt_matches. rewrite notself_bit. unfold says_notself in NS. rewrite NS. reflexivity. }
  unfold notself_match. rewrite <- ET. fold (src_matches P r k). cbv zeta.
  rewrite <- (bits_card _ (src_valid k)), <- (bits_card _ (tgt_valid k)), <- (bits_card _ (and_valid _ _ (src_valid k) (tgt_valid k))).
  pose proof (bits_nodup _ (src_valid k)) as N1. pose proof (bits_nodup _ (tgt_valid k)) as N2. pose proof (bits_nodup _ (and_valid _ _ (src_valid k) (tgt_valid k))) as N3.
  assert (E : (exists i j, member (ap_attr P (k_src k)) i /\ member (ap_attr P (k_tgt k)) j /\ checked r i j) <->
              exists i j, In i (bits (src_matches P r k)) /\ In j (bits (tgt_matches P r k)) /\ i <> j).
  { split; intros (i & j & H); exists i, j.
    - apply pairs_spec in H as [H1 H2]. unfold pairs in H1. apply in_prod_iff in H1 as [H1 H3]. split; [exact H1|]. split; [exact H3|]. apply skipped_spec in H2. apply H2. exact NS.
    - apply pairs_spec. destruct H as (H1 & H2 & H3). split; [apply in_prod_iff; auto|]. apply skipped_spec. split; [intros S; destruct (flags_excl S NS)|auto]. }
  rewrite E. clear E.
  assert (EA : forall x, In x (bits (ebitmap_and (src_matches P r k) (tgt_matches P r k))) <-> In x (bits (src_matches P r k)) /\ In x (bits (tgt_matches P r k))).
  { intros x. rewrite !bits_in by (first [apply src_valid|apply tgt_valid|apply and_valid; [apply src_valid|apply tgt_valid]]).
    apply and_in; [apply src_valid|apply tgt_valid]. }
  apply two_lists; assumption.
Qed.

(** What one entry has to do with the rule, whatever the second pass makes of it. *)
Definition hits (n : anode) : Prop := exists s t c p, in_scope r s t /\ names r c p /\ covers P n s t c p.
Lemma notself_scope i j : says_notself r -> (checked r i j <-> in_scope r i j).
Proof. intros NS. unfold checked. split; [tauto|]. intros H. split; [exact H|]. intros S. destruct (flags_excl S NS). Qed.
(** The first pass by itself: exactly the violated rules, also when [self] stands beside other targets. *)
Lemma match_exact b n : ordinary r -> (avtab_match P r b n = true <-> hits n).
Proof.
  intros O. unfold avtab_match. rewrite allowed_bit, O. change (128 =? XNEVERALLOW) with false. cbv iota.
  destruct (N.testbit (k_spec (n_key n)) 0) eqn:Ea; cbn [negb]; [|split; [discriminate|intros (s & t & c & p & _ & _ & A & _); congruence]].
  destruct (match_perms (na_perms r) (k_cls (n_key n)) (d_data (n_datum n))) eqn:Em; cbn [negb].
  2: { split; [discriminate|]. intros (s & t & c & p & _ & (m & Hm & Hp) & _ & Ec & _ & _ & Hd). exfalso.
       enough (match_perms (na_perms r) (k_cls (n_key n)) (d_data (n_datum n)) = true) by congruence. apply match_perms_spec. exists m, p. rewrite Ec. auto. }
  apply match_perms_spec in Em as (m & p & Hm & Hp & Hd).
  assert (MK : forall s t, in_scope r s t -> member (ap_attr P (k_src (n_key n))) s -> member (ap_attr P (k_tgt (n_key n))) t -> hits n).
  { intros s t SC M1 M2. exists s, t, (k_cls (n_key n)), p. split; [exact SC|]. split; [exists m; auto|]. split; [exact Ea|]. auto. }
  destruct (ebitmap_match_any (na_s r) (ap_attr P (k_src (n_key n)))) eqn:E1; cbn [negb].
  2: { split; [discriminate|]. intros (s & t & c & q & [HS _] & _ & _ & _ & M1 & _). exfalso.
       enough (ebitmap_match_any (na_s r) (ap_attr P (k_src (n_key n))) = true) by congruence. apply any_in; [apply HR|apply HP|exists s; auto]. }
  apply any_in in E1 as (s0 & S1 & S2); [|apply HR|apply HP].
  rewrite notself_bit. destruct (N.testbit (na_flags r) 1) eqn:NB.
  - pose proof (notself_spec (n_key n) NB) as NS. destruct (notself_match P r (n_key n)); cbn [negb].
    + split; [intros _|reflexivity]. destruct (proj1 NS eq_refl) as (i & j & M1 & M2 & [SC _]). apply (MK i j); assumption.
    + split; [discriminate|]. intros (s & t & c & q & SC & _ & _ & _ & M1 & M2 & _). apply NS. exists s, t. split; [exact M1|]. split; [exact M2|]. apply notself_scope; assumption.
  - assert (NN : ~ says_notself r) by (unfold says_notself; congruence).
    destruct (ebitmap_match_any (na_t r) (ap_attr P (k_tgt (n_key n)))) eqn:E2; cbn [negb].
    + split; [intros _|reflexivity]. apply any_in in E2 as (t0 & T1 & T2); [|apply HR|apply HP]. apply (MK s0 t0); [|assumption|assumption].
      split; [exact S1|]. left. auto.
    + assert (NT : forall t, member (na_t r) t -> member (ap_attr P (k_tgt (n_key n))) t -> False).
      { intros t T1 T2. enough (ebitmap_match_any (na_t r) (ap_attr P (k_tgt (n_key n))) = true) by congruence. apply any_in; [apply HR|apply HP|exists t; auto]. }
      assert (SF : na_flags r =? RULE_SELF = N.testbit (na_flags r) 0). { destruct HF as [F|[F|F]]; rewrite F; reflexivity. }
      rewrite SF. destruct (N.testbit (na_flags r) 0) eqn:SB; cbn [negb].
      * destruct (self_match P r (n_key n)) eqn:E3; cbn [negb].
        -- split; [intros _|reflexivity]. unfold self_match in E3. apply any_in in E3 as (x & X1 & X2); [|apply and_valid; [apply HR|apply HP]|apply HP].
           apply and_in in X1 as [X0 X1]; [|apply HR|apply HP]. apply (MK x x); [|assumption|assumption]. split; [exact X0|]. left. split; [exact NN|]. right. auto.
        -- split; [discriminate|]. intros (s & t & c & q & [HS [[_ [HT|[_ ->]]]|[HN _]]] & _ & _ & _ & M1 & M2 & _); [destruct (NT t HT M2)| |contradiction].
           exfalso. enough (self_match P r (n_key n) = true) by congruence. apply any_in; [apply and_valid; [apply HR|apply HP]|apply HP|]. exists s. split; [|exact M2]. apply and_in; [apply HR|apply HP|auto].
      * split; [discriminate|]. intros (s & t & c & q & [HS [[_ [HT|[S _]]]|[HN _]]] & _ & _ & _ & M1 & M2 & _); [destruct (NT t HT M2)|unfold says_self in S; congruence|contradiction].
Qed.
Lemma check_exact : ordinary r -> (check_assertion P r = true <-> violated P r).
Proof.
  intros O. unfold check_assertion, violated, all_rules. rewrite orb_true_iff, !existsb_exists. split.
  - intros [(n & Hn & M)|(n & Hn & M)]; apply (match_exact _ n O) in M as (s & t & c & p & H); exists n, s, t, c, p; (split; [apply in_app_iff; auto|exact H]).
  - intros (n & s & t & c & p & Hn & H). apply in_app_iff in Hn as [Hn|Hn]; [left|right]; exists n; (split; [exact Hn|]); apply (match_exact _ n O); exists s, t, c, p; exact H.
Qed.

(** The first pass finds every entry that the second one reports. *)
Lemma match_targets n s t c p : checked r s t -> names r c p -> covers P n s t c p ->
  avtab_match P r true n = (if na_spec r =? XNEVERALLOW then xcheck P r (n_key n) true else true) /\
  avtab_match P r false n = (if na_spec r =? XNEVERALLOW then xcheck P r (n_key n) false else true).
Proof.
  intros C (m & Hm & Hp) (Ea & Ec & M1 & M2 & Hd). unfold avtab_match. rewrite allowed_bit, Ea. cbn [negb].
  assert (Em : match_perms (na_perms r) (k_cls (n_key n)) (d_data (n_datum n)) = true) by (apply match_perms_spec; exists m, p; rewrite Ec; auto).
  rewrite Em. cbn [negb]. pose proof C as [[HS HT] Hself].
  assert (E1 : ebitmap_match_any (na_s r) (ap_attr P (k_src (n_key n))) = true) by (apply any_in; [apply HR|apply HP|exists s; auto]).
  rewrite E1. cbn [negb].
  assert (ET : (if negb (N.land (na_flags r) RULE_NOTSELF =? 0) then notself_match P r (n_key n)
      else if ebitmap_match_any (na_t r) (ap_attr P (k_tgt (n_key n))) then true
      else if na_flags r =? RULE_SELF then self_match P r (n_key n) else false) = true).
  { rewrite notself_bit. destruct (N.testbit (na_flags r) 1) eqn:E; [apply (notself_spec (n_key n) E); exists s, t; auto|].
    destruct (ebitmap_match_any (na_t r) (ap_attr P (k_tgt (n_key n)))) eqn:E2; [reflexivity|].
    destruct HT as [[_ [HT|[S ->]]]|[HN _]]; [|..|unfold says_notself in HN; congruence].
    - exfalso. assert (X : ebitmap_match_any (na_t r) (ap_attr P (k_tgt (n_key n))) = true) by (apply any_in; [apply HR|apply HP|exists t; auto]). congruence.
    - assert (F : na_flags r = 1). { unfold says_self in S. destruct HF as [F|[F|F]]; rewrite F in *; [discriminate|reflexivity|discriminate]. }
      rewrite F. change (1 =? RULE_SELF) with true. cbv iota. apply any_in; [apply and_valid; [apply HR|apply HP]|apply HP|]. exists s. split; [|exact M2]. apply and_in; [apply HR|apply HP|auto]. }
  rewrite ET. cbn [negb]. auto.
Qed.

Lemma errors_ordinary : ordinary r -> (report_errors P r <> 0 <-> exists n, In n (all_rules P) /\ bad_entry n).
Proof.
  intros O. unfold report_errors, all_rules. split.
  - intros H. assert (Hor : fold_right N.add 0 (map (report_matches P r false) (avtab_map_list (ap_te P))) <> 0 \/
       fold_right N.add 0 (map (report_matches P r true) (avtab_map_list (ap_cte P))) <> 0) by lia.
    assert (G : forall b l, fold_right N.add 0 (map (report_matches P r b) l) <> 0 -> exists n, In n l /\ bad_entry n).
    { intros b l. induction l as [|n l IH]; cbn [map fold_right]; [congruence|]. intros Q.
      destruct (N.eq_dec (report_matches P r b n) 0) as [Z|Z].
      - destruct IH as (x & Hx & B); [lia|]. exists x. split; [right; exact Hx|exact B].
      - exists n. split; [left; reflexivity|]. apply (bad_matches b n O). exact Z. }
    destruct Hor as [Q|Q]; apply G in Q as (n & Hn & B); exists n; (split; [apply in_app_iff; auto|exact B]).
  - intros (n & Hn & B) Z. apply in_app_iff in Hn as [Hn|Hn].
    + assert (Q : fold_right N.add 0 (map (report_matches P r false) (avtab_map_list (ap_te P))) = 0) by lia. rewrite sum_zero in Q.
      apply (bad_matches false n O) in B. apply B. auto.
    + assert (Q : fold_right N.add 0 (map (report_matches P r true) (avtab_map_list (ap_cte P))) = 0) by lia. rewrite sum_zero in Q.
      apply (bad_matches true n O) in B. apply B. auto.
Qed.

Lemma check_ordinary : ordinary r -> (exists n, In n (all_rules P) /\ bad_entry n) -> check_assertion P r = true.
Proof.
  intros O (n & Hn & s & t & c & p & C & HN & HC). unfold check_assertion. destruct (match_targets n s t c p C HN HC) as [M1 M2].
  rewrite O in M1, M2. change (128 =? XNEVERALLOW) with false in M1, M2. apply orb_true_iff.
  apply in_app_iff in Hn as [Hn|Hn]; [left|right]; apply existsb_exists; exists n; auto.
Qed.
End Rule.

(** ** The number of errors *)
Fixpoint index_all {A B} (G : A -> list B) (l : list A) (k : nat) : list (nat * B) :=
  match l with [] => [] | x :: l' => map (pair k) (G x) ++ index_all G l' (S k) end.
Lemma index_in {A B} (G : A -> list B) l : forall k a b, In (a, b) (index_all G l k) -> exists i x, a = (k + i)%nat /\ nth_error l i = Some x /\ In b (G x).
Proof.
  induction l as [|x l IH]; intros k a b H; [destruct H|]. cbn [index_all] in H. apply in_app_iff in H as [H|H].
  - apply in_map_iff in H as (b' & E & H). injection E as <- <-. exists 0%nat, x. split; [lia|]. split; [reflexivity|exact H].
  - apply IH in H as (i & y & -> & H). exists (S i), y. split; [lia|exact H].
Qed.
Lemma index_nodup {A B} (G : A -> list B) l : (forall x, In x l -> NoDup (G x)) -> forall k, NoDup (index_all G l k).
Proof.
  induction l as [|x l IH]; intros H k; [constructor|]. cbn [index_all].
  assert (D : forall (l1 l2 : list (nat * B)), NoDup l1 -> NoDup l2 -> (forall y, In y l1 -> ~ In y l2) -> NoDup (l1 ++ l2)).
  { intros l1 l2 N1 N2 Hd. induction N1 as [|y l1 Hy N1 I1]; [exact N2|]. cbn [app]. constructor.
    - rewrite in_app_iff. intros [Q|Q]; [auto|]. apply (Hd y (or_introl eq_refl) Q).
    - apply I1. intros z Hz. apply Hd. right. exact Hz. }
  apply D.
  - assert (N1 : NoDup (G x)) by (apply H; left; reflexivity). induction N1 as [|y l1 Hy N1 I1]; cbn [map]; constructor; [|exact I1].
    intros Q. apply in_map_iff in Q as (z & E & Q). injection E as ->. auto.
  - apply IH. intros y Hy. apply H. right. exact Hy.
  - intros [a b] Ha Hb. apply in_map_iff in Ha as (y & E & _). injection E as <- <-. apply index_in in Hb as (i & z & E & _). lia.
Qed.
Lemma index_length {A B} (G : A -> list B) (f : A -> N) l : (forall x, In x l -> N.of_nat (length (G x)) = f x) ->
  forall k, N.of_nat (length (index_all G l k)) = fold_right N.add 0 (map f l).
Proof.
  induction l as [|x l IH]; intros H k; [reflexivity|]. cbn [index_all map fold_right]. rewrite app_length, map_length.
  rewrite <- (H x (or_introl eq_refl)), <- (IH (fun y Hy => H y (or_intror Hy)) (S k)). lia.
Qed.
Lemma nodup_app_disj {A} (l1 l2 : list A) : NoDup l1 -> NoDup l2 -> (forall y, In y l1 -> ~ In y l2) -> NoDup (l1 ++ l2).
Proof.
  intros N1 N2 Hd. induction N1 as [|y l1 Hy N1 I1]; [exact N2|]. cbn [app]. constructor.
  - rewrite in_app_iff. intros [Q|Q]; [auto|]. apply (Hd y (or_introl eq_refl) Q).
  - apply I1. intros z Hz. apply Hd. right. exact Hz.
Qed.
Lemma prod_nodup {A B} (l : list A) (m : list B) : NoDup l -> NoDup m -> NoDup (list_prod l m).
Proof.
  intros N1 N2. induction N1 as [|x l Hx N1 IH]; [constructor|]. cbn [list_prod]. apply nodup_app_disj; [|exact IH|].
  - clear IH. induction N2 as [|y m Hy N2 I2]; cbn [map]; constructor; [|exact I2]. intros Q. apply in_map_iff in Q as (z & E & Q). injection E as ->. auto.
  - intros [a b] Ha Hb. apply in_map_iff in Ha as (y & E & _). injection E as <- <-. apply in_prod_iff in Hb as [Hb _]. auto.
Qed.
Lemma count_filter {A} (p : A -> bool) l : fold_right N.add 0 (map (fun x => if p x then 0 else 1) l) = N.of_nat (length (filter (fun x => negb (p x)) l)).
Proof. induction l as [|x l IH]; [reflexivity|]. cbn [map fold_right filter]. rewrite IH. destruct (p x); cbn [negb length]; lia. Qed.

Section Count.
Context (P : apolicy) (HP : sets_ok P) (r : narule) (HR : rule_ok r) (HF : one_flag r) (HO : ordinary r).

(** The reports about one entry, by class entry and pair of types. *)
Definition places (n : anode) (cp : N * N) : list (N * N) :=
  if negb (fst cp =? k_cls (n_key n)) || (N.land (snd cp) (d_data (n_datum n)) =? 0) then []
  else filter (fun ij => negb (skipped r (fst ij) (snd ij))) (pairs (src_matches P r (n_key n)) (tgt_matches P r (n_key n))).
Definition entry_places (n : anode) : list (nat * (N * N)) :=
  if report_matches P r false n =? 0 then [] else index_all (places n) (na_perms r) 0.

Lemma report_any b n : report_matches P r b n = report_matches P r false n.
Proof. unfold report_matches. rewrite HO. reflexivity. Qed.

Lemma places_nodup n cp : NoDup (places n cp).
Proof.
  unfold places. destruct (_ || _); [constructor|]. apply NoDup_filter. apply prod_nodup; apply bits_nodup; [apply src_valid|apply tgt_valid]; assumption.
Qed.
Lemma entry_nodup n : NoDup (entry_places n).
Proof. unfold entry_places. destruct (_ =? 0); [constructor|]. apply index_nodup. intros cp _. apply places_nodup. Qed.
Lemma entry_length n : N.of_nat (length (entry_places n)) = report_matches P r false n.
Proof.
  unfold entry_places. destruct (report_matches P r false n =? 0) eqn:E; [apply N.eqb_eq in E; rewrite E; reflexivity|].
  revert E. unfold report_matches. destruct (N.land _ AVTAB_ALLOWED =? 0); [discriminate|]. destruct (negb (match_perms _ _ _)); [discriminate|].
  destruct (ebitmap_is_empty _); [discriminate|]. destruct (ebitmap_is_empty _); [discriminate|]. intros _.
  apply index_length. intros cp _. unfold places. destruct (_ || _); [reflexivity|]. rewrite <- count_filter. rewrite HO. reflexivity.
Qed.
Lemma errors_sum : report_errors P r = fold_right N.add 0 (map (report_matches P r false) (all_rules P)).
Proof.
  unfold report_errors, all_rules. rewrite map_app. rewrite (map_ext _ _ (report_any true)).
  induction (map _ (avtab_map_list (ap_te P))) as [|x l IH]; [reflexivity|]. cbn [fold_right app]. rewrite <- IH. lia.
Qed.

Lemma errors_bound : few_violations P r -> report_errors P r < 2147483648.
Proof.
  intros (l & HL & H). rewrite errors_sum. set (L := index_all entry_places (all_rules P) 0).
  assert (E : N.of_nat (length L) = fold_right N.add 0 (map (report_matches P r false) (all_rules P))).
  { apply index_length. intros n _. apply entry_length. }
  rewrite <- E. set (f := fun x : nat * (nat * (N * N)) => (fst x, fst (snd x), fst (snd (snd x)), snd (snd (snd x)))).
  assert (ND : NoDup (map f L)).
  { assert (N1 : NoDup L) by (apply index_nodup; intros n _; apply entry_nodup). clear E. induction N1 as [|x m Hx N1 IH]; cbn [map]; constructor; [|exact IH].
    intros Q. apply in_map_iff in Q as ((a' & b' & s' & t') & E & Q). destruct x as (a & b & s & t). unfold f in E. cbn [fst snd] in E. injection E as -> -> -> ->. auto. }
  assert (INC : incl (map f L) l).
  { intros y Hy. apply in_map_iff in Hy as ((a & b & s & t) & <- & Hx). apply H. unfold f. cbn [fst snd violation_at].
    apply index_in in Hx as (i & n & -> & Hn & Hx). cbn [plus]. unfold entry_places in Hx.
    destruct (report_matches P r false n =? 0) eqn:Z; [destruct Hx|]. apply N.eqb_neq in Z.
    apply index_in in Hx as (j & (c, m) & -> & Hm & Hx). cbn [plus]. unfold places in Hx. cbn [fst snd] in Hx.
    destruct (negb (c =? k_cls (n_key n)) || (N.land m (d_data (n_datum n)) =? 0)) eqn:Q; [destruct Hx|].
    apply orb_false_iff in Q as [Q1 Q2]. apply negb_false_iff, N.eqb_eq in Q1. apply filter_In in Hx as [Hx1 Hx2]. cbn [fst snd] in Hx2. apply negb_true_iff in Hx2.
    destruct (proj1 (pairs_spec P HP r HR HF (n_key n) s t) (conj Hx1 Hx2)) as (M1 & M2 & [SC _]).
    assert (Q3 : negb (N.land m (d_data (n_datum n)) =? 0) = true) by (rewrite Q2; reflexivity). apply nz_bits in Q3 as (p & Q3 & Q4).
    exists n, c, m, p. split; [exact Hn|]. split; [exact Hm|]. split; [exact SC|]. split; [exact Q3|]. unfold covers.
    assert (A : N.testbit (k_spec (n_key n)) 0 = true).
    { destruct (N.testbit (k_spec (n_key n)) 0) eqn:A; [reflexivity|]. exfalso. apply Z. unfold report_matches. rewrite allowed_bit, A. reflexivity. }
    auto 8. }
  pose proof (NoDup_incl_length ND INC) as Le. rewrite map_length in Le. lia.
Qed.
End Count.

(** ** All rules *)
Definition relevant (r : narule) : bool := negb (N.land (na_spec r) (N.lor NEVERALLOW XNEVERALLOW) =? 0).

Lemma as_int_small v : v < 2147483648 -> as_int v = Z.of_N v.
Proof.
  intros H. unfold as_int. rewrite wrap32_small by (unfold W32; lia). cbv zeta. destruct (Z.ltb_spec (Z.of_N v) 2147483648); [reflexivity|lia].
Qed.

Lemma check_all P l : (forall r, In r l -> report_errors P r < 2147483648) -> forall e, (0 <= e)%Z ->
  (check_assertions P l e = true <-> e = 0%Z /\ forall r, In r l -> relevant r = true -> check_assertion P r = true -> report_errors P r = 0).
Proof.
  induction l as [|r l IH]; intros HB e He.
  - cbn [check_assertions]. rewrite Z.eqb_eq. split; [intros ->; split; [reflexivity|intros r []]|tauto].
  - cbn [check_assertions]. specialize (IH (fun x Hx => HB x (or_intror Hx))).
    assert (RV : (N.land (na_spec r) (N.lor NEVERALLOW XNEVERALLOW) =? 0) = negb (relevant r)) by (unfold relevant; rewrite negb_involutive; reflexivity).
    rewrite RV. destruct (relevant r) eqn:R; cbn [negb].
    + destruct (check_assertion P r) eqn:C.
      * rewrite as_int_small by (apply HB; left; reflexivity). destruct (Z.ltb_spec (Z.of_N (report_errors P r)) 0); [lia|]. rewrite IH by lia. split.
        -- intros [E H1]. split; [lia|]. intros x [<-|Hx] Rx Cx; [lia|auto].
        -- intros [-> H1]. rewrite (H1 r (or_introl eq_refl) R C). split; [reflexivity|]. intros x Hx. apply H1. right. exact Hx.
      * rewrite IH by exact He. split; intros [E H1]; (split; [exact E|]).
        -- intros x [<-|Hx] Rx Cx; [congruence|auto].
        -- intros x Hx. apply H1. right. exact Hx.
    + rewrite IH by exact He. split; intros [E H1]; (split; [exact E|]).
      * intros x [<-|Hx] Rx Cx; [congruence|auto].
      * intros x Hx. apply H1. right. exact Hx.
Qed.

Lemma check_rejects P l : check_assertions P l 0 = false -> exists r, In r l /\ report_errors P r <> 0.
Proof.
  intros H. destruct (Exists_dec (fun r => report_errors P r <> 0) l) as [X|X].
  - intros r. destruct (N.eq_dec (report_errors P r) 0) as [E|E]; [right; intros Q; exact (Q E)|left; exact E].
  - apply Exists_exists in X. exact X.
  - exfalso. assert (A : forall r, In r l -> report_errors P r = 0).
    { intros r Hr. destruct (N.eq_dec (report_errors P r) 0) as [E|E]; [exact E|]. exfalso. apply X. apply Exists_exists. exists r. auto. }
    assert (B : forall r, In r l -> report_errors P r < 2147483648) by (intros r Hr; rewrite (A r Hr); lia).
    rewrite (proj2 (check_all P l B 0%Z ltac:(lia))) in H; [discriminate|]. split; [reflexivity|]. intros r Hr _ _. auto.
Qed.

Lemma ordinary_violated P r : sets_ok P -> rule_ok r -> one_flag r -> self_alone r ->
  (violated P r <-> exists n, In n (all_rules P) /\ bad_entry P r n).
Proof.
  intros HP HR HF HA. unfold violated, bad_entry. split.
  - intros (n & s & t & c & p & Hn & SC & N1 & C). exists n. split; [exact Hn|]. exists s, t, c, p. split; [|auto]. apply checked_scope; assumption.
  - intros (n & Hn & s & t & c & p & [SC _] & N1 & C). exists n, s, t, c, p. auto.
Qed.

(** ** Extended permissions *)
Lemma xand_spec p q : xperms_and p q = true <-> exists i j, (i < 8)%nat /\ N.testbit (nth i p 0) j = true /\ N.testbit (nth i q 0) j = true.
Proof.
  unfold xperms_and. rewrite existsb_exists. split.
  - intros (i & Hi & H). apply in_seq in Hi. apply nz_bits in H as (j & H). exists i, j. split; [lia|exact H].
  - intros (i & j & Hi & H). exists i. split; [apply in_seq; lia|]. apply nz_bits. exists j. exact H.
Qed.
Lemma xtest_spec b p : xperm_test b p = N.testbit (nth (N.to_nat (b / 32)) p 0) (b mod 32).
Proof.
  unfold xperm_test. rewrite N.shiftr_div_pow2. change (2 ^ 5) with 32. change 31 with (N.ones 5). rewrite N.land_ones. reflexivity.
Qed.

Ltac eqc := repeat match goal with |- context [N.eqb (Npos ?a) (Npos ?b)] => let v := eval vm_compute in (N.eqb (Npos a) (Npos b)) in change (N.eqb (Npos a) (Npos b)) with v end; cbn [andb].

Lemma overlap_found a x k cmd : in_x a k cmd -> in_x x k cmd -> check_xperms a x = true.
Proof.
  intros HA HX. unfold check_xperms, IOCTLFUNCTION, IOCTLDRIVER, NLMSG.
  assert (Q : forall b, b < 256 -> (N.to_nat (b / 32) < 8)%nat). { intros b Hb. assert (b / 32 < 8) by (apply N.div_lt_upper_bound; lia). lia. }
  destruct HA as [(A1 & A2 & A3 & A4 & A5)|[(A1 & A2 & A4 & A5)|(A1 & A2 & A3 & A4 & A5)]], HX as [(B1 & B2 & B3 & B4 & B5)|[(B1 & B2 & B4 & B5)|(B1 & B2 & B3 & B4 & B5)]];
    rewrite A1, B1; eqc; try congruence.
  - rewrite <- A3, <- B3, !N.eqb_refl. cbn [andb]. apply xand_spec. exists (N.to_nat ((cmd mod 256) / 32)), ((cmd mod 256) mod 32). auto.
  - rewrite <- A3, xtest_spec. exact B5.
  - rewrite <- B3, xtest_spec. exact A5.
  - apply xand_spec. exists (N.to_nat ((cmd / 256) / 32)), ((cmd / 256) mod 32). auto.
  - rewrite <- A3, <- B3, !N.eqb_refl. cbn [andb]. apply xand_spec. exists (N.to_nat ((cmd mod 256) / 32)), ((cmd mod 256) mod 32). auto.
Qed.

Lemma xbit_intro p b : b < 256 -> xperm_test b p = true -> xbit p b.
Proof. intros H1 H2. split; [exact H1|]. rewrite <- xtest_spec. exact H2. Qed.
Lemma xand_bit p q : (forall w, In w p -> w < 4294967296) -> xperms_and p q = true -> exists b, xbit p b /\ xbit q b.
Proof.
  intros W H. apply xand_spec in H as (i & j & Hi & H1 & H2).
  assert (Hj : j < 32).
  { destruct (N.lt_ge_cases j 32) as [L|L]; [exact L|exfalso]. destruct (le_lt_dec (length p) i) as [Q|Q]; [rewrite nth_overflow in H1 by exact Q; rewrite N.bits_0 in H1; discriminate|].
    rewrite (testbit_high (nth i p 0) 32 j) in H1; [discriminate|change (2 ^ 32) with 4294967296; apply W; apply nth_In; exact Q|exact L]. }
  exists (N.of_nat i * 32 + j). assert (E1 : (N.of_nat i * 32 + j) / 32 = N.of_nat i) by (rewrite N.div_add_l by lia; rewrite N.div_small by exact Hj; lia).
  assert (E2 : (N.of_nat i * 32 + j) mod 32 = j) by (rewrite N.add_comm, N.mod_add by lia; apply N.mod_small; exact Hj).
  unfold xbit. rewrite E1, E2, Nat2N.id. split; split; try lia; assumption.
Qed.

Lemma found_overlap a x : xset_ok a -> xset_ok x -> check_xperms a x = true -> exists k cmd, in_x a k cmd /\ in_x x k cmd.
Proof.
  intros (WA & DA & bA & XA) (WX & DX & bX & XX). unfold check_xperms, IOCTLFUNCTION, IOCTLDRIVER, NLMSG.
  assert (CD : forall h l, l < 256 -> (h * 256 + l) / 256 = h) by (intros h l Hl; rewrite N.div_add_l by lia; rewrite N.div_small by exact Hl; lia).
  assert (CM : forall h l, l < 256 -> (h * 256 + l) mod 256 = l) by (intros h l Hl; rewrite N.add_comm, N.mod_add by lia; apply N.mod_small; exact Hl).
  assert (FN : forall y h l, x_spec y = 1 -> x_driver y = h -> xbit (x_perms y) l -> in_x y KIoctl (h * 256 + l)).
  { intros y h l S1 S2 S3. left. pose proof (proj1 S3) as L. rewrite CD, CM by exact L. auto. }
  assert (DR : forall y h l, x_spec y = 2 -> l < 256 -> xbit (x_perms y) h -> in_x y KIoctl (h * 256 + l)).
  { intros y h l S1 S2 S3. right. left. rewrite CD by exact S2. auto. }
  assert (NL : forall y h l, x_spec y = 3 -> x_driver y = h -> xbit (x_perms y) l -> in_x y KNlmsg (h * 256 + l)).
  { intros y h l S1 S2 S3. right. right. pose proof (proj1 S3) as L. rewrite CD, CM by exact L. auto. }
  destruct (N.eqb_spec (x_spec a) 1) as [A1|A1], (N.eqb_spec (x_spec x) 1) as [X1|X1]; cbn [andb].
  - intros H. apply andb_prop in H as [H1 H2]. apply N.eqb_eq in H1. apply xand_bit in H2 as (b & B1 & B2); [|exact WA]. exists KIoctl, (x_driver a * 256 + b). auto.
  - destruct (N.eqb_spec (x_spec x) 2) as [X2|X2]; cbn [andb].
    + intros H. exists KIoctl, (x_driver a * 256 + bA). split; [auto|]. apply DR; [exact X2|apply XA|]. apply xbit_intro; assumption.
    + rewrite A1. eqc. discriminate.
  - destruct (N.eqb_spec (x_spec a) 2) as [A2|A2]; cbn [andb].
    + intros H. exists KIoctl, (x_driver x * 256 + bX). split; [|auto]. apply DR; [exact A2|apply XX|]. apply xbit_intro; assumption.
    + rewrite X1. eqc. rewrite andb_false_r. discriminate.
  - destruct (N.eqb_spec (x_spec a) 2) as [A2|A2]; cbn [andb].
    + destruct (N.eqb_spec (x_spec x) 2) as [X2|X2]; cbn [andb].
      * intros H. apply xand_bit in H as (b & B1 & B2); [|exact WA]. exists KIoctl, (b * 256 + 0). split; apply DR; try assumption; lia.
      * rewrite A2. eqc. discriminate.
    + destruct (N.eqb_spec (x_spec a) 3) as [A3|A3], (N.eqb_spec (x_spec x) 3) as [X3|X3]; cbn [andb]; try discriminate.
      intros H. apply andb_prop in H as [H1 H2]. apply N.eqb_eq in H1. apply xand_bit in H2 as (b & B1 & B2); [|exact WA]. exists KNlmsg, (x_driver a * 256 + b). auto.
Qed.

Lemma known_spec x : known_kind x = true <-> x_spec x = 1 \/ x_spec x = 2 \/ x_spec x = 3.
Proof. unfold known_kind, IOCTLFUNCTION, IOCTLDRIVER, NLMSG. rewrite !orb_true_iff, !N.eqb_eq. tauto. Qed.
Lemma node_x_spec n x : node_x n = Some x <-> d_xperms (n_datum n) = Some x /\ (x_spec x = 1 \/ x_spec x = 2 \/ x_spec x = 3).
Proof.
  unfold node_x. destruct (d_xperms (n_datum n)) as [y|]; [|split; [discriminate|intros [? _]; discriminate]].
  destruct (known_kind y) eqn:E.
  - split; [intros [= ->]; split; [reflexivity|apply known_spec; exact E]|intros [[= ->] _]; reflexivity].
  - split; [discriminate|]. intros [[= ->] K]. apply known_spec in K. congruence.
Qed.

(** An allowxperm rule with this very key. *)
Definition xnode (n : anode) (s t c : N) (x : xperms) : Prop :=
  match_node_key n s t c = true /\ N.testbit (k_spec (n_key n)) 8 = true /\ node_x n = Some x.

Section Branch.
Context (r : narule) (s t c : N).
Definition quiet (l : list anode) : Prop := forall n, In n l -> N.testbit (k_spec (n_key n)) 8 = true -> N.testbit (k_spec (n_key n)) 0 = false /\ d_data (n_datum n) = 0.

Lemma no_perms cls : match_perms (na_perms r) cls 0 = false.
Proof. destruct (match_perms (na_perms r) cls 0) eqn:E; [|reflexivity]. apply match_perms_spec in E as (m & p & _ & _ & E). rewrite N.bits_0 in E. discriminate. Qed.

Lemma branch_check_spec l : quiet l ->
  (fst (fst (branch_check r s t c l)) = true <-> exists n, In n l /\ match_node_key n s t c = true /\ N.testbit (k_spec (n_key n)) 0 = true /\ match_perms (na_perms r) (k_cls (n_key n)) (d_data (n_datum n)) = true) /\
  (snd (fst (branch_check r s t c l)) = true <-> exists n x, In n l /\ xnode n s t c x) /\
  (snd (branch_check r s t c l) = true <-> exists n x, In n l /\ xnode n s t c x /\ check_xperms (na_x r) x = true).
Proof.
  induction l as [|n l IH]; intros Q.
  - cbn. split; [|split]; (split; [discriminate|]); [intros (n & [] & _)|intros (n & x & [] & _)..].
  - destruct IH as (I1 & I2 & I3); [intros m Hm; apply Q; right; exact Hm|]. cbn [branch_check].
    destruct (branch_check r s t c l) as [[base xp] bad]. cbn [fst snd] in I1, I2, I3.
    pose proof (Q n (or_introl eq_refl)) as Qn. rewrite xallowed_bit. change (negb (N.land (k_spec (n_key n)) AVTAB_ALLOWED =? 0)) with (negb (N.land (k_spec (n_key n)) (2 ^ 0) =? 0)). rewrite nz_flag.
    assert (C1 : forall X : anode -> Prop, (exists m, In m (n :: l) /\ X m) <-> X n \/ exists m, In m l /\ X m).
    { intros X. split; [intros (m & [<-|Hm] & H); [left; exact H|right; exists m; auto]|intros [H|(m & Hm & H)]; [exists n; split; [left; reflexivity|exact H]|exists m; split; [right; exact Hm|exact H]]]. }
    assert (C2 : forall X : anode -> xperms -> Prop, (exists m x, In m (n :: l) /\ X m x) <-> (exists x, X n x) \/ exists m x, In m l /\ X m x).
    { intros X. split; [intros (m & x & [<-|Hm] & H); [left; exists x; exact H|right; exists m, x; auto]|intros [(x & H)|(m & x & Hm & H)]; [exists n, x; split; [left; reflexivity|exact H]|exists m, x; split; [right; exact Hm|exact H]]]. }
    rewrite C1, (C2 (fun m x => xnode m s t c x)), (C2 (fun m x => xnode m s t c x /\ check_xperms (na_x r) x = true)), <- I1, <- I2, <- I3. clear C1 C2 I1 I2 I3. unfold xnode.
    destruct (match_node_key n s t c) eqn:K; cbn [negb]; [|cbn [fst snd]; split; [|split]].
    2: split; [tauto|intros [[E _]|E]; [discriminate|exact E]].
    2: split; [tauto|intros [(x & E & _)|E]; [discriminate|exact E]].
    2: split; [tauto|intros [(x & (E & _) & _)|E]; [discriminate|exact E]].
    destruct (N.testbit (k_spec (n_key n)) 0 && match_perms (na_perms r) (k_cls (n_key n)) (d_data (n_datum n))) eqn:B.
    + cbn [fst snd]. apply andb_prop in B as [B1 B2]. rewrite B1, B2. split; [tauto|].
      assert (E8 : N.testbit (k_spec (n_key n)) 8 = false) by (destruct (N.testbit (k_spec (n_key n)) 8); [destruct (Qn eq_refl); congruence|reflexivity]).
      rewrite E8. split; (split; [tauto|]); [intros [(x & _ & E & _)|E]|intros [(x & (_ & E & _) & _)|E]]; (discriminate || exact E).
    + assert (BN : ~ (true = true /\ N.testbit (k_spec (n_key n)) 0 = true /\ match_perms (na_perms r) (k_cls (n_key n)) (d_data (n_datum n)) = true))
        by (intros (_ & E1 & E2); rewrite E1, E2 in B; discriminate).
      destruct (N.testbit (k_spec (n_key n)) 8) eqn:E8; cbn [negb].
      * destruct (node_x n) as [x|] eqn:EX; cbn [fst snd].
        -- split; [tauto|]. split; [split; [intros _; left; exists x; auto|reflexivity]|]. rewrite orb_true_iff. split.
           ++ intros [H|H]; [left; exists x; auto|right; exact H].
           ++ intros [(y & (_ & _ & EY) & H)|H]; [injection EY as <-; left; exact H|right; exact H].
        -- split; [tauto|]. split; (split; [tauto|]); [intros [(x & _ & _ & E)|E]|intros [(x & (_ & _ & E) & _)|E]]; (discriminate || exact E).
      * cbn [fst snd]. split; [tauto|]. split; (split; [tauto|]); [intros [(x & _ & E & _)|E]|intros [(x & (_ & E & _) & _)|E]]; (discriminate || exact E).
Qed.

Lemma branch_report_spec l : quiet l ->
  ((exists n, In n l /\ match_node_key n s t c = true /\ match_perms (na_perms r) (k_cls (n_key n)) (d_data (n_datum n)) = true) -> fst (fst (branch_report r s t c l)) = true) /\
  (snd (fst (branch_report r s t c l)) = true <-> exists n x, In n l /\ xnode n s t c x) /\
  (snd (branch_report r s t c l) <> 0 <-> exists n x, In n l /\ xnode n s t c x /\ check_xperms (na_x r) x = true).
Proof.
  induction l as [|n l IH]; intros Q.
  - cbn. split; [intros (n & [] & _)|]. split; (split; [congruence|]); intros (n & x & [] & _).
  - destruct IH as (I1 & I2 & I3); [intros m Hm; apply Q; right; exact Hm|]. cbn [branch_report].
    destruct (branch_report r s t c l) as [[base xp] bad]. cbn [fst snd] in I1, I2, I3.
    pose proof (Q n (or_introl eq_refl)) as Qn. rewrite xallowed_bit.
    assert (C2 : forall X : anode -> xperms -> Prop, (exists m x, In m (n :: l) /\ X m x) <-> (exists x, X n x) \/ exists m x, In m l /\ X m x).
    { intros X. split; [intros (m & x & [<-|Hm] & H); [left; exists x; exact H|right; exists m, x; auto]|intros [(x & H)|(m & x & Hm & H)]; [exists n, x; split; [left; reflexivity|exact H]|exists m, x; split; [right; exact Hm|exact H]]]. }
    rewrite (C2 (fun m x => xnode m s t c x)), (C2 (fun m x => xnode m s t c x /\ check_xperms (na_x r) x = true)), <- I2, <- I3. clear C2 I2 I3. unfold xnode.
    destruct (match_node_key n s t c) eqn:K; cbn [negb]; [|cbn [fst snd]; split; [|split]].
    2: intros (m & [<-|Hm] & E & H); [congruence|]; apply I1; exists m; auto.
    2: split; [tauto|intros [(x & E & _)|E]; [discriminate|exact E]].
    2: split; [tauto|intros [(x & (E & _) & _)|E]; [discriminate|exact E]].
    destruct (match_perms (na_perms r) (k_cls (n_key n)) (d_data (n_datum n))) eqn:B.
    + cbn [fst snd]. split; [reflexivity|].
      assert (E8 : N.testbit (k_spec (n_key n)) 8 = false).
      { destruct (N.testbit (k_spec (n_key n)) 8); [|reflexivity]. destruct (Qn eq_refl) as [_ E]. rewrite E, no_perms in B. discriminate. }
      rewrite E8. split; (split; [tauto|]); [intros [(x & _ & E & _)|E]|intros [(x & (_ & E & _) & _)|E]]; (discriminate || exact E).
    + assert (I1' : (exists m, In m (n :: l) /\ match_node_key m s t c = true /\ match_perms (na_perms r) (k_cls (n_key m)) (d_data (n_datum m)) = true) -> base = true).
      { intros (m & [<-|Hm] & E & H); [congruence|]. apply I1. exists m. auto. }
      destruct (N.testbit (k_spec (n_key n)) 8) eqn:E8; cbn [negb].
      * destruct (node_x n) as [x|] eqn:EX; cbn [fst snd].
        -- split; [exact I1'|]. split; [split; [intros _; left; exists x; auto|reflexivity]|]. destruct (check_xperms (na_x r) x) eqn:CX.
           ++ split; [intros _; left; exists x; auto|lia].
           ++ split; [tauto|]. intros [(y & (_ & _ & EY) & H)|H]; [injection EY as <-; congruence|exact H].
        -- split; [exact I1'|]. split; (split; [tauto|]); [intros [(x & _ & _ & E)|E]|intros [(x & (_ & _ & E) & _)|E]]; (discriminate || exact E).
      * cbn [fst snd]. split; [exact I1'|]. split; (split; [tauto|]); [intros [(x & _ & E & _)|E]|intros [(x & (_ & E & _) & _)|E]]; (discriminate || exact E).
Qed.
End Branch.

Section Ext.
Context (P : apolicy) (HP : sets_ok P) (HW : wf (ap_te P)) (HM : maps_agree P) (HC : conds_listed P) (HE : entries_ok P).
Context (r : narule) (HR : rule_ok r) (HF : one_flag r) (HX : extended r).

Lemma te_listed n : In n (avtab_map_list (ap_te P)) -> In n (all_rules P).
Proof. intros H. apply in_app_iff. left. exact H. Qed.
Lemma cond_listed t f n : In (t, f) (ap_conds P) -> In n t \/ In n f -> In n (all_rules P).
Proof. intros H1 H2. apply in_app_iff. right. eapply HC; eassumption. Qed.
Lemma quiet_cond t f : In (t, f) (ap_conds P) -> quiet t /\ quiet f.
Proof. intros H. split; intros n Hn H8; (destruct (HE n) as (_ & _ & Q); [eapply cond_listed; [exact H|auto]|]; auto). Qed.

Lemma chosen_in cs ch n : In n (chosen cs ch) -> exists t f b, In ((t, f), b) (combine cs ch) /\ In n (if (b : bool) then t else f).
Proof.
  revert ch. induction cs as [|[t f] cs IH]; intros ch H; [destruct H|]. destruct ch as [|b ch]; [destruct H|]. cbn [chosen] in H. apply in_app_iff in H as [H|H].
  - exists t, f, b. split; [left; reflexivity|exact H].
  - apply IH in H as (t' & f' & b' & H1 & H2). exists t', f', b'. split; [right; exact H1|exact H2].
Qed.
Lemma in_chosen cs ch t f b n : In ((t, f), b) (combine cs ch) -> In n (if (b : bool) then t else f) -> In n (chosen cs ch).
Proof.
  revert ch. induction cs as [|[t' f'] cs IH]; intros ch H Hn; [destruct H|]. destruct ch as [|b' ch]; [destruct H|]. cbn [chosen]. apply in_app_iff. destruct H as [H|H].
  - injection H as -> -> ->. left. exact Hn.
  - right. eapply IH; eassumption.
Qed.
Lemma combine_choice {A} (cs : list A) (ch : list bool) x : length ch = length cs -> In x cs -> exists b, In (x, b) (combine cs ch).
Proof.
  revert ch. induction cs as [|y cs IH]; intros ch L H; [destruct H|]. destruct ch as [|b ch]; [discriminate|]. destruct H as [->|H].
  - exists b. left. reflexivity.
  - destruct (IH ch) as (b' & Hb); [cbn in L; lia|exact H|]. exists b'. right. exact Hb.
Qed.

(** The key of a rule about two types is among the pairs looked at. *)
Lemma key_pair n s t : In n (all_rules P) -> member (ap_attr P (k_src (n_key n))) s -> member (ap_attr P (k_tgt (n_key n))) t ->
  In (k_src (n_key n) - 1, k_tgt (n_key n) - 1) (pairs (ap_tattr P s) (ap_tattr P t)) /\
  k_src (n_key n) - 1 + 1 = k_src (n_key n) /\ k_tgt (n_key n) - 1 + 1 = k_tgt (n_key n).
Proof.
  intros Hn M1 M2. destruct (HE n Hn) as (G1 & G2 & _). split; [|lia]. apply in_prod_iff. rewrite !bits_in by apply HP. split; apply HM; assumption.
Qed.
Lemma pair_member i j s t : In (i, j) (pairs (ap_tattr P s) (ap_tattr P t)) -> member (ap_attr P (i + 1)) s /\ member (ap_attr P (j + 1)) t.
Proof.
  intros H. apply in_prod_iff in H as [H1 H2]. rewrite bits_in in H1, H2 by apply HP.
  split; (apply HM; [lia|]); [replace (i + 1 - 1) with i by lia|replace (j + 1 - 1) with j by lia]; assumption.
Qed.
Lemma key_refl n : match_node_key n (k_src (n_key n)) (k_tgt (n_key n)) (k_cls (n_key n)) = true.
Proof. unfold match_node_key. rewrite !N.eqb_refl. reflexivity. Qed.
Lemma xnode_rule n i j c x s t : xnode n i j c x -> member (ap_attr P i) s -> member (ap_attr P j) t -> xrule P n s t c x.
Proof.
  intros (K & B & X) M1 M2. unfold match_node_key in K. apply andb_prop in K as [K K3]. apply andb_prop in K as [K1 K2]. apply N.eqb_eq in K1, K2, K3.
  apply node_x_spec in X as [X1 X2]. unfold xrule. rewrite K1, K2. auto 8.
Qed.
Lemma rule_xnode n s t c x : xrule P n s t c x -> xnode n (k_src (n_key n)) (k_tgt (n_key n)) c x.
Proof.
  intros (B & K & _ & _ & X1 & X2). unfold xnode. subst c. split; [apply key_refl|]. split; [exact B|]. apply node_x_spec. auto.
Qed.

(** The unconditional allowxperm rules with this key. *)
Definition te_xs (i j c : N) : list xperms :=
  flat_map (fun n => match node_x n with Some x => [x] | None => [] end) (avtab_nodes_for (ap_te P) (mkK i j c AVTAB_XPERMS_ALLOWED)).
Lemma te_xs_in i j c x : In x (te_xs i j c) <-> exists n, In n (avtab_map_list (ap_te P)) /\ xnode n i j c x.
Proof.
  unfold te_xs. rewrite nodes_for_spec by exact HW. rewrite in_flat_map. unfold xnode, match_node_key, entry_matches. cbn [k_src k_tgt k_cls k_spec].
  assert (EK : forall n, ((i =? k_src (n_key n)) && (j =? k_tgt (n_key n)) && (c =? k_cls (n_key n)) && negb (N.land (N.land AVTAB_XPERMS_ALLOWED 32767) (k_spec (n_key n)) =? 0)) =
     ((k_src (n_key n) =? i) && (k_tgt (n_key n) =? j) && (k_cls (n_key n) =? c)) && N.testbit (k_spec (n_key n)) 8).
  { intros n. rewrite !(N.eqb_sym _ (k_src _)), !(N.eqb_sym _ (k_tgt _)), !(N.eqb_sym _ (k_cls _)). f_equal. change (N.land AVTAB_XPERMS_ALLOWED 32767) with (2 ^ 8). rewrite N.land_comm. apply nz_flag. }
  split.
  - intros (n & Hn & Hx). apply filter_In in Hn as [Hn K]. rewrite EK in K. apply andb_prop in K as [K1 K2]. exists n. split; [exact Hn|].
    destruct (node_x n) as [y|]; [|destruct Hx]. destruct Hx as [<-|[]]. auto.
  - intros (n & Hn & K1 & K2 & X). exists n. split; [apply filter_In; split; [exact Hn|]; rewrite EK, K1, K2; reflexivity|]. rewrite X. left. reflexivity.
Qed.

Lemma choice_side {A} (t f : list A) (b : bool) n : In n (if b then t else f) -> In n t \/ In n f.
Proof. destruct b; auto. Qed.

Lemma force_listed ch n : In n (in_force P ch) -> In n (all_rules P).
Proof.
  intros H. unfold in_force in H. apply in_app_iff in H as [H|H]; [apply te_listed; exact H|]. apply chosen_in in H as (t & f & b & H1 & H2).
  apply in_combine_l in H1. eapply cond_listed; [exact H1|]. eapply choice_side. exact H2.
Qed.

(** A forbidden command is granted. *)
Lemma xfound ch n' x s t c b k cmd : In n' (in_force P ch) -> xrule P n' s t c x -> in_x x k cmd -> in_x (na_x r) k cmd ->
  xcheck_avtab P r b c s t = true /\ xreport P r b c s t <> 0.
Proof.
  intros Hn X HK1 HK2. pose proof (rule_xnode _ _ _ _ _ X) as XN. pose proof (overlap_found _ _ _ _ HK2 HK1) as OV.
  pose proof X as (_ & EC & M1 & M2 & _). destruct (key_pair n' s t (force_listed ch n' Hn) M1 M2) as (KP & K1 & K2).
  set (i := k_src (n_key n') - 1) in *. set (j := k_tgt (n_key n') - 1) in *.
  unfold in_force in Hn. apply in_app_iff in Hn as [Hn|Hn].
  - assert (TX : In x (te_xs (i + 1) (j + 1) c)) by (apply te_xs_in; exists n'; rewrite K1, K2; auto). split.
    + unfold xcheck_avtab. cbv zeta. apply orb_true_iff. left. apply existsb_exists. exists (pair_check P r b c i j). split; [apply in_map_iff; exists (i, j); auto|].
      unfold pair_check. cbv zeta. fold (te_xs (i + 1) (j + 1) c). cbn [fst]. apply orb_true_iff. left. apply existsb_exists. exists x. auto.
    + unfold xreport. cbv zeta. intros Z. apply N.eq_add_0 in Z as [Z _]. rewrite map_map in Z. rewrite sum_zero in Z. specialize (Z (i, j) KP). cbn [fst snd] in Z.
      unfold pair_report in Z. cbv zeta in Z. fold (te_xs (i + 1) (j + 1) c) in Z. cbn [fst] in Z. apply N.eq_add_0 in Z as [Z _]. rewrite sum_zero in Z. specialize (Z x TX). rewrite OV in Z. discriminate.
  - apply chosen_in in Hn as (tl & fl & bb & H1 & H2). apply in_combine_l in H1. destruct (quiet_cond tl fl H1) as [QT QF]. apply choice_side in H2.
    assert (BC : snd (branch_check r (i + 1) (j + 1) c tl) || snd (branch_check r (i + 1) (j + 1) c fl) = true).
    { apply orb_true_iff. destruct H2 as [H2|H2]; [left; apply (branch_check_spec r _ _ _ _ QT)|right; apply (branch_check_spec r _ _ _ _ QF)]; exists n', x; rewrite K1, K2; auto. }
    assert (BR : snd (branch_report r (i + 1) (j + 1) c tl) + snd (branch_report r (i + 1) (j + 1) c fl) <> 0).
    { assert (Q : snd (branch_report r (i + 1) (j + 1) c tl) <> 0 \/ snd (branch_report r (i + 1) (j + 1) c fl) <> 0); [|lia].
      destruct H2 as [H2|H2]; [left; apply (branch_report_spec r _ _ _ _ QT)|right; apply (branch_report_spec r _ _ _ _ QF)]; exists n', x; rewrite K1, K2; auto. }
    split.
    + unfold xcheck_avtab. cbv zeta. apply orb_true_iff. left. apply existsb_exists. exists (pair_check P r b c i j). split; [apply in_map_iff; exists (i, j); auto|].
      unfold pair_check. cbv zeta. cbn [fst]. apply orb_true_iff. right. apply existsb_exists. exists (cond_check r b (i + 1) (j + 1) c (tl, fl)).
      split; [apply in_map_iff; exists (tl, fl); auto|]. unfold cond_check. cbn [fst snd].
      destruct (branch_check r (i + 1) (j + 1) c tl) as [[b1 x1] d1], (branch_check r (i + 1) (j + 1) c fl) as [[b2 x2] d2]. cbn [fst snd] in *. exact BC.
    + unfold xreport. cbv zeta. intros Z. apply N.eq_add_0 in Z as [Z _]. rewrite map_map in Z. rewrite sum_zero in Z. specialize (Z (i, j) KP). cbn [fst snd] in Z.
      unfold pair_report in Z. cbv zeta in Z. cbn [fst] in Z. apply N.eq_add_0 in Z as [_ Z]. rewrite map_map in Z. rewrite sum_zero in Z. specialize (Z (tl, fl) H1). cbn beta in Z.
      unfold cond_report in Z. cbn [fst snd] in Z.
      destruct (branch_report r (i + 1) (j + 1) c tl) as [[b1 x1] d1], (branch_report r (i + 1) (j + 1) c fl) as [[b2 x2] d2]. cbn [fst snd] in *. auto.
Qed.

(** No allowxperm rule in force: nothing found by the loops. *)
Lemma nothing_found ch s t c : length ch = length (ap_conds P) -> (forall n' x, In n' (in_force P ch) -> ~ xrule P n' s t c x) ->
  forall b i j, In (i, j) (pairs (ap_tattr P s) (ap_tattr P t)) ->
  snd (fst (pair_check P r b c i j)) = false /\ snd (fst (pair_report P r b c i j)) = false.
Proof.
  intros L HN b i j Hij. destruct (pair_member i j s t Hij) as [M1 M2].
  assert (TE : te_xs (i + 1) (j + 1) c = []).
  { destruct (te_xs (i + 1) (j + 1) c) as [|x l] eqn:E; [reflexivity|exfalso]. destruct (proj1 (te_xs_in (i + 1) (j + 1) c x)) as (n & Hn & X); [rewrite E; left; reflexivity|].
    apply (HN n x); [apply in_app_iff; left; exact Hn|]. eapply xnode_rule; eassumption. }
  assert (CN : forall tl fl, In (tl, fl) (ap_conds P) -> (exists n x, In n tl /\ xnode n (i + 1) (j + 1) c x) -> (exists n x, In n fl /\ xnode n (i + 1) (j + 1) c x) -> False).
  { intros tl fl H (n1 & x1 & H1 & X1) (n2 & x2 & H2 & X2). destruct (combine_choice (ap_conds P) ch (tl, fl) L H) as (bb & Hb).
    destruct bb; [apply (HN n1 x1)|apply (HN n2 x2)]; try (eapply xnode_rule; eassumption); apply in_app_iff; right; eapply in_chosen; try exact Hb; assumption. }
  unfold pair_check, pair_report. cbv zeta. fold (te_xs (i + 1) (j + 1) c). rewrite TE. cbn [fst snd orb].
  split; apply existsb_false; intros y Hy; apply in_map_iff in Hy as ((tl, fl) & <- & Hcl); destruct (quiet_cond tl fl Hcl) as [QT QF].
  - unfold cond_check. cbn [fst snd]. pose proof (branch_check_spec r (i + 1) (j + 1) c tl QT) as (_ & T2 & _). pose proof (branch_check_spec r (i + 1) (j + 1) c fl QF) as (_ & F2 & _).
    destruct (branch_check r (i + 1) (j + 1) c tl) as [[b1 x1] d1], (branch_check r (i + 1) (j + 1) c fl) as [[b2 x2] d2]. cbn [fst snd] in *.
    destruct x1, x2; try reflexivity. exfalso. apply (CN tl fl Hcl); [apply T2|apply F2]; reflexivity.
  - unfold cond_report. cbn [fst snd]. pose proof (branch_report_spec r (i + 1) (j + 1) c tl QT) as (_ & T2 & _). pose proof (branch_report_spec r (i + 1) (j + 1) c fl QF) as (_ & F2 & _).
    destruct (branch_report r (i + 1) (j + 1) c tl) as [[b1 x1] d1], (branch_report r (i + 1) (j + 1) c fl) as [[b2 x2] d2]. cbn [fst snd] in *.
    destruct x1, x2; try reflexivity. exfalso. apply (CN tl fl Hcl); [apply T2|apply F2]; reflexivity.
Qed.

Lemma xunrestricted_te ch s t c : length ch = length (ap_conds P) -> (forall n' x, In n' (in_force P ch) -> ~ xrule P n' s t c x) ->
  xcheck_avtab P r false c s t = true /\ xreport P r false c s t <> 0.
Proof.
  intros L HN. pose proof (nothing_found ch s t c L HN false) as NF. split.
  - unfold xcheck_avtab. cbv zeta. rewrite orb_true_iff, orb_true_iff. right. left. cbn [negb andb]. apply negb_true_iff. apply existsb_false.
    intros y Hy. apply in_map_iff in Hy as ((i, j) & <- & Hij). apply NF. exact Hij.
  - unfold xreport. cbv zeta. cbn [negb].
    assert (Z : existsb (fun x : N * bool * bool => snd (fst x)) (map (fun ij => pair_report P r false c (fst ij) (snd ij)) (pairs (ap_tattr P s) (ap_tattr P t))) = false).
    { apply existsb_false. intros y Hy. apply in_map_iff in Hy as ((i, j) & <- & Hij). apply NF. exact Hij. }
    rewrite Z. cbn [negb andb orb]. lia.
Qed.

Lemma xunrestricted_cond ch n s t c p : length ch = length (ap_conds P) -> In n (chosen (ap_conds P) ch) -> names r c p -> covers P n s t c p ->
  (forall n' x, In n' (in_force P ch) -> ~ xrule P n' s t c x) ->
  xcheck_avtab P r true c s t = true /\ xreport P r true c s t <> 0.
Proof.
  intros L Hn (m & Hm & Hp) (Ea & Ec & M1 & M2 & Hd) HN. apply chosen_in in Hn as (tl & fl & bb & H1 & H2). pose proof (in_combine_l _ _ _ _ H1) as Hcl.
  destruct (quiet_cond tl fl Hcl) as [QT QF]. pose proof (choice_side _ _ _ _ H2) as H3. pose proof (cond_listed tl fl n Hcl H3) as HL.
  destruct (key_pair n s t HL M1 M2) as (KP & K1 & K2). set (i := k_src (n_key n) - 1) in *. set (j := k_tgt (n_key n) - 1) in *.
  assert (Em : match_perms (na_perms r) (k_cls (n_key n)) (d_data (n_datum n)) = true) by (apply match_perms_spec; exists m, p; rewrite Ec; auto).
  assert (KR : match_node_key n (i + 1) (j + 1) c = true) by (rewrite K1, K2, <- Ec; apply key_refl).
  assert (NX : ~ exists n' x, In n' (if bb then tl else fl) /\ xnode n' (i + 1) (j + 1) c x).
  { intros (n' & x & Hn' & X). apply (HN n' x); [apply in_app_iff; right; eapply in_chosen; eassumption|]. eapply xnode_rule; [exact X|rewrite K1; exact M1|rewrite K2; exact M2]. }
  assert (C1 : snd (cond_check r true (i + 1) (j + 1) c (tl, fl)) = true).
  { unfold cond_check. cbn [fst snd]. pose proof (branch_check_spec r (i + 1) (j + 1) c tl QT) as (T1 & T2 & _). pose proof (branch_check_spec r (i + 1) (j + 1) c fl QF) as (F1 & F2 & _).
    destruct (branch_check r (i + 1) (j + 1) c tl) as [[b1 x1] d1], (branch_check r (i + 1) (j + 1) c fl) as [[b2 x2] d2]. cbn [fst snd] in *.
    destruct bb.
    - assert (b1 = true) as -> by (apply T1; exists n; auto). assert (x1 = false) as -> by (destruct x1; [exfalso; apply NX; apply T2; reflexivity|reflexivity]). reflexivity.
    - assert (b2 = true) as -> by (apply F1; exists n; auto). assert (x2 = false) as -> by (destruct x2; [exfalso; apply NX; apply F2; reflexivity|reflexivity]). rewrite andb_false_r. cbn. apply orb_true_r. }
  assert (C2 : snd (cond_report r true (i + 1) (j + 1) c (tl, fl)) = true).
  { unfold cond_report. cbn [fst snd]. pose proof (branch_report_spec r (i + 1) (j + 1) c tl QT) as (T1 & T2 & _). pose proof (branch_report_spec r (i + 1) (j + 1) c fl QF) as (F1 & F2 & _).
    destruct (branch_report r (i + 1) (j + 1) c tl) as [[b1 x1] d1], (branch_report r (i + 1) (j + 1) c fl) as [[b2 x2] d2]. cbn [fst snd] in *.
    destruct bb.
    - assert (b1 = true) as -> by (apply T1; exists n; auto). assert (x1 = false) as -> by (destruct x1; [exfalso; apply NX; apply T2; reflexivity|reflexivity]). reflexivity.
    - assert (b2 = true) as -> by (apply F1; exists n; auto). assert (x2 = false) as -> by (destruct x2; [exfalso; apply NX; apply F2; reflexivity|reflexivity]). rewrite andb_false_r. cbn. apply orb_true_r. }
  split.
  - unfold xcheck_avtab. cbv zeta. rewrite orb_true_iff, orb_true_iff. right. right. apply existsb_exists. exists (pair_check P r true c i j). split; [apply in_map_iff; exists (i, j); auto|].
    unfold pair_check. cbv zeta. cbn [snd]. apply existsb_exists. exists (cond_check r true (i + 1) (j + 1) c (tl, fl)). split; [apply in_map_iff; exists (tl, fl); auto|exact C1].
  - unfold xreport. cbv zeta.
    assert (Z : existsb (fun x : N * bool * bool => snd x) (map (fun ij => pair_report P r true c (fst ij) (snd ij)) (pairs (ap_tattr P s) (ap_tattr P t))) = true).
    { apply existsb_exists. exists (pair_report P r true c i j). split; [apply in_map_iff; exists (i, j); auto|]. unfold pair_report. cbv zeta. cbn [snd].
      apply existsb_exists. exists (cond_report r true (i + 1) (j + 1) c (tl, fl)). split; [apply in_map_iff; exists (tl, fl); auto|exact C2]. }
    change (existsb snd) with (existsb (fun x : N * bool * bool => snd x)). rewrite Z. rewrite orb_true_r. lia.
Qed.

Lemma xentry b n s t c p : checked r s t -> names r c p -> covers P n s t c p ->
  xcheck_avtab P r b c s t = true /\ xreport P r b c s t <> 0 -> avtab_match P r b n = true /\ report_matches P r b n <> 0.
Proof.
  intros C HN HC0 [XC XR]. destruct (match_targets P HP r HR HF n s t c p C HN HC0) as [MT MF].
  pose proof HN as (m & Hm & Hp). pose proof HC0 as (Ea & Ec & M1 & M2 & Hd).
  destruct (proj2 (pairs_spec P HP r HR HF (n_key n) s t) (conj M1 (conj M2 C))) as [Hi Hs].
  pose proof Hi as Hj. unfold pairs in Hj. rewrite in_prod_iff, !bits_in in Hj by (first [apply src_valid; assumption|apply tgt_valid; assumption]). destruct Hj as [J1 J2].
  assert (E1 : ebitmap_is_empty (src_matches P r (n_key n)) = false).
  { destruct (ebitmap_is_empty (src_matches P r (n_key n))) eqn:E1; [destruct (proj1 (empty_in _ (src_valid P HP r HR _)) E1 _ J1)|reflexivity]. }
  assert (E2 : ebitmap_is_empty (tgt_matches P r (n_key n)) = false).
  { destruct (ebitmap_is_empty (tgt_matches P r (n_key n))) eqn:E2; [destruct (proj1 (empty_in _ (tgt_valid P HP r HR _)) E2 _ J2)|reflexivity]. }
  split.
  - assert (XK : xcheck P r (n_key n) b = true).
    { unfold xcheck. cbv zeta. rewrite E1, E2. apply existsb_exists. exists (s, t). split; [exact Hi|]. cbn [fst snd]. rewrite Hs, Ec, XC. reflexivity. }
    rewrite HX in MT, MF. change (2048 =? XNEVERALLOW) with true in MT, MF. destruct b; congruence.
  - unfold report_matches. cbv zeta. rewrite allowed_bit, Ea. cbn [negb].
    assert (Em : match_perms (na_perms r) (k_cls (n_key n)) (d_data (n_datum n)) = true) by (apply match_perms_spec; exists m, p; rewrite Ec; auto).
    rewrite Em, E1, E2. cbn [negb]. intros Z. rewrite sum_zero in Z. specialize (Z (c, m) Hm). cbn [fst snd] in Z. rewrite Ec, N.eqb_refl in Z. cbn [negb orb] in Z.
    assert (Q : (N.land m (d_data (n_datum n)) =? 0) = false). { apply negb_true_iff. apply nz_bits. exists p. auto. }
    rewrite Q in Z. rewrite sum_zero in Z. specialize (Z (s, t) Hi). cbn [fst snd] in Z. rewrite Hs, HX in Z. auto.
Qed.

Lemma xviolation_found ch : self_alone r -> length ch = length (ap_conds P) -> xviolated_by P (in_force P ch) r ->
  check_assertion P r = true /\ report_errors P r <> 0.
Proof.
  intros HA L (n & s & t & c & p & Hn & SC & HN & HC0 & V). apply (checked_scope r HF HA) in SC.
  assert (G : exists b, In n (avtab_map_list (if b : bool then ap_cte P else ap_te P)) /\ xcheck_avtab P r b c s t = true /\ xreport P r b c s t <> 0).
  { pose proof Hn as Hn0. unfold in_force in Hn0. apply in_app_iff in Hn0 as [H|H].
    - exists false. split; [exact H|]. destruct V as [V|(n' & x & k & cmd & H1 & H2 & H3 & H4)]; [apply (xunrestricted_te ch); assumption|eapply xfound; eassumption].
    - exists true. split.
      + apply chosen_in in H as (tl & fl & bb & H1 & H2). apply in_combine_l in H1. eapply HC; [exact H1|]. eapply choice_side. exact H2.
      + destruct V as [V|(n' & x & k & cmd & H1 & H2 & H3 & H4)]; [eapply xunrestricted_cond; eassumption|eapply xfound; eassumption]. }
  destruct G as (b & Hin & X). destruct (xentry b n s t c p SC HN HC0 X) as [A1 A2]. split.
  - unfold check_assertion. apply orb_true_iff. destruct b; [right|left]; apply existsb_exists; exists n; auto.
  - unfold report_errors. intros Z. apply N.eq_add_0 in Z as [Z1 Z2]. rewrite sum_zero in Z1, Z2. destruct b; auto.
Qed.

(** Without conditional rules a report means a violation. *)
Lemma xreport_violation ch : unconditional P -> ch = [] -> xset_ok (na_x r) ->
  (forall n x, In n (avtab_map_list (ap_te P)) -> d_xperms (n_datum n) = Some x -> xset_ok x) ->
  report_errors P r <> 0 -> xviolated_by P (in_force P ch) r.
Proof.
  intros [U1 U2] -> XA XS H. assert (H0 : fold_right N.add 0 (map (report_matches P r false) (avtab_map_list (ap_te P))) <> 0).
  { revert H. unfold report_errors. rewrite U2. cbn [map fold_right]. lia. }
  clear H. assert (G : exists n, In n (avtab_map_list (ap_te P)) /\ report_matches P r false n <> 0).
  { revert H0. generalize (avtab_map_list (ap_te P)). intros l. induction l as [|n l IH]; cbn [map fold_right]; [congruence|]. intros Q.
    destruct (N.eq_dec (report_matches P r false n) 0) as [Z|Z]; [destruct IH as (x & Hx & B); [lia|]; exists x; split; [right; exact Hx|exact B]|exists n; split; [left; reflexivity|exact Z]]. }
  destruct G as (n & Hn & G). revert G. unfold report_matches. cbv zeta. rewrite allowed_bit.
  destruct (N.testbit (k_spec (n_key n)) 0) eqn:Ea; cbn [negb]; [|congruence].
  destruct (match_perms (na_perms r) (k_cls (n_key n)) (d_data (n_datum n))) eqn:Em; cbn [negb]; [|congruence].
  destruct (ebitmap_is_empty (src_matches P r (n_key n))); [congruence|]. destruct (ebitmap_is_empty (tgt_matches P r (n_key n))); [congruence|].
  assert (S0 : forall A (f : A -> N) l, fold_right N.add 0 (map f l) <> 0 -> exists x, In x l /\ f x <> 0).
  { intros A f l. induction l as [|a l IH]; cbn [map fold_right]; [congruence|]. intros Q.
    destruct (N.eq_dec (f a) 0) as [Z|Z]; [destruct IH as (x & Hx & B); [lia|]; exists x; split; [right; exact Hx|exact B]|exists a; split; [left; reflexivity|exact Z]]. }
  intros G. apply S0 in G as ((c, m) & Hm & G). cbn [fst snd] in G.
  destruct (negb (c =? k_cls (n_key n)) || (N.land m (d_data (n_datum n)) =? 0)) eqn:Q; [congruence|]. apply orb_false_iff in Q as [Q1 Q2]. apply negb_false_iff, N.eqb_eq in Q1. subst c.
  apply S0 in G as ((s, t) & Hst & G). cbn [fst snd] in G. destruct (skipped r s t) eqn:Hs; [congruence|]. rewrite HX in G. change (2048 =? XNEVERALLOW) with true in G. cbv iota in G.
  destruct (proj1 (pairs_spec P HP r HR HF (n_key n) s t) (conj Hst Hs)) as (M1 & M2 & [SC _]).
  assert (Q3 : negb (N.land m (d_data (n_datum n)) =? 0) = true) by (rewrite Q2; reflexivity). apply nz_bits in Q3 as (p & Q3 & Q4).
  exists n, s, t, (k_cls (n_key n)), p. unfold in_force. rewrite U1. cbn [chosen]. rewrite app_nil_r. split; [exact Hn|]. split; [exact SC|]. split; [exists m; auto|].
  split; [unfold covers; auto|]. revert G. unfold xreport. cbv zeta. cbn [negb]. rewrite andb_true_r.
  assert (NC : existsb snd (map (fun ij => pair_report P r false (k_cls (n_key n)) (fst ij) (snd ij)) (pairs (ap_tattr P s) (ap_tattr P t))) = false).
  { apply existsb_false. intros y Hy. apply in_map_iff in Hy as ((i, j) & <- & _). unfold pair_report. rewrite U1. reflexivity. }
  rewrite NC, orb_false_r. intros G.
  destruct (existsb (fun x : N * bool * bool => snd (fst x)) (map (fun ij => pair_report P r false (k_cls (n_key n)) (fst ij) (snd ij)) (pairs (ap_tattr P s) (ap_tattr P t)))) eqn:F; cbn [negb] in G.
  - right. rewrite N.add_0_r in G. rewrite map_map in G. apply S0 in G as ((i, j) & Hij & G). unfold pair_report in G. cbv zeta in G. rewrite U1 in G. cbn [fst snd map fold_right] in G.
    rewrite N.add_0_r in G. fold (te_xs (i + 1) (j + 1) (k_cls (n_key n))) in G. apply S0 in G as (x & Hx & G). destruct (check_xperms (na_x r) x) eqn:CX; [|congruence].
    apply te_xs_in in Hx as (n' & Hn' & X). destruct (pair_member i j s t Hij) as [P1 P2]. pose proof (xnode_rule _ _ _ _ _ _ _ X P1 P2) as XR.
    assert (XX : xset_ok x). { apply (XS n' x Hn'). apply XR. }
    destruct (found_overlap _ _ XA XX CX) as (k & cmd & O1 & O2). exists n', x, k, cmd. auto.
  - left. intros n' x Hn' X. pose proof (rule_xnode _ _ _ _ _ X) as XN. pose proof X as (_ & _ & N1 & N2 & _).
    destruct (key_pair n' s t (te_listed _ Hn') N1 N2) as (KP & K1 & K2). set (i := k_src (n_key n') - 1) in *. set (j := k_tgt (n_key n') - 1) in *.
    assert (TX : In x (te_xs (i + 1) (j + 1) (k_cls (n_key n)))) by (apply te_xs_in; exists n'; rewrite K1, K2; auto).
    rewrite existsb_false in F. specialize (F (pair_report P r false (k_cls (n_key n)) i j)).
    assert (F' : snd (fst (pair_report P r false (k_cls (n_key n)) i j)) = false) by (apply F; apply in_map_iff; exists (i, j); auto).
    unfold pair_report in F'. cbv zeta in F'. cbn [fst snd] in F'. fold (te_xs (i + 1) (j + 1) (k_cls (n_key n))) in F'. apply orb_false_iff in F' as [F' _].
    destruct (te_xs (i + 1) (j + 1) (k_cls (n_key n))); [destruct TX|discriminate].
Qed.
End Ext.
