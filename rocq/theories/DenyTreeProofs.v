(** * Proofs about deny rules: matching, whole rules and trees *)
From Coq Require Import NArith List Bool Lia Btauto.
From Verif Require Import Base DenyModel DenySpec DenyProofs DenyRuleProofs.
Import ListNotations.
Local Open Scope N_scope.

(** ** A rule and a deny rule *)
Definition compatible (t1 t2 : datum) : Prop := ~ (t1 = DSelf /\ (t2 = DNotself \/ t2 = DOther)) /\ ~ (t2 = DSelf /\ (t1 = DNotself \/ t1 = DOther)).
Lemma nonempty_in c p l : class_perm_in c p l = true -> l <> [].
Proof. intros E ->. discriminate. Qed.
Lemma remove_ok D n r y : good D -> d_types D = n -> datum_ok D (r_src r) -> target_ok D (r_tgt r) -> datum_ok D (y_src y) -> target_ok D (y_tgt y) ->
  compatible (r_tgt r) (y_tgt y) -> existsb (find_perms_any (y_perms y)) (r_perms r) = true ->
  completes D (remove_permissions D r y) n (fun _ _ _ _ => false)
    (fun s t c p => gives s t c p r && negb (cov (y_src y) (y_tgt y) s t && class_perm_in c p (y_perms y))).
Proof.
  destruct r as [rk re s1 t1 p1], y as [s2 t2 p2]. cbn [r_src r_tgt r_perms y_src y_tgt y_perms]. intros G N O1 T1 O2 T2 [C1 C2] FP. unfold remove_permissions. cbn [r_src r_tgt r_perms y_src y_tgt y_perms].
  pose proof (fun c p => and_list c p p1 p2) as PA. pose proof (fun c p => andnot_list c p p1 p2) as PN.
  assert (NE : list_and p1 p2 <> []).
  { apply find_list in FP as (c & p & A & B). apply (nonempty_in c p). rewrite PA, A, B. reflexivity. }
  set (p4 := list_and p1 p2) in *. set (p3 := list_andnot p1 p2) in *. clearbody p4 p3.
  destruct p4 as [|x4 p4']; [congruence|]. set (p4 := x4 :: p4') in *. clearbody p4.
  set (l0 := match p3 with [] => [] | _ => add_rule (Some s1) (Some t1) p3 end).
  assert (L0 : forall s t c p, existsb (gives s t c p) l0 = mem s1 s && tadd (Some s1) t1 s t && class_perm_in c p p3).
  { intros s t c p. unfold l0. destruct p3 as [|x3 p3']; [cbn [existsb class_perm_in]; btauto|]. rewrite gives_target. reflexivity. }
  assert (A0 : Forall (added D) l0).
  { unfold l0. destruct p3; [constructor|]. apply added_rule; [exact O1|exact T1]. }
  clearbody l0. pose proof (ext_refl D) as X0.
  assert (TA : forall s t, tadd (Some s1) t1 s t = tmem s1 t1 s t) by (intros; destruct t1; reflexivity).
  assert (PUSH : forall E, ext D E -> Forall (added E) l0) by (intros E X; revert A0; apply Forall_impl; intros; eapply added_ext; eassumption).
  have (and_not_ok D (Some s1) (Some s2) G O1 O2).
  assert (A1 : forall E, ext D0 E -> Forall (added E) (l0 ++ add_rule d (Some t1) p4)).
  { intros E X. apply Forall_app. split; [apply PUSH; eapply ext_trans; eassumption|]. apply added_rule; [eapply odatum_ext; eassumption|eapply target_ext; eassumption]. }
  destruct ((same t1 DSelf && same t2 DSelf) || (same t1 DNotself && same t2 DNotself)) eqn:BOTH.
  - eexists _, _. split; [reflexivity|]. split; [exact X0|]. split; [assumption|]. split; [apply A1, ext_refl|]. intros s t c p LS LT. rewrite existsb_app, L0, gives_target, TA.
    unfold gives, cov. cbn [r_src r_tgt r_perms]. rewrite !PN. rewrite M, PA by assumption. cbn [omem].
    destruct t1 as [v1|a1| | |]; cbn in BOTH; try discriminate; destruct t2 as [v2|a2| | |]; cbn in BOTH; try discriminate; cbn [tadd tmem];
      atoms; set (q := t =? s); clearbody q; btauto.
  - have (and_both_ok D0 (Some s1) (Some s2) G0 O1 O2).
    destruct (same t1 DNotself || same t1 DOther || same t2 DNotself || same t2 DOther) eqn:SP.
    + assert (SPC : t1 = DNotself \/ t1 = DOther \/ t2 = DNotself \/ t2 = DOther).
      { destruct t1 as [v1|a1| | |]; cbn in SP; auto; destruct t2 as [v2|a2| | |]; cbn in SP; auto; discriminate. }
      assert (NB : ~ (t1 = DNotself /\ t2 = DNotself)) by (intros [-> ->]; discriminate).
      destruct (special_ok D1 n s1 t1 s2 t2 p4 d d0 G1 N1 O1 O2 T1 T2 O O0 M M0 SPC NB C1 C2) as (D2 & l2 & -> & X2 & G2 & A2 & E2). cbn [andthen].
      eexists _, _. split; [reflexivity|]. split; [eapply ext_trans; eassumption|]. split; [exact G2|].
      split; [apply Forall_app; split; [|exact A2]|].
      { apply Forall_app. split; [apply PUSH; eapply ext_trans; eassumption|]. apply added_rule; [eapply odatum_ext; eassumption|eapply target_ext; eassumption]. }
      intros s t c p LS LT. rewrite orb_false_l, !existsb_app, L0, gives_target, TA, <- orb_assoc, (E2 s t c p LS LT), PN, PA.
      unfold gives, cov. cbn [r_src r_tgt r_perms]. set (a := tmem s1 t1 s t). set (b := tmem s2 t2 s t). clearbody a b. atoms. btauto.
    + assert (P1 : t1 = DSelf \/ datum_ok D1 t1).
      { destruct T1 as [T1|[->|[->| ->]]]; [right; exact T1|left; reflexivity|discriminate SP|cbn in SP; rewrite ?orb_true_r in SP; discriminate]. }
      assert (P2 : t2 = DSelf \/ datum_ok D1 t2).
      { destruct T2 as [T2|[->|[->| ->]]]; [right; exact T2|left; reflexivity|cbn in SP; rewrite ?orb_true_r in SP; discriminate..]. }
      clear SP C1 C2. assert (A1' : forall E, ext D1 E -> Forall (added E) (l0 ++ add_rule d (Some t1) p4)).
      { intros E X. apply Forall_app. split; [apply PUSH; eapply ext_trans; eassumption|]. apply added_rule; [eapply odatum_ext; eassumption|eapply target_ext; eassumption]. }
      clear A1. pose proof (ext_refl D1) as X1.
      destruct P1 as [->|P1], P2 as [->|P2]; [discriminate BOTH| | |].
      * destruct (plain_same D1 t2 P2) as (QA & QB & QC & QT). rewrite QA. cbn [same negb andb]. have (and_not_ok D1 d0 (Some t2) G1 O0 P2).
        eexists _, _. split; [reflexivity|]. split; [exact X0|]. split; [assumption|].
        split; [apply Forall_app; split; [apply A1'; exact X1|apply added_rule; [assumption|right; left; reflexivity]]|].
        intros s t c p LS LT. rewrite !existsb_app, L0, gives_target, gives_self, PN. unfold gives, cov. cbn [r_src r_tgt r_perms tadd tmem omem]. rewrite QT, PA. rewrite ?M1, ?M0, ?M by assumption. cbn [omem].
        destruct (N.eqb_spec t s) as [->|]; atoms; btauto.
      * destruct (plain_same D1 t1 P1) as (QA & QB & QC & QT). rewrite QA. cbn [same negb andb].
        have (and_not_ok D1 d0 (Some t1) G1 O0 P1). have (and_both_ok D2 d0 (Some t1) G2 O0 P1). have (and_not_ok D3 (Some t1) d0 G3 P1 O0).
        destruct (add_other_ok D4 d2 p4 O4) as (o & EO & HO & GO). pose proof (added_other D4 d2 p4 o O4 EO) as AO. rewrite EO. cbn [andthen].
        eexists _, _. split; [reflexivity|]. split; [exact X0|]. split; [assumption|].
        split; [apply Forall_app; split; [apply A1'; exact X1|apply Forall_app; split; [apply added_rule; [assumption|left; assumption]|apply Forall_app; split; [apply added_rule; [assumption|apply odatum_target; assumption]|exact AO]]]|].
        intros s t c p LS LT. rewrite !existsb_app, L0, !gives_target, GO, PN. rewrite (gives_plain s t c p D4 _ _ _ O5). rewrite !(tadd_plain D4 _ t1 s t P1). unfold gives, cov. cbn [r_src r_tgt r_perms tmem omem].
        rewrite QT, PA. rewrite ?M3, ?M2, ?M1, ?M0, ?M by assumption. cbn [omem]. destruct (N.eqb_spec t s) as [->|]; atoms; btauto.
      * destruct (plain_same D1 t1 P1) as (QA & QB & QC & QT). destruct (plain_same D1 t2 P2) as (RA & RB & RC & RT). rewrite QA, RA. cbn [negb andb].
        have (and_not_ok D1 (Some t1) (Some t2) G1 P1 P2). eexists _, _. split; [reflexivity|]. split; [exact X0|]. split; [assumption|].
        split; [apply Forall_app; split; [apply A1'; exact X1|apply added_rule; [assumption|apply odatum_target; assumption]]|].
        intros s t c p LS LT. rewrite !existsb_app, L0, gives_target, PN. match goal with H : odatum_ok _ d1 |- _ => rewrite (gives_plain s t c p D2 _ _ _ H) end. rewrite !(tadd_plain D2 _ t1 s t P1). unfold gives, cov. cbn [r_src r_tgt r_perms omem].
        rewrite QT, RT, PA. rewrite ?M1, ?M0, ?M by assumption. cbn [omem]. atoms. btauto.
Qed.

(** ** The search for overlapping rules *)
Lemma positives_in e v : In v (positives e) <-> N.testbit e v = true.
Proof.
  unfold positives. rewrite filter_In. split; [tauto|]. intros T. split; [|exact T]. apply in_map_iff. exists (N.to_nat v). split; [apply N2Nat.id|]. apply in_seq.
  assert (v < N.size e). { destruct (N.lt_ge_cases v (N.size e)) as [L|L]; [exact L|]. exfalso. destruct (N.eq_dec e 0) as [->|NZ]; [rewrite N.bits_0 in T; discriminate|].
    rewrite N.size_log2 in L by exact NZ. rewrite N.bits_above_log2 in T by lia. discriminate. }
  lia.
Qed.
Lemma datums_and_bits D d1 d2 : datum_ok D d1 -> datum_ok D d2 -> exists e, datums_and d1 d2 = Good e /\ forall v, N.testbit e v = mem d1 v && mem d2 v.
Proof.
  intros O1 O2. destruct d1 as [v1|a1| | |]; cbn in O1; try contradiction; destruct d2 as [v2|a2| | |]; cbn in O2; try contradiction; cbn [datums_and];
    (eexists; split; [reflexivity|]); intros v; cbn [mem].
  - rewrite testbit_if, N.bits_0, single_bit. destruct (N.eqb_spec v1 v2), (N.eqb_spec v v1), (N.eqb_spec v v2); cbn; try reflexivity; lia.
  - rewrite testbit_if, N.bits_0, single_bit. destruct (N.eqb_spec v v1) as [Q|Q]; [rewrite Q|]; destruct (N.testbit _ v1); reflexivity.
  - rewrite testbit_if, N.bits_0, single_bit. destruct (N.eqb_spec v v2) as [Q|Q]; [rewrite Q|]; destruct (N.testbit (a_types a1) v2); btauto.
  - apply N.land_spec.
Qed.
Lemma zero_bits e v : e = 0 -> N.testbit e v = false.
Proof. intros ->. apply N.bits_0. Qed.
Lemma both_false a b : (a = true -> b = true -> False) -> a && b = false.
Proof. destruct a, b; intros H; try reflexivity. exfalso. auto. Qed.
Lemma tma_ok D d1 d2 : datum_ok D d1 -> datum_ok D d2 -> exists b, type_match_any d1 d2 = Good b /\ (b = false -> forall v, mem d1 v && mem d2 v = false).
Proof.
  intros O1 O2. destruct d1 as [v1|a1| | |]; cbn in O1; try contradiction; destruct d2 as [v2|a2| | |]; cbn in O2; try contradiction; cbn [type_match_any];
    (eexists; split; [reflexivity|]); intros E v; cbn [mem]; apply both_false; intros A B.
  - apply N.eqb_eq in A, B. apply N.eqb_neq in E. congruence.
  - apply N.eqb_eq in A. congruence.
  - apply N.eqb_eq in B. congruence.
  - apply orb_false_iff in E as [_ E]. apply negb_false_iff, N.eqb_eq in E. pose proof (zero_bits _ v E) as Z. rewrite N.land_spec, A, B in Z. discriminate.
Qed.
Lemma sma_ok D s1 s2 t2 : datum_ok D s1 -> datum_ok D s2 -> datum_ok D t2 ->
  exists b, self_match_any s1 s2 t2 = Good b /\ (b = false -> forall v, mem s1 v = true -> mem s2 v = true -> mem t2 v = true -> False).
Proof.
  intros O1 O2 O3. destruct s1 as [v1|a1| | |]; cbn in O1; try contradiction; cbn [self_match_any].
  - destruct (tma_ok D (DType v1) t2 O1 O3) as (b & -> & H). exists b. split; [reflexivity|]. intros E v A _ B. specialize (H E v). rewrite A, B in H. discriminate.
  - destruct (datums_and_bits D s2 t2 O2 O3) as (e & -> & T). cbn [andthen]. eexists. split; [reflexivity|]. intros E v A B C. cbn [mem] in A.
    assert (TE : N.testbit e v = true) by (rewrite T, B, C; reflexivity). destruct (N.eqb_spec e 0) as [Z|Z]; [rewrite (zero_bits e v Z) in TE; discriminate|].
    apply negb_false_iff, N.eqb_eq in E. pose proof (zero_bits _ v E) as Q. rewrite N.land_spec, TE, A in Q. discriminate.
Qed.
Lemma nma_ok D s1 s2 t2 : datum_ok D s1 -> datum_ok D s2 -> datum_ok D t2 ->
  exists b, notself_match_any s1 s2 t2 = Good b /\ (b = false -> forall s t, mem s1 s = true -> mem s2 s = true -> mem t2 t = true -> t <> s -> False).
Proof.
  intros O1 O2 O3. destruct (datums_and_bits D s1 s2 O1 O2) as (e & DE & T).
  destruct s1 as [v1|a1| | |]; cbn in O1; try contradiction; destruct t2 as [v2|a2| | |]; cbn in O3; try contradiction; cbn [notself_match_any]; try rewrite DE; cbn [andthen];
    (eexists; split; [reflexivity|]); intros E s t A B C NE; cbn [mem] in *.
  - apply negb_false_iff, N.eqb_eq in E. apply N.eqb_eq in A, C. congruence.
  - apply N.eqb_eq in A. subst s. rewrite existsb_false in E. pose proof (E t (proj2 (positives_in _ _) C)) as Q. apply negb_false_iff, N.eqb_eq in Q. congruence.
  - apply N.eqb_eq in C. subst t. assert (TE : N.testbit e s = true) by (rewrite T, A, B; reflexivity). destruct (N.eqb_spec e 0) as [Z|Z]; [rewrite (zero_bits e s Z) in TE; discriminate|].
    rewrite existsb_false in E. pose proof (E s (proj2 (positives_in _ _) TE)) as Q. apply negb_false_iff, N.eqb_eq in Q. congruence.
  - assert (TE : N.testbit e s = true) by (rewrite T, A, B; reflexivity). destruct (N.eqb_spec e 0) as [Z|Z]; [rewrite (zero_bits e s Z) in TE; discriminate|].
    rewrite existsb_false in E. pose proof (E s (proj2 (positives_in _ _) TE)) as Q. cbv beta in Q. rewrite existsb_false in Q. pose proof (Q t (proj2 (positives_in _ _) C)) as R.
    apply negb_false_iff, N.eqb_eq in R. congruence.
Qed.
Lemma oma_ok D s1 s2 t2 : datum_ok D s1 -> datum_ok D s2 -> datum_ok D t2 ->
  exists b, other_match_any s1 s2 t2 = Good b /\ (b = false -> forall s t, mem s1 s = true -> mem s2 s = true -> mem s1 t = true -> mem t2 t = true -> t <> s -> False).
Proof.
  intros O1 O2 O3. destruct (datums_and_bits D s1 s2 O1 O2) as (e & DE & T). destruct (datums_and_bits D s1 t2 O1 O3) as (f & DF & U).
  destruct s1 as [v1|a1| | |]; cbn in O1; try contradiction; cbn [other_match_any].
  - exists false. split; [reflexivity|]. intros _ s t A _ B _ NE. cbn [mem] in *. apply N.eqb_eq in A, B. congruence.
  - rewrite DE. cbn [andthen]. destruct (N.eqb_spec e 0) as [Z|Z].
    + exists false. split; [reflexivity|]. intros _ s t A B _ _ _. pose proof (zero_bits e s Z) as TE. rewrite T, A, B in TE. discriminate.
    + rewrite DF. cbn [andthen]. eexists. split; [reflexivity|]. intros E s t A B C F NE. assert (TE : N.testbit e s = true) by (rewrite T, A, B; reflexivity). assert (TF : N.testbit f t = true) by (rewrite U, C, F; reflexivity).
      destruct (N.eqb_spec f 0) as [Y|Y]; [rewrite (zero_bits f t Y) in TF; discriminate|].
      rewrite existsb_false in E. pose proof (E s (proj2 (positives_in _ _) TE)) as Q. cbv beta in Q. rewrite existsb_false in Q. pose proof (Q t (proj2 (positives_in _ _) TF)) as R.
      apply negb_false_iff, N.eqb_eq in R. congruence.
Qed.
Lemma noma_ok D s2 : datum_ok D s2 -> exists b, notself_other_match_any s2 = Good b /\ (b = false -> forall s t, mem s2 s = true -> mem s2 t = true -> t <> s -> False).
Proof.
  intros O. destruct s2 as [v|a| | |]; cbn in O; try contradiction; cbn [notself_other_match_any]; (eexists; split; [reflexivity|]); intros E s t A B NE; cbn [mem] in *.
  - apply N.eqb_eq in A, B. congruence.
  - apply N.ltb_ge in E. apply NE. eapply popcount_two; eassumption.
Qed.
Lemma cov_true src tgt s t : cov src tgt s t = true -> mem src s = true /\ tmem src tgt s t = true.
Proof. apply andb_prop. Qed.
Lemma overlap_ok D s1 t1 s2 t2 : datum_ok D s1 -> target_ok D t1 -> datum_ok D s2 -> target_ok D t2 ->
  exists b, types_overlap s1 t1 s2 t2 = Good b /\ (b = true -> compatible t1 t2) /\ (b = false -> forall s t, cov s1 t1 s t && cov s2 t2 s t = false).
Proof.
  intros O1 T1 O2 T2. unfold types_overlap. destruct (tma_ok D s1 s2 O1 O2) as (b0 & -> & B0). cbn [andthen]. destruct b0; cbn [negb].
  2: { exists false. split; [reflexivity|]. split; [discriminate|]. intros _ s t. apply both_false. intros A B. apply cov_true in A as [A _], B as [B _]. specialize (B0 eq_refl s). rewrite A, B in B0. discriminate. }
  clear B0.
  assert (CP : forall a b, datum_ok D a -> compatible a b <-> True).
  { intros a b O. split; [auto|]. intros _. split; intros [E F]; subst; cbn in O; try contradiction. destruct F as [->| ->]; contradiction. }
  assert (CQ : forall a b, datum_ok D b -> compatible a b <-> True).
  { intros a b O. split; [auto|]. intros _. split; intros [E F]; subst; cbn in O; try contradiction. destruct F as [->| ->]; contradiction. }
  assert (FIN : forall x (f : bool -> Prop), (exists b, x = Good b /\ f b) -> forall (P : Prop) (Q : Prop), P -> (f false -> Q) -> exists b, x = Good b /\ (b = true -> P) /\ (b = false -> Q)).
  { intros x f (b & -> & F) P Q HP HQ. exists b. split; [reflexivity|]. split; [auto|]. intros ->. auto. }
  destruct T1 as [T1|[->|[->| ->]]].
  - destruct (plain_same D t1 T1) as (_ & _ & _ & PT). assert (C : compatible t1 t2) by (apply CP; [exact T1|exact I]). destruct T2 as [T2|[->|[->| ->]]].
    + destruct (plain_same D t2 T2) as (_ & _ & _ & QT).
      assert (E : forall A (a b c d e f g h i j k l m n o : A), match t1, t2 with
        | DSelf, DSelf => a | DSelf, DNotself | DSelf, DOther => b | DSelf, _ => c | DNotself, DSelf => d | DNotself, DNotself => e | DNotself, DOther => f | DNotself, _ => g
        | DOther, DSelf => h | DOther, DNotself => i | DOther, DOther => j | DOther, _ => k | _, DSelf => l | _, DNotself => m | _, DOther => n | _, _ => o end = o)
        by (intros; destruct t1; cbn in T1; try contradiction; destruct t2; cbn in T2; try contradiction; reflexivity).
      rewrite E. apply (FIN _ _ (tma_ok D t1 t2 T1 T2)); [exact C|]. intros H s t. apply both_false. intros A B. apply cov_true in A as [_ A], B as [_ B]. rewrite PT in A. rewrite QT in B.
      specialize (H eq_refl t). rewrite A, B in H. discriminate.
    + assert (E : exists b, self_match_any s2 s1 t1 = Good b /\ (b = true -> compatible t1 DSelf) /\ (b = false -> forall s t, cov s1 t1 s t && cov s2 DSelf s t = false)).
      { apply (FIN _ _ (sma_ok D s2 s1 t1 O2 O1 T1)); [exact C|]. intros H s t. apply both_false. intros A B. apply cov_true in A as [A1 A2], B as [B1 B2]. rewrite PT in A2. cbn in B2. apply N.eqb_eq in B2. subst t.
        exact (H eq_refl s B1 A1 A2). }
      destruct t1; cbn in T1; try contradiction; exact E.
    + assert (E : exists b, notself_match_any s2 s1 t1 = Good b /\ (b = true -> compatible t1 DNotself) /\ (b = false -> forall s t, cov s1 t1 s t && cov s2 DNotself s t = false)).
      { apply (FIN _ _ (nma_ok D s2 s1 t1 O2 O1 T1)); [exact C|]. intros H s t. apply both_false. intros A B. apply cov_true in A as [A1 A2], B as [B1 B2]. rewrite PT in A2. cbn in B2. apply negb_true_iff, N.eqb_neq in B2.
        exact (H eq_refl s t B1 A1 A2 B2). }
      destruct t1; cbn in T1; try contradiction; exact E.
    + assert (E : exists b, other_match_any s2 s1 t1 = Good b /\ (b = true -> compatible t1 DOther) /\ (b = false -> forall s t, cov s1 t1 s t && cov s2 DOther s t = false)).
      { apply (FIN _ _ (oma_ok D s2 s1 t1 O2 O1 T1)); [exact C|]. intros H s t. apply both_false. intros A B. apply cov_true in A as [A1 A2], B as [B1 B2]. rewrite PT in A2. cbn in B2. apply andb_prop in B2 as [B2 B3]. apply negb_true_iff, N.eqb_neq in B3.
        exact (H eq_refl s t B1 A1 B2 A2 B3). }
      destruct t1; cbn in T1; try contradiction; exact E.
  - destruct T2 as [T2|[->|[->| ->]]].
    + destruct (plain_same D t2 T2) as (_ & _ & _ & QT).
      assert (E : exists b, self_match_any s1 s2 t2 = Good b /\ (b = true -> compatible DSelf t2) /\ (b = false -> forall s t, cov s1 DSelf s t && cov s2 t2 s t = false)).
      { apply (FIN _ _ (sma_ok D s1 s2 t2 O1 O2 T2)); [apply CQ; [exact T2|exact I]|]. intros H s t. apply both_false. intros A B. apply cov_true in A as [A1 A2], B as [B1 B2]. rewrite QT in B2. cbn in A2. apply N.eqb_eq in A2. subst t.
        exact (H eq_refl s A1 B1 B2). }
      destruct t2; cbn in T2; try contradiction; exact E.
    + exists true. split; [reflexivity|]. split; [|discriminate]. intros _. split; intros [A [B|B]]; discriminate.
    + exists false. split; [reflexivity|]. split; [discriminate|]. intros _ s t. unfold cov. cbn [tmem]. destruct (t =? s); cbn; btauto.
    + exists false. split; [reflexivity|]. split; [discriminate|]. intros _ s t. unfold cov. cbn [tmem]. destruct (t =? s); cbn; btauto.
  - destruct T2 as [T2|[->|[->| ->]]].
    + destruct (plain_same D t2 T2) as (_ & _ & _ & QT).
      assert (E : exists b, notself_match_any s1 s2 t2 = Good b /\ (b = true -> compatible DNotself t2) /\ (b = false -> forall s t, cov s1 DNotself s t && cov s2 t2 s t = false)).
      { apply (FIN _ _ (nma_ok D s1 s2 t2 O1 O2 T2)); [apply CQ; [exact T2|exact I]|]. intros H s t. apply both_false. intros A B. apply cov_true in A as [A1 A2], B as [B1 B2]. rewrite QT in B2. cbn in A2. apply negb_true_iff, N.eqb_neq in A2.
        exact (H eq_refl s t A1 B1 B2 A2). }
      destruct t2; cbn in T2; try contradiction; exact E.
    + exists false. split; [reflexivity|]. split; [discriminate|]. intros _ s t. unfold cov. cbn [tmem]. destruct (t =? s); cbn; btauto.
    + exists true. split; [reflexivity|]. split; [|discriminate]. intros _. split; intros [A [B|B]]; discriminate.
    + apply (FIN _ _ (noma_ok D s2 O2)); [split; intros [A [B|B]]; discriminate|]. intros H s t. apply both_false. intros A B. apply cov_true in A as [A1 A2], B as [B1 B2]. cbn in B2. apply andb_prop in B2 as [B2 B3]. apply negb_true_iff, N.eqb_neq in B3.
      exact (H eq_refl s t B1 B2 B3).
  - destruct T2 as [T2|[->|[->| ->]]].
    + destruct (plain_same D t2 T2) as (_ & _ & _ & QT).
      assert (E : exists b, other_match_any s1 s2 t2 = Good b /\ (b = true -> compatible DOther t2) /\ (b = false -> forall s t, cov s1 DOther s t && cov s2 t2 s t = false)).
      { apply (FIN _ _ (oma_ok D s1 s2 t2 O1 O2 T2)); [apply CQ; [exact T2|exact I]|]. intros H s t. apply both_false. intros A B. apply cov_true in A as [A1 A2], B as [B1 B2]. rewrite QT in B2. cbn in A2. apply andb_prop in A2 as [A2 A3]. apply negb_true_iff, N.eqb_neq in A3.
        exact (H eq_refl s t A1 B1 A2 B2 A3). }
      destruct t2; cbn in T2; try contradiction; exact E.
    + exists false. split; [reflexivity|]. split; [discriminate|]. intros _ s t. unfold cov. cbn [tmem]. destruct (t =? s); cbn; btauto.
    + apply (FIN _ _ (noma_ok D s1 O1)); [split; intros [A [B|B]]; discriminate|]. intros H s t. apply both_false. intros A B. apply cov_true in A as [A1 A2], B as [B1 B2]. cbn in A2. apply andb_prop in A2 as [A2 A3]. apply negb_true_iff, N.eqb_neq in A3.
      exact (H eq_refl s t A1 A2 A3).
    + exists true. split; [reflexivity|]. split; [|discriminate]. intros _. split; intros [A [B|B]]; discriminate.
Qed.

(** ** Whether a rule is one a deny rule bears on *)
Definition hits (y : deny) (s t c p : N) : bool := cov (y_src y) (y_tgt y) s t && class_perm_in c p (y_perms y).
Definition allows (r : avrule) : Prop := r_kind r = Allowed /\ r_ext r = false.
Lemma matches_ok D r y : rule_ok D r -> deny_ok D y ->
  exists b, rule_matches r y = Good b /\
    (b = true -> allows r /\ compatible (r_tgt r) (y_tgt y) /\ existsb (find_perms_any (y_perms y)) (r_perms r) = true) /\
    (b = false -> allows r -> forall s t c p, gives s t c p r = true -> hits y s t c p = false).
Proof.
  intros RO [YS YT]. unfold rule_matches, allows. unfold rule_ok in RO. destruct (r_kind r); try (exists false; split; [reflexivity|]; split; [discriminate|]; intros _ [A B]; discriminate).
  destruct (r_ext r); [exists false; split; [reflexivity|]; split; [discriminate|]; intros _ [A B]; discriminate|].
  destruct (RO eq_refl eq_refl) as [RS RT]. destruct (overlap_ok D _ _ _ _ RS RT YS YT) as (b & -> & B1 & B2). cbn [andthen]. eexists. split; [reflexivity|]. split.
  - destruct b; [|discriminate]. intros E. split; [split; reflexivity|]. split; [exact (B1 eq_refl)|exact E].
  - intros E _ s t c p G. unfold gives in G. apply andb_prop in G as [G1 G2]. unfold hits. destruct b.
    + apply both_false. intros _ H. assert (X : existsb (find_perms_any (y_perms y)) (r_perms r) = true) by (apply find_list; eauto). congruence.
    + specialize (B2 eq_refl s t). rewrite G1 in B2. cbn in B2. rewrite B2. reflexivity.
Qed.

(** ** Where statements are *)
Lemma holds_app path a b x : Holds path (a ++ b) x <-> Holds path a x \/ Holds path b x.
Proof.
  split.
  - intros H. inversion H as [l z J|l id sk l' p z J K]; subst; apply in_app_iff in J as [J|J]; [left|right|left|right]; solve [constructor; exact J | econstructor; eassumption].
  - intros [H|H]; inversion H as [l z J|l id sk l' p z J K]; subst; solve [constructor; apply in_app_iff; auto | econstructor; [apply in_app_iff; eauto|eassumption]].
Qed.
Lemma holds_nil path x : ~ Holds path [] x.
Proof. intros H. inversion H as [l z J|l id sk l' p z J K]; destruct J. Qed.
Lemma holds_box id sk l path x : Holds path [NBox id sk l] x <-> (path = [] /\ x = NBox id sk l) \/ exists p, path = (id, sk) :: p /\ Holds p l x.
Proof.
  split.
  - intros H. inversion H as [l0 z J|l0 i s l' p z J K]; subst; destruct J as [J|[]].
    + left. split; [reflexivity|congruence].
    + right. injection J as -> -> ->. eauto.
  - intros [[-> ->]|(p & -> & H)]; [constructor; left; reflexivity|]. econstructor; [left; reflexivity|exact H].
Qed.
Lemma holds_leaf y path x : (forall id sk l, y <> NBox id sk l) -> Holds path [y] x <-> path = [] /\ x = y.
Proof.
  intros NB. split.
  - intros H. inversion H as [l0 z J|l0 i s l' p z J K]; subst; destruct J as [J|[]]; [auto|]. destruct (NB _ _ _ J).
  - intros [-> ->]. constructor. left. reflexivity.
Qed.
Lemma holds_rules l path x : Holds path (map NRule l) x <-> path = [] /\ exists r, In r l /\ x = NRule r.
Proof.
  split.
  - intros H. inversion H as [l0 z J|l0 i s l' p z J K]; subst; apply in_map_iff in J as (r & E & J); [|discriminate]. split; [reflexivity|]. eauto.
  - intros [-> (r & I & ->)]. constructor. apply in_map. exact I.
Qed.
Lemma live_cons b path : live (b :: path) <-> snd b = false /\ live path.
Proof. unfold live. split; [intros H; inversion H; auto|intros [A B]; constructor; assumption]. Qed.

Definition gr (path : list (N * bool)) (l : list node) (s t c p : N) : Prop := exists r, Holds path l (NRule r) /\ allows r /\ gives s t c p r = true.
(** What a step over the tree may not touch. *)
Definition rest (x : node) : Prop := match x with NRule r => ~ allows r | NBox _ sk _ => sk = true | _ => True end.
Definition has_box (path : list (N * bool)) (l : list node) (id : N) : Prop := exists l0, Holds path l (NBox id false l0).
Definition step (n : N) (bad : N -> N -> N -> N -> Prop) (l l' : list node) : Prop :=
  (forall path s t c p, s < n -> t < n -> (gr path l' s t c p <-> gr path l s t c p /\ (live path -> ~ bad s t c p))) /\
  (forall path x, rest x \/ ~ live path -> (Holds path l' x <-> Holds path l x)) /\
  (forall path id, has_box path l' id <-> has_box path l id).
Lemma gr_app path a b s t c p : gr path (a ++ b) s t c p <-> gr path a s t c p \/ gr path b s t c p.
Proof.
  unfold gr. split.
  - intros (r & H & A). apply holds_app in H as [H|H]; [left|right]; eauto.
  - intros [(r & H & A)|(r & H & A)]; exists r; (split; [apply holds_app; auto|exact A]).
Qed.
Lemma box_app path a b id : has_box path (a ++ b) id <-> has_box path a id \/ has_box path b id.
Proof.
  unfold has_box. split.
  - intros (r & H). apply holds_app in H as [H|H]; [left|right]; eauto.
  - intros [(r & H)|(r & H)]; exists r; apply holds_app; auto.
Qed.
Lemma step_app n bad a a' b b' : step n bad a a' -> step n bad b b' -> step n bad (a ++ b) (a' ++ b').
Proof.
  intros (A1 & A2 & A3) (B1 & B2 & B3). split; [|split].
  - intros path s t c p Ls Lt. rewrite !gr_app. specialize (A1 path s t c p Ls Lt). specialize (B1 path s t c p Ls Lt). tauto.
  - intros path x R. rewrite !holds_app. specialize (A2 path x R). specialize (B2 path x R). tauto.
  - intros path id. rewrite !box_app. specialize (A3 path id). specialize (B3 path id). tauto.
Qed.
Lemma step_nil n bad : step n bad [] [].
Proof.
  split; [|split].
  - intros path s t c p _ _. split; [|tauto]. intros (r & H & _). destruct (holds_nil _ _ H).
  - tauto.
  - tauto.
Qed.
Lemma gr_box id sk l path s t c p : gr path [NBox id sk l] s t c p <-> exists q, path = (id, sk) :: q /\ gr q l s t c p.
Proof.
  unfold gr. split.
  - intros (r & H & A). apply holds_box in H as [[_ H]|(q & E & H)]; [discriminate|]. eauto.
  - intros (q & E & r & H & A). exists r. split; [|exact A]. apply holds_box. right. eauto.
Qed.
Lemma step_box n bad id l l' : step n bad l l' -> step n bad [NBox id false l] [NBox id false l'].
Proof.
  intros (A1 & A2 & A3). split; [|split].
  - intros path s t c p Ls Lt. rewrite !gr_box. split.
    + intros (q & -> & G). apply A1 in G as [G B]; [|assumption..]. split; [eauto|]. intros L. apply live_cons in L as [_ L]. auto.
    + intros [(q & -> & G) B]. exists q. split; [reflexivity|]. apply A1; [assumption..|]. split; [exact G|]. intros L. apply B, live_cons. auto.
  - intros path x R. rewrite !holds_box. split.
    + intros [[-> ->]|(q & -> & H)].
      * exfalso. destruct R as [R|R]; [cbn in R; discriminate|]. apply R. constructor.
      * right. exists q. split; [reflexivity|]. apply A2; [|exact H]. destruct R as [R|R]; [auto|]. right. intros L. apply R, live_cons. auto.
    + intros [[-> ->]|(q & -> & H)].
      * exfalso. destruct R as [R|R]; [cbn in R; discriminate|]. apply R. constructor.
      * right. exists q. split; [reflexivity|]. apply A2; [|exact H]. destruct R as [R|R]; [auto|]. right. intros L. apply R, live_cons. auto.
  - intros path i. unfold has_box. split; intros (l0 & H); apply holds_box in H as [[-> E]|(q & -> & H)].
    + injection E as -> _. eexists. apply holds_box. left. split; reflexivity.
    + destruct (proj1 (A3 q i) (ex_intro _ _ H)) as (l1 & K). exists l1. apply holds_box. eauto.
    + injection E as -> _. eexists. apply holds_box. left. split; reflexivity.
    + destruct (proj2 (A3 q i) (ex_intro _ _ H)) as (l1 & K). exists l1. apply holds_box. eauto.
Qed.
Lemma step_same n bad l : (forall path s t c p, s < n -> t < n -> gr path l s t c p -> live path -> ~ bad s t c p) -> step n bad l l.
Proof.
  intros H. split; [|split]; [|tauto..]. intros path s t c p Ls Lt. split; [|tauto]. intros G. split; [exact G|]. intros L. eapply H; eassumption.
Qed.
Lemma step_trans n b1 b2 l l1 l2 : step n b1 l l1 -> step n b2 l1 l2 -> step n (fun s t c p => b1 s t c p \/ b2 s t c p) l l2.
Proof.
  intros (A1 & A2 & A3) (B1 & B2 & B3). split; [|split].
  - intros path s t c p Ls Lt. rewrite (B1 _ _ _ _ _ Ls Lt), (A1 _ _ _ _ _ Ls Lt). tauto.
  - intros path x R. rewrite (B2 _ _ R). apply A2, R.
  - intros path id. rewrite B3. apply A3.
Qed.

(** ** One deny rule *)
Definition tree_ok (D : db) (l : list node) : Prop := forall path r, live path -> Holds path l (NRule r) -> rule_ok D r.
Lemma rule_ext D D' r : ext D D' -> rule_ok D r -> rule_ok D' r.
Proof. intros X O K E. destruct (O K E) as [A B]. split; [eapply datum_ext; eassumption|eapply target_ext; eassumption]. Qed.
Lemma deny_ext D D' y : ext D D' -> deny_ok D y -> deny_ok D' y.
Proof. intros X [A B]. split; [eapply datum_ext; eassumption|eapply target_ext; eassumption]. Qed.
Lemma tree_ext D D' l : ext D D' -> tree_ok D l -> tree_ok D' l.
Proof. intros X O path r L H. eapply rule_ext; [exact X|]. eapply O; eassumption. Qed.
Lemma tree_app D a b : tree_ok D (a ++ b) <-> tree_ok D a /\ tree_ok D b.
Proof.
  split.
  - intros O. split; intros path r L H; apply (O path r L); apply holds_app; auto.
  - intros [A B] path r L H. apply holds_app in H as [H|H]; eauto.
Qed.
Lemma tree_box D id l : tree_ok D [NBox id false l] <-> tree_ok D l.
Proof.
  split.
  - intros O path r L H. apply (O ((id, false) :: path) r); [apply live_cons; auto|]. apply holds_box. right. eauto.
  - intros O path r L H. apply holds_box in H as [[_ H]|(p & -> & H)]; [discriminate|]. apply live_cons in L as [_ L]. eauto.
Qed.
Fixpoint node_all (P : node -> Prop) (HR : forall r, P (NRule r)) (HD : forall y, P (NDeny y)) (HO : forall n, P (NOther n))
  (HB : forall id sk l, Forall P l -> P (NBox id sk l)) (x : node) : P x :=
  match x with
  | NRule r => HR r | NDeny y => HD y | NOther n => HO n
  | NBox id sk l => HB id sk l ((fix go l : Forall P l := match l with [] => Forall_nil _ | z :: l' => Forall_cons _ (node_all P HR HD HO HB z) (go l') end) l)
  end.
Lemma deny_box y D id l : deny_node y D (NBox id false l) = (do! (D', l') <- deny_tree y D l; Good (D', [NBox id false l'])).
Proof.
  cbn [deny_node]. f_equal. revert D. induction l as [|z l IH]; intros D; [reflexivity|]. cbn [deny_tree]. destruct (deny_node y D z) as [[D1 a]| |]; cbn [andthen]; [|reflexivity..].
  rewrite IH. reflexivity.
Qed.
Definition done (y : deny) (D : db) (x : out (db * list node)) (l : list node) : Prop :=
  exists D' l', x = Good (D', l') /\ ext D D' /\ good D' /\ tree_ok D' l' /\ step (d_types D) (fun s t c p => hits y s t c p = true) l l'.
Lemma tree_done y l : Forall (fun x => forall D, good D -> deny_ok D y -> tree_ok D [x] -> done y D (deny_node y D x) [x]) l ->
  forall D, good D -> deny_ok D y -> tree_ok D l -> done y D (deny_tree y D l) l.
Proof.
  induction 1 as [|x l H _ IH]; intros D G O T.
  - exists D, []. split; [reflexivity|]. split; [apply ext_refl|]. split; [exact G|]. split; [exact T|apply step_nil].
  - change (x :: l) with ([x] ++ l) in T. apply tree_app in T as [T1 T2]. destruct (H D G O T1) as (D1 & a & E & X1 & G1 & TA & S1). cbn [deny_tree]. rewrite E. cbn [andthen].
    destruct (IH D1 G1 (deny_ext _ _ _ X1 O) (tree_ext _ _ _ X1 T2)) as (D2 & b & E2 & X2 & G2 & TB & S2). rewrite E2. cbn [andthen].
    exists D2, (a ++ b). split; [reflexivity|]. split; [eapply ext_trans; eassumption|]. split; [exact G2|]. split.
    + apply tree_app. split; [eapply tree_ext; eassumption|exact TB].
    + change (x :: l) with ([x] ++ l). apply step_app; [exact S1|]. destruct X1 as [Q _]. rewrite Q in S2. exact S2.
Qed.
Lemma node_done y : forall x D, good D -> deny_ok D y -> tree_ok D [x] -> done y D (deny_node y D x) [x].
Proof.
  induction x as [r|z|n|id sk l H] using node_all; intros D G O T.
  - assert (RO : rule_ok D r) by (apply (T [] r); [constructor|constructor; left; reflexivity]).
    cbn [deny_node]. destruct (matches_ok D r y RO O) as (b & -> & B1 & B2). cbn [andthen]. destruct b.
    + destruct (B1 eq_refl) as ([K E] & C & F). destruct (RO K E) as [RS RT]. destruct O as [YS YT].
      destruct (remove_ok D (d_types D) r y G eq_refl RS RT YS YT C F) as (D' & l & -> & X & G' & A & W). cbn [andthen].
      exists D', (map NRule l). split; [reflexivity|]. split; [exact X|]. split; [exact G'|]. split.
      * intros path r' _ H. apply holds_rules in H as [_ (r0 & I & Q)]. injection Q as ->. rewrite Forall_forall in A. destruct (A r0 I) as (_ & _ & S & TT). intros _ _. split; assumption.
      * rewrite Forall_forall in A. split; [|split].
        -- intros path s t c p Ls Lt. specialize (W s t c p Ls Lt). cbn [orb] in W. split.
           ++ intros (r' & H & AL & GV). apply holds_rules in H as [-> (r0 & I & Q)]. injection Q as ->.
              assert (EX : existsb (gives s t c p) l = true) by (apply existsb_true; eauto). rewrite EX in W. symmetry in W. apply andb_prop in W as [W1 W2]. split.
              ** exists r. split; [constructor; left; reflexivity|]. split; [split; assumption|exact W1].
              ** intros _ Hh. unfold hits in Hh. rewrite Hh in W2. discriminate.
           ++ intros [(r' & H & AL & GV) B]. apply holds_leaf in H as [-> Q]; [|discriminate]. injection Q as ->.
              assert (NH : hits y s t c p = false) by (destruct (hits y s t c p) eqn:Hh; [destruct B; [constructor|reflexivity]|reflexivity]). unfold hits in NH. rewrite GV, NH in W. cbn in W.
              apply existsb_true in W as (r0 & I & GV0). exists r0. split; [apply holds_rules; split; [reflexivity|eauto]|]. split; [|exact GV0]. destruct (A r0 I) as (K0 & E0 & _). split; assumption.
        -- intros path x R. rewrite holds_rules, holds_leaf by discriminate. split.
           ++ intros [-> (r0 & I & ->)]. destruct (A r0 I) as (K0 & E0 & _). exfalso. destruct R as [R|R]; [apply R; split; assumption|apply R; constructor].
           ++ intros [-> ->]. exfalso. destruct R as [R|R]; [apply R; split; assumption|apply R; constructor].
        -- intros path id. unfold has_box. split; intros (l0 & H).
           ++ apply holds_rules in H as [_ (r0 & _ & Q)]. discriminate.
           ++ apply holds_leaf in H as [_ Q]; discriminate.
    + exists D, [NRule r]. split; [reflexivity|]. split; [apply ext_refl|]. split; [exact G|]. split; [exact T|]. apply step_same.
      intros path s t c p _ _ (r' & H & AL & GV) _ Hh. apply holds_leaf in H as [-> Q]; [|discriminate]. injection Q as ->. rewrite (B2 eq_refl AL s t c p GV) in Hh. discriminate.
  - exists D, [NDeny z]. split; [reflexivity|]. split; [apply ext_refl|]. split; [exact G|]. split; [exact T|]. apply step_same.
    intros path s t c p _ _ (r' & H & _) _ _. apply holds_leaf in H as [_ Q]; discriminate.
  - exists D, [NOther n]. split; [reflexivity|]. split; [apply ext_refl|]. split; [exact G|]. split; [exact T|]. apply step_same.
    intros path s t c p _ _ (r' & H & _) _ _. apply holds_leaf in H as [_ Q]; discriminate.
  - destruct sk.
    + exists D, [NBox id true l]. split; [reflexivity|]. split; [apply ext_refl|]. split; [exact G|]. split; [exact T|]. apply step_same.
      intros path s t c p _ _ GG L. apply gr_box in GG as (q & -> & _). apply live_cons in L as [L _]. discriminate.
    + rewrite deny_box. apply tree_box in T. destruct (tree_done y l H D G O T) as (D' & l' & -> & X & G' & T' & S). cbn [andthen]. exists D', [NBox id false l'].
      split; [reflexivity|]. split; [exact X|]. split; [exact G'|]. split; [apply tree_box; exact T'|apply step_box; exact S].
Qed.
Lemma tree_ok_done y D l : good D -> deny_ok D y -> tree_ok D l -> done y D (deny_tree y D l) l.
Proof. intros G O T. apply tree_done; [|assumption..]. apply Forall_forall. intros x _ D0 G0 O0 T0. apply node_done; assumption. Qed.

(** ** All deny rules *)
Lemma rules_done ys : forall D l, good D -> Forall (deny_ok D) ys -> tree_ok D l ->
  exists D' l', process_rules D l ys = Good (D', l') /\ ext D D' /\ good D' /\ tree_ok D' l' /\ step (d_types D) (fun s t c p => exists y, In y ys /\ hits y s t c p = true) l l'.
Proof.
  induction ys as [|y ys IH]; intros D l G O T.
  - exists D, l. split; [reflexivity|]. split; [apply ext_refl|]. split; [exact G|]. split; [exact T|]. apply step_same. intros path s t c p _ _ _ _ (y & [] & _).
  - apply Forall_cons_iff in O as [OY OS]. destruct (tree_ok_done y D l G OY T) as (D1 & l1 & E & X1 & G1 & T1 & S1). cbn [process_rules]. rewrite E. cbn [andthen].
    destruct (IH D1 l1 G1) as (D2 & l2 & E2 & X2 & G2 & T2 & S2); [revert OS; apply Forall_impl; intros z; apply deny_ext; exact X1|exact T1|]. rewrite E2.
    exists D2, l2. split; [reflexivity|]. split; [eapply ext_trans; eassumption|]. split; [exact G2|]. split; [exact T2|].
    destruct X1 as [Q _]. rewrite Q in S2. destruct (step_trans _ _ _ _ _ _ S1 S2) as (A & B & C). split; [|split; assumption].
    intros path s t c p Ls Lt. rewrite (A path s t c p Ls Lt). split.
    + intros [GG NB]. split; [exact GG|]. intros L (z & [<-|I] & H); apply (NB L); [left; exact H|right; eauto].
    + intros [GG NB]. split; [exact GG|]. intros L [H|(z & I & H)]; apply (NB L); [exists y; split; [left; reflexivity|exact H]|exists z; split; [right; exact I|exact H]].
Qed.
Lemma denies_in y : forall x, In y (node_denies x) <-> exists path, live path /\ Holds path [x] (NDeny y).
Proof.
  induction x as [r|z|n|id sk l H] using node_all; cbn [node_denies].
  - split; [intros []|]. intros (path & _ & K). apply holds_leaf in K as [_ Q]; discriminate.
  - split.
    + intros [->|[]]. exists []. split; constructor. left. reflexivity.
    + intros (path & _ & K). apply holds_leaf in K as [_ Q]; [|discriminate]. left. congruence.
  - split; [intros []|]. intros (path & _ & K). apply holds_leaf in K as [_ Q]; discriminate.
  - destruct sk.
    + split; [intros []|]. intros (path & L & K). apply holds_box in K as [[_ Q]|(q & -> & _)]; [discriminate|]. apply live_cons in L as [L _]. discriminate.
    + rewrite in_flat_map. rewrite Forall_forall in H. split.
      * intros (x & I & J). apply (H x I) in J as (path & L & K). exists ((id, false) :: path). split; [apply live_cons; auto|]. apply holds_box. right. exists path. split; [reflexivity|].
        apply in_split in I as (u & v & ->). apply holds_app. right. change (x :: v) with ([x] ++ v). apply holds_app. left. exact K.
      * intros (path & L & K). apply holds_box in K as [[_ Q]|(q & -> & K)]; [discriminate|]. apply live_cons in L as [_ L].
        inversion K as [l0 w J|l0 i s l' p w J M]; subst; (eexists; split; [exact J|]; apply (H _ J)).
        -- exists []. split; constructor. left. reflexivity.
        -- exists ((i, s) :: p). split; [exact L|]. econstructor; [left; reflexivity|exact M].
Qed.
Lemma denies_tree y l : In y (flat_map node_denies l) <-> exists path, live path /\ Holds path l (NDeny y).
Proof.
  pose proof (denies_in y (NBox 0 false l)) as H. cbn [node_denies] in H. rewrite H. clear H. split.
  - intros (path & L & K). apply holds_box in K as [[_ Q]|(q & -> & K)]; [discriminate|]. apply live_cons in L as [_ L]. eauto.
  - intros (path & L & K). exists ((0, false) :: path). split; [apply live_cons; auto|]. apply holds_box. right. eauto.
Qed.

(** ** The deny rules leave the tree *)
Definition kept (l l' : list node) : Prop :=
  (forall path x, (match x with NRule _ | NOther _ => True | NBox _ sk _ => sk = true | NDeny _ => False end) \/ ~ live path -> (Holds path l' x <-> Holds path l x)) /\
  (forall path id, has_box path l' id <-> has_box path l id) /\ (forall path y, live path -> ~ Holds path l' (NDeny y)).
Lemma kept_app a a' b b' : kept a a' -> kept b b' -> kept (a ++ b) (a' ++ b').
Proof.
  intros (A1 & A2 & A3) (B1 & B2 & B3). split; [|split].
  - intros path x R. rewrite !holds_app. specialize (A1 path x R). specialize (B1 path x R). tauto.
  - intros path id. rewrite !box_app. specialize (A2 path id). specialize (B2 path id). tauto.
  - intros path y L H. apply holds_app in H as [H|H]; [eapply A3|eapply B3]; eassumption.
Qed.
Lemma kept_same l : (forall path y, live path -> ~ Holds path l (NDeny y)) -> kept l l.
Proof. intros H. split; [|split]; [tauto..|exact H]. Qed.
Lemma kept_flat l : Forall (fun x => kept [x] (drop_denies x)) l -> kept l (flat_map drop_denies l).
Proof.
  induction 1 as [|x l H _ IH]; [apply kept_same; intros path y _ K; exact (holds_nil _ _ K)|]. cbn [flat_map]. change (x :: l) with ([x] ++ l). apply kept_app; assumption.
Qed.
Lemma drop_ok : forall x, kept [x] (drop_denies x).
Proof.
  induction x as [r|z|n|id sk l H] using node_all; cbn [drop_denies].
  - apply kept_same. intros path y _ K. apply holds_leaf in K as [_ Q]; discriminate.
  - split; [|split].
    + intros path x R. split; [intros K; destruct (holds_nil _ _ K)|]. intros K. apply holds_leaf in K as [-> ->]; [|discriminate]. exfalso. destruct R as [[]|R]. apply R. constructor.
    + intros path id. split; intros (l0 & K); [destruct (holds_nil _ _ K)|]. apply holds_leaf in K as [_ Q]; discriminate.
    + intros path y _ K. destruct (holds_nil _ _ K).
  - apply kept_same. intros path y _ K. apply holds_leaf in K as [_ Q]; discriminate.
  - destruct sk.
    + apply kept_same. intros path y L K. apply holds_box in K as [[_ Q]|(q & -> & _)]; [discriminate|]. apply live_cons in L as [L _]. discriminate.
    + apply kept_flat in H. destruct H as (A1 & A2 & A3). split; [|split].
      * intros path x R. rewrite !holds_box. split; (intros [[-> ->]|(q & -> & K)]; [exfalso; destruct R as [R|R]; [cbn in R; discriminate|apply R; constructor]|]);
          right; exists q; (split; [reflexivity|]); (apply A1; [|exact K]); (destruct R as [R|R]; [left; exact R|right; intros L; apply R, live_cons; auto]).
      * intros path i. unfold has_box. split; intros (l0 & K); apply holds_box in K as [[-> E]|(q & -> & K)].
        -- injection E as -> _. eexists. apply holds_box. left. split; reflexivity.
        -- destruct (proj1 (A2 q i) (ex_intro _ _ K)) as (l1 & M). exists l1. apply holds_box. eauto.
        -- injection E as -> _. eexists. apply holds_box. left. split; reflexivity.
        -- destruct (proj2 (A2 q i) (ex_intro _ _ K)) as (l1 & M). exists l1. apply holds_box. eauto.
      * intros path y L K. apply holds_box in K as [[_ Q]|(q & -> & K)]; [discriminate|]. apply live_cons in L as [_ L]. eapply A3; eassumption.
Qed.
Lemma drop_tree l : kept l (flat_map drop_denies l).
Proof. apply kept_flat, Forall_forall. intros x _. apply drop_ok. Qed.

(** ** In the words of the specification *)
Lemma gr_granted D l path s t c p : t < d_types D -> (granted (d_types D) path l (mkAcc s t c p) <-> gr path l s t c p).
Proof.
  intros Lt. unfold granted, grants, gr, allows, gives. cbn [x_src x_tgt x_class x_perm]. split.
  - intros (r & H & K & E & P & Q). exists r. split; [exact H|]. split; [auto|]. apply andb_true_intro. split; [apply (pairs_cov (d_types D)); assumption|apply names_iff; exact Q].
  - intros (r & H & [K E] & P). apply andb_prop in P as [P Q]. exists r. split; [exact H|]. split; [exact K|]. split; [exact E|]. split; [apply pairs_cov; assumption|apply names_iff; exact Q].
Qed.
Lemma hits_denies n y s t c p : t < n -> (denies n y (mkAcc s t c p) <-> hits y s t c p = true).
Proof.
  intros Lt. unfold denies, hits. cbn [x_src x_tgt x_class x_perm]. rewrite andb_true_iff, (pairs_cov n _ _ s t Lt), names_iff. tauto.
Qed.
Lemma process_ok D l : policy_ok D l -> names_free D ->
  exists D' l', process D l = Good (D', l') /\ d_types D' = d_types D /\ incl (d_attrs D) (d_attrs D') /\ policy_ok D' l' /\
    (forall path x, x_src x < d_types D -> x_tgt x < d_types D -> (granted (d_types D) path l' x <-> granted (d_types D) path l x /\ (live path -> ~ denied (d_types D) l x))) /\
    (forall path x, (match x with NRule r => ~ allows r | NOther _ => True | NBox _ sk _ => sk = true | NDeny _ => False end) \/ ~ live path -> (Holds path l' x <-> Holds path l x)) /\
    (forall path id, has_box path l' id <-> has_box path l id) /\ (forall path y, live path -> ~ Holds path l' (NDeny y)).
Proof.
  intros [DO P] NF. assert (G : good D) by (split; assumption).
  assert (T : tree_ok D l) by (intros path r L H; exact (P path (NRule r) L H)).
  assert (O : Forall (deny_ok D) (flat_map node_denies l)).
  { apply Forall_forall. intros y I. apply denies_tree in I as (path & L & H). exact (P path (NDeny y) L H). }
  destruct (rules_done _ D l G O T) as (D' & l' & E & X & G' & T' & (S1 & S2 & S3)). unfold process. rewrite E. cbn [andthen].
  destruct (drop_tree l') as (K1 & K2 & K3).
  exists D', (flat_map drop_denies l'). split; [reflexivity|]. split; [apply X|]. split; [apply X|]. split; [|split; [|split; [|split]]].
  - split; [apply G'|]. intros path x L H. destruct x as [r|y| |]; [|destruct (K3 path y L H)|exact I|exact I]. apply (T' path r L). apply K1; [left; exact I|exact H].
  - intros path [s t c p]. cbn [x_src x_tgt]. intros Ls Lt. rewrite !gr_granted by exact Lt.
    assert (GR : gr path (flat_map drop_denies l') s t c p <-> gr path l' s t c p).
    { split; intros (r & H & A); exists r; (split; [|exact A]); (apply K1; [left; exact I|exact H]). }
    rewrite GR, (S1 path s t c p Ls Lt). split; intros [GG NB]; (split; [exact GG|]); intros L.
    + intros (q & y & LQ & HQ & Dn). apply (NB L). exists y. split; [apply denies_tree; eauto|]. apply (hits_denies (d_types D)); assumption.
    + intros (y & I & H). apply denies_tree in I as (q & LQ & HQ). apply (NB L). exists q, y. split; [exact LQ|]. split; [exact HQ|]. apply hits_denies; assumption.
  - intros path x R. rewrite K1.
    + apply S2. destruct R as [R|R]; [left|auto]. destruct x; cbn; auto.
    + destruct R as [R|R]; [left|auto]. destruct x; auto.
  - intros path id. rewrite K2. apply S3.
  - exact K3.
Qed.
