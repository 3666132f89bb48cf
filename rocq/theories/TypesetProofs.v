(** Proofs about type sets and role sets. *)
From Verif Require Import Base EbitmapModel EbitmapSpec EbitmapProofs AssertModel AssertProofs TypesetModel TypesetSpec.

Lemma set_in e b v : valid e -> b < 4294967232 -> exists e', ebitmap_set_bit e b v = Some e' /\ valid e' /\ forall x, member e' x <-> if x =? b then v = true else member e x.
Proof.
  intros V B. destruct (set_bit_ok e b v V B) as (e' & E & V' & H). exists e'. split; [exact E|]. split; [exact V'|].
  intros x. rewrite <- (nget_member e' x V'), H. destruct (x =? b); [reflexivity|]. apply nget_member. exact V.
Qed.
Lemma sset_in e b v : valid e -> b < 4294967232 -> exists e', sset e b v = SOk e' /\ valid e' /\ forall x, member e' x <-> if x =? b then v = true else member e x.
Proof. intros V B. destruct (set_in e b v V B) as (e' & E & H). exists e'. unfold sset. rewrite E. auto. Qed.
Lemma sset_add e b : valid e -> b < 4294967232 -> exists e', sset e b true = SOk e' /\ valid e' /\ forall x, member e' x <-> member e x \/ x = b.
Proof.
  intros V B. destruct (sset_in e b true V B) as (e' & E & V' & H). exists e'. split; [exact E|]. split; [exact V'|]. intros x. rewrite H. destruct (N.eqb_spec x b); tauto.
Qed.

Lemma init_out x : ~ member ebitmap_init x.
Proof. rewrite <- (nget_member _ x valid_init). discriminate. Qed.

(** A loop whose steps each add a set of numbers. *)
Lemma loop_add f (A : N -> N -> Prop) : forall l e, valid e ->
  (forall e i, valid e -> In i l -> exists e', f e i = SOk e' /\ valid e' /\ forall x, member e' x <-> member e x \/ A i x) ->
  exists e', sloop f l e = SOk e' /\ valid e' /\ forall x, member e' x <-> member e x \/ exists i, In i l /\ A i x.
Proof.
  induction l as [|i l IH]; intros e V H; cbn [sloop].
  - exists e. split; [reflexivity|]. split; [exact V|]. intros x. split; [auto|]. intros [X|(i & [] & _)]. exact X.
  - destruct (H e i V (or_introl eq_refl)) as (e1 & E1 & V1 & H1). rewrite E1. cbn [sbind].
    destruct (IH e1 V1) as (e2 & E2 & V2 & H2). { intros e' j V' Hj. apply H; [exact V'|right; exact Hj]. }
    exists e2. split; [exact E2|]. split; [exact V2|]. intros x. rewrite H2, H1. split.
    + intros [[X|X]|(j & Hj & X)]; [auto|right; exists i; split; [left; reflexivity|exact X]|right; exists j; split; [right; exact Hj|exact X]].
    + intros [X|(j & [<-|Hj] & X)]; [auto|auto|right; exists j; auto].
Qed.
Lemma in_upto n i : In i (upto n) <-> (N.to_nat i < n)%nat.
Proof.
  unfold upto. rewrite in_map_iff. split; [intros (k & <- & H); apply in_seq in H; lia|]. intros H. exists (N.to_nat i). split; [lia|]. apply in_seq. lia.
Qed.
Lemma upto_nodup n : NoDup (upto n).
Proof. unfold upto. apply FinFun.Injective_map_NoDup; [intros a b; lia|apply seq_NoDup]. Qed.

(** The flip loops: every visited number not skipped changes sides. *)
Lemma loop_flip f (skip : N -> bool) : (forall e i, valid e -> i < 4294967232 -> (skip i = true -> f e i = SOk e \/ member e i) ->
    (skip i = true -> ~ member e i) ->
    exists e', f e i = SOk e' /\ valid e' /\ forall x, member e' x <-> if x =? i then (if skip i then member e i else ~ member e i) else member e x) ->
  forall l e, valid e -> NoDup l -> (forall i, In i l -> i < 4294967232) -> (forall i, In i l -> skip i = true -> ~ member e i) ->
    (forall e i, valid e -> In i l -> skip i = true -> f e i = SOk e \/ member e i) ->
  exists e', sloop f l e = SOk e' /\ valid e' /\ forall x, member e' x <-> (In x l /\ skip x = false /\ ~ member e x) \/ ((~ In x l \/ skip x = true) /\ member e x).
Proof.
  intros HF. induction l as [|i l IH]; intros e V ND B NS HS; cbn [sloop].
  - exists e. split; [reflexivity|]. split; [exact V|]. intros x. split; [intros H; right; split; [left; intros []|exact H]|]. intros [[[] _]|[_ H]]. exact H.
  - inversion ND as [|? ? N1 N2]; subst. destruct (HF e i V) as (e1 & E1 & V1 & H1); [apply B; left; reflexivity|intros Sk; apply HS; [exact V|left; reflexivity|exact Sk]|apply NS; left; reflexivity|].
    rewrite E1. cbn [sbind].
    destruct (IH e1 V1 N2) as (e2 & E2 & V2 & H2).
    { intros j Hj. apply B. right. exact Hj. }
    { intros j Hj Sk. rewrite H1. destruct (N.eqb_spec j i) as [->|_]; [contradiction|]. apply NS; [right; exact Hj|exact Sk]. }
    { intros e' j V' Hj. apply HS; [exact V'|right; exact Hj]. }
    exists e2. split; [exact E2|]. split; [exact V2|]. intros x. rewrite H2, H1. destruct (N.eqb_spec x i) as [->|NE].
    + destruct (skip i) eqn:Sk.
      * split; [intros [[X _]|[_ X]]; [contradiction|right; auto]|intros [[_ [X _]]|[_ X]]; [discriminate|right; auto]].
      * split.
        -- intros [[X _]|[_ X]]; [contradiction|left; split; [left; reflexivity|auto]].
        -- intros [[_ [_ X]]|[[X|X] _]]; [right; auto|exfalso; apply X; left; reflexivity|discriminate].
    + cbn [In]. split.
      * intros [[X1 X2]|[[X1|X1] X2]]; [left; tauto|right; split; [left; intros [Q|Q]; [congruence|contradiction]|exact X2]|right; auto].
      * intros [[[X|X1] X2]|[[X1|X1] X2]]; [congruence|left; tauto|right; split; [left; tauto|exact X2]|right; auto].
Qed.

(** ** Type sets *)
Section TS.
Context (ts : list (option tinfo)) (HA : attributes_ok ts).

Lemma is_attr_iff i : is_attr ts i = true <-> attribute ts i.
Proof.
  unfold is_attr, attribute. destruct (nth_error ts (N.to_nat i)) as [[ti|]|]; split; try discriminate; try (intros (x & [= <-] & H); exact H); try (intros (x & E & _); discriminate).
  intros H. exists ti. auto.
Qed.
Lemma nth_small i (x : option tinfo) : nth_error ts (N.to_nat i) = Some x -> (N.to_nat i < length ts)%nat /\ i < 4294967232.
Proof. intros H. assert (L : (N.to_nat i < length ts)%nat) by (apply nth_error_Some; congruence). split; [exact L|]. destruct HA as [B _]. lia. Qed.

Definition pos_adds (expand : bool) (i x : N) : Prop :=
  exists ti, nth_error ts (N.to_nat i) = Some (Some ti) /\ if ti_attr ti && (expand || ti_expand ti) then member (ti_types ti) x else x = i.
Lemma gather_ok expand e i : valid e -> (exists ti, nth_error ts (N.to_nat i) = Some (Some ti)) ->
  exists e', gather ts expand e i = SOk e' /\ valid e' /\ forall x, member e' x <-> member e x \/ pos_adds expand i x.
Proof.
  intros V (ti & E). unfold gather, pos_adds. rewrite E. destruct (nth_small i _ E) as [_ B]. destruct (ti_attr ti && (expand || ti_expand ti)) eqn:Q.
  - apply andb_prop in Q as [Q Q2]. destruct HA as [_ HB]. destruct (HB _ ti E Q) as [VT _]. exists (ebitmap_union e (ti_types ti)). split; [reflexivity|]. split; [apply union_valid; assumption|].
    intros x. rewrite union_in by assumption. split; [intros [X|X]; [auto|right; exists ti; rewrite Q, Q2; auto]|intros [X|(t & [= <-] & X)]; [auto|rewrite Q, Q2 in X; auto]].
  - destruct (sset_add e i V B) as (e' & E' & V' & H). exists e'. split; [exact E'|]. split; [exact V'|]. intros x. rewrite H.
    split; [intros [X|X]; [auto|right; exists ti; rewrite Q; auto]|intros [X|(t & [= <-] & X)]; [auto|rewrite Q in X; auto]].
Qed.
Lemma gather_neg_ok e i : valid e -> (exists ti, nth_error ts (N.to_nat i) = Some (Some ti)) ->
  exists e', gather_neg ts e i = SOk e' /\ valid e' /\ forall x, member e' x <-> member e x \/ pos_adds true i x.
Proof.
  intros V H. destruct (gather_ok true e i V H) as (e' & E & G). exists e'. split; [|exact G]. destruct H as (ti & N). unfold gather in E. unfold gather_neg. rewrite N in *.
  rewrite orb_true_l, andb_true_r in E. exact E.
Qed.
Lemma adds_stands i x : (exists ti, nth_error ts (N.to_nat i) = Some (Some ti)) -> (pos_adds true i x <-> stands_for ts i x).
Proof.
  intros (ti & E). unfold pos_adds, stands_for, attribute. split.
  - intros (t & E' & X). rewrite E in E'. injection E' as <-. rewrite orb_true_l, andb_true_r in X. destruct (ti_attr ti) eqn:Q; [right; exists ti; auto|left]. split; [auto|].
    intros (t & E' & Y). congruence.
  - intros [[-> X]|(t & E' & Q & X)].
    + exists ti. split; [exact E|]. rewrite orb_true_l, andb_true_r. destruct (ti_attr ti) eqn:Q; [|reflexivity]. exfalso. apply X. exists ti. auto.
    + exists t. split; [exact E'|]. rewrite Q. exact X.
Qed.
Lemma stands_type i x : (exists ti, nth_error ts (N.to_nat i) = Some (Some ti)) -> stands_for ts i x -> (N.to_nat x < length ts)%nat /\ ~ attribute ts x.
Proof.
  intros (ti & E) [[-> X]|(t & E' & Q & X)]; [split; [apply (nth_small _ _ E)|exact X]|]. destruct HA as [_ HB]. apply (HB _ t E' Q). exact X.
Qed.

Lemma gather_all expand e : names_exist ts e ->
  exists e', sloop (gather ts expand) (bits e) ebitmap_init = SOk e' /\ valid e' /\ forall x, member e' x <-> exists i, member e i /\ pos_adds expand i x.
Proof.
  intros [V N]. destruct (loop_add (gather ts expand) (pos_adds expand) (bits e) ebitmap_init valid_init) as (e' & E & V' & H).
  { intros a i Va Hi. apply gather_ok; [exact Va|]. apply N. apply bits_in; assumption. }
  exists e'. split; [exact E|]. split; [exact V'|]. intros x. rewrite H. split.
  - intros [X|(i & Hi & X)]; [destruct (init_out _ X)|]. exists i. split; [apply bits_in; assumption|exact X].
  - intros (i & Hi & X). right. exists i. split; [apply bits_in; assumption|exact X].
Qed.
Lemma gather_neg_all e : names_exist ts e ->
  exists e', sloop (gather_neg ts) (bits e) ebitmap_init = SOk e' /\ valid e' /\ forall x, member e' x <-> names ts e x.
Proof.
  intros [V N]. destruct (loop_add (gather_neg ts) (pos_adds true) (bits e) ebitmap_init valid_init) as (e' & E & V' & H).
  { intros a i Va Hi. apply gather_neg_ok; [exact Va|]. apply N. apply bits_in; assumption. }
  exists e'. split; [exact E|]. split; [exact V'|]. intros x. rewrite H. unfold names. split.
  - intros [X|(i & Hi & X)]; [destruct (init_out _ X)|]. apply bits_in in Hi; [|exact V]. exists i. split; [exact Hi|]. apply adds_stands; auto.
  - intros (i & Hi & X). right. exists i. split; [apply bits_in; assumption|]. apply adds_stands; auto.
Qed.

Lemma flag_bit0 f : negb (N.land f 1 =? 0) = N.testbit f 0.
Proof. change 1 with (N.shiftl 1 0) at 1. apply land_bit_nz. Qed.
Lemma flag_bit1 f : negb (N.land f 2 =? 0) = N.testbit f 1.
Proof. change 2 with (N.shiftl 1 1). apply land_bit_nz. Qed.

(** What the names in the result stand for. *)
Lemma expand_exact s always : set_ok ts s ->
  exists e, type_set_expand ts s always = SOk e /\ valid e /\ (forall i, member e i -> exists ti, nth_error ts (N.to_nat i) = Some (Some ti) \/ (nth_error ts (N.to_nat i) = Some None)) /\
    (forall t, names ts e t <-> ts_meaning ts (names ts (ts_types s)) (names ts (ts_neg s)) (ts_flags s) t) /\
    (always = true \/ (exists i, member (ts_neg s) i) \/ ts_flags s <> 0 -> forall i, member e i -> ~ attribute ts i).
Proof.
  intros [HP HN]. pose proof HP as [VP NP]. pose proof HN as [VN NN]. unfold type_set_expand.
  set (ex := always || negb (ebitmap_is_empty (ts_neg s)) || negb (ts_flags s =? 0)).
  destruct (gather_all ex (ts_types s) HP) as (tt & E1 & V1 & H1). rewrite E1. cbn [sbind].
  destruct (gather_neg_all (ts_neg s) HN) as (tn & E2 & V2 & H2). rewrite E2. cbn [sbind].
  assert (GB : forall i, ebitmap_get_bit tn i = true <-> names ts (ts_neg s) i) by (intros i; rewrite get_bit_member by exact V2; apply H2).
  unfold TYPE_STAR, TYPE_COMP. rewrite flag_bit0, flag_bit1. unfold ts_meaning.
  assert (SELF : forall e t, ~ attribute ts t -> member e t -> names ts e t) by (intros e t Na M; exists t; split; [exact M|left; auto]).
  assert (EX : always = true \/ (exists i, member (ts_neg s) i) \/ ts_flags s <> 0 -> ex = true).
  { intros [->|[(i & Hi)|NZ]]; unfold ex; [reflexivity| |].
    - destruct (ebitmap_is_empty (ts_neg s)) eqn:Q; [|cbn; rewrite orb_true_r; reflexivity]. exfalso. exact (proj1 (empty_in _ VN) Q i Hi).
    - destruct (N.eqb_spec (ts_flags s) 0); [contradiction|]. cbn. apply orb_true_r. }
  destruct (N.testbit (ts_flags s) 0) eqn:F0.
  - destruct (loop_add (fun t i => if ebitmap_get_bit tn i then SOk t else if is_attr ts i then SOk t else sset t i true)
                (fun i x => x = i /\ ~ names ts (ts_neg s) i /\ ~ attribute ts i) (upto (length ts)) ebitmap_init valid_init) as (e & E & V & H).
    { intros a i Va Hi. apply in_upto in Hi. assert (B : i < 4294967232) by (destruct HA; lia). pose proof (GB i) as G. pose proof (is_attr_iff i) as IA.
      destruct (ebitmap_get_bit tn i); [exists a; split; [reflexivity|]; split; [exact Va|]; intros x; tauto|].
      destruct (is_attr ts i); [exists a; split; [reflexivity|]; split; [exact Va|]; intros x; tauto|].
      destruct (sset_add a i Va B) as (a' & Ea & Va' & Ha). exists a'. split; [exact Ea|]. split; [exact Va'|]. intros x. rewrite Ha.
      assert (~ names ts (ts_neg s) i /\ ~ attribute ts i) by (rewrite <- G, <- IA; split; discriminate). tauto. }
    assert (M : forall x, member e x <-> (N.to_nat x < length ts)%nat /\ ~ attribute ts x /\ ~ names ts (ts_neg s) x).
    { intros x. rewrite H. split; [intros [X|(i & Hi & -> & X)]; [destruct (init_out _ X)|apply in_upto in Hi; tauto]|]. intros (L & Y & Z). right. exists x. split; [apply in_upto; exact L|auto]. }
    exists e. split; [exact E|]. split; [exact V|]. split; [|split].
    + intros i Hi. apply M in Hi as (L & _). destruct (nth_error ts (N.to_nat i)) as [[ti|]|] eqn:Q; [exists ti; auto|exists (mkTI true true ebitmap_init); auto|]. apply nth_error_None in Q. lia.
    + intros t. split.
      * intros (i & Hi & [[-> _]|(ti & Q & Qa & _)]); [apply M; exact Hi|]. exfalso. apply M in Hi as (_ & Y & _). apply Y. exists ti. auto.
      * intros X. apply SELF; [tauto|apply M; exact X].
    + intros _ i Hi. apply M in Hi. tauto.
  - destruct (loop_add (fun t i => if ebitmap_get_bit tn i then SOk t else sset t i true) (fun i x => x = i /\ ~ names ts (ts_neg s) i) (bits tt) ebitmap_init valid_init) as (e & E & V & H).
    { intros a i Va Hi. apply bits_in in Hi; [|exact V1]. pose proof (GB i) as G.
      destruct (ebitmap_get_bit tn i); [exists a; split; [reflexivity|]; split; [exact Va|]; intros x; tauto|].
      assert (B : i < 4294967232).
      { apply H1 in Hi as (j & Hj & (ti & Ej & X)). destruct (ti_attr ti && (ex || ti_expand ti)) eqn:Q; [|subst i; apply (nth_small _ _ Ej)].
        apply andb_prop in Q as [Q _]. destruct HA as [L HB]. destruct (HB _ ti Ej Q) as [_ HM]. destruct (HM i X). lia. }
      destruct (sset_add a i Va B) as (a' & Ea & Va' & Ha). exists a'. split; [exact Ea|]. split; [exact Va'|]. intros x. rewrite Ha.
      assert (~ names ts (ts_neg s) i) by (rewrite <- G; discriminate). split; [intros [Q|Q]; subst; auto|intros [Q|[Q _]]; auto]. }
    rewrite E. cbn [sbind].
    assert (M : forall x, member e x <-> (exists i, member (ts_types s) i /\ pos_adds ex i x) /\ ~ names ts (ts_neg s) x).
    { intros x. rewrite H. split.
      - intros [X|(i & Hi & -> & X)]; [destruct (init_out _ X)|]. apply bits_in in Hi; [|exact V1]. apply H1 in Hi. auto.
      - intros [X Y]. right. exists x. split; [apply bits_in; [exact V1|]; apply H1; exact X|auto]. }
    assert (IN : forall x, member e x -> exists ti, nth_error ts (N.to_nat x) = Some (Some ti) \/ nth_error ts (N.to_nat x) = Some None).
    { intros x X. apply M in X as [(i & Hi & (ti & Ei & X)) _]. destruct (ti_attr ti && (ex || ti_expand ti)) eqn:Q; [|subst i; exists ti; auto].
      apply andb_prop in Q as [Q _]. destruct HA as [L HB]. destruct (HB _ ti Ei Q) as [_ HM]. destruct (HM x X) as [Lx _].
      destruct (nth_error ts (N.to_nat x)) as [[t|]|] eqn:R; [exists t; auto|exists ti; auto|]. apply nth_error_None in R. lia. }
    assert (MX : ex = true -> forall x, member e x <-> names ts (ts_types s) x /\ ~ names ts (ts_neg s) x).
    { intros EX1 x. rewrite M, EX1. unfold names at 2. split; intros [(i & Hi & X) Y]; (split; [|exact Y]); exists i; (split; [exact Hi|]); apply adds_stands; auto. }
    assert (NA : ex = true -> forall i, member e i -> ~ attribute ts i).
    { intros EX1 i Hi. apply (MX EX1) in Hi as [(j & Hj & X) _]. apply (stands_type j i (NP j Hj) X). }
    destruct (N.testbit (ts_flags s) 1) eqn:F1.
    + assert (EX1 : ex = true) by (apply EX; right; right; intros Q; rewrite Q in F1; discriminate).
      destruct (loop_flip (fun t i => if is_attr ts i then (if ebitmap_get_bit t i then SAbort else SOk t) else if ebitmap_get_bit t i then sset t i false else sset t i true) (is_attr ts)) with (l := upto (length ts)) (e := e) as (e' & E' & V' & H').
      { intros a i Va B _ NM. destruct (is_attr ts i).
        - specialize (NM eq_refl). destruct (ebitmap_get_bit a i) eqn:G; [exfalso; apply NM; apply get_bit_member; assumption|]. exists a. split; [reflexivity|]. split; [exact Va|].
          intros x. destruct (N.eqb_spec x i); [subst; reflexivity|reflexivity].
        - destruct (ebitmap_get_bit a i) eqn:G.
          + destruct (sset_in a i false Va B) as (a' & Ea & Va' & Ha). exists a'. split; [exact Ea|]. split; [exact Va'|]. intros x. rewrite Ha. destruct (N.eqb_spec x i); [|reflexivity].
            apply get_bit_member in G; [|exact Va]. split; [discriminate|contradiction].
          + destruct (sset_in a i true Va B) as (a' & Ea & Va' & Ha). exists a'. split; [exact Ea|]. split; [exact Va'|]. intros x. rewrite Ha. destruct (N.eqb_spec x i); [|reflexivity].
            assert (NI : ~ member a i) by (intros Q; apply get_bit_member in Q; [congruence|exact Va]). tauto. }
      { exact V. } { apply upto_nodup. }
      { intros i Hi. apply in_upto in Hi. destruct HA. lia. }
      { intros i _ Sk. intros X. apply (NA EX1 i X). apply is_attr_iff. exact Sk. }
      { intros a i Va _ Sk. rewrite Sk. destruct (ebitmap_get_bit a i) eqn:G; [right; apply get_bit_member; assumption|left; reflexivity]. }
      assert (M' : forall x, member e' x <-> (N.to_nat x < length ts)%nat /\ ~ attribute ts x /\ ~ (names ts (ts_types s) x /\ ~ names ts (ts_neg s) x)).
      { intros x. rewrite H', in_upto, (MX EX1 x). pose proof (is_attr_iff x) as IA. split.
        - intros [(L & Sk & X)|[[L|L] X]].
          + split; [exact L|]. split; [rewrite <- IA, Sk; discriminate|exact X].
          + exfalso. apply (proj2 (MX EX1 x)) in X. destruct (IN x X) as (ti & [Q|Q]); apply nth_small in Q; lia.
          + exfalso. apply (proj2 (MX EX1 x)) in X. apply (NA EX1 x X). apply IA. exact L.
        - intros (L & Na & X). left. split; [exact L|]. split; [destruct (is_attr ts x) eqn:Q; [exfalso; apply Na; apply IA; reflexivity|reflexivity]|exact X]. }
      exists e'. split; [exact E'|]. split; [exact V'|]. split; [|split].
      * intros i Hi. apply M' in Hi as (L & _). destruct (nth_error ts (N.to_nat i)) as [[ti|]|] eqn:Q; [exists ti; auto|exists (mkTI true true ebitmap_init); auto|]. apply nth_error_None in Q. lia.
      * intros t. split.
        -- intros (i & Hi & [[-> _]|(ti & Q & Qa & _)]); [apply M'; exact Hi|]. exfalso. apply M' in Hi as (_ & Y & _). apply Y. exists ti. auto.
        -- intros X. apply SELF; [tauto|apply M'; exact X].
      * intros _ i Hi. apply M' in Hi. tauto.
    + exists e. split; [reflexivity|]. split; [exact V|]. split; [exact IN|]. split; [|intros X; apply NA; apply EX; exact X].
      destruct ex eqn:EXQ.
      * intros t. split.
        -- intros (i & Hi & [[-> _]|(ti & Q & Qa & _)]); [apply MX; auto|]. exfalso. apply (NA eq_refl i Hi). exists ti. auto.
        -- intros X. apply SELF; [|apply MX; auto]. apply MX in X; [|reflexivity]. apply (NA eq_refl t X).
      * assert (NE : forall x, ~ names ts (ts_neg s) x).
        { intros x (i & Hi & _). discriminate EX. right. left. exists i. exact Hi. }
        intros t. split.
        -- intros (i & Hi & X). split; [|apply NE]. apply M in Hi as [(j & Hj & (tj & Ej & Y)) _]. exists j. split; [exact Hj|]. cbn [orb] in Y.
           destruct (ti_attr tj && ti_expand tj) eqn:Q.
           ++ apply andb_prop in Q as [Q _]. destruct HA as [_ HB]. destruct (HB _ tj Ej Q) as [_ HM]. destruct (HM i Y) as [_ Na]. right. exists tj. split; [exact Ej|]. split; [exact Q|].
              destruct X as [[-> _]|(ti & Ei & Qi & _)]; [exact Y|]. exfalso. apply Na. exists ti. auto.
           ++ subst i. exact X.
        -- intros [(j & Hj & X) _]. destruct (NP j Hj) as (tj & Ej). destruct (ti_attr tj && ti_expand tj) eqn:Q.
           ++ pose proof Q as Q'. apply andb_prop in Q' as [Q1 Q2]. destruct X as [[-> Na]|(ti & Ei & Qi & X)]; [exfalso; apply Na; exists tj; auto|]. rewrite Ej in Ei. injection Ei as <-.
              destruct HA as [_ HB]. destruct (HB _ tj Ej Q1) as [_ HM]. destruct (HM t X) as [_ Na]. exists t. split; [|left; auto]. apply M. split; [|apply NE]. exists j. split; [exact Hj|].
              exists tj. split; [exact Ej|]. cbn [orb]. rewrite Q. exact X.
           ++ exists j. split; [|exact X]. apply M. split; [|apply NE]. exists j. split; [exact Hj|]. exists tj. split; [exact Ej|]. cbn [orb]. rewrite Q. reflexivity.
Qed.

(** ** Translation *)
Lemma map_exact m e : map_ok ts m e -> exists e', map_ebitmap e m = SOk e' /\ names_exist ts e' /\ forall j, member e' j <-> mapped m e j.
Proof.
  intros [V HM]. unfold map_ebitmap.
  destruct (loop_add (fun a i => match nth_error m (N.to_nat i) with None => SUB | Some v => if v =? 0 then SOk a else sset a (v - 1) true end)
             (fun i x => exists v, nth_error m (N.to_nat i) = Some v /\ v = x + 1) (bits e) ebitmap_init valid_init) as (e' & E & V' & H).
  { intros a i Va Hi. apply bits_in in Hi; [|exact V]. destruct (HM i Hi) as (v & Ev & HT). rewrite Ev. destruct (N.eqb_spec v 0) as [->|NZ].
    - exists a. split; [reflexivity|]. split; [exact Va|]. intros x. split; [auto|]. intros [X|(v & [= <-] & X)]; [exact X|lia].
    - destruct (HT NZ) as (ti & Et). destruct (nth_small _ _ Et) as [_ B]. destruct (sset_add a (v - 1) Va B) as (a' & Ea & Va' & Ha). exists a'. split; [exact Ea|]. split; [exact Va'|].
      intros x. rewrite Ha. split; [intros [X|X]; [auto|right; exists v; split; [reflexivity|lia]]|intros [X|(w & [= <-] & X)]; [auto|right; lia]]. }
  exists e'. split; [exact E|].
  assert (G : forall j, member e' j <-> mapped m e j).
  { intros j. rewrite H. unfold mapped. split.
    - intros [X|(i & Hi & v & X)]; [destruct (init_out _ X)|]. exists i, v. split; [apply bits_in; assumption|exact X].
    - intros (i & v & Hi & X). right. exists i. split; [apply bits_in; assumption|]. exists v. exact X. }
  split; [|exact G]. split; [exact V'|]. intros j Hj. apply G in Hj as (i & v & Hi & Ev & ->). destruct (HM i Hi) as (v & Ev' & HT). rewrite Ev in Ev'. injection Ev' as <-.
  destruct (HT ltac:(lia)) as (ti & Et). exists ti. replace (j + 1 - 1) with j in Et by lia. exact Et.
Qed.
Lemma meaning_ext p q p' q' f t : (forall x, p x <-> p' x) -> (forall x, q x <-> q' x) -> (ts_meaning ts p q f t <-> ts_meaning ts p' q' f t).
Proof. intros A B. unfold ts_meaning. destruct (N.testbit f 0); [rewrite B; tauto|]. destruct (N.testbit f 1); rewrite A, B; tauto. Qed.
Lemma convert_exact m s always : map_ok ts m (ts_types s) -> map_ok ts m (ts_neg s) ->
  exists e, expand_convert_type_set ts m s always = SOk e /\ valid e /\
    forall t, names ts e t <-> ts_meaning ts (fun x => exists j, mapped m (ts_types s) j /\ stands_for ts j x) (fun x => exists j, mapped m (ts_neg s) j /\ stands_for ts j x) (ts_flags s) t.
Proof.
  intros H1 H2. unfold expand_convert_type_set. destruct (map_exact m _ H1) as (a & E1 & N1 & M1). destruct (map_exact m _ H2) as (b & E2 & N2 & M2). rewrite E1, E2. cbn [sbind].
  destruct (expand_exact (mkTS a b (ts_flags s)) always (conj N1 N2)) as (e & E & V & _ & H & _). exists e. split; [exact E|]. split; [exact V|]. intros t. rewrite H. cbn [ts_types ts_neg ts_flags].
  apply meaning_ext; intros x; unfold names; split; intros (j & Hj & X); exists j; (split; [|exact X]); [apply M1|apply M1|apply M2|apply M2]; exact Hj.
Qed.

(** With [always] no attribute is left. *)
Lemma convert_types m s e : map_ok ts m (ts_types s) -> map_ok ts m (ts_neg s) -> expand_convert_type_set ts m s true = SOk e ->
  forall i, member e i -> ~ attribute ts i.
Proof.
  intros H1 H2. unfold expand_convert_type_set. destruct (map_exact m _ H1) as (a & E1 & N1 & M1). destruct (map_exact m _ H2) as (b & E2 & N2 & M2). rewrite E1, E2. cbn [sbind].
  destruct (expand_exact (mkTS a b (ts_flags s)) true (conj N1 N2)) as (e' & E & V & _ & _ & H). rewrite E. intros [= <-]. apply H. left. reflexivity.
Qed.

(** Errors. *)
Lemma types_missing s always : attributes_ok ts -> valid (ts_types s) -> (exists i, member (ts_types s) i /\ forall ti, nth_error ts (N.to_nat i) <> Some (Some ti)) -> type_set_expand ts s always = SErr.
Proof.
  intros _ V (i & Hi & Hn). unfold type_set_expand. set (ex := always || _ || _). apply (bits_in _ _ V) in Hi.
  assert (G : forall l e, valid e -> In i l -> sloop (gather ts ex) l e = SErr).
  { induction l as [|j l IH]; intros e Ve Hl; [destruct Hl|]. cbn [sloop].
    destruct (nth_error ts (N.to_nat j)) as [[tj|]|] eqn:Q.
    - destruct (gather_ok ex e j Ve) as (e' & E & V' & _); [exists tj; exact Q|]. rewrite E. cbn [sbind]. destruct Hl as [->|Hl]; [exfalso; exact (Hn tj Q)|]. apply IH; assumption.
    - unfold gather. rewrite Q. reflexivity.
    - unfold gather. rewrite Q. reflexivity. }
  rewrite (G _ _ valid_init Hi). reflexivity.
Qed.
End TS.

(** ** Role sets *)
Lemma role_exact nprim maps x : roles_ok nprim maps (rs_roles x) ->
  exists e, role_set_expand nprim maps x = SOk e /\ valid e /\ forall r, member e r <-> rs_meaning nprim (named_roles maps (rs_roles x)) (rs_flags x) r.
Proof.
  intros (V & LN & HM). unfold role_set_expand, rs_meaning. rewrite flag_bit0, flag_bit1. destruct (N.testbit (rs_flags x) 0).
  - destruct (loop_add (fun r i => sset r i true) (fun i y => y = i) (upto nprim) ebitmap_init valid_init) as (e & E & V' & H).
    { intros a i Va Hi. apply in_upto in Hi. apply sset_add; [exact Va|lia]. }
    exists e. split; [exact E|]. split; [exact V'|]. intros r. rewrite H. split; [intros [X|(i & Hi & ->)]; [destruct (init_out _ X)|apply in_upto; exact Hi]|].
    intros L. right. exists r. split; [apply in_upto; exact L|reflexivity].
  - assert (ST : exists me, (match maps with Some (rs, rolemap) => sbind (sloop (gather_role rs) (bits (rs_roles x)) ebitmap_init) (fun e => map_ebitmap e rolemap) | None => SOk (ebitmap_cpy (rs_roles x)) end) = SOk me /\
       valid me /\ (forall r, member me r <-> named_roles maps (rs_roles x) r) /\ forall r, member me r -> (N.to_nat r < nprim)%nat).
    { destruct maps as [[rs m]|].
      - destruct HM as (L1 & L2 & FM & EX & AT).
        assert (SM : forall i y, nth_error rs (N.to_nat i) = Some y -> (N.to_nat i < length m)%nat /\ i < 4294967232).
        { intros i y Q. assert (X : (N.to_nat i < length rs)%nat) by (apply nth_error_Some; congruence). lia. }
        destruct (loop_add (gather_role rs) (role_stands_for rs) (bits (rs_roles x)) ebitmap_init valid_init) as (g & E & Vg & Hg).
        { intros a i Va Hi. apply bits_in in Hi; [|exact V]. destruct (EX i Hi) as (ri & Er). unfold gather_role, role_stands_for. rewrite Er. destruct (ri_attr ri) eqn:Q.
          - destruct (AT _ ri Er Q) as [Vr _]. exists (ebitmap_union a (ri_roles ri)). split; [reflexivity|]. split; [apply union_valid; assumption|].
            intros y. rewrite union_in by assumption. split; [intros [Y|Y]; [auto|right; exists ri; rewrite Q; auto]|intros [Y|(r & [= <-] & Y)]; [auto|rewrite Q in Y; auto]].
          - destruct (sset_add a i Va) as (a' & Ea & Va' & Ha); [apply (SM _ _ Er)|]. exists a'. split; [exact Ea|]. split; [exact Va'|].
            intros y. rewrite Ha. split; [intros [Y|Y]; [auto|right; exists ri; rewrite Q; auto]|intros [Y|(r & [= <-] & Y)]; [auto|rewrite Q in Y; auto]]. }
        rewrite E. cbn [sbind].
        assert (GM : forall y, member g y <-> exists i, member (rs_roles x) i /\ role_stands_for rs i y).
        { intros y. rewrite Hg. split; [intros [Y|(i & Hi & Y)]; [destruct (init_out _ Y)|exists i; split; [apply bits_in; assumption|exact Y]]|].
          intros (i & Hi & Y). right. exists i. split; [apply bits_in; assumption|exact Y]. }
        assert (GL : forall y, member g y -> exists v, nth_error m (N.to_nat y) = Some v /\ (N.to_nat v <= nprim)%nat).
        { intros y Hy. apply GM in Hy as (i & Hi & (ri & Er & Y)).
          assert (LY : (N.to_nat y < length m)%nat) by (destruct (ri_attr ri) eqn:Q; [apply (AT _ ri Er Q); exact Y|subst y; apply (SM _ _ Er)]).
          destruct (nth_error m (N.to_nat y)) as [v|] eqn:Q; [|apply nth_error_None in Q; lia]. exists v. split; [reflexivity|]. rewrite Forall_forall in FM. apply FM. eapply nth_error_In. exact Q. }
        unfold map_ebitmap.
        destruct (loop_add (fun a i => match nth_error m (N.to_nat i) with None => SUB | Some v => if v =? 0 then SOk a else sset a (v - 1) true end)
             (fun i y => exists v, nth_error m (N.to_nat i) = Some v /\ v = y + 1) (bits g) ebitmap_init valid_init) as (me & E2 & V2 & H2).
        { intros a i Va Hi. apply bits_in in Hi; [|exact Vg]. destruct (GL i Hi) as (v & Ev & Lv). rewrite Ev. destruct (N.eqb_spec v 0) as [->|NZ].
          - exists a. split; [reflexivity|]. split; [exact Va|]. intros y. split; [auto|]. intros [X|(v & [= <-] & X)]; [exact X|lia].
          - destruct (sset_add a (v - 1) Va) as (a' & Ea & Va' & Ha); [lia|]. exists a'. split; [exact Ea|]. split; [exact Va'|].
            intros y. rewrite Ha. split; [intros [X|X]; [auto|right; exists v; split; [reflexivity|lia]]|intros [X|(w & [= <-] & X)]; [auto|right; lia]]. }
        exists me. split; [exact E2|]. split; [exact V2|].
        assert (MM : forall r, member me r <-> named_roles (Some (rs, m)) (rs_roles x) r).
        { intros r. rewrite H2. unfold named_roles. split.
          - intros [X|(j & Hj & v & Ev & ->)]; [destruct (init_out _ X)|]. apply bits_in in Hj; [|exact Vg]. apply GM in Hj as (i & Hi & Y). exists i, j. auto.
          - intros (i & j & Hi & Y & Ev). right. exists j. split; [apply bits_in; [exact Vg|]; apply GM; exists i; auto|]. exists (r + 1). auto. }
        split; [exact MM|]. intros r Hr. apply H2 in Hr as [X|(j & Hj & v & Ev & ->)]; [destruct (init_out _ X)|]. apply bits_in in Hj; [|exact Vg]. destruct (GL j Hj) as (w & Ew & Lw). rewrite Ev in Ew. injection Ew as <-. lia.
      - exists (rs_roles x). rewrite cpy_id. split; [reflexivity|]. split; [exact V|]. split; [intros r; reflexivity|exact HM]. }
    destruct ST as (me & E1 & V1 & M1 & L1). rewrite E1. cbn [sbind].
    destruct (loop_add (fun r i => sset r i true) (fun i y => y = i) (bits me) ebitmap_init valid_init) as (e & E & V' & H).
    { intros a i Va Hi. apply bits_in in Hi; [|exact V1]. specialize (L1 i Hi). apply sset_add; [exact Va|lia]. }
    rewrite E. cbn [sbind].
    assert (M : forall r, member e r <-> named_roles maps (rs_roles x) r).
    { intros r. rewrite H, <- M1. split; [intros [X|(i & Hi & ->)]; [destruct (init_out _ X)|apply bits_in; assumption]|]. intros X. right. exists r. split; [apply bits_in; assumption|reflexivity]. }
    destruct (N.testbit (rs_flags x) 1).
    + destruct (loop_flip (fun r i => if ebitmap_get_bit r i then sset r i false else sset r i true) (fun _ => false)) with (l := upto nprim) (e := e) as (e' & E' & Ve' & H').
      { intros a i Va B _ _. destruct (ebitmap_get_bit a i) eqn:G.
        - destruct (sset_in a i false Va B) as (a' & Ea & Va' & Ha). exists a'. split; [exact Ea|]. split; [exact Va'|]. intros y. rewrite Ha. destruct (N.eqb_spec y i); [|reflexivity].
          apply get_bit_member in G; [|exact Va]. split; [discriminate|contradiction].
        - destruct (sset_in a i true Va B) as (a' & Ea & Va' & Ha). exists a'. split; [exact Ea|]. split; [exact Va'|]. intros y. rewrite Ha. destruct (N.eqb_spec y i); [|reflexivity].
          assert (NI : ~ member a i) by (intros Q; apply get_bit_member in Q; [congruence|exact Va]). tauto. }
      { exact V'. } { apply upto_nodup. } { intros i Hi. apply in_upto in Hi. lia. } { discriminate. } { discriminate. }
      exists e'. split; [exact E'|]. split; [exact Ve'|]. intros r. rewrite H', in_upto, <- M. split.
      * intros [(L & _ & X)|[[L|L] X]]; [auto| |discriminate]. exfalso. apply L. apply L1. apply M1. apply M. exact X.
      * intros [L X]. left. auto.
    + exists e. split; [reflexivity|]. split; [exact V'|exact M].
Qed.
