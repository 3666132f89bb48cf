(** Proofs about the ebitmap model. *)
From Verif Require Import Base EbitmapModel EbitmapSpec.
From Coq Require Import Sorted.

Ltac Zify.zify_post_hook ::= Z.div_mod_to_equations.

(** Boolean view of membership in a node list. *)
Fixpoint nget (l : list node) (b : N) : bool :=
  match l with
  | [] => false
  | (s, m) :: t => ((s <=? b) && N.testbit m (b - s)) || nget t b
  end.

Lemma nget_tail n t b : nget t b = true -> nget (n :: t) b = true.
Proof. destruct n as [s m]. cbn [nget]. intros ->. apply orb_true_r. Qed.

Lemma m64_high m i : m < 18446744073709551616 -> 64 <= i -> N.testbit m i = false.
Proof. intros Hm Hi. apply (testbit_high m 64 i); [exact Hm|exact Hi]. Qed.

Lemma valid_nodes_weaken lo lo' l : lo' <= lo -> valid_nodes lo l -> valid_nodes lo' l.
Proof. destruct l as [|[s m] t]; cbn [valid_nodes]; [tauto|]. intros; intuition lia. Qed.

Lemma nget_below l : forall lo b, valid_nodes lo l -> b < lo -> nget l b = false.
Proof.
  induction l as [|[s m] t IH]; intros lo b; cbn [valid_nodes nget]; [reflexivity|].
  intros (Hlo & _ & _ & _ & _ & Ht) Hb.
  rewrite (IH (s + 64)) by (assumption || lia).
  destruct (N.leb_spec s b); [lia|reflexivity].
Qed.

Lemma nget_cons lo s m t b : valid_nodes lo ((s, m) :: t) ->
  nget ((s, m) :: t) b =
    if b <? s then false else if b <? s + 64 then N.testbit m (b - s) else nget t b.
Proof.
  cbn [valid_nodes nget]. intros (Hlo & _ & _ & Hm & _ & Ht).
  destruct (N.ltb_spec b s).
  - rewrite (nget_below t (s + 64)) by (assumption || lia).
    destruct (N.leb_spec s b); [lia|reflexivity].
  - destruct (N.leb_spec s b); [|lia]. cbn [andb].
    destruct (N.ltb_spec b (s + 64)).
    + rewrite (nget_below t (s + 64)) by (assumption || lia). apply orb_false_r.
    + rewrite m64_high by (assumption || lia). reflexivity.
Qed.

Lemma nget_member_aux l : forall lo b, valid_nodes lo l ->
  (nget l b = true <-> exists s m, In (s, m) l /\ s <= b /\ b < s + 64 /\ N.testbit m (b - s) = true).
Proof.
  induction l as [|[s m] t IH]; intros lo b Hv.
  - cbn. split; [discriminate|]. intros (?&?&[]&_).
  - pose proof Hv as (Hlo & Hal & Hm0 & Hm & Hs & Ht).
    cbn [nget]. rewrite orb_true_iff, (IH _ b Ht), andb_true_iff. split.
    + intros [[H1 H2]|(s' & m' & Hin & H)].
      * exists s, m. split; [left; reflexivity|]. apply N.leb_le in H1. split; [exact H1|].
        split; [|exact H2]. destruct (N.lt_ge_cases b (s + 64)); [assumption|].
        rewrite m64_high in H2 by (assumption || lia). discriminate.
      * exists s', m'. split; [right; exact Hin|exact H].
    + intros (s' & m' & [[= <- <-]|Hin] & H1 & H2 & H3).
      * left. split; [apply N.leb_le; exact H1|exact H3].
      * right. exists s', m'. auto.
Qed.

Lemma nget_member e b : valid e -> (nget (e_nodes e) b = true <-> member e b).
Proof. intros [Hv _]. apply (nget_member_aux _ 0); exact Hv. Qed.

(** Canonical lists with equal members are equal. *)
Lemma nodes_ext l1 : forall l2 lo, valid_nodes lo l1 -> valid_nodes lo l2 ->
  (forall b, nget l1 b = nget l2 b) -> l1 = l2.
Proof.
  assert (Hne : forall s m t lo, valid_nodes lo ((s, m) :: t) ->
            exists i, i < 64 /\ nget ((s, m) :: t) (s + i) = true).
  { intros s m t lo Hv. pose proof Hv as (_ & _ & Hm0 & Hm & _ & _).
    destruct (nonzero_bit m) as [i Hi]; [lia|]. exists i.
    assert (i < 64). { destruct (N.lt_ge_cases i 64); [assumption|].
      rewrite m64_high in Hi by assumption. discriminate. }
    split; [assumption|]. rewrite (nget_cons _ _ _ _ _ Hv).
    destruct (N.ltb_spec (s + i) s); [lia|]. destruct (N.ltb_spec (s + i) (s + 64)); [|lia].
    replace (s + i - s) with i by lia. exact Hi. }
  induction l1 as [|[s1 m1] t1 IH]; intros [|[s2 m2] t2] lo H1 H2 Heq.
  - reflexivity.
  - destruct (Hne _ _ _ _ H2) as (i & _ & Hi). rewrite <- Heq in Hi. discriminate.
  - destruct (Hne _ _ _ _ H1) as (i & _ & Hi). rewrite Heq in Hi. discriminate.
  - assert (Hs : s1 = s2).
    { destruct (N.lt_trichotomy s1 s2) as [Hlt|[Heq'|Hlt]]; [exfalso|exact Heq'|exfalso].
      - destruct (Hne _ _ _ _ H1) as (i & Hi64 & Hi). rewrite Heq in Hi.
        rewrite (nget_cons _ _ _ _ _ H2) in Hi.
        pose proof H1 as (_ & Ha1 & _). pose proof H2 as (_ & Ha2 & _).
        destruct (N.ltb_spec (s1 + i) s2); [discriminate|lia].
      - destruct (Hne _ _ _ _ H2) as (i & Hi64 & Hi). rewrite <- Heq in Hi.
        rewrite (nget_cons _ _ _ _ _ H1) in Hi.
        pose proof H1 as (_ & Ha1 & _). pose proof H2 as (_ & Ha2 & _).
        destruct (N.ltb_spec (s2 + i) s1); [discriminate|lia]. }
    subst s2.
    assert (Hm : m1 = m2).
    { apply N.bits_inj. intro i. destruct (N.lt_ge_cases i 64) as [Hi|Hi].
      - specialize (Heq (s1 + i)).
        rewrite (nget_cons _ _ _ _ _ H1), (nget_cons _ _ _ _ _ H2) in Heq.
        destruct (N.ltb_spec (s1 + i) s1); [lia|].
        destruct (N.ltb_spec (s1 + i) (s1 + 64)); [|lia].
        replace (s1 + i - s1) with i in Heq by lia. exact Heq.
      - pose proof H1 as (_ & _ & _ & Hm1 & _). pose proof H2 as (_ & _ & _ & Hm2 & _).
        rewrite !m64_high by assumption. reflexivity. }
    subst m2. f_equal.
    pose proof H1 as (_ & _ & _ & _ & _ & Ht1). pose proof H2 as (_ & _ & _ & _ & _ & Ht2).
    apply (IH _ (s1 + 64)); [assumption|assumption|].
    intro b. destruct (N.lt_ge_cases b (s1 + 64)) as [Hb|Hb].
    + rewrite !(nget_below _ (s1 + 64)) by assumption. reflexivity.
    + specialize (Heq b). rewrite (nget_cons _ _ _ _ _ H1), (nget_cons _ _ _ _ _ H2) in Heq.
      destruct (N.ltb_spec b s1); [lia|]. destruct (N.ltb_spec b (s1 + 64)); [lia|]. exact Heq.
Qed.

Lemma valid_ext e1 e2 : valid e1 -> valid e2 ->
  (forall b, nget (e_nodes e1) b = nget (e_nodes e2) b) -> e1 = e2.
Proof.
  destruct e1 as [l1 h1], e2 as [l2 h2]. intros [V1 E1] [V2 E2] H. cbn [e_nodes e_high] in *.
  assert (l1 = l2) by (apply (nodes_ext _ _ 0); assumption). subst l2. congruence.
Qed.

Lemma nget_ext_member e1 e2 : valid e1 -> valid e2 ->
  (forall b, member e1 b <-> member e2 b) -> forall b, nget (e_nodes e1) b = nget (e_nodes e2) b.
Proof.
  intros V1 V2 H b. apply bool_ext. rewrite !nget_member by assumption. apply H.
Qed.

(** ** high bit of canonical lists *)

Lemma last_start_bound l : forall lo s, valid_nodes lo l -> last_start l = Some s ->
  lo <= s /\ s mod 64 = 0 /\ s + 128 <= 4294967296.
Proof.
  induction l as [|[s0 m0] t IH]; intros lo s Hv; [discriminate|].
  pose proof Hv as (H1 & H2 & _ & _ & H3 & Ht).
  destruct t as [|n t'].
  - cbn. intros [= <-]. auto.
  - cbn [last_start]. intros Hl. destruct (IH _ _ Ht Hl) as (? & ? & ?). repeat split; lia.
Qed.

Lemma high_of_last_valid l lo : valid_nodes lo l ->
  high_of_last l = match last_start l with Some s => s + 64 | None => 0 end.
Proof.
  revert lo. induction l as [|[s0 m0] t IH]; intros lo Hv; [reflexivity|].
  pose proof Hv as (H1 & H2 & _ & _ & H3 & Ht). destruct t as [|n t'].
  - cbn. apply wrap32_small. unfold W32, MAPSIZE. lia.
  - change (high_of_last ((s0, m0) :: n :: t')) with (high_of_last (n :: t')).
    change (last_start ((s0, m0) :: n :: t')) with (last_start (n :: t')).
    apply (IH _ Ht).
Qed.

Lemma valid_mk l : valid_nodes 0 l -> valid (mkE l (high_of_last l)).
Proof. intros H. split; [exact H|]. cbn [e_nodes e_high]. apply (high_of_last_valid _ 0 H). Qed.

Lemma last_start_cons_some s m t : exists s', last_start ((s, m) :: t) = Some s'.
Proof. revert s m. induction t as [|[s2 m2] t IH]; intros s m; [eexists; reflexivity|]. apply (IH s2 m2). Qed.

Lemma nget_high e b : valid e -> nget (e_nodes e) b = true -> b < e_high e.
Proof.
  intros [Hv He]. rewrite He. revert Hv. generalize 0 at 1. generalize (e_nodes e). clear.
  induction l as [|[s m] t IH]; intros lo Hv Hb; [discriminate|].
  rewrite (nget_cons _ _ _ _ _ Hv) in Hb. pose proof Hv as (H1 & H2 & _ & _ & H3 & Ht).
  destruct (N.ltb_spec b s); [discriminate|].
  destruct t as [|[s2 m2] t'].
  - cbn [last_start]. destruct (N.ltb_spec b (s + 64)); [assumption|discriminate].
  - change (last_start ((s, m) :: (s2, m2) :: t')) with (last_start ((s2, m2) :: t')).
    destruct (N.ltb_spec b (s + 64)) as [Hlt|_].
    + destruct (last_start_cons_some s2 m2 t') as [s' Hs']. rewrite Hs'.
      destruct (last_start_bound _ _ _ Ht Hs') as (? & _ & _). lia.
    + apply (IH _ Ht Hb).
Qed.

Lemma valid_high_bound e : valid e -> e_high e + 64 <= 4294967296.
Proof.
  intros [Hv He]. rewrite He. destruct (last_start (e_nodes e)) as [s|] eqn:E; [|lia].
  destruct (last_start_bound _ _ _ Hv E) as (_ & _ & ?). lia.
Qed.

(** high bit is determined by membership: an inclusion gives an inequality *)
Lemma high_attained e : valid e -> e_nodes e <> [] ->
  exists i, i < 64 /\ 64 <= e_high e /\ nget (e_nodes e) (e_high e - 64 + i) = true.
Proof.
  intros [Hv He]. rewrite He. revert Hv. generalize 0 at 1. generalize (e_nodes e). clear.
  induction l as [|[s m] t IH]; intros lo Hv Hne; [congruence|].
  pose proof Hv as (H1 & H2 & Hm0 & Hm & H3 & Ht).
  destruct t as [|n t'].
  - cbn [last_start]. destruct (nonzero_bit m) as [i Hi]; [lia|]. exists i.
    assert (i < 64). { destruct (N.lt_ge_cases i 64); [assumption|].
      rewrite m64_high in Hi by assumption. discriminate. }
    split; [assumption|]. split; [lia|]. rewrite (nget_cons _ _ _ _ _ Hv).
    replace (s + 64 - 64 + i) with (s + i) by lia.
    destruct (N.ltb_spec (s + i) s); [lia|]. destruct (N.ltb_spec (s + i) (s + 64)); [|lia].
    replace (s + i - s) with i by lia. exact Hi.
  - destruct (IH _ Ht) as (i & Hi & Hh & Hg); [discriminate|].
    change (last_start ((s, m) :: n :: t')) with (last_start (n :: t')).
    exists i. split; [assumption|]. split; [assumption|].
    apply nget_tail. exact Hg.
Qed.

(** ** get_bit *)

Lemma land_bit_nz m i : negb (N.land m (N.shiftl 1 i) =? 0) = N.testbit m i.
Proof.
  destruct (N.testbit m i) eqn:E.
  - apply negb_true_iff. apply N.eqb_neq. intros H.
    assert (N.testbit (N.land m (N.shiftl 1 i)) i = true).
    { rewrite N.land_spec, E, shiftl1_bit, N.eqb_refl. reflexivity. }
    rewrite H, N.bits_0 in H0. discriminate.
  - apply negb_false_iff. apply N.eqb_eq. apply bits_zero. intro j.
    rewrite N.land_spec, shiftl1_bit. destruct (N.eqb_spec j i) as [->|_]; [rewrite E|]; 
    [reflexivity|apply andb_false_r].
Qed.

Lemma get_nodes_nget l : forall lo b, valid_nodes lo l -> get_nodes l b = nget l b.
Proof.
  induction l as [|[s m] t IH]; intros lo b Hv; [reflexivity|].
  rewrite (nget_cons _ _ _ _ _ Hv). pose proof Hv as (_ & _ & _ & _ & _ & Ht).
  cbn [get_nodes]. unfold MAPSIZE. rewrite land_bit_nz, (IH _ _ Ht).
  destruct (N.leb_spec s b), (N.ltb_spec b s); try lia; reflexivity.
Qed.

Lemma get_bit_nget e b : valid e -> ebitmap_get_bit e b = nget (e_nodes e) b.
Proof.
  intros Hv. unfold ebitmap_get_bit. destruct (N.ltb_spec (e_high e) b) as [Hlt|_].
  - destruct (nget (e_nodes e) b) eqn:E; [|reflexivity].
    apply nget_high in E; [lia|exact Hv].
  - apply (get_nodes_nget _ 0). apply Hv.
Qed.

Lemma get_bit_member e b : valid e -> (ebitmap_get_bit e b = true <-> member e b).
Proof. intros Hv. rewrite get_bit_nget by exact Hv. apply nget_member; exact Hv. Qed.

(** ** set_bit *)

Definition start_of (b : N) : N := b - b mod 64.

Lemma start_of_facts b : start_of b mod 64 = 0 /\ start_of b <= b /\ b < start_of b + 64.
Proof. unfold start_of. repeat split; lia. Qed.

Lemma set_nodes_spec l : forall lo prev b v,
  valid_nodes lo l -> lo <= start_of b -> lo mod 64 = 0 -> b < 4294967232 ->
  match prev with Some p => p + 64 <= lo /\ p + 64 < W32 | None => True end ->
  let '(l', h) := set_nodes prev l b v (start_of b) (start_of b + 64) in
  valid_nodes lo l' /\
  (forall x, nget l' x = if x =? b then v else nget l x) /\
  match h with
  | None => last_start l' = last_start l
  | Some x => x = match last_start l' with Some s => s + 64
                  | None => match prev with Some p => p + 64 | None => 0 end end
  end.
Proof.
  induction l as [|[s m] t IH]; intros lo prev b v Hv Hlo Hlm Hb Hp.
  - destruct (start_of_facts b) as (Ha & Hle & Hlt). cbn [set_nodes]. destruct v.
    + cbn [valid_nodes last_start].
      assert (Hne : 0 < N.shiftl 1 (b - start_of b)).
      { rewrite N.shiftl_1_l. apply N.neq_0_lt_0. apply N.pow_nonzero. lia. }
      assert (Hlt64 : N.shiftl 1 (b - start_of b) < 18446744073709551616).
      { rewrite N.shiftl_1_l. change 18446744073709551616 with (2 ^ 64). apply N.pow_lt_mono_r; lia. }
      split; [repeat split; try assumption; try lia|]. split; [|reflexivity].
      intro x. cbn [nget]. rewrite shiftl1_bit, orb_false_r.
      destruct (N.eqb_spec x b) as [->|Hn].
      * rewrite N.eqb_refl. destruct (N.leb_spec (start_of b) b); [reflexivity|lia].
      * destruct (N.leb_spec (start_of b) x); [|reflexivity].
        destruct (N.eqb_spec (x - start_of b) (b - start_of b)); [lia|reflexivity].
    + split; [exact I|]. split; [|reflexivity]. intro x. cbn [nget]. destruct (x =? b); reflexivity.
  - pose proof Hv as (H1 & H2 & Hm0 & Hm & H3 & Ht).
    destruct (start_of_facts b) as (Ha & Hle & Hlt). cbn [set_nodes]. unfold MAPSIZE.
    destruct (N.leb_spec s b) as [Hsb|Hsb].
    + destruct (N.ltb_spec b (s + 64)) as [Hin|Hout].
      * (* the bit lies in this node *)
        destruct v.
        { assert (Hv' : valid_nodes lo ((s, N.lor m (N.shiftl 1 (b - s))) :: t)).
          { cbn [valid_nodes]. repeat split; try assumption.
            - assert (m <= N.lor m (N.shiftl 1 (b - s))); [|lia].
              apply N.ldiff_le. apply bits_zero. intro i. rewrite N.ldiff_spec, N.lor_spec.
              destruct (N.testbit m i), (N.testbit (N.shiftl 1 (b - s)) i); reflexivity.
            - apply (lor_lt _ _ 64); [exact Hm|]. rewrite N.shiftl_1_l.
              apply N.pow_lt_mono_r; lia. }
          split; [exact Hv'|]. split.
          - intro x. rewrite (nget_cons _ _ _ _ _ Hv'), (nget_cons _ _ _ _ _ Hv).
            rewrite N.lor_spec, shiftl1_bit.
            destruct (N.eqb_spec x b) as [->|Hn].
            + destruct (N.ltb_spec b s); [lia|]. destruct (N.ltb_spec b (s + 64)); [|lia].
              rewrite N.eqb_refl. apply orb_true_r.
            + destruct (N.ltb_spec x s); [reflexivity|]. destruct (N.ltb_spec x (s + 64)); [|reflexivity].
              destruct (N.eqb_spec (x - s) (b - s)); [lia|]. apply orb_false_r.
          - destruct t; reflexivity. }
        { remember (N.ldiff m (N.shiftl 1 (b - s))) as m' eqn:Em'.
          assert (Hbits : forall i, N.testbit m' i = N.testbit m i && negb (i =? b - s)).
          { intro i. subst m'. rewrite N.ldiff_spec, shiftl1_bit. reflexivity. }
          destruct (N.eqb_spec m' 0) as [Hz|Hnz].
          - (* node removed *)
            assert (Hm_only : forall i, N.testbit m i = true -> i = b - s).
            { intros i Hi. specialize (Hbits i). rewrite Hz, N.bits_0, Hi in Hbits.
              destruct (N.eqb_spec i (b - s)); [assumption|discriminate]. }
            split; [apply (valid_nodes_weaken (s + 64)); [lia|exact Ht]|]. split.
            + intro x. rewrite (nget_cons _ _ _ _ _ Hv).
              destruct (N.eqb_spec x b) as [->|Hn].
              * apply (nget_below _ _ _ Ht). lia.
              * destruct (N.ltb_spec x s); [apply (nget_below _ _ _ Ht); lia|].
                destruct (N.ltb_spec x (s + 64)); [|reflexivity].
                rewrite (nget_below _ _ _ Ht) by lia.
                destruct (N.testbit m (x - s)) eqn:E; [|reflexivity].
                apply Hm_only in E. lia.
            + destruct t as [|n t']; [|reflexivity].
              cbn [last_start]. destruct prev as [p|]; [|reflexivity].
              destruct Hp as [Hp1 Hp2]. apply wrap32_small. exact Hp2.
          - assert (Hm'lt : m' < 18446744073709551616) by (subst m'; apply (ldiff_lt_l _ _ 64); exact Hm).
            assert (Hv' : valid_nodes lo ((s, m') :: t)).
            { cbn [valid_nodes]. repeat split; try assumption. lia. }
            split; [exact Hv'|]. split.
            + intro x. rewrite (nget_cons _ _ _ _ _ Hv'), (nget_cons _ _ _ _ _ Hv), Hbits.
              destruct (N.eqb_spec x b) as [->|Hn].
              * destruct (N.ltb_spec b s); [lia|]. destruct (N.ltb_spec b (s + 64)); [|lia].
                rewrite N.eqb_refl. apply andb_false_r.
              * destruct (N.ltb_spec x s); [reflexivity|]. destruct (N.ltb_spec x (s + 64)); [|reflexivity].
                destruct (N.eqb_spec (x - s) (b - s)); [lia|]. apply andb_true_r.
            + destruct t; reflexivity. }
      * (* further on *)
        specialize (IH (s + 64) (Some s) b v Ht).
        assert (Hpre : s + 64 <= start_of b) by lia.
        specialize (IH Hpre ltac:(lia) Hb). cbn beta iota in IH.
        specialize (IH ltac:(unfold W32; lia)).
        destruct (set_nodes (Some s) t b v (start_of b) (start_of b + 64)) as [t' h] eqn:E.
        destruct IH as (IHv & IHg & IHh).
        assert (Hv' : valid_nodes lo ((s, m) :: t')) by (cbn [valid_nodes]; repeat split; assumption).
        split; [exact Hv'|]. split.
        { intro x. rewrite (nget_cons _ _ _ _ _ Hv'), (nget_cons _ _ _ _ _ Hv), IHg.
          destruct (N.eqb_spec x b) as [->|Hn]; [|reflexivity].
          destruct (N.ltb_spec b s); [lia|]. destruct (N.ltb_spec b (s + 64)); [lia|]. reflexivity. }
        { destruct h as [h|].
          - subst h. destruct t' as [|[s2 m2] t2]; [reflexivity|].
            destruct (last_start_cons_some s2 m2 t2) as [s' Hs'].
            change (last_start ((s, m) :: (s2, m2) :: t2)) with (last_start ((s2, m2) :: t2)).
            rewrite Hs'. reflexivity.
          - destruct t as [|n t0]; [destruct t' as [|n' t'']; [reflexivity|]|].
            + destruct n' as [s2 m2]. destruct (last_start_cons_some s2 m2 t'') as [s' Hs'].
              rewrite Hs' in IHh. discriminate.
            + destruct t' as [|n' t''].
              * destruct n as [s2 m2]. destruct (last_start_cons_some s2 m2 t0) as [s' Hs'].
                rewrite Hs' in IHh. discriminate.
              * exact IHh. }
    + (* before this node *)
      destruct v.
      * assert (Hne : 0 < N.shiftl 1 (b - start_of b)).
        { rewrite N.shiftl_1_l. apply N.neq_0_lt_0. apply N.pow_nonzero. lia. }
        assert (Hlt64 : N.shiftl 1 (b - start_of b) < 18446744073709551616).
        { rewrite N.shiftl_1_l. change 18446744073709551616 with (2 ^ 64). apply N.pow_lt_mono_r; lia. }
        assert (Hv' : valid_nodes lo ((start_of b, N.shiftl 1 (b - start_of b)) :: (s, m) :: t)).
        { cbn [valid_nodes]. repeat split; try assumption; lia. }
        split; [exact Hv'|]. split; [|reflexivity].
        intro x. rewrite (nget_cons _ _ _ _ _ Hv'). rewrite shiftl1_bit.
        destruct (N.eqb_spec x b) as [->|Hn].
        { destruct (N.ltb_spec b (start_of b)); [lia|].
          destruct (N.ltb_spec b (start_of b + 64)); [|lia]. apply N.eqb_refl. }
        { destruct (N.ltb_spec x (start_of b)).
          - rewrite (nget_cons _ _ _ _ _ Hv). destruct (N.ltb_spec x s); [reflexivity|lia].
          - destruct (N.ltb_spec x (start_of b + 64)); [|reflexivity].
            destruct (N.eqb_spec (x - start_of b) (b - start_of b)); [lia|].
            rewrite (nget_cons _ _ _ _ _ Hv). destruct (N.ltb_spec x s); [reflexivity|lia]. }
      * split; [exact Hv|]. split; [|reflexivity].
        intro x. destruct (N.eqb_spec x b) as [->|Hn]; [|reflexivity].
        rewrite (nget_cons _ _ _ _ _ Hv). destruct (N.ltb_spec b s); [reflexivity|lia].
Qed.

Lemma set_bit_ok e b v : valid e -> b < 4294967232 ->
  exists e', ebitmap_set_bit e b v = Some e' /\ valid e' /\
    forall x, nget (e_nodes e') x = if x =? b then v else nget (e_nodes e) x.
Proof.
  intros Hv Hb. unfold ebitmap_set_bit.
  destruct (start_of_facts b) as (Ha & Hle & Hlt).
  assert (E1 : wrap32 (b - b mod MAPSIZE) = start_of b).
  { unfold MAPSIZE, start_of. apply wrap32_small. unfold W32. lia. }
  rewrite E1.
  assert (E2 : wrap32 (start_of b + MAPSIZE) = start_of b + 64).
  { unfold MAPSIZE. apply wrap32_small. unfold W32. lia. }
  rewrite E2. destruct (N.eqb_spec (start_of b + 64) 0); [lia|].
  pose proof (set_nodes_spec (e_nodes e) 0 None b v (proj1 Hv) ltac:(lia) eq_refl Hb I) as H.
  destruct (set_nodes None (e_nodes e) b v (start_of b) (start_of b + 64)) as [l h].
  destruct H as (H1 & H2 & H3). eexists. split; [reflexivity|]. split; [|exact H2].
  split; [exact H1|]. cbn [e_nodes e_high]. destruct h as [h|]; [exact H3|].
  rewrite (proj2 Hv), H3. reflexivity.
Qed.

Lemma set_bit_refused e b v : b < 4294967296 -> 4294967232 <= b -> ebitmap_set_bit e b v = None.
Proof.
  intros Hb1 Hb2. unfold ebitmap_set_bit, MAPSIZE, wrap32, W32.
  replace ((b - b mod 64) mod 4294967296) with 4294967232 by lia.
  reflexivity.
Qed.

Lemma write_all_spec h : Forall (fun w => fst w < 4294967296) h ->
  forall e, valid e ->
  valid (write_all h e) /\
  forall b, nget (e_nodes (write_all h e)) b =
    fold_left (fun cur w => if (fst w =? b) && (fst w <? 4294967232) then snd w else cur) h
      (nget (e_nodes e) b).
Proof.
  induction 1 as [|[b v] h Hb _ IH]; intros e Hv; [split; [exact Hv|reflexivity]|].
  unfold write_all. cbn [fold_left fst snd] in *.
  destruct (N.lt_ge_cases b 4294967232) as [Hlt|Hge].
  - destruct (set_bit_ok e b v Hv Hlt) as (e' & E & Hv' & Hg). rewrite E.
    destruct (IH e' Hv') as [H1 H2]. split; [exact H1|].
    intro x. unfold write_all in H2. rewrite H2, Hg.
    rewrite (N.eqb_sym b x). destruct (N.ltb_spec b 4294967232); [|lia].
    rewrite andb_true_r. reflexivity.
  - rewrite (set_bit_refused e b v Hb Hge).
    destruct (IH e Hv) as [H1 H2]. split; [exact H1|].
    intro x. unfold write_all in H2. rewrite H2.
    destruct (N.ltb_spec b 4294967232); [lia|]. rewrite andb_false_r. reflexivity.
Qed.

Lemma valid_init : valid ebitmap_init.
Proof. split; [exact I|reflexivity]. Qed.

(** ** Merge loops *)

Lemma or_nodes_cc s1 m1 t1 s2 m2 t2 :
  or_nodes ((s1, m1) :: t1) ((s2, m2) :: t2) =
    if s1 =? s2 then (s1, N.lor m1 m2) :: or_nodes t1 t2
    else if s1 <? s2 then (s1, m1) :: or_nodes t1 ((s2, m2) :: t2)
    else (s2, m2) :: or_nodes ((s1, m1) :: t1) t2.
Proof. reflexivity. Qed.

Lemma or_nodes_nil_l l : or_nodes [] l = l.
Proof. induction l as [|[s m] t IH]; [reflexivity|]. cbn in *. f_equal. exact IH. Qed.

Lemma or_nodes_nil_r l : or_nodes l [] = l.
Proof. induction l as [|[s m] t IH]; [reflexivity|]. cbn in *. f_equal. exact IH. Qed.

Lemma lor_pos a b : 0 < a -> 0 < N.lor a b.
Proof.
  intros H. destruct (nonzero_bit a) as [i Hi]; [lia|]. apply N.neq_0_lt_0. intros E.
  assert (N.testbit (N.lor a b) i = true) by (rewrite N.lor_spec, Hi; reflexivity).
  rewrite E, N.bits_0 in H0. discriminate.
Qed.

Lemma or_nodes_spec l1 : forall l2 lo, valid_nodes lo l1 -> valid_nodes lo l2 ->
  valid_nodes lo (or_nodes l1 l2) /\ forall b, nget (or_nodes l1 l2) b = nget l1 b || nget l2 b.
Proof.
  induction l1 as [|[s1 m1] t1 IH1].
  - intros l2 lo _ H2. rewrite or_nodes_nil_l. split; [exact H2|]. reflexivity.
  - induction l2 as [|[s2 m2] t2 IH2]; intros lo H1 H2.
    + rewrite or_nodes_nil_r. split; [exact H1|]. intro b. rewrite orb_false_r. reflexivity.
    + rewrite or_nodes_cc.
      pose proof H1 as (A1 & B1 & C1 & D1 & E1 & T1). pose proof H2 as (A2 & B2 & C2 & D2 & E2 & T2).
      destruct (N.eqb_spec s1 s2) as [<-|Hne]; [|destruct (N.ltb_spec s1 s2) as [Hlt|Hge]].
      * destruct (IH1 t2 (s1 + 64) T1 T2) as [V G].
        assert (HV : valid_nodes lo ((s1, N.lor m1 m2) :: or_nodes t1 t2)).
        { cbn [valid_nodes]. repeat split; try assumption; [apply lor_pos; exact C1|].
          apply (lor_lt _ _ 64); assumption. }
        split; [exact HV|]. intro b.
        rewrite (nget_cons _ _ _ _ _ HV), (nget_cons _ _ _ _ _ H1), (nget_cons _ _ _ _ _ H2), G, N.lor_spec.
        destruct (b <? s1); [reflexivity|]. destruct (b <? s1 + 64); reflexivity.
      * assert (H2' : valid_nodes (s1 + 64) ((s2, m2) :: t2))
          by (cbn [valid_nodes]; repeat split; try assumption; lia).
        destruct (IH1 ((s2, m2) :: t2) (s1 + 64) T1 H2') as [V G].
        assert (HV : valid_nodes lo ((s1, m1) :: or_nodes t1 ((s2, m2) :: t2))).
        { cbn [valid_nodes]. repeat split; assumption. }
        split; [exact HV|]. intro b.
        rewrite (nget_cons _ _ _ _ _ HV), (nget_cons _ _ _ _ _ H1), G.
        destruct (N.ltb_spec b s1).
        { rewrite (nget_below _ _ _ H2') by lia. reflexivity. }
        destruct (N.ltb_spec b (s1 + 64)); [|reflexivity].
        rewrite (nget_below _ _ _ H2') by lia. rewrite orb_false_r. reflexivity.
      * assert (H1' : valid_nodes (s2 + 64) ((s1, m1) :: t1))
          by (cbn [valid_nodes]; repeat split; try assumption; lia).
        destruct (IH2 (s2 + 64) H1' T2) as [V G].
        assert (HV : valid_nodes lo ((s2, m2) :: or_nodes ((s1, m1) :: t1) t2)).
        { cbn [valid_nodes]. repeat split; assumption. }
        split; [exact HV|]. intro b.
        rewrite (nget_cons _ _ _ _ _ HV), (nget_cons _ _ _ _ _ H2), G.
        destruct (N.ltb_spec b s2).
        { rewrite (nget_below _ _ _ H1') by lia. reflexivity. }
        destruct (N.ltb_spec b (s2 + 64)); [|reflexivity].
        rewrite (nget_below _ _ _ H1') by lia. reflexivity.
Qed.

Lemma nget_lt_high_le e1 e2 : valid e1 -> valid e2 ->
  (forall b, nget (e_nodes e1) b = true -> nget (e_nodes e2) b = true) -> e_high e1 <= e_high e2.
Proof.
  intros V1 V2 H. destruct (e_nodes e1) as [|n t] eqn:E.
  - destruct V1 as [_ He]. rewrite E in He. cbn in He. lia.
  - destruct (high_attained e1 V1) as (i & Hi & Hh & Hg); [congruence|].
    rewrite E in Hg. apply H in Hg. apply nget_high in Hg; [|exact V2].
    assert (Hal : forall e, valid e -> e_high e mod 64 = 0).
    { intros e [Hv He]. rewrite He. destruct (last_start (e_nodes e)) as [s|] eqn:E'; [|reflexivity].
      destruct (last_start_bound _ _ _ Hv E') as (_ & ? & _). lia. }
    pose proof (Hal _ V1). pose proof (Hal _ V2). lia.
Qed.

Lemma or_spec e1 e2 : valid e1 -> valid e2 ->
  valid (ebitmap_or e1 e2) /\
  forall b, nget (e_nodes (ebitmap_or e1 e2)) b = nget (e_nodes e1) b || nget (e_nodes e2) b.
Proof.
  intros V1 V2. destruct (or_nodes_spec _ _ 0 (proj1 V1) (proj1 V2)) as [V G].
  split; [|exact G]. split; [exact V|].
  unfold ebitmap_or. cbn [e_nodes e_high].
  set (l := or_nodes (e_nodes e1) (e_nodes e2)) in *.
  pose proof (valid_mk l V) as VM.
  pose proof (nget_lt_high_le e1 _ V1 VM) as L1. pose proof (nget_lt_high_le e2 _ V2 VM) as L2.
  cbn [e_nodes e_high] in L1, L2.
  specialize (L1 ltac:(intros b Hb; rewrite G, Hb; reflexivity)).
  specialize (L2 ltac:(intros b Hb; rewrite G, Hb; apply orb_true_r)).
  rewrite <- (high_of_last_valid _ _ V).
  assert (high_of_last l <= (if e_high e2 <? e_high e1 then e_high e1 else e_high e2)).
  { destruct l as [|n t] eqn:El; [cbn; lia|].
    destruct (high_attained (mkE (n :: t) (high_of_last (n :: t))) VM) as (i & Hi & Hh & Hg);
      [discriminate|]. cbn [e_nodes e_high] in *. rewrite G in Hg. apply orb_prop in Hg.
    assert (Hal : forall e, valid e -> e_high e mod 64 = 0).
    { intros e [Hv He]. rewrite He. destruct (last_start (e_nodes e)) as [s|] eqn:E'; [|reflexivity].
      destruct (last_start_bound _ _ _ Hv E') as (_ & ? & _). lia. }
    pose proof (Hal _ V1). pose proof (Hal _ V2). pose proof (Hal _ VM). cbn [e_high] in *.
    destruct Hg as [Hg|Hg].
    - apply nget_high in Hg; [|exact V1]. destruct (N.ltb_spec (e_high e2) (e_high e1)); lia.
    - apply nget_high in Hg; [|exact V2]. destruct (N.ltb_spec (e_high e2) (e_high e1)); lia. }
  destruct (N.ltb_spec (e_high e2) (e_high e1)); lia.
Qed.

Lemma and_nodes_cc s1 m1 t1 s2 m2 t2 :
  and_nodes ((s1, m1) :: t1) ((s2, m2) :: t2) =
    if s1 =? s2 then
      (if negb (N.land m1 m2 =? 0) then [(s1, N.land m1 m2)] else []) ++ and_nodes t1 t2
    else if s2 <? s1 then and_nodes ((s1, m1) :: t1) t2
    else and_nodes t1 ((s2, m2) :: t2).
Proof. reflexivity. Qed.

Lemma and_nodes_nil_r l : and_nodes l [] = [].
Proof. destruct l as [|[s m] t]; reflexivity. Qed.

Lemma and_nodes_nil_l l : and_nodes [] l = [].
Proof. destruct l as [|[s m] t]; reflexivity. Qed.

Lemma and_nodes_spec l1 : forall l2 lo, valid_nodes lo l1 -> valid_nodes lo l2 ->
  valid_nodes lo (and_nodes l1 l2) /\ forall b, nget (and_nodes l1 l2) b = nget l1 b && nget l2 b.
Proof.
  induction l1 as [|[s1 m1] t1 IH1].
  - intros l2 lo _ H2. rewrite and_nodes_nil_l. split; [exact I|]. reflexivity.
  - induction l2 as [|[s2 m2] t2 IH2]; intros lo H1 H2.
    + rewrite and_nodes_nil_r. split; [exact I|]. intro b. rewrite andb_false_r. reflexivity.
    + rewrite and_nodes_cc.
      pose proof H1 as (A1 & B1 & C1 & D1 & E1 & T1). pose proof H2 as (A2 & B2 & C2 & D2 & E2 & T2).
      destruct (N.eqb_spec s1 s2) as [<-|Hne]; [|destruct (N.ltb_spec s2 s1) as [Hlt|Hge]].
      * destruct (IH1 t2 (s1 + 64) T1 T2) as [V G].
        destruct (N.eqb_spec (N.land m1 m2) 0) as [Hz|Hnz]; cbn [negb app].
        { split; [apply (valid_nodes_weaken (s1 + 64)); [lia|exact V]|]. intro b.
          rewrite G, (nget_cons _ _ _ _ _ H1), (nget_cons _ _ _ _ _ H2).
          destruct (N.ltb_spec b s1); [rewrite (nget_below _ _ _ T1) by lia; reflexivity|].
          destruct (N.ltb_spec b (s1 + 64)); [|reflexivity].
          rewrite (nget_below _ _ _ T1) by lia. rewrite <- N.land_spec, Hz, N.bits_0. reflexivity. }
        { assert (HV : valid_nodes lo ((s1, N.land m1 m2) :: and_nodes t1 t2)).
          { cbn [valid_nodes]. repeat split; try assumption; [lia|].
            apply (land_lt_l _ _ 64); assumption. }
          split; [exact HV|]. intro b.
          rewrite (nget_cons _ _ _ _ _ HV), (nget_cons _ _ _ _ _ H1), (nget_cons _ _ _ _ _ H2), G, N.land_spec.
          destruct (b <? s1); [reflexivity|]. destruct (b <? s1 + 64); reflexivity. }
      * assert (H1' : valid_nodes (s2 + 64) ((s1, m1) :: t1))
          by (cbn [valid_nodes]; repeat split; try assumption; lia).
        destruct (IH2 (s2 + 64) H1' T2) as [V G].
        split; [apply (valid_nodes_weaken (s2 + 64)); [lia|exact V]|]. intro b.
        rewrite G, (nget_cons _ _ _ _ _ H2).
        destruct (N.ltb_spec b (s2 + 64)).
        { rewrite (nget_below _ _ _ H1') by lia. reflexivity. }
        destruct (N.ltb_spec b s2); [lia|reflexivity].
      * assert (H2' : valid_nodes (s1 + 64) ((s2, m2) :: t2))
          by (cbn [valid_nodes]; repeat split; try assumption; lia).
        destruct (IH1 ((s2, m2) :: t2) (s1 + 64) T1 H2') as [V G].
        split; [apply (valid_nodes_weaken (s1 + 64)); [lia|exact V]|]. intro b.
        rewrite G, (nget_cons _ _ _ _ _ H1).
        destruct (N.ltb_spec b (s1 + 64)).
        { rewrite (nget_below _ _ _ H2') by lia. rewrite !andb_false_r. reflexivity. }
        destruct (N.ltb_spec b s1); [lia|reflexivity].
Qed.

Lemma and_spec e1 e2 : valid e1 -> valid e2 ->
  valid (ebitmap_and e1 e2) /\
  forall b, nget (e_nodes (ebitmap_and e1 e2)) b = nget (e_nodes e1) b && nget (e_nodes e2) b.
Proof.
  intros V1 V2. destruct (and_nodes_spec _ _ 0 (proj1 V1) (proj1 V2)) as [V G].
  split; [apply valid_mk; exact V|exact G].
Qed.

Lemma cons_nz_spec s m t lo : lo <= s -> s mod 64 = 0 -> m < 18446744073709551616 ->
  s + 128 <= 4294967296 -> valid_nodes (s + 64) t ->
  valid_nodes lo (cons_nz s m t) /\
  forall b, nget (cons_nz s m t) b =
    if b <? s then false else if b <? s + 64 then N.testbit m (b - s) else nget t b.
Proof.
  intros H1 H2 H3 H4 Ht. unfold cons_nz. destruct (N.eqb_spec m 0) as [->|Hnz].
  - split; [apply (valid_nodes_weaken (s + 64)); [lia|exact Ht]|]. intro b.
    destruct (N.ltb_spec b s); [apply (nget_below _ _ _ Ht); lia|].
    destruct (N.ltb_spec b (s + 64)); [|reflexivity].
    rewrite N.bits_0. apply (nget_below _ _ _ Ht); lia.
  - assert (HV : valid_nodes lo ((s, m) :: t)) by (cbn [valid_nodes]; repeat split; try assumption; lia).
    split; [exact HV|]. intro b. apply (nget_cons _ _ _ _ _ HV).
Qed.

Lemma xor_nodes_cc s1 m1 t1 s2 m2 t2 :
  xor_nodes ((s1, m1) :: t1) ((s2, m2) :: t2) =
    if s1 =? s2 then cons_nz s1 (N.lxor m1 m2) (xor_nodes t1 t2)
    else if s1 <? s2 then cons_nz s1 m1 (xor_nodes t1 ((s2, m2) :: t2))
    else cons_nz s2 m2 (xor_nodes ((s1, m1) :: t1) t2).
Proof. reflexivity. Qed.

Lemma cons_nz_pos s m t : 0 < m -> cons_nz s m t = (s, m) :: t.
Proof. intros H. unfold cons_nz. destruct (N.eqb_spec m 0); [lia|reflexivity]. Qed.

Lemma xor_nodes_nil_l l : forall lo, valid_nodes lo l -> xor_nodes [] l = l.
Proof.
  induction l as [|[s m] t IH]; intros lo Hv; [reflexivity|].
  pose proof Hv as (_ & _ & C & _ & _ & T). cbn in IH. cbn.
  rewrite (cons_nz_pos _ _ _ C). f_equal. apply (IH _ T).
Qed.

Lemma xor_nodes_nil_r l : forall lo, valid_nodes lo l -> xor_nodes l [] = l.
Proof.
  induction l as [|[s m] t IH]; intros lo Hv; [reflexivity|].
  pose proof Hv as (_ & _ & C & _ & _ & T). cbn.
  rewrite (cons_nz_pos _ _ _ C). f_equal. apply (IH _ T).
Qed.

Lemma xor_nodes_spec l1 : forall l2 lo, valid_nodes lo l1 -> valid_nodes lo l2 ->
  valid_nodes lo (xor_nodes l1 l2) /\ forall b, nget (xor_nodes l1 l2) b = xorb (nget l1 b) (nget l2 b).
Proof.
  induction l1 as [|[s1 m1] t1 IH1].
  - intros l2 lo _ H2. rewrite (xor_nodes_nil_l _ _ H2). split; [exact H2|]. intro b. cbn [nget]. rewrite xorb_false_l. reflexivity.
  - induction l2 as [|[s2 m2] t2 IH2]; intros lo H1 H2.
    + rewrite (xor_nodes_nil_r _ _ H1). split; [exact H1|]. intro b. rewrite xorb_false_r. reflexivity.
    + rewrite xor_nodes_cc.
      pose proof H1 as (A1 & B1 & C1 & D1 & E1 & T1). pose proof H2 as (A2 & B2 & C2 & D2 & E2 & T2).
      destruct (N.eqb_spec s1 s2) as [<-|Hne]; [|destruct (N.ltb_spec s1 s2) as [Hlt|Hge]].
      * destruct (IH1 t2 (s1 + 64) T1 T2) as [V G].
        destruct (cons_nz_spec s1 (N.lxor m1 m2) (xor_nodes t1 t2) lo) as [HV HG]; try assumption.
        { apply (lxor_lt _ _ 64); assumption. }
        split; [exact HV|]. intro b.
        rewrite HG, (nget_cons _ _ _ _ _ H1), (nget_cons _ _ _ _ _ H2), G, N.lxor_spec.
        destruct (b <? s1); [reflexivity|]. destruct (b <? s1 + 64); reflexivity.
      * assert (H2' : valid_nodes (s1 + 64) ((s2, m2) :: t2))
          by (cbn [valid_nodes]; repeat split; try assumption; lia).
        destruct (IH1 ((s2, m2) :: t2) (s1 + 64) T1 H2') as [V G].
        destruct (cons_nz_spec s1 m1 (xor_nodes t1 ((s2, m2) :: t2)) lo) as [HV HG]; try assumption.
        split; [exact HV|]. intro b.
        rewrite HG, (nget_cons _ _ _ _ _ H1), G.
        destruct (N.ltb_spec b s1).
        { rewrite (nget_below _ _ _ H2') by lia. reflexivity. }
        destruct (N.ltb_spec b (s1 + 64)); [|reflexivity].
        rewrite (nget_below _ _ _ H2') by lia. rewrite xorb_false_r. reflexivity.
      * assert (H1' : valid_nodes (s2 + 64) ((s1, m1) :: t1))
          by (cbn [valid_nodes]; repeat split; try assumption; lia).
        destruct (IH2 (s2 + 64) H1' T2) as [V G].
        destruct (cons_nz_spec s2 m2 (xor_nodes ((s1, m1) :: t1) t2) lo) as [HV HG]; try assumption.
        split; [exact HV|]. intro b.
        rewrite HG, (nget_cons _ _ _ _ _ H2), G.
        destruct (N.ltb_spec b s2).
        { rewrite (nget_below _ _ _ H1') by lia. reflexivity. }
        destruct (N.ltb_spec b (s2 + 64)); [|reflexivity].
        rewrite (nget_below _ _ _ H1') by lia. rewrite xorb_false_l. reflexivity.
Qed.

Lemma xor_spec e1 e2 : valid e1 -> valid e2 ->
  valid (ebitmap_xor e1 e2) /\
  forall b, nget (e_nodes (ebitmap_xor e1 e2)) b = xorb (nget (e_nodes e1) b) (nget (e_nodes e2) b).
Proof.
  intros V1 V2. destruct (xor_nodes_spec _ _ 0 (proj1 V1) (proj1 V2)) as [V G].
  split; [apply valid_mk; exact V|exact G].
Qed.

(** ** not *)

Lemma not_word_bits mx cur m i : cur < mx -> m < 18446744073709551616 ->
  N.testbit (not_word mx cur m) i =
    (i <? 64) && (cur + i <? mx) && negb (N.testbit m i).
Proof.
  intros Hc Hm. unfold not_word, MAPSIZE.
  assert (Hx : N.testbit (N.lxor m (N.ones 64)) i = (i <? 64) && negb (N.testbit m i)).
  { rewrite N.lxor_spec, ones_bit. destruct (N.ltb_spec i 64).
    - rewrite xorb_true_r. reflexivity.
    - rewrite m64_high by assumption. reflexivity. }
  destruct (N.ltb_spec (mx - cur) 64).
  - rewrite N.land_spec, Hx. rewrite N.shiftl_1_l, <- N.pred_sub, <- N.ones_equiv, ones_bit.
    destruct (N.ltb_spec i (mx - cur)), (N.ltb_spec (cur + i) mx); try (exfalso; lia); cbn [andb].
    + rewrite !andb_true_r. reflexivity.
    + rewrite !andb_false_r. reflexivity.
  - rewrite Hx. destruct (N.ltb_spec i 64); [|reflexivity].
    destruct (N.ltb_spec (cur + i) mx); [reflexivity|lia].
Qed.

Lemma not_word_lt mx cur m : cur < mx -> m < 18446744073709551616 ->
  not_word mx cur m < 18446744073709551616.
Proof.
  intros Hc Hm. apply (lt_pow2_bits _ 64). intros i Hi. rewrite not_word_bits by assumption.
  destruct (N.ltb_spec i 64); [lia|reflexivity].
Qed.

Lemma not_loop_spec fuel : forall mx cur l,
  mx <= 4294967232 -> cur mod 64 = 0 -> valid_nodes cur l -> cur <= mx + 63 ->
  mx < cur + 64 * N.of_nat fuel + 1 ->
  exists r, not_loop fuel mx cur l = Some r /\ valid_nodes cur r /\
    forall b, nget r b = (cur <=? b) && (b <? mx) && negb (nget l b).
Proof.
  induction fuel as [|f IH]; intros mx cur l Hmx Hal Hv Hc Hf.
  - cbn [not_loop]. destruct (N.ltb_spec cur mx); [lia|]. exists []. split; [reflexivity|].
    split; [exact I|]. intro b. cbn [nget].
    destruct (N.leb_spec cur b), (N.ltb_spec b mx); try lia; reflexivity.
  - cbn [not_loop]. destruct (N.ltb_spec cur mx) as [Hlt|Hge].
    2:{ exists []. split; [reflexivity|]. split; [exact I|]. intro b. cbn [nget].
        destruct (N.leb_spec cur b), (N.ltb_spec b mx); try lia; reflexivity. }
    assert (Hw : wrap32 (cur + MAPSIZE) = cur + 64).
    { apply wrap32_small. unfold W32, MAPSIZE. lia. }
    rewrite Hw.
    set (mn := match l with (s, m) :: t => if s =? cur then (m, t) else (0, l) | [] => (0, l) end).
    assert (Hmn : valid_nodes (cur + 64) (snd mn) /\ fst mn < 18446744073709551616 /\
                  forall b, cur <= b -> nget l b = if b <? cur + 64 then N.testbit (fst mn) (b - cur) else nget (snd mn) b).
    { subst mn. destruct l as [|[s m] t].
      - cbn. split; [exact I|]. split; [reflexivity|]. intros b _. rewrite N.bits_0.
        destruct (b <? cur + 64); reflexivity.
      - pose proof Hv as (A & B & C & D & E & T). destruct (N.eqb_spec s cur) as [->|Hne].
        + cbn [fst snd]. split; [exact T|]. split; [exact D|]. intros b Hb.
          rewrite (nget_cons _ _ _ _ _ Hv). destruct (N.ltb_spec b cur); [lia|reflexivity].
        + cbn [fst snd].
          assert (Hv2 : valid_nodes (cur + 64) ((s, m) :: t))
            by (cbn [valid_nodes]; repeat split; try assumption; lia).
          split; [exact Hv2|]. split; [reflexivity|]. intros b Hb. rewrite N.bits_0.
          destruct (N.ltb_spec b (cur + 64)); [|reflexivity].
          apply (nget_below _ _ _ Hv2). lia. }
    destruct mn as [m n']. cbn [fst snd] in Hmn. destruct Hmn as (Hn1 & Hn2 & Hn3).
    destruct (IH mx (cur + 64) n') as (r & Er & Vr & Gr); try assumption; try lia.
    rewrite Er. eexists. split; [reflexivity|].
    destruct (cons_nz_spec cur (not_word mx cur m) r cur) as [HV HG]; try assumption; try lia.
    { apply not_word_lt; assumption. }
    split; [exact HV|]. intro b. rewrite HG, Gr, not_word_bits by assumption.
    destruct (N.ltb_spec b cur) as [Hb|Hb].
    { destruct (N.leb_spec cur b); [lia|]. reflexivity. }
    destruct (N.leb_spec cur b); [|lia]. rewrite (Hn3 b) by assumption.
    destruct (N.ltb_spec b (cur + 64)) as [Hb2|Hb2].
    + replace (cur + (b - cur)) with b by lia.
      destruct (N.ltb_spec (b - cur) 64); [reflexivity|lia].
    + destruct (N.leb_spec (cur + 64) b); [reflexivity|lia].
Qed.

Lemma not_spec e mx : valid e -> mx <= 4294967232 ->
  exists e', ebitmap_not e mx = Some e' /\ valid e' /\
    forall b, nget (e_nodes e') b = (b <? mx) && negb (nget (e_nodes e) b).
Proof.
  intros V Hmx. unfold ebitmap_not, ebitmap_not_fuel, not_fuel, MAPSIZE.
  destruct (not_loop_spec (N.to_nat (mx / 64 + 1)) mx 0 (e_nodes e)) as (r & Er & Vr & Gr);
    try assumption; try lia; try apply V.
  rewrite Er. eexists. split; [reflexivity|]. split; [apply valid_mk; exact Vr|].
  cbn [e_nodes]. intro b. rewrite Gr. destruct (N.leb_spec 0 b); [reflexivity|lia].
Qed.

Lemma andnot_spec e1 e2 mx : valid e1 -> valid e2 -> mx <= 4294967232 ->
  exists e', ebitmap_andnot e1 e2 mx = Some e' /\ valid e' /\
    forall b, nget (e_nodes e') b = nget (e_nodes e1) b && ((b <? mx) && negb (nget (e_nodes e2) b)).
Proof.
  intros V1 V2 Hmx. unfold ebitmap_andnot. destruct (not_spec e2 mx V2 Hmx) as (e3 & -> & V3 & G3).
  destruct (and_spec e1 e3 V1 V3) as [V G]. eexists. split; [reflexivity|]. split; [exact V|].
  intro b. rewrite G, G3. reflexivity.
Qed.

(** The cursor wraps when maxbit is within 64 of 2^32: the loop never ends. *)
Lemma not_loop_diverges fuel : forall mx cur l,
  4294967232 < mx -> mx < 4294967296 -> cur mod 64 = 0 -> cur < 4294967296 ->
  not_loop fuel mx cur l = None.
Proof.
  induction fuel as [|f IH]; intros mx cur l H1 H2 H3 H4; cbn [not_loop].
  - destruct (N.ltb_spec cur mx); [reflexivity|lia].
  - destruct (N.ltb_spec cur mx); [|lia].
    destruct (match l with (s, m) :: t => if s =? cur then (m, t) else (0, l) | [] => (0, l) end)
      as [m n'].
    rewrite IH; [reflexivity|assumption|assumption| |]; unfold wrap32, W32, MAPSIZE; lia.
Qed.

Lemma not_diverges e mx fuel : 4294967232 < mx -> mx < 4294967296 ->
  ebitmap_not_fuel fuel e mx = None.
Proof.
  intros H1 H2. unfold ebitmap_not_fuel. rewrite not_loop_diverges; try assumption; try reflexivity.
Qed.

(** ** cmp, cpy, contains, match_any *)

Lemma cmp_nodes_eq l1 : forall l2, cmp_nodes l1 l2 = true <-> l1 = l2.
Proof.
  induction l1 as [|[s1 m1] t1 IH]; intros [|[s2 m2] t2]; cbn [cmp_nodes];
    try (split; [discriminate|discriminate]); [split; reflexivity|].
  destruct (N.eqb_spec s1 s2), (N.eqb_spec m1 m2); cbn [andb]; try (split; congruence).
  rewrite IH. split; congruence.
Qed.

Lemma cmp_eq e1 e2 : ebitmap_cmp e1 e2 = true <-> e1 = e2.
Proof.
  destruct e1 as [l1 h1], e2 as [l2 h2]. unfold ebitmap_cmp. cbn [e_nodes e_high].
  destruct (N.eqb_spec h1 h2); cbn [negb]; [rewrite cmp_nodes_eq|]; split; congruence.
Qed.

Lemma cmp_spec e1 e2 : valid e1 -> valid e2 ->
  (ebitmap_cmp e1 e2 = true <-> forall b, member e1 b <-> member e2 b).
Proof.
  intros V1 V2. rewrite cmp_eq. split; [intros ->; reflexivity|].
  intros H. apply valid_ext; try assumption. apply nget_ext_member; assumption.
Qed.

Lemma cpy_id e : ebitmap_cpy e = e.
Proof.
  destruct e as [l h]. unfold ebitmap_cpy. cbn [e_nodes e_high]. f_equal.
  induction l as [|[s m] t IH]; [reflexivity|]. cbn [map fst snd]. rewrite IH. reflexivity.
Qed.

Lemma land_sub m1 m2 : N.land m1 m2 = m2 <-> forall i, N.testbit m2 i = true -> N.testbit m1 i = true.
Proof.
  split.
  - intros H i Hi. rewrite <- H, N.land_spec in Hi. apply andb_prop in Hi. tauto.
  - intros H. apply N.bits_inj. intro i. rewrite N.land_spec. specialize (H i).
    destruct (N.testbit m2 i); [rewrite H; reflexivity|apply andb_false_r].
Qed.

Lemma contains_nodes_spec l1 : forall l2 lo, valid_nodes lo l1 -> valid_nodes lo l2 ->
  (contains_nodes l1 l2 = true <-> forall b, nget l2 b = true -> nget l1 b = true).
Proof.
  assert (Hne : forall s m t lo, valid_nodes lo ((s, m) :: t) ->
            exists i, i < 64 /\ nget ((s, m) :: t) (s + i) = true).
  { intros s m t lo Hv. pose proof Hv as (_ & _ & Hm0 & Hm & _ & _).
    destruct (nonzero_bit m) as [i Hi]; [lia|]. exists i.
    assert (i < 64). { destruct (N.lt_ge_cases i 64); [assumption|].
      rewrite m64_high in Hi by assumption. discriminate. }
    split; [assumption|]. rewrite (nget_cons _ _ _ _ _ Hv).
    destruct (N.ltb_spec (s + i) s); [lia|]. destruct (N.ltb_spec (s + i) (s + 64)); [|lia].
    replace (s + i - s) with i by lia. exact Hi. }
  induction l1 as [|[s1 m1] t1 IH]; intros [|[s2 m2] t2] lo H1 H2; cbn [contains_nodes].
  - split; [discriminate|reflexivity].
  - split; [discriminate|]. intros H. destruct (Hne _ _ _ _ H2) as (i & _ & Hi).
    apply H in Hi. discriminate.
  - split; [discriminate|reflexivity].
  - pose proof H1 as (A1 & B1 & C1 & D1 & E1 & T1). pose proof H2 as (A2 & B2 & C2 & D2 & E2 & T2).
    destruct (N.leb_spec s1 s2) as [Hle|Hgt].
    + destruct (N.ltb_spec s1 s2) as [Hlt|Hge].
      * assert (H2' : valid_nodes (s1 + 64) ((s2, m2) :: t2))
          by (cbn [valid_nodes]; repeat split; try assumption; lia).
        rewrite (IH ((s2, m2) :: t2) (s1 + 64) T1 H2'). split; intros H b Hb.
        { apply nget_tail. apply H. exact Hb. }
        { pose proof (H b Hb) as Hg. rewrite (nget_cons _ _ _ _ _ H1) in Hg.
          destruct (N.ltb_spec b s1); [discriminate|].
          destruct (N.ltb_spec b (s1 + 64)); [|exact Hg].
          rewrite (nget_below _ _ _ H2') in Hb by lia. discriminate. }
      * assert (s1 = s2) by lia. subst s2.
        destruct (N.eqb_spec (N.land m1 m2) m2) as [Hsub|Hnsub]; cbn [negb].
        { rewrite (IH t2 (s1 + 64) T1 T2). rewrite land_sub in Hsub.
          split; intros H b Hb.
          - rewrite (nget_cons _ _ _ _ _ H1). rewrite (nget_cons _ _ _ _ _ H2) in Hb.
            destruct (N.ltb_spec b s1); [discriminate|].
            destruct (N.ltb_spec b (s1 + 64)); [apply Hsub; exact Hb|apply H; exact Hb].
          - assert (Hb' : nget ((s1, m2) :: t2) b = true) by (apply nget_tail; exact Hb).
            apply H in Hb'. rewrite (nget_cons _ _ _ _ _ H1) in Hb'.
            destruct (N.ltb_spec b s1); [discriminate|].
            destruct (N.ltb_spec b (s1 + 64)); [|exact Hb'].
            rewrite (nget_below _ _ _ T2) in Hb by lia. discriminate. }
        { split; [discriminate|]. intros H. exfalso. apply Hnsub. apply land_sub. intros i Hi.
          assert (i < 64). { destruct (N.lt_ge_cases i 64); [assumption|].
            rewrite m64_high in Hi by assumption. discriminate. }
          specialize (H (s1 + i)). rewrite (nget_cons _ _ _ _ _ H1), (nget_cons _ _ _ _ _ H2) in H.
          destruct (N.ltb_spec (s1 + i) s1); [lia|]. destruct (N.ltb_spec (s1 + i) (s1 + 64)); [|lia].
          replace (s1 + i - s1) with i in H by lia. auto. }
    + split; [discriminate|]. intros H. destruct (Hne _ _ _ _ H2) as (i & Hi64 & Hi).
      apply H in Hi. rewrite (nget_cons _ _ _ _ _ H1) in Hi.
      destruct (N.ltb_spec (s2 + i) s1); [discriminate|lia].
Qed.

Lemma contains_spec e1 e2 : valid e1 -> valid e2 ->
  (ebitmap_contains e1 e2 = true <-> forall b, nget (e_nodes e2) b = true -> nget (e_nodes e1) b = true).
Proof.
  intros V1 V2. unfold ebitmap_contains.
  destruct (N.ltb_spec (e_high e1) (e_high e2)).
  - split; [discriminate|]. intros Hs. apply nget_lt_high_le in Hs; try assumption. lia.
  - apply (contains_nodes_spec _ _ 0); [apply V1|apply V2].
Qed.

Lemma match_nodes_cc s1 m1 t1 s2 m2 t2 :
  match_nodes ((s1, m1) :: t1) ((s2, m2) :: t2) =
    if s1 <? s2 then match_nodes t1 ((s2, m2) :: t2)
    else if s2 <? s1 then match_nodes ((s1, m1) :: t1) t2
    else if negb (N.land m1 m2 =? 0) then true
    else match_nodes t1 t2.
Proof. reflexivity. Qed.

Lemma match_nodes_and l1 : forall l2,
  match_nodes l1 l2 = match and_nodes l1 l2 with [] => false | _ => true end.
Proof.
  induction l1 as [|[s1 m1] t1 IH1]; [destruct l2 as [|[s2 m2] t2]; reflexivity|].
  induction l2 as [|[s2 m2] t2 IH2]; [reflexivity|].
  rewrite match_nodes_cc, and_nodes_cc.
  destruct (N.eqb_spec s1 s2) as [<-|Hne].
  - rewrite N.ltb_irrefl. destruct (N.land m1 m2 =? 0); cbn [negb app]; [apply IH1|reflexivity].
  - destruct (N.ltb_spec s1 s2), (N.ltb_spec s2 s1); try lia; [apply IH1|apply IH2].
Qed.

Lemma empty_spec e : valid e -> (ebitmap_is_empty e = true <-> forall b, nget (e_nodes e) b = false).
Proof.
  intros V. unfold ebitmap_is_empty. destruct (e_nodes e) as [|n t] eqn:E.
  - split; reflexivity.
  - split; [discriminate|]. intros H.
    destruct (high_attained e V) as (i & _ & _ & Hg); [congruence|].
    rewrite E, H in Hg. discriminate.
Qed.

Lemma match_any_spec e1 e2 : valid e1 -> valid e2 ->
  (ebitmap_match_any e1 e2 = true <->
   exists b, nget (e_nodes e1) b = true /\ nget (e_nodes e2) b = true).
Proof.
  intros V1 V2. unfold ebitmap_match_any. rewrite match_nodes_and.
  destruct (and_spec e1 e2 V1 V2) as [V G].
  change (and_nodes (e_nodes e1) (e_nodes e2)) with (e_nodes (ebitmap_and e1 e2)).
  pose proof (high_attained _ V) as HA. destruct (e_nodes (ebitmap_and e1 e2)) as [|n t].
  - split; [discriminate|]. intros (b & Hb1 & Hb2). specialize (G b). cbn [nget] in G.
    rewrite Hb1, Hb2 in G. discriminate.
  - split; [intros _|reflexivity]. destruct HA as (i & _ & _ & Hg); [discriminate|].
    rewrite G in Hg. apply andb_prop in Hg. eauto.
Qed.

(** ** init_range *)

Lemma shr_ones_bit k i : k <= 64 -> N.testbit (N.shiftr (N.ones 64) (64 - k)) i = (i <? k).
Proof.
  intros Hk. rewrite N.shiftr_spec' , ones_bit.
  destruct (N.ltb_spec (i + (64 - k)) 64), (N.ltb_spec i k); try reflexivity; lia.
Qed.

Lemma shl_bit x k i : N.testbit (N.shiftl x k) i = (k <=? i) && N.testbit x (i - k).
Proof.
  destruct (N.leb_spec k i).
  - rewrite N.shiftl_spec_high' by assumption. reflexivity.
  - rewrite N.shiftl_spec_low by assumption. reflexivity.
Qed.

Lemma range_word_bits mn mx s i :
  mn <= mx -> s mod 64 = 0 -> start_of mn <= s -> s <= start_of mx ->
  N.testbit (range_word mn mx (start_of mn) (start_of mx) s) i =
    (i <? 64) && (mn <=? s + i) && (s + i <=? mx).
Proof.
  intros Hle Hal H1 H2. unfold range_word, MAPSIZE.
  destruct (start_of_facts mn) as (A1 & B1 & C1). destruct (start_of_facts mx) as (A2 & B2 & C2).
  destruct (N.eqb_spec s (start_of mn)) as [E1|E1];
  destruct (N.eqb_spec s (start_of mx)) as [E2|E2]; cbn [negb andb].
  - rewrite N.land_spec, ones_bit, shl_bit.
    rewrite shr_ones_bit by lia.
    destruct (N.ltb_spec i 64); [|rewrite andb_false_r; reflexivity]. rewrite andb_true_r. cbn [andb].
    destruct (N.leb_spec (mn - s) i), (N.leb_spec mn (s + i)); try (exfalso; lia); [|reflexivity].
    cbn [andb].
    destruct (N.ltb_spec (i - (mn - s)) (mx - mn + 1)), (N.leb_spec (s + i) mx); try reflexivity; lia.
  - rewrite N.land_spec, ones_bit, shl_bit, ones_bit.
    destruct (N.ltb_spec i 64); [|rewrite andb_false_r; reflexivity]. rewrite andb_true_r. cbn [andb].
    destruct (N.ltb_spec (i - (mn - s)) 64); [|lia]. rewrite andb_true_r.
    destruct (N.leb_spec (s + i) mx); [|lia]. rewrite andb_true_r.
    destruct (N.leb_spec (mn - s) i), (N.leb_spec mn (s + i)); try reflexivity; lia.
  - rewrite shr_ones_bit by lia.
    destruct (N.leb_spec mn (s + i)); [|lia]. rewrite andb_true_r.
    destruct (N.ltb_spec i (mx - s + 1)), (N.ltb_spec i 64), (N.leb_spec (s + i) mx); try reflexivity; lia.
  - rewrite ones_bit. destruct (N.ltb_spec i 64); [|reflexivity]. cbn [andb].
    destruct (N.leb_spec mn (s + i)); [|lia]. destruct (N.leb_spec (s + i) mx); [reflexivity|lia].
Qed.

Lemma range_loop_spec fuel : forall mn mx s,
  mn <= mx -> mx < 4294967232 -> s mod 64 = 0 -> start_of mn <= s -> s <= start_of mx + 64 ->
  start_of mx + 64 <= s + 64 * N.of_nat fuel ->
  exists r, range_loop fuel mn mx (start_of mn) (start_of mx) s = Some r /\ valid_nodes s r /\
    (forall b, nget r b = (s <=? b) && (mn <=? b) && (b <=? mx)) /\
    (s <= start_of mx -> last_start r = Some (start_of mx)).
Proof.
  induction fuel as [|f IH]; intros mn mx s Hle Hmx Hal H1 H2 Hf;
    destruct (start_of_facts mn) as (A1 & B1 & C1); destruct (start_of_facts mx) as (A2 & B2 & C2).
  - cbn [range_loop]. destruct (N.leb_spec s (start_of mx)); [lia|].
    exists []. split; [reflexivity|]. split; [exact I|]. split; [|lia]. intro b. cbn [nget].
    destruct (N.leb_spec s b); [|reflexivity]. destruct (N.leb_spec b mx); [lia|].
    rewrite andb_false_r. reflexivity.
  - cbn [range_loop]. destruct (N.leb_spec s (start_of mx)) as [Hs|Hs].
    2:{ exists []. split; [reflexivity|]. split; [exact I|]. split; [|lia]. intro b. cbn [nget].
        destruct (N.leb_spec s b); [|reflexivity]. destruct (N.leb_spec b mx); [lia|].
        rewrite andb_false_r. reflexivity. }
    assert (Hw : wrap32 (s + MAPSIZE) = s + 64).
    { apply wrap32_small. unfold W32, MAPSIZE. lia. }
    rewrite Hw.
    destruct (IH mn mx (s + 64)) as (r & Er & Vr & Gr & Lr); try assumption; try lia.
    rewrite Er. eexists. split; [reflexivity|].
    assert (Hbits := fun i => range_word_bits mn mx s i Hle Hal H1 Hs).
    set (w := range_word mn mx (start_of mn) (start_of mx) s) in *.
    assert (Hw64 : w < 18446744073709551616).
    { apply (lt_pow2_bits _ 64). intros i Hi. rewrite Hbits. destruct (N.ltb_spec i 64); [lia|reflexivity]. }
    assert (Hw0 : 0 < w).
    { apply N.neq_0_lt_0. intros E.
      pose proof (Hbits (N.max mn s - s)) as Hb. rewrite E, N.bits_0 in Hb.
      destruct (N.ltb_spec (N.max mn s - s) 64); [|lia].
      destruct (N.leb_spec mn (s + (N.max mn s - s))); [|lia].
      destruct (N.leb_spec (s + (N.max mn s - s)) mx); [discriminate|lia]. }
    assert (HV : valid_nodes s ((s, w) :: r)).
    { cbn [valid_nodes]. repeat split; try assumption; lia. }
    split; [exact HV|]. split.
    + intro b. rewrite (nget_cons _ _ _ _ _ HV), Gr, Hbits.
      destruct (N.ltb_spec b s); [destruct (N.leb_spec s b); [lia|reflexivity]|].
      destruct (N.leb_spec s b); [|lia].
      destruct (N.ltb_spec b (s + 64)).
      * replace (s + (b - s)) with b by lia. destruct (N.ltb_spec (b - s) 64); [reflexivity|lia].
      * destruct (N.leb_spec (s + 64) b); [reflexivity|lia].
    + intros _. destruct r as [|n r'].
      * cbn [last_start]. f_equal. destruct (N.lt_ge_cases (start_of mx) (s + 64)); [lia|].
        specialize (Lr ltac:(assumption)). discriminate.
      * change (last_start ((s, w) :: n :: r')) with (last_start (n :: r')). apply Lr.
        destruct n as [s' m']. pose proof Vr as (V1 & V2 & V3 & V4 & V5 & _).
        destruct (nonzero_bit m') as [i Hi]; [lia|].
        assert (i < 64). { destruct (N.lt_ge_cases i 64); [assumption|].
          rewrite m64_high in Hi by assumption. discriminate. }
        pose proof (Gr (s' + i)) as G'. rewrite (nget_cons _ _ _ _ _ Vr) in G'.
        destruct (N.ltb_spec (s' + i) s'); [lia|]. destruct (N.ltb_spec (s' + i) (s' + 64)); [|lia].
        replace (s' + i - s') with i in G' by lia. rewrite Hi in G'.
        symmetry in G'. apply andb_prop in G' as [_ G']. apply N.leb_le in G'. lia.
Qed.

Lemma init_range_spec mn mx : mn < 4294967296 -> mx < 4294967296 ->
  match ebitmap_init_range mn mx with
  | RangeOk e => mn <= mx /\ mx < 4294967232 /\ valid e /\
                 forall b, nget (e_nodes e) b = (mn <=? b) && (b <=? mx)
  | RangeEINVAL => mx < mn
  | RangeEOVERFLOW => mn <= mx /\ 4294967232 <= mx
  | RangeLoop => False
  end.
Proof.
  intros Hmn Hmx. unfold ebitmap_init_range.
  destruct (start_of_facts mn) as (A1 & B1 & C1). destruct (start_of_facts mx) as (A2 & B2 & C2).
  assert (E1 : wrap32 (mn - mn mod MAPSIZE) = start_of mn).
  { unfold MAPSIZE, start_of. apply wrap32_small. unfold W32. lia. }
  assert (E2 : wrap32 (mx - mx mod MAPSIZE) = start_of mx).
  { unfold MAPSIZE, start_of. apply wrap32_small. unfold W32. lia. }
  rewrite E1, E2. destruct (N.ltb_spec mx mn) as [Hlt|Hge]; [exact Hlt|].
  assert (Hz : forall x, x < 4294967296 -> (wrap32 (start_of x + MAPSIZE) =? 0) = (4294967232 <=? x)).
  { intros x Hx. unfold wrap32, W32, MAPSIZE, start_of.
    destruct (N.leb_spec 4294967232 x).
    - replace (x - x mod 64 + 64) with 4294967296 by lia. reflexivity.
    - rewrite N.mod_small by lia. apply N.eqb_neq. lia. }
  rewrite !Hz by assumption.
  destruct (N.leb_spec 4294967232 mx) as [Hov|Hok].
  { rewrite orb_true_r. auto. }
  destruct (N.leb_spec 4294967232 mn); [lia|]. cbn [orb].
  destruct (range_loop_spec (not_fuel (mx + MAPSIZE)) mn mx (start_of mn)) as (r & Er & Vr & Gr & Lr);
    try assumption; try lia; try (unfold not_fuel, MAPSIZE; lia).
  rewrite Er. split; [exact Hge|]. split; [exact Hok|]. split; [split|].
  - apply (valid_nodes_weaken (start_of mn)); [lia|exact Vr].
  - cbn [e_nodes e_high]. rewrite Lr by (unfold start_of; lia). apply wrap32_small. unfold W32, MAPSIZE. lia.
  - cbn [e_nodes]. intro b. rewrite Gr.
    destruct (N.leb_spec (start_of mn) b); [reflexivity|].
    destruct (N.leb_spec mn b); [lia|reflexivity].
Qed.

(** ** Iteration *)

(** [a], [a+1], ..., [k] numbers. *)
Fixpoint Nrange (a : N) (k : nat) : list N :=
  match k with O => [] | S k' => a :: Nrange (a + 1) k' end.

Lemma Nrange_in k : forall a x, In x (Nrange a k) <-> a <= x /\ x < a + N.of_nat k.
Proof.
  induction k as [|k IH]; intros a x; cbn [Nrange In]; [lia|].
  rewrite IH. rewrite Nat2N.inj_succ. split; [intros [<-|H]; lia|].
  intros H. destruct (N.eq_dec a x); [auto|right; lia].
Qed.

Lemma Nrange_sorted k : forall a, StronglySorted N.lt (Nrange a k).
Proof.
  induction k as [|k IH]; intros a; cbn [Nrange]; constructor; [apply IH|].
  apply Forall_forall. intros x Hx. apply Nrange_in in Hx. lia.
Qed.

Definition omap {A B} (f : A -> B) (o : option A) : option B :=
  match o with Some x => Some (f x) | None => None end.

Lemma each_bit_loop_node k : forall fuel len cur rest bit,
  (1 <= k)%nat -> bit + N.of_nat k = fst cur + 64 -> fst cur + 64 <= len -> len < 4294967296 ->
  (rest = [] -> len = fst cur + 64) ->
  each_bit_loop (k + fuel) len cur rest bit =
  omap (app (map (pair cur) (Nrange bit k)))
       (match rest with [] => Some [] | n' :: r' => each_bit_loop fuel len n' r' (fst n') end).
Proof.
  induction k as [|k IH]; intros fuel len cur rest bit Hk Hb Hlen Hlen2 Hlast; [lia|].
  cbn [plus each_bit_loop]. destruct (N.ltb_spec bit len) as [_|]; [|lia].
  destruct k as [|k'].
  - cbn [plus Nrange map app omap]. unfold ebitmap_next, MAPSIZE. destruct rest as [|n' r'].
    + rewrite wrap32_small by (unfold W32; lia).
      destruct fuel; cbn [each_bit_loop]; destruct (N.ltb_spec (bit + 1) len) as [|_]; try reflexivity;
        specialize (Hlast eq_refl); lia.
    + destruct (N.eqb_spec bit (fst cur + 64 - 1)); [|lia].
      destruct (each_bit_loop fuel len n' r' (fst n')); reflexivity.
  - unfold ebitmap_next, MAPSIZE.
    assert (En : (match rest with
                  | [] => (cur, rest, wrap32 (bit + 1))
                  | n' :: rest' => if bit =? fst cur + 64 - 1 then (n', rest', fst n')
                                   else (cur, rest, wrap32 (bit + 1)) end) = (cur, rest, bit + 1)).
    { rewrite wrap32_small by (unfold W32; lia). destruct rest; [reflexivity|].
      destruct (N.eqb_spec bit (fst cur + 64 - 1)); [lia|reflexivity]. }
    rewrite En. rewrite (IH fuel len cur rest (bit + 1)); try assumption; try lia.
    destruct (match rest with [] => Some [] | n' :: r' => each_bit_loop fuel len n' r' (fst n') end);
      reflexivity.
Qed.

Lemma last_start_ge l : forall lo s, valid_nodes lo l -> last_start l = Some s -> lo <= s.
Proof. intros lo s Hv Hl. apply (last_start_bound _ _ _ Hv Hl). Qed.

Lemma each_bit_loop_all rest : forall fuel len cur lo,
  valid_nodes lo (cur :: rest) ->
  last_start (cur :: rest) = Some (len - 64) -> 64 <= len -> len < 4294967296 ->
  (64 * length (cur :: rest) <= fuel)%nat ->
  each_bit_loop fuel len cur rest (fst cur) =
    Some (flat_map (fun n => map (pair n) (Nrange (fst n) 64)) (cur :: rest)).
Proof.
  induction rest as [|n' r' IH]; intros fuel len cur lo Hv Hl Hlen Hlen2 Hf.
  - destruct cur as [s m]. cbn [last_start] in Hl. injection Hl as Hl.
    replace fuel with (64 + (fuel - 64))%nat by (cbn [length] in Hf; lia).
    rewrite each_bit_loop_node; cbn [fst] in *; try lia.
    cbn [omap flat_map fst]. rewrite !app_nil_r. reflexivity.
  - pose proof Hv as Hv0. destruct cur as [s m]. destruct Hv0 as (V1 & V2 & V3 & V4 & V5 & Vt).
    change (last_start ((s, m) :: n' :: r')) with (last_start (n' :: r')) in Hl.
    pose proof (last_start_ge _ _ _ Vt Hl) as Hge.
    replace fuel with (64 + (fuel - 64))%nat by (cbn [length] in Hf; lia).
    rewrite each_bit_loop_node; cbn [fst] in *; try lia; [|discriminate].
    rewrite (IH (fuel - 64)%nat len n' (s + 64)); try assumption; [|cbn [length] in *; lia].
    reflexivity.
Qed.

Lemma each_bit_spec e : valid e ->
  each_bit (each_fuel e) e = Some (flat_map (fun n => map (pair n) (Nrange (fst n) 64)) (e_nodes e)).
Proof.
  intros V. pose proof (valid_high_bound e V) as HB. unfold each_bit, each_fuel.
  pose proof V as [Vn He]. destruct (e_nodes e) as [|[s m] t] eqn:E; [reflexivity|].
  destruct (last_start_cons_some s m t) as [s' Hs']. rewrite Hs' in He.
  unfold ebitmap_length, ebitmap_startbit. rewrite E.
  apply (each_bit_loop_all t _ (e_high e) (s, m) 0 Vn).
  - rewrite Hs'. f_equal. lia.
  - lia.
  - lia.
  - reflexivity.
Qed.

Definition node_bits (n : N * N) : list N :=
  filter (fun b => N.testbit (snd n) (b - fst n)) (Nrange (fst n) 64).

Lemma visited_bits_spec e : valid e ->
  visited_bits e = Some (flat_map (fun n => map (fun b => (b, N.testbit (snd n) (b - fst n)))
                                               (Nrange (fst n) 64)) (e_nodes e)).
Proof.
  intros V. unfold visited_bits. rewrite (each_bit_spec e V). f_equal.
  induction (e_nodes e) as [|n t IH]; [reflexivity|]. cbn [flat_map].
  rewrite map_app, IH, map_map. f_equal. apply map_ext. intro b. cbn [fst snd].
  unfold node_get_bit. rewrite land_bit_nz. reflexivity.
Qed.

Lemma filter_snd_map {A} (f : A -> bool) l :
  map fst (filter snd (map (fun b => (b, f b)) l)) = filter f l.
Proof.
  induction l as [|a l IH]; [reflexivity|]. cbn [map filter snd].
  destruct (f a); cbn [map fst]; rewrite IH; reflexivity.
Qed.

Lemma positive_bits_spec e : valid e -> positive_bits e = Some (flat_map node_bits (e_nodes e)).
Proof.
  intros V. unfold positive_bits. rewrite (visited_bits_spec e V). f_equal.
  induction (e_nodes e) as [|n t IH]; [reflexivity|]. cbn [flat_map].
  rewrite filter_app, map_app, IH. f_equal. apply filter_snd_map.
Qed.

Lemma sorted_app (l1 l2 : list N) : StronglySorted N.lt l1 -> StronglySorted N.lt l2 ->
  (forall x y, In x l1 -> In y l2 -> x < y) -> StronglySorted N.lt (l1 ++ l2).
Proof.
  intros S1 S2 H. induction S1 as [|a l1 S1 IH Ha]; [exact S2|]. cbn [app]. constructor.
  - apply IH. intros x y Hx Hy. apply H; [right; exact Hx|exact Hy].
  - apply Forall_app. split; [exact Ha|]. apply Forall_forall. intros y Hy.
    apply H; [left; reflexivity|exact Hy].
Qed.

Lemma sorted_filter f (l : list N) : StronglySorted N.lt l -> StronglySorted N.lt (filter f l).
Proof.
  induction 1 as [|a l S IH Ha]; [constructor|]. cbn [filter]. destruct (f a); [|exact IH].
  constructor; [exact IH|]. apply Forall_forall. intros x Hx. apply filter_In in Hx.
  rewrite Forall_forall in Ha. apply Ha. tauto.
Qed.

Lemma sorted_NoDup (l : list N) : StronglySorted N.lt l -> NoDup l.
Proof.
  induction 1 as [|a l S IH Ha]; constructor; [|exact IH]. intros Hin.
  rewrite Forall_forall in Ha. specialize (Ha _ Hin). lia.
Qed.

Lemma node_bits_in s m b : In b (node_bits (s, m)) <-> s <= b /\ b < s + 64 /\ N.testbit m (b - s) = true.
Proof. unfold node_bits. rewrite filter_In, Nrange_in. cbn [fst snd]. change (N.of_nat 64) with 64. tauto. Qed.

Lemma flat_bits_in l b : In b (flat_map node_bits l) <->
  exists s m, In (s, m) l /\ s <= b /\ b < s + 64 /\ N.testbit m (b - s) = true.
Proof.
  rewrite in_flat_map. split.
  - intros ([s m] & Hin & Hb). apply node_bits_in in Hb. eauto.
  - intros (s & m & Hin & Hb). exists (s, m). split; [exact Hin|]. apply node_bits_in. exact Hb.
Qed.

Lemma flat_bits_sorted l : forall lo, valid_nodes lo l -> StronglySorted N.lt (flat_map node_bits l) /\
  forall x, In x (flat_map node_bits l) -> lo <= x.
Proof.
  induction l as [|[s m] t IH]; intros lo Hv; [split; [constructor|intros x []]|].
  pose proof Hv as (A & _ & _ & _ & _ & T). destruct (IH _ T) as [S B]. cbn [flat_map]. split.
  - apply sorted_app; [apply sorted_filter; apply Nrange_sorted|exact S|].
    intros x y Hx Hy. apply node_bits_in in Hx. apply B in Hy. lia.
  - intros x Hx. apply in_app_or in Hx as [Hx|Hx]; [apply node_bits_in in Hx; lia|apply B in Hx; lia].
Qed.

Lemma positive_bits_correct e : valid e ->
  exists l, positive_bits e = Some l /\ StronglySorted N.lt l /\ forall b, In b l <-> member e b.
Proof.
  intros V. exists (flat_map node_bits (e_nodes e)). split; [apply positive_bits_spec; exact V|].
  split; [apply (flat_bits_sorted _ 0); apply V|]. intro b. apply flat_bits_in.
Qed.

(** ** Cardinality *)

Lemma popcount_step m : popcount m = (if N.testbit m 0 then 1 else 0) + popcount (m / 2).
Proof.
  destruct m as [|p]; [reflexivity|]. destruct p as [p|p|].
  - change (N.pos p~1) with (1 + 2 * N.pos p). rewrite N.add_comm.
    replace ((2 * N.pos p + 1) / 2) with (N.pos p) by lia. rewrite N.testbit_odd_0. reflexivity.
  - change (N.pos p~0) with (2 * N.pos p).
    replace ((2 * N.pos p) / 2) with (N.pos p) by lia. rewrite N.testbit_even_0. reflexivity.
  - reflexivity.
Qed.

Lemma filter_length_shift m k : forall a,
  length (filter (N.testbit m) (Nrange (a + 1) k)) = length (filter (N.testbit (m / 2)) (Nrange a k)).
Proof.
  induction k as [|k IH]; intros a; [reflexivity|]. cbn [Nrange filter].
  assert (E : N.testbit (m / 2) a = N.testbit m (a + 1)).
  { change (m / 2) with (m / 2 ^ 1). rewrite N.div_pow2_bits. reflexivity. }
  rewrite E. destruct (N.testbit m (a + 1)); cbn [length]; rewrite IH; reflexivity.
Qed.

Lemma popcount_count k : forall m, m < 2 ^ N.of_nat k ->
  popcount m = N.of_nat (length (filter (N.testbit m) (Nrange 0 k))).
Proof.
  induction k as [|k IH]; intros m Hm.
  - change (2 ^ N.of_nat 0) with 1 in Hm. assert (m = 0) by lia. subst. reflexivity.
  - rewrite popcount_step, (IH (m / 2)).
    + cbn [Nrange filter]. rewrite <- filter_length_shift.
      destruct (N.testbit m 0); cbn [length]; lia.
    + rewrite Nat2N.inj_succ, N.pow_succ_r' in Hm. apply N.div_lt_upper_bound; lia.
Qed.

Lemma Nrange_shift s k : forall a, Nrange (s + a) k = map (N.add s) (Nrange a k).
Proof.
  induction k as [|k IH]; intros a; [reflexivity|]. cbn [Nrange map]. f_equal.
  replace (s + a + 1) with (s + (a + 1)) by lia. apply IH.
Qed.

Lemma node_bits_length s m : m < 18446744073709551616 ->
  N.of_nat (length (node_bits (s, m))) = popcount m.
Proof.
  intros Hm. rewrite (popcount_count 64 m Hm). unfold node_bits. cbn [fst snd]. f_equal.
  assert (E : Nrange s 64 = map (N.add s) (Nrange 0 64)).
  { rewrite <- Nrange_shift. f_equal. lia. }
  rewrite E.
  generalize (Nrange 0 64). induction l as [|a l IH]; [reflexivity|]. cbn [map filter].
  replace (s + a - s) with a by lia. destruct (N.testbit m a); cbn [length]; rewrite IH; reflexivity.
Qed.

Lemma sorted_length l : forall lo hi, StronglySorted N.lt l -> (forall x, In x l -> lo <= x /\ x < hi) ->
  lo <= hi -> lo + N.of_nat (length l) <= hi.
Proof.
  induction l as [|a l IH]; intros lo hi S H Hlh; cbn [length]; [lia|].
  inversion S as [|? ? S' Ha]; subst.
  pose proof (H a (or_introl eq_refl)) as [Hal Hah].
  assert (a + 1 + N.of_nat (length l) <= hi).
  { apply IH; [exact S'| |lia]. intros x Hx. rewrite Forall_forall in Ha. specialize (Ha x Hx).
    specialize (H x (or_intror Hx)). lia. }
  lia.
Qed.

Lemma flat_bits_length s m t : m < 18446744073709551616 ->
  N.of_nat (length (flat_map node_bits ((s, m) :: t))) =
  popcount m + N.of_nat (length (flat_map node_bits t)).
Proof.
  intros Hm. change (flat_map node_bits ((s, m) :: t)) with (node_bits (s, m) ++ flat_map node_bits t).
  rewrite app_length, Nat2N.inj_add, (node_bits_length s m Hm). reflexivity.
Qed.

Lemma card_nodes_spec l : forall lo acc, valid_nodes lo l ->
  acc + N.of_nat (length (flat_map node_bits l)) < 4294967296 ->
  card_nodes acc l = acc + N.of_nat (length (flat_map node_bits l)).
Proof.
  induction l as [|[s m] t IH]; intros lo acc Hv Hs; [cbn; lia|].
  pose proof Hv as (_ & _ & _ & D & _ & T).
  rewrite (flat_bits_length s m t D) in *. cbn [card_nodes].
  revert Hs IH. generalize (length (flat_map node_bits t)). intros k Hs IH.
  rewrite wrap32_small by (unfold W32; lia). rewrite (IH _ _ T); lia.
Qed.

Lemma card_spec e : valid e ->
  ebitmap_cardinality e = N.of_nat (length (flat_map node_bits (e_nodes e))).
Proof.
  intros V. unfold ebitmap_cardinality. rewrite (card_nodes_spec _ 0); [lia|apply V|].
  destruct (flat_bits_sorted _ 0 (proj1 V)) as [S _].
  pose proof (sorted_length _ 0 (e_high e) S) as HL. pose proof (valid_high_bound e V).
  rewrite N.add_0_l in HL. rewrite N.add_0_l.
  assert (HL' : N.of_nat (length (flat_map node_bits (e_nodes e))) <= e_high e); [|lia].
  apply HL; [|lia].
  intros x Hx. apply flat_bits_in in Hx. split; [lia|].
  apply nget_high; [exact V|]. apply nget_member; [exact V|exact Hx].
Qed.

Lemma NoDup_same_length {A} (l1 l2 : list A) : NoDup l1 -> NoDup l2 ->
  (forall x, In x l1 <-> In x l2) -> length l1 = length l2.
Proof.
  intros N1 N2 H. apply Nat.le_antisymm; apply NoDup_incl_length; try assumption; intros x Hx; apply H; exact Hx.
Qed.

Lemma card_list e l : valid e -> NoDup l -> (forall b, In b l <-> member e b) ->
  ebitmap_cardinality e = N.of_nat (length l).
Proof.
  intros V Nd H. rewrite (card_spec e V). f_equal. apply NoDup_same_length.
  - apply sorted_NoDup. apply (flat_bits_sorted _ 0). apply V.
  - exact Nd.
  - intro b. rewrite H. apply flat_bits_in.
Qed.

Lemma hamming_list e1 e2 l : valid e1 -> valid e2 -> NoDup l ->
  (forall b, In b l <-> (member e1 b /\ ~ member e2 b) \/ (member e2 b /\ ~ member e1 b)) ->
  (Z.of_nat (length l) < 2147483648)%Z ->
  ebitmap_hamming_distance e1 e2 = Z.of_nat (length l).
Proof.
  intros V1 V2 Nd H Hlen. unfold ebitmap_hamming_distance.
  destruct (ebitmap_cmp e1 e2) eqn:E.
  - apply cmp_eq in E. subst e2. destruct l as [|x l]; [reflexivity|].
    exfalso. destruct (proj1 (H x) (or_introl eq_refl)); tauto.
  - destruct (xor_spec e1 e2 V1 V2) as [V G].
    rewrite (card_list _ l V Nd).
    + destruct (N.ltb_spec (N.of_nat (length l)) 2147483648); lia.
    + intro b. rewrite H, <- (nget_member _ _ V), G, <- !(nget_member _ _ V1), <- !(nget_member _ _ V2).
      destruct (nget (e_nodes e1) b), (nget (e_nodes e2) b); cbn [xorb]; intuition congruence.
Qed.

(** ** highest *)

Lemma highest_spec e : valid e -> e_nodes e <> [] ->
  nget (e_nodes e) (ebitmap_highest_set_bit e) = true /\
  forall b, nget (e_nodes e) b = true -> b <= ebitmap_highest_set_bit e.
Proof.
  intros [V _]. unfold ebitmap_highest_set_bit. revert V. generalize 0. generalize (e_nodes e).
  induction l as [|[s m] t IH]; intros lo V Hne; [congruence|].
  pose proof V as (A & B & C & D & E & T). destruct t as [|n t'].
  - cbn [highest_nodes].
    assert (Hl : N.log2 m < 64) by (apply N.log2_lt_pow2; [lia|exact D]).
    rewrite wrap32_small by (unfold W32; lia). split.
    + rewrite (nget_cons _ _ _ _ _ V). destruct (N.ltb_spec (s + N.log2 m) s); [lia|].
      destruct (N.ltb_spec (s + N.log2 m) (s + 64)); [|lia].
      replace (s + N.log2 m - s) with (N.log2 m) by lia. apply N.bit_log2. lia.
    + intros b Hb. rewrite (nget_cons _ _ _ _ _ V) in Hb.
      destruct (N.ltb_spec b s); [discriminate|]. destruct (N.ltb_spec b (s + 64)); [|discriminate].
      destruct (N.le_gt_cases (b - s) (N.log2 m)); [lia|].
      rewrite N.bits_above_log2 in Hb by assumption. discriminate.
  - destruct (IH _ T ltac:(discriminate)) as [H1 H2].
    change (highest_nodes ((s, m) :: n :: t')) with (highest_nodes (n :: t')). split.
    + apply nget_tail. exact H1.
    + intros b Hb. rewrite (nget_cons _ _ _ _ _ V) in Hb.
      destruct (N.ltb_spec b s); [discriminate|]. destruct (N.ltb_spec b (s + 64)); [|auto].
      destruct (N.le_gt_cases b (highest_nodes (n :: t'))); [assumption|].
      rewrite (nget_below _ _ _ T) in H1 by lia. discriminate.
Qed.

(** ** read / write *)

Lemma read_nodes_valid c : forall high prev bs l rest,
  forallb byte_ok bs = true -> high < 4294967296 -> high mod 64 = 0 -> 64 <= high ->
  match prev with Some p => p mod 64 = 0 | None => True end ->
  read_nodes c high prev bs = Some (l, rest) ->
  valid_nodes (match prev with Some p => p + 64 | None => 0 end) l /\ forallb byte_ok rest = true.
Proof.
  induction c as [|c IH]; intros high prev bs l rest Hb Hh Hal Hpos Hp; cbn [read_nodes].
  - intros [= <- <-]. split; [exact I|exact Hb].
  - destruct (le_dec 4 bs) as [[s bs1]|] eqn:E1; [|discriminate].
    destruct (le_dec_bound _ _ _ _ Hb E1) as [Hs Hb1]. change (256 ^ N.of_nat 4) with 4294967296 in Hs.
    unfold MAPSIZE. destruct (N.eqb_spec (s mod 64) 0) as [Hsal|]; cbn [negb]; [|discriminate].
    destruct (N.ltb_spec (high - 64) s); [discriminate|].
    destruct (le_dec 8 bs1) as [[m bs2]|] eqn:E2; [|discriminate].
    destruct (le_dec_bound _ _ _ _ Hb1 E2) as [Hm Hb2].
    change (256 ^ N.of_nat 8) with 18446744073709551616 in Hm.
    destruct (N.eqb_spec m 0); [discriminate|].
    destruct (match prev with Some p => s <=? p | None => false end) eqn:Ep; [discriminate|].
    destruct (read_nodes c high (Some s) bs2) as [[l' bs3]|] eqn:E3; [|discriminate].
    intros [= <- <-]. destruct (IH _ (Some s) _ _ _ Hb2 Hh Hal Hpos Hsal E3) as [V Hr].
    split; [|exact Hr]. cbn [valid_nodes]. repeat split; try assumption; try lia.
    destruct prev as [p|]; [|lia]. apply N.leb_gt in Ep. lia.
Qed.

Lemma last_startbit_eq l : last_startbit l = last_start l.
Proof. induction l as [|[s m] [|n t] IH]; [reflexivity..|exact IH]. Qed.

Lemma read_valid bs e rest : forallb byte_ok bs = true -> ebitmap_read bs = Some (e, rest) -> valid e.
Proof.
  intros Hb. unfold ebitmap_read.
  destruct (le_dec 4 bs) as [[ms bs1]|] eqn:E1; [|discriminate].
  destruct (le_dec_bound _ _ _ _ Hb E1) as [_ Hb1].
  destruct (le_dec 4 bs1) as [[high bs2]|] eqn:E2; [|discriminate].
  destruct (le_dec_bound _ _ _ _ Hb1 E2) as [Hh Hb2]. change (256 ^ N.of_nat 4) with 4294967296 in Hh.
  destruct (le_dec 4 bs2) as [[count bs3]|] eqn:E3; [|discriminate].
  destruct (le_dec_bound _ _ _ _ Hb2 E3) as [_ Hb3].
  destruct (negb (ms =? MAPSIZE)); [discriminate|].
  destruct (N.eqb_spec high 0); [intros [= <- <-]; exact valid_init|].
  unfold MAPSIZE. destruct (N.eqb_spec (high mod 64) 0) as [Hal|]; cbn [negb]; [|discriminate].
  destruct (count =? 0); [discriminate|].
  destruct (read_nodes _ high None bs3) as [[l r]|] eqn:E4; [|discriminate].
  destruct (read_nodes_valid _ _ None _ _ _ Hb3 Hh Hal ltac:(lia) I E4) as [V _].
  rewrite last_startbit_eq. destruct (last_start l) as [s|] eqn:El; [|discriminate].
  destruct (N.eqb_spec (s + 64) high); [|discriminate].
  intros [= <- <-]. split; [exact V|]. cbn [e_nodes e_high]. rewrite El. lia.
Qed.

Lemma read_nodes_write l : forall lo high prev rest,
  valid_nodes lo l -> match last_start l with Some s => s + 64 <= high | None => True end ->
  match prev with Some p => p < lo | None => True end ->
  read_nodes (length l) high prev
    (flat_map (fun n : N * N => le_enc 4 (fst n) ++ le_enc 8 (snd n)) l ++ rest) = Some (l, rest).
Proof.
  induction l as [|[s m] t IH]; intros lo high prev rest Hv Hh Hp; [reflexivity|].
  pose proof Hv as (A & B & C & D & E & T).
  cbn [length read_nodes flat_map fst snd]. rewrite <- !app_assoc.
  rewrite le_dec_enc by (change (256 ^ N.of_nat 4) with 4294967296; lia).
  unfold MAPSIZE. rewrite B. cbn [negb N.eqb]. change (0 =? 0) with true. cbn [negb].
  destruct (last_start_cons_some s m t) as [s' Hs']. rewrite Hs' in Hh.
  pose proof (last_start_ge ((s, m) :: t) s s') as Hge.
  specialize (Hge ltac:(cbn [valid_nodes]; repeat split; try assumption; lia) Hs').
  destruct (N.ltb_spec (high - 64) s); [lia|].
  rewrite le_dec_enc by (change (256 ^ N.of_nat 8) with 18446744073709551616; lia).
  destruct (N.eqb_spec m 0) as [|_]; [lia|].
  assert (Ep : match prev with Some p => s <=? p | None => false end = false).
  { destruct prev as [p|]; [|reflexivity]. apply N.leb_gt. lia. }
  rewrite Ep. rewrite (IH (s + 64)); [reflexivity|exact T| |lia].
  destruct t as [|n t']; [exact I|]. change (last_start ((s, m) :: n :: t')) with (last_start (n :: t')) in Hs'.
  rewrite Hs'. exact Hh.
Qed.

Lemma nodes_count_bound l : forall lo hi, valid_nodes lo l -> lo <= hi ->
  match last_start l with Some s => s + 64 <= hi | None => True end ->
  lo + 64 * N.of_nat (length l) <= hi.
Proof.
  induction l as [|[s m] t IH]; intros lo hi Hv Hlh Hl; cbn [length]; [lia|].
  pose proof Hv as (A & B & C & D & E & T).
  destruct (last_start_cons_some s m t) as [s' Hs']. rewrite Hs' in Hl.
  pose proof (last_start_ge ((s, m) :: t) s s') as Hge.
  specialize (Hge ltac:(cbn [valid_nodes]; repeat split; try assumption; lia) Hs').
  assert (s + 64 + 64 * N.of_nat (length t) <= hi); [|lia].
  apply IH; [exact T|lia|].
  destruct t as [|n t']; [exact I|]. change (last_start ((s, m) :: n :: t')) with (last_start (n :: t')) in Hs'.
  rewrite Hs'. exact Hl.
Qed.

Lemma read_write e rest : valid e -> ebitmap_read (ebitmap_write e ++ rest) = Some (e, rest).
Proof.
  intros V. pose proof V as [Vn He]. pose proof (valid_high_bound e V) as Hhb.
  unfold ebitmap_read, ebitmap_write. rewrite <- !app_assoc.
  rewrite le_dec_enc by (unfold MAPSIZE; reflexivity).
  rewrite le_dec_enc by (change (256 ^ N.of_nat 4) with 4294967296; lia).
  assert (Hcnt : 64 * N.of_nat (length (e_nodes e)) <= e_high e).
  { pose proof (nodes_count_bound (e_nodes e) 0 (e_high e) Vn) as H.
    rewrite N.add_0_l in H. apply H; [lia|]. rewrite He. destruct (last_start (e_nodes e)); [lia|exact I]. }
  rewrite le_dec_enc by (change (256 ^ N.of_nat 4) with 4294967296; lia).
  change (MAPSIZE =? MAPSIZE) with true. cbn [negb].
  destruct (e_nodes e) as [|[s m] t] eqn:En.
  - cbn [last_start] in He. rewrite He. cbn [flat_map app]. destruct e as [l h]. cbn [e_nodes e_high] in *.
    subst. reflexivity.
  - destruct (last_start_cons_some s m t) as [s' Hs']. rewrite Hs' in He.
    destruct (last_start_bound _ _ _ Vn Hs') as (_ & Hal & _).
    destruct (N.eqb_spec (e_high e) 0); [lia|].
    unfold MAPSIZE. replace (e_high e mod 64) with 0 by lia. cbn [negb]. change (0 =? 0) with true. cbn [negb].
    destruct (N.eqb_spec (N.of_nat (length ((s, m) :: t))) 0); [cbn [length] in *; lia|].
    assert (Hmin : N.to_nat (N.min (N.of_nat (length ((s, m) :: t)))
              (N.of_nat (length (flat_map (fun n : N * N => le_enc 4 (fst n) ++ le_enc 8 (snd n)) ((s, m) :: t) ++ rest)) + 1))
              = length ((s, m) :: t)).
    { assert (Hlen : (length ((s, m) :: t) <=
                length (flat_map (fun n : N * N => le_enc 4 (fst n) ++ le_enc 8 (snd n)) ((s, m) :: t) ++ rest))%nat).
      { rewrite app_length. generalize ((s, m) :: t). induction l as [|nd l IH]; cbn [length flat_map]; [lia|].
        rewrite !app_length, !le_enc_length. lia. }
      lia. }
    rewrite Hmin. rewrite (read_nodes_write _ 0); [|exact Vn|rewrite Hs'; lia|exact I].
    rewrite last_startbit_eq, Hs'. destruct (N.eqb_spec (s' + 64) (e_high e)); [|lia].
    destruct e as [l h]. cbn [e_nodes e_high] in *. subst. reflexivity.
Qed.

(** ** Everything built through the interface is canonical *)

Lemma built_valid e : built e -> valid e.
Proof.
  induction 1 as [|e b v e' _ IH Hb He|e _ IH|e1 e2 _ I1 _ I2|e1 e2 _ I1 _ I2|e1 e2 _ I1 _ I2
                  |e1 e2 _ I1 _ I2|e mx e' _ IH Hm He|e1 e2 mx e' _ I1 _ I2 Hm He|mn mx e H1 H2 He|bs e rest Hb He].
  - exact valid_init.
  - destruct (N.lt_ge_cases b 4294967232) as [Hlt|Hge].
    + destruct (set_bit_ok e b v IH Hlt) as (e2 & E2 & V2 & _). congruence.
    + rewrite set_bit_refused in He by assumption. discriminate.
  - rewrite cpy_id. exact IH.
  - apply or_spec; assumption.
  - destruct (or_spec e1 e2 I1 I2) as [V _]. unfold ebitmap_union.
    destruct (ebitmap_or e1 e2); exact V.
  - apply and_spec; assumption.
  - apply xor_spec; assumption.
  - destruct (not_spec e mx IH Hm) as (e2 & E2 & V2 & _). congruence.
  - destruct (andnot_spec e1 e2 mx I1 I2 Hm) as (e3 & E3 & V3 & _). congruence.
  - pose proof (init_range_spec mn mx H1 H2) as H. rewrite He in H. tauto.
  - apply (read_valid bs e rest); assumption.
Qed.
