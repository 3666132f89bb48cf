(** Proofs about bounds checking. *)
From Coq Require Import Permutation Sorted.
From Verif Require Import Base EbitmapModel EbitmapSpec EbitmapProofs AvtabModel AvtabSpec AvtabProofs AssertModel AssertSpec AssertProofs HierModel HierSpec.

(** ** Updating a datum in the table *)
Lemma chain_or_spec sp k v c : match chain_find sp k c with
  | [] => chain_or sp k v c = c
  | n :: t => exists l1, c = l1 ++ n :: t /\ chain_or sp k v c = l1 ++ mkNode (n_key n) (mkD (N.lor (d_data (n_datum n)) v) (d_xperms (n_datum n))) :: t
  end.
Proof.
  induction c as [|x c IH]; cbn [chain_find chain_or]; [reflexivity|]. destruct (hit sp k x); [exists []; split; reflexivity|].
  destruct (before3 k (n_key x)); [reflexivity|]. destruct (chain_find sp k c) as [|n t]; [rewrite IH; reflexivity|].
  destruct IH as (l1 & E1 & E2). exists (x :: l1). rewrite E2. subst c. split; reflexivity.
Qed.
Lemma concat_set_mid {A} (l : list (list A)) : forall i l1 x y l2, (i < length l)%nat -> nth i l [] = l1 ++ x :: l2 ->
  exists a b, concat l = a ++ x :: b /\ concat (set_nth i (l1 ++ y :: l2) l) = a ++ y :: b.
Proof.
  induction l as [|c l IH]; intros i l1 x y l2 Hi E; cbn [length] in Hi; [lia|]. destruct i as [|i]; cbn [nth set_nth concat] in *.
  - subst c. exists l1, (l2 ++ concat l). rewrite <- !app_assoc. split; reflexivity.
  - destruct (IH i l1 x y l2 ltac:(lia) E) as (a & b & E1 & E2). exists (c ++ a), b. rewrite E1, E2, <- !app_assoc. split; reflexivity.
Qed.
Lemma sorted_keys c : forall c', map n_key c = map n_key c' -> StronglySorted le3 c -> StronglySorted le3 c'.
Proof.
  induction c as [|x c IH]; intros [|x' c'] E H; cbn [map] in E; try discriminate; [constructor|]. injection E as E1 E2. inversion H as [|? ? H1 H2]; subst. constructor; [apply IH; assumption|].
  rewrite Forall_forall in *. intros y Hy. apply (in_map n_key) in Hy. rewrite <- E2 in Hy. apply in_map_iff in Hy as (z & Ez & Hz). specialize (H2 z Hz). unfold le3 in *. rewrite <- E1, <- Ez. exact H2.
Qed.

Definition btab (h : avtab) : Prop := wf h /\ a_htable h <> None /\ (forall n, In n (avtab_map_list h) -> k_spec (n_key n) = 1) /\ NoDup (map n_key (avtab_map_list h)).
Definition tget (h : avtab) (k : akey) : N := match avtab_search h k with Some d => d_data d | None => 0 end.

Lemma match_eq k n : k_spec k = 1 -> k_spec (n_key n) = 1 -> (entry_matches k n = true <-> n_key n = k).
Proof.
  intros E1 E2. unfold entry_matches. rewrite E1, E2. change (negb (N.land (N.land 1 32767) 1 =? 0)) with true. rewrite andb_true_r, !andb_true_iff, !N.eqb_eq.
  destruct k as [a b c s], (n_key n) as [a' b' c' s']. cbn in *. split; [intros [[-> ->] ->]; congruence|intros [= -> -> -> _]; auto].
Qed.
Lemma same_key l a b : NoDup (map n_key l) -> In a l -> In b l -> n_key a = n_key b -> a = b.
Proof.
  induction l as [|x l IH]; intros ND Ha Hb E; [destruct Ha|]. cbn [map] in ND. inversion ND as [|? ? N1 N2]; subst.
  destruct Ha as [->|Ha], Hb as [->|Hb]; [reflexivity| | |auto]; exfalso; apply N1.
  - rewrite E. apply in_map. exact Hb.
  - rewrite <- E. apply in_map. exact Ha.
Qed.
Lemma search_some h k d : btab h -> k_spec k = 1 -> (avtab_search h k = Some d <-> exists n, In n (avtab_map_list h) /\ n_key n = k /\ n_datum n = d).
Proof.
  intros (W & _ & S1 & ND) E. pose proof (search_spec h k W) as H. split.
  - intros Q. rewrite Q in H. destruct H as (n & Hn & M & ->). exists n. split; [exact Hn|]. split; [apply match_eq in M; auto|reflexivity].
  - intros (n & Hn & K & D). assert (M : entry_matches k n = true) by (apply match_eq; auto). destruct (avtab_search h k) as [d'|]; [|rewrite (H n Hn) in M; discriminate].
    destruct H as (n' & Hn' & M' & ->). apply match_eq in M'; [|auto..]. f_equal. rewrite <- D. f_equal.
    apply (same_key (avtab_map_list h)); [exact ND|exact Hn'|exact Hn|congruence].
Qed.

Lemma or_table h k v d : btab h -> k_spec k = 1 -> avtab_search h k = Some d ->
  btab (avtab_or h k v) /\ exists a b n, avtab_map_list h = a ++ n :: b /\ n_key n = k /\ n_datum n = d /\
    avtab_map_list (avtab_or h k v) = a ++ mkNode k (mkD (N.lor (d_data d) v) (d_xperms d)) :: b.
Proof.
  intros (W & HT & S1 & ND) E Q. unfold avtab_search, avtab_search_node in Q. pose proof W as W'. unfold wf in W'. unfold avtab_or, avtab_map_list.
  destruct (a_htable h) as [ht|] eqn:EH; [|congruence]. destruct W' as [HL HC]. set (hv := N.to_nat (avtab_hash k (a_mask h))) in *.
  assert (Hi : (hv < length ht)%nat) by (pose proof (hash_le k (a_mask h)); unfold hv; lia).
  pose proof (chain_or_spec (spec_bits (k_spec k)) k v (nth hv ht [])) as CO.
  destruct (chain_find (spec_bits (k_spec k)) k (nth hv ht [])) as [|n t] eqn:CF; [discriminate|]. injection Q as Q.
  destruct CO as (l1 & E1 & E2). set (n' := mkNode (n_key n) (mkD (N.lor (d_data (n_datum n)) v) (d_xperms (n_datum n)))) in *. cbv zeta. rewrite E2.
  destruct (concat_set_mid ht hv l1 n n' t Hi E1) as (a & b & C1 & C2).
  assert (KN : n_key n = k).
  { assert (In n (avtab_map_list h)) as Hn by (unfold avtab_map_list; rewrite EH, C1; apply in_app_iff; right; left; reflexivity).
    apply match_eq; [exact E|apply S1; exact Hn|]. rewrite <- hit_matches.
    pose proof (wf_chain_sorted h ht k W EH) as SO. fold hv in SO. destruct (chain_find_suffix (spec_bits (k_spec k)) k _ SO) as (_ & _ & _ & A).
    rewrite CF in A. exact A. }
  split.
  - split; [|split; [discriminate|split]].
    + unfold wf. cbn [a_htable a_mask]. rewrite set_nth_length. split; [exact HL|]. intros i c Hc. rewrite (set_nth_nth ht _ _ _ Hi) in Hc.
      destruct (Nat.eqb_spec hv i) as [<-|Hd]; [|exact (HC i c Hc)]. injection Hc as <-.
      destruct (HC hv _ (nth_nth_error ht hv [] Hi)) as [SO FO]. rewrite E1 in SO, FO. split.
      * eapply sorted_keys; [|exact SO]. rewrite !map_app. reflexivity.
      * rewrite Forall_forall in *. intros x Hx. apply in_app_iff in Hx as [Hx|[<-|Hx]]; [apply FO; apply in_app_iff; auto|apply (FO n); apply in_app_iff; right; left; reflexivity|apply FO; apply in_app_iff; right; right; exact Hx].
    + unfold avtab_map_list. cbn [a_htable]. rewrite C2. unfold avtab_map_list in S1. rewrite EH, C1 in S1. intros x Hx.
      apply in_app_iff in Hx as [Hx|[<-|Hx]]; [apply S1; apply in_app_iff; auto|apply (S1 n); apply in_app_iff; right; left; reflexivity|apply S1; apply in_app_iff; right; right; exact Hx].
    + unfold avtab_map_list in *. cbn [a_htable]. rewrite EH, C1 in ND. rewrite C2. rewrite map_app in *. exact ND.
  - exists a, b, n. cbn [a_htable]. rewrite C2. split; [exact C1|]. split; [exact KN|]. split; [exact Q|]. unfold n'. rewrite KN, Q. reflexivity.
Qed.

Definition has (h : avtab) (k : akey) (p : N) : Prop := N.testbit (tget h k) p = true.

Lemma key_dec (a b : akey) : {a = b} + {a <> b}.
Proof. decide equality; apply N.eq_dec. Qed.

Lemma put_spec h k v : btab h -> k_spec k = 1 -> exists h', b_put h k v = Some h' /\ btab h' /\
  forall k' p, k_spec k' = 1 -> (has h' k' p <-> has h k' p \/ (k' = k /\ N.testbit v p = true)).
Proof.
  intros B E. unfold b_put. pose proof B as (W & HT & S1 & ND). destruct (avtab_search h k) as [d|] eqn:Q.
  - exists (avtab_or h k v). split; [reflexivity|]. destruct (or_table h k v d B E Q) as (B' & a & b & n & L1 & K & D & L2). split; [exact B'|].
    intros k' p E'. unfold has, tget. destruct (key_dec k' k) as [->|NK].
    + rewrite Q. assert (Q' : avtab_search (avtab_or h k v) k = Some (mkD (N.lor (d_data d) v) (d_xperms d))).
      { apply search_some; [exact B'|exact E|]. eexists. split; [rewrite L2; apply in_app_iff; right; left; reflexivity|]. split; reflexivity. }
      rewrite Q'. cbn [d_data]. rewrite N.lor_spec, orb_true_iff. tauto.
    + assert (EQ : forall d', avtab_search (avtab_or h k v) k' = Some d' <-> avtab_search h k' = Some d').
      { intros d'. rewrite !search_some by assumption. rewrite L1, L2. split; intros (x & Hx & Kx & Dx); exists x; (split; [|auto]);
          apply in_app_iff in Hx as [Hx|[Hx|Hx]]; apply in_app_iff; auto; try (right; right; exact Hx); subst x; cbn in Kx; congruence. }
      destruct (avtab_search h k') as [d1|] eqn:A1; [rewrite (proj2 (EQ d1) eq_refl); tauto|].
      destruct (avtab_search (avtab_or h k v) k') as [d2|]; [destruct (EQ d2) as [X _]; discriminate (X eq_refl)|tauto].
  - unfold avtab_insert. pose proof (insert_spec true h k (mkD v None) W HT) as IS. destruct (avtab_insert_gen true h k (mkD v None)) as [h'| |]; [|exfalso|destruct IS].
    + exists h'. split; [reflexivity|]. destruct IS as (W' & HT' & PM & _ & _).
      assert (ST : stored k (mkD v None) = mkNode k (mkD v None)). { unfold stored, is_xperm_key. rewrite E. reflexivity. }
      rewrite ST in PM. assert (NI : ~ In k (map n_key (avtab_map_list h))).
      { intros HI. apply in_map_iff in HI as (n & K & Hn). pose proof (search_spec h k W) as SS. rewrite Q in SS. specialize (SS n Hn).
        assert (M : entry_matches k n = true) by (apply match_eq; auto). congruence. }
      assert (B' : btab h').
      { split; [exact W'|]. split; [exact HT'|]. split.
        - intros n Hn. apply (Permutation_in _ PM) in Hn. destruct Hn as [<-|Hn]; [exact E|apply S1; exact Hn].
        - apply (Permutation_NoDup (Permutation_sym (Permutation_map n_key PM))). cbn [map]. constructor; assumption. }
      split; [exact B'|]. intros k' p E'. unfold has, tget. destruct (key_dec k' k) as [->|NK].
      * rewrite Q. assert (Q' : avtab_search h' k = Some (mkD v None)).
        { apply search_some; [exact B'|exact E|]. exists (mkNode k (mkD v None)). split; [apply (Permutation_in _ (Permutation_sym PM)); left; reflexivity|auto]. }
        rewrite Q'. cbn [d_data]. rewrite N.bits_0. intuition discriminate.
      * assert (EQ : forall d', avtab_search h' k' = Some d' <-> avtab_search h k' = Some d').
        { intros d'. rewrite !search_some by assumption. split; intros (x & Hx & Kx & Dx); exists x; (split; [|auto]).
          - apply (Permutation_in _ PM) in Hx as [Hx|Hx]; [subst x; cbn in Kx; congruence|exact Hx].
          - apply (Permutation_in _ (Permutation_sym PM)). right. exact Hx. }
        destruct (avtab_search h k') as [d1|] eqn:A1; [rewrite (proj2 (EQ d1) eq_refl); tauto|].
        destruct (avtab_search h' k') as [d2|]; [destruct (EQ d2) as [X _]; discriminate (X eq_refl)|tauto].
    + destruct IS as (_ & _ & X). apply existsb_exists in X as (n & Hn & M). pose proof (search_spec h k W) as SS. rewrite Q in SS. rewrite (SS n Hn) in M. discriminate.
Qed.

Lemma alloc_btab : btab (avtab_alloc avtab_init 1024).
Proof.
  destruct (alloc_spec avtab_init 1024 ltac:(discriminate)) as (W & E & L). split; [exact W|]. split; [exact E|]. rewrite L. split; [intros n []|constructor].
Qed.
Lemma alloc_has k p : ~ has (avtab_alloc avtab_init 1024) k p.
Proof.
  destruct (alloc_spec avtab_init 1024 ltac:(discriminate)) as (W & E & L). unfold has, tget. pose proof (search_spec _ k W) as H.
  destruct (avtab_search (avtab_alloc avtab_init 1024) k) as [d|]; [destruct H as (n & Hn & _); rewrite L in Hn; destruct Hn|]. rewrite N.bits_0. discriminate.
Qed.
Lemma init_has k p : ~ has avtab_init k p.
Proof. unfold has. cbn [tget avtab_search avtab_search_node avtab_init a_htable]. rewrite N.bits_0. discriminate. Qed.

(** ** Expanding the rules of the parent *)
Definition bkey (parent i cls : N) : akey := mkK (u16 parent) (u16 (i + 1)) (u16 cls) AVTAB_ALLOWED.

Lemma targets_one parent cls data : forall ts av, btab av -> exists av', expand_targets av None parent cls data ts = Some (av', None) /\ btab av' /\
  forall k p, k_spec k = 1 -> (has av' k p <-> has av k p \/ (N.testbit data p = true /\ exists i, In i ts /\ k = bkey parent i cls)).
Proof.
  induction ts as [|i ts IH]; intros av B; cbn [expand_targets].
  - exists av. split; [reflexivity|]. split; [exact B|]. intros k p _. split; [auto|intros [H|(_ & i & [] & _)]; exact H].
  - unfold bounds_insert_rule. destruct (put_spec av (bkey parent i cls) data B eq_refl) as (a1 & E1 & B1 & H1). fold (bkey parent i cls). rewrite E1.
    destruct (IH a1 B1) as (a2 & E2 & B2 & H2). exists a2. split; [exact E2|]. split; [exact B2|]. intros k p Ek. rewrite (H2 k p Ek), (H1 k p Ek). split.
    + intros [[H|[-> H]]|(H & j & Hj & ->)]; [auto| |].
      * right. split; [exact H|]. exists i. split; [left; reflexivity|reflexivity].
      * right. split; [exact H|]. exists j. split; [right; exact Hj|reflexivity].
    + intros [H|(H & j & [<-|Hj] & ->)]; [auto|left; right; auto|]. right. split; [exact H|]. exists j. auto.
Qed.

Lemma targets_two other parent cls data : forall ts av gl, btab av -> btab gl -> exists av' gl',
  expand_targets av (Some (gl, other)) parent cls data ts = Some (av', Some (gl', other)) /\ btab av' /\ btab gl' /\
  (forall k p, k_spec k = 1 -> (has av' k p <-> has av k p \/ (N.testbit data p = true /\ exists i, In i ts /\ k = bkey parent i cls))) /\
  (forall k p, k_spec k = 1 -> (has gl' k p <-> has gl k p \/ (has other k p /\ N.testbit data p = true /\ exists i, In i ts /\ k = bkey parent i cls))).
Proof.
  induction ts as [|i ts IH]; intros av gl B G; cbn [expand_targets].
  - exists av, gl. split; [reflexivity|]. split; [exact B|]. split; [exact G|]. split; intros k p _; (split; [auto|]); [intros [H|(_ & i & [] & _)]; exact H|intros [H|(_ & _ & i & [] & _)]; exact H].
  - unfold bounds_insert_rule. destruct (put_spec av (bkey parent i cls) data B eq_refl) as (a1 & E1 & B1 & H1). fold (bkey parent i cls). rewrite E1.
    assert (STEP : exists g1, (match avtab_search other (bkey parent i cls) with
       | None => Some (a1, Some (gl, other))
       | Some d => if N.land (d_data d) data =? 0 then Some (a1, Some (gl, other)) else
           match b_put gl (bkey parent i cls) (N.land (d_data d) data) with None => None | Some gl' => Some (a1, Some (gl', other)) end end) = Some (a1, Some (g1, other)) /\ btab g1 /\
       forall k p, k_spec k = 1 -> (has g1 k p <-> has gl k p \/ (has other k p /\ N.testbit data p = true /\ k = bkey parent i cls))).
    { destruct (avtab_search other (bkey parent i cls)) as [d|] eqn:Q.
      - assert (HO : forall p, N.testbit (N.land (d_data d) data) p = true <-> has other (bkey parent i cls) p /\ N.testbit data p = true).
        { intros p. unfold has, tget. rewrite Q, N.land_spec, andb_true_iff. tauto. }
        destruct (N.eqb_spec (N.land (d_data d) data) 0) as [Z|Z].
        + exists gl. split; [reflexivity|]. split; [exact G|]. intros k p _. split; [auto|]. intros [H|(H1' & H2' & ->)]; [exact H|].
          destruct (HO p) as [_ X]. rewrite Z, N.bits_0 in X. discriminate (X (conj H1' H2')).
        + destruct (put_spec gl (bkey parent i cls) (N.land (d_data d) data) G eq_refl) as (g1 & E & G1 & HG). exists g1. rewrite E. split; [reflexivity|]. split; [exact G1|].
          intros k p Ek. rewrite (HG k p Ek), HO. split; [intros [H|(-> & H)]; [auto|right; tauto]|intros [H|(H3 & H4 & ->)]; auto].
      - exists gl. split; [reflexivity|]. split; [exact G|]. intros k p _. split; [auto|]. intros [H|(X & _ & ->)]; [exact H|]. unfold has, tget in X. rewrite Q, N.bits_0 in X. discriminate. }
    destruct STEP as (g1 & ES & G1 & HG). cbv zeta. rewrite ES. destruct (IH a1 g1 B1 G1) as (a2 & g2 & E2 & B2 & G2 & H2 & HG2). exists a2, g2.
    split; [exact E2|]. split; [exact B2|]. split; [exact G2|]. split; intros k p Ek.
    + rewrite (H2 k p Ek), (H1 k p Ek). split.
      * intros [[H|[-> H]]|(H & j & Hj & ->)]; [auto| |].
        -- right. split; [exact H|]. exists i. split; [left; reflexivity|reflexivity].
        -- right. split; [exact H|]. exists j. split; [right; exact Hj|reflexivity].
      * intros [H|(H & j & [<-|Hj] & ->)]; [auto|left; right; auto|]. right. split; [exact H|]. exists j. auto.
    + rewrite (HG2 k p Ek), (HG k p Ek). split.
      * intros [[H|(H & H' & ->)]|(H & H' & j & Hj & ->)]; [auto| |].
        -- right. split; [exact H|]. split; [exact H'|]. exists i. split; [left; reflexivity|reflexivity].
        -- right. split; [exact H|]. split; [exact H'|]. exists j. split; [right; exact Hj|reflexivity].
      * intros [H|(H & H' & j & [<-|Hj] & ->)]; [auto|left; right; auto|]. right. split; [exact H|]. split; [exact H'|]. exists j. auto.
Qed.

Section Policy.
Context (P : apolicy) (HP : sets_ok P) (parent : N).

(** The rule, of whatever kind, contributes the permission to this key of the parent. *)
Definition raw (k : akey) (p : N) (n : anode) : Prop :=
  member (ap_attr P (k_src (n_key n))) (parent - 1) /\ N.testbit (d_data (n_datum n)) p = true /\
  exists i, member (ap_attr P (k_tgt (n_key n))) i /\ k = bkey parent i (k_cls (n_key n)).

Lemma in_bits v i : In i (bits (ap_attr P v)) <-> member (ap_attr P v) i.
Proof. apply bits_in. apply HP. Qed.
Lemma raw_bits k p n : raw k p n <-> ebitmap_get_bit (ap_attr P (k_src (n_key n))) (parent - 1) = true /\ N.testbit (d_data (n_datum n)) p = true /\
  exists i, In i (bits (ap_attr P (k_tgt (n_key n)))) /\ k = bkey parent i (k_cls (n_key n)).
Proof.
  unfold raw. rewrite get_bit_member by apply HP. split; intros (H1 & H2 & i & H3 & H4); (split; [exact H1|]); (split; [exact H2|]); exists i; (split; [apply in_bits|]); assumption.
Qed.

Lemma rule_one n av : btab av -> exists av', bounds_expand_rule P av None parent n = Some (av', None) /\ btab av' /\
  forall k p, k_spec k = 1 -> (has av' k p <-> has av k p \/ raw k p n).
Proof.
  intros B. unfold bounds_expand_rule. destruct (ebitmap_get_bit (ap_attr P (k_src (n_key n))) (parent - 1)) eqn:E.
  - destruct (targets_one parent (k_cls (n_key n)) (d_data (n_datum n)) (bits (ap_attr P (k_tgt (n_key n)))) av B) as (a & E1 & B1 & H). exists a. split; [exact E1|]. split; [exact B1|].
    intros k p Ek. rewrite (H k p Ek), raw_bits, E. tauto.
  - exists av. split; [reflexivity|]. split; [exact B|]. intros k p _. rewrite raw_bits, E. intuition discriminate.
Qed.
Lemma rule_two other n av gl : btab av -> btab gl -> exists av' gl', bounds_expand_rule P av (Some (gl, other)) parent n = Some (av', Some (gl', other)) /\ btab av' /\ btab gl' /\
  (forall k p, k_spec k = 1 -> (has av' k p <-> has av k p \/ raw k p n)) /\
  (forall k p, k_spec k = 1 -> (has gl' k p <-> has gl k p \/ (has other k p /\ raw k p n))).
Proof.
  intros B G. unfold bounds_expand_rule. destruct (ebitmap_get_bit (ap_attr P (k_src (n_key n))) (parent - 1)) eqn:E.
  - destruct (targets_two other parent (k_cls (n_key n)) (d_data (n_datum n)) (bits (ap_attr P (k_tgt (n_key n)))) av gl B G) as (a & g & E1 & B1 & G1 & H1 & H2).
    exists a, g. split; [exact E1|]. split; [exact B1|]. split; [exact G1|]. split; intros k p Ek; [rewrite (H1 k p Ek)|rewrite (H2 k p Ek)]; rewrite raw_bits, E; tauto.
  - exists av, gl. split; [reflexivity|]. split; [exact B|]. split; [exact G|]. split; intros k p _; rewrite raw_bits, E; intuition discriminate.
Qed.

Definition some_raw (l : list anode) (k : akey) (p : N) : Prop := exists n, In n l /\ raw k p n.
Lemma some_raw_cons n l k p : some_raw (n :: l) k p <-> raw k p n \/ some_raw l k p.
Proof. unfold some_raw. split; [intros (x & [<-|Hx] & H); [auto|right; exists x; auto]|intros [H|(x & Hx & H)]; [exists n; split; [left; reflexivity|exact H]|exists x; split; [right; exact Hx|exact H]]]. Qed.
Lemma some_raw_nil k p : ~ some_raw [] k p.
Proof. intros (n & [] & _). Qed.

Lemma cond_one : forall l av, btab av -> exists av', bounds_expand_cond_rules P l av None parent = Some (av', None) /\ btab av' /\
  forall k p, k_spec k = 1 -> (has av' k p <-> has av k p \/ some_raw l k p).
Proof.
  induction l as [|n l IH]; intros av B; cbn [bounds_expand_cond_rules].
  - exists av. split; [reflexivity|]. split; [exact B|]. intros k p _. split; [auto|]. intros [H|H]; [exact H|destruct (some_raw_nil _ _ H)].
  - destruct (rule_one n av B) as (a1 & E1 & B1 & H1). rewrite E1. destruct (IH a1 B1) as (a2 & E2 & B2 & H2). exists a2. split; [exact E2|]. split; [exact B2|].
    intros k p Ek. rewrite (H2 k p Ek), (H1 k p Ek), some_raw_cons. tauto.
Qed.
Lemma cond_two other : forall l av gl, btab av -> btab gl -> exists av' gl', bounds_expand_cond_rules P l av (Some (gl, other)) parent = Some (av', Some (gl', other)) /\ btab av' /\ btab gl' /\
  (forall k p, k_spec k = 1 -> (has av' k p <-> has av k p \/ some_raw l k p)) /\
  (forall k p, k_spec k = 1 -> (has gl' k p <-> has gl k p \/ (has other k p /\ some_raw l k p))).
Proof.
  induction l as [|n l IH]; intros av gl B G; cbn [bounds_expand_cond_rules].
  - exists av, gl. split; [reflexivity|]. split; [exact B|]. split; [exact G|].
    split; intros k p _; (split; [auto|]); [intros [H|H]; [exact H|destruct (some_raw_nil _ _ H)]|intros [H|[_ H]]; [exact H|destruct (some_raw_nil _ _ H)]].
  - destruct (rule_two other n av gl B G) as (a1 & g1 & E1 & B1 & G1 & H1 & HG1). rewrite E1. destruct (IH a1 g1 B1 G1) as (a2 & g2 & E2 & B2 & G2 & H2 & HG2). exists a2, g2.
    split; [exact E2|]. split; [exact B2|]. split; [exact G2|].
    split; intros k p Ek; [rewrite (H2 k p Ek), (H1 k p Ek), some_raw_cons|rewrite (HG2 k p Ek), (HG1 k p Ek), some_raw_cons]; tauto.
Qed.

Definition te_raw (l : list anode) (k : akey) (p : N) : Prop := exists n, In n l /\ N.testbit (k_spec (n_key n)) 0 = true /\ raw k p n.
Lemma te_expand : forall l gl, btab gl -> exists gl', expand_te P l gl parent = Some gl' /\ btab gl' /\
  forall k p, k_spec k = 1 -> (has gl' k p <-> has gl k p \/ te_raw l k p).
Proof.
  induction l as [|n l IH]; intros gl B; cbn [expand_te].
  - exists gl. split; [reflexivity|]. split; [exact B|]. intros k p _. split; [auto|]. intros [H|(n & [] & _)]. exact H.
  - assert (TC : forall k p, te_raw (n :: l) k p <-> (N.testbit (k_spec (n_key n)) 0 = true /\ raw k p n) \/ te_raw l k p).
    { intros k p. unfold te_raw. split; [intros (x & [<-|Hx] & H); [auto|right; exists x; auto]|intros [H|(x & Hx & H)]; [exists n; split; [left; reflexivity|exact H]|exists x; split; [right; exact Hx|exact H]]]. }
    rewrite allowed_bit. destruct (N.testbit (k_spec (n_key n)) 0) eqn:A; cbn [negb].
    + destruct (rule_one n gl B) as (g1 & E1 & B1 & H1). rewrite E1. destruct (IH g1 B1) as (g2 & E2 & B2 & H2). exists g2. split; [exact E2|]. split; [exact B2|].
      intros k p Ek. rewrite (H2 k p Ek), (H1 k p Ek), TC. tauto.
    + destruct (IH gl B) as (g2 & E2 & B2 & H2). exists g2. split; [exact E2|]. split; [exact B2|]. intros k p Ek. rewrite (H2 k p Ek), TC. intuition discriminate.
Qed.

Definition good_info (c : cinfo) : Prop :=
  (forall k p, k_spec k = 1 -> (has (ci_true c) k p <-> some_raw (fst (ci_rules c)) k p)) /\
  (forall k p, k_spec k = 1 -> (has (ci_false c) k p <-> some_raw (snd (ci_rules c)) k p)).
Definition both_raw (cs : list (list anode * list anode)) (k : akey) (p : N) : Prop :=
  exists tl fl, In (tl, fl) cs /\ some_raw tl k p /\ some_raw fl k p.

Lemma conds_expand : forall cs gl acc, btab gl -> Forall good_info acc -> exists gl' acc', expand_conds P cs gl acc parent = Some (gl', acc') /\ btab gl' /\ Forall good_info acc' /\
  (forall x, In x (map ci_rules acc') <-> In x cs \/ In x (map ci_rules acc)) /\
  (forall k p, k_spec k = 1 -> (has gl' k p <-> has gl k p \/ both_raw cs k p)).
Proof.
  induction cs as [|[tl fl] cs IH]; intros gl acc B F; cbn [expand_conds].
  - exists gl, acc. split; [reflexivity|]. split; [exact B|]. split; [exact F|]. split; [intros x; split; [auto|intros [[]|H]; exact H]|]. intros k p _. split; [auto|]. intros [H|(tl & fl & [] & _)]. exact H.
  - assert (ST : exists tav tb, bounds_expand_cond_rules P tl match tl with [] => avtab_init | _ :: _ => avtab_alloc avtab_init 1024 end None parent = Some (tav, tb) /\
      forall k p, k_spec k = 1 -> (has tav k p <-> some_raw tl k p)).
    { destruct tl as [|n tl'].
      - exists avtab_init, None. split; [reflexivity|]. intros k p _. split; intros H; [destruct (init_has _ _ H)|destruct (some_raw_nil _ _ H)].
      - destruct (cond_one (n :: tl') _ alloc_btab) as (t1 & E1 & _ & H1). exists t1, None. split; [exact E1|]. intros k p Ek. rewrite (H1 k p Ek). split; [intros [H|H]; [destruct (alloc_has _ _ H)|exact H]|auto]. }
    destruct ST as (tav & tb & ET & HT). rewrite ET.
    assert (SF : exists fav g1, bounds_expand_cond_rules P fl match fl with [] => avtab_init | _ :: _ => avtab_alloc avtab_init 1024 end (Some (gl, tav)) parent = Some (fav, Some (g1, tav)) /\ btab g1 /\
      (forall k p, k_spec k = 1 -> (has fav k p <-> some_raw fl k p)) /\ (forall k p, k_spec k = 1 -> (has g1 k p <-> has gl k p \/ (some_raw tl k p /\ some_raw fl k p)))).
    { destruct fl as [|n fl'].
      - exists avtab_init, gl. split; [reflexivity|]. split; [exact B|]. split; intros k p _.
        + split; intros H; [destruct (init_has _ _ H)|destruct (some_raw_nil _ _ H)].
        + split; [auto|]. intros [H|[_ H]]; [exact H|destruct (some_raw_nil _ _ H)].
      - destruct (cond_two tav (n :: fl') _ gl alloc_btab B) as (f1 & g1 & E1 & _ & G1 & H1 & H2). exists f1, g1. split; [exact E1|]. split; [exact G1|]. split; intros k p Ek.
        + rewrite (H1 k p Ek). split; [intros [H|H]; [destruct (alloc_has _ _ H)|exact H]|auto].
        + rewrite (H2 k p Ek), (HT k p Ek). tauto. }
    destruct SF as (fav & g1 & EF & G1 & HF & HG). rewrite EF.
    destruct (IH g1 (mkCI tav fav (tl, fl) :: acc) G1) as (g2 & acc2 & E2 & G2 & F2 & M2 & H2); [constructor; [split; assumption|exact F]|].
    exists g2, acc2. split; [exact E2|]. split; [exact G2|]. split; [exact F2|]. split.
    + intros x. rewrite M2. cbn [map ci_rules In]. tauto.
    + intros k p Ek. rewrite (H2 k p Ek), (HG k p Ek). unfold both_raw. split.
      * intros [[H|[H1 H3]]|(t' & f' & H1 & H3)]; [auto|right; exists tl, fl; split; [left; reflexivity|auto]|right; exists t', f'; split; [right; exact H1|exact H3]].
      * intros [H|(t' & f' & [Q|H1] & H3)]; [auto|injection Q as <- <-; left; right; exact H3|right; exists t', f'; auto].
Qed.

Lemma parent_expand : exists gl ci, bounds_expand_parent_rules P parent = Some (gl, ci) /\ Forall good_info ci /\
  (forall x, In x (map ci_rules ci) <-> In x (ap_conds P)) /\
  (forall k p, k_spec k = 1 -> (has gl k p <-> te_raw (avtab_map_list (ap_te P)) k p \/ both_raw (ap_conds P) k p)).
Proof.
  unfold bounds_expand_parent_rules. destruct (te_expand (avtab_map_list (ap_te P)) _ alloc_btab) as (g1 & E1 & B1 & H1). rewrite E1.
  destruct (conds_expand (ap_conds P) g1 [] B1 (Forall_nil _)) as (g2 & ci & E2 & _ & F & M & H2). exists g2, ci. split; [exact E2|]. split; [exact F|]. split.
  - intros x. rewrite M. cbn [map In]. tauto.
  - intros k p Ek. rewrite (H2 k p Ek), (H1 k p Ek). split; [intros [[H|H]|H]; [destruct (alloc_has _ _ H)|auto..]|tauto].
Qed.

(** ** Checking the rules of the child *)
Lemma not_covered gl cur k data : bounds_not_covered gl cur k data = 0 <->
  forall p, N.testbit data p = true -> has cur k p \/ (exists g, gl = Some g /\ has g k p).
Proof.
  assert (L : forall a h, (match avtab_search h k with Some d => N.ldiff a (d_data d) | None => a end) = N.ldiff a (tget h k)).
  { intros a h. unfold tget. destruct (avtab_search h k); [reflexivity|rewrite N.ldiff_0_r; reflexivity]. }
  assert (Z : forall a, a = 0 <-> forall p, N.testbit a p <> true).
  { intros a. split; [intros -> p; rewrite N.bits_0; discriminate|]. intros H. apply N.bits_inj. intros p. rewrite N.bits_0. specialize (H p). destruct (N.testbit a p); congruence. }
  unfold bounds_not_covered. rewrite L. cbv zeta. destruct gl as [g|].
  - assert (E : (if N.ldiff data (tget cur k) =? 0 then N.ldiff data (tget cur k) else match avtab_search g k with Some d => N.ldiff (N.ldiff data (tget cur k)) (d_data d) | None => N.ldiff data (tget cur k) end)
              = N.ldiff (N.ldiff data (tget cur k)) (tget g k)).
    { rewrite L. destruct (N.eqb_spec (N.ldiff data (tget cur k)) 0) as [E|E]; [rewrite E, N.ldiff_0_l; reflexivity|reflexivity]. }
    rewrite E, Z. unfold has. split; intros H p.
    + intros Hp. specialize (H p). rewrite !N.ldiff_spec, Hp in H. destruct (N.testbit (tget cur k) p); [auto|]. right. exists g. split; [reflexivity|]. destruct (N.testbit (tget g k) p); [reflexivity|destruct H; reflexivity].
    + rewrite !N.ldiff_spec. intros Q. apply andb_prop in Q as [Q Q3]. apply andb_prop in Q as [Q1 Q2]. destruct (H p Q1) as [X|(g' & [= <-] & X)]; rewrite X in *; discriminate.
  - rewrite Z. unfold has. split; intros H p.
    + intros Hp. specialize (H p). rewrite !N.ldiff_spec, Hp in H. destruct (N.testbit (tget cur k) p); [auto|destruct H; reflexivity].
    + rewrite !N.ldiff_spec. intros Q. apply andb_prop in Q as [Q1 Q2]. destruct (H p Q1) as [X|(g' & E & _)]; [rewrite X in *; discriminate|discriminate].
Qed.

Context (bof : N -> N) (child : N).

Lemma list_ok gl cur l : check_list P bof gl cur child parent l = 0 <->
  forall n i p, In n l -> N.testbit (k_spec (n_key n)) 0 = true -> member (ap_attr P (k_src (n_key n))) (child - 1) -> member (ap_attr P (k_tgt (n_key n))) i ->
    N.testbit (d_data (n_datum n)) p = true ->
    has cur (bkey parent (bound_target bof i) (k_cls (n_key n))) p \/ (exists g, gl = Some g /\ has g (bkey parent (bound_target bof i) (k_cls (n_key n))) p).
Proof.
  unfold check_list. rewrite sum_zero.
  assert (BT : forall i, (if bof i =? 0 then i + 1 else bof i) = bound_target bof i + 1).
  { intros i. unfold bound_target. destruct (N.eqb_spec (bof i) 0); lia. }
  split.
  - intros H n i p Hn A M1 M2 D. specialize (H n Hn). rewrite allowed_bit, A in H. cbn [negb] in H. unfold bounds_check_rule in H.
    apply get_bit_member in M1; [|apply HP]. rewrite M1 in H. rewrite sum_zero in H. specialize (H i (proj2 (in_bits _ _) M2)). cbv zeta in H. rewrite BT in H.
    fold (bkey parent (bound_target bof i) (k_cls (n_key n))) in H. destruct (N.eqb_spec (bounds_not_covered gl cur (bkey parent (bound_target bof i) (k_cls (n_key n))) (d_data (n_datum n))) 0) as [E|E]; [|discriminate].
    rewrite not_covered in E. auto.
  - intros H n Hn. rewrite allowed_bit. destruct (N.testbit (k_spec (n_key n)) 0) eqn:A; cbn [negb]; [|reflexivity]. unfold bounds_check_rule.
    destruct (ebitmap_get_bit (ap_attr P (k_src (n_key n))) (child - 1)) eqn:M1; [|reflexivity]. apply get_bit_member in M1; [|apply HP]. apply sum_zero. intros i Hi. cbv zeta. rewrite BT.
    fold (bkey parent (bound_target bof i) (k_cls (n_key n))). apply in_bits in Hi.
    assert (E : bounds_not_covered gl cur (bkey parent (bound_target bof i) (k_cls (n_key n))) (d_data (n_datum n)) = 0) by (apply not_covered; intros p D; apply H; assumption).
    rewrite E. reflexivity.
Qed.

(** ** Meaning *)
Context (HS : small_types P bof) (HB : parent < 65536) (HA : allow_only P parent).

Lemma u16_small x : x < 65536 -> u16 x = x.
Proof. intros H. apply N.mod_small. exact H. Qed.
Lemma target_small v i : member (ap_attr P v) i -> bound_target bof i < 65535.
Proof. intros H. destruct HS as (S1 & S2 & _). specialize (S1 v i H). specialize (S2 i). unfold bound_target. destruct (N.eqb_spec (bof i) 0); lia. Qed.
Definition cls_ok (n : anode) : Prop := k_cls (n_key n) < 65536.
Lemma te_cls n : In n (avtab_map_list (ap_te P)) -> cls_ok n.
Proof. apply HS. Qed.
Lemma cond_cls tl fl n : In (tl, fl) (ap_conds P) -> In n tl \/ In n fl -> cls_ok n.
Proof. intros H1 H2. destruct HS as (_ & _ & _ & H). exact (H tl fl n H1 H2). Qed.

Lemma raw_covers n t c p : cls_ok n -> t < 65535 -> c < 65536 -> N.testbit (k_spec (n_key n)) 0 = true -> (raw (bkey parent t c) p n <-> covers P n (parent - 1) t c p).
Proof.
  intros CL HT HC A. unfold raw, covers, bkey. rewrite (u16_small parent HB), (u16_small (t + 1)), (u16_small c HC), (u16_small _ CL) by lia. split.
  - intros (H1 & H2 & i & H3 & E). assert (L : i < 65535) by (destruct HS as (S1 & _); exact (S1 _ i H3)). rewrite u16_small in E by lia. injection E as E1 E2.
    assert (t = i) as -> by lia. auto 8.
  - intros (_ & E & H1 & H3 & H2). split; [exact H1|]. split; [exact H2|]. exists t. split; [exact H3|]. rewrite u16_small by lia. rewrite E. reflexivity.
Qed.

(** The permission is in the parent's unconditional rules, or in both branches of some conditional. *)
Definition always (t c p : N) : Prop :=
  (exists n, In n (avtab_map_list (ap_te P)) /\ covers P n (parent - 1) t c p) \/
  (exists tl fl, In (tl, fl) (ap_conds P) /\ (exists n, In n tl /\ covers P n (parent - 1) t c p) /\ (exists n, In n fl /\ covers P n (parent - 1) t c p)).

Lemma some_raw_covers l t c p : (forall n, In n l -> cls_ok n /\ (member (ap_attr P (k_src (n_key n))) (parent - 1) -> N.testbit (k_spec (n_key n)) 0 = true)) -> t < 65535 -> c < 65536 ->
  (some_raw l (bkey parent t c) p <-> exists n, In n l /\ covers P n (parent - 1) t c p).
Proof.
  intros H HT HC. unfold some_raw. split; intros (n & Hn & R); exists n; (split; [exact Hn|]); destruct (H n Hn) as [H1 H2]; [pose proof R as (MS & _)|pose proof R as (_ & _ & MS & _)]; apply (raw_covers n t c p H1 HT HC (H2 MS)); exact R.
Qed.
Lemma cond_ok tl fl : In (tl, fl) (ap_conds P) -> (forall n, In n tl -> cls_ok n /\ (member (ap_attr P (k_src (n_key n))) (parent - 1) -> N.testbit (k_spec (n_key n)) 0 = true)) /\
  (forall n, In n fl -> cls_ok n /\ (member (ap_attr P (k_src (n_key n))) (parent - 1) -> N.testbit (k_spec (n_key n)) 0 = true)).
Proof. intros H. split; intros n Hn; (split; [eapply cond_cls; [exact H|auto]|eapply HA; [exact H|auto]]). Qed.

Lemma always_raw t c p : t < 65535 -> c < 65536 ->
  (te_raw (avtab_map_list (ap_te P)) (bkey parent t c) p \/ both_raw (ap_conds P) (bkey parent t c) p <-> always t c p).
Proof.
  intros HT HC. unfold always. split; (intros [H|H]; [left|right]).
  - destruct H as (n & Hn & A & R). exists n. split; [exact Hn|]. apply (raw_covers n t c p (te_cls n Hn) HT HC A). exact R.
  - destruct H as (tl & fl & H1 & H2 & H3). exists tl, fl. destruct (cond_ok tl fl H1) as [OT OF]. split; [exact H1|]. split; [apply (some_raw_covers tl t c p OT HT HC)|apply (some_raw_covers fl t c p OF HT HC)]; assumption.
  - destruct H as (n & Hn & C). exists n. split; [exact Hn|]. pose proof C as [A _]. split; [exact A|]. apply (raw_covers n t c p (te_cls n Hn) HT HC A). exact C.
  - destruct H as (tl & fl & H1 & H2 & H3). exists tl, fl. destruct (cond_ok tl fl H1) as [OT OF]. split; [exact H1|]. split; [apply (some_raw_covers tl t c p OT HT HC)|apply (some_raw_covers fl t c p OF HT HC)]; assumption.
Qed.

(** What the checker establishes. *)
Definition covered_all : Prop :=
  (forall n t c p, In n (avtab_map_list (ap_te P)) -> covers P n (child - 1) t c p -> always (bound_target bof t) c p) /\
  (forall tl fl n t c p, In (tl, fl) (ap_conds P) ->
     (In n tl -> covers P n (child - 1) t c p -> (exists n', In n' tl /\ covers P n' (parent - 1) (bound_target bof t) c p) \/ always (bound_target bof t) c p) /\
     (In n fl -> covers P n (child - 1) t c p -> (exists n', In n' fl /\ covers P n' (parent - 1) (bound_target bof t) c p) \/ always (bound_target bof t) c p)).

Lemma type_checked : exists k, bounds_check_type P bof child parent = Some k /\ (k = 0 <-> covered_all).
Proof.
  unfold bounds_check_type. destruct parent_expand as (gl & ci & E & F & M & H). rewrite E. eexists. split; [reflexivity|]. unfold bounds_check_child_rules.
  assert (AE : forall a b : N, a + b = 0 <-> a = 0 /\ b = 0) by (intros; lia). rewrite AE, sum_zero, list_ok. unfold covered_all. split.
  - intros [H1 H2]. split.
    + intros n t c p Hn (A & <- & M1 & M2 & D). pose proof (te_cls n Hn) as CL. apply (always_raw _ _ p (target_small _ _ M2) CL). apply H; [reflexivity|].
      destruct (H1 n t p Hn A M1 M2 D) as [X|(g & Q & _)]; [exact X|discriminate].
    + intros tl fl n t c p HC. apply M in HC. apply in_map_iff in HC as (x & EX & Hx). specialize (H2 x Hx). rewrite AE, !list_ok in H2. rewrite EX in H2. cbn [fst snd] in H2. destruct H2 as [HT HF].
      rewrite Forall_forall in F. destruct (F x Hx) as [GT GF]. rewrite EX in GT, GF. cbn [fst snd] in GT, GF.
      assert (HC : In (tl, fl) (ap_conds P)) by (apply M; apply in_map_iff; exists x; auto). destruct (cond_ok tl fl HC) as [OT OF].
      split; intros Hn (A & <- & M1 & M2 & D); pose proof (target_small _ _ M2) as TS.
      * destruct (OT n Hn) as [CL _]. destruct (HT n t p Hn A M1 M2 D) as [X|(g & [= <-] & X)].
        -- left. apply (some_raw_covers tl _ _ p OT TS CL). apply GT; [reflexivity|exact X].
        -- right. apply (always_raw _ _ p TS CL). apply H; [reflexivity|exact X].
      * destruct (OF n Hn) as [CL _]. destruct (HF n t p Hn A M1 M2 D) as [X|(g & [= <-] & X)].
        -- left. apply (some_raw_covers fl _ _ p OF TS CL). apply GF; [reflexivity|exact X].
        -- right. apply (always_raw _ _ p TS CL). apply H; [reflexivity|exact X].
  - intros [H1 H2]. split.
    + intros n t p Hn A M1 M2 D. left. apply H; [reflexivity|]. apply (always_raw _ _ p (target_small _ _ M2) (te_cls n Hn)). apply (H1 n t _ p Hn). unfold covers. auto 8.
    + intros x Hx. assert (HC : In (ci_rules x) (ap_conds P)) by (apply M; apply in_map; exact Hx). destruct (ci_rules x) as [tl fl] eqn:EX. rewrite Forall_forall in F. destruct (F x Hx) as [GT GF]. rewrite EX in GT, GF. cbn [fst snd] in *.
      destruct (cond_ok tl fl HC) as [OT OF]. rewrite AE, !list_ok. split; intros n t p Hn A M1 M2 D; pose proof (target_small _ _ M2) as TS; destruct (H2 tl fl n t (k_cls (n_key n)) p HC) as [X1 X2].
      * destruct (OT n Hn) as [CL _]. destruct (X1 Hn) as [X|X]; [unfold covers; auto 8| |].
        -- left. apply GT; [reflexivity|]. apply (some_raw_covers tl _ _ p OT TS CL). exact X.
        -- right. exists gl. split; [reflexivity|]. apply H; [reflexivity|]. apply (always_raw _ _ p TS CL). exact X.
      * destruct (OF n Hn) as [CL _]. destruct (X2 Hn) as [X|X]; [unfold covers; auto 8| |].
        -- left. apply GF; [reflexivity|]. apply (some_raw_covers fl _ _ p OF TS CL). exact X.
        -- right. exists gl. split; [reflexivity|]. apply H; [reflexivity|]. apply (always_raw _ _ p TS CL). exact X.
Qed.

Lemma always_allowed choice t c p : length choice = length (ap_conds P) -> always t c p -> allowed P (in_force P choice) (parent - 1) t c p.
Proof.
  intros L [(n & Hn & C)|(tl & fl & HC & (n1 & H1 & C1) & (n2 & H2 & C2))].
  - exists n. split; [apply in_app_iff; left; exact Hn|exact C].
  - destruct (combine_choice (ap_conds P) choice (tl, fl) L HC) as (b & Hb). destruct b; [exists n1|exists n2]; (split; [apply in_app_iff; right; eapply in_chosen; [exact Hb|assumption]|assumption]).
Qed.

Definition coversb (n : anode) (s t c p : N) : bool :=
  N.testbit (k_spec (n_key n)) 0 && (k_cls (n_key n) =? c) && ebitmap_get_bit (ap_attr P (k_src (n_key n))) s &&
  ebitmap_get_bit (ap_attr P (k_tgt (n_key n))) t && N.testbit (d_data (n_datum n)) p.
Lemma coversb_iff n s t c p : coversb n s t c p = true <-> covers P n s t c p.
Proof. unfold coversb, covers. rewrite !andb_true_iff, N.eqb_eq, !get_bit_member by apply HP. tauto. Qed.
Lemma existsb_covers l s t c p : existsb (fun n => coversb n s t c p) l = true <-> exists n, In n l /\ covers P n s t c p.
Proof. rewrite existsb_exists. split; intros (n & Hn & H); exists n; (split; [exact Hn|apply coversb_iff; exact H]). Qed.

(** The branch where the parent lacks the permission, if there is one. *)
Definition worst (t c p : N) (cl : list anode * list anode) : bool := negb (existsb (fun n => coversb n (parent - 1) t c p) (fst cl)).
Lemma worst_always cs t c p : (forall x, In x cs -> In x (ap_conds P)) -> (exists n, In n (chosen cs (map (worst t c p) cs)) /\ covers P n (parent - 1) t c p) -> always t c p.
Proof.
  intros HI. induction cs as [|[tl fl] cs IH]; intros (n & Hn & C); [destruct Hn|]. cbn [map chosen] in Hn. apply in_app_iff in Hn as [Hn|Hn].
  - unfold worst in Hn. cbn [fst] in Hn. destruct (existsb (fun n => coversb n (parent - 1) t c p) tl) eqn:E; cbn [negb] in Hn.
    + right. exists tl, fl. split; [apply HI; left; reflexivity|]. split; [apply existsb_covers; exact E|exists n; auto].
    + exfalso. assert (X : existsb (fun n => coversb n (parent - 1) t c p) tl = true) by (apply existsb_covers; exists n; auto). congruence.
  - apply IH; [intros x Hx; apply HI; right; exact Hx|exists n; auto].
Qed.

Lemma chosen_app cs1 : forall ch1 cs2 ch2, length ch1 = length cs1 -> chosen (cs1 ++ cs2) (ch1 ++ ch2) = chosen cs1 ch1 ++ chosen cs2 ch2.
Proof.
  induction cs1 as [|[t f] cs1 IH]; intros ch1 cs2 ch2 L; destruct ch1 as [|b ch1]; cbn in L; try discriminate; [reflexivity|]. cbn [app chosen]. rewrite IH by lia. apply app_assoc.
Qed.

Lemma covered_within : covered_all <-> type_within P bof child parent.
Proof.
  unfold covered_all, type_within. split.
  - intros [H1 H2] choice L t c p (n & Hn & C). unfold in_force in Hn. apply in_app_iff in Hn as [Hn|Hn].
    + apply always_allowed; [exact L|]. eapply H1; eassumption.
    + apply chosen_in in Hn as (tl & fl & b & Hb & Hn). pose proof (in_combine_l _ _ _ _ Hb) as HC. destruct (H2 tl fl n t c p HC) as [X1 X2].
      assert (X : (exists n', In n' (if b then tl else fl) /\ covers P n' (parent - 1) (bound_target bof t) c p) \/ always (bound_target bof t) c p) by (destruct b; auto).
      destruct X as [(n' & Hn' & C')|X]; [|apply always_allowed; assumption]. exists n'. split; [apply in_app_iff; right; eapply in_chosen; eassumption|exact C'].
  - intros H. split.
    + intros n t c p Hn C. destruct (H (map (worst (bound_target bof t) c p) (ap_conds P)) (map_length _ _) t c p) as (n' & Hn' & C'); [exists n; split; [apply in_app_iff; left; exact Hn|exact C]|].
      unfold in_force in Hn'. apply in_app_iff in Hn' as [Hn'|Hn']; [left; exists n'; auto|]. apply (worst_always (ap_conds P)); [auto|exists n'; auto].
    + assert (G : forall tl fl n t c p b, In (tl, fl) (ap_conds P) -> In n (if b : bool then tl else fl) -> covers P n (child - 1) t c p ->
        (exists n', In n' (if b then tl else fl) /\ covers P n' (parent - 1) (bound_target bof t) c p) \/ always (bound_target bof t) c p).
      { intros tl fl n t c p b HC Hn C. destruct (in_split _ _ HC) as (cs1 & cs2 & E). set (w := worst (bound_target bof t) c p).
        destruct (H (map w cs1 ++ b :: map w cs2)) with (t := t) (c := c) (p := p) as (n' & Hn' & C').
        - rewrite E, !app_length. cbn [length]. rewrite !map_length. reflexivity.
        - exists n. split; [|exact C]. unfold in_force. apply in_app_iff. right. rewrite E, chosen_app by apply map_length. apply in_app_iff. right. cbn [chosen]. apply in_app_iff. left. exact Hn.
        - unfold in_force in Hn'. apply in_app_iff in Hn' as [Hn'|Hn']; [right; left; exists n'; auto|]. rewrite E, chosen_app in Hn' by apply map_length. cbn [chosen] in Hn'.
          apply in_app_iff in Hn' as [Hn'|Hn']; [right; apply (worst_always cs1); [intros x Hx; rewrite E; apply in_app_iff; auto|exists n'; auto]|].
          apply in_app_iff in Hn' as [Hn'|Hn']; [left; exists n'; auto|]. right. apply (worst_always cs2); [intros x Hx; rewrite E; apply in_app_iff; right; right; exact Hx|exists n'; auto]. }
      intros tl fl n t c p HC. split; intros Hn C; [apply (G tl fl n t c p true)|apply (G tl fl n t c p false)]; assumption.
Qed.

Lemma type_exact : exists k, bounds_check_type P bof child parent = Some k /\ (k = 0 <-> type_within P bof child parent).
Proof. destruct type_checked as (k & E & H). exists k. split; [exact E|]. rewrite H. apply covered_within. Qed.
End Policy.

(** ** Names *)
Lemma dot_none s : before_last_dot s = None <-> ~ In 46 s.
Proof.
  induction s as [|c s IH]; cbn [before_last_dot In]; [tauto|]. destruct (before_last_dot s) as [p|].
  - split; [discriminate|]. intros H. exfalso. assert (X : ~ In 46 s) by tauto. apply IH in X. discriminate.
  - destruct (N.eqb_spec c 46) as [->|NE]; [split; [discriminate|tauto]|]. split; [intros _ [H|H]; [congruence|revert H; apply IH; reflexivity]|reflexivity].
Qed.
Lemma dot_some s : forall p, before_last_dot s = Some p <-> parent_name s p.
Proof.
  induction s as [|c s IH]; intros p; cbn [before_last_dot]; unfold parent_name in *.
  - split; [discriminate|]. intros (q & E & _). destruct p; discriminate.
  - destruct (before_last_dot s) as [p'|] eqn:B.
    + destruct (proj1 (IH p') eq_refl) as (q & E & NI). split.
      * intros [= <-]. exists q. rewrite E. auto.
      * intros (q' & E' & NI'). destruct p as [|x p]; cbn [app] in E'; injection E' as E1 E2.
        -- exfalso. subst c. apply NI'. rewrite <- E2, E. apply in_app_iff. right. left. reflexivity.
        -- subst x. assert (X : Some p' = Some p) by (apply IH; exists q'; auto). injection X as ->. reflexivity.
    + apply dot_none in B. destruct (N.eqb_spec c 46) as [->|NE].
      * split; [intros [= <-]; exists s; auto|]. intros (q' & E' & NI'). destruct p as [|x p]; [reflexivity|]. exfalso. cbn [app] in E'. injection E' as E1 E2. apply B. rewrite E2. apply in_app_iff. right. left. reflexivity.
      * split; [discriminate|]. intros (q' & E' & NI'). exfalso. destruct p as [|x p]; cbn [app] in E'; injection E' as E1 E2; [congruence|]. apply B. rewrite E2. apply in_app_iff. right. left. reflexivity.
Qed.
Lemma name_eqb_eq a : forall b, name_eqb a b = true <-> a = b.
Proof.
  induction a as [|x a IH]; intros [|y b]; cbn [name_eqb]; [tauto|split; discriminate..|]. rewrite andb_true_iff, N.eqb_eq, IH. split; [intros [-> ->]; reflexivity|intros [= -> ->]; auto].
Qed.

Lemma same_hkey l (a b : hentry) : NoDup (map h_key l) -> In a l -> In b l -> h_key a = h_key b -> a = b.
Proof.
  induction l as [|x l IH]; intros ND Ha Hb E; [destruct Ha|]. cbn [map] in ND. inversion ND as [|? ? N1 N2]; subst.
  destruct Ha as [->|Ha], Hb as [->|Hb]; [reflexivity| | |auto]; exfalso; apply N1.
  - rewrite E. apply in_map. exact Hb.
  - rewrite <- E. apply in_map. exact Ha.
Qed.

Section Tab.
Context (T : htab) (HU : unique_names T).

Lemma final_fun e a b : final_bound T e a -> final_bound T e b -> a = b.
Proof.
  assert (PF : forall n p q, parent_name n p -> parent_name n q -> p = q).
  { intros n p q H1 H2. apply dot_some in H1, H2. congruence. }
  assert (PD : forall n p, parent_name n p -> In 46 n). { intros n p (q & -> & _). apply in_app_iff. right. left. reflexivity. }
  intros H1 H2. destruct H1 as [Z1|Z1 D1|x Z1 I1 Q1|p Z1 Q1 A1], H2 as [Z2|Z2 D2|y Z2 I2 Q2|q Z2 Q2 A2]; try contradiction; try reflexivity; try (exfalso; eauto; fail).
  - assert (x = y) as -> by (apply (same_hkey (ht_list T)); [exact HU|exact I1|exact I2|exact (PF _ _ _ Q1 Q2)]). reflexivity.
  - exfalso. apply (A2 x I1). exact (PF _ _ _ Q1 Q2).
  - exfalso. apply (A1 y I2). exact (PF _ _ _ Q2 Q1).
Qed.
Lemma add_final e : final_bound T e (if snd (add_bounds T e) then None else Some (h_bounds (fst (add_bounds T e)))).
Proof.
  unfold add_bounds. destruct (N.eqb_spec (h_bounds e) 0) as [Z|Z]; [|apply fb_declared; exact Z].
  destruct (before_last_dot (ht_name T (h_val e - 1))) as [p|] eqn:B.
  - apply dot_some in B. destruct (find (fun x => name_eqb (h_key x) p) (ht_list T)) as [x|] eqn:F.
    + apply find_some in F as [F1 F2]. apply name_eqb_eq in F2. cbn [snd fst h_bounds]. apply fb_parent; [exact Z|exact F1|]. rewrite F2. exact B.
    + cbn [snd]. eapply fb_orphan; [exact Z|exact B|]. intros x Hx E. pose proof (find_none _ _ F x Hx) as X. cbn in X. rewrite (proj2 (name_eqb_eq _ _) E) in X. discriminate.
  - cbn [snd fst]. rewrite Z. apply fb_root; [exact Z|apply dot_none; exact B].
Qed.
Lemma orphan_iff : snd (add_all T) = false <-> no_orphan T.
Proof.
  unfold add_all, no_orphan. cbn [snd]. rewrite existsb_false. split; intros H e He.
  - intros X. pose proof (add_final e) as A. rewrite (H e He) in A. pose proof (final_fun _ _ _ X A). discriminate.
  - pose proof (add_final e) as A. destruct (snd (add_bounds T e)); [destruct (H e He A)|reflexivity].
Qed.
Lemma add_val e : h_val (fst (add_bounds T e)) = h_val e.
Proof.
  unfold add_bounds. destruct (h_bounds e =? 0); [|reflexivity]. destruct (before_last_dot _) as [p|]; [|reflexivity]. destruct (find _ _); reflexivity.
Qed.
Lemma added_final e : no_orphan T -> In e (ht_list T) -> forall b, final_bound T e (Some b) <-> b = h_bounds (fst (add_bounds T e)).
Proof.
  intros NO He b. pose proof (add_final e) as A. destruct (snd (add_bounds T e)) eqn:O; [destruct (NO e He A)|]. split; [intros X|intros ->; exact A].
  pose proof (final_fun _ _ _ X A) as Q. injection Q as ->. reflexivity.
Qed.
Lemma bounds_of_struct : no_orphan T -> forall i b, struct_bound T i b <-> b = bounds_of (fst (add_all T)) i.
Proof.
  intros NO i b. unfold struct_bound, bounds_of, add_all. cbn [fst ht_struct ht_list]. destruct (ht_struct T i) as [j|]; [|tauto]. rewrite nth_error_map.
  destruct (nth_error (ht_list T) j) as [e|] eqn:E; cbn [option_map]; [|tauto]. apply added_final; [exact NO|]. eapply nth_error_In. exact E.
Qed.

Lemma in_enum {A} (l : list A) : forall s j e, In (j, e) (combine (seq s (length l)) l) <-> (s <= j)%nat /\ nth_error l (j - s) = Some e.
Proof.
  induction l as [|x l IH]; intros s j e; cbn [length seq combine In].
  - split; [tauto|]. intros [_ H]. destruct (j - s)%nat; discriminate.
  - rewrite IH. split.
    + intros [[= <- <-]|[L H]]; [split; [lia|rewrite Nat.sub_diag; reflexivity]|]. split; [lia|]. replace (j - s)%nat with (Datatypes.S (j - Datatypes.S s)) by lia. exact H.
    + intros [L H]. destruct (j - s)%nat as [|m] eqn:Q; cbn [nth_error] in H; [left; injection H as ->; f_equal; lia|]. right. split; [lia|]. replace (j - Datatypes.S s)%nat with m by lia. exact H.
Qed.

Lemma sets_exact sets : (forall j, valid (sets j)) -> no_orphan T -> (check_sets (fst (add_all T)) sets = true <-> sets_within T sets).
Proof.
  intros V NO. unfold check_sets, sets_within. rewrite forallb_forall. cbn [fst add_all ht_list ht_struct]. split.
  - intros H j jp e b E F NZ SJ x Hx. assert (IE : In e (ht_list T)) by (eapply nth_error_In; exact E). pose proof (proj1 (added_final e NO IE b) F) as ->.
    specialize (H (j, fst (add_bounds T e))). cbn beta iota in H. destruct (N.eqb_spec (h_bounds (fst (add_bounds T e))) 0) as [Q|_]; [contradiction|]. rewrite SJ in H.
    assert (C : ebitmap_contains (sets jp) (sets j) = true).
    { apply H. apply in_enum. split; [lia|]. rewrite Nat.sub_0_r, nth_error_map, E. reflexivity. }
    pose proof (contains_spec (sets jp) (sets j) (V jp) (V j)) as CS. apply nget_member; [apply V|]. apply (proj1 CS C). apply nget_member; [apply V|exact Hx].
  - intros H [j e'] HI. apply in_enum in HI as [_ HI]. rewrite Nat.sub_0_r, nth_error_map in HI. destruct (nth_error (ht_list T) j) as [e|] eqn:E; [|discriminate]. cbn [option_map] in HI. injection HI as <-.
    assert (IE : In e (ht_list T)) by (eapply nth_error_In; exact E).
    destruct (N.eqb_spec (h_bounds (fst (add_bounds T e))) 0) as [Q|NZ]; [reflexivity|]. destruct (ht_struct T (h_bounds (fst (add_bounds T e)) - 1)) as [jp|] eqn:SJ; [|reflexivity].
    apply contains_spec; [apply V..|]. intros x Hx. apply nget_member; [apply V|]. eapply (H j jp e); [exact E|apply (added_final e NO IE); reflexivity|exact NZ|exact SJ|]. apply nget_member; [apply V|exact Hx].
Qed.
End Tab.

Lemma types_exact P bof : sets_ok P -> small_types P bof -> forall l, (forall e, In e l -> h_bounds e <> 0 -> h_bounds e < 65536 /\ allow_only P (h_bounds e)) ->
  exists k, check_types P bof l = Some k /\ (k = 0 <-> forall e, In e l -> h_bounds e <> 0 -> type_within P bof (h_val e) (h_bounds e)).
Proof.
  intros HP HS. induction l as [|e l IH]; intros HB; cbn [check_types].
  - exists 0. split; [reflexivity|]. split; [intros _ e []|reflexivity].
  - destruct IH as (k & E & H); [intros x Hx; apply HB; right; exact Hx|]. destruct (N.eqb_spec (h_bounds e) 0) as [Z|NZ].
    + exists k. split; [exact E|]. rewrite H. split; [intros X y [<-|Hy] NZ; [contradiction|auto]|intros X y Hy NZ; apply X; [right; exact Hy|exact NZ]].
    + destruct (type_exact P HP (h_bounds e) bof (h_val e) HS (proj1 (HB e (or_introl eq_refl) NZ)) (proj2 (HB e (or_introl eq_refl) NZ))) as (m & E2 & H2). rewrite E2, E. exists (m + k). split; [reflexivity|].
      assert (AE : m + k = 0 <-> m = 0 /\ k = 0) by lia. rewrite AE, H, H2. split.
      * intros [X1 X2] y [<-|Hy] NZ'; auto.
      * intros X. split; [apply X; [left; reflexivity|exact NZ]|intros y Hy NZ'; apply X; [right; exact Hy|exact NZ']].
Qed.

Lemma types_total P bof : sets_ok P -> forall l, exists k, check_types P bof l = Some k.
Proof.
  intros HP. induction l as [|e l (k & IH)]; cbn [check_types]; [eexists; reflexivity|]. destruct (h_bounds e =? 0); [eexists; exact IH|].
  unfold bounds_check_type. destruct (parent_expand P HP (h_bounds e)) as (gl & ci & E & _). rewrite E, IH. eexists. reflexivity.
Qed.

Lemma hier_eq P T R U rs us : unique_names T -> unique_names R -> unique_names U -> no_orphan T -> no_orphan R -> no_orphan U ->
  hierarchy_check P T R U rs us = match check_types P (bounds_of (fst (add_all T))) (ht_list (fst (add_all T))) with
    | None => HError | Some k => if check_sets (fst (add_all U)) us && check_sets (fst (add_all R)) rs && (k =? 0) then HOk else HViolation end.
Proof.
  intros NT NR NU OT OR OU. unfold hierarchy_check. apply orphan_iff in OT; [|exact NT]. apply orphan_iff in OR; [|exact NR]. apply orphan_iff in OU; [|exact NU].
  destruct (add_all U) as [U' ou], (add_all R) as [R' oR], (add_all T) as [T' ot]. cbn [snd fst] in *. rewrite OT, OR, OU. reflexivity.
Qed.

Lemma hier_exact P T R U rs us bof : sets_ok P -> small_types P bof ->
  unique_names T -> unique_names R -> unique_names U -> no_orphan T -> no_orphan R -> no_orphan U ->
  (forall j, valid (rs j)) -> (forall j, valid (us j)) ->
  (forall e b, In e (ht_list T) -> final_bound T e (Some b) -> b <> 0 -> b < 65536 /\ allow_only P b) -> (forall i, struct_bound T i (bof i)) ->
  hierarchy_check P T R U rs us = (if match check_types P bof (ht_list (fst (add_all T))) with Some k => k =? 0 | None => false end && check_sets (fst (add_all U)) us && check_sets (fst (add_all R)) rs then HOk else HViolation) /\
  (hierarchy_check P T R U rs us = HOk <->
    sets_within U us /\ sets_within R rs /\ forall e b, In e (ht_list T) -> final_bound T e (Some b) -> b <> 0 -> type_within P bof (h_val e) b).
Proof.
  intros HP HS NT NR NU OT OR OU VR VU HB SB. rewrite hier_eq by assumption.
  assert (EQ : forall l, check_types P (bounds_of (fst (add_all T))) l = check_types P bof l).
  { assert (EB : forall i, bounds_of (fst (add_all T)) i = bof i) by (intros i; symmetry; apply bounds_of_struct; auto).
    induction l as [|e l IH]; cbn [check_types]; [reflexivity|]. rewrite IH. destruct (h_bounds e =? 0); [reflexivity|].
    assert (EC : bounds_check_type P (bounds_of (fst (add_all T))) (h_val e) (h_bounds e) = bounds_check_type P bof (h_val e) (h_bounds e)); [|rewrite EC; reflexivity].
    assert (BR : forall gl cur n, bounds_check_rule P (bounds_of (fst (add_all T))) gl cur (h_val e) (h_bounds e) n = bounds_check_rule P bof gl cur (h_val e) (h_bounds e) n).
    { intros gl cur n. unfold bounds_check_rule. destruct (ebitmap_get_bit _ _); [|reflexivity]. f_equal. apply map_ext. intros i. rewrite EB. reflexivity. }
    assert (BL : forall gl cur l, check_list P (bounds_of (fst (add_all T))) gl cur (h_val e) (h_bounds e) l = check_list P bof gl cur (h_val e) (h_bounds e) l).
    { intros gl cur l0. unfold check_list. f_equal. apply map_ext. intros n. rewrite BR. reflexivity. }
    unfold bounds_check_type. destruct (bounds_expand_parent_rules P (h_bounds e)) as [[gl ci]|]; [|reflexivity]. f_equal. unfold bounds_check_child_rules. rewrite BL. f_equal. f_equal.
    apply map_ext. intros c. rewrite !BL. reflexivity. }
  rewrite EQ. destruct (types_exact P bof HP HS (ht_list (fst (add_all T)))) as (k & E & H).
  { intros e He NZ. cbn [fst add_all ht_list] in He. apply in_map_iff in He as (x & <- & Hx). apply (HB x); [exact Hx| |exact NZ]. apply added_final; auto. }
  rewrite E. split; [destruct (check_sets (fst (add_all U)) us), (check_sets (fst (add_all R)) rs), (k =? 0); reflexivity|].
  rewrite <- (sets_exact U NU us VU OU), <- (sets_exact R NR rs VR OR).
  assert (HT : k = 0 <-> forall e b, In e (ht_list T) -> final_bound T e (Some b) -> b <> 0 -> type_within P bof (h_val e) b).
  { rewrite H. cbn [fst add_all ht_list]. split.
    - intros X e b He F NZ. apply (added_final T NT e OT He) in F. rewrite F in NZ |- *. rewrite <- (add_val T e). apply X; [apply in_map_iff; exists e; auto|exact NZ].
    - intros X e' He' NZ. apply in_map_iff in He' as (e & <- & He). rewrite add_val. apply X; [exact He|apply (added_final T NT e OT He); reflexivity|exact NZ]. }
  rewrite <- HT. destruct (check_sets (fst (add_all U)) us), (check_sets (fst (add_all R)) rs), (N.eqb_spec k 0); cbn [andb]; split; try discriminate; try tauto; intros (A & B & C); discriminate || contradiction.
Qed.

Lemma hier_orphan P T R U rs us : unique_names T -> unique_names R -> unique_names U -> ~ (no_orphan T /\ no_orphan R /\ no_orphan U) -> hierarchy_check P T R U rs us = HViolation.
Proof.
  intros NT NR NU H. unfold hierarchy_check. rewrite <- !orphan_iff in H by assumption. destruct (add_all U) as [U' ou], (add_all R) as [R' oR], (add_all T) as [T' ot]. cbn [snd] in H.
  destruct ou, oR, ot; cbn [orb]; try reflexivity. destruct H. auto.
Qed.
