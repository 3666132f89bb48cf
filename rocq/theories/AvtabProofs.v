(** Proofs about the access vector table. *)
From Coq Require Import Permutation Sorted.
From Verif Require Import Base AvtabModel AvtabSpec.

Definition le3 (a b : anode) : Prop := before3 (n_key b) (n_key a) = false.

Lemma le3_trans a b c : le3 a b -> le3 b c -> le3 a c.
Proof. unfold le3, before3. lia. Qed.

(** Well-formed table. *)
Definition wf_chain (mask : N) (i : nat) (c : list anode) : Prop :=
  StronglySorted le3 c /\ Forall (fun n => N.to_nat (avtab_hash (n_key n) mask) = i) c.
Definition wf (h : avtab) : Prop :=
  match a_htable h with
  | None => True
  | Some ht => length ht = N.to_nat (a_mask h + 1) /\
      forall i c, nth_error ht i = Some c -> wf_chain (a_mask h) i c
  end.

Lemma hit_matches k n : hit (spec_bits (k_spec k)) k n = entry_matches k n.
Proof. reflexivity. Qed.

Lemma land_le m a : N.land a m <= m.
Proof.
  destruct (N.eq_dec (N.land a m) 0) as [->|H]; [lia|].
  assert (E : N.ldiff (N.land a m) m = 0).
  { apply N.bits_inj. intro i. rewrite N.ldiff_spec, N.land_spec, N.bits_0. destruct (N.testbit a i), (N.testbit m i); reflexivity. }
  apply N.ldiff_le in E. exact E.
Qed.

Lemma hash_le k m : avtab_hash k m <= m.
Proof. unfold avtab_hash. apply land_le. Qed.

Lemma hash_spec_irrel k k' m : same3 k k' = true -> avtab_hash k m = avtab_hash k' m.
Proof.
  unfold same3. intros H. unfold avtab_hash. replace (k_src k') with (k_src k) by lia.
  replace (k_tgt k') with (k_tgt k) by lia. replace (k_cls k') with (k_cls k) by lia. reflexivity.
Qed.

Lemma set_nth_nth {A} (l : list A) : forall i v j, (i < length l)%nat ->
  nth_error (set_nth i v l) j = if Nat.eqb i j then Some v else nth_error l j.
Proof.
  induction l as [|x l IH]; intros i v j Hi; cbn [length] in Hi; [lia|].
  destruct i as [|i], j as [|j]; cbn [set_nth nth_error Nat.eqb]; try reflexivity.
  apply IH. lia.
Qed.

Lemma set_nth_length {A} (l : list A) : forall i v, length (set_nth i v l) = length l.
Proof. induction l as [|x l IH]; intros [|i] v; cbn [set_nth length]; try reflexivity. rewrite IH. reflexivity. Qed.

Lemma nth_nth_error {A} (l : list A) i d : (i < length l)%nat -> nth_error l i = Some (nth i l d).
Proof. revert i. induction l as [|x l IH]; intros [|i] H; cbn in *; try lia; [reflexivity|]. apply IH. lia. Qed.

Lemma new_node_stored k d : new_node k d = stored k d.
Proof.
  unfold new_node, stored, is_xperm_key. change AVTAB_XPERMS with 1792. destruct d as [w [x|]];
  destruct (negb _); reflexivity.
Qed.
Lemma new_node_key k d : n_key (new_node k d) = k.
Proof. unfold new_node. destruct (negb _); reflexivity. Qed.
Lemma stored_key k d : n_key (stored k d) = k.
Proof. rewrite <- new_node_stored. apply new_node_key. Qed.

Lemma forall_before k cur t : Forall (le3 cur) t -> before3 k (n_key cur) = true ->
  Forall (fun n => before3 k (n_key n) = true) t.
Proof.
  intros H Hb. eapply Forall_impl; [|exact H]. unfold le3, before3 in *. intros n Hn. lia.
Qed.

Lemma before_nohit sp k n : before3 k (n_key n) = true -> hit sp k n = false.
Proof. unfold hit, before3, same3. intros H. apply andb_false_iff. left. lia. Qed.

(** *** insertion in a chain *)
Lemma chain_insert_spec uniq sp k n c : n_key n = k -> StronglySorted le3 c ->
  match chain_insert uniq sp k n c with
  | None => uniq = true /\ N.land sp AVTAB_XPERMS = 0 /\ existsb (hit sp k) c = true
  | Some c' => Permutation c' (n :: c) /\ StronglySorted le3 c' /\
      (uniq = true -> N.land sp AVTAB_XPERMS = 0 -> existsb (hit sp k) c = false)
  end.
Proof.
  intros Hk. induction c as [|cur t IH]; intros Hs; cbn [chain_insert].
  - split; [apply Permutation_refl|]. split; [repeat constructor|reflexivity].
  - inversion Hs as [|? ? Hst Hcur]; subst. destruct (hit sp (n_key n) cur) eqn:Eh.
    + destruct (uniq && (N.land sp AVTAB_XPERMS =? 0)) eqn:Eu.
      * apply andb_prop in Eu as [E1 E2]. apply N.eqb_eq in E2. split; [exact E1|]. split; [exact E2|].
        cbn [existsb]. rewrite Eh. reflexivity.
      * split; [apply Permutation_refl|]. split.
        { apply SSorted_cons; [exact Hs|]. assert (L : le3 n cur).
          { unfold hit, same3 in Eh. unfold le3, before3. lia. }
          constructor; [exact L|]. eapply Forall_impl; [|exact Hcur]. intros x Hx. exact (le3_trans _ _ _ L Hx). }
        intros -> E. rewrite E in Eu. discriminate.
    + destruct (before3 (n_key n) (n_key cur)) eqn:Eb.
      * split; [apply Permutation_refl|]. split.
        { apply SSorted_cons; [exact Hs|]. assert (L : le3 n cur) by (unfold le3, before3 in *; lia).
          constructor; [exact L|]. eapply Forall_impl; [|exact Hcur]. intros x Hx. exact (le3_trans _ _ _ L Hx). }
        intros _ _. cbn [existsb]. rewrite Eh. cbn [orb].
        pose proof (forall_before _ _ _ Hcur Eb) as Hall. clear -Hall.
        induction Hall as [|x l Hx Hl IHl]; [reflexivity|]. cbn [existsb]. rewrite (before_nohit _ _ _ Hx). exact IHl.
      * specialize (IH Hst). destruct (chain_insert uniq sp (n_key n) n t) as [t'|].
        -- destruct IH as (P & S & U). split; [|split].
           ++ eapply perm_trans; [apply perm_skip; exact P|apply perm_swap].
           ++ apply SSorted_cons; [exact S|]. rewrite Forall_forall. intros x Hx.
              apply (Permutation_in _ P) in Hx. destruct Hx as [<-|Hx]; [exact Eb|].
              rewrite Forall_forall in Hcur. apply Hcur. exact Hx.
           ++ intros E1 E2. cbn [existsb]. rewrite Eh. exact (U E1 E2).
        -- destruct IH as (E1 & E2 & E3). split; [exact E1|]. split; [exact E2|]. cbn [existsb]. rewrite E3. apply orb_true_r.
Qed.

(** *** search *)
Lemma chain_find_suffix sp k c : StronglySorted le3 c ->
  filter (hit sp k) c = filter (hit sp k) (chain_find sp k c) /\
  StronglySorted le3 (chain_find sp k c) /\ (length (chain_find sp k c) <= length c)%nat /\
  match chain_find sp k c with [] => True | n :: _ => hit sp k n = true end.
Proof.
  induction c as [|cur t IH]; intros Hs; cbn [chain_find].
  - repeat split; constructor.
  - inversion Hs as [|? ? Hst Hcur]; subst. destruct (hit sp k cur) eqn:Eh.
    + split; [reflexivity|]. split; [exact Hs|]. split; [lia|exact Eh].
    + destruct (before3 k (n_key cur)) eqn:Eb.
      * cbn [filter]. rewrite Eh. split; [|repeat split; [constructor|cbn [length]; lia]].
        pose proof (forall_before _ _ _ Hcur Eb) as Hall. clear -Hall.
        induction Hall as [|x l Hx Hl IHl]; [reflexivity|]. cbn [filter]. rewrite (before_nohit _ _ _ Hx). exact IHl.
      * destruct (IH Hst) as (A & B & C & D). cbn [filter length]. rewrite Eh. repeat split; try assumption. lia.
Qed.

Lemma hit_key sp k n m : hit sp k n = true -> hit sp (n_key n) m = hit sp k m.
Proof.
  unfold hit, same3. intros H. apply andb_prop in H as [H _].
  replace (k_src (n_key n)) with (k_src k) by lia. replace (k_tgt (n_key n)) with (k_tgt k) by lia.
  replace (k_cls (n_key n)) with (k_cls k) by lia. reflexivity.
Qed.

Lemma node_loop_filter spec k f : forall c, StronglySorted le3 c -> (length c <= f)%nat ->
  match c with [] => True | n :: _ => hit (spec_bits spec) k n = true end ->
  node_loop f c spec = filter (hit (spec_bits spec) k) c.
Proof.
  induction f as [|f IH]; intros c Hs Hf Hc.
  - destruct c; [reflexivity|cbn [length] in Hf; lia].
  - destruct c as [|n t]; [reflexivity|]. cbn [node_loop filter]. rewrite Hc. f_equal.
    cbn [avtab_search_node_next]. inversion Hs as [|? ? Hst Hn]; subst. cbn [length] in Hf.
    destruct (chain_find_suffix (spec_bits spec) (n_key n) t Hst) as (A & B & C & D).
    rewrite IH; [|exact B|lia|].
    + rewrite <- (filter_ext _ _ (fun m => hit_key (spec_bits spec) k n m Hc)), <- A.
      apply filter_ext. intro m. apply hit_key. exact Hc.
    + destruct (chain_find _ _ t); [exact I|]. rewrite <- (hit_key _ _ _ _ Hc). exact D.
Qed.

(** The chain holding a key, as a filter of the whole table. *)
Lemma filter_concat {A} (f : A -> bool) (l : list (list A)) : filter f (concat l) = concat (map (filter f) l).
Proof. induction l as [|x l IH]; [reflexivity|]. cbn. rewrite filter_app, IH. reflexivity. Qed.

Lemma filter_none {A} (f : A -> bool) l : (forall x, In x l -> f x = false) -> filter f l = [].
Proof.
  induction l as [|x l IH]; intros H; [reflexivity|]. cbn. rewrite (H x (or_introl eq_refl)).
  apply IH. intros y Hy. apply H. right. exact Hy.
Qed.

Lemma concat_single {A} (f : A -> bool) : forall (l : list (list A)) i, 
  (forall j c, nth_error l j = Some c -> j <> i -> filter f c = []) ->
  concat (map (filter f) l) = filter f (nth i l []).
Proof.
  induction l as [|x l IH]; intros i H; [destruct i; reflexivity|].
  destruct i as [|i]; cbn [map concat nth].
  - assert (E : concat (map (filter f) l) = []).
    { assert (Hall : forall c, In c l -> filter f c = []).
      { intros c Hc. apply In_nth_error in Hc as [j Hj]. apply (H (S j)); [exact Hj|discriminate]. }
      clear -Hall. induction l as [|c l IH]; [reflexivity|]. cbn. rewrite (Hall c (or_introl eq_refl)).
      apply IH. intros. apply Hall. right. assumption. }
    rewrite E, app_nil_r. reflexivity.
  - rewrite (H O x eq_refl) by discriminate. cbn [app]. apply IH. intros j c Hj Hne. apply (H (S j)); [exact Hj|lia].
Qed.

Lemma slot_filter h k : wf h ->
  match a_htable h with
  | None => True
  | Some ht => filter (hit (spec_bits (k_spec k)) k) (concat ht) =
      filter (hit (spec_bits (k_spec k)) k) (nth (N.to_nat (avtab_hash k (a_mask h))) ht [])
  end.
Proof.
  unfold wf. destruct (a_htable h) as [ht|]; [|trivial]. intros [Hl Hw].
  rewrite filter_concat. apply concat_single. intros j c Hj Hne. apply filter_none. intros n Hn.
  destruct (hit _ k n) eqn:E; [|reflexivity]. exfalso. apply Hne.
  destruct (Hw j c Hj) as [_ Hf]. rewrite Forall_forall in Hf. rewrite <- (Hf n Hn). f_equal.
  symmetry. apply hash_spec_irrel. unfold hit in E. apply andb_prop in E. apply E.
Qed.

Lemma wf_chain_sorted h ht k : wf h -> a_htable h = Some ht ->
  StronglySorted le3 (nth (N.to_nat (avtab_hash k (a_mask h))) ht []).
Proof.
  unfold wf. intros H E. rewrite E in H. destruct H as [Hl Hw].
  destruct (Hw (N.to_nat (avtab_hash k (a_mask h))) (nth (N.to_nat (avtab_hash k (a_mask h))) ht [])) as [S _]; [|exact S].
  apply nth_nth_error. pose proof (hash_le k (a_mask h)). lia.
Qed.

Lemma nodes_for_spec h k : wf h ->
  avtab_nodes_for h k = filter (entry_matches k) (avtab_map_list h).
Proof.
  intros Hw. unfold avtab_nodes_for, avtab_search_node, avtab_map_list.
  pose proof (slot_filter h k Hw) as Hf. destruct (a_htable h) as [ht|] eqn:E; [|reflexivity].
  pose proof (wf_chain_sorted h ht k Hw E) as Hs.
  destruct (chain_find_suffix (spec_bits (k_spec k)) k _ Hs) as (A & B & C & D).
  rewrite (node_loop_filter (k_spec k) k _ _ B (le_n _) D), <- A.
  transitivity (filter (hit (spec_bits (k_spec k)) k) (concat ht)); [symmetry; exact Hf|].
  apply filter_ext. intro n. apply hit_matches.
Qed.

Lemma search_spec h k : wf h ->
  match avtab_search h k with
  | None => forall n, In n (avtab_map_list h) -> entry_matches k n = false
  | Some d => exists n, In n (avtab_map_list h) /\ entry_matches k n = true /\ d = n_datum n
  end.
Proof.
  intros Hw. pose proof (nodes_for_spec h k Hw) as Hn. unfold avtab_search. unfold avtab_nodes_for in Hn.
  destruct (avtab_search_node h k) as [|n t].
  - cbn in Hn. intros x Hx. destruct (entry_matches k x) eqn:E; [|reflexivity].
    assert (In x []) as []. rewrite Hn. apply filter_In. auto.
  - cbn [length node_loop] in Hn. exists n.
    assert (Hin : In n (filter (entry_matches k) (avtab_map_list h))) by (rewrite <- Hn; left; reflexivity).
    apply filter_In in Hin as [H1 H2]. auto.
Qed.

(** *** insertion *)
Lemma perm_set_nth {A} (l : list (list A)) : forall i c c' n, nth_error l i = Some c -> Permutation c' (n :: c) ->
  Permutation (concat (set_nth i c' l)) (n :: concat l).
Proof.
  induction l as [|x l IH]; intros [|i] c c' n Hc P; cbn [nth_error] in Hc; try discriminate; cbn [set_nth concat].
  - injection Hc as ->. change (n :: c ++ concat l) with ((n :: c) ++ concat l). apply Permutation_app_tail. exact P.
  - eapply perm_trans; [apply Permutation_app_head; apply (IH _ _ _ _ Hc P)|]. apply Permutation_sym. apply Permutation_middle.
Qed.

Lemma existsb_filter {A} (f : A -> bool) l : existsb f l = negb (match filter f l with [] => true | _ => false end).
Proof. induction l as [|x l IH]; [reflexivity|]. cbn. destruct (f x); [reflexivity|exact IH]. Qed.

Lemma xkey_bits k : (N.land (spec_bits (k_spec k)) AVTAB_XPERMS =? 0) = negb (is_xperm_key k).
Proof.
  unfold is_xperm_key, spec_bits. rewrite <- N.land_assoc. change (N.land 32767 AVTAB_XPERMS) with 1792.
  rewrite negb_involutive. reflexivity.
Qed.

Lemma insert_spec uniq h k d : wf h -> a_htable h <> None ->
  match avtab_insert_gen uniq h k d with
  | InsNoMem => False
  | InsExists => uniq = true /\ is_xperm_key k = false /\ existsb (entry_matches k) (avtab_map_list h) = true
  | InsOk h' => wf h' /\ a_htable h' <> None /\
      Permutation (avtab_map_list h') (stored k d :: avtab_map_list h) /\
      a_nel h' = wrap32 (a_nel h + 1) /\
      (uniq = true -> is_xperm_key k = false -> existsb (entry_matches k) (avtab_map_list h) = false)
  end.
Proof.
  intros Hw Hne. pose proof (slot_filter h k Hw) as Hf. unfold avtab_insert_gen, avtab_map_list. rewrite <- new_node_stored.
  destruct (a_htable h) as [ht|] eqn:E; [|congruence].
  pose proof (wf_chain_sorted h ht k Hw E) as Hs.
  pose proof (chain_insert_spec uniq (spec_bits (k_spec k)) k (new_node k d) _ (new_node_key k d) Hs) as HI.
  assert (Hi : (N.to_nat (avtab_hash k (a_mask h)) < length ht)%nat).
  { unfold wf in Hw. rewrite E in Hw. destruct Hw as [Hl _]. pose proof (hash_le k (a_mask h)). lia. }
  assert (Hex : existsb (entry_matches k) (concat ht) =
                existsb (hit (spec_bits (k_spec k)) k) (nth (N.to_nat (avtab_hash k (a_mask h))) ht [])).
  { rewrite !existsb_filter. rewrite <- Hf. reflexivity. }
  pose proof (xkey_bits k) as Hx.
  destruct (chain_insert uniq _ k _ _) as [c'|].
  - destruct HI as (P & S & U). cbn [a_htable a_nel a_mask]. split; [|split; [discriminate|split; [|split; [reflexivity|]]]].
    + unfold wf in *. rewrite E in Hw. cbn [a_htable a_mask]. destruct Hw as [Hl Hw]. rewrite set_nth_length.
      split; [exact Hl|]. intros i c Hc. rewrite (set_nth_nth ht _ _ _ Hi) in Hc.
      destruct (Nat.eqb_spec (N.to_nat (avtab_hash k (a_mask h))) i) as [<-|Hd]; [|exact (Hw i c Hc)].
      injection Hc as <-. split; [exact S|]. rewrite Forall_forall. intros n Hn.
      apply (Permutation_in _ P) in Hn. destruct Hn as [<-|Hn]; [rewrite new_node_key; reflexivity|].
      destruct (Hw _ _ (nth_nth_error ht _ [] Hi)) as [_ F]. rewrite Forall_forall in F. apply F. exact Hn.
    + apply (perm_set_nth ht _ _ _ _ (nth_nth_error ht _ [] Hi) P).
    + intros E1 E2. rewrite Hex. apply U; [exact E1|]. rewrite E2 in Hx. cbn in Hx. apply N.eqb_eq. exact Hx.
  - destruct HI as (E1 & E2 & E3). split; [exact E1|]. split.
    + rewrite E2 in Hx. cbn in Hx. destruct (is_xperm_key k); [discriminate|reflexivity].
    + rewrite Hex. exact E3.
Qed.

Lemma existsb_perm {A} (f : A -> bool) l l' : Permutation l l' -> existsb f l = existsb f l'.
Proof.
  intros P. apply bool_ext. rewrite !existsb_exists. split; intros (x & Hx & Hf); exists x; split; try exact Hf.
  - exact (Permutation_in _ P Hx).
  - exact (Permutation_in _ (Permutation_sym P) Hx).
Qed.

Lemma run_spec h : forall a acc, wf a -> a_htable a <> None -> Permutation (avtab_map_list a) acc ->
  wf (run h a) /\ a_htable (run h a) <> None /\ Permutation (avtab_map_list (run h a)) (entries h acc).
Proof.
  induction h as [|[uniq k d] t IH]; intros a acc Hw Hn P; cbn [run entries]; [auto|].
  pose proof (insert_spec uniq a k d Hw Hn) as HI. rewrite (existsb_perm _ _ _ P) in HI.
  destruct (avtab_insert_gen uniq a k d) as [a'| |].
  - destruct HI as (W' & N' & P' & _ & U).
    destruct (uniq && negb (is_xperm_key k) && existsb (entry_matches k) acc) eqn:E.
    + apply andb_prop in E as [E E3]. apply andb_prop in E as [E1 E2]. apply negb_true_iff in E2.
      rewrite (U E1 E2) in E3. discriminate.
    + apply IH; try assumption. eapply perm_trans; [exact P'|]. apply perm_skip. exact P.
  - destruct HI as (E1 & E2 & E3). rewrite E1, E2, E3. cbn [andb negb]. apply IH; assumption.
  - destruct HI.
Qed.

Lemma alloc_spec h n : n <> 0 -> wf (avtab_alloc h n) /\ a_htable (avtab_alloc h n) <> None /\
  avtab_map_list (avtab_alloc h n) = [].
Proof.
  intros Hn. unfold avtab_alloc. destruct (N.eqb_spec n 0); [congruence|].
  set (nslot := if 1048576 <? _ then _ else _). assert (Hp : 1 <= nslot).
  { unfold nslot. destruct (1048576 <? _); [lia|]. rewrite N.shiftl_1_l.
    assert (2 ^ (if 2 <? bit_count n then bit_count n - 2 else bit_count n) <> 0) by (apply N.pow_nonzero; lia). lia. }
  split; [|split; [discriminate|]].
  - unfold wf. cbn [a_htable a_mask]. rewrite repeat_length. split; [lia|].
    intros i c Hc. apply nth_error_In, repeat_spec in Hc. subst c. split; constructor.
  - unfold avtab_map_list. cbn [a_htable]. generalize (N.to_nat nslot). intros m. induction m; [reflexivity|exact IHm].
Qed.

Lemma entries_app h : forall acc, exists l, entries h acc = l ++ acc.
Proof.
  induction h as [|[u k d] t IH]; intros acc; cbn [entries]; [exists []; reflexivity|].
  destruct (_ && _); [apply IH|]. destruct (IH (stored k d :: acc)) as [l E]. exists (l ++ [stored k d]).
  rewrite E, <- app_assoc. reflexivity.
Qed.

Lemma run_nel h : forall a, wf a -> a_htable a <> None ->
  a_nel a = wrap32 (N.of_nat (length (avtab_map_list a))) ->
  a_nel (run h a) = wrap32 (N.of_nat (length (avtab_map_list (run h a)))).
Proof.
  induction h as [|[uniq k d] t IH]; intros a Hw Hn E; cbn [run]; [exact E|].
  pose proof (insert_spec uniq a k d Hw Hn) as HI. destruct (avtab_insert_gen uniq a k d) as [a'| |]; try (apply IH; assumption).
  destruct HI as (W' & N' & P' & Hnel & _). apply IH; try assumption.
  rewrite Hnel, E, (Permutation_length P'). cbn [length]. unfold wrap32, W32 in *.
  rewrite N.add_mod_idemp_l by discriminate. f_equal. lia.
Qed.

Lemma single_overlap s s' : (exists i, N.land s 32767 = 2 ^ i) -> (exists i, N.land s' 32767 = 2 ^ i) ->
  N.land (N.land s 32767) s' <> 0 -> N.land s 32767 = N.land s' 32767.
Proof.
  intros [i Hi] [j Hj] H. destruct (nonzero_bit _ H) as [b Hb].
  rewrite N.land_spec in Hb. apply andb_prop in Hb as [Hb1 Hb2].
  assert (Hb3 : N.testbit (N.land s' 32767) b = true).
  { rewrite N.land_spec, Hb2. rewrite N.land_spec in Hb1. apply andb_prop in Hb1 as [_ ->]. reflexivity. }
  rewrite Hi in *. rewrite Hj in *. rewrite N.pow2_bits_eqb in Hb1, Hb3.
  apply N.eqb_eq in Hb1, Hb3. congruence.
Qed.

Lemma matches_ext k k' : same3 k k' = true -> N.land (k_spec k) 32767 = N.land (k_spec k') 32767 ->
  forall n, entry_matches k n = entry_matches k' n.
Proof.
  intros H1 H2 n. unfold entry_matches. rewrite H2. unfold same3 in H1.
  replace (k_src k') with (k_src k) by lia. replace (k_tgt k') with (k_tgt k) by lia.
  replace (k_cls k') with (k_cls k) by lia. reflexivity.
Qed.

Lemma matches_same k n : entry_matches k n = true -> same3 k (n_key n) = true /\ N.land (N.land (k_spec k) 32767) (k_spec (n_key n)) <> 0.
Proof. unfold entry_matches. fold (same3 k (n_key n)). intros H. apply andb_prop in H as [H1 H2]. split; [exact H1|lia]. Qed.

Lemma xkey_ext k k' : N.land (k_spec k) 32767 = N.land (k_spec k') 32767 -> is_xperm_key k = is_xperm_key k'.
Proof.
  intros H. unfold is_xperm_key. change 1792 with (N.land 32767 1792). rewrite !N.land_assoc, H. reflexivity.
Qed.

Lemma entries_unique k h : forall acc,
  (exists i, N.land (k_spec k) 32767 = 2 ^ i) -> is_xperm_key k = false ->
  Forall (fun o => op_unique o = true /\ exists i, N.land (k_spec (op_key o)) 32767 = 2 ^ i) h ->
  match filter (entry_matches k) acc with
  | [] => map n_datum (filter (entry_matches k) (entries h acc)) =
            match first_inserted h k with Some d => [d] | None => [] end
  | _ :: _ => filter (entry_matches k) (entries h acc) = filter (entry_matches k) acc
  end.
Proof.
  intros acc Hk Hx Hh. revert acc. induction Hh as [|[u k' d] t [Hu Hs] Hh IH]; intros acc.
  - cbn [entries]. destruct (filter (entry_matches k) acc); reflexivity.
  - cbn [op_unique op_key] in *. subst u. cbn [entries andb].
    unfold first_inserted. cbn [find op_key]. fold (same3 k k').
    assert (Hm : entry_matches k (stored k' d) = same3 k k' && (N.land (k_spec k) 32767 =? N.land (k_spec k') 32767)).
    { apply bool_ext. split.
      - intros H. apply matches_same in H as [H1 H2]. rewrite stored_key in *. rewrite H1. cbn [andb].
        apply N.eqb_eq. apply single_overlap; assumption.
      - intros H. apply andb_prop in H as [H1 H2]. apply N.eqb_eq in H2.
        rewrite (matches_ext k k' H1 H2). unfold entry_matches. rewrite stored_key, !N.eqb_refl. cbn [andb].
        destruct Hs as [i Hi]. apply negb_true_iff. apply N.eqb_neq. intro E.
        assert (X : N.testbit (N.land (N.land (k_spec k') 32767) (k_spec k')) i = true).
        { rewrite N.land_spec, Hi, N.pow2_bits_true. cbn [andb].
          assert (Y : N.testbit (N.land (k_spec k') 32767) i = true) by (rewrite Hi; apply N.pow2_bits_true).
          rewrite N.land_spec in Y. apply andb_prop in Y. apply Y. }
        rewrite E, N.bits_0 in X. discriminate. }
    rewrite <- Hm. destruct (entry_matches k (stored k' d)) eqn:Em.
    + symmetry in Hm. apply andb_prop in Hm as [H1 H2]. apply N.eqb_eq in H2.
      rewrite <- (xkey_ext _ _ H2), Hx. cbn [negb andb].
      rewrite existsb_filter. rewrite (filter_ext _ _ (fun n => eq_sym (matches_ext k k' H1 H2 n))).
      destruct (filter (entry_matches k) acc) as [|x l] eqn:Ef; cbn [negb].
      * specialize (IH (stored k' d :: acc)). cbn [filter] in IH. rewrite Em, Ef in IH.
        rewrite IH. cbn [map op_datum]. unfold stored.
        rewrite <- (xkey_ext _ _ H2), Hx. reflexivity.
      * specialize (IH acc). rewrite Ef in IH. exact IH.
    + destruct (negb (is_xperm_key k') && existsb (entry_matches k') acc).
      * apply IH.
      * specialize (IH (stored k' d :: acc)). cbn [filter] in IH. rewrite Em in IH. exact IH.
Qed.

Lemma search_is_head h k : wf h ->
  avtab_search h k = match filter (entry_matches k) (avtab_map_list h) with [] => None | n :: _ => Some (n_datum n) end.
Proof.
  intros Hw. rewrite <- (nodes_for_spec h k Hw). unfold avtab_search, avtab_nodes_for.
  destruct (avtab_search_node h k); reflexivity.
Qed.

Lemma perm_filter {A} (f : A -> bool) l l' : Permutation l l' -> Permutation (filter f l) (filter f l').
Proof.
  induction 1; cbn [filter].
  - constructor.
  - destruct (f x); [apply perm_skip|]; assumption.
  - destruct (f x), (f y); try apply Permutation_refl. apply perm_swap.
  - eapply perm_trans; eassumption.
Qed.

Lemma lookup_first h a k : wf a -> a_htable a <> None -> avtab_map_list a = [] ->
  (exists i, N.land (k_spec k) 32767 = 2 ^ i) -> is_xperm_key k = false ->
  Forall (fun o => op_unique o = true /\ exists i, N.land (k_spec (op_key o)) 32767 = 2 ^ i) h ->
  avtab_search (run h a) k = first_inserted h k.
Proof.
  intros Hw Hn He Hk Hx Hh. destruct (run_spec h a [] Hw Hn) as (W & _ & P).
  { rewrite He. constructor. }
  rewrite (search_is_head _ k W). pose proof (entries_unique k h [] Hk Hx Hh) as HU. cbn [filter] in HU.
  apply (perm_filter (entry_matches k)) in P. apply (Permutation_map n_datum) in P.
  destruct (first_inserted h k) as [d|].
  - rewrite HU in P. apply Permutation_length_1_inv in P || apply Permutation_sym, Permutation_length_1_inv in P.
    destruct (filter _ _) as [|n l]; [discriminate|]. cbn [map] in P. injection P as <- _. reflexivity.
  - rewrite HU in P. apply Permutation_sym, Permutation_nil in P. destruct (filter _ _); [reflexivity|discriminate].
Qed.

(** ** The order of the entries of one key *)
Lemma chain_insert_order uniq sp k n (f : anode -> bool) : (f n = true -> forall m, f m = hit sp k m) ->
  forall c c', chain_insert uniq sp k n c = Some c' -> filter f c' = if f n then n :: filter f c else filter f c.
Proof.
  intros H. induction c as [|cur t IH]; intros c' E; cbn [chain_insert] in E; [injection E as <-; cbn [filter]; destruct (f n); reflexivity|].
  destruct (hit sp k cur) eqn:Eh.
  - destruct (uniq && (N.land sp AVTAB_XPERMS =? 0)); [discriminate|]. injection E as <-. cbn [filter]. destruct (f n); reflexivity.
  - destruct (before3 k (n_key cur)); [injection E as <-; cbn [filter]; destruct (f n); reflexivity|].
    destruct (chain_insert uniq sp k n t) as [t'|]; [|discriminate]. injection E as <-. cbn [filter]. rewrite (IH t' eq_refl).
    destruct (f n) eqn:Fn; [|reflexivity]. rewrite (H eq_refl cur), Eh. reflexivity.
Qed.
Lemma set_nth_split {A} (l : list A) : forall i v, (i < length l)%nat -> exists l1 x l2, l = l1 ++ x :: l2 /\ nth_error l i = Some x /\ set_nth i v l = l1 ++ v :: l2.
Proof.
  induction l as [|x l IH]; intros i v H; [cbn in H; lia|]. destruct i as [|i].
  - exists [], x, l. auto.
  - cbn [length] in H. destruct (IH i v ltac:(lia)) as (l1 & y & l2 & -> & E & S). exists (x :: l1), y, l2. cbn [set_nth nth_error]. rewrite S. auto.
Qed.
Lemma insert_order uniq h k d h' k' : wf h -> a_htable h <> None -> one_spec (k_spec k) -> one_spec (k_spec k') -> avtab_insert_gen uniq h k d = InsOk h' ->
  filter (entry_matches k') (avtab_map_list h') = if entry_matches k' (stored k d) then stored k d :: filter (entry_matches k') (avtab_map_list h) else filter (entry_matches k') (avtab_map_list h).
Proof.
  intros Hw Hne O1 O2 EI. pose proof (insert_spec uniq h k d Hw Hne) as HI. rewrite EI in HI. destruct HI as (Hw' & _).
  pose proof (slot_filter h k' Hw) as F. pose proof (slot_filter h' k' Hw') as F'. unfold avtab_insert_gen in EI. unfold avtab_map_list in *. rewrite <- new_node_stored.
  destruct (a_htable h) as [ht|] eqn:E; [|congruence]. set (hv := N.to_nat (avtab_hash k (a_mask h))) in *.
  destruct (chain_insert uniq (spec_bits (k_spec k)) k (new_node k d) (nth hv ht [])) as [c'|] eqn:EC; [|discriminate].
  apply (f_equal (fun r => match r with InsOk x => x | _ => h end)) in EI. cbv beta iota in EI. subst h'. cbn [a_htable a_mask] in *.
  assert (Hi : (hv < length ht)%nat). { unfold wf in Hw. rewrite E in Hw. destruct Hw as [Hl _]. pose proof (hash_le k (a_mask h)). unfold hv. lia. }
  set (f := hit (spec_bits (k_spec k')) k').
  assert (FE : forall l, filter (entry_matches k') l = filter f l) by (intros l; apply filter_ext; intros n; unfold f; rewrite hit_matches; reflexivity).
  rewrite (FE (concat (set_nth hv c' ht))), (FE (concat ht)).
  assert (Fn : entry_matches k' (new_node k d) = f (new_node k d)) by (unfold f; rewrite hit_matches; reflexivity). rewrite Fn.
  assert (HH : f (new_node k d) = true -> same3 k' k = true /\ N.land (k_spec k') 32767 = N.land (k_spec k) 32767).
  { unfold f, hit. rewrite new_node_key. intros H. apply andb_prop in H as [H1 H2]. split; [exact H1|]. apply (single_overlap (k_spec k') (k_spec k) O2 O1). apply negb_true_iff in H2. apply N.eqb_neq in H2. exact H2. }
  assert (AG : f (new_node k d) = true -> forall m, f m = hit (spec_bits (k_spec k)) k m).
  { intros H m. destruct (HH H) as [H1 H2]. unfold f. rewrite !hit_matches. apply matches_ext; assumption. }
  pose proof (chain_insert_order uniq (spec_bits (k_spec k)) k (new_node k d) f AG _ _ EC) as O.
  destruct (f (new_node k d)) eqn:Q.
  - destruct (HH eq_refl) as [H1 _]. rewrite (hash_spec_irrel k' k (a_mask h) H1) in F, F'. fold hv in F, F'. fold f in F, F'. rewrite F, F'.
    destruct (set_nth_split ht hv c' Hi) as (l1 & x & l2 & E1 & E2 & E3).
    assert (NX : nth hv (set_nth hv c' ht) [] = c'). { apply nth_error_nth. rewrite (set_nth_nth ht hv c' hv Hi). rewrite Nat.eqb_refl. reflexivity. }
    rewrite NX. exact O.
  - destruct (set_nth_split ht hv c' Hi) as (l1 & x & l2 & E1 & E2 & E3). rewrite (nth_error_nth ht hv [] E2) in O. rewrite E3, E1. rewrite !concat_app, !filter_app. cbn [concat]. rewrite !filter_app, O. reflexivity.
Qed.
Lemma run_order h : Forall (fun o => one_spec (k_spec (op_key o))) h -> forall a acc, wf a -> a_htable a <> None ->
  (forall k, one_spec (k_spec k) -> filter (entry_matches k) (avtab_map_list a) = filter (entry_matches k) acc) ->
  wf (run h a) /\ forall k, one_spec (k_spec k) -> filter (entry_matches k) (avtab_map_list (run h a)) = filter (entry_matches k) (entries h acc).
Proof.
  induction 1 as [|[uniq k d] t O HO IH]; intros a acc Hw Hn P; cbn [run entries]; [auto|]. cbn [op_key] in O.
  pose proof (insert_spec uniq a k d Hw Hn) as HI.
  assert (EX : existsb (entry_matches k) (avtab_map_list a) = existsb (entry_matches k) acc) by (rewrite !existsb_filter, (P k O); reflexivity). rewrite EX in HI.
  destruct (avtab_insert_gen uniq a k d) as [a'| |] eqn:EI.
  - destruct HI as (W' & N' & _ & _ & U).
    destruct (uniq && negb (is_xperm_key k) && existsb (entry_matches k) acc) eqn:E.
    + apply andb_prop in E as [E E3]. apply andb_prop in E as [E1 E2]. apply negb_true_iff in E2. rewrite (U E1 E2) in E3. discriminate.
    + apply IH; try assumption. intros k' O'. rewrite (insert_order uniq a k d a' k' Hw Hn O O' EI). cbn [filter]. destruct (entry_matches k' (stored k d)); [f_equal|]; apply P; exact O'.
  - destruct HI as (E1 & E2 & E3). rewrite E1, E2, E3. cbn [andb negb]. apply IH; assumption.
  - destruct HI.
Qed.
