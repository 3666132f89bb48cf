(** Proofs about the hash table. *)
From Coq Require Import Permutation Sorted.
From Verif Require Import Base AvtabModel AvtabProofs AvcProofs HashtabModel HashtabSpec.

Section Proofs.
Context {K V : Type} (hash : N -> K -> N) (cmp : K -> K -> comparison).
Context (TO : total_order cmp) (HR : forall size k, 1 <= size -> hash size k < size).

Definition keqb (a b : K) : bool := match cmp a b with Eq => true | _ => false end.
Notation lt := (fun a b : K * V => cmp (fst a) (fst b) = Lt).
Notation sorted := (StronglySorted lt).

Lemma keqb_eq a b : keqb a b = true <-> a = b.
Proof. unfold keqb. rewrite <- (proj1 TO a b). destruct (cmp a b); split; intros; congruence. Qed.

Lemma cmp_refl a : cmp a a = Eq. Proof. apply (proj1 TO). reflexivity. Qed.
Lemma cmp_trans a b c : cmp a b = Lt -> cmp b c = Lt -> cmp a c = Lt. Proof. apply (proj2 (proj2 TO)). Qed.
Lemma cmp_gt a b : cmp a b = Gt -> cmp b a = Lt. Proof. apply (proj1 (proj2 TO)). Qed.
Lemma cmp_eq a b : cmp a b = Eq -> a = b. Proof. apply (proj1 TO). Qed.

Lemma move_perm k (v : V) l : Permutation (chain_move cmp k v l) ((k, v) :: l).
Proof.
  induction l as [|[k' v'] l IH]; cbn [chain_move]; [auto|]. destruct (cmp k k'); auto.
  eapply perm_trans; [apply perm_skip, IH|apply perm_swap].
Qed.

Lemma forall_perm {A} (P : A -> Prop) l l' : Permutation l l' -> Forall P l -> Forall P l'.
Proof. intros H F. rewrite Forall_forall in *. intros x Hx. apply F. eapply Permutation_in; [symmetry; exact H|exact Hx]. Qed.

Lemma move_sorted k (v : V) l : sorted l -> (forall e, In e l -> fst e <> k) -> sorted (chain_move cmp k v l).
Proof.
  induction l as [|[k' v'] l IH]; intros S NI; cbn [chain_move]; [repeat constructor|].
  inversion S as [|? ? S1 F]; subst. destruct (cmp k k') eqn:E.
  - exfalso. apply (NI (k', v')); [left; reflexivity|]. apply cmp_eq in E. symmetry. exact E.
  - constructor; [exact S|]. constructor; [exact E|]. rewrite Forall_forall in *. intros x Hx. specialize (F x Hx). cbn [fst] in *. eapply cmp_trans; eauto.
  - constructor.
    + apply IH; [exact S1|]. intros e He. apply NI. right. exact He.
    + eapply forall_perm; [symmetry; apply move_perm|]. constructor; [apply cmp_gt; exact E|exact F].
Qed.

Lemma get_in k (l : list (K * V)) : sorted l -> forall v, chain_get cmp k l = Some v <-> In (k, v) l.
Proof.
  induction l as [|[k' v'] l IH]; intros S v; cbn [chain_get]; [split; [discriminate|intros []]|].
  inversion S as [|? ? S1 F]; subst. rewrite Forall_forall in F. destruct (cmp k k') eqn:E.
  - apply cmp_eq in E. subst k'. split.
    + intros [= ->]. left. reflexivity.
    + intros [[= ->]|H]; [reflexivity|]. exfalso. specialize (F _ H). cbn [fst] in F. rewrite cmp_refl in F. discriminate.
  - split; [discriminate|]. intros [[= -> _]|H]; exfalso.
    + rewrite cmp_refl in E. discriminate.
    + specialize (F _ H). cbn [fst] in F. pose proof (cmp_trans _ _ _ E F) as X. rewrite cmp_refl in X. discriminate.
  - rewrite (IH S1 v). split; [intros H; right; exact H|]. intros [[= -> _]|H]; [rewrite cmp_refl in E; discriminate|exact H].
Qed.

Lemma add_spec k (v : V) l : sorted l ->
  match chain_add cmp k v l with
  | None => exists v', In (k, v') l
  | Some l' => (forall e, In e l -> fst e <> k) /\ sorted l' /\ Permutation l' ((k, v) :: l)
  end.
Proof.
  induction l as [|[k' v'] l IH]; intros S; cbn [chain_add].
  - split; [intros e []|split; [repeat constructor|auto]].
  - inversion S as [|? ? S1 F]; subst. destruct (cmp k k') eqn:E.
    + apply cmp_eq in E. subst. exists v'. left. reflexivity.
    + split; [|split; [|auto]].
      * intros e [<-|He] Q; cbn [fst] in Q; [subst; rewrite cmp_refl in E; discriminate|].
        rewrite Forall_forall in F. specialize (F _ He). cbn [fst] in F. subst k. pose proof (cmp_trans _ _ _ E F) as X. rewrite cmp_refl in X. discriminate.
      * constructor; [exact S|]. constructor; [exact E|]. rewrite Forall_forall in *. intros x Hx. specialize (F x Hx). cbn [fst] in *. eapply cmp_trans; eauto.
    + specialize (IH S1). destruct (chain_add cmp k v l) as [l'|]; cbn [option_map].
      * destruct IH as (I1 & I2 & I3). split; [|split].
        -- intros e [<-|He] Q; [cbn [fst] in Q; subst; rewrite cmp_refl in E; discriminate|exact (I1 e He Q)].
        -- constructor; [exact I2|]. eapply forall_perm; [symmetry; exact I3|]. constructor; [apply cmp_gt; exact E|exact F].
        -- eapply perm_trans; [apply perm_skip, I3|apply perm_swap].
      * destruct IH as (v2 & I). exists v2. right. exact I.
Qed.

Lemma del_spec k (l : list (K * V)) : sorted l ->
  match chain_del cmp k l with
  | None => forall v', ~ In (k, v') l
  | Some l' => sorted l' /\ exists v, Permutation l ((k, v) :: l')
  end.
Proof.
  induction l as [|[k' v'] l IH]; intros S; cbn [chain_del]; [intros v' []|].
  inversion S as [|? ? S1 F]; subst. destruct (cmp k k') eqn:E.
  - apply cmp_eq in E. subst. split; [exact S1|]. exists v'. auto.
  - intros v2 [[= <- _]|He]; [rewrite cmp_refl in E; discriminate|].
    rewrite Forall_forall in F. specialize (F _ He). cbn [fst] in F. pose proof (cmp_trans _ _ _ E F) as X. rewrite cmp_refl in X. discriminate.
  - specialize (IH S1). destruct (chain_del cmp k l) as [l'|]; cbn [option_map].
    + destruct IH as (I1 & v & I2). split.
      * constructor; [exact I1|]. apply (forall_perm _ _ _ I2) in F. inversion F; assumption.
      * exists v. eapply perm_trans; [apply perm_skip, I2|apply perm_swap].
    + intros v2 [[= <- _]|He]; [rewrite cmp_refl in E; discriminate|exact (IH v2 He)].
Qed.

(** ** Tables *)

Definition chains_ok (size : N) (slots : list (list (K * V))) : Prop :=
  forall i, sorted (nth i slots []) /\ forall e, In e (nth i slots []) -> hash size (fst e) = N.of_nat i.

Definition wf (h : htab K V) : Prop :=
  1 <= h_size h /\ chains_ok (h_size h) (h_slots h) /\ h_nel h = N.of_nat (length (concat (h_slots h))).

Lemma chains_in size slots k (v : V) : chains_ok size slots ->
  In (k, v) (concat slots) <-> In (k, v) (nth (N.to_nat (hash size k)) slots []).
Proof.
  intros C. split; [|apply in_nth_concat]. intros H. apply in_concat_nth in H. destruct H as (i & _ & H).
  pose proof (proj2 (C i) _ H) as E. cbn [fst] in E. rewrite E, Nat2N.id. exact H.
Qed.

Lemma chains_set size slots i c : chains_ok size slots -> (i < length slots)%nat -> sorted c ->
  (forall e, In e c -> hash size (fst e) = N.of_nat i) -> chains_ok size (set_nth i c slots).
Proof.
  intros C L S H j. rewrite nth_set_nth by exact L. destruct (Nat.eqb_spec i j) as [<-|_]; [auto|apply C].
Qed.

Lemma chains_empty size n : chains_ok size (repeat [] n).
Proof. intros i. rewrite nth_repeat_nil. split; [constructor|intros e []]. Qed.

Lemma move_all_spec size : 1 <= size -> forall l new, chains_ok size new -> N.of_nat (length new) = size ->
  NoDup (map fst (l ++ concat new)) ->
  let r := move_all hash cmp size l new in
  chains_ok size r /\ length r = length new /\ Permutation (concat r) (l ++ concat new).
Proof.
  intros Hs l. induction l as [|[k v] l IH]; intros new C L ND; cbn [move_all]; cbv zeta.
  - split; [exact C|split; [reflexivity|apply Permutation_refl]].
  - set (hv := N.to_nat (hash size k)). assert (Hlt : (hv < length new)%nat) by (pose proof (HR size k Hs); unfold hv; lia).
    assert (NI : forall e, In e (concat new) -> fst e <> k).
    { intros e He Q. cbn [app map fst] in ND. inversion ND as [|? ? N1 _]; subst. apply N1. apply in_map. apply in_app_iff. right. exact He. }
    set (new' := set_nth hv (chain_move cmp k v (nth hv new [])) new).
    assert (P : Permutation (concat new') ((k, v) :: concat new)).
    { apply (perm_set_nth new hv (nth hv new [])); [apply nth_nth_error; exact Hlt|apply move_perm]. }
    assert (C' : chains_ok size new').
    { apply chains_set; [exact C|exact Hlt| |].
      - apply move_sorted; [apply C|]. intros e He. apply NI. eapply in_nth_concat. exact He.
      - intros e He. apply (Permutation_in _ (move_perm k v _)) in He. destruct He as [<-|He].
        + cbn [fst]. unfold hv. lia.
        + apply C in He. exact He. }
    assert (P2 : Permutation (l ++ concat new') (((k, v) :: l) ++ concat new)).
    { eapply perm_trans; [apply Permutation_app_head, P|]. cbn [app]. symmetry. apply Permutation_middle. }
    assert (L' : length new' = length new) by apply set_nth_length.
    destruct (IH new' C') as (I1 & I2 & I3).
    + rewrite L'. exact L.
    + eapply Permutation_NoDup; [|exact ND]. apply Permutation_map. symmetry. exact P2.
    + split; [exact I1|]. split; [rewrite I2; exact L'|]. eapply perm_trans; [exact I3|exact P2].
Qed.

Lemma grow_range f : forall s n, 1 <= s -> s < W32 -> 1 <= grow f s n /\ grow f s n < W32.
Proof.
  induction f as [|f IH]; intros s n L U; cbn [grow]; [auto|].
  destruct (_ && _) eqn:B; [|auto]. apply andb_true_iff in B. destruct B as [_ B]. apply IH.
  - apply negb_true_iff, N.eqb_neq in B. lia.
  - unfold wrap32. apply N.mod_lt. discriminate.
Qed.

(** The loop of the C code has ended after 32 steps. *)
Lemma grow_stops f s n : 1 <= s -> s < W32 ->
  grow (32 + f) s n = grow 32 s n.
Proof.
  intros L U. enough (G : forall k f' s, (s * 2 ^ N.of_nat k) mod W32 = 0 -> grow (k + f') s n = grow k s n).
  { apply G. change (2 ^ N.of_nat 32) with W32. apply N.mod_mul. discriminate. }
  clear. intros k. induction k as [|k IH]; intros f' s H.
  - change (2 ^ N.of_nat 0) with 1 in H. rewrite N.mul_1_r in H. destruct f' as [|f']; cbn [Nat.add grow]; [reflexivity|].
    unfold wrap32. assert ((s * 2) mod W32 = 0) as ->; [|rewrite N.eqb_refl, andb_false_r; reflexivity].
    apply N.mod_divide in H; [|discriminate]. apply N.mod_divide; [discriminate|]. apply N.divide_mul_l. exact H.
  - cbn [Nat.add grow]. destruct (_ && _); [|reflexivity]. apply IH. unfold wrap32.
    rewrite N.mul_mod_idemp_l by discriminate. rewrite <- H. f_equal. rewrite Nat2N.inj_succ, N.pow_succ_r'. lia.
Qed.

Lemma resize_spec m h : wf h -> h_size h < W32 -> NoDup (map fst (concat (h_slots h))) ->
  let h' := check_resize hash cmp m h in
  wf h' /\ h_size h' < W32 /\ h_nel h' = h_nel h /\ Permutation (concat (h_slots h')) (concat (h_slots h)).
Proof.
  intros (S1 & C & Nl) U ND. cbv zeta. unfold check_resize. cbv zeta. destruct (grow_range 32 (h_size h) (h_nel h) S1 U) as [G1 G2].
  set (ns := grow 32 (h_size h) (h_nel h)) in *. destruct (_ || _); [split; [split; auto|auto]|].
  destruct (move_all_spec ns G1 (concat (h_slots h)) (repeat [] (N.to_nat ns)) (chains_empty _ _)) as (M1 & M2 & M3).
  - rewrite repeat_length. lia.
  - rewrite concat_repeat_nil, app_nil_r. exact ND.
  - rewrite concat_repeat_nil, app_nil_r in M3. rewrite repeat_length in M2.
    assert (Sz : h_size (mkH (move_all hash cmp ns (concat (h_slots h)) (repeat [] (N.to_nat ns))) (h_nel h)) = ns).
    { unfold h_size. cbn [h_slots]. rewrite M2. lia. }
    split; [|split; [rewrite Sz; exact G2|split; [reflexivity|exact M3]]]. split; [rewrite Sz; exact G1|split; [rewrite Sz; exact M1|]].
    cbn [h_slots h_nel]. rewrite Nl. f_equal. symmetry. apply Permutation_length. exact M3.
Qed.

(** ** Association lists *)

Lemma assoc_in l k (v : V) : NoDup (map fst l) -> (assoc keqb l k = Some v <-> In (k, v) l).
Proof.
  intros ND. unfold assoc. split.
  - intros H. destruct (find _ l) as [[k' v']|] eqn:F; [|discriminate]. injection H as ->. apply find_some in F. destruct F as [F1 F2].
    apply keqb_eq in F2. cbn [fst] in F2. subst. exact F1.
  - intros H. destruct (find _ l) as [[k' v']|] eqn:F.
    + apply find_some in F. destruct F as [F1 F2]. apply keqb_eq in F2. cbn [fst] in F2. subst k'. cbn [option_map snd]. f_equal.
      assert (X : (k, v') = (k, v)); [|congruence].
      revert ND F1 H. clear. induction l as [|e l IH]; intros ND F1 H; [destruct F1|]. inversion ND as [|? ? N1 N2]; subst.
      destruct F1 as [->|F1], H as [H|H]; [congruence| | |auto].
      * exfalso. apply N1. exact (in_map fst l (k, v) H).
      * subst e. exfalso. apply N1. exact (in_map fst l (k, v') F1).
    + exfalso. pose proof (find_none _ _ F _ H) as X. cbn [fst] in X. rewrite (proj2 (keqb_eq k k) eq_refl) in X. discriminate.
Qed.

Lemma opt_ext {A} (a b : option A) : (forall v, a = Some v <-> b = Some v) -> a = b.
Proof.
  destruct a as [x|]; intros H.
  - symmetry. apply H. reflexivity.
  - destruct b as [y|]; [|reflexivity]. apply H. reflexivity.
Qed.

Definition Rep (h : htab K V) (l : list (K * V)) : Prop :=
  wf h /\ h_size h < W32 /\ Permutation (concat (h_slots h)) l /\ NoDup (map fst l).

Lemma rep_nodup h l : Rep h l -> NoDup (map fst (concat (h_slots h))).
Proof. intros (_ & _ & P & ND). eapply Permutation_NoDup; [apply Permutation_map; symmetry; exact P|exact ND]. Qed.

Lemma rep_search h l k : Rep h l -> hashtab_search hash cmp h k = assoc keqb l k.
Proof.
  intros R. pose proof R as ((S1 & C & Nl) & U & P & ND). apply opt_ext. intros v. rewrite assoc_in by exact ND. unfold hashtab_search.
  rewrite get_in by apply C. rewrite <- (chains_in (h_size h)) by exact C. split; intros H; [exact (Permutation_in _ P H)|exact (Permutation_in _ (Permutation_sym P) H)].
Qed.

Lemma rep_len h l : Rep h l -> h_nel h = N.of_nat (length l).
Proof. intros ((_ & _ & Nl) & _ & P & _). rewrite Nl, (Permutation_length P). reflexivity. Qed.

Lemma filter_key l k (v : V) : NoDup (map fst l) -> In (k, v) l -> Permutation l ((k, v) :: filter (fun e => negb (keqb k (fst e))) l).
Proof.
  induction l as [|[k' v'] l IH]; intros ND H; [destruct H|]. cbn [map fst] in ND. inversion ND as [|? ? N1 N2]; subst. cbn [filter fst].
  assert (Id : forall l0 : list (K * V), ~ In k (map fst l0) -> filter (fun e => negb (keqb k (fst e))) l0 = l0).
  { clear - TO. intros l0 H. induction l0 as [|[a b] l0 IH]; [reflexivity|]. cbn [filter fst map In] in *.
    destruct (keqb k a) eqn:Q; cbn [negb]; [apply keqb_eq in Q; subst; exfalso; apply H; left; reflexivity|]. f_equal. apply IH. tauto. }
  destruct H as [[= -> ->]|H].
  - rewrite (proj2 (keqb_eq k k) eq_refl). cbn [negb]. rewrite Id by exact N1. apply Permutation_refl.
  - destruct (keqb k k') eqn:Q.
    + exfalso. apply keqb_eq in Q. subst k'. apply N1. exact (in_map fst l (k, v) H).
    + cbn [negb]. eapply perm_trans; [apply perm_skip, (IH N2 H)|apply perm_swap].
Qed.

Lemma filter_nodup (l : list (K * V)) k : NoDup (map fst l) -> NoDup (map fst (filter (fun e : K * V => negb (keqb k (fst e))) l)).
Proof.
  induction l as [|[k' v'] l IH]; cbn [map fst filter]; intros ND; [constructor|]. inversion ND as [|? ? N1 N2]; subst.
  destruct (negb _); [|auto]. cbn [map fst]. constructor; [|auto]. intros H. apply N1. apply in_map_iff in H. destruct H as (e & E & H).
  apply filter_In in H. apply in_map_iff. exists e. tauto.
Qed.

Lemma step_rep h l o : Rep h l ->
  Rep (fst (hstep hash cmp h o)) (fst (ref_step keqb l o)) /\ snd (hstep hash cmp h o) = snd (ref_step keqb l o).
Proof.
  intros R. pose proof R as ((S1 & C & Nl) & U & P & ND). destruct o as [k v m1 m2|k|k]; cbn [hstep ref_step].
  - unfold hashtab_insert. rewrite (rep_len h l R). destruct (N.of_nat (length l) =? 4294967295) eqn:B; [split; [exact R|reflexivity]|].
    pose proof (resize_spec m1 h (conj S1 (conj C Nl)) U (rep_nodup h l R)) as Q. cbv zeta in *.
    set (h' := check_resize hash cmp m1 h) in *. destruct Q as (W' & U' & N' & P').
    assert (R' : Rep h' l) by (split; [exact W'|split; [exact U'|split; [eapply perm_trans; eauto|exact ND]]]).
    pose proof W' as (S1' & C' & Nl'). pose proof (add_spec k v (nth (N.to_nat (hash (h_size h') k)) (h_slots h') []) (proj1 (C' _))) as A.
    assert (Hlt : (N.to_nat (hash (h_size h') k) < length (h_slots h'))%nat) by (pose proof (HR (h_size h') k S1'); unfold h_size in *; lia).
    destruct (chain_add cmp k v _) as [c|].
    + destruct A as (A1 & A2 & A3).
      assert (As : assoc keqb l k = None).
      { destruct (assoc keqb l k) as [v'|] eqn:As; [|reflexivity]. exfalso. apply assoc_in in As; [|exact ND].
        apply (A1 (k, v')); [|reflexivity]. apply (chains_in (h_size h')); [exact C'|]. eapply Permutation_in; [|exact As]. symmetry. apply R'. }
      rewrite As. destruct m2; [|split; [exact R'|reflexivity]]. cbn [fst snd]. split; [|reflexivity].
      set (slots' := set_nth (N.to_nat (hash (h_size h') k)) c (h_slots h')).
      assert (Pc : Permutation (concat slots') ((k, v) :: concat (h_slots h'))).
      { eapply perm_set_nth; [apply nth_nth_error; exact Hlt|exact A3]. }
      assert (Sz : h_size (mkH slots' (h_nel h' + 1)) = h_size h') by (unfold h_size, slots'; cbn [h_slots]; rewrite set_nth_length; reflexivity).
      split; [|split; [rewrite Sz; exact U'|split]].
      * split; [rewrite Sz; exact S1'|split; [rewrite Sz; cbn [h_slots]|cbn [h_slots h_nel]]].
        -- apply chains_set; [exact C'|exact Hlt|exact A2|]. intros e He. apply (Permutation_in _ A3) in He. destruct He as [<-|He]; [cbn [fst]; lia|].
           apply C' in He. exact He.
        -- rewrite (Permutation_length Pc). cbn [length]. rewrite Nl'. lia.
      * cbn [h_slots]. eapply perm_trans; [exact Pc|]. apply perm_skip. apply R'.
      * cbn [map fst]. constructor; [|exact ND]. intros H. apply in_map_iff in H. destruct H as ([k2 v2] & E & H). cbn [fst] in E. subst k2.
        apply (assoc_in l k v2 ND) in H. congruence.
    + destruct A as (v' & A). assert (As : assoc keqb l k = Some v').
      { apply assoc_in; [exact ND|]. apply (chains_in (h_size h')) in A; [|exact C']. eapply Permutation_in; [apply R'|exact A]. }
      rewrite As. split; [exact R'|reflexivity].
  - unfold hashtab_remove. cbv zeta. pose proof (del_spec k (nth (N.to_nat (hash (h_size h) k)) (h_slots h) []) (proj1 (C _))) as A.
    assert (Hlt : (N.to_nat (hash (h_size h) k) < length (h_slots h))%nat) by (pose proof (HR (h_size h) k S1); unfold h_size in *; lia).
    destruct (chain_del cmp k _) as [c|].
    + destruct A as (A1 & v & A2). assert (Hin : In (k, v) l).
      { eapply Permutation_in; [exact P|]. apply (chains_in (h_size h)); [exact C|]. eapply Permutation_in; [symmetry; exact A2|left; reflexivity]. }
      rewrite (proj2 (assoc_in l k v ND) Hin). cbn [fst snd]. split; [|reflexivity].
      set (slots' := set_nth (N.to_nat (hash (h_size h) k)) c (h_slots h)).
      assert (Pc : Permutation (concat (h_slots h)) ((k, v) :: concat slots')).
      { assert (X : set_nth (N.to_nat (hash (h_size h) k)) (nth (N.to_nat (hash (h_size h) k)) (h_slots h) []) slots' = h_slots h).
        { unfold slots'. generalize (N.to_nat (hash (h_size h) k)). clear. generalize (h_slots h). intros s. induction s as [|x s IH]; intros [|n]; cbn [set_nth nth]; try reflexivity. f_equal. apply IH. }
        rewrite <- X at 1. eapply perm_set_nth; [|exact A2]. unfold slots'. rewrite set_nth_nth by exact Hlt. rewrite Nat.eqb_refl. reflexivity. }
      assert (Sz : h_size (mkH slots' (h_nel h - 1)) = h_size h) by (unfold h_size, slots'; cbn [h_slots]; rewrite set_nth_length; reflexivity).
      split; [|split; [rewrite Sz; exact U|split]].
      * split; [rewrite Sz; exact S1|split; [rewrite Sz; cbn [h_slots]|cbn [h_slots h_nel]]].
        -- apply chains_set; [exact C|exact Hlt|exact A1|]. intros e He. apply (proj2 (C _)). eapply Permutation_in; [symmetry; exact A2|right; exact He].
        -- rewrite Nl, (Permutation_length Pc). cbn [length]. lia.
      * cbn [h_slots]. apply (Permutation_cons_inv (a := (k, v))). eapply perm_trans; [symmetry; exact Pc|]. eapply perm_trans; [exact P|]. apply filter_key; assumption.
      * apply filter_nodup. exact ND.
    + assert (As : assoc keqb l k = None).
      { destruct (assoc keqb l k) as [v'|] eqn:As; [|reflexivity]. exfalso. apply assoc_in in As; [|exact ND].
        apply (A v'). apply (chains_in (h_size h)); [exact C|]. eapply Permutation_in; [symmetry; exact P|exact As]. }
      rewrite As. split; [exact R|reflexivity].
  - split; [exact R|]. cbn [snd]. f_equal. apply rep_search. exact R.
Qed.

Lemma run_rep ops : forall h l, Rep h l ->
  Rep (fst (hrun hash cmp h ops)) (fst (ref_run keqb l ops)) /\ snd (hrun hash cmp h ops) = snd (ref_run keqb l ops).
Proof.
  induction ops as [|o ops IH]; intros h l R; cbn [hrun ref_run]; [split; [exact R|reflexivity]|].
  destruct (step_rep h l o R) as [R1 E1]. destruct (hstep hash cmp h o) as [h1 x]. destruct (ref_step keqb l o) as [l1 y]. cbn [fst snd] in *.
  destruct (IH h1 l1 R1) as [R2 E2]. destruct (hrun hash cmp h1 ops) as [h2 xs]. destruct (ref_run keqb l1 ops) as [l2 ys]. cbn [fst snd] in *.
  split; [exact R2|congruence].
Qed.

Lemma create_rep size : 1 <= size -> size < W32 -> Rep (hashtab_create (V := V) size) [].
Proof.
  intros L U. assert (Sz : h_size (hashtab_create (K := K) (V := V) size) = size) by (unfold h_size, hashtab_create; cbn [h_slots]; rewrite repeat_length; lia).
  split; [split; [rewrite Sz; exact L|split; [apply chains_empty|cbn [hashtab_create h_slots h_nel]; rewrite concat_repeat_nil; reflexivity]]|].
  split; [rewrite Sz; exact U|split; [cbn [hashtab_create h_slots]; rewrite concat_repeat_nil; constructor|constructor]].
Qed.

Lemma map_loop_spec {A} (apply : A -> K -> V -> A * Z) l : forall a,
  exists pre post, l = pre ++ post /\ fst (map_loop apply l a) = fold_left (fun x e => fst (apply x (fst e) (snd e))) pre a /\
    (snd (map_loop apply l a) = 0%Z -> post = []).
Proof.
  induction l as [|[k v] l IH]; intros a; cbn [map_loop].
  - exists [], []. repeat split.
  - destruct (apply a k v) as [a' ret] eqn:E. destruct (Z.eqb_spec ret 0) as [Z|Z].
    + destruct (IH a') as (pre & post & -> & F & S). exists ((k, v) :: pre), post. split; [reflexivity|]. split; [|exact S].
      cbn [fold_left fst snd]. rewrite E. exact F.
    + exists [(k, v)], l. split; [reflexivity|]. cbn [fold_left fst snd]. rewrite E. split; [reflexivity|]. intros Q. contradiction.
Qed.
End Proofs.

(** ** Symbol tables *)

Lemma symcmp_order : total_order symcmp.
Proof.
  split; [|split].
  - intros a. induction a as [|x a IH]; intros [|y b]; cbn [symcmp]; try (split; [discriminate|discriminate]); [split; reflexivity|].
    destruct (N.compare_spec x y) as [E|E|E].
    + subst. rewrite IH. split; [intros ->; reflexivity|intros [= ->]; reflexivity].
    + split; [discriminate|intros [= -> _]; lia].
    + split; [discriminate|intros [= -> _]; lia].
  - intros a. induction a as [|x a IH]; intros [|y b]; cbn [symcmp]; try (split; [discriminate|discriminate]); [split; reflexivity|].
    rewrite (N.compare_antisym x y). destruct (N.compare x y); cbn [CompOpp]; [apply IH|split; discriminate|split; reflexivity].
  - intros a. induction a as [|x a IH]; intros [|y b] [|z c]; cbn [symcmp]; try discriminate; try reflexivity.
    destruct (N.compare_spec x y) as [E|E|E]; try discriminate; destruct (N.compare_spec y z) as [F|F|F]; try discriminate; intros H1 H2.
    + subst. rewrite N.compare_refl. eauto.
    + subst. apply N.compare_lt_iff in F. rewrite F. reflexivity.
    + subst. apply N.compare_lt_iff in E. rewrite E. reflexivity.
    + assert (X : x < z) by lia. apply N.compare_lt_iff in X. rewrite X. reflexivity.
Qed.

Lemma symhash_range size s : 1 <= size -> symhash size s < size.
Proof.
  intros H. unfold symhash. assert (N.land (symhash_from 5381 s) (size - 1) <= size - 1); [|lia].
  apply N.ldiff_le, bits_zero. intros i. rewrite N.ldiff_spec, N.land_spec. destruct (N.testbit (size - 1) i); rewrite ?andb_false_r; reflexivity.
Qed.
