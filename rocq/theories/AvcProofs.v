(** Proofs about the userspace access vector cache. *)
From Coq Require Import Permutation.
From Verif Require Import Base AvtabModel AvtabProofs AvcModel AvcSpec.
Ltac Zify.zify_post_hook ::= Z.div_mod_to_equations.

Lemma upd_same h i e : upd h i e i = e.
Proof. unfold upd. rewrite N.eqb_refl. reflexivity. Qed.
Lemma upd_other h i e j : j <> i -> upd h i e j = h j.
Proof. intros H. unfold upd. rewrite (proj2 (N.eqb_neq _ _) H). reflexivity. Qed.

(** Same entry up to the used flag. *)
Definition core (e e' : aentry) : Prop :=
  ae_s e' = ae_s e /\ ae_t e' = ae_t e /\ ae_c e' = ae_c e /\ ae_avd e' = ae_avd e /\ ae_create e' = ae_create e.
Lemma core_refl e : core e e.
Proof. unfold core. auto. Qed.
Lemma core_trans a b c : core a b -> core b c -> core a c.
Proof. unfold core. intros (?&?&?&?&?) (?&?&?&?&?). repeat split; congruence. Qed.
Lemma core_used e v : core e (set_used e v).
Proof. unfold core. auto. Qed.
Lemma core_upd_used h i v j : core (h j) (upd h i (set_used (h i) v) j).
Proof. unfold upd. destruct (N.eqb_spec j i) as [->|]; [apply core_used|apply core_refl]. Qed.

Lemma nodup_app_l {A} (l l' : list A) : NoDup (l ++ l') -> NoDup l.
Proof.
  induction l as [|x l IH]; intros H; [constructor|]. inversion H as [|? ? H1 H2]; subst. constructor; [|auto].
  intro. apply H1, in_app_iff. auto.
Qed.

(** ** Reclaiming *)
Lemma scan_chain_spec l : forall h h' r, scan_chain h l = (h', r) ->
  (forall j, core (h j) (h' j)) /\ (forall j, ae_used (h' j) = true -> ae_used (h j) = true) /\
  (forall j, ~ In j l -> h' j = h j) /\
  match r with
  | Some i => In i l
  | None => forall j, In j l -> ae_used (h j) = true /\ ae_used (h' j) = false
  end.
Proof.
  induction l as [|i l IH]; intros h h' r E; cbn [scan_chain] in E.
  - injection E as <- <-. split; [intro; apply core_refl|]. split; [auto|]. split; [auto|]. intros j [].
  - destruct (ae_used (h i)) eqn:U; cbn [negb] in E.
    + destruct (IH _ _ _ E) as (H1 & H2 & H4 & H3). split; [|split; [|split]].
      * intro j. eapply core_trans; [apply (core_upd_used h i false j)|apply H1].
      * intros j Hj. apply H2 in Hj. unfold upd in Hj. destruct (j =? i); [discriminate|exact Hj].
      * intros j Hj. rewrite H4 by (intro; apply Hj; right; assumption). apply upd_other. intros ->. apply Hj. left. reflexivity.
      * destruct r as [q|]; [right; exact H3|].
        intros j Hj. destruct (N.eq_dec j i) as [->|Ne].
        -- split; [exact U|]. destruct (ae_used (h' i)) eqn:V; [|reflexivity]. apply H2 in V. rewrite upd_same in V. discriminate.
        -- destruct Hj as [->|Hj]; [congruence|]. destruct (H3 j Hj) as [H5 H6]. rewrite upd_other in H5 by exact Ne. auto.
    + injection E as <- <-. split; [intro; apply core_refl|]. split; [auto|]. split; [auto|]. left. reflexivity.
Qed.

Lemma in_nth_concat {A} (l : list (list A)) k x : In x (nth k l []) -> In x (concat l).
Proof.
  revert k. induction l as [|c l IH]; intros [|k] H; cbn in *; try contradiction; apply in_app_iff; [left; exact H|right; eauto].
Qed.
Lemma in_concat_nth {A} (l : list (list A)) x : In x (concat l) -> exists k, (k < length l)%nat /\ In x (nth k l []).
Proof.
  induction l as [|c l IH]; intros H; cbn in H; [contradiction|]. apply in_app_iff in H as [H|H].
  - exists O. cbn. split; [lia|exact H].
  - destruct (IH H) as (k & Hk & Hx). exists (S k). cbn. split; [lia|exact Hx].
Qed.

Lemma land511 x : N.land x 511 = x mod 512.
Proof. change 511 with (N.ones 9). rewrite N.land_ones. reflexivity. Qed.

Lemma scan_slots_spec slots n : forall h hv h' r, hv < 512 -> scan_slots n h slots hv = (h', r) ->
  (forall j, core (h j) (h' j)) /\ (forall j, ae_used (h' j) = true -> ae_used (h j) = true) /\
  (forall j, ~ In j (concat slots) -> h' j = h j) /\
  match r with
  | Some (q, i) => q < 512 /\ In i (nth (N.to_nat q) slots [])
  | None => forall k j, (k < n)%nat -> In j (nth (N.to_nat ((hv + N.of_nat k) mod 512)) slots []) ->
      ae_used (h j) = true /\ ae_used (h' j) = false
  end.
Proof.
  induction n as [|n IH]; intros h hv h' r Hhv E; cbn [scan_slots] in E.
  - injection E as <- <-. split; [intro; apply core_refl|]. split; [auto|]. split; [auto|]. intros; lia.
  - destruct (scan_chain h (nth (N.to_nat hv) slots [])) as [h1 [i|]] eqn:E1.
    + injection E as <- <-. destruct (scan_chain_spec _ _ _ _ E1) as (H1 & H2 & H4 & H3).
      split; [exact H1|]. split; [exact H2|]. split; [|split; [exact Hhv|exact H3]].
      intros j Hj. apply H4. intro. apply Hj. eapply in_nth_concat; eassumption.
    + destruct (scan_chain_spec _ _ _ _ E1) as (H1 & H2 & H4 & H3).
      rewrite land511 in E. assert (Hb : (hv + 1) mod 512 < 512) by lia.
      destruct (IH _ _ _ _ Hb E) as (G1 & G2 & G4 & G3). split; [|split; [|split]].
      * intro j. eapply core_trans; [apply H1|apply G1].
      * auto.
      * intros j Hj. rewrite G4 by exact Hj. apply H4. intro. apply Hj. eapply in_nth_concat; eassumption.
      * destruct r as [[q i]|]; [exact G3|]. intros k j Hk Hj. destruct k as [|k].
        -- rewrite N.add_0_r, N.mod_small in Hj by exact Hhv. destruct (H3 j Hj) as [Ha Hb']. split; [exact Ha|].
           destruct (ae_used (h' j)) eqn:V; [|reflexivity]. apply G2 in V. congruence.
        -- destruct (G3 k j) as [Ha Hb']; [lia| |auto].
           replace (((hv + 1) mod 512 + N.of_nat k) mod 512) with ((hv + N.of_nat (S k)) mod 512) by lia. exact Hj.
Qed.

Lemma scan_all_none slots h hv h' : length slots = 512%nat -> hv < 512 -> scan_slots AVC_CACHE_SLOTS h slots hv = (h', None) ->
  forall j, In j (concat slots) -> ae_used (h j) = true /\ ae_used (h' j) = false.
Proof.
  intros L Hhv E j Hj. destruct (scan_slots_spec slots _ _ _ _ _ Hhv E) as (_ & _ & _ & H).
  apply in_concat_nth in Hj as (k & Hk & Hj). rewrite L in Hk.
  apply (H (N.to_nat ((N.of_nat k + 512 - hv) mod 512))); [unfold AVC_CACHE_SLOTS; lia|].
  replace ((hv + N.of_nat (N.to_nat ((N.of_nat k + 512 - hv) mod 512))) mod 512) with (N.of_nat k) by lia.
  rewrite Nnat.Nat2N.id. exact Hj.
Qed.

Lemma unlink_perm i l : In i l -> Permutation l (i :: unlink i l).
Proof.
  induction l as [|j l IH]; intros H; [contradiction|]. cbn [unlink]. destruct (N.eqb_spec j i) as [->|Ne]; [reflexivity|].
  destruct H as [->|H]; [congruence|]. eapply perm_trans; [apply perm_skip, IH, H|apply perm_swap].
Qed.

Lemma nth_set_nth {A} (l : list (list A)) i v j : (i < length l)%nat ->
  nth j (set_nth i v l) [] = if Nat.eqb i j then v else nth j l [].
Proof.
  intros Hi. destruct (Nat.ltb_spec j (length l)) as [Hj|Hj].
  - assert (E : nth_error (set_nth i v l) j = Some (nth j (set_nth i v l) [])) by (apply nth_nth_error; rewrite set_nth_length; exact Hj).
    rewrite set_nth_nth in E by exact Hi. destruct (Nat.eqb i j); [congruence|]. rewrite (nth_nth_error l j [] Hj) in E. congruence.
  - rewrite !nth_overflow by (rewrite ?set_nth_length; exact Hj). destruct (Nat.eqb_spec i j); [lia|reflexivity].
Qed.

Lemma set_nth_id {A} (l : list (list A)) : forall i v, set_nth i (nth i l []) (set_nth i v l) = l.
Proof. induction l as [|x l IH]; intros [|i] v; cbn; try reflexivity. rewrite IH. reflexivity. Qed.

Lemma unlink_concat (slots : list (list N)) k i : (k < length slots)%nat -> In i (nth k slots []) ->
  Permutation (concat slots) (i :: concat (set_nth k (unlink i (nth k slots [])) slots)).
Proof.
  intros Hk Hi. pose proof (perm_set_nth (set_nth k (unlink i (nth k slots [])) slots) k (unlink i (nth k slots [])) (nth k slots []) i) as H.
  rewrite set_nth_id in H. apply H; [|apply unlink_perm; exact Hi].
  rewrite set_nth_nth by exact Hk. rewrite Nat.eqb_refl. reflexivity.
Qed.

(** ** Claiming a node *)
Definition others (C C' : cache) : Prop :=
  ca_notif C' = ca_notif C /\ ca_enforcing C' = ca_enforcing C /\ ca_fixed C' = ca_fixed C.

(** Same nodes in the same places, entries equal up to used flags. *)
Definition unchanged (C C' : cache) : Prop :=
  ca_slots C' = ca_slots C /\ ca_free C' = ca_free C /\ (forall j, core (ca_heap C j) (ca_heap C' j)) /\ others C C'.

(** A node [i] has been taken over for a new entry. *)
Definition taken (C C' : cache) (i : N) : Prop :=
  (forall j, In j (concat (ca_slots C')) <-> j = i \/ (In j (concat (ca_slots C)) /\ j <> i)) /\
  (forall j, j <> i -> core (ca_heap C j) (ca_heap C' j)) /\ others C C' /\
  (match ca_free C with [] => In i (concat (ca_slots C)) /\ ca_free C' = [] | q :: r => i = q /\ ca_free C' = r end).

Lemma hash_slot s t c : (N.to_nat (avc_hash s t c) < 512)%nat.
Proof. unfold avc_hash. rewrite land511. lia. Qed.

Lemma link_sound pool C i s t c e : length (ca_slots C) = 512%nat ->
  NoDup (i :: concat (ca_slots C) ++ ca_free C) -> Permutation (i :: concat (ca_slots C) ++ ca_free C) pool ->
  (forall k j, In j (nth k (ca_slots C) []) ->
     let e := ca_heap C j in k = N.to_nat (avc_hash (ae_s e) (ae_t e) (ae_c e)) /\ ae_s e <> 0 /\ ae_t e <> 0) ->
  (forall j, In j (ca_free C) -> ca_heap C j = cleared) -> ca_hint C < 512 ->
  ca_active C = N.of_nat (S (length (concat (ca_slots C)))) -> s <> 0 -> t <> 0 -> ae_s e = s -> ae_t e = t -> ae_c e = c ->
  let hv := N.to_nat (avc_hash s t c) in
  let C' := mkCache (upd (ca_heap C) i e) (set_nth hv (i :: nth hv (ca_slots C) []) (ca_slots C)) (ca_free C) (ca_hint C)
                    (ca_active C) (ca_notif C) (ca_enforcing C) (ca_fixed C) in
  sound pool C' /\ Permutation (concat (ca_slots C')) (i :: concat (ca_slots C)).
Proof.
  intros L ND PE HS HF HH HA Hs Ht Es Et Ec hv C'.
  assert (Hhv : (hv < length (ca_slots C))%nat) by (rewrite L; apply hash_slot).
  assert (PC : Permutation (concat (ca_slots C')) (i :: concat (ca_slots C))).
  { apply (perm_set_nth (ca_slots C) hv (nth hv (ca_slots C) [])); [apply nth_nth_error; exact Hhv|reflexivity]. }
  split; [|exact PC]. unfold sound. cbn [ca_slots ca_free ca_heap ca_hint ca_active C'] in *.
  assert (PP : Permutation (concat (set_nth hv (i :: nth hv (ca_slots C) []) (ca_slots C)) ++ ca_free C) (i :: concat (ca_slots C) ++ ca_free C)).
  { change (i :: concat (ca_slots C) ++ ca_free C) with ((i :: concat (ca_slots C)) ++ ca_free C). apply Permutation_app_tail. exact PC. }
  split; [rewrite set_nth_length; exact L|]. split; [eapply Permutation_NoDup; [apply Permutation_sym; exact PP|exact ND]|].
  split; [eapply perm_trans; [exact PP|exact PE]|].
  assert (NI : ~ In i (concat (ca_slots C) ++ ca_free C)) by (inversion ND; assumption).
  split; [|split; [|split; [exact HH|]]].
  - intros k j Hj. cbv zeta. rewrite nth_set_nth in Hj by exact Hhv. destruct (Nat.eqb_spec hv k) as [<-|Hk].
    + destruct Hj as [<-|Hj].
      * rewrite upd_same, Es, Et, Ec. auto.
      * rewrite upd_other; [apply HS; exact Hj|]. intros ->. apply NI, in_app_iff. left. eapply in_nth_concat; eassumption.
    + rewrite upd_other; [apply HS; exact Hj|]. intros ->. apply NI, in_app_iff. left. eapply in_nth_concat; eassumption.
  - intros j Hj. rewrite upd_other; [apply HF; exact Hj|]. intros ->. apply NI, in_app_iff. right. exact Hj.
  - rewrite HA, (Permutation_length PC). reflexivity.
Qed.

Lemma taken_intro C C' i : (forall j, In j (concat (ca_slots C')) <-> j = i \/ (In j (concat (ca_slots C)) /\ j <> i)) ->
  (forall j, j <> i -> core (ca_heap C j) (ca_heap C' j)) -> others C C' ->
  (match ca_free C with [] => In i (concat (ca_slots C)) /\ ca_free C' = [] | q :: r => i = q /\ ca_free C' = r end) -> taken C C' i.
Proof. intros. split; [assumption|]. split; [assumption|]. split; assumption. Qed.

Lemma claim_spec pool C s t c : sound pool C -> N.of_nat (length pool) < 4294967296 -> s <> 0 -> t <> 0 ->
  match avc_claim_node C s t c with
  | (C', None) => pool = [] /\ unchanged C C' /\ sound pool C'
  | (C', Some i) => sound pool C' /\ taken C C' i /\ ca_heap C' i = mkAE s t c (mkAD 0 0 0 0 0 0) 0 true
  end.
Proof.
  intros (L & ND & PE & HS & HF & HH & HA) Hpool Hs Ht. unfold avc_claim_node.
  destruct (ca_free C) as [|q rest] eqn:EF.
  - unfold avc_reclaim_node.
    assert (KEY : forall h, (forall j, core (ca_heap C j) (h j)) -> forall hv i, hv < 512 -> In i (nth (N.to_nat hv) (ca_slots C) []) ->
      let C1 := mkCache h (set_nth (N.to_nat hv) (unlink i (nth (N.to_nat hv) (ca_slots C) [])) (ca_slots C)) (ca_free C) hv
               (ca_active C) (ca_notif C) (ca_enforcing C) (ca_fixed C) in
      let sl := N.to_nat (avc_hash s t c) in
      let C' := mkCache (upd (ca_heap C1) i (mkAE s t c (mkAD 0 0 0 0 0 0) 0 true))
               (set_nth sl (i :: nth sl (ca_slots C1) []) (ca_slots C1)) (ca_free C1) (ca_hint C1) (ca_active C1)
               (ca_notif C1) (ca_enforcing C1) (ca_fixed C1) in
      sound pool C' /\ taken C C' i /\ ca_heap C' i = mkAE s t c (mkAD 0 0 0 0 0 0) 0 true).
    { intros h Hc hv i Hhv Hi C1 sl C'.
      assert (HL : (N.to_nat hv < length (ca_slots C))%nat) by (rewrite L; lia).
      pose proof (unlink_concat (ca_slots C) (N.to_nat hv) i HL Hi) as PU.
      assert (ND1 : NoDup (i :: concat (ca_slots C1) ++ ca_free C1)).
      { cbn [C1 ca_slots ca_free]. rewrite EF, app_nil_r in *. eapply Permutation_NoDup; [exact PU|exact ND]. }
      destruct (link_sound pool C1 i s t c (mkAE s t c (mkAD 0 0 0 0 0 0) 0 true)) as [S1 P1].
      - cbn [C1 ca_slots]. rewrite set_nth_length. exact L.
      - exact ND1.
      - cbn [C1 ca_slots ca_free]. rewrite EF, app_nil_r in *. eapply perm_trans; [apply Permutation_sym; exact PU|exact PE].
      - intros k j Hj. cbn [C1 ca_slots ca_heap] in *. rewrite nth_set_nth in Hj by exact HL. cbv zeta.
        assert (Hj' : In j (nth k (ca_slots C) [])).
        { destruct (Nat.eqb_spec (N.to_nat hv) k) as [<-|]; [|exact Hj].
          eapply Permutation_in; [apply Permutation_sym, unlink_perm; exact Hi|right; exact Hj]. }
        destruct (HS k j Hj') as (E1 & E2 & E3). destruct (Hc j) as (K1 & K2 & K3 & _). rewrite K1, K2, K3. auto.
      - cbn [C1 ca_free]. rewrite EF. intros j [].
      - exact Hhv.
      - cbn [C1 ca_active ca_slots]. rewrite HA, (Permutation_length PU). reflexivity.
      - exact Hs.
      - exact Ht.
      - reflexivity.
      - reflexivity.
      - reflexivity.
      - split; [exact S1|]. split; [|apply upd_same]. apply taken_intro.
        + intro j. split.
          * intros Hj. apply (Permutation_in _ P1) in Hj. destruct Hj as [<-|Hj]; [left; reflexivity|]. right. split.
            -- eapply Permutation_in; [apply Permutation_sym; exact PU|right; exact Hj].
            -- intros ->. inversion ND1 as [|? ? N1 _]. apply N1, in_app_iff. left. exact Hj.
          * intros [->|[Hj Hne]]; [apply (Permutation_in _ (Permutation_sym P1)); left; reflexivity|].
            apply (Permutation_in _ (Permutation_sym P1)). apply (Permutation_in _ PU) in Hj. exact Hj.
        + intros j Hj. cbn [C' ca_heap]. rewrite upd_other by exact Hj. apply Hc.
        + unfold others. auto.
        + rewrite EF. cbn [C' C1 ca_free]. split; [|exact EF].
          eapply Permutation_in; [apply Permutation_sym; exact PU|left; reflexivity]. }
    destruct (scan_slots AVC_CACHE_SLOTS (ca_heap C) (ca_slots C) (ca_hint C)) as [h [[hv i]|]] eqn:E1.
    + destruct (scan_slots_spec _ _ _ _ _ _ HH E1) as (G1 & _ & _ & G3). destruct G3 as [G3 G4]. exact (KEY h G1 hv i G3 G4).
    + destruct (scan_slots_spec _ _ _ _ _ _ HH E1) as (G1 & _ & _ & _).
      pose proof (scan_all_none _ _ _ _ L HH E1) as N1.
      destruct (scan_slots AVC_CACHE_SLOTS h (ca_slots C) (ca_hint C)) as [h2 [[hv i]|]] eqn:E2.
      * destruct (scan_slots_spec _ _ _ _ _ _ HH E2) as (K1 & _ & _ & K3). destruct K3 as [K3 K4].
        exact (KEY h2 (fun j => core_trans _ _ _ (G1 j) (K1 j)) hv i K3 K4).
      * destruct (scan_slots_spec _ _ _ _ _ _ HH E2) as (K1 & _ & _ & _).
        pose proof (scan_all_none _ _ _ _ L HH E2) as N2.
        assert (EE : concat (ca_slots C) = []).
        { destruct (concat (ca_slots C)) as [|j l] eqn:EC; [reflexivity|]. exfalso.
          destruct (N1 j) as [_ A]; [left; reflexivity|]. destruct (N2 j) as [B _]; [left; reflexivity|]. congruence. }
        split; [rewrite EE in PE; cbn in PE; apply Permutation_nil in PE; exact PE|]. split.
        -- split; [reflexivity|]. split; [reflexivity|]. split; [|unfold others; auto].
           intro j. exact (core_trans _ _ _ (G1 j) (K1 j)).
        -- split; [exact L|]. cbn [set_heap ca_slots ca_free ca_heap ca_hint ca_active]. rewrite EF. split; [exact ND|]. split; [exact PE|].
           split; [|split; [intros j []|auto]]. intros k j Hj. exfalso. apply in_nth_concat in Hj. rewrite EE in Hj. exact Hj.
  - assert (NDq : NoDup (q :: concat (ca_slots C) ++ rest)).
    { eapply Permutation_NoDup; [|exact ND]. apply Permutation_sym, Permutation_middle. }
    set (C1 := mkCache (ca_heap C) (ca_slots C) rest (ca_hint C) (wrap32 (ca_active C + 1)) (ca_notif C) (ca_enforcing C) (ca_fixed C)).
    assert (Len : (length (concat (ca_slots C)) < length pool)%nat).
    { rewrite <- (Permutation_length PE), app_length. cbn [length]. lia. }
    destruct (link_sound pool C1 q s t c (mkAE s t c (mkAD 0 0 0 0 0 0) 0 true)) as [S1 P1]; try assumption; try reflexivity.
    + eapply perm_trans; [|exact PE]. apply Permutation_middle.
    + intros j Hj. cbn [C1 ca_heap]. apply HF. right. exact Hj.
    + cbn [C1 ca_active ca_slots]. rewrite HA. unfold wrap32, W32. rewrite N.mod_small by lia. lia.
    + split; [exact S1|]. split; [|apply upd_same]. apply taken_intro.
      * intro j. split.
        -- intros Hj. apply (Permutation_in _ P1) in Hj. destruct Hj as [<-|Hj]; [left; reflexivity|]. right. split; [exact Hj|].
           intros ->. inversion NDq as [|? ? N1 _]. apply N1, in_app_iff. left. exact Hj.
        -- intros [->|[Hj Hne]]; apply (Permutation_in _ (Permutation_sym P1)); [left; reflexivity|right; exact Hj].
      * intros j Hj. cbn [ca_heap]. rewrite upd_other by exact Hj. apply core_refl.
      * unfold others. auto.
      * rewrite EF. auto.
Qed.

(** ** Finding an entry *)
Definition others_refl C : others C C := conj eq_refl (conj eq_refl eq_refl).
Lemma unchanged_refl C : unchanged C C.
Proof. split; [reflexivity|]. split; [reflexivity|]. split; [intro; apply core_refl|apply others_refl]. Qed.
Lemma unchanged_trans A B C : unchanged A B -> unchanged B C -> unchanged A C.
Proof.
  intros (E1 & E2 & E3 & E4 & E5 & E6) (F1 & F2 & F3 & F4 & F5 & F6).
  split; [congruence|]. split; [congruence|]. split; [intro j; eapply core_trans; [apply E3|apply F3]|].
  split; [congruence|]. split; congruence.
Qed.
Lemma unchanged_used C i v : unchanged C (set_heap C (upd (ca_heap C) i (set_used (ca_heap C i) v))).
Proof. split; [reflexivity|]. split; [reflexivity|]. split; [intro j; apply core_upd_used|unfold others; auto]. Qed.

(** Changing entries of cached nodes keeps the structure when the triples stay. *)
Lemma sound_heap pool C h : sound pool C ->
  (forall j, In j (concat (ca_slots C)) -> ae_s (h j) = ae_s (ca_heap C j) /\ ae_t (h j) = ae_t (ca_heap C j) /\ ae_c (h j) = ae_c (ca_heap C j)) ->
  (forall j, In j (ca_free C) -> h j = ca_heap C j) -> sound pool (set_heap C h).
Proof.
  intros (L & ND & PE & HS & HF & HH & HA) H1 H2. unfold sound. cbn [set_heap ca_slots ca_free ca_heap ca_hint ca_active].
  split; [exact L|]. split; [exact ND|]. split; [exact PE|]. split; [|split; [|auto]].
  - intros k j Hj. cbv zeta. destruct (H1 j) as (E1 & E2 & E3); [eapply in_nth_concat; eassumption|]. rewrite E1, E2, E3. apply HS, Hj.
  - intros j Hj. rewrite H2 by exact Hj. apply HF, Hj.
Qed.

Lemma not_both pool C j : sound pool C -> In j (concat (ca_slots C)) -> In j (ca_free C) -> False.
Proof.
  intros (_ & ND & _) H1 H2. apply in_split in H1 as (a & b & E). rewrite E in ND. rewrite <- app_assoc in ND. cbn in ND.
  apply NoDup_remove_2 in ND. apply ND. rewrite !in_app_iff. auto.
Qed.

Lemma sound_node pool C i e : sound pool C -> In i (concat (ca_slots C)) ->
  ae_s e = ae_s (ca_heap C i) -> ae_t e = ae_t (ca_heap C i) -> ae_c e = ae_c (ca_heap C i) ->
  sound pool (set_heap C (upd (ca_heap C) i e)).
Proof.
  intros S Hi E1 E2 E3. apply sound_heap; [exact S| |].
  - intros j _. unfold upd. destruct (N.eqb_spec j i) as [->|]; auto.
  - intros j Hj. apply upd_other. intros ->. eapply not_both; eassumption.
Qed.

Lemma is_for_spec e s t c : is_for e s t c = true <-> ae_s e = s /\ ae_t e = t /\ ae_c e = c.
Proof. unfold is_for. rewrite !andb_true_iff, !N.eqb_eq. tauto. Qed.

Lemma in_pool pool C i : sound pool C -> In i pool -> In i (concat (ca_slots C)) \/ In i (ca_free C).
Proof.
  intros (_ & _ & PE & _) H. apply in_app_iff. eapply Permutation_in; [apply Permutation_sym; exact PE|exact H].
Qed.
Lemma slot_pool pool C i : sound pool C -> In i (concat (ca_slots C)) -> In i pool.
Proof. intros (_ & _ & PE & _) H. eapply Permutation_in; [exact PE|]. apply in_app_iff. left. exact H. Qed.

(** A cached entry is found in the slot of its triple. *)
Lemma in_slot pool C i s t c : sound pool C -> In i (concat (ca_slots C)) -> is_for (ca_heap C i) s t c = true ->
  In i (nth (N.to_nat (avc_hash s t c)) (ca_slots C) []).
Proof.
  intros (_ & _ & _ & HS & _) H F. apply in_concat_nth in H as (k & _ & Hk). pose proof (HS k i Hk) as (E & _).
  apply is_for_spec in F as (F1 & F2 & F3). rewrite F1, F2, F3 in E. subst k. exact Hk.
Qed.

Lemma search_spec pool C s t c : sound pool C ->
  match avc_search_node C s t c with
  | (C', Some i) => C' = set_heap C (upd (ca_heap C) i (set_used (ca_heap C i) true)) /\ In i (concat (ca_slots C)) /\
                    is_for (ca_heap C i) s t c = true /\ sound pool C'
  | (C', None) => C' = C /\ forall j, In j (concat (ca_slots C)) -> is_for (ca_heap C j) s t c = false
  end.
Proof.
  intros S. unfold avc_search_node, search_chain. destruct (find _ _) as [i|] eqn:E.
  - apply find_some in E as [E1 E2]. assert (Hi : In i (concat (ca_slots C))) by (eapply in_nth_concat; eassumption).
    split; [reflexivity|]. split; [exact Hi|]. split; [exact E2|]. apply sound_node; auto.
  - split; [reflexivity|]. intros j Hj. destruct (is_for (ca_heap C j) s t c) eqn:F; [|reflexivity].
    rewrite <- F. exact (find_none _ _ E j (in_slot pool C j s t c S Hj F)).
Qed.

Lemma insert_spec pool C s t c d : sound pool C -> N.of_nat (length pool) < 4294967296 -> s <> 0 -> t <> 0 ->
  match avc_insert C s t c d with
  | (C', inl HEagain) => ad_seqno d < ca_notif C /\ C' = C
  | (C', inl HEnomem) => pool = [] /\ unchanged C C' /\ sound pool C'
  | (C', inl _) => False
  | (C', inr i) => ca_notif C <= ad_seqno d /\ sound pool C' /\ taken C C' i /\ ca_heap C' i = mkAE s t c d 0 true
  end.
Proof.
  intros S HP Hs Ht. unfold avc_insert. destruct (N.ltb_spec (ad_seqno d) (ca_notif C)) as [Lt|Ge]; [auto|].
  pose proof (claim_spec pool C s t c S HP Hs Ht) as H. destruct (avc_claim_node C s t c) as [C' [i|]]; [|exact H].
  destruct H as (H1 & H2 & H3). split; [exact Ge|].
  assert (Hi : In i (concat (ca_slots C'))) by (apply H2; left; reflexivity).
  split; [apply sound_node; auto|].
  split.
  - destruct H2 as (T1 & T2 & T3 & T4). split; [exact T1|]. split; [|auto].
    intros j Hj. cbn [set_heap ca_heap]. rewrite upd_other by exact Hj. apply T2, Hj.
  - cbn [set_heap ca_heap]. rewrite upd_same, H3. reflexivity.
Qed.

Definition ref_ok (pool : list N) (r : option N) : Prop := match r with Some i => In i pool | None => True end.

Definition absent (C : cache) s t c req : Prop :=
  forall j, In j (concat (ca_slots C)) -> is_for (ca_heap C j) s t c = true -> decides (ae_avd (ca_heap C j)) req = true -> False.

Lemma lookup_spec pool C s t c req : sound pool C ->
  match avc_lookup C s t c req with
  | (C', Some i) => unchanged C C' /\ sound pool C' /\ In i (concat (ca_slots C)) /\ is_for (ca_heap C i) s t c = true /\
                    decides (ae_avd (ca_heap C i)) req = true
  | (C', None) => unchanged C C' /\ sound pool C' /\
      ((forall j, In j (concat (ca_slots C)) -> is_for (ca_heap C j) s t c = false) \/
       exists i, In i (concat (ca_slots C)) /\ is_for (ca_heap C i) s t c = true /\ decides (ae_avd (ca_heap C i)) req = false)
  end.
Proof.
  intros S. pose proof (search_spec pool C s t c S) as H. unfold avc_lookup. destruct (avc_search_node C s t c) as [C' [i|]].
  - destruct H as (E & H1 & H2 & H3). assert (U : unchanged C C') by (rewrite E; apply unchanged_used).
    assert (EA : ae_avd (ca_heap C' i) = ae_avd (ca_heap C i)) by (destruct U as (_ & _ & U & _); apply U).
    rewrite EA. destruct (decides _ _) eqn:D.
    + auto.
    + split; [exact U|]. split; [exact H3|]. right. exists i. auto.
  - destruct H as [-> H]. split; [apply unchanged_refl|]. split; [exact S|]. left. exact H.
Qed.

Lemma find_spec pool C s t c req ref ans : sound pool C -> N.of_nat (length pool) < 4294967296 -> s <> 0 -> t <> 0 -> ref_ok pool ref ->
  match find_entry C s t c req ref ans with
  | (C', inr i, false) => unchanged C C' /\ sound pool C' /\ In i (concat (ca_slots C)) /\ is_for (ca_heap C i) s t c = true
  | (C', inr i, true) => exists d C1, ans = AnsAvd d /\ ca_notif C <= ad_seqno d /\ sound pool C' /\ unchanged C C1 /\ taken C1 C' i /\
      ca_heap C' i = mkAE s t c d 0 true /\
      ((forall j, In j (concat (ca_slots C)) -> is_for (ca_heap C j) s t c = false) \/
       exists i, In i (concat (ca_slots C)) /\ is_for (ca_heap C i) s t c = true /\ decides (ae_avd (ca_heap C i)) req = false)
  | (C', inl r, asked) => unchanged C C' /\ sound pool C' /\ asked = true /\
      match r with
      | H0 => ca_enforcing C = false /\ ans = AnsEinval
      | HEacces => False
      | HEagain => exists d, ans = AnsAvd d /\ ad_seqno d < ca_notif C
      | HEnomem => pool = []
      | HErr => ans = AnsErr \/ (ans = AnsEinval /\ ca_enforcing C = true)
      end
  end.
Proof.
  intros S HP Hs Ht Hr. unfold find_entry.
  assert (HREF : forall i, ref = Some i -> is_for (ca_heap C i) s t c = true -> In i (concat (ca_slots C))).
  { intros i -> F. destruct (in_pool pool C i S Hr) as [H|H]; [exact H|]. exfalso.
    destruct S as (_ & _ & _ & _ & HF & _). rewrite (HF i H) in F. apply is_for_spec in F as (F & _). cbn in F. congruence. }
  set (by_ref := match ref with Some i => if is_for (ca_heap C i) s t c && decides (ae_avd (ca_heap C i)) req then Some i else None | None => None end).
  assert (HB : forall i, by_ref = Some i -> In i (concat (ca_slots C)) /\ is_for (ca_heap C i) s t c = true).
  { intros i E. unfold by_ref in E. destruct ref as [q|]; [|discriminate]. destruct (_ && _) eqn:B; [|discriminate].
    injection E as ->. apply andb_prop in B as [B _]. split; [apply HREF; auto|exact B]. }
  destruct by_ref as [i|].
  - destruct (HB i eq_refl) as [H1 H2]. split; [apply unchanged_used|]. split; [apply sound_node; auto|auto].
  - pose proof (lookup_spec pool C s t c req S) as H. destruct (avc_lookup C s t c req) as [C1 [i|]].
    + destruct H as (H1 & H2 & H3 & H4 & _). auto.
    + destruct H as (H1 & H2 & H3). pose proof H1 as (_ & _ & _ & N1 & N2 & N3). destruct ans as [d| |].
      * pose proof (insert_spec pool C1 s t c d H2 HP Hs Ht) as I. destruct (avc_insert C1 s t c d) as [C2 [r|i]].
        -- destruct r; try contradiction.
           ++ destruct I as [I1 ->]. split; [exact H1|]. split; [exact H2|]. split; [reflexivity|]. exists d. rewrite <- N1. auto.
           ++ destruct I as (I1 & I2 & I3). split; [eapply unchanged_trans; eassumption|]. auto.
        -- destruct I as (I1 & I2 & I3 & I4). exists d, C1. rewrite <- N1. auto 10.
      * split; [exact H1|]. split; [exact H2|]. split; [reflexivity|]. rewrite N2. destruct (ca_enforcing C); auto.
      * auto 10.
Qed.

(** ** Content invariants, over abstract histories *)
Section content.
Context (A : N -> N -> N -> list avdec) (G : N -> N -> N -> N) (K : N -> N -> N -> N -> Prop) (V : N -> N -> N -> option avdec).

Definition backed (enf : bool) (e : aentry) : Prop :=
  (enf = true -> exists d0, In d0 (A (ae_s e) (ae_t e) (ae_c e)) /\ ad_flags (ae_avd e) = ad_flags d0 /\
     (N.testbit (ad_flags d0) 0 = true \/
      forall b, N.testbit (ad_allowed (ae_avd e)) b = true ->
        N.testbit (ad_allowed d0) b = true \/ N.testbit (G (ae_s e) (ae_t e) (ae_c e)) b = true)) /\
  (ae_create e <> 0 -> K (ae_s e) (ae_t e) (ae_c e) (ae_create e)).
Definition InvG (C : cache) : Prop := forall i, In i (concat (ca_slots C)) -> backed (ca_enforcing C) (ca_heap C i).

Definition agree (enf : bool) (d d0 : avdec) : Prop :=
  ad_decided d = 4294967295 /\ ad_decided d0 = 4294967295 /\ ad_auditallow d = ad_auditallow d0 /\ ad_auditdeny d = ad_auditdeny d0 /\
  ad_seqno d = ad_seqno d0 /\ ad_flags d = ad_flags d0 /\
  (forall b, N.testbit (ad_allowed d0) b = true -> N.testbit (ad_allowed d) b = true) /\
  (enf = true -> N.testbit (ad_flags d0) 0 = false -> ad_allowed d = ad_allowed d0).
Definition same_for (e e' : aentry) : Prop := ae_s e = ae_s e' /\ ae_t e = ae_t e' /\ ae_c e = ae_c e'.
Definition InvF (C : cache) : Prop :=
  (forall i j, In i (concat (ca_slots C)) -> In j (concat (ca_slots C)) -> same_for (ca_heap C i) (ca_heap C j) -> i = j) /\
  (forall i, In i (concat (ca_slots C)) -> let e := ca_heap C i in
     exists d0, V (ae_s e) (ae_t e) (ae_c e) = Some d0 /\ agree (ca_enforcing C) (ae_avd e) d0).
End content.

Lemma backed_core A G K enf e e' : core e e' -> backed A G K enf e -> backed A G K enf e'.
Proof. intros (E1 & E2 & E3 & E4 & E5) H. unfold backed. rewrite E1, E2, E3, E4, E5. exact H. Qed.

Lemma backed_mono (A A' : N -> N -> N -> list avdec) (G G' : N -> N -> N -> N) (K K' : N -> N -> N -> N -> Prop) enf e :
  (forall s t c d, In d (A s t c) -> In d (A' s t c)) ->
  (forall s t c b, N.testbit (G s t c) b = true -> N.testbit (G' s t c) b = true) ->
  (forall s t c v, K s t c v -> K' s t c v) -> backed A G K enf e -> backed A' G' K' enf e.
Proof.
  intros HA HG HK [H1 H2]. split; [|auto]. intros En. destruct (H1 En) as (d0 & I1 & I2 & I3). exists d0.
  split; [auto|]. split; [exact I2|]. destruct I3 as [I3|I3]; [left; exact I3|right]. intros b Hb. destruct (I3 b Hb); auto.
Qed.

Lemma InvG_mono (A A' : N -> N -> N -> list avdec) (G G' : N -> N -> N -> N) (K K' : N -> N -> N -> N -> Prop) C :
  (forall s t c d, In d (A s t c) -> In d (A' s t c)) ->
  (forall s t c b, N.testbit (G s t c) b = true -> N.testbit (G' s t c) b = true) ->
  (forall s t c v, K s t c v -> K' s t c v) -> InvG A G K C -> InvG A' G' K' C.
Proof. intros HA HG HK H i Hi. eapply backed_mono; eauto. Qed.

Lemma InvG_unchanged A G K C C' : unchanged C C' -> InvG A G K C -> InvG A G K C'.
Proof.
  intros (E1 & _ & E3 & _ & E5 & _) H i Hi. rewrite E1 in Hi. rewrite E5. eapply backed_core; [apply E3|apply H, Hi].
Qed.

Lemma InvF_unchanged V C C' : unchanged C C' -> InvF V C -> InvF V C'.
Proof.
  intros (E1 & _ & E3 & _ & E5 & _) [H1 H2]. split.
  - intros i j Hi Hj (F1 & F2 & F3). rewrite E1 in *. apply H1; [exact Hi|exact Hj|].
    destruct (E3 i) as (I1 & I2 & I3 & _). destruct (E3 j) as (J1 & J2 & J3 & _). unfold same_for. split; [congruence|]. split; congruence.
  - intros i Hi. cbv zeta. rewrite E1 in Hi. destruct (E3 i) as (I1 & I2 & I3 & I4 & _). rewrite I1, I2, I3, I4, E5. apply (H2 i Hi).
Qed.

(** Taking a node for a new answer. *)
Lemma InvG_taken A G K C C' i s t c d u : taken C C' i -> ca_heap C' i = mkAE s t c d 0 u -> In d (A s t c) ->
  InvG A G K C -> InvG A G K C'.
Proof.
  intros (T1 & T2 & (_ & T3 & _) & _) E Hd H j Hj. rewrite T3. apply T1 in Hj as [->|[Hj Hne]].
  - rewrite E. split; cbn [ae_s ae_t ae_c ae_avd ae_create]; [|congruence]. intros _. exists d. auto.
  - eapply backed_core; [apply T2, Hne|apply H, Hj].
Qed.

Lemma InvF_taken (V V' : N -> N -> N -> option avdec) C C' i s t c d u : taken C C' i -> ca_heap C' i = mkAE s t c d 0 u ->
  (forall j, In j (concat (ca_slots C)) -> is_for (ca_heap C j) s t c = false) -> ad_decided d = 4294967295 ->
  V' s t c = Some d -> (forall s' t' c', (s', t', c') <> (s, t, c) -> V' s' t' c' = V s' t' c') ->
  InvF V C -> InvF V' C'.
Proof.
  intros (T1 & T2 & (_ & T3 & _) & _) E Hn Hd V1 V2 [H1 H2].
  assert (NE : forall j, In j (concat (ca_slots C)) -> j <> i -> same_for (ca_heap C' i) (ca_heap C' j) -> False).
  { intros j Hj Hne (F1 & F2 & F3). rewrite E in *. cbn in *. destruct (T2 j Hne) as (J1 & J2 & J3 & _).
    specialize (Hn j Hj). assert (is_for (ca_heap C j) s t c = true) by (apply is_for_spec; split; [congruence|]; split; congruence). congruence. }
  split.
  - intros a b Ha Hb F. apply T1 in Ha as [->|[Ha Na]]; apply T1 in Hb as [->|[Hb Nb]]; [reflexivity| | |].
    + exfalso. eapply NE; eassumption.
    + exfalso. apply (NE a Ha Na). destruct F as (F1 & F2 & F3). split; [congruence|]. split; congruence.
    + apply H1; [exact Ha|exact Hb|]. destruct (T2 a Na) as (I1 & I2 & I3 & _). destruct (T2 b Nb) as (J1 & J2 & J3 & _).
      destruct F as (F1 & F2 & F3). split; [congruence|]. split; congruence.
  - intros j Hj. cbv zeta. apply T1 in Hj as [->|[Hj Hne]].
    + rewrite E. cbn [ae_s ae_t ae_c ae_avd]. exists d. split; [exact V1|]. unfold agree. auto 10.
    + destruct (T2 j Hne) as (I1 & I2 & I3 & I4 & _). rewrite I1, I2, I3, I4, T3, V2; [apply (H2 j Hj)|].
      intros Q. injection Q as Q1 Q2 Q3. specialize (Hn j Hj).
      assert (is_for (ca_heap C j) s t c = true) by (apply is_for_spec; auto). congruence.
Qed.

(** Adding the request to the allowed permissions, in permissive mode or for a permissive domain. *)
Definition allow_more (C : cache) i req : cache :=
  set_heap C (upd (ca_heap C) i (set_avd (ca_heap C i) (set_allowed (ae_avd (ca_heap C i)) (N.lor (ad_allowed (ae_avd (ca_heap C i))) req)))).

Lemma flag0 f : negb (N.land f 1 =? 0) = N.testbit f 0.
Proof.
  destruct f as [|[p|p|]]; reflexivity.
Qed.

Lemma InvG_more A G K C i req : (ca_enforcing C = false \/ N.testbit (ad_flags (ae_avd (ca_heap C i))) 0 = true) ->
  InvG A G K C -> InvG A G K (allow_more C i req).
Proof.
  intros HP H j Hj. cbn [allow_more set_heap ca_slots ca_heap ca_enforcing] in *. unfold upd. destruct (N.eqb_spec j i) as [->|]; [|apply H, Hj].
  destruct (H i Hj) as [H1 H2]. split; [|exact H2]. intros En. destruct (H1 En) as (d0 & I1 & I2 & I3).
  cbn [set_avd set_allowed ae_s ae_t ae_c ae_avd ad_flags ad_allowed]. exists d0. split; [exact I1|]. split; [exact I2|]. left.
  destruct HP as [HP|HP]; [congruence|]. rewrite <- I2. exact HP.
Qed.

Lemma InvF_more V C i req : (ca_enforcing C = false \/ N.testbit (ad_flags (ae_avd (ca_heap C i))) 0 = true) ->
  InvF V C -> InvF V (allow_more C i req).
Proof.
  intros HP [H1 H2]. cbn [allow_more]. split; cbn [allow_more set_heap ca_slots ca_heap ca_enforcing].
  - intros a b Ha Hb F. apply H1; [exact Ha|exact Hb|]. revert F. unfold upd, same_for.
    destruct (N.eqb_spec a i) as [->|], (N.eqb_spec b i) as [->|]; cbn [set_avd ae_s ae_t ae_c]; auto.
  - intros j Hj. cbv zeta. destruct (H2 j Hj) as (d0 & I1 & I2). cbv zeta in I1. unfold upd. destruct (N.eqb_spec j i) as [->|].
    + cbn [set_avd ae_s ae_t ae_c ae_avd]. exists d0. split; [exact I1|]. destruct I2 as (A1 & A2 & A3 & A4 & A5 & A6 & A7 & A8).
      unfold agree. cbn [set_allowed ad_allowed ad_decided ad_auditallow ad_auditdeny ad_seqno ad_flags].
      split; [exact A1|]. split; [exact A2|]. split; [exact A3|]. split; [exact A4|]. split; [exact A5|]. split; [exact A6|]. split.
      * intros b Hb. rewrite N.lor_spec, (A7 b Hb). reflexivity.
      * intros En Fl. exfalso. destruct HP as [HP|HP]; congruence.
    + exists d0. auto.
Qed.

Lemma sound_more pool C i req : sound pool C -> In i (concat (ca_slots C)) -> sound pool (allow_more C i req).
Proof. intros S Hi. apply sound_node; auto. Qed.

(** Recording the SID for new objects. *)
Lemma InvG_create A G (K : N -> N -> N -> N -> Prop) C i v : In i (concat (ca_slots C)) ->
  (let e := ca_heap C i in v <> 0 -> K (ae_s e) (ae_t e) (ae_c e) v) -> InvG A G K C ->
  InvG A G K (set_heap C (upd (ca_heap C) i (set_create (ca_heap C i) v))).
Proof.
  intros Hi HK H j Hj. cbn [set_heap ca_slots ca_heap ca_enforcing] in *. unfold upd. destruct (N.eqb_spec j i) as [->|]; [|apply H, Hj].
  destruct (H i Hj) as [H1 H2]. split; [exact H1|exact HK].
Qed.
Lemma InvF_create V C i v : InvF V C -> InvF V (set_heap C (upd (ca_heap C) i (set_create (ca_heap C i) v))).
Proof.
  intros [H1 H2]. split; cbn [set_heap ca_slots ca_heap ca_enforcing].
  - intros a b Ha Hb F. apply H1; [exact Ha|exact Hb|]. revert F. unfold upd, same_for.
    destruct (N.eqb_spec a i) as [->|], (N.eqb_spec b i) as [->|]; cbn [set_create ae_s ae_t ae_c]; auto.
  - intros j Hj. cbv zeta. unfold upd. destruct (N.eqb_spec j i) as [->|]; apply (H2 _ Hj).
Qed.

(** Emptying. *)
Lemma concat_repeat_nil {X} n : concat (repeat (@nil X) n) = [].
Proof. induction n; cbn; auto. Qed.
Lemma Inv_empty A G K V C : concat (ca_slots C) = [] -> InvG A G K C /\ InvF V C.
Proof. intros E. split; [intros i; rewrite E; intros []|]. split; rewrite E; [intros i j []|intros i []]. Qed.

Lemma nth_repeat_nil {X} n k : nth k (repeat (@nil X) n) [] = [].
Proof. revert k. induction n; intros [|k]; cbn; auto. Qed.

Lemma reset_sound pool C : sound pool C -> N.of_nat (length pool) < 4294967296 -> sound pool (avc_reset C).
Proof.
  intros (L & ND & PE & HS & HF & HH & HA) HP. unfold sound, avc_reset. cbn [ca_slots ca_free ca_heap ca_hint ca_active].
  rewrite concat_repeat_nil. cbn [app length].
  assert (PP : Permutation (rev (concat (ca_slots C)) ++ ca_free C) (concat (ca_slots C) ++ ca_free C)).
  { apply Permutation_app_tail. apply Permutation_sym, Permutation_rev. }
  split; [apply repeat_length|]. split; [eapply Permutation_NoDup; [apply Permutation_sym; exact PP|exact ND]|].
  split; [eapply perm_trans; eassumption|]. split; [intros k i; rewrite nth_repeat_nil; intros []|]. split; [|split; [lia|]].
  - intros i Hi. destruct (existsb (N.eqb i) (concat (ca_slots C))) eqn:X; [reflexivity|].
    apply in_app_iff in Hi as [Hi|Hi]; [|auto]. apply in_rev in Hi. exfalso.
    assert (existsb (N.eqb i) (concat (ca_slots C)) = true) by (apply existsb_exists; exists i; split; [exact Hi|apply N.eqb_refl]). congruence.
  - rewrite HA. unfold wrap32, W32. rewrite <- (Permutation_length PE), app_length in HP. lia.
Qed.

Lemma bump_sound pool C q : sound pool C -> sound pool (bump C q).
Proof. intros S. exact S. Qed.

(** Update events. *)
Lemma sid_concerns pool C i s t c : sound pool C -> In i (concat (ca_slots C)) ->
  avc_sidcmp s (ae_s (ca_heap C i)) && avc_sidcmp t (ae_t (ca_heap C i)) && (c =? ae_c (ca_heap C i)) =
  concerns s t c (ae_s (ca_heap C i)) (ae_t (ca_heap C i)) (ae_c (ca_heap C i)).
Proof.
  intros (_ & _ & _ & HS & _) Hi. apply in_concat_nth in Hi as (k & _ & Hi). destruct (HS k i Hi) as (_ & Z1 & Z2).
  unfold avc_sidcmp, concerns. rewrite (proj2 (N.eqb_neq _ _) Z1), (proj2 (N.eqb_neq _ _) Z2), !orb_false_r. reflexivity.
Qed.

Lemma fold_update ev s t c p l : forall h, NoDup l -> forall j,
  fold_left (update_if ev s t c p) l h j =
  if existsb (N.eqb j) l && (avc_sidcmp s (ae_s (h j)) && avc_sidcmp t (ae_t (h j)) && (c =? ae_c (h j)))
  then set_avd (h j) (update_avd ev (ae_avd (h j)) p) else h j.
Proof.
  induction l as [|i l IH]; intros h ND j; [reflexivity|]. cbn [fold_left existsb]. inversion ND as [|? ? N1 N2]; subst.
  rewrite (IH _ N2). destruct (N.eqb_spec j i) as [->|Ne]; cbn [orb andb].
  - assert (X : existsb (N.eqb i) l = false).
    { destruct (existsb (N.eqb i) l) eqn:X; [|reflexivity]. apply existsb_exists in X as (y & Hy & E). apply N.eqb_eq in E. subst y. contradiction. }
    rewrite X. cbn [andb]. unfold update_if. destruct (avc_sidcmp s (ae_s (h i)) && _ && _); [apply upd_same|reflexivity].
  - assert (E : update_if ev s t c p h i j = h j).
    { unfold update_if. destruct (_ && _); [apply upd_other; exact Ne|reflexivity]. }
    rewrite E. reflexivity.
Qed.

(** After an event each cached entry is the old one, or the old one updated if concerned; if triples are
    unique then all concerned entries are updated. *)
Definition updated ev p (e e' : aentry) : Prop := core (set_avd e (update_avd ev (ae_avd e) p)) e'.

Lemma update_spec pool C ev s t c p : sound pool C ->
  let C' := avc_update_cache C ev s t c p in
  sound pool C' /\ ca_slots C' = ca_slots C /\ ca_free C' = ca_free C /\ others C C' /\
  forall j, In j (concat (ca_slots C)) ->
    let e := ca_heap C j in
    (core e (ca_heap C' j) /\
      (concerns s t c (ae_s e) (ae_t e) (ae_c e) = true -> exists i, i <> j /\ In i (concat (ca_slots C)) /\ same_for (ca_heap C i) e)) \/
    (updated ev p e (ca_heap C' j) /\ concerns s t c (ae_s e) (ae_t e) (ae_c e) = true).
Proof.
  intros S C'. unfold C', avc_update_cache. destruct ((s =? 0) || (t =? 0)) eqn:W.
  - assert (ND : NoDup (concat (ca_slots C))) by (destruct S as (_ & ND & _); exact (nodup_app_l _ _ ND)).
    set (h := fold_left _ _ _).
    assert (FE : forall j, In j (concat (ca_slots C)) ->
      h j = if concerns s t c (ae_s (ca_heap C j)) (ae_t (ca_heap C j)) (ae_c (ca_heap C j))
            then set_avd (ca_heap C j) (update_avd ev (ae_avd (ca_heap C j)) p) else ca_heap C j).
    { intros j Hj. unfold h. rewrite (fold_update ev s t c p _ _ ND). rewrite (sid_concerns pool C j s t c S Hj).
      assert (X : existsb (N.eqb j) (concat (ca_slots C)) = true) by (apply existsb_exists; exists j; split; [exact Hj|apply N.eqb_refl]).
      rewrite X. reflexivity. }
    split; [|split; [reflexivity|split; [reflexivity|split; [unfold others; auto|]]]].
    + apply sound_heap; [exact S| |].
      * intros j Hj. rewrite (FE j Hj). destruct (concerns _ _ _ _ _ _); auto.
      * intros j Hj. unfold h. rewrite (fold_update ev s t c p _ _ ND).
        destruct (existsb (N.eqb j) (concat (ca_slots C))) eqn:X; [|reflexivity]. exfalso.
        apply existsb_exists in X as (y & Hy & E). apply N.eqb_eq in E. subst y. eapply not_both; eassumption.
    + intros j Hj; cbv zeta; set (e := ca_heap C j). cbn [set_heap ca_heap]. rewrite (FE j Hj). fold e. destruct (concerns s t c (ae_s e) (ae_t e) (ae_c e)) eqn:X.
      * right. split; [apply core_refl|reflexivity].
      * left. split; [apply core_refl|discriminate].
  - pose proof (search_spec pool C s t c S) as H. destruct (avc_search_node C s t c) as [C1 [i|]].
    + destruct H as (E1 & H1 & H2 & H3). assert (U : unchanged C C1) by (rewrite E1; apply unchanged_used).
      pose proof U as (U1 & U2 & U3 & U4).
      split; [apply sound_node; auto; rewrite U1; exact H1|]. split; [exact U1|]. split; [exact U2|]. split; [exact U4|].
      apply is_for_spec in H2 as (F1 & F2 & F3).
      intros j Hj; cbv zeta; set (e := ca_heap C j). cbn [set_heap ca_heap]. unfold upd. destruct (N.eqb_spec j i) as [->|Ne].
      * right. destruct (U3 i) as (I1 & I2 & I3 & I4 & I5). fold e in I1, I2, I3, I4, I5. split.
        -- unfold updated, core. cbn [set_avd ae_s ae_t ae_c ae_avd ae_create]. fold e. rewrite I4. auto.
        -- unfold e. unfold concerns. rewrite F1, F2, F3, !N.eqb_refl. reflexivity.
      * left. split; [apply U3|]. intros X. exists i. split; [auto|]. split; [exact H1|].
        unfold concerns in X. apply orb_false_iff in W as [W1 W2]. rewrite W1, W2, !orb_false_r in X.
        apply andb_prop in X as [X X3]. apply andb_prop in X as [X1 X2]. apply N.eqb_eq in X1, X2, X3. split; [congruence|]. split; congruence.
    + destruct H as [-> H]. split; [exact S|]. split; [reflexivity|]. split; [reflexivity|]. split; [apply others_refl|].
      intros j Hj; cbv zeta; set (e := ca_heap C j). left. split; [apply core_refl|]. intros X. exfalso.
      unfold concerns in X. apply orb_false_iff in W as [W1 W2]. rewrite W1, W2, !orb_false_r in X.
      apply andb_prop in X as [X X3]. apply andb_prop in X as [X1 X2]. apply N.eqb_eq in X1, X2, X3.
      specialize (H j Hj). assert (is_for (ca_heap C j) s t c = true) by (apply is_for_spec; auto). congruence.
Qed.

Lemma update_after ev d p : update_avd ev d p = after_event ev d p.
Proof. destruct ev; destruct d; reflexivity. Qed.

Lemma agree_update enf d d0 ev p : agree enf d d0 -> agree enf (update_avd ev d p) (update_avd ev d0 p).
Proof.
  intros (A1 & A2 & A3 & A4 & A5 & A6 & A7 & A8). unfold agree.
  destruct ev; cbn [update_avd set_allowed ad_allowed ad_decided ad_auditallow ad_auditdeny ad_seqno ad_flags];
    (split; [exact A1|]); (split; [exact A2|]); (split; [congruence|]); (split; [congruence|]); (split; [exact A5|]); (split; [exact A6|]);
    (split; [|intros En Fl; rewrite ?(A8 En Fl); reflexivity]); intros b; rewrite ?N.lor_spec, ?N.ldiff_spec;
    intros Hb; try (apply A7; exact Hb).
  - apply orb_true_iff in Hb as [Hb|Hb]; rewrite ?(A7 b Hb), ?Hb, ?orb_true_r; reflexivity.
  - apply andb_prop in Hb as [Hb Hp]. rewrite (A7 b Hb), Hp. reflexivity.
  - apply andb_prop in Hb as [Hb Hp]. rewrite (A7 b Hb), Hp. reflexivity.
Qed.

Lemma update_flags ev d p : ad_flags (update_avd ev d p) = ad_flags d.
Proof. destruct ev; reflexivity. Qed.
Lemma update_allowed ev d p b : N.testbit (ad_allowed (update_avd ev d p)) b = true ->
  N.testbit (ad_allowed d) b = true \/ (ev = EvGrant /\ N.testbit p b = true).
Proof.
  destruct ev; cbn [update_avd set_allowed ad_allowed]; rewrite ?N.lor_spec, ?N.ldiff_spec; intros H; auto.
  - apply orb_true_iff in H as [H|H]; auto.
  - apply andb_prop in H as [H _]. auto.
  - apply andb_prop in H as [H _]. auto.
Qed.

Lemma InvG_update pool A (G G' : N -> N -> N -> N) K C ev s t c p : sound pool C ->
  (forall s' t' c' b, N.testbit (G s' t' c') b = true -> N.testbit (G' s' t' c') b = true) ->
  (ev = EvGrant -> forall s' t' c' b, concerns s t c s' t' c' = true -> N.testbit p b = true -> N.testbit (G' s' t' c') b = true) ->
  InvG A G K C -> InvG A G' K (avc_update_cache C ev s t c p).
Proof.
  intros S HG HP H. pose proof (update_spec pool C ev s t c p S) as (_ & E1 & _ & (_ & E3 & _) & HU). intros i Hi. rewrite E1 in Hi. rewrite E3.
  assert (H' : backed A G' K (ca_enforcing C) (ca_heap C i)) by (eapply backed_mono; [| | |apply H, Hi]; auto).
  destruct (HU i Hi) as [[U _]|[U X]]; [eapply backed_core; eassumption|].
  eapply backed_core; [exact U|]. destruct H' as [B1 B2]. split; [|exact B2]. cbn [set_avd ae_s ae_t ae_c ae_avd ae_create].
  intros En. destruct (B1 En) as (d0 & I1 & I2 & I3). exists d0. split; [exact I1|]. rewrite update_flags. split; [exact I2|].
  destruct I3 as [I3|I3]; [left; exact I3|right]. intros b Hb. apply update_allowed in Hb as [Hb|[-> Hb]]; [auto|].
  right. eapply HP; eauto.
Qed.

Lemma InvF_update pool (V : N -> N -> N -> option avdec) C ev s t c p : sound pool C -> InvF V C ->
  InvF (fun s' t' c' => if concerns s t c s' t' c' then option_map (fun d => after_event ev d p) (V s' t' c') else V s' t' c')
       (avc_update_cache C ev s t c p).
Proof.
  intros S [H1 H2]. pose proof (update_spec pool C ev s t c p S) as (_ & E1 & _ & (_ & E3 & _) & HU).
  set (C' := avc_update_cache C ev s t c p) in *.
  assert (TR : forall j, In j (concat (ca_slots C)) ->
    ae_s (ca_heap C' j) = ae_s (ca_heap C j) /\ ae_t (ca_heap C' j) = ae_t (ca_heap C j) /\ ae_c (ca_heap C' j) = ae_c (ca_heap C j)).
  { intros j Hj. destruct (HU j Hj) as [[U _]|[U _]]; destruct U as (U1 & U2 & U3 & _); auto. }
  split.
  - intros i j Hi Hj (F1 & F2 & F3). rewrite E1 in *. destruct (TR i Hi) as (I1 & I2 & I3). destruct (TR j Hj) as (J1 & J2 & J3).
    apply H1; auto. split; [congruence|]. split; congruence.
  - intros i Hi. cbv zeta. rewrite E1 in Hi. destruct (TR i Hi) as (I1 & I2 & I3). rewrite I1, I2, I3, E3.
    destruct (H2 i Hi) as (d0 & D1 & D2). cbv zeta in D1. rewrite D1. destruct (HU i Hi) as [[U X]|[U X]].
    + destruct (concerns s t c _ _ _) eqn:Q.
      * exfalso. destruct (X eq_refl) as (j & Nj & Hj & F). apply Nj. apply H1; auto.
      * exists d0. split; [reflexivity|]. destruct U as (_ & _ & _ & U & _). rewrite U. exact D2.
    + rewrite X. cbn [option_map]. eexists. split; [reflexivity|]. destruct U as (_ & _ & _ & U & _). rewrite U. cbn [set_avd ae_avd].
      rewrite <- update_after. apply agree_update. exact D2.
Qed.

(** ** Histories *)
Definition InvT (pool : list N) (start fixed : bool) (tr : list (aop * aout)) (S : asys) : Prop :=
  sound pool (s_cache S) /\ (forall k, ref_ok pool (s_refs S k)) /\
  ca_notif (s_cache S) = notified tr /\ ca_fixed (s_cache S) = fixed /\ ca_enforcing (s_cache S) = mode start fixed tr /\
  InvG (fun s t c => answers fixed s t c tr) (fun s t c => grants fixed s t c tr) (fun s t c v => created fixed s t c v tr) (s_cache S).

Definition InvV (fixed : bool) (tr : list (aop * aout)) (S : asys) : Prop :=
  InvF (fun s t c => view fixed s t c tr) (s_cache S).

(** How a check turns the entry found into a result. *)
Lemma noaudit_eq C s t c req ref ans :
  avc_has_perm_noaudit C s t c req ref ans =
  match find_entry C s t c req ref ans with
  | (C1, inl r, asked) => (C1, r, ref, avd_init C, asked)
  | (C1, inr i, asked) =>
      let d := ae_avd (ca_heap C1 i) in
      if (req =? 0) || negb (N.ldiff req (ad_allowed d) =? 0) then
        if negb (ca_enforcing C1) || N.testbit (ad_flags d) 0 then (allow_more C1 i req, H0, Some i, d, asked)
        else (C1, HEacces, Some i, d, asked)
      else (C1, H0, Some i, d, asked)
  end.
Proof.
  unfold avc_has_perm_noaudit. destruct (find_entry C s t c req ref ans) as [[C1 [r|i]] asked]; [reflexivity|].
  cbv zeta. rewrite flag0. reflexivity.
Qed.

Lemma others_trans A B C : others A B -> others B C -> others A C.
Proof. unfold others. intros (?&?&?) (?&?&?). split; [congruence|]. split; congruence. Qed.

Lemma mode_fixed start tr : mode start true tr = start.
Proof. induction tr as [|x tr IH]; cbn; [reflexivity|]. destruct (fst x); auto. Qed.

(** What a check does to the cache: entries found or stored, then possibly more permissions in the entry used. *)
Definition check_case (pool : list N) (C C' : cache) s t c req ans r (d : avdec) (asked : bool) (ref ref' : option N) : Prop :=
  (unchanged C C' /\ asked = true /\ ref' = ref /\ d = avd_init C /\
     match r with
     | H0 => ca_enforcing C = false /\ ans = AnsEinval
     | HEacces => False
     | HEagain => exists d, ans = AnsAvd d /\ ad_seqno d < ca_notif C
     | HEnomem => pool = []
     | HErr => ans = AnsErr \/ (ans = AnsEinval /\ ca_enforcing C = true)
     end) \/
  (exists C1 i, sound pool C1 /\ In i (concat (ca_slots C1)) /\ ref' = Some i /\ others C C1 /\
     is_for (ca_heap C1 i) s t c = true /\ d = ae_avd (ca_heap C1 i) /\
     (if asked then
        exists d0 C0, ans = AnsAvd d0 /\ ca_notif C <= ad_seqno d0 /\ unchanged C C0 /\ taken C0 C1 i /\ ca_heap C1 i = mkAE s t c d0 0 true /\
          ((forall j, In j (concat (ca_slots C)) -> is_for (ca_heap C j) s t c = false) \/
           exists j, In j (concat (ca_slots C)) /\ is_for (ca_heap C j) s t c = true /\ decides (ae_avd (ca_heap C j)) req = false)
      else unchanged C C1) /\
     let ok := negb (req =? 0) && (N.ldiff req (ad_allowed d) =? 0) in
     let perm := negb (ca_enforcing C) || N.testbit (ad_flags d) 0 in
     r = (if ok || perm then H0 else HEacces) /\ C' = (if negb ok && perm then allow_more C1 i req else C1)).

Lemma check_spec pool C s t c req ref ans : sound pool C -> N.of_nat (length pool) < 4294967296 -> s <> 0 -> t <> 0 -> ref_ok pool ref ->
  let '(C', r, ref', d, asked) := avc_has_perm_noaudit C s t c req ref ans in
  sound pool C' /\ others C C' /\ ref_ok pool ref' /\ check_case pool C C' s t c req ans r d asked ref ref'.
Proof.
  intros S HP Hs Ht Hr. rewrite noaudit_eq. pose proof (find_spec pool C s t c req ref ans S HP Hs Ht Hr) as F.
  destruct (find_entry C s t c req ref ans) as [[C1 [r|i]] asked].
  - destruct F as (U & S1 & A1 & R). split; [exact S1|]. split; [apply U|]. split; [exact Hr|]. left. auto 10.
  - assert (FF : sound pool C1 /\ others C C1 /\ In i (concat (ca_slots C1)) /\ is_for (ca_heap C1 i) s t c = true /\
      (if asked then
        exists d0 C0, ans = AnsAvd d0 /\ ca_notif C <= ad_seqno d0 /\ unchanged C C0 /\ taken C0 C1 i /\ ca_heap C1 i = mkAE s t c d0 0 true /\
          ((forall j, In j (concat (ca_slots C)) -> is_for (ca_heap C j) s t c = false) \/
           exists j, In j (concat (ca_slots C)) /\ is_for (ca_heap C j) s t c = true /\ decides (ae_avd (ca_heap C j)) req = false)
      else unchanged C C1)).
    { destruct asked.
      - destruct F as (d & C0 & F1 & F2 & F3 & F4 & F5 & F6 & F7). split; [exact F3|]. split.
        + eapply others_trans; [apply F4|apply F5].
        + split; [apply F5; left; reflexivity|]. split; [rewrite F6; apply is_for_spec; auto|]. exists d, C0. auto 10.
      - destruct F as (F1 & F2 & F3 & F4). split; [exact F2|]. split; [apply F1|]. pose proof F1 as (E1 & _ & E3 & _).
        split; [rewrite E1; exact F3|]. split; [|exact F1].
        apply is_for_spec in F4 as (G1 & G2 & G3). destruct (E3 i) as (I1 & I2 & I3 & _). apply is_for_spec. split; [congruence|]. split; congruence. }
    destruct FF as (S1 & O1 & Hi & F1 & F2). cbv zeta. set (d := ae_avd (ca_heap C1 i)).
    assert (EC : ca_enforcing C1 = ca_enforcing C) by apply O1. rewrite EC.
    assert (RO : ref_ok pool (Some i)) by (cbn; eapply slot_pool; eassumption).
    destruct ((req =? 0) || negb (N.ldiff req (ad_allowed d) =? 0)) eqn:D.
    + assert (OK : negb (req =? 0) && (N.ldiff req (ad_allowed d) =? 0) = false).
      { apply orb_true_iff in D as [D|D]; [rewrite D; reflexivity|]. apply negb_true_iff in D. rewrite D. apply andb_false_r. }
      destruct (negb (ca_enforcing C) || N.testbit (ad_flags d) 0) eqn:PM.
      * split; [apply sound_more; assumption|]. split; [exact O1|]. split; [exact RO|]. right. exists C1, i.
        split; [exact S1|]. split; [exact Hi|]. split; [reflexivity|]. split; [exact O1|]. split; [exact F1|]. split; [reflexivity|]. split; [exact F2|].
        cbv zeta. rewrite OK, PM. split; reflexivity.
      * split; [exact S1|]. split; [exact O1|]. split; [exact RO|]. right. exists C1, i.
        split; [exact S1|]. split; [exact Hi|]. split; [reflexivity|]. split; [exact O1|]. split; [exact F1|]. split; [reflexivity|]. split; [exact F2|].
        cbv zeta. rewrite OK, PM. split; reflexivity.
    + assert (OK : negb (req =? 0) && (N.ldiff req (ad_allowed d) =? 0) = true).
      { apply orb_false_iff in D as [D1 D2]. rewrite D1. apply negb_false_iff in D2. rewrite D2. reflexivity. }
      split; [exact S1|]. split; [exact O1|]. split; [exact RO|]. right. exists C1, i.
      split; [exact S1|]. split; [exact Hi|]. split; [reflexivity|]. split; [exact O1|]. split; [exact F1|]. split; [reflexivity|]. split; [exact F2|].
      cbv zeta. rewrite OK. split; reflexivity.
Qed.

Definition entry_case (pool : list N) (C C1 : cache) s t c req ans (asked : bool) i : Prop :=
  sound pool C1 /\ In i (concat (ca_slots C1)) /\ others C C1 /\ is_for (ca_heap C1 i) s t c = true /\
  (if asked then
     exists d0 C0, ans = AnsAvd d0 /\ ca_notif C <= ad_seqno d0 /\ unchanged C C0 /\ taken C0 C1 i /\ ca_heap C1 i = mkAE s t c d0 0 true /\
       ((forall j, In j (concat (ca_slots C)) -> is_for (ca_heap C j) s t c = false) \/
        exists j, In j (concat (ca_slots C)) /\ is_for (ca_heap C j) s t c = true /\ decides (ae_avd (ca_heap C j)) req = false)
   else unchanged C C1).

Lemma create_spec pool C s t c ans sid : sound pool C -> N.of_nat (length pool) < 4294967296 -> s <> 0 -> t <> 0 ->
  let '(C', v, asked, asked2) := avc_compute_create C s t c ans sid in
  sound pool C' /\ others C C' /\
  ((unchanged C C' /\ v = None /\ asked2 = false /\ asked = true) \/
   exists C1 i, entry_case pool C C1 s t c 0 ans asked i /\
     asked2 = (ae_create (ca_heap C1 i) =? 0) /\
     v = (if asked2 then sid else Some (ae_create (ca_heap C1 i))) /\
     C' = match asked2, sid with
          | true, Some w => set_heap C1 (upd (ca_heap C1) i (set_create (ca_heap C1 i) w))
          | _, _ => C1
          end).
Proof.
  intros S HP Hs Ht. unfold avc_compute_create.
  pose proof (lookup_spec pool C s t c 0 S) as H. destruct (avc_lookup C s t c 0) as [C1 [i|]].
  - destruct H as (U & S1 & H1 & H2 & _). pose proof U as (E1 & _ & E3 & O1).
    assert (Hi : In i (concat (ca_slots C1))) by (rewrite E1; exact H1).
    assert (EC : entry_case pool C C1 s t c 0 ans false i).
    { split; [exact S1|]. split; [exact Hi|]. split; [exact O1|]. split; [|exact U].
      apply is_for_spec in H2 as (G1 & G2 & G3). destruct (E3 i) as (I1 & I2 & I3 & _). apply is_for_spec. split; [congruence|]. split; congruence. }
    cbv zeta. destruct (ae_create (ca_heap C1 i) =? 0) eqn:Z; [destruct sid as [w|]|].
    + split; [apply sound_node; auto|]. split; [exact O1|]. right. exists C1, i. rewrite Z. auto.
    + split; [exact S1|]. split; [exact O1|]. right. exists C1, i. rewrite Z. auto.
    + split; [exact S1|]. split; [exact O1|]. right. exists C1, i. rewrite Z. auto.
  - destruct H as (U & S1 & H1). pose proof U as (_ & _ & _ & O1). destruct ans as [d| |]; [|split; [exact S1|split; [exact O1|left; auto]]..].
    pose proof (insert_spec pool C1 s t c d S1 HP Hs Ht) as I. destruct (avc_insert C1 s t c d) as [C2 [r|i]].
    + destruct r; try contradiction.
      * destruct I as [_ ->]. split; [exact S1|]. split; [exact O1|]. left. auto.
      * destruct I as (_ & I2 & I3). pose proof (unchanged_trans _ _ _ U I2) as U2. split; [exact I3|]. split; [apply U2|left; auto].
    + destruct I as (I1 & I2 & I3 & I4). cbv zeta. rewrite I4. cbn [ae_create]. rewrite N.eqb_refl.
      assert (O2 : others C C2) by (eapply others_trans; [exact O1|apply I3]).
      assert (Hi : In i (concat (ca_slots C2))) by (apply I3; left; reflexivity).
      assert (EC : entry_case pool C C2 s t c 0 (AnsAvd d) true i).
      { split; [exact I2|]. split; [exact Hi|]. split; [exact O2|]. split; [rewrite I4; apply is_for_spec; auto|].
        exists d, C1. destruct O1 as (O1 & _). rewrite <- O1. auto 10. }
      destruct sid as [w|].
      * split; [apply sound_node; auto; rewrite I4; reflexivity|]. split; [exact O2|]. right. exists C2, i. rewrite I4. cbn [ae_create]. rewrite N.eqb_refl. auto.
      * split; [exact I2|]. split; [exact O2|]. right. exists C2, i. rewrite I4. cbn [ae_create]. rewrite N.eqb_refl. auto.
Qed.

Lemma answers_cons fixed s t c x tr : is_reset fixed (fst x) = false ->
  answers fixed s t c (x :: tr) = match stored_answer s t c x with Some d => [d] | None => [] end ++ answers fixed s t c tr.
Proof. intros H. cbn [answers]. rewrite H. reflexivity. Qed.

Lemma view_cons fixed s t c x tr : is_reset fixed (fst x) = false -> no_control (fst x) ->
  view fixed s t c (x :: tr) = match stored_answer s t c x with Some d => Some d | None => view fixed s t c tr end.
Proof. intros H N. cbn [view]. rewrite H. destruct (stored_answer s t c x); [reflexivity|]. destruct (fst x); try reflexivity. contradiction. Qed.

(** Entry found or stored, at the level of histories: [now] is the trace with the operation. *)
Lemma entry_inv pool fixed tr now C C1 s t c req ans asked i : entry_case pool C C1 s t c req ans asked i ->
  (forall s' t' c' d, In d (answers fixed s' t' c' tr) -> In d (answers fixed s' t' c' now)) ->
  (forall s' t' c', grants fixed s' t' c' now = grants fixed s' t' c' tr) ->
  (forall s' t' c' v, created fixed s' t' c' v tr -> created fixed s' t' c' v now) ->
  (forall d, asked = true -> ans = AnsAvd d -> In d (answers fixed s t c now)) ->
  InvG (fun s t c => answers fixed s t c tr) (fun s t c => grants fixed s t c tr) (fun s t c v => created fixed s t c v tr) C ->
  InvG (fun s t c => answers fixed s t c now) (fun s t c => grants fixed s t c now) (fun s t c v => created fixed s t c v now) C1.
Proof.
  intros (S1 & Hi & O1 & F & H) HA HG HK HN I.
  assert (I' : InvG (fun s t c => answers fixed s t c now) (fun s t c => grants fixed s t c now) (fun s t c v => created fixed s t c v now) C).
  { eapply InvG_mono; [| | |exact I]; cbn beta; [exact HA| |exact HK]. intros. rewrite HG. assumption. }
  destruct asked.
  - destruct H as (d0 & C0 & -> & _ & U & T & E & _). eapply InvG_taken; [exact T|exact E|apply HN; reflexivity|].
    eapply InvG_unchanged; eassumption.
  - eapply InvG_unchanged; eassumption.
Qed.

Definition full_ans (a : answer) : Prop := match a with AnsAvd d => ad_decided d = 4294967295 | _ => True end.

Lemma full_decides req : req < 4294967296 -> N.land 4294967295 req =? req = true.
Proof.
  intros H. change 4294967295 with (N.ones 32). rewrite N.land_comm, N.land_ones. change (2 ^ 32) with 4294967296.
  rewrite N.mod_small by exact H. apply N.eqb_refl.
Qed.

Lemma entry_invF pool fixed tr now C C1 s t c req ans asked i : entry_case pool C C1 s t c req ans asked i -> full_ans ans ->
  req < 4294967296 ->
  (forall d, asked = true -> ans = AnsAvd d -> view fixed s t c now = Some d) ->
  (forall s' t' c', (s', t', c') <> (s, t, c) -> view fixed s' t' c' now = view fixed s' t' c' tr) ->
  (asked = false -> view fixed s t c now = view fixed s t c tr) ->
  InvF (fun s t c => view fixed s t c tr) C -> InvF (fun s t c => view fixed s t c now) C1.
Proof.
  intros (S1 & Hi & O1 & F & H) FA HR HN HO HS I.
  assert (EXT : asked = false -> InvF (fun s t c => view fixed s t c now) C).
  { intros Ea. destruct I as [I1 I2]. split; [exact I1|]. intros j Hj. destruct (I2 j Hj) as (d0 & D1 & D2). cbv zeta in *. exists d0. split; [|exact D2].
    rewrite <- D1. set (e := ca_heap C j) in *.
    destruct (N.eq_dec (ae_s e) s) as [->|N1]; [destruct (N.eq_dec (ae_t e) t) as [->|N2]; [destruct (N.eq_dec (ae_c e) c) as [->|N3]|]|];
      [apply HS; exact Ea| | |]; apply HO; congruence. }
  destruct asked.
  - destruct H as (d0 & C0 & -> & _ & U & T & E & AB).
    assert (NO : forall j, In j (concat (ca_slots C)) -> is_for (ca_heap C j) s t c = false).
    { destruct AB as [AB|(j & J1 & J2 & J3)]; [exact AB|]. exfalso. destruct (proj2 I j J1) as (d1 & _ & D & _).
      unfold decides in J3. rewrite D, full_decides in J3 by exact HR. discriminate. }
    pose proof U as (U1 & _ & U3 & _).
    refine (InvF_taken (fun s t c => view fixed s t c tr) _ C0 C1 i s t c d0 true T E _ FA _ _ _).
    + intros j Hj. rewrite U1 in Hj. rewrite <- (NO j Hj). unfold is_for. destruct (U3 j) as (I1 & I2 & I3 & _). rewrite I1, I2, I3. reflexivity.
    + apply HN; reflexivity.
    + exact HO.
    + eapply InvF_unchanged; eassumption.
  - eapply InvF_unchanged; [exact H|]. apply EXT. reflexivity.
Qed.

Lemma stored_other s t c s' t' c' req ref ans out : (s', t', c') <> (s, t, c) -> stored_answer s' t' c' (OCheck s t c req ref ans, out) = None.
Proof.
  intros N. cbn [stored_answer]. destruct ans as [d| |]; try reflexivity. destruct out as [r d' [|]| |]; try reflexivity.
  destruct ((s =? s') && (t =? t') && (c =? c')) eqn:E; [|reflexivity]. exfalso. apply N.
  apply andb_prop in E as [E E3]. apply andb_prop in E as [E1 E2]. apply N.eqb_eq in E1, E2, E3. congruence.
Qed.
Lemma stored_other_create s t c s' t' c' ans sid out : (s', t', c') <> (s, t, c) -> stored_answer s' t' c' (OCreate s t c ans sid, out) = None.
Proof.
  intros N. cbn [stored_answer]. destruct ans as [d| |]; try reflexivity. destruct out as [|v [|] [|]|]; try reflexivity.
  destruct ((s =? s') && (t =? t') && (c =? c')) eqn:E; [|reflexivity]. exfalso. apply N.
  apply andb_prop in E as [E E3]. apply andb_prop in E as [E1 E2]. apply N.eqb_eq in E1, E2, E3. congruence.
Qed.

Lemma reset_of C b : ca_fixed C = false -> avc_process_setenforce C b =
  let C' := mkCache (ca_heap C) (ca_slots C) (ca_free C) (ca_hint C) (ca_active C) (ca_notif C) b (ca_fixed C) in
  if b then avc_ss_reset C' 0 else C'.
Proof. intros E. unfold avc_process_setenforce. rewrite E. reflexivity. Qed.

Lemma step_ok pool start fixed tr S o S' out : N.of_nat (length pool) < 4294967296 -> op_ok o ->
  InvT pool start fixed tr S -> astep S o = (S', out) -> InvT pool start fixed ((o, out) :: tr) S'.
Proof.
  intros HP Ho (SO & RF & HN & HF & HM & HG) E. destruct o as [s t c req ref ans|s t c ans sid|ev s t c p seq ret|seq|b|]; cbn [astep] in E.
  - destruct Ho as (Hs & Ht & Hreq). set (r0 := match ref with Some k => s_refs S k | None => None end) in E.
    assert (Hr0 : ref_ok pool r0) by (destruct ref; cbn; [apply RF|exact I]).
    pose proof (check_spec pool (s_cache S) s t c req r0 ans SO HP Hs Ht Hr0) as H.
    destruct (avc_has_perm_noaudit (s_cache S) s t c req r0 ans) as [[[[C' r] ref'] d] asked].
    injection E as E1 E2. subst S' out. destruct H as (H1 & (O1 & O2 & O3) & H3 & H4).
    split; [exact H1|]. split.
    { destruct ref as [k|]; cbn [s_refs]; [|exact RF]. intros j. destruct (j =? k); [exact H3|apply RF]. }
    cbn [s_cache]. split; [rewrite O1; exact HN|]. split; [rewrite O3; exact HF|]. split; [rewrite O2; exact HM|].
    set (now := (OCheck s t c req ref ans, OutCheck r d asked) :: tr).
    assert (MA : forall s' t' c' d, In d (answers fixed s' t' c' tr) -> In d (answers fixed s' t' c' now))
      by (intros; unfold now; rewrite answers_cons by reflexivity; apply in_app_iff; right; assumption).
    assert (MK : forall s' t' c' v, created fixed s' t' c' v tr -> created fixed s' t' c' v now) by (intros; right; split; [reflexivity|assumption]).
    destruct H4 as [(U & _)|(C1 & i & S1 & Hi & _ & OC & F & Ed & EA & Er & EC)].
    + eapply InvG_mono; [exact MA| |exact MK|eapply InvG_unchanged; eassumption]. intros; assumption.
    + assert (EN : entry_case pool (s_cache S) C1 s t c req ans asked i) by (split; [exact S1|]; split; [exact Hi|]; split; [exact OC|]; split; [exact F|exact EA]).
      assert (IG : InvG (fun s t c => answers fixed s t c now) (fun s t c => grants fixed s t c now) (fun s t c v => created fixed s t c v now) C1).
      { refine (entry_inv pool fixed tr now (s_cache S) C1 s t c req ans asked i EN MA _ MK _ HG).
        - reflexivity.
        - intros d1 -> ->. unfold now. rewrite answers_cons by reflexivity. cbn [stored_answer]. rewrite !N.eqb_refl. cbn [andb].
          rewrite Er. destruct (_ || _); left; reflexivity. }
      rewrite EC. destruct (negb (_ && _) && _) eqn:B; [|exact IG]. apply InvG_more; [|exact IG].
      apply andb_prop in B as [_ B]. rewrite <- Ed. assert (ca_enforcing C1 = ca_enforcing (s_cache S)) as -> by apply OC.
      destruct (ca_enforcing (s_cache S)); [right; exact B|left; reflexivity].
  - destruct Ho as (Hs & Ht). pose proof (create_spec pool (s_cache S) s t c ans sid SO HP Hs Ht) as H.
    destruct (avc_compute_create (s_cache S) s t c ans sid) as [[[C' v] asked] asked2].
    injection E as E1 E2. subst S' out. destruct H as (H1 & (O1 & O2 & O3) & H4).
    split; [exact H1|]. split; [exact RF|]. cbn [s_cache]. split; [rewrite O1; exact HN|]. split; [rewrite O3; exact HF|]. split; [rewrite O2; exact HM|].
    set (now := (OCreate s t c ans sid, OutCreate v asked asked2) :: tr).
    assert (MA : forall s' t' c' d, In d (answers fixed s' t' c' tr) -> In d (answers fixed s' t' c' now))
      by (intros; unfold now; rewrite answers_cons by reflexivity; apply in_app_iff; right; assumption).
    assert (MK : forall s' t' c' v, created fixed s' t' c' v tr -> created fixed s' t' c' v now) by (intros; right; split; [reflexivity|assumption]).
    destruct H4 as [(U & _)|(C1 & i & EN & Ea2 & Ev & EC)].
    + eapply InvG_mono; [exact MA| |exact MK|eapply InvG_unchanged; eassumption]. intros; assumption.
    + assert (IG : InvG (fun s t c => answers fixed s t c now) (fun s t c => grants fixed s t c now) (fun s t c v => created fixed s t c v now) C1).
      { refine (entry_inv pool fixed tr now (s_cache S) C1 s t c 0 ans asked i EN MA _ MK _ HG).
        - reflexivity.
        - intros d1 -> ->. unfold now. rewrite answers_cons by reflexivity. cbn [stored_answer]. rewrite !N.eqb_refl. cbn [andb].
          destruct EN as (_ & _ & _ & _ & d0 & C0 & _ & _ & _ & _ & E0 & _). rewrite E0 in Ea2. cbn in Ea2. rewrite Ea2. left; reflexivity. }
      rewrite EC. destruct asked2; [|exact IG]. destruct sid as [w|]; [|exact IG].
      destruct EN as (_ & Hi & _ & F & _). apply InvG_create; [exact Hi| |exact IG]. cbv zeta; intros _; left.
      apply is_for_spec in F as (F1 & F2 & F3). auto.
  - injection E as E1 E2. subst S' out. cbn [s_cache s_refs].
    pose proof (update_spec pool (s_cache S) ev s t c (ev_perms ev p ret) SO) as (US & _ & _ & (U1 & U2 & U3) & _).
    change (avc_control (s_cache S) ev s t c p seq ret) with (bump (avc_update_cache (s_cache S) ev s t c (ev_perms ev p ret)) seq).
    split; [apply bump_sound; exact US|]. split; [exact RF|]. cbn [s_cache bump ca_notif ca_fixed ca_enforcing]. rewrite U1, U2, U3.
    split; [cbn [notified fst]; rewrite HN; destruct (N.ltb_spec (notified tr) seq); lia|]. split; [exact HF|]. split; [exact HM|].
    intros i Hi. refine (InvG_update pool _ (fun s t c => grants fixed s t c tr) _ _ (s_cache S) ev s t c (ev_perms ev p ret) SO _ _ _ i Hi).
    + intros s' t' c' b Hb. cbn [grants fst is_reset]. destruct ev; try exact Hb. rewrite N.lor_spec, Hb. apply orb_true_r.
    + intros -> s' t' c' b Hc Hb. cbn [grants fst is_reset]. rewrite Hc, N.lor_spec. cbn [ev_perms] in Hb. rewrite Hb. reflexivity.
    + eapply InvG_mono; [| | |exact HG]; cbn beta.
      * intros. rewrite answers_cons by reflexivity. assumption.
      * auto.
      * intros. right. split; [reflexivity|assumption].
  - injection E as E1 E2. subst S' out. cbn [s_cache s_refs]. unfold avc_process_policyload, avc_ss_reset.
    split; [apply bump_sound, reset_sound; assumption|]. split; [exact RF|].
    cbn [s_cache bump avc_reset ca_notif ca_fixed ca_enforcing]. split; [cbn [notified fst]; rewrite HN; destruct (N.ltb_spec (notified tr) seq); lia|].
    split; [exact HF|]. split; [exact HM|]. apply (Inv_empty _ _ _ (fun _ _ _ => None)). cbn [s_cache bump avc_reset ca_slots]. apply concat_repeat_nil.
  - injection E as E1 E2. subst S' out. cbn [s_cache s_refs]. destruct fixed.
    + unfold avc_process_setenforce. rewrite HF. split; [exact SO|]. split; [exact RF|]. split; [exact HN|]. split; [exact HF|].
      split; [cbn [s_cache mode fst]; rewrite HM; apply mode_fixed|].
      eapply InvG_mono; [| | |exact HG]; cbn beta.
      * intros. rewrite answers_cons by (destruct b; reflexivity). assumption.
      * intros. cbn [grants fst is_reset negb]. destruct b; assumption.
      * intros. right. split; [destruct b; reflexivity|assumption].
    + rewrite (reset_of _ _ HF). destruct b; cbv zeta.
      * set (C0 := mkCache _ _ _ _ _ _ _ _). assert (S0 : sound pool C0) by exact SO.
        split; [apply bump_sound, reset_sound; assumption|]. split; [exact RF|].
        cbn [s_cache avc_ss_reset bump avc_reset ca_notif ca_fixed ca_enforcing C0].
        split; [cbn [notified fst]; rewrite <- HN; destruct (N.ltb_spec (ca_notif (s_cache S)) 0); lia|]. split; [exact HF|]. split; [reflexivity|].
        apply (Inv_empty _ _ _ (fun _ _ _ => None)). cbn [s_cache avc_ss_reset bump avc_reset ca_slots]. apply concat_repeat_nil.
      * split; [exact SO|]. split; [exact RF|]. split; [exact HN|]. split; [exact HF|]. split; [reflexivity|].
        intros i Hi. cbn [s_cache ca_slots ca_heap ca_enforcing] in *. destruct (HG i Hi) as [_ G2]. split; [discriminate|].
        intros Z. right. split; [reflexivity|]. apply G2, Z.
  - injection E as E1 E2. subst S' out. cbn [s_cache s_refs].
    split; [apply reset_sound; assumption|]. split; [exact RF|].
    split; [exact HN|]. split; [exact HF|]. split; [exact HM|]. apply (Inv_empty _ _ _ (fun _ _ _ => None)). cbn [s_cache avc_reset ca_slots]. apply concat_repeat_nil.
Qed.

Lemma step_full pool start fixed tr S o S' out : N.of_nat (length pool) < 4294967296 -> op_ok o -> full_answer o ->
  InvT pool start fixed tr S -> InvV fixed tr S -> astep S o = (S', out) -> InvV fixed ((o, out) :: tr) S'.
Proof.
  intros HP Ho Hf (SO & RF & HN & HF & HM & HG) HV E. unfold InvV in *.
  destruct o as [s t c req ref ans|s t c ans sid|ev s t c p seq ret|seq|b|]; cbn [astep] in E.
  - destruct Ho as (Hs & Ht & Hreq). set (r0 := match ref with Some k => s_refs S k | None => None end) in E.
    assert (Hr0 : ref_ok pool r0) by (destruct ref; cbn; [apply RF|exact I]).
    pose proof (check_spec pool (s_cache S) s t c req r0 ans SO HP Hs Ht Hr0) as H.
    destruct (avc_has_perm_noaudit (s_cache S) s t c req r0 ans) as [[[[C' r] ref'] d] asked].
    injection E as E1 E2. subst S' out. destruct H as (H1 & (O1 & O2 & O3) & H3 & H4). cbn [s_cache].
    set (now := (OCheck s t c req ref ans, OutCheck r d asked) :: tr).
    assert (VO : forall s' t' c', (s', t', c') <> (s, t, c) -> view fixed s' t' c' now = view fixed s' t' c' tr).
    { intros. unfold now. rewrite view_cons by (try reflexivity; exact I). rewrite stored_other by assumption. reflexivity. }
    destruct H4 as [(U & Ea & _ & _ & R)|(C1 & i & S1 & Hi & _ & OC & F & Ed & EA & Er & EC)].
    + assert (ST : forall s' t' c', stored_answer s' t' c' (OCheck s t c req ref ans, OutCheck r d asked) = None).
      { intros. cbn [stored_answer]. rewrite Ea. destruct r.
        - destruct R as [_ ->]. reflexivity.
        - contradiction.
        - destruct ans; try reflexivity. destruct (_ && _); reflexivity.
        - destruct ans; try reflexivity. destruct (_ && _); reflexivity.
        - destruct R as [->|[-> _]]; reflexivity. }
      eapply InvF_unchanged; [exact U|]. destruct HV as [V1 V2]. split; [exact V1|]. intros j Hj. destruct (V2 j Hj) as (d0 & D1 & D2). exists d0.
      split; [|exact D2]. unfold now. rewrite view_cons by (try reflexivity; exact I). rewrite ST. exact D1.
    + assert (EN : entry_case pool (s_cache S) C1 s t c req ans asked i) by (split; [exact S1|]; split; [exact Hi|]; split; [exact OC|]; split; [exact F|exact EA]).
      assert (IG : InvF (fun s t c => view fixed s t c now) C1).
      { refine (entry_invF pool fixed tr now (s_cache S) C1 s t c req ans asked i EN _ Hreq _ VO _ HV).
        - destruct ans; [exact Hf|exact I|exact I].
        - intros d1 -> ->. unfold now. rewrite view_cons by (try reflexivity; exact I). cbn [stored_answer]. rewrite !N.eqb_refl. cbn [andb].
          rewrite Er. destruct (_ || _); reflexivity.
        - intros ->. unfold now. rewrite view_cons by (try reflexivity; exact I). cbn [stored_answer]. destruct ans; reflexivity. }
      rewrite EC. destruct (negb (_ && _) && _) eqn:B; [|exact IG]. apply InvF_more; [|exact IG].
      apply andb_prop in B as [_ B]. rewrite <- Ed. assert (ca_enforcing C1 = ca_enforcing (s_cache S)) as -> by apply OC.
      destruct (ca_enforcing (s_cache S)); [right; exact B|left; reflexivity].
  - destruct Ho as (Hs & Ht). pose proof (create_spec pool (s_cache S) s t c ans sid SO HP Hs Ht) as H.
    destruct (avc_compute_create (s_cache S) s t c ans sid) as [[[C' v] asked] asked2].
    injection E as E1 E2. subst S' out. destruct H as (H1 & (O1 & O2 & O3) & H4). cbn [s_cache].
    set (now := (OCreate s t c ans sid, OutCreate v asked asked2) :: tr).
    assert (VO : forall s' t' c', (s', t', c') <> (s, t, c) -> view fixed s' t' c' now = view fixed s' t' c' tr).
    { intros. unfold now. rewrite view_cons by (try reflexivity; exact I). rewrite stored_other_create by assumption. reflexivity. }
    destruct H4 as [(U & _ & Ea2 & Ea)|(C1 & i & EN & Ea2 & Ev & EC)].
    + eapply InvF_unchanged; [exact U|]. destruct HV as [V1 V2]. split; [exact V1|]. intros j Hj. destruct (V2 j Hj) as (d0 & D1 & D2). exists d0.
      split; [|exact D2]. unfold now. rewrite view_cons by (try reflexivity; exact I). cbn [stored_answer]. rewrite Ea, Ea2.
      destruct ans; exact D1.
    + assert (IG : InvF (fun s t c => view fixed s t c now) C1).
      { refine (entry_invF pool fixed tr now (s_cache S) C1 s t c 0 ans asked i EN _ _ _ VO _ HV).
        - destruct ans; [exact Hf|exact I|exact I].
        - reflexivity.
        - intros d1 -> ->. unfold now. rewrite view_cons by (try reflexivity; exact I). cbn [stored_answer]. rewrite !N.eqb_refl. cbn [andb].
          destruct EN as (_ & _ & _ & _ & d0 & C0 & _ & _ & _ & _ & E0 & _). rewrite E0 in Ea2. cbn in Ea2. rewrite Ea2. reflexivity.
        - intros ->. unfold now. rewrite view_cons by (try reflexivity; exact I). cbn [stored_answer]. destruct ans; reflexivity. }
      rewrite EC. destruct asked2; [|exact IG]. destruct sid as [w|]; [|exact IG]. apply InvF_create. exact IG.
  - injection E as E1 E2. subst S' out. cbn [s_cache s_refs].
    exact (InvF_update pool _ (s_cache S) ev s t c (ev_perms ev p ret) SO HV).
  - injection E as E1 E2. subst S' out. apply (Inv_empty (fun _ _ _ => []) (fun _ _ _ => 0) (fun _ _ _ _ => False)).
    cbn [s_cache avc_process_policyload avc_ss_reset bump avc_reset ca_slots]. apply concat_repeat_nil.
  - injection E as E1 E2. subst S' out. cbn [s_cache s_refs]. destruct fixed.
    + unfold avc_process_setenforce. rewrite HF. destruct HV as [V1 V2]. split; [exact V1|]. intros j Hj. destruct (V2 j Hj) as (d0 & D1 & D2). exists d0.
      split; [|exact D2]. cbn [view stored_answer fst is_reset negb]. destruct b; exact D1.
    + rewrite (reset_of _ _ HF). destruct b; cbv zeta.
      * apply (Inv_empty (fun _ _ _ => []) (fun _ _ _ => 0) (fun _ _ _ _ => False)). cbn [avc_ss_reset bump avc_reset ca_slots]. apply concat_repeat_nil.
      * destruct HV as [V1 V2]. split; [exact V1|]. intros j Hj. destruct (V2 j Hj) as (d0 & D1 & D2). exists d0. split; [exact D1|].
        cbn [ca_enforcing ca_heap]. destruct D2 as (A1 & A2 & A3 & A4 & A5 & A6 & A7 & _). unfold agree. do 7 (split; [assumption|]). discriminate.
  - injection E as E1 E2. subst S' out. apply (Inv_empty (fun _ _ _ => []) (fun _ _ _ => 0) (fun _ _ _ _ => False)).
    cbn [s_cache avc_reset ca_slots]. apply concat_repeat_nil.
Qed.

(** ** Runs *)
Definition pool_of (k : nat) : list N := map N.of_nat (rev (seq 0 k)).
Definition asys0 (k : nat) (start fixed : bool) : asys := mkS (avc_init k start fixed) (fun _ => None).

Lemma pool_length k : length (pool_of k) = k.
Proof. unfold pool_of. rewrite map_length, rev_length. apply seq_length. Qed.

Lemma pool_nodup k : NoDup (pool_of k).
Proof.
  unfold pool_of. apply FinFun.Injective_map_NoDup; [intros a b H; lia|]. eapply Permutation_NoDup; [apply Permutation_rev|apply seq_NoDup].
Qed.

Lemma init_ok k start fixed : InvT (pool_of k) start fixed [] (asys0 k start fixed) /\ InvV fixed [] (asys0 k start fixed).
Proof.
  assert (E : concat (ca_slots (avc_init k start fixed)) = []) by (cbn [avc_init ca_slots]; apply concat_repeat_nil).
  split.
  - split.
    + unfold sound. cbn [asys0 s_cache]. rewrite E. cbn [avc_init ca_slots ca_free ca_heap ca_hint ca_active app length]. fold (pool_of k).
      split; [apply repeat_length|]. split; [apply pool_nodup|]. split; [reflexivity|].
      split; [intros q i; rewrite nth_repeat_nil; intros []|]. split; [reflexivity|]. split; [lia|reflexivity].
    + split; [intros q; exact I|]. split; [reflexivity|]. split; [reflexivity|]. split; [reflexivity|].
      apply (Inv_empty _ _ _ (fun _ _ _ => None)). exact E.
  - apply (Inv_empty (fun _ _ _ => []) (fun _ _ _ => 0) (fun _ _ _ _ => False)). exact E.
Qed.

Lemma run_ok pool start fixed l : forall S tr S' tr', N.of_nat (length pool) < 4294967296 -> Forall op_ok l ->
  InvT pool start fixed tr S -> arun S tr l = (S', tr') -> InvT pool start fixed tr' S'.
Proof.
  induction l as [|o l IH]; intros S tr S' tr' HP HO I E; cbn [arun] in E; [injection E as <- <-; exact I|].
  inversion HO; subst. destruct (astep S o) as [S1 out] eqn:A. eapply IH; [exact HP|assumption| |exact E]. eapply step_ok; eassumption.
Qed.
Lemma run_full pool start fixed l : forall S tr S' tr', N.of_nat (length pool) < 4294967296 -> Forall op_ok l -> Forall full_answer l ->
  InvT pool start fixed tr S -> InvV fixed tr S -> arun S tr l = (S', tr') -> InvV fixed tr' S'.
Proof.
  induction l as [|o l IH]; intros S tr S' tr' HP HO HF I V E; cbn [arun] in E; [injection E as <- <-; exact V|].
  inversion HO; subst. inversion HF; subst. destruct (astep S o) as [S1 out] eqn:A.
  eapply IH; [exact HP|assumption|assumption| | |exact E]; [eapply step_ok; eassumption|eapply step_full; eassumption].
Qed.

Lemma arun_app l1 : forall S tr l2, arun S tr (l1 ++ l2) = let (S1, tr1) := arun S tr l1 in arun S1 tr1 l2.
Proof. induction l1 as [|o l1 IH]; intros S tr l2; cbn [app arun]; [reflexivity|]. destruct (astep S o). apply IH. Qed.

Lemma arun_trace l : forall S tr S' tr', arun S tr l = (S', tr') -> exists new, tr' = new ++ tr /\ map fst new = rev l.
Proof.
  induction l as [|o l IH]; intros S tr S' tr' E; cbn [arun] in E.
  - injection E as <- <-. exists []. auto.
  - destruct (astep S o) as [S1 out]. destruct (IH _ _ _ _ E) as (n & -> & Hn). exists (n ++ [(o, out)]). rewrite <- app_assoc. split; [reflexivity|].
    rewrite map_app, Hn. reflexivity.
Qed.

(** Stored answers are not older than the notifications before them. *)
Lemma step_seqno pool start fixed tr S o S' out s t c d : N.of_nat (length pool) < 4294967296 -> op_ok o ->
  InvT pool start fixed tr S -> astep S o = (S', out) -> stored_answer s t c (o, out) = Some d -> notified tr <= ad_seqno d.
Proof.
  intros HP Ho (SO & RF & HN & _) E ST. rewrite <- HN. destruct o as [s' t' c' req ref ans|s' t' c' ans sid|ev s' t' c' p seq ret|seq|b|]; try discriminate; cbn [astep] in E.
  - destruct Ho as (Hs & Ht & _). set (r0 := match ref with Some k => s_refs S k | None => None end) in E.
    assert (Hr0 : ref_ok pool r0) by (destruct ref; cbn; [apply RF|exact I]).
    pose proof (check_spec pool (s_cache S) s' t' c' req r0 ans SO HP Hs Ht Hr0) as H.
    destruct (avc_has_perm_noaudit (s_cache S) s' t' c' req r0 ans) as [[[[C' r] ref'] dd] asked].
    injection E as E1 E2. subst S' out. cbn [stored_answer] in ST. destruct ans as [d1| |]; try discriminate. destruct asked; try discriminate.
    destruct (_ && _) in ST; [|discriminate]. destruct H as (_ & _ & _ & [(_ & _ & _ & _ & R)|(C1 & i & _ & _ & _ & _ & _ & _ & EA & _)]).
    + destruct r; try discriminate; [destruct R; discriminate|contradiction|destruct R as [R|[R _]]; discriminate].
    + destruct EA as (d0 & C0 & E0 & LE & _). assert (d = d1) by (destruct r; congruence). congruence.
  - destruct Ho as (Hs & Ht). pose proof (create_spec pool (s_cache S) s' t' c' ans sid SO HP Hs Ht) as H.
    destruct (avc_compute_create (s_cache S) s' t' c' ans sid) as [[[C' v] asked] asked2].
    injection E as E1 E2. subst S' out. cbn [stored_answer] in ST. destruct ans as [d1| |]; try discriminate. destruct asked; try discriminate.
    destruct asked2; try discriminate. destruct (_ && _) in ST; [|discriminate]. injection ST as ->.
    destruct H as (_ & _ & [(_ & _ & Q & _)|(C1 & i & (_ & _ & _ & _ & d0 & C0 & E0 & LE & _) & _)]); [discriminate|congruence].
Qed.

Definition seqs_ok (tr : list (aop * aout)) : Prop :=
  forall newer x older s t c d, tr = newer ++ x :: older -> stored_answer s t c x = Some d -> notified older <= ad_seqno d.

Lemma run_seqs pool start fixed l : forall S tr S' tr', N.of_nat (length pool) < 4294967296 -> Forall op_ok l ->
  InvT pool start fixed tr S -> seqs_ok tr -> arun S tr l = (S', tr') -> seqs_ok tr'.
Proof.
  induction l as [|o l IH]; intros S tr S' tr' HP HO I Q E; cbn [arun] in E; [injection E as <- <-; exact Q|].
  inversion HO; subst. destruct (astep S o) as [S1 out] eqn:A. eapply IH; [exact HP|assumption| | |exact E]; [eapply step_ok; eassumption|].
  intros newer x older s t c d Eq ST. destruct newer as [|y newer]; cbn in Eq; injection Eq as E1 E2; subst.
  - eapply step_seqno; eassumption.
  - eapply Q; [reflexivity|exact ST].
Qed.

Lemma reach k start fixed l S tr : N.of_nat k < 4294967296 -> Forall op_ok l -> arun (asys0 k start fixed) [] l = (S, tr) ->
  InvT (pool_of k) start fixed tr S /\ seqs_ok tr.
Proof.
  intros HK HO E. destruct (init_ok k start fixed) as [I0 _]. assert (HP : N.of_nat (length (pool_of k)) < 4294967296) by (rewrite pool_length; exact HK).
  split; [eapply run_ok; eassumption|]. eapply run_seqs; try eassumption. intros [|] ? ? ? ? ? ? Eq; discriminate.
Qed.
Lemma reach_full k start fixed l S tr : N.of_nat k < 4294967296 -> Forall op_ok l -> Forall full_answer l -> arun (asys0 k start fixed) [] l = (S, tr) ->
  InvV fixed tr S.
Proof.
  intros HK HO HF E. destruct (init_ok k start fixed) as [I0 V0]. assert (HP : N.of_nat (length (pool_of k)) < 4294967296) by (rewrite pool_length; exact HK).
  eapply run_full; eassumption.
Qed.

Lemma granted_bits req a : (N.ldiff req a =? 0) = true <-> forall b, N.testbit req b = true -> N.testbit a b = true.
Proof.
  rewrite N.eqb_eq. split.
  - intros H b Hb. assert (T : N.testbit (N.ldiff req a) b = false) by (rewrite H; apply N.bits_0). rewrite N.ldiff_spec, Hb in T. destruct (N.testbit a b); [reflexivity|discriminate].
  - intros H. apply N.bits_inj. intro b. rewrite N.ldiff_spec, N.bits_0. destruct (N.testbit req b) eqn:E; [rewrite (H b E)|]; reflexivity.
Qed.

(** ** Checks against histories *)
Section checks.
Context (pool : list N) (start fixed : bool) (tr : list (aop * aout)) (S S' : asys)
        (s t c req : N) (ref : option N) (ans : answer) (r : hres) (d : avdec) (asked : bool).
Let o := OCheck s t c req ref ans.
Let now := (o, OutCheck r d asked) :: tr.

Context (HP : N.of_nat (length pool) < 4294967296).
Context (HO : op_ok o).
Context (I : InvT pool start fixed tr S).
Context (E : astep S o = (S', OutCheck r d asked)).

(** The entry a check used, in the state after it. *)
Lemma check_entry :
  (asked = true /\ (r = H0 -> mode start fixed tr = false /\ ans = AnsEinval) /\ r <> HEacces /\
     (r = HEagain -> exists d1, ans = AnsAvd d1 /\ ad_seqno d1 < notified tr) /\ (r = HEnomem -> pool = []) /\
     (r = HErr -> ans = AnsErr \/ (ans = AnsEinval /\ mode start fixed tr = true))) \/
  (exists i, In i (concat (ca_slots (s_cache S'))) /\
     let e := ca_heap (s_cache S') i in
     ae_s e = s /\ ae_t e = t /\ ae_c e = c /\ ad_flags (ae_avd e) = ad_flags d /\
     ad_auditallow (ae_avd e) = ad_auditallow d /\ ad_auditdeny (ae_avd e) = ad_auditdeny d /\
     let ok := negb (req =? 0) && (N.ldiff req (ad_allowed d) =? 0) in
     let perm := negb (mode start fixed tr) || N.testbit (ad_flags d) 0 in
     r = (if ok || perm then H0 else HEacces) /\
     (ok = true \/ perm = false -> ae_avd e = d) /\ (asked = true -> exists d0, ans = AnsAvd d0 /\ d = d0)).
Proof.
  destruct I as (SO & RF & HN & HF & HM & _). unfold o in *. cbn [astep] in E. destruct HO as (Hs & Ht & _).
  set (r0 := match ref with Some k => s_refs S k | None => None end) in E.
  assert (Hr0 : ref_ok pool r0) by (destruct ref; cbn; [apply RF|exact Logic.I]).
  pose proof (check_spec pool (s_cache S) s t c req r0 ans SO HP Hs Ht Hr0) as H.
  destruct (avc_has_perm_noaudit (s_cache S) s t c req r0 ans) as [[[[C' r'] ref'] dd] asked'].
  injection E as E1 E2 E3 E4. subst S' r' dd asked'. cbn [s_cache]. rewrite <- HM, <- HN.
  destruct H as (_ & _ & _ & [(_ & A1 & _ & _ & R)|(C1 & i & _ & Hi & _ & OC & F & Ed & EA & Er & EC)]).
  - left. split; [exact A1|]. destruct r; (split; [|split; [|split; [|split]]]); intros; try discriminate; try assumption; try contradiction.
  - right. exists i. cbv zeta in *. set (ok := negb (req =? 0) && (N.ldiff req (ad_allowed d) =? 0)) in *.
    set (perm := negb (ca_enforcing (s_cache S)) || N.testbit (ad_flags d) 0) in *.
    apply is_for_spec in F as (F1 & F2 & F3).
    assert (EX : asked = true -> exists d0, ans = AnsAvd d0 /\ d = d0).
    { intros ->. destruct EA as (d0 & C0 & Ea & _ & _ & _ & Eh & _). exists d0. rewrite Eh in Ed. auto. }
    destruct (negb ok && perm) eqn:B; subst C'.
    + cbn [allow_more set_heap ca_slots ca_heap]. rewrite upd_same. cbn [set_avd set_allowed ae_s ae_t ae_c ae_avd ad_flags ad_auditallow ad_auditdeny].
      rewrite <- Ed. split; [exact Hi|]. do 6 (split; [first [assumption|reflexivity]|]). split; [exact Er|]. split; [|exact EX].
      intros [Q|Q]; rewrite Q in B; [discriminate|]. rewrite andb_false_r in B. discriminate.
    + split; [exact Hi|]. rewrite <- Ed. do 6 (split; [first [assumption|reflexivity]|]). split; [exact Er|]. split; [reflexivity|exact EX].
Qed.

Lemma check_general : mode start fixed tr = true -> r = H0 ->
  exists d0, In d0 (answers fixed s t c now) /\
    (N.testbit (ad_flags d0) 0 = true \/
     (req <> 0 /\ forall b, N.testbit req b = true -> N.testbit (ad_allowed d0) b = true \/ N.testbit (grants fixed s t c now) b = true)).
Proof.
  intros M R. pose proof (step_ok pool start fixed tr S o S' _ HP HO I E) as (_ & _ & _ & _ & HM & HG). fold now in HM, HG.
  assert (EN : ca_enforcing (s_cache S') = true) by (rewrite HM; exact M).
  destruct check_entry as [(_ & Q & _)|(i & Hi & F1 & F2 & F3 & F4 & _ & _ & Er & Ed & _)]; [destruct (Q R); congruence|].
  destruct (HG i Hi) as [B _]. destruct (B EN) as (d0 & D1 & D2 & D3). cbv zeta in *. rewrite F1, F2, F3 in D1, D3. exists d0. split; [exact D1|].
  destruct D3 as [D3|D3]; [left; exact D3|].
  destruct (N.testbit (ad_flags d) 0) eqn:Fl; [left; congruence|right].
  rewrite M in *. cbn [negb orb] in *. rewrite orb_false_r in Er.
  destruct (negb (req =? 0) && (N.ldiff req (ad_allowed d) =? 0)) eqn:OK; [|congruence].
  specialize (Ed (or_introl eq_refl)). apply andb_prop in OK as [O1 O2]. rewrite Ed in D3. split; [lia|].
  intros b Hb. apply D3. apply (proj1 (granted_bits _ _) O2). exact Hb.
Qed.

Lemma check_full : full_answer o -> InvV fixed tr S -> mode start fixed tr = true -> (r = H0 \/ r = HEacces) ->
  exists d0, view fixed s t c now = Some d0 /\ (r = H0 <-> lets d0 req).
Proof.
  intros FA V M R. pose proof (step_ok pool start fixed tr S o S' _ HP HO I E) as (_ & _ & _ & _ & HM & _). fold now in HM.
  pose proof (step_full pool start fixed tr S o S' _ HP HO FA I V E) as [_ HV]. fold now in HV.
  assert (EN : ca_enforcing (s_cache S') = true) by (rewrite HM; exact M).
  destruct check_entry as [(_ & Q & Q2 & _)|(i & Hi & F1 & F2 & F3 & F4 & _ & _ & Er & Ed & _)].
  { destruct R as [R|R]; [destruct (Q R)|]; congruence. }
  destruct (HV i Hi) as (d0 & D1 & D2). cbv zeta in *. rewrite F1, F2, F3 in D1. exists d0. split; [exact D1|].
  destruct D2 as (_ & _ & _ & _ & _ & D6 & _ & D8). rewrite M in *. cbn [negb orb] in *. rewrite EN in D8. unfold lets. rewrite <- D6, F4.
  destruct (N.testbit (ad_flags d) 0) eqn:Fl.
  - rewrite orb_true_r in Er. split; [auto|intros _; exact Er].
  - rewrite orb_false_r in Er. specialize (Ed (or_intror eq_refl)).
    rewrite <- D6, F4, Fl in D8. specialize (D8 eq_refl eq_refl). rewrite Ed in D8. rewrite <- D8.
    destruct (negb (req =? 0) && (N.ldiff req (ad_allowed d) =? 0)) eqn:OK.
    + apply andb_prop in OK as [O1 O2]. split; [|intros _; exact Er]. intros _. right. split; [lia|apply granted_bits; exact O2].
    + rewrite Er. split; [discriminate|]. intros [Q|[Q1 Q2]]; [discriminate|]. apply granted_bits in Q2. rewrite Q2, andb_true_r in OK. lia.
Qed.

(** The decision returned is the view's, as far as audit is concerned. *)
Lemma check_audit : full_answer o -> InvV fixed tr S -> mode start fixed tr = true -> (r = H0 \/ r = HEacces) ->
  exists d0, view fixed s t c now = Some d0 /\ ad_auditallow d = ad_auditallow d0 /\ ad_auditdeny d = ad_auditdeny d0 /\
    (N.testbit (ad_flags d0) 0 = false -> ad_allowed d = ad_allowed d0).
Proof.
  intros FA V M R. pose proof (step_ok pool start fixed tr S o S' _ HP HO I E) as (_ & _ & _ & _ & HM & _). fold now in HM.
  pose proof (step_full pool start fixed tr S o S' _ HP HO FA I V E) as [_ HV]. fold now in HV.
  assert (EN : ca_enforcing (s_cache S') = true) by (rewrite HM; exact M).
  destruct check_entry as [(_ & Q & Q2 & _)|(i & Hi & F1 & F2 & F3 & F4 & F5 & F6 & Er & Ed & _)].
  { destruct R as [R|R]; [destruct (Q R)|]; congruence. }
  destruct (HV i Hi) as (d0 & D1 & D2). cbv zeta in *. rewrite F1, F2, F3 in D1. exists d0. split; [exact D1|].
  destruct D2 as (_ & _ & D3 & D4 & _ & D6 & _ & D8). split; [congruence|]. split; [congruence|]. intros Fl.
  rewrite M in *. cbn [negb orb] in *. rewrite <- (D8 EN Fl). f_equal. symmetry. apply Ed. right. congruence.
Qed.

(** Denials come from the enforcing mode only. *)
Lemma check_permissive : mode start fixed tr = false -> r <> HEacces.
Proof.
  intros M R. destruct check_entry as [(_ & _ & Q & _)|(i & _ & _ & _ & _ & _ & _ & _ & Er & _)]; [auto|].
  rewrite M in Er. cbv zeta in Er. cbn [negb orb] in Er. rewrite orb_true_r in Er. congruence.
Qed.
End checks.

Lemma create_backed pool start fixed tr S S' s t c ans sid v a1 a2 : N.of_nat (length pool) < 4294967296 ->
  op_ok (OCreate s t c ans sid) -> InvT pool start fixed tr S -> astep S (OCreate s t c ans sid) = (S', OutCreate (Some v) a1 a2) ->
  created fixed s t c v ((OCreate s t c ans sid, OutCreate (Some v) a1 a2) :: tr).
Proof.
  intros HP Ho I E. pose proof (step_ok _ _ _ _ _ _ _ _ HP Ho I E) as (_ & _ & _ & _ & _ & HG).
  destruct I as (SO & _). destruct Ho as (Hs & Ht). cbn [astep] in E.
  pose proof (create_spec pool (s_cache S) s t c ans sid SO HP Hs Ht) as H.
  destruct (avc_compute_create (s_cache S) s t c ans sid) as [[[C' v'] asked] asked2]. injection E as E1 E2 E3 E4. subst.
  destruct H as (_ & _ & [(_ & Q & _)|(C1 & i & (_ & Hi & _ & F & _) & Ea2 & Ev & EC)]); [discriminate|].
  destruct a2.
  - left. subst sid. auto.
  - assert (Z : ae_create (ca_heap C1 i) <> 0) by lia. injection Ev as ->. subst C'. cbn [s_cache] in HG.
    destruct (HG i Hi) as [_ G2]. apply is_for_spec in F as (F1 & F2 & F3). rewrite F1, F2, F3 in G2. apply G2, Z.
Qed.

(** ** Revocation *)
Lemma view_revoked fixed s t c b ev s' t' c' p seq ret out older : (ev = EvRevoke \/ ev = EvTryRevoke) -> concerns s' t' c' s t c = true ->
  N.testbit (ev_perms ev p ret) b = true ->
  forall newer d0, view fixed s t c (newer ++ (OControl ev s' t' c' p seq ret, out) :: older) = Some d0 -> N.testbit (ad_allowed d0) b = true ->
  (exists n1 x n2 d1, newer = n1 ++ x :: n2 /\ stored_answer s t c x = Some d1) \/
  (exists x s1 t1 c1 p1 q1 r1, In x newer /\ fst x = OControl EvGrant s1 t1 c1 p1 q1 r1 /\ concerns s1 t1 c1 s t c = true /\ N.testbit p1 b = true).
Proof.
  intros Hev Hc Hb. induction newer as [|x newer IH]; intros d0 V A.
  - cbn [app view stored_answer fst is_reset] in V. rewrite Hc in V. destruct (view fixed s t c older) as [d1|]; [|discriminate].
    cbn [option_map] in V. injection V as <-. exfalso.
    destruct Hev as [->| ->]; cbn [after_event ad_allowed] in A; rewrite N.ldiff_spec, Hb, andb_false_r in A; discriminate.
  - cbn [app view] in V. destruct (stored_answer s t c x) as [d1|] eqn:ST.
    + left. exists [], x, newer, d1. auto.
    + destruct (is_reset fixed (fst x)); [discriminate|].
      assert (LIFT : forall d0, view fixed s t c (newer ++ (OControl ev s' t' c' p seq ret, out) :: older) = Some d0 -> N.testbit (ad_allowed d0) b = true ->
        (exists n1 y n2 d1, x :: newer = n1 ++ y :: n2 /\ stored_answer s t c y = Some d1) \/
        (exists y s1 t1 c1 p1 q1 r1, In y (x :: newer) /\ fst y = OControl EvGrant s1 t1 c1 p1 q1 r1 /\ concerns s1 t1 c1 s t c = true /\ N.testbit p1 b = true)).
      { intros d1 V1 A1. destruct (IH d1 V1 A1) as [(n1 & y & n2 & d2 & -> & H)|(y & s1 & t1 & c1 & p1 & q1 & r1 & H1 & H2)].
        - left. exists (x :: n1), y, n2, d2. auto.
        - right. exists y, s1, t1, c1, p1, q1, r1. split; [right; exact H1|exact H2]. }
      destruct (fst x) as [| |ev1 s1 t1 c1 p1 q1 r1| | |] eqn:EX; try (eapply LIFT; eassumption).
      destruct (concerns s1 t1 c1 s t c) eqn:C1; [|eapply LIFT; eassumption].
      destruct (view fixed s t c (newer ++ _)) as [d1|] eqn:V1; [|discriminate]. cbn [option_map] in V. injection V as <-.
      rewrite <- update_after in A; apply update_allowed in A as [A|[-> A]]; [eapply LIFT; [reflexivity|exact A]|].
      right. exists x, s1, t1, c1, p1, q1, r1. cbn [ev_perms] in A. split; [left; reflexivity|]. auto.
Qed.

Lemma view_answers fixed s t c tr : forall d0, view fixed s t c tr = Some d0 -> exists d1, In d1 (answers fixed s t c tr) /\ ad_flags d1 = ad_flags d0.
Proof.
  induction tr as [|x tr IH]; intros d0 V; [discriminate|]. cbn [view] in V. cbn [answers]. destruct (stored_answer s t c x) as [d1|].
  - injection V as <-. exists d1. split; [left; reflexivity|reflexivity].
  - destruct (is_reset fixed (fst x)); [discriminate|]. cbn [app]. destruct (fst x) as [| |ev1 s1 t1 c1 p1 q1 r1| | |]; try (apply IH; exact V).
    destruct (concerns s1 t1 c1 s t c); [|apply IH; exact V]. destruct (view fixed s t c tr) as [d2|]; [|discriminate].
    cbn [option_map] in V. injection V as <-. rewrite <- update_after, update_flags. apply IH. reflexivity.
Qed.

Lemma view_last fixed s t c tr : Forall (fun x => no_control (fst x)) tr -> view fixed s t c tr = last_answer fixed s t c tr.
Proof.
  induction tr as [|x tr IH]; intros H; [reflexivity|]. inversion H as [|? ? H1 H2]; subst. cbn [view last_answer]. rewrite (IH H2).
  destruct (fst x); try reflexivity. contradiction.
Qed.

Lemma notified_app newer x older : notified (x :: older) <= notified (newer ++ x :: older).
Proof. induction newer as [|y newer IH]; cbn [app]; [lia|].
  change (notified (y :: newer ++ x :: older)) with
    (match fst y with OControl _ _ _ _ _ seq _ | OLoad seq => N.max seq (notified (newer ++ x :: older)) | _ => notified (newer ++ x :: older) end).
  destruct (fst y); lia. Qed.

(** ** Eviction takes an unused entry when there is one *)
Lemma scan_chain_unused l : forall h h' i, NoDup l -> scan_chain h l = (h', Some i) -> ae_used (h i) = false.
Proof.
  induction l as [|j l IH]; intros h h' i ND E; cbn [scan_chain] in E; [discriminate|]. inversion ND as [|? ? N1 N2]; subst.
  destruct (ae_used (h j)) eqn:U; cbn [negb] in E; [|injection E as _ <-; exact U].
  pose proof (IH _ _ _ N2 E) as H. rewrite upd_other in H; [exact H|]. intros ->. apply N1.
  destruct (scan_chain_spec _ _ _ _ E) as (_ & _ & _ & Q). exact Q.
Qed.

Lemma nodup_chain {A} (l : list (list A)) : forall k, NoDup (concat l) -> NoDup (nth k l []).
Proof.
  induction l as [|x l IH]; intros [|k] H; cbn in *; try constructor; [exact (nodup_app_l _ _ H)|].
  apply IH. clear IH. induction x as [|y x IH]; [exact H|]. cbn in H. inversion H; subst. auto.
Qed.

Lemma scan_slots_unused slots (f : N -> nat) n : forall h hv h' q i, hv < 512 -> (n <= 512)%nat -> NoDup (concat slots) ->
  (forall k j, In j (nth k slots []) -> k = f j) -> scan_slots n h slots hv = (h', Some (q, i)) ->
  ae_used (h i) = false /\ exists m, (m < n)%nat /\ f i = N.to_nat ((hv + N.of_nat m) mod 512).
Proof.
  induction n as [|n IH]; intros h hv h' q i Hhv Hn ND HF E; cbn [scan_slots] in E; [discriminate|].
  destruct (scan_chain h (nth (N.to_nat hv) slots [])) as [h1 [j|]] eqn:E1.
  - injection E as _ _ <-. split; [eapply scan_chain_unused; [|exact E1]; apply nodup_chain; exact ND|].
    exists O. split; [lia|]. destruct (scan_chain_spec _ _ _ _ E1) as (_ & _ & _ & Q). rewrite <- (HF _ _ Q). lia.
  - rewrite land511 in E. assert (Hb : (hv + 1) mod 512 < 512) by lia.
    destruct (IH _ _ _ _ _ Hb ltac:(lia) ND HF E) as (H1 & m & Hm & Hf).
    destruct (scan_chain_spec _ _ _ _ E1) as (_ & _ & K & _). split.
    + rewrite <- K; [exact H1|]. intros Q. apply HF in Q. rewrite Hf in Q. lia.
    + exists (S m). split; [lia|]. rewrite Hf. f_equal. lia.
Qed.

Lemma claim_unused pool C s t c : sound pool C -> ca_free C = [] -> (exists j, In j (concat (ca_slots C)) /\ ae_used (ca_heap C j) = false) ->
  exists C' i, avc_claim_node C s t c = (C', Some i) /\ ae_used (ca_heap C i) = false.
Proof.
  intros SD EF (j & Hj & Uj). pose proof SD as (L & ND & PE & HS & HF & HH & HA). unfold avc_claim_node. rewrite EF. unfold avc_reclaim_node.
  destruct (scan_slots AVC_CACHE_SLOTS (ca_heap C) (ca_slots C) (ca_hint C)) as [h [[hv i]|]] eqn:E1.
  - eexists. exists i. split; [reflexivity|].
    eapply (scan_slots_unused (ca_slots C) (fun j => N.to_nat (avc_hash (ae_s (ca_heap C j)) (ae_t (ca_heap C j)) (ae_c (ca_heap C j))))); [exact HH| | | |exact E1].
    + unfold AVC_CACHE_SLOTS. lia.
    + exact (nodup_app_l _ _ ND).
    + intros k q Hq. apply (HS k q Hq).
  - destruct (scan_all_none _ _ _ _ L HH E1 j Hj) as [U _]. congruence.
Qed.
