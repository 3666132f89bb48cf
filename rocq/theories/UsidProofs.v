(** Proofs about the userspace SID table. *)
From Coq Require Import Permutation.
From Verif Require Import Base MlsModel ContextProofs AvtabModel AvtabProofs AvcModel AvcProofs UsidModel.

(** Invariant: each context is in the bucket of its hash, ids are distinct, at most the count and not zero,
    contexts are distinct, and every SID given out is in the table with its context. *)
Definition uinv (T : usidtab) (tr : list (list N * option N)) : Prop :=
  length (us_slots T) = 128%nat /\
  (forall k e, In e (nth k (us_slots T) []) -> k = N.to_nat (sidtab_hash (fst e))) /\
  (forall e, In e (concat (us_slots T)) -> 1 <= snd e <= us_nel T) /\
  NoDup (map snd (concat (us_slots T))) /\ NoDup (map fst (concat (us_slots T))) /\
  us_nel T <= 4294967294 /\
  (forall ctx id, In (ctx, Some id) tr -> In (ctx, id) (concat (us_slots T))).

Lemma hash_bucket s : (N.to_nat (sidtab_hash s) < 128)%nat.
Proof. unfold sidtab_hash. change 127 with (N.ones 7). rewrite N.land_ones. change (2 ^ 7) with 128. pose proof (N.mod_lt (hash_from 5381 s) 128). lia. Qed.

Lemma ulookup_spec T tr ctx : uinv T tr ->
  match sidtab_context_lookup T ctx with
  | Some id => In (ctx, id) (concat (us_slots T))
  | None => ~ In ctx (map fst (concat (us_slots T)))
  end.
Proof.
  intros (L & HB & _). unfold sidtab_context_lookup. destruct (find _ _) as [[c i]|] eqn:E; cbn [option_map snd].
  - apply find_some in E as [E1 E2]. apply str_eqb_eq in E2. cbn in E2. subst c. eapply in_nth_concat; exact E1.
  - intros H. apply in_map_iff in H as ([c i] & E1 & E2). cbn in E1. subst c. apply in_concat_nth in E2 as (k & _ & Hk).
    pose proof (HB k _ Hk) as Ek. cbn in Ek. subst k. pose proof (find_none _ _ E _ Hk) as Q. cbn in Q.
    rewrite (proj2 (str_eqb_eq ctx ctx) eq_refl) in Q. discriminate.
Qed.

Lemma ustep T tr ctx mem T' r : uinv T tr -> sidtab_context_to_sid T ctx mem = (T', r) -> uinv T' ((ctx, r) :: tr).
Proof.
  intros U E. pose proof (ulookup_spec T tr ctx U) as LK. unfold sidtab_context_to_sid in E.
  destruct U as (L & HB & HR & ND & NC & HM & HT).
  destruct (sidtab_context_lookup T ctx) as [id|].
  - injection E as <- <-. unfold uinv. do 6 (split; [assumption|]). intros c i [Q|Q]; [injection Q as <- <-; exact LK|auto].
  - unfold sidtab_insert in E. destruct (N.leb_spec 4294967294 (us_nel T)) as [Q|Q].
    { injection E as <- <-. unfold uinv. do 6 (split; [assumption|]). intros c i [Z|Z]; [discriminate|auto]. }
    destruct mem; [|injection E as <- <-; unfold uinv; do 6 (split; [assumption|]); intros c i [Z|Z]; [discriminate|auto]].
    injection E as <- <-. set (hv := N.to_nat (sidtab_hash ctx)).
    assert (Hhv : (hv < length (us_slots T))%nat) by (rewrite L; apply hash_bucket).
    assert (PC : Permutation (concat (set_nth hv ((ctx, us_nel T + 1) :: nth hv (us_slots T) []) (us_slots T))) ((ctx, us_nel T + 1) :: concat (us_slots T))).
    { apply (perm_set_nth (us_slots T) hv (nth hv (us_slots T) [])); [apply nth_nth_error; exact Hhv|reflexivity]. }
    unfold uinv. cbn [us_slots us_nel]. split; [rewrite set_nth_length; exact L|]. split; [|split; [|split; [|split; [|split]]]].
    + intros k e He. rewrite nth_set_nth in He by exact Hhv. destruct (Nat.eqb_spec hv k) as [<-|]; [|apply HB; exact He].
      destruct He as [<-|He]; [reflexivity|]. apply HB. exact He.
    + intros e He. apply (Permutation_in _ PC) in He as [<-|He]; [cbn; lia|]. apply HR in He. lia.
    + eapply Permutation_NoDup; [apply Permutation_sym, Permutation_map; exact PC|]. cbn [map snd]. constructor; [|exact ND].
      intros H. apply in_map_iff in H as (e & E1 & E2). apply HR in E2. lia.
    + eapply Permutation_NoDup; [apply Permutation_sym, Permutation_map; exact PC|]. cbn [map fst]. constructor; [exact LK|exact NC].
    + lia.
    + intros c i [Z|Z].
      * injection Z as <- <-. apply (Permutation_in _ (Permutation_sym PC)). left. reflexivity.
      * apply (Permutation_in _ (Permutation_sym PC)). right. auto.
Qed.

Lemma urun_inv l : forall T tr T' tr', uinv T tr -> urun T tr l = (T', tr') -> uinv T' tr'.
Proof.
  induction l as [|[ctx mem] l IH]; intros T tr T' tr' U E; cbn [urun] in E; [injection E as <- <-; exact U|].
  destruct (sidtab_context_to_sid T ctx mem) as [T1 r] eqn:S. eapply IH; [eapply ustep; eassumption|exact E].
Qed.

Lemma uinv0 : uinv sidtab_init [].
Proof.
  unfold uinv, sidtab_init. cbn [us_slots us_nel]. rewrite concat_repeat_nil. split; [apply repeat_length|].
  split; [intros k e; rewrite nth_repeat_nil; intros []|]. split; [intros e []|]. split; [constructor|]. split; [constructor|]. split; [lia|]. intros c i [].
Qed.

Lemma nodup_map_inj {A B} (f : A -> B) l x y : NoDup (map f l) -> In x l -> In y l -> f x = f y -> x = y.
Proof.
  induction l as [|a l IH]; intros ND Hx Hy E; [contradiction|]. cbn in ND. inversion ND as [|? ? N1 N2]; subst.
  destruct Hx as [<-|Hx], Hy as [<-|Hy]; auto.
  - exfalso. apply N1. rewrite E. apply in_map. exact Hy.
  - exfalso. apply N1. rewrite <- E. apply in_map. exact Hx.
Qed.

Lemma sids_identify T tr c1 c2 i1 i2 : uinv T tr -> In (c1, Some i1) tr -> In (c2, Some i2) tr -> (i1 = i2 <-> c1 = c2).
Proof.
  intros (_ & _ & _ & ND & NC & _ & HT) H1 H2. apply HT in H1, H2. split; intros ->.
  - pose proof (nodup_map_inj snd _ _ _ ND H1 H2 eq_refl) as E. congruence.
  - pose proof (nodup_map_inj fst _ _ _ NC H1 H2 eq_refl) as E. congruence.
Qed.

Lemma sid_back T tr c i : uinv T tr -> In (c, Some i) tr -> i <> 0 /\ sid_to_context T i = Some c.
Proof.
  intros (_ & _ & HR & ND & _ & _ & HT) H. apply HT in H. split; [apply HR in H; cbn in H; lia|].
  unfold sid_to_context. destruct (find (fun e => snd e =? i) (concat (us_slots T))) as [e|] eqn:E.
  - apply find_some in E as [E1 E2]. apply N.eqb_eq in E2. pose proof (nodup_map_inj snd _ _ _ ND E1 H E2) as ->. reflexivity.
  - exfalso. pose proof (find_none _ _ E _ H) as Q. cbn in Q. rewrite N.eqb_refl in Q. discriminate.
Qed.

Lemma sid_again T tr c i mem : uinv T tr -> In (c, Some i) tr -> sidtab_context_to_sid T c mem = (T, Some i).
Proof.
  intros U H. pose proof (ulookup_spec T tr c U) as LK. pose proof U as (_ & _ & _ & _ & NC & _ & HT). apply HT in H.
  unfold sidtab_context_to_sid. destruct (sidtab_context_lookup T c) as [j|].
  - pose proof (nodup_map_inj fst _ _ _ NC LK H eq_refl) as E. congruence.
  - exfalso. apply LK. apply in_map_iff. exists (c, i). auto.
Qed.
