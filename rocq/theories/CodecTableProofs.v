(** Proofs about the binary format of the access vector table. *)
From Coq Require Import Permutation.
From Verif Require Import Base EbitmapModel MlsModel AvtabModel AvtabSpec AvtabProofs CondModel CodecModel CodecSpec CodecProofs.

(** Specifiers: finitely many, all of them checked. *)
Definition spec_fine (s : N) : bool := existsb (N.eqb (s mod 32768)) kinds.
Definition spec_read (s : N) : bool := (N.ldiff s 34679 =? 0) && (popcount (N.ldiff s AVTAB_ENABLED) =? 1).
Definition spec_ext (s : N) : bool := existsb (N.eqb (s mod 32768)) [256; 512; 1024].
Definition bytes : list N := map N.of_nat (seq 0 256).
Lemma bytes_in x : x < 256 -> In x bytes.
Proof. intros H. unfold bytes. apply in_map_iff. exists (N.to_nat x). split; [apply N2Nat.id|]. apply in_seq. lia. Qed.
Lemma all_specs : forallb (fun a => forallb (fun b => Bool.eqb (spec_fine (256 * a + b)) (spec_read (256 * a + b))) bytes) bytes = true.
Proof. vm_compute. reflexivity. Qed.
Lemma spec_fine_read s : s < 65536 -> spec_fine s = spec_read s.
Proof.
  intros H. pose proof all_specs as A. rewrite forallb_forall in A. specialize (A (s / 256)). cbv beta in A. specialize (A ltac:(apply bytes_in, N.div_lt_upper_bound; lia)). rewrite forallb_forall in A.
  specialize (A (s mod 256) ltac:(apply bytes_in, N.mod_lt; lia)). rewrite <- N.div_mod in A by lia. apply Bool.eqb_prop, A.
Qed.
Lemma spec_fine_in s : spec_fine s = true <-> In (s mod 32768) kinds.
Proof. unfold spec_fine. rewrite existsb_exists. split; [intros (x & I & E); apply N.eqb_eq in E; rewrite E; exact I|intros I; eexists; split; [exact I|apply N.eqb_refl]]. Qed.
Lemma spec_ext_in s : spec_ext s = true <-> extended s.
Proof. unfold spec_ext, extended. rewrite existsb_exists. split; [intros (x & I & E); apply N.eqb_eq in E; rewrite E; exact I|intros I; eexists; split; [exact I|apply N.eqb_refl]]. Qed.
Definition fine_specs : list N := flat_map (fun k => [k; k + 32768]) kinds.
Lemma fine_listed s : s < 65536 -> In (s mod 32768) kinds -> In s fine_specs.
Proof.
  intros B H. unfold fine_specs. apply in_flat_map. exists (s mod 32768). split; [exact H|]. pose proof (N.div_mod s 32768). cbn [In].
  assert (s / 32768 < 2) by (apply N.div_lt_upper_bound; lia). destruct (N.eq_dec (s / 32768) 0); [left; lia|right; left; lia].
Qed.
Lemma xp_ext s : s < 65536 -> In (s mod 32768) kinds -> negb (N.land s AVTAB_XPERMS =? 0) = spec_ext s.
Proof.
  intros B H. pose proof (fine_listed s B H) as I. assert (A : forallb (fun s => Bool.eqb (negb (N.land s AVTAB_XPERMS =? 0)) (spec_ext s)) fine_specs = true) by (vm_compute; reflexivity).
  rewrite forallb_forall in A. apply Bool.eqb_prop, A, I.
Qed.
Lemma plain_ext s : s < 65536 -> In (s mod 32768) kinds -> (s mod 32768 <? 256) = negb (spec_ext s).
Proof.
  intros B H. pose proof (fine_listed s B H) as I. assert (A : forallb (fun s => Bool.eqb (s mod 32768 <? 256) (negb (spec_ext s))) fine_specs = true) by (vm_compute; reflexivity).
  rewrite forallb_forall in A. apply Bool.eqb_prop, A, I.
Qed.
Lemma fine_one s : s < 65536 -> In (s mod 32768) kinds -> one_spec s.
Proof.
  intros B H. unfold one_spec. change 32767 with (N.ones 15). rewrite N.land_ones. change (2 ^ 15) with 32768. cbn [kinds In] in H.
  repeat (destruct H as [<-|H]; [match goal with |- exists i, ?c = 2 ^ i => exists (N.log2 c); reflexivity end|]). destruct H.
Qed.
Lemma fine_meet s s' : s < 65536 -> In (s mod 32768) kinds -> s' < 65536 -> In (s' mod 32768) kinds ->
  negb (N.land (N.land s 32767) s' =? 0) = (s mod 32768 =? s' mod 32768).
Proof.
  intros B H B' H'. pose proof (fine_listed s B H) as I. pose proof (fine_listed s' B' H') as I'.
  assert (A : forallb (fun s => forallb (fun s' => Bool.eqb (negb (N.land (N.land s 32767) s' =? 0)) (s mod 32768 =? s' mod 32768)) fine_specs) fine_specs = true) by (vm_compute; reflexivity).
  rewrite forallb_forall in A. specialize (A s I). rewrite forallb_forall in A. apply Bool.eqb_prop, A, I'.
Qed.
Lemma matches_fine k n : key_ok k -> key_ok (n_key n) -> entry_matches k n = true <->
  (k_src k, k_tgt k, k_cls k, k_spec k mod 32768) = (k_src (n_key n), k_tgt (n_key n), k_cls (n_key n), k_spec (n_key n) mod 32768).
Proof.
  intros (_ & _ & _ & I & B) (_ & _ & _ & I' & B'). unfold entry_matches. rewrite (fine_meet _ _ B I B' I'). split.
  - intros H. assert (k_src k = k_src (n_key n) /\ k_tgt k = k_tgt (n_key n) /\ k_cls k = k_cls (n_key n) /\ k_spec k mod 32768 = k_spec (n_key n) mod 32768) as (-> & -> & -> & ->) by lia. reflexivity.
  - intros H. injection H as A1 A2 A3 A4. lia.
Qed.
Lemma plain_keys_perm l l' : Permutation l l' -> Permutation (plain_keys l) (plain_keys l').
Proof. intros P. unfold plain_keys. apply Permutation_map, perm_filter, P. Qed.
Lemma plain_keys_in k l : key_ok k -> spec_ext (k_spec k) = false -> Forall (fun n => key_ok (n_key n)) l ->
  existsb (entry_matches k) l = true <-> In (k_src k, k_tgt k, k_cls k, k_spec k mod 32768) (plain_keys l).
Proof.
  intros K X F. rewrite Forall_forall in F. rewrite existsb_exists. unfold plain_keys. rewrite in_map_iff. split.
  - intros (n & I & M). pose proof (proj1 (matches_fine k n K (F n I)) M) as E. exists n. split; [symmetry; exact E|]. apply filter_In. split; [exact I|].
    destruct K as (_ & _ & _ & I2 & B). injection E as _ _ _ E. rewrite <- E, (plain_ext _ B I2), X. reflexivity.
  - intros (n & E & I). apply filter_In in I as [I _]. exists n. split; [exact I|]. apply (matches_fine k n K (F n I)). symmetry. exact E.
Qed.
Lemma xperm_key k : key_ok k -> is_xperm_key k = spec_ext (k_spec k).
Proof. intros (_ & _ & _ & I & B). exact (xp_ext _ B I). Qed.
Lemma stored_ok vers k d : key_ok k -> datum_ok vers (k_spec k) d -> stored k d = mkNode k d.
Proof.
  intros K D. unfold stored. rewrite (xperm_key k K). destruct (spec_ext (k_spec k)) eqn:X; [|reflexivity]. apply spec_ext_in in X. destruct D as [(_ & _ & _ & x & -> & _)|(NX & _)]; [reflexivity|contradiction].
Qed.

(** One insertion by a reader. *)
Lemma insertf_some vers a k d : wf a -> a_htable a <> None -> Forall (rule_ok vers) (avtab_map_list a) -> key_ok k -> datum_ok vers (k_spec k) d ->
  (NoDup (plain_keys (mkNode k d :: avtab_map_list a)) -> exists a', avtab_insertf a k d = Some a') /\
  (forall a', NoDup (plain_keys (avtab_map_list a)) -> avtab_insertf a k d = Some a' ->
    wf a' /\ a_htable a' <> None /\ Permutation (avtab_map_list a') (mkNode k d :: avtab_map_list a) /\ NoDup (plain_keys (mkNode k d :: avtab_map_list a)) /\
    a_nel a' = wrap32 (a_nel a + 1) /\
    forall k', one_spec (k_spec k') -> filter (entry_matches k') (avtab_map_list a') = filter (entry_matches k') [mkNode k d] ++ filter (entry_matches k') (avtab_map_list a)).
Proof.
  intros W H F K D. pose proof (insert_spec true a k d W H) as HI. unfold avtab_insertf, avtab_insert.
  assert (FK : Forall (fun n => key_ok (n_key n)) (avtab_map_list a)) by (eapply Forall_impl; [|exact F]; intros n [A _]; exact A).
  pose proof K as (_ & _ & _ & I & B). split.
  - intros ND. destruct (avtab_insert_gen true a k d) as [a'| |] eqn:E; [eauto| |contradiction]. exfalso. destruct HI as (_ & X & EX). rewrite (xperm_key k K) in X.
    apply (plain_keys_in k _ K X FK) in EX. unfold plain_keys in ND. cbn [filter n_key map] in ND. rewrite (plain_ext _ B I), X in ND. cbn [negb map n_key] in ND. inversion ND; subst. contradiction.
  - intros a' ND E. destruct (avtab_insert_gen true a k d) as [a2| |] eqn:EI; [|discriminate|discriminate]. injection E as ->. pose proof (stored_ok vers k d K D) as ST.
    pose proof (fun k' O => insert_order true a k d a' k' W H (fine_one _ B I) O EI) as IO. rewrite ST in HI, IO. destruct HI as (W' & H' & P & REST).
    split; [exact W'|]. split; [exact H'|]. split; [exact P|]. split; [|split].
    + unfold plain_keys. cbn [filter n_key]. rewrite (plain_ext _ B I). destruct (spec_ext (k_spec k)) eqn:X; cbn [negb]; [exact ND|]. cbn [map n_key]. constructor; [|exact ND].
      intros IN. apply (plain_keys_in k _ K X FK) in IN. destruct REST as (_ & REST). rewrite (xperm_key k K), X in REST. rewrite IN in REST. cbn in REST. clear - REST. intuition congruence.
    + unfold avtab_insert_gen in EI. destruct (a_htable a); [|discriminate]. destruct (chain_insert _ _ _ _ _); [|discriminate]. injection EI as <-. reflexivity.
    + intros k' O. rewrite (IO k' O). cbn [filter]. destruct (entry_matches k' (mkNode k d)); reflexivity.
Qed.

(** One rule. *)
Lemma words8_rt : rt write_words (read_n get32 8) (fun l => Forall word l /\ length l = 8%nat).
Proof.
  intros l [F L]. destruct (read_n_rt _ _ _ put32_rt l F) as [O R]. rewrite L in R. split; [exact O|]. split; [|exact R]. destruct l; [discriminate|]. unfold write_words, write_all_of. cbn [map concat]. apply nonnil_l, put_nil.
Qed.
Lemma write_words_len l : length (write_words l) = (4 * length l)%nat.
Proof. unfold write_words, write_all_of. induction l as [|x l IH]; cbn [map concat length]; [reflexivity|]. rewrite app_length, put_len, IH. lia. Qed.
Lemma le_octets k x : Forall octet (le_enc k x). Proof. apply octets, le_enc_bytes. Qed.
Lemma spec_passes s : s < 65536 -> In (s mod 32768) kinds -> (N.ldiff s 34679 =? 0) = true /\ (popcount (N.ldiff s AVTAB_ENABLED) =? 1) = true.
Proof. intros B I. apply spec_fine_in in I. rewrite (spec_fine_read s B) in I. unfold spec_read in I. apply andb_true_iff in I. exact I. Qed.
Lemma item_trip v c n : rule_ok (pv_vers v) n -> pv_selinux v = true -> 20 <= pv_vers v -> c = false -> exists bs, avtab_write_item v c n = Some bs /\ Forall octet bs /\ (12 <= length bs)%nat /\
  forall S (insertf : S -> akey -> adatum -> option S) s rest, avtab_read_item insertf (pv_vers v) s (bs ++ rest) = match insertf s (n_key n) (n_datum n) with Some s' => Some (s', rest) | None => None end.
Proof.
  destruct n as [[src tgt cls sp] [d x]]. intros [K D] SEL V ->. pose proof K as (H1 & H2 & H3 & I & B). cbn [n_key n_datum k_src k_tgt k_cls k_spec d_data d_xperms] in *.
  destruct (spec_passes sp B I) as [SP1 SP2]. unfold avtab_write_item. cbn [n_key n_datum k_src k_tgt k_cls k_spec d_data d_xperms]. rewrite (xp_ext sp B I), SEL. cbn [negb andb].
  assert (V20 : (pv_vers v <? 20) = false) by lia.
  destruct (spec_ext sp) eqn:X.
  - pose proof X as X'. apply spec_ext_in in X'. destruct D as [(_ & V30 & D0 & y & DX & O1 & O2 & L8 & F8)|(NX & _)]; [|contradiction]. cbn [d_data d_xperms] in D0, DX. subst d x. assert (V3 : (pv_vers v <? 30) = false) by lia. rewrite V3. cbn [andb]. rewrite andb_false_r.
    destruct (words8_rt (x_perms y) (conj F8 L8)) as (O3 & _ & R). eexists. split; [reflexivity|]. split; [oct; first [apply le_octets|exact O3]|].
    split; [rewrite !app_length, !le_enc_length, write_words_len; lia|]. intros S insertf s rest. unfold avtab_read_item. rewrite V20. rewrite <- !app_assoc.
    rewrite get16_put by exact H1. cbn [rbind]. rewrite get16_put by exact H2. cbn [rbind]. rewrite get16_put by exact H3. cbn [rbind]. rewrite get16_put by exact B. cbn [rbind]. rewrite (xp_ext sp B I), X, SP1, SP2, V3. cbn [negb andb].
    rewrite get8_put by exact O1. cbn [rbind]. rewrite get8_put by exact O2. cbn [rbind]. rewrite R. cbn [rbind]. destruct y. reflexivity.
  - destruct D as [(NX & _)|(_ & DX & W)]; [apply spec_ext_in in NX; congruence|]. cbn [d_data d_xperms] in W, DX. subst x. rewrite !andb_false_r. cbn [andb]. eexists. split; [reflexivity|]. split; [oct; apply le_octets|].
    split; [rewrite !app_length, !le_enc_length, put_len; lia|]. intros S insertf s rest. unfold avtab_read_item. rewrite V20. rewrite <- !app_assoc.
    rewrite get16_put by exact H1. cbn [rbind]. rewrite get16_put by exact H2. cbn [rbind]. rewrite get16_put by exact H3. cbn [rbind]. rewrite get16_put by exact B. cbn [rbind]. rewrite (xp_ext sp B I), X, SP1, SP2. cbn [negb andb]. rewrite andb_false_r.
    rewrite get_put by exact W. reflexivity.
Qed.
Lemma item_only {S} (insertf : S -> akey -> adatum -> option S) vers s bs s' rest : Forall octet bs -> 20 <= vers -> avtab_read_item insertf vers s bs = Some (s', rest) ->
  exists n, rule_ok vers n /\ insertf s (n_key n) (n_datum n) = Some s' /\ exists used, bs = used ++ rest.
Proof.
  intros O V E. unfold avtab_read_item in E. assert (V20 : (vers <? 20) = false) by lia. rewrite V20 in E.
  destruct (le_dec 2 bs) as [[src b1]|] eqn:G1; [|discriminate]. cbn [rbind] in E. destruct (get16_only _ _ _ O G1) as (H1 & u1 & ->). apply octet_rest in O.
  destruct (le_dec 2 b1) as [[tgt b2]|] eqn:G2; [|discriminate]. cbn [rbind] in E. destruct (get16_only _ _ _ O G2) as (H2 & u2 & ->). apply octet_rest in O.
  destruct (le_dec 2 b2) as [[cls b3]|] eqn:G3; [|discriminate]. cbn [rbind] in E. destruct (get16_only _ _ _ O G3) as (H3 & u3 & ->). apply octet_rest in O.
  destruct (le_dec 2 b3) as [[sp b4]|] eqn:G4; [|discriminate]. cbn [rbind] in E. destruct (get16_only _ _ _ O G4) as (B & u4 & ->). apply octet_rest in O.
  destruct (N.ldiff sp 34679 =? 0) eqn:SP1; [|discriminate]. cbn [negb] in E. destruct (popcount (N.ldiff sp AVTAB_ENABLED) =? 1) eqn:SP2; [|discriminate]. cbn [negb] in E.
  assert (I : In (sp mod 32768) kinds) by (apply spec_fine_in; rewrite (spec_fine_read sp B); unfold spec_read; rewrite SP1, SP2; reflexivity).
  assert (K : key_ok (mkK src tgt cls sp)) by (split; [exact H1|]; split; [exact H2|]; split; [exact H3|]; split; [exact I|exact B]).
  rewrite (xp_ext sp B I) in E. destruct (spec_ext sp) eqn:X.
  - destruct (vers <? 30) eqn:V30; [discriminate|]. cbn [andb] in E. destruct (le_dec 1 b4) as [[xs b5]|] eqn:G5; [|discriminate]. cbn [rbind] in E. destruct (get8_only _ _ _ O G5) as (O1 & u5 & ->). apply octet_rest in O.
    destruct (le_dec 1 b5) as [[xd b6]|] eqn:G6; [|discriminate]. cbn [rbind] in E. destruct (get8_only _ _ _ O G6) as (O2 & u6 & ->). apply octet_rest in O.
    destruct (read_n get32 8 b6) as [[ps b7]|] eqn:G7; [|discriminate]. cbn [rbind] in E. destruct (read_n_only _ _ get32_only 8 _ _ _ O G7) as ((F8 & L8) & u7 & ->).
    destruct (insertf s (mkK src tgt cls sp) (mkD 0 (Some (mkX xs xd ps)))) as [s2|] eqn:EI; [|discriminate]. injection E as -> ->. exists (mkNode (mkK src tgt cls sp) (mkD 0 (Some (mkX xs xd ps)))).
    split; [split; [exact K|]|].
    + left. apply spec_ext_in in X. split; [exact X|]. split; [lia|]. split; [reflexivity|]. exists (mkX xs xd ps). cbn. auto 6.
    + split; [exact EI|]. exists (u1 ++ u2 ++ u3 ++ u4 ++ u5 ++ u6 ++ u7). rewrite <- !app_assoc. reflexivity.
  - rewrite andb_false_r in E. destruct (get32 b4) as [[d b5]|] eqn:G5; [|discriminate]. cbn [rbind] in E. destruct (get32_only _ _ _ O G5) as (W & u5 & ->).
    destruct (insertf s (mkK src tgt cls sp) (mkD d None)) as [s2|] eqn:EI; [|discriminate]. injection E as -> ->. exists (mkNode (mkK src tgt cls sp) (mkD d None)). split; [split; [exact K|]|].
    + right. split; [intros NX; apply spec_ext_in in NX; cbn [k_spec n_key] in NX; congruence|]. split; [reflexivity|exact W].
    + split; [exact EI|]. exists (u1 ++ u2 ++ u3 ++ u4 ++ u5). rewrite <- !app_assoc. reflexivity.
Qed.

(** Tables. *)
Lemma map_list_none a : a_htable a = None -> avtab_map_list a = [].
Proof. unfold avtab_map_list. intros ->. reflexivity. Qed.
Lemma items_trip v : pv_selinux v = true -> 20 <= pv_vers v -> forall l, Forall (rule_ok (pv_vers v)) l -> exists bs, write_items v l = Some bs /\ Forall octet bs /\ (12 * length l <= length bs)%nat /\
  forall a rest, wf a -> a_htable a <> None -> Forall (rule_ok (pv_vers v)) (avtab_map_list a) -> NoDup (plain_keys (l ++ avtab_map_list a)) ->
  exists a', read_items avtab_insertf (pv_vers v) (length l) a (bs ++ rest) = Some (a', rest) /\ wf a' /\ a_htable a' <> None /\ Permutation (avtab_map_list a') (l ++ avtab_map_list a) /\
    (a_nel a + N.of_nat (length l) < 4294967296 -> a_nel a' = a_nel a + N.of_nat (length l)) /\
    forall k, one_spec (k_spec k) -> filter (entry_matches k) (avtab_map_list a') = rev (filter (entry_matches k) l) ++ filter (entry_matches k) (avtab_map_list a).
Proof.
  intros SEL V. induction l as [|n l IH]; intros F.
  - exists []. split; [reflexivity|]. split; [constructor|]. split; [reflexivity|]. intros a rest W H FA ND. exists a. cbn [read_items length app filter rev]. split; [reflexivity|]. split; [exact W|]. split; [exact H|]. split; [reflexivity|].
    split; [intros _; lia|reflexivity].
  - apply Forall_cons_iff in F as [OK F]. destruct (IH F) as (bl & EL & OL & LL & RL). destruct (item_trip v false n OK SEL V eq_refl) as (bn & EN & ON & LN & RN).
    exists (bn ++ bl). cbn [write_items]. rewrite EN, EL. split; [reflexivity|]. split; [apply Forall_app; auto|]. split; [rewrite app_length; cbn [length]; lia|].
    intros a rest W H FA ND. cbn [length read_items]. rewrite <- app_assoc, RN. destruct OK as [K D].
    destruct (insertf_some (pv_vers v) a (n_key n) (n_datum n) W H FA K D) as [EX ALL].
    assert (NE : mkNode (n_key n) (n_datum n) = n) by (destruct n; reflexivity). rewrite NE in EX, ALL.
    assert (ND2 : NoDup (plain_keys (l ++ n :: avtab_map_list a))).
    { eapply Permutation_NoDup; [|exact ND]. apply plain_keys_perm. apply Permutation_cons_app. reflexivity. }
    assert (ND3 : NoDup (plain_keys (n :: avtab_map_list a))).
    { unfold plain_keys in ND2 |- *. rewrite filter_app, map_app in ND2. clear - ND2. induction (map _ (filter _ l)) as [|x m IHm]; [exact ND2|]. cbn [app] in ND2. inversion ND2; subst. auto. }
    assert (ND4 : NoDup (plain_keys (avtab_map_list a))).
    { unfold plain_keys in ND3 |- *. cbn [filter] in ND3. destruct (_ <? _); [cbn [map] in ND3; inversion ND3; assumption|exact ND3]. }
    destruct (EX ND3) as (a1 & E1). rewrite E1. cbn [rbind]. destruct (ALL a1 ND4 E1) as (W1 & H1 & P1 & _ & NEL1 & O1).
    destruct (RL a1 rest W1 H1) as (a' & R & W' & H' & P' & NEL' & O').
    + eapply Permutation_Forall; [symmetry; exact P1|]. constructor; [split; assumption|exact FA].
    + eapply Permutation_NoDup; [|exact ND2]. apply plain_keys_perm, Permutation_app_head. symmetry. exact P1.
    + exists a'. split; [exact R|]. split; [exact W'|]. split; [exact H'|]. split; [|split].
      * rewrite P', P1. cbn [app]. symmetry. apply Permutation_middle.
      * intros LT. cbn [length] in LT |- *. rewrite NEL1 in NEL'. assert (WR : wrap32 (a_nel a + 1) = a_nel a + 1) by (apply wrap32_small; change W32 with 4294967296; lia). rewrite WR in NEL'. lia.
      * intros k O. rewrite (O' k O), (O1 k O). cbn [filter]. destruct (entry_matches k n); cbn [rev app]; [rewrite <- app_assoc|]; reflexivity.
Qed.
Lemma alloc_nel h n : n <> 0 -> a_nel (avtab_alloc h n) = 0.
Proof. intros H. unfold avtab_alloc. destruct (N.eqb_spec n 0); [contradiction|]. reflexivity. Qed.
Lemma plain_unique l k : Forall (fun n => key_ok (n_key n)) l -> NoDup (plain_keys l) -> one_spec (k_spec k) -> is_xperm_key k = false -> (length (filter (entry_matches k) l) <= 1)%nat.
Proof.
  intros F ND O X. induction l as [|n l IH]; [cbn; lia|]. apply Forall_cons_iff in F as [K F].
  assert (ND' : NoDup (plain_keys l)) by (unfold plain_keys in ND |- *; cbn [filter] in ND; destruct (_ <? _); [cbn [map] in ND; inversion ND; assumption|exact ND]).
  cbn [filter]. destruct (entry_matches k n) eqn:M; [|exact (IH F ND')]. cbn [length]. apply matches_same in M as [M1 M2]. pose proof K as (_ & _ & _ & I & B).
  pose proof (single_overlap _ _ O (fine_one _ B I) M2) as SO. pose proof (xkey_ext k (n_key n) SO) as XE. rewrite X in XE.
  assert (EM : forall m, entry_matches k m = entry_matches (n_key n) m) by (apply matches_ext; assumption).
  rewrite (filter_ext _ _ EM). enough (existsb (entry_matches (n_key n)) l = false) as NX.
  { destruct (filter (entry_matches (n_key n)) l) as [|m r] eqn:Q; [cbn; lia|]. rewrite existsb_filter, Q in NX. discriminate. }
  destruct (existsb (entry_matches (n_key n)) l) eqn:NX; [|reflexivity]. exfalso. rewrite (xperm_key _ K) in XE. symmetry in XE.
  apply (plain_keys_in _ _ K XE F) in NX. unfold plain_keys in ND. cbn [filter] in ND. rewrite (plain_ext _ B I), XE in ND. cbn [negb map] in ND. inversion ND. contradiction.
Qed.
Lemma table_trip v a : wf a -> pv_selinux v = true -> 20 <= pv_vers v -> table_ok (pv_vers v) a -> exists bs, avtab_write v a = Some bs /\ Forall octet bs /\
  forall rest, exists a', avtab_read (pv_vers v) (bs ++ rest) = Some (a', rest) /\ wf a' /\ Permutation (avtab_map_list a') (avtab_map_list a) /\ a_nel a' = a_nel a /\
    (forall k, one_spec (k_spec k) -> is_xperm_key k = false -> avtab_search a' k = avtab_search a k) /\
    (forall k, one_spec (k_spec k) -> avtab_nodes_for a' k = rev (avtab_nodes_for a k)).
Proof.
  intros W SEL V (F & ND & NL & N0 & N1). destruct (items_trip v SEL V _ F) as (bs & E & O & L & R). unfold avtab_write. rewrite E. exists (put32 (a_nel a) ++ bs). split; [reflexivity|]. split; [oct; exact O|]. intros rest.
  unfold avtab_read. rewrite <- app_assoc, get_put by (unfold word; lia). cbn [rbind].
  assert (C : (a_nel a =? 0) || (a_nel a =? 4294967295) || (N.of_nat (length (bs ++ rest)) <? a_nel a * 12) = false) by (rewrite app_length; lia). rewrite C.
  destruct (alloc_spec avtab_init (a_nel a) ltac:(lia)) as (W0 & H0 & M0). destruct (R (avtab_alloc avtab_init (a_nel a)) rest W0 H0) as (a' & R' & W' & H' & P' & NEL' & O').
  { rewrite M0. constructor. } { rewrite M0, app_nil_r. exact ND. }
  replace (N.to_nat (a_nel a)) with (length (avtab_map_list a)) by lia. rewrite R'. exists a'. rewrite M0, app_nil_r in P'. rewrite (alloc_nel avtab_init (a_nel a) ltac:(lia)) in NEL'.
  assert (OO : forall k, one_spec (k_spec k) -> filter (entry_matches k) (avtab_map_list a') = rev (filter (entry_matches k) (avtab_map_list a))).
  { intros k OK. rewrite (O' k OK), M0. cbn [filter]. apply app_nil_r. }
  split; [reflexivity|]. split; [exact W'|]. split; [exact P'|]. split; [lia|]. split.
  - intros k OK X. rewrite (search_is_head a' k W'), (search_is_head a k W), (OO k OK).
    assert (U : (length (filter (entry_matches k) (avtab_map_list a)) <= 1)%nat).
    { apply plain_unique; [eapply Forall_impl; [|exact F]; intros n [A _]; exact A|exact ND|exact OK|exact X]. }
    destruct (filter (entry_matches k) (avtab_map_list a)) as [|x [|y r]]; [reflexivity|reflexivity|cbn in U; lia].
  - intros k OK. rewrite (nodes_for_spec a' k W'), (nodes_for_spec a k W). apply OO, OK.
Qed.
Lemma items_only vers : 20 <= vers -> forall n a bs a' rest, Forall octet bs -> wf a -> a_htable a <> None -> Forall (rule_ok vers) (avtab_map_list a) -> NoDup (plain_keys (avtab_map_list a)) ->
  read_items avtab_insertf vers n a bs = Some (a', rest) ->
  wf a' /\ Forall (rule_ok vers) (avtab_map_list a') /\ NoDup (plain_keys (avtab_map_list a')) /\ length (avtab_map_list a') = (n + length (avtab_map_list a))%nat /\
  (a_nel a + N.of_nat n < 4294967296 -> a_nel a' = a_nel a + N.of_nat n) /\ exists used, bs = used ++ rest.
Proof.
  intros V. induction n as [|n IH]; intros a bs a' rest O W H F ND E; cbn [read_items] in E.
  - injection E as <- <-. split; [exact W|]. split; [exact F|]. split; [exact ND|]. split; [reflexivity|]. split; [intros _; lia|]. exists []. reflexivity.
  - destruct (avtab_read_item avtab_insertf vers a bs) as [[a1 b1]|] eqn:R; [|discriminate]. cbn [rbind] in E.
    destruct (item_only _ _ _ _ _ _ O V R) as (m & [K D] & EI & u & ->). apply octet_rest in O. destruct (insertf_some vers a (n_key m) (n_datum m) W H F K D) as [_ ALL]. destruct (ALL a1 ND EI) as (W1 & H1 & P1 & ND1 & NEL1 & _).
    destruct (IH a1 b1 a' rest O W1 H1) as (W' & F' & ND' & L' & NEL' & u' & ->); [| |exact E|].
    + eapply Permutation_Forall; [symmetry; exact P1|]. constructor; [split; assumption|exact F].
    + eapply Permutation_NoDup; [|exact ND1]. apply plain_keys_perm. symmetry. exact P1.
    + split; [exact W'|]. split; [exact F'|]. split; [exact ND'|]. split; [rewrite L', (Permutation_length P1); cbn [length]; lia|]. split.
      * intros LT. rewrite NEL1 in NEL'. assert (WR : wrap32 (a_nel a + 1) = a_nel a + 1) by (apply wrap32_small; change W32 with 4294967296; lia). rewrite WR in NEL'. lia.
      * exists (u ++ u'). apply app_assoc.
Qed.
Lemma table_only vers : 20 <= vers -> only (avtab_read vers) (fun a => wf a /\ table_ok vers a).
Proof.
  intros V. unfold avtab_read. apply (only_bind _ _ _ _ get32_only). intros nel W bs a rest O E.
  destruct ((nel =? 0) || (nel =? 4294967295) || (N.of_nat (length bs) <? nel * 12)) eqn:C; [discriminate|]. destruct (alloc_spec avtab_init nel ltac:(lia)) as (W0 & H0 & M0).
  destruct (items_only vers V _ _ _ _ _ O W0 H0 ltac:(rewrite M0; constructor) ltac:(rewrite M0; constructor) E) as (W' & F' & ND' & L' & NEL' & U).
  split; [|exact U]. split; [exact W'|]. split; [exact F'|]. split; [exact ND'|]. rewrite (alloc_nel avtab_init nel ltac:(lia)), N2Nat.id in NEL'. unfold word in W. rewrite M0 in L'. cbn [length] in L'. rewrite L'. lia.
Qed.
