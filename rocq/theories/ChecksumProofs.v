(** Proofs about the checksum over all modules. *)
From Verif Require Import Base MlsModel ContextModel ContextProofs Sha1Model Sha256Model ShaSpec ShaBits ShaStream Sha1Proofs Sha256Proofs
  ChecksumModel ChecksumSpec.
From Coq Require Import Sorted Permutation.

(** ** Sizes as bytes *)

Lemma len_bytes_length n : forall s, length (len_bytes n s) = n.
Proof. induction n as [|n IH]; intros s; cbn [len_bytes length]; [reflexivity|rewrite IH; reflexivity]. Qed.
Lemma land255 s : N.land s 255 = s mod 256.
Proof. change 255 with (N.ones 8). rewrite N.land_ones. reflexivity. Qed.
Lemma len_bytes_byte n : forall s, Forall byte (len_bytes n s).
Proof.
  induction n as [|n IH]; intros s; cbn [len_bytes]; constructor; [|apply IH].
  rewrite land255. apply N.mod_lt. discriminate.
Qed.
Lemma len_bytes_inj n : forall s t, s < 256 ^ N.of_nat n -> t < 256 ^ N.of_nat n -> len_bytes n s = len_bytes n t -> s = t.
Proof.
  induction n as [|n IH]; intros s t Hs Ht E; cbn [len_bytes] in E.
  - cbn in Hs, Ht. lia.
  - rewrite !land255, !N.shiftr_div_pow2 in E. change (2 ^ 8) with 256 in E. injection E as E1 E2.
    rewrite Nat2N.inj_succ, N.pow_succ_r' in Hs, Ht.
    assert (X : s / 256 = t / 256).
    { apply IH; [apply N.div_lt_upper_bound; [discriminate|exact Hs]|apply N.div_lt_upper_bound; [discriminate|exact Ht]|exact E2]. }
    rewrite (N.div_mod s 256), (N.div_mod t 256) by discriminate. rewrite X, E1. reflexivity.
Qed.
Lemma with_len_inj s t : s < 2 ^ 64 -> t < 2 ^ 64 -> with_len s = with_len t -> s = t.
Proof. apply (len_bytes_inj 8). Qed.

Lemma to_size_lt i : to_size i < 2 ^ 64.
Proof. unfold to_size. pose proof (Z.mod_pos_bound i 18446744073709551616 ltac:(lia)). change (2 ^ 64) with 18446744073709551616. lia. Qed.
Lemma to_size_inj i j : is_int i -> is_int j -> to_size i = to_size j -> i = j.
Proof.
  unfold is_int, to_size. intros Hi Hj E.
  pose proof (Z.mod_pos_bound i 18446744073709551616 ltac:(lia)). pose proof (Z.mod_pos_bound j 18446744073709551616 ltac:(lia)).
  assert (X : (i mod 18446744073709551616 = j mod 18446744073709551616)%Z) by lia.
  pose proof (Z.div_mod i 18446744073709551616 ltac:(lia)). pose proof (Z.div_mod j 18446744073709551616 ltac:(lia)).
  assert (i / 18446744073709551616 = 0 \/ i / 18446744073709551616 = -1)%Z by lia.
  assert (j / 18446744073709551616 = 0 \/ j / 18446744073709551616 = -1)%Z by lia. lia.
Qed.

Lemma app_inj_len {A} (a b c d : list A) : length a = length c -> a ++ b = c ++ d -> a = c /\ b = d.
Proof.
  revert c. induction a as [|x a IH]; intros [|y c] L E; cbn in L, E; try discriminate; [auto|].
  injection E as -> E. injection L as L. destruct (IH c L E) as [-> ->]. auto.
Qed.

(** ** Framing of the texts *)

Definition frame (c : list N) : list (list N) := [with_len (N.of_nat (length c)); c].

Lemma frame_inj ts : forall ts', length ts = length ts' ->
  N.of_nat (length (concat ts)) < 2 ^ 64 -> N.of_nat (length (concat ts')) < 2 ^ 64 ->
  concat (flat_map frame ts) = concat (flat_map frame ts') -> ts = ts'.
Proof.
  induction ts as [|c ts IH]; intros [|c' ts'] L B B' E; try discriminate; [reflexivity|].
  cbn [flat_map frame app concat] in *. rewrite app_length in B, B'.
  apply app_inj_len in E; [|unfold with_len; rewrite !len_bytes_length; reflexivity]. destruct E as [E1 E2].
  apply with_len_inj in E1; [|lia|lia]. apply Nat2N.inj in E1.
  apply app_inj_len in E2; [|exact E1]. destruct E2 as [-> E2]. f_equal.
  apply IH; [injection L as L; exact L|lia|lia|exact E2].
Qed.

Lemma frame_length ts : length (concat (flat_map frame ts)) = (8 * length ts + length (concat ts))%nat.
Proof.
  induction ts as [|c ts IH]; [reflexivity|]. cbn [flat_map frame app concat length]. rewrite !app_length.
  unfold with_len. rewrite len_bytes_length, IH. lia.
Qed.

Lemma head_length o n : length (concat (hash_head o n)) = 34%nat.
Proof. reflexivity. Qed.

Lemma bool_inj b b' : with_bool b = with_bool b' -> b = b'.
Proof. destruct b, b'; intros E; try reflexivity; discriminate E. Qed.

Lemma head_inj o o' n n' : is_int (o_platform o) -> is_int (o_policyvers o) -> is_int (o_platform o') -> is_int (o_policyvers o') ->
  N.of_nat n < 2 ^ 64 -> N.of_nat n' < 2 ^ 64 -> concat (hash_head o n) = concat (hash_head o' n') -> same_options o o' /\ n = n'.
Proof.
  intros P V P' V' N1 N2 E. unfold hash_head in E. cbn [concat] in E.
  apply app_inj_len in E; [|reflexivity]. destruct E as [_ E].
  apply app_inj_len in E; [|reflexivity]. destruct E as [E1 E].
  apply app_inj_len in E; [|reflexivity]. destruct E as [E2 E].
  apply app_inj_len in E; [|reflexivity]. destruct E as [E3 E].
  apply app_inj_len in E; [|reflexivity]. destruct E as [E4 E].
  apply app_inj_len in E; [|reflexivity]. destruct E as [E5 _].
  apply bool_inj in E1. apply bool_inj in E2.
  apply with_len_inj in E3; [|apply to_size_lt|apply to_size_lt]. apply to_size_inj in E3; [|assumption|assumption].
  apply with_len_inj in E4; [|apply to_size_lt|apply to_size_lt]. apply to_size_inj in E4; [|assumption|assumption].
  apply with_len_inj in E5; [|assumption|assumption].
  split; [|lia]. split; [|split; [|split; assumption]].
  - destruct (Z.eqb_spec (o_dontaudit o) 0), (Z.eqb_spec (o_dontaudit o') 0); try discriminate E1; tauto.
  - destruct (Z.eqb_spec (o_tunables o) 0), (Z.eqb_spec (o_tunables o') 0); try discriminate E2; tauto.
Qed.

(** ** Sorting *)

Lemma before_irrefl a : ~ before a a.
Proof. induction a as [|x a IH]; intros H; inversion H; subst; [lia|auto]. Qed.
Lemma before_trans a b c : before a b -> before b c -> before a c.
Proof.
  intros H. revert c. induction H as [x b|x y a b L|x a b H IH]; intros c H'; inversion H'; subst;
    first [apply before_end|apply before_here; lia|apply before_later; auto].
Qed.
Lemma name_cmp_spec a : forall b, match name_cmp a b with Lt => before a b | Eq => a = b | Gt => before b a end.
Proof.
  induction a as [|x a IH]; intros [|y b]; cbn [name_cmp]; try constructor.
  destruct (N.compare_spec x y) as [->|L|L].
  - specialize (IH b). destruct (name_cmp a b); [subst; reflexivity|apply before_later; exact IH|apply before_later; exact IH].
  - apply before_here. exact L.
  - apply before_here. exact L.
Qed.

Notation by_name := (fun a b => before (m_name a) (m_name b)).

Lemma insert_perm m l : Permutation (m :: l) (insert_module m l).
Proof.
  induction l as [|h t IH]; cbn [insert_module]; [apply Permutation_refl|].
  destruct (name_cmp _ _); try apply Permutation_refl.
  eapply perm_trans; [apply perm_swap|]. apply perm_skip. exact IH.
Qed.
Lemma sort_perm l : Permutation l (sort_modules l).
Proof.
  induction l as [|m l IH]; [constructor|]. cbn [sort_modules fold_right].
  eapply perm_trans; [apply perm_skip; exact IH|]. apply insert_perm.
Qed.
Lemma insert_sorted m l : StronglySorted by_name l -> ~ In (m_name m) (map m_name l) -> StronglySorted by_name (insert_module m l).
Proof.
  intros H. induction H as [|h t H IH F]; intros Ni; cbn [insert_module].
  - repeat constructor.
  - pose proof (name_cmp_spec (m_name m) (m_name h)) as C. destruct (name_cmp _ _).
    + destruct Ni. left. symmetry. exact C.
    + constructor; [constructor; assumption|]. constructor; [exact C|]. revert F. apply Forall_impl. intros a Ha. eapply before_trans; eassumption.
    + constructor.
      * apply IH. intros X. apply Ni. right. exact X.
      * apply Forall_forall. intros x Hx. apply Permutation_in with (l' := m :: t) in Hx; [|apply Permutation_sym, insert_perm].
        destruct Hx as [<-|Hx]; [exact C|]. rewrite Forall_forall in F. apply F. exact Hx.
Qed.
Lemma sort_sorted l : NoDup (map m_name l) -> StronglySorted by_name (sort_modules l).
Proof.
  induction l as [|m l IH]; intros H; [constructor|]. cbn [map] in H. inversion H; subst. cbn [sort_modules fold_right].
  apply insert_sorted; [apply IH; assumption|]. intros X. apply in_map_iff in X. destruct X as (y & E & Hy).
  match goal with K : ~ _ |- _ => apply K end. rewrite <- E. apply in_map. apply Permutation_in with (1 := Permutation_sym (sort_perm l)). exact Hy.
Qed.
Lemma sorted_unique l : StronglySorted by_name l -> forall l', StronglySorted by_name l' -> Permutation l l' -> l = l'.
Proof.
  intros H. induction H as [|x l H IH F]; intros l' H' P.
  - apply Permutation_nil in P. auto.
  - destruct H' as [|y l' H' F']; [apply Permutation_sym, Permutation_nil in P; discriminate|].
    assert (E : x = y).
    { rewrite Forall_forall in F, F'.
      assert (X : In x (y :: l')) by (apply (Permutation_in _ P); left; reflexivity).
      assert (Y : In y (x :: l)) by (apply (Permutation_in _ (Permutation_sym P)); left; reflexivity).
      destruct X as [X|X]; [auto|]. destruct Y as [Y|Y]; [auto|].
      destruct (before_irrefl (m_name x)). eapply before_trans; [apply F; exact Y|apply F'; exact X]. }
    subst y. f_equal. apply IH; [exact H'|]. apply Permutation_cons_inv in P. exact P.
Qed.

(** ** The text of a module *)

Lemma lower_same x y : 97 <= y <= 122 -> (lower x = y <-> same_letter x y).
Proof. intros H. unfold lower, same_letter. destruct ((65 <=? x) && (x <=? 90)) eqn:E; lia. Qed.
Lemma is_cil_spec m : is_cil_ext (m_lang m) = true <-> cil_language m.
Proof.
  unfold is_cil_ext, cil_language. rewrite str_eqb_eq. split.
  - intros E. destruct (m_lang m) as [|a [|b [|c [|d l]]]]; try discriminate E. cbn [map] in E. injection E as E1 E2 E3.
    apply lower_same in E1; [|lia]. apply lower_same in E2; [|lia]. apply lower_same in E3; [|lia].
    constructor; [exact E1|constructor; [exact E2|constructor; [exact E3|constructor]]].
  - intros H. inversion H as [|a ? l1 ? A H1 Q1]; subst. inversion H1 as [|b ? l2 ? B H2 Q2]; subst.
    inversion H2 as [|c ? l3 ? C H3 Q3]; subst. inversion H3; subst. cbn [map].
    apply lower_same in A; [|lia]. apply lower_same in B; [|lia]. apply lower_same in C; [|lia]. rewrite A, B, C. reflexivity.
Qed.

Lemma cil_text_fun ig m c c' : cil_text ig m c -> cil_text ig m c' -> c = c'.
Proof.
  intros [? A1 A2|? A1 A2|? A1 A2 A3] [? B1 B2|? B1 B2|? B1 B2 B3]; try congruence; try contradiction;
    repeat match goal with H : _ \/ _ |- _ => destruct H end; congruence.
Qed.
Lemma texts_fun ig mods t t' : texts ig mods t -> texts ig mods t' -> t = t'.
Proof.
  intros (s & P & S1 & F) (s' & P' & S1' & F').
  assert (E : s = s') by (apply sorted_unique; try assumption; eapply perm_trans; [apply Permutation_sym; exact P|exact P']).
  subst s'. clear - F F'. revert t' F'. induction F as [|m c s t H F IH]; intros t' F'; inversion F'; subst; [reflexivity|].
  f_equal; [eapply cil_text_fun; eassumption|apply IH; assumption].
Qed.
Lemma texts_perm ig mods mods' t : Permutation mods mods' -> texts ig mods t -> texts ig mods' t.
Proof. intros P (s & Q & H). exists s. split; [eapply perm_trans; [apply Permutation_sym; exact P|exact Q]|exact H]. Qed.

Lemma hash_module_text ig m p : hash_module ig m = ROk p ->
  (cil_language m -> ig = false /\ m_cil m <> None) -> exists c, cil_text ig m c /\ p = frame c.
Proof.
  unfold hash_module, compile_module. intros H L.
  destruct (is_cil_ext (m_lang m)) eqn:C.
  - apply is_cil_spec in C. destruct (L C) as [-> Nn]. cbn [negb] in H. destruct (m_cil m) as [c|] eqn:E; [|contradiction].
    injection H as <-. exists c. split; [apply text_cached; auto|reflexivity].
  - assert (Nc : ~ cil_language m) by (intros X; apply is_cil_spec in X; congruence).
    destruct ig; cbn [negb] in H.
    + destruct (m_output m) as [c|] eqn:E; [|discriminate]. injection H as <-. exists c.
      split; [apply text_compiled; auto|reflexivity].
    + destruct (m_cil m) as [c|] eqn:E1.
      * injection H as <-. exists c. split; [apply text_cached; auto|reflexivity].
      * destruct (m_output m) as [c|] eqn:E; [|discriminate]. injection H as <-. exists c.
        split; [apply text_compiled; auto|reflexivity].
Qed.
Lemma hash_modules_text ig l : forall p, hash_modules ig l = ROk p ->
  (forall m, In m l -> cil_language m -> ig = false /\ m_cil m <> None) ->
  exists t, Forall2 (cil_text ig) l t /\ p = flat_map frame t.
Proof.
  induction l as [|m l IH]; intros p H L; cbn [hash_modules] in H.
  - injection H as <-. exists []. split; [constructor|reflexivity].
  - destruct (hash_module ig m) as [p1| |] eqn:E1; try discriminate.
    destruct (hash_modules ig l) as [p2| |] eqn:E2; try discriminate. injection H as <-.
    destruct (hash_module_text ig m p1 E1) as (c & C & ->); [apply L; left; reflexivity|].
    destruct (IH p2 eq_refl) as (t & T & ->); [intros x Hx; apply L; right; exact Hx|].
    exists (c :: t). split; [constructor; assumption|reflexivity].
Qed.
Lemma text_hash_module ig m c : cil_text ig m c -> (cil_language m -> ig = false /\ m_cil m <> None) -> hash_module ig m = ROk (frame c).
Proof.
  unfold hash_module, compile_module. intros H L.
  destruct H as [c C E|c E1 E|c C H E].
  - destruct (L C) as [-> _]. rewrite E. reflexivity.
  - rewrite E1, E. reflexivity.
  - assert (X : is_cil_ext (m_lang m) = false) by (destruct (is_cil_ext (m_lang m)) eqn:X; [apply is_cil_spec in X; contradiction|reflexivity]).
    rewrite X, E. destruct H as [->|H2]; [reflexivity|]. rewrite H2. destruct ig; reflexivity.
Qed.
Lemma texts_hash ig l t : Forall2 (cil_text ig) l t ->
  (forall m, In m l -> cil_language m -> ig = false /\ m_cil m <> None) -> hash_modules ig l = ROk (flat_map frame t).
Proof.
  induction 1 as [|m c l t C F IH]; intros L; [reflexivity|]. cbn [hash_modules flat_map].
  rewrite (text_hash_module ig m c C) by (apply L; left; reflexivity).
  rewrite IH by (intros x Hx; apply L; right; exact Hx). reflexivity.
Qed.

(** ** The checksum *)

Definition message (o : options) (t : list (list N)) : list N := concat (hash_head o (length t) ++ flat_map frame t).

Lemma message_bytes o t : Forall (Forall byte) t -> Forall (Forall byte) (hash_head o (length t) ++ flat_map frame t).
Proof.
  intros H. apply Forall_app. split.
  - assert (B : forall b, Forall byte (with_bool b)) by (intros [|]; constructor; try constructor; reflexivity).
    unfold hash_head. repeat (apply Forall_cons; [apply len_bytes_byte || apply B|]). apply Forall_nil.
  - apply Forall_flat_map. revert H. apply Forall_impl. intros c Hc. unfold frame.
    apply Forall_cons; [apply len_bytes_byte|apply Forall_cons; [exact Hc|apply Forall_nil]].
Qed.

Lemma hex_digit_inj a b : a < 16 -> b < 16 -> hex_digit a = hex_digit b -> a = b.
Proof. unfold hex_digit. intros A B. destruct (N.ltb_spec a 10), (N.ltb_spec b 10); lia. Qed.
Lemma checksum_string_inj d : forall d', Forall byte d -> Forall byte d' -> length d = length d' ->
  checksum_string d = checksum_string d' -> d = d'.
Proof.
  unfold checksum_string. intros d' F F' L E. apply app_inv_head in E. apply app_inv_tail in E.
  revert d' F' L E. induction F as [|x d Hx F IH]; intros [|y d'] F' L E; try discriminate; [reflexivity|].
  inversion F' as [|? ? Hy Fy]; subst. cbn [flat_map app] in E. injection E as E1 E2 E3.
  unfold byte in *.
  apply hex_digit_inj in E1; [|apply N.div_lt_upper_bound; [discriminate|lia]|apply N.div_lt_upper_bound; [discriminate|lia]].
  apply hex_digit_inj in E2; [|apply N.mod_lt; discriminate|apply N.mod_lt; discriminate].
  rewrite (N.div_mod x 16), (N.div_mod y 16), E1, E2 by discriminate. f_equal.
  apply IH; [exact Fy|injection L as L; exact L|exact E3].
Qed.

Lemma looked_sorted ig mods : looked_at ig mods -> forall m, In m (sort_modules mods) -> cil_language m -> ig = false /\ m_cil m <> None.
Proof. intros L m H. apply L. apply Permutation_in with (1 := Permutation_sym (sort_perm mods)). exact H. Qed.

(** With all modules looked at, the checksum is that of the options and the texts. *)
Lemma checksum_message memory ig o mods t : length memory = 64%nat -> looked_at ig mods -> possible o ig mods ->
  texts ig mods t ->
  exists d, compile_hll_modules memory ig o mods = ROk (checksum_string d) /\ sha256_of (message o t) d.
Proof.
  intros L La (P1 & P2 & Nd & By & Sz) T. pose proof T as (s & Pm & Ss & F).
  assert (Es : s = sort_modules mods).
  { apply sorted_unique; [exact Ss|apply sort_sorted; exact Nd|]. eapply perm_trans; [apply Permutation_sym; exact Pm|apply sort_perm]. }
  subst s. unfold compile_hll_modules. rewrite (texts_hash ig _ t F (looked_sorted ig mods La)).
  assert (Lt : length mods = length t).
  { rewrite (Permutation_length Pm). clear - F. induction F; cbn; congruence. }
  rewrite Lt. specialize (Sz t T).
  assert (Ft : Forall (Forall byte) t).
  { assert (G : forall m, In m (sort_modules mods) -> In m mods) by (intros m; apply Permutation_in, Permutation_sym, sort_perm).
    clear - F By G. induction F as [|m c l t C F IH]; constructor.
    - apply (By m c); [apply G; left; reflexivity|exact C].
    - apply IH. intros x Hx. apply G. right. exact Hx. }
  destruct (digest2_claim memory (hash_head o (length t) ++ flat_map frame t) L (message_bytes o t Ft)) as (d & E & H).
  { rewrite concat_app, app_length, head_length, frame_length. change (2 ^ 60) with 1152921504606846976 in Sz. unfold W64. lia. }
  rewrite E. exists d. split; [reflexivity|exact H].
Qed.

Lemma checksum_texts memory ig o mods text : looked_at ig mods -> NoDup (map m_name mods) ->
  compile_hll_modules memory ig o mods = ROk text -> exists t, texts ig mods t.
Proof.
  intros La Nd E. unfold compile_hll_modules in E. destruct (hash_modules ig (sort_modules mods)) as [p| |] eqn:H; try discriminate.
  destruct (hash_modules_text ig _ p H (looked_sorted ig mods La)) as (t & F & _).
  exists t, (sort_modules mods). split; [apply sort_perm|]. split; [apply sort_sorted; exact Nd|exact F].
Qed.

Lemma message_inj o o' ig ig' mods mods' t t' : possible o ig mods -> possible o' ig' mods' -> texts ig mods t -> texts ig' mods' t' ->
  message o t = message o' t' -> same_options o o' /\ t = t'.
Proof.
  intros (P1 & P2 & _ & _ & Sz) (P1' & P2' & _ & _ & Sz') T T' E. unfold message in E. rewrite !concat_app in E.
  apply app_inj_len in E; [|rewrite !head_length; reflexivity]. destruct E as [E1 E2].
  assert (G : forall ig mods t, texts ig mods t -> length mods = length t).
  { intros i m x (s & Pm & _ & F). rewrite (Permutation_length Pm). clear - F. induction F; cbn; congruence. }
  specialize (Sz t T). specialize (Sz' t' T'). rewrite (G _ _ _ T) in Sz. rewrite (G _ _ _ T') in Sz'.
  change (2 ^ 60) with 1152921504606846976 in *.
  apply head_inj in E1; try assumption; try (change (2 ^ 64) with 18446744073709551616; lia).
  destruct E1 as [S1 Ln]. split; [exact S1|]. apply frame_inj in E2; try assumption; change (2 ^ 64) with 18446744073709551616; lia.
Qed.

Lemma checksum_same memory memory' ig ig' o o' mods mods' text :
  length memory = 64%nat -> length memory' = 64%nat ->
  looked_at ig mods -> looked_at ig' mods' -> possible o ig mods -> possible o' ig' mods' ->
  compile_hll_modules memory ig o mods = ROk text -> compile_hll_modules memory' ig' o' mods' = ROk text ->
  (same_options o o' /\ exists t, texts ig mods t /\ texts ig' mods' t) \/ collision.
Proof.
  intros L L' La La' P P' E E'.
  destruct (checksum_texts memory ig o mods text La) as [t T]; [apply P|exact E|].
  destruct (checksum_texts memory' ig' o' mods' text La') as [t' T']; [apply P'|exact E'|].
  destruct (checksum_message memory ig o mods t L La P T) as (d & H & D).
  destruct (checksum_message memory' ig' o' mods' t' L' La' P' T') as (d' & H' & D').
  assert (Q : d = d').
  { destruct (sha256_bytes _ _ D). destruct (sha256_bytes _ _ D'). apply checksum_string_inj; try assumption; congruence. }
  subst d'. destruct (list_eq_dec N.eq_dec (message o t) (message o' t')) as [Em|Em].
  - left. destruct (message_inj o o' ig ig' mods mods' t t' P P' T T' Em) as [So ->]. split; [exact So|]. exists t'. auto.
  - right. exists (message o t), (message o' t'), d. auto.
Qed.

Lemma message_same o o' t : same_options o o' -> message o t = message o' t.
Proof.
  intros (A & B & C & D). unfold message, hash_head. rewrite C, D.
  replace (o_dontaudit o =? 0)%Z with (o_dontaudit o' =? 0)%Z by (destruct (Z.eqb_spec (o_dontaudit o) 0), (Z.eqb_spec (o_dontaudit o') 0); tauto).
  replace (o_tunables o =? 0)%Z with (o_tunables o' =? 0)%Z by (destruct (Z.eqb_spec (o_tunables o) 0), (Z.eqb_spec (o_tunables o') 0); tauto).
  reflexivity.
Qed.
Lemma checksum_unchanged memory memory' ig ig' o o' mods mods' t :
  length memory = 64%nat -> length memory' = 64%nat ->
  looked_at ig mods -> looked_at ig' mods' -> possible o ig mods -> possible o' ig' mods' ->
  same_options o o' -> texts ig mods t -> texts ig' mods' t ->
  exists text, compile_hll_modules memory ig o mods = ROk text /\ compile_hll_modules memory' ig' o' mods' = ROk text /\ length text = 72%nat.
Proof.
  intros L L' La La' P P' So T T'.
  destruct (checksum_message memory ig o mods t L La P T) as (d & H & D).
  destruct (checksum_message memory' ig' o' mods' t L' La' P' T') as (d' & H' & D').
  rewrite (message_same o o' t So) in D. rewrite (sha256_of_fun _ _ _ D' D) in H'.
  exists (checksum_string d). split; [exact H|]. split; [exact H'|].
  destruct (sha256_bytes _ _ D) as [_ Ln]. unfold checksum_string. do 33 (destruct d as [|? d]; try discriminate). reflexivity.
Qed.

(** ** The decision *)

Lemma skip_compared memory q o mods recorded w : decide memory q o mods recorded = DGo false (Some w) ->
  compile_hll_modules memory (q_ignore_cache q) o mods = ROk w /\ recorded = Some w.
Proof.
  unfold decide. destruct (rebuild_asked q o); cbn [orb negb andb].
  - destruct mods; [discriminate|]. destruct (compile_hll_modules _ _ _ _); discriminate.
  - destruct (q_check_ext q); [|discriminate]. destruct mods; [discriminate|].
    destruct (compile_hll_modules _ _ _ _) as [x| |]; try discriminate. intros H. injection H as H <-.
    split; [reflexivity|]. unfold compare_checksum in H. destruct recorded as [r|]; [|discriminate].
    destruct (negb (Nat.eqb _ _)); [discriminate|]. apply negb_false_iff, str_eqb_eq in H. congruence.
Qed.
