(** Proofs about SHA-256. *)
From Verif Require Import Base MlsModel ContextModel Sha1Model Sha256Model ShaSpec ShaBits ShaStream Sha1Proofs.

(** ** Constants *)

Definition range (n : N) : list N := map N.of_nat (seq 0 (N.to_nat n)).
Lemma range_in n x : In x (range n) <-> x < n.
Proof.
  unfold range. rewrite in_map_iff. split.
  - intros (i & <- & H). apply in_seq in H. lia.
  - intros H. exists (N.to_nat x). split; [lia|]. apply in_seq. lia.
Qed.
Lemma range_nodup n : NoDup (range n).
Proof.
  unfold range. generalize (seq_NoDup (N.to_nat n) 0). generalize (seq 0 (N.to_nat n)). intros l H.
  induction H as [|x l H1 H2 IH]; cbn [map]; constructor; [|exact IH]. rewrite in_map_iff. intros (y & E & Hy).
  replace x with y in H1 by lia. contradiction.
Qed.

Definition primeb (n : N) : bool :=
  (1 <? n) && forallb (fun d => negb (1 <? d) || negb (n mod d =? 0)) (range n).
Lemma primeb_spec n : primeb n = true <-> prime n.
Proof.
  unfold primeb, prime. rewrite andb_true_iff, N.ltb_lt, forallb_forall. split; intros [H1 H2]; split; try exact H1.
  - intros d [Hd1 Hd2]. specialize (H2 d (proj2 (range_in n d) Hd2)).
    replace (1 <? d) with true in H2 by (symmetry; apply N.ltb_lt; exact Hd1). cbn in H2.
    intros X. rewrite X in H2. discriminate.
  - intros d Hd. apply range_in in Hd. destruct (N.ltb_spec 1 d) as [L|L]; [|reflexivity]. cbn.
    destruct (N.eqb_spec (n mod d) 0) as [E|E]; [|reflexivity]. destruct (H2 d (conj L Hd) E).
Qed.

Definition primes64 : list N := filter primeb (range 312).

Definition nth_primeb (t : nat) (p : N) : bool :=
  primeb p && Nat.eqb (length (filter primeb (range p))) t.
Lemma nth_primeb_spec t p : nth_primeb t p = true -> nth_prime t p.
Proof.
  unfold nth_primeb. rewrite andb_true_iff, Nat.eqb_eq. intros [H1 H2]. apply primeb_spec in H1.
  split; [exact H1|]. exists (filter primeb (range p)). split; [apply NoDup_filter, range_nodup|]. split; [exact H2|].
  intros q. rewrite filter_In, range_in, primeb_spec. tauto.
Qed.

Definition cubeb (n k : N) : bool :=
  (k <? two32) && existsb (fun i => ((i * two32 + k) ^ 3 <=? n * two32 ^ 3) && (n * two32 ^ 3 <? (i * two32 + k + 1) ^ 3)) (range 7).
Lemma cubeb_spec n k : cubeb n k = true -> cube_root_bits n k.
Proof.
  unfold cubeb, cube_root_bits. rewrite andb_true_iff, N.ltb_lt, existsb_exists. intros [H1 (i & _ & H2)].
  apply andb_true_iff in H2. destruct H2 as [A B]. apply N.leb_le in A. apply N.ltb_lt in B.
  split; [exact H1|]. exists i. split; assumption.
Qed.
Definition squareb (n k : N) : bool :=
  (k <? two32) && existsb (fun i => ((i * two32 + k) ^ 2 <=? n * two32 ^ 2) && (n * two32 ^ 2 <? (i * two32 + k + 1) ^ 2)) (range 7).
Lemma squareb_spec n k : squareb n k = true -> square_root_bits n k.
Proof.
  unfold squareb, square_root_bits. rewrite andb_true_iff, N.ltb_lt, existsb_exists. intros [H1 (i & _ & H2)].
  apply andb_true_iff in H2. destruct H2 as [A B]. apply N.leb_le in A. apply N.ltb_lt in B.
  split; [exact H1|]. exists i. split; assumption.
Qed.

Definition k2 (t : nat) : N := nth t K256 0.

Lemma k2_check : forallb (fun t => let p := nth t primes64 0 in nth_primeb t p && cubeb p (k2 t)) (seq 0 64) = true.
Proof. vm_compute. reflexivity. Qed.

Lemma k2_constants : sha256_constants k2.
Proof.
  intros t Ht. pose proof (proj1 (forallb_forall _ _) k2_check t ltac:(apply in_seq; lia)) as H. cbv zeta in H.
  apply andb_true_iff in H. destruct H as [A B]. exists (nth t primes64 0).
  split; [apply nth_primeb_spec; exact A|apply cubeb_spec; exact B].
Qed.

Definition list8 (h : hash8) : list N := let '(a, b, c, d, e, f, g, i) := h in [a; b; c; d; e; f; g; i].
Definition start8 : hash8 := (1779033703, 3144134277, 1013904242, 2773480762, 1359893119, 2600822924, 528734635, 1541459225).

Lemma start8_check : forallb (fun t => let p := nth t primes64 0 in nth_primeb t p && squareb p (nth t (list8 start8) 0)) (seq 0 8) = true.
Proof. vm_compute. reflexivity. Qed.

Lemma start8_ok : sha256_start start8.
Proof.
  unfold sha256_start, start8. intros t x Hx.
  assert (Ht : (t < 8)%nat) by (apply nth_error_Some_lt in Hx || (assert (X : nth_error (list8 start8) t <> None) by (unfold list8, start8; congruence); apply nth_error_Some in X; exact X)).
  pose proof (proj1 (forallb_forall _ _) start8_check t ltac:(apply in_seq; lia)) as H. cbv zeta in H.
  apply andb_true_iff in H. destruct H as [A B]. exists (nth t primes64 0).
  split; [apply nth_primeb_spec; exact A|]. rewrite (nth_error_nth (list8 start8) t 0 Hx) in B. apply squareb_spec. exact B.
Qed.

Lemma nth_prime_fun t p q : nth_prime t p -> nth_prime t q -> p = q.
Proof.
  assert (G : forall p q, nth_prime t p -> nth_prime t q -> p < q -> False).
  { intros x y (Px & l & N1 & L1 & I1) (Py & m & N2 & L2 & I2) H.
    assert (X : (length (x :: l) <= length m)%nat).
    { apply NoDup_incl_length.
      - constructor; [|exact N1]. intros X. apply I1 in X. lia.
      - intros z [<-|Hz]; apply I2; [split; assumption|]. apply I1 in Hz. split; [apply Hz|lia]. }
    cbn [length] in X. lia. }
  intros Hp Hq. destruct (N.lt_trichotomy p q) as [L|[E|L]]; [destruct (G p q Hp Hq L)|exact E|destruct (G q p Hq Hp L)].
Qed.

Lemma root_fun (e n k k' : N) : e <> 0 -> k < two32 -> k' < two32 ->
  (exists i, (i * two32 + k) ^ e <= n < (i * two32 + k + 1) ^ e) ->
  (exists i, (i * two32 + k') ^ e <= n < (i * two32 + k' + 1) ^ e) -> k = k'.
Proof.
  intros He Hk Hk' (i & A1 & A2) (j & B1 & B2).
  assert (E : i * two32 + k = j * two32 + k').
  { destruct (N.lt_trichotomy (i * two32 + k) (j * two32 + k')) as [L|[E|L]]; [|exact E|].
    - exfalso. assert (X : (i * two32 + k + 1) ^ e <= (j * two32 + k') ^ e) by (apply N.pow_le_mono_l; lia). lia.
    - exfalso. assert (X : (j * two32 + k' + 1) ^ e <= (i * two32 + k) ^ e) by (apply N.pow_le_mono_l; lia). lia. }
  assert (M : (i * two32 + k) mod two32 = (j * two32 + k') mod two32) by (rewrite E; reflexivity).
  rewrite !(N.add_comm (_ * two32)), !N.mod_add, !N.mod_small in M by (assumption || discriminate). exact M.
Qed.

(** ** The transform *)

Definition ok8 (h : hash8) : Prop := Forall (fun x => x < two32) (list8 h).

Lemma sigma_model x : x < two32 ->
  Sigma0 x = big0 x /\ Sigma1 x = big1 x /\ Gamma0 x = small0 x /\ Gamma1 x = small1 x.
Proof.
  intros H. unfold Sigma0, Sigma1, Gamma0, Gamma1, big0, big1, small0, small1, xor.
  rewrite !(ror_rotr x) by (assumption || lia). rewrite !shr_rsh by exact H. auto.
Qed.

Lemma rounds8_ok k w n h : ok8 h -> ok8 (sha256_rounds k w n h).
Proof.
  intros H. induction n as [|n IH]; [exact H|]. cbn [sha256_rounds].
  destruct (sha256_rounds k w n h) as [[[[[[[a b] c] d] e] f] g] i]. unfold ok8, list8 in *. cbv zeta.
  repeat match goal with X : Forall _ (_ :: _) |- _ => inversion X; clear X; subst end.
  repeat constructor; try assumption; apply N.mod_lt; discriminate.
Qed.

Lemma fill_spec w n : forall W, (16 <= length W)%nat -> (length W + n <= 64)%nat ->
  (forall t, (t < length W)%nat -> nth t W 0 = w t) -> (forall t, (t < 64)%nat -> w t < two32) ->
  (forall t, (16 <= t < 64)%nat ->
     w t = (small1 (w (t - 2)%nat) + w (t - 7)%nat + small0 (w (t - 15)%nat) + w (t - 16)%nat) mod two32) ->
  forall t, (t < length W + n)%nat -> nth t (fill n W) 0 = w t.
Proof.
  induction n as [|n IH]; intros W L1 L2 HW Hw Sch t Ht.
  - cbn [fill]. apply HW. lia.
  - cbn [fill]. apply IH; rewrite ?app_length; cbn [length]; try lia; try assumption.
    intros s Hs. destruct (Nat.eq_dec s (length W)) as [->|E].
    + rewrite app_nth2, Nat.sub_diag by lia. cbn [nth]. rewrite !HW by lia.
      rewrite (proj2 (proj2 (proj2 (sigma_model (w (length W - 2)%nat) ltac:(apply Hw; lia))))).
      rewrite (proj1 (proj2 (proj2 (sigma_model (w (length W - 15)%nat) ltac:(apply Hw; lia))))).
      symmetry. apply Sch. lia.
    + rewrite app_nth1 by lia. apply HW. lia.
Qed.

Lemma sched2_lt bytes w : length bytes = 64%nat -> Forall byte bytes -> sha256_schedule (words bytes) w ->
  forall t, (t < 64)%nat -> w t < two32.
Proof.
  intros L F [S1 S2] t Ht. destruct (Nat.lt_ge_cases t 16) as [Lt|Lt].
  - destruct (words_nth bytes 16 L F t Lt) as (b0 & b1 & b2 & b3 & H0 & H1 & H2 & H3 & E & _).
    specialize (S1 t Lt). rewrite E in S1. injection S1 as <-. apply wordz_lt; assumption.
  - rewrite S2 by lia. apply N.mod_lt. discriminate.
Qed.

Lemma rounds8_model W w h : (forall t, (t < 64)%nat -> nth t W 0 = w t) -> ok8 h -> forall n, (n <= 64)%nat ->
  fold_left (sha256_round W) (seq 0 n) (list8 h) = list8 (sha256_rounds k2 w n h).
Proof.
  intros HW Hh n. induction n as [|n IH]; intros Hn; [reflexivity|].
  rewrite seq_S, fold_left_app, IH by lia. cbn [Nat.add fold_left sha256_rounds].
  pose proof (rounds8_ok k2 w n h Hh) as Ho.
  destruct (sha256_rounds k2 w n h) as [[[[[[[a b] c] d] e] f] g] i]. unfold ok8, list8 in Ho.
  repeat match goal with X : Forall _ (_ :: _) |- _ => inversion X; clear X; subst end.
  cbn [list8 sha256_round]. cbv zeta. rewrite (HW n) by lia. fold (k2 n).
  rewrite (proj1 (sigma_model a ltac:(assumption))), (proj1 (proj2 (sigma_model e ltac:(assumption)))).
  rewrite (Ch_model e f g) by assumption. unfold Maj. rewrite maj_model.
  unfold wrap32. change W32 with two32. rewrite sum_mod, !sum_mod_r. reflexivity.
Qed.

Definition sched2 (m : list N) : nat -> N := seqv (fun t l =>
  if Nat.ltb t 16 then nth t m 0
  else (small1 (nth (t - 2) l 0) + nth (t - 7) l 0 + small0 (nth (t - 15) l 0) + nth (t - 16) l 0) mod two32).

Lemma sched2_ok m : length m = 16%nat -> sha256_schedule m (sched2 m).
Proof.
  intros L. split; intros t Ht; unfold sched2; rewrite seqv_eq.
  - replace (Nat.ltb t 16) with true by lia. apply nth_error_nth'. lia.
  - replace (Nat.ltb t 16) with false by lia. rewrite !hist_nth by lia. reflexivity.
Qed.

Lemma transform8_block h bytes : length bytes = 64%nat -> Forall byte bytes -> ok8 h ->
  exists h', sha256_transform (list8 h) bytes = list8 h' /\ sha256_block h bytes h' /\ ok8 h'.
Proof.
  intros L F Hh.
  assert (Sch : sha256_schedule (words bytes) (sched2 (words bytes))).
  { apply sched2_ok. apply (words_len bytes 16 L). }
  set (w := sched2 (words bytes)) in *. clearbody w. pose proof (sched2_lt bytes w L F Sch) as Lt.
  assert (LW : length (load_words bytes) = 16%nat) by apply (words_len bytes 16 L).
  assert (HW : forall t, (t < 64)%nat -> nth t (fill 48 (load_words bytes)) 0 = w t).
  { intros t Ht. apply fill_spec; rewrite ?LW; try lia; try assumption; [|apply Sch].
    intros s Hs. destruct (words_nth bytes 16 L F s Hs) as (b0 & b1 & b2 & b3 & _ & _ & _ & _ & E1 & _ & E2).
    pose proof (proj1 Sch s Hs) as E3. rewrite E1 in E3. injection E3 as <-. apply nth_error_nth. exact E2. }
  unfold sha256_transform. cbv zeta. rewrite (rounds8_model _ w h HW Hh 64) by lia.
  destruct (sha256_rounds k2 w 64 h) as [[[[[[[a b] c] d] e] f] g] i] eqn:R.
  destruct h as [[[[[[[h0 h1] h2] h3] h4] h5] h6] h7].
  exists ((h0 + a) mod two32, (h1 + b) mod two32, (h2 + c) mod two32, (h3 + d) mod two32,
          (h4 + e) mod two32, (h5 + f) mod two32, (h6 + g) mod two32, (h7 + i) mod two32).
  split; [reflexivity|]. split.
  - exists k2, w. split; [exact k2_constants|]. split; [exact Sch|]. rewrite R. reflexivity.
  - unfold ok8, list8. repeat constructor; apply N.mod_lt; discriminate.
Qed.

Lemma rounds8_ext k k' w w' h n : (forall t, (t < n)%nat -> k t = k' t) -> (forall t, (t < n)%nat -> w t = w' t) ->
  sha256_rounds k w n h = sha256_rounds k' w' n h.
Proof.
  induction n as [|n IH]; intros Hk Hw; [reflexivity|]. cbn [sha256_rounds].
  rewrite IH by (intros; (apply Hk || apply Hw); lia). rewrite Hk, Hw by lia. reflexivity.
Qed.

Lemma sched2_fun m w w' : sha256_schedule m w -> sha256_schedule m w' -> forall t, (t < 64)%nat -> w t = w' t.
Proof.
  intros [A1 A2] [B1 B2] t. induction t as [t IH] using lt_wf_ind. intros Ht.
  destruct (Nat.lt_ge_cases t 16) as [L|L].
  - specialize (A1 t L). specialize (B1 t L). congruence.
  - rewrite A2, B2 by lia. rewrite !(IH (t - _)%nat) by lia. reflexivity.
Qed.

Lemma block8_fun h b h1 h2 : sha256_block h b h1 -> sha256_block h b h2 -> h1 = h2.
Proof.
  intros (k & w & K & W & E) (k' & w' & K' & W' & E').
  rewrite (rounds8_ext k k' w w') in E.
  - destruct h as [[[[[[[a b0] c] d] e] f] g] i].
    destruct (sha256_rounds k' w' 64 _) as [[[[[[[a' b'] c'] d'] e'] f'] g'] i']. congruence.
  - intros t Ht. destruct (K t Ht) as (p & P & Q & R). destruct (K' t Ht) as (p' & P' & Q' & R').
    rewrite <- (nth_prime_fun _ _ _ P P') in R'. apply (root_fun 3 (p * two32 ^ 3)); try assumption. discriminate.
  - apply (sched2_fun _ _ _ W W').
Qed.

Lemma start8_fun h h' : sha256_start h -> sha256_start h' -> h = h'.
Proof.
  destruct h as [[[[[[[a b] c] d] e] f] g] i]. destruct h' as [[[[[[[a' b'] c'] d'] e'] f'] g'] i'].
  unfold sha256_start. intros H H'.
  assert (G : forall t x y, nth_error [a; b; c; d; e; f; g; i] t = Some x ->
     nth_error [a'; b'; c'; d'; e'; f'; g'; i'] t = Some y -> x = y).
  { intros t x y Hx Hy. destruct (H t x Hx) as (p & P & Q & R). destruct (H' t y Hy) as (p' & P' & Q' & R').
    rewrite <- (nth_prime_fun _ _ _ P P') in R'. apply (root_fun 2 (p * two32 ^ 2)); try assumption. discriminate. }
  rewrite (G 0%nat a a'), (G 1%nat b b'), (G 2%nat c c'), (G 3%nat d d'), (G 4%nat e e'), (G 5%nat f f'),
    (G 6%nat g g'), (G 7%nat i i') by reflexivity. reflexivity.
Qed.

Lemma sha256_of_fun m d d' : sha256_of m d -> sha256_of m d' -> d = d'.
Proof.
  intros (p & h & h0 & h1 & h2 & h3 & h4 & h5 & h6 & h7 & P & S0 & C & ->)
         (p' & h' & i0 & i1 & i2 & i3 & i4 & i5 & i6 & i7 & P' & S0' & C' & ->).
  rewrite (padded_fun _ _ _ P' P), (start8_fun _ _ S0' S0) in C'.
  pose proof (chain_fun sha256_block (fun h b x y _ => block8_fun h b x y) _ _ _ C _ C') as E. congruence.
Qed.

(** ** Updates *)

Definition holds2 (c : sha256) (D : list N) : Prop :=
  length (s2_buf c) = 64%nat /\
  exists q F R, D = F ++ R /\ length F = (64 * q)%nat /\ (length R < 64)%nat /\
    s2_length c = (512 * N.of_nat q) mod W64 /\ s2_curlen c = N.of_nat (length R) /\
    s2_state c = absorb sha256_transform q (list8 start8) F /\ firstn (length R) (s2_buf c) = R.

Lemma holds2_init memory : length memory = 64%nat -> holds2 (sha256_init memory) [].
Proof.
  intros L. split; [exact L|]. exists 0%nat, [], []. repeat (split; [reflexivity || (cbn; lia)|]). reflexivity.
Qed.

Lemma length_step q : ((512 * N.of_nat q) mod W64 + 512) mod W64 = (512 * N.of_nat (q + 1)) mod W64.
Proof. rewrite N.add_mod_idemp_l by discriminate. f_equal. lia. Qed.

Lemma loop_holds fuel : forall c D data, holds2 c D -> (length data < fuel)%nat ->
  exists c', sha256_loop fuel c data = ROk c' /\ holds2 c' (D ++ data).
Proof.
  induction fuel as [|f IH]; intros c D data Hc Hf; [lia|]. cbn [sha256_loop].
  destruct (N.eqb_spec (N.of_nat (length data)) 0) as [E0|E0].
  { exists c. split; [reflexivity|]. destruct data; [rewrite app_nil_r; exact Hc|cbn in E0; lia]. }
  destruct Hc as (Lb & q & F & R & ED & LF & LR & Ln & Cu & St & Bf). rewrite Cu.
  destruct (_ && _) eqn:B.
  - apply andb_true_iff in B. destruct B as [Er L]. apply N.eqb_eq in Er. apply N.leb_le in L. assert (Rn : R = []) by (destruct R; [reflexivity|cbn in Er; lia]). subst R. rewrite app_nil_r in ED. subst F.
    destruct (IH (mkS2 ((s2_length c + 512) mod W64) (sha256_transform (s2_state c) (firstn 64 data)) (N.of_nat (length (@nil N))) (s2_buf c))
               (D ++ firstn 64 data) (skipn 64 data)) as (c' & E & H).
    + split; [exact Lb|]. exists (q + 1)%nat, (D ++ firstn 64 data), []. rewrite app_nil_r.
      assert (Lf : length (firstn 64 data) = 64%nat) by (rewrite firstn_length; lia).
      split; [reflexivity|]. split; [rewrite app_length, Lf; lia|]. split; [cbn; lia|].
      cbn [s2_length s2_curlen s2_state s2_buf]. split; [rewrite Ln; apply length_step|]. split; [reflexivity|].
      split; [|reflexivity]. rewrite absorb_app by exact LF. rewrite absorb_one by exact Lf. rewrite St. reflexivity.
    + rewrite skipn_length. lia.
    + exists c'. split; [exact E|]. rewrite <- app_assoc, firstn_skipn in H. exact H.
  - clear B. set (n := N.min (N.of_nat (length data)) (64 - N.of_nat (length R))).
    assert (En : wrap32 n = n).
    { unfold wrap32. apply N.mod_small. change W32 with 4294967296. lia. }
    rewrite En.
    assert (Ld : length (firstn (N.to_nat n) data) = N.to_nat n) by (rewrite firstn_length; lia).
    destruct (copy64_ok (s2_buf c) (N.of_nat (length R)) (firstn (N.to_nat n) data) Lb) as (b & Eb & Lbb & Fb); [lia|].
    rewrite Eb. rewrite Nat2N.id in Fb. rewrite Ld in Fb. rewrite Bf in Fb.
    assert (Sd : D ++ data = (F ++ R ++ firstn (N.to_nat n) data) ++ skipn (N.to_nat n) data).
    { rewrite ED, <- !app_assoc, firstn_skipn. reflexivity. }
    rewrite Sd. destruct (N.eqb_spec (N.of_nat (length R) + n) 64) as [E64|E64]; apply IH;
      try (rewrite skipn_length; lia).
    + rewrite firstn_all2 in Fb by lia.
      split; [exact Lbb|]. exists (q + 1)%nat, (F ++ b), []. cbn [s2_length s2_curlen s2_state s2_buf length firstn].
      split; [rewrite app_nil_r, Fb; reflexivity|]. split; [rewrite app_length; lia|]. split; [lia|].
      split; [rewrite Ln; apply length_step|]. split; [reflexivity|]. split; [|reflexivity].
      rewrite absorb_app by exact LF. rewrite absorb_one by exact Lbb. rewrite St. reflexivity.
    + split; [exact Lbb|]. exists q, F, (R ++ firstn (N.to_nat n) data). cbn [s2_length s2_curlen s2_state s2_buf].
      rewrite app_length, Ld.
      split; [reflexivity|]. split; [exact LF|]. split; [lia|]. split; [exact Ln|]. split; [lia|]. split; [exact St|exact Fb].
Qed.

Lemma update2_holds c D data : holds2 c D ->
  exists c', sha256_update c data = ROk c' /\ holds2 c' (D ++ data).
Proof.
  intros H. unfold sha256_update. pose proof H as (_ & q & F & R & _ & _ & LR & _ & Cu & _).
  replace (64 <? s2_curlen c) with false by lia. apply loop_holds; [exact H|lia].
Qed.

Lemma updates2_holds pieces : forall c D, holds2 c D ->
  exists c', sha256_updates c pieces = ROk c' /\ holds2 c' (D ++ concat pieces).
Proof.
  induction pieces as [|d t IH]; intros c D H; cbn [sha256_updates concat].
  - exists c. rewrite app_nil_r. auto.
  - destruct (update2_holds c D d H) as (c1 & -> & H1). rewrite app_assoc. apply IH. exact H1.
Qed.

(** ** Finishing *)

Lemma absorb8_chain n : forall h p, length p = (64 * n)%nat -> Forall byte p -> ok8 h ->
  exists h', absorb sha256_transform n (list8 h) p = list8 h' /\ chain sha256_block h p h' /\ ok8 h'.
Proof.
  induction n as [|n IH]; intros h p L F H.
  - destruct p; [|discriminate]. exists h. split; [reflexivity|]. split; [constructor|exact H].
  - cbn [absorb]. rewrite <- (firstn_skipn 64 p) in F. apply Forall_app in F. destruct F as [F1 F2].
    assert (L1 : length (firstn 64 p) = 64%nat) by (rewrite firstn_length; lia).
    destruct (transform8_block h (firstn 64 p) L1 F1 H) as (h1 & E & B & O1). rewrite E.
    destruct (IH h1 (skipn 64 p)) as (h2 & E2 & C & O2); [rewrite skipn_length; lia|exact F2|exact O1|].
    exists h2. split; [exact E2|]. split; [|exact O2]. rewrite <- (firstn_skipn 64 p). econstructor; eassumption.
Qed.

Lemma firstn_upd (b : list N) i v : (i < length b)%nat -> firstn (i + 1) (upd b i v) = firstn i b ++ [v].
Proof.
  intros H. unfold upd. rewrite firstn_app. rewrite firstn_length, Nat.min_l by lia.
  replace (i + 1 - i)%nat with 1%nat by lia. rewrite firstn_all2 by (rewrite firstn_length; lia). reflexivity.
Qed.
Lemma upd_len (b : list N) i v : (i < length b)%nat -> length (upd b i v) = length b.
Proof. intros H. unfold upd. rewrite app_length, firstn_length. cbn [length]. rewrite skipn_length. lia. Qed.

Lemma zero_to_spec c n : length (s2_buf c) = 64%nat -> (s2_curlen c <= n)%N -> n <= 64 ->
  s2_length (zero_to c n) = s2_length c /\ s2_state (zero_to c n) = s2_state c /\
  length (s2_buf (zero_to c n)) = 64%nat /\
  firstn (N.to_nat n) (s2_buf (zero_to c n)) =
    firstn (N.to_nat (s2_curlen c)) (s2_buf c) ++ repeat 0 (N.to_nat n - N.to_nat (s2_curlen c)).
Proof.
  intros L H1 H2. unfold zero_to. destruct (N.ltb_spec (s2_curlen c) n) as [Lt|Ge].
  - cbn [s2_length s2_state s2_buf]. split; [reflexivity|]. split; [reflexivity|].
    assert (Lp : length (firstn (N.to_nat (s2_curlen c)) (s2_buf c) ++ repeat 0 (N.to_nat (n - s2_curlen c))) = N.to_nat n)
      by (rewrite app_length, firstn_length, repeat_length; lia).
    rewrite app_assoc. split.
    + rewrite app_length, Lp, skipn_length. lia.
    + rewrite firstn_app, Lp, Nat.sub_diag, firstn_O, app_nil_r. rewrite firstn_all2 by lia.
      replace (N.to_nat (n - s2_curlen c)) with (N.to_nat n - N.to_nat (s2_curlen c))%nat by lia. reflexivity.
  - assert (E : s2_curlen c = n) by lia. rewrite E, Nat.sub_diag. cbn [repeat]. rewrite app_nil_r. auto.
Qed.

Lemma final2_spec c D : holds2 c D -> Forall byte D -> 8 * N.of_nat (length D) < W64 ->
  exists d, sha256_final c = Some d /\ sha256_of D d.
Proof.
  intros (Lb & q & F & R & ED & LF & LR & Ln & Cu & St & Bf) FD T.
  unfold sha256_final. rewrite Cu. replace (64 <=? N.of_nat (length R)) with false by lia. cbv zeta.
  assert (El : (s2_length c + N.of_nat (length R) * 8) mod W64 = 8 * N.of_nat (length D)).
  { rewrite Ln, N.add_mod_idemp_l by discriminate. rewrite ED, app_length, LF in *. rewrite N.mod_small by lia. lia. }
  rewrite El. rewrite Nat2N.id. cbn [s2_curlen].
  set (len := 8 * N.of_nat (length D)) in *.
  set (b1 := upd (s2_buf c) (length R) 128).
  assert (Lb1 : length b1 = 64%nat) by (unfold b1; rewrite upd_len; lia).
  assert (Fb1 : firstn (length R + 1) b1 = R ++ [128]) by (unfold b1; rewrite firstn_upd, Bf by lia; reflexivity).
  assert (Lst : length (store64h len) = 8%nat) by (rewrite store64h_be, be_bytes_len; reflexivity).
  assert (G : exists st b p, p = D ++ 128 :: repeat 0 (if 56 <? N.of_nat (length R) + 1 then 119 - length R else 55 - length R) ++ be_bytes 8 len
     /\ s2_state c = absorb sha256_transform q (list8 start8) F /\
     sha256_transform st b = absorb sha256_transform (if 56 <? N.of_nat (length R) + 1 then q + 2 else q + 1) (list8 start8) p
     /\ sha256_transform st b =
    sha256_transform (s2_state (zero_to (if 56 <? N.of_nat (length R) + 1
        then mkS2 len (sha256_transform (s2_state (zero_to (mkS2 len (s2_state c) (N.of_nat (length R) + 1) b1) 64))
                                        (s2_buf (zero_to (mkS2 len (s2_state c) (N.of_nat (length R) + 1) b1) 64))) 0
                  (s2_buf (zero_to (mkS2 len (s2_state c) (N.of_nat (length R) + 1) b1) 64))
        else mkS2 len (s2_state c) (N.of_nat (length R) + 1) b1) 56))
     (firstn 56 (s2_buf (zero_to (if 56 <? N.of_nat (length R) + 1
        then mkS2 len (sha256_transform (s2_state (zero_to (mkS2 len (s2_state c) (N.of_nat (length R) + 1) b1) 64))
                                        (s2_buf (zero_to (mkS2 len (s2_state c) (N.of_nat (length R) + 1) b1) 64))) 0
                  (s2_buf (zero_to (mkS2 len (s2_state c) (N.of_nat (length R) + 1) b1) 64))
        else mkS2 len (s2_state c) (N.of_nat (length R) + 1) b1) 56)) ++ store64h (s2_length (zero_to (if 56 <? N.of_nat (length R) + 1
        then mkS2 len (sha256_transform (s2_state (zero_to (mkS2 len (s2_state c) (N.of_nat (length R) + 1) b1) 64))
                                        (s2_buf (zero_to (mkS2 len (s2_state c) (N.of_nat (length R) + 1) b1) 64))) 0
                  (s2_buf (zero_to (mkS2 len (s2_state c) (N.of_nat (length R) + 1) b1) 64))
        else mkS2 len (s2_state c) (N.of_nat (length R) + 1) b1) 56)))).
  { destruct (N.ltb_spec 56 (N.of_nat (length R) + 1)) as [Hx|Hx].
    - destruct (zero_to_spec (mkS2 len (s2_state c) (N.of_nat (length R) + 1) b1) 64) as (Z1 & Z2 & Z3 & Z4); cbn [s2_buf s2_curlen]; try lia.
      cbn [s2_buf s2_curlen s2_state s2_length] in Z1, Z2, Z4. set (z := zero_to _ 64) in *. clearbody z.
      rewrite firstn_all2 in Z4 by lia.
      replace (N.to_nat (N.of_nat (length R) + 1)) with (length R + 1)%nat in Z4 by lia. rewrite Fb1 in Z4.
      set (st1 := sha256_transform (s2_state z) (s2_buf z)).
      destruct (zero_to_spec (mkS2 len st1 0 (s2_buf z)) 56) as (Y1 & Y2 & Y3 & Y4); [exact Z3|apply N.le_0_l|lia|].
      cbn [s2_buf s2_curlen s2_state s2_length] in Y1, Y2, Y4. set (y := zero_to _ 56) in *. clearbody y.
      change (N.to_nat 56) with 56%nat in Y4. change (N.to_nat 0) with 0%nat in Y4. rewrite firstn_O, app_nil_l in Y4.
      rewrite Y1, Y2, Y4, store64h_be.
      exists st1, (repeat 0 (56 - 0) ++ be_bytes 8 len), (F ++ s2_buf z ++ (repeat 0 (56 - 0) ++ be_bytes 8 len)).
      split; [|split; [exact St|split; [|reflexivity]]].
      + rewrite Z4, ED, <- !app_assoc. cbn [app]. do 3 f_equal. rewrite app_assoc. f_equal. rewrite <- repeat_app. f_equal. change (N.to_nat 64) with 64%nat. lia.
      + replace (q + 2)%nat with (q + (1 + 1))%nat by lia. rewrite absorb_app by exact LF.
        rewrite absorb_app by lia. rewrite (absorb_one sha256_transform _ (s2_buf z)) by exact Z3.
        rewrite absorb_one by (rewrite app_length, repeat_length, be_bytes_len; reflexivity).
        unfold st1. rewrite Z2, St. reflexivity.
    - destruct (zero_to_spec (mkS2 len (s2_state c) (N.of_nat (length R) + 1) b1) 56) as (Z1 & Z2 & Z3 & Z4); cbn [s2_buf s2_curlen]; try lia.
      cbn [s2_buf s2_curlen s2_state s2_length] in Z1, Z2, Z4. set (z := zero_to _ 56) in *. clearbody z.
      change (N.to_nat 56) with 56%nat in Z4.
      replace (N.to_nat (N.of_nat (length R) + 1)) with (length R + 1)%nat in Z4 by lia. rewrite Fb1 in Z4.
      rewrite Z1, Z2, Z4, store64h_be.
      exists (s2_state c), (((R ++ [128]) ++ repeat 0 (56 - (length R + 1))) ++ be_bytes 8 len),
        (F ++ ((R ++ [128]) ++ repeat 0 (56 - (length R + 1))) ++ be_bytes 8 len).
      split; [|split; [exact St|split; [|reflexivity]]].
      + rewrite ED, <- !app_assoc. cbn [app]. do 5 f_equal. lia.
      + rewrite absorb_app by exact LF.
        rewrite absorb_one by (rewrite !app_length, repeat_length, be_bytes_len; cbn [length]; lia).
        rewrite St. reflexivity. }
  destruct G as (st & b & p & Ep & _ & Eq1 & Eq2). rewrite <- Eq2, Eq1. clear Eq1 Eq2.
  assert (Lp : length p = (64 * (if (56 <? N.of_nat (length R) + 1)%N then q + 2 else q + 1))%nat).
  { rewrite Ep, ED, !app_length. cbn [length]. rewrite app_length, repeat_length, be_bytes_len.
    destruct (N.ltb_spec 56 (N.of_nat (length R) + 1)); lia. }
  assert (Fp : Forall byte p).
  { rewrite Ep. apply Forall_app. split; [exact FD|]. constructor; [reflexivity|]. apply Forall_app. split; [|apply be_bytes_byte].
    apply Forall_forall. intros x Hx. apply repeat_spec in Hx. subst x. reflexivity. }
  destruct (absorb8_chain _ start8 p Lp Fp) as (h & -> & C & _).
  { unfold ok8, list8, start8. repeat constructor. }
  destruct h as [[[[[[[h0 h1] h2] h3] h4] h5] h6] h7].
  eexists. split; [reflexivity|]. exists p, start8, h0, h1, h2, h3, h4, h5, h6, h7.
  split; [|split; [exact start8_ok|split; [exact C|]]].
  - exists (if 56 <? N.of_nat (length R) + 1 then (119 - length R)%nat else (55 - length R)%nat).
    split; [destruct (N.ltb_spec 56 (N.of_nat (length R) + 1)); lia|]. split; [exact Ep|].
    rewrite Lp, Nat.mul_comm. apply Nat.mod_mul. discriminate.
  - cbn [flat_map list8]. rewrite !store32h_be. reflexivity.
Qed.

Lemma digest2_claim memory pieces : length memory = 64%nat -> Forall (Forall byte) pieces ->
  8 * N.of_nat (length (concat pieces)) < W64 ->
  exists d, sha256_digest memory pieces = ROk (Some d) /\ sha256_of (concat pieces) d.
Proof.
  intros L F T. destruct (updates2_holds pieces (sha256_init memory) [] (holds2_init memory L)) as (c & E & H).
  unfold sha256_digest. rewrite E. rewrite app_nil_l in H.
  destruct (final2_spec c _ H (proj2 (Forall_concat byte pieces) F) T) as (d & -> & Hd). exists d. auto.
Qed.

(** ** The checksum string *)

Lemma hex_digit_char d : d < 16 -> hex_char d (hex_digit d).
Proof.
  intros H. assert (In d (range 16)) as I by (apply range_in; exact H). cbn in I.
  repeat (destruct I as [<-|I]; [reflexivity|]). destruct I.
Qed.
Lemma hex_char_fun d c c' : hex_char d c -> hex_char d c' -> c = c'.
Proof. unfold hex_char. congruence. Qed.

Lemma checksum_hex d : Forall byte d ->
  hex_text d (flat_map (fun b => [hex_digit (b / 16); hex_digit (b mod 16)]) d).
Proof.
  induction 1 as [|x l H F IH]; cbn [flat_map app]; [constructor|]. unfold byte in H.
  rewrite (N.div_mod x 16) at 1 by discriminate.
  assert (x / 16 < 16) by (apply N.div_lt_upper_bound; [discriminate|exact H]).
  assert (x mod 16 < 16) by (apply N.mod_lt; discriminate).
  constructor; [assumption|assumption|apply hex_digit_char; assumption|apply hex_digit_char; assumption|exact IH].
Qed.
Lemma hex_text_fun d t : hex_text d t -> forall t', hex_text d t' -> t = t'.
Proof.
  induction 1 as [|h l c e b t Hh Hl C E H IH]; intros t' H'; inversion H' as [|h2 l2 c2 e2 b2 t2 Hh2 Hl2 C2 E2 H2 X1 X2]; [reflexivity|].
  assert (X : h2 = h /\ l2 = l) by lia. destruct X as [-> ->].
  rewrite (hex_char_fun h c2 c) by assumption. rewrite (hex_char_fun l e2 e) by assumption.
  rewrite (IH t2) by (subst b2; assumption). reflexivity.
Qed.
Lemma checksum_of_fun m t t' : checksum_of m t -> checksum_of m t' -> t = t'.
Proof.
  intros (d & x & D & X & ->) (d' & x' & D' & X' & ->). rewrite <- (sha256_of_fun _ _ _ D D') in X'.
  rewrite (hex_text_fun _ _ X _ X'). reflexivity.
Qed.
Lemma sha256_bytes m d : sha256_of m d -> Forall byte d /\ length d = 32%nat.
Proof.
  intros (p & h & h0 & h1 & h2 & h3 & h4 & h5 & h6 & h7 & _ & _ & _ & ->). split; [|reflexivity].
  apply Forall_flat_map, Forall_forall. intros x _. apply be_bytes_byte.
Qed.
