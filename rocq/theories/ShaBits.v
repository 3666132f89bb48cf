(** Bit-level facts for the hash functions. *)
From Verif Require Import Base MlsModel ContextModel Sha1Model Sha256Model ShaSpec.

Lemma two32_pow : two32 = 2 ^ 32. Proof. reflexivity. Qed.

Lemma high_bits x n i : x < 2 ^ n -> n <= i -> N.testbit x i = false.
Proof.
  intros H Hi. destruct (N.eq_dec x 0) as [->|Hx]; [apply N.bits_0|].
  apply N.bits_above_log2. apply N.log2_lt_pow2 in H; lia.
Qed.

Lemma low_by_bits x n : (forall i, n <= i -> N.testbit x i = false) -> x < 2 ^ n.
Proof.
  intros H. rewrite <- (N.mod_small x (2 ^ n)) at 1.
  - apply N.mod_lt. apply N.pow_nonzero. lia.
  - destruct (N.lt_ge_cases x (2 ^ n)) as [L|L]; [exact L|]. exfalso.
    assert (P : 0 < 2 ^ n) by (apply N.neq_0_lt_0, N.pow_nonzero; lia).
    assert (Hx : x <> 0) by lia.
    assert (Hl : n <= N.log2 x) by (apply N.log2_le_pow2; lia).
    pose proof (H (N.log2 x) Hl) as B. rewrite N.bit_log2 in B by exact Hx. discriminate.
Qed.

Lemma disjoint_lor a b n : b < 2 ^ n -> (forall i, i < n -> N.testbit a i = false) -> N.lor a b = a + b.
Proof.
  intros Hb Ha. assert (D : N.land a b = 0).
  { apply N.bits_inj. intros i. rewrite N.land_spec, N.bits_0.
    destruct (N.lt_ge_cases i n) as [L|L]; [rewrite (Ha i L); reflexivity|].
    rewrite (high_bits b n i Hb L). apply andb_false_r. }
  rewrite N.add_nocarry_lxor by exact D. symmetry. apply N.lxor_lor. exact D.
Qed.

Lemma mod_lor a b n : N.lor a b mod 2 ^ n = N.lor (a mod 2 ^ n) (b mod 2 ^ n).
Proof. rewrite <- !N.land_ones. apply N.land_lor_distr_l. Qed.

Lemma mul_pow_bits x n i : i < n -> N.testbit ((x * 2 ^ n) mod 2 ^ 32) i = false.
Proof.
  intros H. destruct (N.lt_ge_cases i 32) as [L|L].
  - rewrite N.mod_pow2_bits_low by exact L. apply N.mul_pow2_bits_low. exact H.
  - apply N.mod_pow2_bits_high. exact L.
Qed.

Lemma div_bound x n : x < 2 ^ 32 -> n <= 32 -> x / 2 ^ (32 - n) < 2 ^ n.
Proof.
  intros H Hn. apply N.div_lt_upper_bound; [apply N.pow_nonzero; lia|].
  rewrite <- N.pow_add_r. replace (32 - n + n) with 32 by lia. exact H.
Qed.

Lemma rol_rotl x n : x < two32 -> n <= 32 -> rol x n = rotl n x.
Proof.
  intros H Hn. unfold rol, rotl, wrap32. change W32 with (2 ^ 32). rewrite two32_pow in *.
  rewrite N.shiftl_mul_pow2, N.shiftr_div_pow2, mod_lor.
  assert (B : x / 2 ^ (32 - n) < 2 ^ n) by (apply div_bound; assumption).
  rewrite (N.mod_small (x / 2 ^ (32 - n))).
  2:{ apply N.lt_le_trans with (2 ^ n); [exact B|]. apply N.pow_le_mono_r; lia. }
  apply disjoint_lor with n; [exact B|]. intros i Hi. apply mul_pow_bits. exact Hi.
Qed.

Lemma ror_rotr x n : x < two32 -> n <= 32 -> ror x n = rotr n x.
Proof.
  intros H Hn. unfold ror. rewrite N.lor_comm.
  replace (N.shiftr x n) with (N.shiftr x (32 - (32 - n))) by (f_equal; lia).
  fold (rol x (32 - n)). rewrite rol_rotl by (assumption || lia). unfold rotl, rotr. do 2 f_equal. f_equal. lia.
Qed.

Lemma rotl_lt n x : x < two32 -> n <= 32 -> rotl n x < two32.
Proof.
  intros H Hn. rewrite <- rol_rotl by assumption. unfold rol, wrap32. apply N.mod_lt. discriminate.
Qed.
Lemma rotr_lt n x : x < two32 -> n <= 32 -> rotr n x < two32.
Proof.
  intros H Hn. rewrite <- ror_rotr by assumption. unfold ror, wrap32. apply N.mod_lt. discriminate.
Qed.

Lemma lxor_lt a b : a < two32 -> b < two32 -> N.lxor a b < two32.
Proof.
  rewrite two32_pow. intros A B. apply low_by_bits. intros i Hi. rewrite N.lxor_spec.
  rewrite (high_bits a 32 i A Hi), (high_bits b 32 i B Hi). reflexivity.
Qed.

Lemma shr_rsh x n : x < two32 -> Rsh x n = shr n x.
Proof.
  intros H. unfold Rsh, shr. change 4294967295 with (N.ones 32). rewrite N.land_ones.
  rewrite N.mod_small by exact H. apply N.shiftr_div_pow2.
Qed.
Lemma shr_lt n x : x < two32 -> shr n x < two32.
Proof.
  intros H. unfold shr. apply N.le_lt_trans with x; [|exact H]. apply N.div_le_upper_bound; [apply N.pow_nonzero; lia|].
  assert (0 < 2 ^ n) by (apply N.neq_0_lt_0, N.pow_nonzero; lia). nia.
Qed.

Lemma complement_bits x i : x < two32 -> N.testbit (complement x) i = (i <? 32) && negb (N.testbit x i).
Proof.
  intros H. unfold complement. change (two32 - 1) with (N.ones 32).
  rewrite N.sub_nocarry_ldiff.
  - rewrite N.ldiff_spec. destruct (i <? 32) eqn:E.
    + rewrite N.ones_spec_low by lia. reflexivity.
    + rewrite N.ones_spec_high by lia. reflexivity.
  - apply N.bits_inj. intros j. rewrite N.ldiff_spec, N.bits_0. destruct (N.lt_ge_cases j 32) as [L|L].
    + rewrite N.ones_spec_low by lia. apply andb_false_r.
    + rewrite (high_bits x 32 j) by (rewrite <- ?two32_pow; assumption). reflexivity.
Qed.

Lemma ch_model w x y : w < two32 -> y < two32 -> N.lxor (N.land w (N.lxor x y)) y = ch w x y.
Proof.
  intros Hw Hy. unfold ch, xor, both. apply N.bits_inj. intros i.
  rewrite !N.lxor_spec, !N.land_spec, N.lxor_spec, complement_bits by exact Hw.
  destruct (i <? 32) eqn:E.
  - destruct (N.testbit w i), (N.testbit x i), (N.testbit y i); reflexivity.
  - rewrite (high_bits w 32 i) by (rewrite <- ?two32_pow; (assumption || lia)).
    rewrite (high_bits y 32 i) by (rewrite <- ?two32_pow; (assumption || lia)). reflexivity.
Qed.

Lemma Ch_model x y z : x < two32 -> z < two32 -> Ch x y z = ch x y z.
Proof. intros Hx Hz. unfold Ch. rewrite N.lxor_comm. apply ch_model; assumption. Qed.

Lemma maj_model w x y : N.lor (N.land (N.lor w x) y) (N.land w x) = maj w x y.
Proof.
  unfold maj, xor, both. apply N.bits_inj. intros i.
  rewrite !N.lxor_spec, N.lor_spec, !N.land_spec, N.lor_spec.
  destruct (N.testbit w i), (N.testbit x i), (N.testbit y i); reflexivity.
Qed.

(** ** Bytes and words *)

Lemma land_split k hi lo mh ml : lo < 2 ^ k -> ml < 2 ^ k ->
  N.land (hi * 2 ^ k + lo) (mh * 2 ^ k + ml) = N.land hi mh * 2 ^ k + N.land lo ml.
Proof.
  intros Hl Hm.
  assert (J : forall h l, l < 2 ^ k -> h * 2 ^ k + l = N.lor (N.shiftl h k) l).
  { intros h l L. rewrite <- N.shiftl_mul_pow2. symmetry. apply disjoint_lor with k; [exact L|].
    intros i Hi. apply N.shiftl_spec_low. exact Hi. }
  assert (Hlm : N.land lo ml < 2 ^ k).
  { apply low_by_bits. intros i Hi. rewrite N.land_spec, (high_bits lo k i Hl Hi). reflexivity. }
  rewrite !J by assumption. apply N.bits_inj. intros i. rewrite N.land_spec, !N.lor_spec, N.land_spec.
  destruct (N.lt_ge_cases i k) as [L|L].
  - rewrite !N.shiftl_spec_low by exact L. reflexivity.
  - rewrite (high_bits lo k i Hl L), (high_bits ml k i Hm L). cbn [andb]. rewrite !orb_false_r.
    rewrite !N.shiftl_spec_high' by exact L. rewrite N.land_spec. reflexivity.
Qed.

Lemma land_255 b : b < 256 -> N.land b 255 = b.
Proof. intros H. change 255 with (N.ones 8). rewrite N.land_ones. apply N.mod_small. exact H. Qed.

Definition wordz (a b c d : N) : N := a * 2 ^ 24 + b * 2 ^ 16 + c * 2 ^ 8 + d.

Lemma wordz_lt a b c d : a < 256 -> b < 256 -> c < 256 -> d < 256 -> wordz a b c d < two32.
Proof.
  unfold wordz, two32. change (2 ^ 24) with 16777216. change (2 ^ 16) with 65536. change (2 ^ 8) with 256. lia.
Qed.

Lemma wordz_split a b c d : wordz a b c d = ((a * 2 ^ 8 + b) * 2 ^ 8 + c) * 2 ^ 8 + d.
Proof. unfold wordz. change (2 ^ 24) with 16777216. change (2 ^ 16) with 65536. change (2 ^ 8) with 256. lia. Qed.

Lemma wordz_land a b c d a' b' c' d' : b < 256 -> c < 256 -> d < 256 -> b' < 256 -> c' < 256 -> d' < 256 ->
  N.land (wordz a b c d) (wordz a' b' c' d') = wordz (N.land a a') (N.land b b') (N.land c c') (N.land d d').
Proof. intros. rewrite !wordz_split. rewrite !land_split by assumption. reflexivity. Qed.

Lemma rotl8_wordz a b c d : a < 256 -> b < 256 -> c < 256 -> d < 256 -> rotl 8 (wordz a b c d) = wordz b c d a.
Proof.
  intros. unfold rotl. change (32 - 8) with 24.
  assert (E : wordz a b c d = a * 2 ^ 24 + (b * 2 ^ 16 + c * 2 ^ 8 + d)) by (unfold wordz; lia).
  assert (L : b * 2 ^ 16 + c * 2 ^ 8 + d < 2 ^ 24).
  { change (2 ^ 24) with 16777216. change (2 ^ 16) with 65536. change (2 ^ 8) with 256. lia. }
  assert (D : wordz a b c d / 2 ^ 24 = a).
  { rewrite E, N.div_add_l by discriminate. rewrite N.div_small by exact L. lia. }
  rewrite D. replace (wordz a b c d * 2 ^ 8) with ((b * 2 ^ 16 + c * 2 ^ 8 + d) * 2 ^ 8 + a * two32).
  2:{ rewrite E. change two32 with (2 ^ 24 * 2 ^ 8). lia. }
  rewrite N.mod_add by discriminate. rewrite N.mod_small.
  - unfold wordz. change (2 ^ 24) with (2 ^ 16 * 2 ^ 8). change (2 ^ 16) with (2 ^ 8 * 2 ^ 8). lia.
  - change two32 with (2 ^ 24 * 2 ^ 8). apply N.mul_lt_mono_pos_r; [reflexivity|exact L].
Qed.

Lemma rotl24_wordz a b c d : a < 256 -> b < 256 -> c < 256 -> d < 256 -> rotl 24 (wordz a b c d) = wordz d a b c.
Proof.
  intros. unfold rotl. change (32 - 24) with 8.
  assert (E : wordz a b c d = (a * 2 ^ 16 + b * 2 ^ 8 + c) * 2 ^ 8 + d).
  { unfold wordz. change (2 ^ 24) with (2 ^ 16 * 2 ^ 8). change (2 ^ 16) with (2 ^ 8 * 2 ^ 8). lia. }
  assert (D : wordz a b c d / 2 ^ 8 = a * 2 ^ 16 + b * 2 ^ 8 + c).
  { rewrite E, N.div_add_l by discriminate. rewrite N.div_small by assumption. lia. }
  rewrite D. replace (wordz a b c d * 2 ^ 24) with (d * 2 ^ 24 + (a * 2 ^ 16 + b * 2 ^ 8 + c) * two32).
  2:{ rewrite E. change two32 with (2 ^ 24 * 2 ^ 8). lia. }
  rewrite N.mod_add by discriminate. rewrite N.mod_small.
  - unfold wordz. lia.
  - change two32 with (256 * 2 ^ 24). apply N.mul_lt_mono_pos_r; [reflexivity|assumption].
Qed.

(** The byte swap of [blk0]. *)
Lemma swap_bytes b0 b1 b2 b3 : b0 < 256 -> b1 < 256 -> b2 < 256 -> b3 < 256 ->
  N.lor (N.land (rol (host_word false b0 b1 b2 b3) 24) 4278255360) (N.land (rol (host_word false b0 b1 b2 b3) 8) 16711935)
  = wordz b0 b1 b2 b3.
Proof.
  intros H0 H1 H2 H3.
  assert (E : host_word false b0 b1 b2 b3 = wordz b3 b2 b1 b0).
  { unfold host_word, wordz. change (2 ^ 24) with 16777216. change (2 ^ 16) with 65536. change (2 ^ 8) with 256. lia. }
  rewrite E. rewrite !rol_rotl by (try (apply wordz_lt; assumption); lia).
  rewrite rotl24_wordz, rotl8_wordz by assumption.
  change 4278255360 with (wordz 255 0 255 0). change 16711935 with (wordz 0 255 0 255).
  rewrite !wordz_land by (assumption || lia). rewrite !N.land_0_r, !land_255 by assumption.
  apply N.bits_inj. intros i. rewrite N.lor_spec.
  (* both halves are sums of disjoint bytes *)
  assert (P : forall a b, a < 256 -> b < 256 ->
     wordz a 0 b 0 = N.lor (N.shiftl a 24) (N.shiftl b 8) /\ wordz 0 a 0 b = N.lor (N.shiftl a 16) b).
  { intros a b Ha Hb. split.
    - rewrite (disjoint_lor _ _ 16).
      + rewrite !N.shiftl_mul_pow2. unfold wordz. lia.
      + rewrite N.shiftl_mul_pow2. change (2 ^ 16) with (256 * 2 ^ 8). apply N.mul_lt_mono_pos_r; [reflexivity|exact Hb].
      + intros j Hj. apply N.shiftl_spec_low. lia.
    - rewrite (disjoint_lor _ _ 8).
      + rewrite !N.shiftl_mul_pow2. unfold wordz. lia.
      + exact Hb.
      + intros j Hj. apply N.shiftl_spec_low. lia. }
  destruct (P b0 b2 H0 H2) as [-> _]. destruct (P b1 b3 H1 H3) as [_ ->].
  rewrite <- N.lor_spec. f_equal. clear i.
  assert (Q : N.lor (N.lor (N.shiftl b0 24) (N.shiftl b2 8)) (N.lor (N.shiftl b1 16) b3)
            = N.lor (N.shiftl b0 24) (N.lor (N.shiftl b1 16) (N.lor (N.shiftl b2 8) b3))).
  { apply N.bits_inj. intros i. rewrite !N.lor_spec.
    destruct (N.testbit (N.shiftl b0 24) i), (N.testbit (N.shiftl b2 8) i), (N.testbit (N.shiftl b1 16) i); reflexivity. }
  rewrite Q.
  assert (S2 : N.lor (N.shiftl b2 8) b3 = b2 * 2 ^ 8 + b3).
  { rewrite (disjoint_lor _ _ 8); [rewrite N.shiftl_mul_pow2; reflexivity|exact H3|intros j Hj; apply N.shiftl_spec_low; lia]. }
  assert (L2 : b2 * 2 ^ 8 + b3 < 2 ^ 16) by (change (2 ^ 16) with 65536; change (2 ^ 8) with 256; lia).
  assert (S1 : N.lor (N.shiftl b1 16) (b2 * 2 ^ 8 + b3) = b1 * 2 ^ 16 + (b2 * 2 ^ 8 + b3)).
  { rewrite (disjoint_lor _ _ 16); [rewrite N.shiftl_mul_pow2; reflexivity|exact L2|intros j Hj; apply N.shiftl_spec_low; lia]. }
  assert (L1 : b1 * 2 ^ 16 + (b2 * 2 ^ 8 + b3) < 2 ^ 24) by (change (2 ^ 24) with 16777216; change (2 ^ 16) with 65536; change (2 ^ 8) with 256; lia).
  rewrite S2, S1, (disjoint_lor _ _ 24); [rewrite N.shiftl_mul_pow2; unfold wordz; lia|exact L1|intros j Hj; apply N.shiftl_spec_low; lia].
Qed.

Lemma load_word b0 b1 b2 b3 : b0 < 256 -> b1 < 256 -> b2 < 256 -> b3 < 256 -> load32h b0 b1 b2 b3 = wordz b0 b1 b2 b3.
Proof.
  intros H0 H1 H2 H3. unfold load32h. rewrite !land_255 by assumption.
  assert (S2 : N.lor (N.shiftl b2 8) b3 = b2 * 2 ^ 8 + b3).
  { rewrite (disjoint_lor _ _ 8); [rewrite N.shiftl_mul_pow2; reflexivity|exact H3|intros j Hj; apply N.shiftl_spec_low; lia]. }
  assert (L2 : b2 * 2 ^ 8 + b3 < 2 ^ 16) by (change (2 ^ 16) with 65536; change (2 ^ 8) with 256; lia).
  assert (S1 : N.lor (N.shiftl b1 16) (b2 * 2 ^ 8 + b3) = b1 * 2 ^ 16 + (b2 * 2 ^ 8 + b3)).
  { rewrite (disjoint_lor _ _ 16); [rewrite N.shiftl_mul_pow2; reflexivity|exact L2|intros j Hj; apply N.shiftl_spec_low; lia]. }
  assert (L1 : b1 * 2 ^ 16 + (b2 * 2 ^ 8 + b3) < 2 ^ 24) by (change (2 ^ 24) with 16777216; change (2 ^ 16) with 65536; change (2 ^ 8) with 256; lia).
  rewrite <- !N.lor_assoc, S2, S1, (disjoint_lor _ _ 24); [rewrite N.shiftl_mul_pow2; unfold wordz; lia|exact L1|intros j Hj; apply N.shiftl_spec_low; lia].
Qed.

Lemma byte_of x k : N.land (N.shiftr x (8 * k)) 255 = (x / 256 ^ k) mod 256.
Proof.
  change 255 with (N.ones 8). rewrite N.land_ones, N.shiftr_div_pow2, N.pow_mul_r. reflexivity.
Qed.

Lemma be4 x : be_bytes 4 x = [(x / 256 ^ 3) mod 256; (x / 256 ^ 2) mod 256; (x / 256 ^ 1) mod 256; (x / 256 ^ 0) mod 256].
Proof. reflexivity. Qed.

Lemma word_bytes_be x : word_bytes x = be_bytes 4 x.
Proof.
  rewrite be4. unfold word_bytes. cbn [map]. rewrite <- !byte_of. reflexivity.
Qed.
Lemma store32h_be x : store32h x = be_bytes 4 x.
Proof.
  rewrite be4, <- !byte_of. unfold store32h. rewrite N.shiftr_0_r. reflexivity.
Qed.
Lemma store64h_be x : store64h x = be_bytes 8 x.
Proof.
  change (be_bytes 8 x) with [(x / 256 ^ 7) mod 256; (x / 256 ^ 6) mod 256; (x / 256 ^ 5) mod 256; (x / 256 ^ 4) mod 256;
    (x / 256 ^ 3) mod 256; (x / 256 ^ 2) mod 256; (x / 256 ^ 1) mod 256; (x / 256 ^ 0) mod 256].
  rewrite <- !byte_of. unfold store64h. rewrite N.shiftr_0_r. reflexivity.
Qed.

Lemma be8_split x : x < W64 -> word_bytes (x / two32) ++ word_bytes (x mod two32) = be_bytes 8 x.
Proof.
  intros H. rewrite !word_bytes_be, !be4.
  change (be_bytes 8 x) with [(x / 256 ^ 7) mod 256; (x / 256 ^ 6) mod 256; (x / 256 ^ 5) mod 256; (x / 256 ^ 4) mod 256;
    (x / 256 ^ 3) mod 256; (x / 256 ^ 2) mod 256; (x / 256 ^ 1) mod 256; (x / 256 ^ 0) mod 256].
  assert (Hi : forall k, x / two32 / 256 ^ k = x / 256 ^ (4 + k)).
  { intros k. rewrite N.div_div by (try discriminate; apply N.pow_nonzero; lia). f_equal.
    rewrite N.pow_add_r. reflexivity. }
  assert (Lo : forall k, k < 4 -> (x mod two32 / 256 ^ k) mod 256 = (x / 256 ^ k) mod 256).
  { intros k Hk. rewrite <- !byte_of. apply N.bits_inj. intros i. rewrite !N.land_spec.
    destruct (N.lt_ge_cases i 8) as [L|L].
    - rewrite !N.shiftr_spec'. rewrite two32_pow, N.mod_pow2_bits_low by lia. reflexivity.
    - rewrite (high_bits 255 8 i) by (reflexivity || exact L). rewrite !andb_false_r. reflexivity. }
  rewrite !Hi, !Lo by lia. reflexivity.
Qed.

Lemma be_bytes_len n x : length (be_bytes n x) = n.
Proof. unfold be_bytes. rewrite map_length, seq_length. reflexivity. Qed.
Lemma be_bytes_byte n x : Forall byte (be_bytes n x).
Proof.
  unfold be_bytes. apply Forall_forall. intros y Hy. apply in_map_iff in Hy. destruct Hy as (i & <- & _).
  unfold byte. apply N.mod_lt. discriminate.
Qed.

(** ** Words of bytes *)

Lemma words_nth bytes n : length bytes = (4 * n)%nat -> Forall byte bytes -> forall t, (t < n)%nat ->
  exists b0 b1 b2 b3, b0 < 256 /\ b1 < 256 /\ b2 < 256 /\ b3 < 256 /\
    nth_error (words bytes) t = Some (wordz b0 b1 b2 b3) /\
    nth_error (host_words false bytes) t = Some (host_word false b0 b1 b2 b3) /\
    nth_error (load_words bytes) t = Some (wordz b0 b1 b2 b3).
Proof.
  revert bytes. induction n as [|n IH]; intros bytes L F t Ht; [lia|].
  destruct bytes as [|b0 [|b1 [|b2 [|b3 r]]]]; cbn [length] in L; try lia.
  inversion F as [|? ? F0 Fa]; subst. inversion Fa as [|? ? F1 Fb]; subst. inversion Fb as [|? ? F2 Fc]; subst.
  inversion Fc as [|? ? F3 Fd]; subst. unfold byte in F0, F1, F2, F3.
  destruct t as [|t].
  - exists b0, b1, b2, b3. cbn [words host_words load_words nth_error].
    rewrite load_word by assumption. repeat (split; [assumption || reflexivity|]). reflexivity.
  - destruct (IH r ltac:(lia) Fd t ltac:(lia)) as (x & y & z & w & H).
    exists x, y, z, w. cbn [words host_words load_words nth_error]. exact H.
Qed.

Lemma words_len bytes n : length bytes = (4 * n)%nat ->
  length (words bytes) = n /\ length (host_words false bytes) = n /\ length (load_words bytes) = n.
Proof.
  revert bytes. induction n as [|n IH]; intros bytes L.
  - destruct bytes; [auto|discriminate].
  - destruct bytes as [|b0 [|b1 [|b2 [|b3 r]]]]; cbn [length] in L; try lia.
    destruct (IH r ltac:(lia)) as (A & B & C). cbn [words host_words load_words length]. auto.
Qed.

Lemma sum_mod a b : (a mod two32 + b) mod two32 = (a + b) mod two32.
Proof. apply N.add_mod_idemp_l. discriminate. Qed.
Lemma sum_mod_r a b : (a + b mod two32) mod two32 = (a + b) mod two32.
Proof. apply N.add_mod_idemp_r. discriminate. Qed.
