(** Proofs about SHA-1. *)
From Verif Require Import Base MlsModel ContextModel Sha1Model ShaSpec ShaBits ShaStream.

(** ** The transform *)

Definition ok5 (h : hash5) : Prop :=
  let '(a, b, c, d, e) := h in a < two32 /\ b < two32 /\ c < two32 /\ d < two32 /\ e < two32.

(** The variables hold the hash value rotated. *)
Definition arrange (r : nat) (h : hash5) : list N :=
  let '(a, b, c, d, e) := h in
  match r with
  | 0%nat => [a; b; c; d; e] | 1%nat => [b; c; d; e; a] | 2%nat => [c; d; e; a; b]
  | 3%nat => [d; e; a; b; c] | _ => [e; a; b; c; d]
  end.
Definition args (r : nat) : var * var * var * var * var :=
  match r with
  | 0%nat => (Va, Vb, Vc, Vd, Ve) | 1%nat => (Ve, Va, Vb, Vc, Vd) | 2%nat => (Vd, Ve, Va, Vb, Vc)
  | 3%nat => (Vc, Vd, Ve, Va, Vb) | _ => (Vb, Vc, Vd, Ve, Va)
  end.
Definition kind_at (t : nat) : kind :=
  if Nat.ltb t 16 then R0 else if Nat.ltb t 20 then R1 else if Nat.ltb t 40 then R2 else if Nat.ltb t 60 then R3 else R4.
Definition entry_at (t : nat) := (kind_at t, args (Nat.modulo t 5), t).

Lemma table_eq : sha1_table = map entry_at (seq 0 80).
Proof. reflexivity. Qed.

Definition k1 (t : nat) : N := constant (kind_at t).

Lemma k1_constants : sha1_constants k1.
Proof.
  intros t Ht. unfold k1, kind_at, root30.
  destruct (Nat.ltb_spec t 16).
  - replace (Nat.ltb t 20) with true by lia. cbn [constant]. vm_compute. split; [discriminate|reflexivity].
  - destruct (Nat.ltb t 20), (Nat.ltb t 40), (Nat.ltb t 60); cbn [constant]; vm_compute; (split; [discriminate|reflexivity]).
Qed.

Definition step1 (f k w : N) (h : hash5) : hash5 :=
  let '(a, b, c, d, e) := h in ((rotl 5 a + f + e + k + w) mod two32, a, rotl 30 b, c, d).

Definition f_of (k : kind) (h : hash5) : N := let '(a, b, c, d, e) := h in mix k b c d.

Lemma round_step r h block k i w block' : (r < 5)%nat -> ok5 h -> expand_word k block i = (w, block') ->
  sha1_round (arrange r h, block) (k, args r, i) =
    (arrange (Nat.modulo (S r) 5) (step1 (f_of k h) (constant k) w h), block').
Proof.
  intros Hr. destruct h as [[[[a b] c] d] e]. intros (Ha & Hb & Hc & Hd & He) E.
  assert (X : forall f, wrap32 (e + (f + w + constant k + rol a 5)) = (rotl 5 a + f + e + constant k + w) mod two32).
  { intros f. rewrite (rol_rotl a 5 Ha) by lia. change (wrap32 ?x) with (x mod two32). f_equal. lia. }
  assert (Y : rol b 30 = rotl 30 b) by (apply rol_rotl; [exact Hb|lia]).
  assert (Hr5 : r = 0%nat \/ r = 1%nat \/ r = 2%nat \/ r = 3%nat \/ r = 4%nat) by lia.
  unfold f_of, step1. rewrite <- X, <- Y.
  destruct Hr5 as [->|[->|[->|[->| ->]]]]; unfold sha1_round, arrange, args; rewrite E; reflexivity.
Qed.

Lemma mix_f t h : ok5 h -> f_of (kind_at t) h = let '(a, b, c, d, e) := h in sha1_f t b c d.
Proof.
  destruct h as [[[[a b] c] d] e]. intros (Ha & Hb & Hc & Hd & He). unfold f_of, kind_at, sha1_f.
  destruct (Nat.ltb_spec t 16).
  - replace (Nat.ltb t 20) with true by lia. apply ch_model; assumption.
  - destruct (Nat.ltb t 20); [apply ch_model; assumption|].
    destruct (Nat.ltb t 40); [reflexivity|]. destruct (Nat.ltb t 60); [apply maj_model|reflexivity].
Qed.

Lemma step_ok f k w h : ok5 h -> ok5 (step1 f k w h).
Proof.
  destruct h as [[[[a b] c] d] e]. intros (Ha & Hb & Hc & Hd & He). unfold step1, ok5.
  split; [apply N.mod_lt; discriminate|]. split; [exact Ha|]. split; [apply rotl_lt; [exact Hb|lia]|]. split; assumption.
Qed.

Lemma rounds_ok k w n h : ok5 h -> ok5 (sha1_rounds k w n h).
Proof.
  intros H. induction n as [|n IH]; [exact H|]. cbn [sha1_rounds].
  destruct (sha1_rounds k w n h) as [[[[a b] c] d] e]. exact (step_ok (sha1_f n b c d) (k n) (w n) (a, b, c, d, e) IH).
Qed.

(** *** The block as a window on the schedule *)

Lemma upd_len l i v : (i < length l)%nat -> length (upd l i v) = length l.
Proof. intros H. unfold upd. rewrite app_length, firstn_length. cbn [length]. rewrite skipn_length. lia. Qed.
Lemma upd_same l i v : (i < length l)%nat -> nth i (upd l i v) 0 = v.
Proof.
  intros H. unfold upd. rewrite app_nth2; rewrite firstn_length; [|lia].
  replace (i - Nat.min i (length l))%nat with 0%nat by lia. reflexivity.
Qed.
Lemma upd_other l i j v : (i < length l)%nat -> i <> j -> nth j (upd l i v) 0 = nth j l 0.
Proof.
  intros H Hij. unfold upd. destruct (Nat.lt_ge_cases j i) as [L|L].
  - rewrite app_nth1 by (rewrite firstn_length; lia). rewrite <- (firstn_skipn i l) at 2.
    rewrite app_nth1 by (rewrite firstn_length; lia). reflexivity.
  - rewrite app_nth2; rewrite firstn_length; [|lia]. rewrite Nat.min_l by lia.
    destruct (j - i)%nat as [|m] eqn:E; [lia|]. cbn [nth].
    rewrite <- (firstn_skipn (S i) l) at 2. rewrite app_nth2; rewrite firstn_length; [|lia].
    f_equal. lia.
Qed.

Definition window (bytes : list N) (w : nat -> N) (n : nat) (block : list N) : Prop :=
  length block = 16%nat /\
  (forall t, (t < n)%nat -> (n <= t + 16)%nat -> nth (Nat.modulo t 16) block 0 = w t) /\
  (forall j, (n <= j < 16)%nat -> nth j block 0 = nth j (host_words false bytes) 0).

Lemma sched_lt bytes w : length bytes = 64%nat -> Forall byte bytes -> sha1_schedule (words bytes) w ->
  forall t, (t < 80)%nat -> w t < two32.
Proof.
  intros L F [S1 S2] t. induction t as [t IH] using lt_wf_ind. intros Ht.
  destruct (Nat.lt_ge_cases t 16) as [Lt|Lt].
  - destruct (words_nth bytes 16 L F t Lt) as (b0 & b1 & b2 & b3 & H0 & H1 & H2 & H3 & E & _).
    specialize (S1 t Lt). rewrite E in S1. injection S1 as <-. apply wordz_lt; assumption.
  - rewrite S2 by lia. apply rotl_lt; [|lia]. unfold xor. repeat apply lxor_lt; apply IH; lia.
Qed.

Lemma window_step bytes w n block : length bytes = 64%nat -> Forall byte bytes -> sha1_schedule (words bytes) w ->
  (n < 80)%nat -> window bytes w n block ->
  exists block', expand_word (kind_at n) block n = (w n, block') /\ window bytes w (S n) block'.
Proof.
  intros L F Sch Hn (W1 & W2 & W3). pose proof (sched_lt bytes w L F Sch) as Lt. destruct Sch as [S1 S2].
  assert (Upd : window bytes w (S n) (upd block (Nat.modulo n 16) (w n))).
  { assert (M : (Nat.modulo n 16 < 16)%nat) by (apply Nat.mod_upper_bound; lia).
    split; [rewrite upd_len; lia|]. split.
    - intros t H1 H2. destruct (Nat.eq_dec t n) as [->|E]; [apply upd_same; lia|].
      rewrite upd_other; [apply W2; lia|lia|]. intros X.
      pose proof (Nat.div_mod t 16 ltac:(lia)). pose proof (Nat.div_mod n 16 ltac:(lia)). lia.
    - intros j Hj. rewrite upd_other; [apply W3; lia|lia|]. intros X. pose proof (Nat.mod_le n 16 ltac:(lia)). lia. }
  destruct (Nat.lt_ge_cases n 16) as [L16|L16].
  - exists (upd block (Nat.modulo n 16) (w n)). split; [|exact Upd].
    assert (Ek : kind_at n = R0) by (unfold kind_at; replace (Nat.ltb n 16) with true by lia; reflexivity).
    rewrite Ek. cbn [expand_word]. unfold blk0. rewrite (Nat.mod_small n 16 L16) in *.
    destruct (words_nth bytes 16 L F n L16) as (b0 & b1 & b2 & b3 & H0 & H1 & H2 & H3 & E1 & E2 & _).
    specialize (S1 n L16). rewrite E1 in S1. injection S1 as S1.
    rewrite W3 by lia. rewrite (nth_error_nth _ _ _ E2). rewrite swap_bytes by assumption. rewrite S1. reflexivity.
  - exists (upd block (Nat.modulo n 16) (w n)). split; [|exact Upd].
    assert (Eb : expand_word (kind_at n) block n = blk block n).
    { unfold kind_at. replace (Nat.ltb n 16) with false by lia.
      destruct (Nat.ltb n 20), (Nat.ltb n 40), (Nat.ltb n 60); reflexivity. }
    rewrite Eb. unfold blk. cbv zeta.
    assert (At : forall d, (1 <= d <= 16)%nat -> nth (Nat.modulo (n + (16 - d)) 16) block 0 = w (n - d)%nat).
    { intros d Hd. replace (n + (16 - d))%nat with (n - d + 1 * 16)%nat by lia.
      rewrite Nat.mod_add by lia. apply W2; lia. }
    pose proof (At 3%nat ltac:(lia)) as A3. pose proof (At 8%nat ltac:(lia)) as A8.
    pose proof (At 14%nat ltac:(lia)) as A14. pose proof (At 16%nat ltac:(lia)) as A16.
    change (16 - 3)%nat with 13%nat in A3. change (16 - 8)%nat with 8%nat in A8. change (16 - 14)%nat with 2%nat in A14.
    change (16 - 16)%nat with 0%nat in A16. rewrite Nat.add_0_r in A16. rewrite A3, A8, A14, A16.
    assert (Ew : rol (N.lxor (N.lxor (N.lxor (w (n - 3)%nat) (w (n - 8)%nat)) (w (n - 14)%nat)) (w (n - 16)%nat)) 1 = w n).
    { rewrite rol_rotl; [symmetry; apply S2; lia| |lia]. repeat apply lxor_lt; apply Lt; lia. }
    rewrite Ew. reflexivity.
Qed.

Lemma rounds_model bytes w h : length bytes = 64%nat -> Forall byte bytes -> sha1_schedule (words bytes) w -> ok5 h ->
  forall n, (n <= 80)%nat -> exists block,
    fold_left sha1_round (map entry_at (seq 0 n)) (arrange 0 h, host_words false bytes)
      = (arrange (Nat.modulo n 5) (sha1_rounds k1 w n h), block) /\ window bytes w n block.
Proof.
  intros L F Sch Hh n. induction n as [|n IH]; intros Hn.
  - exists (host_words false bytes). split; [reflexivity|]. split; [apply (words_len bytes 16 L)|].
    split; [intros; lia|reflexivity].
  - destruct (IH ltac:(lia)) as (block & E & Win).
    destruct (window_step bytes w n block L F Sch ltac:(lia) Win) as (block' & E' & Win').
    exists block'. split; [|exact Win']. rewrite seq_S, map_app, fold_left_app, E. cbn [Nat.add map fold_left].
    pose proof (rounds_ok k1 w n h Hh) as Ho. unfold entry_at.
    rewrite (round_step (Nat.modulo n 5) (sha1_rounds k1 w n h) block (kind_at n) n (w n) block');
      [|apply Nat.mod_upper_bound; lia|exact Ho|exact E'].
    rewrite (mix_f n _ Ho). cbn [sha1_rounds]. destruct (sha1_rounds k1 w n h) as [[[[a b] c] d] e].
    unfold step1, k1. f_equal. f_equal.
    pose proof (Nat.div_mod n 5 ltac:(lia)). pose proof (Nat.mod_upper_bound n 5 ltac:(lia)).
    destruct (Nat.eq_dec (Nat.modulo n 5) 4) as [E4|E4].
    + rewrite E4. change (Nat.modulo 5 5) with 0%nat. apply (Nat.mod_unique _ _ (S (n / 5))); lia.
    + rewrite (Nat.mod_small (S (Nat.modulo n 5)) 5) by lia. apply (Nat.mod_unique _ _ (n / 5)); lia.
Qed.

Definition list5 (h : hash5) : list N := let '(a, b, c, d, e) := h in [a; b; c; d; e].

Definition sched1 (m : list N) : nat -> N := seqv (fun t l =>
  if Nat.ltb t 16 then nth t m 0
  else rotl 1 (xor (xor (xor (nth (t - 3) l 0) (nth (t - 8) l 0)) (nth (t - 14) l 0)) (nth (t - 16) l 0))).

Lemma sched1_ok m : length m = 16%nat -> sha1_schedule m (sched1 m).
Proof.
  intros L. split; intros t Ht; unfold sched1; rewrite seqv_eq.
  - replace (Nat.ltb t 16) with true by lia. apply nth_error_nth'. lia.
  - replace (Nat.ltb t 16) with false by lia. rewrite !hist_nth by lia. reflexivity.
Qed.

Lemma transform_block h bytes : length bytes = 64%nat -> Forall byte bytes -> ok5 h ->
  exists h', sha1_transform false (list5 h) bytes = list5 h' /\ sha1_block h bytes h' /\ ok5 h'.
Proof.
  intros L F Hh. assert (Sch : sha1_schedule (words bytes) (sched1 (words bytes))).
  { apply sched1_ok. apply (words_len bytes 16 L). }
  destruct (rounds_model bytes _ h L F Sch Hh 80 ltac:(lia)) as (block & E & _).
  unfold sha1_transform. rewrite table_eq.
  assert (E0 : list5 h = arrange 0 h) by (destruct h as [[[[a b] c] d] e]; reflexivity).
  rewrite E0, E. change (Nat.modulo 80 5) with 0%nat.
  destruct (sha1_rounds k1 (sched1 (words bytes)) 80 h) as [[[[a b] c] d] e] eqn:R.
  destruct h as [[[[h0 h1] h2] h3] h4].
  exists ((h0 + a) mod two32, (h1 + b) mod two32, (h2 + c) mod two32, (h3 + d) mod two32, (h4 + e) mod two32).
  split; [reflexivity|]. split.
  - exists k1, (sched1 (words bytes)). split; [exact k1_constants|]. split; [exact Sch|]. rewrite R. reflexivity.
  - unfold ok5. repeat split; apply N.mod_lt; discriminate.
Qed.

Lemma root30_fun n a b : root30 n a -> root30 n b -> a = b.
Proof. unfold root30. nia. Qed.

Lemma rounds_ext k k' w w' h n : (forall t, (t < n)%nat -> k t = k' t) -> (forall t, (t < n)%nat -> w t = w' t) ->
  sha1_rounds k w n h = sha1_rounds k' w' n h.
Proof.
  induction n as [|n IH]; intros Hk Hw; [reflexivity|]. cbn [sha1_rounds].
  rewrite IH by (intros; (apply Hk || apply Hw); lia). rewrite Hk, Hw by lia. reflexivity.
Qed.

Lemma sched_fun m w w' : sha1_schedule m w -> sha1_schedule m w' -> forall t, (t < 80)%nat -> w t = w' t.
Proof.
  intros [A1 A2] [B1 B2] t. induction t as [t IH] using lt_wf_ind. intros Ht.
  destruct (Nat.lt_ge_cases t 16) as [L|L].
  - specialize (A1 t L). specialize (B1 t L). congruence.
  - rewrite A2, B2 by lia. rewrite !(IH (t - _)%nat) by lia. reflexivity.
Qed.

Lemma block_fun h b h1 h2 : sha1_block h b h1 -> sha1_block h b h2 -> h1 = h2.
Proof.
  intros (k & w & K & W & E) (k' & w' & K' & W' & E').
  rewrite (rounds_ext k k' w w') in E.
  - destruct h as [[[[a b0] c] d] e]. destruct (sha1_rounds k' w' 80 _) as [[[[a' b'] c'] d'] e']. congruence.
  - intros t Ht. exact (root30_fun _ _ _ (K t Ht) (K' t Ht)).
  - apply (sched_fun _ _ _ W W').
Qed.

Lemma sha1_of_fun m d d' : sha1_of m d -> sha1_of m d' -> d = d'.
Proof.
  intros (p & h0 & h1 & h2 & h3 & h4 & P & C & ->) (p' & i0 & i1 & i2 & i3 & i4 & P' & C' & ->).
  rewrite (padded_fun _ _ _ P' P) in C'.
  pose proof (chain_fun sha1_block (fun h b x y _ => block_fun h b x y) _ _ _ C _ C') as E. congruence.
Qed.

(** ** Updates *)

Notation comp := (sha1_transform false).
Definition start5 : list N := list5 sha1_start.

(** The counters hold the length of the data in bits. *)
Definition counted (c : sha1) (D : list N) : Prop :=
  s1_count0 c = (8 * N.of_nat (length D)) mod two32 /\
  s1_count1 c = ((8 * N.of_nat (length D)) / two32) mod two32.

(** What a context holds after the data [D]. *)
Definition holds (c : sha1) (D : list N) : Prop :=
  length (s1_buffer c) = 64%nat /\ counted c D /\
  exists q F R, D = F ++ R /\ length F = (64 * q)%nat /\ (length R < 64)%nat /\
    s1_state c = absorb comp q start5 F /\ firstn (length R) (s1_buffer c) = R.

Lemma holds_init memory : length memory = 64%nat -> holds (sha1_init memory) [].
Proof.
  intros L. split; [exact L|]. split; [split; reflexivity|].
  exists 0%nat, [], []. split; [reflexivity|]. split; [reflexivity|]. split; [cbn; lia|]. split; reflexivity.
Qed.

Lemma count_low n : N.land (N.shiftr ((8 * n) mod two32) 3) 63 = n mod 64.
Proof.
  change 63 with (N.ones 6). rewrite N.land_ones, N.shiftr_div_pow2. change (2 ^ 3) with 8. change (2 ^ 6) with 64.
  change two32 with (8 * 536870912). rewrite N.mul_mod_distr_l by discriminate.
  rewrite N.mul_comm, N.div_mul by discriminate.
  change 536870912 with (64 * 8388608). rewrite N.mod_mul_r by discriminate.
  rewrite N.mul_comm, N.mod_add by discriminate. apply N.mod_mod. discriminate.
Qed.

Lemma counts c0 c1 n x : c0 = (8 * x) mod two32 -> c1 = ((8 * x) / two32) mod two32 -> n < two32 ->
  wrap32 (c0 + wrap32 (N.shiftl n 3)) = (8 * (x + n)) mod two32 /\
  wrap32 ((if wrap32 (c0 + wrap32 (N.shiftl n 3)) <? wrap32 (N.shiftl n 3) then wrap32 (c1 + 1) else c1) + N.shiftr n 29)
    = ((8 * (x + n)) / two32) mod two32.
Proof.
  intros -> -> Hn. unfold wrap32. change W32 with two32. rewrite N.shiftl_mul_pow2, N.shiftr_div_pow2.
  change (2 ^ 3) with 8. change (2 ^ 29) with 536870912.
  assert (Dn : n / 536870912 = (n * 8) / two32).
  { change two32 with (536870912 * 8). rewrite N.div_mul_cancel_r by discriminate. reflexivity. }
  rewrite Dn. replace (8 * (x + n)) with (8 * x + n * 8) by lia. generalize (8 * x), (n * 8). clear. intros y m.
  split; [symmetry; apply N.add_mod; discriminate|].
  pose proof (N.div_mod y two32 ltac:(discriminate)) as Ey. pose proof (N.div_mod m two32 ltac:(discriminate)) as Em.
  pose proof (N.mod_lt y two32 ltac:(discriminate)) as Ly. pose proof (N.mod_lt m two32 ltac:(discriminate)) as Lm.
  set (yq := y / two32) in *. set (yr := y mod two32) in *. set (mq := m / two32) in *. set (mr := m mod two32) in *.
  clearbody yq yr mq mr. subst y m. unfold two32 in *.
  assert (C : (yr + mr) mod 4294967296 = if yr + mr <? 4294967296 then yr + mr else yr + mr - 4294967296).
  { destruct (N.ltb_spec (yr + mr) 4294967296) as [L|L]; [apply N.mod_small; exact L|].
    symmetry. apply (N.mod_unique _ _ 1); lia. }
  assert (Q : (4294967296 * yq + yr + (4294967296 * mq + mr)) / 4294967296 = yq + mq + (if yr + mr <? 4294967296 then 0 else 1)).
  { symmetry. destruct (N.ltb_spec (yr + mr) 4294967296) as [L|L].
    - apply (N.div_unique _ _ _ (yr + mr)); lia.
    - apply (N.div_unique _ _ _ (yr + mr - 4294967296)); lia. }
  rewrite Q, C. destruct (N.ltb_spec (yr + mr) 4294967296) as [L|L].
  - replace (yr + mr <? mr) with false by lia. rewrite N.add_mod_idemp_l by discriminate. f_equal. lia.
  - replace (yr + mr - 4294967296 <? mr) with true by lia.
    rewrite N.add_mod_idemp_l by discriminate. rewrite <- N.add_assoc, N.add_mod_idemp_l by discriminate. f_equal. lia.
Qed.

Lemma skipn_twice {A} a b (l : list A) : skipn a (skipn b l) = skipn (b + a) l.
Proof.
  revert l. induction b as [|b IH]; intros l; [reflexivity|]. destruct l as [|x l]; [|apply IH].
  rewrite !skipn_nil. reflexivity.
Qed.

Lemma blocks_spec data : N.of_nat (length data) < two32 -> forall fuel st i,
  (i <= length data)%nat -> (length data < i + fuel)%nat ->
  (forall k, (i + 64 * k <= length data)%nat -> N.of_nat (i + 64 * k) + 63 < two32) ->
  exists m, (i + 64 * m <= length data)%nat /\ (length data < i + 64 * m + 64)%nat /\
    sha1_blocks false fuel st data (N.of_nat i)
      = ROk (absorb comp m st (firstn (64 * m) (skipn i data)), N.of_nat (i + 64 * m)).
Proof.
  intros Hn. induction fuel as [|f IH]; intros st i Hi Hf Hw; [lia|]. cbn [sha1_blocks].
  pose proof (Hw 0%nat ltac:(lia)) as Hw0. replace (i + 64 * 0)%nat with i in Hw0 by lia.
  assert (E1 : wrap32 (N.of_nat i + 63) = N.of_nat i + 63) by (apply wrap32_small; exact Hw0).
  rewrite E1. destruct (N.ltb_spec (N.of_nat i + 63) (N.of_nat (length data))) as [L|L].
  - replace (N.of_nat (length data) <? N.of_nat i + 64) with false by lia.
    assert (E2 : wrap32 (N.of_nat i + 64) = N.of_nat (i + 64)).
    { rewrite wrap32_small; [lia|]. change W32 with two32. lia. }
    rewrite E2, Nat2N.id. destruct (IH (comp st (firstn 64 (skipn i data))) (i + 64)%nat) as (m & M1 & M2 & M3).
    + lia.
    + lia.
    + intros k Hk. replace (i + 64 + 64 * k)%nat with (i + 64 * S k)%nat by lia. apply Hw. lia.
    + exists (S m). split; [lia|]. split; [lia|]. rewrite M3. f_equal. f_equal; [|f_equal; lia].
      cbn [absorb]. rewrite firstn_firstn, Nat.min_l by lia. f_equal.
      rewrite skipn_firstn_comm, skipn_twice. f_equal. lia.
  - exists 0%nat. split; [lia|]. split; [lia|]. cbn [absorb]. rewrite Nat.mul_0_r, Nat.add_0_r. reflexivity.
Qed.

Lemma counted_update c D data st buf : counted c D -> N.of_nat (length data) < two32 ->
  counted (mkS1 st (wrap32 (s1_count0 c + wrap32 (N.shiftl (N.of_nat (length data)) 3)))
    (wrap32 ((if wrap32 (s1_count0 c + wrap32 (N.shiftl (N.of_nat (length data)) 3)) <? wrap32 (N.shiftl (N.of_nat (length data)) 3)
              then wrap32 (s1_count1 c + 1) else s1_count1 c) + N.shiftr (N.of_nat (length data)) 29)) buf) (D ++ data).
Proof.
  intros [C0 C1] Hn. unfold counted. cbn [s1_count0 s1_count1]. rewrite app_length, Nat2N.inj_add.
  apply counts; assumption.
Qed.

Lemma counted_low c D : counted c D -> N.land (N.shiftr (s1_count0 c) 3) 63 = N.of_nat (length D) mod 64.
Proof. intros [C0 _]. rewrite C0. apply count_low. Qed.

(** An update appends its data, if its size does not wrap around together with the bytes waiting. *)
Lemma update_holds c D data : holds c D -> N.of_nat (length D) mod 64 + N.of_nat (length data) < two32 ->
  exists c', sha1_update false c data = ROk c' /\ holds c' (D ++ data).
Proof.
  intros (Lb & C & q & F & R & ED & LF & LR & St & Bf) Hj.
  assert (Ej : N.of_nat (length D) mod 64 = N.of_nat (length R)).
  { rewrite ED, app_length, LF. symmetry. apply (N.mod_unique _ _ (N.of_nat q)); lia. }
  rewrite Ej in Hj.
  assert (Hn : N.of_nat (length data) < two32) by lia.
  pose proof (fun st buf => counted_update c D data st buf C Hn) as K.
  unfold sha1_update. cbv zeta. rewrite (counted_low c D C), Ej. clear C Ej.
  assert (EW : wrap32 (N.of_nat (length R) + N.of_nat (length data)) = N.of_nat (length R + length data)).
  { rewrite wrap32_small; [lia|]. change W32 with two32. exact Hj. }
  rewrite EW. destruct (N.ltb_spec 63 (N.of_nat (length R + length data))) as [L|L].
  - replace (N.of_nat (length data) <? 64 - N.of_nat (length R)) with false by lia.
    replace (N.to_nat (64 - N.of_nat (length R))) with (64 - length R)%nat by lia.
    set (i := (64 - length R)%nat).
    assert (Hi : (i + length R = 64)%nat) by lia.
    assert (Hi2 : (i <= length data)%nat) by lia.
    replace (64 - N.of_nat (length R)) with (N.of_nat i) by lia. clearbody i.
    assert (Lf : length (firstn i data) = i) by (rewrite firstn_length; lia).
    destruct (copy64_ok (s1_buffer c) (N.of_nat (length R)) (firstn i data) Lb) as (b & Eb & Lb' & Fb).
    { rewrite Lf, Nat2N.id. lia. }
    rewrite Eb. rewrite Lf, Nat2N.id, Bf in Fb. replace (length R + i)%nat with 64%nat in Fb by lia.
    rewrite firstn_all2 in Fb by lia.
    destruct (blocks_spec data Hn (S (length data)) (comp (s1_state c) b) i) as (m & M1 & M2 & M3).
    { exact Hi2. } { lia. }
    { intros k Hk. unfold two32 in *. assert (Y : (64 * (k + 1) <= length R + length data)%nat) by lia.
      assert (V : N.of_nat (k + 1) <= 67108863) by lia. lia. }
    rewrite M3. rewrite Nat2N.id.
    assert (Ls : length (skipn (i + 64 * m) data) = (length data - (i + 64 * m))%nat) by apply skipn_length.
    destruct (copy64_ok b 0 (skipn (i + 64 * m) data) Lb') as (b2 & Eb2 & Lb2 & Fb2).
    { rewrite Ls. change (N.to_nat 0) with 0%nat. lia. }
    rewrite Eb2. eexists. split; [reflexivity|]. split; [exact Lb2|]. split; [apply K|].
    exists (q + (1 + m))%nat, (F ++ b ++ firstn (64 * m) (skipn i data)), (skipn (i + 64 * m) data).
    split.
    { rewrite ED, Fb. rewrite <- !app_assoc. f_equal. f_equal.
      rewrite <- (firstn_skipn i data) at 1. f_equal.
      rewrite <- (firstn_skipn (64 * m) (skipn i data)) at 1. f_equal. rewrite skipn_twice. reflexivity. }
    split; [rewrite !app_length, LF, Lb', firstn_length, skipn_length; lia|]. split; [lia|]. split.
    + cbn [s1_state]. rewrite absorb_app by exact LF. rewrite absorb_app by lia.
      rewrite absorb_one by exact Lb'. rewrite St. reflexivity.
    + cbn [s1_buffer]. change (N.to_nat 0) with 0%nat in Fb2. rewrite Nat.add_0_l in Fb2.
      rewrite firstn_O in Fb2. exact Fb2.
  - destruct (copy64_ok (s1_buffer c) (N.of_nat (length R)) data Lb) as (b & Eb & Lb' & Fb); [rewrite Nat2N.id; lia|].
    rewrite Eb. eexists. split; [reflexivity|]. split; [exact Lb'|]. split; [apply K|].
    exists q, F, (R ++ data). split; [rewrite ED, app_assoc; reflexivity|]. split; [exact LF|].
    split; [rewrite app_length; lia|]. split; [exact St|]. cbn [s1_buffer].
    rewrite app_length. rewrite Nat2N.id, Bf in Fb. exact Fb.
Qed.

(** Otherwise it writes past the end of the buffer. *)
Lemma update_wraps c D data : holds c D -> N.of_nat (length data) < two32 ->
  two32 <= N.of_nat (length D) mod 64 + N.of_nat (length data) -> sha1_update false c data = RUB.
Proof.
  intros (Lb & C & _) Hn Hw. unfold sha1_update. cbv zeta. rewrite (counted_low c D C). clear C.
  pose proof (N.mod_lt (N.of_nat (length D)) 64 ltac:(discriminate)) as J.
  revert Hw J. generalize (N.of_nat (length D) mod 64). intros j Hw J.
  assert (EW : wrap32 (j + N.of_nat (length data)) = j + N.of_nat (length data) - two32).
  { unfold wrap32. change W32 with two32. symmetry. apply (N.mod_unique _ _ 1); unfold two32 in *; lia. }
  rewrite EW. replace (63 <? _) with false by (unfold two32 in *; lia). rewrite copy64_bad; [reflexivity|]. unfold two32 in *. lia.
Qed.

(** ** Finishing *)

Lemma pad_done c D : counted c D -> (N.land (s1_count0 c) 504 =? 448) = (N.of_nat (length D) mod 64 =? 56).
Proof.
  intros [C0 _]. rewrite C0. generalize (N.of_nat (length D)). clear. intros x.
  assert (E : N.land ((8 * x) mod two32) 504 = 8 * (x mod 64)).
  { rewrite <- count_low. generalize ((8 * x) mod two32). intros y.
    rewrite N.mul_comm. change 8 with (2 ^ 3) at 1. rewrite <- N.shiftl_mul_pow2, N.shiftl_land.
    change (N.shiftl 63 3) with 504. apply N.bits_inj. intros i. rewrite !N.land_spec.
    destruct (N.lt_ge_cases i 3) as [L|L].
    - assert (X : N.testbit 504 i = false).
      { assert (i = 0 \/ i = 1 \/ i = 2) as [->|[->| ->]] by lia; reflexivity. }
      rewrite X, !andb_false_r. reflexivity.
    - rewrite N.shiftl_spec_high' by exact L. rewrite N.shiftr_spec'. do 2 f_equal. lia. }
  rewrite E. destruct (N.eqb_spec (x mod 64) 56) as [->|H]; [reflexivity|]. apply N.eqb_neq. lia.
Qed.

Lemma pad_spec fuel : forall k c D, holds c D -> (k < 64)%nat -> (k < fuel)%nat ->
  Nat.modulo (length D + k) 64 = 56%nat ->
  exists c', sha1_pad false fuel c = ROk c' /\ holds c' (D ++ repeat 0 k).
Proof.
  induction fuel as [|f IH]; intros k c D Hc Hk Hf Hm; [lia|]. cbn [sha1_pad].
  rewrite (pad_done c D) by apply Hc.
  assert (EN : N.of_nat (length D) mod 64 = N.of_nat (Nat.modulo (length D) 64)).
  { rewrite Nat2N.inj_mod. reflexivity. }
  rewrite EN. pose proof (Nat.div_mod (length D) 64 ltac:(lia)) as M1. pose proof (Nat.mod_upper_bound (length D) 64 ltac:(lia)) as M2.
  pose proof (Nat.div_mod (length D + k) 64 ltac:(lia)) as M3.
  destruct (N.eqb_spec (N.of_nat (Nat.modulo (length D) 64)) 56) as [E|E].
  - exists c. split; [reflexivity|]. assert (k = 0%nat) by lia. subst k. cbn [repeat]. rewrite app_nil_r. exact Hc.
  - destruct k as [|k]; [rewrite Nat.add_0_r in *; exfalso; lia|].
    destruct (update_holds c D [0] Hc) as (c1 & E1 & H1).
    { rewrite EN. unfold two32. cbn [length]. lia. }
    rewrite E1. destruct (IH k c1 (D ++ [0]) H1) as (c2 & E2 & H2); [lia|lia| |].
    { rewrite app_length. cbn [length]. replace (length D + 1 + k)%nat with (length D + S k)%nat by lia. exact Hm. }
    exists c2. split; [exact E2|]. rewrite <- app_assoc in H2. exact H2.
Qed.

Lemma absorb_chain q : forall P h, length P = (64 * q)%nat -> Forall byte P -> ok5 h ->
  exists h', absorb comp q (list5 h) P = list5 h' /\ chain sha1_block h P h'.
Proof.
  induction q as [|q IH]; intros P h L F Hh.
  - destruct P; [|discriminate]. exists h. split; [reflexivity|constructor].
  - assert (Lb : length (firstn 64 P) = 64%nat) by (rewrite firstn_length; lia).
    rewrite <- (firstn_skipn 64 P) in F. apply Forall_app in F. destruct F as [F1 F2].
    destruct (transform_block h (firstn 64 P) Lb F1 Hh) as (h1 & E1 & B1 & O1).
    destruct (IH (skipn 64 P) h1) as (h2 & E2 & C2); [rewrite skipn_length; lia|exact F2|exact O1|].
    exists h2. cbn [absorb]. rewrite E1. split; [exact E2|]. rewrite <- (firstn_skipn 64 P) at 1.
    apply chain_cons with h1; assumption.
Qed.

Lemma ok5_start : ok5 sha1_start.
Proof. vm_compute. auto. Qed.

Lemma final_spec c D : holds c D -> Forall byte D -> 8 * N.of_nat (length D) < W64 ->
  exists d, sha1_final false c = ROk d /\ sha1_of D d.
Proof.
  intros Hc Fb Hl. unfold sha1_final.
  destruct (update_holds c D [128] Hc) as (c1 & E1 & H1).
  { pose proof (N.mod_lt (N.of_nat (length D)) 64 ltac:(discriminate)). unfold two32. cbn [length]. lia. }
  rewrite E1.
  assert (K : exists k, (k < 64)%nat /\ Nat.modulo (length (D ++ [128]) + k) 64 = 56%nat).
  { rewrite app_length. cbn [length]. pose proof (Nat.div_mod (length D) 64 ltac:(lia)) as M1.
    pose proof (Nat.mod_upper_bound (length D) 64 ltac:(lia)) as M2.
    destruct (Nat.le_gt_cases (Nat.modulo (length D) 64) 55) as [L|L].
    - exists (55 - Nat.modulo (length D) 64)%nat. split; [lia|]. symmetry. apply (Nat.mod_unique _ _ (length D / 64)); lia.
    - exists (119 - Nat.modulo (length D) 64)%nat. split; [lia|]. symmetry. apply (Nat.mod_unique _ _ (length D / 64 + 1)); lia. }
  destruct K as (k & Hk & Hm).
  destruct (pad_spec 65 k c1 _ H1 Hk ltac:(lia) Hm) as (c2 & E2 & H2). rewrite E2.
  set (fc := word_bytes (s1_count1 c) ++ word_bytes (s1_count0 c)).
  assert (Efc : fc = be_bytes 8 (8 * N.of_nat (length D))).
  { unfold fc. destruct Hc as (_ & [C0 C1] & _). rewrite C0, C1, (N.mod_small (_ / _)); [apply be8_split; exact Hl|].
    apply N.div_lt_upper_bound; [discriminate|]. exact Hl. }
  rewrite Efc in *. clear Efc fc.
  destruct (update_holds c2 _ (be_bytes 8 (8 * N.of_nat (length D))) H2) as (c3 & E3 & H3).
  { match goal with |- ?x mod 64 + _ < _ => pose proof (N.mod_lt x 64 ltac:(discriminate)) end.
    rewrite be_bytes_len. unfold two32. lia. }
  rewrite E3. destruct H3 as (_ & _ & q & F & R & ED & LF & LR & St & _).
  set (P := D ++ 128 :: repeat 0 k ++ be_bytes 8 (8 * N.of_nat (length D))).
  assert (EP : ((D ++ [128]) ++ repeat 0 k) ++ be_bytes 8 (8 * N.of_nat (length D)) = P).
  { unfold P. rewrite <- !app_assoc. reflexivity. }
  rewrite EP in ED.
  assert (MP : Nat.modulo (length P) 64 = 0%nat).
  { rewrite <- EP, !app_length, repeat_length, be_bytes_len. rewrite app_length in Hm. cbn [length] in *.
    pose proof (Nat.div_mod (length D + 1 + k) 64 ltac:(lia)) as M. symmetry.
    apply (Nat.mod_unique _ _ ((length D + 1 + k) / 64 + 1)); lia. }
  assert (R0 : R = []).
  { rewrite ED, app_length, LF in MP. rewrite Nat.mul_comm, Nat.add_comm, Nat.mod_add in MP by lia.
    rewrite Nat.mod_small in MP by exact LR. destruct R; [reflexivity|discriminate]. }
  subst R. rewrite app_nil_r in ED. subst F.
  assert (FP : Forall byte P).
  { unfold P. apply Forall_app. split; [exact Fb|]. constructor; [reflexivity|]. apply Forall_app.
    split; [|apply be_bytes_byte]. apply Forall_forall. intros x Hx. apply repeat_spec in Hx. subst. reflexivity. }
  destruct (absorb_chain q P sha1_start LF FP ok5_start) as (h & Eh & Ch).
  eexists. split; [reflexivity|]. rewrite St. unfold start5. rewrite Eh.
  destruct h as [[[[h0 h1] h2] h3] h4]. exists P, h0, h1, h2, h3, h4.
  split; [exists k; split; [exact Hk|]; split; [reflexivity|exact MP]|]. split; [exact Ch|].
  unfold list5. cbn [flat_map]. rewrite !word_bytes_be. reflexivity.
Qed.

Lemma updates_holds pieces : Forall (fun d : list N => N.of_nat (length d) + 64 <= two32) pieces -> forall c D, holds c D ->
  exists c', sha1_updates false c pieces = ROk c' /\ holds c' (D ++ concat pieces).
Proof.
  induction 1 as [|d t Hd _ IH]; intros c D Hc.
  - exists c. split; [reflexivity|]. cbn [concat]. rewrite app_nil_r. exact Hc.
  - destruct (update_holds c D d Hc) as (c1 & E1 & H1).
    { pose proof (N.mod_lt (N.of_nat (length D)) 64 ltac:(discriminate)). lia. }
    cbn [sha1_updates]. rewrite E1. destruct (IH c1 _ H1) as (c2 & E2 & H2). exists c2. split; [exact E2|].
    cbn [concat]. rewrite app_assoc. exact H2.
Qed.

Lemma digest_claim memory pieces : length memory = 64%nat -> Forall (Forall byte) pieces ->
  Forall (fun d : list N => N.of_nat (length d) + 64 <= two32) pieces ->
  8 * N.of_nat (length (concat pieces)) < W64 ->
  exists d, sha1_digest false memory pieces = ROk d /\ sha1_of (concat pieces) d.
Proof.
  intros L F B T. destruct (updates_holds pieces B (sha1_init memory) [] (holds_init memory L)) as (c & E & H).
  unfold sha1_digest. rewrite E. apply final_spec; [exact H| |exact T]. apply Forall_concat. exact F.
Qed.

(** ** Hash of specfiles *)

Lemma gen_hash_ok memory buf : length memory = 64%nat -> Forall byte buf -> N.of_nat (length buf) < 2 * two32 - 64 ->
  exists d, digest_gen_hash false memory buf = ROk d /\ sha1_of buf d.
Proof.
  intros L F Hb. unfold digest_gen_hash.
  assert (G : exists c, gen_hash_loop false (S (length buf)) (sha1_init memory) buf = ROk c /\ holds c buf).
  { cbn [gen_hash_loop]. destruct (N.ltb_spec 4294967295 (N.of_nat (length buf))) as [H|H].
    - assert (Lf : N.of_nat (length (firstn (N.to_nat 4294967295) buf)) = 4294967295) by (rewrite firstn_length; lia).
      destruct (update_holds (sha1_init memory) [] (firstn (N.to_nat 4294967295) buf) (holds_init memory L)) as (c1 & E1 & H1).
      { rewrite Lf. reflexivity. }
      rewrite E1. rewrite app_nil_l in H1.
      assert (Ls : N.of_nat (length (skipn (N.to_nat 4294967295) buf)) = N.of_nat (length buf) - 4294967295)
        by (rewrite skipn_length; lia).
      assert (Hfuel : exists f, length buf = S f) by (destruct (length buf); [lia|eauto]).
      destruct Hfuel as [f Ef]. rewrite Ef. cbn [gen_hash_loop].
      replace (4294967295 <? N.of_nat (length (skipn (N.to_nat 4294967295) buf))) with false
        by (unfold two32 in *; lia).
      destruct (update_holds c1 _ (skipn (N.to_nat 4294967295) buf) H1) as (c2 & E2 & H2).
      { rewrite Lf, Ls. change (4294967295 mod 64) with 63. unfold two32 in *. lia. }
      exists c2. split; [exact E2|]. rewrite firstn_skipn in H2. exact H2.
    - destruct (update_holds (sha1_init memory) [] buf (holds_init memory L)) as (c1 & E1 & H1).
      { cbn [length]. change (N.of_nat 0 mod 64) with 0. unfold two32. lia. }
      exists c1. split; [exact E1|exact H1]. }
  destruct G as (c & E & H). rewrite E. apply final_spec; [exact H|exact F|]. unfold two32, W64 in *. lia.
Qed.

Lemma gen_hash_bad memory buf : length memory = 64%nat -> 2 * two32 - 64 <= N.of_nat (length buf) ->
  digest_gen_hash false memory buf = RUB.
Proof.
  intros L Hb. unfold digest_gen_hash.
  assert (G : gen_hash_loop false (S (length buf)) (sha1_init memory) buf = RUB); [|rewrite G; reflexivity].
  cbn [gen_hash_loop]. replace (4294967295 <? N.of_nat (length buf)) with true by (unfold two32 in *; lia).
  assert (Lf : N.of_nat (length (firstn (N.to_nat 4294967295) buf)) = 4294967295)
    by (rewrite firstn_length; unfold two32 in *; lia).
  destruct (update_holds (sha1_init memory) [] (firstn (N.to_nat 4294967295) buf) (holds_init memory L)) as (c1 & E1 & H1).
  { rewrite Lf. reflexivity. }
  rewrite E1. rewrite app_nil_l in H1.
  assert (Ls : N.of_nat (length (skipn (N.to_nat 4294967295) buf)) = N.of_nat (length buf) - 4294967295)
    by (rewrite skipn_length; lia).
  assert (Hfuel : exists f, length buf = S f) by (destruct (length buf); [unfold two32 in *; lia|eauto]).
  destruct Hfuel as [f Ef]. rewrite Ef. cbn [gen_hash_loop].
  destruct (N.ltb_spec 4294967295 (N.of_nat (length (skipn (N.to_nat 4294967295) buf)))) as [H|H].
  - rewrite (update_wraps c1 _ _ H1); [reflexivity| |].
    + rewrite firstn_length. unfold two32. lia.
    + rewrite Lf. change (4294967295 mod 64) with 63. rewrite firstn_length. unfold two32. lia.
  - apply (update_wraps c1 _ _ H1).
    + unfold two32. lia.
    + rewrite Lf, Ls. change (4294967295 mod 64) with 63. unfold two32 in *. lia.
Qed.
