(** Proofs about the optimiser. *)
From Coq Require Import Permutation Sorted.
From Verif Require Import Base EbitmapModel EbitmapSpec EbitmapProofs AvtabModel AvtabSpec AvtabProofs AssertModel AssertProofs OptModel OptSpec.

(** ** Kinds *)
Definition kind_is (sp i : N) : Prop := i < 15 /\ (sp = 2 ^ i \/ sp = 2 ^ i + 32768).
Lemma below15 (Q : N -> Prop) : Q 0 -> Q 1 -> Q 2 -> Q 3 -> Q 4 -> Q 5 -> Q 6 -> Q 7 -> Q 8 -> Q 9 -> Q 10 -> Q 11 -> Q 12 -> Q 13 -> Q 14 -> forall i, i < 15 -> Q i.
Proof.
  intros. assert (E : i = 0 \/ i = 1 \/ i = 2 \/ i = 3 \/ i = 4 \/ i = 5 \/ i = 6 \/ i = 7 \/ i = 8 \/ i = 9 \/ i = 10 \/ i = 11 \/ i = 12 \/ i = 13 \/ i = 14) by lia.
  repeat (destruct E as [-> |E]; [assumption|]). rewrite E. assumption.
Qed.
Lemma kind_flags sp i : kind_is sp i ->
  (N.land sp 4 =? 0) = negb (i =? 2) /\ (N.land sp 7 =? 0) = negb (i <? 3) /\ (N.land sp 1792 =? 0) = negb ((8 <=? i) && (i <=? 10)) /\
  (N.land sp (N.lor 7 1792) =? 0) = negb ((i <? 3) || ((8 <=? i) && (i <=? 10))) /\ N.land sp 32767 = 2 ^ i.
Proof.
  intros [B H]. revert i B H. refine (below15 _ _ _ _ _ _ _ _ _ _ _ _ _ _ _ _); intros [-> | ->]; vm_compute; auto.
Qed.
Lemma kind_bit sp i j : kind_is sp i -> j < 15 -> (N.testbit sp j = true <-> j = i).
Proof.
  intros K J. destruct (kind_flags sp i K) as (_ & _ & _ & _ & E). assert (T : N.testbit sp j = N.testbit (N.land sp 32767) j).
  { rewrite N.land_spec. change 32767 with (N.ones 15). rewrite N.ones_spec_low by lia. rewrite andb_true_r. reflexivity. }
  rewrite T, E, N.pow2_bits_eqb, N.eqb_eq. split; auto.
Qed.

(** The kind bit of an effect. *)
Definition ebit (e : effect) : N := match e with Allow _ => 0 | AuditAllow _ => 1 | Quiet _ => 2 | Command k _ => k | Restricts k => k | Gives k _ => k end.
Definition doesd (sp : N) (d : adatum) (e : effect) : Prop := does (mkNode (mkK 0 0 0 sp) d) e.
Lemma doesd_does n e : does n e <-> doesd (k_spec (n_key n)) (n_datum n) e.
Proof. reflexivity. Qed.
Lemma doesd_bit sp d e : doesd sp d e -> ebit e < 15 /\ N.testbit sp (ebit e) = true.
Proof. unfold doesd, does. cbn. destruct e; cbn [ebit]; intuition lia. Qed.
Lemma doesd_kind sp sp' i d e : kind_is sp i -> kind_is sp' i -> doesd sp d e -> doesd sp' d e.
Proof.
  intros K K' H. pose proof (doesd_bit _ _ _ H) as [L B]. apply (kind_bit sp i _ K L) in B.
  assert (B' : N.testbit sp' (ebit e) = true) by (apply (kind_bit sp' i _ K' L); exact B).
  unfold doesd, does in *. cbn in *. destruct e; cbn [ebit] in *; rewrite B'; intuition.
Qed.

(** ** Data *)
Lemma nth_words f b : (b < 256) -> nth (N.to_nat (b / 32)) (map f (seq 0 8)) 0 = f (N.to_nat (b / 32)).
Proof.
  intros B. assert (H : b / 32 < 8) by (apply N.div_lt_upper_bound; lia). destruct (N.to_nat (b / 32)) as [|[|[|[|[|[|[|[|?]]]]]]]] eqn:E; try reflexivity. lia.
Qed.
Lemma shrink_bits p1 p2 b : mbit (fst (process_xperms p1 p2)) b <-> mbit p1 b /\ ~ mbit p2 b.
Proof.
  unfold process_xperms, mbit. cbn [fst]. split.
  - intros [B H]. rewrite nth_words in H by exact B. rewrite N.ldiff_spec in H. apply andb_prop in H as [H1 H2]. rewrite negb_true_iff in H2. split; [auto|]. intros [_ H3]. congruence.
  - intros [[B H] N1]. split; [exact B|]. rewrite nth_words by exact B. rewrite N.ldiff_spec, H. destruct (N.testbit (nth (N.to_nat (b / 32)) p2 0) (b mod 32)) eqn:E; [|reflexivity]. destruct N1; auto.
Qed.
Lemma shrink_done p1 p2 b : snd (process_xperms p1 p2) = true -> ~ mbit (fst (process_xperms p1 p2)) b.
Proof.
  unfold process_xperms. cbn [fst snd]. intros F [B H]. rewrite nth_words in H by exact B. rewrite forallb_forall in F.
  assert (Z : N.ldiff (nth (N.to_nat (b / 32)) p1 0) (nth (N.to_nat (b / 32)) p2 0) = 0).
  { apply N.eqb_eq. apply F. apply in_map_iff. exists (N.to_nat (b / 32)). split; [reflexivity|]. apply in_seq. assert (b / 32 < 8) by (apply N.div_lt_upper_bound; lia). lia. }
  rewrite Z, N.bits_0 in H. discriminate.
Qed.
Lemma mbit_dec p b : mbit p b \/ ~ mbit p b.
Proof. unfold mbit. destruct (N.testbit (nth (N.to_nat (b / 32)) p 0) (b mod 32)); [|right; intros [_ X]; discriminate]. destruct (N.lt_ge_cases b 256); [left|right]; intuition lia. Qed.
Lemma xtest_bit d p : d < 256 -> (xperm_test d p = true <-> mbit p d).
Proof.
  intros B. unfold xperm_test, mbit. rewrite N.shiftr_div_pow2. change (2 ^ 5) with 32. change 31 with (N.ones 5). rewrite N.land_ones. change (2 ^ 5) with 32. intuition.
Qed.

(** Shrinking one set of commands by another of the same kind. *)
Lemma shrink_ok x1 x2 : x_spec x1 = x_spec x2 -> (x_spec x1 = 1 \/ x_spec x1 = 3 -> x_driver x1 = x_driver x2) -> x_spec x1 = 1 \/ x_spec x1 = 2 \/ x_spec x1 = 3 ->
  let x1' := mkX (x_spec x1) (x_driver x1) (fst (process_xperms (x_perms x1) (x_perms x2))) in
  forall c, (commands x1' c -> commands x1 c) /\ (commands x1 c -> commands x1' c \/ commands x2 c) /\ (snd (process_xperms (x_perms x1) (x_perms x2)) = true -> ~ commands x1' c).
Proof.
  intros E D K x1' c. pose proof (shrink_bits (x_perms x1) (x_perms x2)) as SB. pose proof (shrink_done (x_perms x1) (x_perms x2)) as SD.
  unfold commands, x1'. cbn [x_spec x_driver x_perms]. destruct c as [d f|h l].
  - split; [|split].
    + rewrite !SB. tauto.
    + rewrite !SB. intros [F [(H1 & H2 & H3)|(H1 & H2)]].
      * destruct (mbit_dec (x_perms x2) f); [right|left]; (split; [exact F|]); left; [|tauto]. rewrite <- E, <- D by auto. auto.
      * destruct (mbit_dec (x_perms x2) d); [right|left]; (split; [exact F|]); right; [|tauto]. rewrite <- E. auto.
    + intros R [F [(_ & _ & H)|(_ & H)]]; exact (SD _ R H).
  - split; [|split].
    + rewrite !SB. tauto.
    + rewrite !SB. intros (H1 & H2 & H3). destruct (mbit_dec (x_perms x2) l); [right|left]; [|tauto]. rewrite <- E, <- D by auto. auto.
    + intros R (_ & _ & H). exact (SD _ R H).
Qed.

Lemma process_ok sp i d1 d2 d1' r : kind_is sp i -> process_datum sp d1 d2 = (d1', r) -> forall e,
  (doesd sp d1' e -> doesd sp d1 e) /\ (doesd sp d1 e -> (r = false /\ doesd sp d1' e) \/ doesd sp d2 e).
Proof.
  intros K E e. destruct (kind_flags sp i K) as (F4 & F7 & FX & _ & _). unfold process_datum, AVTAB_AUDITDENY, AVTAB_AV, AVTAB_XPERMS in E. rewrite F4, F7, FX, !negb_involutive in E.
  assert (KB : forall j, j < 15 -> N.testbit sp j = true -> j = i) by (intros j J H; apply (kind_bit sp i j K J); exact H).
  assert (same : d1' = d1 -> r = false -> (doesd sp d1' e -> doesd sp d1 e) /\ (doesd sp d1 e -> (r = false /\ doesd sp d1' e) \/ doesd sp d2 e)) by (intros -> ->; tauto).
  destruct (N.eqb_spec i 2) as [I2|I2].
  { injection E as <- <-. assert (Z : forall d, doesd sp d e <-> exists b, e = Quiet b /\ b < 32 /\ N.testbit (d_data d) b = false).
    { intros d. split.
      - intros H. pose proof (doesd_bit _ _ _ H) as [L B]. apply KB in B; [|exact L]. unfold doesd, does in H. cbn in H. destruct e; cbn [ebit] in *; try lia. exists b. tauto.
      - intros (b & -> & H1 & H2). unfold doesd, does. cbn. split; [apply (kind_bit sp i 2 K); lia|auto]. }
    rewrite !Z. cbn [d_data]. split.
    - intros (b & -> & B & H). exists b. split; [reflexivity|]. split; [exact B|]. rewrite N.lor_spec in H. apply orb_false_elim in H. tauto.
    - intros (b & -> & B & H). destruct (N.testbit (d_data d2) b) eqn:E2.
      + left. assert (H' : N.testbit (N.lor (d_data d1) (N.ldiff 4294967295 (d_data d2))) b = false) by (rewrite N.lor_spec, N.ldiff_spec, H, E2, andb_false_r; reflexivity).
        split; [|exists b; auto]. apply N.eqb_neq. intros X. rewrite X in H'. change 4294967295 with (N.ones 32) in H'. rewrite N.ones_spec_low in H' by lia. discriminate.
      + right. exists b. auto. }
  destruct (N.ltb_spec i 3) as [I3|I3].
  { injection E as <- <-. assert (Z : forall d, doesd sp d e <-> exists b, (e = Allow b /\ i = 0 \/ e = AuditAllow b /\ i = 1) /\ N.testbit (d_data d) b = true).
    { intros d. split.
      - intros H. pose proof (doesd_bit _ _ _ H) as [L B]. apply KB in B; [|exact L]. unfold doesd, does in H. cbn in H. destruct e; cbn [ebit] in *; try lia; exists b; split; try tauto; auto.
      - intros (b & [[-> ->]|[-> ->]] & H); unfold doesd, does; cbn; (split; [apply (kind_bit sp _ _ K); lia|exact H]). }
    rewrite !Z. cbn [d_data]. split.
    - intros (b & W & H). exists b. split; [exact W|]. rewrite N.ldiff_spec in H. apply andb_prop in H. tauto.
    - intros (b & W & H). destruct (N.testbit (d_data d2) b) eqn:E2.
      + right. exists b. auto.
      + left. assert (H' : N.testbit (N.ldiff (d_data d1) (d_data d2)) b = true) by (rewrite N.ldiff_spec, H, E2; reflexivity).
        split; [|exists b; auto]. apply N.eqb_neq. intros X. rewrite X, N.bits_0 in H'. discriminate. }
  destruct ((8 <=? i) && (i <=? 10)) eqn:IX; [|injection E as <- <-; apply same; reflexivity].
  destruct (d_xperms d1) as [x1|] eqn:X1; [|injection E as <- <-; apply same; reflexivity].
  destruct (d_xperms d2) as [x2|] eqn:X2; [|injection E as <- <-; apply same; reflexivity].
  assert (Z : forall d x, d_xperms d = Some x -> (doesd sp d e <-> (exists c, e = Command i c /\ commands x c) \/ (e = Restricts i /\ (x_spec x = 1 \/ x_spec x = 2 \/ x_spec x = 3)))).
  { intros d x EX. split.
    - intros H. pose proof (doesd_bit _ _ _ H) as [L B]. apply KB in B; [|exact L]. unfold doesd, does in H. cbn in H. destruct e; cbn [ebit] in *; try lia; subst.
      + destruct H as (_ & _ & y & EY & H). left. rewrite EX in EY. injection EY as <-. eauto.
      + destruct H as (_ & _ & y & EY & H). right. rewrite EX in EY. injection EY as <-. eauto.
    - assert (B : N.testbit sp i = true) by (apply (kind_bit sp i i K); [apply K|reflexivity]). intros [(c & -> & H)|[-> H]]; unfold doesd, does; cbn; (split; [lia|split; [exact B|exists x; auto]]). }
  unfold IOCTLFUNCTION, IOCTLDRIVER, NLMSG in E.
  pose proof (shrink_ok x1 x2) as SO. cbv zeta in SO. destruct (process_xperms (x_perms x1) (x_perms x2)) as [p8 r8]. cbn [fst snd] in SO. cbv beta iota zeta in E.
  set (x1' := mkX (x_spec x1) (x_driver x1) p8) in *.
  assert (SH : x_spec x1 = x_spec x2 -> (x_spec x1 = 1 \/ x_spec x1 = 3 -> x_driver x1 = x_driver x2) -> x_spec x1 = 1 \/ x_spec x1 = 2 \/ x_spec x1 = 3 ->
    (mkD (d_data d1) (Some x1'), r8) = (d1', r) ->
    (doesd sp d1' e -> doesd sp d1 e) /\ (doesd sp d1 e -> (r = false /\ doesd sp d1' e) \/ doesd sp d2 e)).
  { intros S1 S2 S3 Q. specialize (SO S1 S2 S3). injection Q as <- <-. rewrite (Z (mkD (d_data d1) (Some x1')) x1' eq_refl), (Z _ x1 X1), (Z _ x2 X2). split.
    - intros [(c & Ec & H)|[Ec H]]; [left; exists c; split; [exact Ec|apply SO; exact H]|right; auto].
    - destruct r8.
      + intros [(c & Ec & H)|[Ec H]]; right.
        * left. exists c. split; [exact Ec|]. destruct (SO c) as (_ & H2 & H3). destruct (H2 H) as [H4|H4]; [destruct (H3 eq_refl H4)|exact H4].
        * right. split; [exact Ec|]. rewrite <- S1. exact H.
      + intros [(c & Ec & H)|[Ec H]].
        * destruct (SO c) as (_ & H2 & _). destruct (H2 H) as [H4|H4]; [left; split; [reflexivity|]; left; eauto|right; left; eauto].
        * left. split; [reflexivity|]. right. auto. }
  destruct (N.eqb_spec (x_spec x1) 1) as [A1|A1].
  - destruct (N.eqb_spec (x_spec x2) 1) as [A2|A2].
    + destruct (N.eqb_spec (x_driver x1) (x_driver x2)) as [AD|AD]; [|injection E as <- <-; apply same; reflexivity]. apply SH; auto. congruence.
    + destruct (N.eqb_spec (x_spec x2) 2) as [A3|A3]; [|injection E as <- <-; apply same; reflexivity].
      injection E as <- <-. split; [auto|]. rewrite (Z _ x1 X1), (Z _ x2 X2). destruct (xperm_test (x_driver x1) (x_perms x2)) eqn:XT.
      * intros [(c & -> & H)|[-> H]]; right; [left|right; auto]. exists c. split; [reflexivity|]. unfold commands in *. destruct c as [d f|h l]; [|lia].
        destruct H as [F [(H1 & H2 & H3)|(H1 & _)]]; [|lia]. split; [exact F|]. right. split; [exact A3|].
        subst d. apply xtest_bit; tauto.
      * intros H. left. auto.
  - destruct (N.eqb_spec (x_spec x1) 2) as [A2|A2].
    + destruct (N.eqb_spec (x_spec x2) 1) as [A3|A3]; [injection E as <- <-; apply same; reflexivity|].
      destruct (N.eqb_spec (x_spec x2) 2) as [A4|A4]; [|injection E as <- <-; apply same; reflexivity]. apply SH; auto; [congruence|lia].
    + destruct (N.eqb_spec (x_spec x1) 3) as [A3|A3]; [|injection E as <- <-; apply same; reflexivity].
      destruct (N.eqb_spec (x_spec x2) 3) as [A4|A4]; cbn [andb] in E; [|injection E as <- <-; apply same; reflexivity].
      destruct (N.eqb_spec (x_driver x1) (x_driver x2)) as [AD|AD]; [|injection E as <- <-; apply same; reflexivity]. apply SH; auto. congruence.
Qed.

(** ** The type map *)
Lemma vec_loop_ok v ty : StronglySorted N.lt v -> forall fuel s e, (s <= e <= length v)%nat -> (e - s < fuel)%nat ->
  (vec_loop fuel v ty s e = true <-> exists m, (s <= m < e)%nat /\ nth m v 0 = ty).
Proof.
  intros SS. assert (MONO : forall a b, (a < b < length v)%nat -> nth a v 0 < nth b v 0).
  { clear -SS. induction SS as [|x l SS IH F]; cbn [length]; intros a b H; [lia|]. rewrite Forall_forall in F. destruct a as [|a], b as [|b]; try lia; cbn [nth].
    - apply F. apply nth_In. lia.
    - apply IH. lia. }
  induction fuel as [|f IH]; intros s e B F; [lia|]. cbn [vec_loop]. destruct (Nat.eqb_spec s e) as [E|E].
  - split; [discriminate|]. intros (m & H & _). lia.
  - set (mid := ((s + e) / 2)%nat). assert (M : (s <= mid < e)%nat). { unfold mid. split; [apply Nat.div_le_lower_bound; lia|apply Nat.div_lt_upper_bound; lia]. }
    destruct (N.eqb_spec (nth mid v 0) ty) as [E1|E1]; [split; [exists mid; auto|reflexivity]|]. destruct (N.ltb_spec (nth mid v 0) ty) as [L|L].
    + rewrite IH by lia. split; intros (m & H & H1); exists m; (split; [|exact H1]); [lia|]. destruct (Nat.lt_trichotomy m mid) as [X|[X|X]]; [|subst m; lia|lia].
      exfalso. pose proof (MONO m mid ltac:(lia)). lia.
    + rewrite IH by lia. split; intros (m & H & H1); exists m; (split; [|exact H1]); [lia|]. destruct (Nat.lt_trichotomy m mid) as [X|[X|X]]; [lia|subst m; lia|].
      exfalso. pose proof (MONO mid m ltac:(lia)). lia.
Qed.
Lemma vec_contains_ok v ty : StronglySorted N.lt v -> (vec_contains v ty = true <-> In ty v).
Proof.
  intros SS. unfold vec_contains. rewrite (vec_loop_ok v ty SS) by lia. split.
  - intros (m & H & <-). apply nth_In. lia.
  - intros H. apply (In_nth v ty 0) in H as (m & L & E). exists m. split; [lia|exact E].
Qed.
Lemma bits_sorted e : valid e -> StronglySorted N.lt (bits e).
Proof. intros V. destruct (positive_bits_correct e V) as (l & E & S & _). unfold bits. rewrite E. exact S. Qed.
Lemma sorted_filter (f : N -> bool) l : StronglySorted N.lt l -> StronglySorted N.lt (filter f l).
Proof.
  induction 1 as [|x l SS IH F]; cbn [filter]; [constructor|]. destruct (f x); [|exact IH]. constructor; [exact IH|]. rewrite Forall_forall in *. intros y Hy. apply filter_In in Hy as [Hy _]. auto.
Qed.
Lemma sorted_seq n : forall k, StronglySorted N.lt (map N.of_nat (seq k n)).
Proof. induction n as [|n IH]; intros k; cbn [seq map]; constructor; [apply IH|]. rewrite Forall_forall. intros y Hy. apply in_map_iff in Hy as (m & <- & Hm). apply in_seq in Hm. lia. Qed.

Section Opt.
Context (P : opolicy) (OK : opolicy_ok wf P).

Lemma vec_sorted i : StronglySorted N.lt (type_vec P i).
Proof.
  destruct OK as (_ & V & _). unfold type_vec. destruct (nth_error _ _) as [[[|]|]|]; try constructor; [apply sorted_filter, sorted_seq|apply bits_sorted; apply V].
Qed.
Lemma attr_at_iff i : attr_at P i = true <-> attribute P i.
Proof. unfold attr_at, attribute. destruct (nth_error _ _) as [[[|]|]|]; split; congruence. Qed.
(** An element of the vector: a type or attribute with at least the same types. *)
Lemma vec_about i k s : In k (type_vec P i) -> real P s -> member (op_tattr P s) i -> k < 65535 /\ member (op_tattr P s) k.
Proof.
  destruct OK as (NB & V & MA & MB & _). intros H R M. unfold type_vec in H.
  assert (LT : forall x b, nth_error (op_types P) (N.to_nat x) = Some b -> x < 65535).
  { intros x b E. assert (N.to_nat x < length (op_types P))%nat by (apply nth_error_Some; congruence). lia. }
  destruct (nth_error (op_types P) (N.to_nat i)) as [[[|]|]|] eqn:E; try destruct H.
  - apply filter_In in H as [H1 H2]. apply andb_prop in H2 as [H2 H3]. apply attr_at_iff in H2. split; [exact (LT k _ H2)|]. apply MB; [exact R|exact H2|].
    destruct (MA s i R M) as [->|[AI MI]]; [unfold real in R; congruence|]. apply (nget_member _ _ (proj2 (V k))). apply (proj1 (contains_spec _ _ (proj2 (V k)) (proj2 (V i))) H3). apply (nget_member _ _ (proj2 (V i))). exact MI.
  - apply (bits_in _ _ (proj1 (V i))) in H. destruct (MA s i R M) as [->|[AI MI]]; [|unfold attribute in AI; congruence].
    split; [|exact H]. destruct (MA s k R H) as [->|[AK _]]; [exact (LT s _ E)|exact (LT k _ AK)].
Qed.
Lemma vec_of_ok v : exists_at P v -> vec_of P v = Some (type_vec P (v - 1)).
Proof.
  intros [B (b & E)]. unfold vec_of. assert (N.to_nat (v - 1) < length (op_types P))%nat by (apply nth_error_Some; congruence). destruct (N.leb_spec 1 v); [|lia].
  destruct (N.leb_spec v (N.of_nat (length (op_types P)))); [reflexivity|lia].
Qed.

(** ** Covering *)
Definition kinds_ok (l : list anode) : Prop := forall n, In n l -> exists i, kind_is (k_spec (n_key n)) i.
Lemma cover_ok tab not_cond k i ps : wf tab -> kind_is (k_spec k) i -> kinds_ok (avtab_map_list tab) -> forall d d' r, cover_loop tab not_cond k ps d = (d', r) -> forall e,
  (doesd (k_spec k) d' e -> doesd (k_spec k) d e) /\
  (doesd (k_spec k) d e -> (r = false /\ doesd (k_spec k) d' e) \/
     exists n2 st tg, In n2 (avtab_map_list tab) /\ In (st, tg) ps /\ k_src (n_key n2) = (st + 1) mod 65536 /\ k_tgt (n_key n2) = (tg + 1) mod 65536 /\ k_cls (n_key n2) = k_cls k /\
       (not_cond = true -> ~ (k_src k - 1 = st /\ k_tgt k - 1 = tg)) /\ does n2 e).
Proof.
  intros W K KO. induction ps as [|[st tg] ps IH]; intros d d' r E e; cbn [cover_loop] in E.
  - injection E as <- <-. tauto.
  - assert (UP : forall d d' r, cover_loop tab not_cond k ps d = (d', r) -> (doesd (k_spec k) d' e -> doesd (k_spec k) d e) /\
       (doesd (k_spec k) d e -> (r = false /\ doesd (k_spec k) d' e) \/
       exists n2 st0 tg0, In n2 (avtab_map_list tab) /\ In (st0, tg0) ((st, tg) :: ps) /\ k_src (n_key n2) = (st0 + 1) mod 65536 /\ k_tgt (n_key n2) = (tg0 + 1) mod 65536 /\ k_cls (n_key n2) = k_cls k /\
       (not_cond = true -> ~ (k_src k - 1 = st0 /\ k_tgt k - 1 = tg0)) /\ does n2 e)).
    { intros x x' q Q. destruct (IH x x' q Q e) as [I1 I2]. split; [exact I1|]. intros H. destruct (I2 H) as [H1|(n2 & a & b & H1 & H2 & H3)]; [left; exact H1|right]. exists n2, a, b. split; [exact H1|]. split; [right; exact H2|exact H3]. }
    destruct (not_cond && (k_src k - 1 =? st) && (k_tgt k - 1 =? tg)) eqn:SK; [exact (UP d d' r E)|].
    pose proof (search_spec tab (mkK ((st + 1) mod 65536) ((tg + 1) mod 65536) (k_cls k) (k_spec k)) W) as SE. destruct (avtab_search tab _) as [d2|]; [|exact (UP d d' r E)].
    destruct SE as (n2 & I2 & M & ->). unfold entry_matches in M. cbn [k_src k_tgt k_cls k_spec] in M. apply andb_prop in M as [M M4]. apply andb_prop in M as [M M3]. apply andb_prop in M as [M1 M2].
    apply N.eqb_eq in M1, M2, M3. apply negb_true_iff, N.eqb_neq in M4.
    assert (K2 : kind_is (k_spec (n_key n2)) i).
    { destruct (KO n2 I2) as (i2 & K2). destruct (kind_flags _ _ K) as (_ & _ & _ & _ & F1). rewrite F1 in M4. assert (i2 = i); [|subst; exact K2].
      destruct (N.eq_dec i i2) as [->|NE]; [reflexivity|]. exfalso. apply M4. apply N.bits_inj_0. intros b. rewrite N.land_spec, N.pow2_bits_eqb. destruct (N.eqb_spec i b) as [<-|]; [|reflexivity]. cbn [andb].
      destruct (N.testbit (k_spec (n_key n2)) i) eqn:T; [|reflexivity]. apply (kind_bit _ i2 i K2) in T; [|apply K]. congruence. }
    assert (D2 : doesd (k_spec k) (n_datum n2) e -> does n2 e) by (intros H; apply doesd_does; exact (doesd_kind _ _ i _ e K K2 H)).
    destruct (process_datum (k_spec k) d (n_datum n2)) as [d1' r1] eqn:PD. destruct (process_ok _ i _ _ _ _ K PD e) as [P1 P2].
    assert (HIT : doesd (k_spec k) (n_datum n2) e -> exists n2 st0 tg0, In n2 (avtab_map_list tab) /\ In (st0, tg0) ((st, tg) :: ps) /\ k_src (n_key n2) = (st0 + 1) mod 65536 /\ k_tgt (n_key n2) = (tg0 + 1) mod 65536 /\ k_cls (n_key n2) = k_cls k /\
       (not_cond = true -> ~ (k_src k - 1 = st0 /\ k_tgt k - 1 = tg0)) /\ does n2 e).
    { intros H. exists n2, st, tg. split; [exact I2|]. split; [left; reflexivity|]. split; [auto|]. split; [auto|]. split; [auto|]. split; [|exact (D2 H)]. intros -> [X1 X2]. rewrite X1, X2, !N.eqb_refl in SK. discriminate. }
    destruct r1.
    + injection E as <- <-. split; [exact P1|]. intros H. destruct (P2 H) as [[X _]|X]; [discriminate|right; exact (HIT X)].
    + destruct (UP d1' d' r E) as [U1 U2]. split; [intros H; apply P1, U1, H|]. intros H. destruct (P2 H) as [[_ X]|X]; [exact (U2 X)|right; exact (HIT X)].
Qed.

(** What a redundancy check in a table does to a rule. *)
Definition usable (n : anode) : Prop := exists_at P (k_src (n_key n)) /\ exists_at P (k_tgt (n_key n)) /\ exists i, kind_is (k_spec (n_key n)) i.
Definition other (n : anode) : bool := N.land (k_spec (n_key n)) (N.lor 7 1792) =? 0.
Lemma redundant_ok tab not_cond n : wf tab -> kinds_ok (avtab_map_list tab) -> usable n ->
  exists n' r, is_avrule_redundant P tab n not_cond = Some (n', r) /\ n_key n' = n_key n /\ (other n = true -> n' = n /\ r = false) /\ (forall e, does n' e -> does n e) /\
    forall s t c e, real P s -> real P t -> concerns P n s t c -> does n e -> (r = false /\ does n' e) \/
      exists n2, In n2 (avtab_map_list tab) /\ concerns P n2 s t c /\ does n2 e /\ (not_cond = true -> ~ (k_src (n_key n2) = k_src (n_key n) /\ k_tgt (n_key n2) = k_tgt (n_key n))).
Proof.
  intros W KO (X1 & X2 & i & K). unfold is_avrule_redundant. change (N.land (k_spec (n_key n)) (N.lor AVTAB_AV AVTAB_XPERMS) =? 0) with (other n). destruct (other n) eqn:O.
  - exists n, false. split; [reflexivity|]. split; [reflexivity|]. split; [auto|]. split; [auto|]. intros s t c e _ _ _ D. left. auto.
  - rewrite (vec_of_ok _ X1), (vec_of_ok _ X2). destruct (cover_loop _ _ _ _ _) as [d r] eqn:CL. exists (mkNode (n_key n) d), r. split; [reflexivity|]. split; [reflexivity|]. split; [discriminate|].
    pose proof (cover_ok tab not_cond (n_key n) i _ W K KO _ _ _ CL) as CO. split; [intros e H; apply doesd_does in H; apply doesd_does; apply CO; exact H|].
    intros s t c e Rs Rt [[B1 A1] [[B2 A2] A3]] H. apply doesd_does in H. destruct (CO e) as [_ C2]. destruct (C2 H) as [H1|(n2 & st & tg & I2 & IP & E1 & E2 & E3 & NC & D)]; [left; exact H1|right].
    apply in_prod_iff in IP as [V1 V2]. destruct (vec_about _ _ _ V1 Rs A1) as [L1 M1]. destruct (vec_about _ _ _ V2 Rt A2) as [L2 M2]. rewrite N.mod_small in E1, E2 by lia.
    exists n2. split; [exact I2|]. split; [|split; [exact D|]].
    + split; [split; [lia|]|split; [split; [lia|]|congruence]]; [rewrite E1|rewrite E2]; rewrite N.add_sub; assumption.
    + intros NT [F1 F2]. apply (NC NT). split; lia.
Qed.
(** The same within a list. *)
Lemma cond_cover_ok vs vt k i : StronglySorted N.lt vs -> StronglySorted N.lt vt -> kind_is (k_spec k) i -> forall l d d' r, cond_cover vs vt k l d = (d', r) -> forall e,
  (doesd (k_spec k) d' e -> doesd (k_spec k) d e) /\
  (doesd (k_spec k) d e -> (r = false /\ doesd (k_spec k) d' e) \/
     exists a n2, In (a, n2) l /\ k_spec (n_key n2) = k_spec k /\ k_cls (n_key n2) = k_cls k /\ ~ (k_src (n_key n2) = k_src k /\ k_tgt (n_key n2) = k_tgt k) /\
       In (k_src (n_key n2) - 1) vs /\ In (k_tgt (n_key n2) - 1) vt /\ does n2 e).
Proof.
  intros S1 S2 K. induction l as [|[a n2] l IH]; intros d d' r E e; cbn [cond_cover] in E.
  - injection E as <- <-. tauto.
  - assert (UP : forall d d' r, cond_cover vs vt k l d = (d', r) -> (doesd (k_spec k) d' e -> doesd (k_spec k) d e) /\
       (doesd (k_spec k) d e -> (r = false /\ doesd (k_spec k) d' e) \/
       exists a0 n0, In (a0, n0) ((a, n2) :: l) /\ k_spec (n_key n0) = k_spec k /\ k_cls (n_key n0) = k_cls k /\ ~ (k_src (n_key n0) = k_src k /\ k_tgt (n_key n0) = k_tgt k) /\
         In (k_src (n_key n0) - 1) vs /\ In (k_tgt (n_key n0) - 1) vt /\ does n0 e)).
    { intros x x' q Q. destruct (IH x x' q Q e) as [I1 I2]. split; [exact I1|]. intros H. destruct (I2 H) as [H1|(a0 & n0 & H1 & H2)]; [left; exact H1|right]. exists a0, n0. split; [right; exact H1|exact H2]. }
    destruct (negb (k_spec k =? k_spec (n_key n2)) || negb (k_cls k =? k_cls (n_key n2))) eqn:Q1; [exact (UP d d' r E)|].
    destruct ((k_src k =? k_src (n_key n2)) && (k_tgt k =? k_tgt (n_key n2))) eqn:Q2; [exact (UP d d' r E)|].
    destruct (vec_contains vs (k_src (n_key n2) - 1)) eqn:Q3; cbn [negb] in E; [|exact (UP d d' r E)]. apply (vec_contains_ok _ _ S1) in Q3.
    destruct (vec_contains vt (k_tgt (n_key n2) - 1)) eqn:Q4; cbn [negb] in E; [|exact (UP d d' r E)]. apply (vec_contains_ok _ _ S2) in Q4.
    assert (ES : k_spec (n_key n2) = k_spec k) by lia. assert (EC : k_cls (n_key n2) = k_cls k) by lia. assert (EN : ~ (k_src (n_key n2) = k_src k /\ k_tgt (n_key n2) = k_tgt k)) by lia.
    destruct (process_datum (k_spec k) d (n_datum n2)) as [d1' r1] eqn:PD. destruct (process_ok _ i _ _ _ _ K PD e) as [P1 P2].
    assert (HIT : doesd (k_spec k) (n_datum n2) e -> exists a0 n0, In (a0, n0) ((a, n2) :: l) /\ k_spec (n_key n0) = k_spec k /\ k_cls (n_key n0) = k_cls k /\ ~ (k_src (n_key n0) = k_src k /\ k_tgt (n_key n0) = k_tgt k) /\
         In (k_src (n_key n0) - 1) vs /\ In (k_tgt (n_key n0) - 1) vt /\ does n0 e).
    { intros H. exists a, n2. split; [left; reflexivity|]. split; [exact ES|]. split; [exact EC|]. split; [exact EN|]. split; [exact Q3|]. split; [exact Q4|]. apply doesd_does. rewrite ES. exact H. }
    destruct r1.
    + injection E as <- <-. split; [exact P1|]. intros H. destruct (P2 H) as [[X _]|X]; [discriminate|right; exact (HIT X)].
    + destruct (UP d1' d' r E) as [U1 U2]. split; [intros H; apply P1, U1, H|]. intros H. destruct (P2 H) as [[_ X]|X]; [exact (U2 X)|right; exact (HIT X)].
Qed.
Lemma cond_redundant_ok n l : usable n -> (forall a n2, In (a, n2) l -> 1 <= k_src (n_key n2) /\ 1 <= k_tgt (n_key n2)) ->
  exists n' r, is_cond_rule_redundant P n l = Some (n', r) /\ n_key n' = n_key n /\ (other n = true -> n' = n /\ r = false) /\ (forall e, does n' e -> does n e) /\
    forall s t c e, real P s -> real P t -> concerns P n s t c -> does n e -> (r = false /\ does n' e) \/
      exists a n2, In (a, n2) l /\ concerns P n2 s t c /\ does n2 e /\ k_spec (n_key n2) = k_spec (n_key n) /\ ~ (k_src (n_key n2) = k_src (n_key n) /\ k_tgt (n_key n2) = k_tgt (n_key n)).
Proof.
  intros (X1 & X2 & i & K) POS. unfold is_cond_rule_redundant. change (N.land (k_spec (n_key n)) (N.lor AVTAB_AV AVTAB_XPERMS) =? 0) with (other n). destruct (other n) eqn:O.
  - exists n, false. split; [reflexivity|]. split; [reflexivity|]. split; [auto|]. split; [auto|]. intros s t c e _ _ _ D. left. auto.
  - rewrite (vec_of_ok _ X1), (vec_of_ok _ X2). destruct (cond_cover _ _ _ _ _) as [d r] eqn:CL. exists (mkNode (n_key n) d), r. split; [reflexivity|]. split; [reflexivity|]. split; [discriminate|].
    pose proof (cond_cover_ok _ _ (n_key n) i (vec_sorted _) (vec_sorted _) K _ _ _ _ CL) as CO. split; [intros e H; apply doesd_does in H; apply doesd_does; apply CO; exact H|].
    intros s t c e Rs Rt [[B1 A1] [[B2 A2] A3]] H. apply doesd_does in H. destruct (CO e) as [_ C2]. destruct (C2 H) as [H1|(a & n2 & I2 & ES & EC & EN & V1 & V2 & D)]; [left; exact H1|right].
    destruct (vec_about _ _ _ V1 Rs A1) as [_ M1]. destruct (vec_about _ _ _ V2 Rt A2) as [_ M2]. destruct (POS a n2 I2) as [G1 G2].
    exists a, n2. split; [exact I2|]. split; [|auto]. split; [split; assumption|split; [split; assumption|congruence]].
Qed.

(** ** The unconditional table *)
Definition same_rules (L L' : list anode) : Prop :=
  (forall s t c e, real P s -> real P t -> (effective P L' s t c e <-> effective P L s t c e)) /\ filter other L' = filter other L /\
  (forall n', In n' L' -> exists n, In n L /\ n_key n' = n_key n).
Lemma same_refl L : same_rules L L.
Proof. split; [tauto|]. split; [reflexivity|]. intros n H. exists n. auto. Qed.
Lemma same_trans L1 L2 L3 : same_rules L1 L2 -> same_rules L2 L3 -> same_rules L1 L3.
Proof.
  intros (A1 & A2 & A3) (B1 & B2 & B3). split; [intros s t c e Rs Rt; rewrite (B1 s t c e Rs Rt); apply A1; assumption|]. split; [congruence|].
  intros n H. destruct (B3 n H) as (m & Hm & E). destruct (A3 m Hm) as (q & Hq & E'). exists q. split; [exact Hq|congruence].
Qed.
Lemma sorted_del l1 x l2 : StronglySorted le3 (l1 ++ x :: l2) -> StronglySorted le3 (l1 ++ l2).
Proof.
  induction l1 as [|a l1 IH]; cbn [app]; intros H; apply StronglySorted_inv in H as [H1 H2]; [exact H1|]. constructor; [exact (IH H1)|]. rewrite Forall_forall in *. intros y Hy. apply H2. apply in_app_or in Hy as [Hy|Hy]; apply in_or_app; [left|right; right]; exact Hy.
Qed.
Lemma sorted_upd l1 x x' l2 : n_key x' = n_key x -> StronglySorted le3 (l1 ++ x :: l2) -> StronglySorted le3 (l1 ++ x' :: l2).
Proof.
  intros E. induction l1 as [|a l1 IH]; cbn [app]; intros H; apply StronglySorted_inv in H as [H1 H2]; constructor.
  - exact H1.
  - rewrite Forall_forall in *. intros y Hy. unfold le3. rewrite E. exact (H2 y Hy).
  - exact (IH H1).
  - rewrite Forall_forall in *. intros y Hy. apply in_app_or in Hy as [Hy|[<-|Hy]].
    + apply H2. apply in_or_app. left. exact Hy.
    + unfold le3. rewrite E. apply H2. apply in_or_app. right. left. reflexivity.
    + apply H2. apply in_or_app. right. right. exact Hy.
Qed.
Lemma chain_del m i l1 x l2 : wf_chain m i (l1 ++ x :: l2) -> wf_chain m i (l1 ++ l2).
Proof. intros [S F]. split; [exact (sorted_del l1 x l2 S)|]. apply Forall_app in F as [F1 F2]. apply Forall_app. split; [exact F1|exact (Forall_inv_tail F2)]. Qed.
Lemma chain_upd m i l1 x x' l2 : n_key x' = n_key x -> wf_chain m i (l1 ++ x :: l2) -> wf_chain m i (l1 ++ x' :: l2).
Proof. intros E [S F]. split; [exact (sorted_upd l1 x x' l2 E S)|]. apply Forall_app in F as [F1 F2]. apply Forall_app. split; [exact F1|]. constructor; [rewrite E; exact (Forall_inv F2)|exact (Forall_inv_tail F2)]. Qed.
Lemma set_nth_at {A} (l : list A) : forall i, (i < length l)%nat -> exists l1 x l2, l = l1 ++ x :: l2 /\ length l1 = i /\ forall v, set_nth i v l = l1 ++ v :: l2.
Proof.
  induction l as [|a l IH]; cbn [length]; intros i H; [lia|]. destruct i as [|i].
  - exists [], a, l. auto.
  - destruct (IH i ltac:(lia)) as (l1 & x & l2 & E & L & F). exists (a :: l1), x, l2. cbn [app length set_nth]. split; [congruence|]. split; [congruence|]. intros v. rewrite F. reflexivity.
Qed.

(** One step of the walk, in a list of all rules. *)
Lemma same_step (A B : list anode) n n' : n_key n' = n_key n -> (other n = true -> n' = n) -> (forall e, does n' e -> does n e) ->
  (forall s t c e, real P s -> real P t -> concerns P n s t c -> does n e -> does n' e \/ effective P (A ++ B) s t c e) -> same_rules (A ++ n :: B) (A ++ n' :: B).
Proof.
  intros EK EO DN CV. split; [|split].
  - intros s t c e Rs Rt. split.
    + intros (m & Hm & C & D). apply in_app_or in Hm as [Hm|[<-|Hm]]; [exists m|exists n|exists m]; (split; [apply in_or_app; cbn [In]; auto|]); auto.
      split; [unfold concerns in *; rewrite EK in C; exact C|exact (DN e D)].
    + intros (m & Hm & C & D). apply in_app_or in Hm as [Hm|[->|Hm]]; [exists m; split; [apply in_or_app; auto|auto]| |exists m; split; [apply in_or_app; cbn [In]; auto|auto]].
      destruct (CV s t c e Rs Rt C D) as [X|(q & Hq & C' & D')]; [exists n'; split; [apply in_or_app; cbn [In]; auto|]; split; [unfold concerns in *; rewrite EK; exact C|exact X]|].
      exists q. split; [|auto]. apply in_app_or in Hq as [Hq|Hq]; apply in_or_app; cbn [In]; auto.
  - rewrite !filter_app. f_equal. cbn [filter]. assert (O : other n' = other n) by (unfold other; rewrite EK; reflexivity). rewrite O. destruct (other n) eqn:Q; [rewrite (EO eq_refl)|]; reflexivity.
  - intros m Hm. apply in_app_or in Hm as [Hm|[<-|Hm]]; [exists m|exists n|exists m]; (split; [apply in_or_app; cbn [In]; auto|]); congruence.
Qed.
Lemma same_drop (A B : list anode) n : other n = false ->
  (forall s t c e, real P s -> real P t -> concerns P n s t c -> does n e -> effective P (A ++ B) s t c e) -> same_rules (A ++ n :: B) (A ++ B).
Proof.
  intros O CV. split; [|split].
  - intros s t c e Rs Rt. split.
    + intros (m & Hm & C & D). exists m. split; [|auto]. apply in_app_or in Hm as [Hm|Hm]; apply in_or_app; cbn [In]; auto.
    + intros (m & Hm & C & D). apply in_app_or in Hm as [Hm|[->|Hm]]; [exists m; split; [apply in_or_app; auto|auto]|exact (CV s t c e Rs Rt C D)|exists m; split; [apply in_or_app; auto|auto]].
  - rewrite !filter_app. f_equal. cbn [filter]. rewrite O. reflexivity.
  - intros m Hm. exists m. split; [|reflexivity]. apply in_app_or in Hm as [Hm|Hm]; apply in_or_app; cbn [In]; auto.
Qed.

Definition all_usable (L : list anode) : Prop := forall n, In n L -> usable n.
Lemma usable_key n n' : n_key n' = n_key n -> usable n -> usable n'.
Proof. unfold usable. intros ->. auto. Qed.
Lemma usable_kinds L : all_usable L -> kinds_ok L.
Proof. intros U n H. destruct (U n H) as (_ & _ & K). exact K. Qed.
Lemma usable_same L L' : same_rules L L' -> all_usable L -> all_usable L'.
Proof. intros (_ & _ & S3) U n' H. destruct (S3 n' H) as (n & Hn & E). exact (usable_key n n' E (U n Hn)). Qed.
Lemma wf_set t ht i c nel : wf t -> a_htable t = Some ht -> (i < length ht)%nat -> wf_chain (a_mask t) i c -> wf (set_chain t i c nel).
Proof.
  unfold wf, set_chain. intros W E L WC. rewrite E in *. cbn [a_htable a_mask]. destruct W as [W1 W2]. split; [rewrite set_nth_length; exact W1|]. intros j c' H.
  pose proof (set_nth_nth ht i c j L) as X. destruct (Nat.eq_dec j i) as [->|NE].
  - destruct (set_nth_at ht i L) as (l1 & x & l2 & E1 & L1 & F). rewrite (F c) in H. rewrite nth_error_app2 in H by lia. rewrite L1, Nat.sub_diag in H. injection H as <-. exact WC.
  - apply W2. destruct (set_nth_at ht i L) as (l1 & x & l2 & E1 & L1 & F). rewrite (F c) in H. rewrite E1. destruct (Nat.lt_ge_cases j (length l1)).
    + rewrite nth_error_app1 in * by lia. exact H.
    + rewrite nth_error_app2 in * by lia. destruct (j - length l1)%nat eqn:Q; [lia|]. exact H.
Qed.

Lemma opt_chain_ok t ht i L1 L2 : wf t -> a_htable t = Some ht -> (i < length ht)%nat -> (forall c nel, avtab_map_list (set_chain t i c nel) = L1 ++ c ++ L2) ->
  forall todo done nel, wf_chain (a_mask t) i (done ++ todo) -> all_usable (L1 ++ (done ++ todo) ++ L2) ->
  exists c nel', opt_chain P t i nel done todo = Some (set_chain t i c nel') /\ wf_chain (a_mask t) i c /\ same_rules (L1 ++ (done ++ todo) ++ L2) (L1 ++ c ++ L2) /\
    (N.of_nat (length (done ++ todo)) <= nel < 4294967296 -> nel' + N.of_nat (length (done ++ todo)) = nel + N.of_nat (length c) /\ nel' < 4294967296).
Proof.
  intros W EH LI ML. induction todo as [|e rest IH]; intros done nel WC U; cbn [opt_chain].
  - rewrite app_nil_r in *. exists done, nel. split; [reflexivity|]. split; [exact WC|]. split; [apply same_refl|lia].
  - set (T := set_chain t i (done ++ e :: rest) nel). assert (WT : wf T) by exact (wf_set t ht i _ nel W EH LI WC).
    assert (MT : avtab_map_list T = L1 ++ (done ++ e :: rest) ++ L2) by apply ML.
    assert (RE : forall x, L1 ++ (done ++ x :: rest) ++ L2 = (L1 ++ done) ++ x :: (rest ++ L2)) by (intros x; rewrite !app_assoc; cbn [app]; rewrite <- !app_assoc; reflexivity).
    assert (RD : L1 ++ (done ++ rest) ++ L2 = (L1 ++ done) ++ (rest ++ L2)) by (rewrite !app_assoc; reflexivity).
    destruct (redundant_ok T true e WT) as (e' & r & -> & EK & EO & DN & CV).
    { rewrite MT. apply usable_kinds. exact U. }
    { apply U. rewrite RE. apply in_or_app. right. left. reflexivity. }
    assert (CV' : forall s t0 c e0, real P s -> real P t0 -> concerns P e s t0 c -> does e e0 -> (r = false /\ does e' e0) \/ effective P ((L1 ++ done) ++ (rest ++ L2)) s t0 c e0).
    { intros s t0 c e0 Rs Rt C D. destruct (CV s t0 c e0 Rs Rt C D) as [X|(n2 & I2 & C2 & D2 & NE)]; [left; exact X|right]. exists n2. split; [|auto]. rewrite MT, RE in I2.
      apply in_app_or in I2 as [I2|[<-|I2]]; [apply in_or_app; auto|destruct (NE eq_refl); auto|apply in_or_app; auto]. }
    destruct r.
    + assert (S : same_rules (L1 ++ (done ++ e :: rest) ++ L2) (L1 ++ (done ++ rest) ++ L2)).
      { rewrite RE, RD. apply same_drop.
        - destruct (other e) eqn:O; [|reflexivity]. destruct (EO eq_refl). discriminate.
        - intros s t0 c e0 Rs Rt C D. destruct (CV' s t0 c e0 Rs Rt C D) as [[X _]|X]; [discriminate|exact X]. }
      destruct (IH done (wrap32 (nel + 4294967295)) (chain_del _ _ _ _ _ WC) (usable_same _ _ S U)) as (c & nel' & E1 & W1 & S1 & N1).
      exists c, nel'. split; [exact E1|]. split; [exact W1|]. split; [exact (same_trans _ _ _ S S1)|]. intros B. rewrite app_length in *. cbn [length] in B |- *.
      assert (EW : wrap32 (nel + 4294967295) = nel - 1). { unfold wrap32, W32. replace (nel + 4294967295) with (nel - 1 + 1 * 4294967296) by lia. rewrite N.mod_add by lia. apply N.mod_small. lia. }
      rewrite EW in N1. destruct N1; lia.
    + assert (S : same_rules (L1 ++ (done ++ e :: rest) ++ L2) (L1 ++ ((done ++ [e']) ++ rest) ++ L2)).
      { replace ((done ++ [e']) ++ rest) with (done ++ e' :: rest) by (rewrite <- app_assoc; reflexivity). rewrite !RE. apply same_step; [exact EK|intros O; apply EO; exact O|exact DN|]. intros s t0 c e0 Rs Rt C D. destruct (CV' s t0 c e0 Rs Rt C D) as [[_ X]|X]; auto. }
      assert (WC' : wf_chain (a_mask t) i ((done ++ [e']) ++ rest)) by (rewrite <- app_assoc; exact (chain_upd _ _ _ _ _ _ EK WC)).
      destruct (IH (done ++ [e']) nel WC' (usable_same _ _ S U)) as (c & nel' & E1 & W1 & S1 & N1).
      exists c, nel'. split; [exact E1|]. split; [exact W1|]. split; [exact (same_trans _ _ _ S S1)|]. intros B. rewrite <- app_assoc in N1. cbn [app] in N1. rewrite !app_length in *. cbn [length] in *. lia.
Qed.

Lemma concat_len l1 (c : list anode) l2 : length (concat (l1 ++ c :: l2)) = (length (concat l1) + (length c + length (concat l2)))%nat.
Proof. rewrite concat_app. cbn [concat]. rewrite !app_length. reflexivity. Qed.
Lemma opt_chains_ok : forall is t ht, wf t -> a_htable t = Some ht -> all_usable (avtab_map_list t) -> Forall (fun i => (i < length ht)%nat) is ->
  exists t', opt_chains P t is = Some t' /\ wf t' /\ same_rules (avtab_map_list t) (avtab_map_list t') /\ a_nslot t' = a_nslot t /\ a_mask t' = a_mask t /\
    (a_nel t = N.of_nat (length (avtab_map_list t)) -> a_nel t < 4294967296 -> a_nel t' = N.of_nat (length (avtab_map_list t'))).
Proof.
  induction is as [|i is IH]; intros t ht W EH U F; cbn [opt_chains].
  - exists t. split; [reflexivity|]. split; [exact W|]. split; [apply same_refl|auto].
  - rewrite EH. pose proof (Forall_inv F) as LI. destruct (set_nth_at ht i LI) as (l1 & x & l2 & E1 & LL & SN).
    assert (NX : nth i ht [] = x). { rewrite E1, app_nth2 by lia. rewrite LL, Nat.sub_diag. reflexivity. }
    assert (ML : forall c nel, avtab_map_list (set_chain t i c nel) = concat l1 ++ c ++ concat l2). { intros c nel. unfold set_chain, avtab_map_list. cbn [a_htable]. rewrite EH, SN, concat_app. reflexivity. }
    assert (M0 : avtab_map_list t = concat l1 ++ ([] ++ x) ++ concat l2) by (unfold avtab_map_list; rewrite EH, E1, concat_app; reflexivity).
    assert (WX : wf_chain (a_mask t) i x). { unfold wf in W. rewrite EH in W. destruct W as [_ W]. apply W. rewrite E1, nth_error_app2 by lia. rewrite LL, Nat.sub_diag. reflexivity. }
    rewrite M0 in U. rewrite NX. destruct (opt_chain_ok t ht i _ _ W EH LI ML x [] (a_nel t) WX U) as (c & nel' & -> & WC & S & NE).
    assert (EH' : a_htable (set_chain t i c nel') = Some (set_nth i c ht)) by (unfold set_chain; cbn [a_htable]; rewrite EH; reflexivity).
    destruct (IH (set_chain t i c nel') (set_nth i c ht) (wf_set t ht i c nel' W EH LI WC) EH') as (t' & E2 & W2 & S2 & NS & MK & NE2).
    + rewrite ML. exact (usable_same _ _ S U).
    + rewrite set_nth_length. exact (Forall_inv_tail F).
    + exists t'. split; [exact E2|]. split; [exact W2|]. rewrite ML in S2. split; [rewrite M0; exact (same_trans _ _ _ S S2)|]. split; [exact NS|]. split; [exact MK|].
      intros B1 B2. rewrite M0 in B1. cbn [app] in B1, NE. rewrite !app_length in B1. destruct NE as [NE NL]; [lia|]. apply NE2; [|exact NL]. rewrite ML. cbn [set_chain a_nel]. rewrite !app_length. lia.
Qed.
Lemma optimize_avtab_ok : exists te', optimize_avtab P = Some te' /\ wf te' /\ same_rules (avtab_map_list (op_te P)) (avtab_map_list te') /\ a_nslot te' = a_nslot (op_te P) /\ a_mask te' = a_mask (op_te P) /\
    (a_nel (op_te P) = N.of_nat (length (avtab_map_list (op_te P))) -> a_nel (op_te P) < 4294967296 -> a_nel te' = N.of_nat (length (avtab_map_list te'))).
Proof.
  destruct OK as (_ & _ & _ & _ & W & U & _). unfold optimize_avtab. destruct (a_htable (op_te P)) as [ht|] eqn:EH.
  - apply (opt_chains_ok _ _ ht W EH).
    + intros n H. destruct (U n H) as (U1 & U2 & i & B & E). split; [exact U1|]. split; [exact U2|]. exists i. split; auto.
    + rewrite Forall_forall. intros i H. apply in_seq in H. lia.
  - cbn [seq opt_chains]. exists (op_te P). split; [reflexivity|]. split; [exact W|]. split; [apply same_refl|auto].
Qed.

(** ** The conditional lists *)
Definition cusable (l : list cnode) : Prop := forall x, In x l -> usable (snd x).
(** List [l] became [l'] and the nodes [d] were dropped, with the rules [T] in force. *)
Definition crel (T : list anode) (l l' : list cnode) (d : list N) : Prop :=
  (forall x', In x' l' -> exists x, In x l /\ fst x' = fst x /\ n_key (snd x') = n_key (snd x) /\ forall e, does (snd x') e -> does (snd x) e) /\
  (forall x s t c e, In x l -> real P s -> real P t -> concerns P (snd x) s t c -> does (snd x) e -> effective P T s t c e \/
     exists x', In x' l' /\ concerns P (snd x') s t c /\ does (snd x') e /\ k_spec (n_key (snd x')) = k_spec (n_key (snd x))) /\
  Permutation (filter other (map snd l')) (filter other (map snd l)) /\
  Permutation (map fst l) (map fst l' ++ d).
Lemma crel_refl T l : crel T l l [].
Proof. split; [intros x H; exists x; auto|]. split; [intros x s t c e H _ _ C D; right; exists x; auto|]. split; [reflexivity|]. rewrite app_nil_r. reflexivity. Qed.
Lemma crel_trans T l1 l2 l3 d1 d2 : crel T l1 l2 d1 -> crel T l2 l3 d2 -> crel T l1 l3 (d2 ++ d1).
Proof.
  intros (A1 & A2 & A3 & A4) (B1 & B2 & B3 & B4). split; [|split; [|split]].
  - intros z Hz. destruct (B1 z Hz) as (y & Hy & E1 & E2 & E3). destruct (A1 y Hy) as (x & Hx & F1 & F2 & F3). exists x. split; [exact Hx|]. split; [congruence|]. split; [congruence|auto].
  - intros x s t c e Hx Rs Rt C D. destruct (A2 x s t c e Hx Rs Rt C D) as [H|(y & Hy & C' & D' & E)]; [left; exact H|]. destruct (B2 y s t c e Hy Rs Rt C' D') as [H|(z & Hz & C2 & D2 & E2)]; [left; exact H|right].
    exists z. split; [exact Hz|]. split; [exact C2|]. split; [exact D2|congruence].
  - rewrite B3. exact A3.
  - rewrite A4, B4, app_assoc. reflexivity.
Qed.
Lemma filter_perm {A} (f : A -> bool) l l' : Permutation l l' -> Permutation (filter f l) (filter f l').
Proof.
  induction 1 as [|x l l' H IH|x y l|l l' l2 H1 IH1 H2 IH2]; cbn [filter].
  - constructor.
  - destruct (f x); [constructor|]; exact IH.
  - destruct (f y), (f x); try reflexivity. apply perm_swap.
  - exact (Permutation_trans IH1 IH2).
Qed.
Lemma crel_perm T l l2 l' d : Permutation l l2 -> crel T l l' d -> crel T l2 l' d.
Proof.
  intros PM (A1 & A2 & A3 & A4). split; [|split; [|split]].
  - intros x' H. destruct (A1 x' H) as (x & Hx & R). exists x. split; [exact (Permutation_in _ PM Hx)|exact R].
  - intros x s t c e Hx. apply A2. exact (Permutation_in _ (Permutation_sym PM) Hx).
  - rewrite A3. apply filter_perm, Permutation_map. exact PM.
  - rewrite <- A4. apply Permutation_map. symmetry. exact PM.
Qed.
Lemma crel_app T l1 l1' d1 l2 l2' d2 : crel T l1 l1' d1 -> crel T l2 l2' d2 -> crel T (l1 ++ l2) (l1' ++ l2') (d2 ++ d1).
Proof.
  intros (A1 & A2 & A3 & A4) (B1 & B2 & B3 & B4). split; [|split; [|split]].
  - intros x' H. apply in_app_or in H as [H|H]; [destruct (A1 x' H) as (x & Hx & R)|destruct (B1 x' H) as (x & Hx & R)]; exists x; (split; [apply in_or_app; auto|exact R]).
  - intros x s t c e Hx Rs Rt C D. apply in_app_or in Hx as [H|H]; [destruct (A2 x s t c e H Rs Rt C D) as [X|(y & Hy & R)]|destruct (B2 x s t c e H Rs Rt C D) as [X|(y & Hy & R)]]; try (left; exact X); right; exists y; (split; [apply in_or_app; auto|exact R]).
  - rewrite !map_app, !filter_app. apply Permutation_app; assumption.
  - rewrite !map_app, A4, B4. rewrite <- !app_assoc. apply Permutation_app_head. rewrite !app_assoc. rewrite (Permutation_app_comm (d1 ++ map fst l2') d2), (Permutation_app_comm d1). rewrite <- !app_assoc.
    rewrite (Permutation_app_comm d2 (map fst l2' ++ d1)), <- app_assoc. apply Permutation_app_head, Permutation_app_comm.
Qed.
Lemma crel_usable T l l' d : crel T l l' d -> cusable l -> cusable l'.
Proof. intros (A1 & _) U x' H. destruct (A1 x' H) as (x & Hx & _ & E & _). exact (usable_key _ _ E (U x Hx)). Qed.

Lemma crel_drop T A B x : other (snd x) = false ->
  (forall s t c e, real P s -> real P t -> concerns P (snd x) s t c -> does (snd x) e -> effective P T s t c e \/
     exists x', In x' (A ++ B) /\ concerns P (snd x') s t c /\ does (snd x') e /\ k_spec (n_key (snd x')) = k_spec (n_key (snd x))) -> crel T (A ++ x :: B) (A ++ B) [fst x].
Proof.
  intros O CV. split; [|split; [|split]].
  - intros y H. exists y. split; [|auto]. apply in_app_or in H as [H|H]; apply in_or_app; cbn [In]; auto.
  - intros y s t c e H Rs Rt C D. apply in_app_or in H as [H|[<-|H]]; [right; exists y; split; [apply in_or_app; auto|auto]|auto|right; exists y; split; [apply in_or_app; auto|auto]].
  - rewrite !map_app, !filter_app. cbn [map filter]. rewrite O. reflexivity.
  - rewrite !map_app. cbn [map]. rewrite <- app_assoc. apply Permutation_app_head. apply Permutation_cons_append.
Qed.
Lemma crel_upd T A B x x' : fst x' = fst x -> n_key (snd x') = n_key (snd x) -> (other (snd x) = true -> snd x' = snd x) -> (forall e, does (snd x') e -> does (snd x) e) ->
  (forall s t c e, real P s -> real P t -> concerns P (snd x) s t c -> does (snd x) e -> does (snd x') e \/ effective P T s t c e \/
     exists y, In y (A ++ B) /\ concerns P (snd y) s t c /\ does (snd y) e /\ k_spec (n_key (snd y)) = k_spec (n_key (snd x))) -> crel T (A ++ x :: B) (A ++ x' :: B) [].
Proof.
  intros E1 E2 EO DN CV. split; [|split; [|split]].
  - intros y H. apply in_app_or in H as [H|[<-|H]]; [exists y|exists x|exists y]; (split; [apply in_or_app; cbn [In]; auto|]); auto.
  - intros y s t c e H Rs Rt C D. apply in_app_or in H as [H|[<-|H]]; [right; exists y; split; [apply in_or_app; cbn [In]; auto|auto]| |right; exists y; split; [apply in_or_app; cbn [In]; auto|auto]].
    destruct (CV s t c e Rs Rt C D) as [X|[X|(y & Hy & R)]]; [right; exists x'|left; exact X|right; exists y].
    + split; [apply in_or_app; cbn [In]; auto|]. split; [unfold concerns in *; rewrite E2; exact C|]. split; [exact X|congruence].
    + split; [|exact R]. apply in_app_or in Hy as [H|H]; apply in_or_app; cbn [In]; auto.
  - rewrite !map_app, !filter_app. cbn [map filter]. replace (other (snd x')) with (other (snd x)) by (unfold other; rewrite E2; reflexivity). destruct (other (snd x)) eqn:O; [rewrite (EO eq_refl)|]; reflexivity.
  - rewrite !map_app. cbn [map]. rewrite E1, app_nil_r. reflexivity.
Qed.

Section List.
Context (te : avtab) (WT : wf te) (KT : kinds_ok (avtab_map_list te)).
Let T := avtab_map_list te.
Lemma cond_step x cov : usable (snd x) -> (forall n1, n_key n1 = n_key (snd x) -> cusable (cov n1)) ->
  exists x' r, cond_redundant P te x cov = Some (x', r) /\ fst x' = fst x /\ n_key (snd x') = n_key (snd x) /\ (other (snd x) = true -> snd x' = snd x /\ r = false) /\ (forall e, does (snd x') e -> does (snd x) e) /\
    forall s t c e, real P s -> real P t -> concerns P (snd x) s t c -> does (snd x) e -> (r = false /\ does (snd x') e) \/ effective P T s t c e \/
      exists n1 y, n_key n1 = n_key (snd x) /\ In y (cov n1) /\ concerns P (snd y) s t c /\ does (snd y) e /\ k_spec (n_key (snd y)) = k_spec (n_key (snd x)) /\
        ~ (k_src (n_key (snd y)) = k_src (n_key (snd x)) /\ k_tgt (n_key (snd y)) = k_tgt (n_key (snd x))).
Proof.
  intros U UC. unfold cond_redundant. destruct (redundant_ok te false (snd x) WT KT U) as (n1 & r1 & -> & EK & EO & DN & CV). destruct r1.
  - exists (fst x, n1), true. split; [reflexivity|]. split; [reflexivity|]. split; [exact EK|]. split; [intros O; destruct (EO O); discriminate|]. split; [exact DN|].
    intros s t c e Rs Rt C D. destruct (CV s t c e Rs Rt C D) as [[X _]|(n2 & I2 & C2 & D2 & _)]; [discriminate|]. right. left. exists n2. auto.
  - destruct (cond_redundant_ok n1 (cov n1)) as (n2 & r2 & -> & EK2 & EO2 & DN2 & CV2).
    { exact (usable_key _ _ EK U). }
    { intros a m H. destruct (UC n1 EK _ H) as ([L1 _] & [L2 _] & _). auto. }
    exists (fst x, n2), r2. split; [reflexivity|]. split; [reflexivity|]. cbn [snd]. split; [congruence|]. split.
    { intros O. destruct (EO O) as [-> _]. apply EO2. exact O. }
    split; [auto|]. intros s t c e Rs Rt C D. destruct (CV s t c e Rs Rt C D) as [[_ X]|(m & I2 & C2 & D2 & _)]; [|right; left; exists m; auto].
    assert (C1 : concerns P n1 s t c) by (unfold concerns in *; rewrite EK; exact C). destruct (CV2 s t c e Rs Rt C1 X) as [Y|(a & m & I2 & C2 & D2 & ES & NE)]; [left; exact Y|right; right].
    exists n1, (a, m). rewrite EK in ES, NE. auto 10.
Qed.

Lemma walk_plain_ok pcov : forall todo done del, cusable ((done ++ todo) ++ pcov) ->
  exists l d, walk_plain P te pcov done todo del = Some (l, d ++ del) /\ crel T ((done ++ todo) ++ pcov) (l ++ pcov) d.
Proof.
  induction todo as [|x rest IH]; intros done del U; cbn [walk_plain].
  - rewrite app_nil_r in *. exists done, []. split; [reflexivity|apply crel_refl].
  - assert (RE : forall y, (done ++ y :: rest) ++ pcov = done ++ y :: (rest ++ pcov)) by (intros y; rewrite <- app_assoc; reflexivity).
    rewrite RE in U |- *. assert (RD : (done ++ rest) ++ pcov = done ++ (rest ++ pcov)) by (rewrite <- app_assoc; reflexivity).
    destruct (cond_step x (fun _ => pcov)) as (x' & r & -> & E1 & E2 & EO & DN & CV).
    { apply U. apply in_or_app. right. left. reflexivity. }
    { intros _ _ y Hy. apply U. apply in_or_app. right. right. apply in_or_app. right. exact Hy. }
    destruct r.
    + assert (C : crel T (done ++ x :: (rest ++ pcov)) (done ++ (rest ++ pcov)) [fst x]).
      { apply crel_drop; [destruct (other (snd x)); [destruct (EO eq_refl); discriminate|reflexivity]|]. intros s t c e Rs Rt C D. destruct (CV s t c e Rs Rt C D) as [[X _]|[X|(n1 & y & _ & Hy & R)]]; [discriminate|left; exact X|right].
        exists y. split; [apply in_or_app; right; apply in_or_app; right; exact Hy|]. tauto. }
      destruct (IH done (fst x :: del)) as (l & d & -> & C2); [rewrite RD; exact (crel_usable _ _ _ _ C U)|]. rewrite RD in C2.
      exists l, (d ++ [fst x]). split; [rewrite <- app_assoc; reflexivity|]. exact (crel_trans _ _ _ _ _ _ C C2).
    + assert (C : crel T (done ++ x :: (rest ++ pcov)) (done ++ x' :: (rest ++ pcov)) []).
      { apply crel_upd; [exact E1|exact E2|intros O; apply EO; exact O|exact DN|]. intros s t c e Rs Rt C D. destruct (CV s t c e Rs Rt C D) as [[_ X]|[X|(n1 & y & _ & Hy & R)]]; [left; exact X|right; left; exact X|right; right].
        exists y. split; [apply in_or_app; right; apply in_or_app; right; exact Hy|]. tauto. }
      replace (done ++ x' :: (rest ++ pcov)) with (((done ++ [x']) ++ rest) ++ pcov) in C by (rewrite <- !app_assoc; reflexivity).
      destruct (IH (done ++ [x']) del) as (l & d & -> & C2); [apply (crel_usable _ _ _ _ C); exact U|].
      exists l, d. split; [reflexivity|]. rewrite <- (app_nil_r d). exact (crel_trans _ _ _ _ _ _ C C2).
Qed.
Lemma walk_pcov_ok : forall todo done del, cusable (done ++ todo) ->
  exists l d, walk_pcov P te done todo del = Some (l, d ++ del) /\ crel T (done ++ todo) l d.
Proof.
  induction todo as [|x rest IH]; intros done del U; cbn [walk_pcov].
  - rewrite app_nil_r in *. exists done, []. split; [reflexivity|apply crel_refl].
  - destruct (cond_step x (fun e1 => done ++ (fst x, e1) :: rest)) as (x' & r & -> & E1 & E2 & EO & DN & CV).
    { apply U. apply in_or_app. right. left. reflexivity. }
    { intros n1 EK y Hy. apply in_app_or in Hy as [Hy|[<-|Hy]]; [apply U, in_or_app; auto| |apply U, in_or_app; cbn [In]; auto]. cbn [snd]. apply (usable_key _ _ EK). apply U, in_or_app. cbn [In]. auto. }
    assert (CV' : forall s t c e, real P s -> real P t -> concerns P (snd x) s t c -> does (snd x) e -> (r = false /\ does (snd x') e) \/ effective P T s t c e \/
      exists y, In y (done ++ rest) /\ concerns P (snd y) s t c /\ does (snd y) e /\ k_spec (n_key (snd y)) = k_spec (n_key (snd x))).
    { intros s t c e Rs Rt C D. destruct (CV s t c e Rs Rt C D) as [X|[X|(n1 & y & EK & Hy & C2 & D2 & ES & NE)]]; [left; exact X|right; left; exact X|right; right].
      exists y. split; [|auto]. apply in_app_or in Hy as [Hy|[<-|Hy]]; [apply in_or_app; auto| |apply in_or_app; auto]. exfalso. apply NE. cbn [snd]. rewrite EK. auto. }
    destruct r.
    + assert (C : crel T (done ++ x :: rest) (done ++ rest) [fst x]).
      { apply crel_drop; [destruct (other (snd x)); [destruct (EO eq_refl); discriminate|reflexivity]|]. intros s t c e Rs Rt C D. destruct (CV' s t c e Rs Rt C D) as [[X _]|X]; [discriminate|exact X]. }
      destruct (IH done (fst x :: del) (crel_usable _ _ _ _ C U)) as (l & d & -> & C2). exists l, (d ++ [fst x]). split; [rewrite <- app_assoc; reflexivity|]. exact (crel_trans _ _ _ _ _ _ C C2).
    + assert (C : crel T (done ++ x :: rest) (done ++ x' :: rest) []).
      { apply crel_upd; [exact E1|exact E2|intros O; apply EO; exact O|exact DN|]. intros s t c e Rs Rt C D. destruct (CV' s t c e Rs Rt C D) as [[_ X]|X]; auto. }
      replace (done ++ x' :: rest) with ((done ++ [x']) ++ rest) in C by (rewrite <- app_assoc; reflexivity).
      destruct (IH (done ++ [x']) del (crel_usable _ _ _ _ C U)) as (l & d & -> & C2). exists l, d. split; [reflexivity|]. rewrite <- (app_nil_r d). exact (crel_trans _ _ _ _ _ _ C C2).
Qed.
Lemma with_attr_ok n : usable n -> exists b, is_avrule_with_attr P n = Some b.
Proof.
  intros ([B1 (b1 & E1)] & [B2 (b2 & E2)] & _). unfold is_avrule_with_attr, is_type_attr. destruct (N.eqb_spec (k_src (n_key n)) 0); [lia|]. destruct (N.eqb_spec (k_tgt (n_key n)) 0); [lia|].
  rewrite E1, E2. destruct b1; [exists true|exists b2]; reflexivity.
Qed.
Lemma split_ok : forall l plain pcov, cusable l -> exists p q, split_list P l plain pcov = Some (p, q) /\ Permutation (l ++ plain ++ pcov) (p ++ q).
Proof.
  induction l as [|x l IH]; intros plain pcov U; cbn [split_list].
  - exists plain, pcov. split; [reflexivity|reflexivity].
  - destruct (with_attr_ok (snd x) (U x (or_introl eq_refl))) as (b & ->). assert (U' : cusable l) by (intros y Hy; apply U; right; exact Hy). destruct b.
    + destruct (IH plain (x :: pcov) U') as (p & q & -> & PM). exists p, q. split; [reflexivity|]. rewrite <- PM. cbn [app]. rewrite !app_assoc. apply Permutation_middle.
    + destruct (IH (plain ++ [x]) pcov U') as (p & q & -> & PM). exists p, q. split; [reflexivity|]. rewrite <- PM. rewrite <- (app_assoc plain). cbn [app]. rewrite !app_assoc. apply Permutation_middle.
Qed.
Lemma list_ok l del : cusable l -> exists l' d, optimize_cond_av_list P te l del = Some (l', d ++ del) /\ crel T l l' d.
Proof.
  intros U. unfold optimize_cond_av_list. destruct (split_ok l [] [] U) as (p & q & -> & PM). cbn [app] in PM. rewrite app_nil_r in PM.
  assert (U2 : cusable (p ++ q)) by (intros x H; apply U; exact (Permutation_in _ (Permutation_sym PM) H)).
  destruct (walk_plain_ok q p [] del U2) as (p' & d1 & -> & C1). cbn [app] in C1.
  assert (U3 : cusable q) by (intros x H; apply U2, in_or_app; auto). destruct (walk_pcov_ok q [] (d1 ++ del) U3) as (q' & d2 & -> & C2). cbn [app] in C2.
  exists (p' ++ q'), (d2 ++ d1). split; [rewrite <- app_assoc; reflexivity|]. apply (crel_perm T (p ++ q)); [symmetry; exact PM|]. apply (crel_trans T _ (p' ++ q) _ d1 d2 C1).
  pose proof (crel_app T p' p' [] q q' d2 (crel_refl T p') C2) as X. rewrite app_nil_r in X. exact X.
Qed.

Definition chosen (value : N -> bool) (cs : list ocond) : list cnode := flat_map (fun c => if value (oc_id c) then oc_true c else oc_false c) cs.
Definition nodes_of (cs : list ocond) : list cnode := flat_map (fun c => oc_true c ++ oc_false c) cs.
Lemma conds_ok : forall cs del, cusable (nodes_of cs) -> exists cs' d, opt_conds P te cs del = Some (cs', d ++ del) /\ crel T (nodes_of cs) (nodes_of cs') d /\
  (forall value, exists dv, crel T (chosen value cs) (chosen value cs') dv) /\ (forall c', In c' cs' -> (exists c, In c cs /\ oc_id c' = oc_id c) /\ (oc_true c' <> [] \/ oc_false c' <> [])).
Proof.
  induction cs as [|c cs IH]; intros del U; cbn [opt_conds].
  - exists [], []. split; [reflexivity|]. split; [apply crel_refl|]. split; [intros v; exists []; apply crel_refl|]. intros c' [].
  - cbn [nodes_of flat_map] in U. destruct (list_ok (oc_true c) del) as (t & d1 & -> & C1); [intros x H; apply U; apply in_or_app; left; apply in_or_app; auto|].
    destruct (list_ok (oc_false c) (d1 ++ del)) as (f & d2 & -> & C2); [intros x H; apply U; apply in_or_app; left; apply in_or_app; auto|].
    destruct (IH (d2 ++ d1 ++ del)) as (r & d3 & -> & C3 & CV & ID); [intros x H; apply U; apply in_or_app; auto|].
    set (r' := match t, f with [], [] => r | _, _ => mkOC (oc_id c) t f :: r end).
    assert (R1 : nodes_of r' = (t ++ f) ++ nodes_of r) by (unfold r'; destruct t, f; reflexivity).
    assert (R2 : forall v, chosen v r' = (if v (oc_id c) then t else f) ++ chosen v r) by (intros v; unfold r'; destruct t, f; cbn [chosen flat_map oc_id oc_true oc_false]; try reflexivity; destruct (v (oc_id c)); reflexivity).
    exists r', (d3 ++ d2 ++ d1). split; [rewrite <- !app_assoc; reflexivity|]. split; [|split].
    + rewrite R1. cbn [nodes_of flat_map]. apply crel_app; [apply crel_app; assumption|exact C3].
    + intros v. rewrite R2. cbn [chosen flat_map]. destruct (CV v) as (dv & Cv). destruct (v (oc_id c)); [exists (dv ++ d1)|exists (dv ++ d2)]; apply crel_app; assumption.
    + intros c' H. assert (H' : c' = mkOC (oc_id c) t f /\ (t <> [] \/ f <> []) \/ In c' r).
      { unfold r' in H. destruct t, f; [right; exact H|destruct H as [<-|H]; [left; split; [reflexivity|right; discriminate]|right; exact H]|destruct H as [<-|H]; [left; split; [reflexivity|left; discriminate]|right; exact H]|destruct H as [<-|H]; [left; split; [reflexivity|left; discriminate]|right; exact H]]. }
      destruct H' as [[-> X]|X]; [split; [exists c; split; [left; reflexivity|reflexivity]|exact X]|]. destruct (ID c' X) as [(c0 & I0 & E0) Y]. split; [exists c0; split; [right; exact I0|exact E0]|exact Y].
Qed.
End List.

(** ** The sweep of the conditional table *)
Lemma take_ok a : forall del, match take a del with Some d => Permutation del (a :: d) | None => ~ In a del end.
Proof.
  induction del as [|x del IH]; cbn [take]; [intros []|]. destruct (N.eqb_spec x a) as [->|NE]; [reflexivity|]. destruct (take a del) as [d|].
  - rewrite IH. apply perm_swap.
  - cbn [In]. tauto.
Qed.
Definition outside (d : list N) (a : N) : bool := negb (existsb (N.eqb a) d).
Lemma outside_iff d a : outside d a = true <-> ~ In a d.
Proof.
  unfold outside. rewrite negb_true_iff, <- not_true_iff_false, existsb_exists. split; intros H X; apply H.
  - exists a. split; [exact X|apply N.eqb_refl].
  - destruct X as (x & Hx & E). apply N.eqb_eq in E as ->. exact Hx.
Qed.
Lemma outside_ext d d' a : (In a d <-> In a d') -> outside d a = outside d' a.
Proof. intros H. apply eq_true_iff_eq. rewrite !outside_iff. tauto. Qed.
Lemma dec32 n : 0 < n < 4294967296 -> wrap32 (n + 4294967295) = n - 1.
Proof. intros H. unfold wrap32, W32. replace (n + 4294967295) with (n - 1 + 1 * 4294967296) by lia. rewrite N.mod_add by lia. apply N.mod_small. lia. Qed.
Lemma sweep_ok : forall c del nel, NoDup c -> NoDup del -> exists del' nel', sweep c del nel = (filter (outside del) c, del', nel') /\ NoDup del' /\ (forall a, In a del' <-> In a del /\ ~ In a c) /\
  (N.of_nat (length c) <= nel < 4294967296 -> nel' + N.of_nat (length c) = nel + N.of_nat (length (filter (outside del) c)) /\ nel' < 4294967296).
Proof.
  induction c as [|a c IH]; intros del nel NC ND; cbn [sweep].
  - exists del, nel. split; [reflexivity|]. split; [exact ND|]. split; [cbn [In]; tauto|]. cbn [filter length]. lia.
  - apply NoDup_cons_iff in NC as [NA NC]. pose proof (take_ok a del) as TK. destruct (take a del) as [d|].
    + assert (ND' : NoDup (a :: d)) by (apply (Permutation_NoDup TK); exact ND). apply NoDup_cons_iff in ND' as [Nd ND'].
      assert (IFF : forall x, In x del <-> x = a \/ In x d). { intros x. split; intros H; [apply (Permutation_in _ TK) in H as [<-|H]; auto|]. apply (Permutation_in _ (Permutation_sym TK)). destruct H as [->|H]; [left; reflexivity|right; exact H]. }
      destruct (IH d (wrap32 (nel + 4294967295)) NC ND') as (del' & nel' & -> & N1 & I1 & L1). cbn [filter]. assert (OA : outside del a = false). { apply not_true_iff_false. rewrite outside_iff, IFF. tauto. } rewrite OA.
      assert (EF : filter (outside d) c = filter (outside del) c). { apply filter_ext_in. intros x Hx. apply outside_ext. rewrite IFF. split; [auto|]. intros [->|H]; [contradiction|exact H]. }
      rewrite EF in *. exists del', nel'. split; [reflexivity|]. split; [exact N1|]. split.
      * intros x. rewrite I1, IFF. cbn [In]. split; [intros [H1 H2]; split; [auto|intros [->|H]; contradiction]|]. intros [[->|H1] H2]; [destruct H2; auto|]. split; [exact H1|auto].
      * cbn [length]. intros B. rewrite dec32 in L1 by lia. lia.
    + destruct (IH del nel NC ND) as (del' & nel' & -> & N1 & I1 & L1). cbn [filter]. assert (OA : outside del a = true) by (apply outside_iff; exact TK). rewrite OA.
      exists del', nel'. split; [reflexivity|]. split; [exact N1|]. split; [|cbn [length]; lia]. intros x. rewrite I1. cbn [In]. split; [intros [H1 H2]; split; [exact H1|intros [<-|H]; contradiction]|tauto].
Qed.
Lemma nodup_app_l {A} (l1 l2 : list A) : NoDup (l1 ++ l2) -> NoDup l1.
Proof. induction l1 as [|a l1 IH]; cbn [app]; [constructor|]. intros H. apply NoDup_cons_iff in H as [H1 H2]. constructor; [|auto]. intros X. apply H1, in_or_app. auto. Qed.
Lemma nodup_app_r {A} (l1 l2 : list A) : NoDup (l1 ++ l2) -> NoDup l2.
Proof. induction l1 as [|a l1 IH]; cbn [app]; [auto|]. intros H. apply NoDup_cons_iff in H as [_ H]. auto. Qed.
Lemma nodup_app_d {A} (l1 l2 : list A) x : NoDup (l1 ++ l2) -> In x l1 -> In x l2 -> False.
Proof. induction l1 as [|a l1 IH]; cbn [app]; [intros _ []|]. intros H [->|H1] H2; apply NoDup_cons_iff in H as [N1 N2]; [apply N1, in_or_app; auto|auto]. Qed.
Lemma sweep_all_ok : forall cs del nel, NoDup (concat cs) -> NoDup del -> exists nel', sweep_all cs del nel = (map (filter (outside del)) cs, nel') /\
  (N.of_nat (length (concat cs)) <= nel < 4294967296 -> nel' + N.of_nat (length (concat cs)) = nel + N.of_nat (length (filter (outside del) (concat cs)))).
Proof.
  induction cs as [|c cs IH]; intros del nel NC ND; cbn [sweep_all concat map].
  - exists nel. split; [reflexivity|]. cbn [filter length]. lia.
  - cbn [concat] in NC. destruct (sweep_ok c del nel (nodup_app_l _ _ NC) ND) as (del' & nel1 & -> & N1 & I1 & L1). destruct (IH del' nel1 (nodup_app_r _ _ NC) N1) as (nel' & -> & L2).
    assert (EX : forall x, In x (concat cs) -> outside del' x = outside del x). { intros x Hx. apply outside_ext. rewrite I1. split; [tauto|]. intros H. split; [exact H|]. intros X. exact (nodup_app_d _ _ x NC X Hx). }
    rewrite (filter_ext_in _ (outside del) (concat cs) EX) in L2. assert (EM : map (filter (outside del')) cs = map (filter (outside del)) cs). { apply map_ext_in. intros l Hl. apply filter_ext_in. intros x Hx. apply EX. apply in_concat. exists l. auto. }
    rewrite EM. exists nel'. split; [reflexivity|]. rewrite filter_app, !app_length. lia.
Qed.
Lemma filter_concat {A} (f : A -> bool) ls : filter f (concat ls) = concat (map (filter f) ls).
Proof. induction ls as [|l ls IH]; cbn [concat map]; [reflexivity|]. rewrite filter_app, IH. reflexivity. Qed.

(** ** The whole *)
Record optimised (P' : opolicy) (d : list N) : Prop := {
  o_same : op_kern P' = op_kern P /\ op_vers P' = op_vers P /\ op_types P' = op_types P /\ op_tattr P' = op_tattr P /\ op_attr P' = op_attr P;
  o_wf : wf (op_te P');
  o_te : same_rules (avtab_map_list (op_te P)) (avtab_map_list (op_te P'));
  o_dims : a_nslot (op_te P') = a_nslot (op_te P) /\ a_mask (op_te P') = a_mask (op_te P);
  o_nel : a_nel (op_te P) = N.of_nat (length (avtab_map_list (op_te P))) -> a_nel (op_te P) < 4294967296 -> a_nel (op_te P') = N.of_nat (length (avtab_map_list (op_te P')));
  o_nodes : crel (avtab_map_list (op_te P')) (cond_nodes P) (cond_nodes P') d;
  o_cte : op_cte P' = map (filter (outside d)) (op_cte P);
  o_cnel : op_cnel P = N.of_nat (length (concat (op_cte P))) -> op_cnel P < 4294967296 -> op_cnel P' = N.of_nat (length (concat (op_cte P')));
  o_chosen : forall value, exists dv, crel (avtab_map_list (op_te P')) (chosen value (op_conds P)) (chosen value (op_conds P')) dv;
  o_ids : forall c', In c' (op_conds P') -> (exists c, In c (op_conds P) /\ oc_id c' = oc_id c) /\ (oc_true c' <> [] \/ oc_false c' <> []) }.
Lemma optimize_ok : supported P -> exists P' d, policydb_optimize P = OOk P' /\ optimised P' d.
Proof.
  intros [KE VE]. unfold policydb_optimize. rewrite KE. cbn [negb]. assert (VV : (20 <=? op_vers P) && (op_vers P <=? 23) = false) by lia. rewrite VV.
  destruct optimize_avtab_ok as (te' & -> & W & S & D1 & D2 & NL). destruct OK as (_ & _ & _ & _ & _ & U & UC & ND & PM).
  assert (KT : kinds_ok (avtab_map_list te')). { apply usable_kinds. apply (usable_same _ _ S). intros n H. destruct (U n H) as (U1 & U2 & i & B & E). split; [exact U1|]. split; [exact U2|]. exists i. split; auto. }
  assert (CU : cusable (cond_nodes P)). { intros [a n] H. destruct (UC a n H) as (U1 & U2 & i & B & E). split; [exact U1|]. split; [exact U2|]. exists i. split; auto. }
  destruct (conds_ok te' W KT (op_conds P) [] CU) as (cs & d & -> & C1 & C2 & ID). rewrite app_nil_r.
  assert (ND2 : NoDup (map fst (nodes_of cs) ++ d)) by (destruct C1 as (_ & _ & _ & C1); exact (Permutation_NoDup C1 ND)).
  destruct (sweep_all_ok (op_cte P) d (op_cnel P)) as (nel & -> & L); [exact (Permutation_NoDup (Permutation_sym PM) ND)|exact (nodup_app_r _ _ ND2)|].
  eexists. exists d. split; [reflexivity|]. constructor; cbn [op_kern op_vers op_types op_tattr op_attr op_te op_cte op_cnel op_conds]; auto.
  intros B1 B2. rewrite <- filter_concat. lia.
Qed.
End Opt.
