(** Proofs about the class and permission mapping. *)
From Verif Require Import Base MlsModel AvcModel MappingModel MappingSpec ContextProofs.

Lemma sh1_bit i j : N.testbit (N.shiftl 1 i) j = (i =? j).
Proof. rewrite N.shiftl_1_l, N.pow2_bits_eqb. reflexivity. Qed.

Lemma land_shiftl1 v i : negb (N.land v (N.shiftl 1 i) =? 0) = N.testbit v i.
Proof.
  destruct (N.testbit v i) eqn:B.
  - apply negb_true_iff, N.eqb_neq. intros E. assert (X : N.testbit (N.land v (N.shiftl 1 i)) i = true)
      by (rewrite N.land_spec, sh1_bit, B, N.eqb_refl; reflexivity). rewrite E, N.bits_0 in X. discriminate.
  - apply negb_false_iff, N.eqb_eq, bits_zero. intros j. rewrite N.land_spec, sh1_bit.
    destruct (i =? j) eqn:E; [apply N.eqb_eq in E; subst; rewrite B|rewrite andb_false_r]; reflexivity.
Qed.

(** ** The loops over one class *)

Lemma vector_loop_bit ps : forall i v u r j,
  N.testbit (vector_loop i ps v u r) j =
  N.testbit r j || ((i <=? j) && match nth_error ps (N.to_nat (j - i)) with
                                | Some p => negb (N.land v p =? 0) || (u && (p =? 0)) | None => false end).
Proof.
  induction ps as [|p ps IH]; intros i v u r j; cbn [vector_loop].
  - destruct (N.to_nat (j - i)); cbn [nth_error]; rewrite andb_false_r, orb_false_r; reflexivity.
  - cbv zeta. rewrite IH. destruct (N.eq_dec i j) as [->|NE].
    + rewrite N.sub_diag, N.leb_refl. cbn [N.to_nat nth_error].
      destruct (N.leb_spec (j + 1) j) as [Q|Q]; [lia|]. cbn [andb]. rewrite orb_false_r.
      destruct (negb (N.land v p =? 0)); [rewrite N.lor_spec, sh1_bit, N.eqb_refl; reflexivity|]. cbn [orb].
      destruct (u && (p =? 0)); [rewrite N.lor_spec, sh1_bit, N.eqb_refl; reflexivity|rewrite orb_false_r; reflexivity].
    + assert (X : N.testbit (if negb (N.land v p =? 0) then N.lor r (N.shiftl 1 i)
               else if u && (p =? 0) then N.lor r (N.shiftl 1 i) else r) j = N.testbit r j).
      { assert (Y : N.testbit (N.lor r (N.shiftl 1 i)) j = N.testbit r j).
        { rewrite N.lor_spec, sh1_bit. destruct (N.eqb_spec i j); [lia|apply orb_false_r]. }
        destruct (negb _); [exact Y|]. destruct (u && _); [exact Y|reflexivity]. }
      rewrite X. f_equal. destruct (N.leb_spec (i + 1) j) as [Q|Q].
      * assert (i <=? j = true) as -> by lia. cbn [andb]. replace (N.to_nat (j - i)) with (S (N.to_nat (j - (i + 1)))) by lia. reflexivity.
      * destruct (N.leb_spec i j); [lia|reflexivity].
Qed.

Lemma unmap_loop_bit ps : forall i t k b,
  N.testbit (unmap_loop i ps t k) b = true <->
  N.testbit k b = true \/ exists n p, nth_error ps n = Some p /\ N.testbit t (i + N.of_nat n) = true /\ N.testbit p b = true.
Proof.
  induction ps as [|p ps IH]; intros i t k b; cbn [unmap_loop].
  - split; [auto|]. intros [H|(n & q & E & _)]; [exact H|destruct n; discriminate E].
  - rewrite land_shiftl1.
    destruct (N.testbit t i) eqn:B; rewrite IH; [rewrite N.lor_spec, orb_true_iff|];
      (split; [intros H|intros [H|(n & q & E & T & Q)]]).
    + destruct H as [[H|H]|(n & q & E & T & Q)]; [auto| |].
      * right. exists 0%nat, p. split; [reflexivity|split; [rewrite N.add_0_r; exact B|exact H]].
      * right. exists (S n), q. split; [exact E|split; [|exact Q]]. rewrite N.ldiff_spec in T. apply andb_true_iff in T. destruct T as [T _].
        replace (i + N.of_nat (S n)) with (i + 1 + N.of_nat n) by lia. exact T.
    + auto.
    + destruct n as [|n]; [injection E as ->; auto|].
      right. exists n, q. split; [exact E|split; [|exact Q]]. rewrite N.ldiff_spec, sh1_bit.
      replace (i + 1 + N.of_nat n) with (i + N.of_nat (S n)) by lia. rewrite T. apply negb_true_iff, N.eqb_neq. lia.
    + destruct H as [H|(n & q & E & T & Q)]; [auto|]. right. exists (S n), q. split; [exact E|split; [|exact Q]].
      replace (i + N.of_nat (S n)) with (i + 1 + N.of_nat n) by lia. exact T.
    + auto.
    + destruct n as [|n]; [exfalso; rewrite N.add_0_r in T; congruence|].
      right. exists n, q. split; [exact E|split; [|exact Q]]. replace (i + 1 + N.of_nat n) with (i + N.of_nat (S n)) by lia. exact T.
Qed.

Lemma beyond_bit n : forall i r j, N.testbit (beyond n i r) j = N.testbit r j || ((i <=? j) && (j <? i + N.of_nat n)).
Proof.
  induction n as [|n IH]; intros i r j; cbn [beyond].
  - assert ((i <=? j) && (j <? i + N.of_nat 0) = false) as -> by lia. rewrite orb_false_r. reflexivity.
  - rewrite IH, N.lor_spec, sh1_bit. destruct (N.testbit r j); [reflexivity|]. cbn [orb]. lia.
Qed.

(** ** What a mapping contains *)

Definition consistent (K : list kclass) (S : mstate) : Prop := Forall (fun n => In n K) (ms_cache S).

Lemma entry_name_in l s n : entry_name l s = Some n -> In n l /\ kc_name n = s.
Proof. intros H. apply find_some in H. destruct H as [H1 H2]. apply str_eqb_eq in H2. auto. Qed.

Lemma nodup_map_eq {A B} (f : A -> B) l x y : NoDup (map f l) -> In x l -> In y l -> f x = f y -> x = y.
Proof.
  induction l as [|a l IH]; cbn [map]; intros ND Hx Hy E; [destruct Hx|].
  inversion ND as [|? ? NI ND']; subst. destruct Hx as [->|Hx], Hy as [->|Hy]; [reflexivity| | |auto].
  - exfalso. apply NI. rewrite E. apply in_map. exact Hy.
  - exfalso. apply NI. rewrite <- E. apply in_map. exact Hx.
Qed.

Lemma entry_name_none l s k : entry_name l s = None -> In k l -> kc_name k <> s.
Proof.
  intros H Hk E. pose proof (find_none _ _ H _ Hk) as X. cbv beta in X. subst s.
  rewrite (proj2 (str_eqb_eq _ _) eq_refl) in X. discriminate.
Qed.

Lemma discover_in K ok s n : discover_class K ok s = Some n -> In n K /\ kc_name n = s.
Proof.
  unfold discover_class. destruct (negb ok); [discriminate|]. destruct (existsb _ s); [discriminate|].
  apply entry_name_in.
Qed.

Lemma discover_found K s k : kernel_ok K -> class_named K s k -> discover_class K true s = Some k.
Proof.
  intros (N1 & N2 & F) [H E]. unfold discover_class. cbn [negb].
  pose proof (proj1 (Forall_forall _ _) F k H) as (_ & _ & C & _).
  destruct (existsb _ s) eqn:B.
  { exfalso. apply existsb_exists in B. destruct B as (c & Hc & E2). apply N.eqb_eq in E2. subst. contradiction. }
  change (entry_name K s = Some k). destruct (entry_name K s) as [n|] eqn:D.
  - apply entry_name_in in D. destruct D as [D1 D2]. f_equal. apply (nodup_map_eq kc_name K); auto. congruence.
  - exfalso. exact (entry_name_none _ _ _ D H E).
Qed.

Lemma to_class_consistent K ok S s : consistent K S -> consistent K (fst (string_to_class K ok S s)).
Proof.
  intros C. unfold string_to_class. destruct (entry_name _ _); [exact C|].
  destruct (discover_class _ _ _) as [n|] eqn:D; [|exact C]. constructor; [apply discover_in in D; tauto|exact C].
Qed.

Lemma to_class_map K ok S s : ms_map (fst (string_to_class K ok S s)) = ms_map S.
Proof. unfold string_to_class. destruct (entry_name _ _); [reflexivity|]. destruct (discover_class _ _ _); reflexivity. Qed.

Lemma to_class_known K S s k : kernel_ok K -> consistent K S -> class_named K s k ->
  snd (string_to_class K true S s) = map_class (ms_map S) (kc_value k) /\ In k (ms_cache (fst (string_to_class K true S s))).
Proof.
  intros HK C H. unfold string_to_class. destruct (entry_name (ms_cache S) s) as [n|] eqn:D.
  - apply entry_name_in in D. destruct D as [D1 D2].
    assert (n = k). { apply (nodup_map_eq kc_name K); [apply HK| |apply H|]. { exact (proj1 (Forall_forall _ _) C n D1). } destruct H; congruence. }
    subst. split; [reflexivity|exact D1].
  - rewrite (discover_found K s k HK H). split; [reflexivity|left; reflexivity].
Qed.

Lemma to_class_unknown K ok S s : consistent K S -> (forall k, ~ class_named K s k) -> string_to_class K ok S s = (S, 0).
Proof.
  intros C H. unfold string_to_class. destruct (entry_name (ms_cache S) s) as [n|] eqn:D.
  - exfalso. apply entry_name_in in D. destruct D as [D1 D2]. apply (H n). split; [exact (proj1 (Forall_forall _ _) C n D1)|exact D2].
  - destruct (discover_class K ok s) as [n|] eqn:D2; [|reflexivity]. exfalso. exact (H n (discover_in _ _ _ _ D2)).
Qed.

Lemma perm_index_some s l : forall i, match perm_index i (map Some l) s with
   | Some j => exists n, j = i + N.of_nat n /\ nth_error l n = Some s
   | None => ~ In s l end.
Proof.
  induction l as [|p l IH]; intros i; cbn [map perm_index]; [intros []|].
  destruct (str_eqb p s) eqn:E.
  - apply str_eqb_eq in E. subst. exists 0%nat. split; [lia|reflexivity].
  - specialize (IH (i + 1)). destruct (perm_index _ _ _) as [j|].
    + destruct IH as (n & -> & H). exists (S n). split; [lia|exact H].
    + intros [->|H]; [|exact (IH H)]. rewrite (proj2 (str_eqb_eq s s) eq_refl) in E. discriminate.
Qed.

Lemma perm_index_numbered k p : class_ok k ->
  match perm_index 0 (kc_perms k) p with
  | Some j => perm_numbered k p (N.to_nat j) /\ j < 32
  | None => perm_unknown k p end.
Proof.
  intros (_ & _ & _ & l & E & ND & _ & L). unfold perm_numbered, perm_unknown. rewrite E.
  pose proof (perm_index_some p l 0) as H. destruct (perm_index 0 (map Some l) p) as [j|].
  - destruct H as (n & -> & H). rewrite N.add_0_l, Nat2N.id. split; [rewrite nth_error_map, H; reflexivity|].
    assert (n < length l)%nat by (apply nth_error_Some; congruence). lia.
  - intros X. apply in_map_iff in X. destruct X as (x & X1 & X2). injection X1 as ->. exact (H X2).
Qed.

Lemma numbered_fun k p b b' : class_ok k -> perm_numbered k p b -> perm_numbered k p b' -> b = b'.
Proof.
  intros (_ & _ & _ & l & E & ND & _ & L). unfold perm_numbered. rewrite E, !nth_error_map.
  destruct (nth_error l b) as [x|] eqn:X; [|discriminate]. destruct (nth_error l b') as [y|] eqn:Y; [|discriminate].
  intros [= ->] [= ->]. apply (proj1 (NoDup_nth_error l) ND); [apply nth_error_Some; congruence|congruence].
Qed.

(** The kernel vector of one permission name. *)
Definition kvec (k : kclass) (p : list N) : N := match perm_index 0 (kc_perms k) p with Some j => N.shiftl 1 j | None => 0 end.

Lemma shiftl1_nz i : N.shiftl 1 i <> 0.
Proof. intros E. pose proof (sh1_bit i i) as H. rewrite E, N.bits_0, N.eqb_refl in H. discriminate. Qed.

Lemma kvec_has_named k v u p : class_ok k -> has_named k v u p (negb (N.land v (kvec k p) =? 0) || (u && (kvec k p =? 0))).
Proof.
  intros C. unfold kvec. pose proof (perm_index_numbered k p C) as H. destruct (perm_index 0 (kc_perms k) p) as [j|].
  - rewrite land_shiftl1. destruct (N.eqb_spec (N.shiftl 1 j) 0) as [E|E]; [exfalso; exact (shiftl1_nz j E)|].
    rewrite andb_false_r, orb_false_r. destruct H as [H _]. replace j with (N.of_nat (N.to_nat j)) at 1 by lia. constructor. exact H.
  - rewrite N.land_0_r. cbn [negb orb N.eqb]. rewrite N.eqb_refl. cbn [negb orb]. rewrite andb_true_r. constructor. exact H.
Qed.

Lemma kvec_empty k : class_ok k -> kvec k [] = 0.
Proof.
  intros C. unfold kvec. pose proof (perm_index_numbered k [] C) as H. destruct (perm_index 0 (kc_perms k) []) as [j|]; [|reflexivity].
  exfalso. destruct C as (_ & _ & _ & l & E & _ & NE & _). destruct H as [H _]. unfold perm_numbered in H. rewrite E, nth_error_map in H.
  destruct (nth_error l (N.to_nat j)) eqn:X; [|discriminate]. injection H as ->. apply NE. eapply nth_error_In. exact X.
Qed.

Lemma entry_value_found K l k : kernel_ok K -> Forall (fun n => In n K) l -> In k l -> entry_value l (kc_value k) = Some k.
Proof.
  intros (_ & N2 & _) F Hk. unfold entry_value. destruct (find _ l) as [n|] eqn:D.
  - apply find_some in D. destruct D as [D1 D2]. apply N.eqb_eq in D2. f_equal.
    rewrite Forall_forall in F. apply (nodup_map_eq kc_value K); auto.
  - exfalso. pose proof (find_none _ _ D _ Hk) as X. cbv beta in X. rewrite N.eqb_refl in X. discriminate.
Qed.

Lemma to_perm_raw K S k p : kernel_ok K -> consistent K S -> In k (ms_cache S) -> ms_map S = [] ->
  string_to_perm S (kc_value k) p = kvec k p.
Proof.
  intros HK C Hk M. unfold string_to_perm. rewrite M. unfold unmap_class.
  assert (X : nth_error (@nil mentry) (N.to_nat (kc_value k)) = None) by (destruct (N.to_nat _); reflexivity). rewrite X.
  rewrite (entry_value_found K _ k HK C Hk). unfold kvec, map_perm. destruct (perm_index _ _ _); [|reflexivity].
  rewrite X. reflexivity.
Qed.

Lemma set_perms_spec K S k : kernel_ok K -> consistent K S -> In k (ms_cache S) -> ms_map S = [] -> In k K ->
  forall rej ps l, set_perms S (kc_value k) rej ps = Some l -> l = map (kvec k) ps.
Proof.
  intros HK C Hk M HkK rej ps. assert (CK : class_ok k) by (destruct HK as (_ & _ & F); exact (proj1 (Forall_forall _ _) F k HkK)).
  induction ps as [|p ps IH]; intros l H; cbn [set_perms] in H; [injection H as <-; reflexivity|].
  destruct p as [|c p].
  - destruct (set_perms S (kc_value k) rej ps) as [l'|]; [|discriminate]. injection H as <-. cbn [map]. rewrite (kvec_empty k CK), (IH l' eq_refl). reflexivity.
  - cbv zeta in H. rewrite (to_perm_raw K S k (c :: p) HK C Hk M) in H. destruct (_ && rej); [discriminate|].
    destruct (set_perms S (kc_value k) rej ps) as [l'|]; [|discriminate]. injection H as <-. cbn [map]. rewrite (IH l' eq_refl). reflexivity.
Qed.

(** What the record of a class contains. *)
Definition entry_for (K : list kclass) (t : list N * list (list N)) (e : mentry) : Prop :=
  (exists k, class_named K (fst t) k /\ e = mkME (kc_value k) (map (kvec k) (snd t))) \/
  ((forall k, ~ class_named K (fst t) k) /\ e = mkME 0 []).

Lemma class_dec K s : kernel_ok K -> (exists k, class_named K s k) \/ (forall k, ~ class_named K s k).
Proof.
  intros _. destruct (entry_name K s) as [n|] eqn:D.
  - left. exists n. apply entry_name_in in D. exact D.
  - right. intros k [H E]. exact (entry_name_none _ _ _ D H E).
Qed.

Lemma set_classes_spec K : kernel_ok K -> forall rej t S S' r, consistent K S -> ms_map S = [] ->
  set_classes K true S rej t = (S', r) ->
  consistent K S' /\ (forall l, r = Some l -> Forall2 (entry_for K) t l) /\
  (forall n, In n (ms_cache S) -> In n (ms_cache S')) /\
  (forall l, r = Some l -> forall c ps k, In (c, ps) t -> class_named K c k -> In k (ms_cache S')).
Proof.
  intros HK rej t. induction t as [|[c ps] t IH]; intros S S' r C M E; cbn [set_classes] in E.
  - injection E as <- <-. split; [exact C|split; [intros l [= <-]; constructor|split; [auto|intros l _ c ps k []]]].
  - destruct (class_dec K c HK) as [[k Hk]|U].
    + destruct (to_class_known K S c k HK C Hk) as [V Ik]. pose proof (to_class_consistent K true S c C) as C1.
      pose proof (to_class_map K true S c) as M1. destruct (string_to_class K true S c) as [S1 v] eqn:E1. cbn [fst snd] in *.
      assert (Sub : forall n, In n (ms_cache S) -> In n (ms_cache S1)).
      { intros n Hn. unfold string_to_class in E1. destruct (entry_name _ _); [injection E1 as <- _; exact Hn|].
        destruct (discover_class _ _ _); injection E1 as <- _; [right|]; exact Hn. }
      assert (CK : class_ok k) by (destruct HK as (_ & _ & F); exact (proj1 (Forall_forall _ _) F k (proj1 Hk))).
      assert (V2 : v = kc_value k). { subst v. rewrite M. reflexivity. } clear V. subst v.
      destruct (N.eqb_spec (kc_value k) 0) as [Z|Z]; [exfalso; destruct CK; contradiction|].
      destruct (set_perms S1 (kc_value k) rej ps) as [l1|] eqn:P.
      2:{ injection E as <- <-. split; [exact C1|]. split; [discriminate|split; [exact Sub|discriminate]]. }
      rewrite M in M1. pose proof (set_perms_spec K S1 k HK C1 Ik M1 (proj1 Hk) rej ps l1 P) as ->.
      destruct (set_classes K true S1 rej t) as [S2 r2] eqn:E2. injection E as <- <-.
      destruct (IH S1 S2 r2 C1 M1 E2) as (I1 & I2 & I3 & I4). split; [exact I1|]. split; [|split].
      * intros l H. destruct r2 as [l2|]; [|discriminate]. injection H as <-. constructor; [|apply I2; reflexivity].
        left. exists k. split; [exact Hk|reflexivity].
      * intros n Hn. apply I3, Sub, Hn.
      * intros l H c' ps' k' Hin Hk'. destruct r2 as [l2|]; [|discriminate]. destruct Hin as [[= <- <-]|Hin]; [|apply (I4 l2 eq_refl c' ps' k' Hin Hk')].
        assert (k' = k). { destruct Hk as [A B], Hk' as [A' B']. apply (nodup_map_eq kc_name K); [apply HK|exact A'|exact A|congruence]. }
        subst. apply I3. exact Ik.
    + rewrite (to_class_unknown K true S c C U) in E. rewrite N.eqb_refl in E. destruct rej.
      * injection E as <- <-. split; [exact C|split; [discriminate|split; [auto|discriminate]]].
      * destruct (set_classes K true S false t) as [S2 r2] eqn:E2. injection E as <- <-.
        destruct (IH S S2 r2 C M E2) as (I1 & I2 & I3 & I4). split; [exact I1|split; [|split; [exact I3|]]].
        -- intros l H. destruct r2 as [l2|]; [|discriminate]. injection H as <-. constructor; [|apply I2; reflexivity]. right. auto.
        -- intros l H c' ps' k' Hin Hk'. destruct r2 as [l2|]; [|discriminate]. destruct Hin as [[= <- <-]|Hin]; [exfalso; exact (U k' Hk')|].
           exact (I4 l2 eq_refl c' ps' k' Hin Hk').
Qed.

Lemma set_classes_consistent K ok : forall rej t S, consistent K S -> consistent K (fst (set_classes K ok S rej t)).
Proof.
  intros rej t. induction t as [|[c ps] t IH]; intros S C; cbn [set_classes]; [exact C|].
  pose proof (to_class_consistent K ok S c C) as C1. destruct (string_to_class K ok S c) as [S1 v]. cbn [fst] in C1.
  destruct (v =? 0).
  - destruct rej; [exact C1|]. specialize (IH S1 C1). destruct (set_classes K ok S1 false t). exact IH.
  - destruct (set_perms S1 v rej ps); [|exact C1]. specialize (IH S1 C1). destruct (set_classes K ok S1 rej t). exact IH.
Qed.

Lemma set_mapping_consistent K ok r rej S t : consistent K S -> consistent K (fst (set_mapping K ok r rej S t)).
Proof.
  intros C. unfold set_mapping. cbv zeta. destruct (negb r); [exact C|]. destruct t as [t|]; [|exact C].
  destruct (_ || _); [exact C|]. pose proof (set_classes_consistent K ok rej t (mkMS (ms_cache S) []) C) as H.
  destruct (set_classes K ok (mkMS (ms_cache S) []) rej t) as [S1 [l|]]; exact H.
Qed.

Lemma mrun_inv l : forall K0 S0 K S, loads_ok l -> kernel_ok K0 -> consistent K0 S0 -> mrun (K0, S0) l = (K, S) ->
  kernel_ok K /\ consistent K S.
Proof.
  induction l as [|o l IH]; intros K0 S0 K S L HK C E.
  - injection E as <- <-. auto.
  - inversion L as [|? ? L1 L2]; subst. unfold mrun in E. cbn [fold_left] in E.
    destruct o as [ok s|ok r rej t|K1]; cbn [mstep fst snd] in E.
    + eapply IH; [exact L2|exact HK| |exact E]. apply to_class_consistent. exact C.
    + eapply IH; [exact L2|exact HK| |exact E]. apply set_mapping_consistent. exact C.
    + eapply IH; [exact L2|exact L1| |exact E]. constructor.
Qed.

Lemma set_mapping_spec K S r rej t S' : kernel_ok K -> consistent K S -> set_mapping K true r rej S (Some t) = (S', S0) ->
  (forall e, In e t -> (length (snd e) <= 32)%nat) /\ consistent K S' /\
  (exists l, ms_map S' = mkME 0 [] :: l /\ Forall2 (entry_for K) t l) /\
  (forall c ps k, In (c, ps) t -> class_named K c k -> In k (ms_cache S')).
Proof.
  intros HK C E. unfold set_mapping in E. cbv zeta in E. destruct (negb r); [discriminate|].
  destruct (_ || _) eqn:B; [discriminate|]. apply orb_false_iff in B. destruct B as [_ B].
  destruct (set_classes K true (mkMS (ms_cache S) []) rej t) as [S1 [l|]] eqn:E1; [|discriminate]. injection E as <-.
  destruct (set_classes_spec K HK rej t (mkMS (ms_cache S) []) S1 (Some l) C eq_refl E1) as (I1 & I2 & I3 & I4).
  split; [|split; [exact I1|split; [exists l; split; [reflexivity|apply I2; reflexivity]|exact (I4 l eq_refl)]]].
  intros e He. destruct (Nat.ltb 32 (length (snd e))) eqn:Q; [|apply Nat.ltb_ge in Q; exact Q].
  exfalso. assert (X : existsb (fun e0 : list N * list (list N) => Nat.ltb 32 (length (snd e0))) t = true) by (apply existsb_exists; exists e; auto).
  congruence.
Qed.

Lemma forall2_nth {A B} (R : A -> B -> Prop) l l' n x : Forall2 R l l' -> nth_error l n = Some x -> exists y, nth_error l' n = Some y /\ R x y.
Proof.
  intros F. revert n. induction F as [|a b l l' Hab F IH]; intros n E; [destruct n; discriminate|].
  destruct n as [|n]; [injection E as ->; exists b; auto|apply IH; exact E].
Qed.

(** ** Names and numbers *)

Lemma map_class_loop_spec m : forall i v, match map_class_loop i m v with
  | Some j => exists n e, j = i + N.of_nat n /\ nth_error m n = Some e /\ me_value e = v /\
              (forall n' e', (n' < n)%nat -> nth_error m n' = Some e' -> me_value e' <> v)
  | None => forall e, In e m -> me_value e <> v end.
Proof.
  induction m as [|e m IH]; intros i v; cbn [map_class_loop]; [intros e []|].
  destruct (N.eqb_spec (me_value e) v) as [E|E].
  - exists 0%nat, e. split; [lia|split; [reflexivity|split; [exact E|lia]]].
  - specialize (IH (i + 1) v). destruct (map_class_loop (i + 1) m v) as [j|].
    + destruct IH as (n & e' & -> & E1 & E2 & E3). exists (S n), e'. split; [lia|split; [exact E1|split; [exact E2|]]].
      intros n' e2 L H. destruct n' as [|n']; [injection H as <-; exact E|apply (E3 n' e2); [lia|exact H]].
    + intros e' [<-|H]; [exact E|exact (IH e' H)].
Qed.

(** The number of a class named in the table is the position of its first occurrence. *)
Lemma class_number K t l n c ps k : kernel_ok K -> Forall2 (entry_for K) t l -> nth_error t n = Some (c, ps) -> class_named K c k ->
  (forall n' ps', (n' < n)%nat -> nth_error t n' <> Some (c, ps')) ->
  map_class (mkME 0 [] :: l) (kc_value k) = N.of_nat (S n).
Proof.
  intros HK F E Hk First. assert (CK : class_ok k) by (destruct HK as (_ & _ & G); exact (proj1 (Forall_forall _ _) G k (proj1 Hk))).
  assert (NZ : kc_value k <> 0) by apply CK.
  assert (Same : forall c' k', class_named K c' k' -> kc_value k' = kc_value k -> c' = c).
  { intros c' k' [A B] V. assert (k' = k) by (apply (nodup_map_eq kc_value K); [apply HK|exact A|apply Hk|exact V]). subst k'. destruct Hk as [_ Hk2]. congruence. }
  assert (Uniq : forall k', class_named K c k' -> k' = k).
  { intros k' [A B]. apply (nodup_map_eq kc_name K); [apply HK|exact A|apply Hk|destruct Hk; congruence]. }
  destruct (forall2_nth _ _ _ _ _ F E) as (e & Ee & X).
  assert (Ve : me_value e = kc_value k).
  { destruct X as [(k' & H & ->)|[H _]]; [|exfalso; exact (H k Hk)]. cbn [fst] in H. rewrite (Uniq k' H). reflexivity. }
  unfold map_class. pose proof (map_class_loop_spec (mkME 0 [] :: l) 0 (kc_value k)) as S.
  destruct (map_class_loop 0 (mkME 0 [] :: l) (kc_value k)) as [j|].
  2:{ exfalso. refine (S e _ Ve). right. eapply nth_error_In. exact Ee. }
  destruct S as (m & e' & -> & E1 & E2 & E3). destruct m as [|m].
  - injection E1 as <-. cbn [me_value] in E2. exfalso. apply NZ. symmetry. exact E2.
  - cbn [nth_error] in E1. assert (m = n).
    { destruct (Nat.lt_trichotomy m n) as [Q|[Q|Q]]; [|exact Q|].
      - exfalso. assert (exists t', nth_error t m = Some t') as [[c' ps'] T].
        { destruct (nth_error t m) eqn:T; [eauto|]. apply nth_error_None in T. assert (n < length t)%nat by (apply nth_error_Some; congruence). lia. }
        destruct (forall2_nth _ _ _ _ _ F T) as (e2 & Ee2 & Y). assert (e2 = e') by congruence. subst e2.
        destruct Y as [(k' & H & ->)|[_ ->]]; [|cbn [me_value] in E2; congruence].
        cbn [me_value fst] in *. assert (c' = c) by exact (Same c' k' H E2). subst c'. exact (First m ps' Q T).
      - exfalso. apply (E3 (S n) e); [lia|exact Ee|exact Ve]. }
    subst m. lia.
Qed.

Fixpoint disjoint_from (p : N) (ps : list N) : Prop := match ps with [] => True | q :: r => N.land p q = 0 /\ disjoint_from p r end.
Fixpoint pairwise (ps : list N) : Prop := match ps with [] => True | p :: r => disjoint_from p r /\ pairwise r end.

Lemma disjoint_nth p ps n q : disjoint_from p ps -> nth_error ps n = Some q -> N.land p q = 0.
Proof. revert n. induction ps as [|a ps IH]; intros [|n] D E; try discriminate; destruct D; [injection E as <-; auto|eauto]. Qed.

Lemma land_ldiff_disjoint k p q : N.land p q = 0 -> N.land (N.ldiff k p) q = N.land k q.
Proof.
  intros D. apply N.bits_inj. intros b. rewrite !N.land_spec, N.ldiff_spec. assert (X : N.testbit (N.land p q) b = false) by (rewrite D; apply N.bits_0).
  rewrite N.land_spec in X. destruct (N.testbit k b), (N.testbit p b), (N.testbit q b); try reflexivity; discriminate.
Qed.

Lemma map_perm_loop_bit ps : forall i k t j, pairwise ps ->
  N.testbit (map_perm_loop i ps k t) j =
  N.testbit t j || ((i <=? j) && match nth_error ps (N.to_nat (j - i)) with Some p => negb (N.land k p =? 0) | None => false end).
Proof.
  induction ps as [|p ps IH]; intros i k t j P; cbn [map_perm_loop].
  - destruct (N.to_nat (j - i)); cbn [nth_error]; rewrite andb_false_r, orb_false_r; reflexivity.
  - destruct P as [D P].
    assert (Q : forall k', (forall n q, nth_error ps n = Some q -> N.land k' q = N.land k q) -> forall t',
       N.testbit (map_perm_loop (i + 1) ps k' t') j = N.testbit t' j || ((i <? j) && match nth_error ps (N.to_nat (j - (i + 1))) with Some p0 => negb (N.land k p0 =? 0) | None => false end)).
    { intros k' Hk t'. rewrite (IH (i + 1) k' t' j P). replace (i + 1 <=? j) with (i <? j) by lia.
      destruct (nth_error ps (N.to_nat (j - (i + 1)))) as [q|] eqn:E; [rewrite (Hk _ _ E)|]; reflexivity. }
    destruct (N.eq_dec i j) as [->|NE].
    + rewrite N.sub_diag, N.leb_refl. cbn [N.to_nat nth_error andb]. destruct (N.eqb_spec (N.land k p) 0) as [Z|Z]; cbn [negb].
      * rewrite Q by auto. rewrite N.ltb_irrefl. reflexivity.
      * rewrite Q by (intros n q E; apply land_ldiff_disjoint; eapply disjoint_nth; eauto).
        rewrite N.ltb_irrefl, N.lor_spec, sh1_bit, N.eqb_refl, !orb_true_r. reflexivity.
    + assert (X : (i <=? j) && match nth_error (p :: ps) (N.to_nat (j - i)) with Some p0 => negb (N.land k p0 =? 0) | None => false end
                = (i <? j) && match nth_error ps (N.to_nat (j - (i + 1))) with Some p0 => negb (N.land k p0 =? 0) | None => false end).
      { destruct (N.ltb_spec i j) as [L|L].
        - assert (i <=? j = true) as -> by lia. replace (N.to_nat (j - i)) with (S (N.to_nat (j - (i + 1)))) by lia. reflexivity.
        - assert (i <=? j = false) as -> by lia. reflexivity. }
      rewrite X. destruct (N.land k p =? 0); cbn [negb].
      * apply Q; auto.
      * rewrite Q by (intros n q E; apply land_ldiff_disjoint; eapply disjoint_nth; eauto).
        rewrite N.lor_spec, sh1_bit. destruct (N.eqb_spec i j); [lia|]. rewrite orb_false_r. reflexivity.
Qed.

Lemma kvec_numbered k p b : class_ok k -> perm_numbered k p b -> kvec k p = N.shiftl 1 (N.of_nat b) /\ (b < 32)%nat.
Proof.
  intros C H. unfold kvec. pose proof (perm_index_numbered k p C) as Q. destruct (perm_index 0 (kc_perms k) p) as [j|].
  - destruct Q as [Q L]. pose proof (numbered_fun k p _ _ C H Q). subst b. split; [f_equal; lia|lia].
  - exfalso. apply Q. eapply nth_error_In. exact H.
Qed.

Lemma kvec_bit k p b : class_ok k -> (N.testbit (kvec k p) (N.of_nat b) = true <-> perm_numbered k p b).
Proof.
  intros C. split; intros H.
  - unfold kvec in H. pose proof (perm_index_numbered k p C) as Q. destruct (perm_index 0 (kc_perms k) p) as [j|]; [|rewrite N.bits_0 in H; discriminate].
    rewrite sh1_bit in H. apply N.eqb_eq in H. subst j. rewrite Nat2N.id in Q. apply Q.
  - destruct (kvec_numbered k p b C H) as [-> _]. rewrite sh1_bit, N.eqb_refl. reflexivity.
Qed.

Lemma numbered_inj k p q b : perm_numbered k p b -> perm_numbered k q b -> p = q.
Proof. unfold perm_numbered. intros H1 H2. congruence. Qed.

Lemma kvec_disjoint k p q : class_ok k -> p <> q -> N.land (kvec k p) (kvec k q) = 0.
Proof.
  intros C NE. apply bits_zero. intros b. rewrite N.land_spec. replace b with (N.of_nat (N.to_nat b)) by lia.
  destruct (N.testbit (kvec k p) _) eqn:A; [|reflexivity]. destruct (N.testbit (kvec k q) _) eqn:B; [|reflexivity].
  exfalso. apply (kvec_bit k p _ C) in A. apply (kvec_bit k q _ C) in B. exact (NE (numbered_inj _ _ _ _ A B)).
Qed.

Lemma kvec_pairwise k ps : class_ok k -> NoDup ps -> pairwise (map (kvec k) ps).
Proof.
  intros C ND. induction ND as [|p ps NI ND IH]; cbn [map pairwise]; [exact I|]. split; [|exact IH]. clear ND IH.
  induction ps as [|q ps IH]; cbn [map disjoint_from]; [exact I|]. split.
  - apply kvec_disjoint; [exact C|]. intros ->. apply NI. left. reflexivity.
  - apply IH. intros H. apply NI. right. exact H.
Qed.

Lemma land_nz_iff a b : negb (N.land a b =? 0) = true <-> exists i, N.testbit a i = true /\ N.testbit b i = true.
Proof.
  split.
  - intros H. apply negb_true_iff, N.eqb_neq in H. destruct (nonzero_bit _ H) as [i Hi]. rewrite N.land_spec in Hi. apply andb_true_iff in Hi. eauto.
  - intros (i & A & B). apply negb_true_iff, N.eqb_neq. intros E. assert (X : N.testbit (N.land a b) i = true) by (rewrite N.land_spec, A, B; reflexivity).
    rewrite E, N.bits_0 in X. discriminate.
Qed.

(** Unmapping and mapping back is the identity on known, distinct permissions. *)
Lemma round_trip_perms k ps r : class_ok k -> NoDup ps ->
  (forall i, N.testbit r i = true -> exists p b, nth_error ps (N.to_nat i) = Some p /\ perm_numbered k p b) ->
  map_perm_loop 0 (map (kvec k) ps) (unmap_loop 0 (map (kvec k) ps) r 0) 0 = r.
Proof.
  intros C ND H. apply N.bits_inj. intros j. rewrite map_perm_loop_bit by (apply kvec_pairwise; auto).
  rewrite N.bits_0. cbn [orb]. assert (0 <=? j = true) as -> by lia. cbn [andb]. rewrite N.sub_0_r, nth_error_map.
  apply bool_ext. split.
  - destruct (nth_error ps (N.to_nat j)) as [p|] eqn:E; cbn [option_map]; [|discriminate]. intros X. apply land_nz_iff in X.
    destruct X as (b & X & Y). apply unmap_loop_bit in X. destruct X as [X|(n & q & X1 & X2 & X3)]; [rewrite N.bits_0 in X; discriminate|].
    rewrite nth_error_map in X1. destruct (nth_error ps n) as [p'|] eqn:E'; [|discriminate]. injection X1 as <-.
    replace b with (N.of_nat (N.to_nat b)) in X3, Y by lia. apply (kvec_bit _ _ _ C) in X3, Y.
    assert (p' = p) by exact (numbered_inj _ _ _ _ X3 Y). subst p'.
    assert (n = N.to_nat j). { apply (proj1 (NoDup_nth_error ps) ND); [apply nth_error_Some; congruence|congruence]. }
    subst n. rewrite N2Nat.id in X2. exact X2.
  - intros X. destruct (H j X) as (p & b & E & Nb). rewrite E. cbn [option_map]. apply land_nz_iff. exists (N.of_nat b).
    split; [|apply kvec_bit; assumption]. apply unmap_loop_bit. right. exists (N.to_nat j), (kvec k p).
    split; [rewrite nth_error_map, E; reflexivity|]. split; [rewrite N2Nat.id; exact X|apply kvec_bit; assumption].
Qed.

(** The number of a permission named in the table is that of its position. *)
Lemma perm_number k ps n p : class_ok k -> NoDup ps -> nth_error ps n = Some p ->
  forall b, perm_numbered k p b -> map_perm_loop 0 (map (kvec k) ps) (N.shiftl 1 (N.of_nat b)) 0 = N.shiftl 1 (N.of_nat n).
Proof.
  intros C ND E b Hb. apply N.bits_inj. intros j. rewrite map_perm_loop_bit by (apply kvec_pairwise; auto).
  rewrite N.bits_0, sh1_bit. cbn [orb]. assert (0 <=? j = true) as -> by lia. cbn [andb]. rewrite N.sub_0_r, nth_error_map.
  apply bool_ext. split.
  - destruct (nth_error ps (N.to_nat j)) as [q|] eqn:Eq; cbn [option_map]; [|discriminate]. intros X. apply land_nz_iff in X.
    destruct X as (b' & X & Y). rewrite sh1_bit in X. apply N.eqb_eq in X. subst b'. apply (kvec_bit _ _ _ C) in Y.
    assert (q = p) by exact (numbered_inj _ _ _ _ Y Hb). subst q. apply N.eqb_eq.
    assert (n = N.to_nat j). { apply (proj1 (NoDup_nth_error ps) ND); [apply nth_error_Some; congruence|congruence]. } lia.
  - intros X. apply N.eqb_eq in X. subst j. rewrite Nat2N.id, E. cbn [option_map]. apply land_nz_iff. exists (N.of_nat b).
    rewrite sh1_bit, N.eqb_refl. split; [reflexivity|apply kvec_bit; assumption].
Qed.

Lemma forall2_len {A B} (R : A -> B -> Prop) l l' : Forall2 R l l' -> length l = length l'.
Proof. intros F. induction F; cbn [length]; congruence. Qed.
