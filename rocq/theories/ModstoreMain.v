(** Lemmas for C85: the store follows the history. *)
From Verif Require Import Base MlsModel ModstoreModel ModstoreSpec ModstoreProofs ModstoreList.
From Coq Require Import Sorted Permutation.
Open Scope list_scope.

Lemma is_cil_spec e : is_cil e = true <-> e = [99; 105; 108].
Proof. apply str_eqb_eq. Qed.
Lemma cil_any_case : is_cil_any_case [99; 105; 108] = true.
Proof. reflexivity. Qed.

Section Main.
Context (vsort : list (list N) -> list (list N)) (VS : sorts_versions vsort).
Context (nsort : list minfo -> list minfo) (NS : sorts_names nsort).
Context (compile : list N -> list N -> option (list N)).
Notation means := (means compile).
Notation loads := (loads compile).

Lemma means_unique m c c' : means m c -> means m c' -> c = c'.
Proof. intros [[A B]|[A B]] [[C D]|[C D]]; try contradiction; congruence. Qed.

(** The files of a directory against the last installation there. *)
Definition fits (f : mfiles) (m : list N * list N) : Prop :=
  (is_cil_any_case (f_ext f) = true /\ (f_ext f = fst m \/ f_ext f = [99; 105; 108]) /\ exists c, f_cil f = Some c /\ means m c)
  \/ (is_cil_any_case (f_ext f) = false /\ f_ext f = fst m /\ f_hll f = Some (snd m) /\ forall c, f_cil f = Some c -> means m c).
Definition fits_at (k : Prop) (f : option mfiles) (m : option (list N * list N)) : Prop :=
  match f, m with
  | Some f, Some m => fits f m /\ (k -> f_ext f = fst m)
  | None, None => True
  | _, _ => False
  end.
Record rel (k : Prop) (st : mstore) (h : list mop) : Prop := {
  r_good : good st;
  r_held : forall p n, fits_at k (look st p n) (held h p n);
  r_shut : forall n, is_off st n = true <-> shut h n
}.
Lemma rel_empty k : rel k empty_store [].
Proof. constructor; [apply good_empty|intros p n; exact I|intros n; cbn; split; [discriminate|intros []]]. Qed.
Lemma rel_some k st h p n : rel k st h -> (look st p n <> None <-> held h p n <> None).
Proof. intros R. pose proof (r_held _ _ _ R p n) as F. unfold fits_at in F. destruct (look st p n), (held h p n); try contradiction; split; congruence. Qed.
Lemma rel_top k st h p n : rel k st h -> (highest st n p <-> top h n p).
Proof.
  intros R. unfold highest, top. rewrite (rel_some k st h p n R). split; intros [A B]; (split; [assumption|]); intros q Q; apply B; apply (rel_some k st h q n R); assumption.
Qed.
Lemma rel_present k st h n : rel k st h -> (present h n <-> exists p, look st p n <> None).
Proof. intros R. split; intros [p P]; exists p; apply (rel_some k st h p n R); assumption. Qed.
Lemma get_info_iff st p n : good st -> (get_info vsort st p n <> None <-> (p = 0 /\ exists q, look st q n <> None) \/ look st p n <> None).
Proof.
  intros G. destruct (N.eq_dec p 0) as [->|P].
  - pose proof (get_info_top vsort VS st n G) as T. destruct (get_info vsort st 0 n) as [i|].
    + destruct T as (_ & [L _] & _). split; [|discriminate]. intros _. left. split; [reflexivity|]. exists (i_prio i). assumption.
    + split; [congruence|]. intros [[_ [q Q]]|Q]; rewrite T in Q; congruence.
  - pose proof (fun i => get_info_at vsort st p n i G P) as T. destruct (get_info vsort st p n) as [i|].
    + destruct (proj1 (T i) eq_refl) as [L _]. split; [|discriminate]. intros _. right. assumption.
    + split; [congruence|]. intros [[Q _]|Q]; [congruence|]. specialize (proj2 (T (info_of st p n)) (conj Q eq_refl)). discriminate.
Qed.
Lemma get_info_is st p n i : good st -> get_info vsort st p n = Some i ->
  i_name i = n /\ i = info_of st (i_prio i) n /\ (p = 0 \/ i_prio i = p) /\ (p = 0 -> highest st n (i_prio i)).
Proof.
  intros G E. destruct (N.eq_dec p 0) as [->|P].
  - pose proof (get_info_top vsort VS st n G) as T. rewrite E in T. tauto.
  - apply get_info_at in E; [|assumption|assumption]. destruct E as [_ ->]. cbn. repeat split; auto. intros X; contradiction.
Qed.
Lemma fits_at_weaken k f m : fits_at k f m -> fits_at k f m. Proof. auto. Qed.

(** semanage_module_set_enabled *)
Lemma set_enabled_is st p n e : good st ->
  match set_enabled vsort st p n e with
  | (r, st') => ((r = 0%Z <-> good_status e /\ get_info vsort st p n <> None) /\ (r <> 0%Z -> st' = st)
                /\ good st' /\ (forall q m, look st' q m = look st q m)
                /\ (r = 0%Z -> forall m, is_off st' m = true <-> (n = m /\ (e = 0%Z \/ (e = (-1)%Z /\ is_off st m = true))) \/ (n <> m /\ is_off st m = true)))
  end.
Proof.
  intros G. unfold set_enabled. destruct (valid_name n) eqn:V; cbn [negb].
  - destruct (valid_enabled e) eqn:E; cbn [negb].
    + apply valid_enabled_spec in E. destruct (get_info vsort st p n) as [i|] eqn:I.
      * apply get_info_is in I; [|assumption]. destruct I as (-> & _).
        destruct (e =? 0)%Z eqn:E0; [|destruct (e =? 1)%Z eqn:E1].
        -- apply Z.eqb_eq in E0. repeat split; try congruence; try apply (good_off st _ G).
           ++ rewrite off_put. intros [A|A]; [left; auto|]. destruct (text_dec n m); [left; auto|right; auto].
           ++ rewrite off_put. intros [[A _]|[A B]]; auto.
        -- apply Z.eqb_eq in E1. repeat split; try congruence; try apply (good_off st _ G).
           ++ rewrite off_del. intros [A B]. right. auto.
           ++ rewrite off_del. intros [[A [B|[B _]]]|B]; [lia|lia|assumption].
        -- assert (e = (-1)%Z) by (unfold good_status in E; lia). repeat split; try congruence; try apply G.
           ++ intros A. destruct (text_dec n m); [left; auto|right; auto].
           ++ intros [[A [B|[_ B]]]|[_ B]]; [lia|assumption|assumption].
      * repeat split; try congruence; try apply G. intros [_ X]. congruence.
    + repeat split; try congruence; try apply G; try (intros X; discriminate). intros [X _]. apply valid_enabled_spec in X. congruence.
  - assert (X : get_info vsort st p n = None) by (unfold get_info; rewrite V; reflexivity). rewrite X.
    repeat split; try congruence; try apply G; try (intros Y; discriminate). intros [_ Y]. congruence.
Qed.

(** semanage_module_install_info *)
Definition installed (old : option mfiles) (ext data : list N) : mfiles :=
  if is_cil_any_case ext then mkFiles ext (match old with Some f => f_hll f | None => None end) (Some data)
  else mkFiles ext (Some data) None.
Lemma install_is st p n ext e data : good st -> good_prio p -> good_name n -> good_ext ext -> good_status e ->
  exists st', install_info vsort st p n ext e data = (0%Z, st') /\ good st'
    /\ (forall q m, look st' q m = if same_key p n q m then Some (installed (look st p n) ext data) else look st q m)
    /\ forall m, is_off st' m = true <-> (n = m /\ (e = 0%Z \/ (e = (-1)%Z /\ is_off st m = true))) \/ (n <> m /\ is_off st m = true).
Proof.
  intros G GP GN GE GS. unfold install_info.
  rewrite (proj2 (valid_prio_spec p) GP), (proj2 (valid_name_spec n) GN), (proj2 (valid_ext_spec ext) GE), (proj2 (valid_enabled_spec e) GS).
  cbn [andb negb]. unfold set_module_info.
  set (f1 := mkFiles ext _ _). set (st1 := store_put st p n f1).
  assert (G1 : good st1) by (apply good_put; assumption).
  assert (L1 : forall q m, look st1 q m = if same_key p n q m then Some f1 else look st q m) by (intros; apply look_put).
  assert (KK : same_key p n p n = true) by (apply same_key_spec; auto).
  assert (GI : get_info vsort st1 0 n <> None).
  { apply get_info_iff; [assumption|]. left. split; [reflexivity|]. exists p. rewrite L1, KK. discriminate. }
  set (e' := (if (e =? -1)%Z then _ else e)).
  assert (GS' : good_status e').
  { subst e'. destruct (e =? -1)%Z; [|assumption]. unfold good_status. destruct (get_info vsort st1 0 n) as [i|]; [destruct (i_on i)|]; auto. }
  assert (EE : (e' = 0%Z \/ (e' = (-1)%Z /\ is_off st n = true)) <-> (e = 0%Z \/ (e = (-1)%Z /\ is_off st n = true))).
  { subst e'. destruct (e =? -1)%Z eqn:E; [|tauto]. apply Z.eqb_eq in E. destruct (get_info vsort st1 0 n) as [i|] eqn:I; [|congruence].
    apply get_info_is in I; [|assumption]. destruct I as (_ & -> & _). cbn [i_on info_of].
    change (is_off st1 n) with (is_off st n). destruct (is_off st n); cbn [negb]; split; intros; try lia; intuition lia. }
  pose proof (set_enabled_is st1 0 n e' G1) as H. destruct (set_enabled vsort st1 0 n e') as [r st2].
  destruct H as (H1 & _ & G2 & L2 & O2). assert (R : r = 0%Z) by (apply H1; auto). subst r. cbn [Z.eqb negb].
  specialize (O2 eq_refl). rewrite (L2 p n), L1, KK. subst f1. cbn [f_ext f_hll f_cil].
  assert (OFF : forall (f : mfiles) m, is_off (store_put st2 p n f) m = true <-> (n = m /\ (e = 0%Z \/ (e = (-1)%Z /\ is_off st m = true))) \/ (n <> m /\ is_off st m = true)).
  { intros f m. change (is_off (store_put st2 p n f) m) with (is_off st2 m). rewrite O2. change (is_off st1 m) with (is_off st m).
    destruct (text_dec n m) as [<-|NE]; [rewrite EE|]; tauto. }
  unfold installed. destruct (is_cil_any_case ext).
  - eexists. split; [reflexivity|]. split; [apply good_put; assumption|]. split; [|apply OFF].
    intros q m. rewrite look_put. destruct (same_key p n q m) eqn:K; [|rewrite L2, L1, K; reflexivity].
    f_equal. f_equal. destruct (look st p n); reflexivity.
  - eexists. split; [reflexivity|]. split; [apply good_put; assumption|]. split; [|apply OFF].
    intros q m. rewrite look_put. destruct (same_key p n q m) eqn:K; [reflexivity|rewrite L2, L1, K; reflexivity].
Qed.
Lemma install_refused st p n ext e data : ~ (good_prio p /\ good_name n /\ good_ext ext /\ good_status e) ->
  install_info vsort st p n ext e data = (-2, st)%Z.
Proof.
  intros H. unfold install_info. destruct (valid_prio p && valid_name n && valid_ext ext && valid_enabled e) eqn:E; [|reflexivity].
  exfalso. apply H. rewrite !andb_true_iff, valid_prio_spec, valid_name_spec, valid_ext_spec, valid_enabled_spec in E. tauto.
Qed.
Lemma fits_installed k old ext data : fits_at k (Some (installed old ext data)) (Some (ext, data)).
Proof.
  unfold installed. destruct (is_cil_any_case ext) eqn:C; split; try reflexivity.
  - left. cbn. split; [assumption|]. split; [left; reflexivity|]. exists data. split; [reflexivity|]. left. split; [apply any_case_spec; assumption|reflexivity].
  - right. cbn. split; [assumption|]. split; [reflexivity|]. split; [reflexivity|]. intros c X. discriminate.
Qed.
Lemma held_install h p n ext e data q m : held (MInstall p n ext e data :: h) q m = if same_key p n q m then Some (ext, data) else held h q m.
Proof.
  cbn. unfold same_key. destruct (N.eq_dec p q) as [->|P]; [rewrite N.eqb_refl|replace (p =? q) with false by lia; reflexivity].
  destruct (text_dec n m) as [->|M]; [rewrite str_eqb_refl; reflexivity|]. apply str_eqb_neq in M. rewrite M. reflexivity.
Qed.
Lemma held_remove h p n q m : held (MRemove p n :: h) q m = if same_key p n q m then None else held h q m.
Proof.
  cbn. unfold same_key. destruct (N.eq_dec p q) as [->|P]; [rewrite N.eqb_refl|replace (p =? q) with false by lia; reflexivity].
  destruct (text_dec n m) as [->|M]; [rewrite str_eqb_refl; reflexivity|]. apply str_eqb_neq in M. rewrite M. reflexivity.
Qed.
Lemma step_install (k : Prop) st h p n ext e data : rel k st h ->
  match install_info vsort st p n ext e data with
  | (r, st') => (r = 0%Z <-> accepted compile h (MInstall p n ext e data))
      /\ rel k st' (if (r =? 0)%Z then MInstall p n ext e data :: h else h)
  end.
Proof.
  intros R. destruct (valid_prio p && valid_name n && valid_ext ext && valid_enabled e) eqn:V.
  - rewrite !andb_true_iff, valid_prio_spec, valid_name_spec, valid_ext_spec, valid_enabled_spec in V. destruct V as [[[A B] C] D].
    destruct (install_is st p n ext e data (r_good _ _ _ R) A B C D) as (st' & -> & G & L & O). split; [cbn; tauto|].
    cbn [Z.eqb]. constructor; [assumption| |].
    + intros q m. rewrite L, held_install. destruct (same_key p n q m); [apply fits_installed|apply R].
    + intros m. rewrite O. cbn [shut]. rewrite (r_shut _ _ _ R m). tauto.
  - assert (X : ~ (good_prio p /\ good_name n /\ good_ext ext /\ good_status e)).
    { rewrite <- valid_prio_spec, <- valid_name_spec, <- valid_ext_spec, <- valid_enabled_spec. intros (A & B & C & D). rewrite A, B, C, D in V. discriminate. }
    rewrite install_refused by assumption. split; [|assumption]. split; [discriminate|contradiction].
Qed.
Lemma step_enable (k : Prop) st h p n e : rel k st h ->
  match set_enabled vsort st p n e with
  | (r, st') => (r = 0%Z <-> accepted compile h (MEnable p n e)) /\ rel k st' (if (r =? 0)%Z then MEnable p n e :: h else h)
  end.
Proof.
  intros R. pose proof (set_enabled_is st p n e (r_good _ _ _ R)) as H. destruct (set_enabled vsort st p n e) as [r st'].
  destruct H as (H1 & H2 & G & L & O). split.
  - rewrite H1. cbn [accepted]. rewrite (get_info_iff st p n (r_good _ _ _ R)), (rel_some k st h p n R), <- (rel_present k st h n R). tauto.
  - destruct (r =? 0)%Z eqn:E.
    + apply Z.eqb_eq in E. constructor; [assumption| |].
      * intros q m. rewrite L. apply R.
      * intros m. rewrite (O E m). cbn [shut]. rewrite (r_shut _ _ _ R m). tauto.
    + apply Z.eqb_neq in E. rewrite (H2 E). assumption.
Qed.
Lemma step_remove (k : Prop) st h p n : rel k st h ->
  match remove_key vsort st p n with
  | (r, st') => (r = 0%Z <-> accepted compile h (MRemove p n)) /\ rel k st' (if (r =? 0)%Z then MRemove p n :: h else h)
  end.
Proof.
  intros R. cbn [accepted]. pose proof (rel_some k st h p n R) as EQ. unfold remove_key.
  destruct (look st p n) as [f|] eqn:L.
  - destruct (look_valid _ _ _ _ (r_good _ _ _ R) L) as (A & B & _). rewrite (proj2 (valid_prio_spec p) A), (proj2 (valid_name_spec n) B). cbn [negb].
    assert (G1 : good (store_del st p n)) by (apply good_del, R).
    assert (HL : forall q m, fits_at k (look (store_del st p n) q m) (held (MRemove p n :: h) q m)).
    { intros q m. rewrite look_del, held_remove. destruct (same_key p n q m); [exact I|apply R]. }
    assert (PR : present (MRemove p n :: h) n <-> exists q, look (store_del st p n) q n <> None).
    { split; intros [q Q]; exists q; specialize (HL q n); unfold fits_at in HL; destruct (look (store_del st p n) q n), (held (MRemove p n :: h) q n); try contradiction; congruence. }
    pose proof (get_info_top vsort VS (store_del st p n) n G1) as T.
    destruct (get_info vsort (store_del st p n) 0 n) as [i|].
    + split; [split; [intros _; apply EQ; discriminate|reflexivity]|]. cbn [Z.eqb]. constructor; [assumption|assumption|].
      intros m. change (is_off (store_del st p n) m) with (is_off st m). cbn [shut]. rewrite (r_shut _ _ _ R m). split; [|tauto].
      intros S. split; [assumption|]. intros <-. apply PR. exists (i_prio i). apply T.
    + split; [split; [intros _; apply EQ; discriminate|reflexivity]|]. cbn [Z.eqb]. constructor; [apply good_off; assumption|assumption|].
      intros m. rewrite off_del. change (is_off (store_del st p n) m) with (is_off st m). cbn [shut]. rewrite (r_shut _ _ _ R m). split.
      * intros [NE S]. split; [assumption|]. intros E. contradiction.
      * intros [S P]. split; [|assumption]. intros <-. specialize (P eq_refl). apply PR in P. destruct P as [q Q]. rewrite T in Q. congruence.
  - destruct (valid_prio p); cbn [negb]; [destruct (valid_name n); cbn [negb]|]; (split; [split; [discriminate|intros X; apply EQ in X; congruence]|assumption]).
Qed.

(** Compiling *)
Lemma compile_module_is (k : Prop) rm st h i f : rel k st h -> (k -> rm = false) -> look st (i_prio i) (i_name i) = Some f -> i_ext i = f_ext f ->
  match compile_module compile rm st i with
  | Some st' => rel k st' h /\ (forall q m, same_key (i_prio i) (i_name i) q m = false -> look st' q m = look st q m)
      /\ exists f' m c, look st' (i_prio i) (i_name i) = Some f' /\ held h (i_prio i) (i_name i) = Some m /\ f_cil f' = Some c /\ means m c
         /\ (rm = false -> f_ext f' = f_ext f)
  | None => forall m c, held h (i_prio i) (i_name i) = Some m -> ~ means m c
  end.
Proof.
  intros R KR L E. unfold compile_module. rewrite E, L. pose proof (r_held _ _ _ R (i_prio i) (i_name i)) as F. rewrite L in F.
  destruct (held h (i_prio i) (i_name i)) as [m|] eqn:H; [|destruct F]. destruct F as [[F|F] K].
  - destruct F as (C & D & c & FC & M). rewrite C. split; [assumption|]. split; [auto|]. exists f, m, c. auto.
  - destruct F as (C & D & FH & FC). rewrite C, FH. assert (NC : ~ says_cil (fst m)) by (rewrite <- D, <- any_case_spec, C; discriminate).
    rewrite D in *. destruct (compile (fst m) (snd m)) as [c|] eqn:CO.
    + destruct (look_valid _ _ _ _ (r_good _ _ _ R) L) as (GP & GN & _).
      assert (ME : means m c) by (right; auto).
      set (g := if rm then mkFiles [99; 105; 108] None (Some c) else mkFiles (fst m) (Some (snd m)) (Some c)).
      assert (Q : (if rm then Some (store_put st (i_prio i) (i_name i) (mkFiles [99; 105; 108] None (Some c)))
                   else Some (store_put st (i_prio i) (i_name i) (mkFiles (fst m) (Some (snd m)) (Some c)))) = Some (store_put st (i_prio i) (i_name i) g)).
      { subst g. destruct rm; reflexivity. }
      rewrite Q. split; [|split].
      * constructor; [apply good_put; [apply R|assumption|assumption]| |].
        -- intros q n. rewrite look_put. destruct (same_key (i_prio i) (i_name i) q n) eqn:SK; [|apply R].
           apply same_key_spec in SK. destruct SK as [<- <-]. rewrite H. subst g. destruct rm; cbn.
           ++ split; [|intros X; specialize (KR X); discriminate]. left. split; [reflexivity|]. split; [right; reflexivity|]. exists c. auto.
           ++ split; [|reflexivity]. right. cbn. split; [assumption|]. split; [reflexivity|]. split; [reflexivity|]. intros c' X. injection X as <-. assumption.
        -- intros n. apply R.
      * intros q n SK. rewrite look_put, SK. reflexivity.
      * exists g, m, c. rewrite look_put. replace (same_key (i_prio i) (i_name i) (i_prio i) (i_name i)) with true by (symmetry; apply same_key_spec; auto).
        subst g. destruct rm; cbn; repeat split; auto; try discriminate.
    + intros m' c X ME. injection X as <-. destruct ME as [[A _]|[_ A]]; [contradiction|congruence].
Qed.
Lemma compile_modules_is (k : Prop) rm ign h : (k -> rm = false) -> forall l st, rel k st h -> NoDup (map i_name l) ->
  (forall i, In i l -> exists f, look st (i_prio i) (i_name i) = Some f /\ i_ext i = f_ext f) ->
  match compile_modules compile rm ign st l with
  | (ok, st') => rel k st' h
      /\ (ok = true -> forall i, In i l -> exists m c, held h (i_prio i) (i_name i) = Some m /\ cil_at st' (i_prio i) (i_name i) = Some c /\ means m c)
      /\ (ok = false -> exists i, In i l /\ forall m c, held h (i_prio i) (i_name i) = Some m -> ~ means m c)
      /\ forall q m, ~ In m (map i_name l) -> look st' q m = look st q m
  end.
Proof.
  intros KR. induction l as [|i l IH]; intros st R ND A.
  - cbn. split; [assumption|]. split; [intros _ i []|]. split; [discriminate|reflexivity].
  - cbn [compile_modules]. destruct (A i (or_introl eq_refl)) as (f & L & E). cbn in ND. inversion ND as [|? ? NI ND']; subst.
    assert (STEP : forall st1, rel k st1 h -> (forall q m, same_key (i_prio i) (i_name i) q m = false -> look st1 q m = look st q m) ->
      (exists m c, held h (i_prio i) (i_name i) = Some m /\ cil_at st1 (i_prio i) (i_name i) = Some c /\ means m c) ->
      match compile_modules compile rm ign st1 l with
      | (ok, st') => rel k st' h
          /\ (ok = true -> forall j, In j (i :: l) -> exists m c, held h (i_prio j) (i_name j) = Some m /\ cil_at st' (i_prio j) (i_name j) = Some c /\ means m c)
          /\ (ok = false -> exists j, In j (i :: l) /\ forall m c, held h (i_prio j) (i_name j) = Some m -> ~ means m c)
          /\ forall q m, ~ In m (map i_name (i :: l)) -> look st' q m = look st q m
      end).
    { intros st1 R1 S1 (m & c & H & C & M).
      assert (A1 : forall j, In j l -> exists f, look st1 (i_prio j) (i_name j) = Some f /\ i_ext j = f_ext f).
      { intros j J. rewrite S1; [apply A; right; assumption|]. apply not_true_iff_false. intros X. apply same_key_spec in X. destruct X as [_ X].
        apply NI. rewrite X. apply in_map. assumption. }
      specialize (IH st1 R1 ND' A1). destruct (compile_modules compile rm ign st1 l) as [ok st']. destruct IH as (I1 & I2 & I3 & I4).
      split; [assumption|]. split; [|split].
      - intros OK j [<-|J]; [|auto]. exists m, c. unfold cil_at in *. rewrite I4 by assumption. auto.
      - intros OK. destruct (I3 OK) as (j & J & X). exists j. split; [right; assumption|assumption].
      - intros q n X. cbn in X. rewrite I4 by tauto. apply S1. apply not_true_iff_false. intros Y. apply same_key_spec in Y. destruct Y as [_ Y]. tauto. }
    destruct (if ign then None else cil_at st (i_prio i) (i_name i)) as [c|] eqn:CA.
    + apply STEP; [assumption|auto|]. destruct ign; [discriminate|]. pose proof (r_held _ _ _ R (i_prio i) (i_name i)) as F. unfold cil_at in *. rewrite L in *.
      destruct (held h (i_prio i) (i_name i)) as [m|]; [|destruct F]. exists m, c. split; [reflexivity|]. split; [assumption|].
      destruct F as [[(_ & _ & c' & C & M)|(_ & _ & _ & M)] _]; [congruence|auto].
    + pose proof (compile_module_is k rm st h i f R KR L E) as H. destruct (compile_module compile rm st i) as [st1|].
      * destruct H as (R1 & S1 & f' & m & c & L1 & H & C & M & _). apply STEP; [assumption|assumption|]. exists m, c. unfold cil_at. rewrite L1. auto.
      * split; [assumption|]. split; [discriminate|]. split; [|reflexivity]. intros _. exists i. split; [left; reflexivity|assumption].
Qed.
Lemma sorted_nodup l : StronglySorted text_before l -> NoDup l.
Proof.
  intros S. induction S as [|x l S IH F]; [constructor|]. constructor; [|assumption]. intros I. rewrite Forall_forall in F. specialize (F x I).
  apply scmp_lt in F. assert (scmp x x = Eq) by (apply scmp_eq; reflexivity). congruence.
Qed.
Lemma map_all_out {A B} (f : A -> option B) l ys : map_all f l = Some ys -> forall y, In y ys <-> exists x, In x l /\ f x = Some y.
Proof.
  revert ys. induction l as [|x l IH]; intros ys E y; cbn in E.
  - injection E as <-. split; [intros []|intros (x & [] & _)].
  - destruct (f x) as [y0|] eqn:F; [|discriminate]. destruct (map_all f l) as [ys0|]; [|discriminate]. injection E as <-. cbn. rewrite (IH ys0 eq_refl). split.
    + intros [<-|(z & Z & E)]; [exists x; auto|exists z; auto].
    + intros (z & [<-|Z] & E); [left; congruence|right; exists z; auto].
Qed.
Lemma step_rebuild (k : Prop) rm ign st h : rel k st h -> (k -> rm = false) ->
  match rebuild vsort nsort compile rm ign st with
  | (r, st') => rel k st' h /\ (r <> None <-> accepted compile h (MRebuild rm ign)) /\ forall l, r = Some l -> loads h l
  end.
Proof.
  intros R KR. unfold rebuild. destruct (active_is vsort VS nsort NS st (r_good _ _ _ R)) as (l & -> & AI & SO).
  assert (A : forall i, In i l -> exists f, look st (i_prio i) (i_name i) = Some f /\ i_ext i = f_ext f).
  { intros i I. apply AI in I. destruct I as ([L _] & _ & E). destruct (look st (i_prio i) (i_name i)) as [f|] eqn:X; [|congruence].
    exists f. split; [reflexivity|]. rewrite E. cbn. rewrite X. reflexivity. }
  assert (AH : forall i, In i l -> top h (i_name i) (i_prio i) /\ ~ shut h (i_name i)).
  { intros i I. apply AI in I. destruct I as (T & O & _). split; [apply (rel_top k st h _ _ R); assumption|]. rewrite <- (r_shut _ _ _ R), O. discriminate. }
  assert (HA : forall n p, top h n p -> ~ shut h n -> exists i, In i l /\ i_name i = n /\ i_prio i = p).
  { intros n p T S. exists (info_of st p n). split; [|split; reflexivity]. apply AI. cbn. split; [apply (rel_top k st h _ _ R); assumption|]. split; [|reflexivity].
    apply not_true_iff_false. intros X. apply S. apply (r_shut _ _ _ R). assumption. }
  pose proof (compile_modules_is k rm ign h KR l st R (sorted_nodup _ SO) A) as H. destruct (compile_modules compile rm ign st l) as [ok st'].
  destruct H as (R' & HO & HF & _). destruct ok.
  - split; [assumption|]. specialize (HO eq_refl).
    assert (MA : exists ys, map_all (fun i => option_map (pair (i_name i)) (cil_at st' (i_prio i) (i_name i))) l = Some ys /\ map fst ys = map i_name l).
    { clear - HO. induction l as [|i l IH]; [exists []; auto|]. destruct (HO i (or_introl eq_refl)) as (m & c & _ & C & _).
      destruct IH as (ys & E & F); [intros j J; apply HO; right; assumption|]. exists ((i_name i, c) :: ys). cbn. rewrite C, E. cbn. rewrite F. auto. }
    destruct MA as (ys & E & F). rewrite E. split.
    + split; [|discriminate]. intros _. cbn. intros n p m T S H. destruct (HA n p T S) as (i & I & <- & <-). destruct (HO i I) as (m' & c & H' & _ & M).
      exists c. replace m with m' by congruence. assumption.
    + intros l' X. injection X as <-. split; [|rewrite F; assumption]. intros n c. rewrite (map_all_out _ _ _ E). split.
      * intros (i & I & X). destruct (HO i I) as (m & c' & H & C & M). rewrite C in X. cbn in X. injection X as <- <-. exists (i_prio i), m. destruct (AH i I). auto.
      * intros (p & m & T & S & H & M). destruct (HA n p T S) as (i & I & <- & <-). exists i. split; [assumption|]. destruct (HO i I) as (m' & c' & H' & C & M').
        rewrite C. cbn. replace m' with m in M' by congruence. rewrite (means_unique m c c' M M'). reflexivity.
  - split; [assumption|]. split; [|discriminate]. split; [congruence|]. intros ACC. destruct (HF eq_refl) as (i & I & X). destruct (AH i I) as [T S].
    destruct (held h (i_prio i) (i_name i)) as [m|] eqn:H; [|destruct T as [T _]; congruence]. destruct (ACC _ _ _ T S H) as (c & M). exfalso. exact (X m c eq_refl M).
Qed.
(** Extraction *)
Lemma step_extract (k : Prop) rm want st h p n : rel k st h -> (k -> rm = false) ->
  match extract vsort compile rm want st p n with
  | (r, st') => rel k st' h
     /\ (want = true -> forall c, (exists e, r = Some (c, e)) <-> exists m, held h p n = Some m /\ means m c)
     /\ (k -> want = false -> forall m, held h p n = Some m -> (says_cil (fst m) -> fst m = [99; 105; 108]) -> r = Some (snd m, fst m))
     /\ (held h p n = None -> r = None)
  end.
Proof.
  intros R KR. unfold extract. pose proof (r_held _ _ _ R p n) as F. pose proof (r_good _ _ _ R) as G.
  destruct (look st p n) as [f|] eqn:L.
  - destruct (look_valid _ _ _ _ G L) as (GP & GN & _). rewrite (proj2 (valid_prio_spec p) GP), (proj2 (valid_name_spec n) GN). cbn [andb negb].
    destruct (held h p n) as [m|] eqn:H; [|destruct F]. destruct F as [F K].
    assert (P0 : p <> 0) by (unfold good_prio in GP; lia).
    assert (GI : get_info vsort st p n = Some (info_of st p n)) by (apply get_info_at; [assumption|assumption|]; rewrite L; split; [discriminate|reflexivity]).
    assert (IE : i_ext (info_of st p n) = f_ext f) by (cbn; rewrite L; reflexivity).
    rewrite GI, IE. unfold cil_at. rewrite L.
    destruct want; cbn [andb orb].
    + destruct (negb (is_cil (f_ext f)) && match f_cil f with Some _ => false | None => true end) eqn:Q.
      * pose proof (compile_module_is k rm st h (info_of st p n) f R KR L IE) as X. change (i_prio (info_of st p n)) with p in X. change (i_name (info_of st p n)) with n in X.
        destruct (compile_module compile rm st _) as [st1|].
        -- destruct X as (R1 & _ & f' & m' & c & L1 & H1 & C1 & M1 & _). rewrite L1, C1. split; [assumption|]. split; [|split; [discriminate|congruence]].
           intros _ c'. rewrite H in H1. injection H1 as <-. split.
           ++ intros (e & Y). injection Y as <- _. exists m. auto.
           ++ intros (m' & Y & M). injection Y as <-. exists (f_ext f). rewrite (means_unique m c' c M M1). reflexivity.
        -- split; [assumption|]. split; [|split; [discriminate|congruence]]. intros _ c. split; [intros (e & Y); discriminate|].
           intros (m' & Y & M). exfalso. injection Y as <-. exact (X m c H M).
      * rewrite L. destruct F as [(C & D & c & FC & M)|(C & D & FH & FC)].
        -- rewrite FC. split; [assumption|]. split; [|split; [discriminate|congruence]]. intros _ c'. split.
           ++ intros (e & Y). injection Y as <- _. exists m. auto.
           ++ intros (m' & Y & M'). injection Y as <-. exists (f_ext f). rewrite (means_unique m c' c M' M). reflexivity.
        -- destruct (f_cil f) as [c|] eqn:FF.
           ++ split; [assumption|]. split; [|split; [discriminate|congruence]]. intros _ c'. specialize (FC c eq_refl). split.
              ** intros (e & Y). injection Y as <- _. exists m. auto.
              ** intros (m' & Y & M'). injection Y as <-. exists (f_ext f). rewrite (means_unique m c' c M' FC). reflexivity.
           ++ exfalso. rewrite andb_true_r in Q. apply negb_false_iff, is_cil_spec in Q. rewrite Q in C. discriminate.
    + rewrite L. assert (Y : k -> forall m', Some m = Some m' -> (says_cil (fst m') -> fst m' = [99; 105; 108]) ->
        (if is_cil (f_ext f) then f_cil f else f_hll f) = Some (snd m') /\ f_ext f = fst m').
      { intros KK m' X CC. injection X as <-. specialize (K KK). split; [|assumption]. rewrite K. destruct F as [(C & D & c & FC & M)|(C & D & FH & FC)].
        - rewrite K in C. apply any_case_spec in C. rewrite (proj2 (is_cil_spec _) (CC C)). rewrite FC. destruct M as [[_ ->]|[M _]]; [reflexivity|contradiction].
        - destruct (is_cil (fst m)) eqn:X; [|assumption]. apply is_cil_spec in X. rewrite D, X in C. discriminate. }
      destruct (if is_cil (f_ext f) then f_cil f else f_hll f) as [d|]; (split; [assumption|]; split; [discriminate|]; split; [|congruence]);
        intros KK _ m' X CC; destruct (Y KK m' X CC) as [Y1 Y2]; [|discriminate]. injection Y1 as ->. rewrite Y2. reflexivity.
  - destruct (held h p n) as [m|] eqn:H; [destruct F|]. assert (X : forall b : bool, (if b then (@None (list N * list N), st) else (None, st)) = (None, st)) by (intros []; reflexivity).
    rewrite X. split; [assumption|]. split; [|split; [discriminate|reflexivity]]. intros _ c. split; [intros (e & Y); discriminate|]. intros (m & Y & _). discriminate.
Qed.

(** All operations *)
Definition op_keeps (o : mop) : Prop := match o with MRebuild rm _ => rm = false | MExtract rm _ _ _ => rm = false | _ => True end.
Lemma rel_skip k st h o : rel k st h -> (forall p n, held (o :: h) p n = held h p n) -> (forall n, shut (o :: h) n <-> shut h n) -> rel k st (o :: h).
Proof. intros R A B. constructor; [apply R|intros p n; rewrite A; apply R|intros n; rewrite B; apply R]. Qed.
Lemma step (k : Prop) st h o : rel k st h -> (k -> op_keeps o) ->
  match mstep vsort nsort compile st o with (ok, st') => rel k st' (if ok then o :: h else h) /\ (match o with MExtract _ _ _ _ => False | _ => True end -> (ok = true <-> accepted compile h o)) end.
Proof.
  intros R KO. destruct o as [p n ext e data|p n|p n e|rm ign|rm want p n]; cbn [mstep].
  - pose proof (step_install k st h p n ext e data R) as H. destruct (install_info vsort st p n ext e data) as [r st']. destruct H as [A B]. split; [assumption|]. intros _. rewrite Z.eqb_eq. assumption.
  - pose proof (step_remove k st h p n R) as H. destruct (remove_key vsort st p n) as [r st']. destruct H as [A B]. split; [assumption|]. intros _. rewrite Z.eqb_eq. assumption.
  - pose proof (step_enable k st h p n e R) as H. destruct (set_enabled vsort st p n e) as [r st']. destruct H as [A B]. split; [assumption|]. intros _. rewrite Z.eqb_eq. assumption.
  - pose proof (step_rebuild k rm ign st h R KO) as H. destruct (rebuild vsort nsort compile rm ign st) as [r st']. destruct H as (A & B & _). split.
    + destruct r; [apply rel_skip; [assumption|reflexivity|reflexivity]|assumption].
    + intros _. rewrite <- B. destruct r; split; congruence.
  - pose proof (step_extract k rm want st h p n R KO) as H. destruct (extract vsort compile rm want st p n) as [r st']. destruct H as (A & _). split; [|intros []].
    destruct r; [apply rel_skip; [assumption|reflexivity|reflexivity]|assumption].
Qed.
Lemma run_rel (k : Prop) ops : forall st h, rel k st h -> (k -> Forall op_keeps ops) -> match mrun vsort nsort compile st h ops with (st', h') => rel k st' h' end.
Proof.
  induction ops as [|o ops IH]; intros st h R K; [exact R|]. cbn [mrun].
  assert (K1 : k -> op_keeps o) by (intros X; specialize (K X); inversion K; assumption).
  assert (K2 : k -> Forall op_keeps ops) by (intros X; specialize (K X); inversion K; assumption).
  pose proof (step k st h o R K1) as S. destruct (mstep vsort nsort compile st o) as [ok st']. apply IH; [apply S|assumption].
Qed.
Lemma fresh (k : Prop) ops : forall st h, rel k st h -> (k -> Forall op_keeps ops) -> (forall n, shut h n -> present h n) ->
  match mrun vsort nsort compile st h ops with (st', h') => forall n, shut h' n -> present h' n end.
Proof.
  induction ops as [|o ops IH]; intros st h R K FR; [exact FR|]. cbn [mrun].
  assert (K1 : k -> op_keeps o) by (intros X; specialize (K X); inversion K; assumption).
  assert (K2 : k -> Forall op_keeps ops) by (intros X; specialize (K X); inversion K; assumption).
  pose proof (step k st h o R K1) as S. destruct (mstep vsort nsort compile st o) as [ok st']. destruct S as [R' ACC]. apply IH; [assumption|assumption|].
  destruct ok; [|assumption]. intros n. destruct o as [p m ext e data|p m|p m e|rm ign|rm want p m].
  - assert (GO : forall q, held h q n <> None -> held (MInstall p m ext e data :: h) q n <> None).
    { intros q Q. rewrite held_install. destruct (same_key p m q n); [discriminate|assumption]. }
    intros [[-> _]|[_ S]].
    + exists p. rewrite held_install. replace (same_key p n p n) with true by (symmetry; apply same_key_spec; auto). discriminate.
    + destruct (FR n S) as [q Q]. exists q. auto.
  - intros [S P]. destruct (text_dec m n) as [E|E]; [auto|]. destruct (FR n S) as [q Q]. exists q. rewrite held_remove.
    replace (same_key p m q n) with false; [assumption|]. symmetry. apply not_true_iff_false. intros X. apply same_key_spec in X. destruct X. contradiction.
  - cbn in ACC. destruct (proj1 (ACC Logic.I) eq_refl) as [_ PR]. intros [[-> _]|[_ S]]; [|exact (FR n S)].
    destruct PR as [[_ PR]|PR]; [exact PR|exists p; exact PR].
  - exact (FR n).
  - exact (FR n).
Qed.
End Main.
