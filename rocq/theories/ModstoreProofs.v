(** Lemmas for C85: names, orders, and the store as a table. *)
From Verif Require Import Base MlsModel ModstoreModel ModstoreSpec.
From Coq Require Import Sorted Permutation.
Open Scope list_scope.

Lemma str_eqb_eq a : forall b, str_eqb a b = true <-> a = b.
Proof.
  induction a as [|x a IH]; intros [|y b]; cbn; try (split; congruence).
  rewrite andb_true_iff, N.eqb_eq, IH. split; [intros [-> ->]; reflexivity|intros E; injection E as -> ->; auto].
Qed.
Lemma str_eqb_refl a : str_eqb a a = true. Proof. apply str_eqb_eq. reflexivity. Qed.
Lemma str_eqb_neq a b : str_eqb a b = false <-> a <> b.
Proof. destruct (str_eqb a b) eqn:E; split; intros H; try congruence. - apply str_eqb_eq in E. congruence. - intros ->. rewrite str_eqb_refl in E. discriminate. Qed.

(** * Names *)
Lemma is_alpha_spec c : is_alpha c = true <-> letter c.
Proof. unfold is_alpha, letter. rewrite orb_true_iff, !andb_true_iff, !N.leb_le. tauto. Qed.
Lemma is_digit_spec c : is_digit c = true <-> figure c.
Proof. unfold is_digit, figure. rewrite andb_true_iff, !N.leb_le. tauto. Qed.
Lemma valid_char_spec c : valid_char c = true <-> word_char c.
Proof. unfold valid_char, word_char. rewrite !orb_true_iff, is_alpha_spec, is_digit_spec, !N.eqb_eq. tauto. Qed.
Lemma dot_not_valid : ~ word_char 46.
Proof. unfold word_char, letter, figure. lia. Qed.
Lemma name_rest_spec k : forall s, (length s <= k)%nat -> (name_rest s = true <-> name_tail s).
Proof.
  induction k as [|k IH]; intros s L.
  - destruct s; [|cbn in L; lia]. split; [constructor|reflexivity].
  - destruct s as [|c r]; [split; [constructor|reflexivity]|]. cbn [name_rest]. cbn in L.
    destruct (valid_char c) eqn:V.
    + rewrite IH by lia. apply valid_char_spec in V. split; intros H; [constructor; assumption|].
      inversion H; subst; [assumption|]. exfalso. exact (dot_not_valid V).
    + assert (NV : ~ word_char c) by (rewrite <- valid_char_spec, V; discriminate).
      destruct (c =? 46) eqn:D.
      * apply N.eqb_eq in D. subst c. destruct r as [|c' r'].
        { split; [discriminate|]. intros H. inversion H; subst; contradiction. }
        destruct (valid_char c') eqn:V'.
        -- rewrite IH by (cbn in L; lia). apply valid_char_spec in V'. split; intros H; [constructor; assumption|].
           inversion H; subst; [contradiction|assumption].
        -- split; [discriminate|]. intros H. inversion H; subst; [contradiction|].
           match goal with X : word_char c' |- _ => apply valid_char_spec in X; congruence end.
      * split; [discriminate|]. intros H. inversion H; subst; [contradiction|]. discriminate.
Qed.
Lemma valid_name_spec s : valid_name s = true <-> good_name s.
Proof.
  unfold valid_name, good_name. destruct s as [|c r].
  - split; [discriminate|]. intros (c & r & E & _). discriminate.
  - destruct (is_alpha c) eqn:A.
    + rewrite (name_rest_spec (length r) r) by lia. apply is_alpha_spec in A. split; intros H.
      * exists c, r. auto.
      * destruct H as (c' & r' & E & _ & H). injection E as -> ->. assumption.
    + split; [discriminate|]. intros (c' & r' & E & L & _). injection E as -> ->. apply is_alpha_spec in L. congruence.
Qed.
Lemma valid_ext_spec s : valid_ext s = true <-> good_ext s.
Proof.
  unfold valid_ext, good_ext. destruct s as [|c r].
  - split; [discriminate|]. intros (c & r & E & _). discriminate.
  - destruct (is_alpha c || is_digit c) eqn:A.
    + rewrite forallb_forall, <- Forall_forall. rewrite orb_true_iff, is_alpha_spec, is_digit_spec in A.
      assert (Q : Forall (fun x => valid_char x = true) r <-> Forall word_char r).
      { split; apply Forall_impl; intros a; apply valid_char_spec. }
      rewrite Q. split; intros H.
      * exists c, r. auto.
      * destruct H as (c' & r' & E & _ & H). injection E as -> ->. assumption.
    + split; [discriminate|]. intros (c' & r' & E & L & _). injection E as -> ->.
      rewrite <- is_alpha_spec, <- is_digit_spec, <- orb_true_iff in L. congruence.
Qed.
Lemma valid_prio_spec p : valid_prio p = true <-> good_prio p.
Proof. unfold valid_prio, good_prio. rewrite andb_true_iff, !N.leb_le. tauto. Qed.
Lemma valid_enabled_spec e : valid_enabled e = true <-> good_status e.
Proof. unfold valid_enabled, good_status. rewrite !orb_true_iff, !Z.eqb_eq. tauto. Qed.
Lemma any_case_spec e : is_cil_any_case e = true <-> says_cil e.
Proof.
  unfold is_cil_any_case, says_cil. rewrite str_eqb_eq. split.
  - intros E. destruct e as [|a [|b [|c [|d r]]]]; try discriminate. cbn in E. injection E as A B C.
    exists a, b, c. unfold lower in *. repeat split.
    + destruct ((65 <=? a) && (a <=? 90)) eqn:T; lia.
    + destruct ((65 <=? b) && (b <=? 90)) eqn:T; lia.
    + destruct ((65 <=? c) && (c <=? 90)) eqn:T; lia.
  - intros (a & b & c & -> & [-> | ->] & [-> | ->] & [-> | ->]); reflexivity.
Qed.

(** * Orders *)
Lemma vlen_same d a : forall b, length a = length b -> Forall figure a -> Forall figure b -> vlen d a b = d.
Proof.
  induction a as [|x a IH]; intros [|y b] L A B; try discriminate; [reflexivity|].
  inversion A; inversion B; subst. cbn.
  repeat match goal with H : figure _ |- _ => apply is_digit_spec in H; rewrite H end. apply IH; auto.
Qed.
Lemma vclass_figure c : figure c -> vclass c = 1 \/ vclass c = 2.
Proof. intros H. unfold vclass. apply is_digit_spec in H. rewrite H. destruct (c =? 48); auto. Qed.
Lemma vers_figures a : forall st b, length a = length b -> Forall figure a -> Forall figure b -> vers st a b = scmp a b.
Proof.
  induction a as [|x a IH]; intros st [|y b] L A B; try discriminate; [reflexivity|].
  inversion A; inversion B; subst. cbn [vers scmp]. destruct (x =? y) eqn:E; [apply IH; auto|].
  unfold vresult. rewrite !vlen_same by auto.
  destruct (vclass_figure x) as [-> | ->]; [assumption| |]; (destruct (vclass_figure y) as [-> | ->]; [assumption| |]);
    cbn [N.eqb Pos.eqb andb]; destruct (st =? 0); try reflexivity; destruct (st =? 1); try reflexivity; destruct (st =? 2); reflexivity.
Qed.
Lemma pad3_digits p : p < 1000 -> p / 100 < 10 /\ (p / 10) mod 10 < 10 /\ p mod 10 < 10 /\ p = 100 * (p / 100) + 10 * ((p / 10) mod 10) + p mod 10.
Proof.
  intros H. pose proof (N.mod_lt p 10 ltac:(lia)). pose proof (N.mod_lt (p / 10) 10 ltac:(lia)).
  assert (E : p / 100 = p / 10 / 10) by (rewrite N.div_div by lia; reflexivity).
  pose proof (N.div_mod p 10 ltac:(lia)). pose proof (N.div_mod (p / 10) 10 ltac:(lia)).
  rewrite E. assert (p / 10 / 10 < 10) by (apply N.div_lt_upper_bound; [lia|]; apply N.div_lt_upper_bound; lia). lia.
Qed.
Lemma pad3_figures p : p < 1000 -> three_figures (pad3 p).
Proof. intros H. destruct (pad3_digits p H) as (A & B & C & _). split; [reflexivity|]. unfold pad3. repeat constructor; unfold figure; lia. Qed.
Lemma pad3_scmp p q : p < 1000 -> q < 1000 -> scmp (pad3 p) (pad3 q) = (p ?= q).
Proof.
  intros P Q. destruct (pad3_digits p P) as (A & B & C & E). destruct (pad3_digits q Q) as (A' & B' & C' & E').
  unfold pad3. cbn [scmp].
  remember (p / 100) as a. remember ((p / 10) mod 10) as b. remember (p mod 10) as c.
  remember (q / 100) as a'. remember ((q / 10) mod 10) as b'. remember (q mod 10) as c'.
  clear Heqa Heqb Heqc Heqa' Heqb' Heqc'. symmetry.
  destruct (48 + a =? 48 + a') eqn:X; [apply N.eqb_eq in X; destruct (48 + b =? 48 + b') eqn:Y; [apply N.eqb_eq in Y; destruct (48 + c =? 48 + c') eqn:W|]|].
  - apply N.eqb_eq in W. apply N.compare_eq_iff. lia.
  - apply N.eqb_neq in W. destruct (48 + c ?= 48 + c') eqn:Z; [apply N.compare_eq_iff in Z; lia|rewrite N.compare_lt_iff in *; lia|rewrite N.compare_gt_iff in *; lia].
  - apply N.eqb_neq in Y. destruct (48 + b ?= 48 + b') eqn:Z; [apply N.compare_eq_iff in Z; lia|rewrite N.compare_lt_iff in *; lia|rewrite N.compare_gt_iff in *; lia].
  - apply N.eqb_neq in X. destruct (48 + a ?= 48 + a') eqn:Z; [apply N.compare_eq_iff in Z; lia|rewrite N.compare_lt_iff in *; lia|rewrite N.compare_gt_iff in *; lia].
Qed.
Lemma pad3_vers p q : p < 1000 -> q < 1000 -> vers 0 (pad3 p) (pad3 q) = (p ?= q).
Proof.
  intros P Q. destruct (pad3_figures p P) as [L F]. destruct (pad3_figures q Q) as [L' F'].
  rewrite vers_figures by congruence. apply pad3_scmp; assumption.
Qed.
Lemma pad3_back p : good_prio p -> prio_of_text (pad3 p) = Some p.
Proof.
  intros G. assert (p < 1000) as P by (unfold good_prio in G; lia). destruct (pad3_digits p P) as (A & B & C & E).
  unfold prio_of_text, pad3. cbn [digits_value].
  assert (D : forall k, k < 10 -> is_digit (48 + k) = true) by (intros k K; apply is_digit_spec; unfold figure; lia).
  rewrite (D _ A), (D _ B), (D _ C).
  replace (10 * (10 * (10 * 0 + (48 + p / 100 - 48)) + (48 + (p / 10) mod 10 - 48)) + (48 + p mod 10 - 48)) with p
    by (remember (p / 100) as a; remember ((p / 10) mod 10) as b; remember (p mod 10) as c; lia).
  apply valid_prio_spec in G. rewrite G. replace (p <=? 65535) with true by lia. reflexivity.
Qed.
Lemma scmp_lt a : forall b, scmp a b = Lt <-> text_before a b.
Proof.
  induction a as [|x a IH]; intros [|y b]; cbn [scmp].
  - split; [discriminate|]. intros (s & [(c & r & A & E)|(u & v & w & z & E & _)]); destruct s; discriminate.
  - split; [|reflexivity]. intros _. exists []. left. exists y, b. auto.
  - split; [discriminate|]. intros (s & [(c & r & A & E)|(u & v & w & z & _ & E & _)]); destruct s; discriminate.
  - destruct (x =? y) eqn:E.
    + apply N.eqb_eq in E. subst y. rewrite IH. split.
      * intros (s & [(c & r & -> & ->)|(u & v & w & z & -> & -> & L)]); exists (x :: s).
        -- left. exists c, r. auto.
        -- right. exists u, v, w, z. auto.
      * intros (s & [(c & r & A & B)|(u & v & w & z & A & B & L)]).
        -- exists a. left. subst s. injection B as B. exists c, r. auto.
        -- destruct s as [|k s]; cbn in A, B; injection A as A1 A2; injection B as B1 B2; [lia|]. subst.
           exists s. right. exists u, v, w, z. auto.
    + apply N.eqb_neq in E. rewrite N.compare_lt_iff. split.
      * intros L. exists []. right. exists x, y, a, b. auto.
      * intros (s & [(c & r & A & B)|(u & v & w & z & A & B & L)]).
        -- subst s. injection B as B1 B2. congruence.
        -- destruct s as [|k s]; cbn in A, B; injection A as A1 A2; injection B as B1 B2; [lia|congruence].
Qed.
Lemma scmp_eq a : forall b, scmp a b = Eq <-> a = b.
Proof.
  induction a as [|x a IH]; intros [|y b]; cbn; try (split; congruence).
  destruct (x =? y) eqn:E.
  - apply N.eqb_eq in E. subst. rewrite IH. split; congruence.
  - apply N.eqb_neq in E. rewrite N.compare_eq_iff. split; congruence.
Qed.

(** * The store as a table *)
Lemma at_key_spec p n d : at_key p n d = true <-> d_prio d = p /\ d_name d = n.
Proof. unfold at_key. rewrite andb_true_iff, N.eqb_eq, str_eqb_eq. tauto. Qed.
Definition same_key (p : N) (n : list N) (q : N) (m : list N) : bool := (p =? q) && str_eqb n m.
Lemma same_key_spec p n q m : same_key p n q m = true <-> p = q /\ n = m.
Proof. unfold same_key. rewrite andb_true_iff, N.eqb_eq, str_eqb_eq. tauto. Qed.
Lemma find_filter_other p n q m l : ~ (p = q /\ n = m) -> find (at_key q m) (filter (fun d => negb (at_key p n d)) l) = find (at_key q m) l.
Proof.
  intros K. induction l as [|d l IH]; [reflexivity|]. cbn. destruct (at_key p n d) eqn:E; cbn.
  - rewrite IH. destruct (at_key q m d) eqn:E'; [|reflexivity]. apply at_key_spec in E, E'. exfalso. apply K. destruct E, E'. split; congruence.
  - destruct (at_key q m d); [reflexivity|assumption].
Qed.
Lemma find_filter_same p n l : find (at_key p n) (filter (fun d => negb (at_key p n d)) l) = None.
Proof.
  induction l as [|d l IH]; [reflexivity|]. cbn. destruct (at_key p n d) eqn:E; cbn; [assumption|]. rewrite E. assumption.
Qed.
Lemma look_put st p n f q m : look (store_put st p n f) q m = if same_key p n q m then Some f else look st q m.
Proof.
  unfold look, store_put. cbn [s_mods find]. destruct (same_key p n q m) eqn:K.
  - apply same_key_spec in K. destruct K as [-> ->]. replace (at_key q m (mkDir q m f)) with true; [reflexivity|].
    symmetry. apply at_key_spec. auto.
  - replace (at_key q m (mkDir p n f)) with false.
    rewrite find_filter_other; [reflexivity|]. intros H. apply same_key_spec in H. congruence.
Qed.
Lemma look_del st p n q m : look (store_del st p n) q m = if same_key p n q m then None else look st q m.
Proof.
  unfold look, store_del. cbn [s_mods]. destruct (same_key p n q m) eqn:K.
  - apply same_key_spec in K. destruct K as [-> ->]. rewrite find_filter_same. reflexivity.
  - rewrite find_filter_other; [reflexivity|]. intros H. apply same_key_spec in H. congruence.
Qed.
Lemma is_off_spec st n : is_off st n = true <-> In n (s_off st).
Proof.
  unfold is_off. rewrite existsb_exists. split.
  - intros (m & I & E). apply str_eqb_eq in E. subst. assumption.
  - intros I. exists n. split; [assumption|apply str_eqb_refl].
Qed.
Lemma off_put st n m : is_off (put_off st n) m = true <-> n = m \/ is_off st m = true.
Proof. rewrite !is_off_spec. cbn. tauto. Qed.
Lemma off_del st n m : is_off (del_off st n) m = true <-> n <> m /\ is_off st m = true.
Proof.
  rewrite !is_off_spec. cbn. rewrite filter_In. rewrite negb_true_iff, str_eqb_neq. tauto.
Qed.

(** The shape of every reachable store. *)
Record good (st : mstore) : Prop := {
  g_keys : NoDup (map (fun d => (d_prio d, d_name d)) (s_mods st));
  g_mods : Forall (fun d => good_prio (d_prio d) /\ good_name (d_name d) /\ In (d_prio d) (s_dirs st)) (s_mods st);
  g_dirs : NoDup (s_dirs st);
  g_prios : Forall good_prio (s_dirs st)
}.
Lemma good_empty : good empty_store.
Proof. constructor; constructor. Qed.
Lemma nodup_filter {A B} (k : A -> B) (f : A -> bool) l : NoDup (map k l) -> NoDup (map k (filter f l)).
Proof.
  induction l as [|x l IH]; intros H; [constructor|]. cbn in H. inversion H as [|? ? N1 N2]; subst. cbn. destruct (f x); [|auto].
  cbn. constructor; [|auto]. intros I. apply N1. apply in_map_iff in I. destruct I as (y & E & I). apply filter_In in I. apply in_map_iff. exists y. tauto.
Qed.
Lemma good_put st p n f : good st -> good_prio p -> good_name n -> good (store_put st p n f).
Proof.
  intros [K M D P] GP GN. unfold store_put.
  assert (SUB : forall q, In q (s_dirs st) -> In q (if existsb (N.eqb p) (s_dirs st) then s_dirs st else p :: s_dirs st)).
  { intros q I. destruct (existsb _ _); [assumption|right; assumption]. }
  constructor; cbn [s_mods s_dirs].
  - cbn [map]. constructor; [|apply nodup_filter; assumption]. cbn. intros I. apply in_map_iff in I. destruct I as (d & E & I).
    apply filter_In in I. destruct I as [_ I]. injection E as E1 E2. apply negb_true_iff in I.
    assert (at_key p n d = true) by (apply at_key_spec; auto). congruence.
  - constructor.
    + cbn. repeat split; try apply GP; try apply GN. destruct (existsb (N.eqb p) (s_dirs st)) eqn:E; [|left; reflexivity].
      apply existsb_exists in E. destruct E as (q & I & E). apply N.eqb_eq in E. subst. assumption.
    + apply Forall_forall. intros d I. apply filter_In in I. rewrite Forall_forall in M. destruct (M d (proj1 I)) as (A & B & C). auto.
  - destruct (existsb (N.eqb p) (s_dirs st)) eqn:E; [assumption|]. constructor; [|assumption]. intros I.
    assert (existsb (N.eqb p) (s_dirs st) = true) by (apply existsb_exists; exists p; split; [assumption|apply N.eqb_refl]). congruence.
  - destruct (existsb (N.eqb p) (s_dirs st)); [assumption|]. constructor; assumption.
Qed.
Lemma good_del st p n : good st -> good (store_del st p n).
Proof.
  intros [K M D P]. constructor; cbn; [apply nodup_filter; assumption| |assumption|assumption].
  apply Forall_forall. intros d I. apply filter_In in I. rewrite Forall_forall in M. apply M, I.
Qed.
Lemma good_off st off : good st -> good (mkStore (s_dirs st) (s_mods st) off).
Proof. intros [K M D P]. constructor; assumption. Qed.
Lemma look_in st p n f : look st p n = Some f -> In (mkDir p n f) (s_mods st).
Proof.
  unfold look. destruct (find _ _) as [d|] eqn:E; [|discriminate]. intros X. cbn in X. injection X as <-.
  apply find_some in E. destruct E as [I K]. apply at_key_spec in K. destruct K as [<- <-]. destruct d; assumption.
Qed.
Lemma look_of st d : good st -> In d (s_mods st) -> look st (d_prio d) (d_name d) = Some (d_files d).
Proof.
  intros [K _ _ _] I. unfold look. induction (s_mods st) as [|e l IH]; [destruct I|]. cbn. cbn in K. inversion K as [|? ? N1 N2]; subst.
  destruct (at_key (d_prio d) (d_name d) e) eqn:E.
  - apply at_key_spec in E. destruct E as [E1 E2]. destruct I as [->|I]; [reflexivity|]. exfalso. apply N1.
    apply in_map_iff. exists d. split; [congruence|assumption].
  - destruct I as [->|I]; [|auto]. assert (at_key (d_prio d) (d_name d) d = true) by (apply at_key_spec; auto). congruence.
Qed.
Lemma look_valid st p n f : good st -> look st p n = Some f -> good_prio p /\ good_name n /\ In p (s_dirs st).
Proof. intros [_ M _ _] L. apply look_in in L. rewrite Forall_forall in M. exact (M _ L). Qed.
