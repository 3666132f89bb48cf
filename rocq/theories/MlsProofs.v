(** Proofs about the MLS model. *)
From Verif Require Import Base EbitmapModel EbitmapSpec EbitmapProofs MlsModel MlsSpec.
From Coq Require Import Sorted.
Ltac Zify.zify_post_hook ::= Z.div_mod_to_equations.

Lemma contains_member e1 e2 : valid e1 -> valid e2 ->
  (ebitmap_contains e1 e2 = true <-> forall b, member e2 b -> member e1 b).
Proof.
  intros V1 V2. rewrite (contains_spec e1 e2 V1 V2). split; intros H b; specialize (H b).
  - rewrite <- (nget_member _ b V1), <- (nget_member _ b V2). exact H.
  - rewrite (nget_member _ b V1), (nget_member _ b V2). exact H.
Qed.

Lemma dom_spec l1 l2 : valid_level l1 -> valid_level l2 ->
  (mls_level_dom l1 l2 = true <-> level_le l2 l1).
Proof.
  intros V1 V2. unfold mls_level_dom, level_le. rewrite andb_true_iff, N.leb_le.
  rewrite (contains_member _ _ V1 V2). reflexivity.
Qed.

Lemma eq_spec l1 l2 : valid_level l1 -> valid_level l2 ->
  (mls_level_eq l1 l2 = true <-> level_same l1 l2).
Proof.
  intros V1 V2. unfold mls_level_eq, level_same. rewrite andb_true_iff, N.eqb_eq.
  rewrite (cmp_spec _ _ V1 V2). reflexivity.
Qed.

Lemma level_eq_eq l1 l2 : mls_level_eq l1 l2 = true <-> l1 = l2.
Proof.
  destruct l1 as [s1 c1], l2 as [s2 c2]. unfold mls_level_eq. cbn [l_sens l_cat].
  rewrite andb_true_iff, N.eqb_eq, cmp_eq. split; [intros [-> ->]; reflexivity|intros [= -> ->]; auto].
Qed.

Lemma level_cpy_id l : mls_level_cpy l = l.
Proof. destruct l as [s c]. unfold mls_level_cpy. cbn [l_sens l_cat]. rewrite cpy_id. reflexivity. Qed.

Lemma range_cpy_id r : mls_range_cpy r = r.
Proof. destruct r as [a b]. unfold mls_range_cpy. cbn [r_low r_high]. rewrite !level_cpy_id. reflexivity. Qed.

Lemma level_le_refl l : level_le l l.
Proof. split; [lia|auto]. Qed.
Lemma level_le_trans a b c : level_le a b -> level_le b c -> level_le a c.
Proof. intros [H1 H2] [H3 H4]. split; [lia|auto]. Qed.
Lemma level_le_antisym a b : level_le a b -> level_le b a -> level_same a b.
Proof. intros [H1 H2] [H3 H4]. split; [lia|]. intro x. split; auto. Qed.

Lemma contains_range_spec r1 r2 : valid_mrange r1 -> valid_mrange r2 ->
  (mls_range_contains r1 r2 = true <->
   level_le (r_low r1) (r_low r2) /\ level_le (r_high r2) (r_high r1)).
Proof.
  intros [A1 B1] [A2 B2]. unfold mls_range_contains. rewrite andb_true_iff.
  rewrite (dom_spec _ _ A2 A1), (dom_spec _ _ B1 B2). reflexivity.
Qed.

Lemma and_member e1 e2 b : valid e1 -> valid e2 ->
  (member (ebitmap_and e1 e2) b <-> member e1 b /\ member e2 b).
Proof.
  intros V1 V2. destruct (and_spec e1 e2 V1 V2) as [V G].
  rewrite <- (nget_member _ b V), G, andb_true_iff, (nget_member _ b V1), (nget_member _ b V2). reflexivity.
Qed.

Lemma glblub_some r1 r2 r : valid_mrange r1 -> valid_mrange r2 -> range_ordered r1 -> range_ordered r2 ->
  mls_range_glblub r1 r2 = Some r ->
  valid_mrange r /\ range_ordered r /\
  (forall s, (l_sens (r_low r) <= s /\ s <= l_sens (r_high r)) <->
             (l_sens (r_low r1) <= s /\ s <= l_sens (r_high r1)) /\
             (l_sens (r_low r2) <= s /\ s <= l_sens (r_high r2))) /\
  (forall b, member (l_cat (r_low r)) b <-> member (l_cat (r_low r1)) b /\ member (l_cat (r_low r2)) b) /\
  (forall b, member (l_cat (r_high r)) b <-> member (l_cat (r_high r1)) b /\ member (l_cat (r_high r2)) b).
Proof.
  intros [A1 B1] [A2 B2] [O1 P1] [O2 P2]. unfold mls_range_glblub.
  destruct (N.ltb_spec (l_sens (r_high r1)) (l_sens (r_low r2))); [discriminate|].
  destruct (N.ltb_spec (l_sens (r_high r2)) (l_sens (r_low r1))); [discriminate|].
  cbn [orb]. intros [= <-]. cbn [r_low r_high l_sens l_cat].
  split; [split; apply and_spec; assumption|]. split.
  { split; cbn [r_low r_high l_sens l_cat]; [lia|]. intro b.
    rewrite (and_member _ _ b A1 A2), (and_member _ _ b B1 B2). intros [X Y]. auto. }
  split; [intro s; lia|]. split; intro b; apply and_member; assumption.
Qed.

Lemma glblub_none r1 r2 :
  (mls_range_glblub r1 r2 = None <->
   l_sens (r_high r1) < l_sens (r_low r2) \/ l_sens (r_high r2) < l_sens (r_low r1)).
Proof.
  unfold mls_range_glblub.
  destruct (N.ltb_spec (l_sens (r_high r1)) (l_sens (r_low r2)));
  destruct (N.ltb_spec (l_sens (r_high r2)) (l_sens (r_low r1))); cbn [orb]; split; intros; auto; try discriminate; lia.
Qed.

(** ** validity *)

Lemma get_bit_valid e b : valid e -> (ebitmap_get_bit e b = true <-> member e b).
Proof. apply get_bit_member. Qed.

Lemma cats_ok_spec p assoc cats : valid assoc -> valid cats ->
  (cats_ok p assoc cats = true <-> forall b, member cats b -> b <= p_ncats p /\ member assoc b).
Proof.
  intros Va Vc. unfold cats_ok. destruct (positive_bits_correct cats Vc) as (l & -> & _ & Hl).
  rewrite forallb_forall. split; intros H b Hb.
  - apply Hl in Hb. apply H in Hb. apply andb_prop in Hb as [H1 H2].
    apply negb_true_iff in H1. apply N.ltb_ge in H1. rewrite (get_bit_member _ _ Va) in H2. auto.
  - apply Hl in Hb. apply H in Hb as [H1 H2]. apply andb_true_iff.
    rewrite (get_bit_member _ _ Va). split; [|exact H2]. apply negb_true_iff. apply N.ltb_ge. exact H1.
Qed.

Lemma level_ok_spec p l : policy_canonical p -> valid_level l ->
  (level_ok p l = true <-> level_permitted p l).
Proof.
  intros (PC & _ & _) Vl. unfold level_ok, level_permitted.
  destruct (N.eqb_spec (l_sens l) 0); cbn [orb]; [split; [discriminate|lia]|].
  destruct (N.ltb_spec (p_nlevels p) (l_sens l)); [split; [discriminate|lia]|].
  destruct (p_sens_name p (l_sens l)) as [nm|] eqn:En.
  2:{ split; [discriminate|]. intros (_ & _ & nm & ld & E & _). discriminate. }
  destruct (p_level_find p nm) as [ld|] eqn:El.
  2:{ split; [discriminate|]. intros (_ & _ & nm' & ld & [= <-] & E & _). congruence. }
  rewrite (cats_ok_spec p _ _ (PC _ _ El) Vl). split.
  - intros H5. split; [lia|]. split; [lia|]. exists nm, ld. auto.
  - intros (_ & _ & nm' & ld' & [= <-] & E & H'). rewrite El in E. injection E as <-. exact H'.
Qed.

Lemma mls_isvalid_spec p c : policy_canonical p -> valid_mrange (c_range c) ->
  1 <= c_user c -> c_user c <= p_nusers p ->
  (mls_context_isvalid p c = true <->
   (p_mls p = true ->
     range_ordered (c_range c) /\
     level_permitted p (r_low (c_range c)) /\ level_permitted p (r_high (c_range c)) /\
     (c_role c <> 1 ->
        exists roles rng, p_user_struct p (c_user c) = Some (roles, rng) /\
          level_le (r_low rng) (r_low (c_range c)) /\ level_le (r_high (c_range c)) (r_high rng)))).
Proof.
  intros PC [Vl Vh] Hu1 Hu2. unfold mls_context_isvalid.
  destruct (p_mls p); cbn [negb]; [|split; [discriminate|reflexivity]].
  destruct (mls_level_dom (r_high (c_range c)) (r_low (c_range c))) eqn:Ed; cbn [negb].
  2:{ split; [discriminate|]. intros H. destruct (H eq_refl) as (Ho & _).
      apply (dom_spec _ _ Vh Vl) in Ho. congruence. }
  apply (dom_spec _ _ Vh Vl) in Ed.
  destruct (level_ok p (r_low (c_range c))) eqn:E1; cbn [andb negb].
  2:{ split; [discriminate|]. intros H. destruct (H eq_refl) as (_ & H1 & _).
      apply (level_ok_spec p _ PC Vl) in H1. congruence. }
  destruct (level_ok p (r_high (c_range c))) eqn:E2; cbn [andb negb].
  2:{ split; [discriminate|]. intros H. destruct (H eq_refl) as (_ & _ & H1 & _).
      apply (level_ok_spec p _ PC Vh) in H1. congruence. }
  apply (level_ok_spec p _ PC Vl) in E1. apply (level_ok_spec p _ PC Vh) in E2.
  unfold OBJECT_R_VAL. destruct (N.eqb_spec (c_role c) 1) as [Hr|Hr].
  { split; [|reflexivity]. intros _ _. repeat split; auto; try apply Ed; try apply E1; try apply E2; congruence. }
  destruct (N.eqb_spec (c_user c) 0); [lia|]. destruct (N.ltb_spec (p_nusers p) (c_user c)); [lia|].
  cbn [orb]. destruct (p_user_struct p (c_user c)) as [[roles rng]|] eqn:Eu.
  - destruct PC as (_ & PU & _). destruct (PU _ _ _ Eu) as [_ Vr].
    rewrite (contains_range_spec rng (c_range c) Vr (conj Vl Vh)). split.
    + intros [H1 H2] _. split; [exact Ed|]. split; [exact E1|]. split; [exact E2|].
      intros _. exists roles, rng. auto.
    + intros H0. destruct (H0 eq_refl) as (_ & _ & _ & H1). destruct (H1 Hr) as (? & ? & [= <- <-] & X).
      exact X.
  - split; [discriminate|]. intros H0. destruct (H0 eq_refl) as (_ & _ & _ & H1).
    destruct (H1 Hr) as (? & ? & X & _). discriminate.
Qed.

Lemma context_is_valid_spec p c : policy_canonical p -> valid_mrange (c_range c) ->
  (context_is_valid p c = true <-> context_authorised p c).
Proof.
  intros PC Vr. unfold context_is_valid, context_authorised.
  destruct (N.eqb_spec (c_role c) 0); cbn [orb]; [split; [discriminate|lia]|].
  destruct (N.ltb_spec (p_nroles p) (c_role c)); [split; [discriminate|lia]|].
  destruct (N.eqb_spec (c_user c) 0); cbn [orb]; [split; [discriminate|lia]|].
  destruct (N.ltb_spec (p_nusers p) (c_user c)); [split; [discriminate|lia]|].
  destruct (N.eqb_spec (c_type c) 0); cbn [orb]; [split; [discriminate|lia]|].
  destruct (N.ltb_spec (p_ntypes p) (c_type c)); [split; [discriminate|lia]|].
  unfold OBJECT_R_VAL. pose proof PC as (_ & PU & PR).
  destruct (N.eqb_spec (c_role c) 1) as [Hr|Hr]; cbn [negb andb].
  - rewrite (mls_isvalid_spec p c PC Vr) by lia. split.
    + intros H5. split; [lia|]. split; [lia|]. split; [lia|]. split; [lia|]. exact H5.
    + intros (_ & _ & _ & _ & H5). exact H5.
  - destruct (p_role_struct p (c_role c)) as [types|] eqn:Er; cbn [negb andb].
    2:{ split; [discriminate|]. intros (_ & _ & _ & H5 & _). destruct (H5 Hr) as [(? & E & _) _]. discriminate. }
    destruct (ebitmap_get_bit types (c_type c - 1)) eqn:Et; cbn [negb andb].
    2:{ split; [discriminate|]. intros (_ & _ & _ & H5 & _). destruct (H5 Hr) as [(? & [= <-] & Hm) _].
        apply (get_bit_member _ _ (PR _ _ Er)) in Hm. congruence. }
    apply (get_bit_member _ _ (PR _ _ Er)) in Et.
    destruct (p_user_struct p (c_user c)) as [[roles rng]|] eqn:Eu; cbn [negb andb].
    2:{ split; [discriminate|]. intros (_ & _ & _ & H5 & _). destruct (H5 Hr) as [_ (? & ? & E & _)]. discriminate. }
    destruct (PU _ _ _ Eu) as [Vro _].
    destruct (ebitmap_get_bit roles (c_role c - 1)) eqn:Ero; cbn [negb andb].
    2:{ split; [discriminate|]. intros (_ & _ & _ & H5 & _). destruct (H5 Hr) as [_ (? & ? & [= <- <-] & Hm)].
        apply (get_bit_member _ _ Vro) in Hm. congruence. }
    apply (get_bit_member _ _ Vro) in Ero.
    rewrite (mls_isvalid_spec p c PC Vr) by lia. rewrite Eu. split.
    + intros H5. split; [lia|]. split; [lia|]. split; [lia|]. split; [|exact H5].
      intros _. split; [exists types; auto|exists roles, rng; auto].
    + intros (_ & _ & _ & _ & H5). exact H5.
Qed.

(** ** printed length *)

Lemma cats_len_spec p vis : forall range w last,
  cats_len p vis range last = omap (fun s => N.of_nat (length s)) (cats_to_str p vis range w last).
Proof.
  induction vis as [|[i v] t IH]; intros range w last; cbn [cats_len cats_to_str].
  - destruct (1 <? range); [|reflexivity]. destruct (p_cat_name p last); [|reflexivity].
    cbn [omap length]. f_equal. lia.
  - destruct v.
    + destruct (N.eqb_spec range 0) as [->|_]; cbn [negb]; [|apply IH].
      destruct (p_cat_name p (i + 1)) as [nm|]; [|reflexivity].
      rewrite (IH (0 + 1) true last). change (0 + 1) with 1.
      destruct (cats_to_str p t 1 true last); [|reflexivity].
      cbn [omap length]. rewrite app_length. f_equal. lia.
    + destruct (1 <? range); [|apply IH].
      destruct (p_cat_name p i) as [nm|]; [|reflexivity].
      rewrite (IH 0 w last). destruct (cats_to_str p t 0 w last); [|reflexivity].
      cbn [omap length]. rewrite app_length. f_equal. lia.
Qed.

Lemma level_len_spec p l :
  level_len p l = omap (fun s => N.of_nat (length s)) (level_to_str p l).
Proof.
  unfold level_len, level_to_str. destruct (p_sens_name p (l_sens l)); [|reflexivity].
  destruct (visited_bits (l_cat l)); [|reflexivity]. rewrite (cats_len_spec p l1 0 false).
  destruct (cats_to_str p l1 0 false (ebitmap_length (l_cat l))); [|reflexivity].
  cbn [omap]. rewrite app_length. f_equal. lia.
Qed.

Lemma context_len_spec p r :
  mls_compute_context_len p r = omap (fun s => N.of_nat (length s)) (mls_sid_to_context p r).
Proof.
  unfold mls_compute_context_len, mls_sid_to_context. destruct (p_mls p); cbn [negb]; [|reflexivity].
  rewrite !level_len_spec. destruct (level_to_str p (r_low r)) as [lo|]; [|reflexivity]. cbn [omap].
  destruct (mls_level_eq (r_low r) (r_high r)); [cbn [omap length]; f_equal; lia|].
  destruct (level_to_str p (r_high r)) as [hi|]; [|reflexivity]. cbn [omap length].
  rewrite app_length. cbn [length]. f_equal. lia.
Qed.

(** ** round trip *)

(** Consecutive visited positions after a member are adjacent. *)
Fixpoint contig (vis : list (N * bool)) (last : N) : Prop :=
  match vis with
  | [] => True
  | (i, v) :: t =>
      (v = true -> match t with [] => last = i + 1 | (j, _) :: _ => j = i + 1 end) /\ contig t last
  end.

Definition getname (p : policy) (b : N) : list N :=
  match p_cat_name p (b + 1) with Some n => n | None => [] end.

(** Items of a category list: a single category or an interval. *)
Notation item := (N * option N)%type (only parsing).
Definition tok (p : policy) (it : N * option N) : list N :=
  match it with
  | (a, None) => getname p a
  | (a, Some b) => getname p a ++ ch_dot :: getname p b
  end.
Definition sepc (w : bool) : N := if w then ch_comma else ch_colon.
Fixpoint render (p : policy) (w : bool) (its : list (N * option N)) : list N :=
  match its with [] => [] | it :: t => sepc w :: tok p it ++ render p true t end.
Definition in_item (b : N) (it : N * option N) : bool :=
  match it with (a, None) => b =? a | (a, Some c) => (a <=? b) && (b <=? c) end.
Definition in_items (b : N) (its : list (N * option N)) : bool := existsb (in_item b) its.
Definition item_ok (p : policy) (it : N * option N) : Prop :=
  match it with
  | (a, None) => p_cat_name p (a + 1) <> None
  | (a, Some c) => a < c /\ p_cat_name p (a + 1) <> None /\ p_cat_name p (c + 1) <> None
  end.
Definition positive (b : N) (vis : list (N * bool)) : bool :=
  existsb (fun x : N * bool => (fst x =? b) && snd x) vis.

(** Closing an open run of [k] categories starting at [a]. *)
Definition close_items (a k : N) : list (N * option N) :=
  if k =? 1 then [(a, None)] else if k =? 2 then [(a, None); (a + 1, None)] else [(a, Some (a + k - 1))].

Lemma close_items_in a k b : 1 <= k -> in_items b (close_items a k) = (a <=? b) && (b <? a + k).
Proof.
  intros Hk. unfold close_items. destruct (N.eqb_spec k 1) as [->|]; [|destruct (N.eqb_spec k 2) as [->|]];
    unfold in_items; cbn [existsb in_item]; lia.
Qed.

Lemma close_items_ok p a k : 1 <= k -> (forall b, a <= b -> b < a + k -> p_cat_name p (b + 1) <> None) ->
  Forall (item_ok p) (close_items a k).
Proof.
  intros Hk H. unfold close_items. destruct (N.eqb_spec k 1) as [->|]; [|destruct (N.eqb_spec k 2) as [->|]].
  - constructor; [|constructor]. apply H; lia.
  - constructor; [|constructor; [|constructor]]; apply H; lia.
  - constructor; [|constructor]. repeat split; [lia| |]; apply H; lia.
Qed.

(** Text printed when the run is closed. *)
Definition close_text (p : policy) (a k : N) : list N :=
  if 1 <? k then (if 2 <? k then ch_dot else ch_comma) :: getname p (a + k - 1) else [].

Lemma close_render p a k w rest : 1 <= k ->
  sepc w :: getname p a ++ close_text p a k ++ render p true rest
  = render p w (close_items a k ++ rest).
Proof.
  intros Hk. unfold close_items, close_text.
  destruct (N.eqb_spec k 1) as [->|]; [reflexivity|].
  destruct (N.ltb_spec 1 k); [|lia].
  destruct (N.eqb_spec k 2) as [->|].
  - change (2 <? 2) with false. cbn [app render tok sepc]. replace (a + 2 - 1) with (a + 1) by lia.
    cbn [app]. reflexivity.
  - destruct (N.ltb_spec 2 k); [|lia]. cbn [app render tok]. rewrite <- app_assoc. reflexivity.
Qed.

Lemma getname_some p b : p_cat_name p (b + 1) <> None -> p_cat_name p (b + 1) = Some (getname p b).
Proof. unfold getname. destruct (p_cat_name p (b + 1)); congruence. Qed.

Lemma cats_to_str_items p last vis :
  contig vis last -> (forall b, positive b vis = true -> p_cat_name p (b + 1) <> None) ->
  (forall w, exists its, cats_to_str p vis 0 w last = Some (render p w its) /\
     Forall (item_ok p) its /\ forall b, in_items b its = positive b vis) /\
  (forall a k, 1 <= k -> match vis with [] => last = a + k | (i, _) :: _ => i = a + k end ->
     (forall b, a <= b -> b < a + k -> p_cat_name p (b + 1) <> None) ->
     exists s its, cats_to_str p vis k true last = Some s /\
       (forall w, sepc w :: getname p a ++ s = render p w its) /\
       Forall (item_ok p) its /\
       forall b, in_items b its = ((a <=? b) && (b <? a + k)) || positive b vis).
Proof.
  induction vis as [|[i v] t IH]; intros Hc Hn.
  - split.
    + intros w. exists []. cbn [cats_to_str]. change (1 <? 0) with false. split; [reflexivity|].
      split; [constructor|reflexivity].
    + intros a k Hk Hlast Hnm. cbn [cats_to_str].
      exists (close_text p a k), (close_items a k). split.
      { unfold close_text. destruct (N.ltb_spec 1 k); [|reflexivity].
        rewrite Hlast. replace (a + k) with ((a + k - 1) + 1) at 1 by lia.
        rewrite getname_some; [reflexivity|]. apply Hnm; lia. }
      split; [|split].
      { intro w. pose proof (close_render p a k w [] Hk) as H. cbn [render] in H.
        rewrite !app_nil_r in H. exact H. }
      { apply close_items_ok; assumption. }
      { intro b. rewrite close_items_in by exact Hk. cbn [positive existsb]. rewrite orb_false_r. reflexivity. }
  - destruct Hc as [Hadj Hc].
    assert (Hn' : forall b, positive b t = true -> p_cat_name p (b + 1) <> None).
    { intros b Hb. apply Hn. unfold positive in *. cbn [existsb]. rewrite Hb. apply orb_true_r. }
    destruct (IH Hc Hn') as [IHA IHB]. destruct v.
    + assert (Hi : p_cat_name p (i + 1) <> None).
      { apply Hn. unfold positive. cbn [existsb fst snd]. rewrite N.eqb_refl. reflexivity. }
      specialize (Hadj eq_refl). split.
      * intros w. cbn [cats_to_str]. change (negb (0 =? 0)) with false. cbn iota.
        rewrite (getname_some p i Hi).
        destruct (IHB i 1) as (s & its & Es & Hr & Hok & Hin); [lia| | |].
        { destruct t as [|[j vj] t']; lia. }
        { intros b Hb1 Hb2. assert (b = i) by lia. subst b. exact Hi. }
        rewrite Es. exists its. split; [|split; [exact Hok|]].
        { f_equal. rewrite <- Hr. reflexivity. }
        { intro b. rewrite Hin. unfold positive. cbn [existsb fst snd]. rewrite andb_true_r.
          f_equal. destruct (N.eqb_spec i b), (N.leb_spec i b), (N.ltb_spec b (i + 1)); cbn [andb]; try reflexivity; lia. }
      * intros a k Hk Hia Hnm. cbn [cats_to_str]. destruct (N.eqb_spec k 0); [lia|]. cbn [negb].
        destruct (IHB a (k + 1)) as (s & its & Es & Hr & Hok & Hin); [lia| | |].
        { destruct t as [|[j vj] t']; lia. }
        { intros b Hb1 Hb2. destruct (N.eq_dec b i) as [->|]; [exact Hi|]. apply Hnm; lia. }
        exists s, its. split; [exact Es|]. split; [exact Hr|]. split; [exact Hok|].
        intro b. rewrite Hin. unfold positive. cbn [existsb fst snd]. rewrite andb_true_r, orb_assoc.
        f_equal. destruct (N.leb_spec a b), (N.ltb_spec b (a + (k + 1))), (N.ltb_spec b (a + k)), (N.eqb_spec i b);
          cbn [andb orb]; try reflexivity; lia.
    + split.
      * intros w. cbn [cats_to_str]. change (1 <? 0) with false. cbn iota.
        destruct (IHA w) as (its & Es & Hok & Hin). exists its. split; [exact Es|]. split; [exact Hok|].
        intro b. rewrite Hin. unfold positive. cbn [existsb fst snd]. rewrite andb_false_r. reflexivity.
      * intros a k Hk Hia Hnm. cbn [cats_to_str].
        destruct (IHA true) as (its & Es & Hok & Hin).
        exists (close_text p a k ++ render p true its), (close_items a k ++ its). split; [|split; [|split]].
        { unfold close_text. rewrite Es. destruct (N.ltb_spec 1 k); [|reflexivity].
          assert (E : p_cat_name p i = Some (getname p (a + k - 1))).
          { rewrite <- getname_some by (apply Hnm; lia). f_equal. lia. }
          rewrite E. reflexivity. }
        { intro w. apply close_render. exact Hk. }
        { apply Forall_app. split; [apply close_items_ok; assumption|exact Hok]. }
        { intro b. unfold in_items in *. rewrite existsb_app. rewrite Hin.
          fold (in_items b (close_items a k)). rewrite close_items_in by exact Hk.
          unfold positive. cbn [existsb fst snd]. rewrite andb_false_r. reflexivity. }
Qed.

(** *** parsing *)

Lemma span_all f s rest : forallb f s = true ->
  match rest with [] => True | c :: _ => f c = false end ->
  span f (s ++ rest) = (s, rest).
Proof.
  intros Hs Hr. induction s as [|c s IH]; cbn [app].
  - destruct rest as [|c rest]; cbn [span]; [reflexivity|]. rewrite Hr. reflexivity.
  - cbn [forallb] in Hs. apply andb_prop in Hs as [H1 H2]. cbn [span]. rewrite H1, (IH H2). reflexivity.
Qed.

Lemma clean_sub f nm : (forall c, negb (c =? 58) && negb (c =? 45) && negb (c =? 44) && negb (c =? 46) = true -> f c = true) ->
  clean nm = true -> forallb f nm = true.
Proof.
  intros H Hc. unfold clean in Hc. rewrite forallb_forall in *. intros c Hin. apply H. apply Hc. exact Hin.
Qed.

Lemma set_range_loop_spec n : forall i e, valid e -> i + N.of_nat n <= 4294967232 ->
  exists e', set_range_loop n i e = Some e' /\ valid e' /\
    forall b, nget (e_nodes e') b = nget (e_nodes e) b || ((i <=? b) && (b <? i + N.of_nat n)).
Proof.
  induction n as [|n IH]; intros i e V Hb; cbn [set_range_loop].
  - exists e. split; [reflexivity|]. split; [exact V|]. intro b.
    destruct (N.leb_spec i b), (N.ltb_spec b (i + N.of_nat 0)); try lia; rewrite orb_false_r; reflexivity.
  - destruct (set_bit_ok e i true V) as (e1 & E1 & V1 & G1); [lia|]. rewrite E1.
    destruct (IH (i + 1) e1 V1) as (e2 & E2 & V2 & G2); [lia|].
    exists e2. split; [exact E2|]. split; [exact V2|]. intro b. rewrite G2, G1.
    destruct (N.eqb_spec b i) as [->|].
    + destruct (N.leb_spec i i); [|lia]. destruct (N.ltb_spec i (i + N.of_nat (S n))); [|lia].
      cbn [andb orb]. rewrite orb_true_r. reflexivity.
    + f_equal. destruct (N.leb_spec (i + 1) b), (N.leb_spec i b), (N.ltb_spec b (i + 1 + N.of_nat n)),
        (N.ltb_spec b (i + N.of_nat (S n))); cbn [andb]; try reflexivity; lia.
Qed.

Lemma parse_token_spec p it e : names_ok p -> item_ok p it -> valid e ->
  exists e', parse_cat_token p (tok p it) e = Some e' /\ valid e' /\
    forall b, nget (e_nodes e') b = nget (e_nodes e) b || in_item b it.
Proof.
  intros [_ NC] Hok V. destruct it as [a [c|]]; cbn [item_ok tok] in *.
  - destruct Hok as (Hac & Ha & Hc).
    destruct (NC _ _ (getname_some p a Ha)) as (Cla & Fa & _ & Ba).
    destruct (NC _ _ (getname_some p c Hc)) as (Clc & Fc & _ & Bc).
    unfold parse_cat_token, split_dot.
    rewrite (span_all _ (getname p a) (ch_dot :: getname p c)).
    + rewrite Fa. replace (a + 1 - 1) with a by lia.
      destruct (set_bit_ok e a true V) as (e1 & E1 & V1 & G1); [lia|]. rewrite E1, Fc.
      destruct (N.leb_spec (c + 1) (a + 1)); [lia|].
      destruct (set_range_loop_spec (N.to_nat (c + 1 - (a + 1))) (a + 1) e1 V1) as (e2 & E2 & V2 & G2); [lia|].
      exists e2. split; [exact E2|]. split; [exact V2|]. intro b. rewrite G2, G1. cbn [in_item].
      destruct (N.eqb_spec b a) as [->|].
      * destruct (N.leb_spec a a); [|lia]. destruct (N.leb_spec a c); [|lia]. cbn [andb orb].
        rewrite orb_true_r. reflexivity.
      * f_equal. destruct (N.leb_spec (a + 1) b), (N.leb_spec a b), (N.leb_spec b c),
          (N.ltb_spec b (a + 1 + N.of_nat (N.to_nat (c + 1 - (a + 1))))); cbn [andb]; try reflexivity; lia.
    + (apply clean_sub; [intros x Hx; unfold ch_dot; lia|exact Cla]).
    + unfold ch_dot. lia.
  - destruct (NC _ _ (getname_some p a Hok)) as (Cla & Fa & _ & Ba).
    unfold parse_cat_token, split_dot.
    pose proof (span_all (fun c => negb (c =? ch_dot)) (getname p a) []) as Hs. rewrite app_nil_r in Hs.
    rewrite Hs; [|(apply clean_sub; [intros x Hx; unfold ch_dot; lia|exact Cla])|exact I].
    rewrite Fa. replace (a + 1 - 1) with a by lia.
    destruct (set_bit_ok e a true V) as (e1 & E1 & V1 & G1); [lia|]. rewrite E1.
    exists e1. split; [reflexivity|]. split; [exact V1|]. intro b. rewrite G1. cbn [in_item].
    destruct (N.eqb_spec b a); [rewrite orb_true_r|rewrite orb_false_r]; reflexivity.
Qed.

Lemma tok_chars p it : names_ok p -> item_ok p it ->
  forallb (fun c => negb (c =? ch_comma) && negb (c =? ch_dash)) (tok p it) = true.
Proof.
  intros [_ NC] Hok. unfold ch_comma, ch_dash.
  assert (Hsub : forall x, negb (x =? 58) && negb (x =? 45) && negb (x =? 44) && negb (x =? 46) = true ->
                 negb (x =? 44) && negb (x =? 45) = true) by (intros; lia).
  destruct it as [a [c|]]; cbn [item_ok tok] in *.
  - destruct Hok as (_ & Ha & Hc).
    destruct (NC _ _ (getname_some p a Ha)) as (Cla & _). destruct (NC _ _ (getname_some p c Hc)) as (Clc & _).
    rewrite forallb_app. rewrite (clean_sub _ _ Hsub Cla). cbn [andb forallb].
    unfold ch_dot. rewrite (clean_sub _ _ Hsub Clc). reflexivity.
  - destruct (NC _ _ (getname_some p a Hok)) as (Cla & _). apply (clean_sub _ _ Hsub Cla).
Qed.

(** The end of a category list: end of string or '-'. *)
Definition tail_ok (tl : list N) : Prop := match tl with [] => True | c :: _ => c = ch_dash end.

Lemma parse_cats_spec p tl its : names_ok p -> tail_ok tl -> Forall (item_ok p) its ->
  forall it fuel e, item_ok p it -> valid e -> (length its < fuel)%nat ->
  exists e', parse_cats fuel p (tok p it ++ render p true its ++ tl) e
               = Some (fst (take_delim tl), snd (take_delim tl), e') /\ valid e' /\
    forall b, nget (e_nodes e') b = nget (e_nodes e) b || in_items b (it :: its).
Proof.
  intros Hnames Htl Hits. induction Hits as [|it2 its Hit2 Hits IH]; intros it fuel e Hit V Hf.
  - destruct fuel as [|f]; [lia|]. cbn [parse_cats render app].
    rewrite (span_all _ _ tl (tok_chars p it Hnames Hit)).
    2:{ destruct tl as [|c tl']; [exact I|]. cbn in Htl. subst c. reflexivity. }
    destruct (take_delim tl) as [d r] eqn:Ed.
    destruct (parse_token_spec p it e Hnames Hit V) as (e1 & E1 & V1 & G1). rewrite E1.
    assert (Hd : (d =? ch_comma) = false).
    { destruct tl as [|c tl']; cbn [take_delim] in Ed; injection Ed as <- <-; [reflexivity|].
      cbn in Htl. subst c. reflexivity. }
    rewrite Hd. exists e1. split; [reflexivity|]. split; [exact V1|]. intro b. rewrite G1.
    unfold in_items. cbn [existsb]. rewrite orb_false_r. reflexivity.
  - destruct fuel as [|f]; [cbn [length] in Hf; lia|]. cbn [parse_cats render sepc].
    cbn [app]. rewrite <- app_assoc.
    rewrite (span_all _ _ (ch_comma :: tok p it2 ++ render p true its ++ tl) (tok_chars p it Hnames Hit) eq_refl).
    cbn [take_delim].
    destruct (parse_token_spec p it e Hnames Hit V) as (e1 & E1 & V1 & G1). rewrite E1.
    change (ch_comma =? ch_comma) with true. cbn iota.
    destruct (IH it2 f e1 Hit2 V1) as (e2 & E2 & V2 & G2); [cbn [length] in Hf; lia|].
    exists e2. split; [exact E2|]. split; [exact V2|]. intro b. rewrite G2, G1.
    unfold in_items. cbn [existsb]. rewrite <- orb_assoc. reflexivity.
Qed.

Lemma render_length p w its : (length its <= length (render p w its))%nat.
Proof.
  revert w. induction its as [|it its IH]; intros w; cbn [render length]; [lia|].
  rewrite app_length. specialize (IH true). lia.
Qed.

(** Parsing what level_to_str printed, up to the delimiter after it. *)
Lemma parse_level_spec p l its tl nm ld :
  names_ok p -> valid_level l -> p_level_find p nm = Some ld -> l_sens ld = l_sens l ->
  Forall (item_ok p) its -> (forall b, in_items b its = nget (e_nodes (l_cat l)) b) -> tail_ok tl ->
  exists d r, take_delim (render p false its ++ tl) = (d, r) /\
    parse_level p nm d r = Some (l, fst (take_delim tl), snd (take_delim tl)).
Proof.
  intros Hn Vl Hf Hs Hok Hin Htl. destruct its as [|it its].
  - cbn [render app]. destruct (take_delim tl) as [d r] eqn:Ed. exists d, r. split; [reflexivity|].
    unfold parse_level. rewrite Hf, Hs.
    assert (Hd : (d =? ch_colon) = false).
    { destruct tl as [|c tl']; cbn [take_delim] in Ed; injection Ed as <- <-; [reflexivity|].
      cbn in Htl. subst c. reflexivity. }
    rewrite Hd. cbn [fst snd]. do 3 f_equal. destruct l as [s c]. cbn [l_sens l_cat] in *. f_equal.
    apply valid_ext; [exact valid_init|exact Vl|]. intro b. rewrite <- Hin. reflexivity.
  - cbn [render sepc app take_delim]. eexists _, _. split; [reflexivity|].
    unfold parse_level. rewrite Hf, Hs. change (ch_colon =? ch_colon) with true. cbn iota.
    inversion Hok as [|? ? Hit Hits]; subst.
    rewrite <- app_assoc.
    destruct (parse_cats_spec p tl its Hn Htl Hits it
                (S (length (tok p it ++ render p true its ++ tl))) ebitmap_init Hit valid_init) as (e & E & V & G).
    { rewrite !app_length. pose proof (render_length p true its). lia. }
    rewrite E. do 3 f_equal. destruct l as [s c]. cbn [l_sens l_cat] in *. f_equal.
    apply valid_ext; [exact V|exact Vl|]. intro b. rewrite G. cbn [nget orb e_nodes ebitmap_init].
    apply Hin.
Qed.

(** *** visited bits under the no-gap condition *)

Lemma contig_app_run s m k : forall i rest last,
  i + N.of_nat k = s + 64 -> contig rest last ->
  match rest with [] => last = s + 64 | (j, _) :: _ => (N.testbit m 63 = true -> j = s + 64) end ->
  s <= i ->
  contig (map (fun b => (b, N.testbit m (b - s))) (Nrange i k) ++ rest) last.
Proof.
  induction k as [|k IH]; intros i rest last Hi Hc Hr Hsi; [exact Hc|].
  cbn [Nrange map app contig]. split.
  - intros Hb. destruct k as [|k].
    + cbn [Nrange map app]. assert (i - s = 63) by lia. destruct rest as [|[j v] rest].
      * lia.
      * rewrite H in Hb. rewrite (Hr Hb). lia.
    + cbn [Nrange map app]. reflexivity.
  - apply IH; try assumption; lia.
Qed.

Definition vis_of (l : list (N * N)) : list (N * bool) :=
  flat_map (fun n => map (fun b => (b, N.testbit (snd n) (b - fst n))) (Nrange (fst n) 64)) l.

Lemma vis_contig l : forall lo last, valid_nodes lo l ->
  (forall b c, nget l b = true -> b mod 64 = 63 -> nget l c = true -> b < c ->
     exists d, nget l d = true /\ b < d /\ d <= b + 64) ->
  match last_start l with Some s => last = s + 64 | None => True end ->
  contig (vis_of l) last.
Proof.
  induction l as [|[s m] t IH]; intros lo last Hv Hg Hl; [exact I|].
  pose proof Hv as (A & B & C & D & E & T). unfold vis_of. cbn [flat_map fst snd]. fold (vis_of t).
  assert (Hg' : forall b c, nget t b = true -> b mod 64 = 63 -> nget t c = true -> b < c ->
     exists d, nget t d = true /\ b < d /\ d <= b + 64).
  { intros b c Hb Hm Hc Hlt.
    destruct (Hg b c (nget_tail _ _ _ Hb) Hm (nget_tail _ _ _ Hc) Hlt) as (d & Hd & H1 & H2).
    exists d. split; [|auto]. rewrite (nget_cons _ _ _ _ _ Hv) in Hd.
    destruct (N.lt_ge_cases b (s + 64)); [rewrite (nget_below _ _ _ T) in Hb by assumption; discriminate|].
    destruct (N.ltb_spec d s); [discriminate|]. destruct (N.ltb_spec d (s + 64)); [lia|exact Hd]. }
  apply contig_app_run.
  - lia.
  - apply (IH (s + 64)); [exact T|exact Hg'|].
    destruct t as [|n t']; [exact I|]. exact Hl.
  - destruct t as [|[s2 m2] t']; [cbn [last_start] in Hl; exact Hl|].
    unfold vis_of. cbn [flat_map Nrange map app fst snd]. intros Hb63.
    assert (Hb : nget ((s, m) :: (s2, m2) :: t') (s + 63) = true).
    { rewrite (nget_cons _ _ _ _ _ Hv). destruct (N.ltb_spec (s + 63) s); [lia|].
      destruct (N.ltb_spec (s + 63) (s + 64)); [|lia]. replace (s + 63 - s) with 63 by lia. exact Hb63. }
    pose proof T as (A2 & B2 & C2 & D2 & E2 & T2).
    destruct (nonzero_bit m2) as [i Hi]; [lia|].
    assert (Hi64 : i < 64). { destruct (N.lt_ge_cases i 64); [assumption|].
      rewrite m64_high in Hi by assumption. discriminate. }
    assert (Hc : nget ((s, m) :: (s2, m2) :: t') (s2 + i) = true).
    { apply nget_tail. rewrite (nget_cons _ _ _ _ _ T). destruct (N.ltb_spec (s2 + i) s2); [lia|].
      destruct (N.ltb_spec (s2 + i) (s2 + 64)); [|lia]. replace (s2 + i - s2) with i by lia. exact Hi. }
    destruct (Hg _ _ Hb ltac:(lia) Hc ltac:(lia)) as (d & Hd & H1 & H2).
    rewrite (nget_cons _ _ _ _ _ Hv) in Hd. destruct (N.ltb_spec d s); [discriminate|].
    destruct (N.ltb_spec d (s + 64)); [lia|]. rewrite (nget_cons _ _ _ _ _ T) in Hd.
    destruct (N.ltb_spec d s2); [discriminate|]. lia.
  - lia.
Qed.

Lemma positive_vis l lo b : valid_nodes lo l -> positive b (vis_of l) = nget l b.
Proof.
  intros Hv. apply bool_ext. rewrite (nget_member_aux _ _ b Hv). unfold positive, vis_of.
  rewrite existsb_exists. split.
  - intros ([i v] & Hin & Hb). apply in_flat_map in Hin as ([s m] & Hn & Hin).
    apply in_map_iff in Hin as (x & [= <- <-] & Hx). cbn [fst snd] in *.
    apply Nrange_in in Hx. change (N.of_nat 64) with 64 in Hx.
    apply andb_prop in Hb as [Hb1 Hb2]. apply N.eqb_eq in Hb1. subst x.
    exists s, m. repeat split; try assumption; lia.
  - intros (s & m & Hn & H1 & H2 & H3). exists (b, true). split.
    + apply in_flat_map. exists (s, m). split; [exact Hn|]. apply in_map_iff. exists b. cbn [fst snd].
      split; [rewrite H3; reflexivity|]. apply Nrange_in. change (N.of_nat 64) with 64. lia.
    + cbn [fst snd]. rewrite N.eqb_refl. reflexivity.
Qed.

Lemma level_to_str_items p l : names_ok p -> valid_level l -> level_named p l -> no_word_gap (l_cat l) ->
  exists nm its, level_to_str p l = Some (nm ++ render p false its) /\
    p_sens_name p (l_sens l) = Some nm /\ Forall (item_ok p) its /\
    forall b, in_items b its = nget (e_nodes (l_cat l)) b.
Proof.
  intros Hn Vl [Hs Hc] Hgap. unfold level_to_str.
  destruct (p_sens_name p (l_sens l)) as [nm|]; [|congruence].
  rewrite (visited_bits_spec _ Vl). fold (vis_of (e_nodes (l_cat l))).
  pose proof Vl as [Vn Ve].
  assert (Hcontig : contig (vis_of (e_nodes (l_cat l))) (ebitmap_length (l_cat l))).
  { apply (vis_contig _ 0); [exact Vn| |].
    - intros b c Hb Hm Hc' Hlt. rewrite (nget_member _ _ Vl) in Hb. rewrite (nget_member _ _ Vl) in Hc'.
      destruct (Hgap b c Hb Hm Hc' Hlt) as (d & Hd & X). exists d. split; [|exact X].
      apply (nget_member _ _ Vl). exact Hd.
    - unfold ebitmap_length. destruct (e_nodes (l_cat l)) as [|[s m] t]; [exact I|].
      destruct (last_start_cons_some s m t) as [s' Hs']. rewrite Hs' in *. exact Ve. }
  destruct (cats_to_str_items p _ _ Hcontig) as [HA _].
  { intros b Hb. rewrite (positive_vis _ 0 b Vn) in Hb. apply Hc. apply (nget_member _ _ Vl). exact Hb. }
  destruct (HA false) as (its & E & Hok & Hin). rewrite E. exists nm, its.
  split; [reflexivity|]. split; [reflexivity|]. split; [exact Hok|].
  intro b. rewrite Hin. apply (positive_vis _ 0 b Vn).
Qed.

Lemma render_head p its tl : tail_ok tl ->
  match render p false its ++ tl with [] => True | c :: _ => c = ch_colon \/ c = ch_dash end.
Proof.
  intros Ht. destruct its as [|it its]; cbn [render app sepc].
  - destruct tl as [|c tl]; [exact I|]. cbn in Ht. auto.
  - left. reflexivity.
Qed.

Lemma mls_roundtrip p r : names_ok p -> p_mls p = true -> valid_mrange r ->
  level_named p (r_low r) -> level_named p (r_high r) ->
  no_word_gap (l_cat (r_low r)) -> no_word_gap (l_cat (r_high r)) ->
  exists s, mls_to_string p r = Some s /\ mls_context_to_sid p s = Some r.
Proof.
  intros Hn Hmls [Vl Vh] Nl Nh Gl Gh.
  destruct (level_to_str_items p _ Hn Vl Nl Gl) as (nm & its & E & Es & Hok & Hin).
  destruct (level_to_str_items p _ Hn Vh Nh Gh) as (nm2 & its2 & E2 & Es2 & Hok2 & Hin2).
  destruct (proj1 Hn _ _ Es) as (Cl & ld & Fl & Sl). destruct (proj1 Hn _ _ Es2) as (Cl2 & ld2 & Fl2 & Sl2).
  unfold mls_to_string, mls_sid_to_context. rewrite Hmls, E, E2. cbn [negb].
  destruct (mls_level_eq (r_low r) (r_high r)) eqn:Eq.
  - eexists. split; [reflexivity|]. apply level_eq_eq in Eq.
    unfold mls_context_to_sid.
    rewrite (span_all _ nm (render p false its)).
    2:{ (apply clean_sub; [unfold ch_colon, ch_dash; intros; lia|exact Cl]). }
    2:{ pose proof (render_head p its [] I) as H. rewrite app_nil_r in H.
        destruct (render p false its); [exact I|]. unfold ch_colon, ch_dash in *. lia. }
    destruct (parse_level_spec p (r_low r) its [] nm ld Hn Vl Fl Sl Hok Hin I) as (d & rr & Ed & Ep).
    rewrite app_nil_r in Ed. rewrite Ed, Ep. cbn [take_delim fst snd].
    change (0 =? ch_dash) with false. cbn iota. rewrite level_cpy_id.
    destruct r as [lo hi]. cbn [r_low r_high] in *. subst hi. reflexivity.
  - eexists. split; [reflexivity|]. unfold mls_context_to_sid. rewrite <- app_assoc.
    rewrite (span_all _ nm (render p false its ++ ch_dash :: nm2 ++ render p false its2)).
    2:{ (apply clean_sub; [unfold ch_colon, ch_dash; intros; lia|exact Cl]). }
    2:{ pose proof (render_head p its (ch_dash :: nm2 ++ render p false its2) eq_refl) as H.
        destruct (render p false its ++ ch_dash :: nm2 ++ render p false its2); [exact I|].
        unfold ch_colon, ch_dash in *. lia. }
    destruct (parse_level_spec p (r_low r) its (ch_dash :: nm2 ++ render p false its2) nm ld Hn Vl Fl Sl Hok Hin eq_refl)
      as (d & rr & Ed & Ep).
    rewrite Ed, Ep. cbn [take_delim fst snd]. change (ch_dash =? ch_dash) with true. cbn iota.
    rewrite (span_all _ nm2 (render p false its2)).
    2:{ (apply clean_sub; [unfold ch_colon; intros; lia|exact Cl2]). }
    2:{ pose proof (render_head p its2 [] I) as H. rewrite app_nil_r in H.
        destruct its2 as [|it2 its2']; [exact I|]. reflexivity. }
    destruct (parse_level_spec p (r_high r) its2 [] nm2 ld2 Hn Vh Fl2 Sl2 Hok2 Hin2 I) as (d2 & rr2 & Ed2 & Ep2).
    rewrite app_nil_r in Ed2. rewrite Ed2, Ep2. destruct r as [lo hi]. reflexivity.
Qed.

(** ** user range *)

Lemma setup_user_range_spec fl fh ul uh ud r :
  valid_level fl -> valid_level fh -> valid_level ul -> valid_level uh -> valid_level ud ->
  level_le fl fh -> level_le ul ud -> level_le ud uh ->
  mls_setup_user_range fl fh ul uh ud = Some r ->
  level_le ul (r_low r) /\ level_le (r_high r) uh /\ level_le (r_high r) fh /\
  range_ordered r.
Proof.
  intros V1 V2 V3 V4 V5 Hf Hu1 Hu2. unfold mls_setup_user_range, mls_level_between.
  assert (D := fun a b Va Vb => dom_spec a b Va Vb).
  destruct (mls_level_dom ud fl && mls_level_dom fh ud) eqn:B1.
  - apply andb_prop in B1 as [X Y]. apply (D _ _ V5 V1) in X. apply (D _ _ V2 V5) in Y.
    destruct (mls_level_dom uh fh) eqn:B2.
    + apply (D _ _ V4 V2) in B2. intros [= <-]. cbn. repeat split; try assumption; try apply Hu1; try apply B2; try lia; auto; try apply Y.
    + destruct (mls_level_dom fh uh) eqn:B3; [|discriminate]. apply (D _ _ V2 V4) in B3.
      intros [= <-]. cbn. split; [exact Hu1|]. split; [apply level_le_refl|]. split; [exact B3|exact Hu2].
  - destruct (mls_level_dom fl ud && mls_level_dom uh fl) eqn:B1'.
    + apply andb_prop in B1' as [X Y]. apply (D _ _ V1 V5) in X. apply (D _ _ V4 V1) in Y.
      destruct (mls_level_dom uh fh) eqn:B2.
      * apply (D _ _ V4 V2) in B2. intros [= <-]. cbn.
        split; [exact (level_le_trans _ _ _ Hu1 X)|]. split; [exact B2|]. split; [apply level_le_refl|exact Hf].
      * destruct (mls_level_dom fh uh) eqn:B3; [|discriminate]. apply (D _ _ V2 V4) in B3.
        intros [= <-]. cbn. split; [exact (level_le_trans _ _ _ Hu1 X)|]. split; [apply level_le_refl|].
        split; [exact B3|exact Y].
    + destruct (mls_level_dom fh ul && mls_level_dom ud fh) eqn:B1''; [|discriminate].
      apply andb_prop in B1'' as [X Y]. apply (D _ _ V2 V3) in X. apply (D _ _ V5 V2) in Y.
      destruct (mls_level_dom uh fh) eqn:B2.
      * apply (D _ _ V4 V2) in B2. intros [= <-]. cbn.
        split; [apply level_le_refl|]. split; [exact B2|]. split; [apply level_le_refl|exact X].
      * destruct (mls_level_dom fh uh) eqn:B3; [|discriminate]. apply (D _ _ V2 V4) in B3.
        intros [= <-]. cbn. split; [apply level_le_refl|]. split; [apply level_le_refl|].
        split; [exact B3|exact (level_le_trans _ _ _ Hu1 Hu2)].
Qed.
