(** Proofs about context strings. *)
From Verif Require Import Base EbitmapModel EbitmapSpec EbitmapProofs MlsModel MlsSpec MlsProofs
  ContextModel ContextSpec.
Ltac Zify.zify_post_hook ::= Z.div_mod_to_equations.

Lemma cstr_eq s : cstr s = c_string s.
Proof. induction s as [|[|p] t IH]; cbn; [reflexivity..|]. rewrite IH. reflexivity. Qed.

Lemma str_eqb_eq a b : str_eqb a b = true <-> a = b.
Proof.
  revert b. induction a as [|x a IH]; intros [|y b]; cbn [str_eqb]; try (split; [discriminate|discriminate]).
  - split; reflexivity.
  - rewrite andb_true_iff, N.eqb_eq, IH. split; [intros [-> ->]; reflexivity|intros [= -> ->]; auto].
Qed.

Lemma cstr_id s : ~ In 0 s -> cstr s = s.
Proof.
  induction s as [|c s IH]; intros H; [reflexivity|]. cbn [cstr].
  destruct (N.eqb_spec c 0); [exfalso; apply H; left; auto|]. f_equal. apply IH. intro. apply H. right. assumption.
Qed.

Lemma no58_forallb a : ~ In 58 a -> forallb (fun c => negb (c =? ch_colon)) a = true.
Proof.
  intros H. apply forallb_forall. intros x Hx. unfold ch_colon. destruct (N.eqb_spec x 58); [|reflexivity].
  subst. contradiction.
Qed.

Lemma split_colon_app a r : ~ In 58 a -> split_colon (a ++ 58 :: r) = Some (a, r).
Proof.
  intros H. unfold split_colon. rewrite (span_all _ a (58 :: r) (no58_forallb a H) eq_refl). reflexivity.
Qed.

Lemma split_colon_none a : ~ In 58 a -> split_colon a = None.
Proof.
  intros H. unfold split_colon. pose proof (span_all _ a [] (no58_forallb a H) I) as E.
  rewrite app_nil_r in E. rewrite E. reflexivity.
Qed.

Lemma span_spec f s a r : span f s = (a, r) -> s = a ++ r /\ forallb f a = true /\
  match r with [] => True | c :: _ => f c = false end.
Proof.
  revert a r. induction s as [|c s IH]; intros a r; cbn [span].
  - intros [= <- <-]. auto.
  - destruct (f c) eqn:E.
    + destruct (span f s) as [a' r'] eqn:Es. intros [= <- <-]. destruct (IH _ _ eq_refl) as (-> & H & H').
      cbn [forallb app]. rewrite E, H. auto.
    + intros [= <- <-]. cbn. auto.
Qed.

Lemma split_colon_some s a r : split_colon s = Some (a, r) -> s = a ++ 58 :: r /\ ~ In 58 a.
Proof.
  unfold split_colon. destruct (span _ s) as [a' r'] eqn:Es. apply span_spec in Es as (-> & H & H').
  destruct r' as [|c r']; [discriminate|]. intros [= <- <-].
  assert (c = 58) by (unfold ch_colon in H'; lia). subst c. split; [reflexivity|].
  intro Hin. rewrite forallb_forall in H. apply H in Hin. discriminate.
Qed.

Lemma split_colon_none_inv s : split_colon s = None -> ~ In 58 s.
Proof.
  unfold split_colon. destruct (span _ s) as [a' r'] eqn:Es. apply span_spec in Es as (-> & H & H').
  destruct r' as [|c r']; [|discriminate]. intros _. rewrite app_nil_r.
  intro Hin. rewrite forallb_forall in H. apply H in Hin. discriminate.
Qed.

(** *** records *)

Lemma rec_from_text u r t m : ~ In 58 u -> ~ In 58 r -> ~ In 58 t ->
  sepol_context_from_string (context_text u r t m) = ROk (Some (mkCR u r t m)).
Proof.
  intros Hu Hr Ht. unfold sepol_context_from_string.
  destruct (str_eqb _ none_str) eqn:E.
  { apply str_eqb_eq in E. exfalso. assert (X : In 58 none_str).
    { rewrite <- E. unfold context_text. apply in_or_app. right. left. reflexivity. }
    cbn in X. decompose [or] X; try discriminate; contradiction. }
  unfold context_text. rewrite (split_colon_app u _ Hu), (split_colon_app r _ Hr).
  destruct m as [m|].
  - rewrite (split_colon_app t _ Ht). reflexivity.
  - rewrite app_nil_r, (split_colon_none t Ht). reflexivity.
Qed.

Lemma rec_to_text c : sepol_context_to_string c = context_text (cr_user c) (cr_role c) (cr_type c) (cr_mls c).
Proof. reflexivity. Qed.

Lemma rec_from_inv s c : sepol_context_from_string s = ROk (Some c) ->
  s = context_text (cr_user c) (cr_role c) (cr_type c) (cr_mls c) /\
  ~ In 58 (cr_user c) /\ ~ In 58 (cr_role c) /\ ~ In 58 (cr_type c).
Proof.
  unfold sepol_context_from_string. destruct (str_eqb s none_str); [discriminate|].
  destruct (split_colon s) as [[u s1]|] eqn:E1; [|discriminate].
  destruct (split_colon s1) as [[r s2]|] eqn:E2; [|discriminate].
  apply split_colon_some in E1 as [-> Hu]. apply split_colon_some in E2 as [-> Hr].
  destruct (split_colon s2) as [[t m]|] eqn:E3.
  - apply split_colon_some in E3 as [-> Ht]. intros [= <-]. cbn. auto.
  - apply split_colon_none_inv in E3. intros [= <-]. cbn [cr_user cr_role cr_type cr_mls].
    unfold context_text. rewrite app_nil_r. auto.
Qed.

Lemma rec_from_none s : sepol_context_from_string s = ROk None -> s = none_str.
Proof.
  unfold sepol_context_from_string. destruct (str_eqb s none_str) eqn:E; [intros _; apply str_eqb_eq; exact E|].
  destruct (split_colon s) as [[u s1]|]; [|discriminate].
  destruct (split_colon s1) as [[r s2]|]; [|discriminate].
  destruct (split_colon s2) as [[t m]|]; discriminate.
Qed.

(** *** validity of parsed ranges *)

Lemma set_bit_valid e b v e' : valid e -> b < 4294967296 -> ebitmap_set_bit e b v = Some e' -> valid e'.
Proof.
  intros V Hb E. destruct (N.lt_ge_cases b 4294967232).
  - destruct (set_bit_ok e b v V) as (e1 & E1 & V1 & _); [assumption|]. rewrite E in E1. injection E1 as <-. exact V1.
  - rewrite set_bit_refused in E by assumption. discriminate.
Qed.

Lemma set_range_loop_valid n : forall i e e', valid e -> i + N.of_nat n <= 4294967296 ->
  set_range_loop n i e = Some e' -> valid e'.
Proof.
  induction n as [|n IH]; intros i e e' V Hb; cbn [set_range_loop]; [intros [= <-]; exact V|].
  destruct (ebitmap_set_bit e i true) as [e1|] eqn:E; [|discriminate]. apply IH; [|lia].
  apply (set_bit_valid e i true); [exact V|lia|exact E].
Qed.

(** Category values fit in a uint32_t. *)
Definition cats_u32 (p : policy) : Prop := forall nm v, p_cat_find p nm = Some v -> v < 4294967296.

Lemma parse_token_valid p tk e e' : cats_u32 p -> valid e -> parse_cat_token p tk e = Some e' -> valid e'.
Proof.
  intros Hp V. unfold parse_cat_token. destruct (split_dot tk) as [lo hi].
  destruct (p_cat_find p lo) as [v|] eqn:Ev; [|discriminate]. apply Hp in Ev.
  destruct (ebitmap_set_bit e (v - 1) true) as [e1|] eqn:E1; [|discriminate].
  apply set_bit_valid in E1; [|exact V|lia].
  destruct hi as [hs|]; [|intros [= <-]; exact E1].
  destruct (p_cat_find p hs) as [w|] eqn:Ew; [|discriminate]. apply Hp in Ew.
  destruct (w <=? v); [discriminate|]. apply set_range_loop_valid; [exact E1|lia].
Qed.

Lemma parse_cats_valid p fuel : forall s e d r e', cats_u32 p -> valid e ->
  parse_cats fuel p s e = Some (d, r, e') -> valid e'.
Proof.
  induction fuel as [|f IH]; intros s e d r e' Hp V; cbn [parse_cats]; [discriminate|].
  destruct (span _ s) as [tk rr]. destruct (take_delim rr) as [dl r'].
  destruct (parse_cat_token p tk e) as [e1|] eqn:E1; [|discriminate].
  apply parse_token_valid in E1; [|assumption|assumption].
  destruct (dl =? ch_comma); [apply IH; assumption|intros [= <- <- <-]; exact E1].
Qed.

Lemma parse_level_valid p tk d s l d' r : cats_u32 p -> parse_level p tk d s = Some (l, d', r) -> valid_level l.
Proof.
  intros Hp. unfold parse_level. destruct (p_level_find p tk); [|discriminate].
  destruct (d =? ch_colon).
  - destruct (parse_cats _ p s ebitmap_init) as [[[d1 r1] e]|] eqn:E; [|discriminate]. intros [= <- <- <-].
    apply parse_cats_valid in E; [exact E|assumption|apply valid_init].
  - intros [= <- <- <-]. apply valid_init.
Qed.

Lemma mls_parse_valid p s r : cats_u32 p -> mls_context_to_sid p s = Some r -> valid_mrange r.
Proof.
  intros Hp. unfold mls_context_to_sid. destruct (span _ s) as [tk rr]. destruct (take_delim rr) as [dl r1].
  destruct (parse_level p tk dl r1) as [[[lo d] r2]|] eqn:E1; [|discriminate].
  apply parse_level_valid in E1; [|exact Hp].
  destruct (d =? ch_dash).
  - destruct (span _ r2) as [tk2 r3]. destruct (take_delim r3) as [d2 r4].
    destruct (parse_level p tk2 d2 r4) as [[[hi d3] r5]|] eqn:E2; [|discriminate].
    apply parse_level_valid in E2; [|exact Hp]. intros [= <-]. split; assumption.
  - intros [= <-]. rewrite level_cpy_id. split; assumption.
Qed.

Lemma valid_empty_range : valid_mrange empty_range.
Proof. split; apply valid_init. Qed.

(** *** context_from_string *)

Lemma from_record_inv p rc c : policy_canonical p -> cats_u32 p ->
  context_from_record p (Some rc) = ROk c ->
  p_user_find p (cr_user rc) = Some (c_user c) /\ p_role_find p (cr_role rc) = Some (c_role c) /\
  p_type_find p (cr_type rc) = Some (c_type c, false) /\
  (if p_mls p then exists m, cr_mls rc = Some m /\ mls_context_to_sid p m = Some (c_range c)
   else cr_mls rc = None) /\
  context_authorised p c.
Proof.
  intros PC Hc. unfold context_from_record.
  destruct (p_user_find p (cr_user rc)) as [u|]; [|discriminate].
  destruct (p_role_find p (cr_role rc)) as [r|]; [|discriminate].
  destruct (p_type_find p (cr_type rc)) as [[t [|]]|]; try discriminate.
  destruct (cr_mls rc) as [m|].
  - destruct (p_mls p); cbn [negb]; [|discriminate].
    destruct (mls_context_to_sid p m) as [rng|] eqn:Em; [|discriminate].
    destruct (context_is_valid p _) eqn:Ev; [|discriminate]. intros [= <-]. cbn [c_user c_role c_type c_range].
    split; [reflexivity|]. split; [reflexivity|]. split; [reflexivity|]. split.
    + exists m. auto.
    + apply (context_is_valid_spec p _ PC) in Ev; [exact Ev|].
      cbn [c_range]. exact (mls_parse_valid p m rng Hc Em).
  - destruct (p_mls p); [discriminate|].
    destruct (context_is_valid p _) eqn:Ev; [|discriminate]. intros [= <-]. cbn [c_user c_role c_type c_range].
    split; [reflexivity|]. split; [reflexivity|]. split; [reflexivity|]. split; [reflexivity|].
    apply (context_is_valid_spec p _ PC) in Ev; [exact Ev|]. apply valid_empty_range.
Qed.

Lemma from_string_inv p s c : policy_canonical p -> cats_u32 p ->
  context_from_string p s = ROk c ->
  exists u r t m, cstr s = context_text u r t m /\ ~ In 58 u /\ ~ In 58 r /\ ~ In 58 t /\
  p_user_find p u = Some (c_user c) /\ p_role_find p r = Some (c_role c) /\
  p_type_find p t = Some (c_type c, false) /\
  (if p_mls p then exists m', m = Some m' /\ mls_context_to_sid p m' = Some (c_range c) else m = None) /\
  context_authorised p c.
Proof.
  intros PC Hc. unfold context_from_string. destruct s as [|x s]; [discriminate|].
  destruct (sepol_context_from_string (cstr (x :: s))) as [[rc|]| |] eqn:E; try discriminate.
  apply rec_from_inv in E as (E & H1 & H2 & H3). intro H.
  destruct (from_record_inv p rc c PC Hc H) as (A & B & C & D & F).
  exists (cr_user rc), (cr_role rc), (cr_type rc), (cr_mls rc). auto 10.
Qed.

Lemma roundtrip_record p c m : context_is_valid p c = true ->
  idents_ok p -> context_named p c ->
  (if p_mls p then mls_to_string p (c_range c) = Some m /\ mls_context_to_sid p m = Some (c_range c)
   else c_range c = empty_range) ->
  exists rc, context_to_record p c = Some rc /\ context_from_record p (Some rc) = ROk c /\
    plain (cr_user rc) /\ plain (cr_role rc) /\ plain (cr_type rc) /\
    cr_mls rc = (if p_mls p then Some m else None) /\
    context_to_string p c = Some (sepol_context_to_string rc).
Proof.
  intros Hv (IU & IR & IT & IS & IC) (NU & NR & NT & NM) Hm.
  unfold context_to_record, context_to_string.
  destruct (p_user_name p (c_user c)) as [u|] eqn:Eu; [|congruence].
  destruct (p_role_name p (c_role c)) as [r|] eqn:Er; [|congruence].
  destruct (p_type_name p (c_type c)) as [t|] eqn:Et; [|congruence].
  destruct (IU _ _ Eu) as [Pu Fu]. destruct (IR _ _ Er) as [Pr Fr]. destruct (IT _ _ Et) as [Pt Ft].
  destruct (p_mls p) eqn:Emls.
  - destruct Hm as [Hs Hp]. rewrite Hs. eexists. split; [reflexivity|].
    cbn [cr_user cr_role cr_type cr_mls]. split.
    { unfold context_from_record. cbn [cr_user cr_role cr_type cr_mls]. rewrite Fu, Fr, Ft, Emls, Hp. cbn [negb].
      destruct c as [cu cr ct crg]. cbn [c_user c_role c_type c_range] in *. rewrite Hv. reflexivity. }
    repeat (split; [first [exact Pu|exact Pr|exact Pt|reflexivity]|]).
    unfold mls_to_string in Hs. destruct (mls_sid_to_context p (c_range c)) as [m'|] eqn:Em; [|discriminate].
    unfold sepol_context_to_string. cbn [cr_user cr_role cr_type cr_mls].
    assert (Hm' : m' = ch_colon :: m).
    { unfold mls_sid_to_context in Em. rewrite Emls in Em. cbn [negb] in Em.
      destruct (level_to_str p (r_low (c_range c))); [|discriminate].
      destruct (mls_level_eq _ _); [injection Em as <-; cbn in Hs; injection Hs as <-; reflexivity|].
      destruct (level_to_str p (r_high (c_range c))); [|discriminate].
      injection Em as <-. cbn in Hs. injection Hs as <-. reflexivity. }
    rewrite Hm'. reflexivity.
  - eexists. split; [reflexivity|]. cbn [cr_user cr_role cr_type cr_mls]. split.
    { unfold context_from_record. cbn [cr_user cr_role cr_type cr_mls]. rewrite Fu, Fr, Ft, Emls.
      destruct c as [cu cr ct crg]. cbn [c_user c_role c_type c_range] in *. subst crg. rewrite Hv. reflexivity. }
    repeat (split; [first [exact Pu|exact Pr|exact Pt|reflexivity]|]).
    unfold mls_sid_to_context. rewrite Emls. cbn [negb]. unfold sepol_context_to_string.
    cbn [cr_user cr_role cr_type cr_mls]. reflexivity.
Qed.

Lemma cats_to_str_no0 p vis : (forall v nm, p_cat_name p v = Some nm -> ~ In 0 nm) ->
  forall range w last s, cats_to_str p vis range w last = Some s -> ~ In 0 s.
Proof.
  intros Hc. induction vis as [|[i v] t IH]; intros range w last s; cbn [cats_to_str].
  - destruct (1 <? range).
    + destruct (p_cat_name p last) as [nm|] eqn:E; [|discriminate]. intros [= <-].
      apply Hc in E. intros [H|H]; [|contradiction]. destruct (2 <? range); discriminate.
    + intros [= <-] [].
  - destruct v.
    + destruct (negb (range =? 0)); [apply IH|].
      destruct (p_cat_name p (i + 1)) as [nm|] eqn:E; [|discriminate].
      destruct (cats_to_str p t 1 true last) as [rest|] eqn:Er; [|discriminate]. intros [= <-].
      apply Hc in E. apply IH in Er. intros [H|H]; [destruct w; discriminate|].
      apply in_app_or in H as [H|H]; contradiction.
    + destruct (1 <? range); [|apply IH].
      destruct (p_cat_name p i) as [nm|] eqn:E; [|discriminate].
      destruct (cats_to_str p t 0 w last) as [rest|] eqn:Er; [|discriminate]. intros [= <-].
      apply Hc in E. apply IH in Er. intros [H|H]; [destruct (2 <? range); discriminate|].
      apply in_app_or in H as [H|H]; contradiction.
Qed.

Lemma level_to_str_no0 p l s : idents_ok p -> level_to_str p l = Some s -> ~ In 0 s.
Proof.
  intros (_ & _ & _ & IS & IC). unfold level_to_str.
  destruct (p_sens_name p (l_sens l)) as [nm|] eqn:E; [|discriminate]. apply IS in E.
  destruct (visited_bits (l_cat l)); [|discriminate].
  destruct (cats_to_str p l0 0 false (ebitmap_length (l_cat l))) as [c|] eqn:Ec; [|discriminate].
  intros [= <-]. apply (cats_to_str_no0 p _ IC) in Ec. intro H. apply in_app_or in H as [H|H]; contradiction.
Qed.

Lemma mls_to_string_no0 p r s : idents_ok p -> mls_to_string p r = Some s -> ~ In 0 s.
Proof.
  intros Hi. unfold mls_to_string, mls_sid_to_context. destruct (p_mls p); cbn [negb].
  2:{ intros [= <-] []. }
  destruct (level_to_str p (r_low r)) as [lo|] eqn:El; [|discriminate]. apply (level_to_str_no0 p _ _ Hi) in El.
  destruct (mls_level_eq _ _); [intros [= <-]; exact El|].
  destruct (level_to_str p (r_high r)) as [hi|] eqn:Eh; [|discriminate]. apply (level_to_str_no0 p _ _ Hi) in Eh.
  intros [= <-] H. apply in_app_or in H as [H|[H|H]]; [contradiction|discriminate|contradiction].
Qed.

Lemma plain_no0 nm : plain nm -> ~ In 0 nm.
Proof. intros [_ H]. exact H. Qed.

Lemma roundtrip_string p c m : context_is_valid p c = true ->
  idents_ok p -> context_named p c ->
  (if p_mls p then mls_to_string p (c_range c) = Some m /\ mls_context_to_sid p m = Some (c_range c)
   else c_range c = empty_range) ->
  exists s, context_to_string p c = Some s /\ context_from_string p s = ROk c /\
            context_from_string p (s ++ [0]) = ROk c.
Proof.
  intros Hv Hi Hn Hm. destruct (roundtrip_record p c m Hv Hi Hn Hm) as (rc & E1 & E2 & P1 & P2 & P3 & Em & Es).
  eexists. split; [exact Es|].
  assert (Hno : ~ In 0 (sepol_context_to_string rc)).
  { unfold sepol_context_to_string. intro H.
    apply in_app_or in H as [H|[H|H]]; [exact (plain_no0 _ P1 H)|discriminate|].
    apply in_app_or in H as [H|[H|H]]; [exact (plain_no0 _ P2 H)|discriminate|].
    apply in_app_or in H as [H|H]; [exact (plain_no0 _ P3 H)|].
    rewrite Em in H. destruct (p_mls p); [|destruct H]. destruct H as [H|H]; [discriminate|].
    exact (mls_to_string_no0 p _ _ Hi (proj1 Hm) H). }
  assert (Hcore : sepol_context_from_string (sepol_context_to_string rc) = ROk (Some rc)).
  { rewrite rec_to_text, rec_from_text; [destruct rc; reflexivity|apply P1|apply P2|apply P3]. }
  assert (Hc0 : cstr (sepol_context_to_string rc ++ [0]) = sepol_context_to_string rc).
  { clear -Hno. induction (sepol_context_to_string rc) as [|x s IH]; [reflexivity|]. cbn [app cstr].
    destruct (N.eqb_spec x 0); [exfalso; apply Hno; left; auto|]. f_equal. apply IH. intro. apply Hno. right. assumption. }
  assert (Hne : exists x t, sepol_context_to_string rc = x :: t).
  { unfold sepol_context_to_string. destruct (cr_user rc); cbn [app]; eexists _, _; reflexivity. }
  unfold context_from_string. split.
  - rewrite (cstr_id _ Hno). destruct Hne as (x & t & Hxt). rewrite Hcore. rewrite Hxt. exact E2.
  - rewrite Hc0, Hcore. destruct Hne as (x & t & Hxt). rewrite Hxt. cbn [app]. exact E2.
Qed.

Lemma from_string_ub p s : context_from_string p s = RUB <-> s <> [] /\ cstr s = none_str.
Proof.
  unfold context_from_string. destruct s as [|x s]; [split; [discriminate|intros [H _]; congruence]|].
  destruct (sepol_context_from_string (cstr (x :: s))) as [[rc|]| |] eqn:E.
  - split.
    + unfold context_from_record. destruct (p_user_find p (cr_user rc)); [|discriminate].
      destruct (p_role_find p (cr_role rc)); [|discriminate].
      destruct (p_type_find p (cr_type rc)) as [[t [|]]|]; try discriminate.
      destruct (cr_mls rc).
      * destruct (negb (p_mls p)); [discriminate|]. destruct (mls_context_to_sid p l); [|discriminate].
        destruct (context_is_valid _ _); discriminate.
      * destruct (p_mls p); [discriminate|]. destruct (context_is_valid _ _); discriminate.
    + intros [_ H]. rewrite H in E. discriminate.
  - apply rec_from_none in E. split; [intros _; split; [discriminate|exact E]|reflexivity].
  - split; [discriminate|]. intros [_ H]. rewrite H in E. discriminate.
  - exfalso. unfold sepol_context_from_string in E. destruct (str_eqb _ _); [discriminate|].
    destruct (split_colon _) as [[? ?]|]; [|discriminate].
    destruct (split_colon _) as [[? ?]|]; [|discriminate].
    destruct (split_colon _) as [[? ?]|]; discriminate.
Qed.

Lemma to_string_len p c :
  context_to_string_len p c = omap (fun s => N.of_nat (length s) + 1) (context_to_string p c).
Proof.
  unfold context_to_string_len, context_to_string. rewrite context_len_spec.
  destruct (p_user_name p (c_user c)), (p_role_name p (c_role c)), (p_type_name p (c_type c)); try reflexivity.
  destruct (mls_sid_to_context p (c_range c)); [|reflexivity]. cbn [omap]. f_equal.
  rewrite !app_length. cbn [length]. rewrite !app_length. cbn [length]. rewrite !app_length. lia.
Qed.

(** ** context_t *)

Lemma colons_cons c s : colons (c :: s) = (if c =? 58 then 1 else 0) + colons s.
Proof. unfold colons. cbn [filter]. destruct (c =? 58); cbn [length]; lia. Qed.

Lemma colons_app a b : colons (a ++ b) = colons a + colons b.
Proof. unfold colons. rewrite filter_app, app_length. lia. Qed.

Lemma colons_zero s : ~ In 58 s -> colons s = 0.
Proof.
  induction s as [|c s IH]; intros H; [reflexivity|]. rewrite colons_cons.
  destruct (N.eqb_spec c 58); [exfalso; apply H; left; auto|]. rewrite IH; [lia|]. intro. apply H. right. assumption.
Qed.

Lemma scan_count s : forall k n, ctx_scan s k = Some n -> n = k + colons s.
Proof.
  induction s as [|c s IH]; intros k n; cbn [ctx_scan].
  - intros [= <-]. unfold colons. cbn. lia.
  - rewrite colons_cons. destruct (c =? 58); [intros H; apply IH in H; lia|].
    destruct (_ || _); [discriminate|]. destruct (_ && _); [discriminate|]. intros H. apply IH in H. lia.
Qed.

(** joining components *)
Definition joined (cs : list (list N)) : list N :=
  match cs with [] => [] | a :: t => a ++ flat_map (fun x => 58 :: x) t end.

Lemma components_join k : forall s, s <> [] ->
  joined (ctx_components k s) = s \/
  (joined (ctx_components k s) ++ [58] = s /\ (length (ctx_components k s) <= k)%nat).
Proof.
  induction k as [|k IH]; intros s Hs.
  - left. destruct s; [congruence|]. cbn. rewrite app_nil_r. reflexivity.
  - destruct s as [|c s']; [congruence|]. set (s := c :: s') in *.
    assert (E : ctx_components (S k) s = match split_colon s with None => [s] | Some (a, r) => a :: ctx_components k r end) by reflexivity.
    rewrite E. clear E. destruct (split_colon s) as [[a r]|] eqn:Ec.
    + apply split_colon_some in Ec as [Ec _]. rewrite Ec. destruct r as [|x r'].
      * right. destruct k; cbn [ctx_components joined flat_map length]; rewrite app_nil_r; split; try reflexivity; lia.
      * assert (Hj : joined (a :: ctx_components k (x :: r')) = a ++ 58 :: joined (ctx_components k (x :: r'))).
        { cbn [joined]. destruct (ctx_components k (x :: r')) eqn:Ek.
          - exfalso. destruct k; cbn in Ek; [discriminate|]. destruct (split_colon (x :: r')) as [[? ?]|]; discriminate.
          - cbn [flat_map joined]. reflexivity. }
        rewrite Hj. destruct (IH (x :: r') ltac:(discriminate)) as [H|[H H']].
        -- left. rewrite H. reflexivity.
        -- right. cbn [length]. split; [|lia]. rewrite <- app_assoc. cbn [app]. rewrite H. reflexivity.
    + left. cbn [joined flat_map]. apply app_nil_r.
Qed.

Lemma components_le k : forall s, (length (ctx_components k s) <= S k)%nat.
Proof.
  induction k as [|k IH]; intros s; destruct s as [|c s']; cbn [ctx_components length]; try lia.
  destruct (split_colon (c :: s')) as [[a r]|]; cbn [length]; [specialize (IH r)|]; lia.
Qed.

Lemma str_of_components cs : cs <> [] -> (length cs <= 4)%nat ->
  context_str (mkCtx (nth_error cs 0) (nth_error cs 1) (nth_error cs 2) (nth_error cs 3)) = ROk (joined cs).
Proof.
  intros H1 H2. destruct cs as [|a [|b [|c [|d [|e cs]]]]]; cbn [length] in H2; try lia; try congruence;
    unfold context_str, ctx_part; cbn [x_user x_role x_type x_range nth_error joined flat_map app];
    rewrite ?app_nil_r, <- ?app_assoc; cbn [app]; rewrite <- ?app_assoc; reflexivity.
Qed.

Lemma joined_colons cs : (length cs <= 4)%nat -> Forall (fun c => ~ In 58 c) (firstn 3 cs) ->
  (length cs <= 3)%nat -> colons (joined cs) + 1 <= 3.
Proof.
  intros H1 H2 H3.
  assert (G : forall l, Forall (fun c => ~ In 58 c) l -> colons (joined l) + 1 <= N.max 1 (N.of_nat (length l))).
  { clear. intros [|a t] HF; [cbn; lia|]. inversion HF as [|? ? Ha Ht]; subst. cbn [joined].
    rewrite colons_app, (colons_zero a Ha). clear HF Ha.
    assert (E : colons (flat_map (fun x => 58 :: x) t) = N.of_nat (length t)).
    { induction Ht as [|x t Hx Ht IH]; [reflexivity|]. cbn [flat_map length].
      rewrite colons_app, colons_cons, (colons_zero x Hx), IH. change (58 =? 58) with true. cbn iota. lia. }
    rewrite E. cbn [length]. lia. }
  rewrite firstn_all2 in H2 by exact H3. specialize (G cs H2). lia.
Qed.

Lemma components_noc k : forall s, Forall (fun c => ~ In 58 c) (firstn k (ctx_components k s)).
Proof.
  induction k as [|k IH]; intros s; [constructor|]. destruct s as [|c s']; [constructor|].
  cbn [ctx_components]. destruct (split_colon (c :: s')) as [[a r]|] eqn:E; cbn [firstn].
  - apply split_colon_some in E as [_ E]. constructor; [exact E|apply IH].
  - apply split_colon_none_inv in E. constructor; [exact E|]. destruct k; constructor.
Qed.

Lemma new_str s c : context_new s = Some c -> 4 <= colons s \/ last s 0 <> 58 -> context_str c = ROk s.
Proof.
  unfold context_new. destruct (ctx_scan s 0) as [n|] eqn:Es; [|discriminate].
  apply scan_count in Es. destruct ((n <? 2) || (5 <? n)) eqn:En; [discriminate|].
  set (cs := ctx_components 3 s). intros Ec Hc.
  assert (c = mkCtx (nth_error cs 0) (nth_error cs 1) (nth_error cs 2) (nth_error cs 3)) by congruence.
  subst c. clear Ec.
  assert (Hs : s <> []). { intros ->. unfold colons in Es. cbn in Es. subst n. discriminate. }
  assert (Hne : cs <> []).
  { unfold cs. destruct s; [congruence|]. cbn [ctx_components]. destruct (split_colon _) as [[? ?]|]; discriminate. }
  assert (H4 : (length cs <= 4)%nat) by apply (components_le 3).
  rewrite (str_of_components cs Hne H4). f_equal.
  destruct (components_join 3 s Hs) as [H|[H H']]; fold cs in H; [exact H|]. fold cs in H'. exfalso.
  destruct Hc as [Hc|Hc].
  - rewrite <- H in Hc. rewrite colons_app in Hc.
    pose proof (joined_colons cs H4 (components_noc 3 s) H') as Hj.
    change (colons [58]) with 1 in Hc. lia.
  - rewrite <- H in Hc. rewrite last_last in Hc. congruence.
Qed.

(** Invariant of reachable contexts. *)
Definition ctx_inv (c : ctx) : Prop :=
  (forall s, x_user c = Some s -> word_text s) /\ (forall s, x_role c = Some s -> word_text s) /\
  (forall s, x_type c = Some s -> word_text s) /\ (forall s, x_range c = Some s -> range_text s).

Lemma scan_range s : forall k n, ctx_scan s k = Some n -> range_text s.
Proof.
  induction s as [|c s IH]; intros k n; cbn [ctx_scan]; intros H x Hx; [destruct Hx|].
  destruct (N.eqb_spec c 58) as [->|].
  - destruct Hx as [<-|Hx]; [lia|]. exact (IH _ _ H x Hx).
  - destruct ((c =? 10) || (c =? 9) || (c =? 13)) eqn:E; [discriminate|].
    destruct ((c =? 32) && (k <? 3)); [discriminate|].
    destruct Hx as [<-|Hx]; [lia|]. exact (IH _ _ H x Hx).
Qed.

Lemma scan_app a : forall r k n, ctx_scan (a ++ r) k = Some n -> ~ In 58 a ->
  ctx_scan r k = Some n /\ (k < 3 -> word_text a).
Proof.
  induction a as [|c a IH]; intros r k n H Hn; cbn [app] in H.
  - split; [exact H|]. intros _ x [].
  - cbn [ctx_scan] in H. destruct (N.eqb_spec c 58) as [->|]; [exfalso; apply Hn; left; reflexivity|].
    destruct ((c =? 10) || (c =? 9) || (c =? 13)) eqn:E; [discriminate|].
    destruct ((c =? 32) && (k <? 3)) eqn:E2; [discriminate|].
    destruct (IH r k n H) as [H1 H2]; [intro; apply Hn; right; assumption|].
    split; [exact H1|]. intros Hk x [<-|Hx]; [|exact (H2 Hk x Hx)]. lia.
Qed.

Lemma components_words k : forall s n i, N.of_nat k + i = 3 -> ctx_scan s i = Some n ->
  Forall word_text (firstn k (ctx_components k s)) /\
  Forall range_text (ctx_components k s).
Proof.
  induction k as [|k IH]; intros s n i Hi Hs.
  - cbn [firstn]. split; [constructor|]. destruct s; constructor; [|constructor].
    exact (scan_range _ _ _ Hs).
  - destruct s as [|c s']; [split; constructor|]. set (s := c :: s') in *.
    assert (E : ctx_components (S k) s = match split_colon s with None => [s] | Some (a, r) => a :: ctx_components k r end) by reflexivity.
    rewrite E. clear E. destruct (split_colon s) as [[a r]|] eqn:Ec.
    + apply split_colon_some in Ec as [Ec Hn]. rewrite Ec in Hs.
      destruct (scan_app a (58 :: r) i n Hs Hn) as [H1 H2]. cbn [ctx_scan] in H1. rewrite N.eqb_refl in H1.
      destruct (IH r n (i + 1) ltac:(lia) H1) as [H3 H4]. cbn [firstn]. split; constructor; try assumption.
      * apply H2. lia.
      * intros x Hx. destruct (H2 ltac:(lia) x Hx). lia.
    + apply split_colon_none_inv in Ec.
      destruct (scan_app s [] i n) as [_ H2]; [rewrite app_nil_r; exact Hs|exact Ec|].
      assert (H2' : word_text s) by (apply H2; lia).
      cbn [firstn]. split.
      * apply Forall_cons; [exact H2'|]. destruct k; apply Forall_nil.
      * apply Forall_cons; [|apply Forall_nil]. intros x Hx. destruct (H2' x Hx). lia.
Qed.

Lemma comp_ok_word s : comp_ok false s = true -> word_text s.
Proof.
  unfold comp_ok. rewrite forallb_forall. intros H c Hc. apply H in Hc. cbn [negb] in Hc. rewrite andb_true_r in Hc. lia.
Qed.
Lemma comp_ok_range s : comp_ok true s = true -> range_text s.
Proof.
  unfold comp_ok. rewrite forallb_forall. intros H c Hc. apply H in Hc. cbn [negb] in Hc. rewrite andb_false_r in Hc. lia.
Qed.

Lemma nth_firstn_in {A} (l : list A) : forall n i x, (i < n)%nat -> nth_error l i = Some x -> In x (firstn n l).
Proof.
  induction l as [|a l IH]; intros n i x Hi H; destruct i; try discriminate; destruct n as [|n']; try lia; cbn [firstn].
  - left. cbn in H. congruence.
  - right. apply (IH n' i); [lia|exact H].
Qed.

Lemma reachable_inv c : ctx_reachable c -> ctx_inv c.
Proof.
  induction 1 as [s c H|c k v c' _ IH H].
  - unfold context_new in H. destruct (ctx_scan s 0) as [n|] eqn:Es; [|discriminate].
    destruct (_ || _); [discriminate|].
    destruct (components_words 3 s n 0 eq_refl Es) as [H1 H2].
    set (cs := ctx_components 3 s) in *.
    assert (c = mkCtx (nth_error cs 0) (nth_error cs 1) (nth_error cs 2) (nth_error cs 3)) by congruence.
    subst c. clear H.
    assert (G : forall i x, (i < 3)%nat -> nth_error cs i = Some x -> word_text x).
    { intros i x Hi Hx. rewrite Forall_forall in H1. apply H1.
      exact (nth_firstn_in cs 3 i x Hi Hx). }
    split; [|split; [|split]]; intros x Hx; cbn [x_user x_role x_type x_range] in Hx.
    + (eapply G; [|exact Hx]; lia).
    + (eapply G; [|exact Hx]; lia).
    + (eapply G; [|exact Hx]; lia).
    + rewrite Forall_forall in H2. apply H2. exact (nth_error_In _ _ Hx).
  - destruct IH as (A & B & C & D). unfold ctx_set in H.
    destruct v as [s|].
    + destruct k; [destruct (comp_ok false s) eqn:E|destruct (comp_ok false s) eqn:E|destruct (comp_ok false s) eqn:E|
                   destruct (comp_ok true s) eqn:E]; try discriminate; injection H as <-;
      (split; [|split; [|split]]); cbn [x_user x_role x_type x_range]; try assumption;
      intros s0 [= <-]; first [apply comp_ok_word; exact E|apply comp_ok_range; exact E].
    + destruct k; injection H as <-; (split; [|split; [|split]]); cbn [x_user x_role x_type x_range]; try assumption; discriminate.
Qed.

Lemma scan_word a : forall r k, word_text a -> ctx_scan (a ++ r) k = ctx_scan r k.
Proof.
  induction a as [|c a IH]; intros r k H; [reflexivity|]. cbn [app ctx_scan].
  destruct (H c (or_introl eq_refl)) as (H1 & H2 & H3 & H4 & H5).
  rewrite (proj2 (N.eqb_neq c 58) H1), (proj2 (N.eqb_neq c 10) H4), (proj2 (N.eqb_neq c 9) H3),
    (proj2 (N.eqb_neq c 13) H5), (proj2 (N.eqb_neq c 32) H2). cbn [orb andb].
  apply IH. intros x Hx. apply H. right. exact Hx.
Qed.

Lemma scan_range_ok a : forall k, range_text a -> 3 <= k -> ctx_scan a k = Some (k + colons a).
Proof.
  induction a as [|c a IH]; intros k H Hk; [unfold colons; cbn; f_equal; lia|]. cbn [ctx_scan].
  destruct (H c (or_introl eq_refl)) as (H3 & H4 & H5). rewrite colons_cons.
  rewrite (proj2 (N.eqb_neq c 10) H4), (proj2 (N.eqb_neq c 9) H3), (proj2 (N.eqb_neq c 13) H5). cbn [orb].
  assert (Ha : range_text a) by (intros x Hx; apply H; right; exact Hx).
  destruct (c =? 58); [rewrite IH by (assumption || lia); f_equal; lia|].
  destruct (N.ltb_spec k 3); [lia|]. rewrite andb_false_r. rewrite IH by (assumption || lia). f_equal; lia.
Qed.

Lemma word_nocolon s : word_text s -> ~ In 58 s.
Proof. intros H Hin. destruct (H 58 Hin) as [X _]. congruence. Qed.

Lemma components_split k a r : ~ In 58 a -> ctx_components (S k) (a ++ 58 :: r) = a :: ctx_components k r.
Proof.
  intros H. pose proof (split_colon_app a r H) as E.
  destruct (a ++ 58 :: r) as [|x l] eqn:Ex; [destruct a; discriminate|].
  cbn [ctx_components]. rewrite E. reflexivity.
Qed.

Lemma reparse u r t o :
  ctx_inv (mkCtx (Some u) (Some r) (Some t) o) ->
  match o with None => t <> [] | Some m => m <> [] /\ colons m <= 2 end ->
  exists s, context_str (mkCtx (Some u) (Some r) (Some t) o) = ROk s /\
            context_new s = Some (mkCtx (Some u) (Some r) (Some t) o).
Proof.
  intros (A & B & C & D) Ho. cbn [x_user x_role x_type x_range] in *.
  specialize (A u eq_refl). specialize (B r eq_refl). specialize (C t eq_refl).
  eexists. split; [reflexivity|]. cbn [x_user x_role x_type x_range ctx_part]. unfold context_new, ch_colon.
  rewrite (scan_word u _ 0 A). cbn [app ctx_scan]. change (58 =? 58) with true. cbn iota.
  rewrite (scan_word r _ _ B). cbn [app ctx_scan]. change (58 =? 58) with true. cbn iota.
  rewrite (scan_word t _ _ C).
  rewrite (components_split 2 u _ (word_nocolon u A)), (components_split 1 r _ (word_nocolon r B)).
  destruct o as [m|]; cbn [ctx_part ctx_scan].
  - destruct Ho as [Hm Hc]. change (ch_colon =? 58) with true. cbn iota.
    rewrite (scan_range_ok m _ (D m eq_refl)) by lia.
    destruct (N.ltb_spec (0 + 1 + 1 + 1 + colons m) 2); [lia|].
    destruct (N.ltb_spec 5 (0 + 1 + 1 + 1 + colons m)); [lia|]. cbn [orb].
    change ch_colon with 58. rewrite (components_split 0 t m (word_nocolon t C)).
    destruct m as [|x m']; [congruence|]. reflexivity.
  - change ((0 + 1 + 1 <? 2) || (5 <? 0 + 1 + 1)) with false. cbn iota. rewrite app_nil_r.
    destruct t as [|x t']; [congruence|]. cbn [ctx_components].
    rewrite (split_colon_none _ (word_nocolon _ C)). reflexivity.
Qed.
