(** Lemmas for C86. *)
From Verif Require Import Base MlsModel ContextModel ContextSpec ContextProofs LoginModel HomedirModel HomedirSpec.

Lemma is_prefix_spec w : forall s, is_prefix w s = true <-> exists b, s = w ++ b.
Proof.
  induction w as [|x w IH]; intros s; cbn; [split; [intros _; exists s; reflexivity|reflexivity]|].
  destruct s as [|y s]; [split; [discriminate|intros (b & E); discriminate]|]. rewrite andb_true_iff, N.eqb_eq, IH. split.
  - intros [-> (b & ->)]. exists b. reflexivity.
  - intros (b & E). injection E as -> ->. split; [reflexivity|exists b; reflexivity].
Qed.
Lemma strstr_first w : forall s, match strstr w s with Some (a, b) => first_at w s a b | None => nowhere w s end.
Proof.
  induction s as [|c s IH]; cbn [strstr].
  - destruct (is_prefix w []) eqn:E.
    + apply is_prefix_spec in E. destruct E as (b & E). destruct w; [|discriminate]. split; [reflexivity|]. intros a' b' _. cbn. lia.
    + intros a b X. symmetry in X. apply app_eq_nil in X. destruct X as [-> X]. apply app_eq_nil in X. destruct X as [-> _]. discriminate.
  - destruct (is_prefix w (c :: s)) eqn:E.
    + apply is_prefix_spec in E. destruct E as (b & E). rewrite E. split; [|intros; cbn; lia]. cbn. f_equal. rewrite skipn_app, skipn_all, Nat.sub_diag. reflexivity.
    + assert (NP : forall b, c :: s <> w ++ b).
      { intros b X. assert (is_prefix w (c :: s) = true) by (apply is_prefix_spec; exists b; assumption). congruence. }
      destruct (strstr w s) as [[a b]|].
      * destruct IH as [-> M]. split; [reflexivity|]. intros [|x a'] b' X; [exfalso; exact (NP b' X)|]. cbn in X. injection X as _ X. cbn. specialize (M a' b' X). lia.
      * intros [|x a] b X; [exact (NP b X)|]. cbn in X. injection X as _ X. exact (IH a b X).
Qed.
Lemma first_unique w s a b a' b' : first_at w s a b -> first_at w s a' b' -> a = a' /\ b = b'.
Proof.
  intros [E M] [E' M']. assert (L : length a = length a') by (specialize (M a' b' E'); specialize (M' a b E); lia).
  rewrite E in E'.
  assert (X : a = a' /\ w ++ b = w ++ b').
  { clear - E' L. revert a' L E'. induction a as [|x a IH]; intros [|y a'] L E'; try discriminate; [auto|]. cbn in E'. injection E' as -> E'. cbn in L.
    destruct (IH a') as [-> X]; auto. }
  destruct X as [-> X]. split; [reflexivity|]. apply app_inv_head in X. assumption.
Qed.
Lemma strstr_is w s a b : first_at w s a b -> strstr w s = Some (a, b).
Proof.
  intros F. pose proof (strstr_first w s) as H. destruct (strstr w s) as [[a' b']|].
  - destruct (first_unique _ _ _ _ _ _ F H) as [-> ->]. reflexivity.
  - exfalso. destruct F as [E _]. exact (H a b E).
Qed.
Lemma strstr_none w s : nowhere w s -> strstr w s = None.
Proof.
  intros F. pose proof (strstr_first w s) as H. destruct (strstr w s) as [[a b]|]; [|reflexivity]. exfalso. exact (F a b (proj1 H)).
Qed.
Lemma replaced_unique w r k s o1 : replaced w r k s o1 -> forall o2, replaced w r k s o2 -> o1 = o2.
Proof.
  induction 1 as [k s NW|s|s a b b' F R IH|k s a b b' F R IH]; intros o2 R2; inversion R2; subst; try reflexivity.
  - exfalso. match goal with F : first_at _ _ _ _ |- _ => exact (NW _ _ (proj1 F)) end.
  - exfalso. match goal with F : first_at _ _ _ _ |- _ => exact (NW _ _ (proj1 F)) end.
  - exfalso. match goal with NW : nowhere _ _ |- _ => exact (NW _ _ (proj1 F)) end.
  - match goal with F2 : first_at _ _ _ _ |- _ => destruct (first_unique _ _ _ _ _ _ F F2) as [-> ->] end. rewrite (IH b'0); auto.
  - exfalso. match goal with NW : nowhere _ _ |- _ => exact (NW _ _ (proj1 F)) end.
  - match goal with F2 : first_at _ _ _ _ |- _ => destruct (first_unique _ _ _ _ _ _ F F2) as [-> ->] end. rewrite (IH b'0); auto.
Qed.
(** Exactly so many replacements. *)
Inductive rn (w r : list N) : nat -> list N -> list N -> Prop :=
| rn0 s : rn w r O s s
| rnS n s a b out : strstr w s = Some (a, b) -> rn w r n b out -> rn w r (S n) s (a ++ r ++ out).
Lemma count_is w r lim : w <> [] -> forall fuel s c, (length s < fuel)%nat -> (lim = 0 \/ c < lim) ->
  exists n out, count_loop fuel w s lim c = Some (c + N.of_nat n) /\ rn w r n s out
    /\ replaced w r (if lim =? 0 then None else Some (N.to_nat (lim - c))) s out.
Proof.
  intros W. induction fuel as [|fuel IH]; intros s c L C; [lia|]. cbn [count_loop]. pose proof (strstr_first w s) as F.
  destruct (strstr w s) as [[a b]|] eqn:E.
  - assert (LB : (length b < length s)%nat).
    { destruct F as [-> _]. rewrite !app_length. destruct w; [congruence|cbn; lia]. }
    destruct (negb (lim =? 0) && (lim <=? c + 1)) eqn:T.
    + apply andb_true_iff in T. destruct T as [T1 T2]. apply negb_true_iff in T1. rewrite T1. apply N.eqb_neq in T1. apply N.leb_le in T2.
      exists 1%nat, (a ++ r ++ b). split; [f_equal; lia|]. split; [apply (rnS w r 0 s a b b E); constructor|].
      replace (N.to_nat (lim - c)) with 1%nat by lia. apply rep_some with (b := b); [assumption|apply rep_enough].
    + destruct (IH b (c + 1)) as (n & out & CL & RN & RP); [lia| |].
      { apply andb_false_iff in T. destruct T as [T|T]; [left; apply negb_false_iff, N.eqb_eq in T; assumption|right; apply N.leb_gt in T; lia]. }
      exists (S n), (a ++ r ++ out). split; [rewrite CL; f_equal; lia|]. split; [apply (rnS w r n s a b out E RN)|].
      destruct (lim =? 0) eqn:Z; [apply rep_all with (b := b); assumption|]. apply N.eqb_neq in Z. apply andb_false_iff in T. destruct T as [T|T]; [discriminate|].
      apply N.leb_gt in T. replace (N.to_nat (lim - c)) with (S (N.to_nat (lim - (c + 1)))) by lia. apply rep_some with (b := b); assumption.
  - exists O, s. split; [f_equal; lia|]. split; [constructor|]. apply rep_nowhere. assumption.
Qed.
Lemma rn_length w r n s out : rn w r n s out -> N.of_nat (length out) + N.of_nat n * N.of_nat (length w) = N.of_nat (length s) + N.of_nat n * N.of_nat (length r).
Proof.
  induction 1 as [s|n s a b out E R IH]; [lia|]. pose proof (strstr_first w s) as F. rewrite E in F. destruct F as [-> _]. rewrite !app_length. lia.
Qed.
Lemma fill_is w r cap n : w <> [] -> forall s out pre fuel, rn w r (S n) s out -> (length s < fuel)%nat -> cap = N.of_nat (length pre + length out + 1) ->
  exists pre' rest, fill_loop fuel w r s (N.of_nat (S n)) cap pre = ROk (pre', rest) /\ pre' ++ rest = pre ++ out.
Proof.
  intros W. induction n as [|n IH]; intros s out pre [|fuel] R L C; try lia; inversion R as [|? ? a b o E R']; subst; cbn [fill_loop]; rewrite E; unfold write_piece.
  - inversion R'; subst. rewrite !app_length in *. replace (N.of_nat (length pre) + N.of_nat (length a) <=? _) with true by lia.
    replace (N.of_nat (length (pre ++ a)) + N.of_nat (length r) <=? _) with true by (rewrite app_length; lia).
    change (N.of_nat 1 - 1 =? 0) with true. cbv iota. exists ((pre ++ a) ++ r), o. split; [reflexivity|]. rewrite <- !app_assoc. reflexivity.
  - rewrite !app_length in *. replace (N.of_nat (length pre) + N.of_nat (length a) <=? _) with true by lia.
    replace (N.of_nat (length (pre ++ a)) + N.of_nat (length r) <=? _) with true by (rewrite app_length; lia).
    replace (N.of_nat (S (S n)) - 1 =? 0) with false by lia. replace (N.of_nat (S (S n)) - 1) with (N.of_nat (S n)) by lia.
    assert (LB : (length b < length s)%nat).
    { pose proof (strstr_first w s) as F. rewrite E in F. destruct F as [-> _]. rewrite !app_length. destruct w; [congruence|cbn; lia]. }
    destruct (IH b o ((pre ++ a) ++ r) fuel R') as (pre' & rest & FL & EQ); [lia|rewrite !app_length; lia|].
    exists pre', rest. split; [exact FL|]. rewrite EQ, <- !app_assoc. reflexivity.
Qed.
Lemma cap_is ls lo n wl rl : 1 <= n -> wl <= ls -> ls + 1 < SIZE -> lo + 1 < SIZE -> lo + n * wl = ls + n * rl ->
  (ls + 1 + n * ((SIZE + rl - wl) mod SIZE)) mod SIZE = lo + 1.
Proof.
  intros N1 W LS LO E. assert (S0 : SIZE <> 0) by (unfold SIZE; discriminate).
  rewrite <- N.add_mod_idemp_r, N.mul_mod_idemp_r, N.add_mod_idemp_r by assumption.
  replace (ls + 1 + n * (SIZE + rl - wl)) with (lo + 1 + n * SIZE).
  - rewrite N.mod_add by assumption. apply N.mod_small. assumption.
  - rewrite N.mul_sub_distr_l, N.mul_add_distr_l. assert (n * wl <= n * SIZE) by (apply N.mul_le_mono_l; lia). lia.
Qed.
Lemma replace_is w r s lim : w <> [] -> short s -> exists out, replaced w r (limit lim) s out /\ (short out -> str_replace w r s lim = ROk out).
Proof.
  intros W SS. destruct (count_is w r lim W (S (length s)) s 0) as (n & out & CL & RN & RP); [lia|lia|].
  exists out. split.
  - unfold limit. rewrite N.sub_0_r in RP. assumption.
  - intros SO. unfold str_replace. replace (N.of_nat (length w) =? 0) with false by (destruct w; [congruence|cbn [length]; lia]).
    rewrite CL, N.add_0_l. destruct n as [|n].
    + inversion RN; subst. reflexivity.
    + replace (N.of_nat (S n) =? 0) with false by lia. set (cap := (_ mod SIZE)).
      assert (CAP : cap = N.of_nat (length (@nil N) + length out + 1)).
      { subst cap. rewrite (cap_is _ (N.of_nat (length out))).
        - cbn [length]. lia.
        - lia.
        - inversion RN as [|? ? a b o E R']; subst. pose proof (strstr_first w s) as F. rewrite E in F. destruct F as [-> _]. rewrite !app_length. lia.
        - exact SS.
        - exact SO.
        - apply rn_length. assumption. }
      destruct (fill_is w r cap n W s out [] (S (length s)) RN) as (pre' & rest & FL & EQ); [lia|exact CAP|].
      rewrite FL. cbn [app] in EQ. rewrite <- EQ. replace (N.of_nat (length pre') + N.of_nat (length rest) + 1 =? cap) with true; [reflexivity|].
      symmetry. apply N.eqb_eq. rewrite CAP, <- EQ, app_length. cbn [length]. lia.
Qed.
Lemma replace_to w r s lim out : w <> [] -> short s -> replaced w r (limit lim) s out -> short out -> str_replace w r s lim = ROk out.
Proof.
  intros W SS R SO. destruct (replace_is w r s lim W SS) as (o & R' & H). rewrite (replaced_unique _ _ _ _ _ R _ R') in *. auto.
Qed.
Lemma in_turn_is repl s out : in_turn repl s out -> replace_all s repl = ROk out.
Proof.
  induction 1 as [s|w r t s s' s'' W SS R SS' T IH]; [reflexivity|]. cbn. rewrite (replace_to w r s 0 s' W SS R SS'). assumption.
Qed.

(** Lines *)
Lemma isspace_spec c : isspace c = true <-> blank c.
Proof. unfold isspace, blank. rewrite orb_true_iff, andb_true_iff, N.eqb_eq, !N.leb_le. tauto. Qed.
Lemma span_all f l x r : Forall (fun c => f c = true) l -> f x = false -> span f (l ++ x :: r) = (l, x :: r).
Proof. intros F X. induction F as [|y l Y F IH]; cbn; [rewrite X; reflexivity|]. rewrite Y, IH. reflexivity. Qed.
Lemma extract_last head field : ends_blank head -> no_blank field -> field <> [] -> extract_context (head ++ field) = Some field.
Proof.
  intros (a & c & -> & B) NB NE. unfold extract_context. rewrite rev_app_distr.
  assert (R : exists x t, rev field = x :: t).
  { destruct (rev field) as [|x t] eqn:E; [|exists x, t; reflexivity]. exfalso. apply NE. rewrite <- (rev_involutive field), E. reflexivity. }
  destruct R as (x & t & R). rewrite R.
  assert (NX : Forall (fun c => negb (isspace c) = true) (x :: t)).
  { rewrite <- R. apply Forall_rev. revert NB. apply Forall_impl. intros y Y. apply negb_true_iff. apply not_true_iff_false. intros Z. apply Y, isspace_spec. assumption. }
  inversion NX as [|? ? X T]; subst. apply negb_true_iff in X. cbn [app span]. rewrite X.
  rewrite rev_app_distr. cbn [rev app].
  destruct (t ++ c :: rev a) as [|y z] eqn:Q; [destruct t; discriminate|]. rewrite <- Q.
  change (x :: t ++ c :: rev a) with ((x :: t) ++ c :: rev a). rewrite span_all; [|assumption|apply negb_false_iff, isspace_spec; assumption].
  cbn [rev]. rewrite app_nil_r. f_equal. rewrite <- (rev_involutive field), R. reflexivity.
Qed.
Section Lines.
Context (valid : crec -> bool) (mls : bool).
Lemma check_context head u r t m : ends_blank head -> no_blank (context_of u r t m) -> no_colon u -> no_colon r -> no_colon t ->
  check_line valid (head ++ context_of u r t m) = valid (mkCR u r t m).
Proof.
  intros E B U R T. unfold check_line. rewrite extract_last; [|assumption|assumption|unfold context_of; destruct u; discriminate].
  change (context_of u r t m) with (context_text u r t m). rewrite rec_from_text by assumption. reflexivity.
Qed.
Lemma first_last_replaced w r line head : first_at w line head [] -> replaced w r (limit 1) line (head ++ r).
Proof. intros F. change (limit 1) with (Some 1%nat). replace (head ++ r) with (head ++ r ++ []) by (rewrite app_nil_r; reflexivity). apply rep_some with (b := []); [assumption|apply rep_enough]. Qed.
Lemma line_is repl ue tpl line head u r t m : in_turn repl tpl line -> short line -> labelled line head u r t m ->
  let role := match ue_role ue with Some x => x | None => r end in
  let range := if mls then Some (ue_level ue) else m in
  let new := context_of (ue_sename ue) role t range in
  no_blank new -> no_colon (ue_sename ue) -> no_colon role -> short (head ++ new) ->
  write_line valid mls repl ue tpl = ROk (if valid (mkCR (ue_sename ue) role t range) then Some (head ++ new) else None).
Proof.
  intros T SL (E & EB & NB & U & R & TT & F) role range new NBN CU CR SN. unfold write_line. rewrite (in_turn_is _ _ _ T).
  assert (NE : context_of u r t m <> []) by (unfold context_of; destruct u; discriminate).
  assert (X : extract_context line = Some (context_of u r t m)) by (rewrite E; apply extract_last; assumption).
  rewrite X. destruct (str_eqb (context_of u r t m) none_str) eqn:Q.
  { exfalso. apply str_eqb_eq in Q. assert (In 58 none_str) by (rewrite <- Q; unfold context_of; apply in_or_app; right; left; reflexivity). cbn in H. intuition discriminate. }
  change (context_of u r t m) with (context_text u r t m) at 1. rewrite rec_from_text by assumption. cbv zeta. cbn [cr_role cr_type cr_mls].
  change (sepol_context_to_string _) with new.
  rewrite (replace_to _ _ line 1 (head ++ new)); [|assumption|assumption|apply first_last_replaced; assumption|assumption].
  subst new. rewrite check_context by assumption. reflexivity.
Qed.
Lemma none_is repl ue tpl head : in_turn repl tpl (head ++ none_str) -> ends_blank head ->
  write_line valid mls repl ue tpl = ROk (Some (head ++ none_str)).
Proof.
  intros T EB. unfold write_line. rewrite (in_turn_is _ _ _ T).
  assert (NB : no_blank none_str) by (repeat constructor; unfold blank; lia).
  assert (X : extract_context (head ++ none_str) = Some none_str) by (apply extract_last; [assumption|assumption|discriminate]).
  unfold check_line. rewrite X. reflexivity.
Qed.
End Lines.

(** Files *)
Lemma is_prefix_begins w s : is_prefix w s = true <-> begins w s.
Proof. apply is_prefix_spec. Qed.
Lemma strstr_occurs w s : (exists p, strstr w s = Some p) <-> occurs w s.
Proof.
  pose proof (strstr_first w s) as F. split.
  - intros ((a & b) & E). rewrite E in F. exists a, b. exact (proj1 F).
  - intros (a & b & E). destruct (strstr w s) as [p|]; [exists p; reflexivity|]. exfalso. exact (F a b E).
Qed.
Lemma getlines_line l rest : one_line l -> getlines (l ++ 10 :: rest) = (l ++ [10]) :: getlines rest.
Proof.
  induction l as [|c l IH]; intros O; [reflexivity|]. cbn [app getlines]. assert (C : (c =? 10) = false) by (apply N.eqb_neq; intros ->; apply O; left; reflexivity).
  rewrite C, IH; [reflexivity|]. intros X. apply O. right. assumption.
Qed.
Lemma getlines_file ls : Forall one_line ls -> getlines (file_of ls) = map (fun l => l ++ [10]) ls.
Proof.
  induction 1 as [|l ls O F IH]; [reflexivity|]. unfold file_of in *. cbn [map concat]. rewrite <- app_assoc. cbn [app]. rewrite getlines_line, IH by assumption. reflexivity.
Qed.
Lemma rtrim_line l : rtrim_newline (l ++ [10]) = l.
Proof. unfold rtrim_newline. rewrite rev_app_distr. cbn. apply rev_involutive. Qed.
Lemma template_is P pred ls tpl : Forall one_line ls -> (forall l, one_line l -> (pred (l ++ [10]) = true <-> P l)) -> those P ls tpl ->
  make_template (file_of ls) pred = tpl.
Proof.
  intros O H T. unfold make_template. rewrite getlines_file by assumption. induction T as [|l ls tpl Y T IH|l ls tpl Y T IH]; [reflexivity| |];
    inversion O as [|? ? OL OLS]; subst; cbn [map filter]; specialize (H l OL) as HL.
  - apply HL in Y. rewrite Y. cbn [map]. rewrite rtrim_line, IH by assumption. reflexivity.
  - destruct (pred (l ++ [10])); [exfalso; apply Y, HL; reflexivity|]. apply IH. assumption.
Qed.
Lemma begins_line w l : one_line w -> (begins w (l ++ [10]) <-> begins w l).
Proof.
  intros W. split; [|intros (b & ->); exists (b ++ [10]); rewrite <- app_assoc; reflexivity].
  intros (b & E). destruct (rev b) as [|x b'] eqn:R.
  - assert (b = []) by (rewrite <- (rev_involutive b), R; reflexivity). subst b. rewrite app_nil_r in E. exfalso. apply W. rewrite <- E. apply in_or_app. right. left. reflexivity.
  - assert (B : b = rev b' ++ [x]) by (rewrite <- (rev_involutive b), R; reflexivity). subst b. rewrite app_assoc in E. apply app_inj_tail in E. exists (rev b'). apply E.
Qed.
Lemma occurs_line w l : w <> [] -> one_line w -> (occurs w (l ++ [10]) <-> occurs w l).
Proof.
  intros NE W. split; [|intros (a & b & ->); exists a, (b ++ [10]); rewrite <- !app_assoc; reflexivity].
  intros (a & b & E). destruct (rev b) as [|x b'] eqn:R.
  - assert (b = []) by (rewrite <- (rev_involutive b), R; reflexivity). subst b. rewrite app_nil_r in E.
    destruct (exists_last NE) as (w' & y & ->). rewrite app_assoc in E. apply app_inj_tail in E. destruct E as [_ <-]. exfalso. apply W, in_or_app. right. left. reflexivity.
  - assert (B : b = rev b' ++ [x]) by (rewrite <- (rev_involutive b), R; reflexivity). subst b. rewrite !app_assoc in E. apply app_inj_tail in E. exists a, (rev b').
    rewrite app_assoc. apply E.
Qed.
Lemma username_is s : username_pred s = true <-> occurs username_word s \/ occurs userid_word s.
Proof.
  unfold username_pred. change USERNAME with username_word. change USERID with userid_word. rewrite <- !strstr_occurs.
  destruct (strstr username_word s); [split; [intros _; left; eexists; reflexivity|reflexivity]|].
  destruct (strstr userid_word s); [split; [intros _; right; eexists; reflexivity|reflexivity]|]. split; [discriminate|]. intros [(p & X)|(p & X)]; discriminate.
Qed.
Lemma user_is s : user_pred s = true <-> occurs user_word s /\ ~ occurs username_word s /\ ~ occurs userid_word s.
Proof.
  unfold user_pred. pose proof (username_is s) as U. destruct (username_pred s).
  - split; [discriminate|]. intros (_ & A & B). destruct (proj1 U eq_refl); tauto.
  - change USER with user_word. rewrite <- (strstr_occurs user_word).
    assert (NU : ~ (occurs username_word s \/ occurs userid_word s)) by (intros X; apply U in X; discriminate).
    destruct (strstr user_word s); [split; [intros _; split; [eexists; reflexivity|tauto]|reflexivity]|]. split; [discriminate|]. intros ((p & X) & _). discriminate.
Qed.
Lemma malformed_is field : malformed field -> sepol_context_from_string field = RErr.
Proof.
  intros (_ & _ & NN & NC). unfold sepol_context_from_string. destruct (str_eqb field none_str) eqn:Q; [apply str_eqb_eq in Q; contradiction|].
  destruct (split_colon field) as [[u s1]|] eqn:E1; [|reflexivity]. destruct (split_colon s1) as [[r s2]|] eqn:E2; [|reflexivity].
  apply split_colon_some in E1. apply split_colon_some in E2. destruct E1 as [-> _], E2 as [-> _]. exfalso. exact (NC u r s2 eq_refl).
Qed.
Section Files.
Context (valid : crec -> bool) (mls : bool).
Lemma contexts_are repl ue tpl outs : Forall2 (line_written valid mls (ue_sename ue) (ue_level ue) (ue_role ue) repl) tpl outs ->
  write_contexts valid mls tpl repl ue = ROk (concat outs).
Proof.
  induction 1 as [|t o tpl outs W F IH]; [reflexivity|]. cbn [write_contexts concat]. rewrite IH.
  destruct W as [tpl0 head T E|tpl0 line head u r t m new T SL L -> NB CU CR SN V|tpl0 line head u r t m new T SL L -> NB CU CR SN V].
  - rewrite (none_is valid mls repl ue tpl0 head T E). rewrite <- !app_assoc. reflexivity.
  - pose proof (line_is valid mls repl ue tpl0 line head u r t m T SL L NB CU CR SN) as X. cbv zeta in X. unfold the_role, the_range in *. rewrite X, V. rewrite <- !app_assoc. reflexivity.
  - pose proof (line_is valid mls repl ue tpl0 line head u r t m T SL L NB CU CR SN) as X. cbv zeta in X. unfold the_role, the_range in *. rewrite X, V. reflexivity.
Qed.
Lemma replacements_are repl tpl outs : Forall2 (root_written valid repl) tpl outs -> write_replacements valid tpl repl = ROk (concat outs).
Proof.
  induction 1 as [|t o tpl outs W F IH]; [reflexivity|]. cbn [write_replacements concat]. rewrite IH.
  destruct W as [tpl0 head T E|tpl0 line head u r t m T L V|tpl0 line head u r t m T L V|tpl0 head field T E M]; rewrite (in_turn_is _ _ _ T).
  - unfold check_line. rewrite extract_last; [|assumption|repeat constructor; unfold blank; lia|discriminate]. cbn. rewrite <- !app_assoc. reflexivity.
  - destruct L as (-> & E & NB & U & R & TT & _). rewrite check_context, V by assumption. rewrite <- !app_assoc. reflexivity.
  - destruct L as (-> & E & NB & U & R & TT & _). rewrite check_context, V by assumption. reflexivity.
  - unfold check_line. rewrite extract_last; [|assumption|apply M|apply M]. rewrite malformed_is by assumption. reflexivity.
Qed.
Lemma malformed_line repl ue tpl head field : in_turn repl tpl (head ++ field) -> ends_blank head -> malformed field -> write_line valid mls repl ue tpl = RErr.
Proof.
  intros T E M. unfold write_line. rewrite (in_turn_is _ _ _ T), extract_last; [|assumption|apply M|apply M].
  destruct (str_eqb field none_str) eqn:Q; [apply str_eqb_eq in Q; destruct M as (_ & _ & M & _); contradiction|]. rewrite malformed_is by assumption. reflexivity.
Qed.
Lemma malformed_file repl ue before outs line after : Forall2 (line_written valid mls (ue_sename ue) (ue_level ue) (ue_role ue) repl) before outs ->
  write_line valid mls repl ue line = RErr -> write_contexts valid mls (before ++ line :: after) repl ue = RErr.
Proof.
  intros F E. induction F as [|t o before outs W F IH]; cbn [app write_contexts]; [rewrite E; reflexivity|]. rewrite IH.
  destruct W as [tpl0 head T EB|tpl0 l head u r t m new T SL L -> NB CU CR SN V|tpl0 l head u r t m new T SL L -> NB CU CR SN V].
  - rewrite (none_is valid mls repl ue tpl0 head T EB). reflexivity.
  - pose proof (line_is valid mls repl ue tpl0 l head u r t m T SL L NB CU CR SN) as X. cbv zeta in X. rewrite X. reflexivity.
  - pose proof (line_is valid mls repl ue tpl0 l head u r t m T SL L NB CU CR SN) as X. cbv zeta in X. rewrite X. reflexivity.
Qed.
End Files.

(** For the examples: finding by computation. *)
Lemma at_by w s a b : strstr w s = Some (a, b) -> first_at w s a b.
Proof. intros E. pose proof (strstr_first w s) as F. rewrite E in F. exact F. Qed.
Lemma nowhere_by w s : strstr w s = None -> nowhere w s.
Proof. intros E. pose proof (strstr_first w s) as F. rewrite E in F. exact F. Qed.
Lemma once_by w r s a b out : strstr w s = Some (a, b) -> strstr w b = None -> out = a ++ r ++ b -> replaced w r None s out.
Proof. intros E F ->. apply rep_all with (b := b); [apply at_by; assumption|apply rep_nowhere, nowhere_by; assumption]. Qed.
Lemma short_by s : (length s <= 1000)%nat -> short s.
Proof. intros L. unfold short. assert (2 ^ 10 < 2 ^ 64) by reflexivity. change (2 ^ 10) with 1024 in H. lia. Qed.
Lemma no_blank_by s : forallb (fun c => negb (isspace c)) s = true -> no_blank s.
Proof.
  intros F. rewrite forallb_forall in F. apply Forall_forall. intros c I B. apply F in I. apply isspace_spec in B. rewrite B in I. discriminate.
Qed.
Lemma not_in_by x s : existsb (N.eqb x) s = false -> ~ In x s.
Proof. intros E I. assert (existsb (N.eqb x) s = true) by (apply existsb_exists; exists x; split; [assumption|apply N.eqb_refl]). congruence. Qed.
