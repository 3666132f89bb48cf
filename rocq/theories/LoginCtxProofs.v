(** Proofs about the list of login contexts. *)
From Verif Require Import Base MlsModel ContextModel LoginModel LoginSpec LoginProofs.

(** ** Words *)

Lemma blank_dec c : {blank c} + {~ blank c}.
Proof.
  destruct (isspace c) eqn:E; [left; apply isspace_blank; exact E|right].
  intros X. apply isspace_blank in X. congruence.
Qed.

Lemma words_total s : exists l, words s l.
Proof.
  assert (G : forall n s, (length s <= n)%nat -> exists l, words s l).
  { induction n as [|n IH]; intros t Hn.
    - destruct t; [|cbn in Hn; lia]. exists []. apply words_none. constructor.
    - destruct (span isspace t) as [ws r] eqn:E1. destruct (span_blank_text _ _ _ E1) as (H1 & H2 & H3).
      destruct r as [|c r0].
      + exists []. apply words_none. rewrite H1, app_nil_r. exact H2.
      + destruct (span (fun c => negb (isspace c)) (c :: r0)) as [w s'] eqn:E2.
        destruct (span_word_text _ _ _ E2) as (H4 & H5 & H6).
        assert (Hw : w <> []).
        { intros ->. cbn in H4. subst s'. cbn in H6. contradiction. }
        destruct (IH s') as [l Hl].
        { rewrite H1, H4, !app_length in Hn. destruct w; [congruence|]. cbn in Hn. lia. }
        exists (w :: l). rewrite H1, H4. apply words_some; assumption. }
  apply (G (length s)). lia.
Qed.

Lemma words_fun s l : words s l -> forall l', words s l' -> l = l'.
Proof.
  induction 1 as [s Hs|ws w s l H1 H2 H3 H4 H5 IH]; intros l' H.
  - destruct H as [s' Hs'|ws' w' s' l' H1' H2' H3' H4' H5']; [reflexivity|].
    exfalso. destruct w' as [|c w']; [congruence|]. apply Forall_app in Hs. destruct Hs as [_ Hs].
    inversion Hs; subst. inversion H3'; subst. contradiction.
  - assert (Ex : exists t, t = ws ++ w ++ s) by (eexists; reflexivity). destruct Ex as [t Et].
    rewrite <- Et in H. destruct H as [s' Hs'|ws' w' s' l' H1' H2' H3' H4' H5'].
    + exfalso. destruct w as [|c w]; [congruence|]. rewrite Et in Hs'. apply Forall_app in Hs'.
      destruct Hs' as [_ Hs']. inversion Hs'; subst. inversion H3; subst. contradiction.
    + assert (N1 : match w ++ s with [] => True | c :: _ => ~ blank c end).
      { destruct w as [|c w]; [congruence|]. inversion H3; assumption. }
      assert (N2 : match w' ++ s' with [] => True | c :: _ => ~ blank c end).
      { destruct w' as [|c w']; [congruence|]. inversion H3'; assumption. }
      pose proof (span_blank_app ws (w ++ s) H1 N1) as P1.
      pose proof (span_blank_app ws' (w' ++ s') H1' N2) as P2.
      rewrite <- Et in P1. rewrite P1 in P2. injection P2 as <- E.
      pose proof (span_word_app w s H3 H4) as Q1. pose proof (span_word_app w' s' H3' H4') as Q2.
      rewrite E, Q2 in Q1. injection Q1 as -> ->. f_equal. apply IH. exact H5'.
Qed.

Lemma words_newline s l : words s l -> words (s ++ [10]) l.
Proof.
  induction 1 as [s Hs|ws w s l H1 H2 H3 H4 H5 IH].
  - apply words_none. apply Forall_app. split; [exact Hs|]. constructor; [|constructor]. unfold blank. auto.
  - rewrite <- !app_assoc. apply words_some; try assumption. destruct s; [|exact H4]. cbn. unfold blank. auto.
Qed.

Lemma words_newline_inv s l : words (s ++ [10]) l -> words s l.
Proof.
  intros H. destruct (words_total s) as [l' H']. rewrite (words_fun _ _ H _ (words_newline _ _ H')). exact H'.
Qed.

(** ** The line for the role and type *)

(** The shape of a line without its newline. *)
Definition head_of (l role type rest : list N) : Prop :=
  exists ws extra b, Forall blank ws /\ no_blank extra /\ blank b /\
    l = ws ++ role ++ 58 :: type ++ extra ++ b :: rest /\ (extra = [] \/ exists e, extra = 58 :: e).

Lemma prefix_before_blank P : forall W c rest y,
  W ++ c :: rest = P ++ y -> no_blank P -> blank c -> exists e, W = P ++ e /\ y = e ++ c :: rest.
Proof.
  induction P as [|p P IH]; intros W c rest y E HP Hc; cbn [app] in E.
  - exists W. split; [reflexivity|]. symmetry. exact E.
  - inversion HP; subst. destruct W as [|w W]; cbn in E; injection E as E0 E.
    + subst. contradiction.
    + subst w. destruct (IH W c rest y E) as (e & -> & ->); [assumption|assumption|].
      exists e. split; reflexivity.
Qed.

Lemma no_blank_app a b : no_blank (a ++ b) <-> no_blank a /\ no_blank b.
Proof. unfold no_blank. apply Forall_app. Qed.

Lemma no_blank_colon : ~ blank 58.
Proof. unfold blank. lia. Qed.

Lemma compspan s a b : span (fun c => negb (isspace c) && negb (c =? 58)) s = (a, b) ->
  s = a ++ b /\ no_blank a /\ no_colon a /\ match b with [] => True | c :: _ => blank c \/ c = 58 end.
Proof.
  intros H. destruct (span_spec _ _ _ _ H) as (H1 & H2 & H3). split; [exact H1|].
  rewrite Forall_forall in H2. split; [|split].
  - apply noblanks_space, Forall_forall. intros c Hc. specialize (H2 c Hc). apply andb_true_iff in H2. apply H2.
  - apply no_colon_forall, Forall_forall. intros c Hc. specialize (H2 c Hc). apply andb_true_iff in H2. apply H2.
  - destruct b as [|c b]; [exact I|]. apply andb_false_iff in H3. destruct H3 as [H3|H3].
    + left. apply isspace_blank. destruct (isspace c); [reflexivity|discriminate].
    + right. apply negb_false_iff, N.eqb_eq in H3. exact H3.
Qed.

Lemma compspan_app a b : no_blank a -> no_colon a ->
  match b with [] => True | c :: _ => blank c \/ c = 58 end ->
  span (fun c => negb (isspace c) && negb (c =? 58)) (a ++ b) = (a, b).
Proof.
  intros H1 H2 H3. apply span_app.
  - apply noblanks_space in H1. apply no_colon_forall in H2. rewrite Forall_forall in *.
    intros c Hc. rewrite (H1 c Hc), (H2 c Hc). reflexivity.
  - destruct b as [|c b]; [exact I|]. destruct H3 as [H3|H3].
    + apply isspace_blank in H3. rewrite H3. reflexivity.
    + subst c. cbn. apply andb_false_r.
Qed.

(** The line as used after line 166: without its newline. *)
Definition used (b : list N) : list N := cstr (chomp b).

Lemma head_sound b role type rest : line_head b = Some (role, type, rest) ->
  head_of (used b) role type rest /\ plain role /\ plain type.
Proof.
  unfold line_head. fold (used b). generalize (used b). intros l.
  destruct (span isspace l) as [ws start] eqn:E1. destruct (span_blank_text _ _ _ E1) as (H1 & H2 & H3).
  destruct start as [|c0 s0]; [discriminate|]. remember (c0 :: s0) as start eqn:Es. clear Es.
  destruct (span _ start) as [W e] eqn:E2 in |- *.
  destruct (span_word_text _ _ _ E2) as (H4 & H5 & H6). destruct e as [|c rest']; [discriminate|].
  destruct (span (fun c => negb (isspace c) && negb (c =? 58)) start) as [r y] eqn:E3.
  destruct (compspan _ _ _ E3) as (H7 & H8 & H9 & _).
  destruct y as [|c1 y]; [discriminate|]. destruct (N.eqb_spec c1 58) as [E4|E4]; [|discriminate]. subst c1.
  destruct (span (fun c => negb (isspace c) && negb (c =? 58)) y) as [t z] eqn:E5.
  destruct (compspan _ _ _ E5) as (H10 & H11 & H12 & H13). intros [= <- <- <-].
  split; [|split; split; assumption].
  assert (EE : W ++ c :: rest' = (r ++ 58 :: t) ++ z).
  { rewrite <- H4, H7, H10, <- app_assoc. reflexivity. }
  destruct (prefix_before_blank _ _ _ _ _ EE) as (e & EW & Ez); [|exact H6|].
  { apply no_blank_app. split; [exact H8|]. constructor; [exact no_blank_colon|exact H11]. }
  exists ws, e, c. split; [exact H2|]. split.
  { rewrite EW in H5. apply no_blank_app in H5. apply H5. }
  split; [exact H6|]. split.
  { rewrite H1, H7, H10, Ez. reflexivity. }
  destruct e as [|e0 e]; [left; reflexivity|right]. rewrite Ez in H13. cbn in H13.
  destruct H13 as [X|X]; [|exists e; congruence].
  rewrite EW in H5. apply no_blank_app in H5. destruct H5 as [_ H5]. inversion H5; subst. contradiction.
Qed.

Lemma head_complete b role type rest : plain role -> plain type ->
  head_of (used b) role type rest -> line_head b = Some (role, type, rest).
Proof.
  intros [Hr1 Hr2] [Ht1 Ht2] (ws & extra & c & H1 & H2 & H3 & H4 & H5).
  unfold line_head. fold (used b). rewrite H4.
  assert (P1 : span isspace (ws ++ role ++ 58 :: type ++ extra ++ c :: rest)
               = (ws, role ++ 58 :: type ++ extra ++ c :: rest)).
  { apply span_blank_app; [exact H1|]. destruct role as [|x r]; [exact no_blank_colon|].
    cbn. inversion Hr2; assumption. }
  rewrite P1.
  assert (P2 : span (fun c => negb (isspace c)) (role ++ 58 :: type ++ extra ++ c :: rest)
               = (role ++ 58 :: type ++ extra, c :: rest)).
  { replace (role ++ 58 :: type ++ extra ++ c :: rest) with ((role ++ 58 :: type ++ extra) ++ c :: rest)
      by (rewrite <- !app_assoc; cbn [app]; rewrite <- app_assoc; reflexivity).
    apply span_word_app; [|exact H3]. apply no_blank_app. split; [exact Hr2|].
    constructor; [exact no_blank_colon|]. apply no_blank_app. split; assumption. }
  rewrite P2.
  rewrite (compspan_app role (58 :: type ++ extra ++ c :: rest) Hr2 Hr1 (or_intror eq_refl)).
  rewrite (compspan_app type (extra ++ c :: rest) Ht2 Ht1).
  2:{ destruct H5 as [->|[e ->]]; [left; exact H3|right; reflexivity]. }
  change (58 =? 58) with true.
  destruct (role ++ 58 :: type ++ extra ++ c :: rest) eqn:E; [destruct role; discriminate|reflexivity].
Qed.

(** A line read by getline. *)
Definition proper (b : list N) : Prop := no_newline (chomp b).

Lemma lines_proper file ls : lines_of file ls -> Forall proper ls.
Proof.
  assert (X : forall l, no_newline l -> chomp l = l).
  { intros l Hn. destruct (chomp_spec l) as [(t & E & _)|[_ E]]; [|exact E].
    exfalso. apply Hn. rewrite E. apply in_or_app. right. left. reflexivity. }
  induction 1 as [|l Hl Hn|l f ls Hn _ IH]; [constructor| |].
  - constructor; [|constructor]. unfold proper. rewrite (X l Hn). exact Hn.
  - constructor; [|exact IH]. unfold proper.
    destruct (chomp_spec (l ++ [10])) as [(t & E & ->)|[N1 _]]; [|exfalso; apply N1; exists l; reflexivity].
    apply app_inj_tail in E. destruct E as [<- _]. exact Hn.
Qed.

Lemma cstr_in x s : In x (cstr s) -> In x s.
Proof.
  induction s as [|c t IH]; cbn [cstr]; [intros []|]. destruct (c =? 0); [intros []|].
  intros [H|H]; [left; exact H|right; exact (IH H)].
Qed.

Lemma cstr_app s t : cstr (s ++ t) = if in_dec N.eq_dec 0 s then cstr s else s ++ cstr t.
Proof.
  induction s as [|c s IH]; [reflexivity|]. cbn [cstr app]. rewrite IH.
  destruct (N.eqb_spec c 0) as [E|E].
  - destruct (in_dec N.eq_dec 0 (c :: s)) as [_|H]; [reflexivity|]. exfalso. apply H. left. exact E.
  - destruct (in_dec N.eq_dec 0 s) as [H1|H1]; destruct (in_dec N.eq_dec 0 (c :: s)) as [H2|H2];
      try reflexivity; exfalso.
    + apply H2. right. exact H1.
    + destruct H2 as [H2|H2]; [exact (E H2)|exact (H1 H2)].
Qed.

Lemma cstr_id s : ~ In 0 s -> cstr s = s.
Proof. intros H. apply text_cstr. split; [exact H|left; reflexivity]. Qed.

Lemma used_text b : proper b ->
  no_newline (used b) /\ (cstr b = used b \/ cstr b = used b ++ [10]).
Proof.
  intros H. split; [intros X; apply H, cstr_in; exact X|]. unfold used.
  destruct (chomp_spec b) as [(t & E & ->)|[_ ->]]; [|left; reflexivity].
  rewrite E, cstr_app. destruct (in_dec N.eq_dec 0 t) as [Hn|Hn]; [left; reflexivity|right].
  rewrite (cstr_id t Hn). reflexivity.
Qed.

Lemma lists_head b role type ps : proper b ->
  (lists_for role type b ps <-> exists rest, head_of (used b) role type rest /\ words rest ps).
Proof.
  intros Hp. destruct (used_text b Hp) as [Hn Hc]. split.
  - intros (line & ws & extra & c & rest & Ht & H1 & H2 & H3 & H4 & H5 & H6 & H7).
    apply text_cstr in Ht. subst line. destruct Hc as [Hc|Hc].
    + exists rest. split; [|exact H7]. exists ws, extra, c. rewrite <- Hc.
      split; [exact H1|]. split; [exact H2|]. split; [exact H3|]. split; [exact H5|exact H6].
    + rewrite Hc in H5. destruct (@exists_last N rest) as (rest0 & z & ->).
      { intros ->.
        replace (ws ++ role ++ 58 :: type ++ extra ++ [c]) with
          ((ws ++ role ++ 58 :: type ++ extra) ++ [c]) in H5
          by (rewrite <- !app_assoc; cbn [app]; rewrite <- app_assoc; reflexivity).
        apply app_inj_tail in H5. destruct H5 as [_ H5]. congruence. }
      replace (ws ++ role ++ 58 :: type ++ extra ++ c :: rest0 ++ [z]) with
        ((ws ++ role ++ 58 :: type ++ extra ++ c :: rest0) ++ [z]) in H5
        by (repeat (rewrite <- !app_assoc; cbn [app]); reflexivity).
      apply app_inj_tail in H5. destruct H5 as [H5 <-].
      exists rest0. split; [|apply words_newline_inv; exact H7]. exists ws, extra, c.
      split; [exact H1|]. split; [exact H2|]. split; [exact H3|]. split; [exact H5|exact H6].
  - intros (rest & (ws & extra & c & H1 & H2 & H3 & H4 & H5) & H6).
    assert (Hc10 : c <> 10).
    { intros ->. apply Hn. rewrite H4. repeat (apply in_or_app; right).
      right. repeat (apply in_or_app; right). left. reflexivity. }
    destruct Hc as [Hc|Hc].
    + exists (cstr b), ws, extra, c, rest. rewrite Hc at 2.
      split; [apply cstr_text|]. split; [exact H1|]. split; [exact H2|]. split; [exact H3|].
      split; [exact Hc10|]. split; [exact H4|]. split; [exact H5|exact H6].
    + exists (cstr b), ws, extra, c, (rest ++ [10]). rewrite Hc at 2.
      split; [apply cstr_text|]. split; [exact H1|]. split; [exact H2|]. split; [exact H3|].
      split; [exact Hc10|]. split; [|split; [exact H5|apply words_newline; exact H6]].
      rewrite H4. repeat (rewrite <- !app_assoc; cbn [app]). reflexivity.
Qed.

Lemma lists_model b role type : proper b -> plain role -> plain type ->
  (forall ps, lists_for role type b ps <->
   exists rest, line_head b = Some (role, type, rest) /\ words rest ps).
Proof.
  intros Hp Hr Ht ps. rewrite (lists_head b role type ps Hp). split.
  - intros (rest & H & W). exists rest. split; [|exact W]. apply head_complete; assumption.
  - intros (rest & H & W). exists rest. split; [|exact W]. apply head_sound. exact H.
Qed.

Lemma lists_fun b role type ps ps' : proper b -> plain role -> plain type ->
  lists_for role type b ps -> lists_for role type b ps' -> ps = ps'.
Proof.
  intros Hp Hr Ht A B. apply (lists_model b role type Hp Hr Ht) in A, B.
  destruct A as (r & A1 & A2), B as (r' & B1 & B2). rewrite A1 in B1. injection B1 as <-.
  exact (words_fun _ _ A2 _ B2).
Qed.

Lemma find_spec role type ls : Forall proper ls -> plain role -> plain type ->
  match find_line role type ls with
  | Some rest => exists b ps, first_such (fun x => exists q, lists_for role type x q) ls b /\
                   lists_for role type b ps /\ words rest ps
  | None => forall b q, In b ls -> ~ lists_for role type b q
  end.
Proof.
  intros Hp Hr Ht. induction Hp as [|l ls Hl _ IH]; cbn [find_line]; [intros b q []|].
  assert (Next : (forall q, ~ lists_for role type l q) ->
    match find_line role type ls with
    | Some rest => exists b ps, first_such (fun x => exists q, lists_for role type x q) (l :: ls) b /\
                   lists_for role type b ps /\ words rest ps
    | None => forall b q, In b (l :: ls) -> ~ lists_for role type b q
    end).
  { intros Hn. destruct (find_line role type ls) as [rest|].
    - destruct IH as (b & ps & (p & q & -> & H1 & H2) & H3 & H4). exists b, ps.
      split; [|split; assumption]. exists (l :: p), q. split; [reflexivity|]. split; [exact H1|].
      intros x [<-|Hx]; [intros [q0 X]; exact (Hn q0 X)|exact (H2 x Hx)].
    - intros b q [<-|Hb]; [apply Hn|apply IH; exact Hb]. }
  destruct (line_head l) as [[[r t] rest]|] eqn:E.
  - destruct (str_eqb role r && str_eqb type t) eqn:E2.
    + apply andb_true_iff in E2. destruct E2 as [E2 E3]. apply str_eqb_eq in E2, E3. subst r t.
      destruct (words_total rest) as [ps Hw].
      assert (L : lists_for role type l ps).
      { apply (lists_model l role type Hl Hr Ht). exists rest. split; assumption. }
      exists l, ps. split; [|split; assumption]. exists [], ls. split; [reflexivity|].
      split; [exists ps; exact L|]. intros x [].
    + apply Next. intros q L. apply (lists_model l role type Hl Hr Ht) in L.
      destruct L as (rest' & L & _). rewrite L in E. injection E as <- <- <-.
      rewrite !(proj2 (str_eqb_eq _ _) eq_refl) in E2. discriminate.
  - apply Next. intros q L. apply (lists_model l role type Hl Hr Ht) in L.
    destruct L as (rest' & L & _). congruence.
Qed.

(** ** Contexts *)

Lemma scan_count s : forall n, Forall (fun c => c <> 9 /\ c <> 10 /\ c <> 13 /\ c <> 32) s ->
  ctx_scan s n = Some (n + N.of_nat (colon_count s)).
Proof.
  induction s as [|c t IH]; intros n H; cbn [ctx_scan].
  - f_equal. cbn. lia.
  - inversion H as [|? ? (H1 & H2 & H3 & H4) Ht]; subst. unfold colon_count in *. cbn [count_occ].
    destruct (N.eqb_spec c 58) as [E|E].
    + rewrite (IH _ Ht). destruct (N.eq_dec c 58); [|congruence]. f_equal. lia.
    + replace ((c =? 10) || (c =? 9) || (c =? 13)) with false by lia.
      replace ((c =? 32) && (n <? 3)) with false by lia.
      rewrite (IH _ Ht). destruct (N.eq_dec c 58); [congruence|]. reflexivity.
Qed.

Lemma no_blank_scan s : no_blank s -> Forall (fun c => c <> 9 /\ c <> 10 /\ c <> 13 /\ c <> 32) s.
Proof.
  unfold no_blank. rewrite !Forall_forall. intros H c Hc. specialize (H c Hc). unfold blank in H. lia.
Qed.

Lemma colon_count_app a b : colon_count (a ++ b) = (colon_count a + colon_count b)%nat.
Proof. apply count_occ_app. Qed.

Lemma colon_count_none s : no_colon s <-> colon_count s = 0%nat.
Proof. unfold no_colon, colon_count. rewrite count_occ_not_In. reflexivity. Qed.

Lemma colon_count_cons s : colon_count (58 :: s) = S (colon_count s).
Proof. unfold colon_count. rewrite count_occ_cons_eq; reflexivity. Qed.

Lemma comps_split k a r : no_colon a ->
  ctx_components (S k) (a ++ 58 :: r) = a :: ctx_components k r.
Proof.
  intros H. pose proof (proj2 (split_some _ a r) (conj eq_refl H)) as E.
  destruct (a ++ 58 :: r) as [|c s] eqn:Es; [destruct a; discriminate|].
  cbn [ctx_components]. rewrite E. reflexivity.
Qed.

Lemma comps_last k a : no_colon a -> a <> [] -> ctx_components k a = [a].
Proof.
  intros H Hn. destruct a as [|c s]; [congruence|]. destruct k; [reflexivity|]. cbn [ctx_components].
  rewrite (proj2 (split_none _) H). reflexivity.
Qed.

(** What the library makes of a partial context. *)
Definition made (user : list N) (level : option (list N)) (w : list N) : option (list N) :=
  match context_new (user ++ [58] ++ w) with
  | None => None
  | Some u =>
      match ctx_set u CRange level with
      | None => None
      | Some u' => match context_str u' with ROk s => Some s | _ => None end
      end
  end.

Definition level_ok (level : option (list N)) : Prop :=
  match level with None => True | Some l => ~ In 9 l /\ ~ In 10 l /\ ~ In 13 l end.

Lemma range_ok level : level_ok level ->
  match level with None => true | Some s => comp_ok true s end = true.
Proof.
  destruct level as [l|]; [|reflexivity]. intros (H1 & H2 & H3). unfold comp_ok.
  apply forallb_forall. intros c Hc.
  assert (c <> 9) by (intros ->; exact (H1 Hc)). assert (c <> 10) by (intros ->; exact (H2 Hc)).
  assert (c <> 13) by (intros ->; exact (H3 Hc)). cbn [negb]. rewrite andb_false_r. lia.
Qed.

Lemma new_text user w : plain user -> no_blank w ->
  context_new (user ++ [58] ++ w) =
  if (1 <=? colon_count w)%nat && (colon_count w <=? 4)%nat
  then let cs := user :: ctx_components 2 w in
       Some (mkCtx (nth_error cs 0) (nth_error cs 1) (nth_error cs 2) (nth_error cs 3))
  else None.
Proof.
  intros [Hu1 Hu2] Hw. unfold context_new. rewrite scan_count.
  2:{ apply no_blank_scan, no_blank_app. split; [exact Hu2|]. constructor; [exact no_blank_colon|exact Hw]. }
  rewrite colon_count_app, (proj1 (colon_count_none user) Hu1). cbn [app]. rewrite colon_count_cons.
  destruct ((1 <=? colon_count w)%nat && (colon_count w <=? 4)%nat) eqn:E.
  - replace ((0 + N.of_nat (0 + S (colon_count w)) <? 2) || (5 <? 0 + N.of_nat (0 + S (colon_count w))))
      with false by lia.
    rewrite (comps_split 2 user w Hu1). reflexivity.
  - replace ((0 + N.of_nat (0 + S (colon_count w)) <? 2) || (5 <? 0 + N.of_nat (0 + S (colon_count w))))
      with true by lia. reflexivity.
Qed.

Lemma candidate_fun user level p c c' : candidate user level p c -> candidate user level p c' -> c = c'.
Proof.
  intros (_ & r & t & Hr & Ht & A) (_ & r' & t' & Hr' & Ht' & B).
  assert (G : forall x y, r ++ 58 :: x = r' ++ 58 :: y -> r = r' /\ x = y).
  { intros x y E. exact (colon_split _ _ _ _ Hr Hr' E). }
  assert (K : forall s, no_colon s -> forall a b, s <> a ++ 58 :: b).
  { intros s Hs a b ->. apply Hs, in_or_app. right. left. reflexivity. }
  destruct A as [(A1 & A2 & A3)|[(A0 & A1 & A3)|(x & A1 & A3)]];
  destruct B as [(B1 & B2 & B3)|[(B0 & B1 & B3)|(x' & B1 & B3)]]; rewrite A1 in B1;
    apply G in B1; destruct B1 as [-> E].
  - congruence.
  - congruence.
  - destruct t'; discriminate.
  - congruence.
  - subst t'. congruence.
  - exfalso. exact (K t Ht _ _ E).
  - exfalso. destruct t; discriminate.
  - exfalso. symmetry in E. exact (K t' Ht' _ _ E).
  - destruct (colon_split _ _ _ _ Ht Ht' E) as [-> _]. congruence.
Qed.

Lemma made_spec user level w : plain user -> level_ok level -> no_blank w -> w <> [] ->
  match context_new (user ++ [58] ++ w) with
  | None => forall c, ~ candidate user level w c
  | Some u => exists u' c, ctx_set u CRange level = Some u' /\ context_str u' = ROk c /\ candidate user level w c
  end.
Proof.
  intros Hu Hl Hw Hne. rewrite (new_text user w Hu Hw).
  destruct ((1 <=? colon_count w)%nat && (colon_count w <=? 4)%nat) eqn:E.
  2:{ intros c (Hc & _). lia. }
  cbv zeta.
  destruct (split_colon w) as [[r p]|] eqn:E1.
  2:{ apply split_none, colon_count_none in E1. lia. }
  apply split_some in E1. destruct E1 as [-> Hr].
  rewrite (comps_split 1 r p Hr).
  assert (Cnt : (1 <= colon_count (r ++ 58%N :: p) <= 4)%nat) by lia.
  unfold ctx_set. cbn [x_user x_role x_type x_range]. rewrite (range_ok level Hl).
  eexists. destruct p as [|p0 p1].
  - exists (user ++ 58 :: r ++ level_part level). split; [reflexivity|]. split.
    + unfold context_str, ctx_part. cbn. destruct level; cbn; rewrite ?app_nil_r; reflexivity.
    + split; [exact Cnt|]. exists r, []. split; [exact Hr|]. split; [intros []|]. left.
      split; [reflexivity|]. split; reflexivity.
  - destruct (split_colon (p0 :: p1)) as [[t x]|] eqn:E2.
    + apply split_some in E2. destruct E2 as [E2 Ht]. rewrite E2. rewrite (comps_split 0 t x Ht).
      exists (user ++ 58 :: r ++ 58 :: t ++ level_part level). split; [reflexivity|]. split.
      * unfold context_str, ctx_part. cbn.
        destruct level; cbn; repeat (rewrite <- !app_assoc; cbn [app]); rewrite ?app_nil_r; reflexivity.
      * split; [rewrite <- E2; exact Cnt|]. exists r, t. split; [exact Hr|]. split; [exact Ht|].
        right; right. exists x. split; [reflexivity|]. reflexivity.
    + apply split_none in E2. rewrite (comps_last 1 (p0 :: p1) E2 ltac:(discriminate)).
      exists (user ++ 58 :: r ++ 58 :: (p0 :: p1) ++ level_part level). split; [reflexivity|]. split.
      * unfold context_str, ctx_part. cbn.
        destruct level; cbn; repeat (rewrite <- !app_assoc; cbn [app]); rewrite ?app_nil_r; reflexivity.
      * split; [exact Cnt|]. exists r, (p0 :: p1). split; [exact Hr|]. split; [exact E2|].
        right; left. split; [discriminate|]. split; reflexivity.
Qed.

Lemma candidates_fun user level ps cs : candidates user level ps cs ->
  forall cs', candidates user level ps cs' -> cs = cs'.
Proof.
  induction 1 as [|p ps c cs H _ IH|p ps cs H _ IH]; intros cs' H'; inversion H'; subst.
  - reflexivity.
  - f_equal; [eapply candidate_fun; eassumption|apply IH; assumption].
  - exfalso. match goal with X : forall c, ~ _ |- _ => exact (X _ H) end.
  - exfalso. match goal with X : candidate _ _ _ _ |- _ => exact (H _ X) end.
  - apply IH. assumption.
Qed.

(** ** The loop over partial contexts *)

Section Add.
  Context (check : list N -> chk).

  (** Adding a context to the list. *)
  Definition addc (acc : list (list N)) (c : list N) : list (list N) :=
    if is_in_reachable acc c then acc
    else match check c with ChkValid => acc ++ [c] | _ => acc end.

  Lemma in_reachable acc c : is_in_reachable acc c = true <-> In c acc.
  Proof.
    unfold is_in_reachable. rewrite existsb_exists. split.
    - intros (x & Hx & E). apply str_eqb_eq in E. subst. exact Hx.
    - intros H. exists c. split; [exact H|apply str_eqb_eq; reflexivity].
  Qed.

  Definition okc (c : list N) : Prop := check c = ChkValid.

  Lemma two_snoc {A} (acc l1 l2 l3 : list A) c x y : acc ++ [c] = l1 ++ x :: l2 ++ y :: l3 ->
    (exists l3', acc = l1 ++ x :: l2 ++ y :: l3') \/ (y = c /\ In x acc).
  Proof.
    intros E. destruct l3 as [|z l3 _] using rev_ind.
    - right. replace (l1 ++ x :: l2 ++ [y]) with ((l1 ++ x :: l2) ++ [y]) in E
        by (rewrite <- app_assoc; reflexivity).
      apply app_inj_tail in E. destruct E as [-> ->]. split; [reflexivity|].
      apply in_or_app. right. left. reflexivity.
    - left. exists l3.
      replace (l1 ++ x :: l2 ++ y :: l3 ++ [z]) with ((l1 ++ x :: l2 ++ y :: l3) ++ [z]) in E
        by (repeat (rewrite <- !app_assoc; cbn [app]); reflexivity).
      apply app_inj_tail in E. apply E.
  Qed.

  Lemma firsts_step before acc c : firsts_of okc before acc -> firsts_of okc (before ++ [c]) (addc acc c).
  Proof.
    intros (D & I1 & O1). unfold addc.
    assert (Keep : (In c acc \/ ~ okc c) -> firsts_of okc (before ++ [c]) acc).
    { intros Hc. split; [exact D|]. split.
      - intros x. rewrite in_app_iff, I1. split.
        + intros [H1 H2]. split; [left; exact H1|exact H2].
        + intros [[H1|[<-|[]]] H2]; [split; assumption|]. destruct Hc as [Hc|Hc]; [|contradiction].
          apply I1. exact Hc.
      - intros x y H. destruct (O1 x y H) as (c1 & c2 & E & Hy). exists c1, (c2 ++ [c]).
        split; [rewrite E, <- app_assoc; reflexivity|exact Hy]. }
    destruct (is_in_reachable acc c) eqn:E.
    - apply in_reachable in E. apply Keep. left. exact E.
    - assert (Nc : ~ In c acc) by (rewrite <- in_reachable; congruence).
      destruct (check c) eqn:Ec; [|apply Keep; right; unfold okc; congruence..].
      split; [|split].
      + apply NoDup_rev in D. rewrite <- (rev_involutive (acc ++ [c])). apply NoDup_rev.
        rewrite rev_app_distr. cbn. constructor; [|exact D]. rewrite <- in_rev. exact Nc.
      + intros x. rewrite !in_app_iff, I1. split.
        * intros [[H1 H2]|[<-|[]]]; [split; [left; exact H1|exact H2]|].
          split; [right; left; reflexivity|exact Ec].
        * intros [[H1|[<-|[]]] H2]; [left; split; assumption|right; left; reflexivity].
      + intros x y (l1 & l2 & l3 & H). destruct (two_snoc _ _ _ _ _ _ _ H) as [(l3' & E3)|[-> Hx]].
        * destruct (O1 x y) as (c1 & c2 & E1 & Hy); [exists l1, l2, l3'; exact E3|].
          exists c1, (c2 ++ [c]). split; [rewrite E1, <- app_assoc; reflexivity|exact Hy].
        * apply I1 in Hx. destruct Hx as [Hx _]. apply in_split in Hx. destruct Hx as (c1 & c2 & ->).
          exists c1, (c2 ++ [c]). split; [rewrite <- app_assoc; reflexivity|].
          intros Hc. apply Nc, I1. split; [apply in_or_app; left; exact Hc|exact Ec].
  Qed.

  Lemma firsts_fold cs : forall before acc, firsts_of okc before acc ->
    firsts_of okc (before ++ cs) (fold_left addc cs acc).
  Proof.
    induction cs as [|c cs IH]; intros before acc H; cbn [fold_left].
    - rewrite app_nil_r. exact H.
    - replace (before ++ c :: cs) with ((before ++ [c]) ++ cs) by (rewrite <- app_assoc; reflexivity).
      apply IH. apply firsts_step. exact H.
  Qed.

  Lemma firsts_nil : firsts_of okc [] [].
  Proof.
    split; [constructor|]. split; [intros c; cbn; tauto|].
    intros x y (l1 & l2 & l3 & E). destruct l1; discriminate.
  Qed.
End Add.

Section Loop.
  Context (check : list N -> chk) (user : list N) (level : option (list N)).
  Context (user_plain : plain user) (level_good : level_ok level).

  Lemma loop_words s ps : words s ps -> forall fuel acc, (length s < fuel)%nat ->
    exists cs, candidates user level ps cs /\
      partials_loop fuel check user level s acc = ROk (fold_left (addc check) cs acc).
  Proof.
    induction 1 as [s Hs|ws w s l H1 H2 H3 H4 H5 IH]; intros fuel acc Hf.
    - exists []. split; [constructor|]. destruct fuel; [lia|]. cbn [partials_loop].
      rewrite <- (app_nil_r s), (span_blank_app s [] Hs I). reflexivity.
    - destruct fuel as [|f]; [lia|]. cbn [partials_loop]. rewrite !app_length in Hf.
      assert (N1 : match w ++ s with [] => True | c :: _ => ~ blank c end).
      { destruct w as [|c w]; [congruence|]. inversion H3; assumption. }
      rewrite (span_blank_app ws (w ++ s) H1 N1).
      destruct (w ++ s) as [|x0 xs] eqn:Ex; [destruct w; [congruence|discriminate]|].
      rewrite <- Ex, (span_word_app w s H3 H4). clear Ex N1 x0 xs.
      assert (Lw : (1 <= length w)%nat) by (destruct w; [congruence|cbn; lia]).
      assert (Next : forall acc, exists cs, candidates user level l cs /\
        partials_loop f check user level (match s with [] => [] | _ :: e' => e' end) acc
        = ROk (fold_left (addc check) cs acc)).
      { intros acc'. destruct s as [|b s'].
        - destruct (IH f acc') as (cs & C1 & C2); [cbn; lia|]. exists cs. split; assumption.
        - destruct (IH (S f) acc') as (cs & C1 & C2); [cbn [length] in *; lia|].
          exists cs. split; [exact C1|].
          (* the next blank is skipped anyway *)
          clear - C2 H4 Hf H5. cbn [stops] in H4. apply isspace_blank in H4.
          cbn [partials_loop span] in C2. rewrite H4 in C2.
          destruct f as [|f']; [cbn [length] in Hf; lia|].
          cbn [partials_loop]. destruct (span isspace s') as [wa wb] eqn:Es.
          revert C2. clear - Hf H5 Es. intros C2.
          assert (Mono : forall fu t a r, partials_loop fu check user level t a = ROk r ->
            forall fu', (length t < fu')%nat -> partials_loop fu' check user level t a = ROk r).
          { clear. induction fu as [|fu IH]; intros t a r H fu' Hlt; [discriminate|].
            destruct fu' as [|fu']; [lia|]. cbn [partials_loop] in *.
            destruct (span isspace t) as [wa wb] eqn:Es.
            destruct (span_blank_text _ _ _ Es) as (L1 & _ & L2).
            destruct wb as [|b0 b1]; [exact H|]. remember (b0 :: b1) as wb eqn:Ewb.
            destruct (span (fun c => negb (isspace c)) wb) as [w e] eqn:Ee.
            destruct (span_word_text _ _ _ Ee) as (L3 & _ & L4).
            assert (Lt : (length (match e with [] => [] | _ :: e' => e' end) < fu')%nat).
            { rewrite L1, L3, !app_length in Hlt. destruct e as [|e0 e1]; [|cbn [length] in *; lia].
              destruct w as [|w0 w1]; [|cbn [length] in *; lia]. subst wb. discriminate. }
            destruct (context_new (user ++ [58] ++ w)) as [u|]; [|exact (IH _ _ _ H _ Lt)].
            destruct (ctx_set u CRange level) as [u'|]; [|discriminate].
            destruct (context_str u') as [st| |]; [|discriminate|discriminate].
            destruct (is_in_reachable a st); [exact (IH _ _ _ H _ Lt)|].
            destruct (check st); exact (IH _ _ _ H _ Lt). }
          destruct (span_blank_text _ _ _ Es) as (L1 & _ & L2).
          destruct wb as [|b0 b1]; [exact C2|]. remember (b0 :: b1) as wb eqn:Ewb.
          destruct (span (fun c => negb (isspace c)) wb) as [w' e] eqn:Ee.
          destruct (span_word_text _ _ _ Ee) as (L3 & _ & L4).
          assert (Lt : (length (match e with [] => [] | _ :: e' => e' end) < f')%nat).
          { cbn [length] in Hf. rewrite L1, L3, !app_length in Hf.
            destruct e as [|e0 e1]; [|cbn [length] in *; lia].
            destruct w' as [|w0 w1]; [|cbn [length] in *; lia]. subst wb. discriminate. }
          destruct (context_new (user ++ [58] ++ w')) as [u|]; [|exact (Mono _ _ _ _ C2 _ Lt)].
          destruct (ctx_set u CRange level) as [u'|]; [|discriminate].
          destruct (context_str u') as [st| |]; [|discriminate|discriminate].
          destruct (is_in_reachable acc' st); [exact (Mono _ _ _ _ C2 _ Lt)|].
          destruct (check st); exact (Mono _ _ _ _ C2 _ Lt). }
      pose proof (made_spec user level w user_plain level_good H3 H2) as M.
      destruct (context_new (user ++ [58] ++ w)) as [u|].
      + destruct M as (u' & c & M1 & M2 & M3). rewrite M1, M2.
        destruct (Next (addc check acc c)) as (cs & C1 & C2).
        exists (c :: cs). split; [apply cands_some; assumption|]. cbn [fold_left].
        rewrite <- C2. unfold addc. destruct (is_in_reachable acc c); [reflexivity|].
        destruct (check c); reflexivity.
      + destruct (Next acc) as (cs & C1 & C2). exists cs. split; [apply cands_skip; assumption|exact C2].
  Qed.
End Loop.

(** ** A whole file *)

Section File.
  Context (check : list N -> chk) (user : list N) (con : ctx) (role type : list N).
  Context (user_plain : plain user) (role_plain : plain role) (type_plain : plain type).
  Context (con_role : x_role con = Some role) (con_type : x_type con = Some type)
          (level_good : level_ok (x_range con)).

  Lemma file_offers f acc :
    exists cs, offers (Some f) user role type (x_range con) cs /\
      match get_context_user check f con user acc with
      | ROk l => l = fold_left (addc check) cs acc
      | RErr => acc = fold_left (addc check) cs acc
      | RUB => False
      end.
  Proof.
    unfold get_context_user. rewrite con_role, con_type.
    pose proof (getlines_lines f) as Hls.
    pose proof (find_spec role type (getlines f) (lines_proper _ _ Hls) role_plain type_plain) as F.
    destruct (find_line role type (getlines f)) as [rest|].
    - destruct F as (b & ps & F1 & F2 & F3).
      destruct (loop_words check user (x_range con) user_plain level_good rest ps F3 (S (length rest)) acc)
        as (cs & C1 & C2); [lia|].
      exists cs. rewrite C2. split; [|reflexivity]. exists (getlines f). split; [exact Hls|].
      left. exists b, ps. auto.
    - exists []. split; [|reflexivity]. exists (getlines f). split; [exact Hls|]. right. split; [exact F|reflexivity].
  Qed.

  Lemma offers_fun file level cs cs' :
    offers file user role type level cs -> offers file user role type level cs' -> cs = cs'.
  Proof.
    destruct file as [f|]; [|cbn; congruence].
    intros (ls & H1 & A) (ls' & H1' & B). pose proof (lines_unique _ _ _ H1 H1') as <-.
    pose proof (lines_proper _ _ H1) as Hp. rewrite Forall_forall in Hp.
    destruct A as [(b & ps & A1 & A2 & A3)|[A1 ->]]; destruct B as [(b' & ps' & B1 & B2 & B3)|[B1 ->]].
    - pose proof (first_fun _ _ _ _ A1 B1) as <-. destruct (first_in _ _ _ A1) as [X _].
      rewrite <- (lists_fun b role type ps ps' (Hp b X) role_plain type_plain A2 B2) in B3.
      exact (candidates_fun _ _ _ _ A3 _ B3).
    - exfalso. destruct (first_in _ _ _ A1) as [X _]. exact (B1 b ps X A2).
    - exfalso. destruct (first_in _ _ _ B1) as [X _]. exact (A1 b' ps' X B2).
    - reflexivity.
  Qed.
End File.

Lemma calling_new con role type level : calling con role type level ->
  exists u, context_new con = Some (mkCtx (Some u) (Some role) (Some type) level) /\
    plain role /\ plain type /\ level_ok level.
Proof.
  intros (u & Hu & Hr & Ht & Bu & Br & Bt & Tne & -> & Hc & Hl). exists u.
  assert (Hk : level_ok level) by (destruct level as [l|]; [apply Hl|exact I]).
  split; [|split; [split; assumption|split; [split; assumption|exact Hk]]].
  rewrite !colon_count_app, colon_count_cons, !colon_count_app, colon_count_cons, !colon_count_app in Hc.
  rewrite (proj1 (colon_count_none u) Hu), (proj1 (colon_count_none role) Hr),
    (proj1 (colon_count_none type) Ht) in Hc.
  assert (Sc : ctx_scan (u ++ 58 :: role ++ 58 :: type ++ level_part level) 0
               = Some (2 + N.of_nat (colon_count (level_part level)))).
  { assert (Pre : forall p r n, no_blank p -> no_colon p -> ctx_scan (p ++ r) n = ctx_scan r n).
    { clear. induction p as [|c p IH]; intros r n H1 H2; [reflexivity|]. cbn [app ctx_scan].
      inversion H1 as [|? ? Hc Hp]; subst. unfold blank in Hc.
      assert (c <> 58) by (intros ->; apply H2; left; reflexivity).
      replace (c =? 58) with false by lia. replace ((c =? 10) || (c =? 9) || (c =? 13)) with false by lia.
      replace ((c =? 32) && (n <? 3)) with false by lia. apply IH; [exact Hp|].
      intros X. apply H2. right. exact X. }
    assert (Post : forall l n, 3 <= n -> ~ In 9 l -> ~ In 10 l -> ~ In 13 l ->
              ctx_scan l n = Some (n + N.of_nat (colon_count l))).
    { clear. induction l as [|c l IH]; intros n Hn H9 H10 H13; cbn [ctx_scan]; [f_equal; cbn; lia|].
      assert (c <> 9 /\ c <> 10 /\ c <> 13) as (X1 & X2 & X3).
      { split; [|split]; intros ->; [apply H9|apply H10|apply H13]; left; reflexivity. }
      assert (Y9 : ~ In 9 l) by (intros X; apply H9; right; exact X).
      assert (Y10 : ~ In 10 l) by (intros X; apply H10; right; exact X).
      assert (Y13 : ~ In 13 l) by (intros X; apply H13; right; exact X).
      unfold colon_count in *. cbn [count_occ].
      destruct (N.eqb_spec c 58) as [E|E].
      - rewrite IH by (assumption || lia). destruct (N.eq_dec c 58); [|congruence]. f_equal. lia.
      - replace ((c =? 10) || (c =? 9) || (c =? 13)) with false by lia.
        replace ((c =? 32) && (n <? 3)) with false by lia. rewrite IH by assumption.
        destruct (N.eq_dec c 58); [congruence|]. reflexivity. }
    rewrite (Pre u _ _ Bu Hu). cbn [ctx_scan]. change (58 =? 58) with true. cbv iota.
    rewrite (Pre role _ _ Br Hr). cbn [ctx_scan]. change (58 =? 58) with true. cbv iota.
    rewrite (Pre type _ _ Bt Ht). destruct level as [l|]; cbn [level_part].
    - cbn [ctx_scan]. change (58 =? 58) with true. cbv iota. destruct Hl as (_ & H9 & H10 & H13).
      rewrite Post by (assumption || lia). rewrite colon_count_cons. f_equal. lia.
    - reflexivity. }
  unfold context_new. rewrite Sc.
  replace ((2 + N.of_nat (colon_count (level_part level)) <? 2)
           || (5 <? 2 + N.of_nat (colon_count (level_part level)))) with false by lia.
  rewrite (comps_split 2 u _ Hu), (comps_split 1 role _ Hr).
  destruct level as [l|]; cbn [level_part].
  - rewrite (comps_split 0 type l Ht). destruct Hl as (Hl & _). destruct l as [|c l]; [congruence|]. reflexivity.
  - rewrite app_nil_r, (comps_last 1 type Ht Tne). reflexivity.
Qed.

(** ** The failsafe context *)

Lemma fgets_text n : forall line rest, no_newline line -> (length line <= n)%nat ->
  (rest = [] \/ length line = n \/ exists e r, rest = e :: r /\ (e = 10 \/ e = 0)) ->
  exists t, fgets n (line ++ rest) = line ++ t /\
    (t = [] \/ t = [10] \/ exists r, t = 0 :: r).
Proof.
  induction n as [|n IH]; intros line rest Hn Hl Hr.
  - destruct line; [|cbn in Hl; lia]. exists []. destruct rest; split; auto.
  - destruct line as [|c line].
    + cbn [app fgets]. destruct rest as [|e r]; [exists []; auto|].
      destruct Hr as [Hr|[Hr|(e' & r' & [= <- <-] & Hr)]]; [discriminate|cbn in Hr; lia|].
      destruct Hr as [->| ->].
      * exists [10]. split; [reflexivity|]. auto.
      * exists (0 :: fgets n r). split; [reflexivity|]. right; right. eexists; reflexivity.
    + cbn [app fgets]. assert (c <> 10) by (intros ->; apply Hn; left; reflexivity).
      replace (c =? 10) with false by lia.
      destruct (IH line rest) as (t & E & Ht).
      * intros X. apply Hn. right. exact X.
      * cbn in Hl. lia.
      * destruct Hr as [Hr|[Hr|Hr]]; [left; exact Hr|right; left; cbn in Hr; lia|right; right; exact Hr].
      * exists t. rewrite E. split; [reflexivity|exact Ht].
Qed.

Lemma failsafe_spec check file user c : failsafe_is file user c ->
  get_failsafe_context check file user = match check c with ChkInvalid => RErr | _ => ROk c end.
Proof.
  intros (f & line & rest & -> & -> & Hn & Hz & Hlen & Hne & Hr & ->).
  destruct (fgets_text 254 line rest Hn Hlen Hr) as (t & Ef & Ht).
  assert (Ex : line ++ rest <> []).
  { destruct line; [|discriminate]. destruct Hne as [Hne|[r ->]]; [congruence|discriminate]. }
  unfold get_failsafe_context. destruct (line ++ rest) as [|x xs] eqn:E0; [congruence|].
  rewrite Ef.
  assert (Ec : cstr (line ++ t) = line \/ (cstr (line ++ t) = line ++ [10])).
  { rewrite cstr_app. destruct (in_dec N.eq_dec 0 line) as [Y|_]; [contradiction|].
    destruct Ht as [->|[->|[r ->]]]; [left; apply app_nil_r|right; reflexivity|left; apply app_nil_r]. }
  assert (Nn : cstr (line ++ t) <> []).
  { destruct Ec as [Ec|Ec]; rewrite Ec; [|destruct line; discriminate].
    intros Hl. subst line. destruct Hne as [Hne|[r ->]]; [congruence|].
    cbn in E0. injection E0 as <- <-. change (fgets 254 ([] ++ 10 :: r)) with [10] in Ef.
    cbn in Ef. subst t. discriminate. }
  destruct (cstr (line ++ t)) as [|y ys] eqn:Ey; [congruence|].
  assert (Ech : chomp (y :: ys) = line).
  { destruct (chomp_spec (y :: ys)) as [(u & E1 & ->)|[N1 ->]].
    - destruct Ec as [Ec|Ec].
      + exfalso. apply Hn. rewrite <- Ec, E1. apply in_or_app. right. left. reflexivity.
      + rewrite E1 in Ec. apply app_inj_tail in Ec. apply Ec.
    - destruct Ec as [Ec|Ec]; [exact Ec|]. exfalso. apply N1. exists line. exact Ec. }
  rewrite Ech. reflexivity.
Qed.

(** ** The list *)

Definition fallback_result (check : list N -> chk) (failsafe : option (list N)) (user : list N)
    : res (list (list N)) :=
  match get_failsafe_context check failsafe user with
  | ROk c => ROk [c] | RErr => RErr | RUB => RUB
  end.

Lemma list_spec check userfile deffile failsafe user con role type level :
  plain user -> calling con role type level ->
  exists cs1 cs2 l,
    offers userfile user role type level cs1 /\ offers deffile user role type level cs2 /\
    firsts_of (fun c => check c = ChkValid) (cs1 ++ cs2) l /\
    get_ordered_context_list check userfile deffile failsafe user con =
    match l with [] => fallback_result check failsafe user | _ => ROk l end.
Proof.
  intros Hu Hc. destruct (calling_new _ _ _ _ Hc) as (u & E & Hr & Ht & Hl).
  unfold get_ordered_context_list. rewrite E. cbv zeta. fold (fallback_result check failsafe user).
  assert (S1 : forall file acc, exists cs, offers file user role type level cs /\
    match file with
    | Some f => match get_context_user check f (mkCtx (Some u) (Some role) (Some type) level) user acc with
                | ROk l' => ROk l' | RErr => ROk acc | RUB => RUB end
    | None => ROk acc
    end = ROk (fold_left (addc check) cs acc)).
  { intros [f|] acc.
    - destruct (file_offers check user (mkCtx (Some u) (Some role) (Some type) level) role type Hu Hr Ht
        eq_refl eq_refl Hl f acc) as (cs & C1 & C2).
      exists cs. split; [exact C1|]. destruct (get_context_user _ _ _ _ _) as [l| |].
      + congruence.
      + congruence.
      + contradiction.
    - exists []. split; reflexivity. }
  destruct (S1 userfile []) as (cs1 & O1 & E1). destruct (S1 deffile (fold_left (addc check) cs1 [])) as (cs2 & O2 & E2).
  exists cs1, cs2, (fold_left (addc check) (cs1 ++ cs2) []).
  split; [exact O1|]. split; [exact O2|]. split.
  - exact (firsts_fold check (cs1 ++ cs2) [] [] (firsts_nil check)).
  - rewrite fold_left_app. unfold try_file. rewrite E1, E2. destruct (fold_left _ cs2 _); reflexivity.
Qed.

(** Only contexts the kernel does not refuse are returned, whatever the inputs. *)
Lemma partials_valid check user level : forall fuel s acc l,
  Forall (fun c => check c = ChkValid) acc ->
  partials_loop fuel check user level s acc = ROk l -> Forall (fun c => check c = ChkValid) l.
Proof.
  induction fuel as [|f IH]; intros s acc l Ha H; [discriminate|]. cbn [partials_loop] in H.
  destruct (span isspace s) as [wa wb]. destruct wb as [|b0 b1]; [injection H as <-; exact Ha|].
  destruct (span _ (b0 :: b1)) as [w e].
  destruct (context_new (user ++ [58] ++ w)) as [u|]; [|exact (IH _ _ _ Ha H)].
  destruct (ctx_set u CRange level) as [u'|]; [|discriminate].
  destruct (context_str u') as [st| |]; [|discriminate|discriminate].
  destruct (is_in_reachable acc st); [exact (IH _ _ _ Ha H)|].
  destruct (check st) eqn:Ec; [|exact (IH _ _ _ Ha H)|exact (IH _ _ _ Ha H)].
  apply (IH _ _ _ (proj2 (Forall_app _ _ _) (conj Ha (Forall_cons _ Ec (Forall_nil _)))) H).
Qed.

Lemma fallback_safe check failsafe user l : fallback_result check failsafe user = ROk l ->
  forall c, In c l -> check c <> ChkInvalid.
Proof.
  unfold fallback_result, get_failsafe_context. destruct failsafe as [[|f0 f]|]; try discriminate.
  destruct (cstr (fgets 254 (f0 :: f))) as [|p0 p]; [discriminate|].
  generalize (user ++ [58] ++ chomp (p0 :: p)). intros newcon.
  destruct (check newcon) eqn:E; try discriminate;
    intros [= <-] c [<-|[]]; congruence.
Qed.

Lemma list_safe check userfile deffile failsafe user con l :
  get_ordered_context_list check userfile deffile failsafe user con = ROk l ->
  forall c, In c l -> check c <> ChkInvalid.
Proof.
  unfold get_ordered_context_list. cbv zeta. fold (fallback_result check failsafe user).
  destruct (context_new con) as [k|]; [|apply fallback_safe].
  assert (G : forall f acc l, Forall (fun c => check c = ChkValid) acc ->
    get_context_user check f k user acc = ROk l -> Forall (fun c => check c = ChkValid) l).
  { intros f acc l0 Ha. unfold get_context_user. destruct (x_role k); [|discriminate].
    destruct (x_type k); [|discriminate]. destruct (find_line _ _ _); [|discriminate].
    apply partials_valid. exact Ha. }
  assert (St : forall file acc l, (forall a, acc = ROk a -> Forall (fun c => check c = ChkValid) a) ->
    try_file check k user file acc = ROk l -> Forall (fun c => check c = ChkValid) l).
  { intros file acc l0 Ha. unfold try_file. destruct acc as [a| |]; [|discriminate|discriminate].
    specialize (Ha a eq_refl). destruct file as [f|]; [|intros [= <-]; exact Ha].
    destruct (get_context_user check f k user a) as [x| |] eqn:E; [|intros [= <-]; exact Ha|discriminate].
    intros [= <-]. exact (G _ _ _ Ha E). }
  destruct (try_file check k user deffile (try_file check k user userfile (ROk []))) as [[|c0 l0]| |] eqn:E.
  - apply fallback_safe.
  - intros [= <-] c Hc. assert (F : Forall (fun c => check c = ChkValid) (c0 :: l0)).
    { refine (St _ _ _ _ E). intros a Ea. refine (St _ _ _ _ Ea). intros a0 [= <-]. constructor. }
    rewrite Forall_forall in F. rewrite (F c Hc). discriminate.
  - discriminate.
  - discriminate.
Qed.

(** ** Roles *)

Lemma scan_wf s : forall n, (exists m, ctx_scan s n = Some m) <->
  (~ In 9 s /\ ~ In 10 s /\ ~ In 13 s /\ forall a b, s = a ++ 32 :: b -> 3 <= n + N.of_nat (colon_count a)).
Proof.
  induction s as [|c t IH]; intros n; cbn [ctx_scan].
  - split; [|intros _; exists n; reflexivity]. intros _. split; [intros []|]. split; [intros []|].
    split; [intros []|]. intros [|? ?] b E; discriminate.
  - destruct (N.eqb_spec c 58) as [E|E].
    + subst c. rewrite (IH (n + 1)). split.
      * intros (H1 & H2 & H3 & H4). split; [intros [X|X]; [discriminate|exact (H1 X)]|].
        split; [intros [X|X]; [discriminate|exact (H2 X)]|]. split; [intros [X|X]; [discriminate|exact (H3 X)]|].
        intros [|x a] b Eb; cbn in Eb; injection Eb as E0 Eb; [discriminate|]. subst x.
        rewrite colon_count_cons. specialize (H4 a b Eb). lia.
      * intros (H1 & H2 & H3 & H4). split; [intros X; apply H1; right; exact X|].
        split; [intros X; apply H2; right; exact X|]. split; [intros X; apply H3; right; exact X|].
        intros a b Eb. specialize (H4 (58 :: a) b ltac:(cbn; congruence)). rewrite colon_count_cons in H4. lia.
    + destruct ((c =? 10) || (c =? 9) || (c =? 13)) eqn:E1.
      { split; [intros [m X]; discriminate|]. intros (H1 & H2 & H3 & _). exfalso.
        assert (c = 9 \/ c = 10 \/ c = 13) as [->|[->| ->]] by lia; [apply H1|apply H2|apply H3]; left; reflexivity. }
      destruct ((c =? 32) && (n <? 3)) eqn:E2.
      { split; [intros [m X]; discriminate|]. intros (_ & _ & _ & H4). exfalso.
        assert (c = 32) by lia. subst c. specialize (H4 [] t eq_refl). cbn in H4. lia. }
      rewrite (IH n).
      assert (Cc : forall a, colon_count (c :: a) = colon_count a).
      { intros a. unfold colon_count. apply count_occ_cons_neq. exact E. }
      split.
      * intros (H1 & H2 & H3 & H4). split; [intros [X|X]; [lia|exact (H1 X)]|].
        split; [intros [X|X]; [lia|exact (H2 X)]|]. split; [intros [X|X]; [lia|exact (H3 X)]|].
        intros [|x a] b Eb; cbn in Eb; injection Eb as E0 Eb.
        -- cbn. lia.
        -- subst x. rewrite Cc. exact (H4 a b Eb).
      * intros (H1 & H2 & H3 & H4). split; [intros X; apply H1; right; exact X|].
        split; [intros X; apply H2; right; exact X|]. split; [intros X; apply H3; right; exact X|].
        intros a b Eb. specialize (H4 (c :: a) b ltac:(cbn; congruence)). rewrite Cc in H4. exact H4.
Qed.

Lemma scan_value s : forall n m, ctx_scan s n = Some m -> m = n + N.of_nat (colon_count s).
Proof.
  induction s as [|c t IH]; intros n m; cbn [ctx_scan].
  - intros [= <-]. cbn. lia.
  - unfold colon_count in *. cbn [count_occ]. destruct (N.eqb_spec c 58) as [E|E].
    + intros H. apply IH in H. destruct (N.eq_dec c 58); [|congruence]. lia.
    + destruct (N.eq_dec c 58); [congruence|].
      destruct ((c =? 10) || (c =? 9) || (c =? 13)); [discriminate|].
      destruct ((c =? 32) && (n <? 3)); [discriminate|]. apply IH.
Qed.

Lemma new_wf c : (exists k, context_new c = Some k) <-> well_formed c.
Proof.
  unfold context_new, well_formed. pose proof (scan_wf c 0) as W. destruct (ctx_scan c 0) as [m|] eqn:E.
  - pose proof (scan_value _ _ _ E) as V. destruct (proj1 W) as (H1 & H2 & H3 & H4); [exists m; reflexivity|].
    destruct ((m <? 2) || (5 <? m)) eqn:E1.
    + split; [intros [k X]; discriminate|]. intros (X & _). lia.
    + split; [|intros _; eexists; reflexivity]. intros _. split; [lia|]. split; [exact H1|].
      split; [exact H2|]. split; [exact H3|]. intros a b Eb. specialize (H4 a b Eb). lia.
  - split; [intros [k X]; discriminate|]. intros (_ & H1 & H2 & H3 & H4).
    destruct (proj2 W) as [m X]; [|discriminate]. split; [exact H1|]. split; [exact H2|]. split; [exact H3|].
    intros a b Eb. specialize (H4 a b Eb). lia.
Qed.

Lemma role_wf c role : (exists k, context_new c = Some k /\ x_role k = Some role) <-> has_role c role.
Proof.
  split.
  - intros (k & H & Hr). assert (W : well_formed c) by (apply new_wf; exists k; exact H).
    split; [exact W|]. destruct W as (W & _).
    destruct (split_colon c) as [[u p]|] eqn:E1; [|apply split_none, colon_count_none in E1; lia].
    apply split_some in E1. destruct E1 as [-> Hu]. rewrite colon_count_app, colon_count_cons in W.
    rewrite (proj1 (colon_count_none u) Hu) in W.
    destruct (split_colon p) as [[r t]|] eqn:E2; [|apply split_none, colon_count_none in E2; lia].
    apply split_some in E2. destruct E2 as [-> Hr'].
    unfold context_new in H. destruct (ctx_scan _ 0) as [m|]; [|discriminate].
    destruct ((m <? 2) || (5 <? m)); [discriminate|].
    rewrite (comps_split 2 u _ Hu), (comps_split 1 r _ Hr') in H. injection H as <-.
    cbn in Hr. injection Hr as ->. exists u, t. auto.
  - intros (W & u & t & -> & Hu & Hr). destruct (proj2 (new_wf _) W) as [k H]. exists k. split; [exact H|].
    unfold context_new in H. destruct (ctx_scan _ 0) as [m|]; [|discriminate].
    destruct ((m <? 2) || (5 <? m)); [discriminate|].
    rewrite (comps_split 2 u _ Hu), (comps_split 1 role _ Hr) in H. injection H as <-. reflexivity.
Qed.

Lemma with_role_spec role l :
  match with_role role l with
  | Some c => first_such (fun c => has_role c role) l c
  | None => forall c, In c l -> ~ has_role c role
  end.
Proof.
  induction l as [|c l IH]; cbn [with_role]; [intros c []|].
  assert (Next : ~ has_role c role ->
    match with_role role l with
    | Some x => first_such (fun c => has_role c role) (c :: l) x
    | None => forall x, In x (c :: l) -> ~ has_role x role
    end).
  { intros Hn. destruct (with_role role l) as [x|].
    - destruct IH as (p & q & -> & H1 & H2). exists (c :: p), q. split; [reflexivity|]. split; [exact H1|].
      intros y [<-|Hy]; [exact Hn|exact (H2 y Hy)].
    - intros x [<-|Hx]; [exact Hn|exact (IH x Hx)]. }
  destruct (context_new c) as [k|] eqn:E.
  - destruct (x_role k) as [r|] eqn:Er.
    + destruct (str_eqb role r) eqn:Es.
      * apply str_eqb_eq in Es. subst r. exists [], l. split; [reflexivity|]. split; [|intros x []].
        apply role_wf. exists k. split; assumption.
      * apply Next. intros X. apply role_wf in X. destruct X as (k' & X1 & X2). rewrite E in X1.
        injection X1 as <-. rewrite Er in X2. injection X2 as ->.
        rewrite (proj2 (str_eqb_eq _ _) eq_refl) in Es. discriminate.
    + apply Next. intros X. apply role_wf in X. destruct X as (k' & X1 & X2). congruence.
  - apply Next. intros X. apply role_wf in X. destruct X as (k' & X1 & X2). congruence.
Qed.
