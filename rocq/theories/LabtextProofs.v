(** Proofs about reading the label configuration texts. *)
From Verif Require Import Base MlsModel ContextModel LoginModel LabelModel LoginSpec LoginProofs LabtextModel LabtextSpec.
From Verif Require LabelProofs.
From Coq Require Import String Ascii.
Open Scope N_scope.
Open Scope list_scope.

(** ** Words *)
Lemma words_inv_blank s ws r fs : s = ws ++ r -> Forall blank ws -> words s fs -> words r fs.
Proof.
  intros E B W. revert ws r E B. induction W as [xs X|xs w rest fs X NE NW ST W IH]; intros ws r E B.
  - constructor. subst xs. apply Forall_app in X. tauto.
  - assert (P : exists ys, xs = ws ++ ys).
    { revert ws E B. induction X as [|x xs Hx X IHx]; intros ws E B.
      - destruct w as [|c w]; [congruence|]. destruct ws as [|y ws]; [exists []; reflexivity|].
        cbn [app] in E. injection E as <- _. inversion NW; subst. inversion B; subst. contradiction.
      - destruct ws as [|y ws]; [eexists; reflexivity|]. cbn [app] in E. injection E as <- E. inversion B; subst.
        destruct (IHx ws E) as (ys & ->); [assumption|]. exists ys. reflexivity. }
    destruct P as (ys & ->). rewrite <- app_assoc in E. apply app_inv_head in E. subst r. apply Forall_app in X.
    constructor; tauto.
Qed.

Lemma words_fun s fs : words s fs -> forall gs, words s gs -> fs = gs.
Proof.
  induction 1 as [xs X|xs w rest fs X NE NW ST W IH]; intros gs G.
  - inversion G as [|ys v r hs Y NV NB SR]; subst; [reflexivity|].
    apply Forall_app in X as [_ X]. destruct v as [|c v]; [congruence|]. inversion X; subst. inversion NB; subst. contradiction.
  - apply (words_inv_blank _ xs (w ++ rest)) in G; [|reflexivity|exact X]. inversion G as [ys Y|ys v r hs Y NV NB SR G' E]; subst.
    + apply Forall_app in Y as [Y _]. destruct w as [|c w]; [congruence|]. inversion Y; subst. inversion NW; subst. contradiction.
    + destruct Y as [|y ys Hy Y].
      * cbn [app] in E. assert (S1 := span_word_app _ _ NW ST). assert (S2 := span_word_app _ _ NB SR). rewrite E in S2.
        rewrite S1 in S2. injection S2 as <- <-. f_equal. apply IH. exact G'.
      * destruct w as [|c w]; [congruence|]. cbn [app] in E. injection E as E _. subst y. inversion NW; subst. contradiction.
Qed.

Lemma words_ex_len n : forall s, (List.length s <= n)%nat -> exists fs, words s fs.
Proof.
  induction n as [|n IH]; intros s L.
  - destruct s; [|cbn in L; lia]. exists []. constructor. constructor.
  - destruct (span isspace s) as [ws r] eqn:S1. apply span_blank_text in S1 as (-> & B & H).
    destruct (span (fun c => negb (isspace c)) r) as [w rest] eqn:S2. apply span_word_text in S2 as (-> & NW & ST).
    destruct w as [|c w].
    + cbn [app] in H. destruct rest as [|c rest]; [|cbn in ST; contradiction]. exists []. constructor. rewrite !app_nil_r. exact B.
    + destruct (IH rest) as (fs & W). { rewrite !app_length in L. cbn [List.length] in L. lia. }
      exists ((c :: w) :: fs). constructor; auto. discriminate.
Qed.
Lemma words_ex s : exists fs, words s fs.
Proof. exact (words_ex_len _ s (Nat.le_refl _)). Qed.

(** A final newline does not matter. *)
Lemma words_snoc s fs : words s fs -> words (s ++ [10]) fs.
Proof.
  induction 1 as [xs X|xs w rest fs X NE NW ST W IH].
  - constructor. apply Forall_app. split; [exact X|]. constructor; [unfold blank; auto|constructor].
  - rewrite <- !app_assoc. constructor; auto. destruct rest as [|c rest]; [cbn; unfold blank; auto|exact ST].
Qed.
Lemma words_snoc_iff s fs : words (s ++ [10]) fs <-> words s fs.
Proof.
  split; [|apply words_snoc]. intros W. destruct (words_ex s) as (gs & G). rewrite (words_fun _ _ W _ (words_snoc _ _ G)). exact G.
Qed.
Lemma comment_snoc s : comment (s ++ [10]) <-> comment s.
Proof.
  split; intros (ws & r & E & B).
  - destruct r as [|x r _] using rev_ind.
    + apply (app_inj_tail s ws 10 35) in E as [_ E]. discriminate.
    + exists ws, r. change (35 :: r ++ [x]) with ((35 :: r) ++ [x]) in E. rewrite app_assoc in E. apply app_inj_tail in E as [-> _]. auto.
  - exists ws, (r ++ [10]). rewrite E, <- app_assoc. auto.
Qed.
Lemma blank_snoc s : Forall blank (s ++ [10]) <-> Forall blank s.
Proof. rewrite Forall_app. split; [tauto|]. intros H. split; [exact H|]. constructor; [unfold blank; auto|constructor]. Qed.
Lemma says_snoc s o : says (s ++ [10]) o <-> says s o.
Proof.
  split; intros H; inversion H as [s' B|s' C|s' r c W NC Er Ec|s' r t c more k W NC Er Et Ec K]; subst.
  - exact (Says_blank _ (proj1 (blank_snoc s) B)).
  - exact (Says_comment _ (proj1 (comment_snoc s) C)).
  - apply Says_two; auto; [exact (proj1 (words_snoc_iff _ _) W)|intros X; exact (NC (proj2 (comment_snoc s) X))].
  - apply (Says_three s r t c more k); auto; [exact (proj1 (words_snoc_iff _ _) W)|intros X; exact (NC (proj2 (comment_snoc s) X))].
  - exact (Says_blank _ (proj2 (blank_snoc s) B)).
  - exact (Says_comment _ (proj2 (comment_snoc s) C)).
  - apply Says_two; auto; [exact (proj2 (words_snoc_iff _ _) W)|intros X; exact (NC (proj1 (comment_snoc s) X))].
  - apply (Says_three _ r t c more k); auto; [exact (proj2 (words_snoc_iff _ _) W)|intros X; exact (NC (proj1 (comment_snoc s) X))].
Qed.

Lemma comment_span s : comment s <-> exists r, snd (span isspace s) = 35 :: r.
Proof.
  split.
  - intros (ws & r & -> & B). exists r. rewrite span_blank_app; [reflexivity|exact B|]. unfold blank. lia.
  - intros (r & E). destruct (span isspace s) as [ws t] eqn:S1. cbn [snd] in E. subst t. apply span_blank_text in S1 as (-> & B & _).
    exists ws, r. auto.
Qed.
Lemma comment_words s fs : comment s -> words s fs -> exists w gs, fs = (35 :: w) :: gs.
Proof.
  intros (ws & r & -> & B) W. apply (words_inv_blank _ ws (35 :: r) fs eq_refl B) in W. inversion W as [ys Y|ys v rs hs Y NV NB SR G E]; subst.
  - inversion Y as [|? ? X]; subst. destruct X as [X|[X|[X|[X|[X|X]]]]]; discriminate.
  - destruct Y as [|y ys Hy Y].
    + destruct v as [|c v]; [congruence|]. cbn [app] in E. injection E as -> _. eauto.
    + cbn [app] in E. injection E as -> _. destruct Hy as [X|[X|[X|[X|[X|X]]]]]; discriminate.
Qed.
Lemma not_comment_words s w fs : words s (w :: fs) -> hd 0 w <> 35 -> ~ comment s.
Proof. intros W H C. destruct (comment_words _ _ C W) as (v & gs & [= -> _]). cbn in H. congruence. Qed.
Lemma comment_hd s w fs : words s (w :: fs) -> hd 0 w = 35 -> comment s.
Proof.
  intros W H. inversion W as [|ys v rs hs Y NV NB SR G E]; subst. destruct w as [|c w]; [congruence|]. cbn in H. subst c.
  exists ys, (w ++ rs). auto.
Qed.

(** ** Entries *)
Lemma take_entry_ok w rest : no_blank w -> stops rest -> Forall (fun c => c < 128) w -> take_entry (w ++ rest) = Some (w, rest).
Proof.
  intros NW ST A. induction w as [|c w IH]; cbn [app].
  - destruct rest as [|c rest]; [reflexivity|]. cbn [take_entry]. cbn in ST. apply isspace_blank in ST. rewrite ST. reflexivity.
  - inversion NW; subst. inversion A; subst. cbn [take_entry]. destruct (isspace c) eqn:I; [apply isspace_blank in I; contradiction|].
    assert ((128 <=? c) = false) as -> by lia. rewrite IH; auto.
Qed.
Lemma take_entry_bad w rest : no_blank w -> ~ Forall (fun c => c < 128) w -> take_entry (w ++ rest) = None.
Proof.
  intros NW A. induction w as [|c w IH]; [destruct A; constructor|]. inversion NW; subst. cbn [app take_entry].
  destruct (isspace c) eqn:I; [apply isspace_blank in I; contradiction|]. destruct (128 <=? c) eqn:G; [reflexivity|].
  rewrite IH; auto. intros X. apply A. constructor; [lia|exact X].
Qed.
Lemma ascii_dec (w : list N) : Forall (fun c => c < 128) w \/ ~ Forall (fun c => c < 128) w.
Proof.
  induction w as [|c w IH]; [left; constructor|]. destruct (c <? 128) eqn:L.
  - destruct IH as [F|F]; [left; constructor; [lia|exact F]|right; intros X; inversion X; auto].
  - right. intros X. inversion X; subst. lia.
Qed.
Lemma entry_word_dec w : entry_word w \/ ~ entry_word w.
Proof.
  unfold entry_word. destruct (ascii_dec w) as [A|A]; [|right; tauto].
  destruct (N.of_nat (List.length w) <? 65535) eqn:L; [left; split; [exact A|lia]|right; intros [_ X]; lia].
Qed.
Lemma entry_ok ws w rest : Forall blank ws -> w <> [] -> no_blank w -> stops rest -> entry_word w ->
  read_spec_entry (ws ++ w ++ rest) = Some (w, rest).
Proof.
  intros B NE NW ST [A L]. unfold read_spec_entry. rewrite (span_blank_app ws (w ++ rest) B).
  2: { destruct w as [|c w]; [congruence|]. inversion NW; subst. cbn. assumption. }
  cbn [snd]. rewrite take_entry_ok by assumption. assert ((65535 <=? N.of_nat (List.length w)) = false) as -> by lia. reflexivity.
Qed.
Lemma entry_bad ws w rest : Forall blank ws -> w <> [] -> no_blank w -> stops rest -> ~ entry_word w ->
  read_spec_entry (ws ++ w ++ rest) = None.
Proof.
  intros B NE NW ST X. unfold read_spec_entry. rewrite (span_blank_app ws (w ++ rest) B).
  2: { destruct w as [|c w]; [congruence|]. inversion NW; subst. cbn. assumption. }
  cbn [snd]. destruct (ascii_dec w) as [A|A].
  - rewrite take_entry_ok by assumption. destruct (65535 <=? N.of_nat (List.length w)) eqn:L; [reflexivity|]. destruct X. split; [exact A|lia].
  - rewrite take_entry_bad by assumption. reflexivity.
Qed.
Lemma entry_blank ws : Forall blank ws -> read_spec_entry ws = Some ([], []).
Proof. intros B. unfold read_spec_entry. rewrite <- (app_nil_r ws), (span_blank_app ws [] B I). reflexivity. Qed.

(** The loop on a text with known words. *)
Lemma loop_spec : forall todo fuel args got past p fs, words p fs -> (todo <= args)%nat -> (S (S todo) <= fuel)%nat ->
  (Forall entry_word (firstn todo fs) ->
     exists past', entries_loop fuel todo args got past p = Items (got ++ firstn todo fs) past') /\
  (~ Forall entry_word (firstn todo fs) -> entries_loop fuel todo args got past p = ItemsErr).
Proof.
  induction todo as [|k IH]; intros fuel args got past p fs W LA LF; (destruct fuel as [|fuel]; [lia|]).
  - cbn [entries_loop firstn]. rewrite app_nil_r. split; [eauto|]. intros X. destruct X. constructor.
  - destruct args as [|a]; [lia|]. inversion W as [xs X|xs w rest gs X NE NW ST W' E]; subst.
    + cbn [firstn]. split; [intros _|intros F; destruct F; constructor]. rewrite app_nil_r. destruct p as [|c p].
      * cbn [entries_loop]. eauto.
      * cbn [entries_loop]. rewrite (entry_blank _ X). destruct fuel as [|fuel]; [lia|]. cbn [entries_loop]. eauto.
    + assert (NEp : xs ++ w ++ rest <> []) by (destruct xs; [destruct w; [congruence|discriminate]|discriminate]).
      destruct (entry_word_dec w) as [EW|EW].
      * assert (RO := entry_ok xs w rest X NE NW ST EW). cbn [entries_loop]. rewrite RO. clear RO W.
        destruct (xs ++ w ++ rest) as [|d q]; [congruence|]. clear d q NEp. destruct w as [|c w]; [congruence|].
        destruct (IH fuel a (got ++ [c :: w]) (past || false) rest gs W') as [A B]; [lia|lia|]. cbn [firstn]. split.
        -- intros F. inversion F; subst. destruct (A H2) as (p' & ->). exists p'. rewrite <- app_assoc. reflexivity.
        -- intros F. apply B. intros G. apply F. constructor; assumption.
      * assert (RO := entry_bad xs w rest X NE NW ST EW). cbn [entries_loop]. rewrite RO. clear RO W.
        destruct (xs ++ w ++ rest) as [|d q]; [congruence|]. cbn [firstn]. split; [|reflexivity]. intros F. inversion F; subst. contradiction.
Qed.

(** ** Lines *)
(** The text of a line without its newline. *)
Definition body (b : list N) : list N := cstr (if last b 0 =? 10 then removelast b else b).
Lemma body_says b o : (exists s, text_of b s /\ says s o) <-> says (body b) o.
Proof.
  unfold body. destruct (last b 0 =? 10) eqn:L.
  - apply N.eqb_eq in L. assert (E : b = removelast b ++ [10]).
    { assert (NB : b <> []) by (intros ->; cbn in L; discriminate). rewrite (app_removelast_last 0 NB) at 1. rewrite L. reflexivity. }
    remember (removelast b) as c. clear Heqc L. subst b.
    assert (C : cstr (c ++ [10]) = if in_dec N.eq_dec 0 c then cstr c else cstr c ++ [10]).
    { induction c as [|x c IH]; [reflexivity|]. cbn [app cstr]. destruct (x =? 0) eqn:X.
      - apply N.eqb_eq in X. subst x. destruct (in_dec N.eq_dec 0 (0 :: c)) as [|Q]; [reflexivity|destruct Q; left; reflexivity].
      - apply N.eqb_neq in X. rewrite IH. destruct (in_dec N.eq_dec 0 c) as [Q|Q], (in_dec N.eq_dec 0 (x :: c)) as [R|R]; try reflexivity.
        + destruct R. right. exact Q.
        + destruct R as [R|R]; [congruence|contradiction]. }
    split.
    + intros (s & T & S). rewrite <- (text_cstr _ _ T), C in S. destruct (in_dec N.eq_dec 0 c); [exact S|]. apply says_snoc. exact S.
    + intros S. exists (cstr (c ++ [10])). split; [apply cstr_text|]. rewrite C. destruct (in_dec N.eq_dec 0 c); [exact S|]. apply says_snoc. exact S.
  - split.
    + intros (s & T & S). rewrite (text_cstr _ _ T). exact S.
    + intros S. exists (cstr b). split; [apply cstr_text|exact S].
Qed.

Lemma kind_names t k : k <> 255 -> (forall c, In c t -> c <> 0) -> string_to_file_kind t = k <-> kind_name t k.
Proof.
  intros NK NZ. split.
  - intros E. unfold string_to_file_kind in E. destruct t as [|a t]; [vm_compute in E; congruence|]. cbn [nth] in E.
    destruct (a =? 45) eqn:A; [|vm_compute in E; congruence]. apply N.eqb_eq in A. subst a.
    destruct t as [|b t]; [vm_compute in E; congruence|]. cbn [nth] in E. destruct (b =? 0) eqn:B; [vm_compute in E; congruence|].
    destruct t as [|c t].
    2: { assert (c <> 0) by (apply NZ; cbn; auto). cbn [nth] in E. assert ((c =? 0) = false) as C by lia. rewrite C in E. rewrite orb_true_r in E. congruence. }
    cbn [nth negb orb] in E. clear B. change (negb (0 =? 0)) with false in E. cbn [negb orb] in E. 
    repeat match type of E with
    | (match ?b with _ => _ end) = _ => destruct b; try congruence
    end; subst k; constructor.
  - intros K. destruct K; reflexivity.
Qed.

Lemma words_in s fs w c : words s fs -> In w fs -> In c w -> In c s.
Proof.
  induction 1 as [|xs v rest fs X NE NW ST W IH]; intros I C; [destruct I|]. rewrite !in_app_iff. destruct I as [->|I]; [auto|]. auto.
Qed.
Lemma words_head_not_hash s fs c t : snd (span isspace s) = c :: t -> words s fs -> exists w gs, fs = w :: gs.
Proof.
  intros E W. inversion W as [xs X|xs w rest gs X NE NW ST W' E']; subst; [|eauto].
  rewrite <- (app_nil_r s), (span_blank_app s [] X I) in E. discriminate E.
Qed.
Lemma nil_span s : snd (span isspace s) = [] -> Forall blank s.
Proof. intros E. destruct (span isspace s) as [a b] eqn:S1. cbn in E. subst b. apply span_blank_text in S1 as (-> & B & _). rewrite app_nil_r. exact B. Qed.
Lemma body_nul b : ~ In 0 (body b).
Proof. unfold body. destruct (cstr_text (if last b 0 =? 10 then removelast b else b)) as [H _]. exact H. Qed.

(** What read_spec_entries gives, in terms of the words of the line. *)
Lemma entries_spec b n fs : words (body b) fs ->
  (Forall blank (body b) \/ comment (body b) -> read_spec_entries b n = Items [] false) /\
  (~ Forall blank (body b) -> ~ comment (body b) ->
     (Forall entry_word (firstn n fs) -> exists past, read_spec_entries b n = Items (firstn n fs) past) /\
     (~ Forall entry_word (firstn n fs) -> read_spec_entries b n = ItemsErr)).
Proof.
  intros W. unfold read_spec_entries. fold (body b). destruct (snd (span isspace (body b))) as [|c t] eqn:S1.
  - split; [reflexivity|]. intros NB. destruct NB. apply nil_span, S1.
  - destruct (c =? 35) eqn:C.
    + apply N.eqb_eq in C. subst c. split; [reflexivity|]. intros _ NC. destruct NC. apply comment_span. eauto.
    + apply N.eqb_neq in C. split.
      * intros [B|B].
        -- rewrite <- (app_nil_r (body b)), (span_blank_app _ [] B I) in S1. discriminate S1.
        -- apply comment_span in B as (r & B). congruence.
      * intros NB NC. destruct (span isspace (body b)) as [ws r] eqn:S2. cbn [snd] in S1. subst r.
        apply span_blank_text in S2 as (E & B & _). assert (W' := words_inv_blank _ _ _ _ E B W).
        destruct (loop_spec n (S (S (S n))) n [] false (c :: t) fs W') as [P Q]; [lia|lia|]. split; [exact P|exact Q].
Qed.

Lemma prefix_part prefix : (match prefix with Some p => ~ In 0 p | None => True end) -> prefix_ok prefix = true <-> part_ok prefix.
Proof.
  destruct prefix as [p|]; [|intros _; split; [constructor|reflexivity]]. intros NZ. cbn [prefix_ok part_ok]. split.
  - intros H. apply andb_true_iff in H as [H C]. apply andb_true_iff in H as [A B]. destruct p as [|a p]; [discriminate A|].
    cbn [nth] in A, B. apply N.eqb_eq in A. subst a. exists p. split; [reflexivity|]. destruct p as [|x p]; [discriminate B|]. split; [discriminate|].
    intros I. cbn [tl] in C. apply negb_true_iff in C. assert (X : existsb (N.eqb 47) (x :: p) = true) by (apply existsb_exists; exists 47; split; [exact I|reflexivity]). congruence.
  - intros (comp & -> & NE & NI). destruct comp as [|x comp]; [congruence|]. cbn [nth tl]. change (47 =? 47) with true. cbn [andb].
    assert (x <> 0) by (intros ->; apply NZ; cbn; auto). assert ((x =? 0) = false) as -> by lia. cbn [negb andb]. apply negb_true_iff.
    destruct (existsb (N.eqb 47) (x :: comp)) eqn:E; [|reflexivity]. apply existsb_exists in E as (y & I & Y). apply N.eqb_eq in Y. subst y. contradiction.
Qed.

Definition pl_of (o : option (list N * N * list N)) : pl := match o with None => PL_skip | Some (r, k, c) => PL_spec r k c end.
Lemma forall1 (A : Type) (P : A -> Prop) x : Forall P [x] <-> P x.
Proof. split; [intros H; inversion H; auto|intros H; constructor; auto]. Qed.

Lemma says_fun s o o' : ~ In 0 s -> says s o -> says s o' -> o = o'.
Proof.
  intros NZ H H'.
  assert (BW : Forall blank s -> forall w fs, ~ words s (w :: fs)).
  { intros B w fs W. assert (X := words_fun _ _ W _ (words_end s B)). discriminate X. }
  inversion H as [? B|? C|? r c W NC Er Ec|? r t c more k W NC Er Et Ec K]; subst;
    inversion H' as [? B'|? C'|? r' c' W' NC' Er' Ec'|? r' t' c' more' k' W' NC' Er' Et' Ec' K']; subst; try reflexivity; try contradiction;
    try (destruct (BW B _ _ W'); fail); try (destruct (BW B' _ _ W); fail); assert (X := words_fun _ _ W _ W'); try discriminate X.
  - injection X as -> ->. reflexivity.
  - injection X as -> -> -> ->. repeat f_equal.
    assert (NT : forall x, In x t' -> x <> 0) by (intros x Ix ->; apply NZ; apply (words_in _ _ t' 0 W); [cbn; auto|exact Ix]).
    assert (Q : forall n, kind_name t' n -> n <> 255) by (intros n Kn; destruct Kn; discriminate).
    rewrite <- (proj2 (kind_names t' k (Q _ K) NT) K). apply (kind_names t' k' (Q _ K') NT). exact K'.
Qed.

Lemma line_spec prefix b : prefix_ok prefix = true ->
  (forall o, says (body b) o -> process_line prefix b = pl_of o) /\
  ((forall o, ~ says (body b) o) -> process_line prefix b = PL_err).
Proof.
  intros PO. unfold process_line. rewrite PO. cbn [negb].
  destruct (words_ex (body b)) as (fs & W). destruct (entries_spec b 3 fs W) as [S1 S2].
  assert (BW : Forall blank (body b) -> forall w fs, ~ words (body b) (w :: fs)).
  { intros B w gs W'. assert (X := words_fun _ _ W' _ (words_end (body b) B)). discriminate X. }
  assert (NT : forall t, In t fs -> forall x, In x t -> x <> 0).
  { intros t It x Ix ->. apply (body_nul b). exact (words_in _ _ t 0 W It Ix). }
  assert (Q : forall t n, kind_name t n -> n <> 255) by (intros t n Kn; destruct Kn; discriminate).
  split.
  - intros o S. inversion S as [? B|? C|? r c W' NC Er Ec|? r t c more k W' NC Er Et Ec K]; subst.
    + rewrite S1 by auto. reflexivity.
    + rewrite S1 by auto. reflexivity.
    + assert (X := words_fun _ _ W _ W'). subst fs. destruct S2 as [S2 _]; [intros B; exact (BW B _ _ W)|exact NC|].
      destruct S2 as (p & ->); [cbn; repeat (constructor; [assumption|]); constructor|]. reflexivity.
    + assert (X := words_fun _ _ W _ W'). subst fs. destruct S2 as [S2 _]; [intros B; exact (BW B _ _ W)|exact NC|].
      destruct S2 as (p & ->); [cbn; repeat (constructor; [assumption|]); constructor|]. cbn [firstn].
      assert (T := proj2 (kind_names t k (Q _ _ K) (NT t (or_intror (or_introl eq_refl)))) K). rewrite T.
      assert ((k =? 255) = false) as -> by (apply N.eqb_neq; exact (Q _ _ K)). reflexivity.
  - intros NS. assert (NB : ~ Forall blank (body b)) by (intros B; exact (NS _ (Says_blank _ B))).
    assert (NC : ~ comment (body b)) by (intros B; exact (NS _ (Says_comment _ B))).
    destruct (S2 NB NC) as [P1 P2]. destruct fs as [|r [|t [|c more]]].
    + inversion W; subst. contradiction.
    + cbn [firstn] in *. destruct (entry_word_dec r) as [E|E].
      * destruct P1 as (p & ->); [repeat constructor; apply E|]. reflexivity.
      * rewrite P2; [reflexivity|]. intros F. inversion F; auto.
    + cbn [firstn] in *. destruct (entry_word_dec r) as [E|E]; [destruct (entry_word_dec t) as [E2|E2]|].
      * destruct (NS _ (Says_two _ _ _ W NC E E2)).
      * rewrite P2; [reflexivity|]. intros F. inversion F as [|? ? ? F1]; subst. inversion F1; auto.
      * rewrite P2; [reflexivity|]. intros F. inversion F; auto.
    + cbn [firstn] in *. destruct (entry_word_dec r) as [E|E]; [destruct (entry_word_dec t) as [E2|E2]; [destruct (entry_word_dec c) as [E3|E3]|]|].
      * destruct P1 as (p & ->); [constructor; [exact E|constructor; [exact E2|constructor; [exact E3|constructor]]]|].
        destruct (string_to_file_kind t =? 255) eqn:K; [reflexivity|]. apply N.eqb_neq in K.
        destruct (NS _ (Says_three _ _ _ _ _ _ W NC E E2 E3 (proj1 (kind_names t _ K (NT t (or_intror (or_introl eq_refl)))) eq_refl))).
      * rewrite P2; [reflexivity|]. intros F. inversion F as [|? ? ? F1]; subst. inversion F1 as [|? ? ? F2]; subst. inversion F2; auto.
      * rewrite P2; [reflexivity|]. intros F. inversion F as [|? ? ? F1]; subst. inversion F1; auto.
      * rewrite P2; [reflexivity|]. intros F. inversion F; auto.
Qed.

Lemma no_wild prefix b : process_line prefix b <> PL_wild.
Proof.
  unfold process_line. destruct (prefix_ok prefix) eqn:PO; cbn [negb]; [|discriminate].
  destruct (words_ex (body b)) as (fs & W). destruct (entries_spec b 3 fs W) as [S1 S2].
  destruct (read_spec_entries b 3) as [l p| | |] eqn:R; try discriminate.
  - destruct l as [|x [|y [|z l]]]; try discriminate. destruct (string_to_file_kind y =? 255); discriminate.
  - exfalso. assert (NB : ~ Forall blank (body b)) by (intros B; specialize (S1 (or_introl B)); discriminate S1).
    assert (NC : ~ comment (body b)) by (intros B; specialize (S1 (or_intror B)); discriminate S1). destruct (S2 NB NC) as [P1 P2].
    destruct (Forall_dec entry_word) with (l := firstn 3 fs) as [F|F].
    + intros x. destruct (N.of_nat (List.length x) <? 65535) eqn:L; [|right; intros [_ Y]; lia].
      destruct (forallb (fun c => c <? 128) x) eqn:FA; [left|right].
      * split; [|lia]. apply Forall_forall. intros c I. rewrite forallb_forall in FA. specialize (FA c I). lia.
      * intros [Y _]. assert (forallb (fun c => c <? 128) x = true); [|congruence]. apply forallb_forall. intros c I. rewrite Forall_forall in Y. specialize (Y c I). lia.
    + destruct (P1 F) as (p & X). discriminate X.
    + specialize (P2 F). discriminate P2.
  - exfalso. assert (NB : ~ Forall blank (body b)) by (intros B; specialize (S1 (or_introl B)); discriminate S1).
    assert (NC : ~ comment (body b)) by (intros B; specialize (S1 (or_intror B)); discriminate S1). destruct (S2 NB NC) as [P1 P2].
    assert (D : Forall entry_word (firstn 3 fs) \/ ~ Forall entry_word (firstn 3 fs)).
    { generalize (firstn 3 fs). intros l. induction l as [|x l IH]; [left; constructor|]. destruct (entry_word_dec x) as [E|E]; [|right; intros F; inversion F; auto].
      destruct IH as [F|F]; [left; constructor; auto|right; intros G; inversion G; auto]. }
    destruct D as [F|F]; [destruct (P1 F) as (p & X); discriminate X|specialize (P2 F); discriminate P2].
Qed.

Lemma lines_spec prefix ls : prefix_ok prefix = true -> forall out,
  process_lines prefix ls = Some out <-> Forall2 line_says ls out.
Proof.
  intros PO. induction ls as [|b ls IH]; intros out; cbn [process_lines].
  - split; [intros [= <-]; constructor|intros F; inversion F; reflexivity].
  - destruct (line_spec prefix b PO) as [L1 L2]. split.
    + intros H. destruct (process_line prefix b) as [|r k c| |] eqn:P; try discriminate H.
      * destruct (process_lines prefix ls) as [o|] eqn:Q; [|discriminate H]. injection H as <-. constructor; [|apply IH; reflexivity].
        apply body_says. destruct (Forall_dec blank) with (l := body b) as [B|B].
        { intros x. destruct (isspace x) eqn:I; [left; apply isspace_blank; exact I|right; intros Y; apply isspace_blank in Y; congruence]. }
        { apply Says_blank. exact B. }
        destruct (snd (span isspace (body b))) as [|c t] eqn:S1; [destruct B; apply nil_span; exact S1|].
        destruct (c =? 35) eqn:C; [apply Says_comment; apply comment_span; apply N.eqb_eq in C; subst c; eauto|].
        exfalso. revert P. unfold process_line. rewrite PO. cbn [negb]. destruct (words_ex (body b)) as (fs & W).
        destruct (words_head_not_hash _ _ _ _ S1 W) as (w & gs & ->). destruct (entries_spec b 3 _ W) as [_ S2].
        destruct S2 as [P1 P2]; [exact B|intros X; apply comment_span in X as (r & X); apply N.eqb_neq in C; congruence|].
        assert (D : Forall entry_word (firstn 3 (w :: gs)) \/ ~ Forall entry_word (firstn 3 (w :: gs))).
        { generalize (firstn 3 (w :: gs)). intros l. induction l as [|x l IHl]; [left; constructor|]. destruct (entry_word_dec x) as [E|E]; [|right; intros F; inversion F; auto].
          destruct IHl as [F|F]; [left; constructor; auto|right; intros G; inversion G; auto]. }
        destruct D as [F|F]; [|rewrite (P2 F); discriminate]. destruct (P1 F) as (p & ->). cbn [firstn]. destruct gs as [|g [|h gs]]; try discriminate.
        destruct (string_to_file_kind g =? 255); discriminate.
      * destruct (process_lines prefix ls) as [o|] eqn:Q; [|discriminate H]. injection H as <-. constructor; [|apply IH; reflexivity].
        apply body_says.
        destruct (words_ex (body b)) as (fs & W). destruct (entries_spec b 3 _ W) as [S1 S2]. revert P. unfold process_line. rewrite PO. cbn [negb].
        destruct (Forall_dec blank) with (l := body b) as [B|B].
        { intros x. destruct (isspace x) eqn:I; [left; apply isspace_blank; exact I|right; intros Y; apply isspace_blank in Y; congruence]. }
        { rewrite S1 by auto. discriminate. }
        assert (DC : comment (body b) \/ ~ comment (body b)).
        { destruct (snd (span isspace (body b))) as [|x t] eqn:E; [right; intros Y; apply comment_span in Y as (? & Y); congruence|].
          destruct (x =? 35) eqn:C; [left; apply comment_span; apply N.eqb_eq in C; subst x; eauto|right; intros Y; apply comment_span in Y as (? & Y); apply N.eqb_neq in C; congruence]. }
        destruct DC as [C|C]; [rewrite S1 by auto; discriminate|]. destruct (S2 B C) as [P1 P2].
        assert (D : Forall entry_word (firstn 3 fs) \/ ~ Forall entry_word (firstn 3 fs)).
        { generalize (firstn 3 fs). intros l. induction l as [|x l IHl]; [left; constructor|]. destruct (entry_word_dec x) as [E|E]; [|right; intros F; inversion F; auto].
          destruct IHl as [F|F]; [left; constructor; auto|right; intros G; inversion G; auto]. }
        destruct D as [F|F]; [|rewrite (P2 F); discriminate]. destruct (P1 F) as (p & ->). destruct fs as [|f1 [|f2 [|f3 more]]]; cbn [firstn] in *; try discriminate.
        -- intros [= <- <- <-]. inversion F as [|? ? ? F1]; subst. inversion F1; subst. apply Says_two; auto.
        -- destruct (string_to_file_kind f2 =? 255) eqn:K; [discriminate|]. apply N.eqb_neq in K. intros [= <- <- <-].
           inversion F as [|? ? ? F1]; subst. inversion F1 as [|? ? ? F2]; subst. inversion F2; subst. apply (Says_three _ f1 f2 f3 more); auto.
           apply (kind_names f2 _ K); [|reflexivity]. intros x Ix ->. apply (body_nul b). apply (words_in _ _ f2 0 W); [cbn; auto|exact Ix].
    + intros F. inversion F as [|? o ? os S F']; subst. apply body_says in S. rewrite (L1 o S). apply IH in F'. rewrite F'.
      destruct o as [[[r k] c]|]; reflexivity.
Qed.

(** ** One argument too many *)
Lemma past_end r c : first_word r -> no_blank c -> c <> [] -> no_nul c -> entry_word r -> entry_word c ->
  read_spec_entries (r ++ 32 :: c ++ [32; 10]) 3 = Items [r; c] true.
Proof.
  intros (NR & BR & ZR & HR) BC NC ZC ER EC. unfold read_spec_entries.
  assert (E : r ++ 32 :: c ++ [32; 10] = (r ++ 32 :: c ++ [32]) ++ [10]). { rewrite <- app_assoc. cbn [app]. rewrite <- app_assoc. reflexivity. }
  rewrite E, last_last, removelast_last. change (10 =? 10) with true. cbv iota.
  rewrite (ContextProofs.cstr_id (r ++ 32 :: c ++ [32])).
  2: { rewrite in_app_iff. cbn [In]. rewrite in_app_iff. cbn [In]. unfold no_nul in *. intuition discriminate. }
  assert (B32 : blank 32) by (unfold blank; auto).
  assert (S1 : span isspace (r ++ 32 :: c ++ [32]) = ([], r ++ 32 :: c ++ [32])).
  { apply (span_blank_app []); [constructor|]. destruct r; [congruence|]. inversion BR; subst. cbn. assumption. }
  rewrite S1. cbn [snd]. destruct r as [|x r]; [congruence|]. cbn [hd] in HR. cbn [app].
  assert ((x =? 35) = false) as -> by (apply N.eqb_neq; exact HR).
  assert (R1 : read_spec_entry (x :: r ++ 32 :: c ++ [32]) = Some (x :: r, 32 :: c ++ [32])).
  { apply (entry_ok [] (x :: r) (32 :: c ++ [32])); auto. }
  assert (R2 : read_spec_entry (32 :: c ++ [32]) = Some (c, [32])).
  { apply (entry_ok [32] c [32]); auto. }
  assert (R3 : read_spec_entry [32] = Some ([], [])) by (apply entry_blank; constructor; [exact B32|constructor]).
  cbn [entries_loop]. rewrite R1. cbn [entries_loop app orb]. rewrite R2. destruct c as [|d c]; [congruence|].
  cbn [entries_loop app orb]. rewrite R3. reflexivity.
Qed.

(** ** Substitutions *)
Lemma bspan_span f l j : no_nul l -> bspan f (map Some l ++ Some 0 :: j) =
  Some (fst (span f l), map Some (snd (span f l)) ++ Some 0 :: j).
Proof.
  intros NZ. induction l as [|c l IH]; [reflexivity|]. cbn [map app bspan span].
  assert (C : c <> 0) by (intros ->; apply NZ; cbn; auto). assert ((c =? 0) = false) as -> by lia. cbn [negb andb].
  assert (NL : no_nul l) by (intros I; apply NZ; right; exact I). specialize (IH NL).
  destruct (f c) eqn:F.
  - rewrite IH. destruct (span f l) as [a b]. reflexivity.
  - reflexivity.
Qed.

Lemma words_pair s x y more : words s (x :: y :: more) -> exists ws ws2 rest, s = ws ++ x ++ ws2 ++ y ++ rest /\ Forall blank ws /\ Forall blank ws2 /\
  ws2 <> [] /\ x <> [] /\ no_blank x /\ y <> [] /\ no_blank y /\ stops rest.
Proof.
  intros W. inversion W as [|ws v r hs B NE NB ST W' E]; subst. inversion W' as [|ws2 v2 r2 hs2 B2 NE2 NB2 ST2 W2 E2]; subst.
  exists ws, ws2, r2. do 3 (split; [auto|]). split; [|auto].
  intros ->. cbn [app] in ST. destruct y as [|c y]; [congruence|]. cbn in ST. inversion NB2; subst. contradiction.
Qed.

(** One round on a line that is not cut in its first word. *)
Lemma map_tl (l : list N) j : tl (map Some l ++ Some 0 :: j) = match l with [] => j | _ :: t => map Some t ++ Some 0 :: j end.
Proof. destruct l; reflexivity. Qed.

Lemma round_comment l j : no_nul l -> comment l -> subs_round (map Some l ++ Some 0 :: j) = SNext (map Some l ++ Some 0 :: j) None.
Proof.
  intros NZ C. unfold subs_round. rewrite bspan_span by exact NZ. apply comment_span in C as (r & C). rewrite C. reflexivity.
Qed.
Lemma not_hash (A : Type) (l : list N) (j : list (option N)) (a b : A) : hd 0 l <> 35 ->
  (match map Some l ++ Some 0 :: j with Some 35 :: _ => a | _ => b end) = b.
Proof.
  destruct l as [|c l]; [reflexivity|]. cbn [hd map app]. intros H.
  destruct c as [|p]; [reflexivity|]. do 6 (destruct p as [p|p|]; try reflexivity). congruence.
Qed.
Lemma round_pair l j x y : no_nul l -> pair_of l (x, y) -> exists buf, subs_round (map Some l ++ Some 0 :: j) = SNext buf (Some (x, y)).
Proof.
  intros NZ (more & W & NC). cbn [fst snd] in W. destruct (words_pair _ _ _ _ W) as (ws & ws2 & rest & -> & B & B2 & NE2 & NX & NBx & NY & NBy & ST).
  assert (HX : hd 0 x <> 35) by (intros H; apply NC; exact (comment_hd _ _ _ W H)).
  unfold subs_round. rewrite bspan_span by exact NZ.
  rewrite (span_blank_app ws (x ++ ws2 ++ y ++ rest) B). 2: { destruct x; [congruence|]. inversion NBx; subst. cbn. assumption. }
  cbn [fst snd]. rewrite not_hash. 2: { destruct x; [congruence|]. exact HX. }
  assert (Z1 : no_nul (x ++ ws2 ++ y ++ rest)) by (intros I; apply NZ; apply in_app_iff; auto).
  rewrite bspan_span by exact Z1.
  rewrite (span_word_app x (ws2 ++ y ++ rest) NBx). 2: { destruct ws2; [congruence|]. inversion B2; subst. cbn. assumption. }
  cbn [fst snd]. destruct x as [|x0 x]; [congruence|]. destruct ws2 as [|s0 ws2]; [congruence|]. cbn [map app tl].
  inversion B2; subst.
  assert (Z2 : no_nul (ws2 ++ y ++ rest)) by (intros I; apply Z1; apply in_app_iff; right; right; exact I).
  rewrite bspan_span by exact Z2. rewrite (span_blank_app ws2 (y ++ rest)); [|assumption|destruct y; [congruence|]; inversion NBy; subst; cbn; assumption].
  cbn [fst snd]. assert (Z3 : no_nul (y ++ rest)) by (intros I; apply Z2; apply in_app_iff; auto).
  rewrite bspan_span by exact Z3. rewrite (span_word_app y rest NBy ST). cbn [fst snd]. destruct y as [|y0 y]; [congruence|]. eauto.
Qed.
Lemma span_blanks l : Forall blank l -> span isspace l = (l, []).
Proof. intros B. rewrite <- (app_nil_r l) at 1. apply span_blank_app; [exact B|exact I]. Qed.
Lemma round_skip l j : no_nul l -> (forall p, ~ pair_of l p) -> ~ one_word l -> exists buf, subs_round (map Some l ++ Some 0 :: j) = SNext buf None.
Proof.
  intros NZ NP NO.
  assert (DC : comment l \/ ~ comment l).
  { destruct (snd (span isspace l)) as [|x t] eqn:E; [right; intros Y; apply comment_span in Y as (? & Y); congruence|].
    destruct (x =? 35) eqn:C; [left; apply comment_span; apply N.eqb_eq in C; subst x; eauto|right; intros Y; apply comment_span in Y as (? & Y); apply N.eqb_neq in C; congruence]. }
  destruct DC as [C|C]; [rewrite round_comment by auto; eauto|].
  destruct (words_ex l) as (fs & W). destruct fs as [|x fs].
  - inversion W as [ws B|]; subst. unfold subs_round. rewrite bspan_span by exact NZ. rewrite (span_blanks l B).
    cbn [fst snd map app]. cbn [bspan]. change (negb (0 =? 0)) with false. cbn [andb]. eauto.
  - destruct fs as [|y fs]; [|destruct (NP (x, y)); exists fs; auto].
    assert (HX : hd 0 x <> 35) by (intros H; apply C; exact (comment_hd _ _ _ W H)).
    inversion W as [|ws v r hs B NE NB ST W' E]; subst. inversion W' as [ws2 B2|]; subst. destruct r as [|s0 r].
    { destruct NO. exists ws, x. rewrite app_nil_r in *. auto. }
    unfold subs_round. rewrite bspan_span by exact NZ.
    rewrite (span_blank_app ws (x ++ s0 :: r) B). 2: { destruct x; [congruence|]. inversion NB; subst. cbn. assumption. }
    cbn [fst snd]. rewrite not_hash. 2: { destruct x; [congruence|]. exact HX. }
    assert (Z1 : no_nul (x ++ s0 :: r)) by (intros I; apply NZ; apply in_app_iff; auto).
    rewrite bspan_span by exact Z1. rewrite (span_word_app x (s0 :: r) NB ST). cbn [fst snd]. destruct x as [|x0 x]; [congruence|]. cbn [map app tl].
    assert (Z2 : no_nul r) by (intros I; apply Z1; apply in_app_iff; right; right; exact I). inversion B2; subst.
    rewrite bspan_span by exact Z2. rewrite (span_blanks r H2). cbn [fst snd map app bspan].
    change (negb (0 =? 0)) with false. cbn [andb]. eauto.
Qed.

Lemma fgets_line n l rest : no_newline l -> (S (List.length l) <= n)%nat -> fgets n (l ++ 10 :: rest) = (l ++ [10], rest).
Proof.
  revert n. induction l as [|c l IH]; intros n NN L; (destruct n as [|n]; [cbn in L; lia|]); cbn [app fgets]; [reflexivity|].
  assert ((c =? 10) = false) as -> by (apply N.eqb_neq; intros ->; apply NN; cbn; auto).
  rewrite IH; [reflexivity|intros I; apply NN; right; exact I|cbn in L; lia].
Qed.
Lemma fgets_last n l : no_newline l -> (List.length l <= n)%nat -> fgets n l = (l, []).
Proof.
  revert n. induction l as [|c l IH]; intros n NN L; (destruct n as [|n]; [try (cbn in L; lia); reflexivity|]); cbn [app fgets]; [reflexivity|].
  assert ((c =? 10) = false) as -> by (apply N.eqb_neq; intros ->; apply NN; cbn; auto).
  rewrite IH; [reflexivity|intros I; apply NN; right; exact I|cbn in L; lia].
Qed.

Lemma subs_loop_spec file ls : lines_of file ls -> no_nul file -> Forall (fun l => (List.length l <= 1022)%nat /\ ~ one_word l) ls ->
  forall ps fuel buf, pairs_of ls ps -> (List.length file <= fuel)%nat -> subs_loop fuel file buf = ROk ps.
Proof.
  assert (STEP : forall l ls ps buf f rest, no_nul l -> (List.length l <= 1022)%nat /\ ~ one_word l -> pairs_of (l :: ls) ps ->
    (forall ps' buf', pairs_of ls ps' -> subs_loop f rest buf' = ROk ps') ->
    match subs_round (put_line l buf) with SUB => RUB | SNext buf' pr =>
      match subs_loop f rest buf' with ROk q => ROk (match pr with Some x => x :: q | None => q end) | other => other end end = ROk ps).
  { intros l ls' ps buf f rest NZ [_ NO] P R. unfold put_line. inversion P as [|? ? [x y] ps' PO P' |? ? ? NP P']; subst.
    - destruct (round_pair l (skipn (S (List.length l)) buf) x y NZ PO) as (b' & ->). rewrite (R ps' b' P'). reflexivity.
    - destruct (round_skip l (skipn (S (List.length l)) buf) NZ NP NO) as (b' & ->). rewrite (R ps b' P'). reflexivity. }
  induction 1 as [|l NE NN|l file ls NN LO IH]; intros NZ F ps fuel buf P L.
  - inversion P; subst. destruct fuel; reflexivity.
  - destruct fuel as [|fuel]; [destruct l; [congruence|cbn in L; lia]|]. destruct l as [|c l]; [congruence|]. remember (c :: l) as q eqn:Q.
    inversion F as [|? ? FL _]; subst q. cbn [subs_loop]. rewrite fgets_last by (auto; apply FL). apply (STEP (c :: l) [] ps); auto.
    intros ps' buf' P'. inversion P'; subst. destruct fuel; reflexivity.
  - inversion F as [|? ? FL F']; subst.
    assert (ZL : no_nul (l ++ [10])). { intros I. apply NZ. apply in_app_iff in I. apply in_app_iff. destruct I as [I|[I|[]]]; [auto|discriminate]. }
    assert (ZF : no_nul file) by (intros I; apply NZ; apply in_app_iff; right; right; exact I).
    rewrite app_length in L. cbn [List.length] in L. destruct fuel as [|fuel]; [lia|].
    assert (EQ : subs_loop (S fuel) (l ++ 10 :: file) buf = (let '(chunk, rest) := fgets 1022 (l ++ 10 :: file) in
      match subs_round (put_line chunk buf) with SUB => RUB | SNext buf' pr =>
      match subs_loop fuel rest buf' with ROk q => ROk (match pr with Some x => x :: q | None => q end) | other => other end end)).
    { destruct l; reflexivity. }
    rewrite EQ. rewrite fgets_line; [|exact NN|destruct FL as [FL _]; rewrite app_length in FL; cbn [List.length] in FL; lia].
    apply (STEP (l ++ [10]) ls ps); auto. intros ps' buf' P'. apply IH; auto. lia.
Qed.

Lemma comment_dec l : comment l \/ ~ comment l.
Proof.
  destruct (snd (span isspace l)) as [|x t] eqn:E; [right; intros Y; apply comment_span in Y as (? & Y); congruence|].
  destruct (x =? 35) eqn:C; [left; apply comment_span; apply N.eqb_eq in C; subst x; eauto|right; intros Y; apply comment_span in Y as (? & Y); apply N.eqb_neq in C; congruence].
Qed.
Lemma pairs_ex ls : exists ps, pairs_of ls ps.
Proof.
  induction ls as [|l ls (ps & IH)]; [exists []; constructor|]. destruct (comment_dec l) as [C|C].
  - exists ps. apply pairs_skip; [|exact IH]. intros p (more & _ & X). contradiction.
  - destruct (words_ex l) as (fs & W). destruct fs as [|x [|y more]].
    + exists ps. apply pairs_skip; [|exact IH]. intros p (more & W' & _). assert (X := words_fun _ _ W _ W'). discriminate X.
    + exists ps. apply pairs_skip; [|exact IH]. intros p (more & W' & _). assert (X := words_fun _ _ W _ W'). discriminate X.
    + exists ((x, y) :: ps). apply pairs_cons; [|exact IH]. exists more. auto.
Qed.
Lemma pairs_fun ls ps : pairs_of ls ps -> forall qs, pairs_of ls qs -> ps = qs.
Proof.
  induction 1 as [|l ls p ps PO P IH|l ls ps NP P IH]; intros qs Q; inversion Q as [|? ? q qs' QO Q'|? ? ? NQ Q']; subst; try reflexivity.
  - f_equal; [|apply IH; exact Q']. destruct p as [x y], q as [x' y']. destruct PO as (m & W & _), QO as (m' & W' & _).
    assert (X := words_fun _ _ W _ W'). cbn in X. congruence.
  - destruct (NQ p PO).
  - destruct (NP q QO).
  - apply IH. exact Q'.
Qed.

(** *** The wrong results *)
Lemma words_single w : first_word w -> words w [w].
Proof. intros (NE & NB & _). rewrite <- (app_nil_r w) at 1. apply (words_word [] w [] []); [constructor|exact NE|exact NB|exact I|]. constructor. constructor. Qed.
Lemma first_hd w : first_word w -> hd 0 w <> 35. Proof. intros (_ & _ & _ & H). exact H. Qed.

Lemma span_first w rest : first_word w -> span isspace (w ++ rest) = ([], w ++ rest).
Proof.
  intros (NE & NB & _). apply (span_blank_app [] (w ++ rest)); [constructor|]. destruct w; [congruence|]. inversion NB; subst. cbn. assumption.
Qed.
Lemma stale_round c j : first_word c -> subs_round (map Some c ++ Some 0 :: j) =
  match bspan isspace j with
  | None => SUB
  | Some (sp2, dst) => match bspan (fun x => negb (isspace x)) dst with
      | None => SUB
      | Some (w2, r2) => SNext (map Some c ++ Some 0 :: map Some sp2 ++ map Some w2 ++ Some 0 :: tl r2) (match w2 with [] => None | _ => Some (c, w2) end) end
  end.
Proof.
  intros FW. assert (Z := FW). destruct Z as (NE & NB & NZ & HX). unfold subs_round. rewrite bspan_span by exact NZ.
  assert (SP := span_first c [] FW). rewrite app_nil_r in SP. rewrite SP. cbn [fst snd]. rewrite not_hash by exact HX. rewrite bspan_span by exact NZ.
  assert (S2 := span_word_app c [] NB I). rewrite app_nil_r in S2. rewrite S2. cbn [fst snd map app tl]. destruct c as [|c0 c]; [congruence|].
  destruct (bspan isspace j) as [[a b]|]; [|reflexivity]. destruct (bspan _ b) as [[d e]|]; reflexivity.
Qed.

Lemma uninit c : first_word c -> (List.length c <= 1022)%nat -> no_newline c -> selabel_subs_init c = RUB.
Proof.
  intros FW L NN. unfold selabel_subs_init, fresh_buf. destruct c as [|c0 c]; [destruct FW; congruence|].
  remember (List.length c) as n eqn:Hn. cbn [List.length]. rewrite <- Hn. cbn [subs_loop].
  rewrite fgets_last by auto. unfold put_line. rewrite (stale_round (c0 :: c)) by exact FW.
  assert (B : exists j, skipn (S (List.length (c0 :: c))) (repeat (@None N) 1024) = None :: j).
  { cbn [List.length]. rewrite <- Hn. cbn [List.length] in L. rewrite <- Hn in L. clear - L.
    replace 1024%nat with (S (S n) + (1024 - S (S n)))%nat by lia. rewrite repeat_app.
    rewrite skipn_app, repeat_length, Nat.sub_diag. rewrite skipn_all2 by (rewrite repeat_length; lia).
    destruct (1024 - S (S n))%nat as [|m] eqn:E; [lia|]. cbn [repeat app skipn]. eauto. }
  destruct B as (j & ->). reflexivity.
Qed.

Lemma stale a b c : first_word a -> first_word b -> first_word c -> no_newline (a ++ b ++ c) -> List.length c = List.length a ->
  (List.length a + List.length b + 2 <= 1022)%nat -> selabel_subs_init (a ++ 32 :: b ++ 10 :: c) = ROk [(a, b); (c, b)].
Proof.
  intros FA FB FC NN LC L. assert (FA' := FA). assert (FB' := FB). assert (FC' := FC). destruct FA' as (NEa & NBa & NZa & HXa). destruct FB' as (NEb & NBb & NZb & HXb). destruct FC' as (NEc & NBc & NZc & HXc).
  assert (NNab : no_newline (a ++ 32 :: b)).
  { intros I. apply NN. rewrite !in_app_iff in *. cbn [In] in I. destruct I as [I|[I|I]]; [auto|discriminate|auto]. }
  assert (NNc : no_newline c) by (intros I; apply NN; rewrite !in_app_iff; auto).
  unfold selabel_subs_init.
  assert (FU : exists fu, List.length (a ++ 32 :: b ++ 10 :: c) = S (S fu)).
  { rewrite app_length. cbn [List.length]. rewrite app_length. cbn [List.length]. destruct a as [|a0 a]; [congruence|]. cbn [List.length].
    exists (List.length a + List.length b + S (List.length c))%nat. lia. }
  destruct FU as (fu & ->).
  assert (EQ : forall f file buf, file <> [] -> subs_loop (S f) file buf = (let '(chunk, rest) := fgets 1022 file in
      match subs_round (put_line chunk buf) with SUB => RUB | SNext buf' pr =>
      match subs_loop f rest buf' with ROk q => ROk (match pr with Some x => x :: q | None => q end) | other => other end end)).
  { intros f file buf NE. destruct file; [congruence|reflexivity]. }
  assert (B32 : blank 32) by (unfold blank; auto). assert (B10 : blank 10) by (unfold blank; auto).
  rewrite EQ by (destruct a; discriminate).
  assert (E1 : a ++ 32 :: b ++ 10 :: c = (a ++ 32 :: b) ++ 10 :: c) by (rewrite <- app_assoc; reflexivity).
  rewrite E1, fgets_line; [|exact NNab|rewrite app_length; cbn [List.length]; lia].
  assert (Z1 : no_nul ((a ++ 32 :: b) ++ [10])).
  { intros I. rewrite !in_app_iff in I. cbn [In] in I. unfold no_nul in *. intuition discriminate. }
  unfold put_line at 1. set (j := skipn (S (List.length ((a ++ 32 :: b) ++ [10]))) fresh_buf).
  assert (R1 : subs_round (map Some ((a ++ 32 :: b) ++ [10]) ++ Some 0 :: j) = SNext (map Some a ++ Some 0 :: map Some b ++ Some 0 :: Some 0 :: j) (Some (a, b))).
  { unfold subs_round. rewrite bspan_span by exact Z1. rewrite <- !app_assoc. rewrite (span_first a _ FA). cbn [fst snd].
    rewrite not_hash. 2: { destruct a; [congruence|exact HXa]. }
    rewrite bspan_span. 2: { rewrite <- app_assoc in Z1. exact Z1. }
    rewrite (span_word_app a _ NBa) by (cbn; exact B32). cbn [fst snd app map tl].
    assert (Zb : no_nul (b ++ [10])) by (intros I; rewrite in_app_iff in I; cbn [In] in I; unfold no_nul in *; intuition discriminate).
    destruct a as [|a0 a]; [congruence|].
    rewrite bspan_span by exact Zb. rewrite (span_first b _ FB). cbn [fst snd]. rewrite bspan_span by exact Zb.
    rewrite (span_word_app b [10] NBb) by (cbn; exact B10). cbn [fst snd map app tl]. destruct b as [|b0 b]; [congruence|]. reflexivity. }
  rewrite R1. rewrite EQ by exact NEc. rewrite fgets_last; [|exact NNc|lia]. unfold put_line.
  assert (SK : skipn (S (List.length c)) (map Some a ++ Some 0 :: map Some b ++ Some 0 :: Some 0 :: j) = map Some b ++ Some 0 :: Some 0 :: j).
  { rewrite LC. rewrite skipn_app, map_length. rewrite skipn_all2 by (rewrite map_length; lia). replace (S (List.length a) - List.length a)%nat with 1%nat by lia. reflexivity. }
  rewrite SK, stale_round by exact FC. rewrite bspan_span by exact NZb. assert (SB := span_first b [] FB). rewrite app_nil_r in SB. rewrite SB. cbn [fst snd].
  rewrite bspan_span by exact NZb. assert (SW := span_word_app b [] NBb I). rewrite app_nil_r in SW. rewrite SW. cbn [fst snd map app tl].
  destruct b as [|b0 b]; [congruence|]. destruct fu; reflexivity.
Qed.

Lemma fgets_full n l rest : no_newline l -> List.length l = n -> fgets n (l ++ rest) = (l, rest).
Proof.
  revert n. induction l as [|c l IH]; intros n NN L; cbn in L; subst n; [destruct rest; reflexivity|]. cbn [app fgets].
  assert ((c =? 10) = false) as -> by (apply N.eqb_neq; intros ->; apply NN; cbn; auto).
  rewrite IH; [reflexivity|intros I; apply NN; right; exact I|reflexivity].
Qed.
Lemma long_comment t a b : List.length t = 1021%nat -> no_newline t -> no_nul t -> first_word a -> first_word b -> no_newline (a ++ b) ->
  (List.length a + List.length b + 2 <= 1022)%nat -> selabel_subs_init (35 :: t ++ a ++ 32 :: b ++ [10]) = ROk [(a, b)].
Proof.
  intros LT NT ZT FA FB NN L. assert (FA' := FA). assert (FB' := FB). destruct FA' as (NEa & NBa & NZa & HXa). destruct FB' as (NEb & NBb & NZb & HXb).
  unfold selabel_subs_init. remember (t ++ a ++ 32 :: b ++ [10]) as rest eqn:R. cbn [List.length].
  assert (EQ : forall f c file buf, subs_loop (S f) (c :: file) buf = (let '(chunk, rest) := fgets 1022 (c :: file) in
      match subs_round (put_line chunk buf) with SUB => RUB | SNext buf' pr =>
      match subs_loop f rest buf' with ROk q => ROk (match pr with Some x => x :: q | None => q end) | other => other end end)) by reflexivity.
  rewrite EQ. subst rest. change (35 :: t ++ a ++ 32 :: b ++ [10]) with ((35 :: t) ++ a ++ 32 :: b ++ [10]).
  rewrite fgets_full; [|intros [I|I]; [discriminate|exact (NT I)]|cbn [List.length]; rewrite LT; reflexivity]. unfold put_line.
  rewrite round_comment; [|intros [I|I]; [discriminate|exact (ZT I)]|exists [], t; split; [reflexivity|constructor]].
  assert (NNab : no_newline (a ++ 32 :: b)).
  { intros I. apply NN. rewrite !in_app_iff in *. cbn [In] in I. destruct I as [I|[I|I]]; [auto|discriminate|auto]. }
  assert (E1 : a ++ 32 :: b ++ [10] = (a ++ 32 :: b) ++ 10 :: []) by (rewrite <- app_assoc; reflexivity).
  assert (B32 : blank 32) by (unfold blank; auto). assert (B10 : blank 10) by (unfold blank; auto).
  assert (W : words ((a ++ 32 :: b) ++ [10]) [a; b]).
  { apply words_snoc. apply (words_word [] a (32 :: b) [b]); [constructor|exact NEa|exact NBa|exact B32|].
    rewrite <- (app_nil_r b) at 1. apply (words_word [32] b [] []); [constructor; [exact B32|constructor]|exact NEb|exact NBb|exact I|]. constructor. constructor. }
  rewrite (subs_loop_spec (a ++ 32 :: b ++ [10]) [(a ++ 32 :: b) ++ [10]]) with (ps := [(a, b)]); [reflexivity|..].
  - rewrite E1. apply (lines_cons (a ++ 32 :: b) [] []); [exact NNab|constructor].
  - intros I. rewrite in_app_iff in I. cbn [In] in I. rewrite in_app_iff in I. cbn [In] in I. unfold no_nul in *. intuition discriminate.
  - constructor; [|constructor]. split; [rewrite !app_length; cbn [List.length]; lia|].
    intros (ws & w & E & B & NE & NB & _). assert (X : words ((a ++ 32 :: b) ++ [10]) [w]).
    { rewrite E. rewrite <- (app_nil_r w) at 1. apply (words_word ws w [] []); [exact B|exact NE|exact NB|exact I|constructor; constructor]. }
    assert (Y := words_fun _ _ W _ X). discriminate Y.
  - apply pairs_cons; [|constructor]. exists []. split; [exact W|]. exact (not_comment_words _ _ _ W HXa).
  - rewrite !app_length. cbn [List.length]. rewrite !app_length. cbn [List.length]. lia.
Qed.

(** ** Media, X and database files *)
Lemma scan_spec n : forall s fs, words s fs -> scan_words n s = firstn n fs.
Proof.
  induction n as [|n IH]; intros s fs W; [reflexivity|]. cbn [scan_words]. inversion W as [ws B|ws w rest gs B NE NB ST W' E]; subst.
  - rewrite (span_blanks s B). reflexivity.
  - rewrite (span_blank_app ws (w ++ rest) B). 2: { destruct w; [congruence|]. inversion NB; subst. cbn. assumption. }
    cbn [snd]. rewrite (span_word_app w rest NB ST). destruct w as [|c w]; [congruence|]. cbn [firstn]. f_equal. apply IH. exact W'.
Qed.
Lemma comment_line_false s : comment_line s = false <-> ~ comment s /\ ~ Forall blank s.
Proof.
  unfold comment_line. destruct (snd (span isspace s)) as [|c t] eqn:E.
  - split; [discriminate|]. intros [_ B]. destruct B. apply nil_span. exact E.
  - split.
    + intros C. split; [intros X; apply comment_span in X as (r & X); rewrite E in X; injection X as -> _; discriminate C|].
      intros B. rewrite (span_blanks s B) in E. discriminate E.
    + intros [C _]. apply N.eqb_neq. intros ->. apply C. apply comment_span. eauto.
Qed.
Lemma words_not_blank s w fs : words s (w :: fs) -> ~ Forall blank s.
Proof. intros W B. assert (X := words_fun _ _ W _ (words_end s B)). discriminate X. Qed.

Definition got (f : list N -> mline) (l : list N) : option lrec := match f l with MLine o => o | MSkip => None end.
Definition stored (f : list N -> mline) (l : list N) : list lrec := match got f l with Some r => [r] | None => [] end.

Lemma media_stored b k c : got media_line b = Some (mkLR 0 k c) <-> media_says b k c.
Proof.
  unfold got, media_line, media_says. destruct (words_ex (cstr b)) as (fs & W). rewrite (scan_spec 2 _ _ W). split.
  - destruct (comment_line (cstr b)) eqn:C; [discriminate|]. apply comment_line_false in C as [C _]. destruct fs as [|x [|y more]]; cbn [firstn]; try discriminate.
    intros [= <- <-]. exists (cstr b), more. split; [apply cstr_text|auto].
  - intros (s & more & T & C & W'). assert (E := text_cstr _ _ T). subst s. rewrite (words_fun _ _ W _ W').
    rewrite (proj2 (comment_line_false _)); [reflexivity|]. split; [exact C|]. exact (words_not_blank _ _ _ W').
Qed.
Lemma type_of_spec ts (names : list (string * N)) : ts = map (fun p => (bytes (fst p), snd p)) names -> NoDup (map fst ts) ->
  forall w v, type_of ts w = Some v <-> named names w v.
Proof.
  intros -> ND w v. unfold named. induction names as [|[n x] names IH]; cbn [map type_of fst snd].
  - split; [discriminate|]. intros (n & [] & _).
  - cbn [map fst snd] in ND. inversion ND as [|? ? NI ND']; subst. specialize (IH ND'). destruct (str_eqb w (bytes n)) eqn:E.
    + apply str_eqb_eq in E. subst w. split.
      * intros [= <-]. exists n. cbn. auto.
      * intros (m & [[= <- <-]|I] & Q); [reflexivity|]. destruct NI. rewrite Q, map_map. cbn [fst].
        apply in_map_iff. exists (m, v). auto.
    + rewrite IH. split.
      * intros (m & I & Q). exists m. cbn. auto.
      * intros (m & [[= <- <-]|I] & Q); [subst w; rewrite (proj2 (str_eqb_eq _ _) eq_refl) in E; discriminate E|eauto].
Qed.
Lemma x_named w v : type_of x_types w = Some v <-> named x_names w v.
Proof.
  apply type_of_spec; [reflexivity|]. repeat (constructor; [cbn; intuition discriminate|]). constructor.
Qed.
Lemma db_named w v : type_of db_types w = Some v <-> named db_names w v.
Proof.
  apply type_of_spec; [reflexivity|]. repeat (constructor; [cbn; intuition discriminate|]). constructor.
Qed.
Lemma x_stored b v k c : got x_line b = Some (mkLR v k c) <-> x_says b v k c.
Proof.
  unfold got, x_line, x_says. destruct (words_ex (cstr b)) as (fs & W). rewrite (scan_spec 3 _ _ W). split.
  - destruct (comment_line (cstr b)) eqn:C; [discriminate|]. apply comment_line_false in C as [C _]. destruct fs as [|t [|x [|y more]]]; cbn [firstn]; try discriminate.
    destruct (type_of x_types t) as [v'|] eqn:T; [|discriminate]. intros [= <- <- <-]. exists (cstr b), t, more. split; [apply cstr_text|]. split; [exact C|].
    split; [exact W|]. apply x_named. exact T.
  - intros (s & t & more & T & C & W' & NM). assert (E := text_cstr _ _ T). subst s. rewrite (words_fun _ _ W _ W').
    rewrite (proj2 (comment_line_false _)); [|split; [exact C|exact (words_not_blank _ _ _ W')]]. cbn [firstn].
    apply x_named in NM. rewrite NM. reflexivity.
Qed.
Lemma cut_spec s u : uncommented s u <-> cut_comment s = u.
Proof.
  unfold uncommented. revert u. induction s as [|c s IH]; intros u; cbn [cut_comment].
  - split.
    + intros [_ [E|(r & E)]]; [exact E|destruct u; discriminate E].
    + intros <-. split; [intros []|auto].
  - destruct (c =? 35) eqn:C.
    + apply N.eqb_eq in C. subst c. split.
      * intros [NI [E|(r & E)]]; [subst u; destruct NI; cbn; auto|]. destruct u as [|x u]; [reflexivity|]. cbn [app] in E. injection E as <- _. destruct NI. cbn. auto.
      * intros <-. split; [intros []|]. right. exists s. reflexivity.
    + apply N.eqb_neq in C. split.
      * intros [NI D]. destruct u as [|x u]; [destruct D as [D|(r & D)]; [discriminate D|injection D as -> _; congruence]|].
        assert (x = c) by (destruct D as [D|(r & D)]; cbn in D; congruence). subst x. f_equal. apply IH. split; [intros I; apply NI; right; exact I|].
        destruct D as [D|(r & D)]; cbn in D; [left; congruence|right; exists r; congruence].
      * intros <-. destruct (proj2 (IH _) eq_refl) as [NI D]. split; [intros [I|I]; [congruence|exact (NI I)]|].
        destruct D as [D|(r & D)]; [left; congruence|right; exists r; cbn; congruence].
Qed.
Lemma db_stored b v k c : db_line b = Some (mkLR v k c) <-> db_says b v k c.
Proof.
  unfold db_line, db_says. destruct (words_ex (cut_comment (cstr b))) as (fs & W). rewrite (scan_spec 4 _ _ W). split.
  - destruct fs as [|t [|x [|y [|z more]]]]; cbn [firstn]; try discriminate.
    destruct (type_of db_types t) as [v'|] eqn:T; [|discriminate]. intros [= <- <- <-]. exists (cstr b), (cut_comment (cstr b)), t.
    split; [apply cstr_text|]. split; [apply cut_spec; reflexivity|]. split; [exact W|]. apply db_named. exact T.
  - intros (s & u & t & T & U & W' & NM). assert (E := text_cstr _ _ T). subst s. apply cut_spec in U. subst u. rewrite (words_fun _ _ W _ W'). cbn [firstn].
    apply db_named in NM. rewrite NM. reflexivity.
Qed.

(** The two passes. *)
Definition counted (f : list N -> mline) (l : list N) : N := match f l with MSkip => 0 | MLine _ => 1 end.
Fixpoint total (f : list N -> mline) (ls : list (list N)) : N := match ls with [] => 0 | l :: ls' => counted f l + total f ls' end.
Lemma pass0_total f max ls : forall n, n + total f ls <= max -> pass0 f max n ls = n + total f ls.
Proof.
  induction ls as [|l ls IH]; intros n L; cbn [pass0 total] in *; [lia|]. unfold counted in *. destruct (n <? max) eqn:E.
  - destruct (f l); rewrite IH; lia.
  - destruct (f l); lia.
Qed.
Lemma total_len f ls : total f ls <= N.of_nat (List.length ls).
Proof. induction ls as [|l ls IH]; cbn [total List.length]; [lia|]. unfold counted. destruct (f l); lia. Qed.
Lemma pass1_spec f max ls : forall arr, N.of_nat (List.length arr) + total f ls <= max -> pass1 f max arr ls = Some (arr ++ flat_map (stored f) ls).
Proof.
  induction ls as [|l ls IH]; intros arr L; cbn [pass1 flat_map total] in *; [rewrite app_nil_r; reflexivity|]. unfold stored at 1; unfold got, counted in *.
  destruct (N.of_nat (List.length arr) <? max) eqn:E.
  - destruct (f l) as [|[r|]]; [apply IH; lia| |apply IH; lia]. rewrite IH; [rewrite <- app_assoc; reflexivity|rewrite app_length; cbn [List.length]; lia].
  - assert (T0 : total f ls = 0) by (destruct (f l); lia). destruct (f l) as [|[r|]]; try lia. cbn [app].
    assert (S0 : flat_map (stored f) ls = []).
    { clear - T0. induction ls as [|l ls IH]; [reflexivity|]. cbn [total flat_map] in *. unfold stored at 1; unfold got, counted in *. destruct (f l); [cbn [app]; apply IH; lia|lia]. }
    rewrite S0, app_nil_r. reflexivity.
Qed.
Lemma two_pass_spec f max file ls : lines_of file ls -> N.of_nat (List.length ls) <= max -> two_pass f max file = Some (flat_map (stored f) ls).
Proof.
  intros LO LM. unfold two_pass. rewrite (lines_fun _ _ LO). assert (T := total_len f ls). rewrite pass0_total by lia. rewrite N.add_0_l.
  destruct (total f ls =? 0) eqn:E.
  - apply N.eqb_eq in E. f_equal. clear - E. induction ls as [|l ls IH]; [reflexivity|]. cbn [total flat_map] in *. unfold stored at 1; unfold got, counted in *.
    destruct (f l); [cbn [app]; apply IH; lia|lia].
  - rewrite pass1_spec; [reflexivity|]. cbn [List.length]. lia.
Qed.
Lemma pass1_safe f max ls : forall arr, pass1 f max arr ls <> None.
Proof.
  induction ls as [|l ls IH]; intros arr; cbn [pass1]; [discriminate|]. destruct (N.of_nat (List.length arr) <? max); [|discriminate].
  destruct (f l) as [|[r|]]; apply IH.
Qed.

(** Looking through the lines. *)
Lemma first_line {A R} (g : A -> option R) (hit : R -> bool) (ctx : R -> list N) (look : list R -> option (list N)) :
  look [] = None -> (forall r l, look (r :: l) = if hit r then Some (ctx r) else look l) ->
  forall (ls : list A) (c : list N),
  (look (flat_map (fun a => match g a with Some r => [r] | None => [] end) ls) = Some c <->
     exists a r, first_such (fun a => exists r, g a = Some r /\ hit r = true) ls a /\ g a = Some r /\ ctx r = c) /\
  (look (flat_map (fun a => match g a with Some r => [r] | None => [] end) ls) = None <->
     forall a r, In a ls -> g a = Some r -> hit r = false).
Proof.
  intros L0 L1 ls c. induction ls as [|a ls [IH1 IH2]]; cbn [flat_map].
  - rewrite L0. split; [split; [discriminate|]|split; [intros _ ? ? []|reflexivity]]. intros (a & r & (bf & af & E & _) & _). destruct bf; discriminate E.
  - assert (SKIP : (forall r, g a = Some r -> hit r = false) ->
      ((exists b r, first_such (fun a => exists r, g a = Some r /\ hit r = true) ls b /\ g b = Some r /\ ctx r = c) <->
       (exists b r, first_such (fun a => exists r, g a = Some r /\ hit r = true) (a :: ls) b /\ g b = Some r /\ ctx r = c))).
    { intros NH. split; intros (b & r & (bf & af & EQ & (r' & I' & H') & NB) & I & C).
      - exists b, r. split; [|auto]. exists (a :: bf), af. rewrite EQ. split; [reflexivity|]. split; [eauto|].
        intros y [<-|Iy] (q & Iq & Hq); [rewrite (NH _ Iq) in Hq; discriminate Hq|]. apply (NB y Iy). eauto.
      - exists b, r. split; [|auto]. destruct bf as [|y bf].
        + cbn [app] in EQ. injection EQ as -> _. rewrite (NH _ I') in H'. discriminate H'.
        + cbn [app] in EQ. injection EQ as -> EQ. exists bf, af. split; [exact EQ|]. split; [eauto|]. intros z Iz. apply NB. right. exact Iz. }
    destruct (g a) as [r|] eqn:E; cbn [app].
    + rewrite L1. destruct (hit r) eqn:H.
      * split.
        -- split.
           ++ intros [= <-]. exists a, r. split; [|auto]. exists [], ls. split; [reflexivity|]. split; [eauto|intros ? []].
           ++ intros (b & r' & (bf & af & EQ & _ & NB) & I & C). destruct bf as [|y bf].
              ** cbn [app] in EQ. injection EQ as -> _. congruence.
              ** cbn [app] in EQ. injection EQ as -> EQ. exfalso. apply (NB y); [left; reflexivity|eauto].
        -- split; [discriminate|]. intros X. rewrite (X a r (or_introl eq_refl) E) in H. discriminate H.
      * rewrite IH1, IH2. split; [apply SKIP; congruence|]. split; [|intros X b r' Ib; apply X; right; exact Ib].
        intros X b r' [<-|Ib] Ir; [congruence|eauto].
    + rewrite IH1, IH2. split; [apply SKIP; congruence|]. split; [|intros X b r' Ib; apply X; right; exact Ib].
      intros X b r' [<-|Ib] Ir; [congruence|eauto].
Qed.

Lemma sncmp_key a k : no_nul k -> no_nul a -> (match sncmp (S (List.length k)) a k with Eq => true | _ => false end) = true <-> a = k.
Proof.
  intros _ _. unfold sncmp. rewrite (firstn_all2 k) by lia. split.
  - destruct (scmp (firstn (S (List.length k)) a) k) eqn:E; try discriminate. intros _. apply LabelProofs.scmp_eq in E.
    destruct (Nat.le_gt_cases (List.length a) (List.length k)) as [L|L].
    + rewrite firstn_all2 in E by lia. exact E.
    + assert (LE : List.length (firstn (S (List.length k)) a) = List.length k) by (rewrite E; reflexivity). rewrite firstn_length in LE. lia.
  - intros ->. rewrite firstn_all2 by lia. rewrite LabelProofs.scmp_refl. reflexivity.
Qed.

Lemma star_key a : (match sncmp 2 a [42] with Eq => true | _ => false end) = true <-> a = [42].
Proof.
  unfold sncmp. change (firstn 2 [42]) with [42]. split.
  - destruct (scmp (firstn 2 a) [42]) eqn:E; try discriminate. intros _. apply LabelProofs.scmp_eq in E.
    destruct a as [|x [|y [|z a]]]; cbn [firstn] in E; try discriminate E; exact E.
  - intros ->. reflexivity.
Qed.

Definition media_hit (key : list N) (r : lrec) : bool :=
  match sncmp (S (List.length key)) (r_key r) key with Eq => true | _ => match sncmp 2 (r_key r) [42] with Eq => true | _ => false end end.
Lemma media_hit_spec key r : no_nul key -> no_nul (r_key r) -> media_hit key r = true <-> r_key r = key \/ r_key r = [42].
Proof.
  intros NK NR. unfold media_hit. rewrite <- (sncmp_key (r_key r) key NK NR), <- (star_key (r_key r)).
  destruct (sncmp (S (List.length key)) (r_key r) key); destruct (sncmp 2 (r_key r) [42]); intuition.
Qed.

Lemma media_exact max file ls key ctx : lines_of file ls -> N.of_nat (List.length ls) <= max -> no_nul key ->
  exists arr, two_pass media_line max file = Some arr /\
  (media_lookup arr key = Some ctx <->
     exists b k, first_such (fun b => exists k c, media_says b k c /\ (k = key \/ k = [42])) ls b /\ media_says b k ctx) /\
  (media_lookup arr key = None <-> forall b k c, In b ls -> media_says b k c -> k <> key /\ k <> [42]).
Proof.
  intros LO LM NK. exists (flat_map (stored media_line) ls). split; [exact (two_pass_spec media_line max file ls LO LM)|].
  assert (G0 : forall b r, got media_line b = Some r -> r = mkLR 0 (r_key r) (r_ctx r) /\ media_says b (r_key r) (r_ctx r)).
  { intros b r G. assert (T : r_type r = 0).
    { unfold got, media_line in G. destruct (comment_line (cstr b)); [discriminate G|]. destruct (scan_words 2 (cstr b)) as [|x [|y [|z l]]]; try discriminate G. injection G as <-. reflexivity. }
    destruct r as [t k c]. cbn [r_type] in T. subst t. split; [reflexivity|]. apply media_stored. exact G. }
  assert (NR : forall b r, got media_line b = Some r -> no_nul (r_key r)).
  { intros b r G. destruct (G0 b r G) as [_ (s & more & [NS _] & _ & W)]. intros I. apply NS. apply (words_in _ _ (r_key r) 0 W); [cbn; auto|exact I]. }
  destruct (first_line (got media_line) (media_hit key) r_ctx (fun l => media_lookup l key)) with (ls := ls) (c := ctx) as [F1 F2].
  { reflexivity. }
  { intros r l. cbn [media_lookup]. unfold media_hit. destruct (sncmp (S (List.length key)) (r_key r) key); [reflexivity|destruct (sncmp 2 (r_key r) [42]); reflexivity..]. }
  assert (EQV : forall b, (exists r, got media_line b = Some r /\ media_hit key r = true) <-> (exists k c, media_says b k c /\ (k = key \/ k = [42]))).
  { intros b. split.
    - intros (r & G & H). apply media_hit_spec in H; [|exact NK|exact (NR b r G)]. destruct (G0 b r G) as [_ S]. exists (r_key r), (r_ctx r). auto.
    - intros (k & c & S & H). apply media_stored in S. exists (mkLR 0 k c). split; [exact S|]. apply media_hit_spec; [exact NK|exact (NR b _ S)|exact H]. }
  split.
  - unfold stored. rewrite F1. split.
    + intros (b & r & (bf & af & E & H & NB) & G & C). destruct (G0 b r G) as [_ S]. exists b, (r_key r). rewrite C in S. split; [|exact S].
      exists bf, af. split; [exact E|]. split; [apply EQV; exact H|]. intros x Ix X. apply (NB x Ix). apply EQV. exact X.
    + intros (b & k & (bf & af & E & H & NB) & S). apply media_stored in S. exists b, (mkLR 0 k ctx). split; [|split; [exact S|reflexivity]].
      exists bf, af. split; [exact E|]. split; [apply EQV; exact H|]. intros x Ix X. apply (NB x Ix). apply EQV. exact X.
  - unfold stored. rewrite F2. split.
    + intros H b k c Ib S. apply media_stored in S. specialize (H b _ Ib S). 
      assert (Q : ~ (k = key \/ k = [42])). { intros X. rewrite (proj2 (media_hit_spec key (mkLR 0 k c) NK (NR b _ S)) X) in H. discriminate H. } tauto.
    + intros H b r Ib G. destruct (media_hit key r) eqn:M; [|reflexivity]. apply media_hit_spec in M; [|exact NK|exact (NR b r G)].
      destruct (G0 b r G) as [_ S]. destruct (H b _ _ Ib S). destruct M; contradiction.
Qed.

(** The two files with patterns. *)
Lemma glob_exact fnm (g : list N -> option lrec) (say : list N -> N -> list N -> list N -> Prop) :
  (forall b v k c, g b = Some (mkLR v k c) <-> say b v k c) -> forall ls key v ctx,
  (glob_lookup fnm (flat_map (fun b => match g b with Some r => [r] | None => [] end) ls) key v = Some ctx <->
     exists b k, first_such (fun b => exists k c, say b v k c /\ fnm k key = true) ls b /\ say b v k ctx) /\
  (glob_lookup fnm (flat_map (fun b => match g b with Some r => [r] | None => [] end) ls) key v = None <->
     forall b k c, In b ls -> say b v k c -> fnm k key = false).
Proof.
  intros GS ls key v ctx.
  destruct (first_line g (fun r => (r_type r =? v) && fnm (r_key r) key) r_ctx (fun l => glob_lookup fnm l key v)) with (ls := ls) (c := ctx) as [F1 F2].
  { reflexivity. }
  { intros r l. cbn [glob_lookup]. destruct (r_type r =? v); cbn [negb andb]; reflexivity. }
  assert (EQV : forall b, (exists r, g b = Some r /\ (r_type r =? v) && fnm (r_key r) key = true) <-> (exists k c, say b v k c /\ fnm k key = true)).
  { intros b. split.
    - intros ([t k c] & G & H). cbn [r_type r_key] in H. apply andb_true_iff in H as [T H]. apply N.eqb_eq in T. subst t. apply GS in G. eauto.
    - intros (k & c & S & H). apply GS in S. exists (mkLR v k c). split; [exact S|]. cbn [r_type r_key]. rewrite N.eqb_refl. exact H. }
  split.
  - rewrite F1. split.
    + intros (b & [t k c] & (bf & af & E & H & NB) & G & C). cbn [r_ctx] in C. subst c.
      assert (t = v). { destruct H as (r' & G' & H). rewrite G in G'. injection G' as <-. cbn [r_type] in H. apply andb_true_iff in H as [T _]. apply N.eqb_eq in T. exact T. }
      subst t. exists b, k. split; [|apply GS; exact G].
      exists bf, af. split; [exact E|]. split; [apply EQV; exact H|]. intros x Ix X. apply (NB x Ix). apply EQV. exact X.
    + intros (b & k & (bf & af & E & H & NB) & S). apply GS in S. exists b, (mkLR v k ctx). split; [|split; [exact S|reflexivity]].
      exists bf, af. split; [exact E|]. split; [apply EQV; exact H|]. intros x Ix X. apply (NB x Ix). apply EQV. exact X.
  - rewrite F2. split.
    + intros H b k c Ib S. apply GS in S. specialize (H b _ Ib S). cbn [r_type r_key] in H. rewrite N.eqb_refl in H. exact H.
    + intros H b [t k c] Ib G. cbn [r_type r_key]. destruct (t =? v) eqn:T; [|reflexivity]. apply N.eqb_eq in T. subst t. apply GS in G. exact (H b k c Ib G).
Qed.
Lemma x_exact fnm max file ls key v ctx : lines_of file ls -> N.of_nat (List.length ls) <= max ->
  exists arr, two_pass x_line max file = Some arr /\
  (glob_lookup fnm arr key v = Some ctx <->
     exists b k, first_such (fun b => exists k c, x_says b v k c /\ fnm k key = true) ls b /\ x_says b v k ctx) /\
  (glob_lookup fnm arr key v = None <-> forall b k c, In b ls -> x_says b v k c -> fnm k key = false).
Proof.
  intros LO LM. exists (flat_map (stored x_line) ls). split; [exact (two_pass_spec x_line max file ls LO LM)|].
  exact (glob_exact fnm (got x_line) x_says x_stored ls key v ctx).
Qed.
Lemma db_exact fnm file ls key v ctx : lines_of file ls ->
  (glob_lookup fnm (db_specs file) key v = Some ctx <->
     exists b k, first_such (fun b => exists k c, db_says b v k c /\ fnm k key = true) ls b /\ db_says b v k ctx) /\
  (glob_lookup fnm (db_specs file) key v = None <-> forall b k c, In b ls -> db_says b v k c -> fnm k key = false).
Proof.
  intros LO. unfold db_specs. rewrite (lines_fun _ _ LO). exact (glob_exact fnm db_line db_says db_stored ls key v ctx).
Qed.
Lemma first_such_one {A} (P : A -> Prop) (ls : list A) a b : first_such P ls a -> first_such P ls b -> a = b.
Proof.
  intros (b1 & a1 & E1 & P1 & N1) (b2 & a2 & E2 & P2 & N2). subst ls. revert b2 E2 N2. induction b1 as [|x b1 IH]; intros b2 E2 N2.
  - destruct b2 as [|y b2]; cbn [app] in E2; injection E2; [congruence|]. intros _ ->. destruct (N2 y (or_introl eq_refl) P1).
  - destruct b2 as [|y b2]; cbn [app] in E2; injection E2.
    + intros _ ->. destruct (N1 b (or_introl eq_refl) P2).
    + intros E <-. apply (IH (fun z Iz => N1 z (or_intror Iz)) b2 E (fun z Iz => N2 z (or_intror Iz))).
Qed.

(** ** Sorted file contexts *)
From Verif Require Import FcsortModel FcsortSpec FcsortProofs.
From Coq Require Import Sorted Permutation.
Lemma kind_text t k : kind_name t k -> t <> [] /\ no_blank t /\ no_nul t /\ no_newline t /\ entry_word t.
Proof.
  intros K. assert (BB : forall c, c = 45 \/ c = 98 \/ c = 99 \/ c = 100 \/ c = 112 \/ c = 108 \/ c = 115 -> ~ blank c) by (intros c; unfold blank; lia).
  destruct K; (split; [discriminate|]; split; [repeat (constructor; [apply BB; cbn; lia|]); constructor|];
    split; [cbn; unfold no_nul; cbn; lia|]; split; [unfold no_newline; cbn; lia|]; split; [repeat (constructor; [cbn; lia|]); constructor|cbn; lia]).
Qed.
Lemma entry_says line e sp : is_entry line e -> reads_as e sp -> line_says (entry_text e) (Some sp) /\
  exists b, entry_text e = b ++ [10] /\ no_newline b.
Proof.
  intros (ws & ws1 & body0 & rest & _ & _ & _ & _ & NBp & (c0 & p0 & EP & NH) & NBc & NEc & _ & _) (EWp & EWc & NZp & NZc & k & -> & T).
  assert (B9 : blank 9) by (unfold blank; auto). assert (B10 : blank 10) by (unfold blank; auto).
  assert (NEp : e_path e <> []) by (rewrite EP; discriminate). assert (HP : hd 0 (e_path e) <> 35) by (rewrite EP; exact NH).
  assert (NNb : forall s, no_blank s -> no_newline s) by (intros s NB I; unfold no_blank in NB; rewrite Forall_forall in NB; exact (NB 10 I B10)).
  assert (WC : words (9 :: e_context e ++ [10]) [e_context e]).
  { change (9 :: e_context e ++ [10]) with ([9] ++ e_context e ++ [10]).
    apply (words_word [9] (e_context e) [10] []); [constructor; [exact B9|constructor]|exact NEc|exact NBc|exact B10|]. constructor. constructor; [exact B10|constructor]. }
  unfold entry_text, line_says. destruct T as [[E ->]|(t & E & K)]; rewrite E.
  - assert (W : words (e_path e ++ 9 :: [] ++ e_context e ++ [10]) [e_path e; e_context e]).
    { apply (words_word [] (e_path e) (9 :: e_context e ++ [10])); [constructor|exact NEp|exact NBp|exact B9|exact WC]. }
    split.
    + exists (e_path e ++ 9 :: [] ++ e_context e ++ [10]). split; [split; [|left; reflexivity]|].
      * cbn [app]. intros I. rewrite in_app_iff in I. cbn [In] in I. rewrite in_app_iff in I. cbn [In] in I. unfold no_nul in *. intuition discriminate.
      * apply Says_two; auto. exact (not_comment_words _ _ _ W HP).
    + exists (e_path e ++ 9 :: e_context e). split; [rewrite <- app_assoc; reflexivity|]. intros I. rewrite in_app_iff in I. cbn [In] in I.
      destruct I as [I|[I|I]]; [exact (NNb _ NBp I)|discriminate|exact (NNb _ NBc I)].
  - destruct (kind_text t k K) as (NEt & NBt & NZt & NNt & EWt).
    assert (W : words (e_path e ++ 9 :: (t ++ [9]) ++ e_context e ++ [10]) [e_path e; t; e_context e]).
    { apply (words_word [] (e_path e) (9 :: (t ++ [9]) ++ e_context e ++ [10])); [constructor|exact NEp|exact NBp|exact B9|].
      rewrite <- app_assoc. cbn [app]. apply (words_word [9] t (9 :: e_context e ++ [10])); [constructor; [exact B9|constructor]|exact NEt|exact NBt|exact B9|exact WC]. }
    split.
    + exists (e_path e ++ 9 :: (t ++ [9]) ++ e_context e ++ [10]). split; [split; [|left; reflexivity]|].
      * intros I. rewrite in_app_iff in I. cbn [In] in I. rewrite !in_app_iff in I. cbn [In] in I. unfold no_nul in *. intuition discriminate.
      * apply (Says_three _ (e_path e) t (e_context e) [] k); auto. exact (not_comment_words _ _ _ W HP).
    + exists (e_path e ++ 9 :: (t ++ [9]) ++ e_context e). split; [rewrite <- !app_assoc; cbn [app]; rewrite <- !app_assoc; reflexivity|]. intros I. rewrite in_app_iff in I. cbn [In] in I. rewrite !in_app_iff in I. cbn [In] in I.
      destruct I as [I|[I|[[I|[I|[]]]|I]]]; [exact (NNb _ NBp I)|discriminate|exact (NNt I)|discriminate|exact (NNb _ NBc I)].
Qed.
Lemma entries_are ls es : entries_of ls es -> Forall (fun e => exists l, is_entry l e) es.
Proof. induction 1; [constructor|constructor; eauto|assumption]. Qed.

Lemma sorted_read out : Forall (fun e => (exists l, is_entry l e) /\ exists sp, reads_as e sp) out ->
  exists specs, Forall2 reads_as out specs /\ process_text_file None (flat_map entry_text out) = Some (map Some specs).
Proof.
  intros F. assert (X : exists specs, Forall2 reads_as out specs /\ lines_of (flat_map entry_text out) (map entry_text out) /\ Forall2 line_says (map entry_text out) (map Some specs)).
  { induction F as [|e out ((l & IE) & sp & R) F (specs & R' & LO & L)]; [exists []; do 2 (split; [constructor|]); constructor|].
    destruct (entry_says l e sp IE R) as [LS (b & EB & NB)]. exists (sp :: specs). split; [constructor; assumption|]. cbn [map flat_map]. split; [|constructor; assumption].
    rewrite EB at 1 2. rewrite <- app_assoc. cbn [app]. apply lines_cons; assumption. }
  destruct X as (specs & R & LO & L). exists specs. split; [exact R|]. unfold process_text_file. rewrite (lines_fun _ _ LO).
  apply (lines_spec None); [reflexivity|exact L].
Qed.
