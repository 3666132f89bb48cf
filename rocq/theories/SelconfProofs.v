(** Lemmas for C88. *)
From Verif Require Import Base MlsModel ContextModel ContextProofs LoginModel LabtextModel RestoreModel RestoreProofs SelconfModel SelconfSpec.
From Verif Require RestoreSpec LoginSpec LoginProofs.
From Coq Require Import ZArith String.
Open Scope list_scope.
Open Scope N_scope.

Lemma isspace_blank c : isspace c = true <-> blank c.
Proof. unfold isspace, blank. rewrite orb_true_iff, andb_true_iff, N.eqb_eq, !N.leb_le. tauto. Qed.
Lemma tolower_same x y : tolower x = tolower y <-> same_letter x y.
Proof.
  unfold tolower, same_letter. destruct ((65 <=? x) && (x <=? 90)) eqn:X, ((65 <=? y) && (y <=? 90)) eqn:Y;
    rewrite ?andb_true_iff, ?andb_false_iff, ?N.leb_le, ?N.leb_gt in *; lia.
Qed.
Lemma starts_iff w : forall s, starts w s = true <-> exists r, s = w ++ r.
Proof.
  induction w as [|x w IH]; intros s; [split; [exists s; reflexivity|reflexivity]|]. destruct s as [|y s]; cbn [starts]; [split; [discriminate|intros (r & E); discriminate]|].
  rewrite andb_true_iff, N.eqb_eq, IH. split; [intros [-> (r & ->)]; exists r; reflexivity|]. intros (r & E). injection E as -> ->. split; [reflexivity|exists r; reflexivity].
Qed.
Lemma starts_ci_iff w : forall s, starts_ci w s = true <-> exists v r, s = v ++ r /\ any_case w v.
Proof.
  induction w as [|x w IH]; intros s; [split; [intros _; exists [], s; split; [reflexivity|constructor]|reflexivity]|].
  destruct s as [|y s]; cbn [starts_ci].
  - split; [discriminate|]. intros (v & r & E & A). inversion A; subst. discriminate.
  - rewrite andb_true_iff, N.eqb_eq, tolower_same, IH. split.
    + intros [S (v & r & -> & A)]. exists (y :: v), r. split; [reflexivity|constructor; assumption].
    + intros (v & r & E & A). inversion A; subst. cbn in E. injection E as -> ->. split; [assumption|]. eexists. eexists. split; [reflexivity|assumption].
Qed.
Lemma skip_blanks ws s : Forall blank ws -> skip (ws ++ s) = skip s.
Proof.
  intros F. unfold skip. induction F as [|c ws B F IH]; [reflexivity|]. cbn [app span]. rewrite (proj2 (isspace_blank c) B). destruct (span isspace (ws ++ s)). exact IH.
Qed.
Lemma skip_stop c s : ~ blank c -> skip (c :: s) = c :: s.
Proof. intros NB. unfold skip. cbn [span]. destruct (isspace c) eqn:E; [exfalso; apply NB, isspace_blank; assumption|reflexivity]. Qed.
Lemma skip_split s : exists ws, s = ws ++ skip s /\ Forall blank ws.
Proof.
  unfold skip. destruct (span isspace s) as [a r] eqn:E. apply span_spec in E. destruct E as (-> & F & _). exists a. split; [reflexivity|].
  apply Forall_forall. intros c I. rewrite forallb_forall in F. apply isspace_blank, F, I.
Qed.
Lemma skipn_exact {A} (a b : list A) : skipn (List.length a) (a ++ b) = b.
Proof. rewrite skipn_app, skipn_all, Nat.sub_diag. reflexivity. Qed.
Lemma any_case_length w v : any_case w v -> List.length w = List.length v.
Proof. induction 1; cbn; congruence. Qed.

(** Pieces and lines *)
Lemma config_pieces n ls : Forall (plain_line n) ls -> pieces (List.length (config_file ls)) n (config_file ls) = map (fun l => l ++ [10]) ls.
Proof.
  intros F. assert (E : config_file ls = RestoreSpec.text_lines ls) by (unfold config_file, RestoreSpec.text_lines; rewrite flat_map_concat_map; reflexivity).
  rewrite E. apply pieces_lines; [|lia]. exact F.
Qed.
Lemma config_lines ls : Forall (fun l => ~ In 10 l) ls -> getlines (config_file ls) = map (fun l => l ++ [10]) ls.
Proof.
  induction 1 as [|l ls O F IH]; [reflexivity|]. unfold config_file in *. cbn [map List.concat]. rewrite <- app_assoc. cbn [app].
  transitivity ((l ++ [10]) :: getlines (List.concat (map (fun l => l ++ [10]) ls))); [|rewrite IH; reflexivity]. clear IH F. generalize (List.concat (map (fun l => l ++ [10]) ls)) as rest. intros rest.
  induction l as [|c l IH]; [reflexivity|]. cbn [app getlines]. assert (C : (c =? 10) = false) by (apply N.eqb_neq; intros ->; apply O; left; reflexivity).
  rewrite C, IH; [reflexivity|]. intros X. apply O. right. assumption.
Qed.
Lemma cstr_line l : ~ In 0 l -> cstr (l ++ [10]) = l ++ [10].
Proof. intros NZ. apply cstr_id. rewrite in_app_iff. cbn. intuition discriminate. Qed.

(** The mode *)
Lemma mode_exact s m : mode_line s = Some m <-> gives_mode s m.
Proof.
  unfold mode_line, gives_mode. change SELINUX with (letters "SELINUX="). destruct (starts (letters "SELINUX=") s) eqn:S; cbn [negb].
  - apply starts_iff in S. destruct S as (r & ->). rewrite skipn_exact.
    change ENFORCING with (letters "enforcing"). change PERMISSIVE with (letters "permissive"). change DISABLED with (letters "disabled").
    assert (EX : forall w m, mode_word w m -> starts_ci (letters w) (skip r) = true ->
      exists w ws word rest, mode_word w m /\ letters "SELINUX=" ++ r = letters "SELINUX=" ++ ws ++ word ++ rest /\ Forall blank ws /\ any_case (letters w) word).
    { intros w m0 W S. apply starts_ci_iff in S. destruct S as (v & q & E & A). destruct (skip_split r) as (ws & E2 & B). exists w, ws, v, q. rewrite E2 at 1. rewrite E. auto. }
    split.
    + destruct (starts_ci (letters "enforcing") (skip r)) eqn:E1; [intros X; injection X as <-; apply (EX "enforcing"%string); [left; auto|exact E1]|].
      destruct (starts_ci (letters "permissive") (skip r)) eqn:E2; [intros X; injection X as <-; apply (EX "permissive"%string); [right; left; auto|exact E2]|].
      destruct (starts_ci (letters "disabled") (skip r)) eqn:E3; [intros X; injection X as <-; apply (EX "disabled"%string); [right; right; auto|exact E3]|discriminate].
    + intros (w & ws & word & rest & W & E & B & A). apply app_inv_head in E. subst r. rewrite skip_blanks by assumption.
      assert (ST : starts_ci (letters w) (word ++ rest) = true) by (apply starts_ci_iff; exists word, rest; auto).
      assert (SK : skip (word ++ rest) = word ++ rest).
      { destruct W as [[-> _]|[[-> _]|[-> _]]]; inversion A as [|x y w' v' X A' E1 E2]; subst; cbn [app]; apply skip_stop; cbn in X; unfold same_letter, blank in *; lia. }
      rewrite SK. destruct W as [[-> ->]|[[-> ->]|[-> ->]]]; rewrite ?ST; [reflexivity| |].
      * replace (starts_ci (letters "enforcing") (word ++ rest)) with false; [reflexivity|]. inversion A as [|x y w' v' X A' E1 E2]; subst. cbn [app letters starts_ci map].
        symmetry. apply andb_false_iff. left. apply N.eqb_neq. intros T. apply tolower_same in T. cbn in X, T. unfold same_letter in *. lia.
      * assert (Y : forall w0, w0 = "enforcing"%string \/ w0 = "permissive"%string -> starts_ci (letters w0) (word ++ rest) = false).
        { intros w0 W0. inversion A as [|x y w' v' X A' E1 E2]; subst. destruct W0 as [-> | ->]; apply andb_false_iff; left; apply N.eqb_neq; intros T; apply tolower_same in T;
            cbn in X, T; unfold same_letter in *; lia. }
        rewrite !Y by auto. reflexivity.
  - split; [discriminate|]. intros (w & ws & word & rest & W & E & _). exfalso.
    assert (starts (letters "SELINUX=") s = true) by (apply starts_iff; eexists; exact E). congruence.
Qed.
Lemma gives_mode_line l m : ~ In 10 l -> (gives_mode (l ++ [10]) m <-> gives_mode l m).
Proof.
  intros NN. split; intros (w & ws & word & rest & W & E & B & A).
  - destruct (rev rest) as [|x r'] eqn:R.
    + exfalso. assert (rest = []) by (rewrite <- (rev_involutive rest), R; reflexivity). subst rest. rewrite app_nil_r in E.
      assert (NE : word <> []) by (intros ->; apply any_case_length in A; destruct W as [[-> _]|[[-> _]|[-> _]]]; discriminate).
      destruct (exists_last NE) as (v & y & ->). rewrite !app_assoc in E. apply app_inj_tail in E. destruct E as [_ <-].
      assert (X : exists x, In x (letters w) /\ same_letter x 10).
      { clear - A. apply Forall2_app_inv_r in A. destruct A as (a & b & A1 & A2 & ->). inversion A2; subst. eexists. split; [apply in_or_app; right; left; reflexivity|eassumption]. }
      destruct X as (x & I & S). destruct W as [[-> _]|[[-> _]|[-> _]]]; cbn in I; unfold same_letter in S; intuition lia.
    + assert (RR : rest = rev r' ++ [x]) by (rewrite <- (rev_involutive rest), R; reflexivity). subst rest. rewrite !app_assoc in E. apply app_inj_tail in E. destruct E as [-> _].
      exists w, ws, word, (rev r'). rewrite <- !app_assoc. auto.
  - subst l. exists w, ws, word, (rest ++ [10]). rewrite <- !app_assoc. auto.
Qed.
Lemma mode_plain l : ~ In 10 l -> ~ In 0 l -> forall m, mode_line (cstr (l ++ [10])) = Some m <-> gives_mode l m.
Proof. intros NN NZ m. rewrite cstr_line by assumption. rewrite mode_exact. apply gives_mode_line. assumption. Qed.
Lemma mode_first n l1 l l2 m : Forall (plain_line n) (l1 ++ l :: l2) -> (forall x m', In x l1 -> ~ gives_mode x m') -> gives_mode l m ->
  mode_loop (map (fun l => l ++ [10]) (l1 ++ l :: l2)) = Some m.
Proof.
  intros F NG G. induction l1 as [|x l1 IH]; cbn [app map mode_loop].
  - inversion F as [|? ? (A & B & _) _]; subst. rewrite (proj2 (mode_plain l A B m) G). reflexivity.
  - inversion F as [|? ? (A & B & _) F']; subst. destruct (mode_line (cstr (x ++ [10]))) as [m'|] eqn:E.
    + exfalso. apply (mode_plain x A B) in E. exact (NG x m' (or_introl eq_refl) E).
    + apply IH; [exact F'|]. intros y m' I. apply NG. right. exact I.
Qed.
Lemma mode_none n ls : Forall (plain_line n) ls -> (forall x m', In x ls -> ~ gives_mode x m') -> mode_loop (map (fun l => l ++ [10]) ls) = None.
Proof.
  induction 1 as [|x ls (A & B & _) F IH]; intros NG; [reflexivity|]. cbn [map mode_loop]. destruct (mode_line (cstr (x ++ [10]))) as [m'|] eqn:E.
  - exfalso. apply (mode_plain x A B) in E. exact (NG x m' (or_introl eq_refl) E).
  - apply IH. intros y m' I. apply NG. right. exact I.
Qed.

(** The type *)
Lemma config_strip l : match rev (l ++ [10]) with 10 :: r => rev r | _ => l ++ [10] end = l.
Proof. rewrite rev_app_distr. cbn [rev app]. apply rev_involutive. Qed.
Lemma tag_head v : any_case (letters "SELINUXTYPE=") v -> exists c v', v = c :: v' /\ ~ blank c /\ c <> 35.
Proof. intros A. inversion A as [|x y w v' X A' E1 E2]; subst. exists y, v'. split; [reflexivity|]. cbn in X. unfold same_letter, blank in *. lia. Qed.
Lemma trim_is c r after : Forall junk after -> (r = [] \/ exists r' d, r = r' ++ [d] /\ ~ junk d) -> trim_end (c :: r ++ after) = c :: r.
Proof.
  intros J H. unfold trim_end. f_equal. rewrite rev_app_distr.
  assert (JJ : forall x, junk x -> trailing x = true) by (intros x X; unfold trailing, junk in *; lia).
  assert (S : forall s, span trailing (rev after ++ s) = (rev after ++ fst (span trailing s), snd (span trailing s))).
  { intros s. apply Forall_rev in J. induction J as [|x a X J IH]; cbn [app]; [destruct (span trailing s); reflexivity|]. cbn [span]. rewrite (JJ x X), IH. reflexivity. }
  rewrite S. cbn [snd]. destruct H as [-> |(r' & d & -> & D)]; [reflexivity|]. rewrite rev_app_distr. cbn [rev app span].
  assert (T : trailing d = false) by (unfold trailing, junk in *; lia). rewrite T. cbn [snd rev]. rewrite rev_involutive. reflexivity.
Qed.
Lemma line_type st l t : ~ In 0 l -> gives_type l t -> config_line st (l ++ [10]) = (Some t, snd st).
Proof.
  intros NZ (ws & tag & ws' & after & c & d & E & B & A & B' & J & (r & ->) & NB & (r2 & E2) & H). unfold config_line. rewrite config_strip, cstr_id by assumption.
  destruct (tag_head tag A) as (x & v & EX & NX & N35). subst l. rewrite skip_blanks by assumption.
  assert (SK : skip (tag ++ ws' ++ (c :: r) ++ after) = tag ++ ws' ++ (c :: r) ++ after) by (subst tag; cbn [app]; apply skip_stop; assumption).
  rewrite SK. assert (ST : starts_ci SELINUXTYPE (tag ++ ws' ++ (c :: r) ++ after) = true) by (apply starts_ci_iff; exists tag, (ws' ++ (c :: r) ++ after); auto).
  rewrite ST. replace (List.length SELINUXTYPE) with (List.length tag) by (symmetry; apply (any_case_length _ _ A)).
  rewrite skipn_exact, skip_blanks by assumption. cbn [app]. rewrite skip_stop by assumption. rewrite EX at 1. cbn [app].
  rewrite (proj2 (N.eqb_neq x 35) N35). rewrite trim_is; [reflexivity|assumption|].
  destruct H as [H|H]; [injection H as ->; left; reflexivity|]. destruct r2 as [|y r2]; cbn in E2; injection E2 as -> ->; [left; reflexivity|]. right. exists r2, d. auto.
Qed.
Lemma line_no_type st l : ~ In 0 l -> ~ for_type l -> fst (config_line st (l ++ [10])) = fst st.
Proof.
  intros NZ NF. unfold config_line. rewrite config_strip, cstr_id by assumption. destruct (skip_split l) as (ws & E & B).
  destruct (skip l) as [|c p]; [reflexivity|]. destruct (c =? 35); [reflexivity|]. destruct (starts_ci SELINUXTYPE (c :: p)) eqn:S.
  - exfalso. apply NF. apply starts_ci_iff in S. destruct S as (v & r & E2 & A). exists ws, v, r. rewrite E, E2. auto.
  - destruct (starts REQUIRESEUSERS (c :: p)); reflexivity.
Qed.
Lemma lines_no_type ls st : Forall (fun l => ~ In 0 l) ls -> (forall l, In l ls -> ~ for_type l) -> fst (fold_left config_line (map (fun l => l ++ [10]) ls) st) = fst st.
Proof.
  intros F. revert st. induction F as [|l ls NZ F IH]; intros st NF; [reflexivity|]. cbn [map fold_left]. rewrite IH; [|intros x I; apply NF; right; exact I].
  apply line_no_type; [exact NZ|]. apply NF. left. reflexivity.
Qed.

(** Default types *)
Lemma chop_plain l : ~ In 0 l -> chop (l ++ [10]) = ROk l.
Proof. intros NZ. unfold chop. rewrite cstr_line by assumption. destruct (l ++ [10]) eqn:E; [destruct l; discriminate|]. rewrite <- E, removelast_last. reflexivity. Qed.
Lemma default_here role l t rest : a_role role -> ~ In 0 l -> gives_default role l t -> type_loop role ((l ++ [10]) :: rest) = ROk t.
Proof.
  intros (c & r & -> & NB) NZ (ws & E & B). cbn [type_loop]. rewrite chop_plain by assumption. subst l. rewrite skip_blanks by assumption.
  cbn [app]. rewrite skip_stop by assumption. cbv zeta. change (c :: r ++ 58 :: t) with ((c :: r) ++ 58 :: t).
  rewrite (proj2 (starts_iff (c :: r) ((c :: r) ++ 58 :: t))) by (exists (58 :: t); reflexivity). rewrite skipn_exact. change (58 =? 58) with true. cbv iota. f_equal. apply firstn_all2.
  rewrite !app_length. cbn [List.length]. lia.
Qed.
Lemma default_not role l rest : ~ In 0 l -> (forall t, ~ gives_default role l t) -> type_loop role ((l ++ [10]) :: rest) = type_loop role rest.
Proof.
  intros NZ NG. cbn [type_loop]. rewrite chop_plain by assumption. destruct (skip_split l) as (ws & E & B). cbv zeta. destruct (skip l) as [|x q]; [reflexivity|].
  destruct (starts role (x :: q)) eqn:S; [|reflexivity]. apply starts_iff in S. destruct S as (r & S). rewrite S, skipn_exact. destruct r as [|y r]; [reflexivity|].
  destruct (y =? 58) eqn:Y; [|reflexivity]. apply N.eqb_eq in Y. subst y. exfalso. apply (NG r). exists ws. rewrite E, S. auto.
Qed.
