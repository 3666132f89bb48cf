(** Proofs about writing constraints as CIL and compiling them again: statements and texts. *)
From Coq Require Import String Arith Permutation.
From Verif Require Import Base EbitmapModel EbitmapSpec EbitmapProofs MlsModel MlsSpec AssertModel TypesetModel ServicesModel ServicesSpec ServicesProofs
  CilparseModel CilparseSpec CilparseProofs CilparseMain CilexprModel CilexprSpec CilexprProofs KcilModel KcilSpec KcilProofs CilctxModel
  CilconsModel CilconsSpec CilconsProofs CilconsMain KconsModel KconsSpec KconsProofs.
Local Open Scope N_scope.
Local Open Scope list_scope.

(** ** A plain list of permissions *)
Lemma res_plain tb : forall l : list N, (forall n, In n l -> exists v, tb n = Some (DLeaf v)) ->
  res_list tb false (map IStr l) = Some (map IDatum l).
Proof.
  induction l as [|n l IH]; intros H; [reflexivity|]. cbn [map res_list resolve_item]. unfold resolve_name, is_catset.
  destruct (H n (or_introl eq_refl)) as (v & ->). rewrite andb_false_r. rewrite IH; [reflexivity|intros m Hm; apply H; right; exact Hm].
Qed.

Lemma values_plain tb mx order f g : forall l : list N, (forall n, In n l -> exists v, tb n = Some (DLeaf v)) ->
  exists vs, item_values (mkDb tb f mx order g) (map IDatum l) = Fine vs /\ forall v, In v vs <-> exists n, In n l /\ tb n = Some (DLeaf v).
Proof.
  induction l as [|n l IH]; intros H.
  - exists []. split; [reflexivity|]. intros v. split; [intros []|intros (n & [] & _)].
  - destruct IH as (vs & EV & S); [intros m Hm; apply H; right; exact Hm|]. destruct (H n (or_introl eq_refl)) as (v & Hv).
    exists (v :: vs). cbn [map item_values]. unfold value_of at 1. cbn [d_table]. rewrite Hv, EV. split; [reflexivity|].
    intros w. cbn [In]. rewrite S. split.
    + intros [<-|(m & Hm & Q)]; [exists n; auto|exists m; auto].
    + intros (m & [<-|Hm] & Q); [left; congruence|right; exists m; auto].
Qed.

Lemma perm_list fuel code tb mx order (ps : list (list N)) : ps <> [] -> (forall q, In q ps -> ~ reserved q /\ exists v, tb (code q) = Some (DLeaf v)) ->
  exists vs, perm_set fuel tb mx order (intern code (PList (map PName ps))) = Fine vs /\
    forall v, In v vs <-> exists q, In q ps /\ tb (code q) = Some (DLeaf v).
Proof.
  intros NE H.
  assert (EI : intern code (PList (map PName ps)) = TList (map (fun q => TName (code q)) ps)).
  { cbn [intern]. f_equal. rewrite map_map. apply map_ext_in. intros q Hq. cbn [intern]. rewrite (keyword_plain q (proj1 (H q Hq))). reflexivity. }
  rewrite EI. unfold perm_set. rewrite gen_ok.
  assert (SH : CilexprSpec.shape FPerm (TList (map (fun q => TName (code q)) ps)) = true).
  { destruct ps as [|q ps]; [congruence|]. cbn [map CilexprSpec.shape forallb andb]. apply forallb_forall. intros x Hx. apply in_map_iff in Hx.
    destruct Hx as (z & <- & _). reflexivity. }
  rewrite SH. cbn [tm items_of]. rewrite map_map. cbn [tm].
  assert (HL : forall n, In n (map code ps) -> exists v, tb n = Some (DLeaf v)).
  { intros n Hn. apply in_map_iff in Hn. destruct Hn as (q & <- & Hq). exact (proj2 (H q Hq)). }
  unfold resolve_expr. rewrite resolve_unfold. rewrite <- (map_map code IStr ps), (res_plain tb (map code ps) HL).
  unfold evaluate_perms.
  assert (FB : forallb (fun i : item => match i with IList _ => false | IOp _ => false | _ => true end) (map IDatum (map code ps)) = true).
  { apply forallb_forall. intros x Hx. apply in_map_iff in Hx. destruct Hx as (z & <- & _). reflexivity. }
  rewrite FB. destruct (values_plain tb mx order (fun _ => []) (fun _ => None) (map code ps) HL) as (vs & EV & S). exists vs. split; [exact EV|].
  intros v. rewrite S. split; intros (n & A & B).
  - apply in_map_iff in A. destruct A as (q & <- & A). exists q. auto.
  - exists (code n). split; [apply in_map; exact A|exact B].
Qed.

(** ** Texts *)
Lemma written_app s1 f1 : CilparseSpec.written 0 s1 f1 -> forall s2 f2, CilparseSpec.written 0 s2 f2 ->
  CilparseSpec.written 0 (s1 ++ s2) (f1 ++ f2).
Proof.
  intros W. remember 0%nat as p eqn:Ep. induction W as [p|p c s f Hc W IH|p body s f Hb W IH|p w s f|p w s f|p a g s f Hp W1 _ W2 IH];
    intros s2 f2 V; try discriminate Ep; subst p; cbn [app].
  - exact V.
  - apply W_blank; [exact Hc|]. apply IH; auto.
  - rewrite <- app_assoc. cbn [app]. apply W_comment; [exact Hb|]. apply IH; auto.
  - rewrite <- app_assoc. cbn [app]. apply W_list; [exact Hp|exact W1|]. apply IH; auto.
Qed.

Lemma legal_taken vt f : legal vt f -> taken vt f.
Proof. induction f; cbn [legal taken]; tauto. Qed.

Lemma no_marks_plain s : ~ In 59 s -> no_marks s.
Proof. intros H a b E. destruct H. rewrite E. apply in_or_app. right. left. reflexivity. Qed.

(** ** Acceptance *)
Section Accept.
  Context (E : names_env) (EOK : env_ok E).
  Lemma accept_constraint pm mls cps e f : CilconsSpec.written e f -> taken false f -> CilconsSpec.known E f -> (cells f <= 5)%nat ->
    compile_constraints E pm [Constrain mls cps e] <> None.
  Proof using EOK.
    intros WR TK KN CE. unfold compile_constraints. cbn [CilconsModel.pass gen_stmt].
    assert (AD : admitted false f). { clear - TK. induction f; cbn [taken admitted] in *; [tauto|exact TK|auto|destruct TK; auto|destruct TK; auto]. }
    destruct (fill_complete false e f WR AD) as (y & F & <-). rewrite F. destruct (fill_sound _ _ _ F) as (_ & _ & SH).
    destruct (proj2 (translated_iff E EOK false y SH AD) (conj TK KN)) as (m & TR). pose proof TR as TR'. unfold translated in TR'. cbn [CilconsModel.pass resolve_stmt].
    destruct (resolve_constraint E y) as [x|] eqn:RC; [|discriminate]. apply binary_all_ok. intros st [<-|[]] _ _.
    exists m. split; [exact TR'|]. apply (validated_cells E y m SH TR), CE.
  Qed.
  Lemma accept_transition pm mls cs e f : CilconsSpec.written e f -> taken true f -> CilconsSpec.known E f ->
    compile_constraints E pm [Validate mls cs e] <> None.
  Proof using EOK.
    intros WR TK KN. unfold compile_constraints. cbn [CilconsModel.pass gen_stmt].
    assert (AD : admitted true f). { clear - TK. induction f; cbn [taken admitted] in *; [tauto|exact TK|auto|destruct TK; auto|destruct TK; auto]. }
    destruct (fill_complete true e f WR AD) as (y & F & <-). rewrite F. destruct (fill_sound _ _ _ F) as (_ & _ & SH).
    destruct (proj2 (translated_iff E EOK true y SH AD) (conj TK KN)) as (m & TR). pose proof TR as TR'. unfold translated in TR'. cbn [CilconsModel.pass resolve_stmt].
    destruct (resolve_constraint E y) as [x|] eqn:RC; [|discriminate]. apply binary_all_ok. intros st [<-|[]] _ _. exists m. exact TR'.
  Qed.
End Accept.

Lemma line_clean w : (forall c, In c w -> line_char c) -> ~ In 59 w /\ ~ In 13 w.
Proof. intros H. split; intros I; specialize (H _ I); unfold line_char, word_char in H; lia. Qed.

(** ** Statements *)
Section Statements.
  Context (fuel : nat) (code : list N -> N) (cl : cclasses).

  Definition stmt_text (w : list N) (t : ptree) (st : cstmt ptree) : Prop :=
    (forall s fs, CilparseSpec.written 0 s fs -> CilparseSpec.written 0 (w ++ 10 :: s) (t :: fs)) /\
    (forall c, In c w -> line_char c) /\
    read_stmt fuel code cl t = Some (Some st).

  Lemma stmt_unique w t st t' st' : stmt_text w t st -> stmt_text w t' st' -> st = st'.
  Proof using.
    intros (A & B & C) (A' & _ & C'). destruct (line_clean w B) as (N59 & N13).
    assert (M : no_marks (w ++ [10])) by (apply no_marks_plain; intros I; apply in_app_or in I; destruct I as [I|[I|[]]]; [auto|discriminate]).
    assert (M' : ~ In 13 (w ++ [10])) by (intros I; apply in_app_or in I; destruct I as [I|[I|[]]]; [auto|discriminate]).
    pose proof (proj2 (parser_exact _ [t] M M') (ex_intro _ _ (conj (A [] [] (W_end 0)) (or_introl eq_refl)))) as P1.
    pose proof (proj2 (parser_exact _ [t'] M M') (ex_intro _ _ (conj (A' [] [] (W_end 0)) (or_introl eq_refl)))) as P2.
    congruence.
  Qed.

  Lemma texts_read : forall L, (forall w, In w L -> exists t st, stmt_text w t st) ->
    forall s fs r, CilparseSpec.written 0 s fs -> read_stmts fuel code cl fs = Some r ->
    exists ts sts, CilparseSpec.written 0 (write_each L ++ s) (ts ++ fs) /\ read_stmts fuel code cl (ts ++ fs) = Some (sts ++ r) /\
      (forall st, In st sts <-> exists w t, In w L /\ stmt_text w t st) /\
      (forall c, In c (write_each L) -> c <> 59 /\ c <> 13).
  Proof using.
    induction L as [|w L IH]; intros H s fs r W RD.
    - exists [], []. split; [exact W|]. split; [exact RD|]. split; [|intros c []]. intros st. split; [intros []|intros (w & t & [] & _)].
    - destruct (IH (fun x Hx => H x (or_intror Hx)) s fs r W RD) as (ts & sts & A & B & C & D).
      destruct (H w (or_introl eq_refl)) as (t & st & TT). pose proof TT as (T1 & T2 & T3). exists (t :: ts), (st :: sts).
      split. { change (write_each (w :: L)) with ((w ++ [10]) ++ write_each L). rewrite <- !app_assoc. cbn [app]. apply T1. exact A. }
      split. { cbn [app read_stmts]. rewrite T3, B. reflexivity. }
      split. { intros st'. cbn [In]. rewrite C. split.
               - intros [<-|(w' & t' & I & Q)]; [exists w, t; auto|exists w', t'; auto].
               - intros (w' & t' & [<-|I] & Q); [left; exact (stmt_unique w t st t' st' TT Q)|right; exists w', t'; auto]. }
      intros c I. change (write_each (w :: L)) with ((w ++ [10]) ++ write_each L) in I. apply in_app_or in I. destruct I as [I|I]; [|exact (D c I)].
      destruct (line_clean w T2) as (N59 & N13). apply in_app_or in I. destruct I as [I|[I|[]]]; [|subst c; split; discriminate].
      split; intros Z; subst c; auto.
  Qed.

  Lemma other_read : forall fm, (forall c t, In (PList (PName c :: t)) fm ->
      ~ In c [chars "constrain"; chars "mlsconstrain"; chars "validatetrans"; chars "mlsvalidatetrans"]) ->
    forall fs r, read_stmts fuel code cl fs = Some r -> read_stmts fuel code cl (fm ++ fs) = Some r.
  Proof using.
    induction fm as [|t fm IH]; intros H fs r RD; [exact RD|]. cbn [app read_stmts].
    rewrite (IH (fun c u Hu => H c u (or_intror Hu)) fs r RD). assert (Q : read_stmt fuel code cl t = Some None); [|rewrite Q; reflexivity].
    destruct t as [w|[|[c|g] u]]; try reflexivity. specialize (H c u (or_introl eq_refl)). unfold read_stmt.
    assert (Z : forall d, In d [chars "constrain"; chars "mlsconstrain"; chars "validatetrans"; chars "mlsvalidatetrans"] -> same_str c d = false).
    { intros d Hd. destruct (same_str c d) eqn:Q; [|reflexivity]. apply same_str_spec in Q. subst d. contradiction. }
    change (lit "constrain") with (chars "constrain"). change (lit "mlsconstrain") with (chars "mlsconstrain").
    change (lit "validatetrans") with (chars "validatetrans"). change (lit "mlsvalidatetrans") with (chars "mlsvalidatetrans").
    rewrite !Z by (cbn [In]; auto). reflexivity.
  Qed.
End Statements.

(** ** The lists of lines *)
Definition cons_text (c : kclass) (n : kcons) (mls : bool) (e : list N) : list N :=
  40 :: (if mls then lit "mlsconstrain" else lit "constrain") ++
    32 :: 40 :: kc_name c ++ 32 :: 40 :: join (av_names c (kn_perms n)) ++ 41 :: 41 :: 32 :: e ++ [41].
Definition vtrans_text (c : kclass) (mls : bool) (e : list N) : list N :=
  40 :: (if mls then lit "mlsvalidatetrans" else lit "validatetrans") ++ 32 :: kc_name c ++ 32 :: e ++ [41].

Lemma class_cons_lines K c : forall l, (forall n, In n l -> kn_perms n <> 0 -> av_names c (kn_perms n) <> [] /\ exists e mls, expr_to_str K [] false (kn_expr n) = WVal (e, mls)) ->
  exists ls, class_cons_strs K c l = WVal ls /\ forall m w, In (m, w) ls <->
    exists n e, In n l /\ kn_perms n <> 0 /\ expr_to_str K [] false (kn_expr n) = WVal (e, m) /\ w = cons_text c n m e.
Proof.
  induction l as [|n l IH]; intros H.
  - exists []. split; [reflexivity|]. intros m w. split; [intros []|intros (n & e & [] & _)].
  - destruct (IH (fun x Hx => H x (or_intror Hx))) as (ls & EL & S). cbn [class_cons_strs].
    destruct (kn_perms n =? 0) eqn:Z.
    + apply N.eqb_eq in Z. exists ls. split; [exact EL|]. intros m w. rewrite S. split; intros (x & e & I & Q & R); exists x, e.
      * split; [right; exact I|auto].
      * destruct I as [<-|I]; [congruence|auto].
    + apply N.eqb_neq in Z. destruct (H n (or_introl eq_refl) Z) as (NE & e & mls & EE). rewrite EE.
      destruct (av_names c (kn_perms n)) as [|q ps] eqn:EA; [congruence|]. rewrite EL. eexists. split; [reflexivity|].
      intros m w. cbn [In]. rewrite S. split.
      * intros [Q|(x & e' & I & Q)]; [|exists x, e'; tauto]. injection Q as <- <-. exists n, e. unfold cons_text. rewrite EA. auto.
      * intros (x & e' & [<-|I] & Q & X & ->); [|right; exists x, e'; auto]. left. unfold cons_text. rewrite EA. rewrite EE in X. injection X as <- <-. reflexivity.
Qed.

Lemma class_vtrans_lines K c : forall l, (forall n, In n l -> exists e mls, expr_to_str K [] false (kn_expr n) = WVal (e, mls)) ->
  exists ls, class_vtrans_strs K c l = WVal ls /\ forall m w, In (m, w) ls <->
    exists n e, In n l /\ expr_to_str K [] false (kn_expr n) = WVal (e, m) /\ w = vtrans_text c m e.
Proof.
  induction l as [|n l IH]; intros H.
  - exists []. split; [reflexivity|]. intros m w. split; [intros []|intros (n & e & [] & _)].
  - destruct (IH (fun x Hx => H x (or_intror Hx))) as (ls & EL & S). cbn [class_vtrans_strs].
    destruct (H n (or_introl eq_refl)) as (e & mls & EE). rewrite EE, EL. eexists. split; [reflexivity|].
    intros m w. cbn [In]. rewrite S. split.
    + intros [Q|(x & e' & I & Q)]; [|exists x, e'; tauto]. injection Q as <- <-. exists n, e. auto.
    + intros (x & e' & [<-|I] & X & ->); [|right; exists x, e'; auto]. left. unfold vtrans_text. rewrite EE in X. injection X as <- <-. reflexivity.
Qed.

Lemma all_lines f : forall l, (forall c, In (Some c) l -> exists a, f c = WVal a) ->
  exists r, all_strs f l = WVal r /\ forall x, In x r <-> exists c a, In (Some c) l /\ f c = WVal a /\ In x a.
Proof.
  induction l as [|[c|] l IH]; intros H.
  - exists []. split; [reflexivity|]. intros x. split; [intros []|intros (c & a & [] & _)].
  - destruct (IH (fun d Hd => H d (or_intror Hd))) as (r & ER & S). destruct (H c (or_introl eq_refl)) as (a & EA). exists (a ++ r).
    cbn [all_strs]. rewrite EA, ER. split; [reflexivity|]. intros x. rewrite in_app_iff, S. split.
    + intros [I|(d & b & I & Q & J)]; [exists c, a; cbn [In]; auto|exists d, b; cbn [In]; auto].
    + intros (d & b & [I|I] & Q & J); [left; congruence|right; exists d, b; auto].
  - destruct (IH (fun d Hd => H d (or_intror Hd))) as (r & ER & S). exists r. cbn [all_strs]. split; [exact ER|]. intros x. rewrite S. split.
    + intros (d & b & I & Q); exists d, b; cbn [In]; auto.
    + intros (d & b & [I|I] & Q); [discriminate|exists d, b; auto].
Qed.

Lemma in_chosen m l w : In w (strs_sort (chosen m l)) <-> In (m, w) l.
Proof.
  rewrite strs_sort_in. unfold chosen. rewrite in_map_iff. split.
  - intros ([b x] & <- & I). apply filter_In in I. destruct I as (I & Q). cbn [fst] in Q. apply Bool.eqb_prop in Q. subst b. exact I.
  - intros I. exists (m, w). split; [reflexivity|]. apply filter_In. split; [exact I|]. cbn [fst]. apply Bool.eqb_reflx.
Qed.

Lemma in_classes K c : In (Some c) (kp_classes K) <-> exists cls, the_class K cls c.
Proof.
  split.
  - intros I. apply In_nth_error in I. destruct I as (i & H). exists (N.of_nat i + 1). split; [lia|].
    replace (N.to_nat (N.of_nat i + 1 - 1)) with i by lia. exact H.
  - intros (cls & _ & H). exact (nth_error_In _ _ H).
Qed.

Lemma av_names_in c av q : In q (av_names c av) <-> exists p, p < kc_nperms c /\ N.testbit av p = true /\ kc_perm c (p + 1) = Some q.
Proof.
  unfold av_names. rewrite in_flat_map. split.
  - intros (i & I & J). apply in_map_iff in I. destruct I as (k & <- & I). apply in_seq in I. destruct (N.testbit av (N.of_nat k)) eqn:T; [|destruct J].
    destruct (kc_perm c (N.of_nat k + 1)) as [x|] eqn:P; [|destruct J]. destruct J as [<-|[]]. exists (N.of_nat k). split; [lia|auto].
  - intros (p & L & T & Q). exists p. split.
    + apply in_map_iff. exists (N.to_nat p). split; [lia|]. apply in_seq. lia.
    + rewrite T, Q. left. reflexivity.
Qed.

(** ** The whole *)
Section Whole.
  Context (K : kpol) (E : names_env) (R : what -> N -> N -> Prop) (RO : one_to_one R) (ND : names_declared K E R) (EOK : env_ok E).
  Context (fuel : nat) (code : list N -> N) (cl : cclasses) (CD : classes_declared K code cl) (pm : bool).
  Context (CW : forall cls c, the_class K cls c -> class_writable K pm c).

  Lemma expr_text third n : writable K third pm n -> exists cf f te txt mls,
    cwrites (map kx (kn_expr n)) cf /\ expr_to_str K [] false (kn_expr n) = WVal (txt, mls) /\
    reads txt te (nesting cf) /\ (nesting cf < 4094)%nat /\
    CilconsSpec.written te f /\ legal third f /\ CilconsSpec.known E f /\ (cells f <= 5)%nat /\
    (forall c, In c txt -> line_char c) /\ in_effect mls pm /\ means_same E R cf f.
  Proof using RO ND.
    intros (cf & W & D & NS & _ & TH & UL & NA).
    destruct (expr_good K E R RO ND third _ cf W (kn_expr n) eq_refl NA TH) as (txt & b & te & f & G1 & G2 & G3 & G4 & G5 & G6 & G7 & G8 & G9).
    exists cf, f, te, txt, b. split; [exact W|]. split. { specialize (G1 [] false []). rewrite app_nil_r in G1. rewrite G1. reflexivity. }
    do 5 (split; [assumption|]). split; [lia|]. split; [assumption|]. split; [|exact G9]. intros Hb. apply UL, G8, Hb.
  Qed.

  Lemma is_list_written e f : CilconsSpec.written e f -> CilconsModel.is_list e = true.
  Proof using. intros H. destruct H; reflexivity. Qed.

  Definition cons_means (c : kclass) (n : kcons) (st : cstmt ptree) : Prop :=
    exists mls cls' tb perms te f cf, st = Constrain mls [CpClass cls' perms] te /\ class_now cl c cls' tb /\
      (forall v, In v perms -> 1 <= v <= 32) /\
      (forall p', In (p' + 1) perms <-> exists p, N.testbit (kn_perms n) p = true /\ perm_now code tb c p p') /\
      CilconsSpec.written te f /\ legal false f /\ CilconsSpec.known E f /\ (cells f <= 5)%nat /\
      in_effect mls pm /\ cwrites (map kx (kn_expr n)) cf /\ means_same E R cf f.

  Definition vtrans_means (c : kclass) (n : kcons) (st : cstmt ptree) : Prop :=
    exists mls cls' tb te f cf, st = Validate mls [cls'] te /\ class_now cl c cls' tb /\
      CilconsSpec.written te f /\ legal true f /\ CilconsSpec.known E f /\ (cells f <= 5)%nat /\
      in_effect mls pm /\ cwrites (map kx (kn_expr n)) cf /\ means_same E R cf f.

  Ltac wordl := repeat (apply Forall_cons; [unfold word_char; lia|]); apply Forall_nil.
  Ltac list_eq := rewrite ?app_nil_r; repeat (rewrite <- ?app_assoc; cbn [app]); reflexivity.

  Lemma nonzero_bit a : a <> 0 -> exists p, N.testbit a p = true.
  Proof using. intros H. exists (N.log2 a). apply N.bit_log2. exact H. Qed.

  Lemma cons_line cls c n : the_class K cls c -> In n (kc_cons c) -> kn_perms n <> 0 ->
    av_names c (kn_perms n) <> [] /\ exists e mls t st, expr_to_str K [] false (kn_expr n) = WVal (e, mls) /\
      stmt_text fuel code cl (cons_text c n mls e) t st /\ cons_means c n st.
  Proof using RO ND CD CW.
    intros TC I NZ. destruct (CW cls c TC) as (CN1 & CN2 & CC & _). destruct (CC n I) as (WN & PN).
    destruct (expr_text false n WN) as (cf & f & te & txt & mls & W & ES & RD & NS & WR & LG & KN & CE & LC & IE & MS).
    destruct (proj1 CD cls c TC) as (cls' & tb & (mx & order & CL) & PD & _).
    set (ps := av_names c (kn_perms n)).
    assert (HP : forall q, In q ps -> plain_name q /\ exists p', tb (code q) = Some (DLeaf p') /\ p' < 32).
    { intros q Hq. apply av_names_in in Hq. destruct Hq as (p & L & T & Q). destruct (PD p L) as (p' & (_ & q' & Q' & PL & TB) & L32); [congruence|].
      rewrite Q in Q'. injection Q' as <-. split; [exact PL|]. exists p'. auto. }
    assert (NE : ps <> []).
    { destruct (nonzero_bit _ NZ) as (p & T). destruct (PN p T) as (L & Q). destruct (kc_perm c (p + 1)) as [q|] eqn:EQ; [|congruence].
      intros Z. assert (J : In q ps) by (apply av_names_in; exists p; auto). rewrite Z in J. destruct J. }
    destruct (perm_list fuel code tb mx order ps NE) as (vs & PS & PV).
    { intros q Hq. destruct (HP q Hq) as ((_ & _ & NR) & p' & TB & _). split; [exact NR|]. exists p'. exact TB. }
    split; [exact NE|].
    set (kw := if mls then lit "mlsconstrain" else lit "constrain").
    assert (KW : kw <> [] /\ Forall word_char kw) by (unfold kw; destruct mls; (split; [discriminate|cbn; wordl])).
    destruct KW as (KW1 & KW2).
    set (t := PList [PName kw; PList [PName (kc_name c); PList (map PName ps)]; te]).
    set (st := Constrain mls [CpClass cls' (map (N.add 1) vs)] te).
    assert (RDS : read_stmt fuel code cl t = Some (Some st)).
    { unfold t, st, kw, read_stmt. rewrite (is_list_written te f WR).
      assert (IL : CilconsModel.is_list (PList (map PName ps)) = true) by (clear - NE; destruct ps; [congruence|reflexivity]). rewrite IL.
      destruct mls.
      - change (same_str (lit "mlsconstrain") (lit "constrain") || same_str (lit "mlsconstrain") (lit "mlsconstrain")) with true. cbn iota. rewrite CL, PS. reflexivity.
      - change (same_str (lit "constrain") (lit "constrain") || same_str (lit "constrain") (lit "mlsconstrain")) with true. cbn iota. rewrite CL, PS. reflexivity. }
    exists txt, mls, t, st. split; [exact ES|]. split.
    - split; [|split; [|exact RDS]].
      + intros s fs V. unfold cons_text. fold ps kw.
        replace ((40 :: kw ++ 32 :: 40 :: kc_name c ++ 32 :: 40 :: join ps ++ 41 :: 41 :: 32 :: txt ++ [41]) ++ 10 :: s)
          with (40 :: (kw ++ 32 :: 40 :: (kc_name c ++ 32 :: 40 :: (join ps ++ []) ++ 41 :: []) ++ 41 :: 32 :: txt ++ []) ++ 41 :: 10 :: s) by list_eq.
        unfold t. apply W_list; [lia| |apply W_blank; [auto|exact V]].
        apply W_symbol; [exact KW1|exact KW2|apply breaks_blank; auto|]. apply W_blank; [auto|].
        apply W_list; [lia| |].
        * apply W_symbol; [exact CN1|exact CN2|apply breaks_blank; auto|]. apply W_blank; [auto|].
          apply W_list; [lia| |apply W_end]. replace (map PName ps) with (map PName ps ++ []) by apply app_nil_r.
          apply join_written; [exact NE| |exact Logic.I|apply W_end]. intros q Hq. destruct (HP q Hq) as ((A & B & _) & _). auto.
        * apply W_blank; [auto|]. apply RD; [lia|exact Logic.I|apply W_end].
      + assert (WL : forall w, Forall word_char w -> forall x, In x w -> line_char x) by (intros w F x Hx; rewrite Forall_forall in F; left; auto).
        intros x Hx. unfold cons_text in Hx. fold ps kw in Hx. cbn [In] in Hx. rewrite in_app_iff in Hx. cbn [In] in Hx. rewrite in_app_iff in Hx.
        cbn [In] in Hx. rewrite in_app_iff in Hx. cbn [In] in Hx. rewrite in_app_iff in Hx. cbn [In] in Hx.
        assert (J : In x (join ps) -> line_char x).
        { intros Hj. destruct (join_chars ps (fun q Hq => proj1 (proj2 (proj1 (HP q Hq)))) x Hj) as [Q|Q]; [left; exact Q|right; left; exact Q]. }
        unfold line_char in *. destruct Hx as [Hx|[Hx|[Hx|[Hx|[Hx|[Hx|[Hx|[Hx|[Hx|[Hx|[Hx|[Hx|[Hx|[]]]]]]]]]]]]]]; auto; try (apply (WL kw KW2 x Hx)); try (apply (WL _ CN2 x Hx)).
    - exists mls, cls', tb, (map (N.add 1) vs), te, f, cf. split; [reflexivity|]. split; [exists mx, order; exact CL|]. split.
      { intros v Hv. apply in_map_iff in Hv. destruct Hv as (x & <- & Hx). apply PV in Hx. destruct Hx as (q & Hq & TB).
        destruct (HP q Hq) as (_ & p' & TB' & L). rewrite TB in TB'. injection TB' as <-. lia. }
      split. { intros p'. rewrite in_map_iff. split.
        - intros (x & Q & Hx). apply PV in Hx. destruct Hx as (q & Hq & TB). apply av_names_in in Hq. destruct Hq as (p & L & T & Q2).
          exists p. split; [exact T|]. split; [exact L|]. exists q. assert (X : x = p') by lia. subst x.
          split; [exact Q2|]. split; [|exact TB]. apply HP. apply av_names_in. exists p. auto.
        - intros (p & T & L & q & Q & _ & TB). exists p'. split; [lia|]. apply PV. exists q. split; [apply av_names_in; exists p; auto|exact TB]. }
      auto 10.
  Qed.

  Lemma vtrans_line cls c n : the_class K cls c -> In n (kc_vtrans c) ->
    exists e mls t st, expr_to_str K [] false (kn_expr n) = WVal (e, mls) /\
      stmt_text fuel code cl (vtrans_text c mls e) t st /\ vtrans_means c n st.
  Proof using RO ND CD CW.
    intros TC I. destruct (CW cls c TC) as (CN1 & CN2 & _ & CC). pose proof (CC n I) as WN.
    destruct (expr_text true n WN) as (cf & f & te & txt & mls & W & ES & RD & NS & WR & LG & KN & CE & LC & IE & MS).
    destruct (proj1 CD cls c TC) as (cls' & tb & (mx & order & CL) & _).
    set (kw := if mls then lit "mlsvalidatetrans" else lit "validatetrans").
    assert (KW : kw <> [] /\ Forall word_char kw) by (unfold kw; destruct mls; (split; [discriminate|cbn; wordl])).
    destruct KW as (KW1 & KW2).
    set (t := PList [PName kw; PName (kc_name c); te]). set (st := Validate mls [cls'] te).
    assert (RDS : read_stmt fuel code cl t = Some (Some st)).
    { unfold t, st, kw, read_stmt. rewrite (is_list_written te f WR).
      destruct mls.
      - change (same_str (lit "mlsvalidatetrans") (lit "constrain") || same_str (lit "mlsvalidatetrans") (lit "mlsconstrain")) with false.
        change (same_str (lit "mlsvalidatetrans") (lit "validatetrans") || same_str (lit "mlsvalidatetrans") (lit "mlsvalidatetrans")) with true. cbn iota. rewrite CL. reflexivity.
      - change (same_str (lit "validatetrans") (lit "constrain") || same_str (lit "validatetrans") (lit "mlsconstrain")) with false.
        change (same_str (lit "validatetrans") (lit "validatetrans") || same_str (lit "validatetrans") (lit "mlsvalidatetrans")) with true. cbn iota. rewrite CL. reflexivity. }
    exists txt, mls, t, st. split; [exact ES|]. split.
    - split; [|split; [|exact RDS]].
      + intros s fs V. unfold vtrans_text. fold kw.
        replace ((40 :: kw ++ 32 :: kc_name c ++ 32 :: txt ++ [41]) ++ 10 :: s) with (40 :: (kw ++ 32 :: kc_name c ++ 32 :: txt ++ []) ++ 41 :: 10 :: s) by list_eq.
        unfold t. apply W_list; [lia| |apply W_blank; [auto|exact V]].
        apply W_symbol; [exact KW1|exact KW2|apply breaks_blank; auto|]. apply W_blank; [auto|].
        apply W_symbol; [exact CN1|exact CN2|apply breaks_blank; auto|]. apply W_blank; [auto|].
        apply RD; [lia|exact Logic.I|apply W_end].
      + assert (WL : forall w, Forall word_char w -> forall x, In x w -> line_char x) by (intros w F x Hx; rewrite Forall_forall in F; left; auto).
        intros x Hx. unfold vtrans_text in Hx. fold kw in Hx. cbn [In] in Hx. rewrite in_app_iff in Hx. cbn [In] in Hx. rewrite in_app_iff in Hx.
        cbn [In] in Hx. rewrite in_app_iff in Hx. cbn [In] in Hx.
        unfold line_char in *. destruct Hx as [Hx|[Hx|[Hx|[Hx|[Hx|[Hx|[Hx|[]]]]]]]]; auto; try (apply (WL kw KW2 x Hx)); try (apply (WL _ CN2 x Hx)).
    - exists mls, cls', tb, te, f, cf. split; [reflexivity|]. split; [exists mx, order; exact CL|]. auto 10.
  Qed.

  (** The text, and what is read from it. *)
  Lemma round_trip mid fm : other_statements mid fm -> exists t1 t2 T sts, write_constraints K = WVal (t1, t2) /\
    compile_text fuel code cl E pm (t1 ++ mid ++ t2) = Some T /\ compile_constraints E pm sts = Some T /\
    (forall st, In st sts -> exists cls c n, the_class K cls c /\
       ((In n (kc_cons c) /\ kn_perms n <> 0 /\ cons_means c n st) \/ (In n (kc_vtrans c) /\ vtrans_means c n st))) /\
    (forall cls c n, the_class K cls c -> In n (kc_cons c) -> kn_perms n <> 0 -> exists st, In st sts /\ cons_means c n st) /\
    (forall cls c n, the_class K cls c -> In n (kc_vtrans c) -> exists st, In st sts /\ vtrans_means c n st).
  Proof using RO ND EOK CD CW.
    intros (WM & N59 & N13 & OS).
    assert (HC : forall c, In (Some c) (kp_classes K) -> exists a, class_cons_strs K c (kc_cons c) = WVal a /\ forall m w, In (m, w) a <->
      exists n e, In n (kc_cons c) /\ kn_perms n <> 0 /\ expr_to_str K [] false (kn_expr n) = WVal (e, m) /\ w = cons_text c n m e).
    { intros c I. apply in_classes in I. destruct I as (cls & TC). apply class_cons_lines. intros n In_ NZ.
      destruct (cons_line cls c n TC In_ NZ) as (NE & e & mls & _ & _ & EE & _). split; [exact NE|]. exists e, mls. exact EE. }
    assert (HV : forall c, In (Some c) (kp_classes K) -> exists a, class_vtrans_strs K c (kc_vtrans c) = WVal a /\ forall m w, In (m, w) a <->
      exists n e, In n (kc_vtrans c) /\ expr_to_str K [] false (kn_expr n) = WVal (e, m) /\ w = vtrans_text c m e).
    { intros c I. apply in_classes in I. destruct I as (cls & TC). apply class_vtrans_lines. intros n In_.
      destruct (vtrans_line cls c n TC In_) as (e & mls & _ & _ & EE & _). exists e, mls. exact EE. }
    destruct (all_lines (fun c => class_cons_strs K c (kc_cons c)) (kp_classes K)) as (cs & EC & SC).
    { intros c I. destruct (HC c I) as (a & Q & _). exists a. exact Q. }
    destruct (all_lines (fun c => class_vtrans_strs K c (kc_vtrans c)) (kp_classes K)) as (vs & EV & SV).
    { intros c I. destruct (HV c I) as (a & Q & _). exists a. exact Q. }
    assert (CS : forall m w, In (m, w) cs <-> exists cls c n e, the_class K cls c /\ In n (kc_cons c) /\ kn_perms n <> 0 /\
        expr_to_str K [] false (kn_expr n) = WVal (e, m) /\ w = cons_text c n m e).
    { intros m w. rewrite SC. split.
      - intros (c & a & I & EA & J). destruct (HC c I) as (a' & EA' & S). rewrite EA in EA'. injection EA' as <-. apply S in J.
        destruct J as (n & e & J). apply in_classes in I. destruct I as (cls & TC). exists cls, c, n, e. tauto.
      - intros (cls & c & n & e & TC & J). assert (I : In (Some c) (kp_classes K)) by (apply in_classes; exists cls; exact TC).
        destruct (HC c I) as (a & EA & S). exists c, a. split; [exact I|]. split; [exact EA|]. apply S. exists n, e. exact J. }
    assert (VS : forall m w, In (m, w) vs <-> exists cls c n e, the_class K cls c /\ In n (kc_vtrans c) /\
        expr_to_str K [] false (kn_expr n) = WVal (e, m) /\ w = vtrans_text c m e).
    { intros m w. rewrite SV. split.
      - intros (c & a & I & EA & J). destruct (HV c I) as (a' & EA' & S). rewrite EA in EA'. injection EA' as <-. apply S in J.
        destruct J as (n & e & J). apply in_classes in I. destruct I as (cls & TC). exists cls, c, n, e. tauto.
      - intros (cls & c & n & e & TC & J). assert (I : In (Some c) (kp_classes K)) by (apply in_classes; exists cls; exact TC).
        destruct (HV c I) as (a & EA & S). exists c, a. split; [exact I|]. split; [exact EA|]. apply S. exists n, e. exact J. }
    assert (LC : forall m w, In w (strs_sort (chosen m cs)) -> exists t st, stmt_text fuel code cl w t st).
    { intros m w I. apply in_chosen, CS in I. destruct I as (cls & c & n & e & TC & I & NZ & EE & ->).
      destruct (cons_line cls c n TC I NZ) as (_ & e' & m' & t & st & EE' & Q & _). rewrite EE in EE'. injection EE' as <- <-. exists t, st. exact Q. }
    assert (LV : forall m w, In w (strs_sort (chosen m vs)) -> exists t st, stmt_text fuel code cl w t st).
    { intros m w I. apply in_chosen, VS in I. destruct I as (cls & c & n & e & TC & I & EE & ->).
      destruct (vtrans_line cls c n TC I) as (e' & m' & t & st & EE' & Q & _). rewrite EE in EE'. injection EE' as <- <-. exists t, st. exact Q. }
    destruct (texts_read fuel code cl _ (LV false) [] [] [] (W_end 0) eq_refl) as (ts4 & st4 & W4 & R4 & S4 & C4).
    destruct (texts_read fuel code cl _ (LC false) _ _ _ W4 R4) as (ts3 & st3 & W3 & R3 & S3 & C3).
    pose proof (written_app mid fm WM _ _ W3) as WM3. pose proof (other_read fuel code cl fm OS _ _ R3) as RM.
    destruct (texts_read fuel code cl _ (LV true) _ _ _ WM3 RM) as (ts2 & st2 & W2 & R2 & S2 & C2).
    destruct (texts_read fuel code cl _ (LC true) _ _ _ W2 R2) as (ts1 & st1 & W1 & R1 & S1 & C1).
    rewrite app_nil_r in W4, W3, WM3, W2, W1.
    set (sts := st1 ++ st2 ++ st3 ++ st4 ++ []) in *.
    assert (SC1 : forall m st, (exists w t, In w (strs_sort (chosen m cs)) /\ stmt_text fuel code cl w t st) ->
        exists cls c n, the_class K cls c /\ In n (kc_cons c) /\ kn_perms n <> 0 /\ cons_means c n st).
    { intros m st (w & t & I & Q). apply in_chosen, CS in I. destruct I as (cls & c & n & e & TC & I & NZ & EE & ->).
      destruct (cons_line cls c n TC I NZ) as (_ & e' & m' & t' & st' & EE' & Q' & M). rewrite EE in EE'. injection EE' as <- <-.
      rewrite (stmt_unique fuel code cl _ _ _ _ _ Q Q'). exists cls, c, n. auto. }
    assert (SV1 : forall m st, (exists w t, In w (strs_sort (chosen m vs)) /\ stmt_text fuel code cl w t st) ->
        exists cls c n, the_class K cls c /\ In n (kc_vtrans c) /\ vtrans_means c n st).
    { intros m st (w & t & I & Q). apply in_chosen, VS in I. destruct I as (cls & c & n & e & TC & I & EE & ->).
      destruct (vtrans_line cls c n TC I) as (e' & m' & t' & st' & EE' & Q' & M). rewrite EE in EE'. injection EE' as <- <-.
      rewrite (stmt_unique fuel code cl _ _ _ _ _ Q Q'). exists cls, c, n. auto. }
    assert (ALL : forall st, In st sts -> exists cls c n, the_class K cls c /\
       ((In n (kc_cons c) /\ kn_perms n <> 0 /\ cons_means c n st) \/ (In n (kc_vtrans c) /\ vtrans_means c n st))).
    { intros st I. unfold sts in I. rewrite app_nil_r, !in_app_iff in I. destruct I as [I|[I|[I|I]]].
      - apply S1 in I. destruct (SC1 true st I) as (cls & c & n & A & B & C & D). exists cls, c, n. auto.
      - apply S2 in I. destruct (SV1 true st I) as (cls & c & n & A & B & C). exists cls, c, n. auto.
      - apply S3 in I. destruct (SC1 false st I) as (cls & c & n & A & B & C & D). exists cls, c, n. auto.
      - apply S4 in I. destruct (SV1 false st I) as (cls & c & n & A & B & C). exists cls, c, n. auto. }
    assert (ACC : compile_constraints E pm sts <> None).
    { apply stmts_separate. intros st I. destruct (ALL st I) as (cls & c & n & TC & [(I1 & NZ & M)|(I1 & M)]).
      - destruct M as (mls & cls' & tb & perms & te & f & cf & -> & _ & _ & _ & WR & LG & KN & CE & _).
        exact (accept_constraint E EOK pm mls _ te f WR (legal_taken false f LG) KN CE).
      - destruct M as (mls & cls' & tb & te & f & cf & -> & _ & WR & LG & KN & CE & _).
        exact (accept_transition E EOK pm mls _ te f WR (legal_taken true f LG) KN). }
    destruct (compile_constraints E pm sts) as [T|] eqn:CT; [clear ACC|destruct (ACC eq_refl)].
    exists (write_each (strs_sort (chosen true cs)) ++ write_each (strs_sort (chosen true vs))),
           (write_each (strs_sort (chosen false cs)) ++ write_each (strs_sort (chosen false vs))), T, sts.
    split. { unfold write_constraints. rewrite EC, EV. reflexivity. }
    split. { unfold compile_text.
      set (txt := (write_each (strs_sort (chosen true cs)) ++ write_each (strs_sort (chosen true vs))) ++ mid ++
                  write_each (strs_sort (chosen false cs)) ++ write_each (strs_sort (chosen false vs))).
      assert (EQ : txt = write_each (strs_sort (chosen true cs)) ++ write_each (strs_sort (chosen true vs)) ++ mid ++
                  write_each (strs_sort (chosen false cs)) ++ write_each (strs_sort (chosen false vs))) by (unfold txt; rewrite <- app_assoc; reflexivity).
      assert (CH : forall x, In x txt -> x <> 59 /\ x <> 13).
      { intros x I. rewrite EQ, !in_app_iff in I. destruct I as [I|[I|[I|[I|I]]]]; [exact (C1 x I)|exact (C2 x I)| |exact (C3 x I)|exact (C4 x I)].
        split; intros Z; subst x; auto. }
      assert (M : no_marks txt) by (apply no_marks_plain; intros I; exact (proj1 (CH _ I) eq_refl)).
      assert (M' : ~ In 13 txt) by (intros I; exact (proj2 (CH _ I) eq_refl)).
      rewrite (proj2 (parser_exact txt _ M M') (ex_intro _ txt (conj (eq_ind_r (fun z => CilparseSpec.written 0 z _) W1 EQ) (or_introl eq_refl)))).
      rewrite R1. exact CT. }
    split; [exact CT|]. split; [exact ALL|]. split.
    - intros cls c n TC I NZ. destruct (cons_line cls c n TC I NZ) as (_ & e & m & t & st & EE & Q & M). exists st. split; [|exact M].
      assert (J : In (cons_text c n m e) (strs_sort (chosen m cs))) by (apply in_chosen, CS; exists cls, c, n, e; auto).
      unfold sts. rewrite app_nil_r, !in_app_iff. destruct m.
      + left. apply S1. exists (cons_text c n true e), t. auto.
      + right. right. left. apply S3. exists (cons_text c n false e), t. auto.
    - intros cls c n TC I. destruct (vtrans_line cls c n TC I) as (e & m & t & st & EE & Q & M). exists st. split; [|exact M].
      assert (J : In (vtrans_text c m e) (strs_sort (chosen m vs))) by (apply in_chosen, VS; exists cls, c, n, e; auto).
      unfold sts. rewrite app_nil_r, !in_app_iff. destruct m.
      + right. left. apply S2. exists (vtrans_text c true e), t. auto.
      + right. right. right. apply S4. exists (vtrans_text c false e), t. auto.
  Qed.

  Lemma same_number cls c d cls' tb tb' cls2 : the_class K cls c -> the_class K cls2 d -> class_now cl c cls' tb -> class_now cl d cls' tb' ->
    cls2 = cls /\ d = c /\ tb' = tb.
  Proof using CD.
    intros TC TD NC NDd. pose proof (proj2 CD cls2 cls d c cls' tb' tb TD TC NDd NC) as Q. subst cls2. split; [reflexivity|].
    destruct TC as (_ & TC). destruct TD as (_ & TD). rewrite TC in TD. injection TD as <-. split; [reflexivity|].
    destruct NC as (m & o & A). destruct NDd as (m' & o' & B). congruence.
  Qed.
  Lemma class_now_fun c cls1 tb1 cls2 tb2 : class_now cl c cls1 tb1 -> class_now cl c cls2 tb2 -> cls1 = cls2 /\ tb1 = tb2.
  Proof using. intros (m & o & A) (m' & o' & B). rewrite A in B. injection B as <- <- _ _. auto. Qed.

  Lemma round_trip_means mid fm : other_statements mid fm -> exists t1 t2 T, write_constraints K = WVal (t1, t2) /\
    compile_text fuel code cl E pm (t1 ++ mid ++ t2) = Some T /\
    forall P P', policy_is K P -> (forall cls, sv_cons P' cls = ct_cons T cls) -> (forall cls, sv_vtrans P' cls = ct_vtrans T cls) ->
      same_dominance R P P' -> same_decisions K R code cl P P'.
  Proof using RO ND EOK CD CW.
    intros OS. destruct (round_trip mid fm OS) as (t1 & t2 & T & sts & WC & CT & CC & ALL & FC & FV). exists t1, t2, T. split; [exact WC|]. split; [exact CT|].
    assert (LEG : all_legal sts).
    { intros st I. destruct (ALL st I) as (cls & c & n & TC & [(I1 & NZ & M)|(I1 & M)]).
      - destruct M as (mls & cls' & tb & perms & te & f & cf & -> & _ & PB & _ & WR & LG & _). split.
        + intros g WG. rewrite (written_unique te g WG f WR). exact LG.
        + apply Pf_many. intros x [<-|[]]. apply Pf_class. exact PB.
      - destruct M as (mls & cls' & tb & te & f & cf & -> & _ & WR & LG & _ & CE & _). intros g WG. rewrite (written_unique te g WG f WR). auto. }
    intros P P' PI PC PV SD cls c cls' tb TC NC. destruct (PI cls c TC) as (PIc & PIv). split.
    - intros s s' t t' p p' Hs Ht Os Ot PN.
      rewrite (constraints_mean E EOK pm sts T CC LEG P' PC s' t' cls' p' Os Ot).
      assert (SAT : forall n cf f, cwrites (map kx (kn_expr n)) cf -> means_same E R cf f -> (satisfied P s t None (seen n) <-> holds E P' s' t' None f)).
      { intros n cf f W M. rewrite (satisfied_iff P s t None (seen n) cf W). apply M; try assumption. exact Logic.I. }
      unfold cons_allow, constraints_hold. rewrite PIc. split.
      + intros H mls cps e I IE ME. destruct (ALL _ I) as (cls2 & d & n & TD & [(I1 & NZ & M)|(I1 & M)]).
        2:{ destruct M as (? & ? & ? & ? & ? & ? & Q & _). discriminate Q. }
        destruct M as (m2 & cls3 & tb3 & perms & te & f & cf & Q & N3 & PB & PP & WR & LG & _ & _ & _ & W & MS). injection Q as -> -> ->.
        assert (ME' : cls3 = cls' /\ In (p' + 1) perms).
        { inversion ME as [|x l J MM]; subst. destruct J as [<-|[]]. inversion MM; subst. auto. }
        destruct ME' as (-> & IP). destruct (same_number cls c d cls' tb tb3 cls2 TC TD NC N3) as (-> & -> & ->).
        apply PP in IP. destruct IP as (p2 & TB & PN2).
        destruct (proj1 CD cls c TC) as (cls4 & tb4 & N4 & _ & INJ). destruct (class_now_fun _ _ _ _ _ N4 NC) as (-> & ->).
        rewrite (INJ p2 p p' PN2 PN) in TB. exists f. split; [exact WR|]. apply (SAT n cf f W MS). apply H; [apply in_map; exact I1|exact TB].
      + intros H r I TB. apply in_map_iff in I. destruct I as (n & <- & I). cbn [seen cn_perms] in TB.
        assert (NZ : kn_perms n <> 0) by (intros Z; rewrite Z, N.bits_0 in TB; discriminate).
        destruct (FC cls c n TC I NZ) as (st & IS & mls & cls3 & tb3 & perms & te & f & cf & -> & N3 & PB & PP & WR & LG & _ & _ & IE & W & MS).
        destruct (class_now_fun _ _ _ _ _ N3 NC) as (-> & ->).
        destruct (H mls _ te IS IE) as (g & WG & HG).
        { eapply Me_many; [left; reflexivity|]. apply Me_class. apply PP. exists p. auto. }
        rewrite (written_unique te g WG f WR) in HG. apply (SAT n cf f W MS). exact HG.
    - intros o o' n n' t t' Ho Hn Ht Oo On Ot.
      rewrite (transitions_mean E EOK pm sts T CC LEG P' PV o' n' t' cls' Oo On Ot).
      assert (SAT : forall r cf f, cwrites (map kx (kn_expr r)) cf -> means_same E R cf f -> (satisfied P o n (Some t) (seen r) <-> holds E P' o' n' (Some t') f)).
      { intros r cf f W M. rewrite (satisfied_iff P o n (Some t) (seen r) cf W). apply M; assumption. }
      unfold transitions_hold. rewrite PIv. split.
      + intros H mls cs e I IE IC. destruct (ALL _ I) as (cls2 & d & r & TD & [(I1 & NZ & M)|(I1 & M)]).
        { destruct M as (? & ? & ? & ? & ? & ? & ? & Q & _). discriminate Q. }
        destruct M as (m2 & cls3 & tb3 & te & f & cf & Q & N3 & WR & LG & _ & _ & _ & W & MS). injection Q as -> -> ->.
        destruct IC as [->|[]]. destruct (same_number cls c d cls' tb tb3 cls2 TC TD NC N3) as (-> & -> & ->).
        exists f. split; [exact WR|]. apply (SAT r cf f W MS). apply H. apply in_map. exact I1.
      + intros H r0 I. apply in_map_iff in I. destruct I as (r & <- & I).
        destruct (FV cls c r TC I) as (st & IS & mls & cls3 & tb3 & te & f & cf & -> & N3 & WR & LG & _ & _ & IE & W & MS).
        destruct (class_now_fun _ _ _ _ _ N3 NC) as (-> & ->).
        destruct (H mls _ te IS IE (or_introl eq_refl)) as (g & WG & HG).
        rewrite (written_unique te g WG f WR) in HG. apply (SAT r cf f W MS). exact HG.
  Qed.
End Whole.
