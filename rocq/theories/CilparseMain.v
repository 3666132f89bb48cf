(** Proofs about reading CIL text: from bytes to tokens. *)
From Coq Require Import Arith Wf_nat.
From Verif Require Import Base CilparseModel CilparseSpec CilparseProofs.

Lemma symbol_char_spec c : symbol_char c = true <-> word_char c.
Proof.
  unfold word_char. split.
  - unfold symbol_char, digit, alpha, spec_char. intros H.
    apply orb_true_iff in H. destruct H as [H|H]; [lia|].
    apply existsb_exists in H. destruct H as (x & Hx & E). apply N.eqb_eq in E. subst x.
    cbn [In] in Hx. lia.
  - intros (H & H1 & H2 & H3 & H4 & H5).
    assert (E : forall n, (n <= 93)%nat -> N.of_nat n + 33 <> 34 -> N.of_nat n + 33 <> 40 -> N.of_nat n + 33 <> 41 ->
              N.of_nat n + 33 <> 59 -> N.of_nat n + 33 <> 92 -> symbol_char (N.of_nat n + 33) = true).
    { clear. intros n Hn. do 94 (destruct n as [|n]; [intros; try reflexivity; exfalso; lia|]). exfalso. lia. }
    replace c with (N.of_nat (N.to_nat (c - 33)) + 33) by lia. apply E; lia.
Qed.

Lemma symbol_run_app s : forall w r, symbol_run s = (w, r) -> s = w ++ r /\ Forall word_char w /\ breaks r.
Proof.
  induction s as [|c s IH]; intros w r H.
  - inversion H. subst. do 2 (split; [constructor|]). exact I.
  - cbn [symbol_run] in H. destruct (symbol_char c) eqn:E.
    + destruct (symbol_run s) as [w' r'] eqn:F. inversion H; subst. destruct (IH w' r eq_refl) as (-> & Fw & B).
      split; [reflexivity|]. split; [constructor; [apply symbol_char_spec; exact E|exact Fw]|exact B].
    + inversion H; subst. split; [reflexivity|]. split; [constructor|]. cbn [breaks]. rewrite <- symbol_char_spec, E. discriminate.
Qed.

Lemma symbol_run_word w r : Forall word_char w -> breaks r -> symbol_run (w ++ r) = (w, r).
Proof.
  intros F B. induction F as [|c w Hc F IH].
  - cbn [app]. destruct r as [|c r]; [reflexivity|]. cbn [symbol_run breaks] in *. rewrite <- symbol_char_spec in B.
    destruct (symbol_char c); [exfalso; apply B; reflexivity|reflexivity].
  - cbn [app symbol_run]. apply symbol_char_spec in Hc. rewrite Hc, IH. reflexivity.
Qed.

Lemma qstring_some s : forall w r, qstring_run s = Some (w, r) -> s = w ++ 34 :: r /\ ~ In 34 w /\ ~ In 10 w /\ ~ In 0 w.
Proof.
  induction s as [|c s IH]; intros w r H; [discriminate H|]. cbn [qstring_run] in H.
  destruct (N.eqb_spec c 34).
  - inversion H; subst. split; [reflexivity|]. do 2 (split; [intros []|]). intros [].
  - destruct ((c =? 10) || (c =? 0)) eqn:E; [discriminate H|].
    destruct (qstring_run s) as [[w' r']|] eqn:F; [|discriminate H]. inversion H; subst.
    destruct (IH w' r eq_refl) as (-> & A & B & C). split; [reflexivity|]. cbn [In].
    split; [intros [?|?]; [lia|auto]|]. split; intros [?|?]; auto; lia.
Qed.

Lemma qstring_word w r : ~ In 34 w -> ~ In 10 w -> ~ In 0 w -> qstring_run (w ++ 34 :: r) = Some (w, r).
Proof.
  induction w as [|c w IH]; intros A B C; [reflexivity|]. cbn [app qstring_run]. cbn [In] in A, B, C.
  destruct (N.eqb_spec c 34); [exfalso; auto|].
  replace ((c =? 10) || (c =? 0)) with false by (symmetry; apply orb_false_iff; split; apply N.eqb_neq; auto).
  rewrite IH by auto. reflexivity.
Qed.

Lemma qstring_app s s' w r : qstring_run s = Some (w, r) -> qstring_run (s ++ s') = Some (w, r ++ s').
Proof.
  intros H. destruct (qstring_some s w r H) as (-> & A & B & C). rewrite <- app_assoc. cbn [app]. apply qstring_word; assumption.
Qed.

Lemma qstring_newline body s : ~ In 10 body -> qstring_run body = None -> qstring_run (body ++ 10 :: s) = None.
Proof.
  induction body as [|c body IH]; intros A H; [reflexivity|]. cbn [app qstring_run] in *. cbn [In] in A.
  destruct (c =? 34); [discriminate H|]. destruct ((c =? 10) || (c =? 0)); [reflexivity|].
  destruct (qstring_run body) as [[w r]|]; [discriminate H|]. rewrite IH by auto. reflexivity.
Qed.

Lemma lex_one_length bol c s : (length (snd (lex_one bol c s)) <= length s)%nat.
Proof.
  unfold lex_one. destruct ((c =? 10) || (c =? 13)); [apply le_n|]. destruct (c =? 59).
  - destruct s as [|[|p] [|[|q] s]]; try apply le_n.
    all: repeat match goal with |- context [match ?x with xI _ => _ | xO _ => _ | xH => _ end] => destruct x end; try apply le_n;
      destruct bol; cbn [snd length]; lia.
  - destruct (c =? 40); [apply le_n|]. destruct (c =? 41); [apply le_n|].
    destruct (symbol_char c).
    + destruct (symbol_run s) as [w r] eqn:E. destruct (symbol_run_app s w r E) as (-> & _). cbn [snd]. rewrite app_length. lia.
    + destruct ((c =? 32) || (c =? 9)); [apply le_n|]. destruct (c =? 34); [|apply le_n].
      destruct (qstring_run s) as [[w r]|] eqn:E; [|apply le_n]. destruct (qstring_some s w r E) as (-> & _).
      cbn [snd]. rewrite app_length. cbn [length]. lia.
Qed.

Lemma lex_fuel n : forall k bol s, (length s <= n)%nat -> (length s <= k)%nat -> lex n bol s = lex k bol s.
Proof.
  induction n as [|n IH]; intros k bol s Hn Hk.
  - destruct s; [|cbn [length] in Hn; lia]. destruct k; reflexivity.
  - destruct s as [|c s]; [destruct k; reflexivity|]. cbn [length] in *. destruct k as [|k]; [lia|]. cbn [lex].
    pose proof (lex_one_length bol c s) as L. destruct (lex_one bol c s) as [t r]. cbn [snd] in L.
    rewrite (IH k (c =? 10) r) by lia. reflexivity.
Qed.

Definition LX (bol : bool) (s : list N) : list token := lex (length s) bol s.

Lemma LX_cons bol c s : LX bol (c :: s) =
  match fst (lex_one bol c s) with
  | Some t => t :: LX (c =? 10) (snd (lex_one bol c s))
  | None => LX (c =? 10) (snd (lex_one bol c s))
  end.
Proof.
  unfold LX at 1. cbn [length lex]. pose proof (lex_one_length bol c s) as L. destruct (lex_one bol c s) as [t r]. cbn [fst snd] in *.
  unfold LX. rewrite (lex_fuel (length s) (length r) (c =? 10) r) by lia. reflexivity.
Qed.

(** No line mark starts here or later. *)
Definition nomark (bol : bool) (s : list N) : Prop :=
  forall a b, s = a ++ 59 :: 59 :: 42 :: b -> match a with [] => bol = false | _ => exists a' c, a = a' ++ [c] /\ c <> 10 end.

Lemma no_marks_nomark s : no_marks s -> nomark true s.
Proof.
  intros H a b E. destruct (H a b E) as (a' & c & -> & Hc). destruct (a' ++ [c]) eqn:F; [destruct a'; discriminate F|].
  rewrite <- F. eauto.
Qed.

Lemma nomark_tail bol x s c : nomark bol (x ++ c :: s) -> nomark (c =? 10) s.
Proof.
  intros H a b E. specialize (H (x ++ c :: a) b). rewrite E in H. rewrite <- app_assoc in H. specialize (H eq_refl).
  destruct (x ++ c :: a) as [|y ys] eqn:F; [destruct x; discriminate F|]. rewrite <- F in H. destruct H as (a' & d & G & Hd).
  destruct a as [|z zs].
  - apply app_inj_tail in G. destruct G as (_ & ->). apply N.eqb_neq. exact Hd.
  - destruct (@exists_last _ (z :: zs) ltac:(discriminate)) as (a0 & e & Ez). rewrite Ez in *. exists a0, e. split; [reflexivity|].
    rewrite app_comm_cons, app_assoc in G. apply app_inj_tail in G. destruct G as (_ & ->). exact Hd.
Qed.

Lemma nomark_false s : nomark true s -> nomark false s.
Proof. intros H a b E. specialize (H a b E). destruct a; [reflexivity|exact H]. Qed.

Lemma nomark_tail_f bol x s c : nomark bol (x ++ c :: s) -> nomark false s.
Proof. intros H. apply nomark_tail in H. destruct (c =? 10); [apply nomark_false|]; exact H. Qed.

(** A semicolon where no line mark starts begins a comment. *)
Lemma lex_semicolon bol s : nomark bol (59 :: s) -> lex_one bol 59 s = (Some COMMENT, s).
Proof.
  intros H. unfold lex_one. change ((59 =? 10) || (59 =? 13)) with false. change (59 =? 59) with true. cbn iota.
  destruct s as [|c [|d s]]; try reflexivity.
  { destruct c as [|p]; [reflexivity|]. repeat match goal with |- context [match ?x with xI _ => _ | xO _ => _ | xH => _ end] => destruct x end; reflexivity. }
  destruct (N.eq_dec c 59) as [->|Hc]; [destruct (N.eq_dec d 42) as [->|Hd]|].
  - specialize (H [] s eq_refl). cbn in H. subst bol. reflexivity.
  - destruct d as [|p]; [reflexivity|]. repeat match goal with |- context [match ?x with xI _ => _ | xO _ => _ | xH => _ end] => destruct x end; try reflexivity.
    exfalso; apply Hd; reflexivity.
  - destruct c as [|p]; [reflexivity|]. repeat match goal with |- context [match ?x with xI _ => _ | xO _ => _ | xH => _ end] => destruct x end; try reflexivity.
    all: exfalso; apply Hc; reflexivity.
Qed.

(** The forms of one match, where there is no line mark and no carriage return. *)
Inductive shape (c : N) (s : list N) : option token -> list N -> Prop :=
| Sh_newline : c = 10 -> shape c s (Some NEWLINE) s
| Sh_comment : c = 59 -> shape c s (Some COMMENT) s
| Sh_open : c = 40 -> shape c s (Some OPAREN) s
| Sh_close : c = 41 -> shape c s (Some CPAREN) s
| Sh_symbol w r : s = w ++ r -> word_char c -> Forall word_char w -> breaks r -> shape c s (Some (SYMBOL (c :: w))) r
| Sh_blank : c = 32 \/ c = 9 -> shape c s None s
| Sh_string w r : c = 34 -> s = w ++ 34 :: r -> ~ In 34 w -> ~ In 10 w -> ~ In 0 w -> shape c s (Some (QSTRING w)) r
| Sh_unknown : c <> 10 -> shape c s (Some UNKNOWN) s.

Lemma lex_shape bol c s : c <> 13 -> nomark bol (c :: s) -> shape c s (fst (lex_one bol c s)) (snd (lex_one bol c s)).
Proof.
  intros Hc Hm. destruct (N.eq_dec c 59) as [->|H59].
  { rewrite (lex_semicolon bol s Hm). constructor. reflexivity. }
  unfold lex_one. destruct (N.eqb_spec c 10) as [->|H10]; [constructor; reflexivity|].
  replace (c =? 13) with false by lia. replace (c =? 59) with false by lia. cbn [orb].
  destruct (N.eqb_spec c 40) as [->|H40]; [constructor; reflexivity|].
  destruct (N.eqb_spec c 41) as [->|H41]; [constructor; reflexivity|].
  destruct (symbol_char c) eqn:E.
  { apply symbol_char_spec in E. destruct (symbol_run s) as [w r] eqn:F. destruct (symbol_run_app s w r F) as (-> & Fw & B).
    cbn [fst snd]. constructor; auto. }
  destruct ((c =? 32) || (c =? 9)) eqn:E2; [constructor; lia|].
  destruct (N.eqb_spec c 34) as [->|]; [|constructor; assumption].
  destruct (qstring_run s) as [[w r]|] eqn:F; [|constructor; discriminate].
  destruct (qstring_some s w r F) as (-> & A & B & C). cbn [fst snd]. constructor; auto.
Qed.

(** What is consumed by one match that gives no newline token has no newline in it. *)
Lemma shape_split c s t r : shape c s t r -> exists x, s = x ++ r /\ (t <> Some NEWLINE -> ~ In 10 (c :: x)) /\
   (t = Some NEWLINE -> x = [] /\ c = 10).
Proof.
  assert (W : forall w, Forall word_char w -> ~ In 10 w).
  { intros w F Hi. rewrite Forall_forall in F. destruct (F 10 Hi). lia. }
  intros H. destruct H as [Hc|Hc|Hc|Hc|w r E Hc F B|Hc|w r Hc E A B C|Hc].
  1: { exists []. split; [reflexivity|]. split; [congruence|auto]. }
  1,2,3: exists []; split; [reflexivity|]; split; [intros _ [?|[]]; lia|discriminate].
  - exists w. split; [exact E|]. split; [|discriminate]. intros _ Hi. apply (W (c :: w)); [constructor; assumption|exact Hi].
  - exists []. split; [reflexivity|]. split; [intros _ [?|[]]; lia|discriminate].
  - exists (w ++ [34]). split; [rewrite <- app_assoc; exact E|]. split; [|discriminate].
    intros _ [?|Hi]; [lia|]. apply in_app_or in Hi. destruct Hi as [Hi|[?|[]]]; [exact (B Hi)|discriminate].
  - exists []. split; [reflexivity|]. split; [intros _ [?|[]]; congruence|discriminate].
Qed.

Lemma shape_tail bol c s t r : nomark bol (c :: s) -> shape c s t r -> nomark (c =? 10) r.
Proof.
  intros Hm Sh. destruct (shape_split c s t r Sh) as (x & -> & H1 & H2).
  destruct x as [|y x] using rev_ind.
  - apply (nomark_tail bol [] r c). exact Hm.
  - clear IHx. assert (N1 : ~ In 10 (c :: x ++ [y])).
    { apply H1. intros ->. destruct (H2 eq_refl) as (E & _). destruct x; discriminate E. }
    replace (c =? 10) with (y =? 10).
    + rewrite <- app_assoc in Hm. apply (nomark_tail bol (c :: x) r y). exact Hm.
    + replace (c =? 10) with false; [|symmetry; apply N.eqb_neq; intros ->; apply N1; left; reflexivity].
      apply N.eqb_neq. intros ->. apply N1. right. apply in_or_app. right. left. reflexivity.
Qed.

(** The first token of a text and where it stands. *)
Lemma LX_first n : forall bol s t ts, length s = n -> ~ In 13 s -> nomark bol s -> LX bol s = t :: ts ->
  exists sp c s' r bol', s = sp ++ c :: s' /\ Forall (fun c => c = 32 \/ c = 9) sp /\ shape c s' (Some t) r /\
    nomark bol' r /\ LX bol' r = ts /\ ~ In 13 r /\ (length r < n)%nat /\ bol' = (c =? 10).
Proof.
  induction n as [n IH] using lt_wf_ind. intros bol s t ts Hn N13 Hm H.
  destruct s as [|c s]; [discriminate H|]. rewrite LX_cons in H.
  assert (Hc : c <> 13) by (intros ->; apply N13; left; reflexivity).
  pose proof (lex_shape bol c s Hc Hm) as Sh. pose proof (shape_tail _ _ _ _ _ Hm Sh) as Hm'.
  destruct (shape_split _ _ _ _ Sh) as (x & Ex & _ & _).
  pose proof (lex_one_length bol c s) as L.
  destruct (lex_one bol c s) as [o r]. cbn [fst snd] in *.
  assert (N13r : ~ In 13 r) by (intros Hi; apply N13; right; rewrite Ex; apply in_or_app; right; exact Hi).
  cbn [length] in Hn. destruct o as [t'|].
  - inversion H; subst t' ts. exists [], c, s, r, (c =? 10). split; [reflexivity|]. split; [constructor|].
    do 4 (split; [assumption || reflexivity|]). split; [lia|reflexivity].
  - destruct (IH (length r) ltac:(lia) (c =? 10) r t ts eq_refl N13r Hm' H) as (sp & c' & s' & r' & bol' & E & F & Sh' & G1 & G2 & G3 & G4 & G5).
    assert (Er : r = s /\ (c = 32 \/ c = 9)) by (inversion Sh; subst; auto). destruct Er as (-> & Hb). rewrite E in *.
    exists (c :: sp), c', s', r', bol'. split; [reflexivity|]. split; [constructor; assumption|].
    do 4 (split; [assumption|]). split; [lia|assumption].
Qed.

Lemma LX_nil n : forall bol s, length s = n -> ~ In 13 s -> nomark bol s -> LX bol s = [] -> Forall (fun c => c = 32 \/ c = 9) s.
Proof.
  induction n as [n IH] using lt_wf_ind. intros bol s Hn N13 Hm H.
  destruct s as [|c s]; [constructor|]. rewrite LX_cons in H.
  assert (Hc : c <> 13) by (intros ->; apply N13; left; reflexivity).
  pose proof (lex_shape bol c s Hc Hm) as Sh. pose proof (shape_tail _ _ _ _ _ Hm Sh) as Hm'.
  destruct (lex_one bol c s) as [o r]. cbn [fst snd] in *. destruct o as [t'|]; [discriminate H|].
  assert (Er : r = s /\ (c = 32 \/ c = 9)) by (inversion Sh; subst; auto). destruct Er as (-> & Hb).
  cbn [length] in Hn. constructor; [exact Hb|]. apply (IH (length s) ltac:(lia) (c =? 10) s eq_refl); auto.
  intros Hi. apply N13. right. exact Hi.
Qed.

Lemma LX_no_linemark n : forall bol s, length s = n -> ~ In 13 s -> nomark bol s -> ~ In HLL_LINEMARK (LX bol s).
Proof.
  induction n as [n IH] using lt_wf_ind. intros bol s Hn N13 Hm. destruct (LX bol s) as [|t ts] eqn:E; [intros []|].
  destruct (LX_first (length s) bol s t ts eq_refl N13 Hm E) as (sp & c & s' & r & bol' & -> & F & Sh & G1 & G2 & G3 & G4 & G5).
  intros [->|Hi].
  - inversion Sh.
  - rewrite <- G2 in Hi. revert Hi. apply (IH (length r)); auto. lia.
Qed.

(** The tokens of a line that is a comment. *)
Lemma LX_line n : forall bol body s, length body = n -> ~ In 13 body -> ~ In 10 body -> nomark bol (body ++ 10 :: s) ->
  exists junk, ~ In NEWLINE junk /\ LX bol (body ++ 10 :: s) = junk ++ NEWLINE :: LX true s.
Proof.
  induction n as [n IH] using lt_wf_ind. intros bol body s Hn N13 N10 Hm.
  destruct body as [|c body].
  - cbn [app]. exists []. split; [intros []|]. rewrite LX_cons. reflexivity.
  - cbn [app] in *. rewrite LX_cons.
    assert (Hc : c <> 13) by (intros ->; apply N13; left; reflexivity).
    assert (Hc1 : c <> 10) by (intros ->; apply N10; left; reflexivity).
    pose proof (lex_shape bol c _ Hc Hm) as Sh. pose proof (shape_tail _ _ _ _ _ Hm Sh) as Hm'.
    destruct (shape_split _ _ _ _ Sh) as (x & Ex & H1 & H2).
    destruct (lex_one bol c (body ++ 10 :: s)) as [o r]. cbn [fst snd] in *.
    assert (Ho : o <> Some NEWLINE) by (intros ->; destruct (H2 eq_refl); congruence).
    specialize (H1 Ho).
    (* the newline is still ahead *)
    assert (E : exists b', body = x ++ b' /\ r = b' ++ 10 :: s).
    { clear - Ex H1. assert (Nx : ~ In 10 x) by (intros Hi; apply H1; right; exact Hi). clear H1. revert body Ex.
      induction x as [|y x IHx]; intros body Ex; [exists body; split; [reflexivity|symmetry; exact Ex]|].
      destruct body as [|z body].
      - cbn [app] in Ex. injection Ex as <- _. exfalso. apply Nx. left. reflexivity.
      - cbn [app] in Ex. injection Ex as <- Ex. destruct (IHx ltac:(intros Hi; apply Nx; right; exact Hi) body Ex) as (b' & -> & Er).
        exists b'. split; [reflexivity|exact Er]. }
    destruct E as (b' & -> & ->).
    destruct (IH (length b') ltac:(cbn [length] in Hn; rewrite app_length in Hn; lia) (c =? 10) b' s eq_refl) as (junk & J & Ej).
    + intros Hi. apply N13. right. apply in_or_app. right. exact Hi.
    + intros Hi. apply N10. right. apply in_or_app. right. exact Hi.
    + exact Hm'.
    + rewrite Ej. destruct o as [t|].
      * exists (t :: junk). split; [|reflexivity]. intros [->|Hi]; [congruence|exact (J Hi)].
      * exists junk. split; [exact J|reflexivity].
Qed.

Lemma LX_last_line n : forall bol body, length body = n -> ~ In 13 body -> ~ In 10 body -> nomark bol body -> ~ In NEWLINE (LX bol body).
Proof.
  induction n as [n IH] using lt_wf_ind. intros bol s Hn N13 N10 Hm. destruct (LX bol s) as [|t ts] eqn:E; [intros []|].
  destruct (LX_first (length s) bol s t ts eq_refl N13 Hm E) as (sp & c & s' & r & bol' & -> & F & Sh & G1 & G2 & G3 & G4 & G5).
  destruct (shape_split _ _ _ _ Sh) as (x & Ex & H1 & H2).
  intros [->|Hi].
  - destruct (H2 eq_refl) as (_ & ->). apply N10. apply in_or_app. right. left. reflexivity.
  - rewrite <- G2 in Hi. revert Hi. apply (IH (length r)); auto; [lia|].
    intros Hi. apply N10. apply in_or_app. right. right. rewrite Ex. apply in_or_app. right. exact Hi.
Qed.

Lemma LX_newline_back n : forall bol s junk ts, length s = n -> ~ In 13 s -> nomark bol s -> ~ In NEWLINE junk ->
  LX bol s = junk ++ NEWLINE :: ts ->
  exists body s', s = body ++ 10 :: s' /\ ~ In 10 body /\ LX true s' = ts /\ nomark true s' /\ ~ In 13 s' /\ (length s' < n)%nat.
Proof.
  induction n as [n IH] using lt_wf_ind. intros bol s junk ts Hn N13 Hm J H.
  assert (Sp : forall sp, Forall (fun c => c = 32 \/ c = 9) sp -> ~ In 10 sp).
  { intros sp F Hi. rewrite Forall_forall in F. destruct (F 10 Hi); discriminate. }
  destruct junk as [|t junk]; cbn [app] in H.
  - destruct (LX_first (length s) bol s _ _ eq_refl N13 Hm H) as (sp & c & s' & r & bol' & -> & F & Sh & G1 & G2 & G3 & G4 & G5).
    inversion Sh; subst. exists sp, r. split; [reflexivity|]. split; [apply Sp; exact F|].
    split; [reflexivity|]. split; [exact G1|]. split; [exact G3|lia].
  - destruct (LX_first (length s) bol s _ _ eq_refl N13 Hm H) as (sp & c & s' & r & bol' & -> & F & Sh & G1 & G2 & G3 & G4 & G5).
    destruct (shape_split _ _ _ _ Sh) as (x & Ex & H1 & H2).
    assert (Ht : Some t <> Some NEWLINE) by (intros E; inversion E; subst; apply J; left; reflexivity). specialize (H1 Ht).
    destruct (IH (length r) ltac:(lia) bol' r junk ts eq_refl G3 G1 ltac:(intros Hi; apply J; right; exact Hi) G2)
      as (body & s2 & -> & B & K1 & K2 & K3 & K4).
    exists (sp ++ (c :: x) ++ body), s2. split; [subst s'; cbn [app]; rewrite <- !app_assoc; cbn [app]; rewrite <- app_assoc; reflexivity|].
    split; [|split; [exact K1|split; [exact K2|split; [exact K3|lia]]]].
    intros Hi. apply in_app_or in Hi. destruct Hi as [Hi|Hi]; [exact (Sp sp F Hi)|].
    apply in_app_or in Hi. destruct Hi as [Hi|Hi]; [exact (H1 Hi)|exact (B Hi)].
Qed.

(** ** Texts and derivations *)

Lemma breaks_app s r : breaks s -> breaks r -> breaks (s ++ r).
Proof. destruct s; auto. Qed.

Lemma word_char_lex bol c w r : word_char c -> Forall word_char w -> breaks r -> lex_one bol c (w ++ r) = (Some (SYMBOL (c :: w)), r).
Proof.
  intros Hc F B. unfold lex_one. rewrite (symbol_run_word w r F B). pose proof Hc as Hc'. apply symbol_char_spec in Hc'.
  unfold word_char in Hc. replace ((c =? 10) || (c =? 13)) with false by lia. replace (c =? 59) with false by lia.
  replace (c =? 40) with false by lia. replace (c =? 41) with false by lia. rewrite Hc'. reflexivity.
Qed.

Lemma written_tokens p s f : written p s f -> forall bol r, breaks r -> ~ In 13 (s ++ r) -> nomark bol (s ++ r) ->
  exists ts bol', derives p 0 ts f /\ LX bol (s ++ r) = ts ++ LX bol' r /\ nomark bol' r.
Proof.
  induction 1 as [p|p c s f Hc W IH|p body s f Hb W IH|p w s f Hw F B W IH|p w s f H34 H10 H0 W IH|p a g s f Hp Wa IHa W IH];
    intros bol r Br N13 Hm.
  - exists [], bol. split; [constructor|]. split; [reflexivity|exact Hm].
  - cbn [app] in *. destruct (IH (c =? 10) r Br) as (ts & bol' & D & E & M).
    { intros Hi. apply N13. right. exact Hi. }
    { apply (nomark_tail bol []). exact Hm. }
    rewrite LX_cons. destruct Hc as [-> | [-> | ->]].
    + exists ts, bol'. split; [exact D|]. split; [exact E|exact M].
    + exists ts, bol'. split; [exact D|]. split; [exact E|exact M].
    + exists (NEWLINE :: ts), bol'. split; [constructor; exact D|]. split; [|exact M]. cbn [app]. rewrite <- E. reflexivity.
  - rewrite <- app_comm_cons, <- app_assoc in *. cbn [app] in *.
    rewrite LX_cons, (lex_semicolon _ _ Hm). cbn [fst snd].
    destruct (LX_line (length body) (59 =? 10) body (s ++ r) eq_refl) as (junk & J & Ej).
    { intros Hi. apply N13. right. apply in_or_app. left. exact Hi. }
    { exact Hb. }
    { apply (nomark_tail bol []). exact Hm. }
    destruct (IH true r Br) as (ts & bol' & D & E & M).
    { intros Hi. apply N13. right. apply in_or_app. right. right. exact Hi. }
    { exact (nomark_tail bol (59 :: body) (s ++ r) 10 Hm). }
    exists (COMMENT :: junk ++ NEWLINE :: ts), bol'. split; [constructor; assumption|]. split; [|exact M].
    rewrite Ej, E. cbn [app]. rewrite <- app_assoc. reflexivity.
  - destruct w as [|c w]; [congruence|]. inversion F as [|x y Hc F']; subst. rewrite <- app_assoc in *. cbn [app] in *.
    rewrite LX_cons, (word_char_lex bol c w (s ++ r) Hc F' (breaks_app s r B Br)). cbn [fst snd].
    assert (Hc10 : c =? 10 = false) by (unfold word_char in Hc; lia). rewrite Hc10.
    destruct (IH false r Br) as (ts & bol' & D & E & M).
    { intros Hi. apply N13. right. apply in_or_app. right. exact Hi. }
    { destruct (@exists_last _ (c :: w) ltac:(discriminate)) as (w0 & d & Ew).
      rewrite app_comm_cons, Ew, <- app_assoc in Hm. apply (nomark_tail_f bol w0 _ d). exact Hm. }
    exists (SYMBOL (c :: w) :: ts), bol'. split; [constructor; exact D|]. split; [|exact M]. rewrite E. reflexivity.
  - rewrite <- app_comm_cons, <- app_assoc in *. cbn [app] in *. rewrite LX_cons.
    assert (E1 : lex_one bol 34 (w ++ 34 :: s ++ r) = (Some (QSTRING w), s ++ r)).
    { unfold lex_one. rewrite (qstring_word w (s ++ r) H34 H10 H0). reflexivity. }
    rewrite E1. cbn [fst snd].
    destruct (IH (34 =? 10) r Br) as (ts & bol' & D & E & M).
    { intros Hi. apply N13. right. apply in_or_app. right. right. exact Hi. }
    { apply (nomark_tail bol (34 :: w) _ 34). exact Hm. }
    exists (QSTRING w :: ts), bol'. split; [constructor; exact D|]. split; [|exact M]. rewrite E. reflexivity.
  - rewrite <- app_comm_cons, <- app_assoc in *. cbn [app] in *. rewrite LX_cons.
    change (lex_one bol 40 (a ++ 41 :: s ++ r)) with (Some OPAREN, a ++ 41 :: s ++ r). cbn [fst snd].
    destruct (IHa (40 =? 10) (41 :: s ++ r)) as (ta & b1 & Da & Ea & Ma).
    { cbn [breaks]. unfold word_char. lia. }
    { intros Hi. apply N13. right. exact Hi. }
    { apply (nomark_tail bol []). exact Hm. }
    destruct (IH (41 =? 10) r Br) as (ts & bol' & D & E & M).
    { intros Hi. apply N13. right. apply in_or_app. right. right. exact Hi. }
    { apply (nomark_tail b1 []). exact Ma. }
    exists (OPAREN :: ta ++ CPAREN :: ts), bol'. split; [constructor; assumption|]. split; [|exact M].
    rewrite Ea, LX_cons. change (lex_one b1 41 (s ++ r)) with (Some CPAREN, s ++ r). cbn [fst snd app].
    rewrite E, <- app_assoc. reflexivity.
Qed.

Definition blanks (sp : list N) : Prop := Forall (fun c => c = 32 \/ c = 9) sp.

Lemma blanks_break sp : blanks sp -> breaks sp.
Proof. intros H. destruct H as [|c sp Hc H]; [exact I|]. cbn [breaks]. unfold word_char. lia. Qed.

Lemma written_end p s f : written p s f -> forall sp, blanks sp -> written p (s ++ sp) f.
Proof.
  induction 1 as [p|p c s f Hc W IH|p body s f Hb W IH|p w s f Hw F B W IH|p w s f H34 H10 H0 W IH|p a g s f Hp Wa IHa W IH];
    intros sp Hs.
  - cbn [app]. unfold blanks in Hs. induction Hs as [|c sp Hc Hs IH]; [constructor|]. apply W_blank; [lia|exact IH].
  - cbn [app]. apply W_blank; auto.
  - rewrite <- app_comm_cons, <- app_assoc. cbn [app]. apply W_comment; auto.
  - rewrite <- app_assoc. apply W_symbol; auto. apply breaks_app; [exact B|apply blanks_break; exact Hs].
  - rewrite <- app_comm_cons, <- app_assoc. cbn [app]. apply W_string; auto.
  - rewrite <- app_comm_cons, <- app_assoc. cbn [app]. apply W_list; auto.
Qed.

Lemma written_start p s f sp : blanks sp -> written p s f -> written p (sp ++ s) f.
Proof. intros Hs W. induction Hs as [|c sp Hc Hs IH]; [exact W|]. cbn [app]. apply W_blank; [lia|exact IH]. Qed.

Lemma tokens_written p m ts f : derives p m ts f -> m = O -> forall bol s rest, ~ In 13 s -> nomark bol s ->
  LX bol s = ts ++ rest ->
  exists s1 s2 bol', s = s1 ++ s2 /\ written p s1 f /\ LX bol' s2 = rest /\ nomark bol' s2 /\ ~ In 13 s2.
Proof.
  induction 1 as [p m|p m ts f D IH|p m junk ts f J D IH|p m w ts f D IH|p m w ts f D IH|p m a g ts f Hp Da IHa D IH|
                  p m k n q ts g us f Hk Hm Hq Dg IHg D IH]; intros Em bol s rest N13 Hmk H; subst m.
  - exists [], s, bol. split; [reflexivity|]. split; [constructor|]. auto.
  - cbn [app] in H. destruct (LX_first _ bol s _ _ eq_refl N13 Hmk H) as (sp & c & s' & r & bol' & -> & F & Sh & G1 & G2 & G3 & G4 & G5).
    inversion Sh; subst r c. destruct (IH eq_refl bol' s' rest G3 G1 G2) as (s1 & s2 & b2 & -> & W & K).
    exists (sp ++ 10 :: s1), s2, b2. split; [rewrite <- app_assoc; reflexivity|]. split; [|exact K].
    apply written_start; [exact F|]. apply W_blank; auto.
  - rewrite <- app_comm_cons, <- app_assoc in H. cbn [app] in H.
    destruct (LX_first _ bol s _ _ eq_refl N13 Hmk H) as (sp & c & s' & r & bol' & -> & F & Sh & G1 & G2 & G3 & G4 & G5).
    inversion Sh; subst r c.
    destruct (LX_newline_back _ bol' s' junk (ts ++ rest) eq_refl G3 G1 J G2) as (body & s3 & -> & B & K1 & K2 & K3 & K4).
    destruct (IH eq_refl true s3 rest K3 K2 K1) as (s1 & s2 & b2 & -> & W & K).
    exists (sp ++ 59 :: body ++ 10 :: s1), s2, b2. split; [rewrite <- !app_assoc; cbn [app]; rewrite <- app_assoc; reflexivity|].
    split; [|exact K]. apply written_start; [exact F|]. apply W_comment; auto.
  - cbn [app] in H. destruct (LX_first _ bol s _ _ eq_refl N13 Hmk H) as (sp & c & s' & r & bol' & -> & F & Sh & G1 & G2 & G3 & G4 & G5).
    inversion Sh as [| | | |w0 r0 E Hc Fw Br| | |]; subst.
    destruct (IH eq_refl _ r rest G3 G1 G2) as (s1 & s2 & b2 & -> & W & K).
    exists (sp ++ (c :: w0) ++ s1), s2, b2. split; [rewrite <- !app_assoc; cbn [app]; rewrite <- ?app_assoc; reflexivity|].
    split; [|exact K]. apply written_start; [exact F|]. apply W_symbol; auto; [discriminate|].
    destruct s1; [exact I|exact Br].
  - cbn [app] in H. destruct (LX_first _ bol s _ _ eq_refl N13 Hmk H) as (sp & c & s' & r & bol' & -> & F & Sh & G1 & G2 & G3 & G4 & G5).
    inversion Sh as [| | | | | |w0 r0 Hc E H34 H10 H0|]; subst.
    destruct (IH eq_refl _ r rest G3 G1 G2) as (s1 & s2 & b2 & -> & W & K).
    exists (sp ++ 34 :: w ++ 34 :: s1), s2, b2. split; [rewrite <- !app_assoc; cbn [app]; rewrite <- ?app_assoc; reflexivity|].
    split; [|exact K]. apply written_start; [exact F|]. apply W_string; auto.
  - rewrite <- app_comm_cons, <- app_assoc in H. cbn [app] in H.
    destruct (LX_first _ bol s _ _ eq_refl N13 Hmk H) as (sp & c & s' & r & bol' & -> & F & Sh & G1 & G2 & G3 & G4 & G5).
    inversion Sh; subst r c.
    destruct (IHa eq_refl bol' s' _ G3 G1 G2) as (a1 & s3 & b3 & -> & Wa & K1 & K2 & K3).
    destruct (LX_first _ b3 s3 _ _ eq_refl K3 K2 K1) as (sp2 & c2 & s4 & r2 & b4 & -> & F2 & Sh2 & L1 & L2 & L3 & L4 & L5).
    inversion Sh2; subst r2 c2.
    destruct (IH eq_refl b4 s4 rest L3 L1 L2) as (s1 & s2 & b2 & -> & W & K).
    exists (sp ++ 40 :: (a1 ++ sp2) ++ 41 :: s1), s2, b2.
    split; [repeat (rewrite <- ?app_assoc; cbn [app]); reflexivity|].
    split; [|exact K]. apply written_start; [exact F|]. apply W_list; auto. apply written_end; assumption.
  - cbn [app] in H. exfalso. apply (LX_no_linemark (length s) bol s eq_refl N13 Hmk). rewrite H. left. reflexivity.
Qed.

Lemma first_newline (s : list N) : ~ In 10 s \/ exists body s', s = body ++ 10 :: s' /\ ~ In 10 body.
Proof.
  induction s as [|c s IH]; [left; intros []|]. destruct (N.eq_dec c 10) as [->|Hc].
  - right. exists [], s. split; [reflexivity|intros []].
  - destruct IH as [IH|(body & s' & -> & B)].
    + left. intros [?|?]; congruence || contradiction.
    + right. exists (c :: body), s'. split; [reflexivity|]. intros [?|?]; congruence || contradiction.
Qed.

Lemma file_tokens s f : ~ In 13 s -> nomark true s -> (written_file s f <-> derives_file (LX true s) f).
Proof.
  intros N13 Hm. split.
  - intros (s1 & W & H).
    assert (Hr : exists r, s = s1 ++ r /\ (r = [] \/ exists body, r = 59 :: body /\ ~ In 10 body)).
    { destruct H as [->|(body & -> & B)]; [exists []; rewrite app_nil_r; auto|eauto 6]. }
    destruct Hr as (r & -> & Hr).
    destruct (written_tokens 0 s1 f W true r) as (ts & b' & D & E & M); auto.
    { destruct Hr as [->|(body & -> & B)]; [exact I|]. cbn [breaks]. unfold word_char. lia. }
    exists ts. split; [exact D|]. rewrite E. destruct Hr as [->|(body & -> & B)]; [left; apply app_nil_r|right].
    exists (LX false body). split; [rewrite LX_cons, (lex_semicolon _ _ M); reflexivity|].
    apply (LX_last_line (length body)); auto.
    + intros Hi. apply N13. apply in_or_app. right. right. exact Hi.
    + exact (nomark_tail b' [] body 59 M).
  - intros (t1 & D & H).
    assert (Hr : exists r, LX true s = t1 ++ r /\ (r = [] \/ exists junk, r = COMMENT :: junk /\ ~ In NEWLINE junk)).
    { destruct H as [->|(junk & -> & B)]; [exists []; rewrite app_nil_r; auto|eauto 6]. }
    destruct Hr as (r & E & Hr).
    destruct (tokens_written 0 0 t1 f D eq_refl true s r N13 Hm E) as (s1 & s2 & b2 & -> & W & K1 & K2 & K3).
    destruct Hr as [->|(junk & -> & J)].
    + exists (s1 ++ s2). split; [|left; reflexivity]. apply written_end; [exact W|].
      exact (LX_nil (length s2) b2 s2 eq_refl K3 K2 K1).
    + destruct (LX_first _ b2 s2 _ _ eq_refl K3 K2 K1) as (sp & c & s' & r & bol' & -> & F & Sh & G1 & G2 & G3 & G4 & G5).
      inversion Sh; subst r c. exists (s1 ++ sp). split; [apply written_end; assumption|]. right. exists s'.
      split; [rewrite <- app_assoc; reflexivity|].
      destruct (first_newline s') as [B|(body & s3 & -> & B)]; [exact B|]. exfalso.
      destruct (LX_line (length body) bol' body s3 eq_refl) as (j2 & J2 & E2); auto.
      { intros Hi. apply G3. apply in_or_app. left. exact Hi. }
      apply J. rewrite <- G2, E2. apply in_or_app. right. left. reflexivity.
Qed.

Theorem parser_exact s f : no_marks s -> ~ In 13 s -> (cil_parser s = Parsed f <-> written_file s f).
Proof.
  intros Hm N13. apply no_marks_nomark in Hm. rewrite (file_tokens s f N13 Hm). change (cil_parser s) with (parse_tokens (LX true s)). split.
  - apply P_file. apply (LX_no_linemark (length s)); auto.
  - apply derives_file_P.
Qed.
