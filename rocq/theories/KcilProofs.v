(** Proofs about writing a conditional as CIL and reading it back. *)
From Coq Require Import Arith.
From Verif Require Import Base CondModel CondSpec CondProofs2 CilparseModel CilparseSpec CilparseProofs CilparseMain
  CilexprModel CilexprSpec CilcondModel CilcondSpec CilcondProofs KcilModel KcilSpec.

Lemma same_str_spec a : forall b, same_str a b = true <-> a = b.
Proof.
  induction a as [|x a IH]; intros [|y b]; cbn [same_str]; split; try congruence; try discriminate.
  - intros H. apply andb_true_iff in H. destruct H as (H1 & H2). apply N.eqb_eq in H1. apply IH in H2. congruence.
  - intros H. inversion H; subst. apply andb_true_iff. split; [apply N.eqb_refl|apply IH; reflexivity].
Qed.

Lemma keyword_plain w : ~ reserved w -> keyword_of w = None.
Proof.
  unfold reserved. cbn [In]. intros H. unfold keyword_of.
  repeat (match goal with |- context [same_str w ?x] => let E := fresh in destruct (same_str w x) eqn:E;
    [exfalso; apply same_str_spec in E; subst w; apply H; unfold w_and, w_or, w_not, w_eq, w_neq, w_xor, w_all, w_range; tauto|clear E] end).
  reflexivity.
Qed.

(** ** The text and the tree of a formula *)
Section Names.
  Context (names : list (list N)).

  Definition nm (v : N) : list N := match bool_name names v with Some w => w | None => [] end.

  Definition op2 (w x y : list N) : list N := 40 :: w ++ 32 :: x ++ 32 :: y ++ [41].
  Definition op1 (w x : list N) : list N := 40 :: w ++ 32 :: x ++ [41].

  Fixpoint tx (e : bexp) : list N :=
    match e with
    | BVar v => nm v
    | BNot a => op1 w_not (tx a)
    | BOr a b => op2 w_or (tx a) (tx b)
    | BAnd a b => op2 w_and (tx a) (tx b)
    | BXor a b => op2 w_xor (tx a) (tx b)
    | BEq a b => op2 w_eq (tx a) (tx b)
    | BNeq a b => op2 w_neq (tx a) (tx b)
    end.

  Fixpoint tr (e : bexp) : ptree :=
    match e with
    | BVar v => PName (nm v)
    | BNot a => PList [PName w_not; tr a]
    | BOr a b => PList [PName w_or; tr a; tr b]
    | BAnd a b => PList [PName w_and; tr a; tr b]
    | BXor a b => PList [PName w_xor; tr a; tr b]
    | BEq a b => PList [PName w_eq; tr a; tr b]
    | BNeq a b => PList [PName w_neq; tr a; tr b]
    end.

  Definition known (e : bexp) : Prop := forall v, In v (vars e) -> bool_name names v <> None.

  Lemma tx_printed l e : writes l e -> known e -> forall st r, cond_to_str names st (l ++ r) = cond_to_str names (tx e :: st) r.
  Proof.
    unfold known.
    induction 1 as [v|l a x W IH|l a m b x W1 IH1 W2 IH2|l a m b x W1 IH1 W2 IH2|l a m b x W1 IH1 W2 IH2|l a m b x W1 IH1 W2 IH2|l a m b x W1 IH1 W2 IH2];
      intros K st r; cbn [vars] in K.
    - cbn [app cond_to_str t_type t_bool tx]. change (1 =? COND_BOOL) with true. cbn iota. unfold nm.
      specialize (K v (or_introl eq_refl)). destruct (bool_name names v); [reflexivity|congruence].
    - rewrite <- app_assoc, IH by exact K. reflexivity.
    - rewrite <- !app_assoc, IH1, IH2 by (intros v Hv; apply K; apply in_or_app; auto). reflexivity.
    - rewrite <- !app_assoc, IH1, IH2 by (intros v Hv; apply K; apply in_or_app; auto). reflexivity.
    - rewrite <- !app_assoc, IH1, IH2 by (intros v Hv; apply K; apply in_or_app; auto). reflexivity.
    - rewrite <- !app_assoc, IH1, IH2 by (intros v Hv; apply K; apply in_or_app; auto). reflexivity.
    - rewrite <- !app_assoc, IH1, IH2 by (intros v Hv; apply K; apply in_or_app; auto). reflexivity.
  Qed.

  Definition wordy (e : bexp) : Prop := forall v, In v (vars e) -> nm v <> [] /\ Forall word_char (nm v).

  Lemma written_word p w s f : w <> [] -> Forall word_char w -> breaks s -> written (S p) s f -> written (S p) (w ++ s) (PName w :: f).
  Proof. intros. apply W_symbol; assumption. Qed.

  Lemma breaks_blank c s : c = 32 \/ c = 10 \/ c = 40 \/ c = 41 -> breaks (c :: s).
  Proof. intros H. cbn [breaks]. unfold word_char. lia. Qed.

  Ltac word := unfold w_not, w_or, w_and, w_xor, w_eq, w_neq, w_booleanif, w_true, w_false, word_char; repeat (apply Forall_cons; [lia|]); apply Forall_nil.

  Lemma op2_written p w x y tx' ty s f : w <> [] -> Forall word_char w ->
    (S p < N.to_nat 4096)%nat ->
    (forall s f, breaks s -> written (S (S p)) s f -> written (S (S p)) (x ++ s) (tx' :: f)) ->
    (forall s f, breaks s -> written (S (S p)) s f -> written (S (S p)) (y ++ s) (ty :: f)) ->
    written (S p) s f -> written (S p) (op2 w x y ++ s) (PList [PName w; tx'; ty] :: f).
  Proof.
    intros Nw Fw Hp Hx Hy W. unfold op2.
    replace ((40 :: w ++ 32 :: x ++ 32 :: y ++ [41]) ++ s) with (40 :: (w ++ 32 :: x ++ 32 :: y ++ []) ++ 41 :: s).
    - apply W_list; [exact Hp| |exact W].
      apply W_symbol; [exact Nw|exact Fw|apply breaks_blank; auto|].
      apply W_blank; [auto|]. apply Hx; [apply breaks_blank; auto|].
      apply W_blank; [auto|]. apply Hy; [exact I|]. apply W_end.
    - cbn [app]. repeat (rewrite <- ?app_assoc; cbn [app]). reflexivity.
  Qed.

  Lemma tx_written e : wordy e -> forall p s f, (p + height e < N.to_nat 4096)%nat -> breaks s ->
    written (S p) s f -> written (S p) (tx e ++ s) (tr e :: f).
  Proof.
    unfold wordy.
    assert (Two : forall w a b,
      (forall p s f, (p + height a < N.to_nat 4096)%nat -> breaks s -> written (S p) s f -> written (S p) (tx a ++ s) (tr a :: f)) ->
      (forall p s f, (p + height b < N.to_nat 4096)%nat -> breaks s -> written (S p) s f -> written (S p) (tx b ++ s) (tr b :: f)) ->
      w <> [] -> Forall word_char w -> forall p s f, (p + S (Nat.max (height a) (height b)) < N.to_nat 4096)%nat -> breaks s ->
      written (S p) s f -> written (S p) (op2 w (tx a) (tx b) ++ s) (PList [PName w; tr a; tr b] :: f)).
    { intros w a b Ha Hb Nw Fw p s f H Br W. apply op2_written; auto; [lia| |]; intros s' f' B' W'; [apply Ha|apply Hb]; auto; lia. }
    induction e as [v|a IH|a IHa b IHb|a IHa b IHb|a IHa b IHb|a IHa b IHb|a IHa b IHb]; intros K p s f H Br W; cbn [tx tr height vars] in *.
    - destruct (K v (or_introl eq_refl)). apply W_symbol; auto.
    - unfold op1. replace ((40 :: w_not ++ 32 :: tx a ++ [41]) ++ s) with (40 :: (w_not ++ 32 :: tx a ++ []) ++ 41 :: s).
      + apply W_list; [lia| |exact W]. apply W_symbol; [discriminate|word|apply breaks_blank; auto|].
        apply W_blank; [auto|]. apply IH; [exact K|lia|exact I|apply W_end].
      + cbn [app]. repeat (rewrite <- ?app_assoc; cbn [app]). reflexivity.
    - apply Two; auto; try discriminate; try word; [apply IHa|apply IHb]; intros v Hv; apply K; apply in_or_app; auto.
    - apply Two; auto; try discriminate; try word; [apply IHa|apply IHb]; intros v Hv; apply K; apply in_or_app; auto.
    - apply Two; auto; try discriminate; try word; [apply IHa|apply IHb]; intros v Hv; apply K; apply in_or_app; auto.
    - apply Two; auto; try discriminate; try word; [apply IHa|apply IHb]; intros v Hv; apply K; apply in_or_app; auto.
    - apply Two; auto; try discriminate; try word; [apply IHa|apply IHb]; intros v Hv; apply K; apply in_or_app; auto.
  Qed.

  Lemma tx_chars e c : wordy e -> In c (tx e) -> word_char c \/ c = 32 \/ c = 40 \/ c = 41.
  Proof.
    unfold wordy.
    assert (Two : forall w x y, Forall word_char w -> (In c x -> word_char c \/ c = 32 \/ c = 40 \/ c = 41) ->
      (In c y -> word_char c \/ c = 32 \/ c = 40 \/ c = 41) -> In c (op2 w x y) -> word_char c \/ c = 32 \/ c = 40 \/ c = 41).
    { intros w x y F Hx Hy H. unfold op2 in H. cbn [In] in H. rewrite in_app_iff in H. cbn [In] in H. rewrite in_app_iff in H.
      cbn [In] in H. rewrite in_app_iff in H. cbn [In] in H. rewrite Forall_forall in F. specialize (F c).
      destruct H as [H|[H|[H|[H|[H|[H|[H|[]]]]]]]]; auto. }
    induction e as [v|a IH|a IHa b IHb|a IHa b IHb|a IHa b IHb|a IHa b IHb|a IHa b IHb]; intros K H; cbn [tx vars] in *.
    - destruct (K v (or_introl eq_refl)) as (_ & F). rewrite Forall_forall in F. left. apply F. exact H.
    - unfold op1 in H. cbn [In] in H. rewrite in_app_iff in H. cbn [In] in H. rewrite in_app_iff in H. cbn [In] in H.
      destruct H as [H|[H|[H|[H|[H|[]]]]]]; auto. left. assert (F : Forall word_char w_not) by word. rewrite Forall_forall in F. apply F. exact H.
    - eapply (Two w_or); [word|apply IHa|apply IHb|exact H]; intros v Hv; apply K; apply in_or_app; auto.
    - eapply (Two w_and); [word|apply IHa|apply IHb|exact H]; intros v Hv; apply K; apply in_or_app; auto.
    - eapply (Two w_xor); [word|apply IHa|apply IHb|exact H]; intros v Hv; apply K; apply in_or_app; auto.
    - eapply (Two w_eq); [word|apply IHa|apply IHb|exact H]; intros v Hv; apply K; apply in_or_app; auto.
    - eapply (Two w_neq); [word|apply IHa|apply IHb|exact H]; intros v Hv; apply K; apply in_or_app; auto.
  Qed.

  (** ** The condition read from the tree *)
  Context (code : list N -> N) (tb : table).

  Definition num (v : N) : N := number tb (code (nm v)).

  Fixpoint rn (e : bexp) : bexp :=
    match e with
    | BVar v => BVar (num v)
    | BNot a => BNot (rn a)
    | BOr a b => BOr (rn a) (rn b) | BAnd a b => BAnd (rn a) (rn b) | BXor a b => BXor (rn a) (rn b)
    | BEq a b => BEq (rn a) (rn b) | BNeq a b => BNeq (rn a) (rn b)
    end.

  Definition good (e : bexp) : Prop := forall v, In v (vars e) -> keyword_of (nm v) = None /\ tb (code (nm v)) <> None.

  Lemma tr_tree e : good e -> shape FBool (intern code (tr e)) = true /\ bx tb (intern code (tr e)) = rn e /\
    (forall n, In n (CilexprSpec.names (intern code (tr e))) -> tb n <> None) /\ depth (intern code (tr e)) = cells e.
  Proof.
    unfold good.
    induction e as [v|a IH|a IHa b IHb|a IHa b IHb|a IHa b IHb|a IHa b IHb|a IHa b IHb]; intros K; cbn [vars] in K.
    1: { destruct (K v (or_introl eq_refl)) as (E & D). cbn [tr intern rn cells]. rewrite E.
         split; [reflexivity|]. split; [reflexivity|]. split; [|reflexivity]. intros n [<-|[]]. exact D. }
    1: { destruct (IH K) as (A1 & A2 & A3 & A4).
         change (intern code (tr (BNot a))) with (TList [TKey KNot; intern code (tr a)]).
         cbn [shape bx CilexprSpec.names flat_map depth rn cells]. rewrite A1, A2, A4. do 2 (split; [reflexivity|]).
         split; [|reflexivity]. intros n. rewrite app_nil_r. apply A3. }
    all: destruct (IHa (fun v Hv => K v (in_or_app _ _ v (or_introl Hv)))) as (A1 & A2 & A3 & A4);
      destruct (IHb (fun v Hv => K v (in_or_app _ _ v (or_intror Hv)))) as (B1 & B2 & B3 & B4).
    - change (intern code (tr (BOr a b))) with (TList [TKey KOr; intern code (tr a); intern code (tr b)]).
      cbn [shape bx CilexprSpec.names flat_map depth rn cells]. rewrite A1, A2, A4, B1, B2, B4. do 2 (split; [reflexivity|]).
      split; [|reflexivity]. intros n. cbn [app]. rewrite app_nil_r, in_app_iff. intros [H|H]; auto.
    - change (intern code (tr (BAnd a b))) with (TList [TKey KAnd; intern code (tr a); intern code (tr b)]).
      cbn [shape bx CilexprSpec.names flat_map depth rn cells]. rewrite A1, A2, A4, B1, B2, B4. do 2 (split; [reflexivity|]).
      split; [|reflexivity]. intros n. cbn [app]. rewrite app_nil_r, in_app_iff. intros [H|H]; auto.
    - change (intern code (tr (BXor a b))) with (TList [TKey KXor; intern code (tr a); intern code (tr b)]).
      cbn [shape bx CilexprSpec.names flat_map depth rn cells]. rewrite A1, A2, A4, B1, B2, B4. do 2 (split; [reflexivity|]).
      split; [|reflexivity]. intros n. cbn [app]. rewrite app_nil_r, in_app_iff. intros [H|H]; auto.
    - change (intern code (tr (BEq a b))) with (TList [TKey KEq; intern code (tr a); intern code (tr b)]).
      cbn [shape bx CilexprSpec.names flat_map depth rn cells]. rewrite A1, A2, A4, B1, B2, B4. do 2 (split; [reflexivity|]).
      split; [|reflexivity]. intros n. cbn [app]. rewrite app_nil_r, in_app_iff. intros [H|H]; auto.
    - change (intern code (tr (BNeq a b))) with (TList [TKey KNeq; intern code (tr a); intern code (tr b)]).
      cbn [shape bx CilexprSpec.names flat_map depth rn cells]. rewrite A1, A2, A4, B1, B2, B4. do 2 (split; [reflexivity|]).
      split; [|reflexivity]. intros n. cbn [app]. rewrite app_nil_r, in_app_iff. intros [H|H]; auto.
  Qed.

  Definition renum (t : tok) : tok := if t_type t =? 1 then mkT 1 (num (t_bool t)) else mkT (t_type t) 0.

  Fixpoint post (e : bexp) : list tok :=
    match e with
    | BVar v => [mkT 1 v]
    | BNot a => post a ++ [mkT 2 0]
    | BOr a b => post a ++ post b ++ [mkT 3 0]
    | BAnd a b => post a ++ post b ++ [mkT 4 0]
    | BXor a b => post a ++ post b ++ [mkT 5 0]
    | BEq a b => post a ++ post b ++ [mkT 6 0]
    | BNeq a b => post a ++ post b ++ [mkT 7 0]
    end.

  Lemma plain_post l e : writes l e -> plain_ops l -> l = post e.
  Proof.
    unfold plain_ops.
    induction 1 as [v|l a x W IH|l a m b x W1 IH1 W2 IH2|l a m b x W1 IH1 W2 IH2|l a m b x W1 IH1 W2 IH2|l a m b x W1 IH1 W2 IH2|l a m b x W1 IH1 W2 IH2];
      intros P; cbn [post].
    - reflexivity.
    - rewrite <- IH by (intros t Ht; apply P; apply in_or_app; auto).
      assert (E : t_bool (mkT 2 x) = 0) by (apply P; [apply in_or_app; right; left; reflexivity|discriminate]). cbn in E. subst x. reflexivity.
    - rewrite <- IH1, <- IH2 by (intros t Ht; apply P; rewrite !in_app_iff; auto).
      assert (E : t_bool (mkT 3 x) = 0) by (apply P; [rewrite !in_app_iff; right; right; left; reflexivity|discriminate]). cbn in E. subst x. reflexivity.
    - rewrite <- IH1, <- IH2 by (intros t Ht; apply P; rewrite !in_app_iff; auto).
      assert (E : t_bool (mkT 4 x) = 0) by (apply P; [rewrite !in_app_iff; right; right; left; reflexivity|discriminate]). cbn in E. subst x. reflexivity.
    - rewrite <- IH1, <- IH2 by (intros t Ht; apply P; rewrite !in_app_iff; auto).
      assert (E : t_bool (mkT 5 x) = 0) by (apply P; [rewrite !in_app_iff; right; right; left; reflexivity|discriminate]). cbn in E. subst x. reflexivity.
    - rewrite <- IH1, <- IH2 by (intros t Ht; apply P; rewrite !in_app_iff; auto).
      assert (E : t_bool (mkT 6 x) = 0) by (apply P; [rewrite !in_app_iff; right; right; left; reflexivity|discriminate]). cbn in E. subst x. reflexivity.
    - rewrite <- IH1, <- IH2 by (intros t Ht; apply P; rewrite !in_app_iff; auto).
      assert (E : t_bool (mkT 7 x) = 0) by (apply P; [rewrite !in_app_iff; right; right; left; reflexivity|discriminate]). cbn in E. subst x. reflexivity.
  Qed.

  Lemma renum_post l e : writes l e -> map renum l = post (rn e).
  Proof.
    induction 1 as [v|l a x W IH|l a m b x W1 IH1 W2 IH2|l a m b x W1 IH1 W2 IH2|l a m b x W1 IH1 W2 IH2|l a m b x W1 IH1 W2 IH2|l a m b x W1 IH1 W2 IH2];
      cbn [post rn]; rewrite ?map_app, ?IH, ?IH1, ?IH2; reflexivity.
  Qed.

  Lemma condition_back l e : plain_table tb -> writes l e -> good e -> (cells e <= 10)%nat ->
    condition_expr tb (intern code (tr e)) = Some (map renum l).
  Proof.
    intros P W G C. destruct (tr_tree e G) as (S1 & S2 & S3 & S4).
    destruct (condition_expr_ok tb (intern code (tr e)) P) as (Y & _).
    destruct Y as (l' & E & W' & Q); [split; [split; assumption|lia]|].
    rewrite S2 in W'. rewrite E, (plain_post _ _ W' Q), (renum_post l e W). reflexivity.
  Qed.
End Names.

(** ** The whole statement *)
Ltac word := unfold w_not, w_or, w_and, w_xor, w_eq, w_neq, w_booleanif, w_true, w_false, word_char; repeat (apply Forall_cons; [lia|]); apply Forall_nil.

Lemma block_written w r s f x : w <> [] -> Forall word_char w -> written 2 r x -> written 1 s f ->
  written 1 (block_text w (Some r) ++ s) (PList (PName w :: x) :: f).
Proof.
  intros Nw Fw Wr W. unfold block_text, indent1.
  replace (([32; 32; 32; 32] ++ 40 :: w ++ 10 :: r ++ [32; 32; 32; 32] ++ [41; 10]) ++ s)
    with ([32; 32; 32; 32] ++ 40 :: (w ++ 10 :: r ++ [32; 32; 32; 32]) ++ 41 :: 10 :: s)
    by (repeat (rewrite <- ?app_assoc; cbn [app]); reflexivity).
  apply written_start; [repeat (constructor; [left; reflexivity|]); constructor|].
  apply W_list; [vm_compute; lia| |apply W_blank; auto].
  apply W_symbol; auto; [apply breaks_blank; auto|]. apply W_blank; [auto|].
  apply written_end; [exact Wr|]. repeat (constructor; [left; reflexivity|]). constructor.
Qed.

Definition listed (r : option (list N * list ptree)) (w : list N) : list ptree :=
  match r with None => [] | Some (_, x) => [PList (PName w :: x)] end.

Lemma option_block_written w r s f : w <> [] -> Forall word_char w -> rules_ok r -> written 1 s f ->
  written 1 (block_text w (text_of r) ++ s) (listed r w ++ f).
Proof.
  intros Nw Fw R W. destruct r as [[t x]|]; [|exact W]. destruct R as (R & _). cbn [text_of option_map fst listed app].
  apply block_written; assumption.
Qed.

Lemma node_written names e t f : wordy names e -> (height e < 4095)%nat -> rules_ok t -> rules_ok f ->
  written 0 (node_text (tx names e) (text_of t) (text_of f))
    [PList (PName w_booleanif :: tr names e :: listed t w_true ++ listed f w_false)].
Proof.
  intros Ew H Rt Rf. unfold node_text.
  replace (40 :: w_booleanif ++ 32 :: tx names e ++ 10 :: block_text w_true (text_of t) ++ block_text w_false (text_of f) ++ [41; 10])
    with (40 :: (w_booleanif ++ 32 :: tx names e ++ 10 :: block_text w_true (text_of t) ++ block_text w_false (text_of f) ++ []) ++ 41 :: [10])
    by (repeat (rewrite <- ?app_assoc; cbn [app]); reflexivity).
  apply W_list; [vm_compute; lia| |apply W_blank; [auto|apply W_end]].
  apply W_symbol; [discriminate|word|apply breaks_blank; auto|]. apply W_blank; [auto|].
  apply tx_written; [exact Ew|lia|apply breaks_blank; auto|]. apply W_blank; [auto|].
  apply option_block_written; [discriminate|word|exact Rt|].
  replace (listed f w_false) with (listed f w_false ++ []) by apply app_nil_r.
  apply option_block_written; [discriminate|word|exact Rf|apply W_end].
Qed.

Lemma no_semicolon_marks s : ~ In 59 s -> no_marks s.
Proof. intros H a b E. exfalso. apply H. rewrite E. apply in_or_app. right. left. reflexivity. Qed.

Lemma node_chars names e t f c : wordy names e -> rules_ok t -> rules_ok f -> c = 59 \/ c = 13 ->
  ~ In c (node_text (tx names e) (text_of t) (text_of f)).
Proof.
  intros Ew Rt Rf Hc H. unfold node_text in H.
  assert (B : forall w r, Forall word_char w -> rules_ok r -> ~ In c (block_text w (text_of r))).
  { intros w r F R X. destruct r as [[s x]|]; [|destruct X]. destruct R as (_ & R1 & R2). rewrite Forall_forall in F. specialize (F c).
    unfold block_text, text_of, option_map, fst, indent1 in X. cbn [In app] in X. rewrite in_app_iff in X. cbn [In] in X. rewrite in_app_iff in X. cbn [In] in X.
    unfold word_char in F. destruct Hc as [-> | ->]; intuition (try discriminate; try lia). }
  assert (F : Forall word_char w_booleanif) by word. rewrite Forall_forall in F. specialize (F c).
  pose proof (tx_chars names e c Ew) as T.
  cbn [In] in H. rewrite in_app_iff in H. cbn [In] in H. rewrite in_app_iff in H. cbn [In] in H. rewrite !in_app_iff in H. cbn [In] in H.
  pose proof (B w_true t ltac:(word) Rt). pose proof (B w_false f ltac:(word) Rf).
  unfold word_char in *. destruct Hc as [-> | ->]; intuition (try discriminate; try lia).
Qed.

Lemma named_name names v w : named names v w -> nm names v = w /\ bool_name names v = Some w.
Proof.
  intros (H & E). unfold nm, bool_name. replace (v =? 0) with false by lia. rewrite E. auto.
Qed.

Lemma blocks_listed t f : blocks_of (listed t w_true ++ listed f w_false) = Some (branches t f).
Proof. destruct t as [[s x]|], f as [[s' y]|]; reflexivity. Qed.

Theorem round_trip code tb names l e t f :
  plain_table tb -> writes l e -> declared_bools code tb names e -> (cells e <= 10)%nat -> (height e < 4095)%nat ->
  rules_ok t -> rules_ok f ->
  exists s p c l', cond_to_str names [] l = KStr s /\
    cil_parser (node_text s (text_of t) (text_of f)) = Parsed [p] /\
    read_booleanif code p = Some (c, branches t f) /\
    condition_expr tb c = Some l' /\ same_expression code tb names l l'.
Proof.
  intros P W D C H Rt Rf.
  assert (D' : forall v, In v (vars e) -> exists n, bool_name names v = Some (nm names v) /\ named names v (nm names v) /\ plain_name (nm names v) /\ tb (code (nm names v)) = Some (DLeaf n)).
  { intros v Hv. destruct (D v Hv) as (w & n & Nm & Pl & T). destruct (named_name names v w Nm) as (E1 & E2). rewrite E1. exists n. auto. }
  assert (K : known names e) by (intros v Hv; destruct (D' v Hv) as (n & E & _); congruence).
  assert (Ew : wordy names e) by (intros v Hv; destruct (D' v Hv) as (n & _ & _ & (A & B & _) & _); auto).
  assert (G : good names code tb e).
  { intros v Hv. destruct (D' v Hv) as (n & _ & _ & (_ & _ & R) & T). split; [apply keyword_plain; exact R|congruence]. }
  exists (tx names e), (PList (PName w_booleanif :: tr names e :: listed t w_true ++ listed f w_false)), (intern code (tr names e)),
    (map (renum names code tb) l).
  split; [pose proof (tx_printed names l e W K [] []) as X; rewrite app_nil_r in X; exact X|].
  split. { apply parser_exact; [apply no_semicolon_marks; apply node_chars; auto|apply node_chars; auto|].
    eexists. split; [apply node_written; assumption|left; reflexivity]. }
  split; [cbn [read_booleanif]; change (same_str w_booleanif w_booleanif) with true; cbn iota; rewrite blocks_listed; reflexivity|].
  split; [apply condition_back; assumption|].
  assert (V : forall x, In x l -> t_type x = 1 -> In (t_bool x) (vars e)).
  { clear - W. induction W as [v|l a y W IH|l a m b y W1 IH1 W2 IH2|l a m b y W1 IH1 W2 IH2|l a m b y W1 IH1 W2 IH2|l a m b y W1 IH1 W2 IH2|l a m b y W1 IH1 W2 IH2];
      intros x Hx Ht; cbn [vars].
    1: destruct Hx as [<-|[]]; left; reflexivity.
    1: apply in_app_iff in Hx; destruct Hx as [Hx|[<-|[]]]; [auto|discriminate Ht].
    all: rewrite !in_app_iff in Hx; apply in_app_iff; destruct Hx as [Hx|[Hx|[<-|[]]]]; auto; discriminate Ht. }
  assert (Sm : forall l1, (forall x, In x l1 -> In x l) -> same_expression code tb names l1 (map (renum names code tb) l1)).
  { induction l1 as [|x l1 IH]; intros Sub; cbn [map]; constructor; [|apply IH; intros y Hy; apply Sub; right; exact Hy].
    unfold renum. destruct (N.eqb_spec (t_type x) 1) as [E|E]; cbn [t_type t_bool].
    - split; [congruence|]. split; [|congruence]. intros _. destruct (D' (t_bool x) (V x (Sub x (or_introl eq_refl)) E)) as (n & _ & Nm & _ & T).
      exists (nm names (t_bool x)), n. split; [exact Nm|]. split; [exact T|]. unfold num, number. rewrite T. reflexivity.
    - split; [reflexivity|]. split; [congruence|reflexivity]. }
  apply Sm. auto.
Qed.

(** ** The same meaning *)
Theorem same_meaning code tb names l l' e (env : list N -> bool) asg asg' :
  writes l e -> same_expression code tb names l l' ->
  (forall v w, named names v w -> asg v = env w) ->
  (forall w n, tb (code w) = Some (DLeaf n) -> asg' (n + 1) = env w) ->
  exists e', writes l' e' /\ truth asg' e' = truth asg e.
Proof.
  intros W S A A'. revert l' S. unfold same_expression.
  assert (Op : forall k x (y : tok), t_type y = t_type (mkT k x) /\ (t_type (mkT k x) = 1 -> exists w n, named names (t_bool (mkT k x)) w /\ tb (code w) = Some (DLeaf n) /\ t_bool y = n + 1) /\
     (t_type (mkT k x) <> 1 -> t_bool y = 0) -> exists z, y = mkT k z).
  { intros k x [k' z] (E & _). cbn in E. subst. eauto. }
  assert (Bin : forall k l m x l', Forall2 (fun x y => t_type y = t_type x /\
     (t_type x = 1 -> exists w n, named names (t_bool x) w /\ tb (code w) = Some (DLeaf n) /\ t_bool y = n + 1) /\
     (t_type x <> 1 -> t_bool y = 0)) (l ++ m ++ [mkT k x]) l' -> exists l1 m1 z, l' = l1 ++ m1 ++ [mkT k z] /\
     Forall2 (fun x y => t_type y = t_type x /\
     (t_type x = 1 -> exists w n, named names (t_bool x) w /\ tb (code w) = Some (DLeaf n) /\ t_bool y = n + 1) /\
     (t_type x <> 1 -> t_bool y = 0)) l l1 /\ Forall2 (fun x y => t_type y = t_type x /\
     (t_type x = 1 -> exists w n, named names (t_bool x) w /\ tb (code w) = Some (DLeaf n) /\ t_bool y = n + 1) /\
     (t_type x <> 1 -> t_bool y = 0)) m m1).
  { intros k l1 m1 x l' F. apply Forall2_app_inv_l in F. destruct F as (a & b & F1 & F2 & ->).
    apply Forall2_app_inv_l in F2. destruct F2 as (c & d & F2 & F3 & ->). inversion F3 as [|? y ? ? Hy F4]; subst. inversion F4; subst.
    destruct (Op k x y Hy) as (z & ->). exists a, c, z. auto. }
  induction W as [v|l a x W IH|l a m b x W1 IH1 W2 IH2|l a m b x W1 IH1 W2 IH2|l a m b x W1 IH1 W2 IH2|l a m b x W1 IH1 W2 IH2|l a m b x W1 IH1 W2 IH2];
    intros l' S.
  - inversion S as [|? y ? ? (E & H & _) F]; subst. inversion F; subst. destruct y as [k z]. cbn in *. subst k.
    destruct (H eq_refl) as (w & n & Nm & T & ->). exists (BVar (n + 1)). split; [constructor|]. cbn [truth].
    rewrite (A' w n T), (A v w Nm). reflexivity.
  - apply Forall2_app_inv_l in S. destruct S as (l1 & q & F1 & F2 & ->). inversion F2 as [|? y ? ? Hy F3]; subst. inversion F3; subst.
    destruct (Op 2 x y Hy) as (z & ->). destruct (IH l1 F1) as (e1 & W1 & T1). exists (BNot e1). split; [constructor; exact W1|]. cbn [truth]. rewrite T1. reflexivity.
  - destruct (Bin _ _ _ _ _ S) as (l1 & m1 & z & -> & F1 & F2). destruct (IH1 l1 F1) as (e1 & V1 & T1). destruct (IH2 m1 F2) as (e2 & V2 & T2).
    exists (BOr e1 e2). split; [constructor; assumption|]. cbn [truth]. rewrite T1, T2. reflexivity.
  - destruct (Bin _ _ _ _ _ S) as (l1 & m1 & z & -> & F1 & F2). destruct (IH1 l1 F1) as (e1 & V1 & T1). destruct (IH2 m1 F2) as (e2 & V2 & T2).
    exists (BAnd e1 e2). split; [constructor; assumption|]. cbn [truth]. rewrite T1, T2. reflexivity.
  - destruct (Bin _ _ _ _ _ S) as (l1 & m1 & z & -> & F1 & F2). destruct (IH1 l1 F1) as (e1 & V1 & T1). destruct (IH2 m1 F2) as (e2 & V2 & T2).
    exists (BXor e1 e2). split; [constructor; assumption|]. cbn [truth]. rewrite T1, T2. reflexivity.
  - destruct (Bin _ _ _ _ _ S) as (l1 & m1 & z & -> & F1 & F2). destruct (IH1 l1 F1) as (e1 & V1 & T1). destruct (IH2 m1 F2) as (e2 & V2 & T2).
    exists (BEq e1 e2). split; [constructor; assumption|]. cbn [truth]. rewrite T1, T2. reflexivity.
  - destruct (Bin _ _ _ _ _ S) as (l1 & m1 & z & -> & F1 & F2). destruct (IH1 l1 F1) as (e1 & V1 & T1). destruct (IH2 m1 F2) as (e2 & V2 & T2).
    exists (BNeq e1 e2). split; [constructor; assumption|]. cbn [truth]. rewrite T1, T2. reflexivity.
Qed.


(** ** Nesting that is too deep *)
Fixpoint nots (n : nat) : list N := match n with O => [] | S n => [40; 110; 111; 116; 32] ++ nots n end.
Fixpoint not_tokens (n : nat) : list token := match n with O => [] | S n => OPAREN :: SYMBOL w_not :: not_tokens n end.

Lemma nots_snoc n s : nots n ++ [40; 110; 111; 116; 32] ++ s = nots (S n) ++ s.
Proof. induction n as [|n IH]; [reflexivity|]. change (nots (S n)) with ([40; 110; 111; 116; 32] ++ nots n) at 1. rewrite <- app_assoc, IH. reflexivity. Qed.

Lemma not_str names st : forall n b, cond_to_str names (b :: st) (repeat (mkT 2 0) n) = cond_to_str names ((nots n ++ b ++ repeat 41 n) :: st) [].
Proof.
  assert (G : forall n k b, cond_to_str names ((nots k ++ b ++ repeat 41 k) :: st) (repeat (mkT 2 0) n) = cond_to_str names ((nots (n + k) ++ b ++ repeat 41 (n + k)) :: st) []).
  { induction n as [|n IH]; intros k b; [reflexivity|]. cbn [repeat]. change (mkT 2 0 :: repeat (mkT 2 0) n) with ([mkT 2 0] ++ repeat (mkT 2 0) n).
    cbn [app]. replace (S n + k)%nat with (n + S k)%nat by lia. rewrite <- IH.
    assert (Q : nots (S k) ++ b ++ repeat 41 (S k) = 40 :: w_not ++ 32 :: (nots k ++ b ++ repeat 41 k) ++ [41]).
    { replace (repeat 41 (S k)) with (repeat 41 k ++ [41]) by (change (41 :: repeat 41 k) with (repeat 41 (S k)); symmetry; apply repeat_cons).
      cbn [nots app w_not]. rewrite <- !app_assoc. reflexivity. }
    rewrite Q. reflexivity. }
  intros n b. specialize (G n 0%nat b). cbn [nots repeat app] in G. rewrite app_nil_r in G. rewrite G. replace (n + 0)%nat with n by lia. reflexivity.
Qed.

Lemma lex_nots : forall n s, LX false (nots n ++ s) = not_tokens n ++ LX false s.
Proof.
  induction n as [|n IH]; intros s; [reflexivity|]. change (nots (S n) ++ s) with (40 :: 110 :: 111 :: 116 :: 32 :: (nots n ++ s)).
  rewrite LX_cons. change (lex_one false 40 (110 :: 111 :: 116 :: 32 :: (nots n ++ s))) with (Some OPAREN, 110 :: 111 :: 116 :: 32 :: (nots n ++ s)). cbn [fst snd].
  rewrite LX_cons. change (lex_one (40 =? 10) 110 (111 :: 116 :: 32 :: (nots n ++ s))) with (Some (SYMBOL w_not), 32 :: (nots n ++ s)). cbn [fst snd].
  rewrite LX_cons. change (lex_one (110 =? 10) 32 (nots n ++ s)) with (@None token, nots n ++ s). cbn [fst snd]. change (32 =? 10) with false. rewrite IH. reflexivity.
Qed.

Lemma parse_nots ts : forall n fuel st, (2 * n < fuel)%nat -> 1 <= p_paren st <= MAX_DEPTH -> MAX_DEPTH < p_paren st + N.of_nat n ->
  parse_loop fuel st (not_tokens n ++ ts) = Refused.
Proof.
  induction n as [|n IH]; intros fuel st F P M; [lia|]. destruct fuel as [|fuel]; [lia|]. cbn [not_tokens app parse_loop].
  destruct (MAX_DEPTH <? p_paren st + 1) eqn:Q; [reflexivity|]. apply N.ltb_ge in Q.
  destruct fuel as [|fuel]; [lia|]. cbn [parse_loop p_paren p_marks p_frames]. replace (p_paren st + 1 =? 0) with false by (symmetry; apply N.eqb_neq; lia).
  apply IH; cbn [p_paren]; lia.
Qed.

Lemma deep_refused s n : MAX_DEPTH < N.of_nat n + 1 -> cil_parser (40 :: w_booleanif ++ 32 :: (nots n ++ s)) = Refused.
Proof.
  intros H. change (cil_parser (40 :: w_booleanif ++ 32 :: (nots n ++ s))) with (parse_tokens (LX true (40 :: w_booleanif ++ 32 :: (nots n ++ s)))).
  assert (L : LX true (40 :: w_booleanif ++ 32 :: (nots n ++ s)) = OPAREN :: SYMBOL w_booleanif :: not_tokens n ++ LX false s).
  { rewrite LX_cons. change (lex_one true 40 (w_booleanif ++ 32 :: (nots n ++ s))) with (Some OPAREN, w_booleanif ++ 32 :: (nots n ++ s)). cbn [fst snd].
    change (w_booleanif ++ 32 :: (nots n ++ s)) with (98 :: [111; 111; 108; 101; 97; 110; 105; 102] ++ 32 :: (nots n ++ s)). rewrite LX_cons.
    change (lex_one (40 =? 10) 98 ([111; 111; 108; 101; 97; 110; 105; 102] ++ 32 :: (nots n ++ s))) with (Some (SYMBOL w_booleanif), 32 :: (nots n ++ s)). cbn [fst snd].
    rewrite LX_cons. change (lex_one (98 =? 10) 32 (nots n ++ s)) with (@None token, nots n ++ s). cbn [fst snd]. change (32 =? 10) with false. rewrite lex_nots. reflexivity. }
  unfold parse_tokens. rewrite L. set (r := LX false s). cbn [length].
  set (F := length (not_tokens n ++ r)).
  assert (LF : (2 * n <= F)%nat).
  { unfold F. rewrite app_length. assert (Q : forall m, length (not_tokens m) = (2 * m)%nat) by (induction m; cbn [not_tokens length]; lia). rewrite Q. lia. }
  clearbody F.
  assert (ST : forall fu ts, parse_loop (S (S fu)) (mkP 0 0 [[]]) (OPAREN :: SYMBOL w_booleanif :: ts) = parse_loop fu (mkP 1 0 [[PName w_booleanif]; []]) ts) by reflexivity.
  rewrite ST. apply parse_nots; cbn [p_paren]; [lia| |lia]. unfold MAX_DEPTH in *. lia.
Qed.

(** ** Only expressions are written *)
Lemma only_expressions names : forall l st stk s, length stk = length st -> Forall (fun x => exists e, writes x e) stk ->
  cond_to_str names st l = KStr s -> exists e, writes (concat (rev stk) ++ l) e.
Proof.
  induction l as [|t l IH]; intros st stk s L F H; cbn [cond_to_str] in H.
  - destruct st as [|x [|y st]]; try discriminate H. destruct stk as [|a [|b stk]]; cbn [length] in L; try lia.
    inversion F as [|? ? (e & W) _]; subst. exists e. cbn [rev concat app]. rewrite !app_nil_r. exact W.
  - assert (STEP : forall st' stk' rest, length stk' = length st' -> Forall (fun x => exists e, writes x e) stk' ->
      cond_to_str names st' l = KStr s -> concat (rev stk') ++ l = rest -> exists e, writes rest e).
    { intros st' stk' rest L' F' H' <-. exact (IH st' stk' s L' F' H'). }
    destruct (t_type t =? COND_BOOL) eqn:B.
    + apply N.eqb_eq in B. destruct (bool_name names (t_bool t)) as [n|]; [|discriminate H].
      apply (STEP (n :: st) ([t] :: stk)); [cbn [length]; lia| |exact H|].
      * constructor; [|exact F]. destruct t as [ty b]. cbn [t_type] in B. subst ty. exists (BVar b). constructor.
      * cbn [rev]. rewrite concat_app, <- app_assoc. reflexivity.
    + destruct (op_word (t_type t)) as [[w [|]]|] eqn:O; [| |discriminate H].
      * destruct st as [|v2 [|v1 st]]; try discriminate H. destruct stk as [|a2 [|a1 stk]]; cbn [length] in L; try lia.
        inversion F as [|? ? (e2 & W2) F1]; subst. inversion F1 as [|? ? (e1 & W1) F0]; subst.
        apply (STEP _ ((a1 ++ a2 ++ [t]) :: stk) _) with (3 := H); [cbn [length]; lia| |].
        -- constructor; [|exact F0]. destruct t as [ty b]. unfold op_word in O. cbn [t_type] in O.
           repeat match type of O with (if ?c then _ else _) = _ => destruct c eqn:?; [try discriminate O|] end; try discriminate O;
             match goal with Q : (ty =? _) = true |- _ => apply N.eqb_eq in Q; subst ty end;
             [exists (BOr e1 e2); apply CondSpec.W_or|exists (BAnd e1 e2); apply CondSpec.W_and|exists (BXor e1 e2); apply CondSpec.W_xor
             |exists (BEq e1 e2); apply CondSpec.W_eq|exists (BNeq e1 e2); apply CondSpec.W_neq]; assumption.
        -- cbn [rev]. rewrite !concat_app. cbn [concat]. rewrite !app_nil_r, <- !app_assoc. reflexivity.
      * destruct st as [|v1 st]; try discriminate H. destruct stk as [|a1 stk]; cbn [length] in L; try lia.
        inversion F as [|? ? (e1 & W1) F0]; subst. apply (STEP _ ((a1 ++ [t]) :: stk) _) with (3 := H); [cbn [length]; lia| |].
        -- constructor; [|exact F0]. destruct t as [ty b]. unfold op_word in O. cbn [t_type] in O.
           repeat match type of O with (if ?c then _ else _) = _ => destruct c eqn:?; [try discriminate O|] end; try discriminate O.
           match goal with Q : (ty =? COND_NOT) = true |- _ => apply N.eqb_eq in Q; subst ty end. exists (BNot e1). apply CondSpec.W_not. assumption.
        -- cbn [rev]. rewrite !concat_app. cbn [concat]. rewrite !app_nil_r, <- !app_assoc. reflexivity.
Qed.
