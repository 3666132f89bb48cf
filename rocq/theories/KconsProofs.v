(** Proofs about writing constraints as CIL and compiling them again: one expression. *)
From Coq Require Import String Arith Permutation.
From Verif Require Import Base EbitmapModel EbitmapSpec EbitmapProofs MlsModel MlsSpec AssertModel TypesetModel ServicesModel ServicesSpec
  CilparseModel CilparseSpec CilparseProofs CilparseMain CilexprModel KcilModel KcilSpec KcilProofs CilctxModel
  CilconsModel CilconsSpec CilconsProofs KconsModel KconsSpec.
Local Open Scope N_scope.
Local Open Scope list_scope.

Definition line_char (c : N) : Prop := word_char c \/ c = 32 \/ c = 40 \/ c = 41.

Lemma str_insert_perm x l : Permutation (str_insert x l) (x :: l).
Proof.
  induction l as [|y l IH]; cbn [str_insert]; [reflexivity|]. destruct (strcmp x y); try reflexivity.
  rewrite IH. apply perm_swap.
Qed.
Lemma strs_sort_perm l : Permutation (strs_sort l) l.
Proof. induction l as [|x l IH]; [reflexivity|]. cbn [strs_sort fold_right]. rewrite str_insert_perm. constructor. exact IH. Qed.
Lemma strs_sort_in x l : In x (strs_sort l) <-> In x l.
Proof. split; apply Permutation_in; [|apply Permutation_sym]; apply strs_sort_perm. Qed.
Lemma strs_sort_length l : List.length (strs_sort l) = List.length l.
Proof. apply Permutation_length, strs_sort_perm. Qed.

Lemma to_strs_ok tab : forall l, (forall i, In i l -> exists n, nth_error tab (N.to_nat i) = Some (Some n)) ->
  exists ns, to_strs tab l = Some ns /\ List.length ns = List.length l /\
    forall n, In n ns <-> exists i, In i l /\ nth_error tab (N.to_nat i) = Some (Some n).
Proof.
  induction l as [|i l IH]; intros H.
  - exists []. split; [reflexivity|]. split; [reflexivity|]. intros n. split; [intros []|intros (i & [] & _)].
  - destruct IH as (ns & E & L & S); [intros j Hj; apply H; right; exact Hj|]. destruct (H i (or_introl eq_refl)) as (n & Hn).
    exists (n :: ns). cbn [to_strs]. rewrite Hn, E. split; [reflexivity|]. split; [cbn [List.length]; lia|].
    intros m. cbn [In]. rewrite S. split.
    + intros [<-|(j & Hj & Q)]; [exists i; auto|exists j; auto].
    + intros (j & [<-|Hj] & Q); [left; congruence|right; exists j; auto].
Qed.

Lemma join_written L : L <> [] -> (forall n, In n L -> n <> [] /\ Forall word_char n) -> forall p s f, breaks s ->
  CilparseSpec.written (S p) s f -> CilparseSpec.written (S p) (join L ++ s) (map PName L ++ f).
Proof.
  intros NE. induction L as [|n L IH]; [congruence|]. intros H p s f B W. destruct (H n (or_introl eq_refl)) as (Nn & Fn).
  destruct L as [|m L].
  - cbn [join map app]. apply W_symbol; assumption.
  - change (join (n :: m :: L)) with (n ++ 32 :: join (m :: L)). rewrite <- app_assoc. cbn [map app].
    apply W_symbol; [exact Nn|exact Fn|apply breaks_blank; auto|]. apply W_blank; [auto|].
    apply IH; [discriminate|intros q Hq; apply H; right; exact Hq|exact B|exact W].
Qed.

Lemma join_chars L : (forall n, In n L -> Forall word_char n) -> forall c, In c (join L) -> word_char c \/ c = 32.
Proof.
  induction L as [|n L IH]; intros H c Hc; [destruct Hc|]. pose proof (H n (or_introl eq_refl)) as Fn. rewrite Forall_forall in Fn.
  destruct L as [|m L]; [left; apply Fn; exact Hc|]. change (join (n :: m :: L)) with (n ++ 32 :: join (m :: L)) in Hc.
  apply in_app_or in Hc. destruct Hc as [Hc|[Hc|Hc]]; [left; apply Fn; exact Hc|right; lia|].
  apply IH; [intros q Hq; apply H; right; exact Hq|exact Hc].
Qed.

Lemma no_space n : Forall word_char n -> existsb (N.eqb 32) n = false.
Proof.
  intros F. destruct (existsb (N.eqb 32) n) eqn:E; [|reflexivity]. apply existsb_exists in E. destruct E as (c & Hc & Q).
  rewrite Forall_forall in F. specialize (F c Hc). unfold word_char in F. lia.
Qed.
Lemma has_space n m L : existsb (N.eqb 32) (join (n :: m :: L)) = true.
Proof. apply existsb_exists. exists 32. split; [|reflexivity]. change (join (n :: m :: L)) with (n ++ 32 :: join (m :: L)). apply in_or_app. right. left. reflexivity. Qed.

(** ** One expression *)
Section Expression.
  Context (K : kpol) (E : names_env) (R : what -> N -> N -> Prop) (RO : one_to_one R) (ND : names_declared K E R).

  Definition xcorr (x x' : option context) : Prop :=
    match x, x' with None, None => True | Some c, Some c' => same_context R c c' | _, _ => False end.

  Definition means_same (cf : cform) (f : formula) : Prop :=
    forall P P' s s' t t' x x', same_dominance R P P' -> same_context R s s' -> same_context R t t' -> xcorr x x' ->
    (cholds P s t x cf <-> holds E P' s' t' x' f).

  Definition reads (txt : list N) (e : ptree) (h : nat) : Prop :=
    forall p s fs, (p + h < N.to_nat 4096)%nat -> breaks s -> CilparseSpec.written (S p) s fs ->
      CilparseSpec.written (S p) (txt ++ s) (e :: fs).

  Definition good (vt : bool) (l : list kexpr) (txt : list N) (b : bool) (e : ptree) (f : formula) (cf : cform) : Prop :=
    (forall st m r, expr_to_str K st m (l ++ r) = expr_to_str K (txt :: st) (m || b) r) /\
    reads txt e (nesting cf) /\
    CilconsSpec.written e f /\ legal vt f /\ CilconsSpec.known E f /\ cells f = cdepth cf /\
    (forall c, In c txt -> line_char c) /\
    (b = true -> uses_levels cf) /\
    means_same cf f.

  Lemma op2_chars w x y : (forall c, In c w -> line_char c) -> (forall c, In c x -> line_char c) -> (forall c, In c y -> line_char c) ->
    forall c, In c (op2 w x y) -> line_char c.
  Proof using.
    intros Hw Hx Hy c H. unfold op2 in H. cbn [In] in H. rewrite in_app_iff in H. cbn [In] in H. rewrite in_app_iff in H.
    cbn [In] in H. rewrite in_app_iff in H. cbn [In] in H. unfold line_char in *.
    destruct H as [H|[H|[H|[H|[H|[H|[H|[]]]]]]]]; auto.
  Qed.

  Lemma op2_reads w x y a b h : w <> [] -> Forall word_char w -> reads x a h -> reads y b h ->
    reads (op2 w x y) (PList [PName w; a; b]) (S h).
  Proof using.
    intros Nw Fw Hx Hy p s f Hp B W. apply op2_written; [exact Nw|exact Fw|lia| | |exact W].
    - intros s' f' B' W'. apply Hx; [lia|exact B'|exact W'].
    - intros s' f' B' W'. apply Hy; [lia|exact B'|exact W'].
  Qed.

  Lemma word_reads w h : w <> [] -> Forall word_char w -> reads w (PName w) h.
  Proof using. intros Nw Fw p s f _ B W. apply W_symbol; assumption. Qed.

  Lemma reads_weaken txt e h h' : (h <= h')%nat -> reads txt e h -> reads txt e h'.
  Proof using. intros L H p s f Hp. apply H. lia. Qed.

  Ltac wordl := repeat (apply Forall_cons; [unfold word_char; lia|]); apply Forall_nil.
  Lemma rel_wordy r : rel_word r <> [] /\ Forall word_char (rel_word r).
  Proof using. destruct r; (split; [discriminate|]); cbn; wordl. Qed.
  Lemma spelled_wordy s o : spelled s o -> s <> [] /\ Forall word_char s.
  Proof using. intros H. destruct H as [w|w|w|w Hw|w Hw]; destruct w; (split; [discriminate|]); cbn; wordl. Qed.

  Lemma word_line w : Forall word_char w -> forall c, In c w -> line_char c.
  Proof using. intros F c H. rewrite Forall_forall in F. left. auto. Qed.

  (** A comparison of two operands. *)
  Lemma compare_good vt x rl sa sb a b cf (m : bool) : ce_type (kx x) = 4 -> rel_str (ce_op (kx x)) = Some (rel_word rl) ->
    attr_strs (ce_attr (kx x)) = Some (sa, sb) -> (32 <=? ce_attr (kx x)) = m -> spelled sa a -> spelled sb b -> legal_compare rl a b ->
    nesting cf = 1%nat -> cdepth cf = 1%nat -> (m = true -> uses_levels cf) -> means_same cf (Compare rl a b) ->
    exists txt e, good vt [x] txt m e (Compare rl a b) cf.
  Proof using.
    intros T O A M Sa Sb L HN HD HU HM. destruct (rel_wordy rl) as (Nr & Fr). destruct (spelled_wordy sa a Sa) as (Na & Fa).
    destruct (spelled_wordy sb b Sb) as (Nb & Fb).
    exists (op2 (rel_word rl) sa sb), (PList [PName (rel_word rl); PName sa; PName sb]).
    split. { intros st q r. cbn [app expr_to_str]. rewrite T. change ((4 =? CEXPR_ATTR) || (4 =? CEXPR_NAMES)) with true. cbn iota.
             unfold leaf_str. rewrite O, A, T. change (4 =? CEXPR_ATTR) with true. cbn iota. rewrite M. reflexivity. }
    split. { rewrite HN. apply op2_reads; auto; apply word_reads; assumption. }
    split. { apply Wr_compare; assumption. } split; [exact L|]. split; [exact I|]. split; [rewrite HD; reflexivity|].
    split. { apply op2_chars; apply word_line; assumption. } split; [exact HU|exact HM].
  Qed.

  Lemma same_eq k c c' d d' : same_context R c c' -> same_context R d d' -> (attr_of k c = attr_of k d <-> attr_of k c' = attr_of k d').
  Proof using RO.
    intros (U & Ro & Ty & _) (U' & Ro' & Ty' & _). destruct k; cbn [attr_of].
    - apply (RO KUser _ _ _ _ U U'). - apply (RO KRole _ _ _ _ Ro Ro'). - apply (RO KType _ _ _ _ Ty Ty').
  Qed.

  Lemma users_same eq : means_same (CLeaf (FUsers eq)) (Compare (if eq then REq else RNeq) (Attr WSrc KUser) (Attr WTgt KUser)).
  Proof using RO.
    intros P P' s s' t t' x x' _ Hs Ht _. cbn [cholds leaf_holds holds the]. pose proof (same_eq KUser s s' t t' Hs Ht) as Q. cbn [attr_of] in Q.
    destruct eq; cbn [eq_or_not same_or_not]; split.
    - intros H. exists s', t'. rewrite <- Q. auto.
    - intros (c & d & A & B & H). injection A as <-. injection B as <-. rewrite Q. exact H.
    - intros H. exists s', t'. rewrite <- Q. auto.
    - intros (c & d & A & B & H). injection A as <-. injection B as <-. rewrite Q. exact H.
  Qed.
  Lemma types_same eq : means_same (CLeaf (FTypes eq)) (Compare (if eq then REq else RNeq) (Attr WSrc KType) (Attr WTgt KType)).
  Proof using RO.
    intros P P' s s' t t' x x' _ Hs Ht _. cbn [cholds leaf_holds holds the]. pose proof (same_eq KType s s' t t' Hs Ht) as Q. cbn [attr_of] in Q.
    destruct eq; cbn [eq_or_not same_or_not]; split.
    - intros H. exists s', t'. rewrite <- Q. auto.
    - intros (c & d & A & B & H). injection A as <-. injection B as <-. rewrite Q. exact H.
    - intros H. exists s', t'. rewrite <- Q. auto.
    - intros (c & d & A & B & H). injection A as <-. injection B as <-. rewrite Q. exact H.
  Qed.
  Lemma roles_same r : means_same (CLeaf (FRoles r)) (Compare r (Attr WSrc KRole) (Attr WTgt KRole)).
  Proof using RO.
    intros P P' s s' t t' x x' DM Hs Ht _. cbn [cholds leaf_holds holds the]. pose proof (same_eq KRole s s' t t' Hs Ht) as Q. cbn [attr_of] in Q.
    destruct Hs as (_ & Rs & _). destruct Ht as (_ & Rt & _).
    pose proof (DM _ _ _ _ Rs Rt) as D1. pose proof (DM _ _ _ _ Rt Rs) as D2.
    transitivity (roles_related P' r (c_role s') (c_role t')).
    - destruct r; cbn [roles_related]; tauto.
    - split; [intros H; exists s', t'; auto|]. intros (c & d & A & B & H). injection A as <-. injection B as <-. exact H.
  Qed.

  Definition lp_ops (p : lpair) : oper * oper :=
    match p with
    | L1L2 => (Low WSrc, Low WTgt) | L1H2 => (Low WSrc, High WTgt) | H1L2 => (High WSrc, Low WTgt)
    | H1H2 => (High WSrc, High WTgt) | L1H1 => (Low WSrc, High WSrc) | L2H2 => (Low WTgt, High WTgt)
    end.
  Lemma levels_same p r : means_same (CLeaf (FLevels p r)) (Compare r (fst (lp_ops p)) (snd (lp_ops p))).
  Proof using.
    intros P P' s s' t t' x x' _ (_ & _ & _ & Es) (_ & _ & _ & Et) _. cbn [cholds leaf_holds].
    assert (Q : forall a b l m, (forall k, a <> Attr WSrc k /\ a <> Attr WTgt k /\ a <> Attr WThird k) -> level_of s' t' x' a l -> level_of s' t' x' b m ->
      (forall l', level_of s' t' x' a l' -> l' = l) -> (forall m', level_of s' t' x' b m' -> m' = m) ->
      (match r with REq => level_same l m | RNeq => ~ level_same l m | RDom => level_le m l | RDomby => level_le l m
       | RIncomp => ~ level_le l m /\ ~ level_le m l end <-> holds E P' s' t' x' (Compare r a b))).
    { intros a b l m NA A B UA UB.
      transitivity (exists l m, level_of s' t' x' a l /\ level_of s' t' x' b m /\ levels_related r l m).
      - split; [intros H; exists l, m; split; [exact A|split; [exact B|destruct r; exact H]]|].
        intros (l' & m' & A' & B' & H). rewrite (UA l' A'), (UB m' B') in H. destruct r; exact H.
      - destruct a as [w k|w|w]; [destruct (NA k) as (N1 & N2 & N3); destruct w; congruence| |]; reflexivity. }
    assert (Lo : forall w l' c, the w s' t' x' = Some c -> level_of s' t' x' (Low w) l' -> l' = r_low (c_range c)).
    { intros w l' c Hc H. inversion H; congruence. }
    assert (Hi : forall w l' c, the w s' t' x' = Some c -> level_of s' t' x' (High w) l' -> l' = r_high (c_range c)).
    { intros w l' c Hc H. inversion H; congruence. }
    destruct p; cbn [lpair_of lp_ops fst snd]; rewrite <- ?Es, <- ?Et; apply Q;
      try (intros k; repeat split; discriminate); try (apply Lv_low; reflexivity); try (apply Lv_high; reflexivity);
      intros l' H; first [exact (Lo WSrc l' s' eq_refl H)|exact (Hi WSrc l' s' eq_refl H)|exact (Lo WTgt l' t' eq_refl H)|exact (Hi WTgt l' t' eq_refl H)].
  Qed.

  Lemma attr_corr k c c' : same_context R c c' -> R k (attr_of k c) (attr_of k c').
  Proof using. intros (U & Ro & Ty & _). destruct k; assumption. Qed.

  Lemma names_same w k eq set ns : (forall v v', R k v v' -> (member set (v - 1) <-> exists n, In n ns /\ stands_for E k n v')) ->
    means_same (CLeaf (FNames w k eq set)) (Among (if eq then REq else RNeq) (Attr w k) ns).
  Proof using.
    intros H P P' s s' t t' x x' _ Hs Ht Hx. cbn [cholds leaf_holds holds].
    assert (Q : forall c c', same_context R c c' ->
      (eq_or_not eq (member set (attr_of k c - 1)) <-> same_or_not (if eq then REq else RNeq) (exists n, In n ns /\ stands_for E k n (attr_of k c')))).
    { intros c c' Hc. pose proof (H _ _ (attr_corr k c c' Hc)) as HH. destruct eq; cbn [eq_or_not same_or_not]; tauto. }
    destruct w; cbn [the].
    - specialize (Q s s' Hs). split; [intros (c & A & B)|intros (c & A & B)]; injection A as <-; eexists; split; [reflexivity|tauto|reflexivity|tauto].
    - specialize (Q t t' Ht). split; [intros (c & A & B)|intros (c & A & B)]; injection A as <-; eexists; split; [reflexivity|tauto|reflexivity|tauto].
    - destruct x as [c|], x' as [c'|]; cbn [xcorr] in Hx; try contradiction.
      + specialize (Q c c' Hx). split; [intros (d & A & B)|intros (d & A & B)]; injection A as <-; eexists; split; [reflexivity|tauto|reflexivity|tauto].
      + split; intros (c & A & _); discriminate.
  Qed.

  Lemma who_attr w k : exists sa sb, attr_strs (what_code k + who_code w) = Some (sa, sb) /\ spelled sa (Attr w k).
  Proof using.
    destruct k, w; (do 2 eexists; split; [reflexivity|]); [apply (Sp_user WSrc)|apply (Sp_user WTgt)|apply (Sp_user WThird)
      |apply (Sp_role WSrc)|apply (Sp_role WTgt)|apply (Sp_role WThird)|apply (Sp_type WSrc)|apply (Sp_type WTgt)|apply (Sp_type WThird)].
  Qed.
  Lemma eq_rel eq : rel_str (eq_code eq) = Some (rel_word (if eq then REq else RNeq)).
  Proof using. destruct eq; reflexivity. Qed.
  Lemma rel_rel r : rel_str (rel_code r) = Some (rel_word r).
  Proof using. destruct r; reflexivity. Qed.

  Lemma names_str_of x w k : ce_attr (kx x) = what_code k + who_code w -> names_str K x = ebitmap_to_str (named_set x k) (names_of K k).
  Proof using. intros H. unfold names_str. rewrite H. destruct k, w; reflexivity. Qed.

  (** The names of a set. *)
  Lemma set_names x w k eq set : leaf_code (kx x) (FNames w k eq set) -> nameable K x ->
    exists ns, ebitmap_to_str (named_set x k) (names_of K k) = Some (Some (join ns)) /\ ns <> [] /\
      (forall n, In n ns -> n <> [] /\ Forall word_char n) /\
      (forall n, ns = [n] -> forall o, ~ spelled n o) /\
      (forall n, In n ns -> exists d, n_lookup E (CilconsSpec.kind k) n = Some d /\ n_values E (CilconsSpec.kind k) d <> None) /\
      (forall v v', R k v v' -> (member set (v - 1) <-> exists n, In n ns /\ stands_for E k n v')).
  Proof using RO ND.
    intros LC NA. destruct (NA w k eq set LC) as (V & (i0 & H0) & HN & HS).
    destruct (positive_bits_correct (named_set x k) V) as (l & PB & SS & HI).
    assert (HB : bits (named_set x k) = l) by (unfold bits; rewrite PB; reflexivity).
    assert (HN' : forall i, In i l -> exists n, nth_error (names_of K k) (N.to_nat i) = Some (Some n)).
    { intros i Hi. apply HI in Hi. destruct (HN i Hi) as (n & (_ & C) & _). exists n. replace (i + 1 - 1) with i in C by lia. exact C. }
    destruct (to_strs_ok (names_of K k) l HN') as (ns0 & T & LN & IN0).
    assert (IN : forall n, In n (strs_sort ns0) <-> exists i, member (named_set x k) i /\ called K k (i + 1) n).
    { intros n. rewrite strs_sort_in, IN0. split; intros (i & A & B); exists i; [rewrite HI in A|rewrite HI]; (split; [exact A|]).
      - split; [lia|]. replace (i + 1 - 1) with i by lia. exact B.
      - destruct B as (_ & B). replace (i + 1 - 1) with i in B by lia. exact B. }
    assert (NE : strs_sort ns0 <> []).
    { intros Z. destruct (HN i0 H0) as (n & C & _). assert (Q : In n (strs_sort ns0)) by (apply IN; exists i0; auto). rewrite Z in Q. destruct Q. }
    exists (strs_sort ns0). split.
    { unfold ebitmap_to_str. rewrite HB, T. unfold strs_to_str. destruct (strs_sort ns0); [congruence|reflexivity]. }
    split; [exact NE|]. split.
    { intros n Hn. apply IN in Hn. destruct Hn as (i & Hi & C). destruct (HN i Hi) as (m & (_ & C') & A & B & _). destruct C as (_ & C).
      rewrite C in C'. injection C' as <-. auto. }
    split.
    { intros n Z. assert (L1 : List.length l = 1%nat) by (rewrite <- LN, <- strs_sort_length, Z; reflexivity).
      destruct l as [|i [|? ?]]; cbn [List.length] in L1; try lia.
      assert (Hi : member (named_set x k) i) by (apply HI; left; reflexivity).
      destruct (HN i Hi) as (m & C & _ & _ & U).
      assert (Q : In m (strs_sort ns0)) by (apply IN; exists i; auto). rewrite Z in Q. destruct Q as [->|[]].
      apply U. intros j Hj. apply HI in Hj. destruct Hj as [<-|[]]. reflexivity. }
    split.
    { intros n Hn. apply IN in Hn. destruct Hn as (i & _ & C). exact (proj1 (ND k (i + 1) n C)). }
    intros v v' Hv. destruct (RO k v v' v v' Hv Hv) as (V1 & _ & _). rewrite (HS v V1). split.
    - intros (i & Hi & St). destruct (HN i Hi) as (n & C & _). exists n. split; [apply IN; exists i; auto|].
      apply (proj2 (ND k (i + 1) n C) v v' Hv). exact St.
    - intros (n & Hn & St). apply IN in Hn. destruct Hn as (i & Hi & C). exists i. split; [exact Hi|].
      apply (proj2 (ND k (i + 1) n C) v v' Hv). exact St.
  Qed.

  Lemma names_good vt x w k eq set : leaf_code (kx x) (FNames w k eq set) -> nameable K x -> (w = WThird -> vt = true) ->
    exists txt e f, good vt [x] txt false e f (CLeaf (FNames w k eq set)).
  Proof using RO ND.
    intros LC NA TH. destruct (set_names x w k eq set LC NA) as (ns & ES & NE & HW & HS1 & HK & HM).
    assert (T : ce_type (kx x) = 5 /\ ce_attr (kx x) = what_code k + who_code w /\ ce_op (kx x) = eq_code eq).
    { remember (FNames w k eq set) as lf. destruct LC; try discriminate. injection Heqlf as -> -> -> ->. auto. }
    destruct T as (T & A & O). destruct (who_attr w k) as (sa & sb & AS & SP). destruct (spelled_wordy sa _ SP) as (Na & Fa).
    set (rl := if eq then REq else RNeq). destruct (rel_wordy rl) as (Nr & Fr).
    assert (M : (32 <=? what_code k + who_code w) = false) by (destruct k, w; reflexivity).
    assert (LG : legal vt (Among rl (Attr w k) ns)).
    { split; [exists w, k; auto|]. unfold rl. destruct eq; auto. }
    assert (KN : CilconsSpec.known E (Among rl (Attr w k) ns)).
    { intros w' k' n Q Hn. injection Q as <- <-. exact (HK n Hn). }
    assert (MS : means_same (CLeaf (FNames w k eq set)) (Among rl (Attr w k) ns)) by (apply names_same; exact HM).
    assert (ST : forall st m r txt, leaf_str K x = WVal txt -> expr_to_str K st m ([x] ++ r) = expr_to_str K (txt :: st) (m || false) r).
    { intros st m r txt LS. cbn [app expr_to_str]. rewrite T. change ((5 =? CEXPR_ATTR) || (5 =? CEXPR_NAMES)) with true. cbn iota.
      rewrite LS, A, M. reflexivity. }
    assert (LS : leaf_str K x = if existsb (N.eqb 32) (join ns) then WVal (op2 (rel_word rl) sa (40 :: join ns ++ [41])) else WVal (op2 (rel_word rl) sa (join ns))).
    { unfold leaf_str. rewrite O, eq_rel, A, AS, T. change (5 =? CEXPR_ATTR) with false. cbn iota. rewrite (names_str_of x w k A), ES.
      fold rl. destruct (existsb (N.eqb 32) (join ns)); [|reflexivity]. unfold op2. cbn [app]. rewrite <- app_assoc. reflexivity. }
    destruct ns as [|n [|m L]]; [congruence| |].
    - destruct (HW n (or_introl eq_refl)) as (Nn & Fn). cbn [join] in LS. rewrite (no_space n Fn) in LS.
      exists (op2 (rel_word rl) sa n), (PList [PName (rel_word rl); PName sa; PName n]), (Among rl (Attr w k) [n]).
      split; [intros st q r; apply ST; exact LS|]. split. { cbn [nesting]. apply op2_reads; auto; apply word_reads; assumption. }
      split. { apply Wr_name; [exact SP|]. exact (HS1 n eq_refl). } do 2 (split; [assumption|]). split; [reflexivity|].
      split; [apply op2_chars; apply word_line; assumption|]. split; [discriminate|exact MS].
    - set (ns := n :: m :: L) in *. assert (HS2 : existsb (N.eqb 32) (join ns) = true) by apply has_space. rewrite HS2 in LS.
      exists (op2 (rel_word rl) sa (40 :: join ns ++ [41])), (PList [PName (rel_word rl); PName sa; PList (map PName ns)]), (Among rl (Attr w k) ns).
      split; [intros st q r; apply ST; exact LS|]. split.
      { cbn [nesting]. intros p s f Hp B W. apply op2_written; [exact Nr|exact Fr|lia| | |exact W].
        - intros s' f' B' W'. apply W_symbol; assumption.
        - intros s' f' B' W'. replace ((40 :: join ns ++ [41]) ++ s') with (40 :: (join ns ++ []) ++ 41 :: s').
          + apply W_list; [lia| |exact W']. replace (map PName ns) with (map PName ns ++ []) by apply app_nil_r.
            apply join_written; [exact NE|exact HW|exact I|apply W_end].
          + rewrite app_nil_r. cbn [app]. rewrite <- app_assoc. reflexivity. }
      split. { apply Wr_names; [exact SP|unfold rl; destruct eq; auto|exact NE]. } do 2 (split; [assumption|]). split; [reflexivity|].
      split. { apply op2_chars; [apply word_line; assumption|apply word_line; assumption|]. intros c [H|H]; [unfold line_char; auto|].
               apply in_app_or in H. destruct H as [H|[H|[]]]; [|unfold line_char; auto].
               destruct (join_chars ns (fun q Hq => proj2 (HW q Hq)) c H) as [Q|Q]; [left; exact Q|right; left; exact Q]. }
      split; [discriminate|exact MS].
  Qed.

  Lemma leaf_good vt x lf : leaf_code (kx x) lf -> nameable K x -> (vt = false -> no_third (CLeaf lf)) ->
    exists txt b e f, good vt [x] txt b e f (CLeaf lf).
  Proof using RO ND.
    intros LC NA TH. destruct lf as [eq|eq|r|p r|w k eq set].
    - remember (FUsers eq) as lf. destruct (kx x) as [ty at_ op nm] eqn:KX. remember (mkCE ty at_ op nm) as ce. destruct LC; try discriminate. injection Heqlf as ->. injection Heqce as <- <- <- <-.
      destruct (compare_good vt x (if eq then REq else RNeq) (lit "u1") (lit "u2") (Attr WSrc KUser) (Attr WTgt KUser) (CLeaf (FUsers eq)) false) as (txt & e & G);
        rewrite ?KX; cbn [ce_type ce_op ce_attr]; try reflexivity; [apply eq_rel|apply (Sp_user WSrc)|apply (Sp_user WTgt)| |discriminate|apply users_same|].
      + left. exists KUser. split; [reflexivity|]. split; [reflexivity|]. right. destruct eq; auto.
      + do 4 eexists. exact G.
    - remember (FTypes eq) as lf. destruct (kx x) as [ty at_ op nm] eqn:KX. remember (mkCE ty at_ op nm) as ce. destruct LC; try discriminate. injection Heqlf as ->. injection Heqce as <- <- <- <-.
      destruct (compare_good vt x (if eq then REq else RNeq) (lit "t1") (lit "t2") (Attr WSrc KType) (Attr WTgt KType) (CLeaf (FTypes eq)) false) as (txt & e & G);
        rewrite ?KX; cbn [ce_type ce_op ce_attr]; try reflexivity; [apply eq_rel|apply (Sp_type WSrc)|apply (Sp_type WTgt)| |discriminate|apply types_same|].
      + left. exists KType. split; [reflexivity|]. split; [reflexivity|]. right. destruct eq; auto.
      + do 4 eexists. exact G.
    - remember (FRoles r) as lf. destruct (kx x) as [ty at_ op nm] eqn:KX. remember (mkCE ty at_ op nm) as ce. destruct LC; try discriminate. injection Heqlf as ->. injection Heqce as <- <- <- <-.
      destruct (compare_good vt x r (lit "r1") (lit "r2") (Attr WSrc KRole) (Attr WTgt KRole) (CLeaf (FRoles r)) false) as (txt & e & G);
        rewrite ?KX; cbn [ce_type ce_op ce_attr]; try reflexivity; [apply rel_rel|apply (Sp_role WSrc)|apply (Sp_role WTgt)| |discriminate|apply roles_same|].
      + left. exists KRole. auto.
      + do 4 eexists. exact G.
    - remember (FLevels p r) as lf. destruct (kx x) as [ty at_ op nm] eqn:KX. remember (mkCE ty at_ op nm) as ce. destruct LC; try discriminate. injection Heqlf as -> ->. injection Heqce as <- <- <- <-.
      assert (Q : exists sa sb, attr_strs (lpair_code p) = Some (sa, sb) /\ spelled sa (fst (lp_ops p)) /\ spelled sb (snd (lp_ops p)) /\ (32 <=? lpair_code p) = true).
      { assert (N1 : WSrc <> WThird) by discriminate. assert (N2 : WTgt <> WThird) by discriminate.
        destruct p; (do 2 eexists; split; [reflexivity|]; cbn [lp_ops fst snd]); (split; [|split; [|reflexivity]]);
          first [exact (Sp_low WSrc N1)|exact (Sp_low WTgt N2)|exact (Sp_high WSrc N1)|exact (Sp_high WTgt N2)]. }
      destruct Q as (sa & sb & Q1 & Q2 & Q3 & Q4).
      destruct (compare_good vt x r sa sb (fst (lp_ops p)) (snd (lp_ops p)) (CLeaf (FLevels p r)) true) as (txt & e & G);
        rewrite ?KX; cbn [ce_type ce_op ce_attr]; try reflexivity; try assumption; try (intros _; exact I); [apply rel_rel| |apply levels_same|].
      + right. destruct p; cbn; tauto.
      + do 4 eexists. exact G.
    - destruct (names_good vt x w k eq set LC NA) as (txt & e & f & G).
      + intros ->. destruct vt; [reflexivity|]. destruct (TH eq_refl).
      + do 4 eexists. exact G.
  Qed.

  Lemma expr_good vt m cf : cwrites m cf -> forall l, map kx l = m -> Forall (nameable K) l -> (vt = false -> no_third cf) ->
    exists txt b e f, good vt l txt b e f cf.
  Proof using RO ND.
    induction 1 as [ce lf LC|m a ce W IH TY|m a n b ce W1 IH1 W2 IH2 TY|m a n b ce W1 IH1 W2 IH2 TY]; intros l EL NA TH.
    - destruct l as [|x [|? ?]]; try discriminate. injection EL as EL. subst ce. inversion NA; subst. exact (leaf_good vt x lf LC H1 TH).
    - apply map_eq_app in EL. destruct EL as (l1 & l2 & -> & E1 & E2). destruct l2 as [|x [|? ?]]; try discriminate. injection E2 as E2.
      apply Forall_app in NA. destruct NA as (NA1 & NA2). destruct (IH l1 E1 NA1 TH) as (txt & bb & e & f & G1 & G2 & G3 & G4 & G5 & G6 & G7 & G8 & G9).
      exists (40 :: lit "not" ++ 32 :: txt ++ [41]), bb, (PList [PName (chars "not"); e]), (Not f).
      split. { intros st q r. rewrite <- app_assoc, G1. cbn [app expr_to_str]. rewrite E2, TY. reflexivity. }
      split. { intros p s fs Hp B W'. cbn [nesting] in Hp. replace ((40 :: lit "not" ++ 32 :: txt ++ [41]) ++ s) with (40 :: (chars "not" ++ 32 :: txt ++ []) ++ 41 :: s).
               - apply W_list; [lia| |exact W']. apply W_symbol; [discriminate|cbn; wordl|apply breaks_blank; auto|].
                 apply W_blank; [auto|]. apply G2; [lia|exact I|apply W_end].
               - rewrite app_nil_r. cbn [lit map list_ascii_of_string chars app]. repeat (rewrite <- ?app_assoc; cbn [app]). reflexivity. }
      split; [apply Wr_not; exact G3|]. do 3 (split; [assumption|]).
      split. { intros c [H|H]; [unfold line_char; auto|]. apply in_app_or in H. destruct H as [H|[H|H]]; [| |].
               - left. assert (F : Forall word_char (lit "not")) by (cbn; wordl). rewrite Forall_forall in F. exact (F c H).
               - unfold line_char; auto.
               - apply in_app_or in H. destruct H as [H|[H|[]]]; [auto|unfold line_char; auto]. }
      split; [exact G8|]. intros P P' s s' t t' x0 x' H1 H2 H3 H4. cbn [cholds holds]. rewrite (G9 P P' s s' t t' x0 x' H1 H2 H3 H4). reflexivity.
    - apply map_eq_app in EL. destruct EL as (l1 & l2 & -> & E1 & E2). apply map_eq_app in E2. destruct E2 as (l3 & l4 & -> & E2 & E3).
      destruct l4 as [|x [|? ?]]; try discriminate. injection E3 as E3.
      apply Forall_app in NA. destruct NA as (NA1 & NA2). apply Forall_app in NA2. destruct NA2 as (NA2 & _).
      destruct (IH1 l1 E1 NA1 (fun q => proj1 (TH q))) as (txt & bb & e & f & G1 & G2 & G3 & G4 & G5 & G6 & G7 & G8 & G9).
      destruct (IH2 l3 E2 NA2 (fun q => proj2 (TH q))) as (txt' & bb' & e' & f' & G1' & G2' & G3' & G4' & G5' & G6' & G7' & G8' & G9').
      exists (op2 (lit "and") txt txt'), (bb || bb')%bool, (PList [PName (chars "and"); e; e']), (And f f').
      split. { intros st q r. rewrite <- !app_assoc, G1, G1'. cbn [app expr_to_str]. rewrite E3, TY, (orb_assoc q bb bb'). reflexivity. }
      split. { cbn [nesting]. apply (op2_reads (chars "and")); [discriminate|cbn; wordl| |]; [apply (reads_weaken _ _ (nesting a))|apply (reads_weaken _ _ (nesting b))]; auto; lia. }
      split; [apply Wr_and; assumption|]. do 2 (split; [split; assumption|]). split; [cbn [cells cdepth]; rewrite G6, G6'; reflexivity|].
      split. { apply op2_chars; auto. apply word_line. cbn; wordl. }
      split; [intros H; apply orb_true_iff in H; cbn [uses_levels]; tauto|].
      intros P P' s s' t t' x0 x' H1 H2 H3 H4. cbn [cholds holds].
      rewrite (G9 P P' s s' t t' x0 x' H1 H2 H3 H4), (G9' P P' s s' t t' x0 x' H1 H2 H3 H4). reflexivity.
    - apply map_eq_app in EL. destruct EL as (l1 & l2 & -> & E1 & E2). apply map_eq_app in E2. destruct E2 as (l3 & l4 & -> & E2 & E3).
      destruct l4 as [|x [|? ?]]; try discriminate. injection E3 as E3.
      apply Forall_app in NA. destruct NA as (NA1 & NA2). apply Forall_app in NA2. destruct NA2 as (NA2 & _).
      destruct (IH1 l1 E1 NA1 (fun q => proj1 (TH q))) as (txt & bb & e & f & G1 & G2 & G3 & G4 & G5 & G6 & G7 & G8 & G9).
      destruct (IH2 l3 E2 NA2 (fun q => proj2 (TH q))) as (txt' & bb' & e' & f' & G1' & G2' & G3' & G4' & G5' & G6' & G7' & G8' & G9').
      exists (op2 (lit "or") txt txt'), (bb || bb')%bool, (PList [PName (chars "or"); e; e']), (Or f f').
      split. { intros st q r. rewrite <- !app_assoc, G1, G1'. cbn [app expr_to_str]. rewrite E3, TY, (orb_assoc q bb bb'). reflexivity. }
      split. { cbn [nesting]. apply (op2_reads (chars "or")); [discriminate|cbn; wordl| |]; [apply (reads_weaken _ _ (nesting a))|apply (reads_weaken _ _ (nesting b))]; auto; lia. }
      split; [apply Wr_or; assumption|]. do 2 (split; [split; assumption|]). split; [cbn [cells cdepth]; rewrite G6, G6'; reflexivity|].
      split. { apply op2_chars; auto. apply word_line. cbn; wordl. }
      split; [intros H; apply orb_true_iff in H; cbn [uses_levels]; tauto|].
      intros P P' s s' t t' x0 x' H1 H2 H3 H4. cbn [cholds holds].
      rewrite (G9 P P' s s' t t' x0 x' H1 H2 H3 H4), (G9' P P' s s' t t' x0 x' H1 H2 H3 H4). reflexivity.
  Qed.
End Expression.
