(** * Proofs about the labelling rules of CIL *)
From Coq Require Import NArith List Bool Lia ZifyBool Permutation Sorting.Sorted Arith.
From Verif Require Import MlsModel ContextModel CilctxModel CilctxSpec.
Import ListNotations.
Local Open Scope N_scope.

(** ** Comparisons *)
Lemma then_cmp_opp c d : CompOpp (then_cmp c d) = then_cmp (CompOpp c) (CompOpp d).
Proof. destruct c; reflexivity. Qed.
Lemma strcmp_opp a : forall b, strcmp b a = CompOpp (strcmp a b).
Proof.
  induction a as [|x a IH]; intros [|y b]; cbn [strcmp]; try reflexivity.
  rewrite (N.compare_antisym x y). destruct (x ?= y); cbn [CompOpp]; auto.
Qed.
Lemma strcmp_eq a : forall b, strcmp a b = Eq <-> a = b.
Proof.
  induction a as [|x a IH]; intros [|y b]; cbn [strcmp]; try (split; congruence).
  destruct (N.compare_spec x y) as [->|H|H].
  - rewrite IH. split; [intros ->; reflexivity|intros E; injection E; auto].
  - split; [discriminate|intros E; injection E; lia].
  - split; [discriminate|intros E; injection E; lia].
Qed.
Lemma strcmp_trans a : forall b c, strcmp a b <> Gt -> strcmp b c <> Gt -> strcmp a c <> Gt.
Proof.
  induction a as [|x a IH]; intros [|y b] [|z c]; cbn [strcmp]; try congruence.
  destruct (N.compare_spec x y) as [->|H|H], (N.compare_spec y z) as [->|K|K]; intros A B; try congruence.
  - eapply IH; eauto.
  - assert (E : (x ?= z) = Lt) by (apply N.compare_lt_iff; lia). rewrite E. discriminate.
  - assert (E : (x ?= z) = Lt) by (apply N.compare_lt_iff; lia). rewrite E. discriminate.
Qed.

(** Lists of strings in the order of their parts. *)
Fixpoint lex (a b : list (list N)) : comparison :=
  match a, b with
  | [], [] => Eq
  | [], _ => Lt
  | _, [] => Gt
  | x :: a', y :: b' => then_cmp (strcmp x y) (lex a' b')
  end.
Lemma lex_opp a : forall b, lex b a = CompOpp (lex a b).
Proof.
  induction a as [|x a IH]; intros [|y b]; cbn [lex]; try reflexivity.
  rewrite then_cmp_opp, <- IH, <- strcmp_opp. reflexivity.
Qed.
Lemma lex_eq a : forall b, lex a b = Eq <-> a = b.
Proof.
  induction a as [|x a IH]; intros [|y b]; cbn [lex]; try (split; congruence).
  pose proof (strcmp_eq x y) as H. destruct (strcmp x y); cbn [then_cmp].
  - rewrite IH. assert (x = y) as -> by (apply H; reflexivity). split; [intros ->; reflexivity|intros E; injection E; auto].
  - split; [discriminate|]. intros E; injection E as E1 _. apply H in E1. discriminate.
  - split; [discriminate|]. intros E; injection E as E1 _. apply H in E1. discriminate.
Qed.
Lemma strcmp_lt_trans a b c : strcmp a b = Lt -> strcmp b c <> Gt -> strcmp a c = Lt.
Proof.
  intros A B. destruct (strcmp a c) eqn:E; [| reflexivity |].
  - apply strcmp_eq in E. subst c. rewrite strcmp_opp, A in B. cbn [CompOpp] in B. congruence.
  - exfalso. apply (strcmp_trans a b c); congruence.
Qed.
Lemma strcmp_trans_lt a b c : strcmp a b <> Gt -> strcmp b c = Lt -> strcmp a c = Lt.
Proof.
  intros A B. destruct (strcmp a c) eqn:E; [| reflexivity |].
  - apply strcmp_eq in E. subst c. rewrite strcmp_opp, B in A. cbn [CompOpp] in A. congruence.
  - exfalso. apply (strcmp_trans a b c); congruence.
Qed.
Lemma lex_trans a : forall b c, lex a b <> Gt -> lex b c <> Gt -> lex a c <> Gt.
Proof.
  induction a as [|x a IH]; intros [|y b] [|z c]; cbn [lex]; try congruence.
  intros A B.
  destruct (strcmp x y) eqn:E1; cbn [then_cmp] in A; [| |congruence].
  - apply strcmp_eq in E1. subst y. destruct (strcmp x z); cbn [then_cmp] in *; try congruence. eapply IH; eauto.
  - assert (H : strcmp y z <> Gt) by (destruct (strcmp y z); cbn [then_cmp] in B; congruence).
    rewrite (strcmp_lt_trans _ _ _ E1 H). discriminate.
Qed.

(** ** The key of a rule *)
Definition num (n : N) : list N := [n].
Lemma strcmp_num n m : strcmp (num n) (num m) = (n ?= m).
Proof. cbn. destruct (n ?= m); reflexivity. Qed.
Definition key (r : rule) : list (list N) :=
  num (kind r) ::
  match r with
  | Rport q l h _ => [num (minus 32 h l); num l; num q]
  | Rpkey s l h _ => [s; num (minus 32 h l); num l]
  | Rendport d p _ => [d; num p]
  | Rnode v a m _ => [num (if v then 1 else 0); num (2 ^ 128 - m); num a]
  | Rnetif n _ _ => [n]
  | Rgenfs f p _ _ => [f; p]
  | Rfsuse t f _ => [num t; f]
  | Rfile p t _ => match fc_fill false 0 0 p with (m, s, n) => [num (if m then 0 else 1); num s; num n; num t; p] end
  | Rpirq n _ => [num n]
  | Riomem l h _ => [num (minus 64 h l); num l]
  | Rioport l h _ => [num (minus 32 h l); num l]
  | Rpci d _ => [num d]
  | Rtree p _ => [p]
  end.
Lemma then_cmp_eq c : then_cmp c Eq = c.
Proof. destruct c; reflexivity. Qed.
Lemma mask_opp b m m' : m < b -> m' < b -> CompOpp (m ?= m') = (b - m ?= b - m').
Proof.
  intros A B. destruct (N.compare_spec m m') as [->|H|H]; cbn [CompOpp].
  - symmetry. apply N.compare_refl.
  - symmetry. apply N.compare_gt_iff. lia.
  - symmetry. apply N.compare_lt_iff. lia.
Qed.
Lemma mask_fits (v : bool) m : m < 2 ^ (if v then 128 else 32) -> m < 2 ^ 128.
Proof.
  destruct v; [auto|]. intros H. eapply N.lt_trans; [exact H|]. apply N.pow_lt_mono_r; lia.
Qed.
Lemma compar_key a b : fits a -> fits b -> compar a b = lex (key a) (key b).
Proof.
  intros Fa Fb. unfold key.
  destruct a, b; cbn [compar kind lex]; rewrite ?strcmp_num; cbn [N.compare Pos.compare Pos.compare_cont then_cmp];
    try reflexivity; rewrite ?strcmp_num, ?then_cmp_eq; unfold spaceship; try reflexivity.
  - destruct v6, v0; cbn [N.compare Pos.compare Pos.compare_cont then_cmp]; try reflexivity; destruct Fa as [_ Fa], Fb as [_ Fb];
      rewrite (mask_opp (2 ^ 128)); try reflexivity; first [exact Fa|exact Fb|exact (mask_fits false _ Fa)|exact (mask_fits false _ Fb)].
  - destruct (fc_fill false 0 0 path) as [[m s] n], (fc_fill false 0 0 path0) as [[m' s'] n'].
    cbn [lex]. rewrite !strcmp_num, then_cmp_eq. destruct m, m'; reflexivity.
Qed.
Lemma compar_opp a b : fits a -> fits b -> compar b a = CompOpp (compar a b).
Proof. intros A B. rewrite !compar_key by assumption. apply lex_opp. Qed.
Lemma compar_trans a b c : fits a -> fits b -> fits c -> compar a b <> Gt -> compar b c <> Gt -> compar a c <> Gt.
Proof. intros A B C. rewrite !compar_key by assumption. apply lex_trans. Qed.
Lemma compar_refl a : fits a -> compar a a = Eq.
Proof. intros A. rewrite compar_key by assumption. apply lex_eq. reflexivity. Qed.

Lemma minus_spec w a b : a < 2 ^ w -> b < 2 ^ w -> (b <= a -> minus w a b = a - b) /\ (a < b -> minus w a b = a + 2 ^ w - b).
Proof.
  unfold minus. generalize (2 ^ w). intros M A B. split; intros H.
  - replace (a + M - b) with ((a - b) + 1 * M) by lia. rewrite N.mod_add by lia. apply N.mod_small. lia.
  - apply N.mod_small. lia.
Qed.
Lemma minus_inj w a a' b : a < 2 ^ w -> a' < 2 ^ w -> b < 2 ^ w -> minus w a b = minus w a' b -> a = a'.
Proof.
  intros A A' B H. destruct (minus_spec w a b A B) as [H1 H2], (minus_spec w a' b A' B) as [H3 H4]. revert H H1 H2 H3 H4 A A' B.
  generalize (minus w a b) (minus w a' b) (2 ^ w). intros. destruct (N.le_gt_cases b a), (N.le_gt_cases b a'); lia.
Qed.
(** Rules that compare equal name one object, but for the class of files of a genfscon. *)
Definition same_code (a b : rule) : Prop :=
  same_object a b \/ exists f p t t' c c', a = Rgenfs f p t c /\ b = Rgenfs f p t' c'.
Lemma num_inj n m : num n = num m -> n = m.
Proof. intros H. injection H. auto. Qed.
Lemma compar_eq a b : fits a -> fits b -> (compar a b = Eq <-> same_code a b).
Proof.
  intros Fa Fb. rewrite compar_key by assumption. rewrite lex_eq. split.
  - unfold key. intros H. assert (K : kind a = kind b) by (injection H; intros; assumption).
    destruct a, b; cbn [kind] in K; try discriminate K; clear K; cbn [fits] in Fa, Fb;
      try (injection H; intros; subst; first [left; constructor | right; do 6 eexists; split; reflexivity]; fail).
    + injection H as H1 H2 H3. subst. destruct Fa as (_ & Fa & Fa'), Fb as (_ & Fb & Fb').
      assert (high = high0) by (apply (minus_inj 32 _ _ low0); assumption). subst. left. constructor.
    + injection H as H1 H2 H3. subst. destruct Fa as (Fa & Fa'), Fb as (Fb & Fb').
      assert (high = high0) by (apply (minus_inj 32 _ _ low0); assumption). subst. left. constructor.
    + injection H as H1 H2 H3. subst addr0. destruct v6, v0; try discriminate H1; destruct Fa as [_ Fa], Fb as [_ Fb].
      * assert (mask = mask0) by (revert H2 Fa Fb; cbn [fits]; generalize (2 ^ 128); intros; lia). subst. left. constructor.
      * apply (mask_fits false) in Fa. apply (mask_fits false) in Fb.
        assert (mask = mask0) by (revert H2 Fa Fb; generalize (2 ^ 128); intros; lia). subst. left. constructor.
    + destruct (fc_fill false 0 0 path) as [[m s] n], (fc_fill false 0 0 path0) as [[m' s'] n'].
      injection H; intros; subst. left. constructor.
    + injection H as H1 H2. subst. destruct Fa as (Fa & Fa'), Fb as (Fb & Fb').
      assert (high = high0) by (apply (minus_inj 64 _ _ low0); assumption). subst. left. constructor.
    + injection H as H1 H2. subst. destruct Fa as (Fa & Fa'), Fb as (Fb & Fb').
      assert (high = high0) by (apply (minus_inj 32 _ _ low0); assumption). subst. left. constructor.
  - intros [H|(f & p & t & t' & c & c' & -> & ->)]; [|reflexivity]. destruct H; reflexivity.
Qed.

(** ** Contexts *)
Lemma then_cmp_Eq c d : then_cmp c d = Eq <-> c = Eq /\ d = Eq.
Proof. destruct c; cbn [then_cmp]; split; try tauto; intros H; try discriminate H; try (destruct H; discriminate). Qed.
Lemma cats_near a b : cats_compare a b = Eq <-> (a = None <-> b = None).
Proof.
  destruct a, b; cbn [cats_compare]; split; intros; try discriminate; try reflexivity.
  - split; intros; discriminate.
  - match goal with |- (if ?x then _ else _) = _ => destruct x end; reflexivity.
  - destruct H as [_ H]. discriminate H. reflexivity.
  - destruct H as [H _]. discriminate H. reflexivity.
Qed.
Lemma level_near a b : level_compare a b = Eq <-> near_level a b.
Proof. unfold level_compare, near_level. rewrite then_cmp_Eq, strcmp_eq, cats_near. reflexivity. Qed.
Lemma context_near a b : context_compare a b = Eq <-> near (Some a) (Some b).
Proof. unfold context_compare, near. rewrite !then_cmp_Eq, !strcmp_eq, !level_near. tauto. Qed.

Lemma near_level_refl a : near_level a a.
Proof. split; [reflexivity|tauto]. Qed.
Lemma near_level_sym a b : near_level a b -> near_level b a.
Proof. intros [A B]. split; [auto|tauto]. Qed.
Lemma near_level_trans a b c : near_level a b -> near_level b c -> near_level a c.
Proof. intros [A B] [C D]. split; [congruence|tauto]. Qed.
Lemma near_refl a : near a a.
Proof. destruct a; cbn; [|exact I]. do 3 (split; [reflexivity|]). split; apply near_level_refl. Qed.
Lemma near_sym a b : near a b -> near b a.
Proof. destruct a, b; cbn; auto. intros (A & B & C & D & E). do 3 (split; [auto|]). split; apply near_level_sym; assumption. Qed.
Lemma near_trans a b c : near a b -> near b c -> near a c.
Proof.
  destruct a, b, c; cbn; try tauto. intros (A & B & C & D & E) (A' & B' & C' & D' & E').
  do 3 (split; [congruence|]). split; eapply near_level_trans; eauto.
Qed.
Lemma nears_refl l : Forall2 near l l.
Proof. induction l; constructor; auto using near_refl. Qed.
Lemma nears_sym l : forall m, Forall2 near l m -> Forall2 near m l.
Proof. induction l; intros m H; inversion H; subst; constructor; auto using near_sym. Qed.
Lemma nears_trans l : forall m n, Forall2 near l m -> Forall2 near m n -> Forall2 near l n.
Proof. induction l; intros m n H K; inversion H; subst; inversion K; subst; constructor; eauto using near_trans. Qed.
Lemma near_one a b : Forall2 near [a] [b] <-> near a b.
Proof. split; [intros H; inversion H; assumption|intros H; constructor; [exact H|constructor]]. Qed.

Lemma same_object_refl a : same_object a a.
Proof. destruct a; constructor. Qed.
Lemma same_object_sym a b : same_object a b -> same_object b a.
Proof. intros H; destruct H; constructor. Qed.
Lemma same_object_trans a b c : same_object a b -> same_object b c -> same_object a c.
Proof. intros H K. destruct H; inversion K; subst; constructor. Qed.
Lemma alike_refl a : alike a a.
Proof. split; [apply same_object_refl|apply nears_refl]. Qed.

(** What concompar tells of rules for one object. *)
Lemma concompar_same a b : same_code a b ->
  match concompar a b with
  | ROk Eq => Forall2 near (gives a) (gives b) /\ ~ In None (gives a)
  | ROk _ => ~ Forall2 near (gives a) (gives b)
  | RErr => False
  | RUB => In None (gives a) \/ In None (gives b)
  end.
Proof.
  intros H.
  assert (one : forall c c', match context_compare c c' with
     | Eq => Forall2 near [Some c] [Some c'] /\ ~ In None [Some c] | _ => ~ Forall2 near [Some c] [Some c'] end).
  { intros c c'. pose proof (context_near c c') as K. rewrite <- near_one in K.
    destruct (context_compare c c'); [split; [apply K; reflexivity|intros [J|[]]; discriminate J]| |]; intros J; apply K in J; discriminate J. }
  destruct H as [H|(f & p & t & t' & c & c' & -> & ->)]; [|exact (one c c')].
  destruct H; cbn [concompar gives]; try (apply one).
  - pose proof (context_near c c') as K. pose proof (context_near d d') as K'.
    destruct (context_compare c c'); cbn [then_cmp].
    2,3: intros J; inversion J; subst; apply K in H2; discriminate.
    destruct (context_compare d d').
    2,3: intros J; inversion J; subst; inversion H4; subst; apply K' in H3; discriminate.
    split; [|intros [J|[J|[]]]; discriminate J]. constructor; [apply K; reflexivity|]. apply near_one, K'. reflexivity.
  - destruct c as [c|], c' as [c'|]; try (left; left; reflexivity); [apply one|right; left; reflexivity].
Qed.
