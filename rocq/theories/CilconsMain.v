(** Proofs about lists of CIL constraint statements. *)
From Verif Require Import Base EbitmapModel EbitmapSpec EbitmapProofs MlsModel MlsSpec AvtabModel AvtabSpec AvtabProofs
  ServicesModel ServicesSpec ServicesProofs CilparseModel CilconsModel CilconsSpec CilconsProofs.
Local Open Scope N_scope.
Local Open Scope list_scope.

Section Cp_ind.
  Context (Q : classperm -> Prop).
  Context (HC : forall cls perms, Q (CpClass cls perms)) (HM : forall l, Forall Q l -> Q (CpMany l)).
  Fixpoint cp_ind (c : classperm) : Q c :=
    match c with
    | CpClass cls perms => HC cls perms
    | CpMany l => HM l ((fix go (l : list classperm) : Forall Q l :=
        match l with [] => Forall_nil Q | c :: l' => Forall_cons c (cp_ind c) (go l') end) l)
    end.
End Cp_ind.

(** The class and permission list occurs in the class permissions. *)
Inductive within (cls : N) (perms : list N) : classperm -> Prop :=
| In_class : within cls perms (CpClass cls perms)
| In_many c l : In c l -> within cls perms c -> within cls perms (CpMany l).

Lemma within_many cls perms l : within cls perms (CpMany l) <-> exists c, In c l /\ within cls perms c.
Proof. split; [intros H; inversion H; eauto|intros (c & A & B); eapply In_many; eauto]. Qed.

Definition expand_list (E : names_env) (x : cilexp N) : list classperm -> ctables -> option ctables :=
  fix go (l : list classperm) (T : ctables) : option ctables :=
    match l with
    | [] => Some T
    | c :: l' => match constrain_expand E x T c with Some T' => go l' T' | None => None end
    end.
Lemma expand_many E x T l : constrain_expand E x T (CpMany l) = expand_list E x l T.
Proof. reflexivity. Qed.
Lemma expand_list_cons E x c l T : expand_list E x (c :: l) T =
  match constrain_expand E x T c with Some T' => expand_list E x l T' | None => None end.
Proof. reflexivity. Qed.

Definition adds (E : names_env) (x : cilexp N) (c : classperm) (cls : N) (n : cnstr) : Prop :=
  exists perms l, within cls perms c /\ perms_to_datum perms <> 0 /\ to_sepol E x = Some l /\
    validate_constrain l 0 = true /\ n = mkCN (perms_to_datum perms) l.

Lemma expand_adds E x : forall c T T', constrain_expand E x T c = Some T' ->
  ct_vtrans T' = ct_vtrans T /\ forall cls n, In n (ct_cons T' cls) <-> In n (ct_cons T cls) \/ adds E x c cls n.
Proof.
  induction c as [cl perms|l IH] using cp_ind; intros T T' H.
  - cbn [constrain_expand] in H. unfold constrain_helper in H.
    destruct (N.eqb_spec (perms_to_datum perms) 0) as [Z|Z].
    + injection H as <-. split; [reflexivity|]. intros cls n. split; [auto|]. intros [A|(p & m & W & NZ & _)]; [exact A|].
      inversion W; subst. destruct (NZ Z).
    + destruct (to_sepol E x) as [m|] eqn:TS; [|discriminate]. destruct (validate_constrain m 0) eqn:V; [|discriminate].
      injection H as <-. split; [reflexivity|]. intros cls n. cbn [ct_cons]. unfold push. destruct (N.eqb_spec cls cl) as [->|NE].
      * cbn [In]. split.
        -- intros [<-|A]; [right|left; exact A]. exists perms, m. split; [apply In_class|]. auto.
        -- intros [A|(p & m' & W & _ & TS' & _ & ->)]; [right; exact A|left]. inversion W; subst. congruence.
      * split; [auto|]. intros [A|(p & m' & W & _)]; [exact A|]. inversion W; subst. destruct (NE eq_refl).
  - rewrite expand_many in H.
    assert (G : ct_vtrans T' = ct_vtrans T /\ forall cls n, In n (ct_cons T' cls) <->
              In n (ct_cons T cls) \/ exists c, In c l /\ adds E x c cls n).
    { revert T H. induction l as [|c l IHl]; intros T H.
      - injection H as <-. split; [reflexivity|]. intros cls n. split; [auto|]. intros [A|(c & [] & _)]. exact A.
      - inversion IH as [|? ? IHc IHr]; subst. rewrite expand_list_cons in H.
        destruct (constrain_expand E x T c) as [T1|] eqn:EX; [|discriminate].
        destruct (IHc _ _ EX) as [V1 G1]. destruct (IHl IHr _ H) as [V2 G2]. split; [congruence|].
        intros cls n. rewrite G2, G1. cbn [In]. split.
        + intros [[A|A]|(c' & A & B)]; [left; exact A|right; exists c; auto|right; exists c'; auto].
        + intros [A|(c' & [<-|A] & B)]; [left; left; exact A|left; right; exact B|right; exists c'; auto]. }
    destruct G as [V G]. split; [exact V|]. intros cls n. rewrite G. split; (intros [A|A]; [left; exact A|right]).
    + destruct A as (c & I & p & m & W & R). exists p, m. split; [apply (In_many cls p c l I W)|exact R].
    + destruct A as (p & m & W & R). apply within_many in W. destruct W as (c & I & W). exists c. split; [exact I|]. exists p, m. auto.
Qed.

Lemma validate_adds E x : forall classes T T', validatetrans_loop E x classes T = Some T' ->
  ct_cons T' = ct_cons T /\ forall cls n, In n (ct_vtrans T' cls) <-> In n (ct_vtrans T cls) \/
    (In cls classes /\ exists l, to_sepol E x = Some l /\ n = mkCN 0 l).
Proof.
  induction classes as [|c classes IH]; intros T T' H; cbn [validatetrans_loop] in H.
  - injection H as <-. split; [reflexivity|]. intros cls n. cbn [In]. tauto.
  - destruct (to_sepol E x) as [l|] eqn:TS; [|discriminate]. destruct (IH _ _ H) as [C G]. split; [exact C|].
    intros cls n. rewrite G. cbn [ct_vtrans In]. unfold push. destruct (N.eqb_spec cls c) as [->|NE].
    + cbn [In]. split.
      * intros [[<-|A]|[A B]]; [right; split; [auto|]; exists l; auto|left; exact A|right; split; [auto|exact B]].
      * intros [A|[_ (l' & B & ->)]]; [left; right; exact A|left; left]. congruence.
    + split; [intros [A|[A B]]; [left; exact A|right; auto]|intros [A|[[A|A] B]]; [left; exact A|congruence|right; auto]].
Qed.

Definition effect (mls pm : bool) : bool := negb (mls && negb pm).
Lemma effect_iff mls pm : effect mls pm = true <-> in_effect mls pm.
Proof. unfold in_effect. destruct mls, pm; cbn; split; intros H; try reflexivity; try discriminate; try (intros; reflexivity); try (discriminate (H eq_refl)). Qed.

Lemma binary_adds E pm : forall l T T', binary_all E pm l T = Some T' ->
  (forall cls n, In n (ct_cons T' cls) <-> In n (ct_cons T cls) \/
     exists mls c x, In (Constrain mls c x) l /\ in_effect mls pm /\ adds E x (CpMany c) cls n) /\
  (forall cls n, In n (ct_vtrans T' cls) <-> In n (ct_vtrans T cls) \/
     exists mls c x, In (Validate mls c x) l /\ in_effect mls pm /\ In cls c /\ exists m, to_sepol E x = Some m /\ n = mkCN 0 m).
Proof.
  induction l as [|st l IH]; intros T T' H; cbn [binary_all] in H.
  - injection H as <-. split; intros cls n; (split; [auto|intros [A|(mls & c & x & [] & _)]; exact A]).
  - destruct (binary_stmt E pm T st) as [T1|] eqn:B; [|discriminate]. destruct (IH _ _ H) as [G1 G2].
    assert (S1 : (forall cls n, In n (ct_cons T1 cls) <-> In n (ct_cons T cls) \/
        exists mls c x, st = Constrain mls c x /\ in_effect mls pm /\ adds E x (CpMany c) cls n) /\
      (forall cls n, In n (ct_vtrans T1 cls) <-> In n (ct_vtrans T cls) \/
        exists mls c x, st = Validate mls c x /\ in_effect mls pm /\ In cls c /\ exists m, to_sepol E x = Some m /\ n = mkCN 0 m)).
    { clear IH H G1 G2. destruct st as [mls c x|mls c x]; unfold binary_stmt in B.
      - destruct (mls && negb pm) eqn:EF.
        + injection B as <-. split; intros cls n; (split; [auto|intros [A|(m & c' & x' & Q & IE & _)]; [exact A|]]); [|discriminate Q].
          injection Q as <- <- <-. apply effect_iff in IE. unfold effect in IE. rewrite EF in IE. discriminate IE.
        + destruct (expand_adds _ _ _ _ _ B) as [V G]. rewrite V. split; intros cls n.
          * rewrite G. split; (intros [A|A]; [left; exact A|right]).
            -- exists mls, c, x. split; [reflexivity|]. split; [apply effect_iff; unfold effect; rewrite EF; reflexivity|exact A].
            -- destruct A as (m & c' & x' & Q & _ & A). injection Q as <- <- <-. exact A.
          * split; [auto|]. intros [A|(m & c' & x' & Q & _)]; [exact A|discriminate Q].
      - destruct (mls && negb pm) eqn:EF.
        + injection B as <-. split; intros cls n; (split; [auto|intros [A|(m & c' & x' & Q & IE & _)]; [exact A|]]); [discriminate Q|].
          injection Q as <- <- <-. apply effect_iff in IE. unfold effect in IE. rewrite EF in IE. discriminate IE.
        + destruct (validate_adds _ _ _ _ _ B) as [V G]. rewrite V. split; intros cls n.
          * split; [auto|]. intros [A|(m & c' & x' & Q & _)]; [exact A|discriminate Q].
          * rewrite G. split; (intros [A|A]; [left; exact A|right]).
            -- exists mls, c, x. split; [reflexivity|]. split; [apply effect_iff; unfold effect; rewrite EF; reflexivity|exact A].
            -- destruct A as (m & c' & x' & Q & _ & A). injection Q as <- <- <-. exact A. }
    destruct S1 as [S1 S2]. split; intros cls n.
    + rewrite G1, S1. cbn [In]. split.
      * intros [[A|(m & c & x & A & B')]|(m & c & x & A & B')]; [left; exact A|right; exists m, c, x; auto|right; exists m, c, x; auto].
      * intros [A|(m & c & x & [A|A] & B')]; [left; left; exact A|left; right; exists m, c, x; auto|right; exists m, c, x; auto].
    + rewrite G2, S2. cbn [In]. split.
      * intros [[A|(m & c & x & A & B')]|(m & c & x & A & B')]; [left; exact A|right; exists m, c, x; auto|right; exists m, c, x; auto].
      * intros [A|(m & c & x & [A|A] & B')]; [left; left; exact A|left; right; exists m, c, x; auto|right; exists m, c, x; auto].
Qed.

(** ** When the third pass succeeds *)
Definition translatable (E : names_env) (x : cilexp N) : Prop := exists m, to_sepol E x = Some m /\ validate_constrain m 0 = true.

Lemma expand_ok E x : forall c T, constrain_expand E x T c <> None <->
  ((exists cls perms, within cls perms c /\ perms_to_datum perms <> 0) -> translatable E x).
Proof.
  induction c as [cl perms|l IH] using cp_ind; intros T.
  - cbn [constrain_expand]. unfold constrain_helper, translatable. destruct (N.eqb_spec (perms_to_datum perms) 0) as [Z|Z].
    + split; [|discriminate]. intros _ (cls & p & W & NZ). inversion W; subst. destruct (NZ Z).
    + destruct (to_sepol E x) as [m|].
      * destruct (validate_constrain m 0) eqn:V; (split; [|]); try discriminate; [intros _ _; exists m; auto|intros H; destruct (H eq_refl)|].
        intros H _. destruct H as (m' & A & B); [exists cl, perms; split; [apply In_class|exact Z]|]. congruence.
      * split; [intros H; destruct (H eq_refl)|]. intros H. destruct H as (m' & A & B); [exists cl, perms; split; [apply In_class|exact Z]|]. discriminate.
  - rewrite expand_many.
    assert (G : expand_list E x l T <> None <-> forall c, In c l -> (exists cls perms, within cls perms c /\ perms_to_datum perms <> 0) -> translatable E x).
    { revert T. induction l as [|c l IHl]; intros T; [split; [intros _ c []|discriminate]|].
      inversion IH as [|? ? IHc IHr]; subst. rewrite expand_list_cons. destruct (constrain_expand E x T c) as [T1|] eqn:EX.
      - rewrite (IHl IHr T1). split.
        + intros H c' [<-|I]; [|exact (H c' I)]. apply (IHc T). rewrite EX. discriminate.
        + intros H c' I. apply (H c'). right; exact I.
      - split; [intros H; destruct (H eq_refl)|]. intros H. exfalso. apply (proj2 (IHc T) (H c (or_introl eq_refl))). exact EX. }
    rewrite G. split.
    + intros H (cls & perms & W & NZ). apply within_many in W. destruct W as (c & I & W). apply (H c I). eauto.
    + intros H c I (cls & perms & W & NZ). apply H. exists cls, perms. split; [exact (In_many cls perms c l I W)|exact NZ].
Qed.

Lemma validate_ok E x : forall classes T, validatetrans_loop E x classes T <> None <-> (classes <> [] -> exists m, to_sepol E x = Some m).
Proof.
  induction classes as [|c classes IH]; intros T; cbn [validatetrans_loop]; [split; [intros _ H; destruct (H eq_refl)|discriminate]|].
  destruct (to_sepol E x) as [m|].
  - rewrite IH. split; intros _ _; eauto.
  - split; [intros H; destruct (H eq_refl)|]. intros H. destruct H as (m & Q); [discriminate|discriminate Q].
Qed.

Definition stmt_ok (E : names_env) (pm : bool) (st : cstmt (cilexp N)) : Prop :=
  match st with
  | Constrain mls c x => in_effect mls pm -> (exists cls perms, within cls perms (CpMany c) /\ perms_to_datum perms <> 0) -> translatable E x
  | Validate mls c x => in_effect mls pm -> c <> [] -> exists m, to_sepol E x = Some m
  end.

Lemma binary_stmt_ok E pm st T : binary_stmt E pm T st <> None <-> stmt_ok E pm st.
Proof.
  destruct st as [mls c x|mls c x]; unfold binary_stmt, stmt_ok; rewrite <- (effect_iff mls pm); unfold effect; destruct (mls && negb pm); cbn [negb].
  - split; [intros _ Q; discriminate Q|discriminate].
  - rewrite expand_ok. split; [auto|intros H; apply H; reflexivity].
  - split; [intros _ Q; discriminate Q|discriminate].
  - rewrite validate_ok. split; [auto|intros H; apply H; reflexivity].
Qed.

Lemma binary_all_ok E pm : forall l T, binary_all E pm l T <> None <-> forall st, In st l -> stmt_ok E pm st.
Proof.
  induction l as [|st l IH]; intros T; cbn [binary_all In]; [split; [intros _ st []|discriminate]|].
  destruct (binary_stmt E pm T st) as [T1|] eqn:B.
  - rewrite IH. split; [intros H s [<-|I]; [apply (binary_stmt_ok E pm st T); rewrite B; discriminate|exact (H s I)]|auto].
  - split; [intros H; destruct (H eq_refl)|]. intros H. exfalso. apply (proj2 (binary_stmt_ok E pm st T) (H st (or_introl eq_refl))). exact B.
Qed.

(** ** The first two passes *)
Lemma pass_in {A B} (f : A -> option B) : forall l r, pass f l = Some r ->
  (forall b, In b r -> exists a, In a l /\ f a = Some b) /\ (forall a, In a l -> exists b, f a = Some b /\ In b r).
Proof.
  induction l as [|x l IH]; intros r H; cbn [pass] in H.
  - injection H as <-. split; intros ? [].
  - destruct (f x) as [y|] eqn:FX; [|discriminate]. destruct (pass f l) as [r'|]; [|discriminate]. injection H as <-.
    destruct (IH r' eq_refl) as [P1 P2]. split.
    + intros b [<-|I]; [exists x; split; [left; reflexivity|exact FX]|]. destruct (P1 b I) as (a & Ia & Fa). exists a. split; [right; exact Ia|exact Fa].
    + intros a [<-|I]; [exists y; split; [exact FX|left; reflexivity]|]. destruct (P2 a I) as (b & Fb & Ib). exists b. split; [exact Fb|right; exact Ib].
Qed.
Lemma pass_total {A B} (f : A -> option B) : forall l, pass f l <> None <-> forall a, In a l -> f a <> None.
Proof.
  induction l as [|x l IH]; cbn [pass In].
  - split; [intros _ a []|discriminate].
  - split.
    + intros H a [<-|I]; [destruct (f x); [discriminate|intros _; exact (H eq_refl)]|]. apply IH; [|exact I]. intros C. rewrite C in H. destruct (f x); exact (H eq_refl).
    + intros H. pose proof (H x (or_introl eq_refl)) as HX. destruct (f x); [|destruct (HX eq_refl)].
      assert (Q : pass f l <> None) by (apply IH; intros a I; apply H; right; exact I). destruct (pass f l); [discriminate|destruct (Q eq_refl)].
Qed.

Definition both (E : names_env) (vt : bool) (e : ptree) (x : cilexp N) : Prop :=
  exists y, fill_constraint vt e = Some y /\ resolve_constraint E y = Some x.

Lemma compiled_both E pm l T : compile_constraints E pm l = Some T -> exists l2, binary_all E pm l2 (mkCT (fun _ => []) (fun _ => [])) = Some T /\
  (forall mls c e, In (Constrain mls c e) l -> exists x, both E false e x /\ In (Constrain mls c x) l2) /\
  (forall mls c e, In (Validate mls c e) l -> exists x, both E true e x /\ In (Validate mls c x) l2) /\
  (forall mls c x, In (Constrain mls c x) l2 -> exists e, both E false e x /\ In (Constrain mls c e) l) /\
  (forall mls c x, In (Validate mls c x) l2 -> exists e, both E true e x /\ In (Validate mls c e) l).
Proof.
  unfold compile_constraints. destruct (pass gen_stmt l) as [l1|] eqn:P1; [|discriminate].
  destruct (pass (resolve_stmt E) l1) as [l2|] eqn:P2; [|discriminate]. intros B. exists l2. split; [exact B|].
  destruct (pass_in _ _ _ P1) as [A1 A2]. destruct (pass_in _ _ _ P2) as [B1 B2]. clear P1 P2 B.
  split; [|split; [|split]].
  - intros mls c e I. destruct (A2 _ I) as (s1 & G & I1). unfold gen_stmt in G. destruct (fill_constraint false e) as [y|] eqn:F; [|discriminate].
    injection G as <-. destruct (B2 _ I1) as (s2 & R & I2). unfold resolve_stmt in R. destruct (resolve_constraint E y) as [x|] eqn:RC; [|discriminate].
    injection R as <-. exists x. split; [exists y; auto|exact I2].
  - intros mls c e I. destruct (A2 _ I) as (s1 & G & I1). unfold gen_stmt in G. destruct (fill_constraint true e) as [y|] eqn:F; [|discriminate].
    injection G as <-. destruct (B2 _ I1) as (s2 & R & I2). unfold resolve_stmt in R. destruct (resolve_constraint E y) as [x|] eqn:RC; [|discriminate].
    injection R as <-. exists x. split; [exists y; auto|exact I2].
  - intros mls c x I. destruct (B1 _ I) as (s1 & I1 & R). destruct s1 as [m c' y|m c' y]; unfold resolve_stmt in R;
    (destruct (resolve_constraint E y) as [x'|] eqn:RC; [|discriminate]); [|discriminate]. injection R as -> -> ->.
    destruct (A1 _ I1) as (s0 & I0 & G). destruct s0 as [m e' z|m e' z]; unfold gen_stmt in G.
    + destruct (fill_constraint false z) as [y'|] eqn:F; [|discriminate]. injection G as -> -> ->. exists z. split; [exists y; auto|exact I0].
    + destruct (fill_constraint true z); discriminate.
  - intros mls c x I. destruct (B1 _ I) as (s1 & I1 & R). destruct s1 as [m c' y|m c' y]; unfold resolve_stmt in R;
    (destruct (resolve_constraint E y) as [x'|] eqn:RC; [|discriminate]); [discriminate|]. injection R as -> -> ->.
    destruct (A1 _ I1) as (s0 & I0 & G). destruct s0 as [m e' z|m e' z]; unfold gen_stmt in G.
    + destruct (fill_constraint false z); discriminate.
    + destruct (fill_constraint true z) as [y'|] eqn:F; [|discriminate]. injection G as -> -> ->. exists z. split; [exists y; auto|exact I0].
Qed.

(** ** Permissions *)
Lemma fold_perms l : forall d p, (forall v, In v l -> 1 <= v) ->
  N.testbit (fold_left (fun d v => N.lor d (N.shiftl 1 (v - 1))) l d) p = true <-> N.testbit d p = true \/ In (p + 1) l.
Proof.
  induction l as [|v l IH]; intros d p H; cbn [fold_left In]; [tauto|].
  rewrite IH by (intros u I; apply H; right; exact I). pose proof (H v (or_introl eq_refl)) as Hv.
  rewrite N.lor_spec, orb_true_iff, N.shiftl_1_l, N.pow2_bits_eqb, N.eqb_eq.
  split; [intros [[A|A]|A]|intros [A|[A|A]]]; auto; [right; left; lia|left; right; lia].
Qed.
Lemma perms_datum l p : (forall v, In v l -> 1 <= v <= 32) -> N.testbit (perms_to_datum l) p = true <-> In (p + 1) l.
Proof.
  intros H. unfold perms_to_datum. rewrite fold_perms by (intros v I; apply H; exact I). rewrite N.bits_0. split; [intros [A|A]; [discriminate|exact A]|auto].
Qed.

Lemma mentions_within cls p c : mentions cls p c <-> exists perms, within cls perms c /\ In (p + 1) perms.
Proof.
  split.
  - intros M. induction M as [perms I|c l I M IH]; [exists perms; split; [apply In_class|exact I]|].
    destruct IH as (perms & W & A). exists perms. split; [exact (In_many cls perms c l I W)|exact A].
  - intros (perms & W & A). induction W as [|c l I W IH]; [apply Me_class; exact A|exact (Me_many cls p c l I IH)].
Qed.

Lemma within_perms cls perms c : within cls perms c -> perms_ok c -> forall v, In v perms -> 1 <= v <= 32.
Proof.
  intros W. induction W as [|c l I W IH]; intros OK; inversion OK; subst; [assumption|]. apply IH. auto.
Qed.

(** ** All statements *)
Section Stmts.
  Context (E : names_env) (EOK : env_ok E).

  Lemma both_translated vt e x l : both E vt e x -> to_sepol E x = Some l ->
    exists y, fill_constraint vt e = Some y /\ translated E y = Some l /\ written e (form_of y) /\ admitted vt (form_of y) /\ shaped y.
  Proof.
    intros (y & F & R) T. exists y. split; [exact F|]. split; [unfold translated; rewrite R; exact T|]. exact (fill_sound vt e y F).
  Qed.

  Lemma validated_cells y l : shaped y -> translated E y = Some l -> (validate_constrain l 0 = true <-> (cells (form_of y) <= 5)%nat).
  Proof.
    intros S T. pose proof (translated_depth E y S l T [] 0%nat ltac:(lia)) as H. rewrite app_nil_r in H. rewrite H. cbn [Nat.add].
    destruct (Nat.leb_spec (cells (form_of y)) 5); cbn; split; intros; try reflexivity; try discriminate; lia.
  Qed.

  Context (pm : bool) (l : list (cstmt ptree)) (T : ctables) (C : compile_constraints E pm l = Some T) (L : all_legal l).

  Lemma cons_from cls n : In n (ct_cons T cls) -> exists mls c e f perms m,
    In (Constrain mls c e) l /\ in_effect mls pm /\ within cls perms (CpMany c) /\ perms_to_datum perms <> 0 /\
    written e f /\ (cells f <= 5)%nat /\ means E false f m /\ n = mkCN (perms_to_datum perms) m.
  Proof.
    destruct (compiled_both E pm l T C) as (l2 & B & S1 & _ & S3 & _). destruct (binary_adds E pm l2 _ _ B) as [G _].
    rewrite G. cbn [ct_cons In].
    intros [[]|(mls & c & x & I2 & IE & perms & m & W & NZ & TS & V & ->)]. destruct (S3 _ _ _ I2) as (e & BO & I).
    destruct (both_translated _ _ _ _ BO TS) as (y & F & TR & WR & AD & SH).
    pose proof (proj1 (L _ I) _ WR) as LG.
    exists mls, c, e, (form_of y), perms, m. do 5 (split; [assumption|]). split; [apply (validated_cells y m SH TR), V|].
    split; [exact (translated_means E EOK false y SH LG m TR)|reflexivity].
  Qed.

  Lemma cons_to mls c e cls perms : In (Constrain mls c e) l -> in_effect mls pm -> within cls perms (CpMany c) ->
    perms_to_datum perms <> 0 -> exists f m, written e f /\ means E false f m /\ In (mkCN (perms_to_datum perms) m) (ct_cons T cls).
  Proof.
    intros I IE W NZ. destruct (compiled_both E pm l T C) as (l2 & B & S1 & _). destruct (S1 _ _ _ I) as (x & BO & I2).
    assert (OK : stmt_ok E pm (Constrain mls c x)).
    { apply (proj1 (binary_all_ok E pm l2 (mkCT (fun _ => []) (fun _ => [])))); [rewrite B; discriminate|exact I2]. }
    destruct (OK IE) as (m & TS & V); [exists cls, perms; auto|].
    destruct (both_translated _ _ _ _ BO TS) as (y & F & TR & WR & AD & SH). exists (form_of y), m. split; [exact WR|].
    split; [exact (translated_means E EOK false y SH (proj1 (L _ I) _ WR) m TR)|].
    apply (proj1 (binary_adds E pm l2 _ _ B)). right. exists mls, c, x. split; [exact I2|]. split; [exact IE|]. exists perms, m. auto.
  Qed.

  Lemma vtrans_from cls n : In n (ct_vtrans T cls) -> exists mls c e f m,
    In (Validate mls c e) l /\ in_effect mls pm /\ In cls c /\ written e f /\ (cells f <= 5)%nat /\ means E true f m /\ n = mkCN 0 m.
  Proof.
    destruct (compiled_both E pm l T C) as (l2 & B & _ & _ & _ & S4). destruct (binary_adds E pm l2 _ _ B) as [_ G].
    rewrite G. cbn [ct_vtrans In].
    intros [[]|(mls & c & x & I2 & IE & IC & m & TS & ->)]. destruct (S4 _ _ _ I2) as (e & BO & I).
    destruct (both_translated _ _ _ _ BO TS) as (y & F & TR & WR & AD & SH).
    destruct (L _ I _ WR) as [LG CE].
    exists mls, c, e, (form_of y), m. do 5 (split; [assumption|]).
    split; [exact (translated_means E EOK true y SH LG m TR)|reflexivity].
  Qed.

  Lemma vtrans_to mls c e cls : In (Validate mls c e) l -> in_effect mls pm -> In cls c ->
    exists f m, written e f /\ means E true f m /\ In (mkCN 0 m) (ct_vtrans T cls).
  Proof.
    intros I IE IC. destruct (compiled_both E pm l T C) as (l2 & B & _ & S2 & _). destruct (S2 _ _ _ I) as (x & BO & I2).
    assert (OK : stmt_ok E pm (Validate mls c x)).
    { apply (proj1 (binary_all_ok E pm l2 (mkCT (fun _ => []) (fun _ => [])))); [rewrite B; discriminate|exact I2]. }
    destruct (OK IE) as (m & TS); [intros ->; destruct IC|].
    destruct (both_translated _ _ _ _ BO TS) as (y & F & TR & WR & AD & SH). exists (form_of y), m. split; [exact WR|].
    split; [exact (translated_means E EOK true y SH (proj1 (L _ I _ WR)) m TR)|].
    apply (proj2 (binary_adds E pm l2 _ _ B)). right. exists mls, c, x. split; [exact I2|]. split; [exact IE|]. split; [exact IC|]. exists m. auto.
  Qed.

  Lemma cons_well_formed cls : cons_wf false (ct_cons T cls).
  Proof.
    apply Forall_forall. intros n I. destruct (cons_from cls n I) as (mls & c & e & f & perms & m & _ & _ & _ & _ & _ & CE & (cf & W & D & V & T3 & _) & ->).
    exists cf. cbn [cn_expr]. split; [exact W|]. split; [rewrite D; exact CE|]. split; [exact V|exact T3].
  Qed.
  Lemma vtrans_well_formed cls : cons_wf true (ct_vtrans T cls).
  Proof.
    apply Forall_forall. intros n I. destruct (vtrans_from cls n I) as (mls & c & e & f & m & _ & _ & _ & _ & CE & (cf & W & D & V & T3 & _) & ->).
    exists cf. cbn [cn_expr]. split; [exact W|]. split; [rewrite D; exact CE|]. split; [exact V|exact T3].
  Qed.

  Lemma means_satisfied vt f m P s t x p : means E vt f m -> ctx_ok s -> ctx_ok t -> (forall c, x = Some c -> ctx_ok c) ->
    (satisfied P s t x (mkCN p m) <-> holds E P s t x f).
  Proof.
    intros (cf & W & _ & _ & _ & M) Hs Ht Hx. rewrite <- (M P s t x Hs Ht Hx). exact (satisfied_iff P s t x (mkCN p m) cf W).
  Qed.

  Context (P : spolicy) (PC : forall cls, sv_cons P cls = ct_cons T cls) (PV : forall cls, sv_vtrans P cls = ct_vtrans T cls).

  Lemma constraints_mean s t cls p : ctx_ok s -> ctx_ok t -> (cons_allow P s t cls p <-> constraints_hold E pm P l s t cls p).
  Proof.
    intros Hs Ht. assert (NX : forall c, @None context = Some c -> ctx_ok c) by (intros c; discriminate).
    unfold cons_allow, constraints_hold. rewrite PC. split.
    - intros H mls c e I IE M. apply mentions_within in M. destruct M as (perms & W & PI).
      pose proof (within_perms cls perms _ W (proj2 (L _ I))) as PB.
      assert (TB : N.testbit (perms_to_datum perms) p = true) by (apply perms_datum; assumption).
      assert (NZ : perms_to_datum perms <> 0) by (intros Z; rewrite Z, N.bits_0 in TB; discriminate).
      destruct (cons_to mls c e cls perms I IE W NZ) as (f & m & WR & MM & IN). exists f. split; [exact WR|].
      apply (means_satisfied false f m P s t None (perms_to_datum perms) MM Hs Ht NX). apply (H _ IN TB).
    - intros H n IN TB. destruct (cons_from cls n IN) as (mls & c & e & f & perms & m & I & IE & W & NZ & WR & _ & MM & ->).
      cbn [cn_perms] in TB. pose proof (within_perms cls perms _ W (proj2 (L _ I))) as PB.
      apply (perms_datum perms p PB) in TB. destruct (H mls c e I IE) as (f' & WR' & HO); [apply mentions_within; exists perms; auto|].
      rewrite (written_unique e f' WR' f WR) in HO. apply (means_satisfied false f m P s t None _ MM Hs Ht NX). exact HO.
  Qed.

  Lemma transitions_mean o n t cls : ctx_ok o -> ctx_ok n -> ctx_ok t ->
    ((forall c, In c (sv_vtrans P cls) -> satisfied P o n (Some t) c) <-> transitions_hold E pm P l o n t cls).
  Proof.
    intros Ho Hn Ht. assert (HX : forall c, Some t = Some c -> ctx_ok c) by (intros c Q; injection Q as <-; exact Ht).
    unfold transitions_hold. rewrite PV. split.
    - intros H mls c e I IE IC. destruct (vtrans_to mls c e cls I IE IC) as (f & m & WR & MM & IN). exists f. split; [exact WR|].
      apply (means_satisfied true f m P o n (Some t) 0 MM Ho Hn HX). exact (H _ IN).
    - intros H c IN. destruct (vtrans_from cls c IN) as (mls & cs & e & f & m & I & IE & IC & WR & _ & MM & ->).
      destruct (H mls cs e I IE IC) as (f' & WR' & HO). rewrite (written_unique e f' WR' f WR) in HO.
      apply (means_satisfied true f m P o n (Some t) 0 MM Ho Hn HX). exact HO.
  Qed.
End Stmts.

(** ** Which lists are accepted *)
Section Accepted.
  Context (E : names_env) (EOK : env_ok E).

  Lemma stmts_separate pm l : compile_constraints E pm l <> None <-> forall st, In st l -> compile_constraints E pm [st] <> None.
  Proof.
    assert (G : forall l, compile_constraints E pm l <> None <-> forall st, In st l -> exists s1 s2, gen_stmt st = Some s1 /\ resolve_stmt E s1 = Some s2 /\ stmt_ok E pm s2).
    { clear l. intros l. unfold compile_constraints. split.
      - intros H st I. destruct (pass gen_stmt l) as [l1|] eqn:P1; [|destruct (H eq_refl)].
        destruct (pass (resolve_stmt E) l1) as [l2|] eqn:P2; [|destruct (H eq_refl)].
        destruct (proj2 (pass_in _ _ _ P1) st I) as (s1 & G1 & I1). destruct (proj2 (pass_in _ _ _ P2) s1 I1) as (s2 & G2 & I2).
        exists s1, s2. split; [exact G1|]. split; [exact G2|]. exact (proj1 (binary_all_ok E pm l2 _) H s2 I2).
      - intros H. destruct (pass gen_stmt l) as [l1|] eqn:P1.
        + destruct (pass (resolve_stmt E) l1) as [l2|] eqn:P2.
          * apply binary_all_ok. intros s2 I2. destruct (proj1 (pass_in _ _ _ P2) s2 I2) as (s1 & I1 & G2).
            destruct (proj1 (pass_in _ _ _ P1) s1 I1) as (st & I & G1). destruct (H st I) as (s1' & s2' & A & B & OK). congruence.
          * exfalso. apply (proj2 (pass_total (resolve_stmt E) l1)); [|exact P2]. intros s1 I1.
            destruct (proj1 (pass_in _ _ _ P1) s1 I1) as (st & I & G1). destruct (H st I) as (s1' & s2' & A & B & OK). congruence.
        + exfalso. apply (proj2 (pass_total gen_stmt l)); [|exact P1]. intros st I. destruct (H st I) as (s1 & s2 & A & _). congruence. }
    rewrite G. split.
    - intros H st I. apply G. intros st' [<-|[]]. exact (H st I).
    - intros H st I. apply (proj1 (G [st]) (H st I)). left; reflexivity.
  Qed.

  Lemma one_constraint pm cls perms e : perms_to_datum perms <> 0 ->
    (compile_constraints E pm [Constrain false [CpClass cls perms] e] <> None <->
     exists f, written e f /\ taken false f /\ known E f /\ (cells f <= 5)%nat).
  Proof.
    intros NZ. unfold compile_constraints. cbn [pass gen_stmt]. split.
    - destruct (fill_constraint false e) as [y|] eqn:F; [|intros H; destruct (H eq_refl)]. cbn [pass resolve_stmt].
      destruct (resolve_constraint E y) as [x|] eqn:R; [|intros H; destruct (H eq_refl)]. intros H.
      destruct (proj1 (binary_all_ok E pm _ _) H _ (or_introl eq_refl)) as (m & TS & V).
      { intros Q; discriminate Q. } { exists cls, perms. split; [|exact NZ]. eapply In_many; [left; reflexivity|apply In_class]. }
      destruct (fill_sound _ _ _ F) as (WR & AD & SH). assert (TR : translated E y = Some m) by (unfold translated; rewrite R; exact TS).
      destruct (proj1 (translated_iff E EOK false y SH AD) (ex_intro _ m TR)) as [TK KN].
      exists (form_of y). split; [exact WR|]. split; [exact TK|]. split; [exact KN|]. apply (validated_cells E y m SH TR), V.
    - intros (f & WR & TK & KN & CE).
      assert (AD : admitted false f). { clear - TK. induction f; cbn [taken admitted] in *; [tauto|exact TK|auto|destruct TK; auto|destruct TK; auto]. }
      destruct (fill_complete false e f WR AD) as (y & F & <-). rewrite F. destruct (fill_sound _ _ _ F) as (_ & _ & SH).
      destruct (proj2 (translated_iff E EOK false y SH AD) (conj TK KN)) as (m & TR). pose proof TR as TR'. unfold translated in TR'. cbn [pass resolve_stmt].
      destruct (resolve_constraint E y) as [x|] eqn:R; [|discriminate]. apply binary_all_ok. intros st [<-|[]] _ _.
      exists m. split; [exact TR'|]. apply (validated_cells E y m SH TR), CE.
  Qed.

  Lemma one_transition pm cls e : compile_constraints E pm [Validate false [cls] e] <> None <->
     exists f, written e f /\ taken true f /\ known E f.
  Proof.
    unfold compile_constraints. cbn [pass gen_stmt]. split.
    - destruct (fill_constraint true e) as [y|] eqn:F; [|intros H; destruct (H eq_refl)]. cbn [pass resolve_stmt].
      destruct (resolve_constraint E y) as [x|] eqn:R; [|intros H; destruct (H eq_refl)]. intros H.
      destruct (proj1 (binary_all_ok E pm _ _) H _ (or_introl eq_refl)) as (m & TS).
      { intros Q; discriminate Q. } { discriminate. }
      destruct (fill_sound _ _ _ F) as (WR & AD & SH). assert (TR : translated E y = Some m) by (unfold translated; rewrite R; exact TS).
      destruct (proj1 (translated_iff E EOK true y SH AD) (ex_intro _ m TR)) as [TK KN].
      exists (form_of y). split; [exact WR|]. split; [exact TK|exact KN].
    - intros (f & WR & TK & KN).
      assert (AD : admitted true f). { clear - TK. induction f; cbn [taken admitted] in *; [tauto|exact TK|auto|destruct TK; auto|destruct TK; auto]. }
      destruct (fill_complete true e f WR AD) as (y & F & <-). rewrite F. destruct (fill_sound _ _ _ F) as (_ & _ & SH).
      destruct (proj2 (translated_iff E EOK true y SH AD) (conj TK KN)) as (m & TR). pose proof TR as TR'. unfold translated in TR'. cbn [pass resolve_stmt].
      destruct (resolve_constraint E y) as [x|] eqn:R; [|discriminate]. apply binary_all_ok. intros st [<-|[]] _ _. exists m. exact TR'.
  Qed.
End Accepted.
