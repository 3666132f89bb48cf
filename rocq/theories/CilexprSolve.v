(** Proofs about CIL set expressions: the sets found are the ones the statements describe. *)
From Coq Require Import Relations Permutation Arith Bool.
From Verif Require Import Base EbitmapModel EbitmapSpec EbitmapProofs CilexprModel CilexprSpec CilexprProofs
  CilexprEval CilexprSets.

Lemma existsb_ext_in {A} (g h : A -> bool) l : (forall x, In x l -> g x = h x) -> existsb g l = existsb h l.
Proof.
  induction l as [|x l IH]; intros H; [reflexivity|]. cbn [existsb].
  rewrite (H x (or_introl eq_refl)), IH by (intros y Hy; apply H; right; exact Hy). reflexivity.
Qed.

Lemma holds_ext env env' pl mx v t : (forall n, In n (names t) -> env n v = env' n v) ->
  holds env pl mx t v = holds env' pl mx t v.
Proof.
  induction t as [n|k|l IH] using tree_ind2; intros H.
  - apply H. left. reflexivity.
  - reflexivity.
  - assert (E : forall x, In x l -> holds env pl mx x v = holds env' pl mx x v).
    { intros x Hx. rewrite Forall_forall in IH. apply (IH x Hx). intros n Hn. apply H. cbn [names].
      apply in_flat_map. exists x. auto. }
    assert (G : existsb (fun x => holds env pl mx x v) l = existsb (fun x => holds env' pl mx x v) l).
    { apply existsb_ext_in. exact E. }
    destruct l as [|[n|k|hl] c]; try exact G.
    destruct k; destruct c as [|a [|b [|c' c]]]; try exact G; try reflexivity;
      try (cbn [holds]; rewrite ?(E a), ?(E b) by (cbn; auto); reflexivity);
      try (destruct a; exact G);
      destruct a; try exact G; destruct b; try exact G; reflexivity.
Qed.

Lemma holds_lt env pl mx v t : (forall n, In n (names t) -> env n v = true -> v < mx) ->
  (forall n x, pl n = Some x -> x < mx) -> holds env pl mx t v = true -> v < mx.
Proof.
  intros He Hp. induction t as [n|k|l IH] using tree_ind2; intros H.
  - apply (He n); [left; reflexivity|exact H].
  - discriminate H.
  - assert (E : forall x, In x l -> holds env pl mx x v = true -> v < mx).
    { intros x Hx. rewrite Forall_forall in IH. apply (IH x Hx). intros n Hn. apply He. cbn [names].
      apply in_flat_map. exists x. auto. }
    assert (G : existsb (fun x => holds env pl mx x v) l = true -> v < mx).
    { intros X. apply existsb_exists in X. destruct X as (x & Hx & Ex). exact (E x Hx Ex). }
    destruct l as [|[n|k|hl] c]; try exact (G H).
    destruct k; destruct c as [|a [|b [|c' c]]]; try exact (G H); cbn [holds] in H.
    + apply andb_true_iff in H. apply (E a); [cbn; auto|tauto].
    + apply orb_true_iff in H. destruct H as [H|H]; [apply (E a)|apply (E b)]; cbn; auto.
    + apply andb_true_iff in H. apply N.ltb_lt. tauto.
    + destruct (holds env pl mx a v) eqn:Ea; [apply (E a); cbn; auto|].
      destruct (holds env pl mx b v) eqn:Eb; [apply (E b); cbn; auto|discriminate H].
    + apply N.ltb_lt. exact H.
    + destruct a; exact (G H).
    + destruct a as [x| |]; try exact (G H). destruct b as [y| |]; try exact (G H). cbn [holds] in H.
      destruct (pl x); [|discriminate H]. destruct (pl y) as [w|] eqn:Py; [|discriminate H].
      apply andb_true_iff in H. destruct H as [_ H]. apply N.leb_le in H. pose proof (Hp y w Py). lia.
    + destruct a as [x| |]; try exact (G H). destruct b as [y| |]; exact (G H).
Qed.

(** ** The check with more fuel *)

Lemma check_items_mono {A} (ck ck' : A -> out unit) l :
  (forall x, In x l -> ck x = Fine tt -> ck' x = Fine tt) ->
  check_items ck l = Fine tt -> check_items ck' l = Fine tt.
Proof.
  intros H E. apply check_items_fine in E. apply check_items_fine. rewrite Forall_forall in *. auto.
Qed.

Lemma check_mono d k : forall stack i, check_item k d stack i = Fine tt -> check_item (S k) d stack i = Fine tt.
Proof.
  induction k as [|k IH]; intros stack i H; [discriminate H|].
  destruct i as [x|n|op|l]; [|reflexivity|reflexivity|].
  - change (check_item (S (S k)) d stack (IDatum x)) with
      (if existsb (N.eqb x) stack then Bad
       else if has_expr (d_table d) x
            then check_items (fun l => check_items (check_item (S k) d (x :: stack)) l) (d_exprs d x)
            else Fine tt).
    cbn [check_item] in H. destruct (existsb (N.eqb x) stack); [discriminate H|].
    destruct (has_expr (d_table d) x); [|reflexivity]. revert H. apply check_items_mono.
    intros l _. apply check_items_mono. intros y _. apply IH.
  - change (check_item (S (S k)) d stack (IList l)) with (check_items (check_item (S k) d stack) l).
    cbn [check_item] in H. revert H. apply check_items_mono. intros y _. apply IH.
Qed.

Section Db.
Context (f : flavor) (tb : table) (mx : N) (order : list N) (num : N -> option Z) (stmts : list (N * tree)).
Context (T : table_ok tb mx).
Context (W : forall n t, In (n, t) stmts ->
   defined_by_expr tb n /\ shape f t = true /\ forall x, In x (names t) -> tb x <> None).

Let d := mkDb tb (exprs_of (map (fun p => (fst p, expr_of tb (snd p))) stmts)) mx order num.

Notation ckd := (ckd tb mx order num stmts).
Notation ts := (ts stmts).
Notation pl := (place tb).

(** The set of a name, looking through [k] levels of attributes. *)
Fixpoint val (k : nat) (n v : N) : bool :=
  match tb n with
  | Some (DLeaf x) => v =? x
  | Some (DAlias m) => match tb m with Some (DLeaf x) => v =? x | _ => false end
  | Some _ =>
      match k with
      | O => false
      | S k' => existsb (fun t => holds (val k') pl mx t v) (ts n)
      end
  | None => false
  end.

Lemma val_leaf k n x v : tb n = Some (DLeaf x) -> val k n v = (v =? x).
Proof. intros E. destruct k; cbn [val]; rewrite E; reflexivity. Qed.

Lemma val_alias k n m v : tb n = Some (DAlias m) -> val k n v = val k m v.
Proof.
  intros E. destruct (proj2 (proj2 T) n m E) as [x Ex].
  destruct k; cbn [val]; rewrite E, Ex; reflexivity.
Qed.

Lemma val_def k n v : has_expr tb n = true ->
  val (S k) n v = existsb (fun t => holds (val k) pl mx t v) (ts n).
Proof. unfold has_expr. intros E. cbn [val]. destruct (tb n) as [[]|]; try discriminate E; reflexivity. Qed.

Lemma names_decl a t n : In t (ts a) -> In n (names t) -> tb n <> None.
Proof. intros Ht Hn. apply ts_in in Ht. destruct (W a t Ht) as (_ & _ & D). exact (D n Hn). Qed.

Lemma val_stable k : forall stack n v, ckd k stack (actual tb n) -> forall g, (k <= g)%nat -> val g n v = val k n v.
Proof.
  induction k as [k IH] using lt_wf_ind. intros stack n v C g Hg.
  destruct (has_expr tb n) eqn:Hn.
  - pose proof (proj1 (has_expr_def tb n) Hn) as Dn. rewrite (actual_def tb n Dn) in C.
    destruct (ckd_inv _ _ _ _ _ _ _ _ C) as (k' & -> & _ & _). destruct g as [|g]; [lia|].
    rewrite !val_def by exact Hn. apply existsb_ext_in. intros t Ht. apply holds_ext. intros m Hm.
    apply ts_in in Ht. destruct (ckd_names _ _ _ _ _ _ W _ _ _ C Hn t m Ht Hm) as (k2 & L & C2).
    rewrite (IH k2 L _ _ _ C2 g) by lia. rewrite (IH k2 L _ _ _ C2 k') by lia. reflexivity.
  - unfold has_expr in Hn. destruct g, k; cbn [val]; destruct (tb n) as [[]|]; try discriminate Hn; reflexivity.
Qed.

Lemma val_solution F : (forall a, defined_by_expr tb a -> ckd F [] a) -> solution tb mx stmts (val F).
Proof.
  intros HF n v.
  assert (Def : has_expr tb n = true ->
    (val F n v = true <-> exists t, In (n, t) stmts /\ holds (val F) pl mx t v = true)).
  { intros Hn. pose proof (proj1 (has_expr_def tb n) Hn) as Dn. pose proof (HF n Dn) as C.
    destruct (ckd_inv _ _ _ _ _ _ _ _ C) as (k & Ek & _ & _).
    assert (X : val F n v = existsb (fun t => holds (val F) pl mx t v) (ts n)).
    { rewrite Ek at 1. rewrite val_def by exact Hn. apply existsb_ext_in. intros t Ht. apply holds_ext.
      intros m Hm. apply ts_in in Ht. destruct (ckd_names _ _ _ _ _ _ W _ _ _ C Hn t m Ht Hm) as (k2 & L & C2).
      rewrite (val_stable k2 _ _ v C2 k) by lia. rewrite (val_stable k2 _ _ v C2 F) by lia. reflexivity. }
    rewrite X, existsb_exists. split; intros (t & Ht & H); exists t; (split; [apply ts_in; exact Ht|exact H]). }
  destruct (tb n) as [[x|m| |]|] eqn:E.
  - apply val_leaf. exact E.
  - apply val_alias. exact E.
  - apply Def. unfold has_expr. rewrite E. reflexivity.
  - apply Def. unfold has_expr. rewrite E. reflexivity.
  - exact Logic.I.
Qed.

Lemma solution_unique S1 : solution tb mx stmts S1 -> forall k stack n v, ckd k stack (actual tb n) -> tb n <> None ->
  S1 n v = val k n v.
Proof.
  intros Sol. induction k as [k IH] using lt_wf_ind. intros stack n v C Nn.
  pose proof (Sol n v) as E.
  assert (Def : has_expr tb n = true ->
    (S1 n v = true <-> exists t, In (n, t) stmts /\ holds S1 pl mx t v = true) -> S1 n v = val k n v).
  { intros Hn Eq. pose proof (proj1 (has_expr_def tb n) Hn) as Dn. rewrite (actual_def tb n Dn) in C.
    destruct (ckd_inv _ _ _ _ _ _ _ _ C) as (k' & -> & _ & _). rewrite val_def by exact Hn.
    apply eq_true_iff_eq. rewrite Eq, existsb_exists.
    assert (Same : forall t, In (n, t) stmts -> holds S1 pl mx t v = holds (val k') pl mx t v).
    { intros t Ht. apply holds_ext. intros m Hm.
      destruct (ckd_names _ _ _ _ _ _ W _ _ _ C Hn t m Ht Hm) as (k2 & L & C2).
      rewrite (IH k2 L _ m v C2 (proj2 (proj2 (W n t Ht)) m Hm)).
      symmetry. apply (val_stable k2 _ _ v C2). lia. }
    split; intros (t & Ht & H); exists t.
    - split; [apply ts_in; exact Ht|]. rewrite <- (Same t Ht). exact H.
    - apply ts_in in Ht. split; [exact Ht|]. rewrite (Same t Ht). exact H. }
  destruct (tb n) as [[x|m| |]|] eqn:En.
  - rewrite E. symmetry. apply val_leaf. exact En.
  - destruct (proj2 (proj2 T) n m En) as [x Ex]. rewrite (val_alias k n m v En), (val_leaf k m x v Ex), E.
    pose proof (Sol m v) as Em. rewrite Ex in Em. exact Em.
  - apply Def; [unfold has_expr; rewrite En; reflexivity|exact E].
  - apply Def; [unfold has_expr; rewrite En; reflexivity|exact E].
  - congruence.
Qed.

Lemma place_lt n x : pl n = Some x -> x < mx.
Proof.
  destruct T as (_ & L & _). unfold place. destruct (tb n) as [[y|m| |]|] eqn:E; try discriminate.
  - intros H. inversion H; subst. exact (L n x E).
  - destruct (tb m) as [[y|?| |]|] eqn:Em; try discriminate. intros H. inversion H; subst. exact (L m x Em).
Qed.

Lemma val_lt k : forall n v, val k n v = true -> v < mx.
Proof.
  destruct T as (_ & L & _).
  induction k as [|k IH]; intros n v H; cbn [val] in H; destruct (tb n) as [[y|m| |]|] eqn:E; try discriminate H.
  - apply N.eqb_eq in H. subst. exact (L n y E).
  - destruct (tb m) as [[y|?| |]|] eqn:Em; try discriminate H. apply N.eqb_eq in H. subst. exact (L m y Em).
  - apply N.eqb_eq in H. subst. exact (L n y E).
  - destruct (tb m) as [[y|?| |]|] eqn:Em; try discriminate H. apply N.eqb_eq in H. subst. exact (L m y Em).
  - apply existsb_exists in H. destruct H as (t & _ & H). exact (holds_lt (val k) pl mx v t (fun n _ => IH n v) place_lt H).
  - apply existsb_exists in H. destruct H as (t & _ & H). exact (holds_lt (val k) pl mx v t (fun n _ => IH n v) place_lt H).
Qed.

(** ** Evaluation against a solution *)

Context (So : N -> N -> bool)
        (So_leaf : forall n x v, tb n = Some (DLeaf x) -> So n v = (v =? x))
        (So_alias : forall n m v, tb n = Some (DAlias m) -> So n v = So m v)
        (So_def : forall n v, has_expr tb n = true -> So n v = existsb (fun t => holds So pl mx t v) (ts n))
        (So_lt : forall n v, So n v = true -> v < mx).
Context (Fok : f <> FPermx /\ f <> FBool /\ f <> FTunable)
        (Kinds : match f with
                 | FCat => (forall n, tb n <> Some DAttr) /\ (forall a, (length (ts a) <= 1)%nat) /\
                           (forall v, v < mx -> In v order)
                 | _ => forall n, tb n <> Some DSet
                 end).

Definition all_ok : Prop := forall a t, In t (ts a) -> tok pl mx t = true.

Definition Inv (stack : list N) (s : st) : Prop :=
  forall a, ~ In a stack ->
    (forall e, s_attr s a = Some e -> valid e /\ (forall v, nget (e_nodes e) v = So a v) /\
       forall t, In t (ts a) -> tok pl mx t = true) /\
    (forall l, s_set s a = Some l -> (forall v, In v l <-> So a v = true) /\
       forall t, In t (ts a) -> tok pl mx t = true).

Definition keeps (stack : list N) (s s' : st) : Prop :=
  forall a, (In a stack \/ s_attr s a <> None -> s_attr s' a = s_attr s a) /\
            (In a stack \/ s_set s a <> None -> s_set s' a = s_set s a).

Lemma keeps_refl stack s : keeps stack s s.
Proof. intros a. split; reflexivity. Qed.

Lemma keeps_trans stack s1 s2 s3 : keeps stack s1 s2 -> keeps stack s2 s3 -> keeps stack s1 s3.
Proof.
  intros H1 H2 a. destruct (H1 a) as [A1 B1]. destruct (H2 a) as [A2 B2]. split; intros H.
  - pose proof (A1 H) as E. rewrite <- E. apply A2. destruct H as [H|H]; [left; exact H|right; rewrite E; exact H].
  - pose proof (B1 H) as E. rewrite <- E. apply B2. destruct H as [H|H]; [left; exact H|right; rewrite E; exact H].
Qed.

Lemma keeps_weak a stack s s' : keeps (a :: stack) s s' -> keeps stack s s'.
Proof.
  intros H b. destruct (H b) as [A B]. split; intros [X|X]; [apply A|apply A|apply B|apply B];
    solve [left; right; exact X | right; exact X].
Qed.

Lemma Inv_weak a stack s : Inv stack s -> Inv (a :: stack) s.
Proof. intros H b Hb. apply H. intros X. apply Hb. right. exact X. Qed.

Lemma dat_leaf n : match dat tb n with IDatum _ => True | IStr _ => True | _ => False end.
Proof. exact Logic.I. Qed.

Lemma dts a : d_exprs d a = map (expr_of tb) (ts a).
Proof. exact (exprs_ts tb mx order num stmts a). Qed.

Lemma tok_name m n : tok pl m (TName n) = true.
Proof. unfold tok. cbn [ordered uses_all negb andb]. apply orb_true_r. Qed.

Lemma mx_small : d_max d < 2147483648.
Proof. exact (proj1 T). Qed.

Lemma actual_cases n : tb n <> None ->
  (exists v, tb (actual tb n) = Some (DLeaf v)) \/ (defined_by_expr tb n /\ actual tb n = n).
Proof using T.
  clear - T. intros Dn. unfold actual, defined_by_expr. destruct (tb n) as [[y|m| |]|] eqn:En; rewrite ?En; try tauto.
  - left. eauto.
  - left. exact (proj2 (proj2 T) n m En).
Qed.

Lemma So_actual n v : So (actual tb n) v = So n v.
Proof using So_alias.
  unfold actual. destruct (tb n) as [[y|m| |]|] eqn:En; try reflexivity. symmetry. apply So_alias. exact En.
Qed.

Lemma cat_range_ok a b : tb a <> None -> tb b <> None -> f = FCat \/ f = FPermx ->
  range_good So pl d a b (match f with FCat => cat_range d (dat tb a) (dat tb b)
                                     | _ => permx_range d (dat tb a) (dat tb b) end).
Proof.
  intros Da Db [E|E]; [|destruct Fok; congruence]. rewrite E. rewrite E in Kinds. unfold cat_range, dat.
  destruct Kinds as (NoAttr & _).
  assert (Pl : forall n, pl n = match tb (actual tb n) with Some (DLeaf v) => Some v | _ => None end)
    by (intros n; exact (place_actual tb mx n T)).
  assert (Cases : forall n, tb n <> None -> (exists v, tb (actual tb n) = Some (DLeaf v)) \/
                            tb (actual tb n) = Some DSet).
  { intros n Dn. destruct (actual_cases n Dn) as [L|[[L|L] ->]]; [left; exact L| |right; exact L].
    exfalso. exact (NoAttr n L). }
  unfold range_good, is_catset, value_of. cbn [holds ordered]. rewrite !Pl. change (d_table d) with tb.
  destruct (Cases a Da) as [(x & Ea)|Ea]; destruct (Cases b Db) as [(y & Eb)|Eb]; rewrite ?Ea, ?Eb; cbn [orb];
    try reflexivity.
  destruct (N.ltb_spec y x) as [L|L].
  - apply N.leb_gt. exact L.
  - assert (Hx : x < mx) by (exact (proj1 (proj2 T) _ _ Ea)).
    assert (Hy : y < mx) by (exact (proj1 (proj2 T) _ _ Eb)).
    pose proof (proj1 T) as Hm.
    pose proof (init_range_spec x y ltac:(lia) ltac:(lia)) as H. unfold range_bm.
    destruct (ebitmap_init_range x y) as [e| | |]; try lia.
    destruct H as (_ & _ & V & G). split; [exact V|]. split; [exact G|]. apply N.leb_le. exact L.
Qed.

Notation rg stack := (rgood So pl d (Inv stack) (keeps stack) all_ok).

Lemma expr_ok ev stack t s : shape f t = true -> (forall n, In n (names t) -> tb n <> None) ->
  (forall x s, In x (children t) -> shape f x = true -> Inv stack s -> rg stack x s (ev (tm (dat tb) x) s)) ->
  Inv stack s -> rg stack t s (expr_bm ev d f (expr_of tb t) ebitmap_init s).
Proof.
  intros Sh Dn Hev Is.
  exact (expr_good (dat tb) So pl d f (Inv stack) (keeps stack) all_ok dat_leaf (keeps_refl stack)
           (keeps_trans stack) mx_small (fun n => tb n <> None) cat_range_ok ev t s
           (proj1 (proj2 Fok)) (proj2 (proj2 Fok)) Sh Dn Hev Is).
Qed.

(** The expressions of one attribute, each united with what is there. *)
Lemma list_ok ev stack a us : forall s cur,
  (forall t, In t us -> In t (ts a)) ->
  (forall t s, In t us -> Inv (a :: stack) s -> rg (a :: stack) t s (expr_bm ev d f (expr_of tb t) ebitmap_init s)) ->
  Inv (a :: stack) s -> s_attr s a = Some cur -> valid cur ->
  match expr_list_bm ev d f a (map (expr_of tb) us) s with
  | Fine s' => Inv (a :: stack) s' /\
      (forall b, (b <> a -> In b stack \/ s_attr s b <> None -> s_attr s' b = s_attr s b) /\
                 (In b (a :: stack) \/ s_set s b <> None -> s_set s' b = s_set s b)) /\
      (exists e, s_attr s' a = Some e /\ valid e /\
         forall v, nget (e_nodes e) v = nget (e_nodes cur) v || existsb (fun t => holds So pl mx t v) us) /\
      (forall t, In t us -> tok pl mx t = true)
  | Bad => all_ok -> False
  | Crash => False
  | Deep => False
  end.
Proof.
  induction us as [|t us IH]; intros s cur Hsub Hev Is Ea Vc.
  - cbn [map expr_list_bm]. split; [exact Is|]. split; [intros b; split; reflexivity|]. split.
    + exists cur. split; [exact Ea|]. split; [exact Vc|]. intros v. cbn [existsb]. rewrite orb_false_r. reflexivity.
    + intros t [].
  - cbn [map expr_list_bm]. pose proof (Hev t s (or_introl eq_refl) Is) as G.
    destruct (expr_bm ev d f (expr_of tb t) ebitmap_init s) as [[e s2]| | |]; cbn [thn fst snd]; cbn [rgood] in G;
      try contradiction.
    + destruct G as (Ve & Ge & I2 & K2 & Tk).
      assert (Ea2 : s_attr s2 a = Some cur) by (rewrite (proj1 (K2 a) (or_introl (or_introl eq_refl))); exact Ea).
      rewrite Ea2. destruct (union_spec cur e Vc Ve) as [Vu Gu].
      specialize (IH (put_attr s2 a (Some (ebitmap_union cur e))) (ebitmap_union cur e)).
      specialize (IH (fun u Hu => Hsub u (or_intror Hu)) (fun u q Hu => Hev u q (or_intror Hu))).
      assert (I3 : Inv (a :: stack) (put_attr s2 a (Some (ebitmap_union cur e)))).
      { intros b Hb. cbn [put_attr s_attr s_set]. destruct (N.eqb_spec b a) as [->|Hn].
        - exfalso. apply Hb. left. reflexivity.
        - apply I2. exact Hb. }
      assert (E3 : s_attr (put_attr s2 a (Some (ebitmap_union cur e))) a = Some (ebitmap_union cur e)).
      { cbn [put_attr s_attr]. rewrite N.eqb_refl. reflexivity. }
      specialize (IH I3 E3 Vu).
      destruct (expr_list_bm ev d f a (map (expr_of tb) us) (put_attr s2 a (Some (ebitmap_union cur e))))
        as [s'| | |]; try contradiction.
      destruct IH as (I' & K' & (e' & E' & V' & G') & T'). split; [exact I'|]. split.
      { intros b. destruct (K' b) as [KA KB]. destruct (K2 b) as [KA2 KB2]. split.
        - intros Hb H. assert (Eb : s_attr s2 b = s_attr s b).
          { apply KA2. destruct H as [H|H]; [left; right; exact H|right; exact H]. }
          rewrite KA; [cbn [put_attr s_attr]|exact Hb|cbn [put_attr s_attr]].
          + destruct (N.eqb_spec b a); [contradiction|exact Eb].
          + destruct (N.eqb_spec b a); [contradiction|]. rewrite Eb. exact H.
        - intros H. assert (Eb : s_set s2 b = s_set s b) by (apply KB2; exact H).
          rewrite KB; cbn [put_attr s_set]; [exact Eb|]. rewrite Eb. exact H. }
      split.
      { exists e'. split; [exact E'|]. split; [exact V'|]. intros v. rewrite G', Gu, Ge. cbn [existsb].
        rewrite orb_assoc. reflexivity. }
      { intros u [<-|Hu]; [exact Tk|exact (T' u Hu)]. }
    + intros A. specialize (G A). change (d_max d) with mx in G. rewrite (A a t (Hsub t (or_introl eq_refl))) in G. discriminate G.
Qed.

Lemma attr_ok ev stack a s : has_expr tb a = true -> ~ In a stack -> Inv stack s -> s_attr s a = None ->
  (forall t s, In t (ts a) -> Inv (a :: stack) s -> rg (a :: stack) t s (expr_bm ev d f (expr_of tb t) ebitmap_init s)) ->
  match evaluate_attr ev d f a s with
  | Fine s' => Inv stack s' /\ keeps stack s s' /\ s_attr s' a <> None
  | Bad => all_ok -> False
  | Crash => False
  | Deep => False
  end.
Proof.
  intros Ha Hi Is En Hev. unfold evaluate_attr. rewrite dts.
  assert (I1 : Inv (a :: stack) (put_attr s a (Some ebitmap_init))).
  { intros b Hb. cbn [put_attr s_attr s_set]. destruct (N.eqb_spec b a) as [->|Hn].
    - exfalso. apply Hb. left. reflexivity.
    - apply Is. intros H. apply Hb. right. exact H. }
  pose proof (list_ok ev stack a (ts a) _ ebitmap_init (fun t H => H) Hev I1) as G.
  specialize (G ltac:(cbn [put_attr s_attr]; rewrite N.eqb_refl; reflexivity) valid_init).
  destruct (expr_list_bm ev d f a (map (expr_of tb) (ts a)) (put_attr s a (Some ebitmap_init))) as [s'| | |];
    try contradiction.
  destruct G as (I' & K' & (e & E' & V' & G') & T'). split; [|split; [|congruence]].
  - intros b Hb. destruct (N.eq_dec b a) as [->|Hn].
    + split.
      * intros e2 E2. rewrite E' in E2. inversion E2; subst e2. split; [exact V'|]. split; [|exact T'].
        intros v. rewrite G', So_def by exact Ha. reflexivity.
      * intros l El. rewrite (proj2 (K' a) (or_introl (or_introl eq_refl))) in El. cbn [put_attr s_set] in El.
        exact (proj2 (Is a Hb) l El).
    + apply I'. intros [->|H]; [apply Hn; reflexivity|exact (Hb H)].
  - intros b. destruct (K' b) as [KA KB]. split.
    + intros H. destruct (N.eq_dec b a) as [->|Hn].
      * exfalso. destruct H as [H|H]; [exact (Hi H)|exact (H En)].
      * rewrite KA; [|exact Hn|]; cbn [put_attr s_attr]; destruct (N.eqb_spec b a); try contradiction;
          [reflexivity|exact H].
    + intros H. rewrite KB; [reflexivity|]. destruct H as [H|H]; [left; right; exact H|right; exact H].
Qed.

(** ** Category sets *)

Lemma set_values_ok l : forall e, valid e -> (forall v, In v l -> v < mx) ->
  match set_values e l with
  | Fine e' => valid e' /\ forall v, nget (e_nodes e') v = nget (e_nodes e) v || existsb (N.eqb v) l
  | _ => False
  end.
Proof.
  pose proof (proj1 T) as Hm.
  induction l as [|x l IH]; intros e Ve Hl.
  - cbn [set_values]. split; [exact Ve|]. intros v. cbn [existsb]. rewrite orb_false_r. reflexivity.
  - cbn [set_values]. unfold set_one. pose proof (Hl x (or_introl eq_refl)) as Hx.
    destruct (set_bit_ok e x true Ve ltac:(lia)) as (e' & -> & V' & G'). cbn [thn].
    specialize (IH e' V' (fun v Hv => Hl v (or_intror Hv))).
    destruct (set_values e' l) as [e2| | |]; try contradiction. destruct IH as [V2 G2]. split; [exact V2|].
    intros v. rewrite G2, G'. cbn [existsb]. destruct (v =? x); cbn [orb]; [rewrite orb_true_r|]; reflexivity.
Qed.

Lemma plain_names l : plain_cats d (map (tm (dat tb)) l) = true -> forallb (shape f) l = true ->
  exists ns, l = map TName ns /\ forall n, In n ns -> is_catset tb (actual tb n) = false.
Proof.
  induction l as [|x l IH]; intros P Sh.
  - exists []. split; [reflexivity|]. intros n [].
  - cbn [map plain_cats forallb] in P. apply andb_true_iff in P. destruct P as [Px P].
    cbn [forallb] in Sh. apply andb_true_iff in Sh. destruct Sh as [Shx Sh].
    destruct (IH P Sh) as (ns & -> & H). destruct x as [n|k|q]; [|discriminate Shx|discriminate Px].
    exists (n :: ns). split; [reflexivity|]. intros m [<-|Hm]; [|exact (H m Hm)].
    cbn [tm] in Px. unfold dat in Px. change (d_table d) with tb in Px. destruct (is_catset tb (actual tb n));
      [discriminate Px|reflexivity].
Qed.

Lemma plain_tree t : shape f t = true -> plain_cats d (expr_of tb t) = true ->
  exists ns, expr_of tb t = map (dat tb) ns /\ (forall v, holds So pl mx t v = existsb (fun n => So n v) ns) /\
    tok pl mx t = true /\ forall n, In n ns -> In n (names t) /\ is_catset tb (actual tb n) = false.
Proof.
  intros Sh P. destruct t as [n|k|l]; [|discriminate Sh|].
  - exists [n]. unfold expr_of. cbn [tm]. split; [reflexivity|]. split.
    { intros v. cbn [holds existsb]. rewrite orb_false_r. reflexivity. }
    split; [apply tok_name|]. intros m [<-|[]]. split; [left; reflexivity|].
    unfold expr_of, dat in P. cbn [tm items_of plain_cats forallb] in P. change (d_table d) with tb in P.
    apply andb_true_iff in P. destruct P as [P _]. apply negb_true_iff in P. exact P.
  - unfold expr_of in *. cbn [tm items_of] in *.
    assert (F : forallb (shape f) l = true).
    { destruct l as [|[n|k|q] c]; [discriminate Sh|exact Sh| |exact Sh]. discriminate P. }
    destruct (plain_names l P F) as (ns & -> & H). exists ns.
    split; [rewrite map_map; reflexivity|]. split.
    { intros v. assert (E : existsb (fun x => holds So pl mx x v) (map TName ns) = existsb (fun n => So n v) ns).
      { clear. induction ns as [|n ns IH]; [reflexivity|]. cbn [map existsb holds]. rewrite IH. reflexivity. }
      rewrite <- E. destruct ns as [|n ns]; reflexivity. }
    split.
    { rewrite tok_list by (intros a b; destruct ns; discriminate). clear. induction ns as [|m l IH]; [reflexivity|].
      cbn [map forallb]. rewrite tok_name, IH. reflexivity. }
    intros n Hn. split; [|exact (H n Hn)]. cbn [names]. apply in_flat_map. exists (TName n).
    split; [apply in_map; exact Hn|left; reflexivity].
Qed.

Lemma item_values_ok ns : (forall n, In n ns -> exists v, tb (actual tb n) = Some (DLeaf v)) ->
  exists l, item_values d (map (dat tb) ns) = Fine l /\ forall v, In v l <-> existsb (fun n => So n v) ns = true.
Proof.
  induction ns as [|n ns IH]; intros H.
  - exists []. split; [reflexivity|]. intros v. split; [intros []|discriminate].
  - destruct (IH (fun m Hm => H m (or_intror Hm))) as (l & El & Hl). destruct (H n (or_introl eq_refl)) as [x Ex].
    exists (x :: l). split.
    + cbn [map item_values]. unfold dat at 1, value_of. change (d_table d) with tb. rewrite Ex, El. reflexivity.
    + intros v. cbn [existsb]. rewrite orb_true_iff, <- Hl, <- (So_actual n), (So_leaf _ x v Ex), N.eqb_eq.
      split; (intros [A|A]; [left; symmetry; exact A|right; exact A]).
Qed.

(** The list of an evaluated or a plain category set. *)
Definition set_done (s : st) (a : N) : Prop := s_set s a <> None \/ plain_cats d (concat (d_exprs d a)) = true.

Lemma one_stmt a : f = FCat -> ts a = [] \/ exists t, ts a = [t].
Proof.
  intros E. rewrite E in Kinds. destruct Kinds as (_ & L & _). specialize (L a).
  destruct (ts a) as [|t [|u l]]; [left; reflexivity|right; exists t; reflexivity|cbn in L; lia].
Qed.

Lemma leaf_of a t n : f = FCat -> In t (ts a) -> In n (names t) -> is_catset tb (actual tb n) = false ->
  exists v, tb (actual tb n) = Some (DLeaf v).
Proof.
  intros E Ht Hn C. pose proof (names_decl a t n Ht Hn) as Dn.
  destruct (actual_cases n Dn) as [L|[[L|L] Ea]]; [exact L| |].
  - exfalso. rewrite E in Kinds. exact (proj1 Kinds n L).
  - exfalso. rewrite Ea in C. unfold is_catset in C. rewrite L in C. discriminate C.
Qed.

Lemma set_list_ok stack a s : f = FCat -> tb a = Some DSet -> ~ In a stack -> Inv stack s -> set_done s a ->
  exists l, set_list d a s = Fine l /\ (forall v, In v l <-> So a v = true) /\
    forall t, In t (ts a) -> tok pl mx t = true.
Proof.
  intros Ef Ea Hi Is Dn. assert (Ha : has_expr tb a = true) by (unfold has_expr; rewrite Ea; reflexivity).
  unfold set_list. destruct (s_set s a) as [l|] eqn:El.
  - exists l. split; [reflexivity|]. exact (proj2 (Is a Hi) l El).
  - destruct Dn as [Dn|P]; [congruence|]. rewrite dts in *. destruct (one_stmt a Ef) as [E|[t E]]; rewrite E in *.
    + exists []. split; [reflexivity|]. split; [|intros t []]. intros v. rewrite So_def, E by exact Ha.
      split; [intros []|discriminate].
    + assert (Ht : In t (ts a)) by (rewrite E; left; reflexivity).
      cbn [map concat] in *. rewrite app_nil_r in *.
      destruct (W a t (proj1 (ts_in stmts a t) Ht)) as (_ & Sh & _).
      destruct (plain_tree t Sh P) as (ns & En & Hv & Tk & Hn).
      destruct (item_values_ok ns) as (l & Ev & Hl).
      { intros n Hi2. destruct (Hn n Hi2) as [A B]. exact (leaf_of a t n Ef Ht A B). }
      exists l. rewrite En. split; [exact Ev|]. split.
      * intros v. rewrite Hl, So_def, E by exact Ha. cbn [existsb]. rewrite orb_false_r, Hv. reflexivity.
      * intros u [<-|[]]. exact Tk.
Qed.

Lemma set_ok ev stack a s : f = FCat -> tb a = Some DSet -> ~ In a stack -> Inv stack s ->
  (forall t s, In t (ts a) -> Inv (a :: stack) s -> rg (a :: stack) t s (expr_bm ev d f (expr_of tb t) ebitmap_init s)) ->
  match evaluate_set ev d a s with
  | Fine s' => Inv stack s' /\ keeps stack s s' /\ set_done s' a
  | Bad => all_ok -> False
  | Crash => False
  | Deep => False
  end.
Proof.
  intros Ef Ea Hi Is Hev. assert (Ha : has_expr tb a = true) by (unfold has_expr; rewrite Ea; reflexivity).
  unfold evaluate_set. destruct (s_set s a) as [l|] eqn:El.
  - split; [exact Is|]. split; [apply keeps_refl|]. left. congruence.
  - destruct (plain_cats d (concat (d_exprs d a))) eqn:P.
    + split; [exact Is|]. split; [apply keeps_refl|]. right. exact P.
    + rewrite dts in *. destruct (one_stmt a Ef) as [E|[t E]]; rewrite E in *; [discriminate P|].
      assert (Ht : In t (ts a)) by (rewrite E; left; reflexivity).
      cbn [map concat]. rewrite app_nil_r.
      pose proof (Hev t s (or_introl eq_refl) (Inv_weak a stack s Is)) as G. rewrite Ef in G.
      destruct (expr_bm ev d FCat (expr_of tb t) ebitmap_init s) as [[e s2]| | |]; cbn [thn fst snd]; cbn [rgood] in G;
        try contradiction.
      * destruct G as (Ve & Ge & I2 & K2 & Tk). split; [|split].
        -- intros b Hb. cbn [put_set s_attr s_set]. destruct (N.eqb_spec b a) as [->|Hn].
           ++ split.
              ** intros e2 E2. rewrite (proj1 (K2 a) (or_introl (or_introl eq_refl))) in E2. exact (proj1 (Is a Hb) e2 E2).
              ** intros l2 E2. injection E2 as <-. split.
                 --- intros v. rewrite So_def, E by exact Ha. cbn [existsb]. rewrite orb_false_r, filter_In.
                     rewrite get_bit_nget by exact Ve. rewrite Ge. change (d_max d) with mx. split; [tauto|].
                     intros H. split; [|exact H]. rewrite Ef in Kinds. destruct Kinds as (_ & _ & Or). apply Or.
                     apply (holds_lt So pl mx v t); [|exact place_lt|exact H].
                     intros n _ Hs. exact (So_lt n v Hs).
                 --- rewrite E. intros u [<-|[]]. exact Tk.
           ++ apply I2. intros [H|H]; [apply Hn; auto|exact (Hb H)].
        -- intros b. cbn [put_set s_attr s_set]. destruct (K2 b) as [KA KB]. split.
           ++ intros H. apply KA. destruct H as [H|H]; [left; right; exact H|right; exact H].
           ++ intros H. destruct (N.eqb_spec b a) as [->|Hn].
              ** exfalso. destruct H as [H|H]; [exact (Hi H)|exact (H El)].
              ** apply KB. destruct H as [H|H]; [left; right; exact H|right; exact H].
        -- left. cbn [put_set s_set]. rewrite N.eqb_refl. discriminate.
      * intros A. specialize (G A). change (d_max d) with mx in G. rewrite (A a t Ht) in G. discriminate G.
Qed.

(** ** One item *)

Lemma item_ok k : forall stack t s, check_item k d stack (tm (dat tb) t) = Fine tt -> shape f t = true ->
  (forall n, In n (names t) -> tb n <> None) -> Inv stack s -> rg stack t s (item_bm k d f (tm (dat tb) t) s).
Proof.
  pose proof (proj1 T) as Hm.
  induction k as [|k IH]; intros stack t s C Sh Dn Is; [discriminate C|].
  destruct t as [n|key|l]; [|discriminate Sh|].
  - change (tm (dat tb) (TName n)) with (IDatum (actual tb n)) in *.
    destruct (ckd_inv _ _ _ _ _ _ _ _ C) as (k' & Ek & Hi & Hc). injection Ek as <-.
    assert (Hb : forall a, defined_by_expr tb n -> a = actual tb n ->
      forall t s, In t (ts a) -> Inv (a :: stack) s ->
        rg (a :: stack) t s (expr_bm (item_bm k d f) d f (expr_of tb t) ebitmap_init s)).
    { intros a Da Ea u q Hu Iq. rewrite (actual_def tb n Da) in *. subst a.
      pose proof (proj1 (ts_in stmts n u) Hu) as Hs. destruct (W n u Hs) as (_ & Shu & Du).
      apply expr_ok; [exact Shu|exact Du| |exact Iq].
      intros x r Hx Shx Ir. apply IH; [|exact Shx| |exact Ir].
      - pose proof (Hc (proj2 (has_expr_def tb n) Da) u Hu) as Cu. apply check_items_fine in Cu.
        rewrite Forall_forall in Cu. apply Cu. unfold expr_of. destruct u as [m|kk|ul].
        + destruct Hx as [<-|[]]. left. reflexivity.
        + discriminate Shu.
        + cbn [tm items_of]. apply in_map. exact Hx.
      - intros m Hm2. apply Du. destruct u as [m'|kk|ul]; [destruct Hx as [<-|[]]; exact Hm2|discriminate Shu|].
        cbn [names]. apply in_flat_map. exists x. split; [exact Hx|exact Hm2]. }
    assert (Eb : item_bm (S k) d f (IDatum (actual tb n)) s = datum_bm (item_bm k d f) d f (actual tb n) s).
    { cbn [item_bm]. destruct f; try reflexivity. exfalso. apply (proj1 Fok). reflexivity. }
    rewrite Eb. unfold datum_bm. change (d_table d) with tb.
    destruct (actual_cases n (Dn n (or_introl eq_refl))) as [[v Ev]|[Da Ea]].
    + rewrite Ev. unfold set_one. pose proof (proj1 (proj2 T) _ _ Ev) as Hv.
      destruct (set_bit_ok ebitmap_init v true valid_init ltac:(lia)) as (e & -> & V' & G'). cbn [thn rgood].
      split; [exact V'|]. split.
      { intros x. cbn [holds]. rewrite G', <- So_actual, (So_leaf _ v x Ev). destruct (x =? v); reflexivity. }
      split; [exact Is|]. split; [apply keeps_refl|apply tok_name].
    + specialize (Hb n Da (eq_sym Ea)). rewrite Ea in *.
      assert (Ha : has_expr tb n = true) by (apply has_expr_def; exact Da).
      destruct Da as [Dt|Dt]; rewrite Dt.
      * destruct (s_attr s n) as [e0|] eqn:E0.
        -- cbn [thn]. rewrite E0. cbn [rgood]. destruct (proj1 (Is n Hi) e0 E0) as (V0 & G0 & T0).
           destruct (init_union e0 V0) as [V1 G1]. split; [exact V1|]. split.
           { intros v. rewrite G1, G0. reflexivity. }
           split; [exact Is|]. split; [apply keeps_refl|apply tok_name].
        -- pose proof (attr_ok (item_bm k d f) stack n s Ha Hi Is E0 Hb) as G.
           destruct (evaluate_attr (item_bm k d f) d f n s) as [s'| | |]; cbn [thn]; try contradiction.
           ++ destruct G as (I' & K' & N'). destruct (s_attr s' n) as [e0|] eqn:E1; [|congruence].
              cbn [rgood]. destruct (proj1 (I' n Hi) e0 E1) as (V0 & G0 & T0).
              destruct (init_union e0 V0) as [V1 G1]. split; [exact V1|]. split.
              { intros v. rewrite G1, G0. reflexivity. }
              split; [exact I'|]. split; [exact K'|apply tok_name].
           ++ cbn [rgood]. intros A. destruct (G A).
      * assert (Ef : f = FCat).
        { destruct f; try reflexivity; exfalso; exact (Kinds n Dt). }
        pose proof (set_ok (item_bm k d f) stack n s Ef Dt Hi Is Hb) as G.
        destruct (evaluate_set (item_bm k d f) d n s) as [s'| | |]; cbn [thn]; try contradiction.
        -- destruct G as (I' & K' & N').
           destruct (set_list_ok stack n s' Ef Dt Hi I' N') as (l & -> & Hl & _). cbn [thn].
           pose proof (set_values_ok l ebitmap_init valid_init) as G.
           specialize (G ltac:(intros v Hv; apply (So_lt n); apply Hl; exact Hv)).
           destruct (set_values ebitmap_init l) as [e| | |]; try contradiction. destruct G as [Ve Ge]. cbn [thn rgood].
           split; [exact Ve|]. split.
           { intros v. rewrite Ge. cbn [holds]. change (nget (e_nodes ebitmap_init) v) with false. cbn [orb].
             apply eq_true_iff_eq. rewrite <- Hl, existsb_exists. split.
             - intros (x & Hx & E). apply N.eqb_eq in E. subst. exact Hx.
             - intros H. exists v. split; [exact H|apply N.eqb_refl]. }
           split; [exact I'|]. split; [exact K'|apply tok_name].
        -- cbn [rgood]. intros A. destruct (G A).
  - change (tm (dat tb) (TList l)) with (IList (map (tm (dat tb)) l)) in *.
    change (item_bm (S k) d f (IList (map (tm (dat tb)) l)) s)
      with (expr_bm (item_bm k d f) d f (expr_of tb (TList l)) ebitmap_init s).
    apply expr_ok; [exact Sh|exact Dn| |exact Is].
    intros x q Hx Shx Iq. apply IH; [|exact Shx| |exact Iq].
    + cbn [check_item] in C. apply check_items_fine in C. rewrite Forall_forall in C. apply C. apply in_map. exact Hx.
    + intros m Hm2. apply Dn. cbn [names]. apply in_flat_map. exists x. split; [exact Hx|exact Hm2].
Qed.

(** ** The walk *)

Definition done (s : st) (a : N) : Prop :=
  match tb a with Some DAttr => s_attr s a <> None | Some DSet => set_done s a | _ => True end.

Lemma visit_ok k a s : ckd k [] a -> Inv [] s ->
  match visit k d f a s with
  | Fine s' => Inv [] s' /\ keeps [] s s' /\ done s' a
  | Bad => all_ok -> False
  | Crash => False
  | Deep => False
  end.
Proof.
  intros C Is. unfold visit, done. change (d_table d) with tb.
  assert (Hb : has_expr tb a = true -> forall t s, In t (ts a) -> Inv [a] s ->
    rg [a] t s (expr_bm (item_bm k d f) d f (expr_of tb t) ebitmap_init s)).
  { intros Ha u q Hu Iq. destruct (ckd_inv _ _ _ _ _ _ _ _ C) as (k' & Ek & Hi & Hc).
    pose proof (proj1 (ts_in stmts a u) Hu) as Hs. destruct (W a u Hs) as (_ & Shu & Du).
    apply expr_ok; [exact Shu|exact Du| |exact Iq].
    intros x r Hx Shx Ir. apply item_ok; [|exact Shx| |exact Ir].
    - pose proof (Hc Ha u Hu) as Cu. apply check_items_fine in Cu. rewrite Forall_forall in Cu. rewrite Ek.
      apply check_mono. apply Cu. unfold expr_of. destruct u as [m|kk|ul].
      + destruct Hx as [<-|[]]. left. reflexivity.
      + discriminate Shu.
      + cbn [tm items_of]. apply in_map. exact Hx.
    - intros m Hm2. apply Du. destruct u as [m'|kk|ul]; [destruct Hx as [<-|[]]; exact Hm2|discriminate Shu|].
      cbn [names]. apply in_flat_map. exists x. split; [exact Hx|exact Hm2]. }
  unfold has_expr in Hb.
  destruct (tb a) as [[v|m| |]|] eqn:Ea; try (split; [exact Is|split; [apply keeps_refl|exact Logic.I]]).
  - destruct (s_attr s a) as [e0|] eqn:E0.
    + split; [exact Is|]. split; [apply keeps_refl|congruence].
    + refine (attr_ok (item_bm k d f) [] a s _ (fun H => H) Is E0 (Hb eq_refl)).
      unfold has_expr. rewrite Ea. reflexivity.
  - assert (Ef : f = FCat).
    { destruct f; try reflexivity; exfalso; exact (Kinds a Ea). }
    exact (set_ok (item_bm k d f) [] a s Ef Ea (fun H => H) Is (Hb eq_refl)).
Qed.

Lemma done_keeps s s' a : keeps [] s s' -> done s a -> done s' a.
Proof.
  intros K. unfold done, set_done. destruct (K a) as [KA KB]. destruct (tb a) as [[]|]; auto.
  - intros H. rewrite KA; [exact H|right; exact H].
  - intros [H|H]; [left; rewrite KB; [exact H|right; exact H]|right; exact H].
Qed.

Lemma visit_all_ok k ids : forall s, (forall a, In a ids -> ckd k [] a) -> Inv [] s ->
  match visit_all k d f ids s with
  | Fine s' => Inv [] s' /\ keeps [] s s' /\ forall a, In a ids -> done s' a
  | Bad => all_ok -> False
  | Crash => False
  | Deep => False
  end.
Proof.
  induction ids as [|a ids IH]; intros s C Is.
  - cbn [visit_all]. split; [exact Is|]. split; [apply keeps_refl|intros a []].
  - cbn [visit_all]. pose proof (visit_ok k a s (C a (or_introl eq_refl)) Is) as G.
    destruct (visit k d f a s) as [s1| | |]; cbn [thn]; try contradiction.
    destruct G as (I1 & K1 & D1). specialize (IH s1 (fun b Hb => C b (or_intror Hb)) I1).
    destruct (visit_all k d f ids s1) as [s2| | |]; try contradiction.
    destruct IH as (I2 & K2 & D2). split; [exact I2|]. split; [exact (keeps_trans _ _ _ _ K1 K2)|].
    intros b [<-|Hb]; [exact (done_keeps s1 s2 a K2 D1)|exact (D2 b Hb)].
Qed.

Lemma done_contains s a v : Inv [] s -> defined_by_expr tb a -> done s a ->
  (contains d s a v <-> So a v = true) /\ forall t, In t (ts a) -> tok pl mx t = true.
Proof.
  intros Is Da Dn. unfold contains, done in *. change (d_table d) with tb. destruct Da as [Ea|Ea]; rewrite Ea in *.
  - destruct (s_attr s a) as [e|] eqn:E; [|congruence].
    destruct (proj1 (Is a (fun H => H)) e E) as (V & G & Tk). split; [|exact Tk]. split.
    + intros (e2 & E2 & H). inversion E2; subst e2. rewrite get_bit_nget in H by exact V. rewrite <- G. exact H.
    + intros H. exists e. split; [reflexivity|]. rewrite get_bit_nget by exact V. rewrite G. exact H.
  - assert (Ef : f = FCat).
    { destruct f; try reflexivity; exfalso; exact (Kinds a Ea). }
    destruct (set_list_ok [] a s Ef Ea (fun H => H) Is Dn) as (l & El & Hl & Tk). split; [|exact Tk]. split.
    + intros (l2 & E2 & H). rewrite El in E2. inversion E2; subst l2. apply Hl. exact H.
    + intros H. exists l. split; [exact El|]. apply Hl. exact H.
Qed.
End Db.
