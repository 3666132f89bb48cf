(** Proofs about expanding conditionals and switching their rules. *)
From Coq Require Import Permutation.
From Verif Require Import Base AvtabModel AvtabSpec AvtabProofs CondModel CondSpec CondProofs.
Ltac Zify.zify_post_hook ::= Z.div_mod_to_equations.

(** ** Unique reading *)

Fixpoint ssem (l : list tok) (st : list bexp) : option (list bexp) :=
  match l with
  | [] => Some st
  | t :: l' =>
      if t_type t =? 1 then ssem l' (BVar (t_bool t) :: st)
      else if t_type t =? 2 then match st with a :: r => ssem l' (BNot a :: r) | _ => None end
      else match st with
           | b :: a :: r =>
               if t_type t =? 3 then ssem l' (BOr a b :: r) else
               if t_type t =? 4 then ssem l' (BAnd a b :: r) else
               if t_type t =? 5 then ssem l' (BXor a b :: r) else
               if t_type t =? 6 then ssem l' (BEq a b :: r) else
               if t_type t =? 7 then ssem l' (BNeq a b :: r) else None
           | _ => None
           end
  end.

Lemma writes_ssem l e : writes l e -> forall r st, ssem (l ++ r) st = ssem r (e :: st).
Proof.
  induction 1 as [v0|l a x W IH|l a m b x W1 IH1 W2 IH2|l a m b x W1 IH1 W2 IH2|l a m b x W1 IH1 W2 IH2|l a m b x W1 IH1 W2 IH2|l a m b x W1 IH1 W2 IH2]; intros r st.
  1: reflexivity.
  1: rewrite <- app_assoc, IH; reflexivity.
  all: rewrite <- !app_assoc, IH1, IH2; reflexivity.
Qed.

Lemma writes_unique l e e' : writes l e -> writes l e' -> e = e'.
Proof.
  intros W W'. pose proof (writes_ssem _ _ W [] []) as H. rewrite (writes_ssem _ _ W' [] []) in H.
  cbn in H. congruence.
Qed.

(** ** First occurrences *)

Lemma first_occ_in l : forall seen v, In v (first_occ seen l) <-> In v l /\ ~ In v seen.
Proof.
  induction l as [|x l IH]; intros seen v; cbn [first_occ]; [cbn; tauto|].
  destruct (existsb (N.eqb x) seen) eqn:E.
  - apply existsb_exists in E as (y & Hy & E). apply N.eqb_eq in E. subst y. rewrite IH. cbn [In].
    split; [tauto|]. intros [[->|H] Hn]; [contradiction|tauto].
  - rewrite existsb_false in E. cbn [In]. rewrite IH. cbn [In]. split.
    + intros [->|[H Hn]]; [|tauto]. split; [left; reflexivity|]. intros Hs. specialize (E _ Hs). rewrite N.eqb_refl in E. discriminate.
    + intros [[->|H] Hn]; [left; reflexivity|]. destruct (N.eq_dec x v) as [->|Hne]; [left; reflexivity|right].
      split; [exact H|]. intros [->|Hs]; [congruence|contradiction].
Qed.

Lemma first_occ_nodup l : forall seen, NoDup (first_occ seen l).
Proof.
  induction l as [|x l IH]; intros seen; cbn [first_occ]; [constructor|].
  destruct (existsb (N.eqb x) seen); [apply IH|]. constructor; [|apply IH].
  rewrite first_occ_in. cbn [In]. tauto.
Qed.

Lemma first_occ_ext l : forall s s', (forall v, In v s <-> In v s') -> first_occ s l = first_occ s' l.
Proof.
  induction l as [|x l IH]; intros s s' H; cbn [first_occ]; [reflexivity|].
  assert (E : existsb (N.eqb x) s = existsb (N.eqb x) s').
  { apply bool_ext. rewrite !existsb_exists. split; intros (y & Hy & E); exists y; (split; [apply H; exact Hy|exact E]). }
  rewrite E. destruct (existsb (N.eqb x) s'); [apply IH; exact H|]. f_equal. apply IH. cbn [In]. intros v. rewrite H. tauto.
Qed.

Lemma first_occ_map (f : N -> N) l : forall s, (forall a b, In a (s ++ l) -> In b (s ++ l) -> f a = f b -> a = b) ->
  first_occ (map f s) (map f l) = map f (first_occ s l).
Proof.
  induction l as [|x l IH]; intros s Inj; cbn [first_occ map]; [reflexivity|].
  assert (E : existsb (N.eqb (f x)) (map f s) = existsb (N.eqb x) s).
  { apply bool_ext. rewrite !existsb_exists. split.
    - intros (y & Hy & E). apply N.eqb_eq in E. apply in_map_iff in Hy as (z & Ez & Hz). exists z. split; [exact Hz|].
      apply N.eqb_eq. apply Inj; [apply in_or_app; right; left; reflexivity|apply in_or_app; left; exact Hz|congruence].
    - intros (y & Hy & E). apply N.eqb_eq in E. subst y. exists (f x). split; [apply in_map; exact Hy|apply N.eqb_refl]. }
  rewrite E. destruct (existsb (N.eqb x) s).
  - apply IH. intros a b Ha Hb. apply Inj; rewrite in_app_iff in *; cbn [In]; tauto.
  - cbn [map]. f_equal. apply (IH (x :: s)). intros a b Ha Hb. apply Inj; rewrite in_app_iff in *; cbn [In] in *; tauto.
Qed.

(** The booleans of a token list, in order. *)
Definition tvars (l : list tok) : list N := map t_bool (filter (fun t => t_type t =? 1) l).

Lemma tvars_app l m : tvars (l ++ m) = tvars l ++ tvars m.
Proof. unfold tvars. rewrite filter_app, map_app. reflexivity. Qed.

Lemma writes_tvars l e : writes l e -> tvars l = vars e.
Proof.
  induction 1 as [v0|l a x W IH|l a m b x W1 IH1 W2 IH2|l a m b x W1 IH1 W2 IH2|l a m b x W1 IH1 W2 IH2|l a m b x W1 IH1 W2 IH2|l a m b x W1 IH1 W2 IH2]; cbn [vars].
  1: reflexivity.
  1: rewrite tvars_app, IH; cbn; apply app_nil_r.
  all: rewrite !tvars_app, IH1, IH2; unfold tvars at 1; cbn [filter map t_type]; change (_ =? 1) with false; cbn; rewrite ?app_nil_r; reflexivity.
Qed.

Lemma collect_first_occ e : forall ids n ids' n', collect e ids n = (ids', n') ->
  (n <= 5 -> N.of_nat (length ids) = n) -> n' <= 5 -> ids' = ids ++ first_occ ids (tvars e).
Proof.
  induction e as [|t e IH]; intros ids n ids' n' H L N5; cbn [collect] in H.
  - injection H as <- <-. cbn. rewrite app_nil_r. reflexivity.
  - assert (Mono : forall e ids n ids' n', collect e ids n = (ids', n') -> n <= n').
    { clear. induction e as [|t e IH]; intros ids n ids' n' H; cbn [collect] in H; [injection H as <- <-; lia|].
      destruct (t_type t =? COND_BOOL); [|exact (IH _ _ _ _ H)].
      destruct (bool_present (t_bool t) ids n); [exact (IH _ _ _ _ H)|].
      destruct (n <? COND_MAX_BOOLS); apply IH in H; lia. }
    change (tvars (t :: e)) with (map t_bool (filter (fun t => t_type t =? 1) (t :: e))). cbn [filter].
    unfold COND_BOOL, COND_MAX_BOOLS in H. destruct (N.eqb_spec (t_type t) 1) as [E1|E1].
    + cbn [map]. fold (tvars e). cbn [first_occ].
      assert (Hp : n <= 5 -> bool_present (t_bool t) ids n = existsb (N.eqb (t_bool t)) ids).
      { intros Hn. unfold bool_present, COND_MAX_BOOLS. replace (5 <? n) with false by lia.
        rewrite <- (L Hn), Nat2N.id, firstn_all. reflexivity. }
      destruct (bool_present (t_bool t) ids n) eqn:Ep.
      * pose proof (Mono _ _ _ _ _ H). rewrite <- Hp by lia. apply (IH _ _ _ _ H L N5).
      * destruct (n <? 5) eqn:En; [|apply Mono in H; lia]. rewrite <- Hp by lia.
        rewrite (IH _ _ _ _ H) by (try exact N5; intros _; rewrite app_length; cbn [length]; rewrite Nat2N.inj_add, (L ltac:(lia)); reflexivity).
        rewrite <- app_assoc. cbn [app]. f_equal. f_equal. apply first_occ_ext. intros v. rewrite in_app_iff. cbn [In]. tauto.
    + fold (tvars e). apply (IH _ _ _ _ H L N5).
Qed.

(** ** Normal nodes *)

Definition normal {R V} (c : cnode R V) (e : bexp) : Prop :=
  writes (c_expr c) e /\ (cells e <= 10)%nat /\ collect (c_expr c) [] 0 = (c_ids c, c_nbools c) /\
  (c_nbools c <= 5 -> forall t, N.testbit (c_pre c) t =
        (t <? 2 ^ c_nbools c) && truth (asg_test (c_ids c) t) e).

Lemma nodup_incl_eqset (a b : list N) : NoDup a -> NoDup b -> length a = length b -> incl a b -> forall v, In v b -> In v a.
Proof.
  intros Na Nb L I v Hv. exact (@NoDup_length_incl N a b Na ltac:(rewrite L; apply le_n) I v Hv).
Qed.

Lemma normal_equal {R V} (a b : cnode R V) ea eb :
  normal a ea -> normal b eb -> same_order ea eb -> cond_expr_equal a b = true ->
  forall asg, truth asg ea = truth asg eb.
Proof.
  intros (Wa & Ca & Cla & Pa) (Wb & Cb & Clb & Pb) Hord Heq asg.
  unfold cond_expr_equal in Heq. destruct (N.eqb_spec (c_nbools a) (c_nbools b)) as [En|En]; [|discriminate].
  cbn [negb] in Heq. destruct ((c_nbools a <=? COND_MAX_BOOLS) && (c_nbools b <=? COND_MAX_BOOLS)) eqn:E5.
  - unfold COND_MAX_BOOLS in E5. assert (N5 : c_nbools a <= 5) by lia.
    destruct (same_bools a b) eqn:Esb; [|discriminate]. cbn [negb] in Heq. apply N.eqb_eq in Heq.
    destruct (collect_spec _ _ _ _ _ Cla ltac:(reflexivity) ltac:(constructor) N5) as (_ & La & NDa & _ & Hia & _).
    destruct (collect_spec _ _ _ _ _ Clb ltac:(reflexivity) ltac:(constructor) ltac:(lia)) as (_ & Lb & NDb & _ & Hib & _).
    pose proof (collect_first_occ _ _ _ _ _ Cla ltac:(reflexivity) N5) as Fa.
    pose proof (collect_first_occ _ _ _ _ _ Clb ltac:(reflexivity) ltac:(lia)) as Fb.
    cbn [app] in Fa, Fb. rewrite (writes_tvars _ _ Wa) in Fa. rewrite (writes_tvars _ _ Wb) in Fb.
    assert (Inc : incl (c_ids a) (c_ids b)).
    { unfold same_bools in Esb. rewrite <- En, N.eqb_refl in Esb. cbn [negb] in Esb.
      rewrite <- La, Nat2N.id, firstn_all in Esb. rewrite forallb_forall in Esb. intros v Hv.
      specialize (Esb v Hv). unfold bool_present in Esb. destruct (COND_MAX_BOOLS <? N.of_nat (length (c_ids a))); [discriminate|].
      rewrite Nat2N.id in Esb. apply existsb_exists in Esb as (w & Hw & E). apply N.eqb_eq in E. subst w.
      rewrite <- (firstn_skipn (length (c_ids a)) (c_ids b)). apply in_or_app; left; exact Hw. }
    assert (Eset : forall v, In v (vars ea) <-> In v (vars eb)).
    { intros v. assert (Ha := first_occ_in (vars ea) [] v). assert (Hb := first_occ_in (vars eb) [] v).
      rewrite <- Fa in Ha. rewrite <- Fb in Hb. cbn [In] in Ha, Hb.
      assert (In v (c_ids a) <-> In v (c_ids b)); [|tauto].
      split; [apply Inc|]. apply nodup_incl_eqset; try assumption.
      enough (N.of_nat (length (c_ids a)) = N.of_nat (length (c_ids b))) by lia. rewrite La, Lb. exact En. }
    assert (Hids : c_ids a = c_ids b) by (rewrite Fa, Fb; apply Hord; exact Eset).
    set (t := encode (map asg (c_ids a))).
    assert (Lt : t < 2 ^ c_nbools a).
    { unfold t. pose proof (encode_lt (map asg (c_ids a))) as H. rewrite map_length, La in H. exact H. }
    assert (Ea : truth asg ea = truth (asg_test (c_ids a) t) ea).
    { apply truth_ext. intros v Hv. symmetry. apply asg_test_encode.
      rewrite (writes_vars _ _ Wa v) in Hv. destruct Hv as (u & H1 & H2 & <-). exact (Hia u H1 H2). }
    assert (Eb : truth asg eb = truth (asg_test (c_ids b) t) eb).
    { apply truth_ext. intros v Hv. symmetry. unfold t. rewrite Hids. apply asg_test_encode.
      rewrite (writes_vars _ _ Wb v) in Hv. destruct Hv as (u & H1 & H2 & <-). exact (Hib u H1 H2). }
    specialize (Pa N5 t). specialize (Pb ltac:(lia) t). rewrite Heq, Pb in Pa. rewrite Ea, Eb.
    rewrite <- En in Pa. replace (t <? 2 ^ c_nbools a) with true in Pa by lia. symmetry. exact Pa.
  - pose proof (same_tokens_asem asg _ _ [] Heq) as H.
    rewrite (writes_fin _ _ _ Wa), (writes_fin _ _ _ Wb) in H.
    destruct (Nat.leb_spec (cells ea) 10); [|lia]. destruct (Nat.leb_spec (cells eb) 10); [|lia].
    injection H as H. exact H.
Qed.

(** ** Expanding *)

Lemma map_bool_ok base out boolmap v : map_ok base out boolmap -> var_ok base v ->
  map_bool boolmap v = Some (nth (N.to_nat (v - 1)) boolmap 0).
Proof.
  intros (L & _ & _) V. unfold map_bool, var_ok in *. replace (v =? 0) with false by lia.
  apply nth_nth_error. lia.
Qed.

Fixpoint rename (f : N -> N) (e : bexp) : bexp :=
  match e with
  | BVar v => BVar (f v) | BNot a => BNot (rename f a)
  | BOr a b => BOr (rename f a) (rename f b) | BAnd a b => BAnd (rename f a) (rename f b)
  | BXor a b => BXor (rename f a) (rename f b) | BEq a b => BEq (rename f a) (rename f b)
  | BNeq a b => BNeq (rename f a) (rename f b)
  end.

Lemma rename_truth f asg e : truth asg (rename f e) = truth (fun v => asg (f v)) e.
Proof. induction e; cbn [rename truth]; congruence. Qed.
Lemma rename_cells f e : cells (rename f e) = cells e.
Proof. induction e; cbn [rename cells]; congruence. Qed.
Lemma rename_vars f e : vars (rename f e) = map f (vars e).
Proof. induction e; cbn [rename vars map]; rewrite ?map_app; congruence. Qed.

Lemma map_expr_app bm l m : map_expr bm (l ++ m) =
  match map_expr bm l, map_expr bm m with Some a, Some b => Some (a ++ b) | _, _ => None end.
Proof.
  induction l as [|t l IH]; cbn [app map_expr].
  - destruct (map_expr bm m); reflexivity.
  - rewrite IH. destruct (map_bool bm (t_bool t)), (map_expr bm l), (map_expr bm m); reflexivity.
Qed.

Lemma map_expr_ok base out bm l : map_ok base out bm -> toks_ok base l ->
  (forall t, In t l -> t_type t <> 1 -> t_bool t = 0) ->
  exists l', map_expr bm l = Some l' /\ toks_ok out l' /\
    (forall t, In t l' -> t_type t <> 1 -> t_bool t = 0) /\
    forall e, writes l e -> writes l' (rename (fun v => nth (N.to_nat (v - 1)) bm 0) e).
Proof.
  intros M T Z.
  assert (G : forall l, toks_ok base l -> (forall t, In t l -> t_type t <> 1 -> t_bool t = 0) ->
     map_expr bm l = Some (map (fun t => mkT (t_type t) (if t_type t =? 1 then nth (N.to_nat (t_bool t - 1)) bm 0 else 0)) l)).
  { clear l T Z. induction l as [|t l IH]; intros T Z; cbn [map_expr map]; [reflexivity|].
    rewrite IH by (intros u Hu; (apply T || apply Z); right; exact Hu).
    destruct (N.eqb_spec (t_type t) 1) as [E|E].
    - rewrite (map_bool_ok _ _ _ _ M (T t (or_introl eq_refl) E)). reflexivity.
    - rewrite (Z t (or_introl eq_refl) E). reflexivity. }
  rewrite (G l T Z). eexists. split; [reflexivity|]. split; [|split].
  - intros t Ht E. apply in_map_iff in Ht as (u & <- & Hu). cbn [t_type t_bool] in *.
    replace (t_type u =? 1) with true by lia. destruct M as (L & _ & F). rewrite Forall_forall in F. apply F.
    apply nth_In. specialize (T u Hu E). unfold var_ok in T. lia.
  - intros t Ht E. apply in_map_iff in Ht as (u & <- & Hu). cbn [t_type t_bool] in *.
    destruct (N.eqb_spec (t_type u) 1); [congruence|reflexivity].
  - clear T Z. induction 1; cbn [rename]; rewrite ?map_app; cbn [map t_type t_bool]; constructor; assumption.
Qed.

Lemma strip_true_not l e l' : writes l e -> strip_not l = Some (l', true) -> exists a, e = BNot a.
Proof.
  intros W H. destruct (strip_spec _ _ W) as [(x & m & a & E1 & _ & -> & _)|E1]; [exists a; reflexivity|].
  rewrite E1 in H. discriminate.
Qed.

Lemma normalize_normal {R V} bs (cn : cnode R V) e : bools_ok bs -> toks_ok bs (c_expr cn) ->
  (forall t, In t (c_expr cn) -> t_type t <> 1 -> t_bool t = 0) ->
  writes (c_expr cn) e -> (cells e <= 10)%nat ->
  exists cn' e' swap,
    cond_normalize_expr bs cn = Some (bs, cn', 0%Z) /\ normal cn' e' /\ toks_ok bs (c_expr cn') /\
    (forall t, In t (c_expr cn') -> t_type t <> 1 -> t_bool t = 0) /\
    vars e' = vars e /\ (swap = true -> e = BNot e') /\
    (swap = false -> e' = e /\ forall a, e <> BNot a) /\
    c_true cn' = (if swap then c_false cn else c_true cn) /\
    c_false cn' = (if swap then c_true cn else c_false cn) /\
    c_avtrue cn' = (if swap then c_avfalse cn else c_avtrue cn) /\
    c_avfalse cn' = (if swap then c_avtrue cn else c_avfalse cn).
Proof.
  intros B T Z W C.
  destruct (normalize_spec bs cn e B T W C) as (cn' & e' & swap & E & W' & C' & T' & Ht & St & H1 & H2 & H3 & H4 & H5 & Cl & P).
  exists cn', e', swap. split; [exact E|]. split; [repeat split; assumption|]. split; [exact T'|].
  assert (K : (swap = true -> e = BNot e') /\ (swap = false -> e' = e /\ forall a, e <> BNot a) /\
              incl (c_expr cn') (c_expr cn)).
  { destruct (strip_spec _ _ W) as [(x & m & a & E1 & E2 & -> & Wa)|E1]; rewrite E1 in St; injection St as Em Es; subst swap.
    - split; [|split; [discriminate|rewrite E2, Em; apply incl_appl, incl_refl]].
      intros _. rewrite <- Em in W'. rewrite (writes_unique _ _ _ W' Wa). reflexivity.
    - split; [discriminate|split; [|rewrite Em; apply incl_refl]]. intros _. split.
      + rewrite <- Em in W'. exact (writes_unique _ _ _ W' W).
      + intros a ->. inversion W as [|l0 a0 x0 W0 El0 Ea| | | | |]; subst.
        unfold strip_not in E1. rewrite <- El0, rev_app_distr in E1. cbn [rev app t_type] in E1.
        change (2 =? COND_NOT) with true in E1. cbn iota in E1. destruct (rev l0); discriminate. }
  destruct K as (K1 & K2 & K3). split; [intros t Hi; apply Z; apply K3; exact Hi|]. split.
  { destruct swap; [rewrite (K1 eq_refl); reflexivity|rewrite (proj1 (K2 eq_refl)); reflexivity]. }
  repeat (split; [assumption|]). assumption.
Qed.

Lemma find_from_spec {R V} (n : cnode R V) l : forall k i, cond_find_from n l k = Some i ->
  exists j c, i = (k + j)%nat /\ nth_error l j = Some c /\ cond_expr_equal n c = true.
Proof.
  induction l as [|c l IH]; intros k i H; cbn in H; [discriminate|].
  destruct (cond_expr_equal n c) eqn:E.
  - injection H as <-. exists O, c. split; [lia|split; [reflexivity|exact E]].
  - destruct (IH _ _ H) as (j & c' & -> & H1 & H2). exists (S j), c'. split; [lia|split; [exact H1|exact H2]].
Qed.

Lemma in_set_nth {A} (l : list A) i x v : nth_error l i = Some x ->
  forall y, In y (set_nth i v l) <-> y = v \/ exists j, j <> i /\ nth_error l j = Some y.
Proof.
  intros H y. assert (Li : (i < length l)%nat) by (apply nth_error_Some; congruence). split.
  - intros Hy. apply In_nth_error in Hy as (j & Hj). rewrite set_nth_error in Hj by exact Li.
    destruct (Nat.eqb_spec i j) as [->|Hne]; [left; congruence|right]. exists j. split; [congruence|exact Hj].
  - intros [->|(j & Hne & Hj)].
    + apply nth_error_In with (n := i). rewrite set_nth_error, Nat.eqb_refl by exact Li. reflexivity.
    + apply nth_error_In with (n := j). rewrite set_nth_error by exact Li. destruct (Nat.eqb_spec i j); [congruence|exact Hj].
Qed.

Lemma force_set {V W} (l : list (cnode (list W) V)) i nc nc' e A B asg w :
  nth_error l i = Some nc -> writes (c_expr nc) e -> c_expr nc' = c_expr nc ->
  c_true nc' = c_true nc ++ A -> c_false nc' = c_false nc ++ B ->
  out_in_force (set_nth i nc' l) asg w <-> out_in_force l asg w \/ In w (in_force (truth asg e) A B).
Proof.
  intros Hi We Ee Et Ef. split.
  - intros (c & ec & Hc & Wc & Hw). rewrite (in_set_nth _ _ _ _ Hi) in Hc. destruct Hc as [->|(j & Hne & Hj)].
    + rewrite Ee in Wc. rewrite (writes_unique _ _ _ Wc We) in Hw. unfold in_force in *. rewrite Et, Ef in Hw.
      destruct (truth asg e) eqn:Tr; apply in_app_or in Hw as [Hw|Hw]; try (right; exact Hw);
        left; exists nc, e; (split; [eapply nth_error_In; exact Hi|split; [exact We|unfold in_force; rewrite Tr; exact Hw]]).
    + left. exists c, ec. split; [eapply nth_error_In; exact Hj|split; assumption].
  - intros [(c & ec & Hc & Wc & Hw)|Hw].
    + apply In_nth_error in Hc as (j & Hj). destruct (Nat.eq_dec j i) as [->|Hne].
      * assert (c = nc) by congruence. subst c. exists nc', ec.
        split; [apply (in_set_nth _ _ _ _ Hi); left; reflexivity|]. rewrite Ee. split; [exact Wc|].
        unfold in_force in *. rewrite Et, Ef. destruct (truth asg ec); apply in_or_app; left; exact Hw.
      * exists c, ec. split; [apply (in_set_nth _ _ _ _ Hi); right; exists j; split; assumption|split; assumption].
    + exists nc', e. split; [apply (in_set_nth _ _ _ _ Hi); left; reflexivity|]. rewrite Ee. split; [exact We|].
      unfold in_force in *. rewrite Et, Ef. destruct (truth asg e); apply in_or_app; right; exact Hw.
Qed.

Definition good_src {V} (base : bools) (c : scond V) (e : bexp) : Prop :=
  writes (sc_toks c) e /\ (cells e <= 10)%nat /\ toks_ok base (sc_toks c) /\ ~ double_not e /\
  (forall t, In t (sc_toks c) -> t_type t <> 1 -> t_bool t = 0).

Definition from_src {V W} (f : N -> N) (cs : list (scond V)) (c : cnode (list W) V) : Prop :=
  exists e s es, normal c e /\ In s cs /\ writes (sc_toks s) es /\ vars e = map f (vars es).

Lemma same_order_map f e1 e2 d1 d2 : vars d1 = map f (vars e1) -> vars d2 = map f (vars e2) ->
  (forall a b, In a (vars e1 ++ vars e2) -> In b (vars e1 ++ vars e2) -> f a = f b -> a = b) ->
  same_order e1 e2 -> same_order d1 d2.
Proof.
  intros V1 V2 Inj H Heq. rewrite V1, V2 in *.
  rewrite <- (first_occ_map f (vars e1) []), <- (first_occ_map f (vars e2) []) || idtac.
  assert (Hs : forall v, In v (vars e1) <-> In v (vars e2)).
  { intros v. specialize (Heq (f v)). rewrite !in_map_iff in Heq. split; intros Hv.
    - destruct (proj1 Heq (ex_intro _ v (conj eq_refl Hv))) as (u & Eu & Hu).
      rewrite <- (Inj u v); [exact Hu|apply in_or_app; right; exact Hu|apply in_or_app; left; exact Hv|exact Eu].
    - destruct (proj2 Heq (ex_intro _ v (conj eq_refl Hv))) as (u & Eu & Hu).
      rewrite <- (Inj u v); [exact Hu|apply in_or_app; left; exact Hu|apply in_or_app; right; exact Hv|exact Eu]. }
  change (@nil N) with (map f []).
  rewrite !first_occ_map; [rewrite (H Hs); reflexivity|..];
    intros a b Ha Hb; cbn [app] in *; apply Inj; apply in_or_app; auto.
Qed.

Lemma bm_inj base out bm : map_ok base out bm ->
  forall a b, var_ok base a -> var_ok base b ->
    nth (N.to_nat (a - 1)) bm 0 = nth (N.to_nat (b - 1)) bm 0 -> a = b.
Proof.
  intros (L & ND & _) a b Va Vb E. unfold var_ok in *.
  rewrite (NoDup_nth _ 0) in ND.
  assert (N.to_nat (a - 1) = N.to_nat (b - 1)) by (apply ND; [rewrite L; lia|rewrite L; lia|exact E]). lia.
Qed.

Lemma copy_step {V W} (conv : V -> list W) base out bm nov done c e l :
  bools_ok base -> bools_ok out -> map_ok base out bm -> good_src base c e ->
  (forall s es, In s done -> writes (sc_toks s) es -> toks_ok base (sc_toks s) /\ same_order e es) ->
  let f := fun v => nth (N.to_nat (v - 1)) bm 0 in
  Forall (from_src f done) l ->
  exists l', cond_node_copy conv base out bm nov l (node_of c) = Some l' /\
    Forall (from_src f (done ++ [c])) l' /\
    forall asg w, out_in_force l' asg w <->
      out_in_force l asg w \/ In w (conv (in_force (truth (fun v => asg (f v)) e) (sc_true c) (sc_false c))).
Proof.
  intros Bb Bo M (We & Ce & Te & Nd & Ze) Hdone f Fl.
  destruct (normalize_normal base (node_of c : cnode (list W) V) e Bb Te Ze We Ce)
    as (cn' & e' & swap & E1 & N1 & T1 & Z1 & V1 & K1 & K2 & _ & _ & A1 & A2).
  unfold cond_node_copy. rewrite E1.
  pose proof N1 as (W1 & C1 & Cl1 & P1).
  unfold cond_node_create at 1. rewrite (eval_writes base _ _ Bb T1 W1). cbn [c_expr].
  destruct (map_expr_ok base out bm _ M T1 Z1) as (l2 & -> & T2 & Z2 & W2). specialize (W2 e' W1). fold f in W2.
  set (tmp := mkC _ l2 _ _ _ _ _ _ _ _).
  destruct (normalize_normal out tmp (rename f e') Bo T2 Z2 W2 ltac:(rewrite rename_cells; exact C1))
    as (tmp' & e2 & swap2 & E2 & N2 & T3 & Z3 & V2 & K3 & K4 & _ & _ & _ & _).
  rewrite E2.
  assert (swap2 = false) as ->.
  { destruct swap2; [|reflexivity]. exfalso. specialize (K3 eq_refl). apply Nd.
    destruct e' as [|a| | | | |]; cbn [rename] in K3; try discriminate. destruct swap.
    - rewrite (K1 eq_refl). exists a. reflexivity.
    - destruct (K2 eq_refl) as [Q1 Q2]. exfalso. exact (Q2 a (eq_sym Q1)). }
  destruct (K4 eq_refl) as [Q _]. subst e2. clear K3 K4.
  assert (Tr : forall asg,
    in_force (truth asg (rename f e')) (conv (c_avtrue cn')) (conv (c_avfalse cn')) =
    conv (in_force (truth (fun v => asg (f v)) e) (sc_true c) (sc_false c))).
  { intros asg. rewrite rename_truth, A1, A2. unfold in_force, node_of. cbn [c_avtrue c_avfalse].
    destruct swap.
    - rewrite (K1 eq_refl). cbn [truth]. destruct (truth (fun v => asg (f v)) e'); reflexivity.
    - rewrite (proj1 (K2 eq_refl)). destruct (truth (fun v => asg (f v)) e); reflexivity. }
  assert (Vtmp : vars (rename f e') = map f (vars e)) by (rewrite rename_vars, V1; reflexivity).
  assert (Fl' : Forall (from_src f (done ++ [c])) l).
  { eapply Forall_impl; [|exact Fl]. intros x (d & s & es & Hn & Hs & Hw & Hv). exists d, s, es.
    split; [exact Hn|]. split; [apply in_or_app; left; exact Hs|split; assumption]. }
  assert (Vin : forall (s : scond V) es, toks_ok base (sc_toks s) -> writes (sc_toks s) es -> forall v, In v (vars es) -> var_ok base v).
  { intros s es Ts Ws v Hv. rewrite (writes_vars _ _ Ws v) in Hv. destruct Hv as (t & H1 & H2 & <-). exact (Ts t H1 H2). }
  unfold cond_node_search. destruct (cond_find_from tmp' l 0) as [i|] eqn:Ef.
  - destruct (find_from_spec _ _ _ _ Ef) as (j & nc & Ej & Hj & Heq). cbn in Ej. subst j. rewrite Hj.
    eexists. split; [reflexivity|].
    assert (Hnc : from_src f done nc). { rewrite Forall_forall in Fl. apply Fl. eapply nth_error_In; exact Hj. }
    destruct Hnc as (d & s & es & Hn & Hs & Hw & Hv).
    destruct (Hdone s es Hs Hw) as (Ts & Ord).
    assert (Same : forall asg, truth asg (rename f e') = truth asg d).
    { apply (normal_equal tmp' nc _ _ N2 Hn); [|exact Heq].
      apply (same_order_map f e es); try assumption.
      intros a b Ha Hb. apply (bm_inj base out bm M); rewrite in_app_iff in *.
      - destruct Ha as [Ha|Ha]; [exact (Vin c e Te We a Ha)|exact (Vin s es Ts Hw a Ha)].
      - destruct Hb as [Hb|Hb]; [exact (Vin c e Te We b Hb)|exact (Vin s es Ts Hw b Hb)]. }
    split.
    + rewrite Forall_forall. intros x Hx. rewrite (in_set_nth _ _ _ _ Hj) in Hx.
      rewrite Forall_forall in Fl'. destruct Hx as [->|(k & _ & Hk)]; [|apply Fl'; eapply nth_error_In; exact Hk].
      exists d, s, es. split; [exact Hn|]. split; [apply in_or_app; left; exact Hs|split; assumption].
    + intros asg w. rewrite (force_set l i nc _ d (conv (c_avtrue cn')) (conv (c_avfalse cn')) asg w Hj (proj1 Hn)) by reflexivity.
      rewrite <- Same, Tr. reflexivity.
  - pose proof N2 as (W3 & C3 & Cl3 & P3). unfold cond_node_create. rewrite (eval_writes out _ _ Bo T3 W3).
    cbn [nth_error set_nth]. eexists. split; [reflexivity|]. split.
    + constructor; [|exact Fl']. exists (rename f e'), c, e. split; [exact N2|].
      split; [apply in_or_app; right; left; reflexivity|]. split; [exact We|exact Vtmp].
    + intros asg w. match goal with |- out_in_force (?x :: l) _ _ <-> _ => set (nc := x) end. split.
      * intros (x & ex & Hx & Wx & Hw). destruct Hx as [<-|Hx].
        { right. unfold nc in Wx, Hw. cbn [c_expr c_true c_false app] in Wx, Hw.
          rewrite (writes_unique _ _ _ Wx W3) in Hw. rewrite Tr in Hw. exact Hw. }
        { left. exists x, ex. split; [exact Hx|split; assumption]. }
      * intros [(x & ex & Hx & Wx & Hw)|Hw].
        { exists x, ex. split; [right; exact Hx|split; assumption]. }
        { exists nc, (rename f e'). split; [left; reflexivity|]. split; [exact W3|].
          unfold nc. cbn [c_true c_false app]. rewrite Tr. exact Hw. }
Qed.

Lemma copy_all_spec {V W} (conv : V -> list W) base out bm nov :
  bools_ok base -> bools_ok out -> map_ok base out bm -> forall cs done l,
  Forall (fun c => exists e, good_src base c e) (done ++ cs) ->
  (forall s t es et, In s (done ++ cs) -> In t (done ++ cs) -> writes (sc_toks s) es -> writes (sc_toks t) et -> same_order es et) ->
  let f := fun v => nth (N.to_nat (v - 1)) bm 0 in
  Forall (from_src f done) l ->
  exists l', copy_all conv base out bm nov cs l = Some l' /\
    forall asg w, out_in_force l' asg w <-> out_in_force l asg w \/ src_in_force conv bm cs asg w.
Proof.
  intros Bb Bo M. induction cs as [|c cs IH]; intros done l G Ord f Fl; cbn [copy_all].
  - exists l. split; [reflexivity|]. intros asg w. split; [left; assumption|]. intros [H|(c & e & [] & _)]; exact H.
  - assert (Gc : exists e, good_src base c e).
    { rewrite Forall_forall in G. apply G. apply in_or_app; right; left; reflexivity. }
    destruct Gc as (e & Ge).
    destruct (copy_step conv base out bm nov done c e l Bb Bo M Ge) as (l1 & -> & Fl1 & H1).
    { intros s es Hs Ws. split.
      - rewrite Forall_forall in G. destruct (G s) as (es' & _ & _ & Ts & _); [apply in_or_app; left; exact Hs|]. exact Ts.
      - apply (Ord c s e es); [apply in_or_app; right; left; reflexivity|apply in_or_app; left; exact Hs|exact (proj1 Ge)|exact Ws]. }
    { exact Fl. }
    destruct (IH (done ++ [c]) l1) as (l2 & -> & H2).
    { rewrite <- app_assoc. exact G. }
    { rewrite <- app_assoc. exact Ord. }
    { exact Fl1. }
    exists l2. split; [reflexivity|]. intros asg w. rewrite H2, H1. split.
    + intros [[H|H]|(x & ex & Hx & Wx & Hw)]; [left; exact H|right|right].
      * exists c, e. split; [left; reflexivity|]. split; [exact (proj1 Ge)|exact H].
      * exists x, ex. split; [right; exact Hx|split; assumption].
    + intros [H|(x & ex & [<-|Hx] & Wx & Hw)]; [left; left; exact H| |].
      * left; right. rewrite (writes_unique _ _ _ Wx (proj1 Ge)) in Hw. exact Hw.
      * right. exists x, ex. split; [exact Hx|split; assumption].
Qed.

(** ** Switching rules *)

Lemma upd_nth_error {A} i (f : A -> A) l j :
  nth_error (upd_nth i f l) j = if Nat.eqb i j then option_map f (nth_error l j) else nth_error l j.
Proof.
  unfold upd_nth. destruct (nth_error l i) as [x|] eqn:E.
  - rewrite set_nth_error by (apply nth_error_Some; congruence).
    destruct (Nat.eqb_spec i j) as [<-|]; [rewrite E|]; reflexivity.
  - destruct (Nat.eqb_spec i j) as [<-|]; [rewrite E|]; reflexivity.
Qed.

Definition peqb (p q : nptr) : bool := Nat.eqb (fst p) (fst q) && Nat.eqb (snd p) (snd q).
Lemma peqb_eq p q : peqb p q = true <-> p = q.
Proof. destruct p, q. unfold peqb. cbn. rewrite andb_true_iff, !Nat.eqb_eq. split; [intros [-> ->]; reflexivity|intros [= -> ->]; auto]. Qed.

Lemma node_at_upd ht p f q : node_at (upd_node p f ht) q = if peqb p q then option_map f (node_at ht q) else node_at ht q.
Proof.
  unfold node_at, upd_node, peqb. rewrite upd_nth_error. destruct (Nat.eqb (fst p) (fst q)); [|reflexivity]. cbn [andb].
  destruct (nth_error ht (fst q)) as [c|]; cbn [option_map]; [|destruct (Nat.eqb (snd p) (snd q)); reflexivity].
  rewrite upd_nth_error. reflexivity.
Qed.

Lemma with_enabled_idem on n : with_enabled on (with_enabled on n) = with_enabled on n.
Proof.
  unfold with_enabled. cbn. f_equal. f_equal. destruct on.
  - apply N.bits_inj. intro i. rewrite !N.lor_spec. destruct (N.testbit (k_spec (n_key n)) i), (N.testbit AVTAB_ENABLED i); reflexivity.
  - apply N.bits_inj. intro i. rewrite !N.ldiff_spec. destruct (N.testbit (k_spec (n_key n)) i), (N.testbit AVTAB_ENABLED i); reflexivity.
Qed.

Lemma with_enabled_on on n : rule_on (with_enabled on n) = on.
Proof.
  unfold rule_on, with_enabled. cbn [n_key k_spec]. destruct on.
  - rewrite N.lor_spec. change (N.testbit AVTAB_ENABLED 15) with true. apply orb_true_r.
  - rewrite N.ldiff_spec. change (N.testbit AVTAB_ENABLED 15) with true. apply andb_false_r.
Qed.

Lemma switch_at on ps : forall ht q, node_at (switch_all on ps ht) q =
  if existsb (fun p => peqb p q) ps then option_map (with_enabled on) (node_at ht q) else node_at ht q.
Proof.
  induction ps as [|p ps IH]; intros ht q; cbn [switch_all fold_left existsb]; [reflexivity|].
  fold (switch_all on ps (upd_node p (with_enabled on) ht)). rewrite IH, node_at_upd.
  destruct (peqb p q); cbn [orb]; [|reflexivity].
  destruct (existsb (fun p => peqb p q) ps); [|reflexivity].
  destruct (node_at ht q); cbn [option_map]; [rewrite with_enabled_idem|]; reflexivity.
Qed.

Lemma existsb_ptr ps q : existsb (fun p => peqb p q) ps = true <-> In q ps.
Proof.
  rewrite existsb_exists. split.
  - intros (p & Hp & E). apply peqb_eq in E. subst; exact Hp.
  - intros H. exists q. split; [exact H|]. apply peqb_eq. reflexivity.
Qed.

(** Same node up to the enabled flag. *)
Definition same_rule (n m : anode) : Prop :=
  k_src (n_key n) = k_src (n_key m) /\ k_tgt (n_key n) = k_tgt (n_key m) /\ k_cls (n_key n) = k_cls (n_key m) /\
  N.ldiff (k_spec (n_key n)) AVTAB_ENABLED = N.ldiff (k_spec (n_key m)) AVTAB_ENABLED /\ n_datum n = n_datum m.

Lemma same_rule_refl n : same_rule n n. Proof. repeat split. Qed.
Lemma same_rule_trans a b c : same_rule a b -> same_rule b c -> same_rule a c.
Proof. unfold same_rule. intuition congruence. Qed.
Lemma same_rule_with on n : same_rule n (with_enabled on n).
Proof.
  unfold same_rule, with_enabled; cbn. repeat split. apply N.bits_inj. intro i. destruct on; rewrite !N.ldiff_spec, ?N.lor_spec, ?N.ldiff_spec;
  destruct (N.testbit (k_spec (n_key n)) i), (N.testbit AVTAB_ENABLED i); reflexivity.
Qed.

(** The table keeps its shape and rules; only flags of the listed pointers may differ. *)
Definition frame (ps : list nptr) (ht ht' : list (list anode)) : Prop :=
  forall q, (~ In q ps -> node_at ht' q = node_at ht q) /\
    match node_at ht q, node_at ht' q with
    | Some n, Some m => same_rule n m
    | None, None => True
    | _, _ => False
    end.

Lemma frame_refl ps ht : frame ps ht ht.
Proof. intros q. split; [reflexivity|]. destruct (node_at ht q); [apply same_rule_refl|exact I]. Qed.
Lemma frame_trans ps a b c : frame ps a b -> frame ps b c -> frame ps a c.
Proof.
  intros H1 H2 q. destruct (H1 q) as [A1 B1], (H2 q) as [A2 B2]. split.
  - intros Hq. rewrite A2, A1 by exact Hq. reflexivity.
  - destruct (node_at a q), (node_at b q), (node_at c q); try contradiction; try exact I. eapply same_rule_trans; eassumption.
Qed.
Lemma frame_incl ps qs a b : incl ps qs -> frame ps a b -> frame qs a b.
Proof. intros I H q. destruct (H q) as [A B]. split; [|exact B]. intros Hq. apply A. intros Hp. apply Hq, I, Hp. Qed.

Lemma switch_frame on ps ht : frame ps ht (switch_all on ps ht).
Proof.
  intros q. rewrite switch_at. destruct (existsb (fun p => peqb p q) ps) eqn:E.
  - apply existsb_ptr in E. split; [intros H; contradiction|]. destruct (node_at ht q); cbn; [apply same_rule_with|exact I].
  - split; [reflexivity|]. destruct (node_at ht q); [apply same_rule_refl|exact I].
Qed.

(** One node. *)
Lemma eval_node_spec bs ht (n : knode) e : bools_ok bs -> toks_ok bs (c_expr n) -> writes (c_expr n) e -> (cells e <= 10)%nat ->
  NoDup (c_true n ++ c_false n) -> states_follow bs ht [n] ->
  exists ht' n', evaluate_cond_node bs ht n = Some (ht', n') /\
    c_expr n' = c_expr n /\ c_true n' = c_true n /\ c_false n' = c_false n /\
    frame (c_true n ++ c_false n) ht ht' /\ c_state n' = b2z (truth (asg_of bs) e) /\
    (forall p m, In p (c_true n) -> node_at ht' p = Some m -> rule_on m = truth (asg_of bs) e) /\
    (forall p m, In p (c_false n) -> node_at ht' p = Some m -> rule_on m = negb (truth (asg_of bs) e)).
Proof.
  intros B T W C ND SF. unfold evaluate_cond_node. rewrite (eval_writes _ _ _ B T W).
  destruct (Nat.leb_spec (cells e) 10) as [_|]; [|lia]. set (v := truth (asg_of bs) e).
  destruct (Z.eqb_spec (b2z v) (c_state n)) as [E|E].
  - exists ht, n. split; [reflexivity|]. split; [reflexivity|]. split; [reflexivity|]. split; [reflexivity|].
    split; [apply frame_refl|]. split; [symmetry; exact E|].
    destruct (SF n (or_introl eq_refl)) as [(S & H1 & H2)|[(S & H1 & H2)|(S1 & S2)]].
    + assert (v = true) as -> by (destruct v; [reflexivity|cbn in E; congruence]). split; assumption.
    + assert (v = false) as -> by (destruct v; [cbn in E; congruence|reflexivity]). split; assumption.
    + exfalso. destruct v; cbn in E; congruence.
  - eexists _, _. split; [reflexivity|]. cbn [c_expr c_true c_false c_state].
    split; [reflexivity|]. split; [reflexivity|]. split; [reflexivity|]. split.
    { eapply frame_trans; (eapply frame_incl; [|apply switch_frame]); [apply incl_appl, incl_refl|apply incl_appr, incl_refl]. }
    split; [reflexivity|].
    replace (negb (b2z v <=? 0)%Z) with v by (destruct v; reflexivity).
    replace (b2z v =? 0)%Z with (negb v) by (destruct v; reflexivity). split.
    + intros p m Hp. rewrite switch_at.
      assert (Hn : existsb (fun q => peqb q p) (c_false n) = false).
      { destruct (existsb (fun q => peqb q p) (c_false n)) eqn:Ex; [|reflexivity]. apply existsb_ptr in Ex. exfalso.
        clear - ND Hp Ex. induction (c_true n) as [|x l IH]; [destruct Hp|]. cbn in ND. inversion ND; subst.
        destruct Hp as [->|Hp]; [apply H1; apply in_or_app; right; exact Ex|exact (IH H2 Hp)]. }
      rewrite Hn, switch_at. rewrite (proj2 (existsb_ptr _ _) Hp). destruct (node_at ht p); cbn [option_map]; [|discriminate].
      intros [= <-]. apply with_enabled_on.
    + intros p m Hp. rewrite switch_at. rewrite (proj2 (existsb_ptr _ _) Hp). rewrite switch_at.
      match goal with |- context [option_map _ ?o] => destruct o end; cbn [option_map]; [|discriminate].
      intros [= <-]. apply with_enabled_on.
Qed.

Lemma nodup_app_l {A} (a b : list A) : NoDup (a ++ b) -> NoDup a.
Proof. induction a as [|x a IH]; intros H; [constructor|]. inversion H; subst. constructor; [|apply IH; assumption]. intros Hx. apply H2. apply in_or_app; left; exact Hx. Qed.
Lemma nodup_app_r {A} (a b : list A) : NoDup (a ++ b) -> NoDup b.
Proof. induction a as [|x a IH]; intros H; [exact H|]. inversion H; subst. auto. Qed.
Lemma nodup_app_disj {A} (a b : list A) x : NoDup (a ++ b) -> In x a -> In x b -> False.
Proof. induction a as [|y a IH]; intros H Ha Hb; [destruct Ha|]. inversion H; subst. destruct Ha as [->|Ha]; [apply H2; apply in_or_app; right; exact Hb|auto]. Qed.

Lemma states_follow_frame bs ht ht' ps l : frame ps ht ht' -> (forall p, In p ps -> ~ In p (all_ptrs l)) ->
  states_follow bs ht l -> states_follow bs ht' l.
Proof.
  intros F D SF c Hc.
  assert (K : forall p, In p (c_true c) \/ In p (c_false c) -> node_at ht' p = node_at ht p).
  { intros p Hp. apply (F p). intros Hi. apply (D p Hi). unfold all_ptrs. apply in_flat_map. exists c. split; [exact Hc|].
    apply in_or_app; exact Hp. }
  destruct (SF c Hc) as [(S & H1 & H2)|[(S & H1 & H2)|S]]; [left|right; left|right; right; exact S];
    (split; [exact S|]; split; intros p n Hp; rewrite K by auto; [apply H1|apply H2]; exact Hp).
Qed.

Lemma evaluate_conds_spec bs : bools_ok bs -> forall l ht, 
  Forall (fun c => toks_ok bs (c_expr c) /\ exists e, writes (c_expr c) e /\ (cells e <= 10)%nat) l ->
  NoDup (all_ptrs l) -> states_follow bs ht l ->
  exists ht' l', evaluate_conds bs ht l = Some (ht', l') /\ frame (all_ptrs l) ht ht' /\
    map (fun c => (c_expr c, c_true c, c_false c)) l' = map (fun c => (c_expr c, c_true c, c_false c)) l /\
    rules_follow bs ht' l' /\ states_follow bs ht' l'.
Proof.
  intros B. induction l as [|c l IH]; intros ht F ND SF; cbn [evaluate_conds].
  - exists ht, []. split; [reflexivity|]. split; [apply frame_refl|]. split; [reflexivity|]. split; [intros c e []|intros c []].
  - inversion F as [|x y (T & e & W & C) F' E1]; subst. cbn [all_ptrs flat_map] in ND. fold (all_ptrs l) in ND.
    destruct (eval_node_spec bs ht c e B T W C (nodup_app_l _ _ ND)) as (ht1 & c1 & -> & X1 & X2 & X3 & Fr1 & St1 & R1 & R2).
    { intros d [<-|[]]. apply SF. left; reflexivity. }
    assert (SF1 : states_follow bs ht1 l).
    { eapply states_follow_frame; [exact Fr1| |].
      - intros p H1 H2. exact (nodup_app_disj _ _ p ND H1 H2).
      - intros d Hd. apply SF. right; exact Hd. }
    destruct (IH ht1 F' (nodup_app_r _ _ ND) SF1) as (ht2 & l2 & -> & Fr2 & M2 & RF2 & SF2).
    exists ht2, (c1 :: l2). split; [reflexivity|]. split; [|split; [|split]].
    + cbn [all_ptrs flat_map]. fold (all_ptrs l). eapply frame_trans; (eapply frame_incl; [|eassumption]); [apply incl_appl, incl_refl|apply incl_appr, incl_refl].
    + cbn [map]. rewrite M2, X1, X2, X3. reflexivity.
    + assert (K : forall p, In p (c_true c) \/ In p (c_false c) -> node_at ht2 p = node_at ht1 p).
      { intros p Hp. apply (Fr2 p). intros Hi. eapply (nodup_app_disj _ _ p ND); [apply in_or_app; exact Hp|exact Hi]. }
      intros d ed [<-|Hd] Wd; [|exact (RF2 d ed Hd Wd)]. rewrite X1 in Wd. rewrite (writes_unique _ _ _ Wd W). rewrite X2, X3.
      split; intros p n Hp; rewrite K by auto; [apply R1|apply R2]; exact Hp.
    + assert (K : forall p, In p (c_true c) \/ In p (c_false c) -> node_at ht2 p = node_at ht1 p).
      { intros p Hp. apply (Fr2 p). intros Hi. eapply (nodup_app_disj _ _ p ND); [apply in_or_app; exact Hp|exact Hi]. }
      intros d [<-|Hd]; [|exact (SF2 d Hd)]. rewrite X2, X3, St1. destruct (truth (asg_of bs) e).
      * left. split; [reflexivity|]. split; intros p n Hp; rewrite K by auto; [apply R1|apply R2]; exact Hp.
      * right; left. split; [reflexivity|]. split; intros p n Hp; rewrite K by auto; [apply R1|apply R2]; exact Hp.
Qed.

Lemma conds_ok_transport bs bs' ht ht' l l' : length bs' = length bs -> frame (all_ptrs l) ht ht' ->
  map (fun c => (c_expr c, c_true c, c_false c)) l' = map (fun c => (c_expr c, c_true c, c_false c)) l ->
  conds_ok bs ht l -> conds_ok bs' ht' l'.
Proof.
  intros L Fr M (F & P & ND).
  assert (Ep : all_ptrs l' = all_ptrs l).
  { clear - M. revert l M. induction l' as [|c l' IH]; intros [|d l] M; cbn in M; try discriminate; [reflexivity|].
    injection M as E1 E2 E3 M. cbn [all_ptrs flat_map]. fold (all_ptrs l') (all_ptrs l). rewrite E2, E3, (IH _ M). reflexivity. }
  split; [|split].
  - assert (Ex : map c_expr l' = map c_expr l).
    { apply (f_equal (map (fun x => fst (fst x)))) in M. rewrite !map_map in M. exact M. }
    rewrite Forall_forall in *. intros c Hc. assert (In (c_expr c) (map c_expr l)) as Hi by (rewrite <- Ex; apply in_map; exact Hc).
    apply in_map_iff in Hi as (d & Ed & Hd). destruct (F d Hd) as (T & e & W & C). rewrite <- Ed.
    split; [exact (toks_ok_len _ _ _ L T)|]. exists e. split; assumption.
  - rewrite Ep. rewrite Forall_forall in *. intros p Hp. destruct (P p Hp) as (c & n & H1 & H2).
    destruct (Fr p) as [_ Q]. unfold node_at in Q. rewrite H1, H2 in Q. unfold ptr_ok.
    destruct (nth_error ht' (fst p)) as [c'|] eqn:E1; [|contradiction]. destruct (nth_error c' (snd p)) as [n'|] eqn:E2; [|contradiction].
    exists c', n'. split; [reflexivity|exact E2].
  - rewrite Ep. exact ND.
Qed.

(** The values after a history. *)
Definition step_asg (asg : N -> bool) (bs : bools) (s : N * Z) (v : N) : bool :=
  if (fst s =? v) && ((snd s =? 0)%Z || (snd s =? 1)%Z) then
    match bool_state bs v with Some _ => (snd s =? 1)%Z | None => asg v end
  else asg v.

Lemma states_follow_bs bs bs' ht l : states_follow bs ht l -> states_follow bs' ht l.
Proof. exact (fun x => x). Qed.

Lemma bool_set_spec bs ht l v x : bools_ok bs -> conds_ok bs ht l -> states_follow bs ht l -> rules_follow bs ht l ->
  exists bs' ht' l', sepol_bool_set bs ht l v x = Some (bs', ht', l') /\ bools_ok bs' /\ length bs' = length bs /\
    conds_ok bs' ht' l' /\ states_follow bs' ht' l' /\ rules_follow bs' ht' l' /\ frame (all_ptrs l) ht ht' /\
    map (fun c => (c_expr c, c_true c, c_false c)) l' = map (fun c => (c_expr c, c_true c, c_false c)) l /\
    forall w, asg_of bs' w = step_asg (asg_of bs) bs (v, x) w.
Proof.
  intros B CO SF RF. unfold sepol_bool_set.
  destruct (bool_state bs v) as [o|] eqn:Eb.
  - destruct ((x =? 0)%Z || (x =? 1)%Z) eqn:Ex; cbn [negb].
    + assert (V : var_ok bs v) by (apply bools_ok_state; [exact B|congruence]).
      destruct (set_bool_ok bs v (x =? 1)%Z B V) as (bs' & Es & B' & L' & S').
      replace (b2z (x =? 1)%Z) with x in Es by (destruct (Z.eqb_spec x 1); cbn; lia). rewrite Es.
      destruct CO as (F & P & ND).
      destruct (evaluate_conds_spec bs' B' l ht) as (ht' & l' & -> & Fr & M & RF' & SF').
      { eapply Forall_impl; [|exact F]. intros c (T & H). split; [exact (toks_ok_len _ _ _ L' T)|exact H]. }
      { exact ND. } { exact SF. }
      exists bs', ht', l'. split; [reflexivity|]. split; [exact B'|]. split; [exact L'|].
      split; [apply (conds_ok_transport bs bs' ht ht' l l' L' Fr M); split; [exact F|split; assumption]|].
      repeat (split; [assumption|]). intros w. unfold step_asg. cbn [fst snd]. rewrite Ex, andb_true_r.
      rewrite (asg_of_state bs' w). rewrite S', (N.eqb_sym v w). destruct (N.eqb_spec w v) as [->|]; [|symmetry; apply asg_of_state].
      rewrite Eb. destruct (x =? 1)%Z; reflexivity.
    + exists bs, ht, l. split; [reflexivity|]. split; [exact B|]. split; [reflexivity|]. repeat (split; [assumption|]).
      split; [apply frame_refl|]. split; [reflexivity|]. intros w. unfold step_asg. cbn [fst snd]. rewrite Ex, andb_false_r. reflexivity.
  - exists bs, ht, l. split; [reflexivity|]. split; [exact B|]. split; [reflexivity|]. repeat (split; [assumption|]).
    split; [apply frame_refl|]. split; [reflexivity|]. intros w. unfold step_asg. cbn [fst snd].
    destruct (N.eqb_spec v w) as [<-|]; cbn [andb]; [rewrite Eb; destruct ((x =? 0)%Z || (x =? 1)%Z)|]; reflexivity.
Qed.

Lemma assigned_state h bs v : assigned h bs v =
  match find (fun s => (fst s =? v) && ((snd s =? 0)%Z || (snd s =? 1)%Z)) (rev h) with
  | Some s => match bool_state bs v with Some _ => (snd s =? 1)%Z | None => asg_of bs v end
  | None => asg_of bs v
  end.
Proof.
  unfold assigned. rewrite <- (set_state bs v). destruct (find _ _); [|reflexivity]. destruct v; [reflexivity|].
  destruct (nth_error _ _) as [[z|]|]; reflexivity.
Qed.

Lemma assigned_snoc_front h : forall bs v x bs', length bs' = length bs -> bools_ok bs -> bools_ok bs' ->
  (forall w, asg_of bs' w = step_asg (asg_of bs) bs (v, x) w) ->
  forall w, assigned h bs' w = assigned ((v, x) :: h) bs w.
Proof.
  intros bs v x bs' L B B' H w. rewrite !assigned_state. cbn [rev].
  assert (Eo : match bool_state bs' w with Some _ => true | None => false end = match bool_state bs w with Some _ => true | None => false end).
  { pose proof (bools_ok_state bs w B) as P. pose proof (bools_ok_state bs' w B') as P'. unfold var_ok in *. rewrite L in P'.
    destruct (bool_state bs' w), (bool_state bs w); try reflexivity; exfalso.
    - assert (None <> @None Z) by (apply P, P'; discriminate). congruence.
    - assert (None <> @None Z) by (apply P', P; discriminate). congruence. }
  assert (Hf : forall (p : N * Z -> bool) a b, find p (a ++ [b]) = match find p a with Some y => Some y | None => if p b then Some b else None end).
  { intros p a b. induction a as [|y a IH]; cbn; [reflexivity|]. destruct (p y); [reflexivity|exact IH]. }
  rewrite Hf. destruct (find _ (rev h)) as [s|] eqn:Ef.
  - rewrite (H w). unfold step_asg. cbn [fst snd].
    destruct (bool_state bs' w), (bool_state bs w); try discriminate; try reflexivity.
    destruct ((v =? w) && _); reflexivity.
  - rewrite (H w). unfold step_asg. cbn [fst snd]. destruct ((v =? w) && ((x =? 0)%Z || (x =? 1)%Z)); reflexivity.
Qed.

Lemma set_history_spec h : forall bs ht l, bools_ok bs -> conds_ok bs ht l -> states_follow bs ht l -> rules_follow bs ht l ->
  exists bs' ht' l', set_history h bs ht l = Some (bs', ht', l') /\ bools_ok bs' /\
    rules_follow bs' ht' l' /\ frame (all_ptrs l) ht ht' /\
    map (fun c => (c_expr c, c_true c, c_false c)) l' = map (fun c => (c_expr c, c_true c, c_false c)) l /\
    forall w, asg_of bs' w = assigned h bs w.
Proof.
  induction h as [|[v x] h IH]; intros bs ht l B CO SF RF; cbn [set_history].
  - exists bs, ht, l. split; [reflexivity|]. repeat (split; [assumption|]). split; [apply frame_refl|]. split; [reflexivity|]. reflexivity.
  - destruct (bool_set_spec bs ht l v x B CO SF RF) as (b1 & h1 & l1 & -> & B1 & L1 & CO1 & SF1 & RF1 & Fr1 & M1 & A1).
    destruct (IH b1 h1 l1 B1 CO1 SF1 RF1) as (b2 & h2 & l2 & -> & B2 & RF2 & Fr2 & M2 & A2).
    assert (Ep : all_ptrs l1 = all_ptrs l).
    { clear - M1. revert l M1. induction l1 as [|c l' IH]; intros [|d l] M; cbn in M; try discriminate; [reflexivity|].
      injection M as E1 E2 E3 M. cbn [all_ptrs flat_map]. fold (all_ptrs l') (all_ptrs l). rewrite E2, E3, (IH _ M). reflexivity. }
    exists b2, h2, l2. split; [reflexivity|]. split; [exact B2|]. split; [exact RF2|].
    split; [rewrite Ep in Fr2; eapply frame_trans; eassumption|]. split; [congruence|].
    intros w. rewrite A2. apply (assigned_snoc_front h bs v x b1 L1 B B1 A1).
Qed.

(** ** Reordering of rule lists *)

Lemma optimize_loop_spec (f : anode -> bool) l : forall T K, 
  (T = [] -> K = [] -> True) -> forallb f T = true -> forallb (fun n => negb (f n)) K = true ->
  (T ++ K <> []) ->
  cond_optimize_loop f (T ++ K) l = rev (filter f l) ++ T ++ K ++ filter (fun n => negb (f n)) l.
Proof.
  induction l as [|c l IH]; intros T K _ HT HK Hne; cbn [cond_optimize_loop filter].
  - rewrite app_nil_r. reflexivity.
  - destruct (T ++ K) as [|d r] eqn:E; [congruence|]. rewrite <- E. destruct (f c) eqn:Fc; cbn [negb rev].
    + change (c :: T ++ K) with ((c :: T) ++ K). rewrite IH.
      * rewrite <- !app_assoc. reflexivity.
      * trivial.
      * cbn. rewrite Fc. exact HT.
      * exact HK.
      * discriminate.
    + rewrite <- (app_assoc T K [c]). rewrite IH.
      * rewrite <- !app_assoc. reflexivity.
      * trivial.
      * exact HT.
      * rewrite forallb_app, HK. cbn. rewrite Fc. reflexivity.
      * destruct T; [destruct K|]; discriminate.
Qed.

Lemma optimize_spec l : cond_optimize l =
  rev (filter (fun n => negb (N.land (k_spec (n_key n)) AVTAB_TYPE =? 0)) l) ++
  filter (fun n => negb (negb (N.land (k_spec (n_key n)) AVTAB_TYPE =? 0))) l.
Proof.
  unfold cond_optimize. set (f := fun n => negb (N.land (k_spec (n_key n)) AVTAB_TYPE =? 0)).
  destruct l as [|c l]; [reflexivity|]. cbn [cond_optimize_loop filter].
  change (fun n => negb (negb (N.land (k_spec (n_key n)) AVTAB_TYPE =? 0))) with (fun n => negb (f n)).
  change (negb (N.land (k_spec (n_key c)) AVTAB_TYPE =? 0)) with (f c).
  destruct (f c) eqn:Fc; cbn [negb].
  - pose proof (optimize_loop_spec f l [c] [] ltac:(trivial) ltac:(cbn; rewrite Fc; reflexivity) eq_refl ltac:(discriminate)) as H.
    cbn [app] in H. rewrite H. cbn [rev]. rewrite <- app_assoc. reflexivity.
  - pose proof (optimize_loop_spec f l [] [c] ltac:(trivial) eq_refl ltac:(cbn; rewrite Fc; reflexivity) ltac:(discriminate)) as H.
    cbn [app] in H. rewrite H. reflexivity.
Qed.
