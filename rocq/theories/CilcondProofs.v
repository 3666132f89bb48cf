(** Proofs about conditions of CIL. *)
From Coq Require Import Arith.
From Verif Require Import Base AvtabModel CondModel CondSpec CondProofs CondProofs2.
From Verif Require Import EbitmapModel CilexprModel CilexprSpec CilexprProofs CilexprSets CilcondModel CilcondSpec.

Lemma plain_dat tb n : plain_table tb -> dat tb n = IDatum n.
Proof. intros P. unfold dat, actual. destruct (P n) as [->|(v & ->)]; reflexivity. Qed.

Lemma plain_ok tb : plain_table tb -> forall n, is_catset tb n = false.
Proof. intros P n. unfold is_catset. destruct (P n) as [->|(v & ->)]; reflexivity. Qed.

(** ** Resolving *)

Lemma resolve_plain tb t f : plain_table tb -> shape f t = true -> f = FBool \/ f = FTunable ->
  (forall x, In x (names t) -> tb x <> None) ->
  forall r, resolve_item tb r (tm IStr t) = Some (tm (dat tb) t).
Proof.
  intros P. induction t as [n|k|l IH] using tree_ind2; intros Sh F Nm r.
  - cbn [tm resolve_item]. rewrite (resolve_name_decl tb n (Nm n (or_introl eq_refl))), (plain_ok tb P). reflexivity.
  - reflexivity.
  - cbn [tm]. rewrite resolve_unfold.
    assert (G : forall r, res_list tb r (map (tm IStr) l) = Some (map (tm (dat tb)) l)); [|rewrite G; reflexivity].
    assert (Sub : Forall (fun t => forall r, resolve_item tb r (tm IStr t) = Some (tm (dat tb) t)) l).
    { rewrite Forall_forall in IH |- *. intros x Hx r0.
      destruct x as [n|k|l0]; [|reflexivity|].
      - apply (IH _ Hx); [reflexivity|exact F|]. intros y Hy. apply Nm. cbn [names]. apply in_flat_map. eexists; split; [exact Hx|exact Hy].
      - apply (IH _ Hx); [|exact F|].
        + assert (Q := shape_form f l Sh). destruct Q; cbn [In] in Hx;
            repeat match goal with H : _ \/ _ |- _ => destruct H end; subst; try discriminate; try contradiction; try assumption.
          all: try (rewrite forallb_forall in H0; apply H0; cbn; auto).
        + intros y Hy. apply Nm. cbn [names]. apply in_flat_map. eexists; split; [exact Hx|exact Hy]. }
    clear - Sub. intros r. revert r. induction Sub as [|x l Hx Hl IHl]; intros r; [reflexivity|].
    cbn [map res_list]. rewrite Hx, IHl. reflexivity.
Qed.

Lemma read_condition tb f t : plain_table tb -> f = FBool \/ f = FTunable ->
  (condition_ok f tb t -> exists s, gen_expr f t = Some s /\ resolve_expr tb s = Some (expr_of tb t)) /\
  (~ condition_ok f tb t -> forall s, gen_expr f t = Some s -> resolve_expr tb s = None).
Proof.
  intros P F. split.
  - intros (Sh & Nm). exists (items_of (tm IStr t)). rewrite gen_ok, Sh. split; [reflexivity|].
    unfold resolve_expr, expr_of. destruct t as [n|k|l]; [|discriminate Sh|].
    + cbn [tm items_of]. rewrite resolve_unfold. cbn [res_list]. cbn [resolve_item].
      rewrite (resolve_name_decl tb n (Nm n (or_introl eq_refl))), (plain_ok tb P). reflexivity.
    + cbn [tm items_of]. change (IList (map (tm IStr) l)) with (tm IStr (TList l)).
      rewrite (resolve_plain tb (TList l) f P Sh F Nm). reflexivity.
  - intros H s G. rewrite gen_ok in G. destruct (shape f t) eqn:Sh; [|discriminate G]. injection G as <-.
    destruct (resolve_expr tb (items_of (tm IStr t))) as [e|] eqn:R; [|reflexivity].
    exfalso. apply H. split; [exact Sh|]. exact (proj2 (resolve_expr_fwd tb f t e Sh R)).
Qed.

(** ** Tunables *)

Fixpoint any_item (tv : N -> bool) (l : list item) : bool :=
  match l with [] => false | x :: l' => if tunable_item tv x then true else any_item tv l' end.

Definition is_op (i : item) : bool := match i with IOp _ => true | _ => false end.

Lemma tunable_list tv x l : is_op x = false -> tunable_item tv (IList (x :: l)) = any_item tv (x :: l).
Proof.
  assert (G : forall l, (fix any (l : list item) : bool :=
        match l with [] => false | x :: l' => if tunable_item tv x then true else any l' end) l = any_item tv l).
  { clear. induction l as [|y l IH]; [reflexivity|]. cbn [any_item]. rewrite <- IH. reflexivity. }
  intros H. rewrite <- G. destruct x; try discriminate H; reflexivity.
Qed.

Lemma tm_noop tb h : operator_of h = None -> is_op (tm (dat tb) h) = false.
Proof. destruct h; [reflexivity|discriminate|reflexivity]. Qed.

Lemma tunable_ok tb tv f t : plain_table tb -> f = FBool \/ f = FTunable -> shape f t = true ->
  tunable_item tv (tm (dat tb) t) = condition tv t.
Proof.
  intros P F. induction t as [n|k|l IH] using tree_ind2; intros Sh.
  - cbn [tm condition]. rewrite (plain_dat tb n P). reflexivity.
  - discriminate Sh.
  - apply shape_form in Sh. inversion Sh; subst.
    + destruct F; congruence.
    + inversion IH as [|? ? _ IH1]; subst. inversion IH1 as [|? ? Ha _]; subst.
      cbn [tm map condition]. cbn [tunable_item]. rewrite Ha by assumption. reflexivity.
    + inversion IH as [|? ? _ IH1]; subst. inversion IH1 as [|? ? Ha IH2]; subst. inversion IH2 as [|? ? Hb _]; subst.
      cbn [tm map condition]. cbn [tunable_item]. rewrite Ha, Hb by assumption. reflexivity.
    + inversion IH as [|? ? _ IH1]; subst. inversion IH1 as [|? ? Ha IH2]; subst. inversion IH2 as [|? ? Hb _]; subst.
      cbn [tm map condition]. cbn [tunable_item]. rewrite Ha, Hb by assumption. reflexivity.
    + inversion IH as [|? ? _ IH1]; subst. inversion IH1 as [|? ? Ha IH2]; subst. inversion IH2 as [|? ? Hb _]; subst.
      cbn [tm map condition]. cbn [tunable_item]. rewrite Ha, Hb by assumption. reflexivity.
    + inversion IH as [|? ? _ IH1]; subst. inversion IH1 as [|? ? Ha IH2]; subst. inversion IH2 as [|? ? Hb _]; subst.
      cbn [tm map condition]. cbn [tunable_item]. rewrite Ha, Hb by assumption. reflexivity.
    + inversion IH as [|? ? _ IH1]; subst. inversion IH1 as [|? ? Ha IH2]; subst. inversion IH2 as [|? ? Hb _]; subst.
      cbn [tm map condition]. cbn [tunable_item]. rewrite Ha, Hb by assumption. reflexivity.
    + destruct F; destruct H; congruence.
    + change (tm (dat tb) (TList (h :: c))) with (IList (tm (dat tb) h :: map (tm (dat tb)) c)).
      rewrite (tunable_list tv _ _ (tm_noop tb h H)).
      assert (E : condition tv (TList (h :: c)) = existsb (condition tv) (h :: c)).
      { destruct h; [reflexivity|discriminate H|reflexivity]. }
      rewrite E. change (tm (dat tb) h :: map (tm (dat tb)) c) with (map (tm (dat tb)) (h :: c)).
      clear H E Sh. revert IH H0. generalize (h :: c) as l. clear h c. induction l as [|x l IHl]; intros IH Sh; [reflexivity|].
      inversion IH as [|? ? Hx Hl]; subst. cbn [forallb] in Sh. apply andb_true_iff in Sh as [Sx Sl].
      cbn [map any_item existsb]. rewrite (Hx Sx), (IHl Hl Sl). destruct (condition tv x); reflexivity.
Qed.

Lemma expr_item tb t f : shape f t = true ->
  (exists n, t = TName n /\ expr_of tb t = [dat tb n]) \/ IList (expr_of tb t) = tm (dat tb) t.
Proof.
  intros Sh. destruct t as [n|k|l]; [left; exists n; split; reflexivity|discriminate Sh|right; reflexivity].
Qed.

Lemma verify_blocks_ok {S} (bl : list (block S)) : verify_blocks bl = true <-> blocks_ok bl.
Proof.
  split.
  - destruct bl as [|[[a|] x] [|[[b|] y] [|z bl]]]; cbn [verify_blocks]; intros H; try discriminate H.
    + apply one_block.
    + destruct a, b; try discriminate H; [apply (two_blocks true)|apply (two_blocks false)].
  - intros H. destruct H as [b x|[] x y]; reflexivity.
Qed.

Lemma pick_two_ok {S} fl (bl : list (block S)) : blocks_ok bl -> forall s, In s (pick_two fl bl) <-> statements fl bl s.
Proof.
  intros H s. unfold statements. destruct H as [b x|b x y]; cbn [pick_two fst snd In].
  - destruct (Bool.eqb b fl) eqn:E.
    + apply eqb_prop in E. subst. split; [intros Hs; exists x; split; [left; reflexivity|exact Hs]|].
      intros (z & [Ez|[]] & Hs). inversion Ez; subst. exact Hs.
    + apply eqb_false_iff in E. split; [intros []|]. intros (z & [Ez|[]] & Hs). inversion Ez; subst. congruence.
  - destruct (Bool.eqb (negb b) fl) eqn:E.
    + apply eqb_prop in E. subst. split; [intros Hs; exists y; split; [right; left; reflexivity|exact Hs]|].
      intros (z & [Ez|[Ez|[]]] & Hs); inversion Ez; subst; [destruct b; discriminate|exact Hs].
    + apply eqb_false_iff in E. assert (b = fl) by (destruct b, fl; cbn in E; congruence). subst fl.
      rewrite Bool.eqb_reflx. split; [intros Hs; exists x; split; [left; reflexivity|exact Hs]|].
      intros (z & [Ez|[Ez|[]]] & Hs); inversion Ez; subst; [exact Hs|destruct b; discriminate].
Qed.

Lemma pick_last_two {S} fl (bl : list (block S)) : blocks_ok bl -> pick_last fl bl = pick_two fl bl.
Proof. intros H. destruct H as [b x|b x y]; destruct b, fl; reflexivity. Qed.

Lemma tunableif_ok {S} tb tv t (bl : list (block S)) : plain_table tb ->
  (condition_ok FTunable tb t /\ blocks_ok bl ->
     tunableif tb tv t bl = Some (pick_two (condition tv t) bl)) /\
  (~ (condition_ok FTunable tb t /\ blocks_ok bl) -> tunableif tb tv t bl = None).
Proof.
  intros P. destruct (read_condition tb FTunable t P (or_intror eq_refl)) as [Y No]. unfold tunableif. split.
  - intros (C & B). destruct (Y C) as (s & -> & ->). rewrite (proj2 (verify_blocks_ok bl) B).
    assert (E : tunable_item tv (IList (expr_of tb t)) = condition tv t).
    { destruct (expr_item tb t FTunable (proj1 C)) as [(n & -> & ->)|E].
      - rewrite (plain_dat tb n P). cbn. destruct (tv n); reflexivity.
      - rewrite E. apply (tunable_ok tb tv FTunable t P (or_intror eq_refl) (proj1 C)). }
    rewrite E. destruct (condition tv t); reflexivity.
  - intros H. destruct (gen_expr FTunable t) as [s|] eqn:G; [|reflexivity].
    destruct (verify_blocks bl) eqn:V; [|reflexivity]. apply verify_blocks_ok in V.
    rewrite (No ltac:(tauto) s eq_refl). reflexivity.
Qed.

(** ** Booleans *)

Fixpoint bx (tb : table) (t : tree) : bexp :=
  match t with
  | TName n => BVar (number tb n)
  | TKey _ => BVar 0
  | TList [TKey KNot; a] => BNot (bx tb a)
  | TList [TKey KAnd; a; b] => BAnd (bx tb a) (bx tb b)
  | TList [TKey KOr; a; b] => BOr (bx tb a) (bx tb b)
  | TList [TKey KXor; a; b] => BXor (bx tb a) (bx tb b)
  | TList [TKey KEq; a; b] => BEq (bx tb a) (bx tb b)
  | TList [TKey KNeq; a; b] => BNeq (bx tb a) (bx tb b)
  | TList l => match map (bx tb) l with [] => BVar 0 | h :: c => fold_left BOr c h end
  end.

Lemma bx_list tb h c : operator_of h = None -> bx tb (TList (h :: c)) = fold_left BOr (map (bx tb) c) (bx tb h).
Proof. destruct h; [reflexivity|discriminate|reflexivity]. Qed.

Fixpoint join_items (tb : table) (acc : list tok) (l : list item) : option (list tok) :=
  match l with
  | [] => Some acc
  | x :: l' =>
      match cond_item tb x with
      | None => None
      | Some h2 => join_items tb (acc ++ h2 ++ [mkT COND_OR 0]) l'
      end
  end.

Lemma cond_list tb x l : is_op x = false -> cond_item tb (IList (x :: l)) =
  match cond_item tb x with None => None | Some h1 => join_items tb h1 l end.
Proof.
  assert (G : forall l acc, (fix join (acc : list tok) (l : list item) : option (list tok) :=
        match l with
        | [] => Some acc
        | x :: l' =>
            match cond_item tb x with
            | None => None
            | Some h2 => join (acc ++ h2 ++ [mkT COND_OR 0]) l'
            end
        end) acc l = join_items tb acc l).
  { clear. induction l as [|y l IH]; intros acc; [reflexivity|]. cbn [join_items].
    destruct (cond_item tb y); [rewrite <- IH; reflexivity|reflexivity]. }
  intros H.
  assert (E : forall y, match y with None => None | Some h1 => join_items tb h1 l end =
     match y with None => None | Some h1 =>
      (fix join (acc : list tok) (l : list item) : option (list tok) :=
        match l with
        | [] => Some acc
        | x :: l' =>
            match cond_item tb x with
            | None => None
            | Some h2 => join (acc ++ h2 ++ [mkT COND_OR 0]) l'
            end
        end) h1 l end).
  { intros [h|]; [symmetry; apply G|reflexivity]. }
  rewrite E. destruct x; try discriminate H; reflexivity.
Qed.

Definition plain_ops (l : list tok) : Prop := forall t, In t l -> t_type t <> 1 -> t_bool t = 0.

Lemma plain_app l m : plain_ops l -> plain_ops m -> plain_ops (l ++ m).
Proof. intros A B t Ht. apply in_app_or in Ht as [Ht|Ht]; [exact (A t Ht)|exact (B t Ht)]. Qed.
Lemma plain_one k : plain_ops [mkT k 0].
Proof. intros t [<-|[]] _. reflexivity. Qed.

Definition translates (tb : table) (t : tree) : Prop :=
  exists l, cond_item tb (tm (dat tb) t) = Some l /\ writes l (bx tb t) /\ plain_ops l.

Lemma join_ok tb c : Forall (translates tb) c -> forall acc e, writes acc e -> plain_ops acc ->
  exists l, join_items tb acc (map (tm (dat tb)) c) = Some l /\ writes l (fold_left BOr (map (bx tb) c) e) /\ plain_ops l.
Proof.
  induction 1 as [|x c (h2 & E2 & W2 & P2) _ IH]; intros acc e W P.
  - exists acc. split; [reflexivity|split; assumption].
  - cbn [map join_items fold_left]. rewrite E2. apply IH.
    + apply (W_or acc e h2 (bx tb x) 0 W W2).
    + apply plain_app; [exact P|apply plain_app; [exact P2|apply plain_one]].
Qed.

Lemma cond_ok tb t : plain_table tb -> shape FBool t = true -> (forall n, In n (names t) -> tb n <> None) -> translates tb t.
Proof.
  intros P. induction t as [n|k|l IH] using tree_ind2; intros Sh Nm.
  - unfold translates. cbn [tm bx]. rewrite (plain_dat tb n P). cbn [cond_item]. unfold bool_value, number.
    destruct (P n) as [E|(v & E)]; [destruct (Nm n (or_introl eq_refl) E)|]. rewrite E.
    exists [mkT 1 (v + 1)]. split; [reflexivity|]. split; [constructor|]. intros t [<-|[]] H. cbn in H. congruence.
  - discriminate Sh.
  - apply shape_form in Sh.
    assert (Sub : forall x, In x l -> shape FBool x = true -> translates tb x).
    { intros x Hx Sx. rewrite Forall_forall in IH. apply (IH x Hx Sx). intros y Hy. apply Nm.
      cbn [names]. apply in_flat_map. exists x. split; assumption. }
    clear IH.
    assert (Bin : forall k o a b, l = [TKey k; a; b] -> k <> KNot -> cond_op k = Some o -> shape FBool a = true -> shape FBool b = true ->
      exists la lb, cond_item tb (tm (dat tb) (TList l)) = Some (la ++ lb ++ [mkT o 0]) /\
        writes la (bx tb a) /\ writes lb (bx tb b) /\ plain_ops (la ++ lb ++ [mkT o 0])).
    { intros k o a b -> Hk Ho Sa Sb.
      destruct (Sub a ltac:(cbn; auto) Sa) as (la & Ea & Wa & Pa). destruct (Sub b ltac:(cbn; auto) Sb) as (lb & Eb & Wb & Pb).
      exists la, lb. cbn [tm map]. cbn [cond_item]. rewrite Ho, Ea, Eb. split; [destruct k; congruence|].
      split; [exact Wa|]. split; [exact Wb|]. apply plain_app; [exact Pa|apply plain_app; [exact Pb|apply plain_one]]. }
    unfold translates. inversion Sh; subst.
    + congruence.
    + destruct (Sub a ltac:(cbn; auto) ltac:(assumption)) as (la & Ea & Wa & Pa).
      exists (la ++ [mkT 2 0]). cbn [tm map]. cbn [cond_item cond_op]. rewrite Ea. split; [reflexivity|].
      split; [apply W_not; exact Wa|]. apply plain_app; [exact Pa|apply plain_one].
    + destruct (Bin KAnd 4 a b) as (la & lb & E & Wa & Wb & Q); try assumption; try reflexivity; try discriminate.
      eexists. split; [exact E|]. split; [apply W_and; assumption|exact Q].
    + destruct (Bin KOr 3 a b) as (la & lb & E & Wa & Wb & Q); try assumption; try reflexivity; try discriminate.
      eexists. split; [exact E|]. split; [apply W_or; assumption|exact Q].
    + destruct (Bin KXor 5 a b) as (la & lb & E & Wa & Wb & Q); try assumption; try reflexivity; try discriminate.
      eexists. split; [exact E|]. split; [apply W_xor; assumption|exact Q].
    + destruct (Bin KEq 6 a b) as (la & lb & E & Wa & Wb & Q); try assumption; try reflexivity; try discriminate.
      eexists. split; [exact E|]. split; [apply W_eq; assumption|exact Q].
    + destruct (Bin KNeq 7 a b) as (la & lb & E & Wa & Wb & Q); try assumption; try reflexivity; try discriminate.
      eexists. split; [exact E|]. split; [apply W_neq; assumption|exact Q].
    + destruct H; discriminate.
    + cbn [tm map]. rewrite (cond_list tb _ _ (tm_noop tb h H)), (bx_list tb h c H).
      cbn [forallb] in H0. apply andb_true_iff in H0 as [Sx Sl].
      destruct (Sub h ltac:(cbn; auto) Sx) as (h1 & E1 & W1 & P1). rewrite E1.
      apply join_ok; [|exact W1|exact P1]. apply Forall_forall. intros x Hx.
      rewrite forallb_forall in Sl. apply Sub; [right; exact Hx|exact (Sl x Hx)].
Qed.

Lemma fold_or_truth asg l : forall e, truth asg (fold_left BOr l e) = truth asg e || existsb (truth asg) l.
Proof.
  induction l as [|x l IH]; intros e; cbn [fold_left existsb]; [rewrite orb_false_r; reflexivity|].
  rewrite IH. cbn [truth]. rewrite orb_assoc. reflexivity.
Qed.

Lemma bx_truth tb asg t : shape FBool t = true -> truth asg (bx tb t) = condition (fun n => asg (number tb n)) t.
Proof.
  induction t as [n|k|l IH] using tree_ind2; intros Sh; [reflexivity|discriminate Sh|].
  apply shape_form in Sh. rewrite Forall_forall in IH.
  inversion Sh; subst.
  1: congruence.
  1-6: cbn [bx condition truth]; rewrite ?(IH a), ?(IH b) by (assumption || (cbn; auto)); reflexivity.
  1: destruct H; discriminate.
  rewrite (bx_list tb h c H), fold_or_truth.
  assert (E : condition (fun n => asg (number tb n)) (TList (h :: c)) = existsb (condition (fun n => asg (number tb n))) (h :: c)).
  { destruct h; [reflexivity|discriminate H|reflexivity]. }
  rewrite E. cbn [existsb]. rewrite forallb_forall in H0.
  rewrite (IH h (or_introl eq_refl) (H0 h (or_introl eq_refl))). f_equal.
  assert (G : forall x, In x c -> truth asg (bx tb x) = condition (fun n => asg (number tb n)) x).
  { intros x Hx. apply IH; [right; exact Hx|apply H0; right; exact Hx]. }
  clear - G. induction c as [|x c IHc]; [reflexivity|]. cbn [map existsb].
  rewrite (G x (or_introl eq_refl)), IHc; [reflexivity|]. intros y Hy. apply G. right. exact Hy.
Qed.

Lemma fold_or_cells l : forall e, cells (fold_left BOr l e) = fold_left (fun acc x => Nat.max acc (S x)) (map cells l) (cells e).
Proof. induction l as [|x l IH]; intros e; [reflexivity|]. cbn [fold_left map]. rewrite IH. reflexivity. Qed.

Lemma bx_cells tb t : shape FBool t = true -> cells (bx tb t) = depth t.
Proof.
  induction t as [n|k|l IH] using tree_ind2; intros Sh; [reflexivity|discriminate Sh|].
  apply shape_form in Sh. rewrite Forall_forall in IH.
  inversion Sh; subst.
  1: congruence.
  1-6: cbn [bx depth cells]; rewrite ?(IH a), ?(IH b) by (assumption || (cbn; auto)); reflexivity.
  1: destruct H; discriminate.
  rewrite (bx_list tb h c H), fold_or_cells.
  assert (E : depth (TList (h :: c)) = fold_left (fun acc x => Nat.max acc (S x)) (map depth c) (depth h)).
  { destruct h as [n|k|l0]; [|discriminate H|]; destruct c as [|a [|b c]]; reflexivity. }
  rewrite E. rewrite forallb_forall in H0. rewrite (IH h (or_introl eq_refl) (H0 h (or_introl eq_refl))). f_equal.
  rewrite map_map. apply map_ext_in. intros x Hx. apply IH; [right; exact Hx|apply H0; right; exact Hx].
Qed.

Lemma fold_or_vars l : forall e, vars (fold_left BOr l e) = vars e ++ flat_map vars l.
Proof.
  induction l as [|x l IH]; intros e; cbn [fold_left flat_map]; [rewrite app_nil_r; reflexivity|].
  rewrite IH. cbn [vars]. rewrite app_assoc. reflexivity.
Qed.

Lemma bx_vars tb t : shape FBool t = true -> vars (bx tb t) = map (number tb) (names t).
Proof.
  induction t as [n|k|l IH] using tree_ind2; intros Sh; [reflexivity|discriminate Sh|].
  apply shape_form in Sh. rewrite Forall_forall in IH.
  inversion Sh; subst.
  1: congruence.
  1-6: cbn [bx names vars flat_map]; rewrite ?(IH a), ?(IH b) by (assumption || (cbn; auto)); cbn [app]; rewrite ?app_nil_r, ?map_app; reflexivity.
  1: destruct H; discriminate.
  rewrite (bx_list tb h c H), fold_or_vars. cbn [names flat_map]. rewrite map_app. rewrite forallb_forall in H0.
  rewrite (IH h (or_introl eq_refl) (H0 h (or_introl eq_refl))). f_equal.
  assert (G : forall x, In x c -> vars (bx tb x) = map (number tb) (names x)).
  { intros x Hx. apply IH; [right; exact Hx|apply H0; right; exact Hx]. }
  clear - G. induction c as [|x c IHc]; [reflexivity|]. cbn [map flat_map]. rewrite map_app.
  rewrite (G x (or_introl eq_refl)), IHc; [reflexivity|]. intros y Hy. apply G. right. exact Hy.
Qed.

Lemma validate_from_loop l : plain_ops l -> forall d, (d <= 9)%Z -> validate_from d l = validate_loop (fun _ => true) d l.
Proof.
  induction l as [|t l IH]; intros P d D; [reflexivity|].
  assert (Pl : plain_ops l) by (intros x Hx; apply P; right; exact Hx).
  cbn [validate_from validate_loop negb]. pose proof (P t (or_introl eq_refl)) as Q.
  unfold COND_BOOL, COND_NOT, COND_OR, COND_AND, COND_XOR, COND_EQ, COND_NEQ, COND_EXPR_MAXDEPTH in *.
  destruct (t_type t =? 1) eqn:E1.
  - destruct (Z.eqb_spec d (10 - 1)); destruct (Z.leb_spec (10 - 1) d); try reflexivity; try lia. apply IH; [exact Pl|lia].
  - assert (H : t_type t <> 1) by lia. rewrite (Q H). change (negb (0 =? 0)) with false. cbn iota.
    destruct (t_type t =? 2) eqn:E2.
    + destruct (d <? 0)%Z; [reflexivity|]. apply IH; [exact Pl|exact D].
    + replace ((t_type t =? 3) || (t_type t =? 4) || (t_type t =? 5) || (t_type t =? 6) || (t_type t =? 7))
        with ((3 <=? t_type t) && (t_type t <=? 7)) by (clear - E1 E2; lia).
      destruct ((3 <=? t_type t) && (t_type t <=? 7)); [|reflexivity].
      destruct (d <? 1)%Z; [reflexivity|]. apply IH; [exact Pl|lia].
Qed.

Lemma condition_expr_ok tb t : plain_table tb ->
  (condition_ok FBool tb t /\ (depth t <= 10)%nat ->
     exists l, condition_expr tb t = Some l /\ writes l (bx tb t) /\ plain_ops l) /\
  (~ (condition_ok FBool tb t /\ (depth t <= 10)%nat) -> condition_expr tb t = None).
Proof.
  intros P. destruct (read_condition tb FBool t P (or_introl eq_refl)) as [Y No].
  assert (Tr : condition_ok FBool tb t -> exists l, cond_item tb (IList (expr_of tb t)) = Some l /\ writes l (bx tb t) /\ plain_ops l).
  { intros C. destruct (cond_ok tb t P (proj1 C) (proj2 C)) as (l & E & W & Q). exists l.
    split; [|split; assumption]. destruct (expr_item tb t FBool (proj1 C)) as [(n & -> & ->)|Ei].
    - cbn [tm] in E. rewrite (plain_dat tb n P) in *. rewrite cond_list by reflexivity. rewrite E. reflexivity.
    - rewrite Ei. exact E. }
  assert (V : forall l, writes l (bx tb t) -> plain_ops l -> validate_from (-1) l = true <-> (cells (bx tb t) <= 10)%nat).
  { intros l W Q. rewrite (validate_from_loop l Q (-1)%Z ltac:(lia)). pose proof (validate_iff (fun _ => true) l) as I. unfold validate_cond_expr in I.
    pose proof (writes_nonempty l _ W) as Ne. destruct l as [|t0 l0] eqn:El; [congruence|]. rewrite <- El in *.
    rewrite I. split.
    - intros ((e & We & Ce) & _). rewrite (writes_unique _ _ _ W We). exact Ce.
    - intros C. split; [exists (bx tb t); split; assumption|]. intros x Hx. split; [reflexivity|exact (Q x Hx)]. }
  unfold condition_expr. split.
  - intros (C & D). destruct (Y C) as (s & -> & ->). destruct (Tr C) as (l & -> & W & Q).
    rewrite <- (bx_cells tb t (proj1 C)) in D. rewrite (proj2 (V l W Q) D). exists l. split; [reflexivity|split; assumption].
  - intros H. destruct (gen_expr FBool t) as [s|] eqn:G; [|reflexivity].
    destruct (resolve_expr tb s) as [e|] eqn:R; [|reflexivity].
    assert (C : condition_ok FBool tb t).
    { rewrite gen_ok in G. destruct (shape FBool t) eqn:Sh; [|discriminate G]. injection G as <-.
      split; [exact Sh|]. exact (proj2 (resolve_expr_fwd tb FBool t e Sh R)). }
    destruct (Y C) as (s' & Gs & Rs). assert (s' = s) by congruence. subst s'. assert (e = expr_of tb t) by congruence. subst e.
    destruct (Tr C) as (l & -> & W & Q). destruct (validate_from (-1) l) eqn:Vl; [|reflexivity].
    apply (V l W Q) in Vl. rewrite (bx_cells tb t (proj1 C)) in Vl. tauto.
Qed.
